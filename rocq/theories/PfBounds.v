(** * Proofs of the properties about the reported extremes in any state (C63) and the remaining cases
    of resizing, merging and equality (C10, C16, C17, C21) *)
(*PROPS-IMPORTS Machine Log2Model HistModel Spec Reach Witness Cases *)
(*PROPS-HEADER
(** Bounds that hold in every state of a histogram, whatever was done to it -- including records of
    zero samples, saturated counters and a [subtract] that failed half way -- and the cases of C10,
    C16, C17 and C21 that the other files leave out. *)
PROPS-HEADER*)
From Verif Require Import Machine Log2Model HistModel Spec Reach Bins ListZ Log2Facts Cfg Wf Ops AddFacts SubFacts Exact MoreFacts Witness HeldFacts PfRecord PfMerge PfQuery PfOrder.
From Coq Require Import ZifyBool ZifyNat.

Lemma count_bin h v c : wf h -> u64 v -> covers h v -> count_at h v = Ret c -> c = zn (h_counts h) (bin h v).
Proof.
  intros W V CV E. apply covers_bin in CV; auto. rewrite count_at_ok in E by auto. rewrite cbin_in in E by auto.
  injection E as <-. reflexivity.
Qed.

(** ** C63.  [max], [min_nz], [min] and [len] are bounds for the samples held, in every state *)
Lemma C63_max_bound_proof : forall h, reachable h -> exists mx, max h = Ret mx /\ is_u64 mx /\ covers h mx /\
  forall v c, is_u64 v -> covers h v -> count_at h v = Ret c -> c <> 0 -> v <= mx \/ equivalent h v mx = Ret true.
Proof.
  intros h R. pose proof (reachable_wf h R) as W. pose proof (w_cfg h W) as C. exists (maxp h).
  pose proof (maxp_u64 h W) as MU. split; [apply max_ok; auto|]. split; [exact MU|]. split.
  - apply covers_bin; auto. rewrite bin_maxp by auto. apply (w_max_in h W).
  - intros v c V CV E NZ. rewrite (count_bin h v c) in NZ by auto.
    apply (w_max_top h W) in NZ; [|apply bin_nonneg; auto; apply V]. fold (bin h (h_max h)) in NZ. rewrite <- bin_maxp in NZ by auto.
    rewrite equivalent_bin by auto. destruct (Z.eqb_spec (bin h v) (bin h (maxp h))) as [EQ|N]; auto. left.
    destruct (Z_le_gt_dec v (maxp h)); auto. pose proof (bin_mono h (maxp h) v C). destruct MU. lia.
Qed.
(*EX
Example ex_C63_max_bound : match build U8 1 1000 1 false [(5, 200); (900, 3)] with
  | Some h => reachable h /\ is_u64 927 /\ covers h 927 /\ count_at h 927 = Ret 3 /\ max h = Ret 927 /\ is_u64 901 /\ covers h 901 /\ count_at h 901 = Ret 3
  | None => False end.
Proof. case_of. Qed.
EX*)
(** every value [iter_recorded] lists is at most [max] *)
Lemma C63_max_held_proof : forall h mx v n, reachable h -> max h = Ret mx -> In (v, n) (held h) -> v <= mx.
Proof.
  intros h mx v n R E I. pose proof (reachable_wf h R) as W. pose proof (w_cfg h W) as C.
  rewrite max_ok in E by auto. injection E as <-. rewrite held_contents in I by auto.
  pose proof (contents_in h v n W I) as (k & K & _ & -> & _ & _ & VM & VU). exact VM.
Qed.
(*EX
Example ex_C63_max_held : match build U8 1 1000 1 false [(5, 200); (900, 3)] with
  | Some h => reachable h /\ max h = Ret 927 /\ In (896, 3) (held h) /\ In (5, 200) (held h)
  | None => False end.
Proof. case_of. Qed.
EX*)
Lemma C63_min_nz_bound_proof : forall h, reachable h -> exists mn, min_nz h = Ret mn /\ is_u64 mn /\
  equivalent h mn 0 = Ret false /\
  forall v c, is_u64 v -> covers h v -> count_at h v = Ret c -> c <> 0 -> equivalent h v 0 = Ret false ->
    mn <= v \/ equivalent h v mn = Ret true.
Proof.
  intros h R. pose proof (reachable_wf h R) as W. pose proof (w_cfg h W) as C. exists (minp h).
  pose proof (minp_u64 h W) as MU. split; [apply min_nz_ok; auto|]. split; [exact MU|].
  pose proof u64_0 as U0. pose proof (bin_0 h C) as B0. split.
  - rewrite equivalent_bin by auto. rewrite bin_minp, B0 by auto. pose proof (h_min_bin_pos h W). f_equal. lia.
  - intros v c V CV E NZ NE. rewrite (count_bin h v c) in NZ by auto. rewrite equivalent_bin in NE by auto. injection NE as NE.
    rewrite B0 in NE. pose proof (bin_nonneg h v C ltac:(apply V)).
    apply (w_min_bot h W) in NZ; [|lia]. fold (bin h (h_min h)) in NZ. rewrite <- bin_minp in NZ by auto.
    rewrite equivalent_bin by auto. destruct (Z.eqb_spec (bin h v) (bin h (minp h))) as [EQ|N]; auto. left.
    destruct (Z_le_gt_dec (minp h) v); auto. pose proof (bin_mono h v (minp h) C). destruct V. lia.
Qed.
(*EX
Example ex_C63_min_nz_bound : match build U8 1 1000 1 false [(0, 4); (50, 200); (900, 3)] with
  | Some h => reachable h /\ min_nz h = Ret 50 /\ is_u64 51 /\ covers h 51 /\ count_at h 51 = Ret 200 /\ equivalent h 51 0 = Ret false /\ equivalent h 51 50 = Ret true
  | None => False end.
Proof. case_of. Qed.
EX*)
Lemma C63_min_bound_proof : forall h, reachable h -> exists mn, min h = Ret mn /\ is_u64 mn /\
  (len h = 0 -> mn = 0) /\
  forall v c, is_u64 v -> covers h v -> count_at h v = Ret c -> c <> 0 -> mn <= v \/ equivalent h v mn = Ret true.
Proof.
  intros h R. pose proof (reachable_wf h R) as W. pose proof (w_cfg h W) as C. rewrite min_ok by auto. eexists. split; [reflexivity|].
  pose proof (minp_u64 h W) as MU. pose proof u64_0 as U0. pose proof (bin_0 h C) as B0.
  unfold len. destruct (Z.eqb_spec (h_total h) 0) as [T0|T0]; cbn [orb].
  { split; [exact U0|]. split; auto. intros v c V CV E NZ. left. apply V. }
  destruct (Z.eqb_spec (zn (h_counts h) 0) 0) as [Z0|Z0]; cbn [negb].
  - split; [exact MU|]. split; [lia|]. intros v c V CV E NZ. destruct (C63_min_nz_bound_proof h R) as (mn & E1 & _ & _ & B).
    rewrite min_nz_ok in E1 by auto. injection E1 as <-. apply (B v c); auto.
    rewrite equivalent_bin, B0 by auto. rewrite (count_bin h v c) in NZ by auto. f_equal. apply Z.eqb_neq. congruence.
  - split; [exact U0|]. split; [lia|]. intros v c V CV E NZ. left. apply V.
Qed.
(*EX
Example ex_C63_min_bound : match build U8 1 1000 1 false [(50, 200); (900, 3)] with
  | Some h => reachable h /\ min h = Ret 50 /\ is_u64 51 /\ covers h 51 /\ count_at h 51 = Ret 200 /\ len h = 203
  | None => False end.
Proof. case_of. Qed.
EX*)
(** [len] is never below the number of samples in the bins (counted up to [u64::MAX]) *)
Lemma C63_len_bound_proof : forall h, reachable h -> is_u64 (len h) /\ Z.min u64_max (weight (held h)) <= len h /\
  (len h = 0 -> held h = []).
Proof.
  intros h R. pose proof (reachable_wf h R) as W. pose proof (w_total h W) as T. pose proof (wf_total_nonneg h W).
  rewrite held_total by auto. unfold len. split; [exact H|]. split; [lia|]. intros Z0.
  apply held_nil; auto. intros i Hi. apply (empty_zero h W Z0); auto.
Qed.
(*EX
Example ex_C63_len_bound : match build U8 1 1000 1 false [(5, 200); (900, 3); (5, 100)] with
  | Some h => reachable h /\ weight (held h) = 258 /\ len h = 303
  | None => False end.
Proof. case_of. Qed.
EX*)
(** when [len] is the number of samples held, [min] is at most [max] or in its class *)
Lemma C63_min_le_max_proof : forall h mn mx, reachable h -> len_agrees h -> min h = Ret mn -> max h = Ret mx ->
  mn <= mx \/ equivalent h mn mx = Ret true.
Proof.
  intros h mn mx R LA E1 E2. pose proof (reachable_wf h R) as W. pose proof (w_cfg h W) as C.
  apply len_agrees_iff in LA; auto. rewrite min_ok in E1 by auto. rewrite max_ok in E2 by auto.
  injection E1 as <-. injection E2 as <-. pose proof (maxp_u64 h W) as MU. pose proof (minp_u64 h W) as NU.
  destruct (Z.eqb_spec (h_total h) 0) as [T0|T0]; cbn [orb]; [left; apply MU|].
  destruct (Z.eqb_spec (zn (h_counts h) 0) 0) as [Z0|Z0]; cbn [negb]; [|left; apply MU].
  assert (NZ : exists i, 0 <= i /\ zn (h_counts h) i <> 0).
  { destruct (held h) as [|[v n] l] eqn:HE.
    - pose proof (proj1 (held_nil h W) HE) as HZ. exfalso. apply T0. rewrite LA. apply zsum_0_iff; auto. apply wf_nonneg; auto.
    - assert (I : In (v, n) (held h)) by (rewrite HE; left; reflexivity). apply held_in in I; auto.
      destruct I as (V & _ & -> & N). exists (bin h v). split; auto. apply bin_nonneg; auto. }
  destruct NZ as (i & Hi & N). assert (i <> 0) by congruence.
  pose proof (w_max_top h W i Hi N) as A. pose proof (w_min_bot h W i ltac:(lia) N) as B.
  fold (bin h (h_max h)) in A. fold (bin h (h_min h)) in B. rewrite <- bin_maxp in A by auto. rewrite <- bin_minp in B by auto.
  rewrite equivalent_bin by auto. destruct (Z.eqb_spec (bin h (minp h)) (bin h (maxp h))); auto. left.
  destruct (Z_le_gt_dec (minp h) (maxp h)); auto. pose proof (bin_mono h (maxp h) (minp h) C). destruct MU. lia.
Qed.
(*EX
Example ex_C63_min_le_max : match build U8 1 1000 1 false [(50, 200); (900, 3)] with
  | Some h => reachable h /\ len_agrees h /\ min h = Ret 50 /\ max h = Ret 927
  | None => False end.
Proof. case_of. Qed.
EX*)
(** otherwise it need not be: a [subtract] that fails half way can leave [min] at [u64::MAX] and [max]
    at 0 *)
Lemma C63_min_above_max_refuted_proof : exists h s h', reachable h /\ reachable s /\ h_ctr h = h_ctr s /\
  subtract h s = Ret (h', RErr SubtrahendCountExceedsMinuendCount) /\ reachable h' /\
  len h' = 300 /\ held h' = [] /\ min h' = Ret u64_max /\ max h' = Ret 0.
Proof.
  destruct (build U8 1 1000 1 false [(0, 200); (0, 100)]) as [h|] eqn:B; [|vm_compute in B; discriminate].
  destruct (build U8 1 1000 1 false [(0, 255); (5, 1)]) as [s|] eqn:B2; [|vm_compute in B2; discriminate].
  pose proof (build_reachable _ _ _ _ _ _ _ B) as R. vm_compute in B. injection B as <-.
  pose proof (build_reachable _ _ _ _ _ _ _ B2) as R2. vm_compute in B2. injection B2 as <-.
  match type of R with reachable ?x => match type of R2 with reachable ?y =>
    destruct (subtract x y) as [[h' [[]|e]]|] eqn:E; try (vm_compute in E; discriminate) end end.
  assert (EE : e = SubtrahendCountExceedsMinuendCount) by (vm_compute in E; congruence). subst e.
  do 2 eexists. exists h'. split; [exact R|]. split; [exact R2|]. split; [reflexivity|]. split; [exact E|].
  split; [exact (reach_subtract _ _ _ _ R R2 eq_refl E)|].
  vm_compute in E. injection E as <-. vm_compute. auto.
Qed.
(*EX
Example ex_C63 : match build U64 1 1000 1 false [(0, 1); (5, 1); (9, 1)], build U64 1 1000 1 false [(5, 1)] with
  | Some h, Some s =>
      reachable h /\ reachable s /\ match subtract h s with
      | Ret (h', ROk _) => held h' = [(0, 1); (9, 1)] /\ min_nz h' = Ret 5 /\ min h' = Ret 0 /\ max h' = Ret 9 /\ len h' = 2
      | _ => False end
  | _, _ => False end.
Proof. case_of. Qed.
EX*)

(** ** C52.  What is right after a successful [subtract] in any case: [len] and [max] are exact, [min_nz]
    is a lower bound, exact if no sample equivalent to 0 was held.  Missing for the full claim: [min_nz]
    exact in every case, which is false (C52_stale_min_nz_refuted). *)
Lemma C52_subtract_stats_partial_proof : forall h s h', reachable h -> reachable s -> h_ctr h = h_ctr s ->
  stats_agree h -> subtract h s = Ret (h', ROk tt) ->
  len_agrees h' /\ max_agrees h' /\ (count_at h 0 = Ret 0 -> min_agrees h') /\
  exists mn, min_nz h' = Ret mn /\ equivalent h' mn 0 = Ret false /\
    forall v n, In (v, n) (held h') -> equivalent h' v 0 = Ret false -> mn <= v \/ equivalent h' v mn = Ret true.
Proof.
  intros h s h' R RS CT SH E. destruct (C17_subtract_stats_proof h s h' R RS CT SH E) as (L & M & N). do 3 (split; auto).
  pose proof (reach_subtract _ _ _ _ R RS CT E) as R'. pose proof (reachable_wf h' R') as W'. pose proof (w_cfg h' W') as C'.
  destruct (C63_min_nz_bound_proof h' R') as (mn & E1 & _ & E2 & B). exists mn. do 2 (split; auto).
  intros v n I NE. apply held_in in I; auto. destruct I as (V0 & V1 & V2 & V3).
  assert (IN : bin h' v < zlen (h_counts h')).
  { destruct (Z_lt_le_dec (bin h' v) (zlen (h_counts h'))); auto. rewrite V2, zn_out in V3 by lia. lia. }
  assert (VU : u64 v). { rewrite V1. apply bval_u64; auto; [apply w_size; auto|]. split; auto. apply bin_nonneg; auto. }
  apply (B v n); auto; [apply covers_bin; auto|]. rewrite count_at_ok, cbin_in, <- V2 by auto. reflexivity.
Qed.
(*EX
Example ex_C52 : match build U64 1 1000 1 false [(3, 1); (5, 1); (9, 1)], build U64 1 1000 1 false [(3, 1)] with
  | Some h, Some s =>
      reachable h /\ reachable s /\ match subtract h s with
      | Ret (h', ROk _) => held h' = [(5, 1); (9, 1)] /\ min_nz h' = Ret 5 /\ max h' = Ret 9 /\ len h' = 2
      | _ => False end
  | _, _ => False end.
Proof. case_of. Qed.
EX*)

(** ** C10.  After a resize [high] is the largest value the bins cover *)
Lemma C10_resize_high_proof : forall h v n h', reachable h -> is_u64 v -> is_count (h_ctr h) n -> ~ covers h v ->
  record_n h v n = Ret (h', ROk tt) ->
  is_u64 (high h') /\ covers h' (high h') /\ (forall w, is_u64 w -> covers h' w -> w <= high h' \/ w = u64_max).
Proof.
  intros h v n h' R V N NC E. pose proof (reachable_wf h R) as W. pose proof (w_cfg h W) as C.
  destruct (record_n_stepped h v n h' W V N E) as [[RD SA SH SB] _]. pose proof (rd_wf _ _ _ _ RD) as W'. pose proof (rd_shape _ _ _ _ RD) as SS.
  rewrite covers_bin, fits_hb in NC by auto.
  assert (HT : h_high h' = top_val h').
  { rewrite SH. destruct (Z.leb_spec (hb h v) (hb h (h_high h))); [lia|]. unfold top_val, top_exp, htop.
    rewrite (ss_um _ _ SS), (ss_m _ _ SS). fold (hb h (h_high h')). rewrite SB. do 3 f_equal. lia. }
  pose proof (w_cfg h' W') as C'. pose proof (w_size h' W') as S'. destruct (top_val_in h' C' S') as [TU TI]. fold (bin h' (top_val h')) in TI.
  unfold high. rewrite HT. split; [exact TU|]. split; [apply covers_bin; auto; lia|].
  intros w Hw CV. apply covers_bin in CV; auto. apply (idx_in_iff_top h' C' S' w Hw) in CV. unfold top_val. unfold is_u64 in Hw. lia.
Qed.
(*EX
Example ex_C10_resize_high : match build U64 1 1000 1 true [(5, 3)] with
  | Some h => reachable h /\ match record_n h 5000 1 with
      | Ret (h', ROk _) => high h = 1000 /\ high h' = 8191 /\ index_for h' 8191 = Ret (Some 159) /\ distinct_values h' = 160
      | _ => False end
  | None => False end.
Proof. case_of. Qed.
EX*)

(** ** C16, C17.  Merging an empty histogram changes nothing, whatever its range or precision *)
Lemma C16_add_empty_proof : forall h s, reachable h -> reachable s -> h_ctr h = h_ctr s -> is_empty s = true ->
  add h s = Ret (h, ROk tt).
Proof.
  intros h s R RS CT EM. pose proof (reachable_wf h R) as W. pose proof (reachable_wf s RS) as WS.
  destruct (add_ok h s W WS CT) as [[_ E1]|[(EM1 & _)|(EM1 & _)]]; congruence.
Qed.
(*EX
Example ex_C16_add_empty : match build U8 1 1000 1 false [(50, 200); (900, 3)], build U8 10 100000 2 false [] with
  | Some h, Some s => reachable h /\ reachable s /\ h_ctr h = h_ctr s /\ is_empty s = true /\ ~ covers h 100000 /\ add h s = Ret (h, ROk tt)
  | _, _ => False end.
Proof. case_of. Qed.
EX*)
Lemma C17_subtract_empty_proof : forall h s, reachable h -> reachable s -> h_ctr h = h_ctr s -> is_empty s = true ->
  subtract h s = Ret (h, ROk tt).
Proof.
  intros h s R RS CT EM. pose proof (reachable_wf h R) as W. pose proof (reachable_wf s RS) as WS.
  destruct (subtract_ok h s W WS CT) as [[_ E1]|[(EM1 & _)|[(EM1 & _)|(EM1 & _)]]]; congruence.
Qed.
(*EX
Example ex_C17_empty : match build U64 1 1000 1 false [(5, 3)], build U64 2 100000 3 false [] with
  | Some h, Some s => reachable h /\ reachable s /\ is_empty s = true /\ add h s = Ret (h, ROk tt) /\ subtract h s = Ret (h, ROk tt)
  | _, _ => False end.
Proof. case_of. Qed.
EX*)

(** ** C21.  What equality compares, exactly *)
Lemma C21_eq_iff_proof : forall a b, reachable a -> reachable b ->
  hist_eq a b = Ret true <->
  (same_precision a b /\ len a = len b /\ max a = max b /\ min_nz a = min_nz b /\
   distinct_values a <= distinct_values b /\
   forall v, is_u64 v -> covers a v -> count_at a v = count_at b v).
Proof.
  intros a b RA RB. pose proof (reachable_wf a RA) as WA. pose proof (reachable_wf b RB) as WB.
  pose proof (w_cfg a WA) as CA. pose proof (w_cfg b WB) as CB.
  destruct (hist_eq_ok a b WA WB) as (r & -> & H). rewrite !max_ok, !min_nz_ok by auto. unfold len, distinct_values.
  transitivity (r = true); [split; [intros E; injection E; auto|intros ->; reflexivity]|]. rewrite H. split.
  - intros (A1 & A2 & A3 & A4 & A5 & A6 & A7). assert (SP : same_precision a b) by (split; auto).
    split; auto. split; auto. split; [congruence|]. split; [congruence|]. split; auto.
    intros v V CV. apply covers_bin in CV; auto. rewrite !count_at_ok by auto.
    pose proof (same_precision_bin a b v WA WB SP) as BE. rewrite !cbin_in by (rewrite <- ?BE; lia). rewrite <- BE. f_equal.
    apply A7. split; auto. apply bin_nonneg; auto. apply V.
  - intros (SP & A3 & A4 & A5 & A6 & A7). pose proof SP as [A1 A2]. injection A4 as A4. injection A5 as A5.
    do 6 (split; auto). intros i Hi. pose proof (bval_u64 a i CA (w_size a WA) Hi) as VU.
    pose proof (bin_bval a i CA ltac:(lia)) as BB. pose proof (same_precision_bin a b (bval a i) WA WB SP) as BE.
    specialize (A7 (bval a i) VU ltac:(apply covers_bin; auto; lia)). rewrite !count_at_ok in A7 by auto.
    rewrite !cbin_in in A7 by (rewrite <- ?BE, ?BB; lia). rewrite <- BE, BB in A7. injection A7; auto.
Qed.
(*EX
Example ex_C21_iff : match build U64 1 1000 1 false [(5, 2); (7, 1)], build U64 1 1000 1 false [(5, 1); (7, 2)] with
  | Some a, Some b => reachable a /\ reachable b /\ len a = len b /\ max a = max b /\ min_nz a = min_nz b /\ hist_eq a b = Ret false
  | _, _ => False end.
Proof. case_of. Qed.
EX*)
