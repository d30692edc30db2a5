(** * Proofs of the properties of builds without overflow checks (C75) *)
(*PROPS-IMPORTS Machine Log2Model HistModel Spec Reach Witness Cases FloatModel IterModel IterSpec FloatSpec ReleaseModel *)
(*PROPS-HEADER
From Coq Require Import Reals.
PROPS-HEADER*)
From Coq Require Import Reals.
From Verif Require Import Machine Log2Model HistModel Spec Reach Bins ListZ Log2Facts Cfg Wf Ops AddFacts SubFacts Exact MoreFacts Witness HeldFacts PfRecord PfMerge PfQuery FloatModel IterModel IterSpec IterFacts IterBins FloatSpec FloatFacts PfIter PfQuantile PfTotal ReleaseModel.
From Coq Require Import ZifyBool ZifyNat.
Open Scope Z_scope.

(** ** The scan *)
Lemma scan_release h target z : wf h -> 1 <= target ->
  let run i := zpre (h_counts h) (i + 1) mod 2 ^ 64 in
  ((forall i, 0 <= i < zlen (h_counts h) -> run i < target) /\ vaq_scan_release h (h_counts h) 0 0 target z = Ret 0) \/
  (exists i, 0 <= i < zlen (h_counts h) /\ target <= run i /\ (forall j, 0 <= j < i -> run j < target) /\
     vaq_scan_release h (h_counts h) 0 0 target z = Ret (if z then bval h i else topval h i)).
Proof.
  intros W T run. pose proof (w_cfg h W) as C. pose proof (w_size h W) as SZ.
  pose proof (len_le_top h C SZ) as LT.
  assert (G : forall cs i, 0 <= i -> cs = skipn (Z.to_nat i) (h_counts h) -> i + zlen cs = zlen (h_counts h) ->
    (forall j, 0 <= j < i -> run j < target) ->
    ((forall i, 0 <= i < zlen (h_counts h) -> run i < target) /\ vaq_scan_release h cs i (zpre (h_counts h) i mod 2 ^ 64) target z = Ret 0) \/
    (exists j, 0 <= j < zlen (h_counts h) /\ target <= run j /\ (forall k, 0 <= k < j -> run k < target) /\
       vaq_scan_release h cs i (zpre (h_counts h) i mod 2 ^ 64) target z = Ret (if z then bval h j else topval h j))).
  { induction cs as [|c cs IH]; intros i I E L P; cbn [vaq_scan_release].
    - left. rewrite zlen_nil in L. split; auto. intros j J. apply P. lia.
    - rewrite zlen_cons in L. pose proof (zlen_nonneg cs).
      assert (CE : c = zn (h_counts h) i). { pose proof (zn_skipn (h_counts h) i 0 I ltac:(lia)) as Z. rewrite <- E, zn_cons_0, Z.add_0_r in Z. auto. }
      assert (SE : cs = skipn (Z.to_nat (i + 1)) (h_counts h)).
      { replace (Z.to_nat (i + 1)) with (Datatypes.S (Z.to_nat i)) by lia. clear - E. revert E. generalize (Z.to_nat i) as k. generalize (h_counts h) as l.
        induction l as [|x l IH]; intros k E; [destruct k; discriminate|]. destruct k; cbn [skipn] in E |- *; [injection E; auto|]. rewrite (IH k E). destruct l; auto. }
      pose proof (zpre_succ (h_counts h) i I) as ZS. rewrite <- CE in ZS.
      assert (RE : wrapping_add (zpre (h_counts h) i mod 2 ^ 64) c = run i).
      { unfold wrapping_add, run. rewrite ZS. rewrite Zplus_mod_idemp_l. reflexivity. }
      rewrite RE. destruct (Z.leb_spec target (run i)) as [R|R].
      + right. exists i. split; [lia|]. split; [lia|]. split; [auto|]. rewrite value_for_ok by (auto; lia). cbn [bind]. destruct z.
        * apply (covers_bval h i W). lia.
        * apply highest_bval; auto. lia.
      + unfold run. apply IH; auto; try lia. intros j J. destruct (Z.eq_dec j i) as [->|N]; auto. apply P. lia. }
  destruct (G (h_counts h) 0) as [A|A]; auto; try lia.
Qed.

(** ** C75.  A build without overflow checks never panics in [value_at_quantile].  It reports the first
    class at which the number of samples so far, modulo 2^64, reaches the rank, or 0 if there is none. *)
Lemma C75_quantile_proof : forall h q, reachable h ->
  let k := quantile_rank q (len h) in
  let so_far w := weight_between 0 w (held h) mod 2 ^ 64 in
  ((forall w n, In (w, n) (held h) -> so_far w < k) /\ value_at_quantile_release h q = Ret 0) \/
  (exists w n, In (w, n) (held h) /\ k <= so_far w /\
     (forall w' n', In (w', n') (held h) -> w' < w -> so_far w' < k) /\
     value_at_quantile_release h q = if f64_eq q f64_zero then Ret w else highest_equivalent h w).
Proof.
  intros h q R k so_far. pose proof (reachable_wf h R) as W.
  pose proof (wf_total_nonneg h W) as TN. pose proof (w_total h W) as TT. pose proof (w_cfg h W) as C.
  destruct (rank_ok q (h_total h) ltac:(lia)) as [E1 E2]. unfold value_at_quantile_release. cbn zeta in E1 |- *. rewrite E1, E2.
  change (quantile_rank q (h_total h)) with k. assert (KP : 1 <= k) by apply rank_pos.
  assert (SF : forall i, 0 <= i < zlen (h_counts h) -> so_far (bval h i) = zpre (h_counts h) (i + 1) mod 2 ^ 64).
  { intros i I. unfold so_far. rewrite held_contents by auto. rewrite weight_below by auto. reflexivity. }
  assert (HB : forall w n, In (w, n) (held h) -> exists i, 0 <= i < zlen (h_counts h) /\ w = bval h i).
  { intros w n IN. rewrite held_pairs in IN by auto. apply in_map_iff in IN. destruct IN as (i & E & I). apply held_idxs_in in I. injection E as <- _. exists i. split; [lia|auto]. }
  destruct (scan_release h k (f64_eq q f64_zero) W KP) as [[A B]|(i & I & A & F & B)]; cbv zeta in A; [left|right].
  - split; auto. intros w n IN. destruct (HB w n IN) as (i & I & ->). rewrite SF by auto. apply A. auto.
  - exists (bval h i), (zn (h_counts h) i).
    assert (NZ : zn (h_counts h) i <> 0).
    { intros Z. pose proof (zpre_succ (h_counts h) i ltac:(lia)) as ZS. rewrite Z, Z.add_0_r in ZS. rewrite ZS in A.
      destruct (Z.eq_dec i 0) as [->|N]; [rewrite zpre_0 in A; cbn in A; lia|]. specialize (F (i - 1) ltac:(lia)). cbv zeta in F. replace (i - 1 + 1) with i in F by lia. lia. }
    split; [rewrite held_contents by auto; apply contents_mem; auto; pose proof (wf_nonneg h W) as NN; pose proof (zn_nonneg (h_counts h) i NN); lia|].
    split; [rewrite SF by auto; auto|]. split.
    + intros w' n' IN L. destruct (HB w' n' IN) as (j & J & ->). rewrite SF by auto. apply F. split; [lia|].
      destruct (Z_lt_le_dec j i); auto. pose proof (bval_le h i j C ltac:(lia)). lia.
    + rewrite B, highest_bval by auto. destruct (f64_eq q f64_zero); reflexivity.
Qed.
(*EX
Example ex_C75_quantile : match build U64 1 100 1 false [(5, 2 ^ 63); (40, 2 ^ 63); (60, 3)] with
  | Some h => reachable h /\ len h = u64_max /\ map (fun p => weight_between 0 (fst p) (held h) mod 2 ^ 64) (held h) = [2 ^ 63; 0; 3] /\
      value_at_quantile_release h (f64_div f64_one (f64_of_u64 2)) = Ret 5 /\ value_at_quantile_release h f64_one = Ret 0
  | _ => False end.
Proof. float_case. Qed.
EX*)
(** so where the checked build returns, it returns the same *)
Lemma vaq_same h z target : forall cs i t x, 0 <= t -> Forall (fun c => 0 <= c) cs ->
  vaq_scan h cs i t target z = Ret x -> vaq_scan_release h cs i t target z = Ret x.
Proof.
  induction cs as [|c cs IH]; intros i t x T F E; cbn [vaq_scan vaq_scan_release] in *; auto.
  inversion F; subst. destruct (u64_add t c) as [s|] eqn:A; cbn [bind] in E; [|discriminate].
  unfold u64_add in A. apply in_range_inv in A. destruct A as [-> A].
  assert (WE : wrapping_add t c = t + c) by (unfold wrapping_add; apply Z.mod_small; unfold u64_max in A; lia). cbv zeta. rewrite WE.
  destruct (target <=? t + c); auto. apply IH; auto. lia.
Qed.
Lemma C75_quantile_same_proof : forall h q x, reachable h -> value_at_quantile h q = Ret x -> value_at_quantile_release h q = Ret x.
Proof.
  intros h q x R E. unfold value_at_quantile in E. unfold value_at_quantile_release. cbv zeta in *. revert E. apply vaq_same; [lia|].
  apply wf_nonneg, reachable_wf; auto.
Qed.
(*EX
Example ex_C75_quantile_same : match build U64 1 100 1 false [(5, 2 ^ 62); (40, 2 ^ 63); (60, 3)] with
  | Some h => reachable h /\ value_at_quantile h (f64_div f64_one (f64_of_u64 2)) = Ret 41 /\ value_at_quantile_release h (f64_div f64_one (f64_of_u64 2)) = Ret 41
  | _ => False end.
Proof. float_case. Qed.
EX*)
(** and elsewhere it can be far off: more than half of these samples are in the class of 88, and the median is reported as 0 *)
Lemma C75_median_refuted_proof : exists h, reachable h /\ held h = [(5, 2 ^ 62); (40, 2 ^ 62 - 1); (88, 2 ^ 63 + 2 ^ 62)] /\
  value_at_quantile_release h (f64_div f64_one (f64_of_u64 2)) = Ret 0.
Proof.
  destruct (build U64 1 100 1 false [(5, 2 ^ 62); (40, 2 ^ 62 - 1); (88, 2 ^ 63 + 2 ^ 62)]) as [h|] eqn:E; [|vm_compute in E; discriminate].
  exists h. split; [eapply build_reachable; eauto|]. vm_compute in E. injection E as <-. split; vm_compute; reflexivity.
Qed.

(** ** The linear iterator *)
Lemma value_from_loc_same h b s x : 0 <= b -> 0 <= h_um h -> value_from_loc h b s = Ret x -> value_from_loc_release h b s = x.
Proof.
  intros B U E. unfold value_from_loc in E. unfold value_from_loc_release, wrapping_shl.
  destruct (u8_add b (h_um h)) as [a|] eqn:A; cbn [bind] in E; [|discriminate]. unfold u8_add in A. apply in_range_inv in A. destruct A as [-> A].
  unfold u64_shl in E. destruct (Z.ltb_spec (b + h_um h) 64); [|discriminate]. injection E as <-.
  rewrite (Z.mod_small (b + h_um h) (2 ^ 8)) by lia. rewrite (Z.mod_small (b + h_um h) 64) by lia. reflexivity.
Qed.
Lemma value_for_same h i v : wf h -> 0 <= i -> value_for h i = Ret v -> value_for_release h i = Ret v.
Proof.
  intros W I E. pose proof (w_cfg h W) as C. pose proof (m_range h C). pose proof (um_range h C). pose proof (half_range h C) as HR. pose proof (c_half h C) as HC.
  unfold value_for in E. unfold value_for_release. cbv zeta in *. rewrite (Z.mod_small (h_half_mag h) 64) by lia.
  unfold usize_shr in E. destruct (Z.ltb_spec (h_half_mag h) 64); [|lia]. cbn [bind] in E.
  destruct (i <=? u32_max) eqn:L; cbn [bind] in *; [|discriminate].
  unfold u32_sub in E at 1. rewrite in_range_ok in E by (unfold u32_max; lia). cbn [bind] in E.
  rewrite (Z.mod_small (h_half_count h - 1) (2 ^ 32)) by lia.
  destruct (u32_add (Z.land i (h_half_count h - 1)) (h_half_count h)) as [s|] eqn:A; cbn [bind] in E; [|discriminate].
  unfold u32_add in A. apply in_range_inv in A. destruct A as [-> A].
  rewrite (Z.mod_small (Z.land i (h_half_count h - 1) + h_half_count h) (2 ^ 32)) by (unfold u32_max in A; lia).
  assert (AP : 0 <= Z.land i (h_half_count h - 1)) by (apply Z.land_nonneg; auto).
  destruct (_ <? 0).
  - destruct (u32_sub _ _) as [t|] eqn:B; cbn [bind] in E; [|discriminate]. unfold u32_sub in B. apply in_range_inv in B. destruct B as [-> B].
    rewrite Z.mod_small by (unfold u32_max in B; lia). f_equal. apply value_from_loc_same; auto; lia.
  - f_equal. apply value_from_loc_same; auto; try lia. unfold as_u8. apply Z.mod_pos_bound. lia.
Qed.

Lemma pick_same h p i t c r : 0 <= ln_high p -> 0 <= ln_step p -> pk_pick pk_linear h p i t c = Ret r -> pk_pick pk_linear_release h p i t c = Ret r.
Proof.
  intros P0 S0. cbn [pk_pick pk_linear pk_linear_release]. intros E. destruct (value_for h i); cbn [bind] in *; [|discriminate].
  destruct (last_index h); cbn [bind] in *; [|discriminate]. destruct (_ || _); auto.
  destruct (u64_add (ln_high p) (ln_step p)) as [s|] eqn:A; cbn [bind] in E; [|discriminate]. unfold u64_add in A. apply in_range_inv in A. destruct A as [-> A].
  cbv zeta. unfold wrapping_add. rewrite Z.mod_small by (unfold u64_max in A; lia). exact E.
Qed.
Lemma more_same h p i r : wf h -> 0 <= i -> pk_more pk_linear h p i = Ret r -> pk_more pk_linear_release h p i = Ret r.
Proof.
  intros W I. cbn [pk_more pk_linear pk_linear_release]. intros E. destruct (usize_add i 1) as [j|] eqn:A; cbn [bind] in *; [|discriminate].
  unfold usize_add in A. apply in_range_inv in A. destruct A as [-> A].
  destruct (value_for h (i + 1)) as [v|] eqn:B; cbn [bind] in E; [|discriminate]. rewrite (value_for_same h _ v W) by (auto; lia). exact E.
Qed.
Definition lin_ok (p : linear) : Prop := 0 <= ln_high p /\ 0 <= ln_step p.
Lemma pick_lin_ok h p i t c md p' : lin_ok p -> pk_pick pk_linear h p i t c = Ret (md, p') -> lin_ok p'.
Proof.
  intros [A B]. cbn [pk_pick pk_linear]. intros E. destruct (value_for h i); cbn [bind] in *; [|discriminate].
  destruct (last_index h); cbn [bind] in *; [|discriminate]. destruct (_ || _); [|injection E as <- <-; split; auto].
  destruct (u64_add _ _) as [s|] eqn:X; cbn [bind] in E; [|discriminate]. unfold u64_add in X. apply in_range_inv in X. destruct X as [-> X].
  destruct (lowest_equivalent _ _); cbn [bind] in E; [|discriminate]. injection E as <- <-. split; cbn; lia.
Qed.
Lemma more_lin_ok h p i b p' : lin_ok p -> pk_more pk_linear h p i = Ret (b, p') -> lin_ok p'.
Proof.
  intros L. cbn [pk_more pk_linear]. intros E. destruct (usize_add i 1); cbn [bind] in *; [|discriminate].
  destruct (value_for _ _); cbn [bind] in E; [|discriminate]. injection E as <- <-. auto.
Qed.
Lemma round_same h st r : wf h -> 0 <= it_index st -> lin_ok (it_picker st) -> iter_round pk_linear h st = Ret r ->
  iter_round pk_linear_release h st = Ret r /\ 0 <= it_index (fst r) /\ lin_ok (it_picker (fst r)).
Proof.
  intros W I L E. unfold iter_round in *. destruct (_ =? _); [injection E as <-; split; auto|].
  destruct (opt_ge _ _).
  - destruct (pk_more pk_linear h (it_picker st) (it_index st)) as [[m p]|] eqn:EM; cbn [bind] in E; [|discriminate].
    rewrite (more_same h _ _ _ W I EM). cbn [bind]. pose proof (more_lin_ok h _ _ _ _ L EM) as LP. destruct m; cbn [negb] in *; [|injection E as <-; split; auto].
    cbn [it_picker it_index it_total it_count] in *.
    destruct (pk_pick pk_linear h p (it_index st) (it_total st) (it_count st)) as [[md p']|] eqn:EP; cbn [bind] in E; [|discriminate].
    rewrite (pick_same h _ _ _ _ _ (proj1 LP) (proj2 LP) EP). cbn [bind]. split; auto. pose proof (pick_lin_ok h _ _ _ _ _ _ LP EP) as LP'.
    destruct md as [md|].
    + destruct (match md_value md with Some v => Ret v | None => _ end); cbn [bind] in E; [|discriminate].
      destruct (expect _); cbn [bind] in E; [|discriminate]. injection E as <-. split; auto.
    + destruct (usize_add _ _) as [j|] eqn:A; cbn [bind] in E; [|discriminate]. unfold usize_add in A. apply in_range_inv in A. destruct A as [-> A].
      injection E as <-. cbn. split; auto. lia.
  - destruct (assert _); cbn [bind] in *; [|discriminate].
    destruct (if it_fresh st then _ else _) as [[go st1]|] eqn:E1; cbn [bind] in E; [|discriminate].
    assert (X : it_index st1 = it_index st /\ it_picker st1 = it_picker st).
    { destruct (it_fresh st); [destruct (expect _); cbn [bind] in E1; [|discriminate]|]; injection E1 as <- <-; auto. }
    destruct X as [X1 X2]. cbn [bind]. destruct (negb go).
    { injection E as <-. cbn [fst]. rewrite X1, X2. auto. }
    rewrite X1, X2 in *.
    destruct (pk_pick pk_linear h (it_picker st) (it_index st) (it_total st1) (it_count st1)) as [[md p']|] eqn:EP; cbn [bind] in E; [|discriminate].
    rewrite (pick_same h _ _ _ _ _ (proj1 L) (proj2 L) EP). cbn [bind]. split; auto. pose proof (pick_lin_ok h _ _ _ _ _ _ L EP) as LP'.
    destruct md as [md|].
    + destruct (match md_value md with Some v => Ret v | None => _ end); cbn [bind] in E; [|discriminate].
      destruct (expect _); cbn [bind] in E; [|discriminate]. injection E as <-. split; auto.
    + destruct (usize_add _ _) as [j|] eqn:A; cbn [bind] in E; [|discriminate]. unfold usize_add in A. apply in_range_inv in A. destruct A as [-> A].
      injection E as <-. cbn. split; auto. lia.
Qed.
Lemma loop_same h : wf h -> forall f st r, 0 <= it_index st -> lin_ok (it_picker st) -> iter_loop f pk_linear h st = Ret r ->
  iter_loop f pk_linear_release h st = Ret r /\ 0 <= it_index (fst r) /\ lin_ok (it_picker (fst r)).
Proof.
  intros W. induction f as [|f IH]; intros st r I L E; cbn [iter_loop] in *; destruct (it_ended st); try discriminate; try (injection E as <-; auto).
  destruct (iter_round pk_linear h st) as [[s o]|] eqn:ER; cbn [bind] in E; [|discriminate].
  destruct (round_same h st _ W I L ER) as (A & B & D). rewrite A. cbn [bind fst] in *. destruct o; try (injection E as <-; auto). apply IH; auto.
Qed.
Lemma next_same h st r : wf h -> 0 <= it_index st -> lin_ok (it_picker st) -> iter_next pk_linear h st = Ret r ->
  iter_next pk_linear_release h st = Ret r /\ 0 <= it_index (fst r) /\ lin_ok (it_picker (fst r)).
Proof. intros W. apply loop_same; auto. Qed.

Lemma start_ok h step it : reachable h -> iter_linear h step = Ret it -> 0 <= it_index it /\ lin_ok (it_picker it) /\ 0 < step.
Proof.
  intros R E. unfold iter_linear, assert in E. destruct (Z.ltb_spec 0 step); cbn [bind] in E; [|discriminate].
  destruct (u64_sub step 1) as [s|] eqn:A; cbn [bind] in E; [|discriminate]. unfold u64_sub in A. apply in_range_inv in A. destruct A as [-> A].
  destruct (lowest_equivalent _ _); cbn [bind] in E; [|discriminate]. unfold iter_new in E.
  destruct (max h); cbn [bind] in E; [|discriminate]. destruct (index_for _ _); cbn [bind] in E; [|discriminate]. destruct (expect _); cbn [bind] in E; [|discriminate].
  injection E as <-. unfold lin_ok. cbn. lia.
Qed.
(** ** C75.  The linear iterator: as long as the checked build does not panic, the other one yields the
    same items, and it ends where that one ends *)
Lemma C75_linear_same_proof : forall h step it, reachable h -> iter_linear h step = Ret it ->
  (forall items it', takes pk_linear h it items it' -> takes pk_linear_release h it items it') /\
  (forall items, drains pk_linear h it items -> drains pk_linear_release h it items).
Proof.
  intros h step it R E. pose proof (reachable_wf h R) as W. destruct (start_ok h step it R E) as (I & L & _). clear E. split.
  - intros items it' T. induction T as [it|it it1 it2 x xs N T IH]; [constructor|].
    destruct (next_same h it _ W I L N) as (A & B & D). econstructor; eauto.
  - intros items T. induction T as [it it' N|it it1 x xs N T IH].
    + destruct (next_same h it _ W I L N) as (A & B & D). econstructor; eauto.
    + destruct (next_same h it _ W I L N) as (A & B & D). econstructor; eauto.
Qed.
(*EX
Example ex_C75_linear_same : match build U64 1 10000 1 false [(5000, 8); (5, 2); (333, 1)] with
  | Some h => reachable h /\ match iter_linear h 3000 with Ret it =>
        match iter_collect 5 pk_linear h it, iter_collect 5 pk_linear_release h it with
        | Ret xs, Ret ys => map iv_value xs = [2999; 5999] /\ map iv_value ys = [2999; 5999]
        | _, _ => False end
      | _ => False end
  | _ => False end.
Proof. float_case. Qed.
EX*)
(** it never panics *)
Lemma round_keeps {P} (pk : picker P) (I : P -> Prop) h : wf h ->
  (forall p i t c, I p -> 0 <= i < zlen (h_counts h) -> exists md p', pk_pick pk h p i t c = Ret (md, p') /\ I p') ->
  (forall p i, I p -> 0 <= i < zlen (h_counts h) -> exists b p', pk_more pk h p i = Ret (b, p') /\ I p') ->
  forall st, inv h st -> I (it_picker st) -> exists r, iter_round pk h st = Ret r /\ I (it_picker (fst r)).
Proof.
  intros W NP NM st V IP. pose proof (ii_index h st V) as IX. destruct (Z_lt_le_dec (it_index st) (zlen (h_counts h))) as [L|L].
  - rewrite round_ok by auto.
    assert (G : forall p, I p -> exists r, consult pk h (load h st p) = Ret r /\ I (it_picker (fst r))).
    { intros p Ip. unfold consult. cbn [load it_picker it_index it_total it_count].
      destruct (NP p (it_index st) (u64s (zpre (h_counts h) (it_index st + 1))) (if opt_ge (it_last st) (bin h (h_max h)) then it_count st else zn (h_counts h) (it_index st)) Ip ltac:(lia)) as (md & p' & -> & Ip').
      cbn [bind]. destruct md; eexists; split; try reflexivity; cbn; auto. }
    destruct (opt_ge _ _); [|apply G; auto].
    destruct (NM (it_picker st) (it_index st) IP ltac:(lia)) as (b & p' & -> & Ip'). cbn [bind]. destruct b; [apply G; auto|]. eexists. split; [reflexivity|]. auto.
  - rewrite end_ok by lia. eexists. split; [reflexivity|]. auto.
Qed.
Lemma loop_keeps {P} (pk : picker P) (I : P -> Prop) h : wf h ->
  (forall p i t c, I p -> 0 <= i < zlen (h_counts h) -> exists md p', pk_pick pk h p i t c = Ret (md, p') /\ I p') ->
  (forall p i, I p -> 0 <= i < zlen (h_counts h) -> exists b p', pk_more pk h p i = Ret (b, p') /\ I p') ->
  forall f st, inv h st -> I (it_picker st) -> (Z.to_nat (zlen (h_counts h) - it_index st) < f)%nat ->
  exists r, iter_loop f pk h st = Ret r /\ I (it_picker (fst r)).
Proof.
  intros W NP NM. induction f as [|f IH]; intros st V IP F; [lia|]. cbn [iter_loop]. destruct (it_ended st) eqn:EN; [eexists; split; [reflexivity|auto]|].
  destruct (round_keeps pk I h W NP NM st V IP) as ([s o] & ER & IS). rewrite ER. cbn [bind fst] in *.
  pose proof (round_cases pk h W st s o V EN ER) as RC. pose proof (ii_index h st V).
  destruct o; try (eexists; split; [reflexivity|auto]). destruct RC as (A & B & D & _). apply IH; auto. lia.
Qed.
Lemma takes_keeps {P} (pk : picker P) (I : P -> Prop) h : wf h ->
  (forall p i t c, I p -> 0 <= i < zlen (h_counts h) -> exists md p', pk_pick pk h p i t c = Ret (md, p') /\ I p') ->
  (forall p i, I p -> 0 <= i < zlen (h_counts h) -> exists b p', pk_more pk h p i = Ret (b, p') /\ I p') ->
  forall it items it', takes pk h it items it' -> inv h it -> it_ended it = false -> I (it_picker it) -> iter_next pk h it' <> Panic.
Proof.
  intros W NP NM it items it' T. induction T as [it|it it1 it2 x xs N T IH]; intros V EN IP.
  - unfold iter_next. destruct (loop_keeps pk I h W NP NM (Datatypes.S (Z.to_nat (distinct_values h - it_index it))) it V IP) as (r & E & _); [unfold distinct_values; lia|]. rewrite E. discriminate.
  - destruct (takes_inv pk h W it [x] it1) as [V1 EN1]; auto; [econstructor; [exact N|constructor]|].
    apply IH; auto. unfold iter_next in N. destruct (loop_keeps pk I h W NP NM (Datatypes.S (Z.to_nat (distinct_values h - it_index it))) it V IP) as (r & E & K); [unfold distinct_values; lia|].
    rewrite N in E. injection E as <-. exact K.
Qed.

Definition lin_u64 (p : linear) : Prop := is_u64 (ln_high p).
Lemma C75_linear_total_proof : forall h step, reachable h -> is_u64 step -> 0 < step ->
  exists it, iter_linear h step = Ret it /\
    forall items it', takes pk_linear_release h it items it' -> iter_next pk_linear_release h it' <> Panic.
Proof.
  intros h step R [S0 S1] SP. pose proof (reachable_wf h R) as W. pose proof (w_cfg h W) as C. pose proof (w_size h W) as SZ.
  pose proof (len_le_top h C SZ) as LT. pose proof (idx_bound_u64 h C u64_max ltac:(unfold u64, u64_max; lia)) as IB.
  assert (LOW : forall v, is_u64 v -> exists lo, lowest_equivalent h v = Ret lo).
  { intros v V. destruct (lowest_equivalent h v) as [lo|] eqn:E; [eauto|]. exfalso.
    destruct (C31_queries_total_proof h v 0 R V) as (_ & X & _); [split; [lia|unfold u64_max; lia]|]. auto. }
  destruct (LOW (step - 1)) as (lo & LO); [split; lia|].
  destruct (new_ok h W (mk_linear step (step - 1) lo)) as (it & E & V & NE & _ & _ & PE & _).
  exists it. split.
  { unfold iter_linear, assert. destruct (Z.ltb_spec 0 step); [|lia]. cbn [bind]. unfold u64_sub. rewrite in_range_ok by lia. cbn [bind]. rewrite LO. cbn [bind]. exact E. }
  intros items it' T. eapply (takes_keeps pk_linear_release lin_u64 h W); eauto.
  - intros p i t c [A B] I. cbn [pk_pick pk_linear_release]. rewrite value_for_ok by (auto; lia). cbn [bind].
    unfold last_index, distinct_values. pose proof (maxi_range h W). destruct (Z.leb_spec 1 (zlen (h_counts h))); [|lia]. cbn [bind].
    destruct (_ || _); [|do 2 eexists; split; [reflexivity|split; auto]].
    assert (U : is_u64 (wrapping_add (ln_high p) (ln_step p))).
    { unfold wrapping_add, is_u64, u64_max. pose proof (Z.mod_pos_bound (ln_high p + ln_step p) (2 ^ 64) ltac:(lia)). lia. }
    cbv zeta. destruct (LOW _ U) as (l & ->). cbn [bind]. do 2 eexists. split; [reflexivity|]. exact U.
  - intros p i U I. cbn [pk_more pk_linear_release]. unfold usize_add. rewrite in_range_ok by (unfold usize_max, u64_max; lia). cbn [bind].
    unfold value_for_release. cbv zeta. destruct (Z.leb_spec (i + 1) u32_max); [|unfold u32_max in *; lia]. cbn [bind].
    destruct (_ <? 0); cbn [bind]; do 2 eexists; (split; [reflexivity|exact U]).
  - rewrite PE. split; cbn; lia.
Qed.
(*EX
(** the case in which the checked build panics (C25_overflow_refuted); here the sample is reported *)
Example ex_C75_linear_total : match build U64 1 1000 0 true [(u64_max, 1)] with
  | Some h => reachable h /\ is_u64 (2 ^ 63) /\ max h = Ret u64_max /\ match iter_linear h (2 ^ 63) with Ret it =>
        match iter_collect 5 pk_linear h it, iter_collect 5 pk_linear_release h it with
        | Panic, Ret ys => map (fun x => (iv_value x, iv_since x)) ys = [(2 ^ 63 - 1, 0); (u64_max, 1)]
        | _, _ => False end
      | _ => False end
  | _ => False end.
Proof. float_case. Qed.
EX*)
Lemma collect_drains {P} (pk : picker P) h : forall fuel it xs, iter_collect fuel pk h it = Ret xs -> drains pk h it xs.
Proof.
  induction fuel as [|f IH]; intros it xs E; cbn [iter_collect] in E; [discriminate|].
  destruct (iter_next pk h it) as [[it' [x|]]|] eqn:N; cbn [bind] in E; try discriminate.
  - destruct (iter_collect f pk h it') as [ys|] eqn:K; cbn [bind] in E; [|discriminate]. injection E as <-. econstructor; eauto.
  - injection E as <-. econstructor. exact N.
Qed.
(** but once a level has wrapped around, the values reported go down, all of them at the same bin *)
Lemma C75_linear_wraps_refuted_proof : exists h it items, reachable h /\ held h = [(u64_max - (2 ^ 59 - 1), 1)] /\
  iter_linear h (2 ^ 64 - 2 ^ 61) = Ret it /\ drains pk_linear_release h it items /\
  map (fun x => (iv_value x, iv_since x)) items =
    [(7 * 2 ^ 61 - 1, 0); (6 * 2 ^ 61 - 1, 0); (5 * 2 ^ 61 - 1, 0); (4 * 2 ^ 61 - 1, 0); (3 * 2 ^ 61 - 1, 0); (2 * 2 ^ 61 - 1, 0);
     (2 ^ 61 - 1, 0); (u64_max, 1)].
Proof.
  assert (X : match build U64 1 1000 1 true [(u64_max, 1)] with
    | Some h => held h = [(u64_max - (2 ^ 59 - 1), 1)] /\
        match iter_linear h (2 ^ 64 - 2 ^ 61) with
        | Ret it => match iter_collect 10 pk_linear_release h it with
            | Ret items => map (fun x => (iv_value x, iv_since x)) items =
                [(7 * 2 ^ 61 - 1, 0); (6 * 2 ^ 61 - 1, 0); (5 * 2 ^ 61 - 1, 0); (4 * 2 ^ 61 - 1, 0); (3 * 2 ^ 61 - 1, 0); (2 * 2 ^ 61 - 1, 0);
                 (2 ^ 61 - 1, 0); (u64_max, 1)]
            | Panic => False end
        | Panic => False end
    | None => False end) by (vm_compute; auto).
  destruct (build U64 1 1000 1 true [(u64_max, 1)]) as [h|] eqn:B; [|contradiction]. destruct X as [X1 X].
  destruct (iter_linear h (2 ^ 64 - 2 ^ 61)) as [it|] eqn:L; [|contradiction].
  destruct (iter_collect 10 pk_linear_release h it) as [items|] eqn:K; [|contradiction].
  exists h, it, items. split; [eapply build_reachable; eauto|]. split; auto. split; auto. split; auto. eapply collect_drains, K.
Qed.
