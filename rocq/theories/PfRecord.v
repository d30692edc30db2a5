(** * Proofs of the properties about recording (C06 - C13) *)
From Verif Require Import Machine Log2Model HistModel Spec Reach Bins ListZ Log2Facts Cfg Wf Ops AddFacts SubFacts Exact MoreFacts Witness.
(*PROPS-IMPORTS Machine Log2Model HistModel Spec Reach Witness Cases *)
From Coq Require Import ZifyBool ZifyNat.

Lemma cbin_in h w : bin h w < zlen (h_counts h) -> cbin h w = bin h w.
Proof. intros. unfold cbin. lia. Qed.

Lemma rec_many_counts h l h' w : wf h -> rec_many h l h' -> u64 w -> bin h w < zlen (h_counts h') ->
  count_at h' w = Ret (Z.min (cmax (h_ctr h)) (zn (h_counts h) (bin h w) + weight_at h w l)).
Proof.
  intros W R V B. pose proof (rec_many_all _ _ _ R) as [A1 A2 A3 A4 A5 A6].
  rewrite count_at_ok by auto. f_equal. rewrite cbin_in by (rewrite (same_shape_bin h h') by auto; lia). rewrite (same_shape_bin h h') by auto. rewrite A3 by (apply bin_nonneg; [apply w_cfg; auto|apply V]).
  rewrite weight_at_wsum; auto. eapply rec_many_u64; eauto.
Qed.

(** ** C06.  Recording [l] adds to the count of every value the number of samples of [l] in its class,
    capped at the counter's maximum. *)
Lemma C06_records_add_up_proof : forall h l h' w c, reachable h -> records h l h' -> is_u64 w -> covers h w ->
  count_at h w = Ret c -> count_at h' w = Ret (Z.min (cmax (h_ctr h)) (c + weight_at h w l)).
Proof.
  intros h l h' w c R RC V CV E. pose proof (reachable_wf h R) as W. apply records_many in RC; auto.
  apply covers_bin in CV; auto. pose proof (ra_len _ _ _ (rec_many_all _ _ _ RC)).
  rewrite (rec_many_counts h l h' w) by (auto; lia). rewrite count_at_ok in E by auto. injection E as <-.
  rewrite cbin_in by lia. reflexivity.
Qed.
(*EX
Example ex_C06_records_add_up : match build U8 1 1000 1 false [(5, 200); (900, 3)] with
  | Some h => match record_n h 5 100 with
      | Ret (h', ROk _) => reachable h /\ records h [(5, 100)] h' /\ is_u64 5 /\ covers h 5 /\ count_at h 5 = Ret 200 /\ count_at h' 5 = Ret 255 /\
          is_u64 901 /\ covers h 901 /\ count_at h 901 = Ret 3 /\ count_at h' 901 = Ret 3
      | _ => False end
  | None => False end.
Proof. case_of. Qed.
EX*)
(** values that had no bin before start from 0 *)
Lemma C06_records_new_bins_proof : forall h l h' w, reachable h -> records h l h' -> is_u64 w ->
  ~ covers h w -> covers h' w -> count_at h' w = Ret (Z.min (cmax (h_ctr h)) (weight_at h w l)).
Proof.
  intros h l h' w R RC V N CV. pose proof (reachable_wf h R) as W. apply records_many in RC; auto.
  pose proof (rec_many_all _ _ _ RC) as RA. pose proof (ra_shape _ _ _ RA) as SS.
  apply covers_bin in CV; auto; [|apply RA]. rewrite covers_bin in N by auto.
  rewrite (same_shape_bin h h') in CV by auto.
  rewrite (rec_many_counts h l h' w) by auto. rewrite zn_out by lia. reflexivity.
Qed.
(*EX
Example ex_C06_records_new_bins : match build U8 1 1000 1 true [(5, 200); (900, 3)] with
  | Some h => match record_n h 5000 100 with
      | Ret (h', ROk _) => reachable h /\ records h [(5000, 100)] h' /\ is_u64 4900 /\ ~ covers h 4900 /\ covers h' 4900 /\ count_at h' 4900 = Ret 100 /\
          is_u64 2000 /\ ~ covers h 2000 /\ covers h' 2000 /\ count_at h' 2000 = Ret 0
      | _ => False end
  | None => False end.
Proof. case_of. Qed.
EX*)
(** from a new histogram *)
Lemma C06_count_at_proof : forall T lo hi sf b h0 l h w, is_u64 lo -> is_u64 hi -> is_u8 sf ->
  new_with_bounds T lo hi sf = Ret (ROk h0) -> records (auto h0 b) l h -> is_u64 w -> covers h w ->
  count_at h w = Ret (Z.min (cmax T) (weight_at h w l)).
Proof.
  intros T lo hi sf b h0 l h w L Hh S E R V CV.
  destruct (created_wf T lo hi sf h0 L Hh S E) as (-> & CC & W & EX).
  assert (W0 : wf (auto (fresh T lo hi sf) b)) by (apply set_auto_wf; auto).
  apply records_many in R; auto.
  pose proof (rec_many_all _ _ _ R) as RA. pose proof (ra_shape _ _ _ RA) as SS.
  apply covers_bin in CV; auto; [|apply RA]. rewrite (same_shape_bin (auto (fresh T lo hi sf) b) h) in CV by auto.
  rewrite (rec_many_counts _ l h w W0 R) by auto.
  change (h_counts (auto (fresh T lo hi sf) b)) with (h_counts (fresh T lo hi sf)).
  rewrite fresh_zero by (apply bin_nonneg; [apply w_cfg; auto|apply V]). do 2 f_equal.
  rewrite Z.add_0_l. rewrite !weight_at_wsum; auto; try (eapply rec_many_u64; eauto); [|apply RA].
  rewrite <- !(same_shape_bin _ _ _ SS). apply wsum_ext. intros. symmetry. apply same_shape_bin; auto.
Qed.
(*EX
Example ex_C06 : match build U8 1 1000 1 false [(5, 200); (900, 3); (5, 100); (901, 4)] with
  | Some h => reachable h /\ count_at h 5 = Ret 255 /\ count_at h 900 = Ret 7 /\ count_at h 6 = Ret 0
  | None => False end.
Proof. case_of. Qed.
EX*)

(** ** C07.  [len] is the number of samples recorded, saturating at [u64::MAX]. *)
Lemma C07_len_proof : forall h l h', reachable h -> records h l h' ->
  len h' = Z.min u64_max (len h + weight l) /\ is_empty h' = (len h' =? 0).
Proof.
  intros h l h' R RC. apply records_many in RC; [|apply reachable_wf; auto]. split; [|reflexivity].
  unfold len. rewrite weight_wtotal. exact (ra_total _ _ _ (rec_many_all _ _ _ RC)).
Qed.
(*EX
Example ex_C07 : match build U8 1 1000 1 false [(5, 200); (900, 3); (5, 100); (901, 4)] with
  | Some h => reachable h /\ len h = 307
  | None => False end.
Proof. case_of. Qed.
EX*)

(** ** C08.  Extremes *)
Lemma largest_nonneg l : 0 <= largest l.
Proof. unfold largest. induction l; cbn [fold_right]; lia. Qed.
Lemma smallest_le u l : smallest_from u l <= u64_max.
Proof. unfold smallest_from. induction l as [|p l IH]; cbn [fold_right]; [lia|]. destruct (u <=? fst p); lia. Qed.
Lemma history_stats T lo hi sf b l h : is_u64 lo -> is_u64 hi -> is_u8 sf -> creation_check lo hi sf = None ->
  rec_many (set_auto (fresh T lo hi sf) b) l h ->
  h_um h = h_um (fresh T lo hi sf) /\
  h_max h = stat_max (2 ^ h_um h) (largest l) /\ h_min h = stat_min (2 ^ h_um h) (smallest_from (2 ^ h_um h) l).
Proof.
  intros L Hh S CC R.
  assert (W0 : wf (set_auto (fresh T lo hi sf) b)) by (apply set_auto_wf, fresh_wf; auto).
  pose proof (ss_um _ _ (ra_shape _ _ _ (rec_many_all _ _ _ R))) as EU.
  destruct (rec_many_stats _ _ _ R W0 0 u64_max) as [A B].
  - lia. - unfold u64_max; lia. - reflexivity. - reflexivity.
  - rewrite EU. split; [reflexivity|]. rewrite A, B. split.
    + f_equal. rewrite Z.max_r; auto. apply largest_nonneg.
    + f_equal. rewrite Z.min_r; auto. apply smallest_le.
Qed.

Lemma largest_spec l M : (exists n, In (M, n) l) -> (forall v n, In (v, n) l -> 0 <= v <= M) -> largest l = M.
Proof.
  intros [n I] F.
  assert (A : M <= largest l). { revert I. clear. induction l as [|[v k] l IH]; cbn; [tauto|]. intros [E|E].
    - injection E as -> ->. lia. - specialize (IH E). unfold largest in IH. lia. }
  assert (B : largest l <= M).
  { assert (0 <= M) by (specialize (F _ _ I); lia). clear I A.
    induction l as [|[v k] l IH]; cbn; [lia|]. fold (largest l).
    pose proof (F v k ltac:(left; reflexivity)). specialize (IH ltac:(intros; eapply F; right; eauto)). lia. }
  lia.
Qed.

Lemma smallest_spec u l m : (exists n, In (m, n) l) -> u <= m <= u64_max ->
  (forall v n, In (v, n) l -> u <= v -> m <= v) -> smallest_from u l = m.
Proof.
  intros [n I] Hm F.
  assert (A : smallest_from u l <= m).
  { revert I. clear F. induction l as [|[v k] l IH]; cbn [smallest_from fold_right In fst]; [tauto|].
    fold (smallest_from u l). intros [E|E].
    - injection E as -> ->. destruct (Z.leb_spec u m); lia.
    - specialize (IH E). destruct (_ <=? _); lia. }
  assert (B : m <= smallest_from u l).
  { clear I A. induction l as [|[v k] l IH]; cbn [smallest_from fold_right fst]; [lia|]. fold (smallest_from u l).
    specialize (IH ltac:(intros; eapply F; eauto; right; eauto)).
    destruct (Z.leb_spec u v); auto. pose proof (F v k ltac:(left; reflexivity) H). lia. }
  lia.
Qed.
Lemma smallest_none u l : (forall v n, In (v, n) l -> v < u) -> smallest_from u l = u64_max.
Proof.
  intros F. induction l as [|[v k] l IH]; cbn [smallest_from fold_right fst]; auto. fold (smallest_from u l).
  destruct (Z.leb_spec u v); [pose proof (F v k ltac:(left; reflexivity)); lia|].
  apply IH. intros. eapply F. right; eauto.
Qed.

(** [max] is the top of the class of the largest recorded value [M] (0 if that is 0; in the class
    ending at [u64::MAX] the very last value may be left out) *)
Lemma C08_max_proof : forall T lo hi sf b h0 l h M n, is_u64 lo -> is_u64 hi -> is_u8 sf ->
  new_with_bounds T lo hi sf = Ret (ROk h0) -> records (auto h0 b) l h ->
  In (M, n) l -> (forall v k, In (v, k) l -> v <= M) ->
  exists mx, max h = Ret mx /\ is_u64 mx /\ M <= mx /\ equivalent h M mx = Ret true /\ (M = 0 -> mx = 0) /\
    (0 < M -> forall w, is_u64 w -> equivalent h M w = Ret true -> w <= mx \/ w = u64_max).
Proof.
  intros T lo hi sf b h0 l h M n L Hh S E R I F.
  destruct (created_wf T lo hi sf h0 L Hh S E) as (-> & CC & W & EX).
  assert (W0 : wf (set_auto (fresh T lo hi sf) b)) by (apply set_auto_wf; auto).
  apply records_many in R; auto. pose proof (rec_many_wf _ _ _ R) as WH. pose proof (w_cfg h WH) as C.
  pose proof (rec_many_u64 _ _ _ R) as FU. rewrite Forall_forall in FU.
  assert (VM : u64 M) by apply (FU _ I).
  destruct (history_stats T lo hi sf b l h L Hh S CC R) as (EU & A & _).
  rewrite (largest_spec l M) in A; [|eauto|]. 2: { intros v k Iv. split; [apply (FU _ Iv)|eapply F; eauto]. }
  exists (maxp h). rewrite max_ok by auto. split; [reflexivity|].
  pose proof (um_nonneg h C) as U0. pose proof (m_nonneg h C) as M0. pose proof (pow2_pos (h_um h) U0) as P.
  unfold stat_max in A. destruct (Z.eqb_spec M 0) as [->|NZ].
  - assert (MZ : maxp h = 0) by (unfold maxp; rewrite A; reflexivity). rewrite MZ. split; [exact VM|]. split; [lia|]. split; [|split; [auto|lia]].
    rewrite equivalent_bin by auto. rewrite Z.eqb_refl. reflexivity.
  - pose proof (maxp_u64 h WH) as MU. split; auto.
    pose proof (h_max_le_maxp h WH) as LE. rewrite A in LE. pose proof (ceil_to_ge (2 ^ h_um h) M P).
    split; [lia|].
    assert (BM : bin h (h_max h) = bin h M). { rewrite A. unfold bin, ceil_to. apply idx_ceil_um; auto; apply VM. }
    split. { rewrite equivalent_bin by auto. rewrite bin_maxp by auto. rewrite BM, Z.eqb_refl. reflexivity. }
    split; [lia|]. intros _ w Hw EQ. rewrite equivalent_bin in EQ by auto. injection EQ as EQ. apply Z.eqb_eq in EQ.
    unfold maxp. destruct (Z.eqb_spec (h_max h) 0) as [H0|H0]; [rewrite A in H0; unfold u64 in VM; lia|].
    pose proof (w_max h WH) as XU.
    pose proof (proj1 (idx_iff _ _ U0 M0 w (bin h (h_max h)) ltac:(apply Hw) (bin_nonneg h _ C ltac:(apply XU))) ltac:(unfold bin in *; congruence)) as IV.
    unfold bin in IV. rewrite val_idx, val_idx_succ in IV by (auto; apply XU).
    unfold higheq, nexteq. destruct (Z.eqb_spec (h_max h) u64_max); unfold is_u64 in Hw; lia.
Qed.
(*EX
Example ex_C08_max : match new_with_bounds U16 1 100000 2, build U16 1 100000 2 false [(0, 1); (70000, 2); (600, 3)] with
  | Ret (ROk h0), Some h => reachable (auto h0 false) /\ records (auto h0 false) [(0, 1); (70000, 2); (600, 3)] h /\
      In (70000, 2) [(0, 1); (70000, 2); (600, 3)] /\ forallb (fun p => fst p <=? 70000) [(0, 1); (70000, 2); (600, 3)] = true /\
      max h = Ret 70143 /\ equivalent h 70000 70143 = Ret true /\ equivalent h 70000 70144 = Ret false
  | _, _ => False end.
Proof. case_of. Qed.
EX*)

(** [min_nz] is the bottom of the class of the smallest recorded value not equivalent to 0, or
    [u64::MAX] if there is none ([u64::MAX] recorded alone stays [u64::MAX]) *)
Lemma C08_min_nz_proof : forall T lo hi sf b h0 l h m n, is_u64 lo -> is_u64 hi -> is_u8 sf ->
  new_with_bounds T lo hi sf = Ret (ROk h0) -> records (auto h0 b) l h ->
  In (m, n) l -> equivalent h 0 m = Ret false ->
  (forall v k, In (v, k) l -> equivalent h 0 v = Ret false -> m <= v) ->
  min_nz h = if m =? u64_max then Ret u64_max else lowest_equivalent h m.
Proof.
  intros T lo hi sf b h0 l h m n L Hh S E R I NE F.
  destruct (created_wf T lo hi sf h0 L Hh S E) as (-> & CC & W & EX).
  assert (W0 : wf (set_auto (fresh T lo hi sf) b)) by (apply set_auto_wf; auto).
  apply records_many in R; auto. pose proof (rec_many_wf _ _ _ R) as WH. pose proof (w_cfg h WH) as C.
  pose proof (rec_many_u64 _ _ _ R) as FU. rewrite Forall_forall in FU.
  assert (VM : u64 m) by apply (FU _ I). assert (V0 : u64 0) by (unfold u64, u64_max; lia).
  pose proof (um_nonneg h C) as U0. pose proof (m_nonneg h C) as M0. pose proof (pow2_pos (h_um h) U0) as P.
  assert (Z0 : bin h 0 = 0) by (apply zero_class; auto; lia).
  assert (NZ : forall v, u64 v -> (equivalent h 0 v = Ret false <-> 2 ^ h_um h <= v)).
  { intros v V. rewrite equivalent_bin by auto. rewrite Z0. pose proof (zero_class h v C ltac:(apply V)).
    destruct (Z.eqb_spec 0 (bin h v)); split; intros; try discriminate; try reflexivity; lia. }
  destruct (history_stats T lo hi sf b l h L Hh S CC R) as (EU & _ & A).
  apply NZ in NE; auto.
  rewrite (smallest_spec (2 ^ h_um h) l m) in A; [|eauto|unfold u64 in VM; lia|].
  2: { intros v k Iv Lv. eapply F; eauto. apply NZ; auto. apply (FU _ Iv). }
  rewrite min_nz_ok by auto. unfold minp. rewrite A. unfold stat_min.
  destruct (Z.eqb_spec m u64_max) as [->|NM]; [reflexivity|].
  pose proof (floor_to_le (2 ^ h_um h) m P).
  destruct (Z.eqb_spec (floor_to (2 ^ h_um h) m) u64_max); [unfold u64 in VM; lia|].
  rewrite lowest_equivalent_ok by auto. f_equal.
  assert (0 <= floor_to (2 ^ h_um h) m). { unfold floor_to. pose proof (Z.div_pos m (2 ^ h_um h) ltac:(apply VM) P). nia. }
  apply loweq_idx; auto; [apply VM|]. unfold floor_to. apply idx_floor_um; auto. apply VM.
Qed.
(*EX
Example ex_C08_min_nz : match new_with_bounds U16 16 100000 2, build U16 16 100000 2 false [(15, 1); (70000, 2); (601, 3)] with
  | Ret (ROk h0), Some h => reachable (auto h0 false) /\ records (auto h0 false) [(15, 1); (70000, 2); (601, 3)] h /\
      In (601, 3) [(15, 1); (70000, 2); (601, 3)] /\ equivalent h 0 601 = Ret false /\ equivalent h 0 15 = Ret true /\
      min_nz h = Ret 592 /\ lowest_equivalent h 601 = Ret 592
  | _, _ => False end.
Proof. case_of. Qed.
EX*)
Lemma C08_min_nz_none_proof : forall T lo hi sf b h0 l h, is_u64 lo -> is_u64 hi -> is_u8 sf ->
  new_with_bounds T lo hi sf = Ret (ROk h0) -> records (auto h0 b) l h ->
  (forall v k, In (v, k) l -> equivalent h 0 v = Ret true) -> min_nz h = Ret u64_max.
Proof.
  intros T lo hi sf b h0 l h L Hh S E R F.
  destruct (created_wf T lo hi sf h0 L Hh S E) as (-> & CC & W & EX).
  assert (W0 : wf (set_auto (fresh T lo hi sf) b)) by (apply set_auto_wf; auto).
  apply records_many in R; auto. pose proof (rec_many_wf _ _ _ R) as WH. pose proof (w_cfg h WH) as C.
  pose proof (rec_many_u64 _ _ _ R) as FU. rewrite Forall_forall in FU.
  assert (V0 : u64 0) by (unfold u64, u64_max; lia).
  pose proof (um_nonneg h C) as U0. pose proof (pow2_pos (h_um h) U0) as P.
  assert (Z0 : bin h 0 = 0) by (apply zero_class; auto; lia).
  destruct (history_stats T lo hi sf b l h L Hh S CC R) as (EU & _ & A).
  rewrite smallest_none in A.
  - rewrite min_nz_ok by auto. unfold minp. rewrite A. reflexivity.
  - intros v n I. specialize (F v n I). pose proof (FU _ I) as V. cbn [fst] in V. rewrite equivalent_bin in F by auto. injection F as F.
    apply zero_class; auto; [apply V|]. lia.
Qed.
(*EX
Example ex_C08_min_nz_none : match build U16 16 100000 2 false [(0, 1); (15, 2); (7, 3)] with
  | Some h => reachable h /\ equivalent h 0 15 = Ret true /\ equivalent h 0 7 = Ret true /\ min_nz h = Ret u64_max /\ max h = Ret 15
  | None => False end.
Proof. case_of. Qed.
EX*)

(** [min] is the bottom of the class of the smallest recorded value *)
Lemma C08_min_proof : forall T lo hi sf b h0 l h m n, is_u64 lo -> is_u64 hi -> is_u8 sf ->
  new_with_bounds T lo hi sf = Ret (ROk h0) -> records (auto h0 b) l h ->
  (forall v k, In (v, k) l -> 1 <= k) ->
  In (m, n) l -> (forall v k, In (v, k) l -> m <= v) ->
  min h = if m =? u64_max then Ret u64_max else lowest_equivalent h m.
Proof.
  intros T lo hi sf b h0 l h m n L Hh S E R PO I F. pose proof R as RR.
  destruct (created_wf T lo hi sf h0 L Hh S E) as (EH & CC & W & EX). subst h0.
  assert (W0 : wf (set_auto (fresh T lo hi sf) b)) by (apply set_auto_wf; auto).
  apply records_many in R; auto. pose proof (rec_many_wf _ _ _ R) as WH. pose proof (w_cfg h WH) as C.
  pose proof (rec_many_u64 _ _ _ R) as FU. rewrite Forall_forall in FU.
  assert (VM : u64 m) by apply (FU _ I). assert (V0 : u64 0) by (unfold u64, u64_max; lia).
  pose proof (um_nonneg h C) as U0. pose proof (m_nonneg h C) as M0. pose proof (pow2_pos (h_um h) U0) as P.
  assert (Z0 : bin h 0 = 0) by (apply zero_class; auto; lia).
  change (auto (fresh T lo hi sf) b) with (set_auto (fresh T lo hi sf) b) in R.
  pose proof (rec_many_all _ _ _ R) as RA. pose proof (ra_shape _ _ _ RA) as SS.
  assert (FP : Forall (fun p => 0 <= snd p) l) by (eapply rec_many_nonneg; eauto).
  assert (TP : 0 < wtotal l).
  { clear - I PO FP. induction l as [|[v k] l IH]; [destruct I|]. cbn [wtotal]. inversion FP; subst.
    pose proof (wtotal_nonneg l H2). pose proof (PO v k ltac:(left; reflexivity)). lia. }
  rewrite min_ok by auto.
  assert (HT : h_total h <> 0).
  { rewrite (ra_total _ _ _ RA). change (h_total (set_auto (fresh T lo hi sf) b)) with 0. unfold u64_max. lia. }
  destruct (Z.eqb_spec (h_total h) 0) as [|_]; [contradiction|]. cbn [orb].
  assert (CZ : zn (h_counts h) 0 = 0 <-> (forall v k, In (v, k) l -> bin h v <> 0)).
  { rewrite (ra_cnt _ _ _ RA) by lia. change (h_counts (set_auto (fresh T lo hi sf) b)) with (h_counts (fresh T lo hi sf)).
    rewrite fresh_zero by lia. pose proof (cmax_le (h_ctr (set_auto (fresh T lo hi sf) b))) as CM.
    pose proof (wsum_nonneg (bin (set_auto (fresh T lo hi sf) b)) 0 l FP) as WN.
    assert (IFF : wsum (bin (set_auto (fresh T lo hi sf) b)) 0 l = 0 <-> (forall v k, In (v, k) l -> bin h v <> 0)).
    { clear - PO SS FP. induction l as [|[v k] l IH]; cbn [wsum].
      - split; auto.
      - inversion FP; subst. specialize (IH ltac:(intros; eapply PO; right; eauto) H2).
        pose proof (wsum_nonneg (bin (set_auto (fresh T lo hi sf) b)) 0 l H2).
        pose proof (PO v k ltac:(left; reflexivity)). rewrite <- (same_shape_bin _ _ v SS).
        destruct (Z.eqb_spec (bin h v) 0) as [Z1|Z1].
        + split; [lia|]. intros X. exfalso. apply (X v k); auto. left; reflexivity.
        + split.
          * intros X v2 k2 [Y|Y]; [injection Y as <- <-; auto|]. eapply (proj1 IH); eauto.
          * intros X. rewrite (proj2 IH); [lia|]. intros. eapply X. right; eauto. }
    rewrite <- IFF. clear - CM WN. lia. }
  destruct (Z.eqb_spec (zn (h_counts h) 0) 0) as [ZZ|ZZ]; cbn [negb].
  - rewrite <- min_nz_ok by auto. pose proof (proj1 CZ ZZ) as NZ.
    assert (Q : equivalent h 0 m = Ret false).
    { rewrite equivalent_bin by auto. f_equal. apply Z.eqb_neq. rewrite Z0. intros X. apply (NZ m n); auto. }
    apply (C08_min_nz_proof T lo hi sf b (fresh T lo hi sf) l h m n); auto. intros. eapply F; eauto.
  - assert (BM : bin h m = 0).
    { destruct (Z.eq_dec (bin h m) 0) as [|NB]; auto. exfalso. apply ZZ. apply CZ. intros v k Iv BV.
      apply zero_class in BV; auto; [|apply (FU _ Iv)]. pose proof (F v k Iv). apply NB. apply zero_class; auto; [apply VM|lia]. }
    apply zero_class in BM; auto; [|apply VM].
    destruct (Z.eqb_spec m u64_max) as [->|].
    { exfalso. pose proof (um_range h C). pose proof (pow2_le_64 (h_um h) ltac:(lia)).
      change (2 ^ 63) with 9223372036854775808 in *. unfold u64_max in BM. lia. }
    rewrite lowest_equivalent_ok by auto. f_equal. symmetry.
    rewrite <- bval_bin by (auto; apply VM). rewrite (proj2 (zero_class h m C ltac:(apply VM))) by lia.
    unfold bval. apply val_0; auto.
Qed.
(*EX
Example ex_C08 : match build U16 1 100000 2 false [(0, 1); (70000, 2); (600, 3)] with
  | Some h => reachable h /\ max h = Ret 70143 /\ min h = Ret 0 /\ min_nz h = Ret 600 /\ highest_equivalent h 70000 = Ret 70143
  | None => False end.
Proof. case_of. Qed.
Example ex_C08_min : match build U16 1 100000 2 false [(70001, 2)] with
  | Some h => reachable h /\ min h = Ret 69632 /\ lowest_equivalent h 70001 = Ret 69632
  | None => False end.
Proof. case_of. Qed.
EX*)

(** a record with count 0 is not neutral: it moves the extremes *)
Lemma C08_zero_count_moves_max_refuted_proof : exists h h' v,
  reachable h /\ is_u64 v /\ record_n h v 0 = Ret (h', ROk tt) /\ len h' = 0 /\ max h = Ret 0 /\ max h' = Ret 7.
Proof.
  destruct (build U64 1 1000 1 false []) as [h|] eqn:B; [|vm_compute in B; discriminate].
  pose proof (build_reachable _ _ _ _ _ _ _ B) as R. vm_compute in B. injection B as <-.
  match type of R with reachable ?x => destruct (record_n x 7 0) as [[h' [[]|]]|] eqn:E; try (vm_compute in E; discriminate) end.
  eexists. exists h', 7. split; [exact R|]. split; [vm_compute; split; discriminate|]. split; [exact E|].
  vm_compute in E. injection E as <-. vm_compute. auto.
Qed.

(** ** C09.  Without auto-resize a record is accepted exactly when the bins cover the value; otherwise
    nothing changes.  The bins cover everything up to [high], and what they cover is everything below
    a power of two. *)
Lemma C09_reject_unchanged_proof : forall h v n, reachable h -> is_u64 v -> is_count (h_ctr h) n ->
  is_auto_resize h = false ->
  (covers h v -> exists h', record_n h v n = Ret (h', ROk tt)) /\
  (~ covers h v -> record_n h v n = Ret (h, RErr ValueOutOfRangeResizeDisabled)).
Proof.
  intros h v n R V N A. pose proof (reachable_wf h R) as W. rewrite covers_bin by auto. split; intros CV.
  - destruct (record_n_ok h v n W V N ltac:(auto)) as (h' & E & _). eauto.
  - apply record_n_err; auto. lia.
Qed.
(*EX
Example ex_C09_reject_unchanged : match build U64 1 1000 1 false [(5, 1)] with
  | Some h => reachable h /\ is_auto_resize h = false /\ is_u64 1024 /\ is_count U64 3 /\ ~ covers h 1024 /\
      record_n h 1024 3 = Ret (h, RErr ValueOutOfRangeResizeDisabled) /\
      covers h 1023 /\ match record_n h 1023 3 with Ret (h', ROk _) => len h' = 4 | _ => False end
  | None => False end.
Proof. case_of. Qed.
EX*)
Lemma C09_covered_range_proof : forall h, reachable h -> exists k, 1 <= k <= 64 /\ high h < 2 ^ k /\
  (forall v, is_u64 v -> (covers h v <-> v < 2 ^ k)).
Proof.
  intros h R. pose proof (reachable_wf h R) as W. pose proof (w_cfg h W) as C.
  exists (top_exp h). pose proof (top_exp_range h C) as TE. pose proof (um_nonneg h C). pose proof (m_nonneg h C).
  split; [lia|]. split.
  - apply (idx_in_iff_top h C (w_size h W) (h_high h) (high_u64 h C)). apply high_in; auto. apply w_size; auto.
  - intros v V. rewrite covers_bin by auto. apply idx_in_iff_top; auto. apply w_size; auto.
Qed.
(*EX
Example ex_C09_covered_range : match build U64 1 1000 1 false [(5, 1)] with
  | Some h => reachable h /\ high h = 1000 /\ covers h 0 /\ covers h (2 ^ 10 - 1) /\ ~ covers h (2 ^ 10)
  | None => False end.
Proof. case_of. Qed.
EX*)
(** [record] accepts values above [high()] (up to the top of the last bin) although resizing is off *)
Lemma C09_above_high_accepted_refuted_proof : exists h v h',
  reachable h /\ is_auto_resize h = false /\ high h < v /\ record h v = Ret (h', ROk tt).
Proof.
  destruct (build U64 1 1000 1 false []) as [h|] eqn:B; [|vm_compute in B; discriminate].
  pose proof (build_reachable _ _ _ _ _ _ _ B) as R. vm_compute in B. injection B as <-.
  match type of R with reachable ?x => destruct (record x 1001) as [[h' [[]|]]|] eqn:E; try (vm_compute in E; discriminate) end.
  eexists. exists 1001, h'. split; [exact R|]. split; [reflexivity|]. split; [reflexivity|]. exact E.
Qed.
(*EX
Example ex_C09 : match build U64 1 1000 1 false [(5, 1)] with
  | Some h => reachable h /\ record_n h 1024 1 = Ret (h, RErr ValueOutOfRangeResizeDisabled) /\
              index_for h 1023 = Ret (Some 111) /\ distinct_values h = 112
  | None => False end.
Proof. case_of. Qed.
EX*)

(** ** C10.  With auto-resize on, every value is recorded; nothing that was there is lost. *)
Lemma C10_auto_resize_proof : forall h v n, reachable h -> is_u64 v -> is_count (h_ctr h) n ->
  is_auto_resize h = true ->
  exists h', record_n h v n = Ret (h', ROk tt) /\ covers h' v /\ distinct_values h <= distinct_values h' /\
    high h <= high h' /\ low h' = low h /\ sigfig h' = sigfig h /\ is_auto_resize h' = true /\
    len h' = Z.min u64_max (len h + n) /\
    (forall w, is_u64 w -> covers h w -> covers h' w) /\
    (forall w c, is_u64 w -> covers h w -> count_at h w = Ret c -> equivalent h v w = Ret false -> count_at h' w = Ret c) /\
    (forall w, is_u64 w -> ~ covers h w -> covers h' w -> equivalent h v w = Ret false -> count_at h' w = Ret 0) /\
    (~ covers h v -> v <= high h' \/ (v = u64_max /\ high h' = u64_max - 1)).
Proof.
  intros h v n R V N A. pose proof (reachable_wf h R) as W. pose proof (w_cfg h W) as C.
  destruct (record_n_ok h v n W V N ltac:(auto)) as (h' & E & RD). exists h'. split; auto.
  pose proof RD as [R1 R2 R3 R4 R5 R6 R7 R8].
  pose proof (bin_nonneg h v C ltac:(apply V)) as B0.
  assert (IN : bin h' v < zlen (h_counts h')).
  { pose proof (w_max_in h' R1) as MI. fold (bin h' (h_max h')) in MI. rewrite R5 in MI.
    rewrite (recorded_bin _ _ _ _ _ RD) in MI. rewrite new_max_bin in MI by auto. rewrite (recorded_bin _ _ _ _ _ RD). lia. }
  split; [apply covers_bin; auto|]. split; [exact R7|]. split; [exact R8|].
  split; [apply R2|]. split; [apply R2|]. split; [unfold is_auto_resize; rewrite (ss_auto _ _ R2); auto|].
  split; [exact R4|]. split.
  { intros w Hw CV. apply covers_bin; auto. apply covers_bin in CV; auto. rewrite (same_shape_bin h h') by auto. lia. }
  split.
  { intros w c Hw CV EC NE. apply covers_bin in CV; auto. rewrite count_at_ok in EC by auto. injection EC as <-.
    rewrite count_at_ok by auto. rewrite ?cbin_in by (rewrite ?(same_shape_bin h h') by auto; lia). rewrite (same_shape_bin h h') by auto. rewrite R3 by (apply bin_nonneg; auto; apply Hw).
    rewrite equivalent_bin in NE by auto. injection NE as ->. reflexivity. }
  split.
  { intros w Hw NC CV NE. apply covers_bin in CV; auto. rewrite covers_bin in NC by auto.
    rewrite (same_shape_bin h h') in CV by auto.
    rewrite count_at_ok by auto. rewrite ?cbin_in by (rewrite ?(same_shape_bin h h') by auto; lia). rewrite (same_shape_bin h h') by auto. rewrite R3 by (apply bin_nonneg; auto; apply Hw).
    rewrite equivalent_bin in NE by auto. injection NE as ->. rewrite zn_out by lia. reflexivity. }
  intros NC. rewrite covers_bin in NC by auto. unfold record_n in E.
  rewrite record_n_inner_ok in E by (auto; apply w_size; auto). fold (bin h v) in E.
  destruct (Z.ltb_spec (bin h v) (zlen (h_counts h))); [lia|]. change (h_auto h = true) in A. rewrite A in E.
  injection E as <-. unfold rec_pure; cbn zeta; hsimp. unfold grown. fold (bin h v).
  destruct (Z.ltb_spec (bin h v) (zlen (h_counts h))); [lia|]. unfold high. hsimp.
  assert (HV : h_high h < v) by (apply (out_gt_high h v C (w_size h W) V); unfold bin in *; lia).
  pose proof (c_high h C).
  assert (RC : cfg_ok (resized h v)) by (apply resized_cfg; auto; lia).
  pose proof (resized_size h C v) as RS.
  pose proof (high_in (resized h v) RC RS) as HI. change (h_high (resized h v)) with v in HI.
  apply (idx_in_iff_top (resized h v) RC RS v V) in HI. unfold top_val. unfold is_u64 in V. lia.
Qed.
(*EX
Example ex_C10 : match build U64 1 1000 1 true [(5, 3)] with
  | Some h => reachable h /\ is_auto_resize h = true /\ index_for h 5000 = Ret (Some 147) /\ distinct_values h = 112 /\
      match record_n h 5000 1 with
      | Ret (h', ROk _) => high h' = 8191 /\ count_at h' 5 = Ret 3 /\ count_at h' 5000 = Ret 1
      | _ => False end
  | None => False end.
Proof. case_of. Qed.
EX*)

(** ** C11.  [saturating_record_n] never fails: it is [record_n] of the value if the bins cover it and of
    [high()] otherwise; the range and the number of bins stay the same. *)
Lemma C11_saturating_proof : forall h v n, reachable h -> is_u64 v -> is_count (h_ctr h) n ->
  exists h', saturating_record_n h v n = Ret h' /\
    (covers h v -> record_n h v n = Ret (h', ROk tt)) /\
    (~ covers h v -> record_n h (high h) n = Ret (h', ROk tt)) /\
    distinct_values h' = distinct_values h /\ high h' = high h /\ low h' = low h /\ sigfig h' = sigfig h /\
    is_auto_resize h' = is_auto_resize h.
Proof.
  intros h v n R V N. pose proof (reachable_wf h R) as W. pose proof (w_cfg h W) as C.
  destruct (saturating_ok h v n W V N) as (h' & E & RD & H1 & H2). exists h'. split; auto.
  rewrite covers_bin by auto. unfold saturating_record_n in E.
  rewrite record_n_inner_ok in E by (auto; apply w_size; auto). fold (bin h v) in E.
  pose proof (high_in h C (w_size h W)) as HI. pose proof (high_u64 h C) as HU.
  assert (E1 : bin h v < zlen (h_counts h) -> record_n h v n = Ret (h', ROk tt)).
  { intros L. unfold record_n. rewrite record_n_inner_ok by (auto; apply w_size; auto). fold (bin h v).
    destruct (Z.ltb_spec (bin h v) (zlen (h_counts h))); [|lia]. cbn [bind] in E. injection E as <-. reflexivity. }
  assert (E2 : ~ bin h v < zlen (h_counts h) -> record_n h (high h) n = Ret (h', ROk tt)).
  { intros L. unfold record_n, high. rewrite record_n_inner_ok by (auto; apply w_size; auto).
    destruct (Z.ltb_spec (idx (h_um h) (h_half_mag h) (h_high h)) (zlen (h_counts h))); [|lia].
    destruct (Z.ltb_spec (bin h v) (zlen (h_counts h))); [lia|]. cbn [bind] in E. injection E as <-. reflexivity. }
  pose proof (rd_shape _ _ _ _ RD) as SS.
  repeat split; auto; apply SS.
Qed.
(*EX
Example ex_C11_saturating : match build U64 1 1000 1 false [(5, 3)] with
  | Some h => reachable h /\ is_u64 1024 /\ is_count (h_ctr h) 2 /\ ~ covers h 1024 /\
      match saturating_record_n h 1024 2 with Ret h' => record_n h (high h) 2 = Ret (h', ROk tt) | _ => False end /\
      is_u64 1023 /\ covers h 1023 /\ match saturating_record_n h 1023 2 with Ret h' => record_n h 1023 2 = Ret (h', ROk tt) | _ => False end
  | None => False end.
Proof. case_of. Qed.
EX*)
(** it is not monotone: a larger value can be counted in a smaller class *)
Lemma C11_not_monotone_refuted_proof : exists h v w hv hw,
  reachable h /\ is_u64 v /\ is_u64 w /\ v < w /\
  saturating_record h v = Ret hv /\ saturating_record h w = Ret hw /\
  max hv = Ret 1023 /\ max hw = Ret 607.
Proof.
  destruct (build U64 1 600 1 false []) as [h|] eqn:B; [|vm_compute in B; discriminate].
  pose proof (build_reachable _ _ _ _ _ _ _ B) as R. vm_compute in B. injection B as <-.
  match type of R with reachable ?x =>
    destruct (saturating_record x 1000) as [hv|] eqn:E; [|vm_compute in E; discriminate];
    destruct (saturating_record x 2000) as [hw|] eqn:E2; [|vm_compute in E2; discriminate] end.
  eexists. exists 1000, 2000, hv, hw. split; [exact R|]. do 2 (split; [vm_compute; split; discriminate|]).
  split; [reflexivity|]. split; [exact E|]. split; [exact E2|].
  vm_compute in E. injection E as <-. vm_compute in E2. injection E2 as <-. vm_compute. auto.
Qed.
(*EX
Example ex_C11 : match build U64 1 1000 1 false [(5, 3)] with
  | Some h => reachable h /\ match saturating_record_n h 1000000 2 with
      | Ret h' => count_at h' 1000 = Ret 2 /\ len h' = 5 /\ max h' = Ret 1023
      | _ => False end
  | None => False end.
Proof. case_of. Qed.
EX*)

(** ** C12.  [record_n_correct v n i] is [record_n v n] followed by [record_n] of each missing value; it
    fails, with nothing changed, exactly when [record_n v n] fails. *)
Lemma missing_values_down v i : 0 < i -> 0 <= v -> missing_values v i = if v <=? i then [] else down_series (v - i) i.
Proof.
  intros I V. unfold missing_values, down_series. destruct (Z.eqb_spec i 0); [lia|].
  destruct (Z.leb_spec v i).
  - assert (v / i <= 1). { apply Z.div_le_upper_bound; lia. } replace (Z.to_nat (v / i - 1)) with 0%nat by lia. reflexivity.
  - assert (E : (v - i) / i = v / i - 1). { replace (v - i) with (v + (-1) * i) by lia. rewrite Z.div_add by lia. lia. }
    rewrite E. rewrite <- seq_shift, map_map. apply map_ext. intros k. lia.
Qed.

Lemma correct_loop_records f : forall h mv n i h', wf h -> u64 mv -> 0 <= n <= cmax (h_ctr h) -> 1 <= i ->
  correct_loop f h mv n i = Ret (h', ROk tt) -> records h (weighted n (down_series mv i)) h'.
Proof.
  induction f as [|f IH]; intros h mv n i h' W V N I E; cbn [correct_loop] in E;
    destruct (Z.leb_spec i mv) as [L|L]; try discriminate.
  - injection E as <-. rewrite down_series_stop by (unfold u64 in V; lia). constructor.
  - destruct (record_n_inner h mv n false) as [[h1 [[]|e]]|] eqn:ER; cbn [bind] in E; try discriminate.
    destruct (record_n_cases h mv n W V N) as [(hx & Ex & Rx)|(Ex & _)]; unfold record_n in Ex; rewrite Ex in ER; inversion ER; subst hx.
    unfold u64_sub in E. rewrite in_range_ok in E by (unfold u64 in V; lia). cbn [bind] in E.
    rewrite down_series_step by lia. cbn [weighted map]. econstructor; eauto.
    apply (IH h1 (mv - i)); auto; [apply Rx|unfold u64 in *; lia|]. rewrite (ss_ctr _ _ (rd_shape _ _ _ _ Rx)); auto.
  - injection E as <-. rewrite down_series_stop by (unfold u64 in V; lia). constructor.
Qed.

Lemma C12_correction_proof : forall h v n i, reachable h -> is_u64 v -> is_count (h_ctr h) n -> is_u64 i ->
  (exists h', record_n_correct h v n i = Ret (h', ROk tt) /\
     records h ((v, n) :: map (fun x => (x, n)) (missing_values v i)) h') \/
  (record_n_correct h v n i = record_n h v n /\ exists e, record_n h v n = Ret (h, RErr e)).
Proof.
  intros h v n i R V N I. pose proof (reachable_wf h R) as W.
  destruct (record_n_cases h v n W V N) as [(h1 & E & RD)|(E & A & B)].
  2: { right. unfold record_n_correct. rewrite E. cbn [bind]. split; eauto. }
  left. destruct (record_n_correct_ok h v n i W V N I) as [(h' & E' & _)|(E' & A & B)].
  2: { exfalso. rewrite record_n_err in E by auto. discriminate. }
  exists h'. split; auto. unfold record_n_correct in E'. rewrite E in E'. cbn [bind] in E'.
  econstructor; eauto. fold (weighted n (missing_values v i)).
  destruct (Z.eqb_spec i 0) as [->|NZ]. { injection E' as <-. cbn. constructor. }
  unfold is_u64 in *. rewrite missing_values_down by lia.
  destruct (Z.ltb_spec i v); destruct (Z.leb_spec v i); try lia. 2: { injection E' as <-. constructor. }
  unfold u64_sub in E'. rewrite in_range_ok in E' by lia. cbn [bind] in E'.
  apply (correct_loop_records _ h1 (v - i) n i h') in E'; auto; try lia.
  - apply RD. - unfold u64; lia. - rewrite (ss_ctr _ _ (rd_shape _ _ _ _ RD)); auto.
Qed.
(*EX
Example ex_C12_rejected : match build U64 1 1000 1 false [(100, 1)] with
  | Some h => reachable h /\ is_u64 5000 /\ is_count U64 2 /\ is_u64 3 /\ ~ covers h 5000 /\ record_n_correct h 5000 2 3 = Ret (h, RErr ValueOutOfRangeResizeDisabled)
  | None => False end.
Proof. case_of. Qed.
EX*)
(** which values those are *)
Lemma C12_missing_values_proof : forall v i x, 0 <= v -> 0 < i ->
  (In x (missing_values v i) <-> exists k, 1 <= k /\ x = v - k * i /\ i <= x).
Proof.
  intros v i x V I. unfold missing_values. destruct (Z.eqb_spec i 0); [lia|]. rewrite in_map_iff. split.
  - intros (k & <- & K). apply in_seq in K. exists (Z.of_nat k). split; [lia|]. split; auto.
    pose proof (Z.mul_div_le v i I). nia.
  - intros (k & K & -> & X). exists (Z.to_nat k). split; [lia|]. apply in_seq.
    assert (k + 1 <= v / i) by (apply Z.div_le_lower_bound; lia). lia.
Qed.
(*EX
Example ex_C12 : missing_values 10 3 = [7; 4] /\
  match build U64 1 1000 1 false [(100, 1)] with
  | Some h => match record_n_correct h 10 2 3 with
      | Ret (h', ROk _) => reachable h /\ is_u64 10 /\ is_count U64 2 /\ is_u64 3 /\ records h [(10, 2); (7, 2); (4, 2)] h' /\
          count_at h' 10 = Ret 2 /\ count_at h' 7 = Ret 2 /\ count_at h' 4 = Ret 2 /\ len h' = 7
      | _ => False end
  | None => False end.
Proof. case_of. Qed.
EX*)

(** ** C13.  Counts stay within the counter type and recording or adding never lowers one. *)
Lemma C13_counts_in_type_proof : forall h v c, reachable h -> is_u64 v -> count_at h v = Ret c -> is_count (h_ctr h) c.
Proof.
  intros h v c R V E. pose proof (reachable_wf h R) as W. rewrite count_at_ok in E by auto. injection E as <-.
  apply (zn_Forall _ _ (cbin h v) (w_cnt h W)). apply cbin_range; auto.
Qed.
(*EX
Example ex_C13_counts : match build U8 1 1000 1 false [(5, 250); (5, 10)] with
  | Some h => reachable h /\ is_u64 5 /\ count_at h 5 = Ret 255 /\ is_count (h_ctr h) 255
  | None => False end.
Proof. case_of. Qed.
EX*)

Lemma rec_many_grow h l h' : wf h -> rec_many h l h' -> forall w c c', u64 w -> bin h w < zlen (h_counts h) ->
  count_at h w = Ret c -> count_at h' w = Ret c' -> c <= c'.
Proof.
  intros W R w c c' V B E E'. pose proof (ra_len _ _ _ (rec_many_all _ _ _ R)).
  rewrite (rec_many_counts h l h' w) in E' by (auto; lia). injection E' as <-.
  rewrite count_at_ok in E by auto. injection E as <-. rewrite cbin_in by lia.
  pose proof (zn_le_cmax h (bin h w) W). rewrite weight_at_wsum; auto; [|eapply rec_many_u64; eauto].
  pose proof (wsum_nonneg (bin h) (bin h w) l (rec_many_nonneg _ _ _ R)). lia.
Qed.

Lemma C13_monotone_record_proof : forall h v n i h' r1 r2 w c c', reachable h -> is_u64 v -> is_count (h_ctr h) n -> is_u64 i ->
  record_n h v n = Ret (h', r1) \/ saturating_record_n h v n = Ret h' \/ record_n_correct h v n i = Ret (h', r2) ->
  is_u64 w -> covers h w -> count_at h w = Ret c -> count_at h' w = Ret c' -> c <= c'.
Proof.
  intros h v n i h' r1 r2 w c c' R V N I OP Hw CV E E'. pose proof (reachable_wf h R) as W. apply covers_bin in CV; auto.
  assert (SAME : h' = h -> c <= c') by (intros ->; rewrite E in E'; injection E' as ->; lia).
  destruct OP as [OP|[OP|OP]].
  - destruct (record_n_cases h v n W V N) as [(h1 & EX & RD)|(EX & _)]; rewrite EX in OP; inversion OP; subst; auto.
    apply (rec_many_grow h [(v, n)] h' W) with (w := w); auto. econstructor; eauto; [unfold is_count in N; lia|]. constructor. apply RD.
  - destruct (saturating_ok h v n W V N) as (h1 & EX & RD & _). rewrite EX in OP. injection OP as ->.
    eapply (rec_many_grow h [_] h' W) with (w := w); eauto. econstructor; [| |exact RD|constructor; apply RD].
    + destruct (_ <? _); auto. apply high_u64, w_cfg; auto.
    + unfold is_count in N; lia.
  - destruct (record_n_correct_ok h v n i W V N I) as [(h1 & EX & RD)|(EX & _)]; rewrite EX in OP; inversion OP; subst; auto.
    eapply (rec_many_grow h _ h' W) with (w := w); eauto.
Qed.
(*EX
Example ex_C13_monotone_record : match build U8 1 1000 1 false [(5, 250)] with
  | Some h => reachable h /\ is_u64 5 /\ is_count (h_ctr h) 10 /\ is_u64 2 /\ covers h 5 /\ count_at h 5 = Ret 250 /\
      match record_n h 5 10 with Ret (h', ROk _) => count_at h' 5 = Ret 255 | _ => False end /\
      match record_n_correct h 7 10 2 with Ret (h', ROk _) => count_at h' 5 = Ret 255 | _ => False end
  | None => False end.
Proof. case_of. Qed.
EX*)
Lemma C13_monotone_add_proof : forall h s h' r w c c', reachable h -> reachable s -> h_ctr h = h_ctr s ->
  add h s = Ret (h', r) -> is_u64 w -> covers h w -> count_at h w = Ret c -> count_at h' w = Ret c' -> c <= c'.
Proof.
  intros h s h' r w c c' R RS CT OP Hw CV E E'. pose proof (reachable_wf h R) as W. pose proof (reachable_wf s RS) as WS.
  apply covers_bin in CV; auto.
  assert (SAME : h' = h -> c <= c') by (intros ->; rewrite E in E'; injection E' as ->; lia).
  destruct (add_ok h s W WS CT) as [(_ & A)|[(_ & _ & _ & A)|(_ & _ & h1 & A & AD & _)]];
    rewrite A in OP; inversion OP; subst; auto.
  destruct AD as [A1 A2 A3 A4 A5 A6]. rewrite count_at_ok in E by auto. injection E as <-.
  rewrite count_at_ok in E' by auto. injection E' as <-. rewrite ?cbin_in by (rewrite ?(same_shape_bin h h') by auto; lia). rewrite (same_shape_bin h h') by auto. rewrite A3 by (apply bin_nonneg; [apply w_cfg; auto|apply Hw]).
  pose proof (zn_le_cmax h (bin h w) W). pose proof (wsum_nonneg (bin h) (bin h w) _ (contents_nonneg s WS)). lia.
Qed.
(*EX
Example ex_C13_monotone_add : match build U8 1 1000 1 false [(5, 250); (6, 1)] with Some h =>
  match build U8 1 1000 1 false [(5, 20); (900, 1)] with Some s =>
  match add h s with
  | Ret (h', ROk _) => reachable h /\ reachable s /\ h_ctr h = h_ctr s /\ is_u64 5 /\ covers h 5 /\ count_at h 5 = Ret 250 /\ count_at h' 5 = Ret 255 /\
      covers h 6 /\ count_at h 6 = Ret 1 /\ count_at h' 6 = Ret 1
  | _ => False end | None => False end | None => False end.
Proof. case_of. Qed.
EX*)
(*EX
Example ex_C13 : match build U8 1 1000 1 false [(5, 250)] with
  | Some h => reachable h /\ match record_n h 5 10 with
      | Ret (h', ROk _) => count_at h 5 = Ret 250 /\ count_at h' 5 = Ret 255
      | _ => False end
  | None => False end.
Proof. case_of. Qed.
EX*)
