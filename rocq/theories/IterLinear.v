(** * [iter_linear] *)
From Verif Require Import Machine Log2Model HistModel Spec Reach Bins ListZ Log2Facts Cfg Wf Ops AddFacts MoreFacts HeldFacts FloatModel IterModel IterSpec IterFacts IterBins PfQuery PfIter IterLevels.
From Coq Require Import ZifyBool ZifyNat.

Definition lin (h : hist) (step l : Z) : linear := mk_linear step l (loweq (h_um h) (h_half_mag h) l).

Lemma u64_add_ok a b : 0 <= a + b <= u64_max -> u64_add a b = Ret (a + b).
Proof. intros H. unfold u64_add. apply in_range_ok. auto. Qed.

Lemma low_cbin h l i : wf h -> u64 l -> 0 <= i < zlen (h_counts h) ->
  (loweq (h_um h) (h_half_mag h) l <=? bval h i) || (i =? zlen (h_counts h) - 1) = (cbin h l <=? i).
Proof.
  intros W U I. pose proof (w_cfg h W) as C. rewrite <- (bval_bin h l) by (auto; apply U). unfold cbin. pose proof (bin_nonneg h l C ltac:(apply U)) as B0.
  destruct (Z.eqb_spec i (zlen (h_counts h) - 1)) as [E|N].
  { rewrite orb_true_r. symmetry. apply Z.leb_le. lia. }
  rewrite orb_false_r. destruct (Z_le_dec (bin h l) i) as [L|L].
  - pose proof (bval_le h (bin h l) i C B0 L). rewrite !(proj2 (Z.leb_le _ _)) by lia. auto.
  - pose proof (bval_lt h i (bin h l) C ltac:(lia) ltac:(lia)). rewrite !(proj2 (Z.leb_gt _ _)) by lia. auto.
Qed.

Lemma lin_picks h step l : wf h -> u64 l -> 0 < step -> l + step <= u64_max -> picks pk_linear h (lin h step l) l (lin h step (l + step)).
Proof.
  intros W U S L. pose proof (w_cfg h W) as C. pose proof (w_size h W) as SZ. split; auto. intros i t c I. cbn [pk_pick pk_linear].
  pose proof (len_le_top h C SZ). rewrite value_for_ok by (auto; lia). cbn [bind]. rewrite last_index_ok by auto. cbn [bind].
  change (val (h_um h) (h_half_mag h) i) with (bval h i). change (ln_low (lin h step l)) with (loweq (h_um h) (h_half_mag h) l).
  rewrite low_cbin by auto. destruct (cbin h l <=? i); auto. cbn [lin ln_high ln_step].
  assert (U2 : u64 (l + step)) by (unfold u64 in *; lia).
  rewrite u64_add_ok by exact U2. cbn [bind]. rewrite lowest_equivalent_ok by auto. reflexivity.
Qed.

(** the bins below the top one *)
Lemma below_top h t : wf h -> u64 t -> t = higheq h t -> t < u64_max - 1 -> forall l, u64 l -> l <= t ->
  bin h l < idx (h_um h) (h_half_mag h) u64_max.
Proof.
  intros W U E L l UL LL. pose proof (w_cfg h W) as C.
  assert (bin h l <= bin h t) by (apply bin_mono; auto; unfold u64 in *; lia).
  enough (bin h t < idx (h_um h) (h_half_mag h) u64_max) by lia.
  unfold higheq in E. destruct (Z.eqb_spec t u64_max); [lia|]. unfold nexteq in E.
  rewrite <- (val_idx_succ _ _ (um_nonneg h C) (m_nonneg h C)) in E by apply U.
  fold (bin h t) in E. 
  destruct (Z_lt_le_dec (bin h t) (idx (h_um h) (h_half_mag h) u64_max)) as [|G]; auto. exfalso.
  pose proof (proj1 (idx_iff _ _ (um_nonneg h C) (m_nonneg h C) u64_max _ ltac:(unfold u64_max; lia) (idx_nonneg _ _ (um_nonneg h C) (m_nonneg h C) u64_max ltac:(unfold u64_max; lia))) eq_refl) as [_ HI].
  pose proof (val_le _ _ (um_nonneg h C) (m_nonneg h C) (idx (h_um h) (h_half_mag h) u64_max + 1) (bin h t + 1) ltac:(pose proof (idx_nonneg _ _ (um_nonneg h C) (m_nonneg h C) u64_max ltac:(unfold u64_max; lia)); lia) ltac:(lia)). lia.
Qed.

Section LIN.
Context (h : hist) (W : wf h) (step : Z) (S0 : 0 < step) (t : Z) (U : u64 t) (TT : t = higheq h t) (TS : t + step < u64_max)
  (TM : loweq (h_um h) (h_half_mag h) (h_max h) + step <= t + 1).
Notation maxi := (bin h (h_max h)).
Notation lo := (loweq (h_um h) (h_half_mag h) (h_max h)).

Definition level_from (l : Z) (k : nat) : Z := l + Z.of_nat k * step.

Lemma same_class l l' : u64 l -> u64 l' -> bin h l = bin h l' -> l <= t -> l' <= t.
Proof.
  intros UL UL' E L. pose proof (w_cfg h W) as C. destruct (Z_le_dec l' t) as [|G]; auto. exfalso.
  assert (B : bin h l' <= bin h t). { rewrite <- E. apply bin_mono; auto. unfold u64 in *; lia. }
  pose proof (proj1 (idx_iff _ _ (um_nonneg h C) (m_nonneg h C) l' (bin h l') ltac:(apply UL') (bin_nonneg h l' C ltac:(apply UL'))) eq_refl) as [_ HI].
  pose proof (val_le _ _ (um_nonneg h C) (m_nonneg h C) (bin h l' + 1) (bin h t + 1) ltac:(pose proof (bin_nonneg h l' C ltac:(apply UL')); lia) ltac:(lia)).
  unfold higheq in TT. destruct (Z.eqb_spec t u64_max); [unfold u64 in *; lia|]. unfold nexteq in TT.
  rewrite <- (val_idx_succ _ _ (um_nonneg h C) (m_nonneg h C)) in TT by apply U. fold (bin h t) in TT. unfold u64 in *. lia.
Qed.

Lemma level_from_S l k : level_from l (S k) = level_from (l + step) k.
Proof. unfold level_from. lia. Qed.
Lemma level_from_0 l : level_from l 0 = l. Proof. unfold level_from. lia. Qed.
Lemma levels_S l k : map (level_from l) (seq 0 (S k)) = l :: map (level_from (l + step)) (seq 0 k).
Proof. cbn [seq map]. rewrite level_from_0. f_equal. rewrite <- seq_shift, map_map. apply map_ext. intros. apply level_from_S. Qed.

Lemma lin_more st l : u64 l -> l <= t -> it_picker st = lin h step (l + step) -> it_index st = cbin h l ->
  pk_more pk_linear h (it_picker st) (it_index st) = Ret (l + step <? bval h (cbin h l + 1), it_picker st).
Proof.
  intros UL LT PK IX. pose proof (w_cfg h W) as C. pose proof (w_size h W) as SZ. pose proof (cbin_range h l W UL) as CR.
  pose proof (below_top h t W U TT ltac:(lia) l UL LT) as BT. pose proof (len_le_top h C SZ) as LE. pose proof (zlen_small h W) as ZS.
  cbn [pk_more pk_linear]. rewrite IX, PK. unfold usize_add. rewrite in_range_ok by (unfold usize_max in *; lia). cbn [bind].
  rewrite value_for_ok by (auto; unfold cbin in *; lia). reflexivity.
Qed.

Lemma more_iff l : u64 l -> u64 (l + step) -> maxi <= cbin h l ->
  (l + step < bval h (cbin h l + 1) <-> goes_on h lo l (l + step)).
Proof.
  intros UL UL' J. pose proof (w_cfg h W) as C. pose proof (w_size h W) as SZ. pose proof (cbin_range h l W UL) as CR. pose proof (maxi_range h W) as MR.
  pose proof (bin_nonneg h l C ltac:(apply UL)) as B0.
  pose proof (proj1 (idx_iff _ _ (um_nonneg h C) (m_nonneg h C) l (bin h l) ltac:(apply UL) B0) eq_refl) as [LO HI].
  change (val (h_um h) (h_half_mag h) ?i) with (bval h i) in LO. change (val (h_um h) (h_half_mag h) (bin h l + 1)) with (bval h (bin h l + 1)) in HI.
  assert (LOB : lo = bval h maxi) by (symmetry; apply bval_bin; [auto|apply (w_max h W)]).
  assert (NL : ~ l < lo). { rewrite LOB. pose proof (bval_le h maxi (cbin h l) C ltac:(lia) J). unfold cbin in *. pose proof (bval_le h (Z.min (bin h l) (zlen (h_counts h) - 1)) (bin h l) C ltac:(lia) ltac:(lia)). lia. }
  unfold goes_on. rewrite covers_bin by auto. rewrite equivalent_ok by auto. split.
  - intros L. right. assert (E : bin h l = cbin h l).
    { unfold cbin in *. destruct (Z_le_dec (bin h l) (zlen (h_counts h) - 1)); [lia|]. exfalso.
      rewrite Z.min_r in L by lia. pose proof (bval_le h (zlen (h_counts h) - 1 + 1) (bin h l) C ltac:(lia) ltac:(lia)). lia. }
    split; [lia|]. f_equal. apply Z.eqb_eq. symmetry.
    apply (idx_iff _ _ (um_nonneg h C) (m_nonneg h C)); [apply UL'|apply B0|]. change (val (h_um h) (h_half_mag h) ?i) with (bval h i).
    rewrite <- E in L. split; [|exact L]. unfold bin, bval in *. lia.
  - intros [?|[CV EQ]]; [contradiction|]. assert (E : cbin h l = bin h l) by (unfold cbin; lia). rewrite E.
    injection EQ as EQ. apply Z.eqb_eq in EQ.
    apply (idx_iff _ _ (um_nonneg h C) (m_nonneg h C) (l + step) (bin h l)); [apply UL'|apply B0|]. symmetry. exact EQ.
Qed.

Lemma lin_runs : forall n st l, (Z.to_nat (t - l) < n)%nat -> inv h st -> it_ended st = false -> it_picker st = lin h step l -> u64 l -> l <= t ->
  (opt_ge (it_last st) maxi = false /\ it_index st <= cbin h l) \/
    (opt_ge (it_last st) maxi = true /\ it_index st = cbin h l /\ pk_more pk_linear h (it_picker st) (it_index st) = Ret (true, it_picker st)) ->
  exists k, runs pk_linear h st (lvitems h (prevd st) (map (level_from l) (seq 0 (S k)))) /\
    (forall i, (i <= k)%nat -> u64 (level_from l i)) /\
    (forall i, (i < k)%nat -> goes_on h lo (level_from l i) (level_from l (S i))) /\
    ~ goes_on h lo (level_from l k) (level_from l (S k)).
Proof.
  pose proof (w_cfg h W) as C. pose proof (w_size h W) as SZ. pose proof (maxi_range h W) as MR.
  induction n as [|n IH]; intros st l N I EN PK UL LT CASE; [lia|].
  pose proof (lin_picks h step l W UL S0 ltac:(lia)) as PC. pose proof (cbin_range h l W UL) as CR.
  assert (UL' : u64 (l + step)) by (unfold u64 in *; lia).
  pose proof (bin_nonneg h l C ltac:(apply UL)) as B0.
  assert (ST : exists st', after h l (lin h step (l + step)) st' /\ forall xs, runs pk_linear h st' xs -> runs pk_linear h st (lvitem h (prevd st) l :: xs)).
  { destruct CASE as [[O IX]|(O & IX & M)].
    - eapply (walk_up pk_linear h W l _ _ PC _ st eq_refl); auto.
    - rewrite <- PK in PC. apply (more_here pk_linear h W st l _ I EN O IX M PC). }
  destruct ST as (st' & (I' & EN' & IX' & LA' & PK') & GO).
  assert (PD : prevd st' = cbin h l + 1) by (unfold prevd; rewrite LA'; auto).
  assert (MORE : maxi <= cbin h l -> pk_more pk_linear h (it_picker st') (it_index st') = Ret (l + step <? bval h (cbin h l + 1), it_picker st'))
    by (intros; apply lin_more; auto).
  (* continue with the next level *)
  assert (CONT : goes_on h lo l (l + step) -> l + step <= t -> 
     (opt_ge (it_last st') maxi = false /\ it_index st' <= cbin h (l + step)) \/
     (opt_ge (it_last st') maxi = true /\ it_index st' = cbin h (l + step) /\ pk_more pk_linear h (it_picker st') (it_index st') = Ret (true, it_picker st')) ->
     exists k, runs pk_linear h st (lvitems h (prevd st) (map (level_from l) (seq 0 (S k)))) /\
    (forall i, (i <= k)%nat -> u64 (level_from l i)) /\
    (forall i, (i < k)%nat -> goes_on h lo (level_from l i) (level_from l (S i))) /\
    ~ goes_on h lo (level_from l k) (level_from l (S k))).
  { intros G LT' CS. destruct (IH st' (l + step) ltac:(lia) I' EN' PK' UL' LT' CS) as (k & K1 & K2 & K3 & K4).
    rewrite PD in K1. exists (S k). split; [|split; [|split]].
    - rewrite levels_S. cbn [lvitems]. apply GO. exact K1.
    - intros i IK. destruct i as [|i]; [rewrite level_from_0; auto|]. rewrite level_from_S. apply K2. lia.
    - intros i IK. destruct i as [|i]; [rewrite level_from_S, !level_from_0; auto|]. rewrite !(level_from_S l). apply K3. lia.
    - rewrite !(level_from_S l). exact K4. }
  destruct (Z_lt_le_dec (cbin h l) maxi) as [J|J].
  - assert (E : bin h l = cbin h l) by (unfold cbin in *; lia).
    assert (LOB : lo = bval h maxi) by (symmetry; apply bval_bin; [auto|apply (w_max h W)]).
    assert (LL : l < lo).
    { rewrite LOB. pose proof (proj1 (idx_iff _ _ (um_nonneg h C) (m_nonneg h C) l (bin h l) ltac:(apply UL) B0) eq_refl) as [_ HI].
      pose proof (bval_le h (bin h l + 1) maxi C ltac:(lia) ltac:(lia)). unfold bval in *. lia. }
    assert (BM : bin h l <= bin h (l + step)) by (apply bin_mono; auto; unfold u64 in *; lia).
    apply CONT; [left; auto|lia|]. left. rewrite LA'. cbn [opt_ge]. split; [lia|]. unfold cbin in *. lia.
  - pose proof (more_iff l UL UL' J) as MI. specialize (MORE J).
    destruct (Z.ltb_spec (l + step) (bval h (cbin h l + 1))) as [M|M].
    + destruct (proj1 MI M) as [G|[CV EQ]].
      { exfalso. assert (LOB : lo = bval h maxi) by (symmetry; apply bval_bin; [auto|apply (w_max h W)]).
        pose proof (bval_le h maxi (cbin h l) C ltac:(lia) J). unfold cbin in *. pose proof (bval_le h (Z.min (bin h l) (zlen (h_counts h) - 1)) (bin h l) C ltac:(lia) ltac:(lia)).
        rewrite (bval_bin h l) in * by (auto; apply UL). pose proof (loweq_le _ (h_half_mag h) (um_nonneg h C) l ltac:(apply UL)). lia. }
      rewrite equivalent_ok in EQ by auto. injection EQ as EQ. apply Z.eqb_eq in EQ.
      fold (bin h l) in EQ. fold (bin h (l + step)) in EQ.
      apply CONT; [apply MI; auto|apply (same_class l); auto|]. right. rewrite LA'. cbn [opt_ge]. split; [lia|]. split; [|exact MORE].
      rewrite IX'. unfold cbin. congruence.
    + exists O. split; [|split; [|split]].
      * rewrite levels_S. cbn [seq map lvitems]. apply GO. apply (stop_here pk_linear h W st' (it_picker st')); auto; [lia|]. rewrite LA'. cbn [opt_ge]. lia.
      * intros i IK. replace i with O by lia. rewrite level_from_0. auto.
      * intros i IK. lia.
      * rewrite level_from_S, !level_from_0. intros G. apply MI in G. lia.
Qed.
End LIN.
