(** * The bin structure, as pure arithmetic

    A configuration is a unit magnitude [um] and a half-count magnitude [m].  Nothing here refers to
    the model. *)
From Coq Require Import ZArith Lia List Bool.
From Coq Require Import ZifyBool.
Open Scope Z_scope.

Definition bkt (um m v : Z) : Z := Z.max 0 (Z.log2 v - (um + m)).
Definition wid (um m v : Z) : Z := 2 ^ (um + bkt um m v).
Definition loweq (um m v : Z) : Z := v / wid um m v * wid um m v.
Definition idx (um m v : Z) : Z := bkt um m v * 2 ^ m + v / wid um m v.
Definition val (um m i : Z) : Z :=
  if i <? 2 ^ m then i * 2 ^ um
  else (i mod 2 ^ m + 2 ^ m) * 2 ^ (um + (i / 2 ^ m - 1)).

Lemma pow2_pos : forall k, 0 <= k -> 0 < 2 ^ k.
Proof. intros. apply Z.pow_pos_nonneg; lia. Qed.


Section BINS.
Variables um m : Z.
Hypothesis Hum : 0 <= um.
Hypothesis Hm : 0 <= m.

Local Notation HC := (2 ^ m).
Local Notation bkt := (bkt um m).
Local Notation wid := (wid um m).
Local Notation loweq := (loweq um m).
Local Notation idx := (idx um m).
Local Notation val := (val um m).

Lemma H_pos : 0 < HC.
Proof. apply pow2_pos; lia. Qed.

Lemma bkt_nonneg v : 0 <= bkt v.
Proof. unfold Bins.bkt. lia. Qed.

Lemma wid_pos v : 0 < wid v.
Proof. apply pow2_pos. pose proof (bkt_nonneg v). lia. Qed.

Lemma bkt_mono v w : v <= w -> bkt v <= bkt w.
Proof. intros. unfold Bins.bkt. pose proof (Z.log2_le_mono v w H). lia. Qed.

(** position inside the bucket *)
Lemma sub_range v : 0 <= v ->
  0 <= v / wid v < 2 * HC /\ (0 < bkt v -> HC <= v / wid v).
Proof.
  intros Hv. pose proof (wid_pos v) as W. pose proof H_pos as HP.
  split.
  - split. { apply Z.div_pos; lia. }
    apply Z.div_lt_upper_bound; [lia|].
    unfold Bins.wid. rewrite <- Z.pow_succ_r by lia. rewrite <- Z.pow_add_r.
    2: pose proof (bkt_nonneg v); lia. 2: lia.
    destruct (Z.eq_dec v 0) as [->|]. { apply pow2_pos. pose proof (bkt_nonneg 0); lia. }
    apply Z.log2_lt_pow2; [lia|]. unfold Bins.bkt. lia.
  - intros B. apply Z.div_le_lower_bound; [lia|].
    unfold Bins.wid. rewrite <- Z.pow_add_r by lia.
    apply Z.log2_le_pow2.
    + destruct (Z.eq_dec v 0) as [->|]; [|lia].
      unfold Bins.bkt in B. change (Z.log2 0) with 0 in B. lia.
    + unfold Bins.bkt in *. lia.
Qed.

Lemma loweq_le v : 0 <= v -> 0 <= loweq v <= v.
Proof.
  intros. pose proof (wid_pos v). unfold Bins.loweq.
  pose proof (Z.mul_div_le v (wid v)). pose proof (Z.div_pos v (wid v)). nia.
Qed.

Lemma lt_loweq_wid v : 0 <= v -> v < loweq v + wid v.
Proof.
  intros. pose proof (wid_pos v). unfold Bins.loweq.
  pose proof (Z.mod_pos_bound v (wid v)). pose proof (Z.div_mod v (wid v)). nia.
Qed.

Lemma idx_nonneg v : 0 <= v -> 0 <= idx v.
Proof.
  intros. pose proof (sub_range v H). pose proof (bkt_nonneg v). pose proof H_pos.
  unfold Bins.idx. nia.
Qed.

Lemma val_idx v : 0 <= v -> val (idx v) = loweq v.
Proof.
  intros Hv. destruct (sub_range v Hv) as [S1 S2]. pose proof (bkt_nonneg v) as B.
  pose proof H_pos as HP. unfold Bins.val, Bins.idx, Bins.loweq.
  destruct (Z.eq_dec (bkt v) 0) as [E|E].
  - rewrite E. rewrite Z.mul_0_l, Z.add_0_l. unfold Bins.wid in *. rewrite E in *.
    rewrite Z.add_0_r in *.
    set (s := v / 2 ^ um) in *.
    destruct (Z.ltb_spec s HC); [reflexivity|].
    assert (s / HC = 1) as ->. { symmetry. apply Z.div_unique with (s - HC); lia. }
    assert (s mod HC = s - HC) as ->. { symmetry. apply Z.mod_unique with 1; lia. }
    rewrite Z.add_0_r. f_equal. lia.
  - assert (S2' := S2 ltac:(lia)). set (s := v / wid v) in *.
    destruct (Z.ltb_spec (bkt v * HC + s) HC); [nia|].
    assert ((bkt v * HC + s) / HC = bkt v + 1) as ->.
    { symmetry. apply Z.div_unique with (s - HC); lia. }
    assert ((bkt v * HC + s) mod HC = s - HC) as ->.
    { symmetry. apply Z.mod_unique with (bkt v + 1); lia. }
    unfold Bins.wid. f_equal; [lia|]. f_equal. lia.
Qed.

Lemma log2_sub_mul s k : 0 <= k -> HC <= s < 2 * HC -> Z.log2 (s * 2 ^ k) = m + k.
Proof.
  intros Hk Hs. rewrite Z.log2_mul_pow2 by (pose proof H_pos; lia).
  rewrite (Z.log2_unique s m); [lia|lia|].
  rewrite Z.pow_succ_r by lia. lia.
Qed.

(** what [val i] looks like *)
Lemma val_shape i : 0 <= i ->
  (i < 2 * HC /\ val i = i * 2 ^ um /\ bkt (val i) = 0)
  \/ (2 * HC <= i /\ exists b s, 1 <= b /\ HC <= s < 2 * HC /\ i = b * HC + s /\
      val i = s * 2 ^ (um + b) /\ bkt (val i) = b).
Proof.
  intros Hi. pose proof H_pos as HP. pose proof (pow2_pos um Hum) as UP.
  destruct (Z_lt_le_dec i (2 * HC)) as [L|L]; [left|right]; split; auto.
  - unfold Bins.val.
    assert (V : (if i <? HC then i * 2 ^ um else (i mod HC + HC) * 2 ^ (um + (i / HC - 1))) = i * 2 ^ um).
    { destruct (Z.ltb_spec i HC); [reflexivity|].
      assert (i / HC = 1) as ->. { symmetry. apply Z.div_unique with (i - HC); lia. }
      assert (i mod HC = i - HC) as ->. { symmetry. apply Z.mod_unique with 1; lia. }
      rewrite Z.add_0_r. f_equal. lia. }
    rewrite V. split; [reflexivity|]. unfold Bins.bkt.
    destruct (Z.eq_dec i 0) as [->|]. { change (Z.log2 (0 * 2 ^ um)) with 0. lia. }
    rewrite Z.log2_mul_pow2 by lia.
    assert (Z.log2 i < m + 1). { apply Z.log2_lt_pow2; [lia|]. rewrite Z.pow_add_r by lia. lia. }
    lia.
  - exists (i / HC - 1), (i mod HC + HC).
    pose proof (Z.div_mod i HC ltac:(lia)) as DM. pose proof (Z.mod_pos_bound i HC HP) as MB.
    assert (2 <= i / HC). { apply Z.div_le_lower_bound; lia. }
    assert (V : val i = (i mod HC + HC) * 2 ^ (um + (i / HC - 1))).
    { unfold Bins.val. destruct (Z.ltb_spec i HC); [lia|reflexivity]. }
    repeat split; try lia; try exact V.
    rewrite V. unfold Bins.bkt. rewrite log2_sub_mul by lia. lia.
Qed.

Lemma val_nonneg i : 0 <= i -> 0 <= val i.
Proof.
  intros Hi. pose proof H_pos as HP.
  destruct (val_shape i Hi) as [(_ & -> & _)|(_ & b & s & ? & ? & _ & -> & _)].
  - pose proof (pow2_pos um Hum). nia.
  - pose proof (pow2_pos (um + b)). nia.
Qed.

Lemma idx_val i : 0 <= i -> idx (val i) = i.
Proof.
  intros Hi. pose proof H_pos as HP.
  destruct (val_shape i Hi) as [(L & E & B)|(L & b & s & Hb & Hs & Ei & E & B)];
    unfold Bins.idx, Bins.wid; rewrite B, E.
  - rewrite Z.add_0_r, Z.div_mul by (pose proof (pow2_pos um); lia). lia.
  - rewrite Z.div_mul by (pose proof (pow2_pos (um + b)); lia). lia.
Qed.

Lemma val_succ i : 0 <= i -> val (i + 1) = val i + wid (val i).
Proof.
  intros Hi. pose proof H_pos as HP.
  destruct (val_shape i Hi) as [(L & E & B)|(L & b & s & Hb & Hs & Ei & E & B)];
    unfold Bins.wid; rewrite B, E.
  - rewrite Z.add_0_r.
    destruct (val_shape (i + 1) ltac:(lia)) as [(L' & E' & B')|(L' & b & s & Hb & Hs & Ei & E' & B')];
      rewrite E'; clear B'; [ring|].
    assert (i + 1 = 2 * HC) by lia. assert (b = 1) by nia. subst b. assert (s = HC) by lia. subst s.
    rewrite (Z.pow_add_r 2 um 1) by lia. change (2 ^ 1) with 2.
    replace i with (2 * HC - 1) by lia. ring.
  - destruct (val_shape (i + 1) ltac:(lia)) as [(L' & E' & B')|(L' & b' & s' & Hb' & Hs' & Ei' & E' & B')]; [lia|].
    rewrite E'. clear B B'. destruct (Z.eq_dec (s + 1) (2 * HC)) as [E2|E2].
    + assert (b' = b + 1) by nia. assert (s' = HC) by nia. subst.
      rewrite Z.add_assoc, (Z.pow_add_r 2 (um + b) 1) by lia. change (2 ^ 1) with 2.
      replace s with (2 * HC - 1) by lia. ring.
    + assert (b' = b) by nia. assert (s' = s + 1) by nia. subst. ring.
Qed.

Lemma val_lt i j : 0 <= i -> i < j -> val i < val j.
Proof.
  intros Hi Hij.
  assert (A : forall d, 0 <= d -> val i < val (i + 1 + d)).
  { intros d Hd. pattern d. apply natlike_ind; auto.
    - rewrite Z.add_0_r, val_succ by lia. pose proof (wid_pos (val i)). lia.
    - intros x Hx IH. replace (i + 1 + Z.succ x) with ((i + 1 + x) + 1) by lia.
      rewrite val_succ by lia. pose proof (wid_pos (val (i + 1 + x))). lia. }
  specialize (A (j - i - 1) ltac:(lia)). replace (i + 1 + (j - i - 1)) with j in A by lia. exact A.
Qed.

Lemma val_le i j : 0 <= i -> i <= j -> val i <= val j.
Proof.
  intros. destruct (Z.eq_dec i j) as [->|]; [lia|]. pose proof (val_lt i j). lia.
Qed.

Lemma bkt_loweq v : 0 <= v -> bkt (loweq v) = bkt v.
Proof.
  intros Hv. destruct (sub_range v Hv) as [S1 S2]. pose proof (bkt_nonneg v).
  pose proof H_pos as HP. unfold Bins.loweq.
  destruct (Z.eq_dec (bkt v) 0) as [E|E].
  - pose proof (loweq_le v Hv) as L. unfold Bins.loweq in L.
    pose proof (bkt_mono (v / wid v * wid v) v ltac:(lia)).
    pose proof (bkt_nonneg (v / wid v * wid v)). lia.
  - unfold Bins.bkt at 1. unfold Bins.wid at 2. rewrite log2_sub_mul; lia.
Qed.

Lemma wid_loweq v : 0 <= v -> wid (loweq v) = wid v.
Proof. intros. unfold Bins.wid. rewrite bkt_loweq; auto. Qed.

Lemma val_idx_succ v : 0 <= v -> val (idx v + 1) = loweq v + wid v.
Proof.
  intros. rewrite val_succ by (apply idx_nonneg; auto).
  rewrite val_idx by auto. rewrite wid_loweq by auto. reflexivity.
Qed.

(** the bins partition the non-negative integers *)
Lemma idx_iff v i : 0 <= v -> 0 <= i -> (idx v = i <-> val i <= v < val (i + 1)).
Proof.
  intros Hv Hi. split.
  - intros <-. rewrite val_idx, val_idx_succ by auto.
    pose proof (loweq_le v Hv). pose proof (lt_loweq_wid v Hv). lia.
  - intros [A B].
    pose proof (loweq_le v Hv) as L1. pose proof (lt_loweq_wid v Hv) as L2.
    rewrite <- val_idx in L1 by auto. rewrite <- val_idx_succ in L2 by auto.
    pose proof (idx_nonneg v Hv).
    destruct (Z.lt_trichotomy (idx v) i) as [T|[T|T]]; [|auto|].
    + pose proof (val_le (idx v + 1) i). lia.
    + pose proof (val_le (i + 1) (idx v)). lia.
Qed.

Lemma idx_mono v w : 0 <= v <= w -> idx v <= idx w.
Proof.
  intros [Hv Hw]. destruct (Z_le_gt_dec (idx v) (idx w)); auto.
  pose proof (idx_nonneg w ltac:(lia)).
  pose proof (val_le (idx w + 1) (idx v) ltac:(lia) ltac:(lia)).
  pose proof (proj1 (idx_iff v (idx v) Hv (idx_nonneg v Hv)) eq_refl).
  pose proof (proj1 (idx_iff w (idx w) ltac:(lia) ltac:(lia)) eq_refl). lia.
Qed.

Lemma idx_lt_inv v w : 0 <= v -> 0 <= w -> idx v < idx w -> v < w.
Proof. intros. destruct (Z_lt_le_dec v w); auto. pose proof (idx_mono w v). lia. Qed.

Lemma loweq_idx v w : 0 <= v -> 0 <= w -> (loweq v = loweq w <-> idx v = idx w).
Proof.
  intros. split; intros E.
  - rewrite <- (idx_val (idx v)), <- (idx_val (idx w)) by (apply idx_nonneg; auto).
    rewrite !val_idx by auto. congruence.
  - rewrite <- !val_idx by auto. congruence.
Qed.

Lemma idx_0_iff v : 0 <= v -> (idx v = 0 <-> v < 2 ^ um).
Proof.
  intros Hv. rewrite idx_iff by lia. pose proof H_pos.
  assert (val 0 = 0) as ->. { unfold Bins.val. destruct (Z.ltb_spec 0 HC); lia. }
  rewrite val_succ by lia.
  assert (val 0 = 0) as ->. { unfold Bins.val. destruct (Z.ltb_spec 0 HC); lia. }
  unfold Bins.wid, Bins.bkt. change (Z.log2 0) with 0. rewrite Z.max_l by lia. rewrite Z.add_0_r. lia.
Qed.

Lemma val_0 : val 0 = 0.
Proof. unfold Bins.val. pose proof H_pos. destruct (Z.ltb_spec 0 HC); lia. Qed.

Lemma val_ge_idx i : 0 <= i -> i <= val i.
Proof.
  intros Hi. pattern i. apply natlike_ind; auto.
  - rewrite val_0. lia.
  - intros x Hx IH. rewrite <- Z.add_1_r, val_succ by lia. pose proof (wid_pos (val x)). lia.
Qed.

(** bins are aligned to multiples of [2^um] *)
Lemma wid_um v : exists k, 0 < k /\ wid v = k * 2 ^ um.
Proof.
  exists (2 ^ bkt v). pose proof (bkt_nonneg v). split; [apply pow2_pos; auto|].
  unfold Bins.wid. rewrite Z.pow_add_r by lia. ring.
Qed.

(** number of bins below the top of bucket [b] *)
Lemma idx_bound v : 0 <= v -> idx v < (bkt v + 2) * HC.
Proof.
  intros Hv. destruct (sub_range v Hv) as [S1 S2]. unfold Bins.idx. nia.
Qed.

Lemma idx_lt_iff_bkt v b : 0 <= v -> 0 <= b -> (idx v < (b + 2) * HC <-> bkt v <= b).
Proof.
  intros Hv Hb. destruct (sub_range v Hv) as [S1 S2]. pose proof H_pos. pose proof (bkt_nonneg v).
  split; intros.
  - destruct (Z_le_gt_dec (bkt v) b); auto. unfold Bins.idx in *. assert (S := S2 ltac:(lia)). nia.
  - pose proof (idx_bound v Hv). nia.
Qed.

Lemma val_last b : 0 <= b -> val ((b + 2) * HC) = 2 ^ (um + m + b + 1).
Proof.
  intros Hb. pose proof H_pos as HP.
  destruct (val_shape ((b + 2) * HC) ltac:(nia)) as [(L & _)|(L & b' & s & ? & ? & E & -> & _)]; [nia|].
  assert (b' = b + 1) by nia. assert (s = HC) by nia. subst.
  rewrite <- Z.pow_add_r by lia. f_equal. lia.
Qed.
End BINS.
