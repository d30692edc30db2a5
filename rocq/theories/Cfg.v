(** * Configurations: the location arithmetic of the model equals the pure bin arithmetic *)
From Verif Require Import Machine Log2Model HistModel Bins ListZ Log2Facts.
From Coq Require Import ZifyBool ZifyNat.

(** simplify record projections only *)
Ltac hsimp := cbn [h_ctr h_auto h_high h_low h_sigfig h_bucket_count h_sub_bucket_count h_half_count
  h_half_mag h_mask h_lzb h_um h_um_mask h_max h_min h_total h_counts set_auto set_high set_max set_min
  set_total set_counts].
Tactic Notation "hsimp" "in" hyp(H) := cbn [h_ctr h_auto h_high h_low h_sigfig h_bucket_count
  h_sub_bucket_count h_half_count
  h_half_mag h_mask h_lzb h_um h_um_mask h_max h_min h_total h_counts set_auto set_high set_max set_min
  set_total set_counts] in H.

Definition u64 (v : Z) : Prop := 0 <= v <= u64_max.

(** Everything that only depends on the configuration. *)
Record cfg_ok (h : hist) : Prop := {
  c_low : 1 <= h_low h;
  c_high : 2 * h_low h <= h_high h <= u64_max;
  c_sf : 0 <= h_sigfig h <= 5;
  c_um : h_um h = log2_floor_f64 (h_low h);
  c_m : h_half_mag h = Z.log2_up (2 * 10 ^ h_sigfig h) - 1;
  c_fit : h_um h + h_half_mag h <= 62;
  c_sbc : h_sub_bucket_count h = 2 ^ (h_half_mag h + 1);
  c_half : h_half_count h = 2 ^ h_half_mag h;
  c_mask : h_mask h = (2 ^ (h_half_mag h + 1) - 1) * 2 ^ h_um h;
  c_lzb : h_lzb h = 63 - h_um h - h_half_mag h;
  c_umm : h_um_mask h = 2 ^ h_um h - 1
}.

(** the size of the array matches the trackable range *)
Record size_ok (h : hist) : Prop := {
  s_bc : h_bucket_count h = bkt (h_um h) (h_half_mag h) (h_high h) + 1;
  s_len : zlen (h_counts h) = (bkt (h_um h) (h_half_mag h) (h_high h) + 2) * 2 ^ h_half_mag h
}.

Lemma in_range_ok lo hi x : lo <= x <= hi -> in_range lo hi x = Ret x.
Proof.
  intros. unfold in_range. destruct (Z.leb_spec lo x); destruct (Z.leb_spec x hi); cbn; auto; lia.
Qed.

Lemma in_range_inv lo hi x y : in_range lo hi x = Ret y -> y = x /\ lo <= x <= hi.
Proof.
  unfold in_range. destruct (Z.leb_spec lo x); destruct (Z.leb_spec x hi); cbn; intros E; inversion E; lia.
Qed.

Lemma assert_true b : b = true -> assert b = Ret tt.
Proof. intros ->; reflexivity. Qed.

Lemma pow2_le_64 k : 0 <= k <= 63 -> 1 <= 2 ^ k <= 2 ^ 63.
Proof.
  intros. split.
  - pose proof (pow2_pos k). lia.
  - apply Z.pow_le_mono_r; lia.
Qed.

Definition scm_table (sf : Z) : Z :=
  if sf =? 0 then 0 else if sf =? 1 then 4 else if sf =? 2 then 7
  else if sf =? 3 then 10 else if sf =? 4 then 14 else 17.

Lemma scm_table_ok sf : 0 <= sf <= 5 -> Z.log2_up (2 * 10 ^ sf) - 1 = scm_table sf.
Proof.
  intros. assert (sf = 0 \/ sf = 1 \/ sf = 2 \/ sf = 3 \/ sf = 4 \/ sf = 5) as [->|[->|[->|[->|[->| ->]]]]] by lia;
    vm_compute; reflexivity.
Qed.

Lemma scm_table_range sf : 0 <= scm_table sf <= 17.
Proof. unfold scm_table. repeat destruct (_ =? _); lia. Qed.

Section CFG.
Variable h : hist.
Hypothesis C : cfg_ok h.

Local Notation um := (h_um h).
Local Notation m := (h_half_mag h).

Lemma m_range : 0 <= m <= 17.
Proof.
  rewrite (c_m h C), scm_table_ok by apply (c_sf h C). apply scm_table_range.
Qed.

Lemma low_range : 1 <= h_low h <= u64_max / 2.
Proof.
  pose proof (c_low h C). pose proof (c_high h C). split; auto. apply Z.div_le_lower_bound; lia.
Qed.

Lemma um_range : 0 <= um <= 62.
Proof.
  pose proof m_range. pose proof (c_fit h C). rewrite (c_um h C) in *.
  pose proof (c_low h C). pose proof (c_high h C).
  pose proof (log2_floor_f64_bounds (h_low h) ltac:(lia)).
  pose proof (Z.log2_nonneg (h_low h)). lia.
Qed.

Lemma um_nonneg : 0 <= um. Proof. pose proof um_range; lia. Qed.
Lemma m_nonneg : 0 <= m. Proof. pose proof m_range; lia. Qed.

Lemma half_range : 1 <= 2 ^ m <= 131072.
Proof.
  pose proof m_range. pose proof (pow2_pos m ltac:(lia)).
  split; [lia|]. change 131072 with (2 ^ 17). apply Z.pow_le_mono_r; lia.
Qed.

Lemma bkt_bound v : u64 v -> 0 <= bkt um m v <= 63 - um - m.
Proof.
  intros V. split; [apply bkt_nonneg|]. unfold bkt. pose proof (c_fit h C).
  destruct (Z.eq_dec v 0) as [->|].
  - change (Z.log2 0) with 0. pose proof um_nonneg. pose proof m_nonneg. lia.
  - pose proof (log2_le_63 v). unfold u64 in *. lia.
Qed.

Lemma mask_pos : 0 < h_mask h.
Proof.
  rewrite (c_mask h C). pose proof (pow2_pos um um_nonneg).
  pose proof half_range. rewrite Z.pow_add_r by (pose proof m_nonneg; lia). nia.
Qed.

Lemma log2_mask : Z.log2 (h_mask h) = um + m.
Proof.
  rewrite (c_mask h C). pose proof m_nonneg. pose proof um_nonneg.
  pose proof half_range. rewrite Z.pow_add_r by lia.
  rewrite Z.log2_mul_pow2 by lia. rewrite (Z.log2_unique _ m); [lia|lia|].
  rewrite Z.pow_succ_r by lia. lia.
Qed.

Lemma bucket_for_ok v : u64 v -> bucket_for h v = Ret (bkt um m v).
Proof.
  intros V. unfold bucket_for, leading_zeros.
  pose proof mask_pos. pose proof (bkt_bound v V) as BB. pose proof m_range. pose proof um_range.
  assert (Z.lor v (h_mask h) <> 0).
  { intros E. apply Z.lor_eq_0_iff in E. lia. }
  destruct (Z.eqb_spec (Z.lor v (h_mask h)) 0); [lia|].
  rewrite Z.log2_lor by (unfold u64 in *; lia).
  rewrite log2_mask, (c_lzb h C). unfold u8_sub.
  replace (63 - um - m - (63 - Z.max (Z.log2 v) (um + m))) with (bkt um m v).
  - apply in_range_ok. unfold u8_max. lia.
  - unfold bkt. lia.
Qed.

Lemma sub_bucket_for_ok v : u64 v ->
  sub_bucket_for h v (bkt um m v) = Ret (v / wid um m v).
Proof.
  intros V. unfold sub_bucket_for. pose proof (bkt_bound v V). pose proof m_range. pose proof um_range.
  unfold u8_add. rewrite in_range_ok by (unfold u8_max; lia). cbn [bind].
  unfold u64_shr. destruct (Z.ltb_spec (bkt um m v + um) 64); [|lia]. cbn [bind].
  rewrite Z.shiftr_div_pow2 by lia. replace (bkt um m v + um) with (um + bkt um m v) by lia.
  fold (wid um m v). f_equal. unfold as_u32. apply Z.mod_small.
  pose proof (sub_range um m um_nonneg m_nonneg v ltac:(unfold u64 in V; lia)). pose proof half_range.
  change (2 ^ 32) with 4294967296. lia.
Qed.

Lemma wid_range v : u64 v -> 1 <= wid um m v <= 2 ^ 63.
Proof.
  intros V. unfold wid. pose proof (bkt_bound v V). apply pow2_le_64.
  pose proof m_range. pose proof um_range. lia.
Qed.

Lemma loweq_range v : u64 v -> u64 (loweq um m v).
Proof.
  unfold u64. intros V. pose proof (loweq_le um m um_nonneg v ltac:(lia)). lia.
Qed.

Lemma value_from_loc_ok b s : 0 <= b -> um + b <= 63 -> 0 <= s -> s * 2 ^ (um + b) <= u64_max ->
  value_from_loc h b s = Ret (s * 2 ^ (um + b)).
Proof.
  intros. unfold value_from_loc. pose proof um_range. unfold u8_add.
  rewrite in_range_ok by (unfold u8_max; lia). cbn [bind]. unfold u64_shl.
  destruct (Z.ltb_spec (b + um) 64); [|lia]. f_equal.
  rewrite Z.shiftl_mul_pow2 by lia. rewrite (Z.add_comm b um). apply Z.mod_small.
  pose proof (pow2_pos (um + b) ltac:(lia)). unfold u64_max in *. nia.
Qed.

Lemma lowest_equivalent_ok v : u64 v -> lowest_equivalent h v = Ret (loweq um m v).
Proof.
  intros V. unfold lowest_equivalent. rewrite bucket_for_ok by auto. cbn [bind].
  rewrite sub_bucket_for_ok by auto. cbn [bind].
  pose proof (bkt_bound v V). pose proof m_range.
  pose proof (sub_range um m um_nonneg m_nonneg v ltac:(unfold u64 in V; lia)).
  rewrite value_from_loc_ok; try lia; [reflexivity|].
  apply (loweq_range v V).
Qed.

Lemma equivalent_range_ok v : u64 v -> equivalent_range h v = Ret (wid um m v).
Proof.
  intros V. unfold equivalent_range. rewrite bucket_for_ok by auto. cbn [bind].
  pose proof (bkt_bound v V). pose proof m_range. pose proof um_range. pose proof (wid_range v V) as W.
  unfold u8_add. rewrite in_range_ok by (unfold u8_max; lia). cbn [bind]. unfold u64_shl.
  destruct (Z.ltb_spec (um + bkt um m v) 64); [|lia]. f_equal.
  rewrite Z.shiftl_mul_pow2 by lia. rewrite Z.mul_1_l. fold (wid um m v). apply Z.mod_small.
  change (2 ^ 63) with 9223372036854775808 in W. change (2 ^ 64) with 18446744073709551616. lia.
Qed.

(** spec of [next_non_equivalent] and [highest_equivalent] *)
Definition nexteq (v : Z) : Z := Z.min u64_max (loweq um m v + wid um m v).
Definition higheq (v : Z) : Z := if v =? u64_max then u64_max else nexteq v - 1.

Lemma next_non_equivalent_ok v : u64 v -> next_non_equivalent h v = Ret (nexteq v).
Proof.
  intros V. unfold next_non_equivalent. rewrite lowest_equivalent_ok, equivalent_range_ok by auto.
  reflexivity.
Qed.

Lemma nexteq_pos v : u64 v -> 1 <= nexteq v <= u64_max.
Proof.
  intros V. unfold nexteq. pose proof (loweq_range v V). pose proof (wid_range v V).
  unfold u64, u64_max in *. lia.
Qed.

Lemma highest_equivalent_ok v : u64 v -> highest_equivalent h v = Ret (higheq v).
Proof.
  intros V. unfold highest_equivalent, higheq. destruct (Z.eqb_spec v u64_max); auto.
  rewrite next_non_equivalent_ok by auto. cbn [bind].
  pose proof (nexteq_pos v V). unfold u64_sub. rewrite in_range_ok; auto. lia.
Qed.

Lemma higheq_range v : u64 v -> v <= higheq v <= u64_max.
Proof.
  intros V. unfold higheq. destruct (Z.eqb_spec v u64_max); [lia|].
  pose proof (lt_loweq_wid um m um_nonneg v ltac:(unfold u64 in V; lia)).
  unfold nexteq, u64 in *. lia.
Qed.

Lemma higheq_u64 v : u64 v -> u64 (higheq v).
Proof. intros V. pose proof (higheq_range v V). unfold u64 in *. lia. Qed.

(** the class of a value is an interval of bins; [higheq] stays inside the class *)
Lemma idx_higheq v : u64 v -> idx um m (higheq v) = idx um m v.
Proof.
  intros V. pose proof V as V'. unfold u64 in V'.
  pose proof (idx_nonneg um m um_nonneg m_nonneg v ltac:(lia)).
  pose proof (higheq_range v V) as HR.
  apply (idx_iff um m um_nonneg m_nonneg); try lia.
  rewrite (val_idx um m um_nonneg m_nonneg) by lia.
  rewrite (val_idx_succ um m um_nonneg m_nonneg) by lia.
  pose proof (loweq_le um m um_nonneg v ltac:(lia)).
  pose proof (lt_loweq_wid um m um_nonneg v ltac:(lia)).
  unfold higheq, nexteq in *. destruct (Z.eqb_spec v u64_max); lia.
Qed.

Lemma higheq_eq v : u64 v -> loweq um m v + wid um m v <= u64_max ->
  higheq v = loweq um m v + wid um m v - 1.
Proof.
  intros V L. unfold higheq, nexteq.
  pose proof (lt_loweq_wid um m um_nonneg v ltac:(unfold u64 in V; lia)).
  destruct (Z.eqb_spec v u64_max); lia.
Qed.

Lemma idx_bound_u64 v : u64 v -> 0 <= idx um m v < 9000000.
Proof.
  intros V. pose proof V as V'. unfold u64 in V'. pose proof (idx_nonneg um m um_nonneg m_nonneg v ltac:(lia)).
  pose proof (idx_bound um m um_nonneg m_nonneg v ltac:(lia)) as I.
  pose proof (bkt_bound v V) as BB. pose proof half_range. pose proof m_range. pose proof um_range.
  split; [lia|]. eapply Z.lt_le_trans; [exact I|].
  assert ((bkt um m v + 2) * 2 ^ m <= 65 * 131072); [|lia].
  apply Z.mul_le_mono_nonneg; lia.
Qed.

Lemma index_for_ok v : u64 v -> index_for h v = Ret (Some (idx um m v)).
Proof.
  intros V. unfold index_for. rewrite bucket_for_ok by auto. cbn [bind].
  rewrite sub_bucket_for_ok by auto. cbn [bind].
  pose proof (sub_range um m um_nonneg m_nonneg v ltac:(unfold u64 in V; lia)) as [S1 S2].
  pose proof (bkt_bound v V) as BB. pose proof m_range. pose proof um_range. pose proof half_range as HR.
  rewrite (c_sbc h C), (c_half h C).
  rewrite assert_true. 2: { rewrite Z.pow_add_r by lia. lia. }
  cbn [bind]. rewrite assert_true. 2: { lia. }
  cbn [bind]. unfold i32_add at 1. rewrite in_range_ok by (unfold i32_min, i32_max; lia). cbn [bind].
  unfold i32_shl. destruct (Z.ltb_spec m 32); [|lia]. cbn [bind].
  rewrite Z.shiftl_mul_pow2 by lia.
  assert (W : forall x, 0 <= x < 2 ^ 31 -> wrap_i32 x = x).
  { intros x Hx. unfold wrap_i32. rewrite Z.mod_small; [lia|].
    change (2 ^ 32) with 4294967296. change (2 ^ 31) with 2147483648 in *. lia. }
  pose proof (idx_bound_u64 v V) as IB. unfold idx in IB.
  rewrite W. 2: { change (2 ^ 31) with 2147483648. nia. }
  unfold as_i32. rewrite !W. 2,3: change (2 ^ 31) with 2147483648; lia.
  unfold i32_sub. rewrite in_range_ok by (unfold i32_min, i32_max; lia). cbn [bind].
  unfold i32_add.
  replace ((bkt um m v + 1) * 2 ^ m + (v / wid um m v - 2 ^ m)) with (idx um m v) by (unfold idx; ring).
  pose proof (idx_bound_u64 v V) as IB2.
  rewrite in_range_ok by (unfold i32_min, i32_max; lia). cbn [bind].
  rewrite assert_true by lia. cbn [bind]. destruct (Z.leb_spec 0 (idx um m v)); [reflexivity|lia].
Qed.

Lemma top_idx : idx um m u64_max = (65 - um - m) * 2 ^ m - 1.
Proof.
  pose proof um_range. pose proof m_range. pose proof (c_fit h C).
  pose proof half_range.
  apply (idx_iff um m um_nonneg m_nonneg); [unfold u64_max; lia|nia|].
  replace ((65 - um - m) * 2 ^ m - 1 + 1) with ((63 - um - m + 2) * 2 ^ m) by ring.
  assert (V : val um m ((63 - um - m + 2) * 2 ^ m) = 2 ^ 64).
  { rewrite (val_last um m um_nonneg m_nonneg) by lia. f_equal. lia. }
  split; [|rewrite V; unfold u64_max; lia].
  pose proof (val_lt um m um_nonneg m_nonneg ((65 - um - m) * 2 ^ m - 1) ((63 - um - m + 2) * 2 ^ m) ltac:(nia) ltac:(lia)).
  rewrite V in *. unfold u64_max. change (2 ^ 64) with 18446744073709551616 in *. lia.
Qed.

Lemma val_u64 i : 0 <= i <= idx um m u64_max -> u64 (val um m i).
Proof.
  intros [H1 H2]. unfold u64. pose proof (val_nonneg um m um_nonneg m_nonneg i H1).
  pose proof (val_le um m um_nonneg m_nonneg i (idx um m u64_max) H1 H2) as V.
  rewrite (val_idx um m um_nonneg m_nonneg) in V by (unfold u64_max; lia).
  pose proof (loweq_le um m um_nonneg u64_max ltac:(unfold u64_max; lia)). lia.
Qed.

Lemma value_for_ok i : 0 <= i <= idx um m u64_max -> value_for h i = Ret (val um m i).
Proof.
  intros I. pose proof (val_u64 i I) as VU. unfold value_for.
  pose proof m_range. pose proof um_range. pose proof half_range.
  pose proof (idx_bound_u64 u64_max ltac:(unfold u64, u64_max; lia)) as IB.
  unfold usize_shr. destruct (Z.ltb_spec m 64); [|lia]. cbn [bind].
  destruct (Z.leb_spec i u32_max); [|unfold u32_max in *; lia]. cbn [bind].
  rewrite (c_half h C). unfold u32_sub at 1. rewrite in_range_ok by (unfold u32_max; lia). cbn [bind].
  replace (2 ^ m - 1) with (Z.ones m) by (rewrite Z.ones_equiv; lia).
  rewrite Z.land_ones by lia. rewrite Z.shiftr_div_pow2 by lia.
  pose proof (Z.mod_pos_bound i (2 ^ m) ltac:(lia)) as MB.
  unfold u32_add. rewrite in_range_ok by (unfold u32_max; lia). cbn [bind].
  destruct (val_shape um m um_nonneg m_nonneg i ltac:(lia)) as [(L & E & B)|(L & b & s & Hb & Hs & Ei & E & B)].
  - destruct (Z.ltb_spec (i / 2 ^ m - 1) 0).
    + assert (i < 2 ^ m). { destruct (Z_lt_le_dec i (2 ^ m)); auto.
        assert (1 <= i / 2 ^ m) by (apply Z.div_le_lower_bound; lia). lia. }
      unfold u32_sub. rewrite in_range_ok by (unfold u32_max; lia). cbn [bind].
      rewrite Z.mod_small by lia. replace (i + 2 ^ m - 2 ^ m) with i by lia.
      rewrite value_from_loc_ok; try lia.
      * rewrite Z.add_0_r, E. reflexivity.
      * rewrite Z.add_0_r, <- E. apply VU.
    + assert (1 <= i / 2 ^ m) by lia.
      assert (i / 2 ^ m < 2) by (apply Z.div_lt_upper_bound; lia).
      assert (D : i / 2 ^ m = 1) by lia. pose proof (Z.div_mod i (2 ^ m) ltac:(lia)) as DM. rewrite D in *.
      change (as_u8 (1 - 1)) with 0. replace (i mod 2 ^ m + 2 ^ m) with i by lia.
      rewrite value_from_loc_ok; try lia.
      * rewrite Z.add_0_r, E. reflexivity.
      * rewrite Z.add_0_r, <- E. apply VU.
  - assert (D : i / 2 ^ m = b + 1). { symmetry. apply Z.div_unique with (s - 2 ^ m); lia. }
    pose proof (Z.div_mod i (2 ^ m) ltac:(lia)) as DM. rewrite D in *.
    destruct (Z.ltb_spec (b + 1 - 1) 0); [lia|].
    pose proof (bkt_bound (val um m i) VU) as BB. rewrite B in BB.
    unfold as_u8. rewrite Z.mod_small by (change (2 ^ 8) with 256; lia).
    replace (i mod 2 ^ m + 2 ^ m) with s by lia. replace (b + 1 - 1) with b by lia.
    rewrite value_from_loc_ok; try lia.
    + rewrite E. reflexivity.
    + rewrite <- E. apply VU.
Qed.

Lemma median_equivalent_ok v : u64 v -> median_equivalent h v = Ret (loweq um m v + wid um m v / 2).
Proof.
  intros V. unfold median_equivalent. rewrite lowest_equivalent_ok, equivalent_range_ok by auto.
  cbn [bind]. rewrite Z.shiftr_div_pow2 by lia. change (2 ^ 1) with 2.
  unfold u64_add. rewrite in_range_ok; auto.
  pose proof (loweq_range v V) as LR. pose proof (wid_range v V) as W. unfold u64 in *.
  (* the class ends at or below 2^64 *)
  pose proof (idx_nonneg um m um_nonneg m_nonneg v ltac:(lia)).
  pose proof (idx_mono um m um_nonneg m_nonneg v u64_max ltac:(lia)) as IM.
  rewrite top_idx in IM.
  pose proof (val_le um m um_nonneg m_nonneg (idx um m v + 1) ((63 - um - m + 2) * 2 ^ m) ltac:(lia) ltac:(lia)) as VL.
  pose proof (c_fit h C). pose proof um_range. pose proof m_range.
  rewrite (val_idx_succ um m um_nonneg m_nonneg), (val_last um m um_nonneg m_nonneg) in VL by lia.
  replace (um + m + (63 - um - m) + 1) with 64 in VL by lia.
  unfold u64_max in *. change (2 ^ 64) with 18446744073709551616 in VL. lia.
Qed.

Lemma equivalent_ok v w : u64 v -> u64 w ->
  equivalent h v w = Ret (idx um m v =? idx um m w).
Proof.
  intros V W. unfold equivalent. rewrite !lowest_equivalent_ok by auto. cbn [bind]. f_equal.
  pose proof (loweq_idx um m um_nonneg m_nonneg v w) as L. unfold u64 in *.
  destruct (Z.eqb_spec (loweq um m v) (loweq um m w)); destruct (Z.eqb_spec (idx um m v) (idx um m w)); auto; lia.
Qed.

(** ** Sizing *)
Lemma btc_loop_ok v : u64 v -> forall fuel k,
  um + m + 1 <= k <= 63 -> (Z.to_nat (64 - k) < fuel)%nat ->
  (k = um + m + 1 \/ 2 ^ (k - 1) <= v) ->
  btc_loop fuel v (2 ^ k) (k - um - m) = Ret (bkt um m v + 1).
Proof.
  intros V. induction fuel as [|f IH]; intros k Hk Hf Hlow; [lia|]. cbn [btc_loop].
  pose proof um_range. pose proof m_range. unfold u64 in V.
  destruct (Z.leb_spec (2 ^ k) v) as [L|L].
  - change (u64_max / 2) with (2 ^ 63 - 1).
    assert (LV : k <= Z.log2 v) by (apply Z.log2_le_pow2; lia).
    destruct (Z.ltb_spec (2 ^ 63 - 1) (2 ^ k)) as [S|S].
    + assert (k = 63). { destruct (Z.eq_dec k 63); auto. assert (2 ^ k <= 2 ^ 62) by (apply Z.pow_le_mono_r; lia).
        change (2 ^ 63) with 9223372036854775808 in *. change (2 ^ 62) with 4611686018427387904 in *. lia. }
      subst k. unfold u8_add. rewrite in_range_ok by (unfold u8_max; lia). f_equal. unfold bkt.
      assert (Z.log2 v < 64) by (apply Z.log2_lt_pow2; unfold u64_max in *; lia). lia.
    + assert (k < 63). { destruct (Z.eq_dec k 63); [subst; lia|lia]. }
      unfold u64_shl. cbn [Z.ltb Z.compare Pos.compare Pos.compare_cont]. rewrite Z.shiftl_mul_pow2 by lia.
      change (2 ^ 1) with 2.
      assert (2 ^ k * 2 = 2 ^ (k + 1)) as -> by (rewrite Z.pow_add_r by lia; reflexivity).
      rewrite Z.mod_small.
      2: { split; [apply Z.pow_nonneg; lia|]. apply Z.pow_lt_mono_r; lia. }
      cbn [bind]. unfold u8_add. rewrite in_range_ok by (unfold u8_max; lia). cbn [bind].
      replace (k - um - m + 1) with (k + 1 - um - m) by lia. apply IH; try lia.
      right. replace (k + 1 - 1) with k by lia. auto.
  - f_equal. unfold bkt. destruct (Z.eq_dec v 0) as [->|].
    + change (Z.log2 0) with 0. destruct Hlow; [lia|].
      assert (0 < 2 ^ (k - 1)) by (apply pow2_pos; lia). lia.
    + assert (Z.log2 v < k) by (apply Z.log2_lt_pow2; lia).
      destruct Hlow as [E|E]; [lia|]. apply Z.log2_le_pow2 in E; [|lia]. lia.
Qed.

Lemma buckets_to_cover_ok v : u64 v -> buckets_to_cover h v = Ret (bkt um m v + 1).
Proof.
  intros V. unfold buckets_to_cover. pose proof um_range. pose proof m_range. pose proof (c_fit h C).
  unfold u64_shl. destruct (Z.ltb_spec um 64); [|lia].
  rewrite (c_sbc h C), Z.shiftl_mul_pow2 by lia. rewrite <- Z.pow_add_r by lia.
  rewrite Z.mod_small. 2: { split; [apply Z.pow_nonneg; lia|]. apply Z.pow_lt_mono_r; lia. }
  cbn [bind]. replace (m + 1 + um) with (um + m + 1) by lia.
  replace 1 with (um + m + 1 - um - m) at 2 by lia.
  apply btc_loop_ok; auto; lia.
Qed.

Lemma num_bins_ok b : 0 <= b <= 64 -> num_bins h (b + 1) = Ret ((b + 2) * 2 ^ m).
Proof.
  intros. unfold num_bins. pose proof half_range. rewrite (c_half h C).
  unfold u32_add. rewrite in_range_ok by (unfold u32_max; lia). cbn [bind].
  unfold u32_mul. replace (b + 1 + 1) with (b + 2) by lia. apply in_range_ok.
  unfold u32_max. split; [nia|]. assert ((b + 2) * 2 ^ m <= 66 * 131072); [|lia].
  apply Z.mul_le_mono_nonneg; lia.
Qed.

Definition resized (v : Z) : hist :=
  mk_hist (h_ctr h) (h_auto h) v (h_low h) (h_sigfig h) (bkt um m v + 1)
         (h_sub_bucket_count h) (h_half_count h) (h_half_mag h) (h_mask h) (h_lzb h) (h_um h)
         (h_um_mask h) (h_max h) (h_min h) (h_total h)
         (vresize (h_counts h) ((bkt um m v + 2) * 2 ^ m) 0).

Lemma resize_ok v : u64 v -> 2 * h_low h <= v -> resize h v = Ret (resized v).
Proof.
  intros V L. unfold resize. pose proof (c_low h C). pose proof V as V'. unfold u64 in V'.
  unfold u64_mul. rewrite in_range_ok by lia. cbn [bind]. rewrite assert_true by lia. cbn [bind].
  rewrite buckets_to_cover_ok by auto. cbn [bind].
  pose proof (bkt_bound v V). pose proof um_range. pose proof m_range.
  rewrite num_bins_ok by lia. reflexivity.
Qed.

Lemma resized_cfg v : u64 v -> 2 * h_low h <= v -> cfg_ok (resized v).
Proof. intros V L. destruct C. constructor; unfold resized; hsimp; auto. split; [exact L|apply V]. Qed.

Lemma resized_size v : size_ok (resized v).
Proof.
  constructor; unfold resized; hsimp; auto. apply zlen_vresize.
  pose proof (bkt_nonneg um m v). pose proof half_range. nia.
Qed.

(** ** Arrays *)
Hypothesis S : size_ok h.

Lemma high_u64 : u64 (h_high h).
Proof. pose proof (c_high h C). pose proof (c_low h C). unfold u64. lia. Qed.

Lemma idx_in_iff v : u64 v -> (idx um m v < zlen (h_counts h) <-> bkt um m v <= bkt um m (h_high h)).
Proof.
  intros V. rewrite (s_len h S). apply idx_lt_iff_bkt; [apply um_nonneg|apply m_nonneg|unfold u64 in V; lia|].
  apply bkt_nonneg.
Qed.

Lemma len_pos : 1 <= zlen (h_counts h).
Proof. rewrite (s_len h S). pose proof (bkt_nonneg um m (h_high h)). pose proof half_range. nia. Qed.

Lemma high_in : idx um m (h_high h) < zlen (h_counts h).
Proof. apply idx_in_iff; [apply high_u64|lia]. Qed.

Lemma len_le_top : zlen (h_counts h) <= idx um m u64_max + 1.
Proof.
  rewrite (s_len h S), top_idx. pose proof (bkt_bound (h_high h) high_u64). pose proof half_range. nia.
Qed.

Lemma last_index_ok : last_index h = Ret (zlen (h_counts h) - 1).
Proof.
  unfold last_index, distinct_values. pose proof len_pos.
  destruct (Z.leb_spec 1 (zlen (h_counts h))); [reflexivity|lia].
Qed.

(** the end of the array in value terms: everything below [2^E] is representable *)
Definition top_exp : Z := um + m + bkt um m (h_high h) + 1.

Lemma top_exp_range : um + m + 1 <= top_exp <= 64.
Proof. unfold top_exp. pose proof (bkt_bound (h_high h) high_u64). lia. Qed.

Lemma idx_in_iff_top v : u64 v -> (idx um m v < zlen (h_counts h) <-> v < 2 ^ top_exp).
Proof.
  intros V. rewrite idx_in_iff by auto. unfold top_exp. unfold bkt at 1.
  pose proof (bkt_nonneg um m (h_high h)). pose proof um_nonneg. pose proof m_nonneg. unfold u64 in V.
  destruct (Z.eq_dec v 0) as [->|].
  - change (Z.log2 0) with 0. assert (0 < 2 ^ (um + m + bkt um m (h_high h) + 1)) by (apply pow2_pos; lia). lia.
  - rewrite Z.log2_lt_pow2 by lia. lia.
Qed.

Lemma value_for_last : value_for h (zlen (h_counts h) - 1) = Ret (val um m (zlen (h_counts h) - 1)).
Proof. pose proof len_pos. pose proof len_le_top. apply value_for_ok. lia. Qed.

Lemma val_len : val um m (zlen (h_counts h)) = 2 ^ top_exp.
Proof.
  rewrite (s_len h S). rewrite val_last; [reflexivity|apply um_nonneg|apply m_nonneg|apply bkt_nonneg].
Qed.

Lemma last_val_facts :
  let l := val um m (zlen (h_counts h) - 1) in
  u64 l /\ loweq um m l = l /\ l + wid um m l = 2 ^ top_exp /\ idx um m l = zlen (h_counts h) - 1.
Proof.
  pose proof len_pos. pose proof len_le_top. cbn zeta.
  set (l := val um m (zlen (h_counts h) - 1)).
  assert (IL : idx um m l = zlen (h_counts h) - 1) by (apply idx_val; [apply um_nonneg|apply m_nonneg|lia]).
  assert (VL : u64 l) by (apply val_u64; lia).
  repeat split; auto; try apply VL.
  - rewrite <- val_idx; [|apply um_nonneg|apply m_nonneg|apply VL]. rewrite IL. reflexivity.
  - rewrite <- val_len. replace (zlen (h_counts h)) with (zlen (h_counts h) - 1 + 1) at 1 by lia.
    rewrite val_succ; [reflexivity|apply um_nonneg|apply m_nonneg|lia].
Qed.

(** the largest value [add] and [subtract] consider representable *)
Definition top_val : Z := Z.min u64_max (2 ^ top_exp) - 1.

Lemma top_ok :
  exists l, value_for h (zlen (h_counts h) - 1) = Ret l /\ highest_equivalent h l = Ret top_val.
Proof.
  destruct last_val_facts as (V & L & W & I). set (l := val um m (zlen (h_counts h) - 1)) in *.
  exists l. split; [apply value_for_last|]. rewrite highest_equivalent_ok by auto. f_equal.
  unfold higheq, nexteq, top_val. rewrite L, W.
  destruct (Z.eqb_spec l u64_max) as [E|]; [|lia].
  exfalso. (* the last bin starts at a multiple of 2 *)
  pose proof (c_fit h C). pose proof top_exp_range as T. pose proof (wid_range l V) as WR.
  assert (2 ^ top_exp <= 2 ^ 64) by (apply Z.pow_le_mono_r; pose proof um_nonneg; pose proof m_nonneg; lia).
  assert (TE : top_exp = 64).
  { destruct (Z.eq_dec top_exp 64); auto. assert (2 ^ top_exp <= 2 ^ 63) by (apply Z.pow_le_mono_r; lia).
    unfold u64_max in E. change (2 ^ 63) with 9223372036854775808 in *. lia. }
  assert (wid um m l = 1). { rewrite TE in W. unfold u64_max in E. change (2 ^ 64) with 18446744073709551616 in W. lia. }
  unfold wid in *. assert (bkt um m l = 63 - um - m).
  { pose proof (bkt_bound l V). unfold bkt. rewrite E. change (Z.log2 u64_max) with 63.
    pose proof um_nonneg; pose proof m_nonneg. lia. }
  rewrite H2 in H1. replace (um + (63 - um - m)) with (63 - m) in H1 by lia.
  pose proof m_range. assert (2 ^ 46 <= 2 ^ (63 - m)) by (apply Z.pow_le_mono_r; lia).
  change (2 ^ 46) with 70368744177664 in *. lia.
Qed.

Lemma top_val_ge_high : h_high h <> u64_max -> h_high h <= top_val.
Proof.
  intros N. unfold top_val. pose proof (proj1 (idx_in_iff_top _ high_u64) high_in).
  pose proof high_u64. unfold u64 in *. lia.
Qed.

Lemma top_val_in : u64 top_val /\ idx um m top_val = zlen (h_counts h) - 1.
Proof.
  destruct top_ok as (l & L & HL). rewrite value_for_last in L. inversion L; subst l.
  destruct last_val_facts as (V & _ & _ & I). rewrite highest_equivalent_ok in HL by auto.
  inversion HL as [E]. split; [apply higheq_u64; auto|]. rewrite idx_higheq; auto.
Qed.

Lemma mut_at_ok v : u64 v -> mut_at h v =
  Ret (if idx um m v <? zlen (h_counts h) then Some (idx um m v) else None).
Proof. intros V. unfold mut_at. rewrite index_for_ok by auto. reflexivity. Qed.

Lemma index_for_or_last_ok v : u64 v ->
  index_for_or_last h v = Ret (Z.min (idx um m v) (zlen (h_counts h) - 1)).
Proof.
  intros V. unfold index_for_or_last. rewrite index_for_ok, last_index_ok by auto. reflexivity.
Qed.
End CFG.
