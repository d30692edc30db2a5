(** * The representation invariant, and the pure form of construction and recording *)
From Verif Require Import Machine Log2Model HistModel Bins ListZ Log2Facts Cfg.
From Coq Require Import ZifyBool ZifyNat.

(** ** Unit-magnitude masks *)
Lemma ldiff_mask v k : 0 <= k -> Z.ldiff v (2 ^ k - 1) = v / 2 ^ k * 2 ^ k.
Proof.
  intros. replace (2 ^ k - 1) with (Z.ones k) by (rewrite Z.ones_equiv; lia).
  rewrite Z.ldiff_ones_r by auto. rewrite Z.shiftl_mul_pow2, Z.shiftr_div_pow2 by auto. reflexivity.
Qed.

Lemma lor_mask v k : 0 <= k -> Z.lor v (2 ^ k - 1) = v / 2 ^ k * 2 ^ k + (2 ^ k - 1).
Proof.
  intros Hk. rewrite <- ldiff_mask by auto. set (b := 2 ^ k - 1).
  assert (D : Z.land (Z.ldiff v b) b = 0).
  { apply Z.bits_inj'. intros n Hn. rewrite Z.land_spec, Z.ldiff_spec, Z.bits_0.
    destruct (Z.testbit v n), (Z.testbit b n); reflexivity. }
  rewrite Z.add_nocarry_lxor by auto. rewrite Z.lxor_lor by auto.
  apply Z.bits_inj'. intros n Hn. rewrite !Z.lor_spec, Z.ldiff_spec.
  destruct (Z.testbit v n), (Z.testbit b n); reflexivity.
Qed.

Record wf (h : hist) : Prop := {
  w_cfg : cfg_ok h;
  w_size : size_ok h;
  w_cnt : Forall (fun c => 0 <= c <= cmax (h_ctr h)) (h_counts h);
  w_max : u64 (h_max h);
  w_max_in : idx (h_um h) (h_half_mag h) (h_max h) < zlen (h_counts h);
  w_max_top : forall i, 0 <= i -> zn (h_counts h) i <> 0 -> i <= idx (h_um h) (h_half_mag h) (h_max h);
  w_max_shape : h_max h = 0 \/ h_max h mod 2 ^ h_um h = 2 ^ h_um h - 1;
  w_min : u64 (h_min h);
  w_min_bot : forall i, 0 < i -> zn (h_counts h) i <> 0 -> idx (h_um h) (h_half_mag h) (h_min h) <= i;
  w_min_shape : h_min h = u64_max \/ (h_min h mod 2 ^ h_um h = 0 /\ 2 ^ h_um h <= h_min h);
  w_total : Z.min (zsum (h_counts h)) u64_max <= h_total h <= u64_max
}.

Lemma cmax_le c : 255 <= cmax c <= u64_max.
Proof. destruct c; cbn; unfold u8_max, u16_max, u32_max, u64_max; lia. Qed.

Lemma wf_nonneg h : wf h -> Forall (fun c => 0 <= c) (h_counts h).
Proof. intros W. eapply Forall_impl; [|apply (w_cnt h W)]. cbn; lia. Qed.

Lemma wf_total_nonneg h : wf h -> 0 <= h_total h <= u64_max.
Proof.
  intros W. pose proof (w_total h W). pose proof (zsum_nonneg _ (wf_nonneg h W)).
  unfold u64_max in *. lia.
Qed.

Section VALMULT.
Variables um m : Z.
Hypothesis Hum : 0 <= um.
Hypothesis Hm : 0 <= m.

Lemma val_mult i : 0 <= i -> exists k, val um m i = k * 2 ^ um.
Proof.
  intros Hi. destruct (val_shape um m Hum Hm i Hi) as [(_ & -> & _)|(_ & b & s & Hb & _ & _ & -> & _)].
  - eauto.
  - exists (s * 2 ^ b). rewrite Z.pow_add_r by lia. ring.
Qed.

Lemma floor_um_in_bin v : 0 <= v ->
  loweq um m v <= v / 2 ^ um * 2 ^ um /\ v / 2 ^ um * 2 ^ um + 2 ^ um <= loweq um m v + wid um m v.
Proof.
  intros Hv. pose proof (pow2_pos um Hum) as P.
  rewrite <- val_idx_succ by auto. rewrite <- val_idx by auto.
  pose proof (idx_nonneg um m Hum Hm v Hv) as IN.
  destruct (proj1 (idx_iff um m Hum Hm v (idx um m v) Hv IN) eq_refl) as [A B].
  destruct (val_mult (idx um m v) IN) as [k1 E1].
  destruct (val_mult (idx um m v + 1) ltac:(lia)) as [k2 E2].
  rewrite E1, E2 in *.
  pose proof (Z.div_mod v (2 ^ um) ltac:(lia)). pose proof (Z.mod_pos_bound v (2 ^ um) P).
  set (q := v / 2 ^ um) in *. clearbody q. split.
  - apply Z.mul_le_mono_nonneg_r; [lia|]. assert (k1 * 2 ^ um < (q + 1) * 2 ^ um) by lia. nia.
  - assert (q < k2) by nia. nia.
Qed.

Lemma idx_floor_um v : 0 <= v -> idx um m (v / 2 ^ um * 2 ^ um) = idx um m v.
Proof.
  intros Hv. pose proof (idx_nonneg um m Hum Hm v Hv) as IN.
  destruct (floor_um_in_bin v Hv) as [A B]. pose proof (pow2_pos um Hum) as P.
  pose proof (loweq_le um m Hum v Hv).
  apply idx_iff; auto; try lia. rewrite val_idx, val_idx_succ by auto. lia.
Qed.

Lemma idx_ceil_um v : 0 <= v -> idx um m (v / 2 ^ um * 2 ^ um + (2 ^ um - 1)) = idx um m v.
Proof.
  intros Hv. pose proof (idx_nonneg um m Hum Hm v Hv) as IN.
  destruct (floor_um_in_bin v Hv) as [A B]. pose proof (pow2_pos um Hum) as P.
  pose proof (loweq_le um m Hum v Hv).
  apply idx_iff; auto; try lia. rewrite val_idx, val_idx_succ by auto. lia.
Qed.
End VALMULT.

Lemma ceil_um_u64 v k : 0 <= k <= 62 -> u64 v -> u64 (v / 2 ^ k * 2 ^ k + (2 ^ k - 1)).
Proof.
  intros Hk [V1 V2]. pose proof (pow2_pos k ltac:(lia)) as P.
  pose proof (Z.div_mod v (2 ^ k) ltac:(lia)). pose proof (Z.mod_pos_bound v (2 ^ k) P).
  pose proof (Z.div_pos v (2 ^ k) V1 P).
  assert (E : u64_max + 1 = 2 ^ (64 - k) * 2 ^ k).
  { rewrite <- Z.pow_add_r by lia. replace (64 - k + k) with 64 by lia. reflexivity. }
  unfold u64. split; [nia|].
  assert (v / 2 ^ k < 2 ^ (64 - k)). { apply Z.div_lt_upper_bound; lia. }
  nia.
Qed.

(** ** Construction *)
Definition fresh (T : counter) (lo hi sf : Z) : hist :=
  let um := log2_floor_f64 lo in
  let m := Z.log2_up (2 * 10 ^ sf) - 1 in
  mk_hist T false hi lo sf (bkt um m hi + 1) (2 ^ (m + 1)) (2 ^ m) m
    ((2 ^ (m + 1) - 1) * 2 ^ um) (63 - um - m) um (2 ^ um - 1) ORIGINAL_MAX ORIGINAL_MIN 0
    (vresize [] ((bkt um m hi + 2) * 2 ^ m) 0).

(** which parameters are accepted, and the error otherwise *)
Definition creation_check (lo hi sf : Z) : option creation_error :=
  if lo <? 1 then Some LowIsZero
  else if u64_max / 2 <? lo then Some LowExceedsMax
  else if hi <? 2 * lo then Some HighLessThanTwiceLow
  else if 5 <? sf then Some SigFigExceedsMax
  else if 63 <? log2_floor_f64 lo + Z.log2_up (2 * 10 ^ sf) then Some CannotRepresentSigFigBeyondLow
  else None.

Lemma new_with_bounds_ok T lo hi sf : u64 lo -> u64 hi -> 0 <= sf <= u8_max ->
  new_with_bounds T lo hi sf =
  Ret (match creation_check lo hi sf with Some e => RErr e | None => ROk (fresh T lo hi sf) end).
Proof.
  intros L Hh Hs. unfold new_with_bounds, creation_check.
  destruct (Z.ltb_spec lo 1); auto.
  destruct (Z.ltb_spec (u64_max / 2) lo) as [|LM]; auto.
  assert (LM' : lo <= 9223372036854775807) by exact LM. unfold u64 in *.
  unfold u64_mul. rewrite in_range_ok by (unfold u64_max in *; lia). cbn [bind].
  destruct (Z.ltb_spec hi (2 * lo)); auto.
  destruct (Z.ltb_spec 5 sf); auto.
  pose proof (scm_table_ok sf ltac:(lia)) as ST. pose proof (scm_table_range sf) as SR.
  assert (P10 : 1 <= 10 ^ sf <= 100000).
  { split; [pose proof (Z.pow_pos_nonneg 10 sf); lia|]. change 100000 with (10 ^ 5). apply Z.pow_le_mono_r; lia. }
  unfold u32_mul. rewrite in_range_ok by (unfold u32_max; lia). cbn [bind].
  pose proof (log2_floor_f64_bounds lo ltac:(unfold u64_max in *; lia)) as UB.
  pose proof (Z.log2_nonneg lo).
  assert (Z.log2 lo <= 62). { assert (Z.log2 lo < 63); [|lia]. apply Z.log2_lt_pow2; [lia|]. change (2 ^ 63) with 9223372036854775808. lia. }
  set (um := log2_floor_f64 lo) in *. set (m := Z.log2_up (2 * 10 ^ sf) - 1) in *.
  replace (Z.log2_up (2 * 10 ^ sf)) with (m + 1) in * by (unfold m; lia).
  pose proof (pow2_le_64 um ltac:(lia)) as PU.
  unfold u64_shl at 1. destruct (Z.ltb_spec um 64); [|lia].
  rewrite Z.shiftl_mul_pow2, Z.mul_1_l by lia.
  rewrite Z.mod_small by (change (2 ^ 64) with 18446744073709551616; change (2 ^ 63) with 9223372036854775808 in *; lia).
  cbn [bind]. unfold u64_sub at 1. rewrite in_range_ok by (unfold u64_max; change (2 ^ 63) with 9223372036854775808 in *; lia).
  cbn [bind]. unfold u8_sub at 1. rewrite in_range_ok by (unfold u8_max; lia). cbn [bind].
  unfold u32_shl. destruct (Z.ltb_spec (m + 1) 32); [|lia].
  rewrite Z.shiftl_mul_pow2, Z.mul_1_l by lia.
  assert (PM : 2 <= 2 ^ (m + 1) <= 262144).
  { split. - change 2 with (2 ^ 1) at 1. apply Z.pow_le_mono_r; lia.
    - change 262144 with (2 ^ 18). apply Z.pow_le_mono_r; lia. }
  rewrite Z.mod_small by (change (2 ^ 32) with 4294967296; lia).
  cbn [bind]. unfold u8_add. rewrite in_range_ok by (unfold u8_max; lia). cbn [bind].
  destruct (Z.ltb_spec 63 (um + (m + 1))) as [|FIT]; auto.
  unfold u64_sub. rewrite in_range_ok by (unfold u64_max; lia). cbn [bind].
  assert (PMU : 2 ^ (m + 1) * 2 ^ um <= 2 ^ 63).
  { rewrite <- Z.pow_add_r by lia. apply Z.pow_le_mono_r; lia. }
  unfold u64_shl. rewrite Z.shiftl_mul_pow2 by lia.
  rewrite Z.mod_small by (change (2 ^ 64) with 18446744073709551616; change (2 ^ 63) with 9223372036854775808 in *; nia).
  destruct (Z.ltb_spec um 64); [|lia].
  cbn [bind]. unfold u8_sub. rewrite in_range_ok by (unfold u8_max; lia). cbn [bind].
  rewrite in_range_ok by (unfold u8_max; lia). cbn [bind].
  replace (2 ^ (m + 1) / 2) with (2 ^ m).
  2: { rewrite Z.pow_add_r by lia. change (2 ^ 1) with 2. rewrite Z.div_mul by lia. reflexivity. }
  replace (64 - um - (m + 1)) with (63 - um - m) by lia. replace (m + 1 - 1) with m by lia.
  match goal with |- context [resize ?h0 hi] => set (h := h0) end.
  assert (C : cfg_ok h).
  { constructor; unfold h; hsimp; auto; lia. }
  rewrite (resize_ok h C hi) by (auto || (unfold h; hsimp; lia)). cbn [bind]. reflexivity.
Qed.

Lemma fresh_wf T lo hi sf : u64 lo -> u64 hi -> 0 <= sf <= u8_max ->
  creation_check lo hi sf = None -> wf (fresh T lo hi sf).
Proof.
  intros L Hh Hs. unfold creation_check.
  destruct (Z.ltb_spec lo 1); [discriminate|].
  destruct (Z.ltb_spec (u64_max / 2) lo); [discriminate|].
  destruct (Z.ltb_spec hi (2 * lo)); [discriminate|].
  destruct (Z.ltb_spec 5 sf); [discriminate|].
  destruct (Z.ltb_spec 63 (log2_floor_f64 lo + Z.log2_up (2 * 10 ^ sf))); [discriminate|]. intros _.
  assert (C : cfg_ok (fresh T lo hi sf)).
  { constructor; unfold fresh; cbn zeta; hsimp; auto; unfold u64 in *; lia. }
  pose proof (half_range _ C) as HR. pose proof (um_range _ C) as UR. pose proof (m_range _ C) as MR.
  assert (S : size_ok (fresh T lo hi sf)).
  { constructor; [reflexivity|]. unfold fresh; cbn zeta; hsimp. apply zlen_vresize.
    unfold fresh in HR; cbn zeta in HR; hsimp in HR.
    pose proof (bkt_nonneg (log2_floor_f64 lo) (Z.log2_up (2 * 10 ^ sf) - 1) hi). nia. }
  pose proof (len_pos _ C S) as LP.
  assert (NL : 0 <= (bkt (log2_floor_f64 lo) (Z.log2_up (2 * 10 ^ sf) - 1) hi + 2) * 2 ^ (Z.log2_up (2 * 10 ^ sf) - 1)).
  { unfold fresh in HR; cbn zeta in HR; hsimp in HR.
    pose proof (bkt_nonneg (log2_floor_f64 lo) (Z.log2_up (2 * 10 ^ sf) - 1) hi). nia. }
  constructor; auto.
  - unfold fresh; cbn zeta; hsimp. apply Forall_vresize; auto. pose proof (cmax_le T). lia.
  - unfold fresh; cbn zeta; hsimp. unfold u64, ORIGINAL_MAX, u64_max; lia.
  - change (h_max (fresh T lo hi sf)) with 0.
    assert (idx (h_um (fresh T lo hi sf)) (h_half_mag (fresh T lo hi sf)) 0 = 0) as ->; [|lia].
    apply idx_0_iff; [lia|lia|lia|]. apply pow2_pos; lia.
  - intros i Hi. unfold fresh; cbn zeta; hsimp. rewrite zn_vresize by auto.
    rewrite zn_nil. destruct (_ <? _); lia.
  - unfold fresh; cbn zeta; hsimp. unfold u64, ORIGINAL_MIN, u64_max; lia.
  - intros i Hi. unfold fresh; cbn zeta; hsimp. rewrite zn_vresize by lia.
    rewrite zn_nil. destruct (_ <? _); lia.
  - unfold fresh; cbn zeta; hsimp. rewrite zsum_vresize_grow by (rewrite zlen_nil; auto).
    change (zsum []) with 0. unfold u64_max; lia.
Qed.

(** ** Recording *)

(** the histogram after growing to hold [v], if growing is needed *)
Definition grown (h : hist) (v : Z) : hist :=
  if idx (h_um h) (h_half_mag h) v <? zlen (h_counts h) then h
  else set_high (resized h v) (top_val (resized h v)).

Definition new_max (h : hist) (v : Z) : Z :=
  if h_max h <? v then v / 2 ^ h_um h * 2 ^ h_um h + (2 ^ h_um h - 1) else h_max h.
Definition new_min (h : hist) (v : Z) : Z :=
  if (v <? h_min h) && (2 ^ h_um h <=? v) then v / 2 ^ h_um h * 2 ^ h_um h else h_min h.

Definition rec_pure (h : hist) (v n : Z) : hist :=
  let i := idx (h_um h) (h_half_mag h) v in
  mk_hist (h_ctr h) (h_auto h) (h_high h) (h_low h) (h_sigfig h) (h_bucket_count h)
    (h_sub_bucket_count h) (h_half_count h) (h_half_mag h) (h_mask h) (h_lzb h) (h_um h) (h_um_mask h)
    (new_max h v) (new_min h v) (sat_add64 (h_total h) n)
    (vset (h_counts h) i (csat_add (h_ctr h) (zn (h_counts h) i) n)).

Lemma update_min_max_ok h v : cfg_ok h -> 0 <= v ->
  update_min_max h v = set_min (set_max h (new_max h v)) (new_min h v).
Proof.
  intros C V. unfold update_min_max, update_max, update_min, new_max, new_min.
  pose proof (um_range h C) as UR. pose proof (pow2_pos (h_um h) ltac:(lia)) as P.
  rewrite (c_umm h C).
  rewrite lor_mask by lia.
  pose proof (Z.div_mod v (2 ^ h_um h) ltac:(lia)) as DM. pose proof (Z.mod_pos_bound v (2 ^ h_um h) P) as MB.
  rewrite Z.mul_comm in DM.
  assert (LD : Z.ldiff v (2 ^ h_um h - 1) = v / 2 ^ h_um h * 2 ^ h_um h) by (apply ldiff_mask; lia).
  set (q := v / 2 ^ h_um h * 2 ^ h_um h) in *.
  assert (E1 : (if h_max h <? v then if h_max h <? q + (2 ^ h_um h - 1) then set_max h (q + (2 ^ h_um h - 1)) else h else h)
               = set_max h (if h_max h <? v then q + (2 ^ h_um h - 1) else h_max h)).
  { destruct (Z.ltb_spec (h_max h) v); [|destruct h; reflexivity].
    destruct (Z.ltb_spec (h_max h) (q + (2 ^ h_um h - 1))); [reflexivity|lia]. }
  rewrite E1. clear E1. set (h1 := set_max h _).
  change (h_min h1) with (h_min h). change (h_um_mask h1) with (h_um_mask h). rewrite (c_umm h C), LD.
  destruct (Z.ltb_spec v (h_min h)); cbn [andb].
  - destruct (Z.eqb_spec v 0) as [->|]; cbn [negb].
    + destruct (Z.leb_spec (2 ^ h_um h) 0); [lia|]. unfold h1. destruct h; reflexivity.
    + destruct (Z.leb_spec v (2 ^ h_um h - 1)).
      * destruct (Z.leb_spec (2 ^ h_um h) v); [lia|]. unfold h1. destruct h; reflexivity.
      * destruct (Z.leb_spec (2 ^ h_um h) v); [|lia].
        destruct (Z.ltb_spec q (h_min h)); [|lia]. reflexivity.
  - unfold h1. destruct h; reflexivity.
Qed.

Lemma grown_eq h v : idx (h_um h) (h_half_mag h) v < zlen (h_counts h) -> grown h v = h.
Proof. intros L. unfold grown. destruct (Z.ltb_spec (idx (h_um h) (h_half_mag h) v) (zlen (h_counts h))); auto; lia. Qed.

Lemma out_gt_high h v : cfg_ok h -> size_ok h -> u64 v ->
  zlen (h_counts h) <= idx (h_um h) (h_half_mag h) v -> h_high h < v.
Proof.
  intros C S V O. pose proof (high_in h C S). pose proof (high_u64 h C) as HU.
  apply (idx_lt_inv (h_um h) (h_half_mag h) (um_nonneg h C) (m_nonneg h C)); try apply HU; try apply V. lia.
Qed.

Lemma grown_facts h v : cfg_ok h -> size_ok h -> u64 v ->
  cfg_ok (grown h v) /\ size_ok (grown h v) /\
  idx (h_um h) (h_half_mag h) v < zlen (h_counts (grown h v)) /\
  zlen (h_counts h) <= zlen (h_counts (grown h v)) /\
  (forall i, 0 <= i -> zn (h_counts (grown h v)) i = zn (h_counts h) i) /\
  zsum (h_counts (grown h v)) = zsum (h_counts h) /\
  (forall P : Z -> Prop, P 0 -> Forall P (h_counts h) -> Forall P (h_counts (grown h v))) /\
  h_high h <= h_high (grown h v).
Proof.
  intros C S V. unfold grown.
  destruct (Z.ltb_spec (idx (h_um h) (h_half_mag h) v) (zlen (h_counts h))) as [I|I].
  { repeat (split; auto); lia. }
  pose proof (out_gt_high h v C S V I) as G. pose proof (c_high h C) as CH.
  assert (V2 : 2 * h_low h <= v) by lia.
  pose proof (resized_cfg h C v V V2) as RC. pose proof (resized_size h C v) as RS.
  set (r := resized h v) in *.
  destruct (top_val_in r RC RS) as [TU TI].
  assert (RI : idx (h_um r) (h_half_mag r) v < zlen (h_counts r)).
  { apply (idx_in_iff r RC RS v V). apply Z.le_refl. }
  assert (LR : zlen (h_counts r) = (bkt (h_um h) (h_half_mag h) v + 2) * 2 ^ h_half_mag h).
  { apply (s_len r RS). }
  assert (LG : zlen (h_counts h) <= zlen (h_counts r)).
  { pose proof (high_in h C S). change (h_um r) with (h_um h) in RI. change (h_half_mag r) with (h_half_mag h) in RI. lia. }
  assert (TV : v - 1 <= top_val r).
  { unfold top_val. pose proof (proj1 (idx_in_iff_top r RC RS v V) RI). destruct V. lia. }
  assert (BT : bkt (h_um h) (h_half_mag h) (top_val r) = bkt (h_um h) (h_half_mag h) v).
  { change (h_um r) with (h_um h) in *. change (h_half_mag r) with (h_half_mag h) in *.
    pose proof (um_nonneg h C). pose proof (m_nonneg h C). pose proof (half_range h C).
    pose proof (bkt_nonneg (h_um h) (h_half_mag h) v). destruct TU as [T1 T2].
    assert (A : bkt (h_um h) (h_half_mag h) (top_val r) <= bkt (h_um h) (h_half_mag h) v).
    { apply idx_lt_iff_bkt; auto; lia. }
    destruct (Z.eq_dec (bkt (h_um h) (h_half_mag h) v) 0).
    { pose proof (bkt_nonneg (h_um h) (h_half_mag h) (top_val r)). lia. }
    destruct (Z_le_gt_dec (bkt (h_um h) (h_half_mag h) (top_val r)) (bkt (h_um h) (h_half_mag h) v - 1)) as [B|B]; [|lia].
    apply idx_lt_iff_bkt in B; auto; try lia. }
  repeat split.
  - apply (c_low r RC).
  - hsimp. change (h_low r) with (h_low h). lia.
  - hsimp. apply TU.
  - apply (c_sf r RC).
  - apply (c_sf r RC).
  - apply (c_um r RC).
  - apply (c_m r RC).
  - apply (c_fit r RC).
  - apply (c_sbc r RC).
  - apply (c_half r RC).
  - apply (c_mask r RC).
  - apply (c_lzb r RC).
  - apply (c_umm r RC).
  - hsimp. change (h_um r) with (h_um h). change (h_half_mag r) with (h_half_mag h). rewrite BT. reflexivity.
  - hsimp. change (h_um r) with (h_um h). change (h_half_mag r) with (h_half_mag h). rewrite BT. exact LR.
  - hsimp. exact RI.
  - hsimp. exact LG.
  - intros i Hi. hsimp. unfold r, resized; hsimp. rewrite zn_vresize; auto.
    2: { unfold r in LR. rewrite <- LR. apply zlen_nonneg. }
    rewrite <- LR. destruct (Z.ltb_spec i (zlen (h_counts r))); auto. rewrite zn_out by lia. reflexivity.
  - hsimp. unfold r, resized; hsimp. apply zsum_vresize_grow. unfold r in LR. rewrite <- LR. exact LG.
  - intros P P0 F. hsimp. unfold r, resized; hsimp. apply Forall_vresize; auto.
  - hsimp. lia.
Qed.

Lemma grown_wf h v : wf h -> u64 v -> wf (grown h v).
Proof.
  intros W V. destruct (grown_facts h v (w_cfg h W) (w_size h W) V) as (C & S & I & L & Z1 & Z2 & F & _).
  assert (U : h_um (grown h v) = h_um h) by (unfold grown; destruct (_ <? _); reflexivity).
  assert (M : h_half_mag (grown h v) = h_half_mag h) by (unfold grown; destruct (_ <? _); reflexivity).
  assert (MX : h_max (grown h v) = h_max h) by (unfold grown; destruct (_ <? _); reflexivity).
  assert (MN : h_min (grown h v) = h_min h) by (unfold grown; destruct (_ <? _); reflexivity).
  assert (TT : h_total (grown h v) = h_total h) by (unfold grown; destruct (_ <? _); reflexivity).
  assert (TC : h_ctr (grown h v) = h_ctr h) by (unfold grown; destruct (_ <? _); reflexivity).
  destruct W. constructor; auto; rewrite ?U, ?M, ?MX, ?MN, ?TT, ?TC; auto.
  - apply F; auto. pose proof (cmax_le (h_ctr h)). lia.
  - lia.
  - intros i Hi. rewrite Z1 by auto. auto.
  - intros i Hi. rewrite Z1 by lia. auto.
  - rewrite Z2. auto.
Qed.

Lemma record_n_inner_ok h v n clamp : cfg_ok h -> size_ok h -> u64 v -> 0 <= n <= cmax (h_ctr h) ->
  record_n_inner h v n clamp =
  if idx (h_um h) (h_half_mag h) v <? zlen (h_counts h) then Ret (rec_pure h v n, ROk tt)
  else if clamp then Ret (rec_pure h (h_high h) n, ROk tt)
  else if h_auto h then Ret (rec_pure (grown h v) v n, ROk tt)
  else Ret (h, RErr ValueOutOfRangeResizeDisabled).
Proof.
  intros C S V N. unfold record_n_inner. rewrite mut_at_ok by auto. cbn [bind].
  pose proof (idx_nonneg _ _ (um_nonneg h C) (m_nonneg h C) v ltac:(apply V)) as IN.
  destruct (Z.ltb_spec (idx (h_um h) (h_half_mag h) v) (zlen (h_counts h))) as [I|I].
  - rewrite vget_in by lia. cbn [bind expect].
    rewrite update_min_max_ok; [reflexivity| |apply V].
    destruct C; constructor; hsimp; auto.
  - pose proof (out_gt_high h v C S V I) as G. destruct clamp.
    + destruct (Z.ltb_spec (h_high h) v); [|lia].
      pose proof (high_u64 h C) as HU. rewrite mut_at_ok by auto. cbn [bind].
      pose proof (high_in h C S) as HI. pose proof (idx_nonneg _ _ (um_nonneg h C) (m_nonneg h C) (h_high h) ltac:(apply HU)).
      destruct (Z.ltb_spec (idx (h_um h) (h_half_mag h) (h_high h)) (zlen (h_counts h))); [|lia].
      cbn [bind expect]. rewrite vget_in by lia. cbn [bind expect].
      rewrite update_min_max_ok; [reflexivity| |apply HU].
      destruct C; constructor; hsimp; auto.
    + destruct (h_auto h); cbn [negb]; [|reflexivity].
      pose proof (c_high h C).
      rewrite resize_ok by (auto; lia). cbn [bind].
      pose proof (resized_cfg h C v V ltac:(lia)) as RC. pose proof (resized_size h C v) as RS.
      rewrite last_index_ok by auto. cbn [bind].
      destruct (top_ok _ RC RS) as (l & E1 & E2). rewrite E1. cbn [bind]. rewrite E2. cbn [bind].
      destruct (grown_facts h v C S V) as (GC & GS & GI & GL & GZ & _).
      assert (GE : set_high (resized h v) (top_val (resized h v)) = grown h v).
      { unfold grown. destruct (Z.ltb_spec (idx (h_um h) (h_half_mag h) v) (zlen (h_counts h))); auto; lia. }
      rewrite GE. assert (GU : h_um (grown h v) = h_um h) by (rewrite <- GE; reflexivity).
      assert (GM : h_half_mag (grown h v) = h_half_mag h) by (rewrite <- GE; reflexivity).
      assert (GT : h_ctr (grown h v) = h_ctr h) by (rewrite <- GE; reflexivity).
      rewrite mut_at_ok by auto. cbn [bind]. rewrite GU, GM.
      destruct (Z.ltb_spec (idx (h_um h) (h_half_mag h) v) (zlen (h_counts (grown h v)))); [|lia].
      cbn [bind expect]. rewrite vget_in by lia. cbn [bind expect].
      rewrite GZ by auto. rewrite zn_out by lia. unfold cchecked_add.
      destruct (Z.leb_spec (0 + n) (cmax (h_ctr h))); [|lia]. cbn [bind expect].
      rewrite update_min_max_ok; [| |apply V].
      * unfold rec_pure. rewrite GU, GM, GT. rewrite GZ by auto. rewrite zn_out by lia.
        unfold csat_add. rewrite Z.min_r by lia. unfold new_max, new_min. unfold set_total, set_min, set_max, set_counts; hsimp. rewrite ?GU, ?GM, ?GT. reflexivity.
      * destruct GC; constructor; hsimp; auto.
Qed.

Lemma rec_pure_wf h v n : wf h -> u64 v -> 0 <= n -> idx (h_um h) (h_half_mag h) v < zlen (h_counts h) ->
  wf (rec_pure h v n).
Proof.
  intros W V N I. pose proof (w_cfg h W) as C.
  pose proof (um_nonneg h C) as U0. pose proof (m_nonneg h C) as M0. pose proof V as [V0 V1].
  pose proof (idx_nonneg _ _ U0 M0 v V0) as IN.
  pose proof (pow2_pos (h_um h) U0) as P2. pose proof (um_range h C) as UR.
  pose proof (cmax_le (h_ctr h)) as CM.
  pose proof (zn_Forall _ _ (idx (h_um h) (h_half_mag h) v) (w_cnt h W) ltac:(lia)) as ZC. cbv beta in ZC.
  destruct W as [_ S Cn Mx Mi Mt Ms Mn Nb Ns Tt].
  assert (MI : idx (h_um h) (h_half_mag h) (new_max h v) =
               if h_max h <? v then idx (h_um h) (h_half_mag h) v else idx (h_um h) (h_half_mag h) (h_max h)).
  { unfold new_max. destruct (h_max h <? v); auto. apply idx_ceil_um; auto. }
  assert (NI : idx (h_um h) (h_half_mag h) (new_min h v) =
               if (v <? h_min h) && (2 ^ h_um h <=? v) then idx (h_um h) (h_half_mag h) v else idx (h_um h) (h_half_mag h) (h_min h)).
  { unfold new_min. destruct (_ && _); auto. apply idx_floor_um; auto. }
  constructor; unfold rec_pure; cbn zeta; hsimp.
  - destruct C; constructor; hsimp; auto.
  - destruct S; constructor; hsimp; auto. rewrite zlen_vset. auto.
  - apply Forall_vset; auto. unfold csat_add. lia.
  - unfold new_max. destruct (Z.ltb_spec (h_max h) v); auto. apply ceil_um_u64; auto.
  - rewrite MI, zlen_vset. destruct (_ <? _); auto.
  - intros i Hi. rewrite zn_vset by lia. rewrite MI.
    destruct (Z.eqb_spec (idx (h_um h) (h_half_mag h) v) i) as [<-|].
    + intros _. destruct (Z.ltb_spec (h_max h) v); [lia|]. apply idx_mono; auto.
    + intros NZ. specialize (Mt i Hi NZ). destruct (Z.ltb_spec (h_max h) v); auto.
      pose proof (idx_mono _ _ U0 M0 (h_max h) v). destruct Mx. lia.
  - unfold new_max. destruct (Z.ltb_spec (h_max h) v); auto. right.
    rewrite Z.add_comm, Z.mod_add by lia. apply Z.mod_small. lia.
  - unfold new_min. destruct (_ && _); auto. split.
    + pose proof (Z.div_pos v (2 ^ h_um h) V0 P2). nia.
    + pose proof (Z.mul_div_le v (2 ^ h_um h) P2). lia.
  - intros i Hi. rewrite zn_vset by lia. rewrite NI.
    destruct (Z.eqb_spec (idx (h_um h) (h_half_mag h) v) i) as [<-|].
    + intros _. destruct (Z.leb_spec (2 ^ h_um h) v).
      * rewrite andb_true_r. destruct (Z.ltb_spec v (h_min h)); [lia|]. apply idx_mono; auto. destruct Mn; lia.
      * assert (idx (h_um h) (h_half_mag h) v = 0) by (apply idx_0_iff; auto; lia). lia.
    + intros NZ. specialize (Nb i Hi NZ). destruct (Z.ltb_spec v (h_min h)); cbn [andb]; auto.
      destruct (2 ^ h_um h <=? v); auto. pose proof (idx_mono _ _ U0 M0 v (h_min h)). lia.
  - unfold new_min. destruct (Z.ltb_spec v (h_min h)); cbn [andb]; auto.
    destruct (Z.leb_spec (2 ^ h_um h) v); auto. right. split.
    + apply Z.mod_mul. lia.
    + assert (1 <= v / 2 ^ h_um h) by (apply Z.div_le_lower_bound; lia). nia.
  - rewrite zsum_vset by lia. unfold sat_add64, csat_add. lia.
Qed.
