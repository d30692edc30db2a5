(** * Proofs of the properties about construction and equivalence classes (C01 - C05) *)
From Verif Require Import Machine Log2Model HistModel Spec Reach Bins ListZ Log2Facts Cfg Wf Ops AddFacts SubFacts Exact MoreFacts Witness.
(*PROPS-IMPORTS Machine Log2Model HistModel Spec Reach Witness Cases *)
From Coq Require Import ZifyBool ZifyNat.

(** ** C01.  The class of [v] is the interval [lo .. lo + range - 1]: a whole number of units wide,
    aligned to its power-of-two width.  [highest_equivalent] is its top, except in the class that
    ends at [u64::MAX], where it is one less (unless asked for [u64::MAX] itself). *)
Lemma C01_class_is_interval_proof : forall h v, reachable h -> is_u64 v ->
  exists lo range,
    lowest_equivalent h v = Ret lo /\ equivalent_range h v = Ret range /\
    0 <= lo <= v /\ v < lo + range <= u64_max + 1 /\
    (exists k, 0 <= k /\ range = 2 ^ k) /\ lo mod range = 0 /\
    (forall w, is_u64 w -> equivalent h v w = Ret ((lo <=? w) && (w <? lo + range))) /\
    next_non_equivalent h v = Ret (Z.min u64_max (lo + range)) /\
    median_equivalent h v = Ret (lo + range / 2) /\ lo <= lo + range / 2 < lo + range /\
    highest_equivalent h v =
      Ret (if (lo + range =? u64_max + 1) && negb (v =? u64_max) then u64_max - 1 else lo + range - 1).
Proof.
  intros h v R V. pose proof (reachable_wf h R) as W. pose proof (w_cfg h W) as C.
  pose proof (um_nonneg h C) as U0. pose proof (m_nonneg h C) as M0. change (u64 v) in V.
  set (lo := loweq (h_um h) (h_half_mag h) v). set (rg := wid (h_um h) (h_half_mag h) v).
  pose proof (loweq_le _ (h_half_mag h) U0 v ltac:(apply V)) as LL. fold lo in LL.
  pose proof (lt_loweq_wid _ (h_half_mag h) U0 v ltac:(apply V)) as LW. fold lo rg in LW.
  pose proof (wid_pos _ (h_half_mag h) U0 v) as WP. fold rg in WP.
  assert (DV : lo mod rg = 0) by (unfold lo, loweq; fold rg; apply Z.mod_mul; lia).
  assert (TOP : lo + rg <= u64_max + 1).
  { pose proof (wid_range h C v V) as WR. fold rg in WR.
    pose proof (bkt_bound h C v V) as BB. pose proof (um_range h C). pose proof (m_range h C).
    set (k := h_um h + bkt (h_um h) (h_half_mag h) v) in *.
    assert (RK : rg = 2 ^ k) by reflexivity.
    assert (E : u64_max + 1 = 2 ^ (64 - k) * rg).
    { rewrite RK, <- Z.pow_add_r by lia. replace (64 - k + k) with 64 by lia. reflexivity. }
    rewrite E. unfold lo, loweq. fold rg.
    assert (v / rg < 2 ^ (64 - k)) by (apply Z.div_lt_upper_bound; unfold u64 in V; lia). nia. }
  exists lo, rg. split; [apply lowest_equivalent_ok; auto|]. split; [apply equivalent_range_ok; auto|].
  split; [lia|]. split; [lia|]. split.
  { exists (h_um h + bkt (h_um h) (h_half_mag h) v). split; [|reflexivity].
    pose proof (bkt_nonneg (h_um h) (h_half_mag h) v). lia. }
  split; auto. split.
  { intros w Hw. rewrite equivalent_bin by auto. f_equal. unfold bin.
    pose proof (idx_iff _ _ U0 M0 w (idx (h_um h) (h_half_mag h) v) ltac:(apply Hw)
                  (idx_nonneg _ _ U0 M0 v ltac:(apply V))) as I.
    rewrite val_idx, val_idx_succ in I by (auto; apply V). fold lo rg in I.
    destruct (Z.eqb_spec (idx (h_um h) (h_half_mag h) v) (idx (h_um h) (h_half_mag h) w)) as [E|E]; lia. }
  split. { rewrite next_non_equivalent_ok by auto. reflexivity. }
  split. { rewrite median_equivalent_ok by auto. reflexivity. }
  split. { split; [pose proof (Z.div_pos rg 2); lia|]. assert (rg / 2 < rg) by (apply Z.div_lt; lia). lia. }
  rewrite highest_equivalent_ok by auto. f_equal. unfold higheq, nexteq. fold lo rg.
  destruct (Z.eqb_spec v u64_max); destruct (Z.eqb_spec (lo + rg) (u64_max + 1)); cbn [negb andb];
    unfold u64 in V; lia.
Qed.
(*EX
Example ex_C01 : match build U64 3 1000000 2 false [(5, 1); (70000, 2)] with
  | Some h => reachable h /\ lowest_equivalent h 70000 = Ret 69632 /\ highest_equivalent h 70000 = Ret 70143 /\
  equivalent h 70000 70143 = Ret true /\ equivalent h 70000 70144 = Ret false
  | None => False end.
Proof. case_of. Qed.
EX*)

(** C01, the exception: [highest_equivalent] of a value in the topmost class is not the largest
    equivalent value. *)
Lemma C01_highest_equivalent_top_refuted_proof : exists h v w top,
  reachable h /\ is_u64 v /\ is_u64 w /\ equivalent h v w = Ret true /\
  highest_equivalent h v = Ret top /\ top < w.
Proof.
  destruct (build U64 1 u64_max 0 false []) as [h|] eqn:B; [|vm_compute in B; discriminate].
  exists h, (u64_max - 1), u64_max, (u64_max - 1). split; [apply (build_reachable _ _ _ _ _ _ _ B)|].
  vm_compute in B. injection B as <-. vm_compute. repeat split; intros; discriminate.
Qed.

(** ** C02.  Two values the histogram cannot tell apart differ by less than the width of the class of
    0 (the unit), or by less than [v / 10^sigfig]. *)
Lemma C02_resolution_proof : forall h v w unit, reachable h -> is_u64 v -> is_u64 w ->
  equivalent h v w = Ret true -> equivalent_range h 0 = Ret unit ->
  Z.abs (v - w) < unit \/ Z.abs (v - w) * 10 ^ sigfig h < v.
Proof.
  intros h v w unit R V Hw E U. pose proof (reachable_wf h R) as W. pose proof (w_cfg h W) as C.
  pose proof (um_nonneg h C) as U0. pose proof (m_nonneg h C) as M0.
  change (u64 v) in V. change (u64 w) in Hw.
  rewrite equivalent_range_ok in U by (auto; unfold u64, u64_max; lia). injection U as <-.
  rewrite equivalent_bin in E by auto. injection E as E. apply Z.eqb_eq in E.
  assert (D : Z.abs (v - w) < wid (h_um h) (h_half_mag h) v).
  { pose proof (proj1 (idx_iff _ _ U0 M0 w (bin h v) ltac:(apply Hw) (bin_nonneg h v C ltac:(apply V))) (eq_sym E)) as I.
    unfold bin in I. rewrite val_idx, val_idx_succ in I by (auto; apply V).
    pose proof (loweq_le _ (h_half_mag h) U0 v ltac:(apply V)). pose proof (lt_loweq_wid _ (h_half_mag h) U0 v ltac:(apply V)). lia. }
  assert (W0 : wid (h_um h) (h_half_mag h) 0 = 2 ^ h_um h).
  { unfold wid, bkt. change (Z.log2 0) with 0. f_equal. lia. }
  rewrite W0. destruct (Z.eq_dec (bkt (h_um h) (h_half_mag h) v) 0) as [B|B].
  - left. unfold wid in D. rewrite B, Z.add_0_r in D. exact D.
  - right. pose proof (bkt_nonneg (h_um h) (h_half_mag h) v).
    pose proof (Bins.sub_range _ _ U0 M0 v ltac:(apply V)) as [_ S]. specialize (S ltac:(lia)).
    pose proof (wid_pos _ (h_half_mag h) U0 v) as WP.
    assert (L : 2 ^ h_half_mag h * wid (h_um h) (h_half_mag h) v <= v).
    { pose proof (Z.mul_div_le v (wid (h_um h) (h_half_mag h) v) WP). nia. }
    assert (P10 : 10 ^ sigfig h <= 2 ^ h_half_mag h).
    { unfold sigfig. rewrite (c_m h C). pose proof (c_sf h C).
      pose proof (Z.log2_up_spec (2 * 10 ^ h_sigfig h)) as LS.
      pose proof (Z.pow_pos_nonneg 10 (h_sigfig h) ltac:(lia) ltac:(lia)).
      destruct LS as [_ LS]; [lia|].
      replace (Z.log2_up (2 * 10 ^ h_sigfig h)) with (Z.log2_up (2 * 10 ^ h_sigfig h) - 1 + 1) in LS by lia.
      rewrite Z.pow_add_r in LS; [lia| |lia].
      pose proof (Z.log2_up_pos (2 * 10 ^ h_sigfig h)). lia. }
    pose proof (Z.pow_pos_nonneg 10 (sigfig h) ltac:(lia) ltac:(unfold sigfig; apply (c_sf h C))).
    assert (0 <= Z.abs (v - w)) by lia. nia.
Qed.
(*EX
Example ex_C02 : match build U64 1 100000 2 false [(20000, 1)] with
  | Some h => reachable h /\ equivalent h 20000 20063 = Ret true /\ equivalent_range h 0 = Ret 1
  | None => False end.
Proof. case_of. Qed.
EX*)

(** ** C03.  Every value has a bin; bins are ordered like values; two values share a bin exactly when
    they are equivalent; every bin of the histogram is the bin of its own value; nothing overflows. *)
Lemma C03_binning_proof : forall h v w, reachable h -> is_u64 v -> is_u64 w ->
  exists i j, index_for h v = Ret (Some i) /\ index_for h w = Ret (Some j) /\ 0 <= i /\ 0 <= j /\
    (v <= w -> i <= j) /\ equivalent h v w = Ret (i =? j) /\
    (v <= high h -> i < distinct_values h).
Proof.
  intros h v w R V Hw. pose proof (reachable_wf h R) as W. pose proof (w_cfg h W) as C.
  exists (bin h v), (bin h w). rewrite !index_for_ok by auto.
  split; [reflexivity|]. split; [reflexivity|].
  split; [apply bin_nonneg; auto; apply V|]. split; [apply bin_nonneg; auto; apply Hw|].
  split; [intros; apply bin_mono; auto; unfold is_u64 in *; lia|].
  split; [apply equivalent_bin; auto|].
  intros L. pose proof (high_in h C (w_size h W)) as HI. unfold high in L.
  pose proof (bin_mono h v (h_high h) C ltac:(unfold is_u64 in *; lia)). unfold distinct_values, bin in *. lia.
Qed.
(*EX
Example ex_C03_binning : match build U8 1000 123456789 3 true [(2000000000, 3)] with
  | Some h => reachable h /\ is_u64 777777777 /\ is_u64 778000000 /\ index_for h 777777777 = Ret (Some 11723) /\ index_for h 778000000 = Ret (Some 11723) /\
      equivalent h 777777777 778000000 = Ret true /\ index_for h u64_max = Ret (Some 47103) /\ high h < u64_max
  | None => False end.
Proof. case_of. Qed.
EX*)
Lemma C03_bins_onto_proof : forall h i, reachable h -> 0 <= i < distinct_values h ->
  exists v, value_for h i = Ret v /\ is_u64 v /\ index_for h v = Ret (Some i) /\ lowest_equivalent h v = Ret v.
Proof.
  intros h i R I. pose proof (reachable_wf h R) as W. pose proof (w_cfg h W) as C. unfold distinct_values in I.
  pose proof (len_le_top h C (w_size h W)). pose proof (bval_u64 h i C (w_size h W) I) as VU.
  exists (bval h i). split; [apply value_for_ok; auto; lia|]. split; auto.
  rewrite index_for_ok by auto. fold (bin h (bval h i)). rewrite bin_bval by (auto; lia). split; auto.
  rewrite lowest_equivalent_ok by auto. rewrite <- bval_bin by (auto; apply VU). rewrite bin_bval by (auto; lia). auto.
Qed.
(*EX
Example ex_C03 : match build U8 1000 123456789 3 true [(2000000000, 3)] with
  | Some h => reachable h /\ index_for h 0 = Ret (Some 0) /\ index_for h 777777777 = Ret (Some 11723) /\ distinct_values h = 13312
  | None => False end.
Proof. case_of. Qed.
EX*)

(** ** C04.  Which parameters are accepted, and the errors otherwise. *)
Lemma C04_construction_proof : forall T lo hi sf, is_u64 lo -> is_u64 hi -> is_u8 sf ->
  exists r, new_with_bounds T lo hi sf = Ret r /\
    ((exists h, r = ROk h) <-> (1 <= lo <= u64_max / 2 /\ 2 * lo <= hi /\ sf <= 5 /\ precision_fits lo sf)) /\
    (r = RErr LowIsZero <-> lo = 0) /\
    (r = RErr LowExceedsMax <-> u64_max / 2 < lo) /\
    (r = RErr HighLessThanTwiceLow <-> 1 <= lo <= u64_max / 2 /\ hi < 2 * lo) /\
    (r = RErr SigFigExceedsMax <-> 1 <= lo <= u64_max / 2 /\ 2 * lo <= hi /\ 5 < sf) /\
    (r = RErr CannotRepresentSigFigBeyondLow <->
       1 <= lo <= u64_max / 2 /\ 2 * lo <= hi /\ sf <= 5 /\ ~ precision_fits lo sf) /\
    r <> RErr CreateUsizeTypeTooSmall.
Proof.
  intros T lo hi sf L Hh S. rewrite new_with_bounds_ok by auto. eexists. split; [reflexivity|].
  unfold creation_check, precision_fits, is_u64 in *.
  assert (u64_max / 2 = 9223372036854775807) as -> by reflexivity.
  destruct (Z.ltb_spec lo 1); [|destruct (Z.ltb_spec 9223372036854775807 lo); [|destruct (Z.ltb_spec hi (2 * lo));
    [|destruct (Z.ltb_spec 5 sf); [|destruct (Z.ltb_spec 63 (log2_floor_f64 lo + Z.log2_up (2 * 10 ^ sf)))]]]];
  repeat split; try (intros; discriminate); try lia; eauto;
    try (match goal with H : exists _, _ = _ |- _ => destruct H; discriminate end).
Qed.
(*EX
Example ex_C04_construction : is_u64 1000 /\ is_u64 3600000 /\ is_u8 3 /\
  match new_with_bounds U16 1000 3600000 3 with Ret (ROk h) => high h = 3600000 | _ => False end /\
  new_with_bounds U16 0 0 9 = Ret (RErr LowIsZero) /\ new_with_bounds U16 (2 ^ 63) 0 9 = Ret (RErr LowExceedsMax) /\
  new_with_bounds U16 1000 1999 9 = Ret (RErr HighLessThanTwiceLow) /\ new_with_bounds U16 1000 2000 6 = Ret (RErr SigFigExceedsMax) /\
  new_with_bounds U16 (2 ^ 60) (2 ^ 61) 3 = Ret (RErr CannotRepresentSigFigBeyondLow).
Proof. case_of. split; discriminate. Qed.
EX*)
(** a new histogram is empty, keeps its parameters and covers everything up to [high] *)
Lemma C04_new_is_empty_proof : forall T lo hi sf h, is_u64 lo -> is_u64 hi -> is_u8 sf ->
  new_with_bounds T lo hi sf = Ret (ROk h) ->
  low h = lo /\ high h = hi /\ sigfig h = sf /\ h_ctr h = T /\ is_auto_resize h = false /\
  len h = 0 /\ is_empty h = true /\ max h = Ret 0 /\ min h = Ret 0 /\ min_nz h = Ret u64_max /\
  (forall v, is_u64 v -> count_at h v = Ret 0) /\
  (forall v, is_u64 v -> v <= hi -> covers h v).
Proof.
  intros T lo hi sf h L Hh S E. destruct (created_wf T lo hi sf h L Hh S E) as (-> & CC & W & EX).
  do 9 (split; [reflexivity|]). split; [reflexivity|]. split.
  - intros v V. rewrite count_at_ok by auto. rewrite fresh_zero; auto. apply cbin_range; auto.
  - intros v V LE. apply covers_bin; auto. pose proof (high_in _ (w_cfg _ W) (w_size _ W)) as HI.
    fold (bin (fresh T lo hi sf) (h_high (fresh T lo hi sf))) in HI.
    pose proof (bin_mono _ v (h_high (fresh T lo hi sf)) (w_cfg _ W)) as BM.
    change (h_high (fresh T lo hi sf)) with hi in *. unfold is_u64 in *. lia.
Qed.
(*EX
Example ex_C04_new_is_empty : match new_with_bounds U16 1000 3600000 3 with
  | Ret (ROk h) => reachable h /\ is_u64 1000 /\ is_u64 3600000 /\ is_u8 3 /\ is_u64 3600000 /\ covers h 3600000 /\ count_at h 3600000 = Ret 0 /\
      min_nz h = Ret u64_max /\ max h = Ret 0
  | _ => False end.
Proof. case_of. split; discriminate. Qed.
EX*)
(** [new]: auto-resizing, range 1 .. 2 *)
Lemma C04_new_proof : forall T sf, is_u8 sf ->
  (sf <= 5 /\ exists h, new T sf = Ret (ROk h) /\ is_auto_resize h = true /\ len h = 0 /\ low h = 1 /\ high h = 2 /\ sigfig h = sf) \/
  (5 < sf /\ new T sf = Ret (RErr SigFigExceedsMax)).
Proof.
  intros T sf S. unfold new. rewrite new_with_bounds_ok by (auto; unfold u64, u64_max; lia).
  unfold creation_check. change (1 <? 1) with false. change (u64_max / 2 <? 1) with false. change (2 <? 2 * 1) with false.
  cbn [bind]. destruct (Z.ltb_spec 5 sf). { right. auto. }
  left. split; [lia|]. change (log2_floor_f64 1) with 0.
  pose proof (scm_table_ok sf ltac:(unfold is_u8 in S; lia)) as ST. pose proof (scm_table_range sf).
  destruct (Z.ltb_spec 63 (0 + Z.log2_up (2 * 10 ^ sf))); [lia|].
  eexists. split; [reflexivity|]. repeat split; reflexivity.
Qed.
(*EX
Example ex_C04 : match new_with_bounds U16 1000 3600000 3 with
  | Ret (ROk h) => low h = 1000 /\ high h = 3600000 /\ count_at h 500000 = Ret 0
  | _ => False end 
  /\ new_with_bounds U16 1000 1999 3 = Ret (RErr HighLessThanTwiceLow) /\
  new_with_bounds U16 (2 ^ 62) u64_max 3 = Ret (RErr CannotRepresentSigFigBeyondLow).
Proof. vm_compute. auto. Qed.
EX*)

(** ** C05.  For [low < 2^48] the unit is [low] rounded down to a power of two and [low] is told apart
    from 0.  Missing from the full statement ("every accepted low"): see the refutation below. *)
Lemma C05_low_discernible_partial_proof : forall h, reachable h -> low h < 2 ^ 48 ->
  equivalent_range h 0 = Ret (2 ^ Z.log2 (low h)) /\ equivalent h (low h) 0 = Ret false.
Proof.
  intros h R L. pose proof (reachable_wf h R) as W. pose proof (w_cfg h W) as C. unfold low in *.
  pose proof (c_low h C). pose proof (um_range h C).
  assert (V0 : u64 0) by (unfold u64, u64_max; lia).
  assert (E : h_um h = Z.log2 (h_low h)) by (rewrite (c_um h C); apply log2_floor_f64_small; lia).
  split.
  - rewrite equivalent_range_ok by auto. unfold wid, bkt. change (Z.log2 0) with 0. do 2 f_equal. pose proof (m_range h C). lia.
  - pose proof (low_range h C) as LR.
    assert (VL : u64 (h_low h)) by (unfold u64; assert (u64_max / 2 <= u64_max) by (vm_compute; discriminate); lia).
    rewrite equivalent_bin by auto. f_equal. apply Z.eqb_neq. unfold bin.
    rewrite (proj2 (idx_0_iff _ _ (um_nonneg h C) (m_nonneg h C) 0 ltac:(lia))) by (apply pow2_pos; lia).
    intros I. apply (proj1 (idx_0_iff _ _ (um_nonneg h C) (m_nonneg h C) (h_low h) ltac:(lia))) in I.
    rewrite E in I. pose proof (Z.log2_spec (h_low h)). lia.
Qed.
(*EX
Example ex_C05_partial : match build U64 (2 ^ 48 - 1) (2 ^ 60) 1 false [] with
  | Some h => reachable h /\ low h < 2 ^ 48 /\ equivalent_range h 0 = Ret (2 ^ 47) /\ equivalent h (2 ^ 48 - 1) 0 = Ret false
  | None => False end.
Proof. case_of. Qed.
EX*)
(** the granularity never differs from [low] rounded down by more than one binary order *)
Lemma C05_unit_bounds_proof : forall h, reachable h ->
  equivalent_range h 0 = Ret (2 ^ Z.log2 (low h)) \/ equivalent_range h 0 = Ret (2 ^ (Z.log2 (low h) + 1)).
Proof.
  intros h R. pose proof (reachable_wf h R) as W. pose proof (w_cfg h W) as C. unfold low in *.
  pose proof (c_low h C). pose proof (um_range h C). pose proof (c_high h C).
  assert (V0 : u64 0) by (unfold u64, u64_max; lia).
  rewrite equivalent_range_ok by auto. unfold wid, bkt. change (Z.log2 0) with 0.
  pose proof (m_range h C). replace (h_um h + Z.max 0 (0 - (h_um h + h_half_mag h))) with (h_um h) by lia.
  pose proof (log2_floor_f64_bounds (h_low h) ltac:(unfold u64_max in *; lia)) as B. rewrite <- (c_um h C) in B.
  assert (h_um h = Z.log2 (h_low h) \/ h_um h = Z.log2 (h_low h) + 1) as [->| ->] by lia; auto.
Qed.
(*EX
Example ex_C05_unit_bounds : match build U64 (2 ^ 49 - 1) (2 ^ 60) 1 false [] with Some h =>
  match build U64 1000 1000000 3 false [] with Some k =>
    reachable h /\ low h = 2 ^ 49 - 1 /\ equivalent_range h 0 = Ret (2 ^ (48 + 1)) /\ reachable k /\ low k = 1000 /\ equivalent_range k 0 = Ret (2 ^ 9)
  | None => False end | None => False end.
Proof. case_of. Qed.
EX*)
(** rounding UP happens: [low = 2^49 - 1] gets the unit [2^49] and is indistinguishable from 0 *)
Lemma C05_low_discernible_refuted_proof : exists h,
  reachable h /\ low h = 2 ^ 49 - 1 /\ equivalent h (low h) 0 = Ret true /\ equivalent_range h 0 = Ret (2 ^ 49).
Proof.
  destruct (build U64 (2 ^ 49 - 1) u64_max 1 false []) as [h|] eqn:B; [|vm_compute in B; discriminate].
  exists h. split; [apply (build_reachable _ _ _ _ _ _ _ B)|].
  vm_compute in B. injection B as <-. vm_compute. auto.
Qed.
(*EX
Example ex_C05 : match build U64 1000 1000000 3 false [] with
  | Some h => reachable h /\ low h < 2 ^ 48 /\ equivalent_range h 0 = Ret 512 /\ equivalent h 1000 0 = Ret false
  | None => False end.
Proof. case_of. Qed.
EX*)
