(** * Proofs of the property about the C library's logarithm (C79) *)
(*PROPS-IMPORTS Machine HistModel Spec Reach Witness Cases FloatModel FloatSpec LibmModel LibmSpec *)
(*PROPS-HEADER
From Coq Require Import Reals.
From Flocq Require Import Core.
From Verif Require Import LibmFacts.
PROPS-HEADER*)
From Coq Require Import ZArith Reals Lra Lia.
From Flocq Require Import Core IEEE754.BinarySingleNaN.
From Verif Require Import Machine Log2Model HistModel Spec Reach Bins ListZ Log2Facts Cfg Wf FloatModel FloatSpec FloatFacts Log2Spec LibmModel LibmSpec LibmFacts.
From Coq Require Import ZifyBool.
Open Scope Z_scope.

(** the constructor, given the two magnitudes *)
Lemma same_magnitudes lg T lo hi sf :
  (1 <= lo <= u64_max / 2 -> 2 * lo <= hi -> sf <= 5 -> f64_to_u8 (f64_floor (lg (f64_of_u64 lo))) = log2_floor_f64 lo) ->
  (0 <= sf <= 5 -> f64_to_u8 (f64_ceil (lg (f64_of_u64 (2 * 10 ^ sf)))) = Z.log2_up (2 * 10 ^ sf)) ->
  0 <= sf -> new_with_bounds_libm lg T lo hi sf = new_with_bounds T lo hi sf.
Proof.
  intros A B S. unfold new_with_bounds_libm, new_with_bounds.
  destruct (Z.ltb_spec lo 1); auto. destruct (Z.ltb_spec (u64_max / 2) lo); auto.
  assert (L2 : u64_mul 2 lo = Ret (2 * lo)). { apply in_range_ok. change (u64_max / 2) with 9223372036854775807 in *. unfold u64_max. lia. }
  rewrite L2. cbn [bind]. destruct (Z.ltb_spec hi (2 * lo)); auto. destruct (Z.ltb_spec 5 sf); auto.
  assert (P10 : (1 <= 10 ^ sf <= 100000)%Z).
  { split; [pose proof (Z.pow_pos_nonneg 10 sf); lia|]. change 100000%Z with (10 ^ 5)%Z. apply Z.pow_le_mono_r; lia. }
  rewrite in_range_ok by (unfold u32_max; lia). cbn [bind]. 
  assert (EM : u32_mul 2 (10 ^ sf) = Ret (2 * 10 ^ sf)) by (apply in_range_ok; unfold u32_max; lia). rewrite EM. cbn [bind].
  rewrite A, B by lia. reflexivity.
Qed.

(** a histogram with unit [2^um] *)
Definition fresh_at (T : counter) (um lo hi sf : Z) : hist :=
  let m := Z.log2_up (2 * 10 ^ sf) - 1 in
  mk_hist T false hi lo sf (bkt um m hi + 1) (2 ^ (m + 1)) (2 ^ m) m
    ((2 ^ (m + 1) - 1) * 2 ^ um) (63 - um - m) um (2 ^ um - 1) ORIGINAL_MAX ORIGINAL_MIN 0
    (vresize [] ((bkt um m hi + 2) * 2 ^ m) 0).

Lemma log2_floor_pow k : 0 <= k <= 62 -> log2_floor_f64 (2 ^ k) = k.
Proof.
  intros K. assert (E : forallb (fun n => log2_floor_f64 (2 ^ Z.of_nat n) =? Z.of_nat n) (seq 0 63) = true) by (vm_compute; reflexivity).
  rewrite forallb_forall in E. specialize (E (Z.to_nat k)). rewrite Z2Nat.id in E by lia. apply Z.eqb_eq, E. apply in_seq. lia.
Qed.

Lemma other_unit lg T um lo hi sf : is_u64 lo -> is_u64 hi -> 1 <= lo <= u64_max / 2 -> 2 * lo <= hi -> 0 <= sf <= 5 -> 0 <= um <= 63 ->
  f64_to_u8 (f64_floor (lg (f64_of_u64 lo))) = um ->
  f64_to_u8 (f64_ceil (lg (f64_of_u64 (2 * 10 ^ sf)))) = Z.log2_up (2 * 10 ^ sf) ->
  new_with_bounds_libm lg T lo hi sf =
    (if 63 <? um + Z.log2_up (2 * 10 ^ sf) then Ret (RErr CannotRepresentSigFigBeyondLow) else Ret (ROk (fresh_at T um lo hi sf))) /\
  (um + Z.log2_up (2 * 10 ^ sf) <= 63 -> creation_check (2 ^ um) u64_max sf = None).
Proof.
  intros LU HU L H S U EU ED.
  pose proof (scm_table_ok sf ltac:(lia)) as ST. pose proof (scm_table_range sf) as SR. unfold is_u64 in *.
  assert (P10 : (1 <= 10 ^ sf <= 100000)%Z).
  { split; [pose proof (Z.pow_pos_nonneg 10 sf); lia|]. change 100000%Z with (10 ^ 5)%Z. apply Z.pow_le_mono_r; lia. }
  assert (CC : um + Z.log2_up (2 * 10 ^ sf) <= 63 -> creation_check (2 ^ um) u64_max sf = None).
  { intros FIT. unfold creation_check. assert (U62 : um <= 62) by lia. pose proof (Z.pow_pos_nonneg 2 um ltac:(lia) ltac:(lia)).
    assert (2 ^ um <= 2 ^ 62) by (apply Z.pow_le_mono_r; lia). change (2 ^ 62) with 4611686018427387904 in *.
    change (u64_max / 2) with 9223372036854775807. rewrite log2_floor_pow by lia. unfold u64_max.
    destruct (Z.ltb_spec (2 ^ um) 1); [lia|]. destruct (Z.ltb_spec 9223372036854775807 (2 ^ um)); [lia|].
    destruct (Z.ltb_spec 18446744073709551615 (2 * 2 ^ um)); [lia|]. destruct (Z.ltb_spec 5 sf); [lia|].
    destruct (Z.ltb_spec 63 (um + Z.log2_up (2 * 10 ^ sf))); [lia|]. reflexivity. }
  split; [|exact CC]. unfold new_with_bounds_libm. change (u64_max / 2) with 9223372036854775807 in *.
  destruct (Z.ltb_spec lo 1); [lia|]. destruct (Z.ltb_spec 9223372036854775807 lo); [lia|].
  unfold u64_mul. rewrite in_range_ok by (unfold u64_max in *; lia). cbn [bind].
  destruct (Z.ltb_spec hi (2 * lo)); [lia|]. destruct (Z.ltb_spec 5 sf); [lia|].
  rewrite in_range_ok by (unfold u32_max; lia). cbn [bind]. unfold u32_mul at 1. rewrite in_range_ok by (unfold u32_max; lia). cbn [bind].
  rewrite EU, ED. set (m := Z.log2_up (2 * 10 ^ sf) - 1) in *.
  replace (Z.log2_up (2 * 10 ^ sf)) with (m + 1) in * by (unfold m; lia).
  pose proof (pow2_le_64 um ltac:(lia)) as PU.
  unfold u64_shl at 1. destruct (Z.ltb_spec um 64); [|lia].
  rewrite Z.shiftl_mul_pow2, Z.mul_1_l by lia.
  rewrite Z.mod_small by (change (2 ^ 64) with 18446744073709551616; change (2 ^ 63) with 9223372036854775808 in *; lia).
  cbn [bind]. unfold u64_sub at 1. rewrite in_range_ok by (unfold u64_max; change (2 ^ 63) with 9223372036854775808 in *; lia).
  cbn [bind]. unfold u8_sub at 1. rewrite in_range_ok by (unfold u8_max; lia). cbn [bind].
  unfold u32_shl. destruct (Z.ltb_spec (m + 1) 32); [|lia].
  rewrite Z.shiftl_mul_pow2, Z.mul_1_l by lia.
  assert (PM : 2 <= 2 ^ (m + 1) <= 262144).
  { split. - change 2 with (2 ^ 1) at 1. apply Z.pow_le_mono_r; lia.
    - change 262144 with (2 ^ 18). apply Z.pow_le_mono_r; lia. }
  rewrite Z.mod_small by (change (2 ^ 32) with 4294967296; lia).
  cbn [bind]. unfold u8_add. rewrite in_range_ok by (unfold u8_max; lia). cbn [bind].
  destruct (Z.ltb_spec 63 (um + (m + 1))) as [|FIT]; auto.
  unfold u64_sub. rewrite in_range_ok by (unfold u64_max; lia). cbn [bind].
  assert (PMU : 2 ^ (m + 1) * 2 ^ um <= 2 ^ 63).
  { rewrite <- Z.pow_add_r by lia. apply Z.pow_le_mono_r; lia. }
  unfold u64_shl. rewrite Z.shiftl_mul_pow2 by lia.
  rewrite Z.mod_small by (change (2 ^ 64) with 18446744073709551616; change (2 ^ 63) with 9223372036854775808 in *; nia).
  destruct (Z.ltb_spec um 64); [|lia].
  cbn [bind]. unfold u8_sub. rewrite in_range_ok by (unfold u8_max; lia). cbn [bind].
  rewrite in_range_ok by (unfold u8_max; lia). cbn [bind].
  replace (2 ^ (m + 1) / 2) with (2 ^ m).
  2: { rewrite Z.pow_add_r by lia. change (2 ^ 1) with 2. rewrite Z.div_mul by lia. reflexivity. }
  replace (64 - um - (m + 1)) with (63 - um - m) by lia. replace (m + 1 - 1) with m by lia.
  specialize (CC ltac:(lia)).
  pose proof (fresh_wf T (2 ^ um) u64_max sf ltac:(change (2 ^ 63) with 9223372036854775808 in *; unfold u64, u64_max; lia) ltac:(unfold u64, u64_max; lia) ltac:(unfold u8_max; lia) CC) as W.
  pose proof (w_cfg _ W) as C. set (k := fresh T (2 ^ um) u64_max sf) in *.
  assert (KU : h_um k = um) by (unfold k, fresh; cbn zeta; hsimp; apply log2_floor_pow; lia).
  assert (KM : h_half_mag k = m) by reflexivity.
  unfold resize, u64_mul. hsimp. rewrite in_range_ok by (unfold u64_max in *; lia). cbn [bind]. rewrite assert_true by lia. cbn [bind].
  match goal with |- context [buckets_to_cover ?h0 hi] => assert (EB : buckets_to_cover h0 hi = buckets_to_cover k hi) end.
  { unfold buckets_to_cover. hsimp. rewrite KU. reflexivity. }
  rewrite EB. rewrite (buckets_to_cover_ok k C hi) by (unfold u64; lia). cbn [bind]. rewrite KU, KM.
  assert (HB : 0 <= bkt um m hi <= 64). { pose proof (bkt_bound k C hi ltac:(unfold u64; lia)) as BB. rewrite KU, KM in BB. pose proof (bkt_nonneg um m hi). lia. }
  match goal with |- context [num_bins ?h0 ?b] => assert (EN : num_bins h0 b = num_bins k b) by reflexivity end.
  rewrite EN, (num_bins_ok k C) by lia. cbn [bind]. rewrite KM. reflexivity.
Qed.

Lemma classes_same h k : h_um h = h_um k -> h_mask h = h_mask k -> h_lzb h = h_lzb k -> same_classes h k.
Proof.
  intros A B C v. assert (BF : forall x, bucket_for h x = bucket_for k x) by (intros x; unfold bucket_for; rewrite B, C; reflexivity).
  assert (LE : forall x, lowest_equivalent h x = lowest_equivalent k x).
  { intros x. unfold lowest_equivalent. rewrite BF. destruct (bucket_for k x); cbn [bind]; auto. unfold sub_bucket_for, value_from_loc. rewrite A. reflexivity. }
  assert (ER : forall x, equivalent_range h x = equivalent_range k x) by (intros x; unfold equivalent_range; rewrite BF, A; reflexivity).
  assert (NN : forall x, next_non_equivalent h x = next_non_equivalent k x) by (intros x; unfold next_non_equivalent; rewrite LE, ER; reflexivity).
  repeat split; auto.
  - unfold highest_equivalent. rewrite NN. reflexivity.
  - unfold median_equivalent. rewrite LE, ER. reflexivity.
  - intros w. unfold equivalent. rewrite !LE. reflexivity.
Qed.

(** ** C79.  With a correctly rounded logarithm, the constructor as written (binary64 arithmetic, the
    logarithm of the C library) gives what the other theorems are about, for all parameters *)
Lemma C79_rounded_proof : forall log2, rounded_log2 log2 -> forall T lo hi sf, is_u64 lo -> is_u64 hi -> is_u8 sf ->
  new_with_bounds_libm log2 T lo hi sf = new_with_bounds T lo hi sf.
Proof.
  intros lg G T lo hi sf L H S. unfold is_u64, is_u8 in *. apply same_magnitudes; [| |lia].
  - intros LL _ _. apply rounded_unit; auto. unfold u64_max in *. lia.
  - apply rounded_digits; auto.
Qed.

(*EX
Example ex_C79_rounded : rounded_log2 nearest_log2 /\ exists h, new_with_bounds U64 (2 ^ 49 - 1) (2 ^ 60) 1 = Ret (ROk h) /\ equivalent h (low h) 0 = Ret true.
Proof. split; [exact nearest_rounded|]. eexists. split; [vm_compute; reflexivity|vm_compute; reflexivity]. Qed.
EX*)
(** ... and so it does with every logarithm that is close to the true one, exact on powers of two and
    monotone, unless [lo] is above 2^40 *)
Lemma C79_any_log2_proof : forall log2, good_log2 log2 -> forall T lo hi sf, is_u64 lo -> is_u64 hi -> is_u8 sf -> lo <= 2 ^ 40 ->
  new_with_bounds_libm log2 T lo hi sf = new_with_bounds T lo hi sf.
Proof.
  intros lg G T lo hi sf L H S B. unfold is_u64, is_u8 in *. apply same_magnitudes; [| |lia].
  - intros LL _ _. rewrite log2_floor_f64_small by lia. destruct (good_unit lg G lo LL) as [E|(_ & E0 & E1 & E2)]; auto. exfalso.
    set (e := Z.log2 lo + 1) in *. assert (E41 : 41 <= e). { assert (40 < e); [|lia]. apply (Z.pow_lt_mono_r_iff 2); [lia|lia|]. lia. }
    assert (X : 2 ^ e = 2 ^ 40 * 2 ^ (e - 40)) by (rewrite <- Z.pow_add_r by lia; f_equal; lia).
    assert (Y : 2 ^ (e - 40) = 2 * 2 ^ (e - 41)). { replace (e - 40) with (1 + (e - 41)) by lia. rewrite Z.pow_add_r by lia. reflexivity. }
    pose proof (Z.pow_pos_nonneg 2 (e - 41)). lia.
  - apply good_digits; auto.
Qed.

(*EX
Example ex_C79_any_log2 : good_log2 coarse_log2 /\ good_log2 nearest_log2 /\ coarse_log2 (f64_of_u64 (2 ^ 48 - 1)) = f64_of_u64 48 /\
  exists h, new_with_bounds U64 (2 ^ 40 - 1) (2 ^ 60) 1 = Ret (ROk h) /\ equivalent h (low h) 0 = Ret false.
Proof.
  split; [exact coarse_good|]. split; [exact (rounded_is_good _ nearest_rounded)|]. split; [exact coarse_48|].
  eexists. split; [vm_compute; reflexivity|vm_compute; reflexivity].
Qed.
EX*)
(** the same for [new] and [new_with_max] *)
Lemma C79_default_low_proof : forall log2, good_log2 log2 -> forall T hi sf, is_u64 hi -> is_u8 sf ->
  new_with_max_libm log2 T hi sf = new_with_max T hi sf /\ new_libm log2 T sf = new T sf.
Proof.
  intros lg G T hi sf H S. unfold new_with_max_libm, new_with_max, new_libm, new.
  rewrite !(C79_any_log2_proof lg G) by (auto || (unfold is_u64, u64_max; lia) || lia). auto.
Qed.

(*EX
Example ex_C79_default_low : good_log2 coarse_log2 /\ exists h, new U64 2 = Ret (ROk h) /\ sigfig h = 2.
Proof. split; [exact coarse_good|]. eexists. split; [vm_compute; reflexivity|vm_compute; reflexivity]. Qed.
EX*)
(** for every [lo]: the constructor does not panic, and where its answer depends on the logarithm's last
    bits, [lo] is below a power of two by less than one part in 2^40, and the classes are those of a
    histogram whose [low] is that power of two or half of it *)
Lemma C79_every_low_proof : forall log2, good_log2 log2 -> forall T lo hi sf, is_u64 lo -> is_u64 hi -> is_u8 sf ->
  new_with_bounds_libm log2 T lo hi sf = new_with_bounds T lo hi sf \/
  exists e, 0 <= e /\ lo < 2 ^ e /\ (2 ^ e - lo) * 2 ^ 40 < 2 ^ e /\
    (new_with_bounds_libm log2 T lo hi sf = Ret (RErr CannotRepresentSigFigBeyondLow) \/
     exists h k, new_with_bounds_libm log2 T lo hi sf = Ret (ROk h) /\ low h = lo /\ high h = hi /\ sigfig h = sf /\
       reachable k /\ (low k = 2 ^ e \/ low k = 2 ^ (e - 1)) /\ sigfig k = sf /\ same_classes h k).
Proof.
  intros lg G T lo hi sf L H S. unfold is_u64, is_u8 in *.
  destruct (Z.ltb_spec lo 1) as [X1|X1]. { left. apply same_magnitudes; [lia|apply good_digits; auto|lia]. }
  destruct (Z.ltb_spec (u64_max / 2) lo) as [X2|X2]. { left. apply same_magnitudes; [lia|apply good_digits; auto|lia]. }
  set (u := f64_to_u8 (f64_floor (lg (f64_of_u64 lo)))).
  destruct (Z.eq_dec u (log2_floor_f64 lo)) as [E|N].
  { left. apply same_magnitudes; [auto|apply good_digits; auto|lia]. }
  assert (L64 : 1 <= lo <= u64_max) by (unfold u64_max in *; lia).
  pose proof (good_unit lg G lo ltac:(lia)) as GU. fold u in GU. cbn zeta in GU.
  pose proof (log2_floor_f64_bounds lo L64) as MB.
  assert (K62 : 0 <= Z.log2 lo <= 62).
  { split; [apply Z.log2_nonneg|]. assert (Z.log2 lo < 63)%Z; [|lia]. apply Z.log2_lt_pow2; [lia|]. change (2 ^ 63)%Z with 9223372036854775808%Z. change (u64_max / 2)%Z with 9223372036854775807%Z in X2. lia. }
  set (k0 := Z.log2 lo) in *.
  assert (NR : near lo (k0 + 1)).
  { destruct GU as [GU|[_ GU]]; auto.
    destruct (good_unit nearest_log2 (rounded_is_good _ nearest_rounded) lo ltac:(lia)) as [Q|[_ Q]]; auto.
    rewrite (rounded_unit _ nearest_rounded lo L64) in Q. exfalso. apply N. rewrite GU. symmetry. exact Q. }
  destruct NR as (_ & N1 & N2).
  destruct (Z.leb_spec (2 * lo) hi) as [X3|X3]. 2: { left. apply same_magnitudes; [lia|apply good_digits; auto|lia]. }
  destruct (Z.leb_spec sf 5) as [X4|X4]. 2: { left. apply same_magnitudes; [lia|apply good_digits; auto|lia]. }
  right. exists (k0 + 1). split; [lia|]. split; [auto|]. split; [auto|].
  destruct (other_unit lg T u lo hi sf) as [OU CC]; auto; try (unfold is_u64; lia); try (apply good_digits; auto; lia).
  rewrite OU. destruct (Z.ltb_spec 63 (u + Z.log2_up (2 * 10 ^ sf))) as [F|F]; [left; auto|right].
  specialize (CC F). exists (fresh_at T u lo hi sf), (fresh T (2 ^ u) u64_max sf).
  assert (U62 : 0 <= u <= 62). { pose proof (scm_table_ok sf ltac:(lia)) as ST. pose proof (scm_table_range sf) as SR. lia. }
  assert (P62 : 1 <= 2 ^ u <= 2 ^ 62) by (split; [pose proof (Z.pow_pos_nonneg 2 u); lia|apply Z.pow_le_mono_r; lia]). change (2 ^ 62) with 4611686018427387904 in *.
  split; [auto|]. split; [auto|]. split; [auto|]. split; [auto|]. split.
  { apply (reach_new_with_bounds T (2 ^ u) u64_max sf); unfold is_u64, is_u8, u64_max in *; try lia.
    rewrite new_with_bounds_ok by (unfold u64, u64_max, u8_max in *; lia). unfold u64_max in CC. rewrite CC. reflexivity. }
  split. { change (low (fresh T (2 ^ u) u64_max sf)) with (2 ^ u). destruct GU as [->|[-> _]]; [right; f_equal; lia|left; auto]. }
  split; [auto|]. apply classes_same; unfold fresh, fresh_at; cbn zeta; hsimp; rewrite log2_floor_pow by lia; reflexivity.
Qed.
(*EX
Example ex_C79_every_low : good_log2 coarse_log2 /\ 2 ^ 48 - 1 < 2 ^ 48 /\ (2 ^ 48 - (2 ^ 48 - 1)) * 2 ^ 40 < 2 ^ 48 /\
  exists h, new_with_bounds_libm coarse_log2 U64 (2 ^ 48 - 1) (2 ^ 50) 0 = Ret (ROk h) /\ equivalent_range h 0 = Ret (2 ^ 48).
Proof.
  split; [exact coarse_good|]. split; [lia|]. split; [lia|]. eexists. split; [exact coarse_built|vm_compute; reflexivity].
Qed.
EX*)
(** *)
Lemma built_48 lg : f64_to_u8 (f64_floor (lg (f64_of_u64 (2 ^ 48 - 1)))) = 48 ->
  f64_to_u8 (f64_ceil (lg (f64_of_u64 (2 * 10 ^ 0)))) = Z.log2_up (2 * 10 ^ 0) ->
  new_with_bounds_libm lg U64 (2 ^ 48 - 1) (2 ^ 50) 0 = Ret (ROk (fresh_at U64 48 (2 ^ 48 - 1) (2 ^ 50) 0)).
Proof.
  intros A B. destruct (other_unit lg U64 48 (2 ^ 48 - 1) (2 ^ 50) 0) as [E _]; auto; try (change (u64_max / 2) with 9223372036854775807; unfold is_u64, u64_max; lia).
Qed.
Lemma coarse_built : new_with_bounds_libm coarse_log2 U64 (2 ^ 48 - 1) (2 ^ 50) 0 = Ret (ROk (fresh_at U64 48 (2 ^ 48 - 1) (2 ^ 50) 0)).
Proof. apply built_48; [exact coarse_unit|apply good_digits; [apply coarse_good|lia]]. Qed.
Lemma coarse_48 : coarse_log2 (f64_of_u64 (2 ^ 48 - 1)) = f64_of_u64 48.
Proof.
  destruct (of_u64_domain (2 ^ 48 - 1) ltac:(unfold u64_max; lia)) as [D E]. rewrite rne_IZR in E by lia. rewrite minus_IZR in E. change (IZR (2 ^ 48)) with (bpow radix2 48) in E.
  unfold coarse_log2. rewrite E. rewrite Rle_bool_true, Rlt_bool_true; [reflexivity|lra|].
  rewrite Rmult_minus_distr_l, <- bpow_plus. change (48 + -42)%Z with 6%Z. change (bpow radix2 6) with 64%R. lra.
Qed.
(** the bound on [lo] is needed: whether [low] is told apart from 0 can depend on the library.  With one
    admissible logarithm a histogram with [low] = 2^48 - 1 puts [low] into the class of 0, with the correctly
    rounded one it does not *)
Lemma C79_library_matters_refuted_proof : exists log2 h k, good_log2 log2 /\
  new_with_bounds_libm log2 U64 (2 ^ 48 - 1) (2 ^ 50) 0 = Ret (ROk h) /\
  new_with_bounds_libm nearest_log2 U64 (2 ^ 48 - 1) (2 ^ 50) 0 = Ret (ROk k) /\ good_log2 nearest_log2 /\
  equivalent h (2 ^ 48 - 1) 0 = Ret true /\ equivalent k (2 ^ 48 - 1) 0 = Ret false.
Proof.
  assert (E : exists k, new_with_bounds U64 (2 ^ 48 - 1) (2 ^ 50) 0 = Ret (ROk k) /\ equivalent k (2 ^ 48 - 1) 0 = Ret false) by (eexists; split; [vm_compute; reflexivity|vm_compute; reflexivity]).
  destruct E as (k & E1 & E2).
  exists coarse_log2, (fresh_at U64 48 (2 ^ 48 - 1) (2 ^ 50) 0), k. split; [exact coarse_good|]. split; [exact coarse_built|]. split.
  { rewrite (C79_rounded_proof nearest_log2 nearest_rounded); auto; unfold is_u64, is_u8, u64_max, u8_max; lia. }
  split; [exact (rounded_is_good _ nearest_rounded)|]. split; [vm_compute; reflexivity|auto].
Qed.
