(** * Facts about the constructor with the C library's logarithm as a parameter *)
From Coq Require Import ZArith Reals Lra Lia.
From Flocq Require Import Core IEEE754.BinarySingleNaN.
From Verif Require Import Machine Log2Model HistModel Spec Reach Bins ListZ Log2Facts Cfg Wf FloatModel FloatSpec FloatFacts Log2Spec LibmModel LibmSpec.
From Coq Require Import ZifyBool.
Local Open Scope R_scope.

Lemma floor_to_u8 x : is_finite x = true -> f64_to_u8 (f64_floor x) = Z.max 0 (Z.min u8_max (Zfloor (B2R x))).
Proof.
  intros F. unfold f64_to_u8, f64_floor. destruct (Bnearbyint_correct 53 1024 prec_lt_emax_64 mode_DN x) as (A & B & _).
  change (round_mode mode_DN) with Zfloor in A. rewrite round_FIX_IZR in A.
  pose proof (Btrunc_correct 53 1024 prec_lt_emax_64 (Bnearbyint mode_DN x)) as T. rewrite A, round_FIX_IZR in T.
  apply eq_IZR in T. rewrite Ztrunc_IZR in T. unfold f64_to_uint. rewrite F in B.
  change (@Bnearbyint 53 1024 _ mode_DN x) with (@Bnearbyint 53 1024 prec_lt_emax_64 mode_DN x).
  destruct (Bnearbyint mode_DN x) eqn:E; cbn [is_finite] in B; try discriminate; rewrite T; reflexivity.
Qed.
Lemma ceil_to_u8 x : is_finite x = true -> f64_to_u8 (f64_ceil x) = Z.max 0 (Z.min u8_max (Zceil (B2R x))).
Proof.
  intros F. unfold f64_to_u8, f64_ceil. destruct (Bnearbyint_correct 53 1024 prec_lt_emax_64 mode_UP x) as (A & B & _).
  change (round_mode mode_UP) with Zceil in A. rewrite round_FIX_IZR in A.
  pose proof (Btrunc_correct 53 1024 prec_lt_emax_64 (Bnearbyint mode_UP x)) as T. rewrite A, round_FIX_IZR in T.
  apply eq_IZR in T. rewrite Ztrunc_IZR in T. unfold f64_to_uint. rewrite F in B.
  change (@Bnearbyint 53 1024 _ mode_UP x) with (@Bnearbyint 53 1024 prec_lt_emax_64 mode_UP x).
  destruct (Bnearbyint mode_UP x) eqn:E; cbn [is_finite] in B; try discriminate; rewrite T; reflexivity.
Qed.

Lemma of_u64_domain n : (1 <= n <= u64_max)%Z -> in_domain (f64_of_u64 n) /\ real_of (f64_of_u64 n) = rne (IZR n).
Proof.
  intros N. destruct (of_u64_ok n ltac:(lia)) as (A & B & _). pose proof (rne_u64 n ltac:(lia)) as U. unfold in_domain, finite, real_of.
  rewrite A. split; auto. split; auto. split; [|lra]. rewrite <- rne_1. apply rne_le. apply IZR_le. lia.
Qed.

Lemma pow2_domain k : (0 <= k <= 63)%Z -> exists y, in_domain y /\ real_of y = bpow radix2 k.
Proof.
  intros K. exists (f64_of_u64 (2 ^ k)). assert (P : (1 <= 2 ^ k <= u64_max)%Z).
  { pose proof (Z.pow_pos_nonneg 2 k). assert (2 ^ k <= 2 ^ 63)%Z by (apply Z.pow_le_mono_r; lia). unfold u64_max. lia. }
  destruct (of_u64_domain _ P) as [D E]. split; auto. rewrite E. replace (IZR (2 ^ k)) with (bpow radix2 k) by (rewrite <- IZR_Zpower by lia; reflexivity).
  apply rne_id, gf_bpow. lia.
Qed.
Lemma top_domain : exists y, in_domain y /\ real_of y = bpow radix2 64.
Proof.
  exists (f64_of_u64 u64_max). destruct (of_u64_domain u64_max ltac:(unfold u64_max; lia)) as [D E]. split; auto. rewrite E.
  assert (R : IZR (f64_round_u64 u64_max) = rne (IZR u64_max)) by (apply round_u64_rne; unfold u64_max; lia).
  rewrite <- R. reflexivity.
Qed.

(** what a good logarithm gives between two powers of two *)
Lemma good_between lg (G : good_log2 lg) y k : in_domain y -> (0 <= k <= 63)%Z -> bpow radix2 k <= real_of y <= bpow radix2 (k + 1) ->
  IZR k <= real_of (lg y) <= IZR (k + 1) /\
  (real_of y <= bpow radix2 (k + 1) * (1 - bpow radix2 (-40)) -> real_of (lg y) < IZR (k + 1)).
Proof.
  intros D K B. destruct (pow2_domain k K) as (a & DA & EA).
  assert (exists b, in_domain b /\ real_of b = bpow radix2 (k + 1)) as (b & DB & EB).
  { destruct (Z.eq_dec k 63) as [->|N]; [apply top_domain|apply pow2_domain; lia]. }
  split; [split|].
  - rewrite <- (good_exact lg G a k) by (auto || lia). apply (good_monotone lg G); auto. lra.
  - rewrite <- (good_exact lg G b (k + 1)) by (auto || lia). apply (good_monotone lg G); auto. lra.
  - intros U. destruct (good_near lg G y D) as [_ N]. apply Rabs_def2 in N. destruct N as [N _].
    pose proof ln2_lower as LO. pose proof ln2_upper as UP. assert (L2 : 0 < ln 2) by lra.
    set (e := bpow radix2 (-40)) in *. assert (EP : 0 < e <= / 2).
    { unfold e. split; [apply bpow_gt_0|]. change (/ 2) with (bpow radix2 (-1)). apply bpow_le. lia. }
    assert (YP : 0 < real_of y). { destruct D as [_ D]. lra. }
    assert (L : ln (real_of y) <= IZR (k + 1) * ln 2 - e).
    { apply Rle_trans with (ln (bpow radix2 (k + 1) * (1 - e))).
      - destruct U as [U|U]; [apply Rlt_le, ln_increasing; auto|rewrite U; lra].
      - rewrite ln_mult by (try apply bpow_gt_0; lra). replace (bpow radix2 (k + 1)) with (IZR (2 ^ (k + 1))) by (rewrite <- IZR_Zpower by lia; reflexivity).
        rewrite ln_2pow by lia. pose proof (ln_le_minus e ltac:(lra)). lra. }
    assert (Q : ln (real_of y) / ln 2 <= IZR (k + 1) - e).
    { apply (Rmult_le_reg_r (ln 2)); auto. unfold Rdiv. rewrite Rmult_assoc, Rinv_l by lra. nra. }
    assert (E2 : e = 2 * bpow radix2 (-41)). { unfold e. change (-40)%Z with (1 + -41)%Z. rewrite bpow_plus. reflexivity. }
    pose proof (bpow_gt_0 radix2 (-41)). lra.
Qed.

(** [low] just below the power [2^e] *)
Definition near (lo e : Z) : Prop := (0 <= e <= 63 /\ lo < 2 ^ e /\ (2 ^ e - lo) * 2 ^ 40 < 2 ^ e)%Z.

Lemma rne_between lo : (1 <= lo <= u64_max)%Z -> bpow radix2 (Z.log2 lo) <= rne (IZR lo) <= bpow radix2 (Z.log2 lo + 1).
Proof.
  intros L. pose proof (Z.log2_spec lo ltac:(lia)) as [A B]. pose proof (log2_le_63 lo L) as K.
  rewrite <- (rne_id (bpow radix2 (Z.log2 lo))), <- (rne_id (bpow radix2 (Z.log2 lo + 1))) by (apply gf_bpow; lia).
  split; apply rne_le; rewrite <- IZR_Zpower by lia; apply IZR_le; change (radix2 ^ ?n)%Z with (2 ^ n)%Z; unfold Z.succ in B; lia.
Qed.

Lemma good_unit lg (G : good_log2 lg) lo : (1 <= lo <= u64_max / 2)%Z ->
  let u := f64_to_u8 (f64_floor (lg (f64_of_u64 lo))) in
  u = Z.log2 lo \/ (u = Z.log2 lo + 1 /\ near lo (Z.log2 lo + 1))%Z.
Proof.
  intros L. assert (L64 : (1 <= lo <= u64_max)%Z) by (unfold u64_max in *; lia).
  destruct (of_u64_domain lo L64) as [D E]. pose proof (rne_between lo L64) as B. rewrite <- E in B.
  pose proof (log2_le_63 lo L64) as K.
  assert (K62 : (Z.log2 lo <= 62)%Z). { assert (Z.log2 lo < 63)%Z; [|lia]. apply Z.log2_lt_pow2; [lia|]. change (2 ^ 63)%Z with 9223372036854775808%Z. change (u64_max / 2)%Z with 9223372036854775807%Z in L. lia. }
  destruct (good_between lg G _ _ D K B) as [[B1 B2] B3]. destruct (good_near lg G _ D) as [F _].
  cbn zeta. rewrite floor_to_u8 by exact F. fold (real_of (lg (f64_of_u64 lo))). set (k := Z.log2 lo) in *.
  assert (Z1 : (k <= Zfloor (real_of (lg (f64_of_u64 lo))))%Z) by (apply Zfloor_lub; auto).
  assert (Z2 : (Zfloor (real_of (lg (f64_of_u64 lo))) <= k + 1)%Z). { rewrite <- (Zfloor_IZR (k + 1)). apply Zfloor_le; auto. }
  assert (D2 : {(Zfloor (real_of (lg (f64_of_u64 lo))) = k)%Z} + {(Zfloor (real_of (lg (f64_of_u64 lo))) = k + 1)%Z}).
  { destruct (Z.eq_dec (Zfloor (real_of (lg (f64_of_u64 lo)))) k); [left; auto|right; lia]. }
  destruct D2 as [EK|EK]; rewrite EK; unfold u8_max; [left; lia|right]. split; [lia|].
  pose proof (Z.log2_spec lo ltac:(lia)) as [_ LS]. fold k in LS. unfold near. split; [lia|]. split; [exact LS|].
  apply Z.nle_gt. intros NN.
  assert (real_of (lg (f64_of_u64 lo)) < IZR (k + 1)).
  { apply B3. rewrite E.
    assert (GF : gf (bpow radix2 (k + 1) * (1 - bpow radix2 (-40)))).
    { replace (bpow radix2 (k + 1) * (1 - bpow radix2 (-40))) with (F2R (Float radix2 (2 ^ 40 - 1) (k + 1 - 40))).
      2: { unfold F2R. cbn [Fnum Fexp]. rewrite minus_IZR. change (k + 1 - 40)%Z with (k + 1 + -40)%Z. rewrite (bpow_plus radix2 (k + 1) (-40)).
           change (bpow radix2 (-40)) with (/ IZR (2 ^ 40)). field. apply not_0_IZR. lia. }
      apply generic_format_FLT. exists (Float radix2 (2 ^ 40 - 1) (k + 1 - 40)); cbn [Fnum Fexp]; auto; [reflexivity|lia]. }
    rewrite <- (rne_id _ GF). apply rne_le.
    change (bpow radix2 (-40)) with (/ IZR (2 ^ 40)). rewrite <- IZR_Zpower by lia. change (radix2 ^ (k + 1))%Z with (2 ^ (k + 1))%Z.
    apply IZR_le in NN. rewrite mult_IZR, minus_IZR in NN. assert (0 < IZR (2 ^ 40)) by (apply IZR_lt; reflexivity).
    apply (Rmult_le_reg_r (IZR (2 ^ 40))); auto. rewrite Rmult_assoc. replace ((1 - / IZR (2 ^ 40)) * IZR (2 ^ 40)) with (IZR (2 ^ 40) - 1) by (field; lra). nra. }
  pose proof (Zfloor_lb (real_of (lg (f64_of_u64 lo)))) as LB. rewrite EK in LB. lra.
Qed.

Lemma good_digits lg (G : good_log2 lg) sf : (0 <= sf <= 5)%Z ->
  f64_to_u8 (f64_ceil (lg (f64_of_u64 (2 * 10 ^ sf)))) = Z.log2_up (2 * 10 ^ sf).
Proof.
  intros S. pose proof ln2_lower as LO. assert (L2 : 0 < ln 2) by lra.
  assert (GEN : forall n k, (0 <= k <= 20)%Z -> (0 < n)%Z -> (2 ^ (4 * k + 1) <= n ^ 4)%Z -> (2 ^ k <= n <= 2 ^ (k + 1))%Z ->
     f64_to_u8 (f64_ceil (lg (f64_of_u64 n))) = (k + 1)%Z).
  { intros n k K NP A B. assert (P22 : (2 ^ (k + 1) <= 2 ^ 21)%Z) by (apply Z.pow_le_mono_r; lia).
    assert (N64 : (1 <= n <= u64_max)%Z) by (unfold u64_max; lia).
    destruct (of_u64_domain n N64) as [D E]. rewrite rne_IZR in E by (rewrite Z.abs_eq by lia; lia).
    destruct (good_near lg G _ D) as [F N]. rewrite ceil_to_u8 by exact F. fold (real_of (lg (f64_of_u64 n))).
    destruct (good_between lg G _ k D ltac:(lia)) as [[B1 B2] _].
    { rewrite E. rewrite <- !IZR_Zpower by lia. change (radix2 ^ ?n)%Z with (2 ^ n)%Z. split; apply IZR_le; lia. }
    assert (NR : 0 < IZR n) by (apply IZR_lt; auto).
    assert (LB : IZR k + / 4 <= ln (IZR n) / ln 2).
    { apply (Rmult_le_reg_r (ln 2)); auto. replace (ln (IZR n) / ln 2 * ln 2) with (ln (IZR n)) by (field; lra). apply (Rmult_le_reg_l 4); [lra|].
      replace (4 * ln (IZR n)) with (ln (IZR (n ^ 4))).
      2: { change (n ^ 4)%Z with (n ^ Z.of_nat 4)%Z. rewrite <- pow_IZR. rewrite ln_pow by auto. cbn; lra. }
      replace (4 * ((IZR k + / 4) * ln 2)) with (ln (IZR (2 ^ (4 * k + 1)))) by (rewrite ln_2pow, plus_IZR, mult_IZR by lia; field).
      apply IZR_le in A. assert (0 < IZR (2 ^ (4 * k + 1))) by (apply IZR_lt, Z.pow_pos_nonneg; lia).
      destruct (Rle_lt_or_eq_dec _ _ A) as [C|C]; [apply Rlt_le, ln_increasing; auto|rewrite C; lra]. }
    rewrite E in N. apply Rabs_def2 in N. destruct N as [_ N].
    assert (bpow radix2 (-41) < / 4). { change (/ 4) with (bpow radix2 (-2)). apply bpow_lt. lia. }
    rewrite (Zceil_imp (k + 1)). { unfold u8_max. lia. }
    replace (k + 1 - 1)%Z with k by lia. split; [lra|auto]. }
  assert (DD : (sf = 0 \/ sf = 1 \/ sf = 2 \/ sf = 3 \/ sf = 4 \/ sf = 5)%Z) by lia.
  destruct DD as [->|[->|[->|[->|[->| ->]]]]].
  - change (2 * 10 ^ 0)%Z with 2%Z. change (Z.log2_up 2) with 1%Z.
    destruct (of_u64_domain 2 ltac:(unfold u64_max; lia)) as [D E]. rewrite (rne_IZR 2) in E by lia.
    destruct (good_near lg G _ D) as [F _]. rewrite ceil_to_u8 by exact F. fold (real_of (lg (f64_of_u64 2))).
    rewrite (good_exact lg G _ 1 D ltac:(lia) E), Zceil_IZR. reflexivity.
  - apply (GEN 20 4)%Z; vm_compute; try split; discriminate || reflexivity.
  - apply (GEN 200 7)%Z; vm_compute; try split; discriminate || reflexivity.
  - apply (GEN 2000 10)%Z; vm_compute; try split; discriminate || reflexivity.
  - apply (GEN 20000 14)%Z; vm_compute; try split; discriminate || reflexivity.
  - apply (GEN 200000 17)%Z; vm_compute; try split; discriminate || reflexivity.
Qed.

Lemma rounded_unit lg : rounded_log2 lg -> forall lo, (1 <= lo <= u64_max)%Z ->
  f64_to_u8 (f64_floor (lg (f64_of_u64 lo))) = log2_floor_f64 lo.
Proof.
  intros G lo L. destruct (of_u64_domain lo L) as [D E]. destruct (G _ D) as [F V]. rewrite floor_to_u8 by exact F.
  fold (real_of (lg (f64_of_u64 lo))). rewrite V, E, <- log2_floor_spec by auto.
  pose proof (log2_floor_f64_bounds lo L). pose proof (log2_le_63 lo L). unfold u8_max. lia.
Qed.
Lemma rounded_digits lg : rounded_log2 lg -> forall sf, (0 <= sf <= 5)%Z ->
  f64_to_u8 (f64_ceil (lg (f64_of_u64 (2 * 10 ^ sf)))) = Z.log2_up (2 * 10 ^ sf).
Proof.
  intros G sf S. assert (P10 : (1 <= 10 ^ sf <= 100000)%Z).
  { split; [pose proof (Z.pow_pos_nonneg 10 sf); lia|]. change 100000%Z with (10 ^ 5)%Z. apply Z.pow_le_mono_r; lia. }
  destruct (of_u64_domain (2 * 10 ^ sf) ltac:(unfold u64_max; lia)) as [D E]. destruct (G _ D) as [F V]. rewrite ceil_to_u8 by exact F.
  fold (real_of (lg (f64_of_u64 (2 * 10 ^ sf)))). rewrite V, E, rne_IZR, <- log2_ceil_spec by (auto || lia).
  pose proof (scm_table_ok sf ltac:(lia)) as ST. pose proof (scm_table_range sf) as SR. unfold u8_max. lia.
Qed.

(** ** A correctly rounded logarithm is a good one *)
Lemma ln_bpow k : (0 <= k)%Z -> ln (bpow radix2 k) / ln 2 = IZR k.
Proof.
  intros K. replace (bpow radix2 k) with (IZR (2 ^ k)) by (rewrite <- IZR_Zpower by lia; reflexivity).
  rewrite ln_2pow by auto. pose proof ln2_lower. field. lra.
Qed.
Lemma ln_le_mono x y : 0 < x -> x <= y -> ln x / ln 2 <= ln y / ln 2.
Proof.
  intros X XY. pose proof ln2_lower. apply Rmult_le_compat_r; [apply Rlt_le, Rinv_0_lt_compat; lra|].
  destruct XY as [XY|XY]; [apply Rlt_le, ln_increasing; auto|rewrite XY; lra].
Qed.
Lemma domain_log y : in_domain y -> 0 <= ln (real_of y) / ln 2 <= 64.
Proof.
  intros [_ [A B]]. rewrite <- (ln_bpow 64) by lia. split; [|apply ln_le_mono; lra].
  rewrite <- (ln_bpow 0) by lia. apply ln_le_mono; [apply bpow_gt_0|exact A].
Qed.

Lemma rounded_is_good lg : rounded_log2 lg -> good_log2 lg.
Proof.
  intros G. constructor.
  - intros y D. destruct (G y D) as [F V]. split; auto. rewrite V. pose proof (domain_log y D) as L. set (x := ln (real_of y) / ln 2) in *.
    apply Rle_lt_trans with (/ 2 * ulp radix2 (FLT_exp (-1074) 53) x).
    + unfold rne. apply error_le_half_ulp; [apply valid_flt64].
    + apply Rle_lt_trans with (/ 2 * ulp radix2 (FLT_exp (-1074) 53) (bpow radix2 6)).
      * apply Rmult_le_compat_l; [lra|]. apply ulp_le; [apply valid_flt64|apply FLT_exp_monotone|]. change (bpow radix2 6) with 64. rewrite !Rabs_pos_eq by lra. lra.
      * rewrite ulp_bpow. change (FLT_exp (-1074) 53 (6 + 1)) with (-46)%Z. change (/ 2) with (bpow radix2 (-1)). rewrite <- bpow_plus. apply bpow_lt. lia.
  - intros y k D K E. destruct (G y D) as [_ V]. rewrite V, E, ln_bpow by auto. apply rne_IZR.
    destruct D as [_ [_ D]]. rewrite E in D. apply le_bpow in D. lia.
  - intros x y DX DY L. destruct (G x DX) as [_ V]. destruct (G y DY) as [_ W]. rewrite V, W. apply rne_le. apply ln_le_mono; auto. destruct DX as [_ DX]. lra.
Qed.

Lemma nearest_rounded : rounded_log2 nearest_log2.
Proof.
  intros y D. pose proof (domain_log y D) as L. unfold nearest_log2. cbn zeta. set (x := ln (real_of y) / ln 2) in *.
  pose proof (rne_gf x) as GX. assert (XB : 0 <= rne x <= 64). { split; [apply rne_nonneg; lra|]. rewrite <- (rne_IZR 64) by lia. apply rne_le. lra. }
  pose proof (binary_normalize_correct 53 1024 prec_gt_0_64 prec_lt_emax_64 mode_NE (Ztrunc (scaled_mantissa radix2 (FLT_exp (-1074) 53) (rne x))) (cexp radix2 (FLT_exp (-1074) 53) (rne x)) false) as N.
  cbn zeta in N. change (round radix2 (SpecFloat.fexp 53 1024) (round_mode mode_NE) ?z) with (rne z) in N.
  unfold generic_format in GX. rewrite <- GX in N. rewrite rne_id in N by (apply rne_gf).
  rewrite Rlt_bool_true in N. 2: { rewrite Rabs_pos_eq by lra. apply Rle_lt_trans with (bpow radix2 6); [exact (proj2 XB)|apply bpow_lt; lia]. }
  destruct N as (A & B & _). split; [exact B|exact A].
Qed.

Lemma coarse_good : good_log2 coarse_log2.
Proof.
  pose proof (rounded_is_good _ nearest_rounded) as G. pose proof ln2_lower as LO. pose proof ln2_upper as UP.
  assert (V48 : finite (f64_of_u64 48) /\ real_of (f64_of_u64 48) = 48).
  { destruct (of_u64_ok 48 ltac:(unfold u64_max; lia)) as (A & B & _). split; auto. unfold real_of. rewrite A. apply rne_IZR. lia. }
  destruct V48 as [F48 R48].
  set (e := bpow radix2 (-42)) in *. assert (EP : 0 < e <= / 1000000).
  { unfold e. split; [apply bpow_gt_0|]. apply Rle_trans with (bpow radix2 (-20)); [apply bpow_le; lia|]. change (bpow radix2 (-20)) with (/ 1048576). lra. }
  assert (E2 : bpow radix2 (-41) = 2 * e). { unfold e. change (-41)%Z with (1 + -42)%Z. rewrite bpow_plus. reflexivity. }
  pose proof (bpow_gt_0 radix2 48) as P48.
  assert (D48 : exists b, in_domain b /\ real_of b = bpow radix2 48) by (apply pow2_domain; lia). destruct D48 as (b & DB & EB).
  assert (NB : real_of (nearest_log2 b) = 48) by (apply (good_exact _ G b 48 DB ltac:(lia) EB)).
  assert (CASE : forall y, (bpow radix2 48 * (1 - e) <= real_of y < bpow radix2 48 /\ coarse_log2 y = f64_of_u64 48) \/
     ((real_of y < bpow radix2 48 * (1 - e) \/ bpow radix2 48 <= real_of y) /\ coarse_log2 y = nearest_log2 y)).
  { intros y. unfold coarse_log2. fold e. destruct (Rle_bool_spec (bpow radix2 48 * (1 - e)) (real_of y)) as [A|A]; cbn [andb]; [|right; auto].
    destruct (Rlt_bool_spec (real_of y) (bpow radix2 48)) as [B|B]; [left; auto|right; auto]. }
  constructor.
  - intros y D. destruct (CASE y) as [[B ->]|[_ ->]]; [|apply (good_near _ G); auto]. split; auto. rewrite R48.
    assert (YP : 0 < real_of y) by (destruct D as [_ D]; lra).
    assert (L : 48 * ln 2 - e - 2 * e * e <= ln (real_of y) < 48 * ln 2).
    { rewrite <- (ln_2pow 48) by lia. change (IZR (2 ^ 48)) with (bpow radix2 48). split; [|apply ln_increasing; lra].
      apply Rle_trans with (ln (bpow radix2 48 * (1 - e))).
      - rewrite ln_mult by lra. pose proof (ln_ge_minus e ltac:(lra)). lra.
      - destruct (proj1 B) as [C|C]; [apply Rlt_le, ln_increasing; nra|rewrite C; lra]. }
    rewrite Rabs_pos_eq. 2: { assert (ln (real_of y) / ln 2 <= 48); [|lra]. apply (Rmult_le_reg_r (ln 2)); [lra|]. unfold Rdiv. rewrite Rmult_assoc, Rinv_l by lra. lra. }
    rewrite E2. assert (48 - 2 * e < ln (real_of y) / ln 2); [|lra]. apply (Rmult_lt_reg_r (ln 2)); [lra|]. unfold Rdiv. rewrite Rmult_assoc, Rinv_l by lra. nra.
  - intros y k D K E. destruct (CASE y) as [[B ->]|[_ ->]]; [|apply (good_exact _ G); auto]. exfalso. rewrite E in B.
    assert (k < 48)%Z by (apply (lt_bpow radix2); lra). assert (bpow radix2 k <= bpow radix2 47) by (apply bpow_le; lia).
    assert (bpow radix2 48 = 2 * bpow radix2 47) by (change 48%Z with (1 + 47)%Z; rewrite bpow_plus; reflexivity). nra.
  - intros x y DX DY L. destruct (CASE x) as [[BX ->]|[BX ->]]; destruct (CASE y) as [[BY ->]|[BY ->]]; try lra.
    + rewrite R48, <- NB. apply (good_monotone _ G); auto. destruct BY as [BY|BY]; lra.
    + rewrite R48, <- NB. apply (good_monotone _ G); auto. destruct BX as [BX|BX]; lra.
    + apply (good_monotone _ G); auto.
Qed.
Lemma coarse_unit : f64_to_u8 (f64_floor (coarse_log2 (f64_of_u64 (2 ^ 48 - 1)))) = 48%Z.
Proof.
  destruct (of_u64_domain (2 ^ 48 - 1) ltac:(unfold u64_max; lia)) as [D E]. rewrite rne_IZR in E by lia. rewrite minus_IZR in E. change (IZR (2 ^ 48)) with (bpow radix2 48) in E.
  unfold coarse_log2. rewrite E. rewrite Rle_bool_true, Rlt_bool_true; [reflexivity|lra|].
  rewrite Rmult_minus_distr_l, <- bpow_plus. change (48 + -42)%Z with 6%Z. change (bpow radix2 6) with 64. lra.
Qed.
