(** * Relative errors of sums, products and quotients of non-negative numbers *)
From Coq Require Import ZArith Reals Lia Lra Bool List.
From Flocq Require Import Core Relative IEEE754.BinarySingleNaN.
From Verif Require Import Machine FloatModel FloatSpec FloatFacts StatSpec QuantStep.
Local Open Scope R_scope.

Notation uu := (bpow radix2 (-53)).
Lemma uu_small : 0 < uu <= / 8.
Proof. split; [apply b2_pos|]. change (/ 8) with (b2 (-3)). apply b2_le. lia. Qed.

(** no underflow: zero or at least the smallest normal number *)
Definition norm (x : R) : Prop := x = 0 \/ b2 (-1022) <= x.

Lemma lo_pow n : 0 < (1 - uu) ^ n <= 1.
Proof. pose proof uu_small. induction n as [|n IH]; cbn [pow]; [lra|]. nra. Qed.
Lemma hi_pow n : 1 <= (1 + uu) ^ n.
Proof. pose proof uu_small. induction n as [|n IH]; cbn [pow]; [lra|]. nra. Qed.
Lemma lo_pow_mono n m : (n <= m)%nat -> (1 - uu) ^ m <= (1 - uu) ^ n.
Proof. intros L. replace m with (n + (m - n))%nat by lia. rewrite pow_add. pose proof (lo_pow n). pose proof (lo_pow (m - n)). nra. Qed.
Lemma hi_pow_mono n m : (n <= m)%nat -> (1 + uu) ^ n <= (1 + uu) ^ m.
Proof. intros L. replace m with (n + (m - n))%nat by lia. rewrite pow_add. pose proof (hi_pow n). pose proof (hi_pow (m - n)). nra. Qed.

Lemma within_self y : within 0 y y. Proof. unfold within; cbn [pow]; lra. Qed.
Lemma within_nonneg n x y : 0 <= y -> within n x y -> 0 <= x.
Proof. intros Y [A _]. pose proof (lo_pow n). apply Rle_trans with (2 := A). apply Rmult_le_pos; lra. Qed.
Lemma within_mono n m x y : 0 <= y -> (n <= m)%nat -> within n x y -> within m x y.
Proof.
  intros Y L [A B]. pose proof (lo_pow_mono n m L). pose proof (hi_pow_mono n m L). split.
  - apply Rle_trans with (2 := A). apply Rmult_le_compat_r; auto.
  - apply Rle_trans with (1 := B). apply Rmult_le_compat_r; auto.
Qed.
Lemma within_add n x y x' y' : within n x y -> within n x' y' -> within n (x + x') (y + y').
Proof. intros [A B] [A' B']. split; rewrite Rmult_plus_distr_l; lra. Qed.
Lemma within_mul n m x y x' y' : 0 <= y -> 0 <= y' -> within n x y -> within m x' y' -> within (n + m) (x * x') (y * y').
Proof.
  intros Y Y' W W'. pose proof (within_nonneg _ _ _ Y W). pose proof (within_nonneg _ _ _ Y' W'). destruct W as [A B]. destruct W' as [A' B'].
  pose proof (lo_pow n). pose proof (lo_pow m). unfold within. rewrite !pow_add. split.
  - replace ((1 - uu) ^ n * (1 - uu) ^ m * (y * y')) with (((1 - uu) ^ n * y) * ((1 - uu) ^ m * y')) by ring. apply Rmult_le_compat; auto; apply Rmult_le_pos; lra.
  - replace ((1 + uu) ^ n * (1 + uu) ^ m * (y * y')) with (((1 + uu) ^ n * y) * ((1 + uu) ^ m * y')) by ring. apply Rmult_le_compat; auto.
Qed.
Lemma within_inv x y : 0 < y -> within 1 x y -> within 2 (/ x) (/ y).
Proof.
  intros Y [A B]. pose proof uu_small as U. cbn [pow] in A, B. rewrite Rmult_1_r in A, B. assert (X : 0 < x) by nra. assert (IY : 0 < / y) by (apply Rinv_0_lt_compat; auto).
  unfold within. cbn [pow]. rewrite !Rmult_1_r. split; apply (Rmult_le_reg_r x); auto; rewrite Rinv_l by lra.
  - apply Rle_trans with ((1 - uu) * (1 - uu) * / y * ((1 + uu) * y)).
    + apply Rmult_le_compat_l; [|auto]. apply Rmult_le_pos; [nra|lra].
    + replace ((1 - uu) * (1 - uu) * / y * ((1 + uu) * y)) with ((1 - uu) * (1 - uu) * (1 + uu)) by (field; lra). nra.
  - apply Rle_trans with ((1 + uu) * (1 + uu) * / y * ((1 - uu) * y)).
    + replace ((1 + uu) * (1 + uu) * / y * ((1 - uu) * y)) with ((1 + uu) * (1 + uu) * (1 - uu)) by (field; lra). nra.
    + apply Rmult_le_compat_l; [|auto]. apply Rmult_le_pos; [nra|lra].
Qed.
Lemma rne_rel x : norm x -> within 1 (rne x) x.
Proof.
  intros [->|N]; [rewrite rne_0; unfold within; cbn [pow]; lra|]. pose proof (b2_pos (-1022)) as P.
  destruct (relative_error_N_FLT_ex radix2 (-1074) 53 eq_refl (fun x => negb (Z.even x)) x) as (e & E & R). { rewrite Rabs_pos_eq by lra. exact N. }
  unfold rne. rewrite R. replace (/ 2 * b2 (- (53) + 1)) with uu in E by (cbn; lra). apply Rabs_le_inv in E. unfold within. cbn [pow]. rewrite !Rmult_1_r. split; nra.
Qed.
Lemma within_rne n x y : 0 <= y -> norm x -> within n x y -> within (S n) (rne x) y.
Proof.
  intros Y N W. pose proof (within_nonneg _ _ _ Y W) as X. destruct (rne_rel x N) as [A B]. destruct W as [C D]. pose proof uu_small. cbn [pow] in A, B. rewrite Rmult_1_r in A, B.
  unfold within. cbn [pow]. split.
  - apply Rle_trans with (2 := A). rewrite Rmult_assoc. apply Rmult_le_compat_l; lra.
  - apply Rle_trans with (1 := B). rewrite Rmult_assoc. apply Rmult_le_compat_l; lra.
Qed.
Lemma within_sqrt n x y : 0 <= y -> within n x y -> within n (sqrt x) (sqrt y).
Proof.
  intros Y W. pose proof (within_nonneg _ _ _ Y W) as X. destruct W as [A B]. pose proof (lo_pow n). pose proof (hi_pow n). pose proof (sqrt_pos y). split.
  - apply Rle_trans with (sqrt ((1 - uu) ^ n * y)); [|apply sqrt_le_1_alt; auto]. rewrite sqrt_mult by lra. apply Rmult_le_compat_r; auto.
    rewrite <- (sqrt_square ((1 - uu) ^ n)) at 1 by lra. apply sqrt_le_1_alt. nra.
  - apply Rle_trans with (sqrt ((1 + uu) ^ n * y)); [apply sqrt_le_1_alt; auto|]. rewrite sqrt_mult by lra. apply Rmult_le_compat_r; auto.
    rewrite <- (sqrt_square ((1 + uu) ^ n)) at 2 by lra. apply sqrt_le_1_alt. nra.
Qed.

(** ** The operations, when nothing overflows *)
Notation fin x := (is_finite x = true).
Lemma mul_ok (a b : f64) : fin a -> fin b -> Rabs (B2R a * B2R b) <= b2 1023 -> fin (f64_mul a b) /\ B2R (f64_mul a b) = rne (B2R a * B2R b).
Proof.
  intros FA FB L. pose proof (Bmult_correct 53 1024 prec_gt_0_64 prec_lt_emax_64 mode_NE a b) as M.
  change (round radix2 (SpecFloat.fexp 53 1024) (round_mode mode_NE) ?x) with (rne x) in M. rewrite small_finite in M by auto.
  destruct M as (X & Y & _). split; [|exact X]. refine (eq_trans Y _). rewrite FA, FB. auto.
Qed.
Lemma plus_ok (a b : f64) : fin a -> fin b -> Rabs (B2R a + B2R b) <= b2 1023 -> fin (f64_add a b) /\ B2R (f64_add a b) = rne (B2R a + B2R b).
Proof.
  intros FA FB L. pose proof (Bplus_correct 53 1024 prec_gt_0_64 prec_lt_emax_64 mode_NE a b FA FB) as M.
  change (round radix2 (SpecFloat.fexp 53 1024) (round_mode mode_NE) ?x) with (rne x) in M. rewrite small_finite in M by auto.
  destruct M as (X & Y & _). split; [exact Y|exact X].
Qed.
Lemma minus_ok (a b : f64) : fin a -> fin b -> Rabs (B2R a - B2R b) <= b2 1023 -> fin (f64_sub a b) /\ B2R (f64_sub a b) = rne (B2R a - B2R b).
Proof.
  intros FA FB L. pose proof (Bminus_correct 53 1024 prec_gt_0_64 prec_lt_emax_64 mode_NE a b FA FB) as M.
  change (round radix2 (SpecFloat.fexp 53 1024) (round_mode mode_NE) ?x) with (rne x) in M. rewrite small_finite in M by auto.
  destruct M as (X & Y & _). split; [exact Y|exact X].
Qed.
Lemma over_ok (a b : f64) : fin a -> B2R b <> 0 -> Rabs (B2R a / B2R b) <= b2 1023 -> fin (f64_div a b) /\ B2R (f64_div a b) = rne (B2R a / B2R b).
Proof.
  intros FA FB L. pose proof (Bdiv_correct 53 1024 prec_gt_0_64 prec_lt_emax_64 mode_NE a b FB) as M.
  change (round radix2 (SpecFloat.fexp 53 1024) (round_mode mode_NE) ?x) with (rne x) in M. rewrite small_finite in M by auto.
  destruct M as (X & Y & _). split; [exact (eq_trans Y FA)|exact X].
Qed.
Lemma sqrt_ok (a : f64) : fin a -> 0 <= B2R a -> fin (f64_sqrt a) /\ B2R (f64_sqrt a) = rne (sqrt (B2R a)).
Proof.
  intros FA L. pose proof (Bsqrt_correct 53 1024 prec_gt_0_64 prec_lt_emax_64 mode_NE a) as M.
  change (round radix2 (SpecFloat.fexp 53 1024) (round_mode mode_NE) ?x) with (rne x) in M. destruct M as (X & Y & _). split; [|exact X].
  refine (eq_trans Y _). destruct a as [s|s| |s m e B]; auto; try discriminate. destruct s; auto. exfalso. cbn in L.
  assert (F2R (Float radix2 (Z.neg m) e) < 0) by (apply F2R_lt_0; reflexivity). unfold F2R in *. cbn in *. lra.
Qed.

(** between powers of two *)
Lemma rne_between e f x : (-1074 <= e)%Z -> (-1074 <= f)%Z -> b2 e <= x <= b2 f -> b2 e <= rne x <= b2 f.
Proof. intros E F X. rewrite <- (rne_id (b2 e)), <- (rne_id (b2 f)) by (apply gf_bpow; auto). split; apply rne_le; lra. Qed.
(** zero, or between two powers of two *)
Definition mid (e f : Z) (x : R) : Prop := x = 0 \/ b2 e <= x <= b2 f.
Lemma mid_nonneg e f x : mid e f x -> 0 <= x <= b2 f.
Proof. intros [->|X]; [pose proof (b2_pos f); lra|]. pose proof (b2_pos e). lra. Qed.
Lemma mid_norm e f x : (-1022 <= e)%Z -> mid e f x -> norm x.
Proof. intros E [->|X]; [left; auto|right]. pose proof (b2_le (-1022) e E). lra. Qed.
Lemma mid_rne e f x : (-1074 <= e)%Z -> (-1074 <= f)%Z -> mid e f x -> mid e f (rne x).
Proof. intros E F [->|X]; [left; apply rne_0|right; apply rne_between; auto]. Qed.
Lemma mid_mul e f x e' f' y : mid e f x -> mid e' f' y -> mid (e + e') (f + f') (x * y).
Proof.
  intros [->|X] [->|Y]; try (left; ring). right. rewrite !b2_split. pose proof (b2_pos e). pose proof (b2_pos e'). split; apply Rmult_le_compat; lra.
Qed.
Lemma mid_inv e f x : b2 e <= x <= b2 f -> b2 (- f) <= / x <= b2 (- e).
Proof. intros X. pose proof (b2_pos e). rewrite <- !b2_inv. split; apply Rinv_le; lra. Qed.
Lemma mid_mono e f e' f' x : (e' <= e)%Z -> (f <= f')%Z -> mid e f x -> mid e' f' x.
Proof. intros E F [->|X]; [left; auto|right]. pose proof (b2_le e' e E). pose proof (b2_le f f' F). lra. Qed.
