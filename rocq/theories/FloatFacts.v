(** * Facts about binary64 arithmetic *)
From Coq Require Import ZArith Reals Lia Lra Bool.
From Flocq Require Import Core IEEE754.BinarySingleNaN.
From Verif Require Import Machine FloatModel FloatSpec.

#[global] Instance valid_flt64 : Valid_exp (FLT_exp (-1074) 53).
Proof. apply FLT_exp_valid. reflexivity. Qed.
Notation gf := (generic_format radix2 (FLT_exp (-1074) 53)).

Lemma rne_le x y : (x <= y -> rne x <= rne y)%R.
Proof. intros H. unfold rne. apply round_le; auto. apply valid_flt64. apply valid_rnd_N. Qed.
Lemma rne_id x : gf x -> rne x = x.
Proof. intros H. unfold rne. apply round_generic; auto. apply valid_rnd_N. Qed.
Lemma rne_gf x : gf (rne x).
Proof. apply generic_format_round; [apply valid_flt64|apply valid_rnd_N]. Qed.
Lemma rne_0 : rne 0 = 0%R. Proof. apply round_0. apply valid_rnd_N. Qed.
Lemma gf_0 : gf 0. Proof. apply generic_format_0. Qed.
Lemma gf_bpow e : (-1074 <= e)%Z -> gf (bpow radix2 e).
Proof. intros H. apply generic_format_FLT_bpow; auto. reflexivity. Qed.
Lemma gf_IZR z : (Z.abs z <= 2 ^ 53)%Z -> gf (IZR z).
Proof.
  intros H. destruct (Z.eq_dec (Z.abs z) (2 ^ 53)) as [E|N].
  - assert (G : gf (IZR (2 ^ 53))). { change (gf (bpow radix2 53)). apply gf_bpow. lia. }
    destruct (Z.abs_eq_or_opp z) as [E2|E2].
    + replace z with (2 ^ 53)%Z by lia. exact G.
    + replace z with (- (2 ^ 53))%Z by lia. rewrite opp_IZR. apply generic_format_opp. exact G.
  - apply generic_format_FLT. exists (Float radix2 z 0); cbn [Fnum Fexp].
    + unfold F2R; cbn. lra.
    + change (radix2 ^ 53)%Z with (2 ^ 53)%Z. lia.
    + lia.
Qed.
Lemma rne_IZR z : (Z.abs z <= 2 ^ 53)%Z -> rne (IZR z) = IZR z.
Proof. intros. apply rne_id, gf_IZR; auto. Qed.
Lemma rne_nonneg x : (0 <= x -> 0 <= rne x)%R.
Proof. intros. rewrite <- rne_0. apply rne_le; auto. Qed.
Lemma rne_1 : rne 1 = 1%R. Proof. apply (rne_IZR 1). lia. Qed.

Lemma gf_B2R (x : f64) : gf (B2R x).
Proof. change (generic_format radix2 (SpecFloat.fexp 53 1024) (B2R x)). apply generic_format_B2R. Qed.

Lemma small_finite x : (Rabs x <= bpow radix2 1023)%R -> Rlt_bool (Rabs (rne x)) (bpow radix2 1024) = true.
Proof.
  intros H. apply Rlt_bool_true. apply Rle_lt_trans with (bpow radix2 1023); [|apply bpow_lt; lia].
  apply Rabs_le. apply Rabs_le_inv in H. split.
  - rewrite <- (rne_id (- bpow radix2 1023)); [apply rne_le; lra|]. apply generic_format_opp, gf_bpow. lia.
  - rewrite <- (rne_id (bpow radix2 1023)); [apply rne_le; lra|]. apply gf_bpow. lia.
Qed.

Lemma bpow_64 : bpow radix2 64 = IZR (2 ^ 64). Proof. reflexivity. Qed.
Lemma IZR_u64 n : (0 <= n <= u64_max)%Z -> (0 <= IZR n <= bpow radix2 64)%R.
Proof. intros H. rewrite bpow_64. split; apply IZR_le; unfold u64_max in H; lia. Qed.
Lemma rne_u64 n : (0 <= n <= u64_max)%Z -> (0 <= rne (IZR n) <= bpow radix2 64)%R.
Proof.
  intros H. apply IZR_u64 in H. split; [apply rne_nonneg; lra|].
  rewrite <- (rne_id (bpow radix2 64)); [apply rne_le; lra|apply gf_bpow; lia].
Qed.

Lemma of_u64_ok n : (0 <= n <= u64_max)%Z -> B2R (f64_of_u64 n) = rne (IZR n) /\ is_finite (f64_of_u64 n) = true /\ Bsign (f64_of_u64 n) = false.
Proof.
  intros H. pose proof (IZR_u64 n H) as I.
  pose proof (binary_normalize_correct 53 1024 prec_gt_0_64 prec_lt_emax_64 mode_NE n 0 false) as N. cbn zeta in N.
  unfold F2R in N. cbn [Fnum Fexp bpow] in N. rewrite Rmult_1_r in N.
  change (round radix2 (SpecFloat.fexp 53 1024) (round_mode mode_NE) (IZR n)) with (rne (IZR n)) in N.
  rewrite small_finite in N.
  - destruct N as (A & B & C). split; [exact A|]. split; [exact B|]. refine (eq_trans C _). destruct (Rcompare_spec (IZR n) 0); auto; lra.
  - rewrite Rabs_pos_eq by lra. apply Rle_trans with (bpow radix2 64); [lra|apply bpow_le; lia].
Qed.
Lemma one_ok : B2R f64_one = 1%R /\ is_finite f64_one = true.
Proof. destruct (of_u64_ok 1) as (A & B & _). { unfold u64_max; lia. } split; auto. unfold f64_one. rewrite A. apply rne_1. Qed.

(** [ceil] then [as u64] *)
Lemma ceil_to_u64 x : is_finite x = true -> f64_to_u64 (f64_ceil x) = Z.max 0 (Z.min u64_max (Zceil (B2R x))).
Proof.
  intros F. unfold f64_to_u64, f64_ceil. destruct (Bnearbyint_correct 53 1024 prec_lt_emax_64 mode_UP x) as (A & B & _).
  change (round_mode mode_UP) with Zceil in A. rewrite round_FIX_IZR in A. 
  pose proof (Btrunc_correct 53 1024 prec_lt_emax_64 (Bnearbyint mode_UP x)) as T. rewrite A, round_FIX_IZR in T.
  apply eq_IZR in T. rewrite Ztrunc_IZR in T. unfold f64_to_uint. rewrite F in B.
  change (@Bnearbyint 53 1024 _ mode_UP x) with (@Bnearbyint 53 1024 prec_lt_emax_64 mode_UP x).
  destruct (Bnearbyint mode_UP x) eqn:E; cbn [is_finite] in B; try discriminate; rewrite T; reflexivity.
Qed.
Lemma SF_inf (x : f64) s : B2SF x = SpecFloat.S754_infinity s -> x = B754_infinity s.
Proof. destruct x; cbn; intros E; try discriminate. injection E as ->. reflexivity. Qed.

(** ** The rank computed by [value_at_quantile] *)
Lemma mul_rank q n : (0 <= n <= u64_max)%Z -> is_finite q = true -> (B2R q <= 1)%R ->
  (let c := f64_to_u64 (f64_ceil (f64_mul q (f64_of_u64 n))) in if c =? 0 then 1 else c)%Z = rank_of (B2R q) n.
Proof.
  intros N F L. destruct (of_u64_ok n N) as (A & B & C). pose proof (rne_u64 n N) as U.
  pose proof (Bmult_correct 53 1024 prec_gt_0_64 prec_lt_emax_64 mode_NE q (f64_of_u64 n)) as M.
  change (round radix2 (SpecFloat.fexp 53 1024) (round_mode mode_NE) ?x) with (rne x) in M. rewrite A in M.
  cbn zeta. unfold rank_of. set (x := (B2R q * rne (IZR n))%R) in *.
  destruct (Rlt_bool (Rabs (rne x)) (bpow radix2 1024)) eqn:E.
  - destruct M as (M1 & M2 & _). rewrite F, B in M2. cbn in M2.
    unfold f64_mul. rewrite ceil_to_u64; [|exact M2]. change (@B2R 53 1024 ?y) with (B2R y).
    match goal with |- context [B2R ?y] => replace (B2R y) with (rne x) by (symmetry; exact M1) end.
    destruct (Z.eqb_spec (Z.max 0 (Z.min u64_max (Zceil (rne x)))) 0); unfold u64_max in *; lia.
  - (* overflow: only downwards *)
    assert (XN : (x < - bpow radix2 1023)%R).
    { apply Rnot_le_lt. intros G. rewrite small_finite in E; [discriminate|]. apply Rabs_le. split; auto. unfold x.
      apply Rle_trans with (bpow radix2 64); [|apply bpow_le; lia]. nra. }
    assert (QN : (B2R q < 0)%R).
    { apply Rnot_le_lt. intros G. unfold x in XN. pose proof (bpow_gt_0 radix2 1023). pose proof (Rmult_le_pos _ _ G (proj1 U)). lra. }
    assert (SQ : Bsign q = true). { destruct q; cbn in QN; try lra; try discriminate. destruct s; auto. cbn. exfalso.
      assert (0 < F2R (Float radix2 (cond_Zopp false (Z.pos m)) e))%R by (apply F2R_gt_0; reflexivity). unfold B2R in QN. lra. }
    rewrite SQ, C in M. cbn in M. apply SF_inf in M. unfold f64_mul.
    match goal with |- context [f64_ceil ?y] => replace y with (@B754_infinity 53 1024 true) by (symmetry; exact M) end.
    cbn. rewrite Z.max_l; auto.
    assert (Zceil (rne x) <= 0)%Z; [|lia]. apply Zceil_glb. cbn. rewrite <- rne_0. apply rne_le. pose proof (bpow_gt_0 radix2 1023). lra.
Qed.

Lemma rank_ok q n : (0 <= n <= u64_max)%Z ->
  (let q' := if f64_lt f64_one q then f64_one else q in
   let c := f64_to_u64 (f64_ceil (f64_mul q' (f64_of_u64 n))) in if c =? 0 then 1 else c)%Z = quantile_rank q n /\
  f64_eq (if f64_lt f64_one q then f64_one else q) f64_zero = f64_eq q f64_zero.
Proof.
  intros N. destruct one_ok as [O1 O2]. cbn zeta.
  assert (FIN : is_finite q = true -> 
     (let q' := if f64_lt f64_one q then f64_one else q in
      let c := f64_to_u64 (f64_ceil (f64_mul q' (f64_of_u64 n))) in if c =? 0 then 1 else c)%Z = rank_of (Rmin 1 (B2R q)) n /\
      f64_eq (if f64_lt f64_one q then f64_one else q) f64_zero = f64_eq q f64_zero).
  { intros F. cbn zeta. unfold f64_lt. rewrite Bltb_correct by auto. rewrite O1. destruct (Rlt_bool_spec 1 (B2R q)) as [L|L].
    - split.
      + rewrite Rmin_left by lra. refine (eq_trans (mul_rank f64_one n N O2 _) _); rewrite O1; [lra|reflexivity].
      + unfold f64_eq. rewrite !Beqb_correct by auto. rewrite O1. cbn [f64_zero B2R]. rewrite !Req_bool_false; auto; lra.
    - split; auto. rewrite Rmin_right by lra. apply mul_rank; auto. }
  destruct q as [s|s| |s m e B].
  - apply FIN. reflexivity.
  - destruct s.
    + change (f64_lt f64_one (B754_infinity true)) with false. cbv iota. split; auto.
      destruct (of_u64_ok n N) as (A & B & C). cbn [quantile_rank]. unfold f64_mul.
      destruct (f64_of_u64 n); cbn; try reflexivity; cbn in C; subst; reflexivity.
    + change (f64_lt f64_one (B754_infinity false)) with true. cbv iota. split; auto. cbn [quantile_rank]. refine (eq_trans (mul_rank f64_one n N O2 _) _); rewrite O1; [lra|reflexivity].
  - split; reflexivity.
  - apply FIN. reflexivity.
Qed.

(** the rank is monotone in the quantile, at least 1, and at most the number of samples if that is below
    2^53 *)
Lemma rank_pos q n : (1 <= quantile_rank q n)%Z.
Proof. unfold quantile_rank, rank_of. destruct q as [s|[]| |s m e B]; lia. Qed.
Lemma rank_of_mono a b n : (0 <= n <= u64_max)%Z -> (a <= b)%R -> (rank_of a n <= rank_of b n)%Z.
Proof.
  intros N L. unfold rank_of. pose proof (rne_u64 n N).
  assert (Zceil (rne (a * rne (IZR n))) <= Zceil (rne (b * rne (IZR n))))%Z; [|lia].
  apply Zceil_le, rne_le. apply Rmult_le_compat_r; lra.
Qed.
Lemma rank_of_bound a n : (0 <= n <= 2 ^ 53)%Z -> (a <= 1)%R -> (rank_of a n <= Z.max 1 n)%Z.
Proof.
  intros N L. unfold rank_of. rewrite (rne_IZR n) by lia.
  assert (Zceil (rne (a * IZR n)) <= n)%Z; [|lia]. apply Zceil_glb. rewrite <- (rne_IZR n) at 2 by lia. apply rne_le.
  assert (0 <= IZR n)%R by (apply IZR_le; lia). nra.
Qed.
Lemma rank_of_one n : (0 <= n <= 2 ^ 53)%Z -> rank_of 1 n = Z.max 1 n.
Proof. intros N. unfold rank_of. rewrite Rmult_1_l. rewrite !(rne_IZR n) by lia. rewrite Zceil_IZR. unfold u64_max. lia. Qed.
Lemma rank_bound q n : (0 <= n <= 2 ^ 53)%Z -> (quantile_rank q n <= Z.max 1 n)%Z.
Proof.
  intros N. unfold quantile_rank. destruct q as [s|[]| |s m e B]; try lia; apply rank_of_bound; auto; try lra; apply Rmin_l.
Qed.
Lemma rank_of_neg a n : (0 <= n <= u64_max)%Z -> (a <= 0)%R -> rank_of a n = 1%Z.
Proof.
  intros N L. unfold rank_of. rewrite Z.max_l; auto. assert (Zceil (rne (a * rne (IZR n))) <= 0)%Z; [|lia]. apply Zceil_glb. rewrite <- rne_0. apply rne_le.
  pose proof (rne_u64 n N). nra.
Qed.
Lemma rank_mono a b n : (0 <= n <= u64_max)%Z -> f64_le a b = true -> (quantile_rank a n <= quantile_rank b n)%Z.
Proof.
  intros N L.
  assert (FF : is_finite a = true -> is_finite b = true -> (rank_of (Rmin 1 (B2R a)) n <= rank_of (Rmin 1 (B2R b)) n)%Z).
  { intros FA FB. unfold f64_le in L. rewrite Bleb_correct in L by auto. apply Rle_bool_true_iff in L || (destruct (Rle_bool_spec (B2R a) (B2R b)); [|discriminate]).
    apply rank_of_mono; auto. apply Rle_min_compat_l. auto. }
  assert (INF : is_finite a = true -> (rank_of (Rmin 1 (B2R a)) n <= rank_of 1 n)%Z).
  { intros FA. apply rank_of_mono; auto. apply Rmin_l. }
  pose proof (rank_pos a n) as PA. pose proof (rank_pos b n) as PB.
  destruct a as [s|[]| |s m e B]; destruct b as [s'|[]| |s' m' e' B']; try discriminate; cbn [quantile_rank] in *;
    try (apply FF; reflexivity); try (apply INF; reflexivity); try lia; cbn in L; try discriminate.
Qed.

(** ** Quotients of counts *)
Lemma rne_pos_int n : (1 <= n)%Z -> (1 <= rne (IZR n))%R.
Proof. intros N. rewrite <- rne_1. apply rne_le. apply IZR_le. auto. Qed.
Lemma div_ok k n : (0 <= k <= u64_max)%Z -> (1 <= n <= u64_max)%Z ->
  is_finite (f64_div (f64_of_u64 k) (f64_of_u64 n)) = true /\
  B2R (f64_div (f64_of_u64 k) (f64_of_u64 n)) = rne (rne (IZR k) / rne (IZR n)).
Proof.
  intros K N. destruct (of_u64_ok k K) as (A & B & C). destruct (of_u64_ok n ltac:(lia)) as (A' & B' & C').
  pose proof (rne_u64 k K) as UK. pose proof (rne_pos_int n ltac:(lia)) as PN.
  pose proof (Bdiv_correct 53 1024 prec_gt_0_64 prec_lt_emax_64 mode_NE (f64_of_u64 k) (f64_of_u64 n)) as D.
  change (round radix2 (SpecFloat.fexp 53 1024) (round_mode mode_NE) ?x) with (rne x) in D. rewrite A, A' in D.
  specialize (D ltac:(lra)). rewrite small_finite in D.
  - destruct D as (D1 & D2 & _). split; [exact (eq_trans D2 B)|exact D1].
  - assert (0 <= rne (IZR k) / rne (IZR n) <= rne (IZR k))%R.
    { split. { apply Rmult_le_pos; [lra|]. apply Rlt_le, Rinv_0_lt_compat. lra. }
      apply (Rmult_le_reg_r (rne (IZR n))); [lra|]. unfold Rdiv. rewrite Rmult_assoc, Rinv_l by lra.
      pose proof (Rmult_le_compat_l _ _ _ (proj1 UK) PN). lra. }
    rewrite Rabs_pos_eq by lra. apply Rle_trans with (bpow radix2 64); [lra|apply bpow_le; lia].
Qed.
Lemma quot_mono a b n : (0 <= a <= b)%Z -> (1 <= n)%Z -> (rne (rne (IZR a) / rne (IZR n)) <= rne (rne (IZR b) / rne (IZR n)))%R.
Proof.
  intros A N. pose proof (rne_pos_int n N). apply rne_le. apply Rmult_le_compat_r; [apply Rlt_le, Rinv_0_lt_compat; lra|].
  apply rne_le, IZR_le. lia.
Qed.
Lemma quot_same n : (1 <= n)%Z -> rne (rne (IZR n) / rne (IZR n)) = 1%R.
Proof. intros N. pose proof (rne_pos_int n N). unfold Rdiv. rewrite Rinv_r by lra. apply rne_1. Qed.
Lemma quot_range a n : (0 <= a <= n)%Z -> (1 <= n)%Z -> (0 <= rne (rne (IZR a) / rne (IZR n)) <= 1)%R.
Proof.
  intros A N. pose proof (rne_pos_int n N). split.
  - apply rne_nonneg. apply Rmult_le_pos; [apply rne_nonneg, IZR_le; lia|]. apply Rlt_le, Rinv_0_lt_compat; lra.
  - rewrite <- (quot_same n N). apply quot_mono; auto.
Qed.
