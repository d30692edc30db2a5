(** * The integer model of [(low as f64).log2().floor()] is the floor of the rounded real logarithm *)
From Coq Require Import ZArith Reals Lra Lia QArith Qreals.
From Flocq Require Import Core IEEE754.BinarySingleNaN.
From Verif Require Import Machine Log2Model HistModel Spec FloatModel FloatSpec Bins Log2Facts FloatFacts.
From Coq Require Import ZifyBool.
Local Open Scope R_scope.

(** ** ln 2 to twelve digits, from the alternating series of exp (-x) *)
Fixpoint hor (x : R) (k : Z) (n : nat) : R := match n with O => 1 | S n => 1 - x / IZR k * hor x (k + 1) n end.
Fixpoint qhor (x : Q) (k : positive) (n : nat) : Q := match n with O => 1%Q | S n => Qred (1 - x * (1 # k) * qhor x (Pos.succ k) n)%Q end.

Lemma qhor_hor x n : forall k, Q2R (qhor x k n) = hor (Q2R x) (Z.pos k) n.
Proof.
  induction n as [|n IH]; intros k; cbn [qhor hor]; [unfold Q2R; cbn; lra|].
  rewrite (Qeq_eqR _ _ (Qred_correct _)), Q2R_minus, !Q2R_mult, IH. rewrite <- (Pos2Z.inj_succ k) || idtac.
  replace (Z.pos k + 1)%Z with (Z.pos (Pos.succ k)) by lia. unfold Rdiv. unfold Q2R at 1 3. cbn [Qnum Qden]. lra.
Qed.

Lemma hor_sum x n : forall k, (k >= 1)%nat ->
  hor x (Z.of_nat k) n = sum_f_R0 (fun i => (-1) ^ i * (x ^ i * (INR (fact (k - 1)) / INR (fact (k - 1 + i))))) n.
Proof.
  induction n as [|n IH]; intros k K.
  - cbn. rewrite Nat.add_0_r. field. apply INR_fact_neq_0.
  - cbn [hor]. replace (Z.of_nat k + 1)%Z with (Z.of_nat (k + 1)) by lia. rewrite IH by lia.
    rewrite (decomp_sum _ (S n)) by lia. cbn [pred]. rewrite Nat.add_0_r. cbn [pow].
    replace (1 * (1 * (INR (fact (k - 1)) / INR (fact (k - 1))))) with 1 by (field; apply INR_fact_neq_0).
    unfold Rminus. f_equal. rewrite Ropp_mult_distr_l. rewrite scal_sum. apply sum_eq. intros i Hi.
    replace (k - 1 + S i)%nat with (k + 1 - 1 + i)%nat by lia. replace (k + 1 - 1)%nat with k by lia. cbn [pow].
    replace (fact k) with (k * fact (k - 1))%nat. 2: { destruct k; [lia|]. cbn [fact]. rewrite Nat.sub_succ, Nat.sub_0_r. lia. }
    rewrite mult_INR, <- INR_IZR_INZ. field. split; [apply INR_fact_neq_0|]. apply not_0_INR. lia.
Qed.

Lemma exp_alt x N : 0 <= x <= 1 -> hor x 1 (S (2 * N)) <= exp (- x) <= hor x 1 (2 * N).
Proof.
  intros X. set (Un := fun n => x ^ n / INR (fact n)).
  assert (D : Un_decreasing Un).
  { intros n. unfold Un. cbn [pow]. rewrite fact_simpl, mult_INR. pose proof (INR_fact_lt_0 n) as F.
    assert (S1 : 1 <= INR (S n)) by (rewrite S_INR; pose proof (pos_INR n); lra).
    assert (P : 0 <= x ^ n) by (apply pow_le; lra).
    unfold Rdiv. rewrite Rinv_mult.
    assert (I : 0 < / INR (S n) <= 1). { split; [apply Rinv_0_lt_compat; lra|]. rewrite <- Rinv_1. apply Rinv_le_contravar; lra. }
    assert (J : 0 < / INR (fact n)) by (apply Rinv_0_lt_compat; auto).
    replace (x * x ^ n * (/ INR (S n) * / INR (fact n))) with ((x * / INR (S n)) * (x ^ n * / INR (fact n))) by ring.
    rewrite <- (Rmult_1_l (x ^ n * / INR (fact n))) at 2. apply Rmult_le_compat_r; [apply Rmult_le_pos; lra|].
    rewrite <- (Rmult_1_r 1). apply Rmult_le_compat; lra. }
  assert (E : forall n, sum_f_R0 (tg_alt Un) n = hor x 1 n).
  { intros n. pose proof (hor_sum x n 1 ltac:(lia)) as HS. change (Z.of_nat 1) with 1%Z in HS. rewrite HS. apply sum_eq. intros i _. unfold tg_alt, Un. cbn [Nat.sub Nat.add fact]. unfold Rdiv. change (INR 1) with 1. ring. }
  rewrite <- !E. apply alternated_series_ineq; auto.
  - apply cv_speed_pow_fact.
  - unfold exp. destruct (exist_exp (- x)) as [l L]. cbn [proj1_sig]. unfold exp_in, infinite_sum in L. intros e HE.
    destruct (L e HE) as [M HM]. exists M. intros n Hn. specialize (HM n Hn). 
    replace (sum_f_R0 (tg_alt Un) n) with (sum_f_R0 (fun i => / INR (fact i) * (- x) ^ i) n); auto.
    apply sum_eq. intros i _. unfold tg_alt, Un. replace (- x) with (-1 * x) by ring. rewrite Rpow_mult_distr. unfold Rdiv. ring.
Qed.

Lemma ln2_lower : 6931471805599 / 10000000000000 < ln 2.
Proof.
  set (c := 6931471805599 / 10000000000000). destruct (exp_alt c 8) as [L _]; [unfold c; lra|].
  assert (H : / 2 < hor c 1 17).
  { replace c with (Q2R (6931471805599 # 10000000000000)) by (unfold Q2R, c; cbn; lra).
    rewrite <- (qhor_hor _ 17 1). replace (/ 2) with (Q2R (1 # 2)) by (unfold Q2R; cbn; lra). apply Qlt_Rlt. vm_compute. reflexivity. }
  change (S (2 * 8))%nat with 17%nat in L.
  apply Ropp_lt_cancel. rewrite <- ln_Rinv by lra. apply exp_lt_inv. rewrite exp_ln by lra. lra.
Qed.
Lemma ln2_upper : ln 2 < 693147180560 / 1000000000000.
Proof.
  set (c := 693147180560 / 1000000000000). destruct (exp_alt c 8) as [_ L]; [unfold c; lra|].
  assert (H : hor c 1 16 < / 2).
  { replace c with (Q2R (693147180560 # 1000000000000)) by (unfold Q2R, c; cbn; lra).
    rewrite <- (qhor_hor _ 16 1). replace (/ 2) with (Q2R (1 # 2)) by (unfold Q2R; cbn; lra). apply Qlt_Rlt. vm_compute. reflexivity. }
  change (2 * 8)%nat with 16%nat in L.
  apply Ropp_lt_cancel. rewrite <- (ln_Rinv 2) by lra. apply exp_lt_inv. rewrite exp_ln by lra. lra.
Qed.

(** ** [low as f64] *)
Lemma cexp_int x : (1 <= x)%Z -> cexp radix2 (FLT_exp (-1074) 53) (IZR x) = (Z.log2 x - 52)%Z.
Proof.
  intros X. pose proof (Z.log2_spec x ltac:(lia)) as [A B]. pose proof (Z.log2_nonneg x) as N.
  unfold cexp, FLT_exp. rewrite (mag_unique_pos radix2 (IZR x) (Z.log2 x + 1)).
  - lia.
  - rewrite <- !IZR_Zpower by lia. change (radix2 ^ ?e)%Z with (2 ^ e)%Z. split; [apply IZR_le|apply IZR_lt]; replace (Z.log2 x + 1 - 1)%Z with (Z.log2 x) by lia; auto.
Qed.

Lemma round_u64_rne x : (1 <= x)%Z -> IZR (f64_round_u64 x) = rne (IZR x).
Proof.
  intros X. pose proof (Z.log2_spec x ltac:(lia)) as [A B]. pose proof (Z.log2_nonneg x) as N.
  unfold f64_round_u64. destruct (Z.leb_spec (Z.log2 x - 52) 0) as [L|L].
  - symmetry. apply rne_IZR. rewrite Z.abs_eq by lia. assert (2 ^ Z.succ (Z.log2 x) <= 2 ^ 53)%Z by (apply Z.pow_le_mono_r; lia). lia.
  - unfold rne, round, F2R, scaled_mantissa. rewrite (cexp_int x X). set (e := (Z.log2 x - 52)%Z) in *. cbn [Fnum Fexp].
    assert (PE : (0 < 2 ^ e)%Z) by (apply Z.pow_pos_nonneg; lia).
    assert (BE : bpow radix2 e = IZR (2 ^ e)) by (rewrite <- IZR_Zpower by lia; reflexivity).
    rewrite bpow_opp, BE, mult_IZR. f_equal. f_equal.
    pose proof (IZR_lt _ _ PE) as PR. change (IZR x * / IZR (2 ^ e)) with (IZR x / IZR (2 ^ e)).
    pose proof (Z.div_mod x (2 ^ e) ltac:(lia)) as DM. pose proof (Z.mod_pos_bound x (2 ^ e) PE) as MB.
    set (q := (x / 2 ^ e)%Z) in *. set (r := (x mod 2 ^ e)%Z) in *.
    assert (FL : Zfloor (IZR x / IZR (2 ^ e)) = q) by (apply Zfloor_div; lia).
    assert (DF : IZR x / IZR (2 ^ e) - IZR q = IZR r / IZR (2 ^ e)). { rewrite DM, plus_IZR, mult_IZR. field. lra. }
    assert (HF : (2 ^ e = 2 * 2 ^ (e - 1))%Z). { replace e with (Z.succ (e - 1)) at 1 by lia. rewrite Z.pow_succ_r by lia. lia. }
    assert (CE : (r <> 0)%Z -> Zceil (IZR x / IZR (2 ^ e)) = (q + 1)%Z).
    { intros R0. rewrite <- FL. apply Zceil_floor_neq. rewrite FL. intros EQ. assert (IZR r / IZR (2 ^ e) = 0) by lra.
      assert (IZR r = 0). { apply (Rmult_eq_reg_r (/ IZR (2 ^ e))); [unfold Rdiv in *; lra|]. apply Rinv_neq_0_compat. lra. }
      apply R0. apply eq_IZR. lra. }
    assert (H2 : / 2 = IZR (2 ^ (e - 1)) / IZR (2 ^ e)). { rewrite HF, mult_IZR. field. rewrite HF, mult_IZR in PR. lra. }
    unfold Znearest. rewrite FL, DF.
    assert (CMP : forall a b, (a < b)%Z -> IZR a / IZR (2 ^ e) < IZR b / IZR (2 ^ e)).
    { intros a b AB. apply Rmult_lt_compat_r; [apply Rinv_0_lt_compat; lra|apply IZR_lt; auto]. }
    destruct (Z.ltb_spec r (2 ^ (e - 1))) as [C1|C1].
    { rewrite Rcompare_Lt; auto. rewrite H2. auto. }
    destruct (Z.ltb_spec (2 ^ (e - 1)) r) as [C2|C2].
    { rewrite Rcompare_Gt by (rewrite H2; auto). symmetry. apply CE. lia. }
    assert (r = 2 ^ (e - 1))%Z as RE by lia. rewrite Rcompare_Eq by (rewrite H2, RE; auto).
    destruct (Z.even q); cbn [negb]; auto. symmetry. apply CE. pose proof (Z.pow_pos_nonneg 2 (e - 1)). lia.
Qed.

(** ** The float just below [k + 1] *)
Lemma gap_below k : (1 <= k <= 64)%Z -> pred radix2 (FLT_exp (-1074) 53) (IZR (k + 1)) = IZR (k + 1) - bpow radix2 (Z.log2 k - 52).
Proof.
  intros K. rewrite pred_eq_pos by (apply IZR_le; lia). unfold pred_pos.
  pose proof (Z.log2_spec (k + 1) ltac:(lia)) as [A B]. pose proof (Z.log2_spec k ltac:(lia)) as [C D]. pose proof (Z.log2_nonneg k) as NK.
  pose proof (Z.log2_le_mono k (k + 1) ltac:(lia)) as MO.
  assert (MG : mag_val radix2 _ (mag radix2 (IZR (k + 1))) = (Z.log2 (k + 1) + 1)%Z).
  { apply mag_unique_pos. rewrite <- !IZR_Zpower by lia. change (radix2 ^ ?e)%Z with (2 ^ e)%Z.
    split; [apply IZR_le|apply IZR_lt]; replace (Z.log2 (k + 1) + 1 - 1)%Z with (Z.log2 (k + 1)) by lia; auto. }
  rewrite MG. replace (Z.log2 (k + 1) + 1 - 1)%Z with (Z.log2 (k + 1)) by lia.
  rewrite <- IZR_Zpower by lia. change (radix2 ^ ?e)%Z with (2 ^ e)%Z.
  pose proof (Z.log2_le_mono k 64 ltac:(lia)) as L6. change (Z.log2 64) with 6%Z in L6.
  destruct (Req_bool_spec (IZR (k + 1)) (IZR (2 ^ Z.log2 (k + 1)))) as [E|E].
  - apply eq_IZR in E. f_equal. f_equal. unfold FLT_exp.
    assert (Z.log2 (k + 1) = Z.log2 k + 1)%Z; [|lia].
    apply Z.le_antisymm; [pose proof (Z.log2_succ_le k); unfold Z.succ in *; lia|].
    assert (Z.log2 k < Z.log2 (k + 1))%Z; [|lia]. apply Z.log2_lt_pow2; [lia|]. rewrite <- E. lia.
  - f_equal. rewrite ulp_neq_0 by (apply not_0_IZR; lia). f_equal. rewrite cexp_int by lia.
    assert (Z.log2 (k + 1) = Z.log2 k)%Z; [|lia]. apply Z.le_antisymm; auto.
    assert (2 ^ Z.log2 (k + 1) <> k + 1)%Z by (intros X; apply E; rewrite X; auto).
    apply Z.log2_le_pow2; lia.
Qed.

Lemma ln_le_minus u : 0 <= u < 1 -> ln (1 - u) <= - u.
Proof.
  intros U. rewrite <- (ln_exp (- u)). pose proof (exp_ineq1_le (- u)) as E.
  destruct (Rle_lt_or_eq_dec _ _ E) as [L|L]; [apply Rlt_le, ln_increasing; lra|]. right. f_equal. lra.
Qed.
Lemma ln_ge_minus u : 0 <= u <= / 2 -> - u - 2 * u * u <= ln (1 - u).
Proof.
  intros U. assert (I : 0 < / (1 - u)) by (apply Rinv_0_lt_compat; lra).
  assert (IL : / (1 - u) <= 2). { replace 2 with (/ (/ 2)) by lra. apply Rinv_le_contravar; lra. }
  replace (1 - u) with (/ / (1 - u)) by (rewrite Rinv_inv; auto). rewrite ln_Rinv by auto.
  assert (T : / (1 - u) = 1 + u * / (1 - u)) by (field; lra).
  assert (B : ln (/ (1 - u)) <= u * / (1 - u)).
  { rewrite <- (ln_exp (u * / (1 - u))). pose proof (exp_ineq1_le (u * / (1 - u))) as E. rewrite <- T in E.
    destruct (Rle_lt_or_eq_dec _ _ E) as [L|L]; [apply Rlt_le, ln_increasing; lra|]. right. f_equal. auto. }
  assert (D : u * / (1 - u) = u + u * u * / (1 - u)) by (field; lra).
  assert (u * u * / (1 - u) <= u * u * 2). { apply Rmult_le_compat_l; nra. }
  lra.
Qed.

Lemma no_integer_between : forallb (fun k => let k := Z.of_nat k in
    let A := (693147180559 * 2 ^ (k + Z.log2 k) / (2 ^ 52 * 10 ^ 12))%Z in
    (693147180560 * 2 ^ (k + Z.log2 k) <=? (A + 1) * (2 ^ 52 * 10 ^ 12))%Z) (seq 1 64) = true.
Proof. vm_compute. reflexivity. Qed.
Lemma discrete k d : (1 <= k <= 64)%Z -> (693147180559 * 2 ^ (k + Z.log2 k) < d * 2 ^ 52 * 10 ^ 12)%Z ->
  (693147180560 * 2 ^ (k + Z.log2 k) <= d * 2 ^ 52 * 10 ^ 12)%Z.
Proof.
  intros K H. pose proof (proj1 (forallb_forall _ _) no_integer_between (Z.to_nat k)) as F. cbv beta zeta in F.
  rewrite Z2Nat.id in F by lia. specialize (F ltac:(apply in_seq; lia)). apply Z.leb_le in F.
  set (P := (2 ^ (k + Z.log2 k))%Z) in *. set (M := (2 ^ 52 * 10 ^ 12)%Z) in *.
  assert (MP : (0 < M)%Z) by (unfold M; lia). replace (d * 2 ^ 52 * 10 ^ 12)%Z with (d * M)%Z in * by (unfold M; ring).
  assert (693147180559 * P / M < d)%Z by (apply Z.div_lt_upper_bound; lia). nia.
Qed.

Lemma ln_2pow n : (0 <= n)%Z -> ln (IZR (2 ^ n)) = IZR n * ln 2.
Proof.
  intros N. replace n with (Z.of_nat (Z.to_nat n)) by lia. rewrite <- pow_IZR, <- INR_IZR_INZ. apply ln_pow. lra.
Qed.

(** ** The floor of the rounded logarithm *)
Lemma log2_floor_spec low : (1 <= low <= u64_max)%Z ->
  log2_floor_f64 low = Zfloor (rne (ln (rne (IZR low)) / ln 2)).
Proof.
  intros H. rewrite <- round_u64_rne by lia. unfold log2_floor_f64.
  pose proof (f64_round_bounds low ltac:(lia)) as [XB1 XB2]. pose proof (log2_le_63 low H) as LL.
  pose proof (Z.pow_pos_nonneg 2 (Z.log2 low) ltac:(lia) ltac:(lia)) as P0.
  assert (X1 : (1 <= f64_round_u64 low)%Z) by lia.
  assert (X2 : (f64_round_u64 low <= 2 ^ 64)%Z). { eapply Z.le_trans; [exact XB2|]. apply Z.pow_le_mono_r; lia. }
  set (x := f64_round_u64 low) in *. clearbody x. clear XB1 XB2 P0 LL H low. set (k := Z.log2 x).
  pose proof (Z.log2_spec x ltac:(lia)) as [A B]. fold k in A, B. pose proof (Z.log2_nonneg x) as KN. fold k in KN.
  assert (K64 : (k <= 64)%Z). { apply (Z.log2_le_mono x (2 ^ 64)) in X2. rewrite Z.log2_pow2 in X2 by lia. exact X2. }
  pose proof ln2_lower as LO. pose proof ln2_upper as UP. assert (L2 : 0 < ln 2) by lra.
  assert (XP : 0 < IZR x) by (apply IZR_lt; lia).
  set (L := ln (IZR x) / ln 2).
  assert (LK : IZR k <= L). { unfold L. apply (Rmult_le_reg_r (ln 2)); auto. unfold Rdiv. rewrite Rmult_assoc, Rinv_l by lra. rewrite Rmult_1_r.
    rewrite <- ln_2pow by lia. destruct (Z_le_lt_eq_dec _ _ A) as [C|C]; [|rewrite <- C; lra]. apply Rlt_le, ln_increasing; [apply IZR_lt; lia|apply IZR_lt; auto]. }
  destruct (Z.leb_spec 1 k) as [K1|K1].
  2: { cbn [andb]. assert (k = 0)%Z as K0 by lia. rewrite K0 in A, B. change (2 ^ Z.succ 0)%Z with 2%Z in B. assert (x = 1)%Z as XE by lia.
       unfold L. rewrite XE, ln_1. unfold Rdiv. rewrite Rmult_0_l, rne_0, K0. symmetry. apply (Zfloor_IZR 0). }
  assert (PK : (0 < 2 ^ (k + 1))%Z) by (apply Z.pow_pos_nonneg; lia). pose proof (IZR_lt _ _ PK) as PKR.
  change (2 ^ Z.succ k)%Z with (2 ^ (k + 1))%Z in B.
  set (d := (2 ^ (k + 1) - x)%Z). set (u := IZR d / IZR (2 ^ (k + 1))).
  assert (HK : (2 ^ (k + 1) = 2 * 2 ^ k)%Z) by (rewrite Z.pow_add_r by lia; lia).
  assert (DD : (0 < d <= 2 ^ k)%Z) by (unfold d; lia).
  assert (U : 0 < u <= / 2).
  { unfold u. split. { apply Rdiv_lt_0_compat; auto. apply IZR_lt; lia. }
    apply (Rmult_le_reg_r (IZR (2 ^ (k + 1)))); auto. unfold Rdiv. rewrite Rmult_assoc, Rinv_l by lra. rewrite HK, mult_IZR.
    assert (IZR d <= IZR (2 ^ k)) by (apply IZR_le; lia). lra. }
  assert (XU : IZR x = IZR (2 ^ (k + 1)) * (1 - u)). { unfold u. replace x with (2 ^ (k + 1) - d)%Z by (unfold d; lia). rewrite minus_IZR. field. lra. }
  assert (LE : L * ln 2 = IZR (k + 1) * ln 2 + ln (1 - u)).
  { unfold L, Rdiv. rewrite Rmult_assoc, Rinv_l by lra. rewrite Rmult_1_r, XU, ln_mult by lra. rewrite ln_2pow by lia. reflexivity. }
  assert (KG : gf (IZR (k + 1))) by (apply gf_IZR; lia). assert (KG' : gf (IZR k)) by (apply gf_IZR; lia).
  set (h := bpow radix2 (Z.log2 k - 53)).
  assert (HP : 0 < h) by apply bpow_gt_0.
  assert (H2 : bpow radix2 (Z.log2 k - 52) = 2 * h). { unfold h. replace (Z.log2 k - 52)%Z with (1 + (Z.log2 k - 53))%Z by lia. rewrite bpow_plus. reflexivity. }
  pose proof (Z.log2_nonneg k) as LKN. pose proof (Z.log2_le_mono k 64 ltac:(lia)) as L6. change (Z.log2 64) with 6%Z in L6.
  assert (HS : h <= bpow radix2 (-47)) by (apply bpow_le; lia).
  assert (HS' : h <= / 100000000000000).
  { eapply Rle_trans; [exact HS|]. change (bpow radix2 (-47)) with (/ IZR (2 ^ 47)). apply Rinv_le_contravar; [lra|]. apply IZR_le. vm_compute. discriminate. }
  pose proof (gap_below k ltac:(lia)) as GB. rewrite H2 in GB.
  (* the test, in terms of u *)
  assert (SC : forall c, (0 <= c)%Z -> IZR (c * 2 ^ (k + Z.log2 k)) = IZR c * h * (IZR (2 ^ (k + 1)) * IZR (2 ^ 52))).
  { intros c _. rewrite mult_IZR. rewrite Rmult_assoc. f_equal.
    assert (E1 : forall n, (0 <= n)%Z -> IZR (2 ^ n) = bpow radix2 n) by (intros n Hn; rewrite <- IZR_Zpower by auto; reflexivity).
    unfold h. rewrite !E1 by lia. rewrite <- !bpow_plus. f_equal. lia. }
  assert (SD : IZR (d * 2 ^ 52 * 10 ^ 12) = u * 1000000000000 * (IZR (2 ^ (k + 1)) * IZR (2 ^ 52))).
  { rewrite !mult_IZR. unfold u. change (IZR (10 ^ 12)) with 1000000000000. field. lra. }
  assert (QP : 0 < IZR (2 ^ (k + 1)) * IZR (2 ^ 52)) by (apply Rmult_lt_0_compat; auto; apply IZR_lt; lia).
  assert (LTK : L < IZR (k + 1)).
  { apply (Rmult_lt_reg_r (ln 2)); auto. rewrite LE. pose proof (ln_le_minus u ltac:(lra)). lra. }
  change (d * 2 ^ 52 * 10 ^ 12 <=? 693147180559 * 2 ^ (k + Z.log2 k))%Z with (Z.leb (d * 2 ^ 52 * 10 ^ 12) (693147180559 * 2 ^ (k + Z.log2 k))).
  destruct (Z.leb_spec (d * 2 ^ 52 * 10 ^ 12) (693147180559 * 2 ^ (k + Z.log2 k))) as [T|T]; cbn [andb]; symmetry.
  - apply IZR_le in T. rewrite SD, SC in T by lia. apply Rmult_le_reg_r in T; auto.
    assert (G : IZR (k + 1) - h < L).
    { apply (Rmult_lt_reg_r (ln 2)); auto. rewrite LE. pose proof (ln_ge_minus u ltac:(lra)) as LB. nra. }
    assert (R1 : IZR (k + 1) <= rne L).
    { unfold rne. apply round_N_ge_midp; auto. apply FLT_exp_valid; reflexivity. rewrite GB. lra. }
    assert (R2 : rne L <= IZR (k + 1)). { rewrite <- (rne_id (IZR (k + 1))) by auto. apply rne_le. lra. }
    replace (rne L) with (IZR (k + 1)) by lra. apply Zfloor_IZR.
  - pose proof (discrete k d ltac:(lia) ltac:(lia)) as T2. apply IZR_le in T2. rewrite SD, SC in T2 by lia. apply Rmult_le_reg_r in T2; auto.
    assert (G : L < IZR (k + 1) - h).
    { apply (Rmult_lt_reg_r (ln 2)); auto. rewrite LE. pose proof (ln_le_minus u ltac:(lra)) as LB. nra. }
    assert (R1 : IZR k <= rne L). { rewrite <- (rne_id (IZR k)) by auto. apply rne_le. lra. }
    set (p := pred radix2 (FLT_exp (-1074) 53) (IZR (k + 1))) in *.
    assert (PG : gf p). { apply generic_format_pred; auto. apply FLT_exp_valid; reflexivity. }
    assert (PS : succ radix2 (FLT_exp (-1074) 53) p = IZR (k + 1)). { apply succ_pred; auto. apply FLT_exp_valid; reflexivity. }
    assert (R2 : rne L <= p).
    { unfold rne. apply round_N_le_midp; auto. apply FLT_exp_valid; reflexivity. rewrite PS, GB. lra. }
    apply Zfloor_imp. split; auto. rewrite GB in R2. lra.
Qed.

(** ** The ceiling for the number of sub-buckets, src/lib.rs:770 *)
Lemma log2_ceil_spec sf : (0 <= sf <= 5)%Z ->
  Z.log2_up (2 * 10 ^ sf) = Zceil (rne (ln (IZR (2 * 10 ^ sf)) / ln 2)).
Proof.
  intros S. pose proof ln2_lower as LO. assert (L2 : 0 < ln 2) by lra.
  assert (G : forall n k, (0 <= k <= 20)%Z -> (0 < n)%Z -> (2 ^ (4 * k + 1) <= n ^ 4)%Z -> (n <= 2 ^ (k + 1))%Z ->
     Zceil (rne (ln (IZR n) / ln 2)) = (k + 1)%Z).
  { intros n k K NP A B. set (L := ln (IZR n) / ln 2).
    assert (LE : L * ln 2 = ln (IZR n)) by (unfold L; field; lra).
    assert (NR : 0 < IZR n) by (apply IZR_lt; auto).
    assert (UB : L <= IZR (k + 1)).
    { apply (Rmult_le_reg_r (ln 2)); auto. rewrite LE, <- ln_2pow by lia. apply IZR_le in B.
      destruct (Rle_lt_or_eq_dec _ _ B) as [C|C]; [apply Rlt_le, ln_increasing; auto|rewrite C; lra]. }
    assert (LB : IZR k + / 4 <= L).
    { apply (Rmult_le_reg_r (ln 2)); auto. rewrite LE. apply (Rmult_le_reg_l 4); [lra|].
      replace (4 * ln (IZR n)) with (ln (IZR (n ^ 4))).
      2: { change (n ^ 4)%Z with (n ^ Z.of_nat 4)%Z. rewrite <- pow_IZR. rewrite ln_pow by auto. cbn; lra. }
      replace (4 * ((IZR k + / 4) * ln 2)) with (ln (IZR (2 ^ (4 * k + 1)))) by (rewrite ln_2pow, plus_IZR, mult_IZR by lia; field).
      apply IZR_le in A. assert (0 < IZR (2 ^ (4 * k + 1))) by (apply IZR_lt, Z.pow_pos_nonneg; lia).
      destruct (Rle_lt_or_eq_dec _ _ A) as [C|C]; [apply Rlt_le, ln_increasing; auto|rewrite C; lra]. }
    assert (GQ : gf (IZR k + / 4)).
    { replace (IZR k + / 4) with (F2R (Float radix2 (4 * k + 1) (-2))). 2: { unfold F2R. cbn [Fnum Fexp]. rewrite plus_IZR, mult_IZR. change (bpow radix2 (-2)) with (/ 4). lra. }
      apply generic_format_FLT. exists (Float radix2 (4 * k + 1) (-2)); auto. { cbn [Fnum]. rewrite Z.abs_eq by lia. change (radix2 ^ 53)%Z with 9007199254740992%Z. lia. } cbn [Fexp]. lia. }
    apply Zceil_imp. replace (k + 1 - 1)%Z with k by lia. split.
    - apply Rlt_le_trans with (IZR k + / 4); [lra|]. rewrite <- (rne_id (IZR k + / 4)) by auto. apply rne_le; auto.
    - rewrite <- (rne_id (IZR (k + 1))) by (apply gf_IZR; lia). apply rne_le; auto. }
  assert (D : (sf = 0 \/ sf = 1 \/ sf = 2 \/ sf = 3 \/ sf = 4 \/ sf = 5)%Z) by lia.
  destruct D as [->|[->|[->|[->|[->| ->]]]]]; symmetry.
  - change (2 * 10 ^ 0)%Z with 2%Z. change (Z.log2_up 2) with 1%Z. replace (ln (IZR 2) / ln 2) with 1 by (field; lra). rewrite rne_1. apply (Zceil_IZR 1).
  - apply (G 20 4)%Z; vm_compute; try split; discriminate || reflexivity.
  - apply (G 200 7)%Z; vm_compute; try split; discriminate || reflexivity.
  - apply (G 2000 10)%Z; vm_compute; try split; discriminate || reflexivity.
  - apply (G 20000 14)%Z; vm_compute; try split; discriminate || reflexivity.
  - apply (G 200000 17)%Z; vm_compute; try split; discriminate || reflexivity.
Qed.
