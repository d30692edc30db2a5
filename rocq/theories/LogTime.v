(** * Facts about printed numbers and logged times *)
From Coq Require Import ZArith Reals Lia Lra Bool.
From Flocq Require Import Core IEEE754.BinarySingleNaN.
From Verif Require Import Machine HistModel Spec SerModel SerSpec FloatModel FloatSpec FloatFacts LogModel LogSpec.

Lemma znearest_quot m d : (0 <= m)%Z -> (0 < d)%Z ->
  ZnearestE (IZR m / IZR d) =
  (if 2 * (m mod d) <? d then m / d else if d <? 2 * (m mod d) then m / d + 1 else if Z.even (m / d) then m / d else m / d + 1)%Z.
Proof.
  intros M D. assert (DR : (0 < IZR d)%R) by (apply IZR_lt; lia).
  assert (FL : Zfloor (IZR m / IZR d) = (m / d)%Z) by (apply Zfloor_div; lia).
  pose proof (Z.div_mod m d ltac:(lia)) as DM. pose proof (Z.mod_pos_bound m d D) as MB.
  assert (RM : (IZR m / IZR d - IZR (m / d) = IZR (m mod d) / IZR d)%R).
  { apply (Rmult_eq_reg_r (IZR d)); [|lra]. unfold Rdiv. rewrite Rmult_minus_distr_r, !Rmult_assoc, Rinv_l by lra.
    rewrite !Rmult_1_r, <- mult_IZR, <- minus_IZR. f_equal. lia. }
  assert (CE : (m mod d <> 0)%Z -> Zceil (IZR m / IZR d) = (m / d + 1)%Z).
  { intros N. rewrite Zceil_floor_neq, FL; auto. rewrite FL. intros E. rewrite <- E, Rminus_diag_eq in RM by reflexivity.
    assert (IZR (m mod d) = 0)%R; [|apply N; apply eq_IZR; auto].
    apply (Rmult_eq_reg_r (/ IZR d)); [|apply Rinv_neq_0_compat; lra]. unfold Rdiv in RM. lra. }
  unfold Znearest. rewrite FL, RM.
  assert (CM : forall x y, (2 * x < y)%Z -> (0 < y)%Z -> (IZR x / IZR y < / 2)%R).
  { intros x y L Y. assert (0 < IZR y)%R by (apply IZR_lt; lia). apply (Rmult_lt_reg_r (IZR y)); [lra|].
    unfold Rdiv. rewrite Rmult_assoc, Rinv_l by lra. apply IZR_lt in L. rewrite mult_IZR in L. lra. }
  assert (CM2 : forall x y, (y < 2 * x)%Z -> (0 < y)%Z -> (/ 2 < IZR x / IZR y)%R).
  { intros x y L Y. assert (0 < IZR y)%R by (apply IZR_lt; lia). apply (Rmult_lt_reg_r (IZR y)); [lra|].
    unfold Rdiv. rewrite Rmult_assoc, Rinv_l by lra. apply IZR_lt in L. rewrite mult_IZR in L. lra. }
  destruct (2 * (m mod d) <? d)%Z eqn:E1.
  - apply Z.ltb_lt in E1. rewrite Rcompare_Lt; auto.
  - apply Z.ltb_ge in E1. destruct (d <? 2 * (m mod d))%Z eqn:E2.
    + apply Z.ltb_lt in E2. rewrite Rcompare_Gt; auto. apply CE. lia.
    + apply Z.ltb_ge in E2. assert (Q : (2 * (m mod d) = d)%Z) by lia. rewrite Rcompare_Eq.
      * destruct (Z.even (m / d)); cbn [negb]; auto. apply CE. lia.
      * rewrite <- Q at 2. rewrite mult_IZR. assert (IZR (m mod d) <> 0)%R; [|field; auto].
        intros K. apply eq_IZR in K. lia.
Qed.
Lemma thousandths_ok m e : (0 <= m)%Z -> thousandths_of m e = ZnearestE (IZR m * bpow radix2 e * 1000).
Proof.
  intros M. unfold thousandths_of. destruct (0 <=? e)%Z eqn:E.
  - apply Z.leb_le in E. rewrite <- IZR_Zpower by auto. change (Z.pow (radix_val radix2) e) with (2 ^ e)%Z.
    rewrite <- !mult_IZR. rewrite Zrnd_IZR; auto. apply valid_rnd_N.
  - apply Z.leb_gt in E. cbv zeta. rewrite <- znearest_quot; [|lia|apply Z.pow_pos_nonneg; lia].
    f_equal. replace e with (- - e)%Z at 2 by lia. rewrite bpow_opp, <- IZR_Zpower by lia.
    change (Z.pow (radix_val radix2) (- e)) with (2 ^ (- e))%Z. rewrite mult_IZR. unfold Rdiv. ring.
Qed.
Lemma fmt3_nonneg (x : f64) : is_finite x = true -> Bsign x = false -> fmt3 x = dec3 (ZnearestE (B2R x * 1000)).
Proof.
  destruct x as [s|s| |s m e B]; try discriminate; intros _ S; cbn in S; subst s; cbn [fmt3 app].
  - cbn [B2R]. rewrite Rmult_0_l. rewrite (Zrnd_IZR ZnearestE 0). reflexivity.
  - cbn [B2R]. rewrite thousandths_ok by lia. do 2 f_equal.
Qed.

(** ** Seconds *)
Lemma rne_error x e : (-1021 <= e)%Z -> (Rabs x <= bpow radix2 e)%R -> (Rabs (rne x - x) <= bpow radix2 (e - 54))%R.
Proof.
  intros E H. pose proof (bpow_gt_0 radix2 (e - 54)).
  destruct (Req_dec x 0) as [->|N]. { rewrite rne_0, Rminus_0_r, Rabs_R0. lra. }
  destruct H as [H|H].
  - eapply Rle_trans; [apply error_le_half_ulp; apply valid_flt64|].
    rewrite ulp_neq_0 by auto. change (/ 2)%R with (bpow radix2 (-1)). rewrite <- bpow_plus. apply bpow_le.
    assert (M : (mag radix2 x <= e)%Z) by (apply mag_le_bpow; auto).
    unfold cexp, FLT_exp. lia.
  - assert (gf x). { unfold Rabs in H. destruct (Rcase_abs x).
      - replace x with (- bpow radix2 e)%R by lra. apply generic_format_opp, gf_bpow. lia.
      - subst x. apply gf_bpow. lia. }
    rewrite rne_id, Rminus_diag_eq, Rabs_R0 by auto. lra.
Qed.
Lemma nanos_quot n : (0 <= n < 1000000000)%Z -> (0 <= IZR n / 1000000000 <= 1)%R.
Proof.
  intros H. assert (0 <= IZR n <= 1000000000)%R by (split; apply IZR_le; lia). lra.
Qed.
Lemma fp_seconds_ok d : valid_duration d ->
  is_finite (duration_as_fp_seconds d) = true /\ Bsign (duration_as_fp_seconds d) = false /\
  B2R (duration_as_fp_seconds d) = fp_seconds d.
Proof.
  intros (S & N). unfold duration_as_fp_seconds, fp_seconds.
  destruct (of_u64_ok (d_secs d)) as (A & B & C). { exact S. }
  destruct (div_ok (d_nanos d) 1000000000) as (F & Q); try (unfold u64_max; lia).
  rewrite (rne_IZR (d_nanos d)), (rne_IZR 1000000000) in Q by lia.
  pose proof (nanos_quot _ N) as NQ. pose proof (rne_u64 (d_secs d) S) as US.
  assert (RQ : (0 <= rne (IZR (d_nanos d) / 1000000000) <= 1)%R).
  { split; [apply rne_nonneg; lra|]. rewrite <- rne_1. apply rne_le. lra. }
  pose proof (Bplus_correct 53 1024 prec_gt_0_64 prec_lt_emax_64 mode_NE _ _ B F) as P.
  change (round radix2 (SpecFloat.fexp 53 1024) (round_mode mode_NE) ?x) with (rne x) in P. rewrite A, Q in P.
  rewrite small_finite in P.
  - destruct P as (P1 & P2 & P3). split; [exact P2|]. split; [|exact P1].
    refine (eq_trans P3 _). rewrite C. destruct (Rcompare_spec (rne (IZR (d_secs d)) + rne (IZR (d_nanos d) / 1000000000)) 0); auto; lra.
  - rewrite Rabs_pos_eq by lra. apply Rle_trans with (bpow radix2 65); [|apply bpow_le; lia].
    change (bpow radix2 65) with (2 * bpow radix2 64)%R || rewrite (bpow_plus radix2 64 1 : bpow radix2 65 = _).
    assert (1 <= bpow radix2 64)%R by (apply (bpow_le radix2 0 64); lia). cbn [bpow] in *. lra.
Qed.
Lemma fp_seconds_nonneg d : valid_duration d -> (0 <= fp_seconds d)%R.
Proof.
  intros (S & N). apply rne_nonneg. pose proof (nanos_quot _ N). pose proof (rne_nonneg (IZR (d_nanos d) / 1000000000)).
  pose proof (rne_u64 _ S). lra.
Qed.
Lemma logged_ms_nonneg d : valid_duration d -> (0 <= logged_ms d)%Z.
Proof.
  intros V. apply fp_seconds_nonneg in V. unfold logged_ms.
  rewrite <- (Zrnd_IZR ZnearestE 0). apply Zrnd_le; [apply valid_rnd_N|]. cbn. lra.
Qed.
Lemma fmt3_duration d : valid_duration d -> fmt3 (duration_as_fp_seconds d) = dec3 (logged_ms d).
Proof. intros V. destruct (fp_seconds_ok d V) as (A & B & C). rewrite fmt3_nonneg, C; auto. Qed.

(** [fp_seconds] is close to the exact number of seconds *)
Lemma fp_seconds_close d : valid_duration d -> (d_secs d < 2 ^ 42)%Z ->
  (Rabs (fp_seconds d - IZR (duration_ns d) / 1000000000) <= bpow radix2 (-12) + bpow radix2 (-54))%R.
Proof.
  intros (S & N) L. unfold fp_seconds. destruct S as (S0 & _).
  rewrite (rne_IZR (d_secs d)) by lia.
  pose proof (nanos_quot _ N) as NQ. set (q := (IZR (d_nanos d) / 1000000000)%R) in *.
  assert (RQ : (0 <= rne q <= 1)%R). { split; [apply rne_nonneg; lra|]. rewrite <- rne_1. apply rne_le. lra. }
  assert (E1 : (Rabs (rne q - q) <= bpow radix2 (-54))%R). { apply (rne_error q 0); [lia|]. cbn. rewrite Rabs_pos_eq; lra. }
  assert (SB : (0 <= IZR (d_secs d) <= bpow radix2 42 - 1)%R).
  { split; [apply IZR_le; auto|]. change (bpow radix2 42) with (IZR (2 ^ 42)). rewrite <- minus_IZR. apply IZR_le. lia. }
  assert (E2 : (Rabs (rne (IZR (d_secs d) + rne q) - (IZR (d_secs d) + rne q)) <= bpow radix2 (-12))%R).
  { apply (rne_error _ 42); [lia|]. rewrite Rabs_pos_eq by lra. lra. }
  assert (Q : (IZR (duration_ns d) / 1000000000 = IZR (d_secs d) + q)%R).
  { unfold duration_ns, q. rewrite plus_IZR, mult_IZR. field. }
  rewrite Q. apply Rabs_le. apply Rabs_le_inv in E1. apply Rabs_le_inv in E2. lra.
Qed.
Lemma eps_bound : (bpow radix2 (-12) + bpow radix2 (-54) <= 25 / 100000)%R.
Proof. cbn [bpow]. change (Z.pow_pos radix2 12) with 4096%Z. change (Z.pow_pos radix2 54) with 18014398509481984%Z. lra. Qed.
Lemma ms_duration_ns n : (0 <= n)%Z -> duration_ns (ms_duration n) = (n * 1000000)%Z.
Proof. intros H. unfold duration_ns, ms_duration. cbn. pose proof (Z.div_mod n 1000). lia. Qed.

(** whole milliseconds are logged exactly *)
Lemma logged_exact d : valid_duration d -> (d_secs d < 2 ^ 42)%Z -> (d_nanos d mod 1000000 = 0)%Z -> logged d = d.
Proof.
  intros V L M. pose proof (fp_seconds_close d V L) as C. pose proof eps_bound as EB.
  destruct V as (S & N). destruct S as (S0 & _).
  pose proof (Z.div_mod (d_nanos d) 1000000 ltac:(lia)) as DM. rewrite M in DM.
  assert (K : (0 <= d_nanos d / 1000000 < 1000)%Z).
  { split; [apply Z.div_pos; lia|apply Z.div_lt_upper_bound; lia]. }
  assert (E : logged_ms d = (d_secs d * 1000 + d_nanos d / 1000000)%Z).
  { unfold logged_ms. apply Znearest_imp. apply Rabs_le_inv in C.
    assert (Q : (IZR (duration_ns d) / 1000000000 * 1000 = IZR (d_secs d * 1000 + d_nanos d / 1000000))%R).
    { replace (duration_ns d) with ((d_secs d * 1000 + d_nanos d / 1000000) * 1000000)%Z by (unfold duration_ns; lia).
      rewrite (mult_IZR _ 1000000). field. }
    rewrite <- Q. apply Rabs_lt. lra. }
  unfold logged. rewrite E. unfold ms_duration. destruct d as [secs nanos]. cbn [d_secs d_nanos] in *.
  assert (D1 : ((secs * 1000 + nanos / 1000000) / 1000 = secs)%Z) by (rewrite Z.div_add_l, Z.div_small by lia; lia).
  assert (D2 : ((secs * 1000 + nanos / 1000000) mod 1000 = nanos / 1000000)%Z).
  { rewrite Z.add_comm, Z.mod_add, Z.mod_small by lia. reflexivity. }
  rewrite D1, D2. f_equal. lia.
Qed.
Lemma logged_close d : valid_duration d -> (d_secs d < 2 ^ 42)%Z ->
  (Z.abs (duration_ns (logged d) - duration_ns d) <= 750000)%Z.
Proof.
  intros V L. pose proof (fp_seconds_close d V L) as C. pose proof eps_bound as EB.
  unfold logged. rewrite ms_duration_ns by (apply logged_ms_nonneg; auto).
  pose proof (Znearest_half (fun x => negb (Z.even x)) (fp_seconds d * 1000)) as H.
  fold (logged_ms d) in H. change (Znearest (fun x : Z => negb (Z.even x)) (fp_seconds d * 1000)) with (logged_ms d) in H.
  assert (A : (-750000 <= IZR (logged_ms d * 1000000 - duration_ns d) <= 750000)%R).
  { apply Rabs_le_inv in C. apply Rabs_le_inv in H. rewrite minus_IZR, mult_IZR. lra. }
  destruct A as (A1 & A2). apply le_IZR in A1. apply le_IZR in A2. lia.
Qed.
Lemma loggable_small d : valid_duration d -> (d_secs d < 2 ^ 63)%Z -> loggable d.
Proof.
  intros V L. split; auto. destruct V as (S & N). destruct S as (S0 & _). cbn [logged ms_duration d_secs].
  assert (B : (fp_seconds d <= bpow radix2 63 + bpow radix2 62)%R).
  { unfold fp_seconds. rewrite <- (rne_id (bpow radix2 63 + bpow radix2 62)).
    - apply rne_le. pose proof (nanos_quot _ N).
      assert (rne (IZR (d_nanos d) / 1000000000) <= 1)%R by (rewrite <- rne_1; apply rne_le; lra).
      assert (rne (IZR (d_secs d)) <= bpow radix2 63)%R.
      { rewrite <- (rne_id (bpow radix2 63)) by (apply gf_bpow; lia). apply rne_le. change (bpow radix2 63) with (IZR (2 ^ 63)). apply IZR_le. lia. }
      assert (1 <= bpow radix2 62)%R by (apply (bpow_le radix2 0 62); lia). lra.
    - apply generic_format_FLT. exists (Float radix2 3 62); cbn [Fnum Fexp]; [|change (radix2 ^ 53)%Z with (2 ^ 53)%Z; lia|lia].
      unfold F2R. cbn [Fnum Fexp]. rewrite (bpow_plus radix2 62 1 : bpow radix2 63 = _). 
      change (bpow radix2 1) with 2%R. lra. }
  unfold logged. cbn [d_secs ms_duration].
  apply Z.div_le_upper_bound; [lia|].
  assert (LE : (logged_ms d <= (2 ^ 63 + 2 ^ 62) * 1000)%Z).
  { unfold logged_ms. rewrite <- (Zrnd_IZR ZnearestE ((2 ^ 63 + 2 ^ 62) * 1000)). apply Zrnd_le; [apply valid_rnd_N|].
    rewrite mult_IZR, plus_IZR. change (IZR (2 ^ 63)) with (bpow radix2 63). change (IZR (2 ^ 62)) with (bpow radix2 62). lra. }
  unfold u64_max. lia.
Qed.
