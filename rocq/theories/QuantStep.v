(** * The ticks of [iter_quantiles]: one step of the iterated quantile *)
From Coq Require Import ZArith Reals Lia Lra Bool List.
From Flocq Require Import Core Sterbenz IEEE754.BinarySingleNaN.
From Verif Require Import Machine HistModel Spec Cfg FloatModel FloatSpec FloatFacts IterModel IterLog IterSpec QuantSpec.
Local Open Scope R_scope.

Notation b2 e := (bpow radix2 e).

Lemma b2_pos e : 0 < b2 e. Proof. apply bpow_gt_0. Qed.
Lemma b2_le a b : (a <= b)%Z -> b2 a <= b2 b. Proof. apply bpow_le. Qed.
Lemma b2_inv e : / b2 e = b2 (- e). Proof. rewrite bpow_opp. reflexivity. Qed.
Lemma b2_split a b : b2 (a + b) = b2 a * b2 b. Proof. apply bpow_plus. Qed.
Lemma b2_IZR e : (0 <= e)%Z -> b2 e = IZR (2 ^ e). Proof. intros. rewrite <- IZR_Zpower by auto. reflexivity. Qed.

Lemma gf_below_1 x : gf x -> x < 1 -> x <= 1 - b2 (-53).
Proof.
  intros G L. assert (P : pred radix2 (FLT_exp (-1074) 53) 1 = 1 - b2 (-53)).
  { change 1 with (b2 0). rewrite pred_bpow. reflexivity. }
  rewrite <- P. apply pred_ge_gt; auto; [apply valid_flt64|]. change 1 with (b2 0). apply gf_bpow. lia.
Qed.

Lemma rne_err x : 0 <= x < 1 -> Rabs (rne x - x) <= b2 (-54).
Proof.
  intros X. destruct (Req_dec x 0) as [->|N]. { rewrite rne_0. rewrite Rminus_0_r, Rabs_R0. apply Rlt_le, b2_pos. }
  pose proof (error_le_half_ulp radix2 (FLT_exp (-1074) 53) (fun x => negb (Z.even x)) x) as E. fold (rne x) in E.
  refine (Rle_trans _ _ _ E _). rewrite ulp_neq_0 by auto. unfold cexp, FLT_exp.
  assert (M : (mag radix2 x <= 0)%Z). { apply mag_le_bpow; auto. rewrite Rabs_pos_eq by lra. cbn. lra. }
  replace (/ 2) with (b2 (-1)) by (cbn; lra). rewrite <- bpow_plus. apply bpow_le. lia.
Qed.
Lemma rne_nearest x g : gf g -> Rabs (rne x - x) <= Rabs (g - x).
Proof.
  intros G. destruct (round_N_pt radix2 (FLT_exp (-1074) 53) (fun x => negb (Z.even x)) x) as [_ H]. apply H. auto.
Qed.

(** adding less than half the spacing changes nothing *)
Lemma add_tiny q i : gf q -> / 2 <= q < 1 -> 0 <= i <= b2 (-55) -> rne (q + i) = q.
Proof.
  intros G Q I. pose proof (rne_nearest (q + i) q G) as N. replace (q - (q + i)) with (- i) in N by ring. rewrite Rabs_Ropp, (Rabs_pos_eq i) in N by lra.
  assert (GE : q <= rne (q + i)). { rewrite <- (rne_id q G) at 1. apply rne_le. lra. }
  destruct (Req_dec (rne (q + i)) q) as [E|NE]; auto. exfalso.
  assert (SU : succ radix2 (FLT_exp (-1074) 53) q <= rne (q + i)) by (apply succ_le_lt; auto; [apply valid_flt64|apply rne_gf|lra]).
  rewrite succ_eq_pos in SU by lra. assert (UL : ulp radix2 (FLT_exp (-1074) 53) q = b2 (-53)).
  { rewrite ulp_neq_0 by lra. unfold cexp. assert (M : mag radix2 q = 0%Z :> Z). { apply mag_unique_pos. cbn. lra. } rewrite M. reflexivity. }
  rewrite UL in SU. apply Rabs_le_inv in N. replace (b2 (-53)) with (4 * b2 (-55)) in SU by (cbn; lra). pose proof (b2_pos (-55)). lra.
Qed.

Lemma sub_ok q : is_finite q = true -> 0 <= B2R q <= 1 -> is_finite (f64_sub f64_one q) = true /\ B2R (f64_sub f64_one q) = rne (1 - B2R q).
Proof.
  intros F Q. destruct one_ok as [O1 O2]. pose proof (Bminus_correct 53 1024 prec_gt_0_64 prec_lt_emax_64 mode_NE f64_one q O2 F) as M.
  change (round radix2 (SpecFloat.fexp 53 1024) (round_mode mode_NE) ?x) with (rne x) in M. rewrite O1 in M. rewrite small_finite in M.
  - destruct M as (A & B & _). split; [exact B|exact A].
  - rewrite Rabs_pos_eq by lra. apply Rle_trans with 1; [lra|]. change 1 with (b2 0). apply bpow_le. lia.
Qed.
Lemma add_ok a b : is_finite a = true -> is_finite b = true -> 0 <= B2R a <= 1 -> 0 <= B2R b <= 1 ->
  is_finite (f64_add a b) = true /\ B2R (f64_add a b) = rne (B2R a + B2R b).
Proof.
  intros FA FB A B. pose proof (Bplus_correct 53 1024 prec_gt_0_64 prec_lt_emax_64 mode_NE a b FA FB) as M.
  change (round radix2 (SpecFloat.fexp 53 1024) (round_mode mode_NE) ?x) with (rne x) in M. rewrite small_finite in M.
  - destruct M as (X & Y & _). split; [exact Y|exact X].
  - rewrite Rabs_pos_eq by lra. apply Rle_trans with (b2 1); [cbn; lra|]. apply bpow_le. lia.
Qed.
Lemma inv_ok d : is_finite d = true -> b2 (-64) <= B2R d -> is_finite (f64_div f64_one d) = true /\ B2R (f64_div f64_one d) = rne (/ B2R d).
Proof.
  intros F D. destruct one_ok as [O1 O2]. pose proof (b2_pos (-64)) as P0. assert (NZ : B2R d <> 0) by lra.
  pose proof (Bdiv_correct 53 1024 prec_gt_0_64 prec_lt_emax_64 mode_NE f64_one d NZ) as M.
  change (round radix2 (SpecFloat.fexp 53 1024) (round_mode mode_NE) ?x) with (rne x) in M. rewrite O1 in M. unfold Rdiv in M. rewrite Rmult_1_l in M. rewrite small_finite in M.
  - destruct M as (A & B & _). split; [exact (eq_trans B O2)|exact A].
  - rewrite Rabs_pos_eq by (apply Rlt_le, Rinv_0_lt_compat; lra). apply Rle_trans with (b2 64); [|apply bpow_le; lia].
    rewrite <- (b2_inv (-64)) || idtac. apply Rle_trans with (/ b2 (-64)); [apply Rinv_le; auto|]. rewrite b2_inv. apply bpow_le. lia.
Qed.

(** ** One step *)
Section STEP.
Context (lg : f64 -> f64) (LG : log2_ok lg) (ticks : Z) (TK : (0 < ticks < 2 ^ 32)%Z).

Definition okq (q : f64) : Prop :=
  is_finite q = true /\ 0 <= B2R q <= 1 /\ (B2R q < 1 -> (ticks < 1024)%Z \/ IZR ticks * b2 (-59) <= 1 - B2R q).

Lemma halvings q : okq q -> B2R q < 1 ->
  let nh := f64_to_u32 (lg (f64_div f64_one (f64_sub f64_one q))) in
  (0 <= nh <= 53)%Z /\ b2 (- (nh + 1)) < 1 - B2R q <= b2 (- nh) * (1 + b2 (-38)) /\ (/ 2 <= B2R q \/ (nh <= 1)%Z).
Proof.
  intros (F & Q & _) L. destruct (sub_ok q F Q) as [FS BS]. pose proof (gf_below_1 _ (gf_B2R q) L) as Q1.
  set (D := rne (1 - B2R q)) in *.
  assert (D1 : b2 (-53) <= D <= 1).
  { unfold D. rewrite <- (rne_id (b2 (-53))) by (apply gf_bpow; lia). split; [apply rne_le; lra|]. apply Rle_trans with (rne 1); [apply rne_le; lra|rewrite rne_1; lra]. }
  pose proof (b2_pos (-53)) as P53.
  destruct (inv_ok _ FS) as [FY BY]. { rewrite BS. pose proof (b2_le (-64) (-53) ltac:(lia)). lra. }
  rewrite BS in BY. set (y := f64_div f64_one (f64_sub f64_one q)) in *. cbn zeta.
  assert (ID : 1 <= / D <= b2 53).
  { split; [rewrite <- Rinv_1; apply Rinv_le; lra|]. change 53%Z with (- (-53))%Z. rewrite <- b2_inv. apply Rinv_le; lra. }
  destruct (mag radix2 (/ D)) as [e E]. specialize (E ltac:(lra)). rewrite Rabs_pos_eq in E by lra.
  set (k := (e - 1)%Z) in *. replace e with (k + 1)%Z in E by lia.
  assert (K0 : (0 <= k)%Z). { assert (b2 0 < b2 (k + 1)) as X by (change (b2 0) with 1; lra). apply lt_bpow in X. lia. }
  assert (K1 : (k <= 53)%Z). { apply (le_bpow radix2). lra. }
  assert (Y : b2 k <= B2R y <= b2 (k + 1)).
  { rewrite BY. rewrite <- (rne_id (b2 k)), <- (rne_id (b2 (k + 1))) by (apply gf_bpow; lia). split; apply rne_le; lra. }
  destruct (LG y k FY ltac:(lia) Y) as (FL & BL & BS1). unfold finite, real_of in *.
  assert (NH : f64_to_u32 (lg y) = Z.max 0 (Z.min u32_max (Ztrunc (B2R (lg y))))).
  { clear - FL. unfold f64_to_u32, f64_to_uint. pose proof (Btrunc_correct 53 1024 prec_lt_emax_64 (lg y)) as T. rewrite round_FIX_IZR in T. apply eq_IZR in T.
    destruct (lg y); cbn [is_finite] in FL; try discriminate; rewrite <- T; reflexivity. }
  assert (TR : (k <= Ztrunc (B2R (lg y)) <= k + 1)%Z).
  { rewrite Ztrunc_floor by (apply Rle_trans with (IZR k); [apply IZR_le; auto|apply BL]). split.
    - rewrite <- (Zfloor_IZR k). apply Zfloor_le. apply BL.
    - rewrite <- (Zfloor_IZR (k + 1)). apply Zfloor_le. rewrite plus_IZR. apply BL. }
  (* a power of two is exact *)
  assert (EX : B2R y = b2 k -> (Ztrunc (B2R (lg y)) = k)%Z).
  { intros EY. destruct (LG y (k - 1)%Z FY ltac:(lia)) as (_ & BL2 & _). { unfold real_of. rewrite EY. split; [apply b2_le; lia|]. apply b2_le; lia. }
    unfold real_of in BL2. rewrite minus_IZR in BL2. assert (E2 : B2R (lg y) = IZR k) by lra. rewrite E2. apply Ztrunc_IZR. }
  set (nh := f64_to_u32 (lg y)) in *. assert (NHE : nh = Ztrunc (B2R (lg y))) by (rewrite NH; unfold u32_max; lia).
  assert (DR : b2 (- (k + 1)) < D <= b2 (- k)).
  { rewrite <- !b2_inv. rewrite <- (Rinv_inv D). split.
    - apply Rinv_lt_contravar; [|apply E]. apply Rmult_lt_0_compat; [lra|apply b2_pos].
    - apply Rinv_le; [apply b2_pos|apply E]. }
  assert (B53 : (nh <= 53)%Z).
  { destruct (Z.eq_dec k 53) as [K|K]; [|lia]. rewrite NHE, EX; [lia|]. apply Rle_antisym; [|apply Y]. rewrite K, BY. rewrite <- (rne_id (b2 53)) by (apply gf_bpow; lia). apply rne_le, ID. }
  assert (DU : D <= b2 (- nh) * (1 + b2 (-39))).
  { pose proof (b2_pos (- nh)) as PN. pose proof (b2_pos (-39)) as P39. destruct (Z_le_gt_dec nh k) as [NK|NK].
    - apply Rle_trans with (b2 (- k)); [apply DR|]. assert (b2 (- k) <= b2 (- nh)) by (apply b2_le; lia). nra.
    - assert (NK2 : nh = (k + 1)%Z) by lia.
      assert (YG : b2 (k + 1) * (1 - b2 (-40)) < B2R y).
      { destruct (Rlt_le_dec (b2 (k + 1) * (1 - b2 (-40))) (B2R y)) as [|G]; auto. exfalso. specialize (BS1 K0 G).
        assert (Zfloor (B2R (lg y)) < k + 1)%Z; [|rewrite Ztrunc_floor in NHE by (apply Rle_trans with (IZR k); [apply IZR_le; auto|apply BL]); lia].
        apply lt_IZR. rewrite plus_IZR. apply Rle_lt_trans with (2 := BS1). apply Zfloor_lb. }
      assert (GG : gf (b2 (k + 1) * (1 - b2 (-40)))).
      { replace (b2 (k + 1) * (1 - b2 (-40))) with (IZR (2 ^ 40 - 1) * b2 (k + 1 - 40)).
        - apply generic_format_FLT. exists (Float radix2 (2 ^ 40 - 1) (k + 1 - 40)); cbn [Fnum Fexp]; [reflexivity|reflexivity|lia].
        - rewrite minus_IZR, <- b2_IZR by lia. replace (k + 1 - 40)%Z with (k + 1 + -40)%Z by lia. rewrite b2_split. replace (b2 40) with (/ b2 (-40)) by (rewrite b2_inv; reflexivity). pose proof (b2_pos (-40)). field. lra. }
      assert (IG : b2 (k + 1) * (1 - b2 (-40)) < / D).
      { destruct (Rlt_le_dec (b2 (k + 1) * (1 - b2 (-40))) (/ D)) as [|G]; auto. exfalso. apply rne_le in G. rewrite (rne_id _ GG) in G. lra. }
      assert (E39 : b2 (-39) = 2 * b2 (-40)) by (cbn; lra). pose proof (b2_pos (k + 1)) as PK.
      assert (P40 : 0 < b2 (-40) <= / 8). { split; [apply b2_pos|]. change (/ 8) with (b2 (-3)). apply b2_le. lia. }
      rewrite NK2, <- b2_inv, E39. apply Rmult_le_reg_l with (b2 (k + 1)); auto. rewrite <- Rmult_assoc, Rinv_r, Rmult_1_l by lra.
      assert (X : b2 (k + 1) * (1 - b2 (-40)) * D < 1). { replace 1 with (/ D * D) at 2 by (apply Rinv_l; lra). apply Rmult_lt_compat_r; lra. }
      set (B := b2 (k + 1)) in *. set (e40 := b2 (-40)) in *. assert (B * D <= 2) by nra. nra. }
  destruct (Rle_dec (/ 2) (B2R q)) as [H|H].
  - (* the difference is exact *)
    assert (DE : D = 1 - B2R q).
    { unfold D. apply rne_id. apply sterbenz; [apply FLT_exp_valid; reflexivity|apply FLT_exp_monotone| |apply gf_B2R|lra]. change 1 with (b2 0). apply gf_bpow. lia. }
    rewrite <- DE. split; [lia|]. split; [|left; auto]. split.
    + apply Rle_lt_trans with (b2 (- (k + 1))); [apply b2_le; lia|apply DR].
    + apply Rle_trans with (1 := DU). apply Rmult_le_compat_l; [apply Rlt_le, b2_pos|]. apply Rplus_le_compat_l, b2_le. lia.
  - assert (DH : / 2 <= D). { unfold D. replace (/ 2) with (b2 (-1)) by (cbn; lra). rewrite <- (rne_id (b2 (-1))) by (apply gf_bpow; lia). apply rne_le. cbn. lra. }
    assert (KK : k = 0%Z \/ (k = 1%Z /\ D = / 2)).
    { destruct (Z.eq_dec k 0); auto. right. assert (b2 (- k) <= b2 (-1)) as X by (apply b2_le; lia). change (b2 (-1)) with (/ 2) in X.
      assert (D = / 2) by (destruct DR; lra). split; auto. assert (b2 (-1) <= b2 (- k)) as X2 by (change (b2 (-1)) with (/ 2); lra). apply le_bpow in X2. lia. }
    assert (N1 : (nh <= 1)%Z).
    { destruct KK as [->|[K K2]]; [lia|]. rewrite NHE, EX; [lia|]. rewrite BY, K2, K. rewrite Rinv_inv. apply (rne_IZR 2). lia. }
    split; [lia|]. split; [|right; auto]. split.
    + apply Rle_lt_trans with (b2 (-1)); [apply b2_le; lia|]. cbn. lra.
    + assert (DD : 1 - B2R q <= D + b2 (-54)).
      { destruct (Req_dec (B2R q) 0) as [Q0|Q0]; [unfold D; rewrite Q0, Rminus_0_r, rne_1; pose proof (b2_pos (-54)); lra|].
        pose proof (rne_err (1 - B2R q) ltac:(lra)) as ER. fold D in ER. apply Rabs_le_inv in ER. lra. }
      assert (b2 (-1) <= b2 (- nh)) as PN by (apply b2_le; lia). assert (b2 (-54) <= b2 (-41)) by (apply b2_le; lia).
      assert (b2 (-38) = 2 * b2 (-39)) as E38 by (cbn; lra). assert (b2 (-41) = b2 (-39) / 4) as E41 by (cbn; lra). change (b2 (-1)) with (/ 2) in PN. pose proof (b2_pos (-39)). rewrite E38. nra.
Qed.

Lemma next_ok q : okq q -> B2R q < 1 ->
  exists q', next_quantile lg ticks q = Ret q' /\ okq q' /\ B2R q < B2R q' /\ tick ticks (B2R q) (B2R q').
Proof.
  intros OK L. destruct (halvings q OK L) as (NB & NR & NS). pose proof OK as (F & Q & INVQ).
  unfold next_quantile. set (nh := f64_to_u32 _) in *. cbn zeta in *.
  unfold u32_add. rewrite in_range_ok by (unfold u32_max; lia). cbn [bind]. unfold u64_shl.
  assert (P2 : (2 <= 2 ^ (nh + 1) <= 2 ^ 54)%Z). { split; [change 2%Z with (2 ^ 1)%Z at 1; apply Z.pow_le_mono_r; lia|apply Z.pow_le_mono_r; lia]. }
  rewrite (proj2 (Z.ltb_lt _ _)) by lia. cbn [bind]. rewrite Z.shiftl_mul_pow2, Z.mul_1_l, Z.mod_small by (change (2 ^ 64)%Z with 18446744073709551616%Z; lia).
  set (T := (ticks * 2 ^ (nh + 1))%Z).
  assert (TR : IZR T = IZR ticks * b2 (nh + 1)) by (unfold T; rewrite mult_IZR, <- b2_IZR by lia; reflexivity).
  assert (TKR : 1 <= IZR ticks). { apply IZR_le. lia. }
  assert (TB : (1 <= T <= u64_max)%Z).
  { split; [unfold T; nia|]. destruct INVQ as [S|S]; auto.
    - unfold T, u64_max. assert (ticks * 2 ^ (nh + 1) <= 1023 * 2 ^ 54)%Z by nia. lia.
    - apply Z.le_trans with (2 ^ 61)%Z; [|unfold u64_max; lia]. apply le_IZR. rewrite TR, <- (b2_IZR 61) by lia.
      assert (X : IZR ticks * b2 (-59) <= b2 (1 - nh)).
      { replace (1 - nh)%Z with (- nh + 1)%Z by lia. rewrite b2_split. change (b2 1) with 2. pose proof (b2_pos (- nh)). assert (b2 (-38) <= b2 0) as X0 by (apply b2_le; lia). change (b2 0) with 1 in X0. nra. }
      assert (X2 : IZR ticks * b2 (-59) * b2 (nh + 60) <= b2 (1 - nh) * b2 (nh + 60)) by (apply Rmult_le_compat_r; auto; apply Rlt_le, b2_pos).
      rewrite Rmult_assoc, <- !b2_split in X2. replace (-59 + (nh + 60))%Z with (nh + 1)%Z in X2 by lia. replace (1 - nh + (nh + 60))%Z with 61%Z in X2 by lia. auto. }
  unfold u64_mul. fold T. rewrite in_range_ok by lia. cbn [bind].
  assert (GT : gf (IZR T)).
  { rewrite TR. apply generic_format_FLT. exists (Float radix2 ticks (nh + 1)); cbn [Fnum Fexp]; auto; [|lia].
    change (radix2 ^ 53)%Z with (2 ^ 53)%Z. rewrite Z.abs_eq by lia. apply Z.lt_trans with (2 ^ 32)%Z; [lia|reflexivity]. }
  destruct (of_u64_ok T ltac:(lia)) as (A & B & _). rewrite (rne_id _ GT) in A.
  assert (T64 : IZR T <= b2 64). { rewrite b2_IZR by lia. apply IZR_le. unfold u64_max in TB. lia. }
  assert (T1 : 1 <= IZR T) by (apply IZR_le; lia).
  destruct (inv_ok (f64_of_u64 T) B) as [FI BI]. { rewrite A. apply Rle_trans with 1; auto. change 1 with (b2 0). apply b2_le. lia. }
  rewrite A in BI. set (inc := f64_div f64_one (f64_of_u64 T)) in *.
  assert (IT : / IZR T <= b2 (- (nh + 1))).
  { rewrite <- b2_inv. apply Rinv_le; [apply b2_pos|]. rewrite TR. pose proof (b2_pos (nh + 1)). nra. }
  assert (IP : 0 < / IZR T) by (apply Rinv_0_lt_compat; lra).
  assert (IB : 0 <= B2R inc <= b2 (- (nh + 1))).
  { rewrite BI. split; [apply rne_nonneg; lra|]. rewrite <- (rne_id (b2 (- (nh + 1)))) by (apply gf_bpow; lia). apply rne_le. auto. }
  assert (B1 : b2 (- (nh + 1)) <= 1). { change 1 with (b2 0). apply b2_le. lia. }
  destruct (add_ok q inc F FI Q ltac:(lra)) as [FS BS]. set (sum := f64_add q inc) in *.
  assert (SR : B2R q <= B2R sum <= 1).
  { rewrite BS. split; [rewrite <- (rne_id _ (gf_B2R q)) at 1; apply rne_le; lra|]. apply Rle_trans with (rne 1); [apply rne_le; lra|rewrite rne_1; lra]. }
  destruct one_ok as [O1 O2].
  assert (EQ : f64_eq sum q = true <-> B2R sum = B2R q). { unfold f64_eq. rewrite Beqb_correct by auto. split; intros H; [destruct (Req_bool_spec (B2R sum) (B2R q)); congruence|apply Req_bool_true; auto]. }
  assert (TICK : forall r, (B2R sum <> B2R q /\ r = B2R sum) \/ (B2R sum = B2R q /\ r = 1) -> tick ticks (B2R q) r).
  { intros r H. exists nh. split; [lia|]. split; [exact NR|]. cbn zeta. rewrite <- TR, <- BI, <- BS. exact H. }
  destruct (f64_eq sum q) eqn:EB.
  - exists f64_one. split; auto. rewrite O1. split; [|split; [lra|apply TICK; right; split; auto; apply EQ; auto]].
    split; auto. rewrite O1. split; [lra|]. lra.
  - assert (NE : B2R sum <> B2R q) by (intros H; apply EQ in H; congruence).
    exists sum. split; auto. split; [|split; [lra|apply TICK; left; auto]]. split; auto. split; [lra|]. intros S1.
    destruct (Z_lt_le_dec ticks 1024) as [|TL]; auto. right.
    assert (TS : (T < 2 ^ 55)%Z).
    { destruct (Z_lt_le_dec T (2 ^ 55)) as [|G]; auto. exfalso. apply NE. rewrite BS. apply add_tiny; [apply gf_B2R| |].
      - split; auto. destruct NS as [NS|NS]; auto. exfalso. unfold T in G. assert (2 ^ (nh + 1) <= 2 ^ 2)%Z by (apply Z.pow_le_mono_r; lia).
        change (2 ^ 55)%Z with 36028797018963968%Z in G. change (2 ^ 32)%Z with 4294967296%Z in TK. nia.
      - split; [apply IB|]. rewrite BI. rewrite <- (rne_id (b2 (-55))) by (apply gf_bpow; lia). apply rne_le. change (-55)%Z with (- (55))%Z. rewrite <- b2_inv. apply Rinv_le; [apply b2_pos|].
        rewrite b2_IZR by lia. apply IZR_le. auto. }
    assert (TS2 : IZR T <= b2 55) by (rewrite b2_IZR by lia; apply IZR_le; lia).
    assert (QI : B2R q + B2R inc < 1) by lra.
    pose proof (rne_err (B2R q + B2R inc) ltac:(lra)) as ER. rewrite <- BS in ER. apply Rabs_le_inv in ER.
    (* the increment is at most 2 / T *)
    assert (I2 : B2R inc <= 2 * / IZR T).
    { rewrite BI. assert (GI : gf (2 * / IZR T) \/ True) by auto. clear GI.
      destruct (mag radix2 (/ IZR T)) as [e E]. specialize (E ltac:(lra)). rewrite Rabs_pos_eq in E by lra.
      assert (E64 : (-65 <= e)%Z). { assert (b2 (-64) <= / IZR T) as X. { change (-64)%Z with (- (64))%Z. rewrite <- b2_inv. apply Rinv_le; auto. lra. } assert (b2 (-64) < b2 e) as X2 by lra. apply lt_bpow in X2. lia. }
      apply Rle_trans with (b2 e).
      - rewrite <- (rne_id (b2 e)) by (apply gf_bpow; lia). apply rne_le. lra.
      - replace e with (1 + (e - 1))%Z by lia. rewrite b2_split. change (b2 1) with 2. apply Rmult_le_compat_l; lra. }
    assert (DT : IZR ticks * / IZR T < 1 - B2R q).
    { apply Rle_lt_trans with (b2 (- (nh + 1))); [|apply NR]. rewrite TR, <- b2_inv. rewrite Rinv_mult. rewrite <- Rmult_assoc, Rinv_r by lra. lra. }
    assert (T55 : b2 (-55) <= / IZR T). { change (-55)%Z with (- (55))%Z. rewrite <- b2_inv. apply Rinv_le; lra. }
    assert (TK4 : 1024 <= IZR ticks) by (apply IZR_le; auto).
    assert (E59 : b2 (-59) = b2 (-55) / 16) by (cbn; lra). assert (E54 : b2 (-54) = 2 * b2 (-55)) by (cbn; lra). rewrite E59. rewrite E54 in ER. pose proof (b2_pos (-55)).
    assert ((IZR ticks - 2) * b2 (-55) <= (IZR ticks - 2) * / IZR T) by (apply Rmult_le_compat_l; lra). nra.
Qed.
End STEP.
