(** * [iter_log] *)
From Coq Require Import ZArith Reals Lia Lra Bool List.
From Flocq Require Import Core IEEE754.BinarySingleNaN.
From Verif Require Import Machine Log2Model HistModel Spec Reach Bins ListZ Log2Facts Cfg Wf Ops AddFacts MoreFacts HeldFacts FloatModel FloatSpec FloatFacts IterModel IterSpec IterFacts IterBins PfQuery PfIter IterLevels IterLinear.
Import ListNotations.
Local Open Scope Z_scope.

(** ** Growing floats *)
(** [x] is infinite or at least [r] *)
Definition atleast (x : f64) (r : R) : Prop := x = B754_infinity false \/ (is_finite x = true /\ (r <= B2R x)%R).

Lemma atleast_le x r s : (s <= r)%R -> atleast x r -> atleast x s.
Proof. intros L [->|[F G]]; [left; auto|right; split; auto; lra]. Qed.

Lemma to_u64_finite x : is_finite x = true -> f64_to_u64 x = Z.max 0 (Z.min u64_max (Ztrunc (B2R x))).
Proof.
  intros F. unfold f64_to_u64, f64_to_uint. pose proof (Btrunc_correct 53 1024 prec_lt_emax_64 x) as T. rewrite round_FIX_IZR in T. apply eq_IZR in T.
  destruct x; cbn [is_finite] in F; try discriminate; rewrite <- T; reflexivity.
Qed.
Lemma to_u64_ge x n : 0 <= n <= u64_max -> atleast x (IZR n) -> n <= f64_to_u64 x <= u64_max.
Proof.
  intros N [->|[F G]]; [cbn; unfold u64_max in *; lia|]. rewrite to_u64_finite by auto.
  rewrite Ztrunc_floor by (apply Rle_trans with (IZR n); auto; apply IZR_le; lia).
  apply Zfloor_le in G. rewrite Zfloor_IZR in G. lia.
Qed.
Lemma to_u64_floor x r : (0 <= r)%R -> atleast x r -> Z.min u64_max (Zfloor r) <= f64_to_u64 x.
Proof.
  intros N A. assert (0 <= Zfloor r) by (apply Zfloor_lub; auto). apply to_u64_ge; [unfold u64_max in *; lia|]. apply (atleast_le x r); auto.
  apply Rle_trans with (IZR (Zfloor r)); [apply IZR_le; lia|apply Zfloor_lb].
Qed.
Lemma to_u64_range x : 0 <= f64_to_u64 x <= u64_max.
Proof. unfold f64_to_u64, f64_to_uint. destruct x as [s|[]| |s m e B]; unfold u64_max; lia. Qed.
Lemma to_u64_atleast x : atleast x 1 -> exists r, atleast x r /\ (1 <= r)%R /\ f64_to_u64 x = Z.min u64_max (Zfloor r).
Proof.
  intros [->|[F G]].
  - exists (IZR u64_max). rewrite Zfloor_IZR. split; [left; auto|]. split; [apply IZR_le; unfold u64_max; lia|]. cbn. reflexivity.
  - exists (B2R x). split; [right; split; auto; lra|]. split; auto. rewrite to_u64_finite by auto. rewrite Ztrunc_floor by lra.
    assert (0 <= Zfloor (B2R x)) by (apply Zfloor_lub; simpl; lra). unfold u64_max in *. lia.
Qed.

Lemma base_cases b : f64_lt f64_one b = true -> b = B754_infinity false \/ (is_finite b = true /\ Bsign b = false /\ (1 + bpow radix2 (-52) <= B2R b)%R).
Proof.
  intros L. destruct one_ok as [O1 O2]. unfold f64_lt in L.
  destruct b as [s|s| |s m e B] eqn:EB.
  - cbn in L. destruct s; discriminate.
  - cbn in L. destruct s; [discriminate|auto].
  - cbn in L. discriminate.
  - right. split; auto. rewrite Bltb_correct in L by auto. apply Rlt_bool_true_iff in L || (destruct (Rlt_bool_spec (B2R f64_one) (B2R (B754_finite s m e B))); [|discriminate]).
    rewrite O1 in *. split.
    + destruct s; auto. exfalso. assert (B2R (@B754_finite 53 1024 true m e B) < 0)%R by (apply F2R_lt_0; reflexivity). lra.
    + assert (S1 : succ radix2 (FLT_exp (-1074) 53) 1 = (1 + bpow radix2 (-52))%R).
      { rewrite succ_eq_pos by lra. f_equal. change 1%R with (bpow radix2 0). rewrite ulp_bpow. reflexivity. }
      rewrite <- S1. apply succ_le_lt; auto; [apply valid_flt64| |apply gf_B2R].
      change 1%R with (bpow radix2 0). apply gf_bpow. lia.
Qed.

Lemma mul_grows x b : f64_lt f64_one b = true -> atleast x 1 ->
  match x with B754_infinity _ => atleast (f64_mul x b) 1 /\ f64_mul x b = B754_infinity false
  | _ => atleast (f64_mul x b) (succ radix2 (FLT_exp (-1074) 53) (B2R x)) end.
Proof.
  intros L A. destruct (base_cases b L) as [->|(FB & SB & GB)].
  { destruct A as [->|[F G]]; [split; [left|]; reflexivity|]. destruct x as [s|s| |s m e B]; try discriminate; cbn in G; [lra|].
    left. destruct s; [|reflexivity]. exfalso. assert (B2R (@B754_finite 53 1024 true m e B) < 0)%R by (apply F2R_lt_0; reflexivity). unfold B2R in H. cbn in *. lra. }
  destruct A as [->|[F G]].
  { assert (E : f64_mul (B754_infinity false) b = B754_infinity false). { destruct b as [s|s| |s m e B]; try discriminate; cbn in SB; subst; reflexivity. }
    split; auto. left; auto. }
  assert (SX : Bsign x = false).
  { destruct x as [s|s| |s m e B]; try discriminate; cbn in G; [lra|]. destruct s; auto. exfalso. assert (B2R (@B754_finite 53 1024 true m e B) < 0)%R by (apply F2R_lt_0; reflexivity). unfold B2R in H. cbn in *. lra. }
  assert (X : atleast (f64_mul x b) (succ radix2 (FLT_exp (-1074) 53) (B2R x))); [|destruct x; try discriminate; exact X].
  assert (UL : (ulp radix2 (FLT_exp (-1074) 53) (B2R x) <= B2R x * bpow radix2 (-52))%R).
  { rewrite ulp_neq_0 by lra. unfold cexp, FLT_exp. 
    assert (M1 : (1 <= mag radix2 (B2R x))%Z). { apply mag_ge_bpow. cbn. rewrite Rabs_pos_eq by lra. lra. }
    rewrite Z.max_l by lia. replace (mag radix2 (B2R x) - 53)%Z with ((mag radix2 (B2R x) - 1) + -52)%Z by lia. rewrite bpow_plus.
    apply Rmult_le_compat_r; [apply bpow_ge_0|]. destruct (mag radix2 (B2R x)) as [e E]. cbn [mag_val]. pose proof (E ltac:(lra)) as E2. rewrite Rabs_pos_eq in E2 by lra. apply E2. }
  assert (SE : succ radix2 (FLT_exp (-1074) 53) (B2R x) = (B2R x + ulp radix2 (FLT_exp (-1074) 53) (B2R x))%R) by (apply succ_eq_pos; lra).
  assert (GE : (succ radix2 (FLT_exp (-1074) 53) (B2R x) <= rne (B2R x * B2R b))%R).
  { rewrite <- (rne_id (succ radix2 (FLT_exp (-1074) 53) (B2R x))). { apply rne_le. rewrite SE. nra. }
    apply generic_format_succ; [apply valid_flt64|apply gf_B2R]. }
  pose proof (Bmult_correct 53 1024 prec_gt_0_64 prec_lt_emax_64 mode_NE x b) as M.
  change (round radix2 (SpecFloat.fexp 53 1024) (round_mode mode_NE) ?x) with (rne x) in M.
  destruct (Rlt_bool (Rabs (rne (B2R x * B2R b))) (bpow radix2 1024)).
  - destruct M as (M1 & M2 & _). right. rewrite F, FB in M2. split; [exact M2|]. refine (Rle_trans _ _ _ GE _). apply Req_le. symmetry. exact M1.
  - rewrite SX, SB in M. cbn in M. apply SF_inf in M. left. exact M.
Qed.
Lemma succ_ge x : (1 <= x)%R -> (x + bpow radix2 (-52) <= succ radix2 (FLT_exp (-1074) 53) x)%R.
Proof.
  intros G. rewrite succ_eq_pos by lra. apply Rplus_le_compat_l. rewrite ulp_neq_0 by lra. unfold cexp, FLT_exp. apply bpow_le.
  assert (M1 : (1 <= mag radix2 x)%Z). { apply mag_ge_bpow. cbn. rewrite Rabs_pos_eq by lra. lra. } lia.
Qed.
Lemma mul_more x b r : f64_lt f64_one b = true -> (1 <= r)%R -> atleast x r -> atleast (f64_mul x b) (r + bpow radix2 (-52)).
Proof.
  intros L R1 A. pose proof (mul_grows x b L (atleast_le x r 1 R1 A)) as M. destruct A as [->|[F G]].
  - destruct M as [_ ->]. left. auto.
  - assert (M' : atleast (f64_mul x b) (succ radix2 (FLT_exp (-1074) 53) (B2R x))) by (destruct x; try discriminate; exact M).
    refine (atleast_le _ _ _ _ M'). pose proof (succ_ge (B2R x) ltac:(lra)). lra.
Qed.

(** the first level *)
Lemma first_level n b : 1 <= n <= u64_max -> f64_lt f64_one b = true -> atleast (f64_of_u64 n) 1 /\ n <= f64_to_u64 (f64_mul (f64_of_u64 n) b).
Proof.
  intros N L. destruct (of_u64_ok n ltac:(lia)) as (A & B & C). pose proof (rne_pos_int n ltac:(lia)) as P.
  assert (A1 : atleast (f64_of_u64 n) 1) by (right; split; auto; rewrite A; auto). split; auto.
  pose proof (mul_grows _ b L A1) as M. assert (M' : atleast (f64_mul (f64_of_u64 n) b) (succ radix2 (FLT_exp (-1074) 53) (rne (IZR n)))).
  { rewrite <- A. destruct (f64_of_u64 n); try discriminate; exact M. }
  apply to_u64_ge; [lia|]. refine (atleast_le _ _ _ _ M'). apply succ_round_ge_id; [apply valid_flt64|apply valid_rnd_N].
Qed.

(** ** The run *)
Definition lgp (h : hist) (x b : f64) (l : Z) : logit := mk_logit x b (loweq (h_um h) (h_half_mag h) l) l.
Definition good (x b : f64) (l : Z) : Prop := atleast x 1 /\ 0 <= l /\ l + 1 <= f64_to_u64 (f64_mul x b).

Lemma good_next x b l : f64_lt f64_one b = true -> good x b l -> good (f64_mul x b) b (f64_to_u64 (f64_mul x b) - 1).
Proof.
  intros L (A & B & C). pose proof (mul_more x b 1 L (Rle_refl 1) A) as M.
  assert (A' : atleast (f64_mul x b) 1). { refine (atleast_le _ _ _ _ M). pose proof (bpow_gt_0 radix2 (-52)). lra. }
  split; auto. split; [lia|]. destruct (to_u64_atleast _ A') as (r & R1 & R2 & R3).
  pose proof (mul_more _ b r L R2 R1) as M2. apply to_u64_floor in M2; [|pose proof (bpow_gt_0 radix2 (-52)); lra].
  assert (Zfloor r <= Zfloor (r + bpow radix2 (-52))) by (apply Zfloor_le; pose proof (bpow_gt_0 radix2 (-52)); lra). lia.
Qed.
Lemma good_u64 x b l : good x b l -> u64 l /\ l < u64_max.
Proof. intros (A & B & C). pose proof (to_u64_range (f64_mul x b)). unfold u64. lia. Qed.

Lemma log_picks h x b l : wf h -> f64_lt f64_one b = true -> good x b l ->
  picks pk_log h (lgp h x b l) l (lgp h (f64_mul x b) b (f64_to_u64 (f64_mul x b) - 1)).
Proof.
  intros W L G. pose proof (w_cfg h W) as C. pose proof (w_size h W) as SZ. destruct (good_u64 x b l G) as [U _]. split; auto. intros i t c I. cbn [pk_pick pk_log].
  pose proof (len_le_top h C SZ). rewrite value_for_ok by (auto; lia). cbn [bind]. rewrite last_index_ok by auto. cbn [bind].
  change (val (h_um h) (h_half_mag h) i) with (bval h i). change (lg_low (lgp h x b l)) with (loweq (h_um h) (h_half_mag h) l).
  rewrite low_cbin by auto. destruct (cbin h l <=? i); auto. cbn [lgp lg_high lg_next lg_base].
  destruct (good_u64 _ _ _ (good_next x b l L G)) as [U2 _]. unfold u64_sub. rewrite in_range_ok by exact U2. cbn [bind]. rewrite lowest_equivalent_ok by auto. reflexivity.
Qed.

(** [more] is never true *)
Lemma log_more h x b l st : wf h -> f64_lt f64_one b = true -> good x b l ->
  it_picker st = lgp h (f64_mul x b) b (f64_to_u64 (f64_mul x b) - 1) -> it_index st = cbin h l ->
  pk_more pk_log h (it_picker st) (it_index st) = Ret (false, it_picker st).
Proof.
  intros W L G PK IX. pose proof (w_cfg h W) as C. pose proof (w_size h W) as SZ. destruct (good_u64 x b l G) as [U _]. pose proof (cbin_range h l W U) as CR.
  pose proof (to_u64_range (f64_mul x b)) as UR. cbn [pk_more pk_log]. rewrite PK, IX. cbn [lgp lg_next].
  rewrite lowest_equivalent_ok by (auto; exact UR). cbn [bind]. pose proof (len_le_top h C SZ). rewrite value_for_ok by (auto; lia). cbn [bind].
  f_equal. f_equal. apply Z.ltb_ge. change (val (h_um h) (h_half_mag h) ?i) with (bval h i).
  rewrite <- (bval_bin h (f64_to_u64 (f64_mul x b))) by (auto; apply UR). apply bval_le; auto; [lia|]. destruct G as (_ & G0 & G1).
  pose proof (bin_mono h l (f64_to_u64 (f64_mul x b)) C ltac:(lia)). unfold cbin. lia.
Qed.

Definition eps52 : R := bpow radix2 (-52).
Definition close (n : nat) (x : f64) (l : Z) : Prop :=
  l = u64_max - 1 \/ exists m, n = S m /\ atleast x (bpow radix2 64 - INR m * eps52).

Lemma close_exists x l : atleast x 1 -> exists n, close n x l.
Proof.
  intros A. assert (M : exists m, INR m = bpow radix2 116).
  { exists (Z.to_nat (2 ^ 116)). rewrite INR_IZR_INZ, Z2Nat.id by lia. reflexivity. }
  destruct M as (m & M). exists (S m). right. exists m. split; auto. refine (atleast_le _ _ _ _ A).
  rewrite M. unfold eps52. rewrite <- bpow_plus. change (116 + -52) with 64. lra.
Qed.

(** small integers are exact *)
Lemma of_u64_exact n : 0 <= n <= 2 ^ 53 -> B2R (f64_of_u64 n) = IZR n /\ is_finite (f64_of_u64 n) = true /\ Bsign (f64_of_u64 n) = false.
Proof. intros N. destruct (of_u64_ok n ltac:(unfold u64_max; lia)) as (A & B & C). rewrite rne_IZR in A by lia. auto. Qed.
Lemma to_u64_exact n : 0 <= n <= 2 ^ 53 -> f64_to_u64 (f64_of_u64 n) = n.
Proof. intros N. destruct (of_u64_exact n N) as (A & B & C). rewrite to_u64_finite by auto. rewrite A, Ztrunc_IZR. unfold u64_max. lia. Qed.
Lemma mul_exact a b : 0 < a -> 0 < b -> a * b <= 2 ^ 53 -> f64_mul (f64_of_u64 a) (f64_of_u64 b) = f64_of_u64 (a * b).
Proof.
  intros A0 B0 L. destruct (of_u64_exact a ltac:(nia)) as (A & FA & SA). destruct (of_u64_exact b ltac:(nia)) as (B & FB & SB). destruct (of_u64_exact (a * b) ltac:(nia)) as (P & FP & SP).
  pose proof (Bmult_correct 53 1024 prec_gt_0_64 prec_lt_emax_64 mode_NE (f64_of_u64 a) (f64_of_u64 b)) as M.
  change (round radix2 (SpecFloat.fexp 53 1024) (round_mode mode_NE) ?x) with (rne x) in M. rewrite A, B, <- mult_IZR, rne_IZR in M by nia.
  rewrite Rlt_bool_true in M.
  - destruct M as (M1 & M2 & M3). rewrite FA, FB in M2.
    assert (NN : is_nan (Bmult mode_NE (f64_of_u64 a) (f64_of_u64 b)) = false) by (match goal with |- is_nan ?y = _ => destruct y eqn:EY end; auto; rewrite EY in M2; discriminate).
    apply B2R_Bsign_inj; auto; [exact (eq_trans M1 (eq_sym P))|]. rewrite SP. refine (eq_trans (M3 NN) _). rewrite SA, SB. reflexivity.
  - rewrite Rabs_pos_eq by (apply IZR_le; nia). apply Rle_lt_trans with (IZR (2 ^ 53)); [apply IZR_le; auto|]. change (IZR (2 ^ 53)) with (bpow radix2 53). apply bpow_lt. lia.
Qed.

Lemma top_two h : cfg_ok h -> bin h (u64_max - 1) = bin h u64_max.
Proof.
  intros C. pose proof (um_nonneg h C) as N1. pose proof (m_nonneg h C) as N2. pose proof (c_fit h C) as FT.
  assert (UU : 0 <= u64_max) by (unfold u64_max; lia).
  pose proof (idx_nonneg _ _ N1 N2 u64_max UU) as I0.
  pose proof (proj1 (idx_iff _ _ N1 N2 u64_max _ UU I0) eq_refl) as [A B].
  apply (idx_iff _ _ N1 N2); [unfold u64_max; lia|exact I0|]. fold (bin h u64_max) in *. split; [|lia].
  enough (val (h_um h) (h_half_mag h) (bin h u64_max) <> u64_max) by lia. unfold bin.
  rewrite (val_idx _ _ N1 N2) by auto. unfold loweq, wid. intros E.
  assert (B1 : bkt (h_um h) (h_half_mag h) u64_max = 63 - h_um h - h_half_mag h).
  { unfold bkt. change (Z.log2 u64_max) with 63. lia. }
  rewrite B1 in E. replace (h_um h + (63 - h_um h - h_half_mag h)) with (1 + (62 - h_half_mag h)) in E by lia.
  rewrite (Z.pow_add_r 2 1) in E by lia.
  assert (OD : Z.odd u64_max = true) by reflexivity. rewrite <- E in OD at 1. rewrite !Z.odd_mul in OD. change (Z.odd (2 ^ 1)) with false in OD.
  cbn [andb] in OD. rewrite andb_false_r in OD. discriminate.
Qed.

Section LOG.
Context (h : hist) (W : wf h) (b : f64) (BL : f64_lt f64_one b = true).
Notation maxi := (bin h (h_max h)).
Notation lo := (loweq (h_um h) (h_half_mag h) (h_max h)).

Lemma log_runs : forall n st x l, close n x l -> good x b l -> inv h st -> it_ended st = false -> it_picker st = lgp h x b l ->
  opt_ge (it_last st) maxi = false -> it_index st <= cbin h l ->
  exists k, runs pk_log h st (lvitems h (prevd st) (l :: log_levels x b k)) /\
    Forall u64 (l :: log_levels x b k) /\
    (forall p q y z, l :: log_levels x b k = p ++ y :: z :: q -> y <= z /\ y < lo) /\ lo <= last (l :: log_levels x b k) 0.
Proof.
  pose proof (w_cfg h W) as C. pose proof (w_size h W) as SZ. pose proof (maxi_range h W) as MR. pose proof (len_le_top h C SZ) as LE.
  assert (LOB : lo = bval h maxi) by (symmetry; apply bval_bin; [auto|apply (w_max h W)]).
  induction n as [|n IH]; intros st x l CL G I EN PK O IX; destruct (good_u64 x b l G) as [U _]; pose proof (cbin_range h l W U) as CR;
    pose proof (log_picks h x b l W BL G) as PC; pose proof (good_next x b l BL G) as G';
    destruct (walk_up pk_log h W l _ _ PC _ st eq_refl I EN PK O IX) as (st' & (I' & EN' & IX' & LA' & PK') & GO);
    assert (PD : prevd st' = cbin h l + 1) by (unfold prevd; rewrite LA'; auto).
  1: assert (J : maxi <= cbin h l). 
  1: { destruct CL as [->|(m & X & _)]; [|discriminate]. unfold cbin. rewrite top_two by auto. unfold bin in *. lia. }
  2: destruct (Z_lt_le_dec (cbin h l) maxi) as [J|J].
  2: { (* go on *)
    assert (E : bin h l = cbin h l) by (unfold cbin in *; lia).
    pose proof (bin_nonneg h l C ltac:(apply U)) as B0.
    assert (LL : l < lo).
    { rewrite LOB. pose proof (proj1 (idx_iff _ _ (um_nonneg h C) (m_nonneg h C) l (bin h l) ltac:(apply U) B0) eq_refl) as [_ HI].
      pose proof (bval_le h (bin h l + 1) maxi C ltac:(lia) ltac:(lia)). unfold bval in *. lia. }
    set (x' := f64_mul x b) in *. set (l' := f64_to_u64 x' - 1) in *.
    assert (L' : l <= l') by (destruct G as (_ & _ & G1); unfold l', x'; lia).
    assert (CL' : close n x' l').
    { destruct CL as [->|(m & X & AT)].
      - exfalso. unfold cbin in *. rewrite top_two in * by auto. unfold bin in *. lia.
      - injection X as <-. destruct G as (A1 & _). destruct n as [|m].
        + left. unfold l'. cbn [INR] in AT. rewrite Rmult_0_l, Rminus_0_r in AT.
          pose proof (mul_more x b (bpow radix2 64) BL ltac:(rewrite bpow_64; apply IZR_le; lia) AT) as M.
          enough (u64_max <= f64_to_u64 x') by (pose proof (to_u64_range x'); lia). apply to_u64_ge; [unfold u64_max; lia|].
          refine (atleast_le _ _ _ _ M). pose proof (bpow_gt_0 radix2 (-52)). rewrite bpow_64. apply Rle_trans with (IZR (2 ^ 64)); [apply IZR_le; unfold u64_max; lia|lra].
        + right. exists m. split; auto. unfold eps52 in *. rewrite S_INR in AT.
          destruct (Rle_dec 1 (bpow radix2 64 - (INR m + 1) * bpow radix2 (-52))) as [R|R].
          * pose proof (mul_more x b _ BL R AT) as M. refine (atleast_le _ _ _ _ M). lra.
          * pose proof (mul_more x b 1 BL (Rle_refl 1) A1) as M. refine (atleast_le _ _ _ _ M). lra. }
    destruct (good_u64 _ _ _ G') as [U' _].
    assert (BM : bin h l <= bin h l') by (apply bin_mono; auto; unfold u64 in *; lia).
    destruct (IH st' x' l' CL' G' I' EN' PK') as (k & K1 & K2 & K3 & K4).
    { rewrite LA'. cbn. lia. } { unfold cbin in *. lia. }
    exists (S k). change (log_levels x b (S k)) with (l' :: log_levels x' b k). split; [|split; [|split]].
    - cbn [lvitems] in *. rewrite PD in K1. apply GO. exact K1.
    - constructor; auto.
    - intros p q y z E2. destruct p as [|p0 p].
      + injection E2 as <- <- _. auto.
      + injection E2 as _ E2. apply (K3 p q). exact E2.
    - exact K4. }
  all: exists 0%nat; change (log_levels x b 0) with (@nil Z); split; [|split; [|split]];
    [ cbn [lvitems]; apply GO; apply (stop_here pk_log h W st' (it_picker st')); auto; [lia|rewrite LA'; cbn; lia|apply (log_more h x b l); auto]
    | constructor; auto
    | intros p q y z E2; exfalso; apply (f_equal (@length Z)) in E2; rewrite app_length in E2; cbn in E2; lia
    | cbn [last]; rewrite LOB; pose proof (bval_le h maxi (cbin h l) C ltac:(lia) J); pose proof (bin_nonneg h l C ltac:(apply U));
      unfold cbin in *; pose proof (bval_le h (Z.min (bin h l) (zlen (h_counts h) - 1)) (bin h l) C ltac:(lia) ltac:(lia));
      rewrite (bval_bin h l) in * by (auto; apply U); pose proof (loweq_le _ (h_half_mag h) (um_nonneg h C) l ltac:(apply U)); lia ].
Qed.
End LOG.
