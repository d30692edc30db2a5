(** * Proofs of the properties about mean and stdev (C51) *)
(*PROPS-IMPORTS Machine Log2Model HistModel Spec Reach Witness Cases FloatModel FloatSpec IterModel StatSpec *)
(*PROPS-HEADER
From Coq Require Import Reals List.
From Flocq Require Import Core.
Import ListNotations.
PROPS-HEADER*)
From Coq Require Import ZArith Reals Lia Lra Bool List.
From Flocq Require Import Core IEEE754.BinarySingleNaN.
From Verif Require Import Machine Log2Model HistModel Spec Reach Bins ListZ Log2Facts Cfg Wf Ops AddFacts MoreFacts Witness HeldFacts FloatModel FloatSpec FloatFacts IterModel IterSpec IterFacts IterBins PfQuery PfIter PfLevel StatSpec QuantStep Relerr.
From Coq Require Import ZifyBool ZifyNat.
Import ListNotations.
Local Open Scope Z_scope.

(** ** Class medians *)
Definition med (h : hist) (v : Z) : Z := loweq (h_um h) (h_half_mag h) v + wid (h_um h) (h_half_mag h) v / 2.
Lemma median_class h i : wf h -> 0 <= i < zlen (h_counts h) ->
  median_equivalent h (topval h i) = Ret (class_median h (bval h i)) /\ 0 <= class_median h (bval h i) <= u64_max.
Proof.
  intros W I. pose proof (w_cfg h W) as C. pose proof (topval_ge h i W I) as (_ & UT & UB & BT). unfold class_median.
  assert (OK : forall v, u64 v -> median_equivalent h v = Ret (med h v)) by (intros; apply median_equivalent_ok; auto).
  assert (E : med h (topval h i) = med h (bval h i)).
  { unfold med. assert (L : loweq (h_um h) (h_half_mag h) (topval h i) = loweq (h_um h) (h_half_mag h) (bval h i)).
    { apply (loweq_idx _ _ (um_nonneg h C) (m_nonneg h C)); [apply UT|apply UB|]. change (bin h (topval h i) = bin h (bval h i)). rewrite BT. symmetry. apply bin_bval; auto. lia. }
    rewrite L. f_equal. f_equal. rewrite <- (wid_loweq _ _ (um_nonneg h C) (m_nonneg h C) (topval h i)) by apply UT. rewrite L. apply (wid_loweq _ _ (um_nonneg h C) (m_nonneg h C)). apply UB. }
  rewrite !OK by auto. rewrite E. split; auto. pose proof (OK (bval h i) UB) as M. unfold median_equivalent in M.
  rewrite lowest_equivalent_ok, equivalent_range_ok in M by auto. cbn [bind] in M. unfold u64_add, in_range in M.
  destruct (_ && _) eqn:B in M; [|discriminate]. injection M as M. lia.
Qed.

Definition pairs (h : hist) (l : list Z) : list (Z * Z) := map (fun k => (bval h k, zn (h_counts h) k)) l.
Definition okbin (h : hist) (i : Z) : Prop := 0 <= i < zlen (h_counts h) /\ 1 <= zn (h_counts h) i <= u64_max.

Local Open Scope R_scope.
Lemma moment_nonneg h f l : (forall v, 0 <= f v) -> Forall (okbin h) l -> 0 <= moment f (pairs h l).
Proof.
  intros F. induction 1 as [|i l [I0 I1] A IH]; cbn [pairs map moment]; [lra|]. fold (pairs h l). assert (0 <= IZR (zn (h_counts h) i)) by (apply IZR_le; lia). specialize (F (bval h i)). nra.
Qed.

(** zero, or at least 2^e and at most [j] times 2^f *)
Definition upto (e f : Z) (j : nat) (x : R) : Prop := 0 <= x <= INR j * b2 f /\ (x = 0 \/ b2 e <= x).
Lemma upto_0 e f : upto e f 0 0.
Proof. split; [cbn; lra|left; auto]. Qed.
Lemma upto_add e f j x t : (-1022 <= e)%Z -> (0 <= f)%Z -> (Z.of_nat (S j) <= 2 ^ 53)%Z -> upto e f j x -> mid e f t ->
  upto e f (S j) (rne (x + t)) /\ norm (x + t) /\ 0 <= x + t <= b2 (f + 53).
Proof.
  intros E F J [X0 X1] T. pose proof (mid_nonneg _ _ _ T) as T0. pose proof (b2_pos f) as PF. pose proof (b2_pos e) as PE.
  assert (U : 0 <= x + t <= INR (S j) * b2 f) by (rewrite S_INR; lra).
  assert (G : gf (INR (S j) * b2 f)).
  { rewrite INR_IZR_INZ. destruct (Z.eq_dec (Z.of_nat (S j)) (2 ^ 53)) as [Q|Q].
    - rewrite Q, <- b2_IZR by lia. rewrite <- b2_split. apply gf_bpow. lia.
    - apply generic_format_FLT. exists (Float radix2 (Z.of_nat (S j)) f); cbn [Fnum Fexp]; [reflexivity| |lia]. change (radix2 ^ 53)%Z with (2 ^ 53)%Z. lia. }
  assert (LO : x + t = 0 \/ b2 e <= x + t). { destruct X1 as [->|X1]; [|right; lra]. destruct T as [->|T]; [left; lra|right; lra]. }
  split; [split; [split|]|split].
  - apply rne_nonneg; lra.
  - rewrite <- (rne_id _ G). apply rne_le. lra.
  - destruct LO as [->|LO]; [left; apply rne_0|right]. rewrite <- (rne_id (b2 e)) by (apply gf_bpow; lia). apply rne_le. auto.
  - destruct LO as [->|LO]; [left; auto|right]. pose proof (b2_le (-1022) e E). lra.
  - split; [lra|]. apply Rle_trans with (1 := proj2 U). rewrite b2_split, Rmult_comm. apply Rmult_le_compat_l; [lra|]. rewrite INR_IZR_INZ, b2_IZR by lia. apply IZR_le. auto.
Qed.

(** integers *)
Lemma int_mid n : (0 <= n <= u64_max)%Z -> mid 0 64 (rne (IZR n)) /\ within 1 (rne (IZR n)) (IZR n).
Proof.
  intros N. pose proof (rne_u64 n N) as U. assert (M : mid 0 64 (IZR n)).
  { destruct (Z.eq_dec n 0) as [->|NZ]; [left; auto|right]. split; [apply (IZR_le 1); lia|]. apply IZR_u64; auto. }
  split; [apply mid_rne; auto; lia|]. apply rne_rel. apply (mid_norm 0 64); auto. lia.
Qed.

Section MEAN.
Context (h : hist) (W : wf h) (N1 : (1 <= h_total h <= u64_max)%Z).
Notation N := (IZR (h_total h)).
Notation cm i := (class_median h (bval h i)).
Notation ct i := (zn (h_counts h) i).

Lemma N_ok : fin (f64_of_u64 (h_total h)) /\ B2R (f64_of_u64 (h_total h)) = rne N /\ 1 <= rne N <= b2 64 /\ within 1 (rne N) N /\ 1 <= N.
Proof.
  destruct (of_u64_ok (h_total h) ltac:(lia)) as (A & B & _). destruct (int_mid (h_total h) ltac:(lia)) as [M R]. split; auto. split; auto.
  split; [split; [apply rne_pos_int; lia|apply (mid_nonneg 0 64); auto]|]. split; auto. apply IZR_le. lia.
Qed.

(** dividing by the number of samples *)
Lemma over_N (g : f64) n e f y : fin g -> (-900 <= e)%Z -> (f <= 900)%Z -> 0 <= y -> mid e f (B2R g) -> within n (B2R g) y ->
  let r := f64_div g (f64_of_u64 (h_total h)) in fin r /\ mid (e - 64) f (B2R r) /\ within (n + 3) (B2R r) (y / N).
Proof.
  intros F E EF Y M R. destruct N_ok as (A & B & C & D & G). cbn zeta. pose proof (mid_nonneg _ _ _ M) as MN.
  assert (IN : b2 (-64) <= / rne N <= b2 0) by (apply (mid_inv 0 64); auto).
  assert (Q : mid (e - 64) f (B2R g / rne N)). { replace f with (f + 0)%Z by lia. apply mid_mul; auto. right. auto. }
  pose proof (mid_nonneg _ _ _ Q) as QN.
  destruct (over_ok g (f64_of_u64 (h_total h)) F) as [FR BR]. { rewrite B. lra. } { rewrite B. rewrite Rabs_pos_eq by lra. apply Rle_trans with (b2 f); [lra|apply b2_le; lia]. }
  rewrite B in BR. split; auto. rewrite BR.
  assert (LE : (e - 64 <= f)%Z \/ mid (e - 64) f (B2R g / rne N) /\ B2R g / rne N = 0).
  { destruct Q as [Q|Q]; [right; split; auto; left; auto|]. left. apply (le_bpow radix2). lra. }
  split.
  - destruct LE as [LE|[_ Z]]; [apply mid_rne; auto; lia|]. rewrite Z, rne_0. left; auto.
  - replace (n + 3)%nat with (S (n + 2)) by lia. apply within_rne; [apply Rmult_le_pos; auto; apply Rlt_le, Rinv_0_lt_compat; lra|apply (mid_norm (e - 64) f); auto; lia|].
    apply within_mul; auto; [apply Rlt_le, Rinv_0_lt_compat; lra|]. apply within_inv; auto. lra.
Qed.

Lemma mean_term i : okbin h i -> let t := f64_div (f64_mul (f64_of_u64 (cm i)) (f64_of_u64 (ct i))) (f64_of_u64 (h_total h)) in
  fin t /\ mid (-64) 128 (B2R t) /\ within 6 (B2R t) (IZR (cm i) * IZR (ct i) / N).
Proof.
  intros [I0 I1]. destruct (median_class h i W I0) as [_ MR]. cbn zeta.
  destruct (of_u64_ok (cm i) MR) as (A & B & _). destruct (of_u64_ok (ct i) ltac:(lia)) as (A' & B' & _).
  destruct (int_mid (cm i) MR) as [M R]. destruct (int_mid (ct i) ltac:(lia)) as [M' R'].
  pose proof (mid_mul _ _ _ _ _ _ M M') as MM. cbn [Z.add] in MM. pose proof (mid_nonneg _ _ _ MM) as MN.
  destruct (mul_ok _ _ B B') as [FM BM]. { rewrite A, A'. rewrite Rabs_pos_eq by lra. apply Rle_trans with (b2 128); [apply MN|apply b2_le; lia]. }
  rewrite A, A' in BM. assert (P1 : 0 <= IZR (cm i)) by (apply IZR_le; lia). assert (P2 : 0 <= IZR (ct i)) by (apply IZR_le; lia).
  apply (over_N _ 3 0 128); auto; try lia; [apply Rmult_le_pos; auto|rewrite BM; apply mid_rne; auto; lia|].
  rewrite BM. apply within_rne; [apply Rmult_le_pos; auto|apply (mid_norm 0 128); auto; lia|]. apply (within_mul 1 1); auto.
Qed.

Lemma mean_fold_ok l : Forall (okbin h) l -> forall acc j P, fin acc -> 0 <= P -> (Z.of_nat (j + length l) <= 2 ^ 53)%Z ->
  upto (-64) 128 j (B2R acc) -> within (6 + j) (B2R acc) (P / N) ->
  exists f, mean_fold h (map (ritem h) l) acc = Ret f /\ fin f /\ upto (-64) 128 (j + length l) (B2R f) /\
    within (6 + j + length l) (B2R f) ((P + moment (fun v => IZR (class_median h v)) (pairs h l)) / N).
Proof.
  destruct N_ok as (_ & _ & _ & _ & G). assert (NP : 0 < / N) by (apply Rinv_0_lt_compat; lra).
  induction 1 as [|i l OK FA IH]; intros acc j P F P0 J U R; cbn [map mean_fold pairs moment length].
  - exists acc. split; auto. split; auto. rewrite !Nat.add_0_r, Rplus_0_r. auto.
  - pose proof OK as [I0 I1]. destruct (median_class h i W I0) as [ME MR]. cbn [ritem iv_value iv_count]. rewrite ME. cbn [bind].
    destruct (mean_term i OK) as (FT & MT & RT). set (t := f64_div _ _) in *.
    cbn [length] in J. destruct (upto_add (-64) 128 j (B2R acc) (B2R t) ltac:(lia) ltac:(lia) ltac:(lia) U MT) as (UA & NA & BA).
    destruct (plus_ok acc t F FT) as [FS BS]. { rewrite Rabs_pos_eq by lra. apply Rle_trans with (1 := proj2 BA). apply b2_le. lia. }
    assert (P1 : 0 <= IZR (cm i)) by (apply IZR_le; lia). assert (P2 : 0 <= IZR (ct i)) by (apply IZR_le; lia). assert (P3 : 0 <= IZR (cm i) * IZR (ct i)) by (apply Rmult_le_pos; auto).
    destruct (IH (f64_add acc t) (S j) (P + IZR (cm i) * IZR (ct i))) as (f & E & FF & UF & WF); auto; try lia; [lra|rewrite BS; auto| |].
    + rewrite BS. replace (6 + S j)%nat with (S (6 + j)) by lia. unfold Rdiv. rewrite Rmult_plus_distr_r. apply within_rne; auto.
      * apply Rplus_le_le_0_compat; apply Rmult_le_pos; lra.
      * apply within_add; auto. apply (within_mono 6); [apply Rmult_le_pos; lra|lia|auto].
    + exists f. split; auto. split; auto. fold (pairs h l). replace (j + S (length l))%nat with (S j + length l)%nat by lia. split; auto.
      replace (6 + j + S (length l))%nat with (6 + S j + length l)%nat by lia. rewrite <- Rplus_assoc. auto.
Qed.

(** ** The deviations *)
Lemma fine_grid x : gf x -> (x = 0 \/ b2 (-64) <= x) -> exists n : Z, x = IZR n * b2 (-117).
Proof.
  intros Gx [->|L]; [exists 0%Z; lra|]. pose proof (b2_pos (-64)) as P. unfold generic_format in Gx. set (c := cexp radix2 (FLT_exp (-1074) 53) x) in *.
  assert (C : (-117 <= c)%Z). { unfold c, cexp, FLT_exp. assert (-64 < mag radix2 x)%Z; [|lia]. apply mag_gt_bpow. rewrite Rabs_pos_eq by lra. auto. }
  set (m := Ztrunc _) in *. exists (m * 2 ^ (c + 117))%Z. rewrite Gx. unfold F2R. cbn [Fnum Fexp]. rewrite mult_IZR, <- b2_IZR by lia. rewrite Rmult_assoc, <- b2_split. f_equal. f_equal. lia.
Qed.
Lemma upto_mid e f j x : (Z.of_nat j <= 2 ^ 53)%Z -> upto e f j x -> mid e (f + 53) x.
Proof.
  intros J [[X0 X1] [->|X]]; [left; auto|right]. split; auto. apply Rle_trans with (1 := X1). rewrite b2_split, Rmult_comm. apply Rmult_le_compat_l; [apply Rlt_le, b2_pos|].
  rewrite INR_IZR_INZ, b2_IZR by lia. apply IZR_le. auto.
Qed.

Context (mn : f64) (FM : fin mn) (MM : mid (-64) 181 (B2R mn)).
Notation dv i := (B2R (f64_of_u64 (cm i)) - B2R mn).

Lemma dev_ok i : okbin h i -> let d := f64_sub (f64_of_u64 (cm i)) mn in
  fin d /\ B2R d = rne (dv i) /\ mid (-117) 182 (Rabs (B2R d)) /\ within 1 (Rabs (B2R d)) (Rabs (dv i)).
Proof.
  intros [I0 I1]. destruct (median_class h i W I0) as [_ MR]. cbn zeta. destruct (of_u64_ok (cm i) MR) as (A & B & _). destruct (int_mid (cm i) MR) as [M R].
  pose proof (mid_nonneg _ _ _ M) as M1. pose proof (mid_nonneg _ _ _ MM) as M2. rewrite <- A in M1, M.
  destruct (fine_grid (B2R (f64_of_u64 (cm i)))) as [a EA]; [apply gf_B2R|apply (mid_mono 0 64 (-64) 64) in M; [|lia|lia]; destruct M as [M|M]; [left; auto|right; apply M]|].
  destruct (fine_grid (B2R mn)) as [b EB]; [apply gf_B2R|destruct MM as [X|X]; [left; auto|right; apply X]|].
  assert (P182 : b2 182 = 2 * b2 181) by (replace 182%Z with (1 + 181)%Z by lia; rewrite b2_split; reflexivity). pose proof (b2_le 64 181 ltac:(lia)) as P64.
  assert (U : Rabs (dv i) <= b2 182) by (apply Rabs_le; lra).
  assert (D : mid (-117) 182 (Rabs (dv i))).
  { rewrite EA, EB in *. rewrite <- Rmult_minus_distr_r, <- minus_IZR in *. pose proof (b2_pos (-117)) as P117. destruct (Z.eq_dec (a - b) 0) as [E|E]; [left; rewrite E, Rmult_0_l, Rabs_R0; auto|right].
    split; auto. rewrite Rabs_mult, (Rabs_pos_eq (b2 (-117))) by lra. rewrite <- abs_IZR. assert (1 <= IZR (Z.abs (a - b))) by (apply IZR_le; lia). nra. }
  destruct (minus_ok _ _ B FM) as [FD BD]. { apply Rle_trans with (1 := U). apply b2_le. lia. }
  split; auto. split; auto. rewrite BD. assert (AB : Rabs (rne (dv i)) = rne (Rabs (dv i))) by (unfold rne; symmetry; apply round_NE_abs; apply valid_flt64).
  rewrite AB. split; [apply mid_rne; auto; lia|]. apply rne_rel. apply (mid_norm (-117) 182); auto. lia.
Qed.

Lemma dev_term i : okbin h i -> let d := f64_sub (f64_of_u64 (cm i)) mn in let t := f64_mul (f64_mul d d) (f64_of_u64 (ct i)) in
  fin t /\ mid (-234) 428 (B2R t) /\ within 5 (B2R t) (dv i ^ 2 * IZR (ct i)).
Proof.
  intros OK. pose proof OK as [I0 I1]. destruct (dev_ok i OK) as (FD & BD & MD & RD). cbn zeta. set (d := f64_sub _ _) in *.
  destruct (of_u64_ok (ct i) ltac:(lia)) as (A' & B' & _). destruct (int_mid (ct i) ltac:(lia)) as [M' R'].
  assert (SQ : B2R d * B2R d = Rabs (B2R d) * Rabs (B2R d)) by (rewrite <- Rabs_mult, Rabs_pos_eq; nra).
  pose proof (mid_mul _ _ _ _ _ _ MD MD) as M2. rewrite <- SQ in M2. change (-117 + -117)%Z with (-234)%Z in M2. change (182 + 182)%Z with 364%Z in M2. pose proof (mid_nonneg _ _ _ M2) as N2.
  assert (D2 : dv i ^ 2 = Rabs (dv i) * Rabs (dv i)) by (rewrite <- Rabs_mult, Rabs_pos_eq; [ring|apply Rle_0_sqr]).
  pose proof (Rabs_pos (dv i)) as AP.
  assert (R2 : within 2 (B2R d * B2R d) (dv i ^ 2)) by (rewrite SQ, D2; apply (within_mul 1 1); auto).
  assert (DP : 0 <= dv i ^ 2) by (rewrite D2; apply Rmult_le_pos; auto).
  destruct (mul_ok d d FD FD) as [F2 B2]. { rewrite Rabs_pos_eq by lra. apply Rle_trans with (1 := proj2 N2). apply b2_le. lia. }
  assert (M3 : mid (-234) 364 (B2R (f64_mul d d))) by (rewrite B2; apply mid_rne; auto; lia).
  assert (R3 : within 3 (B2R (f64_mul d d)) (dv i ^ 2)) by (rewrite B2; apply within_rne; auto; apply (mid_norm (-234) 364); auto; lia).
  assert (P2 : 0 <= IZR (ct i)) by (apply IZR_le; lia). rewrite <- A' in M', R'.
  pose proof (mid_mul _ _ _ _ _ _ M3 M') as M4. change (-234 + 0)%Z with (-234)%Z in M4. change (364 + 64)%Z with 428%Z in M4. pose proof (mid_nonneg _ _ _ M4) as N4.
  destruct (mul_ok _ _ F2 B') as [F4 B4]. { rewrite Rabs_pos_eq by lra. apply Rle_trans with (1 := proj2 N4). apply b2_le. lia. }
  split; auto. rewrite B4. split; [apply mid_rne; auto; lia|]. apply within_rne; [apply Rmult_le_pos; auto|apply (mid_norm (-234) 428); auto; lia|]. apply (within_mul 3 1); auto.
Qed.

Lemma stdev_fold_ok l : Forall (okbin h) l -> forall acc j P, fin acc -> 0 <= P -> (Z.of_nat (j + length l) <= 2 ^ 53)%Z ->
  upto (-234) 428 j (B2R acc) -> within (5 + j) (B2R acc) P ->
  exists f, stdev_fold h mn (map (ritem h) l) acc = Ret f /\ fin f /\ upto (-234) 428 (j + length l) (B2R f) /\
    within (5 + j + length l) (B2R f) (P + moment (fun v => (real_of (f64_of_u64 (class_median h v)) - B2R mn) ^ 2) (pairs h l)).
Proof.
  induction 1 as [|i l OK FA IH]; intros acc j P F P0 J U R; cbn [map stdev_fold pairs moment length].
  - exists acc. split; auto. split; auto. rewrite !Nat.add_0_r, Rplus_0_r. auto.
  - pose proof OK as [I0 I1]. destruct (median_class h i W I0) as [ME MR]. cbn [ritem iv_value iv_since]. rewrite ME. cbn [bind].
    destruct (dev_term i OK) as (FT & MT & RT). cbn zeta. set (t := f64_mul _ _) in *.
    cbn [length] in J. destruct (upto_add (-234) 428 j (B2R acc) (B2R t) ltac:(lia) ltac:(lia) ltac:(lia) U MT) as (UA & NA & BA).
    destruct (plus_ok acc t F FT) as [FS BS]. { rewrite Rabs_pos_eq by lra. apply Rle_trans with (1 := proj2 BA). apply b2_le. lia. }
    assert (P2 : 0 <= IZR (ct i)) by (apply IZR_le; lia). assert (P3 : 0 <= dv i ^ 2 * IZR (ct i)) by (apply Rmult_le_pos; auto; apply pow2_ge_0).
    destruct (IH (f64_add acc t) (S j) (P + dv i ^ 2 * IZR (ct i))) as (f & E & FF & UF & WF); auto; try lia; [lra|rewrite BS; auto| |].
    + rewrite BS. replace (5 + S j)%nat with (S (5 + j)) by lia. apply within_rne; auto; [lra|].
      apply within_add; auto. apply (within_mono 5); auto. lia.
    + exists f. split; auto. split; auto. fold (pairs h l). replace (j + S (length l))%nat with (S j + length l)%nat by lia. split; auto.
      replace (5 + j + S (length l))%nat with (5 + S j + length l)%nat by lia. unfold real_of. rewrite <- Rplus_assoc. auto.
Qed.
End MEAN.

Lemma held_okbin h : wf h -> Forall (okbin h) (held_idxs h).
Proof.
  intros W. apply Forall_forall. intros i I. apply held_idxs_in in I. destruct I as [I0 I1]. split; auto.
  pose proof (zn_nonneg (h_counts h) i (wf_nonneg h W)). split; [lia|]. pose proof (cmax_le (h_ctr h)) as CM.
  pose proof (proj1 (Forall_forall _ _) (w_cnt h W) (zn (h_counts h) i)) as Q. assert (IN : In (zn (h_counts h) i) (h_counts h)) by (unfold zn, zlen in *; apply nth_In; lia). specialize (Q IN). cbn beta in Q. lia.
Qed.
Lemma filter_len {A} (f : A -> bool) l : (length (filter f l) <= length l)%nat.
Proof. induction l as [|x l IH]; cbn; auto. destruct (f x); cbn; lia. Qed.
Lemma held_few h : wf h -> (Z.of_nat (length (held_idxs h)) <= 2 ^ 53)%Z.
Proof.
  intros W. pose proof (zlen_small h W) as L.
  assert (X : (Z.of_nat (length (held_idxs h)) <= zlen (h_counts h))%Z). { unfold held_idxs. pose proof (filter_len (nz h) (idxs (Z.to_nat (zlen (h_counts h))) 0)) as Q. rewrite length_idxs in Q. pose proof (zlen_nonneg (h_counts h)). lia. }
  pose proof (len_le_top h (w_cfg h W) (w_size h W)) as T. pose proof (idx_bound_u64 h (w_cfg h W) u64_max ltac:(unfold u64, u64_max; lia)) as T2. unfold i32_max in *. lia.
Qed.
Lemma held_pairs_eq h : wf h -> held h = pairs h (held_idxs h) /\ length (held h) = length (held_idxs h).
Proof. intros W. rewrite held_contents by auto. rewrite contents_idxs. split; auto. apply map_length. Qed.

Lemma mean_ok h : wf h -> (0 < h_total h)%Z -> exists f, mean h = Ret f /\ fin f /\ mid (-64) 181 (B2R f) /\ within (length (held h) + 6) (B2R f) (exact_mean h).
Proof.
  intros W T. unfold mean. destruct (Z.eqb_spec (h_total h) 0); [lia|]. rewrite recorded_items_ok by auto. cbn [bind]. destruct (held_pairs_eq h W) as [HE HL].
  assert (N1 : (1 <= h_total h <= u64_max)%Z) by (split; [lia|apply (w_total h W)]).
  destruct (mean_fold_ok h W N1 (held_idxs h) (held_okbin h W) f64_zero 0 0) as (f & E & F & U & R); auto; [lra|apply held_few; auto|apply upto_0| |].
  - unfold Rdiv. rewrite Rmult_0_l. unfold within. change (B2R f64_zero) with 0. lra.
  - exists f. split; auto. split; auto. split; [apply (upto_mid _ 128 (0 + length (held_idxs h))); auto; apply held_few; auto|].
    rewrite HL. unfold exact_mean, len. rewrite HE. rewrite Rplus_0_l in R. replace (length (held_idxs h) + 6)%nat with (6 + 0 + length (held_idxs h))%nat by lia. exact R.
Qed.

(** ** C51.  mean() of a non-empty histogram is the mean of the class medians weighted with the counts, up
    to a relative error of 2^-53 for every class and six more *)
Lemma C51_mean_proof : forall h, reachable h -> (0 < len h)%Z ->
  exists f, mean h = Ret f /\ finite f /\ within (length (held h) + 6) (real_of f) (exact_mean h).
Proof. intros h R T. destruct (mean_ok h (reachable_wf h R) T) as (f & E & F & _ & WI). exists f. auto. Qed.
(*EX
(** classes of 320..335, 896..927 and 4864..5119 among others: medians 328, 912, 4992; mean 2928.13 *)
Example ex_C51 : match build U64 1 10000 1 false [(5000, 8); (5, 2); (333, 1); (900, 4)] with
  | Some h => reachable h /\ held h = [(5, 2); (320, 1); (896, 4); (4864, 8)] /\ map (fun p => class_median h (fst p)) (held h) = [5; 328; 912; 4992] /\ len h = 15 /\
      match mean h, stdev h with Ret m, Ret s => f64_to_u64 (f64_mul m (f64_of_u64 1000)) = 2928133 /\ f64_to_u64 s = 2223 | _, _ => False end
  | _ => False end.
Proof. float_case. Qed.
EX*)

Lemma moment_bounds h f (lo hi : R) l : (forall i, In i l -> lo <= f (bval h i) <= hi) -> Forall (okbin h) l ->
  lo * IZR (weight (pairs h l)) <= moment f (pairs h l) <= hi * IZR (weight (pairs h l)).
Proof.
  intros B. induction 1 as [|i l [I0 I1] A IH]; cbn [pairs map moment weight]; [lra|]. fold (pairs h l). rewrite plus_IZR.
  specialize (IH (fun i I => B i (or_intror I))). specialize (B i (or_introl eq_refl)). assert (0 <= IZR (zn (h_counts h) i)) by (apply IZR_le; lia). nra.
Qed.

(** so it lies, up to that error, between the smallest and the largest class median (as long as len() is
    the number of samples held) *)
Lemma C51_mean_between_proof : forall h lo hi, reachable h -> len_agrees h -> (0 < len h)%Z ->
  (forall v n, In (v, n) (held h) -> (lo <= class_median h v <= hi)%Z) ->
  exists f, mean h = Ret f /\ finite f /\
    ((1 - bpow radix2 (-53)) ^ (length (held h) + 6) * IZR lo <= real_of f <= (1 + bpow radix2 (-53)) ^ (length (held h) + 6) * IZR hi)%R.
Proof.
  intros h lo hi R LA T B. pose proof (reachable_wf h R) as W. destruct (mean_ok h W T) as (f & E & F & _ & [L U]). exists f. split; auto. split; auto.
  destruct (held_pairs_eq h W) as [HE HL]. unfold len_agrees in LA.
  pose proof (moment_bounds h (fun v => IZR (class_median h v)) (IZR lo) (IZR hi) (held_idxs h)) as MB. rewrite <- HE, <- LA in MB.
  assert (X : IZR lo * IZR (len h) <= moment (fun v => IZR (class_median h v)) (held h) <= IZR hi * IZR (len h)).
  { apply MB; [|apply held_okbin; auto]. intros i I. assert (IN : In (bval h i, zn (h_counts h) i) (held h)) by (rewrite HE; unfold pairs; apply in_map_iff; eauto).
    specialize (B _ _ IN). split; apply IZR_le; lia. }
  assert (N : 0 < IZR (len h)) by (apply (IZR_lt 0); auto). assert (NI : 0 < / IZR (len h)) by (apply Rinv_0_lt_compat; auto).
  assert (Y : IZR lo <= exact_mean h <= IZR hi).
  { unfold exact_mean, Rdiv. replace (IZR lo) with (IZR lo * IZR (len h) * / IZR (len h)) by (field; lra). replace (IZR hi) with (IZR hi * IZR (len h) * / IZR (len h)) by (field; lra).
    split; apply Rmult_le_compat_r; lra. }
  pose proof (lo_pow (length (held h) + 6)). pose proof (hi_pow (length (held h) + 6)). unfold real_of. split.
  - apply Rle_trans with (2 := L). apply Rmult_le_compat_l; lra.
  - apply Rle_trans with (1 := U). apply Rmult_le_compat_l; lra.
Qed.
(*EX
Example ex_C51_mean_between : match build U64 1 10000 1 false [(5000, 8); (5, 2); (333, 1); (900, 4)] with
  | Some h => reachable h /\ len h = weight (held h) /\ 0 < len h /\ map (fun p => class_median h (fst p)) (held h) = [5; 328; 912; 4992] /\
      match mean h with Ret m => 5 < f64_to_u64 m < 4992 | _ => False end
  | _ => False end.
Proof. float_case. Qed.
EX*)

(** stdev() is a non-negative number: the root of the mean squared distance of the class medians from
    mean(), up to a relative error of 2^-53 for every class and nine more *)
Lemma C51_stdev_proof : forall h, reachable h -> (0 < len h)%Z ->
  exists m s, mean h = Ret m /\ stdev h = Ret s /\ finite s /\ (0 <= real_of s)%R /\
    within (length (held h) + 9) (real_of s) (sqrt (exact_square_dev h (real_of m))).
Proof.
  intros h R T. pose proof (reachable_wf h R) as W. destruct (mean_ok h W T) as (m & E & F & MM & _). exists m.
  assert (N1 : (1 <= h_total h <= u64_max)%Z) by (unfold len in T; split; [lia|apply (w_total h W)]).
  destruct (held_pairs_eq h W) as [HE HL]. unfold stdev. destruct (Z.eqb_spec (h_total h) 0); [lia|]. rewrite E. cbn [bind]. rewrite recorded_items_ok by auto. cbn [bind].
  destruct (stdev_fold_ok h W m F MM (held_idxs h) (held_okbin h W) f64_zero 0 0) as (g & EG & FG & UG & RG); auto; [lra|apply held_few; auto|apply upto_0| |].
  { unfold within. change (B2R f64_zero) with 0. lra. }
  rewrite EG. cbn [bind]. rewrite Rplus_0_l, <- HE, <- HL in RG. cbn [Nat.add] in RG, UG. rewrite <- HL in UG.
  assert (MG : mid (-234) 481 (B2R g)). { apply (upto_mid (-234) 428 (length (held h))); auto. rewrite HL. apply held_few; auto. }
  set (S2 := moment _ (held h)) in *. assert (S0 : 0 <= S2). { unfold S2. rewrite HE. apply moment_nonneg; [intros; apply pow2_ge_0|apply held_okbin; auto]. }
  destruct (over_N h N1 g _ (-234) 481 S2 FG ltac:(lia) ltac:(lia) S0 MG RG) as (FV & MV & RV). set (v := f64_div g _) in *.
  pose proof (mid_nonneg _ _ _ MV) as VN. destruct (sqrt_ok v FV ltac:(lra)) as [FS BS].
  assert (NV : 0 < / IZR (h_total h)) by (apply Rinv_0_lt_compat, (IZR_lt 0); lia).
  exists (f64_sqrt v). split; auto. split; auto. split; auto. unfold real_of at 1 2. rewrite BS.
  split; [apply rne_nonneg, sqrt_pos|]. replace (length (held h) + 9)%nat with (S (S (S (S (S (S (length (held h))))) + 3))) by lia.
  change (exact_square_dev h (real_of m)) with (S2 / IZR (h_total h)).
  apply within_rne; [apply sqrt_pos| |apply within_sqrt; [apply Rmult_le_pos; lra|exact RV]].
  destruct MV as [->|MV]; [left; apply sqrt_0|right]. apply Rle_trans with (b2 (-149)); [apply b2_le; lia|].
  rewrite <- (sqrt_square (b2 (-149))) by (apply Rlt_le, b2_pos). apply sqrt_le_1_alt. rewrite <- b2_split. apply MV.
Qed.
(*EX
Example ex_C51_stdev : match build U64 1 10000 1 false [(5000, 8); (5, 2); (333, 1); (900, 9)] with
  | Some h => reachable h /\ len h = 20 /\ match mean h, stdev h with Ret m, Ret s => f64_to_u64 m = 2424 /\ f64_to_u64 s = 2114 | _, _ => False end
  | None => False end.
Proof. float_case. Qed.
EX*)

(** both are 0.0 when nothing has been recorded *)
Lemma C51_empty_proof : forall h, len h = 0%Z -> mean h = Ret f64_zero /\ stdev h = Ret f64_zero.
Proof. intros h T. unfold mean, stdev, len in *. rewrite T. auto. Qed.
(*EX
Example ex_C51_empty : match build U64 1 10000 1 false [(5, 0)] with
  | Some h => reachable h /\ len h = 0 /\ max h = Ret 5 /\ match mean h with Ret m => f64_eq m f64_zero = true | _ => False end
  | _ => False end.
Proof. float_case. Qed.
EX*)
