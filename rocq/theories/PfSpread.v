(** * Proof of the property about stdev() against the raw samples (C72) *)
(*PROPS-IMPORTS Machine Log2Model HistModel Spec Reach Witness Cases FloatModel IterModel FloatSpec StatSpec *)
(*PROPS-HEADER
From Coq Require Import Reals List.
From Flocq Require Import Core.
Import ListNotations.
PROPS-HEADER*)
From Coq Require Import Reals.
From Verif Require Import Machine Log2Model HistModel Spec Reach Bins ListZ Log2Facts Cfg Wf Ops AddFacts SubFacts Exact MoreFacts Witness HeldFacts PfClasses PfRecord PfMerge PfQuery FloatModel IterModel IterSpec IterFacts IterBins FloatSpec FloatFacts PfIter PfQuantile StatSpec Relerr PfStats PfAccuracy.
From Coq Require Import ZifyBool ZifyNat Lra.
From Flocq Require Import Core IEEE754.BinarySingleNaN.
Local Open Scope R_scope.

(** ** Weighted root mean squares *)
Definition counted (l : list (Z * Z)) := Forall (fun p => (0 <= snd p)%Z) l.
Lemma moment_ext_in f g l : (forall v n, In (v, n) l -> f v = g v) -> moment f l = moment g l.
Proof. induction l as [|[v n] l IH]; intros E; cbn [moment]; auto. rewrite (E v n) by (left; auto). f_equal. apply IH. intros a b I. apply (E a b). right; auto. Qed.
Lemma moment_plus f g l : moment (fun v => f v + g v) l = moment f l + moment g l.
Proof. induction l as [|[v n] l IH]; cbn [moment]; [lra|]. rewrite IH. ring. Qed.
Lemma moment_scale c f l : moment (fun v => c * f v) l = c * moment f l.
Proof. induction l as [|[v n] l IH]; cbn [moment]; [lra|]. rewrite IH. ring. Qed.
Lemma moment_const c l : moment (fun _ => c) l = c * IZR (weight l).
Proof. induction l as [|[v n] l IH]; cbn [moment weight]; [lra|]. rewrite IH, plus_IZR. ring. Qed.
Lemma moment_le f g l : counted l -> (forall v n, In (v, n) l -> f v <= g v) -> moment f l <= moment g l.
Proof.
  intros F. induction F as [|[v n] l N F IH]; intros B; cbn [moment snd] in *; [lra|].
  specialize (IH (fun a b I => B a b (or_intror I))). pose proof (B v n (or_introl eq_refl)). apply IZR_le in N. nra.
Qed.
Lemma moment_pos f l : counted l -> (forall v n, In (v, n) l -> 0 <= f v) -> 0 <= moment f l.
Proof. intros F B. replace 0 with (moment (fun _ => 0) l) by (rewrite moment_const; ring). apply moment_le; auto. Qed.
Lemma moment_sq f l : counted l -> 0 <= moment (fun v => f v ^ 2) l.
Proof. intros F. apply moment_pos; auto. intros. apply pow2_ge_0. Qed.
Lemma cauchy f g l : counted l -> moment (fun v => f v * g v) l <= sqrt (moment (fun v => f v ^ 2) l) * sqrt (moment (fun v => g v ^ 2) l).
Proof.
  intros F. induction F as [|[v n] l N F IH]; cbn [moment snd] in *; [rewrite sqrt_0; lra|].
  pose proof (moment_sq f l F) as P0. pose proof (moment_sq g l F) as Q0.
  pose proof (sqrt_pos (moment (fun v => f v ^ 2) l)) as p0. pose proof (sqrt_pos (moment (fun v => g v ^ 2) l)) as q0.
  pose proof (sqrt_sqrt _ P0) as PP. pose proof (sqrt_sqrt _ Q0) as QQ.
  set (p := sqrt (moment (fun v => f v ^ 2) l)) in *. set (q := sqrt (moment (fun v => g v ^ 2) l)) in *.
  rewrite <- PP, <- QQ. apply IZR_le in N. set (a := f v). set (b := g v). set (X := moment (fun v => f v * g v) l) in *. set (k := IZR n) in *.
  rewrite <- sqrt_mult by nra. apply Rle_trans with (a * b * k + p * q); [lra|].
  apply Rle_trans with (Rabs (a * b * k + p * q)); [apply Rle_abs|]. rewrite <- sqrt_Rsqr_abs. apply sqrt_le_1_alt. unfold Rsqr.
  assert (0 <= k * (a * q - b * p) ^ 2) by (apply Rmult_le_pos; [auto|apply pow2_ge_0]). nra.
Qed.
Definition rms (f : Z -> R) (l : list (Z * Z)) : R := sqrt (moment (fun v => f v ^ 2) l / IZR (weight l)).
Section RMS.
Context (l : list (Z * Z)) (F : counted l) (WL : (0 < weight l)%Z).
Notation N := (IZR (weight l)).
Lemma N_pos : 0 < N. Proof. apply (IZR_lt 0); auto. Qed.
Lemma rms_split f : rms f l = sqrt (moment (fun v => f v ^ 2) l) / sqrt N.
Proof. apply sqrt_div; [apply moment_sq; auto|apply N_pos]. Qed.
Lemma rms_pos f : 0 <= rms f l. Proof. apply sqrt_pos. Qed.
Lemma rms_ext f g : (forall v n, In (v, n) l -> f v = g v) -> rms f l = rms g l.
Proof. intros E. unfold rms. rewrite (moment_ext_in (fun v => f v ^ 2) (fun v => g v ^ 2)); auto. intros v n I. rewrite (E v n I). reflexivity. Qed.
Lemma rms_le f g : (forall v n, In (v, n) l -> Rabs (f v) <= g v) -> rms f l <= rms g l.
Proof.
  intros B. unfold rms. apply sqrt_le_1_alt. apply Rmult_le_compat_r; [apply Rlt_le, Rinv_0_lt_compat, N_pos|].
  apply moment_le; auto. intros v n I. rewrite <- (pow2_abs (f v)). apply pow_incr. split; [apply Rabs_pos|apply (B v n I)].
Qed.
Lemma rms_const c : 0 <= c -> rms (fun _ => c) l = c.
Proof. intros C. unfold rms. rewrite moment_const. replace (c ^ 2 * N / N) with (c * c) by (field; pose proof N_pos; lra). apply sqrt_square; auto. Qed.
Lemma rms_scale c f : 0 <= c -> rms (fun v => c * f v) l = c * rms f l.
Proof.
  intros C. unfold rms. rewrite (moment_ext_in _ (fun v => c ^ 2 * f v ^ 2)) by (intros; ring). rewrite moment_scale.
  replace (c ^ 2 * moment (fun v => f v ^ 2) l / N) with (c * c * (moment (fun v => f v ^ 2) l / N)) by (unfold Rdiv; ring).
  rewrite sqrt_mult; [rewrite sqrt_square; auto|nra|]. apply Rmult_le_pos; [apply moment_sq; auto|apply Rlt_le, Rinv_0_lt_compat, N_pos].
Qed.
Lemma rms_plus f g : rms (fun v => f v + g v) l <= rms f l + rms g l.
Proof.
  rewrite !rms_split. pose proof (sqrt_lt_R0 _ N_pos) as SN.
  apply Rmult_le_reg_r with (sqrt N); auto. replace ((_ / sqrt N + _ / sqrt N) * sqrt N) with (sqrt (moment (fun v => f v ^ 2) l) + sqrt (moment (fun v => g v ^ 2) l)) by (field; lra).
  unfold Rdiv. rewrite Rmult_assoc, Rinv_l, Rmult_1_r by lra.
  pose proof (moment_sq f l F) as P0. pose proof (moment_sq g l F) as Q0. pose proof (cauchy f g l F) as CS.
  pose proof (sqrt_pos (moment (fun v => f v ^ 2) l)) as p0. pose proof (sqrt_pos (moment (fun v => g v ^ 2) l)) as q0.
  pose proof (sqrt_sqrt _ P0) as PP. pose proof (sqrt_sqrt _ Q0) as QQ.
  set (p := sqrt (moment (fun v => f v ^ 2) l)) in *. set (q := sqrt (moment (fun v => g v ^ 2) l)) in *.
  rewrite <- (sqrt_square (p + q)) by lra. apply sqrt_le_1_alt.
  rewrite (moment_ext_in _ (fun v => (f v ^ 2 + g v ^ 2) + 2 * (f v * g v))) by (intros; ring).
  rewrite (moment_plus (fun v => f v ^ 2 + g v ^ 2)), moment_scale, moment_plus. nra.
Qed.
Lemma rms_opp f : rms (fun v => - f v) l = rms f l.
Proof. unfold rms. rewrite (moment_ext_in _ (fun v => f v ^ 2)); auto. intros. ring. Qed.
Lemma rms_diff f g : Rabs (rms f l - rms g l) <= rms (fun v => f v - g v) l.
Proof.
  apply Rabs_le. split.
  - pose proof (rms_plus f (fun v => - (f v - g v))) as P. cbn beta in P. rewrite rms_opp in P.
    rewrite (rms_ext (fun v => f v + - (f v - g v)) g) in P by (intros; ring). lra.
  - pose proof (rms_plus g (fun v => f v - g v)) as P. cbn beta in P. rewrite (rms_ext (fun v => g v + (f v - g v)) f) in P by (intros; ring). lra.
Qed.
(** moving the origin to the mean makes the root mean square no larger *)
Lemma rms_centre f : rms (fun v => f v - moment f l / N) l <= rms f l.
Proof.
  pose proof N_pos as NP. unfold rms. apply sqrt_le_1_alt. apply Rmult_le_compat_r; [apply Rlt_le, Rinv_0_lt_compat, NP|].
  set (m := moment f l / N). rewrite (moment_ext_in _ (fun v => (f v ^ 2 + (- 2 * m) * f v) + m ^ 2)) by (intros; ring).
  rewrite moment_plus, moment_plus, moment_scale, moment_const.
  assert (E : moment f l = m * N) by (unfold m; field; lra). rewrite E. assert (0 <= m ^ 2 * N) by (apply Rmult_le_pos; [apply pow2_ge_0|lra]). nra.
Qed.
Lemma mean_le_rms f : moment f l / N <= rms f l.
Proof.
  pose proof N_pos as NP. pose proof (cauchy f (fun _ => 1) l F) as CS. rewrite rms_split.
  rewrite (moment_ext_in (fun v => f v * 1) f) in CS by (intros; ring). rewrite moment_const in CS. replace (1 ^ 2 * N) with N in CS by ring.
  pose proof (sqrt_lt_R0 _ NP) as SN. apply Rmult_le_reg_r with N; auto. unfold Rdiv at 1. rewrite Rmult_assoc, Rinv_l, Rmult_1_r by lra.
  rewrite <- (sqrt_sqrt N) at 2 by lra. replace (sqrt (moment (fun v => f v ^ 2) l) / sqrt N * (sqrt N * sqrt N)) with (sqrt (moment (fun v => f v ^ 2) l) * sqrt N) by (field; lra). lra.
Qed.
End RMS.

Notation ulp2 := (bpow radix2 (-53)).
Lemma pow_double n (u : R) : 0 <= u <= 1 -> 1 - (1 - u) ^ n <= (1 + u) ^ n - 1.
Proof.
  intros U. induction n as [|n IH]; cbn [pow]; [lra|].
  assert (A : 0 <= (1 - u) ^ n <= 1). { split; [apply pow_le; lra|]. apply Rle_trans with (1 ^ n); [apply pow_incr; lra|rewrite pow1; lra]. }
  assert (B : 1 <= (1 + u) ^ n) by (apply pow_R1_Rle; lra). nra.
Qed.
Lemma within_abs n x y : 0 <= y -> within n x y -> Rabs (x - y) <= ((1 + ulp2) ^ n - 1) * y.
Proof.
  intros Y [A B]. assert (U : 0 <= ulp2 <= 1) by (split; [apply bpow_ge_0|change 1 with (bpow radix2 0); apply bpow_le; lia]).
  pose proof (pow_double n ulp2 U). apply Rabs_le. nra.
Qed.

(** ** C72.  stdev() is the standard deviation of the recorded samples, up to the rounding of the float
    operations and half the resolution of the histogram.  With [r] half a unit (rounded down, so nothing when
    the unit is 1) plus half of 10^-sigfig of the root mean square of the samples, the root of the squares
    actually summed differs from the true standard deviation by at most [r] and a relative 2^-53 per class
    and seven more of the root mean square and [r]; the result differs from that root by a relative 2^-53
    for every class and nine more. *)
Lemma C72_stdev_accuracy_proof : forall T lo hi sf b h0 l h unit, is_u64 lo -> is_u64 hi -> is_u8 sf ->
  new_with_bounds T lo hi sf = Ret (ROk h0) -> records (auto h0 b) l h -> no_saturation (auto h0 b) l ->
  equivalent_range h 0 = Ret unit -> (0 < weight l)%Z ->
  let r := (IZR (unit / 2) + sample_rms l / (2 * 10 ^ Z.to_nat sf))%R in
  exists s a, stdev h = Ret s /\ finite s /\ within (length (held h) + 9) (real_of s) a /\
    (Rabs (a - sample_stdev l) <= r + ((1 + bpow radix2 (-53)) ^ (length (held h) + 7) - 1) * (sample_rms l + r))%R.
Proof.
  intros T lo hi sf b h0 l h unit L Hh S E R NS UN WL r.
  assert (RH : reachable h) by (eapply records_reachable; [|exact R]; apply reach_auto; exact (reach_new_with_bounds T lo hi sf h0 L Hh S E)).
  destruct (created_wf T lo hi sf h0 L Hh S E) as (-> & CC & W0 & EX).
  assert (WA : wf (set_auto (fresh T lo hi sf) b)) by (apply set_auto_wf; auto).
  apply records_many in R; auto. destruct (recorded_counts T lo hi sf b l h WA R NS) as (RA & W & FU & FN & CNT & TOT & FB).
  assert (SF : sigfig h = sf) by (unfold sigfig; rewrite (ss_sf _ _ (ra_shape _ _ _ RA)); reflexivity).
  destruct (C51_stdev_proof h RH ltac:(lia)) as (m & s & EM & ES & FS & _ & WS).
  destruct (C51_mean_proof h RH ltac:(lia)) as (m' & EM' & FM & WM). rewrite EM in EM'. injection EM' as <-.
  exists s, (sqrt (exact_square_dev h (real_of m))). split; auto. split; auto. split; auto.
  assert (FN' : counted l) by exact FN. pose proof (N_pos l WL) as NP.
  set (md := fun v => IZR (class_median h (bval h (bin h v)))). set (c := fun v => real_of (f64_of_u64 (class_median h (bval h (bin h v))))).
  assert (EA : sqrt (exact_square_dev h (real_of m)) = rms (fun v => c v - real_of m) l).
  { unfold exact_square_dev, rms. rewrite TOT, held_contents, (moment_samples _ h l FB CNT) by auto. reflexivity. }
  assert (MM : exact_mean h = moment md l / IZR (weight l)).
  { unfold exact_mean. rewrite TOT, held_contents, (moment_samples _ h l FB CNT) by auto. reflexivity. }
  rewrite EA. change (sample_stdev l) with (rms (fun v => IZR v - sample_mean l) l). change (sample_rms l) with (rms IZR l) in *.
  set (d := / (2 * 10 ^ Z.to_nat sf)). assert (D0 : 0 < d) by (apply Rinv_0_lt_compat; pose proof (pow_lt 10 (Z.to_nat sf)); lra).
  assert (U0 : 0 <= IZR (unit / 2)).
  { apply IZR_le. rewrite equivalent_range_ok in UN by (try apply w_cfg; auto; unfold u64, u64_max; lia). injection UN as <-. apply Z.div_pos; [|lia]. apply Z.lt_le_incl, wid_pos, um_nonneg, w_cfg; auto. }
  assert (MED : forall v n, In (v, n) l -> Rabs (md v - IZR v) <= IZR (unit / 2) + d * IZR v /\ 0 <= md v /\ Rabs (c v - md v) <= ulp2 * md v).
  { intros v n I. rewrite Forall_forall in FU. pose proof (FU _ I) as V. cbn [fst] in V.
    split; [rewrite (Rmult_comm d); unfold md, d; rewrite <- SF; apply median_near; auto|].
    destruct (median_of h v W V) as (x & _ & -> & XU & _). split; [apply IZR_le; apply XU|].
    destruct (of_u64_ok _ XU) as (BE & _ & _). unfold c, real_of, md. rewrite BE. destruct (int_mid _ XU) as [_ WI]. pose proof (within_abs 1 _ _ (IZR_le _ _ (proj1 XU)) WI) as WA1.
    rewrite pow_1 in WA1. lra. }
  assert (DIF : rms (fun v => md v - IZR v) l <= r).
  { apply Rle_trans with (rms (fun v => IZR (unit / 2) + d * IZR v) l); [apply rms_le; auto; intros v n I; apply (MED v n I)|].
    eapply Rle_trans; [apply (rms_plus l FN' WL (fun _ => IZR (unit / 2)) (fun v => d * IZR v))|].
    rewrite rms_const, rms_scale by (auto; lra). unfold r, Rdiv. fold d. lra. }
  assert (RM : rms md l <= rms IZR l + r).
  { rewrite (rms_ext l md (fun v => IZR v + (md v - IZR v))) by (intros; ring). eapply Rle_trans; [apply rms_plus; auto|]. lra. }
  assert (RC : rms (fun v => c v - md v) l <= ulp2 * rms md l).
  { rewrite <- rms_scale by (auto; apply bpow_ge_0). apply rms_le; auto. intros v n I. apply (MED v n I). }
  assert (M0 : 0 <= exact_mean h).
  { rewrite MM. apply Rmult_le_pos; [apply moment_pos; auto; intros v n I; apply (MED v n I)|apply Rlt_le, Rinv_0_lt_compat; auto]. }
  pose proof (within_abs _ _ _ M0 WM) as AM. pose proof (mean_le_rms l FN' WL md) as ML. rewrite <- MM in ML.
  set (k := (length (held h) + 6)%nat) in *. replace (length (held h) + 7)%nat with (Datatypes.S k) by (unfold k; lia).
  assert (UP : 0 <= ulp2) by apply bpow_ge_0. assert (KP : 1 <= (1 + ulp2) ^ k) by (apply pow_R1_Rle; lra).
  pose proof (rms_pos l md) as R0.
  assert (MAIN : Rabs (rms (fun v => c v - real_of m) l - rms (fun v => IZR v - sample_mean l) l) <= r + ulp2 * rms md l + ((1 + ulp2) ^ k - 1) * rms md l).
  { eapply Rle_trans; [apply rms_diff; auto|].
    rewrite (rms_ext l _ (fun v => ((md v - IZR v) - (exact_mean h - sample_mean l)) + ((c v - md v) + (exact_mean h - real_of m)))) by (intros; ring).
    eapply Rle_trans; [apply (rms_plus l FN' WL (fun v => (md v - IZR v) - (exact_mean h - sample_mean l)))|].
    assert (A1 : rms (fun v => md v - IZR v - (exact_mean h - sample_mean l)) l <= r).
    { apply Rle_trans with (rms (fun v => md v - IZR v) l); auto.
      replace (exact_mean h - sample_mean l) with (moment (fun v => md v - IZR v) l / IZR (weight l)); [apply (rms_centre l WL (fun v => md v - IZR v))|].
      rewrite MM. unfold sample_mean. rewrite (moment_ext_in _ (fun v => md v + (-1) * IZR v)) by (intros; ring). rewrite moment_plus, moment_scale. field. lra. }
    assert (A2 : rms (fun v => c v - md v + (exact_mean h - real_of m)) l <= ulp2 * rms md l + ((1 + ulp2) ^ k - 1) * rms md l).
    { eapply Rle_trans; [apply (rms_plus l FN' WL (fun v => c v - md v) (fun _ => exact_mean h - real_of m))|].
      apply Rplus_le_compat; auto. apply Rle_trans with (rms (fun _ => Rabs (exact_mean h - real_of m)) l); [apply rms_le; auto; intros; lra|].
      rewrite rms_const by (auto; apply Rabs_pos). rewrite Rabs_minus_sym. eapply Rle_trans; [exact AM|]. apply Rmult_le_compat_l; lra. }
    lra. }
  eapply Rle_trans; [exact MAIN|]. rewrite Rplus_assoc. apply Rplus_le_compat_l.
  cbn [pow]. set (K := (1 + ulp2) ^ k) in *. assert (UK : 0 <= ulp2 * (K - 1)) by (apply Rmult_le_pos; lra).
  apply Rle_trans with (((1 + ulp2) * K - 1) * rms md l); [|apply Rmult_le_compat_l; [lra|exact RM]].
  rewrite <- Rmult_plus_distr_r. apply Rmult_le_compat_r; lra.
Qed.
(*EX
(** samples 17 (60 times), 12345, 420 (39 times): standard deviation 1226.57; the medians are 17, 12320
    and 421, giving 1224.15; the root mean square is 1262.1, so half of 10^-2 of it is about 6.3 *)
Example ex_C72 : match build U64 1 100000 2 false [(17, 60); (12345, 1); (420, 39)] with
  | Some h => reachable h /\ equivalent_range h 0 = Ret 1 /\ map (fun p => class_median h (fst p)) (held h) = [17; 421; 12320] /\
      match stdev h with Ret m => f64_to_u64 (f64_mul m (f64_of_u64 100)) = 122415 | _ => False end
  | None => False end.
Proof. float_case. Qed.
EX*)
