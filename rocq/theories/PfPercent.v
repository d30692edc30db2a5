(** * Proofs of the properties about the percentile forms (C58) *)
(*PROPS-IMPORTS Machine Log2Model HistModel Spec Reach Witness Cases FloatModel IterModel IterSpec FloatSpec *)
(*PROPS-HEADER
From Coq Require Import Reals.
PROPS-HEADER*)
From Coq Require Import Reals.
From Verif Require Import Machine Log2Model HistModel Spec Reach Bins ListZ Log2Facts Cfg Wf Ops AddFacts SubFacts Exact MoreFacts Witness HeldFacts PfRecord PfMerge PfQuery FloatModel IterModel IterSpec IterFacts IterBins FloatSpec FloatFacts PfIter PfQuantile.
From Coq Require Import ZifyBool ZifyNat Lra.
From Flocq Require Import Core IEEE754.BinarySingleNaN.
Open Scope Z_scope.

Lemma hundred_ok : B2R (f64_of_u64 100) = 100%R /\ is_finite (f64_of_u64 100) = true.
Proof.
  destruct (of_u64_ok 100) as (A & B & _); [unfold u64_max; lia|]. split; auto. rewrite A. apply (rne_IZR 100). lia.
Qed.

Lemma per_ok p : is_finite p = true -> is_finite (f64_div p (f64_of_u64 100)) = true /\ B2R (f64_div p (f64_of_u64 100)) = rne (B2R p / 100).
Proof.
  intros F. destruct hundred_ok as [H1 H2]. assert (NZ : B2R (f64_of_u64 100) <> 0%R) by (rewrite H1; lra).
  pose proof (Bdiv_correct 53 1024 prec_gt_0_64 prec_lt_emax_64 mode_NE p (f64_of_u64 100) NZ) as M.
  change (round radix2 (SpecFloat.fexp 53 1024) (round_mode mode_NE) ?x) with (rne x) in M. rewrite H1 in M.
  assert (G : Rlt_bool (Rabs (rne (B2R p / 100))) (bpow radix2 1024) = true).
  { apply Rlt_bool_true. assert (L : (Rabs (B2R p) < bpow radix2 1024)%R) by apply abs_B2R_lt_emax.
    apply Rle_lt_trans with (2 := L). unfold rne. rewrite <- round_NE_abs by (apply FLT_exp_valid; reflexivity).
    change (rne (Rabs (B2R p / 100)) <= Rabs (B2R p))%R. rewrite <- (rne_id (Rabs (B2R p))) by (apply generic_format_abs, gf_B2R).
    apply rne_le. unfold Rdiv. rewrite Rabs_mult. rewrite (Rabs_pos_eq (/ 100)) by lra. pose proof (Rabs_pos (B2R p)). lra. }
  rewrite G in M. destruct M as (A & B & _). split; [exact (eq_trans B F)|exact A].
Qed.

Lemma rank_finite q n : is_finite q = true -> quantile_rank q n = rank_of (Rmin 1 (B2R q)) n.
Proof. destruct q; try discriminate; reflexivity. Qed.

Lemma eq_zero q : is_finite q = true -> (f64_eq q f64_zero = true <-> B2R q = 0%R).
Proof.
  intros F. unfold f64_eq. rewrite (Beqb_correct 53 1024 q f64_zero F eq_refl). change (B2R f64_zero) with 0%R.
  split; [intros H|intros ->; apply Req_bool_true; auto]. destruct (Req_bool_spec (B2R q) 0); auto; discriminate.
Qed.

(** ** C58.  [value_at_percentile p] is the class of the sample whose rank is [p / 100] of [len] (the
    division and the product rounded, the rank rounded up): its highest value, or its lowest if the
    rounded [p / 100] is 0 *)
Lemma C58_value_at_percentile_proof : forall h p, reachable h -> weight (held h) <= u64_max -> finite p ->
  let q := rne (real_of p / 100) in
  let k := rank_of (Rmin 1 q) (len h) in
  (weight (held h) < k /\ value_at_percentile h p = Ret 0) \/
  (exists w n, In (w, n) (held h) /\ weight_between 0 w (held h) - n < k <= weight_between 0 w (held h) /\
     (q = 0%R -> value_at_percentile h p = Ret w) /\ (q <> 0%R -> value_at_percentile h p = highest_equivalent h w)).
Proof.
  intros h p R S F q k. destruct (per_ok p F) as [D1 D2]. unfold value_at_percentile.
  pose proof (C28_rank_proof h (f64_div p (f64_of_u64 100)) R S) as X. cbv zeta in X.
  rewrite rank_finite in X by auto. rewrite D2 in X. fold (real_of p) in X. fold q in X. fold k in X.
  destruct X as [X|(w & n & I & K & E)]; [left; auto|right]. exists w, n. split; auto. split; auto. rewrite E.
  pose proof (eq_zero _ D1) as Z. rewrite D2 in Z. fold (real_of p) in Z. fold q in Z.
  destruct (f64_eq (f64_div p (f64_of_u64 100)) f64_zero); split; auto.
  - intros N. destruct N. apply Z. auto.
  - intros N. apply Z in N. discriminate.
Qed.
(*EX
Example ex_C58_value : match build U64 1 10000 1 false [(5000, 8); (5, 2); (333, 1); (900, 9)] with
  | Some h => reachable h /\ weight (held h) <= u64_max /\ finite (f64_of_u64 60) /\ len h = 20 /\ In (896, 9) (held h) /\ weight_between 0 896 (held h) = 12 /\
      value_at_percentile h (f64_of_u64 60) = Ret 927 /\ highest_equivalent h 896 = Ret 927
  | None => False end.
Proof. float_case. Qed.
EX*)
(** larger percentiles report larger values *)
Lemma C58_monotone_proof : forall h a b x y, reachable h -> len_agrees h -> len h <= 2 ^ 53 -> finite a -> finite b ->
  (0 <= real_of a <= real_of b)%R ->
  value_at_percentile h a = Ret x -> value_at_percentile h b = Ret y -> x <= y.
Proof.
  intros h a b x y R LA L FA FB H. destruct (per_ok a FA) as [A1 A2]. destruct (per_ok b FB) as [B1 B2].
  pose proof (reachable_wf h R) as W. unfold len_agrees in LA. pose proof (wf_total_nonneg h W) as TN. unfold len in *.
  assert (P : (0 <= rne (B2R a / 100))%R) by (apply rne_nonneg; unfold real_of in *; lra).
  assert (LE : (rne (B2R a / 100) <= rne (B2R b / 100))%R) by (apply rne_le; unfold real_of in *; lra).
  destruct (Z.eq_dec (h_total h) 0) as [Z|NZ].
  { unfold value_at_percentile. intros E1 E2.
    assert (N : held h = []). { apply (empty_held h W). unfold is_empty. apply Z.eqb_eq; auto. }
    destruct (C28_rank_proof h (f64_div a (f64_of_u64 100)) R ltac:(unfold u64_max; lia)) as [(_ & X)|(w & n & I & _)]; [|rewrite N in I; destruct I].
    destruct (C28_rank_proof h (f64_div b (f64_of_u64 100)) R ltac:(unfold u64_max; lia)) as [(_ & Y)|(w & n & I & _)]; [|rewrite N in I; destruct I].
    rewrite X in E1; rewrite Y in E2. injection E1 as <-. injection E2 as <-. lia. }
  unfold value_at_percentile. apply (C28_monotone_proof h _ _ x y R).
  - unfold u64_max; lia.
  - unfold f64_le. rewrite Bleb_correct by auto. apply Rle_bool_true. rewrite A2. exact P.
  - unfold f64_le. rewrite Bleb_correct by auto. apply Rle_bool_true. rewrite A2, B2. exact LE.
  - rewrite <- LA. pose proof (rank_bound (f64_div b (f64_of_u64 100)) (h_total h) ltac:(lia)). unfold len in *; lia.
Qed.
(*EX
Example ex_C58_monotone : match build U64 1 10000 1 false [(5000, 8); (5, 2); (333, 1); (900, 9)] with
  | Some h => reachable h /\ len_agrees h /\ len h = 20 /\ finite (f64_of_u64 15) /\ finite (f64_of_u64 60) /\ f64_le (f64_of_u64 15) (f64_of_u64 60) = true /\
      value_at_percentile h (f64_of_u64 15) = Ret 335 /\ value_at_percentile h (f64_of_u64 60) = Ret 927
  | None => False end.
Proof. float_case. Qed.
EX*)
(** percentile 0 is the lowest value of the first class, 100 and more the highest of the last *)
Lemma C58_ends_proof : forall h p w n l, reachable h -> len_agrees h -> len h <= 2 ^ 53 -> finite p ->
  (real_of p = 0%R -> held h = (w, n) :: l -> value_at_percentile h p = Ret w) /\
  ((100 <= real_of p)%R -> held h = l ++ [(w, n)] -> value_at_percentile h p = highest_equivalent h w).
Proof.
  intros h p w n l R LA L F. destruct (per_ok p F) as [D1 D2]. split.
  - intros P E. unfold value_at_percentile. apply (C28_zero_proof h _ w n l R); auto.
    + unfold len_agrees in LA. unfold u64_max. lia.
    + apply eq_zero; auto. rewrite D2. unfold real_of in P. rewrite P. replace (0 / 100)%R with 0%R by lra. apply rne_0.
  - intros P E. unfold value_at_percentile. apply (C28_one_proof h _ w n l R); auto.
    unfold f64_le. destruct one_ok as [O1 O2]. rewrite Bleb_correct by auto. apply Rle_bool_true. rewrite O1, D2, <- rne_1. apply rne_le.
    unfold real_of in P. lra.
Qed.
(*EX
Example ex_C58_ends : match build U64 1 10000 1 false [(5000, 8); (5, 2); (333, 1); (900, 9)] with
  | Some h => reachable h /\ len_agrees h /\ len h = 20 /\ finite (f64_of_u64 0) /\ finite (f64_of_u64 200) /\ held h = (5, 2) :: [(320, 1); (896, 9); (4864, 8)] /\
      value_at_percentile h (f64_of_u64 0) = Ret 5 /\ value_at_percentile h (f64_of_u64 200) = Ret 5119
  | None => False end.
Proof. float_case. Qed.
EX*)

Lemma times100_ok q : is_finite q = true -> (0 <= B2R q <= 1)%R ->
  is_finite (f64_mul q (f64_of_u64 100)) = true /\ B2R (f64_mul q (f64_of_u64 100)) = rne (100 * B2R q) /\ (0 <= rne (100 * B2R q) <= 100)%R.
Proof.
  intros F Q. destruct hundred_ok as [H1 H2].
  pose proof (Bmult_correct 53 1024 prec_gt_0_64 prec_lt_emax_64 mode_NE q (f64_of_u64 100)) as M.
  change (round radix2 (SpecFloat.fexp 53 1024) (round_mode mode_NE) ?x) with (rne x) in M. rewrite H1 in M.
  rewrite small_finite in M.
  - destruct M as (A & B & _). rewrite F, H2 in B. cbn [andb] in B. split; [exact B|]. split.
    + unfold f64_mul. rewrite A. f_equal. lra.
    + split; [apply rne_nonneg; lra|]. apply Rle_trans with (rne (IZR 100)); [apply rne_le; lra|]. rewrite (rne_IZR 100) by lia. lra.
  - rewrite Rabs_pos_eq by lra. apply Rle_trans with (bpow radix2 7); [cbn; lra|]. apply bpow_le. lia.
Qed.
(** [percentile_below] is 100 times [quantile_below], rounded, and between 0 and 100 *)
Lemma C58_percentile_below_proof : forall h v, reachable h -> is_u64 v -> exists p q,
  percentile_below h v = Ret p /\ quantile_below h v = Ret q /\ finite p /\ finite q /\
  real_of p = rne (100 * real_of q) /\ (0 <= real_of p <= 100)%R /\ (len h = 0 -> real_of p = 100%R) /\
  (len_agrees h -> (forall w n, In (w, n) (held h) -> w <= v) -> real_of p = 100%R).
Proof.
  intros h v R V. destruct (C29_total_proof h v R V) as (q & E & F & Q & Z). destruct (times100_ok q F Q) as (A & B & D).
  exists (f64_mul q (f64_of_u64 100)), q. unfold percentile_below. rewrite E. cbn [bind]. unfold real_of, finite in *.
  split; auto. split; auto. split; auto. split; auto. split; auto. split; [rewrite B; auto|].
  assert (T : B2R q = 1%R -> B2R (f64_mul q (f64_of_u64 100)) = 100%R).
  { intros X. rewrite B, X. replace (100 * 1)%R with (IZR 100) by lra. apply (rne_IZR 100). lia. }
  split; [auto|]. intros LA AL. apply T. destruct (C29_top_proof h v R V LA AL) as (q' & E' & X). rewrite E in E'. injection E' as <-. exact X.
Qed.
(*EX
Example ex_C58_below : match build U64 1 10000 1 false [(5000, 8); (5, 2); (333, 1); (900, 9)] with
  | Some h => reachable h /\ is_u64 330 /\
      match percentile_below h 330, percentile_below h 5000 with Ret x, Ret y => f64_eq x (f64_of_u64 15) = true /\ f64_eq y (f64_of_u64 100) = true | _, _ => False end
  | None => False end.
Proof. float_case. Qed.
EX*)
(** the iterators' [percentile()] is 100 times their [quantile()], rounded *)
Lemma C58_step_percentile_proof : forall x, finite (iv_quantile x) -> (0 <= real_of (iv_quantile x) <= 1)%R ->
  finite (iv_percentile x) /\ real_of (iv_percentile x) = rne (100 * real_of (iv_quantile x)) /\ (0 <= real_of (iv_percentile x) <= 100)%R.
Proof.
  intros x F Q. destruct (times100_ok _ F Q) as (A & B & D). unfold iv_percentile, real_of, finite in *.
  split; [exact A|]. split; [exact B|]. rewrite B. exact D.
Qed.
(*EX
Example ex_C58 : match build U64 1 10000 1 false [(5000, 8); (5, 2); (333, 1); (900, 9)] with
  | Some h =>
      reachable h /\ map (fun n => value_at_percentile h (f64_of_u64 n)) [0; 10; 11; 15; 60; 61; 100; 200] =
        [Ret 5; Ret 5; Ret 335; Ret 335; Ret 927; Ret 5119; Ret 5119; Ret 5119] /\
      match percentile_below h 330 with Ret p => f64_eq p (f64_of_u64 15) = true | Panic => False end
  | _ => False end.
Proof. float_case. Qed.
EX*)
