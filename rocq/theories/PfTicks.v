(** * Proofs of the properties about iter_quantiles (C27) *)
(*PROPS-IMPORTS Machine Log2Model HistModel Spec Reach Witness Cases FloatModel FloatSpec IterModel IterSpec QuantSpec *)
(*PROPS-HEADER
From Coq Require Import Reals List.
Import ListNotations.
PROPS-HEADER*)
From Coq Require Import ZArith Reals Lia Lra Bool List.
From Flocq Require Import Core IEEE754.BinarySingleNaN.
From Verif Require Import Machine Log2Model HistModel Spec Reach Bins ListZ Log2Facts Cfg Wf Ops AddFacts MoreFacts Witness HeldFacts FloatModel FloatSpec FloatFacts IterModel IterSpec IterFacts IterBins PfQuery PfIter IterLog QuantSpec QuantStep IterQuant.
From Coq Require Import ZifyBool ZifyNat.
Import ListNotations.
Local Open Scope Z_scope.

Lemma drains_fun {P} (pk : picker P) h it xs : drains pk h it xs -> forall ys, drains pk h it ys -> ys = xs.
Proof.
  induction 1 as [it it' E|it it' x xs E D IH]; intros ys Y; inversion Y; subst; try congruence. rewrite E in H. injection H as <- <-. f_equal. auto.
Qed.

Lemma floor_log2_ok : log2_ok floor_log2.
Proof.
  intros y k F K Y. unfold finite, real_of in *. unfold floor_log2.
  assert (T : Btrunc y = Zfloor (B2R y)).
  { pose proof (Btrunc_correct 53 1024 prec_lt_emax_64 y) as T. rewrite round_FIX_IZR in T. apply eq_IZR in T. rewrite T. apply Ztrunc_floor. pose proof (b2_pos k). lra. }
  rewrite T. set (m := Zfloor (B2R y)).
  assert (M : k <= Z.log2 m <= k + 1).
  { destruct (Z_lt_le_dec k 0) as [N|N].
    - assert (k = -1) by lia. subst k. change (b2 (-1 + 1)) with 1%R in Y.
      assert (0 <= m <= 1). { unfold m. split; [rewrite <- (Zfloor_IZR 0)|rewrite <- (Zfloor_IZR 1)]; apply Zfloor_le; pose proof (b2_pos (-1)); lra. }
      assert (m = 0 \/ m = 1) as [-> | ->] by lia; cbn; lia.
    - assert (2 ^ k <= m <= 2 ^ (k + 1)).
      { unfold m. split; [rewrite <- (Zfloor_IZR (2 ^ k))|rewrite <- (Zfloor_IZR (2 ^ (k + 1)))]; apply Zfloor_le; rewrite <- b2_IZR by lia; apply Y. }
      split; [rewrite <- (Z.log2_pow2 k) by lia|rewrite <- (Z.log2_pow2 (k + 1)) by lia]; apply Z.log2_le_mono; lia. }
  assert (M0 : 0 <= Z.log2 m) by apply Z.log2_nonneg.
  destruct (of_u64_ok (Z.log2 m) ltac:(unfold u64_max; lia)) as (A & B & _). split; auto. rewrite A, rne_IZR by lia. rewrite <- plus_IZR. split; [split; apply IZR_le; lia|].
  intros K0 YL. apply IZR_lt. assert (MP : 0 < m). { apply Z.lt_le_trans with (2 ^ k); [lia|]. unfold m. rewrite <- (Zfloor_IZR (2 ^ k)). apply Zfloor_le. rewrite <- b2_IZR by lia. apply Y. }
  apply Z.log2_lt_pow2; auto. apply lt_IZR. apply Rle_lt_trans with (B2R y); [apply Zfloor_lb|]. rewrite <- b2_IZR by lia. pose proof (b2_pos (k + 1)). pose proof (b2_pos (-40)). nra.
Qed.

Lemma okq_zero ticks : 0 < ticks < 2 ^ 32 -> okq ticks f64_zero.
Proof.
  intros TK. split; [reflexivity|]. change (B2R f64_zero) with 0%R. split; [lra|]. intros _. right. rewrite Rminus_0_r.
  apply Rle_trans with (b2 32 * b2 (-59))%R; [|rewrite <- b2_split; change 1%R with (b2 0); apply b2_le; lia].
  apply Rmult_le_compat_r; [apply Rlt_le, b2_pos|]. rewrite b2_IZR by lia. apply IZR_le. lia.
Qed.

Lemma quant_drains lg h ticks : log2_ok lg -> wf h -> 0 < ticks < 2 ^ 32 ->
  exists it xs, iter_quantiles h ticks = Ret it /\ drains (pk_quantile lg) h it xs /\ qrun ticks h 0 0 f64_zero xs.
Proof.
  intros LG W TK. unfold iter_quantiles. destruct (Z.ltb_spec 0 ticks); [|lia]. cbn [assert bind].
  destruct (new_ok h W (mk_quantit ticks f64_zero false)) as (st & E & I & NE & IX & LA & PK & FR). exists st.
  pose proof (okq_zero ticks TK) as OK. destruct (dist f64_zero ltac:(apply OK) ltac:(apply OK)) as (n & N0 & N1).
  destruct (quant_runs lg LG ticks TK h W n N0 f64_zero st N1 OK) as (xs & X & Y).
  { split; [split; auto|]. split; auto. rewrite LA. reflexivity. }
  exists xs. split; auto. split; [apply runs_drains; auto|]. unfold prevd in Y. rewrite LA, IX in Y. exact Y.
Qed.

Lemma held_bin h j : reachable h -> wf h -> 0 <= j < zlen (h_counts h) -> zn (h_counts h) j <> 0 -> In (bval h j, zn (h_counts h) j) (held h).
Proof. intros R W J NZ. rewrite held_contents by auto. rewrite contents_idxs. apply in_map_iff. exists j. split; auto. apply held_idxs_in. auto. Qed.
Lemma quantile_at_bval h j : wf h -> 0 <= j < zlen (h_counts h) -> quantile_at h (bval h j) = cur h j.
Proof. intros W J. unfold quantile_at, cur. rewrite held_contents by auto. rewrite weight_below by auto. reflexivity. Qed.

Lemma reaching_item h p i j q : reachable h -> 0 <= i -> skips h 0 i q -> pickat h i j q -> first_reaching h (qitem h p j q).
Proof.
  intros R I0 S (J & NZ & LT & SK). pose proof (reachable_wf h R) as W. pose proof (w_cfg h W) as C. exists (bval h j). cbn [qitem iv_count iv_value iv_quantile iv_qto].
  split; [apply held_bin; auto; lia|]. split; [apply highest_bval; auto; lia|]. split; [symmetry; apply quantile_at_bval; auto; lia|]. split; auto.
  intros w' n' IN L. rewrite held_contents in IN by auto. destruct (contents_in h w' n' W IN) as (k & [K0 _] & KL & -> & EN & NN & _). subst n'.
  rewrite quantile_at_bval by (auto; lia). assert (k < j). { destruct (Z_lt_le_dec k j); auto. pose proof (bval_le h j k C ltac:(lia) ltac:(lia)). lia. }
  destruct (Z_lt_le_dec k i); [apply S|apply SK]; auto.
Qed.
Lemma skips_up h i j q q' : is_finite q = true -> is_finite q' = true -> (B2R q <= B2R q')%R -> skips h i j q -> skips h i j q'.
Proof. intros F F' L S k K NK. apply (f64_lt_up _ q q'); auto. Qed.
Lemma skips_app h i j k q : skips h i j q -> skips h j k q -> skips h i k q.
Proof. intros A B x X NX. destruct (Z_lt_le_dec x j); [apply A|apply B]; auto; lia. Qed.

Lemma okq_one ticks : okq ticks f64_one.
Proof. destruct one_ok as [O1 O2]. split; auto. rewrite O1. split; lra. Qed.

Lemma qrun_reaching h ticks p i q xs : reachable h -> qrun ticks h p i q xs -> 0 <= i -> okq ticks q -> skips h 0 i q -> Forall (first_reaching h) xs.
Proof.
  intros R Q. destruct one_ok as [O1 O2]. pose proof (reachable_wf h R) as W. pose proof (maxi_range h W) as MR.
  induction Q as [p i q S|p i j PA|p i j q q' xs PA LT JM LT' OK' TI Q IH|p i q PA LT LC|p i q PA LT LC]; intros I0 OK SK; pose proof OK as (F & QR & _).
  - constructor.
  - constructor; [|constructor]. eapply reaching_item; eauto.
  - constructor; [eapply reaching_item; eauto|]. destruct PA as (J & _ & _ & S). apply IH; auto; [lia|]. apply (skips_up h 0 j q q'); auto; [apply OK'|lra|]. apply (skips_app h 0 i j); auto.
  - constructor; [|constructor]. eapply reaching_item; eauto.
  - constructor; [eapply reaching_item; eauto|]. constructor; [|constructor]. destruct PA as (J & NZ & _ & S).
    apply (reaching_item h _ (bin h (h_max h)) _ _ R); [lia| |].
    + apply (skips_up h 0 _ q); auto; [rewrite O1; lra|]. apply (skips_app h 0 i); auto.
    + split; [lia|]. split; auto. split; auto. intros k K; lia.
Qed.

Lemma qrun_head h ticks p i q xs : qrun ticks h p i q xs -> match xs with [] => True | x :: _ => exists j, x = qitem h p j q /\ i <= j /\ pickat h i j q end.
Proof. intros Q. inversion Q; subst; eauto; eexists; (split; [reflexivity|]); (split; [|eassumption]); match goal with H : pickat _ _ _ _ |- _ => destruct H; lia end. Qed.

Lemma qrun_steps h ticks p i q xs : wf h -> qrun ticks h p i q xs -> okq ticks q -> 0 <= i ->
  forall a x y b m, xs = a ++ x :: y :: b -> max h = Ret m ->
    (real_of (iv_qto x) < real_of (iv_qto y))%R /\ iv_value x <= iv_value y /\
    (equivalent h (iv_value x) m = Ret false -> tick ticks (real_of (iv_qto x)) (real_of (iv_qto y))) /\
    (equivalent h (iv_value x) m = Ret true -> iv_value y = iv_value x /\ iv_qto y = f64_one /\ b = []).
Proof.
  intros W Q. destruct one_ok as [O1 O2]. pose proof (w_cfg h W) as C. unfold real_of.
  assert (EQ : forall j m, 0 <= j < zlen (h_counts h) -> max h = Ret m -> equivalent h (topval h j) m = Ret (j =? bin h (h_max h))).
  { intros j m J M. rewrite max_ok in M by auto. injection M as <-. pose proof (topval_ge h j W J) as (_ & U & _ & B). rewrite equivalent_ok by (auto using maxp_u64).
    change (idx (h_um h) (h_half_mag h) (topval h j)) with (bin h (topval h j)). change (idx (h_um h) (h_half_mag h) (maxp h)) with (bin h (maxp h)). rewrite bin_maxp, B by auto. reflexivity. }
  induction Q as [p i q S|p i j PA|p i j q q' xs PA LT JM LT' OK' TI Q IH|p i q PA LT LC|p i q PA LT LC]; intros OK I0 a x y b m E M.
  - destruct a; discriminate.
  - destruct a as [|? [|]]; discriminate.
  - destruct PA as (J & PA). destruct a as [|z a].
    + cbn [app] in E. injection E as <- E2. pose proof (qrun_head _ _ _ _ _ _ Q) as H. rewrite E2 in H. destruct H as (j2 & -> & J2 & PA2). cbn [qitem iv_qto iv_value].
      rewrite EQ by (auto; lia). destruct PA2 as (J3 & _). split; auto. split.
      { destruct (Z.eq_dec j j2); [subst; lia|]. pose proof (topval_lt h j j2 W ltac:(lia) ltac:(lia) ltac:(lia)). pose proof (topval_ge h j2 W ltac:(lia)). lia. }
      split; auto. intros H. injection H as H. lia.
    + cbn [app] in E. injection E as _ E2. apply (IH OK' ltac:(lia) a x y b m E2 M).
  - destruct a as [|? [|]]; discriminate.
  - destruct PA as (J & PA). destruct a as [|? [|? [|]]]; try discriminate. injection E as <- <- <-. cbn [qitem iv_qto iv_value]. rewrite EQ by (auto; lia). rewrite O1.
    split; auto. split; [lia|]. split; [|auto]. intros H. injection H as H. lia.
Qed.

(** ** C27.  On any reachable histogram and for any positive number of ticks (a u32), the quantile
    iterator does not panic and terminates, whatever rounding does; its first item is for quantile 0;
    each item is for the first class whose fraction of the samples is not below the iterated quantile.
    From one item to the next the iterated quantile strictly increases, by the tick that halves with
    every halving of the distance to 1, or jumps to exactly 1 as the last item once the class of the
    maximum has been reported; values never decrease. *)
Lemma C27_quantiles_proof : forall log2 h ticks, log2_ok log2 -> reachable h -> 0 < ticks < 2 ^ 32 ->
  exists it items, iter_quantiles h ticks = Ret it /\ drains (pk_quantile log2) h it items /\
    Forall (first_reaching h) items /\
    (forall x xs, items = x :: xs -> iv_qto x = f64_zero) /\
    (forall pre x y post m, items = pre ++ x :: y :: post -> max h = Ret m ->
       (real_of (iv_qto x) < real_of (iv_qto y))%R /\ iv_value x <= iv_value y /\
       (equivalent h (iv_value x) m = Ret false -> tick ticks (real_of (iv_qto x)) (real_of (iv_qto y))) /\
       (equivalent h (iv_value x) m = Ret true -> iv_value y = iv_value x /\ iv_qto y = f64_one /\ post = [])).
Proof.
  intros lg h ticks LG R TK. pose proof (reachable_wf h R) as W. destruct (quant_drains lg h ticks LG W TK) as (it & xs & E & D & Q).
  exists it, xs. split; auto. split; auto. pose proof (okq_zero ticks TK) as OK.
  split; [apply (qrun_reaching h ticks 0 0 f64_zero xs R Q ltac:(lia) OK); intros k K; lia|]. split.
  - intros x ys ->. apply qrun_head in Q. destruct Q as (j & -> & _). reflexivity.
  - intros pre x y post m EX M. apply (qrun_steps h ticks 0 0 f64_zero xs W Q OK ltac:(lia) pre x y post m EX M).
Qed.
(*EX
(** the assumption on log2 can be met *)
Example ex_log2 : log2_ok floor_log2.
Proof. exact floor_log2_ok. Qed.
(** two ticks per half distance: quantiles 0, 1/4, 1/2, 5/8, 3/4, ...; the class of 5 reaches 1/2, that
    of 320 reaches 3/4, the last one is reported at the next tick and at 1 *)
Example ex_C27 : match build U64 1 10000 1 false [(5000, 1); (5, 4); (333, 2); (900, 1)] with
  | Some h => reachable h /\ match iter_quantiles h 2 with
      | Ret it => match iter_collect 20 (pk_quantile floor_log2) h it with
          | Ret xs => map (fun x => (iv_value x, iv_count x, iv_since x, f64_to_u64 (f64_mul (iv_qto x) (f64_of_u64 1000)), f64_to_u64 (f64_mul (iv_quantile x) (f64_of_u64 1000)))) xs =
              [(5, 4, 4, 0, 500); (5, 4, 0, 250, 500); (5, 4, 0, 500, 500); (335, 2, 2, 625, 750); (335, 2, 0, 750, 750); (927, 1, 1, 812, 875); (927, 1, 0, 875, 875); (5119, 1, 1, 906, 1000); (5119, 1, 0, 1000, 1000)]
          | _ => False end
      | _ => False end
  | _ => False end.
Proof. float_case. Qed.
EX*)

Lemma cur_full h k : h_total h = zsum (h_counts h) -> 1 <= h_total h <= u64_max -> zpre (h_counts h) (k + 1) = zsum (h_counts h) ->
  is_finite (cur h k) = true /\ B2R (cur h k) = 1%R.
Proof.
  intros T TB Z. unfold cur. rewrite Z, <- T. unfold u64s. rewrite Z.min_r by lia. destruct (div_ok (h_total h) (h_total h) ltac:(lia) ltac:(lia)) as [F B].
  split; auto. rewrite B. apply quot_same. lia.
Qed.
Lemma f64_lt_false (a b : f64) : is_finite a = true -> is_finite b = true -> (f64_lt a b = false <-> (B2R b <= B2R a)%R).
Proof. intros A B. unfold f64_lt. rewrite Bltb_correct by auto. destruct (Rlt_bool_spec (B2R a) (B2R b)); split; intros; auto; try discriminate; lra. Qed.

Lemma qrun_ends h ticks k p i q xs : wf h -> h_total h = zsum (h_counts h) -> 1 <= h_total h <= u64_max ->
  0 <= k < zlen (h_counts h) -> zn (h_counts h) k <> 0 -> zpre (h_counts h) (k + 1) = zsum (h_counts h) ->
  qrun ticks h p i q xs -> okq ticks q -> 0 <= i <= k -> 0 <= p <= i + 1 ->
  exists pre p' j, xs = pre ++ [qitem h p' j f64_one] /\ f64_lt (cur h j) f64_one = false /\ 0 <= j < zlen (h_counts h) /\
    reported xs = zpre (h_counts h) (j + 1) - zpre (h_counts h) p.
Proof.
  intros W T TB K NK Z Q. destruct one_ok as [O1 O2]. destruct (cur_full h k T TB Z) as [CF CB].
  assert (KQ : forall q, okq ticks q -> f64_lt (cur h k) q = false). { intros q0 (F & QR & _). apply f64_lt_false; auto. rewrite CB. lra. }
  assert (SS : forall a b, 0 <= a <= b -> u64s (zpre (h_counts h) b - zpre (h_counts h) a) = zpre (h_counts h) b - zpre (h_counts h) a).
  { intros a b A. pose proof (zpre_le h W a b A). pose proof (zpre_nn h W a). pose proof (zpre_le_zsum (h_counts h) b (wf_nonneg h W)). unfold u64s. rewrite Z.min_r; lia. }
  induction Q as [p i q S|p i j PA|p i j q q' xs PA LT JM LT' OK' TI Q IH|p i q PA LT LC|p i q PA LT LC]; intros OK I P.
  - rewrite (KQ q OK) in S || (specialize (S k ltac:(lia) NK); rewrite (KQ q OK) in S; discriminate).
  - destruct PA as (J & NZ & LT & _). exists [], p, j. split; auto. split; auto. split; [lia|]. cbn [reported qitem iv_since]. rewrite SS by lia. lia.
  - destruct PA as (J & NZ & LTJ & S). assert (JK : j <= k). { destruct (Z_le_gt_dec j k); auto. specialize (S k ltac:(lia) NK). rewrite (KQ q OK) in S. discriminate. }
    destruct (IH OK' ltac:(lia) ltac:(lia)) as (pre & p' & j' & -> & A & B & RP). exists (qitem h p j q :: pre), p', j'. split; auto. split; auto. split; auto.
    cbn [reported]. rewrite RP. cbn [qitem iv_since]. rewrite SS by lia. lia.
  - exfalso. assert (KM : k <= bin h (h_max h)). { destruct (Z_le_gt_dec k (bin h (h_max h))); auto. exfalso. apply NK. apply zn_flat; auto. lia. }
    assert (E : zpre (h_counts h) (bin h (h_max h) + 1) = zsum (h_counts h)) by (apply zpre_top; auto; lia).
    destruct (cur_full h _ T TB E) as [F1 B1]. apply (proj2 (f64_lt_false _ _ F1 O2)) in LC || (assert (X : f64_lt (cur h (bin h (h_max h))) f64_one = false) by (apply f64_lt_false; auto; lra); congruence).
  - destruct PA as (J & NZ & LTJ & S). exists [qitem h p (bin h (h_max h)) q], (bin h (h_max h) + 1), (bin h (h_max h)). split; auto. split; auto. split; [lia|].
    cbn [reported qitem iv_since]. rewrite !SS by lia. lia.
Qed.

Lemma quot_below_1 a n : 0 <= a < n -> n <= 2 ^ 53 -> (rne (rne (IZR a) / rne (IZR n)) < 1)%R.
Proof.
  intros A N. rewrite !rne_IZR by lia. assert (N1 : (1 <= IZR n)%R) by (apply IZR_le; lia). assert (N53 : (IZR n <= b2 53)%R) by (rewrite b2_IZR by lia; apply IZR_le; auto).
  assert (A1 : (IZR a <= IZR n - 1)%R) by (rewrite <- minus_IZR; apply IZR_le; lia).
  assert (IN : (b2 (-53) <= / IZR n)%R). { change (-53)%Z with (- (53))%Z. rewrite <- b2_inv. apply Rinv_le; lra. }
  assert (X : (IZR a / IZR n <= 1 - b2 (-53))%R).
  { apply Rle_trans with ((IZR n - 1) / IZR n)%R; [apply Rmult_le_compat_r; auto; apply Rlt_le, Rinv_0_lt_compat; lra|].
    unfold Rdiv. rewrite Rmult_minus_distr_r, Rinv_r, Rmult_1_l by lra. lra. }
  apply Rle_lt_trans with (1 - b2 (-53))%R; [|pose proof (b2_pos (-53)); lra].
  rewrite <- (rne_id (1 - b2 (-53))); [apply rne_le; auto|].
  replace (1 - b2 (-53))%R with (IZR (2 ^ 53 - 1) * b2 (-53))%R.
  - apply generic_format_FLT. exists (Float radix2 (2 ^ 53 - 1) (-53)); cbn [Fnum Fexp]; [reflexivity|reflexivity|lia].
  - rewrite minus_IZR, <- b2_IZR by lia. rewrite Rmult_minus_distr_r, <- b2_split. change (b2 (53 + -53)) with 1%R. lra.
Qed.

Lemma last_bin h : wf h -> held h <> [] -> exists k, 0 <= k < zlen (h_counts h) /\ zn (h_counts h) k <> 0 /\ zpre (h_counts h) (k + 1) = zsum (h_counts h).
Proof.
  intros W HN. rewrite held_contents in HN by auto.
  assert (G : forall n, (forall i, Z.of_nat n <= i -> zn (h_counts h) i = 0) -> (exists i, 0 <= i /\ zn (h_counts h) i <> 0) ->
     exists k, 0 <= k < Z.of_nat n /\ zn (h_counts h) k <> 0 /\ forall i, k < i -> zn (h_counts h) i = 0).
  { induction n as [|n IH]; intros Z0 (i & I0 & I1); [exfalso; apply I1, Z0; lia|].
    destruct (Z.eq_dec (zn (h_counts h) (Z.of_nat n)) 0) as [E|E].
    - destruct IH as (k & K & A & B); [|eauto|exists k; split; [lia|auto]]. intros j J. destruct (Z.eq_dec j (Z.of_nat n)); [subst; auto|apply Z0; lia].
    - exists (Z.of_nat n). split; [lia|]. split; auto. intros j J. apply Z0. lia. }
  destruct (G (length (h_counts h))) as (k & K & A & B).
  - intros i I. apply zn_out. unfold zlen. lia.
  - destruct (contents h) as [|[v n] l] eqn:E; [contradiction|]. destruct (contents_in h v n W) as (i & [I0 _] & _ & _ & -> & NN & _); [rewrite E; left; auto|]. eauto.
  - exists k. split; [exact K|]. split; auto. rewrite <- (zpre_all (h_counts h) (zlen (h_counts h))) by lia.
    assert (D : 0 <= zlen (h_counts h) - (k + 1)) by (unfold zlen; lia). replace (zlen (h_counts h)) with ((k + 1) + (zlen (h_counts h) - (k + 1))) by lia.
    revert D. generalize (zlen (h_counts h) - (k + 1)). intros d D. pattern d. apply natlike_ind; auto; [f_equal; lia|].
    intros x X IH. replace (k + 1 + Z.succ x) with (k + 1 + x + 1) by lia. rewrite (zpre_succ (h_counts h) (k + 1 + x)), B by lia. lia.
Qed.

(** when [len] is the number of samples held (no counter has saturated), the last item is for quantile
    1.0 exactly; and up to 2^53 samples every sample has been reported by then *)
Lemma C27_ends_proof : forall log2 h ticks it items, log2_ok log2 -> reachable h -> 0 < ticks < 2 ^ 32 -> len_agrees h -> held h <> [] ->
  iter_quantiles h ticks = Ret it -> drains (pk_quantile log2) h it items ->
  exists pre x, items = pre ++ [x] /\ iv_qto x = f64_one /\ (len h <= 2 ^ 53 -> reported items = len h).
Proof.
  intros lg h ticks it items LG R TK LA HN E D. pose proof (reachable_wf h R) as W. destruct (quant_drains lg h ticks LG W TK) as (it2 & xs & E2 & D2 & Q).
  rewrite E2 in E. injection E as ->. rewrite (drains_fun _ _ _ _ D2 _ D). apply len_agrees_iff in LA; auto.
  destruct (last_bin h W HN) as (k & K & NK & Z). pose proof (wf_nonneg h W) as NN. pose proof (zn_nonneg (h_counts h) k NN).
  assert (TB : 1 <= h_total h <= u64_max). { split; [|apply (w_total h W)]. rewrite LA, <- Z, zpre_succ by lia. pose proof (zpre_nn h W k). lia. }
  destruct (qrun_ends h ticks k 0 0 f64_zero xs W LA TB K NK Z Q (okq_zero ticks TK) ltac:(lia) ltac:(lia)) as (pre & p' & j & EX & LT & J & RP).
  exists pre, (qitem h p' j f64_one). split; auto. split; auto. intros L. rewrite RP, zpre_0, Z.sub_0_r. unfold len in *.
  destruct one_ok as [O1 O2]. pose proof (zpre_le_zsum (h_counts h) (j + 1) NN) as ZS. pose proof (zpre_nn h W (j + 1)) as Z0.
  destruct (Z.eq_dec (zpre (h_counts h) (j + 1)) (h_total h)) as [|NE]; auto. exfalso.
  unfold cur, u64s in LT. rewrite Z.min_r in LT by lia. destruct (div_ok (zpre (h_counts h) (j + 1)) (h_total h) ltac:(lia) ltac:(lia)) as [F B].
  apply f64_lt_false in LT; auto. rewrite O1, B in LT. pose proof (quot_below_1 (zpre (h_counts h) (j + 1)) (h_total h) ltac:(lia) L). lra.
Qed.
(*EX
Example ex_C27_ends : match build U64 1 10000 1 false [(5000, 1); (5, 4); (333, 2); (900, 1)] with
  | Some h => reachable h /\ len_agrees h /\ held h <> [] /\ len h <= 2 ^ 53 /\ match iter_quantiles h 2 with
      | Ret it => match iter_collect 20 (pk_quantile floor_log2) h it with
          | Ret xs => reported xs = 8 /\ match rev xs with x :: _ => f64_eq (iv_qto x) f64_one = true | [] => False end
          | _ => False end
      | _ => False end
  | _ => False end.
Proof. float_case. Qed.
EX*)

(** an empty histogram yields nothing *)
Lemma C27_empty_proof : forall log2 h ticks it items, log2_ok log2 -> reachable h -> 0 < ticks < 2 ^ 32 -> held h = [] ->
  iter_quantiles h ticks = Ret it -> drains (pk_quantile log2) h it items -> items = [].
Proof.
  intros lg h ticks it items LG R TK HN E D. destruct (C27_quantiles_proof lg h ticks LG R TK) as (it2 & xs & E2 & D2 & F & _).
  rewrite E2 in E. injection E as ->. rewrite (drains_fun _ _ _ _ D2 _ D). destruct xs as [|x xs]; auto. inversion F as [|? ? (w & IN & _) _]. rewrite HN in IN. destruct IN.
Qed.
(*EX
Example ex_C27_empty : match build U64 1 10000 1 false [] with
  | Some h => reachable h /\ held h = [] /\ match iter_quantiles h 2 with
      | Ret it => match iter_collect 20 (pk_quantile floor_log2) h it with Ret xs => length xs = 0%nat | _ => False end
      | _ => False end
  | _ => False end.
Proof. float_case. Qed.
EX*)
(** once a counter has saturated, the fraction of the samples never gets to 1 and the last item is for a
    quantile below 1: two batches of 200 samples in a u8 counter *)
Lemma C27_saturated_refuted_proof : exists h it items, reachable h /\ held h <> [] /\ iter_quantiles h 1 = Ret it /\
  log2_ok floor_log2 /\ drains (pk_quantile floor_log2) h it items /\ items <> [] /\ Forall (fun x => f64_lt (iv_qto x) f64_one = true) items.
Proof.
  assert (X : match build U8 1 1000 1 false [(5, 200); (5, 200)] with
     | Some h => match iter_quantiles h 1 with
        | Ret it => match iter_next (pk_quantile floor_log2) h it with
           | Ret (it', Some x) => f64_lt (iv_qto x) f64_one = true /\ held h <> [] /\ match iter_next (pk_quantile floor_log2) h it' with Ret (_, None) => True | _ => False end
           | _ => False end
        | _ => False end
     | None => False end) by (vm_compute; repeat split; discriminate).
  destruct (build U8 1 1000 1 false [(5, 200); (5, 200)]) as [h|] eqn:B; [|contradiction].
  destruct (iter_quantiles h 1) as [it|] eqn:E; [|contradiction].
  destruct (iter_next (pk_quantile floor_log2) h it) as [[it' [x|]]|] eqn:E1; try contradiction. destruct X as (A & HN & X).
  destruct (iter_next (pk_quantile floor_log2) h it') as [[it2 [|]]|] eqn:E2; try contradiction.
  exists h, it, [x]. split; [eapply build_reachable; exact B|]. split; auto. split; auto. split; [exact floor_log2_ok|].
  split; [econstructor; [exact E1|]; econstructor; exact E2|]. split; [discriminate|]. constructor; auto.
Qed.
