(** * The run of [iter_quantiles] *)
From Coq Require Import ZArith Reals Lia Lra Bool List.
From Flocq Require Import Core IEEE754.BinarySingleNaN.
From Verif Require Import Machine Log2Model HistModel Spec Reach Bins ListZ Log2Facts Cfg Wf Ops AddFacts MoreFacts HeldFacts FloatModel FloatSpec FloatFacts IterModel IterSpec IterFacts IterBins PfQuery PfIter IterLog QuantSpec QuantStep.
From Coq Require Import ZifyBool ZifyNat.
Import ListNotations.
Local Open Scope Z_scope.

Lemma grid x : gf x -> exists n : Z, (x = IZR n * b2 (-1074))%R.
Proof.
  intros G. apply FLT_format_generic in G; [|reflexivity]. destruct G as [f E _ X]. exists (Fnum f * 2 ^ (Fexp f + 1074))%Z.
  rewrite E. unfold F2R. rewrite mult_IZR, <- b2_IZR by lia. rewrite Rmult_assoc, <- b2_split. f_equal. f_equal. lia.
Qed.
Lemma dist (q : f64) : is_finite q = true -> (B2R q <= 1)%R -> exists n, 0 <= n /\ (1 - B2R q = IZR n * b2 (-1074))%R.
Proof.
  intros F L. destruct (grid _ (gf_B2R q)) as [m M]. exists (2 ^ 1074 - m). assert (E : (1 - B2R q = IZR (2 ^ 1074 - m) * b2 (-1074))%R).
  { rewrite minus_IZR, <- b2_IZR by lia. rewrite Rmult_minus_distr_r, <- b2_split. change (b2 (1074 + -1074)) with 1%R. lra. }
  split; auto. apply le_IZR. pose proof (b2_pos (-1074)). assert (0 <= IZR (2 ^ 1074 - m) * b2 (-1074))%R by lra. nra.
Qed.
Lemma f64_lt_up (a q q' : f64) : is_finite q = true -> is_finite q' = true -> (B2R q <= B2R q')%R -> f64_lt a q = true -> f64_lt a q' = true.
Proof.
  intros F F' L. unfold f64_lt. destruct (is_finite a) eqn:FA.
  - rewrite !Bltb_correct by auto. destruct (Rlt_bool_spec (B2R a) (B2R q)); [|discriminate]. intros _. apply Rlt_bool_true. lra.
  - destruct a as [s|[|]| |s m e B]; try discriminate; destruct q, q'; cbn; auto; discriminate.
Qed.
Lemma f64_eq_one (q : f64) : is_finite q = true -> (f64_eq q f64_one = true <-> B2R q = 1%R).
Proof.
  intros F. destruct one_ok as [O1 O2]. unfold f64_eq. rewrite Beqb_correct by auto. rewrite O1. split; intros H; [destruct (Req_bool_spec (B2R q) 1); congruence|apply Req_bool_true; auto].
Qed.

Section QUANT.
Context (lg : f64 -> f64) (LG : log2_ok lg) (ticks : Z) (TK : 0 < ticks < 2 ^ 32) (h : hist).
Hypothesis W : wf h.
Notation cs := (h_counts h).
Notation maxi := (bin h (h_max h)).
Notation pk := (pk_quantile lg).
Notation runs := (runs pk h).

Definition cur (i : Z) : f64 := f64_div (f64_of_u64 (u64s (zpre cs (i + 1)))) (f64_of_u64 (h_total h)).
Definition skips (i j : Z) (q : f64) : Prop := forall k, i <= k < j -> zn cs k <> 0 -> f64_lt (cur k) q = true.
Definition pickat (i j : Z) (q : f64) : Prop := i <= j < zlen cs /\ zn cs j <> 0 /\ f64_lt (cur j) q = false /\ skips i j q.
Definition qitem (prev j : Z) (q : f64) : item :=
  mk_item (topval h j) (cur j) q (zn cs j) (u64s (zpre cs (j + 1) - zpre cs prev)).

Inductive qrun : Z -> Z -> f64 -> list item -> Prop :=
| qr_none p i q : skips i (zlen cs) q -> qrun p i q []
| qr_last p i j : pickat i j f64_one -> qrun p i f64_one [qitem p j f64_one]
| qr_step p i j q q' xs : pickat i j q -> (B2R q < 1)%R -> j < maxi -> (B2R q < B2R q')%R -> okq ticks q' -> tick ticks (B2R q) (B2R q') ->
    qrun (j + 1) j q' xs -> qrun p i q (qitem p j q :: xs)
| qr_top p i q : pickat i maxi q -> (B2R q < 1)%R -> f64_lt (cur maxi) f64_one = true -> qrun p i q [qitem p maxi q]
| qr_jump p i q : pickat i maxi q -> (B2R q < 1)%R -> f64_lt (cur maxi) f64_one = false ->
    qrun p i q [qitem p maxi q; qitem (maxi + 1) maxi f64_one].

Definition live (st : iter quantit) : Prop := inv h st /\ it_ended st = false.

Lemma at_end st : live st -> it_index st = zlen cs -> runs st [].
Proof. intros [I E] L. apply (runs_end pk h st _ E (end_ok pk h st L)). Qed.

(** nothing more once 1.0 has been reported *)
Lemma dead : forall n st, Z.to_nat (zlen cs - it_index st) = n -> live st -> qn_end (it_picker st) = true -> runs st [].
Proof.
  induction n as [|n IH]; intros st N L E; pose proof L as [I EN]; pose proof (ii_index h st I) as IX.
  - apply at_end; auto. lia.
  - pose proof (round_ok pk h W st I ltac:(lia)) as R. destruct (opt_ge (it_last st) maxi) eqn:O.
    + cbn [pk_quantile pk_more] in R. rewrite E in R. cbn [bind] in R. apply (runs_end pk h st _ EN R).
    + unfold consult in R. cbn [it_picker load it_index it_total it_count pk_quantile pk_pick] in R. rewrite E in R.
      assert (R2 : iter_round pk h st = Ret (advanced (load h st (it_picker st)) (it_picker st), Again)).
      { rewrite R. destruct (_ =? 0); auto. destruct (f64_lt _ _); auto. }
      apply (runs_again pk h st _ _ EN R2). apply IH; auto; cbn [advanced load it_index it_ended it_picker]; try lia.
      split; auto. apply advanced_inv; auto. lia.
Qed.

(** the class of the maximum has been reported, its quantile is below 1.0 *)
Lemma stuck : f64_lt (cur maxi) f64_one = true -> forall n st, Z.to_nat (zlen cs - it_index st) = n -> live st -> opt_ge (it_last st) maxi = true -> qn_end (it_picker st) = false -> runs st [].
Proof.
  intros LT. induction n as [|n IH]; intros st N L O E; pose proof L as [I EN]; pose proof (ii_index h st I) as IX.
  - apply at_end; auto. lia.
  - pose proof (round_ok pk h W st I ltac:(lia)) as R. destruct (past_max h W st I O) as (_ & _ & _ & M). pose proof (maxi_range h W) as MR.
    rewrite O in R. cbn [pk_quantile pk_more] in R. rewrite E in R. cbn [bind] in R.
    set (p1 := mk_quantit (qn_ticks (it_picker st)) f64_one false) in *.
    unfold consult in R. cbn [it_picker load it_index it_total it_count pk_quantile pk_pick] in R.
    assert (R2 : iter_round pk h st = Ret (advanced (load h st p1) p1, Again)).
    { rewrite R. destruct (_ =? 0); auto. assert (Z : zpre cs (it_index st + 1) = zpre cs (maxi + 1)) by (apply zpre_flat; auto; lia). rewrite Z.
      unfold cur in LT. unfold p1 at 1. cbn [qn_to]. change (len h) with (h_total h). rewrite LT. auto. }
    apply (runs_again pk h st _ _ EN R2). apply IH; auto; cbn [advanced load it_index it_ended it_picker it_last]; auto; try lia.
    split; auto. apply advanced_inv; auto. lia.
Qed.

Definition ready (q : f64) (st : iter quantit) : Prop :=
  live st /\ it_picker st = mk_quantit ticks q false /\ opt_ge (it_last st) maxi = false.

Lemma walk q : forall n st, Z.to_nat (zlen cs - it_index st) = n -> ready q st ->
  (skips (it_index st) (zlen cs) q /\ runs st []) \/
  exists st1, ready q st1 /\ pickat (it_index st) (it_index st1) q /\ prevd st1 = prevd st /\ forall xs, runs st1 xs -> runs st xs.
Proof.
  induction n as [|n IH]; intros st N RD; pose proof RD as (L & EP & O); pose proof L as [I EN]; pose proof (ii_index h st I) as IX.
  - left. split; [intros k K; lia|]. apply at_end; auto. lia.
  - destruct (Z.eq_dec (zn cs (it_index st)) 0) as [Z0|NZ]; [|destruct (f64_lt (cur (it_index st)) q) eqn:LT].
    3: { right. exists st. split; auto. split; [|split; auto]. split; [lia|]. split; auto. split; auto. intros k K; lia. }
    all: pose proof (round_ok pk h W st I ltac:(lia)) as R; rewrite O, EP in R; unfold consult in R; cbn [it_picker load it_index it_total it_count pk_quantile pk_pick] in R; rewrite O in R.
    + rewrite Z0 in R. cbn [Z.eqb bind] in R.
      destruct (IH (advanced (load h st (mk_quantit ticks q false)) (mk_quantit ticks q false))) as [[S X]|(st1 & A & B & C & D)]; cbn [advanced load it_index it_ended it_picker it_last] in *; auto; try lia.
      { split; [|auto]. split; auto. apply advanced_inv; auto. lia. }
      * left. split; [|apply (runs_again pk h st _ _ EN R); auto]. intros k K NK. apply S; auto. destruct (Z.eq_dec k (it_index st)); [subst; contradiction|lia].
      * right. exists st1. split; auto. split; [|split; [exact C|]].
        -- destruct B as (B1 & B2 & B3 & B4). split; [lia|]. split; auto. split; auto. intros k K NK. apply B4; auto. destruct (Z.eq_dec k (it_index st)); [subst; contradiction|lia].
        -- intros xs X. apply (runs_again pk h st _ _ EN R); auto.
    + destruct (Z.eqb_spec (zn cs (it_index st)) 0) as [|_]; [contradiction|]. change (len h) with (h_total h) in R. cbn [qn_to] in R. fold (cur (it_index st)) in R. rewrite LT in R. cbn [bind] in R.
      destruct (IH (advanced (load h st (mk_quantit ticks q false)) (mk_quantit ticks q false))) as [[S X]|(st1 & A & B & C & D)]; cbn [advanced load it_index it_ended it_picker it_last] in *; auto; try lia.
      { split; [|auto]. split; auto. apply advanced_inv; auto. lia. }
      * left. split; [|apply (runs_again pk h st _ _ EN R); auto]. intros k K NK. destruct (Z.eq_dec k (it_index st)); [subst; auto|]. apply S; auto. lia.
      * right. exists st1. split; auto. split; [|split; [exact C|]].
        -- destruct B as (B1 & B2 & B3 & B4). split; [lia|]. split; auto. split; auto. intros k K NK. destruct (Z.eq_dec k (it_index st)); [subst; auto|]. apply B4; auto. lia.
        -- intros xs X. apply (runs_again pk h st _ _ EN R); auto.
Qed.

(** one report *)
Lemma report q st : ready q st -> it_index st < zlen cs -> zn cs (it_index st) <> 0 -> f64_lt (cur (it_index st)) q = false -> okq ticks q ->
  (q = f64_one /\ exists st1, live st1 /\ qn_end (it_picker st1) = true /\ forall xs, runs st1 xs -> runs st (qitem (prevd st) (it_index st) q :: xs)) \/
  ((B2R q < 1)%R /\ exists q' st1, okq ticks q' /\ (B2R q < B2R q')%R /\ tick ticks (B2R q) (B2R q') /\
     live st1 /\ it_picker st1 = mk_quantit ticks q' false /\ it_index st1 = it_index st /\ it_last st1 = Some (it_index st) /\ it_fresh st1 = false /\
     forall xs, runs st1 xs -> runs st (qitem (prevd st) (it_index st) q :: xs)).
Proof.
  intros (L & EP & O) IL NZ LT OK. pose proof L as [I EN]. pose proof OK as (F & Q & _).
  pose proof (round_ok pk h W st I IL) as R; rewrite O, EP in R; unfold consult in R; cbn [it_picker load it_index it_total it_count pk_quantile pk_pick] in R; rewrite O in R.
  destruct (Z.eqb_spec (zn cs (it_index st)) 0) as [|_]; [contradiction|]. change (len h) with (h_total h) in R. cbn [qn_to qn_end qn_ticks] in R. fold (cur (it_index st)) in R. rewrite LT in R.
  destruct (f64_eq q f64_one) eqn:E1.
  - left. assert (Q1 : q = f64_one). { apply f64_eq_one in E1; auto. destruct one_ok as [O1 O2]. apply B2R_inj; [| |congruence]; apply is_finite_strict_B2R; rewrite ?E1, ?O1; lra. }
    split; auto. cbn [bind] in R. subst q. eexists. split; [|split; [|intros xs X; exact (runs_yield pk h st _ _ _ EN R X)]]; cbn [picked load it_picker it_ended qn_end]; auto.
    split; auto. apply picked_inv; auto.
  - right. assert (Q1 : (B2R q < 1)%R). { destruct (Req_dec (B2R q) 1) as [E|E]; [apply f64_eq_one in E; auto; congruence|lra]. }
    split; auto. destruct (next_ok lg LG ticks TK q OK Q1) as (q' & NX & OK' & LT' & TI). rewrite NX in R. cbn [bind] in R.
    exists q'. eexists. split; auto. split; auto. split; auto.
    split; [|split; [|split; [|split; [|split; [|intros xs X; exact (runs_yield pk h st _ _ _ EN R X)]]]]]; cbn [picked load it_picker it_ended it_index it_last it_fresh]; auto.
    + split; auto. apply picked_inv; auto.
    + rewrite O. auto.
Qed.

Lemma quant_runs : forall n, 0 <= n -> forall q st, (1 - B2R q = IZR n * b2 (-1074))%R -> okq ticks q -> ready q st ->
  exists xs, runs st xs /\ qrun (prevd st) (it_index st) q xs.
Proof.
  apply (Z_lt_induction (fun n => forall q st, (1 - B2R q = IZR n * b2 (-1074))%R -> okq ticks q -> ready q st ->
     exists xs, runs st xs /\ qrun (prevd st) (it_index st) q xs)).
  intros n IH q st N OK RD. pose proof (maxi_range h W) as MR.
  destruct (walk q _ st eq_refl RD) as [[S X]|(st1 & RD1 & PA & PD & UP)]; [exists []; split; auto; apply qr_none; auto|].
  pose proof PA as (P1 & P2 & P3 & P4).
  destruct (report q st1 RD1 ltac:(lia) P2 P3 OK) as [(-> & st2 & L2 & E2 & U2)|(LT & q' & st2 & OK' & LT' & TI & L2 & EP2 & EI2 & EL2 & EF2 & U2)].
  - exists [qitem (prevd st1) (it_index st1) f64_one]. split; [|rewrite PD; apply qr_last; auto]. apply UP, U2. apply (dead _ st2 eq_refl); auto.
  - pose proof (b2_pos (-1074)) as BP. rewrite PD in U2.
    destruct (Z_lt_le_dec (it_index st1) maxi) as [LM|GM].
    + destruct (dist q' ltac:(apply OK') ltac:(apply OK')) as (n' & N0 & N').
      destruct (IH n' ltac:(split; auto; apply lt_IZR; nra) q' st2 N' OK') as (xs & X & Y).
      { split; auto. split; auto. rewrite EL2. cbn [opt_ge]. lia. }
      exists (qitem (prevd st) (it_index st1) q :: xs). split; [apply UP, U2; auto|]. apply (qr_step _ _ _ q q'); auto.
      unfold prevd in Y at 1. rewrite EL2, EI2 in Y. exact Y.
    + assert (EM : it_index st1 = maxi). { destruct (Z.eq_dec (it_index st1) maxi); auto. exfalso. apply P2. apply zn_flat; auto. lia. }
      assert (O2 : opt_ge (it_last st2) maxi = true) by (rewrite EL2; cbn [opt_ge]; lia).
      rewrite EM in *. destruct (f64_lt (cur maxi) f64_one) eqn:LC.
      * exists [qitem (prevd st) maxi q]. split; [|apply qr_top; auto]. apply UP, U2. apply (stuck LC _ st2 eq_refl); auto. rewrite EP2. auto.
      * exists [qitem (prevd st) maxi q; qitem (maxi + 1) maxi f64_one]. split; [|apply qr_jump; auto]. apply UP, U2.
        destruct L2 as [I2 EN2]. pose proof (round_ok pk h W st2 I2 ltac:(lia)) as R. rewrite O2 in R. rewrite EP2 in R. cbn [pk_quantile pk_more qn_end qn_ticks bind] in R.
        destruct (ii_count h st2 I2 EF2) as [CT _].
        unfold consult in R. cbn [it_picker load it_index it_total it_count pk_quantile pk_pick] in R. rewrite O2, CT, EI2 in R.
        destruct (Z.eqb_spec (zn cs maxi) 0) as [|_]; [contradiction|]. change (len h) with (h_total h) in R. cbn [qn_to qn_end qn_ticks] in R. fold (cur maxi) in R. rewrite LC in R.
        assert (E1 : f64_eq f64_one f64_one = true) by (apply f64_eq_one; apply one_ok). rewrite E1 in R. cbn [bind] in R.
        assert (Y : yielded h (load h st2 (mk_quantit ticks f64_one false)) (mk_md (Some f64_one) None) = qitem (maxi + 1) maxi f64_one).
        { unfold yielded, qitem, cur, load. cbn [md_value md_quantile it_index it_total it_since]. unfold prevd. rewrite EL2, EI2. reflexivity. }
        rewrite Y in R. apply (runs_yield pk h st2 _ _ _ EN2 R).
        apply (dead _ _ eq_refl); [|reflexivity]. split; [apply picked_inv; auto; lia|exact EN2].
Qed.
End QUANT.
