(** * The iteration engine: invariant, accounting, termination *)
From Verif Require Import Machine Log2Model HistModel Bins ListZ Log2Facts Cfg Wf Ops AddFacts MoreFacts FloatModel IterModel IterSpec.
From Coq Require Import ZifyBool ZifyNat.

Definition u64s (x : Z) : Z := Z.min u64_max x.
Definition topval (h : hist) (i : Z) : Z := higheq h (bval h i).

Lemma zpre_flat h i j : wf h -> bin h (h_max h) < i -> i <= j -> zpre (h_counts h) j = zpre (h_counts h) i.
Proof.
  intros W B L. assert (B0 : 0 <= bin h (h_max h)) by (apply bin_nonneg; [apply w_cfg; auto|apply (w_max h W)]).
  replace j with (i + (j - i)) by lia. assert (D : 0 <= j - i) by lia. revert D. generalize (j - i). intros k D.
  pattern k. apply natlike_ind; auto; [f_equal; lia|]. intros x Hx IH.
  replace (i + Z.succ x) with ((i + x) + 1) by lia. rewrite zpre_succ by lia. rewrite IH.
  destruct (Z.eq_dec (zn (h_counts h) (i + x)) 0) as [->|N]; [lia|].
  pose proof (w_max_top h W (i + x) ltac:(lia) N) as T. fold (bin h (h_max h)) in T. lia.
Qed.
Lemma zn_flat h i : wf h -> bin h (h_max h) < i -> zn (h_counts h) i = 0.
Proof.
  intros W B. assert (B0 : 0 <= bin h (h_max h)) by (apply bin_nonneg; [apply w_cfg; auto|apply (w_max h W)]).
  destruct (Z.eq_dec (zn (h_counts h) i) 0) as [->|N]; [lia|].
  pose proof (w_max_top h W i ltac:(lia) N) as T. fold (bin h (h_max h)) in T. lia.
Qed.
Lemma zpre_top h i : wf h -> bin h (h_max h) < i -> zpre (h_counts h) i = zsum (h_counts h).
Proof.
  intros W B. rewrite <- (zpre_all (h_counts h) (Z.max i (zlen (h_counts h)))) by lia. symmetry. apply zpre_flat; auto. lia.
Qed.

Lemma value_top_ok h i : wf h -> 0 <= i < zlen (h_counts h) ->
  (v0 <- value_for h i ;; highest_equivalent h v0) = Ret (topval h i).
Proof.
  intros W I. pose proof (w_cfg h W) as C. pose proof (w_size h W) as SZ. pose proof (len_le_top h C SZ).
  rewrite value_for_ok by (auto; lia). cbn [bind]. rewrite highest_equivalent_ok; auto. apply bval_u64; auto.
Qed.

Section ENGINE.
Context {P : Type} (pk : picker P) (h : hist).
Hypothesis W : wf h.
Notation cs := (h_counts h).
Notation maxi := (bin h (h_max h)).

Definition prevd (st : iter P) : Z := match it_last st with None => 0 | Some p => p + 1 end.
Definition done (st : iter P) : Z := it_index st + (if it_fresh st then 0 else 1).

Record inv (st : iter P) : Prop := {
  ii_index : 0 <= it_index st <= zlen cs;
  ii_maxi : it_maxi st = maxi;
  ii_last : match it_last st with None => True | Some p => 0 <= p <= it_index st /\ (p = it_index st -> it_fresh st = false \/ maxi < p) end;
  ii_count : it_fresh st = false -> it_count st = zn cs (it_index st) /\ it_index st < zlen cs;
  ii_total : it_total st = u64s (zpre cs (done st));
  ii_since : it_since st = u64s (zpre cs (done st) - zpre cs (prevd st))
}.

(** the state in which the picker is consulted *)
Definition load (st : iter P) (p : P) : iter P :=
  mk_iter (u64s (zpre cs (it_index st + 1))) (u64s (zpre cs (it_index st + 1) - zpre cs (prevd st)))
    (if opt_ge (it_last st) maxi then it_count st else zn cs (it_index st))
    (it_index st) (it_last st) maxi (if opt_ge (it_last st) maxi then it_fresh st else false) (it_ended st) p.
Definition picked (st : iter P) (p : P) : iter P :=
  mk_iter (it_total st) 0 (it_count st) (it_index st) (Some (it_index st)) (it_maxi st) (it_fresh st) (it_ended st) p.
Definition advanced (st : iter P) (p : P) : iter P :=
  mk_iter (it_total st) (it_since st) (it_count st) (it_index st + 1) (it_last st) (it_maxi st) true (it_ended st) p.
Definition yielded (st : iter P) (md : pick_md) : item :=
  let quantile := f64_div (f64_of_u64 (it_total st)) (f64_of_u64 (h_total h)) in
  mk_item (match md_value md with Some v => v | None => topval h (it_index st) end) quantile
    (match md_quantile md with Some q => q | None => quantile end) (zn cs (it_index st)) (it_since st).
Definition consult (st1 : iter P) : res (iter P * outcome) :=
  '(md, p) <- pk_pick pk h (it_picker st1) (it_index st1) (it_total st1) (it_count st1) ;;
  Ret (match md with
       | Some md => (picked st1 p, Yield (yielded st1 md))
       | None => (advanced st1 p, Again) end).

Lemma maxi_range : 0 <= maxi < zlen cs.
Proof. split; [apply bin_nonneg; [apply w_cfg; auto|apply (w_max h W)]|apply (w_max_in h W)]. Qed.

Lemma zlen_small : zlen cs < usize_max.
Proof.
  pose proof (len_le_top h (w_cfg h W) (w_size h W)) as L. pose proof (idx_bound_u64 h (w_cfg h W) u64_max ltac:(unfold u64, u64_max; lia)) as T.
  unfold usize_max, u64_max, i32_max in *. lia.
Qed.

Lemma zpre_nn i : 0 <= zpre cs i.
Proof. apply zpre_nonneg, wf_nonneg; auto. Qed.
Lemma zpre_le i j : 0 <= i <= j -> zpre cs i <= zpre cs j.
Proof. apply zpre_mono, wf_nonneg; auto. Qed.

Lemma prevd_range st : inv st -> opt_ge (it_last st) maxi = false -> 0 <= prevd st <= done st.
Proof.
  intros I O. unfold prevd, done. pose proof (ii_index st I). pose proof (ii_last st I) as L. destruct (it_last st) as [p|]; destruct (it_fresh st); try lia.
  cbn [opt_ge] in O. destruct L as [L1 L2]. assert (p <> it_index st) by (intros E; destruct (L2 E); [discriminate|lia]). lia.
Qed.
(** once past the maximum nothing is left to count *)
Lemma past_max st : inv st -> opt_ge (it_last st) maxi = true ->
  zpre cs (done st) = zpre cs (it_index st + 1) /\ (it_fresh st = true -> maxi < it_index st /\ zn cs (it_index st) = 0) /\
  zpre cs (prevd st) = zpre cs (it_index st + 1) /\ maxi <= it_index st.
Proof.
  intros I O. unfold done, prevd. pose proof (ii_last st I) as L. pose proof maxi_range as MR. destruct (it_last st) as [p|]; [|discriminate]. cbn [opt_ge] in O.
  destruct L as [L1 L2].
  assert (PD : zpre cs (p + 1) = zpre cs (it_index st + 1)) by (symmetry; apply zpre_flat; auto; lia).
  destruct (it_fresh st) eqn:F; [|repeat split; auto; (discriminate || lia)].
  assert (maxi < it_index st) by (destruct (Z.eq_dec p (it_index st)) as [E|N]; [destruct (L2 E); [discriminate|lia]|lia]).
  assert (Z0 : zn cs (it_index st) = 0) by (apply zn_flat; auto; lia). 
  assert (E1 : zpre cs (it_index st + 1) = zpre cs (it_index st)) by (rewrite zpre_succ, Z0 by lia; lia).
  rewrite Z.add_0_r. split; [congruence|]. split; [auto|]. split; [auto|lia].
Qed.

Lemma round_ok st : inv st -> it_index st < zlen cs ->
  iter_round pk h st =
    if opt_ge (it_last st) maxi then
      '(m, p) <- pk_more pk h (it_picker st) (it_index st) ;;
      if m then consult (load st p) else Ret (it_end st p, End)
    else consult (load st (it_picker st)).
Proof.
  intros I L. pose proof (ii_index st I) as IX. pose proof zlen_small as SM. unfold iter_round. destruct (Z.eqb_spec (it_index st) (distinct_values h)) as [E|_]; [unfold distinct_values in E; lia|].
  rewrite (ii_maxi st I).
  assert (VT : forall o, match o with Some v => Ret v | None => v0 <- value_for h (it_index st) ;; highest_equivalent h v0 end =
                 Ret (match o with Some v => v | None => topval h (it_index st) end)).
  { intros [v|]; auto. apply value_top_ok; auto. lia. }
  assert (UA : usize_add (it_index st) 1 = Ret (it_index st + 1)).
  { unfold usize_add, in_range. destruct (Z.leb_spec 0 (it_index st + 1)); [|lia]. destruct (Z.leb_spec (it_index st + 1) usize_max); [|lia]. reflexivity. }
  destruct (opt_ge (it_last st) maxi) eqn:O.
  - destruct (pk_more pk h (it_picker st) (it_index st)) as [[m p]|]; cbn [bind]; auto. destruct m; cbn [negb]; auto.
    destruct (past_max st I O) as [PM _]. unfold consult, load. rewrite O. cbn [it_picker it_index it_total it_count it_since it_last it_maxi it_fresh it_ended].
    rewrite (ii_total st I), (ii_since st I), PM.
    destruct (pk_pick pk h p (it_index st) _ (it_count st)) as [[[md|] p2]|]; cbn [bind]; auto.
    + rewrite VT. cbn [bind]. unfold count_at_index. rewrite vget_in by lia. cbn [expect bind]. reflexivity.
    + rewrite UA. cbn [bind]. unfold advanced. cbn. reflexivity.
  - unfold distinct_values. destruct (Z.ltb_spec (it_index st) (zlen cs)); [|lia]. cbn [assert bind].
    assert (ST : (if it_fresh st
       then c <- expect (count_at_index h (it_index st)) ;;
         Ret (true, mk_iter (sat_add64 (it_total st) c) (sat_add64 (it_since st) c) c (it_index st)
                        (it_last st) maxi false (it_ended st) (it_picker st))
       else Ret (true, st)) = Ret (true, load st (it_picker st))).
    { unfold load. rewrite O. destruct (it_fresh st) eqn:F.
      - unfold count_at_index. rewrite vget_in by lia. cbn [expect bind]. rewrite (ii_total st I), (ii_since st I).
        unfold done. rewrite F. rewrite Z.add_0_r. rewrite zpre_succ by lia.
        pose proof (zpre_nn (it_index st)). pose proof (prevd_range st I O) as PR. unfold done in PR. rewrite F in PR.
        pose proof (zpre_le (prevd st) (it_index st) ltac:(lia)). pose proof (zn_nonneg cs (it_index st) (wf_nonneg h W)).
        unfold sat_add64, u64s. f_equal. f_equal. f_equal; lia.
      - destruct (ii_count st I F) as [CT _]. pose proof (ii_total st I) as T. pose proof (ii_since st I) as S. pose proof (ii_maxi st I) as M.
        unfold done, prevd in *. rewrite F in T, S. destruct st as [a b c d e f g i j]; cbn [it_picker it_index it_total it_count it_since it_last it_maxi it_fresh it_ended] in *. subst. reflexivity. }
    rewrite ST. cbn [bind negb]. unfold consult.
    change (it_index (load st (it_picker st))) with (it_index st).
    destruct (pk_pick pk h _ (it_index st) _ _) as [[[md|] p2]|]; cbn [bind]; auto.
    + rewrite VT. cbn [bind]. unfold count_at_index. rewrite vget_in by lia. cbn [expect bind]. reflexivity.
    + rewrite UA. cbn [bind]. reflexivity.
Qed.

Lemma end_ok st : it_index st = zlen cs -> iter_round pk h st = Ret (it_end st (it_picker st), End).
Proof. intros E. unfold iter_round. rewrite E. unfold distinct_values. rewrite Z.eqb_refl. reflexivity. Qed.

Lemma advanced_inv st p p2 : inv st -> it_index st < zlen cs -> inv (advanced (load st p) p2).
Proof.
  intros I L. pose proof (ii_index st I). pose proof (ii_last st I) as LL. constructor; unfold advanced, load, done, prevd; cbn [it_picker it_index it_total it_count it_since it_last it_maxi it_fresh it_ended]; auto; try lia.
  - destruct (it_last st); auto. split; lia.
  - rewrite Z.add_0_r. reflexivity.
  - rewrite Z.add_0_r. reflexivity.
Qed.
Lemma picked_inv st p p2 : inv st -> it_index st < zlen cs -> inv (picked (load st p) p2).
Proof.
  intros I L. pose proof (ii_index st I) as IX. pose proof (ii_last st I) as LL. pose proof maxi_range as MR.
  constructor; unfold picked, load, done, prevd; cbn [it_picker it_index it_total it_count it_since it_last it_maxi it_fresh it_ended]; auto.
  - split; [lia|]. intros _. destruct (opt_ge (it_last st) maxi) eqn:O; auto. destruct (it_fresh st) eqn:FR; auto. right. apply past_max; auto.
  - destruct (opt_ge (it_last st) maxi) eqn:O; auto. apply (ii_count st I).
  - destruct (opt_ge (it_last st) maxi) eqn:O; auto. destruct (it_fresh st) eqn:FR; auto.
    destruct (past_max st I O) as (E & _). unfold done in E. rewrite FR in E. rewrite E. auto.
  - unfold u64s. destruct (opt_ge (it_last st) maxi) eqn:O; [|unfold u64_max; lia]. destruct (it_fresh st) eqn:FR; [|unfold u64_max; lia].
    destruct (past_max st I O) as (E & _). unfold done in E. rewrite FR in E. rewrite E. unfold u64_max; lia.
Qed.

Lemma new_ok p : exists st, iter_new h p = Ret st /\ inv st /\ it_ended st = false /\ it_index st = 0 /\ it_last st = None /\ it_picker st = p /\ it_fresh st = true.
Proof.
  pose proof (w_cfg h W) as C. unfold iter_new. rewrite max_ok by auto. cbn [bind]. rewrite index_for_ok by (auto; apply maxp_u64; auto). cbn [expect bind].
  eexists. split; [reflexivity|]. split; [|cbn [it_picker it_index it_total it_count it_since it_last it_maxi it_fresh it_ended]; auto 10].
  constructor; cbn [it_picker it_index it_total it_count it_since it_last it_maxi it_fresh it_ended]; auto.
  - pose proof (zlen_nonneg cs). lia.
  - apply (bin_maxp h W).
  - discriminate.
Qed.

(** ** Runs of rounds *)
Inductive runs : iter P -> list item -> Prop :=
| runs_end st st' : it_ended st = false -> iter_round pk h st = Ret (st', End) -> runs st []
| runs_again st st' xs : it_ended st = false -> iter_round pk h st = Ret (st', Again) -> runs st' xs -> runs st xs
| runs_yield st st' x xs : it_ended st = false -> iter_round pk h st = Ret (st', Yield x) -> runs st' xs -> runs st (x :: xs).

Definition item_spec (prev i : Z) (x : item) : Prop :=
  iv_count x = zn cs i /\ iv_since x = u64s (zpre cs (i + 1) - zpre cs prev) /\
  iv_quantile x = f64_div (f64_of_u64 (u64s (zpre cs (i + 1)))) (f64_of_u64 (h_total h)).

Lemma yielded_spec st p md : item_spec (prevd st) (it_index st) (yielded (load st p) md).
Proof. split; [|split]; reflexivity. Qed.

Lemma round_cases st st' o : inv st -> it_ended st = false -> iter_round pk h st = Ret (st', o) ->
  match o with
  | End => it_ended st' = true /\ it_index st' = it_index st
  | Again => inv st' /\ it_index st' = it_index st + 1 /\ it_index st < zlen cs /\ it_ended st' = false /\ it_last st' = it_last st
  | Yield x => inv st' /\ it_index st' = it_index st /\ it_index st < zlen cs /\ it_ended st' = false /\
               it_last st' = Some (it_index st) /\ item_spec (prevd st) (it_index st) x
  end.
Proof.
  intros I EN. destruct (Z_lt_le_dec (it_index st) (zlen cs)) as [L|L].
  - assert (CO : forall p, consult (load st p) = Ret (st', o) -> match o with
      | End => it_ended st' = true /\ it_index st' = it_index st
      | Again => inv st' /\ it_index st' = it_index st + 1 /\ it_index st < zlen cs /\ it_ended st' = false /\ it_last st' = it_last st
      | Yield x => inv st' /\ it_index st' = it_index st /\ it_index st < zlen cs /\ it_ended st' = false /\
               it_last st' = Some (it_index st) /\ item_spec (prevd st) (it_index st) x end).
    { intros p E. unfold consult in E. destruct (pk_pick _ _ _ _ _ _) as [[[md|] p2]|]; cbn [bind] in E; try discriminate; injection E as <- <-.
      - split; [apply picked_inv; auto|]. repeat (split; auto).
      - split; [apply advanced_inv; auto|]. auto. }
    rewrite round_ok by auto. destruct (opt_ge (it_last st) maxi); [|apply CO].
    destruct (pk_more _ _ _ _) as [[[] p]|]; cbn [bind]; [apply CO| |discriminate].
    intros E. injection E as <- <-. auto.
  - pose proof (ii_index st I). rewrite end_ok by lia. intros E. injection E as <- <-. auto.
Qed.

Lemma loop_cases fuel : forall st st' o, inv st -> it_ended st = false -> iter_loop fuel pk h st = Ret (st', o) ->
  match o with
  | None => it_ended st' = true
  | Some x => exists i, it_index st <= i < zlen cs /\ inv st' /\ it_index st' = i /\ it_ended st' = false /\ it_last st' = Some i /\
      item_spec (prevd st) i x
  end.
Proof.
  induction fuel as [|f IH]; intros st st' o I EN E; cbn [iter_loop] in E; rewrite EN in E; [discriminate|].
  destruct (iter_round pk h st) as [[s1 o1]|] eqn:ER; cbn [bind] in E; [|discriminate].
  pose proof (round_cases st s1 o1 I EN ER) as RC. destruct o1.
  - injection E as <- <-. apply RC.
  - injection E as <- <-. destruct RC as (A & B & C & D & F & G). pose proof (ii_index st I). exists (it_index st). repeat (split; auto; try lia).
  - destruct RC as (A & B & C & D & F). specialize (IH s1 st' o A D E). destruct o as [x|]; auto.
    destruct IH as (i & I1 & I2 & I3 & I4 & I5 & I6). exists i. replace (prevd s1) with (prevd st) in I6 by (unfold prevd; rewrite F; auto).
    repeat (split; auto; try lia).
Qed.

Lemma loop_runs st xs : runs st xs -> inv st -> forall fuel, (Z.to_nat (zlen cs - it_index st) < fuel)%nat ->
  match xs with
  | [] => exists st', iter_loop fuel pk h st = Ret (st', None)
  | x :: xs' => exists st', iter_loop fuel pk h st = Ret (st', Some x) /\ runs st' xs' /\ inv st'
  end.
Proof.
  induction 1 as [st st' EN ER|st st' xs EN ER R IH|st st' x xs EN ER R IH]; intros I fuel F; (destruct fuel as [|f]; [lia|]); cbn [iter_loop]; rewrite EN, ER; cbn [bind].
  - eauto.
  - pose proof (round_cases st st' _ I EN ER) as (A & B & C & D & E). apply IH; auto. pose proof (ii_index st I). lia.
  - pose proof (round_cases st st' _ I EN ER) as (A & _). eauto.
Qed.
Lemma runs_drains xs : forall st, runs st xs -> inv st -> drains pk h st xs.
Proof.
  induction xs as [|x xs IH]; intros st R I; pose proof (loop_runs st _ R I (S (Z.to_nat (zlen cs - it_index st))) ltac:(lia)) as L; cbn in L.
  - destruct L as (st' & L). econstructor. exact L.
  - destruct L as (st' & L & R' & I'). econstructor; [exact L|]. auto.
Qed.

(** an exhausted iterator stays exhausted *)
Lemma ended_next st : it_ended st = true -> iter_next pk h st = Ret (st, None).
Proof. intros E. unfold iter_next. cbn [iter_loop]. rewrite E. reflexivity. Qed.

Lemma takes_inv st xs st' : takes pk h st xs st' -> inv st -> it_ended st = false -> inv st' /\ it_ended st' = false.
Proof.
  induction 1; intros I EN; auto. pose proof (loop_cases _ _ _ _ I EN H) as (i & _ & A & _ & B & _). auto.
Qed.
End ENGINE.
