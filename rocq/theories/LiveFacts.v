(** * Facts about unbounded executions of the concurrent histogram *)
From Verif Require Import Machine HistModel Bins ListZ Wf Spec Reach SyncModel SyncSpec SyncOps SyncFacts SyncRefresh PfSync LiveSpec.

Lemma send_recs st b : s_recs (send st b) = s_recs st.
Proof. apply send_fields. Qed.
Lemma send_phase st b : s_phase (send st b) = s_phase st.
Proof. apply send_fields. Qed.
Lemma send_lock st b : s_lock (send st b) = s_lock st.
Proof. apply send_fields. Qed.
Lemma send_chan st b : s_reader st <> RGone -> s_chan (send st b) = s_chan st ++ [b].
Proof. destruct (send_cases st b) as [(X & _)|(_ & ->)]; [contradiction|]. reflexivity. Qed.
Ltac rd := repeat match goal with H : s_reader _ = _ |- _ => first [rewrite H in * ] end.

Lemma call_step st l st' : in_refresh st -> step st l = Some st' -> in_call l.
Proof. unfold in_refresh. intros I E. destruct l; cbn [in_call]; auto; step_cases E; contradiction. Qed.
Lemma reader_kept st l st' : in_refresh st -> ~ refresh_step l -> step st l = Some st' ->
  s_reader st' = s_reader st /\ s_phase st' = s_phase st.
Proof.
  intros I N E. pose proof (call_step _ _ _ I E) as IC.
  destruct l; cbn [in_call refresh_step] in *; try tauto; step_cases E; cbn; rewrite ?send_reader, ?send_phase; auto;
    try (apply push_inv in E; destruct E as (n & _ & ->); auto).
Qed.

(** ** What can still be sent *)
Definition dues (ph : Z) (r : recorder) : Z :=
  match r_pc r with
  | PReady | PWrote | PIdling => 1 + bz (negb (r_phase r =? ph))
  | PLoaded q => 1 + bz (negb (q =? r_phase r)) + bz (negb (q =? ph))
  | PIdlingLoaded q => 1 + bz (negb (q =? r_phase r))
  | PIdle | PWaking => 1
  | PDropping => 1
  | PGone => 0
  end.
Lemma bz_range b : 0 <= bz b <= 1.
Proof. destruct b; cbn; lia. Qed.
Lemma dues_range ph r : 0 <= dues ph r <= 3.
Proof.
  unfold dues. destruct (r_pc r); try lia;
  repeat match goal with |- context [bz ?b] => pose proof (bz_range b); generalize dependent (bz b); intros end; lia.
Qed.
Definition pot (st : state) : Z := zlen (s_chan st) + sumr (dues (s_phase st)) (s_recs st).
Definition left (st : state) : Z :=
  match s_reader st with
  | RDrain _ => pot st + 3 * zlen (s_recs st) + 5
  | RCount _ => pot st + 3 * zlen (s_recs st) + 4
  | RBump _ _ => pot st + 3 * zlen (s_recs st) + 3
  | RWait _ _ _ => pot st + 2
  | RDrain2 => pot st + 1
  | _ => 0
  end.
Lemma pot_nonneg st : 0 <= pot st.
Proof.
  unfold pot. pose proof (zlen_nonneg (s_chan st)). pose proof (sumr_nonneg (dues (s_phase st)) (s_recs st)).
  assert (forall r, 0 <= dues (s_phase st) r) by (intros; apply dues_range). specialize (H0 H1). lia.
Qed.
Lemma left_nonneg st : 0 <= left st.
Proof. unfold left. pose proof (pot_nonneg st). pose proof (zlen_nonneg (s_recs st)). destruct (s_reader st); lia. Qed.
Lemma dues_bound ph l : sumr (dues ph) l <= 3 * zlen l.
Proof.
  induction l as [|x l IH]; [reflexivity|]. unfold sumr in *. cbn [map fold_right]. rewrite zlen_cons.
  pose proof (dues_range ph x). lia.
Qed.

Lemma pot_put st i x r k c : nth_error (s_recs st) i = Some x -> dues (s_phase st) r <= dues (s_phase st) x ->
  pot (put_rec (put_lock st k c) i r) <= pot st.
Proof. intros E D. unfold pot. cbn. rewrite (sumr_put _ _ _ _ _ E). lia. Qed.
Lemma pot_put0 st i x r : nth_error (s_recs st) i = Some x -> dues (s_phase st) r <= dues (s_phase st) x ->
  pot (put_rec st i r) <= pot st.
Proof. intros E D. unfold pot. cbn. rewrite (sumr_put _ _ _ _ _ E). lia. Qed.
Lemma pot_send st i x r b : nth_error (s_recs st) i = Some x -> dues (s_phase st) r + 1 <= dues (s_phase st) x ->
  pot (put_rec (send st b) i r) <= pot st.
Proof.
  intros E D. unfold pot. cbn. rewrite send_recs, send_phase, (sumr_put _ _ _ _ _ E).
  assert (zlen (s_chan (send st b)) <= zlen (s_chan st) + 1).
  { destruct (send_cases st b) as [(_ & ->)|(_ & ->)]; [lia|]. cbn. rewrite zlen_app. unfold zlen at 2; cbn; lia. }
  lia.
Qed.
Ltac bzs := unfold dues; cbn [r_pc r_phase];
  repeat match goal with H : (?a =? ?b) = true |- _ => apply Z.eqb_eq in H | H : (?a =? ?b) = false |- _ => apply Z.eqb_neq in H end;
  repeat match goal with |- context [?a =? ?b] => destruct (Z.eqb_spec a b) end; cbn [negb bz]; try lia; exfalso; congruence.
Lemma pot_step st l st' : ~ refresh_step l -> (forall i, l <> LClone i) -> (forall i, l <> LForget i) -> in_refresh st ->
  step st l = Some st' -> pot st' <= pot st /\ zlen (s_recs st') = zlen (s_recs st).
Proof.
  intros N NC NF I E. pose proof (call_step _ _ _ I E) as IC.
  destruct l; cbn [in_call refresh_step] in *; try tauto; try (exfalso; eapply NC; reflexivity); try (exfalso; eapply NF; reflexivity);
    step_cases E; (split; [|cbn; rewrite ?send_recs; cbn; rewrite ?put_zlen; reflexivity]);
    try (match goal with K : nth_error _ ?i = Some ?x |- pot (put_rec (send (put_lock ?s ?k ?c) ?b) ?i ?r) <= _ =>
       change (pot st) with (pot (put_lock st k c)); apply (pot_send (put_lock s k c) i x r b); [exact K|cbn [put_lock s_phase]; bzs] end);
    try (match goal with K : nth_error _ ?i = Some ?x |- pot (put_rec (send _ _) _ _) <= _ => apply (pot_send _ i x); [exact K|bzs] end);
    try (match goal with K : nth_error _ ?i = Some ?x |- pot (put_rec (put_lock _ _ _) _ _) <= _ => apply (pot_put _ i x); [exact K|bzs] end);
    try (match goal with K : nth_error _ ?i = Some ?x |- pot (put_rec _ _ _) <= _ => apply (pot_put0 _ i x); [exact K|bzs] end);
    try (apply Z.le_refl).
  all: try (match goal with K : nth_error _ ?i = Some ?x |- _ => etransitivity; [apply (pot_put0 st i x _ K)|apply Z.le_refl]; bzs end).
Qed.

Lemma receive_chan st k st' : receive st k = Some st' -> s_reader st' <> RPanicked ->
  s_reader st' = k /\ s_recs st' = s_recs st /\ s_phase st' = s_phase st /\ zlen (s_chan st) = zlen (s_chan st') + 1.
Proof.
  intros E N. apply receive_inv in E. destruct E as (b & q & EQ & [(m & M & ->)|(_ & ->)]); [|exfalso; apply N; reflexivity].
  cbn. rewrite EQ, zlen_cons. auto.
Qed.
Lemma left_step st l st' : ~ refresh_step l -> (forall i, l <> LClone i) -> (forall i, l <> LForget i) -> in_refresh st ->
  step st l = Some st' -> left st' <= left st.
Proof.
  intros N NC NF I E. destruct (pot_step _ _ _ N NC NF I E) as [P L]. destruct (reader_kept _ _ _ I N E) as [R _].
  unfold left. rewrite R, L. destruct (s_reader st); lia.
Qed.
Lemma left_refresh st l st' : refresh_step l -> in_refresh st -> s_reader st' <> RPanicked -> step st l = Some st' ->
  s_reader st' = RReady \/ (in_refresh st' /\ left st' < left st).
Proof.
  intros RS I NP E. unfold in_refresh in *.
  assert (RC : forall k, (forall s', s_reader s' = k -> s_recs s' = s_recs st -> pot s' = pot st - 1 -> in_refresh s' /\ left s' < left st) ->
     receive st k = Some st' -> in_refresh st' /\ left st' < left st).
  { intros k H X. destruct (receive_chan _ _ _ X NP) as (X1 & X2 & X3 & X4). apply H; auto. unfold pot. rewrite X2, X3. lia. }
  unfold in_refresh, left in RC. unfold left. pose proof (zlen_nonneg (s_recs st)) as ZR.
  destruct l; cbn [refresh_step] in RS; try contradiction; step_cases E; rewrite ?K in *; try contradiction;
    try (left; reflexivity); try (right; split; [exact Logic.I|]; cbn; unfold pot; cbn; lia).
  - right. apply (RC (RDrain timed)); auto. intros s' A1 A2 A3. rewrite A1, ?A2, A3. split; [exact Logic.I|lia].
  - right. apply (RC (RWait timed n (phased + 1))); auto. intros s' A1 A2 A3. rewrite A1, ?A2, A3. split; [exact Logic.I|lia].
  - right. apply (RC RDrain2); auto. intros s' A1 A2 A3. rewrite A1, ?A2, A3. split; [exact Logic.I|lia].
  - right. split; [exact Logic.I|]. cbn [s_reader]. unfold pot. cbn [s_chan s_phase s_recs].
    clear RC. match goal with |- context [dues (?x mod ?y)] => pose proof (dues_bound (x mod y) (s_recs st)) end.
    pose proof (sumr_nonneg (dues (s_phase st)) (s_recs st)  (fun r => proj1 (dues_range (s_phase st) r))). lia.
Qed.

(** ** A recorder that owes pays if it goes on *)
Lemma kept st l st' i r : step st l = Some st' -> ~ moves i l -> l <> LForget i ->
  nth_error (s_recs st) i = Some r -> nth_error (s_recs st') i = Some r.
Proof.
  intros E N NF J.
  assert (PUT : forall j y, j <> i -> nth_error (put (s_recs st) j y) i = Some r) by (intros; rewrite put_other; auto).
  destruct l; cbn [moves] in N; step_cases E; cbn; rewrite ?send_recs; cbn; auto;
    try (apply PUT; congruence);
    try (destruct (receive_fields _ _ _ E) as (-> & _); exact J);
    try (apply push_inv in E; destruct E as (m & _ & ->); cbn; rewrite nth_error_app1 by (eapply nth_lt; eauto); exact J).
Qed.
Definition way (r : recorder) : nat :=
  match r_pc r with
  | PLoaded q => if q =? r_phase r then 4 else 1
  | PReady => 3 | PWrote | PIdling => 2
  | PIdlingLoaded _ | PDropping => 1
  | _ => 0
  end.
Lemma pay st l st' i r : step st l = Some st' -> moves i l -> in_refresh st -> s_lock st' <> Poisoned ->
  nth_error (s_recs st) i = Some r -> owes (s_phase st) r = true ->
  s_chan st' <> [] \/ (exists r', nth_error (s_recs st') i = Some r' /\ owes (s_phase st) r' = true /\ (way r' < way r)%nat).
Proof.
  intros E MV I NP J O.
  assert (NG : s_reader st <> RGone) by (intros X; unfold in_refresh in I; rewrite X in I; exact I).
  assert (PUT : forall y, nth_error (put (s_recs st) i y) i = Some y) by (intros; rewrite put_same; auto; eapply nth_lt; eauto).
  destruct l; cbn [moves] in MV; try contradiction; subst i0; step_cases E; cbn in *; try (exfalso; apply NP; reflexivity);
    (match goal with K : nth_error (s_recs st) i = Some ?x |- _ => lazymatch x with r => fail | _ => assert (r = x) by congruence; subst r end end); unfold owes in O; cbn [SyncModel.r_pc SyncModel.r_phase] in O; try discriminate O;
    try (left; rewrite send_chan by (exact NG); intros X; apply app_eq_nil in X; destruct X; discriminate);
    right; eexists; (split; [apply PUT|]); unfold owes, way; cbn [SyncModel.r_pc SyncModel.r_phase];
    try (split; [exact O|lia]).
  all: repeat match goal with H : negb _ = true |- _ => apply negb_true_iff in H; apply Z.eqb_neq in H | H : (_ =? _) = true |- _ => apply Z.eqb_eq in H end;
    repeat match goal with |- context [?a =? ?b] => destruct (Z.eqb_spec a b); try congruence end; cbn; auto; try (split; [reflexivity|lia]); try lia.
Qed.

(** ** A thread that holds the mutex releases it *)
Lemma held_kept st l st' i : lock_ok st -> step st l = Some st' -> s_lock st = Held i -> ~ moves i l -> l <> LForget i -> s_lock st' = Held i.
Proof.
  intros [LA LB] E L N NF.
  destruct l; cbn [moves] in N; step_cases E; cbn; rewrite ?send_lock; cbn; auto; try congruence;
    try (destruct (receive_fields _ _ _ E) as (_ & -> & _); exact L);
    try (match goal with K : nth_error (s_recs st) ?j = Some ?x |- _ => exfalso; specialize (LA j x K eq_refl); congruence end).
Qed.
Lemma release st l st' i r : lock_ok st -> step st l = Some st' -> s_lock st = Held i -> moves i l -> nth_error (s_recs st) i = Some r ->
  s_lock st' = Free \/ (r_pc r = PIdling /\ s_lock st' = Held i /\ exists r' q, nth_error (s_recs st') i = Some r' /\ r_pc r' = PIdlingLoaded q).
Proof.
  intros [LA LB] E L MV J. destruct (LB i L) as (y & Y1 & Y2). assert (y = r) by congruence. subst y.
  destruct l; cbn [moves] in MV; try contradiction; subst i0; step_cases E; cbn in *; rewrite ?send_lock; auto;
    (match goal with K : nth_error (s_recs st) i = Some ?x |- _ => lazymatch x with r => fail | _ => assert (r = x) by congruence; subst r end end); try discriminate Y2; try congruence.
  right. cbn. split; auto. split; auto. do 2 eexists. split; [apply put_same; eapply nth_lt; eauto|reflexivity].
Qed.

(** ** The mutex is not poisoned *)
Lemma counted_active l : sumr counted l = Z.of_nat (length (filter is_active l)).
Proof.
  induction l as [|x l IH]; [reflexivity|]. unfold sumr in *. cbn [map fold_right filter]. rewrite IH. unfold counted.
  destruct (is_active x); cbn [length]; lia.
Qed.
Lemma unpoisoned st l st' : step st l = Some st' -> s_count st = sumr counted (s_recs st) -> active_recorders st < usize_max ->
  s_lock st <> Poisoned -> s_lock st' <> Poisoned.
Proof.
  intros E CO FEW NP. unfold active_recorders in FEW. rewrite <- counted_active, <- CO in FEW.
  assert (UP : count_up st <> Panic).
  { unfold count_up, usize_add. intros X. apply in_range_panic in X.
    pose proof (sumr_nonneg counted (s_recs st) counted_nonneg). lia. }
  assert (DN : forall i x, nth_error (s_recs st) i = Some x -> counted x = 1 -> count_down st <> Panic).
  { intros i x J C X. pose proof (sumr_pos counted _ _ _ counted_nonneg J). unfold count_down, usize_sub in X. apply in_range_panic in X. lia. }
  destruct l; step_cases E; cbn; rewrite ?send_lock; cbn; auto; try congruence;
    try (match goal with K : nth_error _ ?i = Some ?x |- _ => exfalso; apply (DN i x K eq_refl); solve [assumption | reflexivity] end);
    try (destruct (receive_fields _ _ _ E) as (_ & -> & _); exact NP);
    try (apply push_inv in E; destruct E as (m & _ & ->); cbn; congruence).
Qed.

(** ** A finite schedule *)
Lemma firstn_snoc {A} (l : list A) k x : nth_error l k = Some x -> firstn (Datatypes.S k) l = firstn k l ++ [x].
Proof. revert k; induction l as [|y l IH]; intros [|k] E; cbn in E; try discriminate; [injection E as ->; reflexivity|]. cbn [firstn app]. f_equal. apply IH. exact E. Qed.
Lemma settle_prefix st tr st2 k : exec st tr = Some st2 -> exec st (firstn k tr) = Some (settle st tr k).
Proof.
  intros E. unfold settle. rewrite <- (firstn_skipn k tr), exec_app in E. destruct (exec st (firstn k tr)); [reflexivity|discriminate].
Qed.
Lemma settle_end st tr st2 k : exec st tr = Some st2 -> (length tr <= k)%nat -> settle st tr k = st2.
Proof. intros E L. unfold settle. rewrite firstn_all2 by exact L. rewrite E. reflexivity. Qed.
Lemma settle_continues h0 st tr st2 : exec st tr = Some st2 -> Forall (label_ok (h_ctr h0)) tr -> continues h0 (settle st tr) (nth_error tr).
Proof.
  intros E F k. destruct (nth_error tr k) as [l|] eqn:N.
  - split; [apply (nth_Forall _ _ _ _ F N)|]. pose proof (settle_prefix _ _ _ (Datatypes.S k) E) as X. rewrite (firstn_snoc _ _ _ N) in X.
    apply exec_snoc in X. destruct X as (s1 & X1 & X2). rewrite (settle_prefix _ _ _ k E) in X1. injection X1 as <-. exact X2.
  - apply nth_error_None in N. rewrite !(settle_end _ _ _ _ E) by lia. reflexivity.
Qed.
Lemma settle_fair st tr st2 : exec st tr = Some st2 -> s_reader st2 = RReady -> all_quiet st2 ->
  recorders_go_on (settle st tr) (nth_error tr) /\ reader_goes_on (settle st tr) (nth_error tr) /\ clones_end (nth_error tr).
Proof.
  intros E R Q. split; [|split].
  - intros i k. exists (k + length tr)%nat. split; [lia|]. right. intros r J. rewrite (settle_end _ _ _ _ E) in J by lia.
    apply or_comm, Q. eapply nth_error_In; eauto.
  - intros k. exists (k + length tr)%nat. split; [lia|]. right. intros j l L RS. rewrite (settle_end _ _ _ _ E) by lia.
    destruct l; cbn in *; try contradiction; rewrite R; reflexivity.
  - exists (length tr). intros k i L X. assert (N : nth_error tr k = None) by (apply nth_error_None; exact L). congruence.
Qed.
Lemma settle_few st tr st2 : exec st tr = Some st2 ->
  forallb (fun k => active_recorders (settle st tr k) <? usize_max) (seq 0 (Datatypes.S (length tr))) = true -> few_recorders (settle st tr).
Proof.
  intros E F k. rewrite forallb_forall in F. destruct (Nat.le_gt_cases k (length tr)) as [L|L].
  - apply Z.ltb_lt, F, in_seq. lia.
  - rewrite (settle_end _ _ _ _ E) by lia. rewrite <- (settle_end _ _ _ (length tr) E) by lia. apply Z.ltb_lt, F, in_seq. lia.
Qed.

(** ** An execution in which idle recorder 0 is cloned for ever, and every clone dropped *)
Definition churn (c m : nat) : label :=
  match m with 0%nat => LClone 0 | 1%nat => LDrop (Datatypes.S c) | 2%nat => LDropEnd (Datatypes.S c) | _ => RRecv end.
Fixpoint turn (k : nat) : nat * nat :=
  match k with
  | 0%nat => (0, 0)%nat
  | Datatypes.S k' => let '(c, m) := turn k' in match m with 0 => (c, 1) | 1 => (c, 2) | 2 => (c, 3) | _ => (Datatypes.S c, 0) end%nat
  end.
Definition churns (k : nat) : label := let '(c, m) := turn k in churn c m.
Fixpoint churned (st : state) (k : nat) : state :=
  match k with
  | 0%nat => st
  | Datatypes.S k' => match step (churned st k') (churns k') with Some x => x | None => churned st k' end
  end.
Lemma turn_four k : turn (4 * k) = (k, 0%nat).
Proof. induction k as [|k IH]; [reflexivity|]. replace (4 * Datatypes.S k)%nat with (4 + 4 * k)%nat by lia. cbn [turn Nat.add]. rewrite IH. reflexivity. Qed.
Definition churning (t : bool) (c m : nat) (st : state) : Prop :=
  s_reader st = RDrain t /\
  exists r0 gs, r_pc r0 = PIdle /\ Forall (fun r => r_pc r = PGone) gs /\
  match m with
  | 0%nat => s_recs st = r0 :: gs /\ length gs = c /\ s_chan st = [] /\ s_lock st = Free /\ s_count st = 0
  | 1%nat => (exists b p, s_recs st = (r0 :: gs) ++ [Rec b p PReady]) /\ length gs = c /\ s_chan st = [] /\ s_lock st = Free /\ s_count st = 1
  | 2%nat => (exists b p, s_recs st = (r0 :: gs) ++ [Rec b p PDropping]) /\ length gs = c /\ s_chan st = [] /\ s_lock st = Held (Datatypes.S c) /\ s_count st = 0
  | _ => s_recs st = r0 :: gs /\ length gs = Datatypes.S c /\ (exists b, s_chan st = [b]) /\ s_lock st = Free /\ s_count st = 0
  end.
Lemma put_last l x r : put (l ++ [x]) (length l) r = l ++ [r].
Proof. induction l as [|y l IH]; [reflexivity|]. cbn [length app put]. rewrite IH. reflexivity. Qed.
Lemma nth_last (l : list recorder) x : nth_error (l ++ [x]) (length l) = Some x.
Proof. rewrite nth_error_app2 by lia. rewrite Nat.sub_diag. reflexivity. Qed.
Lemma churn_step t h0 tr c m st : run h0 tr st -> merged_untouched tr -> merge_safe h0 -> (m < 4)%nat -> churning t c m st ->
  exists st', step st (churn c m) = Some st' /\
    (let '(c', m') := match m with 0 => (c, 1) | 1 => (c, 2) | 2 => (c, 3) | _ => (Datatypes.S c, 0) end%nat in churning t c' m' st').
Proof.
  intros RN U MS M (RD & r0 & gs & P0 & PG & X). destruct m as [|[|[|[|m]]]]; [| | | |lia].
  - destruct X as (XR & XL & XC & XK & XN). destruct (typed_run h0 tr st RN) as (_ & _ & T). rewrite XR in T. inversion T; subst.
    destruct r0 as [b p k]. cbn in P0. subst k. cbn in H1. destruct H1 as [R1 _]. destruct (new_from_reach _ R1) as (n & EN & _).
    eexists. split.
    + cbn [churn step]. rewrite XR. cbn [nth_error]. rewrite XK. unfold count_up. rewrite XN. cbn [usize_add]. unfold push_rec. rewrite EN. reflexivity.
    + split; [exact RD|]. exists (Rec b p PIdle), gs. split; [reflexivity|]. split; [exact PG|]. cbn [s_recs s_chan s_lock s_count put_lock]. rewrite XR.
      split; [eexists; eexists; reflexivity|]. auto.
  - destruct X as ((b & p & XR) & XL & XC & XK & XN).
    assert (LN : length (r0 :: gs) = Datatypes.S c) by (cbn; congruence).
    eexists. split.
    + cbn [churn step]. rewrite XR, <- LN, nth_last, XK. unfold count_down. rewrite XN. reflexivity.
    + split; [exact RD|]. exists r0, gs. split; [exact P0|]. split; [exact PG|]. cbn [s_recs s_chan s_lock s_count put_lock put_rec]. rewrite XR, put_last.
      split; [eexists; eexists; reflexivity|]. rewrite LN. auto.
  - destruct X as ((b & p & XR) & XL & XC & XK & XN).
    assert (LN : length (r0 :: gs) = Datatypes.S c) by (cbn; congruence).
    destruct (typed_run h0 tr st RN) as (_ & _ & T). rewrite XR in T. apply Forall_app in T. destruct T as [_ T]. inversion T; subst.
    destruct (shed_returns _ _ H1) as (n & SH).
    eexists. split.
    + cbn [churn step]. rewrite XR, <- LN, nth_last. cbn [r_local] in SH. rewrite SH. reflexivity.
    + split; [cbn [put_rec s_reader]; rewrite send_reader; exact RD|]. exists r0, (gs ++ [Rec (Box n []) p PGone]). split; [exact P0|].
      split; [apply Forall_app; split; [exact PG|constructor; [reflexivity|constructor]]|].
      cbn [s_recs s_chan s_lock s_count put_rec]. rewrite send_recs, send_lock. cbn [put_lock s_recs s_lock]. rewrite XR, put_last.
      split; [reflexivity|]. split; [rewrite app_length; cbn; lia|].
      split; [rewrite send_chan by (cbn; rewrite RD; discriminate); cbn; rewrite XC; eexists; reflexivity|].
      split; [reflexivity|]. rewrite (proj1 (proj2 (proj2 (send_fields _ _)))). exact XN.
  - destruct X as (XR & XL & (b & XC) & XK & XN). pose proof RN as (R0 & _).
    destruct (like_run h0 tr st RN (untouched_not_set _ U)) as (LM & LB & _). rewrite XC in LB. inversion LB; subst.
    destruct (merge_ok h0 _ _ MS R0 LM H1) as (m' & EM).
    eexists. split.
    + cbn [churn step]. rewrite RD. unfold receive. rewrite XC, EM. reflexivity.
    + split; [reflexivity|]. exists r0, gs. split; [exact P0|]. split; [exact PG|]. cbn. auto.
Qed.
Lemma turn_lt k : (snd (turn k) < 4)%nat.
Proof. induction k as [|k IH]; cbn; [lia|]. destruct (turn k) as [c [|[|[|m]]]]; cbn; lia. Qed.
Lemma churned_inv t h0 tr0 st0 : run h0 tr0 st0 -> merged_untouched tr0 -> merge_safe h0 -> churning t 0 0 st0 ->
  forall k, (exists tr, run h0 tr (churned st0 k) /\ merged_untouched tr) /\ churning t (fst (turn k)) (snd (turn k)) (churned st0 k) /\
    step (churned st0 k) (churns k) = Some (churned st0 (Datatypes.S k)).
Proof.
  intros RN U MS X0.
  assert (ALL : forall k, (exists tr, run h0 tr (churned st0 k) /\ merged_untouched tr) /\ churning t (fst (turn k)) (snd (turn k)) (churned st0 k)).
  { induction k as [|k [(tr & R1 & U1) IH]]; [split; [exists tr0; auto|exact X0]|].
    cbn [churned]. unfold churns. pose proof (turn_lt k) as TL. destruct (turn k) as [c m] eqn:TK. cbn [fst snd] in *.
    destruct (churn_step t h0 tr c m _ R1 U1 MS TL IH) as (st' & ST & X). rewrite ST. split.
    - exists (tr ++ [churn c m]). split.
      + destruct R1 as (A & B & D). split; [exact A|]. split; [apply Forall_app; split; [exact B|constructor; [destruct m as [|[|[|]]]; exact Logic.I|constructor]]|].
        rewrite exec_app, D. cbn. rewrite ST. reflexivity.
      + intros h IN. apply in_app_iff in IN. destruct IN as [IN|[IN|[]]]; [apply (U1 h IN)|]. destruct m as [|[|[|]]]; discriminate.
    - cbn [turn]. rewrite TK. destruct m as [|[|[|m]]]; exact X. }
  intros k. destruct (ALL k) as [(tr & R1 & U1) X]. split; [exists tr; auto|]. split; [exact X|].
  cbn [churned]. unfold churns. pose proof (turn_lt k) as TL. destruct (turn k) as [c m] eqn:TK. cbn [fst snd] in *.
  destruct (churn_step t h0 tr c m _ R1 U1 MS TL X) as (st' & ST & _). rewrite ST. reflexivity.
Qed.
Lemma gone_inactive gs : Forall (fun r => r_pc r = PGone) gs -> filter is_active gs = [].
Proof. induction 1 as [|r l P F IH]; [reflexivity|]. cbn. unfold is_active. rewrite P. exact IH. Qed.
Lemma churning_few t c m st : (m < 4)%nat -> churning t c m st -> active_recorders st <= 1.
Proof.
  intros M (RD & r0 & gs & P0 & PG & X). unfold active_recorders.
  assert (A0 : is_active r0 = false) by (unfold is_active; rewrite P0; reflexivity).
  destruct m as [|[|[|[|m]]]]; [| | | |lia].
  - destruct X as (-> & _). cbn [filter]. rewrite A0, (gone_inactive _ PG). cbn; lia.
  - destruct X as ((b & p & ->) & _). rewrite filter_app. cbn [filter app]. rewrite A0, (gone_inactive _ PG). cbn; lia.
  - destruct X as ((b & p & ->) & _). rewrite filter_app. cbn [filter app]. rewrite A0, (gone_inactive _ PG). cbn; lia.
  - destruct X as (-> & _). cbn [filter]. rewrite A0, (gone_inactive _ PG). cbn; lia.
Qed.
