(** * Invariants of the concurrent histogram with a usize of another width *)
From Coq Require Import Permutation.
From Verif Require Import Machine HistModel Bins ListZ Spec Reach SyncModel SyncSpec SyncOps SyncFacts SyncRefresh PfSync LiveSpec LiveFacts WeakModel WeakSpec WeakFacts
  ReleaseSyncModel ReleaseSyncSpec ReleaseSyncFacts LooseFacts WidthSyncModel WidthSyncSpec.

Lemma nexec_app B w a b : nexec B w (a ++ b) = match nexec B w a with Some w' => nexec B w' b | None => None end.
Proof. revert w; induction a as [|l a IH]; intros w; cbn [nexec app]; auto. destruct (nstep B w l); auto. Qed.
Lemma nexec_snoc B w tr a w' : nexec B w (tr ++ [a]) = Some w' -> exists w1, nexec B w tr = Some w1 /\ nstep B w1 a = Some w'.
Proof.
  rewrite nexec_app. destruct (nexec B w tr) as [w1|]; [|discriminate]. cbn [nexec]. intros E. exists w1. split; auto.
  destruct (nstep B w1 a); congruence.
Qed.
Lemma nexec_cut B w a x b w' : nexec B w (a ++ x :: b) = Some w' -> exists w1 w2, nexec B w a = Some w1 /\ nstep B w1 x = Some w2 /\ nexec B w2 b = Some w'.
Proof.
  rewrite nexec_app. destruct (nexec B w a) as [w1|]; [|discriminate]. cbn [nexec]. intros E. exists w1.
  destruct (nstep B w1 x) as [w2|]; [|discriminate]. eauto.
Qed.
Lemma nstep_load B w l k i w' : load_of l = Some i -> nstep B w (l, k) = Some w' ->
  view (w_views w) i <= k <= w_now w /\
  exists s', step (with_phase (w_st w) (phase_b B k)) l = Some s' /\
    w' = WState (with_phase s' (s_phase (w_st w))) (w_now w) (put_view (w_views w) i k)
           (match l with LWakeEnd _ => k | _ => w_lock w end).
Proof.
  intros L E. destruct l; try discriminate L; injection L as ->; cbn [nstep] in E;
    destruct (Z.leb_spec (view (w_views w) i) k); try discriminate E; destruct (Z.leb_spec k (w_now w)); try discriminate E; cbn [andb] in E;
    (split; [lia|]); match type of E with match ?x with _ => _ end = _ => destruct x as [s'|] eqn:S; [|discriminate E] end;
    injection E as <-; exists s'; auto.
Qed.
Lemma nstep_other B w l k w' : load_of l = None -> nstep B w (l, k) = Some w' ->
  (overflows B w l = true /\ exists w1, wstep (at_count w usize_max) (l, k) = Some w1 /\ w' = at_count w1 (s_count (w_st w))) \/
  (overflows B w l = false /\ exists w1, wstep w (l, k) = Some w1 /\ w' = at_phase w1 (phase_b B (s_phase (w_st w1)))).
Proof.
  intros L E. destruct (overflows B w l) eqn:O; [left|right]; (split; [reflexivity|]);
    destruct l; try discriminate L; cbn [nstep] in E; rewrite O in E;
    (match type of E with match ?x with _ => _ end = _ => destruct x as [s'|] eqn:S; [|discriminate E] end); exists s'; (split; [reflexivity|]); congruence.
Qed.
Lemma put_count_id s : put_count s (s_count s) = s.
Proof. destruct s; reflexivity. Qed.
Lemma nstep_loose B w l k w' : nstep B w (l, k) = Some w' -> loose (w_st w) l (w_st w').
Proof.
  intros E. destruct (load_of l) as [i|] eqn:L.
  - destruct (nstep_load _ _ _ _ _ _ L E) as (_ & s' & S & ->). exists (phase_b B k), (s_count (w_st w)), s', (s_phase (w_st w)), (s_count s').
    split; [|destruct s'; reflexivity]. replace (put_count (with_phase (w_st w) (phase_b B k)) (s_count (w_st w))) with (with_phase (w_st w) (phase_b B k)) by (destruct (w_st w); reflexivity). exact S.
  - destruct (nstep_other _ _ _ _ _ L E) as [(_ & w1 & S & ->)|(_ & w1 & S & ->)]; apply (wstep_other _ _ _ _ L) in S.
    + exists (s_phase (w_st w)), usize_max, (w_st w1), (s_phase (w_st w1)), (s_count (w_st w)). split; [|rewrite with_phase_id; reflexivity]. rewrite with_phase_id. exact S.
    + exists (s_phase (w_st w)), (s_count (w_st w)), (w_st w1), (phase_b B (s_phase (w_st w1))), (s_count (w_st w1)).
      split; [rewrite with_phase_id, put_count_id; exact S|]. destruct w1 as [[] ? ? ?]; reflexivity.
Qed.
Lemma nexec_loose B w tr w' : nexec B w tr = Some w' -> lexec (w_st w) (acts tr) (w_st w').
Proof.
  revert w. induction tr as [|[l k] tr IH]; intros w E; cbn [nexec] in E; [injection E as <-; constructor|].
  destruct (nstep B w (l, k)) as [w1|] eqn:S; [|discriminate]. cbn [acts map fst]. econstructor; [eapply nstep_loose; eauto|apply IH; exact E].
Qed.
Lemma nrun_loose B h0 tr w : nrun B h0 tr w -> lrun h0 (acts tr) (w_st w).
Proof. intros (_ & R & F & E). split; [exact R|]. split; [exact F|]. apply (nexec_loose B (winit h0)). exact E. Qed.

(** the number of recorders *)
Lemma counted_01 r : 0 <= counted r <= 1.
Proof. unfold counted. destruct (is_active r); lia. Qed.
Lemma send_count st b : s_count (send st b) = s_count st.
Proof. exact (proj1 (proj2 (proj2 (send_fields st b)))). Qed.
Lemma step_count st l st' : step st l = Some st' ->
  (s_count st <= sumr counted (s_recs st) -> s_count st' <= sumr counted (s_recs st')) /\
  (not_forget l -> s_count st = sumr counted (s_recs st) -> s_count st' = sumr counted (s_recs st')) /\
  (0 <= s_count st -> 0 <= s_count st') /\ (s_count st' = s_count st + counts l \/ s_count st' = s_count st) /\
  (s_lock st' = Poisoned -> s_lock st = Poisoned \/
     (s_recs st' = s_recs st /\ (usize_max <= s_count st \/ (s_count st < 1 /\ 1 <= sumr counted (s_recs st))) \/ s_count st < 0)).
Proof.
  intros E. pose proof (sumr_nonneg counted (s_recs st) (fun r => proj1 (counted_01 r))) as NN.
  destruct l; step_cases E; unfold count_up, count_down in *;
    try (match goal with H : usize_add _ 1 = Ret _ |- _ => apply counted_up_inv in H; destruct H as [-> H] end);
    try (match goal with H : usize_sub _ 1 = Ret _ |- _ => apply counted_down_inv in H; destruct H as [-> H] end);
    try (match goal with H : usize_add _ 1 = Panic |- _ => unfold usize_add in H; apply in_range_panic in H end);
    try (match goal with H : usize_sub _ 1 = Panic |- _ => unfold usize_sub in H; apply in_range_panic in H end);
    try (apply push_inv in E; destruct E as (n & _ & EQ); subst st'; cbn [s_recs s_count s_lock put_lock counts]; rewrite sumr_app;
         match goal with |- context [counted ?x] => change (counted x) with 1 end; repeat split; intros; try lia; congruence);
    try (destruct (receive_fields _ _ _ E) as (-> & -> & -> & _); cbn [counts]; repeat split; intros; auto; lia);
    cbn [s_recs s_count s_lock put_lock put_rec put_reader put_merged put_chan counts not_forget]; rewrite ?send_recs, ?send_count, ?send_lock; cbn [s_recs s_count s_lock put_lock put_rec put_reader put_merged put_chan];
    try (match goal with K : nth_error _ _ = Some _ |- _ => pose proof (sumr_pos counted _ _ _ (fun r => proj1 (counted_01 r)) K) as SP; rewrite ?(sum_put _ _ _ _ K) end);
    repeat match goal with
      | |- context [counted (Rec ?b ?p ?c)] => let v := eval cbv [counted is_active SyncModel.r_pc] in (counted (Rec b p c)) in change (counted (Rec b p c)) with v
      | H : context [counted (Rec ?b ?p ?c)] |- _ => let v := eval cbv [counted is_active SyncModel.r_pc] in (counted (Rec b p c)) in change (counted (Rec b p c)) with v in H end;
    repeat split; intros; auto; try lia; try contradiction; try congruence; try (right; destruct (Z_lt_ge_dec (s_count st) 0); [right; lia|left; split; [reflexivity|lia]]).
Qed.

Definition ncount_ok (B : Z) (st : state) : Prop :=
  s_count st <= sumr counted (s_recs st) /\ 0 <= s_count st <= 2 ^ B - 1.
Lemma up_full st l s' : counts l = 1 -> step (put_count st usize_max) l = Some s' -> put_count s' (s_count st) = put_lock st Poisoned (s_count st).
Proof.
  intros C E. destruct l; cbn [counts] in C; try lia; step_cases E;
    try (match goal with H : count_up _ = Ret _ |- _ => unfold count_up in H; apply counted_up_inv in H; cbn [put_count put_lock s_count] in H; lia end);
    destruct st; reflexivity.
Qed.
Lemma overflow_state B w l k w' : load_of l = None -> overflows B w l = true -> nstep B w (l, k) = Some w' ->
  w_st w' = put_lock (w_st w) Poisoned (s_count (w_st w)) /\ counts l = 1 /\ s_count (w_st w) = 2 ^ B - 1.
Proof.
  intros L O E. destruct (nstep_other _ _ _ _ _ L E) as [(_ & w1 & S & ->)|(X & _)]; [|congruence].
  unfold overflows in O. apply andb_true_iff in O. destruct O as [O1 O2]. apply Z.eqb_eq in O1, O2. split; [|auto].
  apply (wstep_other _ _ _ _ L) in S. apply (up_full _ _ _ O1 S).
Qed.
Lemma sum_phase st p : sumr counted (s_recs (with_phase st p)) = sumr counted (s_recs st).
Proof. reflexivity. Qed.
Lemma width_range B : 32 <= B <= 64 -> 2 ^ 32 <= 2 ^ B <= 2 ^ 64.
Proof. intros H. split; apply Z.pow_le_mono_r; lia. Qed.
Lemma ncount_step B w l k w' : 32 <= B <= 64 -> nstep B w (l, k) = Some w' -> ncount_ok B (w_st w) -> ncount_ok B (w_st w').
Proof.
  intros W E [A1 A2]. pose proof (width_range B W) as WR. destruct (load_of l) as [i|] eqn:L.
  - destruct (nstep_load _ _ _ _ _ _ L E) as (_ & s' & S & ->). destruct (step_count _ _ _ S) as (X1 & _ & X3 & X4 & _). cbn in X1, X3, X4 |- *.
    split; [apply X1; exact A1|]. assert (counts l = 0) by (destruct l; try discriminate L; reflexivity). cbn. lia.
  - destruct (overflows B w l) eqn:O.
    + destruct (overflow_state _ _ _ _ _ L O E) as (-> & _ & _). split; cbn; auto.
    + destruct (nstep_other _ _ _ _ _ L E) as [(X & _)|(_ & w1 & S & ->)]; [congruence|]. apply (wstep_other _ _ _ _ L) in S.
      destruct (step_count _ _ _ S) as (X1 & _ & X3 & X4 & _). split; cbn; [apply X1; exact A1|]. split; [lia|].
      unfold overflows in O. assert (C : counts l = 1 \/ counts l <= 0) by (destruct l; cbn; lia).
      destruct C as [C|C]; [|lia]. rewrite C in O. cbn [Z.eqb andb] in O. change (1 =? 1) with true in O. cbn [andb] in O. apply Z.eqb_neq in O. lia.
Qed.
Lemma ncount B h0 tr w : 32 <= B <= 64 -> nexec B (winit h0) tr = Some w -> ncount_ok B (w_st w).
Proof.
  intros W. revert w. induction tr as [|[l k] tr IH] using rev_ind; intros w E.
  - cbn in E. injection E as <-. pose proof (width_range B W). split; [apply Z.le_refl|cbn [w_st winit init s_count]; lia].
  - apply nexec_snoc in E. destruct E as (w1 & E1 & E2). apply (ncount_step B w1 l k w W E2 (IH _ E1)).
Qed.
(** without forgotten guards *)
Definition nexact_ok (B : Z) (st : state) : Prop :=
  s_count st = sumr counted (s_recs st) /\ (s_lock st = Poisoned -> 2 ^ B - 1 <= Z.of_nat (length (s_recs st))).
Lemma recs_grow st l st' : step st l = Some st' -> (length (s_recs st) <= length (s_recs st'))%nat.
Proof. intros S. destruct (recs_length _ _ _ S) as [->|[-> _]]; lia. Qed.
Lemma nexact_step B w l k w' : 32 <= B <= 64 -> nstep B w (l, k) = Some w' -> not_forget l -> ncount_ok B (w_st w) -> nexact_ok B (w_st w) -> nexact_ok B (w_st w').
Proof.
  intros W E NF CK [A1 A2]. pose proof (width_range B W) as WR. pose proof (counted_le (s_recs (w_st w))) as CL. unfold zlen in CL. destruct CK as [_ CK].
  destruct (load_of l) as [i|] eqn:L.
  - destruct (nstep_load _ _ _ _ _ _ L E) as (_ & s' & S & ->). destruct (step_count _ _ _ S) as (_ & X2 & _ & _ & X5). cbn in X2, X5 |- *.
    pose proof (recs_grow _ _ _ S) as G. cbn in G. split; [apply X2; auto|]. cbn. intros P. destruct (X5 P) as [X|[(X & [Y|Y])|X]]; [specialize (A2 X); lia|unfold usize_max, u64_max in *; lia|lia|lia].
  - destruct (overflows B w l) eqn:O.
    + destruct (overflow_state _ _ _ _ _ L O E) as (-> & _ & C). split; cbn; auto. intros _. lia.
    + destruct (nstep_other _ _ _ _ _ L E) as [(X & _)|(_ & w1 & S & ->)]; [congruence|]. apply (wstep_other _ _ _ _ L) in S.
      destruct (step_count _ _ _ S) as (_ & X2 & _ & _ & X5). cbn in X2, X5 |- *. pose proof (recs_grow _ _ _ S) as G.
      split; [apply X2; auto|]. cbn. intros P. destruct (X5 P) as [X|[(X & [Y|Y])|X]]; [specialize (A2 X); lia|unfold usize_max, u64_max in *; lia|lia|lia].
Qed.
Lemma nexact B h0 tr w : 32 <= B <= 64 -> Forall not_forget (acts tr) -> nexec B (winit h0) tr = Some w -> nexact_ok B (w_st w).
Proof.
  intros W. revert w. induction tr as [|[l k] tr IH] using rev_ind; intros w F E.
  - cbn in E. injection E as <-. split; [reflexivity|discriminate].
  - apply nexec_snoc in E. destruct E as (w1 & E1 & E2). rewrite acts_app in F. apply Forall_app in F. destruct F as [F1 F2]. inversion F2; subst.
    apply (nexact_step B w1 l k w W E2); auto. eapply ncount; eauto.
Qed.

(** the views, and the phase *)
Definition nviews (B : Z) (w : wstate) : Prop :=
  length (w_views w) = length (s_recs (w_st w)) /\ 0 <= w_lock w <= w_now w /\ (forall i, 0 <= view (w_views w) i <= w_now w) /\
  s_phase (w_st w) = phase_b B (w_now w).
Lemma view_bound lo hi vs i v j : (forall j, lo <= view vs j <= hi) -> lo <= v <= hi -> lo <= view (put_view vs i v) j <= hi.
Proof.
  intros V B. destruct (Nat.eq_dec i j) as [->|N]; [|rewrite view_other by auto; apply V].
  destruct (Nat.lt_ge_cases j (length vs)) as [L|L]; [rewrite view_same by auto; exact B|].
  unfold view. rewrite nth_overflow by (rewrite put_view_length; exact L). specialize (V j). unfold view in V. rewrite nth_overflow in V by exact L. exact V.
Qed.
Lemma add_bound lo hi vs n v j : (forall j, lo <= view vs j <= hi) -> lo <= v <= hi -> lo <= view (add_view vs n v) j <= hi.
Proof.
  intros V B. unfold add_view. destruct (length vs <? n)%nat; [|apply V]. unfold view in *. destruct (Nat.lt_ge_cases j (length vs)) as [L|L]; [rewrite app_nth1 by exact L; apply V|].
  rewrite app_nth2 by exact L. destruct (j - length vs)%nat as [|[|m]]; cbn; auto; specialize (V j); rewrite nth_overflow in V by exact L; exact V.
Qed.
Lemma add_view_len vs n v : (length vs <= n <= Datatypes.S (length vs))%nat -> length (add_view vs n v) = n.
Proof. intros L. unfold add_view. destruct (Nat.ltb_spec (length vs) n); [rewrite app_length; cbn; lia|lia]. Qed.
Lemma wviews_keep w l k w' : load_of l = None -> wstep w (l, k) = Some w' ->
  length (w_views w) = length (s_recs (w_st w)) -> 0 <= w_lock w <= w_now w -> (forall i, 0 <= view (w_views w) i <= w_now w) ->
  length (w_views w') = length (s_recs (w_st w')) /\ 0 <= w_lock w' <= w_now w' /\ (forall i, 0 <= view (w_views w') i <= w_now w') /\
  w_now w' = match l with RShift => w_now w + 1 | _ => w_now w end.
Proof.
  intros L E A1 A2 A3. pose proof (wstep_other _ _ _ _ L E) as S. pose proof (recs_length _ _ _ S) as RL.
  assert (RL2 : (forall i, l <> LClone i) -> l <> RRecorder -> length (s_recs (w_st w')) = length (s_recs (w_st w))).
  { intros N1 N2. destruct RL as [X|[_ [[i X]|X]]]; [exact X|destruct (N1 i X)|destruct (N2 X)]. }
  assert (RL3 : (length (s_recs (w_st w)) <= length (s_recs (w_st w')) <= Datatypes.S (length (s_recs (w_st w))))%nat) by (destruct RL as [->|[-> _]]; lia). clear RL.
  destruct l; try discriminate L; cbn [wstep] in E; rewrite S in E; injection E as E; rewrite <- E in RL2, RL3 |- *; cbn [w_st w_now w_views w_lock] in *;
    try (specialize (RL2 ltac:(discriminate) ltac:(discriminate))).
  all: try (match goal with i : nat |- _ => pose proof (A3 i) as A4 end).
  all: (split; [rewrite ?put_view_length, ?add_view_len; rewrite ?put_view_length; lia|]).
  all: (split; [lia|]).
  all: split; [|reflexivity].
  all: intros j; pose proof (A3 j) as A5; try lia; try (apply add_bound); intros; try (apply view_bound); auto; try lia.
Qed.
Lemma phase_mod B x : 32 <= B <= 64 -> phase_b B ((phase_b B x + 1) mod (usize_max + 1)) = phase_b B (x + 1).
Proof.
  intros W. unfold phase_b. pose proof (width_range B W). change (usize_max + 1) with (2 ^ 64).
  rewrite <- (Znumtheory.Zmod_div_mod (2 ^ B) (2 ^ 64)); [apply Z.add_mod_idemp_l; lia|lia|reflexivity|].
  exists (2 ^ (64 - B)). rewrite <- Z.pow_add_r by lia. f_equal. lia.
Qed.
Lemma nviews_step B w l k w' : 32 <= B <= 64 -> nstep B w (l, k) = Some w' -> nviews B w -> nviews B w'.
Proof.
  intros W E (A1 & A2 & A3 & A4). pose proof (width_range B W) as WR. destruct (load_of l) as [i|] eqn:L.
  - destruct (nstep_load _ _ _ _ _ _ L E) as (KB & s' & S & ->). pose proof (A3 i) as A5. unfold nviews. cbn [w_st w_now w_views w_lock].
    rewrite put_view_length. split; [|split; [|split]].
    + cbn. rewrite A1. destruct (recs_length _ _ _ S) as [X|[_ [[j X]|X]]]; [symmetry; exact X|subst l; discriminate L|subst l; discriminate L].
    + destruct l; lia.
    + intros j. apply view_bound; [exact A3|lia].
    + exact A4.
  - destruct (nstep_other _ _ _ _ _ L E) as [(O & w1 & S & ->)|(O & w1 & S & ->)]; pose proof (wstep_other _ _ _ _ L S) as S1; pose proof (proj2 (proj2 (bumps _ _ _ S1))) as PH;
      destruct (wviews_keep _ _ _ _ L S A1 A2 A3) as (V1 & V2 & V3 & V4); unfold nviews; cbn [at_count at_phase w_st w_now w_views w_lock].
    + split; [exact V1|]. split; [exact V2|]. split; [exact V3|]. unfold overflows in O. apply andb_true_iff in O. destruct O as [O _]. apply Z.eqb_eq in O.
      cbn in PH |- *. rewrite PH, V4. destruct l; cbn in O; try lia; exact A4.
    + split; [exact V1|]. split; [exact V2|]. split; [exact V3|]. cbn. rewrite PH, V4. rewrite A4.
      destruct l; try (unfold phase_b; apply Z.mod_mod; lia). apply phase_mod. exact W.
Qed.
Lemma nviews_run B h0 tr w : 32 <= B <= 64 -> nexec B (winit h0) tr = Some w -> nviews B w.
Proof.
  intros W. revert w. induction tr as [|[l k] tr IH] using rev_ind; intros w E.
  - cbn in E. injection E as <-. pose proof (width_range B W) as WR. split; [reflexivity|]. split; [cbn; lia|]. split; [intros [|i]; cbn; lia|]. unfold phase_b. cbn [w_st winit init s_phase w_now]. rewrite Z.mod_0_l by lia. reflexivity.
  - apply nexec_snoc in E. destruct E as (w1 & E1 & E2). apply (nviews_step B w1 l k w W E2 (IH _ E1)).
Qed.
(** a step of [step] that counts nothing can be made *)
Lemma step_nstep B w l s' : 32 <= B <= 64 -> nviews B w -> counts l = 0 -> step (w_st w) l = Some s' -> exists w', nstep B w (l, w_now w) = Some w'.
Proof.
  intros W (A1 & A2 & A3 & A4) C S. destruct (load_of l) as [i|] eqn:L.
  - destruct l; try discriminate L; injection L as ->; cbn [nstep]; pose proof (A3 i) as V;
      (destruct (Z.leb_spec (view (w_views w) i) (w_now w)); [|lia]); rewrite Z.leb_refl; cbn [andb]; rewrite <- A4, with_phase_id, S; eauto.
  - assert (O : overflows B w l = false) by (unfold overflows; rewrite C; reflexivity).
    destruct l; try discriminate L; cbn [nstep]; rewrite O; cbn [wstep]; rewrite S; eauto.
Qed.
(** where the two widths agree *)
Lemma nsame_step B w l k w' : 32 <= B <= 64 -> s_count (w_st w) < 2 ^ B - 1 -> w_now w' < 2 ^ B -> nviews B w -> nviews 64 w ->
  (nstep B w (l, k) = Some w' <-> wstep w (l, k) = Some w').
Proof.
  intros W C N (A1 & A2 & A3 & A4) (_ & _ & _ & A5). pose proof (width_range B W) as WR.
  destruct (load_of l) as [i|] eqn:L.
  - assert (PH : forall k, view (w_views w) i <= k <= w_now w -> w_now w < 2 ^ B -> phase_b B k = phase_at k).
    { intros k0 K NW. pose proof (A3 i). unfold phase_b, phase_at. change (usize_max + 1) with (2 ^ 64). rewrite !Z.mod_small by lia. reflexivity. }
    assert (EQ : w_now w = w_now w' -> nstep B w (l, k) = wstep w (l, k)).
    { intros NW. destruct l; try discriminate L; injection L as ->; cbn [nstep wstep];
        destruct (Z.leb_spec (view (w_views w) i) k); cbn [andb]; auto; destruct (Z.leb_spec k (w_now w)); cbn [andb]; auto; rewrite PH by lia; reflexivity. }
    split; intros E.
    + rewrite <- EQ; [exact E|]. destruct (nstep_load _ _ _ _ _ _ L E) as (_ & s' & _ & ->). reflexivity.
    + rewrite EQ; [exact E|]. destruct (wstep_load _ _ _ _ _ L E) as (_ & s' & _ & ->). reflexivity.
  - assert (O : overflows B w l = false) by (unfold overflows; destruct (Z.eqb_spec (s_count (w_st w)) (2 ^ B - 1)); [lia|apply andb_false_r]).
    assert (X : forall w1, wstep w (l, k) = Some w1 -> w_now w1 < 2 ^ B -> at_phase w1 (phase_b B (s_phase (w_st w1))) = w1).
    { intros w1 S NW. pose proof (wstep_other _ _ _ _ L S) as S1. pose proof (proj2 (proj2 (bumps _ _ _ S1))) as PH. destruct (wviews_keep _ _ _ _ L S A1 A2 A3) as (_ & V2 & _ & V4).
      assert (PP : s_phase (w_st w1) = w_now w1).
      { rewrite PH, A5. unfold phase_b. change (usize_max + 1) with (2 ^ 64). destruct l; rewrite ?Z.add_mod_idemp_l by lia; rewrite V4 in *; apply Z.mod_small; lia. }
      rewrite PP. unfold phase_b. rewrite Z.mod_small by lia. rewrite <- PP. destruct w1 as [[] ? ? ?]. reflexivity. }
    split; intros E.
    + destruct (nstep_other _ _ _ _ _ L E) as [(Y & _)|(_ & w1 & S & EW)]; [congruence|]. rewrite EW in N |- *. rewrite X; [exact S|exact S|exact N].
    + assert (Y : nstep B w (l, k) = match wstep w (l, k) with Some w' => Some (at_phase w' (phase_b B (s_phase (w_st w')))) | None => None end).
      { destruct l; try discriminate L; cbn [nstep]; rewrite O; reflexivity. }
      rewrite Y, E, (X _ E N). reflexivity.
Qed.
