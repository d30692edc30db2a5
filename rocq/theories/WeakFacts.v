(** * Invariants of the concurrent histogram under release/acquire memory *)
From Coq Require Import Permutation.
From Verif Require Import Machine HistModel Bins ListZ Cfg Wf Ops AddFacts SubFacts Exact MoreFacts HeldFacts PfRecord PfMerge Spec Reach SyncModel SyncSpec SyncOps SyncFacts SyncRefresh PfSync
  WeakModel WeakSpec.

(** ** Runs *)
Lemma wexec_app w a b : wexec w (a ++ b) = match wexec w a with Some w' => wexec w' b | None => None end.
Proof. revert w; induction a as [|l a IH]; intros w; cbn; auto. destruct (wstep w l); auto. Qed.
Lemma wexec_snoc w tr a w' : wexec w (tr ++ [a]) = Some w' -> exists w1, wexec w tr = Some w1 /\ wstep w1 a = Some w'.
Proof.
  rewrite wexec_app. destruct (wexec w tr) as [w1|]; [|discriminate]. cbn. intros E. exists w1. split; auto.
  destruct (wstep w1 a); congruence.
Qed.
Lemma wexec_cut w a l b w' : wexec w (a ++ l :: b) = Some w' ->
  exists w1 w2, wexec w a = Some w1 /\ wstep w1 l = Some w2 /\ wexec w2 b = Some w'.
Proof.
  rewrite wexec_app. destruct (wexec w a) as [w1|]; [|discriminate]. cbn [wexec]. destruct (wstep w1 l) as [w2|] eqn:S2; [|discriminate].
  intros E. exists w1, w2. auto.
Qed.
Lemma acts_app a b : acts (a ++ b) = acts a ++ acts b.
Proof. apply map_app. Qed.
Lemma walong_app P a b w w' : wexec w a = Some w' -> walong P w (a ++ b) -> walong P w a /\ walong P w' b.
Proof.
  revert w. induction a as [|l a IH]; intros w E A; cbn in *.
  - injection E as <-. auto.
  - destruct A as [A1 A2]. destruct (wstep w l) as [w1|]; [|discriminate]. destruct (IH w1 E A2). auto.
Qed.

(** ** One step *)
Definition load_of (l : label) : option nat :=
  match l with LLoad i | LIdleLoad i | LWakeEnd i => Some i | _ => None end.
Lemma is_load_of l : is_load l <-> exists i, load_of l = Some i.
Proof. destruct l; cbn; split; intros X; auto; try contradiction; try (eexists; reflexivity); destruct X; discriminate. Qed.
Lemma with_phase_id st : with_phase st (s_phase st) = st.
Proof. destruct st; reflexivity. Qed.
Lemma wstep_load w l k i w' : load_of l = Some i -> wstep w (l, k) = Some w' ->
  view (w_views w) i <= k <= w_now w /\
  exists s', step (with_phase (w_st w) (phase_at k)) l = Some s' /\
    w' = WState (with_phase s' (s_phase (w_st w))) (w_now w) (put_view (w_views w) i k)
           (match l with LWakeEnd _ => k | _ => w_lock w end).
Proof.
  intros L E. destruct l; try discriminate L; injection L as ->; cbn [wstep] in E;
    destruct (Z.leb_spec (view (w_views w) i) k); try discriminate E; destruct (Z.leb_spec k (w_now w)); try discriminate E; cbn [andb] in E;
    (split; [lia|]); match type of E with match ?x with _ => _ end = _ => destruct x as [s'|] eqn:S; [|discriminate E] end;
    injection E as <-; exists s'; auto.
Qed.
Lemma wstep_other w l k w' : load_of l = None -> wstep w (l, k) = Some w' -> step (w_st w) l = Some (w_st w').
Proof.
  intros L E. destruct l; try discriminate L; cbn [wstep] in E;
    (match type of E with match ?x with _ => _ end = _ => destruct x as [s'|] eqn:S; [|discriminate E] end); injection E as <-; reflexivity.
Qed.
(** every invariant of [step] that does not mention the phase is one of [wstep] *)
Lemma wstep_lift (I : state -> Prop) w l k w' :
  (forall s s', I s -> step s l = Some s' -> I s') -> (forall s p, I s -> I (with_phase s p)) ->
  I (w_st w) -> wstep w (l, k) = Some w' -> I (w_st w').
Proof.
  intros H P I0 E. destruct (load_of l) as [i|] eqn:L.
  - destruct (wstep_load _ _ _ _ _ L E) as (_ & s' & S & ->). cbn. apply P. apply (H _ _ (P _ _ I0) S).
  - apply (H _ _ I0 (wstep_other _ _ _ _ L E)).
Qed.
Lemma wexec_lift (I : state -> Prop) (Q : label -> Prop) w tr w' :
  (forall s l s', I s -> Q l -> step s l = Some s' -> I s') -> (forall s p, I s -> I (with_phase s p)) ->
  I (w_st w) -> Forall Q (acts tr) -> wexec w tr = Some w' -> I (w_st w').
Proof.
  intros H P. revert w. induction tr as [|[l k] tr IH]; intros w I0 F E; cbn [wexec] in E; [injection E as <-; exact I0|].
  inversion F; subst. destruct (wstep w (l, k)) as [w1|] eqn:S; [|discriminate]. apply (IH w1); auto.
  apply (wstep_lift I w l k w1); auto. intros s s' I1 S1. apply (H s l s'); auto.
Qed.
Lemma all_true {A} (l : list A) : Forall (fun _ => True) l.
Proof. apply Forall_forall. auto. Qed.

(** ** The invariants of [SyncFacts] *)
Lemma wboxes (P Pm : box -> Prop) (Q : label -> Prop) h0 tr w :
  (forall b i o h ok n, P b -> Q (LWrite i o) -> apply_op (b_hist b) o = Ret (h, ok) -> P (Box h (b_log b ++ [Call n i o ok]))) ->
  (forall b n, P b -> new_from (h_ctr (b_hist b)) (b_hist b) = Ret n -> P (Box n [])) ->
  (forall b n, Pm b -> new_from (h_ctr (b_hist b)) (b_hist b) = Ret n -> P (Box n [])) ->
  (forall m b m', Pm m -> P b -> merge m b = Some m' -> Pm m') -> (forall h, Q (RSet h) -> Pm (Box h [])) ->
  Pm (Box h0 []) -> Forall Q (acts tr) -> wexec (winit h0) tr = Some w -> boxes_ok P Pm (w_st w).
Proof.
  intros A1 A2 A3 A4 A5 B F E. apply (wexec_lift (boxes_ok P Pm) Q (winit h0) tr w); auto.
  - intros s l s' B1 QL S. eapply boxes_step; eauto.
  - split; [exact B|split; constructor].
Qed.
Lemma wlock_ok h0 tr w : wexec (winit h0) tr = Some w -> lock_ok (w_st w).
Proof.
  intros E. apply (wexec_lift lock_ok (fun _ => True) (winit h0) tr w); auto using all_true.
  - intros s l s' I _ S. eapply lock_step; eauto.
  - split; cbn; [intros [|]; discriminate|discriminate].
Qed.
Lemma wcount_ok h0 tr w : Forall not_forget (acts tr) -> wexec (winit h0) tr = Some w -> count_ok (w_st w).
Proof.
  intros F E. apply (wexec_lift count_ok not_forget (winit h0) tr w); auto.
  - intros s l s' I Q S. eapply count_step; eauto.
  - split; [reflexivity|discriminate].
Qed.
Lemma wplaced h0 tr w : Forall not_set (acts tr) -> wexec (winit h0) tr = Some w -> placed (w_st w).
Proof.
  intros F E. apply (wexec_lift placed not_set (winit h0) tr w); auto.
  - intros s l s' I Q S. eapply placed_step; eauto.
  - intros _. apply Permutation_refl.
Qed.
Lemma wown h0 tr w : wexec (winit h0) tr = Some w -> own (w_st w).
Proof.
  intros E. apply (wexec_lift own (fun _ => True) (winit h0) tr w); auto using all_true.
  - intros s l s' I _ S. eapply own_step; eauto.
  - intros [|i] r c X; discriminate.
Qed.
Lemma wgone h0 tr w : wexec (winit h0) tr = Some w -> gone_empty (w_st w).
Proof.
  intros E. apply (wexec_lift gone_empty (fun _ => True) (winit h0) tr w); auto using all_true.
  - intros s l s' I _ S. eapply gone_step; eauto.
  - intros x [].
Qed.
Lemma whistory_step w l k w' : wstep w (l, k) = Some w' ->
  (s_history (w_st w') = s_history (w_st w) /\ writes [l] = []) \/
  (exists i o ok, l = LWrite i o /\ s_history (w_st w') = s_history (w_st w) ++ [Call (length (s_history (w_st w))) i o ok]).
Proof.
  intros E. destruct (load_of l) as [i|] eqn:L.
  - destruct (wstep_load _ _ _ _ _ L E) as (_ & s' & S & ->). cbn. apply history_step in S. exact S.
  - apply (history_step _ _ _ (wstep_other _ _ _ _ L E)).
Qed.
Lemma whistory h0 tr w : wexec (winit h0) tr = Some w ->
  map c_id (s_history (w_st w)) = seq 0 (length (s_history (w_st w))) /\
  map (fun c => (c_rec c, c_op c)) (s_history (w_st w)) = writes (acts tr).
Proof.
  revert w. induction tr as [|[l k] tr IH] using rev_ind; intros w E.
  - cbn in E. injection E as <-. auto.
  - apply wexec_snoc in E. destruct E as (w1 & E1 & E2). destruct (IH _ E1) as [H1 H2]. rewrite acts_app.
    unfold writes. rewrite flat_map_app. fold (writes (acts tr)) (writes [l]). cbn [acts map fst]. fold (writes [l]).
    destruct (whistory_step _ _ _ _ E2) as [(-> & ->)|(i & o & ok & -> & ->)].
    + rewrite app_nil_r. auto.
    + rewrite !map_app, app_length, seq_app, H1, H2. auto.
Qed.
Lemma whistory_kept tr : forall w w' c, wexec w tr = Some w' -> In c (s_history (w_st w)) -> In c (s_history (w_st w')).
Proof.
  induction tr as [|[l k] tr IH]; intros w w' c E I; cbn [wexec] in E; [injection E as <-; exact I|].
  destruct (wstep w (l, k)) as [w1|] eqn:S1; [|discriminate]. apply (IH w1 w' c E).
  destruct (whistory_step _ _ _ _ S1) as [(-> & _)|(i & o & ok & _ & ->)]; [exact I|apply in_app_iff; auto].
Qed.

(** ** Views *)
Lemma view_same vs i v : (i < length vs)%nat -> view (put_view vs i v) i = v.
Proof. revert i; induction vs as [|x vs IH]; intros [|i] L; cbn in *; try lia; auto. apply IH. lia. Qed.
Lemma view_other vs i j v : i <> j -> view (put_view vs i v) j = view vs j.
Proof. revert i j; induction vs as [|x vs IH]; intros [|i] [|j] N; cbn; auto; try congruence. apply IH. congruence. Qed.
Lemma put_view_length vs i v : length (put_view vs i v) = length vs.
Proof. revert i; induction vs; intros [|i]; cbn; auto. Qed.
Lemma view_app vs v i : (i < length vs)%nat -> view (vs ++ [v]) i = view vs i.
Proof. intros L. unfold view. apply app_nth1. exact L. Qed.
Lemma view_last vs v : view (vs ++ [v]) (length vs) = v.
Proof. unfold view. rewrite app_nth2, Nat.sub_diag by lia. reflexivity. Qed.

Lemma recs_length st l st' : step st l = Some st' ->
  length (s_recs st') = length (s_recs st) \/
  (length (s_recs st') = Datatypes.S (length (s_recs st)) /\ ((exists i, l = LClone i) \/ l = RRecorder)).
Proof.
  intros E. assert (SR : forall s b, s_recs (send s b) = s_recs s) by (intros; apply send_fields).
  destruct l; step_cases E; cbn; rewrite ?SR; cbn; rewrite ?put_length; auto;
    try (destruct (receive_fields _ _ _ E) as (-> & _); auto; fail);
    apply push_inv in E; destruct E as (n & _ & ->); cbn; rewrite app_length; cbn; right; (split; [lia|eauto]).
Qed.
Lemma enters st l st' j r' : step st l = Some st' -> nth_error (s_recs st') j = Some r' -> in_section r' = true ->
  (exists r, nth_error (s_recs st) j = Some r /\ in_section r = true) \/ l = LIdle j \/ l = LWake j \/ l = LDrop j.
Proof.
  intros E J I. assert (SR : forall s b, s_recs (send s b) = s_recs s) by (intros; apply send_fields).
  destruct l; step_cases E; try (left; exists r'; split; [exact J|exact I]);
    try (destruct (receive_fields _ _ _ E) as (X & _); rewrite X in J; left; eauto; fail);
    try (apply push_inv in E; destruct E as (n & _ & ->); cbn in J; apply app_cases in J; destruct J as [(-> & ->)|J]; [discriminate I|left; eauto]);
    cbn in J; rewrite ?SR in J; cbn in J; apply put_cases in J; destruct J as [(-> & ->)|(NE & J)]; try discriminate I; eauto;
    left; eexists; (split; [eassumption|reflexivity]).
Qed.
Lemma releases st l st' : step st l = Some st' ->
  match l with LIdleEnd _ | LDropEnd _ | LWakeEnd _ | LClone _ | RRead | RRecorder => forall j, s_lock st' <> Held j | _ => True end.
Proof.
  intros E. assert (SL : forall s b, s_lock (send s b) = s_lock s) by (intros; apply send_fields).
  destruct l; auto; step_cases E; cbn; rewrite ?SL; cbn; try discriminate; try congruence;
    apply push_inv in E; destruct E as (n & _ & ->); cbn; discriminate.
Qed.
Lemma ends_in st l st' : step st l = Some st' ->
  match l with
  | LIdleEnd i | LDropEnd i | LWakeEnd i => exists r, nth_error (s_recs st) i = Some r /\ in_section r = true
  | LClone i | LIdle i | LWake i | LDrop i | LLoad i | LIdleLoad i => exists r, nth_error (s_recs st) i = Some r
  | _ => True end.
Proof. intros E. destruct l; auto; step_cases E; eexists; reflexivity || (split; reflexivity). Qed.
Lemma bumps st l st' : step st l = Some st' ->
  (in_window st' -> in_window st \/ l = RRead) /\ (l = RShift -> in_window st) /\
  s_phase st' = match l with RShift => (s_phase st + 1) mod (usize_max + 1) | _ => s_phase st end.
Proof.
  intros E. assert (SP : forall s b, s_phase (send s b) = s_phase s) by (intros; apply send_fields).
  unfold in_window in *. destruct l; step_cases E; cbn [put_rec put_lock put_reader put_merged put_chan s_reader s_phase s_recs]; rewrite ?send_reader, ?SP; cbn [put_lock s_reader s_phase];
    try (apply push_inv in E; destruct E as (m & _ & ->); cbn [put_lock s_reader s_phase s_recs]);
    try (apply receive_inv in E; destruct E as (b & q & Q & [(m & M & ->)|(M & ->)]); cbn [put_reader put_merged put_chan s_reader s_phase]);
    (split; [|split; [|reflexivity]]); try discriminate; try (intros (t0 & n0 & X); congruence); eauto.
Qed.

(** what the mutex knows: all moves of the phase, except possibly the last one if no [refresh] has counted
    the recorders since *)
Definition known (w : wstate) : Z := match s_reader (w_st w) with RBump _ _ => w_now w | _ => w_now w - 1 end.
Record views_ok (w : wstate) : Prop := {
  vo_length : length (w_views w) = length (s_recs (w_st w));
  vo_phase : s_phase (w_st w) = phase_at (w_now w);
  vo_lock : 0 <= w_lock w <= w_now w;
  vo_view : forall i, (i < length (w_views w))%nat -> 0 <= view (w_views w) i <= w_now w;
  vo_known : known w <= w_lock w;
  vo_section : forall i r, nth_error (s_recs (w_st w)) i = Some r -> in_section r = true -> w_lock w <= view (w_views w) i }.
Lemma known_step st l st' now : step st l = Some st' -> l <> RRead ->
  match s_reader st' with RBump _ _ => match l with RShift => now + 1 | _ => now end | _ => (match l with RShift => now + 1 | _ => now end) - 1 end
    <= match s_reader st with RBump _ _ => now | _ => now - 1 end.
Proof.
  intros E N. destruct (bumps _ _ _ E) as (A & B & _). unfold in_window in *.
  destruct (s_reader st') eqn:R'; destruct (s_reader st) eqn:R; try (destruct l; try lia; exfalso; destruct (B eq_refl) as (t & m & X); discriminate X).
  all: try (exfalso; destruct A as [(t & m & X)|X]; [eauto|discriminate X|contradiction]).
  all: destruct l; try lia; exfalso; cbn in E; rewrite R in E; injection E as <-; discriminate R'.
Qed.
Lemma views_step w l k w' : views_ok w -> lock_ok (w_st w) -> wstep w (l, k) = Some w' -> views_ok w'.
Proof.
  intros V LK E. destruct V as [VL VP VK VV VN VS].
  assert (LT : forall i r, nth_error (s_recs (w_st w)) i = Some r -> (i < length (w_views w))%nat) by (intros i r J; rewrite VL; eapply nth_lt; eauto).
  assert (NOSEC : forall st', lock_ok st' -> (forall j, s_lock st' <> Held j) -> forall j r, nth_error (s_recs st') j = Some r -> in_section r = true -> False).
  { intros st' [LO _] N j r J I. apply (N j). apply (LO j r J). unfold in_section in I. unfold critical. destruct (r_pc r); auto. }
  assert (VW : forall i v j, (i < length (w_views w))%nat -> 0 <= v <= w_now w -> (j < length (put_view (w_views w) i v))%nat ->
     0 <= view (put_view (w_views w) i v) j <= w_now w).
  { intros i v j LI LV LJ. rewrite put_view_length in LJ. destruct (Nat.eq_dec i j) as [->|NE]; [rewrite view_same by auto; lia|rewrite view_other by auto; auto]. }
  assert (MONO : forall i v j, view (w_views w) i <= v -> (i < length (w_views w))%nat -> view (w_views w) j <= view (put_view (w_views w) i v) j).
  { intros i v j LV LI. destruct (Nat.eq_dec i j) as [->|NE]; [rewrite view_same by auto; lia|rewrite view_other by auto; lia]. }
  destruct (load_of l) as [i|] eqn:L.
  - destruct (wstep_load _ _ _ _ _ L E) as (KB & s' & S & ->). clear E.
    pose proof (known_step _ _ _ (w_now w) S ltac:(intros ->; discriminate L)) as KN.
    pose proof (lock_step _ _ _ (LK : lock_ok (with_phase (w_st w) (phase_at k))) S) as LK'.
    destruct (recs_length _ _ _ S) as [RL|[_ [[j ->]| ->]]]; try discriminate L. cbn [with_phase s_recs] in RL.
    assert (LI : (i < length (w_views w))%nat).
    { pose proof (ends_in _ _ _ S) as X. destruct l; try discriminate L; injection L as ->; destruct X as (r & X); (apply (LT _ _ X) || apply (LT _ _ (proj1 X))). }
    assert (KN' : known {| w_st := with_phase s' (s_phase (w_st w)); w_now := w_now w; w_views := put_view (w_views w) i k;
                   w_lock := match l with LWakeEnd _ => k | _ => w_lock w end |} <= known w).
    { unfold known. cbn. destruct l; try discriminate L; exact KN. }
    pose proof (VV i LI) as VI.
    split; cbn [w_st w_now w_views w_lock with_phase s_recs s_phase].
    + rewrite put_view_length. congruence.
    + exact VP.
    + destruct l; lia.
    + intros j LJ. apply VW; auto. lia.
    + destruct l; try discriminate L; try lia. injection L as ->.
      destruct (ends_in _ _ _ S) as (r & J & I). pose proof (VS i r J I). lia.
    + intros j r J I.
      assert (X : w_lock w <= view (put_view (w_views w) i k) j).
      { destruct (enters _ _ _ _ _ S J I) as [(r0 & J0 & I0)|[->|[->| ->]]]; try discriminate L.
        pose proof (VS j r0 J0 I0). pose proof (MONO i k j ltac:(lia) LI). lia. }
      destruct l; auto. exfalso. apply (NOSEC s' LK' (releases _ _ _ S) j r J I).
  - assert (NL : forall i, load_of l <> Some i) by (rewrite L; discriminate).
    pose proof (wstep_other _ _ _ _ L E) as S.
    pose proof (lock_step _ _ _ LK S) as LK'. pose proof (ends_in _ _ _ S) as EI. pose proof (releases _ _ _ S) as RE.
    destruct (bumps _ _ _ S) as (_ & BW & BP).
    assert (KN : l <> RRead -> known w' <= known w).
    { intros N. pose proof (known_step _ _ _ (w_now w) S N) as X. unfold known. destruct l; try discriminate L; try contradiction; cbn [wstep] in E; rewrite S in E;
        injection E as <-; cbn [w_st w_now w_views w_lock] in *; exact X. }
    assert (SEC : forall j r, nth_error (s_recs (w_st w')) j = Some r -> in_section r = true ->
       w_lock w <= view (w_views w) j \/ l = LIdle j \/ l = LWake j \/ l = LDrop j).
    { intros j r J I. destruct (enters _ _ _ _ _ S J I) as [(r0 & J0 & I0)|X]; [left; eapply VS; eauto|right; exact X]. }
    pose proof (NOSEC (w_st w') LK') as NS.
    pose proof (recs_length _ _ _ S) as RL.
    (* acquiring *)
    assert (ACQ : forall i r, nth_error (s_recs (w_st w)) i = Some r -> l = LIdle i \/ l = LWake i \/ l = LDrop i ->
       w' = WState (w_st w') (w_now w) (put_view (w_views w) i (Z.max (view (w_views w) i) (w_lock w))) (w_lock w) -> views_ok w').
    { intros i r J LL EQ. specialize (LT i r J). pose proof (VV i LT) as VI.
      assert (NR : l <> RRead) by (destruct LL as [->|[->| ->]]; discriminate). specialize (KN NR). rewrite EQ in KN. rewrite EQ.
      split; cbn [w_st w_now w_views w_lock].
      - rewrite put_view_length. destruct RL as [RL|[_ [[j ->]| ->]]]; [congruence| |]; destruct LL as [X|[X|X]]; discriminate X.
      - rewrite BP. destruct LL as [->|[->| ->]]; exact VP.
      - lia.
      - intros j LJ. apply VW; auto. lia.
      - lia.
      - intros j x JJ IJ. destruct (SEC j x JJ IJ) as [X|X].
        + pose proof (MONO i (Z.max (view (w_views w) i) (w_lock w)) j ltac:(lia) LT). lia.
        + assert (j = i) by (destruct LL as [->|[->| ->]]; destruct X as [X|[X|X]]; congruence). subst j. rewrite view_same by auto. lia. }
    (* releasing *)
    assert (REL : forall i r, nth_error (s_recs (w_st w)) i = Some r -> in_section r = true -> l = LIdleEnd i \/ l = LDropEnd i ->
       w' = WState (w_st w') (w_now w) (w_views w) (view (w_views w) i) -> views_ok w').
    { intros i r J I LL EQ. pose proof (VS i r J I) as VI. specialize (LT i r J). pose proof (VV i LT) as VB.
      assert (NR : l <> RRead) by (destruct LL as [->| ->]; discriminate). specialize (KN NR). rewrite EQ in KN. rewrite EQ.
      assert (RE' : forall j, s_lock (w_st w') <> Held j) by (destruct LL as [->| ->]; exact RE).
      split; cbn [w_st w_now w_views w_lock].
      - destruct RL as [RL|[_ [[j ->]| ->]]]; [congruence| |]; destruct LL as [X|X]; discriminate X.
      - rewrite BP. destruct LL as [->| ->]; exact VP.
      - lia.
      - exact VV.
      - lia.
      - intros j x JJ IJ. destruct (NS RE' j x JJ IJ). }
    (* nothing about views *)
    assert (SAME : w' = WState (w_st w') (w_now w) (w_views w) (w_lock w) -> l <> RRead -> l <> RShift -> (forall i, l <> LClone i) -> l <> RRecorder ->
       (forall i, l <> LIdle i /\ l <> LWake i /\ l <> LDrop i) -> views_ok w').
    { intros EQ NR NSH NC NRR NA. specialize (KN NR). rewrite EQ in KN. rewrite EQ. split; cbn [w_st w_now w_views w_lock].
      - destruct RL as [RL|[_ [[j ->]| ->]]]; [congruence| |congruence]. destruct (NC j eq_refl).
      - rewrite BP. destruct l; try exact VP. congruence.
      - lia.
      - exact VV.
      - lia.
      - intros j x JJ IJ. destruct (SEC j x JJ IJ) as [X|X]; [lia|]. destruct (NA j) as (A1 & A2 & A3). destruct X as [X|[X|X]]; contradiction. }
    (* new recorders *)
    assert (NEW : forall vs v, length vs = length (w_views w) -> (forall i, (i < length vs)%nat -> 0 <= view vs i <= w_now w) -> w_lock w <= v <= w_now w ->
       l <> RRead -> l <> RShift -> (forall j, s_lock (w_st w') <> Held j) ->
       w' = WState (w_st w') (w_now w) (add_view vs (length (s_recs (w_st w'))) v) v -> views_ok w').
    { intros vs v LV HV VB NR NSH RE' EQ. specialize (KN NR). rewrite EQ in KN. rewrite EQ.
      assert (LA : length (add_view vs (length (s_recs (w_st w'))) v) = length (s_recs (w_st w')) /\
                   forall i, (i < length (add_view vs (length (s_recs (w_st w'))) v))%nat -> 0 <= view (add_view vs (length (s_recs (w_st w'))) v) i <= w_now w).
      { unfold add_view. destruct (Nat.ltb_spec (length vs) (length (s_recs (w_st w')))) as [LL|LL].
        - destruct RL as [RL|[RL _]]; [lia|]. rewrite app_length. cbn. split; [lia|]. intros i LI.
          destruct (Nat.eq_dec i (length vs)) as [->|NE]; [rewrite view_last; lia|rewrite view_app by lia; apply HV; lia].
        - split; [destruct RL as [RL|[RL _]]; lia|exact HV]. }
      destruct LA as [LA1 LA2]. split; cbn [w_st w_now w_views w_lock].
      - exact LA1.
      - rewrite BP. destruct l; try exact VP. congruence.
      - lia.
      - exact LA2.
      - lia.
      - intros j x JJ IJ. destruct (NS RE' j x JJ IJ). }
    destruct l; try discriminate L; cbn [wstep] in E; rewrite S in E; injection E as E;
      assert (E' := E); apply (f_equal w_st) in E'; cbn [w_st] in E';
      try (apply SAME; [rewrite <- E; reflexivity|discriminate..|intros; repeat split; discriminate]).
    + (* LClone *)
      destruct EI as (r & J). pose proof (LT i r J) as LI. pose proof (VV i LI) as VI.
      apply (NEW (put_view (w_views w) i (Z.max (view (w_views w) i) (w_lock w))) (Z.max (view (w_views w) i) (w_lock w))); auto; try discriminate.
      * apply put_view_length.
      * intros j LJ. apply VW; auto; lia.
      * lia.
    + destruct EI as (r & J). apply (ACQ i r J); auto; rewrite <- E; reflexivity.
    + destruct EI as (r & J & I). apply (REL i r J I); auto; rewrite <- E; reflexivity.
    + destruct EI as (r & J). apply (ACQ i r J); auto; rewrite <- E; reflexivity.
    + destruct EI as (r & J). apply (ACQ i r J); auto; rewrite <- E; reflexivity.
    + destruct EI as (r & J & I). apply (REL i r J I); auto; rewrite <- E; reflexivity.
    + (* RRead *)
      rewrite <- E in *. cbn [w_st] in *. split; cbn [w_st w_now w_views w_lock].
      * destruct RL as [RL|[_ [[j X]|X]]]; congruence.
      * rewrite BP. exact VP.
      * lia.
      * exact VV.
      * unfold known. cbn. destruct (s_reader _); lia.
      * intros j x JJ IJ. destruct (NS RE j x JJ IJ).
    + (* RShift *)
      rewrite <- E in *. cbn [w_st] in *. specialize (KN ltac:(discriminate)). split; cbn [w_st w_now w_views w_lock].
      * destruct RL as [RL|[_ [[j X]|X]]]; congruence.
      * rewrite BP, VP. unfold phase_at. rewrite Zplus_mod_idemp_l. reflexivity.
      * lia.
      * intros j LJ. specialize (VV j LJ). lia.
      * lia.
      * intros j x JJ IJ. destruct (SEC j x JJ IJ) as [X|[X|[X|X]]]; try discriminate X. exact X.
    + (* RRecorder *)
      apply (NEW (w_views w) (w_now w)); auto; try discriminate. lia.
Qed.
Lemma wviews_ok h0 tr w : wexec (winit h0) tr = Some w -> views_ok w.
Proof.
  revert w. induction tr as [|[l k] tr IH] using rev_ind; intros w E.
  - cbn in E. injection E as <-. split; cbn; try lia; auto; try (intros; lia). intros [|i] r X; discriminate X.
  - apply wexec_snoc in E. destruct E as (w1 & E1 & E2). eapply views_step; eauto. eapply wlock_ok; eauto.
Qed.
Lemma now_step w l k w' : wstep w (l, k) = Some w' -> w_now w' = w_now w + shifts [l].
Proof.
  intros E. destruct (load_of l) as [i|] eqn:L.
  - destruct (wstep_load _ _ _ _ _ L E) as (_ & s' & _ & ->). destruct l; try discriminate L; cbn; lia.
  - pose proof (wstep_other _ _ _ _ L E) as S. destruct l; try discriminate L; cbn [wstep] in E; rewrite S in E; injection E as <-; cbn; lia.
Qed.
Lemma wnow h0 tr w : wexec (winit h0) tr = Some w -> w_now w = shifts (acts tr).
Proof.
  revert w. induction tr as [|[l k] tr IH] using rev_ind; intros w E.
  - cbn in E. injection E as <-. reflexivity.
  - apply wexec_snoc in E. destruct E as (w1 & E1 & E2). rewrite acts_app, shifts_app, <- (IH w1 E1). apply (now_step _ _ _ _ E2).
Qed.
Lemma now_mono tr : forall w w', wexec w tr = Some w' -> w_now w' = w_now w + shifts (acts tr).
Proof.
  induction tr as [|[l k] tr IH]; intros w w' E; cbn [wexec] in E; [injection E as <-; cbn; lia|].
  destruct (wstep w (l, k)) as [w1|] eqn:S1; [|discriminate]. rewrite (IH _ _ E), (now_step _ _ _ _ S1).
  change (acts ((l, k) :: tr)) with ([l] ++ acts tr). rewrite shifts_app. lia.
Qed.
Lemma phase_small k : 0 <= k <= usize_max -> phase_at k = k.
Proof. intros H. unfold phase_at. apply Z.mod_small. lia. Qed.

(** ** What the recorders have seen is in their views *)
Definition le_view (v : Z) (r : recorder) : Prop :=
  r_phase r <= v /\ match r_pc r with PLoaded q | PIdlingLoaded q => r_phase r <= q <= v | _ => True end.
Definition vphases (w : wstate) : Prop := forall i r, nth_error (s_recs (w_st w)) i = Some r -> le_view (view (w_views w) i) r.
Lemma le_view_mono v v' r : le_view v r -> v <= v' -> le_view v' r.
Proof. unfold le_view. intros [A B] L. split; [lia|]. destruct (r_pc r); auto; lia. Qed.

(** what becomes of recorder [j] *)
Lemma step_phase st l st' j r' : step st l = Some st' -> nth_error (s_recs st') j = Some r' -> load_of l = None ->
  (exists r, nth_error (s_recs st) j = Some r /\ forall v, le_view v r -> le_view v r') \/
  (j = length (s_recs st) /\ length (s_recs st') = Datatypes.S (length (s_recs st)) /\ r_pc r' = PReady /\
   ((l = RRecorder /\ r_phase r' = s_phase st) \/
    (exists i r, l = LClone i /\ nth_error (s_recs st) i = Some r /\ r_phase r' = r_phase r))).
Proof.
  intros E J NL.
  assert (SR : forall s b, s_recs (send s b) = s_recs s) by (intros; apply send_fields).
  assert (PUT : forall i x y, nth_error (s_recs st) i = Some x -> nth_error (put (s_recs st) i y) j = Some r' -> (forall v, le_view v x -> le_view v y) ->
     (exists r, nth_error (s_recs st) j = Some r /\ forall v, le_view v r -> le_view v r')).
  { intros i x y K N H. apply put_cases in N. destruct N as [(-> & ->)|(NE & N)]; [exists x|exists r']; auto. }
  destruct l; try discriminate NL; step_cases E; try (left; exists r'; split; [exact J|auto]; fail);
    try (destruct (receive_fields _ _ _ E) as (X & _); rewrite X in J; left; eauto; fail);
    try (apply push_inv in E; destruct E as (n & _ & ->); cbn in J; apply app_cases in J; destruct J as [(-> & ->)|J]; [right|left; eauto];
         split; [reflexivity|]; split; [cbn; rewrite app_length; cbn; lia|]; split; [reflexivity|]; auto; right; do 2 eexists; split; [reflexivity|]; split; [eassumption|reflexivity]; fail).
  all: try (cbn in J; rewrite ?SR in J; cbn in J; match goal with K : nth_error _ ?i = Some ?x |- _ => left; apply (PUT i x _ K J); unfold le_view; cbn; intros v [A B]; split; auto; try lia; split; lia end).
  apply push_inv in E; destruct E as (n & _ & ->); cbn in J; apply app_cases in J; destruct J as [(-> & ->)|J]; [right|left; eauto].
  split; [reflexivity|]; split; [cbn; rewrite app_length; cbn; lia|]; split; [reflexivity|]. left. split; reflexivity.
Qed.
Lemma vphases_step w l k w' : vphases w -> views_ok w -> w_now w <= usize_max -> wstep w (l, k) = Some w' -> vphases w'.
Proof.
  intros VP V W E j r' J.
  assert (LT : forall i r, nth_error (s_recs (w_st w)) i = Some r -> (i < length (w_views w))%nat) by (intros i r X; rewrite (vo_length _ V); eapply nth_lt; eauto).
  destruct (load_of l) as [i|] eqn:L.
  - destruct (wstep_load _ _ _ _ _ L E) as (KB & s' & S & ->). cbn [w_st w_views with_phase s_recs] in *.
    assert (PUT : forall x y, nth_error (s_recs (w_st w)) i = Some x -> s_recs s' = put (s_recs (w_st w)) i y ->
              (0 <= k <= usize_max -> le_view (view (w_views w) i) x -> le_view k y) -> le_view (view (put_view (w_views w) i k) j) r').
    { intros x y K EQ H. specialize (LT i x K). pose proof (vo_view _ V i LT). rewrite EQ in J. apply put_cases in J. destruct J as [(-> & ->)|(NE & J)].
      - rewrite view_same by auto. apply H; [lia|]. apply (VP i x K).
      - rewrite view_other by auto. apply (VP j r' J). }
    destruct l; try discriminate L; injection L as ->; unfold step in S; cbn [with_phase s_recs s_phase] in S;
      destruct (nth_error (s_recs (w_st w)) i) as [[b p pc]|] eqn:K; try discriminate S; destruct pc; try discriminate S; injection S as <-;
      apply (PUT _ _ eq_refl eq_refl); unfold le_view; cbn; intros B [A _]; rewrite ?phase_small by lia; repeat split; lia.
  - pose proof (wstep_other _ _ _ _ L E) as S.
    assert (MONO : forall r, nth_error (s_recs (w_st w)) j = Some r -> view (w_views w) j <= view (w_views w') j).
    { intros r X. specialize (LT j r X).
      assert (PV : forall i v, view (w_views w) i <= v -> view (w_views w) j <= view (put_view (w_views w) i v) j).
      { intros i v H. destruct (Nat.eq_dec i j) as [->|NE]; [rewrite view_same by auto; lia|rewrite view_other by auto; lia]. }
      assert (AV : forall vs n v, length vs = length (w_views w) -> view (add_view vs n v) j = view vs j).
      { intros vs n v H. unfold add_view. destruct (_ <? _)%nat; [|reflexivity]. apply view_app. lia. }
      destruct l; try discriminate L; cbn [wstep] in E; rewrite S in E; injection E as <-; cbn [w_views]; try lia; try (apply PV; lia).
      - rewrite AV by (apply put_view_length). apply PV. lia.
      - rewrite AV by reflexivity. lia. }
    destruct (step_phase _ _ _ _ _ S J L) as [(r & X1 & X2)|(EJ & LEN & PC & X)].
    + apply (le_view_mono _ _ _ (X2 _ (VP j r X1))). eapply MONO; eauto.
    + unfold le_view. rewrite PC. split; [|exact I]. subst j.
      assert (AV : forall vs v, length vs = length (w_views w) -> view (add_view vs (length (s_recs (w_st w'))) v) (length (s_recs (w_st w))) = v).
      { intros vs v H. unfold add_view. rewrite (vo_length _ V) in H. rewrite (proj2 (Nat.ltb_lt (length vs) _)) by lia. rewrite <- H. apply view_last. }
      pose proof (vo_lock _ V) as VL.
      destruct X as [(-> & X)|(i & r & -> & X1 & X2)]; cbn [wstep] in E; rewrite S in E; injection E as E; rewrite <- E; cbn [w_views].
      * rewrite X, (vo_phase _ V), phase_small by lia. rewrite AV by reflexivity. lia.
      * rewrite X2. rewrite AV by (apply put_view_length). pose proof (VP i r X1) as [A _]. lia.
Qed.
Lemma wvphases h0 tr w : wexec (winit h0) tr = Some w -> shifts (acts tr) <= usize_max -> vphases w.
Proof.
  revert w. induction tr as [|[l k] tr IH] using rev_ind; intros w E S.
  - cbn in E. injection E as <-. intros [|i] r X; discriminate X.
  - apply wexec_snoc in E. destruct E as (w1 & E1 & E2). rewrite acts_app, shifts_app in S. pose proof (shifts_nonneg (acts [(l, k)])).
    eapply vphases_step; eauto; [apply IH; auto; lia|eapply wviews_ok; eauto|]. rewrite (wnow _ _ _ E1). lia.
Qed.

(** ** Up-to-date loads *)
Lemma load_phase st l st' i : load_of l = Some i -> step st l = Some st' -> s_phase st' = s_phase st.
Proof. intros L E. destruct l; try discriminate L; step_cases E; reflexivity. Qed.
Lemma wstep_current w l k w' : views_ok w -> (load_of l = None \/ k = w_now w) -> wstep w (l, k) = Some w' -> step (w_st w) l = Some (w_st w').
Proof.
  intros V H E. destruct (load_of l) as [i|] eqn:L.
  - destruct H as [H|H]; [discriminate|]. destruct (wstep_load _ _ _ _ _ L E) as (_ & s' & S & ->). subst k.
    rewrite <- (vo_phase _ V), with_phase_id in S. rewrite S. cbn. rewrite <- (load_phase _ _ _ _ L S), with_phase_id. reflexivity.
  - apply (wstep_other _ _ _ _ L E).
Qed.
Lemma step_wstep w l s' : views_ok w -> step (w_st w) l = Some s' -> exists w', wstep w (l, w_now w) = Some w' /\ w_st w' = s'.
Proof.
  intros V S. destruct (load_of l) as [i|] eqn:L.
  - assert (B : view (w_views w) i <= w_now w).
    { apply (vo_view _ V). rewrite (vo_length _ V). destruct l; try discriminate L; injection L as ->; unfold step in S;
        destruct (nth_error (s_recs (w_st w)) i) eqn:K; try discriminate S; eapply nth_lt; eauto. }
    assert (X : exists w', wstep w (l, w_now w) = Some w').
    { destruct l; try discriminate L; injection L as ->; unfold wstep; rewrite (proj2 (Z.leb_le _ _) B), Z.leb_refl; cbn [andb];
        rewrite <- (vo_phase _ V), with_phase_id, S; eexists; reflexivity. }
    destruct X as (w' & X). exists w'. split; [exact X|]. pose proof (wstep_current _ _ _ _ V (or_intror eq_refl) X). congruence.
  - assert (X : exists w', wstep w (l, w_now w) = Some w') by (destruct l; try discriminate L; unfold wstep; rewrite S; eexists; reflexivity).
    destruct X as (w' & X). exists w'. split; [exact X|]. pose proof (wstep_current _ _ _ _ V (or_introl L) X). congruence.
Qed.
Lemma refresh_load l : refresh_step l -> load_of l = None.
Proof. destruct l; cbn; tauto || reflexivity. Qed.
Definition wok (w : wstate) : Prop := views_ok w /\ lock_ok (w_st w).
Lemma wok_step w l k w' : wok w -> wstep w (l, k) = Some w' -> wok w'.
Proof.
  intros [V L] E. split; [eapply views_step; eauto|]. apply (wstep_lift lock_ok w l k w'); auto. intros s s' L1 S1. eapply lock_step; eauto.
Qed.
Lemma wok_exec tr : forall w w', wok w -> wexec w tr = Some w' -> wok w'.
Proof.
  induction tr as [|[l k] tr IH]; intros w w' V E; cbn [wexec] in E; [injection E as <-; exact V|].
  destruct (wstep w (l, k)) as [w1|] eqn:S1; [|discriminate]. apply (IH w1); auto. eapply wok_step; eauto.
Qed.
Lemma wok_run h0 tr w : wexec (winit h0) tr = Some w -> wok w.
Proof. intros E. split; [eapply wviews_ok; eauto|eapply wlock_ok; eauto]. Qed.
Lemma current_exec tr : forall w w', wok w -> walong up_to_date w tr -> wexec w tr = Some w' -> exec (w_st w) (acts tr) = Some (w_st w').
Proof.
  induction tr as [|[l k] tr IH]; intros w w' V A E; cbn [wexec] in E; [injection E as <-; reflexivity|].
  cbn [walong] in A. destruct A as [A1 A2]. destruct (wstep w (l, k)) as [w1|] eqn:S1; [|discriminate].
  cbn [acts map fst exec]. assert (S : step (w_st w) l = Some (w_st w1)).
  { apply (wstep_current w l k w1 (proj1 V)); [|exact S1]. destruct (load_of l) eqn:L; [right|left; reflexivity]. apply A1. apply is_load_of. eauto. }
  rewrite S. apply (IH w1); auto. eapply wok_step; eauto.
Qed.
Lemma refresh_exec tr : forall w w', Forall refresh_step (acts tr) -> wexec w tr = Some w' -> exec (w_st w) (acts tr) = Some (w_st w').
Proof.
  induction tr as [|[l k] tr IH]; intros w w' F E; cbn [wexec] in E; [injection E as <-; reflexivity|].
  cbn [acts map fst] in F. inversion F; subst. destruct (wstep w (l, k)) as [w1|] eqn:S1; [|discriminate].
  cbn [acts map fst exec]. rewrite (wstep_other _ _ _ _ (refresh_load _ H1) S1). apply (IH w1); auto.
Qed.

(** ** Runs *)
Lemma wrun_app h0 a b w w' : wrun h0 a w -> Forall (label_ok (h_ctr h0)) (acts b) -> wexec w b = Some w' -> wrun h0 (a ++ b) w'.
Proof.
  intros (R & F & E) L E'. split; [exact R|]. split; [rewrite acts_app; apply Forall_app; auto|]. rewrite wexec_app, E. exact E'.
Qed.
Lemma wrun_cut h0 a b w : wrun h0 (a ++ b) w -> exists w1, wrun h0 a w1 /\ wexec w1 b = Some w.
Proof.
  intros (R & F & E). rewrite acts_app in F. apply Forall_app in F. destruct F as [F _]. rewrite wexec_app in E.
  destruct (wexec (winit h0) a) as [w1|] eqn:E1; [|discriminate]. exists w1. split; auto. split; auto.
Qed.
Lemma wlike h0 tr w : wrun h0 tr w -> merged_untouched (acts tr) -> boxes_ok (like h0) (like h0) (w_st w).
Proof.
  intros (R & F & E) U. apply untouched_not_set in U.
  apply (wboxes (like h0) (like h0) (fun l => label_ok (h_ctr h0) l /\ not_set l) h0 tr); auto.
  - intros b i o h ok n L [K _] A. eapply like_op; eauto.
  - intros b n. apply like_new.
  - intros b n. apply like_new.
  - apply like_merge.
  - intros h [_ []].
  - split; [exact R|]. split; [apply same_shape_refl|]. split; auto. constructor.
  - apply Forall_forall. intros l I. rewrite Forall_forall in F, U. auto.
Qed.
Lemma wfilled h0 tr w : wrun h0 tr w -> merged_untouched (acts tr) -> only_adds_samples (acts tr) ->
  boxes_ok (filled h0 (fun _ => 0) 0) (filled h0 (zn (h_counts h0)) (h_total h0)) (w_st w).
Proof.
  intros (R & F & E) U AD. apply untouched_not_set in U. apply adds_labels in AD. pose proof (reachable_wf h0 R) as W0.
  apply (wboxes (filled h0 (fun _ => 0) 0) (filled h0 (zn (h_counts h0)) (h_total h0))
           (fun l => label_ok (h_ctr h0) l /\ not_set l /\ adds_label l) h0 tr); auto.
  - intros b i o h ok n [L C] (K & _ & A) EO. split; [eapply like_op; eauto|]. cbn [b_hist b_log]. rewrite samples_app.
    cbn [samples flat_map]. rewrite app_nil_r. destruct L as (RB & SB & _). cbn [label_ok] in K.
    apply (op_content h0 (fun _ => 0) 0 (b_hist b) _ o _ ok); auto. rewrite (ss_ctr _ _ SB). auto.
  - intros b n [L C] EN. split; [eapply like_new; eauto|]. intros _. cbn. destruct L as (RB & SB & _).
    destruct (new_from_reach _ RB) as (n' & E' & _ & _ & _ & T & Z). rewrite E' in EN. injection EN as <-. split; auto.
  - intros b n [L C] EN. split; [eapply like_new; eauto|]. intros _. cbn. destruct L as (RB & SB & _).
    destruct (new_from_reach _ RB) as (n' & E' & _ & _ & _ & T & Z). rewrite E' in EN. injection EN as <-. split; auto.
  - intros m b m' [LM CM] [LB CB] E'. split; [exact (like_merge _ _ _ _ LM LB E')|]. apply merge_inv in E'. destruct E' as (h & [] & EA & ->).
    cbn [b_hist b_log]. rewrite samples_app. destruct LM as (RM & SM & _ & OM). destruct LB as (RB & SB & _ & OB).
    apply (merge_content h0 _ _ (b_hist m) _ (b_hist b)); auto.
    + intros. apply zn_nonneg, wf_nonneg; auto.
    + apply wf_total_nonneg; auto.
    + eapply samples_ok; eauto.
    + eapply samples_ok; eauto.
  - intros h (_ & [] & _).
  - split.
    + split; [exact R|]. split; [apply same_shape_refl|]. split; auto. constructor.
    + intros _. cbn. split; [intros; lia|lia].
  - apply Forall_forall. intros l I. rewrite Forall_forall in F, U, AD. auto.
Qed.
Lemma wtyped h0 tr w : wrun h0 tr w -> boxes_ok (typed (h_ctr h0)) (typed (h_ctr h0)) (w_st w).
Proof.
  intros (R & F & E).
  apply (wboxes (typed (h_ctr h0)) (typed (h_ctr h0)) (label_ok (h_ctr h0)) h0 tr); auto.
  - intros b i o h ok n [L C] K A. cbn [label_ok] in K. rewrite <- C in K. destruct (op_reach _ _ _ _ L K A) as (R' & S' & _).
    split; [exact R'|]. cbn. rewrite (ss_ctr _ _ S'). auto.
  - intros b n [L C] EN. destruct (new_from_reach _ L) as (n' & E' & R' & S' & _). rewrite E' in EN. injection EN as <-.
    split; [exact R'|]. cbn. rewrite (ss_ctr _ _ S'). auto.
  - intros b n [L C] EN. destruct (new_from_reach _ L) as (n' & E' & R' & S' & _). rewrite E' in EN. injection EN as <-.
    split; [exact R'|]. cbn. rewrite (ss_ctr _ _ S'). auto.
  - intros m b m' [RM CM] [RB CB] E'. apply merge_inv in E'. destruct E' as (h & [] & A & ->).
    assert (CT : h_ctr (b_hist m) = h_ctr (b_hist b)) by congruence.
    split; [eapply (reach_add _ _ _ (ROk tt) RM RB); auto|]. cbn.
    destruct (add_ok _ _ (reachable_wf _ RM) (reachable_wf _ RB) CT) as [(_ & A')|[(_ & _ & _ & A')|(_ & _ & h1 & A' & AD & _)]];
      rewrite A' in A; inversion A; subst; auto. rewrite (ss_ctr _ _ (ad_shape _ _ _ AD)). auto.
  - split; auto.
Qed.
Lemma whistory_ok h0 tr w : wrun h0 tr w -> log_ok (h_ctr h0) (s_history (w_st w)).
Proof.
  intros (R & F & E). destruct (whistory _ _ _ E) as [_ H]. apply Forall_forall. intros c I.
  assert (H0 : In (c_rec c, c_op c) (writes (acts tr))). { rewrite <- H. apply (in_map (fun c => (c_rec c, c_op c))). auto. }
  unfold writes in H0. apply in_flat_map in H0. destruct H0 as (l & L1 & L2). destruct l; cbn in L2; try contradiction.
  destruct L2 as [L2|[]]. assert (L3 : c_op c = o) by congruence. rewrite L3. rewrite Forall_forall in F. apply (F _ L1).
Qed.
