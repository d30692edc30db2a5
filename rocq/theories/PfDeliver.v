(** * C71: when a sample becomes visible, whatever the others do *)
From Coq Require Import Permutation.
From Verif Require Import Machine Log2Model HistModel Bins ListZ Wf Spec Reach Witness SyncModel SyncSpec SyncOps SyncFacts SyncRefresh PfSync LiveSpec LiveFacts.
(*PROPS-IMPORTS Machine Log2Model HistModel Spec Reach Witness Cases CasesSync SyncModel SyncSpec LiveSpec *)

(** *)
Lemma step_local st l st' j r' c : step st l = Some st' -> nth_error (s_recs st') j = Some r' -> In c (b_log (r_local r')) ->
  c_id c = length (s_history st) \/
  exists r, nth_error (s_recs st) j = Some r /\ In c (b_log (r_local r)) /\ (r_phase r' = r_phase r \/ l = LWakeEnd j).
Proof.
  intros E J I.
  assert (PUT : forall i x y, nth_error (s_recs st) i = Some x -> nth_error (put (s_recs st) i y) j = Some r' ->
     (In c (b_log (r_local y)) -> c_id c = length (s_history st) \/ (In c (b_log (r_local x)) /\ (r_phase y = r_phase x \/ l = LWakeEnd i))) ->
     c_id c = length (s_history st) \/
     exists r, nth_error (s_recs st) j = Some r /\ In c (b_log (r_local r)) /\ (r_phase r' = r_phase r \/ l = LWakeEnd j)).
  { intros i x y K N H. apply put_cases in N. destruct N as [(-> & ->)|(NE & N)].
    - destruct (H I) as [X|[X1 X2]]; [left; exact X|right; exists x; auto].
    - right. exists r'. auto. }
  assert (SAME : s_recs st' = s_recs st -> c_id c = length (s_history st) \/
     exists r, nth_error (s_recs st) j = Some r /\ In c (b_log (r_local r)) /\ (r_phase r' = r_phase r \/ l = LWakeEnd j)).
  { intros X. rewrite X in J. right. exists r'. auto. }
  destruct l; step_cases E; try (apply SAME; reflexivity);
    try (apply SAME; destruct (receive_fields _ _ _ E) as (X & _); exact X);
    try (apply push_inv in E; destruct E as (n & _ & ->); cbn in J; apply app_cases in J; destruct J as [(-> & ->)|J];
         [cbn in I; contradiction|right; exists r'; auto]);
    cbn in J; rewrite ?send_recs in J; cbn in J;
    try (match goal with SH : shed _ = Ret _ |- _ => apply shed_inv in SH; destruct SH as (_ & LE & _) end);
    match goal with K : nth_error (s_recs st) ?i = Some ?x |- _ => apply (PUT i x _ K J) end; cbn; auto;
    try (rewrite LE; intros []).
  intros X. apply in_app_iff in X. destruct X as [X|[<-|[]]]; auto.
Qed.
Lemma history_grows st l st' : step st l = Some st' -> (length (s_history st) <= length (s_history st'))%nat.
Proof.
  intros E. destruct (history_step _ _ _ E) as [(-> & _)|(i & o & ok & _ & ->)]; [lia|]. rewrite app_length. lia.
Qed.
Definition old (c : call) (st : state) : Prop := (c_id c < length (s_history st))%nat.
Lemma old_exec c tr : forall st st', exec st tr = Some st' -> old c st -> old c st'.
Proof.
  induction tr as [|l tr IH]; intros st st' E O; cbn in E; [injection E as <-; exact O|].
  destruct (step st l) as [s1|] eqn:S1; [|discriminate]. apply (IH s1); auto. unfold old in *. pose proof (history_grows _ _ _ S1). lia.
Qed.
Lemma old_in h0 tr st c : exec (init h0) tr = Some st -> In c (s_history st) -> old c st.
Proof.
  intros E I. destruct (history_exec h0 tr st E) as [H _]. apply (in_map c_id) in I. rewrite H in I. apply in_seq in I. unfold old. lia.
Qed.
(** nothing comes back *)
Definition out (i : nat) (c : call) (st : state) : Prop := forall r, nth_error (s_recs st) i = Some r -> ~ In c (b_log (r_local r)).
Lemma out_exec i c tr : forall st st', exec st tr = Some st' -> old c st -> out i c st -> out i c st'.
Proof.
  induction tr as [|l tr IH]; intros st st' E O X; cbn in E; [injection E as <-; exact X|].
  destruct (step st l) as [s1|] eqn:S1; [|discriminate]. apply (IH s1); auto.
  - unfold old in *. pose proof (history_grows _ _ _ S1). lia.
  - intros r' J I. destruct (step_local _ _ _ _ _ _ S1 J I) as [Y|(r & Y1 & Y2 & _)]; [unfold old in O; lia|]. apply (X r Y1 Y2).
Qed.
(** held back with a phase before [P] *)
Definition behindP (i : nat) (c : call) (P : Z) (st : state) : Prop :=
  forall r, nth_error (s_recs st) i = Some r -> In c (b_log (r_local r)) -> r_phase r < P.
Lemma behind_exec i c P tr : forall st st', exec st tr = Some st' -> old c st -> ~ In (LWakeEnd i) tr -> behindP i c P st -> behindP i c P st'.
Proof.
  induction tr as [|l tr IH]; intros st st' E O N X; cbn in E; [injection E as <-; exact X|].
  destruct (step st l) as [s1|] eqn:S1; [|discriminate]. apply (IH s1); auto.
  - unfold old in *. pose proof (history_grows _ _ _ S1). lia.
  - intros Y. apply N. right. exact Y.
  - intros r' J I. destruct (step_local _ _ _ _ _ _ S1 J I) as [Y|(r & Y1 & Y2 & [Y3|Y3])]; [unfold old in O; lia| |].
    + rewrite Y3. apply (X r Y1 Y2).
    + exfalso. apply N. left. exact Y3.
Qed.
(** about to be sent *)
Definition leaving (i : nat) (c : call) (st : state) : Prop :=
  forall r, nth_error (s_recs st) i = Some r -> In c (b_log (r_local r)) ->
    exists q, (r_pc r = PLoaded q \/ r_pc r = PIdlingLoaded q) /\ q <> r_phase r.
Lemma leaving_step i c st l st' : step st l = Some st' -> old c st -> leaving i c st ->
  leaving i c st' /\ (l = LFinish i \/ l = LIdleEnd i -> out i c st').
Proof.
  intros E O X.
  assert (FIN : (moves i l \/ l = LForget i) -> out i c st').
  { intros M r' J I. destruct (step_local _ _ _ _ _ _ E J I) as [Y|(r & Y1 & Y2 & _)]; [unfold old in O; lia|].
    destruct (X r Y1 Y2) as (q & PC & NE).
    assert (EM : b_log (r_local r') = []); [|rewrite EM in I; exact I]. clear I.
    destruct r as [b p pc]. cbn in PC, NE, Y2.
    assert (NQ : (q =? p) = false) by (apply Z.eqb_neq; exact NE).
    destruct M as [M| ->]; [destruct l; cbn [moves] in M; try contradiction; subst|];
      destruct PC as [-> | ->]; unfold step in E; rewrite Y1 in E; try discriminate E; rewrite ?NQ in E;
      destruct (shed b) as [[full empty]|] eqn:SH; try discriminate E; injection E as <-;
      apply shed_inv in SH; destruct SH as (_ & LE & _);
      cbn in J; rewrite send_recs in J; cbn in J; rewrite put_same in J by (eapply nth_lt; eauto); injection J as <-; exact LE. }
  split.
  - intros r' J I;
    destruct (step_local _ _ _ _ _ _ E J I) as [Y|(r & Y1 & Y2 & _)]; try (unfold old in O; lia).
    assert (D : (moves i l \/ l = LForget i) \/ others i l).
    { unfold others. destruct l; cbn [moves]; try (right; split; [tauto|discriminate]);
        destruct (Nat.eq_dec i0 i) as [->|NE]; auto; right; split; congruence || (intros Z; congruence) || tauto. }
    destruct D as [D|[D1 D2]]; [exfalso; apply (FIN D r' J I)|]. rewrite (kept _ _ _ _ _ E D1 D2 Y1) in J. injection J as <-. apply (X r Y1 Y2).
  - intros [-> | ->]; apply FIN; left; reflexivity.
Qed.
Lemma leaving_exec i c tr : forall st st', exec st tr = Some st' -> old c st -> leaving i c st -> leaving i c st'.
Proof.
  induction tr as [|l tr IH]; intros st st' E O X; cbn in E; [injection E as <-; exact X|].
  destruct (step st l) as [s1|] eqn:S1; [|discriminate]. apply (IH s1); auto.
  - unfold old in *. pose proof (history_grows _ _ _ S1). lia.
  - eapply leaving_step; eauto.
Qed.
(** *)
Lemma load_leaving i c P st l st' : (l = LLoad i \/ l = LIdleLoad i) -> step st l = Some st' -> behindP i c P st -> P <= s_phase st ->
  leaving i c st'.
Proof.
  intros L E B PH r' J I.
  destruct L as [-> | ->]; unfold step in E; destruct (nth_error (s_recs st) i) as [[b p pc]|] eqn:K; try discriminate E;
    destruct pc; try discriminate E; injection E as <-; cbn in J; rewrite put_same in J by (eapply nth_lt; eauto); injection J as <-;
    cbn in I |- *; specialize (B _ K I); cbn in B; exists (s_phase st); split; auto; lia.
Qed.
Lemma shift_behind h0 tr st st' i c : exec (init h0) tr = Some st -> shifts tr + 1 <= usize_max -> step st RShift = Some st' ->
  behindP i c (shifts tr + 1) st'.
Proof.
  intros E S ST r J I. destruct (phases_exec h0 tr st E ltac:(lia)) as [F P].
  unfold step in ST. destruct (s_reader st); try discriminate ST. injection ST as <-. cbn in J.
  apply nth_error_In in J. unfold phases in F. rewrite Forall_forall in F. destruct (F r J) as [A _]. lia.
Qed.
(** [c] is with no recorder once it is not with its own *)
Lemma out_all h0 tr st i c : exec (init h0) tr = Some st -> c_rec c = i -> out i c st ->
  forall r, In r (s_recs st) -> ~ In c (b_log (r_local r)).
Proof.
  intros E CI X r I IN. apply In_nth_error in I. destruct I as [j J]. pose proof (own_exec h0 tr st E j r c J IN) as Y.
  rewrite CI in Y. subst j. apply (X r J IN).
Qed.
Lemma In_logs c l : In c (logs l) <-> exists b, In b l /\ In c (b_log b).
Proof. unfold logs. apply in_flat_map. Qed.
Lemma In_locals c l : In c (locals l) <-> exists r, In r l /\ In c (b_log (r_local r)).
Proof. unfold locals. apply in_flat_map. Qed.
(** what the call of [refresh] has still to do for [c] *)
Definition coming (c : call) (st : state) : Prop :=
  In c (b_log (s_merged st)) \/ (exists t, s_reader st = RDrain t /\ In c (logs (s_chan st))) \/ s_reader st = RPanicked.
Lemma coming_step c st l st' : in_call l -> step st l = Some st' -> coming c st -> coming c st'.
Proof.
  intros IC E X.
  assert (SEND : forall st0 b i r, s_merged st0 = s_merged st -> s_reader st0 = s_reader st -> s_chan st0 = s_chan st ->
     coming c (put_rec (send st0 b) i r)).
  { intros st0 b i r M R C. unfold coming. cbn. destruct (send_fields st0 b) as (-> & _ & _ & _ & _ & -> & _). rewrite M, R.
    destruct X as [X|[(t & X1 & X2)|X]]; auto. right. left. exists t. split; auto.
    destruct (send_cases st0 b) as [(_ & ->)|(_ & ->)]; [rewrite C; exact X2|]. cbn. rewrite C. unfold logs in *. rewrite flat_map_app. apply in_app_iff. auto. }
  assert (REC : forall k, receive st k = Some st' -> (s_reader st = k) \/ In c (b_log (s_merged st)) -> coming c st').
  { intros k R H. apply receive_inv in R. destruct R as (b & q & CH & [(m & M & ->)|(M & ->)]); [|right; right; reflexivity].
    apply merge_inv in M. destruct M as (h & r & _ & ->). unfold coming. cbn.
    destruct X as [X|[(t & X1 & X2)|X]].
    - left. apply in_app_iff. auto.
    - rewrite CH in X2. cbn in X2. apply in_app_iff in X2. destruct X2 as [X2|X2]; [left; apply in_app_iff; auto|].
      destruct H as [<-|H]; [right; left; exists t; auto|left; apply in_app_iff; auto].
    - destruct H as [<-|H]; [auto|left; apply in_app_iff; auto]. }
  destruct l; cbn [in_call] in IC; try contradiction; step_cases E;
    try (apply SEND; reflexivity); try exact X;
    try (apply push_inv in E; destruct E as (n & _ & ->); exact X);
    try (destruct X as [X|[(t0 & X1 & X2)|X]]; [left; exact X| |]; cbn in *; congruence);
    try (apply (REC _ E); destruct X as [X|[(t0 & X1 & X2)|X]]; [right; exact X| |]; left; congruence).
  all: destruct X as [X|[(t0 & X1 & X2)|X]]; [left; exact X| |congruence].
  all: try congruence.
  all: rewrite K0 in X2; destruct X2.
Qed.
Lemma coming_exec c tr : forall st st', exec st tr = Some st' -> Forall in_call tr -> coming c st -> coming c st'.
Proof.
  induction tr as [|l tr IH]; intros st st' E F X; cbn in E; [injection E as <-; exact X|].
  destruct (step st l) as [s1|] eqn:S1; [|discriminate]. inversion F; subst. apply (IH s1); auto. eapply coming_step; eauto.
Qed.

(** *)
Lemma exec_cut st a l b st' : exec st (a ++ l :: b) = Some st' ->
  exists s1 s2, exec st a = Some s1 /\ step s1 l = Some s2 /\ exec s2 b = Some st'.
Proof.
  rewrite exec_app. destruct (exec st a) as [s1|]; [|discriminate]. cbn [exec]. destruct (step s1 l) as [s2|] eqn:S2; [|discriminate].
  intros E. exists s1, s2. auto.
Qed.

(** ** C71.  When a sample becomes visible *)
(** A call of [refresh] that returns (by a timeout or not) has merged every call whose recorder had already
    handed it over when [refresh] was called: every call in the history that is in no recorder's local
    histogram.  This holds for every interleaving: recorders may be made, cloned, dropped, go idle and wake
    up at any moment during the call, and guards may be leaked. *)
Lemma C71_refresh_collects_proof : forall h0 tr st1 t te st2 c, run h0 tr st1 -> merged_untouched tr ->
  exec st1 (RStart t :: te) = Some st2 -> Forall in_call te -> s_reader st2 = RReady ->
  In c (s_history st1) -> (forall r, In r (s_recs st1) -> ~ In c (b_log (r_local r))) ->
  In c (b_log (s_merged st2)).
Proof.
  intros h0 tr st1 t te st2 c (R & F & E1) U E IC RR H N.
  cbn [exec] in E. destruct (step st1 (RStart t)) as [s1|] eqn:S1; [|discriminate].
  assert (X : s_reader st1 = RReady /\ s1 = put_reader st1 (RDrain t)). { cbn in S1. destruct (s_reader st1); try discriminate S1. split; congruence. }
  destruct X as [RD ->].
  assert (PL : Permutation (everything st1) (s_history st1)).
  { apply (placed_exec h0 tr st1 (untouched_not_set _ U) E1). split; congruence. }
  assert (I : In c (everything st1)) by (eapply Permutation_in; [apply Permutation_sym; exact PL|exact H]).
  unfold everything in I. rewrite !in_app_iff in I. rewrite In_locals in I.
  assert (X : coming c (put_reader st1 (RDrain t))).
  { destruct I as [I|[I|(r & I1 & I2)]]; [left; exact I|right; left; exists t; split; [reflexivity|exact I]|destruct (N r I1 I2)]. }
  destruct (coming_exec _ _ _ _ E IC X) as [Y|[(t0 & Y & _)|Y]]; [exact Y|congruence|congruence].
Qed.
(*EX
(** recorder 0 records 7; a refresh moves the phase and times out at once; recorder 0 records 9, sees the
    new phase and hands both over.  The next refresh has both, although it times out too. *)
Example ex_C71_refresh_collects : match build U64 1 1000 2 false [] with
  | Some h => match exec (init h) [RRecorder; LWrite 0 (ORecord 7 1); LLoad 0; LFinish 0; RStart true; REmpty; RRead; RShift; RTimeout; REmpty;
                                   LWrite 0 (ORecord 9 1); LLoad 0; LFinish 0] with
    | Some st1 => match exec st1 (RStart true :: [RRecv; REmpty; RRead; RShift; RTimeout; REmpty]) with
      | Some st2 => s_reader st2 = RReady /\ length (s_history st1) = 2%nat /\ s_merged st1 = Box h [] /\
                    map (fun r => b_log (r_local r)) (s_recs st1) = [[]] /\ b_log (s_merged st2) = s_history st1
      | None => False end
    | None => False end
  | None => False end.
Proof. vm_compute. auto 10. Qed.
EX*)

(** After a call is made on recorder [i]: once a later refresh has moved the phase ([RShift]), and recorder
    [i] has then read the phase in another call, or in the same one ([LLoad i]), or on its way to idle
    ([LIdleLoad i]), and completed that ([LFinish i], [LIdleEnd i]), the call is in no local histogram any
    more.  Recorder [i] must not have woken from idle between the two. *)
Lemma C71_handed_over_proof : forall h0 ta tb look tc fin td st1 st2 i c,
  run h0 (ta ++ RShift :: tb ++ look :: tc ++ fin :: td) st2 -> exec (init h0) ta = Some st1 ->
  In c (s_history st1) -> c_rec c = i ->
  (look = LLoad i \/ look = LIdleLoad i) -> (fin = LFinish i \/ fin = LIdleEnd i) -> ~ In (LWakeEnd i) tb ->
  shifts (ta ++ RShift :: tb ++ [look]) <= usize_max ->
  forall r, In r (s_recs st2) -> ~ In c (b_log (r_local r)).
Proof.
  intros h0 ta tb look tc fin td st1 st2 i c (R & F & E) E1 H CI LK FN NW SH.
  apply (out_all h0 _ st2 i c E CI).
  apply exec_cut in E. destruct E as (s1 & s2 & E1' & S2 & E). assert (s1 = st1) by congruence. subst s1.
  apply exec_cut in E. destruct E as (s3 & s4 & E3 & S4 & E).
  apply exec_cut in E. destruct E as (s5 & s6 & E5 & S6 & E).
  rewrite shifts_app in SH. change (RShift :: tb ++ [look]) with ([RShift] ++ tb ++ [look]) in SH. rewrite !shifts_app in SH.
  pose proof (shifts_nonneg tb) as N1. pose proof (shifts_nonneg [look]) as N2. change (shifts [RShift]) with 1 in SH.
  assert (O1 : old c st1) by (eapply old_in; eauto).
  assert (O2 : old c s2) by (unfold old in *; pose proof (history_grows _ _ _ S2); lia).
  assert (O3 : old c s3) by (eapply old_exec; eauto).
  assert (O4 : old c s4) by (unfold old in *; pose proof (history_grows _ _ _ S4); lia).
  assert (O5 : old c s5) by (eapply old_exec; eauto).
  assert (O6 : old c s6) by (unfold old in *; pose proof (history_grows _ _ _ S6); lia).
  assert (B2 : behindP i c (shifts ta + 1) s2) by (eapply shift_behind; eauto; lia).
  assert (B3 : behindP i c (shifts ta + 1) s3) by (eapply behind_exec; eauto).
  assert (E13 : exec (init h0) (ta ++ RShift :: tb) = Some s3).
  { rewrite exec_app, E1. cbn [exec]. rewrite S2. exact E3. }
  assert (S13 : shifts (ta ++ RShift :: tb) = shifts ta + 1 + shifts tb).
  { change (RShift :: tb) with ([RShift] ++ tb). rewrite !shifts_app. change (shifts [RShift]) with 1. lia. }
  destruct (phases_exec h0 _ s3 E13 ltac:(lia)) as [_ P3].
  assert (L4 : leaving i c s4) by (eapply load_leaving; eauto; lia).
  assert (L5 : leaving i c s5) by (eapply leaving_exec; eauto).
  assert (X6 : out i c s6) by (apply (leaving_step i c s5 fin s6 S6 O5 L5); exact FN).
  eapply out_exec; eauto.
Qed.
(*EX
(** recorder 0 records 7 and a refresh, which times out, moves the phase; then recorder 0 goes idle, and hands 7 over *)
Example ex_C71_handed_over : match build U64 1 1000 2 false [] with
  | Some h =>
      let ta := [RRecorder; LWrite 0 (ORecord 7 1); LLoad 0; LFinish 0; RStart true; REmpty; RRead] in
      let tr := ta ++ RShift :: [RTimeout; REmpty; LIdle 0] ++ LIdleLoad 0 :: [RStart true] ++ LIdleEnd 0 :: [] in
      match exec (init h) ta, exec (init h) tr with
      | Some st1, Some st2 => run h tr st2 /\ map (fun r => length (b_log (r_local r))) (s_recs st1) = [1]%nat /\ ~ In (LWakeEnd 0) [RTimeout; REmpty; LIdle 0] /\
          shifts (ta ++ RShift :: [RTimeout; REmpty; LIdle 0] ++ [LIdleLoad 0]) <= usize_max /\
          map (fun r => b_log (r_local r)) (s_recs st2) = [[]] /\ map b_log (s_chan st2) = [[Call 0 0 (ORecord 7 1) true]]
      | _, _ => False end
  | None => False end.
Proof. sync_case. Qed.
EX*)

(** Dropping recorder [i] hands over everything it still has, whatever the phase. *)
Lemma C71_drop_hands_over_proof : forall h0 ta td st1 st2 i c,
  run h0 (ta ++ LDropEnd i :: td) st2 -> exec (init h0) ta = Some st1 ->
  In c (s_history st1) -> c_rec c = i ->
  forall r, In r (s_recs st2) -> ~ In c (b_log (r_local r)).
Proof.
  intros h0 ta td st1 st2 i c (R & F & E) E1 H CI.
  apply (out_all h0 _ st2 i c E CI).
  apply exec_cut in E. destruct E as (s1 & s2 & E1' & S2 & E). assert (s1 = st1) by congruence. subst s1.
  assert (O1 : old c st1) by (eapply old_in; eauto).
  assert (O2 : old c s2) by (unfold old in *; pose proof (history_grows _ _ _ S2); lia).
  apply (out_exec i c td s2); auto.
  intros r' J I. unfold step in S2. destruct (nth_error (s_recs st1) i) as [[b p pc]|] eqn:K; try discriminate S2.
  destruct pc; try discriminate S2. destruct (shed b) as [[full empty]|] eqn:SH; try discriminate S2. injection S2 as <-.
  apply shed_inv in SH. destruct SH as (_ & LE & _).
  cbn in J. rewrite send_recs in J. cbn in J. rewrite put_same in J by (eapply nth_lt; eauto). injection J as <-. cbn in I. rewrite LE in I. exact I.
Qed.
(*EX
Example ex_C71_drop_hands_over : match build U64 1 1000 2 false [] with
  | Some h =>
      let ta := [RRecorder; RRecorder; LWrite 0 (ORecord 7 1); LLoad 0; LFinish 0; LWrite 1 (ORecord 8 1); LDrop 0] in
      match exec (init h) ta, exec (init h) (ta ++ LDropEnd 0 :: [LLoad 1; LFinish 1]) with
      | Some st1, Some st2 => run h (ta ++ LDropEnd 0 :: [LLoad 1; LFinish 1]) st2 /\
          map (fun r => map c_id (b_log (r_local r))) (s_recs st1) = [[0]; [1]]%nat /\ map (fun r => map c_id (b_log (r_local r))) (s_recs st2) = [[]; [1]]%nat
      | _, _ => False end
  | None => False end.
Proof. sync_case. Qed.
EX*)

(** *)
Lemma run_cut h0 a b st : run h0 (a ++ b) st -> exists s1, run h0 a s1 /\ exec s1 b = Some st.
Proof.
  intros (R & F & E). apply Forall_app in F. destruct F as [F _]. rewrite exec_app in E. destruct (exec (init h0) a) as [s1|] eqn:E1; [|discriminate].
  exists s1. split; auto. split; auto.
Qed.
Lemma history_kept tr : forall st st' c, exec st tr = Some st' -> In c (s_history st) -> In c (s_history st').
Proof.
  induction tr as [|l tr IH]; intros st st' c E I; cbn in E; [injection E as <-; exact I|].
  destruct (step st l) as [s1|] eqn:S1; [|discriminate]. apply (IH s1 st' c E).
  destruct (history_step _ _ _ S1) as [(-> & _)|(i & o & ok & _ & ->)]; [exact I|apply in_app_iff; auto].
Qed.
Lemma untouched_app a b : merged_untouched (a ++ b) -> merged_untouched a.
Proof. intros U h I. apply (U h). apply in_app_iff. auto. Qed.

(** So a sample shows up after at most two refreshes and one call in between: a call made on recorder [i] is
    in the merged histogram when a later refresh (the one started by the last [RStart] here) returns, if
    before it some refresh moved the phase after the call was made and the recorder then completed another
    call, or went idle, without waking from idle in between.  The refreshes may time out; all other
    recorders may do anything at any time. *)
Lemma C71_delivered_proof : forall h0 ta tb look tc fin td t te st1 st2 i c,
  run h0 (ta ++ RShift :: tb ++ look :: tc ++ fin :: td ++ RStart t :: te) st2 -> exec (init h0) ta = Some st1 ->
  merged_untouched (ta ++ RShift :: tb ++ look :: tc ++ fin :: td) ->
  In c (s_history st1) -> c_rec c = i ->
  (look = LLoad i \/ look = LIdleLoad i) -> (fin = LFinish i \/ fin = LIdleEnd i) -> ~ In (LWakeEnd i) tb ->
  shifts (ta ++ RShift :: tb ++ [look]) <= usize_max ->
  Forall in_call te -> s_reader st2 = RReady ->
  In c (b_log (s_merged st2)).
Proof.
  intros h0 ta tb look tc fin td t te st1 st2 i c RN E1 U H CI LK FN NW SH IC RR.
  replace (ta ++ RShift :: tb ++ look :: tc ++ fin :: td ++ RStart t :: te)
    with ((ta ++ RShift :: tb ++ look :: tc ++ fin :: td) ++ RStart t :: te) in RN
    by (repeat (rewrite <- app_assoc; cbn [app]); reflexivity).
  apply run_cut in RN. destruct RN as (s & RN & E).
  eapply C71_refresh_collects_proof; eauto.
  - destruct RN as (_ & _ & ES). rewrite exec_app, E1 in ES. eapply history_kept; eauto.
  - eapply C71_handed_over_proof; eauto.
Qed.
(*EX
(** recorder 1 is dropped in the bad moment of [C43_missed_sample_refuted], so that the first refresh returns
    without the value of recorder 0; but recorder 0 makes another call and the second refresh has it, even
    if it times out without waiting at all *)
Example ex_C71_delivered : match build U64 1 1000 2 false [] with
  | Some h =>
      let ta := [RRecorder; RRecorder; LWrite 0 (ORecord 7 1); LLoad 0; LFinish 0; RStart false; REmpty; LDrop 1; LDropEnd 1; RRead] in
      let td := [RRecv; RDone; REmpty] in
      match exec (init h) (ta ++ RShift :: [] ++ td) with
      | Some s => s_reader s = RReady /\ b_log (s_merged s) = [] | None => False end /\
      match exec (init h) (ta ++ RShift :: (td ++ [LWrite 0 (ORecord 8 1)]) ++ LLoad 0 :: [] ++ LFinish 0 :: [] ++
                           RStart true :: [RRecv; REmpty; RRead; RShift; RTimeout; REmpty]) with
      | Some st2 => s_reader st2 = RReady /\
                    b_log (s_merged st2) = [Call 0 0 (ORecord 7 1) true; Call 1 0 (ORecord 8 1) true]
      | None => False end
  | None => False end.
Proof. vm_compute. auto 10. Qed.
EX*)

(** The calls of a recorder that is dropped are in the merged histogram when the next refresh started after
    the drop returns. *)
Lemma C71_dropped_delivered_proof : forall h0 ta td t te st1 st2 i c,
  run h0 (ta ++ LDropEnd i :: td ++ RStart t :: te) st2 -> exec (init h0) ta = Some st1 ->
  merged_untouched (ta ++ LDropEnd i :: td) ->
  In c (s_history st1) -> c_rec c = i ->
  Forall in_call te -> s_reader st2 = RReady ->
  In c (b_log (s_merged st2)).
Proof.
  intros h0 ta td t te st1 st2 i c RN E1 U H CI IC RR.
  replace (ta ++ LDropEnd i :: td ++ RStart t :: te)
    with ((ta ++ LDropEnd i :: td) ++ RStart t :: te) in RN
    by (repeat (rewrite <- app_assoc; cbn [app]); reflexivity).
  apply run_cut in RN. destruct RN as (s & RN & E).
  eapply C71_refresh_collects_proof; eauto.
  - destruct RN as (_ & _ & ES). rewrite exec_app, E1 in ES. eapply history_kept; eauto.
  - eapply C71_drop_hands_over_proof; eauto.
Qed.
(*EX
Example ex_C71_dropped_delivered : match build U64 1 1000 2 false [] with
  | Some h =>
      match exec (init h) ([RRecorder; LWrite 0 (ORecord 7 1); LLoad 0; LFinish 0; LDrop 0] ++ LDropEnd 0 :: [] ++
                           RStart true :: [RRecv; REmpty; RRead; RShift; RDone; REmpty]) with
      | Some st2 => s_reader st2 = RReady /\ b_log (s_merged st2) = [Call 0 0 (ORecord 7 1) true]
      | None => False end
  | None => False end.
Proof. vm_compute. auto. Qed.
EX*)

(** Waking up must be excluded.  Recorder 0 records 7 and goes idle without having seen a new phase, so it
    keeps its histogram; a refresh passes it by and returns; it wakes up, adopting the new phase, records 8
    and completes that call; the next refresh (which times out) has neither. *)
Lemma C71_wake_refuted_proof : exists h0 ta tb tc td te st1 st2 c,
  run h0 (ta ++ RShift :: tb ++ LLoad 0 :: tc ++ LFinish 0 :: td ++ RStart true :: te) st2 /\ exec (init h0) ta = Some st1 /\
  merged_untouched (ta ++ RShift :: tb ++ LLoad 0 :: tc ++ LFinish 0 :: td) /\
  In c (s_history st1) /\ c_rec c = 0%nat /\
  Forall in_call te /\ s_reader st2 = RReady /\
  ~ In c (b_log (s_merged st2)).
Proof.
  set (ta := [RRecorder; LWrite 0 (ORecord 7 1); LLoad 0; LFinish 0; LIdle 0; LIdleLoad 0; LIdleEnd 0; RStart false; REmpty; RRead]).
  set (tb := [RDone; REmpty; LWake 0; LWakeEnd 0; LWrite 0 (ORecord 8 1)]).
  set (te := [REmpty; RRead; RShift; RTimeout; REmpty]).
  set (c := Call 0 0 (ORecord 7 1) true).
  set (tr := ta ++ RShift :: tb ++ LLoad 0 :: [] ++ LFinish 0 :: [] ++ RStart true :: te).
  assert (X : match build U64 1 1000 2 false [] with
              | Some h => match exec (init h) ta with
                          | Some st1 => match exec (init h) tr with
                              | Some st2 => h_ctr h = U64 /\ s_reader st2 = RReady /\ s_history st1 = [c] /\ b_log (s_merged st2) = []
                              | None => False end
                          | None => False end
              | None => False end) by (vm_compute; auto 10).
  destruct (build _ _ _ _ _ _) as [h|] eqn:B; [|contradiction]. destruct (exec _ ta) as [st1|] eqn:E1; [|contradiction].
  destruct (exec _ tr) as [st2|] eqn:E2; [|contradiction]. destruct X as (CT & X4 & X5 & X6).
  exists h, ta, tb, [], [], te, st1, st2, c.
  split; [split; [exact (build_reachable _ _ _ _ _ _ _ B)|split; [|exact E2]]|].
  { rewrite CT. unfold ta, tb, te. repeat constructor; cbn; unfold u64_max; lia. }
  split; [exact E1|]. split; [intros x; unfold ta, tb; cbn; intuition discriminate|].
  split; [rewrite X5; cbn; auto|]. split; [reflexivity|]. split; [unfold te; repeat constructor|]. split; auto. rewrite X6. auto.
Qed.

(** *)
Lemma exec_one s l s' ls r : step s l = Some s' -> exec s' ls = r -> exec s (l :: ls) = r.
Proof. intros E <-. cbn [exec]. rewrite E. reflexivity. Qed.
Lemma step_same m ch k n p b pc rd hs i : i = 0%nat -> pc = PLoaded p ->
  step (State m ch k n p [Rec b p pc] rd hs) (LFinish i) = Some (State m ch k n p [Rec b p PReady] rd hs).
Proof. intros -> ->. cbn [step s_recs nth_error]. rewrite Z.eqb_refl. reflexivity. Qed.
Lemma step_same_idle m ch n p b rd hs :
  step (State m ch (Held 0) n p [Rec b p (PIdlingLoaded p)] rd hs) (LIdleEnd 0) = Some (State m ch Free n p [Rec b p PIdle] rd hs).
Proof. cbn [step s_recs nth_error]. rewrite Z.eqb_refl. reflexivity. Qed.
Lemma exec_nap1 h0 p hs b tr r : exec (State (Box h0 []) [] Free 0 p [Rec b p PIdle] (RBump false 0) hs) tr = r ->
  exec (State (Box h0 []) [] Free 1 p [Rec b p PWrote] RReady hs)
    (LLoad 0 :: LFinish 0 :: LIdle 0 :: LIdleLoad 0 :: LIdleEnd 0 :: RStart false :: REmpty :: RRead :: tr) = r.
Proof.
  intros E.
  apply (exec_one _ _ (State (Box h0 []) [] Free 1 p [Rec b p (PLoaded p)] RReady hs)); [reflexivity|].
  eapply exec_one; [apply step_same; reflexivity|].
  apply (exec_one _ _ (State (Box h0 []) [] (Held 0) 0 p [Rec b p PIdling] RReady hs)); [reflexivity|].
  apply (exec_one _ _ (State (Box h0 []) [] (Held 0) 0 p [Rec b p (PIdlingLoaded p)] RReady hs)); [reflexivity|].
  eapply exec_one; [apply step_same_idle|].
  apply (exec_one _ _ (State (Box h0 []) [] Free 0 p [Rec b p PIdle] (RDrain false) hs)); [reflexivity|].
  apply (exec_one _ _ (State (Box h0 []) [] Free 0 p [Rec b p PIdle] (RCount false) hs)); [reflexivity|].
  apply (exec_one _ _ (State (Box h0 []) [] Free 0 p [Rec b p PIdle] (RBump false 0) hs)); [reflexivity|].
  exact E.
Qed.
Lemma step_shift st t n : s_reader st = RBump t n -> step st RShift =
  Some (State (s_merged st) (s_chan st) (s_lock st) (s_count st) ((s_phase st + 1) mod (usize_max + 1)) (s_recs st) (RWait t n 0) (s_history st)).
Proof. intros E. unfold step. rewrite E. reflexivity. Qed.
Lemma exec_nap3 h0 p q hs b : 
  exec (State (Box h0 []) [] Free 0 p [Rec b q PIdle] (RWait false 0 0) hs) [RDone; REmpty; LWake 0; LWakeEnd 0] =
  Some (State (Box h0 []) [] Free 1 p [Rec b p PReady] RReady hs).
Proof. reflexivity. Qed.
Lemma exec_nap2 h0 p hs b :
  exec (State (Box h0 []) [] Free 0 p [Rec b p PIdle] (RBump false 0) hs) [RShift; RDone; REmpty; LWake 0; LWakeEnd 0] =
  let p' := (p + 1) mod (usize_max + 1) in Some (State (Box h0 []) [] Free 1 p' [Rec b p' PReady] RReady hs).
Proof.
  cbn zeta. eapply exec_one; [apply (step_shift _ false 0); reflexivity|]. cbn [s_merged s_chan s_lock s_count s_phase s_recs s_reader s_history].
  generalize ((p + 1) mod (usize_max + 1)). intros p'. apply exec_nap3.
Qed.
Lemma exec_nap h0 p hs b o h' ok : apply_op (b_hist b) o = Ret (h', ok) ->
  let c := Call (length hs) 0 o ok in let p' := (p + 1) mod (usize_max + 1) in
  exec (State (Box h0 []) [] Free 1 p [Rec b p PReady] RReady hs) (nap o) =
  Some (State (Box h0 []) [] Free 1 p' [Rec (Box h' (b_log b ++ [c])) p' PReady] RReady (hs ++ [c])).
Proof.
  intros EO. eapply exec_one; [cbn [step s_recs nth_error]; rewrite EO; reflexivity|].
  apply exec_nap1. apply exec_nap2.
Qed.
(** A recorder that goes idle after each call, and is woken for the next one after the next [refresh] has
    returned, never hands anything over: after any number of calls and as many complete refreshes (none of
    them timed out) the merged histogram is still the one it started from. *)
Lemma C71_naps_refuted_proof : forall h0 os, reachable h0 -> Forall (op_ok (h_ctr h0)) os ->
  exists st, run h0 (RRecorder :: flat_map nap os) st /\ s_reader st = RReady /\ length (s_history st) = length os /\
             s_merged st = Box h0 [] /\ s_chan st = [].
Proof.
  intros h0 os R F.
  assert (INV : exists b p hs, length hs = length os /\
     run h0 (RRecorder :: flat_map nap os) (State (Box h0 []) [] Free 1 p [Rec b p PReady] RReady hs)).
  { induction os as [|o os IH] using rev_ind.
    - cbn [flat_map]. destruct (new_from_reach _ R) as (n & N & _). exists (Box n []), 0, []. split; [reflexivity|].
      split; [exact R|split; [repeat constructor|]]. cbn; unfold push_rec; cbn; rewrite N; reflexivity.
    - apply Forall_app in F. destruct F as [F1 F2]. inversion F2 as [|? ? OK _]; subst.
      destruct (IH F1) as (b & p & hs & LN & RN). clear IH.
      destruct (typed_run h0 _ _ RN) as (_ & _ & T). cbn in T. inversion T as [|? ? [R1 CT] _]; subst. cbn in R1, CT.
      pose proof OK as OK'. rewrite <- CT in OK'. destruct (op_facts _ o R1 OK') as (h' & ok & EO & _).
      eexists _, _, _. split; [|split; [exact R|]].
      2:{ destruct RN as (_ & FL & E). rewrite flat_map_app, app_comm_cons. split.
        * apply Forall_app. split; [exact FL|]. cbn [flat_map app]. unfold nap. repeat constructor. exact OK.
        * rewrite exec_app, E. cbn [flat_map]. rewrite app_nil_r. apply (exec_nap h0 _ _ b o h' ok EO). }
      rewrite !app_length, LN. reflexivity. }
  destruct INV as (b & p & hs & LN & RN). eexists. split; [exact RN|]. cbn. auto.
Qed.
(*EX
Example ex_C71_naps_refuted : match build U64 1 1000 2 false [] with
  | Some h => match exec (init h) (RRecorder :: flat_map nap [ORecord 7 1; ORecord 8 1; ORecord 9 1]) with
    | Some st => length (s_history st) = 3%nat /\ s_merged st = Box h [] /\ s_phase st = 3
    | None => False end
  | None => False end.
Proof. vm_compute. auto. Qed.
EX*)
