(** * C83: the concurrent histogram in builds without overflow checks *)
From Coq Require Import Permutation.
From Verif Require Import Machine Log2Model HistModel Bins ListZ Wf Ops AddFacts Spec Reach Witness PfMerge SyncModel SyncSpec SyncOps SyncFacts SyncRefresh PfSync
  LiveSpec LiveFacts PfDeliver WeakModel WeakSpec WeakFacts ReleaseSyncModel ReleaseSyncSpec ReleaseSyncFacts.
(*PROPS-IMPORTS Machine Log2Model HistModel Spec Reach Witness Cases CasesSync SyncModel SyncSpec LiveSpec WeakModel WeakSpec ReleaseSyncModel ReleaseSyncSpec CasesReleaseSync *)
(*PROPS-HEADER
From Coq Require Import Permutation.
PROPS-HEADER*)

(** ** C83.  The concurrent histogram in builds without overflow checks *)
(** As long as no guard of an idle recorder is forgotten and there are fewer than [usize::MAX] recorders, the
    executions are those of a checked build, so everything said about those holds. *)
Lemma C83_same_proof : forall h0 tr w, guards_dropped (acts tr) -> Z.of_nat (length (s_recs (w_st w))) < usize_max ->
  (rrun h0 tr w <-> wrun h0 tr w).
Proof.
  intros h0 tr w G L.
  assert (FG : forall tr, guards_dropped (acts tr) -> forgotten (acts tr) = 0).
  { clear. intros tr G. unfold forgotten. unfold guards_dropped in G. induction (acts tr) as [|l t IH]; [reflexivity|].
    cbn [filter]. destruct l; try (apply IH; intros j J; apply (G j); right; exact J). destruct (G i). left. reflexivity. }
  assert (GC : forall a b, guards_dropped (acts (a ++ b)) -> guards_dropped (acts a)) by (intros a b X i I; apply (X i); rewrite acts_app; apply in_app_iff; auto).
  split; intros (R & F & E); (split; [exact R|split; [exact F|]]).
  - clear R F. revert w L E. induction tr as [|[l k] tr IH] using rev_ind; intros w L E; [exact E|].
    apply rexec_snoc in E. destruct E as (w1 & E1 & E2). pose proof (rrecs _ _ _ _ E2) as LE. pose proof (GC _ _ G) as G1.
    rewrite wexec_app, (IH G1 w1 ltac:(lia) E1). cbn [wexec]. rewrite (same_as_release _ _ _ _ E2); [reflexivity|].
    pose proof (rcount _ _ _ E1) as C1. rewrite (FG _ G1), Z.sub_0_r in C1. pose proof (active_le (w_st w1)) as A1.
    assert (A0 : 0 <= active_recorders (w_st w1)) by (unfold active_recorders; lia).
    rewrite Z.mod_small in C1 by lia. destruct (rstep_active _ _ _ _ E2 (rnot_poisoned _ _ _ E1)) as (A2 & _). pose proof (active_le (w_st w)) as A3.
    assert (A4 : 0 <= active_recorders (w_st w)) by (unfold active_recorders; lia).
    assert (F0 : forgotten [l] = 0) by (change [l] with (acts [(l, k)]); apply FG; intros i I; apply (G i); rewrite acts_app; apply in_app_iff; auto). lia.
  - clear R F. revert w L E. induction tr as [|[l k] tr IH] using rev_ind; intros w L E; [exact E|].
    apply wexec_snoc in E. destruct E as (w1 & E1 & E2). pose proof (GC _ _ G) as G1.
    assert (LE : (length (s_recs (w_st w1)) <= length (s_recs (w_st w)))%nat).
    { apply (wstep_lift (fun s => (length (s_recs (w_st w1)) <= length (s_recs s))%nat) w1 l k w); auto.
      intros s s' L1 S. destruct (recs_length _ _ _ S) as [->|[-> _]]; lia. }
    rewrite rexec_app, (IH G1 w1 ltac:(lia) E1). cbn [rexec]. rewrite (same_as_checked _ _ _ _ E2); [reflexivity|].
    assert (EX : wexec (winit h0) (tr ++ [(l, k)]) = Some w) by (rewrite wexec_app, E1; cbn [wexec]; rewrite E2; reflexivity).
    destruct (count_core _ (wcount_ok h0 _ w (dropped_not_forget _ G) EX)) as [_ X]. apply X. exact L.
Qed.
(*EX
(** two recorders; the second one has handed over, gone idle and is waking up, the first has not seen the new phase *)
Example ex_C83_same : match build U64 1 1000 2 false [(5, 2)] with
  | Some h =>
      let tr := [(RRecorder, 0); (LClone 0, 0); (RStart false, 0); (REmpty, 0); (RRead, 0); (RShift, 0);
                 (LWrite 0 (ORecord 7 1), 0); (LLoad 0, 0); (LFinish 0, 0); (LWrite 1 (ORecord 9 4), 0); (LLoad 1, 1); (LFinish 1, 0); (RRecv, 0);
                 (LIdle 1, 0); (LIdleLoad 1, 1); (LIdleEnd 1, 0); (LWake 1, 0)] in
      match rexec (winit h) tr with
      | Some w => guards_dropped (acts tr) /\ Z.of_nat (length (s_recs (w_st w))) < usize_max /\ rrun h tr w /\ wrun h tr w /\
          s_reader (w_st w) = RWait false 2 1 /\ s_count (w_st w) = 2
      | None => False end
  | None => False end.
Proof. rsync_case. Qed.
EX*)

(** In any case it executes whatever a checked build executes without having poisoned the mutex. *)
Lemma C83_as_checked_proof : forall h0 tr w, wrun h0 tr w -> s_lock (w_st w) <> Poisoned -> rrun h0 tr w.
Proof.
  intros h0 tr w (R & F & E) L. split; [exact R|split; [exact F|]]. clear R F. revert w L E. induction tr as [|[l k] tr IH] using rev_ind; intros w L E; [exact E|].
  apply wexec_snoc in E. destruct E as (w1 & E1 & E2).
  assert (L1 : s_lock (w_st w1) <> Poisoned).
  { intros P. pose proof (wlock_ok _ _ _ E1) as [A _].
    apply L. destruct (load_of l) as [i|] eqn:LD.
    - destruct (wstep_load _ _ _ _ _ LD E2) as (_ & s' & S & ->). cbn. clear - S P A LD.
      assert (P1 : s_lock (with_phase (w_st w1) (phase_at k)) = Poisoned) by exact P.
      assert (A1 : forall j r, nth_error (s_recs (with_phase (w_st w1) (phase_at k))) j = Some r -> critical (r_pc r) = true -> s_lock (with_phase (w_st w1) (phase_at k)) = Held j) by exact A.
      revert P1 A1 S. clear A P. generalize (with_phase (w_st w1) (phase_at k)). intros s P A S.
      destruct l; try discriminate LD; step_cases S; try exact P;
        match goal with K : nth_error _ _ = Some _ |- _ => specialize (A _ _ K eq_refl); congruence end.
    - apply (wstep_other _ _ _ _ LD) in E2. revert P A E2. generalize (w_st w1), (w_st w). clear. intros s s' P A S.
      destruct l; step_cases S; cbn; rewrite ?send_lock; cbn; try exact P; try congruence;
        try (match goal with K : nth_error _ _ = Some _ |- _ => specialize (A _ _ K eq_refl); congruence end);
        try (destruct (receive_fields _ _ _ S) as (_ & -> & _); exact P). }
  rewrite rexec_app, (IH w1 L1 E1). cbn [rexec]. rewrite (same_as_checked _ _ _ _ E2 L). reflexivity.
Qed.
(*EX
(** one guard forgotten, but two recorders: the number is 0, one less than there are, and has not wrapped around *)
Example ex_C83_as_checked : match build U64 1 1000 2 false [(5, 2)] with
  | Some h =>
      let tr := [(RRecorder, 0); (RRecorder, 0); (LWrite 0 (ORecord 7 1), 0); (LLoad 0, 0); (LFinish 0, 0); (LIdle 0, 0); (LIdleLoad 0, 0); (LIdleEnd 0, 0);
                 (LForget 0, 0); (LWrite 0 (ORecord 8 2), 0); (LLoad 0, 0); (LFinish 0, 0); (LDrop 0, 0); (LDropEnd 0, 0);
                 (LWrite 1 (ORecord 9 4), 0); (LLoad 1, 0); (LFinish 1, 0)] in
      match rexec (winit h) tr with
      | Some w => wrun h tr w /\ s_lock (w_st w) <> Poisoned /\ rrun h tr w /\ s_count (w_st w) = 0 /\ active_recorders (w_st w) = 1
      | None => False end
  | None => False end.
Proof. rsync_case. Qed.
EX*)

(** No sample is lost or counted twice, forgotten guards or not: every call is in exactly one place. *)
Lemma C83_every_call_in_one_place_proof : forall h0 tr w, rrun h0 tr w -> merged_untouched (acts tr) -> reader_alive (w_st w) ->
  Permutation (b_log (s_merged (w_st w)) ++ flat_map b_log (s_chan (w_st w)) ++ flat_map (fun r => b_log (r_local r)) (s_recs (w_st w)))
    (s_history (w_st w)) /\
  map c_id (s_history (w_st w)) = seq 0 (length (s_history (w_st w))) /\
  map (fun c => (c_rec c, c_op c)) (s_history (w_st w)) = writes (acts tr).
Proof.
  intros h0 tr w (R & F & E) U A. split; [|apply (rhistory h0 tr w E)]. apply (rplaced h0 tr w (untouched_not_set _ U) E A).
Qed.
(*EX
(** the last recorder is being dropped and has made the number of recorders wrap around; a checked build has poisoned the mutex *)
Example ex_C83_one_place : match build U64 1 1000 2 false [(5, 2)] with
  | Some h =>
      let tr := [(RRecorder, 0); (RRecorder, 0); (LWrite 0 (ORecord 7 1), 0); (LLoad 0, 0); (LFinish 0, 0); (LIdle 0, 0); (LIdleLoad 0, 0); (LIdleEnd 0, 0);
                 (LForget 0, 0); (LWrite 0 (ORecord 8 2), 0); (LLoad 0, 0); (LFinish 0, 0); (LDrop 0, 0); (LDropEnd 0, 0);
                 (LWrite 1 (ORecord 9 4), 0); (LLoad 1, 0); (LFinish 1, 0); (LDrop 1, 0)] in
      match rexec (winit h) tr with
      | Some w => rrun h tr w /\ merged_untouched (acts tr) /\ reader_alive (w_st w) /\ s_count (w_st w) = usize_max /\
          match wexec (winit h) tr with Some v => s_lock (w_st v) = Poisoned | None => False end /\
          map (fun b => map c_id (b_log b)) (s_chan (w_st w)) = [[0; 1]]%nat /\
          map (fun r => map c_id (b_log (r_local r))) (s_recs (w_st w)) = [[]; [2]]%nat /\ map c_rec (s_history (w_st w)) = [0; 0; 1]%nat
      | None => False end
  | None => False end.
Proof. rsync_case. Qed.
EX*)

(** And every histogram contains the samples of its calls. *)
Lemma C83_contents_proof : forall h0 tr w, rrun h0 tr w -> merged_untouched (acts tr) -> only_adds_samples (acts tr) ->
  reader_alive (w_st w) -> no_saturation h0 (samples (s_history (w_st w))) ->
  holds_over h0 (b_hist (s_merged (w_st w))) (samples (b_log (s_merged (w_st w)))) /\
  (forall b, In b (s_chan (w_st w)) -> holds h0 (b_hist b) (samples (b_log b))) /\
  (forall r, In r (s_recs (w_st w)) -> holds h0 (b_hist (r_local r)) (samples (b_log (r_local r)))).
Proof.
  intros h0 tr w RN U AD A NS. pose proof (C83_every_call_in_one_place_proof h0 tr w RN U A) as (P & _).
  apply contents_core; auto; [apply RN|apply (rhistory_ok h0 tr w RN)|apply (rfilled h0 tr w RN U AD)].
Qed.
(*EX
(** the same, and a refresh that waits for 2^64 - 1 histograms has got all there are *)
Example ex_C83_contents : match build U64 1 1000 2 false [(5, 2)] with
  | Some h =>
      let tr := [(RRecorder, 0); (RRecorder, 0); (LWrite 0 (ORecord 7 1), 0); (LLoad 0, 0); (LFinish 0, 0); (LIdle 0, 0); (LIdleLoad 0, 0); (LIdleEnd 0, 0);
                 (LForget 0, 0); (LWrite 0 (ORecord 8 2), 0); (LLoad 0, 0); (LFinish 0, 0); (LDrop 0, 0); (LDropEnd 0, 0);
                 (LWrite 1 (ORecord 9 4), 0); (LLoad 1, 0); (LFinish 1, 0); (LDrop 1, 0); (LDropEnd 1, 0); (RStart true, 0); (RRecv, 0); (RRecv, 0); (REmpty, 0); (RRead, 0); (RShift, 0)] in
      match rexec (winit h) tr with
      | Some w => rrun h tr w /\ merged_untouched (acts tr) /\ only_adds_samples (acts tr) /\ reader_alive (w_st w) /\
          no_saturation h (samples (s_history (w_st w))) /\
          s_reader (w_st w) = RWait true usize_max 0 /\ held (b_hist (s_merged (w_st w))) = [(5, 2); (7, 1); (8, 2); (9, 4)]
      | None => False end
  | None => False end.
Proof. rsync_case. Qed.
EX*)

(** Nor does a refresh panic. *)
Lemma C83_refresh_never_panics_proof : forall h0 tr w, rrun h0 tr w -> merged_untouched (acts tr) -> merge_safe h0 ->
  s_reader (w_st w) <> RPanicked.
Proof.
  intros h0 tr. induction tr as [|[l k] tr IH] using rev_ind; intros w RN U SF.
  - destruct RN as (_ & _ & E). cbn in E. injection E as <-. discriminate.
  - apply rrun_cut in RN. destruct RN as (w1 & RN1 & E). cbn [rexec] in E. destruct (rstep w1 (l, k)) as [w2|] eqn:S; [|discriminate]. injection E as <-.
    assert (U1 : merged_untouched (acts tr)) by (rewrite acts_app in U; eapply untouched_app; eauto).
    pose proof (IH w1 RN1 U1 SF) as N1. pose proof (rlike h0 tr w1 RN1 U1) as B. pose proof RN1 as (R & _).
    destruct (rstep_inv _ _ _ _ S) as (c & w3 & c' & S3 & -> & _). cbn.
    assert (X : boxes_ok (like h0) (like h0) (w_st (at_count w1 c)) /\ s_reader (w_st (at_count w1 c)) <> RPanicked) by (split; [exact B|exact N1]). destruct X as [B1 N2].
    destruct (load_of l) as [i|] eqn:L.
    + destruct (wstep_load _ _ _ _ _ L S3) as (_ & s' & S' & ->). cbn. apply (no_panic_step h0 (with_phase (w_st (at_count w1 c)) (phase_at k)) l s' SF R B1 N2 S').
    + apply (no_panic_step h0 _ l _ SF R B1 N2 (wstep_other _ _ _ _ L S3)).
Qed.
(*EX
(** a refresh that waits for 2^64 - 1 histograms *)
Example ex_C83_never_panics : match build U64 1 1000 2 false [(5, 2)] with
  | Some h =>
      let tr := [(RRecorder, 0); (RRecorder, 0); (LWrite 0 (ORecord 7 1), 0); (LLoad 0, 0); (LFinish 0, 0); (LIdle 0, 0); (LIdleLoad 0, 0); (LIdleEnd 0, 0);
                 (LForget 0, 0); (LWrite 0 (ORecord 8 2), 0); (LLoad 0, 0); (LFinish 0, 0); (LDrop 0, 0); (LDropEnd 0, 0);
                 (LWrite 1 (ORecord 9 4), 0); (LLoad 1, 0); (LFinish 1, 0); (LDrop 1, 0); (LDropEnd 1, 0); (RStart true, 0); (RRecv, 0); (RRecv, 0); (REmpty, 0); (RRead, 0); (RShift, 0)] in
      match rexec (winit h) tr with
      | Some w => rrun h tr w /\ merged_untouched (acts tr) /\ merge_safe h /\ s_reader (w_st w) = RWait true usize_max 0
      | None => False end
  | None => False end.
Proof. rsync_case. Qed.
EX*)

(** The mutex is never poisoned; recorder [i] holds it exactly while it is inside its critical section, and
    whoever holds it can go on.  The number of recorders is off by the number of forgotten guards, modulo
    2^64. *)
Lemma C83_count_proof : forall h0 tr w, rrun h0 tr w ->
  s_lock (w_st w) <> Poisoned /\ s_count (w_st w) = (active_recorders (w_st w) - forgotten (acts tr)) mod (usize_max + 1) /\
  (forall i r, nth_error (s_recs (w_st w)) i = Some r ->
     (s_lock (w_st w) = Held i <-> in_section r = true) /\
     (s_lock (w_st w) = Held i -> exists l k w', section_step i l /\ rstep w (l, k) = Some w')).
Proof.
  intros h0 tr w RN. pose proof RN as (R & F & E). split; [apply (rnot_poisoned _ _ _ E)|]. split; [apply (rcount _ _ _ E)|]. intros i r I.
  destruct (mutex_core (h_ctr h0) (w_st w) i r (rlock_ok _ _ _ E) (rtyped h0 tr w RN) I) as [A B]. split; [exact A|].
  intros L. destruct (B L) as (l & st' & X & S).
  destruct (step_rstep w l st' (rok _ _ _ E)) as (w' & W & _); [destruct X as [->|[->|[->| ->]]]; reflexivity|exact S|]. exists l, (w_now w), w'. auto.
Qed.
(*EX
(** no recorder is in use, one guard is forgotten, and the number has wrapped around; recorder 1 has the mutex *)
Example ex_C83_count : match build U64 1 1000 2 false [(5, 2)] with
  | Some h =>
      let tr := [(RRecorder, 0); (RRecorder, 0); (LWrite 0 (ORecord 7 1), 0); (LLoad 0, 0); (LFinish 0, 0); (LIdle 0, 0); (LIdleLoad 0, 0); (LIdleEnd 0, 0);
                 (LForget 0, 0); (LWrite 0 (ORecord 8 2), 0); (LLoad 0, 0); (LFinish 0, 0); (LDrop 0, 0); (LDropEnd 0, 0);
                 (LWrite 1 (ORecord 9 4), 0); (LLoad 1, 0); (LFinish 1, 0); (LDrop 1, 0)] in
      match rexec (winit h) tr with
      | Some w => rrun h tr w /\ s_count (w_st w) = usize_max /\ active_recorders (w_st w) = 0 /\ forgotten (acts tr) = 1 /\ s_lock (w_st w) = Held 1 /\
          match rstep w (LDropEnd 1, 0) with Some v => s_lock (w_st v) = Free | None => False end
      | None => False end
  | None => False end.
Proof. rsync_case. Qed.
EX*)

(** A [refresh_timeout] is never stuck: it can go on, unless some recorder is inside its critical section. *)
Lemma C83_timeout_goes_on_proof : forall h0 tr w, rrun h0 tr w -> in_timed_refresh (w_st w) ->
  (exists l k w', refresh_step l /\ rstep w (l, k) = Some w') \/ (exists i, s_lock (w_st w) = Held i).
Proof.
  intros h0 tr w RN T. pose proof RN as (R & F & E). pose proof (rok _ _ _ E) as OK. pose proof (rnot_poisoned _ _ _ E) as NP.
  assert (GO : forall l, refresh_step l -> step (w_st w) l <> None -> exists l k w', refresh_step l /\ rstep w (l, k) = Some w').
  { intros l RL S. destruct (step (w_st w) l) as [s'|] eqn:ST; [|congruence]. destruct (step_rstep w l s' OK) as (w' & W & _); [destruct l; try contradiction RL; reflexivity|exact ST|]. exists l, (w_now w), w'. auto. }
  assert (RC : forall next b q, s_chan (w_st w) = b :: q -> receive (w_st w) next <> None).
  { intros next b q C. unfold receive. rewrite C. destruct (merge (s_merged (w_st w)) b); discriminate. }
  unfold in_timed_refresh in T. destruct (s_reader (w_st w)) as [|t|t|t n|t n k| | |] eqn:RD; try contradiction.
  - left. destruct (s_chan (w_st w)) as [|b q] eqn:CH.
    + apply (GO REmpty Logic.I). cbn [step]. rewrite RD, CH. discriminate.
    + apply (GO RRecv Logic.I). cbn [step]. rewrite RD. apply (RC _ b q eq_refl).
  - destruct (s_lock (w_st w)) as [|i|] eqn:L; [left|right; exists i; reflexivity|contradiction].
    apply (GO RRead Logic.I). cbn [step]. rewrite RD, L. discriminate.
  - left. apply (GO RShift Logic.I). cbn [step]. rewrite RD. discriminate.
  - left. subst t. destruct (k <? n) eqn:KN.
    + apply (GO RTimeout Logic.I). cbn [step]. rewrite RD, KN. discriminate.
    + apply (GO RDone Logic.I). cbn [step]. rewrite RD, KN. discriminate.
  - left. destruct (s_chan (w_st w)) as [|b q] eqn:CH.
    + apply (GO REmpty Logic.I). cbn [step]. rewrite RD, CH. discriminate.
    + apply (GO RRecv Logic.I). cbn [step]. rewrite RD. apply (RC _ b q eq_refl).
Qed.
(*EX
(** a refresh that waits for 2^64 - 1 histograms, with nobody left to send one: it times out and returns *)
Example ex_C83_timeout : match build U64 1 1000 2 false [(5, 2)] with
  | Some h =>
      let tr := [(RRecorder, 0); (RRecorder, 0); (LWrite 0 (ORecord 7 1), 0); (LLoad 0, 0); (LFinish 0, 0); (LIdle 0, 0); (LIdleLoad 0, 0); (LIdleEnd 0, 0);
                 (LForget 0, 0); (LWrite 0 (ORecord 8 2), 0); (LLoad 0, 0); (LFinish 0, 0); (LDrop 0, 0); (LDropEnd 0, 0);
                 (LWrite 1 (ORecord 9 4), 0); (LLoad 1, 0); (LFinish 1, 0); (LDrop 1, 0); (LDropEnd 1, 0); (RStart true, 0); (RRecv, 0); (RRecv, 0); (REmpty, 0); (RRead, 0); (RShift, 0)] in
      match rexec (winit h) tr with
      | Some w => rrun h tr w /\ in_timed_refresh (w_st w) /\ s_reader (w_st w) = RWait true usize_max 0 /\ s_chan (w_st w) = [] /\ all_dropped (w_st w) /\
          match rexec w [(RTimeout, 0); (REmpty, 0)] with Some v => s_reader (w_st v) = RReady | None => False end
      | None => False end
  | None => False end.
Proof. rsync_case. Qed.
EX*)

(** But a plain [refresh] can wait for ever: after one forgotten guard the number of recorders is 2^64 - 1 once
    the recorder is dropped, and the next [refresh] waits for as many histograms.  Here nobody is left who could
    make a step.  (A checked build panics when the recorder is dropped, C45_leaked_guard_refuted.) *)
Lemma C83_deadlock_refuted_proof : exists h0 tr w, rrun h0 tr w /\ merged_untouched (acts tr) /\ In (LForget 0) (acts tr) /\ forgotten (acts tr) = 1 /\
  all_dropped (w_st w) /\ s_chan (w_st w) = [] /\ s_reader (w_st w) = RWait false usize_max 0 /\
  forall l k, rstep w (l, k) = None.
Proof.
  set (tr := [(RRecorder, 0); (LWrite 0 (ORecord 7 1), 0); (LLoad 0, 0); (LFinish 0, 0); (LIdle 0, 0); (LIdleLoad 0, 0); (LIdleEnd 0, 0); (LForget 0, 0);
              (LDrop 0, 0); (LDropEnd 0, 0); (RStart false, 0); (RRecv, 0); (REmpty, 0); (RRead, 0); (RShift, 0)]).
  assert (X : match build U64 1 1000 2 true [] with
              | Some h => h_ctr h = U64 /\ match rexec (winit h) tr with
                  | Some w => map r_pc (s_recs (w_st w)) = [PGone] /\ s_chan (w_st w) = [] /\ s_reader (w_st w) = RWait false usize_max 0
                  | None => False end
              | None => False end) by (vm_compute; auto).
  destruct (build _ _ _ _ _ _) as [h|] eqn:B; [|contradiction]. destruct X as [CT X]. destruct (rexec (winit h) tr) as [w|] eqn:E; [|contradiction].
  destruct X as (X1 & X2 & X3). exists h, tr, w.
  split; [split; [exact (build_reachable _ _ _ _ _ _ _ B)|split; [|exact E]]; unfold tr; cbn [acts map fst]; rewrite CT; repeat (apply Forall_cons; [cbn; try exact Logic.I; unfold is_u64, is_count, cmax, u64_max; lia|]); apply Forall_nil|].
  split; [intros x; unfold tr; cbn; intuition discriminate|]. split; [unfold tr; cbn; auto 20|]. split; [reflexivity|].
  destruct (s_recs (w_st w)) as [|[b p pc] [|? ?]] eqn:RC; try discriminate X1. cbn in X1. injection X1 as ->.
  split; [intros r I; rewrite RC in I; destruct I as [<-|[]]; reflexivity|]. split; [exact X2|]. split; [exact X3|].
  assert (NTH : forall i r, nth_error (s_recs (w_st w)) i = Some r -> r_pc r = PGone).
  { intros i r I. rewrite RC in I. destruct i as [|[|i]]; cbn in I; try discriminate I. injection I as <-. reflexivity. }
  assert (NONE : forall s l, s_recs s = s_recs (w_st w) -> s_chan s = [] -> s_reader s = RWait false usize_max 0 -> step s l = None).
  { intros s l S1 S2 S3. rewrite <- S1 in NTH. destruct (step s l) as [s'|] eqn:ST; [exfalso|reflexivity].
    destruct l; step_cases ST; try congruence;
      try (match goal with K : nth_error _ _ = Some _ |- _ => specialize (NTH _ _ K); discriminate NTH end);
      try (unfold receive in ST; rewrite S2 in ST; discriminate ST).
    injection S3 as -> -> ->. discriminate. }
  intros l k. destruct (rstep w (l, k)) as [w'|] eqn:S; [exfalso|reflexivity]. destruct (rstep_inv _ _ _ _ S) as (c & w1 & c' & S1 & _).
  destruct (load_of l) as [i|] eqn:LD.
  - destruct (wstep_load _ _ _ _ _ LD S1) as (_ & s' & S' & _). rewrite NONE in S'; [discriminate|reflexivity|exact X2|exact X3].
  - apply (wstep_other _ _ _ _ LD) in S1. rewrite NONE in S1; [discriminate|reflexivity|exact X2|exact X3].
Qed.
