(** Property theorems; the proofs are in [PfLive].  Generated by tools/gen_theorems.py. *)
From Verif Require Import Machine Log2Model HistModel Spec Reach Witness Cases SyncModel SyncSpec WeakModel WeakSpec CasesSync LiveSpec LiveFacts PfLive.

(** [refresh] returns, whatever the threads do and however their steps interleave, in every execution in
    which every recorder that is not idle or dropped is used again and again, recorders are cloned only
    finitely often, and the reader is not starved - with the exception found before (C44): no recorder on
    its way to idle may look at the phase in the short time between the reader's counting the recorders
    and its moving the phase. *)
Theorem C69_refresh_returns : forall h0 tr0 s a,
  run h0 tr0 (s 0%nat) -> merged_untouched tr0 -> guards_dropped tr0 -> merge_safe h0 ->
  along idles_outside (init h0) tr0 -> shifts tr0 < usize_max -> s_lock (s 0%nat) <> Poisoned ->
  continues h0 s a -> no_leak a -> few_recorders s -> idles_outside_ever s a -> clones_end a ->
  recorders_go_on s a -> reader_goes_on s a ->
  in_refresh (s 0%nat) -> exists k, s_reader (s k) = RReady.
Proof. exact C69_refresh_returns_proof. Qed.
Print Assumptions C69_refresh_returns.

(** [refresh_timeout] returns even if nobody ever records again, and even if recorders become idle at the
    wrong time: all it needs is that a thread that holds the mutex releases it, that recorders are cloned
    only finitely often, and that the reader is not starved. *)
Theorem C69_timeout_returns : forall h0 tr0 s a,
  run h0 tr0 (s 0%nat) -> merged_untouched tr0 -> guards_dropped tr0 -> merge_safe h0 -> s_lock (s 0%nat) <> Poisoned ->
  continues h0 s a -> no_leak a -> few_recorders s -> clones_end a ->
  sections_go_on s a -> reader_goes_on s a ->
  in_timed_refresh (s 0%nat) -> exists k, s_reader (s k) = RReady.
Proof. exact C69_timeout_returns_proof. Qed.
Print Assumptions C69_timeout_returns.

(** The hypotheses of both theorems can be met: a recorder, the reader waits for it; it records, the reader
    returns, and the recorder is dropped. *)
Example ex_C69 : exists h0 tr0 s a, run h0 tr0 (s 0%nat) /\ merged_untouched tr0 /\ guards_dropped tr0 /\ merge_safe h0 /\
  along idles_outside (init h0) tr0 /\ shifts tr0 = 1 /\ s_lock (s 0%nat) = Free /\
  continues h0 s a /\ no_leak a /\ few_recorders s /\ idles_outside_ever s a /\ clones_end a /\
  recorders_go_on s a /\ reader_goes_on s a /\ s_reader (s 0%nat) = RWait true 1 0 /\
  s_reader (s 5%nat) = RDrain2 /\ s_reader (s 6%nat) = RReady.
Proof.
  set (tr0 := [RRecorder; RStart true; REmpty; RRead; RShift]).
  set (tr := [LWrite 0 (ORecord 7 1); LLoad 0; LFinish 0; RRecv; RDone; REmpty; LDrop 0; LDropEnd 0]).
  assert (X : match build U64 1 1000 2 true [] with
              | Some h => match exec (init h) tr0 with
                          | Some st => match exec st tr with
                              | Some st2 => s_reader st2 = RReady /\ map r_pc (s_recs st2) = [PGone] /\
                                  forallb (fun k => active_recorders (settle st tr k) <? usize_max) (seq 0 (Datatypes.S (length tr))) = true /\
                                  is_auto_resize h = true /\ h_ctr h = U64 /\
                                  s_lock st = Free /\ s_reader (settle st tr 0) = RWait true 1 0 /\
                                  s_reader (settle st tr 5) = RDrain2 /\ s_reader (settle st tr 6) = RReady
                              | None => False end
                          | None => False end
              | None => False end) by (vm_compute; auto 10).
  destruct (build _ _ _ _ _ _) as [h|] eqn:B; [|contradiction]. destruct (exec (init h) tr0) as [st|] eqn:E0; [|contradiction].
  destruct (exec st tr) as [st2|] eqn:E1; [|contradiction]. destruct X as (X1 & X2 & X3 & X4 & CT & X5 & X6 & X7 & X8).
  assert (Q : all_quiet st2).
  { intros r I. left. apply (in_map r_pc) in I. rewrite X2 in I. cbn in I. destruct I as [I|[]]; auto. }
  destruct (settle_fair st tr st2 E1 X1 Q) as (F1 & F2 & F3).
  exists h, tr0, (settle st tr), (nth_error tr). split; [split; [exact (build_reachable _ _ _ _ _ _ _ B)|split; [repeat constructor|exact E0]]|].
  split; [intros y I; cbn in I; intuition discriminate|]. split; [intros y I; cbn in I; intuition discriminate|].
  split; [left; exact X4|].
  split; [cbn [along tr0]; repeat (split; [exact Logic.I|]; match goal with |- match ?x with _ => _ end => destruct x; [|exact Logic.I] end); exact Logic.I|].
  split; [reflexivity|]. split; [exact X5|].
  split; [apply (settle_continues h st tr st2 E1); rewrite CT; repeat constructor; vm_compute; discriminate|].
  split; [intros k i N; apply nth_error_In in N; cbn in N; intuition discriminate|].
  split; [apply (settle_few st tr st2 E1 X3)|].
  split; [intros k l N; apply nth_error_In in N; cbn in N; intuition (subst; exact Logic.I)|].
  auto 10.
Qed.

(** A recorder that is in use but never used again makes [refresh] wait for ever: one recorder, whose owner
    does nothing, and a reader that would go on if it could. *)
Theorem C69_unused_recorder_refuted : exists h0 tr0 s a,
  run h0 tr0 (s 0%nat) /\ merged_untouched tr0 /\ guards_dropped tr0 /\ merge_safe h0 /\
  along idles_outside (init h0) tr0 /\ shifts tr0 < usize_max /\ s_lock (s 0%nat) <> Poisoned /\
  continues h0 s a /\ no_leak a /\ few_recorders s /\ idles_outside_ever s a /\ clones_end a /\
  sections_go_on s a /\ reader_goes_on s a /\ in_refresh (s 0%nat) /\
  map r_pc (s_recs (s 0%nat)) = [PReady] /\ forall k, s_reader (s k) = RWait false 1 0.
Proof. exact C69_unused_recorder_refuted_proof. Qed.
Print Assumptions C69_unused_recorder_refuted.

(** Cloning for ever can keep [refresh] (and [refresh_timeout]) from returning, although everybody else goes
    on and there is never more than one recorder in use: an idle recorder is cloned again and again, and
    every clone is dropped at once; each time the reader's first loop finds one more histogram in the
    channel. *)
Theorem C69_clones_refuted : forall timed : bool, exists h0 tr0 s a,
  run h0 tr0 (s 0%nat) /\ merged_untouched tr0 /\ guards_dropped tr0 /\ merge_safe h0 /\
  shifts tr0 < usize_max /\ s_lock (s 0%nat) <> Poisoned /\
  continues h0 s a /\ no_leak a /\ (forall k, active_recorders (s k) <= 1) /\ idles_outside_ever s a /\
  recorders_go_on s a /\ reader_goes_on s a /\
  forall k, s_reader (s k) = RDrain timed.
Proof. exact C69_clones_refuted_proof. Qed.
Print Assumptions C69_clones_refuted.

(** A call of a recording method takes three steps of its own thread.  Each of them is possible at once,
    whatever the reader and the other recorders have done meanwhile, even if one of them holds the mutex
    for ever; nothing can make the recorder wait. *)
Theorem C70_recording_never_waits : forall h0 tr st i r o t1 t2, run h0 tr st -> nth_error (s_recs st) i = Some r -> r_pc r = PReady ->
  op_ok (h_ctr h0) o -> Forall (others i) t1 -> Forall (others i) t2 -> Forall (label_ok (h_ctr h0)) (t1 ++ t2) ->
  exists st1, step st (LWrite i o) = Some st1 /\
  forall st2, exec st1 t1 = Some st2 -> exists st3, step st2 (LLoad i) = Some st3 /\
  forall st4, exec st3 t2 = Some st4 -> exists st5, step st4 (LFinish i) = Some st5 /\
  exists r', nth_error (s_recs st5) i = Some r' /\ r_pc r' = PReady.
Proof. exact C70_recording_never_waits_proof. Qed.
Print Assumptions C70_recording_never_waits.

(** recorder 1 records while recorder 0 holds the mutex for ever and the reader waits for it *)
Example ex_C70 : match build U64 1 1000 2 false [] with
  | Some h =>
      reachable h /\ match exec (init h) [RRecorder; RRecorder; RStart false; REmpty; LIdle 0] with
      | Some st => s_lock st = Held 0 /\ s_reader st = RCount false /\ step st RRead = None
      | None => False end /\
      match exec (init h) [RRecorder; RRecorder; RStart false; REmpty; LIdle 0; LWrite 1 (ORecord 7 1); LLoad 1; LFinish 1] with
      | Some st => s_lock st = Held 0 /\ map r_pc (s_recs st) = [PIdling; PReady] /\ length (s_history st) = 1%nat
      | None => False end
  | None => False end.
Proof. case_of. Qed.

(** Nobody holds the mutex for long: whoever holds it can release it with at most two steps of their own,
    which nothing can prevent. *)
Theorem C70_mutex_released : forall h0 tr st i, run h0 tr st -> s_lock st = Held i ->
  exists tr2 st2, (length tr2 <= 2)%nat /\ Forall (section_step i) tr2 /\ exec st tr2 = Some st2 /\ s_lock st2 = Free.
Proof. exact C70_mutex_released_proof. Qed.
Print Assumptions C70_mutex_released.

Example ex_C70_released : match build U64 1 1000 2 false [] with
  | Some h =>
      let tr := [RRecorder; RRecorder; RStart false; REmpty; LIdle 0] in
      match exec (init h) tr with
      | Some st => run h tr st /\ s_lock st = Held 0 /\ Forall (section_step 0) [LIdleLoad 0; LIdleEnd 0] /\
          match exec st [LIdleLoad 0; LIdleEnd 0] with Some st2 => s_lock st2 = Free | None => False end
      | None => False end
  | None => False end.
Proof. sync_case. Qed.
