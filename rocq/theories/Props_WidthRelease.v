(** Property theorems; the proofs are in [PfWidthRelease].  Generated by tools/gen_theorems.py. *)
From Verif Require Import Machine Log2Model HistModel Spec Reach Witness Cases CasesSync SyncModel SyncSpec LiveSpec WeakModel WeakSpec ReleaseSyncModel ReleaseSyncSpec WidthSyncModel WidthSyncSpec WidthReleaseModel WidthReleaseSpec CasesWidthRelease PfWidthRelease.
From Coq Require Import Permutation.


(** As long as no guard of an idle recorder is forgotten and there are fewer than 2^B - 1 recorders, the
    executions are those of a checked build for the same target, so everything said about those (C84) holds. *)
Theorem C85_same : forall B h0 tr w, guards_dropped (acts tr) -> Z.of_nat (length (s_recs (w_st w))) < 2 ^ B - 1 ->
  (mrun B h0 tr w <-> nrun B h0 tr w).
Proof. exact C85_same_proof. Qed.
Print Assumptions C85_same.

(** two recorders; the second one has handed over, gone idle and is waking up, the first has not seen the new phase *)
Example ex_C85_same : match build U64 1 1000 2 false [(5, 2)] with
  | Some h =>
      let tr := [(RRecorder, 0); (LClone 0, 0); (RStart false, 0); (REmpty, 0); (RRead, 0); (RShift, 0);
                 (LWrite 0 (ORecord 7 1), 0); (LLoad 0, 0); (LFinish 0, 0); (LWrite 1 (ORecord 9 4), 0); (LLoad 1, 1); (LFinish 1, 0); (RRecv, 0);
                 (LIdle 1, 0); (LIdleLoad 1, 1); (LIdleEnd 1, 0); (LWake 1, 0)] in
      match mexec 32 (winit h) tr with
      | Some w => guards_dropped (acts tr) /\ Z.of_nat (length (s_recs (w_st w))) < (2 ^ 32 - 1) /\ mrun 32 h tr w /\ nrun 32 h tr w /\
          s_reader (w_st w) = RWait false 2 1 /\ s_count (w_st w) = 2
      | None => False end
  | None => False end.
Proof. msync_case. Qed.

(** In any case it executes whatever a checked build executes without having poisoned the mutex. *)
Theorem C85_as_checked : forall B h0 tr w, nrun B h0 tr w -> s_lock (w_st w) <> Poisoned -> mrun B h0 tr w.
Proof. exact C85_as_checked_proof. Qed.
Print Assumptions C85_as_checked.

(** one guard forgotten, but two recorders: the number is 0, one less than there are, and has not wrapped around *)
Example ex_C85_as_checked : match build U64 1 1000 2 false [(5, 2)] with
  | Some h =>
      let tr := [(RRecorder, 0); (RRecorder, 0); (LWrite 0 (ORecord 7 1), 0); (LLoad 0, 0); (LFinish 0, 0); (LIdle 0, 0); (LIdleLoad 0, 0); (LIdleEnd 0, 0);
                 (LForget 0, 0); (LWrite 0 (ORecord 8 2), 0); (LLoad 0, 0); (LFinish 0, 0); (LDrop 0, 0); (LDropEnd 0, 0);
                 (LWrite 1 (ORecord 9 4), 0); (LLoad 1, 0); (LFinish 1, 0)] in
      match mexec 32 (winit h) tr with
      | Some w => nrun 32 h tr w /\ s_lock (w_st w) <> Poisoned /\ mrun 32 h tr w /\ s_count (w_st w) = 0 /\ active_recorders (w_st w) = 1
      | None => False end
  | None => False end.
Proof. msync_case. Qed.

(** With 64 bits the executions are those of C83, with forgotten guards and any number of recorders and refreshes. *)
Theorem C85_same_64 : forall h0 tr w, mrun 64 h0 tr w <-> rrun h0 tr w.
Proof. exact C85_same_64_proof. Qed.
Print Assumptions C85_same_64.

(** the last recorder is being dropped and has made the number of recorders wrap around; a checked build has poisoned the mutex *)
Example ex_C85_same_64 : match build U64 1 1000 2 false [(5, 2)] with
  | Some h =>
      let tr := [(RRecorder, 0); (RRecorder, 0); (LWrite 0 (ORecord 7 1), 0); (LLoad 0, 0); (LFinish 0, 0); (LIdle 0, 0); (LIdleLoad 0, 0); (LIdleEnd 0, 0);
                 (LForget 0, 0); (LWrite 0 (ORecord 8 2), 0); (LLoad 0, 0); (LFinish 0, 0); (LDrop 0, 0); (LDropEnd 0, 0);
                 (LWrite 1 (ORecord 9 4), 0); (LLoad 1, 0); (LFinish 1, 0); (LDrop 1, 0)] in
      match mexec 64 (winit h) tr with
      | Some w => mrun 64 h tr w /\ rrun h tr w /\ s_count (w_st w) = usize_max /\
          match wexec (winit h) tr with Some v => s_lock (w_st v) = Poisoned | None => False end /\
          map (fun b => map c_id (b_log b)) (s_chan (w_st w)) = [[0; 1]]%nat /\
          map (fun r => map c_id (b_log (r_local r))) (s_recs (w_st w)) = [[]; [2]]%nat /\ map c_rec (s_history (w_st w)) = [0; 0; 1]%nat
      | None => False end
  | None => False end.
Proof. msync_case. Qed.

(** No sample is lost or counted twice, forgotten guards or not: every call is in exactly one place. *)
Theorem C85_every_call_in_one_place : forall B h0 tr w, mrun B h0 tr w -> merged_untouched (acts tr) -> reader_alive (w_st w) ->
  Permutation (b_log (s_merged (w_st w)) ++ flat_map b_log (s_chan (w_st w)) ++ flat_map (fun r => b_log (r_local r)) (s_recs (w_st w)))
    (s_history (w_st w)) /\
  map c_id (s_history (w_st w)) = seq 0 (length (s_history (w_st w))) /\
  map (fun c => (c_rec c, c_op c)) (s_history (w_st w)) = writes (acts tr).
Proof. exact C85_every_call_in_one_place_proof. Qed.
Print Assumptions C85_every_call_in_one_place.

(** the last recorder is being dropped and has made the number of recorders wrap around; a checked build has poisoned the mutex *)
Example ex_C85_one_place : match build U64 1 1000 2 false [(5, 2)] with
  | Some h =>
      let tr := [(RRecorder, 0); (RRecorder, 0); (LWrite 0 (ORecord 7 1), 0); (LLoad 0, 0); (LFinish 0, 0); (LIdle 0, 0); (LIdleLoad 0, 0); (LIdleEnd 0, 0);
                 (LForget 0, 0); (LWrite 0 (ORecord 8 2), 0); (LLoad 0, 0); (LFinish 0, 0); (LDrop 0, 0); (LDropEnd 0, 0);
                 (LWrite 1 (ORecord 9 4), 0); (LLoad 1, 0); (LFinish 1, 0); (LDrop 1, 0)] in
      match mexec 32 (winit h) tr with
      | Some w => mrun 32 h tr w /\ merged_untouched (acts tr) /\ reader_alive (w_st w) /\ s_count (w_st w) = (2 ^ 32 - 1) /\
          match nexec 32 (winit h) tr with Some v => s_lock (w_st v) = Poisoned | None => False end /\
          map (fun b => map c_id (b_log b)) (s_chan (w_st w)) = [[0; 1]]%nat /\
          map (fun r => map c_id (b_log (r_local r))) (s_recs (w_st w)) = [[]; [2]]%nat /\ map c_rec (s_history (w_st w)) = [0; 0; 1]%nat
      | None => False end
  | None => False end.
Proof. msync_case. Qed.

(** And every histogram contains the samples of its calls. *)
Theorem C85_contents : forall B h0 tr w, mrun B h0 tr w -> merged_untouched (acts tr) -> only_adds_samples (acts tr) ->
  reader_alive (w_st w) -> no_saturation h0 (samples (s_history (w_st w))) ->
  holds_over h0 (b_hist (s_merged (w_st w))) (samples (b_log (s_merged (w_st w)))) /\
  (forall b, In b (s_chan (w_st w)) -> holds h0 (b_hist b) (samples (b_log b))) /\
  (forall r, In r (s_recs (w_st w)) -> holds h0 (b_hist (r_local r)) (samples (b_log (r_local r)))).
Proof. exact C85_contents_proof. Qed.
Print Assumptions C85_contents.

(** the same, and a refresh that waits for 2^32 - 1 histograms has got all there are *)
Example ex_C85_contents : match build U64 1 1000 2 false [(5, 2)] with
  | Some h =>
      let tr := [(RRecorder, 0); (RRecorder, 0); (LWrite 0 (ORecord 7 1), 0); (LLoad 0, 0); (LFinish 0, 0); (LIdle 0, 0); (LIdleLoad 0, 0); (LIdleEnd 0, 0);
                 (LForget 0, 0); (LWrite 0 (ORecord 8 2), 0); (LLoad 0, 0); (LFinish 0, 0); (LDrop 0, 0); (LDropEnd 0, 0);
                 (LWrite 1 (ORecord 9 4), 0); (LLoad 1, 0); (LFinish 1, 0); (LDrop 1, 0); (LDropEnd 1, 0); (RStart true, 0); (RRecv, 0); (RRecv, 0); (REmpty, 0); (RRead, 0); (RShift, 0)] in
      match mexec 32 (winit h) tr with
      | Some w => mrun 32 h tr w /\ merged_untouched (acts tr) /\ only_adds_samples (acts tr) /\ reader_alive (w_st w) /\
          no_saturation h (samples (s_history (w_st w))) /\
          s_reader (w_st w) = RWait true (2 ^ 32 - 1) 0 /\ held (b_hist (s_merged (w_st w))) = [(5, 2); (7, 1); (8, 2); (9, 4)]
      | None => False end
  | None => False end.
Proof. msync_case. Qed.

(** Nor does a refresh panic. *)
Theorem C85_refresh_never_panics : forall B h0 tr w, mrun B h0 tr w -> merged_untouched (acts tr) -> merge_safe h0 ->
  s_reader (w_st w) <> RPanicked.
Proof. exact C85_refresh_never_panics_proof. Qed.
Print Assumptions C85_refresh_never_panics.

(** a refresh that waits for 2^32 - 1 histograms *)
Example ex_C85_never_panics : match build U64 1 1000 2 false [(5, 2)] with
  | Some h =>
      let tr := [(RRecorder, 0); (RRecorder, 0); (LWrite 0 (ORecord 7 1), 0); (LLoad 0, 0); (LFinish 0, 0); (LIdle 0, 0); (LIdleLoad 0, 0); (LIdleEnd 0, 0);
                 (LForget 0, 0); (LWrite 0 (ORecord 8 2), 0); (LLoad 0, 0); (LFinish 0, 0); (LDrop 0, 0); (LDropEnd 0, 0);
                 (LWrite 1 (ORecord 9 4), 0); (LLoad 1, 0); (LFinish 1, 0); (LDrop 1, 0); (LDropEnd 1, 0); (RStart true, 0); (RRecv, 0); (RRecv, 0); (REmpty, 0); (RRead, 0); (RShift, 0)] in
      match mexec 32 (winit h) tr with
      | Some w => mrun 32 h tr w /\ merged_untouched (acts tr) /\ merge_safe h /\ s_reader (w_st w) = RWait true (2 ^ 32 - 1) 0
      | None => False end
  | None => False end.
Proof. msync_case. Qed.

(** The mutex is never poisoned; recorder [i] holds it exactly while it is inside its critical section, and
    whoever holds it can go on.  The number of recorders is off by the number of forgotten guards, modulo
    2^B. *)
Theorem C85_count : forall B h0 tr w, mrun B h0 tr w ->
  s_lock (w_st w) <> Poisoned /\ s_count (w_st w) = (active_recorders (w_st w) - forgotten (acts tr)) mod 2 ^ B /\
  (forall i r, nth_error (s_recs (w_st w)) i = Some r ->
     (s_lock (w_st w) = Held i <-> in_section r = true) /\
     (s_lock (w_st w) = Held i -> exists l k w', section_step i l /\ mstep B w (l, k) = Some w')).
Proof. exact C85_count_proof. Qed.
Print Assumptions C85_count.

(** no recorder is in use, one guard is forgotten, and the number has wrapped around; recorder 1 has the mutex *)
Example ex_C85_count : match build U64 1 1000 2 false [(5, 2)] with
  | Some h =>
      let tr := [(RRecorder, 0); (RRecorder, 0); (LWrite 0 (ORecord 7 1), 0); (LLoad 0, 0); (LFinish 0, 0); (LIdle 0, 0); (LIdleLoad 0, 0); (LIdleEnd 0, 0);
                 (LForget 0, 0); (LWrite 0 (ORecord 8 2), 0); (LLoad 0, 0); (LFinish 0, 0); (LDrop 0, 0); (LDropEnd 0, 0);
                 (LWrite 1 (ORecord 9 4), 0); (LLoad 1, 0); (LFinish 1, 0); (LDrop 1, 0)] in
      match mexec 32 (winit h) tr with
      | Some w => mrun 32 h tr w /\ s_count (w_st w) = (2 ^ 32 - 1) /\ active_recorders (w_st w) = 0 /\ forgotten (acts tr) = 1 /\ s_lock (w_st w) = Held 1 /\
          match mstep 32 w (LDropEnd 1, 0) with Some v => s_lock (w_st v) = Free | None => False end
      | None => False end
  | None => False end.
Proof. msync_case. Qed.

(** A [refresh_timeout] is never stuck: it can go on, unless some recorder is inside its critical section. *)
Theorem C85_timeout_goes_on : forall B h0 tr w, mrun B h0 tr w -> in_timed_refresh (w_st w) ->
  (exists l k w', refresh_step l /\ mstep B w (l, k) = Some w') \/ (exists i, s_lock (w_st w) = Held i).
Proof. exact C85_timeout_goes_on_proof. Qed.
Print Assumptions C85_timeout_goes_on.

(** a refresh that waits for 2^32 - 1 histograms, with nobody left to send one: it times out and returns *)
Example ex_C85_timeout : match build U64 1 1000 2 false [(5, 2)] with
  | Some h =>
      let tr := [(RRecorder, 0); (RRecorder, 0); (LWrite 0 (ORecord 7 1), 0); (LLoad 0, 0); (LFinish 0, 0); (LIdle 0, 0); (LIdleLoad 0, 0); (LIdleEnd 0, 0);
                 (LForget 0, 0); (LWrite 0 (ORecord 8 2), 0); (LLoad 0, 0); (LFinish 0, 0); (LDrop 0, 0); (LDropEnd 0, 0);
                 (LWrite 1 (ORecord 9 4), 0); (LLoad 1, 0); (LFinish 1, 0); (LDrop 1, 0); (LDropEnd 1, 0); (RStart true, 0); (RRecv, 0); (RRecv, 0); (REmpty, 0); (RRead, 0); (RShift, 0)] in
      match mexec 32 (winit h) tr with
      | Some w => mrun 32 h tr w /\ in_timed_refresh (w_st w) /\ s_reader (w_st w) = RWait true (2 ^ 32 - 1) 0 /\ s_chan (w_st w) = [] /\ all_dropped (w_st w) /\
          match mexec 32 w [(RTimeout, 0); (REmpty, 0)] with Some v => s_reader (w_st v) = RReady | None => False end
      | None => False end
  | None => False end.
Proof. msync_case. Qed.

(** But a plain [refresh] can wait for ever: with 32 bits, after one forgotten guard, the number of recorders is
    2^32 - 1 once the recorder is dropped, and the next [refresh] waits for as many histograms.  Here nobody is
    left who could make a step. *)
Theorem C85_deadlock_refuted : exists h0 tr w, mrun 32 h0 tr w /\ merged_untouched (acts tr) /\ In (LForget 0) (acts tr) /\ forgotten (acts tr) = 1 /\
  all_dropped (w_st w) /\ s_chan (w_st w) = [] /\ s_reader (w_st w) = RWait false (2 ^ 32 - 1) 0 /\
  forall l k, mstep 32 w (l, k) = None.
Proof. exact C85_deadlock_refuted_proof. Qed.
Print Assumptions C85_deadlock_refuted.
