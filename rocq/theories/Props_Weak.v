(** Property theorems; the proofs are in [PfWeak].  Generated by tools/gen_theorems.py. *)
From Verif Require Import Machine Log2Model HistModel Spec Reach Witness Cases CasesSync SyncModel SyncSpec LiveSpec WeakModel WeakSpec PfWeak.
From Coq Require Import Permutation.


(** The executions of [SyncModel] are those executions of [WeakModel] in which every load of the phase
    returns its latest value. *)
Theorem C73_sequential_runs : forall h0 tr st, run h0 tr st <->
  exists wtr w, acts wtr = tr /\ wrun h0 wtr w /\ walong up_to_date (winit h0) wtr /\ w_st w = st.
Proof. exact C73_sequential_runs_proof. Qed.
Print Assumptions C73_sequential_runs.

Example ex_C73_sequential_runs : match build U64 1 1000 2 false [] with
  | Some h =>
      let tr := [RRecorder; RStart false; REmpty; RRead; RShift; LWrite 0 (ORecord 7 1); LLoad 0; LFinish 0; RRecv; RDone; REmpty] in
      let wtr := [(RRecorder, 0); (RStart false, 0); (REmpty, 0); (RRead, 0); (RShift, 0); (LWrite 0 (ORecord 7 1), 0); (LLoad 0, 1); (LFinish 0, 0);
                  (RRecv, 0); (RDone, 0); (REmpty, 0)] in
      match exec (init h) tr, wexec (winit h) wtr with
      | Some st, Some w => run h tr st /\ acts wtr = tr /\ wrun h wtr w /\ walong up_to_date (winit h) wtr /\ held (b_hist (s_merged st)) = [(7, 1)] /\
          held (b_hist (s_merged (w_st w))) = [(7, 1)]
      | _, _ => False end
  | None => False end.
Proof. sync_case. Qed.

(** Every call ever made on a recorder is in exactly one place, whatever the recorders see of the phase: the
    local histogram of a recorder, the channel or the merged histogram. *)
Theorem C73_every_call_in_one_place : forall h0 tr w, wrun h0 tr w -> merged_untouched (acts tr) -> reader_alive (w_st w) ->
  Permutation (b_log (s_merged (w_st w)) ++ flat_map b_log (s_chan (w_st w)) ++ flat_map (fun r => b_log (r_local r)) (s_recs (w_st w)))
    (s_history (w_st w)) /\
  map c_id (s_history (w_st w)) = seq 0 (length (s_history (w_st w))) /\
  map (fun c => (c_rec c, c_op c)) (s_history (w_st w)) = writes (acts tr).
Proof. exact C73_every_call_in_one_place_proof. Qed.
Print Assumptions C73_every_call_in_one_place.

(** recorder 0 does not see that the phase has moved; its first call stays where it is, that of recorder 1 is in the
    merged histogram, and the last one of recorder 1 in the channel *)
Example ex_C73_one_place : match build U64 1 1000 2 false [(5, 2)] with
  | Some h =>
      let tr := [(RRecorder, 0); (RRecorder, 0); (RStart false, 0); (REmpty, 0); (RRead, 0); (RShift, 0);
                 (LWrite 0 (ORecord 7 1), 0); (LLoad 0, 0); (LFinish 0, 0);
                 (LWrite 1 (ORecord 9 4), 0); (LLoad 1, 1); (LFinish 1, 0); (RRecv, 0); (LWrite 1 (ORecord 8 1), 0); (LLoad 1, 1); (LFinish 1, 0);
                 (LDrop 1, 0); (LDropEnd 1, 0)] in
      match wexec (winit h) tr with
      | Some w => wrun h tr w /\ merged_untouched (acts tr) /\ reader_alive (w_st w) /\
          map c_id (b_log (s_merged (w_st w))) = [1]%nat /\ map (fun b => map c_id (b_log b)) (s_chan (w_st w)) = [[2]]%nat /\
          map (fun r => map c_id (b_log (r_local r))) (s_recs (w_st w)) = [[0]; []]%nat /\ map c_rec (s_history (w_st w)) = [0; 1; 1]%nat
      | None => False end
  | None => False end.
Proof. sync_case. Qed.

(** As long as no counter overflows, each of these histograms holds exactly the samples of the calls that
    are in it. *)
Theorem C73_contents : forall h0 tr w, wrun h0 tr w -> merged_untouched (acts tr) -> only_adds_samples (acts tr) ->
  reader_alive (w_st w) -> no_saturation h0 (samples (s_history (w_st w))) ->
  holds_over h0 (b_hist (s_merged (w_st w))) (samples (b_log (s_merged (w_st w)))) /\
  (forall b, In b (s_chan (w_st w)) -> holds h0 (b_hist b) (samples (b_log b))) /\
  (forall r, In r (s_recs (w_st w)) -> holds h0 (b_hist (r_local r)) (samples (b_log (r_local r)))).
Proof. exact C73_contents_proof. Qed.
Print Assumptions C73_contents.

(** Recorder 0 makes two calls after the phase has moved and sees nothing of it; the reader waits for both
    recorders and has got recorder 1's histogram. *)
Example ex_C73_contents : match build U64 1 1000 2 false [(5, 2)] with
  | Some h =>
      let tr := [(RRecorder, 0); (RRecorder, 0); (RStart false, 0); (REmpty, 0); (RRead, 0); (RShift, 0);
                 (LWrite 0 (ORecord 7 1), 0); (LLoad 0, 0); (LFinish 0, 0); (LWrite 0 (ORecord 8 1), 0); (LLoad 0, 0); (LFinish 0, 0);
                 (LWrite 1 (ORecord 9 4), 0); (LLoad 1, 1); (LFinish 1, 0); (RRecv, 0)] in
      match wexec (winit h) tr with
      | Some w => wrun h tr w /\ merged_untouched (acts tr) /\ only_adds_samples (acts tr) /\ reader_alive (w_st w) /\
          no_saturation h (samples (s_history (w_st w))) /\
          s_reader (w_st w) = RWait false 2 1 /\ held (b_hist (s_merged (w_st w))) = [(5, 2); (9, 4)] /\
          map (fun r => held (b_hist (r_local r))) (s_recs (w_st w)) = [[(7, 1); (8, 1)]; []] /\ map r_phase (s_recs (w_st w)) = [0; 1]
      | None => False end
  | None => False end.
Proof. sync_case. Qed.

(** [refresh] never panics. *)
Theorem C73_refresh_never_panics : forall h0 tr w, wrun h0 tr w -> merged_untouched (acts tr) -> merge_safe h0 ->
  s_reader (w_st w) <> RPanicked.
Proof. exact C73_refresh_never_panics_proof. Qed.
Print Assumptions C73_refresh_never_panics.

Example ex_C73_never_panics : match build U64 1 1000 2 false [] with
  | Some h =>
      let tr := [(RRecorder, 0); (RRecorder, 0); (RStart false, 0); (REmpty, 0); (RRead, 0); (RShift, 0);
                 (LWrite 0 (ORecord 7 1), 0); (LLoad 0, 1); (LFinish 0, 0); (RRecv, 0); (LWrite 1 (ORecord 8 1), 0); (LLoad 1, 0); (LFinish 1, 0)] in
      match wexec (winit h) tr with
      | Some w => wrun h tr w /\ merged_untouched (acts tr) /\ merge_safe h /\ s_reader (w_st w) = RWait false 2 1 /\ map r_phase (s_recs (w_st w)) = [1; 0]
      | None => False end
  | None => False end.
Proof. sync_case. Qed.

(** The shared count is the number of recorders in use, and the mutex is not poisoned. *)
Theorem C73_count : forall h0 tr w, wrun h0 tr w -> guards_dropped (acts tr) ->
  s_count (w_st w) = active_recorders (w_st w) /\ (Z.of_nat (length (s_recs (w_st w))) < usize_max -> s_lock (w_st w) <> Poisoned).
Proof. exact C73_count_proof. Qed.
Print Assumptions C73_count.

(** The mutex is held by recorder [i] exactly while [i] is inside its critical section, and whoever holds it
    can go on. *)
Theorem C73_mutex : forall h0 tr w i r, wrun h0 tr w -> nth_error (s_recs (w_st w)) i = Some r ->
  (s_lock (w_st w) = Held i <-> in_section r = true) /\
  (s_lock (w_st w) = Held i -> exists l k w', section_step i l /\ wstep w (l, k) = Some w').
Proof. exact C73_mutex_proof. Qed.
Print Assumptions C73_mutex.

(** the hypotheses of the last three: recorder 1 is on its way to idle and has loaded the phase, not the latest one; a
    recorder has been dropped *)
Example ex_C73_count : match build U64 1 1000 2 false [(5, 2)] with
  | Some h =>
      let tr := [(RRecorder, 0); (RRecorder, 0); (LClone 0, 0); (RStart false, 0); (REmpty, 0); (RRead, 0); (RShift, 0);
                 (LWrite 0 (ORecord 7 1), 0); (LLoad 0, 0); (LFinish 0, 0); (LDrop 2, 0); (LDropEnd 2, 0); (LIdle 1, 0); (LIdleLoad 1, 0)] in
      match wexec (winit h) tr with
      | Some w => wrun h tr w /\ merged_untouched (acts tr) /\ guards_dropped (acts tr) /\ merge_safe h /\
          Z.of_nat (length (s_recs (w_st w))) < usize_max /\ map r_pc (s_recs (w_st w)) = [PReady; PIdlingLoaded 0; PGone] /\
          s_lock (w_st w) = Held 1 /\ s_count (w_st w) = 1 /\ active_recorders (w_st w) = 1 /\ s_phase (w_st w) = 1 /\
          match wstep w (LIdleEnd 1, 0) with Some w' => s_lock (w_st w') = Free | None => False end
      | None => False end
  | None => False end.
Proof. sync_case. Qed.

(** If every recorder has been dropped or is idle, [refresh] returns after at most as many steps as there are
    histograms in the channel, plus five, never stuck and without panicking; and every call is in the merged
    histogram then, except what is still in the local histogram of an idle recorder. *)
Theorem C73_quiet : forall h0 tr w t k tr2 w2, wrun h0 tr w -> merged_untouched (acts tr) -> guards_dropped (acts tr) -> merge_safe h0 ->
  Z.of_nat (length (s_recs (w_st w))) < usize_max -> s_reader (w_st w) = RReady -> all_quiet (w_st w) ->
  wexec w ((RStart t, k) :: tr2) = Some w2 -> Forall refresh_step (acts tr2) ->
  Z.of_nat (length tr2) <= Z.of_nat (length (s_chan (w_st w))) + 5 /\
  (s_reader (w_st w2) <> RReady -> exists l k w3, refresh_step l /\ wstep w2 (l, k) = Some w3) /\
  (s_reader (w_st w2) = RReady -> s_chan (w_st w2) = [] /\ s_recs (w_st w2) = s_recs (w_st w) /\
     Permutation (b_log (s_merged (w_st w2)) ++ flat_map (fun r => b_log (r_local r)) (s_recs (w_st w))) (s_history (w_st w))).
Proof. exact C73_quiet_proof. Qed.
Print Assumptions C73_quiet.

(** recorder 1 has become idle without seeing that the phase has moved, and keeps its histogram; recorder 0 is dropped *)
Example ex_C73_quiet : match build U64 1 1000 2 false [] with
  | Some h =>
      let tr := [(RRecorder, 0); (RRecorder, 0); (RStart true, 0); (REmpty, 0); (RRead, 0); (RShift, 0); (RTimeout, 0); (REmpty, 0);
                 (LWrite 0 (ORecord 7 1), 0); (LLoad 0, 0); (LFinish 0, 0); (LWrite 1 (ORecord 9 4), 0); (LLoad 1, 0); (LFinish 1, 0);
                 (LIdle 1, 0); (LIdleLoad 1, 0); (LIdleEnd 1, 0); (LDrop 0, 0); (LDropEnd 0, 0)] in
      let tr2 := [(RRecv, 0); (REmpty, 0); (RRead, 0); (RShift, 0); (RDone, 0); (REmpty, 0)] in
      match wexec (winit h) tr with
      | Some w => wrun h tr w /\ merged_untouched (acts tr) /\ guards_dropped (acts tr) /\ merge_safe h /\
          Z.of_nat (length (s_recs (w_st w))) < usize_max /\ s_reader (w_st w) = RReady /\ all_quiet (w_st w) /\ Forall refresh_step (acts tr2) /\
          match wexec w ((RStart false, 0) :: tr2) with
          | Some w2 => s_reader (w_st w2) = RReady /\ held (b_hist (s_merged (w_st w2))) = [(7, 1)] /\
              map (fun r => held (b_hist (r_local r))) (s_recs (w_st w2)) = [[]; [(9, 4)]]
          | None => False end
      | None => False end
  | None => False end.
Proof. sync_case. Qed.

(** If every recorder has been dropped, no thread but the reader can do anything any more, and the merged
    histogram ends up with every call ever made. *)
Theorem C73_all_dropped : forall h0 tr w t k tr2 w2, wrun h0 tr w -> merged_untouched (acts tr) -> guards_dropped (acts tr) -> merge_safe h0 ->
  Z.of_nat (length (s_recs (w_st w))) < usize_max -> s_reader (w_st w) = RReady -> all_dropped (w_st w) ->
  wexec w ((RStart t, k) :: tr2) = Some w2 -> Forall in_call (acts tr2) ->
  Forall refresh_step (acts tr2) /\
  Z.of_nat (length tr2) <= Z.of_nat (length (s_chan (w_st w))) + 5 /\
  (s_reader (w_st w2) <> RReady -> exists l k w3, refresh_step l /\ wstep w2 (l, k) = Some w3) /\
  (s_reader (w_st w2) = RReady -> s_chan (w_st w2) = [] /\ Permutation (b_log (s_merged (w_st w2))) (s_history (w_st w))).
Proof. exact C73_all_dropped_proof. Qed.
Print Assumptions C73_all_dropped.

(** Both recorders record after the phase has moved without seeing it; one becomes idle and sends nothing, then
    both are dropped, and the next [refresh] has everything. *)
Example ex_C73_all_dropped : match build U64 1 1000 2 false [] with
  | Some h =>
      let tr := [(RRecorder, 0); (RRecorder, 0); (RStart true, 0); (REmpty, 0); (RRead, 0); (RShift, 0); (RTimeout, 0); (REmpty, 0);
                 (LWrite 0 (ORecord 7 1), 0); (LLoad 0, 0); (LFinish 0, 0); (LWrite 1 (ORecord 9 4), 0); (LLoad 1, 0); (LFinish 1, 0);
                 (LIdle 1, 0); (LIdleLoad 1, 0); (LIdleEnd 1, 0); (LDrop 0, 0); (LDropEnd 0, 0); (LWake 1, 0); (LWakeEnd 1, 0); (LDrop 1, 0); (LDropEnd 1, 0)] in
      match wexec (winit h) tr with
      | Some w => map r_pc (s_recs (w_st w)) = [PGone; PGone] /\
          match wexec w [(RStart false, 0); (RRecv, 0); (RRecv, 0); (REmpty, 0); (RRead, 0); (RShift, 0); (RDone, 0); (REmpty, 0)] with
          | Some w2 => s_reader (w_st w2) = RReady /\ held (b_hist (s_merged (w_st w2))) = [(7, 1); (9, 4)]
          | None => False end
      | None => False end
  | None => False end.
Proof. vm_compute. auto 10. Qed.

(** Recording never waits: each of the three steps of a call is possible at once, whatever happens in between;
    the load may return anything the memory model allows. *)
Theorem C73_recording_never_waits : forall h0 tr w i r o t1 t2, wrun h0 tr w -> nth_error (s_recs (w_st w)) i = Some r -> r_pc r = PReady ->
  op_ok (h_ctr h0) o -> Forall (others i) (acts t1) -> Forall (others i) (acts t2) -> Forall (label_ok (h_ctr h0)) (acts t1 ++ acts t2) ->
  exists w1, wstep w (LWrite i o, 0) = Some w1 /\
  forall w2, wexec w1 t1 = Some w2 ->
    (exists k w3, wstep w2 (LLoad i, k) = Some w3) /\
    forall k w3, wstep w2 (LLoad i, k) = Some w3 ->
    forall w4, wexec w3 t2 = Some w4 -> exists w5, wstep w4 (LFinish i, 0) = Some w5 /\
    exists r', nth_error (s_recs (w_st w5)) i = Some r' /\ r_pc r' = PReady.
Proof. exact C73_recording_never_waits_proof. Qed.
Print Assumptions C73_recording_never_waits.

(** the mutex is held by recorder 1, and the phase moves twice while recorder 0 records *)
Example ex_C73_recording_never_waits : match build U64 1 1000 2 false [] with
  | Some h =>
      let ref := [(RStart true, 0); (REmpty, 0); (RRead, 0); (RShift, 0); (RTimeout, 0); (REmpty, 0)] in
      let tr := [(RRecorder, 0); (RRecorder, 0)] in
      let t1 := ref in
      let t2 := ref ++ [(LIdle 1, 0); (LIdleLoad 1, 1)] in
      match wexec (winit h) tr with
      | Some w => wrun h tr w /\ map r_pc (s_recs (w_st w)) = [PReady; PReady] /\
          match wstep w (LWrite 0 (ORecord 7 1), 0) with
          | Some w1 => match wexec w1 t1 with
              | Some w2 => wstep w2 (LLoad 0, 0) <> None /\ wstep w2 (LLoad 0, 1) <> None /\ wstep w2 (LLoad 0, 2) = None /\
                  match wstep w2 (LLoad 0, 1) with
                  | Some w3 => match wexec w3 t2 with
                      | Some w4 => s_lock (w_st w4) = Held 1 /\
                          match wstep w4 (LFinish 0, 0) with Some w5 => map r_phase (s_recs (w_st w5)) = [1; 0] | None => False end
                      | None => False end
                  | None => False end
              | None => False end
          | None => False end
      | None => False end
  | None => False end.
Proof. sync_case. Qed.

(** How outdated a load can be.  On the way to idle, and on waking up, a recorder sees all moves of the phase
    but possibly the last one; and all of them between the reader's lines 316 and 319.  A recorder that
    records never sees an older phase than before. *)
Theorem C73_staleness : forall h0 tr w i k w', wrun h0 tr w ->
  (wstep w (LIdleLoad i, k) = Some w' \/ wstep w (LWakeEnd i, k) = Some w' ->
     shifts (acts tr) - 1 <= k <= shifts (acts tr) /\ (in_window (w_st w) -> k = shifts (acts tr))) /\
  (wstep w (LLoad i, k) = Some w' -> 0 <= k <= shifts (acts tr) /\
     (shifts (acts tr) <= usize_max -> forall r, nth_error (s_recs (w_st w)) i = Some r -> r_phase r <= k)).
Proof. exact C73_staleness_proof. Qed.
Print Assumptions C73_staleness.

(** recorder 0 wakes up after the second refresh has moved the phase and still sees the move of the first
    one only; recorder 1 has seen nothing at all *)
Example ex_C73_staleness : match build U64 1 1000 2 false [] with
  | Some h =>
      let ref := [(RStart true, 0); (REmpty, 0); (RRead, 0); (RShift, 0); (RTimeout, 0); (REmpty, 0)] in
      let tr := [(RRecorder, 0); (RRecorder, 0); (LIdle 0, 0); (LIdleLoad 0, 0); (LIdleEnd 0, 0)] ++ ref ++ ref ++
                [(LWake 0, 0); (LWakeEnd 0, 1); (LWrite 1 (ORecord 7 1), 0); (LLoad 1, 0); (LFinish 1, 0)] in
      match wexec (winit h) tr with
      | Some w => s_phase (w_st w) = 2 /\ map r_phase (s_recs (w_st w)) = [1; 0] | None => False end /\
      wexec (winit h) ([(RRecorder, 0); (RRecorder, 0); (LIdle 0, 0); (LIdleLoad 0, 0); (LIdleEnd 0, 0)] ++ ref ++ ref ++
                [(LWake 0, 0); (LWakeEnd 0, 0)]) = None
  | None => False end.
Proof. vm_compute. auto 10. Qed.

(** A call of [refresh] that returns (by a timeout or not) has merged every call whose recorder had already
    handed it over when [refresh] was called. *)
Theorem C73_refresh_collects : forall h0 tr w1 t k te w2 c, wrun h0 tr w1 -> merged_untouched (acts tr) ->
  wexec w1 ((RStart t, k) :: te) = Some w2 -> Forall in_call (acts te) -> s_reader (w_st w2) = RReady ->
  In c (s_history (w_st w1)) -> (forall r, In r (s_recs (w_st w1)) -> ~ In c (b_log (r_local r))) ->
  In c (b_log (s_merged (w_st w2))).
Proof. exact C73_refresh_collects_proof. Qed.
Print Assumptions C73_refresh_collects.

(** recorder 0 has seen the first move of the phase and handed over 7 and 9; the next refresh has both, although it
    times out and recorder 1 does anything in between *)
Example ex_C73_refresh_collects : match build U64 1 1000 2 false [] with
  | Some h =>
      let tr := [(RRecorder, 0); (RRecorder, 0); (LWrite 0 (ORecord 7 1), 0); (LLoad 0, 0); (LFinish 0, 0);
                 (RStart true, 0); (REmpty, 0); (RRead, 0); (RShift, 0); (RTimeout, 0); (REmpty, 0); (LWrite 0 (ORecord 9 1), 0); (LLoad 0, 1); (LFinish 0, 0)] in
      let te := [(LWrite 1 (ORecord 2 1), 0); (RRecv, 0); (LLoad 1, 0); (LFinish 1, 0); (REmpty, 0); (LClone 1, 0); (RRead, 0); (RShift, 0);
                 (LDrop 1, 0); (LDropEnd 1, 0); (RTimeout, 0); (RRecv, 0); (REmpty, 0)] in
      match wexec (winit h) tr with
      | Some w1 => wrun h tr w1 /\ merged_untouched (acts tr) /\ Forall in_call (acts te) /\
          map c_id (s_history (w_st w1)) = [0; 1]%nat /\ map (fun r => b_log (r_local r)) (s_recs (w_st w1)) = [[]; []] /\ b_log (s_merged (w_st w1)) = [] /\
          match wexec w1 ((RStart true, 0) :: te) with
          | Some w2 => s_reader (w_st w2) = RReady /\ map c_id (b_log (s_merged (w_st w2))) = [0; 1; 2]%nat
          | None => False end
      | None => False end
  | None => False end.
Proof. sync_case. Qed.

(** Dropping recorder [i] hands over everything it still has, whatever it has seen of the phase. *)
Theorem C73_drop_hands_over : forall h0 ta k td w1 w2 i c,
  wrun h0 (ta ++ (LDropEnd i, k) :: td) w2 -> wexec (winit h0) ta = Some w1 ->
  In c (s_history (w_st w1)) -> c_rec c = i ->
  forall r, In r (s_recs (w_st w2)) -> ~ In c (b_log (r_local r)).
Proof. exact C73_drop_hands_over_proof. Qed.
Print Assumptions C73_drop_hands_over.

Example ex_C73_drop_hands_over : match build U64 1 1000 2 false [] with
  | Some h =>
      let ta := [(RRecorder, 0); (RRecorder, 0); (RStart true, 0); (REmpty, 0); (RRead, 0); (RShift, 0); (RTimeout, 0); (REmpty, 0);
                 (LWrite 0 (ORecord 7 1), 0); (LLoad 0, 0); (LFinish 0, 0); (LWrite 1 (ORecord 8 1), 0); (LDrop 0, 0)] in
      let td := [(LLoad 1, 0); (LFinish 1, 0)] in
      match wexec (winit h) ta, wexec (winit h) (ta ++ (LDropEnd 0, 0) :: td) with
      | Some w1, Some w2 => wrun h (ta ++ (LDropEnd 0, 0) :: td) w2 /\ map r_phase (s_recs (w_st w1)) = [0; 0] /\ s_phase (w_st w1) = 1 /\
          map (fun r => map c_id (b_log (r_local r))) (s_recs (w_st w1)) = [[0]; [1]]%nat /\
          map (fun r => map c_id (b_log (r_local r))) (s_recs (w_st w2)) = [[]; [1]]%nat
      | _, _ => False end
  | None => False end.
Proof. sync_case. Qed.

(** Likewise recording, or going idle, once the recorder has seen a move of the phase that came after the
    call: [look] loads value number [k], where [ta], up to which the call was made, contains fewer than [k]
    moves.  Recorder [i] must not have woken from idle in between. *)
Theorem C73_handed_over : forall h0 ta tb look k tc fin m td w1 w2 i c,
  wrun h0 (ta ++ tb ++ (look, k) :: tc ++ (fin, m) :: td) w2 -> wexec (winit h0) ta = Some w1 ->
  In c (s_history (w_st w1)) -> c_rec c = i ->
  (look = LLoad i \/ look = LIdleLoad i) -> (fin = LFinish i \/ fin = LIdleEnd i) -> ~ In (LWakeEnd i) (acts tb) ->
  shifts (acts ta) < k -> shifts (acts (ta ++ tb)) <= usize_max ->
  forall r, In r (s_recs (w_st w2)) -> ~ In c (b_log (r_local r)).
Proof. exact C73_handed_over_proof. Qed.
Print Assumptions C73_handed_over.

(** the phase has moved twice since the call; the recorder sees the first move only, and hands the call over *)
Example ex_C73_handed_over : match build U64 1 1000 2 false [] with
  | Some h =>
      let ref := [(RStart true, 0); (REmpty, 0); (RRead, 0); (RShift, 0); (RTimeout, 0); (REmpty, 0)] in
      let ta := [(RRecorder, 0); (LWrite 0 (ORecord 7 1), 0); (LLoad 0, 0); (LFinish 0, 0)] in
      let tb := ref ++ ref ++ [(LWrite 0 (ORecord 8 1), 0)] in
      let tr := ta ++ tb ++ (LLoad 0, 1) :: [] ++ (LFinish 0, 0) :: [] in
      match wexec (winit h) ta, wexec (winit h) tr with
      | Some w1, Some w2 => wrun h tr w2 /\ map c_id (s_history (w_st w1)) = [0]%nat /\ ~ In (LWakeEnd 0) (acts tb) /\
          shifts (acts ta) < 1 /\ shifts (acts (ta ++ tb)) <= usize_max /\ s_phase (w_st w2) = 2 /\
          map (fun r => b_log (r_local r)) (s_recs (w_st w2)) = [[]] /\ map (fun b => held (b_hist b)) (s_chan (w_st w2)) = [[(7, 1); (8, 1)]]
      | _, _ => False end
  | None => False end.
Proof. sync_case. Qed.

(** So going idle hands over every call that was made two moves of the phase before, whatever the loads
    return. *)
Theorem C73_idle_hands_over : forall h0 ta tb k tc m td w1 w2 i c,
  wrun h0 (ta ++ tb ++ (LIdleLoad i, k) :: tc ++ (LIdleEnd i, m) :: td) w2 -> wexec (winit h0) ta = Some w1 ->
  In c (s_history (w_st w1)) -> c_rec c = i -> ~ In (LWakeEnd i) (acts tb) ->
  2 <= shifts (acts tb) -> shifts (acts (ta ++ tb)) <= usize_max ->
  forall r, In r (s_recs (w_st w2)) -> ~ In c (b_log (r_local r)).
Proof. exact C73_idle_hands_over_proof. Qed.
Print Assumptions C73_idle_hands_over.

(** recorder 0 records 7; two refreshes time out; it goes idle, seeing only the first move, and hands 7 over *)
Example ex_C73_idle_hands_over : match build U64 1 1000 2 false [] with
  | Some h =>
      let ref := [(RStart true, 0); (REmpty, 0); (RRead, 0); (RShift, 0); (RTimeout, 0); (REmpty, 0)] in
      let ta := [(RRecorder, 0); (LWrite 0 (ORecord 7 1), 0); (LLoad 0, 0); (LFinish 0, 0)] in
      match wexec (winit h) (ta ++ (ref ++ ref ++ [(LIdle 0, 0)]) ++ (LIdleLoad 0, 1) :: [] ++ (LIdleEnd 0, 0) :: []) with
      | Some w => s_phase (w_st w) = 2 /\ map (fun b => held (b_hist b)) (s_chan (w_st w)) = [[(7, 1)]] /\
                  map (fun r => held (b_hist (r_local r))) (s_recs (w_st w)) = [[]]
      | None => False end
  | None => False end.
Proof. vm_compute. auto 10. Qed.

(** [C43_barrier] with outdated loads: recorders that record may see outdated phases, and then [refresh]
    waits for them longer; recorders that become idle or wake up during the refresh must see the latest one
    (see [wsmooth]). *)
Theorem C74_barrier : forall h0 tr1 w1 t k tr2 w2, wrun h0 tr1 w1 -> merged_untouched (acts tr1) -> guards_dropped (acts tr1) ->
  shifts (acts (tr1 ++ tr2)) <= usize_max -> synced (w_st w1) ->
  wexec w1 ((RStart t, k) :: tr2) = Some w2 -> Forall in_call (acts tr2) -> walong wsmooth w1 ((RStart t, k) :: tr2) ->
  s_reader (w_st w2) = RReady ->
  synced (w_st w2) /\ s_chan (w_st w2) = [] /\
  (forall c r, In c (s_history (w_st w1)) -> nth_error (s_recs (w_st w1)) (c_rec c) = Some r -> recording r ->
     ~ In (LIdle (c_rec c)) (acts tr2) -> In c (b_log (s_merged (w_st w2)))).
Proof. exact C74_barrier_proof. Qed.
Print Assumptions C74_barrier.

(** recorder 0 records twice during the refresh without seeing that the phase has moved; only its third call
    sees it and hands over all its calls, and [refresh] has waited *)
Example ex_C74_barrier : match build U64 1 1000 2 false [] with
  | Some h =>
      let tr1 := [(RRecorder, 0); (RRecorder, 0); (LIdle 1, 0); (LIdleLoad 1, 0); (LIdleEnd 1, 0); (LWrite 0 (ORecord 7 1), 0); (LLoad 0, 0); (LFinish 0, 0)] in
      let tr2 := [(REmpty, 0); (RRead, 0); (RShift, 0); (LWrite 0 (ORecord 8 1), 0); (LLoad 0, 0); (LFinish 0, 0);
                  (LWake 1, 0); (LWakeEnd 1, 1); (LWrite 1 (ORecord 2 1), 0); (LLoad 1, 1); (LFinish 1, 0);
                  (LWrite 0 (ORecord 9 1), 0); (LLoad 0, 0); (LFinish 0, 0); (LWrite 0 (ORecord 10 1), 0); (LLoad 0, 1); (LFinish 0, 0);
                  (RRecv, 0); (RDone, 0); (REmpty, 0)] in
      match wexec (winit h) (tr1 ++ (RStart false, 0) :: tr2) with
      | Some w => s_reader (w_st w) = RReady /\ held (b_hist (s_merged (w_st w))) = [(7, 1); (8, 1); (9, 1); (10, 1)] /\ map r_phase (s_recs (w_st w)) = [1; 1]
      | None => False end
  | None => False end.
Proof. vm_compute. auto 10. Qed.

(** Between two calls of [refresh] the condition "every active recorder has seen the current phase" is kept
    by every step, except leaking a guard, cloning an idle recorder, and waking up with an outdated phase. *)
Theorem C74_synced_kept : forall h0 tr w l k w', wrun h0 tr w -> shifts (acts tr) <= usize_max ->
  synced (w_st w) -> s_reader (w_st w) = RReady -> s_reader (w_st w') = RReady -> wstep w (l, k) = Some w' ->
  (forall i, l <> LForget i) -> (forall i r, l = LClone i -> nth_error (s_recs (w_st w)) i = Some r -> r_pc r <> PIdle) ->
  (forall i, l = LWakeEnd i -> k = w_now w) -> synced (w_st w').
Proof. exact C74_synced_kept_proof. Qed.
Print Assumptions C74_synced_kept.

(** both recorders have seen the phase after a refresh; one goes idle and wakes up *)
Example ex_C74_synced_kept : match build U64 1 1000 2 false [] with
  | Some h =>
      let tr := [(RRecorder, 0); (RRecorder, 0); (RStart false, 0); (REmpty, 0); (RRead, 0); (RShift, 0);
                 (LWrite 0 (ORecord 7 1), 0); (LLoad 0, 1); (LFinish 0, 0); (LWrite 1 (ORecord 8 1), 0); (LLoad 1, 1); (LFinish 1, 0);
                 (RRecv, 0); (RRecv, 0); (RDone, 0); (REmpty, 0); (LIdle 0, 0); (LIdleLoad 0, 1); (LIdleEnd 0, 0); (LWake 0, 0)] in
      match wexec (winit h) tr with
      | Some w => map r_phase (s_recs (w_st w)) = [1; 1] /\ s_phase (w_st w) = 1 /\
          match wexec w [(LWakeEnd 0, 1)] with Some w2 => map r_phase (s_recs (w_st w2)) = [1; 1] | None => False end /\
          wexec w [(LWakeEnd 0, 0)] = None
      | None => False end
  | None => False end.
Proof. vm_compute. auto 10. Qed.

(** [C44_waits_for_someone] with outdated loads: recorders that record or wake up may see outdated phases, but
    those that become idle while the reader waits must see the latest one (see [widles_outside]). *)
Theorem C74_waits_for_someone : forall h0 tr w t n m, wrun h0 tr w -> guards_dropped (acts tr) ->
  walong widles_outside (winit h0) tr -> shifts (acts tr) <= usize_max -> s_reader (w_st w) = RWait t n m ->
  (exists l k w', (l = RRecv \/ l = RDone) /\ wstep w (l, k) = Some w') \/
  (exists i r, nth_error (s_recs (w_st w)) i = Some r /\ owes (s_phase (w_st w)) r = true).
Proof. exact C74_waits_for_someone_proof. Qed.
Print Assumptions C74_waits_for_someone.

Example ex_C74_waits_for : match build U64 1 1000 2 false [] with
  | Some h =>
      let tr := [(RRecorder, 0); (RRecorder, 0); (RStart false, 0); (REmpty, 0); (RRead, 0); (RShift, 0);
                 (LWrite 0 (ORecord 7 1), 0); (LLoad 0, 1); (LFinish 0, 0); (RRecv, 0); (LWrite 1 (ORecord 8 1), 0); (LLoad 1, 0); (LFinish 1, 0)] in
      match wexec (winit h) tr with
      | Some w => wrun h tr w /\ guards_dropped (acts tr) /\ walong widles_outside (winit h) tr /\ shifts (acts tr) <= usize_max /\
          s_reader (w_st w) = RWait false 2 1 /\ wstep w (RRecv, 0) = None /\ wstep w (RDone, 0) = None /\ map (owes (s_phase (w_st w))) (s_recs (w_st w)) = [false; true]
      | None => False end
  | None => False end.
Proof. sync_case. Qed.

(** A recorder that completes a call while the reader waits, and sees the latest phase in it, has paid. *)
Theorem C74_recording_pays : forall h0 tr w i tr2 m w2 t n k, wrun h0 tr w -> shifts (acts tr) <= usize_max ->
  s_reader (w_st w) = RWait t n k -> Forall in_call (acts tr2) -> Forall (others i) (acts tr2) ->
  wexec w ((LLoad i, w_now w) :: tr2 ++ [(LFinish i, m)]) = Some w2 ->
  exists r, nth_error (s_recs (w_st w2)) i = Some r /\ owes (s_phase (w_st w2)) r = false.
Proof. exact C74_recording_pays_proof. Qed.
Print Assumptions C74_recording_pays.

(** Once no recorder owes anything, [refresh] returns on its own: at most two steps more than there are
    histograms in the channel, never stuck, no panic. *)
Theorem C74_returns_when_paid : forall h0 tr w t n k tr2 w2, wrun h0 tr w -> merged_untouched (acts tr) -> guards_dropped (acts tr) -> merge_safe h0 ->
  walong widles_outside (winit h0) tr -> shifts (acts tr) <= usize_max -> s_reader (w_st w) = RWait t n k ->
  (forall r, In r (s_recs (w_st w)) -> owes (s_phase (w_st w)) r = false) ->
  wexec w tr2 = Some w2 -> Forall refresh_step (acts tr2) ->
  Z.of_nat (length tr2) <= Z.of_nat (length (s_chan (w_st w))) + 2 /\
  (s_reader (w_st w2) <> RReady -> exists l m w3, refresh_step l /\ wstep w2 (l, m) = Some w3).
Proof. exact C74_returns_when_paid_proof. Qed.
Print Assumptions C74_returns_when_paid.

(** The reader waits for two recorders.  Recorder 0 has paid.  Recorder 1 records twice; only the second call
    sees that the phase has moved and pays, and [refresh] returns in three steps. *)
Example ex_C74_waits : match build U64 1 1000 2 false [] with
  | Some h =>
      let tr := [(RRecorder, 0); (RRecorder, 0); (RStart false, 0); (REmpty, 0); (RRead, 0); (RShift, 0);
                 (LWrite 0 (ORecord 7 1), 0); (LLoad 0, 1); (LFinish 0, 0); (RRecv, 0); (LWrite 1 (ORecord 8 1), 0); (LLoad 1, 0); (LFinish 1, 0)] in
      match wexec (winit h) tr with
      | Some w => s_reader (w_st w) = RWait false 2 1 /\ map (owes (s_phase (w_st w))) (s_recs (w_st w)) = [false; true] /\ s_chan (w_st w) = [] /\
          match wexec w [(LWrite 1 (ORecord 9 4), 0); (LLoad 1, 1); (LFinish 1, 0)] with
          | Some w2 => map (owes (s_phase (w_st w2))) (s_recs (w_st w2)) = [false; false] /\
              match wexec w2 [(RRecv, 0); (RDone, 0); (REmpty, 0)] with
              | Some w3 => s_reader (w_st w3) = RReady /\ held (b_hist (s_merged (w_st w3))) = [(7, 1); (8, 1); (9, 4)]
              | None => False end
          | None => False end
      | None => False end
  | None => False end.
Proof. vm_compute. auto 10. Qed.

(** And it stays paid until the end of this [refresh], unless it is dropped (which sends its histogram again)
    or it was idle and wakes up with an outdated phase. *)
Theorem C74_paid_stays : forall h0 tr w t n m l k w' i r, wrun h0 tr w -> shifts (acts tr) <= usize_max -> s_reader (w_st w) = RWait t n m ->
  in_call l -> wstep w (l, k) = Some w' -> l <> LForget i -> l <> LDrop i -> (l = LWakeEnd i -> k = w_now w) ->
  nth_error (s_recs (w_st w)) i = Some r -> owes (s_phase (w_st w)) r = false ->
  exists r', nth_error (s_recs (w_st w')) i = Some r' /\ owes (s_phase (w_st w')) r' = false.
Proof. exact C74_paid_stays_proof. Qed.
Print Assumptions C74_paid_stays.

(** the hypotheses of the last four *)
Example ex_C74_hypotheses : match build U64 1 1000 2 false [] with
  | Some h =>
      let tr := [(RRecorder, 0); (RRecorder, 0); (RRecorder, 0); (RStart false, 0); (REmpty, 0); (RRead, 0); (RShift, 0);
                 (LWrite 0 (ORecord 7 1), 0); (LLoad 0, 1); (LFinish 0, 0); (RRecv, 0); (LIdle 2, 0); (LIdleLoad 2, 1); (LIdleEnd 2, 0);
                 (LWrite 1 (ORecord 8 1), 0); (LLoad 1, 0); (LFinish 1, 0); (LWrite 1 (ORecord 9 1), 0)] in
      let tr2 := [(LLoad 1, 1); (LWake 2, 0); (LWakeEnd 2, 1); (LFinish 1, 0)] in
      match wexec (winit h) tr with
      | Some w => wrun h tr w /\ merged_untouched (acts tr) /\ guards_dropped (acts tr) /\ merge_safe h /\ walong widles_outside (winit h) tr /\
          shifts (acts tr) <= usize_max /\ s_reader (w_st w) = RWait false 3 1 /\ w_now w = 1 /\ map (owes (s_phase (w_st w))) (s_recs (w_st w)) = [false; true; false] /\
          match wexec w tr2 with
          | Some w2 => wrun h (tr ++ tr2) w2 /\ Forall in_call (acts tr2) /\ walong widles_outside (winit h) (tr ++ tr2) /\
              s_reader (w_st w2) = RWait false 3 1 /\ (forall r, In r (s_recs (w_st w2)) -> owes (s_phase (w_st w2)) r = false) /\
              Forall refresh_step [RRecv; RRecv; RDone; REmpty] /\
              match wexec w2 [(RRecv, 0); (RRecv, 0); (RDone, 0); (REmpty, 0)] with Some w3 => s_reader (w_st w3) = RReady | None => False end
          | None => False end
      | None => False end
  | None => False end.
Proof. sync_case. Qed.

(** [smooth] alone is not enough for [C74_barrier]: no recorder becomes idle or wakes up between the reader's
    lines 316 and 319, but recorder 1 wakes up just after line 319 without seeing that the phase has moved.
    Its next call sees it, and recorder 1 sends its histogram, which the reader takes for that of recorder 0:
    [refresh] returns without the value recorder 0 has recorded.  (This is the run of
    [C43_missed_sample_refuted] where recorder 1 wakes up a little earlier, as another thread may see it: the
    window lasts until the recorder that wakes up sees the phase move.) *)
Theorem C74_missed_late_wake_refuted : exists h0 tr1 w1 tr2 w2 c, wrun h0 tr1 w1 /\ merged_untouched (acts tr1) /\ guards_dropped (acts tr1) /\
  synced (w_st w1) /\
  wexec w1 ((RStart false, 0) :: tr2) = Some w2 /\ Forall in_call (acts tr2) /\
  walong (fun w a => smooth (w_st w) (fst a)) w1 ((RStart false, 0) :: tr2) /\ s_reader (w_st w2) = RReady /\
  In c (s_history (w_st w1)) /\ (exists r, nth_error (s_recs (w_st w1)) (c_rec c) = Some r /\ recording r) /\
  ~ In (LIdle (c_rec c)) (acts tr2) /\
  ~ In c (b_log (s_merged (w_st w2))).
Proof. exact C74_missed_late_wake_refuted_proof. Qed.
Print Assumptions C74_missed_late_wake_refuted.

(** And [idles_outside] alone is not enough for [C74_waits_for_someone]: a recorder becomes idle while the
    reader already waits for it, but without seeing that the phase has moved, and so sends nothing.  Even if
    from then on every load returns the latest value, [refresh] never returns, however often the recorder
    wakes up and records, unless it is dropped or cloned. *)
Theorem C74_blocked_refuted : exists h0 tr w, wrun h0 tr w /\ guards_dropped (acts tr) /\
  walong (fun v a => idles_outside (w_st v) (fst a)) (winit h0) tr /\ map r_pc (s_recs (w_st w)) = [PIdle] /\
  s_reader (w_st w) = RWait false 1 0 /\
  (forall tr2 w2, wexec w tr2 = Some w2 -> walong up_to_date w tr2 ->
     Forall (fun l => match l with LDrop _ | LClone _ | LForget _ => False | _ => True end) (acts tr2) ->
     s_reader (w_st w2) = RWait false 1 0) /\
  (exists tr3 w3, wexec w tr3 = Some w3 /\ walong up_to_date w tr3 /\ length (writes (acts tr3)) = 3%nat).
Proof. exact C74_blocked_refuted_proof. Qed.
Print Assumptions C74_blocked_refuted.
