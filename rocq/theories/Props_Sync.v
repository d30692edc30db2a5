(** Property theorems; the proofs are in [PfSync].  Generated by tools/gen_theorems.py. *)
From Verif Require Import Machine Log2Model HistModel Spec Reach Witness Cases CasesSync SyncModel SyncSpec PfSync.
From Coq Require Import Permutation.


(** Every call ever made on a recorder is in exactly one place: the local histogram of a recorder, the
    channel or the merged histogram.  The history lists the calls in the order in which they ran. *)
Theorem C41_every_call_in_one_place : forall h0 tr st, run h0 tr st -> merged_untouched tr -> reader_alive st ->
  Permutation (b_log (s_merged st) ++ flat_map b_log (s_chan st) ++ flat_map (fun r => b_log (r_local r)) (s_recs st)) (s_history st) /\
  map c_id (s_history st) = seq 0 (length (s_history st)) /\
  map (fun c => (c_rec c, c_op c)) (s_history st) = writes tr.
Proof. exact C41_every_call_in_one_place_proof. Qed.
Print Assumptions C41_every_call_in_one_place.

Example ex_C41_one_place : match build U64 1 1000 2 false [(5, 2)] with
  | Some h =>
      let tr := [RRecorder; RRecorder; LWrite 0 (ORecord 7 1); LLoad 0; LFinish 0; RStart false; REmpty; RRead; RShift; LWrite 1 (ORecord 9 4); LLoad 1; LFinish 1; RRecv;
                 LWrite 1 (ORecord 8 1); LLoad 1; LFinish 1; LDrop 1; LDropEnd 1] in
      match exec (init h) tr with
      | Some st => run h tr st /\ merged_untouched tr /\ reader_alive st /\ map c_id (b_log (s_merged st)) = [1]%nat /\
          map (fun b => map c_id (b_log b)) (s_chan st) = [[2]]%nat /\ map (fun r => map c_id (b_log (r_local r))) (s_recs st) = [[0]; []]%nat /\
          map c_rec (s_history st) = [0; 1; 1]%nat
      | None => False end
  | None => False end.
Proof. sync_case. Qed.

(** As long as no counter overflows, each of these histograms holds exactly the samples of the calls
    that are in it, and the merged histogram in addition what it held at the start. *)
Theorem C41_contents : forall h0 tr st, run h0 tr st -> merged_untouched tr -> only_adds_samples tr ->
  reader_alive st -> no_saturation h0 (samples (s_history st)) ->
  holds_over h0 (b_hist (s_merged st)) (samples (b_log (s_merged st))) /\
  (forall b, In b (s_chan st) -> holds h0 (b_hist b) (samples (b_log b))) /\
  (forall r, In r (s_recs st) -> holds h0 (b_hist (r_local r)) (samples (b_log (r_local r)))).
Proof. exact C41_contents_proof. Qed.
Print Assumptions C41_contents.

(** the hypotheses, in such a state *)
Example ex_C41_contents : match build U64 1 1000 2 false [(5, 2)] with
  | Some h =>
      let tr := [RRecorder; RRecorder; LWrite 0 (ORecord 7 1); LLoad 0; LFinish 0;
                 RStart false; REmpty; RRead; RShift; LWrite 1 (ORecord 9 4); LLoad 1; LFinish 1; RRecv;
                 LWrite 0 (OCorrect 50 1 20); LLoad 0] in
      match exec (init h) tr with
      | Some st => run h tr st /\ merged_untouched tr /\ only_adds_samples tr /\ reader_alive st /\ no_saturation h (samples (s_history st)) /\
          samples (s_history st) = [(7, 1); (9, 4); (50, 1); (30, 1)] /\
          held (b_hist (s_merged st)) = [(5, 2); (9, 4)] /\ map (fun r => held (b_hist (r_local r))) (s_recs st) = [[(7, 1); (30, 1); (50, 1)]; []]
      | None => False end
  | None => False end.
Proof. sync_case. Qed.

(** Two recorders and a reader.  Recorder 0 has made two calls, the first of which has been merged;
    recorder 1 has been dropped and its histogram is in the channel. *)
Example ex_C41 : match build U64 1 1000 2 false [(5, 2)] with
  | Some h =>
      let tr := [RRecorder; RRecorder; LWrite 0 (ORecord 7 1); LLoad 0; LFinish 0;
                 RStart false; REmpty; RRead; RShift;
                 LWrite 1 (ORecord 9 4); LLoad 1; LFinish 1; RRecv;
                 LWrite 0 (ORecord 300 2); LLoad 0; LFinish 0; RRecv; RDone; REmpty;
                 LWrite 0 (OCorrect 50 1 20); LLoad 0; LFinish 0;
                 LWrite 1 (ORecord 2000 1); LLoad 1; LFinish 1; LWrite 1 (ORecord 8 1); LLoad 1; LFinish 1; LDrop 1; LDropEnd 1] in
      match exec (init h) tr with
      | Some st => s_reader st = RReady /\ len (b_hist (s_merged st)) = 9 /\
          map c_id (b_log (s_merged st)) = [1; 0; 2]%nat /\
          map (fun b => map c_id (b_log b)) (s_chan st) = [[4; 5]%nat] /\ map (fun b => held (b_hist b)) (s_chan st) = [[(8, 1)]] /\
          map (fun r => map c_id (b_log (r_local r))) (s_recs st) = [[3]%nat; []] /\
          map (fun r => held (b_hist (r_local r))) (s_recs st) = [[(30, 1); (50, 1)]; []]
      | None => False
      end
  | None => False end.
Proof. vm_compute. auto 10. Qed.

(** [refresh] never panics: merging a recorder's histogram never fails, whatever the interleaving, if
    the histogram resizes itself or has no bin for [u64::MAX]. *)
Theorem C56_refresh_never_panics : forall h0 tr st, run h0 tr st -> merged_untouched tr -> merge_safe h0 ->
  s_reader st <> RPanicked.
Proof. exact C56_refresh_never_panics_proof. Qed.
Print Assumptions C56_refresh_never_panics.

Example ex_C56_safe : match build U64 1 1000 2 false [] with
  | Some h =>
      let tr := [RRecorder; LWrite 0 (ORecord 1023 1); LLoad 0; LFinish 0; LDrop 0; LDropEnd 0; RStart false; RRecv] in
      match exec (init h) tr with
      | Some st => run h tr st /\ merged_untouched tr /\ merge_safe h /\ s_reader st = RDrain false /\ held (b_hist (s_merged st)) = [(1020, 1)]
      | None => False end
  | None => False end.
Proof. sync_case. Qed.

(** both kinds of histogram that satisfy the condition *)
Example ex_C56 : match build U64 1 1000 2 false [], build U64 1 u64_max 1 true [] with
  | Some h, Some h' => is_auto_resize h = false /\ distinct_values h = 512 /\ index_for h u64_max = Ret (Some 7423) /\ is_auto_resize h' = true
  | _, _ => False end.
Proof. vm_compute. auto 10. Qed.

(** Without that condition it does: a fixed-range histogram that covers [u64::MAX], and a recorder that
    recorded it; the next [refresh] panics. *)
Theorem C56_refresh_panics_refuted : exists h0 tr st, run h0 tr st /\ merged_untouched tr /\ is_auto_resize h0 = false /\
  writes tr = [(0%nat, ORecord u64_max 1)] /\ s_reader st = RPanicked.
Proof. exact C56_refresh_panics_refuted_proof. Qed.
Print Assumptions C56_refresh_panics_refuted.

(** In every state the shared count is the number of recorders in use, provided no guard of an idle
    recorder is leaked.  The mutex is never poisoned (the count neither underflows nor overflows) unless
    [usize::MAX] recorders have been made. *)
Theorem C45_count : forall h0 tr st, run h0 tr st -> guards_dropped tr ->
  s_count st = active_recorders st /\ (Z.of_nat (length (s_recs st)) < usize_max -> s_lock st <> Poisoned).
Proof. exact C45_count_proof. Qed.
Print Assumptions C45_count.

Example ex_C45_count : match build U64 1 1000 2 false [] with
  | Some h =>
      let tr := [RRecorder; LClone 0; LClone 1; RRecorder; LIdle 1; LIdleLoad 1; LIdleEnd 1; LDrop 3; LDropEnd 3; LWake 1] in
      match exec (init h) tr with
      | Some st => run h tr st /\ guards_dropped tr /\ s_count st = 3 /\ map is_active (s_recs st) = [true; true; true; false] /\
          s_lock st = Held 1 /\ map in_section (s_recs st) = [false; true; false; false]
      | None => False end
  | None => False end.
Proof. sync_case. Qed.

(** one recorder in use, one idle, one in the middle of waking up, one dropped *)
Example ex_C45 : match build U64 1 1000 2 false [] with
  | Some h =>
      let tr := [RRecorder; LClone 0; LClone 1; RRecorder; LIdle 1; LIdleLoad 1; LIdleEnd 1; LIdle 2; LIdleLoad 2; LIdleEnd 2;
                 LDrop 3; LDropEnd 3; LWake 2] in
      match exec (init h) tr with
      | Some st => map r_pc (s_recs st) = [PReady; PIdle; PWaking; PGone] /\ s_count st = 2 /\ active_recorders st = 2 /\ s_lock st = Held 2
      | None => False end
  | None => False end.
Proof. vm_compute. auto 10. Qed.

(** The mutex works: it is held by recorder [i] exactly while [i] is inside its critical section, so at
    most one recorder is, and whoever holds it can always go on: nobody can block it.  So every thread
    waiting for the mutex eventually gets it, if the scheduler is fair. *)
Theorem C45_mutex : forall h0 tr st i r, run h0 tr st -> nth_error (s_recs st) i = Some r ->
  (s_lock st = Held i <-> in_section r = true) /\
  (s_lock st = Held i -> exists l st', section_step i l /\ step st l = Some st').
Proof. exact C45_mutex_proof. Qed.
Print Assumptions C45_mutex.

Example ex_C45_mutex : match build U64 1 1000 2 false [] with
  | Some h =>
      let tr := [RRecorder; LClone 0; LIdle 1] in
      match exec (init h) tr with
      | Some st => run h tr st /\ s_lock st = Held 1 /\ map in_section (s_recs st) = [false; true] /\ section_step 1 (LIdleLoad 1) /\
          match step st (LIdleLoad 1) with Some st' => s_lock st' = Held 1 | None => False end /\ step st (LIdle 0) = None
      | None => False end
  | None => False end.
Proof. sync_case. Qed.

(** Leaking the guard returned by [idle] breaks the count: with one recorder, idle, leaked and dropped,
    the count underflows, the thread panics and the mutex stays poisoned. *)
Theorem C45_leaked_guard_refuted : exists h0 tr st, run h0 tr st /\ In (LForget 0) tr /\
  length (s_recs st) = 1%nat /\ s_lock st = Poisoned.
Proof. exact C45_leaked_guard_refuted_proof. Qed.
Print Assumptions C45_leaked_guard_refuted.

(** If every recorder has been dropped or is idle (and none wakes up meanwhile), [refresh] returns after
    at most as many steps as there are histograms in the channel, plus five; it never gets stuck and never
    panics.  On return the channel is empty, and every call that was ever made is in the merged
    histogram, except what is still in the local histogram of an idle recorder. *)
Theorem C42_quiet : forall h0 tr st t tr2 st2, run h0 tr st -> merged_untouched tr -> guards_dropped tr -> merge_safe h0 ->
  Z.of_nat (length (s_recs st)) < usize_max -> s_reader st = RReady -> all_quiet st ->
  exec st (RStart t :: tr2) = Some st2 -> Forall refresh_step tr2 ->
  Z.of_nat (length tr2) <= Z.of_nat (length (s_chan st)) + 5 /\
  (s_reader st2 <> RReady -> exists l st3, refresh_step l /\ step st2 l = Some st3) /\
  (s_reader st2 = RReady -> s_chan st2 = [] /\ s_recs st2 = s_recs st /\
     Permutation (b_log (s_merged st2) ++ flat_map (fun r => b_log (r_local r)) (s_recs st)) (s_history st)).
Proof. exact C42_quiet_proof. Qed.
Print Assumptions C42_quiet.

(** recorder 0 is idle and has kept 7 (it has seen no phase move); recorder 1 is gone; [refresh] gets stuck nowhere *)
Example ex_C42_quiet : match build U64 1 1000 2 false [] with
  | Some h =>
      let tr := [RRecorder; RRecorder; LWrite 0 (ORecord 7 1); LLoad 0; LFinish 0; LWrite 1 (ORecord 9 4); LLoad 1; LFinish 1;
                 LDrop 1; LDropEnd 1; LIdle 0; LIdleLoad 0; LIdleEnd 0] in
      let tr2 := [RRecv; REmpty; RRead; RShift; RDone; REmpty] in
      match exec (init h) tr with
      | Some st => run h tr st /\ merged_untouched tr /\ guards_dropped tr /\ merge_safe h /\ s_reader st = RReady /\ all_quiet st /\
          Forall refresh_step tr2 /\
          match exec st (RStart false :: tr2) with
          | Some st2 => s_reader st2 = RReady /\ held (b_hist (s_merged st2)) = [(9, 4)] /\ map (fun r => length (b_log (r_local r))) (s_recs st2) = [1; 0]%nat
          | None => False end
      | None => False end
  | None => False end.
Proof. sync_case. Qed.

(** If every recorder has been dropped, no thread but the reader can do anything any more, and the merged
    histogram ends up with every call ever made; hence, if no counter overflows, with exactly the
    samples of the initial histogram and of all those calls. *)
Theorem C42_all_dropped : forall h0 tr st t tr2 st2, run h0 tr st -> merged_untouched tr -> guards_dropped tr -> merge_safe h0 ->
  Z.of_nat (length (s_recs st)) < usize_max -> s_reader st = RReady -> all_dropped st ->
  exec st (RStart t :: tr2) = Some st2 -> Forall in_call tr2 ->
  Forall refresh_step tr2 /\
  Z.of_nat (length tr2) <= Z.of_nat (length (s_chan st)) + 5 /\
  (s_reader st2 <> RReady -> exists l st3, refresh_step l /\ step st2 l = Some st3) /\
  (s_reader st2 = RReady ->
     s_chan st2 = [] /\ Permutation (b_log (s_merged st2)) (s_history st) /\
     (only_adds_samples tr -> no_saturation h0 (samples (s_history st)) ->
        holds_over h0 (b_hist (s_merged st2)) (samples (s_history st)))).
Proof. exact C42_all_dropped_proof. Qed.
Print Assumptions C42_all_dropped.

Example ex_C42_all_dropped : match build U64 1 1000 2 false [(3, 3)] with
  | Some h =>
      let tr := [RRecorder; RRecorder; LWrite 0 (ORecord 7 1); LLoad 0; LFinish 0; LWrite 1 (ORecord 9 4); LLoad 1; LFinish 1;
                 LDrop 1; LDropEnd 1; LDrop 0; LDropEnd 0] in
      let tr2 := [RRecv; RRecv; REmpty; RRead; RShift; RDone; REmpty] in
      match exec (init h) tr with
      | Some st => run h tr st /\ merged_untouched tr /\ guards_dropped tr /\ merge_safe h /\ s_reader st = RReady /\ all_dropped st /\
          Forall in_call tr2 /\ only_adds_samples tr /\ no_saturation h (samples (s_history st)) /\
          match exec st (RStart true :: tr2) with
          | Some st2 => s_reader st2 = RReady /\ held (b_hist (s_merged st2)) = [(3, 3); (7, 1); (9, 4)]
          | None => False end
      | None => False end
  | None => False end.
Proof. sync_case. Qed.

Example ex_C42 : match build U64 1 1000 2 false [] with
  | Some h =>
      let tr := [RRecorder; RRecorder; LWrite 0 (ORecord 7 1); LLoad 0; LFinish 0; LWrite 1 (ORecord 9 4); LLoad 1; LFinish 1;
                 LDrop 1; LDropEnd 1; LDrop 0; LDropEnd 0] in
      match exec (init h) tr with
      | Some st => map r_pc (s_recs st) = [PGone; PGone] /\ length (s_chan st) = 2%nat /\
          match exec st (RStart false :: [RRecv; RRecv; REmpty; RRead; RShift; RDone; REmpty]) with
          | Some st2 => s_reader st2 = RReady /\ held (b_hist (s_merged st2)) = [(7, 1); (9, 4)]
          | None => False end
      | None => False end
  | None => False end.
Proof. vm_compute. auto 10. Qed.

(** If every active recorder has seen the current phase when [refresh] is called, and nothing disturbs it
    (see [smooth]: other recorders may become idle, wake up and be cloned, at the right moments), then on
    return every call made before by a recorder that stayed active is in the merged histogram, the channel
    is empty, and again every active recorder has seen the current phase. *)
Theorem C43_barrier : forall h0 tr1 st1 t tr2 st2, run h0 tr1 st1 -> merged_untouched tr1 -> guards_dropped tr1 ->
  synced st1 ->
  exec st1 (RStart t :: tr2) = Some st2 -> Forall in_call tr2 -> along smooth st1 (RStart t :: tr2) ->
  s_reader st2 = RReady ->
  synced st2 /\ s_chan st2 = [] /\
  (forall c r, In c (s_history st1) -> nth_error (s_recs st1) (c_rec c) = Some r -> recording r ->
     ~ In (LIdle (c_rec c)) tr2 -> In c (b_log (s_merged st2))).
Proof. exact C43_barrier_proof. Qed.
Print Assumptions C43_barrier.

(** the hypotheses of [C43_barrier] *)
Example ex_C43_hypotheses : match build U64 1 1000 2 false [] with
  | Some h =>
      let tr1 := [RRecorder; RRecorder; RRecorder; LIdle 2; LIdleLoad 2; LIdleEnd 2;
                  LWrite 0 (ORecord 7 1); LLoad 0; LFinish 0; LWrite 1 (ORecord 9 4); LLoad 1; LFinish 1] in
      let tr2 := [LWake 2; LWakeEnd 2; LClone 0; REmpty; RRead; LWrite 0 (ORecord 1 1); LLoad 0; RShift;
                  LFinish 0; LWrite 0 (ORecord 1 1); LLoad 0; LFinish 0; RRecv; LWrite 2 (ORecord 2 1); LLoad 2; LFinish 2; RRecv;
                  LIdle 1; LIdleLoad 1; LIdleEnd 1; LWrite 3 (ORecord 3 1); LLoad 3; LFinish 3; RRecv; RRecv; RDone; REmpty] in
      match exec (init h) tr1 with
      | Some st1 => run h tr1 st1 /\ merged_untouched tr1 /\ guards_dropped tr1 /\ synced st1 /\
          Forall in_call tr2 /\ along smooth st1 (RStart false :: tr2) /\
          match exec st1 (RStart false :: tr2) with
          | Some st2 => s_reader st2 = RReady /\ map (fun r => r_pc r) (s_recs st1) = [PReady; PReady; PIdle] /\ ~ In (LIdle 0) tr2
          | None => False end
      | None => False end
  | None => False end.
Proof. sync_case. Qed.

(** Recorders 0 and 1 are active, recorder 2 is idle.  During the refresh recorder 2 wakes up, recorder 0
    is cloned, and recorder 1 becomes idle. *)
Example ex_C43 : match build U64 1 1000 2 false [] with
  | Some h =>
      let tr1 := [RRecorder; RRecorder; RRecorder; LIdle 2; LIdleLoad 2; LIdleEnd 2;
                  LWrite 0 (ORecord 7 1); LLoad 0; LFinish 0; LWrite 1 (ORecord 9 4); LLoad 1; LFinish 1] in
      let tr2 := [LWake 2; LWakeEnd 2; LClone 0; REmpty; RRead; LWrite 0 (ORecord 1 1); LLoad 0; RShift;
                  LFinish 0; LWrite 0 (ORecord 1 1); LLoad 0; LFinish 0; RRecv; LWrite 2 (ORecord 2 1); LLoad 2; LFinish 2; RRecv;
                  LIdle 1; LIdleLoad 1; LIdleEnd 1; LWrite 3 (ORecord 3 1); LLoad 3; LFinish 3; RRecv; RRecv; RDone; REmpty] in
      match exec (init h) tr1 with
      | Some st1 =>
          match exec st1 (RStart false :: tr2) with
          | Some st2 => map r_phase (s_recs st1) = [0; 0; 0] /\ s_reader st2 = RReady /\ map r_pc (s_recs st2) = [PReady; PIdle; PReady; PReady] /\
              map r_phase (s_recs st2) = [1; 1; 1; 1] /\ held (b_hist (s_merged st2)) = [(1, 2); (2, 1); (3, 1); (7, 1); (9, 4)]
          | None => False end
      | None => False end
  | None => False end.
Proof. vm_compute. auto 10. Qed.

(** Between two calls of [refresh] the condition "every active recorder has seen the current phase" is kept
    by every step, except leaking a guard and cloning an idle recorder; and it holds at the start, when
    there are no recorders. *)
Theorem C43_synced_kept : forall h0,
  synced (init h0) /\
  (forall st l st', synced st -> s_reader st = RReady -> s_reader st' = RReady -> step st l = Some st' ->
     (forall i, l <> LForget i) ->
     (forall i r, l = LClone i -> nth_error (s_recs st) i = Some r -> r_pc r <> PIdle) ->
     synced st').
Proof. exact C43_synced_kept_proof. Qed.
Print Assumptions C43_synced_kept.

Example ex_C43_synced_kept : match build U64 1 1000 2 false [] with
  | Some h =>
      let tr := [RRecorder; RRecorder; LIdle 0; LIdleLoad 0; LIdleEnd 0] in
      match exec (init h) tr with
      | Some st => run h tr st /\ synced st /\ s_reader st = RReady /\ map r_pc (s_recs st) = [PIdle; PReady] /\
          match step st (LClone 1) with Some st' => s_reader st' = RReady /\ synced st' | None => False end
      | None => False end
  | None => False end.
Proof. sync_case. Qed.

(** Without these conditions it is not.  Recorder 0 records a value and stays active.  During the next
    [refresh] recorder 1 is dropped after the reader has emptied the channel and before it reads the number
    of recorders: the histogram recorder 1 sends is counted as that of recorder 0, and [refresh] returns
    without the value. *)
Theorem C43_missed_sample_refuted : exists h0 tr1 st1 tr2 st2 c, run h0 tr1 st1 /\ merged_untouched tr1 /\ guards_dropped tr1 /\
  synced st1 /\
  exec st1 (RStart false :: tr2) = Some st2 /\ Forall in_call tr2 /\ s_reader st2 = RReady /\
  In c (s_history st1) /\ (exists r, nth_error (s_recs st1) (c_rec c) = Some r /\ recording r) /\
  ~ In (LIdle (c_rec c)) tr2 /\ ~ In (LDrop (c_rec c)) tr2 /\
  ~ In c (b_log (s_merged st2)).
Proof. exact C43_missed_sample_refuted_proof. Qed.
Print Assumptions C43_missed_sample_refuted.

(** A reader that waits can go on, or some recorder has still to send its histogram for the current phase:
    one that is active and has not looked at the phase since it moved, or one in the middle of becoming
    idle or being dropped.  This needs that no recorder on its way to idle loads the phase between the
    reader's reading of the number of recorders and its moving of the phase (and fewer than 2^64
    refreshes). *)
Theorem C44_waits_for_someone : forall h0 tr st t n k, run h0 tr st -> guards_dropped tr ->
  along idles_outside (init h0) tr -> shifts tr <= usize_max -> s_reader st = RWait t n k ->
  (exists l st', (l = RRecv \/ l = RDone) /\ step st l = Some st') \/
  (exists i r, nth_error (s_recs st) i = Some r /\ owes (s_phase st) r = true).
Proof. exact C44_waits_for_someone_proof. Qed.
Print Assumptions C44_waits_for_someone.

Example ex_C44_waits : match build U64 1 1000 2 false [] with
  | Some h =>
      let tr := [RRecorder; RRecorder; RRecorder; RStart false; REmpty; RRead; RShift; LWrite 0 (ORecord 7 1); LLoad 0; LFinish 0; RRecv;
                 LIdle 2; LIdleLoad 2; LIdleEnd 2] in
      match exec (init h) tr with
      | Some st => run h tr st /\ guards_dropped tr /\ along idles_outside (init h) tr /\ shifts tr <= usize_max /\ s_reader st = RWait false 3 1 /\
          match step st RRecv with Some _ => True | None => False end /\ map (owes (s_phase st)) (s_recs st) = [false; true; false]
      | None => False end
  | None => False end.
Proof. sync_case. Qed.

(** A recorder that completes a call while the reader waits has paid: whatever happens in between, once
    the phase has been loaded and the call is finished, it has nothing to send any more. *)
Theorem C44_recording_pays : forall st i tr2 st2 t n k, s_reader st = RWait t n k -> Forall in_call tr2 ->
  exec st (LLoad i :: tr2 ++ [LFinish i]) = Some st2 ->
  exists r, nth_error (s_recs st2) i = Some r /\ owes (s_phase st2) r = false.
Proof. exact C44_recording_pays_proof. Qed.
Print Assumptions C44_recording_pays.

Example ex_C44_pays : match build U64 1 1000 2 false [] with
  | Some h =>
      let tr := [RRecorder; RRecorder; RRecorder; RStart false; REmpty; RRead; RShift; LWrite 0 (ORecord 7 1); LLoad 0; LFinish 0; RRecv;
                 LIdle 2; LIdleLoad 2; LIdleEnd 2] ++ [LWrite 1 (ORecord 9 4)] in
      match exec (init h) tr with
      | Some st => s_reader st = RWait false 3 1 /\ Forall in_call [LWake 2; LWakeEnd 2] /\ map (owes (s_phase st)) (s_recs st) = [false; true; false] /\
          match exec st (LLoad 1 :: [LWake 2; LWakeEnd 2] ++ [LFinish 1]) with
          | Some st2 => map (owes (s_phase st2)) (s_recs st2) = [false; false; false]
          | None => False end
      | None => False end
  | None => False end.
Proof. sync_case. Qed.

(** And it stays paid until the end of this [refresh], unless it is dropped (which sends its histogram
    again). *)
Theorem C44_paid_stays : forall h0 tr st t n k l st' i r, run h0 tr st -> shifts tr <= usize_max -> s_reader st = RWait t n k ->
  in_call l -> step st l = Some st' -> l <> LForget i -> l <> LDrop i ->
  nth_error (s_recs st) i = Some r -> owes (s_phase st) r = false ->
  exists r', nth_error (s_recs st') i = Some r' /\ owes (s_phase st') r' = false.
Proof. exact C44_paid_stays_proof. Qed.
Print Assumptions C44_paid_stays.

Example ex_C44_paid_stays : match build U64 1 1000 2 false [] with
  | Some h =>
      let tr := [RRecorder; RRecorder; RRecorder; RStart false; REmpty; RRead; RShift; LWrite 0 (ORecord 7 1); LLoad 0; LFinish 0; RRecv;
                 LIdle 2; LIdleLoad 2; LIdleEnd 2] in
      match exec (init h) tr with
      | Some st => run h tr st /\ shifts tr <= usize_max /\ s_reader st = RWait false 3 1 /\ Forall in_call [LWrite 0 (ORecord 1 1)] /\
          map (owes (s_phase st)) (s_recs st) = [false; true; false] /\
          match step st (LWrite 0 (ORecord 1 1)) with Some st' => map (owes (s_phase st')) (s_recs st') = [false; true; false] | None => False end
      | None => False end
  | None => False end.
Proof. sync_case. Qed.

(** Once no recorder owes anything, [refresh] returns on its own, whatever the recorders do or do not do:
    at most two steps more than there are histograms in the channel, never stuck, no panic. *)
Theorem C44_returns_when_paid : forall h0 tr st t n k tr2 st2, run h0 tr st -> merged_untouched tr -> guards_dropped tr -> merge_safe h0 ->
  along idles_outside (init h0) tr -> shifts tr <= usize_max -> s_reader st = RWait t n k ->
  (forall r, In r (s_recs st) -> owes (s_phase st) r = false) ->
  exec st tr2 = Some st2 -> Forall refresh_step tr2 ->
  Z.of_nat (length tr2) <= Z.of_nat (length (s_chan st)) + 2 /\
  (s_reader st2 <> RReady -> exists l st3, refresh_step l /\ step st2 l = Some st3).
Proof. exact C44_returns_when_paid_proof. Qed.
Print Assumptions C44_returns_when_paid.

(** the hypotheses of the theorems on waiting *)
Example ex_C44_hypotheses : match build U64 1 1000 2 false [] with
  | Some h =>
      let tr := [RRecorder; RRecorder; RRecorder; RStart false; REmpty; RRead; RShift; LWrite 0 (ORecord 7 1); LLoad 0; LFinish 0; RRecv;
                 LIdle 2; LIdleLoad 2; LIdleEnd 2] in
      let tr2 := [LWrite 1 (ORecord 9 4); LLoad 1; LFinish 1] in
      match exec (init h) tr with
      | Some st => run h tr st /\ merged_untouched tr /\ guards_dropped tr /\ merge_safe h /\ along idles_outside (init h) tr /\
          s_reader st = RWait false 3 1 /\ map (owes (s_phase st)) (s_recs st) = [false; true; false] /\
          match exec st tr2 with
          | Some st2 => run h (tr ++ tr2) st2 /\ along idles_outside (init h) (tr ++ tr2) /\
              (forall r, In r (s_recs st2) -> owes (s_phase st2) r = false) /\
              Forall refresh_step [RRecv; RRecv; RDone; REmpty] /\
              match exec st2 [RRecv; RRecv; RDone; REmpty] with Some st3 => s_reader st3 = RReady | None => False end
          | None => False end
      | None => False end
  | None => False end.
Proof. sync_case. Qed.

(** The reader waits for two recorders.  One has recorded since, the other owes; when it has recorded too,
    the reader can return. *)
Example ex_C44 : match build U64 1 1000 2 false [] with
  | Some h =>
      let tr := [RRecorder; RRecorder; RStart false; REmpty; RRead; RShift; LWrite 0 (ORecord 7 1); LLoad 0; LFinish 0; RRecv] in
      match exec (init h) tr with
      | Some st => s_reader st = RWait false 2 1 /\ map (owes (s_phase st)) (s_recs st) = [false; true] /\ s_chan st = [] /\
          match exec st [LWrite 1 (ORecord 9 4); LLoad 1; LFinish 1] with
          | Some st2 => map (owes (s_phase st2)) (s_recs st2) = [false; false] /\
              match exec st2 [RRecv; RDone; REmpty] with Some st3 => s_reader st3 = RReady | None => False end
          | None => False end
      | None => False end
  | None => False end.
Proof. vm_compute. auto 10. Qed.

(** Without the condition on idling [refresh] can wait for ever.  One recorder, which becomes idle just
    after the reader has counted it and just before the phase moves: nothing that happens afterwards makes
    [refresh] return, however often the recorder wakes up and records, unless it is dropped or cloned. *)
Theorem C44_blocked_for_ever_refuted : exists h0 tr st, run h0 tr st /\ guards_dropped tr /\ map r_pc (s_recs st) = [PIdle] /\
  s_reader st = RWait false 1 0 /\
  (forall tr2 st2, exec st tr2 = Some st2 ->
     Forall (fun l => match l with LDrop _ | LClone _ | LForget _ => False | _ => True end) tr2 ->
     s_reader st2 = RWait false 1 0) /\
  (exists tr3 st3, exec st tr3 = Some st3 /\ length (writes tr3) = 3%nat).
Proof. exact C44_blocked_for_ever_refuted_proof. Qed.
Print Assumptions C44_blocked_for_ever_refuted.
