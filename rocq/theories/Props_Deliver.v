(** Property theorems; the proofs are in [PfDeliver].  Generated by tools/gen_theorems.py. *)
From Verif Require Import Machine Log2Model HistModel Spec Reach Witness Cases CasesSync SyncModel SyncSpec LiveSpec PfDeliver.

(** A call of [refresh] that returns (by a timeout or not) has merged every call whose recorder had already
    handed it over when [refresh] was called: every call in the history that is in no recorder's local
    histogram.  This holds for every interleaving: recorders may be made, cloned, dropped, go idle and wake
    up at any moment during the call, and guards may be leaked. *)
Theorem C71_refresh_collects : forall h0 tr st1 t te st2 c, run h0 tr st1 -> merged_untouched tr ->
  exec st1 (RStart t :: te) = Some st2 -> Forall in_call te -> s_reader st2 = RReady ->
  In c (s_history st1) -> (forall r, In r (s_recs st1) -> ~ In c (b_log (r_local r))) ->
  In c (b_log (s_merged st2)).
Proof. exact C71_refresh_collects_proof. Qed.
Print Assumptions C71_refresh_collects.

(** recorder 0 records 7; a refresh moves the phase and times out at once; recorder 0 records 9, sees the
    new phase and hands both over.  The next refresh has both, although it times out too. *)
Example ex_C71_refresh_collects : match build U64 1 1000 2 false [] with
  | Some h => match exec (init h) [RRecorder; LWrite 0 (ORecord 7 1); LLoad 0; LFinish 0; RStart true; REmpty; RRead; RShift; RTimeout; REmpty;
                                   LWrite 0 (ORecord 9 1); LLoad 0; LFinish 0] with
    | Some st1 => match exec st1 (RStart true :: [RRecv; REmpty; RRead; RShift; RTimeout; REmpty]) with
      | Some st2 => s_reader st2 = RReady /\ length (s_history st1) = 2%nat /\ s_merged st1 = Box h [] /\
                    map (fun r => b_log (r_local r)) (s_recs st1) = [[]] /\ b_log (s_merged st2) = s_history st1
      | None => False end
    | None => False end
  | None => False end.
Proof. vm_compute. auto 10. Qed.

(** After a call is made on recorder [i]: once a later refresh has moved the phase ([RShift]), and recorder
    [i] has then read the phase in another call, or in the same one ([LLoad i]), or on its way to idle
    ([LIdleLoad i]), and completed that ([LFinish i], [LIdleEnd i]), the call is in no local histogram any
    more.  Recorder [i] must not have woken from idle between the two. *)
Theorem C71_handed_over : forall h0 ta tb look tc fin td st1 st2 i c,
  run h0 (ta ++ RShift :: tb ++ look :: tc ++ fin :: td) st2 -> exec (init h0) ta = Some st1 ->
  In c (s_history st1) -> c_rec c = i ->
  (look = LLoad i \/ look = LIdleLoad i) -> (fin = LFinish i \/ fin = LIdleEnd i) -> ~ In (LWakeEnd i) tb ->
  shifts (ta ++ RShift :: tb ++ [look]) <= usize_max ->
  forall r, In r (s_recs st2) -> ~ In c (b_log (r_local r)).
Proof. exact C71_handed_over_proof. Qed.
Print Assumptions C71_handed_over.

(** recorder 0 records 7 and a refresh, which times out, moves the phase; then recorder 0 goes idle, and hands 7 over *)
Example ex_C71_handed_over : match build U64 1 1000 2 false [] with
  | Some h =>
      let ta := [RRecorder; LWrite 0 (ORecord 7 1); LLoad 0; LFinish 0; RStart true; REmpty; RRead] in
      let tr := ta ++ RShift :: [RTimeout; REmpty; LIdle 0] ++ LIdleLoad 0 :: [RStart true] ++ LIdleEnd 0 :: [] in
      match exec (init h) ta, exec (init h) tr with
      | Some st1, Some st2 => run h tr st2 /\ map (fun r => length (b_log (r_local r))) (s_recs st1) = [1]%nat /\ ~ In (LWakeEnd 0) [RTimeout; REmpty; LIdle 0] /\
          shifts (ta ++ RShift :: [RTimeout; REmpty; LIdle 0] ++ [LIdleLoad 0]) <= usize_max /\
          map (fun r => b_log (r_local r)) (s_recs st2) = [[]] /\ map b_log (s_chan st2) = [[Call 0 0 (ORecord 7 1) true]]
      | _, _ => False end
  | None => False end.
Proof. sync_case. Qed.

(** Dropping recorder [i] hands over everything it still has, whatever the phase. *)
Theorem C71_drop_hands_over : forall h0 ta td st1 st2 i c,
  run h0 (ta ++ LDropEnd i :: td) st2 -> exec (init h0) ta = Some st1 ->
  In c (s_history st1) -> c_rec c = i ->
  forall r, In r (s_recs st2) -> ~ In c (b_log (r_local r)).
Proof. exact C71_drop_hands_over_proof. Qed.
Print Assumptions C71_drop_hands_over.

Example ex_C71_drop_hands_over : match build U64 1 1000 2 false [] with
  | Some h =>
      let ta := [RRecorder; RRecorder; LWrite 0 (ORecord 7 1); LLoad 0; LFinish 0; LWrite 1 (ORecord 8 1); LDrop 0] in
      match exec (init h) ta, exec (init h) (ta ++ LDropEnd 0 :: [LLoad 1; LFinish 1]) with
      | Some st1, Some st2 => run h (ta ++ LDropEnd 0 :: [LLoad 1; LFinish 1]) st2 /\
          map (fun r => map c_id (b_log (r_local r))) (s_recs st1) = [[0]; [1]]%nat /\ map (fun r => map c_id (b_log (r_local r))) (s_recs st2) = [[]; [1]]%nat
      | _, _ => False end
  | None => False end.
Proof. sync_case. Qed.

(** So a sample shows up after at most two refreshes and one call in between: a call made on recorder [i] is
    in the merged histogram when a later refresh (the one started by the last [RStart] here) returns, if
    before it some refresh moved the phase after the call was made and the recorder then completed another
    call, or went idle, without waking from idle in between.  The refreshes may time out; all other
    recorders may do anything at any time. *)
Theorem C71_delivered : forall h0 ta tb look tc fin td t te st1 st2 i c,
  run h0 (ta ++ RShift :: tb ++ look :: tc ++ fin :: td ++ RStart t :: te) st2 -> exec (init h0) ta = Some st1 ->
  merged_untouched (ta ++ RShift :: tb ++ look :: tc ++ fin :: td) ->
  In c (s_history st1) -> c_rec c = i ->
  (look = LLoad i \/ look = LIdleLoad i) -> (fin = LFinish i \/ fin = LIdleEnd i) -> ~ In (LWakeEnd i) tb ->
  shifts (ta ++ RShift :: tb ++ [look]) <= usize_max ->
  Forall in_call te -> s_reader st2 = RReady ->
  In c (b_log (s_merged st2)).
Proof. exact C71_delivered_proof. Qed.
Print Assumptions C71_delivered.

(** recorder 1 is dropped in the bad moment of [C43_missed_sample_refuted], so that the first refresh returns
    without the value of recorder 0; but recorder 0 makes another call and the second refresh has it, even
    if it times out without waiting at all *)
Example ex_C71_delivered : match build U64 1 1000 2 false [] with
  | Some h =>
      let ta := [RRecorder; RRecorder; LWrite 0 (ORecord 7 1); LLoad 0; LFinish 0; RStart false; REmpty; LDrop 1; LDropEnd 1; RRead] in
      let td := [RRecv; RDone; REmpty] in
      match exec (init h) (ta ++ RShift :: [] ++ td) with
      | Some s => s_reader s = RReady /\ b_log (s_merged s) = [] | None => False end /\
      match exec (init h) (ta ++ RShift :: (td ++ [LWrite 0 (ORecord 8 1)]) ++ LLoad 0 :: [] ++ LFinish 0 :: [] ++
                           RStart true :: [RRecv; REmpty; RRead; RShift; RTimeout; REmpty]) with
      | Some st2 => s_reader st2 = RReady /\
                    b_log (s_merged st2) = [Call 0 0 (ORecord 7 1) true; Call 1 0 (ORecord 8 1) true]
      | None => False end
  | None => False end.
Proof. vm_compute. auto 10. Qed.

(** The calls of a recorder that is dropped are in the merged histogram when the next refresh started after
    the drop returns. *)
Theorem C71_dropped_delivered : forall h0 ta td t te st1 st2 i c,
  run h0 (ta ++ LDropEnd i :: td ++ RStart t :: te) st2 -> exec (init h0) ta = Some st1 ->
  merged_untouched (ta ++ LDropEnd i :: td) ->
  In c (s_history st1) -> c_rec c = i ->
  Forall in_call te -> s_reader st2 = RReady ->
  In c (b_log (s_merged st2)).
Proof. exact C71_dropped_delivered_proof. Qed.
Print Assumptions C71_dropped_delivered.

Example ex_C71_dropped_delivered : match build U64 1 1000 2 false [] with
  | Some h =>
      match exec (init h) ([RRecorder; LWrite 0 (ORecord 7 1); LLoad 0; LFinish 0; LDrop 0] ++ LDropEnd 0 :: [] ++
                           RStart true :: [RRecv; REmpty; RRead; RShift; RDone; REmpty]) with
      | Some st2 => s_reader st2 = RReady /\ b_log (s_merged st2) = [Call 0 0 (ORecord 7 1) true]
      | None => False end
  | None => False end.
Proof. vm_compute. auto. Qed.

(** Waking up must be excluded.  Recorder 0 records 7 and goes idle without having seen a new phase, so it
    keeps its histogram; a refresh passes it by and returns; it wakes up, adopting the new phase, records 8
    and completes that call; the next refresh (which times out) has neither. *)
Theorem C71_wake_refuted : exists h0 ta tb tc td te st1 st2 c,
  run h0 (ta ++ RShift :: tb ++ LLoad 0 :: tc ++ LFinish 0 :: td ++ RStart true :: te) st2 /\ exec (init h0) ta = Some st1 /\
  merged_untouched (ta ++ RShift :: tb ++ LLoad 0 :: tc ++ LFinish 0 :: td) /\
  In c (s_history st1) /\ c_rec c = 0%nat /\
  Forall in_call te /\ s_reader st2 = RReady /\
  ~ In c (b_log (s_merged st2)).
Proof. exact C71_wake_refuted_proof. Qed.
Print Assumptions C71_wake_refuted.

(** A recorder that goes idle after each call, and is woken for the next one after the next [refresh] has
    returned, never hands anything over: after any number of calls and as many complete refreshes (none of
    them timed out) the merged histogram is still the one it started from. *)
Theorem C71_naps_refuted : forall h0 os, reachable h0 -> Forall (op_ok (h_ctr h0)) os ->
  exists st, run h0 (RRecorder :: flat_map nap os) st /\ s_reader st = RReady /\ length (s_history st) = length os /\
             s_merged st = Box h0 [] /\ s_chan st = [].
Proof. exact C71_naps_refuted_proof. Qed.
Print Assumptions C71_naps_refuted.

Example ex_C71_naps_refuted : match build U64 1 1000 2 false [] with
  | Some h => match exec (init h) (RRecorder :: flat_map nap [ORecord 7 1; ORecord 8 1; ORecord 9 1]) with
    | Some st => length (s_history st) = 3%nat /\ s_merged st = Box h [] /\ s_phase st = 3
    | None => False end
  | None => False end.
Proof. vm_compute. auto. Qed.
