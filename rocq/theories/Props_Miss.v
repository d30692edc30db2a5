(** Property theorems; the proofs are in [PfMiss].  Generated by tools/gen_theorems.py. *)
From Verif Require Import Machine Log2Model HistModel Spec Reach Witness Cases CasesSync SyncModel SyncSpec MissSpec PfMiss.

(** A call of [refresh] (or of [refresh_timeout] that does not time out) that returns has missed at most as
    many of the recorders that stayed active as there were disturbances, in the sense of [disturbance], plus
    the histograms that were owed already when it was called.  This holds for every interleaving of any
    number of recorders, whatever they do. *)
Theorem C43_missed_bounded : forall h0 tr1 st1 t tr2 st2 L, run h0 tr1 st1 -> merged_untouched tr1 -> guards_dropped (tr1 ++ tr2) ->
  shifts (tr1 ++ tr2) <= usize_max ->
  exec st1 (RStart t :: tr2) = Some st2 -> Forall in_call tr2 -> ~ In RTimeout tr2 -> s_reader st2 = RReady ->
  NoDup L -> (forall i, In i L -> missed st1 tr2 st2 i) ->
  Z.of_nat (length L) <= all_owed st1 + disturbances st1 (RStart t :: tr2).
Proof. exact C43_missed_bounded_proof. Qed.
Print Assumptions C43_missed_bounded.

(** Recorders 0 and 1 have recorded something and stay active; recorders 2 and 3 are dropped after the reader
    has emptied the channel and before it reads the number of recorders: two disturbances, two recorders
    missed. *)
Example ex_C43_missed_bounded : match build U64 1 1000 2 false [] with
  | Some h =>
      let tr1 := [RRecorder; RRecorder; RRecorder; RRecorder; LWrite 0 (ORecord 7 1); LLoad 0; LFinish 0; LWrite 1 (ORecord 8 1); LLoad 1; LFinish 1] in
      let tr2 := [REmpty; LDrop 2; LDropEnd 2; LDrop 3; LDropEnd 3; RRead; RShift; RRecv; RRecv; RDone; REmpty] in
      match exec (init h) tr1 with
      | Some st1 => match exec st1 (RStart false :: tr2) with
          | Some st2 => s_reader st2 = RReady /\ all_owed st1 = 0 /\ disturbances st1 (RStart false :: tr2) = 2 /\
              map c_rec (s_history st1) = [0%nat; 1%nat] /\ b_log (s_merged st2) = [] /\ all_owed st2 = 2
          | None => False end
      | None => False end
  | None => False end.
Proof. vm_compute. auto 10. Qed.
(** Each kind of disturbance can cost a recorder: in each of these executions there is one, and the last value
    recorded before, by recorder 0, is not there when [refresh] returns.  A drop before the number is read, a clone
    and a wake-up between the reading of the number and the moving of the phase, a drop of a recorder that has
    seen the new phase, a clone of one that has not, and (last) a clone of an idle recorder that slept through
    an earlier [refresh]. *)
Example ex_C43_each_disturbance : match build U64 1 1000 2 false [] with
  | Some h => fold_right (fun (p : list label * list label) (others : Prop) => others /\
      match exec (init h) (fst p) with
      | Some st1 => match exec st1 (RStart false :: snd p) with
          | Some st2 => s_reader st2 = RReady /\ all_owed st1 = 0 /\ disturbances st1 (RStart false :: snd p) = 1 /\
              map c_rec (skipn (pred (length (s_history st1))) (s_history st1)) = [0%nat] /\
              existsb (fun c => Nat.eqb (c_id c) (pred (length (s_history st1)))) (b_log (s_merged st2)) = false
          | None => False end
      | None => False end) True
      (let w i := [LWrite i (ORecord 7 1); LLoad i; LFinish i] in
       [([RRecorder; RRecorder] ++ w 0%nat, [REmpty; LDrop 1; LDropEnd 1; RRead; RShift; RRecv; RDone; REmpty]);
        ([RRecorder; RRecorder] ++ w 0%nat, [REmpty; RRead; LClone 1; RShift] ++ w 1%nat ++ w 2%nat ++ [RRecv; RRecv; RDone; REmpty]);
        ([RRecorder; RRecorder; RRecorder; LIdle 2; LIdleLoad 2; LIdleEnd 2] ++ w 0%nat,
         [REmpty; RRead; LWake 2; LWakeEnd 2; RShift] ++ w 1%nat ++ w 2%nat ++ [RRecv; RRecv; RDone; REmpty]);
        ([RRecorder; RRecorder] ++ w 0%nat, [REmpty; RRead; RShift] ++ w 1%nat ++ [LDrop 1; LDropEnd 1; RRecv; RRecv; RDone; REmpty]);
        ([RRecorder; RRecorder] ++ w 0%nat, [REmpty; RRead; RShift; LClone 1] ++ w 1%nat ++ w 2%nat ++ [RRecv; RRecv; RDone; REmpty]);
        ([RRecorder; LIdle 0; LIdleLoad 0; LIdleEnd 0; RStart false; REmpty; RRead; RShift; RDone; REmpty; RRecorder; LWake 0; LWakeEnd 0;
          LIdle 1; LIdleLoad 1; LIdleEnd 1; RStart false; REmpty; RRead; RShift] ++ w 0%nat ++ [RRecv; RDone; REmpty] ++ w 0%nat,
         [LClone 1; REmpty] ++ w 2%nat ++ [RRead; RShift] ++ w 2%nat ++ [RRecv; RRecv; RDone; REmpty])])
  | None => False end.
Proof. vm_compute. repeat split. Qed.

(** What is still owed when it returns is bounded in the same way. *)
Theorem C43_owed_bounded : forall h0 tr1 st1 t tr2 st2, run h0 tr1 st1 -> merged_untouched tr1 -> guards_dropped (tr1 ++ tr2) ->
  shifts (tr1 ++ tr2) <= usize_max ->
  exec st1 (RStart t :: tr2) = Some st2 -> Forall in_call tr2 -> ~ In RTimeout tr2 -> s_reader st2 = RReady ->
  all_owed st2 <= all_owed st1 + disturbances st1 (RStart t :: tr2).
Proof. exact C43_owed_bounded_proof. Qed.
Print Assumptions C43_owed_bounded.

Example ex_C43_owed_bounded : match build U64 1 1000 2 false [] with
  | Some h =>
      let tr1 := [RRecorder; RRecorder; RRecorder; LWrite 0 (ORecord 7 1); LLoad 0; LFinish 0] in
      let tr2 := [REmpty; LDrop 2; LDropEnd 2; RRead; RShift; LWrite 1 (ORecord 8 1); LLoad 1; LFinish 1; RRecv; RRecv; RDone; REmpty] in
      match exec (init h) tr1 with
      | Some st1 => match exec st1 (RStart false :: tr2) with
          | Some st2 => run h tr1 st1 /\ merged_untouched tr1 /\ guards_dropped (tr1 ++ tr2) /\ shifts (tr1 ++ tr2) <= usize_max /\
              Forall in_call tr2 /\ ~ In RTimeout tr2 /\ s_reader st2 = RReady /\
              all_owed st1 = 0 /\ disturbances st1 (RStart false :: tr2) = 1 /\ all_owed st2 = 1
          | None => False end
      | None => False end
  | None => False end.
Proof. sync_case. Qed.

(** So without disturbances, and with nothing owed at the start, [refresh] is a barrier for the recorders that
    stay active, and nothing is owed at the end.  Recorders may do more than [C43_barrier] allows: be dropped
    while the reader empties the channel, or between its reading of the number and its moving of the phase, or
    later if they have not seen the new phase yet; be cloned while the reader waits if they have seen it; and
    become idle at any time. *)
Theorem C43_undisturbed : forall h0 tr1 st1 t tr2 st2, run h0 tr1 st1 -> merged_untouched tr1 -> guards_dropped (tr1 ++ tr2) ->
  shifts (tr1 ++ tr2) <= usize_max ->
  exec st1 (RStart t :: tr2) = Some st2 -> Forall in_call tr2 -> ~ In RTimeout tr2 -> s_reader st2 = RReady ->
  all_owed st1 = 0 -> disturbances st1 (RStart t :: tr2) = 0 ->
  (forall c r, In c (s_history st1) -> nth_error (s_recs st1) (c_rec c) = Some r -> recording r ->
     ~ In (LIdle (c_rec c)) tr2 -> In c (b_log (s_merged st2))) /\
  all_owed st2 = 0.
Proof. exact C43_undisturbed_proof. Qed.
Print Assumptions C43_undisturbed.

(** Recorder 1 is dropped while the reader empties the channel, recorder 2 after the reader has counted the recorders,
    recorder 3 while the reader waits and before it has seen the new phase, and recorder 0 is cloned after it has seen
    it.  None of this is a disturbance. *)
Example ex_C43_undisturbed : match build U64 1 1000 2 false [] with
  | Some h =>
      let w i := [LWrite i (ORecord (7 + Z.of_nat i) 1); LLoad i; LFinish i] in
      let tr1 := [RRecorder; RRecorder; RRecorder; RRecorder] ++ w 0%nat ++ w 1%nat ++ w 2%nat ++ w 3%nat in
      let tr2 := [LDrop 1; LDropEnd 1; RRecv; REmpty; RRead; LDrop 2; LDropEnd 2; RShift; LDrop 3; LDropEnd 3] ++ w 0%nat ++
                 [LClone 0; RRecv; RRecv; RRecv; RDone; REmpty] in
      match exec (init h) tr1 with
      | Some st1 => match exec st1 (RStart false :: tr2) with
          | Some st2 => run h tr1 st1 /\ merged_untouched tr1 /\ guards_dropped (tr1 ++ tr2) /\ shifts (tr1 ++ tr2) <= usize_max /\
              Forall in_call tr2 /\ ~ In RTimeout tr2 /\ s_reader st2 = RReady /\ all_owed st1 = 0 /\ disturbances st1 (RStart false :: tr2) = 0 /\
              map (fun r => r_pc r) (s_recs st1) = [PReady; PReady; PReady; PReady] /\ map c_id (s_history st1) = [0; 1; 2; 3]%nat /\
              map c_id (b_log (s_merged st2)) = [1; 2; 3; 0; 4]%nat
          | None => False end
      | None => False end
  | None => False end.
Proof. sync_case. Qed.

(** While [refresh] waits: the histograms it still needs are no more than those in the channel, those the
    recorders still have to send, and one for each recorder that slipped away: that read the phase on its way
    to idle between the reader's counting of the recorders and its moving of the phase, during this very
    call.  So a [refresh] during which no recorder slips away never waits in vain, whatever happened in
    earlier ones. *)
Theorem C44_waits_for_enough : forall h0 tr1 st1 t0 tr2 st t n k, run h0 tr1 st1 -> guards_dropped (tr1 ++ tr2) ->
  shifts (tr1 ++ tr2) <= usize_max ->
  exec st1 (RStart t0 :: tr2) = Some st -> s_reader st = RWait t n k ->
  n - k <= Z.of_nat (length (s_chan st)) + owing st + slips st1 (RStart t0 :: tr2).
Proof. exact C44_waits_for_enough_proof. Qed.
Print Assumptions C44_waits_for_enough.

(** Three recorders are counted; recorder 0 goes idle in the bad moment; recorder 1 has sent its histogram, which
    has been received; recorder 2 still has to.  Two are needed, one is owed, one slipped away. *)
Example ex_C44_waits_for_enough : match build U64 1 1000 2 false [] with
  | Some h =>
      let tr1 := [RRecorder; RRecorder; RRecorder] in
      let tr2 := [REmpty; RRead; LIdle 0; LIdleLoad 0; LIdleEnd 0; RShift; LWrite 1 (ORecord 7 1); LLoad 1; LFinish 1; RRecv] in
      match exec (init h) tr1 with
      | Some st1 => match exec st1 (RStart false :: tr2) with
          | Some st => s_reader st = RWait false 3 1 /\ s_chan st = [] /\ owing st = 1 /\ slips st1 (RStart false :: tr2) = 1
          | None => False end
      | None => False end
  | None => False end.
Proof. vm_compute. auto 10. Qed.
