(** Property theorems; the proofs are in [PfEvent].  Generated by tools/gen_theorems.py. *)
From Verif Require Import Machine Log2Model HistModel Spec Reach Witness Cases SyncModel SyncSpec WeakModel WeakSpec CasesSync LiveSpec EventSpec EventFacts PfEvent.

(** [C71_handed_over] without a bound on the number of refreshes of the whole run.  If the phase has moved
    at least once and at most [usize::MAX] times between two moments at which recorder [i] reads it (and it
    has not woken from idle in between), every call made on [i] before the second one, even after the phase
    moved, is in no local histogram once [i] has completed that step. *)
Theorem C78_handed_over : forall h0 t0 look1 tb look2 tc fin td st1 st2 i c,
  run h0 (t0 ++ look1 :: tb ++ look2 :: tc ++ fin :: td) st2 -> exec (init h0) (t0 ++ look1 :: tb) = Some st1 ->
  In c (s_history st1) -> c_rec c = i ->
  looks i look1 -> looks i look2 -> (fin = LFinish i \/ fin = LIdleEnd i) ->
  (forall l, In l tb -> ~ looks i l /\ l <> LWakeEnd i) -> 1 <= shifts tb <= usize_max ->
  forall r, In r (s_recs st2) -> ~ In c (b_log (r_local r)).
Proof. exact C78_handed_over_proof. Qed.
Print Assumptions C78_handed_over.

(** the recorder reads phase 0 in a call with 7; a refresh that times out moves the phase; then the recorder
    makes a call with 9, reads phase 1, and hands over both calls, also the one made after the phase moved *)
Example ex_C78_handed_over : match build U64 1 1000 2 false [] with
  | Some h =>
      let t0 := [RRecorder; LWrite 0 (ORecord 7 1)] in
      let tb := [LFinish 0; RStart true; REmpty; RRead; RShift; RTimeout; REmpty; LWrite 0 (ORecord 9 1)] in
      let tr := t0 ++ LLoad 0 :: tb ++ LLoad 0 :: [] ++ LFinish 0 :: [] in
      match exec (init h) (t0 ++ LLoad 0 :: tb), exec (init h) tr with
      | Some st1, Some st2 => run h tr st2 /\ map (fun r => length (b_log (r_local r))) (s_recs st1) = [2]%nat /\
          1 <= shifts tb <= usize_max /\
          map (fun r => b_log (r_local r)) (s_recs st2) = [[]] /\ map b_log (s_chan st2) = [s_history st1]
      | _, _ => False end
  | None => False end.
Proof. sync_case. Qed.

(** Every call made on a recorder is in the merged histogram from some moment on, whatever the other threads
    do, in every execution in which the reader calls [refresh] (or [refresh_timeout]) again and again, that
    recorder makes calls again and again and goes idle only finitely often, the program does not write to the
    merged histogram itself, and the phase does not wrap around between two looks of that recorder. *)
Theorem C78_eventually : forall h0 tr0 s a k0 i c,
  run h0 tr0 (s 0%nat) -> merged_untouched tr0 -> continues h0 s a -> never_set a ->
  keeps_refreshing a -> keeps_recording a i -> wakes_end a i -> looks_in_time a i k0 ->
  In c (s_history (s k0)) -> c_rec c = i ->
  exists K, forall k, (K <= k)%nat -> In c (b_log (s_merged (s k))).
Proof. exact C78_eventually_proof. Qed.
Print Assumptions C78_eventually.

(** rounds without end, in each of which recorder 0 makes a call while the reader is inside [refresh]; the
    call of the first round is made at moment 4 and merged at moment 7 *)
Example ex_C78_eventually : exists h0 tr0 s a,
  run h0 tr0 (s 0%nat) /\ merged_untouched tr0 /\ continues h0 s a /\ never_set a /\
  keeps_refreshing a /\ keeps_recording a 0 /\ wakes_end a 0 /\ looks_in_time a 0 5 /\
  s_history (s 5%nat) = [Call 0 0 (ORecord 7 1) true] /\
  b_log (s_merged (s 7%nat)) = [] /\ b_log (s_merged (s 8%nat)) = [Call 0 0 (ORecord 7 1) true].
Proof.
  destruct (goes_on false) as (h0 & tr0 & s & a & X1 & X2 & _ & _ & _ & X3 & X4 & _ & _ & _ & _ & _ & _ & _ & X5 & X6 & X7 & X8 & X9).
  exists h0, tr0, s, a. auto 20.
Qed.

(** So is every call made on a recorder that is dropped some time. *)
Theorem C78_dropped_eventually : forall h0 tr0 s a k0 kd i c,
  run h0 tr0 (s 0%nat) -> merged_untouched tr0 -> continues h0 s a -> never_set a ->
  keeps_refreshing a -> (k0 <= kd)%nat -> a kd = Some (LDropEnd i) ->
  In c (s_history (s k0)) -> c_rec c = i ->
  exists K, forall k, (K <= k)%nat -> In c (b_log (s_merged (s k))).
Proof. exact C78_dropped_eventually_proof. Qed.
Print Assumptions C78_dropped_eventually.

(** recorder 1 has recorded 7 and is dropped at moment 0; the reader and recorder 0 go on for ever *)
Example ex_C78_dropped_eventually : exists h0 tr0 s a,
  run h0 tr0 (s 0%nat) /\ merged_untouched tr0 /\ continues h0 s a /\ never_set a /\ keeps_refreshing a /\
  a 0%nat = Some (LDropEnd 1) /\ s_history (s 0%nat) = [Call 0 1 (ORecord 7 1) true] /\
  b_log (s_merged (s 2%nat)) = [] /\ b_log (s_merged (s 3%nat)) = [Call 0 1 (ORecord 7 1) true].
Proof. exact goes_on_dropped. Qed.

(** With [refresh_timeout] this needs no assumption that the refreshes return.  It is enough that no thread
    stops for good inside a critical section, the reader is not starved, recorders are cloned only finitely
    often, and the reader calls [refresh_timeout] again some time after it has returned. *)
Theorem C78_with_timeout : forall h0 tr0 s a k0 i c,
  run h0 tr0 (s 0%nat) -> merged_untouched tr0 -> guards_dropped tr0 -> merge_safe h0 -> s_lock (s 0%nat) <> Poisoned ->
  continues h0 s a -> never_set a -> no_leak a -> few_recorders s -> clones_end a ->
  sections_go_on s a -> reader_goes_on s a ->
  s_reader (s 0%nat) = RReady -> refreshes_with_timeout s a ->
  keeps_recording a i -> wakes_end a i -> looks_in_time a i k0 ->
  In c (s_history (s k0)) -> c_rec c = i ->
  exists K, forall k, (K <= k)%nat -> In c (b_log (s_merged (s k))).
Proof. exact C78_with_timeout_proof. Qed.
Print Assumptions C78_with_timeout.

Example ex_C78_with_timeout : exists h0 tr0 s a,
  run h0 tr0 (s 0%nat) /\ merged_untouched tr0 /\ guards_dropped tr0 /\ merge_safe h0 /\ s_lock (s 0%nat) <> Poisoned /\
  continues h0 s a /\ never_set a /\ no_leak a /\ few_recorders s /\ clones_end a /\
  sections_go_on s a /\ reader_goes_on s a /\ s_reader (s 0%nat) = RReady /\ refreshes_with_timeout s a /\
  keeps_recording a 0 /\ wakes_end a 0 /\ looks_in_time a 0 5 /\ s_history (s 5%nat) = [Call 0 0 (ORecord 7 1) true] /\
  b_log (s_merged (s 7%nat)) = [] /\ b_log (s_merged (s 8%nat)) = [Call 0 0 (ORecord 7 1) true].
Proof.
  destruct (goes_on true) as (h0 & tr0 & s & a & X1 & X2 & X3 & X4 & X5 & X6 & X7 & X8 & X9 & X10 & X11 & X12 & X13 & X14 & _ & X).
  exists h0, tr0, s, a. split; [exact X1|]. split; [exact X2|]. split; [exact X3|]. split; [exact X4|]. split; [exact X5|]. split; [exact X6|].
  split; [exact X7|]. split; [exact X8|]. split; [exact X9|]. split; [exact X10|]. split; [exact X11|]. split; [exact X12|]. split; [exact X13|].
  split; [exact (X14 eq_refl)|exact X].
Qed.

(** The bound on the moves of the phase is needed.  A recorder that makes one call after every
    [usize::MAX + 1] refreshes (which time out) sees the same phase each time, as the phase has wrapped
    around, and never hands anything over. *)
Theorem C78_wrap_refuted : forall h0 os, reachable h0 -> Forall (op_ok (h_ctr h0)) os ->
  exists st, run h0 (RRecorder :: flat_map (fun o => one_call o ++ concat (repeat idle_refresh (Z.to_nat (usize_max + 1)))) os) st /\
             s_reader st = RReady /\ length (s_history st) = length os /\ s_merged st = Box h0 [] /\ s_chan st = [].
Proof. exact C78_wrap_refuted_proof. Qed.
Print Assumptions C78_wrap_refuted.

(** the same with four phases in place of [usize::MAX + 1], as far as one call: after the refreshes the
    recorder still remembers the phase it started with, and the phase is the same modulo 4 *)
Example ex_C78_wrap_refuted : match build U64 1 1000 2 false [] with
  | Some h => match exec (init h) (RRecorder :: one_call (ORecord 7 1) ++ concat (repeat idle_refresh 4)) with
    | Some st => s_phase st mod 4 = 0 /\ map r_phase (s_recs st) = [0] /\ s_merged st = Box h [] /\ length (s_history st) = 1%nat
    | None => False end
  | None => False end.
Proof. vm_compute. auto. Qed.
