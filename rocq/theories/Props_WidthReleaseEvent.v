(** Property theorems; the proofs are in [PfWidthReleaseEvent].  Generated by tools/gen_theorems.py. *)
From Verif Require Import Machine Log2Model HistModel Spec Reach Witness Cases CasesSync SyncModel SyncSpec LiveSpec EventSpec WeakModel WeakSpec WeakLiveSpec WeakEventSpec ReleaseSyncModel ReleaseSyncSpec WidthSyncModel WidthSyncSpec WidthEventSpec WidthReleaseModel WidthReleaseSpec CasesWidthRelease WidthReleaseEventFacts PfWidthReleaseEvent.

(** If recorder [i] reads value number [n1] of the phase and, the next time it reads the phase, a newer one
    (number [n2], newer by less than 2^B), and it has not woken from idle in between, every call made on [i]
    before the second look is in no local histogram once [i] has completed that step, however many refreshes
    there have been. *)
Theorem C85_handed_over : forall B h0 t0 look1 n1 tb look2 n2 tc fin m td w1 w2 i c,
  mrun B h0 (t0 ++ (look1, n1) :: tb ++ (look2, n2) :: tc ++ (fin, m) :: td) w2 -> mexec B (winit h0) (t0 ++ (look1, n1) :: tb) = Some w1 ->
  In c (s_history (w_st w1)) -> c_rec c = i ->
  looks i look1 -> looks i look2 -> (fin = LFinish i \/ fin = LIdleEnd i) ->
  (forall l, In l (acts tb) -> ~ looks i l /\ l <> LWakeEnd i) -> 1 <= n2 - n1 <= 2 ^ B - 1 ->
  forall r, In r (s_recs (w_st w2)) -> ~ In c (b_log (r_local r)).
Proof. exact C85_handed_over_proof. Qed.
Print Assumptions C85_handed_over.

(** with 32 bits: the recorder reads number 0 in a call with 7; two refreshes time out; then the recorder makes a call
    with 9, reads number 1 although 2 is the latest, and hands over both calls *)
Example ex_C85_handed_over : match build U64 1 1000 2 false [] with
  | Some h =>
      let t0 := [(RRecorder, 0); (LWrite 0 (ORecord 7 1), 0)] in
      let tb := (LFinish 0, 0) :: widle_refresh ++ widle_refresh ++ [(LWrite 0 (ORecord 9 1), 0)] in
      let tr := t0 ++ (LLoad 0, 0) :: tb ++ (LLoad 0, 1) :: [] ++ (LFinish 0, 0) :: [] in
      match mexec 32 (winit h) (t0 ++ (LLoad 0, 0) :: tb), mexec 32 (winit h) tr with
      | Some w1, Some w2 => mrun 32 h tr w2 /\ map (fun r => length (b_log (r_local r))) (s_recs (w_st w1)) = [2]%nat /\ w_now w1 = 2 /\
          map (fun r => b_log (r_local r)) (s_recs (w_st w2)) = [[]] /\ map b_log (s_chan (w_st w2)) = [s_history (w_st w1)]
      | _, _ => False end
  | None => False end.
Proof. msync_case. Qed.

(** A call of [refresh] that returns (by a timeout or not) has merged every call whose recorder had already
    handed it over when [refresh] was called. *)
Theorem C85_refresh_collects : forall B h0 tr w1 t k te w2 c, mrun B h0 tr w1 -> merged_untouched (acts tr) ->
  mexec B w1 ((RStart t, k) :: te) = Some w2 -> Forall in_call (acts te) -> s_reader (w_st w2) = RReady ->
  In c (s_history (w_st w1)) -> (forall r, In r (s_recs (w_st w1)) -> ~ In c (b_log (r_local r))) ->
  In c (b_log (s_merged (w_st w2))).
Proof. exact C85_refresh_collects_proof. Qed.
Print Assumptions C85_refresh_collects.

(** with 32 bits: recorder 0 has seen the first move of the phase and handed over 7 and 9; the next refresh has both,
    although it times out and recorder 1 does anything in between *)
Example ex_C85_refresh_collects : match build U64 1 1000 2 false [] with
  | Some h =>
      let tr := [(RRecorder, 0); (RRecorder, 0)] ++ wone_call 0 (ORecord 7 1) ++ widle_refresh ++ wone_call 1 (ORecord 9 1) in
      let te := [(LWrite 1 (ORecord 2 1), 0); (RRecv, 0); (LLoad 1, 0); (LFinish 1, 0); (REmpty, 0); (LClone 1, 0); (RRead, 0); (RShift, 0);
                 (LDrop 1, 0); (LDropEnd 1, 0); (RTimeout, 0); (RRecv, 0); (REmpty, 0)] in
      match mexec 32 (winit h) tr with
      | Some w1 => mrun 32 h tr w1 /\ merged_untouched (acts tr) /\ Forall in_call (acts te) /\
          map c_id (s_history (w_st w1)) = [0; 1]%nat /\ map (fun r => b_log (r_local r)) (s_recs (w_st w1)) = [[]; []] /\ b_log (s_merged (w_st w1)) = [] /\
          match mexec 32 w1 ((RStart true, 0) :: te) with
          | Some w2 => s_reader (w_st w2) = RReady /\ map c_id (b_log (s_merged (w_st w2))) = [0; 1; 2]%nat
          | None => False end
      | None => False end
  | None => False end.
Proof. msync_case. Qed.

(** A recorder that is dropped hands over everything, whatever the phase. *)
Theorem C85_drop_hands_over : forall B h0 ta k td w1 w2 i c,
  mrun B h0 (ta ++ (LDropEnd i, k) :: td) w2 -> mexec B (winit h0) ta = Some w1 ->
  In c (s_history (w_st w1)) -> c_rec c = i ->
  forall r, In r (s_recs (w_st w2)) -> ~ In c (b_log (r_local r)).
Proof. exact C85_drop_hands_over_proof. Qed.
Print Assumptions C85_drop_hands_over.

Example ex_C85_drop_hands_over : match build U64 1 1000 2 false [] with
  | Some h =>
      let ta := [(RRecorder, 0); (RRecorder, 0)] ++ widle_refresh ++ wone_call 0 (ORecord 7 1) ++ [(LWrite 1 (ORecord 8 1), 0); (LDrop 0, 0)] in
      let td := [(LLoad 1, 0); (LFinish 1, 0)] in
      match mexec 32 (winit h) ta, mexec 32 (winit h) (ta ++ (LDropEnd 0, 0) :: td) with
      | Some w1, Some w2 => mrun 32 h (ta ++ (LDropEnd 0, 0) :: td) w2 /\ map r_phase (s_recs (w_st w1)) = [0; 0] /\ s_phase (w_st w1) = 1 /\
          map (fun r => map c_id (b_log (r_local r))) (s_recs (w_st w1)) = [[0]; [1]]%nat /\
          map (fun r => map c_id (b_log (r_local r))) (s_recs (w_st w2)) = [[]; [1]]%nat
      | _, _ => False end
  | None => False end.
Proof. msync_case. Qed.

(** Every call made on a recorder is in the merged histogram from some moment on, however often the phase wraps
    around, in every execution in which every move of the phase becomes visible some time, the reader calls
    [refresh] (or [refresh_timeout]) again and again, that recorder makes calls again and again and goes idle
    only finitely often, the program does not write to the merged histogram itself, and what the recorder
    reads never moves on by 2^B values or more at once. *)
Theorem C85_eventually : forall B h0 tr0 w a k0 i c,
  mrun B h0 tr0 (w 0%nat) -> merged_untouched (acts tr0) -> mcontinues B h0 w a -> never_set (actions a) ->
  keeps_refreshing (actions a) -> keeps_recording (actions a) i -> wakes_end (actions a) i ->
  becomes_visible w a -> nlooks_in_time B a i k0 ->
  In c (s_history (w_st (w k0))) -> c_rec c = i ->
  exists K, forall k, (K <= k)%nat -> In c (b_log (s_merged (w_st (w k)))).
Proof. exact C85_eventually_proof. Qed.
Print Assumptions C85_eventually.

(** with 32 bits, rounds without end, in each of which recorder 0 makes a call *)
Example ex_C85_eventually : exists h0 tr0 w a,
  mrun 32 h0 tr0 (w 0%nat) /\ merged_untouched (acts tr0) /\ mcontinues 32 h0 w a /\ never_set (actions a) /\ keeps_refreshing (actions a) /\
  keeps_recording (actions a) 0 /\ wakes_end (actions a) 0 /\ becomes_visible w a /\ nlooks_in_time 32 a 0 7 /\
  s_history (w_st (w 7%nat)) = [Call 0 1 (ORecord 7 1) true; Call 1 0 (ORecord 7 1) true] /\
  b_log (s_merged (w_st (w 9%nat))) = [Call 0 1 (ORecord 7 1) true] /\
  b_log (s_merged (w_st (w 10%nat))) = [Call 0 1 (ORecord 7 1) true; Call 1 0 (ORecord 7 1) true].
Proof.
  destruct (goes_on_release 32 (or_introl eq_refl)) as (h0 & tr0 & w & a & X1 & X2 & X3 & X4 & X5 & X6 & X7 & X8 & X9 & _ & _ & X10 & _ & X). exists h0, tr0, w, a.
  split; [exact X1|]. split; [exact X2|]. split; [exact X3|]. split; [exact X4|]. split; [exact X5|]. split; [exact X6|]. split; [exact X7|]. split; [exact X8|].
  split; [exact X9|]. split; [exact X10|exact X].
Qed.

(** So is every call made on a recorder that is dropped some time, whatever the phase. *)
Theorem C85_dropped_eventually : forall B h0 tr0 w a k0 kd i c,
  mrun B h0 tr0 (w 0%nat) -> merged_untouched (acts tr0) -> mcontinues B h0 w a -> never_set (actions a) ->
  keeps_refreshing (actions a) -> (k0 <= kd)%nat -> actions a kd = Some (LDropEnd i) ->
  In c (s_history (w_st (w k0))) -> c_rec c = i ->
  exists K, forall k, (K <= k)%nat -> In c (b_log (s_merged (w_st (w k)))).
Proof. exact C85_dropped_eventually_proof. Qed.
Print Assumptions C85_dropped_eventually.

(** recorder 1 has recorded 7 and is dropped at moment 0; the reader and recorder 0 go on for ever *)
Example ex_C85_dropped_eventually : exists h0 tr0 w a,
  mrun 32 h0 tr0 (w 0%nat) /\ merged_untouched (acts tr0) /\ mcontinues 32 h0 w a /\ never_set (actions a) /\ keeps_refreshing (actions a) /\
  actions a 0%nat = Some (LDropEnd 1) /\ s_history (w_st (w 0%nat)) = [Call 0 1 (ORecord 7 1) true] /\
  b_log (s_merged (w_st (w 2%nat))) = [] /\ b_log (s_merged (w_st (w 9%nat))) = [Call 0 1 (ORecord 7 1) true].
Proof.
  destruct (goes_on_release 32 (or_introl eq_refl)) as (h0 & tr0 & w & a & X1 & X2 & X3 & X4 & X5 & _ & _ & _ & _ & X6 & X7 & _ & X8 & X9 & _). exists h0, tr0, w, a.
  split; [exact X1|]. split; [exact X2|]. split; [exact X3|]. split; [exact X4|]. split; [exact X5|]. split; [exact X6|]. split; [exact X7|]. split; [exact X8|exact X9].
Qed.
