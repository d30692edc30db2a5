(** Property theorems; the proofs are in [PfWidthSync].  Generated by tools/gen_theorems.py. *)
From Verif Require Import Machine Log2Model HistModel Spec Reach Witness Cases CasesSync SyncModel SyncSpec LiveSpec EventSpec WeakModel WeakSpec WidthSyncModel WidthSyncSpec CasesWidthSync PfWidthSync.
From Coq Require Import Permutation.


(** As long as there are fewer than 2^B refreshes and fewer than 2^B - 1 recorders, the executions on a target
    with a usize of [B] bits are those on a 64-bit target, so everything said about those holds. *)
Theorem C84_same : forall B h0 tr w, 32 <= B <= 64 -> shifts (acts tr) < 2 ^ B -> Z.of_nat (length (s_recs (w_st w))) < 2 ^ B - 1 ->
  (nrun B h0 tr w <-> wrun h0 tr w).
Proof. exact C84_same_proof. Qed.
Print Assumptions C84_same.

(** with 32 bits: two recorders; the second one has handed over, gone idle and is waking up, the first has not seen the new phase *)
Example ex_C84_same : match build U64 1 1000 2 false [(5, 2)] with
  | Some h =>
      let tr := [(RRecorder, 0); (LClone 0, 0); (RStart false, 0); (REmpty, 0); (RRead, 0); (RShift, 0);
                 (LWrite 0 (ORecord 7 1), 0); (LLoad 0, 0); (LFinish 0, 0); (LWrite 1 (ORecord 9 4), 0); (LLoad 1, 1); (LFinish 1, 0); (RRecv, 0);
                 (LIdle 1, 0); (LIdleLoad 1, 1); (LIdleEnd 1, 0); (LWake 1, 0)] in
      match nexec 32 (winit h) tr with
      | Some w => shifts (acts tr) < 2 ^ 32 /\ Z.of_nat (length (s_recs (w_st w))) < 2 ^ 32 - 1 /\ nrun 32 h tr w /\ wrun h tr w /\
          s_reader (w_st w) = RWait false 2 1 /\ s_count (w_st w) = 2
      | None => False end
  | None => False end.
Proof. nsync_case. Qed.

(** In any case no sample is lost or counted twice: every call is in exactly one place. *)
Theorem C84_every_call_in_one_place : forall B h0 tr w, nrun B h0 tr w -> merged_untouched (acts tr) -> reader_alive (w_st w) ->
  Permutation (b_log (s_merged (w_st w)) ++ flat_map b_log (s_chan (w_st w)) ++ flat_map (fun r => b_log (r_local r)) (s_recs (w_st w)))
    (s_history (w_st w)) /\
  map c_id (s_history (w_st w)) = seq 0 (length (s_history (w_st w))) /\
  map (fun c => (c_rec c, c_op c)) (s_history (w_st w)) = writes (acts tr).
Proof. exact C84_every_call_in_one_place_proof. Qed.
Print Assumptions C84_every_call_in_one_place.

(** one call is merged, one is on its way, one is in a local histogram *)
Example ex_C84_one_place : match build U64 1 1000 2 false [(5, 2)] with
  | Some h =>
      let tr := [(RRecorder, 0); (LClone 0, 0); (RStart true, 0); (REmpty, 0); (RRead, 0); (RShift, 0);
                 (LWrite 0 (ORecord 7 1), 0); (LLoad 0, 0); (LFinish 0, 0); (LWrite 1 (ORecord 9 4), 0); (LLoad 1, 1); (LFinish 1, 0); (RRecv, 0);
                 (RTimeout, 0); (REmpty, 0); (RStart true, 0); (REmpty, 0); (RRead, 0); (RShift, 0); (LWrite 1 (ORecord 3 1), 0); (LLoad 1, 2); (LFinish 1, 0)] in
      match nexec 32 (winit h) tr with
      | Some w => nrun 32 h tr w /\ merged_untouched (acts tr) /\ reader_alive (w_st w) /\
          map c_id (b_log (s_merged (w_st w))) = [1]%nat /\ map (fun b => map c_id (b_log b)) (s_chan (w_st w)) = [[2]]%nat /\
          map (fun r => map c_id (b_log (r_local r))) (s_recs (w_st w)) = [[0]; []]%nat /\ map c_rec (s_history (w_st w)) = [0; 1; 1]%nat
      | None => False end
  | None => False end.
Proof. nsync_case. Qed.

(** And every histogram contains the samples of its calls. *)
Theorem C84_contents : forall B h0 tr w, nrun B h0 tr w -> merged_untouched (acts tr) -> only_adds_samples (acts tr) ->
  reader_alive (w_st w) -> no_saturation h0 (samples (s_history (w_st w))) ->
  holds_over h0 (b_hist (s_merged (w_st w))) (samples (b_log (s_merged (w_st w)))) /\
  (forall b, In b (s_chan (w_st w)) -> holds h0 (b_hist b) (samples (b_log b))) /\
  (forall r, In r (s_recs (w_st w)) -> holds h0 (b_hist (r_local r)) (samples (b_log (r_local r)))).
Proof. exact C84_contents_proof. Qed.
Print Assumptions C84_contents.

(** the same histogram, and what the refresh has merged so far *)
Example ex_C84_contents : match build U64 1 1000 2 false [(5, 2)] with
  | Some h =>
      let tr := [(RRecorder, 0); (LClone 0, 0); (RStart false, 0); (REmpty, 0); (RRead, 0); (RShift, 0);
                 (LWrite 0 (ORecord 7 1), 0); (LLoad 0, 0); (LFinish 0, 0); (LWrite 1 (ORecord 9 4), 0); (LLoad 1, 1); (LFinish 1, 0); (RRecv, 0);
                 (LIdle 1, 0); (LIdleLoad 1, 1); (LIdleEnd 1, 0); (LWake 1, 0)] in
      match nexec 32 (winit h) tr with
      | Some w => nrun 32 h tr w /\ merged_untouched (acts tr) /\ only_adds_samples (acts tr) /\ reader_alive (w_st w) /\
          no_saturation h (samples (s_history (w_st w))) /\ held (b_hist (s_merged (w_st w))) = [(5, 2); (9, 4)]
      | None => False end
  | None => False end.
Proof. nsync_case. Qed.

(** Nor does a refresh panic. *)
Theorem C84_refresh_never_panics : forall B h0 tr w, nrun B h0 tr w -> merged_untouched (acts tr) -> merge_safe h0 ->
  s_reader (w_st w) <> RPanicked.
Proof. exact C84_refresh_never_panics_proof. Qed.
Print Assumptions C84_refresh_never_panics.

(** a refresh that has merged one histogram and waits for another *)
Example ex_C84_never_panics : match build U64 1 1000 2 false [(5, 2)] with
  | Some h =>
      let tr := [(RRecorder, 0); (LClone 0, 0); (RStart false, 0); (REmpty, 0); (RRead, 0); (RShift, 0);
                 (LWrite 0 (ORecord 7 1), 0); (LLoad 0, 0); (LFinish 0, 0); (LWrite 1 (ORecord 9 4), 0); (LLoad 1, 1); (LFinish 1, 0); (RRecv, 0);
                 (LIdle 1, 0); (LIdleLoad 1, 1); (LIdleEnd 1, 0); (LWake 1, 0)] in
      match nexec 32 (winit h) tr with
      | Some w => nrun 32 h tr w /\ merged_untouched (acts tr) /\ merge_safe h /\ s_reader (w_st w) = RWait false 2 1
      | None => False end
  | None => False end.
Proof. nsync_case. Qed.

(** The shared count fits a usize.  Unless guards of idle recorders are forgotten it is the number of recorders in
    use, and the mutex is poisoned only after [usize::MAX] recorders.  Recorder [i] holds the mutex exactly while
    it is inside its critical section, and whoever holds it can go on. *)
Theorem C84_count : forall B h0 tr w, nrun B h0 tr w ->
  0 <= s_count (w_st w) <= 2 ^ B - 1 /\
  (guards_dropped (acts tr) -> s_count (w_st w) = active_recorders (w_st w) /\
     (Z.of_nat (length (s_recs (w_st w))) < 2 ^ B - 1 -> s_lock (w_st w) <> Poisoned)) /\
  (forall i r, nth_error (s_recs (w_st w)) i = Some r ->
     (s_lock (w_st w) = Held i <-> in_section r = true) /\
     (s_lock (w_st w) = Held i -> exists l k w', section_step i l /\ nstep B w (l, k) = Some w')).
Proof. exact C84_count_proof. Qed.
Print Assumptions C84_count.

(** the second recorder is waking up and holds the mutex *)
Example ex_C84_count : match build U64 1 1000 2 false [(5, 2)] with
  | Some h =>
      let tr := [(RRecorder, 0); (LClone 0, 0); (RStart false, 0); (REmpty, 0); (RRead, 0); (RShift, 0);
                 (LWrite 0 (ORecord 7 1), 0); (LLoad 0, 0); (LFinish 0, 0); (LWrite 1 (ORecord 9 4), 0); (LLoad 1, 1); (LFinish 1, 0); (RRecv, 0);
                 (LIdle 1, 0); (LIdleLoad 1, 1); (LIdleEnd 1, 0); (LWake 1, 0)] in
      match nexec 32 (winit h) tr with
      | Some w => nrun 32 h tr w /\ guards_dropped (acts tr) /\ Z.of_nat (length (s_recs (w_st w))) < 2 ^ 32 - 1 /\ s_lock (w_st w) = Held 1 /\
          s_count (w_st w) = 2 /\ active_recorders (w_st w) = 2
      | None => False end
  | None => False end.
Proof. nsync_case. Qed.

(** If recorder [i] reads value number [n1] of the phase and, the next time it reads the phase, a newer one
    (number [n2], newer by less than 2^B), and it has not woken from idle in between, every call made on [i]
    before the second look is in no local histogram once [i] has completed that step, however many refreshes
    there have been. *)
Theorem C84_handed_over : forall B h0 t0 look1 n1 tb look2 n2 tc fin m td w1 w2 i c,
  nrun B h0 (t0 ++ (look1, n1) :: tb ++ (look2, n2) :: tc ++ (fin, m) :: td) w2 -> nexec B (winit h0) (t0 ++ (look1, n1) :: tb) = Some w1 ->
  In c (s_history (w_st w1)) -> c_rec c = i ->
  looks i look1 -> looks i look2 -> (fin = LFinish i \/ fin = LIdleEnd i) ->
  (forall l, In l (acts tb) -> ~ looks i l /\ l <> LWakeEnd i) -> 1 <= n2 - n1 <= 2 ^ B - 1 ->
  forall r, In r (s_recs (w_st w2)) -> ~ In c (b_log (r_local r)).
Proof. exact C84_handed_over_proof. Qed.
Print Assumptions C84_handed_over.

(** with 32 bits: the recorder reads number 0 in a call with 7; two refreshes time out; then the recorder makes a call
    with 9, reads number 1 although 2 is the latest, and hands over both calls *)
Example ex_C84_handed_over : match build U64 1 1000 2 false [] with
  | Some h =>
      let t0 := [(RRecorder, 0); (LWrite 0 (ORecord 7 1), 0)] in
      let tb := (LFinish 0, 0) :: widle_refresh ++ widle_refresh ++ [(LWrite 0 (ORecord 9 1), 0)] in
      let tr := t0 ++ (LLoad 0, 0) :: tb ++ (LLoad 0, 1) :: [] ++ (LFinish 0, 0) :: [] in
      match nexec 32 (winit h) (t0 ++ (LLoad 0, 0) :: tb), nexec 32 (winit h) tr with
      | Some w1, Some w2 => nrun 32 h tr w2 /\ map (fun r => length (b_log (r_local r))) (s_recs (w_st w1)) = [2]%nat /\ w_now w1 = 2 /\
          map (fun r => b_log (r_local r)) (s_recs (w_st w2)) = [[]] /\ map b_log (s_chan (w_st w2)) = [s_history (w_st w1)]
      | _, _ => False end
  | None => False end.
Proof. nsync_case. Qed.

(** The bound is needed.  A recorder that makes one call after every 2^B refreshes (which time out) and always reads
    the latest phase sees the same phase each time, as the phase has wrapped around, and never hands anything
    over.  On a 32-bit target that is after 2^32 refreshes. *)
Theorem C84_wrap_refuted : forall B h0 os, 32 <= B <= 64 -> reachable h0 -> Forall (op_ok (h_ctr h0)) os ->
  exists w, nrun B h0 ((RRecorder, 0) :: calls_apart (Z.to_nat (2 ^ B)) 0 os) w /\
            s_reader (w_st w) = RReady /\ length (s_history (w_st w)) = length os /\ s_merged (w_st w) = Box h0 [] /\ s_chan (w_st w) = [].
Proof. exact C84_wrap_refuted_proof. Qed.
Print Assumptions C84_wrap_refuted.

(** the same with a phase of two bits, two calls four refreshes apart; with three refreshes between them the second
    call would hand both over *)
Example ex_C84_wrap_refuted : match build U64 1 1000 2 false [] with
  | Some h => match nexec 2 (winit h) ((RRecorder, 0) :: calls_apart 4 0 [ORecord 7 1; ORecord 9 2]), 
      nexec 2 (winit h) ((RRecorder, 0) :: wone_call 0 (ORecord 7 1) ++ concat (repeat widle_refresh 3) ++ wone_call 3 (ORecord 9 2)) with
    | Some w, Some v => length (s_history (w_st w)) = 2%nat /\ w_now w = 8 /\ s_chan (w_st w) = [] /\ s_merged (w_st w) = Box h [] /\
        map (fun b => map c_id (b_log b)) (s_chan (w_st v)) = [[0; 1]]%nat
    | _, _ => False end
  | None => False end.
Proof. nsync_case. Qed.
