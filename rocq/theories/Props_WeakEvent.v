(** Property theorems; the proofs are in [PfWeakEvent].  Generated by tools/gen_theorems.py. *)
From Verif Require Import Machine Log2Model HistModel Spec Reach Witness Cases SyncModel SyncSpec LiveSpec EventSpec WeakModel WeakSpec WeakLiveSpec WeakEventSpec WeakEventFacts CasesSync PfWeakEvent.

(** [C73_handed_over] without a bound on the number of refreshes of the whole run, and for the calls made
    after the phase moved, too.  If recorder [i] reads value number [n1] of the phase and, the next time it
    reads the phase, a newer one (number [n2], not newer by more than [usize::MAX]; neither has to be the
    latest), and it has not woken from idle in between, every call made on [i] before the second look is in
    no local histogram once [i] has completed that step. *)
Theorem C82_handed_over : forall h0 t0 look1 n1 tb look2 n2 tc fin m td w1 w2 i c,
  wrun h0 (t0 ++ (look1, n1) :: tb ++ (look2, n2) :: tc ++ (fin, m) :: td) w2 -> wexec (winit h0) (t0 ++ (look1, n1) :: tb) = Some w1 ->
  In c (s_history (w_st w1)) -> c_rec c = i ->
  looks i look1 -> looks i look2 -> (fin = LFinish i \/ fin = LIdleEnd i) ->
  (forall l, In l (acts tb) -> ~ looks i l /\ l <> LWakeEnd i) -> 1 <= n2 - n1 <= usize_max ->
  forall r, In r (s_recs (w_st w2)) -> ~ In c (b_log (r_local r)).
Proof. exact C82_handed_over_proof. Qed.
Print Assumptions C82_handed_over.

(** the recorder reads number 0 in a call with 7; two refreshes time out; then the recorder makes a call with 9,
    reads number 1 although 2 is the latest, and hands over both calls, also the one made after the phase moved *)
Example ex_C82_handed_over : match build U64 1 1000 2 false [] with
  | Some h =>
      let ref := [(RStart true, 0); (REmpty, 0); (RRead, 0); (RShift, 0); (RTimeout, 0); (REmpty, 0)] in
      let t0 := [(RRecorder, 0); (LWrite 0 (ORecord 7 1), 0)] in
      let tb := (LFinish 0, 0) :: ref ++ ref ++ [(LWrite 0 (ORecord 9 1), 0)] in
      let tr := t0 ++ (LLoad 0, 0) :: tb ++ (LLoad 0, 1) :: [] ++ (LFinish 0, 0) :: [] in
      match wexec (winit h) (t0 ++ (LLoad 0, 0) :: tb), wexec (winit h) tr with
      | Some w1, Some w2 => wrun h tr w2 /\ map (fun r => length (b_log (r_local r))) (s_recs (w_st w1)) = [2]%nat /\ w_now w1 = 2 /\
          map (fun r => b_log (r_local r)) (s_recs (w_st w2)) = [[]] /\ map b_log (s_chan (w_st w2)) = [s_history (w_st w1)]
      | _, _ => False end
  | None => False end.
Proof. sync_case. Qed.

(** Every call made on a recorder is in the merged histogram from some moment on, whatever the other threads
    do and however outdated single loads are, in every execution in which every move of the phase becomes
    visible some time, the reader calls [refresh] (or [refresh_timeout]) again and again, that recorder makes
    calls again and again and goes idle only finitely often, the program does not write to the merged
    histogram itself, and what the recorder reads never moves on by more than [usize::MAX] values at once. *)
Theorem C82_eventually : forall h0 tr0 w a k0 i c,
  wrun h0 tr0 (w 0%nat) -> merged_untouched (acts tr0) -> wcontinues h0 w a -> never_set (actions a) ->
  keeps_refreshing (actions a) -> keeps_recording (actions a) i -> wakes_end (actions a) i ->
  becomes_visible w a -> wlooks_in_time a i k0 ->
  In c (s_history (w_st (w k0))) -> c_rec c = i ->
  exists K, forall k, (K <= k)%nat -> In c (b_log (s_merged (w_st (w k)))).
Proof. exact C82_eventually_proof. Qed.
Print Assumptions C82_eventually.

(** rounds without end; in the first one recorder 0 makes a call with an outdated load, which hands nothing over, and then
    another one, which hands over both *)
Example ex_C82_eventually : exists h0 tr0 w a,
  wrun h0 tr0 (w 0%nat) /\ merged_untouched (acts tr0) /\ wcontinues h0 w a /\ never_set (actions a) /\
  keeps_refreshing (actions a) /\ keeps_recording (actions a) 0 /\ wakes_end (actions a) 0 /\ becomes_visible w a /\ wlooks_in_time a 0 5 /\
  s_history (w_st (w 5%nat)) = [Call 0 0 (ORecord 7 1) true] /\ a 5%nat = Some (LLoad 0, 0) /\ w_now (w 5%nat) = 1 /\
  map (fun r => b_log (r_local r)) (s_recs (w_st (w 7%nat))) = [[Call 0 0 (ORecord 7 1) true]] /\
  b_log (s_merged (w_st (w 10%nat))) = [] /\ b_log (s_merged (w_st (w 11%nat))) = [Call 0 0 (ORecord 7 1) true; Call 1 0 (ORecord 7 1) true].
Proof.
  destruct (goes_on_stale false) as (h0 & tr0 & w & a & X1 & X2 & _ & _ & _ & X3 & X4 & _ & _ & _ & _ & _ & _ & _ & X5 & X6 & X7 & X8 & X9 & X).
  exists h0, tr0, w, a. split; [exact X1|]. split; [exact X2|]. split; [exact X3|]. split; [exact X4|]. split; [exact X5|]. split; [exact X6|]. split; [exact X7|].
  split; [exact X8|]. split; [exact X9|exact X].
Qed.

(** So is every call made on a recorder that is dropped some time, even if no move of the phase ever becomes
    visible. *)
Theorem C82_dropped_eventually : forall h0 tr0 w a k0 kd i c,
  wrun h0 tr0 (w 0%nat) -> merged_untouched (acts tr0) -> wcontinues h0 w a -> never_set (actions a) ->
  keeps_refreshing (actions a) -> (k0 <= kd)%nat -> actions a kd = Some (LDropEnd i) ->
  In c (s_history (w_st (w k0))) -> c_rec c = i ->
  exists K, forall k, (K <= k)%nat -> In c (b_log (s_merged (w_st (w k)))).
Proof. exact C82_dropped_eventually_proof. Qed.
Print Assumptions C82_dropped_eventually.

(** recorder 1 has recorded 7 and is dropped at moment 0; the reader and recorder 0 go on for ever, and every
    load of the phase returns its very first value *)
Example ex_C82_dropped_eventually : exists h0 tr0 w a,
  wrun h0 tr0 (w 0%nat) /\ merged_untouched (acts tr0) /\ wcontinues h0 w a /\ never_set (actions a) /\ keeps_refreshing (actions a) /\
  actions a 0%nat = Some (LDropEnd 1) /\ s_history (w_st (w 0%nat)) = [Call 0 1 (ORecord 7 1) true] /\
  (forall k l n, a k = Some (l, n) -> is_load l -> n = 0) /\
  b_log (s_merged (w_st (w 2%nat))) = [] /\ b_log (s_merged (w_st (w 3%nat))) = [Call 0 1 (ORecord 7 1) true].
Proof. exact goes_on_blind_dropped. Qed.

(** With [refresh_timeout] this needs no assumption that the refreshes return.  It is enough that no thread
    stops for good inside a critical section, the reader is not starved, recorders are cloned only finitely
    often, and the reader calls [refresh_timeout] again some time after it has returned. *)
Theorem C82_with_timeout : forall h0 tr0 w a k0 i c,
  wrun h0 tr0 (w 0%nat) -> merged_untouched (acts tr0) -> guards_dropped (acts tr0) -> merge_safe h0 -> s_lock (w_st (w 0%nat)) <> Poisoned ->
  wcontinues h0 w a -> never_set (actions a) -> no_leak (actions a) -> few_recorders (states w) -> clones_end (actions a) ->
  sections_go_on (states w) (actions a) -> wreader_goes_on wstep w a ->
  s_reader (w_st (w 0%nat)) = RReady -> refreshes_with_timeout (states w) (actions a) ->
  keeps_recording (actions a) i -> wakes_end (actions a) i -> becomes_visible w a -> wlooks_in_time a i k0 ->
  In c (s_history (w_st (w k0))) -> c_rec c = i ->
  exists K, forall k, (K <= k)%nat -> In c (b_log (s_merged (w_st (w k)))).
Proof. exact C82_with_timeout_proof. Qed.
Print Assumptions C82_with_timeout.

Example ex_C82_with_timeout : exists h0 tr0 w a,
  wrun h0 tr0 (w 0%nat) /\ merged_untouched (acts tr0) /\ guards_dropped (acts tr0) /\ merge_safe h0 /\ s_lock (w_st (w 0%nat)) <> Poisoned /\
  wcontinues h0 w a /\ never_set (actions a) /\ no_leak (actions a) /\ few_recorders (states w) /\ clones_end (actions a) /\
  sections_go_on (states w) (actions a) /\ wreader_goes_on wstep w a /\ s_reader (w_st (w 0%nat)) = RReady /\
  refreshes_with_timeout (states w) (actions a) /\
  keeps_recording (actions a) 0 /\ wakes_end (actions a) 0 /\ becomes_visible w a /\ wlooks_in_time a 0 5 /\
  s_history (w_st (w 5%nat)) = [Call 0 0 (ORecord 7 1) true] /\ a 5%nat = Some (LLoad 0, 0) /\ w_now (w 5%nat) = 1.
Proof.
  destruct (goes_on_stale true) as (h0 & tr0 & w & a & X1 & X2 & X3 & X4 & X5 & X6 & X7 & X8 & X9 & X10 & X11 & X12 & X13 & X14 & _ & X15 & X16 & X17 & X18 & X19 & X20 & X21 & _).
  exists h0, tr0, w, a. specialize (X14 eq_refl). apply PfWeakLive.wreader_as in X12. split; [exact X1|]. split; [exact X2|]. split; [exact X3|]. split; [exact X4|]. split; [exact X5|]. split; [exact X6|].
  split; [exact X7|]. split; [exact X8|]. split; [exact X9|]. split; [exact X10|]. split; [exact X11|]. split; [exact X12|]. split; [exact X13|]. split; [exact X14|].
  split; [exact X15|]. split; [exact X16|]. split; [exact X17|]. split; [exact X18|]. split; [exact X19|]. split; [exact X20|exact X21].
Qed.

(** That every move of the phase becomes visible some time is needed: with loads that return the very first
    value for ever a recorder that keeps recording never hands anything over.  (The architectures make stores
    visible in finite time; the memory model of the language only recommends it.) *)
Theorem C82_invisible_refuted : exists h0 tr0 w a c,
  wrun h0 tr0 (w 0%nat) /\ merged_untouched (acts tr0) /\ wcontinues h0 w a /\ never_set (actions a) /\
  keeps_refreshing (actions a) /\ keeps_recording (actions a) 0 /\ wakes_end (actions a) 0 /\ wlooks_in_time a 0 0 /\
  In c (s_history (w_st (w 5%nat))) /\ c_rec c = 0%nat /\ forall k, ~ In c (b_log (s_merged (w_st (w k)))).
Proof. exact C82_invisible_refuted_proof. Qed.
Print Assumptions C82_invisible_refuted.
