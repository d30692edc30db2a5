(** * C83: every sample is delivered in the end, without overflow checks *)
From Coq Require Import Permutation.
From Verif Require Import Machine Log2Model HistModel Bins ListZ Wf Spec Reach Witness SyncModel SyncSpec SyncOps SyncFacts SyncRefresh PfSync LiveSpec LiveFacts PfLive
  EventSpec EventFacts WeakModel WeakSpec WeakFacts WeakLiveSpec PfWeakLive WeakEventSpec ReleaseSyncModel ReleaseSyncSpec ReleaseSyncFacts ReleaseLiveSpec PfReleaseLive LooseFacts
  WidthSyncModel WidthSyncSpec WidthSyncFacts WidthEventSpec WidthReleaseModel WidthReleaseSpec WidthReleaseFacts PfWidthRelease PfWidthReleaseLive PfWidthReleaseEvent.
(*PROPS-IMPORTS Machine Log2Model HistModel Spec Reach Witness Cases CasesSync SyncModel SyncSpec LiveSpec EventSpec WeakModel WeakSpec WeakLiveSpec WeakEventSpec ReleaseSyncModel ReleaseSyncSpec ReleaseLiveSpec CasesReleaseSync WidthReleaseModel WidthReleaseSpec WidthReleaseEventFacts *)

(** *)
Lemma mexec64 h0 tr w : mexec 64 (winit h0) tr = Some w <-> rexec (winit h0) tr = Some w.
Proof.
  revert w. induction tr as [|[l k] tr IH] using rev_ind; intros w; [split; auto|]. split; intros E.
  - apply mexec_snoc in E. destruct E as (w1 & E1 & E2). rewrite rexec_app, (proj1 (IH w1) E1). cbn [rexec].
    rewrite <- (m64 w1 l k (mviews_run 64 h0 tr w1 ltac:(lia) E1)), E2. reflexivity.
  - apply rexec_snoc in E. destruct E as (w1 & E1 & E2). pose proof (proj2 (IH w1) E1) as E1m. rewrite mexec_app, E1m. cbn [mexec].
    rewrite (m64 w1 l k (mviews_run 64 h0 tr w1 ltac:(lia) E1m)), E2. reflexivity.
Qed.
Lemma mexec64_from h0 tr0 w0 : rexec (winit h0) tr0 = Some w0 -> forall tr w, rexec w0 tr = Some w -> mexec 64 w0 tr = Some w.
Proof.
  intros E0 tr w E. assert (X : rexec (winit h0) (tr0 ++ tr) = Some w) by (rewrite rexec_app, E0; exact E).
  apply mexec64 in X. rewrite mexec_app, (proj2 (mexec64 h0 tr0 w0) E0) in X. exact X.
Qed.
Lemma mcontinues64 h0 tr0 w a : rrun h0 tr0 (w 0%nat) -> rcontinues h0 w a -> mcontinues 64 h0 w a.
Proof.
  intros R C k. pose proof (C k) as CK. destruct (a k) as [[l n]|] eqn:A; [|exact CK]. destruct CK as [LO ST]. split; [exact LO|].
  pose proof (rpre_run h0 tr0 w a R C k) as (_ & _ & E). apply mexec64 in E. rewrite (m64 (w k) l n (mviews_run 64 h0 _ _ ltac:(lia) E)). exact ST.
Qed.
Lemma rcontinues64 h0 tr0 w a : mrun 64 h0 tr0 (w 0%nat) -> mcontinues 64 h0 w a -> rcontinues h0 w a.
Proof.
  intros R C k. pose proof (C k) as CK. destruct (a k) as [[l n]|] eqn:A; [|exact CK]. destruct CK as [LO ST]. split; [exact LO|].
  pose proof (mpre_run 64 h0 tr0 w a R C k) as (_ & _ & _ & E). rewrite <- (m64 (w k) l n (mviews_run 64 h0 _ _ ltac:(lia) E)). exact ST.
Qed.

(** ** C83, continued.  Every sample is delivered in the end, whatever has been forgotten *)
(** If recorder [i] reads value number [n1] of the phase and, the next time it reads the phase, a newer one
    (number [n2], newer by less than 2^64), and it has not woken from idle in between, every call made on [i]
    before the second look is in no local histogram once [i] has completed that step. *)
Lemma C83_handed_over_proof : forall h0 t0 look1 n1 tb look2 n2 tc fin m td w1 w2 i c,
  rrun h0 (t0 ++ (look1, n1) :: tb ++ (look2, n2) :: tc ++ (fin, m) :: td) w2 -> rexec (winit h0) (t0 ++ (look1, n1) :: tb) = Some w1 ->
  In c (s_history (w_st w1)) -> c_rec c = i ->
  looks i look1 -> looks i look2 -> (fin = LFinish i \/ fin = LIdleEnd i) ->
  (forall l, In l (acts tb) -> ~ looks i l /\ l <> LWakeEnd i) -> 1 <= n2 - n1 <= usize_max ->
  forall r, In r (s_recs (w_st w2)) -> ~ In c (b_log (r_local r)).
Proof.
  intros h0 t0 look1 n1 tb look2 n2 tc fin m td w1 w2 i c RN E. apply C85_same_64_proof in RN. apply mexec64 in E.
  exact (C85_handed_over_proof 64 h0 t0 look1 n1 tb look2 n2 tc fin m td w1 w2 i c RN E).
Qed.
(*EX
(** a guard has been forgotten and its recorder dropped, so the number of recorders is 0 although there is one; that one
    reads number 0 in a call with 7; two refreshes time out; then it makes a call with 9, reads number 1 although
    2 is the latest, and hands over both calls *)
Example ex_C83_handed_over : match build U64 1 1000 2 false [] with
  | Some h =>
      let t0 := [(RRecorder, 0); (RRecorder, 0); (LIdle 1, 0); (LIdleLoad 1, 0); (LIdleEnd 1, 0); (LForget 1, 0); (LDrop 1, 0); (LDropEnd 1, 0); (LWrite 0 (ORecord 7 1), 0)] in
      let rf := [(RStart true, 0); (REmpty, 0); (RRead, 0); (RShift, 0); (RDone, 0); (REmpty, 0)] in
      let tb := [(LFinish 0, 0); (RStart true, 0); (RRecv, 0); (REmpty, 0); (RRead, 0); (RShift, 0); (RDone, 0); (REmpty, 0)] ++ rf ++ [(LWrite 0 (ORecord 9 1), 0)] in
      let tr := t0 ++ (LLoad 0, 0) :: tb ++ (LLoad 0, 1) :: [] ++ (LFinish 0, 0) :: [] in
      match rexec (winit h) (t0 ++ (LLoad 0, 0) :: tb), rexec (winit h) tr with
      | Some w1, Some w2 => rrun h tr w2 /\ map (fun r => length (b_log (r_local r))) (s_recs (w_st w1)) = [2; 0]%nat /\ w_now w1 = 2 /\ s_count (w_st w2) = 0 /\
          map (fun r => b_log (r_local r)) (s_recs (w_st w2)) = [[]; []] /\ map b_log (s_chan (w_st w2)) = [s_history (w_st w1)]
      | _, _ => False end
  | None => False end.
Proof. rsync_case. Qed.
EX*)

(** A call of [refresh] that returns (by a timeout or not) has merged every call whose recorder had already
    handed it over when [refresh] was called. *)
Lemma C83_refresh_collects_proof : forall h0 tr w1 t k te w2 c, rrun h0 tr w1 -> merged_untouched (acts tr) ->
  rexec w1 ((RStart t, k) :: te) = Some w2 -> Forall in_call (acts te) -> s_reader (w_st w2) = RReady ->
  In c (s_history (w_st w1)) -> (forall r, In r (s_recs (w_st w1)) -> ~ In c (b_log (r_local r))) ->
  In c (b_log (s_merged (w_st w2))).
Proof.
  intros h0 tr w1 t k te w2 c RN U E. apply (mexec64_from h0 tr w1 (proj2 (proj2 RN))) in E. apply C85_same_64_proof in RN.
  exact (C85_refresh_collects_proof 64 h0 tr w1 t k te w2 c RN U E).
Qed.
(*EX
(** the number of recorders has wrapped around: the refresh waits for 2^64 - 1 histograms, times out, and has merged
    the calls of both recorders *)
Example ex_C83_refresh_collects : match build U64 1 1000 2 false [] with
  | Some h =>
      let tr := [(RRecorder, 0); (RRecorder, 0)] ++ [(LWrite 0 (ORecord 7 1), 0); (LLoad 0, 0); (LFinish 0, 0)] ++ [(LWrite 1 (ORecord 9 1), 0); (LLoad 1, 0); (LFinish 1, 0)] ++
        [(LIdle 1, 0); (LIdleLoad 1, 0); (LIdleEnd 1, 0); (LForget 1, 0); (LDrop 1, 0); (LDropEnd 1, 0); (LDrop 0, 0); (LDropEnd 0, 0)] in
      let te := [(RRecv, 0); (RRecv, 0); (REmpty, 0); (RRead, 0); (RShift, 0); (RTimeout, 0); (REmpty, 0)] in
      match rexec (winit h) tr with
      | Some w1 => rrun h tr w1 /\ merged_untouched (acts tr) /\ Forall in_call (acts te) /\ s_count (w_st w1) = usize_max /\
          map c_id (s_history (w_st w1)) = [0; 1]%nat /\ map (fun r => b_log (r_local r)) (s_recs (w_st w1)) = [[]; []] /\ b_log (s_merged (w_st w1)) = [] /\
          match rexec w1 ((RStart true, 0) :: te) with
          | Some w2 => s_reader (w_st w2) = RReady /\ map c_id (b_log (s_merged (w_st w2))) = [1; 0]%nat
          | None => False end
      | None => False end
  | None => False end.
Proof. rsync_case. Qed.
EX*)

(** A recorder that is dropped hands over everything, whatever the phase. *)
Lemma C83_drop_hands_over_proof : forall h0 ta k td w1 w2 i c,
  rrun h0 (ta ++ (LDropEnd i, k) :: td) w2 -> rexec (winit h0) ta = Some w1 ->
  In c (s_history (w_st w1)) -> c_rec c = i ->
  forall r, In r (s_recs (w_st w2)) -> ~ In c (b_log (r_local r)).
Proof.
  intros h0 ta k td w1 w2 i c RN E. apply C85_same_64_proof in RN. apply mexec64 in E. exact (C85_drop_hands_over_proof 64 h0 ta k td w1 w2 i c RN E).
Qed.
(*EX
(** dropping recorder 0 makes the number of recorders wrap around *)
Example ex_C83_drop_hands_over : match build U64 1 1000 2 false [] with
  | Some h =>
      let ta := [(RRecorder, 0); (RRecorder, 0); (LIdle 1, 0); (LIdleLoad 1, 0); (LIdleEnd 1, 0); (LForget 1, 0); (LDrop 1, 0); (LDropEnd 1, 0)] ++ [(LWrite 0 (ORecord 7 1), 0); (LLoad 0, 0); (LFinish 0, 0)] ++ [(LDrop 0, 0)] in
      match rexec (winit h) ta, rexec (winit h) (ta ++ (LDropEnd 0, 0) :: [(RRecorder, 0)]) with
      | Some w1, Some w2 => rrun h (ta ++ (LDropEnd 0, 0) :: [(RRecorder, 0)]) w2 /\ s_count (w_st w1) = usize_max /\ s_count (w_st w2) = 0 /\
          map (fun r => map c_id (b_log (r_local r))) (s_recs (w_st w1)) = [[0]; []]%nat /\
          map (fun r => map c_id (b_log (r_local r))) (s_recs (w_st w2)) = [[]; []; []]%nat
      | _, _ => False end
  | None => False end.
Proof. rsync_case. Qed.
EX*)

(** Every call made on a recorder is in the merged histogram from some moment on, under the conditions of
    C82_eventually, although guards may be forgotten. *)
Lemma C83_eventually_proof : forall h0 tr0 w a k0 i c,
  rrun h0 tr0 (w 0%nat) -> merged_untouched (acts tr0) -> rcontinues h0 w a -> never_set (actions a) ->
  keeps_refreshing (actions a) -> keeps_recording (actions a) i -> wakes_end (actions a) i ->
  becomes_visible w a -> wlooks_in_time a i k0 ->
  In c (s_history (w_st (w k0))) -> c_rec c = i ->
  exists K, forall k, (K <= k)%nat -> In c (b_log (s_merged (w_st (w k)))).
Proof.
  intros h0 tr0 w a k0 i c R U C. pose proof (mcontinues64 h0 tr0 w a R C) as MC. apply C85_same_64_proof in R.
  exact (C85_eventually_proof 64 h0 tr0 w a k0 i c R U MC).
Qed.
(*EX
(** rounds without end, in each of which recorder 0 makes a call *)
Example ex_C83_eventually : exists h0 tr0 w a,
  rrun h0 tr0 (w 0%nat) /\ merged_untouched (acts tr0) /\ rcontinues h0 w a /\ never_set (actions a) /\ keeps_refreshing (actions a) /\
  keeps_recording (actions a) 0 /\ wakes_end (actions a) 0 /\ becomes_visible w a /\ wlooks_in_time a 0 7 /\
  s_history (w_st (w 7%nat)) = [Call 0 1 (ORecord 7 1) true; Call 1 0 (ORecord 7 1) true] /\
  b_log (s_merged (w_st (w 9%nat))) = [Call 0 1 (ORecord 7 1) true] /\
  b_log (s_merged (w_st (w 10%nat))) = [Call 0 1 (ORecord 7 1) true; Call 1 0 (ORecord 7 1) true].
Proof.
  destruct (goes_on_release 64 (or_intror eq_refl)) as (h0 & tr0 & w & a & X1 & X2 & X3 & X4 & X5 & X6 & X7 & X8 & X9 & _ & _ & X10 & _ & X). exists h0, tr0, w, a.
  pose proof (rcontinues64 h0 tr0 w a X1 X3) as RC. apply PfWidthRelease.C85_same_64_proof in X1.
  split; [exact X1|]. split; [exact X2|]. split; [exact RC|]. split; [exact X4|]. split; [exact X5|]. split; [exact X6|]. split; [exact X7|]. split; [exact X8|].
  split; [exact X9|]. split; [exact X10|exact X].
Qed.
EX*)

(** So is every call made on a recorder that is dropped some time, whatever the phase. *)
Lemma C83_dropped_eventually_proof : forall h0 tr0 w a k0 kd i c,
  rrun h0 tr0 (w 0%nat) -> merged_untouched (acts tr0) -> rcontinues h0 w a -> never_set (actions a) ->
  keeps_refreshing (actions a) -> (k0 <= kd)%nat -> actions a kd = Some (LDropEnd i) ->
  In c (s_history (w_st (w k0))) -> c_rec c = i ->
  exists K, forall k, (K <= k)%nat -> In c (b_log (s_merged (w_st (w k)))).
Proof.
  intros h0 tr0 w a k0 kd i c R U C. pose proof (mcontinues64 h0 tr0 w a R C) as MC. apply C85_same_64_proof in R.
  exact (C85_dropped_eventually_proof 64 h0 tr0 w a k0 kd i c R U MC).
Qed.
(*EX
(** recorder 1 has recorded 7 and is dropped at moment 0; the reader and recorder 0 go on for ever *)
Example ex_C83_dropped_eventually : exists h0 tr0 w a,
  rrun h0 tr0 (w 0%nat) /\ merged_untouched (acts tr0) /\ rcontinues h0 w a /\ never_set (actions a) /\ keeps_refreshing (actions a) /\
  actions a 0%nat = Some (LDropEnd 1) /\ s_history (w_st (w 0%nat)) = [Call 0 1 (ORecord 7 1) true] /\
  b_log (s_merged (w_st (w 2%nat))) = [] /\ b_log (s_merged (w_st (w 9%nat))) = [Call 0 1 (ORecord 7 1) true].
Proof.
  destruct (goes_on_release 64 (or_intror eq_refl)) as (h0 & tr0 & w & a & X1 & X2 & X3 & X4 & X5 & _ & _ & _ & _ & X6 & X7 & _ & X8 & X9 & _). exists h0, tr0, w, a.
  pose proof (rcontinues64 h0 tr0 w a X1 X3) as RC. apply PfWidthRelease.C85_same_64_proof in X1.
  split; [exact X1|]. split; [exact X2|]. split; [exact RC|]. split; [exact X4|]. split; [exact X5|]. split; [exact X6|]. split; [exact X7|]. split; [exact X8|exact X9].
Qed.
EX*)
