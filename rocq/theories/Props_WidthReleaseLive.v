(** Property theorems; the proofs are in [PfWidthReleaseLive].  Generated by tools/gen_theorems.py. *)
From Verif Require Import Machine Log2Model HistModel Spec Reach Witness Cases SyncModel SyncSpec LiveSpec WeakModel WeakSpec WeakLiveSpec ReleaseSyncModel ReleaseSyncSpec WidthSyncModel WidthSyncSpec WidthEventSpec WidthReleaseModel WidthReleaseSpec PfWidthReleaseLive.

(** [refresh_timeout] returns in such a build too, forgotten guards before it or not, whatever the number of
    recorders and the phase have come to, and however outdated the phases are that recorders load.  Needed are: no
    guard is forgotten while it runs, clones end, who is in a critical section of the recorders' mutex goes on,
    and so does the reader, whose timer runs out some time. *)
Theorem C85_timeout_returns : forall B h0 tr0 w a,
  mrun B h0 tr0 (w 0%nat) -> merged_untouched (acts tr0) -> merge_safe h0 ->
  mcontinues B h0 w a -> no_leak (actions a) -> clones_end (actions a) ->
  sections_go_on (states w) (actions a) -> wreader_goes_on (mstep B) w a ->
  in_timed_refresh (w_st (w 0%nat)) -> exists k, s_reader (w_st (w k)) = RReady.
Proof. exact C85_timeout_returns_proof. Qed.
Print Assumptions C85_timeout_returns.

(** A guard has been forgotten, its recorder has been dropped and the other one is idle, so the number of recorders
    is 2^32 - 1, and a [refresh_timeout] waits for as many histograms; meanwhile the other recorder wakes up and
    sends one.  The timer runs out, and it returns. *)
Example ex_C85_timeout_returns : exists h0 tr0 w a, mrun 32 h0 tr0 (w 0%nat) /\ merged_untouched (acts tr0) /\ merge_safe h0 /\
  mcontinues 32 h0 w a /\ no_leak (actions a) /\ clones_end (actions a) /\ sections_go_on (states w) (actions a) /\ wreader_goes_on (mstep 32) w a /\
  forgotten (acts tr0) = 1 /\ s_reader (w_st (w 0%nat)) = RWait true (2 ^ 32 - 1) 0 /\
  s_reader (w_st (w 6%nat)) = RWait true (2 ^ 32 - 1) 1 /\ s_chan (w_st (w 6%nat)) = [] /\ s_reader (w_st (w 8%nat)) = RReady.
Proof.
  set (tr0 := [(RRecorder, 0); (RRecorder, 0); (LWrite 0 (ORecord 7 1), 0); (LLoad 0, 0); (LFinish 0, 0); (LIdle 0, 0); (LIdleLoad 0, 0); (LIdleEnd 0, 0);
                 (LForget 0, 0); (LDrop 0, 0); (LDropEnd 0, 0); (LIdle 1, 0); (LIdleLoad 1, 0); (LIdleEnd 1, 0); (RStart true, 0); (RRecv, 0); (REmpty, 0); (RRead, 0); (RShift, 0)]).
  set (tr := [(LWake 1, 0); (LWakeEnd 1, 0); (LWrite 1 (ORecord 9 4), 0); (LLoad 1, 1); (LFinish 1, 0); (RRecv, 0); (RTimeout, 0); (REmpty, 0); (LDrop 1, 0); (LDropEnd 1, 0)]).
  assert (X : match build U64 1 1000 2 true [] with
              | Some h => match mexec 32 (winit h) tr0 with
                          | Some w => match mexec 32 w tr with
                              | Some w2 => s_reader (w_st w2) = RReady /\ map r_pc (s_recs (w_st w2)) = [PGone; PGone] /\
                                  is_auto_resize h = true /\ h_ctr h = U64 /\
                                  s_reader (w_st (msettle 32 w tr 0)) = RWait true (2 ^ 32 - 1) 0 /\
                                  s_reader (w_st (msettle 32 w tr 6)) = RWait true (2 ^ 32 - 1) 1 /\ s_chan (w_st (msettle 32 w tr 6)) = [] /\ s_reader (w_st (msettle 32 w tr 8)) = RReady
                              | None => False end
                          | None => False end
              | None => False end) by (vm_compute; auto 20).
  destruct (build _ _ _ _ _ _) as [h|] eqn:B; [|contradiction]. destruct (mexec 32 (winit h) tr0) as [w|] eqn:E0; [|contradiction].
  destruct (mexec 32 w tr) as [w2|] eqn:E1; [|contradiction]. destruct X as (X1 & X2 & X4 & CT & X6 & X7 & X8 & X9).
  assert (Q : all_quiet (w_st w2)).
  { intros r I. left. apply (in_map r_pc) in I. rewrite X2 in I. cbn in I. destruct I as [I|[I|[]]]; auto. }
  destruct (msettle_fair 32 w tr w2 E1 X1 Q) as (F1 & F2 & F3). apply (mreader_as 32) in F2.
  exists h, tr0, (msettle 32 w tr), (nth_error tr).
  split; [split; [lia|split; [exact (build_reachable _ _ _ _ _ _ _ B)|split; [unfold tr0; cbn [acts map fst]; rewrite CT; repeat constructor; vm_compute; discriminate|exact E0]]]|].
  split; [intros y I; cbn in I; intuition discriminate|].
  split; [left; exact X4|].
  assert (RC : mcontinues 32 h (msettle 32 w tr) (nth_error tr)) by (apply (msettle_continues 32 h w tr w2 E1); rewrite CT; repeat constructor; vm_compute; discriminate).
  assert (NL : no_leak (actions (nth_error tr))).
  { intros k i N; unfold actions in N; destruct (nth_error tr k) as [x|] eqn:NK; [|discriminate]; apply nth_error_In in NK; cbn in NK, N; intuition (subst; discriminate). }
  split; [exact RC|]. split; [exact NL|]. split; [exact F3|]. split; [apply (msections_of 32 h); auto|].
  auto 15.
Qed.

(** While no guard is forgotten and fewer than 2^B - 1 recorders have been made, the unbounded executions are those
    of a checked build for the same target as well, so that what C84 says of those holds: every sample is delivered in
    the end under the conditions there. *)
Theorem C85_same_ever : forall B h0 tr0 w a, guards_dropped (acts tr0) -> no_leak (actions a) ->
  (forall k, Z.of_nat (length (s_recs (w_st (w k)))) < 2 ^ B - 1) ->
  (mrun B h0 tr0 (w 0%nat) /\ mcontinues B h0 w a <-> nrun B h0 tr0 (w 0%nat) /\ ncontinues B h0 w a).
Proof. exact C85_same_ever_proof. Qed.
Print Assumptions C85_same_ever.

(** the hypotheses and one of the sides can be met: a refresh that waits for the one recorder *)
Example ex_C85_same_ever : exists h0 tr0 w a, guards_dropped (acts tr0) /\ no_leak (actions a) /\
  (forall k, Z.of_nat (length (s_recs (w_st (w k)))) < 2 ^ 32 - 1) /\ mrun 32 h0 tr0 (w 0%nat) /\ mcontinues 32 h0 w a /\
  s_reader (w_st (w 0%nat)) = RWait false 1 0 /\ s_reader (w_st (w 6%nat)) = RReady /\ nrun 32 h0 tr0 (w 0%nat) /\ ncontinues 32 h0 w a.
Proof.
  set (tr0 := [(RRecorder, 0); (RStart false, 0); (REmpty, 0); (RRead, 0); (RShift, 0)]).
  set (tr := [(LWrite 0 (ORecord 8 1), 0); (LLoad 0, 1); (LFinish 0, 0); (RRecv, 0); (RDone, 0); (REmpty, 0); (LDrop 0, 0); (LDropEnd 0, 0)]).
  assert (X : match build U64 1 1000 2 true [] with
              | Some h => match mexec 32 (winit h) tr0 with
                          | Some w => match mexec 32 w tr with
                              | Some w2 => h_ctr h = U64 /\ length (s_recs (w_st w2)) = 1%nat /\
                                  forallb (fun k => (length (s_recs (w_st (msettle 32 w tr k))) =? 1)%nat) (seq 0 (Datatypes.S (length tr))) = true /\
                                  s_reader (w_st (msettle 32 w tr 0)) = RWait false 1 0 /\ s_reader (w_st (msettle 32 w tr 6)) = RReady
                              | None => False end
                          | None => False end
              | None => False end) by (vm_compute; auto 20).
  destruct (build _ _ _ _ _ _) as [h|] eqn:B; [|contradiction]. destruct (mexec 32 (winit h) tr0) as [w|] eqn:E0; [|contradiction].
  destruct (mexec 32 w tr) as [w2|] eqn:E1; [|contradiction]. destruct X as (CT & X2 & X3 & X4 & X5).
  assert (G : guards_dropped (acts tr0)) by (intros y I; cbn in I; intuition discriminate).
  assert (NL : no_leak (actions (nth_error tr))).
  { intros k i N; unfold actions in N; destruct (nth_error tr k) as [x|] eqn:NK; [|discriminate]; apply nth_error_In in NK; cbn in NK, N; intuition (subst; discriminate). }
  assert (FEW : forall k, Z.of_nat (length (s_recs (w_st (msettle 32 w tr k)))) < 2 ^ 32 - 1).
  { intros k. assert (L : length (s_recs (w_st (msettle 32 w tr k))) = 1%nat); [|rewrite L; reflexivity].
    destruct (Nat.le_gt_cases k (length tr)) as [L|L].
    - rewrite forallb_forall in X3. apply Nat.eqb_eq, X3, in_seq. lia.
    - rewrite (msettle_end _ _ _ _ _ E1) by lia. exact X2. }
  assert (R : mrun 32 h tr0 (msettle 32 w tr 0)) by (split; [lia|split; [exact (build_reachable _ _ _ _ _ _ _ B)|split; [repeat constructor|exact E0]]]).
  assert (RC : mcontinues 32 h (msettle 32 w tr) (nth_error tr)) by (apply (msettle_continues 32 h w tr w2 E1); rewrite CT; repeat constructor; vm_compute; discriminate).
  exists h, tr0, (msettle 32 w tr), (nth_error tr). pose proof (proj1 (C85_same_ever 32 _ _ _ _ G NL FEW) (conj R RC)) as [W WC]. auto 15.
Qed.
