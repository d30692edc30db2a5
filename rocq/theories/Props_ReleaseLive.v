(** Property theorems; the proofs are in [PfReleaseLive].  Generated by tools/gen_theorems.py. *)
From Verif Require Import Machine Log2Model HistModel Spec Reach Witness Cases SyncModel SyncSpec LiveSpec WeakModel WeakSpec WeakLiveSpec ReleaseSyncModel ReleaseSyncSpec ReleaseLiveSpec PfReleaseLive.

(** [refresh_timeout] returns in builds without overflow checks too, however many guards of idle recorders
    have been forgotten before it (the number of histograms it waits for may then be close to 2^64, and nobody
    may be left to send them, C83_deadlock_refuted), however many recorders there are, and however outdated the
    phases are that recorders load.  Needed are: no guard is forgotten while it runs, clones end, who is in a
    critical section of the recorders' mutex goes on, and so does the reader, whose timer runs out some time. *)
Theorem C83_timeout_returns : forall h0 tr0 w a,
  rrun h0 tr0 (w 0%nat) -> merged_untouched (acts tr0) -> merge_safe h0 ->
  rcontinues h0 w a -> no_leak (actions a) -> clones_end (actions a) ->
  sections_go_on (states w) (actions a) -> wreader_goes_on rstep w a ->
  in_timed_refresh (w_st (w 0%nat)) -> exists k, s_reader (w_st (w k)) = RReady.
Proof. exact C83_timeout_returns_proof. Qed.
Print Assumptions C83_timeout_returns.

(** A guard has been forgotten, its recorder has been dropped and the other one is idle, so the number of recorders
    is 2^64 - 1, and a [refresh_timeout] waits for as many histograms; meanwhile the other recorder wakes up and
    sends one.  The timer runs out, and it returns. *)
Example ex_C83_timeout_returns : exists h0 tr0 w a, rrun h0 tr0 (w 0%nat) /\ merged_untouched (acts tr0) /\ merge_safe h0 /\
  rcontinues h0 w a /\ no_leak (actions a) /\ clones_end (actions a) /\ sections_go_on (states w) (actions a) /\ wreader_goes_on rstep w a /\
  forgotten (acts tr0) = 1 /\ s_reader (w_st (w 0%nat)) = RWait true usize_max 0 /\
  s_reader (w_st (w 6%nat)) = RWait true usize_max 1 /\ s_chan (w_st (w 6%nat)) = [] /\ s_reader (w_st (w 8%nat)) = RReady.
Proof.
  set (tr0 := [(RRecorder, 0); (RRecorder, 0); (LWrite 0 (ORecord 7 1), 0); (LLoad 0, 0); (LFinish 0, 0); (LIdle 0, 0); (LIdleLoad 0, 0); (LIdleEnd 0, 0);
                 (LForget 0, 0); (LDrop 0, 0); (LDropEnd 0, 0); (LIdle 1, 0); (LIdleLoad 1, 0); (LIdleEnd 1, 0); (RStart true, 0); (RRecv, 0); (REmpty, 0); (RRead, 0); (RShift, 0)]).
  set (tr := [(LWake 1, 0); (LWakeEnd 1, 0); (LWrite 1 (ORecord 9 4), 0); (LLoad 1, 1); (LFinish 1, 0); (RRecv, 0); (RTimeout, 0); (REmpty, 0); (LDrop 1, 0); (LDropEnd 1, 0)]).
  assert (X : match build U64 1 1000 2 true [] with
              | Some h => match rexec (winit h) tr0 with
                          | Some w => match rexec w tr with
                              | Some w2 => s_reader (w_st w2) = RReady /\ map r_pc (s_recs (w_st w2)) = [PGone; PGone] /\
                                  is_auto_resize h = true /\ h_ctr h = U64 /\
                                  s_reader (w_st (rsettle w tr 0)) = RWait true usize_max 0 /\
                                  s_reader (w_st (rsettle w tr 6)) = RWait true usize_max 1 /\ s_chan (w_st (rsettle w tr 6)) = [] /\ s_reader (w_st (rsettle w tr 8)) = RReady
                              | None => False end
                          | None => False end
              | None => False end) by (vm_compute; auto 20).
  destruct (build _ _ _ _ _ _) as [h|] eqn:B; [|contradiction]. destruct (rexec (winit h) tr0) as [w|] eqn:E0; [|contradiction].
  destruct (rexec w tr) as [w2|] eqn:E1; [|contradiction]. destruct X as (X1 & X2 & X4 & CT & X6 & X7 & X8 & X9).
  assert (Q : all_quiet (w_st w2)).
  { intros r I. left. apply (in_map r_pc) in I. rewrite X2 in I. cbn in I. destruct I as [I|[I|[]]]; auto. }
  destruct (rsettle_fair w tr w2 E1 X1 Q) as (F1 & F2 & F3). apply rreader_as in F2.
  exists h, tr0, (rsettle w tr), (nth_error tr).
  split; [split; [exact (build_reachable _ _ _ _ _ _ _ B)|split; [unfold tr0; cbn [acts map fst]; rewrite CT; repeat constructor; vm_compute; discriminate|exact E0]]|].
  split; [intros y I; cbn in I; intuition discriminate|].
  split; [left; exact X4|].
  assert (RC : rcontinues h (rsettle w tr) (nth_error tr)) by (apply (rsettle_continues h w tr w2 E1); rewrite CT; repeat constructor; vm_compute; discriminate).
  assert (NL : no_leak (actions (nth_error tr))).
  { intros k i N; unfold actions in N; destruct (nth_error tr k) as [x|] eqn:NK; [|discriminate]; apply nth_error_In in NK; cbn in NK, N; intuition (subst; discriminate). }
  split; [exact RC|]. split; [exact NL|]. split; [exact F3|]. split; [apply (rsections_of h); auto|].
  auto 15.
Qed.

(** While no guard is forgotten and fewer than 2^64 - 1 recorders have been made, the unbounded executions are those
    of a checked build as well, so that C76 holds of them: a plain [refresh] returns under the conditions there. *)
Theorem C83_same_ever : forall h0 tr0 w a, guards_dropped (acts tr0) -> no_leak (actions a) ->
  (forall k, Z.of_nat (length (s_recs (w_st (w k)))) < usize_max) ->
  (rrun h0 tr0 (w 0%nat) /\ rcontinues h0 w a <-> wrun h0 tr0 (w 0%nat) /\ wcontinues h0 w a).
Proof. exact C83_same_ever_proof. Qed.
Print Assumptions C83_same_ever.

(** the hypotheses and one of the sides can be met: a refresh that waits for the one recorder *)
Example ex_C83_same_ever : exists h0 tr0 w a, guards_dropped (acts tr0) /\ no_leak (actions a) /\
  (forall k, Z.of_nat (length (s_recs (w_st (w k)))) < usize_max) /\ rrun h0 tr0 (w 0%nat) /\ rcontinues h0 w a /\
  s_reader (w_st (w 0%nat)) = RWait false 1 0 /\ s_reader (w_st (w 6%nat)) = RReady /\ wrun h0 tr0 (w 0%nat) /\ wcontinues h0 w a.
Proof.
  set (tr0 := [(RRecorder, 0); (RStart false, 0); (REmpty, 0); (RRead, 0); (RShift, 0)]).
  set (tr := [(LWrite 0 (ORecord 8 1), 0); (LLoad 0, 1); (LFinish 0, 0); (RRecv, 0); (RDone, 0); (REmpty, 0); (LDrop 0, 0); (LDropEnd 0, 0)]).
  assert (X : match build U64 1 1000 2 true [] with
              | Some h => match rexec (winit h) tr0 with
                          | Some w => match rexec w tr with
                              | Some w2 => h_ctr h = U64 /\ length (s_recs (w_st w2)) = 1%nat /\
                                  forallb (fun k => (length (s_recs (w_st (rsettle w tr k))) =? 1)%nat) (seq 0 (Datatypes.S (length tr))) = true /\
                                  s_reader (w_st (rsettle w tr 0)) = RWait false 1 0 /\ s_reader (w_st (rsettle w tr 6)) = RReady
                              | None => False end
                          | None => False end
              | None => False end) by (vm_compute; auto 20).
  destruct (build _ _ _ _ _ _) as [h|] eqn:B; [|contradiction]. destruct (rexec (winit h) tr0) as [w|] eqn:E0; [|contradiction].
  destruct (rexec w tr) as [w2|] eqn:E1; [|contradiction]. destruct X as (CT & X2 & X3 & X4 & X5).
  assert (G : guards_dropped (acts tr0)) by (intros y I; cbn in I; intuition discriminate).
  assert (NL : no_leak (actions (nth_error tr))).
  { intros k i N; unfold actions in N; destruct (nth_error tr k) as [x|] eqn:NK; [|discriminate]; apply nth_error_In in NK; cbn in NK, N; intuition (subst; discriminate). }
  assert (FEW : forall k, Z.of_nat (length (s_recs (w_st (rsettle w tr k)))) < usize_max).
  { intros k. assert (L : length (s_recs (w_st (rsettle w tr k))) = 1%nat); [|rewrite L; reflexivity].
    destruct (Nat.le_gt_cases k (length tr)) as [L|L].
    - rewrite forallb_forall in X3. apply Nat.eqb_eq, X3, in_seq. lia.
    - rewrite (rsettle_end _ _ _ _ E1) by lia. exact X2. }
  assert (R : rrun h tr0 (rsettle w tr 0)) by (split; [exact (build_reachable _ _ _ _ _ _ _ B)|split; [repeat constructor|exact E0]]).
  assert (RC : rcontinues h (rsettle w tr) (nth_error tr)) by (apply (rsettle_continues h w tr w2 E1); rewrite CT; repeat constructor; vm_compute; discriminate).
  exists h, tr0, (rsettle w tr), (nth_error tr). pose proof (proj1 (C83_same_ever _ _ _ _ G NL FEW) (conj R RC)) as [W WC]. auto 15.
Qed.
