(** Property theorems; the proofs are in [PfWidthLive].  Generated by tools/gen_theorems.py. *)
From Verif Require Import Machine Log2Model HistModel Spec Reach Witness Cases SyncModel SyncSpec LiveSpec WeakModel WeakSpec WeakLiveSpec WidthSyncModel WidthSyncSpec WidthEventSpec WidthLiveSpec PfWidthLive.

(** [refresh_timeout] returns with a usize of [B] bits too, however often the phase has moved before, whether or
    not it has come round meanwhile, and however outdated the phases are that recorders load.  Needed are: no
    overflow of the number of recorders has poisoned the mutex (C84_count), no guard is forgotten while it runs,
    clones end, who is in a critical section of the recorders' mutex goes on, and so does the reader, whose timer
    runs out some time. *)
Theorem C84_timeout_returns : forall B h0 tr0 w a,
  nrun B h0 tr0 (w 0%nat) -> merged_untouched (acts tr0) -> merge_safe h0 ->
  ncontinues B h0 w a -> no_leak (actions a) -> (forall k, s_lock (w_st (w k)) <> Poisoned) -> clones_end (actions a) ->
  sections_go_on (states w) (actions a) -> wreader_goes_on (nstep B) w a ->
  in_timed_refresh (w_st (w 0%nat)) -> exists k, s_reader (w_st (w k)) = RReady.
Proof. exact C84_timeout_returns_proof. Qed.
Print Assumptions C84_timeout_returns.

(** With 32 bits, two recorders: a [refresh_timeout] waits for both, one of them does not record any more, the
    other one first reads the old phase, then the new one, and sends its histogram.  The timer runs out, and the
    [refresh_timeout] returns. *)
Example ex_C84_timeout_returns : exists h0 tr0 w a, nrun 32 h0 tr0 (w 0%nat) /\ merged_untouched (acts tr0) /\ merge_safe h0 /\
  ncontinues 32 h0 w a /\ no_leak (actions a) /\ (forall k, s_lock (w_st (w k)) <> Poisoned) /\ clones_end (actions a) /\
  sections_go_on (states w) (actions a) /\ wreader_goes_on (nstep 32) w a /\
  s_reader (w_st (w 0%nat)) = RWait true 2 0 /\ s_chan (w_st (w 3%nat)) = [] /\
  s_reader (w_st (w 7%nat)) = RWait true 2 1 /\ s_reader (w_st (w 9%nat)) = RReady.
Proof.
  set (tr0 := [(RRecorder, 0); (RRecorder, 0); (LWrite 0 (ORecord 7 1), 0); (LLoad 0, 0); (LFinish 0, 0); (RStart true, 0); (REmpty, 0); (RRead, 0); (RShift, 0)]).
  set (tr := [(LWrite 1 (ORecord 9 4), 0); (LLoad 1, 0); (LFinish 1, 0); (LWrite 1 (ORecord 9 5), 0); (LLoad 1, 1); (LFinish 1, 0); (RRecv, 0); (RTimeout, 0); (REmpty, 0);
              (LDrop 1, 0); (LDropEnd 1, 0); (LDrop 0, 0); (LDropEnd 0, 0)]).
  assert (X : match build U64 1 1000 2 true [] with
              | Some h => match nexec 32 (winit h) tr0 with
                          | Some w => match nexec 32 w tr with
                              | Some w2 => s_reader (w_st w2) = RReady /\ map r_pc (s_recs (w_st w2)) = [PGone; PGone] /\ s_lock (w_st w2) = Free /\
                                  forallb (fun k => match s_lock (w_st (nsettle 32 w tr k)) with Poisoned => false | _ => true end) (seq 0 (Datatypes.S (length tr))) = true /\
                                  is_auto_resize h = true /\ h_ctr h = U64 /\
                                  s_reader (w_st (nsettle 32 w tr 0)) = RWait true 2 0 /\ s_chan (w_st (nsettle 32 w tr 3)) = [] /\
                                  s_reader (w_st (nsettle 32 w tr 7)) = RWait true 2 1 /\ s_reader (w_st (nsettle 32 w tr 9)) = RReady
                              | None => False end
                          | None => False end
              | None => False end) by (vm_compute; auto 20).
  destruct (build _ _ _ _ _ _) as [h|] eqn:B; [|contradiction]. destruct (nexec 32 (winit h) tr0) as [w|] eqn:E0; [|contradiction].
  destruct (nexec 32 w tr) as [w2|] eqn:E1; [|contradiction]. destruct X as (X1 & X2 & X3 & XL & X4 & CT & X6 & X7 & X8 & X9).
  assert (Q : all_quiet (w_st w2)).
  { intros r I. left. apply (in_map r_pc) in I. rewrite X2 in I. cbn in I. destruct I as [I|[I|[]]]; auto. }
  destruct (nsettle_fair 32 w tr w2 E1 X1 Q) as (F1 & F2 & F3). apply (nreader_as 32) in F2.
  exists h, tr0, (nsettle 32 w tr), (nth_error tr).
  split; [split; [lia|split; [exact (build_reachable _ _ _ _ _ _ _ B)|split; [unfold tr0; cbn [acts map fst]; rewrite CT; repeat constructor; vm_compute; discriminate|exact E0]]]|].
  split; [intros y I; cbn in I; intuition discriminate|].
  split; [left; exact X4|].
  assert (RC : ncontinues 32 h (nsettle 32 w tr) (nth_error tr)) by (apply (nsettle_continues 32 h w tr w2 E1); rewrite CT; repeat constructor; vm_compute; discriminate).
  assert (NL : no_leak (actions (nth_error tr))).
  { intros k i N; unfold actions in N; destruct (nth_error tr k) as [x|] eqn:NK; [|discriminate]; apply nth_error_In in NK; cbn in NK, N; intuition (subst; discriminate). }
  split; [exact RC|]. split; [exact NL|].
  split.
  { intros k. destruct (Nat.le_gt_cases k (length tr)) as [L|L].
    - rewrite forallb_forall in XL. specialize (XL k). intros Y. rewrite Y in XL. discriminate XL. apply in_seq. lia.
    - rewrite (nsettle_end _ _ _ _ _ E1) by lia. rewrite X3. discriminate. }
  split; [exact F3|]. split; [apply (nsections_of 32 h); auto|].
  auto 15.
Qed.
