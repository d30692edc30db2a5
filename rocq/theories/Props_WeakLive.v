(** Property theorems; the proofs are in [PfWeakLive].  Generated by tools/gen_theorems.py. *)
From Verif Require Import Machine Log2Model HistModel Spec Reach Witness Cases SyncModel SyncSpec LiveSpec WeakModel WeakSpec WeakLiveSpec PfWeakLive.

(** [refresh] returns under release/acquire memory as well, if every move of the phase becomes visible some
    time.  The other conditions are those of C69, and that of C74: a recorder that becomes idle while the
    reader waits has to see the latest phase. *)
Theorem C76_refresh_returns : forall h0 tr0 w a,
  wrun h0 tr0 (w 0%nat) -> merged_untouched (acts tr0) -> guards_dropped (acts tr0) -> merge_safe h0 ->
  walong widles_outside (winit h0) tr0 -> shifts (acts tr0) < usize_max -> s_lock (w_st (w 0%nat)) <> Poisoned ->
  wcontinues h0 w a -> no_leak (actions a) -> few_recorders (states w) -> widles_outside_ever w a -> clones_end (actions a) ->
  recorders_go_on (states w) (actions a) -> wreader_goes_on wstep w a -> becomes_visible w a ->
  in_refresh (w_st (w 0%nat)) -> exists k, s_reader (w_st (w k)) = RReady.
Proof. exact C76_refresh_returns_proof. Qed.
Print Assumptions C76_refresh_returns.

(** [refresh_timeout] needs neither: it returns even if no move of the phase ever becomes visible, however
    often the phase has moved before. *)
Theorem C76_timeout_returns : forall h0 tr0 w a,
  wrun h0 tr0 (w 0%nat) -> merged_untouched (acts tr0) -> guards_dropped (acts tr0) -> merge_safe h0 ->
  s_lock (w_st (w 0%nat)) <> Poisoned ->
  wcontinues h0 w a -> no_leak (actions a) -> few_recorders (states w) -> clones_end (actions a) ->
  sections_go_on (states w) (actions a) -> wreader_goes_on wstep w a ->
  in_timed_refresh (w_st (w 0%nat)) -> exists k, s_reader (w_st (w k)) = RReady.
Proof. exact C76_timeout_returns_proof. Qed.
Print Assumptions C76_timeout_returns.

(** The hypotheses of both theorems can be met: the reader waits for a recorder, which first records without
    seeing the new phase and then sees it. *)
Example ex_C76 : exists h0 tr0 w a, wrun h0 tr0 (w 0%nat) /\ merged_untouched (acts tr0) /\ guards_dropped (acts tr0) /\ merge_safe h0 /\
  walong widles_outside (winit h0) tr0 /\ shifts (acts tr0) = 1 /\ s_lock (w_st (w 0%nat)) = Free /\
  wcontinues h0 w a /\ no_leak (actions a) /\ few_recorders (states w) /\ widles_outside_ever w a /\ clones_end (actions a) /\
  recorders_go_on (states w) (actions a) /\ wreader_goes_on wstep w a /\ becomes_visible w a /\
  s_reader (w_st (w 0%nat)) = RWait true 1 0 /\ w_now (w 0%nat) = 1 /\ a 1%nat = Some (LLoad 0, 0) /\
  s_reader (w_st (w 3%nat)) = RWait true 1 0 /\ s_chan (w_st (w 3%nat)) = [] /\ s_reader (w_st (w 9%nat)) = RReady.
Proof.
  set (tr0 := [(RRecorder, 0); (RStart true, 0); (REmpty, 0); (RRead, 0); (RShift, 0)]).
  set (tr := [(LWrite 0 (ORecord 7 1), 0); (LLoad 0, 0); (LFinish 0, 0); (LWrite 0 (ORecord 8 1), 0); (LLoad 0, 1); (LFinish 0, 0); (RRecv, 0); (RDone, 0); (REmpty, 0);
              (LDrop 0, 0); (LDropEnd 0, 0)]).
  assert (X : match build U64 1 1000 2 true [] with
              | Some h => match wexec (winit h) tr0 with
                          | Some w => match wexec w tr with
                              | Some w2 => s_reader (w_st w2) = RReady /\ map r_pc (s_recs (w_st w2)) = [PGone] /\
                                  forallb (fun k => active_recorders (w_st (wsettle w tr k)) <? usize_max) (seq 0 (Datatypes.S (length tr))) = true /\
                                  is_auto_resize h = true /\ h_ctr h = U64 /\
                                  s_lock (w_st w) = Free /\ s_reader (w_st (wsettle w tr 0)) = RWait true 1 0 /\ w_now (wsettle w tr 0) = 1 /\
                                  s_reader (w_st (wsettle w tr 3)) = RWait true 1 0 /\ s_chan (w_st (wsettle w tr 3)) = [] /\ s_reader (w_st (wsettle w tr 9)) = RReady
                              | None => False end
                          | None => False end
              | None => False end) by (vm_compute; auto 20).
  destruct (build _ _ _ _ _ _) as [h|] eqn:B; [|contradiction]. destruct (wexec (winit h) tr0) as [w|] eqn:E0; [|contradiction].
  destruct (wexec w tr) as [w2|] eqn:E1; [|contradiction]. destruct X as (X1 & X2 & X3 & X4 & CT & X5 & X6 & X7 & X8 & X9 & X10).
  assert (Q : all_quiet (w_st w2)).
  { intros r I. left. apply (in_map r_pc) in I. rewrite X2 in I. cbn in I. destruct I as [I|[]]; auto. }
  destruct (wsettle_fair w tr w2 E1 X1 Q) as (F1 & F2 & F3 & F4). apply wreader_as in F2.
  exists h, tr0, (wsettle w tr), (nth_error tr). split; [split; [exact (build_reachable _ _ _ _ _ _ _ B)|split; [repeat constructor|exact E0]]|].
  split; [intros y I; cbn in I; intuition discriminate|]. split; [intros y I; cbn in I; intuition discriminate|].
  split; [left; exact X4|].
  split; [cbn [walong tr0]; repeat (split; [exact (conj Logic.I Logic.I)|]; match goal with |- match ?x with _ => _ end => destruct x; [|exact Logic.I] end); exact Logic.I|].
  split; [reflexivity|]. split; [exact X5|].
  split; [apply (wsettle_continues h w tr w2 E1); rewrite CT; repeat constructor; vm_compute; discriminate|].
  split; [intros k i N; unfold actions in N; destruct (nth_error tr k) as [x|] eqn:NK; [|discriminate]; apply nth_error_In in NK; cbn in NK, N; intuition (subst; discriminate)|].
  split; [apply (wsettle_few w tr w2 E1 X3)|].
  split; [intros k x N; apply nth_error_In in N; cbn in N; intuition (subst; split; exact Logic.I)|].
  auto 15.
Qed.

(** Visibility is needed: if the recorder never sees the phase move, [refresh] never returns, however much
    is recorded. *)
Theorem C76_invisible_refuted : exists h0 tr0 w a,
  wrun h0 tr0 (w 0%nat) /\ merged_untouched (acts tr0) /\ guards_dropped (acts tr0) /\ merge_safe h0 /\
  walong widles_outside (winit h0) tr0 /\ shifts (acts tr0) < usize_max /\ s_lock (w_st (w 0%nat)) <> Poisoned /\
  wcontinues h0 w a /\ no_leak (actions a) /\ few_recorders (states w) /\ widles_outside_ever w a /\ clones_end (actions a) /\
  recorders_go_on (states w) (actions a) /\ wreader_goes_on wstep w a /\
  (forall k, exists j o, (k <= j)%nat /\ actions a j = Some (LWrite 0 o)) /\
  forall k, s_reader (w_st (w k)) = RWait false 1 0.
Proof. exact C76_invisible_refuted_proof. Qed.
Print Assumptions C76_invisible_refuted.
