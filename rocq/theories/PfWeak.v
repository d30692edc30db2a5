(** * C73, C74: the concurrent histogram with acquire loads that may be outdated *)
From Coq Require Import Permutation.
From Verif Require Import Machine Log2Model HistModel Bins ListZ Wf Ops AddFacts Spec Reach Witness PfMerge SyncModel SyncSpec SyncOps SyncFacts SyncRefresh PfSync
  LiveSpec LiveFacts PfDeliver WeakModel WeakSpec WeakFacts.
(*PROPS-IMPORTS Machine Log2Model HistModel Spec Reach Witness Cases CasesSync SyncModel SyncSpec LiveSpec WeakModel WeakSpec *)
(*PROPS-HEADER
From Coq Require Import Permutation.
PROPS-HEADER*)

(** ** C73.  What does not depend on how up to date the loads are *)
(** The executions of [SyncModel] are those executions of [WeakModel] in which every load of the phase
    returns its latest value. *)
Lemma C73_sequential_runs_proof : forall h0 tr st, run h0 tr st <->
  exists wtr w, acts wtr = tr /\ wrun h0 wtr w /\ walong up_to_date (winit h0) wtr /\ w_st w = st.
Proof.
  intros h0 tr st. split.
  - intros (R & F & E). revert st F E. induction tr as [|l tr IH] using rev_ind; intros st F E.
    + exists [], (winit h0). cbn in E. injection E as <-. split; [reflexivity|]. split; [split; auto|]. split; [exact I|reflexivity].
    + apply Forall_app in F. destruct F as [F FL]. apply exec_snoc in E. destruct E as (s1 & E1 & E2).
      destruct (IH s1 F E1) as (wtr & w & A & W & U & <-). pose proof W as (_ & _ & WE).
      destruct (step_wstep w l st (proj1 (wok_run _ _ _ WE)) E2) as (w' & S & <-). exists (wtr ++ [(l, w_now w)]), w'.
      split; [rewrite acts_app, A; reflexivity|]. split; [apply (wrun_app h0 wtr _ w); auto; cbn [wexec]; rewrite S; reflexivity|].
      split; [|reflexivity]. clear - U WE S. revert U WE. generalize (winit h0). induction wtr as [|[x k] wtr IH]; intros w0 U WE; cbn [wexec] in WE.
      * injection WE as ->. cbn [app walong]. rewrite S. split; [intros _; reflexivity|exact I].
      * cbn [app walong] in *. destruct U as [U1 U2]. split; [exact U1|]. destruct (wstep w0 (x, k)) as [w1|]; [|discriminate]. apply IH; auto.
  - intros (wtr & w & <- & (R & F & E) & U & <-). split; [exact R|]. split; [exact F|].
    apply (current_exec wtr (winit h0) w); auto. apply (wok_run h0 []). reflexivity.
Qed.
(*EX
Example ex_C73_sequential_runs : match build U64 1 1000 2 false [] with
  | Some h =>
      let tr := [RRecorder; RStart false; REmpty; RRead; RShift; LWrite 0 (ORecord 7 1); LLoad 0; LFinish 0; RRecv; RDone; REmpty] in
      let wtr := [(RRecorder, 0); (RStart false, 0); (REmpty, 0); (RRead, 0); (RShift, 0); (LWrite 0 (ORecord 7 1), 0); (LLoad 0, 1); (LFinish 0, 0);
                  (RRecv, 0); (RDone, 0); (REmpty, 0)] in
      match exec (init h) tr, wexec (winit h) wtr with
      | Some st, Some w => run h tr st /\ acts wtr = tr /\ wrun h wtr w /\ walong up_to_date (winit h) wtr /\ held (b_hist (s_merged st)) = [(7, 1)] /\
          held (b_hist (s_merged (w_st w))) = [(7, 1)]
      | _, _ => False end
  | None => False end.
Proof. sync_case. Qed.
EX*)

(** Every call ever made on a recorder is in exactly one place, whatever the recorders see of the phase: the
    local histogram of a recorder, the channel or the merged histogram. *)
Lemma C73_every_call_in_one_place_proof : forall h0 tr w, wrun h0 tr w -> merged_untouched (acts tr) -> reader_alive (w_st w) ->
  Permutation (b_log (s_merged (w_st w)) ++ flat_map b_log (s_chan (w_st w)) ++ flat_map (fun r => b_log (r_local r)) (s_recs (w_st w)))
    (s_history (w_st w)) /\
  map c_id (s_history (w_st w)) = seq 0 (length (s_history (w_st w))) /\
  map (fun c => (c_rec c, c_op c)) (s_history (w_st w)) = writes (acts tr).
Proof.
  intros h0 tr w (R & F & E) U A. split; [|apply (whistory h0 tr w E)]. apply (wplaced h0 tr w (untouched_not_set _ U) E A).
Qed.
(*EX
(** recorder 0 does not see that the phase has moved; its first call stays where it is, that of recorder 1 is in the
    merged histogram, and the last one of recorder 1 in the channel *)
Example ex_C73_one_place : match build U64 1 1000 2 false [(5, 2)] with
  | Some h =>
      let tr := [(RRecorder, 0); (RRecorder, 0); (RStart false, 0); (REmpty, 0); (RRead, 0); (RShift, 0);
                 (LWrite 0 (ORecord 7 1), 0); (LLoad 0, 0); (LFinish 0, 0);
                 (LWrite 1 (ORecord 9 4), 0); (LLoad 1, 1); (LFinish 1, 0); (RRecv, 0); (LWrite 1 (ORecord 8 1), 0); (LLoad 1, 1); (LFinish 1, 0);
                 (LDrop 1, 0); (LDropEnd 1, 0)] in
      match wexec (winit h) tr with
      | Some w => wrun h tr w /\ merged_untouched (acts tr) /\ reader_alive (w_st w) /\
          map c_id (b_log (s_merged (w_st w))) = [1]%nat /\ map (fun b => map c_id (b_log b)) (s_chan (w_st w)) = [[2]]%nat /\
          map (fun r => map c_id (b_log (r_local r))) (s_recs (w_st w)) = [[0]; []]%nat /\ map c_rec (s_history (w_st w)) = [0; 1; 1]%nat
      | None => False end
  | None => False end.
Proof. sync_case. Qed.
EX*)

(** As long as no counter overflows, each of these histograms holds exactly the samples of the calls that
    are in it. *)
Lemma C73_contents_proof : forall h0 tr w, wrun h0 tr w -> merged_untouched (acts tr) -> only_adds_samples (acts tr) ->
  reader_alive (w_st w) -> no_saturation h0 (samples (s_history (w_st w))) ->
  holds_over h0 (b_hist (s_merged (w_st w))) (samples (b_log (s_merged (w_st w)))) /\
  (forall b, In b (s_chan (w_st w)) -> holds h0 (b_hist b) (samples (b_log b))) /\
  (forall r, In r (s_recs (w_st w)) -> holds h0 (b_hist (r_local r)) (samples (b_log (r_local r)))).
Proof.
  intros h0 tr w RN U AD A NS. pose proof (C73_every_call_in_one_place_proof h0 tr w RN U A) as (P & _).
  apply contents_core; auto; [apply RN|apply (whistory_ok h0 tr w RN)|apply (wfilled h0 tr w RN U AD)].
Qed.
(*EX
(** Recorder 0 makes two calls after the phase has moved and sees nothing of it; the reader waits for both
    recorders and has got recorder 1's histogram. *)
Example ex_C73_contents : match build U64 1 1000 2 false [(5, 2)] with
  | Some h =>
      let tr := [(RRecorder, 0); (RRecorder, 0); (RStart false, 0); (REmpty, 0); (RRead, 0); (RShift, 0);
                 (LWrite 0 (ORecord 7 1), 0); (LLoad 0, 0); (LFinish 0, 0); (LWrite 0 (ORecord 8 1), 0); (LLoad 0, 0); (LFinish 0, 0);
                 (LWrite 1 (ORecord 9 4), 0); (LLoad 1, 1); (LFinish 1, 0); (RRecv, 0)] in
      match wexec (winit h) tr with
      | Some w => wrun h tr w /\ merged_untouched (acts tr) /\ only_adds_samples (acts tr) /\ reader_alive (w_st w) /\
          no_saturation h (samples (s_history (w_st w))) /\
          s_reader (w_st w) = RWait false 2 1 /\ held (b_hist (s_merged (w_st w))) = [(5, 2); (9, 4)] /\
          map (fun r => held (b_hist (r_local r))) (s_recs (w_st w)) = [[(7, 1); (8, 1)]; []] /\ map r_phase (s_recs (w_st w)) = [0; 1]
      | None => False end
  | None => False end.
Proof. sync_case. Qed.
EX*)

(** [refresh] never panics. *)
Lemma C73_refresh_never_panics_proof : forall h0 tr w, wrun h0 tr w -> merged_untouched (acts tr) -> merge_safe h0 ->
  s_reader (w_st w) <> RPanicked.
Proof.
  intros h0 tr. induction tr as [|[l k] tr IH] using rev_ind; intros w RN U SF.
  - destruct RN as (_ & _ & E). cbn in E. injection E as <-. discriminate.
  - apply wrun_cut in RN. destruct RN as (w1 & RN1 & E). cbn [wexec] in E. destruct (wstep w1 (l, k)) as [w2|] eqn:S; [|discriminate]. injection E as <-.
    assert (U1 : merged_untouched (acts tr)) by (rewrite acts_app in U; eapply untouched_app; eauto).
    pose proof (IH w1 RN1 U1 SF) as N1. pose proof (wlike h0 tr w1 RN1 U1) as B. pose proof RN1 as (R & _).
    destruct (load_of l) as [i|] eqn:L.
    + destruct (wstep_load _ _ _ _ _ L S) as (_ & s' & S' & ->). cbn. apply (no_panic_step h0 (with_phase (w_st w1) (phase_at k)) l s' SF R B N1 S').
    + apply (no_panic_step h0 _ l _ SF R B N1 (wstep_other _ _ _ _ L S)).
Qed.
(*EX
Example ex_C73_never_panics : match build U64 1 1000 2 false [] with
  | Some h =>
      let tr := [(RRecorder, 0); (RRecorder, 0); (RStart false, 0); (REmpty, 0); (RRead, 0); (RShift, 0);
                 (LWrite 0 (ORecord 7 1), 0); (LLoad 0, 1); (LFinish 0, 0); (RRecv, 0); (LWrite 1 (ORecord 8 1), 0); (LLoad 1, 0); (LFinish 1, 0)] in
      match wexec (winit h) tr with
      | Some w => wrun h tr w /\ merged_untouched (acts tr) /\ merge_safe h /\ s_reader (w_st w) = RWait false 2 1 /\ map r_phase (s_recs (w_st w)) = [1; 0]
      | None => False end
  | None => False end.
Proof. sync_case. Qed.
EX*)

(** The shared count is the number of recorders in use, and the mutex is not poisoned. *)
Lemma C73_count_proof : forall h0 tr w, wrun h0 tr w -> guards_dropped (acts tr) ->
  s_count (w_st w) = active_recorders (w_st w) /\ (Z.of_nat (length (s_recs (w_st w))) < usize_max -> s_lock (w_st w) <> Poisoned).
Proof.
  intros h0 tr w (R & F & E) G. apply count_core, (wcount_ok h0 tr w (dropped_not_forget _ G) E).
Qed.

(** The mutex is held by recorder [i] exactly while [i] is inside its critical section, and whoever holds it
    can go on. *)
Lemma C73_mutex_proof : forall h0 tr w i r, wrun h0 tr w -> nth_error (s_recs (w_st w)) i = Some r ->
  (s_lock (w_st w) = Held i <-> in_section r = true) /\
  (s_lock (w_st w) = Held i -> exists l k w', section_step i l /\ wstep w (l, k) = Some w').
Proof.
  intros h0 tr w i r RN I. pose proof RN as (R & F & E).
  destruct (mutex_core (h_ctr h0) (w_st w) i r (wlock_ok _ _ _ E) (wtyped h0 tr w RN) I) as [A B]. split; [exact A|].
  intros L. destruct (B L) as (l & st' & X & S). destruct (step_wstep w l st' (proj1 (wok_run _ _ _ E)) S) as (w' & W & _). exists l, (w_now w), w'. auto.
Qed.
(*EX
(** the hypotheses of the last three: recorder 1 is on its way to idle and has loaded the phase, not the latest one; a
    recorder has been dropped *)
Example ex_C73_count : match build U64 1 1000 2 false [(5, 2)] with
  | Some h =>
      let tr := [(RRecorder, 0); (RRecorder, 0); (LClone 0, 0); (RStart false, 0); (REmpty, 0); (RRead, 0); (RShift, 0);
                 (LWrite 0 (ORecord 7 1), 0); (LLoad 0, 0); (LFinish 0, 0); (LDrop 2, 0); (LDropEnd 2, 0); (LIdle 1, 0); (LIdleLoad 1, 0)] in
      match wexec (winit h) tr with
      | Some w => wrun h tr w /\ merged_untouched (acts tr) /\ guards_dropped (acts tr) /\ merge_safe h /\
          Z.of_nat (length (s_recs (w_st w))) < usize_max /\ map r_pc (s_recs (w_st w)) = [PReady; PIdlingLoaded 0; PGone] /\
          s_lock (w_st w) = Held 1 /\ s_count (w_st w) = 1 /\ active_recorders (w_st w) = 1 /\ s_phase (w_st w) = 1 /\
          match wstep w (LIdleEnd 1, 0) with Some w' => s_lock (w_st w') = Free | None => False end
      | None => False end
  | None => False end.
Proof. sync_case. Qed.
EX*)

(** *)
Lemma quiet_weak h0 tr w t k tr2 w2 : wrun h0 tr w -> guards_dropped (acts tr) -> Z.of_nat (length (s_recs (w_st w))) < usize_max ->
  s_reader (w_st w) = RReady -> all_quiet (w_st w) -> wexec w ((RStart t, k) :: tr2) = Some w2 ->
  exists w1, wstep w (RStart t, k) = Some w1 /\ wexec w1 tr2 = Some w2 /\ quiet_inv (w_st w) (w_st w1) /\ rank (w_st w1) = 5 + zlen (s_chan (w_st w)).
Proof.
  intros (R & F & E) G L RD Q E2. cbn [wexec] in E2. destruct (wstep w (RStart t, k)) as [w1|] eqn:S1; [|discriminate].
  exists w1. split; [reflexivity|]. split; [exact E2|].
  apply (quiet_core (w_st w) t (w_st w1)); auto; [apply (wcount_ok h0 tr w (dropped_not_forget _ G) E)|apply (wlock_ok h0 tr w E)|apply (wstep_other _ _ _ _ (eq_refl : load_of (RStart t) = None) S1)].
Qed.
(** If every recorder has been dropped or is idle, [refresh] returns after at most as many steps as there are
    histograms in the channel, plus five, never stuck and without panicking; and every call is in the merged
    histogram then, except what is still in the local histogram of an idle recorder. *)
Lemma C73_quiet_proof : forall h0 tr w t k tr2 w2, wrun h0 tr w -> merged_untouched (acts tr) -> guards_dropped (acts tr) -> merge_safe h0 ->
  Z.of_nat (length (s_recs (w_st w))) < usize_max -> s_reader (w_st w) = RReady -> all_quiet (w_st w) ->
  wexec w ((RStart t, k) :: tr2) = Some w2 -> Forall refresh_step (acts tr2) ->
  Z.of_nat (length tr2) <= Z.of_nat (length (s_chan (w_st w))) + 5 /\
  (s_reader (w_st w2) <> RReady -> exists l k w3, refresh_step l /\ wstep w2 (l, k) = Some w3) /\
  (s_reader (w_st w2) = RReady -> s_chan (w_st w2) = [] /\ s_recs (w_st w2) = s_recs (w_st w) /\
     Permutation (b_log (s_merged (w_st w2)) ++ flat_map (fun r => b_log (r_local r)) (s_recs (w_st w))) (s_history (w_st w))).
Proof.
  intros h0 tr w t k tr2 w2 RN U G SF L RD Q E F.
  destruct (quiet_weak h0 tr w t k tr2 w2 RN G L RD Q E) as (w1 & S1 & E2 & QI & RK).
  destruct (quiet_exec (w_st w) (acts tr2) (w_st w1) (w_st w2) QI F (refresh_exec _ _ _ F E2)) as [Q2 LE].
  pose proof (rank_nonneg (w_st w2)). rewrite RK in LE. unfold zlen in LE. unfold acts in LE. rewrite map_length in LE.
  assert (RN2 : wrun h0 (tr ++ (RStart t, k) :: tr2) w2).
  { apply (wrun_app h0 tr _ w); auto. cbn [acts map fst]. constructor; [exact I|]. eapply Forall_impl; [|exact F]. intros []; cbn; intros; auto; contradiction. }
  assert (U2 : merged_untouched (acts (tr ++ (RStart t, k) :: tr2))).
  { rewrite acts_app. intros h I. apply in_app_iff in I. destruct I as [I|[I|I]]; [apply (U h I)|discriminate|]. rewrite Forall_forall in F. apply (F _ I). }
  pose proof (C73_refresh_never_panics_proof h0 _ w2 RN2 U2 SF) as NP. pose proof RN2 as (_ & _ & EX2).
  split; [lia|]. split.
  - intros NR. destruct (quiet_live _ _ Q2 NP NR) as (l & s3 & RL & S3).
    destruct (step_wstep w2 l s3 (proj1 (wok_run _ _ _ EX2)) S3) as (w3 & W3 & _). exists l, (w_now w2), w3. auto.
  - intros RR. destruct Q2 as (X1 & X2 & X3 & X4 & X5). rewrite RR in X5. split; auto. split; auto.
    destruct (C73_every_call_in_one_place_proof h0 _ w2 RN2 U2) as (P & _).
    { split; rewrite RR; discriminate. }
    rewrite X5, X4, X1 in P. exact P.
Qed.
(*EX
(** recorder 1 has become idle without seeing that the phase has moved, and keeps its histogram; recorder 0 is dropped *)
Example ex_C73_quiet : match build U64 1 1000 2 false [] with
  | Some h =>
      let tr := [(RRecorder, 0); (RRecorder, 0); (RStart true, 0); (REmpty, 0); (RRead, 0); (RShift, 0); (RTimeout, 0); (REmpty, 0);
                 (LWrite 0 (ORecord 7 1), 0); (LLoad 0, 0); (LFinish 0, 0); (LWrite 1 (ORecord 9 4), 0); (LLoad 1, 0); (LFinish 1, 0);
                 (LIdle 1, 0); (LIdleLoad 1, 0); (LIdleEnd 1, 0); (LDrop 0, 0); (LDropEnd 0, 0)] in
      let tr2 := [(RRecv, 0); (REmpty, 0); (RRead, 0); (RShift, 0); (RDone, 0); (REmpty, 0)] in
      match wexec (winit h) tr with
      | Some w => wrun h tr w /\ merged_untouched (acts tr) /\ guards_dropped (acts tr) /\ merge_safe h /\
          Z.of_nat (length (s_recs (w_st w))) < usize_max /\ s_reader (w_st w) = RReady /\ all_quiet (w_st w) /\ Forall refresh_step (acts tr2) /\
          match wexec w ((RStart false, 0) :: tr2) with
          | Some w2 => s_reader (w_st w2) = RReady /\ held (b_hist (s_merged (w_st w2))) = [(7, 1)] /\
              map (fun r => held (b_hist (r_local r))) (s_recs (w_st w2)) = [[]; [(9, 4)]]
          | None => False end
      | None => False end
  | None => False end.
Proof. sync_case. Qed.
EX*)

(** If every recorder has been dropped, no thread but the reader can do anything any more, and the merged
    histogram ends up with every call ever made. *)
Lemma C73_all_dropped_proof : forall h0 tr w t k tr2 w2, wrun h0 tr w -> merged_untouched (acts tr) -> guards_dropped (acts tr) -> merge_safe h0 ->
  Z.of_nat (length (s_recs (w_st w))) < usize_max -> s_reader (w_st w) = RReady -> all_dropped (w_st w) ->
  wexec w ((RStart t, k) :: tr2) = Some w2 -> Forall in_call (acts tr2) ->
  Forall refresh_step (acts tr2) /\
  Z.of_nat (length tr2) <= Z.of_nat (length (s_chan (w_st w))) + 5 /\
  (s_reader (w_st w2) <> RReady -> exists l k w3, refresh_step l /\ wstep w2 (l, k) = Some w3) /\
  (s_reader (w_st w2) = RReady -> s_chan (w_st w2) = [] /\ Permutation (b_log (s_merged (w_st w2))) (s_history (w_st w))).
Proof.
  intros h0 tr w t k tr2 w2 RN U G SF L RD Q E F. pose proof RN as (R & FL & EX).
  assert (QQ : all_quiet (w_st w)) by (intros r I; left; auto).
  assert (RS : Forall refresh_step (acts tr2)).
  { destruct (quiet_weak h0 tr w t k tr2 w2 RN G L RD QQ E) as (w1 & S1 & E2 & QI & RK). clear E S1 RK.
    revert w1 QI E2 F. induction tr2 as [|[l m] tr2 IH]; intros w1 QI E2 F; [constructor|]. cbn [acts map fst] in *. inversion F as [|? ? HL F']; subst.
    cbn [wexec] in E2. destruct (wstep w1 (l, m)) as [w1'|] eqn:S2; [|discriminate].
    assert (RL : refresh_step l).
    { assert (GN : forall i r, nth_error (s_recs (w_st w1)) i = Some r -> r_pc r = PGone).
      { intros i r X. apply Q. destruct QI as (<- & _). eapply nth_error_In; eauto. }
      assert (NO : forall s s', step s l = Some s' -> s_recs s = s_recs (w_st w1) -> refresh_step l).
      { clear - HL GN. intros s s' S2 EQ. rewrite <- EQ in GN. destruct l; cbn [in_call] in HL; try contradiction; try exact I; exfalso; cbn [step] in S2;
          (destruct (nth_error (s_recs s) i) as [[b p pc]|] eqn:N; [|discriminate]); pose proof (GN _ _ N) as X; cbn in X; subst pc; discriminate. }
      destruct (load_of l) as [i|] eqn:LO; [destruct (wstep_load _ _ _ _ _ LO S2) as (_ & s' & S' & _); apply (NO _ _ S'); reflexivity|].
      apply (NO _ _ (wstep_other _ _ _ _ LO S2)). reflexivity. }
    constructor; auto. apply (IH w1'); auto. apply (quiet_step _ _ _ _ QI RL (wstep_other _ _ _ _ (refresh_load _ RL) S2)). }
  split; auto. destruct (C73_quiet_proof h0 tr w t k tr2 w2 RN U G SF L RD QQ E RS) as (A & B & C). split; auto. split; auto.
  intros RR. destruct (C RR) as (C1 & C2 & C3). split; auto.
  assert (LE : flat_map (fun r => b_log (r_local r)) (s_recs (w_st w)) = []).
  { pose proof (wgone h0 tr w EX) as GE. unfold gone_empty in GE. unfold all_dropped in Q. clear - GE Q. induction (s_recs (w_st w)) as [|x l IH]; auto.
    cbn. rewrite (GE x) by (cbn; auto; apply Q; cbn; auto). rewrite IH; auto; intros; [apply Q|apply GE]; cbn; auto. }
  rewrite LE, app_nil_r in C3. exact C3.
Qed.
(*EX
(** Both recorders record after the phase has moved without seeing it; one becomes idle and sends nothing, then
    both are dropped, and the next [refresh] has everything. *)
Example ex_C73_all_dropped : match build U64 1 1000 2 false [] with
  | Some h =>
      let tr := [(RRecorder, 0); (RRecorder, 0); (RStart true, 0); (REmpty, 0); (RRead, 0); (RShift, 0); (RTimeout, 0); (REmpty, 0);
                 (LWrite 0 (ORecord 7 1), 0); (LLoad 0, 0); (LFinish 0, 0); (LWrite 1 (ORecord 9 4), 0); (LLoad 1, 0); (LFinish 1, 0);
                 (LIdle 1, 0); (LIdleLoad 1, 0); (LIdleEnd 1, 0); (LDrop 0, 0); (LDropEnd 0, 0); (LWake 1, 0); (LWakeEnd 1, 0); (LDrop 1, 0); (LDropEnd 1, 0)] in
      match wexec (winit h) tr with
      | Some w => map r_pc (s_recs (w_st w)) = [PGone; PGone] /\
          match wexec w [(RStart false, 0); (RRecv, 0); (RRecv, 0); (REmpty, 0); (RRead, 0); (RShift, 0); (RDone, 0); (REmpty, 0)] with
          | Some w2 => s_reader (w_st w2) = RReady /\ held (b_hist (s_merged (w_st w2))) = [(7, 1); (9, 4)]
          | None => False end
      | None => False end
  | None => False end.
Proof. vm_compute. auto 10. Qed.
EX*)

(** Recording never waits: each of the three steps of a call is possible at once, whatever happens in between;
    the load may return anything the memory model allows. *)
Lemma C73_recording_never_waits_proof : forall h0 tr w i r o t1 t2, wrun h0 tr w -> nth_error (s_recs (w_st w)) i = Some r -> r_pc r = PReady ->
  op_ok (h_ctr h0) o -> Forall (others i) (acts t1) -> Forall (others i) (acts t2) -> Forall (label_ok (h_ctr h0)) (acts t1 ++ acts t2) ->
  exists w1, wstep w (LWrite i o, 0) = Some w1 /\
  forall w2, wexec w1 t1 = Some w2 ->
    (exists k w3, wstep w2 (LLoad i, k) = Some w3) /\
    forall k w3, wstep w2 (LLoad i, k) = Some w3 ->
    forall w4, wexec w3 t2 = Some w4 -> exists w5, wstep w4 (LFinish i, 0) = Some w5 /\
    exists r', nth_error (s_recs (w_st w5)) i = Some r' /\ r_pc r' = PReady.
Proof.
  intros h0 tr w i r o t1 t2 RN J P OK F1 F2 LO. apply Forall_app in LO. destruct LO as [LO1 LO2].
  assert (KEEP : forall t w0 w1 x, Forall (others i) (acts t) -> wexec w0 t = Some w1 -> nth_error (s_recs (w_st w0)) i = Some x -> nth_error (s_recs (w_st w1)) i = Some x).
  { intros t w0 w1 x F E N. apply (wexec_lift (fun s => nth_error (s_recs s) i = Some x) (others i) w0 t w1); auto.
    intros s l s' N0 [M NF] S. apply (kept _ _ _ _ _ S M NF N0). }
  assert (EXT : forall tr0 w0 l k w1, wrun h0 tr0 w0 -> label_ok (h_ctr h0) l -> wstep w0 (l, k) = Some w1 -> wrun h0 (tr0 ++ [(l, k)]) w1).
  { intros tr0 w0 l k w1 A L E. apply (wrun_app h0 tr0 _ w0); auto; [constructor; auto; constructor|]. cbn [wexec]. rewrite E. reflexivity. }
  destruct (wtyped h0 tr w RN) as (_ & _ & T). pose proof (nth_Forall _ _ _ _ T J) as [R1 CT]. destruct r as [b p pc]. cbn in P, R1, CT. subst pc.
  rewrite <- CT in OK. destruct (op_facts _ o R1 OK) as (h' & ok & EO & _). rewrite CT in OK.
  assert (S1 : exists w1, wstep w (LWrite i o, 0) = Some w1 /\ exists b1, nth_error (s_recs (w_st w1)) i = Some (Rec b1 p PWrote)).
  { cbn [wstep step]. rewrite J, EO. eexists. split; [reflexivity|]. eexists. cbn. apply put_same. eapply nth_lt; eauto. }
  destruct S1 as (w1 & S1 & b1 & J1). exists w1. split; [exact S1|]. intros w2 E2.
  pose proof (EXT _ _ _ _ _ RN (OK : label_ok (h_ctr h0) (LWrite i o)) S1) as RN1. pose proof (wrun_app _ _ _ _ _ RN1 LO1 E2) as RN2.
  pose proof (KEEP _ _ _ _ F1 E2 J1) as J2. split.
  - destruct RN2 as (_ & _ & EX2). destruct (step_wstep w2 (LLoad i) (put_rec (w_st w2) i (Rec b1 p (PLoaded (s_phase (w_st w2))))) (proj1 (wok_run _ _ _ EX2))) as (w3 & W3 & _).
    + cbn [step]. rewrite J2. reflexivity.
    + eauto.
  - intros k w3 S3 w4 E4.
    assert (J3 : nth_error (s_recs (w_st w3)) i = Some (Rec b1 p (PLoaded (phase_at k)))).
    { destruct (wstep_load _ _ _ _ _ (eq_refl : load_of (LLoad i) = Some i) S3) as (_ & s' & S' & ->). cbn [step with_phase s_recs] in S'. rewrite J2 in S'.
      injection S' as <-. cbn. apply put_same. eapply nth_lt; eauto. }
    pose proof (EXT _ _ _ _ _ RN2 (I : label_ok (h_ctr h0) (LLoad i)) S3) as RN3. pose proof (wrun_app _ _ _ _ _ RN3 LO2 E4) as RN4.
    pose proof (KEEP _ _ _ _ F2 E4 J3) as J4.
    destruct (wtyped h0 _ w4 RN4) as (_ & _ & T4). pose proof (nth_Forall _ _ _ _ T4 J4) as TB. cbn in TB. destruct (shed_returns _ _ TB) as (n & SH).
    cbn [wstep step]. rewrite J4. destruct (phase_at k =? p).
    + eexists. split; [reflexivity|]. exists (Rec b1 p PReady). split; [|reflexivity]. cbn. apply put_same. eapply nth_lt; eauto.
    + rewrite SH. eexists. split; [reflexivity|]. exists (Rec (Box n []) (phase_at k) PReady). split; [|reflexivity]. cbn. rewrite send_recs. apply put_same. eapply nth_lt; eauto.
Qed.
(*EX
(** the mutex is held by recorder 1, and the phase moves twice while recorder 0 records *)
Example ex_C73_recording_never_waits : match build U64 1 1000 2 false [] with
  | Some h =>
      let ref := [(RStart true, 0); (REmpty, 0); (RRead, 0); (RShift, 0); (RTimeout, 0); (REmpty, 0)] in
      let tr := [(RRecorder, 0); (RRecorder, 0)] in
      let t1 := ref in
      let t2 := ref ++ [(LIdle 1, 0); (LIdleLoad 1, 1)] in
      match wexec (winit h) tr with
      | Some w => wrun h tr w /\ map r_pc (s_recs (w_st w)) = [PReady; PReady] /\
          match wstep w (LWrite 0 (ORecord 7 1), 0) with
          | Some w1 => match wexec w1 t1 with
              | Some w2 => wstep w2 (LLoad 0, 0) <> None /\ wstep w2 (LLoad 0, 1) <> None /\ wstep w2 (LLoad 0, 2) = None /\
                  match wstep w2 (LLoad 0, 1) with
                  | Some w3 => match wexec w3 t2 with
                      | Some w4 => s_lock (w_st w4) = Held 1 /\
                          match wstep w4 (LFinish 0, 0) with Some w5 => map r_phase (s_recs (w_st w5)) = [1; 0] | None => False end
                      | None => False end
                  | None => False end
              | None => False end
          | None => False end
      | None => False end
  | None => False end.
Proof. sync_case. Qed.
EX*)
(** How outdated a load can be.  On the way to idle, and on waking up, a recorder sees all moves of the phase
    but possibly the last one; and all of them between the reader's lines 316 and 319.  A recorder that
    records never sees an older phase than before. *)
Lemma C73_staleness_proof : forall h0 tr w i k w', wrun h0 tr w ->
  (wstep w (LIdleLoad i, k) = Some w' \/ wstep w (LWakeEnd i, k) = Some w' ->
     shifts (acts tr) - 1 <= k <= shifts (acts tr) /\ (in_window (w_st w) -> k = shifts (acts tr))) /\
  (wstep w (LLoad i, k) = Some w' -> 0 <= k <= shifts (acts tr) /\
     (shifts (acts tr) <= usize_max -> forall r, nth_error (s_recs (w_st w)) i = Some r -> r_phase r <= k)).
Proof.
  intros h0 tr w i k w' (R & F & E). destruct (wok_run _ _ _ E) as [V _]. rewrite <- (wnow h0 tr w E).
  assert (SEC : forall l, load_of l = Some i -> wstep w (l, k) = Some w' ->
            (exists r, nth_error (s_recs (w_st w)) i = Some r /\ in_section r = true) -> w_now w - 1 <= k <= w_now w /\ (in_window (w_st w) -> k = w_now w)).
  { intros l L S (r & J & IS). destruct (wstep_load _ _ _ _ _ L S) as (B & _). pose proof (vo_section _ V i r J IS). pose proof (vo_known _ V) as KN.
    unfold known in KN. unfold in_window. destruct (s_reader (w_st w)) eqn:RD; split; try lia; intros (t0 & n0 & X); try discriminate X; lia. }
  split.
  - intros [S|S]; [apply (SEC (LIdleLoad i) eq_refl S)|apply (SEC (LWakeEnd i) eq_refl S)];
      (match type of S with wstep _ (?l, _) = _ => destruct (wstep_load w l k i w' eq_refl S) as (_ & s' & S' & _) end);
      cbn [step with_phase s_recs] in S'; (destruct (nth_error (s_recs (w_st w)) i) as [[b p pc]|] eqn:J; [|discriminate S']);
      destruct pc; try discriminate S'; eexists; (split; [reflexivity|reflexivity]).
  - intros S. destruct (wstep_load w (LLoad i) k i w' eq_refl S) as (B & s' & S' & _).
    assert (LT : (i < length (w_views w))%nat).
    { rewrite (vo_length _ V). cbn [step with_phase s_recs] in S'. destruct (nth_error (s_recs (w_st w)) i) eqn:J; [|discriminate S']. eapply nth_lt; eauto. }
    pose proof (vo_view _ V i LT). split; [lia|]. intros SH r J. rewrite (wnow h0 tr w E) in SH.
    destruct (wvphases h0 tr w E SH i r J) as [A _]. lia.
Qed.
(*EX
(** recorder 0 wakes up after the second refresh has moved the phase and still sees the move of the first
    one only; recorder 1 has seen nothing at all *)
Example ex_C73_staleness : match build U64 1 1000 2 false [] with
  | Some h =>
      let ref := [(RStart true, 0); (REmpty, 0); (RRead, 0); (RShift, 0); (RTimeout, 0); (REmpty, 0)] in
      let tr := [(RRecorder, 0); (RRecorder, 0); (LIdle 0, 0); (LIdleLoad 0, 0); (LIdleEnd 0, 0)] ++ ref ++ ref ++
                [(LWake 0, 0); (LWakeEnd 0, 1); (LWrite 1 (ORecord 7 1), 0); (LLoad 1, 0); (LFinish 1, 0)] in
      match wexec (winit h) tr with
      | Some w => s_phase (w_st w) = 2 /\ map r_phase (s_recs (w_st w)) = [1; 0] | None => False end /\
      wexec (winit h) ([(RRecorder, 0); (RRecorder, 0); (LIdle 0, 0); (LIdleLoad 0, 0); (LIdleEnd 0, 0)] ++ ref ++ ref ++
                [(LWake 0, 0); (LWakeEnd 0, 0)]) = None
  | None => False end.
Proof. vm_compute. auto 10. Qed.
EX*)

(** A call of [refresh] that returns (by a timeout or not) has merged every call whose recorder had already
    handed it over when [refresh] was called. *)
Lemma C73_refresh_collects_proof : forall h0 tr w1 t k te w2 c, wrun h0 tr w1 -> merged_untouched (acts tr) ->
  wexec w1 ((RStart t, k) :: te) = Some w2 -> Forall in_call (acts te) -> s_reader (w_st w2) = RReady ->
  In c (s_history (w_st w1)) -> (forall r, In r (s_recs (w_st w1)) -> ~ In c (b_log (r_local r))) ->
  In c (b_log (s_merged (w_st w2))).
Proof.
  intros h0 tr w1 t k te w2 c (R & F & E1) U E IC RR H N.
  cbn [wexec] in E. destruct (wstep w1 (RStart t, k)) as [w1'|] eqn:S1; [|discriminate].
  pose proof (wstep_other _ _ _ _ (eq_refl : load_of (RStart t) = None) S1) as S.
  assert (X : s_reader (w_st w1) = RReady /\ w_st w1' = put_reader (w_st w1) (RDrain t)). { cbn in S. destruct (s_reader (w_st w1)); try discriminate S. split; congruence. }
  destruct X as [RD EQ].
  assert (PL : Permutation (everything (w_st w1)) (s_history (w_st w1))).
  { apply (wplaced h0 tr w1 (untouched_not_set _ U) E1). split; congruence. }
  assert (IN : In c (everything (w_st w1))) by (eapply Permutation_in; [apply Permutation_sym; exact PL|exact H]).
  unfold everything in IN. rewrite !in_app_iff in IN. rewrite In_locals in IN.
  assert (X : coming c (w_st w1')).
  { rewrite EQ. destruct IN as [IN|[IN|(r & I1 & I2)]]; [left; exact IN|right; left; exists t; split; [reflexivity|exact IN]|destruct (N r I1 I2)]. }
  assert (Y : coming c (w_st w2)).
  { apply (wexec_lift (coming c) in_call w1' te w2); auto. intros s l s' C1 C2 C3. eapply coming_step; eauto. }
  destruct Y as [Y|[(t0 & Y & _)|Y]]; [exact Y|congruence|congruence].
Qed.
(*EX
(** recorder 0 has seen the first move of the phase and handed over 7 and 9; the next refresh has both, although it
    times out and recorder 1 does anything in between *)
Example ex_C73_refresh_collects : match build U64 1 1000 2 false [] with
  | Some h =>
      let tr := [(RRecorder, 0); (RRecorder, 0); (LWrite 0 (ORecord 7 1), 0); (LLoad 0, 0); (LFinish 0, 0);
                 (RStart true, 0); (REmpty, 0); (RRead, 0); (RShift, 0); (RTimeout, 0); (REmpty, 0); (LWrite 0 (ORecord 9 1), 0); (LLoad 0, 1); (LFinish 0, 0)] in
      let te := [(LWrite 1 (ORecord 2 1), 0); (RRecv, 0); (LLoad 1, 0); (LFinish 1, 0); (REmpty, 0); (LClone 1, 0); (RRead, 0); (RShift, 0);
                 (LDrop 1, 0); (LDropEnd 1, 0); (RTimeout, 0); (RRecv, 0); (REmpty, 0)] in
      match wexec (winit h) tr with
      | Some w1 => wrun h tr w1 /\ merged_untouched (acts tr) /\ Forall in_call (acts te) /\
          map c_id (s_history (w_st w1)) = [0; 1]%nat /\ map (fun r => b_log (r_local r)) (s_recs (w_st w1)) = [[]; []] /\ b_log (s_merged (w_st w1)) = [] /\
          match wexec w1 ((RStart true, 0) :: te) with
          | Some w2 => s_reader (w_st w2) = RReady /\ map c_id (b_log (s_merged (w_st w2))) = [0; 1; 2]%nat
          | None => False end
      | None => False end
  | None => False end.
Proof. sync_case. Qed.
EX*)

(** *)
Lemma wold_in h0 tr w c : wexec (winit h0) tr = Some w -> In c (s_history (w_st w)) -> old c (w_st w).
Proof.
  intros E I. destruct (whistory h0 tr w E) as [H _]. apply (in_map c_id) in I. rewrite H in I. apply in_seq in I. unfold old. lia.
Qed.
Lemma old_step c s l s' : old c s -> step s l = Some s' -> old c s'.
Proof. intros O S. unfold old in *. pose proof (history_grows _ _ _ S). lia. Qed.
Lemma wout_exec i c tr w w' : wexec w tr = Some w' -> old c (w_st w) -> out i c (w_st w) -> out i c (w_st w').
Proof.
  intros E O X. apply (wexec_lift (fun s => old c s /\ out i c s) (fun _ => True) w tr w'); auto using all_true.
  intros s l s' [O1 X1] _ S. split; [eapply old_step; eauto|]. apply (out_exec i c [l] s); auto. cbn. rewrite S. reflexivity.
Qed.
Lemma wout_all h0 tr w i c : wexec (winit h0) tr = Some w -> c_rec c = i -> out i c (w_st w) ->
  forall r, In r (s_recs (w_st w)) -> ~ In c (b_log (r_local r)).
Proof.
  intros E CI X r I IN. apply In_nth_error in I. destruct I as [j J]. pose proof (wown h0 tr w E j r c J IN) as Y.
  rewrite CI in Y. subst j. apply (X r J IN).
Qed.
(** Dropping recorder [i] hands over everything it still has, whatever it has seen of the phase. *)
Lemma C73_drop_hands_over_proof : forall h0 ta k td w1 w2 i c,
  wrun h0 (ta ++ (LDropEnd i, k) :: td) w2 -> wexec (winit h0) ta = Some w1 ->
  In c (s_history (w_st w1)) -> c_rec c = i ->
  forall r, In r (s_recs (w_st w2)) -> ~ In c (b_log (r_local r)).
Proof.
  intros h0 ta k td w1 w2 i c (R & F & E) E1 H CI. apply (wout_all h0 _ w2 i c E CI).
  apply wexec_cut in E. destruct E as (s1 & s2 & E1' & S2 & E). assert (s1 = w1) by congruence. subst s1.
  pose proof (wstep_other _ _ _ _ (eq_refl : load_of (LDropEnd i) = None) S2) as S.
  assert (O1 : old c (w_st w1)) by (eapply wold_in; eauto).
  apply (wout_exec i c td s2 w2 E); [eapply old_step; eauto|].
  intros r' J I. unfold step in S. destruct (nth_error (s_recs (w_st w1)) i) as [[b p pc]|] eqn:K; try discriminate S.
  destruct pc; try discriminate S. destruct (shed b) as [[full empty]|] eqn:SH; try discriminate S. injection S as S. rewrite <- S in J.
  apply shed_inv in SH. destruct SH as (_ & LE & _).
  cbn in J. rewrite send_recs in J. cbn in J. rewrite put_same in J by (eapply nth_lt; eauto). injection J as <-. cbn in I. rewrite LE in I. exact I.
Qed.
(*EX
Example ex_C73_drop_hands_over : match build U64 1 1000 2 false [] with
  | Some h =>
      let ta := [(RRecorder, 0); (RRecorder, 0); (RStart true, 0); (REmpty, 0); (RRead, 0); (RShift, 0); (RTimeout, 0); (REmpty, 0);
                 (LWrite 0 (ORecord 7 1), 0); (LLoad 0, 0); (LFinish 0, 0); (LWrite 1 (ORecord 8 1), 0); (LDrop 0, 0)] in
      let td := [(LLoad 1, 0); (LFinish 1, 0)] in
      match wexec (winit h) ta, wexec (winit h) (ta ++ (LDropEnd 0, 0) :: td) with
      | Some w1, Some w2 => wrun h (ta ++ (LDropEnd 0, 0) :: td) w2 /\ map r_phase (s_recs (w_st w1)) = [0; 0] /\ s_phase (w_st w1) = 1 /\
          map (fun r => map c_id (b_log (r_local r))) (s_recs (w_st w1)) = [[0]; [1]]%nat /\
          map (fun r => map c_id (b_log (r_local r))) (s_recs (w_st w2)) = [[]; [1]]%nat
      | _, _ => False end
  | None => False end.
Proof. sync_case. Qed.
EX*)

(** Likewise recording, or going idle, once the recorder has seen a move of the phase that came after the
    call: [look] loads value number [k], where [ta], up to which the call was made, contains fewer than [k]
    moves.  Recorder [i] must not have woken from idle in between. *)
Lemma C73_handed_over_proof : forall h0 ta tb look k tc fin m td w1 w2 i c,
  wrun h0 (ta ++ tb ++ (look, k) :: tc ++ (fin, m) :: td) w2 -> wexec (winit h0) ta = Some w1 ->
  In c (s_history (w_st w1)) -> c_rec c = i ->
  (look = LLoad i \/ look = LIdleLoad i) -> (fin = LFinish i \/ fin = LIdleEnd i) -> ~ In (LWakeEnd i) (acts tb) ->
  shifts (acts ta) < k -> shifts (acts (ta ++ tb)) <= usize_max ->
  forall r, In r (s_recs (w_st w2)) -> ~ In c (b_log (r_local r)).
Proof.
  intros h0 ta tb look k tc fin m td w1 w2 i c (R & F & E) E1 H CI LK FN NW KB SH.
  apply (wout_all h0 _ w2 i c E CI). rewrite wexec_app, E1 in E.
  apply wexec_cut in E. destruct E as (w3 & w4 & E3 & S4 & E).
  apply wexec_cut in E. destruct E as (w5 & w6 & E5 & S6 & E).
  rewrite acts_app, shifts_app in SH. pose proof (shifts_nonneg (acts tb)) as N1. pose proof (shifts_nonneg (acts ta)) as N0.
  assert (LO : load_of look = Some i) by (destruct LK as [-> | ->]; reflexivity).
  assert (LF : load_of fin = None) by (destruct FN as [-> | ->]; reflexivity).
  assert (O1 : old c (w_st w1)) by (eapply wold_in; eauto).
  assert (B1 : behindP i c (shifts (acts ta) + 1) (w_st w1)).
  { intros r J _. destruct (wvphases h0 ta w1 E1 ltac:(lia) i r J) as [A _]. destruct (wok_run _ _ _ E1) as [V _].
    assert (LT : (i < length (w_views w1))%nat) by (rewrite (vo_length _ V); eapply nth_lt; eauto).
    pose proof (vo_view _ V i LT) as B. rewrite (wnow _ _ _ E1) in B. lia. }
  assert (B3 : old c (w_st w3) /\ behindP i c (shifts (acts ta) + 1) (w_st w3)).
  { apply (wexec_lift (fun s => old c s /\ behindP i c (shifts (acts ta) + 1) s) (fun l => l <> LWakeEnd i) w1 tb w3); auto.
    - intros s l s' [O B] NE S. split; [eapply old_step; eauto|]. apply (behind_exec i c _ [l] s); auto.
      + cbn. rewrite S. reflexivity.
      + intros [X|[]]. congruence.
    - apply Forall_forall. intros l I ->. apply NW. exact I. }
  destruct B3 as [O3 B3].
  destruct (wstep_load _ _ _ _ _ LO S4) as (KK & s' & S4' & EQ4).
  assert (PK : phase_at k = k).
  { apply phase_small. rewrite (now_mono tb w1 w3 E3), (wnow _ _ _ E1) in KK. lia. }
  assert (L4 : old c (w_st w4) /\ leaving i c (w_st w4)).
  { rewrite EQ4. cbn [w_st]. split; [apply (old_step c (with_phase (w_st w3) (phase_at k)) look s' O3 S4')|].
    apply (load_leaving i c (shifts (acts ta) + 1) (with_phase (w_st w3) (phase_at k)) look s' LK S4' B3). cbn. lia. }
  assert (L5 : old c (w_st w5) /\ leaving i c (w_st w5)).
  { apply (wexec_lift (fun s => old c s /\ leaving i c s) (fun _ => True) w4 tc w5); auto using all_true.
    intros s l s1 [O L] _ S. split; [eapply old_step; eauto|eapply leaving_step; eauto]. }
  destruct L5 as [O5 L5]. pose proof (wstep_other _ _ _ _ LF S6) as S6'.
  apply (wout_exec i c td w6 w2 E); [eapply old_step; eauto|]. apply (leaving_step i c _ fin _ S6' O5 L5). exact FN.
Qed.
(*EX
(** the phase has moved twice since the call; the recorder sees the first move only, and hands the call over *)
Example ex_C73_handed_over : match build U64 1 1000 2 false [] with
  | Some h =>
      let ref := [(RStart true, 0); (REmpty, 0); (RRead, 0); (RShift, 0); (RTimeout, 0); (REmpty, 0)] in
      let ta := [(RRecorder, 0); (LWrite 0 (ORecord 7 1), 0); (LLoad 0, 0); (LFinish 0, 0)] in
      let tb := ref ++ ref ++ [(LWrite 0 (ORecord 8 1), 0)] in
      let tr := ta ++ tb ++ (LLoad 0, 1) :: [] ++ (LFinish 0, 0) :: [] in
      match wexec (winit h) ta, wexec (winit h) tr with
      | Some w1, Some w2 => wrun h tr w2 /\ map c_id (s_history (w_st w1)) = [0]%nat /\ ~ In (LWakeEnd 0) (acts tb) /\
          shifts (acts ta) < 1 /\ shifts (acts (ta ++ tb)) <= usize_max /\ s_phase (w_st w2) = 2 /\
          map (fun r => b_log (r_local r)) (s_recs (w_st w2)) = [[]] /\ map (fun b => held (b_hist b)) (s_chan (w_st w2)) = [[(7, 1); (8, 1)]]
      | _, _ => False end
  | None => False end.
Proof. sync_case. Qed.
EX*)

(** So going idle hands over every call that was made two moves of the phase before, whatever the loads
    return. *)
Lemma C73_idle_hands_over_proof : forall h0 ta tb k tc m td w1 w2 i c,
  wrun h0 (ta ++ tb ++ (LIdleLoad i, k) :: tc ++ (LIdleEnd i, m) :: td) w2 -> wexec (winit h0) ta = Some w1 ->
  In c (s_history (w_st w1)) -> c_rec c = i -> ~ In (LWakeEnd i) (acts tb) ->
  2 <= shifts (acts tb) -> shifts (acts (ta ++ tb)) <= usize_max ->
  forall r, In r (s_recs (w_st w2)) -> ~ In c (b_log (r_local r)).
Proof.
  intros h0 ta tb k tc m td w1 w2 i c RN E1 H CI NW TWO SH.
  apply (C73_handed_over_proof h0 ta tb (LIdleLoad i) k tc (LIdleEnd i) m td w1 w2 i c RN E1 H CI); auto.
  pose proof RN as (R & F & E). rewrite app_assoc in E. apply wexec_cut in E. destruct E as (w3 & w4 & E3 & S4 & _).
  rewrite app_assoc in RN. apply wrun_cut in RN. destruct RN as (w3' & RN3 & _). assert (w3' = w3) by (destruct RN3 as (_ & _ & X); congruence). subst w3'.
  destruct (C73_staleness_proof h0 (ta ++ tb) w3 i k w4 RN3) as [ST _]. destruct (ST (or_introl S4)) as [B _].
  rewrite acts_app, shifts_app in B. lia.
Qed.
(*EX
(** recorder 0 records 7; two refreshes time out; it goes idle, seeing only the first move, and hands 7 over *)
Example ex_C73_idle_hands_over : match build U64 1 1000 2 false [] with
  | Some h =>
      let ref := [(RStart true, 0); (REmpty, 0); (RRead, 0); (RShift, 0); (RTimeout, 0); (REmpty, 0)] in
      let ta := [(RRecorder, 0); (LWrite 0 (ORecord 7 1), 0); (LLoad 0, 0); (LFinish 0, 0)] in
      match wexec (winit h) (ta ++ (ref ++ ref ++ [(LIdle 0, 0)]) ++ (LIdleLoad 0, 1) :: [] ++ (LIdleEnd 0, 0) :: []) with
      | Some w => s_phase (w_st w) = 2 /\ map (fun b => held (b_hist b)) (s_chan (w_st w)) = [[(7, 1)]] /\
                  map (fun r => held (b_hist (r_local r))) (s_recs (w_st w)) = [[]]
      | None => False end
  | None => False end.
Proof. vm_compute. auto 10. Qed.
EX*)

(** ** C74.  [refresh] as a barrier, and what it waits for, when loads may be outdated *)
(** *)
Lemma wcount_step w l k w' : not_forget l -> count_ok (w_st w) -> wstep w (l, k) = Some w' -> count_ok (w_st w').
Proof. intros NF C E. apply (wstep_lift count_ok w l k w'); auto. intros s s' C1 S1. eapply count_step; eauto. Qed.
Lemma wbar_step P N a (on : Prop) w l k w' : 0 <= P -> bar P ((P + 1) mod (usize_max + 1)) (w_st w) -> tracked P N a on (w_st w) ->
  s_reader (w_st w) <> RPanicked -> in_call l -> wsmooth w (l, k) -> not_idled a on l -> wok w -> vphases w -> count_ok (w_st w) ->
  w_now w <= usize_max -> wstep w (l, k) = Some w' ->
  (bar P ((P + 1) mod (usize_max + 1)) (w_st w') /\ tracked P N a on (w_st w')) \/ s_reader (w_st w') = RPanicked.
Proof.
  intros P0 B T NP IC [SM QU] NI [V LK] VP CK NOW E. cbn [fst] in SM.
  assert (CUR : load_of l = None \/ k = w_now w -> (bar P ((P + 1) mod (usize_max + 1)) (w_st w') /\ tracked P N a on (w_st w')) \/ s_reader (w_st w') = RPanicked).
  { intros C. apply (bar_step P ((P + 1) mod (usize_max + 1)) N a on (next_phase_ne P) (w_st w) l (w_st w')); auto. apply (wstep_current w l k w' V C E). }
  destruct (load_of l) as [i|] eqn:L; [|apply CUR; auto]. destruct (Z.eq_dec k (w_now w)) as [EQ|NE]; [apply CUR; auto|]. left.
  destruct l; try discriminate L; cbn [quiet_up_to_date fst snd] in QU; try contradiction. injection L as ->.
  destruct (wstep_load w (LLoad i) k i w' eq_refl E) as (KB & s' & S & ->). cbn [w_st].
  cbn [step with_phase s_recs s_phase] in S. destruct (nth_error (s_recs (w_st w)) i) as [[b p pc]|] eqn:J; [|discriminate S].
  destruct pc; try discriminate S. injection S as <-.
  destruct (VP i _ J) as [VA _]. cbn in VA.
  assert (LT : (i < length (w_views w))%nat) by (rewrite (vo_length _ V); eapply nth_lt; eauto). pose proof (vo_view _ V i LT) as VV.
  rewrite (phase_small k) by lia.
  pose proof (vo_phase _ V) as PH. rewrite phase_small in PH by lia.
  assert (PP : (P + 1) mod (usize_max + 1) <= P + 1) by (apply Z.mod_le; change usize_max with 18446744073709551615; lia).
  change (with_phase (put_rec (with_phase (w_st w) k) i (Rec b p (PLoaded k))) (s_phase (w_st w))) with (put_rec (w_st w) i (Rec b p (PLoaded k))).
  apply (bar_put P ((P + 1) mod (usize_max + 1)) N a on (w_st w) i _ _ B T J).
  - unfold seen. cbn. intros X. exfalso. lia.
  - unfold near, behind. cbn. intros X [Y|Y]; [|exfalso; lia]. split; [|reflexivity]. left. split; [exact Y|]. left. lia.
  - intros _ _. split; reflexivity.
  - intros _ _ _. split; [exact I|]. split; [reflexivity|]. unfold behind. cbn. auto.
Qed.
Lemma wbar_exec P N a (on : Prop) tr : forall w w', 0 <= P -> bar P ((P + 1) mod (usize_max + 1)) (w_st w) -> tracked P N a on (w_st w) ->
  s_reader (w_st w) <> RPanicked -> wok w -> vphases w -> count_ok (w_st w) -> w_now w + shifts (acts tr) <= usize_max ->
  Forall in_call (acts tr) -> walong wsmooth w tr -> (on -> ~ In (LIdle a) (acts tr)) ->
  wexec w tr = Some w' -> (bar P ((P + 1) mod (usize_max + 1)) (w_st w') /\ tracked P N a on (w_st w')) \/ s_reader (w_st w') = RPanicked.
Proof.
  assert (PAN : forall tr w w', s_reader (w_st w) = RPanicked -> wexec w tr = Some w' -> s_reader (w_st w') = RPanicked).
  { intros tr0 w w' X E. apply (wexec_lift (fun s => s_reader s = RPanicked) (fun _ => True) w tr0 w'); auto using all_true.
    intros s l s' Y _ S. eapply panicked_step; eauto. }
  induction tr as [|[l k] tr IH]; intros w w' P0 B T NP OK VP CK SH IC SM NI E; cbn [wexec] in E.
  - injection E as <-. auto.
  - destruct (wstep w (l, k)) as [w1|] eqn:S1; [|discriminate]. cbn [acts map fst] in IC, SH, NI. inversion IC; subst. cbn [walong] in SM. rewrite S1 in SM. destruct SM as [SM1 SM2].
    change (l :: map fst tr) with ([l] ++ acts tr) in SH. rewrite shifts_app in SH. pose proof (shifts_nonneg [l]). pose proof (shifts_nonneg (acts tr)).
    assert (NF : not_forget l) by (destruct SM1 as [X _]; destruct l; cbn in *; auto).
    assert (NI1 : not_idled a on l) by (intros O ->; apply (NI O); left; auto).
    destruct (wbar_step P N a on w l k w1 P0 B T NP H1 SM1 NI1 OK VP CK ltac:(lia) S1) as [[B1 T1]|X]; [|right; eapply PAN; eauto].
    assert (D : s_reader (w_st w1) = RPanicked \/ s_reader (w_st w1) <> RPanicked) by (destruct (s_reader (w_st w1)); auto; right; discriminate).
    destruct D as [D|D]; [right; eapply PAN; eauto|].
    apply (IH w1); auto.
    + eapply wok_step; eauto.
    + eapply vphases_step; eauto; [apply OK|lia].
    + eapply wcount_step; eauto.
    + rewrite (now_step _ _ _ _ S1). lia.
    + intros O X. apply (NI O). right. exact X.
Qed.
(** [C43_barrier] with outdated loads: recorders that record may see outdated phases, and then [refresh]
    waits for them longer; recorders that become idle or wake up during the refresh must see the latest one
    (see [wsmooth]). *)
Lemma C74_barrier_proof : forall h0 tr1 w1 t k tr2 w2, wrun h0 tr1 w1 -> merged_untouched (acts tr1) -> guards_dropped (acts tr1) ->
  shifts (acts (tr1 ++ tr2)) <= usize_max -> synced (w_st w1) ->
  wexec w1 ((RStart t, k) :: tr2) = Some w2 -> Forall in_call (acts tr2) -> walong wsmooth w1 ((RStart t, k) :: tr2) ->
  s_reader (w_st w2) = RReady ->
  synced (w_st w2) /\ s_chan (w_st w2) = [] /\
  (forall c r, In c (s_history (w_st w1)) -> nth_error (s_recs (w_st w1)) (c_rec c) = Some r -> recording r ->
     ~ In (LIdle (c_rec c)) (acts tr2) -> In c (b_log (s_merged (w_st w2)))).
Proof.
  intros h0 tr1 w1 t k tr2 w2 RN U G SH SY E IC SM RR. pose proof RN as (R & F & E1).
  pose proof E as E0. cbn [wexec] in E. destruct (wstep w1 (RStart t, k)) as [v1|] eqn:S1; [|discriminate].
  cbn [walong] in SM. rewrite S1 in SM. destruct SM as [_ SM]. rewrite acts_app, shifts_app in SH. pose proof (shifts_nonneg (acts tr2)) as N2. pose proof (shifts_nonneg (acts tr1)) as N1.
  pose proof (wstep_other _ _ _ _ (eq_refl : load_of (RStart t) = None) S1) as S.
  assert (S1' : w_st v1 = put_reader (w_st w1) (RDrain t)). { cbn in S. destruct (s_reader (w_st w1)); congruence. }
  pose proof (wok_run h0 tr1 w1 E1) as OK. pose proof (wcount_ok h0 tr1 w1 (dropped_not_forget _ G) E1) as CK.
  pose proof (wvphases h0 tr1 w1 E1 ltac:(lia)) as VP. pose proof (wnow h0 tr1 w1 E1) as NW.
  set (P := s_phase (w_st w1)). set (N := length (s_history (w_st w1))).
  assert (PE : P = shifts (acts tr1)). { unfold P. rewrite (vo_phase _ (proj1 OK)), NW. apply phase_small. lia. }
  assert (BAR : forall a (on : Prop), (on -> exists r, nth_error (s_recs (w_st w1)) a = Some r /\ recording r) -> (on -> ~ In (LIdle a) (acts tr2)) ->
            bar P ((P + 1) mod (usize_max + 1)) (w_st w2) /\ tracked P N a on (w_st w2)).
  { intros a on H1 H2. destruct (wbar_exec P N a on tr2 v1 w2) as [X|X]; auto; try lia.
    - rewrite S1'. unfold bar, barF. cbn. split; [reflexivity|]. apply Forall_forall. exact SY.
    - rewrite S1'. split; [|cbn; unfold N; lia]. intros O. destruct (H1 O) as (r & A & B). exists r. cbn. auto.
    - rewrite S1'. discriminate.
    - eapply wok_step; eauto.
    - eapply vphases_step; eauto; [apply OK|lia].
    - eapply wcount_step; eauto. exact I.
    - rewrite (now_step _ _ _ _ S1). change (shifts [RStart t]) with 0. lia.
    - congruence. }
  split; [|split].
  - destruct (BAR 0%nat False) as [B _]; [intros []..|]. unfold bar, barF in B. rewrite RR in B. destruct B as (PH & B & _).
    intros r I. rewrite PH. rewrite Forall_forall in B. auto.
  - destruct (BAR 0%nat False) as [B _]; [intros []..|]. unfold bar, barF in B. rewrite RR in B. tauto.
  - intros c r I J RC NI. destruct (BAR (c_rec c) True) as [B [T _]]; [eauto|auto|].
    unfold bar, barF in B. rewrite RR in B. destruct B as (PH & B & CH). destruct (T Logic.I) as (r2 & J2 & RC2 & T3). rewrite RR in T3.
    assert (LT : SyncRefresh.late N r2).
    { destruct T3 as [T3|T3]; auto. exfalso. pose proof (nth_Forall _ _ _ _ B J2) as S2. pose proof (next_phase_ne P).
      unfold seen, recording, behind in *. destruct (r_pc r2); try contradiction; destruct (Z.eqb_spec (r_phase r2) P); cbn in T3; try discriminate; intuition congruence. }
    assert (ID : (c_id c < N)%nat).
    { destruct (whistory h0 tr1 w1 E1) as [H _]. pose proof (in_map c_id _ _ I) as X. rewrite H in X. apply in_seq in X. unfold N. lia. }
    assert (EX2 : wexec (winit h0) (tr1 ++ (RStart t, k) :: tr2) = Some w2) by (rewrite wexec_app, E1; exact E0).
    assert (PL : Permutation (everything (w_st w2)) (s_history (w_st w2))).
    { apply (wplaced h0 (tr1 ++ (RStart t, k) :: tr2)); auto; [|split; rewrite RR; discriminate].
      rewrite acts_app. apply Forall_app. split; [apply untouched_not_set; auto|]. constructor; [exact Logic.I|].
      eapply Forall_impl; [|exact IC]. intros []; cbn; auto. }
    assert (IH : In c (s_history (w_st w2))) by (apply (whistory_kept _ w1 w2 c E0 I)).
    apply (Permutation_in c (Permutation_sym PL)) in IH. unfold everything in IH. apply in_app_iff in IH.
    destruct IH as [IH|IH]; auto. exfalso. rewrite CH in IH. cbn [logs flat_map app] in IH.
    unfold locals in IH. apply in_flat_map in IH. destruct IH as (r3 & I3 & C3). apply In_nth_error in I3. destruct I3 as (j & J3).
    pose proof (wown h0 _ w2 EX2 j r3 c J3 C3) as OW. subst j. rewrite J2 in J3. injection J3 as <-. specialize (LT c C3). lia.
Qed.
(*EX
(** recorder 0 records twice during the refresh without seeing that the phase has moved; only its third call
    sees it and hands over all its calls, and [refresh] has waited *)
Example ex_C74_barrier : match build U64 1 1000 2 false [] with
  | Some h =>
      let tr1 := [(RRecorder, 0); (RRecorder, 0); (LIdle 1, 0); (LIdleLoad 1, 0); (LIdleEnd 1, 0); (LWrite 0 (ORecord 7 1), 0); (LLoad 0, 0); (LFinish 0, 0)] in
      let tr2 := [(REmpty, 0); (RRead, 0); (RShift, 0); (LWrite 0 (ORecord 8 1), 0); (LLoad 0, 0); (LFinish 0, 0);
                  (LWake 1, 0); (LWakeEnd 1, 1); (LWrite 1 (ORecord 2 1), 0); (LLoad 1, 1); (LFinish 1, 0);
                  (LWrite 0 (ORecord 9 1), 0); (LLoad 0, 0); (LFinish 0, 0); (LWrite 0 (ORecord 10 1), 0); (LLoad 0, 1); (LFinish 0, 0);
                  (RRecv, 0); (RDone, 0); (REmpty, 0)] in
      match wexec (winit h) (tr1 ++ (RStart false, 0) :: tr2) with
      | Some w => s_reader (w_st w) = RReady /\ held (b_hist (s_merged (w_st w))) = [(7, 1); (8, 1); (9, 1); (10, 1)] /\ map r_phase (s_recs (w_st w)) = [1; 1]
      | None => False end
  | None => False end.
Proof. vm_compute. auto 10. Qed.
EX*)

(** Between two calls of [refresh] the condition "every active recorder has seen the current phase" is kept
    by every step, except leaking a guard, cloning an idle recorder, and waking up with an outdated phase. *)
Lemma C74_synced_kept_proof : forall h0 tr w l k w', wrun h0 tr w -> shifts (acts tr) <= usize_max ->
  synced (w_st w) -> s_reader (w_st w) = RReady -> s_reader (w_st w') = RReady -> wstep w (l, k) = Some w' ->
  (forall i, l <> LForget i) -> (forall i r, l = LClone i -> nth_error (s_recs (w_st w)) i = Some r -> r_pc r <> PIdle) ->
  (forall i, l = LWakeEnd i -> k = w_now w) -> synced (w_st w').
Proof.
  intros h0 tr w l k w' (R & F & EX) SH SY RD RD' E NF NC NW.
  destruct (wok_run _ _ _ EX) as [V LK]. pose proof (wvphases _ _ _ EX SH) as VP. rewrite <- (wnow _ _ _ EX) in SH.
  assert (C : load_of l = None \/ k = w_now w).
  { destruct (load_of l) as [i|] eqn:L; [right|auto]. destruct (wstep_load _ _ _ _ _ L E) as (KB & s' & S & _).
    pose proof (vo_phase _ V) as PH.
    assert (SEEN : forall b p pc, nth_error (s_recs (w_st w)) i = Some (Rec b p pc) -> p = s_phase (w_st w) -> k = w_now w).
    { intros b p pc J X. destruct (VP i _ J) as [A _]. cbn in A.
      assert (LT : (i < length (w_views w))%nat) by (rewrite (vo_length _ V); eapply nth_lt; eauto). pose proof (vo_view _ V i LT) as VV.
      rewrite phase_small in PH by lia. lia. }
    destruct l; try discriminate L; injection L as ->; cbn [step with_phase s_recs] in S;
      (destruct (nth_error (s_recs (w_st w)) i) as [[b p pc]|] eqn:J; [|discriminate S]); destruct pc; try discriminate S;
      pose proof (SY _ (nth_error_In _ _ J)) as X; unfold seen in X; cbn in X; try (eapply SEEN; eauto; fail). apply (NW i eq_refl). }
  destruct (C43_synced_kept_proof h0) as [_ KEEP]. apply (KEEP (w_st w) l (w_st w') SY RD RD' (wstep_current w l k w' V C E) NF NC).
Qed.
(*EX
(** both recorders have seen the phase after a refresh; one goes idle and wakes up *)
Example ex_C74_synced_kept : match build U64 1 1000 2 false [] with
  | Some h =>
      let tr := [(RRecorder, 0); (RRecorder, 0); (RStart false, 0); (REmpty, 0); (RRead, 0); (RShift, 0);
                 (LWrite 0 (ORecord 7 1), 0); (LLoad 0, 1); (LFinish 0, 0); (LWrite 1 (ORecord 8 1), 0); (LLoad 1, 1); (LFinish 1, 0);
                 (RRecv, 0); (RRecv, 0); (RDone, 0); (REmpty, 0); (LIdle 0, 0); (LIdleLoad 0, 1); (LIdleEnd 0, 0); (LWake 0, 0)] in
      match wexec (winit h) tr with
      | Some w => map r_phase (s_recs (w_st w)) = [1; 1] /\ s_phase (w_st w) = 1 /\
          match wexec w [(LWakeEnd 0, 1)] with Some w2 => map r_phase (s_recs (w_st w2)) = [1; 1] | None => False end /\
          wexec w [(LWakeEnd 0, 0)] = None
      | None => False end
  | None => False end.
Proof. vm_compute. auto 10. Qed.
EX*)

(** *)
Lemma wphases w : wok w -> vphases w -> w_now w <= usize_max -> phases (w_st w) /\ s_phase (w_st w) = w_now w.
Proof.
  intros [V _] VP NOW.
  assert (PE : s_phase (w_st w) = w_now w) by (rewrite (vo_phase _ V); apply phase_small; pose proof (vo_lock _ V); lia).
  split; [|exact PE]. unfold phases. rewrite PE. apply Forall_forall. intros r I. apply In_nth_error in I. destruct I as (j & J).
  assert (LT : (j < length (w_views w))%nat) by (rewrite (vo_length _ V); eapply nth_lt; eauto). pose proof (vo_view _ V j LT) as VV.
  destruct (VP j r J) as [A B]. unfold le_phase. split; [lia|]. destruct (r_pc r); auto; lia.
Qed.
Lemma wwaits_step w l k w' : waits (w_st w) -> widles_outside w (l, k) -> not_forget l -> wok w -> vphases w -> count_ok (w_st w) ->
  w_now w + shifts [l] <= usize_max -> wstep w (l, k) = Some w' -> waits (w_st w').
Proof.
  intros W [IO ID] NF OK VP CK SH E. cbn [fst snd] in IO, ID. pose proof (shifts_nonneg [l]) as N1.
  destruct (wphases w OK VP ltac:(lia)) as [PS PE]. destruct OK as [V LK]. pose proof (vo_lock _ V) as VL.
  assert (CUR : load_of l = None \/ k = w_now w -> waits (w_st w')).
  { intros C. apply (waits_step (w_st w) l (w_st w')); auto; [lia| |apply (wstep_current w l k w' V C E)]. intros ->. change (shifts [RShift]) with 1 in SH. lia. }
  destruct (load_of l) as [i|] eqn:L; [|apply CUR; auto]. destruct (Z.eq_dec k (w_now w)) as [EQ|NE]; [apply CUR; auto|].
  destruct (wstep_load _ _ _ _ _ L E) as (KB & s' & S & ->). cbn [w_st].
  assert (PUT : forall x y c q, nth_error (s_recs (w_st w)) i = Some x ->
     ((exists t n, s_reader (w_st w) = RBump t n) -> will x = true -> will y = true) ->
     ((exists t n m, s_reader (w_st w) = RWait t n m) -> owes (s_phase (w_st w)) x = true -> owes (s_phase (w_st w)) y = true) ->
     waits (with_phase (put_rec (put_lock (with_phase (w_st w) q) c (s_count (w_st w))) i y) (s_phase (w_st w)))).
  { intros x y c q J H1 H2. unfold waits in *. cbn [with_phase put_rec put_lock s_reader s_phase s_chan s_recs].
    unfold waitF in *. destruct (s_reader (w_st w)) eqn:RD; auto; rewrite (sumr_put _ _ _ _ _ J); unfold bz in *.
    - specialize (H1 ltac:(eauto)). destruct (will x); [rewrite H1 by auto|destruct (will y)]; lia.
    - specialize (H2 ltac:(eauto)). destruct (owes (s_phase (w_st w)) x); [rewrite H2 by auto|destruct (owes _ y)]; lia. }
  assert (SS : forall s, put_lock s (s_lock s) (s_count s) = s) by (intros []; reflexivity).
  destruct l; try discriminate L; injection L as ->; cbn [step with_phase s_recs s_phase] in S;
    (destruct (nth_error (s_recs (w_st w)) i) as [[b p pc]|] eqn:J; [|discriminate S]); destruct pc; try discriminate S; injection S as <-.
  - rewrite <- (SS (with_phase (w_st w) (phase_at k))). apply (PUT _ _ _ _ eq_refl); unfold will, owes; cbn; auto.
  - rewrite <- (SS (with_phase (w_st w) (phase_at k))). apply (PUT _ _ _ _ eq_refl); unfold will, owes; cbn.
    + intros X _. exfalso. apply IO. exact X.
    + intros X _. exfalso. apply NE, ID. exact X.
  - apply (PUT _ _ _ _ eq_refl); unfold will, owes; cbn; intros; discriminate.
Qed.
Lemma wwaits h0 tr w : wexec (winit h0) tr = Some w -> walong widles_outside (winit h0) tr -> Forall not_forget (acts tr) ->
  shifts (acts tr) <= usize_max -> waits (w_st w).
Proof.
  revert w. induction tr as [|[l k] tr IH] using rev_ind; intros w E A NF S.
  - cbn in E. injection E as <-. exact I.
  - apply wexec_snoc in E. destruct E as (w1 & E1 & E2). rewrite acts_app in NF, S. apply Forall_app in NF. destruct NF as [NF NL]. inversion NL; subst.
    apply (walong_app _ _ _ _ _ E1) in A. destruct A as [A1 [A2 _]].
    rewrite shifts_app in S. pose proof (shifts_nonneg (acts [(l, k)])). pose proof (shifts_nonneg (acts tr)).
    apply (wwaits_step w1 l k w); auto.
    + apply IH; auto. lia.
    + apply (wok_run h0 tr); auto.
    + apply (wvphases h0 tr); auto. lia.
    + apply (wcount_ok h0 tr); auto.
    + rewrite (wnow _ _ _ E1). exact S.
Qed.
(** [C44_waits_for_someone] with outdated loads: recorders that record or wake up may see outdated phases, but
    those that become idle while the reader waits must see the latest one (see [widles_outside]). *)
Lemma C74_waits_for_someone_proof : forall h0 tr w t n m, wrun h0 tr w -> guards_dropped (acts tr) ->
  walong widles_outside (winit h0) tr -> shifts (acts tr) <= usize_max -> s_reader (w_st w) = RWait t n m ->
  (exists l k w', (l = RRecv \/ l = RDone) /\ wstep w (l, k) = Some w') \/
  (exists i r, nth_error (s_recs (w_st w)) i = Some r /\ owes (s_phase (w_st w)) r = true).
Proof.
  intros h0 tr w t n m (R & F & E) G A S RD.
  pose proof (wwaits h0 tr w E A (dropped_not_forget _ G) S) as W. unfold waits, waitF in W. rewrite RD in W.
  assert (GO : forall l st', (l = RRecv \/ l = RDone) -> step (w_st w) l = Some st' -> exists l k w', (l = RRecv \/ l = RDone) /\ wstep w (l, k) = Some w').
  { intros l st' L X. destruct (step_wstep w l st' (proj1 (wok_run _ _ _ E)) X) as (w' & W' & _). exists l, (w_now w), w'. auto. }
  destruct (Z.ltb_spec m n) as [KN|KN].
  - destruct (s_chan (w_st w)) as [|b q] eqn:CH.
    + right. change (zlen (@nil box)) with 0 in W.
      assert (X : 0 < sumr (fun r => bz (owes (s_phase (w_st w)) r)) (s_recs (w_st w))) by lia.
      clear - X. revert X. generalize (s_phase (w_st w)). intros ph X. induction (s_recs (w_st w)) as [|x l IH]; [discriminate X|]. destruct (owes ph x) eqn:O.
      * exists 0%nat, x. auto.
      * unfold sumr in *. cbn [map fold_right] in X. rewrite O in X. cbn [bz] in X. destruct (IH ltac:(lia)) as (i & r & I1 & I2). exists (Datatypes.S i), r. auto.
    + left. assert (X : exists st', step (w_st w) RRecv = Some st').
      { cbn. rewrite RD. replace (m <? n) with true by (symmetry; apply Z.ltb_lt; lia). unfold receive. rewrite CH. destruct (merge _ _); eexists; reflexivity. }
      destruct X as (st' & X). eapply GO; [left; reflexivity|exact X].
  - left. assert (X : exists st', step (w_st w) RDone = Some st').
    { cbn. rewrite RD. replace (m <? n) with false by (symmetry; apply Z.ltb_ge; lia). eexists; reflexivity. }
    destruct X as (st' & X). eapply GO; [right; reflexivity|exact X].
Qed.
(*EX
Example ex_C74_waits_for : match build U64 1 1000 2 false [] with
  | Some h =>
      let tr := [(RRecorder, 0); (RRecorder, 0); (RStart false, 0); (REmpty, 0); (RRead, 0); (RShift, 0);
                 (LWrite 0 (ORecord 7 1), 0); (LLoad 0, 1); (LFinish 0, 0); (RRecv, 0); (LWrite 1 (ORecord 8 1), 0); (LLoad 1, 0); (LFinish 1, 0)] in
      match wexec (winit h) tr with
      | Some w => wrun h tr w /\ guards_dropped (acts tr) /\ walong widles_outside (winit h) tr /\ shifts (acts tr) <= usize_max /\
          s_reader (w_st w) = RWait false 2 1 /\ wstep w (RRecv, 0) = None /\ wstep w (RDone, 0) = None /\ map (owes (s_phase (w_st w))) (s_recs (w_st w)) = [false; true]
      | None => False end
  | None => False end.
Proof. sync_case. Qed.
EX*)

(** A recorder that completes a call while the reader waits, and sees the latest phase in it, has paid. *)
Lemma C74_recording_pays_proof : forall h0 tr w i tr2 m w2 t n k, wrun h0 tr w -> shifts (acts tr) <= usize_max ->
  s_reader (w_st w) = RWait t n k -> Forall in_call (acts tr2) -> Forall (others i) (acts tr2) ->
  wexec w ((LLoad i, w_now w) :: tr2 ++ [(LFinish i, m)]) = Some w2 ->
  exists r, nth_error (s_recs (w_st w2)) i = Some r /\ owes (s_phase (w_st w2)) r = false.
Proof.
  intros h0 tr w i tr2 m w2 t n k (R & F & EX) SH RD IC OT E. pose proof (wok_run _ _ _ EX) as [V LK].
  cbn [wexec] in E. destruct (wstep w (LLoad i, w_now w)) as [v1|] eqn:S1; [|discriminate].
  rewrite wexec_app in E. destruct (wexec v1 tr2) as [v2|] eqn:E1; [|discriminate]. cbn [wexec] in E.
  destruct (wstep v2 (LFinish i, m)) as [v3|] eqn:S2; [|discriminate]. injection E as <-.
  pose proof (wstep_current w (LLoad i) (w_now w) v1 V (or_intror eq_refl) S1) as S1'.
  assert (L1 : exists b p, nth_error (s_recs (w_st v1)) i = Some (Rec b p (PLoaded (s_phase (w_st w)))) /\ s_phase (w_st v1) = s_phase (w_st w) /\ calm (w_st v1)).
  { cbn in S1'. destruct (nth_error (s_recs (w_st w)) i) as [[b p []]|] eqn:N; try discriminate. injection S1' as <-.
    exists b, p. cbn. rewrite put_same by (eapply nth_lt; eauto). split; [reflexivity|]. split; [reflexivity|]. unfold calm. cbn. rewrite RD. exact I. }
  destruct L1 as (b & p & J1 & P1 & C1).
  assert (L2 : nth_error (s_recs (w_st v2)) i = Some (Rec b p (PLoaded (s_phase (w_st w)))) /\ s_phase (w_st v2) = s_phase (w_st w)).
  { assert (KEEP : forall tr w0 w1, Forall in_call (acts tr) -> Forall (others i) (acts tr) -> calm (w_st w0) -> wexec w0 tr = Some w1 ->
       (forall x, nth_error (s_recs (w_st w0)) i = Some x -> nth_error (s_recs (w_st w1)) i = Some x) /\ s_phase (w_st w1) = s_phase (w_st w0)).
    { clear. induction tr as [|[l k] tr IH]; intros w0 w1 IC OT C E; cbn [wexec] in E; [injection E as <-; auto|].
      cbn [acts map fst] in IC, OT. inversion IC; subst. inversion OT as [|? ? [M NF] OT']; subst. destruct (wstep w0 (l, k)) as [v|] eqn:S; [|discriminate].
      assert (X : (forall x, nth_error (s_recs (w_st w0)) i = Some x -> nth_error (s_recs (w_st v)) i = Some x) /\ s_phase (w_st v) = s_phase (w_st w0) /\ calm (w_st v)).
      { destruct (load_of l) as [j|] eqn:L.
        - destruct (wstep_load _ _ _ _ _ L S) as (_ & s' & S' & ->). cbn [w_st]. split; [|split; [reflexivity|]].
          + intros x N. apply (kept _ _ _ _ _ S' M NF N).
          + apply (calm_step _ _ _ H1 (C : calm (with_phase (w_st w0) (phase_at k))) S').
        - pose proof (wstep_other _ _ _ _ L S) as S'. destruct (calm_step _ _ _ H1 C S') as [PH C']. split; [|split; auto]. intros x N. apply (kept _ _ _ _ _ S' M NF N). }
      destruct X as (X1 & X2 & X3). destruct (IH v w1 H2 OT' X3 E) as [Y1 Y2]. split; [auto|congruence]. }
    destruct (KEEP tr2 v1 v2 IC OT C1 E1) as [Y1 Y2]. split; [apply Y1; exact J1|congruence]. }
  destruct L2 as [J2 P2]. pose proof (wstep_other _ _ _ _ (eq_refl : load_of (LFinish i) = None) S2) as S2'. cbn in S2'. rewrite J2 in S2'.
  destruct (Z.eqb_spec (s_phase (w_st w)) p) as [EQ|NE].
  - injection S2' as <-. exists (Rec b p PReady). cbn. rewrite put_same by (eapply nth_lt; eauto). split; auto.
    unfold owes. cbn. apply negb_false_iff, Z.eqb_eq. congruence.
  - destruct (shed b) as [[f e]|]; [|discriminate]. injection S2' as <-. exists (Rec e (s_phase (w_st w)) PReady). cbn.
    rewrite send_recs, send_phase. rewrite put_same by (eapply nth_lt; eauto). split; auto.
    unfold owes. cbn. apply negb_false_iff, Z.eqb_eq. congruence.
Qed.

(** Once no recorder owes anything, [refresh] returns on its own: at most two steps more than there are
    histograms in the channel, never stuck, no panic. *)
Lemma C74_returns_when_paid_proof : forall h0 tr w t n k tr2 w2, wrun h0 tr w -> merged_untouched (acts tr) -> guards_dropped (acts tr) -> merge_safe h0 ->
  walong widles_outside (winit h0) tr -> shifts (acts tr) <= usize_max -> s_reader (w_st w) = RWait t n k ->
  (forall r, In r (s_recs (w_st w)) -> owes (s_phase (w_st w)) r = false) ->
  wexec w tr2 = Some w2 -> Forall refresh_step (acts tr2) ->
  Z.of_nat (length tr2) <= Z.of_nat (length (s_chan (w_st w))) + 2 /\
  (s_reader (w_st w2) <> RReady -> exists l m w3, refresh_step l /\ wstep w2 (l, m) = Some w3).
Proof.
  intros h0 tr w t n k tr2 w2 RN U G SF A S RD NO E F. pose proof RN as (R & FL & EX).
  pose proof (wwaits h0 tr w EX A (dropped_not_forget _ G) S) as W. unfold waits, waitF in W. rewrite RD in W.
  assert (Z0 : sumr (fun r => bz (owes (s_phase (w_st w)) r)) (s_recs (w_st w)) = 0).
  { clear - NO. revert NO. generalize (s_phase (w_st w)). intros ph NO. induction (s_recs (w_st w)) as [|x l IH]; auto. unfold sumr in *. cbn [map fold_right]. rewrite IH by (intros; apply NO; cbn; auto).
    rewrite (NO x) by (cbn; auto). reflexivity. }
  rewrite Z0 in W. pose proof (refresh_exec _ _ _ F E) as E'.
  destruct (paid_core (w_st w) t n k (acts tr2) (w_st w2) RD ltac:(lia) F E') as [L2 LIVE].
  unfold acts in L2. rewrite map_length in L2. split; [exact L2|]. intros NR.
  assert (RN2 : wrun h0 (tr ++ tr2) w2).
  { apply (wrun_app h0 tr _ w); auto. eapply Forall_impl; [|exact F]. intros []; cbn; intros; auto; contradiction. }
  assert (U2 : merged_untouched (acts (tr ++ tr2))).
  { rewrite acts_app. intros h I'. apply in_app_iff in I'. destruct I' as [I'|I']; [apply (U h I')|]. rewrite Forall_forall in F. apply (F _ I'). }
  pose proof (C73_refresh_never_panics_proof h0 _ w2 RN2 U2 SF) as NP. destruct (LIVE NP NR) as (l & st3 & RL & X).
  destruct RN2 as (_ & _ & EX2). destruct (step_wstep w2 l st3 (proj1 (wok_run _ _ _ EX2)) X) as (w3 & W3 & _). exists l, (w_now w2), w3. auto.
Qed.
(*EX
(** The reader waits for two recorders.  Recorder 0 has paid.  Recorder 1 records twice; only the second call
    sees that the phase has moved and pays, and [refresh] returns in three steps. *)
Example ex_C74_waits : match build U64 1 1000 2 false [] with
  | Some h =>
      let tr := [(RRecorder, 0); (RRecorder, 0); (RStart false, 0); (REmpty, 0); (RRead, 0); (RShift, 0);
                 (LWrite 0 (ORecord 7 1), 0); (LLoad 0, 1); (LFinish 0, 0); (RRecv, 0); (LWrite 1 (ORecord 8 1), 0); (LLoad 1, 0); (LFinish 1, 0)] in
      match wexec (winit h) tr with
      | Some w => s_reader (w_st w) = RWait false 2 1 /\ map (owes (s_phase (w_st w))) (s_recs (w_st w)) = [false; true] /\ s_chan (w_st w) = [] /\
          match wexec w [(LWrite 1 (ORecord 9 4), 0); (LLoad 1, 1); (LFinish 1, 0)] with
          | Some w2 => map (owes (s_phase (w_st w2))) (s_recs (w_st w2)) = [false; false] /\
              match wexec w2 [(RRecv, 0); (RDone, 0); (REmpty, 0)] with
              | Some w3 => s_reader (w_st w3) = RReady /\ held (b_hist (s_merged (w_st w3))) = [(7, 1); (8, 1); (9, 4)]
              | None => False end
          | None => False end
      | None => False end
  | None => False end.
Proof. vm_compute. auto 10. Qed.
EX*)
(** And it stays paid until the end of this [refresh], unless it is dropped (which sends its histogram again)
    or it was idle and wakes up with an outdated phase. *)
Lemma C74_paid_stays_proof : forall h0 tr w t n m l k w' i r, wrun h0 tr w -> shifts (acts tr) <= usize_max -> s_reader (w_st w) = RWait t n m ->
  in_call l -> wstep w (l, k) = Some w' -> l <> LForget i -> l <> LDrop i -> (l = LWakeEnd i -> k = w_now w) ->
  nth_error (s_recs (w_st w)) i = Some r -> owes (s_phase (w_st w)) r = false ->
  exists r', nth_error (s_recs (w_st w')) i = Some r' /\ owes (s_phase (w_st w')) r' = false.
Proof.
  intros h0 tr w t n m l k w' i r (R & F & EX) SH RD IC E NF ND NW J O.
  pose proof (wok_run _ _ _ EX) as OK. pose proof (wvphases _ _ _ EX SH) as VP. rewrite <- (wnow _ _ _ EX) in SH.
  destruct (wphases w OK VP SH) as [PS PE]. pose proof (proj1 OK) as V.
  assert (CUR : load_of l = None \/ k = w_now w -> exists r', nth_error (s_recs (w_st w')) i = Some r' /\ owes (s_phase (w_st w')) r' = false).
  { intros C. apply (paid_stays_step (w_st w) t n m l (w_st w') i r); auto. apply (wstep_current w l k w' V C E). }
  destruct (load_of l) as [j|] eqn:L; [|auto]. destruct (Z.eq_dec k (w_now w)) as [EQ|NE]; [auto|].
  destruct (wstep_load _ _ _ _ _ L E) as (KB & s' & S & ->). cbn [w_st with_phase s_recs s_phase].
  destruct (Nat.eq_dec j i) as [->|NJ].
  - destruct (VP i r J) as [A _]. assert (LT : (i < length (w_views w))%nat) by (rewrite (vo_length _ V); eapply nth_lt; eauto). pose proof (vo_view _ V i LT) as VV.
    destruct l; try discriminate L; injection L as ->; cbn [step with_phase s_recs] in S; rewrite J in S; destruct r as [b p pc]; destruct pc; try discriminate S;
      unfold owes in O; cbn in O, A.
    + exfalso. apply negb_false_iff, Z.eqb_eq in O. lia.
    + exfalso. apply negb_false_iff, Z.eqb_eq in O. lia.
    + exfalso. apply NE. auto.
  - exists r. split; auto. destruct l; try discriminate L; injection L as ->; cbn [step with_phase s_recs] in S;
      (destruct (nth_error (s_recs (w_st w)) j) as [[b p pc]|] eqn:K; [|discriminate S]); destruct pc; try discriminate S; injection S as <-;
      cbn [put_rec put_lock with_phase s_recs]; rewrite put_other by auto; exact J.
Qed.
(*EX
(** the hypotheses of the last four *)
Example ex_C74_hypotheses : match build U64 1 1000 2 false [] with
  | Some h =>
      let tr := [(RRecorder, 0); (RRecorder, 0); (RRecorder, 0); (RStart false, 0); (REmpty, 0); (RRead, 0); (RShift, 0);
                 (LWrite 0 (ORecord 7 1), 0); (LLoad 0, 1); (LFinish 0, 0); (RRecv, 0); (LIdle 2, 0); (LIdleLoad 2, 1); (LIdleEnd 2, 0);
                 (LWrite 1 (ORecord 8 1), 0); (LLoad 1, 0); (LFinish 1, 0); (LWrite 1 (ORecord 9 1), 0)] in
      let tr2 := [(LLoad 1, 1); (LWake 2, 0); (LWakeEnd 2, 1); (LFinish 1, 0)] in
      match wexec (winit h) tr with
      | Some w => wrun h tr w /\ merged_untouched (acts tr) /\ guards_dropped (acts tr) /\ merge_safe h /\ walong widles_outside (winit h) tr /\
          shifts (acts tr) <= usize_max /\ s_reader (w_st w) = RWait false 3 1 /\ w_now w = 1 /\ map (owes (s_phase (w_st w))) (s_recs (w_st w)) = [false; true; false] /\
          match wexec w tr2 with
          | Some w2 => wrun h (tr ++ tr2) w2 /\ Forall in_call (acts tr2) /\ walong widles_outside (winit h) (tr ++ tr2) /\
              s_reader (w_st w2) = RWait false 3 1 /\ (forall r, In r (s_recs (w_st w2)) -> owes (s_phase (w_st w2)) r = false) /\
              Forall refresh_step [RRecv; RRecv; RDone; REmpty] /\
              match wexec w2 [(RRecv, 0); (RRecv, 0); (RDone, 0); (REmpty, 0)] with Some w3 => s_reader (w_st w3) = RReady | None => False end
          | None => False end
      | None => False end
  | None => False end.
Proof. sync_case. Qed.
EX*)

(** [smooth] alone is not enough for [C74_barrier]: no recorder becomes idle or wakes up between the reader's
    lines 316 and 319, but recorder 1 wakes up just after line 319 without seeing that the phase has moved.
    Its next call sees it, and recorder 1 sends its histogram, which the reader takes for that of recorder 0:
    [refresh] returns without the value recorder 0 has recorded.  (This is the run of
    [C43_missed_sample_refuted] where recorder 1 wakes up a little earlier, as another thread may see it: the
    window lasts until the recorder that wakes up sees the phase move.) *)
Lemma C74_missed_late_wake_refuted_proof : exists h0 tr1 w1 tr2 w2 c, wrun h0 tr1 w1 /\ merged_untouched (acts tr1) /\ guards_dropped (acts tr1) /\
  synced (w_st w1) /\
  wexec w1 ((RStart false, 0) :: tr2) = Some w2 /\ Forall in_call (acts tr2) /\
  walong (fun w a => smooth (w_st w) (fst a)) w1 ((RStart false, 0) :: tr2) /\ s_reader (w_st w2) = RReady /\
  In c (s_history (w_st w1)) /\ (exists r, nth_error (s_recs (w_st w1)) (c_rec c) = Some r /\ recording r) /\
  ~ In (LIdle (c_rec c)) (acts tr2) /\
  ~ In c (b_log (s_merged (w_st w2))).
Proof.
  set (tr1 := [(RRecorder, 0); (RRecorder, 0); (LIdle 1, 0); (LIdleLoad 1, 0); (LIdleEnd 1, 0); (LWrite 0 (ORecord 7 1), 0); (LLoad 0, 0); (LFinish 0, 0)]).
  set (tr2 := [(REmpty, 0); (RRead, 0); (RShift, 0); (LWake 1, 0); (LWakeEnd 1, 0); (LWrite 1 (ORecord 9 1), 0); (LLoad 1, 1); (LFinish 1, 0);
               (RRecv, 0); (RDone, 0); (REmpty, 0)]).
  set (c := Call 0 0 (ORecord 7 1) true).
  assert (X : match build U64 1 1000 2 false [] with
              | Some h => match wexec (winit h) tr1 with
                          | Some w1 => match wexec w1 ((RStart false, 0) :: tr2) with
                              | Some w2 => h_ctr h = U64 /\ map r_pc (s_recs (w_st w1)) = [PReady; PIdle] /\
                                            map r_phase (s_recs (w_st w1)) = [0; 0] /\ s_phase (w_st w1) = 0 /\
                                            s_reader (w_st w2) = RReady /\ s_history (w_st w1) = [c] /\ map c_rec (b_log (s_merged (w_st w2))) = [1%nat] /\
                                            walong (fun w a => match fst a with
                                                               | LWake _ => match s_reader (w_st w) with RBump _ _ => False | _ => True end
                                                               | _ => True end) w1 ((RStart false, 0) :: tr2)
                              | None => False end
                          | None => False end
              | None => False end) by (vm_compute; auto 20).
  destruct (build _ _ _ _ _ _) as [h|] eqn:B; [|contradiction]. destruct (wexec _ tr1) as [w1|] eqn:E1; [|contradiction].
  destruct (wexec w1 _) as [w2|] eqn:E2; [|contradiction]. destruct X as (CT & X1 & X2 & X3 & X4 & X5 & X6 & X7).
  exists h, tr1, w1, tr2, w2, c.
  destruct (s_recs (w_st w1)) as [|r0 [|r1 [|]]] eqn:RS; try discriminate. cbn in X1, X2. injection X1 as P0 P1. injection X2 as Q0 Q1.
  split; [split; [exact (build_reachable _ _ _ _ _ _ _ B)|split; [|exact E1]]|].
  { rewrite CT. unfold tr1. repeat constructor; cbn; unfold u64_max; lia. }
  split; [intros x; unfold tr1; cbn; intuition discriminate|]. split; [intros x; unfold tr1; cbn; intuition discriminate|].
  split.
  { intros r I. rewrite RS in I. unfold seen. rewrite X3. destruct I as [<-|[<-|[]]]; [rewrite P0|rewrite P1]; auto. }
  split; [exact E2|]. split; [unfold tr2; repeat constructor|]. split.
  { assert (IMP : forall tr (w : wstate), Forall (fun a => match fst a with LForget _ | LDrop _ | LDropEnd _ | RTimeout | LIdle _ | LClone _ => False | _ => True end) tr ->
      walong (fun w a => match fst a with LWake _ => match s_reader (w_st w) with RBump _ _ => False | _ => True end | _ => True end) w tr ->
      walong (fun w a => smooth (w_st w) (fst a)) w tr).
    { clear. induction tr as [|[l k] tr IH]; intros w F A; [exact I|]. inversion F; subst. cbn [walong] in *. destruct A as [A1 A2]. split.
      - cbn [fst] in *. destruct l; cbn; auto; try contradiction. intros (t & n & X). rewrite X in A1. exact A1.
      - destruct (wstep w (l, k)); auto. }
    apply IMP; [unfold tr2; repeat constructor|exact X7]. }
  split; auto. split; [rewrite X5; cbn; auto|].
  split; [exists r0; split; [reflexivity|unfold recording; rewrite P0; exact I]|].
  split; [unfold tr2; cbn; intuition discriminate|]. intros I'. apply (in_map c_rec) in I'. rewrite X6 in I'. destruct I' as [I'|[]]. discriminate I'.
Qed.

(** And [idles_outside] alone is not enough for [C74_waits_for_someone]: a recorder becomes idle while the
    reader already waits for it, but without seeing that the phase has moved, and so sends nothing.  Even if
    from then on every load returns the latest value, [refresh] never returns, however often the recorder
    wakes up and records, unless it is dropped or cloned. *)
Lemma C74_blocked_refuted_proof : exists h0 tr w, wrun h0 tr w /\ guards_dropped (acts tr) /\
  walong (fun v a => idles_outside (w_st v) (fst a)) (winit h0) tr /\ map r_pc (s_recs (w_st w)) = [PIdle] /\
  s_reader (w_st w) = RWait false 1 0 /\
  (forall tr2 w2, wexec w tr2 = Some w2 -> walong up_to_date w tr2 ->
     Forall (fun l => match l with LDrop _ | LClone _ | LForget _ => False | _ => True end) (acts tr2) ->
     s_reader (w_st w2) = RWait false 1 0) /\
  (exists tr3 w3, wexec w tr3 = Some w3 /\ walong up_to_date w tr3 /\ length (writes (acts tr3)) = 3%nat).
Proof.
  set (tr := [(RRecorder, 0); (RStart false, 0); (REmpty, 0); (RRead, 0); (RShift, 0); (LIdle 0, 0); (LIdleLoad 0, 0); (LIdleEnd 0, 0)]).
  set (p := [(LWrite 0 (ORecord 7 1), 0); (LLoad 0, 1); (LFinish 0, 0)]).
  set (tr3 := [(LWake 0, 0); (LWakeEnd 0, 1)] ++ p ++ p ++ p).
  assert (X : match build U64 1 1000 2 false [] with
              | Some h => match wexec (winit h) tr with
                          | Some w => map r_pc (s_recs (w_st w)) = [PIdle] /\ s_reader (w_st w) = RWait false 1 0 /\ s_chan (w_st w) = [] /\
                                       w_now w = 1 /\
                                       walong (fun v a => match fst a with LIdleLoad _ => match s_reader (w_st v) with RBump _ _ => False | _ => True end | _ => True end) (winit h) tr /\
                                       match wexec w tr3 with Some _ => True | None => False end
                          | None => False end
              | None => False end) by (vm_compute; auto 20).
  destruct (build _ _ _ _ _ _) as [h|] eqn:B; [|contradiction]. destruct (wexec _ tr) as [w|] eqn:E1; [|contradiction].
  destruct X as (X1 & X2 & X3 & XN & X4 & X5). exists h, tr, w.
  split; [split; [exact (build_reachable _ _ _ _ _ _ _ B)|split; [|exact E1]]|].
  { unfold tr. repeat constructor. }
  split; [intros x; unfold tr; cbn; intuition discriminate|]. split.
  { revert X4. generalize (winit h), tr. clear. intros w tr. revert w. induction tr as [|[l k] tr IH]; intros w A; [exact I|]. cbn [walong] in *. destruct A as [A1 A2]. split.
    - cbn [fst] in *. destruct l; cbn; auto. intros (t & n & X). rewrite X in A1. exact A1.
    - destruct (wstep w (l, k)); auto. }
  split; auto. split; auto. split.
  2:{ destruct (wexec w tr3) as [w3|] eqn:E3; [|contradiction]. exists tr3, w3. split; [exact E3|]. split; [|reflexivity].
      assert (NOW : forall tr w w', w_now w = 1 -> Forall (fun a => fst a <> RShift /\ (is_load (fst a) -> snd a = 1)) tr -> wexec w tr = Some w' -> walong up_to_date w tr).
      { clear. induction tr as [|[l k] tr IH]; intros w w' N F E; [exact I|]. inversion F as [|? ? [F1 F2] F']; subst. cbn [wexec walong] in *. destruct (wstep w (l, k)) as [v|] eqn:S; [|discriminate].
        cbn [fst snd] in *. split; [unfold up_to_date; cbn [fst snd]; intros L; rewrite N; auto|]. apply (IH v w'); auto. rewrite (now_step _ _ _ _ S), N. destruct l; try reflexivity. congruence. }
      apply (NOW tr3 w w3 XN); [|exact E3]. unfold tr3, p. cbn [app]. repeat constructor; cbn; try discriminate; intros []. }
  intros tr2 w2 E A F.
  assert (I0 : blocked (w_st w)).
  { split; auto. split; auto. destruct (s_recs (w_st w)) as [|r [|]]; try discriminate. cbn in X1. constructor; [|constructor].
    injection X1 as X1. unfold seen. rewrite X1. split; [exact I|discriminate]. }
  assert (E' : exec (w_st w) (acts tr2) = Some (w_st w2)) by (apply current_exec; auto; apply (wok_run _ _ _ E1)).
  assert (H : blocked (w_st w2)) by (apply (exec_ind blocked _ (w_st w) (acts tr2) (w_st w2) blocked_step); auto). destruct H; auto.
Qed.
