(** * C85: the concurrent histogram in builds without overflow checks, with a usize of 32 to 64 bits *)
From Coq Require Import Permutation.
From Verif Require Import Machine Log2Model HistModel Bins ListZ Wf Ops AddFacts Spec Reach Witness PfMerge SyncModel SyncSpec SyncOps SyncFacts SyncRefresh PfSync
  LiveSpec LiveFacts PfDeliver WeakModel WeakSpec WeakFacts ReleaseSyncModel ReleaseSyncSpec ReleaseSyncFacts LooseFacts WidthSyncModel WidthSyncSpec WidthSyncFacts PfWidthSync
  WidthReleaseModel WidthReleaseSpec WidthReleaseFacts.
(*PROPS-IMPORTS Machine Log2Model HistModel Spec Reach Witness Cases CasesSync SyncModel SyncSpec LiveSpec WeakModel WeakSpec ReleaseSyncModel ReleaseSyncSpec WidthSyncModel WidthSyncSpec WidthReleaseModel WidthReleaseSpec CasesWidthRelease *)
(*PROPS-HEADER
From Coq Require Import Permutation.
PROPS-HEADER*)

(** *)
Lemma none_forgotten tr : guards_dropped (acts tr) -> forgotten (acts tr) = 0.
Proof.
  intros G. unfold forgotten. unfold guards_dropped in G. induction (acts tr) as [|l t IH]; [reflexivity|].
  cbn [filter]. destruct l; try (apply IH; intros j J; apply (G j); right; exact J). destruct (G i). left. reflexivity.
Qed.
Lemma poisoned_stays s l s' : lock_ok s -> s_lock s = Poisoned -> step s l = Some s' -> s_lock s' = Poisoned.
Proof.
  intros [A _] P S. destruct l; step_cases S; cbn; rewrite ?send_lock; cbn; try exact P; try congruence;
    try (match goal with K : nth_error _ _ = Some _ |- _ => specialize (A _ _ K eq_refl); congruence end);
    try (destruct (receive_fields _ _ _ S) as (_ & -> & _); exact P).
Qed.
(** with 64 bits *)
Lemma n64 w l k : nviews 64 w -> overflows 64 w l = false -> nstep 64 w (l, k) = wstep w (l, k).
Proof.
  intros V O. destruct (load_of l) as [i|] eqn:LO.
  - destruct l; try discriminate LO; reflexivity.
  - rewrite (nplain 64 w l k LO O). destruct (wstep w (l, k)) as [w1|] eqn:S; [|reflexivity]. f_equal.
    assert (N : nstep 64 w (l, k) = Some (at_phase w1 (phase_b 64 (s_phase (w_st w1))))) by (rewrite (nplain 64 w l k LO O), S; reflexivity).
    assert (X : phase_b 64 (s_phase (w_st w1)) = s_phase (w_st w1)).
    { destruct V as (_ & _ & _ & V4). pose proof (wstep_other _ _ _ _ LO S) as ST.
      assert (Y : s_phase (w_st w1) = s_phase (w_st w) \/ s_phase (w_st w1) = (s_phase (w_st w) + 1) mod (usize_max + 1)).
      { pose proof (proj2 (proj2 (bumps _ _ _ ST))) as PH. rewrite PH. destruct l; auto. }
      unfold phase_b in *. change (usize_max + 1) with (2 ^ 64) in Y. destruct Y as [-> | ->]; [rewrite V4|]; apply Z.mod_mod; lia. }
    rewrite X. destruct w1 as [[] ? ? ?]. reflexivity.
Qed.
Lemma m64 w l k : nviews 64 w -> mstep 64 w (l, k) = rstep w (l, k).
Proof.
  intros V. unfold mstep, rstep. cbn [fst]. destruct (Z.eqb_spec (counts l) 0) as [Q|Q].
    - apply n64; [exact V|]. unfold overflows. rewrite Q. reflexivity.
    - rewrite (n64 (at_count w 1) l k V (overflows_one 64 w l ltac:(lia))). change (usize_max + 1) with (2 ^ 64). reflexivity.
Qed.

(** ** C85.  The concurrent histogram in builds without overflow checks, with a usize of 32 to 64 bits *)
(** As long as no guard of an idle recorder is forgotten and there are fewer than 2^B - 1 recorders, the
    executions are those of a checked build for the same target, so everything said about those (C84) holds. *)
Lemma C85_same_proof : forall B h0 tr w, guards_dropped (acts tr) -> Z.of_nat (length (s_recs (w_st w))) < 2 ^ B - 1 ->
  (mrun B h0 tr w <-> nrun B h0 tr w).
Proof.
  intros B h0 tr w G L.
  assert (GC : forall a b, guards_dropped (acts (a ++ b)) -> guards_dropped (acts a)) by (intros a b X i I; apply (X i); rewrite acts_app; apply in_app_iff; auto).
  split; intros (W & R & F & E); pose proof (width_range B W) as WR; (split; [exact W|split; [exact R|split; [exact F|]]]).
  - clear R F. revert w L E. induction tr as [|[l k] tr IH] using rev_ind; intros w L E; [exact E|].
    apply mexec_snoc in E. destruct E as (w1 & E1 & E2). pose proof (mrecs _ _ _ _ _ E2) as LE. pose proof (GC _ _ G) as G1.
    rewrite nexec_app, (IH G1 w1 ltac:(lia) E1). cbn [nexec]. rewrite (msame_from _ _ _ _ _ W E2); [reflexivity|].
    pose proof (mcount _ _ _ _ W E1) as C1. rewrite (none_forgotten _ G1), Z.sub_0_r in C1. pose proof (active_le (w_st w1)) as A1.
    assert (A0 : 0 <= active_recorders (w_st w1)) by (unfold active_recorders; lia).
    rewrite Z.mod_small in C1 by lia. destruct (mstep_active _ _ _ _ _ W E2 (mnot_poisoned _ _ _ _ W E1)) as (A2 & _). pose proof (active_le (w_st w)) as A3.
    assert (A4 : 0 <= active_recorders (w_st w)) by (unfold active_recorders; lia).
    assert (F0 : forgotten [l] = 0) by (change [l] with (acts [(l, k)]); apply none_forgotten; intros i I; apply (G i); rewrite acts_app; apply in_app_iff; auto). lia.
  - clear R F. revert w L E. induction tr as [|[l k] tr IH] using rev_ind; intros w L E; [exact E|].
    pose proof E as EX. apply nexec_snoc in E. destruct E as (w1 & E1 & E2). pose proof (GC _ _ G) as G1. pose proof (nrecs _ _ _ _ _ E2) as LE.
    rewrite mexec_app, (IH G1 w1 ltac:(lia) E1). cbn [mexec]. rewrite (msame_to _ _ _ _ _ W (ncount B h0 tr w1 W E1) E2); [reflexivity|].
    destruct (nexact B h0 _ w W (dropped_not_forget _ G) EX) as [_ X]. intros P. specialize (X P). lia.
Qed.
(*EX
(** two recorders; the second one has handed over, gone idle and is waking up, the first has not seen the new phase *)
Example ex_C85_same : match build U64 1 1000 2 false [(5, 2)] with
  | Some h =>
      let tr := [(RRecorder, 0); (LClone 0, 0); (RStart false, 0); (REmpty, 0); (RRead, 0); (RShift, 0);
                 (LWrite 0 (ORecord 7 1), 0); (LLoad 0, 0); (LFinish 0, 0); (LWrite 1 (ORecord 9 4), 0); (LLoad 1, 1); (LFinish 1, 0); (RRecv, 0);
                 (LIdle 1, 0); (LIdleLoad 1, 1); (LIdleEnd 1, 0); (LWake 1, 0)] in
      match mexec 32 (winit h) tr with
      | Some w => guards_dropped (acts tr) /\ Z.of_nat (length (s_recs (w_st w))) < (2 ^ 32 - 1) /\ mrun 32 h tr w /\ nrun 32 h tr w /\
          s_reader (w_st w) = RWait false 2 1 /\ s_count (w_st w) = 2
      | None => False end
  | None => False end.
Proof. msync_case. Qed.
EX*)

(** In any case it executes whatever a checked build executes without having poisoned the mutex. *)
Lemma C85_as_checked_proof : forall B h0 tr w, nrun B h0 tr w -> s_lock (w_st w) <> Poisoned -> mrun B h0 tr w.
Proof.
  intros B h0 tr w (W & R & F & E) L. split; [exact W|split; [exact R|split; [exact F|]]]. clear R F. revert w L E. induction tr as [|[l k] tr IH] using rev_ind; intros w L E; [exact E|].
  apply nexec_snoc in E. destruct E as (w1 & E1 & E2).
  assert (L1 : s_lock (w_st w1) <> Poisoned).
  { intros P. pose proof (llock_ok h0 (acts tr) (w_st w1) (nexec_loose B (winit h0) _ _ E1)) as A. apply L.
    destruct (nstep_loose _ _ _ _ _ E2) as (p & c & s1 & q & c' & S & ->). exact (poisoned_stays (put_count (with_phase (w_st w1) p) c) l s1 A P S). }
  rewrite mexec_app, (IH w1 L1 E1). cbn [mexec]. rewrite (msame_to _ _ _ _ _ W (ncount B h0 tr w1 W E1) E2 L). reflexivity.
Qed.
(*EX
(** one guard forgotten, but two recorders: the number is 0, one less than there are, and has not wrapped around *)
Example ex_C85_as_checked : match build U64 1 1000 2 false [(5, 2)] with
  | Some h =>
      let tr := [(RRecorder, 0); (RRecorder, 0); (LWrite 0 (ORecord 7 1), 0); (LLoad 0, 0); (LFinish 0, 0); (LIdle 0, 0); (LIdleLoad 0, 0); (LIdleEnd 0, 0);
                 (LForget 0, 0); (LWrite 0 (ORecord 8 2), 0); (LLoad 0, 0); (LFinish 0, 0); (LDrop 0, 0); (LDropEnd 0, 0);
                 (LWrite 1 (ORecord 9 4), 0); (LLoad 1, 0); (LFinish 1, 0)] in
      match mexec 32 (winit h) tr with
      | Some w => nrun 32 h tr w /\ s_lock (w_st w) <> Poisoned /\ mrun 32 h tr w /\ s_count (w_st w) = 0 /\ active_recorders (w_st w) = 1
      | None => False end
  | None => False end.
Proof. msync_case. Qed.
EX*)

(** With 64 bits the executions are those of C83, with forgotten guards and any number of recorders and refreshes. *)
Lemma C85_same_64_proof : forall h0 tr w, mrun 64 h0 tr w <-> rrun h0 tr w.
Proof.
  intros h0 tr w.
  pose proof m64 as ST.
  assert (X : forall w, mexec 64 (winit h0) tr = Some w <-> rexec (winit h0) tr = Some w).
  { clear - ST. induction tr as [|[l k] tr IH] using rev_ind; intros w; [split; auto|]. split; intros E.
    - apply mexec_snoc in E. destruct E as (w1 & E1 & E2). rewrite rexec_app, (proj1 (IH w1) E1). cbn [rexec].
      rewrite <- (ST w1 l k (mviews_run 64 h0 tr w1 ltac:(lia) E1)), E2. reflexivity.
    - apply rexec_snoc in E. destruct E as (w1 & E1 & E2). pose proof (proj2 (IH w1) E1) as E1m. rewrite mexec_app, E1m. cbn [mexec].
      rewrite (ST w1 l k (mviews_run 64 h0 tr w1 ltac:(lia) E1m)), E2. reflexivity. }
  split; [intros (_ & R & F & E)|intros (R & F & E)]; (repeat split; auto; try lia); apply X; exact E.
Qed.
(*EX
(** the last recorder is being dropped and has made the number of recorders wrap around; a checked build has poisoned the mutex *)
Example ex_C85_same_64 : match build U64 1 1000 2 false [(5, 2)] with
  | Some h =>
      let tr := [(RRecorder, 0); (RRecorder, 0); (LWrite 0 (ORecord 7 1), 0); (LLoad 0, 0); (LFinish 0, 0); (LIdle 0, 0); (LIdleLoad 0, 0); (LIdleEnd 0, 0);
                 (LForget 0, 0); (LWrite 0 (ORecord 8 2), 0); (LLoad 0, 0); (LFinish 0, 0); (LDrop 0, 0); (LDropEnd 0, 0);
                 (LWrite 1 (ORecord 9 4), 0); (LLoad 1, 0); (LFinish 1, 0); (LDrop 1, 0)] in
      match mexec 64 (winit h) tr with
      | Some w => mrun 64 h tr w /\ rrun h tr w /\ s_count (w_st w) = usize_max /\
          match wexec (winit h) tr with Some v => s_lock (w_st v) = Poisoned | None => False end /\
          map (fun b => map c_id (b_log b)) (s_chan (w_st w)) = [[0; 1]]%nat /\
          map (fun r => map c_id (b_log (r_local r))) (s_recs (w_st w)) = [[]; [2]]%nat /\ map c_rec (s_history (w_st w)) = [0; 0; 1]%nat
      | None => False end
  | None => False end.
Proof. msync_case. Qed.
EX*)

(** No sample is lost or counted twice, forgotten guards or not: every call is in exactly one place. *)
Lemma C85_every_call_in_one_place_proof : forall B h0 tr w, mrun B h0 tr w -> merged_untouched (acts tr) -> reader_alive (w_st w) ->
  Permutation (b_log (s_merged (w_st w)) ++ flat_map b_log (s_chan (w_st w)) ++ flat_map (fun r => b_log (r_local r)) (s_recs (w_st w)))
    (s_history (w_st w)) /\
  map c_id (s_history (w_st w)) = seq 0 (length (s_history (w_st w))) /\
  map (fun c => (c_rec c, c_op c)) (s_history (w_st w)) = writes (acts tr).
Proof.
  intros B h0 tr w RN U A. pose proof (mrun_loose _ _ _ _ RN) as (R & F & E). split; [|apply (lhistory h0 _ _ E)]. apply (lplaced h0 _ _ (untouched_not_set _ U) E A).
Qed.
(*EX
(** the last recorder is being dropped and has made the number of recorders wrap around; a checked build has poisoned the mutex *)
Example ex_C85_one_place : match build U64 1 1000 2 false [(5, 2)] with
  | Some h =>
      let tr := [(RRecorder, 0); (RRecorder, 0); (LWrite 0 (ORecord 7 1), 0); (LLoad 0, 0); (LFinish 0, 0); (LIdle 0, 0); (LIdleLoad 0, 0); (LIdleEnd 0, 0);
                 (LForget 0, 0); (LWrite 0 (ORecord 8 2), 0); (LLoad 0, 0); (LFinish 0, 0); (LDrop 0, 0); (LDropEnd 0, 0);
                 (LWrite 1 (ORecord 9 4), 0); (LLoad 1, 0); (LFinish 1, 0); (LDrop 1, 0)] in
      match mexec 32 (winit h) tr with
      | Some w => mrun 32 h tr w /\ merged_untouched (acts tr) /\ reader_alive (w_st w) /\ s_count (w_st w) = (2 ^ 32 - 1) /\
          match nexec 32 (winit h) tr with Some v => s_lock (w_st v) = Poisoned | None => False end /\
          map (fun b => map c_id (b_log b)) (s_chan (w_st w)) = [[0; 1]]%nat /\
          map (fun r => map c_id (b_log (r_local r))) (s_recs (w_st w)) = [[]; [2]]%nat /\ map c_rec (s_history (w_st w)) = [0; 0; 1]%nat
      | None => False end
  | None => False end.
Proof. msync_case. Qed.
EX*)

(** And every histogram contains the samples of its calls. *)
Lemma C85_contents_proof : forall B h0 tr w, mrun B h0 tr w -> merged_untouched (acts tr) -> only_adds_samples (acts tr) ->
  reader_alive (w_st w) -> no_saturation h0 (samples (s_history (w_st w))) ->
  holds_over h0 (b_hist (s_merged (w_st w))) (samples (b_log (s_merged (w_st w)))) /\
  (forall b, In b (s_chan (w_st w)) -> holds h0 (b_hist b) (samples (b_log b))) /\
  (forall r, In r (s_recs (w_st w)) -> holds h0 (b_hist (r_local r)) (samples (b_log (r_local r)))).
Proof.
  intros B h0 tr w RN U AD A NS. pose proof (C85_every_call_in_one_place_proof B h0 tr w RN U A) as (P & _). pose proof (mrun_loose _ _ _ _ RN) as LR.
  apply contents_core; auto; [apply RN|apply (lhistory_ok h0 _ _ LR)|apply (lfilled h0 _ _ LR U AD)].
Qed.
(*EX
(** the same, and a refresh that waits for 2^32 - 1 histograms has got all there are *)
Example ex_C85_contents : match build U64 1 1000 2 false [(5, 2)] with
  | Some h =>
      let tr := [(RRecorder, 0); (RRecorder, 0); (LWrite 0 (ORecord 7 1), 0); (LLoad 0, 0); (LFinish 0, 0); (LIdle 0, 0); (LIdleLoad 0, 0); (LIdleEnd 0, 0);
                 (LForget 0, 0); (LWrite 0 (ORecord 8 2), 0); (LLoad 0, 0); (LFinish 0, 0); (LDrop 0, 0); (LDropEnd 0, 0);
                 (LWrite 1 (ORecord 9 4), 0); (LLoad 1, 0); (LFinish 1, 0); (LDrop 1, 0); (LDropEnd 1, 0); (RStart true, 0); (RRecv, 0); (RRecv, 0); (REmpty, 0); (RRead, 0); (RShift, 0)] in
      match mexec 32 (winit h) tr with
      | Some w => mrun 32 h tr w /\ merged_untouched (acts tr) /\ only_adds_samples (acts tr) /\ reader_alive (w_st w) /\
          no_saturation h (samples (s_history (w_st w))) /\
          s_reader (w_st w) = RWait true (2 ^ 32 - 1) 0 /\ held (b_hist (s_merged (w_st w))) = [(5, 2); (7, 1); (8, 2); (9, 4)]
      | None => False end
  | None => False end.
Proof. msync_case. Qed.
EX*)

(** Nor does a refresh panic. *)
Lemma C85_refresh_never_panics_proof : forall B h0 tr w, mrun B h0 tr w -> merged_untouched (acts tr) -> merge_safe h0 ->
  s_reader (w_st w) <> RPanicked.
Proof. intros B h0 tr w RN U SF. exact (lno_panic h0 (acts tr) (w_st w) (mrun_loose _ _ _ _ RN) U SF). Qed.
(*EX
(** a refresh that waits for 2^32 - 1 histograms *)
Example ex_C85_never_panics : match build U64 1 1000 2 false [(5, 2)] with
  | Some h =>
      let tr := [(RRecorder, 0); (RRecorder, 0); (LWrite 0 (ORecord 7 1), 0); (LLoad 0, 0); (LFinish 0, 0); (LIdle 0, 0); (LIdleLoad 0, 0); (LIdleEnd 0, 0);
                 (LForget 0, 0); (LWrite 0 (ORecord 8 2), 0); (LLoad 0, 0); (LFinish 0, 0); (LDrop 0, 0); (LDropEnd 0, 0);
                 (LWrite 1 (ORecord 9 4), 0); (LLoad 1, 0); (LFinish 1, 0); (LDrop 1, 0); (LDropEnd 1, 0); (RStart true, 0); (RRecv, 0); (RRecv, 0); (REmpty, 0); (RRead, 0); (RShift, 0)] in
      match mexec 32 (winit h) tr with
      | Some w => mrun 32 h tr w /\ merged_untouched (acts tr) /\ merge_safe h /\ s_reader (w_st w) = RWait true (2 ^ 32 - 1) 0
      | None => False end
  | None => False end.
Proof. msync_case. Qed.
EX*)

(** The mutex is never poisoned; recorder [i] holds it exactly while it is inside its critical section, and
    whoever holds it can go on.  The number of recorders is off by the number of forgotten guards, modulo
    2^B. *)
Lemma C85_count_proof : forall B h0 tr w, mrun B h0 tr w ->
  s_lock (w_st w) <> Poisoned /\ s_count (w_st w) = (active_recorders (w_st w) - forgotten (acts tr)) mod 2 ^ B /\
  (forall i r, nth_error (s_recs (w_st w)) i = Some r ->
     (s_lock (w_st w) = Held i <-> in_section r = true) /\
     (s_lock (w_st w) = Held i -> exists l k w', section_step i l /\ mstep B w (l, k) = Some w')).
Proof.
  intros B h0 tr w RN. pose proof RN as (W & R & F & E). pose proof (mrun_loose _ _ _ _ RN) as LR. split; [apply (mnot_poisoned _ _ _ _ W E)|]. split; [apply (mcount _ _ _ _ W E)|]. intros i r I.
  destruct (mutex_core (h_ctr h0) (w_st w) i r (llock_ok _ _ _ (proj2 (proj2 LR))) (ltyped h0 _ _ LR) I) as [A D]. split; [exact A|].
  intros L. destruct (D L) as (l & st' & X & S).
  assert (Q : counts l = 0) by (destruct X as [->|[->|[->| ->]]]; reflexivity).
  destruct (step_nstep B w l st' W (mviews_run B h0 tr w W E) Q S) as (w' & ST). exists l, (w_now w), w'. split; [exact X|]. unfold mstep. cbn [fst]. rewrite Q. exact ST.
Qed.
(*EX
(** no recorder is in use, one guard is forgotten, and the number has wrapped around; recorder 1 has the mutex *)
Example ex_C85_count : match build U64 1 1000 2 false [(5, 2)] with
  | Some h =>
      let tr := [(RRecorder, 0); (RRecorder, 0); (LWrite 0 (ORecord 7 1), 0); (LLoad 0, 0); (LFinish 0, 0); (LIdle 0, 0); (LIdleLoad 0, 0); (LIdleEnd 0, 0);
                 (LForget 0, 0); (LWrite 0 (ORecord 8 2), 0); (LLoad 0, 0); (LFinish 0, 0); (LDrop 0, 0); (LDropEnd 0, 0);
                 (LWrite 1 (ORecord 9 4), 0); (LLoad 1, 0); (LFinish 1, 0); (LDrop 1, 0)] in
      match mexec 32 (winit h) tr with
      | Some w => mrun 32 h tr w /\ s_count (w_st w) = (2 ^ 32 - 1) /\ active_recorders (w_st w) = 0 /\ forgotten (acts tr) = 1 /\ s_lock (w_st w) = Held 1 /\
          match mstep 32 w (LDropEnd 1, 0) with Some v => s_lock (w_st v) = Free | None => False end
      | None => False end
  | None => False end.
Proof. msync_case. Qed.
EX*)

(** A [refresh_timeout] is never stuck: it can go on, unless some recorder is inside its critical section. *)
Lemma C85_timeout_goes_on_proof : forall B h0 tr w, mrun B h0 tr w -> in_timed_refresh (w_st w) ->
  (exists l k w', refresh_step l /\ mstep B w (l, k) = Some w') \/ (exists i, s_lock (w_st w) = Held i).
Proof.
  intros B h0 tr w RN T. pose proof RN as (W & R & F & E). pose proof (mviews_run B h0 tr w W E) as OK. pose proof (mnot_poisoned _ _ _ _ W E) as NP.
  assert (GO : forall l, refresh_step l -> step (w_st w) l <> None -> exists l k w', refresh_step l /\ mstep B w (l, k) = Some w').
  { intros l RL S. destruct (step (w_st w) l) as [s'|] eqn:ST; [|congruence]. assert (Q : counts l = 0) by (destruct l; try contradiction RL; reflexivity).
    destruct (step_nstep B w l s' W OK Q ST) as (w' & X). exists l, (w_now w), w'. split; [exact RL|]. unfold mstep. cbn [fst]. rewrite Q. exact X. }
  assert (RC : forall next b q, s_chan (w_st w) = b :: q -> receive (w_st w) next <> None).
  { intros next b q C. unfold receive. rewrite C. destruct (merge (s_merged (w_st w)) b); discriminate. }
  unfold in_timed_refresh in T. destruct (s_reader (w_st w)) as [|t|t|t n|t n k| | |] eqn:RD; try contradiction.
  - left. destruct (s_chan (w_st w)) as [|b q] eqn:CH.
    + apply (GO REmpty Logic.I). cbn [step]. rewrite RD, CH. discriminate.
    + apply (GO RRecv Logic.I). cbn [step]. rewrite RD. apply (RC _ b q eq_refl).
  - destruct (s_lock (w_st w)) as [|i|] eqn:L; [left|right; exists i; reflexivity|contradiction].
    apply (GO RRead Logic.I). cbn [step]. rewrite RD, L. discriminate.
  - left. apply (GO RShift Logic.I). cbn [step]. rewrite RD. discriminate.
  - left. subst t. destruct (k <? n) eqn:KN.
    + apply (GO RTimeout Logic.I). cbn [step]. rewrite RD, KN. discriminate.
    + apply (GO RDone Logic.I). cbn [step]. rewrite RD, KN. discriminate.
  - left. destruct (s_chan (w_st w)) as [|b q] eqn:CH.
    + apply (GO REmpty Logic.I). cbn [step]. rewrite RD, CH. discriminate.
    + apply (GO RRecv Logic.I). cbn [step]. rewrite RD. apply (RC _ b q eq_refl).
Qed.
(*EX
(** a refresh that waits for 2^32 - 1 histograms, with nobody left to send one: it times out and returns *)
Example ex_C85_timeout : match build U64 1 1000 2 false [(5, 2)] with
  | Some h =>
      let tr := [(RRecorder, 0); (RRecorder, 0); (LWrite 0 (ORecord 7 1), 0); (LLoad 0, 0); (LFinish 0, 0); (LIdle 0, 0); (LIdleLoad 0, 0); (LIdleEnd 0, 0);
                 (LForget 0, 0); (LWrite 0 (ORecord 8 2), 0); (LLoad 0, 0); (LFinish 0, 0); (LDrop 0, 0); (LDropEnd 0, 0);
                 (LWrite 1 (ORecord 9 4), 0); (LLoad 1, 0); (LFinish 1, 0); (LDrop 1, 0); (LDropEnd 1, 0); (RStart true, 0); (RRecv, 0); (RRecv, 0); (REmpty, 0); (RRead, 0); (RShift, 0)] in
      match mexec 32 (winit h) tr with
      | Some w => mrun 32 h tr w /\ in_timed_refresh (w_st w) /\ s_reader (w_st w) = RWait true (2 ^ 32 - 1) 0 /\ s_chan (w_st w) = [] /\ all_dropped (w_st w) /\
          match mexec 32 w [(RTimeout, 0); (REmpty, 0)] with Some v => s_reader (w_st v) = RReady | None => False end
      | None => False end
  | None => False end.
Proof. msync_case. Qed.
EX*)

(** But a plain [refresh] can wait for ever: with 32 bits, after one forgotten guard, the number of recorders is
    2^32 - 1 once the recorder is dropped, and the next [refresh] waits for as many histograms.  Here nobody is
    left who could make a step. *)
Lemma C85_deadlock_refuted_proof : exists h0 tr w, mrun 32 h0 tr w /\ merged_untouched (acts tr) /\ In (LForget 0) (acts tr) /\ forgotten (acts tr) = 1 /\
  all_dropped (w_st w) /\ s_chan (w_st w) = [] /\ s_reader (w_st w) = RWait false (2 ^ 32 - 1) 0 /\
  forall l k, mstep 32 w (l, k) = None.
Proof.
  set (tr := [(RRecorder, 0); (LWrite 0 (ORecord 7 1), 0); (LLoad 0, 0); (LFinish 0, 0); (LIdle 0, 0); (LIdleLoad 0, 0); (LIdleEnd 0, 0); (LForget 0, 0);
              (LDrop 0, 0); (LDropEnd 0, 0); (RStart false, 0); (RRecv, 0); (REmpty, 0); (RRead, 0); (RShift, 0)]).
  assert (X : match build U64 1 1000 2 true [] with
              | Some h => h_ctr h = U64 /\ match mexec 32 (winit h) tr with
                  | Some w => map r_pc (s_recs (w_st w)) = [PGone] /\ s_chan (w_st w) = [] /\ s_reader (w_st w) = RWait false (2 ^ 32 - 1) 0
                  | None => False end
              | None => False end) by (vm_compute; auto).
  destruct (build _ _ _ _ _ _) as [h|] eqn:B; [|contradiction]. destruct X as [CT X]. destruct (mexec 32 (winit h) tr) as [w|] eqn:E; [|contradiction].
  destruct X as (X1 & X2 & X3). exists h, tr, w.
  split; [split; [lia|split; [exact (build_reachable _ _ _ _ _ _ _ B)|split; [|exact E]]]; unfold tr; cbn [acts map fst]; rewrite CT; repeat (apply Forall_cons; [cbn; try exact Logic.I; unfold is_u64, is_count, cmax, u64_max; lia|]); apply Forall_nil|].
  split; [intros x; unfold tr; cbn; intuition discriminate|]. split; [unfold tr; cbn; auto 20|]. split; [reflexivity|].
  destruct (s_recs (w_st w)) as [|[b p pc] [|? ?]] eqn:RC; try discriminate X1. cbn in X1. injection X1 as ->.
  split; [intros r I; rewrite RC in I; destruct I as [<-|[]]; reflexivity|]. split; [exact X2|]. split; [exact X3|].
  assert (NTH : forall i r, nth_error (s_recs (w_st w)) i = Some r -> r_pc r = PGone).
  { intros i r I. rewrite RC in I. destruct i as [|[|i]]; cbn in I; try discriminate I. injection I as <-. reflexivity. }
  assert (NONE : forall s l, s_recs s = s_recs (w_st w) -> s_chan s = [] -> s_reader s = RWait false (2 ^ 32 - 1) 0 -> step s l = None).
  { intros s l S1 S2 S3. rewrite <- S1 in NTH. destruct (step s l) as [s'|] eqn:ST; [exfalso|reflexivity].
    destruct l; step_cases ST; try congruence;
      try (match goal with K : nth_error _ _ = Some _ |- _ => specialize (NTH _ _ K); discriminate NTH end);
      try (unfold receive in ST; rewrite S2 in ST; discriminate ST).
    injection S3 as -> -> ->. discriminate. }
  intros l k. destruct (mstep 32 w (l, k)) as [w'|] eqn:S; [exfalso|reflexivity]. destruct (mstep_loose _ _ _ _ _ S) as (p' & c & s1 & q & c' & S1 & _).
  rewrite NONE in S1; [discriminate|reflexivity|exact X2|exact X3].
Qed.
