(** * C84: the concurrent histogram with a usize of another width *)
From Coq Require Import Permutation.
From Verif Require Import Machine Log2Model HistModel Bins ListZ Wf Ops AddFacts Spec Reach Witness PfMerge SyncModel SyncSpec SyncOps SyncFacts SyncRefresh PfSync
  LiveSpec LiveFacts PfLive PfDeliver EventSpec EventFacts PfEvent WeakModel WeakSpec WeakFacts PfWeak ReleaseSyncModel ReleaseSyncSpec ReleaseSyncFacts LooseFacts WidthSyncModel WidthSyncSpec WidthSyncFacts.
(*PROPS-IMPORTS Machine Log2Model HistModel Spec Reach Witness Cases CasesSync SyncModel SyncSpec LiveSpec EventSpec WeakModel WeakSpec WidthSyncModel WidthSyncSpec CasesWidthSync *)
(*PROPS-HEADER
From Coq Require Import Permutation.
PROPS-HEADER*)

(** *)
Lemma nnow_step B w l k w' : nstep B w (l, k) = Some w' -> nviews B w -> w_now w' = w_now w + shifts [l].
Proof.
  intros E (A1 & A2 & A3 & A4). destruct (load_of l) as [i|] eqn:L.
  - destruct (nstep_load _ _ _ _ _ _ L E) as (_ & s' & _ & ->). cbn [w_now]. rewrite shifts_one. destruct l; try discriminate L; lia.
  - destruct (nstep_other _ _ _ _ _ L E) as [(_ & w1 & S & ->)|(_ & w1 & S & ->)]; destruct (wviews_keep _ _ _ _ L S A1 A2 A3) as (_ & _ & _ & V);
      cbn [at_count at_phase w_now] in *; rewrite V, shifts_one; destruct l; lia.
Qed.
Lemma nnow B h0 tr w : 32 <= B <= 64 -> nexec B (winit h0) tr = Some w -> w_now w = shifts (acts tr).
Proof.
  intros W. revert w. induction tr as [|[l k] tr IH] using rev_ind; intros w E; [cbn in E; injection E as <-; reflexivity|].
  apply nexec_snoc in E. destruct E as (w1 & E1 & E2). rewrite acts_app, shifts_app, (nnow_step _ _ _ _ _ E2 (nviews_run B h0 tr w1 W E1)), (IH _ E1). reflexivity.
Qed.
Lemma wviews64 h0 tr w : wexec (winit h0) tr = Some w -> nviews 64 w.
Proof.
  intros E. destruct (wok_run _ _ _ E) as [[V1 V2 V3 V4 V5 V6] _]. split; [exact V1|]. split; [exact V3|]. split; [|exact V2].
  intros i. destruct (Nat.lt_ge_cases i (length (w_views w))) as [L|L]; [apply V4; exact L|]. unfold view. rewrite nth_overflow by exact L. lia.
Qed.
Lemma nrecs B w l k w' : nstep B w (l, k) = Some w' -> (length (s_recs (w_st w)) <= length (s_recs (w_st w')))%nat.
Proof.
  intros E. apply (loose_lift (fun s => (length (s_recs (w_st w)) <= length (s_recs s))%nat) (w_st w) l (w_st w')); auto; [|eapply nstep_loose; eauto].
  intros s s' L S. pose proof (recs_grow _ _ _ S). lia.
Qed.

(** ** C84.  The concurrent histogram with a usize of another width *)
(** As long as there are fewer than 2^B refreshes and fewer than 2^B - 1 recorders, the executions on a target
    with a usize of [B] bits are those on a 64-bit target, so everything said about those holds. *)
Lemma C84_same_proof : forall B h0 tr w, 32 <= B <= 64 -> shifts (acts tr) < 2 ^ B -> Z.of_nat (length (s_recs (w_st w))) < 2 ^ B - 1 ->
  (nrun B h0 tr w <-> wrun h0 tr w).
Proof.
  intros B h0 tr w W SH LN.
  assert (X : nexec B (winit h0) tr = Some w <-> wexec (winit h0) tr = Some w).
  { revert w SH LN. induction tr as [|[l k] tr IH] using rev_ind; intros w SH LN; [split; auto|]. rewrite acts_app, shifts_app in SH. pose proof (shifts_nonneg (acts [(l, k)])) as S0.
    split; intros E.
    - apply nexec_snoc in E. destruct E as (w1 & E1 & E2). pose proof (nrecs _ _ _ _ _ E2) as LE. pose proof (nviews_run B h0 tr w1 W E1) as V.
      pose proof (nnow_step _ _ _ _ _ E2 V) as N1. pose proof (nnow B h0 tr w1 W E1) as N0. destruct (ncount B h0 tr w1 W E1) as [C1 _]. pose proof (counted_le (s_recs (w_st w1))) as C2. unfold zlen in C2.
      assert (E1w : wexec (winit h0) tr = Some w1) by (apply IH; [lia|lia|exact E1]). rewrite wexec_app, E1w. cbn [wexec].
      rewrite (proj1 (nsame_step B w1 l k w W ltac:(lia) ltac:(cbn in SH; lia) V (wviews64 h0 tr w1 E1w)) E2). reflexivity.
    - apply wexec_snoc in E. destruct E as (w1 & E1 & E2).
      assert (LE : (length (s_recs (w_st w1)) <= length (s_recs (w_st w)))%nat).
      { apply (wstep_lift (fun s => (length (s_recs (w_st w1)) <= length (s_recs s))%nat) w1 l k w); auto. intros s s' L S. pose proof (recs_grow _ _ _ S). lia. }
      assert (E1n : nexec B (winit h0) tr = Some w1) by (apply IH; [lia|lia|exact E1]). pose proof (nviews_run B h0 tr w1 W E1n) as V. pose proof (nnow B h0 tr w1 W E1n) as N0.
      destruct (ncount B h0 tr w1 W E1n) as [C1 _]. pose proof (counted_le (s_recs (w_st w1))) as C2. unfold zlen in C2.
      assert (N1 : w_now w = w_now w1 + shifts [l]).
      { destruct V as (A1 & A2 & A3 & _). destruct (load_of l) as [i|] eqn:L.
        - destruct (wstep_load _ _ _ _ _ L E2) as (_ & s' & _ & ->). cbn [w_now]. rewrite shifts_one. destruct l; try discriminate L; lia.
        - destruct (wviews_keep _ _ _ _ L E2 A1 A2 A3) as (_ & _ & _ & VV). rewrite VV, shifts_one. destruct l; lia. }
      rewrite nexec_app, E1n. cbn [nexec].
      rewrite (proj2 (nsame_step B w1 l k w W ltac:(lia) ltac:(cbn in SH; lia) V (wviews64 h0 tr w1 E1)) E2). reflexivity. }
  split; [intros (_ & R & F & E)|intros (R & F & E)]; (repeat split; auto; try lia); apply X; exact E.
Qed.

(*EX
(** with 32 bits: two recorders; the second one has handed over, gone idle and is waking up, the first has not seen the new phase *)
Example ex_C84_same : match build U64 1 1000 2 false [(5, 2)] with
  | Some h =>
      let tr := [(RRecorder, 0); (LClone 0, 0); (RStart false, 0); (REmpty, 0); (RRead, 0); (RShift, 0);
                 (LWrite 0 (ORecord 7 1), 0); (LLoad 0, 0); (LFinish 0, 0); (LWrite 1 (ORecord 9 4), 0); (LLoad 1, 1); (LFinish 1, 0); (RRecv, 0);
                 (LIdle 1, 0); (LIdleLoad 1, 1); (LIdleEnd 1, 0); (LWake 1, 0)] in
      match nexec 32 (winit h) tr with
      | Some w => shifts (acts tr) < 2 ^ 32 /\ Z.of_nat (length (s_recs (w_st w))) < 2 ^ 32 - 1 /\ nrun 32 h tr w /\ wrun h tr w /\
          s_reader (w_st w) = RWait false 2 1 /\ s_count (w_st w) = 2
      | None => False end
  | None => False end.
Proof. nsync_case. Qed.
EX*)

(** In any case no sample is lost or counted twice: every call is in exactly one place. *)
Lemma C84_every_call_in_one_place_proof : forall B h0 tr w, nrun B h0 tr w -> merged_untouched (acts tr) -> reader_alive (w_st w) ->
  Permutation (b_log (s_merged (w_st w)) ++ flat_map b_log (s_chan (w_st w)) ++ flat_map (fun r => b_log (r_local r)) (s_recs (w_st w)))
    (s_history (w_st w)) /\
  map c_id (s_history (w_st w)) = seq 0 (length (s_history (w_st w))) /\
  map (fun c => (c_rec c, c_op c)) (s_history (w_st w)) = writes (acts tr).
Proof.
  intros B h0 tr w RN U A. pose proof (nrun_loose _ _ _ _ RN) as (R & F & E). split; [|apply (lhistory h0 _ _ E)]. apply (lplaced h0 _ _ (untouched_not_set _ U) E A).
Qed.

(*EX
(** one call is merged, one is on its way, one is in a local histogram *)
Example ex_C84_one_place : match build U64 1 1000 2 false [(5, 2)] with
  | Some h =>
      let tr := [(RRecorder, 0); (LClone 0, 0); (RStart true, 0); (REmpty, 0); (RRead, 0); (RShift, 0);
                 (LWrite 0 (ORecord 7 1), 0); (LLoad 0, 0); (LFinish 0, 0); (LWrite 1 (ORecord 9 4), 0); (LLoad 1, 1); (LFinish 1, 0); (RRecv, 0);
                 (RTimeout, 0); (REmpty, 0); (RStart true, 0); (REmpty, 0); (RRead, 0); (RShift, 0); (LWrite 1 (ORecord 3 1), 0); (LLoad 1, 2); (LFinish 1, 0)] in
      match nexec 32 (winit h) tr with
      | Some w => nrun 32 h tr w /\ merged_untouched (acts tr) /\ reader_alive (w_st w) /\
          map c_id (b_log (s_merged (w_st w))) = [1]%nat /\ map (fun b => map c_id (b_log b)) (s_chan (w_st w)) = [[2]]%nat /\
          map (fun r => map c_id (b_log (r_local r))) (s_recs (w_st w)) = [[0]; []]%nat /\ map c_rec (s_history (w_st w)) = [0; 1; 1]%nat
      | None => False end
  | None => False end.
Proof. nsync_case. Qed.
EX*)

(** And every histogram contains the samples of its calls. *)
Lemma C84_contents_proof : forall B h0 tr w, nrun B h0 tr w -> merged_untouched (acts tr) -> only_adds_samples (acts tr) ->
  reader_alive (w_st w) -> no_saturation h0 (samples (s_history (w_st w))) ->
  holds_over h0 (b_hist (s_merged (w_st w))) (samples (b_log (s_merged (w_st w)))) /\
  (forall b, In b (s_chan (w_st w)) -> holds h0 (b_hist b) (samples (b_log b))) /\
  (forall r, In r (s_recs (w_st w)) -> holds h0 (b_hist (r_local r)) (samples (b_log (r_local r)))).
Proof.
  intros B h0 tr w RN U AD A NS. pose proof (C84_every_call_in_one_place_proof B h0 tr w RN U A) as (P & _). pose proof (nrun_loose _ _ _ _ RN) as LR.
  apply contents_core; auto; [apply LR|apply (lhistory_ok h0 _ _ LR)|apply (lfilled h0 _ _ LR U AD)].
Qed.

(*EX
(** the same histogram, and what the refresh has merged so far *)
Example ex_C84_contents : match build U64 1 1000 2 false [(5, 2)] with
  | Some h =>
      let tr := [(RRecorder, 0); (LClone 0, 0); (RStart false, 0); (REmpty, 0); (RRead, 0); (RShift, 0);
                 (LWrite 0 (ORecord 7 1), 0); (LLoad 0, 0); (LFinish 0, 0); (LWrite 1 (ORecord 9 4), 0); (LLoad 1, 1); (LFinish 1, 0); (RRecv, 0);
                 (LIdle 1, 0); (LIdleLoad 1, 1); (LIdleEnd 1, 0); (LWake 1, 0)] in
      match nexec 32 (winit h) tr with
      | Some w => nrun 32 h tr w /\ merged_untouched (acts tr) /\ only_adds_samples (acts tr) /\ reader_alive (w_st w) /\
          no_saturation h (samples (s_history (w_st w))) /\ held (b_hist (s_merged (w_st w))) = [(5, 2); (9, 4)]
      | None => False end
  | None => False end.
Proof. nsync_case. Qed.
EX*)

(** Nor does a refresh panic. *)
Lemma C84_refresh_never_panics_proof : forall B h0 tr w, nrun B h0 tr w -> merged_untouched (acts tr) -> merge_safe h0 ->
  s_reader (w_st w) <> RPanicked.
Proof. intros B h0 tr w RN U SF. apply (lno_panic h0 _ _ (nrun_loose _ _ _ _ RN) U SF). Qed.

(*EX
(** a refresh that has merged one histogram and waits for another *)
Example ex_C84_never_panics : match build U64 1 1000 2 false [(5, 2)] with
  | Some h =>
      let tr := [(RRecorder, 0); (LClone 0, 0); (RStart false, 0); (REmpty, 0); (RRead, 0); (RShift, 0);
                 (LWrite 0 (ORecord 7 1), 0); (LLoad 0, 0); (LFinish 0, 0); (LWrite 1 (ORecord 9 4), 0); (LLoad 1, 1); (LFinish 1, 0); (RRecv, 0);
                 (LIdle 1, 0); (LIdleLoad 1, 1); (LIdleEnd 1, 0); (LWake 1, 0)] in
      match nexec 32 (winit h) tr with
      | Some w => nrun 32 h tr w /\ merged_untouched (acts tr) /\ merge_safe h /\ s_reader (w_st w) = RWait false 2 1
      | None => False end
  | None => False end.
Proof. nsync_case. Qed.
EX*)

(** The shared count fits a usize.  Unless guards of idle recorders are forgotten it is the number of recorders in
    use, and the mutex is poisoned only after [usize::MAX] recorders.  Recorder [i] holds the mutex exactly while
    it is inside its critical section, and whoever holds it can go on. *)
Lemma C84_count_proof : forall B h0 tr w, nrun B h0 tr w ->
  0 <= s_count (w_st w) <= 2 ^ B - 1 /\
  (guards_dropped (acts tr) -> s_count (w_st w) = active_recorders (w_st w) /\
     (Z.of_nat (length (s_recs (w_st w))) < 2 ^ B - 1 -> s_lock (w_st w) <> Poisoned)) /\
  (forall i r, nth_error (s_recs (w_st w)) i = Some r ->
     (s_lock (w_st w) = Held i <-> in_section r = true) /\
     (s_lock (w_st w) = Held i -> exists l k w', section_step i l /\ nstep B w (l, k) = Some w')).
Proof.
  intros B h0 tr w RN. pose proof RN as (W & R & F & E). pose proof (nrun_loose _ _ _ _ RN) as LR. split; [apply (ncount B h0 tr w W E)|]. split.
  - intros G. destruct (nexact B h0 tr w W (dropped_not_forget _ G) E) as [C1 C2]. rewrite active_sum. split; [exact C1|]. intros L P. specialize (C2 P). lia.
  - intros i r I. destruct (mutex_core (h_ctr h0) (w_st w) i r (llock_ok h0 _ _ (proj2 (proj2 LR))) (ltyped h0 _ _ LR) I) as [X Y]. split; [exact X|].
    intros L. destruct (Y L) as (l & st' & Z1 & S).
    destruct (step_nstep B w l st' W (nviews_run B h0 tr w W E)) as (w' & N); [destruct Z1 as [->|[->|[->| ->]]]; reflexivity|exact S|]. exists l, (w_now w), w'. auto.
Qed.

(*EX
(** the second recorder is waking up and holds the mutex *)
Example ex_C84_count : match build U64 1 1000 2 false [(5, 2)] with
  | Some h =>
      let tr := [(RRecorder, 0); (LClone 0, 0); (RStart false, 0); (REmpty, 0); (RRead, 0); (RShift, 0);
                 (LWrite 0 (ORecord 7 1), 0); (LLoad 0, 0); (LFinish 0, 0); (LWrite 1 (ORecord 9 4), 0); (LLoad 1, 1); (LFinish 1, 0); (RRecv, 0);
                 (LIdle 1, 0); (LIdleLoad 1, 1); (LIdleEnd 1, 0); (LWake 1, 0)] in
      match nexec 32 (winit h) tr with
      | Some w => nrun 32 h tr w /\ guards_dropped (acts tr) /\ Z.of_nat (length (s_recs (w_st w))) < 2 ^ 32 - 1 /\ s_lock (w_st w) = Held 1 /\
          s_count (w_st w) = 2 /\ active_recorders (w_st w) = 2
      | None => False end
  | None => False end.
Proof. nsync_case. Qed.
EX*)

(** *)
Lemma nexec_lift B (I : state -> Prop) (Q : label -> Prop) w tr w' :
  (forall s l s', I s -> Q l -> step s l = Some s' -> I s') -> (forall s p, I s -> I (with_phase s p)) -> (forall s c, I s -> I (put_count s c)) ->
  I (w_st w) -> Forall Q (acts tr) -> nexec B w tr = Some w' -> I (w_st w').
Proof. intros H1 H2 H3 H4 H5 E. apply (lexec_lift I Q (w_st w) (acts tr) (w_st w')); auto. eapply nexec_loose; eauto. Qed.
Lemma nphase_differs B n m : 32 <= B <= 64 -> 1 <= m - n <= 2 ^ B - 1 -> phase_b B m <> phase_b B n.
Proof.
  intros W H X. pose proof (width_range B W). unfold phase_b in X.
  assert (Y : (m - n) mod 2 ^ B = 0) by (rewrite Zminus_mod, X, Z.sub_diag; apply Z.mod_0_l; lia).
  rewrite Z.mod_small in Y by lia. lia.
Qed.
(** If recorder [i] reads value number [n1] of the phase and, the next time it reads the phase, a newer one
    (number [n2], newer by less than 2^B), and it has not woken from idle in between, every call made on [i]
    before the second look is in no local histogram once [i] has completed that step, however many refreshes
    there have been. *)
Lemma C84_handed_over_proof : forall B h0 t0 look1 n1 tb look2 n2 tc fin m td w1 w2 i c,
  nrun B h0 (t0 ++ (look1, n1) :: tb ++ (look2, n2) :: tc ++ (fin, m) :: td) w2 -> nexec B (winit h0) (t0 ++ (look1, n1) :: tb) = Some w1 ->
  In c (s_history (w_st w1)) -> c_rec c = i ->
  looks i look1 -> looks i look2 -> (fin = LFinish i \/ fin = LIdleEnd i) ->
  (forall l, In l (acts tb) -> ~ looks i l /\ l <> LWakeEnd i) -> 1 <= n2 - n1 <= 2 ^ B - 1 ->
  forall r, In r (s_recs (w_st w2)) -> ~ In c (b_log (r_local r)).
Proof.
  intros B h0 t0 look1 n1 tb look2 n2 tc fin m td w1 w2 i c (W & R & F & E) E1 H CI L1 L2 FN NW SH.
  assert (OWN : own (w_st w2)).
  { apply (nexec_lift B own (fun _ => True) (winit h0) _ w2) with (6 := E); auto using all_true.
    - intros s l s' I _ S. eapply own_step; eauto.
    - intros [|j] r x X; discriminate. }
  assert (ALL : out i c (w_st w2) -> forall r, In r (s_recs (w_st w2)) -> ~ In c (b_log (r_local r))).
  { intros X r I IN. apply In_nth_error in I. destruct I as [j J]. pose proof (OWN j r c J IN) as Y. rewrite CI in Y. subst j. apply (X r J IN). }
  apply ALL. clear ALL OWN.
  pose proof E1 as E1'. apply nexec_cut in E1'. destruct E1' as (s0 & s1 & X1 & X2 & X3).
  replace (t0 ++ (look1, n1) :: tb ++ (look2, n2) :: tc ++ (fin, m) :: td) with ((t0 ++ (look1, n1) :: tb) ++ (look2, n2) :: tc ++ (fin, m) :: td) in E
    by (rewrite <- app_assoc; reflexivity).
  apply nexec_cut in E. destruct E as (s3 & s4 & E3 & S4 & E). assert (s3 = w1) by congruence. subst s3.
  apply nexec_cut in E. destruct E as (s5 & s6 & E5 & S6 & E).
  assert (LF : load_of fin = None) by (destruct FN as [-> | ->]; reflexivity).
  assert (LK1 : load_of look1 = Some i) by (destruct L1 as [-> | ->]; reflexivity).
  assert (LK2 : load_of look2 = Some i) by (destruct L2 as [-> | ->]; reflexivity).
  assert (OLD : forall tr w w', nexec B w tr = Some w' -> old c (w_st w) -> old c (w_st w')).
  { intros tr w w' EX O. apply (nexec_lift B (old c) (fun _ => True) w tr w'); auto using all_true. intros s l s' O1 _ S. eapply old_step; eauto. }
  assert (O3 : old c (w_st w1)).
  { destruct (lhistory h0 _ _ (nexec_loose _ _ _ _ E1)) as [HH _]. apply (in_map c_id) in H. rewrite HH in H. apply in_seq in H. unfold old. lia. }
  assert (O4 : old c (w_st s4)) by (apply (OLD [(look2, n2)] w1); auto; cbn [nexec]; rewrite S4; reflexivity).
  assert (RM : remembers i (phase_b B n1) (w_st w1)).
  { apply (nexec_lift B (remembers i (phase_b B n1)) (fun l => ~ looks i l /\ l <> LWakeEnd i) s1 tb w1); auto.
    - intros s l s' RM1 [Q1 Q2] S. eapply remembers_step; eauto.
    - destruct (nstep_load _ _ _ _ _ _ LK1 X2) as (_ & s' & S & ->). exact (look_remembers i _ look1 s' L1 S).
    - apply Forall_forall. exact NW. }
  assert (L4 : leaving i c (w_st s4)).
  { destruct (nstep_load _ _ _ _ _ _ LK2 S4) as (_ & s' & S & ->). exact (look_leaving i _ c (with_phase (w_st w1) (phase_b B n2)) look2 s' L2 S RM (nphase_differs B n1 n2 W SH)). }
  assert (L5 : old c (w_st s5) /\ leaving i c (w_st s5)).
  { apply (nexec_lift B (fun s => old c s /\ leaving i c s) (fun _ => True) s4 tc s5); auto using all_true.
    intros s l s7 [O L] _ S. split; [eapply old_step; eauto|eapply leaving_step; eauto]. }
  destruct L5 as [O5 L5]. destruct (nstep_loose _ _ _ _ _ S6) as (p & cc & s7 & q & cc' & S7 & EQ).
  assert (O6 : old c (w_st s6) /\ out i c (w_st s6)).
  { rewrite EQ. pose proof (old_step c _ _ _ (O5 : old c (put_count (with_phase (w_st s5) p) cc)) S7) as O7. split; [exact O7|].
    exact (proj2 (leaving_step i c _ fin s7 S7 (O5 : old c (put_count (with_phase (w_st s5) p) cc)) (L5 : leaving i c (put_count (with_phase (w_st s5) p) cc))) FN). }
  apply (nexec_lift B (fun s => old c s /\ out i c s) (fun _ => True) s6 td w2); auto using all_true.
  intros s l s' [O7 X7] _ S. split; [eapply old_step; eauto|]. apply (out_exec i c [l] s); auto. cbn. rewrite S. reflexivity.
Qed.

(*EX
(** with 32 bits: the recorder reads number 0 in a call with 7; two refreshes time out; then the recorder makes a call
    with 9, reads number 1 although 2 is the latest, and hands over both calls *)
Example ex_C84_handed_over : match build U64 1 1000 2 false [] with
  | Some h =>
      let t0 := [(RRecorder, 0); (LWrite 0 (ORecord 7 1), 0)] in
      let tb := (LFinish 0, 0) :: widle_refresh ++ widle_refresh ++ [(LWrite 0 (ORecord 9 1), 0)] in
      let tr := t0 ++ (LLoad 0, 0) :: tb ++ (LLoad 0, 1) :: [] ++ (LFinish 0, 0) :: [] in
      match nexec 32 (winit h) (t0 ++ (LLoad 0, 0) :: tb), nexec 32 (winit h) tr with
      | Some w1, Some w2 => nrun 32 h tr w2 /\ map (fun r => length (b_log (r_local r))) (s_recs (w_st w1)) = [2]%nat /\ w_now w1 = 2 /\
          map (fun r => b_log (r_local r)) (s_recs (w_st w2)) = [[]] /\ map b_log (s_chan (w_st w2)) = [s_history (w_st w1)]
      | _, _ => False end
  | None => False end.
Proof. nsync_case. Qed.
EX*)

(** *)
Lemma nexec_plain B w l k w1 w2 tr r : load_of l = None -> counts l = 0 -> wstep w (l, k) = Some w1 ->
  at_phase w1 (phase_b B (s_phase (w_st w1))) = w2 -> nexec B w2 tr = r -> nexec B w ((l, k) :: tr) = r.
Proof.
  intros L C S A E. cbn [nexec].
  assert (N : nstep B w (l, k) = Some w2) by (unfold nstep, overflows; rewrite C, S; cbn [Z.eqb andb]; rewrite A; destruct l; try discriminate L; reflexivity).
  rewrite N. exact E.
Qed.
Lemma nexec_idle B h0 b q hs k v lk : 32 <= B <= 64 ->
  nexec B (WState (State (Box h0 []) [] Free 1 (phase_b B k) [Rec b q PReady] RReady hs) k [v] lk) widle_refresh =
  Some (WState (State (Box h0 []) [] Free 1 (phase_b B (k + 1)) [Rec b q PReady] RReady hs) (k + 1) [v] k).
Proof.
  intros W. pose proof (width_range B W) as WR.
  assert (P1 : phase_b B (phase_b B k) = phase_b B k) by (unfold phase_b; apply Z.mod_mod; lia).
  assert (P2 : phase_b B ((phase_b B k + 1) mod (usize_max + 1)) = phase_b B (k + 1)) by (apply phase_mod; exact W).
  assert (P3 : phase_b B (phase_b B (k + 1)) = phase_b B (k + 1)) by (unfold phase_b; apply Z.mod_mod; lia).
  revert P1 P2 P3. generalize (phase_b B k) (phase_b B (k + 1)). intros p p' P1 P2 P3.
  unfold widle_refresh, idle_refresh. cbn [map].
  do 3 (eapply nexec_plain; [reflexivity|reflexivity|cbn [wstep step w_st s_reader s_chan s_lock s_count put_reader s_phase s_merged s_recs s_history w_now w_views w_lock]; reflexivity|unfold at_phase, with_phase; cbn [w_st s_phase put_reader s_reader s_chan s_lock s_count s_merged s_recs s_history w_now w_views w_lock]; rewrite P1; reflexivity|]).
  eapply nexec_plain; [reflexivity|reflexivity|cbn [wstep step w_st s_reader s_chan s_lock s_count put_reader s_phase s_merged s_recs s_history w_now w_views w_lock]; reflexivity|unfold at_phase, with_phase; cbn [w_st s_phase put_reader s_reader s_chan s_lock s_count s_merged s_recs s_history w_now w_views w_lock]; rewrite P2; reflexivity|].
  do 2 (eapply nexec_plain; [reflexivity|reflexivity|cbn [wstep step w_st s_reader s_chan s_lock s_count put_reader s_phase s_merged s_recs s_history w_now w_views w_lock]; reflexivity|unfold at_phase, with_phase; cbn [w_st s_phase put_reader s_reader s_chan s_lock s_count s_merged s_recs s_history w_now w_views w_lock]; rewrite P3; reflexivity|]).
  reflexivity.
Qed.
Lemma nexec_idles B h0 b q hs v n : 32 <= B <= 64 -> forall k lk, exists lk',
  nexec B (WState (State (Box h0 []) [] Free 1 (phase_b B k) [Rec b q PReady] RReady hs) k [v] lk) (concat (repeat widle_refresh n)) =
  Some (WState (State (Box h0 []) [] Free 1 (phase_b B (k + Z.of_nat n)) [Rec b q PReady] RReady hs) (k + Z.of_nat n) [v] lk').
Proof.
  intros W. induction n as [|n IH]; intros k lk.
  - exists lk. cbn [repeat concat nexec Z.of_nat]. rewrite Z.add_0_r. reflexivity.
  - destruct (IH (k + 1) k) as (lk' & E). exists lk'. cbn [repeat concat]. rewrite nexec_app, nexec_idle, E by exact W.
    replace (k + 1 + Z.of_nat n) with (k + Z.of_nat (Datatypes.S n)) by lia. reflexivity.
Qed.
Lemma nexec_call B h0 k hs b o h' ok v lk : 32 <= B <= 64 -> v <= k -> phase_b B k = 0 -> apply_op (b_hist b) o = Ret (h', ok) ->
  let c := Call (length hs) 0 o ok in
  nexec B (WState (State (Box h0 []) [] Free 1 0 [Rec b 0 PReady] RReady hs) k [v] lk) (wone_call k o) =
  Some (WState (State (Box h0 []) [] Free 1 0 [Rec (Box h' (b_log b ++ [c])) 0 PReady] RReady (hs ++ [c])) k [k] lk).
Proof.
  intros W VK PK EO c. unfold wone_call. assert (Z0 : phase_b B 0 = 0) by (pose proof (width_range B W); apply Z.mod_0_l; lia).
  set (b' := Box h' (b_log b ++ [c])). set (S1 pc := State (Box h0 []) [] Free 1 0 [Rec b' 0 pc] RReady (hs ++ [c])).
  assert (A1 : nstep B (WState (State (Box h0 []) [] Free 1 0 [Rec b 0 PReady] RReady hs) k [v] lk) (LWrite 0 o, 0) = Some (WState (S1 PWrote) k [v] lk)).
  { cbn [nstep overflows counts Z.eqb andb wstep step w_st s_recs nth_error r_pc r_local]. rewrite EO. unfold at_phase, with_phase. cbn [w_st s_phase put_rec]. rewrite Z0. reflexivity. }
  assert (A2 : nstep B (WState (S1 PWrote) k [v] lk) (LLoad 0, k) = Some (WState (S1 (PLoaded 0)) k [k] lk)).
  { cbn [nstep w_views w_now w_st w_lock]. change (view [v] 0) with v. rewrite (proj2 (Z.leb_le v k) VK), Z.leb_refl, PK. reflexivity. }
  assert (A3 : nstep B (WState (S1 (PLoaded 0)) k [k] lk) (LFinish 0, 0) = Some (WState (S1 PReady) k [k] lk)).
  { cbn [nstep overflows counts Z.eqb andb wstep w_st]. change (step (S1 (PLoaded 0)) (LFinish 0)) with (Some (S1 PReady)).
    unfold at_phase, with_phase. cbn [w_st S1 s_phase]. rewrite Z0. reflexivity. }
  cbn [nexec]. rewrite A1, A2, A3. reflexivity.
Qed.
Lemma nidles_ok T n : Forall (label_ok T) (acts (concat (repeat widle_refresh n))).
Proof. induction n as [|n IH]; cbn [repeat concat]; [constructor|]. rewrite acts_app. apply Forall_app. split; [repeat constructor|exact IH]. Qed.
Lemma napart B h0 n : 32 <= B <= 64 -> reachable h0 -> Z.of_nat n = 2 ^ B -> forall os b hs k v lk,
  Forall (op_ok (h_ctr h0)) os -> reachable (b_hist b) -> h_ctr (b_hist b) = h_ctr h0 -> phase_b B k = 0 -> v <= k ->
  Forall (label_ok (h_ctr h0)) (acts (calls_apart n k os)) /\
  exists w, nexec B (WState (State (Box h0 []) [] Free 1 0 [Rec b 0 PReady] RReady hs) k [v] lk) (calls_apart n k os) = Some w /\
    s_reader (w_st w) = RReady /\ (length (s_history (w_st w)) = length hs + length os)%nat /\ s_merged (w_st w) = Box h0 [] /\ s_chan (w_st w) = [].
Proof.
  intros W R N. induction os as [|o os IH]; intros b hs k v lk F RB CB PK VK.
  - split; [constructor|]. eexists. split; [reflexivity|]. cbn. repeat split; auto; lia.
  - inversion F as [|? ? OK F']; subst. pose proof OK as OK'. rewrite <- CB in OK'. destruct (op_facts _ o RB OK') as (h' & ok & EO & RH & SHP & _). pose proof (ss_ctr _ _ SHP) as CH.
    set (c := Call (length hs) 0 o ok). pose proof (nexec_call B h0 k hs b o h' ok v lk W VK PK EO) as EC. fold c in EC.
    destruct (nexec_idles B h0 (Box h' (b_log b ++ [c])) 0 (hs ++ [c]) k n W k lk) as (lk' & EI). rewrite PK, N in EI.
    pose proof (width_range B W) as WR.
    assert (P2 : phase_b B (k + 2 ^ B) = 0) by (unfold phase_b in *; rewrite <- (Z.mul_1_l (2 ^ B)) at 1; rewrite Z.mod_add by lia; exact PK). rewrite P2 in EI.
    destruct (IH (Box h' (b_log b ++ [c])) (hs ++ [c]) (k + 2 ^ B) k lk' F' RH ltac:(cbn [b_hist]; congruence) P2 ltac:(lia)) as (FL & w & EW & A1 & A2 & A3 & A4).
    cbn [calls_apart]. rewrite N. split.
    + rewrite !acts_app. apply Forall_app. split; [repeat constructor; exact OK|]. apply Forall_app. split; [apply nidles_ok|exact FL].
    + exists w. rewrite nexec_app, EC, nexec_app, EI, EW. repeat split; auto. rewrite A2, app_length. cbn [length]. lia.
Qed.
(** The bound is needed.  A recorder that makes one call after every 2^B refreshes (which time out) and always reads
    the latest phase sees the same phase each time, as the phase has wrapped around, and never hands anything
    over.  On a 32-bit target that is after 2^32 refreshes. *)
Lemma C84_wrap_refuted_proof : forall B h0 os, 32 <= B <= 64 -> reachable h0 -> Forall (op_ok (h_ctr h0)) os ->
  exists w, nrun B h0 ((RRecorder, 0) :: calls_apart (Z.to_nat (2 ^ B)) 0 os) w /\
            s_reader (w_st w) = RReady /\ length (s_history (w_st w)) = length os /\ s_merged (w_st w) = Box h0 [] /\ s_chan (w_st w) = [].
Proof.
  intros B h0 os W R F. pose proof (width_range B W) as WR.
  assert (N : Z.of_nat (Z.to_nat (2 ^ B)) = 2 ^ B) by (apply Z2Nat.id; lia). revert N. generalize (Z.to_nat (2 ^ B)). intros n N.
  assert (Z0 : phase_b B 0 = 0) by (apply Z.mod_0_l; lia).
  destruct (new_from_reach _ R) as (m & E & RM & SHP & _). pose proof (ss_ctr _ _ SHP) as CM.
  destruct (napart B h0 n W R N os (Box m []) [] 0 0 0 F RM CM Z0 ltac:(lia)) as (FL & w & EW & A1 & A2 & A3 & A4).
  exists w. split; [|auto]. split; [exact W|]. split; [exact R|]. split; [constructor; [exact Logic.I|exact FL]|].
  assert (A : nstep B (winit h0) (RRecorder, 0) = Some (WState (State (Box h0 []) [] Free 1 0 [Rec (Box m []) 0 PReady] RReady []) 0 [0] 0)).
  { assert (OV : overflows B (winit h0) RRecorder = false) by (unfold overflows; change (s_count (w_st (winit h0))) with 0; rewrite (proj2 (Z.eqb_neq 0 (2 ^ B - 1))) by lia; reflexivity).
    cbn [nstep]. rewrite OV.
    cbn; unfold push_rec; cbn; rewrite E. unfold at_phase, with_phase. cbn [w_st s_phase]. rewrite Z0. reflexivity. }
  cbn [nexec]. rewrite A. exact EW.
Qed.
(*EX
(** the same with a phase of two bits, two calls four refreshes apart; with three refreshes between them the second
    call would hand both over *)
Example ex_C84_wrap_refuted : match build U64 1 1000 2 false [] with
  | Some h => match nexec 2 (winit h) ((RRecorder, 0) :: calls_apart 4 0 [ORecord 7 1; ORecord 9 2]), 
      nexec 2 (winit h) ((RRecorder, 0) :: wone_call 0 (ORecord 7 1) ++ concat (repeat widle_refresh 3) ++ wone_call 3 (ORecord 9 2)) with
    | Some w, Some v => length (s_history (w_st w)) = 2%nat /\ w_now w = 8 /\ s_chan (w_st w) = [] /\ s_merged (w_st w) = Box h [] /\
        map (fun b => map c_id (b_log b)) (s_chan (w_st v)) = [[0; 1]]%nat
    | _, _ => False end
  | None => False end.
Proof. nsync_case. Qed.
EX*)

