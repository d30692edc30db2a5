(** * C85: every sample is delivered in the end, without overflow checks and with a usize of 32 to 64 bits *)
From Coq Require Import Permutation.
From Verif Require Import Machine Log2Model HistModel Bins ListZ Wf Spec Reach Witness SyncModel SyncSpec SyncOps SyncFacts SyncRefresh PfSync LiveSpec LiveFacts PfLive PfDeliver
  EventSpec EventFacts PfEvent WeakModel WeakSpec WeakFacts PfWeak WeakLiveSpec PfWeakLive WeakEventSpec WeakEventFacts PfWeakEvent ReleaseSyncModel ReleaseSyncSpec ReleaseSyncFacts LooseFacts
  WidthSyncModel WidthSyncSpec WidthSyncFacts PfWidthSync WidthEventSpec WidthReleaseModel WidthReleaseSpec WidthReleaseFacts PfWidthReleaseLive.
(*PROPS-IMPORTS Machine Log2Model HistModel Spec Reach Witness Cases CasesSync SyncModel SyncSpec LiveSpec EventSpec WeakModel WeakSpec WeakLiveSpec WeakEventSpec ReleaseSyncModel ReleaseSyncSpec WidthSyncModel WidthSyncSpec WidthEventSpec WidthReleaseModel WidthReleaseSpec CasesWidthRelease WidthReleaseEventFacts *)

(** *)
Lemma mstep_load B w l k i w' : load_of l = Some i -> mstep B w (l, k) = Some w' ->
  view (w_views w) i <= k <= w_now w /\
  exists s', step (with_phase (w_st w) (phase_b B k)) l = Some s' /\
    w' = WState (with_phase s' (s_phase (w_st w))) (w_now w) (put_view (w_views w) i k)
           (match l with LWakeEnd _ => k | _ => w_lock w end).
Proof.
  intros L E. unfold mstep in E. cbn [fst] in E. assert (Q : counts l = 0) by (destruct l; try discriminate L; reflexivity). rewrite Q in E. exact (nstep_load B w l k i w' L E).
Qed.
Lemma mviews_step B w l k w' : 32 <= B <= 64 -> mstep B w (l, k) = Some w' -> nviews B w -> nviews B w'.
Proof. intros W E V. destruct (mstep_inv _ _ _ _ _ E) as (c & w1 & c' & S & -> & _). exact (nviews_step B (at_count w c) l k w1 W S V). Qed.
Lemma mnow_step B w l k w' : mstep B w (l, k) = Some w' -> nviews B w -> w_now w' = w_now w + shifts [l].
Proof. intros E V. destruct (mstep_inv _ _ _ _ _ E) as (c & w1 & c' & S & -> & _). exact (nnow_step B (at_count w c) l k w1 S V). Qed.
Lemma mexec_cut B w a x b w' : mexec B w (a ++ x :: b) = Some w' -> exists w1 w2, mexec B w a = Some w1 /\ mstep B w1 x = Some w2 /\ mexec B w2 b = Some w'.
Proof.
  rewrite mexec_app. destruct (mexec B w a) as [w1|]; [|discriminate]. cbn [mexec]. destruct (mstep B w1 x) as [w2|] eqn:S; [|discriminate].
  intros E. exists w1, w2. auto.
Qed.
Lemma mexec_lift B (I : state -> Prop) (Q : label -> Prop) w tr w' :
  (forall s l s', I s -> Q l -> step s l = Some s' -> I s') -> (forall s p, I s -> I (with_phase s p)) -> (forall s c, I s -> I (put_count s c)) ->
  I (w_st w) -> Forall Q (acts tr) -> mexec B w tr = Some w' -> I (w_st w').
Proof. intros H1 H2 H3 H4 H5 E. apply (lexec_lift I Q (w_st w) (acts tr) (w_st w')); auto. eapply mexec_loose; eauto. Qed.
Lemma mhistory_kept B tr : forall w w' c, mexec B w tr = Some w' -> In c (s_history (w_st w)) -> In c (s_history (w_st w')).
Proof.
  induction tr as [|[l k] tr IH]; intros w w' c E I; cbn [mexec] in E; [injection E as <-; exact I|].
  destruct (mstep B w (l, k)) as [w1|] eqn:S1; [|discriminate]. apply (IH w1 w' c E).
  destruct (lhistory_step _ _ _ (mstep_loose _ _ _ _ _ S1)) as [(-> & _)|(i & o & ok & _ & ->)]; [exact I|apply in_app_iff; auto].
Qed.
Lemma mviews_exec B tr : forall w w', 32 <= B <= 64 -> mexec B w tr = Some w' -> nviews B w -> nviews B w'.
Proof.
  induction tr as [|[l k] tr IH]; intros w w' W E V; cbn [mexec] in E; [injection E as <-; exact V|].
  destruct (mstep B w (l, k)) as [w1|] eqn:S1; [|discriminate]. apply (IH w1 w' W E). eapply mviews_step; eauto.
Qed.
Lemma mnow_mono B tr : forall w w', 32 <= B <= 64 -> mexec B w tr = Some w' -> nviews B w -> w_now w' = w_now w + shifts (acts tr).
Proof.
  induction tr as [|[l k] tr IH]; intros w w' W E V; cbn [mexec] in E; [injection E as <-; cbn; lia|].
  destruct (mstep B w (l, k)) as [w1|] eqn:S1; [|discriminate]. rewrite (IH w1 w' W E) by (eapply mviews_step; eauto).
  rewrite (mnow_step _ _ _ _ _ S1 V). change (acts ((l, k) :: tr)) with ([l] ++ acts tr). rewrite shifts_app. lia.
Qed.

Lemma mold_in B h0 tr w c : mexec B (winit h0) tr = Some w -> In c (s_history (w_st w)) -> old c (w_st w).
Proof. intros E I. destruct (lhistory h0 _ _ (mexec_loose _ _ _ _ E)) as [HH _]. apply (in_map c_id) in I. rewrite HH in I. apply in_seq in I. unfold old. lia. Qed.
Lemma mout_all B h0 tr w i c : mexec B (winit h0) tr = Some w -> c_rec c = i -> out i c (w_st w) ->
  forall r, In r (s_recs (w_st w)) -> ~ In c (b_log (r_local r)).
Proof.
  intros E CI X r I IN. apply In_nth_error in I. destruct I as [j J].
  assert (OWN : own (w_st w)).
  { apply (mexec_lift B own (fun _ => True) (winit h0) tr w) with (6 := E); auto using all_true.
    - intros s l s' O _ S. eapply own_step; eauto.
    - intros [|m] x y Y; discriminate. }
  pose proof (OWN j r c J IN) as Y. rewrite CI in Y. subst j. apply (X r J IN).
Qed.

(** ** C85, continued.  Every sample is delivered in the end *)
(** If recorder [i] reads value number [n1] of the phase and, the next time it reads the phase, a newer one
    (number [n2], newer by less than 2^B), and it has not woken from idle in between, every call made on [i]
    before the second look is in no local histogram once [i] has completed that step, however many refreshes
    there have been. *)
Lemma C85_handed_over_proof : forall B h0 t0 look1 n1 tb look2 n2 tc fin m td w1 w2 i c,
  mrun B h0 (t0 ++ (look1, n1) :: tb ++ (look2, n2) :: tc ++ (fin, m) :: td) w2 -> mexec B (winit h0) (t0 ++ (look1, n1) :: tb) = Some w1 ->
  In c (s_history (w_st w1)) -> c_rec c = i ->
  looks i look1 -> looks i look2 -> (fin = LFinish i \/ fin = LIdleEnd i) ->
  (forall l, In l (acts tb) -> ~ looks i l /\ l <> LWakeEnd i) -> 1 <= n2 - n1 <= 2 ^ B - 1 ->
  forall r, In r (s_recs (w_st w2)) -> ~ In c (b_log (r_local r)).
Proof.
  intros B h0 t0 look1 n1 tb look2 n2 tc fin m td w1 w2 i c (W & R & F & E) E1 H CI L1 L2 FN NW SH.
  assert (OWN : own (w_st w2)).
  { apply (mexec_lift B own (fun _ => True) (winit h0) _ w2) with (6 := E); auto using all_true.
    - intros s l s' I _ S. eapply own_step; eauto.
    - intros [|j] r x X; discriminate. }
  assert (ALL : out i c (w_st w2) -> forall r, In r (s_recs (w_st w2)) -> ~ In c (b_log (r_local r))).
  { intros X r I IN. apply In_nth_error in I. destruct I as [j J]. pose proof (OWN j r c J IN) as Y. rewrite CI in Y. subst j. apply (X r J IN). }
  apply ALL. clear ALL OWN.
  pose proof E1 as E1'. apply mexec_cut in E1'. destruct E1' as (s0 & s1 & X1 & X2 & X3).
  replace (t0 ++ (look1, n1) :: tb ++ (look2, n2) :: tc ++ (fin, m) :: td) with ((t0 ++ (look1, n1) :: tb) ++ (look2, n2) :: tc ++ (fin, m) :: td) in E
    by (rewrite <- app_assoc; reflexivity).
  apply mexec_cut in E. destruct E as (s3 & s4 & E3 & S4 & E). assert (s3 = w1) by congruence. subst s3.
  apply mexec_cut in E. destruct E as (s5 & s6 & E5 & S6 & E).
  assert (LF : load_of fin = None) by (destruct FN as [-> | ->]; reflexivity).
  assert (LK1 : load_of look1 = Some i) by (destruct L1 as [-> | ->]; reflexivity).
  assert (LK2 : load_of look2 = Some i) by (destruct L2 as [-> | ->]; reflexivity).
  assert (OLD : forall tr w w', mexec B w tr = Some w' -> old c (w_st w) -> old c (w_st w')).
  { intros tr w w' EX O. apply (mexec_lift B (old c) (fun _ => True) w tr w'); auto using all_true. intros s l s' O1 _ S. eapply old_step; eauto. }
  assert (O3 : old c (w_st w1)).
  { destruct (lhistory h0 _ _ (mexec_loose _ _ _ _ E1)) as [HH _]. apply (in_map c_id) in H. rewrite HH in H. apply in_seq in H. unfold old. lia. }
  assert (O4 : old c (w_st s4)) by (apply (OLD [(look2, n2)] w1); auto; cbn [mexec]; rewrite S4; reflexivity).
  assert (RM : remembers i (phase_b B n1) (w_st w1)).
  { apply (mexec_lift B (remembers i (phase_b B n1)) (fun l => ~ looks i l /\ l <> LWakeEnd i) s1 tb w1); auto.
    - intros s l s' RM1 [Q1 Q2] S. eapply remembers_step; eauto.
    - destruct (mstep_load _ _ _ _ _ _ LK1 X2) as (_ & s' & S & ->). exact (look_remembers i _ look1 s' L1 S).
    - apply Forall_forall. exact NW. }
  assert (L4 : leaving i c (w_st s4)).
  { destruct (mstep_load _ _ _ _ _ _ LK2 S4) as (_ & s' & S & ->). exact (look_leaving i _ c (with_phase (w_st w1) (phase_b B n2)) look2 s' L2 S RM (nphase_differs B n1 n2 W SH)). }
  assert (L5 : old c (w_st s5) /\ leaving i c (w_st s5)).
  { apply (mexec_lift B (fun s => old c s /\ leaving i c s) (fun _ => True) s4 tc s5); auto using all_true.
    intros s l s7 [O L] _ S. split; [eapply old_step; eauto|eapply leaving_step; eauto]. }
  destruct L5 as [O5 L5]. destruct (mstep_loose _ _ _ _ _ S6) as (p & cc & s7 & q & cc' & S7 & EQ).
  assert (O6 : old c (w_st s6) /\ out i c (w_st s6)).
  { rewrite EQ. pose proof (old_step c _ _ _ (O5 : old c (put_count (with_phase (w_st s5) p) cc)) S7) as O7. split; [exact O7|].
    exact (proj2 (leaving_step i c _ fin s7 S7 (O5 : old c (put_count (with_phase (w_st s5) p) cc)) (L5 : leaving i c (put_count (with_phase (w_st s5) p) cc))) FN). }
  apply (mexec_lift B (fun s => old c s /\ out i c s) (fun _ => True) s6 td w2); auto using all_true.
  intros s l s' [O7 X7] _ S. split; [eapply old_step; eauto|]. apply (out_exec i c [l] s); auto. cbn. rewrite S. reflexivity.
Qed.

(*EX
(** with 32 bits: the recorder reads number 0 in a call with 7; two refreshes time out; then the recorder makes a call
    with 9, reads number 1 although 2 is the latest, and hands over both calls *)
Example ex_C85_handed_over : match build U64 1 1000 2 false [] with
  | Some h =>
      let t0 := [(RRecorder, 0); (LWrite 0 (ORecord 7 1), 0)] in
      let tb := (LFinish 0, 0) :: widle_refresh ++ widle_refresh ++ [(LWrite 0 (ORecord 9 1), 0)] in
      let tr := t0 ++ (LLoad 0, 0) :: tb ++ (LLoad 0, 1) :: [] ++ (LFinish 0, 0) :: [] in
      match mexec 32 (winit h) (t0 ++ (LLoad 0, 0) :: tb), mexec 32 (winit h) tr with
      | Some w1, Some w2 => mrun 32 h tr w2 /\ map (fun r => length (b_log (r_local r))) (s_recs (w_st w1)) = [2]%nat /\ w_now w1 = 2 /\
          map (fun r => b_log (r_local r)) (s_recs (w_st w2)) = [[]] /\ map b_log (s_chan (w_st w2)) = [s_history (w_st w1)]
      | _, _ => False end
  | None => False end.
Proof. msync_case. Qed.
EX*)

(** A call of [refresh] that returns (by a timeout or not) has merged every call whose recorder had already
    handed it over when [refresh] was called. *)
Lemma C85_refresh_collects_proof : forall B h0 tr w1 t k te w2 c, mrun B h0 tr w1 -> merged_untouched (acts tr) ->
  mexec B w1 ((RStart t, k) :: te) = Some w2 -> Forall in_call (acts te) -> s_reader (w_st w2) = RReady ->
  In c (s_history (w_st w1)) -> (forall r, In r (s_recs (w_st w1)) -> ~ In c (b_log (r_local r))) ->
  In c (b_log (s_merged (w_st w2))).
Proof.
  intros B h0 tr w1 t k te w2 c RN U E IC RR H N. pose proof (mrun_loose _ _ _ _ RN) as (_ & _ & LE).
  cbn [mexec] in E. destruct (mstep B w1 (RStart t, k)) as [w1'|] eqn:S1; [|discriminate].
  destruct (mstep_loose _ _ _ _ _ S1) as (p & e & s1 & q & g & S & EQ).
  assert (X : s_reader (w_st w1) = RReady /\ s_reader (w_st w1') = RDrain t /\ b_log (s_merged (w_st w1')) = b_log (s_merged (w_st w1)) /\ s_chan (w_st w1') = s_chan (w_st w1)).
  { rewrite EQ. cbn in S. destruct (s_reader (w_st w1)); try discriminate S. injection S as <-. auto. }
  destruct X as (RD & RD' & MM & CC).
  assert (PL : Permutation (everything (w_st w1)) (s_history (w_st w1))).
  { apply (lplaced h0 _ _ (untouched_not_set _ U) LE). split; congruence. }
  assert (IN : In c (everything (w_st w1))) by (eapply Permutation_in; [apply Permutation_sym; exact PL|exact H]).
  unfold everything in IN. rewrite !in_app_iff in IN. rewrite In_locals in IN.
  assert (X : coming c (w_st w1')).
  { unfold coming. rewrite MM, CC. destruct IN as [IN|[IN|(r & I1 & I2)]]; [left; exact IN|right; left; exists t; split; [exact RD'|exact IN]|destruct (N r I1 I2)]. }
  assert (Y : coming c (w_st w2)).
  { apply (mexec_lift B (coming c) in_call w1' te w2); auto. intros s l s' C1 C2 C3. eapply coming_step; eauto. }
  destruct Y as [Y|[(t0 & Y & _)|Y]]; [exact Y|congruence|congruence].
Qed.

(*EX
(** with 32 bits: recorder 0 has seen the first move of the phase and handed over 7 and 9; the next refresh has both,
    although it times out and recorder 1 does anything in between *)
Example ex_C85_refresh_collects : match build U64 1 1000 2 false [] with
  | Some h =>
      let tr := [(RRecorder, 0); (RRecorder, 0)] ++ wone_call 0 (ORecord 7 1) ++ widle_refresh ++ wone_call 1 (ORecord 9 1) in
      let te := [(LWrite 1 (ORecord 2 1), 0); (RRecv, 0); (LLoad 1, 0); (LFinish 1, 0); (REmpty, 0); (LClone 1, 0); (RRead, 0); (RShift, 0);
                 (LDrop 1, 0); (LDropEnd 1, 0); (RTimeout, 0); (RRecv, 0); (REmpty, 0)] in
      match mexec 32 (winit h) tr with
      | Some w1 => mrun 32 h tr w1 /\ merged_untouched (acts tr) /\ Forall in_call (acts te) /\
          map c_id (s_history (w_st w1)) = [0; 1]%nat /\ map (fun r => b_log (r_local r)) (s_recs (w_st w1)) = [[]; []] /\ b_log (s_merged (w_st w1)) = [] /\
          match mexec 32 w1 ((RStart true, 0) :: te) with
          | Some w2 => s_reader (w_st w2) = RReady /\ map c_id (b_log (s_merged (w_st w2))) = [0; 1; 2]%nat
          | None => False end
      | None => False end
  | None => False end.
Proof. msync_case. Qed.
EX*)

(** A recorder that is dropped hands over everything, whatever the phase. *)
Lemma C85_drop_hands_over_proof : forall B h0 ta k td w1 w2 i c,
  mrun B h0 (ta ++ (LDropEnd i, k) :: td) w2 -> mexec B (winit h0) ta = Some w1 ->
  In c (s_history (w_st w1)) -> c_rec c = i ->
  forall r, In r (s_recs (w_st w2)) -> ~ In c (b_log (r_local r)).
Proof.
  intros B h0 ta k td w1 w2 i c RN E1 H CI. pose proof RN as (W & R & F & E). apply (mout_all B h0 _ w2 i c E CI).
  apply mexec_cut in E. destruct E as (s1 & s2 & E1' & S2 & E). assert (s1 = w1) by congruence. subst s1.
  destruct (mstep_loose _ _ _ _ _ S2) as (p0 & e & s7 & q & g & S & EQ).
  assert (O1 : old c (w_st w1)) by (eapply mold_in; eauto).
  apply (mexec_lift B (fun s => old c s /\ out i c s) (fun _ => True) s2 td w2); auto using all_true.
  { intros s l s' [O7 X7] _ S'. split; [eapply old_step; eauto|]. apply (out_exec i c [l] s); auto. cbn. rewrite S'. reflexivity. }
  rewrite EQ. split; [exact (old_step c _ _ _ (O1 : old c (put_count (with_phase (w_st w1) p0) e)) S)|].
  intros r' J I. unfold step in S. cbn [with_phase put_count put_lock s_recs] in S. destruct (nth_error (s_recs (w_st w1)) i) as [[b p pc]|] eqn:K; try discriminate S.
  destruct pc; try discriminate S. destruct (shed b) as [[full empty]|] eqn:SH; try discriminate S. injection S as S. rewrite <- S in J.
  apply shed_inv in SH. destruct SH as (_ & LE & _).
  cbn in J. rewrite send_recs in J. cbn in J. rewrite put_same in J by (eapply nth_lt; eauto). injection J as <-. cbn in I. rewrite LE in I. exact I.
Qed.

(*EX
Example ex_C85_drop_hands_over : match build U64 1 1000 2 false [] with
  | Some h =>
      let ta := [(RRecorder, 0); (RRecorder, 0)] ++ widle_refresh ++ wone_call 0 (ORecord 7 1) ++ [(LWrite 1 (ORecord 8 1), 0); (LDrop 0, 0)] in
      let td := [(LLoad 1, 0); (LFinish 1, 0)] in
      match mexec 32 (winit h) ta, mexec 32 (winit h) (ta ++ (LDropEnd 0, 0) :: td) with
      | Some w1, Some w2 => mrun 32 h (ta ++ (LDropEnd 0, 0) :: td) w2 /\ map r_phase (s_recs (w_st w1)) = [0; 0] /\ s_phase (w_st w1) = 1 /\
          map (fun r => map c_id (b_log (r_local r))) (s_recs (w_st w1)) = [[0]; [1]]%nat /\
          map (fun r => map c_id (b_log (r_local r))) (s_recs (w_st w2)) = [[]; [1]]%nat
      | _, _ => False end
  | None => False end.
Proof. msync_case. Qed.
EX*)

(** *)
Section MEVENT.
Variables (bw : Z) (h0 : hist) (tr0 : list (label * Z)) (w : nat -> wstate) (a : nat -> option (label * Z)).
Notation s := (states w).
Hypothesis R0 : mrun bw h0 tr0 (w 0%nat).
Hypothesis C : mcontinues bw h0 w a.
Lemma mact_inv j l : actions a j = Some l -> exists n, a j = Some (l, n) /\ mstep bw (w j) (l, n) = Some (w (Datatypes.S j)).
Proof.
  unfold actions. intros X. pose proof (C j) as CJ. destruct (a j) as [[l' n]|]; [|discriminate]. cbn in X. injection X as ->.
  exists n. split; [reflexivity|apply CJ].
Qed.
Lemma mgo n : forall k, mexec bw (w k) (whappened a k n) = Some (w (k + n)%nat) /\ Forall (label_ok (h_ctr h0)) (acts (whappened a k n)).
Proof.
  induction n as [|n IH]; intros k; cbn [whappened]; [rewrite Nat.add_0_r; split; [reflexivity|constructor]|].
  pose proof (C k) as CK. destruct (IH (Datatypes.S k)) as [E F]. replace (k + Datatypes.S n)%nat with (Datatypes.S k + n)%nat by lia.
  destruct (a k) as [x|].
  - destruct CK as [LO ST]. cbn [mexec]. rewrite ST. split; [exact E|constructor; auto].
  - rewrite <- CK. auto.
Qed.
Lemma mso_far k : mrun bw h0 (tr0 ++ whappened a 0 k) (w k).
Proof. destruct (mgo k 0) as [X1 X2]. destruct R0 as (W & R & F & E). split; [exact W|]. split; [exact R|]. split; [rewrite acts_app; apply Forall_app; auto|]. rewrite mexec_app, E. exact X1. Qed.
Lemma mmoment k l : actions a k = Some l -> exists p e s' q g, step (put_count (with_phase (s k) p) e) l = Some s' /\ s (Datatypes.S k) = put_count (with_phase s' q) g.
Proof. intros A. destruct (mact_inv k l A) as (n & _ & ST). apply (mstep_loose _ _ _ _ _ ST). Qed.
Lemma msplit_at k j x : (k <= j)%nat -> a j = Some x -> forall n, whappened a k (j - k + Datatypes.S n) = whappened a k (j - k) ++ x :: whappened a (Datatypes.S j) n.
Proof.
  intros L A n. rewrite whappened_app. replace (k + (j - k))%nat with j by lia. cbn [whappened]. rewrite A. reflexivity.
Qed.
Lemma midle_moment k : actions a k = None -> w (Datatypes.S k) = w k.
Proof. intros A. pose proof (C k) as CK. unfold actions in A. destruct (a k); [discriminate|exact CK]. Qed.

Lemma mwait i r d : forall j, nth_error (s_recs (s j)) i = Some r ->
  (exists k' l, (j <= k' < j + d)%nat /\ actions a k' = Some l /\ (moves i l \/ l = LForget i) /\ nth_error (s_recs (s k')) i = Some r) \/
  nth_error (s_recs (s (j + d)%nat)) i = Some r.
Proof.
  induction d as [|d IH]; intros j J; [right; rewrite Nat.add_0_r; exact J|].
  destruct (IH j J) as [(k' & l & X1 & X2)|X]; [left; exists k', l; split; [lia|exact X2]|].
  replace (j + Datatypes.S d)%nat with (Datatypes.S (j + d)) by lia.
  destruct (actions a (j + d)%nat) as [l|] eqn:A; [|right; unfold states; rewrite (midle_moment _ A); exact X].
  destruct (mine i l) as [M|[M1 M2]]; [left; exists (j + d)%nat, l; split; [lia|auto]|].
  destruct (mact_inv _ _ A) as (n & _ & ST). right. apply (mkept _ _ _ _ _ i r ST M1 M2 X).
Qed.
(** a recorder that keeps recording reads the phase again and again, and completes that *)
Lemma mrounds i : keeps_recording (actions a) i -> forall k, exists x f, (k <= x < f)%nat /\ actions a x = Some (LLoad i) /\ actions a f = Some (LFinish i).
Proof.
  intros KR k. destruct (KR k) as (v & o & W1 & W2). destruct (mmoment _ _ W2) as (p0 & e0 & s0 & q0 & g0 & SW & EQ). unfold step in SW. cbn [with_phase put_count put_lock s_recs] in SW.
  destruct (nth_error (s_recs (s v)) i) as [[b p pc]|] eqn:K; try discriminate SW. destruct pc; try discriminate SW.
  destruct (apply_op (b_hist b) o) as [[h ok]|]; try discriminate SW. injection SW as SW.
  assert (J : exists b', nth_error (s_recs (s (Datatypes.S v))) i = Some (Rec b' p PWrote)).
  { rewrite EQ, <- SW. cbn. eexists. apply put_same. eapply nth_lt; eauto. }
  destruct J as [b' J]. clear SW EQ K.
  destruct (KR (Datatypes.S v)) as (w2 & o2 & V1 & V2).
  destruct (mwait i _ (w2 - Datatypes.S v) _ J) as [(x & l & X1 & X2 & X3 & X4)|X].
  2:{ exfalso. replace (Datatypes.S v + (w2 - Datatypes.S v))%nat with w2 in X by lia. destruct (mmoment _ _ V2) as (p1 & e1 & s1 & q1 & g1 & SV & _).
      unfold step in SV. cbn [with_phase put_count put_lock s_recs] in SV. rewrite X in SV. discriminate SV. }
  assert (LX : l = LLoad i /\ exists q, nth_error (s_recs (s (Datatypes.S x))) i = Some (Rec b' p (PLoaded q))).
  { destruct (mmoment _ _ X2) as (p1 & e1 & s1 & q1 & g1 & SX & EX). destruct X3 as [X3| ->]; [destruct l; cbn [moves] in X3; try contradiction; subst i0|];
      unfold step in SX; cbn [with_phase put_count put_lock s_recs] in SX; rewrite X4 in SX; try discriminate SX. split; [reflexivity|]. injection SX as <-. rewrite EX. cbn.
    eexists. apply put_same. eapply nth_lt; eauto. }
  destruct LX as [-> (q & J2)]. clear X3.
  destruct (KR (Datatypes.S x)) as (w3 & o3 & U1 & U2).
  destruct (mwait i _ (w3 - Datatypes.S x) _ J2) as [(f & l & F1 & F2 & F3 & F4)|X].
  2:{ exfalso. replace (Datatypes.S x + (w3 - Datatypes.S x))%nat with w3 in X by lia. destruct (mmoment _ _ U2) as (p1 & e1 & s1 & q1 & g1 & SV & _).
      unfold step in SV. cbn [with_phase put_count put_lock s_recs] in SV. rewrite X in SV. discriminate SV. }
  exists x, f. split; [lia|]. split; [exact X2|]. rewrite F2. f_equal.
  destruct (mmoment _ _ F2) as (p1 & e1 & s1 & q1 & g1 & SF & _). destruct F3 as [F3| ->]; [destruct l; cbn [moves] in F3; try contradiction; subst i0|];
    unfold step in SF; cbn [with_phase put_count put_lock s_recs] in SF; rewrite F4 in SF; try discriminate SF. reflexivity.
Qed.
Lemma mshifts_on : keeps_refreshing (actions a) -> forall k, exists x, (k <= x)%nat /\ actions a x = Some RShift.
Proof.
  intros KR k. destruct (KR k) as (x & t & X1 & X2). destruct (KR (Datatypes.S x)) as (y & t' & Y1 & Y2).
  assert (B : before_shift (s (Datatypes.S x))).
  { destruct (mmoment _ _ X2) as (p1 & e1 & s1 & q1 & g1 & SX & EX). rewrite EX. cbn in SX. destruct (s_reader (s x)); try discriminate SX. injection SX as <-. exact Logic.I. }
  assert (X : forall d, (exists z, (Datatypes.S x <= z)%nat /\ actions a z = Some RShift) \/ before_shift (s (Datatypes.S x + d)%nat)).
  { induction d as [|d [IH|IH]]; [right; rewrite Nat.add_0_r; exact B|left; exact IH|].
    rewrite Nat.add_succ_r. destruct (actions a (Datatypes.S x + d)%nat) as [l|] eqn:A; [|right; unfold states; rewrite (midle_moment _ A); exact IH].
    assert (D : l = RShift \/ l <> RShift) by (destruct l; auto; right; discriminate).
    destruct D as [->|D]; [left; exists (Datatypes.S x + d)%nat; split; [lia|exact A]|right].
    destruct (mmoment _ _ A) as (p1 & e1 & s1 & q1 & g1 & SX & EX). rewrite EX.
    exact (before_step _ l s1 SX D IH). }
  destruct (X (y - Datatypes.S x)%nat) as [(z & Z1 & Z2)|Z]; [exists z; split; [lia|exact Z2]|]. exfalso.
  replace (Datatypes.S x + (y - Datatypes.S x))%nat with y in Z by lia. destruct (mmoment _ _ Y2) as (p1 & e1 & s1 & q1 & g1 & SY & _). cbn in SY.
  unfold before_shift in Z. destruct (s_reader (s y)); try discriminate SY. exact Z.
Qed.
Lemma mnow_on k d : w_now (w k) <= w_now (w (k + d)%nat).
Proof. destruct (mgo d k) as [E _]. rewrite (mnow_mono _ _ _ _ (proj1 R0) E (mviews_run _ _ _ _ (proj1 R0) (proj2 (proj2 (proj2 (mso_far k)))))). pose proof (shifts_nonneg (acts (whappened a k d))). lia. Qed.
Lemma mreads_look i j l n : a j = Some (l, n) -> looks i l -> reads a i j n /\ n <= w_now (w j).
Proof.
  intros A L. split; [exists l; auto|]. assert (LO : load_of l = Some i) by (destruct L as [-> | ->]; reflexivity).
  pose proof (C j) as CJ. rewrite A in CJ. destruct CJ as [_ ST]. destruct (mstep_load _ _ _ _ _ _ LO ST) as (B & _). lia.
Qed.
Lemma mreads_dec i j : (exists n, reads a i j n) \/ forall n, ~ reads a i j n.
Proof.
  destruct (looks_dec (actions a) i j) as [(l & A & L)|N].
  - destruct (mact_inv j l A) as (n & AJ & _). left. exists n, l. auto.
  - right. intros n (l & A & L). apply (N l); auto. apply (act_some a j l n A).
Qed.
(** among the looks from one to a later one with a mnewer value, two that follow each other differ *)
Lemma mnewer i : forall d x y n0 n, (y - x <= d)%nat -> (x < y)%nat -> reads a i x n0 -> reads a i y n -> n0 < n ->
  exists j1 n1 j2 n2, (x <= j1 < j2)%nat /\ (j2 <= y)%nat /\ reads a i j1 n1 /\ reads a i j2 n2 /\ (forall j v, (j1 < j < j2)%nat -> ~ reads a i j v) /\ n1 < n2.
Proof.
  induction d as [|d IH]; intros x y n0 n D L X Y LT; [lia|].
  assert (LAST : exists m nm, (x <= m < y)%nat /\ reads a i m nm /\ forall j v, (m < j < y)%nat -> ~ reads a i j v).
  { assert (G : forall e, (x + e < y)%nat -> exists m nm, (x <= m <= x + e)%nat /\ reads a i m nm /\ forall j v, (m < j <= x + e)%nat -> ~ reads a i j v).
    { induction e as [|e IHe]; intros LE.
      - exists x, n0. split; [lia|]. split; [exact X|]. intros j v J. lia.
      - destruct (mreads_dec i (x + Datatypes.S e)) as [(v & RV)|N].
        + exists (x + Datatypes.S e)%nat, v. split; [lia|]. split; [exact RV|]. intros j v' J. lia.
        + destruct IHe as (m & nm & M1 & M2 & M3); [lia|]. exists m, nm. split; [lia|]. split; [exact M2|]. intros j v J.
          destruct (Nat.eq_dec j (x + Datatypes.S e)) as [->|NE]; [apply N|apply M3; lia]. }
    destruct (G (y - x - 1)%nat) as (m & nm & M1 & M2 & M3); [lia|]. exists m, nm. split; [lia|]. split; [exact M2|]. intros j v J. apply M3. lia. }
  destruct LAST as (m & nm & M1 & M2 & M3).
  destruct (Z.lt_ge_cases nm n) as [Q|Q].
  - exists m, nm, y, n. split; [lia|]. split; [lia|]. auto.
  - destruct (Nat.eq_dec m x) as [->|NE].
    + exfalso. destruct X as (l1 & A1 & _), M2 as (l2 & A2 & _). rewrite A1 in A2. injection A2 as _ <-. lia.
    + destruct (IH x m n0 nm) as (j1 & n1 & j2 & n2 & Z1 & Z2 & Z3 & Z4 & Z5 & Z6); try lia; auto.
      exists j1, n1, j2, n2. split; [lia|]. split; [lia|]. auto.
Qed.
Lemma mhistory_on k c : In c (s_history (s k)) -> forall d, In c (s_history (s (k + d)%nat)).
Proof. intros I d. destruct (mgo d k) as [E _]. eapply mhistory_kept; eauto. Qed.

(** the call leaves the recorder *)
Lemma mleaves i k0 c : keeps_recording (actions a) i -> wakes_end (actions a) i -> keeps_refreshing (actions a) -> becomes_visible w a -> nlooks_in_time bw a i k0 ->
  In c (s_history (s k0)) -> c_rec c = i ->
  exists k, forall d r, In r (s_recs (s (k + d)%nat)) -> ~ In c (b_log (r_local r)).
Proof.
  intros KR (K & WE) RG VIS LT H CI.
  destruct (mrounds i KR (Nat.max k0 K)) as (x1 & f1 & B1 & A1 & _).
  destruct (mact_inv _ _ A1) as (v1 & A1' & _). destruct (mreads_look i x1 _ _ A1' (or_introl eq_refl)) as [RD1 LE1].
  destruct (mshifts_on RG (Datatypes.S x1)) as (y & Y1 & Y2).
  assert (NOW : v1 < w_now (w (Datatypes.S y))).
  { destruct (mact_inv _ _ Y2) as (vy & _ & SY). rewrite (mnow_step _ _ _ _ _ SY (mviews_run _ _ _ _ (proj1 R0) (proj2 (proj2 (proj2 (mso_far y)))))), shifts_one.
    pose proof (mnow_on x1 (y - x1)) as M. replace (x1 + (y - x1))%nat with y in M by lia. lia. }
  destruct (VIS (Datatypes.S y)) as (KV & VK).
  destruct (mrounds i KR (Nat.max KV (Datatypes.S y))) as (x2 & f2 & B2 & A2 & _).
  destruct (mact_inv _ _ A2) as (v2 & A2' & _). destruct (mreads_look i x2 _ _ A2' (or_introl eq_refl)) as [RD2 _].
  assert (V2 : w_now (w (Datatypes.S y)) <= v2) by (apply (VK x2 (LLoad i) v2); [lia|exact A2'|exact Logic.I]).
  destruct (mnewer i (x2 - x1) x1 x2 v1 v2) as (m1 & n1 & m2 & n2 & M1 & M2 & RM1 & RM2 & NB & N12); auto; try lia.
  destruct RM1 as (l1 & AM1 & LK1), RM2 as (l2 & AM2 & LK2).
  destruct (mrounds i KR (Datatypes.S m2)) as (x3 & f & B3 & A3 & F2).
  destruct (mact_inv _ _ F2) as (vf & F2' & _).
  set (tb := whappened a (Datatypes.S m1) (m2 - Datatypes.S m1)).
  exists (Datatypes.S f). intros d r.
  assert (TR : tr0 ++ whappened a 0 (Datatypes.S f + d) =
     (tr0 ++ whappened a 0 m1) ++ (l1, n1) :: tb ++ (l2, n2) :: whappened a (Datatypes.S m2) (f - Datatypes.S m2) ++ (LFinish i, vf) :: whappened a (Datatypes.S f) d).
  { rewrite <- app_assoc. f_equal.
    replace (Datatypes.S f + d)%nat with (m1 - 0 + Datatypes.S ((m2 - Datatypes.S m1) + Datatypes.S ((f - Datatypes.S m2) + Datatypes.S d)))%nat by lia.
    rewrite (msplit_at 0 m1 (l1, n1)) by (auto; lia). rewrite Nat.sub_0_r. f_equal. f_equal.
    rewrite (msplit_at (Datatypes.S m1) m2 (l2, n2)) by (auto; lia). f_equal. f_equal.
    rewrite (msplit_at (Datatypes.S m2) f (LFinish i, vf)) by (auto; lia). reflexivity. }
  assert (T1 : tr0 ++ whappened a 0 m2 = (tr0 ++ whappened a 0 m1) ++ (l1, n1) :: tb).
  { rewrite <- app_assoc. f_equal. replace m2 with (m1 - 0 + Datatypes.S (m2 - Datatypes.S m1))%nat at 1 by lia.
    rewrite (msplit_at 0 m1 (l1, n1)) by (auto; lia). rewrite Nat.sub_0_r. reflexivity. }
  pose proof (mso_far (Datatypes.S f + d)) as RN. rewrite TR in RN.
  pose proof (mso_far m2) as (_ & _ & _ & E1). rewrite T1 in E1.
  apply (C85_handed_over_proof bw h0 _ l1 n1 tb l2 n2 _ (LFinish i) vf _ (w m2) _ i c RN E1); auto.
  - change (In c (s_history (s m2))). replace m2 with (k0 + (m2 - k0))%nat by lia. apply mhistory_on. exact H.
  - intros l I. apply In_whappened in I. destruct I as (j & J1 & J2). split.
    + intros L. destruct (mact_inv _ _ J2) as (vj & AJ & _). apply (NB j vj); [lia|]. exists l. auto.
    + intros ->. apply (WE j); [lia|exact J2].
  - split; [lia|]. apply (LT m1 n1 m2 n2); [lia|exists l1; auto|exists l2; auto|exact NB].
Qed.
(** what has left its recorder is merged by the next complete [refresh], and stays *)
Lemma mmerged_on k c : never_set (actions a) -> In c (b_log (s_merged (s k))) -> forall d, In c (b_log (s_merged (s (k + d)%nat))).
Proof.
  intros NS I. induction d as [|d IH]; [rewrite Nat.add_0_r; exact I|]. rewrite Nat.add_succ_r.
  destruct (actions a (k + d)%nat) as [l|] eqn:A; [|unfold states; rewrite (midle_moment _ A); exact IH].
  destruct (mmoment _ _ A) as (p1 & e1 & s1 & q1 & g1 & SX & EX). rewrite EX. apply (merged_step _ _ _ c SX); auto. intros h ->. apply (NS _ _ A).
Qed.
Lemma muntouched_on k : merged_untouched (acts tr0) -> never_set (actions a) -> merged_untouched (acts (tr0 ++ whappened a 0 k)).
Proof.
  intros U NS h I. rewrite acts_app in I. apply in_app_iff in I. destruct I as [I|I]; [apply (U h I)|]. apply In_whappened in I. destruct I as (j & _ & J). apply (NS j h J).
Qed.
Lemma mcollected k c : merged_untouched (acts tr0) -> never_set (actions a) -> keeps_refreshing (actions a) -> In c (s_history (s k)) ->
  (forall d r, In r (s_recs (s (k + d)%nat)) -> ~ In c (b_log (r_local r))) ->
  exists K, forall k', (K <= k')%nat -> In c (b_log (s_merged (s k'))).
Proof.
  intros U NS RG H OUT. destruct (RG k) as (x & t & X1 & X2). destruct (RG (Datatypes.S x)) as (y & t' & Y1 & Y2).
  destruct (mmoment _ _ Y2) as (p1 & e1 & s1 & q1 & g1 & SY & _). cbn in SY. destruct (s_reader (s y)) eqn:RY; try discriminate SY. clear SY.
  destruct (first_ready s (y - Datatypes.S x) (Datatypes.S x)) as (z & Z1 & Z2 & Z3); [replace (Datatypes.S x + (y - Datatypes.S x))%nat with y by lia; exact RY|].
  destruct (mact_inv _ _ X2) as (vx & AX & SX).
  assert (M : In c (b_log (s_merged (s z)))).
  { apply (C85_refresh_collects_proof bw h0 (tr0 ++ whappened a 0 x) (w x) t vx (whappened a (Datatypes.S x) (z - Datatypes.S x)) (w z) c).
    - apply mso_far.
    - apply muntouched_on; auto.
    - cbn [mexec]. rewrite SX. destruct (mgo (z - Datatypes.S x) (Datatypes.S x)) as [E _]. rewrite E. f_equal. f_equal. lia.
    - apply Forall_forall. intros l I. apply In_whappened in I. destruct I as (j & J1 & J2). destruct (mmoment _ _ J2) as (p2 & e2 & s2 & q2 & g2 & SJ & _).
      apply (busy _ l s2 SJ). apply Z3. lia.
    - exact Z2.
    - change (In c (s_history (s x))). replace x with (k + (x - k))%nat by lia. apply mhistory_on. exact H.
    - change (forall r, In r (s_recs (s x)) -> ~ In c (b_log (r_local r))). replace x with (k + (x - k))%nat by lia. apply OUT. }
  exists z. intros k' L. replace k' with (z + (k' - z))%nat by lia. apply mmerged_on; auto.
Qed.
End MEVENT.

(** Every call made on a recorder is in the merged histogram from some moment on, however often the phase wraps
    around, in every execution in which every move of the phase becomes visible some time, the reader calls
    [refresh] (or [refresh_timeout]) again and again, that recorder makes calls again and again and goes idle
    only finitely often, the program does not write to the merged histogram itself, and what the recorder
    reads never moves on by 2^B values or more at once. *)
Lemma C85_eventually_proof : forall B h0 tr0 w a k0 i c,
  mrun B h0 tr0 (w 0%nat) -> merged_untouched (acts tr0) -> mcontinues B h0 w a -> never_set (actions a) ->
  keeps_refreshing (actions a) -> keeps_recording (actions a) i -> wakes_end (actions a) i ->
  becomes_visible w a -> nlooks_in_time B a i k0 ->
  In c (s_history (w_st (w k0))) -> c_rec c = i ->
  exists K, forall k, (K <= k)%nat -> In c (b_log (s_merged (w_st (w k)))).
Proof.
  intros B h0 tr0 w a k0 i c R0 U C NS RG KR WE VIS LT H CI.
  destruct (mleaves B h0 tr0 w a R0 C i k0 c KR WE RG VIS LT H CI) as (k & OUT).
  apply (mcollected B h0 tr0 w a R0 C (k0 + k) c); auto.
  - apply (mhistory_on B h0 w a C k0 c H).
  - intros d r. replace (k0 + k + d)%nat with (k + (k0 + d))%nat by lia. apply OUT.
Qed.

(*EX
(** with 32 bits, rounds without end, in each of which recorder 0 makes a call *)
Example ex_C85_eventually : exists h0 tr0 w a,
  mrun 32 h0 tr0 (w 0%nat) /\ merged_untouched (acts tr0) /\ mcontinues 32 h0 w a /\ never_set (actions a) /\ keeps_refreshing (actions a) /\
  keeps_recording (actions a) 0 /\ wakes_end (actions a) 0 /\ becomes_visible w a /\ nlooks_in_time 32 a 0 7 /\
  s_history (w_st (w 7%nat)) = [Call 0 1 (ORecord 7 1) true; Call 1 0 (ORecord 7 1) true] /\
  b_log (s_merged (w_st (w 9%nat))) = [Call 0 1 (ORecord 7 1) true] /\
  b_log (s_merged (w_st (w 10%nat))) = [Call 0 1 (ORecord 7 1) true; Call 1 0 (ORecord 7 1) true].
Proof.
  destruct (goes_on_release 32 (or_introl eq_refl)) as (h0 & tr0 & w & a & X1 & X2 & X3 & X4 & X5 & X6 & X7 & X8 & X9 & _ & _ & X10 & _ & X). exists h0, tr0, w, a.
  split; [exact X1|]. split; [exact X2|]. split; [exact X3|]. split; [exact X4|]. split; [exact X5|]. split; [exact X6|]. split; [exact X7|]. split; [exact X8|].
  split; [exact X9|]. split; [exact X10|exact X].
Qed.
EX*)

(** So is every call made on a recorder that is dropped some time, whatever the phase. *)
Lemma C85_dropped_eventually_proof : forall B h0 tr0 w a k0 kd i c,
  mrun B h0 tr0 (w 0%nat) -> merged_untouched (acts tr0) -> mcontinues B h0 w a -> never_set (actions a) ->
  keeps_refreshing (actions a) -> (k0 <= kd)%nat -> actions a kd = Some (LDropEnd i) ->
  In c (s_history (w_st (w k0))) -> c_rec c = i ->
  exists K, forall k, (K <= k)%nat -> In c (b_log (s_merged (w_st (w k)))).
Proof.
  intros B h0 tr0 w a k0 kd i c R0 U C NS RG L D H CI. destruct (mact_inv B h0 w a C _ _ D) as (v & AV & _).
  apply (mcollected B h0 tr0 w a R0 C (Datatypes.S kd) c); auto.
  - replace (Datatypes.S kd) with (k0 + (Datatypes.S kd - k0))%nat by lia. apply (mhistory_on B h0 w a C k0 c H).
  - intros d. pose proof (mso_far B h0 tr0 w a R0 C (Datatypes.S kd + d)) as RN. pose proof (mso_far B h0 tr0 w a R0 C kd) as (_ & _ & _ & E1).
    replace (Datatypes.S kd + d)%nat with (kd - 0 + Datatypes.S d)%nat in RN at 1 by lia.
    rewrite (msplit_at a 0 kd (LDropEnd i, v)) in RN by (auto; lia). rewrite Nat.sub_0_r, app_assoc in RN.
    apply (C85_drop_hands_over_proof B h0 _ v _ (w kd) _ i c RN E1); auto.
    change (In c (s_history (states w kd))). replace kd with (k0 + (kd - k0))%nat by lia. apply (mhistory_on B h0 w a C k0 c H).
Qed.
(*EX
(** recorder 1 has recorded 7 and is dropped at moment 0; the reader and recorder 0 go on for ever *)
Example ex_C85_dropped_eventually : exists h0 tr0 w a,
  mrun 32 h0 tr0 (w 0%nat) /\ merged_untouched (acts tr0) /\ mcontinues 32 h0 w a /\ never_set (actions a) /\ keeps_refreshing (actions a) /\
  actions a 0%nat = Some (LDropEnd 1) /\ s_history (w_st (w 0%nat)) = [Call 0 1 (ORecord 7 1) true] /\
  b_log (s_merged (w_st (w 2%nat))) = [] /\ b_log (s_merged (w_st (w 9%nat))) = [Call 0 1 (ORecord 7 1) true].
Proof.
  destruct (goes_on_release 32 (or_introl eq_refl)) as (h0 & tr0 & w & a & X1 & X2 & X3 & X4 & X5 & _ & _ & _ & _ & X6 & X7 & _ & X8 & X9 & _). exists h0, tr0, w, a.
  split; [exact X1|]. split; [exact X2|]. split; [exact X3|]. split; [exact X4|]. split; [exact X5|]. split; [exact X6|]. split; [exact X7|]. split; [exact X8|exact X9].
Qed.
EX*)

