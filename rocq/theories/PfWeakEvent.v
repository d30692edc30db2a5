(** * C82: every sample is delivered in the end, with outdated loads of the phase *)
From Coq Require Import Permutation.
From Verif Require Import Machine Log2Model HistModel Bins ListZ Wf Spec Reach Witness SyncModel SyncSpec SyncOps SyncFacts SyncRefresh PfSync LiveSpec LiveFacts PfLive PfDeliver
  EventSpec EventFacts PfEvent WeakModel WeakSpec WeakFacts PfWeak WeakLiveSpec PfWeakLive WeakEventSpec WeakEventFacts.
(*PROPS-IMPORTS Machine Log2Model HistModel Spec Reach Witness Cases SyncModel SyncSpec LiveSpec EventSpec WeakModel WeakSpec WeakLiveSpec WeakEventSpec WeakEventFacts CasesSync *)

(** *)
(** a step of [wstep] is one of [step] but for the phase *)
Lemma wany w l k w' : wstep w (l, k) = Some w' ->
  exists p q s', step (with_phase (w_st w) p) l = Some s' /\ w_st w' = with_phase s' q.
Proof.
  intros E. destruct (load_of l) as [i|] eqn:L.
  - destruct (wstep_load _ _ _ _ _ L E) as (_ & s' & S & ->). exists (phase_at k), (s_phase (w_st w)), s'. auto.
  - pose proof (wstep_other _ _ _ _ L E) as S. exists (s_phase (w_st w)), (s_phase (w_st w')), (w_st w'). rewrite !with_phase_id. auto.
Qed.
Lemma wlook_remembers i w l n w' : looks i l -> wstep w (l, n) = Some w' -> remembers i (phase_at n) (w_st w').
Proof.
  intros LK E. assert (L : load_of l = Some i) by (destruct LK as [-> | ->]; reflexivity).
  destruct (wstep_load _ _ _ _ _ L E) as (_ & s' & S & ->). exact (look_remembers i _ l s' LK S).
Qed.
Lemma wlook_leaving i q c w l n w' : looks i l -> wstep w (l, n) = Some w' -> remembers i q (w_st w) -> phase_at n <> q -> leaving i c (w_st w').
Proof.
  intros LK E R NE. assert (L : load_of l = Some i) by (destruct LK as [-> | ->]; reflexivity).
  destruct (wstep_load _ _ _ _ _ L E) as (_ & s' & S & ->). exact (look_leaving i q c (with_phase (w_st w) (phase_at n)) l s' LK S R NE).
Qed.
Lemma phase_differs n m : 1 <= m - n <= usize_max -> phase_at m <> phase_at n.
Proof.
  intros B X. unfold phase_at in X.
  assert (Y : (m - n) mod (usize_max + 1) = 0) by (rewrite Zminus_mod, X, Z.sub_diag; reflexivity).
  rewrite Z.mod_small in Y by lia. lia.
Qed.

(** ** C82.  Every sample is delivered in the end, with outdated loads of the phase *)
(** [C73_handed_over] without a bound on the number of refreshes of the whole run, and for the calls made
    after the phase moved, too.  If recorder [i] reads value number [n1] of the phase and, the next time it
    reads the phase, a newer one (number [n2], not newer by more than [usize::MAX]; neither has to be the
    latest), and it has not woken from idle in between, every call made on [i] before the second look is in
    no local histogram once [i] has completed that step. *)
Lemma C82_handed_over_proof : forall h0 t0 look1 n1 tb look2 n2 tc fin m td w1 w2 i c,
  wrun h0 (t0 ++ (look1, n1) :: tb ++ (look2, n2) :: tc ++ (fin, m) :: td) w2 -> wexec (winit h0) (t0 ++ (look1, n1) :: tb) = Some w1 ->
  In c (s_history (w_st w1)) -> c_rec c = i ->
  looks i look1 -> looks i look2 -> (fin = LFinish i \/ fin = LIdleEnd i) ->
  (forall l, In l (acts tb) -> ~ looks i l /\ l <> LWakeEnd i) -> 1 <= n2 - n1 <= usize_max ->
  forall r, In r (s_recs (w_st w2)) -> ~ In c (b_log (r_local r)).
Proof.
  intros h0 t0 look1 n1 tb look2 n2 tc fin m td w1 w2 i c (R & F & E) E1 H CI L1 L2 FN NW SH.
  apply (wout_all h0 _ w2 i c E CI).
  pose proof E1 as E1'. apply wexec_cut in E1'. destruct E1' as (s0 & s1 & X1 & X2 & X3).
  replace (t0 ++ (look1, n1) :: tb ++ (look2, n2) :: tc ++ (fin, m) :: td) with ((t0 ++ (look1, n1) :: tb) ++ (look2, n2) :: tc ++ (fin, m) :: td) in E
    by (rewrite <- app_assoc; reflexivity).
  apply wexec_cut in E. destruct E as (s3 & s4 & E3 & S4 & E). assert (s3 = w1) by congruence. subst s3.
  apply wexec_cut in E. destruct E as (s5 & s6 & E5 & S6 & E).
  assert (LF : load_of fin = None) by (destruct FN as [-> | ->]; reflexivity).
  assert (OLD : forall tr w w', wexec w tr = Some w' -> old c (w_st w) -> old c (w_st w')).
  { intros tr w w' EX O. apply (wexec_lift (old c) (fun _ => True) w tr w'); auto using all_true. intros s l s' O1 _ S. eapply old_step; eauto. }
  assert (O3 : old c (w_st w1)) by (eapply wold_in; eauto).
  assert (O4 : old c (w_st s4)) by (apply (OLD [(look2, n2)] w1); auto; cbn [wexec]; rewrite S4; reflexivity).
  assert (RM : remembers i (phase_at n1) (w_st w1)).
  { apply (wexec_lift (remembers i (phase_at n1)) (fun l => ~ looks i l /\ l <> LWakeEnd i) s1 tb w1); auto.
    - intros s l s' RM1 [Q1 Q2] S. eapply remembers_step; eauto.
    - apply (wlook_remembers i s0 look1 n1 s1 L1 X2).
    - apply Forall_forall. exact NW. }
  assert (L4 : leaving i c (w_st s4)) by (apply (wlook_leaving i (phase_at n1) c w1 look2 n2 s4 L2 S4 RM); apply phase_differs; exact SH).
  assert (L5 : old c (w_st s5) /\ leaving i c (w_st s5)).
  { apply (wexec_lift (fun s => old c s /\ leaving i c s) (fun _ => True) s4 tc s5); auto using all_true.
    intros s l s7 [O L] _ S. split; [eapply old_step; eauto|eapply leaving_step; eauto]. }
  destruct L5 as [O5 L5]. pose proof (wstep_other _ _ _ _ LF S6) as S6'.
  apply (wout_exec i c td s6 w2 E); [eapply old_step; eauto|]. apply (leaving_step i c _ fin _ S6' O5 L5). exact FN.
Qed.
(*EX
(** the recorder reads number 0 in a call with 7; two refreshes time out; then the recorder makes a call with 9,
    reads number 1 although 2 is the latest, and hands over both calls, also the one made after the phase moved *)
Example ex_C82_handed_over : match build U64 1 1000 2 false [] with
  | Some h =>
      let ref := [(RStart true, 0); (REmpty, 0); (RRead, 0); (RShift, 0); (RTimeout, 0); (REmpty, 0)] in
      let t0 := [(RRecorder, 0); (LWrite 0 (ORecord 7 1), 0)] in
      let tb := (LFinish 0, 0) :: ref ++ ref ++ [(LWrite 0 (ORecord 9 1), 0)] in
      let tr := t0 ++ (LLoad 0, 0) :: tb ++ (LLoad 0, 1) :: [] ++ (LFinish 0, 0) :: [] in
      match wexec (winit h) (t0 ++ (LLoad 0, 0) :: tb), wexec (winit h) tr with
      | Some w1, Some w2 => wrun h tr w2 /\ map (fun r => length (b_log (r_local r))) (s_recs (w_st w1)) = [2]%nat /\ w_now w1 = 2 /\
          map (fun r => b_log (r_local r)) (s_recs (w_st w2)) = [[]] /\ map b_log (s_chan (w_st w2)) = [s_history (w_st w1)]
      | _, _ => False end
  | None => False end.
Proof. sync_case. Qed.
EX*)

(** *)
Fixpoint whappened (a : nat -> option (label * Z)) (k n : nat) : list (label * Z) :=
  match n with
  | O => []
  | Datatypes.S m => match a k with Some x => x :: whappened a (Datatypes.S k) m | None => whappened a (Datatypes.S k) m end
  end.
Lemma whappened_app a n m : forall k, whappened a k (n + m) = whappened a k n ++ whappened a (k + n)%nat m.
Proof.
  induction n as [|n IH]; intros k; cbn [Nat.add whappened]; [rewrite Nat.add_0_r; reflexivity|].
  rewrite IH. replace (Datatypes.S k + n)%nat with (k + Datatypes.S n)%nat by lia. destruct (a k); reflexivity.
Qed.
Lemma In_whappened a l n : forall k, In l (acts (whappened a k n)) -> exists j, (k <= j < k + n)%nat /\ actions a j = Some l.
Proof.
  induction n as [|n IH]; intros k I; cbn [whappened] in I; [contradiction|].
  destruct (a k) as [[l' v]|] eqn:A.
  - destruct I as [I|I]; [exists k; split; [lia|unfold actions; rewrite A; cbn in *; congruence]|]. destruct (IH _ I) as (j & J1 & J2). exists j. split; [lia|exact J2].
  - destruct (IH _ I) as (j & J1 & J2). exists j. split; [lia|exact J2].
Qed.

Section WEVENT.
Variables (h0 : hist) (tr0 : list (label * Z)) (w : nat -> wstate) (a : nat -> option (label * Z)).
Notation s := (states w).
Hypothesis R0 : wrun h0 tr0 (w 0%nat).
Hypothesis C : wcontinues h0 w a.
Lemma wgo n : forall k, wexec (w k) (whappened a k n) = Some (w (k + n)%nat) /\ Forall (label_ok (h_ctr h0)) (acts (whappened a k n)).
Proof.
  induction n as [|n IH]; intros k; cbn [whappened]; [rewrite Nat.add_0_r; split; [reflexivity|constructor]|].
  pose proof (C k) as CK. destruct (IH (Datatypes.S k)) as [E F]. replace (k + Datatypes.S n)%nat with (Datatypes.S k + n)%nat by lia.
  destruct (a k) as [x|].
  - destruct CK as [LO ST]. cbn [wexec]. rewrite ST. split; [exact E|constructor; auto].
  - rewrite <- CK. auto.
Qed.
Lemma wso_far k : wrun h0 (tr0 ++ whappened a 0 k) (w k).
Proof. destruct (wgo k 0) as [X1 X2]. apply (wrun_app h0 _ _ (w 0%nat)); auto. Qed.
Lemma wmoment k l : actions a k = Some l -> exists p q s', step (with_phase (s k) p) l = Some s' /\ s (Datatypes.S k) = with_phase s' q.
Proof. intros A. destruct (act_inv h0 w a C k l A) as (n & _ & ST). apply (wany _ _ _ _ ST). Qed.
Lemma wsplit_at k j x : (k <= j)%nat -> a j = Some x -> forall n, whappened a k (j - k + Datatypes.S n) = whappened a k (j - k) ++ x :: whappened a (Datatypes.S j) n.
Proof.
  intros L A n. rewrite whappened_app. replace (k + (j - k))%nat with j by lia. cbn [whappened]. rewrite A. reflexivity.
Qed.
Lemma idle_moment k : actions a k = None -> w (Datatypes.S k) = w k.
Proof. intros A. pose proof (C k) as CK. unfold actions in A. destruct (a k); [discriminate|exact CK]. Qed.

Lemma wwait i r d : forall j, nth_error (s_recs (s j)) i = Some r ->
  (exists k' l, (j <= k' < j + d)%nat /\ actions a k' = Some l /\ (moves i l \/ l = LForget i) /\ nth_error (s_recs (s k')) i = Some r) \/
  nth_error (s_recs (s (j + d)%nat)) i = Some r.
Proof.
  induction d as [|d IH]; intros j J; [right; rewrite Nat.add_0_r; exact J|].
  destruct (IH j J) as [(k' & l & X1 & X2)|X]; [left; exists k', l; split; [lia|exact X2]|].
  replace (j + Datatypes.S d)%nat with (Datatypes.S (j + d)) by lia.
  destruct (actions a (j + d)%nat) as [l|] eqn:A; [|right; unfold states; rewrite (idle_moment _ A); exact X].
  destruct (mine i l) as [M|[M1 M2]]; [left; exists (j + d)%nat, l; split; [lia|auto]|].
  destruct (act_inv h0 w a C _ _ A) as (n & _ & ST). right. apply (wkept _ _ _ _ i r ST M1 M2 X).
Qed.
(** a recorder that keeps recording reads the phase again and again, and completes that *)
Lemma wrounds i : keeps_recording (actions a) i -> forall k, exists x f, (k <= x < f)%nat /\ actions a x = Some (LLoad i) /\ actions a f = Some (LFinish i).
Proof.
  intros KR k. destruct (KR k) as (v & o & W1 & W2). destruct (wmoment _ _ W2) as (p0 & q0 & s0 & SW & EQ). unfold step in SW. cbn [with_phase s_recs] in SW.
  destruct (nth_error (s_recs (s v)) i) as [[b p pc]|] eqn:K; try discriminate SW. destruct pc; try discriminate SW.
  destruct (apply_op (b_hist b) o) as [[h ok]|]; try discriminate SW. injection SW as SW.
  assert (J : exists b', nth_error (s_recs (s (Datatypes.S v))) i = Some (Rec b' p PWrote)).
  { rewrite EQ, <- SW. cbn. eexists. apply put_same. eapply nth_lt; eauto. }
  destruct J as [b' J]. clear SW EQ K.
  destruct (KR (Datatypes.S v)) as (w2 & o2 & V1 & V2).
  destruct (wwait i _ (w2 - Datatypes.S v) _ J) as [(x & l & X1 & X2 & X3 & X4)|X].
  2:{ exfalso. replace (Datatypes.S v + (w2 - Datatypes.S v))%nat with w2 in X by lia. destruct (wmoment _ _ V2) as (p1 & q1 & s1 & SV & _).
      unfold step in SV. cbn [with_phase s_recs] in SV. rewrite X in SV. discriminate SV. }
  assert (LX : l = LLoad i /\ exists q, nth_error (s_recs (s (Datatypes.S x))) i = Some (Rec b' p (PLoaded q))).
  { destruct (wmoment _ _ X2) as (p1 & q1 & s1 & SX & EX). destruct X3 as [X3| ->]; [destruct l; cbn [moves] in X3; try contradiction; subst i0|];
      unfold step in SX; cbn [with_phase s_recs] in SX; rewrite X4 in SX; try discriminate SX. split; [reflexivity|]. injection SX as <-. rewrite EX. cbn.
    eexists. apply put_same. eapply nth_lt; eauto. }
  destruct LX as [-> (q & J2)]. clear X3.
  destruct (KR (Datatypes.S x)) as (w3 & o3 & U1 & U2).
  destruct (wwait i _ (w3 - Datatypes.S x) _ J2) as [(f & l & F1 & F2 & F3 & F4)|X].
  2:{ exfalso. replace (Datatypes.S x + (w3 - Datatypes.S x))%nat with w3 in X by lia. destruct (wmoment _ _ U2) as (p1 & q1 & s1 & SV & _).
      unfold step in SV. cbn [with_phase s_recs] in SV. rewrite X in SV. discriminate SV. }
  exists x, f. split; [lia|]. split; [exact X2|]. rewrite F2. f_equal.
  destruct (wmoment _ _ F2) as (p1 & q1 & s1 & SF & _). destruct F3 as [F3| ->]; [destruct l; cbn [moves] in F3; try contradiction; subst i0|];
    unfold step in SF; cbn [with_phase s_recs] in SF; rewrite F4 in SF; try discriminate SF. reflexivity.
Qed.
Lemma wshifts_on : keeps_refreshing (actions a) -> forall k, exists x, (k <= x)%nat /\ actions a x = Some RShift.
Proof.
  intros KR k. destruct (KR k) as (x & t & X1 & X2). destruct (KR (Datatypes.S x)) as (y & t' & Y1 & Y2).
  assert (B : before_shift (s (Datatypes.S x))).
  { destruct (wmoment _ _ X2) as (p1 & q1 & s1 & SX & EX). rewrite EX. cbn in SX. destruct (s_reader (s x)); try discriminate SX. injection SX as <-. exact Logic.I. }
  assert (X : forall d, (exists z, (Datatypes.S x <= z)%nat /\ actions a z = Some RShift) \/ before_shift (s (Datatypes.S x + d)%nat)).
  { induction d as [|d [IH|IH]]; [right; rewrite Nat.add_0_r; exact B|left; exact IH|].
    rewrite Nat.add_succ_r. destruct (actions a (Datatypes.S x + d)%nat) as [l|] eqn:A; [|right; unfold states; rewrite (idle_moment _ A); exact IH].
    assert (D : l = RShift \/ l <> RShift) by (destruct l; auto; right; discriminate).
    destruct D as [->|D]; [left; exists (Datatypes.S x + d)%nat; split; [lia|exact A]|right].
    destruct (wmoment _ _ A) as (p1 & q1 & s1 & SX & EX). rewrite EX.
    exact (before_step _ l s1 SX D IH). }
  destruct (X (y - Datatypes.S x)%nat) as [(z & Z1 & Z2)|Z]; [exists z; split; [lia|exact Z2]|]. exfalso.
  replace (Datatypes.S x + (y - Datatypes.S x))%nat with y in Z by lia. destruct (wmoment _ _ Y2) as (p1 & q1 & s1 & SY & _). cbn in SY.
  unfold before_shift in Z. destruct (s_reader (s y)); try discriminate SY. exact Z.
Qed.
Lemma now_on k d : w_now (w k) <= w_now (w (k + d)%nat).
Proof. destruct (wgo d k) as [E _]. rewrite (now_mono _ _ _ E). pose proof (shifts_nonneg (acts (whappened a k d))). lia. Qed.
Lemma reads_look i j l n : a j = Some (l, n) -> looks i l -> reads a i j n /\ n <= w_now (w j).
Proof.
  intros A L. split; [exists l; auto|]. assert (LO : load_of l = Some i) by (destruct L as [-> | ->]; reflexivity).
  pose proof (C j) as CJ. rewrite A in CJ. destruct CJ as [_ ST]. destruct (wstep_load _ _ _ _ _ LO ST) as (B & _). lia.
Qed.
Lemma reads_dec i j : (exists n, reads a i j n) \/ forall n, ~ reads a i j n.
Proof.
  destruct (looks_dec (actions a) i j) as [(l & A & L)|N].
  - destruct (act_inv h0 w a C j l A) as (n & AJ & _). left. exists n, l. auto.
  - right. intros n (l & A & L). apply (N l); auto. apply (act_some a j l n A).
Qed.
(** among the looks from one to a later one with a newer value, two that follow each other differ *)
Lemma newer i : forall d x y n0 n, (y - x <= d)%nat -> (x < y)%nat -> reads a i x n0 -> reads a i y n -> n0 < n ->
  exists j1 n1 j2 n2, (x <= j1 < j2)%nat /\ (j2 <= y)%nat /\ reads a i j1 n1 /\ reads a i j2 n2 /\ (forall j v, (j1 < j < j2)%nat -> ~ reads a i j v) /\ n1 < n2.
Proof.
  induction d as [|d IH]; intros x y n0 n D L X Y LT; [lia|].
  assert (LAST : exists m nm, (x <= m < y)%nat /\ reads a i m nm /\ forall j v, (m < j < y)%nat -> ~ reads a i j v).
  { assert (G : forall e, (x + e < y)%nat -> exists m nm, (x <= m <= x + e)%nat /\ reads a i m nm /\ forall j v, (m < j <= x + e)%nat -> ~ reads a i j v).
    { induction e as [|e IHe]; intros LE.
      - exists x, n0. split; [lia|]. split; [exact X|]. intros j v J. lia.
      - destruct (reads_dec i (x + Datatypes.S e)) as [(v & RV)|N].
        + exists (x + Datatypes.S e)%nat, v. split; [lia|]. split; [exact RV|]. intros j v' J. lia.
        + destruct IHe as (m & nm & M1 & M2 & M3); [lia|]. exists m, nm. split; [lia|]. split; [exact M2|]. intros j v J.
          destruct (Nat.eq_dec j (x + Datatypes.S e)) as [->|NE]; [apply N|apply M3; lia]. }
    destruct (G (y - x - 1)%nat) as (m & nm & M1 & M2 & M3); [lia|]. exists m, nm. split; [lia|]. split; [exact M2|]. intros j v J. apply M3. lia. }
  destruct LAST as (m & nm & M1 & M2 & M3).
  destruct (Z.lt_ge_cases nm n) as [Q|Q].
  - exists m, nm, y, n. split; [lia|]. split; [lia|]. auto.
  - destruct (Nat.eq_dec m x) as [->|NE].
    + exfalso. destruct X as (l1 & A1 & _), M2 as (l2 & A2 & _). rewrite A1 in A2. injection A2 as _ <-. lia.
    + destruct (IH x m n0 nm) as (j1 & n1 & j2 & n2 & Z1 & Z2 & Z3 & Z4 & Z5 & Z6); try lia; auto.
      exists j1, n1, j2, n2. split; [lia|]. split; [lia|]. auto.
Qed.
Lemma whistory_on k c : In c (s_history (s k)) -> forall d, In c (s_history (s (k + d)%nat)).
Proof. intros I d. destruct (wgo d k) as [E _]. eapply whistory_kept; eauto. Qed.

(** the call leaves the recorder *)
Lemma wleaves i k0 c : keeps_recording (actions a) i -> wakes_end (actions a) i -> keeps_refreshing (actions a) -> becomes_visible w a -> wlooks_in_time a i k0 ->
  In c (s_history (s k0)) -> c_rec c = i ->
  exists k, forall d r, In r (s_recs (s (k + d)%nat)) -> ~ In c (b_log (r_local r)).
Proof.
  intros KR (K & WE) RG VIS LT H CI.
  destruct (wrounds i KR (Nat.max k0 K)) as (x1 & f1 & B1 & A1 & _).
  destruct (act_inv h0 w a C _ _ A1) as (v1 & A1' & _). destruct (reads_look i x1 _ _ A1' (or_introl eq_refl)) as [RD1 LE1].
  destruct (wshifts_on RG (Datatypes.S x1)) as (y & Y1 & Y2).
  assert (NOW : v1 < w_now (w (Datatypes.S y))).
  { destruct (act_inv h0 w a C _ _ Y2) as (vy & _ & SY). rewrite (now_step _ _ _ _ SY), shifts_one.
    pose proof (now_on x1 (y - x1)) as M. replace (x1 + (y - x1))%nat with y in M by lia. lia. }
  destruct (VIS (Datatypes.S y)) as (KV & VK).
  destruct (wrounds i KR (Nat.max KV (Datatypes.S y))) as (x2 & f2 & B2 & A2 & _).
  destruct (act_inv h0 w a C _ _ A2) as (v2 & A2' & _). destruct (reads_look i x2 _ _ A2' (or_introl eq_refl)) as [RD2 _].
  assert (V2 : w_now (w (Datatypes.S y)) <= v2) by (apply (VK x2 (LLoad i) v2); [lia|exact A2'|exact Logic.I]).
  destruct (newer i (x2 - x1) x1 x2 v1 v2) as (m1 & n1 & m2 & n2 & M1 & M2 & RM1 & RM2 & NB & N12); auto; try lia.
  destruct RM1 as (l1 & AM1 & LK1), RM2 as (l2 & AM2 & LK2).
  destruct (wrounds i KR (Datatypes.S m2)) as (x3 & f & B3 & A3 & F2).
  destruct (act_inv h0 w a C _ _ F2) as (vf & F2' & _).
  set (tb := whappened a (Datatypes.S m1) (m2 - Datatypes.S m1)).
  exists (Datatypes.S f). intros d r.
  assert (TR : tr0 ++ whappened a 0 (Datatypes.S f + d) =
     (tr0 ++ whappened a 0 m1) ++ (l1, n1) :: tb ++ (l2, n2) :: whappened a (Datatypes.S m2) (f - Datatypes.S m2) ++ (LFinish i, vf) :: whappened a (Datatypes.S f) d).
  { rewrite <- app_assoc. f_equal.
    replace (Datatypes.S f + d)%nat with (m1 - 0 + Datatypes.S ((m2 - Datatypes.S m1) + Datatypes.S ((f - Datatypes.S m2) + Datatypes.S d)))%nat by lia.
    rewrite (wsplit_at 0 m1 (l1, n1)) by (auto; lia). rewrite Nat.sub_0_r. f_equal. f_equal.
    rewrite (wsplit_at (Datatypes.S m1) m2 (l2, n2)) by (auto; lia). f_equal. f_equal.
    rewrite (wsplit_at (Datatypes.S m2) f (LFinish i, vf)) by (auto; lia). reflexivity. }
  assert (T1 : tr0 ++ whappened a 0 m2 = (tr0 ++ whappened a 0 m1) ++ (l1, n1) :: tb).
  { rewrite <- app_assoc. f_equal. replace m2 with (m1 - 0 + Datatypes.S (m2 - Datatypes.S m1))%nat at 1 by lia.
    rewrite (wsplit_at 0 m1 (l1, n1)) by (auto; lia). rewrite Nat.sub_0_r. reflexivity. }
  pose proof (wso_far (Datatypes.S f + d)) as RN. rewrite TR in RN.
  pose proof (wso_far m2) as (_ & _ & E1). rewrite T1 in E1.
  apply (C82_handed_over_proof h0 _ l1 n1 tb l2 n2 _ (LFinish i) vf _ (w m2) _ i c RN E1); auto.
  - change (In c (s_history (s m2))). replace m2 with (k0 + (m2 - k0))%nat by lia. apply whistory_on. exact H.
  - intros l I. apply In_whappened in I. destruct I as (j & J1 & J2). split.
    + intros L. destruct (act_inv h0 w a C _ _ J2) as (vj & AJ & _). apply (NB j vj); [lia|]. exists l. auto.
    + intros ->. apply (WE j); [lia|exact J2].
  - split; [lia|]. apply (LT m1 n1 m2 n2); [lia|exists l1; auto|exists l2; auto|exact NB].
Qed.
(** what has left its recorder is merged by the next complete [refresh], and stays *)
Lemma wmerged_on k c : never_set (actions a) -> In c (b_log (s_merged (s k))) -> forall d, In c (b_log (s_merged (s (k + d)%nat))).
Proof.
  intros NS I. induction d as [|d IH]; [rewrite Nat.add_0_r; exact I|]. rewrite Nat.add_succ_r.
  destruct (actions a (k + d)%nat) as [l|] eqn:A; [|unfold states; rewrite (idle_moment _ A); exact IH].
  destruct (wmoment _ _ A) as (p1 & q1 & s1 & SX & EX). rewrite EX. apply (merged_step _ _ _ c SX); auto. intros h ->. apply (NS _ _ A).
Qed.
Lemma wuntouched_on k : merged_untouched (acts tr0) -> never_set (actions a) -> merged_untouched (acts (tr0 ++ whappened a 0 k)).
Proof.
  intros U NS h I. rewrite acts_app in I. apply in_app_iff in I. destruct I as [I|I]; [apply (U h I)|]. apply In_whappened in I. destruct I as (j & _ & J). apply (NS j h J).
Qed.
Lemma wcollected k c : merged_untouched (acts tr0) -> never_set (actions a) -> keeps_refreshing (actions a) -> In c (s_history (s k)) ->
  (forall d r, In r (s_recs (s (k + d)%nat)) -> ~ In c (b_log (r_local r))) ->
  exists K, forall k', (K <= k')%nat -> In c (b_log (s_merged (s k'))).
Proof.
  intros U NS RG H OUT. destruct (RG k) as (x & t & X1 & X2). destruct (RG (Datatypes.S x)) as (y & t' & Y1 & Y2).
  destruct (wmoment _ _ Y2) as (p1 & q1 & s1 & SY & _). cbn in SY. destruct (s_reader (s y)) eqn:RY; try discriminate SY. clear SY.
  destruct (first_ready s (y - Datatypes.S x) (Datatypes.S x)) as (z & Z1 & Z2 & Z3); [replace (Datatypes.S x + (y - Datatypes.S x))%nat with y by lia; exact RY|].
  destruct (act_inv h0 w a C _ _ X2) as (vx & AX & SX).
  assert (M : In c (b_log (s_merged (s z)))).
  { apply (C73_refresh_collects_proof h0 (tr0 ++ whappened a 0 x) (w x) t vx (whappened a (Datatypes.S x) (z - Datatypes.S x)) (w z) c).
    - apply wso_far.
    - apply wuntouched_on; auto.
    - cbn [wexec]. rewrite SX. destruct (wgo (z - Datatypes.S x) (Datatypes.S x)) as [E _]. rewrite E. f_equal. f_equal. lia.
    - apply Forall_forall. intros l I. apply In_whappened in I. destruct I as (j & J1 & J2). destruct (wmoment _ _ J2) as (p2 & q2 & s2 & SJ & _).
      apply (busy _ l s2 SJ). apply Z3. lia.
    - exact Z2.
    - change (In c (s_history (s x))). replace x with (k + (x - k))%nat by lia. apply whistory_on. exact H.
    - change (forall r, In r (s_recs (s x)) -> ~ In c (b_log (r_local r))). replace x with (k + (x - k))%nat by lia. apply OUT. }
  exists z. intros k' L. replace k' with (z + (k' - z))%nat by lia. apply wmerged_on; auto.
Qed.
End WEVENT.

(** Every call made on a recorder is in the merged histogram from some moment on, whatever the other threads
    do and however outdated single loads are, in every execution in which every move of the phase becomes
    visible some time, the reader calls [refresh] (or [refresh_timeout]) again and again, that recorder makes
    calls again and again and goes idle only finitely often, the program does not write to the merged
    histogram itself, and what the recorder reads never moves on by more than [usize::MAX] values at once. *)
Lemma C82_eventually_proof : forall h0 tr0 w a k0 i c,
  wrun h0 tr0 (w 0%nat) -> merged_untouched (acts tr0) -> wcontinues h0 w a -> never_set (actions a) ->
  keeps_refreshing (actions a) -> keeps_recording (actions a) i -> wakes_end (actions a) i ->
  becomes_visible w a -> wlooks_in_time a i k0 ->
  In c (s_history (w_st (w k0))) -> c_rec c = i ->
  exists K, forall k, (K <= k)%nat -> In c (b_log (s_merged (w_st (w k)))).
Proof.
  intros h0 tr0 w a k0 i c R0 U C NS RG KR WE VIS LT H CI.
  destruct (wleaves h0 tr0 w a R0 C i k0 c KR WE RG VIS LT H CI) as (k & OUT).
  apply (wcollected h0 tr0 w a R0 C (k0 + k) c); auto.
  - apply (whistory_on h0 w a C k0 c H).
  - intros d r. replace (k0 + k + d)%nat with (k + (k0 + d))%nat by lia. apply OUT.
Qed.

(*EX
(** rounds without end; in the first one recorder 0 makes a call with an outdated load, which hands nothing over, and then
    another one, which hands over both *)
Example ex_C82_eventually : exists h0 tr0 w a,
  wrun h0 tr0 (w 0%nat) /\ merged_untouched (acts tr0) /\ wcontinues h0 w a /\ never_set (actions a) /\
  keeps_refreshing (actions a) /\ keeps_recording (actions a) 0 /\ wakes_end (actions a) 0 /\ becomes_visible w a /\ wlooks_in_time a 0 5 /\
  s_history (w_st (w 5%nat)) = [Call 0 0 (ORecord 7 1) true] /\ a 5%nat = Some (LLoad 0, 0) /\ w_now (w 5%nat) = 1 /\
  map (fun r => b_log (r_local r)) (s_recs (w_st (w 7%nat))) = [[Call 0 0 (ORecord 7 1) true]] /\
  b_log (s_merged (w_st (w 10%nat))) = [] /\ b_log (s_merged (w_st (w 11%nat))) = [Call 0 0 (ORecord 7 1) true; Call 1 0 (ORecord 7 1) true].
Proof.
  destruct (goes_on_stale false) as (h0 & tr0 & w & a & X1 & X2 & _ & _ & _ & X3 & X4 & _ & _ & _ & _ & _ & _ & _ & X5 & X6 & X7 & X8 & X9 & X).
  exists h0, tr0, w, a. split; [exact X1|]. split; [exact X2|]. split; [exact X3|]. split; [exact X4|]. split; [exact X5|]. split; [exact X6|]. split; [exact X7|].
  split; [exact X8|]. split; [exact X9|exact X].
Qed.
EX*)

(** So is every call made on a recorder that is dropped some time, even if no move of the phase ever becomes
    visible. *)
Lemma C82_dropped_eventually_proof : forall h0 tr0 w a k0 kd i c,
  wrun h0 tr0 (w 0%nat) -> merged_untouched (acts tr0) -> wcontinues h0 w a -> never_set (actions a) ->
  keeps_refreshing (actions a) -> (k0 <= kd)%nat -> actions a kd = Some (LDropEnd i) ->
  In c (s_history (w_st (w k0))) -> c_rec c = i ->
  exists K, forall k, (K <= k)%nat -> In c (b_log (s_merged (w_st (w k)))).
Proof.
  intros h0 tr0 w a k0 kd i c R0 U C NS RG L D H CI. destruct (act_inv h0 w a C _ _ D) as (v & AV & _).
  apply (wcollected h0 tr0 w a R0 C (Datatypes.S kd) c); auto.
  - replace (Datatypes.S kd) with (k0 + (Datatypes.S kd - k0))%nat by lia. apply (whistory_on h0 w a C k0 c H).
  - intros d. pose proof (wso_far h0 tr0 w a R0 C (Datatypes.S kd + d)) as RN. pose proof (wso_far h0 tr0 w a R0 C kd) as (_ & _ & E1).
    replace (Datatypes.S kd + d)%nat with (kd - 0 + Datatypes.S d)%nat in RN at 1 by lia.
    rewrite (wsplit_at a 0 kd (LDropEnd i, v)) in RN by (auto; lia). rewrite Nat.sub_0_r, app_assoc in RN.
    apply (C73_drop_hands_over_proof h0 _ v _ (w kd) _ i c RN E1); auto.
    change (In c (s_history (states w kd))). replace kd with (k0 + (kd - k0))%nat by lia. apply (whistory_on h0 w a C k0 c H).
Qed.
(*EX
(** recorder 1 has recorded 7 and is dropped at moment 0; the reader and recorder 0 go on for ever, and every
    load of the phase returns its very first value *)
Example ex_C82_dropped_eventually : exists h0 tr0 w a,
  wrun h0 tr0 (w 0%nat) /\ merged_untouched (acts tr0) /\ wcontinues h0 w a /\ never_set (actions a) /\ keeps_refreshing (actions a) /\
  actions a 0%nat = Some (LDropEnd 1) /\ s_history (w_st (w 0%nat)) = [Call 0 1 (ORecord 7 1) true] /\
  (forall k l n, a k = Some (l, n) -> is_load l -> n = 0) /\
  b_log (s_merged (w_st (w 2%nat))) = [] /\ b_log (s_merged (w_st (w 3%nat))) = [Call 0 1 (ORecord 7 1) true].
Proof. exact goes_on_blind_dropped. Qed.
EX*)

(** *)
Section WTIMED.
Variables (h0 : hist) (tr0 : list (label * Z)) (w : nat -> wstate) (a : nat -> option (label * Z)).
Notation s := (states w).
Hypothesis R0 : wrun h0 tr0 (w 0%nat).
Hypothesis U0 : merged_untouched (acts tr0).
Hypothesis G0 : guards_dropped (acts tr0).
Hypothesis L0 : s_lock (s 0%nat) <> Poisoned.
Hypothesis MS : merge_safe h0.
Hypothesis C : wcontinues h0 w a.
Hypothesis NS : never_set (actions a).
Hypothesis NL : no_leak (actions a).
Hypothesis FEW : few_recorders s.
Hypothesis RT : refreshes_with_timeout s (actions a).
Hypothesis RD0 : s_reader (s 0%nat) = RReady.
Lemma wready_or_timed k : s_reader (s k) = RReady \/ in_timed_refresh (s k).
Proof.
  induction k as [|k IH]; [left; exact RD0|].
  destruct (actions a k) as [l|] eqn:A; [|unfold states; rewrite (idle_moment h0 w a C _ A); exact IH].
  destruct (wmoment h0 w a C _ _ A) as (p & q & s1 & ST & EQ).
  assert (NP : s_reader s1 <> RPanicked).
  { change (s_reader (with_phase s1 q) <> RPanicked). rewrite <- EQ.
    apply (C73_refresh_never_panics_proof h0 _ _ (wso_far h0 tr0 w a R0 C (Datatypes.S k)) (wuntouched_on tr0 a _ U0 NS) MS). }
  assert (X : s_reader s1 = RReady \/ in_timed_refresh s1); [|rewrite EQ; exact X].
  change (s_reader (with_phase (s k) p) = RReady \/ in_timed_refresh (with_phase (s k) p)) in IH.
  set (s0 := with_phase (s k) p) in *.
  destruct IH as [IH|IH].
  - destruct RT as [_ NR]. specialize (NR k).
    assert (D : in_call l \/ ~ in_call l) by (destruct l; cbn; auto). destruct D as [D|D].
    + left. clearbody s0. destruct l; cbn [in_call] in D; try contradiction; step_cases ST; try congruence;
        try (apply push_inv in ST; destruct ST as (n & _ & ->); exact IH);
        cbn; rewrite ?(proj1 (proj2 (proj2 (proj2 (proj2 (proj2 (send_fields _ _))))))); exact IH.
    + clearbody s0. destruct l; cbn [in_call] in D; try (destruct (D Logic.I)); step_cases ST.
      all: try (destruct NR as [_ NR2]; destruct (NR2 A)).
      * right. destruct timed; [reflexivity|]. destruct NR as [NR1 _]. destruct (NR1 A).
      * left. apply push_inv in ST; destruct ST as (n & _ & EQ'). rewrite EQ'. exact K.
      * left. exact K.
      * left. exact K.
  - assert (I : in_refresh s0) by (unfold in_refresh, in_timed_refresh in *; destruct (s_reader s0); auto).
    assert (D : refresh_step l \/ ~ refresh_step l) by (destruct l; cbn; auto). destruct D as [D|D].
    + destruct (left_refresh _ _ _ D I NP ST) as [X|[X _]]; [left; exact X|right]. apply (timed_step _ l _ IH X ST).
    + right. unfold in_timed_refresh in *. destruct (reader_kept _ _ _ I D ST) as [-> _]. exact IH.
Qed.
Lemma wshifted k : wcontinues h0 (fun j => w (k + j)%nat) (fun j => a (k + j)%nat).
Proof. intros j. pose proof (C (k + j)%nat) as CJ. rewrite Nat.add_succ_r. exact CJ. Qed.
Lemma wkeeps_on : clones_end (actions a) -> sections_go_on s (actions a) -> reader_goes_on s (actions a) -> keeps_refreshing (actions a).
Proof.
  intros (K & CE) SG RG k.
  assert (NX : exists k', (k <= k')%nat /\ s_reader (s k') = RReady).
  { destruct (wready_or_timed k) as [X|X]; [exists k; auto|].
    destruct (C76_timeout_returns_proof h0 (tr0 ++ whappened a 0 k) (fun j => w (k + j)%nat) (fun j => a (k + j)%nat)) as (j & J); auto.
    - rewrite Nat.add_0_r. apply wso_far; auto.
    - apply wuntouched_on; auto.
    - intros i I. rewrite acts_app in I. apply in_app_iff in I. destruct I as [I|I]; [apply (G0 i I)|]. apply In_whappened in I. destruct I as (j & _ & J). apply (NL j i J).
    - rewrite Nat.add_0_r. apply (wpre_lock h0 tr0 w a); auto.
    - apply wshifted.
    - intros j i. apply (NL (k + j)%nat i).
    - intros j. apply (FEW (k + j)%nat).
    - exists K. intros j i LE. apply (CE (k + j)%nat). lia.
    - intros i j r J S. destruct (SG i (k + j)%nat r J S) as (k' & l & L1 & L2 & L3). exists (k' - k)%nat, l.
      unfold actions. replace (k + (k' - k))%nat with k' by lia. split; [lia|auto].
    - apply wreader_as. intros j. destruct (RG (k + j)%nat) as (k' & L1 & L2). exists (k' - k)%nat. split; [lia|].
      unfold actions, states. replace (k + (k' - k))%nat with k' by lia. destruct L2 as [L2|L2]; [left; exact L2|right]. intros j' l L3. apply (L2 (k + j')%nat). lia.
    - rewrite Nat.add_0_r. exact X.
    - exists (k + j)%nat. split; [lia|exact J]. }
  destruct NX as (k' & L & X). destruct RT as [RT1 _]. destruct (RT1 k' X) as (k2 & L2 & X2). exists k2, true. split; [lia|exact X2].
Qed.
End WTIMED.

(** With [refresh_timeout] this needs no assumption that the refreshes return.  It is enough that no thread
    stops for good inside a critical section, the reader is not starved, recorders are cloned only finitely
    often, and the reader calls [refresh_timeout] again some time after it has returned. *)
Lemma C82_with_timeout_proof : forall h0 tr0 w a k0 i c,
  wrun h0 tr0 (w 0%nat) -> merged_untouched (acts tr0) -> guards_dropped (acts tr0) -> merge_safe h0 -> s_lock (w_st (w 0%nat)) <> Poisoned ->
  wcontinues h0 w a -> never_set (actions a) -> no_leak (actions a) -> few_recorders (states w) -> clones_end (actions a) ->
  sections_go_on (states w) (actions a) -> wreader_goes_on wstep w a ->
  s_reader (w_st (w 0%nat)) = RReady -> refreshes_with_timeout (states w) (actions a) ->
  keeps_recording (actions a) i -> wakes_end (actions a) i -> becomes_visible w a -> wlooks_in_time a i k0 ->
  In c (s_history (w_st (w k0))) -> c_rec c = i ->
  exists K, forall k, (K <= k)%nat -> In c (b_log (s_merged (w_st (w k)))).
Proof.
  intros h0 tr0 w a k0 i c R0 U0 G0 MS L0 C NS NL FEW CE SG RG RD RT KR WE VIS LT H CI. apply wreader_as in RG.
  apply (C82_eventually_proof h0 tr0 w a k0 i c); auto. apply (wkeeps_on h0 tr0 w a); auto.
Qed.
(*EX
Example ex_C82_with_timeout : exists h0 tr0 w a,
  wrun h0 tr0 (w 0%nat) /\ merged_untouched (acts tr0) /\ guards_dropped (acts tr0) /\ merge_safe h0 /\ s_lock (w_st (w 0%nat)) <> Poisoned /\
  wcontinues h0 w a /\ never_set (actions a) /\ no_leak (actions a) /\ few_recorders (states w) /\ clones_end (actions a) /\
  sections_go_on (states w) (actions a) /\ wreader_goes_on wstep w a /\ s_reader (w_st (w 0%nat)) = RReady /\
  refreshes_with_timeout (states w) (actions a) /\
  keeps_recording (actions a) 0 /\ wakes_end (actions a) 0 /\ becomes_visible w a /\ wlooks_in_time a 0 5 /\
  s_history (w_st (w 5%nat)) = [Call 0 0 (ORecord 7 1) true] /\ a 5%nat = Some (LLoad 0, 0) /\ w_now (w 5%nat) = 1.
Proof.
  destruct (goes_on_stale true) as (h0 & tr0 & w & a & X1 & X2 & X3 & X4 & X5 & X6 & X7 & X8 & X9 & X10 & X11 & X12 & X13 & X14 & _ & X15 & X16 & X17 & X18 & X19 & X20 & X21 & _).
  exists h0, tr0, w, a. specialize (X14 eq_refl). apply PfWeakLive.wreader_as in X12. split; [exact X1|]. split; [exact X2|]. split; [exact X3|]. split; [exact X4|]. split; [exact X5|]. split; [exact X6|].
  split; [exact X7|]. split; [exact X8|]. split; [exact X9|]. split; [exact X10|]. split; [exact X11|]. split; [exact X12|]. split; [exact X13|]. split; [exact X14|].
  split; [exact X15|]. split; [exact X16|]. split; [exact X17|]. split; [exact X18|]. split; [exact X19|]. split; [exact X20|exact X21].
Qed.
EX*)

(** That every move of the phase becomes visible some time is needed: with loads that return the very first
    value for ever a recorder that keeps recording never hands anything over.  (The architectures make stores
    visible in finite time; the memory model of the language only recommends it.) *)
Lemma C82_invisible_refuted_proof : exists h0 tr0 w a c,
  wrun h0 tr0 (w 0%nat) /\ merged_untouched (acts tr0) /\ wcontinues h0 w a /\ never_set (actions a) /\
  keeps_refreshing (actions a) /\ keeps_recording (actions a) 0 /\ wakes_end (actions a) 0 /\ wlooks_in_time a 0 0 /\
  In c (s_history (w_st (w 5%nat))) /\ c_rec c = 0%nat /\ forall k, ~ In c (b_log (s_merged (w_st (w k)))).
Proof.
  destruct never_sees as (h0 & tr0 & w & a & X1 & X2 & X3 & X4 & X5 & X6 & X7 & X8 & X9 & X10).
  exists h0, tr0, w, a, (Call 0 0 (ORecord 7 1) true). rewrite X9.
  split; [exact X1|]. split; [exact X2|]. split; [exact X3|]. split; [exact X4|]. split; [exact X5|]. split; [exact X6|]. split; [exact X7|]. split; [exact X8|].
  split; [left; reflexivity|]. split; [reflexivity|]. intros k. rewrite X10. auto.
Qed.
