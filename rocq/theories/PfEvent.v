(** * C78: every sample is delivered in the end *)
From Coq Require Import Permutation.
From Verif Require Import Machine Log2Model HistModel Bins ListZ Wf Spec Reach Witness SyncModel SyncSpec SyncOps SyncFacts SyncRefresh PfSync LiveSpec LiveFacts PfLive PfDeliver EventSpec EventFacts.
(*PROPS-IMPORTS Machine Log2Model HistModel Spec Reach Witness Cases SyncModel SyncSpec WeakModel WeakSpec CasesSync LiveSpec EventSpec EventFacts *)

(** *)
Notation modulus := (usize_max + 1).
Lemma phase_step st l st' : step st l = Some st' ->
  s_phase st' = match l with RShift => (s_phase st + 1) mod modulus | _ => s_phase st end.
Proof.
  intros E. destruct l; step_cases E; try reflexivity;
    try (destruct (receive_fields _ _ _ E) as (_ & _ & _ & Y); exact Y);
    try (apply push_inv in E; destruct E as (n & _ & ->); reflexivity);
    cbn; rewrite ?send_phase; reflexivity.
Qed.
Lemma phase_exec tr : forall st st', exec st tr = Some st' -> s_phase st' mod modulus = (s_phase st + shifts tr) mod modulus.
Proof.
  induction tr as [|l tr IH]; intros st st' E; cbn [exec] in E.
  - injection E as <-. change (shifts []) with 0. f_equal. lia.
  - destruct (step st l) as [s1|] eqn:S1; [|discriminate]. rewrite (IH _ _ E), (phase_step _ _ _ S1).
    change (l :: tr) with ([l] ++ tr). rewrite shifts_app, shifts_one.
    destruct l; try (f_equal; lia). rewrite Z.add_mod_idemp_l by discriminate. f_equal. lia.
Qed.
Lemma phase_range h0 tr : forall st, exec (init h0) tr = Some st -> 0 <= s_phase st <= usize_max.
Proof.
  induction tr as [|l tr IH] using rev_ind; intros st E.
  - cbn in E. injection E as <-. cbn. unfold usize_max, u64_max. lia.
  - rewrite exec_app in E. destruct (exec (init h0) tr) as [s1|]; [|discriminate]. specialize (IH _ eq_refl). cbn [exec] in E.
    destruct (step s1 l) as [s2|] eqn:S2; [|discriminate]. injection E as <-. rewrite (phase_step _ _ _ S2).
    destruct l; auto. pose proof (Z.mod_pos_bound (s_phase s1 + 1) modulus ltac:(reflexivity)). lia.
Qed.
(** the phase recorder [i] read last *)
Definition remembers (i : nat) (q : Z) (st : state) : Prop :=
  exists r, nth_error (s_recs st) i = Some r /\ (r_pc r = PLoaded q \/ r_pc r = PIdlingLoaded q \/ (r_phase r = q /\ forall q', r_pc r <> PLoaded q' /\ r_pc r <> PIdlingLoaded q')).
Lemma mine i l : (moves i l \/ l = LForget i) \/ others i l.
Proof.
  unfold others. destruct l; cbn [moves]; try (right; split; [tauto|discriminate]);
    destruct (Nat.eq_dec i0 i) as [->|NE]; auto; right; split; congruence || (intros Z; congruence) || tauto.
Qed.
Lemma remembers_step i q st l st' : step st l = Some st' -> ~ looks i l -> l <> LWakeEnd i -> remembers i q st -> remembers i q st'.
Proof.
  intros E NL NW (r & J & D). destruct (mine i l) as [M|[M1 M2]].
  2:{ exists r. split; [apply (kept _ _ _ _ _ E M1 M2 J)|exact D]. }
  unfold remembers. destruct r as [b p pc]. cbn in D.
  destruct M as [M| ->]; [destruct l; cbn [moves] in M; try contradiction; subst i0|]; unfold looks in NL; try tauto; try congruence;
    unfold step in E; rewrite J in E; destruct pc; try discriminate E;
    try (destruct (s_lock st); try discriminate E);
    repeat match type of E with
    | context [match apply_op _ _ with _ => _ end] => destruct (apply_op _ _) as [[? ?]|]; try discriminate E
    | context [match count_up _ with _ => _ end] => destruct (count_up _); try discriminate E
    | context [match count_down _ with _ => _ end] => destruct (count_down _); try discriminate E
    | context [if ?x =? ?y then _ else _] => destruct (Z.eqb_spec x y); try discriminate E
    | context [match shed _ with _ => _ end] => destruct (shed _) as [[? ?]|]; try discriminate E
    end; injection E as <-; cbn; rewrite ?send_recs; cbn;
    try (eexists; split; [apply put_same; eapply nth_lt; eauto|cbn]);
    try (eexists; split; [exact J|cbn]);
    destruct D as [D|[D|[D1 D2]]]; try discriminate D; try (injection D as <-);
    try (right; right; split; [congruence|intros q'; split; discriminate]);
    match type of D2 with forall q', PLoaded ?x <> _ /\ _ => destruct (D2 x) as [D3 _]; destruct (D3 eq_refl)
    | forall q', PIdlingLoaded ?x <> _ /\ _ => destruct (D2 x) as [_ D3]; destruct (D3 eq_refl) end.
Qed.
Lemma remembers_exec i q tr : forall st st', exec st tr = Some st' -> (forall l, In l tr -> ~ looks i l /\ l <> LWakeEnd i) ->
  remembers i q st -> remembers i q st'.
Proof.
  induction tr as [|l tr IH]; intros st st' E N X; cbn in E; [injection E as <-; exact X|].
  destruct (step st l) as [s1|] eqn:S1; [|discriminate]. apply (IH s1); auto.
  - intros l' I. apply N. right. exact I.
  - destruct (N l (or_introl eq_refl)). eapply remembers_step; eauto.
Qed.
Lemma look_remembers i st l st' : looks i l -> step st l = Some st' -> remembers i (s_phase st) st'.
Proof.
  intros [-> | ->] E; unfold step in E; destruct (nth_error (s_recs st) i) as [[b p pc]|] eqn:K; try discriminate E;
    destruct pc; try discriminate E; injection E as <-; cbn; eexists; (split; [cbn; apply put_same; eapply nth_lt; eauto|cbn; auto]).
Qed.
(** the second look *)
Lemma look_leaving i q c st l st' : looks i l -> step st l = Some st' -> remembers i q st -> s_phase st <> q -> leaving i c st'.
Proof.
  intros LK E (r & J & D) NE r' J' I.
  destruct LK as [-> | ->]; unfold step in E; rewrite J in E; destruct r as [b p pc]; cbn in D;
    destruct pc; try discriminate E; injection E as <-; cbn in J'; rewrite put_same in J' by (eapply nth_lt; eauto); injection J' as <-; cbn;
    destruct D as [D|[D|[D1 D2]]]; try discriminate D; exists (s_phase st); split; auto; congruence.
Qed.
Lemma moved h0 t st1 tr st2 : exec (init h0) t = Some st1 -> exec st1 tr = Some st2 -> 1 <= shifts tr <= usize_max -> s_phase st2 <> s_phase st1.
Proof.
  intros E1 E2 B X. pose proof (phase_range _ _ _ E1) as R1. pose proof (phase_exec _ _ _ E2) as P. rewrite X in P.
  replace (s_phase st1) with (s_phase st1 + 0) in P at 1 by lia.
  assert (Y : (s_phase st1 + shifts tr - (s_phase st1 + 0)) mod modulus = 0).
  { rewrite Zminus_mod, <- P, Z.sub_diag. reflexivity. }
  replace (s_phase st1 + shifts tr - (s_phase st1 + 0)) with (shifts tr) in Y by lia.
  rewrite Z.mod_small in Y by lia. lia.
Qed.

(** ** C78.  Every sample is delivered in the end *)
(** [C71_handed_over] without a bound on the number of refreshes of the whole run.  If the phase has moved
    at least once and at most [usize::MAX] times between two moments at which recorder [i] reads it (and it
    has not woken from idle in between), every call made on [i] before the second one, even after the phase
    moved, is in no local histogram once [i] has completed that step. *)
Lemma C78_handed_over_proof : forall h0 t0 look1 tb look2 tc fin td st1 st2 i c,
  run h0 (t0 ++ look1 :: tb ++ look2 :: tc ++ fin :: td) st2 -> exec (init h0) (t0 ++ look1 :: tb) = Some st1 ->
  In c (s_history st1) -> c_rec c = i ->
  looks i look1 -> looks i look2 -> (fin = LFinish i \/ fin = LIdleEnd i) ->
  (forall l, In l tb -> ~ looks i l /\ l <> LWakeEnd i) -> 1 <= shifts tb <= usize_max ->
  forall r, In r (s_recs st2) -> ~ In c (b_log (r_local r)).
Proof.
  intros h0 t0 look1 tb look2 tc fin td st1 st2 i c (R & F & E) E1 H CI L1 L2 FN NW SH.
  apply (out_all h0 _ st2 i c E CI).
  pose proof E1 as E1'. apply exec_cut in E1'. destruct E1' as (s0 & s1 & X1 & X2 & X3).
  replace (t0 ++ look1 :: tb ++ look2 :: tc ++ fin :: td) with ((t0 ++ look1 :: tb) ++ look2 :: tc ++ fin :: td) in E
    by (rewrite <- app_assoc; reflexivity).
  apply exec_cut in E. destruct E as (s3 & s4 & E3 & S4 & E). assert (s3 = st1) by congruence. subst s3.
  apply exec_cut in E. destruct E as (s5 & s6 & E5 & S6 & E).
  assert (O3 : old c st1) by (eapply old_in; eauto).
  assert (O4 : old c s4) by (unfold old in *; pose proof (history_grows _ _ _ S4); lia).
  assert (O5 : old c s5) by (eapply old_exec; eauto).
  assert (O6 : old c s6) by (unfold old in *; pose proof (history_grows _ _ _ S6); lia).
  assert (RM : remembers i (s_phase s0) st1) by (apply (remembers_exec i _ tb s1 st1 X3 NW); apply (look_remembers i s0 look1 s1 L1 X2)).
  assert (PH : s_phase st1 <> s_phase s0).
  { assert (Y : s_phase s1 = s_phase s0). { rewrite (phase_step _ _ _ X2). destruct L1 as [-> | ->]; reflexivity. }
    rewrite <- Y. apply (moved h0 (t0 ++ [look1]) s1 tb st1); auto. rewrite exec_app, X1. cbn. rewrite X2. reflexivity. }
  assert (L4 : leaving i c s4) by (eapply look_leaving; eauto).
  assert (L5 : leaving i c s5) by (eapply leaving_exec; eauto).
  assert (X6 : out i c s6) by (apply (leaving_step i c s5 fin s6 S6 O5 L5); exact FN).
  eapply out_exec; eauto.
Qed.
(*EX
(** the recorder reads phase 0 in a call with 7; a refresh that times out moves the phase; then the recorder
    makes a call with 9, reads phase 1, and hands over both calls, also the one made after the phase moved *)
Example ex_C78_handed_over : match build U64 1 1000 2 false [] with
  | Some h =>
      let t0 := [RRecorder; LWrite 0 (ORecord 7 1)] in
      let tb := [LFinish 0; RStart true; REmpty; RRead; RShift; RTimeout; REmpty; LWrite 0 (ORecord 9 1)] in
      let tr := t0 ++ LLoad 0 :: tb ++ LLoad 0 :: [] ++ LFinish 0 :: [] in
      match exec (init h) (t0 ++ LLoad 0 :: tb), exec (init h) tr with
      | Some st1, Some st2 => run h tr st2 /\ map (fun r => length (b_log (r_local r))) (s_recs st1) = [2]%nat /\
          1 <= shifts tb <= usize_max /\
          map (fun r => b_log (r_local r)) (s_recs st2) = [[]] /\ map b_log (s_chan st2) = [s_history st1]
      | _, _ => False end
  | None => False end.
Proof. sync_case. Qed.
EX*)

(** *)
Lemma happened_app a n m : forall k, happened a k (n + m) = happened a k n ++ happened a (k + n)%nat m.
Proof.
  induction n as [|n IH]; intros k; cbn [Nat.add happened]; [rewrite Nat.add_0_r; reflexivity|].
  rewrite IH. replace (Datatypes.S k + n)%nat with (k + Datatypes.S n)%nat by lia. destruct (a k); reflexivity.
Qed.
Lemma In_happened a l n : forall k, In l (happened a k n) -> exists j, (k <= j < k + n)%nat /\ a j = Some l.
Proof.
  induction n as [|n IH]; intros k I; cbn [happened] in I; [contradiction|].
  destruct (a k) as [l'|] eqn:A.
  - destruct I as [->|I]; [exists k; split; [lia|exact A]|]. destruct (IH _ I) as (j & J1 & J2). exists j. split; [lia|exact J2].
  - destruct (IH _ I) as (j & J1 & J2). exists j. split; [lia|exact J2].
Qed.
Lemma happened_in a l j n : forall k, (k <= j < k + n)%nat -> a j = Some l -> In l (happened a k n).
Proof.
  induction n as [|n IH]; intros k B A; [lia|]. cbn [happened]. destruct (Nat.eq_dec k j) as [->|NE].
  - rewrite A. left. reflexivity.
  - assert (X : In l (happened a (Datatypes.S k) n)) by (apply IH; auto; lia). destruct (a k); [right|]; exact X.
Qed.
Lemma shift_counts tr : In RShift tr -> 1 <= shifts tr.
Proof.
  intros I. apply in_split in I. destruct I as (x & y & ->). change (RShift :: y) with ([RShift] ++ y). rewrite !shifts_app, shifts_one.
  pose proof (shifts_nonneg x). pose proof (shifts_nonneg y). lia.
Qed.

Section EVENT.
Variables (h0 : hist) (tr0 : list label) (s : nat -> state) (a : nat -> option label).
Hypothesis R0 : run h0 tr0 (s 0%nat).
Hypothesis C : continues h0 s a.
Lemma go n : forall k, exec (s k) (happened a k n) = Some (s (k + n)%nat) /\ Forall (label_ok (h_ctr h0)) (happened a k n).
Proof.
  induction n as [|n IH]; intros k; cbn [happened]; [rewrite Nat.add_0_r; split; [reflexivity|constructor]|].
  pose proof (C k) as CK. destruct (IH (Datatypes.S k)) as [E F]. replace (k + Datatypes.S n)%nat with (Datatypes.S k + n)%nat by lia.
  destruct (a k) as [l|].
  - destruct CK as [LO ST]. cbn [exec]. rewrite ST. split; [exact E|constructor; auto].
  - rewrite <- CK. auto.
Qed.
Lemma so_far k : run h0 (tr0 ++ happened a 0 k) (s k).
Proof.
  destruct R0 as (R & F & E). destruct (go k 0) as [X1 X2]. split; [exact R|]. split; [apply Forall_app; auto|]. rewrite exec_app, E. exact X1.
Qed.
Lemma at_moment k l : a k = Some l -> step (s k) l = Some (s (Datatypes.S k)).
Proof. intros A. pose proof (C k) as CK. rewrite A in CK. apply CK. Qed.
Lemma one_more k l : a k = Some l -> happened a 0 (Datatypes.S k) = happened a 0 k ++ [l].
Proof. intros A. rewrite <- Nat.add_1_r, happened_app. cbn. rewrite A. reflexivity. Qed.
Lemma split_at k j l : (k <= j)%nat -> a j = Some l -> forall n, happened a k (j - k + Datatypes.S n) = happened a k (j - k) ++ l :: happened a (Datatypes.S j) n.
Proof.
  intros L A n. rewrite happened_app. replace (k + (j - k))%nat with j by lia. cbn [happened]. rewrite A. reflexivity.
Qed.

(** the recorder stays as it is until something happens to it *)
Lemma wait i r d : forall j, nth_error (s_recs (s j)) i = Some r ->
  (exists k' l, (j <= k' < j + d)%nat /\ a k' = Some l /\ (moves i l \/ l = LForget i) /\ nth_error (s_recs (s k')) i = Some r) \/
  nth_error (s_recs (s (j + d)%nat)) i = Some r.
Proof.
  induction d as [|d IH]; intros j J; [right; rewrite Nat.add_0_r; exact J|].
  destruct (IH j J) as [(k' & l & X1 & X2)|X]; [left; exists k', l; split; [lia|exact X2]|].
  replace (j + Datatypes.S d)%nat with (Datatypes.S (j + d)) by lia.
  pose proof (C (j + d)%nat) as CJ. destruct (a (j + d)%nat) as [l|] eqn:A; [|right; rewrite CJ; exact X].
  destruct CJ as [_ ST]. destruct (mine i l) as [M|[M1 M2]]; [left; exists (j + d)%nat, l; split; [lia|auto]|].
  right. apply (kept _ _ _ i r ST M1 M2 X).
Qed.
(** a recorder that keeps recording reads the phase again and again, and completes that *)
Lemma rounds i : keeps_recording a i -> forall k, exists x f, (k <= x < f)%nat /\ a x = Some (LLoad i) /\ a f = Some (LFinish i).
Proof.
  intros KR k. destruct (KR k) as (w & o & W1 & W2). pose proof (at_moment _ _ W2) as SW. unfold step in SW.
  destruct (nth_error (s_recs (s w)) i) as [[b p pc]|] eqn:K; try discriminate SW. destruct pc; try discriminate SW.
  destruct (apply_op (b_hist b) o) as [[h ok]|]; try discriminate SW. injection SW as SW.
  assert (J : exists b', nth_error (s_recs (s (Datatypes.S w))) i = Some (Rec b' p PWrote)).
  { rewrite <- SW. cbn. eexists. apply put_same. eapply nth_lt; eauto. }
  destruct J as [b' J]. clear SW K.
  destruct (KR (Datatypes.S w)) as (w2 & o2 & V1 & V2).
  destruct (wait i _ (w2 - Datatypes.S w) _ J) as [(x & l & X1 & X2 & X3 & X4)|X].
  2:{ exfalso. replace (Datatypes.S w + (w2 - Datatypes.S w))%nat with w2 in X by lia. pose proof (at_moment _ _ V2) as SV.
      unfold step in SV. rewrite X in SV. discriminate SV. }
  assert (LX : l = LLoad i /\ s (Datatypes.S x) = put_rec (s x) i (Rec b' p (PLoaded (s_phase (s x))))).
  { pose proof (at_moment _ _ X2) as SX. destruct X3 as [X3| ->]; [destruct l; cbn [moves] in X3; try contradiction; subst i0|];
      unfold step in SX; rewrite X4 in SX; try discriminate SX. split; [reflexivity|congruence]. }
  destruct LX as [-> LX]. clear X3.
  assert (J2 : nth_error (s_recs (s (Datatypes.S x))) i = Some (Rec b' p (PLoaded (s_phase (s x))))).
  { rewrite LX. cbn. apply put_same. eapply nth_lt; eauto. }
  destruct (KR (Datatypes.S x)) as (w3 & o3 & U1 & U2).
  destruct (wait i _ (w3 - Datatypes.S x) _ J2) as [(f & l & F1 & F2 & F3 & F4)|X].
  2:{ exfalso. replace (Datatypes.S x + (w3 - Datatypes.S x))%nat with w3 in X by lia. pose proof (at_moment _ _ U2) as SV.
      unfold step in SV. rewrite X in SV. discriminate SV. }
  exists x, f. split; [lia|]. split; [exact X2|]. rewrite F2. f_equal.
  pose proof (at_moment _ _ F2) as SF. destruct F3 as [F3| ->]; [destruct l; cbn [moves] in F3; try contradiction; subst i0|];
    unfold step in SF; rewrite F4 in SF; try discriminate SF. reflexivity.
Qed.
(** every call of [refresh] that returns moves the phase *)
Definition before_shift (st : state) : Prop :=
  match s_reader st with RDrain _ | RCount _ | RBump _ _ | RPanicked => True | _ => False end.
Lemma before_step st l st' : step st l = Some st' -> l <> RShift -> before_shift st -> before_shift st'.
Proof.
  intros E N B. unfold before_shift in *.
  assert (REC : forall k, receive st k = Some st' -> match k with RDrain _ => True | _ => False end -> match s_reader st' with RDrain _ | RCount _ | RBump _ _ | RPanicked => True | _ => False end).
  { intros k R K. apply receive_inv in R. destruct R as (b & q & CH & [(m & M & ->)|(M & ->)]); cbn; auto. destruct k; auto. }
  destruct l; try congruence; step_cases E; try (apply (REC _ E); exact Logic.I);
    try (apply push_inv in E; destruct E as (n & _ & ->)); cbn; rewrite ?(proj1 (proj2 (proj2 (proj2 (proj2 (proj2 (send_fields _ _))))))); cbn;
    try exact B; try exact Logic.I; try (match goal with K : s_reader st = _ |- _ => rewrite K in B; contradiction end).
  all: try contradiction; rewrite K; exact Logic.I.
Qed.
Lemma shifts_on : keeps_refreshing a -> forall k, exists x, (k <= x)%nat /\ a x = Some RShift.
Proof.
  intros KR k. destruct (KR k) as (x & t & X1 & X2). destruct (KR (Datatypes.S x)) as (y & t' & Y1 & Y2).
  assert (B : before_shift (s (Datatypes.S x))).
  { pose proof (at_moment _ _ X2) as SX. cbn in SX. destruct (s_reader (s x)); try discriminate SX. injection SX as <-. exact Logic.I. }
  assert (X : forall d, (exists z, (Datatypes.S x <= z)%nat /\ a z = Some RShift) \/ before_shift (s (Datatypes.S x + d)%nat)).
  { induction d as [|d [IH|IH]]; [right; rewrite Nat.add_0_r; exact B|left; exact IH|].
    rewrite Nat.add_succ_r. pose proof (C (Datatypes.S x + d)%nat) as CJ. destruct (a (Datatypes.S x + d)%nat) as [l|] eqn:A; [|right; rewrite CJ; exact IH].
    destruct CJ as [_ ST]. assert (D : l = RShift \/ l <> RShift) by (destruct l; auto; right; discriminate).
    destruct D as [->|D]; [left; exists (Datatypes.S x + d)%nat; split; [lia|exact A]|right; eapply before_step; eauto]. }
  destruct (X (y - Datatypes.S x)%nat) as [(z & Z1 & Z2)|Z]; [exists z; split; [lia|exact Z2]|]. exfalso.
  replace (Datatypes.S x + (y - Datatypes.S x))%nat with y in Z by lia. pose proof (at_moment _ _ Y2) as SY. cbn in SY.
  unfold before_shift in Z. destruct (s_reader (s y)); try discriminate SY. exact Z.
Qed.
Lemma looks_dec i j : (exists l, a j = Some l /\ looks i l) \/ (forall l, a j = Some l -> ~ looks i l).
Proof.
  destruct (a j) as [l|]; [|right; discriminate].
  assert (D : looks i l \/ ~ looks i l).
  { unfold looks. destruct l; try (right; intros [X|X]; discriminate X); destruct (Nat.eq_dec i0 i) as [->|NE]; auto; right; intros [X|X]; congruence. }
  destruct D; [left; exists l; auto|right; intros l' E; congruence].
Qed.
Lemma last_look i d : forall j, (exists l, a j = Some l /\ looks i l) ->
  exists m l, (j <= m <= j + d)%nat /\ a m = Some l /\ looks i l /\ forall x l', (m < x <= j + d)%nat -> a x = Some l' -> ~ looks i l'.
Proof.
  induction d as [|d IH]; intros j (l & A & L).
  - exists j, l. split; [lia|]. split; [exact A|]. split; [exact L|]. intros x l' X. lia.
  - destruct (IH j) as (m & l1 & M1 & M2 & M3 & M4); [eauto|].
    destruct (looks_dec i (j + Datatypes.S d)) as [(l2 & D1 & D2)|D].
    + exists (j + Datatypes.S d)%nat, l2. split; [lia|]. split; [exact D1|]. split; [exact D2|]. intros x l' X. lia.
    + exists m, l1. split; [lia|]. split; [exact M2|]. split; [exact M3|]. intros x l' X AX.
      destruct (Nat.eq_dec x (j + Datatypes.S d)) as [->|NE]; [apply D; exact AX|apply (M4 x l'); auto; lia].
Qed.
Lemma first_look i d : forall j, (exists l, a (j + d)%nat = Some l /\ looks i l) ->
  exists m l, (j <= m <= j + d)%nat /\ a m = Some l /\ looks i l /\ forall x l', (j <= x < m)%nat -> a x = Some l' -> ~ looks i l'.
Proof.
  induction d as [|d IH]; intros j (l & A & L).
  - rewrite Nat.add_0_r in A. exists j, l. split; [lia|]. split; [exact A|]. split; [exact L|]. intros x l' X. lia.
  - destruct (looks_dec i j) as [(l2 & D1 & D2)|D].
    + exists j, l2. split; [lia|]. split; [exact D1|]. split; [exact D2|]. intros x l' X. lia.
    + destruct (IH (Datatypes.S j)) as (m & l1 & M1 & M2 & M3 & M4); [exists l; replace (Datatypes.S j + d)%nat with (j + Datatypes.S d)%nat by lia; auto|].
      exists m, l1. split; [lia|]. split; [exact M2|]. split; [exact M3|]. intros x l' X AX.
      destruct (Nat.eq_dec x j) as [->|NE]; [apply D; exact AX|apply (M4 x l'); auto; lia].
Qed.
Lemma history_on k c : In c (s_history (s k)) -> forall d, In c (s_history (s (k + d)%nat)).
Proof. intros I d. destruct (go d k) as [E _]. eapply history_kept; eauto. Qed.

(** the call leaves the recorder *)
Lemma leaves i k0 c : keeps_recording a i -> wakes_end a i -> keeps_refreshing a -> looks_in_time a i k0 ->
  In c (s_history (s k0)) -> c_rec c = i ->
  exists k, forall d r, In r (s_recs (s (k + d)%nat)) -> ~ In c (b_log (r_local r)).
Proof.
  intros KR (K & WE) RG LT H CI.
  destruct (rounds i KR (Nat.max k0 K)) as (x1 & f1 & B1 & A1 & _).
  destruct (shifts_on RG (Datatypes.S x1)) as (y & Y1 & Y2).
  destruct (rounds i KR (Datatypes.S y)) as (x2 & f2 & B2 & A2 & _).
  destruct (last_look i (y - x1) x1) as (m1 & l1 & M1 & M2 & M3 & M4); [exists (LLoad i); split; [exact A1|left; reflexivity]|].
  assert (NE1 : m1 <> y) by (intros ->; rewrite Y2 in M2; injection M2 as <-; destruct M3; discriminate).
  destruct (first_look i (x2 - Datatypes.S y) (Datatypes.S y)) as (m2 & l2 & N1 & N2 & N3 & N4).
  { exists (LLoad i). replace (Datatypes.S y + (x2 - Datatypes.S y))%nat with x2 by lia. split; [exact A2|left; reflexivity]. }
  (* completed *)
  assert (FIN : exists f fin, (m2 < f)%nat /\ a f = Some fin /\ (fin = LFinish i \/ fin = LIdleEnd i)).
  { destruct (rounds i KR (Datatypes.S m2)) as (x3 & f3 & B3 & A3 & F3). exists f3, (LFinish i). split; [lia|auto]. }
  destruct FIN as (f & fin & F1 & F2 & F3).
  set (tb := happened a (Datatypes.S m1) (m2 - Datatypes.S m1)).
  assert (NL : forall j l, (Datatypes.S m1 <= j < Datatypes.S m1 + (m2 - Datatypes.S m1))%nat -> a j = Some l -> ~ looks i l).
  { intros j l J AJ. destruct (Nat.le_gt_cases j y) as [LE|GT]; [apply (M4 j l); auto; lia|apply (N4 j l); auto; lia]. }
  exists (Datatypes.S f). intros d r.
  assert (TR : tr0 ++ happened a 0 (Datatypes.S f + d) =
     (tr0 ++ happened a 0 m1) ++ l1 :: tb ++ l2 :: happened a (Datatypes.S m2) (f - Datatypes.S m2) ++ fin :: happened a (Datatypes.S f) d).
  { rewrite <- app_assoc. f_equal.
    replace (Datatypes.S f + d)%nat with (m1 - 0 + Datatypes.S ((m2 - Datatypes.S m1) + Datatypes.S ((f - Datatypes.S m2) + Datatypes.S d)))%nat by lia.
    rewrite (split_at 0 m1 l1) by (auto; lia). rewrite Nat.sub_0_r. f_equal. f_equal.
    rewrite (split_at (Datatypes.S m1) m2 l2) by (auto; lia). f_equal. f_equal.
    rewrite (split_at (Datatypes.S m2) f fin) by (auto; lia). reflexivity. }
  assert (T1 : tr0 ++ happened a 0 m2 = (tr0 ++ happened a 0 m1) ++ l1 :: tb).
  { rewrite <- app_assoc. f_equal. replace m2 with (m1 - 0 + Datatypes.S (m2 - Datatypes.S m1))%nat at 1 by lia.
    rewrite (split_at 0 m1 l1) by (auto; lia). rewrite Nat.sub_0_r. reflexivity. }
  pose proof (so_far (Datatypes.S f + d)) as RN. rewrite TR in RN.
  pose proof (so_far m2) as (_ & _ & E1). rewrite T1 in E1.
  apply (C78_handed_over_proof h0 _ l1 tb l2 _ fin _ (s m2) _ i c RN E1); auto.
  - replace m2 with (k0 + (m2 - k0))%nat by lia. apply history_on. exact H.
  - intros l I. apply In_happened in I. destruct I as (j & J1 & J2). split; [apply (NL j l J1 J2)|].
    intros ->. apply (WE j); [lia|exact J2].
  - split; [apply shift_counts; apply (happened_in a RShift y); auto; lia|]. apply LT; [lia|exact NL].
Qed.
(** what has left its recorder is merged by the next complete [refresh], and stays *)
Lemma first_ready d : forall j, s_reader (s (j + d)%nat) = RReady ->
  exists m, (j <= m <= j + d)%nat /\ s_reader (s m) = RReady /\ forall x, (j <= x < m)%nat -> s_reader (s x) <> RReady.
Proof.
  induction d as [|d IH]; intros j A.
  - rewrite Nat.add_0_r in A. exists j. split; [lia|]. split; [exact A|]. intros x X. lia.
  - assert (D : s_reader (s j) = RReady \/ s_reader (s j) <> RReady) by (destruct (s_reader (s j)); auto; right; discriminate).
    destruct D as [D|D].
    + exists j. split; [lia|]. split; [exact D|]. intros x X. lia.
    + destruct (IH (Datatypes.S j)) as (m & M1 & M2 & M3); [replace (Datatypes.S j + d)%nat with (j + Datatypes.S d)%nat by lia; auto|].
      exists m. split; [lia|]. split; [exact M2|]. intros x X.
      destruct (Nat.eq_dec x j) as [->|NE]; [exact D|apply M3; lia].
Qed.
Lemma busy st l st' : step st l = Some st' -> s_reader st <> RReady -> in_call l.
Proof. intros E N. destruct l; cbn [in_call]; try exact Logic.I; cbn in E; destruct (s_reader st); try discriminate E; apply N; reflexivity. Qed.
Lemma merged_step st l st' c : step st l = Some st' -> (forall h, l <> RSet h) -> In c (b_log (s_merged st)) -> In c (b_log (s_merged st')).
Proof.
  intros E N I.
  assert (REC : forall k, receive st k = Some st' -> In c (b_log (s_merged st'))).
  { intros k R. apply receive_inv in R. destruct R as (b & q & CH & [(m & M & ->)|(M & ->)]); [|exact I].
    apply merge_inv in M. destruct M as (h & r & _ & ->). cbn. apply in_app_iff. auto. }
  destruct l; try (destruct (N h eq_refl)); step_cases E; try (apply (REC _ E)); try exact I;
    try (apply push_inv in E; destruct E as (n & _ & ->); exact I);
    cbn; rewrite ?(proj1 (send_fields _ _)); exact I.
Qed.
Lemma merged_on k c : never_set a -> In c (b_log (s_merged (s k))) -> forall d, In c (b_log (s_merged (s (k + d)%nat))).
Proof.
  intros NS I. induction d as [|d IH]; [rewrite Nat.add_0_r; exact I|]. rewrite Nat.add_succ_r.
  pose proof (C (k + d)%nat) as CJ. destruct (a (k + d)%nat) as [l|] eqn:A; [|rewrite CJ; exact IH].
  destruct CJ as [_ ST]. apply (merged_step _ _ _ _ ST); auto. intros h ->. apply (NS _ _ A).
Qed.
Lemma untouched_on k : merged_untouched tr0 -> never_set a -> merged_untouched (tr0 ++ happened a 0 k).
Proof.
  intros U NS h I. apply in_app_iff in I. destruct I as [I|I]; [apply (U h I)|]. apply In_happened in I. destruct I as (j & _ & J). apply (NS j h J).
Qed.
Lemma collected k c : merged_untouched tr0 -> never_set a -> keeps_refreshing a -> In c (s_history (s k)) ->
  (forall d r, In r (s_recs (s (k + d)%nat)) -> ~ In c (b_log (r_local r))) ->
  exists K, forall k', (K <= k')%nat -> In c (b_log (s_merged (s k'))).
Proof.
  intros U NS RG H OUT. destruct (RG k) as (x & t & X1 & X2). destruct (RG (Datatypes.S x)) as (y & t' & Y1 & Y2).
  pose proof (at_moment _ _ Y2) as SY. cbn in SY. destruct (s_reader (s y)) eqn:RY; try discriminate SY. clear SY.
  destruct (first_ready (y - Datatypes.S x) (Datatypes.S x)) as (z & Z1 & Z2 & Z3); [replace (Datatypes.S x + (y - Datatypes.S x))%nat with y by lia; exact RY|].
  assert (M : In c (b_log (s_merged (s z)))).
  { apply (C71_refresh_collects_proof h0 (tr0 ++ happened a 0 x) (s x) t (happened a (Datatypes.S x) (z - Datatypes.S x)) (s z) c).
    - apply so_far.
    - apply untouched_on; auto.
    - cbn [exec]. rewrite (at_moment _ _ X2). destruct (go (z - Datatypes.S x) (Datatypes.S x)) as [E _]. rewrite E. f_equal. f_equal. lia.
    - apply Forall_forall. intros l I. apply In_happened in I. destruct I as (j & J1 & J2). apply (busy (s j) l (s (Datatypes.S j))); [apply at_moment; exact J2|].
      apply Z3. lia.
    - exact Z2.
    - replace x with (k + (x - k))%nat by lia. apply history_on. exact H.
    - replace x with (k + (x - k))%nat by lia. apply OUT. }
  exists z. intros k' L. replace k' with (z + (k' - z))%nat by lia. apply merged_on; auto.
Qed.
End EVENT.

(** Every call made on a recorder is in the merged histogram from some moment on, whatever the other threads
    do, in every execution in which the reader calls [refresh] (or [refresh_timeout]) again and again, that
    recorder makes calls again and again and goes idle only finitely often, the program does not write to the
    merged histogram itself, and the phase does not wrap around between two looks of that recorder. *)
Lemma C78_eventually_proof : forall h0 tr0 s a k0 i c,
  run h0 tr0 (s 0%nat) -> merged_untouched tr0 -> continues h0 s a -> never_set a ->
  keeps_refreshing a -> keeps_recording a i -> wakes_end a i -> looks_in_time a i k0 ->
  In c (s_history (s k0)) -> c_rec c = i ->
  exists K, forall k, (K <= k)%nat -> In c (b_log (s_merged (s k))).
Proof.
  intros h0 tr0 s a k0 i c R0 U C NS RG KR WE LT H CI.
  destruct (leaves h0 tr0 s a R0 C i k0 c KR WE RG LT H CI) as (k & OUT).
  apply (collected h0 tr0 s a R0 C (k0 + k) c); auto.
  - apply (history_on h0 s a C k0 c H).
  - intros d r. replace (k0 + k + d)%nat with (k + (k0 + d))%nat by lia. apply OUT.
Qed.
(*EX
(** rounds without end, in each of which recorder 0 makes a call while the reader is inside [refresh]; the
    call of the first round is made at moment 4 and merged at moment 7 *)
Example ex_C78_eventually : exists h0 tr0 s a,
  run h0 tr0 (s 0%nat) /\ merged_untouched tr0 /\ continues h0 s a /\ never_set a /\
  keeps_refreshing a /\ keeps_recording a 0 /\ wakes_end a 0 /\ looks_in_time a 0 5 /\
  s_history (s 5%nat) = [Call 0 0 (ORecord 7 1) true] /\
  b_log (s_merged (s 7%nat)) = [] /\ b_log (s_merged (s 8%nat)) = [Call 0 0 (ORecord 7 1) true].
Proof.
  destruct (goes_on false) as (h0 & tr0 & s & a & X1 & X2 & _ & _ & _ & X3 & X4 & _ & _ & _ & _ & _ & _ & _ & X5 & X6 & X7 & X8 & X9).
  exists h0, tr0, s, a. auto 20.
Qed.
EX*)

(** So is every call made on a recorder that is dropped some time. *)
Lemma C78_dropped_eventually_proof : forall h0 tr0 s a k0 kd i c,
  run h0 tr0 (s 0%nat) -> merged_untouched tr0 -> continues h0 s a -> never_set a ->
  keeps_refreshing a -> (k0 <= kd)%nat -> a kd = Some (LDropEnd i) ->
  In c (s_history (s k0)) -> c_rec c = i ->
  exists K, forall k, (K <= k)%nat -> In c (b_log (s_merged (s k))).
Proof.
  intros h0 tr0 s a k0 kd i c R0 U C NS RG L D H CI.
  apply (collected h0 tr0 s a R0 C (Datatypes.S kd) c); auto.
  - replace (Datatypes.S kd) with (k0 + (Datatypes.S kd - k0))%nat by lia. apply (history_on h0 s a C k0 c H).
  - intros d. pose proof (so_far h0 tr0 s a R0 C (Datatypes.S kd + d)) as RN. pose proof (so_far h0 tr0 s a R0 C kd) as (_ & _ & E1).
    replace (Datatypes.S kd + d)%nat with (kd - 0 + Datatypes.S d)%nat in RN at 1 by lia.
    rewrite (split_at a 0 kd (LDropEnd i)) in RN by (auto; lia). rewrite Nat.sub_0_r, app_assoc in RN.
    apply (C71_drop_hands_over_proof h0 _ _ (s kd) _ i c RN E1); auto.
    replace kd with (k0 + (kd - k0))%nat by lia. apply (history_on h0 s a C k0 c H).
Qed.
(*EX
(** recorder 1 has recorded 7 and is dropped at moment 0; the reader and recorder 0 go on for ever *)
Example ex_C78_dropped_eventually : exists h0 tr0 s a,
  run h0 tr0 (s 0%nat) /\ merged_untouched tr0 /\ continues h0 s a /\ never_set a /\ keeps_refreshing a /\
  a 0%nat = Some (LDropEnd 1) /\ s_history (s 0%nat) = [Call 0 1 (ORecord 7 1) true] /\
  b_log (s_merged (s 2%nat)) = [] /\ b_log (s_merged (s 3%nat)) = [Call 0 1 (ORecord 7 1) true].
Proof. exact goes_on_dropped. Qed.
EX*)

(** *)
Section TIMED.
Variables (h0 : hist) (tr0 : list label) (s : nat -> state) (a : nat -> option label).
Hypothesis R0 : run h0 tr0 (s 0%nat).
Hypothesis U0 : merged_untouched tr0.
Hypothesis G0 : guards_dropped tr0.
Hypothesis L0 : s_lock (s 0%nat) <> Poisoned.
Hypothesis MS : merge_safe h0.
Hypothesis C : continues h0 s a.
Hypothesis NS : never_set a.
Hypothesis NL : no_leak a.
Hypothesis FEW : few_recorders s.
Hypothesis RT : refreshes_with_timeout s a.
Hypothesis RD0 : s_reader (s 0%nat) = RReady.
Lemma ready_or_timed k : s_reader (s k) = RReady \/ in_timed_refresh (s k).
Proof.
  induction k as [|k IH]; [left; exact RD0|].
  pose proof (C k) as CK. destruct (a k) as [l|] eqn:A; [|rewrite CK; exact IH]. destruct CK as [_ ST].
  assert (NP : s_reader (s (Datatypes.S k)) <> RPanicked).
  { apply (C56_refresh_never_panics_proof h0 _ _ (so_far h0 tr0 s a R0 C (Datatypes.S k)) (untouched_on tr0 a _ U0 NS) MS). }
  destruct IH as [IH|IH].
  - destruct RT as [_ NR]. specialize (NR k).
    assert (D : in_call l \/ ~ in_call l) by (destruct l; cbn; auto). destruct D as [D|D].
    + left. destruct l; cbn [in_call] in D; try contradiction; step_cases ST; try congruence;
        try (apply push_inv in ST; destruct ST as (n & _ & ->); exact IH);
        cbn; rewrite ?(proj1 (proj2 (proj2 (proj2 (proj2 (proj2 (send_fields _ _))))))); exact IH.
    + destruct l; cbn [in_call] in D; try (destruct (D Logic.I)); step_cases ST.
      all: try (destruct NR as [_ NR2]; destruct (NR2 A)).
      * right. destruct timed; [reflexivity|]. destruct NR as [NR1 _]. destruct (NR1 A).
      * left. apply push_inv in ST; destruct ST as (n & _ & EQ). rewrite EQ. exact K.
      * left. exact K.
      * left. exact K.
  - assert (I : in_refresh (s k)) by (unfold in_refresh, in_timed_refresh in *; destruct (s_reader (s k)); auto).
    assert (D : refresh_step l \/ ~ refresh_step l) by (destruct l; cbn; auto). destruct D as [D|D].
    + destruct (left_refresh _ _ _ D I NP ST) as [X|[X _]]; [left; exact X|right]. apply (timed_step _ l _ IH X ST).
    + right. unfold in_timed_refresh in *. destruct (reader_kept _ _ _ I D ST) as [-> _]. exact IH.
Qed.
Lemma shifted k : continues h0 (fun j => s (k + j)%nat) (fun j => a (k + j)%nat).
Proof. intros j. pose proof (C (k + j)%nat) as CJ. rewrite Nat.add_succ_r. exact CJ. Qed.
Lemma keeps_on : clones_end a -> sections_go_on s a -> reader_goes_on s a -> keeps_refreshing a.
Proof.
  intros (K & CE) SG RG k.
  assert (NX : exists k', (k <= k')%nat /\ s_reader (s k') = RReady).
  { destruct (ready_or_timed k) as [X|X]; [exists k; auto|].
    destruct (C69_timeout_returns_proof h0 (tr0 ++ happened a 0 k) (fun j => s (k + j)%nat) (fun j => a (k + j)%nat)) as (j & J); auto.
    - rewrite Nat.add_0_r. apply so_far; auto.
    - apply untouched_on; auto.
    - intros i I. apply in_app_iff in I. destruct I as [I|I]; [apply (G0 i I)|]. apply In_happened in I. destruct I as (j & _ & J). apply (NL j i J).
    - rewrite Nat.add_0_r. apply (pre_lock h0 tr0 s a); auto.
    - apply shifted.
    - intros j i. apply NL.
    - intros j. apply FEW.
    - exists K. intros j i LE. apply CE. lia.
    - intros i j r J S. destruct (SG i (k + j)%nat r J S) as (k' & l & L1 & L2 & L3). exists (k' - k)%nat, l.
      replace (k + (k' - k))%nat with k' by lia. split; [lia|auto].
    - intros j. destruct (RG (k + j)%nat) as (k' & L1 & L2). exists (k' - k)%nat. split; [lia|].
      replace (k + (k' - k))%nat with k' by lia. destruct L2 as [L2|L2]; [left; exact L2|right]. intros j' l L3. apply L2. lia.
    - rewrite Nat.add_0_r. exact X.
    - exists (k + j)%nat. split; [lia|exact J]. }
  destruct NX as (k' & L & X). destruct RT as [RT1 _]. destruct (RT1 k' X) as (k2 & L2 & X2). exists k2, true. split; [lia|exact X2].
Qed.
End TIMED.

(** With [refresh_timeout] this needs no assumption that the refreshes return.  It is enough that no thread
    stops for good inside a critical section, the reader is not starved, recorders are cloned only finitely
    often, and the reader calls [refresh_timeout] again some time after it has returned. *)
Lemma C78_with_timeout_proof : forall h0 tr0 s a k0 i c,
  run h0 tr0 (s 0%nat) -> merged_untouched tr0 -> guards_dropped tr0 -> merge_safe h0 -> s_lock (s 0%nat) <> Poisoned ->
  continues h0 s a -> never_set a -> no_leak a -> few_recorders s -> clones_end a ->
  sections_go_on s a -> reader_goes_on s a ->
  s_reader (s 0%nat) = RReady -> refreshes_with_timeout s a ->
  keeps_recording a i -> wakes_end a i -> looks_in_time a i k0 ->
  In c (s_history (s k0)) -> c_rec c = i ->
  exists K, forall k, (K <= k)%nat -> In c (b_log (s_merged (s k))).
Proof.
  intros h0 tr0 s a k0 i c R0 U0 G0 MS L0 C NS NL FEW CE SG RG RD RT KR WE LT H CI.
  apply (C78_eventually_proof h0 tr0 s a k0 i c); auto. apply (keeps_on h0 tr0 s a); auto.
Qed.
(*EX
Example ex_C78_with_timeout : exists h0 tr0 s a,
  run h0 tr0 (s 0%nat) /\ merged_untouched tr0 /\ guards_dropped tr0 /\ merge_safe h0 /\ s_lock (s 0%nat) <> Poisoned /\
  continues h0 s a /\ never_set a /\ no_leak a /\ few_recorders s /\ clones_end a /\
  sections_go_on s a /\ reader_goes_on s a /\ s_reader (s 0%nat) = RReady /\ refreshes_with_timeout s a /\
  keeps_recording a 0 /\ wakes_end a 0 /\ looks_in_time a 0 5 /\ s_history (s 5%nat) = [Call 0 0 (ORecord 7 1) true] /\
  b_log (s_merged (s 7%nat)) = [] /\ b_log (s_merged (s 8%nat)) = [Call 0 0 (ORecord 7 1) true].
Proof.
  destruct (goes_on true) as (h0 & tr0 & s & a & X1 & X2 & X3 & X4 & X5 & X6 & X7 & X8 & X9 & X10 & X11 & X12 & X13 & X14 & _ & X).
  exists h0, tr0, s, a. split; [exact X1|]. split; [exact X2|]. split; [exact X3|]. split; [exact X4|]. split; [exact X5|]. split; [exact X6|].
  split; [exact X7|]. split; [exact X8|]. split; [exact X9|]. split; [exact X10|]. split; [exact X11|]. split; [exact X12|]. split; [exact X13|].
  split; [exact (X14 eq_refl)|exact X].
Qed.
EX*)

(** *)
Lemma exec_idle h0 b q hs p : exec (State (Box h0 []) [] Free 1 p [Rec b q PReady] RReady hs) idle_refresh =
  Some (State (Box h0 []) [] Free 1 ((p + 1) mod modulus) [Rec b q PReady] RReady hs).
Proof. unfold idle_refresh. remember ((p + 1) mod modulus) as p' eqn:P. cbn [exec step s_reader s_chan s_lock s_count put_reader s_phase s_merged s_recs s_history]. rewrite <- P. reflexivity. Qed.
Lemma exec_idles h0 b q hs n : forall p, 0 <= p <= usize_max ->
  exec (State (Box h0 []) [] Free 1 p [Rec b q PReady] RReady hs) (concat (repeat idle_refresh n)) =
  Some (State (Box h0 []) [] Free 1 ((p + Z.of_nat n) mod modulus) [Rec b q PReady] RReady hs).
Proof.
  induction n as [|n IH]; intros p P.
  - cbn [repeat concat exec]. rewrite Z.add_0_r, Z.mod_small by lia. reflexivity.
  - cbn [repeat concat]. rewrite exec_app, exec_idle, IH.
    + rewrite Z.add_mod_idemp_l by discriminate. replace (p + 1 + Z.of_nat n) with (p + Z.of_nat (Datatypes.S n)) by lia. reflexivity.
    + pose proof (Z.mod_pos_bound (p + 1) modulus ltac:(reflexivity)). lia.
Qed.
Lemma exec_call h0 p hs b o h' ok : apply_op (b_hist b) o = Ret (h', ok) ->
  let c := Call (length hs) 0 o ok in
  exec (State (Box h0 []) [] Free 1 p [Rec b p PReady] RReady hs) (one_call o) =
  Some (State (Box h0 []) [] Free 1 p [Rec (Box h' (b_log b ++ [c])) p PReady] RReady (hs ++ [c])).
Proof.
  intros EO. unfold one_call. eapply exec_one; [cbn [step s_recs nth_error]; rewrite EO; reflexivity|].
  eapply exec_one; [reflexivity|]. eapply exec_one; [apply step_same; reflexivity|]. reflexivity.
Qed.
Lemma idles_ok T n : Forall (label_ok T) (concat (repeat idle_refresh n)) .
Proof. induction n as [|n IH]; cbn [repeat concat]; [constructor|]. apply Forall_app. split; [repeat constructor|exact IH]. Qed.
(** The bound on the moves of the phase is needed.  A recorder that makes one call after every
    [usize::MAX + 1] refreshes (which time out) sees the same phase each time, as the phase has wrapped
    around, and never hands anything over. *)
Lemma C78_wrap_refuted_proof : forall h0 os, reachable h0 -> Forall (op_ok (h_ctr h0)) os ->
  exists st, run h0 (RRecorder :: flat_map (fun o => one_call o ++ concat (repeat idle_refresh (Z.to_nat (usize_max + 1)))) os) st /\
             s_reader st = RReady /\ length (s_history st) = length os /\ s_merged st = Box h0 [] /\ s_chan st = [].
Proof.
  intros h0 os R F.
  assert (N : Z.of_nat (Z.to_nat (usize_max + 1)) = usize_max + 1) by (apply Z2Nat.id; discriminate).
  revert N. generalize (Z.to_nat (usize_max + 1)). intros n N.
  assert (INV : exists b hs, length hs = length os /\
     run h0 (RRecorder :: flat_map (fun o => one_call o ++ concat (repeat idle_refresh n)) os) (State (Box h0 []) [] Free 1 0 [Rec b 0 PReady] RReady hs)).
  { induction os as [|o os IH] using rev_ind.
    - cbn [flat_map]. destruct (new_from_reach _ R) as (m & E & _). exists (Box m []), []. split; [reflexivity|].
      split; [exact R|split; [repeat constructor|]]. cbn; unfold push_rec; cbn; rewrite E; reflexivity.
    - apply Forall_app in F. destruct F as [F1 F2]. inversion F2 as [|? ? OK _]; subst.
      destruct (IH F1) as (b & hs & LN & RN). clear IH.
      destruct (typed_run h0 _ _ RN) as (_ & _ & T). cbn in T. inversion T as [|? ? [R1 CT] _]; subst. cbn in R1, CT.
      pose proof OK as OK'. rewrite <- CT in OK'. destruct (op_facts _ o R1 OK') as (h' & ok & EO & _).
      eexists _, _. split; [|split; [exact R|]].
      2:{ destruct RN as (_ & FL & E). rewrite flat_map_app, app_comm_cons. cbn [flat_map]. rewrite app_nil_r. split.
        * apply Forall_app. split; [exact FL|]. apply Forall_app. split; [repeat constructor; exact OK|apply idles_ok].
        * rewrite exec_app, E, exec_app, (exec_call h0 0 hs b o h' ok EO), exec_idles by (split; discriminate).
          rewrite N. change ((0 + (usize_max + 1)) mod modulus) with 0. reflexivity. }
      rewrite !app_length, LN. reflexivity. }
  destruct INV as (b & hs & LN & RN). eexists. split; [exact RN|]. cbn. auto.
Qed.
(*EX
(** the same with four phases in place of [usize::MAX + 1], as far as one call: after the refreshes the
    recorder still remembers the phase it started with, and the phase is the same modulo 4 *)
Example ex_C78_wrap_refuted : match build U64 1 1000 2 false [] with
  | Some h => match exec (init h) (RRecorder :: one_call (ORecord 7 1) ++ concat (repeat idle_refresh 4)) with
    | Some st => s_phase st mod 4 = 0 /\ map r_phase (s_recs st) = [0] /\ s_merged st = Box h [] /\ length (s_history st) = 1%nat
    | None => False end
  | None => False end.
Proof. vm_compute. auto. Qed.
EX*)
