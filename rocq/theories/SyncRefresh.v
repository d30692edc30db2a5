(** * Invariants of one call of [refresh] *)
From Coq Require Import Permutation.
From Verif Require Import Machine HistModel Bins ListZ Wf Ops AddFacts Spec Reach HeldFacts PfMerge SyncModel SyncSpec SyncOps SyncFacts.

(** ** Each local histogram holds the calls of its own recorder *)
Definition own (st : state) : Prop :=
  forall i r c, nth_error (s_recs st) i = Some r -> In c (b_log (r_local r)) -> c_rec c = i.
Lemma own_put st i x r : nth_error (s_recs st) i = Some x -> own st ->
  (forall c, In c (b_log (r_local r)) -> In c (b_log (r_local x)) \/ c_rec c = i) -> own (put_rec st i r).
Proof.
  intros E O H j y c J C. cbn in J. apply put_cases in J. destruct J as [(-> & ->)|(N & J)]; [|eapply O; eauto].
  destruct (H c C) as [X|X]; auto. eapply O; eauto.
Qed.
Lemma own_eq st st' : s_recs st' = s_recs st -> own st -> own st'.
Proof. unfold own. intros ->. auto. Qed.
Lemma own_put_send st i r b : own (put_rec st i r) -> own (put_rec (send st b) i r).
Proof. destruct (send_fields st b) as (_ & _ & _ & _ & SR & _). apply own_eq. cbn. congruence. Qed.
Lemma own_step st l st' : own st -> step st l = Some st' -> own st'.
Proof.
  intros O E. destruct l; step_cases E; try apply own_put_send; try exact O;
    try (match goal with K : nth_error _ ?i = Some ?x |- _ => apply (own_put _ i x); [exact K|exact O|cbn; auto] end; fail);
    try (destruct (receive_fields _ _ _ E) as (X & _); apply (own_eq _ _ X O));
    try (apply push_inv in E; destruct E as (n & _ & ->); intros j y c J C; cbn in J; apply app_cases in J;
         destruct J as [(-> & ->)|J]; [destruct C|eapply O; eauto]);
    try (match goal with K : nth_error _ ?i = Some ?x, SH : shed _ = Ret _ |- _ =>
           apply (own_put _ i x); [exact K|exact O|]; apply shed_inv in SH; destruct SH as (_ & LE & _); cbn; rewrite LE; intros ? [] end).
  intros j y c J C. cbn in J. apply put_cases in J. destruct J as [(-> & ->)|(N & J)]; [|eapply O; eauto].
  cbn in C. apply in_app_iff in C. destruct C as [C|[<-|[]]]; [|reflexivity]. eapply O; eauto.
Qed.
Lemma own_exec h0 tr st : exec (init h0) tr = Some st -> own st.
Proof.
  intros E. apply (exec_ind own (fun _ => True) (init h0) tr st); auto; [intros; eapply own_step; eauto| |apply Forall_forall; auto].
  intros [|i] r c X; discriminate.
Qed.

(** ** After a panic *)
Lemma panicked_step st l st' : s_reader st = RPanicked -> step st l = Some st' -> s_reader st' = RPanicked.
Proof.
  intros P E. destruct l; step_cases E; try congruence; cbn; rewrite ?send_reader; try exact P;
    apply push_history in E; destruct E as [_ ->]; exact P.
Qed.
Lemma panicked_exec tr : forall st st', s_reader st = RPanicked -> exec st tr = Some st' -> s_reader st' = RPanicked.
Proof.
  induction tr as [|l tr IH]; intros st st' P E; cbn in E; [congruence|].
  destruct (step st l) as [s1|] eqn:S1; [|discriminate]. eapply IH; [|eauto]. eapply panicked_step; eauto.
Qed.

(** ** The recorders a [refresh] waits for *)
Section BARRIER.
Variables (P P' : Z) (N : nat) (a : nat) (on : Prop).
Hypothesis Hne : P' <> P.

Definition behind (r : recorder) : Z :=
  if (r_phase r =? P) && match r_pc r with PReady | PWrote | PLoaded _ | PIdling | PIdlingLoaded _ => true | _ => false end then 1 else 0.
Definition near (r : recorder) : Prop :=
  match r_pc r with
  | PReady | PWrote | PIdling => r_phase r = P \/ r_phase r = P'
  | PLoaded q => (r_phase r = P /\ (q = P \/ q = P')) \/ (r_phase r = P' /\ q = P')
  | PIdlingLoaded q => (r_phase r = P \/ r_phase r = P') /\ q = P'
  | _ => True
  end.
Definition barF (rd : rpc) (ph : Z) (ch : list box) (recs : list recorder) : Prop :=
  match rd with
  | RDrain _ => ph = P /\ Forall (seen P) recs
  | RCount _ => ph = P /\ Forall (seen P) recs /\ ch = []
  | RBump _ n => ph = P /\ Forall (seen P) recs /\ ch = [] /\ n = sumr counted recs /\ Forall (fun r => in_section r = false) recs
  | RWait _ n k => ph = P' /\ Forall near recs /\ k + zlen ch + sumr behind recs = n
  | RDrain2 | RReady => ph = P' /\ Forall (seen P') recs /\ ch = []
  | RPanicked => True
  | RGone => False
  end.
Definition bar (st : state) : Prop := barF (s_reader st) (s_phase st) (s_chan st) (s_recs st).
Lemma behind_nonneg r : 0 <= behind r.
Proof. unfold behind. destruct (_ && _); lia. Qed.

(** recorder [a] keeps recording; its calls numbered below [N] leave its local histogram when it catches up *)
Definition late (r : recorder) : Prop := forall c, In c (b_log (r_local r)) -> (N <= c_id c)%nat.
Definition trackF (rd : rpc) (recs : list recorder) : Prop :=
  on -> exists r, nth_error recs a = Some r /\ recording r /\
    match rd with RWait _ _ _ | RDrain2 | RReady => behind r = 1 \/ late r | _ => True end.

Lemma barF_put rd ph ch recs i r r' : barF rd ph ch recs -> nth_error recs i = Some r ->
  (seen ph r -> seen ph r') ->
  (ph = P' -> near r -> near r' /\ behind r' = behind r) ->
  ((exists t n, rd = RBump t n) -> in_section r = false -> counted r' = counted r /\ in_section r' = false) ->
  barF rd ph ch (put recs i r').
Proof.
  intros B E HA HC HB. unfold barF in *. destruct rd; auto.
  - destruct B as (-> & F & C). split; auto. split; auto. apply put_Forall; auto. apply HA. eapply nth_Forall; eauto.
  - destruct B as (-> & F). split; auto. apply put_Forall; auto. apply HA. eapply nth_Forall; eauto.
  - destruct B as (-> & F & C). split; auto. split; auto. apply put_Forall; auto. apply HA. eapply nth_Forall; eauto.
  - destruct B as (-> & F & C & D & G). destruct (HB ltac:(eauto) (nth_Forall _ _ _ _ G E)) as [H1 H2].
    split; auto. split; [apply put_Forall; auto; apply HA; eapply nth_Forall; eauto|]. split; auto. split.
    + rewrite (sumr_put _ _ _ _ _ E). lia.
    + apply put_Forall; auto.
  - destruct B as (-> & F & C). destruct (HC eq_refl (nth_Forall _ _ _ _ F E)) as [H1 H2].
    split; auto. split; [apply put_Forall; auto|]. rewrite (sumr_put _ _ _ _ _ E). lia.
  - destruct B as (-> & F & C). split; auto. split; auto. apply put_Forall; auto. apply HA. eapply nth_Forall; eauto.
Qed.
Lemma barF_send rd ph ch recs i r r' b : barF rd ph ch recs -> rd <> RPanicked -> nth_error recs i = Some r ->
  ~ seen ph r ->
  (ph = P' -> near r -> near r' /\ behind r' = behind r - 1) ->
  (exists t n k, rd = RWait t n k) /\ barF rd ph (ch ++ [b]) (put recs i r').
Proof.
  intros B NP E HA HC. unfold barF in *. destruct rd;
    try (exfalso; destruct B as (-> & F & _); apply HA; eapply nth_Forall; eauto; fail);
    try (exfalso; destruct B as (-> & F); apply HA; eapply nth_Forall; eauto; fail); try contradiction.
  destruct B as (-> & F & C). destruct (HC eq_refl (nth_Forall _ _ _ _ F E)) as [H1 H2].
  split; eauto. split; auto. split; [apply put_Forall; auto|]. rewrite (sumr_put _ _ _ _ _ E), zlen_app.
  change (zlen [b]) with 1. lia.
Qed.
Lemma trackF_put rd recs i r r' : trackF rd recs -> nth_error recs i = Some r ->
  (on -> i = a -> recording r -> recording r' /\ ((behind r = 1 -> behind r' = 1 \/ late r') /\ (late r -> late r'))) ->
  trackF rd (put recs i r').
Proof.
  intros TR EI H O. destruct (TR O) as (x & E & RX & M). destruct (Nat.eq_dec i a) as [->|NE].
  - rewrite E in EI. injection EI as ->. destruct (H O eq_refl RX) as (H1 & H2 & H3). exists r'.
    split; [apply put_same; eapply nth_lt; eauto|]. split; auto. destruct rd; auto; destruct M as [M|M]; auto.
  - exists x. rewrite put_other by auto. auto.
Qed.
Lemma trackF_app rd recs r : trackF rd recs -> trackF rd (recs ++ [r]).
Proof. intros TR O. destruct (TR O) as (x & E & M). exists x. split; auto. rewrite nth_error_app1; auto. eapply nth_lt; eauto. Qed.

Definition tracked (st : state) : Prop := trackF (s_reader st) (s_recs st) /\ (N <= length (s_history st))%nat.
Definition panicked (st : state) : Prop := s_reader st = RPanicked.
Definition not_idled (l : label) : Prop := on -> l <> LIdle a.

Ltac phases := unfold seen, near, behind, recording, late, in_section, counted, is_active in *; cbn [r_pc r_phase r_local b_log] in *.
Ltac eqbs := repeat match goal with
  | H : (_ =? _) = true |- _ => apply Z.eqb_eq in H
  | H : (_ =? _) = false |- _ => apply Z.eqb_neq in H
  | |- context [?x =? ?y] => destruct (Z.eqb_spec x y)
  | H : context [?x =? ?y] |- _ => destruct (Z.eqb_spec x y)
  end.
Ltac fin := phases; eqbs; cbn [andb] in *; intuition (try congruence; try lia).

Lemma receive_bar st k st' : receive st k = Some st' ->
  (exists b q m, s_chan st = b :: q /\ st' = put_reader (put_merged (put_chan st q) m) k) \/ s_reader st' = RPanicked.
Proof. intros E. apply receive_inv in E. destruct E as (b & q & Q & [(m & M & ->)|(M & ->)]); [left|right]; eauto 6. Qed.

Lemma bar_send st i r r' b : bar st -> tracked st -> s_reader st <> RPanicked -> nth_error (s_recs st) i = Some r ->
  ~ seen (s_phase st) r -> (s_phase st = P' -> near r -> near r' /\ behind r' = behind r - 1) ->
  (on -> i = a -> recording r -> recording r') -> b_log (r_local r') = [] ->
  bar (put_rec (send st b) i r') /\ tracked (put_rec (send st b) i r').
Proof.
  intros B [T TN] NP K HA HC RC LE. destruct (barF_send _ _ _ _ i r r' b B NP K HA HC) as [(t & n & k & RD) B'].
  destruct (send_cases st b) as [(X & _)|(_ & ->)]; [congruence|]. unfold bar, tracked. cbn.
  split; [exact B'|]. split; [|exact TN]. apply (trackF_put _ _ _ _ _ T K). intros O EI RR. split; auto.
  unfold late. rewrite LE. split; intros _; [right|]; intros c [].
Qed.
Lemma bar_put st i r r' : bar st -> tracked st -> nth_error (s_recs st) i = Some r ->
  (seen (s_phase st) r -> seen (s_phase st) r') ->
  (s_phase st = P' -> near r -> near r' /\ behind r' = behind r) ->
  (in_window st -> in_section r = false -> counted r' = counted r /\ in_section r' = false) ->
  (on -> i = a -> recording r -> recording r' /\ b_log (r_local r') = b_log (r_local r) /\ (behind r = 1 -> behind r' = 1)) ->
  bar (put_rec st i r') /\ tracked (put_rec st i r').
Proof.
  intros B [T TN] K HA HC HB HT. unfold bar, tracked. cbn. split; [apply (barF_put _ _ _ _ i r r' B K HA HC HB)|].
  split; [|exact TN]. apply (trackF_put _ _ _ _ _ T K). intros O EI RR. destruct (HT O EI RR) as (H1 & H2 & H3). split; auto.
  unfold late. rewrite H2. auto.
Qed.
Lemma bar_lock st k c : bar st -> tracked st -> bar (put_lock st k c) /\ tracked (put_lock st k c).
Proof. auto. Qed.

Lemma bar_step st l st' : bar st -> tracked st -> s_reader st <> RPanicked ->
  in_call l -> smooth st l -> not_idled l -> lock_ok st -> count_ok st -> (P + 1) mod (usize_max + 1) = P' ->
  step st l = Some st' -> (bar st' /\ tracked st') \/ s_reader st' = RPanicked.
Proof.
  intros B T NP IC SM NI LK CK PH E.
  destruct l; cbn [in_call] in IC; try contradiction; cbn [smooth] in SM; try contradiction; step_cases E; try (left; split; [exact B|exact T]).
  - (* LWrite *)
    destruct T as [T TN]. left. unfold bar, tracked. cbn [put_rec s_reader s_phase s_chan s_recs s_history s_merged s_lock s_count]. split; [|split].
    + apply (barF_put _ _ _ _ _ _ _ B K); [fin|fin|]. intros _ _. split; reflexivity.
    + apply (trackF_put _ _ _ _ _ T K). intros _ -> _. split; [exact I|]. split; [fin|]. intros L c C. cbn in C. apply in_app_iff in C.
      destruct C as [C|[<-|[]]]; [apply L; exact C|]. cbn. lia.
    + rewrite app_length. cbn. lia.
  - left. eapply bar_put; eauto; fin.
  - left. eapply bar_put; eauto; fin.
  - left. pose proof (shed_inv _ _ _ K3) as (-> & LE & _). eapply bar_send; eauto; fin.
  - (* LClone *)
    left. destruct T as [T TN]. destruct SM as [SM1 SM2]. apply push_inv in E. destruct E as (n & _ & ->). unfold bar, tracked. cbn.
    split; [|split; [apply trackF_app; exact T|exact TN]]. unfold bar, barF in *.
    destruct SM1 as [[t RD]|[t RD]]; rewrite RD in *.
    + destruct B as (-> & F). split; auto. apply Forall_app. split; auto. constructor; [|constructor]. pose proof (nth_Forall _ _ _ _ F K). fin.
    + destruct B as (-> & F & C). split; auto. split; auto. apply Forall_app. split; auto. constructor; [|constructor]. pose proof (nth_Forall _ _ _ _ F K). fin.
  - destruct SM as [_ SM2]. exfalso. apply (SM2 _ eq_refl). reflexivity.
  - (* LIdle *)
    assert (NI' : on -> i <> a) by (intros O ->; apply (NI O); reflexivity).
    left. eapply (bar_put (put_lock st (Held i) a0)); eauto; fin.
  - left. eapply bar_put; eauto; try fin.
  - left. eapply (bar_put (put_lock st Free (s_count st))); eauto; fin.
  - left. pose proof (shed_inv _ _ _ K3) as (-> & LE & _). eapply (bar_send (put_lock st Free (s_count st))); eauto; fin.
  - left. eapply (bar_put (put_lock st (Held i) a0)); eauto; fin.
  - left. eapply (bar_put (put_lock st Free (s_count st))); eauto; cbn [put_lock s_phase]; fin.
  - (* RRecv *)
    destruct (receive_bar _ _ _ E) as [(b & q & m & Q & ->)|X]; [left|auto]. unfold bar, tracked, barF in *. cbn. rewrite K in *. auto.
  - destruct (receive_bar _ _ _ E) as [(b & q & m & Q & ->)|X]; [left|auto]. unfold bar, tracked, barF in *. cbn. rewrite K in *.
    split; [|exact T]. destruct B as (-> & F & C). rewrite Q, zlen_cons in C. split; auto. split; auto. lia.
  - destruct (receive_bar _ _ _ E) as [(b & q & m & Q & ->)|X]; [left|auto]. unfold bar, tracked, barF in *. cbn. rewrite K in *.
    destruct B as (_ & _ & C). congruence.
  - (* REmpty *)
    left. unfold bar, tracked, barF in *. cbn. rewrite K in *. destruct B as (-> & F). auto.
  - left. unfold bar, tracked, barF in *. cbn. rewrite K in *. destruct B as (-> & F & C). auto.
  - (* RRead *)
    left. unfold bar, tracked, barF in *. cbn. rewrite K in *. destruct B as (-> & F & C). split; [|exact T].
    split; auto. split; auto. split; auto. split; [apply CK|]. apply Forall_forall. intros r I. destruct (in_section r) eqn:S; auto.
    apply In_nth_error in I. destruct I as (j & J). destruct LK as [LK _]. rewrite (LK j r J) in K0; [discriminate|].
    unfold in_section in S. unfold critical. destruct (r_pc r); auto.
  - (* RShift *)
    left. unfold bar, tracked, barF in *. cbn. rewrite K in *. destruct B as (-> & F & C & D & G). destruct T as [T TN]. split.
    + split; [exact PH|]. split.
      * rewrite Forall_forall in *. intros r I. specialize (F r I). specialize (G r I). unfold seen, near, in_section in *.
        destruct (r_pc r); try discriminate G; intuition.
      * rewrite C, D. change (zlen (@nil box)) with 0. cbn [Z.add]. apply sumr_ext. intros r I. rewrite Forall_forall in F, G.
        specialize (F r I). specialize (G r I). unfold seen, in_section, behind, counted, is_active in *.
        destruct (r_pc r); try discriminate G; cbn; rewrite ?andb_false_r; auto; eqbs; intuition.
    + split; [|exact TN]. intros O. destruct (T O) as (x & T1 & T2 & _). exists x. split; auto. split; auto. left. pose proof (nth_Forall _ _ _ _ F T1) as S.
      unfold seen, recording, behind in *. destruct (r_pc x); try contradiction; eqbs; intuition.
  - (* RDone *)
    left. unfold bar, tracked, barF in *. cbn. rewrite K in *. destruct B as (-> & F & C). destruct T as [T TN].
    apply Z.ltb_ge in K0. pose proof (sumr_nonneg behind (s_recs st) behind_nonneg) as NN. pose proof (zlen_nonneg (s_chan st)) as NC.
    assert (C0 : s_chan st = []). { destruct (s_chan st); auto. rewrite zlen_cons in C. pose proof (zlen_nonneg l). lia. }
    split; [|split; [|exact TN]].
    + split; auto. split; auto. apply Forall_forall. intros r I. rewrite Forall_forall in F. specialize (F r I).
      apply In_nth_error in I. destruct I as (j & J). pose proof (sumr_pos behind _ _ _ behind_nonneg J) as SP.
      assert (B0 : behind r = 0) by (pose proof (behind_nonneg r); lia).
      unfold near, seen, behind in *. destruct (r_pc r); auto; eqbs; cbn in B0; intuition; try congruence; try lia.
    + intros O. destruct (T O) as (x & T1 & T2 & T3). exists x. auto.
Qed.

Lemma bar_exec tr : forall st st', bar st -> tracked st -> s_reader st <> RPanicked -> lock_ok st -> count_ok st ->
  (P + 1) mod (usize_max + 1) = P' ->
  Forall in_call tr -> along smooth st tr -> (on -> ~ In (LIdle a) tr) ->
  exec st tr = Some st' -> (bar st' /\ tracked st') \/ s_reader st' = RPanicked.
Proof.
  induction tr as [|l tr IH]; intros st st' B T NP LK CK PH IC SM NI E; cbn in E.
  - injection E as <-. auto.
  - destruct (step st l) as [s1|] eqn:S1; [|discriminate]. inversion IC; subst. cbn [along] in SM. rewrite S1 in SM. destruct SM as [SM1 SM2].
    assert (NF : not_forget l) by (destruct l; cbn in *; auto).
    assert (NI1 : not_idled l) by (intros O ->; apply (NI O); left; auto).
    destruct (bar_step st l s1 B T NP H1 SM1 NI1 LK CK PH S1) as [[B1 T1]|X].
    + destruct (s_reader s1) eqn:RD; try (apply (IH s1); auto; [rewrite RD; discriminate|eapply lock_step; eauto|eapply count_step; eauto|intros O X; apply (NI O); right; auto]).
      right. eapply panicked_exec; eauto.
    + right. eapply panicked_exec; eauto.
Qed.
End BARRIER.

(** ** Phases only grow *)
Definition le_phase (ph : Z) (r : recorder) : Prop :=
  r_phase r <= ph /\ match r_pc r with PLoaded q | PIdlingLoaded q => r_phase r <= q <= ph | _ => True end.
Definition phases (st : state) : Prop := Forall (le_phase (s_phase st)) (s_recs st).
Lemma phases_put st i r : phases st -> le_phase (s_phase st) r -> phases (put_rec st i r).
Proof. intros F H. unfold phases. cbn. apply put_Forall; auto. Qed.
Lemma phases_eq st st' : s_recs st' = s_recs st -> s_phase st' = s_phase st -> phases st -> phases st'.
Proof. unfold phases. intros -> ->. auto. Qed.
Lemma phases_put_send st i r b : phases (put_rec st i r) -> phases (put_rec (send st b) i r).
Proof. destruct (send_fields st b) as (_ & _ & _ & SP & SR & _). apply phases_eq; cbn; congruence. Qed.
Lemma phases_step st l st' : phases st -> 0 <= s_phase st -> (l = RShift -> s_phase st < usize_max) -> step st l = Some st' ->
  phases st' /\ s_phase st' = s_phase st + (match l with RShift => 1 | _ => 0 end).
Proof.
  intros F Z0 H E.
  destruct l; step_cases E;
    try (split; [exact F|cbn; lia]);
    try (destruct (receive_fields _ _ _ E) as (X & _ & _ & Y); split; [apply (phases_eq _ _ X Y F)|lia]);
    try (apply push_inv in E; destruct E as (n & _ & ->); split; [|cbn; lia]; unfold phases in *; cbn; apply Forall_app; split; [exact F|];
         constructor; [|constructor]; unfold le_phase; cbn; split; auto;
         try (match goal with K : nth_error _ _ = Some _ |- _ => pose proof (nth_Forall _ _ _ _ F K) as [X _]; exact X end); lia);
    try (match goal with K : nth_error _ _ = Some _ |- _ => pose proof (nth_Forall _ _ _ _ F K) as [X Y] end; cbn in X, Y;
         split; [try apply phases_put_send; apply phases_put; [exact F|unfold le_phase; cbn; split; auto; lia]|cbn; try rewrite (proj1 (proj2 (proj2 (proj2 (send_fields _ _))))); cbn; lia]).
  specialize (H eq_refl). change usize_max with 18446744073709551615 in H. cbn [s_phase s_recs]. rewrite Z.mod_small by lia. split; [|reflexivity]. unfold phases in *. cbn [s_phase s_recs].
  eapply Forall_impl; [|exact F]. intros r [A B]. unfold le_phase. split; [lia|]. destruct (r_pc r); auto; lia.
Qed.
Lemma shifts_app a b : shifts (a ++ b) = shifts a + shifts b.
Proof. unfold shifts. rewrite filter_app, app_length. lia. Qed.
Lemma shifts_nonneg a : 0 <= shifts a.
Proof. unfold shifts. lia. Qed.
Lemma shifts_one l : shifts [l] = match l with RShift => 1 | _ => 0 end.
Proof. destruct l; reflexivity. Qed.
Lemma phases_exec h0 tr st : exec (init h0) tr = Some st -> shifts tr <= usize_max -> phases st /\ s_phase st = shifts tr.
Proof.
  revert st. induction tr as [|l tr IH] using rev_ind; intros st E S.
  - cbn in E. injection E as <-. split; [constructor|reflexivity].
  - apply exec_snoc in E. destruct E as (s1 & E1 & E2). rewrite shifts_app in S. pose proof (shifts_nonneg [l]).
    destruct (IH s1 E1 ltac:(lia)) as [F P]. pose proof (shifts_nonneg tr).
    destruct (phases_step s1 l st F ltac:(lia)) as [F' P']; auto.
    { intros ->. rewrite shifts_one in S. lia. }
    split; auto. rewrite P', P, shifts_app, shifts_one. reflexivity.
Qed.

(** ** What a waiting reader waits for *)
Definition bz (b : bool) : Z := if b then 1 else 0.
Definition will (r : recorder) : bool :=
  match r_pc r with PReady | PWrote | PLoaded _ | PIdling | PDropping => true | _ => false end.
Definition waitF (rd : rpc) (ph : Z) (ch : list box) (recs : list recorder) : Prop :=
  match rd with
  | RBump _ n => n <= zlen ch + sumr (fun r => bz (will r)) recs
  | RWait _ n k => n <= k + zlen ch + sumr (fun r => bz (owes ph r)) recs
  | _ => True
  end.
Definition waits (st : state) : Prop := waitF (s_reader st) (s_phase st) (s_chan st) (s_recs st).
Lemma waitF_put rd ph ch recs i r r' : waitF rd ph ch recs -> nth_error recs i = Some r ->
  ((exists t n, rd = RBump t n) -> will r = true -> will r' = true) -> (owes ph r = true -> owes ph r' = true) ->
  waitF rd ph ch (put recs i r').
Proof.
  intros W E H1 H2. unfold waitF in *. destruct rd; auto; rewrite (sumr_put _ _ _ _ _ E); unfold bz in *.
  - specialize (H1 ltac:(eauto)). destruct (will r); [rewrite H1 by auto|destruct (will r')]; lia.
  - destruct (owes ph r); [rewrite H2 by auto|destruct (owes ph r')]; lia.
Qed.
Lemma waitF_send rd ph ch recs i r r' b : waitF rd ph ch recs -> nth_error recs i = Some r -> waitF rd ph (ch ++ [b]) (put recs i r').
Proof.
  intros W E. unfold waitF in *. destruct rd; auto; rewrite (sumr_put _ _ _ _ _ E), zlen_app; change (zlen [b]) with 1; unfold bz in *.
  - destruct (will r), (will r'); lia.
  - destruct (owes ph r), (owes ph r'); lia.
Qed.
Lemma waitF_push rd ph ch recs r : waitF rd ph ch recs -> waitF rd ph ch (recs ++ [r]).
Proof.
  intros W. unfold waitF in *. destruct rd; auto; rewrite sumr_app; unfold bz in *.
  - destruct (will r); lia.
  - destruct (owes ph r); lia.
Qed.
Lemma waits_put_send st i r b x : waits st -> nth_error (s_recs st) i = Some x -> waits (put_rec (send st b) i r).
Proof.
  intros W E. destruct (send_cases st b) as [(X & ->)|(_ & ->)]; unfold waits in *; cbn.
  - rewrite X in *. exact I.
  - eapply waitF_send; eauto.
Qed.
Ltac wsimp := unfold will, owes; cbn [r_pc r_phase put_lock s_phase].
Lemma waits_step st l st' : waits st -> idles_outside st l -> not_forget l -> lock_ok st -> count_ok st -> phases st ->
  0 <= s_phase st -> (l = RShift -> s_phase st < usize_max) -> step st l = Some st' -> waits st'.
Proof.
  intros W IO NF LK CK F Z0 SH E.
  destruct l; cbn [not_forget] in NF; try contradiction; step_cases E; try exact W; try exact I;
    try (match goal with K : nth_error _ _ = Some _ |- context [send] => eapply waits_put_send; [exact W|exact K] end);
    try (apply push_inv in E; destruct E as (n & _ & ->); apply waitF_push; exact W);
    try (match goal with K : nth_error _ _ = Some _ |- _ =>
           apply (waitF_put _ _ _ _ _ _ _ W K); wsimp; intros; auto; try discriminate end).
  - rewrite Z.eqb_sym. exact H.
  - apply Z.eqb_eq in K2. subst. rewrite Z.eqb_refl in H. discriminate.
  - apply receive_inv in E. destruct E as (b & q & Q & [(m & M & ->)|(M & ->)]); exact I.
  - apply receive_inv in E. destruct E as (b & q & Q & [(m & M & ->)|(M & ->)]); [|exact I]. unfold waits, waitF in *. cbn. rewrite K, Q, zlen_cons in W. lia.
  - apply receive_inv in E. destruct E as (b & q & Q & [(m & M & ->)|(M & ->)]); exact I.
  - (* RRead *)
    unfold waits, waitF. cbn. pose proof (zlen_nonneg (s_chan st)). rewrite (proj1 CK).
    assert (sumr counted (s_recs st) <= sumr (fun r => bz (will r)) (s_recs st)); [|lia]. apply sumr_le. intros r I.
    apply In_nth_error in I. destruct I as (j & J). destruct LK as [LK _]. specialize (LK j r J). rewrite K0 in LK.
    unfold counted, is_active, bz, will, critical in *. destruct (r_pc r); try lia. discriminate (LK eq_refl).
  - (* RShift *)
    unfold waits, waitF in *. cbn [s_reader s_phase s_chan s_recs]. rewrite K in W. specialize (SH eq_refl). change usize_max with 18446744073709551615 in SH. rewrite Z.mod_small by lia.
    assert (sumr (fun r => bz (will r)) (s_recs st) <= sumr (fun r => bz (owes (s_phase st + 1) r)) (s_recs st)); [|lia].
    apply sumr_le. intros r I. unfold phases in F. rewrite Forall_forall in F. destruct (F r I) as [A _]. unfold bz, will, owes.
    assert (X : (r_phase r =? s_phase st + 1) = false) by (apply Z.eqb_neq; lia). rewrite X.
    destruct (r_pc r); cbn [negb]; try lia. destruct (negb _); lia.
Qed.
Lemma along_app P a b st st' : exec st a = Some st' -> along P st (a ++ b) -> along P st a /\ along P st' b.
Proof.
  revert st. induction a as [|l a IH]; intros st E A; cbn in *.
  - injection E as <-. auto.
  - destruct A as [A1 A2]. destruct (step st l) as [s1|]; [|discriminate]. destruct (IH s1 E A2). auto.
Qed.
Lemma waits_exec h0 tr st : exec (init h0) tr = Some st -> along idles_outside (init h0) tr -> Forall not_forget tr ->
  shifts tr <= usize_max -> waits st.
Proof.
  revert st. induction tr as [|l tr IH] using rev_ind; intros st E A NF S.
  - cbn in E. injection E as <-. exact I.
  - apply exec_snoc in E. destruct E as (s1 & E1 & E2). apply Forall_app in NF. destruct NF as [NF NL]. inversion NL; subst.
    apply (along_app _ _ _ _ _ E1) in A. destruct A as [A1 [A2 _]].
    rewrite shifts_app in S. pose proof (shifts_nonneg [l]). pose proof (shifts_nonneg tr).
    destruct (phases_exec h0 tr s1 E1 ltac:(lia)) as [PS PE].
    apply (waits_step s1 l st); auto.
    + apply IH; auto. lia.
    + apply (lock_exec h0 tr); auto.
    + apply (count_exec h0 tr); auto.
    + lia.
    + intros ->. rewrite shifts_one in S. lia.
Qed.
