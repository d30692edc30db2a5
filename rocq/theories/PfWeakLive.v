(** * C76: whoever goes on gets on, with outdated loads of the phase *)
From Verif Require Import Machine Log2Model HistModel Bins ListZ Wf Spec Reach Witness SyncModel SyncSpec SyncOps SyncFacts SyncRefresh PfSync LiveSpec LiveFacts PfLive
  WeakModel WeakSpec WeakFacts PfWeak WeakLiveSpec.
(*PROPS-IMPORTS Machine Log2Model HistModel Spec Reach Witness Cases SyncModel SyncSpec LiveSpec WeakModel WeakSpec WeakLiveSpec *)

(** ** What can still be sent *)
(** by a recorder that knows value number [v] of the phase *)
Definition wdues (now v : Z) (r : recorder) : Z :=
  match r_pc r with
  | PReady | PWrote | PIdling => 1 + bz (negb (r_phase r =? phase_at v)) + 2 * (now - v)
  | PLoaded q => 1 + bz (negb (q =? r_phase r)) + bz (negb (q =? phase_at v)) + 2 * (now - v)
  | PIdlingLoaded q => 1 + bz (negb (q =? r_phase r)) + 2 * (now - v)
  | PIdle | PWaking | PDropping => 1 + 2 * (now - v)
  | PGone => 0
  end.
Lemma bz_range b : 0 <= bz b <= 1.
Proof. destruct b; cbn; lia. Qed.
Fixpoint wsum (now : Z) (vs : list Z) (rs : list recorder) : Z :=
  match vs, rs with v :: vs', r :: rs' => wdues now v r + wsum now vs' rs' | _, _ => 0 end.
Lemma wsum_put now rs : forall vs i v x r, nth_error rs i = Some x -> length vs = length rs ->
  wsum now (put_view vs i v) (put rs i r) = wsum now vs rs - wdues now (view vs i) x + wdues now v r.
Proof.
  induction rs as [|y rs IH]; intros [|u vs] [|i] v x r E L; try discriminate E; try discriminate L; cbn [put_view put wsum].
  - injection E as ->. unfold view. cbn [nth]. lia.
  - cbn in E, L. rewrite (IH vs i v x r E) by lia. unfold view. cbn [nth]. lia.
Qed.
Lemma put_view_same vs : forall i, put_view vs i (view vs i) = vs.
Proof. induction vs as [|v vs IH]; intros [|i]; cbn; try reflexivity. f_equal. apply (IH i). Qed.
Lemma put_id rs : forall i x, nth_error rs i = Some x -> put rs i x = rs.
Proof. induction rs as [|y rs IH]; intros [|i] x E; try discriminate E; cbn in *; [congruence|]. f_equal. apply IH. exact E. Qed.
Lemma wdues_nonneg now v r : v <= now -> 0 <= wdues now v r.
Proof.
  intros L. unfold wdues. destruct (r_pc r); try lia;
    repeat match goal with |- context [bz ?b] => pose proof (bz_range b); generalize dependent (bz b); intros end; lia.
Qed.
Lemma wsum_nonneg now rs : forall vs, (forall i, (i < length vs)%nat -> view vs i <= now) -> 0 <= wsum now vs rs.
Proof.
  induction rs as [|r rs IH]; intros [|v vs] H; cbn [wsum]; try lia.
  pose proof (wdues_nonneg now v r (H 0%nat ltac:(cbn; lia))).
  assert (0 <= wsum now vs rs); [|lia]. apply IH. intros i L. apply (H (Datatypes.S i)). cbn. lia.
Qed.
Lemma wsum_next now rs : forall vs, wsum (now + 1) vs rs <= wsum now vs rs + 2 * zlen rs.
Proof.
  induction rs as [|r rs IH]; intros [|v vs]; cbn [wsum].
  1-2: cbn; lia.
  - pose proof (zlen_nonneg (r :: rs)). lia.
  - specialize (IH vs). rewrite zlen_cons. assert (wdues (now + 1) v r <= wdues now v r + 2) by (unfold wdues; destruct (r_pc r); lia). lia.
Qed.
Definition gpot (w : wstate) : Z := zlen (s_chan (w_st w)) + wsum (w_now w) (w_views w) (s_recs (w_st w)).
Lemma gpot_nonneg w : wok w -> 0 <= gpot w.
Proof.
  intros [V _]. unfold gpot. pose proof (zlen_nonneg (s_chan (w_st w))).
  assert (0 <= wsum (w_now w) (w_views w) (s_recs (w_st w))); [|lia]. apply wsum_nonneg. intros i L. apply (vo_view _ V i L).
Qed.
Definition wleft (w : wstate) : Z :=
  let st := w_st w in
  match s_reader st with
  | RDrain _ => gpot w + 2 * zlen (s_recs st) + 5
  | RCount _ => gpot w + 2 * zlen (s_recs st) + 4
  | RBump _ _ => gpot w + 2 * zlen (s_recs st) + 3
  | RWait _ _ _ => gpot w + 2
  | RDrain2 => gpot w + 1
  | _ => 0
  end.
Lemma wleft_nonneg w : wok w -> 0 <= wleft w.
Proof. intros OK. unfold wleft. cbv zeta. pose proof (gpot_nonneg w OK). pose proof (zlen_nonneg (s_recs (w_st w))). destruct (s_reader (w_st w)); lia. Qed.
Lemma gpot_put w w' i v x r e : wok w -> nth_error (s_recs (w_st w)) i = Some x -> w_now w' = w_now w ->
  w_views w' = put_view (w_views w) i v -> s_recs (w_st w') = put (s_recs (w_st w)) i r ->
  zlen (s_chan (w_st w')) <= zlen (s_chan (w_st w)) + e -> wdues (w_now w) v r + e <= wdues (w_now w) (view (w_views w) i) x ->
  gpot w' <= gpot w /\ zlen (s_recs (w_st w')) = zlen (s_recs (w_st w)).
Proof.
  intros [V _] J N VS RS CH D. unfold gpot. rewrite N, VS, RS, (wsum_put _ _ _ _ _ _ _ J (vo_length _ V)), put_zlen. lia.
Qed.
Lemma send_zlen st b : zlen (s_chan (send st b)) <= zlen (s_chan st) + 1.
Proof. destruct (send_cases st b) as [(_ & ->)|(_ & ->)]; [lia|]. cbn. rewrite zlen_app. unfold zlen at 2; cbn; lia. Qed.
Lemma raised now v k p : v <= k -> bz (negb (p =? phase_at k)) + 2 * (now - k) <= bz (negb (p =? phase_at v)) + 2 * (now - v).
Proof.
  intros L. destruct (Z.eq_dec v k) as [->|NE]; [lia|].
  pose proof (bz_range (negb (p =? phase_at k))). pose proof (bz_range (negb (p =? phase_at v))). lia.
Qed.
Lemma bz_sym p q : bz (negb (p =? q)) = bz (negb (q =? p)).
Proof. rewrite Z.eqb_sym. reflexivity. Qed.
Lemma gpot_step w l k w' : ~ refresh_step l -> (forall i, l <> LClone i) -> (forall i, l <> LForget i) -> in_refresh (w_st w) -> wok w ->
  wstep w (l, k) = Some w' -> gpot w' <= gpot w /\ zlen (s_recs (w_st w')) = zlen (s_recs (w_st w)).
Proof.
  intros N NC NF I OK E. pose proof OK as [V _].
  assert (VB : forall i x, nth_error (s_recs (w_st w)) i = Some x -> 0 <= view (w_views w) i <= w_now w).
  { intros i x J. apply (vo_view _ V). rewrite (vo_length _ V). eapply nth_lt; eauto. }
  assert (IC : in_call l).
  { destruct (load_of l) as [i|] eqn:L; [destruct l; try discriminate L; exact Logic.I|]. apply (call_step _ _ _ I (wstep_other _ _ _ _ L E)). }
  destruct (load_of l) as [i|] eqn:LO.
  - destruct (wstep_load _ _ _ _ _ LO E) as (KB & s' & S & ->).
    destruct l; try discriminate LO; injection LO as ->; step_cases S;
      match goal with K : nth_error _ i = Some ?x |- _ => pose proof (VB i x K) as VI; eapply (gpot_put w _ i k x _ 0 OK K) end;
      try reflexivity; cbn [w_st with_phase s_chan put_rec put_lock]; try lia; unfold wdues; cbn [SyncModel.r_pc SyncModel.r_phase];
      match goal with |- context [phase_at k =? ?p] => pose proof (raised (w_now w) _ _ p (proj1 KB)) as RA; rewrite (Z.eqb_sym (phase_at k)) | _ => idtac end;
      rewrite ?Z.eqb_refl; cbn [negb bz]; try lia.
  - pose proof (vo_lock _ V) as VL.
    assert (MX : forall v, v <= Z.max v (w_lock w)) by lia.
    destruct l; cbn [in_call refresh_step] in *; try tauto; try discriminate LO; try (exfalso; eapply NC; reflexivity); try (exfalso; eapply NF; reflexivity);
      cbn [wstep] in E; match type of E with match ?y with _ => _ end = _ => destruct y as [s'|] eqn:S; [|discriminate E] end; injection E as <-;
      step_cases S;
      match goal with K : nth_error _ ?i = Some ?x |- _ => pose proof (VB i x K) as VI end;
      try (match goal with H : (?a =? ?b) = true |- _ => apply Z.eqb_eq in H end).
    all: match goal with K : nth_error _ ?i = Some ?x |- _ =>
      first [ eapply (gpot_put w _ i (view (w_views w) i) x _ 0 OK K); [reflexivity|symmetry; apply put_view_same|reflexivity|cbn; lia|]
            | eapply (gpot_put w _ i (Z.max (view (w_views w) i) (w_lock w)) x _ 0 OK K); [reflexivity|reflexivity|reflexivity|cbn; lia|]
            | eapply (gpot_put w _ i (Z.max (view (w_views w) i) (w_lock w)) x x 0 OK K); [reflexivity|reflexivity|symmetry; apply put_id; exact K|cbn; lia|]
            | eapply (gpot_put w _ i (view (w_views w) i) x _ 1 OK K); [reflexivity|symmetry; apply put_view_same|cbn [w_st put_rec s_recs]; rewrite send_recs; reflexivity|cbn [w_st put_rec s_chan]; first [apply send_zlen|exact (send_zlen (put_lock (w_st w) _ _) _)]|] ] end.
    all: unfold wdues; cbn [SyncModel.r_pc SyncModel.r_phase];
      try (match goal with |- context [?p =? phase_at (Z.max ?u _)] => pose proof (raised (w_now w) _ _ p (MX u)) end);
      try (match goal with H : (?p =? ?q) = false |- context [?p =? ?q] => rewrite H; cbn [negb]; change (bz true) with 1 end);
      try (match goal with H : ?p = ?q |- context [?p =? ?q] => rewrite H, Z.eqb_refl; cbn [negb]; change (bz false) with 0 end);
      repeat match goal with |- context [bz ?b] => pose proof (bz_range b); let z := fresh "z" in set (z := bz b) in *; clearbody z end; lia.
Qed.

(** ** One step *)
Lemma wreader_kept w l k w' : in_refresh (w_st w) -> ~ refresh_step l -> wstep w (l, k) = Some w' ->
  s_reader (w_st w') = s_reader (w_st w) /\ w_now w' = w_now w.
Proof.
  intros I N E. split.
  - destruct (load_of l) as [i|] eqn:L.
    + destruct (wstep_load _ _ _ _ _ L E) as (_ & s' & S & ->). cbn [w_st with_phase s_reader].
      apply (reader_kept (with_phase (w_st w) (phase_at k)) l s'); auto.
    + apply (reader_kept _ l); auto. apply (wstep_other _ _ _ _ L E).
  - rewrite (now_step _ _ _ _ E), shifts_one. destruct l; try lia. cbn in N. tauto.
Qed.
Lemma wkept w l k w' i r : wstep w (l, k) = Some w' -> ~ moves i l -> l <> LForget i ->
  nth_error (s_recs (w_st w)) i = Some r -> nth_error (s_recs (w_st w')) i = Some r.
Proof.
  intros E M F J. destruct (load_of l) as [j|] eqn:L.
  - destruct (wstep_load _ _ _ _ _ L E) as (_ & s' & S & ->). cbn [w_st with_phase s_recs].
    apply (kept (with_phase (w_st w) (phase_at k)) l s'); auto.
  - apply (kept (w_st w) l); auto. apply (wstep_other _ _ _ _ L E).
Qed.
Lemma wrelease w l k w' i r : lock_ok (w_st w) -> wstep w (l, k) = Some w' -> s_lock (w_st w) = Held i -> moves i l -> nth_error (s_recs (w_st w)) i = Some r ->
  s_lock (w_st w') = Free \/ (r_pc r = PIdling /\ s_lock (w_st w') = Held i /\ exists r' q, nth_error (s_recs (w_st w')) i = Some r' /\ r_pc r' = PIdlingLoaded q).
Proof.
  intros LK E L M J. destruct (load_of l) as [j|] eqn:LO.
  - destruct (wstep_load _ _ _ _ _ LO E) as (_ & s' & S & ->). cbn [w_st with_phase s_lock s_recs].
    apply (release (with_phase (w_st w) (phase_at k)) l s'); auto.
  - apply (release (w_st w) l); auto. apply (wstep_other _ _ _ _ LO E).
Qed.
Lemma wunpoisoned w l k w' : wstep w (l, k) = Some w' -> count_ok (w_st w) -> active_recorders (w_st w) < usize_max ->
  s_lock (w_st w) <> Poisoned -> s_lock (w_st w') <> Poisoned.
Proof.
  intros E C A L. destruct (load_of l) as [j|] eqn:LO.
  - destruct (wstep_load _ _ _ _ _ LO E) as (_ & s' & S & ->). cbn [w_st with_phase s_lock].
    apply (unpoisoned (with_phase (w_st w) (phase_at k)) l s'); auto. apply C.
  - apply (unpoisoned (w_st w) l); auto; [apply (wstep_other _ _ _ _ LO E)|apply C].
Qed.
Lemma wleft_step w l k w' : ~ refresh_step l -> (forall i, l <> LClone i) -> (forall i, l <> LForget i) -> in_refresh (w_st w) ->
  wok w -> wstep w (l, k) = Some w' -> wleft w' <= wleft w.
Proof.
  intros N NC NF I OK E. destruct (wreader_kept _ _ _ _ I N E) as [R NW]. destruct (gpot_step w l k w' N NC NF I OK E) as [P Z].
  unfold wleft. cbv zeta. rewrite R, Z. destruct (s_reader (w_st w)); lia.
Qed.
Lemma wviews_kept w l k w' : refresh_step l -> wstep w (l, k) = Some w' -> w_views w' = w_views w.
Proof.
  intros RS E. destruct l; cbn [refresh_step] in RS; try contradiction; cbn [wstep] in E;
    match type of E with match ?y with _ => _ end = _ => destruct y as [s'|] eqn:S; [|discriminate E] end; injection E as <-; reflexivity.
Qed.
Lemma wleft_refresh w l k w' : refresh_step l -> in_refresh (w_st w) -> s_reader (w_st w') <> RPanicked -> wstep w (l, k) = Some w' ->
  s_reader (w_st w') = RReady \/ (in_refresh (w_st w') /\ wleft w' < wleft w).
Proof.
  intros RS I NP E. pose proof (wstep_other _ _ _ _ (refresh_load _ RS) E) as S. pose proof (now_step _ _ _ _ E) as NW. rewrite shifts_one in NW.
  pose proof (wviews_kept _ _ _ _ RS E) as VK.
  unfold wleft. cbv zeta. unfold in_refresh, gpot in *. rewrite VK. set (vs := w_views w) in *. set (st := w_st w) in *. set (st' := w_st w') in *. set (now := w_now w) in *.
  assert (RC : forall c, receive st c = Some st' -> s_reader st' = c /\ s_recs st' = s_recs st /\ zlen (s_chan st') = zlen (s_chan st) - 1).
  { intros c X. destruct (receive_chan _ _ _ X NP) as (X1 & X2 & X3 & X4). split; auto. split; [exact X2|]. lia. }
  pose proof (zlen_nonneg (s_recs st)) as ZR. clearbody st' vs.
  destruct l; cbn [refresh_step] in RS; try contradiction; rewrite NW, ?Z.add_0_r; clear NW; step_cases S; rewrite ?K in *; try contradiction;
    try (left; reflexivity);
    try (right; split; [exact Logic.I|]; cbn [put_reader s_reader s_chan s_recs]; repeat match goal with H : s_chan st = [] |- _ => rewrite H end; lia).
  - destruct (RC _ S) as (-> & A2 & A3). rewrite A2, A3. right. split; [exact Logic.I|lia].
  - destruct (RC _ S) as (-> & A2 & A3). rewrite A2, A3. right. split; [exact Logic.I|lia].
  - destruct (RC _ S) as (-> & A2 & A3). rewrite A2, A3. right. split; [exact Logic.I|lia].
  - right. split; [exact Logic.I|]. cbn [s_reader s_chan s_recs]. pose proof (wsum_next now (s_recs st) vs). lia.
Qed.

Lemma reader_via next w a : (forall x l n, refresh_step l -> (next x (l, n) = None <-> step (w_st x) l = None)) ->
  (wreader_goes_on next w a <-> reader_goes_on (states w) (actions a)).
Proof.
  intros H. unfold wreader_goes_on, reader_goes_on, states, actions. split; intros G k; destruct (G k) as (k' & L & X); exists k'; (split; [exact L|]).
  - destruct X as [(l & n & A & RS)|X]; [left; exists l; rewrite A; auto|right]. intros j l LJ RS. apply (H (w j) l 0 RS), X; auto.
  - destruct X as [(l & A & RS)|X]; [left|right; intros j l n LJ RS; apply (H (w j) l n RS), X; auto].
    destruct (a k') as [[l' n]|]; [|discriminate]. cbn in A. injection A as ->. exists l, n. auto.
Qed.
Lemma wstep_none x l n : refresh_step l -> (wstep x (l, n) = None <-> step (w_st x) l = None).
Proof. intros RS. destruct l; cbn [refresh_step] in RS; try contradiction; cbn [wstep]; destruct (step (w_st x) _); split; congruence. Qed.
Lemma wreader_as w a : wreader_goes_on wstep w a <-> reader_goes_on (states w) (actions a).
Proof. apply reader_via. apply wstep_none. Qed.

(** ** Executions *)
Fixpoint wpre (a : nat -> option (label * Z)) (j : nat) : list (label * Z) :=
  match j with
  | 0%nat => []
  | Datatypes.S j' => wpre a j' ++ match a j' with Some x => [x] | None => [] end
  end.

Section WLIVE.
Variables (h0 : hist) (tr0 : list (label * Z)) (w : nat -> wstate) (a : nat -> option (label * Z)).
Notation s := (states w).
Hypothesis R0 : wrun h0 tr0 (w 0%nat).
Hypothesis U0 : merged_untouched (acts tr0).
Hypothesis G0 : guards_dropped (acts tr0).
Hypothesis L0 : s_lock (s 0%nat) <> Poisoned.
Hypothesis MS : merge_safe h0.
Hypothesis C : wcontinues h0 w a.
Hypothesis NL : no_leak (actions a).
Hypothesis FEW : few_recorders s.
Hypothesis RG : reader_goes_on s (actions a).

Lemma act_some j l n : a j = Some (l, n) -> actions a j = Some l.
Proof. unfold actions. intros ->. reflexivity. Qed.
Lemma act_inv j l : actions a j = Some l -> exists n, a j = Some (l, n) /\ wstep (w j) (l, n) = Some (w (Datatypes.S j)).
Proof.
  unfold actions. intros X. pose proof (C j) as CJ. destruct (a j) as [[l' n]|]; [|discriminate]. cbn in X. injection X as ->.
  exists n. split; [reflexivity|apply CJ].
Qed.
Lemma wpre_run j : wrun h0 (tr0 ++ wpre a j) (w j).
Proof.
  induction j as [|j IH].
  - cbn. rewrite app_nil_r. exact R0.
  - pose proof (C j) as CJ. cbn [wpre]. destruct (a j) as [x|].
    + destruct CJ as [LO ST]. rewrite app_assoc. apply (wrun_app h0 _ [x] (w j)); auto; [constructor; [exact LO|constructor]|cbn; rewrite ST; reflexivity].
    + rewrite app_nil_r, CJ. exact IH.
Qed.
Lemma wpre_dropped j : guards_dropped (acts (tr0 ++ wpre a j)).
Proof.
  intros i I. rewrite acts_app in I. apply in_app_iff in I. destruct I as [I|I]; [apply (G0 i I)|]. revert I. induction j as [|j IH]; cbn; [tauto|].
  rewrite acts_app. intros I. apply in_app_iff in I. destruct I as [I|I]; [auto|]. specialize (NL j i). unfold actions in NL. destruct (a j) as [x|]; [|contradiction].
  destruct I as [I|[]]. apply NL. cbn. rewrite I. reflexivity.
Qed.
Lemma wpre_lock j : s_lock (s j) <> Poisoned.
Proof.
  induction j as [|j IH]; [exact L0|]. pose proof (C j) as CJ. unfold states. destruct (a j) as [[l n]|]; [|rewrite CJ; exact IH]. destruct CJ as [_ ST].
  apply (wunpoisoned _ _ _ _ ST); auto. destruct (wpre_run j) as (_ & _ & E).
  apply (wcount_ok h0 _ _ (dropped_not_forget _ (wpre_dropped j)) E). apply FEW.
Qed.
Lemma wpre_ok j : wok (w j).
Proof. destruct (wpre_run j) as (_ & _ & E). apply (wok_run h0 _ _ E). Qed.

Definition wgoing (j : nat) : Prop :=
  in_refresh (s j) /\ merged_untouched (acts (tr0 ++ wpre a j)) /\ shifts (acts (tr0 ++ wpre a j)) <= shifts (acts tr0) + late (s j) /\
  (in_timed_refresh (s 0%nat) -> in_timed_refresh (s j)).
Definition wreturned : Prop := exists k, s_reader (s k) = RReady.

Lemma wnot_panicked j : merged_untouched (acts (tr0 ++ wpre a j)) -> s_reader (s j) <> RPanicked.
Proof. intros U. apply (C73_refresh_never_panics_proof h0 _ _ (wpre_run j) U MS). Qed.
Lemma refresh_dec l : refresh_step l \/ ~ refresh_step l.
Proof. destruct l; cbn; auto. Qed.
Lemma wgoing_step j : wgoing j -> s_reader (s (Datatypes.S j)) = RReady \/ wgoing (Datatypes.S j).
Proof.
  intros (I & U & SH & TM). pose proof (C j) as CJ. unfold wgoing. cbn [wpre] in *. destruct (a j) as [[l n]|] eqn:A.
  - destruct CJ as [LO ST]. rewrite app_assoc.
    assert (IC : in_call l).
    { destruct (load_of l) as [i|] eqn:L; [destruct l; try discriminate L; exact Logic.I|]. apply (call_step _ _ _ I (wstep_other _ _ _ _ L ST)). }
    assert (U' : merged_untouched (acts ((tr0 ++ wpre a j) ++ [(l, n)]))).
    { intros h IN. rewrite acts_app in IN. apply in_app_iff in IN. destruct IN as [IN|[IN|[]]]; [apply (U h IN)|]. cbn in IN. subst l. exact IC. }
    assert (NP : s_reader (s (Datatypes.S j)) <> RPanicked).
    { apply wnot_panicked. cbn [wpre]. rewrite A, app_assoc. exact U'. }
    destruct (refresh_dec l) as [D|D].
    + pose proof (wstep_other _ _ _ _ (refresh_load _ D) ST) as S.
      destruct (left_refresh _ _ _ D I NP S) as [X|[X _]]; [left; exact X|]. right. split; [exact X|]. split; [exact U'|].
      split; [rewrite acts_app, shifts_app; pose proof (shift_step _ _ _ I X S); cbn [acts map fst]; unfold states in *; lia|].
      intros T0. apply (timed_step _ l _ (TM T0) X S).
    + destruct (wreader_kept _ _ _ _ I D ST) as [RK _]. right. unfold in_refresh, in_timed_refresh, late, states in *. rewrite RK. split; [exact I|]. split; [exact U'|].
      split; [|exact TM]. rewrite acts_app, shifts_app. cbn [acts map fst]. rewrite shifts_one. destruct l; try lia. cbn in D. tauto.
  - rewrite app_nil_r. unfold states in *. rewrite CJ. right. auto.
Qed.
Lemma wgoing_on d : forall j, wgoing j -> wreturned \/ wgoing (d + j).
Proof.
  induction d as [|d IH]; intros j G; [right; exact G|]. destruct (IH j G) as [X|X]; [left; exact X|].
  destruct (wgoing_step _ X) as [Y|Y]; [left; exists (Datatypes.S (d + j)%nat); exact Y|right; exact Y].
Qed.

Lemma wuntil i r d : forall j, nth_error (s_recs (s j)) i = Some r ->
  (exists k' l, (j <= k' < d + j)%nat /\ actions a k' = Some l /\ moves i l /\ nth_error (s_recs (s k')) i = Some r) \/
  nth_error (s_recs (s (d + j))) i = Some r.
Proof.
  induction d as [|d IH]; intros j J; [right; exact J|].
  destruct (IH j J) as [(k' & l & X1 & X2)|X]; [left; exists k', l; split; [lia|exact X2]|].
  pose proof (C (d + j)%nat) as CJ. cbn [Nat.add]. destruct (a (d + j)%nat) as [[l n]|] eqn:A; [|right; unfold states; rewrite CJ; exact X].
  destruct CJ as [_ ST]. apply act_some in A.
  assert (D : moves i l \/ ~ moves i l) by (destruct l; cbn; try tauto; apply Nat.eq_decidable).
  destruct D as [M|M]; [left; exists (d + j)%nat, l; split; [lia|auto]|]. right. apply (wkept _ _ _ _ i r ST M); auto. intros ->. apply (NL _ _ A).
Qed.

(** stuck for good *)
Section STUCK.
Variable k : nat.
Hypothesis B : forall j l, (k <= j)%nat -> refresh_step l -> step (s j) l = None.
Hypothesis GK : wgoing k.
Lemma wnot_ref j l : (k <= j)%nat -> actions a j = Some l -> ~ refresh_step l.
Proof.
  intros L A RS. destruct (act_inv _ _ A) as (n & _ & ST). pose proof (wstep_other _ _ _ _ (refresh_load _ RS) ST) as S.
  pose proof (B j l L RS) as BJ. unfold states in BJ. rewrite BJ in S. discriminate.
Qed.
Lemma wstuck_same d : s_reader (s (d + k)) = s_reader (s k) /\ w_now (w (d + k)) = w_now (w k).
Proof.
  induction d as [|d [IH1 IH2]]; [auto|]. cbn [Nat.add]. pose proof (C (d + k)%nat) as CJ. destruct (a (d + k)%nat) as [[l n]|] eqn:A.
  - destruct CJ as [_ ST]. assert (IR : in_refresh (s (d + k)%nat)) by (unfold in_refresh; rewrite IH1; apply GK).
    destruct (wreader_kept _ _ _ _ IR (wnot_ref _ _ (Nat.le_add_l k d) (act_some _ _ _ A)) ST) as [X Y]. unfold states in *. rewrite X, Y. auto.
  - unfold states in *. rewrite CJ. auto.
Qed.
Lemma wstuck_in j : (k <= j)%nat -> in_refresh (s j) /\ s_reader (s j) = s_reader (s k) /\ w_now (w j) = w_now (w k) /\ s_phase (s j) = s_phase (s k).
Proof.
  intros L. replace j with ((j - k) + k)%nat by lia. destruct (wstuck_same (j - k)) as [X Y].
  split; [unfold in_refresh; rewrite X; apply GK|]. split; [exact X|]. split; [exact Y|].
  unfold states. rewrite (vo_phase _ (proj1 (wpre_ok _))), (vo_phase _ (proj1 (wpre_ok k))), Y. reflexivity.
Qed.
Lemma wgoing_stuck j : (k <= j)%nat -> wgoing j.
Proof.
  intros L. replace j with ((j - k) + k)%nat by lia. induction (j - k)%nat as [|d IH]; [exact GK|]. cbn [Nat.add].
  destruct (wgoing_step _ IH) as [X|X]; [|exact X]. exfalso. destruct (wstuck_in (Datatypes.S (d + k)) ltac:(lia)) as (I & _).
  unfold in_refresh in I. rewrite X in I. exact I.
Qed.
Lemma wstuck_owing k1 : (k <= k1)%nat -> (forall j l n, (k1 <= j)%nat -> a j = Some (l, n) -> is_load l -> w_now (w k) <= n) ->
  recorders_go_on s (actions a) -> (exists t n k0, s_reader (s k) = RWait t n k0 /\ k0 < n) ->
  forall m j i r, (k1 <= j)%nat -> nth_error (s_recs (s j)) i = Some r -> owes (s_phase (s k)) r = true -> (way r <= m)%nat -> False.
Proof.
  intros K1 VIS GO (t & n & k0 & RW & KN).
  assert (EMP : forall j, (k <= j)%nat -> s_chan (s j) = []).
  { intros j L. pose proof (B j RRecv L Logic.I) as BJ. destruct (wstuck_in j L) as (_ & X & _). cbn in BJ. rewrite X, RW in BJ.
    replace (k0 <? n) with true in BJ by (symmetry; apply Z.ltb_lt; lia). unfold receive in BJ. destruct (s_chan (s j)); auto.
    destruct (merge _ _) in BJ; discriminate. }
  induction m as [|m IH]; intros j i r L J O W.
  - unfold way in W. unfold owes in O. destruct (r_pc r); try discriminate; try (cbn in W; lia). match type of W with context [if ?b then _ else _] => destruct b end; lia.
  - destruct (GO i j) as (k' & LK & HK).
    assert (NOW : forall k2 l, (k1 <= k2)%nat -> actions a k2 = Some l -> moves i l -> nth_error (s_recs (s k2)) i = Some r -> False).
    { intros k2 l L1 A1 M1 J1. destruct (act_inv _ _ A1) as (v & A2 & ST). destruct (wstuck_in k2 ltac:(lia)) as (IR & _ & NW & PH).
      assert (CUR : step (s k2) l = Some (s (Datatypes.S k2))).
      { apply (wstep_current _ l v _ (proj1 (wpre_ok k2))); [|exact ST]. destruct (load_of l) as [i'|] eqn:LO; [right|left; reflexivity].
        pose proof (VIS k2 l v L1 A2 (proj2 (is_load_of l) (ex_intro _ i' LO))). destruct (wstep_load _ _ _ _ _ LO ST) as (V & _). lia. }
      destruct (pay _ _ _ i r CUR M1 IR (wpre_lock _) J1) as [X|(r' & X1 & X2 & X3)].
      - rewrite PH. exact O.
      - apply X. apply EMP. lia.
      - rewrite PH in X2. apply (IH (Datatypes.S k2) i r'); auto; lia. }
    destruct (wuntil i r (k' - j) j J) as [(k2 & l & X1 & X2 & X3 & X4)|X].
    + apply (NOW k2 l); auto. lia.
    + replace (k' - j + j)%nat with k' in X by lia. destruct HK as [(l & A1 & M1)|HK]; [apply (NOW k' l); auto; lia|].
      unfold owes in O. destruct (HK r X) as [Y|Y]; rewrite Y in O; discriminate.
Qed.
Lemma wstuck_lock : sections_go_on s (actions a) -> (exists t, s_reader (s k) = RCount t) -> False.
Proof.
  intros GO (t & RC).
  assert (HE : forall j, (k <= j)%nat -> exists i r, s_lock (s j) = Held i /\ nth_error (s_recs (s j)) i = Some r /\ in_section r = true).
  { intros j L. pose proof (B j RRead L Logic.I) as BJ. destruct (wstuck_in j L) as (_ & X & _). cbn in BJ. rewrite X, RC in BJ.
    pose proof (wpre_lock j) as NP. destruct (proj2 (wpre_ok j)) as [_ LB]. fold (s j) in LB. destruct (s_lock (s j)) as [|i|] eqn:LK; [discriminate| |contradiction].
    destruct (LB i eq_refl) as (r & R1 & R2). exists i, r. auto. }
  assert (MV : forall j i r, (k <= j)%nat -> s_lock (s j) = Held i -> nth_error (s_recs (s j)) i = Some r -> in_section r = true ->
     exists k' l, (j <= k')%nat /\ actions a k' = Some l /\ moves i l /\ nth_error (s_recs (s k')) i = Some r /\ s_lock (s k') = Held i).
  { intros j i r L LK J IS. destruct (GO i j r J IS) as (k' & l & LE & A & M).
    assert (H : forall k1, (k <= k1)%nat -> nth_error (s_recs (s k1)) i = Some r -> s_lock (s k1) = Held i).
    { intros k1 L1 J1. apply (proj2 (wpre_ok k1)) with (r := r); auto. }
    destruct (wuntil i r (k' - j) j J) as [(k1 & l1 & X1 & X2 & X3 & X4)|X].
    - exists k1, l1. split; [lia|]. repeat split; auto. apply H; auto. lia.
    - replace (k' - j + j)%nat with k' in X by lia. exists k', l. repeat split; auto. apply H; auto. lia. }
  assert (FR : forall j, (k <= j)%nat -> s_lock (s j) <> Free) by (intros j L X; destruct (HE j L) as (i & r & Y & _); congruence).
  destruct (HE k (Nat.le_refl k)) as (i & r & LK & J & IS).
  destruct (MV k i r (Nat.le_refl k) LK J IS) as (k1 & l1 & L1 & A1 & M1 & J1 & LK1).
  destruct (act_inv _ _ A1) as (n1 & _ & ST1).
  destruct (wrelease _ _ _ _ i r (proj2 (wpre_ok k1)) ST1 LK1 M1 J1) as [X|(_ & LK2 & r2 & q & J2 & P2)]; [apply (FR (Datatypes.S k1)); auto; lia|].
  destruct (MV (Datatypes.S k1) i r2 ltac:(lia) LK2 J2 ltac:(unfold in_section; rewrite P2; reflexivity)) as (k3 & l3 & L3 & A3 & M3 & J3 & LK3).
  destruct (act_inv _ _ A3) as (n3 & _ & ST3).
  destruct (wrelease _ _ _ _ i r2 (proj2 (wpre_ok k3)) ST3 LK3 M3 J3) as [X|(X & _)]; [apply (FR (Datatypes.S k3)); auto; lia|congruence].
Qed.
End STUCK.

Hypothesis CE : clones_end (actions a).
Hypothesis NS : forall k, wgoing k -> (forall j l, (k <= j)%nat -> refresh_step l -> step (s j) l = None) -> False.
Lemma wleft_on K : (forall k i, (K <= k)%nat -> actions a k <> Some (LClone i)) ->
  forall d j, (K <= j)%nat -> wgoing j -> wreturned \/ (wgoing (d + j) /\ wleft (w (d + j)) <= wleft (w j)).
Proof.
  intros HK d j L G. induction d as [|d IH]; [right; split; [exact G|apply Z.le_refl]|].
  destruct IH as [X|[X Y]]; [left; exact X|]. destruct (wgoing_step _ X) as [Z|Z]; [left; exists (Datatypes.S (d + j)%nat); exact Z|].
  right. split; [exact Z|]. etransitivity; [|exact Y]. cbn [Nat.add]. pose proof (C (d + j)%nat) as CJ.
  destruct (a (d + j)%nat) as [[l n]|] eqn:A; [|rewrite CJ; lia]. destruct CJ as [_ ST]. apply act_some in A.
  destruct (refresh_dec l) as [D|D].
  - assert (NP : s_reader (s (Datatypes.S (d + j))) <> RPanicked) by (apply wnot_panicked; apply Z).
    destruct (wleft_refresh _ _ _ _ D (proj1 X) NP ST) as [W|[_ W]]; [|lia]. destruct Z as (Z & _). unfold in_refresh, states in Z. rewrite W in Z. contradiction.
  - apply (wleft_step _ l n); auto; [|intros i ->; apply (NL _ _ A)|apply X|apply wpre_ok]. intros i ->. apply (HK (d + j)%nat i); [lia|exact A].
Qed.
Lemma wreturns K : (forall k i, (K <= k)%nat -> actions a k <> Some (LClone i)) ->
  forall m j, (K <= j)%nat -> wgoing j -> wleft (w j) < Z.of_nat m -> wreturned.
Proof.
  intros HK. induction m as [|m IH]; intros j L G M; [pose proof (wleft_nonneg (w j) (wpre_ok j)); lia|].
  destruct (RG j) as (k' & LK & HR). replace k' with ((k' - j) + j)%nat in HR by lia.
  destruct (wleft_on K HK (k' - j) j L G) as [X|[G' LE]]; [exact X|]. set (q := (k' - j + j)%nat) in *.
  destruct HR as [(l & A & RS)|ST]; [|exfalso; apply (NS q G' ST)].
  destruct (wgoing_step _ G') as [X|X]; [exists (Datatypes.S q); exact X|].
  destruct (act_inv _ _ A) as (n & _ & ST).
  assert (NP : s_reader (s (Datatypes.S q)) <> RPanicked) by (apply wnot_panicked; apply X).
  destruct (wleft_refresh _ _ _ _ RS (proj1 G') NP ST) as [W|[_ W]]; [exists (Datatypes.S q); exact W|].
  apply (IH (Datatypes.S q)); auto; lia.
Qed.
Lemma walways_returns : in_refresh (s 0%nat) -> wreturned.
Proof.
  intros I. destruct CE as (K & HK).
  assert (G : wgoing 0).
  { split; [exact I|]. cbn [wpre]. rewrite app_nil_r. split; [exact U0|]. split; [unfold late; destruct (s_reader (s 0%nat)); lia|auto]. }
  destruct (wgoing_on K 0%nat G) as [X|X]; [exact X|].
  apply (wreturns K HK (Z.to_nat (wleft (w (K + 0)%nat) + 1)) (K + 0)%nat); auto; [lia|]. pose proof (wleft_nonneg (w (K + 0)%nat) (wpre_ok _)). lia.
Qed.
End WLIVE.

Lemma wsections_of h0 w a : wcontinues h0 w a -> no_leak (actions a) -> recorders_go_on (states w) (actions a) -> sections_go_on (states w) (actions a).
Proof.
  intros C NL GO i k r J IS. destruct (GO i k) as (k' & LK & H).
  destruct (wuntil h0 w a C NL i r (k' - k) k J) as [(k1 & l & X1 & X2 & X3 & _)|X].
  - exists k1, l. split; [lia|auto].
  - replace (k' - k + k)%nat with k' in X by lia. destruct H as [(l & A & M)|H]; [exists k', l; auto|].
    unfold in_section in IS. destruct (H r X) as [Y|Y]; rewrite Y in IS; discriminate.
Qed.
Lemma wpre_along h0 tr0 w a : wrun h0 tr0 (w 0%nat) -> wcontinues h0 w a -> walong widles_outside (winit h0) tr0 -> widles_outside_ever w a ->
  forall j, walong widles_outside (winit h0) (tr0 ++ wpre a j).
Proof.
  intros R0 C A0 AE. induction j as [|j IH]; cbn [wpre]; [rewrite app_nil_r; exact A0|].
  rewrite app_assoc. destruct (a j) as [x|] eqn:A; [|rewrite app_nil_r; exact IH].
  destruct (wpre_run h0 tr0 w a R0 C j) as (_ & _ & E). pose proof (AE j x A) as X. clear - IH E X.
  revert E IH. generalize (winit h0) as w0. induction (tr0 ++ wpre a j) as [|y t IHt]; intros w0 E AL; cbn [wexec walong app] in *.
  - injection E as ->. split; [exact X|]. destruct (wstep _ x); exact Logic.I.
  - destruct AL as [AL1 AL2]. split; [exact AL1|]. destruct (wstep w0 y); [|discriminate]. apply IHt; auto.
Qed.

(** ** C76.  [refresh] returns *)
(** [refresh] returns under release/acquire memory as well, if every move of the phase becomes visible some
    time.  The other conditions are those of C69, and that of C74: a recorder that becomes idle while the
    reader waits has to see the latest phase. *)
Lemma C76_refresh_returns_proof : forall h0 tr0 w a,
  wrun h0 tr0 (w 0%nat) -> merged_untouched (acts tr0) -> guards_dropped (acts tr0) -> merge_safe h0 ->
  walong widles_outside (winit h0) tr0 -> shifts (acts tr0) < usize_max -> s_lock (w_st (w 0%nat)) <> Poisoned ->
  wcontinues h0 w a -> no_leak (actions a) -> few_recorders (states w) -> widles_outside_ever w a -> clones_end (actions a) ->
  recorders_go_on (states w) (actions a) -> wreader_goes_on wstep w a -> becomes_visible w a ->
  in_refresh (w_st (w 0%nat)) -> exists k, s_reader (w_st (w k)) = RReady.
Proof.
  intros h0 tr0 w a R0 U0 G0 MS A0 S0 L0 C NL FEW AE CE GO RG VIS I. apply wreader_as in RG.
  apply (walways_returns h0 tr0 w a); auto.
  intros k G B. pose proof G as (IR & U & SH & _).
  pose proof (B k) as BK. unfold in_refresh in IR. destruct (s_reader (states w k)) as [|t|t|t n|t n k0| | |] eqn:RD; try contradiction.
  - apply (drain_moves (states w) k); eauto.
  - apply (wstuck_lock h0 tr0 w a) with (k := k); eauto. eapply wsections_of; eauto.
  - specialize (BK RShift (Nat.le_refl k) Logic.I). cbn in BK. rewrite RD in BK. discriminate.
  - destruct (Z.ltb_spec k0 n) as [KN|KN].
    2:{ specialize (BK RDone (Nat.le_refl k) Logic.I). cbn in BK. rewrite RD in BK.
        replace (k0 <? n) with false in BK by (symmetry; apply Z.ltb_ge; lia). discriminate. }
    destruct (VIS k) as (K & VK). set (k1 := Nat.max k K).
    assert (G1 : wgoing tr0 w a k1) by (apply (wgoing_stuck h0 tr0 w a) with (k := k); auto; unfold k1; lia).
    destruct (wstuck_in h0 tr0 w a R0 C k B G k1 ltac:(unfold k1; lia)) as (_ & RD1 & _ & PH). rewrite RD in RD1.
    pose proof G1 as (_ & _ & SH1 & _).
    assert (SH' : shifts (acts (tr0 ++ wpre a k1)) <= usize_max) by (unfold late in SH1; rewrite RD1 in SH1; lia).
    destruct (C74_waits_for_someone_proof h0 _ _ t n k0 (wpre_run h0 tr0 w a R0 C k1) (wpre_dropped tr0 a G0 NL k1)
                (wpre_along h0 tr0 w a R0 C A0 AE k1) SH' RD1) as [(l & m & w' & LL & ST)|(i & r & J & O)].
    + assert (RS : refresh_step l) by (destruct LL as [-> | ->]; exact Logic.I). pose proof (wstep_other _ _ _ _ (refresh_load _ RS) ST) as S.
      pose proof (B k1 l ltac:(unfold k1; lia) RS) as BK1. unfold states in BK1. rewrite BK1 in S. discriminate.
    + fold (states w k1) in O. rewrite PH in O.
      apply (wstuck_owing h0 tr0 w a) with (k := k) (k1 := k1) (m := way r) (j := k1) (i := i) (r := r); auto; try (unfold k1; lia).
      * intros j l m LJ. apply VK. unfold k1 in LJ. lia.
      * exists t, n, k0. auto.
  - apply (drain_moves (states w) k); eauto.
Qed.

(** [refresh_timeout] needs neither: it returns even if no move of the phase ever becomes visible, however
    often the phase has moved before. *)
Lemma C76_timeout_returns_proof : forall h0 tr0 w a,
  wrun h0 tr0 (w 0%nat) -> merged_untouched (acts tr0) -> guards_dropped (acts tr0) -> merge_safe h0 ->
  s_lock (w_st (w 0%nat)) <> Poisoned ->
  wcontinues h0 w a -> no_leak (actions a) -> few_recorders (states w) -> clones_end (actions a) ->
  sections_go_on (states w) (actions a) -> wreader_goes_on wstep w a ->
  in_timed_refresh (w_st (w 0%nat)) -> exists k, s_reader (w_st (w k)) = RReady.
Proof.
  intros h0 tr0 w a R0 U0 G0 MS L0 C NL FEW CE GO RG T. apply wreader_as in RG.
  apply (walways_returns h0 tr0 w a); auto.
  2:{ unfold in_refresh, in_timed_refresh, states in *. destruct (s_reader (w_st (w 0%nat))); auto. }
  intros k G B. pose proof G as (IR & U & _ & TM). specialize (TM T).
  pose proof (B k) as BK. unfold in_timed_refresh in TM. destruct (s_reader (states w k)) as [|t|t|t n|t n k0| | |] eqn:RD; try contradiction.
  - apply (drain_moves (states w) k); eauto.
  - apply (wstuck_lock h0 tr0 w a) with (k := k); eauto.
  - specialize (BK RShift (Nat.le_refl k) Logic.I). cbn in BK. rewrite RD in BK. discriminate.
  - subst t. destruct (Z.ltb_spec k0 n) as [KN|KN].
    + specialize (BK RTimeout (Nat.le_refl k) Logic.I). cbn in BK. rewrite RD in BK.
      replace (k0 <? n) with true in BK by (symmetry; apply Z.ltb_lt; lia). discriminate.
    + specialize (BK RDone (Nat.le_refl k) Logic.I). cbn in BK. rewrite RD in BK.
      replace (k0 <? n) with false in BK by (symmetry; apply Z.ltb_ge; lia). discriminate.
  - apply (drain_moves (states w) k); eauto.
Qed.
(*EX
(** The hypotheses of both theorems can be met: the reader waits for a recorder, which first records without
    seeing the new phase and then sees it. *)
Example ex_C76 : exists h0 tr0 w a, wrun h0 tr0 (w 0%nat) /\ merged_untouched (acts tr0) /\ guards_dropped (acts tr0) /\ merge_safe h0 /\
  walong widles_outside (winit h0) tr0 /\ shifts (acts tr0) = 1 /\ s_lock (w_st (w 0%nat)) = Free /\
  wcontinues h0 w a /\ no_leak (actions a) /\ few_recorders (states w) /\ widles_outside_ever w a /\ clones_end (actions a) /\
  recorders_go_on (states w) (actions a) /\ wreader_goes_on wstep w a /\ becomes_visible w a /\
  s_reader (w_st (w 0%nat)) = RWait true 1 0 /\ w_now (w 0%nat) = 1 /\ a 1%nat = Some (LLoad 0, 0) /\
  s_reader (w_st (w 3%nat)) = RWait true 1 0 /\ s_chan (w_st (w 3%nat)) = [] /\ s_reader (w_st (w 9%nat)) = RReady.
Proof.
  set (tr0 := [(RRecorder, 0); (RStart true, 0); (REmpty, 0); (RRead, 0); (RShift, 0)]).
  set (tr := [(LWrite 0 (ORecord 7 1), 0); (LLoad 0, 0); (LFinish 0, 0); (LWrite 0 (ORecord 8 1), 0); (LLoad 0, 1); (LFinish 0, 0); (RRecv, 0); (RDone, 0); (REmpty, 0);
              (LDrop 0, 0); (LDropEnd 0, 0)]).
  assert (X : match build U64 1 1000 2 true [] with
              | Some h => match wexec (winit h) tr0 with
                          | Some w => match wexec w tr with
                              | Some w2 => s_reader (w_st w2) = RReady /\ map r_pc (s_recs (w_st w2)) = [PGone] /\
                                  forallb (fun k => active_recorders (w_st (wsettle w tr k)) <? usize_max) (seq 0 (Datatypes.S (length tr))) = true /\
                                  is_auto_resize h = true /\ h_ctr h = U64 /\
                                  s_lock (w_st w) = Free /\ s_reader (w_st (wsettle w tr 0)) = RWait true 1 0 /\ w_now (wsettle w tr 0) = 1 /\
                                  s_reader (w_st (wsettle w tr 3)) = RWait true 1 0 /\ s_chan (w_st (wsettle w tr 3)) = [] /\ s_reader (w_st (wsettle w tr 9)) = RReady
                              | None => False end
                          | None => False end
              | None => False end) by (vm_compute; auto 20).
  destruct (build _ _ _ _ _ _) as [h|] eqn:B; [|contradiction]. destruct (wexec (winit h) tr0) as [w|] eqn:E0; [|contradiction].
  destruct (wexec w tr) as [w2|] eqn:E1; [|contradiction]. destruct X as (X1 & X2 & X3 & X4 & CT & X5 & X6 & X7 & X8 & X9 & X10).
  assert (Q : all_quiet (w_st w2)).
  { intros r I. left. apply (in_map r_pc) in I. rewrite X2 in I. cbn in I. destruct I as [I|[]]; auto. }
  destruct (wsettle_fair w tr w2 E1 X1 Q) as (F1 & F2 & F3 & F4). apply wreader_as in F2.
  exists h, tr0, (wsettle w tr), (nth_error tr). split; [split; [exact (build_reachable _ _ _ _ _ _ _ B)|split; [repeat constructor|exact E0]]|].
  split; [intros y I; cbn in I; intuition discriminate|]. split; [intros y I; cbn in I; intuition discriminate|].
  split; [left; exact X4|].
  split; [cbn [walong tr0]; repeat (split; [exact (conj Logic.I Logic.I)|]; match goal with |- match ?x with _ => _ end => destruct x; [|exact Logic.I] end); exact Logic.I|].
  split; [reflexivity|]. split; [exact X5|].
  split; [apply (wsettle_continues h w tr w2 E1); rewrite CT; repeat constructor; vm_compute; discriminate|].
  split; [intros k i N; unfold actions in N; destruct (nth_error tr k) as [x|] eqn:NK; [|discriminate]; apply nth_error_In in NK; cbn in NK, N; intuition (subst; discriminate)|].
  split; [apply (wsettle_few w tr w2 E1 X3)|].
  split; [intros k x N; apply nth_error_In in N; cbn in N; intuition (subst; split; exact Logic.I)|].
  auto 15.
Qed.
EX*)

(** *)
Lemma wsettle_prefix w tr w2 k : wexec w tr = Some w2 -> wexec w (firstn k tr) = Some (wsettle w tr k).
Proof.
  intros E. unfold wsettle. rewrite <- (firstn_skipn k tr), wexec_app in E. destruct (wexec w (firstn k tr)); [reflexivity|discriminate].
Qed.
Lemma wsettle_end w tr w2 k : wexec w tr = Some w2 -> (length tr <= k)%nat -> wsettle w tr k = w2.
Proof. intros E L. unfold wsettle. rewrite firstn_all2 by exact L. rewrite E. reflexivity. Qed.
Lemma wsettle_continues h0 w tr w2 : wexec w tr = Some w2 -> Forall (label_ok (h_ctr h0)) (acts tr) -> wcontinues h0 (wsettle w tr) (nth_error tr).
Proof.
  intros E F k. destruct (nth_error tr k) as [l|] eqn:N.
  - split; [apply (nth_Forall _ (acts tr) k (fst l) F); unfold acts; rewrite nth_error_map, N; reflexivity|].
    pose proof (wsettle_prefix _ _ _ (Datatypes.S k) E) as X. rewrite (firstn_snoc _ _ _ N) in X.
    apply wexec_snoc in X. destruct X as (s1 & X1 & X2). rewrite (wsettle_prefix _ _ _ k E) in X1. injection X1 as <-. exact X2.
  - apply nth_error_None in N. rewrite !(wsettle_end _ _ _ _ E) by lia. reflexivity.
Qed.
Lemma wsettle_fair w tr w2 : wexec w tr = Some w2 -> s_reader (w_st w2) = RReady -> all_quiet (w_st w2) ->
  recorders_go_on (states (wsettle w tr)) (actions (nth_error tr)) /\ reader_goes_on (states (wsettle w tr)) (actions (nth_error tr)) /\
  clones_end (actions (nth_error tr)) /\ becomes_visible (wsettle w tr) (nth_error tr).
Proof.
  intros E R Q. unfold states, actions. split; [|split; [|split]].
  - intros i k. exists (k + length tr)%nat. split; [lia|]. right. intros r J. rewrite (wsettle_end _ _ _ _ E) in J by lia.
    apply or_comm, Q. eapply nth_error_In; eauto.
  - intros k. exists (k + length tr)%nat. split; [lia|]. right. intros j l L RS. rewrite (wsettle_end _ _ _ _ E) by lia.
    destruct l; cbn in *; try contradiction; rewrite R; reflexivity.
  - exists (length tr). intros k i L X. assert (N : nth_error tr k = None) by (apply nth_error_None; exact L). rewrite N in X. discriminate.
  - intros k. exists (length tr). intros j l n L X. assert (N : nth_error tr j = None) by (apply nth_error_None; exact L). congruence.
Qed.
Lemma wsettle_few w tr w2 : wexec w tr = Some w2 ->
  forallb (fun k => active_recorders (w_st (wsettle w tr k)) <? usize_max) (seq 0 (Datatypes.S (length tr))) = true -> few_recorders (states (wsettle w tr)).
Proof.
  intros E F k. rewrite forallb_forall in F. unfold states. destruct (Nat.le_gt_cases k (length tr)) as [L|L].
  - apply Z.ltb_lt, F, in_seq. lia.
  - rewrite (wsettle_end _ _ _ _ E) by lia. rewrite <- (wsettle_end _ _ _ (length tr) E) by lia. apply Z.ltb_lt, F, in_seq. lia.
Qed.

(** a recorder that never sees the phase move *)
Fixpoint third (k : nat) : nat :=
  match k with 0%nat => 0%nat | Datatypes.S k' => match third k' with 0 => 1 | 1 => 2 | _ => 0 end%nat end.
Definition blind (k : nat) : label * Z :=
  match third k with 0%nat => (LWrite 0 (ORecord 7 1), 0) | 1%nat => (LLoad 0, 0) | _ => (LFinish 0, 0) end.
Fixpoint blinded (w : wstate) (k : nat) : wstate :=
  match k with
  | 0%nat => w
  | Datatypes.S k' => match wstep (blinded w k') (blind k') with Some x => x | None => blinded w k' end
  end.
Definition unseeing (m : nat) (w : wstate) : Prop :=
  s_reader (w_st w) = RWait false 1 0 /\ s_chan (w_st w) = [] /\ s_lock (w_st w) = Free /\ w_now w = 1 /\ w_views w = [0] /\
  exists b, s_recs (w_st w) = [Rec b 0 (match m with 0%nat => PReady | 1%nat => PWrote | _ => PLoaded 0 end)] /\ reachable (b_hist b) /\ h_ctr (b_hist b) = U64.
Lemma third_lt k : (third k < 3)%nat.
Proof. induction k as [|k IH]; cbn; [lia|]. destruct (third k) as [|[|[|]]]; lia. Qed.
Lemma unseeing_step k w : unseeing (third k) w -> exists w', wstep w (blind k) = Some w' /\ unseeing (third (Datatypes.S k)) w'.
Proof.
  intros (RD & CH & LK & NW & VS & b & RC & R & CT). pose proof (third_lt k) as TL. unfold blind. cbn [third].
  destruct w as [st now vs lk]. cbn [w_st w_now w_views] in *. subst now vs.
  destruct (third k) as [|[|[|]]]; try lia.
  - destruct (op_facts (b_hist b) (ORecord 7 1) R) as (h' & ok & EO & R' & SS & _); [rewrite CT; split; vm_compute; intuition discriminate|].
    eexists. split; [cbn [wstep w_st w_views step]; rewrite RC; cbn [nth_error]; rewrite EO; reflexivity|].
    split; [exact RD|]. split; [exact CH|]. split; [exact LK|]. split; [reflexivity|]. split; [reflexivity|].
    eexists. cbn [w_st s_recs put_rec]. rewrite RC. cbn [put]. split; [reflexivity|]. cbn [b_hist]. split; [exact R'|]. rewrite (Ops.ss_ctr _ _ SS). exact CT.
  - eexists. split; [cbn [wstep w_st w_views view nth]; cbn [w_now Z.leb Z.compare andb step with_phase s_recs]; rewrite RC; cbn [nth_error]; reflexivity|].
    split; [exact RD|]. split; [exact CH|]. split; [exact LK|]. split; [reflexivity|]. split; [reflexivity|].
    exists b. cbn [w_st s_recs put_rec with_phase]. rewrite RC. auto.
  - eexists. split; [cbn [wstep w_st w_views step]; rewrite RC; cbn [nth_error Z.eqb]; reflexivity|].
    split; [exact RD|]. split; [exact CH|]. split; [exact LK|]. split; [reflexivity|]. split; [reflexivity|].
    exists b. cbn [w_st s_recs put_rec]. rewrite RC. auto.
Qed.
Lemma blinded_inv w : unseeing 0 w -> forall k, unseeing (third k) (blinded w k) /\ wstep (blinded w k) (blind k) = Some (blinded w (Datatypes.S k)).
Proof.
  intros U0. assert (U : forall k, unseeing (third k) (blinded w k)).
  { induction k as [|k IH]; [exact U0|]. destruct (unseeing_step _ _ IH) as (w' & E & X). cbn [blinded]. rewrite E. exact X. }
  intros k. split; [apply U|]. destruct (unseeing_step _ _ (U k)) as (w' & E & X). cbn [blinded]. rewrite E. reflexivity.
Qed.
(** Visibility is needed: if the recorder never sees the phase move, [refresh] never returns, however much
    is recorded. *)
Lemma C76_invisible_refuted_proof : exists h0 tr0 w a,
  wrun h0 tr0 (w 0%nat) /\ merged_untouched (acts tr0) /\ guards_dropped (acts tr0) /\ merge_safe h0 /\
  walong widles_outside (winit h0) tr0 /\ shifts (acts tr0) < usize_max /\ s_lock (w_st (w 0%nat)) <> Poisoned /\
  wcontinues h0 w a /\ no_leak (actions a) /\ few_recorders (states w) /\ widles_outside_ever w a /\ clones_end (actions a) /\
  recorders_go_on (states w) (actions a) /\ wreader_goes_on wstep w a /\
  (forall k, exists j o, (k <= j)%nat /\ actions a j = Some (LWrite 0 o)) /\
  forall k, s_reader (w_st (w k)) = RWait false 1 0.
Proof.
  set (tr0 := [(RRecorder, 0); (RStart false, 0); (REmpty, 0); (RRead, 0); (RShift, 0)]).
  assert (X : match build U64 1 1000 2 true [] with
              | Some h => match wexec (winit h) tr0 with
                          | Some w => s_reader (w_st w) = RWait false 1 0 /\ s_chan (w_st w) = [] /\ s_lock (w_st w) = Free /\ w_now w = 1 /\ w_views w = [0] /\
                              map (fun r => (r_phase r, r_pc r, h_ctr (b_hist (r_local r)))) (s_recs (w_st w)) = [(0, PReady, U64)] /\ is_auto_resize h = true /\ h_ctr h = U64
                          | None => False end
              | None => False end) by (vm_compute; auto 10).
  destruct (build _ _ _ _ _ _) as [h|] eqn:B; [|contradiction]. destruct (wexec (winit h) tr0) as [w|] eqn:E0; [|contradiction].
  destruct X as (X1 & X2 & X3 & X4 & X5 & X6 & X7 & X8).
  assert (RN : wrun h tr0 w) by (split; [exact (build_reachable _ _ _ _ _ _ _ B)|split; [repeat constructor|exact E0]]).
  assert (U0 : unseeing 0 w).
  { repeat (split; [assumption|]). destruct (wtyped h tr0 w RN) as (_ & _ & T). destruct (s_recs (w_st w)) as [|[b p c] [|]]; try discriminate.
    cbn in X6. injection X6 as -> -> X6. exists b. split; [reflexivity|]. inversion T; subst. split; [apply H1|exact X6]. }
  pose proof (blinded_inv w U0) as INV.
  exists h, tr0, (blinded w), (fun k => Some (blind k)). split; [exact RN|].
  split; [intros y I; cbn in I; intuition discriminate|]. split; [intros y I; cbn in I; intuition discriminate|].
  split; [left; exact X7|].
  split; [cbn [walong tr0]; repeat (split; [exact (conj Logic.I Logic.I)|]; match goal with |- match ?x with _ => _ end => destruct x; [|exact Logic.I] end); exact Logic.I|].
  split; [vm_compute; reflexivity|]. split; [cbn [blinded]; rewrite X3; discriminate|].
  split; [intros k; split; [|apply INV]; rewrite X8; unfold blind; destruct (third k) as [|[|]]; cbn; try exact Logic.I; split; vm_compute; intuition discriminate|].
  split; [intros k i; unfold actions, blind; destruct (third k) as [|[|]]; discriminate|].
  split; [intros k; destruct (INV k) as [(_ & _ & _ & _ & _ & b & RC & _) _]; unfold active_recorders, states; rewrite RC; destruct (third k) as [|[|]]; reflexivity|].
  split; [intros k x A; injection A as <-; unfold blind; destruct (third k) as [|[|]]; split; exact Logic.I|].
  split; [exists 0%nat; intros k i _; unfold actions, blind; destruct (third k) as [|[|]]; discriminate|].
  split.
  { intros i k. exists k. split; [lia|]. destruct i as [|i].
    - left. unfold actions, blind. destruct (third k) as [|[|]]; eexists; split; reflexivity.
    - right. intros r J. destruct (INV k) as [(_ & _ & _ & _ & _ & b & RC & _) _]. unfold states in J. rewrite RC in J. destruct i; discriminate J. }
  split.
  { apply wreader_as. intros k. exists k. split; [lia|]. right. intros j l _ RS. destruct (INV j) as [(RD & CH & _) _]. unfold states.
    destruct l; cbn [refresh_step] in RS; try contradiction; cbn [step]; rewrite RD; try reflexivity. unfold receive. rewrite CH. reflexivity. }
  split.
  { intros k. assert (T : third k = 0%nat \/ third (1 + k) = 0%nat \/ third (2 + k) = 0%nat).
    { cbn [Nat.add third]. destruct (third k) as [|[|]]; auto. }
    destruct T as [T|[T|T]]; [exists k|exists (1 + k)%nat|exists (2 + k)%nat]; exists (ORecord 7 1); (split; [lia|]); unfold actions, blind; rewrite T; reflexivity. }
  intros k. apply INV.
Qed.
