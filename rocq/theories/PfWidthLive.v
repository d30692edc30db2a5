(** * C84: whoever goes on gets on, with a usize of 32 to 64 bits *)
From Verif Require Import Machine Log2Model HistModel Bins ListZ Wf Spec Reach Witness SyncModel SyncSpec SyncOps SyncFacts SyncRefresh PfSync LiveSpec LiveFacts PfLive
  WeakModel WeakSpec WeakFacts PfWeak WeakLiveSpec PfWeakLive ReleaseSyncModel ReleaseSyncFacts LooseFacts WidthSyncModel WidthSyncSpec WidthSyncFacts PfWidthSync EventSpec WeakEventSpec WidthEventSpec WidthEventFacts WidthLiveSpec.
(*PROPS-IMPORTS Machine Log2Model HistModel Spec Reach Witness Cases SyncModel SyncSpec LiveSpec WeakModel WeakSpec WeakLiveSpec WidthSyncModel WidthSyncSpec WidthEventSpec WidthLiveSpec *)

(** ** What can still be sent, as in [PfWeakLive] *)
Section DUES.
Variable B : Z.
(** *)
Definition ndues (now v : Z) (r : recorder) : Z :=
  match r_pc r with
  | PReady | PWrote | PIdling => 1 + bz (negb (r_phase r =? phase_b B v)) + 2 * (now - v)
  | PLoaded q => 1 + bz (negb (q =? r_phase r)) + bz (negb (q =? phase_b B v)) + 2 * (now - v)
  | PIdlingLoaded q => 1 + bz (negb (q =? r_phase r)) + 2 * (now - v)
  | PIdle | PWaking | PDropping => 1 + 2 * (now - v)
  | PGone => 0
  end.
Fixpoint nsum (now : Z) (vs : list Z) (rs : list recorder) : Z :=
  match vs, rs with v :: vs', r :: rs' => ndues now v r + nsum now vs' rs' | _, _ => 0 end.
Lemma nsum_put now rs : forall vs i v x r, nth_error rs i = Some x -> length vs = length rs ->
  nsum now (put_view vs i v) (put rs i r) = nsum now vs rs - ndues now (view vs i) x + ndues now v r.
Proof.
  induction rs as [|y rs IH]; intros [|u vs] [|i] v x r E L; try discriminate E; try discriminate L; cbn [put_view put nsum].
  - injection E as ->. unfold view. cbn [nth]. lia.
  - cbn in E, L. rewrite (IH vs i v x r E) by lia. unfold view. cbn [nth]. lia.
Qed.
Lemma ndues_nonneg now v r : v <= now -> 0 <= ndues now v r.
Proof.
  intros L. unfold ndues. destruct (r_pc r); try lia;
    repeat match goal with |- context [bz ?b] => pose proof (bz_range b); generalize dependent (bz b); intros end; lia.
Qed.
Lemma nsum_nonneg now rs : forall vs, (forall i, view vs i <= now) -> 0 <= nsum now vs rs.
Proof.
  induction rs as [|r rs IH]; intros [|v vs] H; cbn [nsum]; try lia.
  pose proof (ndues_nonneg now v r (H 0%nat)).
  assert (0 <= nsum now vs rs); [|lia]. apply IH. intros i. apply (H (Datatypes.S i)).
Qed.
Lemma nsum_next now rs : forall vs, nsum (now + 1) vs rs <= nsum now vs rs + 2 * zlen rs.
Proof.
  induction rs as [|r rs IH]; intros [|v vs]; cbn [nsum].
  1-2: cbn; lia.
  - pose proof (zlen_nonneg (r :: rs)). lia.
  - specialize (IH vs). rewrite zlen_cons. assert (ndues (now + 1) v r <= ndues now v r + 2) by (unfold ndues; destruct (r_pc r); lia). lia.
Qed.
Definition npot (w : wstate) : Z := zlen (s_chan (w_st w)) + nsum (w_now w) (w_views w) (s_recs (w_st w)).
Lemma npot_nonneg w : nviews B w -> 0 <= npot w.
Proof.
  intros (_ & _ & V & _). unfold npot. pose proof (zlen_nonneg (s_chan (w_st w))).
  assert (0 <= nsum (w_now w) (w_views w) (s_recs (w_st w))); [|lia]. apply nsum_nonneg. intros i. apply (V i).
Qed.
Definition nleft (w : wstate) : Z :=
  let st := w_st w in
  match s_reader st with
  | RDrain _ => npot w + 2 * zlen (s_recs st) + 5
  | RCount _ => npot w + 2 * zlen (s_recs st) + 4
  | RBump _ _ => npot w + 2 * zlen (s_recs st) + 3
  | RWait _ _ _ => npot w + 2
  | RDrain2 => npot w + 1
  | _ => 0
  end.
Lemma nleft_nonneg w : nviews B w -> 0 <= nleft w.
Proof. intros OK. unfold nleft. cbv zeta. pose proof (npot_nonneg w OK). pose proof (zlen_nonneg (s_recs (w_st w))). destruct (s_reader (w_st w)); lia. Qed.
Lemma npot_put w w' i v x r e : length (w_views w) = length (s_recs (w_st w)) -> nth_error (s_recs (w_st w)) i = Some x -> w_now w' = w_now w ->
  w_views w' = put_view (w_views w) i v -> s_recs (w_st w') = put (s_recs (w_st w)) i r ->
  zlen (s_chan (w_st w')) <= zlen (s_chan (w_st w)) + e -> ndues (w_now w) v r + e <= ndues (w_now w) (view (w_views w) i) x ->
  npot w' <= npot w /\ zlen (s_recs (w_st w')) = zlen (s_recs (w_st w)).
Proof.
  intros V J N VS RS CH D. unfold npot. rewrite N, VS, RS, (nsum_put _ _ _ _ _ _ _ J V), put_zlen. lia.
Qed.
Lemma nraised now v k p : v <= k -> bz (negb (p =? phase_b B k)) + 2 * (now - k) <= bz (negb (p =? phase_b B v)) + 2 * (now - v).
Proof.
  intros L. destruct (Z.eq_dec v k) as [->|NE]; [lia|].
  pose proof (bz_range (negb (p =? phase_b B k))). pose proof (bz_range (negb (p =? phase_b B v))). lia.
Qed.
(** an action that loads nothing *)
Lemma npot_other w l k w' : load_of l = None -> ~ refresh_step l -> (forall i, l <> LClone i) -> (forall i, l <> LForget i) -> in_refresh (w_st w) ->
  length (w_views w) = length (s_recs (w_st w)) -> 0 <= w_lock w <= w_now w -> (forall i, 0 <= view (w_views w) i <= w_now w) ->
  wstep w (l, k) = Some w' -> npot w' <= npot w /\ zlen (s_recs (w_st w')) = zlen (s_recs (w_st w)).
Proof.
  intros LO N NC NF I VLEN VL VB E.
  assert (IC : in_call l) by apply (call_step _ _ _ I (wstep_other _ _ _ _ LO E)).
  assert (MX : forall v, v <= Z.max v (w_lock w)) by lia.
  destruct l; cbn [in_call refresh_step] in *; try tauto; try discriminate LO; try (exfalso; eapply NC; reflexivity); try (exfalso; eapply NF; reflexivity);
    cbn [wstep] in E; match type of E with match ?y with _ => _ end = _ => destruct y as [s'|] eqn:S; [|discriminate E] end; injection E as <-;
    step_cases S;
    match goal with K : nth_error _ ?i = Some ?x |- _ => pose proof (VB i) as VI end;
    try (match goal with H : (?a =? ?b) = true |- _ => apply Z.eqb_eq in H end).
  all: match goal with K : nth_error _ ?i = Some ?x |- _ =>
    first [ eapply (npot_put w _ i (view (w_views w) i) x _ 0 VLEN K); [reflexivity|symmetry; apply put_view_same|reflexivity|cbn; lia|]
          | eapply (npot_put w _ i (Z.max (view (w_views w) i) (w_lock w)) x _ 0 VLEN K); [reflexivity|reflexivity|reflexivity|cbn; lia|]
          | eapply (npot_put w _ i (Z.max (view (w_views w) i) (w_lock w)) x x 0 VLEN K); [reflexivity|reflexivity|symmetry; apply put_id; exact K|cbn; lia|]
          | eapply (npot_put w _ i (view (w_views w) i) x _ 1 VLEN K); [reflexivity|symmetry; apply put_view_same|cbn [w_st put_rec s_recs]; rewrite send_recs; reflexivity|cbn [w_st put_rec s_chan]; first [apply send_zlen|exact (send_zlen (put_lock (w_st w) _ _) _)]|] ] end.
  all: unfold ndues; cbn [SyncModel.r_pc SyncModel.r_phase];
    try (match goal with |- context [?p =? phase_b B (Z.max ?u _)] => pose proof (nraised (w_now w) _ _ p (MX u)) end);
    try (match goal with H : (?p =? ?q) = false |- context [?p =? ?q] => rewrite H; cbn [negb]; change (bz true) with 1 end);
    try (match goal with H : ?p = ?q |- context [?p =? ?q] => rewrite H, Z.eqb_refl; cbn [negb]; change (bz false) with 0 end);
    repeat match goal with |- context [bz ?b] => pose proof (bz_range b); let z := fresh "z" in set (z := bz b) in *; clearbody z end; lia.
Qed.
Lemma nother w l k w' : load_of l = None -> nstep B w (l, k) = Some w' ->
  exists c w1 p c', wstep (at_count w c) (l, k) = Some w1 /\ w' = at_phase (at_count w1 c') p.
Proof.
  intros L E. destruct (nstep_other _ _ _ _ _ L E) as [(_ & w1 & S & ->)|(_ & w1 & S & ->)].
  - exists usize_max, w1, (s_phase (w_st w1)), (s_count (w_st w)). split; [exact S|]. destruct w1 as [[] ? ? ?]. reflexivity.
  - exists (s_count (w_st w)), w1, (phase_b B (s_phase (w_st w1))), (s_count (w_st w1)). rewrite !at_count_id. auto.
Qed.
Lemma npot_step w l k w' : ~ refresh_step l -> (forall i, l <> LClone i) -> (forall i, l <> LForget i) -> in_refresh (w_st w) -> nviews B w ->
  nstep B w (l, k) = Some w' -> npot w' <= npot w /\ zlen (s_recs (w_st w')) = zlen (s_recs (w_st w)).
Proof.
  intros N NC NF I (VLEN & VL & VB & _) E. destruct (load_of l) as [i|] eqn:LO.
  - destruct (nstep_load _ _ _ _ _ _ LO E) as (KB & s' & S & ->).
    destruct l; try discriminate LO; injection LO as ->; step_cases S;
      match goal with K : nth_error _ i = Some ?x |- _ => pose proof (VB i) as VI; eapply (npot_put w _ i k x _ 0 VLEN K) end;
      try reflexivity; cbn [w_st with_phase s_chan put_rec put_lock]; try lia; unfold ndues; cbn [SyncModel.r_pc SyncModel.r_phase];
      match goal with |- context [phase_b B k =? ?p] => pose proof (nraised (w_now w) _ _ p (proj1 KB)) as RA; rewrite (Z.eqb_sym (phase_b B k)) | _ => idtac end;
      rewrite ?Z.eqb_refl; cbn [negb bz]; try lia.
  - destruct (nother _ _ _ _ LO E) as (c & w1 & p & c' & S & ->).
    exact (npot_other (at_count w c) l k w1 LO N NC NF I VLEN VL VB S).
Qed.
End DUES.

(** ** One step *)
(** *)
Lemma nreader_kept B w l k w' : in_refresh (w_st w) -> ~ refresh_step l -> nstep B w (l, k) = Some w' -> s_reader (w_st w') = s_reader (w_st w).
Proof.
  intros I N E. destruct (nstep_loose _ _ _ _ _ E) as (p & c & s1 & q & c' & S & X). rewrite X.
  exact (proj1 (reader_kept (put_count (with_phase (w_st w) p) c) l s1 I N S)).
Qed.
Lemma nkept B w l k w' i r : nstep B w (l, k) = Some w' -> ~ moves i l -> l <> LForget i ->
  nth_error (s_recs (w_st w)) i = Some r -> nth_error (s_recs (w_st w')) i = Some r.
Proof.
  intros E M F J. destruct (nstep_loose _ _ _ _ _ E) as (p & c & s1 & q & c' & S & X). rewrite X.
  exact (kept (put_count (with_phase (w_st w) p) c) l s1 i r S M F J).
Qed.
Lemma nrelease B w l k w' i r : lock_ok (w_st w) -> nstep B w (l, k) = Some w' -> s_lock (w_st w) = Held i -> moves i l -> nth_error (s_recs (w_st w)) i = Some r ->
  s_lock (w_st w') = Free \/ (r_pc r = PIdling /\ s_lock (w_st w') = Held i /\ exists r' q, nth_error (s_recs (w_st w')) i = Some r' /\ r_pc r' = PIdlingLoaded q).
Proof.
  intros LK E L M J. destruct (nstep_loose _ _ _ _ _ E) as (p & c & s1 & q & c' & S & X). rewrite X.
  exact (release (put_count (with_phase (w_st w) p) c) l s1 i r LK S L M J).
Qed.
Lemma ncall B w l k w' : in_refresh (w_st w) -> nstep B w (l, k) = Some w' -> in_call l.
Proof.
  intros I E. destruct (nstep_loose _ _ _ _ _ E) as (p & c & s1 & q & c' & S & X).
  exact (call_step (put_count (with_phase (w_st w) p) c) _ _ I S).
Qed.
Lemma nleft_step B w l k w' : ~ refresh_step l -> (forall i, l <> LClone i) -> (forall i, l <> LForget i) -> in_refresh (w_st w) ->
  nviews B w -> nstep B w (l, k) = Some w' -> nleft B w' <= nleft B w.
Proof.
  intros N NC NF I OK E. pose proof (nreader_kept _ _ _ _ _ I N E) as R. destruct (npot_step B w l k w' N NC NF I OK E) as [P Z].
  unfold nleft. cbv zeta. rewrite R, Z. destruct (s_reader (w_st w)); lia.
Qed.
(** an action of the reader inside a refresh *)
Lemma nrefresh B w l k w' : refresh_step l -> nstep B w (l, k) = Some w' ->
  exists s', step (w_st w) l = Some s' /\ s_reader (w_st w') = s_reader s' /\ s_chan (w_st w') = s_chan s' /\ s_recs (w_st w') = s_recs s' /\
    w_views w' = w_views w /\ w_now w' = match l with RShift => w_now w + 1 | _ => w_now w end.
Proof.
  intros RS E. pose proof (refresh_load _ RS) as LO.
  destruct (nstep_other _ _ _ _ _ LO E) as [(O & _)|(_ & w2 & S2 & ->)].
  { destruct l; cbn [refresh_step] in RS; try contradiction; discriminate O. }
  pose proof (wviews_kept _ _ _ _ RS S2) as VK. pose proof (now_step _ _ _ _ S2) as NW. rewrite shifts_one in NW.
  exists (w_st w2). split; [exact (wstep_other _ _ _ _ LO S2)|]. cbn [at_phase w_st with_phase s_reader s_chan s_recs w_views w_now].
  repeat (split; [solve [reflexivity | exact VK]|]). rewrite NW. destruct l; lia.
Qed.
Lemma nleft_refresh B w l k w' : refresh_step l -> in_refresh (w_st w) -> s_reader (w_st w') <> RPanicked -> nstep B w (l, k) = Some w' ->
  s_reader (w_st w') = RReady \/ (in_refresh (w_st w') /\ nleft B w' < nleft B w).
Proof.
  intros RS I NP E. destruct (nrefresh _ _ _ _ _ RS E) as (st' & S & RD & CH & RC' & VK & NW).
  unfold nleft. cbv zeta. unfold in_refresh, npot in *. rewrite RD, CH, RC', VK, NW. rewrite RD in NP. clear E RD CH RC' VK NW.
  set (vs := w_views w) in *. set (st := w_st w) in *. set (now := w_now w) in *.
  assert (RC : forall c, receive st c = Some st' -> s_reader st' = c /\ s_recs st' = s_recs st /\ zlen (s_chan st') = zlen (s_chan st) - 1).
  { intros c X. destruct (receive_chan _ _ _ X NP) as (X1 & X2 & X3 & X4). split; auto. split; [exact X2|]. lia. }
  pose proof (zlen_nonneg (s_recs st)) as ZR.
  destruct l; cbn [refresh_step] in RS; try contradiction; step_cases S; rewrite ?K in *; try contradiction;
    try (left; reflexivity);
    try (right; split; [exact Logic.I|]; cbn [put_reader s_reader s_chan s_recs]; repeat match goal with H : s_chan st = [] |- _ => rewrite H end; lia).
  - destruct (RC _ S) as (-> & A2 & A3). rewrite A2, A3. right. split; [exact Logic.I|lia].
  - destruct (RC _ S) as (-> & A2 & A3). rewrite A2, A3. right. split; [exact Logic.I|lia].
  - destruct (RC _ S) as (-> & A2 & A3). rewrite A2, A3. right. split; [exact Logic.I|lia].
  - right. split; [exact Logic.I|]. cbn [s_reader s_chan s_recs]. pose proof (nsum_next B now (s_recs st) vs). lia.
Qed.

(** ** Executions *)
(** *)
Lemma nrun_app B h0 a b w w' : nrun B h0 a w -> Forall (label_ok (h_ctr h0)) (acts b) -> nexec B w b = Some w' -> nrun B h0 (a ++ b) w'.
Proof.
  intros (W & R & F & E) F2 E2. split; [exact W|]. split; [exact R|]. split; [rewrite acts_app; apply Forall_app; auto|]. rewrite nexec_app, E. exact E2.
Qed.
Section NLIVE.
Variables (B : Z) (h0 : hist) (tr0 : list (label * Z)) (w : nat -> wstate) (a : nat -> option (label * Z)).
Notation s := (states w).
Hypothesis R0 : nrun B h0 tr0 (w 0%nat).
Hypothesis U0 : merged_untouched (acts tr0).
Hypothesis MS : merge_safe h0.
Hypothesis C : ncontinues B h0 w a.
Hypothesis NL : no_leak (actions a).
Hypothesis NPO : forall k, s_lock (s k) <> Poisoned.
Hypothesis RG : reader_goes_on s (actions a).
Hypothesis T0 : in_timed_refresh (s 0%nat).

Lemma nact_inv j l : actions a j = Some l -> exists n, a j = Some (l, n) /\ nstep B (w j) (l, n) = Some (w (Datatypes.S j)).
Proof.
  unfold actions. intros X. pose proof (C j) as CJ. destruct (a j) as [[l' n]|]; [|discriminate]. cbn in X. injection X as ->.
  exists n. split; [reflexivity|apply CJ].
Qed.
Lemma npre_run j : nrun B h0 (tr0 ++ wpre a j) (w j).
Proof.
  induction j as [|j IH].
  - cbn. rewrite app_nil_r. exact R0.
  - pose proof (C j) as CJ. cbn [wpre]. destruct (a j) as [x|].
    + destruct CJ as [LO ST]. rewrite app_assoc. apply (nrun_app B h0 _ [x] (w j)); auto; [constructor; [exact LO|constructor]|cbn [nexec]; rewrite ST; reflexivity].
    + rewrite app_nil_r, CJ. exact IH.
Qed.
Lemma npre_lock j : s_lock (s j) <> Poisoned.
Proof. apply NPO. Qed.
Lemma npre_ok j : nviews B (w j) /\ lock_ok (s j).
Proof. pose proof (npre_run j) as RN. pose proof RN as (W & _ & _ & E). split; [apply (nviews_run B h0 _ _ W E)|apply (llock_ok h0 (acts (tr0 ++ wpre a j))); apply (nrun_loose _ _ _ _ RN)]. Qed.
Definition ngoing (j : nat) : Prop := in_timed_refresh (s j) /\ merged_untouched (acts (tr0 ++ wpre a j)).
Definition nreturned : Prop := exists k, s_reader (s k) = RReady.
Lemma ntimed_in st : in_timed_refresh st -> in_refresh st.
Proof. unfold in_timed_refresh, in_refresh. destruct (s_reader st); auto. Qed.
Lemma nnot_panicked j : merged_untouched (acts (tr0 ++ wpre a j)) -> s_reader (s j) <> RPanicked.
Proof. intros U. apply (C84_refresh_never_panics_proof B h0 _ _ (npre_run j) U MS). Qed.
Lemma ngoing_step j : ngoing j -> s_reader (s (Datatypes.S j)) = RReady \/ ngoing (Datatypes.S j).
Proof.
  intros (T & U). pose proof (ntimed_in _ T) as I. pose proof (C j) as CJ. unfold ngoing. cbn [wpre] in *. destruct (a j) as [[l n]|] eqn:A.
  - destruct CJ as [LO ST]. rewrite app_assoc. pose proof (ncall _ _ _ _ _ I ST) as IC.
    assert (U' : merged_untouched (acts ((tr0 ++ wpre a j) ++ [(l, n)]))).
    { intros h IN. rewrite acts_app in IN. apply in_app_iff in IN. destruct IN as [IN|[IN|[]]]; [apply (U h IN)|]. cbn in IN. subst l. exact IC. }
    assert (NP : s_reader (s (Datatypes.S j)) <> RPanicked).
    { apply nnot_panicked. cbn [wpre]. rewrite A, app_assoc. exact U'. }
    destruct (refresh_dec l) as [D|D].
    + destruct (nleft_refresh _ _ _ _ _ D I NP ST) as [X|[X _]]; [left; exact X|]. right. split; [|exact U'].
      destruct (nrefresh _ _ _ _ _ D ST) as (s' & S & RD & _). unfold in_timed_refresh, in_refresh, states in *. rewrite RD in *. apply (timed_step _ l s' T X S).
    + pose proof (nreader_kept _ _ _ _ _ I D ST) as RK. right. unfold in_timed_refresh, states in *. rewrite RK. auto.
  - rewrite app_nil_r. unfold states in *. rewrite CJ. right. auto.
Qed.
Lemma ngoing_on d : forall j, ngoing j -> nreturned \/ ngoing (d + j).
Proof.
  induction d as [|d IH]; intros j G; [right; exact G|]. destruct (IH j G) as [X|X]; [left; exact X|].
  destruct (ngoing_step _ X) as [Y|Y]; [left; exists (Datatypes.S (d + j)%nat); exact Y|right; exact Y].
Qed.
Lemma nuntil i r d : forall j, nth_error (s_recs (s j)) i = Some r ->
  (exists k' l, (j <= k' < d + j)%nat /\ actions a k' = Some l /\ moves i l /\ nth_error (s_recs (s k')) i = Some r) \/
  nth_error (s_recs (s (d + j))) i = Some r.
Proof.
  clear NPO. induction d as [|d IH]; intros j J; [right; exact J|].
  destruct (IH j J) as [(k' & l & X1 & X2)|X]; [left; exists k', l; split; [lia|exact X2]|].
  pose proof (C (d + j)%nat) as CJ. cbn [Nat.add]. destruct (a (d + j)%nat) as [[l n]|] eqn:A; [|right; unfold states; rewrite CJ; exact X].
  destruct CJ as [_ ST]. apply act_some in A.
  assert (D : moves i l \/ ~ moves i l) by (destruct l; cbn; try tauto; apply Nat.eq_decidable).
  destruct D as [M|M]; [left; exists (d + j)%nat, l; split; [lia|auto]|]. right. apply (nkept _ _ _ _ _ i r ST M); auto. intros ->. apply (NL _ _ A).
Qed.

(** stuck for good *)
Section STUCK.
Variable k : nat.
Hypothesis BL : forall j l, (k <= j)%nat -> refresh_step l -> step (s j) l = None.
Hypothesis GK : ngoing k.
Lemma nnot_ref j l : (k <= j)%nat -> actions a j = Some l -> ~ refresh_step l.
Proof.
  intros L A RS. destruct (nact_inv _ _ A) as (n & _ & ST). destruct (nrefresh _ _ _ _ _ RS ST) as (s' & S & _).
  pose proof (BL j l L RS) as BJ. unfold states in BJ. rewrite BJ in S. discriminate.
Qed.
Lemma nstuck_same j : (k <= j)%nat -> s_reader (s j) = s_reader (s k).
Proof.
  intros L. replace j with ((j - k) + k)%nat by lia. induction (j - k)%nat as [|d IH]; [reflexivity|]. cbn [Nat.add].
  pose proof (C (d + k)%nat) as CJ. destruct (a (d + k)%nat) as [[l n]|] eqn:A.
  - destruct CJ as [_ ST]. assert (IR : in_refresh (s (d + k)%nat)) by (unfold in_refresh; rewrite IH; apply ntimed_in; apply GK).
    pose proof (nreader_kept _ _ _ _ _ IR (nnot_ref _ _ (Nat.le_add_l k d) (act_some _ _ _ _ A)) ST) as X. unfold states in *. rewrite X. exact IH.
  - unfold states in *. rewrite CJ. exact IH.
Qed.
Lemma nstuck_lock : sections_go_on s (actions a) -> (exists t, s_reader (s k) = RCount t) -> False.
Proof.
  intros GO (t & RC).
  assert (HE : forall j, (k <= j)%nat -> exists i r, s_lock (s j) = Held i /\ nth_error (s_recs (s j)) i = Some r /\ in_section r = true).
  { intros j L. pose proof (BL j RRead L Logic.I) as BJ. pose proof (nstuck_same j L) as X. cbn in BJ. rewrite X, RC in BJ.
    pose proof (npre_lock j) as NP. destruct (proj2 (npre_ok j)) as [_ LB]. destruct (s_lock (s j)) as [|i|] eqn:LK; [discriminate| |contradiction].
    destruct (LB i eq_refl) as (r & R1 & R2). exists i, r. auto. }
  assert (MV : forall j i r, (k <= j)%nat -> s_lock (s j) = Held i -> nth_error (s_recs (s j)) i = Some r -> in_section r = true ->
     exists k' l, (j <= k')%nat /\ actions a k' = Some l /\ moves i l /\ nth_error (s_recs (s k')) i = Some r /\ s_lock (s k') = Held i).
  { intros j i r L LK J IS. destruct (GO i j r J IS) as (k' & l & LE & A & M).
    assert (H : forall k1, (k <= k1)%nat -> nth_error (s_recs (s k1)) i = Some r -> s_lock (s k1) = Held i).
    { intros k1 L1 J1. apply (proj2 (npre_ok k1)) with (r := r); auto. }
    destruct (nuntil i r (k' - j) j J) as [(k1 & l1 & X1 & X2 & X3 & X4)|X].
    - exists k1, l1. split; [lia|]. repeat split; auto. apply H; auto. lia.
    - replace (k' - j + j)%nat with k' in X by lia. exists k', l. repeat split; auto. apply H; auto. lia. }
  assert (FR : forall j, (k <= j)%nat -> s_lock (s j) <> Free) by (intros j L X; destruct (HE j L) as (i & r & Y & _); congruence).
  destruct (HE k (Nat.le_refl k)) as (i & r & LK & J & IS).
  destruct (MV k i r (Nat.le_refl k) LK J IS) as (k1 & l1 & L1 & A1 & M1 & J1 & LK1).
  destruct (nact_inv _ _ A1) as (n1 & _ & ST1).
  destruct (nrelease _ _ _ _ _ i r (proj2 (npre_ok k1)) ST1 LK1 M1 J1) as [X|(_ & LK2 & r2 & q & J2 & P2)]; [apply (FR (Datatypes.S k1)); auto; lia|].
  destruct (MV (Datatypes.S k1) i r2 ltac:(lia) LK2 J2 ltac:(unfold in_section; rewrite P2; reflexivity)) as (k3 & l3 & L3 & A3 & M3 & J3 & LK3).
  destruct (nact_inv _ _ A3) as (n3 & _ & ST3).
  destruct (nrelease _ _ _ _ _ i r2 (proj2 (npre_ok k3)) ST3 LK3 M3 J3) as [X|(X & _)]; [apply (FR (Datatypes.S k3)); auto; lia|congruence].
Qed.
End STUCK.

Hypothesis CE : clones_end (actions a).
Hypothesis GO : sections_go_on s (actions a).
Lemma nmoves_on k : ngoing k -> (forall j l, (k <= j)%nat -> refresh_step l -> step (s j) l = None) -> False.
Proof.
  intros G BL. pose proof G as (TM & _).
  pose proof (BL k) as BK. unfold in_timed_refresh in TM. destruct (s_reader (s k)) as [|t|t|t n|t n k0| | |] eqn:RD; try contradiction.
  - apply (drain_moves s k); eauto.
  - apply (nstuck_lock k); eauto.
  - specialize (BK RShift (Nat.le_refl k) Logic.I). cbn in BK. rewrite RD in BK. discriminate.
  - subst t. destruct (Z.ltb_spec k0 n) as [KN|KN].
    + specialize (BK RTimeout (Nat.le_refl k) Logic.I). cbn in BK. rewrite RD in BK.
      replace (k0 <? n) with true in BK by (symmetry; apply Z.ltb_lt; lia). discriminate.
    + specialize (BK RDone (Nat.le_refl k) Logic.I). cbn in BK. rewrite RD in BK.
      replace (k0 <? n) with false in BK by (symmetry; apply Z.ltb_ge; lia). discriminate.
  - apply (drain_moves s k); eauto.
Qed.
Lemma nleft_on K : (forall k i, (K <= k)%nat -> actions a k <> Some (LClone i)) ->
  forall d j, (K <= j)%nat -> ngoing j -> nreturned \/ (ngoing (d + j) /\ nleft B (w (d + j)) <= nleft B (w j)).
Proof.
  intros HK d j L G. induction d as [|d IH]; [right; split; [exact G|apply Z.le_refl]|].
  destruct IH as [X|[X Y]]; [left; exact X|]. destruct (ngoing_step _ X) as [Z|Z]; [left; exists (Datatypes.S (d + j)%nat); exact Z|].
  right. split; [exact Z|]. etransitivity; [|exact Y]. cbn [Nat.add]. pose proof (C (d + j)%nat) as CJ. pose proof (ntimed_in _ (proj1 X)) as IX.
  destruct (a (d + j)%nat) as [[l n]|] eqn:A; [|rewrite CJ; lia]. destruct CJ as [_ ST]. apply act_some in A.
  destruct (refresh_dec l) as [D|D].
  - assert (NP : s_reader (s (Datatypes.S (d + j))) <> RPanicked) by (apply nnot_panicked; apply Z).
    destruct (nleft_refresh _ _ _ _ _ D IX NP ST) as [W|[_ W]]; [|lia]. destruct Z as (Z & _). unfold in_timed_refresh, states in Z. rewrite W in Z. contradiction.
  - apply (nleft_step _ _ l n); auto; [|intros i ->; apply (NL _ _ A)|apply npre_ok]. intros i ->. apply (HK (d + j)%nat i); [lia|exact A].
Qed.
Lemma nreturns K : (forall k i, (K <= k)%nat -> actions a k <> Some (LClone i)) ->
  forall m j, (K <= j)%nat -> ngoing j -> nleft B (w j) < Z.of_nat m -> nreturned.
Proof.
  intros HK. induction m as [|m IH]; intros j L G M; [pose proof (nleft_nonneg B (w j) (proj1 (npre_ok j))); lia|].
  destruct (RG j) as (k' & LK & HR). replace k' with ((k' - j) + j)%nat in HR by lia.
  destruct (nleft_on K HK (k' - j) j L G) as [X|[G' LE]]; [exact X|]. set (q := (k' - j + j)%nat) in *.
  destruct HR as [(l & A & RS)|ST]; [|exfalso; apply (nmoves_on q G' ST)].
  destruct (ngoing_step _ G') as [X|X]; [exists (Datatypes.S q); exact X|].
  destruct (nact_inv _ _ A) as (n & _ & ST).
  assert (NP : s_reader (s (Datatypes.S q)) <> RPanicked) by (apply nnot_panicked; apply X).
  destruct (nleft_refresh _ _ _ _ _ RS (ntimed_in _ (proj1 G')) NP ST) as [W|[_ W]]; [exists (Datatypes.S q); exact W|].
  apply (IH (Datatypes.S q)); auto; lia.
Qed.
Lemma nalways_returns : nreturned.
Proof.
  destruct CE as (K & HK).
  assert (G : ngoing 0) by (split; [exact T0|cbn [wpre]; rewrite app_nil_r; exact U0]).
  destruct (ngoing_on K 0%nat G) as [X|X]; [exact X|].
  apply (nreturns K HK (Z.to_nat (nleft B (w (K + 0)%nat) + 1)) (K + 0)%nat); auto; [lia|]. pose proof (nleft_nonneg B (w (K + 0)%nat) (proj1 (npre_ok _))). lia.
Qed.
End NLIVE.

(** *)
Lemma nsections_of B h0 w a : ncontinues B h0 w a -> no_leak (actions a) -> recorders_go_on (states w) (actions a) -> sections_go_on (states w) (actions a).
Proof.
  intros C NL GO i k r J IS. destruct (GO i k) as (k' & LK & H).
  destruct (nuntil B h0 w a C NL i r (k' - k) k J) as [(k1 & l & X1 & X2 & X3 & _)|X].
  - exists k1, l. split; [lia|auto].
  - replace (k' - k + k)%nat with k' in X by lia. destruct H as [(l & A & M)|H]; [exists k', l; auto|].
    unfold in_section in IS. destruct (H r X) as [Y|Y]; rewrite Y in IS; discriminate.
Qed.
Lemma nsettle_prefix B w tr w2 k : nexec B w tr = Some w2 -> nexec B w (firstn k tr) = Some (nsettle B w tr k).
Proof.
  intros E. unfold nsettle. rewrite <- (firstn_skipn k tr), nexec_app in E. destruct (nexec B w (firstn k tr)); [reflexivity|discriminate].
Qed.
Lemma nsettle_end B w tr w2 k : nexec B w tr = Some w2 -> (length tr <= k)%nat -> nsettle B w tr k = w2.
Proof. intros E L. unfold nsettle. rewrite firstn_all2 by exact L. rewrite E. reflexivity. Qed.
Lemma nsettle_continues B h0 w tr w2 : nexec B w tr = Some w2 -> Forall (label_ok (h_ctr h0)) (acts tr) -> ncontinues B h0 (nsettle B w tr) (nth_error tr).
Proof.
  intros E F k. destruct (nth_error tr k) as [l|] eqn:N.
  - split; [apply (nth_Forall _ (acts tr) k (fst l) F); unfold acts; rewrite nth_error_map, N; reflexivity|].
    pose proof (nsettle_prefix _ _ _ _ (Datatypes.S k) E) as X. rewrite (firstn_snoc _ _ _ N) in X.
    apply nexec_snoc in X. destruct X as (s1 & X1 & X2). rewrite (nsettle_prefix _ _ _ _ k E) in X1. injection X1 as <-. exact X2.
  - apply nth_error_None in N. rewrite !(nsettle_end _ _ _ _ _ E) by lia. reflexivity.
Qed.
Lemma nsettle_fair B w tr w2 : nexec B w tr = Some w2 -> s_reader (w_st w2) = RReady -> all_quiet (w_st w2) ->
  recorders_go_on (states (nsettle B w tr)) (actions (nth_error tr)) /\ reader_goes_on (states (nsettle B w tr)) (actions (nth_error tr)) /\
  clones_end (actions (nth_error tr)).
Proof.
  intros E R Q. unfold states, actions. split; [|split].
  - intros i k. exists (k + length tr)%nat. split; [lia|]. right. intros r J. rewrite (nsettle_end _ _ _ _ _ E) in J by lia.
    apply or_comm, Q. eapply nth_error_In; eauto.
  - intros k. exists (k + length tr)%nat. split; [lia|]. right. intros j l L RS. rewrite (nsettle_end _ _ _ _ _ E) by lia.
    destruct l; cbn in *; try contradiction; rewrite R; reflexivity.
  - exists (length tr). intros k i L X. assert (N : nth_error tr k = None) by (apply nth_error_None; exact L). rewrite N in X. discriminate.
Qed.
Lemma nreader_as B w a : wreader_goes_on (nstep B) w a <-> reader_goes_on (states w) (actions a).
Proof.
  apply reader_via. intros x l n RS. rewrite <- (wstep_none x l n RS). destruct l; cbn [refresh_step] in RS; try contradiction; cbn [nstep]; unfold overflows;
    cbn [counts]; cbn [Z.eqb andb]; destruct (wstep x _); split; congruence.
Qed.

(** [refresh_timeout] returns with a usize of [B] bits too, however often the phase has moved before, whether or
    not it has come round meanwhile, and however outdated the phases are that recorders load.  Needed are: no
    overflow of the number of recorders has poisoned the mutex (C84_count), no guard is forgotten while it runs,
    clones end, who is in a critical section of the recorders' mutex goes on, and so does the reader, whose timer
    runs out some time. *)
Lemma C84_timeout_returns_proof : forall B h0 tr0 w a,
  nrun B h0 tr0 (w 0%nat) -> merged_untouched (acts tr0) -> merge_safe h0 ->
  ncontinues B h0 w a -> no_leak (actions a) -> (forall k, s_lock (w_st (w k)) <> Poisoned) -> clones_end (actions a) ->
  sections_go_on (states w) (actions a) -> wreader_goes_on (nstep B) w a ->
  in_timed_refresh (w_st (w 0%nat)) -> exists k, s_reader (w_st (w k)) = RReady.
Proof. intros B h0 tr0 w a R0 U0 MS C NL NPO CE GO RG T. apply nreader_as in RG. exact (nalways_returns B h0 tr0 w a R0 U0 MS C NL NPO RG T CE GO). Qed.
(*EX
(** With 32 bits, two recorders: a [refresh_timeout] waits for both, one of them does not record any more, the
    other one first reads the old phase, then the new one, and sends its histogram.  The timer runs out, and the
    [refresh_timeout] returns. *)
Example ex_C84_timeout_returns : exists h0 tr0 w a, nrun 32 h0 tr0 (w 0%nat) /\ merged_untouched (acts tr0) /\ merge_safe h0 /\
  ncontinues 32 h0 w a /\ no_leak (actions a) /\ (forall k, s_lock (w_st (w k)) <> Poisoned) /\ clones_end (actions a) /\
  sections_go_on (states w) (actions a) /\ wreader_goes_on (nstep 32) w a /\
  s_reader (w_st (w 0%nat)) = RWait true 2 0 /\ s_chan (w_st (w 3%nat)) = [] /\
  s_reader (w_st (w 7%nat)) = RWait true 2 1 /\ s_reader (w_st (w 9%nat)) = RReady.
Proof.
  set (tr0 := [(RRecorder, 0); (RRecorder, 0); (LWrite 0 (ORecord 7 1), 0); (LLoad 0, 0); (LFinish 0, 0); (RStart true, 0); (REmpty, 0); (RRead, 0); (RShift, 0)]).
  set (tr := [(LWrite 1 (ORecord 9 4), 0); (LLoad 1, 0); (LFinish 1, 0); (LWrite 1 (ORecord 9 5), 0); (LLoad 1, 1); (LFinish 1, 0); (RRecv, 0); (RTimeout, 0); (REmpty, 0);
              (LDrop 1, 0); (LDropEnd 1, 0); (LDrop 0, 0); (LDropEnd 0, 0)]).
  assert (X : match build U64 1 1000 2 true [] with
              | Some h => match nexec 32 (winit h) tr0 with
                          | Some w => match nexec 32 w tr with
                              | Some w2 => s_reader (w_st w2) = RReady /\ map r_pc (s_recs (w_st w2)) = [PGone; PGone] /\ s_lock (w_st w2) = Free /\
                                  forallb (fun k => match s_lock (w_st (nsettle 32 w tr k)) with Poisoned => false | _ => true end) (seq 0 (Datatypes.S (length tr))) = true /\
                                  is_auto_resize h = true /\ h_ctr h = U64 /\
                                  s_reader (w_st (nsettle 32 w tr 0)) = RWait true 2 0 /\ s_chan (w_st (nsettle 32 w tr 3)) = [] /\
                                  s_reader (w_st (nsettle 32 w tr 7)) = RWait true 2 1 /\ s_reader (w_st (nsettle 32 w tr 9)) = RReady
                              | None => False end
                          | None => False end
              | None => False end) by (vm_compute; auto 20).
  destruct (build _ _ _ _ _ _) as [h|] eqn:B; [|contradiction]. destruct (nexec 32 (winit h) tr0) as [w|] eqn:E0; [|contradiction].
  destruct (nexec 32 w tr) as [w2|] eqn:E1; [|contradiction]. destruct X as (X1 & X2 & X3 & XL & X4 & CT & X6 & X7 & X8 & X9).
  assert (Q : all_quiet (w_st w2)).
  { intros r I. left. apply (in_map r_pc) in I. rewrite X2 in I. cbn in I. destruct I as [I|[I|[]]]; auto. }
  destruct (nsettle_fair 32 w tr w2 E1 X1 Q) as (F1 & F2 & F3). apply (nreader_as 32) in F2.
  exists h, tr0, (nsettle 32 w tr), (nth_error tr).
  split; [split; [lia|split; [exact (build_reachable _ _ _ _ _ _ _ B)|split; [unfold tr0; cbn [acts map fst]; rewrite CT; repeat constructor; vm_compute; discriminate|exact E0]]]|].
  split; [intros y I; cbn in I; intuition discriminate|].
  split; [left; exact X4|].
  assert (RC : ncontinues 32 h (nsettle 32 w tr) (nth_error tr)) by (apply (nsettle_continues 32 h w tr w2 E1); rewrite CT; repeat constructor; vm_compute; discriminate).
  assert (NL : no_leak (actions (nth_error tr))).
  { intros k i N; unfold actions in N; destruct (nth_error tr k) as [x|] eqn:NK; [|discriminate]; apply nth_error_In in NK; cbn in NK, N; intuition (subst; discriminate). }
  split; [exact RC|]. split; [exact NL|].
  split.
  { intros k. destruct (Nat.le_gt_cases k (length tr)) as [L|L].
    - rewrite forallb_forall in XL. specialize (XL k). intros Y. rewrite Y in XL. discriminate XL. apply in_seq. lia.
    - rewrite (nsettle_end _ _ _ _ _ E1) by lia. rewrite X3. discriminate. }
  split; [exact F3|]. split; [apply (nsections_of 32 h); auto|].
  auto 15.
Qed.
EX*)
