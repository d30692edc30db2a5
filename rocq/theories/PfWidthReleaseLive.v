(** * C85: whoever goes on gets on, in builds without overflow checks and with a usize of 32 to 64 bits *)
From Verif Require Import Machine Log2Model HistModel Bins ListZ Wf Spec Reach Witness SyncModel SyncSpec SyncOps SyncFacts SyncRefresh PfSync LiveSpec LiveFacts PfLive
  WeakModel WeakSpec WeakFacts PfWeak WeakLiveSpec PfWeakLive ReleaseSyncModel ReleaseSyncFacts LooseFacts WidthSyncModel WidthSyncSpec WidthSyncFacts PfWidthSync WidthEventSpec WidthLiveSpec PfWidthLive
  WidthReleaseModel WidthReleaseSpec WidthReleaseFacts PfWidthRelease.
(*PROPS-IMPORTS Machine Log2Model HistModel Spec Reach Witness Cases SyncModel SyncSpec LiveSpec WeakModel WeakSpec WeakLiveSpec ReleaseSyncModel ReleaseSyncSpec WidthSyncModel WidthSyncSpec WidthEventSpec WidthReleaseModel WidthReleaseSpec *)

(** ** One step, as in [PfWidthLive] *)
(** *)
Lemma refresh_counts l : refresh_step l -> counts l = 0.
Proof. destruct l; cbn; intros R; try contradiction; reflexivity. Qed.
Lemma mreader_kept B w l k w' : in_refresh (w_st w) -> ~ refresh_step l -> mstep B w (l, k) = Some w' -> s_reader (w_st w') = s_reader (w_st w).
Proof.
  intros I N E. destruct (mstep_loose _ _ _ _ _ E) as (p & c & s1 & q & c' & S & X). rewrite X.
  exact (proj1 (reader_kept (put_count (with_phase (w_st w) p) c) l s1 I N S)).
Qed.
Lemma mkept B w l k w' i r : mstep B w (l, k) = Some w' -> ~ moves i l -> l <> LForget i ->
  nth_error (s_recs (w_st w)) i = Some r -> nth_error (s_recs (w_st w')) i = Some r.
Proof.
  intros E M F J. destruct (mstep_loose _ _ _ _ _ E) as (p & c & s1 & q & c' & S & X). rewrite X.
  exact (kept (put_count (with_phase (w_st w) p) c) l s1 i r S M F J).
Qed.
Lemma mrelease B w l k w' i r : lock_ok (w_st w) -> mstep B w (l, k) = Some w' -> s_lock (w_st w) = Held i -> moves i l -> nth_error (s_recs (w_st w)) i = Some r ->
  s_lock (w_st w') = Free \/ (r_pc r = PIdling /\ s_lock (w_st w') = Held i /\ exists r' q, nth_error (s_recs (w_st w')) i = Some r' /\ r_pc r' = PIdlingLoaded q).
Proof.
  intros LK E L M J. destruct (mstep_loose _ _ _ _ _ E) as (p & c & s1 & q & c' & S & X). rewrite X.
  exact (release (put_count (with_phase (w_st w) p) c) l s1 i r LK S L M J).
Qed.
Lemma mcall B w l k w' : in_refresh (w_st w) -> mstep B w (l, k) = Some w' -> in_call l.
Proof.
  intros I E. destruct (mstep_loose _ _ _ _ _ E) as (p & c & s1 & q & c' & S & X).
  exact (call_step (put_count (with_phase (w_st w) p) c) _ _ I S).
Qed.
Lemma mleft_step B w l k w' : ~ refresh_step l -> (forall i, l <> LClone i) -> (forall i, l <> LForget i) -> in_refresh (w_st w) ->
  nviews B w -> mstep B w (l, k) = Some w' -> nleft B w' <= nleft B w.
Proof.
  intros N NC NF I OK E. destruct (mstep_inv _ _ _ _ _ E) as (c & w1 & c' & S & -> & _).
  exact (nleft_step B (at_count w c) l k w1 N NC NF I OK S).
Qed.
Lemma mrefresh B w l k w' : refresh_step l -> mstep B w (l, k) = Some w' ->
  exists s', step (w_st w) l = Some s' /\ s_reader (w_st w') = s_reader s' /\ s_chan (w_st w') = s_chan s' /\ s_recs (w_st w') = s_recs s' /\
    w_views w' = w_views w /\ w_now w' = match l with RShift => w_now w + 1 | _ => w_now w end.
Proof. intros RS E. unfold mstep in E. cbn [fst] in E. rewrite (refresh_counts _ RS) in E. exact (nrefresh B w l k w' RS E). Qed.
Lemma mleft_refresh B w l k w' : refresh_step l -> in_refresh (w_st w) -> s_reader (w_st w') <> RPanicked -> mstep B w (l, k) = Some w' ->
  s_reader (w_st w') = RReady \/ (in_refresh (w_st w') /\ nleft B w' < nleft B w).
Proof. intros RS I NP E. unfold mstep in E. cbn [fst] in E. rewrite (refresh_counts _ RS) in E. exact (nleft_refresh B w l k w' RS I NP E). Qed.

(** ** Executions *)
(** *)
Section MLIVE.
Variables (B : Z) (h0 : hist) (tr0 : list (label * Z)) (w : nat -> wstate) (a : nat -> option (label * Z)).
Notation s := (states w).
Hypothesis R0 : mrun B h0 tr0 (w 0%nat).
Hypothesis U0 : merged_untouched (acts tr0).
Hypothesis MS : merge_safe h0.
Hypothesis C : mcontinues B h0 w a.
Hypothesis NL : no_leak (actions a).
Hypothesis RG : reader_goes_on s (actions a).
Hypothesis T0 : in_timed_refresh (s 0%nat).

Lemma mact_inv j l : actions a j = Some l -> exists n, a j = Some (l, n) /\ mstep B (w j) (l, n) = Some (w (Datatypes.S j)).
Proof.
  unfold actions. intros X. pose proof (C j) as CJ. destruct (a j) as [[l' n]|]; [|discriminate]. cbn in X. injection X as ->.
  exists n. split; [reflexivity|apply CJ].
Qed.
Lemma mpre_run j : mrun B h0 (tr0 ++ wpre a j) (w j).
Proof.
  induction j as [|j IH].
  - cbn. rewrite app_nil_r. exact R0.
  - pose proof (C j) as CJ. cbn [wpre]. destruct (a j) as [x|].
    + destruct CJ as [LO ST]. rewrite app_assoc. apply (mrun_app B h0 _ [x] (w j)); auto; [constructor; [exact LO|constructor]|cbn [mexec]; rewrite ST; reflexivity].
    + rewrite app_nil_r, CJ. exact IH.
Qed.
Lemma mpre_lock j : s_lock (s j) <> Poisoned.
Proof. pose proof (mpre_run j) as (W & _ & _ & E). apply (mnot_poisoned B h0 _ _ W E). Qed.
Lemma mpre_ok j : nviews B (w j) /\ lock_ok (s j).
Proof. pose proof (mpre_run j) as RN. pose proof RN as (W & _ & _ & E). split; [apply (mviews_run B h0 _ _ W E)|apply (llock_ok h0 (acts (tr0 ++ wpre a j))); apply (mrun_loose _ _ _ _ RN)]. Qed.
Definition mgoing (j : nat) : Prop := in_timed_refresh (s j) /\ merged_untouched (acts (tr0 ++ wpre a j)).
Definition mreturned : Prop := exists k, s_reader (s k) = RReady.
Lemma mnot_panicked j : merged_untouched (acts (tr0 ++ wpre a j)) -> s_reader (s j) <> RPanicked.
Proof. intros U. apply (C85_refresh_never_panics_proof B h0 _ _ (mpre_run j) U MS). Qed.
Lemma mgoing_step j : mgoing j -> s_reader (s (Datatypes.S j)) = RReady \/ mgoing (Datatypes.S j).
Proof.
  intros (T & U). pose proof (ntimed_in _ T) as I. pose proof (C j) as CJ. unfold mgoing. cbn [wpre] in *. destruct (a j) as [[l n]|] eqn:A.
  - destruct CJ as [LO ST]. rewrite app_assoc. pose proof (mcall _ _ _ _ _ I ST) as IC.
    assert (U' : merged_untouched (acts ((tr0 ++ wpre a j) ++ [(l, n)]))).
    { intros h IN. rewrite acts_app in IN. apply in_app_iff in IN. destruct IN as [IN|[IN|[]]]; [apply (U h IN)|]. cbn in IN. subst l. exact IC. }
    assert (NP : s_reader (s (Datatypes.S j)) <> RPanicked).
    { apply mnot_panicked. cbn [wpre]. rewrite A, app_assoc. exact U'. }
    destruct (refresh_dec l) as [D|D].
    + destruct (mleft_refresh _ _ _ _ _ D I NP ST) as [X|[X _]]; [left; exact X|]. right. split; [|exact U'].
      destruct (mrefresh _ _ _ _ _ D ST) as (s' & S & RD & _). unfold in_timed_refresh, in_refresh, states in *. rewrite RD in *. apply (timed_step _ l s' T X S).
    + pose proof (mreader_kept _ _ _ _ _ I D ST) as RK. right. unfold in_timed_refresh, states in *. rewrite RK. auto.
  - rewrite app_nil_r. unfold states in *. rewrite CJ. right. auto.
Qed.
Lemma mgoing_on d : forall j, mgoing j -> mreturned \/ mgoing (d + j).
Proof.
  induction d as [|d IH]; intros j G; [right; exact G|]. destruct (IH j G) as [X|X]; [left; exact X|].
  destruct (mgoing_step _ X) as [Y|Y]; [left; exists (Datatypes.S (d + j)%nat); exact Y|right; exact Y].
Qed.
Lemma muntil i r d : forall j, nth_error (s_recs (s j)) i = Some r ->
  (exists k' l, (j <= k' < d + j)%nat /\ actions a k' = Some l /\ moves i l /\ nth_error (s_recs (s k')) i = Some r) \/
  nth_error (s_recs (s (d + j))) i = Some r.
Proof.
  induction d as [|d IH]; intros j J; [right; exact J|].
  destruct (IH j J) as [(k' & l & X1 & X2)|X]; [left; exists k', l; split; [lia|exact X2]|].
  pose proof (C (d + j)%nat) as CJ. cbn [Nat.add]. destruct (a (d + j)%nat) as [[l n]|] eqn:A; [|right; unfold states; rewrite CJ; exact X].
  destruct CJ as [_ ST]. apply act_some in A.
  assert (D : moves i l \/ ~ moves i l) by (destruct l; cbn; try tauto; apply Nat.eq_decidable).
  destruct D as [M|M]; [left; exists (d + j)%nat, l; split; [lia|auto]|]. right. apply (mkept _ _ _ _ _ i r ST M); auto. intros ->. apply (NL _ _ A).
Qed.

(** stuck for good *)
Section STUCK.
Variable k : nat.
Hypothesis BL : forall j l, (k <= j)%nat -> refresh_step l -> step (s j) l = None.
Hypothesis GK : mgoing k.
Lemma mnot_ref j l : (k <= j)%nat -> actions a j = Some l -> ~ refresh_step l.
Proof.
  intros L A RS. destruct (mact_inv _ _ A) as (n & _ & ST). destruct (mrefresh _ _ _ _ _ RS ST) as (s' & S & _).
  pose proof (BL j l L RS) as BJ. unfold states in BJ. rewrite BJ in S. discriminate.
Qed.
Lemma mstuck_same j : (k <= j)%nat -> s_reader (s j) = s_reader (s k).
Proof.
  intros L. replace j with ((j - k) + k)%nat by lia. induction (j - k)%nat as [|d IH]; [reflexivity|]. cbn [Nat.add].
  pose proof (C (d + k)%nat) as CJ. destruct (a (d + k)%nat) as [[l n]|] eqn:A.
  - destruct CJ as [_ ST]. assert (IR : in_refresh (s (d + k)%nat)) by (unfold in_refresh; rewrite IH; apply ntimed_in; apply GK).
    pose proof (mreader_kept _ _ _ _ _ IR (mnot_ref _ _ (Nat.le_add_l k d) (act_some _ _ _ _ A)) ST) as X. unfold states in *. rewrite X. exact IH.
  - unfold states in *. rewrite CJ. exact IH.
Qed.
Lemma mstuck_lock : sections_go_on s (actions a) -> (exists t, s_reader (s k) = RCount t) -> False.
Proof.
  intros GO (t & RC).
  assert (HE : forall j, (k <= j)%nat -> exists i r, s_lock (s j) = Held i /\ nth_error (s_recs (s j)) i = Some r /\ in_section r = true).
  { intros j L. pose proof (BL j RRead L Logic.I) as BJ. pose proof (mstuck_same j L) as X. cbn in BJ. rewrite X, RC in BJ.
    pose proof (mpre_lock j) as NP. destruct (proj2 (mpre_ok j)) as [_ LB]. destruct (s_lock (s j)) as [|i|] eqn:LK; [discriminate| |contradiction].
    destruct (LB i eq_refl) as (r & R1 & R2). exists i, r. auto. }
  assert (MV : forall j i r, (k <= j)%nat -> s_lock (s j) = Held i -> nth_error (s_recs (s j)) i = Some r -> in_section r = true ->
     exists k' l, (j <= k')%nat /\ actions a k' = Some l /\ moves i l /\ nth_error (s_recs (s k')) i = Some r /\ s_lock (s k') = Held i).
  { intros j i r L LK J IS. destruct (GO i j r J IS) as (k' & l & LE & A & M).
    assert (H : forall k1, (k <= k1)%nat -> nth_error (s_recs (s k1)) i = Some r -> s_lock (s k1) = Held i).
    { intros k1 L1 J1. apply (proj2 (mpre_ok k1)) with (r := r); auto. }
    destruct (muntil i r (k' - j) j J) as [(k1 & l1 & X1 & X2 & X3 & X4)|X].
    - exists k1, l1. split; [lia|]. repeat split; auto. apply H; auto. lia.
    - replace (k' - j + j)%nat with k' in X by lia. exists k', l. repeat split; auto. apply H; auto. lia. }
  assert (FR : forall j, (k <= j)%nat -> s_lock (s j) <> Free) by (intros j L X; destruct (HE j L) as (i & r & Y & _); congruence).
  destruct (HE k (Nat.le_refl k)) as (i & r & LK & J & IS).
  destruct (MV k i r (Nat.le_refl k) LK J IS) as (k1 & l1 & L1 & A1 & M1 & J1 & LK1).
  destruct (mact_inv _ _ A1) as (n1 & _ & ST1).
  destruct (mrelease _ _ _ _ _ i r (proj2 (mpre_ok k1)) ST1 LK1 M1 J1) as [X|(_ & LK2 & r2 & q & J2 & P2)]; [apply (FR (Datatypes.S k1)); auto; lia|].
  destruct (MV (Datatypes.S k1) i r2 ltac:(lia) LK2 J2 ltac:(unfold in_section; rewrite P2; reflexivity)) as (k3 & l3 & L3 & A3 & M3 & J3 & LK3).
  destruct (mact_inv _ _ A3) as (n3 & _ & ST3).
  destruct (mrelease _ _ _ _ _ i r2 (proj2 (mpre_ok k3)) ST3 LK3 M3 J3) as [X|(X & _)]; [apply (FR (Datatypes.S k3)); auto; lia|congruence].
Qed.
End STUCK.

Hypothesis CE : clones_end (actions a).
Hypothesis GO : sections_go_on s (actions a).
Lemma mmoves_on k : mgoing k -> (forall j l, (k <= j)%nat -> refresh_step l -> step (s j) l = None) -> False.
Proof.
  intros G BL. pose proof G as (TM & _).
  pose proof (BL k) as BK. unfold in_timed_refresh in TM. destruct (s_reader (s k)) as [|t|t|t n|t n k0| | |] eqn:RD; try contradiction.
  - apply (drain_moves s k); eauto.
  - apply (mstuck_lock k); eauto.
  - specialize (BK RShift (Nat.le_refl k) Logic.I). cbn in BK. rewrite RD in BK. discriminate.
  - subst t. destruct (Z.ltb_spec k0 n) as [KN|KN].
    + specialize (BK RTimeout (Nat.le_refl k) Logic.I). cbn in BK. rewrite RD in BK.
      replace (k0 <? n) with true in BK by (symmetry; apply Z.ltb_lt; lia). discriminate.
    + specialize (BK RDone (Nat.le_refl k) Logic.I). cbn in BK. rewrite RD in BK.
      replace (k0 <? n) with false in BK by (symmetry; apply Z.ltb_ge; lia). discriminate.
  - apply (drain_moves s k); eauto.
Qed.
Lemma mleft_on K : (forall k i, (K <= k)%nat -> actions a k <> Some (LClone i)) ->
  forall d j, (K <= j)%nat -> mgoing j -> mreturned \/ (mgoing (d + j) /\ nleft B (w (d + j)) <= nleft B (w j)).
Proof.
  intros HK d j L G. induction d as [|d IH]; [right; split; [exact G|apply Z.le_refl]|].
  destruct IH as [X|[X Y]]; [left; exact X|]. destruct (mgoing_step _ X) as [Z|Z]; [left; exists (Datatypes.S (d + j)%nat); exact Z|].
  right. split; [exact Z|]. etransitivity; [|exact Y]. cbn [Nat.add]. pose proof (C (d + j)%nat) as CJ. pose proof (ntimed_in _ (proj1 X)) as IX.
  destruct (a (d + j)%nat) as [[l n]|] eqn:A; [|rewrite CJ; lia]. destruct CJ as [_ ST]. apply act_some in A.
  destruct (refresh_dec l) as [D|D].
  - assert (NP : s_reader (s (Datatypes.S (d + j))) <> RPanicked) by (apply mnot_panicked; apply Z).
    destruct (mleft_refresh _ _ _ _ _ D IX NP ST) as [W|[_ W]]; [|lia]. destruct Z as (Z & _). unfold in_timed_refresh, states in Z. rewrite W in Z. contradiction.
  - apply (mleft_step _ _ l n); auto; [|intros i ->; apply (NL _ _ A)|apply mpre_ok]. intros i ->. apply (HK (d + j)%nat i); [lia|exact A].
Qed.
Lemma mreturns K : (forall k i, (K <= k)%nat -> actions a k <> Some (LClone i)) ->
  forall m j, (K <= j)%nat -> mgoing j -> nleft B (w j) < Z.of_nat m -> mreturned.
Proof.
  intros HK. induction m as [|m IH]; intros j L G M; [pose proof (nleft_nonneg B (w j) (proj1 (mpre_ok j))); lia|].
  destruct (RG j) as (k' & LK & HR). replace k' with ((k' - j) + j)%nat in HR by lia.
  destruct (mleft_on K HK (k' - j) j L G) as [X|[G' LE]]; [exact X|]. set (q := (k' - j + j)%nat) in *.
  destruct HR as [(l & A & RS)|ST]; [|exfalso; apply (mmoves_on q G' ST)].
  destruct (mgoing_step _ G') as [X|X]; [exists (Datatypes.S q); exact X|].
  destruct (mact_inv _ _ A) as (n & _ & ST).
  assert (NP : s_reader (s (Datatypes.S q)) <> RPanicked) by (apply mnot_panicked; apply X).
  destruct (mleft_refresh _ _ _ _ _ RS (ntimed_in _ (proj1 G')) NP ST) as [W|[_ W]]; [exists (Datatypes.S q); exact W|].
  apply (IH (Datatypes.S q)); auto; lia.
Qed.
Lemma malways_returns : mreturned.
Proof.
  destruct CE as (K & HK).
  assert (G : mgoing 0) by (split; [exact T0|cbn [wpre]; rewrite app_nil_r; exact U0]).
  destruct (mgoing_on K 0%nat G) as [X|X]; [exact X|].
  apply (mreturns K HK (Z.to_nat (nleft B (w (K + 0)%nat) + 1)) (K + 0)%nat); auto; [lia|]. pose proof (nleft_nonneg B (w (K + 0)%nat) (proj1 (mpre_ok _))). lia.
Qed.
End MLIVE.

(** *)
Lemma msections_of B h0 w a : mcontinues B h0 w a -> no_leak (actions a) -> recorders_go_on (states w) (actions a) -> sections_go_on (states w) (actions a).
Proof.
  intros C NL GO i k r J IS. destruct (GO i k) as (k' & LK & H).
  destruct (muntil B h0 w a C NL i r (k' - k) k J) as [(k1 & l & X1 & X2 & X3 & _)|X].
  - exists k1, l. split; [lia|auto].
  - replace (k' - k + k)%nat with k' in X by lia. destruct H as [(l & A & M)|H]; [exists k', l; auto|].
    unfold in_section in IS. destruct (H r X) as [Y|Y]; rewrite Y in IS; discriminate.
Qed.
Lemma msettle_prefix B w tr w2 k : mexec B w tr = Some w2 -> mexec B w (firstn k tr) = Some (msettle B w tr k).
Proof.
  intros E. unfold msettle. rewrite <- (firstn_skipn k tr), mexec_app in E. destruct (mexec B w (firstn k tr)); [reflexivity|discriminate].
Qed.
Lemma msettle_end B w tr w2 k : mexec B w tr = Some w2 -> (length tr <= k)%nat -> msettle B w tr k = w2.
Proof. intros E L. unfold msettle. rewrite firstn_all2 by exact L. rewrite E. reflexivity. Qed.
Lemma msettle_continues B h0 w tr w2 : mexec B w tr = Some w2 -> Forall (label_ok (h_ctr h0)) (acts tr) -> mcontinues B h0 (msettle B w tr) (nth_error tr).
Proof.
  intros E F k. destruct (nth_error tr k) as [l|] eqn:N.
  - split; [apply (nth_Forall _ (acts tr) k (fst l) F); unfold acts; rewrite nth_error_map, N; reflexivity|].
    pose proof (msettle_prefix _ _ _ _ (Datatypes.S k) E) as X. rewrite (firstn_snoc _ _ _ N) in X.
    apply mexec_snoc in X. destruct X as (s1 & X1 & X2). rewrite (msettle_prefix _ _ _ _ k E) in X1. injection X1 as <-. exact X2.
  - apply nth_error_None in N. rewrite !(msettle_end _ _ _ _ _ E) by lia. reflexivity.
Qed.
Lemma msettle_fair B w tr w2 : mexec B w tr = Some w2 -> s_reader (w_st w2) = RReady -> all_quiet (w_st w2) ->
  recorders_go_on (states (msettle B w tr)) (actions (nth_error tr)) /\ reader_goes_on (states (msettle B w tr)) (actions (nth_error tr)) /\
  clones_end (actions (nth_error tr)).
Proof.
  intros E R Q. unfold states, actions. split; [|split].
  - intros i k. exists (k + length tr)%nat. split; [lia|]. right. intros r J. rewrite (msettle_end _ _ _ _ _ E) in J by lia.
    apply or_comm, Q. eapply nth_error_In; eauto.
  - intros k. exists (k + length tr)%nat. split; [lia|]. right. intros j l L RS. rewrite (msettle_end _ _ _ _ _ E) by lia.
    destruct l; cbn in *; try contradiction; rewrite R; reflexivity.
  - exists (length tr). intros k i L X. assert (N : nth_error tr k = None) by (apply nth_error_None; exact L). rewrite N in X. discriminate.
Qed.
Lemma mreader_as B w a : wreader_goes_on (mstep B) w a <-> reader_goes_on (states w) (actions a).
Proof.
  rewrite <- (nreader_as B). unfold wreader_goes_on. assert (X : forall x l n, refresh_step l -> mstep B x (l, n) = nstep B x (l, n)).
  { intros x l n RS. unfold mstep. cbn [fst]. rewrite (refresh_counts _ RS). reflexivity. }
  split; intros H k; destruct (H k) as (k' & L & Y); exists k'; (split; [exact L|]); (destruct Y as [Y|Y]; [left; exact Y|right]); intros j l n LJ RS; specialize (Y j l n LJ RS);
    rewrite X in * by exact RS; exact Y.
Qed.

(** [refresh_timeout] returns in such a build too, forgotten guards before it or not, whatever the number of
    recorders and the phase have come to, and however outdated the phases are that recorders load.  Needed are: no
    guard is forgotten while it runs, clones end, who is in a critical section of the recorders' mutex goes on,
    and so does the reader, whose timer runs out some time. *)
Lemma C85_timeout_returns_proof : forall B h0 tr0 w a,
  mrun B h0 tr0 (w 0%nat) -> merged_untouched (acts tr0) -> merge_safe h0 ->
  mcontinues B h0 w a -> no_leak (actions a) -> clones_end (actions a) ->
  sections_go_on (states w) (actions a) -> wreader_goes_on (mstep B) w a ->
  in_timed_refresh (w_st (w 0%nat)) -> exists k, s_reader (w_st (w k)) = RReady.
Proof. intros B h0 tr0 w a R0 U0 MS C NL CE GO RG T. apply mreader_as in RG. exact (malways_returns B h0 tr0 w a R0 U0 MS C NL RG T CE GO). Qed.
(*EX
(** A guard has been forgotten, its recorder has been dropped and the other one is idle, so the number of recorders
    is 2^32 - 1, and a [refresh_timeout] waits for as many histograms; meanwhile the other recorder wakes up and
    sends one.  The timer runs out, and it returns. *)
Example ex_C85_timeout_returns : exists h0 tr0 w a, mrun 32 h0 tr0 (w 0%nat) /\ merged_untouched (acts tr0) /\ merge_safe h0 /\
  mcontinues 32 h0 w a /\ no_leak (actions a) /\ clones_end (actions a) /\ sections_go_on (states w) (actions a) /\ wreader_goes_on (mstep 32) w a /\
  forgotten (acts tr0) = 1 /\ s_reader (w_st (w 0%nat)) = RWait true (2 ^ 32 - 1) 0 /\
  s_reader (w_st (w 6%nat)) = RWait true (2 ^ 32 - 1) 1 /\ s_chan (w_st (w 6%nat)) = [] /\ s_reader (w_st (w 8%nat)) = RReady.
Proof.
  set (tr0 := [(RRecorder, 0); (RRecorder, 0); (LWrite 0 (ORecord 7 1), 0); (LLoad 0, 0); (LFinish 0, 0); (LIdle 0, 0); (LIdleLoad 0, 0); (LIdleEnd 0, 0);
                 (LForget 0, 0); (LDrop 0, 0); (LDropEnd 0, 0); (LIdle 1, 0); (LIdleLoad 1, 0); (LIdleEnd 1, 0); (RStart true, 0); (RRecv, 0); (REmpty, 0); (RRead, 0); (RShift, 0)]).
  set (tr := [(LWake 1, 0); (LWakeEnd 1, 0); (LWrite 1 (ORecord 9 4), 0); (LLoad 1, 1); (LFinish 1, 0); (RRecv, 0); (RTimeout, 0); (REmpty, 0); (LDrop 1, 0); (LDropEnd 1, 0)]).
  assert (X : match build U64 1 1000 2 true [] with
              | Some h => match mexec 32 (winit h) tr0 with
                          | Some w => match mexec 32 w tr with
                              | Some w2 => s_reader (w_st w2) = RReady /\ map r_pc (s_recs (w_st w2)) = [PGone; PGone] /\
                                  is_auto_resize h = true /\ h_ctr h = U64 /\
                                  s_reader (w_st (msettle 32 w tr 0)) = RWait true (2 ^ 32 - 1) 0 /\
                                  s_reader (w_st (msettle 32 w tr 6)) = RWait true (2 ^ 32 - 1) 1 /\ s_chan (w_st (msettle 32 w tr 6)) = [] /\ s_reader (w_st (msettle 32 w tr 8)) = RReady
                              | None => False end
                          | None => False end
              | None => False end) by (vm_compute; auto 20).
  destruct (build _ _ _ _ _ _) as [h|] eqn:B; [|contradiction]. destruct (mexec 32 (winit h) tr0) as [w|] eqn:E0; [|contradiction].
  destruct (mexec 32 w tr) as [w2|] eqn:E1; [|contradiction]. destruct X as (X1 & X2 & X4 & CT & X6 & X7 & X8 & X9).
  assert (Q : all_quiet (w_st w2)).
  { intros r I. left. apply (in_map r_pc) in I. rewrite X2 in I. cbn in I. destruct I as [I|[I|[]]]; auto. }
  destruct (msettle_fair 32 w tr w2 E1 X1 Q) as (F1 & F2 & F3). apply (mreader_as 32) in F2.
  exists h, tr0, (msettle 32 w tr), (nth_error tr).
  split; [split; [lia|split; [exact (build_reachable _ _ _ _ _ _ _ B)|split; [unfold tr0; cbn [acts map fst]; rewrite CT; repeat constructor; vm_compute; discriminate|exact E0]]]|].
  split; [intros y I; cbn in I; intuition discriminate|].
  split; [left; exact X4|].
  assert (RC : mcontinues 32 h (msettle 32 w tr) (nth_error tr)) by (apply (msettle_continues 32 h w tr w2 E1); rewrite CT; repeat constructor; vm_compute; discriminate).
  assert (NL : no_leak (actions (nth_error tr))).
  { intros k i N; unfold actions in N; destruct (nth_error tr k) as [x|] eqn:NK; [|discriminate]; apply nth_error_In in NK; cbn in NK, N; intuition (subst; discriminate). }
  split; [exact RC|]. split; [exact NL|]. split; [exact F3|]. split; [apply (msections_of 32 h); auto|].
  auto 15.
Qed.
EX*)

(** While no guard is forgotten and fewer than 2^B - 1 recorders have been made, the unbounded executions are those
    of a checked build for the same target as well, so that what C84 says of those holds: every sample is delivered in
    the end under the conditions there. *)
Lemma C85_same_ever_proof : forall B h0 tr0 w a, guards_dropped (acts tr0) -> no_leak (actions a) ->
  (forall k, Z.of_nat (length (s_recs (w_st (w k)))) < 2 ^ B - 1) ->
  (mrun B h0 tr0 (w 0%nat) /\ mcontinues B h0 w a <-> nrun B h0 tr0 (w 0%nat) /\ ncontinues B h0 w a).
Proof.
  intros B h0 tr0 w a G0 NL FEW.
  assert (DR : forall j, guards_dropped (acts (tr0 ++ wpre a j))) by (intros j; apply (wpre_dropped tr0 a G0 NL j)).
  assert (ONE : forall j x, a j = Some x -> tr0 ++ wpre a (Datatypes.S j) = (tr0 ++ wpre a j) ++ [x]).
  { intros j x A. cbn [wpre]. rewrite A. apply app_assoc. }
  split; intros [R C]; (split; [apply (C85_same_proof B h0 tr0 (w 0%nat) G0 (FEW 0%nat)); exact R|]); intros j; pose proof (C j) as CJ; destruct (a j) as [x|] eqn:A; auto;
    destruct CJ as [LO _]; (split; [exact LO|]).
  - pose proof (proj1 (C85_same_proof B h0 _ _ (DR j) (FEW j)) (mpre_run B h0 tr0 w a R C j)) as (_ & _ & _ & W1).
    pose proof (proj1 (C85_same_proof B h0 _ _ (DR (Datatypes.S j)) (FEW (Datatypes.S j))) (mpre_run B h0 tr0 w a R C (Datatypes.S j))) as (_ & _ & _ & W2).
    rewrite (ONE j x A) in W2. apply nexec_snoc in W2. destruct W2 as (w1 & W3 & W4). congruence.
  - pose proof (proj2 (C85_same_proof B h0 _ _ (DR j) (FEW j)) (npre_run B h0 tr0 w a R C j)) as (_ & _ & _ & W1).
    pose proof (proj2 (C85_same_proof B h0 _ _ (DR (Datatypes.S j)) (FEW (Datatypes.S j))) (npre_run B h0 tr0 w a R C (Datatypes.S j))) as (_ & _ & _ & W2).
    rewrite (ONE j x A) in W2. apply mexec_snoc in W2. destruct W2 as (w1 & W3 & W4). congruence.
Qed.
(*EX
(** the hypotheses and one of the sides can be met: a refresh that waits for the one recorder *)
Example ex_C85_same_ever : exists h0 tr0 w a, guards_dropped (acts tr0) /\ no_leak (actions a) /\
  (forall k, Z.of_nat (length (s_recs (w_st (w k)))) < 2 ^ 32 - 1) /\ mrun 32 h0 tr0 (w 0%nat) /\ mcontinues 32 h0 w a /\
  s_reader (w_st (w 0%nat)) = RWait false 1 0 /\ s_reader (w_st (w 6%nat)) = RReady /\ nrun 32 h0 tr0 (w 0%nat) /\ ncontinues 32 h0 w a.
Proof.
  set (tr0 := [(RRecorder, 0); (RStart false, 0); (REmpty, 0); (RRead, 0); (RShift, 0)]).
  set (tr := [(LWrite 0 (ORecord 8 1), 0); (LLoad 0, 1); (LFinish 0, 0); (RRecv, 0); (RDone, 0); (REmpty, 0); (LDrop 0, 0); (LDropEnd 0, 0)]).
  assert (X : match build U64 1 1000 2 true [] with
              | Some h => match mexec 32 (winit h) tr0 with
                          | Some w => match mexec 32 w tr with
                              | Some w2 => h_ctr h = U64 /\ length (s_recs (w_st w2)) = 1%nat /\
                                  forallb (fun k => (length (s_recs (w_st (msettle 32 w tr k))) =? 1)%nat) (seq 0 (Datatypes.S (length tr))) = true /\
                                  s_reader (w_st (msettle 32 w tr 0)) = RWait false 1 0 /\ s_reader (w_st (msettle 32 w tr 6)) = RReady
                              | None => False end
                          | None => False end
              | None => False end) by (vm_compute; auto 20).
  destruct (build _ _ _ _ _ _) as [h|] eqn:B; [|contradiction]. destruct (mexec 32 (winit h) tr0) as [w|] eqn:E0; [|contradiction].
  destruct (mexec 32 w tr) as [w2|] eqn:E1; [|contradiction]. destruct X as (CT & X2 & X3 & X4 & X5).
  assert (G : guards_dropped (acts tr0)) by (intros y I; cbn in I; intuition discriminate).
  assert (NL : no_leak (actions (nth_error tr))).
  { intros k i N; unfold actions in N; destruct (nth_error tr k) as [x|] eqn:NK; [|discriminate]; apply nth_error_In in NK; cbn in NK, N; intuition (subst; discriminate). }
  assert (FEW : forall k, Z.of_nat (length (s_recs (w_st (msettle 32 w tr k)))) < 2 ^ 32 - 1).
  { intros k. assert (L : length (s_recs (w_st (msettle 32 w tr k))) = 1%nat); [|rewrite L; reflexivity].
    destruct (Nat.le_gt_cases k (length tr)) as [L|L].
    - rewrite forallb_forall in X3. apply Nat.eqb_eq, X3, in_seq. lia.
    - rewrite (msettle_end _ _ _ _ _ E1) by lia. exact X2. }
  assert (R : mrun 32 h tr0 (msettle 32 w tr 0)) by (split; [lia|split; [exact (build_reachable _ _ _ _ _ _ _ B)|split; [repeat constructor|exact E0]]]).
  assert (RC : mcontinues 32 h (msettle 32 w tr) (nth_error tr)) by (apply (msettle_continues 32 h w tr w2 E1); rewrite CT; repeat constructor; vm_compute; discriminate).
  exists h, tr0, (msettle 32 w tr), (nth_error tr). pose proof (proj1 (C85_same_ever 32 _ _ _ _ G NL FEW) (conj R RC)) as [W WC]. auto 15.
Qed.
EX*)
