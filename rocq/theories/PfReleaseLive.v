(** * C83: whoever goes on gets on, in builds without overflow checks *)
From Verif Require Import Machine Log2Model HistModel Bins ListZ Wf Spec Reach Witness SyncModel SyncSpec SyncOps SyncFacts SyncRefresh PfSync LiveSpec LiveFacts PfLive
  WeakModel WeakSpec WeakFacts PfWeak WeakLiveSpec PfWeakLive ReleaseSyncModel ReleaseSyncSpec ReleaseSyncFacts PfReleaseSync ReleaseLiveSpec.
(*PROPS-IMPORTS Machine Log2Model HistModel Spec Reach Witness Cases SyncModel SyncSpec LiveSpec WeakModel WeakSpec WeakLiveSpec ReleaseSyncModel ReleaseSyncSpec ReleaseLiveSpec *)

(** ** One step *)
(** *)
Lemma rother w l k : counts l = 0 -> rstep w (l, k) = wstep w (l, k).
Proof. intros C. unfold rstep. cbn [fst]. rewrite C. reflexivity. Qed.
Lemma refresh_counts l : refresh_step l -> counts l = 0.
Proof. destruct l; cbn; tauto. Qed.
Lemma rreader_kept w l k w' : in_refresh (w_st w) -> ~ refresh_step l -> rstep w (l, k) = Some w' ->
  s_reader (w_st w') = s_reader (w_st w) /\ w_now w' = w_now w.
Proof.
  intros I N E. destruct (rstep_inv _ _ _ _ E) as (c & w1 & c' & S & -> & _).
  exact (wreader_kept (at_count w c) l k w1 I N S).
Qed.
Lemma rkept w l k w' i r : rstep w (l, k) = Some w' -> ~ moves i l -> l <> LForget i ->
  nth_error (s_recs (w_st w)) i = Some r -> nth_error (s_recs (w_st w')) i = Some r.
Proof.
  intros E M F J. destruct (rstep_inv _ _ _ _ E) as (c & w1 & c' & S & -> & _).
  exact (wkept (at_count w c) l k w1 i r S M F J).
Qed.
Lemma rrelease w l k w' i r : lock_ok (w_st w) -> rstep w (l, k) = Some w' -> s_lock (w_st w) = Held i -> moves i l -> nth_error (s_recs (w_st w)) i = Some r ->
  s_lock (w_st w') = Free \/ (r_pc r = PIdling /\ s_lock (w_st w') = Held i /\ exists r' q, nth_error (s_recs (w_st w')) i = Some r' /\ r_pc r' = PIdlingLoaded q).
Proof.
  intros LK E L M J. destruct (rstep_inv _ _ _ _ E) as (c & w1 & c' & S & -> & _).
  exact (wrelease (at_count w c) l k w1 i r LK S L M J).
Qed.
Lemma rcall w l k w' : in_refresh (w_st w) -> rstep w (l, k) = Some w' -> in_call l.
Proof.
  intros I E. destruct (rstep_inv _ _ _ _ E) as (c & w1 & c' & S & _ & _).
  destruct (load_of l) as [i|] eqn:L; [destruct l; try discriminate L; exact Logic.I|].
  exact (call_step (w_st (at_count w c)) _ _ I (wstep_other _ _ _ _ L S)).
Qed.
Lemma rleft_step w l k w' : ~ refresh_step l -> (forall i, l <> LClone i) -> (forall i, l <> LForget i) -> in_refresh (w_st w) ->
  wok w -> rstep w (l, k) = Some w' -> wleft w' <= wleft w.
Proof.
  intros N NC NF I OK E. destruct (rstep_inv _ _ _ _ E) as (c & w1 & c' & S & -> & _).
  exact (wleft_step (at_count w c) l k w1 N NC NF I (wok_count _ c OK) S).
Qed.
Lemma rleft_refresh w l k w' : refresh_step l -> in_refresh (w_st w) -> s_reader (w_st w') <> RPanicked -> rstep w (l, k) = Some w' ->
  s_reader (w_st w') = RReady \/ (in_refresh (w_st w') /\ wleft w' < wleft w).
Proof. intros RS I NP E. rewrite rother in E by (apply refresh_counts; exact RS). exact (wleft_refresh _ _ _ _ RS I NP E). Qed.

(** ** Executions *)
Section RLIVE.
Variables (h0 : hist) (tr0 : list (label * Z)) (w : nat -> wstate) (a : nat -> option (label * Z)).
Notation s := (states w).
Hypothesis R0 : rrun h0 tr0 (w 0%nat).
Hypothesis U0 : merged_untouched (acts tr0).
Hypothesis MS : merge_safe h0.
Hypothesis C : rcontinues h0 w a.
Hypothesis NL : no_leak (actions a).
Hypothesis RG : reader_goes_on s (actions a).
Hypothesis T0 : in_timed_refresh (s 0%nat).

Lemma ract_inv j l : actions a j = Some l -> exists n, a j = Some (l, n) /\ rstep (w j) (l, n) = Some (w (Datatypes.S j)).
Proof.
  unfold actions. intros X. pose proof (C j) as CJ. destruct (a j) as [[l' n]|]; [|discriminate]. cbn in X. injection X as ->.
  exists n. split; [reflexivity|apply CJ].
Qed.
Lemma rpre_run j : rrun h0 (tr0 ++ wpre a j) (w j).
Proof.
  induction j as [|j IH].
  - cbn. rewrite app_nil_r. exact R0.
  - pose proof (C j) as CJ. cbn [wpre]. destruct (a j) as [x|].
    + destruct CJ as [LO ST]. rewrite app_assoc. apply (rrun_app h0 _ [x] (w j)); auto; [constructor; [exact LO|constructor]|cbn; rewrite ST; reflexivity].
    + rewrite app_nil_r, CJ. exact IH.
Qed.
Lemma rpre_lock j : s_lock (s j) <> Poisoned.
Proof. destruct (rpre_run j) as (_ & _ & E). apply (rnot_poisoned _ _ _ E). Qed.
Lemma rpre_ok j : wok (w j) /\ lock_ok (s j).
Proof. destruct (rpre_run j) as (_ & _ & E). split; [apply (rok h0 _ _ E)|apply (rlock_ok h0 _ _ E)]. Qed.
Definition rgoing (j : nat) : Prop := in_timed_refresh (s j) /\ merged_untouched (acts (tr0 ++ wpre a j)).
Definition rreturned : Prop := exists k, s_reader (s k) = RReady.
Lemma timed_in st : in_timed_refresh st -> in_refresh st.
Proof. unfold in_timed_refresh, in_refresh. destruct (s_reader st); auto. Qed.
Lemma rnot_panicked j : merged_untouched (acts (tr0 ++ wpre a j)) -> s_reader (s j) <> RPanicked.
Proof. intros U. apply (C83_refresh_never_panics_proof h0 _ _ (rpre_run j) U MS). Qed.
Lemma rgoing_step j : rgoing j -> s_reader (s (Datatypes.S j)) = RReady \/ rgoing (Datatypes.S j).
Proof.
  intros (T & U). pose proof (timed_in _ T) as I. pose proof (C j) as CJ. unfold rgoing. cbn [wpre] in *. destruct (a j) as [[l n]|] eqn:A.
  - destruct CJ as [LO ST]. rewrite app_assoc. pose proof (rcall _ _ _ _ I ST) as IC.
    assert (U' : merged_untouched (acts ((tr0 ++ wpre a j) ++ [(l, n)]))).
    { intros h IN. rewrite acts_app in IN. apply in_app_iff in IN. destruct IN as [IN|[IN|[]]]; [apply (U h IN)|]. cbn in IN. subst l. exact IC. }
    assert (NP : s_reader (s (Datatypes.S j)) <> RPanicked).
    { apply rnot_panicked. cbn [wpre]. rewrite A, app_assoc. exact U'. }
    destruct (refresh_dec l) as [D|D].
    + destruct (rleft_refresh _ _ _ _ D I NP ST) as [X|[X _]]; [left; exact X|]. right. split; [|exact U'].
      rewrite rother in ST by (apply refresh_counts; exact D). pose proof (wstep_other _ _ _ _ (refresh_load _ D) ST) as S.
      apply (timed_step _ l _ T X S).
    + destruct (rreader_kept _ _ _ _ I D ST) as [RK _]. right. unfold in_timed_refresh, states in *. rewrite RK. auto.
  - rewrite app_nil_r. unfold states in *. rewrite CJ. right. auto.
Qed.
Lemma rgoing_on d : forall j, rgoing j -> rreturned \/ rgoing (d + j).
Proof.
  induction d as [|d IH]; intros j G; [right; exact G|]. destruct (IH j G) as [X|X]; [left; exact X|].
  destruct (rgoing_step _ X) as [Y|Y]; [left; exists (Datatypes.S (d + j)%nat); exact Y|right; exact Y].
Qed.
Lemma runtil i r d : forall j, nth_error (s_recs (s j)) i = Some r ->
  (exists k' l, (j <= k' < d + j)%nat /\ actions a k' = Some l /\ moves i l /\ nth_error (s_recs (s k')) i = Some r) \/
  nth_error (s_recs (s (d + j))) i = Some r.
Proof.
  induction d as [|d IH]; intros j J; [right; exact J|].
  destruct (IH j J) as [(k' & l & X1 & X2)|X]; [left; exists k', l; split; [lia|exact X2]|].
  pose proof (C (d + j)%nat) as CJ. cbn [Nat.add]. destruct (a (d + j)%nat) as [[l n]|] eqn:A; [|right; unfold states; rewrite CJ; exact X].
  destruct CJ as [_ ST]. apply act_some in A.
  assert (D : moves i l \/ ~ moves i l) by (destruct l; cbn; try tauto; apply Nat.eq_decidable).
  destruct D as [M|M]; [left; exists (d + j)%nat, l; split; [lia|auto]|]. right. apply (rkept _ _ _ _ i r ST M); auto. intros ->. apply (NL _ _ A).
Qed.

(** stuck for good *)
Section STUCK.
Variable k : nat.
Hypothesis B : forall j l, (k <= j)%nat -> refresh_step l -> step (s j) l = None.
Hypothesis GK : rgoing k.
Lemma rnot_ref j l : (k <= j)%nat -> actions a j = Some l -> ~ refresh_step l.
Proof.
  intros L A RS. destruct (ract_inv _ _ A) as (n & _ & ST). rewrite rother in ST by (apply refresh_counts; exact RS).
  pose proof (wstep_other _ _ _ _ (refresh_load _ RS) ST) as S.
  pose proof (B j l L RS) as BJ. unfold states in BJ. rewrite BJ in S. discriminate.
Qed.
Lemma rstuck_same j : (k <= j)%nat -> s_reader (s j) = s_reader (s k).
Proof.
  intros L. replace j with ((j - k) + k)%nat by lia. induction (j - k)%nat as [|d IH]; [reflexivity|]. cbn [Nat.add].
  pose proof (C (d + k)%nat) as CJ. destruct (a (d + k)%nat) as [[l n]|] eqn:A.
  - destruct CJ as [_ ST]. assert (IR : in_refresh (s (d + k)%nat)) by (unfold in_refresh; rewrite IH; apply timed_in; apply GK).
    destruct (rreader_kept _ _ _ _ IR (rnot_ref _ _ (Nat.le_add_l k d) (act_some _ _ _ _ A)) ST) as [X _]. unfold states in *. rewrite X. exact IH.
  - unfold states in *. rewrite CJ. exact IH.
Qed.
Lemma rstuck_lock : sections_go_on s (actions a) -> (exists t, s_reader (s k) = RCount t) -> False.
Proof.
  intros GO (t & RC).
  assert (HE : forall j, (k <= j)%nat -> exists i r, s_lock (s j) = Held i /\ nth_error (s_recs (s j)) i = Some r /\ in_section r = true).
  { intros j L. pose proof (B j RRead L Logic.I) as BJ. pose proof (rstuck_same j L) as X. cbn in BJ. rewrite X, RC in BJ.
    pose proof (rpre_lock j) as NP. destruct (proj2 (rpre_ok j)) as [_ LB]. destruct (s_lock (s j)) as [|i|] eqn:LK; [discriminate| |contradiction].
    destruct (LB i eq_refl) as (r & R1 & R2). exists i, r. auto. }
  assert (MV : forall j i r, (k <= j)%nat -> s_lock (s j) = Held i -> nth_error (s_recs (s j)) i = Some r -> in_section r = true ->
     exists k' l, (j <= k')%nat /\ actions a k' = Some l /\ moves i l /\ nth_error (s_recs (s k')) i = Some r /\ s_lock (s k') = Held i).
  { intros j i r L LK J IS. destruct (GO i j r J IS) as (k' & l & LE & A & M).
    assert (H : forall k1, (k <= k1)%nat -> nth_error (s_recs (s k1)) i = Some r -> s_lock (s k1) = Held i).
    { intros k1 L1 J1. apply (proj2 (rpre_ok k1)) with (r := r); auto. }
    destruct (runtil i r (k' - j) j J) as [(k1 & l1 & X1 & X2 & X3 & X4)|X].
    - exists k1, l1. split; [lia|]. repeat split; auto. apply H; auto. lia.
    - replace (k' - j + j)%nat with k' in X by lia. exists k', l. repeat split; auto. apply H; auto. lia. }
  assert (FR : forall j, (k <= j)%nat -> s_lock (s j) <> Free) by (intros j L X; destruct (HE j L) as (i & r & Y & _); congruence).
  destruct (HE k (Nat.le_refl k)) as (i & r & LK & J & IS).
  destruct (MV k i r (Nat.le_refl k) LK J IS) as (k1 & l1 & L1 & A1 & M1 & J1 & LK1).
  destruct (ract_inv _ _ A1) as (n1 & _ & ST1).
  destruct (rrelease _ _ _ _ i r (proj2 (rpre_ok k1)) ST1 LK1 M1 J1) as [X|(_ & LK2 & r2 & q & J2 & P2)]; [apply (FR (Datatypes.S k1)); auto; lia|].
  destruct (MV (Datatypes.S k1) i r2 ltac:(lia) LK2 J2 ltac:(unfold in_section; rewrite P2; reflexivity)) as (k3 & l3 & L3 & A3 & M3 & J3 & LK3).
  destruct (ract_inv _ _ A3) as (n3 & _ & ST3).
  destruct (rrelease _ _ _ _ i r2 (proj2 (rpre_ok k3)) ST3 LK3 M3 J3) as [X|(X & _)]; [apply (FR (Datatypes.S k3)); auto; lia|congruence].
Qed.
End STUCK.

Hypothesis CE : clones_end (actions a).
Hypothesis GO : sections_go_on s (actions a).
Lemma rmoves_on k : rgoing k -> (forall j l, (k <= j)%nat -> refresh_step l -> step (s j) l = None) -> False.
Proof.
  intros G B. pose proof G as (TM & _).
  pose proof (B k) as BK. unfold in_timed_refresh in TM. destruct (s_reader (s k)) as [|t|t|t n|t n k0| | |] eqn:RD; try contradiction.
  - apply (drain_moves s k); eauto.
  - apply (rstuck_lock k); eauto.
  - specialize (BK RShift (Nat.le_refl k) Logic.I). cbn in BK. rewrite RD in BK. discriminate.
  - subst t. destruct (Z.ltb_spec k0 n) as [KN|KN].
    + specialize (BK RTimeout (Nat.le_refl k) Logic.I). cbn in BK. rewrite RD in BK.
      replace (k0 <? n) with true in BK by (symmetry; apply Z.ltb_lt; lia). discriminate.
    + specialize (BK RDone (Nat.le_refl k) Logic.I). cbn in BK. rewrite RD in BK.
      replace (k0 <? n) with false in BK by (symmetry; apply Z.ltb_ge; lia). discriminate.
  - apply (drain_moves s k); eauto.
Qed.
Lemma rleft_on K : (forall k i, (K <= k)%nat -> actions a k <> Some (LClone i)) ->
  forall d j, (K <= j)%nat -> rgoing j -> rreturned \/ (rgoing (d + j) /\ wleft (w (d + j)) <= wleft (w j)).
Proof.
  intros HK d j L G. induction d as [|d IH]; [right; split; [exact G|apply Z.le_refl]|].
  destruct IH as [X|[X Y]]; [left; exact X|]. destruct (rgoing_step _ X) as [Z|Z]; [left; exists (Datatypes.S (d + j)%nat); exact Z|].
  right. split; [exact Z|]. etransitivity; [|exact Y]. cbn [Nat.add]. pose proof (C (d + j)%nat) as CJ. pose proof (timed_in _ (proj1 X)) as IX.
  destruct (a (d + j)%nat) as [[l n]|] eqn:A; [|rewrite CJ; lia]. destruct CJ as [_ ST]. apply act_some in A.
  destruct (refresh_dec l) as [D|D].
  - assert (NP : s_reader (s (Datatypes.S (d + j))) <> RPanicked) by (apply rnot_panicked; apply Z).
    destruct (rleft_refresh _ _ _ _ D IX NP ST) as [W|[_ W]]; [|lia]. destruct Z as (Z & _). unfold in_timed_refresh, states in Z. rewrite W in Z. contradiction.
  - apply (rleft_step _ l n); auto; [|intros i ->; apply (NL _ _ A)|apply rpre_ok]. intros i ->. apply (HK (d + j)%nat i); [lia|exact A].
Qed.
Lemma rreturns K : (forall k i, (K <= k)%nat -> actions a k <> Some (LClone i)) ->
  forall m j, (K <= j)%nat -> rgoing j -> wleft (w j) < Z.of_nat m -> rreturned.
Proof.
  intros HK. induction m as [|m IH]; intros j L G M; [pose proof (wleft_nonneg (w j) (proj1 (rpre_ok j))); lia|].
  destruct (RG j) as (k' & LK & HR). replace k' with ((k' - j) + j)%nat in HR by lia.
  destruct (rleft_on K HK (k' - j) j L G) as [X|[G' LE]]; [exact X|]. set (q := (k' - j + j)%nat) in *.
  destruct HR as [(l & A & RS)|ST]; [|exfalso; apply (rmoves_on q G' ST)].
  destruct (rgoing_step _ G') as [X|X]; [exists (Datatypes.S q); exact X|].
  destruct (ract_inv _ _ A) as (n & _ & ST).
  assert (NP : s_reader (s (Datatypes.S q)) <> RPanicked) by (apply rnot_panicked; apply X).
  destruct (rleft_refresh _ _ _ _ RS (timed_in _ (proj1 G')) NP ST) as [W|[_ W]]; [exists (Datatypes.S q); exact W|].
  apply (IH (Datatypes.S q)); auto; lia.
Qed.
Lemma ralways_returns : rreturned.
Proof.
  destruct CE as (K & HK).
  assert (G : rgoing 0) by (split; [exact T0|cbn [wpre]; rewrite app_nil_r; exact U0]).
  destruct (rgoing_on K 0%nat G) as [X|X]; [exact X|].
  apply (rreturns K HK (Z.to_nat (wleft (w (K + 0)%nat) + 1)) (K + 0)%nat); auto; [lia|]. pose proof (wleft_nonneg (w (K + 0)%nat) (proj1 (rpre_ok _))). lia.
Qed.
End RLIVE.

(** *)
Lemma rsections_of h0 w a : rcontinues h0 w a -> no_leak (actions a) -> recorders_go_on (states w) (actions a) -> sections_go_on (states w) (actions a).
Proof.
  intros C NL GO i k r J IS. destruct (GO i k) as (k' & LK & H).
  destruct (runtil h0 w a C NL i r (k' - k) k J) as [(k1 & l & X1 & X2 & X3 & _)|X].
  - exists k1, l. split; [lia|auto].
  - replace (k' - k + k)%nat with k' in X by lia. destruct H as [(l & A & M)|H]; [exists k', l; auto|].
    unfold in_section in IS. destruct (H r X) as [Y|Y]; rewrite Y in IS; discriminate.
Qed.
Lemma rsettle_prefix w tr w2 k : rexec w tr = Some w2 -> rexec w (firstn k tr) = Some (rsettle w tr k).
Proof.
  intros E. unfold rsettle. rewrite <- (firstn_skipn k tr), rexec_app in E. destruct (rexec w (firstn k tr)); [reflexivity|discriminate].
Qed.
Lemma rsettle_end w tr w2 k : rexec w tr = Some w2 -> (length tr <= k)%nat -> rsettle w tr k = w2.
Proof. intros E L. unfold rsettle. rewrite firstn_all2 by exact L. rewrite E. reflexivity. Qed.
Lemma rsettle_continues h0 w tr w2 : rexec w tr = Some w2 -> Forall (label_ok (h_ctr h0)) (acts tr) -> rcontinues h0 (rsettle w tr) (nth_error tr).
Proof.
  intros E F k. destruct (nth_error tr k) as [l|] eqn:N.
  - split; [apply (nth_Forall _ (acts tr) k (fst l) F); unfold acts; rewrite nth_error_map, N; reflexivity|].
    pose proof (rsettle_prefix _ _ _ (Datatypes.S k) E) as X. rewrite (firstn_snoc _ _ _ N) in X.
    apply rexec_snoc in X. destruct X as (s1 & X1 & X2). rewrite (rsettle_prefix _ _ _ k E) in X1. injection X1 as <-. exact X2.
  - apply nth_error_None in N. rewrite !(rsettle_end _ _ _ _ E) by lia. reflexivity.
Qed.
Lemma rsettle_fair w tr w2 : rexec w tr = Some w2 -> s_reader (w_st w2) = RReady -> all_quiet (w_st w2) ->
  recorders_go_on (states (rsettle w tr)) (actions (nth_error tr)) /\ reader_goes_on (states (rsettle w tr)) (actions (nth_error tr)) /\
  clones_end (actions (nth_error tr)).
Proof.
  intros E R Q. unfold states, actions. split; [|split].
  - intros i k. exists (k + length tr)%nat. split; [lia|]. right. intros r J. rewrite (rsettle_end _ _ _ _ E) in J by lia.
    apply or_comm, Q. eapply nth_error_In; eauto.
  - intros k. exists (k + length tr)%nat. split; [lia|]. right. intros j l L RS. rewrite (rsettle_end _ _ _ _ E) by lia.
    destruct l; cbn in *; try contradiction; rewrite R; reflexivity.
  - exists (length tr). intros k i L X. assert (N : nth_error tr k = None) by (apply nth_error_None; exact L). rewrite N in X. discriminate.
Qed.
Lemma rreader_as w a : wreader_goes_on rstep w a <-> reader_goes_on (states w) (actions a).
Proof. apply reader_via. intros x l n RS. rewrite rother by (apply refresh_counts; exact RS). apply wstep_none. exact RS. Qed.

(** [refresh_timeout] returns in builds without overflow checks too, however many guards of idle recorders
    have been forgotten before it (the number of histograms it waits for may then be close to 2^64, and nobody
    may be left to send them, C83_deadlock_refuted), however many recorders there are, and however outdated the
    phases are that recorders load.  Needed are: no guard is forgotten while it runs, clones end, who is in a
    critical section of the recorders' mutex goes on, and so does the reader, whose timer runs out some time. *)
Lemma C83_timeout_returns_proof : forall h0 tr0 w a,
  rrun h0 tr0 (w 0%nat) -> merged_untouched (acts tr0) -> merge_safe h0 ->
  rcontinues h0 w a -> no_leak (actions a) -> clones_end (actions a) ->
  sections_go_on (states w) (actions a) -> wreader_goes_on rstep w a ->
  in_timed_refresh (w_st (w 0%nat)) -> exists k, s_reader (w_st (w k)) = RReady.
Proof. intros h0 tr0 w a R0 U0 MS C NL CE GO RG T. apply rreader_as in RG. exact (ralways_returns h0 tr0 w a R0 U0 MS C NL RG T CE GO). Qed.
(*EX
(** A guard has been forgotten, its recorder has been dropped and the other one is idle, so the number of recorders
    is 2^64 - 1, and a [refresh_timeout] waits for as many histograms; meanwhile the other recorder wakes up and
    sends one.  The timer runs out, and it returns. *)
Example ex_C83_timeout_returns : exists h0 tr0 w a, rrun h0 tr0 (w 0%nat) /\ merged_untouched (acts tr0) /\ merge_safe h0 /\
  rcontinues h0 w a /\ no_leak (actions a) /\ clones_end (actions a) /\ sections_go_on (states w) (actions a) /\ wreader_goes_on rstep w a /\
  forgotten (acts tr0) = 1 /\ s_reader (w_st (w 0%nat)) = RWait true usize_max 0 /\
  s_reader (w_st (w 6%nat)) = RWait true usize_max 1 /\ s_chan (w_st (w 6%nat)) = [] /\ s_reader (w_st (w 8%nat)) = RReady.
Proof.
  set (tr0 := [(RRecorder, 0); (RRecorder, 0); (LWrite 0 (ORecord 7 1), 0); (LLoad 0, 0); (LFinish 0, 0); (LIdle 0, 0); (LIdleLoad 0, 0); (LIdleEnd 0, 0);
                 (LForget 0, 0); (LDrop 0, 0); (LDropEnd 0, 0); (LIdle 1, 0); (LIdleLoad 1, 0); (LIdleEnd 1, 0); (RStart true, 0); (RRecv, 0); (REmpty, 0); (RRead, 0); (RShift, 0)]).
  set (tr := [(LWake 1, 0); (LWakeEnd 1, 0); (LWrite 1 (ORecord 9 4), 0); (LLoad 1, 1); (LFinish 1, 0); (RRecv, 0); (RTimeout, 0); (REmpty, 0); (LDrop 1, 0); (LDropEnd 1, 0)]).
  assert (X : match build U64 1 1000 2 true [] with
              | Some h => match rexec (winit h) tr0 with
                          | Some w => match rexec w tr with
                              | Some w2 => s_reader (w_st w2) = RReady /\ map r_pc (s_recs (w_st w2)) = [PGone; PGone] /\
                                  is_auto_resize h = true /\ h_ctr h = U64 /\
                                  s_reader (w_st (rsettle w tr 0)) = RWait true usize_max 0 /\
                                  s_reader (w_st (rsettle w tr 6)) = RWait true usize_max 1 /\ s_chan (w_st (rsettle w tr 6)) = [] /\ s_reader (w_st (rsettle w tr 8)) = RReady
                              | None => False end
                          | None => False end
              | None => False end) by (vm_compute; auto 20).
  destruct (build _ _ _ _ _ _) as [h|] eqn:B; [|contradiction]. destruct (rexec (winit h) tr0) as [w|] eqn:E0; [|contradiction].
  destruct (rexec w tr) as [w2|] eqn:E1; [|contradiction]. destruct X as (X1 & X2 & X4 & CT & X6 & X7 & X8 & X9).
  assert (Q : all_quiet (w_st w2)).
  { intros r I. left. apply (in_map r_pc) in I. rewrite X2 in I. cbn in I. destruct I as [I|[I|[]]]; auto. }
  destruct (rsettle_fair w tr w2 E1 X1 Q) as (F1 & F2 & F3). apply rreader_as in F2.
  exists h, tr0, (rsettle w tr), (nth_error tr).
  split; [split; [exact (build_reachable _ _ _ _ _ _ _ B)|split; [unfold tr0; cbn [acts map fst]; rewrite CT; repeat constructor; vm_compute; discriminate|exact E0]]|].
  split; [intros y I; cbn in I; intuition discriminate|].
  split; [left; exact X4|].
  assert (RC : rcontinues h (rsettle w tr) (nth_error tr)) by (apply (rsettle_continues h w tr w2 E1); rewrite CT; repeat constructor; vm_compute; discriminate).
  assert (NL : no_leak (actions (nth_error tr))).
  { intros k i N; unfold actions in N; destruct (nth_error tr k) as [x|] eqn:NK; [|discriminate]; apply nth_error_In in NK; cbn in NK, N; intuition (subst; discriminate). }
  split; [exact RC|]. split; [exact NL|]. split; [exact F3|]. split; [apply (rsections_of h); auto|].
  auto 15.
Qed.
EX*)

(** While no guard is forgotten and fewer than 2^64 - 1 recorders have been made, the unbounded executions are those
    of a checked build as well, so that C76 holds of them: a plain [refresh] returns under the conditions there. *)
Lemma C83_same_ever_proof : forall h0 tr0 w a, guards_dropped (acts tr0) -> no_leak (actions a) ->
  (forall k, Z.of_nat (length (s_recs (w_st (w k)))) < usize_max) ->
  (rrun h0 tr0 (w 0%nat) /\ rcontinues h0 w a <-> wrun h0 tr0 (w 0%nat) /\ wcontinues h0 w a).
Proof.
  intros h0 tr0 w a G0 NL FEW.
  assert (DR : forall j, guards_dropped (acts (tr0 ++ wpre a j))) by (intros j; apply (wpre_dropped tr0 a G0 NL j)).
  assert (ONE : forall j x, a j = Some x -> tr0 ++ wpre a (Datatypes.S j) = (tr0 ++ wpre a j) ++ [x]).
  { intros j x A. cbn [wpre]. rewrite A. apply app_assoc. }
  split; intros [R C]; (split; [apply (C83_same_proof h0 tr0 (w 0%nat) G0 (FEW 0%nat)); exact R|]); intros j; pose proof (C j) as CJ; destruct (a j) as [x|] eqn:A; auto;
    destruct CJ as [LO _]; (split; [exact LO|]).
  - pose proof (proj1 (C83_same_proof h0 _ _ (DR j) (FEW j)) (rpre_run h0 tr0 w a R C j)) as (_ & _ & W1).
    pose proof (proj1 (C83_same_proof h0 _ _ (DR (Datatypes.S j)) (FEW (Datatypes.S j))) (rpre_run h0 tr0 w a R C (Datatypes.S j))) as (_ & _ & W2).
    rewrite (ONE j x A) in W2. apply wexec_snoc in W2. destruct W2 as (w1 & W3 & W4). congruence.
  - pose proof (proj2 (C83_same_proof h0 _ _ (DR j) (FEW j)) (wpre_run h0 tr0 w a R C j)) as (_ & _ & W1).
    pose proof (proj2 (C83_same_proof h0 _ _ (DR (Datatypes.S j)) (FEW (Datatypes.S j))) (wpre_run h0 tr0 w a R C (Datatypes.S j))) as (_ & _ & W2).
    rewrite (ONE j x A) in W2. apply rexec_snoc in W2. destruct W2 as (w1 & W3 & W4). congruence.
Qed.
(*EX
(** the hypotheses and one of the sides can be met: a refresh that waits for the one recorder *)
Example ex_C83_same_ever : exists h0 tr0 w a, guards_dropped (acts tr0) /\ no_leak (actions a) /\
  (forall k, Z.of_nat (length (s_recs (w_st (w k)))) < usize_max) /\ rrun h0 tr0 (w 0%nat) /\ rcontinues h0 w a /\
  s_reader (w_st (w 0%nat)) = RWait false 1 0 /\ s_reader (w_st (w 6%nat)) = RReady /\ wrun h0 tr0 (w 0%nat) /\ wcontinues h0 w a.
Proof.
  set (tr0 := [(RRecorder, 0); (RStart false, 0); (REmpty, 0); (RRead, 0); (RShift, 0)]).
  set (tr := [(LWrite 0 (ORecord 8 1), 0); (LLoad 0, 1); (LFinish 0, 0); (RRecv, 0); (RDone, 0); (REmpty, 0); (LDrop 0, 0); (LDropEnd 0, 0)]).
  assert (X : match build U64 1 1000 2 true [] with
              | Some h => match rexec (winit h) tr0 with
                          | Some w => match rexec w tr with
                              | Some w2 => h_ctr h = U64 /\ length (s_recs (w_st w2)) = 1%nat /\
                                  forallb (fun k => (length (s_recs (w_st (rsettle w tr k))) =? 1)%nat) (seq 0 (Datatypes.S (length tr))) = true /\
                                  s_reader (w_st (rsettle w tr 0)) = RWait false 1 0 /\ s_reader (w_st (rsettle w tr 6)) = RReady
                              | None => False end
                          | None => False end
              | None => False end) by (vm_compute; auto 20).
  destruct (build _ _ _ _ _ _) as [h|] eqn:B; [|contradiction]. destruct (rexec (winit h) tr0) as [w|] eqn:E0; [|contradiction].
  destruct (rexec w tr) as [w2|] eqn:E1; [|contradiction]. destruct X as (CT & X2 & X3 & X4 & X5).
  assert (G : guards_dropped (acts tr0)) by (intros y I; cbn in I; intuition discriminate).
  assert (NL : no_leak (actions (nth_error tr))).
  { intros k i N; unfold actions in N; destruct (nth_error tr k) as [x|] eqn:NK; [|discriminate]; apply nth_error_In in NK; cbn in NK, N; intuition (subst; discriminate). }
  assert (FEW : forall k, Z.of_nat (length (s_recs (w_st (rsettle w tr k)))) < usize_max).
  { intros k. assert (L : length (s_recs (w_st (rsettle w tr k))) = 1%nat); [|rewrite L; reflexivity].
    destruct (Nat.le_gt_cases k (length tr)) as [L|L].
    - rewrite forallb_forall in X3. apply Nat.eqb_eq, X3, in_seq. lia.
    - rewrite (rsettle_end _ _ _ _ E1) by lia. exact X2. }
  assert (R : rrun h tr0 (rsettle w tr 0)) by (split; [exact (build_reachable _ _ _ _ _ _ _ B)|split; [repeat constructor|exact E0]]).
  assert (RC : rcontinues h (rsettle w tr) (nth_error tr)) by (apply (rsettle_continues h w tr w2 E1); rewrite CT; repeat constructor; vm_compute; discriminate).
  exists h, tr0, (rsettle w tr), (nth_error tr). pose proof (proj1 (C83_same_ever _ _ _ _ G NL FEW) (conj R RC)) as [W WC]. auto 15.
Qed.
EX*)
