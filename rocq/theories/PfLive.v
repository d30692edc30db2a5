(** * C69, C70: whoever goes on gets on *)
From Verif Require Import Machine Log2Model HistModel Bins ListZ Wf Spec Reach Witness SyncModel SyncSpec SyncOps SyncFacts SyncRefresh PfSync LiveSpec LiveFacts.
(*PROPS-IMPORTS Machine Log2Model HistModel Spec Reach Witness Cases SyncModel SyncSpec WeakModel WeakSpec CasesSync LiveSpec LiveFacts *)

(** *)
Fixpoint pre (a : nat -> option label) (j : nat) : list label :=
  match j with
  | 0%nat => []
  | Datatypes.S j' => pre a j' ++ match a j' with Some l => [l] | None => [] end
  end.
Definition late (st : state) : Z := match s_reader st with RWait _ _ _ | RDrain2 => 1 | _ => 0 end.

Section LIVE.
Variables (h0 : hist) (tr0 : list label) (s : nat -> state) (a : nat -> option label).
Hypothesis R0 : run h0 tr0 (s 0%nat).
Hypothesis U0 : merged_untouched tr0.
Hypothesis G0 : guards_dropped tr0.
Hypothesis L0 : s_lock (s 0%nat) <> Poisoned.
Hypothesis MS : merge_safe h0.
Hypothesis C : continues h0 s a.
Hypothesis NL : no_leak a.
Hypothesis FEW : few_recorders s.
Hypothesis RG : reader_goes_on s a.

Lemma pre_run j : run h0 (tr0 ++ pre a j) (s j).
Proof.
  induction j as [|j IH].
  - cbn. rewrite app_nil_r. exact R0.
  - destruct IH as (R & F & E). pose proof (C j) as CJ. cbn [pre]. destruct (a j) as [l|].
    + destruct CJ as [LO ST]. split; [exact R|]. rewrite app_assoc. split.
      * apply Forall_app. split; [exact F|]. constructor; [exact LO|constructor].
      * rewrite exec_app, E. cbn. rewrite ST. reflexivity.
    + rewrite app_nil_r, CJ. split; [exact R|]. split; [exact F|exact E].
Qed.
Lemma pre_dropped j : guards_dropped (tr0 ++ pre a j).
Proof.
  intros i I. apply in_app_iff in I. destruct I as [I|I]; [apply (G0 i I)|]. revert I. induction j as [|j IH]; cbn; [tauto|].
  intros I. apply in_app_iff in I. destruct I as [I|I]; [auto|]. specialize (NL j i). destruct (a j); [|contradiction].
  destruct I as [->|[]]. apply NL. reflexivity.
Qed.
Lemma pre_lock j : s_lock (s j) <> Poisoned.
Proof.
  induction j as [|j IH]; [exact L0|]. pose proof (C j) as CJ. destruct (a j) as [l|]; [|rewrite CJ; exact IH]. destruct CJ as [_ ST].
  apply (unpoisoned _ _ _ ST); auto. destruct (pre_run j) as (_ & _ & E).
  apply (count_exec h0 _ _ (dropped_not_forget _ (pre_dropped j)) E).
Qed.
Lemma pre_lock_ok j : lock_ok (s j).
Proof. destruct (pre_run j) as (_ & _ & E). apply (lock_exec h0 _ _ E). Qed.

Definition going (j : nat) : Prop :=
  in_refresh (s j) /\ merged_untouched (tr0 ++ pre a j) /\ shifts (tr0 ++ pre a j) <= shifts tr0 + late (s j) /\
  (in_timed_refresh (s 0%nat) -> in_timed_refresh (s j)).
Definition returned : Prop := exists k, s_reader (s k) = RReady.

Lemma not_panicked j : merged_untouched (tr0 ++ pre a j) -> s_reader (s j) <> RPanicked.
Proof. intros U. apply (C56_refresh_never_panics_proof h0 _ _ (pre_run j) U MS). Qed.
Lemma shift_step st l st' : in_refresh st -> in_refresh st' -> step st l = Some st' -> shifts [l] + late st <= late st'.
Proof.
  intros I I' E. rewrite shifts_one. unfold late.
  assert (D : refresh_step l \/ ~ refresh_step l) by (destruct l; cbn; auto).
  destruct D as [D|D]; [|destruct (reader_kept _ _ _ I D E) as [-> _]; destruct l; cbn in D; try contradiction; try lia; tauto].
  unfold in_refresh in *; destruct l; cbn [refresh_step] in D; try contradiction; step_cases E; rewrite ?K in *; try contradiction; try (cbn; lia).
  all: apply receive_inv in E; destruct E as (b & q & Q & [(m & M & ->)|(M & ->)]); cbn in *; try contradiction; lia.
Qed.
Lemma timed_step st l st' : in_timed_refresh st -> in_refresh st' -> step st l = Some st' -> in_timed_refresh st'.
Proof.
  intros T I' E. assert (I : in_refresh st) by (unfold in_refresh, in_timed_refresh in *; destruct (s_reader st); auto).
  assert (D : refresh_step l \/ ~ refresh_step l) by (destruct l; cbn; auto).
  destruct D as [D|D]; [|unfold in_timed_refresh in *; destruct (reader_kept _ _ _ I D E) as [-> _]; exact T].
  unfold in_refresh, in_timed_refresh in *; destruct l; cbn [refresh_step] in D; try contradiction; step_cases E; rewrite ?K in *; try contradiction; cbn; auto.
  all: apply receive_inv in E; destruct E as (b & q & Q & [(m & M & ->)|(M & ->)]); cbn in *; try contradiction; auto.
Qed.
Lemma call_not_set st l st' : in_refresh st -> step st l = Some st' -> forall h, l <> RSet h.
Proof. intros I E h ->. apply (call_step _ _ _ I E). Qed.
Lemma going_step j : going j -> s_reader (s (Datatypes.S j)) = RReady \/ going (Datatypes.S j).
Proof.
  intros (I & U & SH & TM). pose proof (C j) as CJ. unfold going. cbn [pre] in *. destruct (a j) as [l|] eqn:A.
  - destruct CJ as [LO ST]. rewrite app_assoc.
    assert (U' : merged_untouched ((tr0 ++ pre a j) ++ [l])).
    { intros h IN. apply in_app_iff in IN. destruct IN as [IN|[IN|[]]]; [apply (U h IN)|]. apply (call_not_set _ _ _ I ST h IN). }
    assert (NP : s_reader (s (Datatypes.S j)) <> RPanicked).
    { apply not_panicked. cbn [pre]. rewrite A, app_assoc. exact U'. }
    assert (NX : s_reader (s (Datatypes.S j)) = RReady \/ in_refresh (s (Datatypes.S j))).
    { assert (D : refresh_step l \/ ~ refresh_step l) by (destruct l; cbn; auto). destruct D as [D|D].
      - destruct (left_refresh _ _ _ D I NP ST) as [X|[X _]]; auto.
      - right. unfold in_refresh in *. destruct (reader_kept _ _ _ I D ST) as [-> _]. exact I. }
    destruct NX as [X|X]; [left; exact X|]. right. split; [exact X|]. split; [exact U'|].
    split; [rewrite shifts_app; pose proof (shift_step _ _ _ I X ST); lia|]. intros T0. apply (timed_step _ l _ (TM T0) X ST).
  - rewrite app_nil_r, CJ. right. auto.
Qed.
Lemma going_on d : forall j, going j -> returned \/ going (d + j).
Proof.
  induction d as [|d IH]; intros j G; [right; exact G|]. destruct (IH j G) as [X|X]; [left; exact X|].
  destruct (going_step _ X) as [Y|Y]; [left; exists (Datatypes.S (d + j)%nat); exact Y|right; exact Y].
Qed.

(** something happens to recorder [i], or nothing has up to then *)
Lemma until i r d : forall j, nth_error (s_recs (s j)) i = Some r ->
  (exists k' l, (j <= k' < d + j)%nat /\ a k' = Some l /\ moves i l /\ nth_error (s_recs (s k')) i = Some r) \/
  nth_error (s_recs (s (d + j))) i = Some r.
Proof.
  induction d as [|d IH]; intros j J; [right; exact J|].
  destruct (IH j J) as [(k' & l & X1 & X2)|X]; [left; exists k', l; split; [lia|exact X2]|].
  pose proof (C (d + j)%nat) as CJ. cbn [Nat.add]. destruct (a (d + j)%nat) as [l|] eqn:A; [|right; rewrite CJ; exact X].
  destruct CJ as [_ ST].
  assert (D : moves i l \/ ~ moves i l) by (destruct l; cbn; try tauto; apply Nat.eq_decidable).
  destruct D as [M|M]; [left; exists (d + j)%nat, l; split; [lia|auto]|]. right. apply (kept _ _ _ i r ST M); auto. intros ->. apply (NL _ _ A).
Qed.

(** stuck for good *)
Section STUCK.
Variable k : nat.
Hypothesis B : forall j l, (k <= j)%nat -> refresh_step l -> step (s j) l = None.
Hypothesis GK : going k.
Lemma not_ref j l : (k <= j)%nat -> a j = Some l -> ~ refresh_step l.
Proof. intros L A RS. specialize (C j). rewrite A in C. destruct C as [_ ST]. rewrite (B j l L RS) in ST. discriminate. Qed.
Lemma stuck_same d : s_reader (s (d + k)) = s_reader (s k) /\ s_phase (s (d + k)) = s_phase (s k).
Proof.
  induction d as [|d [IH1 IH2]]; [auto|]. cbn. pose proof (C (d + k)%nat) as CJ. destruct (a (d + k)%nat) as [l|] eqn:A.
  - destruct CJ as [_ ST]. assert (IR : in_refresh (s (d + k)%nat)) by (unfold in_refresh; rewrite IH1; apply GK).
    destruct (reader_kept _ _ _ IR (not_ref _ _ (Nat.le_add_l k d) A) ST) as [-> ->]. auto.
  - rewrite CJ. auto.
Qed.
Lemma stuck_in j : (k <= j)%nat -> in_refresh (s j) /\ s_reader (s j) = s_reader (s k) /\ s_phase (s j) = s_phase (s k).
Proof.
  intros L. replace j with ((j - k) + k)%nat by lia. destruct (stuck_same (j - k)) as [X Y]. split; [|auto].
  unfold in_refresh. rewrite X. apply GK.
Qed.
Lemma stuck_owing : recorders_go_on s a -> (exists t n k0, s_reader (s k) = RWait t n k0 /\ k0 < n) ->
  forall m j i r, (k <= j)%nat -> nth_error (s_recs (s j)) i = Some r -> owes (s_phase (s k)) r = true -> (way r <= m)%nat -> False.
Proof.
  intros GO (t & n & k0 & RW & KN).
  assert (EMP : forall j, (k <= j)%nat -> s_chan (s j) = []).
  { intros j L. pose proof (B j RRecv L Logic.I) as BJ. destruct (stuck_in j L) as (_ & X & _). cbn in BJ. rewrite X, RW in BJ.
    replace (k0 <? n) with true in BJ by (symmetry; apply Z.ltb_lt; lia). unfold receive in BJ. destruct (s_chan (s j)); auto.
    destruct (merge _ _) in BJ; discriminate. }
  induction m as [|m IH]; intros j i r L J O W.
  - unfold way in W. unfold owes in O. destruct (r_pc r); try discriminate; try (cbn in W; lia). match type of W with context [if ?b then _ else _] => destruct b end; lia.
  - destruct (GO i j) as (k' & LK & HK).
    assert (NOW : forall k1 l, (k <= k1)%nat -> a k1 = Some l -> moves i l -> nth_error (s_recs (s k1)) i = Some r -> False).
    { intros k1 l L1 A1 M1 J1. pose proof (C k1) as CJ. rewrite A1 in CJ. destruct CJ as [_ ST]. destruct (stuck_in k1 L1) as (IR & _ & PH).
      destruct (pay _ _ _ i r ST M1 IR (pre_lock _) J1) as [X|(r' & X1 & X2 & X3)].
      - rewrite PH. exact O.
      - apply X. apply EMP. lia.
      - rewrite PH in X2. apply (IH (Datatypes.S k1) i r'); auto; lia. }
    destruct (until i r (k' - j) j J) as [(k1 & l & X1 & X2 & X3 & X4)|X].
    + apply (NOW k1 l); auto. lia.
    + replace (k' - j + j)%nat with k' in X by lia. destruct HK as [(l & A1 & M1)|HK]; [apply (NOW k' l); auto; lia|].
      unfold owes in O. destruct (HK r X) as [Y|Y]; rewrite Y in O; discriminate.
Qed.
Lemma stuck_lock : sections_go_on s a -> (exists t, s_reader (s k) = RCount t) -> False.
Proof.
  intros GO (t & RC).
  assert (HE : forall j, (k <= j)%nat -> exists i r, s_lock (s j) = Held i /\ nth_error (s_recs (s j)) i = Some r /\ in_section r = true).
  { intros j L. pose proof (B j RRead L Logic.I) as BJ. destruct (stuck_in j L) as (_ & X & _). cbn in BJ. rewrite X, RC in BJ.
    pose proof (pre_lock j) as NP. destruct (pre_lock_ok j) as [_ LB]. destruct (s_lock (s j)) as [|i|] eqn:LK; [discriminate| |contradiction].
    destruct (LB i eq_refl) as (r & R1 & R2). exists i, r. auto. }
  assert (MV : forall j i r, (k <= j)%nat -> s_lock (s j) = Held i -> nth_error (s_recs (s j)) i = Some r -> in_section r = true ->
     exists k' l, (j <= k')%nat /\ a k' = Some l /\ moves i l /\ nth_error (s_recs (s k')) i = Some r /\ s_lock (s k') = Held i).
  { intros j i r L LK J IS. destruct (GO i j r J IS) as (k' & l & LE & A & M).
    assert (H : forall k1, (k <= k1)%nat -> nth_error (s_recs (s k1)) i = Some r -> s_lock (s k1) = Held i).
    { intros k1 L1 J1. apply (pre_lock_ok k1) with (r := r); auto. }
    destruct (until i r (k' - j) j J) as [(k1 & l1 & X1 & X2 & X3 & X4)|X].
    - exists k1, l1. split; [lia|]. repeat split; auto. apply H; auto. lia.
    - replace (k' - j + j)%nat with k' in X by lia. exists k', l. repeat split; auto. apply H; auto. lia. }
  assert (FR : forall j, (k <= j)%nat -> s_lock (s j) <> Free) by (intros j L X; destruct (HE j L) as (i & r & Y & _); congruence).
  destruct (HE k (Nat.le_refl k)) as (i & r & LK & J & IS).
  destruct (MV k i r (Nat.le_refl k) LK J IS) as (k1 & l1 & L1 & A1 & M1 & J1 & LK1).
  pose proof (C k1) as C1. rewrite A1 in C1. destruct C1 as [_ ST1].
  destruct (release _ _ _ i r (pre_lock_ok k1) ST1 LK1 M1 J1) as [X|(_ & LK2 & r2 & q & J2 & P2)]; [apply (FR (Datatypes.S k1)); auto; lia|].
  destruct (MV (Datatypes.S k1) i r2 ltac:(lia) LK2 J2 ltac:(unfold in_section; rewrite P2; reflexivity)) as (k3 & l3 & L3 & A3 & M3 & J3 & LK3).
  pose proof (C k3) as C3. rewrite A3 in C3. destruct C3 as [_ ST3].
  destruct (release _ _ _ i r2 (pre_lock_ok k3) ST3 LK3 M3 J3) as [X|(X & _)]; [apply (FR (Datatypes.S k3)); auto; lia|congruence].
Qed.
End STUCK.

(** never stuck for good, so the bound runs out *)
Hypothesis CE : clones_end a.
Hypothesis NS : forall k, going k -> (forall j l, (k <= j)%nat -> refresh_step l -> step (s j) l = None) -> False.
Lemma left_on K : (forall k i, (K <= k)%nat -> a k <> Some (LClone i)) ->
  forall d j, (K <= j)%nat -> going j -> returned \/ (going (d + j) /\ left (s (d + j)) <= left (s j)).
Proof.
  intros HK d j L G. induction d as [|d IH]; [right; split; [exact G|apply Z.le_refl]|].
  destruct IH as [X|[X Y]]; [left; exact X|]. destruct (going_step _ X) as [Z|Z]; [left; exists (Datatypes.S (d + j)%nat); exact Z|].
  right. split; [exact Z|]. etransitivity; [|exact Y]. cbn [Nat.add]. pose proof (C (d + j)%nat) as CJ.
  destruct (a (d + j)%nat) as [l|] eqn:A; [|rewrite CJ; lia]. destruct CJ as [_ ST].
  assert (D : refresh_step l \/ ~ refresh_step l) by (destruct l; cbn; auto).
  destruct D as [D|D].
  - assert (NP : s_reader (s (Datatypes.S (d + j))) <> RPanicked) by (apply not_panicked; apply Z).
    destruct (left_refresh _ _ _ D (proj1 X) NP ST) as [W|[_ W]]; [|lia]. destruct Z as (Z & _). unfold in_refresh in Z. rewrite W in Z. contradiction.
  - apply (left_step _ l); auto; [|intros i ->; apply (NL _ _ A)|apply X]. intros i ->. apply (HK (d + j)%nat i); [lia|exact A].
Qed.
Lemma returns K : (forall k i, (K <= k)%nat -> a k <> Some (LClone i)) ->
  forall m j, (K <= j)%nat -> going j -> left (s j) < Z.of_nat m -> returned.
Proof.
  intros HK. induction m as [|m IH]; intros j L G M; [pose proof (left_nonneg (s j)); lia|].
  destruct (RG j) as (k' & LK & HR). replace k' with ((k' - j) + j)%nat in HR by lia.
  destruct (left_on K HK (k' - j) j L G) as [X|[G' LE]]; [exact X|]. set (q := (k' - j + j)%nat) in *.
  destruct HR as [(l & A & RS)|ST]; [|exfalso; apply (NS q G' ST)].
  destruct (going_step _ G') as [X|X]; [exists (Datatypes.S q); exact X|].
  pose proof (C q) as CJ. rewrite A in CJ. destruct CJ as [_ ST].
  assert (NP : s_reader (s (Datatypes.S q)) <> RPanicked) by (apply not_panicked; apply X).
  destruct (left_refresh _ _ _ RS (proj1 G') NP ST) as [W|[_ W]]; [exists (Datatypes.S q); exact W|].
  apply (IH (Datatypes.S q)); auto; lia.
Qed.
Lemma always_returns : in_refresh (s 0%nat) -> returned.
Proof.
  intros I. destruct CE as (K & HK).
  assert (G : going 0).
  { split; [exact I|]. cbn [pre]. rewrite app_nil_r. split; [exact U0|]. split; [unfold late; destruct (s_reader (s 0%nat)); lia|auto]. }
  destruct (going_on K 0%nat G) as [X|X]; [exact X|].
  apply (returns K HK (Z.to_nat (left (s (K + 0)%nat) + 1)) (K + 0)%nat); auto; [lia|]. pose proof (left_nonneg (s (K + 0)%nat)). lia.
Qed.
End LIVE.

Lemma sections_of h0 tr0 s a : run h0 tr0 (s 0%nat) -> continues h0 s a -> no_leak a -> recorders_go_on s a -> sections_go_on s a.
Proof.
  intros R0 C NL GO i k r J IS. destruct (GO i k) as (k' & LK & H).
  destruct (until h0 s a C NL i r (k' - k) k J) as [(k1 & l & X1 & X2 & X3 & _)|X].
  - exists k1, l. split; [lia|auto].
  - replace (k' - k + k)%nat with k' in X by lia. destruct H as [(l & A & M)|H]; [exists k', l; auto|].
    unfold in_section in IS. destruct (H r X) as [Y|Y]; rewrite Y in IS; discriminate.
Qed.
Lemma pre_along h0 tr0 s a : run h0 tr0 (s 0%nat) -> continues h0 s a -> along idles_outside (init h0) tr0 -> idles_outside_ever s a ->
  forall j, along idles_outside (init h0) (tr0 ++ pre a j).
Proof.
  intros R0 C A0 AE. induction j as [|j IH]; cbn [pre]; [rewrite app_nil_r; exact A0|].
  rewrite app_assoc. destruct (a j) as [l|] eqn:A; [|rewrite app_nil_r; exact IH].
  destruct (pre_run h0 tr0 s a R0 C j) as (_ & _ & E). pose proof (AE j l A) as X. clear - IH E X.
  revert E IH. generalize (init h0) as st. induction (tr0 ++ pre a j) as [|y t IHt]; intros st E AL; cbn in *.
  - injection E as ->. split; [exact X|]. destruct (step _ l); exact Logic.I.
  - destruct AL as [AL1 AL2]. split; [exact AL1|]. destruct (step st y); [|discriminate]. apply IHt; auto.
Qed.

(** *)
Lemma drain_moves s k : (exists t, s_reader (s k) = RDrain t) \/ s_reader (s k) = RDrain2 ->
  (forall (j : nat) (l : label), (k <= j)%nat -> refresh_step l -> step (s j) l = None) -> False.
Proof.
  intros RD B. destruct (s_chan (s k)) as [|b q] eqn:CH.
  - pose proof (B k REmpty (Nat.le_refl k) Logic.I) as BK. cbn in BK. destruct RD as [(t & RD)|RD]; rewrite RD, CH in BK; discriminate.
  - pose proof (B k RRecv (Nat.le_refl k) Logic.I) as BK. cbn in BK. destruct RD as [(t & RD)|RD]; rewrite RD in BK; unfold receive in BK;
      rewrite CH in BK; destruct (merge _ _) in BK; discriminate.
Qed.

(** ** C69.  [refresh] returns *)
(** [refresh] returns, whatever the threads do and however their steps interleave, in every execution in
    which every recorder that is not idle or dropped is used again and again, recorders are cloned only
    finitely often, and the reader is not starved - with the exception found before (C44): no recorder on
    its way to idle may look at the phase in the short time between the reader's counting the recorders
    and its moving the phase. *)
Lemma C69_refresh_returns_proof : forall h0 tr0 s a,
  run h0 tr0 (s 0%nat) -> merged_untouched tr0 -> guards_dropped tr0 -> merge_safe h0 ->
  along idles_outside (init h0) tr0 -> shifts tr0 < usize_max -> s_lock (s 0%nat) <> Poisoned ->
  continues h0 s a -> no_leak a -> few_recorders s -> idles_outside_ever s a -> clones_end a ->
  recorders_go_on s a -> reader_goes_on s a ->
  in_refresh (s 0%nat) -> exists k, s_reader (s k) = RReady.
Proof.
  intros h0 tr0 s a R0 U0 G0 MS A0 S0 L0 C NL FEW AE CE GO RG I.
  apply (always_returns h0 tr0 s a); auto.
  intros k G B. pose proof G as (IR & U & SH & _).
  pose proof (B k) as BK. unfold in_refresh in IR. destruct (s_reader (s k)) as [|t|t|t n|t n k0| | |] eqn:RD; try contradiction.
  - apply (drain_moves s k); eauto.
  - apply (stuck_lock h0 tr0 s a) with (k := k); eauto. eapply sections_of; eauto.
  - specialize (BK RShift (Nat.le_refl k) Logic.I). cbn in BK. rewrite RD in BK. discriminate.
  - assert (SH' : shifts (tr0 ++ pre a k) <= usize_max) by (unfold late in SH; rewrite RD in SH; lia).
    assert (RK : run h0 (tr0 ++ pre a k) (s k)) by (apply pre_run; auto).
    assert (GK : guards_dropped (tr0 ++ pre a k)) by (apply pre_dropped; auto).
    destruct (C44_waits_for_someone_proof h0 _ _ t n k0 RK GK
                (pre_along h0 tr0 s a R0 C A0 AE k) SH' RD) as [(l & st' & LL & ST)|(i & r & J & O)].
    + assert (RS : refresh_step l) by (destruct LL as [-> | ->]; exact Logic.I). rewrite (BK l (Nat.le_refl k) RS) in ST. discriminate.
    + destruct (Z.ltb_spec k0 n) as [KN|KN].
      * apply (stuck_owing h0 tr0 s a) with (k := k) (m := way r) (j := k) (i := i) (r := r); auto. exists t, n, k0. auto.
      * specialize (BK RDone (Nat.le_refl k) Logic.I). cbn in BK. rewrite RD in BK.
        replace (k0 <? n) with false in BK by (symmetry; apply Z.ltb_ge; lia). discriminate.
  - apply (drain_moves s k); eauto.
Qed.

(** [refresh_timeout] returns even if nobody ever records again, and even if recorders become idle at the
    wrong time: all it needs is that a thread that holds the mutex releases it, that recorders are cloned
    only finitely often, and that the reader is not starved. *)
Lemma C69_timeout_returns_proof : forall h0 tr0 s a,
  run h0 tr0 (s 0%nat) -> merged_untouched tr0 -> guards_dropped tr0 -> merge_safe h0 -> s_lock (s 0%nat) <> Poisoned ->
  continues h0 s a -> no_leak a -> few_recorders s -> clones_end a ->
  sections_go_on s a -> reader_goes_on s a ->
  in_timed_refresh (s 0%nat) -> exists k, s_reader (s k) = RReady.
Proof.
  intros h0 tr0 s a R0 U0 G0 MS L0 C NL FEW CE GO RG T.
  apply (always_returns h0 tr0 s a); auto.
  2:{ unfold in_refresh, in_timed_refresh in *. destruct (s_reader (s 0%nat)); auto. }
  intros k G B. pose proof G as (IR & U & _ & TM). specialize (TM T).
  pose proof (B k) as BK. unfold in_timed_refresh in TM. destruct (s_reader (s k)) as [|t|t|t n|t n k0| | |] eqn:RD; try contradiction.
  - apply (drain_moves s k); eauto.
  - apply (stuck_lock h0 tr0 s a) with (k := k); eauto.
  - specialize (BK RShift (Nat.le_refl k) Logic.I). cbn in BK. rewrite RD in BK. discriminate.
  - subst t. destruct (Z.ltb_spec k0 n) as [KN|KN].
    + specialize (BK RTimeout (Nat.le_refl k) Logic.I). cbn in BK. rewrite RD in BK.
      replace (k0 <? n) with true in BK by (symmetry; apply Z.ltb_lt; lia). discriminate.
    + specialize (BK RDone (Nat.le_refl k) Logic.I). cbn in BK. rewrite RD in BK.
      replace (k0 <? n) with false in BK by (symmetry; apply Z.ltb_ge; lia). discriminate.
  - apply (drain_moves s k); eauto.
Qed.
(*EX
(** The hypotheses of both theorems can be met: a recorder, the reader waits for it; it records, the reader
    returns, and the recorder is dropped. *)
Example ex_C69 : exists h0 tr0 s a, run h0 tr0 (s 0%nat) /\ merged_untouched tr0 /\ guards_dropped tr0 /\ merge_safe h0 /\
  along idles_outside (init h0) tr0 /\ shifts tr0 = 1 /\ s_lock (s 0%nat) = Free /\
  continues h0 s a /\ no_leak a /\ few_recorders s /\ idles_outside_ever s a /\ clones_end a /\
  recorders_go_on s a /\ reader_goes_on s a /\ s_reader (s 0%nat) = RWait true 1 0 /\
  s_reader (s 5%nat) = RDrain2 /\ s_reader (s 6%nat) = RReady.
Proof.
  set (tr0 := [RRecorder; RStart true; REmpty; RRead; RShift]).
  set (tr := [LWrite 0 (ORecord 7 1); LLoad 0; LFinish 0; RRecv; RDone; REmpty; LDrop 0; LDropEnd 0]).
  assert (X : match build U64 1 1000 2 true [] with
              | Some h => match exec (init h) tr0 with
                          | Some st => match exec st tr with
                              | Some st2 => s_reader st2 = RReady /\ map r_pc (s_recs st2) = [PGone] /\
                                  forallb (fun k => active_recorders (settle st tr k) <? usize_max) (seq 0 (Datatypes.S (length tr))) = true /\
                                  is_auto_resize h = true /\ h_ctr h = U64 /\
                                  s_lock st = Free /\ s_reader (settle st tr 0) = RWait true 1 0 /\
                                  s_reader (settle st tr 5) = RDrain2 /\ s_reader (settle st tr 6) = RReady
                              | None => False end
                          | None => False end
              | None => False end) by (vm_compute; auto 10).
  destruct (build _ _ _ _ _ _) as [h|] eqn:B; [|contradiction]. destruct (exec (init h) tr0) as [st|] eqn:E0; [|contradiction].
  destruct (exec st tr) as [st2|] eqn:E1; [|contradiction]. destruct X as (X1 & X2 & X3 & X4 & CT & X5 & X6 & X7 & X8).
  assert (Q : all_quiet st2).
  { intros r I. left. apply (in_map r_pc) in I. rewrite X2 in I. cbn in I. destruct I as [I|[]]; auto. }
  destruct (settle_fair st tr st2 E1 X1 Q) as (F1 & F2 & F3).
  exists h, tr0, (settle st tr), (nth_error tr). split; [split; [exact (build_reachable _ _ _ _ _ _ _ B)|split; [repeat constructor|exact E0]]|].
  split; [intros y I; cbn in I; intuition discriminate|]. split; [intros y I; cbn in I; intuition discriminate|].
  split; [left; exact X4|].
  split; [cbn [along tr0]; repeat (split; [exact Logic.I|]; match goal with |- match ?x with _ => _ end => destruct x; [|exact Logic.I] end); exact Logic.I|].
  split; [reflexivity|]. split; [exact X5|].
  split; [apply (settle_continues h st tr st2 E1); rewrite CT; repeat constructor; vm_compute; discriminate|].
  split; [intros k i N; apply nth_error_In in N; cbn in N; intuition discriminate|].
  split; [apply (settle_few st tr st2 E1 X3)|].
  split; [intros k l N; apply nth_error_In in N; cbn in N; intuition (subst; exact Logic.I)|].
  auto 10.
Qed.
EX*)

(** *)
Lemma never_again st (tr : nat -> option label) : (forall k, tr k = None) -> forall h0, continues h0 (fun _ => st) tr.
Proof. intros N h0 k. rewrite N. reflexivity. Qed.
(** A recorder that is in use but never used again makes [refresh] wait for ever: one recorder, whose owner
    does nothing, and a reader that would go on if it could. *)
Lemma C69_unused_recorder_refuted_proof : exists h0 tr0 s a,
  run h0 tr0 (s 0%nat) /\ merged_untouched tr0 /\ guards_dropped tr0 /\ merge_safe h0 /\
  along idles_outside (init h0) tr0 /\ shifts tr0 < usize_max /\ s_lock (s 0%nat) <> Poisoned /\
  continues h0 s a /\ no_leak a /\ few_recorders s /\ idles_outside_ever s a /\ clones_end a /\
  sections_go_on s a /\ reader_goes_on s a /\ in_refresh (s 0%nat) /\
  map r_pc (s_recs (s 0%nat)) = [PReady] /\ forall k, s_reader (s k) = RWait false 1 0.
Proof.
  set (tr0 := [RRecorder; RStart false; REmpty; RRead; RShift]).
  assert (X : match build U64 1 1000 2 true [] with
              | Some h => match exec (init h) tr0 with
                          | Some st => map r_pc (s_recs st) = [PReady] /\ s_lock st = Free /\ s_chan st = [] /\ s_reader st = RWait false 1 0 /\
                              is_auto_resize h = true
                          | None => False end
              | None => False end) by (vm_compute; auto 10).
  destruct (build _ _ _ _ _ _) as [h|] eqn:B; [|contradiction]. destruct (exec (init h) tr0) as [st|] eqn:E0; [|contradiction].
  destruct X as (X1 & X2 & X3 & X4 & X5).
  exists h, tr0, (fun _ => st), (fun _ => None). split; [split; [exact (build_reachable _ _ _ _ _ _ _ B)|split; [repeat constructor|exact E0]]|].
  split; [intros y I; cbn in I; intuition discriminate|]. split; [intros y I; cbn in I; intuition discriminate|].
  split; [left; exact X5|].
  split; [cbn [along tr0]; repeat (split; [exact Logic.I|]; match goal with |- match ?x with _ => _ end => destruct x; [|exact Logic.I] end); exact Logic.I|].
  split; [vm_compute; reflexivity|]. split; [congruence|].
  split; [apply never_again; reflexivity|]. split; [intros k i; discriminate|].
  split; [intros k; unfold active_recorders; destruct (s_recs st) as [|r [|]]; try discriminate; cbn in X1; cbn [filter];
          destruct (is_active r); reflexivity|].
  split; [intros k l; discriminate|]. split; [exists 0%nat; intros; discriminate|].
  split.
  { intros i k r J IS. exfalso. destruct (s_recs st) as [|r' [|]]; try discriminate. cbn in X1. injection X1 as X1.
    destruct i as [|[|]]; try discriminate. cbn in J. injection J as <-. unfold in_section in IS. rewrite X1 in IS. discriminate. }
  split.
  { intros k. exists k. split; [lia|]. right. intros j l _ RS. destruct l; cbn [refresh_step] in RS; try contradiction; cbn [step]; rewrite X4; try reflexivity.
    unfold receive. rewrite X3. reflexivity. }
  split; [unfold in_refresh; rewrite X4; exact Logic.I|]. split; [exact X1|]. intros _. exact X4.
Qed.

(** Cloning for ever can keep [refresh] (and [refresh_timeout]) from returning, although everybody else goes
    on and there is never more than one recorder in use: an idle recorder is cloned again and again, and
    every clone is dropped at once; each time the reader's first loop finds one more histogram in the
    channel. *)
Lemma C69_clones_refuted_proof : forall timed : bool, exists h0 tr0 s a,
  run h0 tr0 (s 0%nat) /\ merged_untouched tr0 /\ guards_dropped tr0 /\ merge_safe h0 /\
  shifts tr0 < usize_max /\ s_lock (s 0%nat) <> Poisoned /\
  continues h0 s a /\ no_leak a /\ (forall k, active_recorders (s k) <= 1) /\ idles_outside_ever s a /\
  recorders_go_on s a /\ reader_goes_on s a /\
  forall k, s_reader (s k) = RDrain timed.
Proof.
  intros timed. set (tr0 := [RRecorder; LIdle 0; LIdleLoad 0; LIdleEnd 0; RStart timed]).
  assert (X : match build U64 1 1000 2 true [] with
              | Some h => match exec (init h) tr0 with
                          | Some st => map r_pc (s_recs st) = [PIdle] /\ s_lock st = Free /\ s_chan st = [] /\ s_reader st = RDrain timed /\
                              s_count st = 0 /\ is_auto_resize h = true
                          | None => False end
              | None => False end) by (unfold tr0; destruct timed; vm_compute; auto 10).
  destruct (build _ _ _ _ _ _) as [h|] eqn:B; [|contradiction]. destruct (exec (init h) tr0) as [st|] eqn:E0; [|contradiction].
  destruct X as (X1 & X2 & X3 & X4 & X5 & X6).
  assert (RN : run h tr0 st) by (split; [exact (build_reachable _ _ _ _ _ _ _ B)|split; [repeat constructor|exact E0]]).
  assert (U : merged_untouched tr0) by (intros y I; cbn in I; intuition discriminate).
  assert (MS : merge_safe h) by (left; exact X6).
  assert (CH : churning timed 0 0 st).
  { split; [exact X4|]. destruct (s_recs st) as [|r [|]]; try discriminate. cbn in X1. injection X1 as X1. exists r, []. split; [exact X1|].
    split; [constructor|]. auto. }
  pose proof (churned_inv timed h tr0 st RN U MS CH) as INV.
  exists h, tr0, (churned st), (fun k => Some (churns k)). split; [exact RN|]. split; [exact U|].
  split; [intros y I; cbn in I; intuition discriminate|]. split; [exact MS|]. split; [unfold tr0; destruct timed; vm_compute; reflexivity|].
  split; [cbn; congruence|].
  split; [intros k; destruct (INV k) as (_ & _ & ST); split; [|exact ST]; unfold churns, churn; destruct (turn k) as [c [|[|[|]]]]; exact Logic.I|].
  split; [intros k i; unfold churns, churn; destruct (turn k) as [c [|[|[|]]]]; discriminate|].
  split; [intros k; destruct (INV k) as (_ & CK & _); eapply churning_few; [apply turn_lt|exact CK]|].
  split; [intros k l A; injection A as <-; unfold churns, churn; destruct (turn k) as [c [|[|[|]]]]; exact Logic.I|].
  split.
  { intros i k. exists (4 * k)%nat. split; [lia|]. right. intros r J. destruct (INV (4 * k)%nat) as (_ & CK & _). rewrite turn_four in CK.
    destruct CK as (_ & r0 & gs & P0 & PG & (XR & _)). rewrite XR in J. destruct i as [|i]; cbn in J; [injection J as <-; auto|].
    right. apply (nth_Forall _ _ _ _ PG J). }
  split.
  { intros k. exists (3 + 4 * k)%nat. split; [lia|]. left. exists RRecv. split; [|exact Logic.I]. f_equal. unfold churns.
    assert (T3 : turn (3 + 4 * k) = (k, 3%nat)) by (cbn [Nat.add turn]; rewrite turn_four; reflexivity). rewrite T3. reflexivity. }
  intros k. destruct (INV k) as (_ & CK & _). apply CK.
Qed.

(** ** C70.  Recording never waits *)
(** A call of a recording method takes three steps of its own thread.  Each of them is possible at once,
    whatever the reader and the other recorders have done meanwhile, even if one of them holds the mutex
    for ever; nothing can make the recorder wait. *)
Lemma C70_recording_never_waits_proof : forall h0 tr st i r o t1 t2, run h0 tr st -> nth_error (s_recs st) i = Some r -> r_pc r = PReady ->
  op_ok (h_ctr h0) o -> Forall (others i) t1 -> Forall (others i) t2 -> Forall (label_ok (h_ctr h0)) (t1 ++ t2) ->
  exists st1, step st (LWrite i o) = Some st1 /\
  forall st2, exec st1 t1 = Some st2 -> exists st3, step st2 (LLoad i) = Some st3 /\
  forall st4, exec st3 t2 = Some st4 -> exists st5, step st4 (LFinish i) = Some st5 /\
  exists r', nth_error (s_recs st5) i = Some r' /\ r_pc r' = PReady.
Proof.
  intros h0 tr st i r o t1 t2 RN J P OK F1 F2 LO. apply Forall_app in LO. destruct LO as [LO1 LO2].
  assert (KEEP : forall t s0 s1 x, Forall (others i) t -> exec s0 t = Some s1 -> nth_error (s_recs s0) i = Some x -> nth_error (s_recs s1) i = Some x).
  { induction t as [|l t IH]; intros s0 s1 x F E N; cbn in E; [injection E as <-; exact N|].
    inversion F as [|? ? [M NF] F']; subst. destruct (step s0 l) as [s'|] eqn:ST; [|discriminate]. apply (IH s' s1 x F' E). apply (kept _ _ _ _ _ ST M NF N). }
  assert (EXT : forall tr0 s0 l s1, run h0 tr0 s0 -> label_ok (h_ctr h0) l -> step s0 l = Some s1 -> run h0 (tr0 ++ [l]) s1).
  { intros tr0 s0 l s1 (A & B & D) L E. split; [exact A|]. split; [apply Forall_app; auto|]. rewrite exec_app, D. cbn. rewrite E. reflexivity. }
  assert (EXTS : forall t tr0 s0 s1, run h0 tr0 s0 -> Forall (label_ok (h_ctr h0)) t -> exec s0 t = Some s1 -> run h0 (tr0 ++ t) s1).
  { intros t tr0 s0 s1 (A & B & D) L E. split; [exact A|]. split; [apply Forall_app; auto|]. rewrite exec_app, D. exact E. }
  destruct (typed_run h0 tr st RN) as (_ & _ & T). pose proof (nth_Forall _ _ _ _ T J) as [R1 CT]. destruct r as [b p k]. cbn in P, R1, CT. subst k.
  rewrite <- CT in OK. destruct (op_facts _ o R1 OK) as (h' & ok & EO & _). rewrite CT in OK.
  eexists. split; [cbn [step]; rewrite J, EO; reflexivity|]. intros st2 E2.
  match type of E2 with exec ?x _ = _ => set (st1 := x) in * end.
  assert (S1 : step st (LWrite i o) = Some st1) by (cbn [step]; rewrite J, EO; reflexivity).
  pose proof (EXT _ _ _ _ RN (OK : label_ok (h_ctr h0) (LWrite i o)) S1) as RN1. pose proof (EXTS _ _ _ _ RN1 LO1 E2) as RN2.
  assert (J1 : exists b1, nth_error (s_recs st1) i = Some (Rec b1 p PWrote)) by (eexists; cbn; apply put_same; eapply nth_lt; eauto).
  destruct J1 as (b1 & J1). pose proof (KEEP _ _ _ _ F1 E2 J1) as J2.
  eexists. split; [cbn [step]; rewrite J2; reflexivity|]. intros st4 E4.
  match type of E4 with exec ?x _ = _ => set (st3 := x) in * end.
  assert (S3 : step st2 (LLoad i) = Some st3) by (cbn [step]; rewrite J2; reflexivity).
  pose proof (EXT _ _ _ _ RN2 (Logic.I : label_ok (h_ctr h0) (LLoad i)) S3) as RN3. pose proof (EXTS _ _ _ _ RN3 LO2 E4) as RN4.
  assert (J3 : nth_error (s_recs st3) i = Some (Rec b1 p (PLoaded (s_phase st2)))) by (cbn; apply put_same; eapply nth_lt; eauto).
  pose proof (KEEP _ _ _ _ F2 E4 J3) as J4.
  destruct (typed_run h0 _ st4 RN4) as (_ & _ & T4). pose proof (nth_Forall _ _ _ _ T4 J4) as TB. cbn in TB. destruct (shed_returns _ _ TB) as (n & SH).
  cbn [step]. rewrite J4. destruct (s_phase st2 =? p).
  - eexists. split; [reflexivity|]. eexists. split; [cbn; apply put_same; eapply nth_lt; eauto|reflexivity].
  - rewrite SH. eexists. split; [reflexivity|]. eexists. split; [cbn; rewrite send_recs; apply put_same; eapply nth_lt; eauto|reflexivity].
Qed.
(*EX
(** recorder 1 records while recorder 0 holds the mutex for ever and the reader waits for it *)
Example ex_C70 : match build U64 1 1000 2 false [] with
  | Some h =>
      reachable h /\ match exec (init h) [RRecorder; RRecorder; RStart false; REmpty; LIdle 0] with
      | Some st => s_lock st = Held 0 /\ s_reader st = RCount false /\ step st RRead = None
      | None => False end /\
      match exec (init h) [RRecorder; RRecorder; RStart false; REmpty; LIdle 0; LWrite 1 (ORecord 7 1); LLoad 1; LFinish 1] with
      | Some st => s_lock st = Held 0 /\ map r_pc (s_recs st) = [PIdling; PReady] /\ length (s_history st) = 1%nat
      | None => False end
  | None => False end.
Proof. case_of. Qed.
EX*)

(** Nobody holds the mutex for long: whoever holds it can release it with at most two steps of their own,
    which nothing can prevent. *)
Lemma C70_mutex_released_proof : forall h0 tr st i, run h0 tr st -> s_lock st = Held i ->
  exists tr2 st2, (length tr2 <= 2)%nat /\ Forall (section_step i) tr2 /\ exec st tr2 = Some st2 /\ s_lock st2 = Free.
Proof.
  intros h0 tr st i RN L. pose proof RN as (R & F & E). destruct (lock_exec h0 tr st E) as [LA LB]. destruct (LB i L) as (r & J & CR).
  assert (ONE : forall st r, nth_error (s_recs st) i = Some r -> lock_ok st -> s_lock st = Held i -> r_pc r <> PIdling ->
     (exists l st', section_step i l /\ step st l = Some st') -> exists l st', section_step i l /\ step st l = Some st' /\ s_lock st' = Free).
  { intros s0 r0 J0 LO L0 N (l & st' & SS & ST). exists l, st'. split; [exact SS|]. split; [exact ST|].
    assert (M : moves i l) by (destruct SS as [-> | [-> | [-> | ->]]]; reflexivity).
    destruct (release _ _ _ _ _ LO ST L0 M J0) as [X|(X & _)]; [exact X|contradiction]. }
  destruct (C45_mutex_proof h0 tr st i r RN J) as [_ EN]. destruct (EN L) as (l & st' & SS & ST).
  assert (M : moves i l) by (destruct SS as [-> | [-> | [-> | ->]]]; reflexivity).
  destruct (release _ _ _ _ _ (lock_exec h0 tr st E) ST L M J) as [X|(X & L' & r' & q & J' & P')].
  - exists [l], st'. split; [cbn; lia|]. split; [constructor; auto|]. split; [cbn; rewrite ST; reflexivity|exact X].
  - assert (LO : label_ok (h_ctr h0) l) by (destruct SS as [-> | [-> | [-> | ->]]]; exact Logic.I).
    assert (RN' : run h0 (tr ++ [l]) st') by (split; [exact R|split; [apply Forall_app; auto|rewrite exec_app, E; cbn; rewrite ST; reflexivity]]).
    destruct (C45_mutex_proof h0 _ st' i r' RN' J') as [_ EN'].
    destruct (ONE st' r' J' (lock_step _ _ _ (lock_exec h0 tr st E) ST) L' ltac:(congruence) (EN' L')) as (l2 & st2 & SS2 & ST2 & X2).
    exists [l; l2], st2. split; [cbn; lia|]. split; [constructor; auto|]. split; [cbn; rewrite ST, ST2; reflexivity|exact X2].
Qed.
(*EX
Example ex_C70_released : match build U64 1 1000 2 false [] with
  | Some h =>
      let tr := [RRecorder; RRecorder; RStart false; REmpty; LIdle 0] in
      match exec (init h) tr with
      | Some st => run h tr st /\ s_lock st = Held 0 /\ Forall (section_step 0) [LIdleLoad 0; LIdleEnd 0] /\
          match exec st [LIdleLoad 0; LIdleEnd 0] with Some st2 => s_lock st2 = Free | None => False end
      | None => False end
  | None => False end.
Proof. sync_case. Qed.
EX*)
