(** * What does not depend on the phase and on the number of recorders

    Executions in which, between any two actions, the phase and the number of recorders may become anything. *)
From Coq Require Import Permutation.
From Verif Require Import Machine HistModel Bins ListZ Cfg Wf Ops AddFacts SubFacts Exact MoreFacts HeldFacts PfRecord PfMerge Spec Reach SyncModel SyncSpec SyncOps SyncFacts SyncRefresh PfSync
  LiveSpec LiveFacts WeakModel WeakSpec WeakFacts ReleaseSyncModel ReleaseSyncSpec ReleaseSyncFacts PfDeliver.

Definition loose (s : state) (l : label) (s' : state) : Prop :=
  exists p c s1 q c', step (put_count (with_phase s p) c) l = Some s1 /\ s' = put_count (with_phase s1 q) c'.
Inductive lexec : state -> list label -> state -> Prop :=
| lnil s : lexec s [] s
| lcons s l s1 tr s2 : loose s l s1 -> lexec s1 tr s2 -> lexec s (l :: tr) s2.
Lemma lexec_app s a b s2 : lexec s (a ++ b) s2 <-> exists s1, lexec s a s1 /\ lexec s1 b s2.
Proof.
  revert s. induction a as [|l a IH]; intros s; cbn [app].
  - split; [intros E; exists s; split; [constructor|exact E]|intros (s1 & E1 & E2); inversion E1; subst; exact E2].
  - split.
    + intros E. inversion E as [|? ? s1 ? ? L E1]; subst. apply IH in E1. destruct E1 as (s3 & X1 & X2). exists s3. split; [econstructor; eauto|exact X2].
    + intros (s3 & E1 & E2). inversion E1 as [|? ? s1 ? ? L E3]; subst. econstructor; [exact L|]. apply IH. eauto.
Qed.
Lemma lexec_snoc s tr l s2 : lexec s (tr ++ [l]) s2 -> exists s1, lexec s tr s1 /\ loose s1 l s2.
Proof. intros E. apply lexec_app in E. destruct E as (s1 & E1 & E2). exists s1. split; [exact E1|]. inversion E2 as [|? ? ? ? ? L E3]; subst. inversion E3; subst. exact L. Qed.
Lemma loose_lift (I : state -> Prop) s l s' :
  (forall s s', I s -> step s l = Some s' -> I s') -> (forall s p, I s -> I (with_phase s p)) -> (forall s c, I s -> I (put_count s c)) ->
  I s -> loose s l s' -> I s'.
Proof. intros H P C I0 (p & c & s1 & q & c' & S & ->). apply C, P. apply (H (put_count (with_phase s p) c)); auto. Qed.
Lemma lexec_lift (I : state -> Prop) (Q : label -> Prop) s tr s' :
  (forall s l s', I s -> Q l -> step s l = Some s' -> I s') -> (forall s p, I s -> I (with_phase s p)) -> (forall s c, I s -> I (put_count s c)) ->
  I s -> Forall Q tr -> lexec s tr s' -> I s'.
Proof.
  intros H P C. revert s. induction tr as [|l tr IH]; intros s I0 F E; inversion E as [|? ? s1 ? ? L E1]; subst; [exact I0|].
  inversion F; subst. apply (IH s1); auto. apply (loose_lift I s l s1); auto. intros x x' I1 S1. apply (H x l x'); auto.
Qed.
Definition lrun (h0 : hist) (tr : list label) (s : state) : Prop := reachable h0 /\ Forall (label_ok (h_ctr h0)) tr /\ lexec (init h0) tr s.
Lemma lboxes (P Pm : box -> Prop) (Q : label -> Prop) h0 tr s :
  (forall b i o h ok n, P b -> Q (LWrite i o) -> apply_op (b_hist b) o = Ret (h, ok) -> P (Box h (b_log b ++ [Call n i o ok]))) ->
  (forall b n, P b -> new_from (h_ctr (b_hist b)) (b_hist b) = Ret n -> P (Box n [])) ->
  (forall b n, Pm b -> new_from (h_ctr (b_hist b)) (b_hist b) = Ret n -> P (Box n [])) ->
  (forall m b m', Pm m -> P b -> merge m b = Some m' -> Pm m') -> (forall h, Q (RSet h) -> Pm (Box h [])) ->
  Pm (Box h0 []) -> Forall Q tr -> lexec (init h0) tr s -> boxes_ok P Pm s.
Proof.
  intros A1 A2 A3 A4 A5 B F E. apply (lexec_lift (boxes_ok P Pm) Q (init h0) tr s); auto.
  - intros s2 l s' B1 QL S. eapply boxes_step; eauto.
  - split; [exact B|split; constructor].
Qed.
Lemma llock_ok h0 tr s : lexec (init h0) tr s -> lock_ok s.
Proof.
  intros E. apply (lexec_lift lock_ok (fun _ => True) (init h0) tr s); auto using all_true.
  - intros s2 l s' I _ S. eapply lock_step; eauto.
  - split; cbn; [intros [|]; discriminate|discriminate].
Qed.
Lemma lplaced h0 tr s : Forall not_set tr -> lexec (init h0) tr s -> placed s.
Proof.
  intros F E. apply (lexec_lift placed not_set (init h0) tr s); auto.
  - intros s2 l s' I Q S. eapply placed_step; eauto.
  - intros _. apply Permutation_refl.
Qed.
Lemma lhistory_step s l s' : loose s l s' ->
  (s_history s' = s_history s /\ writes [l] = []) \/
  (exists i o ok, l = LWrite i o /\ s_history s' = s_history s ++ [Call (length (s_history s)) i o ok]).
Proof. intros (p & c & s1 & q & c' & S & ->). cbn. apply history_step in S. exact S. Qed.
Lemma lhistory h0 tr s : lexec (init h0) tr s ->
  map c_id (s_history s) = seq 0 (length (s_history s)) /\
  map (fun c => (c_rec c, c_op c)) (s_history s) = writes tr.
Proof.
  revert s. induction tr as [|l tr IH] using rev_ind; intros s E.
  - inversion E; subst. auto.
  - apply lexec_snoc in E. destruct E as (s1 & E1 & E2). destruct (IH _ E1) as [H1 H2].
    unfold writes. rewrite flat_map_app. fold (writes tr) (writes [l]).
    destruct (lhistory_step _ _ _ E2) as [(-> & ->)|(i & o & ok & -> & ->)].
    + rewrite app_nil_r. auto.
    + rewrite !map_app, app_length, seq_app, H1, H2. auto.
Qed.
Lemma llike h0 tr s : lrun h0 tr s -> merged_untouched tr -> boxes_ok (like h0) (like h0) s.
Proof.
  intros (R & F & E) U. apply untouched_not_set in U.
  apply (lboxes (like h0) (like h0) (fun l => label_ok (h_ctr h0) l /\ not_set l) h0 tr); auto.
  - intros b i o h ok n L [K _] A. eapply like_op; eauto.
  - intros b n. apply like_new.
  - intros b n. apply like_new.
  - apply like_merge.
  - intros h [_ []].
  - split; [exact R|]. split; [apply same_shape_refl|]. split; auto. constructor.
  - apply Forall_forall. intros l I. rewrite Forall_forall in F, U. auto.
Qed.
Lemma lfilled h0 tr s : lrun h0 tr s -> merged_untouched tr -> only_adds_samples tr ->
  boxes_ok (filled h0 (fun _ => 0) 0) (filled h0 (zn (h_counts h0)) (h_total h0)) s.
Proof.
  intros (R & F & E) U AD. apply untouched_not_set in U. apply adds_labels in AD. pose proof (reachable_wf h0 R) as W0.
  apply (lboxes (filled h0 (fun _ => 0) 0) (filled h0 (zn (h_counts h0)) (h_total h0))
           (fun l => label_ok (h_ctr h0) l /\ not_set l /\ adds_label l) h0 tr); auto.
  - intros b i o h ok n [L C] (K & _ & A) EO. split; [eapply like_op; eauto|]. cbn [b_hist b_log]. rewrite samples_app.
    cbn [samples flat_map]. rewrite app_nil_r. destruct L as (RB & SB & _). cbn [label_ok] in K.
    apply (op_content h0 (fun _ => 0) 0 (b_hist b) _ o _ ok); auto. rewrite (ss_ctr _ _ SB). auto.
  - intros b n [L C] EN. split; [eapply like_new; eauto|]. intros _. cbn. destruct L as (RB & SB & _).
    destruct (new_from_reach _ RB) as (n' & E' & _ & _ & _ & T & Z). rewrite E' in EN. injection EN as <-. split; auto.
  - intros b n [L C] EN. split; [eapply like_new; eauto|]. intros _. cbn. destruct L as (RB & SB & _).
    destruct (new_from_reach _ RB) as (n' & E' & _ & _ & _ & T & Z). rewrite E' in EN. injection EN as <-. split; auto.
  - intros m b m' [LM CM] [LB CB] E'. split; [exact (like_merge _ _ _ _ LM LB E')|]. apply merge_inv in E'. destruct E' as (h & [] & EA & ->).
    cbn [b_hist b_log]. rewrite samples_app. destruct LM as (RM & SM & _ & OM). destruct LB as (RB & SB & _ & OB).
    apply (merge_content h0 _ _ (b_hist m) _ (b_hist b)); auto.
    + intros. apply zn_nonneg, wf_nonneg; auto.
    + apply wf_total_nonneg; auto.
    + eapply samples_ok; eauto.
    + eapply samples_ok; eauto.
  - intros h (_ & [] & _).
  - split.
    + split; [exact R|]. split; [apply same_shape_refl|]. split; auto. constructor.
    + intros _. cbn. split; [intros; lia|lia].
  - apply Forall_forall. intros l I. rewrite Forall_forall in F, U, AD. auto.
Qed.
Lemma ltyped h0 tr s : lrun h0 tr s -> boxes_ok (typed (h_ctr h0)) (typed (h_ctr h0)) s.
Proof.
  intros (R & F & E).
  apply (lboxes (typed (h_ctr h0)) (typed (h_ctr h0)) (label_ok (h_ctr h0)) h0 tr); auto.
  - intros b i o h ok n [L C] K A. cbn [label_ok] in K. rewrite <- C in K. destruct (op_reach _ _ _ _ L K A) as (R' & S' & _).
    split; [exact R'|]. cbn. rewrite (ss_ctr _ _ S'). auto.
  - intros b n [L C] EN. destruct (new_from_reach _ L) as (n' & E' & R' & S' & _). rewrite E' in EN. injection EN as <-.
    split; [exact R'|]. cbn. rewrite (ss_ctr _ _ S'). auto.
  - intros b n [L C] EN. destruct (new_from_reach _ L) as (n' & E' & R' & S' & _). rewrite E' in EN. injection EN as <-.
    split; [exact R'|]. cbn. rewrite (ss_ctr _ _ S'). auto.
  - intros m b m' [RM CM] [RB CB] E'. apply merge_inv in E'. destruct E' as (h & [] & A & ->).
    assert (CT : h_ctr (b_hist m) = h_ctr (b_hist b)) by congruence.
    split; [eapply (reach_add _ _ _ (ROk tt) RM RB); auto|]. cbn.
    destruct (add_ok _ _ (reachable_wf _ RM) (reachable_wf _ RB) CT) as [(_ & A')|[(_ & _ & _ & A')|(_ & _ & h1 & A' & AD & _)]];
      rewrite A' in A; inversion A; subst; auto. rewrite (ss_ctr _ _ (ad_shape _ _ _ AD)). auto.
  - split; auto.
Qed.
Lemma lhistory_ok h0 tr s : lrun h0 tr s -> log_ok (h_ctr h0) (s_history s).
Proof.
  intros (R & F & E). destruct (lhistory _ _ _ E) as [_ H]. apply Forall_forall. intros c I.
  assert (H0 : In (c_rec c, c_op c) (writes tr)). { rewrite <- H. apply (in_map (fun c => (c_rec c, c_op c))). auto. }
  unfold writes in H0. apply in_flat_map in H0. destruct H0 as (l & L1 & L2). destruct l; cbn in L2; try contradiction.
  destruct L2 as [L2|[]]. assert (L3 : c_op c = o) by congruence. rewrite L3. rewrite Forall_forall in F. apply (F _ L1).
Qed.

Lemma lno_panic h0 tr : forall s, lrun h0 tr s -> merged_untouched tr -> merge_safe h0 -> s_reader s <> RPanicked.
Proof.
  induction tr as [|l tr IH] using rev_ind; intros s RN U SF.
  - destruct RN as (_ & _ & E). inversion E; subst. discriminate.
  - destruct RN as (R & F & E). apply lexec_snoc in E. destruct E as (s1 & E1 & (p & c & s2 & q & c' & S & ->)). apply Forall_app in F. destruct F as [F _].
    assert (U1 : merged_untouched tr) by (eapply untouched_app; eauto). assert (RN1 : lrun h0 tr s1) by (split; [|split]; auto).
    pose proof (IH s1 RN1 U1 SF) as N1. pose proof (llike h0 tr s1 RN1 U1) as B. cbn.
    apply (no_panic_step h0 (put_count (with_phase s1 p) c) l s2 SF R B N1 S).
Qed.
