(** * Invariants of the concurrent histogram in builds without overflow checks *)
From Coq Require Import Permutation.
From Verif Require Import Machine HistModel Bins ListZ Cfg Wf Ops AddFacts SubFacts Exact MoreFacts HeldFacts PfRecord PfMerge Spec Reach SyncModel SyncSpec SyncOps SyncFacts SyncRefresh PfSync
  LiveSpec LiveFacts WeakModel WeakSpec WeakFacts ReleaseSyncModel ReleaseSyncSpec.

Lemma rexec_app w a b : rexec w (a ++ b) = match rexec w a with Some w' => rexec w' b | None => None end.
Proof. revert w; induction a as [|l a IH]; intros w; cbn [rexec app]; auto. destruct (rstep w l); auto. Qed.
Lemma rexec_snoc w tr a w' : rexec w (tr ++ [a]) = Some w' -> exists w1, rexec w tr = Some w1 /\ rstep w1 a = Some w'.
Proof.
  rewrite rexec_app. destruct (rexec w tr) as [w1|]; [|discriminate]. cbn [rexec]. intros E. exists w1. split; auto.
  destruct (rstep w1 a); congruence.
Qed.
Definition put_count (s : state) (c : Z) : state := put_lock s (s_lock s) c.
Lemma at_count_id w : at_count w (s_count (w_st w)) = w.
Proof. destruct w as [[] ? ? ?]. reflexivity. Qed.
Lemma rstep_inv w l k w' : rstep w (l, k) = Some w' -> exists c w1 c', wstep (at_count w c) (l, k) = Some w1 /\ w' = at_count w1 c' /\
  (counts l = 0 -> c = s_count (w_st w) /\ c' = s_count (w_st w1)) /\ (counts l <> 0 -> c = 1 /\ c' = (s_count (w_st w) + counts l) mod (usize_max + 1)).
Proof.
  unfold rstep. cbn [fst]. destruct (Z.eqb_spec (counts l) 0) as [Q|Q]; intros E.
  - exists (s_count (w_st w)), w', (s_count (w_st w')). rewrite !at_count_id. split; [exact E|]. split; [reflexivity|]. split; [auto|lia].
  - destruct (wstep (at_count w 1) (l, k)) as [w1|] eqn:S; [|discriminate]. injection E as <-. exists 1, w1, ((s_count (w_st w) + counts l) mod (usize_max + 1)).
    split; [exact S|]. split; [reflexivity|]. split; [lia|auto].
Qed.
(** every invariant of [step] that mentions neither the phase nor the number of recorders is one of [rstep] *)
Lemma rstep_lift (I : state -> Prop) w l k w' :
  (forall s s', I s -> step s l = Some s' -> I s') -> (forall s p, I s -> I (with_phase s p)) -> (forall s c, I s -> I (put_count s c)) ->
  I (w_st w) -> rstep w (l, k) = Some w' -> I (w_st w').
Proof.
  intros H P C I0 E. destruct (rstep_inv _ _ _ _ E) as (c & w1 & c' & S & -> & _). cbn. apply C.
  apply (wstep_lift I (at_count w c) l k w1); auto. cbn. apply C. exact I0.
Qed.
Lemma rexec_lift (I : state -> Prop) (Q : label -> Prop) w tr w' :
  (forall s l s', I s -> Q l -> step s l = Some s' -> I s') -> (forall s p, I s -> I (with_phase s p)) -> (forall s c, I s -> I (put_count s c)) ->
  I (w_st w) -> Forall Q (acts tr) -> rexec w tr = Some w' -> I (w_st w').
Proof.
  intros H P C. revert w. induction tr as [|[l k] tr IH]; intros w I0 F E; cbn [rexec] in E; [injection E as <-; exact I0|].
  inversion F; subst. destruct (rstep w (l, k)) as [w1|] eqn:S; [|discriminate]. apply (IH w1); auto.
  apply (rstep_lift I w l k w1); auto. intros s s' I1 S1. apply (H s l s'); auto.
Qed.
Lemma rboxes (P Pm : box -> Prop) (Q : label -> Prop) h0 tr w :
  (forall b i o h ok n, P b -> Q (LWrite i o) -> apply_op (b_hist b) o = Ret (h, ok) -> P (Box h (b_log b ++ [Call n i o ok]))) ->
  (forall b n, P b -> new_from (h_ctr (b_hist b)) (b_hist b) = Ret n -> P (Box n [])) ->
  (forall b n, Pm b -> new_from (h_ctr (b_hist b)) (b_hist b) = Ret n -> P (Box n [])) ->
  (forall m b m', Pm m -> P b -> merge m b = Some m' -> Pm m') -> (forall h, Q (RSet h) -> Pm (Box h [])) ->
  Pm (Box h0 []) -> Forall Q (acts tr) -> rexec (winit h0) tr = Some w -> boxes_ok P Pm (w_st w).
Proof.
  intros A1 A2 A3 A4 A5 B F E. apply (rexec_lift (boxes_ok P Pm) Q (winit h0) tr w); auto.
  - intros s l s' B1 QL S. eapply boxes_step; eauto.
  - split; [exact B|split; constructor].
Qed.
Lemma rlock_ok h0 tr w : rexec (winit h0) tr = Some w -> lock_ok (w_st w).
Proof.
  intros E. apply (rexec_lift lock_ok (fun _ => True) (winit h0) tr w); auto using all_true.
  - intros s l s' I _ S. eapply lock_step; eauto.
  - split; cbn; [intros [|]; discriminate|discriminate].
Qed.
Lemma rplaced h0 tr w : Forall not_set (acts tr) -> rexec (winit h0) tr = Some w -> placed (w_st w).
Proof.
  intros F E. apply (rexec_lift placed not_set (winit h0) tr w); auto.
  - intros s l s' I Q S. eapply placed_step; eauto.
  - intros _. apply Permutation_refl.
Qed.
Lemma rhistory_step w l k w' : rstep w (l, k) = Some w' ->
  (s_history (w_st w') = s_history (w_st w) /\ writes [l] = []) \/
  (exists i o ok, l = LWrite i o /\ s_history (w_st w') = s_history (w_st w) ++ [Call (length (s_history (w_st w))) i o ok]).
Proof. intros E. destruct (rstep_inv _ _ _ _ E) as (c & w1 & c' & S & -> & _). cbn. apply whistory_step in S. exact S. Qed.
Lemma rhistory h0 tr w : rexec (winit h0) tr = Some w ->
  map c_id (s_history (w_st w)) = seq 0 (length (s_history (w_st w))) /\
  map (fun c => (c_rec c, c_op c)) (s_history (w_st w)) = writes (acts tr).
Proof.
  revert w. induction tr as [|[l k] tr IH] using rev_ind; intros w E.
  - cbn in E. injection E as <-. auto.
  - apply rexec_snoc in E. destruct E as (w1 & E1 & E2). destruct (IH _ E1) as [H1 H2]. rewrite acts_app.
    unfold writes. rewrite flat_map_app. fold (writes (acts tr)) (writes [l]). cbn [acts map fst]. fold (writes [l]).
    destruct (rhistory_step _ _ _ _ E2) as [(-> & ->)|(i & o & ok & -> & ->)].
    + rewrite app_nil_r. auto.
    + rewrite !map_app, app_length, seq_app, H1, H2. auto.
Qed.
Lemma rrun_app h0 a b w w' : rrun h0 a w -> Forall (label_ok (h_ctr h0)) (acts b) -> rexec w b = Some w' -> rrun h0 (a ++ b) w'.
Proof.
  intros (R & F & E) L E'. split; [exact R|]. split; [rewrite acts_app; apply Forall_app; auto|]. rewrite rexec_app, E. exact E'.
Qed.
Lemma rrun_cut h0 a b w : rrun h0 (a ++ b) w -> exists w1, rrun h0 a w1 /\ rexec w1 b = Some w.
Proof.
  intros (R & F & E). rewrite acts_app in F. apply Forall_app in F. destruct F as [F _]. rewrite rexec_app in E.
  destruct (rexec (winit h0) a) as [w1|] eqn:E1; [|discriminate]. exists w1. split; auto. split; auto.
Qed.
Lemma rlike h0 tr w : rrun h0 tr w -> merged_untouched (acts tr) -> boxes_ok (like h0) (like h0) (w_st w).
Proof.
  intros (R & F & E) U. apply untouched_not_set in U.
  apply (rboxes (like h0) (like h0) (fun l => label_ok (h_ctr h0) l /\ not_set l) h0 tr); auto.
  - intros b i o h ok n L [K _] A. eapply like_op; eauto.
  - intros b n. apply like_new.
  - intros b n. apply like_new.
  - apply like_merge.
  - intros h [_ []].
  - split; [exact R|]. split; [apply same_shape_refl|]. split; auto. constructor.
  - apply Forall_forall. intros l I. rewrite Forall_forall in F, U. auto.
Qed.
Lemma rfilled h0 tr w : rrun h0 tr w -> merged_untouched (acts tr) -> only_adds_samples (acts tr) ->
  boxes_ok (filled h0 (fun _ => 0) 0) (filled h0 (zn (h_counts h0)) (h_total h0)) (w_st w).
Proof.
  intros (R & F & E) U AD. apply untouched_not_set in U. apply adds_labels in AD. pose proof (reachable_wf h0 R) as W0.
  apply (rboxes (filled h0 (fun _ => 0) 0) (filled h0 (zn (h_counts h0)) (h_total h0))
           (fun l => label_ok (h_ctr h0) l /\ not_set l /\ adds_label l) h0 tr); auto.
  - intros b i o h ok n [L C] (K & _ & A) EO. split; [eapply like_op; eauto|]. cbn [b_hist b_log]. rewrite samples_app.
    cbn [samples flat_map]. rewrite app_nil_r. destruct L as (RB & SB & _). cbn [label_ok] in K.
    apply (op_content h0 (fun _ => 0) 0 (b_hist b) _ o _ ok); auto. rewrite (ss_ctr _ _ SB). auto.
  - intros b n [L C] EN. split; [eapply like_new; eauto|]. intros _. cbn. destruct L as (RB & SB & _).
    destruct (new_from_reach _ RB) as (n' & E' & _ & _ & _ & T & Z). rewrite E' in EN. injection EN as <-. split; auto.
  - intros b n [L C] EN. split; [eapply like_new; eauto|]. intros _. cbn. destruct L as (RB & SB & _).
    destruct (new_from_reach _ RB) as (n' & E' & _ & _ & _ & T & Z). rewrite E' in EN. injection EN as <-. split; auto.
  - intros m b m' [LM CM] [LB CB] E'. split; [exact (like_merge _ _ _ _ LM LB E')|]. apply merge_inv in E'. destruct E' as (h & [] & EA & ->).
    cbn [b_hist b_log]. rewrite samples_app. destruct LM as (RM & SM & _ & OM). destruct LB as (RB & SB & _ & OB).
    apply (merge_content h0 _ _ (b_hist m) _ (b_hist b)); auto.
    + intros. apply zn_nonneg, wf_nonneg; auto.
    + apply wf_total_nonneg; auto.
    + eapply samples_ok; eauto.
    + eapply samples_ok; eauto.
  - intros h (_ & [] & _).
  - split.
    + split; [exact R|]. split; [apply same_shape_refl|]. split; auto. constructor.
    + intros _. cbn. split; [intros; lia|lia].
  - apply Forall_forall. intros l I. rewrite Forall_forall in F, U, AD. auto.
Qed.
Lemma rtyped h0 tr w : rrun h0 tr w -> boxes_ok (typed (h_ctr h0)) (typed (h_ctr h0)) (w_st w).
Proof.
  intros (R & F & E).
  apply (rboxes (typed (h_ctr h0)) (typed (h_ctr h0)) (label_ok (h_ctr h0)) h0 tr); auto.
  - intros b i o h ok n [L C] K A. cbn [label_ok] in K. rewrite <- C in K. destruct (op_reach _ _ _ _ L K A) as (R' & S' & _).
    split; [exact R'|]. cbn. rewrite (ss_ctr _ _ S'). auto.
  - intros b n [L C] EN. destruct (new_from_reach _ L) as (n' & E' & R' & S' & _). rewrite E' in EN. injection EN as <-.
    split; [exact R'|]. cbn. rewrite (ss_ctr _ _ S'). auto.
  - intros b n [L C] EN. destruct (new_from_reach _ L) as (n' & E' & R' & S' & _). rewrite E' in EN. injection EN as <-.
    split; [exact R'|]. cbn. rewrite (ss_ctr _ _ S'). auto.
  - intros m b m' [RM CM] [RB CB] E'. apply merge_inv in E'. destruct E' as (h & [] & A & ->).
    assert (CT : h_ctr (b_hist m) = h_ctr (b_hist b)) by congruence.
    split; [eapply (reach_add _ _ _ (ROk tt) RM RB); auto|]. cbn.
    destruct (add_ok _ _ (reachable_wf _ RM) (reachable_wf _ RB) CT) as [(_ & A')|[(_ & _ & _ & A')|(_ & _ & h1 & A' & AD & _)]];
      rewrite A' in A; inversion A; subst; auto. rewrite (ss_ctr _ _ (ad_shape _ _ _ AD)). auto.
  - split; auto.
Qed.
Lemma rhistory_ok h0 tr w : rrun h0 tr w -> log_ok (h_ctr h0) (s_history (w_st w)).
Proof.
  intros (R & F & E). destruct (rhistory _ _ _ E) as [_ H]. apply Forall_forall. intros c I.
  assert (H0 : In (c_rec c, c_op c) (writes (acts tr))). { rewrite <- H. apply (in_map (fun c => (c_rec c, c_op c))). auto. }
  unfold writes in H0. apply in_flat_map in H0. destruct H0 as (l & L1 & L2). destruct l; cbn in L2; try contradiction.
  destruct L2 as [L2|[]]. assert (L3 : c_op c = o) by congruence. rewrite L3. rewrite Forall_forall in F. apply (F _ L1).
Qed.

(** ** The number of recorders, and where the two profiles agree *)
Lemma active_sum st : active_recorders st = sumr counted (s_recs st).
Proof.
  unfold active_recorders. induction (s_recs st) as [|x l IH]; [reflexivity|].
  unfold sumr in *. cbn [map fold_right filter]. rewrite <- IH. unfold counted. destruct (is_active x); cbn [length]; lia.
Qed.
Lemma sum_put st i x y : nth_error (s_recs st) i = Some x -> sumr counted (put (s_recs st) i y) = sumr counted (s_recs st) - counted x + counted y.
Proof. apply sumr_put. Qed.
Lemma step_active st l st' : step st l = Some st' -> s_lock st' <> Poisoned ->
  sumr counted (s_recs st') = sumr counted (s_recs st) + counts l + forgotten [l].
Proof.
  intros E L. destruct l; step_cases E; unfold forgotten; cbn [counts filter length Z.of_nat];
    try (destruct (L eq_refl));
    try (apply push_inv in E; destruct E as (n & _ & ->); cbn; rewrite sumr_app; unfold counted, is_active; cbn; lia);
    try (destruct (receive_fields _ _ _ E) as (-> & _); lia);
    cbn; rewrite ?send_recs; cbn; try lia;
    try (match goal with K : nth_error _ _ = Some _ |- _ => rewrite (sum_put _ _ _ _ K); unfold counted, is_active; cbn; lia end).
Qed.
Lemma step_free st l st' : step st l = Some st' -> s_lock st <> Poisoned -> 1 <= s_count st <= 1 -> s_lock st' <> Poisoned.
Proof.
  intros E L C. assert (C1 : s_count st = 1) by lia.
  destruct l; step_cases E; try exact L; cbn; rewrite ?send_lock; cbn; try discriminate; try congruence;
    try (apply push_inv in E; destruct E as (n & _ & ->); cbn; discriminate);
    try (unfold count_up, usize_add, count_down, usize_sub in *; rewrite C1 in *; discriminate);
    try (destruct (receive_fields _ _ _ E) as (_ & -> & _); exact L).
Qed.
Lemma counted_up c : 0 <= c + 1 <= usize_max -> usize_add c 1 = Ret (c + 1).
Proof. intros H. unfold usize_add, in_range. destruct (Z.leb_spec 0 (c + 1)); [|lia]. destruct (Z.leb_spec (c + 1) usize_max); [reflexivity|lia]. Qed.
Lemma counted_down c : 0 <= c - 1 <= usize_max -> usize_sub c 1 = Ret (c - 1).
Proof. intros H. unfold usize_sub, in_range. destruct (Z.leb_spec 0 (c - 1)); [|lia]. destruct (Z.leb_spec (c - 1) usize_max); [reflexivity|lia]. Qed.
Lemma counted_up_inv c x : usize_add c 1 = Ret x -> x = c + 1 /\ 0 <= c + 1 <= usize_max.
Proof. unfold usize_add, in_range. destruct (Z.leb_spec 0 (c + 1)); [|discriminate]. destruct (Z.leb_spec (c + 1) usize_max); [|discriminate]. intros E. injection E as <-. lia. Qed.
Lemma counted_down_inv c x : usize_sub c 1 = Ret x -> x = c - 1 /\ 0 <= c - 1 <= usize_max.
Proof. unfold usize_sub, in_range. destruct (Z.leb_spec 0 (c - 1)); [|discriminate]. destruct (Z.leb_spec (c - 1) usize_max); [|discriminate]. intros E. injection E as <-. lia. Qed.
Lemma push_count st c c' h p : push_rec (put_lock st Free c) h p =
  match push_rec (put_lock st Free c') h p with Some s => Some (put_count s c) | None => None end.
Proof. unfold push_rec. destruct (new_from (h_ctr h) h); reflexivity. Qed.
Lemma push_lock st c h p s : push_rec (put_lock st Free c) h p = Some s -> s_lock s = Free /\ s_count s = c.
Proof. intros E. apply push_inv in E. destruct E as (n & _ & ->). auto. Qed.
Lemma step_counts_to st l st' : counts l <> 0 -> step st l = Some st' -> s_lock st' <> Poisoned ->
  0 <= s_count st + counts l <= usize_max /\ s_count st' = s_count st + counts l /\
  exists s1, step (put_count st 1) l = Some s1 /\ st' = put_count s1 (s_count st + counts l).
Proof.
  intros N E L. destruct l; cbn [counts] in *; try lia; step_cases E; try (destruct (L eq_refl)); unfold count_up, count_down in *;
    match goal with
    | H : usize_add _ 1 = Ret _ |- _ => apply counted_up_inv in H; destruct H as [-> H]
    | H : usize_sub _ 1 = Ret _ |- _ => apply counted_down_inv in H; destruct H as [-> H] end;
    (split; [lia|]);
    try (destruct (push_lock _ _ _ _ _ E) as [_ EC]; split; [exact EC|]);
    try (split; [reflexivity|]);
    unfold step, put_count, count_up, count_down; cbn [s_recs put_lock s_lock s_count s_reader s_merged s_phase];
    repeat match goal with K : nth_error _ _ = Some _ |- _ => rewrite K | K : s_lock _ = Free |- _ => rewrite K | K : s_reader _ = RReady |- _ => rewrite K end;
    change (usize_add 1 1) with (@Ret Z 2); change (usize_sub 1 1) with (@Ret Z 0); cbn beta iota;
    try (rewrite (push_count st _ 2) in E; fold (put_count st 1);
         match type of E with match ?x with _ => _ end = _ => destruct x as [s1|] eqn:PS end; [|discriminate E]; injection E as <-; exists s1; split; [|reflexivity];
         exact PS);
    (eexists; split; [reflexivity|]); destruct st; reflexivity.
Qed.
Lemma step_counts_from st l s1 : counts l <> 0 -> step (put_count st 1) l = Some s1 -> 0 <= s_count st + counts l <= usize_max ->
  step st l = Some (put_count s1 (s_count st + counts l)).
Proof.
  intros N E L. destruct l; cbn [counts] in *; try lia; unfold step, put_count, count_up, count_down in E; cbn [s_recs put_lock s_lock s_count s_reader s_merged s_phase] in E;
    change (usize_add 1 1) with (@Ret Z 2) in E; change (usize_sub 1 1) with (@Ret Z 0) in E;
    repeat match type of E with
    | (match ?x with _ => _ end) = Some _ => let H := fresh "K" in destruct x eqn:H; try discriminate E
    end; try (injection E as <-);
    unfold step, count_up, count_down; repeat match goal with K : nth_error _ _ = Some _ |- _ => rewrite K | K : s_lock _ = Free |- _ => rewrite K | K : s_reader _ = RReady |- _ => rewrite K end;
    rewrite ?counted_up by lia; rewrite ?counted_down by lia; cbn beta iota;
    try (match type of E with push_rec _ ?h ?p = Some ?s => assert (E2 : push_rec (put_lock st Free 2) h p = Some s) by exact E;
           match goal with |- push_rec (put_lock st Free ?c) _ _ = _ => rewrite (push_count st c 2 h p), E2; reflexivity end end);
    destruct st; reflexivity.
Qed.
Lemma counts_load l : counts l <> 0 -> load_of l = None.
Proof. destruct l; cbn; auto; lia. Qed.
Lemma same_as_checked w l k w' : wstep w (l, k) = Some w' -> s_lock (w_st w') <> Poisoned -> rstep w (l, k) = Some w'.
Proof.
  intros E L. unfold rstep. cbn [fst]. destruct (Z.eqb_spec (counts l) 0) as [Q|Q]; [exact E|].
  pose proof (wstep_other _ _ _ _ (counts_load _ Q) E) as S. destruct (step_counts_to _ _ _ Q S L) as (B & _ & s1 & S1 & EQ).
  destruct l; cbn [counts] in *; try lia; cbn [wstep at_count w_st w_views w_now w_lock] in *; rewrite S in E; injection E as <-;
    fold (put_count (w_st w) 1); rewrite S1; f_equal; cbn [w_st] in *; rewrite EQ; unfold at_count; cbn [w_st w_now w_views w_lock];
    rewrite Z.mod_small by lia; reflexivity.
Qed.
Lemma same_as_release w l k w' : rstep w (l, k) = Some w' -> 0 <= s_count (w_st w) + counts l <= usize_max -> wstep w (l, k) = Some w'.
Proof.
  unfold rstep. cbn [fst]. destruct (Z.eqb_spec (counts l) 0) as [Q|Q]; [auto|]. intros E B.
  destruct (wstep (at_count w 1) (l, k)) as [w1|] eqn:S; [|discriminate]. assert (EQ : w' = at_count w1 ((s_count (w_st w) + counts l) mod (usize_max + 1))) by congruence. clear E. subst w'. assert (MM : (s_count (w_st w) + counts l) mod (usize_max + 1) = s_count (w_st w) + counts l) by (apply Z.mod_small; clear - B; unfold usize_max, u64_max in *; lia). rewrite MM.
  pose proof (wstep_other _ _ _ _ (counts_load _ Q) S) as S1. pose proof (step_counts_from _ _ _ Q S1 B) as S2.
  destruct l; cbn [counts] in *; try lia; cbn [wstep at_count w_st w_views w_now w_lock] in *; fold (put_count (w_st w) 1) in S; rewrite S2;
    destruct (step (put_count (w_st w) 1) _) as [s1|] eqn:SS; try discriminate S; injection S as <-;
    unfold at_count; cbn [w_st w_now w_views w_lock]; reflexivity.
Qed.
Lemma rnot_poisoned_step w l k w' : rstep w (l, k) = Some w' -> s_lock (w_st w) <> Poisoned -> s_lock (w_st w') <> Poisoned.
Proof.
  intros E L. destruct (rstep_inv _ _ _ _ E) as (c & w1 & c' & S & -> & C0 & C1). cbn.
  destruct (Z.eq_dec (counts l) 0) as [Q|Q].
  - destruct (load_of l) as [i|] eqn:LD.
    + destruct (wstep_load _ _ _ _ _ LD S) as (_ & s' & S' & ->). cbn. clear - S' L LD.
      destruct l; try discriminate LD; step_cases S'; cbn; auto; discriminate.
    + apply (wstep_other _ _ _ _ LD) in S. clear - S L Q. cbn in L. assert (L1 : s_lock (w_st (at_count w c)) <> Poisoned) by exact L. revert L1 S. generalize (w_st (at_count w c)), (w_st w1). clear L. intros s s' L S.
      destruct l; cbn [counts] in Q; try lia; step_cases S; cbn; rewrite ?send_lock; cbn; auto; try discriminate; try congruence;
        try (destruct (receive_fields _ _ _ S) as (_ & -> & _); exact L).
  - destruct (C1 Q) as [-> _]. apply (wstep_other _ _ _ _ (counts_load _ Q)) in S. apply (step_free _ _ _ S); cbn; auto; lia.
Qed.
Lemma rnot_poisoned h0 tr w : rexec (winit h0) tr = Some w -> s_lock (w_st w) <> Poisoned.
Proof.
  revert w. induction tr as [|[l k] tr IH] using rev_ind; intros w E; [cbn in E; injection E as <-; discriminate|].
  apply rexec_snoc in E. destruct E as (w1 & E1 & E2). apply (rnot_poisoned_step _ _ _ _ E2), (IH _ E1).
Qed.
Lemma rstep_active w l k w' : rstep w (l, k) = Some w' -> s_lock (w_st w) <> Poisoned ->
  active_recorders (w_st w') = active_recorders (w_st w) + counts l + forgotten [l] /\
  s_count (w_st w') mod (usize_max + 1) = (s_count (w_st w) + counts l) mod (usize_max + 1) /\
  (0 <= s_count (w_st w) <= usize_max -> 0 <= s_count (w_st w') <= usize_max).
Proof.
  intros E L. pose proof (rnot_poisoned_step _ _ _ _ E L) as L'. destruct (rstep_inv _ _ _ _ E) as (c & w1 & c' & S & -> & C0 & C1). rewrite !active_sum. cbn in L' |- *.
  assert (ACT : sumr counted (s_recs (w_st w1)) = sumr counted (s_recs (w_st w)) + counts l + forgotten [l]).
  { destruct (load_of l) as [i|] eqn:LD.
    - destruct (wstep_load _ _ _ _ _ LD S) as (_ & s' & S' & ->). cbn in L' |- *. apply (step_active _ _ _ S' L').
    - apply (step_active _ _ _ (wstep_other _ _ _ _ LD S) L'). }
  split; [exact ACT|]. destruct (Z.eq_dec (counts l) 0) as [Q|Q].
  - destruct (C0 Q) as [-> ->]. rewrite Q, Z.add_0_r. assert (EQ : s_count (w_st w1) = s_count (w_st w)).
    { rewrite at_count_id in S. destruct (load_of l) as [i|] eqn:LD.
      - destruct (wstep_load _ _ _ _ _ LD S) as (_ & s' & S' & ->). cbn. clear - S' LD. destruct l; try discriminate LD; step_cases S'; reflexivity.
      - apply (wstep_other _ _ _ _ LD) in S. revert S Q. clear. generalize (w_st w), (w_st w1). intros s s' S Q.
        destruct l; cbn [counts] in Q; try lia; step_cases S; cbn; try reflexivity; try (match goal with |- s_count (send ?a ?b) = _ => exact (proj1 (proj2 (proj2 (send_fields a b)))) end);
          try (destruct (receive_fields _ _ _ S) as (_ & _ & -> & _); reflexivity). }
    rewrite EQ. auto.
  - destruct (C1 Q) as [_ ->]. rewrite Z.mod_mod by (unfold usize_max, u64_max; lia). split; [reflexivity|].
    intros _. pose proof (Z.mod_pos_bound (s_count (w_st w) + counts l) (usize_max + 1) ltac:(unfold usize_max, u64_max; lia)). lia.
Qed.
Lemma forgotten_snoc tr l : forgotten (tr ++ [l]) = forgotten tr + forgotten [l].
Proof. unfold forgotten. rewrite filter_app, app_length. lia. Qed.
Lemma rcount h0 tr w : rexec (winit h0) tr = Some w -> s_count (w_st w) = (active_recorders (w_st w) - forgotten (acts tr)) mod (usize_max + 1).
Proof.
  intros E. assert (X : s_count (w_st w) mod (usize_max + 1) = (active_recorders (w_st w) - forgotten (acts tr)) mod (usize_max + 1) /\ 0 <= s_count (w_st w) <= usize_max).
  { revert w E. induction tr as [|[l k] tr IH] using rev_ind; intros w E; [cbn in E; injection E as <-; cbn; split; [reflexivity|unfold usize_max, u64_max; lia]|].
    apply rexec_snoc in E. destruct E as (w1 & E1 & E2). destruct (IH _ E1) as [I1 I2]. rewrite acts_app. cbn [acts map fst]. rewrite forgotten_snoc.
    destruct (rstep_active _ _ _ _ E2 (rnot_poisoned _ _ _ E1)) as (A1 & A2 & A3). split; [|apply A3; exact I2].
    rewrite A2, A1, <- Z.add_mod_idemp_l, I1, Z.add_mod_idemp_l by (unfold usize_max, u64_max; lia). f_equal. unfold acts. lia. }
  destruct X as [X1 X2]. rewrite <- X1, Z.mod_small; [reflexivity|lia].
Qed.
Lemma rrecs w l k w' : rstep w (l, k) = Some w' -> (length (s_recs (w_st w)) <= length (s_recs (w_st w')))%nat.
Proof.
  intros E. apply (rstep_lift (fun s => (length (s_recs (w_st w)) <= length (s_recs s))%nat) w l k w'); auto.
  intros s s' L S. destruct (recs_length _ _ _ S) as [->|[-> _]]; lia.
Qed.
Lemma active_le st : active_recorders st <= Z.of_nat (length (s_recs st)).
Proof. rewrite active_sum. apply counted_le. Qed.
Lemma wok_count w c : wok w -> wok (at_count w c).
Proof. intros [[A1 A2 A3 A4 A5 A6] L]. split; [|exact L]. split; cbn in *; auto. Qed.
Lemma rok h0 tr w : rexec (winit h0) tr = Some w -> wok w.
Proof.
  revert w. induction tr as [|[l k] tr IH] using rev_ind; intros w E; [apply (wok_run h0 []); exact E|].
  apply rexec_snoc in E. destruct E as (w1 & E1 & E2). destruct (rstep_inv _ _ _ _ E2) as (c & w2 & c' & S & -> & _).
  apply wok_count. apply (wok_step _ _ _ _ (wok_count _ c (IH _ E1)) S).
Qed.
Lemma step_rstep w l s' : wok w -> counts l = 0 -> step (w_st w) l = Some s' -> exists w', rstep w (l, w_now w) = Some w' /\ w_st w' = s'.
Proof. intros [V _] C S. unfold rstep. cbn [fst]. rewrite C. apply step_wstep; auto. Qed.
