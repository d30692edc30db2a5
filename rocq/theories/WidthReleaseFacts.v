(** * Invariants of the concurrent histogram in builds without overflow checks, with a usize of another width *)
From Coq Require Import Permutation.
From Verif Require Import Machine HistModel Bins ListZ Cfg Wf Spec Reach SyncModel SyncSpec SyncOps SyncFacts SyncRefresh PfSync
  LiveSpec LiveFacts WeakModel WeakSpec WeakFacts ReleaseSyncModel ReleaseSyncSpec ReleaseSyncFacts LooseFacts WidthSyncModel WidthSyncSpec WidthSyncFacts WidthReleaseModel WidthReleaseSpec.

Lemma mexec_app B w a b : mexec B w (a ++ b) = match mexec B w a with Some w' => mexec B w' b | None => None end.
Proof. revert w; induction a as [|l a IH]; intros w; cbn [mexec app]; auto. destruct (mstep B w l); auto. Qed.
Lemma mexec_snoc B w tr a w' : mexec B w (tr ++ [a]) = Some w' -> exists w1, mexec B w tr = Some w1 /\ mstep B w1 a = Some w'.
Proof.
  rewrite mexec_app. destruct (mexec B w tr) as [w1|]; [|discriminate]. cbn [mexec]. intros E. exists w1. split; auto.
  destruct (mstep B w1 a); congruence.
Qed.
Lemma mstep_inv B w l k w' : mstep B w (l, k) = Some w' -> exists c w1 c', nstep B (at_count w c) (l, k) = Some w1 /\ w' = at_count w1 c' /\
  (counts l = 0 -> c = s_count (w_st w) /\ c' = s_count (w_st w1)) /\ (counts l <> 0 -> c = 1 /\ c' = (s_count (w_st w) + counts l) mod 2 ^ B).
Proof.
  unfold mstep. cbn [fst]. destruct (Z.eqb_spec (counts l) 0) as [Q|Q]; intros E.
  - exists (s_count (w_st w)), w', (s_count (w_st w')). rewrite !at_count_id. split; [exact E|]. split; [reflexivity|]. split; [auto|lia].
  - destruct (nstep B (at_count w 1) (l, k)) as [w1|] eqn:S; [|discriminate]. assert (X : w' = at_count w1 ((s_count (w_st w) + counts l) mod 2 ^ B)) by congruence.
    exists 1, w1, ((s_count (w_st w) + counts l) mod 2 ^ B). split; [exact S|]. split; [exact X|]. split; [lia|auto].
Qed.
Lemma mstep_loose B w l k w' : mstep B w (l, k) = Some w' -> loose (w_st w) l (w_st w').
Proof.
  intros E. destruct (mstep_inv _ _ _ _ _ E) as (c & w1 & c' & S & -> & _).
  destruct (nstep_loose _ _ _ _ _ S) as (p & c0 & s1 & q & c1 & X & Y). exists p, c0, s1, q, c'. split; [exact X|].
  cbn [at_count w_st]. rewrite Y. reflexivity.
Qed.
Lemma mexec_loose B w tr w' : mexec B w tr = Some w' -> lexec (w_st w) (acts tr) (w_st w').
Proof.
  revert w. induction tr as [|[l k] tr IH]; intros w E; cbn [mexec] in E; [injection E as <-; constructor|].
  destruct (mstep B w (l, k)) as [w1|] eqn:S; [|discriminate]. cbn [acts map fst]. econstructor; [eapply mstep_loose; eauto|apply IH; exact E].
Qed.
Lemma mrun_loose B h0 tr w : mrun B h0 tr w -> lrun h0 (acts tr) (w_st w).
Proof. intros (_ & R & F & E). split; [exact R|]. split; [exact F|]. apply (mexec_loose B (winit h0)). exact E. Qed.
Lemma mrun_app B h0 a b w w' : mrun B h0 a w -> Forall (label_ok (h_ctr h0)) (acts b) -> mexec B w b = Some w' -> mrun B h0 (a ++ b) w'.
Proof.
  intros (W & R & F & E) F2 E2. split; [exact W|]. split; [exact R|]. split; [rewrite acts_app; apply Forall_app; auto|]. rewrite mexec_app, E. exact E2.
Qed.
Lemma mviews_run B h0 tr w : 32 <= B <= 64 -> mexec B (winit h0) tr = Some w -> nviews B w.
Proof.
  intros W. revert w. induction tr as [|[l k] tr IH] using rev_ind; intros w E.
  - apply (nviews_run B h0 []); auto.
  - apply mexec_snoc in E. destruct E as (w1 & E1 & E2). destruct (mstep_inv _ _ _ _ _ E2) as (c & w2 & c' & S & -> & _).
    exact (nviews_step B (at_count w1 c) l k w2 W S (IH w1 E1)).
Qed.
Lemma step_unpoisoned0 s l s' : counts l = 0 -> step s l = Some s' -> s_lock s <> Poisoned -> s_lock s' <> Poisoned.
Proof.
  intros Q S L. destruct l; cbn [counts] in Q; try lia; step_cases S; cbn; rewrite ?send_lock; cbn; auto; try discriminate; try congruence;
    try (destruct (receive_fields _ _ _ S) as (_ & -> & _); exact L).
Qed.
Lemma step_count0 s l s' : counts l = 0 -> step s l = Some s' -> s_count s' = s_count s.
Proof.
  intros Q S. destruct l; cbn [counts] in Q; try lia; step_cases S; cbn; try reflexivity; try (match goal with |- s_count (send ?a ?b) = _ => exact (proj1 (proj2 (proj2 (send_fields a b)))) end);
    try (destruct (receive_fields _ _ _ S) as (_ & _ & -> & _); reflexivity).
Qed.
(** an action that does not count leaves the number alone, and one that counts does not depend on it *)
Lemma nstep_count0 B w l k w' : counts l = 0 -> nstep B w (l, k) = Some w' -> s_count (w_st w') = s_count (w_st w) /\ (s_lock (w_st w) <> Poisoned -> s_lock (w_st w') <> Poisoned).
Proof.
  intros Q E. destruct (load_of l) as [i|] eqn:L.
  - destruct (nstep_load _ _ _ _ _ _ L E) as (_ & s' & S & ->). cbn. split; [apply (step_count0 _ _ _ Q S)|intros X; apply (step_unpoisoned0 _ _ _ Q S X)].
  - destruct (nstep_other _ _ _ _ _ L E) as [(O & _)|(_ & w1 & S & ->)]; [unfold overflows in O; rewrite Q in O; discriminate O|].
    apply (wstep_other _ _ _ _ L) in S. cbn. split; [apply (step_count0 _ _ _ Q S)|intros X; apply (step_unpoisoned0 _ _ _ Q S X)].
Qed.
Lemma overflows_one B w l : 32 <= B <= 64 -> overflows B (at_count w 1) l = false.
Proof. intros W. unfold overflows. cbn [at_count w_st put_lock s_count]. pose proof (width_range B W). destruct (Z.eqb_spec 1 (2 ^ B - 1)); [lia|apply andb_false_r]. Qed.
Lemma mnot_poisoned_step B w l k w' : 32 <= B <= 64 -> mstep B w (l, k) = Some w' -> s_lock (w_st w) <> Poisoned -> s_lock (w_st w') <> Poisoned.
Proof.
  intros W E L. destruct (mstep_inv _ _ _ _ _ E) as (c & w1 & c' & S & -> & C0 & C1). cbn [at_count w_st put_lock s_lock].
  destruct (Z.eq_dec (counts l) 0) as [Q|Q]; [apply (nstep_count0 _ _ _ _ _ Q S); exact L|].
  destruct (C1 Q) as [-> _]. destruct (nstep_other _ _ _ _ _ (counts_load _ Q) S) as [(O & _)|(_ & w2 & S2 & ->)]; [rewrite (overflows_one B w l W) in O; discriminate O|].
  apply (wstep_other _ _ _ _ (counts_load _ Q)) in S2. cbn. apply (step_free _ _ _ S2); cbn; auto; lia.
Qed.
Lemma mnot_poisoned B h0 tr w : 32 <= B <= 64 -> mexec B (winit h0) tr = Some w -> s_lock (w_st w) <> Poisoned.
Proof.
  intros W. revert w. induction tr as [|[l k] tr IH] using rev_ind; intros w E; [cbn in E; injection E as <-; discriminate|].
  apply mexec_snoc in E. destruct E as (w1 & E1 & E2). apply (mnot_poisoned_step _ _ _ _ _ W E2), (IH _ E1).
Qed.
Lemma mstep_active B w l k w' : 32 <= B <= 64 -> mstep B w (l, k) = Some w' -> s_lock (w_st w) <> Poisoned ->
  active_recorders (w_st w') = active_recorders (w_st w) + counts l + forgotten [l] /\
  s_count (w_st w') mod 2 ^ B = (s_count (w_st w) + counts l) mod 2 ^ B /\
  (0 <= s_count (w_st w) <= 2 ^ B - 1 -> 0 <= s_count (w_st w') <= 2 ^ B - 1).
Proof.
  intros W E L. pose proof (width_range B W) as WR. pose proof (mnot_poisoned_step _ _ _ _ _ W E L) as L'. split.
  - destruct (mstep_loose _ _ _ _ _ E) as (p & c & s1 & q & c' & S & X). rewrite !active_sum. rewrite X in L' |- *. exact (step_active _ _ _ S L').
  - destruct (mstep_inv _ _ _ _ _ E) as (c & w1 & c' & S & -> & C0 & C1). cbn [at_count w_st put_lock s_count]. destruct (Z.eq_dec (counts l) 0) as [Q|Q].
    + destruct (C0 Q) as [-> ->]. rewrite at_count_id in S. destruct (nstep_count0 _ _ _ _ _ Q S) as [-> _]. rewrite Q, Z.add_0_r. auto.
    + destruct (C1 Q) as [_ ->]. rewrite Z.mod_mod by lia. split; [reflexivity|]. intros _. pose proof (Z.mod_pos_bound (s_count (w_st w) + counts l) (2 ^ B)). lia.
Qed.
Lemma mcount B h0 tr w : 32 <= B <= 64 -> mexec B (winit h0) tr = Some w -> s_count (w_st w) = (active_recorders (w_st w) - forgotten (acts tr)) mod 2 ^ B.
Proof.
  intros W E. pose proof (width_range B W) as WR.
  assert (X : s_count (w_st w) mod 2 ^ B = (active_recorders (w_st w) - forgotten (acts tr)) mod 2 ^ B /\ 0 <= s_count (w_st w) <= 2 ^ B - 1).
  { revert w E. induction tr as [|[l k] tr IH] using rev_ind; intros w E; [cbn in E; injection E as <-; split; [reflexivity|cbn [winit w_st init s_count]; lia]|].
    apply mexec_snoc in E. destruct E as (w1 & E1 & E2). destruct (IH _ E1) as [I1 I2]. rewrite acts_app. cbn [acts map fst]. rewrite forgotten_snoc.
    destruct (mstep_active _ _ _ _ _ W E2 (mnot_poisoned _ _ _ _ W E1)) as (A1 & A2 & A3). split; [|apply A3; exact I2].
    rewrite A2, A1, <- Z.add_mod_idemp_l, I1, Z.add_mod_idemp_l by lia. f_equal. unfold acts. lia. }
  destruct X as [X1 X2]. rewrite <- X1, Z.mod_small; [reflexivity|lia].
Qed.
Lemma mrecs B w l k w' : mstep B w (l, k) = Some w' -> (length (s_recs (w_st w)) <= length (s_recs (w_st w')))%nat.
Proof.
  intros E. apply (loose_lift (fun s => (length (s_recs (w_st w)) <= length (s_recs s))%nat) (w_st w) l (w_st w')); auto; [|eapply mstep_loose; eauto].
  intros s s' L S. pose proof (recs_grow _ _ _ S). lia.
Qed.
Lemma nplain B w l k : load_of l = None -> overflows B w l = false ->
  nstep B w (l, k) = match wstep w (l, k) with Some w' => Some (at_phase w' (phase_b B (s_phase (w_st w')))) | None => None end.
Proof. intros L O. destruct l; try discriminate L; cbn [nstep]; rewrite O; reflexivity. Qed.
(** where the two builds agree *)
Lemma msame_from B w l k w' : 32 <= B <= 64 -> mstep B w (l, k) = Some w' -> 0 <= s_count (w_st w) + counts l <= 2 ^ B - 1 -> nstep B w (l, k) = Some w'.
Proof.
  intros W E C. pose proof (width_range B W) as WR. unfold mstep in E. cbn [fst] in E. destruct (Z.eqb_spec (counts l) 0) as [Q|Q]; [exact E|].
  pose proof (counts_load _ Q) as LO. rewrite (nplain B (at_count w 1) l k LO (overflows_one B w l W)) in E.
  assert (O : overflows B w l = false).
  { unfold overflows. destruct (Z.eqb_spec (counts l) 1); [|reflexivity]. destruct (Z.eqb_spec (s_count (w_st w)) (2 ^ B - 1)); [lia|reflexivity]. }
  rewrite (nplain B w l k LO O). destruct (wstep (at_count w 1) (l, k)) as [w1|] eqn:S; [|discriminate E].
  assert (R : rstep w (l, k) = Some (at_count w1 ((s_count (w_st w) + counts l) mod (usize_max + 1)))).
  { unfold rstep. cbn [fst]. destruct (Z.eqb_spec (counts l) 0); [contradiction|]. rewrite S. reflexivity. }
  change usize_max with (2 ^ 64 - 1) in R. rewrite (same_as_release _ _ _ _ R) by (change usize_max with (2 ^ 64 - 1); lia).
  rewrite <- E. rewrite !Z.mod_small by lia. reflexivity.
Qed.
Lemma msame_to B w l k w' : 32 <= B <= 64 -> ncount_ok B (w_st w) -> nstep B w (l, k) = Some w' -> s_lock (w_st w') <> Poisoned -> mstep B w (l, k) = Some w'.
Proof.
  intros W [_ CK] E L. pose proof (width_range B W) as WR. unfold mstep. cbn [fst]. destruct (Z.eqb_spec (counts l) 0) as [Q|Q]; [exact E|].
  pose proof (counts_load _ Q) as LO. destruct (overflows B w l) eqn:O.
  { destruct (overflow_state _ _ _ _ _ LO O E) as (X & _). exfalso. apply L. rewrite X. reflexivity. }
  rewrite (nplain B w l k LO O) in E. destruct (wstep w (l, k)) as [w1|] eqn:S; [|discriminate E].
  assert (E1 : w' = at_phase w1 (phase_b B (s_phase (w_st w1)))) by congruence.
  assert (L1 : s_lock (w_st w1) <> Poisoned) by (rewrite E1 in L; exact L).
  destruct (step_counts_to _ _ _ Q (wstep_other _ _ _ _ LO S) L1) as (C & _).
  assert (C2 : 0 <= s_count (w_st w) + counts l <= 2 ^ B - 1).
  { split; [lia|]. unfold overflows in O. destruct l; cbn [counts] in *; try lia; destruct (Z.eqb_spec (s_count (w_st w)) (2 ^ B - 1)); try discriminate O; lia. }
  pose proof (same_as_checked _ _ _ _ S L1) as R. unfold rstep in R. cbn [fst] in R. destruct (Z.eqb_spec (counts l) 0); [contradiction|].
  rewrite (nplain B (at_count w 1) l k LO (overflows_one B w l W)). destruct (wstep (at_count w 1) (l, k)) as [w2|]; [|discriminate R].
  assert (R1 : w1 = at_count w2 ((s_count (w_st w) + counts l) mod (usize_max + 1))) by congruence. rewrite E1, R1.
  change (usize_max + 1) with (2 ^ 64). rewrite !Z.mod_small by lia. reflexivity.
Qed.
