(** * An execution with a usize of 32 bits that goes on for ever and meets the hypotheses of C84 *)
From Verif Require Import Machine Log2Model HistModel Bins ListZ Wf Spec Reach Witness SyncModel SyncSpec SyncOps SyncFacts SyncRefresh PfSync LiveSpec LiveFacts EventSpec EventFacts PfEvent
  WeakModel WeakSpec WeakFacts PfWeak WeakLiveSpec WeakEventSpec ReleaseSyncModel ReleaseSyncFacts LooseFacts WidthSyncModel WidthSyncSpec WidthSyncFacts PfWidthSync WidthEventSpec.

Lemma phase_kept st l st' : l <> RShift -> step st l = Some st' -> s_phase st' = s_phase st.
Proof.
  intros N S. destruct l; try congruence; step_cases S; cbn; try reflexivity; unfold send; repeat match goal with |- context [match ?x with _ => _ end] => destruct x end; try reflexivity;
    unfold push_rec, receive in *; repeat match type of S with context [match ?x with _ => _ end] => destruct x; try discriminate S end; injection S as <-; reflexivity.
Qed.
Lemma step_nstep_st B w l s' : 32 <= B <= 64 -> nviews B w -> counts l = 0 -> step (w_st w) l = Some s' ->
  exists w', nstep B w (l, w_now w) = Some w' /\ w_st w' = with_phase s' (phase_b B (s_phase s')).
Proof.
  intros W V C S. destruct (step_nstep B w l s' W V C S) as (w' & N). exists w'. split; [exact N|]. pose proof (width_range B W) as WR.
  destruct V as (A1 & A2 & A3 & A4). destruct (load_of l) as [i|] eqn:L.
  - destruct (nstep_load _ _ _ _ _ _ L N) as (_ & s2 & S2 & ->). rewrite <- A4, with_phase_id in S2. assert (s2 = s') by congruence. subst s2. cbn [w_st].
    rewrite (load_phase _ _ _ _ L S), A4. f_equal. unfold phase_b. symmetry. apply Z.mod_mod. lia.
  - destruct (nstep_other _ _ _ _ _ L N) as [(O & _)|(_ & w1 & S1 & ->)]; [unfold overflows in O; rewrite C in O; discriminate O|].
    pose proof (wstep_other _ _ _ _ L S1) as S2. assert (w_st w1 = s') by congruence. cbn [at_phase w_st]. rewrite H. reflexivity.
Qed.
Lemma nturn_step B t h0 tr m w o : nrun B h0 tr w -> merged_untouched (acts tr) -> merge_safe h0 -> op_ok (h_ctr h0) o -> (m < 10)%nat ->
  turning t m (w_st w) -> exists w', nstep B w (turn_label t o m, w_now w) = Some w' /\ turning t (next m) (w_st w').
Proof.
  intros RN U MS OK M X. pose proof (nrun_loose _ _ _ _ RN) as LR. pose proof RN as (W & R & F & E). pose proof (nviews_run B h0 tr w W E) as V. pose proof (width_range B W) as WR.
  destruct (turn_step_gen t h0 m (w_st w) o R (ltyped h0 _ _ LR) (llike h0 _ _ LR U) MS OK M X) as (st' & S & X').
  destruct (step_nstep_st B w (turn_label t o m) st' W V) as (w' & N & EQ); [unfold turn_label; do 9 (destruct m as [|m]; [reflexivity|]); reflexivity|exact S|].
  exists w'. split; [exact N|]. rewrite EQ. destruct (Nat.eq_dec m 3) as [->|NE].
  - cbn [turn_label next] in *. destruct X as (LK & CN & PH & b & q & pc & gs & RC & GS & Q & P & RD & CH).
    cbn [step] in S. rewrite RD in S. injection S as <-. destruct V as (A1 & A2 & A3 & A4). unfold turning. cbn [with_phase s_lock s_count s_phase s_recs s_reader s_chan].
    rewrite A4, (phase_mod B _ W). assert (PB : 0 <= phase_b B (w_now w + 1) < 2 ^ B) by (unfold phase_b; apply Z.mod_pos_bound; lia).
    split; [exact LK|]. split; [exact CN|]. split; [unfold usize_max, u64_max; lia|]. exists b, q, pc, gs. split; [exact RC|]. split; [exact GS|]. split; [|auto].
    rewrite Q, A4. intros D. apply (nphase_differs B (w_now w) (w_now w + 1) W ltac:(lia)). congruence.
  - assert (L : turn_label t o m <> RShift) by (unfold turn_label; do 3 (destruct m as [|m]; [discriminate|]); destruct m as [|m]; [contradiction NE; reflexivity|]; do 5 (destruct m as [|m]; [discriminate|]); discriminate).
    rewrite (phase_kept _ _ _ L S). destruct V as (A1 & A2 & A3 & A4).
    replace (phase_b B (s_phase (w_st w))) with (s_phase st'); [rewrite with_phase_id; exact X'|].
    rewrite (phase_kept _ _ _ L S), A4. unfold phase_b. symmetry. apply Z.mod_mod. lia.
Qed.

(** the execution that takes the steps [f], every load returning the latest value *)
Fixpoint nfollow (B : Z) (f : nat -> label) (w : wstate) (k : nat) : wstate :=
  match k with
  | 0%nat => w
  | Datatypes.S k' => match nstep B (nfollow B f w k') (f k', w_now (nfollow B f w k')) with Some x => x | None => nfollow B f w k' end
  end.
Definition nlabels (B : Z) (f : nat -> label) (w : wstate) (k : nat) : option (label * Z) := Some (f k, w_now (nfollow B f w k)).

(** recorder 1 is dropped at moment 0; recorder 0 goes on for ever *)
Definition first_steps : list label :=
  [LDropEnd 1; RStart false; RRecv; REmpty; RRead; RShift; LWrite 0 (ORecord 7 1); LLoad 0; LFinish 0; RRecv; RDone; REmpty].
Definition then_turns (k : nat) : label := if (k <? 12)%nat then nth k first_steps REmpty else turn_label false (ORecord 7 1) (place (k - 12)).
Lemma then_turns_in k : In (then_turns k) first_steps \/ exists m, (m < 10)%nat /\ then_turns k = turn_label false (ORecord 7 1) m.
Proof.
  unfold then_turns. destruct (Nat.ltb_spec k 12) as [L|L]; [left; apply nth_In; exact L|right]. exists (place (k - 12)). split; [apply place_lt|reflexivity].
Qed.
Lemma then_turns_all (P : label -> Prop) : Forall P first_steps -> (forall m, (m < 10)%nat -> P (turn_label false (ORecord 7 1) m)) -> forall k, P (then_turns k).
Proof. intros H1 H2 k. destruct (then_turns_in k) as [I|(m & M & ->)]; [rewrite Forall_forall in H1; auto|auto]. Qed.

Lemma goes_on_width : exists h0 tr0 w a,
  nrun 32 h0 tr0 (w 0%nat) /\ merged_untouched (acts tr0) /\ ncontinues 32 h0 w a /\ never_set (actions a) /\ keeps_refreshing (actions a) /\
  keeps_recording (actions a) 0 /\ wakes_end (actions a) 0 /\ becomes_visible w a /\ nlooks_in_time 32 a 0 7 /\
  actions a 0%nat = Some (LDropEnd 1) /\ s_history (w_st (w 0%nat)) = [Call 0 1 (ORecord 7 1) true] /\
  s_history (w_st (w 7%nat)) = [Call 0 1 (ORecord 7 1) true; Call 1 0 (ORecord 7 1) true] /\
  b_log (s_merged (w_st (w 2%nat))) = [] /\ b_log (s_merged (w_st (w 9%nat))) = [Call 0 1 (ORecord 7 1) true] /\
  b_log (s_merged (w_st (w 10%nat))) = [Call 0 1 (ORecord 7 1) true; Call 1 0 (ORecord 7 1) true].
Proof.
  set (o := ORecord 7 1). set (c := Call 0 1 (ORecord 7 1) true). set (d := Call 1 0 (ORecord 7 1) true).
  set (tr0 := [(RRecorder, 0); (RRecorder, 0); (LWrite 1 o, 0); (LLoad 1, 0); (LFinish 1, 0); (LDrop 1, 0)]).
  assert (X : match build U64 1 1000 2 true [] with
              | Some h => match nexec 32 (winit h) tr0 with
                | Some w0 => let x := nfollow 32 then_turns w0 in let w1 := x 12%nat in
                    map r_pc (s_recs (w_st w1)) = [PReady; PGone] /\ map r_phase (s_recs (w_st w1)) = [1; 0] /\ s_phase (w_st w1) = 1 /\ s_count (w_st w1) = 1 /\
                    s_lock (w_st w1) = Free /\ s_chan (w_st w1) = [] /\ s_reader (w_st w1) = RReady /\
                    is_auto_resize h = true /\ h_ctr h = U64 /\
                    forallb (fun k => match nstep 32 (x k) (then_turns k, w_now (x k)) with Some _ => true | None => false end) (seq 0 12) = true /\
                    s_history (w_st w0) = [c] /\ s_history (w_st (x 7%nat)) = [c; d] /\ b_log (s_merged (w_st (x 2%nat))) = [] /\
                    b_log (s_merged (w_st (x 9%nat))) = [c] /\ b_log (s_merged (w_st (x 10%nat))) = [c; d]
                | None => False end
              | None => False end) by (vm_compute; auto 20).
  destruct (build _ _ _ _ _ _) as [h|] eqn:B; [|contradiction]. destruct (nexec 32 (winit h) tr0) as [w0|] eqn:E0; [|contradiction].
  cbv zeta in X. set (x := nfollow 32 then_turns w0) in *.
  destruct X as (X1 & X2 & X3 & X4 & X5 & X6 & X7 & X8 & CT & XS & X9 & X10 & X11 & X12 & X13).
  assert (OK : op_ok (h_ctr h) o) by (rewrite CT; cbn; unfold is_u64, is_count, cmax, u64_max; lia).
  assert (LOK : forall k, label_ok (h_ctr h) (then_turns k)).
  { apply then_turns_all; [unfold first_steps; repeat (apply Forall_cons; [exact Logic.I || exact OK|]); apply Forall_nil|].
    intros m _. unfold turn_label. do 9 (destruct m as [|m]; [exact Logic.I || exact OK|]). exact Logic.I. }
  assert (NS : forall k y, then_turns k <> RSet y).
  { intros k y. revert k. apply (then_turns_all (fun l => l <> RSet y)); [unfold first_steps; repeat (apply Forall_cons; [discriminate|]); apply Forall_nil|].
    intros m _. unfold turn_label. do 9 (destruct m as [|m]; [discriminate|]). discriminate. }
  assert (RN0 : nrun 32 h tr0 w0).
  { split; [lia|]. split; [exact (build_reachable _ _ _ _ _ _ _ B)|]. split; [|exact E0]. unfold tr0. cbn [acts map fst]. repeat (apply Forall_cons; [exact Logic.I || exact OK|]). apply Forall_nil. }
  assert (U0 : merged_untouched (acts tr0)) by (intros y; unfold tr0; cbn; intuition discriminate).
  assert (MS : merge_safe h) by (left; exact X8).
  assert (T0 : turning false 0 (w_st (x 12%nat))).
  { destruct (s_recs (w_st (x 12%nat))) as [|[b q pc] [|[b2 q2 pc2] [|? ?]]] eqn:RC; try discriminate X1. cbn in X1, X2. injection X1 as -> ->. injection X2 as -> ->.
    unfold turning. rewrite X3, X4, X5, X6, X7, RC. split; [reflexivity|]. split; [reflexivity|]. split; [unfold usize_max, u64_max; lia|].
    exists b, 1, PReady, [Rec b2 0 PGone]. split; [reflexivity|]. split; [repeat constructor|]. auto. }
  assert (GO : forall k, (exists tr, nrun 32 h tr (x k) /\ merged_untouched (acts tr)) /\ ((12 <= k)%nat -> turning false (place (k - 12)) (w_st (x k))) ->
     exists w', nstep 32 (x k) (then_turns k, w_now (x k)) = Some w' /\ x (Datatypes.S k) = w' /\ ((12 <= k)%nat -> turning false (place (Datatypes.S k - 12)) (w_st w'))).
  { intros k [(tr & R1 & U1) TU]. destruct (Nat.lt_ge_cases k 12) as [L|L].
    - rewrite forallb_forall in XS. specialize (XS k ltac:(apply in_seq; lia)). cbv beta in XS.
      destruct (nstep 32 (x k) (then_turns k, w_now (x k))) as [w'|] eqn:N; [|discriminate XS]. exists w'. split; [reflexivity|]. split; [|lia]. unfold x in *. cbn [nfollow]. rewrite N. reflexivity.
    - destruct (nturn_step 32 false h tr (place (k - 12)) (x k) o R1 U1 MS OK (place_lt _) (TU L)) as (w' & N & X).
      assert (EQ : then_turns k = turn_label false o (place (k - 12))) by (unfold then_turns; destruct (Nat.ltb_spec k 12); [lia|reflexivity]).
      rewrite <- EQ in N. exists w'. split; [exact N|]. split; [unfold x in *; cbn [nfollow]; rewrite N; reflexivity|]. intros _.
      replace (Datatypes.S k - 12)%nat with (Datatypes.S (k - 12)) by lia. rewrite place_next. exact X. }
  assert (INV : forall k, (exists tr, nrun 32 h tr (x k) /\ merged_untouched (acts tr)) /\ ((12 <= k)%nat -> turning false (place (k - 12)) (w_st (x k)))).
  { induction k as [|k IH]; [split; [exists tr0; auto|lia]|]. destruct (GO k IH) as (w' & N & EX & TU). destruct IH as [(tr & R1 & U1) TK]. split.
    - exists (tr ++ [(then_turns k, w_now (x k))]). rewrite EX. destruct R1 as (A1 & A2 & A3 & A4). split.
      + split; [exact A1|]. split; [exact A2|]. split; [rewrite acts_app; apply Forall_app; split; [exact A3|constructor; [apply LOK|constructor]]|].
        rewrite nexec_app, A4. cbn [nexec]. rewrite N. reflexivity.
      + rewrite acts_app. intros y I. apply in_app_iff in I. destruct I as [I|[I|[]]]; [apply (U1 y I)|apply (NS k y I)].
    - intros L. destruct (Nat.eq_dec k 11) as [->|NE]; [exact T0|]. rewrite EX. apply TU. lia. }
  exists h, tr0, x, (nlabels 32 then_turns w0).
  assert (ACT : forall k, actions (nlabels 32 then_turns w0) k = Some (then_turns k)) by reflexivity.
  assert (LATE : forall k m, (m < 10)%nat -> exists j, (k <= j < k + 22)%nat /\ then_turns j = turn_label false o m).
  { intros k m M. destruct (soon k m M) as (j & J1 & J2). exists (j + 12)%nat. split; [lia|]. unfold then_turns. destruct (Nat.ltb_spec (j + 12) 12) as [L|L]; [lia|]. rewrite Nat.add_sub, J2. reflexivity. }
  assert (STEP : forall k, w_now (x k) <= w_now (x (Datatypes.S k)) <= w_now (x k) + 1).
  { intros k. destruct (GO k (INV k)) as (w' & N & EX & _). destruct (INV k) as [(tr & R1 & _) _]. destruct R1 as (A1 & A2 & A3 & A4).
    rewrite EX, (nnow_step _ _ _ _ _ N (nviews_run 32 h tr _ A1 A4)), shifts_one. destruct (then_turns k); lia. }
  assert (MONO : forall k e, w_now (x k) <= w_now (x (k + e)%nat) <= w_now (x k) + Z.of_nat e).
  { intros k. induction e as [|e IH]; [rewrite Nat.add_0_r; lia|]. rewrite Nat.add_succ_r. pose proof (STEP (k + e)%nat). lia. }
  split; [exact RN0|]. split; [exact U0|].
  split; [intros k; unfold nlabels; destruct (GO k (INV k)) as (w' & N & EX & _); split; [apply LOK|]; rewrite EX; exact N|].
  split; [intros k y E; rewrite ACT in E; apply (NS k y); congruence|].
  split; [intros k; destruct (LATE k 0%nat ltac:(lia)) as (j & J1 & J2); exists j, false; split; [lia|]; rewrite ACT, J2; reflexivity|].
  split; [intros k; destruct (LATE k 4%nat ltac:(lia)) as (j & J1 & J2); exists j, o; split; [lia|]; rewrite ACT, J2; reflexivity|].
  split.
  { exists 0%nat. intros k _ E. rewrite ACT in E. injection E as E. revert E. apply (then_turns_all (fun l => l <> LWakeEnd 0)).
    - unfold first_steps. repeat (apply Forall_cons; [discriminate|]). apply Forall_nil.
    - intros m _. unfold turn_label. do 9 (destruct m as [|m]; [discriminate|]). discriminate. }
  split.
  { intros k. exists k. intros j l n L A _. unfold nlabels in A. injection A as _ <-. pose proof (MONO k (j - k)%nat) as M. replace (k + (j - k))%nat with j in M by lia. apply M. }
  split.
  { intros j1 n1 j2 n2 L (l1 & A1 & _) (l2 & A2 & _) NB. unfold nlabels in A1, A2. injection A1 as _ <-. injection A2 as _ <-. fold x.
    assert (GAP : (j2 <= j1 + 24)%nat).
    { destruct (Nat.le_gt_cases j2 (j1 + 24)) as [Q|Q]; [exact Q|]. exfalso. destruct (LATE (Datatypes.S j1) 5%nat ltac:(lia)) as (j & J1 & J2).
      apply (NB j (w_now (x j))); [lia|]. exists (LLoad 0). split; [unfold nlabels; rewrite J2; reflexivity|left; reflexivity]. }
    pose proof (MONO j1 (j2 - j1)%nat) as M. replace (j1 + (j2 - j1))%nat with j2 in M by lia. lia. }
  split; [reflexivity|]. split; [exact X9|]. split; [exact X10|]. split; [exact X11|]. split; [exact X12|exact X13].
Qed.
