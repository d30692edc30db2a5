(** * An execution that goes on for ever and meets the hypotheses of C78 *)
From Verif Require Import Machine Log2Model HistModel Bins ListZ Wf Spec Reach Witness SyncModel SyncSpec SyncOps SyncFacts SyncRefresh PfSync LiveSpec LiveFacts EventSpec.

(** one round: a [refresh] during which recorder 0 makes a call *)
Definition turn_label (t : bool) (o : op) (m : nat) : label :=
  match m with
  | 0 => RStart t | 1 => REmpty | 2 => RRead | 3 => RShift | 4 => LWrite 0 o | 5 => LLoad 0 | 6 => LFinish 0
  | 7 => RRecv | 8 => RDone | _ => REmpty
  end%nat.
Definition turning (t : bool) (m : nat) (st : state) : Prop :=
  s_lock st = Free /\ s_count st = 1 /\ 0 <= s_phase st <= usize_max /\
  exists b q pc gs, s_recs st = Rec b q pc :: gs /\ Forall (fun r => r_pc r = PGone) gs /\
  match m with
  | 0 => q = s_phase st /\ pc = PReady /\ s_reader st = RReady /\ s_chan st = []
  | 1 => q = s_phase st /\ pc = PReady /\ s_reader st = RDrain t /\ s_chan st = []
  | 2 => q = s_phase st /\ pc = PReady /\ s_reader st = RCount t /\ s_chan st = []
  | 3 => q = s_phase st /\ pc = PReady /\ s_reader st = RBump t 1 /\ s_chan st = []
  | 4 => q <> s_phase st /\ pc = PReady /\ s_reader st = RWait t 1 0 /\ s_chan st = []
  | 5 => q <> s_phase st /\ pc = PWrote /\ s_reader st = RWait t 1 0 /\ s_chan st = []
  | 6 => q <> s_phase st /\ pc = PLoaded (s_phase st) /\ s_reader st = RWait t 1 0 /\ s_chan st = []
  | 7 => q = s_phase st /\ pc = PReady /\ s_reader st = RWait t 1 0 /\ exists x, s_chan st = [x]
  | 8 => q = s_phase st /\ pc = PReady /\ s_reader st = RWait t 1 1 /\ s_chan st = []
  | _ => q = s_phase st /\ pc = PReady /\ s_reader st = RDrain2 /\ s_chan st = []
  end%nat.
Definition next (m : nat) : nat := match m with 9%nat => 0%nat | _ => Datatypes.S m end.
Lemma turn_step_gen t h0 m st o : reachable h0 -> boxes_ok (typed (h_ctr h0)) (typed (h_ctr h0)) st -> boxes_ok (like h0) (like h0) st -> merge_safe h0 -> op_ok (h_ctr h0) o -> (m < 10)%nat ->
  turning t m st -> exists st', step st (turn_label t o m) = Some st' /\ turning t (next m) st'.
Proof.
  intros R0 TY LI MS OK M (LK & CN & PH & b & q & pc & gs & RC & GS & X).
  do 10 (try destruct m as [|m]); try lia; cbn [turn_label next].
  - destruct X as (Q & P & RD & CH). eexists. cbn [step]. rewrite RD. split; [reflexivity|].
    unfold turning. cbn. split; [exact LK|]. split; [exact CN|]. split; [exact PH|]. exists b, q, pc, gs. auto 10.
  - destruct X as (Q & P & RD & CH). eexists. cbn [step]. rewrite RD, CH. split; [reflexivity|].
    unfold turning. cbn. split; [exact LK|]. split; [exact CN|]. split; [exact PH|]. exists b, q, pc, gs. auto 10.
  - destruct X as (Q & P & RD & CH). eexists. cbn [step]. rewrite RD, LK, CN. split; [reflexivity|].
    unfold turning. cbn. split; [exact LK|]. split; [exact CN|]. split; [exact PH|]. exists b, q, pc, gs. auto 10.
  - destruct X as (Q & P & RD & CH). eexists. cbn [step]. rewrite RD. split; [reflexivity|].
    unfold turning. cbn [s_lock s_count s_phase s_recs s_reader s_chan]. split; [exact LK|]. split; [exact CN|].
    pose proof (Z.mod_pos_bound (s_phase st + 1) (usize_max + 1) ltac:(reflexivity)) as B. split; [lia|]. exists b, q, pc, gs. split; [exact RC|]. split; [exact GS|].
    split; [|auto]. rewrite Q. intros E. destruct (Z.eq_dec (s_phase st) usize_max) as [D|D].
    + rewrite D, Z.mod_same in E by discriminate. discriminate E.
    + rewrite Z.mod_small in E by lia. lia.
  - destruct X as (Q & P & RD & CH). subst pc.
    destruct TY as (_ & _ & T). rewrite RC in T. inversion T as [|? ? [R1 CT] _]; subst. cbn in R1, CT.
    rewrite <- CT in OK. destruct (op_facts _ o R1 OK) as (h' & ok & EO & _).
    eexists. cbn [step]. rewrite RC. cbn [nth_error]. rewrite EO. split; [reflexivity|].
    unfold turning. cbn. rewrite RC. cbn. split; [exact LK|]. split; [exact CN|]. split; [exact PH|]. eexists _, q, PWrote, gs. auto 10.
  - destruct X as (Q & P & RD & CH). subst pc. eexists. cbn [step]. rewrite RC. cbn [nth_error]. split; [reflexivity|].
    unfold turning. cbn. rewrite RC. cbn. split; [exact LK|]. split; [exact CN|]. split; [exact PH|]. eexists _, q, _, gs. auto 10.
  - destruct X as (Q & P & RD & CH). subst pc.
    destruct TY as (_ & _ & T). rewrite RC in T. inversion T as [|? ? T1 _]; subst.
    destruct (shed_returns _ _ T1) as (n & SH). cbn [r_local] in SH.
    eexists. cbn [step]. rewrite RC. cbn [nth_error]. rewrite SH. rewrite (proj2 (Z.eqb_neq _ _)) by auto. split; [reflexivity|].
    unfold turning. cbn [put_rec s_recs s_lock s_count s_phase s_chan s_reader].
    destruct (send_fields st b) as (_ & -> & -> & -> & -> & -> & _). rewrite send_chan by (rewrite RD; discriminate). rewrite RC, CH. cbn.
    split; [exact LK|]. split; [exact CN|]. split; [exact PH|]. eexists _, _, PReady, gs. split; [reflexivity|]. split; [exact GS|]. split; [reflexivity|]. split; [reflexivity|].
    split; [exact RD|]. eexists. reflexivity.
  - destruct X as (Q & P & RD & (x & CH)).
    destruct LI as (LM & LB & _). rewrite CH in LB. inversion LB; subst.
    destruct (merge_ok h0 _ _ MS R0 LM H1) as (m' & EM).
    eexists. cbn [step]. rewrite RD. cbn [Z.ltb Z.compare]. unfold receive. rewrite CH, EM. split; [reflexivity|].
    unfold turning. cbn. split; [exact LK|]. split; [exact CN|]. split; [exact PH|]. eexists _, _, PReady, gs. split; [exact RC|auto 10].
  - destruct X as (Q & P & RD & CH). eexists. cbn [step]. rewrite RD. split; [reflexivity|].
    unfold turning. cbn. split; [exact LK|]. split; [exact CN|]. split; [exact PH|]. exists b, q, pc, gs. auto 10.
  - destruct X as (Q & P & RD & CH). eexists. cbn [step]. rewrite RD, CH. split; [reflexivity|].
    unfold turning. cbn. split; [exact LK|]. split; [exact CN|]. split; [exact PH|]. exists b, q, pc, gs. auto 10.
Qed.
Lemma turn_step t h0 tr m st o : run h0 tr st -> merged_untouched tr -> merge_safe h0 -> op_ok (h_ctr h0) o -> (m < 10)%nat ->
  turning t m st -> exists st', step st (turn_label t o m) = Some st' /\ turning t (next m) st'.
Proof. intros RN U. apply turn_step_gen; [apply RN|apply (typed_run h0 tr st RN)|apply (like_run h0 tr st RN (untouched_not_set _ U))]. Qed.
Definition place (k : nat) : nat := (k mod 10)%nat.
Lemma place_lt k : (place k < 10)%nat.
Proof. unfold place. apply Nat.mod_upper_bound. discriminate. Qed.
Lemma place_next k : place (Datatypes.S k) = next (place k).
Proof.
  unfold place. pose proof (Nat.mod_upper_bound k 10 ltac:(discriminate)) as B. pose proof (Nat.div_mod k 10 ltac:(discriminate)) as D.
  remember (k mod 10)%nat as m. remember (k / 10)%nat as d. clear Heqm Heqd. subst k.
  assert (X : m = 9%nat \/ (m < 9)%nat) by lia. destruct X as [->|X].
  - replace (Datatypes.S (10 * d + 9)) with (0 + (Datatypes.S d) * 10)%nat by lia. rewrite Nat.mod_add by discriminate. reflexivity.
  - replace (Datatypes.S (10 * d + m)) with (Datatypes.S m + d * 10)%nat by lia. rewrite Nat.mod_add by discriminate. rewrite Nat.mod_small by lia.
    do 9 (try destruct m as [|m]); try lia; reflexivity.
Qed.
(** some moment soon is at place [m] of its round *)
Lemma soon k m : (m < 10)%nat -> exists j, (k <= j < k + 10)%nat /\ place j = m.
Proof.
  intros M. pose proof (Nat.mod_upper_bound k 10 ltac:(discriminate)) as B. pose proof (Nat.div_mod k 10 ltac:(discriminate)) as D.
  destruct (Nat.le_gt_cases (k mod 10) m) as [L|L].
  - exists (m + k / 10 * 10)%nat. split; [lia|]. unfold place. rewrite Nat.mod_add by discriminate. apply Nat.mod_small. exact M.
  - exists (m + Datatypes.S (k / 10) * 10)%nat. split; [lia|]. unfold place. rewrite Nat.mod_add by discriminate. apply Nat.mod_small. exact M.
Qed.
Definition turns (t : bool) (o : op) (k : nat) : option label := Some (turn_label t o (place k)).
Fixpoint turned (t : bool) (o : op) (st : state) (k : nat) : state :=
  match k with
  | 0%nat => st
  | Datatypes.S k' => match step (turned t o st k') (turn_label t o (place k')) with Some x => x | None => turned t o st k' end
  end.
Lemma turned_inv t o h0 tr0 st0 : run h0 tr0 st0 -> merged_untouched tr0 -> merge_safe h0 -> op_ok (h_ctr h0) o -> turning t 0 st0 ->
  forall k, (exists tr, run h0 tr (turned t o st0 k) /\ merged_untouched tr) /\ turning t (place k) (turned t o st0 k) /\
    step (turned t o st0 k) (turn_label t o (place k)) = Some (turned t o st0 (Datatypes.S k)).
Proof.
  intros RN U MS OK X0.
  assert (ALL : forall k, (exists tr, run h0 tr (turned t o st0 k) /\ merged_untouched tr) /\ turning t (place k) (turned t o st0 k)).
  { induction k as [|k [(tr & R1 & U1) IH]]; [split; [exists tr0; auto|exact X0]|].
    cbn [turned]. destruct (turn_step t h0 tr (place k) _ o R1 U1 MS OK (place_lt k) IH) as (st' & ST & X). rewrite ST, place_next. split; [|exact X].
    exists (tr ++ [turn_label t o (place k)]). split.
    - destruct R1 as (A & B & D). split; [exact A|]. split; [|rewrite exec_app, D; cbn [exec]; rewrite ST; reflexivity].
      apply Forall_app; split; [exact B|constructor; [|constructor]]. unfold turn_label. generalize (place k). intros m.
      do 9 (destruct m as [|m]; [exact Logic.I || exact OK|]). exact Logic.I.
    - intros h IN. apply in_app_iff in IN. destruct IN as [IN|[IN|[]]]; [apply (U1 h IN)|]. revert IN. unfold turn_label. generalize (place k). intros m.
      do 9 (destruct m as [|m]; [discriminate|]). discriminate. }
  intros k. destruct (ALL k) as [(tr & R1 & U1) X]. split; [exists tr; auto|]. split; [exact X|].
  cbn [turned]. destruct (turn_step t h0 tr (place k) _ o R1 U1 MS OK (place_lt k) X) as (st' & ST & _). rewrite ST. reflexivity.
Qed.
Lemma turn_pc t m st : turning t m st -> exists b q pc gs, s_recs st = Rec b q pc :: gs /\ Forall (fun r => r_pc r = PGone) gs /\ (pc = PReady \/ pc = PWrote \/ exists p, pc = PLoaded p).
Proof.
  intros (_ & _ & _ & b & q & pc & gs & RC & GS & X). exists b, q, pc, gs. split; [exact RC|]. split; [exact GS|].
  do 9 (try destruct m as [|m]); destruct X as (_ & -> & _); eauto.
Qed.
Lemma shifts_le a n : forall k, shifts (happened a k n) <= Z.of_nat n.
Proof.
  induction n as [|n IH]; intros k; [cbn; lia|]. cbn [happened]. specialize (IH (Datatypes.S k)). destruct (a k) as [l|]; [|lia].
  change (l :: happened a (Datatypes.S k) n) with ([l] ++ happened a (Datatypes.S k) n). rewrite shifts_app, shifts_one. destruct l; lia.
Qed.
Lemma turns_in t o k : exists m, turns t o k = Some (turn_label t o m) /\ (m < 10)%nat.
Proof. exists (place k). split; [reflexivity|apply place_lt]. Qed.
Lemma goes_on (t : bool) : exists h0 tr0 s a,
  run h0 tr0 (s 0%nat) /\ merged_untouched tr0 /\ guards_dropped tr0 /\ merge_safe h0 /\ s_lock (s 0%nat) <> Poisoned /\
  continues h0 s a /\ never_set a /\ no_leak a /\ few_recorders s /\ clones_end a /\
  sections_go_on s a /\ reader_goes_on s a /\ s_reader (s 0%nat) = RReady /\
  (t = true -> refreshes_with_timeout s a) /\ keeps_refreshing a /\
  keeps_recording a 0 /\ wakes_end a 0 /\ looks_in_time a 0 5 /\ s_history (s 5%nat) = [Call 0 0 (ORecord 7 1) true] /\
  b_log (s_merged (s 7%nat)) = [] /\ b_log (s_merged (s 8%nat)) = [Call 0 0 (ORecord 7 1) true].
Proof.
  set (o := ORecord 7 1). set (c := Call 0 0 (ORecord 7 1) true).
  assert (X : match build U64 1 1000 2 true [] with
              | Some h => match exec (init h) [RRecorder] with
                          | Some st => map r_pc (s_recs st) = [PReady] /\ map r_phase (s_recs st) = [0] /\ s_phase st = 0 /\ s_count st = 1 /\
                              s_lock st = Free /\ s_chan st = [] /\ s_reader st = RReady /\
                              is_auto_resize h = true /\ h_ctr h = U64 /\ s_history (turned t o st 5) = [c] /\
                              b_log (s_merged (turned t o st 7)) = [] /\ b_log (s_merged (turned t o st 8)) = [c]
                          | None => False end
              | None => False end) by (destruct t; vm_compute; auto 20).
  destruct (build _ _ _ _ _ _) as [h|] eqn:B; [|contradiction]. destruct (exec (init h) [RRecorder]) as [st|] eqn:E0; [|contradiction].
  destruct X as (X1 & X2 & X3 & X4 & X5 & X6 & X7 & X8 & CT & X9 & X10 & X11).
  assert (RN : run h [RRecorder] st) by (split; [exact (build_reachable _ _ _ _ _ _ _ B)|split; [repeat constructor|exact E0]]).
  assert (U : merged_untouched [RRecorder]) by (intros x [H|[]]; discriminate H).
  assert (MS : merge_safe h) by (left; exact X8).
  assert (OK : op_ok (h_ctr h) o) by (rewrite CT; cbn; unfold is_u64, is_count, cmax, u64_max; lia).
  assert (T0 : turning t 0 st).
  { destruct (s_recs st) as [|[b q pc] [|? ?]] eqn:RC; try discriminate X1. cbn in X1, X2. injection X1 as ->. injection X2 as ->.
    unfold turning. rewrite X3, X4, X5, X6, X7, RC. split; [reflexivity|]. split; [reflexivity|]. split; [unfold usize_max, u64_max; lia|]. exists b, 0, PReady, []. auto 10. }
  pose proof (turned_inv t o h [RRecorder] st RN U MS OK T0) as INV.
  exists h, [RRecorder], (turned t o st), (turns t o).
  split; [exact RN|]. split; [exact U|]. split; [intros i [H|[]]; discriminate H|]. split; [exact MS|]. split; [cbn; congruence|].
  split.
  { intros k. unfold turns. destruct (INV k) as (_ & _ & ST). split; [|exact ST]. unfold turn_label. generalize (place k). intros m.
    do 9 (destruct m as [|m]; [exact Logic.I || exact OK|]). exact Logic.I. }
  assert (LAB : forall k P, (forall m, (m < 10)%nat -> P (turn_label t o m)) -> forall l, turns t o k = Some l -> P l).
  { intros k P H l E. injection E as <-. apply H. apply place_lt. }
  assert (NEVER : forall l, (forall m, (m < 10)%nat -> turn_label t o m <> l) -> forall k, turns t o k <> Some l).
  { intros l H k E. unfold turns in E. injection E as E. apply (H (place k)); [apply place_lt|exact E]. }
  split; [intros k x; apply NEVER; intros m M; unfold turn_label; do 9 (destruct m as [|m]; [discriminate|]); discriminate|].
  split; [intros k x; apply NEVER; intros m M; unfold turn_label; do 9 (destruct m as [|m]; [discriminate|]); discriminate|].
  split.
  { intros k. destruct (INV k) as (_ & TK & _). destruct (turn_pc _ _ _ TK) as (b & q & pc & gs & RC & GS & _). unfold active_recorders. rewrite RC. cbn [filter]. rewrite (gone_inactive _ GS).
    destruct (is_active _); cbn; unfold usize_max, u64_max; lia. }
  split; [exists 0%nat; intros k i _; apply NEVER; intros m M; unfold turn_label; do 9 (destruct m as [|m]; [discriminate|]); discriminate|].
  split.
  { intros i k r J S. exfalso. destruct (INV k) as (_ & TK & _). destruct (turn_pc _ _ _ TK) as (b & q & pc & gs & RC & GS & D). rewrite RC in J.
    unfold in_section in S. destruct i as [|i]; cbn in J; [injection J as <-; cbn in S; destruct D as [->|[->|(p & ->)]]; discriminate S|].
    apply nth_error_In in J. rewrite Forall_forall in GS. rewrite (GS r J) in S. discriminate S. }
  split.
  { intros k. destruct (soon k 1 ltac:(lia)) as (j & J1 & J2). exists j. split; [lia|]. left. exists REmpty. unfold turns. rewrite J2. split; [reflexivity|exact Logic.I]. }
  split; [exact X7|].
  split.
  { intros ->. split.
    - intros k RD. destruct (soon k 0 ltac:(lia)) as (j & J1 & J2). exists j. split; [lia|]. unfold turns. rewrite J2. reflexivity.
    - intros k. split; apply NEVER; intros m M; unfold turn_label; do 9 (destruct m as [|m]; [discriminate|]); discriminate. }
  split; [intros k; destruct (soon k 0 ltac:(lia)) as (j & J1 & J2); exists j, t; split; [lia|]; unfold turns; rewrite J2; reflexivity|].
  split; [intros k; destruct (soon k 4 ltac:(lia)) as (j & J1 & J2); exists j, o; split; [lia|]; unfold turns; rewrite J2; reflexivity|].
  split; [exists 0%nat; intros k _; apply NEVER; intros m M; unfold turn_label; do 9 (destruct m as [|m]; [discriminate|]); discriminate|].
  split; [|auto].
  intros k n _ NO. pose proof (shifts_le (turns t o) n k) as S. destruct (Nat.le_gt_cases n 10) as [L|L]; [unfold usize_max, u64_max; lia|].
  exfalso. destruct (soon k 5 ltac:(lia)) as (j & J1 & J2). apply (NO j (LLoad 0)); [lia| |left; reflexivity]. unfold turns. rewrite J2. reflexivity.
Qed.

(** first the schedule [p], then [s], [a] *)
Definition pre_s (st : state) (p : list label) (s : nat -> state) (k : nat) : state :=
  if (k <? length p)%nat then settle st p k else s (k - length p)%nat.
Definition pre_a (p : list label) (a : nat -> option label) (k : nat) : option label :=
  if (k <? length p)%nat then nth_error p k else a (k - length p)%nat.
Lemma pre_continues h0 st p s a : exec st p = Some (s 0%nat) -> Forall (label_ok (h_ctr h0)) p -> continues h0 s a ->
  continues h0 (pre_s st p s) (pre_a p a).
Proof.
  intros E F C k. unfold pre_a, pre_s. destruct (Nat.ltb_spec k (length p)) as [L|L].
  - pose proof (settle_continues h0 st p (s 0%nat) E F k) as X.
    destruct (nth_error p k) as [l|] eqn:N; [|apply nth_error_None in N; lia]. destruct X as [X1 X2]. split; [exact X1|]. rewrite X2. f_equal.
    destruct (Nat.ltb_spec (Datatypes.S k) (length p)) as [L2|L2]; [reflexivity|].
    replace (Datatypes.S k - length p)%nat with 0%nat by lia. apply (settle_end st p (s 0%nat) _ E). lia.
  - pose proof (C (k - length p)%nat) as X. destruct (Nat.ltb_spec (Datatypes.S k) (length p)) as [L2|L2]; [lia|].
    replace (Datatypes.S k - length p)%nat with (Datatypes.S (k - length p)) by lia. exact X.
Qed.
(** recorder 1 records 7 and is dropped; recorder 0 goes on for ever *)
Lemma goes_on_dropped : exists h0 tr0 s a,
  run h0 tr0 (s 0%nat) /\ merged_untouched tr0 /\ continues h0 s a /\ never_set a /\ keeps_refreshing a /\
  a 0%nat = Some (LDropEnd 1) /\ s_history (s 0%nat) = [Call 0 1 (ORecord 7 1) true] /\
  b_log (s_merged (s 2%nat)) = [] /\ b_log (s_merged (s 3%nat)) = [Call 0 1 (ORecord 7 1) true].
Proof.
  set (o := ORecord 7 1). set (c := Call 0 1 (ORecord 7 1) true). set (tr0 := [RRecorder; RRecorder; LWrite 1 o; LLoad 1; LFinish 1; LDrop 1]).
  set (p := [LDropEnd 1; RStart false; RRecv; REmpty; RRead; RShift; LWrite 0 o; LLoad 0; LFinish 0; RRecv; RDone; REmpty]).
  assert (X : match build U64 1 1000 2 true [] with
              | Some h => match exec (init h) tr0 with
                | Some st => match exec st p with
                          | Some st1 => map r_pc (s_recs st1) = [PReady; PGone] /\ map r_phase (s_recs st1) = [1; 0] /\ s_phase st1 = 1 /\ s_count st1 = 1 /\
                              s_lock st1 = Free /\ s_chan st1 = [] /\ s_reader st1 = RReady /\
                              is_auto_resize h = true /\ h_ctr h = U64 /\ s_history st = [c] /\
                              b_log (s_merged (settle st p 2)) = [] /\ b_log (s_merged (settle st p 3)) = [c]
                          | None => False end
                | None => False end
              | None => False end) by (vm_compute; auto 20).
  destruct (build _ _ _ _ _ _) as [h|] eqn:B; [|contradiction]. destruct (exec (init h) tr0) as [st|] eqn:E0; [|contradiction].
  destruct (exec st p) as [st1|] eqn:E1; [|contradiction].
  destruct X as (X1 & X2 & X3 & X4 & X5 & X6 & X7 & X8 & CT & X9 & X10 & X11).
  assert (OK : op_ok (h_ctr h) o) by (rewrite CT; cbn; unfold is_u64, is_count, cmax, u64_max; lia).
  assert (F0 : Forall (label_ok (h_ctr h)) tr0) by (unfold tr0; repeat (apply Forall_cons; [exact Logic.I || exact OK|]); apply Forall_nil).
  assert (F1 : Forall (label_ok (h_ctr h)) p) by (unfold p; repeat (apply Forall_cons; [exact Logic.I || exact OK|]); apply Forall_nil).
  assert (RN : run h tr0 st) by (split; [exact (build_reachable _ _ _ _ _ _ _ B)|split; [exact F0|exact E0]]).
  assert (RN1 : run h (tr0 ++ p) st1).
  { split; [exact (build_reachable _ _ _ _ _ _ _ B)|split; [apply Forall_app; auto|]]. rewrite exec_app, E0. exact E1. }
  assert (U0 : merged_untouched tr0) by (intros x; unfold tr0; cbn; intuition discriminate).
  assert (U : merged_untouched (tr0 ++ p)) by (intros x; unfold tr0, p; cbn; intuition discriminate).
  assert (MS : merge_safe h) by (left; exact X8).
  assert (T0 : turning false 0 st1).
  { destruct (s_recs st1) as [|[b q pc] [|[b2 q2 pc2] [|? ?]]] eqn:RC; try discriminate X1. cbn in X1, X2. injection X1 as -> ->. injection X2 as -> ->.
    unfold turning. rewrite X3, X4, X5, X6, X7, RC. split; [reflexivity|]. split; [reflexivity|]. split; [unfold usize_max, u64_max; lia|].
    exists b, 1, PReady, [Rec b2 0 PGone]. split; [reflexivity|]. split; [repeat constructor|]. auto. }
  pose proof (turned_inv false o h (tr0 ++ p) st1 RN1 U MS OK T0) as INV.
  exists h, tr0, (pre_s st p (turned false o st1)), (pre_a p (turns false o)).
  split; [exact RN|]. split; [exact U0|].
  split.
  { apply pre_continues; auto. intros k. unfold turns. destruct (INV k) as (_ & _ & ST). split; [|exact ST]. unfold turn_label. generalize (place k). intros m.
    do 9 (destruct m as [|m]; [exact Logic.I || exact OK|]). exact Logic.I. }
  split.
  { intros k x E. unfold pre_a in E. destruct (Nat.ltb_spec k (length p)) as [L|L].
    - apply nth_error_In in E. revert E. unfold p. cbn. intuition discriminate.
    - unfold turns in E. apply (f_equal (fun y => match y with Some l => l | None => REmpty end)) in E. revert E. unfold turn_label. generalize (place (k - length p)). intros m.
      do 9 (destruct m as [|m]; [discriminate|]). discriminate. }
  split.
  { intros k. destruct (soon k 0 ltac:(lia)) as (j & J1 & J2). exists (j + length p)%nat, false. split; [lia|]. unfold pre_a.
    destruct (Nat.ltb_spec (j + length p) (length p)) as [L|L]; [lia|]. rewrite Nat.add_sub. unfold turns. rewrite J2. reflexivity. }
  split; [reflexivity|]. split; [exact X9|]. split; [exact X10|exact X11].
Qed.
