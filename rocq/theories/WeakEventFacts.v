(** * Executions that go on for ever and meet the hypotheses of C82 *)
From Verif Require Import Machine Log2Model HistModel Bins ListZ Wf Spec Reach Witness SyncModel SyncSpec SyncOps SyncFacts SyncRefresh PfSync LiveSpec LiveFacts EventSpec EventFacts
  WeakModel WeakSpec WeakFacts WeakLiveSpec WeakEventSpec.

(** ** An execution of [SyncModel] as one in which every load sees the latest phase *)
Definition fresh (a : nat -> option label) (w : nat -> wstate) (k : nat) : option (label * Z) :=
  match a k with Some l => Some (l, w_now (w k)) | None => None end.
Fixpoint lifted (w0 : wstate) (a : nat -> option label) (k : nat) : wstate :=
  match k with
  | 0%nat => w0
  | Datatypes.S k' => let w := lifted w0 a k' in
      match a k' with Some l => match wstep w (l, w_now w) with Some w' => w' | None => w end | None => w end
  end.
Lemma lifted_ok h0 w0 s a : wok w0 -> w_st w0 = s 0%nat -> continues h0 s a ->
  (forall k, wok (lifted w0 a k) /\ w_st (lifted w0 a k) = s k) /\ wcontinues h0 (lifted w0 a) (fresh a (lifted w0 a)).
Proof.
  intros OK E0 C.
  assert (ST : forall k, wok (lifted w0 a k) /\ w_st (lifted w0 a k) = s k ->
     match a k with Some l => exists w', wstep (lifted w0 a k) (l, w_now (lifted w0 a k)) = Some w' /\ w_st w' = s (Datatypes.S k) /\ lifted w0 a (Datatypes.S k) = w'
                  | None => lifted w0 a (Datatypes.S k) = lifted w0 a k /\ s (Datatypes.S k) = s k end).
  { intros k [K1 K2]. pose proof (C k) as CK. cbn [lifted]. destruct (a k) as [l|]; [|auto]. destruct CK as [_ CK]. rewrite <- K2 in CK.
    destruct (step_wstep _ _ _ (proj1 K1) CK) as (w' & W1 & W2). exists w'. rewrite W1. auto. }
  assert (ALL : forall k, wok (lifted w0 a k) /\ w_st (lifted w0 a k) = s k).
  { induction k as [|k IH]; [auto|]. pose proof (ST k IH) as X. destruct (a k) as [l|].
    - destruct X as (w' & X1 & X2 & X3). rewrite X3. split; [|exact X2]. apply (wok_step _ _ _ _ (proj1 IH) X1).
    - destruct X as [X1 X2]. rewrite X1, X2. exact IH. }
  split; [exact ALL|]. intros k. pose proof (ST k (ALL k)) as X. pose proof (C k) as CK. unfold fresh. destruct (a k) as [l|]; [|apply X].
  split; [apply CK|]. destruct X as (w' & X1 & X2 & ->). exact X1.
Qed.
Lemma fresh_actions a w k : actions (fresh a w) k = a k.
Proof. unfold actions, fresh. destruct (a k); reflexivity. Qed.

(** ** First the schedule [p] *)
Definition wpre_s (w0 : wstate) (p : list (label * Z)) (w : nat -> wstate) (k : nat) : wstate :=
  if (k <? length p)%nat then wsettle w0 p k else w (k - length p)%nat.
Definition wpre_a (p : list (label * Z)) (a : nat -> option (label * Z)) (k : nat) : option (label * Z) :=
  if (k <? length p)%nat then nth_error p k else a (k - length p)%nat.
Lemma wfirst_S (p : list (label * Z)) : forall k x, nth_error p k = Some x -> firstn (Datatypes.S k) p = firstn k p ++ [x].
Proof.
  induction p as [|y p IH]; intros [|k] x E; try discriminate E; [injection E as ->; reflexivity|].
  cbn [nth_error] in E. cbn [firstn app]. f_equal. apply IH. exact E.
Qed.
Lemma wpre_continues h0 w0 p w a : wexec w0 p = Some (w 0%nat) -> Forall (label_ok (h_ctr h0)) (acts p) -> wcontinues h0 w a ->
  wcontinues h0 (wpre_s w0 p w) (wpre_a p a).
Proof.
  intros E F C k. unfold wpre_a, wpre_s. destruct (Nat.ltb_spec k (length p)) as [L|L].
  - destruct (nth_error p k) as [x|] eqn:N; [|apply nth_error_None in N; lia]. split.
    + unfold acts in F. rewrite Forall_map in F. rewrite Forall_forall in F. apply F. eapply nth_error_In; eauto.
    + assert (X : exists w1 w2, wexec w0 (firstn k p) = Some w1 /\ wstep w1 x = Some w2 /\ wexec w0 (firstn (Datatypes.S k) p) = Some w2).
      { pose proof E as E'. rewrite <- (firstn_skipn (Datatypes.S k) p), (wfirst_S p k x N) in E'. rewrite <- app_assoc in E'. cbn [app] in E'.
        apply wexec_cut in E'. destruct E' as (w1 & w2 & E1 & E2 & _). exists w1, w2. split; [exact E1|]. split; [exact E2|].
        rewrite (wfirst_S p k x N), wexec_app, E1. cbn [wexec]. rewrite E2. reflexivity. }
      destruct X as (w1 & w2 & E1 & E2 & E3). unfold wsettle at 1. rewrite E1, E2. f_equal.
      destruct (Nat.ltb_spec (Datatypes.S k) (length p)) as [L2|L2]; [unfold wsettle; rewrite E3; reflexivity|].
      replace (Datatypes.S k - length p)%nat with 0%nat by lia. rewrite firstn_all2 in E3 by lia. congruence.
  - pose proof (C (k - length p)%nat) as X. destruct (Nat.ltb_spec (Datatypes.S k) (length p)) as [L2|L2]; [lia|].
    replace (Datatypes.S k - length p)%nat with (Datatypes.S (k - length p)) by lia. exact X.
Qed.
Lemma wpre_late p a k : wpre_a p a (k + length p)%nat = a k.
Proof. unfold wpre_a. destruct (Nat.ltb_spec (k + length p) (length p)); [lia|]. f_equal. lia. Qed.
Lemma wpre_late_s w0 p w k : wpre_s w0 p w (k + length p)%nat = w k.
Proof. unfold wpre_s. destruct (Nat.ltb_spec (k + length p) (length p)); [lia|]. f_equal. lia. Qed.
Lemma wpre_in p a k x : wpre_a p a k = Some x -> In x p \/ exists j, a j = Some x.
Proof. unfold wpre_a. destruct (k <? length p)%nat; intros E; [left; eapply nth_error_In; eauto|right; eauto]. Qed.

(** ** A first round with a stale load, then rounds for ever *)
Lemma goes_on_stale (t : bool) : exists h0 tr0 w a,
  wrun h0 tr0 (w 0%nat) /\ merged_untouched (acts tr0) /\ guards_dropped (acts tr0) /\ merge_safe h0 /\ s_lock (w_st (w 0%nat)) <> Poisoned /\
  wcontinues h0 w a /\ never_set (actions a) /\ no_leak (actions a) /\ few_recorders (states w) /\ clones_end (actions a) /\
  sections_go_on (states w) (actions a) /\ reader_goes_on (states w) (actions a) /\ s_reader (w_st (w 0%nat)) = RReady /\
  (t = true -> refreshes_with_timeout (states w) (actions a)) /\
  keeps_refreshing (actions a) /\ keeps_recording (actions a) 0 /\ wakes_end (actions a) 0 /\ becomes_visible w a /\ wlooks_in_time a 0 5 /\
  s_history (w_st (w 5%nat)) = [Call 0 0 (ORecord 7 1) true] /\ a 5%nat = Some (LLoad 0, 0) /\ w_now (w 5%nat) = 1 /\
  map (fun r => b_log (r_local r)) (s_recs (w_st (w 7%nat))) = [[Call 0 0 (ORecord 7 1) true]] /\
  b_log (s_merged (w_st (w 10%nat))) = [] /\ b_log (s_merged (w_st (w 11%nat))) = [Call 0 0 (ORecord 7 1) true; Call 1 0 (ORecord 7 1) true].
Proof.
  set (o := ORecord 7 1). set (c := Call 0 0 (ORecord 7 1) true). set (d := Call 1 0 (ORecord 7 1) true).
  set (p := [(RStart t, 0); (REmpty, 0); (RRead, 0); (RShift, 0); (LWrite 0 o, 0); (LLoad 0, 0); (LFinish 0, 0);
             (LWrite 0 o, 0); (LLoad 0, 1); (LFinish 0, 0); (RRecv, 0); (RDone, 0); (REmpty, 0)]).
  assert (X : match build U64 1 1000 2 true [] with
              | Some h => match wexec (winit h) [(RRecorder, 0)] with
                | Some w0 => match wexec w0 p with
                          | Some w1 => map r_pc (s_recs (w_st w1)) = [PReady] /\ map r_phase (s_recs (w_st w1)) = [1] /\ s_phase (w_st w1) = 1 /\ s_count (w_st w1) = 1 /\
                              s_lock (w_st w1) = Free /\ s_chan (w_st w1) = [] /\ s_reader (w_st w1) = RReady /\
                              is_auto_resize h = true /\ h_ctr h = U64 /\ s_history (w_st (wsettle w0 p 5)) = [c] /\ w_now (wsettle w0 p 5) = 1 /\
                              map (fun r => b_log (r_local r)) (s_recs (w_st (wsettle w0 p 7))) = [[c]] /\
                              b_log (s_merged (w_st (wsettle w0 p 10))) = [] /\ b_log (s_merged (w_st (wsettle w0 p 11))) = [c; d] /\ w_now w1 = 1 /\
                              s_lock (w_st w0) = Free /\ s_reader (w_st w0) = RReady /\
                              forallb (fun k => match s_recs (w_st (wsettle w0 p k)) with [r] => negb (in_section r) | _ => false end) (seq 0 13) = true /\
                              exec (init h) (RRecorder :: [RStart t; REmpty; RRead; LWrite 0 o; LLoad 0; LFinish 0; RShift; LWrite 0 o; LLoad 0; LFinish 0; RRecv; RDone; REmpty]) = Some (w_st w1)
                          | None => False end
                | None => False end
              | None => False end) by (destruct t; vm_compute; auto 30).
  destruct (build _ _ _ _ _ _) as [h|] eqn:B; [|contradiction]. destruct (wexec (winit h) [(RRecorder, 0)]) as [w0|] eqn:E0; [|contradiction].
  destruct (wexec w0 p) as [w1|] eqn:E1; [|contradiction].
  destruct X as (X1 & X2 & X3 & X4 & X5 & X6 & X7 & X8 & CT & X9 & X10 & X11 & X12 & X13 & X14 & X15 & X16 & X17 & X18).
  assert (OK : op_ok (h_ctr h) o) by (rewrite CT; cbn; unfold is_u64, is_count, cmax, u64_max; lia).
  assert (F1 : Forall (label_ok (h_ctr h)) (acts p)) by (unfold p; cbn [acts map fst]; repeat (apply Forall_cons; [exact Logic.I || exact OK|]); apply Forall_nil).
  assert (RN0 : wrun h [(RRecorder, 0)] w0) by (split; [exact (build_reachable _ _ _ _ _ _ _ B)|split; [repeat constructor|exact E0]]).
  assert (RN1 : wrun h ([(RRecorder, 0)] ++ p) w1) by (apply (wrun_app h _ p w0); auto).
  assert (MS : merge_safe h) by (left; exact X8).
  assert (OK1 : wok w1) by (destruct RN1 as (_ & _ & E); apply (wok_run h _ _ E)).
  (* the same state, reached with the latest values only *)
  assert (R : exists tr st, run h tr st /\ merged_untouched tr /\ st = w_st w1).
  { set (ls := RRecorder :: map fst p).
    exists (RRecorder :: [RStart t; REmpty; RRead; LWrite 0 o; LLoad 0; LFinish 0; RShift; LWrite 0 o; LLoad 0; LFinish 0; RRecv; RDone; REmpty]), (w_st w1).
    split; [|split; [intros x; cbn; intuition discriminate|reflexivity]]. split; [exact (build_reachable _ _ _ _ _ _ _ B)|].
    split; [repeat (apply Forall_cons; [exact Logic.I || exact OK|]); apply Forall_nil|].
    exact X18. }
  destruct R as (trs & st & RNS & US & EQ).
  assert (T0 : turning t 0 st).
  { rewrite EQ. destruct (s_recs (w_st w1)) as [|[b q pc] [|? ?]] eqn:RC; try discriminate X1. cbn in X1, X2. injection X1 as ->. injection X2 as ->.
    unfold turning. rewrite X3, X4, X5, X6, X7, RC. split; [reflexivity|]. split; [reflexivity|]. split; [unfold usize_max, u64_max; lia|]. exists b, 1, PReady, []. auto 10. }
  pose proof (turned_inv t o h trs st RNS US MS OK T0) as INV.
  assert (CS : continues h (turned t o st) (turns t o)).
  { intros k. unfold turns. destruct (INV k) as (_ & _ & ST). split; [|exact ST]. unfold turn_label. generalize (place k). intros m.
    do 9 (destruct m as [|m]; [exact Logic.I || exact OK|]). exact Logic.I. }
  destruct (lifted_ok h w1 (turned t o st) (turns t o) OK1 (eq_sym EQ) CS) as [LST LC].
  set (wl := lifted w1 (turns t o)) in *. set (al := fresh (turns t o) wl) in *.
  exists h, [(RRecorder, 0)], (wpre_s w0 p wl), (wpre_a p al).
  assert (AL : forall k l, al k = Some l -> l = (turn_label t o (place k), w_now (wl k))) by (intros k l E; unfold al, fresh, turns in E; congruence).
  assert (CONT : wcontinues h (wpre_s w0 p wl) (wpre_a p al)) by (apply wpre_continues; auto).
  assert (LATE : forall k m, (m < 10)%nat -> exists j, (k <= j < k + 10 + length p)%nat /\ (length p <= j)%nat /\ wpre_a p al j = Some (turn_label t o m, w_now (wpre_s w0 p wl j))).
  { intros k m M. destruct (soon k m M) as (j & J1 & J2). exists (j + length p)%nat. split; [lia|]. split; [lia|]. rewrite wpre_late, wpre_late_s. unfold al, fresh, turns. rewrite J2. reflexivity. }
  assert (NEVER : forall l, ~ In l (acts p) -> (forall m, (m < 10)%nat -> turn_label t o m <> l) -> forall k, actions (wpre_a p al) k <> Some l).
  { intros l N1 N2 k E. unfold actions in E. destruct (wpre_a p al k) as [x|] eqn:A; [|discriminate]. cbn in E. injection E as E.
    destruct (wpre_in _ _ _ _ A) as [I|(j & J)]; [apply N1; rewrite <- E; apply in_map; exact I|]. apply AL in J. subst x. apply (N2 (place j) (place_lt j) E). }
  assert (NX : forall x k n, (x < 10)%nat -> wpre_a p al k = Some (turn_label t o x, n) -> actions (wpre_a p al) k = Some (turn_label t o x)) by (intros x k n _ E; unfold actions; rewrite E; reflexivity).
  assert (ONE : forall k, exists r, s_recs (states (wpre_s w0 p wl) k) = [r] /\ in_section r = false).
  { intros k. unfold states, wpre_s. destruct (Nat.ltb_spec k (length p)) as [Q|Q].
    - rewrite forallb_forall in X17. specialize (X17 k ltac:(apply in_seq; unfold p in Q; cbn in Q; lia)).
      destruct (s_recs (w_st (wsettle w0 p k))) as [|r [|? ?]]; try discriminate X17. exists r. split; [reflexivity|]. destruct (in_section r); [discriminate X17|reflexivity].
    - destruct (LST (k - length p)%nat) as [_ ->]. destruct (INV (k - length p)%nat) as (_ & (_ & _ & _ & b & q & pc & gs & RC & _ & Y) & _).
      assert (GS : gs = []).
      { assert (LN : forall j, length (s_recs (turned t o st j)) = 1%nat).
        { induction j as [|j IH]; [rewrite <- (map_length r_pc); cbn [turned]; rewrite EQ, X1; reflexivity|].
          destruct (INV j) as (_ & _ & ST). destruct (recs_length _ _ _ ST) as [->|[_ [[i N]|N]]]; [exact IH| |]; exfalso; revert N; unfold turn_label; generalize (place j); intros m; do 9 (destruct m as [|m]; [discriminate|]); discriminate. }
        specialize (LN (k - length p)%nat). rewrite RC in LN. destruct gs; [reflexivity|discriminate LN]. }
      subst gs. exists (Rec b q pc). split; [exact RC|]. revert Y. generalize (place (k - length p)). intros m. do 9 (try destruct m as [|m]); intros (_ & -> & _); reflexivity. }
  split; [exact RN0|]. split; [intros x [H|[]]; discriminate H|]. split; [intros x [H|[]]; discriminate H|]. split; [exact MS|]. split; [cbn; congruence|]. split; [exact CONT|].
  split; [intros k x; apply NEVER; [cbn; intuition discriminate|intros m M; unfold turn_label; do 9 (destruct m as [|m]; [discriminate|]); discriminate]|].
  split; [intros k x; apply NEVER; [cbn; intuition discriminate|intros m M; unfold turn_label; do 9 (destruct m as [|m]; [discriminate|]); discriminate]|].
  split; [intros k; destruct (ONE k) as (r & RC & _); unfold active_recorders; rewrite RC; cbn [filter]; destruct (is_active r); cbn; unfold usize_max, u64_max; lia|].
  split; [exists 0%nat; intros k i _; apply NEVER; [cbn; intuition discriminate|intros m M; unfold turn_label; do 9 (destruct m as [|m]; [discriminate|]); discriminate]|].
  split; [intros i k r J S; exfalso; destruct (ONE k) as (r1 & RC & NS); rewrite RC in J; destruct i as [|[|i]]; cbn in J; try discriminate J; congruence|].
  split; [intros k; destruct (LATE k 1%nat ltac:(lia)) as (j & J1 & _ & J2); exists j; split; [lia|]; left; exists REmpty; split; [unfold actions; rewrite J2; reflexivity|exact Logic.I]|].
  split; [exact X16|].
  split.
  { intros T1. split.
    - intros k _. destruct (LATE k 0%nat ltac:(lia)) as (j & J1 & _ & J2). exists j. split; [lia|]. unfold actions. rewrite J2, T1. reflexivity.
    - intros k. split; apply NEVER; try (cbn; rewrite T1; intuition discriminate); intros m M; unfold turn_label; rewrite T1; do 9 (destruct m as [|m]; [discriminate|]); discriminate. }
  split; [intros k; destruct (LATE k 0%nat ltac:(lia)) as (j & J1 & _ & J2); exists j, t; split; [lia|unfold actions; rewrite J2; reflexivity]|].
  split; [intros k; destruct (LATE k 4%nat ltac:(lia)) as (j & J1 & _ & J2); exists j, o; split; [lia|unfold actions; rewrite J2; reflexivity]|].
  split; [exists 0%nat; intros k _; apply NEVER; [cbn; intuition discriminate|intros m M; unfold turn_label; do 9 (destruct m as [|m]; [discriminate|]); discriminate]|].
  assert (MONO : forall k e, w_now (wpre_s w0 p wl k) <= w_now (wpre_s w0 p wl (k + e)%nat)).
  { intros k. induction e as [|e IH]; [rewrite Nat.add_0_r; lia|]. rewrite Nat.add_succ_r. pose proof (CONT (k + e)%nat) as CK.
    destruct (wpre_a p al (k + e)%nat) as [[l n]|]; [|rewrite CK; exact IH]. destruct CK as [_ ST]. rewrite (now_step _ _ _ _ ST).
    pose proof (shifts_nonneg [l]). lia. }
  split.
  { intros k. exists (Nat.max k (length p)). intros j l n L A _. unfold wpre_a in A. destruct (Nat.ltb_spec j (length p)) as [Q|Q]; [lia|].
    apply AL in A. injection A as _ ->. pose proof (MONO k (j - k)%nat) as M. replace (k + (j - k))%nat with j in M by lia.
    unfold wpre_s in M at 2. destruct (Nat.ltb_spec j (length p)); [lia|]. exact M. }
  split.
  { (* at most 23 moments between two looks, so at most as many moves *)
    assert (STEP : forall k e, w_now (wpre_s w0 p wl (k + e)%nat) <= w_now (wpre_s w0 p wl k) + Z.of_nat e).
    { intros k. induction e as [|e IH]; [rewrite Nat.add_0_r; lia|]. rewrite Nat.add_succ_r. pose proof (CONT (k + e)%nat) as CK.
      destruct (wpre_a p al (k + e)%nat) as [[l n]|]; [|rewrite CK; lia]. destruct CK as [_ ST]. rewrite (now_step _ _ _ _ ST), shifts_one. destruct l; lia. }
    intros j1 n1 j2 n2 L RD1 RD2 NB.
    assert (GAP : (j2 <= j1 + 24)%nat).
    { destruct (Nat.le_gt_cases j2 (j1 + 24)) as [Q|Q]; [exact Q|]. exfalso.
      destruct (LATE (Datatypes.S j1) 5%nat ltac:(lia)) as (j & J1 & _ & J2). cbn [length] in J1. apply (NB j (w_now (wpre_s w0 p wl j))); [unfold p in J1; cbn in J1; lia|].
      exists (LLoad 0). split; [exact J2|left; reflexivity]. }
    assert (N1 : w_now (wpre_s w0 p wl j1) - 1 <= n1).
    { destruct RD1 as (l & A & LK). unfold wpre_a in A. unfold wpre_s. destruct (Nat.ltb_spec j1 (length p)) as [Q|Q].
      - clear - Q A LK E0 E1 X9 X10 L B. unfold p in Q. cbn in Q.
        assert (Z1 : w_now w0 = 0) by (apply (wnow h [(RRecorder, 0)] w0 E0)).
        assert (Z2 : forall k, (k <= 13)%nat -> w_now (wsettle w0 p k) <= 1).
        { intros k KL. unfold wsettle. destruct (wexec w0 (firstn k p)) as [w2|] eqn:EK; [|lia]. rewrite (now_mono _ _ _ EK), Z1.
          do 14 (destruct k as [|k]; [vm_compute; discriminate|]). lia. }
        specialize (Z2 j1 ltac:(lia)).
        assert (0 <= n1); [|lia]. apply nth_error_In in A. unfold p in A. cbn in A. intuition (try congruence); match goal with H : _ = (l, n1) |- _ => injection H as _ <-; lia end.
      - apply AL in A. assert (NN : n1 = w_now (wl (j1 - length p)%nat)) by congruence. rewrite NN. clear. lia. }
    assert (N2 : n2 <= w_now (wpre_s w0 p wl j2)).
    { destruct RD2 as (l & A & LK). pose proof (CONT j2) as CK. rewrite A in CK. destruct CK as [_ ST].
      assert (LO : load_of l = Some 0%nat) by (destruct LK as [-> | ->]; reflexivity). destruct (wstep_load _ _ _ _ _ LO ST) as (BB & _). lia. }
    pose proof (STEP j1 (j2 - j1)%nat) as SB. replace (j1 + (j2 - j1))%nat with j2 in SB by lia. unfold usize_max, u64_max. lia. }
  split; [exact X9|]. split; [reflexivity|]. split; [exact X10|]. split; [exact X11|]. split; [exact X12|exact X13].
Qed.

(** ** Rounds in which recorder 0 never sees that the phase has moved *)
Definition blind_label (o : op) (m : nat) : label :=
  match m with
  | 0 => RStart true | 1 => REmpty | 2 => RRead | 3 => RShift | 4 => LWrite 0 o | 5 => LLoad 0 | 6 => LFinish 0
  | 7 => RTimeout | _ => REmpty
  end%nat.
Definition blindly (L : list call) (m : nat) (w : wstate) : Prop :=
  s_lock (w_st w) = Free /\ s_count (w_st w) = 1 /\ 0 <= w_now w /\ view (w_views w) 0 = 0 /\ s_chan (w_st w) = [] /\ b_log (s_merged (w_st w)) = L /\
  exists b pc gs, s_recs (w_st w) = Rec b 0 pc :: gs /\
  match m with
  | 0 => pc = PReady /\ s_reader (w_st w) = RReady
  | 1 => pc = PReady /\ s_reader (w_st w) = RDrain true
  | 2 => pc = PReady /\ s_reader (w_st w) = RCount true
  | 3 => pc = PReady /\ s_reader (w_st w) = RBump true 1
  | 4 => pc = PReady /\ s_reader (w_st w) = RWait true 1 0
  | 5 => pc = PWrote /\ s_reader (w_st w) = RWait true 1 0
  | 6 => pc = PLoaded 0 /\ s_reader (w_st w) = RWait true 1 0
  | 7 => pc = PReady /\ s_reader (w_st w) = RWait true 1 0
  | _ => pc = PReady /\ s_reader (w_st w) = RDrain2
  end%nat.
Definition bnext (m : nat) : nat := match m with 8%nat => 0%nat | _ => Datatypes.S m end.
Lemma view_put0 vs v : view vs 0 = 0 -> v = 0 -> view (put_view vs 0 v) 0 = 0.
Proof. intros H ->. destruct vs; reflexivity. Qed.
Lemma blind_step L h0 tr m w o : wrun h0 tr w -> op_ok (h_ctr h0) o -> (m < 9)%nat -> blindly L m w ->
  exists w', wstep w (blind_label o m, 0) = Some w' /\ blindly L (bnext m) w'.
Proof.
  intros RN OK M (LK & CN & NW & VW & CH & ML & b & pc & gs & RC & X).
  do 9 (try destruct m as [|m]); try lia; cbn [blind_label bnext]; destruct X as [-> RD].
  1-4,8-9: eexists; cbn [wstep step]; rewrite RD, ?LK, ?CH, ?CN; cbn [Z.ltb Z.compare]; (split; [reflexivity|]); unfold blindly;
    cbn [w_st w_now w_views put_reader s_lock s_count s_chan s_merged s_recs s_reader];
    (split; [auto|]); (split; [exact CN || reflexivity|]); (split; [lia|]); (split; [exact VW|]); (split; [exact CH || reflexivity|]); (split; [exact ML|]); exists b, PReady, gs; auto.
  - destruct (wtyped h0 tr w RN) as (_ & _ & T). rewrite RC in T. inversion T as [|? ? [R1 CT] _]; subst. cbn in R1, CT.
    rewrite <- CT in OK. destruct (op_facts _ o R1 OK) as (h' & ok & EO & _).
    eexists. cbn [wstep step]. rewrite RC. cbn [nth_error]. rewrite EO. split; [reflexivity|].
    unfold blindly. cbn. rewrite RC. cbn. split; [exact LK|]. split; [exact CN|]. split; [exact NW|]. split; [exact VW|]. split; [exact CH|]. split; [reflexivity|].
    eexists _, PWrote, gs. auto.
  - eexists. cbn [wstep]. rewrite VW. replace ((0 <=? 0) && (0 <=? w_now w))%bool with true by (symmetry; apply andb_true_iff; split; apply Z.leb_le; lia).
    cbn [step with_phase s_recs]. rewrite RC. cbn [nth_error]. split; [reflexivity|].
    unfold blindly. cbn [w_st w_now w_views with_phase put_rec s_lock s_count s_chan s_merged s_recs s_reader]. rewrite RC.
    split; [exact LK|]. split; [exact CN|]. split; [exact NW|]. split; [apply view_put0; auto|]. split; [exact CH|]. split; [exact ML|].
    exists b, (PLoaded 0), gs. split; [reflexivity|]. split; [reflexivity|exact RD].
  - eexists. cbn [wstep step]. rewrite RC. cbn [nth_error Z.eqb]. split; [reflexivity|].
    unfold blindly. cbn [w_st w_now w_views put_rec s_lock s_count s_chan s_merged s_recs s_reader]. rewrite RC.
    split; [exact LK|]. split; [exact CN|]. split; [exact NW|]. split; [exact VW|]. split; [exact CH|]. split; [exact ML|].
    exists b, PReady, gs. split; [reflexivity|]. auto.
Qed.
Definition bplace (k : nat) : nat := (k mod 9)%nat.
Lemma bplace_lt k : (bplace k < 9)%nat.
Proof. unfold bplace. apply Nat.mod_upper_bound. discriminate. Qed.
Lemma bplace_next k : bplace (Datatypes.S k) = bnext (bplace k).
Proof.
  unfold bplace. pose proof (Nat.mod_upper_bound k 9 ltac:(discriminate)) as B. pose proof (Nat.div_mod k 9 ltac:(discriminate)) as D.
  remember (k mod 9)%nat as m. remember (k / 9)%nat as d. clear Heqm Heqd. subst k.
  assert (X : m = 8%nat \/ (m < 8)%nat) by lia. destruct X as [->|X].
  - replace (Datatypes.S (9 * d + 8)) with (0 + (Datatypes.S d) * 9)%nat by lia. rewrite Nat.mod_add by discriminate. reflexivity.
  - replace (Datatypes.S (9 * d + m)) with (Datatypes.S m + d * 9)%nat by lia. rewrite Nat.mod_add by discriminate. rewrite Nat.mod_small by lia.
    do 8 (try destruct m as [|m]); try lia; reflexivity.
Qed.
Lemma bsoon k m : (m < 9)%nat -> exists j, (k <= j < k + 9)%nat /\ bplace j = m.
Proof.
  intros M. pose proof (Nat.mod_upper_bound k 9 ltac:(discriminate)) as B. pose proof (Nat.div_mod k 9 ltac:(discriminate)) as D.
  destruct (Nat.le_gt_cases (k mod 9) m) as [L|L].
  - exists (m + k / 9 * 9)%nat. split; [lia|]. unfold bplace. rewrite Nat.mod_add by discriminate. apply Nat.mod_small. exact M.
  - exists (m + Datatypes.S (k / 9) * 9)%nat. split; [lia|]. unfold bplace. rewrite Nat.mod_add by discriminate. apply Nat.mod_small. exact M.
Qed.
Definition blinds (o : op) (k : nat) : option (label * Z) := Some (blind_label o (bplace k), 0).
Fixpoint blinded (o : op) (w : wstate) (k : nat) : wstate :=
  match k with
  | 0%nat => w
  | Datatypes.S k' => match wstep (blinded o w k') (blind_label o (bplace k'), 0) with Some x => x | None => blinded o w k' end
  end.
Lemma blind_ok T o m : op_ok T o -> label_ok T (blind_label o m).
Proof. intros OK. unfold blind_label. do 8 (destruct m as [|m]; [exact Logic.I || exact OK|]). exact Logic.I. Qed.
Lemma blinded_inv L o h0 tr0 w0 : wrun h0 tr0 w0 -> op_ok (h_ctr h0) o -> blindly L 0 w0 ->
  (forall k, blindly L (bplace k) (blinded o w0 k)) /\ wcontinues h0 (blinded o w0) (blinds o).
Proof.
  intros RN OK X0.
  assert (ALL : forall k, (exists tr, wrun h0 tr (blinded o w0 k)) /\ blindly L (bplace k) (blinded o w0 k)).
  { induction k as [|k [(tr & R1) IH]]; [split; [exists tr0; auto|exact X0]|].
    cbn [blinded]. destruct (blind_step L h0 tr (bplace k) _ o R1 OK (bplace_lt k) IH) as (w' & ST & X). rewrite ST, bplace_next. split; [|exact X].
    exists (tr ++ [(blind_label o (bplace k), 0)]). apply (wrun_app h0 tr _ (blinded o w0 k)); auto; [repeat constructor; apply blind_ok; exact OK|cbn [wexec]; rewrite ST; reflexivity]. }
  split; [apply ALL|]. intros k. unfold blinds. destruct (ALL k) as [(tr & R1) X]. split; [apply blind_ok; exact OK|].
  cbn [blinded]. destruct (blind_step L h0 tr (bplace k) _ o R1 OK (bplace_lt k) X) as (w' & ST & _). rewrite ST. reflexivity.
Qed.
Lemma blind_never o l : (forall m, (m < 9)%nat -> blind_label o m <> l) -> forall k, actions (blinds o) k <> Some l.
Proof. intros H k E. unfold actions, blinds in E. cbn in E. injection E as E. apply (H (bplace k)); [apply bplace_lt|exact E]. Qed.

Lemma never_sees : exists h0 tr0 w a,
  wrun h0 tr0 (w 0%nat) /\ merged_untouched (acts tr0) /\ wcontinues h0 w a /\ never_set (actions a) /\
  keeps_refreshing (actions a) /\ keeps_recording (actions a) 0 /\ wakes_end (actions a) 0 /\ wlooks_in_time a 0 0 /\
  s_history (w_st (w 5%nat)) = [Call 0 0 (ORecord 7 1) true] /\ forall k, b_log (s_merged (w_st (w k))) = [].
Proof.
  set (o := ORecord 7 1).
  assert (X : match build U64 1 1000 2 true [] with
              | Some h => match wexec (winit h) [(RRecorder, 0)] with
                | Some w0 => map r_pc (s_recs (w_st w0)) = [PReady] /\ map r_phase (s_recs (w_st w0)) = [0] /\ s_count (w_st w0) = 1 /\
                              s_lock (w_st w0) = Free /\ s_chan (w_st w0) = [] /\ s_reader (w_st w0) = RReady /\ w_now w0 = 0 /\ w_views w0 = [0] /\
                              b_log (s_merged (w_st w0)) = [] /\ h_ctr h = U64 /\ s_history (w_st (blinded o w0 5)) = [Call 0 0 (ORecord 7 1) true]
                | None => False end
              | None => False end) by (vm_compute; auto 20).
  destruct (build _ _ _ _ _ _) as [h|] eqn:B; [|contradiction]. destruct (wexec (winit h) [(RRecorder, 0)]) as [w0|] eqn:E0; [|contradiction].
  destruct X as (X1 & X2 & X4 & X5 & X6 & X7 & X8 & X9 & X10 & CT & X11).
  assert (OK : op_ok (h_ctr h) o) by (rewrite CT; cbn; unfold is_u64, is_count, cmax, u64_max; lia).
  assert (RN0 : wrun h [(RRecorder, 0)] w0) by (split; [exact (build_reachable _ _ _ _ _ _ _ B)|split; [repeat constructor|exact E0]]).
  assert (T0 : blindly [] 0 w0).
  { destruct (s_recs (w_st w0)) as [|[b q pc] [|? ?]] eqn:RC; try discriminate X1. cbn in X1, X2. injection X1 as ->. injection X2 as ->.
    unfold blindly. rewrite X4, X5, X6, X7, X8, X9, RC. split; [reflexivity|]. split; [reflexivity|]. split; [lia|]. split; [reflexivity|]. split; [reflexivity|]. split; [exact X10|].
    exists b, PReady, []. auto. }
  destruct (blinded_inv [] o h _ w0 RN0 OK T0) as [INV CONT].
  exists h, [(RRecorder, 0)], (blinded o w0), (blinds o).
  split; [exact RN0|]. split; [intros x [H|[]]; discriminate H|]. split; [exact CONT|].
  split; [intros k x; apply blind_never; intros m M; unfold blind_label; do 8 (destruct m as [|m]; [discriminate|]); discriminate|].
  split; [intros k; destruct (bsoon k 0 ltac:(lia)) as (j & J1 & J2); exists j, true; split; [lia|]; unfold actions, blinds; rewrite J2; reflexivity|].
  split; [intros k; destruct (bsoon k 4 ltac:(lia)) as (j & J1 & J2); exists j, o; split; [lia|]; unfold actions, blinds; rewrite J2; reflexivity|].
  split; [exists 0%nat; intros k _; apply blind_never; intros m M; unfold blind_label; do 8 (destruct m as [|m]; [discriminate|]); discriminate|].
  split; [intros j1 n1 j2 n2 _ (l1 & A1 & _) (l2 & A2 & _) _; unfold blinds in A1, A2; injection A1 as _ <-; injection A2 as _ <-; discriminate|].
  split; [exact X11|]. intros k. apply (INV k).
Qed.

(** recorder 1 records 7 and is dropped; nobody ever sees that the phase has moved *)
Lemma goes_on_blind_dropped : exists h0 tr0 w a,
  wrun h0 tr0 (w 0%nat) /\ merged_untouched (acts tr0) /\ wcontinues h0 w a /\ never_set (actions a) /\ keeps_refreshing (actions a) /\
  actions a 0%nat = Some (LDropEnd 1) /\ s_history (w_st (w 0%nat)) = [Call 0 1 (ORecord 7 1) true] /\
  (forall k l n, a k = Some (l, n) -> is_load l -> n = 0) /\
  b_log (s_merged (w_st (w 2%nat))) = [] /\ b_log (s_merged (w_st (w 3%nat))) = [Call 0 1 (ORecord 7 1) true].
Proof.
  set (o := ORecord 7 1). set (c := Call 0 1 (ORecord 7 1) true).
  set (tr0 := [(RRecorder, 0); (RRecorder, 0); (LWrite 1 o, 0); (LLoad 1, 0); (LFinish 1, 0); (LDrop 1, 0)]).
  set (p := [(LDropEnd 1, 0); (RStart true, 0); (RRecv, 0); (REmpty, 0); (RRead, 0); (RShift, 0); (RTimeout, 0); (REmpty, 0)]).
  assert (X : match build U64 1 1000 2 true [] with
              | Some h => match wexec (winit h) tr0 with
                | Some w0 => match wexec w0 p with
                          | Some w1 => map r_pc (s_recs (w_st w1)) = [PReady; PGone] /\ map r_phase (s_recs (w_st w1)) = [0; 0] /\ s_count (w_st w1) = 1 /\
                              s_lock (w_st w1) = Free /\ s_chan (w_st w1) = [] /\ s_reader (w_st w1) = RReady /\ w_now w1 = 1 /\ w_views w1 = [0; 0] /\
                              b_log (s_merged (w_st w1)) = [c] /\ h_ctr h = U64 /\ s_history (w_st w0) = [c] /\
                              b_log (s_merged (w_st (wsettle w0 p 2))) = [] /\ b_log (s_merged (w_st (wsettle w0 p 3))) = [c]
                          | None => False end
                | None => False end
              | None => False end) by (vm_compute; auto 20).
  destruct (build _ _ _ _ _ _) as [h|] eqn:B; [|contradiction]. destruct (wexec (winit h) tr0) as [w0|] eqn:E0; [|contradiction].
  destruct (wexec w0 p) as [w1|] eqn:E1; [|contradiction].
  destruct X as (X1 & X2 & X4 & X5 & X6 & X7 & X8 & X9 & X10 & CT & X11 & X12 & X13).
  assert (OK : op_ok (h_ctr h) o) by (rewrite CT; cbn; unfold is_u64, is_count, cmax, u64_max; lia).
  assert (F0 : Forall (label_ok (h_ctr h)) (acts tr0)) by (unfold tr0; cbn [acts map fst]; repeat (apply Forall_cons; [exact Logic.I || exact OK|]); apply Forall_nil).
  assert (F1 : Forall (label_ok (h_ctr h)) (acts p)) by (unfold p; cbn [acts map fst]; repeat (apply Forall_cons; [exact Logic.I || exact OK|]); apply Forall_nil).
  assert (RN0 : wrun h tr0 w0) by (split; [exact (build_reachable _ _ _ _ _ _ _ B)|split; [exact F0|exact E0]]).
  assert (RN1 : wrun h (tr0 ++ p) w1) by (apply (wrun_app h _ p w0); auto).
  assert (T0 : blindly [c] 0 w1).
  { destruct (s_recs (w_st w1)) as [|[b q pc] [|? [|? ?]]] eqn:RC; try discriminate X1. cbn in X1, X2. injection X1 as -> X1. injection X2 as -> X2.
    unfold blindly. rewrite X4, X5, X6, X7, X8, X9, RC. split; [reflexivity|]. split; [reflexivity|]. split; [lia|]. split; [reflexivity|]. split; [reflexivity|]. split; [exact X10|].
    eexists b, PReady, _. auto. }
  destruct (blinded_inv [c] o h _ w1 RN1 OK T0) as [INV CONT].
  exists h, tr0, (wpre_s w0 p (blinded o w1)), (wpre_a p (blinds o)).
  split; [exact RN0|]. split; [intros x; unfold tr0; cbn; intuition discriminate|]. split; [apply wpre_continues; auto|].
  split.
  { intros k x E. unfold actions in E. destruct (wpre_a p (blinds o) k) as [y|] eqn:A; [|discriminate]. cbn in E. injection E as E.
    destruct (wpre_in _ _ _ _ A) as [I|(j & J)]; [revert I E; unfold p; cbn; intuition (subst y; discriminate)|].
    apply (blind_never o (RSet x)) with (k := j); [intros m M; unfold blind_label; do 8 (destruct m as [|m]; [discriminate|]); discriminate|].
    unfold actions. rewrite J. cbn. congruence. }
  split.
  { intros k. destruct (bsoon k 0 ltac:(lia)) as (j & J1 & J2). exists (j + length p)%nat, true. split; [lia|]. unfold actions. rewrite wpre_late. unfold blinds. rewrite J2. reflexivity. }
  split; [reflexivity|]. split; [exact X11|].
  split.
  { intros k l n A _. destruct (wpre_in _ _ _ _ A) as [I|(j & J)]; [revert I; unfold p; cbn; intuition congruence|]. unfold blinds in J. congruence. }
  split; [exact X12|exact X13].
Qed.
