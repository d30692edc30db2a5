(** * C43, C44: how much one call of [refresh] can miss, for every interleaving *)
From Coq Require Import Permutation.
From Verif Require Import Machine Log2Model HistModel Bins ListZ Wf Spec Reach Witness SyncModel SyncSpec SyncOps SyncFacts SyncRefresh PfSync LiveSpec LiveFacts PfDeliver MissSpec.
(*PROPS-IMPORTS Machine Log2Model HistModel Spec Reach Witness Cases CasesSync SyncModel SyncSpec MissSpec *)

(** *)
Definition load (ph : Z) (r : recorder) : Z := match r_pc r with PDropping => 1 | _ => owed ph r end.
Definition load1 (ph : Z) (r : recorder) : Z :=
  match r_pc r with PReady | PWrote | PLoaded _ | PIdling => owed ph r + 1 | PDropping => 1 | _ => owed ph r end.
Lemma owed_nonneg ph r : 0 <= owed ph r.
Proof. unfold owed. destruct (r_pc r); repeat destruct (_ =? _); lia. Qed.
Lemma load_nonneg ph r : 0 <= load ph r.
Proof. unfold load. pose proof (owed_nonneg ph r). destruct (r_pc r); lia. Qed.
Definition budget (D : Z) (st : state) : Prop :=
  match s_reader st with
  | RDrain _ | RDrain2 | RReady => sumr (owed (s_phase st)) (s_recs st) <= D
  | RCount _ => sumr (owed (s_phase st)) (s_recs st) + zlen (s_chan st) <= D
  | RBump _ n => sumr (load1 (s_phase st)) (s_recs st) + zlen (s_chan st) <= n + D
  | RWait _ n k => sumr (load (s_phase st)) (s_recs st) + zlen (s_chan st) + k <= n + D
  | _ => True
  end.
Lemma disturbance_nonneg st l : 0 <= disturbance st l.
Proof. unfold disturbance. destruct (s_reader st), l; try destruct (up_to_date _ _); lia. Qed.
Lemma budget_eq D D' st st' : s_reader st' = s_reader st -> s_phase st' = s_phase st -> s_recs st' = s_recs st -> s_chan st' = s_chan st ->
  D <= D' -> budget D st -> budget D' st'.
Proof. unfold budget. intros -> -> -> ->. destruct (s_reader st); lia || auto. Qed.
Definition put_le (d : Z) (rd : rpc) (ph : Z) (x r : recorder) (s : Z) : Prop :=
  match rd with
  | RDrain _ | RDrain2 | RReady => owed ph r <= owed ph x + d
  | RCount _ => owed ph r + s <= owed ph x + d
  | RBump _ _ => load1 ph r + s <= load1 ph x + d
  | RWait _ _ _ => load ph r + s <= load ph x + d
  | _ => True
  end.
Lemma budget_put D d st i x r k c : nth_error (s_recs st) i = Some x -> put_le d (s_reader st) (s_phase st) x r 0 ->
  budget D st -> budget (D + d) (put_rec (put_lock st k c) i r).
Proof.
  unfold budget, put_le. cbn. intros E P B. destruct (s_reader st); auto; rewrite (sumr_put _ _ _ _ _ E); lia.
Qed.
Lemma budget_send D d st i x r b : nth_error (s_recs st) i = Some x -> put_le d (s_reader st) (s_phase st) x r 1 ->
  budget D st -> budget (D + d) (put_rec (send st b) i r).
Proof.
  intros E P B. destruct (send_cases st b) as [(X & ->)|(_ & ->)].
  - unfold budget. cbn. rewrite X. exact I.
  - unfold budget, put_le in *. cbn. destruct (s_reader st); auto; rewrite (sumr_put _ _ _ _ _ E); rewrite ?zlen_app; change (zlen [b]) with 1; lia.
Qed.
Lemma budget_push D d st r k c : (match s_reader st with RDrain _ | RCount _ | RDrain2 | RReady => owed (s_phase st) r <= d
    | RBump _ _ => load1 (s_phase st) r <= d | RWait _ _ _ => load (s_phase st) r <= d | _ => True end) ->
  budget D st -> budget (D + d) (State (s_merged st) (s_chan st) k c (s_phase st) (s_recs st ++ [r]) (s_reader st) (s_history st)).
Proof. unfold budget. cbn. destruct (s_reader st); auto; rewrite sumr_app; lia. Qed.
Ltac ph_cases := repeat match goal with
  | |- context [?x =? ?y] => destruct (Z.eqb_spec x y); subst
  end.
Lemma same_lock st : put_lock st (s_lock st) (s_count st) = st.
Proof. destruct st; reflexivity. Qed.
Lemma budget_put0 D d st i x r : nth_error (s_recs st) i = Some x -> put_le d (s_reader st) (s_phase st) x r 0 ->
  budget D st -> budget (D + d) (put_rec st i r).
Proof. intros E P B. pose proof (budget_put D d st i x r (s_lock st) (s_count st) E P B) as X. rewrite same_lock in X. exact X. Qed.
Ltac side := unfold put_le, disturbance, up_to_date, load, load1, owed; cbn [r_pc r_phase s_phase put_lock s_reader s_recs];
  try (match goal with K : nth_error _ _ = Some _ |- _ => rewrite K end); cbn [r_pc r_phase];
  match goal with |- context [s_reader ?st] => destruct (s_reader st) end; auto; ph_cases; try lia; try congruence.
Lemma budget_step D st l st' : in_call l -> not_forget l -> l <> RTimeout -> lock_ok st -> count_ok st -> budget D st ->
  step st l = Some st' -> budget (D + disturbance st l) st'.
Proof.
  intros IC NF NT LK CK B E. pose proof (disturbance_nonneg st l) as DN.
  destruct l; cbn [in_call] in IC; cbn [not_forget] in NF; try contradiction; step_cases E;
    try (match goal with |- budget _ (put_lock _ _ _) => apply (budget_eq D _ st); auto; lia end);
    try (match goal with |- budget _ (put_rec (put_lock _ _ _) _ _) => eapply budget_put; [eassumption| |exact B]; side end);
    try (match goal with |- budget _ (put_rec (send (put_lock ?s ?k ?c) _) _ _) => eapply (budget_send D _ (put_lock s k c)); [eassumption| |exact B]; side end);
    try (match goal with |- budget _ (put_rec (send _ _) _ _) => eapply budget_send; [eassumption| |exact B]; side end);
    try (match goal with |- budget _ (put_rec _ _ _) => eapply budget_put0; [eassumption| |exact B]; side end);
    try (apply push_inv in E; destruct E as (n & _ & ->); cbn [put_lock s_merged s_chan s_lock s_count s_phase s_recs s_reader s_history];
         apply budget_push; [side|exact B]).
  - eapply (budget_eq (D + disturbance st (LWrite i o)) _ (put_rec st i _)); try reflexivity.
    eapply budget_put0; [eassumption| |exact B]. side.
  - (* RRecv *)
    apply receive_inv in E. destruct E as (b & q & Q & [(m & M & ->)|(M & ->)]); [|exact I].
    unfold budget in *. cbn. rewrite K in B. lia.
  - apply receive_inv in E. destruct E as (b & q & Q & [(m & M & ->)|(M & ->)]); [|exact I].
    unfold budget in *. cbn. rewrite K, Q, zlen_cons in B. lia.
  - apply receive_inv in E. destruct E as (b & q & Q & [(m & M & ->)|(M & ->)]); [|exact I].
    unfold budget in *. cbn. rewrite K in B. lia.
  - (* REmpty *)
    unfold budget in *. cbn. rewrite K in B. rewrite K0. change (zlen (@nil box)) with 0. lia.
  - unfold budget in *. cbn. rewrite K in B. lia.
  - (* RRead *)
    unfold budget in *. cbn. rewrite K in B. rewrite (proj1 CK).
    assert (sumr (load1 (s_phase st)) (s_recs st) <= sumr (owed (s_phase st)) (s_recs st) + sumr counted (s_recs st)); [|lia].
    assert (LE : forall r, In r (s_recs st) -> load1 (s_phase st) r <= owed (s_phase st) r + counted r).
    { intros r I. apply In_nth_error in I. destruct I as (j & J). destruct LK as [LK _]. specialize (LK j r J). rewrite K0 in LK.
      unfold load1, counted, is_active, critical in *. destruct (r_pc r); try lia; discriminate (LK eq_refl). }
    clear - LE. induction (s_recs st) as [|x l IH]; unfold sumr in *; cbn [map fold_right]; [lia|].
    specialize (IH ltac:(intros; apply LE; right; auto)). specialize (LE x (or_introl eq_refl)). lia.
  - (* RShift *)
    unfold budget in *. cbn [s_reader s_phase s_chan s_recs]. rewrite K in B.
    match goal with |- context [load (?x mod ?y)] => generalize (x mod y) end. intros ph'.
    assert (sumr (load ph') (s_recs st) <= sumr (load1 (s_phase st)) (s_recs st)); [|lia].
    apply sumr_le. intros r _. unfold load, load1, owed. destruct (r_pc r); try lia; ph_cases; lia.
  - unfold budget in *. cbn. rewrite K in B. apply Z.ltb_ge in K0. pose proof (zlen_nonneg (s_chan st)).
    assert (sumr (owed (s_phase st)) (s_recs st) <= sumr (load (s_phase st)) (s_recs st)); [|lia].
    apply sumr_le. intros r _. unfold load, owed. destruct (r_pc r); lia.
Qed.

(** *)
Definition stays (r : recorder) : Prop := match r_pc r with PReady | PWrote | PLoaded _ | PDropping => True | _ => False end.
Definition waiting (st : state) : Prop := exists t n k, s_reader st = RWait t n k.
Definition follows (c : call) (st : state) : Prop :=
  forall r, nth_error (s_recs st) (c_rec c) = Some r -> In c (b_log (r_local r)) -> stays r /\ (waiting st -> r_phase r < s_phase st).
Lemma stays_step st l st' i r r' : step st l = Some st' -> l <> LIdle i -> nth_error (s_recs st) i = Some r -> nth_error (s_recs st') i = Some r' ->
  stays r -> stays r' \/ b_log (r_local r') = [].
Proof.
  intros E NI J J' S.
  assert (PUT : forall j x y, nth_error (s_recs st) j = Some x -> nth_error (put (s_recs st) j y) i = Some r' ->
     (j = i -> stays x -> stays y \/ b_log (r_local y) = []) -> stays r' \/ b_log (r_local r') = []).
  { intros j x y K N H. apply put_cases in N. destruct N as [(-> & ->)|(NE & N)].
    - rewrite J in K. injection K as <-. auto.
    - rewrite J in N. injection N as <-. auto. }
  assert (SAME : s_recs st' = s_recs st -> stays r' \/ b_log (r_local r') = []).
  { intros X. rewrite X, J in J'. injection J' as <-. auto. }
  destruct l; step_cases E; try (apply SAME; reflexivity);
    try (apply SAME; destruct (receive_fields _ _ _ E) as (X & _); exact X);
    try (apply push_inv in E; destruct E as (n & _ & ->); cbn in J'; rewrite nth_error_app1, J in J' by (eapply nth_lt; eauto); injection J' as <-; auto);
    cbn in J'; rewrite ?send_recs in J'; cbn in J';
    match goal with K : nth_error (s_recs st) ?i = Some ?x |- _ => apply (PUT i x _ K J') end; unfold stays; cbn; auto;
    try (intros _ []; fail).
  intros _ _. right. match goal with SH : shed _ = Ret _ |- _ => apply shed_inv in SH; destruct SH as (_ & LE & _) end. exact LE.
Qed.
Lemma label_eq_shift (l : label) : l = RShift \/ l <> RShift.
Proof. destruct l; (left; reflexivity) || (right; discriminate). Qed.
Lemma follows_step c st l st' : step st l = Some st' -> l <> LIdle (c_rec c) -> old c st -> phases st -> 0 <= s_phase st ->
  (l = RShift -> s_phase st < usize_max) -> follows c st -> follows c st'.
Proof.
  intros E NI O PH Z0 SH F r' J' I'.
  destruct (step_local _ _ _ _ _ _ E J' I') as [Y|(r & J & I & PC)]; [unfold old in O; lia|].
  destruct (F r J I) as [S W].
  destruct (stays_step _ _ _ _ _ _ E NI J J' S) as [S'|X]; [|rewrite X in I'; destruct I'].
  split; [exact S'|]. intros WT.
  assert (PE : r_phase r' = r_phase r).
  { destruct PC as [PC| ->]; auto. exfalso. unfold step in E. rewrite J in E. unfold stays in S. destruct r as [b p pc]. cbn in S.
    destruct pc; try discriminate E; contradiction. }
  rewrite PE. destruct (phases_step st l st' PH Z0 SH E) as [_ P'].
  destruct (label_eq_shift l) as [->|NS].
  - unfold phases in PH. pose proof (nth_Forall _ _ _ _ PH J) as [X _]. lia.
  - assert (WS : waiting st).
    { destruct WT as (t & n & k & RD). clear - E NS RD. unfold waiting. destruct l; step_cases E; cbn in RD; rewrite ?send_reader in RD; cbn in RD; eauto; try discriminate RD; try congruence;
        try (apply push_history in E; destruct E as [_ E]; cbn in E; rewrite E in RD; first [solve [eauto]|congruence]);
        apply receive_inv in E; destruct E as (b & q & Q & [(m & M & ->)|(M & ->)]); cbn in RD; try discriminate RD; eauto. }
    specialize (W WS). destruct l; lia || congruence.
Qed.

(** *)
Definition finished (c : call) (st : state) : Prop :=
  In c (b_log (s_merged st)) \/ (s_reader st = RDrain2 /\ In c (logs (s_chan st))) \/ s_reader st = RPanicked.
Definition ending (st : state) : Prop := s_reader st = RDrain2 \/ s_reader st = RReady \/ s_reader st = RPanicked.
Lemma ending_step st l st' : in_call l -> ending st -> step st l = Some st' -> ending st'.
Proof.
  unfold ending. intros IC X E. destruct l; cbn [in_call] in IC; try contradiction; step_cases E; cbn; rewrite ?send_reader; cbn; auto;
    try (apply push_history in E; destruct E as [_ E]; cbn in E; rewrite E; auto; fail);
    try (apply receive_inv in E; destruct E as (b & q & Q & [(m & M & ->)|(M & ->)]); cbn; auto);
    intuition congruence.
Qed.
Lemma finished_step c st l st' : in_call l -> ending st -> step st l = Some st' -> finished c st -> finished c st'.
Proof.
  unfold ending. intros IC EN E X.
  assert (SEND : forall st0 b i r, s_merged st0 = s_merged st -> s_reader st0 = s_reader st -> s_chan st0 = s_chan st ->
     finished c (put_rec (send st0 b) i r)).
  { intros st0 b i r M R C. unfold finished. cbn. destruct (send_fields st0 b) as (-> & _ & _ & _ & _ & -> & _). rewrite M, R.
    destruct X as [X|[(X1 & X2)|X]]; auto. right. left. split; auto.
    destruct (send_cases st0 b) as [(_ & ->)|(_ & ->)]; [rewrite C; exact X2|]. cbn. rewrite C. unfold logs in *. rewrite flat_map_app. apply in_app_iff. auto. }
  assert (REC : forall k, receive st k = Some st' -> (s_reader st = k) \/ In c (b_log (s_merged st)) -> finished c st').
  { intros k R H. apply receive_inv in R. destruct R as (b & q & CH & [(m & M & ->)|(M & ->)]); [|right; right; reflexivity].
    apply merge_inv in M. destruct M as (h & r & _ & ->). unfold finished. cbn.
    destruct X as [X|[(X1 & X2)|X]].
    - left. apply in_app_iff. auto.
    - rewrite CH in X2. cbn in X2. apply in_app_iff in X2. destruct X2 as [X2|X2]; [left; apply in_app_iff; auto|].
      destruct H as [<-|H]; [right; left; auto|left; apply in_app_iff; auto].
    - destruct H as [<-|H]; [auto|left; apply in_app_iff; auto]. }
  destruct l; cbn [in_call] in IC; try contradiction; step_cases E;
    try (apply SEND; reflexivity); try exact X;
    try (apply push_inv in E; destruct E as (n & _ & ->); exact X);
    try (destruct X as [X|[(X1 & X2)|X]]; [left; exact X| |]; cbn in *; congruence);
    try (apply (REC _ E); destruct X as [X|[(X1 & X2)|X]]; [right; exact X| |]; left; congruence).
  destruct X as [X|[(X1 & X2)|X]]; [left; exact X| |congruence].
  rewrite K0 in X2; destruct X2.
Qed.
Definition tot (g : nat -> Z) (l : list nat) : Z := fold_right Z.add 0 (map g l).
Lemma tot_mid g a i b : tot g (a ++ i :: b) = g i + tot g (a ++ b).
Proof. unfold tot. induction a as [|x a IH]; cbn in *; lia. Qed.
Lemma tot_nonneg g l : (forall x, 0 <= g x) -> 0 <= tot g l.
Proof. intros P. unfold tot. induction l as [|x l IH]; cbn; [lia|]. specialize (P x). lia. Qed.
Lemma tot_sub g L : (forall x, 0 <= g x) -> NoDup L -> forall l, incl L l -> tot g L <= tot g l.
Proof.
  intros P. induction L as [|i L IH]; intros ND l H; [apply tot_nonneg; exact P|].
  inversion ND as [|? ? NI ND']; subst. destruct (in_split i l (H i (or_introl eq_refl))) as (a & b & ->).
  rewrite tot_mid. unfold tot at 1. cbn [map fold_right]. fold (tot g L). specialize (IH ND' (a ++ b)).
  assert (X : incl L (a ++ b)).
  { intros x I. pose proof (H x (or_intror I)) as Y. apply in_app_iff in Y. apply in_app_iff. destruct Y as [Y|[->|Y]]; auto. contradiction. }
  specialize (IH X). lia.
Qed.
Definition at_ (f : recorder -> Z) (l : list recorder) (i : nat) : Z := match nth_error l i with Some r => f r | None => 0 end.
Lemma tot_seq f l : tot (at_ f l) (seq 0 (length l)) = sumr f l.
Proof.
  unfold tot, sumr. f_equal. induction l as [|x l IH]; [reflexivity|]. cbn [length seq map]. f_equal. rewrite <- seq_shift, map_map. exact IH.
Qed.
Lemma sum_distinct f L : (forall r, 0 <= f r) -> forall l, NoDup L -> (forall i, In i L -> exists r, nth_error l i = Some r /\ 1 <= f r) ->
  Z.of_nat (length L) <= sumr f l.
Proof.
  intros P l ND H. rewrite <- tot_seq. transitivity (tot (at_ f l) L).
  - clear ND. unfold tot. induction L as [|i L IH]; [cbn; lia|]. cbn [length map fold_right].
    destruct (H i (or_introl eq_refl)) as (r & J & F). unfold at_ at 1. rewrite J. specialize (IH ltac:(intros; apply H; right; auto)). lia.
  - apply tot_sub; auto.
    + intros x. unfold at_. destruct (nth_error l x); [apply P|lia].
    + intros i I. destruct (H i I) as (r & J & _). apply nth_lt in J. apply in_seq. lia.
Qed.

Lemma into_drain2 st l st' : in_call l -> l <> RTimeout -> s_reader st <> RDrain2 -> step st l = Some st' -> s_reader st' = RDrain2 ->
  exists t n k, s_reader st = RWait t n k /\ n <= k /\ st' = put_reader st RDrain2.
Proof.
  intros IC NT ND E RD. destruct l; cbn [in_call] in IC; try contradiction; step_cases E; cbn in RD; rewrite ?send_reader in RD; cbn in RD; try congruence;
    try (apply push_history in E; destruct E as [_ E]; cbn in E; congruence);
    try (apply receive_inv in E; destruct E as (b & q & Q & [(m & M & ->)|(M & ->)]); cbn in RD; congruence).
  apply Z.ltb_ge in K0. eauto 6.
Qed.
Lemma into_ready st l st' : in_call l -> step st l = Some st' -> s_reader st' = RReady -> s_reader st = RDrain2 \/ s_reader st = RReady.
Proof.
  intros IC E RD. destruct l; cbn [in_call] in IC; try contradiction; step_cases E; cbn in RD; rewrite ?send_reader in RD; cbn in RD; auto; try congruence;
    try (apply push_history in E; destruct E as [_ E]; cbn in E; rewrite E in RD; auto);
    try (apply receive_inv in E; destruct E as (b & q & Q & [(m & M & ->)|(M & ->)]); cbn in RD; congruence).
Qed.

(** what is known of [st], a state inside a call of [refresh] started in [st1] *)
Section ONE.
Variables (st1 : state) (tr0 : list label).
Definition mine (c : call) : Prop :=
  In c (s_history st1) /\ ~ In (LIdle (c_rec c)) tr0 /\ exists r, nth_error (s_recs st1) (c_rec c) = Some r /\ recording r.
Definition bounded (D : Z) (st : state) : Prop :=
  forall L, NoDup L -> (forall i, In i L -> exists c, mine c /\ c_rec c = i /\ ~ finished c st) -> Z.of_nat (length L) <= D.
Record inv (D : Z) (st : state) : Prop := {
  i_lock : lock_ok st;
  i_count : count_ok st;
  i_phases : phases st;
  i_phase : 0 <= s_phase st;
  i_placed : placed st;
  i_own : own st;
  i_hist : forall c, In c (s_history st1) -> In c (s_history st) /\ old c st;
  i_alive : s_reader st <> RGone;
  i_nonneg : 0 <= D;
  i_rest : (in_refresh st /\ s_reader st <> RDrain2 /\ budget D st /\ forall c, mine c -> follows c st) \/ (ending st /\ budget D st /\ bounded D st) }.
Lemma inv_step D st l st' : inv D st -> in_call l -> not_forget l -> l <> RTimeout -> In l tr0 ->
  (l = RShift -> s_phase st < usize_max) -> step st l = Some st' -> inv (D + disturbance st l) st'.
Proof.
  intros V IC NF NT IN SH E. pose proof (disturbance_nonneg st l) as DN. destruct V as [V1 V2 V3 V4 V5 V6 V7 V8 V0 V9].
  destruct (phases_step st l st' V3 V4 SH E) as [P1 P2].
  assert (ST : forall c, In c (s_history st) -> old c st -> In c (s_history st') /\ old c st').
  { intros c I O. split; [|unfold old in *; pose proof (history_grows _ _ _ E); lia].
    destruct (history_step _ _ _ E) as [(-> & _)|(i & o & ok & _ & ->)]; auto. apply in_or_app. auto. }
  assert (A8 : s_reader st' <> RGone).
  { clear - V8 IC E. destruct l; cbn [in_call] in IC; try contradiction; step_cases E; cbn; rewrite ?send_reader; cbn; auto; try congruence;
      try (apply push_history in E; destruct E as [_ E]; cbn in E; rewrite E; auto; fail);
      apply receive_inv in E; destruct E as (b & q & Q & [(m & M & ->)|(M & ->)]); cbn; congruence. }
  split; auto.
  - eapply lock_step; eauto.
  - eapply count_step; eauto.
  - destruct l; lia.
  - eapply placed_step; eauto. destruct l; auto.
  - eapply own_step; eauto.
  - intros c I. destruct (V7 c I). auto.
  - lia.
  - destruct V9 as [(R & ND & B & F)|(EN & BU & B)].
    + pose proof (budget_step D st l st' IC NF NT V1 V2 B E) as B'.
      assert (F' : forall c, mine c -> follows c st').
      { intros c M. destruct (V7 c (proj1 M)) as [_ O]. apply (follows_step c st l st'); auto.
        intros ->. destruct M as (_ & M & _). contradiction. }
      assert (GO : in_refresh st' -> s_reader st' <> RDrain2 -> in_refresh st' /\ s_reader st' <> RDrain2 /\ budget (D + disturbance st l) st' /\ (forall c, mine c -> follows c st')) by auto.
      destruct (s_reader st') eqn:RD'; try (left; apply GO; [unfold in_refresh; rewrite RD'; exact I|discriminate]).
      * exfalso. destruct (into_ready _ _ _ IC E RD') as [X|X]; [congruence|]. unfold in_refresh in R. rewrite X in R. exact R.
      * right. split; [left; exact RD'|split; [exact B'|]].
        destruct (into_drain2 _ _ _ IC NT ND E RD') as (t & n & k & RW & NK & ->).
        intros L NDL H. unfold budget in B. rewrite RW in B. pose proof (zlen_nonneg (s_chan st)).
        assert (X : Z.of_nat (length L) <= sumr (load (s_phase st)) (s_recs st)); [|lia].
        apply sum_distinct; auto; [apply load_nonneg|]. intros i I. destruct (H i I) as (c & M & CI & NFN).
        destruct (V7 c (proj1 M)) as [HC _].
        assert (PL : Permutation (everything st) (s_history st)) by (apply V5; split; congruence).
        assert (IE : In c (everything st)) by (eapply Permutation_in; [apply Permutation_sym; exact PL|exact HC]).
        unfold everything in IE. rewrite !in_app_iff in IE. destruct IE as [IE|[IE|IE]].
        { exfalso. apply NFN. left. exact IE. }
        { exfalso. apply NFN. right. left. split; [reflexivity|exact IE]. }
        apply In_locals in IE. destruct IE as (r & IR & IC'). apply In_nth_error in IR. destruct IR as (j & J).
        pose proof (V6 j r c J IC') as X. rewrite CI in X. subst j. exists r. split; [exact J|].
        destruct (F c M r) as [S W]; [rewrite CI; exact J|exact IC'|]. specialize (W ltac:(unfold waiting; eauto)).
        unfold load, owed, stays in *. destruct (r_pc r); try contradiction; ph_cases; lia.
      * right. split; [right; right; exact RD'|split; [exact B'|]]. intros L ND' H. destruct L as [|i L]; [cbn; lia|].
        destruct (H i (or_introl eq_refl)) as (c & _ & _ & X). exfalso. apply X. right. right. exact RD'.
      * congruence.
    + right. split; [eapply ending_step; eauto|split; [apply budget_step; auto|]]. intros L ND H.
      assert (X : Z.of_nat (length L) <= D); [|lia]. apply B; auto. intros i I. destruct (H i I) as (c & M & CI & NFN).
      exists c. split; auto. split; auto. intros FN. apply NFN. eapply finished_step; eauto.
Qed.
Lemma inv_exec tr : forall D st st', inv D st -> Forall in_call tr -> Forall not_forget tr -> ~ In RTimeout tr -> incl tr tr0 ->
  s_phase st + shifts tr <= usize_max -> exec st tr = Some st' -> inv (D + disturbances st tr) st'.
Proof.
  induction tr as [|l tr IH]; intros D st st' V IC NF NT IN SH E; cbn in E |- *.
  - injection E as <-. replace (D + 0) with D by lia. exact V.
  - destruct (step st l) as [s1|] eqn:S1; [|discriminate]. inversion IC; subst. inversion NF; subst.
    change (l :: tr) with ([l] ++ tr) in SH. rewrite shifts_app, shifts_one in SH. pose proof (shifts_nonneg tr).
    assert (HS : l = RShift -> s_phase st < usize_max) by (intros ->; lia).
    assert (V1 : inv (D + disturbance st l) s1).
    { apply inv_step; auto; [intros ->; apply NT; left; reflexivity|apply IN; left; reflexivity]. }
    rewrite Z.add_assoc. apply IH; auto.
    + intros X. apply NT. right. exact X.
    + intros x X. apply IN. right. exact X.
    + destruct (phases_step st l s1 (i_phases _ _ V) (i_phase _ _ V) HS S1) as [_ X]. lia.
Qed.
End ONE.

(** *)
Lemma inv_refresh h0 tr1 st1 t tr2 st2 : run h0 tr1 st1 -> merged_untouched tr1 -> guards_dropped (tr1 ++ tr2) ->
  shifts (tr1 ++ tr2) <= usize_max ->
  exec st1 (RStart t :: tr2) = Some st2 -> Forall in_call tr2 -> ~ In RTimeout tr2 -> s_reader st2 = RReady ->
  budget (all_owed st1 + disturbances st1 (RStart t :: tr2)) st2 /\
  bounded st1 tr2 (all_owed st1 + disturbances st1 (RStart t :: tr2)) st2.
Proof.
  intros (R & F & E1) U G SH E IC NT RR.
  cbn [exec] in E. cbn [disturbances]. destruct (step st1 (RStart t)) as [s1|] eqn:S1; [|discriminate].
  assert (X : s_reader st1 = RReady /\ s1 = put_reader st1 (RDrain t)). { cbn in S1. destruct (s_reader st1); try discriminate S1. split; congruence. }
  destruct X as [RD ->]. assert (X : disturbance st1 (RStart t) = 0) by (unfold disturbance; rewrite RD; reflexivity). rewrite X. clear X.
  pose proof (dropped_not_forget _ G) as NF. apply Forall_app in NF. destruct NF as [NF1 NF2].
  rewrite shifts_app in SH. pose proof (shifts_nonneg tr1). pose proof (shifts_nonneg tr2).
  destruct (phases_exec h0 tr1 st1 E1 ltac:(lia)) as [P1 P2].
  assert (V : inv st1 tr2 (all_owed st1) (put_reader st1 (RDrain t))).
  { split.
    - exact (lock_exec h0 tr1 st1 E1).
    - exact (count_exec h0 tr1 st1 NF1 E1).
    - exact P1.
    - cbn. lia.
    - intros _. apply (placed_exec h0 tr1 st1 (untouched_not_set _ U) E1). split; congruence.
    - exact (own_exec h0 tr1 st1 E1).
    - intros c I. split; [exact I|exact (old_in h0 tr1 st1 c E1 I)].
    - discriminate.
    - apply sumr_nonneg. apply owed_nonneg.
    - left. split; [exact I|]. split; [discriminate|]. split; [unfold budget; cbn; unfold all_owed, sumr; lia|].
      intros c M r J IL. cbn in J. destruct M as (_ & _ & r0 & J0 & RC). rewrite J0 in J. injection J as <-.
      split; [|intros (a & b & d & X); discriminate X]. unfold stays, recording in *. destruct (r_pc r0); auto. }
  apply (inv_exec st1 tr2 tr2 (all_owed st1)) in E; auto; [|apply incl_refl|cbn; lia].
  destruct (i_rest _ _ _ _ E) as [(X & _)|(_ & BU & B)]; [unfold in_refresh in X; rewrite RR in X; destruct X|].
  replace (all_owed st1 + (0 + disturbances (put_reader st1 (RDrain t)) tr2)) with (all_owed st1 + disturbances (put_reader st1 (RDrain t)) tr2) by lia.
  auto.
Qed.

(** ** C43.  How much one [refresh] can miss *)
(** A call of [refresh] (or of [refresh_timeout] that does not time out) that returns has missed at most as
    many of the recorders that stayed active as there were disturbances, in the sense of [disturbance], plus
    the histograms that were owed already when it was called.  This holds for every interleaving of any
    number of recorders, whatever they do. *)
Lemma C43_missed_bounded_proof : forall h0 tr1 st1 t tr2 st2 L, run h0 tr1 st1 -> merged_untouched tr1 -> guards_dropped (tr1 ++ tr2) ->
  shifts (tr1 ++ tr2) <= usize_max ->
  exec st1 (RStart t :: tr2) = Some st2 -> Forall in_call tr2 -> ~ In RTimeout tr2 -> s_reader st2 = RReady ->
  NoDup L -> (forall i, In i L -> missed st1 tr2 st2 i) ->
  Z.of_nat (length L) <= all_owed st1 + disturbances st1 (RStart t :: tr2).
Proof.
  intros h0 tr1 st1 t tr2 st2 L R U G SH E IC NT RR ND H.
  destruct (inv_refresh h0 tr1 st1 t tr2 st2 R U G SH E IC NT RR) as [_ B].
  apply B; auto. intros i I. destruct (H i I) as (M1 & M2 & c & M3 & M4 & M5). exists c. unfold mine. rewrite M4.
  split; [split; [exact M3|split; [exact M2|exact M1]]|]. split; [reflexivity|].
  intros [X|[(X & _)|X]]; [contradiction|congruence|congruence].
Qed.
(*EX
(** Recorders 0 and 1 have recorded something and stay active; recorders 2 and 3 are dropped after the reader
    has emptied the channel and before it reads the number of recorders: two disturbances, two recorders
    missed. *)
Example ex_C43_missed_bounded : match build U64 1 1000 2 false [] with
  | Some h =>
      let tr1 := [RRecorder; RRecorder; RRecorder; RRecorder; LWrite 0 (ORecord 7 1); LLoad 0; LFinish 0; LWrite 1 (ORecord 8 1); LLoad 1; LFinish 1] in
      let tr2 := [REmpty; LDrop 2; LDropEnd 2; LDrop 3; LDropEnd 3; RRead; RShift; RRecv; RRecv; RDone; REmpty] in
      match exec (init h) tr1 with
      | Some st1 => match exec st1 (RStart false :: tr2) with
          | Some st2 => s_reader st2 = RReady /\ all_owed st1 = 0 /\ disturbances st1 (RStart false :: tr2) = 2 /\
              map c_rec (s_history st1) = [0%nat; 1%nat] /\ b_log (s_merged st2) = [] /\ all_owed st2 = 2
          | None => False end
      | None => False end
  | None => False end.
Proof. vm_compute. auto 10. Qed.
(** Each kind of disturbance can cost a recorder: in each of these executions there is one, and the last value
    recorded before, by recorder 0, is not there when [refresh] returns.  A drop before the number is read, a clone
    and a wake-up between the reading of the number and the moving of the phase, a drop of a recorder that has
    seen the new phase, a clone of one that has not, and (last) a clone of an idle recorder that slept through
    an earlier [refresh]. *)
Example ex_C43_each_disturbance : match build U64 1 1000 2 false [] with
  | Some h => fold_right (fun (p : list label * list label) (others : Prop) => others /\
      match exec (init h) (fst p) with
      | Some st1 => match exec st1 (RStart false :: snd p) with
          | Some st2 => s_reader st2 = RReady /\ all_owed st1 = 0 /\ disturbances st1 (RStart false :: snd p) = 1 /\
              map c_rec (skipn (pred (length (s_history st1))) (s_history st1)) = [0%nat] /\
              existsb (fun c => Nat.eqb (c_id c) (pred (length (s_history st1)))) (b_log (s_merged st2)) = false
          | None => False end
      | None => False end) True
      (let w i := [LWrite i (ORecord 7 1); LLoad i; LFinish i] in
       [([RRecorder; RRecorder] ++ w 0%nat, [REmpty; LDrop 1; LDropEnd 1; RRead; RShift; RRecv; RDone; REmpty]);
        ([RRecorder; RRecorder] ++ w 0%nat, [REmpty; RRead; LClone 1; RShift] ++ w 1%nat ++ w 2%nat ++ [RRecv; RRecv; RDone; REmpty]);
        ([RRecorder; RRecorder; RRecorder; LIdle 2; LIdleLoad 2; LIdleEnd 2] ++ w 0%nat,
         [REmpty; RRead; LWake 2; LWakeEnd 2; RShift] ++ w 1%nat ++ w 2%nat ++ [RRecv; RRecv; RDone; REmpty]);
        ([RRecorder; RRecorder] ++ w 0%nat, [REmpty; RRead; RShift] ++ w 1%nat ++ [LDrop 1; LDropEnd 1; RRecv; RRecv; RDone; REmpty]);
        ([RRecorder; RRecorder] ++ w 0%nat, [REmpty; RRead; RShift; LClone 1] ++ w 1%nat ++ w 2%nat ++ [RRecv; RRecv; RDone; REmpty]);
        ([RRecorder; LIdle 0; LIdleLoad 0; LIdleEnd 0; RStart false; REmpty; RRead; RShift; RDone; REmpty; RRecorder; LWake 0; LWakeEnd 0;
          LIdle 1; LIdleLoad 1; LIdleEnd 1; RStart false; REmpty; RRead; RShift] ++ w 0%nat ++ [RRecv; RDone; REmpty] ++ w 0%nat,
         [LClone 1; REmpty] ++ w 2%nat ++ [RRead; RShift] ++ w 2%nat ++ [RRecv; RRecv; RDone; REmpty])])
  | None => False end.
Proof. vm_compute. repeat split. Qed.
EX*)

(** What is still owed when it returns is bounded in the same way. *)
Lemma C43_owed_bounded_proof : forall h0 tr1 st1 t tr2 st2, run h0 tr1 st1 -> merged_untouched tr1 -> guards_dropped (tr1 ++ tr2) ->
  shifts (tr1 ++ tr2) <= usize_max ->
  exec st1 (RStart t :: tr2) = Some st2 -> Forall in_call tr2 -> ~ In RTimeout tr2 -> s_reader st2 = RReady ->
  all_owed st2 <= all_owed st1 + disturbances st1 (RStart t :: tr2).
Proof.
  intros h0 tr1 st1 t tr2 st2 R U G SH E IC NT RR.
  destruct (inv_refresh h0 tr1 st1 t tr2 st2 R U G SH E IC NT RR) as [B _]. unfold budget in B. rewrite RR in B. exact B.
Qed.
(*EX
Example ex_C43_owed_bounded : match build U64 1 1000 2 false [] with
  | Some h =>
      let tr1 := [RRecorder; RRecorder; RRecorder; LWrite 0 (ORecord 7 1); LLoad 0; LFinish 0] in
      let tr2 := [REmpty; LDrop 2; LDropEnd 2; RRead; RShift; LWrite 1 (ORecord 8 1); LLoad 1; LFinish 1; RRecv; RRecv; RDone; REmpty] in
      match exec (init h) tr1 with
      | Some st1 => match exec st1 (RStart false :: tr2) with
          | Some st2 => run h tr1 st1 /\ merged_untouched tr1 /\ guards_dropped (tr1 ++ tr2) /\ shifts (tr1 ++ tr2) <= usize_max /\
              Forall in_call tr2 /\ ~ In RTimeout tr2 /\ s_reader st2 = RReady /\
              all_owed st1 = 0 /\ disturbances st1 (RStart false :: tr2) = 1 /\ all_owed st2 = 1
          | None => False end
      | None => False end
  | None => False end.
Proof. sync_case. Qed.
EX*)

(** *)
Lemma same_id l c c' : NoDup (map c_id l) -> In c l -> In c' l -> c_id c' = c_id c -> c = c'.
Proof.
  induction l as [|x l IH]; intros ND I I' E; [destruct I|]. cbn in ND. inversion ND; subst.
  destruct I as [->|I], I' as [->|I']; auto.
  - exfalso. apply H1. rewrite <- E. apply in_map. exact I'.
  - exfalso. apply H1. rewrite E. apply in_map. exact I.
Qed.
(** So without disturbances, and with nothing owed at the start, [refresh] is a barrier for the recorders that
    stay active, and nothing is owed at the end.  Recorders may do more than [C43_barrier] allows: be dropped
    while the reader empties the channel, or between its reading of the number and its moving of the phase, or
    later if they have not seen the new phase yet; be cloned while the reader waits if they have seen it; and
    become idle at any time. *)
Lemma C43_undisturbed_proof : forall h0 tr1 st1 t tr2 st2, run h0 tr1 st1 -> merged_untouched tr1 -> guards_dropped (tr1 ++ tr2) ->
  shifts (tr1 ++ tr2) <= usize_max ->
  exec st1 (RStart t :: tr2) = Some st2 -> Forall in_call tr2 -> ~ In RTimeout tr2 -> s_reader st2 = RReady ->
  all_owed st1 = 0 -> disturbances st1 (RStart t :: tr2) = 0 ->
  (forall c r, In c (s_history st1) -> nth_error (s_recs st1) (c_rec c) = Some r -> recording r ->
     ~ In (LIdle (c_rec c)) tr2 -> In c (b_log (s_merged st2))) /\
  all_owed st2 = 0.
Proof.
  intros h0 tr1 st1 t tr2 st2 R U G SH E IC NT RR A0 D0.
  destruct (inv_refresh h0 tr1 st1 t tr2 st2 R U G SH E IC NT RR) as [BU B]. rewrite A0, D0 in *. split.
  - intros c r I J RC NI.
    destruct R as (R0 & F0 & E1).
    assert (EX2 : exec (init h0) (tr1 ++ RStart t :: tr2) = Some st2) by (rewrite exec_app, E1; exact E).
    destruct (in_dec Nat.eq_dec (c_id c) (map c_id (b_log (s_merged st2)))) as [X|X].
    { apply in_map_iff in X. destruct X as (c' & ID & M).
      assert (PL : Permutation (everything st2) (s_history st2)).
      { apply (placed_exec h0 (tr1 ++ RStart t :: tr2)); auto; [|split; rewrite RR; discriminate].
        apply Forall_app. split; [apply untouched_not_set; auto|]. constructor; [exact Logic.I|].
        eapply Forall_impl; [|exact IC]. intros []; cbn; auto. }
      assert (I2 : In c' (s_history st2)) by (eapply Permutation_in; [exact PL|unfold everything; apply in_or_app; auto]).
      pose proof (history_kept _ _ _ c E I) as I3. destruct (history_exec h0 _ st2 EX2) as [H _].
      rewrite (same_id (s_history st2) c c'); auto. rewrite H. apply seq_NoDup. }
    assert (X' : ~ In c (b_log (s_merged st2))) by (intros Y; apply X; apply in_map; exact Y). clear X. rename X' into X. exfalso.
    specialize (B [c_rec c]). cbn in B. assert (Y : 1 <= 0); [|lia]. apply B.
    + constructor; [intros []|constructor].
    + intros i [<-|[]]. exists c. split; [split; eauto|]. split; auto. intros [Y|[(Y & _)|Y]]; [contradiction|congruence|congruence].
  - unfold budget in BU. rewrite RR in BU. pose proof (sumr_nonneg (owed (s_phase st2)) (s_recs st2) (owed_nonneg _)). unfold all_owed, sumr in *. lia.
Qed.
(*EX
(** Recorder 1 is dropped while the reader empties the channel, recorder 2 after the reader has counted the recorders,
    recorder 3 while the reader waits and before it has seen the new phase, and recorder 0 is cloned after it has seen
    it.  None of this is a disturbance. *)
Example ex_C43_undisturbed : match build U64 1 1000 2 false [] with
  | Some h =>
      let w i := [LWrite i (ORecord (7 + Z.of_nat i) 1); LLoad i; LFinish i] in
      let tr1 := [RRecorder; RRecorder; RRecorder; RRecorder] ++ w 0%nat ++ w 1%nat ++ w 2%nat ++ w 3%nat in
      let tr2 := [LDrop 1; LDropEnd 1; RRecv; REmpty; RRead; LDrop 2; LDropEnd 2; RShift; LDrop 3; LDropEnd 3] ++ w 0%nat ++
                 [LClone 0; RRecv; RRecv; RRecv; RDone; REmpty] in
      match exec (init h) tr1 with
      | Some st1 => match exec st1 (RStart false :: tr2) with
          | Some st2 => run h tr1 st1 /\ merged_untouched tr1 /\ guards_dropped (tr1 ++ tr2) /\ shifts (tr1 ++ tr2) <= usize_max /\
              Forall in_call tr2 /\ ~ In RTimeout tr2 /\ s_reader st2 = RReady /\ all_owed st1 = 0 /\ disturbances st1 (RStart false :: tr2) = 0 /\
              map (fun r => r_pc r) (s_recs st1) = [PReady; PReady; PReady; PReady] /\ map c_id (s_history st1) = [0; 1; 2; 3]%nat /\
              map c_id (b_log (s_merged st2)) = [1; 2; 3; 0; 4]%nat
          | None => False end
      | None => False end
  | None => False end.
Proof. sync_case. Qed.
EX*)

(** ** C44.  What a waiting reader waits for *)
(** *)
Definition waitS (S : Z) (st : state) : Prop :=
  match s_reader st with
  | RBump _ n => n <= zlen (s_chan st) + sumr (fun r => bz (will r)) (s_recs st) + S
  | RWait _ n k => n <= k + zlen (s_chan st) + sumr (fun r => bz (owes (s_phase st) r)) (s_recs st) + S
  | _ => True
  end.
Definition slip (st : state) (l : label) : Z := match s_reader st, l with RBump _ _, LIdleLoad _ => 1 | _, _ => 0 end.
Lemma waitS_more S S' st : S <= S' -> waitS S st -> waitS S' st.
Proof. unfold waitS. destruct (s_reader st); auto; lia. Qed.
Lemma waitS_put S d st i r r' k c : waitS S st -> nth_error (s_recs st) i = Some r ->
  ((exists t n, s_reader st = RBump t n) -> bz (will r) <= bz (will r') + d) ->
  (waiting st -> bz (owes (s_phase st) r) <= bz (owes (s_phase st) r') + d) ->
  waitS (S + d) (put_rec (put_lock st k c) i r').
Proof.
  intros W E H1 H2. unfold waitS in *. cbn. unfold waiting in H2. destruct (s_reader st); auto; rewrite (sumr_put _ _ _ _ _ E).
  - specialize (H1 ltac:(eauto)). lia.
  - specialize (H2 ltac:(eauto)). lia.
Qed.
Lemma waitS_put0 S d st i r r' : waitS S st -> nth_error (s_recs st) i = Some r ->
  ((exists t n, s_reader st = RBump t n) -> bz (will r) <= bz (will r') + d) ->
  (waiting st -> bz (owes (s_phase st) r) <= bz (owes (s_phase st) r') + d) ->
  waitS (S + d) (put_rec st i r').
Proof. intros W E H1 H2. pose proof (waitS_put S d st i r r' (s_lock st) (s_count st) W E H1 H2) as X. rewrite same_lock in X. exact X. Qed.
Lemma bz_01 b : 0 <= bz b <= 1.
Proof. destruct b; cbn; lia. Qed.
Lemma waitS_send S d st i r r' b : 0 <= d -> waitS S st -> nth_error (s_recs st) i = Some r -> waitS (S + d) (put_rec (send st b) i r').
Proof.
  intros D W E. destruct (send_cases st b) as [(X & ->)|(_ & ->)]; unfold waitS in *; cbn.
  - rewrite X in *. exact I.
  - destruct (s_reader st); auto; rewrite (sumr_put _ _ _ _ _ E), zlen_app; change (zlen [b]) with 1.
    + pose proof (bz_01 (will r)). pose proof (bz_01 (will r')). lia.
    + pose proof (bz_01 (owes (s_phase st) r)). pose proof (bz_01 (owes (s_phase st) r')). lia.
Qed.
Lemma waitS_push S d st r k c : 0 <= d -> waitS S st ->
  waitS (S + d) (State (s_merged st) (s_chan st) k c (s_phase st) (s_recs st ++ [r]) (s_reader st) (s_history st)).
Proof.
  intros D W. unfold waitS in *. cbn. destruct (s_reader st); auto; rewrite sumr_app.
  - pose proof (bz_01 (will r)). lia.
  - pose proof (bz_01 (owes (s_phase st) r)). lia.
Qed.
Lemma slip_nonneg st l : 0 <= slip st l.
Proof. unfold slip. destruct (s_reader st), l; lia. Qed.
Lemma waitS_step S st l st' : waitS S st -> not_forget l -> lock_ok st -> count_ok st -> phases st -> 0 <= S ->
  0 <= s_phase st -> (l = RShift -> s_phase st < usize_max) -> step st l = Some st' -> waitS (S + slip st l) st'.
Proof.
  intros W NF LK CK F S0 Z0 SH E. pose proof (slip_nonneg st l) as SN.
  destruct l; cbn [not_forget] in NF; try contradiction; step_cases E;
    try (match goal with |- waitS _ (put_lock _ _ _) => apply (waitS_more S); [lia|exact W] end);
    try (match goal with |- waitS _ (put_rec (send (put_lock ?s ?k ?c) _) _ _) => eapply (waitS_send S _ (put_lock s k c)); [exact SN|exact W|eassumption] end);
    try (match goal with |- waitS _ (put_rec (send _ _) _ _) => eapply waitS_send; [exact SN|exact W|eassumption] end);
    try (apply push_inv in E; destruct E as (n & _ & ->); cbn [put_lock s_merged s_chan s_lock s_count s_phase s_recs s_reader s_history];
         apply waitS_push; [exact SN|exact W]);
    try (match goal with |- waitS _ (put_rec (put_lock _ _ _) _ _) => eapply waitS_put; [exact W|eassumption| |]; intros HH end);
    try (match goal with |- waitS _ (put_rec _ _ _) => eapply waitS_put0; [exact W|eassumption| |]; intros HH end);
    try (destruct HH as (t0 & n0 & HH); try destruct HH as (k0 & HH); unfold slip, will, owes; rewrite HH; cbn [SyncModel.r_pc SyncModel.r_phase s_phase put_lock]; ph_cases; cbn [negb bz]; try lia; congruence).
  - eapply (waitS_more (S + slip st (LWrite i o))); [lia|].
    change (waitS (S + slip st (LWrite i o)) (put_rec st i {| r_local := {| b_hist := h; b_log := b_log r_local ++ [Call (length (s_history st)) i o b] |}; r_phase := r_phase; r_pc := PWrote |})).
    eapply waitS_put0; [exact W|eassumption| |]; intros HH;
    (destruct HH as (t0 & n0 & HH); try destruct HH as (k0 & HH); unfold slip, will, owes; rewrite HH; cbn; ph_cases; cbn [negb bz]; try lia; congruence).
  - exact I.
  - apply receive_inv in E. destruct E as (b & q & Q & [(m & M & ->)|(M & ->)]); exact I.
  - apply receive_inv in E. destruct E as (b & q & Q & [(m & M & ->)|(M & ->)]); [|exact I]. unfold waitS in *. cbn. rewrite K, Q, zlen_cons in W. lia.
  - apply receive_inv in E. destruct E as (b & q & Q & [(m & M & ->)|(M & ->)]); exact I.
  - exact I.
  - exact I.
  - (* RRead *)
    unfold waitS. cbn. pose proof (zlen_nonneg (s_chan st)). rewrite (proj1 CK).
    assert (sumr counted (s_recs st) <= sumr (fun r => bz (will r)) (s_recs st)); [|lia]. apply sumr_le. intros r I.
    apply In_nth_error in I. destruct I as (j & J). destruct LK as [LK _]. specialize (LK j r J). rewrite K0 in LK.
    unfold counted, is_active, bz, will, critical in *. destruct (r_pc r); try lia. discriminate (LK eq_refl).
  - (* RShift *)
    unfold waitS in *. cbn [s_reader s_phase s_chan s_recs]. rewrite K in W. specialize (SH eq_refl). change usize_max with 18446744073709551615 in SH. rewrite Z.mod_small by lia.
    assert (sumr (fun r => bz (will r)) (s_recs st) <= sumr (fun r => bz (owes (s_phase st + 1) r)) (s_recs st)); [|lia].
    apply sumr_le. intros r I. unfold phases in F. rewrite Forall_forall in F. destruct (F r I) as [A _]. unfold bz, will, owes.
    assert (X : (r_phase r =? s_phase st + 1) = false) by (apply Z.eqb_neq; lia). rewrite X.
    destruct (r_pc r); cbn [negb]; try lia. destruct (negb _); lia.
  - exact I.
  - exact I.
  - apply (waitS_more S); [lia|exact W].
  - exact I.
Qed.
Lemma waitS_exec tr : forall S st st', waitS S st -> lock_ok st -> count_ok st -> phases st -> 0 <= s_phase st -> 0 <= S -> Forall not_forget tr ->
  s_phase st + shifts tr <= usize_max -> exec st tr = Some st' -> waitS (S + slips st tr) st'.
Proof.
  induction tr as [|l tr IH]; intros S st st' W LK CK F Z0 S0 NF SH E; cbn in E |- *.
  - injection E as <-. replace (S + 0) with S by lia. exact W.
  - destruct (step st l) as [s1|] eqn:S1; [|discriminate]. inversion NF; subst.
    change (l :: tr) with ([l] ++ tr) in SH. rewrite shifts_app, shifts_one in SH. pose proof (shifts_nonneg tr).
    assert (HS : l = RShift -> s_phase st < usize_max) by (intros ->; lia).
    destruct (phases_step st l s1 F Z0 HS S1) as [F' P']. fold (slip st l). rewrite Z.add_assoc. pose proof (slip_nonneg st l).
    apply IH; auto; try (eapply lock_step; eauto; fail); try (eapply count_step; eauto; fail); try lia.
    + apply waitS_step; auto.
    + destruct l; lia.
Qed.
Lemma sumr_filter f l : sumr (fun r => bz (f r)) l = Z.of_nat (length (filter f l)).
Proof. unfold sumr. induction l as [|x l IH]; cbn [map fold_right filter]; [reflexivity|]. rewrite IH. destruct (f x); cbn [bz length]; lia. Qed.

(** While [refresh] waits: the histograms it still needs are no more than those in the channel, those the
    recorders still have to send, and one for each recorder that slipped away: that read the phase on its way
    to idle between the reader's counting of the recorders and its moving of the phase, during this very
    call.  So a [refresh] during which no recorder slips away never waits in vain, whatever happened in
    earlier ones. *)
Lemma C44_waits_for_enough_proof : forall h0 tr1 st1 t0 tr2 st t n k, run h0 tr1 st1 -> guards_dropped (tr1 ++ tr2) ->
  shifts (tr1 ++ tr2) <= usize_max ->
  exec st1 (RStart t0 :: tr2) = Some st -> s_reader st = RWait t n k ->
  n - k <= Z.of_nat (length (s_chan st)) + owing st + slips st1 (RStart t0 :: tr2).
Proof.
  intros h0 tr1 st1 t0 tr2 st t n k (R & F & E1) G SH E RW.
  cbn [exec] in E. cbn [slips]. destruct (step st1 (RStart t0)) as [s1|] eqn:S1; [|discriminate].
  assert (X : s_reader st1 = RReady /\ s1 = put_reader st1 (RDrain t0)). { cbn in S1. destruct (s_reader st1); try discriminate S1. split; congruence. }
  destruct X as [RD ->]. rewrite RD.
  pose proof (dropped_not_forget _ G) as NF. apply Forall_app in NF. destruct NF as [NF1 NF2].
  rewrite shifts_app in SH. pose proof (shifts_nonneg tr1). pose proof (shifts_nonneg tr2).
  destruct (phases_exec h0 tr1 st1 E1 ltac:(lia)) as [P1 P2].
  apply (waitS_exec tr2 0) in E; auto; try lia.
  - unfold waitS in E. rewrite RW, sumr_filter in E. unfold owing, zlen in *. lia.
  - exact I.
  - exact (lock_exec h0 tr1 st1 E1).
  - exact (count_exec h0 tr1 st1 NF1 E1).
  - cbn. lia.
  - cbn. lia.
Qed.
(*EX
(** Three recorders are counted; recorder 0 goes idle in the bad moment; recorder 1 has sent its histogram, which
    has been received; recorder 2 still has to.  Two are needed, one is owed, one slipped away. *)
Example ex_C44_waits_for_enough : match build U64 1 1000 2 false [] with
  | Some h =>
      let tr1 := [RRecorder; RRecorder; RRecorder] in
      let tr2 := [REmpty; RRead; LIdle 0; LIdleLoad 0; LIdleEnd 0; RShift; LWrite 1 (ORecord 7 1); LLoad 1; LFinish 1; RRecv] in
      match exec (init h) tr1 with
      | Some st1 => match exec st1 (RStart false :: tr2) with
          | Some st => s_reader st = RWait false 3 1 /\ s_chan st = [] /\ owing st = 1 /\ slips st1 (RStart false :: tr2) = 1
          | None => False end
      | None => False end
  | None => False end.
Proof. vm_compute. auto 10. Qed.
EX*)
