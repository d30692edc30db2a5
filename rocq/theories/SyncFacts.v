(** * Invariants of the concurrent histogram *)
From Coq Require Import Permutation.
From Verif Require Import Machine HistModel Bins ListZ Wf Ops AddFacts Spec Reach HeldFacts PfMerge SyncModel SyncSpec SyncOps.

(** ** Lists of recorders *)
Lemma put_same l i r : (i < length l)%nat -> nth_error (put l i r) i = Some r.
Proof. revert i; induction l; intros [|i] L; cbn in *; try lia; auto. apply IHl. lia. Qed.
Lemma put_other l i j r : i <> j -> nth_error (put l i r) j = nth_error l j.
Proof. revert i j; induction l; intros [|i] [|j] N; cbn; auto; try congruence. Qed.
Lemma put_length l i r : length (put l i r) = length l.
Proof. revert i; induction l; intros [|i]; cbn; auto. Qed.
Lemma put_Forall (P : recorder -> Prop) l i r : Forall P l -> P r -> Forall P (put l i r).
Proof. intros F R. revert i; induction F; intros [|i]; cbn; constructor; auto. Qed.
Lemma nth_Forall {A} (P : A -> Prop) l i x : Forall P l -> nth_error l i = Some x -> P x.
Proof. intros F E. rewrite Forall_forall in F. apply F. eapply nth_error_In; eauto. Qed.
Lemma nth_lt {A} (l : list A) i x : nth_error l i = Some x -> (i < length l)%nat.
Proof. intros E. apply nth_error_Some. congruence. Qed.
Lemma put_cases l i r j x : nth_error (put l i r) j = Some x -> (j = i /\ x = r) \/ (j <> i /\ nth_error l j = Some x).
Proof.
  destruct (Nat.eq_dec i j) as [->|N].
  - intros E. pose proof (nth_lt _ _ _ E) as L. rewrite put_length in L. rewrite put_same in E by auto. left. split; congruence.
  - rewrite put_other by auto. right. split; auto.
Qed.
Lemma app_cases {A} (l : list A) y j x : nth_error (l ++ [y]) j = Some x -> (j = length l /\ x = y) \/ (nth_error l j = Some x).
Proof.
  destruct (Nat.lt_ge_cases j (length l)) as [L|L].
  - rewrite nth_error_app1 by auto. auto.
  - rewrite nth_error_app2 by auto. destruct (j - length l)%nat as [|k] eqn:K; cbn.
    + intros E. left. split; [lia|congruence].
    + destruct k; discriminate.
Qed.

(** sums over the recorders *)
Definition sumr (f : recorder -> Z) (l : list recorder) : Z := fold_right Z.add 0 (map f l).
Arguments sumr : simpl never.
Lemma sumr_put f l i x r : nth_error l i = Some x -> sumr f (put l i r) = sumr f l - f x + f r.
Proof.
  revert i; induction l as [|y l IH]; intros [|i] E; cbn in E; try discriminate.
  - injection E as ->. unfold sumr. cbn. lia.
  - cbn [put]. unfold sumr in *. cbn [map fold_right]. rewrite (IH _ E). lia.
Qed.
Lemma sumr_app f l r : sumr f (l ++ [r]) = sumr f l + f r.
Proof. unfold sumr. rewrite map_app, fold_right_app. cbn. induction l; cbn in *; lia. Qed.
Lemma sumr_nonneg f l : (forall r, 0 <= f r) -> 0 <= sumr f l.
Proof. intros P. unfold sumr. induction l as [|x l IH]; cbn; [lia|]. specialize (P x). lia. Qed.
Lemma sumr_pos f l i x : (forall r, 0 <= f r) -> nth_error l i = Some x -> f x <= sumr f l.
Proof.
  intros P. revert i; induction l as [|y l IH]; intros [|i] E; cbn in E; try discriminate; unfold sumr in *; cbn [map fold_right].
  - injection E as ->. pose proof (sumr_nonneg f l P). unfold sumr in *. lia.
  - specialize (IH _ E). pose proof (P y). lia.
Qed.
Lemma sumr_ext f g l : (forall r, In r l -> f r = g r) -> sumr f l = sumr g l.
Proof. intros E. unfold sumr. f_equal. apply map_ext_in. auto. Qed.
Lemma sumr_le f g l : (forall r, In r l -> f r <= g r) -> sumr f l <= sumr g l.
Proof.
  induction l as [|x l IH]; intros E; unfold sumr in *; cbn [map fold_right]; [lia|].
  specialize (IH ltac:(intros; apply E; cbn; auto)). specialize (E x ltac:(cbn; auto)). lia.
Qed.

(** concatenation over the recorders *)
Definition logs (l : list box) : list call := flat_map b_log l.
Definition locals (l : list recorder) : list call := flat_map (fun r => b_log (r_local r)) l.
Lemma locals_put l i x : nth_error l i = Some x ->
  exists R, Permutation (locals l) (b_log (r_local x) ++ R) /\
    forall r, Permutation (locals (put l i r)) (b_log (r_local r) ++ R).
Proof.
  revert i; induction l as [|y l IH]; intros [|i] E; cbn in E; try discriminate.
  - injection E as ->. exists (locals l). split; [apply Permutation_refl|]. intros r. apply Permutation_refl.
  - destruct (IH _ E) as (R & P1 & P2). exists (b_log (r_local y) ++ R). split.
    + cbn. fold (locals l). rewrite P1. rewrite !app_assoc. apply Permutation_app_tail, Permutation_app_comm.
    + intros r. cbn. fold (locals (put l i r)). rewrite P2. rewrite !app_assoc. apply Permutation_app_tail, Permutation_app_comm.
Qed.
Lemma locals_app l r : locals (l ++ [r]) = locals l ++ b_log (r_local r).
Proof. unfold locals. rewrite flat_map_app. cbn. rewrite app_nil_r. reflexivity. Qed.
Lemma logs_app l b : logs (l ++ [b]) = logs l ++ b_log b.
Proof. unfold logs. rewrite flat_map_app. cbn. rewrite app_nil_r. reflexivity. Qed.

(** ** Runs *)
Lemma exec_app st a b : exec st (a ++ b) = match exec st a with Some st' => exec st' b | None => None end.
Proof. revert st; induction a as [|l a IH]; intros st; cbn; auto. destruct (step st l); auto. Qed.
Lemma exec_snoc st tr l st' : exec st (tr ++ [l]) = Some st' -> exists s1, exec st tr = Some s1 /\ step s1 l = Some st'.
Proof.
  rewrite exec_app. destruct (exec st tr) as [s1|]; [|discriminate]. cbn. intros E. exists s1. split; auto.
  destruct (step s1 l); congruence.
Qed.
(** induction over the steps of a run *)
Lemma exec_ind (P : state -> Prop) (Q : label -> Prop) st tr st' :
  (forall s l s', P s -> Q l -> step s l = Some s' -> P s') -> P st -> Forall Q tr -> exec st tr = Some st' -> P st'.
Proof.
  intros H. revert st. induction tr as [|l tr IH]; intros st P0 F E; cbn in E.
  - injection E as <-. auto.
  - inversion F; subst. destruct (step st l) as [s1|] eqn:S; [|discriminate]. eapply IH; [|eauto|eauto]. eapply H; eauto.
Qed.

(** the cases of a step *)
Ltac step_cases E :=
  unfold step in E;
  repeat match type of E with
  | (match ?x with _ => _ end) = Some _ => let H := fresh "K" in destruct x eqn:H; try discriminate E
  | (let _ := _ in _) = Some _ => cbn zeta in E
  end;
  try (injection E as <-).

Lemma send_cases st b : (s_reader st = RGone /\ send st b = st) \/ (s_reader st <> RGone /\ send st b = put_chan st (s_chan st ++ [b])).
Proof. unfold send. destruct (s_reader st); auto; right; split; auto; discriminate. Qed.
Lemma send_fields st b : s_merged (send st b) = s_merged st /\ s_lock (send st b) = s_lock st /\ s_count (send st b) = s_count st /\
  s_phase (send st b) = s_phase st /\ s_recs (send st b) = s_recs st /\ s_reader (send st b) = s_reader st /\
  s_history (send st b) = s_history st.
Proof. unfold send. destruct (s_reader st) eqn:E; cbn; rewrite ?E; repeat split; auto. Qed.
Lemma shed_inv b full empty : shed b = Ret (full, empty) ->
  full = b /\ b_log empty = [] /\ new_from (h_ctr (b_hist b)) (b_hist b) = Ret (b_hist empty).
Proof. unfold shed. destruct (new_from _ _) as [h|]; cbn [bind]; [|discriminate]. intros E. injection E as <- <-. auto. Qed.
Lemma push_inv st h p st' : push_rec st h p = Some st' -> exists n, new_from (h_ctr h) h = Ret n /\
  st' = State (s_merged st) (s_chan st) (s_lock st) (s_count st) (s_phase st) (s_recs st ++ [Rec (Box n []) p PReady]) (s_reader st) (s_history st).
Proof. unfold push_rec. destruct (new_from _ _) as [n|]; [|discriminate]. intros E. injection E as <-. eauto. Qed.
Lemma receive_inv st k st' : receive st k = Some st' -> exists b q, s_chan st = b :: q /\
  ((exists m, merge (s_merged st) b = Some m /\ st' = put_reader (put_merged (put_chan st q) m) k) \/
   (merge (s_merged st) b = None /\ st' = put_reader (put_chan st q) RPanicked)).
Proof.
  unfold receive. destruct (s_chan st) as [|b q]; [discriminate|]. intros E. exists b, q. split; auto.
  destruct (merge _ b) as [m|]; injection E as <-; eauto.
Qed.
Lemma merge_inv m b m' : merge m b = Some m' -> exists h r, add (b_hist m) (b_hist b) = Ret (h, ROk r) /\ m' = Box h (b_log m ++ b_log b).
Proof. unfold merge. destruct (add _ _) as [[h [r|]]|] eqn:E; try discriminate. intros F. injection F as <-. eauto. Qed.

(** ** The histograms: what every step preserves box by box *)
Section BOXES.
Variables (T : counter) (P Pm : box -> Prop) (Q : label -> Prop).
Hypothesis Hop : forall b i o h ok n, P b -> Q (LWrite i o) -> apply_op (b_hist b) o = Ret (h, ok) ->
  P (Box h (b_log b ++ [Call n i o ok])).
Hypothesis Hnew : forall b n, P b -> new_from (h_ctr (b_hist b)) (b_hist b) = Ret n -> P (Box n []).
Hypothesis Hnewm : forall b n, Pm b -> new_from (h_ctr (b_hist b)) (b_hist b) = Ret n -> P (Box n []).
Hypothesis Hmerge : forall m b m', Pm m -> P b -> merge m b = Some m' -> Pm m'.
Hypothesis Hset : forall h, Q (RSet h) -> Pm (Box h []).

Definition boxes_ok (st : state) : Prop :=
  Pm (s_merged st) /\ Forall P (s_chan st) /\ Forall (fun r => P (r_local r)) (s_recs st).
Lemma boxes_send st b : boxes_ok st -> P b -> boxes_ok (send st b).
Proof.
  intros (A & B & C) PB. destruct (send_cases st b) as [(_ & ->)|(_ & ->)]; [split; auto|].
  split; [exact A|]. split; [|exact C]. cbn. apply Forall_app. split; auto.
Qed.
Lemma boxes_put st i r : boxes_ok st -> P (r_local r) -> boxes_ok (put_rec st i r).
Proof. intros (A & B & C) PB. split; [exact A|]. split; [exact B|]. cbn. apply put_Forall; auto. Qed.
Lemma boxes_lock st k c : boxes_ok st -> boxes_ok (put_lock st k c).
Proof. intros X; exact X. Qed.
Lemma boxes_reader st k : boxes_ok st -> boxes_ok (put_reader st k).
Proof. intros X; exact X. Qed.
Lemma boxes_nth st i b p k : boxes_ok st -> nth_error (s_recs st) i = Some (Rec b p k) -> P b.
Proof. intros (_ & _ & C) E. apply (nth_Forall _ _ _ _ C E). Qed.
Lemma boxes_push st h p st' : boxes_ok st -> (forall n, new_from (h_ctr h) h = Ret n -> P (Box n [])) ->
  push_rec st h p = Some st' -> boxes_ok st'.
Proof.
  intros (A & B & C) N E. apply push_inv in E. destruct E as (n & E & ->). split; [exact A|]. split; [exact B|].
  cbn. apply Forall_app. split; [exact C|]. constructor; [|constructor]. cbn. auto.
Qed.
Lemma boxes_receive st k st' : boxes_ok st -> receive st k = Some st' -> boxes_ok st'.
Proof.
  intros (A & B & C) E. apply receive_inv in E. destruct E as (b & q & EQ & E). rewrite EQ in B. inversion B; subst.
  destruct E as [(m & E & ->)|(_ & ->)].
  - split; [|split]; auto. apply (Hmerge _ _ _ A H1 E).
  - split; [|split]; auto.
Qed.
Lemma boxes_shed b full empty : P b -> shed b = Ret (full, empty) -> P full /\ P empty.
Proof.
  intros PB E. apply shed_inv in E. destruct E as (-> & L & N). split; auto. destruct empty as [h l]. cbn in *. subst l. eauto.
Qed.
Ltac pb := match goal with B : boxes_ok _, K : nth_error _ _ = Some (Rec ?b ?p ?k) |- _ => pose proof (boxes_nth _ _ _ _ _ B K) as PB end.
Lemma boxes_step st l st' : boxes_ok st -> Q l -> step st l = Some st' -> boxes_ok st'.
Proof.
  intros B QL E. destruct l; step_cases E; try pb; auto using boxes_put, boxes_lock, boxes_reader.
  - (* write *)
    destruct B as (B1 & B2 & B3). split; [exact B1|]. split; [exact B2|]. cbn. apply put_Forall; auto. cbn. eapply Hop; eauto.
  - destruct (boxes_shed _ _ _ PB K3). apply boxes_put; auto. apply boxes_send; auto.
  - eapply boxes_push; [|intros; eapply Hnew; eauto|exact E]. exact B.
  - eapply boxes_push; [|intros; eapply Hnew; eauto|exact E]. exact B.
  - destruct (boxes_shed _ _ _ PB K3). apply boxes_put; auto. apply boxes_send; auto.
  - destruct (boxes_shed _ _ _ PB K2). apply boxes_put; auto. apply boxes_send; auto.
  - eapply boxes_receive; eauto.
  - eapply boxes_receive; eauto.
  - eapply boxes_receive; eauto.
  - eapply boxes_push; [|intros; eapply Hnewm; [apply B|eauto]|exact E]. exact B.
  - destruct B as (B1 & B2 & B3). split; [|split]; auto. apply Hset; auto.
  - destruct B as (B1 & B2 & B3). split; [|split]; auto. constructor.
Qed.
Lemma boxes_exec st tr st' : boxes_ok st -> Forall Q tr -> exec st tr = Some st' -> boxes_ok st'.
Proof. intros B F E. apply (exec_ind boxes_ok Q st tr st'); auto. intros; eapply boxes_step; eauto. Qed.
End BOXES.

(** ** Every call is in exactly one place *)
Definition everything (st : state) : list call := b_log (s_merged st) ++ logs (s_chan st) ++ locals (s_recs st).
Lemma every_put st i x r : nth_error (s_recs st) i = Some x -> b_log (r_local r) = b_log (r_local x) ->
  Permutation (everything (put_rec st i r)) (everything st).
Proof.
  intros E L. unfold everything. cbn. apply Permutation_app_head, Permutation_app_head.
  destruct (locals_put _ _ _ E) as (R & P1 & P2). rewrite P1, P2, L. reflexivity.
Qed.
Lemma every_shed st i b p k q k' full empty : nth_error (s_recs st) i = Some (Rec b p k) -> shed b = Ret (full, empty) ->
  s_reader st <> RGone -> Permutation (everything (put_rec (send st full) i (Rec empty q k'))) (everything st).
Proof.
  intros E S A. apply shed_inv in S. destruct S as (-> & L & _).
  destruct (send_cases st b) as [(X & _)|(_ & ->)]; [contradiction|]. unfold everything. cbn.
  apply Permutation_app_head. rewrite logs_app, <- app_assoc. apply Permutation_app_head.
  destruct (locals_put _ _ _ E) as (R & P1 & P2). rewrite P1, P2. cbn. rewrite L. reflexivity.
Qed.
Lemma every_push st h p st' : push_rec st h p = Some st' -> everything st' = everything st.
Proof. intros E. apply push_inv in E. destruct E as (n & _ & ->). unfold everything. cbn. rewrite locals_app. cbn. rewrite app_nil_r. reflexivity. Qed.
Lemma every_receive st k st' : receive st k = Some st' -> s_reader st' = RPanicked \/ everything st' = everything st.
Proof.
  intros E. apply receive_inv in E. destruct E as (b & q & EQ & [(m & M & ->)|(_ & ->)]); [right|left; reflexivity].
  apply merge_inv in M. destruct M as (h & r & _ & ->). unfold everything. cbn. rewrite EQ. cbn. rewrite <- !app_assoc. reflexivity.
Qed.
Lemma put_history st i r : s_history (put_rec st i r) = s_history st.
Proof. reflexivity. Qed.
Lemma push_history st h p st' : push_rec st h p = Some st' -> s_history st' = s_history st /\ s_reader st' = s_reader st.
Proof. intros E. apply push_inv in E. destruct E as (n & _ & ->). auto. Qed.
Lemma receive_history st k st' : receive st k = Some st' -> s_history st' = s_history st.
Proof. intros E. apply receive_inv in E. destruct E as (b & q & EQ & [(m & M & ->)|(_ & ->)]); reflexivity. Qed.

Definition not_set (l : label) : Prop := match l with RSet _ => False | _ => True end.
Definition placed (st : state) : Prop := reader_alive st -> Permutation (everything st) (s_history st).
Lemma alive_not_gone st : reader_alive st -> s_reader st <> RGone.
Proof. intros [_ A]; exact A. Qed.
Lemma send_history st b : s_history (send st b) = s_history st.
Proof. apply send_fields. Qed.
Lemma send_reader st b : s_reader (send st b) = s_reader st.
Proof. apply send_fields. Qed.

Lemma placed_step st l st' : placed st -> not_set l -> step st l = Some st' -> placed st'.
Proof.
  intros PL NS E A.
  assert (AL : reader_alive st).
  { clear PL NS. unfold reader_alive in *. destruct l; step_cases E; try (cbn in A; rewrite ?send_reader in A; cbn in A; auto; fail);
      try (apply push_history in E; destruct E as [_ E]; cbn in E; rewrite E in A; auto; fail);
      try (split; discriminate). }
  specialize (PL AL). pose proof (alive_not_gone _ AL) as NG.
  destruct l; step_cases E; try contradiction; try (cbn [not_set] in NS; contradiction);
    try exact PL;
    try (match goal with K : nth_error _ ?i = Some ?x |- _ =>
           etransitivity; [apply (every_put _ i x); [exact K|reflexivity]|exact PL] end);
    try (match goal with H : push_rec _ _ _ = Some _ |- _ =>
           rewrite (every_push _ _ _ _ H), (proj1 (push_history _ _ _ _ H)); exact PL end);
    try (match goal with H : receive _ _ = Some _ |- _ =>
           destruct (every_receive _ _ _ H) as [X|X]; [destruct A as [A _]; contradiction|]; rewrite X, (receive_history _ _ _ H); exact PL end).
  - (* write *)
    unfold everything in *. cbn. destruct (locals_put _ _ _ K) as (R & P1 & P2).
    rewrite P2. cbn. rewrite P1 in PL. cbn in PL. rewrite <- PL.
    rewrite <- !app_assoc. do 2 apply Permutation_app_head. apply Permutation_app_head.
    cbn. rewrite Permutation_app_comm. cbn. apply Permutation_cons_append.
  - rewrite put_history, send_history. etransitivity; [eapply every_shed; eauto|exact PL].
  - rewrite put_history, send_history. etransitivity; [eapply (every_shed (put_lock st Free (s_count st))); eauto|exact PL].
  - rewrite put_history, send_history. etransitivity; [eapply (every_shed (put_lock st Free (s_count st))); eauto|exact PL].
  - destruct A as [_ A]. exfalso. apply A. reflexivity.
Qed.
Lemma placed_exec h0 tr st : Forall not_set tr -> exec (init h0) tr = Some st -> placed st.
Proof.
  intros F E. apply (exec_ind placed not_set (init h0) tr st); auto; [intros; eapply placed_step; eauto|].
  intros _. apply Permutation_refl.
Qed.

(** ** The history: calls numbered in the order of execution *)
Lemma history_step st l st' : step st l = Some st' ->
  (s_history st' = s_history st /\ writes [l] = []) \/
  (exists i o ok, l = LWrite i o /\ s_history st' = s_history st ++ [Call (length (s_history st)) i o ok]).
Proof.
  intros E. destruct l; step_cases E;
    try (left; split; [rewrite ?put_history, ?send_history; reflexivity|reflexivity]);
    try (left; split; [|reflexivity]; (apply push_history in E; destruct E as [-> _]) || (apply receive_history in E; rewrite E); reflexivity).
  right. do 3 eexists. split; reflexivity.
Qed.
Lemma history_exec h0 tr st : exec (init h0) tr = Some st ->
  map c_id (s_history st) = seq 0 (length (s_history st)) /\
  map (fun c => (c_rec c, c_op c)) (s_history st) = writes tr.
Proof.
  revert st. induction tr as [|l tr IH] using rev_ind; intros st E.
  - cbn in E. injection E as <-. auto.
  - apply exec_snoc in E. destruct E as (s1 & E1 & E2). destruct (IH _ E1) as [H1 H2].
    unfold writes. rewrite flat_map_app. fold (writes tr) (writes [l]).
    destruct (history_step _ _ _ E2) as [(-> & ->)|(i & o & ok & -> & ->)].
    + rewrite app_nil_r. auto.
    + rewrite !map_app, app_length, seq_app, H1, H2. auto.
Qed.

(** ** The mutex and the number of recorders *)
Definition critical (k : pc) : bool :=
  match k with PIdling | PIdlingLoaded _ | PWaking | PDropping => true | _ => false end.
Definition counted (r : recorder) : Z := if is_active r then 1 else 0.
Definition lock_ok (st : state) : Prop :=
  (forall j r, nth_error (s_recs st) j = Some r -> critical (r_pc r) = true -> s_lock st = Held j) /\
  (forall j, s_lock st = Held j -> exists r, nth_error (s_recs st) j = Some r /\ critical (r_pc r) = true).

Lemma lock_put_same st i x r : nth_error (s_recs st) i = Some x -> critical (r_pc r) = critical (r_pc x) ->
  lock_ok st -> lock_ok (put_rec st i r).
Proof.
  intros E C [A B]. split; cbn.
  - intros j y J CJ. destruct (put_cases _ _ _ _ _ J) as [(-> & ->)|(N & J')]; [|eauto]. apply (A i x); auto. congruence.
  - intros j J. destruct (B j J) as (y & J1 & J2). destruct (Nat.eq_dec i j) as [->|N].
    + exists r. rewrite put_same by (eapply nth_lt; eauto). split; auto. rewrite C. congruence.
    + exists y. rewrite put_other by auto. auto.
Qed.
Lemma lock_acquire st i x r c : s_lock st = Free -> nth_error (s_recs st) i = Some x -> critical (r_pc r) = true ->
  lock_ok st -> lock_ok (put_rec (put_lock st (Held i) c) i r).
Proof.
  intros F E C [A B]. split; cbn.
  - intros j y J CJ. destruct (put_cases _ _ _ _ _ J) as [(-> & ->)|(N & J')]; auto. specialize (A j y J' CJ). congruence.
  - intros j J. injection J as <-. exists r. rewrite put_same by (eapply nth_lt; eauto). auto.
Qed.
Lemma lock_release st i x r c : nth_error (s_recs st) i = Some x -> critical (r_pc x) = true -> critical (r_pc r) = false ->
  lock_ok st -> lock_ok (put_rec (put_lock st Free c) i r).
Proof.
  intros E C CR [A B]. pose proof (A i x E C) as L. split; cbn.
  - intros j y J CJ. destruct (put_cases _ _ _ _ _ J) as [(-> & ->)|(N & J')]; [congruence|].
    specialize (A j y J' CJ). congruence.
  - intros j J. discriminate.
Qed.
Lemma lock_chan st q : lock_ok st -> lock_ok (put_chan st q).
Proof. intros L; exact L. Qed.
Lemma lock_eq st st' : s_recs st' = s_recs st -> s_lock st' = s_lock st -> lock_ok st -> lock_ok st'.
Proof. unfold lock_ok. intros -> ->. auto. Qed.
Lemma lock_push st h p st' : push_rec st h p = Some st' -> lock_ok st -> lock_ok st'.
Proof.
  intros E [A B]. apply push_inv in E. destruct E as (n & _ & ->). split; cbn.
  - intros j y J CJ. apply app_cases in J. destruct J as [(-> & ->)|J]; [discriminate|]. eauto.
  - intros j J. destruct (B j J) as (y & J1 & J2). exists y. rewrite nth_error_app1 by (eapply nth_lt; eauto). auto.
Qed.
Lemma lock_free_any st k c : s_lock st = Free -> (k = Free \/ k = Poisoned) -> lock_ok st -> lock_ok (put_lock st k c).
Proof.
  intros F K [A B]. split; cbn.
  - intros j y J CJ. specialize (A j y J CJ). congruence.
  - intros j J. destruct K; congruence.
Qed.
Lemma receive_fields st k st' : receive st k = Some st' ->
  s_recs st' = s_recs st /\ s_lock st' = s_lock st /\ s_count st' = s_count st /\ s_phase st' = s_phase st.
Proof. intros E. apply receive_inv in E. destruct E as (b & q & EQ & [(m & M & ->)|(_ & ->)]); auto. Qed.
Lemma put_send_lock st i r b : lock_ok (put_rec st i r) -> lock_ok (put_rec (send st b) i r).
Proof.
  destruct (send_fields st b) as (_ & SL & _ & _ & SR & _). apply lock_eq; cbn; congruence.
Qed.
Lemma lock_step st l st' : lock_ok st -> step st l = Some st' -> lock_ok st'.
Proof.
  intros L E. destruct l; step_cases E; try apply put_send_lock; try exact L;
    try (match goal with K : nth_error _ ?i = Some ?x |- _ => apply (lock_put_same _ i x); [exact K|reflexivity|exact L] end);
    try (match goal with K : nth_error _ ?i = Some ?x |- _ => apply (lock_acquire _ i x); [assumption|exact K|reflexivity|exact L] end);
    try (match goal with K : nth_error _ ?i = Some ?x |- _ => apply (lock_release _ i x); [exact K|reflexivity|reflexivity|exact L] end);
    try (apply lock_free_any; [assumption|auto|exact L]);
    try (destruct (receive_fields _ _ _ E) as (? & ? & _); eapply lock_eq; eauto; fail);
    try (apply (lock_push _ _ _ _ E); apply lock_free_any; [assumption|auto|exact L]).
Qed.
Lemma lock_exec h0 tr st : exec (init h0) tr = Some st -> lock_ok st.
Proof.
  intros E. apply (exec_ind lock_ok (fun _ => True) (init h0) tr st); auto; [intros; eapply lock_step; eauto| |apply Forall_forall; auto].
  split; cbn; [intros [|]; discriminate|discriminate].
Qed.

Definition not_forget (l : label) : Prop := match l with LForget _ => False | _ => True end.
Definition count_ok (st : state) : Prop :=
  s_count st = sumr counted (s_recs st) /\ (s_lock st = Poisoned -> usize_max <= zlen (s_recs st)).
Lemma counted_nonneg r : 0 <= counted r.
Proof. unfold counted. destruct (is_active r); lia. Qed.
Lemma counted_le l : sumr counted l <= zlen l.
Proof.
  induction l as [|x l IH]; [reflexivity|]. unfold sumr in *. cbn [map fold_right]. rewrite zlen_cons.
  assert (counted x <= 1) by (unfold counted; destruct (is_active x); lia). lia.
Qed.
Lemma put_zlen l i r : zlen (put l i r) = zlen l.
Proof. unfold zlen. rewrite put_length. reflexivity. Qed.
Lemma count_up_inv st c : count_up st = Ret c -> c = s_count st + 1.
Proof. unfold count_up, usize_add. intros E. apply Cfg.in_range_inv in E. tauto. Qed.
Lemma count_down_inv st c : count_down st = Ret c -> c = s_count st - 1.
Proof. unfold count_down, usize_sub. intros E. apply Cfg.in_range_inv in E. tauto. Qed.
Lemma in_range_panic lo hi x : in_range lo hi x = Panic -> x < lo \/ hi < x.
Proof. unfold in_range. destruct (Z.leb_spec lo x); destruct (Z.leb_spec x hi); cbn; try discriminate; lia. Qed.

Lemma count_put st i x r k c d : nth_error (s_recs st) i = Some x -> counted r = counted x + d -> c = s_count st + d ->
  (k = Poisoned -> s_lock st = Poisoned) -> count_ok st -> count_ok (put_rec (put_lock st k c) i r).
Proof.
  intros E C -> K [A B]. split; cbn.
  - rewrite (sumr_put _ _ _ _ _ E). lia.
  - intros P. rewrite put_zlen. auto.
Qed.
Lemma count_eq st st' : s_recs st' = s_recs st -> s_lock st' = s_lock st -> s_count st' = s_count st -> count_ok st -> count_ok st'.
Proof. unfold count_ok. intros -> -> ->. auto. Qed.
Lemma count_put_send st i r b : count_ok (put_rec st i r) -> count_ok (put_rec (send st b) i r).
Proof. destruct (send_fields st b) as (_ & SL & SC & _ & SR & _). apply count_eq; cbn; congruence. Qed.
Lemma count_push st h p st' c : push_rec (put_lock st Free c) h p = Some st' -> c = s_count st + 1 -> count_ok st -> count_ok st'.
Proof.
  intros E -> [A B]. apply push_inv in E. destruct E as (n & _ & ->). split; cbn; [|discriminate].
  rewrite sumr_app. cbn. lia.
Qed.
Lemma count_poison_up st : count_up st = Panic -> count_ok st -> count_ok (put_lock st Poisoned (s_count st)).
Proof.
  intros E [A B]. split; cbn; auto. intros _. unfold count_up, usize_add in E. apply in_range_panic in E.
  pose proof (counted_le (s_recs st)). pose proof (sumr_nonneg counted (s_recs st) counted_nonneg). lia.
Qed.
Lemma no_underflow st i x : nth_error (s_recs st) i = Some x -> counted x = 1 -> count_ok st -> count_down st = Panic -> 
  count_ok (put_lock st Poisoned (s_count st)).
Proof.
  intros E C [A B] D. pose proof (sumr_pos counted _ _ _ counted_nonneg E). unfold count_down, usize_sub in D. apply in_range_panic in D.
  split; cbn; auto. intros _. pose proof (counted_le (s_recs st)). lia.
Qed.
Lemma count_step st l st' : count_ok st -> not_forget l -> step st l = Some st' -> count_ok st'.
Proof.
  intros L NF E. destruct l; cbn [not_forget] in NF; try contradiction; step_cases E; try apply count_put_send; try exact L;
    try (match goal with K : nth_error _ ?i = Some ?x |- _ =>
       apply (count_put st i x _ (s_lock st) (s_count st) 0); [exact K|reflexivity|lia|auto|exact L] end);
    try (match goal with K : nth_error _ ?i = Some ?x |- _ =>
       apply (count_put st i x _ Free (s_count st) 0); [exact K|reflexivity|lia|discriminate|exact L] end);
    try (match goal with K : nth_error _ ?i = Some ?x, C : count_up st = Ret _ |- _ =>
       apply (count_put st i x _ (Held i) _ 1); [exact K|reflexivity|rewrite (count_up_inv _ _ C); lia|discriminate|exact L] end);
    try (match goal with K : nth_error _ ?i = Some ?x, C : count_down st = Ret _ |- _ =>
       apply (count_put st i x _ (Held i) _ (-1)); [exact K|reflexivity|rewrite (count_down_inv _ _ C); lia|discriminate|exact L] end);
    try (apply count_poison_up; [assumption|exact L]);
    try (match goal with K : nth_error _ ?i = Some ?x |- _ => apply (no_underflow st i x); [exact K|reflexivity|exact L|assumption] end);
    try (destruct (receive_fields _ _ _ E) as (? & ? & ? & _); eapply count_eq; eauto; fail);
    try (match goal with C : count_up st = Ret _ |- _ => apply (count_push _ _ _ _ _ E); [apply count_up_inv; exact C|exact L] end).
Qed.
Lemma count_exec h0 tr st : Forall not_forget tr -> exec (init h0) tr = Some st -> count_ok st.
Proof.
  intros F E. apply (exec_ind count_ok not_forget (init h0) tr st); auto; [intros; eapply count_step; eauto|].
  split; [reflexivity|discriminate].
Qed.
