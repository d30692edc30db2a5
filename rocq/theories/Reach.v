(** * Histograms a program can obtain through the public API, and the invariant they satisfy *)
From Verif Require Import Machine Log2Model HistModel Spec Bins ListZ Log2Facts Cfg Wf Ops AddFacts SubFacts Exact MoreFacts
  SerModel SerSpec SerFacts SerCode SerDecode SerRest.

(** Every public constructor and mutator, whatever it returns ([Ok] or [Err]); merging operations take
    a source of the same counter type, as the Rust signatures do; histograms may also come out of the
    deserializer, from any bytes and with any decompressor. *)
Inductive reachable : hist -> Prop :=
| reach_new_with_bounds T lo hi sf h :
    is_u64 lo -> is_u64 hi -> is_u8 sf -> new_with_bounds T lo hi sf = Ret (ROk h) -> reachable h
| reach_new_with_max T hi sf h :
    is_u64 hi -> is_u8 sf -> new_with_max T hi sf = Ret (ROk h) -> reachable h
| reach_new T sf h : is_u8 sf -> new T sf = Ret (ROk h) -> reachable h
| reach_new_from T s h : reachable s -> new_from T s = Ret h -> reachable h
| reach_record_n h v n h' r :
    reachable h -> is_u64 v -> is_count (h_ctr h) n -> record_n h v n = Ret (h', r) -> reachable h'
| reach_saturating h v n h' :
    reachable h -> is_u64 v -> is_count (h_ctr h) n -> saturating_record_n h v n = Ret h' -> reachable h'
| reach_correct h v n i h' r :
    reachable h -> is_u64 v -> is_count (h_ctr h) n -> is_u64 i ->
    record_n_correct h v n i = Ret (h', r) -> reachable h'
| reach_clear h : reachable h -> reachable (clear h)
| reach_reset h : reachable h -> reachable (reset h)
| reach_auto h b : reachable h -> reachable (auto h b)
| reach_add h s h' r :
    reachable h -> reachable s -> h_ctr h = h_ctr s -> add h s = Ret (h', r) -> reachable h'
| reach_subtract h s h' r :
    reachable h -> reachable s -> h_ctr h = h_ctr s -> subtract h s = Ret (h', r) -> reachable h'
| reach_set_to h s h' r :
    reachable h -> reachable s -> h_ctr h = h_ctr s -> set_to h s = Ret (h', r) -> reachable h'
| reach_deserialize checks cd buf T rd h rest :
    codec_ok cd -> bytes rd -> deserialize checks cd buf T rd = Ret (ROk (h, rest)) -> reachable h.

Lemma is_u64_u64 v : is_u64 v <-> u64 v.
Proof. reflexivity. Qed.

Lemma created_wf T lo hi sf h : is_u64 lo -> is_u64 hi -> is_u8 sf ->
  new_with_bounds T lo hi sf = Ret (ROk h) ->
  h = fresh T lo hi sf /\ creation_check lo hi sf = None /\ wf h /\ exact h.
Proof.
  intros L Hh S E. rewrite new_with_bounds_ok in E by auto.
  destruct (creation_check lo hi sf) eqn:CC; [discriminate|]. injection E as <-.
  split; [auto|]. split; [auto|]. split; [apply fresh_wf; auto|apply fresh_exact; auto].
Qed.

Lemma rec_many_wf h l h' : rec_many h l h' -> wf h'.
Proof. intros R. apply (ra_wf _ _ _ (rec_many_all _ _ _ R)). Qed.

Lemma add_wf h s h' r : wf h -> wf s -> h_ctr h = h_ctr s -> add h s = Ret (h', r) -> wf h'.
Proof.
  intros W WS C E. destruct (add_ok h s W WS C) as [(_ & A)|[(_ & _ & _ & A)|(_ & _ & h1 & A & AD & _)]];
    rewrite A in E; inversion E; subst; auto. apply AD.
Qed.

Theorem reachable_wf h : reachable h -> wf h.
Proof.
  induction 1.
  - eapply (created_wf T lo hi sf); eauto.
  - unfold new_with_max in H1. eapply (created_wf T 1 hi sf); eauto. unfold is_u64, u64_max; lia.
  - unfold new in H0. destruct (new_with_bounds T 1 2 sf) as [[h0|e]|] eqn:E; cbn [bind] in H0; try discriminate.
    injection H0 as <-. apply set_auto_wf. eapply created_wf; [| | |exact E]; auto; unfold is_u64, u64_max; lia.
  - rewrite new_from_ok in H0 by (apply w_cfg || apply w_size; auto). injection H0 as <-.
    apply new_from_wf; [apply w_cfg|apply w_size]; auto.
  - destruct (record_n_cases h v n IHreachable H0 H1) as [(h1 & E & R)|(E & _)]; rewrite E in H2; inversion H2; subst; auto.
    apply R.
  - destruct (saturating_ok h v n IHreachable H0 H1) as (h1 & E & R & _). rewrite E in H2. inversion H2; subst. apply R.
  - destruct (record_n_correct_ok h v n i IHreachable H0 H1 H2) as [(h1 & E & R)|(E & _)]; rewrite E in H3;
      inversion H3; subst; auto. eapply rec_many_wf; eauto.
  - apply clear_wf; auto.
  - apply reset_wf; auto.
  - apply set_auto_wf; auto.
  - apply (add_wf h s h' r); auto.
  - destruct (subtract_ok h s IHreachable1 IHreachable2 H1)
      as [(_ & E)|[(_ & _ & E)|[(_ & _ & _ & h1 & E & W & _)|(_ & _ & _ & h1 & E & W)]]];
      rewrite E in H2; inversion H2; subst; auto. apply W.
  - unfold set_to in H2. eapply add_wf; [| | |exact H2]; auto. apply reset_wf; auto.
  - destruct (deserialize_some checks cd buf T rd h rest H H0 H1) as (lo & hi & sf & cs & D & _). apply (dc_wf _ _ _ _ _ _ D).
Qed.

(** ** From the vocabulary of the statements to bins *)
Lemma covers_bin h v : wf h -> u64 v -> (covers h v <-> bin h v < zlen (h_counts h)).
Proof.
  intros W V. unfold covers. rewrite index_for_ok by (auto; apply w_cfg; auto). unfold distinct_values, bin. split.
  - intros (i & E & L). injection E as <-. auto.
  - intros L. eauto.
Qed.

Lemma equivalent_bin h v w : wf h -> u64 v -> u64 w -> equivalent h v w = Ret (bin h v =? bin h w).
Proof. intros W V V2. apply equivalent_ok; auto. apply w_cfg; auto. Qed.

Lemma weight_at_wsum h v l : wf h -> u64 v -> Forall (fun p => u64 (fst p)) l ->
  weight_at h v l = wsum (bin h) (bin h v) l.
Proof.
  intros W V. induction l as [|[w n] l IH]; intros F; cbn [weight_at wsum]; auto.
  inversion F; subst. cbn [fst] in *. rewrite equivalent_bin by auto. rewrite IH by auto.
  destruct (_ =? _); reflexivity.
Qed.

Lemma weight_wtotal l : weight l = wtotal l.
Proof. induction l as [|[w n] l IH]; cbn [weight wtotal]; lia. Qed.

Lemma records_rec_many h l h' : wf h -> (records h l h' <-> rec_many h l h' /\ Forall (fun p => is_count (h_ctr h) (snd p)) l /\
   records h l h').
Proof.
  intros W. split; [|tauto]. intros R. split; [|split; auto].
  - induction R as [|h v n l h1 h2 V N E R IH]; [constructor; auto|].
    destruct (record_n_cases h v n W V N) as [(hx & Ex & Rx)|(Ex & _)]; rewrite Ex in E; inversion E; subst.
    econstructor; eauto; [unfold is_count in N; lia|]. apply IH. apply Rx.
  - induction R as [|h v n l h1 h2 V N E R IH]; constructor; auto.
    destruct (record_n_cases h v n W V N) as [(hx & Ex & Rx)|(Ex & _)]; rewrite Ex in E; inversion E; subst.
    rewrite <- (ss_ctr _ _ (rd_shape _ _ _ _ Rx)). apply IH. apply Rx.
Qed.

Lemma records_many h l h' : wf h -> records h l h' -> rec_many h l h'.
Proof. intros W R. apply records_rec_many in R; tauto. Qed.

Lemma rec_many_u64 h l h' : rec_many h l h' -> Forall (fun p => u64 (fst p)) l.
Proof. induction 1; constructor; auto. Qed.

Lemma run_records_sound h l h' :
  Forall (fun p => is_u64 (fst p) /\ is_count (h_ctr h) (snd p)) l -> wf h ->
  run_records h l = Some h' -> records h l h'.
Proof.
  revert h. induction l as [|[v n] l IH]; intros h F W E; cbn [run_records] in E.
  - injection E as <-. constructor.
  - inversion F as [|? ? [F1 F2] F3]; subst. cbn [fst snd] in *.
    destruct (record_n h v n) as [[h1 [[]|]]|] eqn:ER; try discriminate.
    destruct (record_n_cases h v n W F1 F2) as [(hx & Ex & Rx)|(Ex & _)]; rewrite Ex in ER; inversion ER; subst.
    econstructor; eauto. apply IH; auto; [|apply Rx].
    rewrite (ss_ctr _ _ (rd_shape _ _ _ _ Rx)). auto.
Qed.

Lemma records_reachable h l h' : reachable h -> records h l h' -> reachable h'.
Proof. intros R. induction 1; auto. apply IHrecords. eapply reach_record_n; eauto. Qed.

Lemma bins_held h cs : wf h -> forall i, 0 <= i -> i + zlen cs <= zlen (h_counts h) ->
  held_from h cs i = bins_from (bval h) cs i.
Proof.
  intros W. induction cs as [|c cs IH]; intros i I L; cbn [held_from bins_from]; auto.
  rewrite zlen_cons in L. pose proof (zlen_nonneg cs).
  pose proof (len_le_top h (w_cfg h W) (w_size h W)).
  rewrite (IH (i + 1)) by lia. rewrite value_for_ok by (apply w_cfg || lia; auto). destruct (c =? 0); reflexivity.
Qed.

Lemma held_contents h : wf h -> held h = contents h.
Proof. intros W. apply bins_held; auto; lia. Qed.
