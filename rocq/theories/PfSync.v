(** * Theorems about the concurrent histogram *)
From Coq Require Import Permutation.
From Verif Require Import Machine Log2Model HistModel Bins ListZ Cfg Wf Ops AddFacts SubFacts Exact MoreFacts Spec IterSpec Reach Witness HeldFacts
  PfRecord PfMerge SyncModel SyncSpec SyncOps SyncFacts SyncRefresh.
(*PROPS-IMPORTS Machine Log2Model HistModel Spec Reach Witness Cases CasesSync SyncModel SyncSpec *)
(*PROPS-HEADER
From Coq Require Import Permutation.
PROPS-HEADER*)

Lemma untouched_not_set tr : merged_untouched tr -> Forall not_set tr.
Proof. intros U. apply Forall_forall. intros [] I; cbn; auto. apply (U h). auto. Qed.
Lemma dropped_not_forget tr : guards_dropped tr -> Forall not_forget tr.
Proof. intros U. apply Forall_forall. intros [] I; cbn; auto. apply (U i). auto. Qed.

(** what all histograms of a run have in common *)
Definition like (h0 : hist) (b : box) : Prop :=
  reachable (b_hist b) /\ same_shape h0 (b_hist b) /\ (h_auto h0 = false -> h_high (b_hist b) = h_high h0) /\ log_ok (h_ctr h0) (b_log b).
Lemma like_op h0 b i o h ok n : like h0 b -> op_ok (h_ctr h0) o -> apply_op (b_hist b) o = Ret (h, ok) ->
  like h0 (Box h (b_log b ++ [Call n i o ok])).
Proof.
  intros (R & S & F & L) K E. rewrite <- (ss_ctr _ _ S) in K. destruct (op_reach _ _ _ _ R K E) as (R' & S' & F').
  split; [exact R'|]. split; [eapply same_shape_trans; eauto|]. split.
  - intros A. cbn. destruct F' as [_ ->]; auto. rewrite (ss_auto _ _ S). auto.
  - cbn. apply Forall_app. split; auto. constructor; [|constructor]. cbn. rewrite <- (ss_ctr _ _ S). auto.
Qed.
Lemma like_new h0 b n : like h0 b -> new_from (h_ctr (b_hist b)) (b_hist b) = Ret n -> like h0 (Box n []).
Proof.
  intros (R & S & F & L) E. destruct (new_from_reach _ R) as (n' & E' & R' & S' & HH & _). rewrite E' in E. injection E as <-.
  split; [exact R'|]. split; [eapply same_shape_trans; eauto|]. split; [|constructor]. intros A. cbn. rewrite HH. auto.
Qed.
Lemma like_merge h0 m b m' : like h0 m -> like h0 b -> merge m b = Some m' -> like h0 m'.
Proof.
  intros (R & S & F & L) (R2 & S2 & F2 & L2) E. apply merge_inv in E. destruct E as (h & [] & E & ->).
  assert (CT : h_ctr (b_hist m) = h_ctr (b_hist b)) by (rewrite (ss_ctr _ _ S), (ss_ctr _ _ S2); auto).
  assert (SH : same_shape (b_hist m) h).
  { destruct (add_ok _ _ (reachable_wf _ R) (reachable_wf _ R2) CT) as [(_ & A)|[(_ & _ & _ & A)|(_ & _ & h1 & A & AD & _)]];
      rewrite A in E; inversion E; subst; [apply same_shape_refl|apply AD]. }
  split; [eapply (reach_add _ _ _ (ROk tt) R R2); auto|]. split; [exact (same_shape_trans _ _ _ S SH)|]. split.
  - intros A. cbn. destruct (add_fixed _ _ _ _ E) as [_ ->]; auto. rewrite (ss_auto _ _ S). auto.
  - cbn. apply Forall_app. auto.
Qed.
Lemma like_run h0 tr st : run h0 tr st -> Forall not_set tr -> boxes_ok (like h0) (like h0) st.
Proof.
  intros (R & F & E) U.
  apply (boxes_exec (like h0) (like h0) (fun l => label_ok (h_ctr h0) l /\ not_set l)) with (st := init h0) (tr := tr); auto.
  - intros b i o h ok n L [K _] A. eapply like_op; eauto.
  - intros b n. apply like_new.
  - intros b n. apply like_new.
  - apply like_merge.
  - intros h [_ []].
  - split; [|split; constructor]. split; [exact R|]. split; [apply same_shape_refl|]. split; auto. constructor.
  - apply Forall_forall. intros l I. rewrite Forall_forall in F, U. auto.
Qed.

(** ** C41.  No sample is lost or duplicated. *)

(** Every call ever made on a recorder is in exactly one place: the local histogram of a recorder, the
    channel or the merged histogram.  The history lists the calls in the order in which they ran. *)
Lemma C41_every_call_in_one_place_proof : forall h0 tr st, run h0 tr st -> merged_untouched tr -> reader_alive st ->
  Permutation (b_log (s_merged st) ++ flat_map b_log (s_chan st) ++ flat_map (fun r => b_log (r_local r)) (s_recs st)) (s_history st) /\
  map c_id (s_history st) = seq 0 (length (s_history st)) /\
  map (fun c => (c_rec c, c_op c)) (s_history st) = writes tr.
Proof.
  intros h0 tr st (R & F & E) U A. split; [|apply (history_exec h0 tr st E)].
  apply (placed_exec h0 tr st (untouched_not_set tr U) E A).
Qed.
(*EX
Example ex_C41_one_place : match build U64 1 1000 2 false [(5, 2)] with
  | Some h =>
      let tr := [RRecorder; RRecorder; LWrite 0 (ORecord 7 1); LLoad 0; LFinish 0; RStart false; REmpty; RRead; RShift; LWrite 1 (ORecord 9 4); LLoad 1; LFinish 1; RRecv;
                 LWrite 1 (ORecord 8 1); LLoad 1; LFinish 1; LDrop 1; LDropEnd 1] in
      match exec (init h) tr with
      | Some st => run h tr st /\ merged_untouched tr /\ reader_alive st /\ map c_id (b_log (s_merged st)) = [1]%nat /\
          map (fun b => map c_id (b_log b)) (s_chan st) = [[2]]%nat /\ map (fun r => map c_id (b_log (r_local r))) (s_recs st) = [[0]; []]%nat /\
          map c_rec (s_history st) = [0; 1; 1]%nat
      | None => False end
  | None => False end.
Proof. sync_case. Qed.
EX*)

(** *)
Lemma wsum_perm f j a b : Permutation a b -> wsum f j a = wsum f j b.
Proof. induction 1 as [|[v n]|[v n] [w k]|]; cbn [wsum]; lia. Qed.
Lemma wtotal_perm a b : Permutation a b -> wtotal a = wtotal b.
Proof. induction 1 as [|[v n]|[v n] [w k]|]; cbn [wtotal]; lia. Qed.
Lemma samples_perm a b : Permutation a b -> Permutation (samples a) (samples b).
Proof. apply Permutation_flat_map. Qed.

Definition filled (h0 : hist) (z0 : Z -> Z) (t0 : Z) (b : box) : Prop :=
  like h0 b /\ content h0 z0 t0 (b_hist b) (samples (b_log b)).
Definition adds_label (l : label) : Prop := match l with LWrite _ o => adds_op o | _ => True end.
Lemma adds_labels tr : only_adds_samples tr -> Forall adds_label tr.
Proof. intros A. apply Forall_forall. intros [] I; cbn; auto. apply (A i o). auto. Qed.
Lemma filled_run h0 tr st : run h0 tr st -> Forall not_set tr -> Forall adds_label tr ->
  boxes_ok (filled h0 (fun _ => 0) 0) (filled h0 (zn (h_counts h0)) (h_total h0)) st.
Proof.
  intros (R & F & E) U AD. pose proof (reachable_wf h0 R) as W0.
  apply (boxes_exec (filled h0 (fun _ => 0) 0) (filled h0 (zn (h_counts h0)) (h_total h0))
           (fun l => label_ok (h_ctr h0) l /\ not_set l /\ adds_label l)) with (st := init h0) (tr := tr); auto.
  - intros b i o h ok n [L C] (K & _ & A) EO. split; [eapply like_op; eauto|]. cbn [b_hist b_log]. rewrite samples_app.
    cbn [samples flat_map]. rewrite app_nil_r. destruct L as (RB & SB & _). cbn [label_ok] in K.
    apply (op_content h0 (fun _ => 0) 0 (b_hist b) _ o _ ok); auto. rewrite (ss_ctr _ _ SB). auto.
  - intros b n [L C] EN. split; [eapply like_new; eauto|]. intros _. cbn. destruct L as (RB & SB & _).
    destruct (new_from_reach _ RB) as (n' & E' & _ & _ & _ & T & Z). rewrite E' in EN. injection EN as <-. split; auto.
  - intros b n [L C] EN. split; [eapply like_new; eauto|]. intros _. cbn. destruct L as (RB & SB & _).
    destruct (new_from_reach _ RB) as (n' & E' & _ & _ & _ & T & Z). rewrite E' in EN. injection EN as <-. split; auto.
  - intros m b m' [LM CM] [LB CB] E'. split; [exact (like_merge _ _ _ _ LM LB E')|]. apply merge_inv in E'. destruct E' as (h & [] & EA & ->).
    cbn [b_hist b_log]. rewrite samples_app. destruct LM as (RM & SM & _ & OM). destruct LB as (RB & SB & _ & OB).
    apply (merge_content h0 _ _ (b_hist m) _ (b_hist b)); auto.
    + intros. apply zn_nonneg, wf_nonneg; auto.
    + apply wf_total_nonneg; auto.
    + eapply samples_ok; eauto.
    + eapply samples_ok; eauto.
  - intros h (_ & [] & _).
  - split; [|split; constructor]. split.
    + split; [exact R|]. split; [apply same_shape_refl|]. split; auto. constructor.
    + intros _. cbn. split; [intros; lia|lia].
  - apply Forall_forall. intros l I. rewrite Forall_forall in F, U, AD. auto.
Qed.
Lemma filled_holds h0 b : reachable h0 -> filled h0 (fun _ => 0) 0 b -> fits h0 (fun _ => 0) 0 (samples (b_log b)) ->
  holds h0 (b_hist b) (samples (b_log b)).
Proof.
  intros R [(RB & SB & _ & OB) C] F. destruct (C F) as [C1 C2]. pose proof (reachable_wf _ R) as W. pose proof (reachable_wf _ RB) as WB.
  split.
  - intros v V. rewrite held_contents by auto. rewrite !weight_at_wsum; auto.
    + rewrite <- (shape_bin_ext h0 (b_hist b)) by auto. pose proof (bin_nonneg h0 v (w_cfg h0 W) ltac:(apply V)).
      rewrite wsum_contents by auto. apply C1; auto.
    + eapply Forall_impl; [|eapply samples_ok; eauto]. cbn beta. tauto.
    + apply contents_u64; auto.
  - unfold len. rewrite weight_wtotal. lia.
Qed.
Lemma filled_holds_over h0 b : reachable h0 -> filled h0 (zn (h_counts h0)) (h_total h0) b ->
  fits h0 (zn (h_counts h0)) (h_total h0) (samples (b_log b)) -> holds_over h0 (b_hist b) (samples (b_log b)).
Proof.
  intros R [(RB & SB & _ & OB) C] F. destruct (C F) as [C1 C2]. pose proof (reachable_wf _ R) as W. pose proof (reachable_wf _ RB) as WB.
  split.
  - intros v V. rewrite !held_contents by auto. rewrite !weight_at_wsum; auto.
    + rewrite <- (shape_bin_ext h0 (b_hist b)) by auto. pose proof (bin_nonneg h0 v (w_cfg h0 W) ltac:(apply V)).
      rewrite !wsum_contents by auto. apply C1; auto.
    + eapply Forall_impl; [|eapply samples_ok; eauto]. cbn beta. tauto.
    + apply contents_u64; auto.
    + apply contents_u64; auto.
  - unfold len. rewrite weight_wtotal. lia.
Qed.
Lemma fits_sub h0 z0 t0 a rest l : Forall (fun p => u64 (fst p) /\ 0 <= snd p) rest -> Permutation (a ++ rest) l -> fits h0 z0 t0 l -> fits h0 z0 t0 a.
Proof.
  intros N P F. apply (fits_app h0 z0 t0 a rest); auto. destruct F as [F1 F2]. split.
  - intros j J. rewrite (wsum_perm _ _ _ _ P). auto.
  - rewrite (wtotal_perm _ _ P). auto.
Qed.
Lemma fits_zero h0 z0 t0 l : (forall j, 0 <= j -> 0 <= z0 j) -> 0 <= t0 -> fits h0 z0 t0 l -> fits h0 (fun _ => 0) 0 l.
Proof. intros Z T [F1 F2]. split; [|lia]. intros j J. specialize (F1 j J). specialize (Z j J). lia. Qed.
Lemma logs_rest {A} (f : A -> list call) l x : In x l -> exists rest, Permutation (f x ++ rest) (flat_map f l).
Proof.
  intros I. apply in_split in I. destruct I as (a & b & ->). exists (flat_map f a ++ flat_map f b).
  rewrite flat_map_app. cbn. rewrite !app_assoc. apply Permutation_app_tail, Permutation_app_comm.
Qed.
Lemma perm_log_ok T a b : Permutation a b -> log_ok T b -> log_ok T a.
Proof. intros P F. unfold log_ok in *. rewrite Forall_forall in *. intros c I. apply F. eapply Permutation_in; eauto. Qed.

Lemma history_ok h0 tr st : run h0 tr st -> log_ok (h_ctr h0) (s_history st).
Proof.
  intros (R & F & E). destruct (history_exec _ _ _ E) as [_ H]. apply Forall_forall. intros c I.
  assert (In (c_rec c, c_op c) (writes tr)). { rewrite <- H. apply (in_map (fun c => (c_rec c, c_op c))). auto. }
  unfold writes in H0. apply in_flat_map in H0. destruct H0 as (l & L1 & L2). destruct l; cbn in L2; try contradiction.
  destruct L2 as [L2|[]]. assert (L3 : c_op c = o) by congruence. rewrite L3. rewrite Forall_forall in F. apply (F _ L1).
Qed.

(** *)
Lemma contents_core h0 st : reachable h0 -> Permutation (everything st) (s_history st) -> log_ok (h_ctr h0) (s_history st) ->
  boxes_ok (filled h0 (fun _ => 0) 0) (filled h0 (zn (h_counts h0)) (h_total h0)) st ->
  no_saturation h0 (samples (s_history st)) ->
  holds_over h0 (b_hist (s_merged st)) (samples (b_log (s_merged st))) /\
  (forall b, In b (s_chan st) -> holds h0 (b_hist b) (samples (b_log b))) /\
  (forall r, In r (s_recs st) -> holds h0 (b_hist (r_local r)) (samples (b_log (r_local r)))).
Proof.
  unfold everything, logs, locals. intros R P HO (B1 & B2 & B3) NS. pose proof (reachable_wf h0 R) as W.
  pose proof (samples_ok _ _ HO) as SO.
  assert (FT : fits h0 (zn (h_counts h0)) (h_total h0) (samples (s_history st))).
  { apply no_saturation_iff in NS; auto. eapply Forall_impl; [|exact SO]. cbn beta. tauto. }
  assert (SUB : forall l rest, Permutation (l ++ rest) (s_history st) -> fits h0 (zn (h_counts h0)) (h_total h0) (samples l)).
  { intros l rest PL. apply (fits_sub h0 _ _ (samples l) (samples rest) (samples (s_history st))); auto.
    - apply (samples_ok (h_ctr h0)). assert (X : log_ok (h_ctr h0) (l ++ rest)) by (eapply perm_log_ok; eauto).
      apply Forall_app in X. tauto.
    - rewrite <- samples_app. apply samples_perm. auto. }
  assert (Z0 : forall l, fits h0 (zn (h_counts h0)) (h_total h0) l -> fits h0 (fun _ => 0) 0 l).
  { intros l. apply fits_zero; [intros; apply zn_nonneg, wf_nonneg; auto|apply wf_total_nonneg; auto]. }
  split; [|split].
  - apply filled_holds_over; auto. eapply SUB; eauto.
  - intros b I. rewrite Forall_forall in B2. apply filled_holds; auto. apply Z0.
    destruct (logs_rest b_log (s_chan st) b I) as (rest & PR).
    apply (SUB _ (rest ++ b_log (s_merged st) ++ flat_map (fun r => b_log (r_local r)) (s_recs st))). rewrite <- P, <- PR.
    rewrite (app_assoc (b_log b)). rewrite (Permutation_app_comm (b_log (s_merged st)) (_ ++ _)).
    rewrite <- (app_assoc (b_log b ++ rest) (flat_map _ (s_recs st))). apply Permutation_app_head, Permutation_app_comm.
  - intros r I. rewrite Forall_forall in B3. apply filled_holds; [auto|apply B3; auto|]. apply Z0.
    destruct (logs_rest (fun r => b_log (r_local r)) (s_recs st) r I) as (rest & PR).
    apply (SUB _ (rest ++ b_log (s_merged st) ++ flat_map b_log (s_chan st))). rewrite <- P, <- PR.
    rewrite (app_assoc (b_log (r_local r))). rewrite (app_assoc (b_log (s_merged st))). apply Permutation_app_comm.
Qed.
(** As long as no counter overflows, each of these histograms holds exactly the samples of the calls
    that are in it, and the merged histogram in addition what it held at the start. *)
Lemma C41_contents_proof : forall h0 tr st, run h0 tr st -> merged_untouched tr -> only_adds_samples tr ->
  reader_alive st -> no_saturation h0 (samples (s_history st)) ->
  holds_over h0 (b_hist (s_merged st)) (samples (b_log (s_merged st))) /\
  (forall b, In b (s_chan st) -> holds h0 (b_hist b) (samples (b_log b))) /\
  (forall r, In r (s_recs st) -> holds h0 (b_hist (r_local r)) (samples (b_log (r_local r)))).
Proof.
  intros h0 tr st RN U AD A NS.
  pose proof (C41_every_call_in_one_place_proof h0 tr st RN U A) as (P & _).
  apply contents_core; auto; [apply RN|apply (history_ok h0 tr st RN)|].
  apply (filled_run h0 tr st RN (untouched_not_set _ U) (adds_labels _ AD)).
Qed.
(*EX
(** the hypotheses, in such a state *)
Example ex_C41_contents : match build U64 1 1000 2 false [(5, 2)] with
  | Some h =>
      let tr := [RRecorder; RRecorder; LWrite 0 (ORecord 7 1); LLoad 0; LFinish 0;
                 RStart false; REmpty; RRead; RShift; LWrite 1 (ORecord 9 4); LLoad 1; LFinish 1; RRecv;
                 LWrite 0 (OCorrect 50 1 20); LLoad 0] in
      match exec (init h) tr with
      | Some st => run h tr st /\ merged_untouched tr /\ only_adds_samples tr /\ reader_alive st /\ no_saturation h (samples (s_history st)) /\
          samples (s_history st) = [(7, 1); (9, 4); (50, 1); (30, 1)] /\
          held (b_hist (s_merged st)) = [(5, 2); (9, 4)] /\ map (fun r => held (b_hist (r_local r))) (s_recs st) = [[(7, 1); (30, 1); (50, 1)]; []]
      | None => False end
  | None => False end.
Proof. sync_case. Qed.
EX*)
(*EX
(** Two recorders and a reader.  Recorder 0 has made two calls, the first of which has been merged;
    recorder 1 has been dropped and its histogram is in the channel. *)
Example ex_C41 : match build U64 1 1000 2 false [(5, 2)] with
  | Some h =>
      let tr := [RRecorder; RRecorder; LWrite 0 (ORecord 7 1); LLoad 0; LFinish 0;
                 RStart false; REmpty; RRead; RShift;
                 LWrite 1 (ORecord 9 4); LLoad 1; LFinish 1; RRecv;
                 LWrite 0 (ORecord 300 2); LLoad 0; LFinish 0; RRecv; RDone; REmpty;
                 LWrite 0 (OCorrect 50 1 20); LLoad 0; LFinish 0;
                 LWrite 1 (ORecord 2000 1); LLoad 1; LFinish 1; LWrite 1 (ORecord 8 1); LLoad 1; LFinish 1; LDrop 1; LDropEnd 1] in
      match exec (init h) tr with
      | Some st => s_reader st = RReady /\ len (b_hist (s_merged st)) = 9 /\
          map c_id (b_log (s_merged st)) = [1; 0; 2]%nat /\
          map (fun b => map c_id (b_log b)) (s_chan st) = [[4; 5]%nat] /\ map (fun b => held (b_hist b)) (s_chan st) = [[(8, 1)]] /\
          map (fun r => map c_id (b_log (r_local r))) (s_recs st) = [[3]%nat; []] /\
          map (fun r => held (b_hist (r_local r))) (s_recs st) = [[(30, 1); (50, 1)]; []]
      | None => False
      end
  | None => False end.
Proof. vm_compute. auto 10. Qed.
EX*)

(** ** C56.  Merging never panics. *)
(** *)
Lemma merge_ok h0 m b : merge_safe h0 -> reachable h0 -> like h0 m -> like h0 b -> exists m', merge m b = Some m'.
Proof.
  intros SF R (RM & SM & FM & _) (RB & SB & FB & _). unfold merge.
  pose proof (reachable_wf _ RM) as WM. pose proof (reachable_wf _ RB) as WB. pose proof (reachable_wf _ R) as W.
  assert (CT : h_ctr (b_hist m) = h_ctr (b_hist b)) by (rewrite (ss_ctr _ _ SM), (ss_ctr _ _ SB); auto).
  destruct (add_ok _ _ WM WB CT) as [(_ & A)|[(X1 & X2 & X3 & A)|(_ & _ & h1 & A & AD & _)]]; rewrite A; eauto.
  exfalso.
  assert (A0 : h_auto h0 = false) by (rewrite <- (ss_auto _ _ SM); auto).
  assert (LN : forall x, reachable x -> same_shape h0 x -> (h_auto h0 = false -> h_high x = h_high h0) ->
             zlen (h_counts x) = zlen (h_counts h0)).
  { intros x RX SX FX. pose proof (reachable_wf _ RX) as WX. rewrite (s_len _ (w_size _ WX)), (s_len _ (w_size _ W)).
    rewrite (ss_um _ _ SX), (ss_m _ _ SX), (FX A0). reflexivity. }
  pose proof (maxp_u64 _ WB) as MU. pose proof (maxp_in _ WB) as MI.
  assert (CV : covers (b_hist m) (maxp (b_hist b))).
  { apply covers_bin; auto. rewrite (same_shape_bin h0) by auto. rewrite (same_shape_bin h0) in MI by auto.
    rewrite (LN _ RM SM FM). rewrite (LN _ RB SB FB) in MI. exact MI. }
  apply (C16_add_fails_iff_proof _ _ _ RM RB CT (max_ok _ WB)) in A. destruct A as (_ & _ & [N|N]); [contradiction|].
  destruct SF as [SF|SF]; [unfold is_auto_resize in SF; congruence|]. apply SF. apply covers_bin; [auto|split; unfold u64_max; lia|].
  rewrite <- N. rewrite (same_shape_bin h0) in MI by auto. rewrite (LN _ RB SB FB) in MI. exact MI.
Qed.

Lemma no_panic_step h0 s1 l st : merge_safe h0 -> reachable h0 -> boxes_ok (like h0) (like h0) s1 -> s_reader s1 <> RPanicked ->
  step s1 l = Some st -> s_reader st <> RPanicked.
Proof.
  intros SF R (B1 & B2 & _) N1 E2.
  assert (RC : forall k s2, receive s1 k = Some s2 -> k <> RPanicked -> s_reader s2 <> RPanicked).
  { intros k s2 X K. apply receive_inv in X. destruct X as (b & q & Q & [(m & M & ->)|(M & ->)]); [exact K|].
    rewrite Q in B2. inversion B2; subst. destruct (merge_ok h0 _ _ SF R B1 H1) as (m' & M'). congruence. }
  destruct l; step_cases E2; try exact N1; cbn; rewrite ?send_reader; cbn; try congruence;
    try (apply push_history in E2; destruct E2 as [_ ->]; cbn; congruence);
    try (apply (RC _ _ E2); discriminate).
Qed.

(** [refresh] never panics: merging a recorder's histogram never fails, whatever the interleaving, if
    the histogram resizes itself or has no bin for [u64::MAX]. *)
Lemma C56_refresh_never_panics_proof : forall h0 tr st, run h0 tr st -> merged_untouched tr -> merge_safe h0 ->
  s_reader st <> RPanicked.
Proof.
  intros h0 tr. induction tr as [|l tr IH] using rev_ind; intros st RN U SF.
  - destruct RN as (_ & _ & E). cbn in E. injection E as <-. discriminate.
  - destruct RN as (R & F & E). apply Forall_app in F. destruct F as [F _]. apply exec_snoc in E. destruct E as (s1 & E1 & E2).
    assert (RN1 : run h0 tr s1) by (split; auto).
    assert (U1 : merged_untouched tr) by (intros h I; apply (U h); apply in_or_app; auto).
    pose proof (IH s1 RN1 U1 SF) as N1.
    apply (no_panic_step h0 s1 l st SF R); auto. apply (like_run h0 tr s1 RN1 (untouched_not_set _ U1)).
Qed.
(*EX
Example ex_C56_safe : match build U64 1 1000 2 false [] with
  | Some h =>
      let tr := [RRecorder; LWrite 0 (ORecord 1023 1); LLoad 0; LFinish 0; LDrop 0; LDropEnd 0; RStart false; RRecv] in
      match exec (init h) tr with
      | Some st => run h tr st /\ merged_untouched tr /\ merge_safe h /\ s_reader st = RDrain false /\ held (b_hist (s_merged st)) = [(1020, 1)]
      | None => False end
  | None => False end.
Proof. sync_case. Qed.
EX*)
(*EX
(** both kinds of histogram that satisfy the condition *)
Example ex_C56 : match build U64 1 1000 2 false [], build U64 1 u64_max 1 true [] with
  | Some h, Some h' => is_auto_resize h = false /\ distinct_values h = 512 /\ index_for h u64_max = Ret (Some 7423) /\ is_auto_resize h' = true
  | _, _ => False end.
Proof. vm_compute. auto 10. Qed.
EX*)

(** Without that condition it does: a fixed-range histogram that covers [u64::MAX], and a recorder that
    recorded it; the next [refresh] panics. *)
Lemma C56_refresh_panics_refuted_proof : exists h0 tr st, run h0 tr st /\ merged_untouched tr /\ is_auto_resize h0 = false /\
  writes tr = [(0%nat, ORecord u64_max 1)] /\ s_reader st = RPanicked.
Proof.
  set (tr := [RRecorder; LWrite 0 (ORecord u64_max 1); LLoad 0; LFinish 0; LDrop 0; LDropEnd 0; RStart false; RRecv]).
  assert (X : match build U64 1 u64_max 1 false [] with
              | Some h => match exec (init h) tr with
                          | Some st => h_ctr h = U64 /\ is_auto_resize h = false /\ s_reader st = RPanicked
                          | None => False end
              | None => False end) by (vm_compute; auto).
  destruct (build _ _ _ _ _ _) as [h|] eqn:B; [|contradiction]. destruct (exec _ _) as [st|] eqn:E; [|contradiction].
  destruct X as (CT & A & P). exists h, tr, st. split; [|split; [|auto]].
  - split; [exact (build_reachable _ _ _ _ _ _ _ B)|]. split; [|exact E]. rewrite CT.
    unfold tr. repeat constructor; cbn; unfold u64_max; lia.
  - intros x. unfold tr. cbn. intuition discriminate.
Qed.

(** ** C45.  The number of recorders is always right. *)
(** *)
Lemma count_core st : count_ok st ->
  s_count st = active_recorders st /\ (Z.of_nat (length (s_recs st)) < usize_max -> s_lock st <> Poisoned).
Proof.
  intros [A B]. split.
  - rewrite A. unfold active_recorders. clear. induction (s_recs st) as [|x l IH]; [reflexivity|].
    unfold sumr in *. cbn [map fold_right filter]. rewrite IH. unfold counted. destruct (is_active x); cbn [length]; lia.
  - intros L P. specialize (B P). unfold zlen in B. lia.
Qed.

(** In every state the shared count is the number of recorders in use, provided no guard of an idle
    recorder is leaked.  The mutex is never poisoned (the count neither underflows nor overflows) unless
    [usize::MAX] recorders have been made. *)
Lemma C45_count_proof : forall h0 tr st, run h0 tr st -> guards_dropped tr ->
  s_count st = active_recorders st /\ (Z.of_nat (length (s_recs st)) < usize_max -> s_lock st <> Poisoned).
Proof.
  intros h0 tr st (R & F & E) G. apply count_core, (count_exec h0 tr st (dropped_not_forget _ G) E).
Qed.
(*EX
Example ex_C45_count : match build U64 1 1000 2 false [] with
  | Some h =>
      let tr := [RRecorder; LClone 0; LClone 1; RRecorder; LIdle 1; LIdleLoad 1; LIdleEnd 1; LDrop 3; LDropEnd 3; LWake 1] in
      match exec (init h) tr with
      | Some st => run h tr st /\ guards_dropped tr /\ s_count st = 3 /\ map is_active (s_recs st) = [true; true; true; false] /\
          s_lock st = Held 1 /\ map in_section (s_recs st) = [false; true; false; false]
      | None => False end
  | None => False end.
Proof. sync_case. Qed.
EX*)
(*EX
(** one recorder in use, one idle, one in the middle of waking up, one dropped *)
Example ex_C45 : match build U64 1 1000 2 false [] with
  | Some h =>
      let tr := [RRecorder; LClone 0; LClone 1; RRecorder; LIdle 1; LIdleLoad 1; LIdleEnd 1; LIdle 2; LIdleLoad 2; LIdleEnd 2;
                 LDrop 3; LDropEnd 3; LWake 2] in
      match exec (init h) tr with
      | Some st => map r_pc (s_recs st) = [PReady; PIdle; PWaking; PGone] /\ s_count st = 2 /\ active_recorders st = 2 /\ s_lock st = Held 2
      | None => False end
  | None => False end.
Proof. vm_compute. auto 10. Qed.
EX*)

(** *)
Definition typed (T : counter) (b : box) : Prop := reachable (b_hist b) /\ h_ctr (b_hist b) = T.
Lemma typed_run h0 tr st : run h0 tr st -> boxes_ok (typed (h_ctr h0)) (typed (h_ctr h0)) st.
Proof.
  intros (R & F & E).
  apply (boxes_exec (typed (h_ctr h0)) (typed (h_ctr h0)) (label_ok (h_ctr h0))) with (st := init h0) (tr := tr); auto.
  - intros b i o h ok n [L C] K A. cbn [label_ok] in K. rewrite <- C in K. destruct (op_reach _ _ _ _ L K A) as (R' & S' & _).
    split; [exact R'|]. cbn. rewrite (ss_ctr _ _ S'). auto.
  - intros b n [L C] EN. destruct (new_from_reach _ L) as (n' & E' & R' & S' & _). rewrite E' in EN. injection EN as <-.
    split; [exact R'|]. cbn. rewrite (ss_ctr _ _ S'). auto.
  - intros b n [L C] EN. destruct (new_from_reach _ L) as (n' & E' & R' & S' & _). rewrite E' in EN. injection EN as <-.
    split; [exact R'|]. cbn. rewrite (ss_ctr _ _ S'). auto.
  - intros m b m' [RM CM] [RB CB] E'. apply merge_inv in E'. destruct E' as (h & [] & A & ->).
    assert (CT : h_ctr (b_hist m) = h_ctr (b_hist b)) by congruence.
    split; [eapply (reach_add _ _ _ (ROk tt) RM RB); auto|]. cbn.
    destruct (add_ok _ _ (reachable_wf _ RM) (reachable_wf _ RB) CT) as [(_ & A')|[(_ & _ & _ & A')|(_ & _ & h1 & A' & AD & _)]];
      rewrite A' in A; inversion A; subst; auto. rewrite (ss_ctr _ _ (ad_shape _ _ _ AD)). auto.
  - split; [|split; constructor]. split; auto.
Qed.
Lemma shed_returns T b : typed T b -> exists n, shed b = Ret (b, Box n []).
Proof. intros [R _]. destruct (new_from_reach _ R) as (n & E & _). unfold shed. rewrite E. eexists. reflexivity. Qed.

Lemma mutex_core T st i r : lock_ok st -> boxes_ok (typed T) (typed T) st -> nth_error (s_recs st) i = Some r ->
  (s_lock st = Held i <-> in_section r = true) /\
  (s_lock st = Held i -> exists l st', section_step i l /\ step st l = Some st').
Proof.
  intros [A B] (_ & _ & TT) I.
  assert (X : s_lock st = Held i <-> in_section r = true).
  { split.
    - intros L. destruct (B i L) as (y & Y1 & Y2). assert (y = r) by congruence. subst y. unfold in_section. unfold critical in Y2.
      destruct (r_pc r); auto.
    - intros L. apply (A i r I). unfold in_section in L. unfold critical. destruct (r_pc r); auto. }
  split; [exact X|]. intros L. apply X in L. 
  pose proof (nth_Forall _ _ _ _ TT I) as TB. cbn in TB. destruct (shed_returns _ _ TB) as (n & SH).
  destruct r as [b p k]. unfold in_section in L. cbn in *. destruct k; try discriminate.
  - exists (LIdleLoad i). eexists. split; [unfold section_step; auto|]. cbn. rewrite I. reflexivity.
  - exists (LIdleEnd i). cbn. rewrite I. destruct (p0 =? p).
    + eexists. split; [unfold section_step; auto|]. reflexivity.
    + rewrite SH. eexists. split; [unfold section_step; auto|]. reflexivity.
  - exists (LWakeEnd i). eexists. split; [unfold section_step; auto|]. cbn. rewrite I. reflexivity.
  - exists (LDropEnd i). cbn. rewrite I, SH. eexists. split; [unfold section_step; auto|]. reflexivity.
Qed.

(** The mutex works: it is held by recorder [i] exactly while [i] is inside its critical section, so at
    most one recorder is, and whoever holds it can always go on: nobody can block it.  So every thread
    waiting for the mutex eventually gets it, if the scheduler is fair. *)
Lemma C45_mutex_proof : forall h0 tr st i r, run h0 tr st -> nth_error (s_recs st) i = Some r ->
  (s_lock st = Held i <-> in_section r = true) /\
  (s_lock st = Held i -> exists l st', section_step i l /\ step st l = Some st').
Proof.
  intros h0 tr st i r RN I. apply (mutex_core (h_ctr h0) st i r); [apply (lock_exec h0 tr st), RN|apply (typed_run h0 tr st RN)|exact I].
Qed.
(*EX
Example ex_C45_mutex : match build U64 1 1000 2 false [] with
  | Some h =>
      let tr := [RRecorder; LClone 0; LIdle 1] in
      match exec (init h) tr with
      | Some st => run h tr st /\ s_lock st = Held 1 /\ map in_section (s_recs st) = [false; true] /\ section_step 1 (LIdleLoad 1) /\
          match step st (LIdleLoad 1) with Some st' => s_lock st' = Held 1 | None => False end /\ step st (LIdle 0) = None
      | None => False end
  | None => False end.
Proof. sync_case. Qed.
EX*)

(** Leaking the guard returned by [idle] breaks the count: with one recorder, idle, leaked and dropped,
    the count underflows, the thread panics and the mutex stays poisoned. *)
Lemma C45_leaked_guard_refuted_proof : exists h0 tr st, run h0 tr st /\ In (LForget 0) tr /\
  length (s_recs st) = 1%nat /\ s_lock st = Poisoned.
Proof.
  set (tr := [RRecorder; LIdle 0; LIdleLoad 0; LIdleEnd 0; LForget 0; LDrop 0]).
  assert (X : match build U64 1 1000 2 false [] with
              | Some h => match exec (init h) tr with
                          | Some st => length (s_recs st) = 1%nat /\ s_lock st = Poisoned
                          | None => False end
              | None => False end) by (vm_compute; auto).
  destruct (build _ _ _ _ _ _) as [h|] eqn:B; [|contradiction]. destruct (exec _ _) as [st|] eqn:E; [|contradiction].
  exists h, tr, st. split; [|split; [unfold tr; cbn; auto 10|auto]].
  split; [exact (build_reachable _ _ _ _ _ _ _ B)|]. split; [|exact E]. unfold tr. repeat constructor.
Qed.

(** ** C42.  Once all recorders are gone [refresh] returns, with everything. *)
(** *)
Definition gone_empty (st : state) : Prop := forall r, In r (s_recs st) -> r_pc r = PGone -> b_log (r_local r) = [].
Lemma put_In l i r x : In x (put l i r) -> x = r \/ In x l.
Proof. revert i; induction l as [|y l IH]; intros [|i] I; cbn in *; auto; destruct I as [I|I]; auto. destruct (IH _ I); auto. Qed.
Lemma gone_put st i r : gone_empty st -> (r_pc r = PGone -> b_log (r_local r) = []) -> gone_empty (put_rec st i r).
Proof. intros G H x I. cbn in I. apply put_In in I. destruct I as [->|I]; auto. Qed.
Lemma gone_eq st st' : s_recs st' = s_recs st -> gone_empty st -> gone_empty st'.
Proof. unfold gone_empty. intros ->. auto. Qed.
Lemma gone_step st l st' : gone_empty st -> step st l = Some st' -> gone_empty st'.
Proof.
  assert (SE : forall st b, gone_empty st -> gone_empty (send st b)) by (intros s b; apply gone_eq; apply send_fields).
  assert (LO : forall st k c, gone_empty st -> gone_empty (put_lock st k c)) by (intros; auto).
  intros G E. destruct l; step_cases E; try exact G; try (apply gone_put; [auto|intros; discriminate]);
    try (destruct (receive_fields _ _ _ E) as (X & _); apply (gone_eq _ _ X G));
    try (apply push_inv in E; destruct E as (n & _ & ->); intros x I P; cbn in I; apply in_app_iff in I;
         destruct I as [I|[<-|[]]]; [apply G; auto|reflexivity]).
  apply gone_put; [auto|]. intros _. cbn. match goal with H : shed _ = Ret _ |- _ => apply shed_inv in H; tauto end.
Qed.
Lemma gone_exec h0 tr st : exec (init h0) tr = Some st -> gone_empty st.
Proof.
  intros E. apply (exec_ind gone_empty (fun _ => True) (init h0) tr st); auto; [intros; eapply gone_step; eauto| |apply Forall_forall; auto].
  intros x [].
Qed.

Definition rank (st : state) : Z :=
  match s_reader st with
  | RDrain _ => 5 + zlen (s_chan st)
  | RCount _ => 4 | RBump _ _ => 3 | RWait _ _ _ => 2 | RDrain2 => 1
  | _ => 0
  end.
Definition quiet_inv (st0 st : state) : Prop :=
  s_recs st = s_recs st0 /\ s_lock st = Free /\ s_count st = 0 /\ s_history st = s_history st0 /\
  match s_reader st with
  | RDrain _ => True
  | RCount _ | RBump _ 0 | RWait _ 0 0 | RDrain2 | RReady => s_chan st = []
  | RPanicked => True
  | _ => False
  end.
Lemma quiet_step st0 st l st' : quiet_inv st0 st -> refresh_step l -> step st l = Some st' ->
  quiet_inv st0 st' /\ rank st' < rank st.
Proof.
  intros (Q1 & Q2 & Q3 & Q4 & Q5) RS E.
  assert (RC : forall t, s_reader st = RDrain t -> receive st (RDrain t) = Some st' -> quiet_inv st0 st' /\ rank st' < rank st).
  { intros t RD X. apply receive_inv in X. destruct X as (b & q & Q & [(m & M & ->)|(M & ->)]).
    - split; [repeat split; auto|]. unfold rank. cbn [put_reader put_merged put_chan s_reader s_chan]. rewrite RD, Q, zlen_cons. lia.
    - split; [repeat split; auto|]. unfold rank. cbn [put_reader put_merged put_chan s_reader s_chan]. rewrite RD. pose proof (zlen_nonneg (s_chan st)). lia. }
  unfold rank, quiet_inv in *. destruct l; cbn [refresh_step] in RS; try contradiction; cbn [step] in E; destruct (s_reader st) eqn:RD; try discriminate.
  - apply (RC timed); auto.
  - destruct n; try contradiction. destruct phased; try contradiction. discriminate.
  - unfold receive in E. rewrite Q5 in E. discriminate.
  - destruct (s_chan st) eqn:C; [|discriminate]. injection E as <-. cbn. rewrite C. split; [repeat split; auto|]. unfold zlen; cbn; lia.
  - destruct (s_chan st) eqn:C; [|discriminate]. injection E as <-. cbn. split; [repeat split; auto|]. lia.
  - rewrite Q2 in E. injection E as <-. cbn. rewrite Q3. split; [repeat split; auto|]. lia.
  - destruct n; try contradiction. injection E as <-. cbn. split; [repeat split; auto|]. lia.
  - destruct timed; [|discriminate]. destruct n; try contradiction. destruct phased; try contradiction. discriminate.
  - destruct n; try contradiction. destruct phased; try contradiction. cbn in E. injection E as <-. cbn. split; [repeat split; auto|]. lia.
Qed.
Lemma quiet_live st0 st : quiet_inv st0 st -> s_reader st <> RPanicked -> s_reader st <> RReady ->
  exists l st', refresh_step l /\ step st l = Some st'.
Proof.
  intros (Q1 & Q2 & Q3 & Q4 & Q5) P RR. destruct (s_reader st) eqn:RD; try contradiction; try congruence.
  - destruct (s_chan st) as [|b q] eqn:C.
    + exists REmpty. cbn. rewrite RD, C. eexists. split; [exact I|reflexivity].
    + exists RRecv. cbn. rewrite RD. unfold receive. rewrite C. destruct (merge _ _); eexists; split; try exact I; reflexivity.
  - exists RRead. cbn. rewrite RD, Q2. eexists. split; [exact I|reflexivity].
  - exists RShift. cbn. rewrite RD. eexists. split; [exact I|reflexivity].
  - destruct n; try contradiction. destruct phased; try contradiction. exists RDone. cbn. rewrite RD. eexists. split; [exact I|reflexivity].
  - exists REmpty. cbn. rewrite RD, Q5. eexists. split; [exact I|reflexivity].
Qed.
Lemma quiet_exec st0 tr : forall st st', quiet_inv st0 st -> Forall refresh_step tr -> exec st tr = Some st' ->
  quiet_inv st0 st' /\ zlen tr + rank st' <= rank st.
Proof.
  induction tr as [|l tr IH]; intros st st' Q F E; cbn in E.
  - injection E as <-. split; auto. unfold zlen; cbn; lia.
  - inversion F; subst. destruct (step st l) as [s1|] eqn:S1; [|discriminate].
    destruct (quiet_step _ _ _ _ Q H1 S1) as [Q1 L]. destruct (IH _ _ Q1 H2 E). split; auto. rewrite zlen_cons. lia.
Qed.
Lemma rank_nonneg st : 0 <= rank st.
Proof. unfold rank. pose proof (zlen_nonneg (s_chan st)). destruct (s_reader st); lia. Qed.

Lemma quiet_core st t st1 : count_ok st -> lock_ok st -> Z.of_nat (length (s_recs st)) < usize_max ->
  s_reader st = RReady -> all_quiet st -> step st (RStart t) = Some st1 -> quiet_inv st st1 /\ rank st1 = 5 + zlen (s_chan st).
Proof.
  intros CK [_ LB] L RD Q E. destruct (count_core st CK) as [C P]. specialize (P L).
  cbn in E. rewrite RD in E. injection E as <-. unfold quiet_inv, rank. cbn. split; [|reflexivity]. repeat split; auto.
  - destruct (s_lock st) eqn:LK; auto; [|contradiction]. destruct (LB _ eq_refl) as (r & R1 & R2).
    apply nth_error_In in R1. destruct (Q r R1) as [X|X]; rewrite X in R2; discriminate.
  - rewrite C. unfold active_recorders. replace (filter is_active (s_recs st)) with (@nil recorder); [reflexivity|].
    symmetry. clear - Q. unfold all_quiet in Q. induction (s_recs st) as [|x l IH]; auto. cbn.
    assert (is_active x = false) by (unfold is_active; destruct (Q x ltac:(cbn; auto)) as [-> | ->]; reflexivity).
    rewrite H. apply IH. intros; apply Q; cbn; auto.
Qed.
Lemma quiet_start h0 tr st t st1 : run h0 tr st -> guards_dropped tr -> Z.of_nat (length (s_recs st)) < usize_max ->
  s_reader st = RReady -> all_quiet st -> step st (RStart t) = Some st1 -> quiet_inv st st1 /\ rank st1 = 5 + zlen (s_chan st).
Proof.
  intros (R & F & EX) G. apply quiet_core; [apply (count_exec h0 tr st (dropped_not_forget _ G) EX)|apply (lock_exec h0 tr st EX)].
Qed.

(** If every recorder has been dropped or is idle (and none wakes up meanwhile), [refresh] returns after
    at most as many steps as there are histograms in the channel, plus five; it never gets stuck and never
    panics.  On return the channel is empty, and every call that was ever made is in the merged
    histogram, except what is still in the local histogram of an idle recorder. *)
Lemma C42_quiet_proof : forall h0 tr st t tr2 st2, run h0 tr st -> merged_untouched tr -> guards_dropped tr -> merge_safe h0 ->
  Z.of_nat (length (s_recs st)) < usize_max -> s_reader st = RReady -> all_quiet st ->
  exec st (RStart t :: tr2) = Some st2 -> Forall refresh_step tr2 ->
  Z.of_nat (length tr2) <= Z.of_nat (length (s_chan st)) + 5 /\
  (s_reader st2 <> RReady -> exists l st3, refresh_step l /\ step st2 l = Some st3) /\
  (s_reader st2 = RReady -> s_chan st2 = [] /\ s_recs st2 = s_recs st /\
     Permutation (b_log (s_merged st2) ++ flat_map (fun r => b_log (r_local r)) (s_recs st)) (s_history st)).
Proof.
  intros h0 tr st t tr2 st2 RN U G SF L RD Q E F. pose proof RN as (R & FL & EX).
  cbn [exec] in E. destruct (step st (RStart t)) as [st1|] eqn:E1; [|discriminate].
  destruct (quiet_start h0 tr st t st1 RN G L RD Q E1) as [QI RK].
  destruct (quiet_exec st tr2 st1 st2 QI F E) as [Q2 LE]. pose proof (rank_nonneg st2). rewrite RK in LE. unfold zlen in LE.
  assert (RN2 : run h0 (tr ++ RStart t :: tr2) st2).
  { split; auto. split.
    - apply Forall_app. split; auto. constructor; [exact I|]. eapply Forall_impl; [|exact F]. intros []; cbn; intros; auto; contradiction.
    - rewrite exec_app, EX. cbn [exec]. rewrite E1. exact E. }
  assert (U2 : merged_untouched (tr ++ RStart t :: tr2)).
  { intros h I. apply in_app_iff in I. destruct I as [I|[I|I]]; [apply (U h I)|discriminate|]. rewrite Forall_forall in F. apply (F _ I). }
  pose proof (C56_refresh_never_panics_proof h0 _ st2 RN2 U2 SF) as NP.
  split; [lia|]. split; [apply (quiet_live st); auto|]. intros RR.
  destruct Q2 as (S1 & S2 & S3 & S4 & S5). rewrite RR in S5. split; auto. split; auto.
  destruct (C41_every_call_in_one_place_proof h0 _ st2 RN2 U2) as (P & _).
  { split; rewrite RR; discriminate. }
  rewrite S5, S4, S1 in P. exact P.
Qed.
(*EX
(** recorder 0 is idle and has kept 7 (it has seen no phase move); recorder 1 is gone; [refresh] gets stuck nowhere *)
Example ex_C42_quiet : match build U64 1 1000 2 false [] with
  | Some h =>
      let tr := [RRecorder; RRecorder; LWrite 0 (ORecord 7 1); LLoad 0; LFinish 0; LWrite 1 (ORecord 9 4); LLoad 1; LFinish 1;
                 LDrop 1; LDropEnd 1; LIdle 0; LIdleLoad 0; LIdleEnd 0] in
      let tr2 := [RRecv; REmpty; RRead; RShift; RDone; REmpty] in
      match exec (init h) tr with
      | Some st => run h tr st /\ merged_untouched tr /\ guards_dropped tr /\ merge_safe h /\ s_reader st = RReady /\ all_quiet st /\
          Forall refresh_step tr2 /\
          match exec st (RStart false :: tr2) with
          | Some st2 => s_reader st2 = RReady /\ held (b_hist (s_merged st2)) = [(9, 4)] /\ map (fun r => length (b_log (r_local r))) (s_recs st2) = [1; 0]%nat
          | None => False end
      | None => False end
  | None => False end.
Proof. sync_case. Qed.
EX*)

(** If every recorder has been dropped, no thread but the reader can do anything any more, and the merged
    histogram ends up with every call ever made; hence, if no counter overflows, with exactly the
    samples of the initial histogram and of all those calls. *)
Lemma C42_all_dropped_proof : forall h0 tr st t tr2 st2, run h0 tr st -> merged_untouched tr -> guards_dropped tr -> merge_safe h0 ->
  Z.of_nat (length (s_recs st)) < usize_max -> s_reader st = RReady -> all_dropped st ->
  exec st (RStart t :: tr2) = Some st2 -> Forall in_call tr2 ->
  Forall refresh_step tr2 /\
  Z.of_nat (length tr2) <= Z.of_nat (length (s_chan st)) + 5 /\
  (s_reader st2 <> RReady -> exists l st3, refresh_step l /\ step st2 l = Some st3) /\
  (s_reader st2 = RReady ->
     s_chan st2 = [] /\ Permutation (b_log (s_merged st2)) (s_history st) /\
     (only_adds_samples tr -> no_saturation h0 (samples (s_history st)) ->
        holds_over h0 (b_hist (s_merged st2)) (samples (s_history st)))).
Proof.
  intros h0 tr st t tr2 st2 RN U G SF L RD Q E F. pose proof RN as (R & FL & EX).
  assert (QQ : all_quiet st) by (intros r I; left; auto).
  assert (RS : Forall refresh_step tr2).
  { cbn [exec] in E. destruct (step st (RStart t)) as [st1|] eqn:E1; [|discriminate].
    destruct (quiet_start h0 tr st t st1 RN G L RD QQ E1) as [QI _]. clear E1.
    revert st1 QI E. induction F as [|l tr2 HL F IH]; intros st1 QI E; [constructor|]. cbn [exec] in E.
    destruct (step st1 l) as [s2|] eqn:S2; [|discriminate].
    assert (RL : refresh_step l).
    { assert (GN : forall i r, nth_error (s_recs st1) i = Some r -> r_pc r = PGone).
      { intros i r X. apply Q. destruct QI as (<- & _). eapply nth_error_In; eauto. }
      destruct l; cbn [in_call] in HL; try contradiction; try exact I; exfalso; cbn [step] in S2;
        (destruct (nth_error (s_recs st1) i) as [[b p k]|] eqn:N; [|discriminate]);
        pose proof (GN _ _ N) as X; cbn in X; subst k; discriminate. }
    constructor; auto. destruct (quiet_step _ _ _ _ QI RL S2) as [Q2 _]. apply (IH s2); auto. }
  split; auto. destruct (C42_quiet_proof h0 tr st t tr2 st2 RN U G SF L RD QQ E RS) as (A & B & C). split; auto. split; auto.
  intros RR. destruct (C RR) as (C1 & C2 & C3). split; auto.
  assert (LE : flat_map (fun r => b_log (r_local r)) (s_recs st) = []).
  { pose proof (gone_exec h0 tr st EX) as GE. unfold gone_empty in GE. unfold all_dropped in Q. clear - GE Q. induction (s_recs st) as [|x l IH]; auto.
    cbn. rewrite (GE x) by (cbn; auto; apply Q; cbn; auto). rewrite IH; auto; intros; [apply Q|apply GE]; cbn; auto. }
  rewrite LE, app_nil_r in C3. split; auto. intros AD NS.
  assert (NW : forall l, In l (RStart t :: tr2) -> match l with LWrite _ _ | RSet _ => False | _ => True end).
  { intros l [<-|I']; [exact I|]. rewrite Forall_forall in RS. specialize (RS l I'). destruct l; cbn in *; auto. }
  assert (RN2 : run h0 (tr ++ RStart t :: tr2) st2).
  { split; auto. split.
    - apply Forall_app. split; auto. apply Forall_forall. intros l IL. specialize (NW l IL). destruct l; cbn in *; auto; contradiction.
    - rewrite exec_app, EX. exact E. }
  assert (U2 : merged_untouched (tr ++ RStart t :: tr2)).
  { intros h I'. apply in_app_iff in I'. destruct I' as [I'|I']; [apply (U h I')|]. apply (NW _ I'). }
  assert (A2 : only_adds_samples (tr ++ RStart t :: tr2)).
  { intros i o I'. apply in_app_iff in I'. destruct I' as [I'|I']; [apply (AD i o I')|]. destruct (NW _ I'). }
  assert (HE : s_history st2 = s_history st).
  { cbn [exec] in E. destruct (step st (RStart t)) as [st1|] eqn:E1; [|discriminate].
    destruct (quiet_start h0 tr st t st1 RN G L RD QQ E1) as [QI _]. destruct (quiet_exec st tr2 st1 st2 QI RS E) as [Q2 _]. apply Q2. }
  destruct (C41_contents_proof h0 _ st2 RN2 U2 A2) as (H & _).
  { split; rewrite RR; discriminate. }
  { rewrite HE. exact NS. }
  assert (PS : Permutation (samples (b_log (s_merged st2))) (samples (s_history st))) by (apply samples_perm; auto).
  pose proof (history_ok h0 tr st RN) as HO. pose proof (samples_ok _ _ HO) as SO.
  assert (W0 : wf h0) by (apply reachable_wf; auto).
  destruct H as [H1 H2]. split.
  - intros v V. rewrite (H1 v V). rewrite !(weight_at_wsum h0 v (samples _)); auto.
    + rewrite (wsum_perm _ _ _ _ PS). reflexivity.
    + eapply Forall_impl; [|exact SO]. cbn beta. tauto.
    + rewrite Forall_forall in *. intros p IP. apply SO. eapply Permutation_in; eauto.
  - rewrite H2, !weight_wtotal, (wtotal_perm _ _ PS). reflexivity.
Qed.
(*EX
Example ex_C42_all_dropped : match build U64 1 1000 2 false [(3, 3)] with
  | Some h =>
      let tr := [RRecorder; RRecorder; LWrite 0 (ORecord 7 1); LLoad 0; LFinish 0; LWrite 1 (ORecord 9 4); LLoad 1; LFinish 1;
                 LDrop 1; LDropEnd 1; LDrop 0; LDropEnd 0] in
      let tr2 := [RRecv; RRecv; REmpty; RRead; RShift; RDone; REmpty] in
      match exec (init h) tr with
      | Some st => run h tr st /\ merged_untouched tr /\ guards_dropped tr /\ merge_safe h /\ s_reader st = RReady /\ all_dropped st /\
          Forall in_call tr2 /\ only_adds_samples tr /\ no_saturation h (samples (s_history st)) /\
          match exec st (RStart true :: tr2) with
          | Some st2 => s_reader st2 = RReady /\ held (b_hist (s_merged st2)) = [(3, 3); (7, 1); (9, 4)]
          | None => False end
      | None => False end
  | None => False end.
Proof. sync_case. Qed.
EX*)
(*EX
Example ex_C42 : match build U64 1 1000 2 false [] with
  | Some h =>
      let tr := [RRecorder; RRecorder; LWrite 0 (ORecord 7 1); LLoad 0; LFinish 0; LWrite 1 (ORecord 9 4); LLoad 1; LFinish 1;
                 LDrop 1; LDropEnd 1; LDrop 0; LDropEnd 0] in
      match exec (init h) tr with
      | Some st => map r_pc (s_recs st) = [PGone; PGone] /\ length (s_chan st) = 2%nat /\
          match exec st (RStart false :: [RRecv; RRecv; REmpty; RRead; RShift; RDone; REmpty]) with
          | Some st2 => s_reader st2 = RReady /\ held (b_hist (s_merged st2)) = [(7, 1); (9, 4)]
          | None => False end
      | None => False end
  | None => False end.
Proof. vm_compute. auto 10. Qed.
EX*)

(** ** C43.  [refresh] is a barrier for the recorders that stay active. *)
(** *)
Lemma next_phase_ne P : (P + 1) mod (usize_max + 1) <> P.
Proof.
  change (usize_max + 1) with 18446744073709551616. intros E.
  pose proof (Z.mod_pos_bound (P + 1) 18446744073709551616 ltac:(lia)) as B. rewrite E in B.
  destruct (Z.eq_dec (P + 1) 18446744073709551616) as [X|X].
  - rewrite X, Z.mod_same in E by lia. lia.
  - rewrite Z.mod_small in E by lia. lia.
Qed.

(** If every active recorder has seen the current phase when [refresh] is called, and nothing disturbs it
    (see [smooth]: other recorders may become idle, wake up and be cloned, at the right moments), then on
    return every call made before by a recorder that stayed active is in the merged histogram, the channel
    is empty, and again every active recorder has seen the current phase. *)
Lemma C43_barrier_proof : forall h0 tr1 st1 t tr2 st2, run h0 tr1 st1 -> merged_untouched tr1 -> guards_dropped tr1 ->
  synced st1 ->
  exec st1 (RStart t :: tr2) = Some st2 -> Forall in_call tr2 -> along smooth st1 (RStart t :: tr2) ->
  s_reader st2 = RReady ->
  synced st2 /\ s_chan st2 = [] /\
  (forall c r, In c (s_history st1) -> nth_error (s_recs st1) (c_rec c) = Some r -> recording r ->
     ~ In (LIdle (c_rec c)) tr2 -> In c (b_log (s_merged st2))).
Proof.
  intros h0 tr1 st1 t tr2 st2 (R & F & E1) U G SY E IC SM RR.
  pose proof E as E0. cbn [exec] in E. destruct (step st1 (RStart t)) as [s1|] eqn:S1; [|discriminate].
  cbn [along] in SM. rewrite S1 in SM. destruct SM as [_ SM].
  assert (S1' : s1 = put_reader st1 (RDrain t)). { cbn in S1. destruct (s_reader st1); congruence. }
  pose proof (lock_exec h0 tr1 st1 E1) as LK. pose proof (count_exec h0 tr1 st1 (dropped_not_forget _ G) E1) as CK.
  set (P := s_phase st1). set (N := length (s_history st1)).
  assert (BAR : forall a (on : Prop), (on -> exists r, nth_error (s_recs st1) a = Some r /\ recording r) -> (on -> ~ In (LIdle a) tr2) ->
            bar P ((P + 1) mod (usize_max + 1)) st2 /\ tracked P N a on st2).
  { intros a on H1 H2. destruct (bar_exec P ((P + 1) mod (usize_max + 1)) N a on (next_phase_ne P) tr2 s1 st2) as [X|X]; auto.
    - rewrite S1'. unfold bar, barF. cbn. split; [reflexivity|]. apply Forall_forall. exact SY.
    - rewrite S1'. split; [|cbn; unfold N; lia]. intros O. destruct (H1 O) as (r & A & B). exists r. cbn. auto.
    - rewrite S1'. discriminate.
    - rewrite S1'. exact LK.
    - rewrite S1'. exact CK.
    - congruence. }
  split; [|split].
  - destruct (BAR 0%nat False) as [B _]; [intros []..|]. unfold bar, barF in B. rewrite RR in B. destruct B as (PH & B & _).
    intros r I. rewrite PH. rewrite Forall_forall in B. auto.
  - destruct (BAR 0%nat False) as [B _]; [intros []..|]. unfold bar, barF in B. rewrite RR in B. tauto.
  - intros c r I J RC NI. destruct (BAR (c_rec c) True) as [B [T _]]; [eauto|auto|].
    unfold bar, barF in B. rewrite RR in B. destruct B as (PH & B & CH). destruct (T Logic.I) as (r2 & J2 & RC2 & T3). rewrite RR in T3.
    assert (LT : late N r2).
    { destruct T3 as [T3|T3]; auto. exfalso. pose proof (nth_Forall _ _ _ _ B J2) as S2. pose proof (next_phase_ne P).
      unfold seen, recording, behind in *. destruct (r_pc r2); try contradiction; destruct (Z.eqb_spec (r_phase r2) P); cbn in T3; try discriminate; intuition congruence. }
    assert (ID : (c_id c < N)%nat).
    { destruct (history_exec h0 tr1 st1 E1) as [H _]. pose proof (in_map c_id _ _ I) as X. rewrite H in X. apply in_seq in X. unfold N. lia. }
    assert (EX2 : exec (init h0) (tr1 ++ RStart t :: tr2) = Some st2) by (rewrite exec_app, E1; exact E0).
    assert (PL : Permutation (everything st2) (s_history st2)).
    { apply (placed_exec h0 (tr1 ++ RStart t :: tr2)); auto; [|split; rewrite RR; discriminate].
      apply Forall_app. split; [apply untouched_not_set; auto|]. constructor; [exact Logic.I|].
      eapply Forall_impl; [|exact IC]. intros []; cbn; auto. }
    assert (IH : In c (s_history st2)).
    { clear - I E S1'. assert (I1 : In c (s_history s1)) by (rewrite S1'; exact I). clear I S1' st1.
      revert s1 I1 E. induction tr2 as [|l tr IH]; intros s1 I1 E; cbn in E; [congruence|].
      destruct (step s1 l) as [s2|] eqn:S2; [|discriminate]. apply (IH s2); auto.
      destruct (history_step _ _ _ S2) as [(-> & _)|(i & o & ok & _ & ->)]; auto. apply in_or_app. auto. }
    apply (Permutation_in c (Permutation_sym PL)) in IH. unfold everything in IH. apply in_app_iff in IH.
    destruct IH as [IH|IH]; auto. exfalso. rewrite CH in IH. cbn [logs flat_map app] in IH.
    unfold locals in IH. apply in_flat_map in IH. destruct IH as (r3 & I3 & C3). apply In_nth_error in I3. destruct I3 as (j & J3).
    pose proof (own_exec h0 _ st2 EX2 j r3 c J3 C3) as OW. subst j. rewrite J2 in J3. injection J3 as <-. specialize (LT c C3). lia.
Qed.
(*EX
(** the hypotheses of [C43_barrier] *)
Example ex_C43_hypotheses : match build U64 1 1000 2 false [] with
  | Some h =>
      let tr1 := [RRecorder; RRecorder; RRecorder; LIdle 2; LIdleLoad 2; LIdleEnd 2;
                  LWrite 0 (ORecord 7 1); LLoad 0; LFinish 0; LWrite 1 (ORecord 9 4); LLoad 1; LFinish 1] in
      let tr2 := [LWake 2; LWakeEnd 2; LClone 0; REmpty; RRead; LWrite 0 (ORecord 1 1); LLoad 0; RShift;
                  LFinish 0; LWrite 0 (ORecord 1 1); LLoad 0; LFinish 0; RRecv; LWrite 2 (ORecord 2 1); LLoad 2; LFinish 2; RRecv;
                  LIdle 1; LIdleLoad 1; LIdleEnd 1; LWrite 3 (ORecord 3 1); LLoad 3; LFinish 3; RRecv; RRecv; RDone; REmpty] in
      match exec (init h) tr1 with
      | Some st1 => run h tr1 st1 /\ merged_untouched tr1 /\ guards_dropped tr1 /\ synced st1 /\
          Forall in_call tr2 /\ along smooth st1 (RStart false :: tr2) /\
          match exec st1 (RStart false :: tr2) with
          | Some st2 => s_reader st2 = RReady /\ map (fun r => r_pc r) (s_recs st1) = [PReady; PReady; PIdle] /\ ~ In (LIdle 0) tr2
          | None => False end
      | None => False end
  | None => False end.
Proof. sync_case. Qed.
EX*)
(*EX
(** Recorders 0 and 1 are active, recorder 2 is idle.  During the refresh recorder 2 wakes up, recorder 0
    is cloned, and recorder 1 becomes idle. *)
Example ex_C43 : match build U64 1 1000 2 false [] with
  | Some h =>
      let tr1 := [RRecorder; RRecorder; RRecorder; LIdle 2; LIdleLoad 2; LIdleEnd 2;
                  LWrite 0 (ORecord 7 1); LLoad 0; LFinish 0; LWrite 1 (ORecord 9 4); LLoad 1; LFinish 1] in
      let tr2 := [LWake 2; LWakeEnd 2; LClone 0; REmpty; RRead; LWrite 0 (ORecord 1 1); LLoad 0; RShift;
                  LFinish 0; LWrite 0 (ORecord 1 1); LLoad 0; LFinish 0; RRecv; LWrite 2 (ORecord 2 1); LLoad 2; LFinish 2; RRecv;
                  LIdle 1; LIdleLoad 1; LIdleEnd 1; LWrite 3 (ORecord 3 1); LLoad 3; LFinish 3; RRecv; RRecv; RDone; REmpty] in
      match exec (init h) tr1 with
      | Some st1 =>
          match exec st1 (RStart false :: tr2) with
          | Some st2 => map r_phase (s_recs st1) = [0; 0; 0] /\ s_reader st2 = RReady /\ map r_pc (s_recs st2) = [PReady; PIdle; PReady; PReady] /\
              map r_phase (s_recs st2) = [1; 1; 1; 1] /\ held (b_hist (s_merged st2)) = [(1, 2); (2, 1); (3, 1); (7, 1); (9, 4)]
          | None => False end
      | None => False end
  | None => False end.
Proof. vm_compute. auto 10. Qed.
EX*)

(** Between two calls of [refresh] the condition "every active recorder has seen the current phase" is kept
    by every step, except leaking a guard and cloning an idle recorder; and it holds at the start, when
    there are no recorders. *)
Lemma C43_synced_kept_proof : forall h0,
  synced (init h0) /\
  (forall st l st', synced st -> s_reader st = RReady -> s_reader st' = RReady -> step st l = Some st' ->
     (forall i, l <> LForget i) ->
     (forall i r, l = LClone i -> nth_error (s_recs st) i = Some r -> r_pc r <> PIdle) ->
     synced st').
Proof.
  intros h0. split; [intros r []|]. intros st l st' SY RD RD' E NF NC.
  assert (SYN : forall i r, nth_error (s_recs st) i = Some r -> seen (s_phase st) r) by (intros i r J; apply SY; eapply nth_error_In; eauto).
  assert (PUT : forall i r k c, seen (s_phase st) r -> synced (put_rec (put_lock st k c) i r)).
  { intros i r k c S x I. cbn in I. apply put_In in I. cbn. destruct I as [->|I]; auto. }
  assert (PUS : forall i r k c b, seen (s_phase st) r -> synced (put_rec (send (put_lock st k c) b) i r)).
  { intros i r k c b S x I. cbn in I. destruct (send_fields (put_lock st k c) b) as (_ & _ & _ & SP & SR & _). rewrite SR in I.
    apply put_In in I. cbn. rewrite SP. cbn. destruct I as [->|I]; auto. }
  assert (PSH : forall h k c s2, push_rec (put_lock st k c) h (s_phase st) = Some s2 -> synced s2).
  { intros h k c s2 X. apply push_inv in X. destruct X as (n & _ & ->). intros x I. cbn in I. apply in_app_iff in I.
    destruct I as [I|[<-|[]]]; [apply SY; auto|]. reflexivity. }
  assert (SS : put_lock st (s_lock st) (s_count st) = st) by (destruct st; reflexivity).
  destruct l; step_cases E; try exact SY; try congruence; try (rewrite <- SS);
    try (match goal with K : nth_error _ _ = Some _ |- _ => pose proof (SYN _ _ K) as S0; unfold seen in S0; cbn in S0 end);
    try (apply PUT; unfold seen; cbn; intuition congruence);
    try (apply PUS; unfold seen; cbn; intuition congruence).
  - subst. apply (PSH _ _ _ _ E).
  - exfalso. eapply NC; eauto.
  - exfalso. eapply NF; eauto.
  - eapply PSH; eauto.
Qed.
(*EX
Example ex_C43_synced_kept : match build U64 1 1000 2 false [] with
  | Some h =>
      let tr := [RRecorder; RRecorder; LIdle 0; LIdleLoad 0; LIdleEnd 0] in
      match exec (init h) tr with
      | Some st => run h tr st /\ synced st /\ s_reader st = RReady /\ map r_pc (s_recs st) = [PIdle; PReady] /\
          match step st (LClone 1) with Some st' => s_reader st' = RReady /\ synced st' | None => False end
      | None => False end
  | None => False end.
Proof. sync_case. Qed.
EX*)

(** Without these conditions it is not.  Recorder 0 records a value and stays active.  During the next
    [refresh] recorder 1 is dropped after the reader has emptied the channel and before it reads the number
    of recorders: the histogram recorder 1 sends is counted as that of recorder 0, and [refresh] returns
    without the value. *)
Lemma C43_missed_sample_refuted_proof : exists h0 tr1 st1 tr2 st2 c, run h0 tr1 st1 /\ merged_untouched tr1 /\ guards_dropped tr1 /\
  synced st1 /\
  exec st1 (RStart false :: tr2) = Some st2 /\ Forall in_call tr2 /\ s_reader st2 = RReady /\
  In c (s_history st1) /\ (exists r, nth_error (s_recs st1) (c_rec c) = Some r /\ recording r) /\
  ~ In (LIdle (c_rec c)) tr2 /\ ~ In (LDrop (c_rec c)) tr2 /\
  ~ In c (b_log (s_merged st2)).
Proof.
  set (tr1 := [RRecorder; RRecorder; LWrite 0 (ORecord 7 1); LLoad 0; LFinish 0]).
  set (tr2 := [REmpty; LDrop 1; LDropEnd 1; RRead; RShift; RRecv; RDone; REmpty]).
  set (c := Call 0 0 (ORecord 7 1) true).
  assert (X : match build U64 1 1000 2 false [] with
              | Some h => match exec (init h) tr1 with
                          | Some st1 => match exec st1 (RStart false :: tr2) with
                              | Some st2 => h_ctr h = U64 /\ map r_pc (s_recs st1) = [PReady; PReady] /\
                                            map r_phase (s_recs st1) = [0; 0] /\ s_phase st1 = 0 /\
                                            s_reader st2 = RReady /\ s_history st1 = [c] /\ b_log (s_merged st2) = []
                              | None => False end
                          | None => False end
              | None => False end) by (vm_compute; auto 10).
  destruct (build _ _ _ _ _ _) as [h|] eqn:B; [|contradiction]. destruct (exec _ tr1) as [st1|] eqn:E1; [|contradiction].
  destruct (exec st1 _) as [st2|] eqn:E2; [|contradiction]. destruct X as (CT & X1 & X2 & X3 & X4 & X5 & X6).
  exists h, tr1, st1, tr2, st2, c.
  destruct (s_recs st1) as [|r0 [|r1 [|]]] eqn:RS; try discriminate. cbn in X1, X2. injection X1 as P0 P1. injection X2 as Q0 Q1.
  split; [split; [exact (build_reachable _ _ _ _ _ _ _ B)|split; [|exact E1]]|].
  { rewrite CT. unfold tr1. repeat constructor; cbn; unfold u64_max; lia. }
  split; [intros x; unfold tr1; cbn; intuition discriminate|]. split; [intros x; unfold tr1; cbn; intuition discriminate|].
  split.
  { intros r I. rewrite RS in I. unfold seen. rewrite X3. destruct I as [<-|[<-|[]]]; [rewrite P0|rewrite P1]; auto. }
  split; [exact E2|]. split; [unfold tr2; repeat constructor|]. split; auto. split; [rewrite X5; cbn; auto|].
  split; [exists r0; split; [reflexivity|unfold recording; rewrite P0; exact I]|].
  split; [unfold tr2; cbn; intuition discriminate|]. split; [unfold tr2; cbn; intuition discriminate|]. rewrite X6. auto.
Qed.

(** ** C44.  What [refresh] waits for *)
(** A reader that waits can go on, or some recorder has still to send its histogram for the current phase:
    one that is active and has not looked at the phase since it moved, or one in the middle of becoming
    idle or being dropped.  This needs that no recorder on its way to idle loads the phase between the
    reader's reading of the number of recorders and its moving of the phase (and fewer than 2^64
    refreshes). *)
Lemma C44_waits_for_someone_proof : forall h0 tr st t n k, run h0 tr st -> guards_dropped tr ->
  along idles_outside (init h0) tr -> shifts tr <= usize_max -> s_reader st = RWait t n k ->
  (exists l st', (l = RRecv \/ l = RDone) /\ step st l = Some st') \/
  (exists i r, nth_error (s_recs st) i = Some r /\ owes (s_phase st) r = true).
Proof.
  intros h0 tr st t n k (R & F & E) G A S RD.
  pose proof (waits_exec h0 tr st E A (dropped_not_forget _ G) S) as W. unfold waits, waitF in W. rewrite RD in W.
  destruct (Z.ltb_spec k n) as [KN|KN].
  - destruct (s_chan st) as [|b q] eqn:CH.
    + right. change (zlen (@nil box)) with 0 in W.
      assert (X : 0 < sumr (fun r => bz (owes (s_phase st) r)) (s_recs st)) by lia.
      clear - X. induction (s_recs st) as [|x l IH]; [discriminate X|]. destruct (owes (s_phase st) x) eqn:O.
      * exists 0%nat, x. auto.
      * unfold sumr in *. cbn [map fold_right] in X. rewrite O in X. cbn [bz] in X. destruct (IH ltac:(lia)) as (i & r & I1 & I2). exists (Datatypes.S i), r. auto.
    + left. exists RRecv. cbn. rewrite RD. replace (k <? n) with true by (symmetry; apply Z.ltb_lt; lia). unfold receive. rewrite CH.
      destruct (merge _ _); eexists; split; auto; reflexivity.
  - left. exists RDone. cbn. rewrite RD. replace (k <? n) with false by (symmetry; apply Z.ltb_ge; lia). eexists. split; auto.
Qed.
(*EX
Example ex_C44_waits : match build U64 1 1000 2 false [] with
  | Some h =>
      let tr := [RRecorder; RRecorder; RRecorder; RStart false; REmpty; RRead; RShift; LWrite 0 (ORecord 7 1); LLoad 0; LFinish 0; RRecv;
                 LIdle 2; LIdleLoad 2; LIdleEnd 2] in
      match exec (init h) tr with
      | Some st => run h tr st /\ guards_dropped tr /\ along idles_outside (init h) tr /\ shifts tr <= usize_max /\ s_reader st = RWait false 3 1 /\
          match step st RRecv with Some _ => True | None => False end /\ map (owes (s_phase st)) (s_recs st) = [false; true; false]
      | None => False end
  | None => False end.
Proof. sync_case. Qed.
EX*)

(** *)
Definition calm (st : state) : Prop := match s_reader st with RWait _ _ _ | RDrain2 | RPanicked | RGone | RReady => True | _ => False end.
Lemma calm_step st l st' : in_call l -> calm st -> step st l = Some st' -> s_phase st' = s_phase st /\ calm st'.
Proof.
  intros IC RD E. unfold calm in *.
  destruct l; cbn [in_call] in IC; try contradiction; step_cases E; cbn; rewrite ?send_reader; try (split; [reflexivity|exact RD]);
    try (split; [apply send_fields|exact RD]); try (apply push_inv in E; destruct E as (n & _ & ->); split; [reflexivity|exact RD]);
    try (split; [reflexivity|exact I]); try (rewrite ?K in RD; contradiction).
  3-4: apply receive_inv in E; destruct E as (b & q & Q & [(m & M & ->)|(M & ->)]); split; auto; try exact I.
  all: split; [rewrite (proj1 (proj2 (proj2 (proj2 (send_fields _ _))))); reflexivity|exact RD].
Qed.
Definition loaded_now (i : nat) (st : state) : Prop :=
  forall r q, nth_error (s_recs st) i = Some r -> r_pc r = PLoaded q -> q = s_phase st.
Lemma loaded_step i st l st' : loaded_now i st -> s_phase st' = s_phase st -> step st l = Some st' -> loaded_now i st'.
Proof.
  intros L P E.
  assert (PUT : forall (s : state) j r, s_recs s = s_recs st -> s_phase s = s_phase st -> (forall q, r_pc r = PLoaded q -> q = s_phase st) -> loaded_now i (put_rec s j r)).
  { intros s j r X X2 H r' q J Q. cbn in J. rewrite X in J. apply put_cases in J. cbn. rewrite X2. destruct J as [(-> & ->)|(_ & J)]; auto. apply (L r' q J Q). }
  assert (EQ : forall s, s_recs s = s_recs st -> s_phase s = s_phase st -> loaded_now i s) by (intros s X Y r q; rewrite X, Y; apply L).
  assert (SR : forall s b, s_recs (send s b) = s_recs s) by (intros; apply send_fields).
  assert (SP : forall s b, s_phase (send s b) = s_phase s) by (intros; apply send_fields).
  destruct l; step_cases E; try exact L; try (apply EQ; cbn; auto; fail);
    try (destruct (receive_fields _ _ _ E) as (X & _ & _ & Y); apply EQ; auto; fail);
    try (apply PUT; rewrite ?SR, ?SP; [reflexivity|reflexivity|intros q X; try discriminate X; injection X as <-; reflexivity]);
    try (apply push_inv in E; destruct E as (n & _ & ->); intros r' q J Q; cbn in J; apply app_cases in J; cbn in *; destruct J as [(-> & ->)|J]; [discriminate|apply (L r' q J Q)]).
Qed.
(** A recorder that completes a call while the reader waits has paid: whatever happens in between, once
    the phase has been loaded and the call is finished, it has nothing to send any more. *)
Lemma C44_recording_pays_proof : forall st i tr2 st2 t n k, s_reader st = RWait t n k -> Forall in_call tr2 ->
  exec st (LLoad i :: tr2 ++ [LFinish i]) = Some st2 ->
  exists r, nth_error (s_recs st2) i = Some r /\ owes (s_phase st2) r = false.
Proof.
  intros st i tr2 st2 t n k RD IC E. cbn [exec] in E. destruct (step st (LLoad i)) as [s1|] eqn:S1; [|discriminate].
  rewrite exec_app in E. destruct (exec s1 tr2) as [s2|] eqn:E1; [|discriminate]. cbn [exec] in E.
  destruct (step s2 (LFinish i)) as [s3|] eqn:S2; [|discriminate]. injection E as <-.
  assert (L1 : calm s1 /\ loaded_now i s1).
  { cbn in S1. destruct (nth_error (s_recs st) i) as [[b p []]|] eqn:N; try discriminate. injection S1 as <-. split; [unfold calm; cbn; rewrite RD; exact I|].
    intros r q J Q. cbn in *. rewrite put_same in J by (eapply nth_lt; eauto). injection J as <-. cbn in Q. congruence. }
  assert (L2 : calm s2 /\ loaded_now i s2).
  { apply (exec_ind (fun s => calm s /\ loaded_now i s) in_call s1 tr2 s2); auto. intros s l s' [C L] IL X.
    destruct (calm_step _ _ _ IL C X) as [P C']. split; auto. eapply loaded_step; eauto. }
  destruct L2 as [_ L2]. cbn in S2. destruct (nth_error (s_recs s2) i) as [[b p [| |q| | | | | |]]|] eqn:N; try discriminate.
  specialize (L2 _ q N eq_refl). destruct (Z.eqb_spec q p) as [EQ|NE].
  - injection S2 as <-. exists (Rec b p PReady). cbn. rewrite put_same by (eapply nth_lt; eauto). split; auto.
    unfold owes. cbn. apply negb_false_iff, Z.eqb_eq. congruence.
  - destruct (shed b) as [[f e]|]; [|discriminate]. injection S2 as <-. exists (Rec e q PReady). cbn.
    destruct (send_fields s2 f) as (_ & _ & _ & SP & SR & _). rewrite SR, SP. rewrite put_same by (eapply nth_lt; eauto). split; auto.
    unfold owes. cbn. apply negb_false_iff, Z.eqb_eq. congruence.
Qed.
(*EX
Example ex_C44_pays : match build U64 1 1000 2 false [] with
  | Some h =>
      let tr := [RRecorder; RRecorder; RRecorder; RStart false; REmpty; RRead; RShift; LWrite 0 (ORecord 7 1); LLoad 0; LFinish 0; RRecv;
                 LIdle 2; LIdleLoad 2; LIdleEnd 2] ++ [LWrite 1 (ORecord 9 4)] in
      match exec (init h) tr with
      | Some st => s_reader st = RWait false 3 1 /\ Forall in_call [LWake 2; LWakeEnd 2] /\ map (owes (s_phase st)) (s_recs st) = [false; true; false] /\
          match exec st (LLoad 1 :: [LWake 2; LWakeEnd 2] ++ [LFinish 1]) with
          | Some st2 => map (owes (s_phase st2)) (s_recs st2) = [false; false; false]
          | None => False end
      | None => False end
  | None => False end.
Proof. sync_case. Qed.
EX*)

(** *)
Ltac osimp := unfold owes, le_phase; cbn [r_pc r_phase].
(** *)
Lemma paid_stays_step st t n k l st' i r : phases st -> s_reader st = RWait t n k ->
  in_call l -> step st l = Some st' -> l <> LForget i -> l <> LDrop i ->
  nth_error (s_recs st) i = Some r -> owes (s_phase st) r = false ->
  exists r', nth_error (s_recs st') i = Some r' /\ owes (s_phase st') r' = false.
Proof.
  intros PS RD IC E NF ND J O. pose proof (nth_Forall _ _ _ _ PS J) as LP.
  assert (CM : calm st) by (unfold calm; rewrite RD; exact I).
  destruct (calm_step _ _ _ IC CM E) as [PH _]. rewrite PH.
  assert (SR : forall s b, s_recs (send s b) = s_recs s) by (intros; apply send_fields).
  assert (PUT : forall j x r', nth_error (s_recs st) j = Some x ->
     (j = i -> owes (s_phase st) x = false -> le_phase (s_phase st) x -> owes (s_phase st) r' = false) ->
     exists y, nth_error (put (s_recs st) j r') i = Some y /\ owes (s_phase st) y = false).
  { intros j x r' JJ H. destruct (Nat.eq_dec j i) as [->|NE].
    - exists r'. rewrite put_same by (eapply nth_lt; eauto). assert (x = r) by congruence. subst x. auto.
    - exists r. rewrite put_other by auto. auto. }
  clear PH. destruct l; cbn [in_call] in IC; try contradiction; step_cases E; try (exists r; split; [exact J|exact O]);
    try (destruct (receive_fields _ _ _ E) as (X & _); exists r; rewrite X; auto; fail);
    try (apply push_inv in E; destruct E as (m & _ & ->); exists r; cbn; rewrite nth_error_app1 by (eapply nth_lt; eauto); auto; fail);
    cbn [put_rec s_recs]; rewrite ?SR; cbn [put_lock s_recs];
    match goal with K : nth_error (s_recs st) ?j = Some ?x |- _ => apply (PUT j x _ K) end;
    osimp; intros EI OX [LX LY]; try congruence; auto;
    repeat match goal with
    | H : (_ =? _) = true |- _ => apply Z.eqb_eq in H
    | H : (_ =? _) = false |- _ => apply Z.eqb_neq in H
    | H : negb _ = false |- _ => apply negb_false_iff in H
    | |- negb _ = false => apply negb_false_iff
    | |- (_ =? _) = true => apply Z.eqb_eq
    end; lia.
Qed.
(** And it stays paid until the end of this [refresh], unless it is dropped (which sends its histogram
    again). *)
Lemma C44_paid_stays_proof : forall h0 tr st t n k l st' i r, run h0 tr st -> shifts tr <= usize_max -> s_reader st = RWait t n k ->
  in_call l -> step st l = Some st' -> l <> LForget i -> l <> LDrop i ->
  nth_error (s_recs st) i = Some r -> owes (s_phase st) r = false ->
  exists r', nth_error (s_recs st') i = Some r' /\ owes (s_phase st') r' = false.
Proof.
  intros h0 tr st t n k l st' i r (R & F & E0) S RD IC E NF ND J O.
  destruct (phases_exec h0 tr st E0 S) as [PS _]. eapply paid_stays_step; eauto.
Qed.
(*EX
Example ex_C44_paid_stays : match build U64 1 1000 2 false [] with
  | Some h =>
      let tr := [RRecorder; RRecorder; RRecorder; RStart false; REmpty; RRead; RShift; LWrite 0 (ORecord 7 1); LLoad 0; LFinish 0; RRecv;
                 LIdle 2; LIdleLoad 2; LIdleEnd 2] in
      match exec (init h) tr with
      | Some st => run h tr st /\ shifts tr <= usize_max /\ s_reader st = RWait false 3 1 /\ Forall in_call [LWrite 0 (ORecord 1 1)] /\
          map (owes (s_phase st)) (s_recs st) = [false; true; false] /\
          match step st (LWrite 0 (ORecord 1 1)) with Some st' => map (owes (s_phase st')) (s_recs st') = [false; true; false] | None => False end
      | None => False end
  | None => False end.
Proof. sync_case. Qed.
EX*)

(** *)
Lemma paid_core st t n k tr2 st2 : s_reader st = RWait t n k -> n <= k + zlen (s_chan st) -> Forall refresh_step tr2 -> exec st tr2 = Some st2 ->
  Z.of_nat (length tr2) <= Z.of_nat (length (s_chan st)) + 2 /\
  (s_reader st2 <> RPanicked -> s_reader st2 <> RReady -> exists l st3, refresh_step l /\ step st2 l = Some st3).
Proof.
  intros RD W F E.
  set (rk := fun s => match s_reader s with RWait _ _ _ => 2 + zlen (s_chan s) | RDrain2 => 1 + zlen (s_chan s) | _ => 0 end).
  set (inv := fun s => match s_reader s with RWait _ n k => n <= k + zlen (s_chan s) | RDrain2 | RReady | RPanicked => True | _ => False end).
  assert (ST : forall s l s', inv s -> refresh_step l -> step s l = Some s' -> inv s' /\ rk s' < rk s).
  { intros s l s' IV RL X. unfold inv, rk in *. pose proof (zlen_nonneg (s_chan s)) as ZN.
    destruct l; cbn [refresh_step] in RL; try contradiction; step_cases X; try (rewrite ?K in *; contradiction); cbn [put_reader s_reader s_chan]; rewrite ?K in *.
    - apply receive_inv in X. destruct X as (b & q & Q & [(m & M & ->)|(M & ->)]); cbn [put_reader put_merged put_chan s_reader s_chan]; rewrite Q, zlen_cons in *; [split; lia|split; [exact I|lia]].
    - apply receive_inv in X. destruct X as (b & q & Q & [(m & M & ->)|(M & ->)]); cbn [put_reader put_merged put_chan s_reader s_chan]; rewrite Q, zlen_cons in *; [split; [exact I|lia]|split; [exact I|lia]].
    - split; [exact I|lia].
    - split; [exact I|lia].
    - split; [exact I|lia]. }
  assert (EXI : forall tr s s', inv s -> Forall refresh_step tr -> exec s tr = Some s' -> inv s' /\ zlen tr + rk s' <= rk s).
  { induction tr as [|l tr IH]; intros s s' IV FF X; cbn in X.
    - injection X as <-. split; auto. change (zlen (@nil label)) with 0. lia.
    - inversion FF; subst. destruct (step s l) as [s1|] eqn:S1; [|discriminate]. destruct (ST _ _ _ IV H1 S1) as [I1 L1].
      destruct (IH _ _ I1 H2 X) as [I2 L2]. split; auto. rewrite zlen_cons. lia. }
  destruct (EXI tr2 st st2) as [I2 L2]; auto.
  { unfold inv. rewrite RD. lia. }
  assert (RK0 : 0 <= rk st2) by (unfold rk; pose proof (zlen_nonneg (s_chan st2)); destruct (s_reader st2); lia).
  assert (RK : rk st = 2 + zlen (s_chan st)) by (unfold rk; rewrite RD; reflexivity). unfold zlen in *. split; [lia|].
  intros NP NR.
  unfold inv in I2. destruct (s_reader st2) eqn:R2; try contradiction; try congruence.
  - destruct (Z.ltb_spec phased n0).
    + destruct (s_chan st2) as [|b q] eqn:C2; [cbn in I2; lia|]. exists RRecv. cbn [step]. rewrite R2.
      replace (phased <? n0) with true by (symmetry; apply Z.ltb_lt; lia). unfold receive. rewrite C2.
      destruct (merge _ _); eexists; split; try exact I; reflexivity.
    + exists RDone. cbn [step]. rewrite R2. replace (phased <? n0) with false by (symmetry; apply Z.ltb_ge; lia). eexists; split; [exact I|reflexivity].
  - destruct (s_chan st2) as [|b q] eqn:C2.
    + exists REmpty. cbn [step]. rewrite R2, C2. eexists; split; [exact I|reflexivity].
    + exists RRecv. cbn [step]. rewrite R2. unfold receive. rewrite C2. destruct (merge _ _); eexists; split; try exact I; reflexivity.
Qed.
(** Once no recorder owes anything, [refresh] returns on its own, whatever the recorders do or do not do:
    at most two steps more than there are histograms in the channel, never stuck, no panic. *)
Lemma C44_returns_when_paid_proof : forall h0 tr st t n k tr2 st2, run h0 tr st -> merged_untouched tr -> guards_dropped tr -> merge_safe h0 ->
  along idles_outside (init h0) tr -> shifts tr <= usize_max -> s_reader st = RWait t n k ->
  (forall r, In r (s_recs st) -> owes (s_phase st) r = false) ->
  exec st tr2 = Some st2 -> Forall refresh_step tr2 ->
  Z.of_nat (length tr2) <= Z.of_nat (length (s_chan st)) + 2 /\
  (s_reader st2 <> RReady -> exists l st3, refresh_step l /\ step st2 l = Some st3).
Proof.
  intros h0 tr st t n k tr2 st2 RN U G SF A S RD NO E F. pose proof RN as (R & FL & EX).
  pose proof (waits_exec h0 tr st EX A (dropped_not_forget _ G) S) as W. unfold waits, waitF in W. rewrite RD in W.
  assert (Z0 : sumr (fun r => bz (owes (s_phase st) r)) (s_recs st) = 0).
  { clear - NO. induction (s_recs st) as [|x l IH]; auto. unfold sumr in *. cbn [map fold_right]. rewrite IH by (intros; apply NO; cbn; auto).
    rewrite (NO x) by (cbn; auto). reflexivity. }
  rewrite Z0 in W.
  destruct (paid_core st t n k tr2 st2 RD ltac:(lia) F E) as [L2 LIVE]. split; [exact L2|]. intros NR.
  assert (RN2 : run h0 (tr ++ tr2) st2).
  { split; auto. split.
    - apply Forall_app. split; auto. eapply Forall_impl; [|exact F]. intros []; cbn; intros; auto; contradiction.
    - rewrite exec_app, EX. exact E. }
  assert (U2 : merged_untouched (tr ++ tr2)).
  { intros h I'. apply in_app_iff in I'. destruct I' as [I'|I']; [apply (U h I')|]. rewrite Forall_forall in F. apply (F _ I'). }
  pose proof (C56_refresh_never_panics_proof h0 _ st2 RN2 U2 SF) as NP.
  apply LIVE; auto.
Qed.
(*EX
(** the hypotheses of the theorems on waiting *)
Example ex_C44_hypotheses : match build U64 1 1000 2 false [] with
  | Some h =>
      let tr := [RRecorder; RRecorder; RRecorder; RStart false; REmpty; RRead; RShift; LWrite 0 (ORecord 7 1); LLoad 0; LFinish 0; RRecv;
                 LIdle 2; LIdleLoad 2; LIdleEnd 2] in
      let tr2 := [LWrite 1 (ORecord 9 4); LLoad 1; LFinish 1] in
      match exec (init h) tr with
      | Some st => run h tr st /\ merged_untouched tr /\ guards_dropped tr /\ merge_safe h /\ along idles_outside (init h) tr /\
          s_reader st = RWait false 3 1 /\ map (owes (s_phase st)) (s_recs st) = [false; true; false] /\
          match exec st tr2 with
          | Some st2 => run h (tr ++ tr2) st2 /\ along idles_outside (init h) (tr ++ tr2) /\
              (forall r, In r (s_recs st2) -> owes (s_phase st2) r = false) /\
              Forall refresh_step [RRecv; RRecv; RDone; REmpty] /\
              match exec st2 [RRecv; RRecv; RDone; REmpty] with Some st3 => s_reader st3 = RReady | None => False end
          | None => False end
      | None => False end
  | None => False end.
Proof. sync_case. Qed.
EX*)
(*EX
(** The reader waits for two recorders.  One has recorded since, the other owes; when it has recorded too,
    the reader can return. *)
Example ex_C44 : match build U64 1 1000 2 false [] with
  | Some h =>
      let tr := [RRecorder; RRecorder; RStart false; REmpty; RRead; RShift; LWrite 0 (ORecord 7 1); LLoad 0; LFinish 0; RRecv] in
      match exec (init h) tr with
      | Some st => s_reader st = RWait false 2 1 /\ map (owes (s_phase st)) (s_recs st) = [false; true] /\ s_chan st = [] /\
          match exec st [LWrite 1 (ORecord 9 4); LLoad 1; LFinish 1] with
          | Some st2 => map (owes (s_phase st2)) (s_recs st2) = [false; false] /\
              match exec st2 [RRecv; RDone; REmpty] with Some st3 => s_reader st3 = RReady | None => False end
          | None => False end
      | None => False end
  | None => False end.
Proof. vm_compute. auto 10. Qed.
EX*)

(** *)
Definition blocked (s : state) : Prop :=
  s_reader s = RWait false 1 0 /\ s_chan s = [] /\ Forall (fun r => seen (s_phase s) r /\ r_pc r <> PDropping) (s_recs s).
Lemma blocked_step s l s' : blocked s -> (match l with LDrop _ | LClone _ | LForget _ => False | _ => True end) -> step s l = Some s' -> blocked s'.
Proof.
  intros (I1 & I2 & I3) OK E.
    assert (PUT : forall i r k c, seen (s_phase s) r -> r_pc r <> PDropping -> blocked (put_rec (put_lock s k c) i r)).
    { intros i r k c S1 S2. split; [exact I1|]. split; [exact I2|]. cbn. apply put_Forall; auto. }
    assert (SS : put_lock s (s_lock s) (s_count s) = s) by (destruct s; reflexivity).
    destruct l; try contradiction; step_cases E; try (rewrite K in I1; discriminate); try congruence; try (split; auto; fail);
      try (match goal with K : nth_error _ _ = Some _ |- _ => pose proof (nth_Forall _ _ _ _ I3 K) as [S0 D0]; unfold seen in S0; cbn in S0, D0 end);
      try (exfalso; lia); try (exfalso; rewrite I1 in K; injection K as <- <- <-; discriminate);
      try (apply PUT; unfold seen; cbn; [intuition congruence|discriminate]);
      try (rewrite <- SS; apply PUT; unfold seen; cbn; [intuition congruence|discriminate]);
      try (exfalso; intuition congruence).
    - exfalso. unfold receive in E. rewrite I2 in E. discriminate.
    - exfalso. injection I1 as -> -> ->. discriminate.
Qed.
(** Without the condition on idling [refresh] can wait for ever.  One recorder, which becomes idle just
    after the reader has counted it and just before the phase moves: nothing that happens afterwards makes
    [refresh] return, however often the recorder wakes up and records, unless it is dropped or cloned. *)
Lemma C44_blocked_for_ever_refuted_proof : exists h0 tr st, run h0 tr st /\ guards_dropped tr /\ map r_pc (s_recs st) = [PIdle] /\
  s_reader st = RWait false 1 0 /\
  (forall tr2 st2, exec st tr2 = Some st2 ->
     Forall (fun l => match l with LDrop _ | LClone _ | LForget _ => False | _ => True end) tr2 ->
     s_reader st2 = RWait false 1 0) /\
  (exists tr3 st3, exec st tr3 = Some st3 /\ length (writes tr3) = 3%nat).
Proof.
  set (tr := [RRecorder; RStart false; REmpty; RRead; LIdle 0; LIdleLoad 0; LIdleEnd 0; RShift]).
  set (w := [LWrite 0 (ORecord 7 1); LLoad 0; LFinish 0]).
  set (tr3 := [LWake 0; LWakeEnd 0] ++ w ++ w ++ w).
  assert (X : match build U64 1 1000 2 false [] with
              | Some h => match exec (init h) tr with
                          | Some st => map r_pc (s_recs st) = [PIdle] /\ s_reader st = RWait false 1 0 /\ s_chan st = [] /\
                                       match exec st tr3 with Some _ => True | None => False end
                          | None => False end
              | None => False end) by (vm_compute; auto 10).
  destruct (build _ _ _ _ _ _) as [h|] eqn:B; [|contradiction]. destruct (exec _ tr) as [st|] eqn:E1; [|contradiction].
  destruct X as (X1 & X2 & X3 & X4). exists h, tr, st. split; [split; [exact (build_reachable _ _ _ _ _ _ _ B)|split; [|exact E1]]|].
  { unfold tr. repeat constructor. }
  split; [intros x; unfold tr; cbn; intuition discriminate|]. split; auto. split; auto. split.
  2:{ destruct (exec st tr3) as [st3|] eqn:E3; [|contradiction]. exists tr3, st3. split; [exact E3|reflexivity]. }
  assert (I0 : blocked st).
  { split; auto. split; auto. destruct (s_recs st) as [|r [|]]; try discriminate. cbn in X1. constructor; [|constructor].
    injection X1 as X1. unfold seen. rewrite X1. split; [exact I|discriminate]. }
  intros tr2 st2 E F. assert (H : blocked st2) by (apply (exec_ind blocked _ st tr2 st2 blocked_step); auto). destruct H; auto.
Qed.
