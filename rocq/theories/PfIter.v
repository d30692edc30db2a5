(** * Proofs of the properties about iterating (C22 - C24) and post-recording correction (C53) *)
(*PROPS-IMPORTS Machine Log2Model HistModel Spec Reach Witness Cases FloatModel IterModel IterSpec *)
(*PROPS-HEADER
From Coq Require Import Sorted.
PROPS-HEADER*)
From Verif Require Import Machine Log2Model HistModel Spec Reach Bins ListZ Log2Facts Cfg Wf Ops AddFacts SubFacts Exact MoreFacts Witness HeldFacts PfRecord PfMerge PfQuery FloatModel IterModel IterSpec IterFacts IterBins.
From Coq Require Import ZifyBool ZifyNat Sorted.

(** ** Bins and values *)
Lemma topval_lt h i j : wf h -> 0 <= i -> i < j -> j < zlen (h_counts h) -> topval h i < bval h j.
Proof.
  intros W I J L. pose proof (w_cfg h W) as C. pose proof (w_size h W) as SZ.
  pose proof (bval_u64 h i C SZ ltac:(lia)) as V. pose proof (bval_u64 h j C SZ ltac:(lia)) as VJ.
  unfold topval, higheq. pose proof (bval_lt h i j C I J). destruct (Z.eqb_spec (bval h i) u64_max); [unfold u64 in *; lia|].
  unfold nexteq. rewrite <- (val_idx_succ _ _ (um_nonneg h C) (m_nonneg h C) (bval h i)) by apply V.
  replace (idx (h_um h) (h_half_mag h) (bval h i)) with i by (symmetry; apply bin_bval; auto).
  pose proof (bval_le h (i + 1) j C ltac:(lia) ltac:(lia)) as B. unfold bval in *. lia.
Qed.
Lemma topval_ge h i : wf h -> 0 <= i < zlen (h_counts h) -> bval h i <= topval h i /\ u64 (topval h i) /\ u64 (bval h i) /\ bin h (topval h i) = i.
Proof.
  intros W I. pose proof (w_cfg h W) as C. pose proof (w_size h W) as SZ. pose proof (bval_u64 h i C SZ I) as V.
  pose proof (higheq_range h C (bval h i) V). split; [apply H|]. split; [apply higheq_u64; auto|]. split; auto.
  unfold topval, bin. rewrite idx_higheq by auto. apply bin_bval; auto. lia.
Qed.
Lemma weight_below h i : wf h -> 0 <= i < zlen (h_counts h) -> weight_between 0 (bval h i) (contents h) = zpre (h_counts h) (i + 1).
Proof.
  intros W I. pose proof (w_cfg h W) as C. pose proof (w_size h W) as SZ.
  pose proof (zpre_wrange (h_counts h) (bin h) (contents h) (fun k Hk => eq_sym (wsum_contents h k W Hk)) 0 (i + 1) ltac:(lia) ltac:(lia)) as Z.
  rewrite zpre_0 in Z. replace (0 + (i + 1)) with (i + 1) in Z by lia. replace (i + 1 - 1) with i in Z by lia. rewrite Z.sub_0_r in Z. rewrite Z.
  symmetry. apply wrange_between. intros v n IN. destruct (contents_in h v n W IN) as (k & [K0 _] & KL & -> & _).
  rewrite bin_bval by auto. split.
  - pose proof (bval_nonneg h k C K0). lia.
  - split; intros L.
    + destruct (Z_le_dec k i); auto. pose proof (bval_lt h i k C ltac:(lia) ltac:(lia)). lia.
    + apply bval_le; auto.
Qed.
Lemma covers_bval h i : wf h -> 0 <= i < zlen (h_counts h) -> is_u64 (bval h i) /\ covers h (bval h i) /\ lowest_equivalent h (bval h i) = Ret (bval h i) /\
  count_at h (bval h i) = Ret (zn (h_counts h) i).
Proof.
  intros W I. pose proof (w_cfg h W) as C. pose proof (w_size h W) as SZ. pose proof (bval_u64 h i C SZ I) as V.
  assert (B : bin h (bval h i) = i) by (apply bin_bval; auto; lia).
  split; auto. split; [apply covers_bin; auto; lia|]. rewrite lowest_equivalent_ok, count_at_ok by auto. rewrite cbin_in by lia. rewrite B. split; auto.
  f_equal. rewrite <- bval_bin by (auto; apply V). rewrite B. auto.
Qed.
Lemma highest_bval h i : wf h -> 0 <= i < zlen (h_counts h) -> highest_equivalent h (bval h i) = Ret (topval h i).
Proof.
  intros W I. pose proof (w_cfg h W) as C. pose proof (w_size h W) as SZ. pose proof (bval_u64 h i C SZ I) as V. apply highest_equivalent_ok; auto.
Qed.

Lemma Forall2_maps {A B C} (P : B -> C -> Prop) (f : A -> B) (g : A -> C) l : (forall x, In x l -> P (f x) (g x)) -> Forall2 P (map f l) (map g l).
Proof. induction l as [|x l IH]; intros H; cbn; constructor; auto with datatypes. Qed.
Lemma sorted_idxs n : forall i (f : Z -> bool), StronglySorted Z.lt (filter f (idxs n i)).
Proof.
  induction n as [|n IH]; intros i f; cbn [idxs filter]; [constructor|]. destruct (f i); auto. constructor; auto.
  apply Forall_forall. intros k K. apply filter_In in K. destruct K as [K _]. apply idxs_range in K. lia.
Qed.
Lemma sorted_map (f : Z -> Z) l : StronglySorted Z.lt l -> (forall a b, In a l -> In b l -> a < b -> f a < f b) -> StronglySorted Z.lt (map f l).
Proof.
  induction 1 as [|x l S IH F]; intros M; cbn; constructor.
  - apply IH. intros; apply M; auto with datatypes.
  - rewrite Forall_forall in *. intros y Y. apply in_map_iff in Y. destruct Y as (z & <- & Z). apply M; auto with datatypes.
Qed.

(** ** C22.  [iter_recorded] yields the classes that hold samples, each once, in increasing order: the
    top value of the class, its count, and nothing skipped since the item before. *)
Lemma C22_recorded_proof : forall h, reachable h ->
  exists it items, iter_recorded h = Ret it /\ drains pk_recorded h it items /\
    StronglySorted Z.lt (map iv_value items) /\
    Forall2 (fun x c => highest_equivalent h (fst c) = Ret (iv_value x) /\ iv_count x = snd c /\ iv_since x = snd c /\
        iv_quantile x = f64_div (f64_of_u64 (Z.min u64_max (weight_between 0 (fst c) (held h)))) (f64_of_u64 (len h)) /\
        iv_qto x = iv_quantile x)
      items (held h).
Proof.
  intros h R. pose proof (reachable_wf h R) as W. destruct (recorded_drains h W) as (it & E & _ & _ & _ & D).
  exists it, (map (ritem h) (held_idxs h)). split; auto. split; auto. split.
  - rewrite map_map. cbn [ritem iv_value]. apply sorted_map; [apply sorted_idxs|]. intros a b A B L. apply held_idxs_in in A, B.
    pose proof (topval_lt h a b W ltac:(lia) L ltac:(lia)). pose proof (topval_ge h b W ltac:(lia)). lia.
  - rewrite held_contents by auto. apply (fun X => eq_ind_r (Forall2 _ _) X (contents_idxs h)). apply Forall2_maps. intros i I. apply held_idxs_in in I. cbn [fst snd ritem iv_value iv_count iv_since iv_quantile iv_qto].
    rewrite weight_below by (auto; lia). split; [apply highest_bval; auto; lia|]. auto.
Qed.
(*EX
Example ex_C22 : match build U64 1 10000 1 false [(5000, 8); (5, 2); (333, 1); (900, 4); (7, 0)] with
  | Some h => reachable h /\ match recorded_items h with
      | Ret xs => map (fun x => (iv_value x, iv_count x, iv_since x)) xs = [(5, 2, 2); (335, 1, 1); (927, 4, 4); (5119, 8, 8)] /\
          held h = [(5, 2); (320, 1); (896, 4); (4864, 8)]
      | _ => False end
  | _ => False end.
Proof. float_case. Qed.
EX*)

(** ** C23.  [iter_all] yields every class once, with its count *)
Lemma C23_all_proof : forall h, reachable h ->
  exists it items, iter_all h = Ret it /\ drains pk_all h it items /\ zlen items = distinct_values h /\ walks_classes h 0 items.
Proof.
  intros h R. pose proof (reachable_wf h R) as W. pose proof (w_cfg h W) as C. pose proof (w_size h W) as SZ.
  destruct (all_drains h W) as (it & E & D). eexists it, _. split; [auto|]. split; [exact D|]. split.
  { unfold zlen at 1. rewrite map_length, length_idxs. unfold distinct_values. pose proof (zlen_nonneg (h_counts h)). lia. }
  pose proof (len_pos h C SZ) as LP.
  assert (G : forall n i, 0 <= i -> i + Z.of_nat n = zlen (h_counts h) -> (0 < n)%nat -> walks_classes h (bval h i) (map (ritem h) (idxs n i))).
  { induction n as [|n IH]; intros i I L N; [lia|]. cbn [idxs map walks_classes ritem iv_value iv_count iv_since].
    destruct (covers_bval h i W ltac:(lia)) as (A1 & A2 & A3 & A4). split; auto. split; auto. split; auto. split; [apply highest_bval; auto; lia|].
    split; auto. split; auto. destruct n as [|n].
    - cbn [idxs map walks_classes]. assert (i = zlen (h_counts h) - 1) by lia. subst i.
      destruct (topval_ge h (zlen (h_counts h) - 1) W ltac:(lia)) as (T1 & T2 & T3 & T4).
      unfold topval, higheq, nexteq in *. destruct (Z.eqb_spec (bval h (zlen (h_counts h) - 1)) u64_max) as [EQ|NE].
      + right. intros w V LW. unfold is_u64 in V. lia.
      + rewrite <- (val_idx_succ _ _ (um_nonneg h C) (m_nonneg h C)) in * by apply T3.
        replace (idx (h_um h) (h_half_mag h) (bval h (zlen (h_counts h) - 1))) with (zlen (h_counts h) - 1) in * by (symmetry; apply bin_bval; auto; lia).
        replace (zlen (h_counts h) - 1 + 1) with (zlen (h_counts h)) in * by lia.
        destruct (Z_le_dec (val (h_um h) (h_half_mag h) (zlen (h_counts h))) u64_max) as [L1|L1].
        * right. intros w V LW. rewrite covers_bin by auto. intros B.
          pose proof (proj1 (idx_iff _ _ (um_nonneg h C) (m_nonneg h C) w (bin h w) ltac:(apply V) (bin_nonneg h w C ltac:(apply V))) eq_refl) as [_ LT].
          pose proof (val_le _ _ (um_nonneg h C) (m_nonneg h C) (bin h w + 1) (zlen (h_counts h)) ltac:(pose proof (bin_nonneg h w C ltac:(apply V)); lia) ltac:(lia)). lia.
        * left. lia.
    - replace (topval h i + 1) with (bval h (i + 1)). { apply IH; lia. }
      destruct (topval_ge h i W ltac:(lia)) as (T1 & T2 & T3 & T4). pose proof (bval_u64 h (i + 1) C SZ ltac:(lia)) as VN.
      pose proof (bval_lt h i (i + 1) C I ltac:(lia)) as BL.
      unfold topval, higheq, nexteq. destruct (Z.eqb_spec (bval h i) u64_max); [unfold u64 in *; lia|].
      rewrite <- (val_idx_succ _ _ (um_nonneg h C) (m_nonneg h C)) by apply T3.
      replace (idx (h_um h) (h_half_mag h) (bval h i)) with i by (symmetry; apply bin_bval; auto). unfold bval, u64 in *. lia. }
  replace 0 with (bval h 0) at 1. { apply G; lia. }
  rewrite <- (bin_0 h) at 1 by auto. rewrite bval_bin by (auto; lia). unfold loweq. rewrite Z.div_0_l; auto.
  pose proof (wid_range h C 0 u64_0). lia.
Qed.
(*EX
Example ex_C23 : match build U64 1 20 0 false [(5, 2); (3, 1)] with
  | Some h => reachable h /\ match iter_all h with
      | Ret it => match iter_collect 10 pk_all h it with
          | Ret xs => map (fun x => (iv_value x, iv_count x, iv_since x)) xs =
              [(0, 0, 0); (1, 0, 0); (3, 1, 1); (7, 2, 2); (15, 0, 0); (31, 0, 0)]
          | _ => False end
      | _ => False end
  | _ => False end.
Proof. float_case. Qed.
EX*)

(** ** C24.  Whatever the picker, the items account for the samples without loss or duplication *)
Lemma takes_accounts {P} (pk : picker P) h st xs st' : wf h -> zsum (h_counts h) <= u64_max -> takes pk h st xs st' -> inv h st -> it_ended st = false ->
  exists ws, accounts h (zpre (h_counts h) (prevd st)) (match it_last st with None => 0 | Some p => bval h p end) xs ws.
Proof.
  intros W SM T. pose proof (w_cfg h W) as C. pose proof (w_size h W) as SZ.
  induction T as [st|st st1 st2 x xs EN TK IH]; intros I NE. { exists []. cbn. auto. }
  destruct (loop_cases pk h W _ _ _ _ I NE EN) as (i & IX & I1 & X1 & NE1 & L1 & (S1 & S2 & S3)).
  destruct (IH I1 NE1) as (ws & A). exists (bval h i :: ws). cbn [accounts].
  pose proof (ii_index h st I) as II.
  destruct (covers_bval h i W ltac:(lia)) as (A1 & A2 & A3 & A4).
  assert (PL : match it_last st with None => 0 | Some p => bval h p end <= bval h i /\ zpre (h_counts h) (prevd st) <= zpre (h_counts h) (i + 1)).
  { pose proof (ii_last h st I) as LL. unfold prevd. destruct (it_last st) as [p|].
    - split; [apply bval_le; auto; lia|]. apply zpre_le; auto. lia.
    - split; [apply bval_nonneg; auto; lia|]. apply zpre_le; auto. lia. }
  destruct PL as [PL1 PL2].
  pose proof (zpre_le_zsum (h_counts h) (i + 1) (wf_nonneg h W)) as ZU. pose proof (zpre_nn h W (prevd st)) as ZN.
  assert (SE : zpre (h_counts h) (prevd st) + iv_since x = zpre (h_counts h) (i + 1)) by (rewrite S2; unfold u64s; lia).
  rewrite SE. split; auto. split; auto. split; auto. split; auto. split; [rewrite A4; congruence|].
  split; [rewrite held_contents, weight_below by (auto; lia); auto|]. split.
  { rewrite S3. unfold u64s. rewrite Z.min_r by lia. reflexivity. }
  unfold prevd in A. rewrite L1 in A. exact A.
Qed.
Lemma C24_accounts_proof : forall P (pk : picker P) h p it items it', reachable h -> weight (held h) <= u64_max ->
  iter_new h p = Ret it -> takes pk h it items it' -> exists ws, accounts h 0 0 items ws.
Proof.
  intros P pk h p it items it' R SM E T. pose proof (reachable_wf h R) as W.
  destruct (new_ok h W p) as (st & E1 & I & NE & _ & LA & _). rewrite E1 in E. injection E as <-.
  rewrite held_total in SM by auto. destruct (takes_accounts pk h st items it' W SM T I NE) as (ws & A). rewrite LA in A. unfold prevd in A. rewrite LA in A. eauto.
Qed.
(*EX
Example ex_C24_accounts : match build U64 1 10000 1 false [(5000, 8); (5, 2); (333, 1)] with
  | Some h => reachable h /\ weight (held h) <= u64_max /\
      match iter_linear h 3000 with Ret it => match iter_next pk_linear h it with
      | Ret (it1, Some x) => match iter_next pk_linear h it1 with
          | Ret (it2, Some y) => map (fun x => (iv_value x, iv_count x, iv_since x)) [x; y] = [(2999, 0, 3); (5999, 0, 8)]
          | _ => False end
      | _ => False end | _ => False end
  | _ => False end.
Proof. float_case. Qed.
EX*)
(** so what they report never exceeds what the histogram holds *)
Lemma accounts_bound h xs : wf h -> forall a b ws, a <= zsum (h_counts h) -> accounts h a b xs ws -> a + reported xs <= zsum (h_counts h).
Proof.
  intros W. induction xs as [|x xs IH]; intros a b ws L A; cbn [reported]; [lia|]. destruct ws as [|w ws]; [contradiction|].
  destruct A as (A1 & A2 & A3 & A4 & A5 & A6 & A7 & A8).
  enough (a + iv_since x + reported xs <= zsum (h_counts h)) by lia. apply (IH _ w ws); auto. rewrite A6.
  rewrite held_contents by auto. rewrite <- wtotal_contents. pose proof (contents_nonneg h W) as NN. clear - NN.
  induction (contents h) as [|[v n] l IH]; cbn [weight_between wtotal]; [lia|]. inversion NN; subst. cbn [snd] in *. specialize (IH H2). destruct (_ && _); lia.
Qed.
Lemma C24_total_proof : forall P (pk : picker P) h p it items it', reachable h -> weight (held h) <= u64_max ->
  iter_new h p = Ret it -> takes pk h it items it' -> reported items <= weight (held h).
Proof.
  intros P pk h p it items it' R SM E T. pose proof (reachable_wf h R) as W.
  destruct (C24_accounts_proof P pk h p it items it' R SM E T) as (ws & A). rewrite held_total by auto.
  apply (accounts_bound h items W 0 0 ws) in A; [lia|]. apply zsum_nonneg, wf_nonneg; auto.
Qed.
(*EX
(** [iter_linear] by 100 over 20 samples *)
Example ex_C24_total : match build U64 1 10000 1 false [(5000, 8); (5, 2); (333, 1); (900, 9)] with
  | Some h => reachable h /\ weight (held h) = 20 /\ weight (held h) <= u64_max /\
      match iter_linear h 100 with Ret it => match iter_next pk_linear h it with Ret (it', Some x) => iv_since x = 2 /\ iv_value x = 99 | _ => False end | _ => False end
  | None => False end.
Proof. float_case. Qed.
EX*)
(** an iterator that has returned [None] returns [None] forever *)
Lemma loop_none {P} (pk : picker P) h f : forall it it', iter_loop f pk h it = Ret (it', None) -> it_ended it' = true.
Proof.
  induction f as [|f IH]; intros it it' E; cbn [iter_loop] in E; destruct (it_ended it) eqn:EN; try discriminate; try congruence.
  destruct (iter_round pk h it) as [[s o]|] eqn:ER; cbn [bind] in E; [|discriminate]. destruct o; try discriminate; eauto. injection E as <-.
  unfold iter_round in ER. destruct (_ =? _); [injection ER as <-; reflexivity|].
  destruct (if opt_ge (it_last it) (it_maxi it) then _ else _) as [[go st1]|] eqn:E1; cbn [bind] in ER; [|discriminate].
  destruct go; cbn [negb] in ER.
  - exfalso. clear E1. destruct (pk_pick _ _ _ _ _ _) as [[[md|] p2]|]; cbn [bind] in ER; try discriminate.
    + destruct (md_value md).
      * cbn [bind] in ER. destruct (expect _); cbn [bind] in ER; discriminate.
      * destruct (value_for _ _); cbn [bind] in ER; [|discriminate]. destruct (highest_equivalent _ _); cbn [bind] in ER; [|discriminate].
        destruct (expect _); cbn [bind] in ER; discriminate.
    + destruct (usize_add _ _); cbn [bind] in ER; discriminate.
  - injection ER as <-. destruct (opt_ge _ _).
    + destruct (pk_more _ _ _ _) as [[[] p]|]; cbn [bind] in E1; try discriminate. injection E1 as <-. reflexivity.
    + destruct (assert _); cbn [bind] in E1; [|discriminate]. destruct (it_fresh it); [|discriminate].
      destruct (expect _); cbn [bind] in E1; discriminate.
Qed.
Lemma C24_fused_proof : forall P (pk : picker P) h it it', iter_next pk h it = Ret (it', None) -> iter_next pk h it' = Ret (it', None).
Proof. intros P pk h it it' E. apply ended_next. eapply loop_none, E. Qed.
(** and the engine itself never panics: if the picker does not, [next] does not *)
Lemma loop_total {P} (pk : picker P) h : wf h -> (forall p i t c, pk_pick pk h p i t c <> Panic) -> (forall p i, pk_more pk h p i <> Panic) ->
  forall f st, inv h st -> (Z.to_nat (zlen (h_counts h) - it_index st) < f)%nat -> iter_loop f pk h st <> Panic.
Proof.
  intros W NP NM. induction f as [|f IH]; intros st I F; [lia|]. cbn [iter_loop]. destruct (it_ended st) eqn:EN; [discriminate|].
  pose proof (ii_index h st I) as II.
  destruct (iter_round pk h st) as [[s o]|] eqn:ER; cbn [bind].
  - pose proof (round_cases pk h W st s o I EN ER) as RC. destruct o; try discriminate. destruct RC as (A & B & C & _). apply IH; auto. lia.
  - exfalso. destruct (Z_lt_le_dec (it_index st) (zlen (h_counts h))) as [L|L].
    + rewrite round_ok in ER by auto. 
      assert (G : forall st1, consult pk h st1 <> Panic).
      { intros st1. unfold consult. destruct (pk_pick _ _ _ _ _ _) as [[[md|] p]|] eqn:E; cbn [bind]; try discriminate. exfalso. eapply NP, E. }
      destruct (opt_ge _ _); [|eapply G, ER]. destruct (pk_more _ _ _ _) as [[[] p]|] eqn:EM; cbn [bind] in ER; try discriminate; [eapply G, ER|eapply NM, EM].
    + rewrite end_ok in ER by lia. discriminate.
Qed.
Lemma C24_no_panic_proof : forall P (pk : picker P) h p, reachable h ->
  (forall p i t c, pk_pick pk h p i t c <> Panic) -> (forall p i, pk_more pk h p i <> Panic) ->
  exists it, iter_new h p = Ret it /\ forall items it', takes pk h it items it' -> iter_next pk h it' <> Panic.
Proof.
  intros P pk h p R NP NM. pose proof (reachable_wf h R) as W. destruct (new_ok h W p) as (it & E & I & NE & _). exists it. split; auto.
  intros items it' T. destruct (takes_inv pk h W it items it' T I NE) as [I' _]. apply loop_total; auto.
Qed.
(*EX
Example ex_C24 : match build U64 1 10000 1 false [(5000, 8); (5, 2); (333, 1); (900, 4)] with
  | Some h => reachable h /\ match iter_linear h 500 with
      | Ret it => match iter_collect 20 pk_linear h it with
          | Ret xs => map (fun x => (iv_value x, iv_count x, iv_since x)) xs =
              [(499, 0, 3); (999, 0, 4); (1499, 0, 0); (1999, 0, 0); (2499, 0, 0); (2999, 0, 0); (3499, 0, 0);
               (3999, 0, 0); (4499, 0, 0); (4999, 8, 8)] /\ reported xs = weight (held h)
          | _ => False end
      | _ => False end
  | _ => False end.
Proof. float_case. Qed.
EX*)

(** ** C53.  Post-recording correction records, for every class the source holds, its top value with its
    count and with the values missing below it; if a value does not fit it stops there, keeping what it
    has recorded so far. *)
Lemma records_app h l1 l2 h1 h2 : records h l1 h1 -> records h1 l2 h2 -> records h (l1 ++ l2) h2.
Proof. intros R. induction R; intros R2; cbn [app]; auto. econstructor; eauto. Qed.
Lemma correct_items_ok s i : wf s -> is_u64 i -> forall ks h, reachable h -> h_ctr h = h_ctr s ->
  (forall k, In k ks -> 0 <= k < zlen (h_counts s)) ->
  let pairs := map (fun k => (bval s k, zn (h_counts s) k)) in
  (exists h', correct_items h (map (ritem s) ks) i = Ret (h', ROk tt) /\ records h (corrected_samples s (pairs ks) i) h') \/
  (exists h' e ks1 k ks2, correct_items h (map (ritem s) ks) i = Ret (h', RErr e) /\ ks = ks1 ++ k :: ks2 /\
     records h (corrected_samples s (pairs ks1) i) h' /\ record_n h' (topval s k) (zn (h_counts s) k) = Ret (h', RErr e)).
Proof.
  intros W I. induction ks as [|k ks IH]; intros h R C F; cbn zeta.
  { left. exists h. split; auto. constructor. }
  cbn [map correct_items ritem iv_value iv_count]. pose proof (F k ltac:(cbn; auto)) as K.
  destruct (topval_ge s k W K) as (_ & TU & _ & _).
  assert (N : is_count (h_ctr h) (zn (h_counts s) k)).
  { rewrite C. unfold is_count. split; [apply zn_nonneg, wf_nonneg; auto|apply zn_le_cmax; auto]. }
  destruct (C12_correction_proof h (topval s k) (zn (h_counts s) k) i R TU N I) as [(h1 & E & RC)|(E & e & ER)].
  - rewrite E. cbn [bind]. pose proof (records_reachable _ _ _ R RC) as R1.
    assert (C1 : h_ctr h1 = h_ctr s).
    { rewrite <- C. apply (ss_ctr _ _ (ra_shape _ _ _ (rec_many_all _ _ _ (records_many _ _ _ (reachable_wf h R) RC)))). }
    cbn [corrected_samples map]. rewrite highest_bval by auto.
    destruct (IH h1 R1 C1 ltac:(intros; apply F; cbn; auto)) as [(h' & E' & RC')|(h' & e & ks1 & k2 & ks2 & E' & -> & RC' & ER)].
    + left. exists h'. split; auto. eapply records_app; eauto.
    + right. exists h', e, (k :: ks1), k2, ks2. split; auto. split; auto. split; auto. cbn [corrected_samples map]. rewrite highest_bval by auto.
      eapply records_app; eauto.
  - right. exists h, e, [], k, ks. rewrite E, ER. cbn [bind corrected_samples app map]. split; auto. split; auto. split; auto. constructor.
Qed.
Lemma held_pairs s : wf s -> held s = map (fun k => (bval s k, zn (h_counts s) k)) (held_idxs s).
Proof. intros W. rewrite held_contents by auto. apply contents_idxs. Qed.
Lemma C53_add_correct_proof : forall h s i, reachable h -> reachable s -> h_ctr h = h_ctr s -> is_u64 i ->
  (exists h', add_correct h s i = Ret (h', ROk tt) /\ records h (corrected_samples s (held s) i) h') \/
  (exists h' e l1 v n l2 t, add_correct h s i = Ret (h', RErr e) /\ held s = l1 ++ (v, n) :: l2 /\
     records h (corrected_samples s l1 i) h' /\ highest_equivalent s v = Ret t /\ record_n h' t n = Ret (h', RErr e)).
Proof.
  intros h s i R RS C I. pose proof (reachable_wf s RS) as W. unfold add_correct. rewrite recorded_items_ok by auto. cbn [bind].
  rewrite held_pairs by auto.
  destruct (correct_items_ok s i W I (held_idxs s) h R C) as [(h' & E & RC)|(h' & e & ks1 & k & ks2 & E & EQ & RC & ER)].
  - intros k K. apply held_idxs_in in K. lia.
  - left. eauto.
  - right. exists h', e, (map (fun k => (bval s k, zn (h_counts s) k)) ks1), (bval s k), (zn (h_counts s) k),
      (map (fun k => (bval s k, zn (h_counts s) k)) ks2), (topval s k). split; auto. rewrite EQ, map_app. split; auto. split; auto. split; auto.
    apply highest_bval; auto. assert (In k (held_idxs s)) by (rewrite EQ; apply in_or_app; cbn; auto). apply held_idxs_in in H. lia.
Qed.
(*EX
Example ex_C53_add_correct : match build U64 1 5000 1 false [(7, 1)] with Some h =>
  match build U64 1 5000 1 false [(5, 1); (1000, 2)] with Some s =>
      reachable h /\ reachable s /\ h_ctr h = h_ctr s /\ is_u64 300 /\ corrected_samples s (held s) 300 = [(5, 1); (1023, 2); (723, 2); (423, 2)] /\
      match add_correct h s 300 with
      | Ret (h', ROk _) => held h' = [(5, 1); (7, 1); (416, 2); (704, 2); (992, 2)]
      | _ => False end
  | _ => False end | _ => False end.
Proof. float_case. Qed.
EX*)
(** [set_to_corrected] does the same starting from nothing *)
Lemma C53_set_to_corrected_proof : forall h s i, reachable h -> reachable s -> h_ctr h = h_ctr s -> is_u64 i ->
  (exists h', set_to_corrected h s i = Ret (h', ROk tt) /\ records (reset h) (corrected_samples s (held s) i) h') \/
  (exists h' e l1 v n l2 t, set_to_corrected h s i = Ret (h', RErr e) /\ held s = l1 ++ (v, n) :: l2 /\
     records (reset h) (corrected_samples s l1 i) h' /\ highest_equivalent s v = Ret t /\ record_n h' t n = Ret (h', RErr e)).
Proof. intros h s i R RS C I. apply C53_add_correct_proof; auto. apply reach_reset; auto. Qed.
(*EX
Example ex_C53_set_to_corrected : match build U64 1 500 1 false [(7, 1)] with Some h =>
  match build U64 1 5000 1 false [(5, 1); (1000, 2)] with Some s =>
      reachable h /\ reachable s /\ h_ctr h = h_ctr s /\ is_u64 300 /\
      match set_to_corrected h s 300 with
      | Ret (h', RErr e) => held h' = [(5, 1)] /\ e = ValueOutOfRangeResizeDisabled /\ highest_equivalent s 992 = Ret 1023 /\ record_n h' 1023 2 = Ret (h', RErr e)
      | _ => False end
  | _ => False end | _ => False end.
Proof. float_case. Qed.
EX*)
(** [clone_correct] always succeeds: everything fits into the copy *)
Lemma C53_clone_correct_proof : forall h i, reachable h -> is_u64 i ->
  exists h0 h', new_from (h_ctr h) h = Ret h0 /\ clone_correct h i = Ret h' /\ records h0 (corrected_samples h (held h) i) h'.
Proof.
  intros h i R I. pose proof (reachable_wf h R) as W. pose proof (w_cfg h W) as C. pose proof (w_size h W) as SZ.
  pose proof (new_from_ok (h_ctr h) h C SZ) as EN. destruct (new_from_wf (h_ctr h) h C SZ) as [WN _].
  set (n := set_auto (fresh (h_ctr h) (h_low h) (h_high h) (h_sigfig h)) (h_auto h)) in *.
  assert (RN : reachable n) by (eapply reach_new_from; eauto).
  assert (U : h_um n = h_um h) by (rewrite (c_um n (w_cfg n WN)), (c_um h C); reflexivity).
  assert (M : h_half_mag n = h_half_mag h) by (rewrite (c_m n (w_cfg n WN)), (c_m h C); reflexivity).
  assert (LN : zlen (h_counts n) = zlen (h_counts h)) by apply (fresh_self_len (h_ctr h) h C SZ).
  exists n. unfold clone_correct. rewrite EN. cbn [bind]. rewrite recorded_items_ok by auto. cbn [bind]. rewrite held_pairs by auto.
  assert (F : forall k, In k (held_idxs h) -> 0 <= k < zlen (h_counts h)) by (intros k K; apply held_idxs_in in K; lia).
  destruct (correct_items_ok h i W I (held_idxs h) n RN eq_refl F) as [(h' & E & RC)|(h' & e & ks1 & k & ks2 & E & EQ & RC & ER)].
  - exists h'. rewrite E. cbn [bind]. auto.
  - exfalso. assert (K : 0 <= k < zlen (h_counts h)) by (apply F; rewrite EQ; apply in_or_app; cbn; auto).
    destruct (topval_ge h k W K) as (_ & TU & _ & TB). pose proof (rec_many_all _ _ _ (records_many _ _ _ WN RC)) as RA.
    destruct (record_n_ok h' (topval h k) (zn (h_counts h) k)) as (h2 & E2 & _); auto.
    + apply RA.
    + rewrite (ss_ctr _ _ (ra_shape _ _ _ RA)). change (h_ctr n) with (h_ctr h). split; [apply zn_nonneg, wf_nonneg; auto|apply zn_le_cmax; auto].
    + left. rewrite (same_shape_bin n h') by apply RA. pose proof (ra_len _ _ _ RA). unfold bin in *. rewrite U, M. lia.
    + rewrite E2 in ER. discriminate.
Qed.
(*EX
Example ex_C53_clone_correct : match build U64 1 10000 1 false [(10, 2)] with
  | Some h => reachable h /\ is_u64 3 /\ held h = [(10, 2)] /\ match clone_correct h 3 with Ret h' => held h' = [(4, 2); (7, 2); (10, 2)] | _ => False end
  | None => False end.
Proof. case_of. Qed.
EX*)
(** with an interval of 0, or one that no class reaches beyond, it copies the samples *)
Lemma corrected_none s i l : 0 <= i -> (i = 0 \/ forall v n t, In (v, n) l -> highest_equivalent s v = Ret t -> t <= i) ->
  (forall v n, In (v, n) l -> exists t, highest_equivalent s v = Ret t) ->
  corrected_samples s l i = map (fun p => (match highest_equivalent s (fst p) with Ret t => t | Panic => 0 end, snd p)) l.
Proof.
  intros I0. induction l as [|[v n] l IH]; intros H X; cbn [corrected_samples map fst snd]; auto. destruct (X v n ltac:(cbn; auto)) as (t & T). rewrite T.
  rewrite IH; [| |intros; eapply X; cbn; eauto]. 2: { destruct H as [H|H]; [auto|right; intros; eapply H; cbn; eauto]. }
  replace (missing_values t i) with (@nil Z); [reflexivity|]. unfold missing_values. destruct (Z.eqb_spec i 0) as [|NZ]; auto.
  destruct H as [H|H]; [contradiction|]. specialize (H v n t ltac:(cbn; auto) T).
  replace (Z.to_nat (t / i - 1)) with 0%nat; auto.
  assert (t / i <= 1); [|lia]. apply Z.div_le_upper_bound; lia.
Qed.
Lemma C53_clone_plain_proof : forall h i, reachable h -> is_u64 i ->
  (i = 0 \/ forall v n t, In (v, n) (held h) -> highest_equivalent h v = Ret t -> t <= i) ->
  exists h', clone_correct h i = Ret h' /\ held h' = held h /\ len h' = Z.min u64_max (weight (held h)).
Proof.
  intros h i R I H. pose proof (reachable_wf h R) as W. pose proof (w_cfg h W) as C. pose proof (w_size h W) as SZ.
  destruct (C53_clone_correct_proof h i R I) as (n & h' & EN & E & RC). exists h'. split; auto.
  rewrite new_from_ok in EN by auto. destruct (new_from_wf (h_ctr h) h C SZ) as [WN _]. injection EN as EN.
  assert (U : h_um n = h_um h) by (subst n; rewrite (c_um _ (w_cfg _ WN)), (c_um h C); reflexivity).
  assert (M : h_half_mag n = h_half_mag h) by (subst n; rewrite (c_m _ (w_cfg _ WN)), (c_m h C); reflexivity).
  assert (Z0 : forall j, 0 <= j -> zn (h_counts n) j = 0) by (intros j J; subst n; apply fresh_zero; auto).
  assert (T0 : h_total n = 0) by (subst n; reflexivity). assert (CT : h_ctr n = h_ctr h) by (subst n; reflexivity). rewrite EN in WN. clear EN.
  rewrite corrected_none in RC; [|apply I|auto|].
  2: { intros v k IN. exists (higheq h v). apply highest_equivalent_ok; auto. apply (held_one h v k W IN). }
  pose proof (rec_many_all _ _ _ (records_many _ _ _ WN RC)) as RA. pose proof (ra_shape _ _ _ RA) as SS.
  assert (BE : forall v, bin n v = bin h v) by (intros v; unfold bin; rewrite U, M; auto).
  assert (WS : forall j l, (forall v k, In (v, k) l -> u64 v) ->
     wsum (bin n) j (map (fun p => (match highest_equivalent h (fst p) with Ret t => t | Panic => 0 end, snd p)) l) = wsum (bin h) j l).
  { intros j l. induction l as [|[v k] l IH]; intros F; cbn [map wsum fst snd]; auto. rewrite IH by (intros; eapply F; cbn; eauto).
    assert (V : u64 v) by (eapply F; cbn; eauto). rewrite highest_equivalent_ok by auto. rewrite BE. unfold bin at 1. rewrite idx_higheq by auto. reflexivity. }
  assert (WT : forall l, wtotal (map (fun p => (match highest_equivalent h (fst p) with Ret t => t | Panic => 0 end, snd p)) l) = wtotal l).
  { intros l. induction l as [|[v k] l IH]; cbn [map wtotal fst snd]; auto. lia. }
  split.
  - apply held_ext; auto; [apply RA|rewrite (ss_um _ _ SS); auto|rewrite (ss_m _ _ SS); auto|].
    intros j J. rewrite (ra_cnt _ _ _ RA) by auto. rewrite Z0 by auto. rewrite WS by (intros v k IN; apply (held_one h v k W IN)).
    rewrite held_contents by auto. rewrite wsum_contents by auto. rewrite CT. pose proof (zn_le_cmax h j W). lia.
  - rewrite weight_wtotal. change (len h') with (h_total h'). rewrite (ra_total _ _ _ RA), T0. rewrite WT. reflexivity.
Qed.
(*EX
Example ex_C53_clone_plain : match build U64 1 5000 1 false [(5, 1); (1000, 2)] with
  | Some h => reachable h /\ is_u64 1023 /\ held h = [(5, 1); (992, 2)] /\ highest_equivalent h 5 = Ret 5 /\ highest_equivalent h 992 = Ret 1023 /\
      match clone_correct h 1023 with Ret h' => held h' = held h /\ len h' = 3 | _ => False end
  | _ => False end.
Proof. float_case. Qed.
EX*)
(** a failing [add_correct] keeps what it recorded before the value that does not fit *)
Lemma C53_partial_effect_refuted_proof : exists h s h' e, reachable h /\ reachable s /\ h_ctr h = h_ctr s /\
  add_correct h s 100 = Ret (h', RErr e) /\ held h = [] /\ held h' = [(5, 1); (104, 2); (200, 2)].
Proof.
  destruct (build U64 1 300 1 false []) as [h|] eqn:B; [|vm_compute in B; discriminate].
  pose proof (build_reachable _ _ _ _ _ _ _ B) as R. vm_compute in B. injection B as <-.
  destruct (build U64 1 5000 1 false [(5, 1); (200, 2); (4000, 1)]) as [s|] eqn:B; [|vm_compute in B; discriminate].
  pose proof (build_reachable _ _ _ _ _ _ _ B) as RS. vm_compute in B. injection B as <-.
  match type of R with reachable ?x => match type of RS with reachable ?y =>
    destruct (add_correct x y 100) as [[h' [|e]]|] eqn:E; try (vm_compute in E; discriminate) end end.
  do 2 eexists. exists h', e. split; [exact R|]. split; [exact RS|]. split; [reflexivity|]. split; [exact E|].
  vm_compute in E. injection E as <- <-. vm_compute. auto.
Qed.
(*EX
Example ex_C53 : match build U64 1 5000 1 false [(5, 1); (1000, 2)] with
  | Some h => reachable h /\ match clone_correct h 300, clone_correct h 0 with
      | Ret h', Ret h2 => held h = [(5, 1); (992, 2)] /\ held h' = [(5, 1); (416, 2); (704, 2); (992, 2)] /\ held h2 = held h
      | _, _ => False end
  | _ => False end.
Proof. float_case. Qed.
EX*)
