(** * Proofs of the properties about merging and copying (C14 - C20, C52) *)
(*PROPS-IMPORTS Machine Log2Model HistModel Spec Reach Witness Cases *)
From Verif Require Import Machine Log2Model HistModel Spec Reach Bins ListZ Log2Facts Cfg Wf Ops AddFacts SubFacts Exact MoreFacts Witness HeldFacts PfRecord.
From Coq Require Import ZifyBool ZifyNat.

(** count after adding, as observed *)
Lemma added_counts h s h' : wf h -> wf s -> added h s h' -> forall w, u64 w -> bin h w < zlen (h_counts h') ->
  count_at h' w = Ret (Z.min (cmax (h_ctr h)) (zn (h_counts h) (bin h w) + weight_at h w (held s))).
Proof.
  intros WH WS [A1 A2 A3 A4 A5 A6] w V L. rewrite count_at_ok by auto.
  rewrite cbin_in by (rewrite (same_shape_bin h h') by auto; lia). rewrite (same_shape_bin h h') by auto.
  rewrite A3 by (apply bin_nonneg; [apply w_cfg; auto|apply V]). rewrite held_weight by auto. reflexivity.
Qed.

Lemma empty_held s : wf s -> is_empty s = true -> held s = [].
Proof. intros W E. apply held_nil; auto. apply empty_zero; auto. unfold is_empty in E. lia. Qed.

Lemma add_success h s h' : wf h -> wf s -> h_ctr h = h_ctr s -> add h s = Ret (h', ROk tt) ->
  (is_empty s = true /\ h' = h) \/ (is_empty s = false /\ added h s h' /\ bin h (maxp s) < zlen (h_counts h')).
Proof.
  intros WH WS CT E. pose proof (w_cfg h WH) as CH. pose proof (w_size h WH) as SH.
  destruct (add_ok h s WH WS CT) as [(Es & A)|[(_ & _ & _ & A)|(Es & _ & h1 & A & AD & h0 & AB & H0)]]; rewrite A in E; inversion E; subst; auto.
  right. split; auto. split; auto. pose proof (maxp_u64 s WS) as SMU.
  pose proof AD as [A1 A2 A3 A4 A5 A6].
  destruct H0 as [[L ->]|[L ->]].
  - destruct (top_val_in h CH SH) as [TU TI]. fold (bin h (top_val h)) in TI.
    pose proof (bin_mono h (maxp s) (top_val h) CH). destruct SMU. lia.
  - assert (HL : h_high h <= maxp s).
    { destruct (Z.eq_dec (h_high h) u64_max) as [EQ|N].
      - assert (top_val h = u64_max - 1).
        { unfold top_val. pose proof (proj1 (idx_in_iff_top h CH SH _ (high_u64 h CH)) (high_in h CH SH)).
          unfold u64_max in *. lia. }
        destruct SMU. lia.
      - pose proof (top_val_ge_high h CH SH N). lia. }
    destruct (resized_wf h (maxp s) WH SMU HL) as [RL RW].
    destruct (add_body_ok (resized h (maxp s)) s RW WS CT) as (h2 & E2 & [_ _ _ _ B5 _]).
    { apply (idx_in_iff _ (w_cfg _ RW) (w_size _ RW)); auto. apply Z.le_refl. }
    rewrite AB in E2. injection E2 as <-. eapply Z.lt_le_trans; [|exact B5].
    change (bin h (maxp s)) with (bin (resized h (maxp s)) (maxp s)).
    apply (idx_in_iff _ (w_cfg _ RW) (w_size _ RW)); auto. apply Z.le_refl.
Qed.

(** ** C14.  A successful [add] adds, for every value, the samples of the source that fall into its
    class (capped at the counter's maximum); every sample of the source has a bin afterwards. *)
Lemma C14_add_counts_proof : forall h s h', reachable h -> reachable s -> h_ctr h = h_ctr s ->
  add h s = Ret (h', ROk tt) ->
  (forall w c, is_u64 w -> covers h w -> count_at h w = Ret c ->
     count_at h' w = Ret (Z.min (cmax (h_ctr h)) (c + weight_at h w (held s)))) /\
  (forall w, is_u64 w -> ~ covers h w -> covers h' w ->
     count_at h' w = Ret (Z.min (cmax (h_ctr h)) (weight_at h w (held s)))) /\
  (forall v n, In (v, n) (held s) -> covers h' v) /\
  (forall w, is_u64 w -> covers h w -> covers h' w) /\
  low h' = low h /\ sigfig h' = sigfig h /\ is_auto_resize h' = is_auto_resize h /\ high h <= high h'.
Proof.
  intros h s h' R RS CT E. pose proof (reachable_wf h R) as W. pose proof (reachable_wf s RS) as WS.
  pose proof (w_cfg h W) as C. pose proof (w_cfg s WS) as CS.
  destruct (add_success h s h' W WS CT E) as [(EM & ->)|(EM & AD & FIT)].
  - pose proof (empty_held s WS EM) as HN. rewrite HN.
    assert (HC : forall w c, is_u64 w -> count_at h w = Ret c -> c <= cmax (h_ctr h)).
    { intros w c V EC. apply (C13_counts_in_type_proof h w c R V EC). }
    split; [|split; [|split; [|split; [|split; [|split; [|split]]]]]]; auto; try lia.
    + intros w c V CV EC. cbn [weight_at]. rewrite EC. f_equal. pose proof (HC w c V EC). lia.
    + intros w V N CV. contradiction.
    + intros v n [].
  - pose proof AD as [A1 A2 A3 A4 A5 A6].
    assert (BE : forall w, bin h' w = bin h w) by (intros; apply same_shape_bin; auto).
    split; [|split; [|split; [|split; [|split; [|split; [|split]]]]]].
    + intros w c V CV EC. apply covers_bin in CV; auto. rewrite (added_counts h s h') by (auto; lia).
      rewrite count_at_ok in EC by auto. injection EC as <-. rewrite cbin_in by auto. reflexivity.
    + intros w V N CV. apply covers_bin in CV; auto. rewrite BE in CV. rewrite covers_bin in N by auto.
      rewrite (added_counts h s h') by auto. rewrite zn_out by lia. reflexivity.
    + intros v n I. destruct (held_one s v n WS I) as (VU & _). apply covers_bin; auto. rewrite BE.
      rewrite held_contents in I by auto. destruct (contents_in s v n WS I) as (i & _ & _ & _ & _ & _ & LE & _).
      pose proof (bin_mono h v (maxp s) C ltac:(destruct VU; lia)). lia.
    + intros w V CV. apply covers_bin; auto. apply covers_bin in CV; auto. rewrite BE. lia.
    + apply A2. + apply A2. + unfold is_auto_resize. apply A2. + exact A6.
Qed.
(*EX
Example ex_C14_counts : match build U8 1 1000 1 true [(5, 200); (900, 1)], build U8 2 5000 2 false [(5, 100); (333, 7); (5000, 9)] with
  | Some h, Some s => reachable h /\ reachable s /\ h_ctr h = h_ctr s /\ is_u64 4 /\ covers h 4 /\ count_at h 4 = Ret 0 /\ weight_at h 4 (held s) = 100 /\
      is_u64 5000 /\ ~ covers h 5000 /\ weight_at h 5000 (held s) = 9 /\ In (332, 7) (held s) /\
      match add h s with Ret (h', ROk _) => count_at h' 4 = Ret 100 /\ covers h' 5000 /\ count_at h' 5000 = Ret 9 | _ => False end
  | _, _ => False end.
Proof. case_of. Qed.
EX*)
(** between histograms of the same precision, counts simply add *)
Lemma C14_add_same_precision_proof : forall h s h' w c d, reachable h -> reachable s -> h_ctr h = h_ctr s ->
  same_precision h s -> add h s = Ret (h', ROk tt) -> is_u64 w -> covers h w -> covers s w ->
  count_at h w = Ret c -> count_at s w = Ret d -> count_at h' w = Ret (Z.min (cmax (h_ctr h)) (c + d)).
Proof.
  intros h s h' w c d R RS CT SP E V CV CS EC ED. pose proof (reachable_wf h R) as W. pose proof (reachable_wf s RS) as WS.
  rewrite (proj1 (C14_add_counts_proof h s h' R RS CT E) w c V CV EC). do 3 f_equal.
  rewrite held_weight by auto. destruct SP as [L S].
  assert (BE : forall v, bin h v = bin s v).
  { intros v. unfold bin. rewrite (c_um h (w_cfg h W)), (c_um s (w_cfg s WS)), (c_m h (w_cfg h W)), (c_m s (w_cfg s WS)), L, S. reflexivity. }
  rewrite (wsum_ext _ (bin s)) by (intros; apply BE). rewrite BE.
  rewrite wsum_contents by (auto; (apply bin_nonneg; [apply w_cfg; auto|apply V])).
  apply covers_bin in CS; auto. rewrite count_at_ok in ED by auto. injection ED as <-. rewrite cbin_in by auto. reflexivity.
Qed.
(*EX
Example ex_C14_same_precision : match build U8 1 1000 1 false [(5, 200); (900, 1)], build U8 1 3000 1 false [(5, 100); (333, 7)] with
  | Some h, Some s => reachable h /\ reachable s /\ h_ctr h = h_ctr s /\ same_precision h s /\ distinct_values h <> distinct_values s /\
      covers h 333 /\ covers s 333 /\ count_at h 333 = Ret 0 /\ count_at s 333 = Ret 7 /\
      match add h s with Ret (h', ROk _) => count_at h' 333 = Ret 7 /\ count_at h' 5 = Ret 255 | _ => False end
  | _, _ => False end.
Proof. case_of. Qed.
EX*)
(** [len] adds up when the source's own [len] is the number of samples it holds *)
Lemma C14_add_len_proof : forall h s h', reachable h -> reachable s -> h_ctr h = h_ctr s -> len_agrees s ->
  add h s = Ret (h', ROk tt) -> len h' = Z.min u64_max (len h + len s).
Proof.
  intros h s h' R RS CT LA E. pose proof (reachable_wf h R) as W. pose proof (reachable_wf s RS) as WS.
  apply len_agrees_iff in LA; auto. pose proof (wf_total_nonneg h W). pose proof (wf_total_nonneg s WS).
  destruct (add_success h s h' W WS CT E) as [(EM & ->)|(EM & AD & FIT)].
  - unfold is_empty in EM. unfold len. lia.
  - unfold len. rewrite (ad_total _ _ _ AD) by lia. rewrite LA. reflexivity.
Qed.
(*EX
Example ex_C14_len : match build U8 1 1000 1 false [(5, 200); (5, 100)], build U8 2 500 2 false [(5, 100); (333, 7)] with
  | Some h, Some s => reachable h /\ reachable s /\ h_ctr h = h_ctr s /\ len_agrees s /\ ~ len_agrees h /\
      match add h s with Ret (h', ROk _) => len h = 300 /\ len s = 107 /\ len h' = 407 | _ => False end
  | _, _ => False end.
Proof. case_of. discriminate. Qed.
EX*)
(** the extremes afterwards are those of all samples held *)
Lemma C14_add_stats_proof : forall h s h' r, reachable h -> reachable s -> h_ctr h = h_ctr s ->
  stats_agree h -> stats_agree s -> no_saturation h (held s) ->
  add h s = Ret (h', r) -> stats_agree h'.
Proof.
  intros h s h' r R RS CT SH SS NS E. pose proof (reachable_wf h R) as W. pose proof (reachable_wf s RS) as WS.
  assert (RH : reachable h') by (apply (reach_add h s h' r); auto).
  rewrite stats_agree_iff in * by (auto using reachable_wf). apply (add_exact h s h' r); auto.
  rewrite held_contents in NS by auto. apply no_saturation_iff; auto. apply contents_u64; auto.
Qed.
(*EX
Example ex_C14_stats : match build U8 1 1000 1 false [(5, 20); (900, 1)], build U8 2 500 2 false [(2, 100); (333, 7)] with
  | Some h, Some s => reachable h /\ reachable s /\ h_ctr h = h_ctr s /\ stats_agree h /\ stats_agree s /\ no_saturation h (held s) /\
      match add h s with Ret (h', ROk _) => min_nz h = Ret 5 /\ min_nz h' = Ret 2 /\ max h' = Ret 927 /\ len h' = 128 | _ => False end
  | _, _ => False end.
Proof. case_of. Qed.
EX*)
(** a failing [add] changes nothing, and [add] never panics *)
Lemma C14_add_error_proof : forall h s, reachable h -> reachable s -> h_ctr h = h_ctr s ->
  exists h' r, add h s = Ret (h', r) /\
    (forall e, r = RErr e -> h' = h /\ e = OtherAddendValueExceedsRange /\ is_auto_resize h = false).
Proof.
  intros h s R RS CT. pose proof (reachable_wf h R) as W. pose proof (reachable_wf s RS) as WS.
  destruct (add_ok h s W WS CT) as [(_ & A)|[(_ & _ & AU & A)|(_ & _ & h1 & A & _)]]; rewrite A.
  - exists h, (ROk tt). split; auto. discriminate.
  - exists h. eexists. split; [reflexivity|]. intros e EE. inversion EE. auto.
  - exists h1, (ROk tt). split; auto. discriminate.
Qed.
(*EX
Example ex_C14 : match build U8 1 1000 1 false [(5, 200); (900, 1)], build U8 2 500 2 false [(5, 100); (333, 7)] with
  | Some h, Some s => held s = [(4, 100); (332, 7)] /\
      match add h s with
      | Ret (h', ROk _) => count_at h' 5 = Ret 200 /\ count_at h' 4 = Ret 100 /\ count_at h' 333 = Ret 7 /\ len h' = 308
      | _ => False end
  | _, _ => False end.
Proof. vm_compute. auto 10. Qed.
Example ex_C14_sat : match build U8 1 1000 1 false [(5, 200)], build U8 1 1000 1 false [(5, 100)] with
  | Some h, Some s =>
      match add h s with
      | Ret (h', ROk _) => count_at h' 5 = Ret 255 /\ len h' = 300
      | _ => False end
  | _, _ => False end.
Proof. vm_compute. auto 10. Qed.
EX*)
(** if counters of the source saturated, its [len] is larger than the number of samples it holds and
    [add] may not add it: here 300 samples were recorded, 255 are held and [len] grows by 255 *)
Lemma C14_len_after_saturation_refuted_proof : exists h s h', reachable h /\ reachable s /\ h_ctr h = h_ctr s /\
  add h s = Ret (h', ROk tt) /\ len h = 0 /\ len s = 300 /\ len h' = 255.
Proof.
  destruct (build U8 1 1000 1 false []) as [h|] eqn:B; [|vm_compute in B; discriminate].
  destruct (build U8 2 1000 1 false [(5, 200); (5, 100)]) as [s|] eqn:B2; [|vm_compute in B2; discriminate].
  pose proof (build_reachable _ _ _ _ _ _ _ B) as R. vm_compute in B. injection B as <-.
  pose proof (build_reachable _ _ _ _ _ _ _ B2) as R2. vm_compute in B2. injection B2 as <-.
  match type of R with reachable ?x => match type of R2 with reachable ?y =>
    destruct (add x y) as [[h' [[]|]]|] eqn:E; try (vm_compute in E; discriminate) end end.
  do 2 eexists. exists h'. split; [exact R|]. split; [exact R2|]. split; [reflexivity|]. split; [exact E|].
  vm_compute in E. injection E as <-. vm_compute. auto.
Qed.

(** ** C15.  Order and grouping of additions do not matter (statistics agree, nothing saturates). *)
Lemma same_precision_cfg a b : wf a -> wf b -> same_precision a b -> h_um a = h_um b /\ h_half_mag a = h_half_mag b.
Proof.
  intros WA WB [L S]. rewrite (c_um a (w_cfg a WA)), (c_um b (w_cfg b WB)), (c_m a (w_cfg a WA)), (c_m b (w_cfg b WB)), L, S. auto.
Qed.
Lemma same_precision_bin a b v : wf a -> wf b -> same_precision a b -> bin a v = bin b v.
Proof. intros WA WB P. destruct (same_precision_cfg a b WA WB P) as [U M]. unfold bin. rewrite U, M. reflexivity. Qed.

(** counts after adding a histogram of the same precision *)
Lemma add_same_counts h s h' : wf h -> wf s -> h_ctr h = h_ctr s -> same_precision h s -> add h s = Ret (h', ROk tt) ->
  wf h' /\ same_shape h h' /\
  forall j, 0 <= j -> zn (h_counts h') j = Z.min (cmax (h_ctr h)) (zn (h_counts h) j + zn (h_counts s) j).
Proof.
  intros W WS CT SP E. destruct (add_success h s h' W WS CT E) as [(EM & ->)|(EM & AD & FIT)].
  - split; auto. split; [apply same_shape_refl|]. intros j Hj.
    rewrite (empty_zero s WS) by (auto; unfold is_empty in EM; lia). pose proof (zn_le_cmax h j W). lia.
  - pose proof AD as [A1 A2 A3 A4 A5 A6]. split; auto. split; auto. intros j Hj. rewrite A3 by auto.
    rewrite (wsum_ext _ (bin s)) by (intros; apply same_precision_bin; auto). rewrite wsum_contents by auto. reflexivity.
Qed.

Lemma same_precision_held_counts h s j : wf h -> wf s -> same_precision h s -> 0 <= j ->
  wsum (bin h) j (contents s) = zn (h_counts s) j.
Proof. intros W WS SP Hj. rewrite (wsum_ext _ (bin s)) by (intros; apply same_precision_bin; auto). apply wsum_contents; auto. Qed.

Lemma same_precision_shape a b c : same_shape a b -> same_precision a c -> same_precision b c.
Proof. intros S [L F]. split; [rewrite (ss_low _ _ S); auto|rewrite (ss_sf _ _ S); auto]. Qed.
Lemma same_precision_sym a b : same_precision a b -> same_precision b a.
Proof. intros [L F]. split; auto. Qed.
Lemma same_precision_trans a b c : same_precision a b -> same_precision b c -> same_precision a c.
Proof. intros [L F] [L2 F2]. split; congruence. Qed.

Lemma C15_commutative_proof : forall a b ab ba, reachable a -> reachable b -> h_ctr a = h_ctr b ->
  same_precision a b -> stats_agree a -> stats_agree b -> no_saturation a (held b) -> no_saturation b (held a) ->
  add a b = Ret (ab, ROk tt) -> add b a = Ret (ba, ROk tt) ->
  held ab = held ba /\ len ab = len ba /\ same_max ab ba /\ same_min_nz ab ba.
Proof.
  intros a b ab ba RA RB CT SP SA SB NA NB E1 E2. pose proof (reachable_wf a RA) as WA. pose proof (reachable_wf b RB) as WB.
  destruct (add_same_counts a b ab WA WB CT SP E1) as (W1 & S1 & K1).
  destruct (add_same_counts b a ba WB WA (eq_sym CT) (same_precision_sym _ _ SP) E2) as (W2 & S2 & K2).
  pose proof (C14_add_stats_proof a b ab _ RA RB CT SA SB NA E1) as X1.
  pose proof (C14_add_stats_proof b a ba _ RB RA (eq_sym CT) SB SA NB E2) as X2.
  apply stats_agree_iff in X1, X2; auto.
  destruct (same_precision_cfg a b WA WB SP) as [U M].
  assert (U' : h_um ab = h_um ba) by (rewrite (ss_um _ _ S1), (ss_um _ _ S2); auto).
  assert (M' : h_half_mag ab = h_half_mag ba) by (rewrite (ss_m _ _ S1), (ss_m _ _ S2); auto).
  assert (K : forall j, 0 <= j -> zn (h_counts ab) j = zn (h_counts ba) j).
  { intros j Hj. rewrite K1, K2 by auto. rewrite CT. f_equal. lia. }
  destruct (same_stats ab ba W1 W2 U' M' K) as (T & MX & MN).
  split; [apply held_ext; auto|]. split; [apply T; [apply X1|apply X2]|]. split; [apply MX; [apply X1|apply X2]|apply MN; [apply X1|apply X2]].
Qed.
(*EX
Example ex_C15_commutative : match build U64 1 1000 1 false [(5, 200); (900, 1)], build U64 1 1000 1 false [(5, 100); (333, 7)] with
  | Some a, Some b => reachable a /\ reachable b /\ h_ctr a = h_ctr b /\ same_precision a b /\ stats_agree a /\ stats_agree b /\
      no_saturation a (held b) /\ no_saturation b (held a) /\
      match add a b, add b a with
      | Ret (ab, ROk _), Ret (ba, ROk _) => held ab = [(5, 300); (320, 7); (896, 1)] /\ held ba = held ab /\
          len ab = 308 /\ max ab = Ret 927 /\ max ba = max ab
      | _, _ => False end
  | _, _ => False end.
Proof. case_of. Qed.
EX*)
Lemma C15_associative_proof : forall a b c ab bc l r, reachable a -> reachable b -> reachable c ->
  h_ctr a = h_ctr b -> h_ctr b = h_ctr c -> same_precision a b -> same_precision b c ->
  stats_agree a -> stats_agree b -> stats_agree c ->
  no_saturation a (held b) -> no_saturation b (held c) -> no_saturation ab (held c) -> no_saturation a (held bc) ->
  add a b = Ret (ab, ROk tt) -> add ab c = Ret (l, ROk tt) ->
  add b c = Ret (bc, ROk tt) -> add a bc = Ret (r, ROk tt) ->
  held l = held r /\ len l = len r /\ same_max l r /\ same_min_nz l r.
Proof.
  intros a b c ab bc l r RA RB RC CT CT2 SP SP2 SA SB SC N1 N2 N3 N4 E1 E2 E3 E4.
  pose proof (reachable_wf a RA) as WA. pose proof (reachable_wf b RB) as WB. pose proof (reachable_wf c RC) as WC.
  destruct (add_same_counts a b ab WA WB CT SP E1) as (W1 & S1 & K1).
  destruct (add_same_counts b c bc WB WC CT2 SP2 E3) as (W3 & S3 & K3).
  assert (RAB : reachable ab) by (apply (reach_add a b ab (ROk tt)); auto).
  assert (RBC : reachable bc) by (apply (reach_add b c bc (ROk tt)); auto).
  assert (CT3 : h_ctr ab = h_ctr c) by (rewrite (ss_ctr _ _ S1); congruence).
  assert (CT4 : h_ctr a = h_ctr bc) by (rewrite (ss_ctr _ _ S3); congruence).
  assert (SP3 : same_precision ab c) by (apply (same_precision_shape a); auto; eapply same_precision_trans; eauto).
  assert (SP4 : same_precision a bc). { apply same_precision_sym, (same_precision_shape b); auto. apply same_precision_sym; auto. }
  destruct (add_same_counts ab c l W1 WC CT3 SP3 E2) as (W2 & S2 & K2).
  destruct (add_same_counts a bc r WA W3 CT4 SP4 E4) as (W4 & S4 & K4).
  pose proof (C14_add_stats_proof a b ab _ RA RB CT SA SB N1 E1) as X1.
  pose proof (C14_add_stats_proof b c bc _ RB RC CT2 SB SC N2 E3) as X3.
  pose proof (C14_add_stats_proof ab c l _ RAB RC CT3 X1 SC N3 E2) as X2.
  pose proof (C14_add_stats_proof a bc r _ RA RBC CT4 SA X3 N4 E4) as X4.
  apply stats_agree_iff in X2, X4; auto.
  assert (U' : h_um l = h_um r) by (rewrite (ss_um _ _ S2), (ss_um _ _ S1), (ss_um _ _ S4); auto).
  assert (M' : h_half_mag l = h_half_mag r) by (rewrite (ss_m _ _ S2), (ss_m _ _ S1), (ss_m _ _ S4); auto).
  assert (K : forall j, 0 <= j -> zn (h_counts l) j = zn (h_counts r) j).
  { intros j Hj. rewrite K2, K4, K1, K3 by auto. rewrite (ss_ctr _ _ S1), CT2.
    pose proof (zn_nonneg (h_counts a) j (wf_nonneg a WA)). pose proof (zn_nonneg (h_counts b) j (wf_nonneg b WB)).
    pose proof (zn_nonneg (h_counts c) j (wf_nonneg c WC)). rewrite CT, CT2. lia. }
  destruct (same_stats l r W2 W4 U' M' K) as (T & MX & MN).
  split; [apply held_ext; auto|]. split; [apply T; [apply X2|apply X4]|]. split; [apply MX; [apply X2|apply X4]|apply MN; [apply X2|apply X4]].
Qed.
(*EX
(** [b] has to be resized when [c] is added to it, [a] need not *)
Example ex_C15_associative : match build U64 1 10000 1 false [(5, 200); (900, 1)], build U64 1 1000 1 true [(5, 100); (333, 7)], build U64 1 10000 1 false [(9000, 4)] with
  | Some a, Some b, Some c => reachable a /\ reachable b /\ reachable c /\ h_ctr a = h_ctr b /\ h_ctr b = h_ctr c /\
      same_precision a b /\ same_precision b c /\ stats_agree a /\ stats_agree b /\ stats_agree c /\
      no_saturation a (held b) /\ no_saturation b (held c) /\
      match add a b, add b c with
      | Ret (ab, ROk _), Ret (bc, ROk _) => no_saturation ab (held c) /\ no_saturation a (held bc) /\
          match add ab c, add a bc with
          | Ret (l, ROk _), Ret (r, ROk _) => held l = [(5, 300); (320, 7); (896, 1); (8704, 4)] /\ held r = held l /\ len l = 312
          | _, _ => False end
      | _, _ => False end
  | _, _, _ => False end.
Proof. case_of. Qed.
EX*)
(*EX
Example ex_C15 : match build U64 1 1000 1 false [(5, 200); (900, 1)], build U64 1 1000 1 false [(5, 100); (333, 7)] with
  | Some a, Some b => same_precision a b /\
      match add a b, add b a with
      | Ret (ab, ROk _), Ret (ba, ROk _) => held ab = [(5, 300); (320, 7); (896, 1)] /\ held ba = held ab /\
          len ab = 308 /\ max ab = Ret 927 /\ max ba = max ab
      | _, _ => False end
  | _, _ => False end.
Proof. vm_compute. auto 10. Qed.
EX*)

(** ** C16.  When [add] fails *)
Lemma C16_add_fails_iff_proof : forall h s mx, reachable h -> reachable s -> h_ctr h = h_ctr s -> max s = Ret mx ->
  (add h s = Ret (h, RErr OtherAddendValueExceedsRange) <->
   is_auto_resize h = false /\ is_empty s = false /\ (~ covers h mx \/ mx = u64_max)).
Proof.
  intros h s mx R RS CT EM. pose proof (reachable_wf h R) as W. pose proof (reachable_wf s RS) as WS.
  pose proof (w_cfg h W) as C. pose proof (w_size h W) as SZ.
  rewrite max_ok in EM by auto. injection EM as <-. pose proof (maxp_u64 s WS) as MU.
  assert (TV : top_val h < maxp s <-> (~ covers h (maxp s) \/ maxp s = u64_max)).
  { rewrite covers_bin by auto. unfold bin. rewrite idx_in_iff_top by auto. unfold top_val.
    pose proof (top_exp_range h C). pose proof (um_nonneg h C). pose proof (m_nonneg h C).
    pose proof (Z.pow_le_mono_r 2 (top_exp h) 64 ltac:(lia) ltac:(lia)). change (2 ^ 64) with 18446744073709551616 in *.
    unfold u64, u64_max in *. lia. }
  unfold is_auto_resize.
  destruct (add_ok h s W WS CT) as [(Es & A)|[(Es & L & AU & A)|(Es & F & h1 & A & _)]]; rewrite A.
  - split; [discriminate|]. intros (_ & E & _). congruence.
  - rewrite <- TV. tauto.
  - split; [discriminate|]. intros (AU & _ & N). apply TV in N. destruct F as [F|F]; [lia|congruence].
Qed.
(*EX
Example ex_C16_fails : match build U64 1 1000 1 false [(3, 1)], build U64 1 5000 1 false [(4000, 1)], build U64 1 5000 1 false [(999, 1)] with
  | Some h, Some s, Some s2 => reachable h /\ reachable s /\ h_ctr h = h_ctr s /\ is_auto_resize h = false /\ is_empty s = false /\
      max s = Ret 4095 /\ ~ covers h 4095 /\ add h s = Ret (h, RErr OtherAddendValueExceedsRange) /\
      max s2 = Ret 1023 /\ covers h 1023 /\ match add h s2 with Ret (h', ROk _) => len h' = 2 | _ => False end
  | _, _, _ => False end.
Proof. case_of. Qed.
EX*)
(** hence a histogram can be added to one of the same configuration if its maximum is not [u64::MAX] *)
Lemma C16_same_config_proof : forall h s, reachable h -> reachable s -> h_ctr h = h_ctr s ->
  same_config h s -> max s <> Ret u64_max -> exists h', add h s = Ret (h', ROk tt).
Proof.
  intros h s R RS CT [SP DV] NM. pose proof (reachable_wf h R) as W. pose proof (reachable_wf s RS) as WS.
  assert (CV : covers h (maxp s)).
  { apply covers_bin; auto using maxp_u64. rewrite (same_precision_bin h s) by auto.
    unfold distinct_values in DV. rewrite DV. apply maxp_in; auto. }
  pose proof (C16_add_fails_iff_proof h s (maxp s) R RS CT (max_ok s WS)) as F. rewrite max_ok in NM by auto.
  destruct (add_ok h s W WS CT) as [(Es & A)|[(Es & L & AU & A)|(Es & _ & h1 & A & _)]]; eauto.
  apply F in A. destruct A as (_ & _ & [N|N]); [contradiction|]. exfalso. apply NM. congruence.
Qed.
(*EX
Example ex_C16_same_config : match build U64 1 1000 1 false [(5, 1)], build U64 1 1000 1 false [(1000, 1)] with
  | Some h, Some s => reachable h /\ reachable s /\ h_ctr h = h_ctr s /\ same_config h s /\ max s <> Ret u64_max /\
      match add h s with Ret (h', ROk _) => held h' = [(5, 1); (992, 1)] | _ => False end
  | _, _ => False end.
Proof. case_of. Qed.
EX*)
(** and not always: two identical histograms that recorded [u64::MAX] cannot be added *)
Lemma C16_identical_add_fails_refuted_proof : exists h, reachable h /\ is_auto_resize h = false /\
  (exists h1, record h u64_max = Ret (h1, ROk tt) /\ add h1 h1 = Ret (h1, RErr OtherAddendValueExceedsRange)).
Proof.
  destruct (build U64 1 u64_max 1 false []) as [h|] eqn:B; [|vm_compute in B; discriminate].
  pose proof (build_reachable _ _ _ _ _ _ _ B) as R. vm_compute in B. injection B as <-.
  match type of R with reachable ?x => destruct (record x u64_max) as [[h' [[]|]]|] eqn:E; try (vm_compute in E; discriminate) end.
  eexists. split; [exact R|]. split; [reflexivity|]. exists h'. split; [exact E|].
  vm_compute in E. injection E as <-. vm_compute. reflexivity.
Qed.
(*EX
Example ex_C16 : match build U64 1 1000 1 false [], build U64 1 5000 1 false [(4000, 1)] with
  | Some h, Some s => add h s = Ret (h, RErr OtherAddendValueExceedsRange) /\ max s = Ret 4095
  | _, _ => False end.
Proof. vm_compute. auto 10. Qed.
EX*)

(** ** C17.  A successful [subtract] removes, for every value, the samples of the subtrahend that fall in
    its class. *)
Lemma C17_subtract_counts_proof : forall h s h', reachable h -> reachable s -> h_ctr h = h_ctr s ->
  subtract h s = Ret (h', ROk tt) ->
  (forall w c, is_u64 w -> covers h w -> count_at h w = Ret c -> count_at h' w = Ret (c - weight_at h w (held s))) /\
  low h' = low h /\ high h' = high h /\ sigfig h' = sigfig h /\ distinct_values h' = distinct_values h /\
  is_auto_resize h' = is_auto_resize h.
Proof.
  intros h s h' R RS CT E. pose proof (reachable_wf h R) as W. pose proof (reachable_wf s RS) as WS.
  destruct (subtract_ok h s W WS CT) as [(Es & A)|[(_ & _ & A)|[(_ & _ & _ & h1 & A & _)|(Es & _ & _ & h1 & A & SU)]]]; rewrite A in E; inversion E; subst.
  - split; [|repeat split; auto]. intros w c V CV EC. rewrite (empty_held s WS Es). cbn [weight_at]. rewrite EC. f_equal. lia.
  - destruct SU as [S1 S2 S3 S4 S5 S6 S7]. split.
    + intros w c V CV EC. apply covers_bin in CV; auto. rewrite count_at_ok in EC by auto. injection EC as <-.
      rewrite count_at_ok by auto. rewrite !cbin_in by (rewrite ?(same_shape_bin h h') by auto; lia).
      rewrite (same_shape_bin h h') by auto. rewrite S5 by (apply bin_nonneg; [apply w_cfg; auto|apply V]).
      rewrite held_weight by auto. reflexivity.
    + split; [apply S2|]. split; [exact S3|]. split; [apply S2|]. split; [exact S4|apply S2].
Qed.
(*EX
Example ex_C17_counts : match build U64 1 1000 1 false [(5, 200); (900, 4)], build U64 1 1000 2 false [(5, 100); (897, 1); (905, 2)] with
  | Some h, Some s => reachable h /\ reachable s /\ h_ctr h = h_ctr s /\ covers h 900 /\ count_at h 900 = Ret 4 /\
      weight_at h 900 (held s) = 3 /\
      match subtract h s with Ret (h', ROk _) => count_at h' 900 = Ret 1 /\ count_at h' 5 = Ret 100 /\ len h' = 101 | _ => False end
  | _, _ => False end.
Proof. case_of. Qed.
EX*)
(** when it succeeds *)
Lemma C17_subtract_success_iff_proof : forall h s mx, reachable h -> reachable s -> h_ctr h = h_ctr s ->
  is_empty s = false -> max s = Ret mx ->
  ((exists h', subtract h s = Ret (h', ROk tt)) <->
   covers h mx /\ mx <> u64_max /\
   (forall w c, is_u64 w -> covers h w -> count_at h w = Ret c -> weight_at h w (held s) <= c)).
Proof.
  intros h s mx R RS CT NE EM. pose proof (reachable_wf h R) as W. pose proof (reachable_wf s RS) as WS.
  pose proof (w_cfg h W) as C. pose proof (w_size h W) as SZ.
  rewrite max_ok in EM by auto. injection EM as <-. pose proof (maxp_u64 s WS) as MU.
  assert (TV : higheq h (maxp s) <= top_val h <-> (covers h (maxp s) /\ maxp s <> u64_max)).
  { rewrite covers_bin by auto. pose proof (higheq_range h C (maxp s) MU) as HR. pose proof (top_exp_range h C).
    pose proof (um_nonneg h C). pose proof (m_nonneg h C).
    pose proof (Z.pow_le_mono_r 2 (top_exp h) 64 ltac:(lia) ltac:(lia)). change (2 ^ 64) with 18446744073709551616 in *.
    unfold bin. rewrite <- (idx_higheq h C (maxp s)) by auto. rewrite idx_in_iff_top by (auto; apply higheq_u64; auto).
    assert (higheq h (maxp s) = u64_max <-> maxp s = u64_max).
    { unfold higheq. destruct (Z.eqb_spec (maxp s) u64_max); [tauto|]. pose proof (nexteq_pos h C (maxp s) MU). split; lia. }
    unfold top_val, u64, u64_max in *. lia. }
  destruct (subtract_ok h s W WS CT) as [(Es & A)|[(_ & L & A)|[(_ & L & (j & Hj & LT) & h1 & A & _)|(Es & L & GE & h1 & A & SU)]]]; rewrite A.
  - congruence.
  - split; [intros (h' & E); discriminate|]. intros (X & Y & _). exfalso. pose proof (proj2 TV (conj X Y)). lia.
  - split; [intros (h' & E); discriminate|]. intros (X & Y & F). exfalso.
    assert (JI : j < zlen (h_counts h)).
    { destruct (Z_lt_le_dec j (zlen (h_counts h))); auto. exfalso.
      rewrite wsum_zero in LT; [rewrite zn_out in LT by lia; lia|]. intros v n I.
      destruct (contents_in s v n WS I) as (i & _ & _ & _ & _ & _ & LE & VU).
      apply covers_bin in X; auto. pose proof (bin_mono h v (maxp s) C ltac:(destruct VU; lia)). lia. }
    assert (BU : u64 (bval h j)) by (apply bval_u64; auto).
    specialize (F (bval h j) _ BU ltac:(apply covers_bin; auto; rewrite bin_bval; auto) (count_at_ok h _ W BU)).
    rewrite held_weight in F by auto. rewrite cbin_in in F by (rewrite bin_bval; auto). rewrite bin_bval in F by auto. lia.
  - split; [|eauto]. intros _. split; [tauto|]. split; [tauto|]. intros w c V CV EC. apply covers_bin in CV; auto.
    rewrite count_at_ok in EC by auto. injection EC as <-. rewrite cbin_in by auto. rewrite held_weight by auto.
    apply GE. apply bin_nonneg; auto. apply V.
Qed.
(*EX
Example ex_C17_success : match build U64 1 1000 1 false [(5, 200); (900, 1)], build U64 1 1000 1 false [(5, 100)], build U64 1 1000 1 false [(5, 100); (7, 1)] with
  | Some h, Some s, Some s2 => reachable h /\ reachable s /\ h_ctr h = h_ctr s /\ is_empty s = false /\ max s = Ret 5 /\ covers h 5 /\
      match subtract h s with Ret (h', ROk _) => len h' = 101 | _ => False end /\
      count_at h 7 = Ret 0 /\ weight_at h 7 (held s2) = 1 /\ match subtract h s2 with Ret (h', RErr _) => True | _ => False end
  | _, _, _ => False end.
Proof. case_of. Qed.
EX*)
(** subtracting what was added gives back every count and [len] *)
Lemma C17_undo_proof : forall h s h1, reachable h -> reachable s -> h_ctr h = h_ctr s ->
  stats_agree h -> stats_agree s -> no_saturation h (held s) -> max s <> Ret u64_max ->
  add h s = Ret (h1, ROk tt) ->
  exists h2, subtract h1 s = Ret (h2, ROk tt) /\ held h2 = held h /\ len h2 = len h /\ same_max h2 h /\
    (forall w c, is_u64 w -> covers h w -> count_at h w = Ret c -> count_at h2 w = Ret c).
Proof.
  intros h s h1 R RS CT SH SS NS NM E. pose proof (reachable_wf h R) as W. pose proof (reachable_wf s RS) as WS.
  assert (R1 : reachable h1) by (apply (reach_add h s h1 (ROk tt)); auto). pose proof (reachable_wf h1 R1) as W1.
  pose proof (w_cfg h1 W1) as C1. pose proof (w_cfg h W) as C.
  pose proof (C14_add_stats_proof h s h1 _ R RS CT SH SS NS E) as S1. pose proof SH as SH'.
  apply stats_agree_iff in S1, SH, SS; auto. rewrite max_ok in NM by auto.
  destruct (add_success h s h1 W WS CT E) as [(EM & ->)|(EM & AD & FIT)].
  - exists h. unfold subtract. rewrite EM. split; auto. split; auto. split; auto.
    split; [|auto]. apply (same_stats h h); auto; apply SH.
  - pose proof AD as [A1 A2 A3 A4 A5 A6].
    assert (U : unsaturated h (contents s)).
    { apply no_saturation_iff; auto using contents_u64. rewrite held_contents in NS by auto. auto. }
    destruct U as [U1 U2].
    assert (BE : forall v, bin h1 v = bin h v) by (intros; apply same_shape_bin; auto).
    assert (K : forall j, 0 <= j -> zn (h_counts h1) j = zn (h_counts h) j + wsum (bin h1) j (contents s)).
    { intros j Hj. rewrite A3 by auto. specialize (U1 j Hj). rewrite (wsum_ext (bin h1) (bin h)) by (intros; apply BE). lia. }
    assert (EX : exists h2, subtract h1 s = Ret (h2, ROk tt)).
    { apply (C17_subtract_success_iff_proof h1 s (maxp s)); auto; [rewrite (ss_ctr _ _ A2); auto|apply max_ok; auto|].
      split; [apply covers_bin; auto using maxp_u64; rewrite BE; auto|]. split; [congruence|].
      intros w c V CV EC. apply covers_bin in CV; auto. rewrite count_at_ok in EC by auto. injection EC as <-.
      rewrite cbin_in by auto. rewrite held_weight by auto. rewrite K by (apply bin_nonneg; auto; apply V).
      pose proof (zn_nonneg (h_counts h) (bin h1 w) (wf_nonneg h W)). lia. }
    destruct EX as (h2 & E2). exists h2. split; auto.
    assert (CT1 : h_ctr h1 = h_ctr s) by (rewrite (ss_ctr _ _ A2); auto).
    destruct (subtract_ok h1 s W1 WS CT1) as [(Es & A)|[(_ & _ & A)|[(_ & _ & _ & hx & A & _)|(Es & _ & _ & hx & A & SU)]]]; rewrite A in E2; inversion E2; [congruence|]; subst hx.
    pose proof (subtracted_exact h1 s h2 W1 WS SU S1) as (T2 & X2 & _).
    pose proof SU as [B1 B2 B3 B4 B5 B6 B7].
    assert (K2 : forall j, 0 <= j -> zn (h_counts h2) j = zn (h_counts h) j) by (intros j Hj; rewrite B5, K by auto; lia).
    assert (U' : h_um h2 = h_um h) by (rewrite (ss_um _ _ B2); apply A2).
    assert (M' : h_half_mag h2 = h_half_mag h) by (rewrite (ss_m _ _ B2); apply A2).
    destruct (same_stats h2 h B1 W U' M' K2) as (T & MX & MN).
    split; [apply held_ext; auto|]. split; [apply T; auto; apply SH|]. split; [apply MX; auto; apply SH|].
    intros w c V CV EC. apply covers_bin in CV; auto. rewrite count_at_ok in EC by auto. injection EC as <-.
    rewrite count_at_ok by auto. assert (BE2 : bin h2 w = bin h w) by (rewrite (same_shape_bin h1 h2) by auto; auto).
    rewrite !cbin_in by lia. rewrite BE2, K2; auto. apply bin_nonneg; auto. apply V.
Qed.
(*EX
Example ex_C17_undo : match build U64 1 1000 1 false [(5, 200); (900, 1)], build U64 2 1000 2 false [(5, 100); (444, 2)] with
  | Some h, Some s => reachable h /\ reachable s /\ h_ctr h = h_ctr s /\ stats_agree h /\ stats_agree s /\ no_saturation h (held s) /\
      max s <> Ret u64_max /\
      match add h s with
      | Ret (h1, ROk _) => match subtract h1 s with
          | Ret (h2, ROk _) => held h1 = [(4, 100); (5, 200); (432, 2); (896, 1)] /\ held h2 = held h /\ len h2 = 201 /\ max h2 = max h
          | _ => False end
      | _ => False end
  | _, _ => False end.
Proof. case_of. Qed.
EX*)
(** statistics after a successful subtract: [len] and [max] agree again, and [min_nz] if nothing
    equivalent to 0 was held *)
Lemma C17_subtract_stats_proof : forall h s h', reachable h -> reachable s -> h_ctr h = h_ctr s ->
  stats_agree h -> subtract h s = Ret (h', ROk tt) ->
  len_agrees h' /\ max_agrees h' /\ (count_at h 0 = Ret 0 -> min_agrees h').
Proof.
  intros h s h' R RS CT SH E. pose proof (reachable_wf h R) as W. pose proof (reachable_wf s RS) as WS. pose proof SH as [Q1 [Q2 Q3]].
  apply stats_agree_iff in SH; auto.
  destruct (subtract_ok h s W WS CT) as [(Es & A)|[(_ & _ & A)|[(_ & _ & _ & h1 & A & _)|(Es & _ & _ & h1 & A & SU)]]]; rewrite A in E; inversion E; subst; auto.
  pose proof (subtracted_exact h s h' W WS SU SH) as (T2 & X2 & N2). pose proof (su_wf _ _ _ SU) as W'.
  rewrite len_agrees_iff, max_agrees_iff, min_agrees_iff by auto. split; auto. split; auto. intros Z0.
  apply N2. rewrite count_at_ok in Z0 by (auto using u64_0). injection Z0 as Z0.
  pose proof (len_pos h (w_cfg h W) (w_size h W)).
  rewrite cbin_in in Z0 by (rewrite bin_0 by (apply w_cfg; auto); lia). rewrite bin_0 in Z0 by (apply w_cfg; auto). exact Z0.
Qed.
(*EX
Example ex_C17_stats : match build U64 1 1000 1 false [(5, 2); (40, 3); (900, 1)], build U64 1 1000 1 false [(5, 2); (900, 1)] with
  | Some h, Some s => reachable h /\ reachable s /\ h_ctr h = h_ctr s /\ stats_agree h /\ count_at h 0 = Ret 0 /\
      match subtract h s with Ret (h', ROk _) => held h' = [(40, 3)] /\ max h' = Ret 41 /\ min_nz h' = Ret 40 /\ len h' = 3 | _ => False end
  | _, _ => False end.
Proof. case_of. Qed.
EX*)
(*EX
Example ex_C17 : match build U64 1 1000 1 false [(5, 200); (900, 1)], build U64 1 1000 1 false [(5, 100)] with
  | Some h, Some s =>
      match add h s with
      | Ret (h1, ROk _) => match subtract h1 s with
          | Ret (h2, ROk _) => count_at h1 5 = Ret 300 /\ count_at h2 5 = Ret 200 /\ len h2 = 201 /\ hist_eq h2 h = Ret true
          | _ => False end
      | _ => False end
  | _, _ => False end.
Proof. vm_compute. auto 10. Qed.
EX*)

(** ** C18.  A failing [subtract] *)
Lemma C18_subtract_error_proof : forall h s h' e, reachable h -> reachable s -> h_ctr h = h_ctr s ->
  subtract h s = Ret (h', RErr e) ->
  (e = SubtrahendValueExceedsMinuendRange /\ h' = h) \/
  (e = SubtrahendCountExceedsMinuendCount /\
   low h' = low h /\ high h' = high h /\ sigfig h' = sigfig h /\ distinct_values h' = distinct_values h /\
   is_auto_resize h' = is_auto_resize h /\ len h' <= len h /\
   (exists w c, is_u64 w /\ count_at h w = Ret c /\ c < weight_at h w (held s)) /\
   (forall w c, is_u64 w -> covers h w -> count_at h w = Ret c -> exists c', count_at h' w = Ret c' /\ 0 <= c' <= c)).
Proof.
  intros h s h' e R RS CT E. pose proof (reachable_wf h R) as W. pose proof (reachable_wf s RS) as WS.
  pose proof (w_cfg h W) as C. pose proof (w_size h W) as SZ.
  destruct (subtract_ok h s W WS CT) as [(Es & A)|[(_ & _ & A)|[(_ & L & (j & Hj & LT) & h1 & A & W1 & K & LE & T)|(Es & _ & _ & h1 & A & SU)]]]; rewrite A in E; inversion E; subst; auto.
  right. split; auto. destruct K as [K1 K2 K3 K4 K5].
  split; [apply K1|]. split; [auto|]. split; [apply K1|]. split; [auto|]. split; [apply K1|]. split; [exact T|]. split.
  - pose proof (maxp_u64 s WS) as MU.
    assert (JI : j < zlen (h_counts h)).
    { destruct (Z_lt_le_dec j (zlen (h_counts h))); auto. exfalso.
      rewrite wsum_zero in LT; [rewrite zn_out in LT by lia; lia|]. intros v n I.
      destruct (contents_in s v n WS I) as (i & _ & _ & _ & _ & _ & LEv & VU).
      pose proof (bin_mono h v (maxp s) C ltac:(destruct VU; lia)).
      pose proof (higheq_range h C (maxp s) MU). destruct (top_val_in h C SZ) as [TU TI]. fold (bin h (top_val h)) in TI.
      pose proof (bin_mono h (maxp s) (top_val h) C ltac:(destruct MU; lia)). lia. }
    assert (BU : u64 (bval h j)) by (apply bval_u64; auto).
    exists (bval h j). eexists. split; [exact BU|]. split; [apply count_at_ok; auto|].
    rewrite held_weight by auto. rewrite cbin_in by (rewrite bin_bval; auto). rewrite bin_bval by auto. exact LT.
  - intros w c V CV EC. apply covers_bin in CV; auto. rewrite count_at_ok in EC by auto. injection EC as <-.
    rewrite count_at_ok by auto. eexists. split; [reflexivity|].
    assert (BE : bin h' w = bin h w) by (apply same_shape_bin; auto).
    rewrite !cbin_in by lia. rewrite BE. split; [apply zn_nonneg, wf_nonneg; auto|]. apply LE. apply bin_nonneg; auto. apply V.
Qed.
(*EX
Example ex_C18 : match build U64 1 1000 1 false [(5, 3); (7, 1); (900, 1)], build U64 1 1000 1 false [(5, 2); (7, 4); (900, 1)], build U64 1 5000 1 false [(5, 2); (4000, 1)] with
  | Some h, Some s, Some s2 => reachable h /\ reachable s /\ h_ctr h = h_ctr s /\
      match subtract h s with
      | Ret (h', RErr e) => e = SubtrahendCountExceedsMinuendCount /\ held h' = [(5, 1); (7, 1); (896, 1)] /\
          count_at h 7 = Ret 1 /\ weight_at h 7 (held s) = 4
      | _ => False end /\
      subtract h s2 = Ret (h, RErr SubtrahendValueExceedsMinuendRange)
  | _, _, _ => False end.
Proof. case_of. Qed.
EX*)
(** it never panics *)
Lemma C18_subtract_total_proof : forall h s, reachable h -> reachable s -> h_ctr h = h_ctr s -> subtract h s <> Panic.
Proof.
  intros h s R RS CT. pose proof (reachable_wf h R) as W. pose proof (reachable_wf s RS) as WS.
  destruct (subtract_ok h s W WS CT) as [(Es & A)|[(_ & _ & A)|[(_ & _ & _ & h1 & A & _)|(Es & _ & _ & h1 & A & SU)]]]; rewrite A; discriminate.
Qed.
(*EX
Example ex_C18_total : match build U64 1 1000 1 false [(5, 3)], build U64 1 5000 2 false [(5, 2); (4000, 1)] with
  | Some h, Some s => reachable h /\ reachable s /\ h_ctr h = h_ctr s /\ match subtract h s with Ret (h', RErr e) => e = SubtrahendValueExceedsMinuendRange | _ => False end
  | _, _ => False end.
Proof. case_of. Qed.
EX*)
(** it can be half done: the count of 5 is already reduced when 900 fails, and [len] is stale *)
Lemma C18_partial_effect_refuted_proof : exists h s h', reachable h /\ reachable s /\ h_ctr h = h_ctr s /\
  subtract h s = Ret (h', RErr SubtrahendCountExceedsMinuendCount) /\
  count_at h 5 = Ret 3 /\ count_at h' 5 = Ret 1 /\ len h = 4 /\ len h' = 4.
Proof.
  destruct (build U64 1 1000 1 false [(5, 3); (900, 1)]) as [h|] eqn:B; [|vm_compute in B; discriminate].
  destruct (build U64 1 1000 1 false [(5, 2); (900, 2)]) as [s|] eqn:B2; [|vm_compute in B2; discriminate].
  pose proof (build_reachable _ _ _ _ _ _ _ B) as R. vm_compute in B. injection B as <-.
  pose proof (build_reachable _ _ _ _ _ _ _ B2) as R2. vm_compute in B2. injection B2 as <-.
  match type of R with reachable ?x => match type of R2 with reachable ?y =>
    destruct (subtract x y) as [[h' [|e]]|] eqn:E; try (vm_compute in E; discriminate) end end.
  do 2 eexists. exists h'. split; [exact R|]. split; [exact R2|]. split; [reflexivity|].
  assert (e = SubtrahendCountExceedsMinuendCount) by (vm_compute in E; congruence). subst e. split; [exact E|].
  vm_compute in E. injection E as <-. vm_compute. auto.
Qed.

(** ** C52.  After a subtract [min_nz] can be stale: samples equivalent to 0 hide the old minimum. *)
Lemma C52_stale_min_nz_refuted_proof : exists h s h', reachable h /\ reachable s /\ h_ctr h = h_ctr s /\
  stats_agree h /\ stats_agree s /\ subtract h s = Ret (h', ROk tt) /\
  held h' = [(0, 1); (9, 1)] /\ min_nz h' = Ret 5.
Proof.
  destruct (build U64 1 1000 1 false [(0, 1); (5, 1); (9, 1)]) as [h|] eqn:B; [|vm_compute in B; discriminate].
  destruct (build U64 1 1000 1 false [(5, 1)]) as [s|] eqn:B2; [|vm_compute in B2; discriminate].
  pose proof (build_reachable _ _ _ _ _ _ _ B) as R. vm_compute in B. injection B as <-.
  pose proof (build_reachable _ _ _ _ _ _ _ B2) as R2. vm_compute in B2. injection B2 as <-.
  match type of R with reachable ?x => match type of R2 with reachable ?y =>
    destruct (subtract x y) as [[h' [[]|e]]|] eqn:E; try (vm_compute in E; discriminate) end end.
  do 2 eexists. exists h'. split; [exact R|]. split; [exact R2|]. split; [reflexivity|].
  split; [|split; [|split; [exact E|]]].
  - apply stats_agree_iff; [apply reachable_wf; auto|]. split; [reflexivity|right; vm_compute; discriminate|right; vm_compute; discriminate].
  - apply stats_agree_iff; [apply reachable_wf; auto|]. split; [reflexivity|right; vm_compute; discriminate|right; vm_compute; discriminate].
  - vm_compute in E. injection E as <-. vm_compute. auto.
Qed.
(** so subtracting what was added does not always give an equal histogram *)
Lemma C52_undo_not_equal_refuted_proof : exists h s h1 h2, reachable h /\ reachable s /\ h_ctr h = h_ctr s /\
  add h s = Ret (h1, ROk tt) /\ subtract h1 s = Ret (h2, ROk tt) /\ hist_eq h2 h = Ret false.
Proof.
  destruct (build U64 1 1000 1 false [(0, 1); (9, 1)]) as [h|] eqn:B; [|vm_compute in B; discriminate].
  destruct (build U64 1 1000 1 false [(5, 1)]) as [s|] eqn:B2; [|vm_compute in B2; discriminate].
  pose proof (build_reachable _ _ _ _ _ _ _ B) as R. vm_compute in B. injection B as <-.
  pose proof (build_reachable _ _ _ _ _ _ _ B2) as R2. vm_compute in B2. injection B2 as <-.
  match type of R with reachable ?x => match type of R2 with reachable ?y =>
    destruct (add x y) as [[h1 [[]|e]]|] eqn:E; try (vm_compute in E; discriminate);
    destruct (subtract h1 y) as [[h2 [[]|e]]|] eqn:E2; try (vm_compute in E; injection E as <-; vm_compute in E2; discriminate)
    end end.
  do 2 eexists. exists h1, h2. split; [exact R|]. split; [exact R2|]. split; [reflexivity|]. split; [exact E|]. split; [exact E2|].
  vm_compute in E. injection E as <-. vm_compute in E2. injection E2 as <-. vm_compute. reflexivity.
Qed.

(** ** C19.  Copies *)
Lemma C19_new_from_proof : forall T h, reachable h -> exists h', new_from T h = Ret h' /\
  h_ctr h' = T /\ low h' = low h /\ high h' = high h /\ sigfig h' = sigfig h /\
  distinct_values h' = distinct_values h /\ is_auto_resize h' = is_auto_resize h /\
  held h' = [] /\ len h' = 0 /\ max h' = Ret 0 /\ min_nz h' = Ret u64_max.
Proof.
  intros T h R. pose proof (reachable_wf h R) as W. pose proof (w_cfg h W) as C. pose proof (w_size h W) as SZ.
  rewrite new_from_ok by auto. eexists. split; [reflexivity|].
  pose proof (new_from_wf T h C SZ) as WN.
  do 3 (split; [reflexivity|]). split; [reflexivity|]. split; [apply (fresh_self_len T h C SZ)|]. split; [reflexivity|].
  split; [|repeat split; reflexivity].
  apply held_nil; [apply WN|]. intros i Hi. apply fresh_zero. auto.
Qed.
(*EX
Example ex_C19_new_from : match build U64 3 1000 2 true [(5000, 2)] with
  | Some h => reachable h /\ match new_from U16 h with Ret h' => h_ctr h' = U16 /\ high h' = high h /\ distinct_values h' = 768 /\ len h' = 0 | _ => False end
  | _ => False end.
Proof. case_of. Qed.
EX*)
(** [set_to] gives the destination the samples of the source *)
Lemma reset_held h : wf h -> held (reset h) = [].
Proof.
  intros W. apply held_nil; [apply reset_wf; auto|]. intros i Hi. rewrite reset_eq by (apply w_cfg; auto). hsimp. apply zn_map0.
Qed.
Lemma reset_ctr h : h_ctr (reset h) = h_ctr h. Proof. reflexivity. Qed.
Lemma reset_zero h i : wf h -> zn (h_counts (reset h)) i = 0.
Proof. intros W. rewrite reset_eq by (apply w_cfg; auto). hsimp. apply zn_map0. Qed.

Lemma C19_set_to_proof : forall h s h', reachable h -> reachable s -> h_ctr h = h_ctr s ->
  set_to h s = Ret (h', ROk tt) ->
  (forall w, is_u64 w -> covers h' w -> count_at h' w = Ret (Z.min (cmax (h_ctr h)) (weight_at h w (held s)))) /\
  (len_agrees s -> len h' = len s) /\
  (same_precision h s -> held h' = held s) /\
  (stats_agree s -> no_saturation (reset h) (held s) -> stats_agree h').
Proof.
  intros h s h' R RS CT E. unfold set_to in E. pose proof (reachable_wf h R) as W. pose proof (reachable_wf s RS) as WS.
  assert (RR : reachable (reset h)) by (apply reach_reset; auto). pose proof (reachable_wf _ RR) as WR.
  assert (RH : reachable h') by (apply (reach_add (reset h) s h' (ROk tt)); auto). pose proof (reachable_wf _ RH) as WH.
  destruct (C14_add_counts_proof (reset h) s h' RR RS CT E) as (K1 & K2 & _).
  split; [|split; [|split]].
  - intros w V CV. replace (weight_at h w (held s)) with (weight_at (reset h) w (held s)) by (rewrite !held_weight by auto; reflexivity).
    destruct (Z_lt_le_dec (bin (reset h) w) (zlen (h_counts (reset h)))) as [L|L].
    + rewrite (K1 w 0 V).
      * reflexivity.
      * apply covers_bin; auto.
      * rewrite count_at_ok by auto. f_equal. apply reset_zero; auto.
    + apply K2; auto. rewrite covers_bin by auto. lia.
  - intros LA. pose proof (wf_total_nonneg s WS).
    rewrite (C14_add_len_proof (reset h) s h' RR RS CT LA E). unfold len. change (h_total (reset h)) with 0. lia.
  - intros SP. destruct (add_same_counts (reset h) s h' WR WS CT SP E) as (_ & SS & K).
    destruct (same_precision_cfg h s W WS SP) as [U M].
    apply held_ext; auto.
    + rewrite (ss_um _ _ SS). exact U. + rewrite (ss_m _ _ SS). exact M.
    + intros j Hj. rewrite K by auto. rewrite reset_zero by auto. pose proof (zn_le_cmax s j WS). rewrite reset_ctr, CT. lia.
  - intros SA NS. apply (C14_add_stats_proof (reset h) s h' (ROk tt)); auto.
    apply stats_agree_iff; auto. apply reset_exact; auto.
Qed.
(*EX
Example ex_C19_set_to : match build U64 1 1000 1 true [(7, 2)], build U64 1 9000 1 false [(5, 100); (8000, 3)] with
  | Some h, Some s => reachable h /\ reachable s /\ h_ctr h = h_ctr s /\ len_agrees s /\ same_precision h s /\ stats_agree s /\ no_saturation (reset h) (held s) /\
      match set_to h s with Ret (h', ROk _) => held h' = [(5, 100); (7936, 3)] /\ len h' = 103 /\ max h' = Ret 8191 | _ => False end
  | _, _ => False end.
Proof. case_of. Qed.
EX*)
(** and with the same configuration a non-empty source is copied exactly *)
Lemma C19_set_to_equal_proof : forall h s, reachable h -> reachable s -> h_ctr h = h_ctr s ->
  same_config h s -> is_empty s = false -> max s <> Ret u64_max ->
  exists h', set_to h s = Ret (h', ROk tt) /\ hist_eq h' s = Ret true /\ max h' = max s /\ min_nz h' = min_nz s /\ min h' = min s.
Proof.
  intros h s R RS CT [SP DV] NE NM. pose proof (reachable_wf h R) as W. pose proof (reachable_wf s RS) as WS.
  assert (RR : reachable (reset h)) by (apply reach_reset; auto). pose proof (reachable_wf _ RR) as WR.
  assert (DR : distinct_values (reset h) = distinct_values s).
  { unfold distinct_values, reset, reset_min, reset_max, clear in *. hsimp. rewrite zlen_map. exact DV. }
  destruct (C16_same_config_proof (reset h) s RR RS CT (conj SP DR) NM) as (h' & E).
  exists h'. unfold set_to. split; auto. pose proof (add_wf (reset h) s h' _ WR WS CT E) as WH.
  destruct (same_precision_cfg h s W WS SP) as [U M].
  destruct (add_ok (reset h) s WR WS CT) as [(Es & A)|[(_ & L & _ & A)|(Es & _ & h1 & A & AD & h0 & AB & H0)]]; rewrite A in E; inversion E; subst; [congruence|].
  assert (MP : matching (reset h) s = true).
  { unfold matching. pose proof (w_cfg h W) as C. pose proof (w_cfg s WS) as CS. pose proof (w_size h W) as SZ. pose proof (w_size s WS) as SZS.
    change (h_bucket_count (reset h)) with (h_bucket_count h). change (h_sub_bucket_count (reset h)) with (h_sub_bucket_count h).
    change (h_um (reset h)) with (h_um h). rewrite U, Z.eqb_refl, (c_sbc h C), (c_sbc s CS), M, Z.eqb_refl, !andb_true_r.
    unfold distinct_values in DV. rewrite (s_len h SZ), (s_len s SZS), U, M in DV. rewrite (s_bc h SZ), (s_bc s SZS), U, M.
    pose proof (half_range s CS). apply Z.eqb_eq. nia. }
  assert (H0' : h0 = reset h).
  { destruct H0 as [[_ ->]|[L _]]; auto. exfalso.
    assert (CV : covers (reset h) (maxp s)).
    { apply covers_bin; auto using maxp_u64. rewrite (same_precision_bin (reset h) s) by auto.
      unfold distinct_values in DR. rewrite DR. apply maxp_in; auto. }
    rewrite max_ok in NM by auto. apply covers_bin in CV; auto using maxp_u64. unfold bin in CV.
    rewrite idx_in_iff_top in CV by (auto using w_cfg, w_size, maxp_u64). pose proof (maxp_u64 s WS).
    assert (maxp s <> u64_max) by congruence. unfold top_val, u64, u64_max in *. lia. }
  subst h0. unfold add_body in AB. fold (matching (reset h) s) in AB. rewrite MP in AB. change (is_empty (reset h)) with true in AB.
  cbn [andb] in AB. rewrite assert_true in AB by (rewrite DR; apply Z.eqb_refl). cbn [bind] in AB. injection AB as <-.
  match goal with |- context [hist_eq ?x s] => set (h' := x) in * end.
  assert (E1 : maxp h' = maxp s). { unfold maxp, h'; hsimp. destruct (_ =? 0); auto. unfold higheq, nexteq. hsimp.
     change (h_um (reset h)) with (h_um h). change (h_half_mag (reset h)) with (h_half_mag h). rewrite U, M. reflexivity. }
  assert (E2 : minp h' = minp s). { unfold minp, h'; hsimp. destruct (_ =? u64_max); auto.
     change (h_um (reset h)) with (h_um h). change (h_half_mag (reset h)) with (h_half_mag h). rewrite U, M. reflexivity. }
  rewrite !max_ok, !min_nz_ok, !min_ok by auto. rewrite E1, E2. split; [|split; auto; split; auto; unfold h'; hsimp; reflexivity].
  destruct (hist_eq_ok h' s WH WS) as (r & -> & HR). f_equal. apply HR. unfold h'; hsimp.
  destruct SP as [SP1 SP2].
  split; [exact SP1|]. split; [exact SP2|]. split; [reflexivity|]. split; [exact E1|]. split; [exact E2|]. split; [lia|auto].
Qed.
(*EX
Example ex_C19_set_to_equal : match build U64 1 1000 1 false [(7, 2)], build U64 1 1000 1 false [(5, 100); (800, 3)] with
  | Some h, Some s => reachable h /\ reachable s /\ h_ctr h = h_ctr s /\ same_config h s /\ is_empty s = false /\ max s <> Ret u64_max /\
      match set_to h s with
      | Ret (h', ROk _) => held h' = [(5, 100); (800, 3)] /\ hist_eq h' s = Ret true /\ max h' = max s
      | _ => False end
  | _, _ => False end.
Proof. case_of. Qed.
EX*)
(*EX
Example ex_C19 : match build U64 1 1000 1 false [(7, 2)], build U64 1 1000 1 false [(5, 100); (800, 3)] with
  | Some h, Some s => same_config h s /\
      match set_to h s with
      | Ret (h', ROk _) => held h' = [(5, 100); (800, 3)] /\ hist_eq h' s = Ret true
      | _ => False end
  | _, _ => False end.
Proof. vm_compute. auto 10. Qed.
EX*)

(** ** C20.  [reset] and [clear] *)
Lemma clear_held h : wf h -> held (clear h) = [].
Proof. intros W. apply held_nil; [apply clear_wf; auto|]. intros i Hi. unfold clear. hsimp. apply zn_map0. Qed.

Lemma C20_reset_proof : forall h, reachable h ->
  held (reset h) = [] /\ len (reset h) = 0 /\ low (reset h) = low h /\ high (reset h) = high h /\
  sigfig (reset h) = sigfig h /\ distinct_values (reset h) = distinct_values h /\
  is_auto_resize (reset h) = is_auto_resize h /\ min (reset h) = Ret 0 /\ min_nz (reset h) = Ret u64_max /\
  (exists mx, max (reset h) = Ret mx /\ equivalent h 0 mx = Ret true) /\
  (forall v, is_u64 v -> count_at (reset h) v = Ret 0).
Proof.
  intros h R. pose proof (reachable_wf h R) as W. pose proof (w_cfg h W) as C. pose proof (reset_wf h W) as WR.
  split; [apply reset_held; auto|]. split; [reflexivity|]. do 3 (split; [reflexivity|]).
  split; [unfold distinct_values, reset, reset_min, reset_max, clear; hsimp; apply zlen_map|]. split; [reflexivity|].
  split; [rewrite min_ok by auto; reflexivity|]. split; [rewrite min_nz_ok by auto; reflexivity|]. split.
  - exists (maxp (reset h)). split; [apply max_ok; auto|]. rewrite equivalent_bin; auto using u64_0, maxp_u64.
    change (bin h (maxp (reset h))) with (bin (reset h) (maxp (reset h))). rewrite bin_maxp by auto.
    rewrite reset_eq by auto. hsimp. destruct (mask_bin0 h C) as [_ B]. unfold bin in B at 1.
    rewrite bin_0 by auto. f_equal. change (bin (set_min (set_max (clear h) (2 ^ h_um h - 1)) u64_max) (2 ^ h_um h - 1)) with (idx (h_um h) (h_half_mag h) (2 ^ h_um h - 1)). rewrite B. reflexivity.
  - intros v V. rewrite count_at_ok by auto. f_equal. apply reset_zero; auto.
Qed.
(*EX
Example ex_C20_reset : match build U8 1 1000 1 true [(5, 200); (5, 100); (9000, 1)] with
  | Some h => reachable h /\ reachable (reset h) /\ len h = 301 /\ len (reset h) = 0 /\ held (reset h) = [] /\ high (reset h) = 16383 /\ is_auto_resize (reset h) = true /\
      is_u64 5 /\ count_at (reset h) 5 = Ret 0
  | None => False end.
Proof. case_of. Qed.
EX*)
(** recording after [reset] and into a new histogram of the same parameters give the same contents *)
Lemma C20_reset_like_new_proof : forall h n l h1 h2, reachable h -> new_from (h_ctr h) h = Ret n ->
  records (reset h) l h1 -> records n l h2 ->
  held h1 = held h2 /\ len h1 = len h2 /\ min_nz h1 = min_nz h2.
Proof.
  intros h n l h1 h2 R EN R1 R2. pose proof (reachable_wf h R) as W. pose proof (w_cfg h W) as C. pose proof (w_size h W) as SZ.
  rewrite new_from_ok in EN by auto. injection EN as <-. destruct (new_from_wf (h_ctr h) h C SZ) as [WN WN'].
  pose proof (reset_wf h W) as WR.
  apply records_many in R1, R2; auto.
  pose proof (rec_many_all _ _ _ R1) as A1. pose proof (rec_many_all _ _ _ R2) as A2.
  set (n := set_auto (fresh (h_ctr h) (h_low h) (h_high h) (h_sigfig h)) (h_auto h)) in *.
  assert (U : h_um n = h_um h) by (rewrite (c_um n (w_cfg n WN)), (c_um h C); reflexivity).
  assert (M : h_half_mag n = h_half_mag h) by (rewrite (c_m n (w_cfg n WN)), (c_m h C); reflexivity).
  assert (U' : h_um h1 = h_um h2) by (rewrite (ss_um _ _ (ra_shape _ _ _ A1)), (ss_um _ _ (ra_shape _ _ _ A2)), U; reflexivity).
  assert (M' : h_half_mag h1 = h_half_mag h2) by (rewrite (ss_m _ _ (ra_shape _ _ _ A1)), (ss_m _ _ (ra_shape _ _ _ A2)), M; reflexivity).
  split; [|split].
  - apply held_ext; auto; try apply A1; try apply A2. intros j Hj. rewrite (ra_cnt _ _ _ A1), (ra_cnt _ _ _ A2) by auto.
    rewrite reset_zero by auto. unfold n at 2. change (h_counts (set_auto ?x ?y)) with (h_counts x). rewrite fresh_zero by auto.
    f_equal. f_equal. apply wsum_ext. intros. unfold bin. rewrite U, M. reflexivity.
  - unfold len. rewrite (ra_total _ _ _ A1), (ra_total _ _ _ A2). reflexivity.
  - pose proof (um_nonneg h C) as U0. pose proof (pow2_pos (h_um h) U0) as P.
    assert (MI : forall a, wf a -> h_um a = h_um h -> h_min a = u64_max -> forall b, rec_many a l b ->
      h_min b = stat_min (2 ^ h_um h) (smallest_from (2 ^ h_um h) l)).
    { intros a WA UA MA b RA.
      assert (MG : forall l a b m, wf a -> h_um a = h_um h -> 0 <= m <= u64_max -> h_min a = stat_min (2 ^ h_um h) m ->
         rec_many a l b -> h_min b = stat_min (2 ^ h_um h) (Z.min m (smallest_from (2 ^ h_um h) l))).
      { clear - P. intros l a b m WA UA Hm EM RA. revert m Hm EM. induction RA as [a W0|a v n l a1 b V N RD RM IH]; intros m Hm EM.
        - cbn [smallest_from fold_right]. rewrite Z.min_l by lia. auto.
        - assert (W1 : wf a1) by apply RD. assert (U1 : h_um a1 = h_um h) by (rewrite (ss_um _ _ (rd_shape _ _ _ _ RD)); auto).
          destruct V as [V0 V1]. set (u := 2 ^ h_um h) in *.
          rewrite (IH W1 U1 (if u <=? v then Z.min m v else m)).
          + f_equal. cbn [smallest_from fold_right fst]. fold (smallest_from u l). destruct (u <=? v); lia.
          + destruct (u <=? v); lia.
          + rewrite (rd_min _ _ _ _ RD). unfold new_min. rewrite UA. fold u. rewrite EM. unfold stat_min. fold (floor_to u v).
            destruct (Z.leb_spec u v) as [L|L]; [|rewrite andb_false_r; reflexivity]. rewrite andb_true_r.
            destruct (Z.eqb_spec m u64_max) as [M0|M0].
            * destruct (Z.ltb_spec v u64_max); destruct (Z.eqb_spec (Z.min m v) u64_max); try lia.
              rewrite Z.min_r by lia. reflexivity.
            * pose proof (floor_to_le u m P). destruct (Z.ltb_spec v (floor_to u m)); destruct (Z.eqb_spec (Z.min m v) u64_max); try lia.
              -- rewrite Z.min_r by lia. reflexivity.
              -- destruct (Z_le_dec m v); [rewrite Z.min_l by lia; reflexivity|rewrite Z.min_r by lia].
                 unfold floor_to in *. rewrite (div_between u v m); [reflexivity|lia|lia|].
                 unfold ceil_to. pose proof (Z.div_mod m u ltac:(lia)). pose proof (Z.mod_pos_bound m u P).
                 pose proof (Z.div_mod v u ltac:(lia)). pose proof (Z.mod_pos_bound v u P).
                 assert (m / u <= v / u) by (apply Z.div_le_lower_bound; lia). nia. }
      rewrite (MG l a b u64_max) by (auto; unfold u64_max; try lia; reflexivity). f_equal. pose proof (smallest_le (2 ^ h_um h) l). lia. }
    rewrite !min_nz_ok by (apply A1 || apply A2). unfold minp.
    rewrite (MI (reset h) WR eq_refl eq_refl h1 R1), (MI n WN U eq_refl h2 R2), U', M'. reflexivity.
Qed.
(*EX
Example ex_C20_like_new : match build U64 4 1000 1 false [(7, 2); (900, 1)] with
  | Some h => reachable h /\
      match new_from U64 h, run_records (reset h) [(13, 2); (200, 1)] with
      | Ret n, Some h1 => match run_records n [(13, 2); (200, 1)] with
          | Some h2 => records (reset h) [(13, 2); (200, 1)] h1 /\ records n [(13, 2); (200, 1)] h2 /\
              held h1 = [(12, 2); (200, 1)] /\ held h2 = held h1
          | _ => False end
      | _, _ => False end
  | _ => False end.
Proof. case_of. Qed.
EX*)
(** with [low] = 1 the reset histogram is the new one *)
Lemma C20_reset_is_new_proof : forall h, reachable h -> equivalent h 0 1 = Ret false ->
  new_from (h_ctr h) h = Ret (reset h).
Proof.
  intros h R EQ. pose proof (reachable_wf h R) as W. pose proof (w_cfg h W) as C. pose proof (w_size h W) as SZ.
  rewrite new_from_ok by auto. f_equal.
  assert (UM : h_um h = 0).
  { rewrite equivalent_bin in EQ by (auto using u64_0; unfold u64, u64_max; lia). injection EQ as EQ. rewrite bin_0 in EQ by auto.
    pose proof (um_nonneg h C). destruct (Z.eq_dec (h_um h) 0); auto. exfalso.
    rewrite (proj2 (zero_class h 1 C ltac:(lia))) in EQ; [discriminate|].
    pose proof (Z.pow_le_mono_r 2 1 (h_um h) ltac:(lia) ltac:(lia)). lia. }
  pose proof (new_from_wf (h_ctr h) h C SZ) as [WN _]. set (n := set_auto (fresh (h_ctr h) (h_low h) (h_high h) (h_sigfig h)) (h_auto h)) in *.
  pose proof (w_cfg n WN) as CN. pose proof (w_size n WN) as SN.
  assert (U : h_um n = h_um h) by (rewrite (c_um n CN), (c_um h C); reflexivity).
  assert (M : h_half_mag n = h_half_mag h) by (rewrite (c_m n CN), (c_m h C); reflexivity).
  assert (LEN : h_counts n = map (fun _ => 0) (h_counts h)).
  { apply list_ext; [rewrite zlen_map, (s_len n SN), (s_len h SZ), U, M; reflexivity|].
    intros i Hi. rewrite zn_map0. apply fresh_zero; auto. }
  assert (EB : h_bucket_count n = h_bucket_count h) by (rewrite (s_bc n SN), (s_bc h SZ), U, M; reflexivity).
  assert (E1 : h_sub_bucket_count n = h_sub_bucket_count h) by (rewrite (c_sbc n CN), (c_sbc h C), M; reflexivity).
  assert (E2 : h_half_count n = h_half_count h) by (rewrite (c_half n CN), (c_half h C), M; reflexivity).
  assert (E3 : h_mask n = h_mask h) by (rewrite (c_mask n CN), (c_mask h C), U, M; reflexivity).
  assert (E4 : h_lzb n = h_lzb h) by (rewrite (c_lzb n CN), (c_lzb h C), U, M; reflexivity).
  assert (E5 : h_um_mask n = h_um_mask h) by (rewrite (c_umm n CN), (c_umm h C), U; reflexivity).
  rewrite reset_eq by auto. rewrite UM.
  transitivity (mk_hist (h_ctr n) (h_auto n) (h_high n) (h_low n) (h_sigfig n) (h_bucket_count n) (h_sub_bucket_count n)
    (h_half_count n) (h_half_mag n) (h_mask n) (h_lzb n) (h_um n) (h_um_mask n) (h_max n) (h_min n) (h_total n) (h_counts n)); [destruct n; reflexivity|].
  rewrite LEN, EB, E1, E2, E3, E4, E5, U, M. reflexivity.
Qed.
(*EX
Example ex_C20_reset_is_new : match build U8 1 1000 1 false [(5, 200); (900, 1)] with
  | Some h => reachable h /\ equivalent h 0 1 = Ret false /\ new_from (h_ctr h) h = Ret (reset h)
  | None => False end.
Proof. case_of. Qed.
EX*)
(** with a larger [low], [max()] of a reset histogram is not 0 and it differs from a new one *)
Lemma C20_reset_not_equal_new_refuted_proof : exists h n, reachable h /\ new_from (h_ctr h) h = Ret n /\
  max n = Ret 0 /\ max (reset h) = Ret 3 /\ hist_eq (reset h) n = Ret false.
Proof.
  destruct (build U64 4 1000 1 false [(100, 1)]) as [h|] eqn:B; [|vm_compute in B; discriminate].
  pose proof (build_reachable _ _ _ _ _ _ _ B) as R. vm_compute in B. injection B as <-.
  match type of R with reachable ?x => destruct (new_from U64 x) as [n|] eqn:E; try (vm_compute in E; discriminate) end.
  eexists. exists n. split; [exact R|]. split; [exact E|]. vm_compute in E. injection E as <-. vm_compute. auto.
Qed.
(** [clear] removes all counts and keeps the extremes *)
Lemma C20_clear_proof : forall h, reachable h ->
  held (clear h) = [] /\ len (clear h) = 0 /\ low (clear h) = low h /\ high (clear h) = high h /\
  sigfig (clear h) = sigfig h /\ distinct_values (clear h) = distinct_values h /\
  is_auto_resize (clear h) = is_auto_resize h /\ max (clear h) = max h /\ min_nz (clear h) = min_nz h /\ min (clear h) = Ret 0 /\
  (forall v, is_u64 v -> count_at (clear h) v = Ret 0).
Proof.
  intros h R. pose proof (reachable_wf h R) as W. pose proof (clear_wf h W) as WC.
  split; [apply clear_held; auto|]. split; [reflexivity|]. do 3 (split; [reflexivity|]).
  split; [unfold distinct_values, clear; hsimp; apply zlen_map|]. do 3 (split; [reflexivity|]).
  split; [rewrite min_ok by auto; reflexivity|]. intros v V. rewrite count_at_ok by auto. f_equal. unfold clear. hsimp. apply zn_map0.
Qed.
(*EX
Example ex_C20 : match build U64 1 1000 1 false [(7, 2); (900, 1)] with
  | Some h => equivalent h 0 1 = Ret false /\ new_from U64 h = Ret (reset h) /\ max (reset h) = Ret 0 /\
      max (clear h) = Ret 927 /\ len (clear h) = 0
  | _ => False end.
Proof. vm_compute. auto 10. Qed.
EX*)
