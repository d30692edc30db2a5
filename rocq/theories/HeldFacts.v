(** * Facts about what a histogram holds, and the link from the vocabulary of [Spec] to the invariants *)
From Verif Require Import Machine Log2Model HistModel Spec Reach Bins ListZ Log2Facts Cfg Wf Ops AddFacts SubFacts Exact MoreFacts.
From Coq Require Import ZifyBool ZifyNat.

Lemma bins_from_ext f g a : forall b i, 0 <= i -> (forall k, i <= k -> f k = g k) ->
  (forall j, 0 <= j -> zn a j = zn b j) -> bins_from f a i = bins_from g b i.
Proof.
  induction a as [|x a IH]; intros b i Hi FG E.
  - symmetry. apply bins_from_zero. intros k Hk. rewrite <- E by auto. apply zn_nil.
  - destruct b as [|y b].
    + apply bins_from_zero. intros k Hk. rewrite E by auto. apply zn_nil.
    + cbn [bins_from]. pose proof (E 0 ltac:(lia)) as E0. rewrite !zn_cons_0 in E0. subst y.
      rewrite (IH b (i + 1)).
      * rewrite FG by lia. reflexivity.
      * lia.
      * intros. apply FG. lia.
      * intros j Hj. specialize (E (j + 1) ltac:(lia)). rewrite !zn_cons_S in E by lia.
        replace (j + 1 - 1) with j in E by lia. exact E.
Qed.

Lemma contents_ext a b : h_um a = h_um b -> h_half_mag a = h_half_mag b ->
  (forall j, 0 <= j -> zn (h_counts a) j = zn (h_counts b) j) -> contents a = contents b.
Proof.
  intros U M E. unfold contents. apply bins_from_ext; auto; [lia|]. intros. unfold bval. rewrite U, M. reflexivity.
Qed.

Lemma held_ext a b : wf a -> wf b -> h_um a = h_um b -> h_half_mag a = h_half_mag b ->
  (forall j, 0 <= j -> zn (h_counts a) j = zn (h_counts b) j) -> held a = held b.
Proof. intros WA WB U M E. rewrite !held_contents by auto. apply contents_ext; auto. Qed.

Lemma contents_mem h i : wf h -> 0 <= i -> zn (h_counts h) i <> 0 -> In (bval h i, zn (h_counts h) i) (contents h).
Proof.
  intros W. unfold contents. assert (G : forall cs b i, 0 <= i -> zn cs i <> 0 -> In (bval h (b + i), zn cs i) (bins_from (bval h) cs b)).
  { induction cs as [|c cs IH]; intros b j Hj NZ; [rewrite zn_nil in NZ; lia|]. cbn [bins_from].
    destruct (Z.eq_dec j 0) as [->|N0].
    - rewrite zn_cons_0 in *. rewrite Z.add_0_r. destruct (Z.eqb_spec c 0); [lia|]. left. reflexivity.
    - rewrite zn_cons_S in * by lia. specialize (IH (b + 1) (j - 1) ltac:(lia) NZ).
      replace (b + 1 + (j - 1)) with (b + j) in IH by lia. destruct (c =? 0); [|right]; auto. }
  intros Hi NZ. apply (G (h_counts h) 0 i Hi NZ).
Qed.

Lemma contents_u64 h : wf h -> Forall (fun p => u64 (fst p)) (contents h).
Proof.
  intros W. apply Forall_forall. intros [v n] I. destruct (contents_in h v n W I) as (i & _ & _ & _ & _ & _ & _ & U). exact U.
Qed.

Lemma held_weight h s w : wf h -> wf s -> u64 w -> weight_at h w (held s) = wsum (bin h) (bin h w) (contents s).
Proof. intros WH WS V. rewrite held_contents by auto. apply weight_at_wsum; auto. apply contents_u64; auto. Qed.

Lemma held_total h : wf h -> weight (held h) = zsum (h_counts h).
Proof. intros W. rewrite held_contents, weight_wtotal by auto. apply wtotal_contents. Qed.

Lemma held_nil h : wf h -> (held h = [] <-> forall i, 0 <= i -> zn (h_counts h) i = 0).
Proof.
  intros W. rewrite held_contents by auto. split.
  - intros E i Hi. destruct (Z.eq_dec (zn (h_counts h) i) 0); auto.
    pose proof (contents_mem h i W Hi n) as I. rewrite E in I. destruct I.
  - intros Z0. apply bins_from_zero. auto.
Qed.

Lemma held_in h v n : wf h -> In (v, n) (held h) <->
  (0 <= v /\ v = bval h (bin h v) /\ n = zn (h_counts h) (bin h v) /\ n <> 0).
Proof.
  intros W. pose proof (w_cfg h W) as C. rewrite held_contents by auto. split.
  - intros I. destruct (contents_in h v n W I) as (i & I1 & I2 & -> & -> & NZ & _ & U).
    rewrite bin_bval by (auto; lia). split; [apply U|auto].
  - intros (V & E & N & NZ). rewrite E, N. apply contents_mem; auto; [apply bin_nonneg; auto|lia].
Qed.

Lemma held_one h v n : wf h -> In (v, n) (held h) -> u64 v /\ 1 <= n <= cmax (h_ctr h) /\ bin h v < zlen (h_counts h).
Proof.
  intros W I. pose proof (w_cfg h W) as C. rewrite held_contents in I by auto.
  destruct (contents_in h v n W I) as (i & I1 & I2 & -> & -> & NZ & _ & U).
  split; auto. rewrite bin_bval by (auto; lia). split; [|lia].
  pose proof (zn_le_cmax h i W). pose proof (zn_nonneg (h_counts h) i (wf_nonneg h W)). lia.
Qed.

Lemma u64_0 : u64 0. Proof. unfold u64, u64_max; lia. Qed.
Lemma u64_top : u64 u64_max. Proof. unfold u64, u64_max; lia. Qed.
Lemma bin_0 h : cfg_ok h -> bin h 0 = 0.
Proof. intros C. apply zero_class; auto; [lia|]. apply pow2_pos, um_nonneg; auto. Qed.

Lemma len_agrees_iff h : wf h -> (len_agrees h <-> h_total h = zsum (h_counts h)).
Proof. intros W. unfold len_agrees, len. rewrite held_total by auto. tauto. Qed.

Lemma max_agrees_iff h : wf h -> (max_agrees h <-> exact_max h).
Proof.
  intros W. pose proof (w_cfg h W) as C. unfold max_agrees, exact_max.
  pose proof (maxp_u64 h W) as MU. pose proof (bin_maxp h W) as BM. pose proof u64_0 as U0. pose proof (bin_0 h C) as B0.
  assert (BN : 0 <= bin h (h_max h)) by (apply bin_nonneg; auto; apply (w_max h W)).
  split.
  - intros A. destruct (A (maxp h) (max_ok h W)) as [A1 [(A2 & A3)|(v & n & I & A3)]].
    + left. split; [apply held_nil; auto|]. rewrite equivalent_bin in A3 by auto. injection A3 as A3. lia.
    + right. destruct (held_one h v n W I) as (VU & NP & _). apply held_in in I; auto. destruct I as (_ & _ & -> & NZ).
      rewrite equivalent_bin in A3 by auto. injection A3 as A3. replace (bin h (h_max h)) with (bin h v) by lia. auto.
  - intros A mx E. rewrite max_ok in E by auto. injection E as <-. split.
    + intros v n I. rewrite held_contents in I by auto.
      destruct (contents_in h v n W I) as (i & _ & _ & _ & _ & _ & LE & _). exact LE.
    + destruct A as [[A1 A2]|A].
      * left. split; [apply held_nil; auto|]. rewrite equivalent_bin by auto. f_equal. lia.
      * right. exists (bval h (bin h (h_max h))), (zn (h_counts h) (bin h (h_max h))). split.
        { rewrite held_contents by auto. apply contents_mem; auto. }
        rewrite equivalent_bin; auto; [|apply bval_u64; auto using w_size; split; auto; apply (w_max_in h W)].
        rewrite bin_bval by auto. f_equal. lia.
Qed.

Lemma min_agrees_iff h : wf h -> (min_agrees h <-> exact_min h).
Proof.
  intros W. pose proof (w_cfg h W) as C. unfold min_agrees, exact_min.
  pose proof (minp_u64 h W) as MU. pose proof (bin_minp h W) as BM. pose proof u64_0 as U0. pose proof (bin_0 h C) as B0.
  pose proof (h_min_bin_pos h W) as BP.
  split.
  - intros A. destruct (A (minp h) (min_nz_ok h W)) as [A1 [(A2 & A3)|(v & n & I & A3)]].
    + destruct (Z.eq_dec (zn (h_counts h) (bin h (h_min h))) 0) as [Z0|NZ]; [left|right; auto]. split.
      * intros i Hi. destruct (Z.eq_dec (zn (h_counts h) i) 0) as [|NZ]; auto. exfalso.
        pose proof (contents_mem h i W ltac:(lia) NZ) as I. rewrite <- held_contents in I by auto.
        pose proof (A2 _ _ I) as Q. destruct (held_one h _ _ W I) as (VU & _).
        rewrite equivalent_bin in Q by auto. rewrite bin_bval in Q by (auto; lia). injection Q as Q. lia.
      * unfold minp in A3. destruct (Z.eqb_spec (h_min h) u64_max); auto. exfalso.
        pose proof (loweq_le (h_um h) (h_half_mag h) (um_nonneg h C) (h_min h) ltac:(apply (w_min h W))).
        pose proof (w_min h W). unfold u64 in *. lia.
    + right. destruct (held_one h v n W I) as (VU & NP & _). apply held_in in I; auto. destruct I as (_ & _ & -> & NZ).
      rewrite equivalent_bin in A3 by auto. injection A3 as A3. replace (bin h (h_min h)) with (bin h v) by lia. auto.
  - intros A mn E. rewrite min_nz_ok in E by auto. injection E as <-. split.
    + intros v n I NE. destruct (held_one h v n W I) as (VU & NP & _). rewrite equivalent_bin in NE by auto.
      apply held_in in I; auto. destruct I as (_ & EV & -> & NZ).
      injection NE as NE. rewrite B0 in NE. pose proof (bin_nonneg h v C ltac:(apply VU)).
      pose proof (w_min_bot h W (bin h v) ltac:(lia) NZ) as LB. fold (bin h (h_min h)) in LB.
      destruct (Z.eq_dec (bin h (h_min h)) (bin h v)) as [EQ|NQ].
      * right. rewrite equivalent_bin by auto. f_equal. lia.
      * left. rewrite EV. assert (LT : bin h (minp h) < bin h v) by lia.
        apply bin_lt_inv in LT; auto; [lia|apply MU|apply VU].
    + destruct A as [[A1 A2]|A].
      * left. split.
        -- intros v n I. destruct (held_one h v n W I) as (VU & NP & _). rewrite equivalent_bin by auto.
           apply held_in in I; auto. destruct I as (_ & _ & -> & NZ).
           destruct (Z.eq_dec (bin h v) 0) as [->|N0]; [f_equal; lia|].
           pose proof (bin_nonneg h v C ltac:(apply VU)). rewrite A1 in NZ by lia. lia.
        -- unfold minp. rewrite A2. reflexivity.
      * right. assert (IN : bin h (h_min h) < zlen (h_counts h)).
        { destruct (Z_lt_le_dec (bin h (h_min h)) (zlen (h_counts h))); auto. rewrite zn_out in A by lia. lia. }
        exists (bval h (bin h (h_min h))), (zn (h_counts h) (bin h (h_min h))). split.
        { rewrite held_contents by auto. apply contents_mem; auto; lia. }
        rewrite equivalent_bin; auto; [|apply bval_u64; auto using w_size; lia].
        rewrite bin_bval by (auto; lia). f_equal. lia.
Qed.

Lemma stats_agree_iff h : wf h -> (stats_agree h <-> exact h).
Proof.
  intros W. unfold stats_agree. rewrite len_agrees_iff, max_agrees_iff, min_agrees_iff by auto. split.
  - intros (A & B & D). split; auto.
  - intros [A B D]. auto.
Qed.

(** ** No saturation *)
Lemma wsum_zero f j l : (forall v n, In (v, n) l -> f v <> j) -> wsum f j l = 0.
Proof.
  induction l as [|[v n] l IH]; intros N; cbn [wsum]; auto.
  destruct (Z.eqb_spec (f v) j) as [E|E]; [exfalso; apply (N v n); auto; left; reflexivity|].
  rewrite IH; auto. intros. eapply N. right; eauto.
Qed.

Lemma no_saturation_iff h l : wf h -> Forall (fun p => u64 (fst p)) l ->
  (no_saturation h l <-> unsaturated h l).
Proof.
  intros W F. pose proof (w_cfg h W) as C. unfold no_saturation, unsaturated. rewrite weight_wtotal. unfold len. split.
  - intros (A & B & T). split; auto. intros j Hj.
    assert (D : (exists v n, In (v, n) l /\ bin h v = j) \/ wsum (bin h) j l = 0).
    { clear - C. induction l as [|[v n] l IH]; auto. destruct (Z.eq_dec (bin h v) j) as [E|E].
      - left. exists v, n. split; auto. left; reflexivity.
      - destruct IH as [(x & y & I & Q)|IH]; [left; exists x, y; split; auto; right; auto|].
        right. cbn [wsum]. rewrite IH. destruct (Z.eqb_spec (bin h v) j); lia. }
    destruct D as [(v & n & I & <-)|D]; [|rewrite D; pose proof (zn_le_cmax h j W); lia].
    assert (V : u64 v). { rewrite Forall_forall in F. apply (F _ I). }
    destruct (Z_lt_le_dec (bin h v) (zlen (h_counts h))) as [L|L].
    + specialize (A v _ V (proj2 (covers_bin h v W V) L) (count_at_ok h v W V)).
      rewrite weight_at_wsum in A by auto. unfold cbin in A. rewrite Z.min_l in A by lia. exact A.
    + rewrite zn_out by lia. specialize (B v V). rewrite weight_at_wsum in B by auto. lia.
  - intros (A & T). split; [|split; auto].
    + intros v c V CV E. apply covers_bin in CV; auto. rewrite count_at_ok in E by auto. injection E as <-.
      unfold cbin. rewrite (Z.min_l (bin h v)) by lia. rewrite weight_at_wsum by auto.
      apply A. apply bin_nonneg; auto. apply V.
    + intros v V. rewrite weight_at_wsum by auto. specialize (A (bin h v) (bin_nonneg h v C ltac:(apply V))).
      pose proof (zn_nonneg (h_counts h) (bin h v) (wf_nonneg h W)). lia.
Qed.

(** ** Equal contents and statistics that agree give equal statistics *)
Lemma higheq_bin h v w : cfg_ok h -> u64 v -> u64 w -> bin h v = bin h w -> bin h v <> bin h u64_max -> higheq h v = higheq h w.
Proof.
  intros C V V2 E N. unfold higheq, nexteq.
  destruct (Z.eqb_spec v u64_max) as [->|]; [contradiction|].
  destruct (Z.eqb_spec w u64_max) as [->|]; [congruence|].
  pose proof (um_nonneg h C). pose proof (m_nonneg h C).
  rewrite <- !val_idx_succ by (auto; apply V || apply V2). unfold bin in E. rewrite E. reflexivity.
Qed.

Lemma same_stats a b : wf a -> wf b -> h_um a = h_um b -> h_half_mag a = h_half_mag b ->
  (forall j, 0 <= j -> zn (h_counts a) j = zn (h_counts b) j) ->
  (h_total a = zsum (h_counts a) -> h_total b = zsum (h_counts b) -> h_total a = h_total b) /\
  (exact_max a -> exact_max b -> same_max a b) /\ (exact_min a -> exact_min b -> same_min_nz a b).
Proof.
  intros WA WB U M E. pose proof (w_cfg a WA) as CA. pose proof (w_cfg b WB) as CB.
  pose proof (um_nonneg a CA). pose proof (m_nonneg a CA).
  assert (BE : forall v, bin b v = bin a v) by (intros; unfold bin; rewrite U, M; reflexivity).
  pose proof (bin_0 a CA) as B0. pose proof u64_0 as U0. pose proof u64_top as UT.
  split; [intros -> ->; apply zsum_ext; auto|]. split.
  - intros XA XB x y EX EY. rewrite max_ok in EX, EY by auto. injection EX as <-. injection EY as <-.
    pose proof (maxp_u64 a WA) as MA. pose proof (maxp_u64 b WB) as MB.
    assert (BB : bin a (h_max a) = bin a (h_max b)).
    { unfold exact_max in *. rewrite BE in XB.
      destruct XA as [[XA1 XA2]|XA]; destruct XB as [[XB1 XB2]|XB].
      - lia.
      - exfalso. apply XB. rewrite <- E by (apply bin_nonneg; auto; apply (w_max b WB)). apply XA1. apply bin_nonneg; auto. apply (w_max b WB).
      - exfalso. apply XA. rewrite E by (apply bin_nonneg; auto; apply (w_max a WA)). apply XB1. apply bin_nonneg; auto. apply (w_max a WA).
      - pose proof (bin_nonneg a (h_max a) CA ltac:(apply (w_max a WA))).
        pose proof (bin_nonneg a (h_max b) CA ltac:(apply (w_max b WB))).
        rewrite E in XA by auto. rewrite <- E in XB by auto.
        pose proof (w_max_top a WA _ H2 XB) as T1. pose proof (w_max_top b WB _ H1 XA) as T2.
        fold (bin a (h_max a)) in T1. fold (bin b (h_max b)) in T2. rewrite BE in T2. lia. }
    rewrite equivalent_bin by auto. pose proof (bin_maxp a WA) as PA. pose proof (bin_maxp b WB) as PB. rewrite !BE in PB.
    split; [f_equal; lia|]. intros NZ NT. rewrite equivalent_bin in NZ, NT by auto. injection NZ as NZ. injection NT as NT.
    unfold maxp. destruct (Z.eqb_spec (h_max a) 0) as [Z1|Z1]; [rewrite Z1 in *; lia|].
    destruct (Z.eqb_spec (h_max b) 0) as [Z2|Z2]; [rewrite Z2 in *; lia|].
    transitivity (higheq a (h_max b)); [apply higheq_bin; auto; try lia; [apply (w_max a WA)|apply (w_max b WB)]|].
    unfold higheq, nexteq. rewrite U, M. reflexivity.
  - intros XA XB x y EX EY. rewrite min_nz_ok in EX, EY by auto. injection EX as <-. injection EY as <-.
    pose proof (minp_u64 a WA) as MA. pose proof (minp_u64 b WB) as MB.
    pose proof (h_min_bin_pos a WA) as PA. pose proof (h_min_bin_pos b WB) as PB. rewrite BE in PB.
    assert (BB : bin a (h_min a) = bin a (h_min b)).
    { unfold exact_min in *. rewrite BE in XB.
      destruct XA as [[XA1 XA2]|XA]; destruct XB as [[XB1 XB2]|XB].
      - rewrite XA2, XB2. reflexivity.
      - exfalso. apply XB. rewrite <- E by lia. apply XA1; auto.
      - exfalso. apply XA. rewrite E by lia. apply XB1; auto.
      - rewrite E in XA by lia. rewrite <- E in XB by lia.
        pose proof (w_min_bot a WA _ PB XB) as T1. pose proof (w_min_bot b WB _ PA XA) as T2.
        fold (bin a (h_min a)) in T1. fold (bin b (h_min b)) in T2. rewrite BE in T2. lia. }
    rewrite equivalent_bin by auto. pose proof (bin_minp a WA) as QA. pose proof (bin_minp b WB) as QB. rewrite !BE in QB.
    split; [f_equal; lia|]. intros NT. rewrite equivalent_bin in NT by auto. injection NT as NT.
    unfold minp. destruct (Z.eqb_spec (h_min a) u64_max) as [Z1|Z1]; [rewrite Z1 in *; lia|].
    destruct (Z.eqb_spec (h_min b) u64_max) as [Z2|Z2]; [rewrite Z2 in *; lia|].
    rewrite <- U, <- M. apply loweq_idx; auto; [apply (w_min a WA)|apply (w_min b WB)].
Qed.
