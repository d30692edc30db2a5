(** * C52: exactly when [subtract] leaves a stale minimum *)
(*PROPS-IMPORTS Machine Log2Model HistModel Spec Reach Witness *)
From Verif Require Import Machine Log2Model HistModel Spec Reach Bins ListZ Log2Facts Cfg Wf Ops AddFacts SubFacts Exact MoreFacts Witness HeldFacts PfRecord PfMerge.
From Coq Require Import ZifyBool ZifyNat.

(** *)
Lemma sub_loop_between s lo hi : wf s -> forall cs i h h' nd, 0 <= i -> i + zlen cs <= zlen (h_counts s) ->
  (forall v n, In (v, n) (bins_from (bval s) cs i) -> lo < v < hi) ->
  sub_loop s cs i h false lo hi = Ret (h', ROk nd) -> nd = false /\ h_max h' = h_max h /\ h_min h' = h_min h.
Proof.
  intros WS. induction cs as [|c cs IH]; intros i h h' nd Hi Hl B E.
  - cbn [sub_loop] in E. injection E as <- <-. auto.
  - cbn [sub_loop bins_from] in *. rewrite zlen_cons in Hl. pose proof (zlen_nonneg cs).
    destruct (Z.eqb_spec c 0) as [->|NC]; [apply (IH (i + 1) h h' nd); auto; lia|].
    pose proof (w_cfg s WS) as CS. rewrite value_for_ok in E; [|auto|]. 2: { pose proof (len_le_top s CS (w_size s WS)). lia. }
    cbn [bind] in E. fold (bval s i) in E. assert (L : lo < bval s i < hi) by (apply (B _ c); left; reflexivity).
    destruct (mut_at h (bval s i)) as [[j|]|]; try discriminate E. cbn [bind] in E.
    destruct (expect (vget (h_counts h) j)) as [x|]; try discriminate E. cbn [bind] in E.
    destruct (cchecked_sub x c) as [c'|]; try discriminate E.
    assert (N : false || (bval s i <=? lo) || (hi <=? bval s i) = false) by (clear - L; lia).
    rewrite N in E. destruct (expect (cchecked_sub _ c)) as [t|]; try discriminate E. cbn [bind] in E.
    apply IH in E; [exact E|lia|lia|]. intros v n I. apply (B v n). right. exact I.
Qed.
Lemma subtract_between h s h' mn : wf h -> wf s -> min h = Ret mn -> h_total h <> u64_max ->
  (forall v n, In (v, n) (contents s) -> higheq h mn < v < loweq (h_um h) (h_half_mag h) (maxp h)) ->
  subtract h s = Ret (h', ROk tt) -> h_max h' = h_max h /\ h_min h' = h_min h.
Proof.
  intros WH WS MO NT B. unfold subtract. destruct (is_empty s) eqn:ES; [intros E; injection E as <-; auto|].
  pose proof (w_cfg h WH) as CH. pose proof (w_size h WH) as SH.
  rewrite (last_index_ok h CH SH). cbn [bind].
  destruct (top_ok h CH SH) as (l & E1 & E2). rewrite E1. cbn [bind]. rewrite E2. cbn [bind].
  rewrite (max_ok s WS). cbn [bind]. pose proof (maxp_u64 s WS) as SMU.
  rewrite highest_equivalent_ok by auto. cbn [bind]. destruct (_ <? _); [discriminate|].
  assert (MU : u64 mn).
  { rewrite (min_ok h WH) in MO. injection MO as <-. destruct (_ || _); [unfold u64, u64_max; lia|apply minp_u64; auto]. }
  rewrite MO. cbn [bind]. rewrite highest_equivalent_ok by auto. cbn [bind]. rewrite (max_ok h WH). cbn [bind].
  pose proof (maxp_u64 h WH) as HMU. rewrite lowest_equivalent_ok by auto. cbn [bind].
  destruct (Z.eqb_spec (h_total h) u64_max); [contradiction|].
  destruct (sub_loop _ _ _ _ _ _ _) as [[h1 r]|] eqn:E; [|discriminate]. cbn [bind].
  destruct r as [nd|e]; [|discriminate].
  apply sub_loop_between in E; auto; [|lia|lia]. destruct E as (-> & X). intros E. injection E as <-. exact X.
Qed.

Lemma sub_loop_true s lo hi : forall cs i h h' nd, sub_loop s cs i h true lo hi = Ret (h', ROk nd) -> nd = true.
Proof.
  induction cs as [|c cs IH]; intros i h h' nd E; cbn [sub_loop] in E; [congruence|].
  destruct (c =? 0); [eapply IH; eauto|].
  destruct (value_for s i) as [v|]; try discriminate E. cbn [bind] in E.
  destruct (mut_at h v) as [[j|]|]; try discriminate E. cbn [bind] in E.
  destruct (expect (vget (h_counts h) j)) as [x|]; try discriminate E. cbn [bind] in E.
  destruct (cchecked_sub x c) as [c'|]; try discriminate E. cbn [orb bind] in E. eapply IH; eauto.
Qed.
Lemma subtract_full h s h' : wf h -> wf s -> h_ctr h = h_ctr s -> is_empty s = false -> h_total h = u64_max ->
  subtract h s = Ret (h', ROk tt) -> exact_min h'.
Proof.
  intros WH WS CT ES TF. unfold subtract. rewrite ES.
  pose proof (w_cfg h WH) as CH. pose proof (w_size h WH) as SH.
  rewrite (last_index_ok h CH SH). cbn [bind].
  destruct (top_ok h CH SH) as (l & E1 & E2). rewrite E1. cbn [bind]. rewrite E2. cbn [bind].
  rewrite (max_ok s WS). cbn [bind]. pose proof (maxp_u64 s WS) as SMU.
  rewrite highest_equivalent_ok by auto. cbn [bind].
  destruct (Z.ltb_spec (top_val h) (higheq h (maxp s))) as [L|L]; [discriminate|].
  destruct (min h) as [mn|]; [|discriminate]. cbn [bind].
  destruct (highest_equivalent h mn) as [lo|]; [|discriminate]. cbn [bind].
  rewrite (max_ok h WH). cbn [bind]. destruct (lowest_equivalent h (maxp h)) as [hi|]; [|discriminate]. cbn [bind].
  assert (Fit : bin h (maxp s) < zlen (h_counts h)).
  { unfold bin. rewrite <- (idx_higheq h CH) by auto. fold (bin h (higheq h (maxp s))).
    destruct (top_val_in h CH SH) as [TU TI]. fold (bin h (top_val h)) in TI.
    pose proof (bin_mono h (higheq h (maxp s)) (top_val h) CH). pose proof (higheq_u64 h CH _ SMU) as HU. destruct HU. lia. }
  destruct (sub_loop_ok s WS lo hi (h_counts s) 0 h true)
    as (h1 & r & E & W1 & K1 & _ & _ & _); auto; try lia; try discriminate.
  { apply (w_cnt s WS). }
  { intros k Hk NZ. rewrite Z.sub_0_r in NZ.
    assert (bin h (bval s k) <= bin h (maxp s)); [|lia].
    apply bin_mono; auto. split; [apply bval_nonneg; auto using w_cfg; lia|].
    pose proof (w_cfg s WS) as CS. pose proof (w_max_top s WS k ltac:(lia) NZ) as T. fold (bin s (h_max s)) in T.
    pose proof (bval_le s k (bin s (h_max s)) CS ltac:(lia) T) as B.
    pose proof (w_max s WS) as XU. rewrite bval_bin in B by (auto; apply XU).
    pose proof (loweq_le (h_um s) (h_half_mag s) (um_nonneg s CS) (h_max s) ltac:(apply XU)).
    pose proof (h_max_le_maxp s WS). lia. }
  rewrite TF, Z.eqb_refl, E. cbn [bind]. destruct r as [nd|e]; [|discriminate].
  pose proof (sub_loop_true _ _ _ _ _ _ _ _ E) as ->.
  destruct (restat_ok h1 (wf_wf0 _ W1)) as (h2 & E3 & RT & W2). rewrite E3. cbn [bind]. intros X. injection X as <-.
  pose proof RT as [RC RS RH RTt RM RN]. unfold exact_min. rewrite RC. destruct RN as [[Z0 M]|(k & K & NZ & ZZ & M)]; [left; auto|].
  right. rewrite M, (same_shape_bin _ _ _ RS). rewrite bin_bval; auto; [apply w_cfg; auto|lia].
Qed.
Lemma not_equiv h v w : wf h -> u64 v -> u64 w -> (equivalent h v w = Ret false <-> bin h v <> bin h w).
Proof. intros W V U. rewrite equivalent_bin by auto. destruct (Z.eqb_spec (bin h v) (bin h w)); split; intros; congruence. Qed.

(** ** C52.  Exactly when the minimum is wrong after a successful [subtract] *)
(** The statistics of [h] being right, [min_nz] is wrong after a successful [subtract] exactly if: [h] held
    samples equivalent to 0; its total was not saturated; nothing subtracted was equivalent to 0 or in the
    class of the maximum; and the class of the old [min_nz] was emptied.  In that case [min_nz] still is what
    it was. *)
Lemma C52_min_exact_iff_proof : forall h s h', reachable h -> reachable s -> h_ctr h = h_ctr s ->
  stats_agree h -> held s <> [] -> subtract h s = Ret (h', ROk tt) ->
  (~ min_agrees h' <->
   count_at h 0 <> Ret 0 /\ len h <> u64_max /\
   (forall v n mx, In (v, n) (held s) -> max h = Ret mx -> equivalent h v 0 = Ret false /\ equivalent h v mx = Ret false) /\
   (forall mn, min_nz h = Ret mn -> count_at h' mn = Ret 0)) /\
  (~ min_agrees h' -> min_nz h' = min_nz h).
Proof.
  intros h s h' R RS CT ST NH E. pose proof (reachable_wf h R) as W. pose proof (reachable_wf s RS) as WS.
  assert (NE : is_empty s = false).
  { destruct (is_empty s) eqn:X; auto. exfalso. apply NH. apply empty_held; auto. }
  pose proof (w_cfg h W) as C. pose proof (w_size h W) as SZ.
  apply stats_agree_iff in ST; auto.
  destruct (subtract_ok h s W WS CT) as [(Es & A)|[(_ & _ & A)|[(_ & _ & _ & h1 & A & _)|(Es & _ & LE & h1 & A & SU)]]]; rewrite A in E; inversion E; [congruence|]; subst h1.
  pose proof SU as [S1 S2 S3 S4 S5 S6 S7]. rewrite (min_agrees_iff h') by auto.
  assert (BE : forall v, bin h' v = bin h v) by (intros; apply same_shape_bin; auto).
  pose proof (len_pos h C SZ) as LP. pose proof (bin_0 h C) as B0. pose proof u64_0 as U0.
  pose proof (minp_u64 h W) as NU. pose proof (maxp_u64 h W) as XU. pose proof (h_min_bin_pos h W) as MP.
  assert (C0 : count_at h 0 = Ret (zn (h_counts h) 0)). { rewrite count_at_ok by auto. rewrite cbin_in by lia. rewrite B0. reflexivity. }
  assert (T0 : zn (h_counts h) 0 <> 0 -> h_total h <> 0).
  { intros Z0 T0. apply Z0. apply (empty_zero h W T0). lia. }
  assert (INS : forall v n, In (v, n) (contents s) -> u64 v /\ 0 < n /\ bin h v <= bin h (h_max h) /\ zn (h_counts h) (bin h v) <> 0).
  { intros v n I. pose proof (contents_in s v n WS I) as (k & _ & _ & _ & EN & NZ & _ & VU).
    pose proof (contents_nonneg s WS) as CN. rewrite Forall_forall in CN. specialize (CN _ I). cbn in CN.
    pose proof (bin_nonneg h v C ltac:(apply VU)) as BV.
    assert (GE : n <= wsum (bin h) (bin h v) (contents s)).
    { clear - I WS. pose proof (contents_nonneg s WS) as CN. induction (contents s) as [|[v0 n0] l IH]; [destruct I|].
      inversion CN; subst. cbn [wsum]. pose proof (wsum_nonneg (bin h) (bin h v) l H2). destruct I as [I|I].
      - injection I as -> ->. rewrite Z.eqb_refl. lia.
      - specialize (IH I H2). cbn in H1. destruct (_ =? _); lia. }
    specialize (LE _ BV). split; [exact VU|]. split; [lia|]. assert (NZ' : zn (h_counts h) (bin h v) <> 0) by lia. split; [|exact NZ'].
    apply (w_max_top h W _ BV NZ'). }
  assert (NES : exists v n, In (v, n) (contents s)).
  { rewrite held_contents in NH by auto. destruct (contents s) as [|[v n] l]; [congruence|]. exists v, n. left. reflexivity. }
  assert (H0R : higheq h 0 = 2 ^ h_um h - 1).
  { pose proof (um_nonneg h C) as UN. pose proof (m_nonneg h C) as MN. destruct (mask_bin0 h C) as [[_ MU] MB].
    assert (W0 : wid (h_um h) (h_half_mag h) 0 = 2 ^ h_um h).
    { unfold wid, bkt. change (Z.log2 0) with 0. f_equal. lia. }
    assert (L0 : loweq (h_um h) (h_half_mag h) 0 = 0) by (pose proof (loweq_le (h_um h) (h_half_mag h) UN 0); lia).
    pose proof (um_range h C) as UR. pose proof (Z.pow_le_mono_r 2 (h_um h) 62 ltac:(lia) ltac:(lia)) as PL.
    rewrite higheq_eq by (auto; rewrite L0, W0; unfold u64_max; change (2 ^ 62) with 4611686018427387904 in PL; lia). lia. }
  assert (BETW : forall v n, In (v, n) (contents s) ->
    (higheq h 0 < v < loweq (h_um h) (h_half_mag h) (maxp h) <-> bin h v <> 0 /\ bin h v <> bin h (h_max h))).
  { intros v n I. destruct (INS v n I) as (VU & _ & LM & _). rewrite <- (bin_maxp h W) in LM |- *.
    pose proof (bin_mono h v (maxp h) C) as M1. pose proof (um_nonneg h C) as UN. pose proof (m_nonneg h C) as MN.
    destruct VU as [V0 V1]. pose proof (zero_class h v C V0) as ZC. split.
    - intros [L1 L2]. split; intros EQ.
      + lia.
      + apply (loweq_idx _ _ UN MN) in EQ; [|lia|apply XU]. pose proof (loweq_le (h_um h) (h_half_mag h) UN v V0). lia.
    - intros [N1 N2]. split; [lia|].
      destruct (Z_lt_le_dec v (loweq (h_um h) (h_half_mag h) (maxp h))); auto. exfalso. apply N2.
      pose proof (bin_mono h (loweq (h_um h) (h_half_mag h) (maxp h)) v C) as M2.
      rewrite bin_loweq in M2 by (auto; apply XU). pose proof (loweq_le (h_um h) (h_half_mag h) UN (maxp h) ltac:(apply XU)). lia. }
  (* where the old minimum is *)
  assert (MINR : (exists v n, In (v, n) (contents s) /\ bin h v <> 0) -> zn (h_counts h) (bin h (h_min h)) <> 0 /\ bin h (h_min h) < zlen (h_counts h)).
  { intros (v & n & I & NZ). destruct (INS v n I) as (VU & _ & _ & ZN). pose proof (bin_nonneg h v C ltac:(apply VU)).
    destruct (e_min h ST) as [[Z0 _]|Z0]; [exfalso; apply ZN, Z0; lia|]. split; auto.
    destruct (Z_lt_le_dec (bin h (h_min h)) (zlen (h_counts h))); auto. rewrite zn_out in Z0 by lia. lia. }
  assert (CNT : bin h (h_min h) < zlen (h_counts h) -> count_at h' (minp h) = Ret (zn (h_counts h') (bin h (h_min h)))).
  { intros L. rewrite count_at_ok by auto. rewrite cbin_in by (rewrite BE, bin_minp by auto; lia). rewrite BE, bin_minp by auto. reflexivity. }
  assert (HB : forall v n, In (v, n) (held s) <-> In (v, n) (contents s)) by (intros; rewrite held_contents by auto; tauto).
  assert (FWD : ~ exact_min h' -> zn (h_counts h) 0 <> 0 /\ h_total h <> u64_max /\
     (forall v n, In (v, n) (contents s) -> bin h v <> 0 /\ bin h v <> bin h (h_max h)) /\ zn (h_counts h') (bin h (h_min h)) = 0 /\ h_min h' = h_min h).
  { intros NX. destruct (subtracted_exact h s h' W WS SU ST) as (_ & _ & X).
    assert (Z0 : zn (h_counts h) 0 <> 0) by (intros Z0; apply NX, X; exact Z0).
    assert (NT : h_total h <> u64_max) by (intros TF; apply NX; apply (subtract_full h s h'); auto).
    destruct S7 as [(h1 & RT & SH)|(K1 & K2 & K3 & K4)].
    { exfalso. apply NX. pose proof RT as [RC RS' RH RTt RM RN]. unfold exact_min. rewrite RC. destruct RN as [[Z1 M]|(k & K & NZ & ZZ & M)]; [left; auto|].
      right. rewrite M, <- (same_shape_bval _ _ k SH). rewrite bin_bval; auto; [apply w_cfg; auto|lia]. }
    assert (MO : min h = Ret 0). { rewrite (min_ok h W). destruct (Z.eqb_spec (zn (h_counts h) 0) 0); [lia|]. rewrite orb_true_r. reflexivity. }
    split; auto. split; auto. split. { intros v n I. apply (BETW v n I). apply (K4 v n 0 I MO). }
    split; auto. destruct (Z.eq_dec (zn (h_counts h') (bin h (h_min h))) 0) as [|N]; auto. exfalso. apply NX. right. rewrite K2, BE. exact N. }
  split; [split|].
  - intros NX. destruct (FWD NX) as (F1 & F2 & F3 & F4 & F5). split; [rewrite C0; congruence|]. split; [exact F2|]. split.
    + intros v n mx I EM. rewrite max_ok in EM by auto. injection EM as <-. apply HB in I. destruct (INS v n I) as (VU & _). destruct (F3 v n I).
      rewrite !not_equiv by auto. rewrite B0, bin_maxp by auto. auto.
    + intros mn EM. rewrite min_nz_ok in EM by auto. injection EM as <-. rewrite CNT; [congruence|].
      apply MINR. destruct NES as (v & n & I). exists v, n. split; auto. apply (F3 v n I).
  - intros (G1 & G2 & G3 & G4) X. rewrite C0 in G1.
    assert (F3 : forall v n, In (v, n) (contents s) -> bin h v <> 0 /\ bin h v <> bin h (h_max h)).
    { intros v n I. destruct (INS v n I) as (VU & _). destruct (G3 v n (maxp h) (proj2 (HB v n) I) (max_ok h W)) as [Q1 Q2].
      rewrite not_equiv in Q1, Q2 by auto. rewrite B0 in Q1. rewrite bin_maxp in Q2 by auto. auto. }
    assert (MO : min h = Ret 0). { rewrite (min_ok h W). destruct (Z.eqb_spec (zn (h_counts h) 0) 0); [congruence|]. rewrite orb_true_r. reflexivity. }
    assert (KM : h_min h' = h_min h).
    { apply (subtract_between h s h' 0); auto. intros v n I. apply (BETW v n I). apply (F3 v n I). }
    destruct MINR as [M1 M2]. { destruct NES as (v & n & I). exists v, n. split; auto. apply (F3 v n I). }
    specialize (G4 _ (min_nz_ok h W)). rewrite CNT in G4 by auto. injection G4 as G4.
    destruct X as [[Z0 XM]|X]; [|apply X; rewrite KM, BE; exact G4].
    assert (TOP : bin h (h_min h) = bin h (h_max h)).
    { pose proof (w_max_top h W (bin h (h_min h)) ltac:(lia) M1) as T. fold (bin h (h_max h)) in T.
      pose proof (bin_mono h (h_max h) u64_max C (w_max h W)) as BM. assert (HM : h_min h = u64_max) by congruence. rewrite HM in T |- *. lia. }
    rewrite S5 in G4 by lia.
    assert (EXI : exists v n, In (v, n) (contents s) /\ bin h v = bin h (h_min h)).
    { assert (NW : wsum (bin h) (bin h (h_min h)) (contents s) <> 0) by lia. clear - NW. induction (contents s) as [|[v n] l IH]; [cbn in NW; lia|].
      cbn [wsum] in NW. destruct (Z.eqb_spec (bin h v) (bin h (h_min h))) as [EQ|NQ].
      - exists v, n. split; [left; reflexivity|exact EQ].
      - destruct IH as (v' & n' & I & Q); [lia|]. exists v', n'. split; [right; exact I|exact Q]. }
    destruct EXI as (v & n & I & Q). destruct (F3 v n I) as [_ F]. apply F. congruence.
  - intros NX. destruct (FWD NX) as (_ & _ & _ & _ & F5). rewrite !min_nz_ok by auto. f_equal. unfold minp. rewrite F5.
    rewrite (ss_um _ _ S2), (ss_m _ _ S2). reflexivity.
Qed.
(*EX
(** the class of 5 is emptied while a zero is held: [min_nz] stays 5; without the zero it is right *)
Example ex_C52_min_exact_iff :
  match build U64 1 1000 1 false [(0, 1); (5, 1); (9, 1)], build U64 1 1000 1 false [(5, 1); (9, 1)], build U64 1 1000 1 false [(5, 1)] with
  | Some h, Some g, Some s =>
      match subtract h s, subtract g s with
      | Ret (h', ROk _), Ret (g', ROk _) => count_at h 0 = Ret 1 /\ min_nz h' = Ret 5 /\ count_at h' 5 = Ret 0 /\
          held s = [(5, 1)] /\ max h = Ret 9 /\ held g' = [(9, 1)] /\ min_nz g' = Ret 9
      | _, _ => False end
  | _, _, _ => False end.
Proof. vm_compute. auto 10. Qed.
EX*)

(** *)
Lemma not_ne (A : Prop) : A -> ~ ~ A. Proof. tauto. Qed.
Lemma below_iff h v w : wf h -> u64 v -> u64 w -> (v < w /\ equivalent h v w = Ret false <-> bin h v < bin h w).
Proof.
  intros W V U. pose proof (w_cfg h W) as C. rewrite not_equiv by auto. destruct V as [V0 V1]. destruct U as [U0 U1]. split.
  - intros [L N]. pose proof (bin_mono h v w C). lia.
  - intros L. split; [|lia]. destruct (Z_lt_le_dec v w); auto. pose proof (bin_mono h w v C). lia.
Qed.
Lemma wsum_pos f j l : Forall (fun p : Z * Z => 0 <= snd p) l -> wsum f j l <> 0 -> exists v n, In (v, n) l /\ f v = j.
Proof.
  induction l as [|[v n] l IH]; intros F N; [cbn in N; lia|]. inversion F; subst. cbn [wsum] in N.
  destruct (Z.eqb_spec (f v) j) as [E|E]; [exists v, n; split; [left; reflexivity|exact E]|].
  destruct (IH H2 N) as (v' & n' & I & E'). exists v', n'. split; [right; exact I|exact E'].
Qed.
Lemma wsum_ge f v n l : Forall (fun p : Z * Z => 0 <= snd p) l -> In (v, n) l -> n <= wsum f (f v) l.
Proof.
  induction l as [|[v0 n0] l IH]; intros F I; [destruct I|]. inversion F; subst. cbn [wsum]. cbn in H1.
  pose proof (wsum_nonneg f (f v) l H2). destruct I as [I|I].
  - injection I as -> ->. rewrite Z.eqb_refl. lia.
  - specialize (IH H2 I). destruct (_ =? _); lia.
Qed.

(** Adding [s] and subtracting it again, without saturation, gives a histogram that compares different from
    [h] exactly if: [h] holds samples equivalent to 0; the total of the sum is not [u64::MAX]; all samples of
    [s] lie above the class of 0 and below the class of the maximum of [h]; and one of them lies below every
    sample of [h] that is not equivalent to 0.  (The maximum of [h] is neither equivalent to 0 nor to
    [u64::MAX].) *)
Lemma C52_undo_iff_proof : forall h s h1 h2 mx, reachable h -> reachable s -> h_ctr h = h_ctr s ->
  stats_agree h -> stats_agree s -> no_saturation h (held s) -> max s <> Ret u64_max -> held s <> [] ->
  max h = Ret mx -> equivalent h mx 0 = Ret false -> equivalent h mx u64_max = Ret false ->
  add h s = Ret (h1, ROk tt) -> subtract h1 s = Ret (h2, ROk tt) ->
  (hist_eq h h2 = Ret false <->
   count_at h 0 <> Ret 0 /\ len h1 <> u64_max /\
   (forall v n, In (v, n) (held s) -> equivalent h v 0 = Ret false /\ v < mx /\ equivalent h v mx = Ret false) /\
   (exists v n, In (v, n) (held s) /\
      forall w k, In (w, k) (held h) -> equivalent h w 0 = Ret false -> v < w /\ equivalent h v w = Ret false)).
Proof.
  intros h s h1 h2 mx R RS CT SH SS NS NM NH EM N0 NT E E2.
  pose proof (reachable_wf h R) as W. pose proof (reachable_wf s RS) as WS.
  destruct (C17_undo_proof h s h1 R RS CT SH SS NS NM E) as (h2' & E2' & EH & EL & EMX & _).
  assert (h2' = h2) by congruence. subst h2'.
  assert (R1 : reachable h1) by (apply (reach_add h s h1 (ROk tt)); auto). pose proof (reachable_wf h1 R1) as W1.
  pose proof (C14_add_stats_proof h s h1 _ R RS CT SH SS NS E) as S1.
  pose proof (w_cfg h W) as C. pose proof (w_cfg h1 W1) as C1.
  assert (NE : is_empty s = false).
  { destruct (is_empty s) eqn:X; auto. exfalso. apply NH. apply empty_held; auto. }
  destruct (add_success h s h1 W WS CT E) as [(EM' & ->)|(_ & AD & FIT)]; [congruence|].
  pose proof AD as [A1 A2 A3 A4 A5 A6].
  assert (CT1 : h_ctr h1 = h_ctr s) by (rewrite (ss_ctr _ _ A2); auto).
  assert (R2 : reachable h2) by (apply (reach_subtract h1 s h2 (ROk tt)); auto). pose proof (reachable_wf h2 R2) as W2.
  pose proof (C52_min_exact_iff_proof h1 s h2 R1 RS CT1 S1 NH E2) as [IFF _].
  rewrite max_ok in EM by auto. injection EM as <-. pose proof (maxp_u64 h W) as XU. pose proof u64_0 as U0. pose proof u64_top as UT.
  rewrite not_equiv in N0, NT by auto. rewrite bin_maxp in N0, NT by auto. pose proof (bin_0 h C) as B0. rewrite B0 in N0.
  destruct (subtract_ok h1 s W1 WS CT1) as [(Es & A)|[(_ & _ & A)|[(_ & _ & _ & hx & A & _)|(Es & _ & _ & hx & A & SU)]]]; rewrite A in E2; inversion E2; [congruence|]; subst hx.
  pose proof SU as [Q1 Q2 Q3 Q4 Q5 Q6 Q7].
  assert (BE : forall v, bin h1 v = bin h v) by (intros; apply same_shape_bin; auto).
  assert (BE2 : forall v, bin h2 v = bin h v) by (intros; rewrite (same_shape_bin h1 h2) by auto; auto).
  assert (U : unsaturated h (contents s)).
  { apply no_saturation_iff; auto using contents_u64. rewrite held_contents in NS by auto. auto. }
  destruct U as [U1 U2].
  assert (K1 : forall j, 0 <= j -> zn (h_counts h1) j = zn (h_counts h) j + wsum (bin h) j (contents s)).
  { intros j Hj. rewrite A3 by auto. specialize (U1 j Hj). lia. }
  assert (K2 : forall j, 0 <= j -> zn (h_counts h2) j = zn (h_counts h) j).
  { intros j Hj. rewrite Q5, K1 by auto. rewrite (wsum_ext (bin h1) (bin h)) by (intros; apply BE). lia. }
  assert (UM : h_um h2 = h_um h) by (rewrite (ss_um _ _ Q2); apply A2).
  assert (MM : h_half_mag h2 = h_half_mag h) by (rewrite (ss_m _ _ Q2); apply A2).
  apply stats_agree_iff in SH, S1; auto.
  pose proof (contents_nonneg s WS) as CN.
  pose proof (bin_nonneg h (h_max h) C ltac:(apply (w_max h W))) as XB.
  assert (XZ : zn (h_counts h) (bin h (h_max h)) <> 0) by (destruct (e_max h SH) as [[_ Z0]|Z0]; [lia|exact Z0]).
  (* the minimum of h *)
  assert (NZ : zn (h_counts h) (bin h (h_min h)) <> 0).
  { destruct (e_min h SH) as [[Z0 _]|Z0]; [|exact Z0]. exfalso. apply XZ, Z0. lia. }
  pose proof (h_min_bin_pos h W) as MP.
  assert (MTOP : bin h (h_min h) <> bin h u64_max).
  { pose proof (w_max_top h W (bin h (h_min h)) ltac:(lia) NZ) as T. fold (bin h (h_max h)) in T.
    pose proof (bin_mono h (h_max h) u64_max C (w_max h W)) as BM. clear - T BM NT. lia. }
  assert (MINS : minp h = minp h2 <-> exact_min h2).
  { split.
    - intros EQ. right. rewrite BE2, <- BE2, <- bin_minp, <- EQ, BE2, bin_minp by auto. rewrite K2 by lia. exact NZ.
    - intros X. destruct (same_stats h2 h W2 W UM MM K2) as (_ & _ & MN). specialize (MN X (e_min h SH) _ _ (min_nz_ok h2 W2) (min_nz_ok h W)).
      destruct MN as [EQ MN]. symmetry. apply MN. pose proof (minp_u64 h2 W2) as P2. pose proof (minp_u64 h W) as P1.
      rewrite equivalent_bin in EQ by auto. injection EQ as EQ. apply Z.eqb_eq in EQ. apply not_equiv; auto.
      rewrite EQ, !BE2, bin_minp by auto. exact MTOP. }
  assert (MAXS : maxp h = maxp h2).
  { specialize (EMX _ _ (max_ok h2 W2) (max_ok h W)). destruct EMX as [EQ MX]. pose proof (maxp_u64 h2 W2) as P2.
    rewrite equivalent_bin in EQ by auto. injection EQ as EQ. apply Z.eqb_eq in EQ. symmetry.
    apply MX; apply not_equiv; auto; rewrite EQ, !BE2, bin_maxp by auto; [rewrite B0|]; auto. }
  assert (HE : hist_eq h h2 = Ret false <-> ~ exact_min h2).
  { destruct (hist_eq_ok h h2 W W2) as (r & -> & HR). rewrite <- MINS. split.
    - intros X Y. injection X as ->. assert (F : false = true); [|discriminate]. apply HR.
      split; [rewrite (ss_low _ _ Q2); symmetry; apply A2|]. split; [rewrite (ss_sf _ _ Q2); symmetry; apply A2|].
      split; [symmetry; exact EL|]. split; auto. split; auto. split; [rewrite Q4; lia|]. intros i Hi. symmetry. apply K2. lia.
    - intros X. destruct r; auto. exfalso. apply X. apply HR. reflexivity. }
  rewrite HE. rewrite <- (min_agrees_iff h2) by auto. rewrite IFF. clear IFF HE.
  assert (HB : forall v n, In (v, n) (held s) <-> In (v, n) (contents s)) by (intros; rewrite held_contents by auto; tauto).
  assert (INS : forall v n, In (v, n) (contents s) -> u64 v /\ 0 < n /\ 0 <= bin h v /\ zn (h_counts h1) (bin h v) <> 0).
  { intros v n I. pose proof (contents_in s v n WS I) as (k & _ & _ & _ & EN & NZ' & _ & VU).
    rewrite Forall_forall in CN. pose proof (CN _ I) as P. cbn in P. pose proof (bin_nonneg h v C ltac:(apply VU)) as BV.
    split; auto. split; [lia|]. split; auto. rewrite K1 by auto. pose proof (wsum_ge (bin h) v n (contents s) (contents_nonneg s WS) I) as WG.
    pose proof (zn_nonneg (h_counts h) (bin h v) (wf_nonneg h W)) as ZG. clear - WG ZG P EN NZ'. lia. }
  assert (CA : forall g v, wf g -> u64 v -> bin g v < zlen (h_counts g) -> (count_at g v = Ret 0 <-> zn (h_counts g) (bin g v) = 0)).
  { intros g v WG VG LG. rewrite count_at_ok by auto. rewrite cbin_in by auto. split; [intros X; injection X; auto|intros ->; reflexivity]. }
  assert (IN : forall g j, zn (h_counts g) j <> 0 -> j < zlen (h_counts g)).
  { intros g j NZ'. destruct (Z_lt_le_dec j (zlen (h_counts g))); auto. exfalso. apply NZ'. apply zn_out. auto. }
  assert (L0 : 0 < zlen (h_counts h)) by (pose proof (IN h _ XZ); clear - H XB; lia).
  rewrite (CA h1 0 W1 U0), (CA h 0 W U0), BE, B0; [|rewrite B0; exact L0|rewrite BE, B0; pose proof (K1 _ XB) as KX; apply Z.le_lt_trans with (bin h (h_max h)); [exact XB|]; apply IN; rewrite KX; pose proof (zn_nonneg (h_counts h) (bin h (h_max h)) (wf_nonneg h W)) as ZN; pose proof (wsum_nonneg (bin h) (bin h (h_max h)) (contents s) CN) as WN; clear - ZN WN XZ; lia].
  pose proof (maxp_u64 h1 W1) as XU1. pose proof (minp_u64 h1 W1) as MU1.
  assert (MX1 : forall j, 0 <= j -> zn (h_counts h1) j <> 0 -> j <= bin h (h_max h1)).
  { intros j J1 J2. rewrite <- BE. apply (w_max_top h1 W1); auto. }
  assert (MN1 : forall j, 0 < j -> zn (h_counts h1) j <> 0 -> bin h (h_min h1) <= j).
  { intros j J1 J2. rewrite <- BE. apply (w_min_bot h1 W1); auto. }
  assert (G1 : forall j, 0 <= j -> zn (h_counts h) j <> 0 -> zn (h_counts h1) j <> 0).
  { intros j J1 J2. rewrite K1 by auto. pose proof (zn_nonneg (h_counts h) j (wf_nonneg h W)). pose proof (wsum_nonneg (bin h) j (contents s) CN).
    clear - J2 H H0. lia. }
  pose proof (MX1 _ XB (G1 _ XB XZ)) as MXG.
  assert (ZX1 : zn (h_counts h1) (bin h (h_max h1)) <> 0).
  { destruct (e_max h1 S1) as [[_ Z0]|Z0]; rewrite BE in Z0; [clear - MXG XB N0 Z0; lia|exact Z0]. }
  pose proof (h_min_bin_pos h1 W1) as MP1. rewrite BE in MP1.
  assert (ZM1 : zn (h_counts h1) (bin h (h_min h1)) <> 0).
  { destruct (e_min h1 S1) as [[Z0 _]|Z0]; [exfalso; revert ZX1; apply not_ne, Z0; clear - MXG XB N0; lia|rewrite BE in Z0; exact Z0]. }
  assert (CM : count_at h2 (minp h1) = Ret 0 <-> zn (h_counts h) (bin h (h_min h1)) = 0).
  { assert (BM : bin h2 (minp h1) = bin h (h_min h1)) by (rewrite BE2, <- BE, bin_minp, BE by auto; reflexivity).
    rewrite CA, BM by (auto; rewrite BM, Q4; apply IN; exact ZM1). rewrite K2 by (clear - MP1; lia). tauto. }
  assert (FROM : forall j, 0 <= j -> zn (h_counts h1) j <> 0 -> zn (h_counts h) j <> 0 \/ exists v n, In (v, n) (contents s) /\ bin h v = j).
  { intros j J1 J2. destruct (Z.eq_dec (zn (h_counts h) j) 0) as [Z0|]; [right|auto]. apply wsum_pos; auto. rewrite K1, Z0 in J2 by auto. clear - J2; lia. }
  assert (HH : forall w k, In (w, k) (held h) -> u64 w /\ 0 <= bin h w /\ zn (h_counts h) (bin h w) <> 0).
  { intros w k I. rewrite held_contents in I by auto. pose proof (contents_in h w k W I) as (i & I1 & I2 & I3 & EN & NZ' & EB & VU).
    split; auto. rewrite I3, bin_bval by (auto; apply I1). split; [apply I1|rewrite <- EN; exact NZ']. }
  assert (HF : forall j, 0 <= j -> zn (h_counts h) j <> 0 -> exists w k, In (w, k) (held h) /\ bin h w = j).
  { intros j J1 J2. exists (bval h j), (zn (h_counts h) j). split; [rewrite held_contents by auto; apply contents_mem; auto|apply bin_bval; auto]. }
  split.
  - intros (L1 & L2 & L3 & L4).
    assert (V : forall v n, In (v, n) (contents s) -> bin h v <> 0 /\ bin h v <> bin h (h_max h1)).
    { intros v n I. destruct (L3 v n (maxp h1)) as [D1 D2]; [apply HB; auto|apply max_ok; auto|]. destruct (INS v n I) as (VU & _).
      rewrite not_equiv in D1, D2 by auto. rewrite !BE in D1. rewrite BE, bin_maxp, BE in D2 by auto. rewrite B0 in D1. auto. }
    assert (TOP : bin h (h_max h1) = bin h (h_max h)).
    { apply Z.le_antisymm; auto. destruct (FROM (bin h (h_max h1)) (Z.le_trans _ _ _ XB MXG) ZX1) as [F|(v & n & I & F)].
      - apply (w_max_top h W); auto. exact (Z.le_trans _ _ _ XB MXG).
      - destruct (V v n I). contradiction. }
    split; [|split; [exact L2|split]].
    + intros Z0. destruct (FROM 0 (Z.le_refl 0) L1) as [F|(v & n & I & F)]; [contradiction|]. destruct (V v n I). contradiction.
    + intros v n I. apply HB in I. destruct (V v n I) as [V1 V2]. destruct (INS v n I) as (VU & _ & VB & VZ).
      split; [apply not_equiv; auto; rewrite B0; auto|]. apply below_iff; auto. rewrite bin_maxp by auto.
      pose proof (MX1 _ VB VZ). clear - H V2 TOP. lia.
    + specialize (L4 _ (min_nz_ok h1 W1)). apply CM in L4.
      destruct (FROM (bin h (h_min h1)) (Z.lt_le_incl _ _ MP1) ZM1) as [F|(v & n & I & F)]; [contradiction|].
      exists v, n. split; [apply HB; auto|]. intros w k IW EW. destruct (HH w k IW) as (WU & WB & WZ). destruct (INS v n I) as (VU & _).
      rewrite not_equiv, B0 in EW by auto. apply below_iff; auto. rewrite F.
      pose proof (MN1 (bin h w) ltac:(clear - EW WB; lia) (G1 _ WB WZ)).
      destruct (Z.eq_dec (bin h w) (bin h (h_min h1))) as [X|X]; [rewrite X in WZ; contradiction|clear - H X; lia].
  - intros (P1 & P2 & P3 & (v0 & n0 & I0 & P4)).
    assert (V : forall v n, In (v, n) (contents s) -> bin h v <> 0 /\ bin h v < bin h (h_max h)).
    { intros v n I. destruct (INS v n I) as (VU & _). destruct (P3 v n) as [D1 D2]; [apply HB; auto|].
      apply below_iff in D2; auto. rewrite not_equiv, B0 in D1 by auto. rewrite bin_maxp in D2 by auto. auto. }
    split; [|split; [exact P2|split]].
    + apply G1; auto. clear; lia.
    + intros v n mx I X. apply HB in I. destruct (V v n I) as [V1 V2]. destruct (INS v n I) as (VU & _).
      rewrite max_ok in X by auto. injection X as <-. rewrite !not_equiv by auto. rewrite bin_maxp, !BE, B0 by auto.
      split; auto. clear - V2 MXG; lia.
    + intros mn X. rewrite min_nz_ok in X by auto. injection X as <-. apply CM. apply HB in I0. destruct (V v0 n0 I0) as [V1 V2]. destruct (INS v0 n0 I0) as (VU & _ & VB & VZ).
      pose proof (MN1 (bin h v0) ltac:(clear - V1 VB; lia) VZ) as LE.
      destruct (Z.eq_dec (zn (h_counts h) (bin h (h_min h1))) 0) as [|NZ']; auto. exfalso.
      destruct (HF (bin h (h_min h1)) (Z.lt_le_incl _ _ MP1) NZ') as (w & k & IW & EW). destruct (HH w k IW) as (WU & _).
      destruct (P4 w k IW) as [Q P]; [apply not_equiv; auto; rewrite B0, EW; clear - MP1; lia|].
      assert (LT : bin h v0 < bin h w) by (apply below_iff; auto). rewrite EW in LT. clear - LT LE; lia.
Qed.

(*EX
(* 0 and 100, and a second histogram with 5: adding and subtracting it leaves the minimum 5 behind.  With 50
   and 100 instead of 0 and 100, or with 200 in the second histogram, the original comes back. *)
Example ex_C52_undo_iff :
  match build U64 1 1000 2 false [(0, 1); (100, 1)], build U64 1 1000 2 false [(50, 1); (100, 1)],
        build U64 1 1000 2 false [(5, 1)], build U64 1 1000 2 false [(5, 1); (200, 1)] with
  | Some h, Some k, Some s, Some t =>
      let undo a b := match add a b with Ret (x, _) => match subtract x b with Ret (y, _) => hist_eq a y | Panic => Panic end | Panic => Panic end in
      undo h s = Ret false /\ undo k s = Ret true /\ undo h t = Ret true /\ max h = Ret 100 /\
      equivalent h 100 0 = Ret false /\ equivalent h 100 u64_max = Ret false /\ held s = [(5, 1)] /\ held h = [(0, 1); (100, 1)]
  | _, _, _, _ => False
  end.
Proof. vm_compute. intuition congruence. Qed.
EX*)
