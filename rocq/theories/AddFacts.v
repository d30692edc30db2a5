(** * Addition *)
From Verif Require Import Machine Log2Model HistModel Bins ListZ Log2Facts Cfg Wf Ops.
From Coq Require Import ZifyBool ZifyNat.

(** ** The contents of a histogram as (lowest value of the bin, count) pairs *)
Fixpoint bins_from (f : Z -> Z) (cs : list Z) (i : Z) : list (Z * Z) :=
  match cs with
  | [] => []
  | c :: cs' => if c =? 0 then bins_from f cs' (i + 1) else (f i, c) :: bins_from f cs' (i + 1)
  end.
Definition contents (h : hist) : list (Z * Z) := bins_from (bval h) (h_counts h) 0.

Lemma bins_from_app f a b i : bins_from f (a ++ b) i = bins_from f a i ++ bins_from f b (i + zlen a).
Proof.
  revert i; induction a as [|c a IH]; intros i.
  - rewrite zlen_nil, Z.add_0_r. reflexivity.
  - cbn [app bins_from]. rewrite IH, zlen_cons. replace (i + 1 + zlen a) with (i + (zlen a + 1)) by lia.
    destruct (c =? 0); reflexivity.
Qed.

Lemma bins_from_snd f cs i c : Forall (fun x => 0 <= x <= c) cs ->
  Forall (fun p => 0 <= snd p <= c) (bins_from f cs i).
Proof.
  intros F. revert i. induction F; intros i; cbn [bins_from]; auto.
  destruct (x =? 0); auto.
Qed.

Lemma bins_from_in f cs i v n : 0 <= i -> In (v, n) (bins_from f cs i) ->
  exists k, i <= k < i + zlen cs /\ v = f k /\ n = zn cs (k - i) /\ n <> 0.
Proof.
  revert i; induction cs as [|c cs IH]; intros i Hi I; [destruct I|]. cbn [bins_from] in I.
  rewrite zlen_cons. pose proof (zlen_nonneg cs).
  assert (R : In (v, n) (bins_from f cs (i + 1)) -> exists k, i <= k < i + (zlen cs + 1) /\ v = f k /\ n = zn (c :: cs) (k - i) /\ n <> 0).
  { intros I'. apply IH in I'; [|lia]. destruct I' as (k & K & -> & -> & NZ). exists k. split; [lia|].
    split; auto. rewrite zn_cons_S by lia. replace (k - i - 1) with (k - (i + 1)) by lia. auto. }
  destruct (Z.eqb_spec c 0); auto. destruct I as [E|I]; auto. inversion E; subst. exists i.
  split; [lia|]. split; auto. rewrite Z.sub_diag. cbn. auto.
Qed.

Lemma bins_from_zero f cs i : (forall k, 0 <= k -> zn cs k = 0) -> bins_from f cs i = [].
Proof.
  revert i; induction cs as [|c cs IH]; intros i Z0; auto. cbn [bins_from].
  pose proof (Z0 0 ltac:(lia)) as E. rewrite zn_cons_0 in E. subst c. cbn.
  apply IH. intros k Hk. specialize (Z0 (k + 1) ltac:(lia)). rewrite zn_cons_S in Z0 by lia.
  replace (k + 1 - 1) with k in Z0 by lia. auto.
Qed.

Lemma wtotal_bins f cs i : wtotal (bins_from f cs i) = zsum cs.
Proof.
  revert i; induction cs as [|c cs IH]; intros i; auto. cbn [bins_from]. rewrite zsum_cons.
  destruct (Z.eqb_spec c 0) as [->|]; cbn [wtotal]; rewrite IH; lia.
Qed.

Lemma wsum_bins (g f : Z -> Z) cs i j : 0 <= i -> (forall k, i <= k < i + zlen cs -> g (f k) = k) ->
  wsum g j (bins_from f cs i) = if i <=? j then zn cs (j - i) else 0.
Proof.
  revert i; induction cs as [|c cs IH]; intros i Hi E.
  - cbn [bins_from wsum]. rewrite zn_nil. destruct (_ <=? _); reflexivity.
  - cbn [bins_from]. rewrite zlen_cons in E. pose proof (zlen_nonneg cs).
    assert (R : wsum g j (bins_from f cs (i + 1)) = if i + 1 <=? j then zn cs (j - (i + 1)) else 0).
    { apply IH; [lia|]. intros; apply E; lia. }
    assert (T : wsum g j (if c =? 0 then bins_from f cs (i + 1) else (f i, c) :: bins_from f cs (i + 1))
                = (if i =? j then c else 0) + wsum g j (bins_from f cs (i + 1))).
    { destruct (Z.eqb_spec c 0) as [->|].
      - destruct (i =? j); lia.
      - cbn [wsum]. rewrite E by lia. reflexivity. }
    rewrite T, R. destruct (Z.eqb_spec i j) as [->|].
    + destruct (Z.leb_spec (j + 1) j); [lia|]. destruct (Z.leb_spec j j); [|lia].
      rewrite Z.sub_diag, zn_cons_0. lia.
    + destruct (Z.leb_spec (i + 1) j); destruct (Z.leb_spec i j); try lia.
      rewrite (zn_cons_S c cs (j - i)) by lia. rewrite Z.add_0_l. f_equal. lia.
Qed.

(** the contents of a histogram determine its bins *)
Lemma wsum_contents h j : wf h -> 0 <= j -> wsum (bin h) j (contents h) = zn (h_counts h) j.
Proof.
  intros W Hj. unfold contents. rewrite wsum_bins; [|lia|].
  - destruct (Z.leb_spec 0 j); [|lia]. f_equal. lia.
  - intros k Hk. apply bin_bval; [apply (w_cfg h W)|lia].
Qed.

Lemma wtotal_contents h : wtotal (contents h) = zsum (h_counts h).
Proof. apply wtotal_bins. Qed.

Lemma contents_nonneg h : wf h -> Forall (fun p => 0 <= snd p) (contents h).
Proof.
  intros W. eapply Forall_impl; [|apply bins_from_snd, (w_cnt h W)]. cbn; lia.
Qed.

(** everything at or below the maximum *)
Lemma contents_in h v n : wf h -> In (v, n) (contents h) ->
  exists i, 0 <= i <= bin h (h_max h) /\ i < zlen (h_counts h) /\ v = bval h i /\ n = zn (h_counts h) i /\ n <> 0
    /\ v <= maxp h /\ u64 v.
Proof.
  intros W I. apply bins_from_in in I; [|lia]. destruct I as (k & K & -> & -> & NZ).
  rewrite Z.sub_0_r in *. exists k. pose proof (w_max_top h W k ltac:(lia) NZ) as T. fold (bin h (h_max h)) in T.
  pose proof (w_cfg h W) as C.
  split; [lia|]. split; [lia|]. split; auto. split; auto. split; auto. split.
  - pose proof (bval_le h k (bin h (h_max h)) C ltac:(lia) T) as B.
    pose proof (w_max h W) as MU. rewrite bval_bin in B by (auto; apply MU).
    pose proof (loweq_le (h_um h) (h_half_mag h) (um_nonneg h C) (h_max h) ltac:(apply MU)).
    pose proof (h_max_le_maxp h W). lia.
  - apply bval_u64; auto using w_size.
Qed.

(** ** The aligned loop *)
Lemma add_aligned_ok T a s obs :
  zlen a = zlen s -> Forall (fun c => 0 <= c <= cmax T) a -> Forall (fun c => 0 <= c) s -> 0 <= obs <= u64_max ->
  exists l, add_aligned T a s obs = Ret (l, Z.min u64_max (obs + zsum s)) /\ zlen l = zlen a /\
    (forall i, 0 <= i -> zn l i = csat_add T (zn a i) (zn s i)).
Proof.
  revert a obs; induction s as [|o s IH]; intros a obs L Fa Fs Ho.
  - cbn [add_aligned]. exists a. split; [|split; auto].
    + f_equal. f_equal. change (zsum []) with 0. lia.
    + intros i Hi. rewrite zn_nil. rewrite zlen_nil in L. rewrite zn_out by lia.
      unfold csat_add. pose proof (cmax_le T). lia.
  - destruct a as [|x a]. { rewrite zlen_nil, zlen_cons in L. pose proof (zlen_nonneg s). lia. }
    rewrite !zlen_cons in L. inversion Fa as [|? ? Fx Fa']; subst. inversion Fs as [|? ? Fo Fs']; subst.
    cbn [add_aligned].
    set (obs' := if o =? 0 then obs else sat_add64 obs o).
    assert (Ho' : 0 <= obs' <= u64_max /\ Z.min u64_max (obs' + zsum s) = Z.min u64_max (obs + zsum (o :: s))).
    { pose proof (zsum_nonneg s Fs'). rewrite zsum_cons. unfold obs', sat_add64. destruct (Z.eqb_spec o 0); lia. }
    destruct Ho' as [Ho1 Ho2].
    destruct (IH a obs' ltac:(lia) Fa' Fs' Ho1) as (l & E & Ll & Zl). rewrite E. cbn [bind].
    eexists. split; [rewrite Ho2; reflexivity|]. split; [rewrite !zlen_cons; lia|].
    intros i Hi. destruct (Z.eq_dec i 0) as [->|].
    + rewrite !zn_cons_0. destruct (Z.eqb_spec o 0) as [->|]; auto. unfold csat_add. lia.
    + rewrite !zn_cons_S by lia. apply Zl. lia.
Qed.

(** ** Re-recording *)
Lemma add_rerecord_ok s : wf s -> forall cs i h,
  wf h -> h_ctr h = h_ctr s -> 0 <= i -> i + zlen cs <= zlen (h_counts s) ->
  Forall (fun c => 0 <= c <= cmax (h_ctr s)) cs ->
  (forall k, i <= k < i + zlen cs -> zn cs (k - i) <> 0 -> bin h (bval s k) < zlen (h_counts h)) ->
  exists h', add_rerecord h s cs i = Ret h' /\ rec_many h (bins_from (bval s) cs i) h'.
Proof.
  intros WS. induction cs as [|c cs IH]; intros i h WH CT Hi Hl F Fit.
  - cbn. exists h. split; auto. constructor; auto.
  - cbn [add_rerecord bins_from]. rewrite zlen_cons in *. pose proof (zlen_nonneg cs).
    inversion F as [|? ? Fc F']; subst.
    assert (Fit' : forall h1, same_shape h h1 -> zlen (h_counts h) <= zlen (h_counts h1) ->
       forall k, i + 1 <= k < i + 1 + zlen cs -> zn cs (k - (i + 1)) <> 0 -> bin h1 (bval s k) < zlen (h_counts h1)).
    { intros h1 SS LL k Hk NZ. rewrite (same_shape_bin _ _ _ SS).
      assert (bin h (bval s k) < zlen (h_counts h)); [|lia].
      apply Fit; [lia|]. rewrite zn_cons_S by lia. replace (k - i - 1) with (k - (i + 1)) by lia. auto. }
    destruct (Z.eqb_spec c 0).
    + apply IH; auto; try lia. apply Fit'; auto using same_shape_refl; lia.
    + pose proof (bval_u64 s i (w_cfg s WS) (w_size s WS) ltac:(lia)) as VU.
      rewrite value_for_ok; [|apply (w_cfg s WS)|].
      2: { pose proof (len_le_top s (w_cfg s WS) (w_size s WS)). lia. }
      cbn [bind]. fold (bval s i).
      destruct (record_n_ok h (bval s i) c WH VU) as (h1 & E & R).
      { rewrite CT. lia. }
      { left. apply Fit; [lia|]. rewrite Z.sub_diag, zn_cons_0. auto. }
      rewrite E. cbn [bind]. pose proof R as [R1 R2 R3 R4 _ _ R5 R6].
      destruct (IH (i + 1) h1) as (h2 & E2 & A); auto; try lia.
      { rewrite (ss_ctr _ _ R2). auto. }
      exists h2. split; auto. econstructor; eauto; lia.
Qed.

(** ** The result of an addition *)
Record added (h s h' : hist) : Prop := {
  ad_wf : wf h';
  ad_shape : same_shape h h';
  ad_cnt : forall j, 0 <= j -> zn (h_counts h') j =
      Z.min (cmax (h_ctr h)) (zn (h_counts h) j + wsum (bin h) j (contents s));
  ad_total : h_total s = Z.min u64_max (zsum (h_counts s)) ->
      h_total h' = Z.min u64_max (h_total h + zsum (h_counts s));
  ad_len : zlen (h_counts h) <= zlen (h_counts h');
  ad_high : h_high h <= h_high h'
}.

Lemma recorded_all_added h l s h' :
  recorded_all h l h' -> (forall j, 0 <= j -> wsum (bin h) j l = wsum (bin h) j (contents s)) ->
  wtotal l = zsum (h_counts s) -> added h s h'.
Proof.
  intros [A1 A2 A3 A4 A5 A6] E T. constructor; auto.
  - intros j Hj. rewrite A3, E by auto. reflexivity.
  - intros _. rewrite A4, T. reflexivity.
Qed.

Lemma empty_zero h : wf h -> h_total h = 0 -> forall i, 0 <= i -> zn (h_counts h) i = 0.
Proof.
  intros W E. apply zsum_0_iff; [apply wf_nonneg; auto|].
  pose proof (w_total h W). pose proof (zsum_nonneg _ (wf_nonneg h W)). unfold u64_max in *. lia.
Qed.

Lemma update_max_ok h v : cfg_ok h -> 0 <= v ->
  update_max h v = set_max h (Z.max (h_max h) (v / 2 ^ h_um h * 2 ^ h_um h + (2 ^ h_um h - 1))).
Proof.
  intros C V. unfold update_max. rewrite (c_umm h C), lor_mask by (apply um_nonneg; auto).
  destruct (Z.ltb_spec (h_max h) (v / 2 ^ h_um h * 2 ^ h_um h + (2 ^ h_um h - 1))).
  - rewrite Z.max_r by lia. reflexivity.
  - rewrite Z.max_l by lia. destruct h; reflexivity.
Qed.

Lemma update_min_ok h v : cfg_ok h -> 0 <= v ->
  update_min h v = set_min h (if 2 ^ h_um h <=? v then Z.min (h_min h) (v / 2 ^ h_um h * 2 ^ h_um h) else h_min h).
Proof.
  intros C V. unfold update_min. rewrite (c_umm h C).
  destruct (Z.leb_spec v (2 ^ h_um h - 1)); destruct (Z.leb_spec (2 ^ h_um h) v); try lia.
  - destruct h; reflexivity.
  - rewrite ldiff_mask by (apply um_nonneg; auto).
    destruct (Z.ltb_spec (v / 2 ^ h_um h * 2 ^ h_um h) (h_min h)).
    + rewrite Z.min_r by lia. reflexivity.
    + rewrite Z.min_l by lia. destruct h; reflexivity.
Qed.

(** stats after the aligned addition *)
Definition add_max (h s : hist) : Z :=
  if maxp h <? maxp s then maxp s / 2 ^ h_um h * 2 ^ h_um h + (2 ^ h_um h - 1) else h_max h.
Definition add_min (h s : hist) : Z :=
  if (minp s <? minp h) && (2 ^ h_um h <=? minp s) then Z.min (h_min h) (minp s / 2 ^ h_um h * 2 ^ h_um h) else h_min h.

Definition matching (h s : hist) : bool :=
  (h_bucket_count h =? h_bucket_count s) && (h_sub_bucket_count h =? h_sub_bucket_count s)
  && (h_um h =? h_um s).

Lemma matching_facts h s : cfg_ok h -> cfg_ok s -> size_ok h -> size_ok s -> matching h s = true ->
  h_um s = h_um h /\ h_half_mag s = h_half_mag h /\ zlen (h_counts s) = zlen (h_counts h).
Proof.
  intros CH CS SH SS M. unfold matching in M.
  apply andb_true_iff in M. destruct M as [M M3]. apply andb_true_iff in M. destruct M as [M1 M2].
  apply Z.eqb_eq in M1, M2, M3. rewrite (c_sbc h CH), (c_sbc s CS) in M2.
  assert (EM : h_half_mag s = h_half_mag h).
  { apply Z.pow_inj_r in M2; lia || (pose proof (m_nonneg h CH); pose proof (m_nonneg s CS); lia). }
  split; [auto|]. split; [auto|].
  rewrite (s_len h SH), (s_len s SS). rewrite (s_bc h SH), (s_bc s SS) in M1. rewrite EM in *. f_equal. lia.
Qed.

Lemma minp_ge_um s : wf s -> 2 ^ h_um s <= minp s.
Proof.
  intros WS. pose proof (w_cfg s WS) as CS. pose proof (um_nonneg s CS) as U0. pose proof (m_nonneg s CS) as M0.
  unfold minp. destruct (Z.eqb_spec (h_min s) u64_max).
  - pose proof (um_range s CS). pose proof (pow2_le_64 (h_um s) ltac:(lia)) as PL.
    unfold u64_max. change (2 ^ 63) with 9223372036854775808 in PL. lia.
  - destruct (w_min_shape s WS) as [|[MS MG]]; [lia|].
    rewrite <- val_idx; [|lia|lia|apply (w_min s WS)].
    assert (I1 : 1 <= idx (h_um s) (h_half_mag s) (h_min s)).
    { pose proof (idx_nonneg _ _ U0 M0 (h_min s) ltac:(apply (w_min s WS))).
      assert (idx (h_um s) (h_half_mag s) (h_min s) <> 0); [|lia].
      rewrite idx_0_iff; auto; [lia|apply (w_min s WS)]. }
    pose proof (val_le (h_um s) (h_half_mag s) U0 M0 1 _ ltac:(lia) I1) as VL.
    assert (val (h_um s) (h_half_mag s) 1 = 2 ^ h_um s); [|lia].
    change 1 with (0 + 1). rewrite val_succ by (auto; lia). rewrite val_0 by auto.
    unfold wid, bkt. change (Z.log2 0) with 0. rewrite Z.max_l by lia. rewrite Z.add_0_r. lia.
Qed.

Lemma add_max_bin h s : wf h -> wf s -> h_um s = h_um h -> h_half_mag s = h_half_mag h ->
  bin h (add_max h s) = Z.max (bin h (h_max h)) (bin h (h_max s)).
Proof.
  intros WH WS EU EM. pose proof (w_cfg h WH) as CH.
  pose proof (um_nonneg h CH) as U0. pose proof (m_nonneg h CH) as M0.
  pose proof (maxp_u64 s WS) as SMU. pose proof (maxp_u64 h WH) as HMU.
  pose proof (bin_maxp h WH) as B1. pose proof (bin_maxp s WS) as B2. unfold bin in *. rewrite EU, EM in B2.
  unfold add_max. destruct (Z.ltb_spec (maxp h) (maxp s)).
  - rewrite idx_ceil_um by (auto; apply SMU). rewrite B2.
    pose proof (idx_mono _ _ U0 M0 (maxp h) (maxp s)). destruct HMU. lia.
  - pose proof (idx_mono _ _ U0 M0 (maxp s) (maxp h)). destruct SMU. lia.
Qed.

Lemma add_min_bin h s : wf h -> wf s -> h_um s = h_um h -> h_half_mag s = h_half_mag h ->
  bin h (add_min h s) = Z.min (bin h (h_min h)) (bin h (h_min s)).
Proof.
  intros WH WS EU EM. pose proof (w_cfg h WH) as CH.
  pose proof (um_nonneg h CH) as U0. pose proof (m_nonneg h CH) as M0. pose proof (pow2_pos (h_um h) U0) as P2.
  pose proof (minp_ge_um s WS) as G. rewrite EU in G.
  pose proof (bin_minp h WH) as B1. pose proof (bin_minp s WS) as B2. unfold bin in *. rewrite EU, EM in B2.
  pose proof (minp_u64 h WH) as HNU. pose proof (w_min h WH) as HN. pose proof (minp_u64 s WS) as SNU. destruct HNU, HN, SNU.
  pose proof (idx_floor_um _ _ U0 M0 (minp s) ltac:(lia)) as FU.
  pose proof (Z.div_pos (minp s) (2 ^ h_um h) ltac:(lia) P2).
  unfold add_min. destruct (Z.ltb_spec (minp s) (minp h)); cbn [andb].
  - destruct (Z.leb_spec (2 ^ h_um h) (minp s)); [|lia]. rewrite B2 in FU.
    destruct (Z.min_spec (h_min h) (minp s / 2 ^ h_um h * 2 ^ h_um h)) as [[L ->]|[L ->]].
    + pose proof (idx_mono _ _ U0 M0 (h_min h) (minp s / 2 ^ h_um h * 2 ^ h_um h) ltac:(lia)). lia.
    + pose proof (idx_mono _ _ U0 M0 (minp s / 2 ^ h_um h * 2 ^ h_um h) (h_min h) ltac:(nia)). lia.
  - pose proof (idx_mono _ _ U0 M0 (minp h) (minp s)). lia.
Qed.

(** the aligned addition into a non-empty histogram *)
Lemma add_body_aligned h s : wf h -> wf s -> h_ctr h = h_ctr s -> matching h s = true -> is_empty h = false ->
  exists h', add_body h s = Ret h' /\ added h s h' /\ h_max h' = add_max h s /\ h_min h' = add_min h s.
Proof.
  intros WH WS CT M E. pose proof (w_cfg h WH) as CH. pose proof (w_cfg s WS) as CS.
  destruct (matching_facts h s CH CS (w_size h WH) (w_size s WS) M) as (EU & EM & EL).
  unfold add_body. fold (matching h s). rewrite M, E. cbn [andb].
  destruct (add_aligned_ok (h_ctr h) (h_counts h) (h_counts s) 0) as (l & EA & LL & ZL); auto.
  { apply (w_cnt h WH). } { apply wf_nonneg; auto. } { unfold u64_max; lia. }
  rewrite EA. cbn [bind]. rewrite Z.add_0_l. hsimp.
  set (tot := sat_add64 (h_total h) (Z.min u64_max (zsum (h_counts s)))).
  set (h2 := set_total (set_counts h l) tot).
  rewrite (max_ok s WS). cbn [bind].
  assert (C2 : cfg_ok h2) by (unfold h2; destruct CH; constructor; hsimp; auto).
  assert (M2 : max h2 = Ret (maxp h)).
  { change (max h2) with (max h). apply max_ok; auto. }
  rewrite M2. cbn [bind].
  pose proof (maxp_u64 s WS) as SMU. pose proof (minp_u64 s WS) as SNU.
  pose proof (um_nonneg h CH) as U0. pose proof (m_nonneg h CH) as M0. pose proof (pow2_pos (h_um h) U0) as P2.
  set (h3 := if maxp h <? maxp s then update_max h2 (maxp s) else h2).
  assert (E3 : h3 = set_max h2 (add_max h s)).
  { unfold h3, add_max. destruct (Z.ltb_spec (maxp h) (maxp s)).
    - rewrite update_max_ok by (auto; apply SMU). change (h_um h2) with (h_um h). f_equal.
      change (h_max h2) with (h_max h). pose proof (h_max_le_maxp h WH).
      pose proof (Z.div_mod (maxp s) (2 ^ h_um h) ltac:(lia)). pose proof (Z.mod_pos_bound (maxp s) (2 ^ h_um h) P2).
      lia.
    - unfold h2. destruct h; reflexivity. }
  rewrite (min_nz_ok s WS). cbn [bind].
  assert (M3 : min_nz h3 = Ret (minp h)).
  { rewrite E3. change (min_nz (set_max h2 (add_max h s))) with (min_nz h). apply min_nz_ok; auto. }
  rewrite M3. cbn [bind].
  set (h4 := if minp s <? minp h then update_min h3 (minp s) else h3).
  assert (E4 : h4 = set_min (set_max h2 (add_max h s)) (add_min h s)).
  { unfold h4, add_min. rewrite E3. destruct (Z.ltb_spec (minp s) (minp h)); cbn [andb].
    - rewrite update_min_ok; [reflexivity| |apply SNU]. destruct C2; constructor; hsimp; auto.
    - unfold h2. destruct h; reflexivity. }
  exists h4. rewrite E4. clear E4 h4 M3 E3 h3.
  assert (CNT : forall j, 0 <= j -> zn l j = Z.min (cmax (h_ctr h)) (zn (h_counts h) j + wsum (bin h) j (contents s))).
  { intros j Hj. rewrite ZL by auto. unfold csat_add. f_equal. f_equal.
    rewrite <- (wsum_contents s j WS Hj). apply wsum_ext. intros. unfold bin. rewrite EU, EM. reflexivity. }
  assert (LEQ : zsum l <= zsum (h_counts h) + zsum (h_counts s)).
  { rewrite <- (zpre_all l (zlen (h_counts h))), <- (zpre_all (h_counts h) (zlen (h_counts h))),
      <- (zpre_all (h_counts s) (zlen (h_counts h))) by lia.
    assert (A : forall k, 0 <= k -> zpre l k <= zpre (h_counts h) k + zpre (h_counts s) k).
    { intros k Hk. pattern k. apply natlike_ind; auto.
      - rewrite !zpre_0. lia.
      - intros x Hx IH. rewrite <- Z.add_1_r, !zpre_succ by lia. rewrite ZL by auto. unfold csat_add. lia. }
    apply A. apply zlen_nonneg. }
  pose proof (add_max_bin h s WH WS EU EM) as BM. pose proof (add_min_bin h s WH WS EU EM) as BN. unfold bin in BM, BN.
  pose proof (minp_ge_um s WS) as SG. rewrite EU in SG.
  split; [reflexivity|]. split; [|split; reflexivity].
  constructor.
  - constructor; unfold h2; hsimp.
    + destruct CH; constructor; hsimp; auto.
    + pose proof (w_size h WH) as SZ. destruct SZ. constructor; hsimp; auto. rewrite LL. auto.
    + apply Forall_zn. intros i Hi. rewrite ZL by lia. unfold csat_add.
      pose proof (zn_nonneg (h_counts h) i (wf_nonneg h WH)). pose proof (zn_nonneg (h_counts s) i (wf_nonneg s WS)).
      pose proof (cmax_le (h_ctr h)). lia.
    + unfold add_max. destruct (_ <? _); [|apply (w_max h WH)]. apply ceil_um_u64; auto. apply um_range; auto.
    + rewrite BM, LL. pose proof (w_max_in h WH). pose proof (w_max_in s WS) as SI. rewrite EU, EM, EL in SI. lia.
    + intros i Hi NZ. rewrite BM. rewrite ZL in NZ by auto. unfold csat_add in NZ.
      destruct (Z.eq_dec (zn (h_counts h) i) 0).
      * destruct (Z.eq_dec (zn (h_counts s) i) 0); [pose proof (cmax_le (h_ctr h)); lia|].
        pose proof (w_max_top s WS i Hi ltac:(auto)) as T. rewrite EU, EM in T. lia.
      * pose proof (w_max_top h WH i Hi ltac:(auto)). lia.
    + unfold add_max. destruct (_ <? _); [|apply (w_max_shape h WH)]. right.
      rewrite Z.add_comm, Z.mod_add by lia. apply Z.mod_small. lia.
    + unfold add_min. destruct (_ && _); [|apply (w_min h WH)]. pose proof (w_min h WH). destruct SNU.
      pose proof (Z.div_pos (minp s) (2 ^ h_um h) ltac:(lia) P2). unfold u64 in *. nia.
    + intros i Hi NZ. rewrite ZL in NZ by lia. unfold csat_add in NZ.
      destruct (Z.eq_dec (zn (h_counts s) i) 0).
      * destruct (Z.eq_dec (zn (h_counts h) i) 0); [pose proof (cmax_le (h_ctr h)); lia|].
        pose proof (w_min_bot h WH i Hi ltac:(auto)).
        lia.
      * pose proof (w_min_bot s WS i Hi ltac:(auto)) as B. rewrite EU, EM in B. lia.
    + unfold add_min. destruct (Z.ltb_spec (minp s) (minp h)); cbn [andb]; [|apply (w_min_shape h WH)].
      destruct (Z.leb_spec (2 ^ h_um h) (minp s)); [|apply (w_min_shape h WH)].
      assert (1 <= minp s / 2 ^ h_um h) by (apply Z.div_le_lower_bound; lia).
      destruct (Z.min_spec (h_min h) (minp s / 2 ^ h_um h * 2 ^ h_um h)) as [[? ->]|[? ->]].
      * apply (w_min_shape h WH).
      * right. split; [apply Z.mod_mul; lia|nia].
    + unfold tot, sat_add64. pose proof (w_total h WH). pose proof (zsum_nonneg _ (wf_nonneg s WS)).
      pose proof (zsum_nonneg _ (wf_nonneg h WH)). unfold u64_max in *. lia.
  - constructor; reflexivity.
  - exact CNT.
  - intros _. unfold h2, tot, sat_add64; hsimp.
    pose proof (wf_total_nonneg h WH). pose proof (zsum_nonneg _ (wf_nonneg s WS)). lia.
  - unfold h2; hsimp. lia.
  - unfold h2; hsimp. lia.
Qed.

(** addition into an empty histogram of the same shape copies *)
Lemma add_body_copy h s : wf h -> wf s -> h_ctr h = h_ctr s -> matching h s = true -> is_empty h = true ->
  exists h', add_body h s = Ret h' /\ added h s h' /\ h_max h' = h_max s /\ h_min h' = h_min s
    /\ h_counts h' = h_counts s /\ h_total h' = h_total s.
Proof.
  intros WH WS CT M E. pose proof (w_cfg h WH) as CH. pose proof (w_cfg s WS) as CS.
  destruct (matching_facts h s CH CS (w_size h WH) (w_size s WS) M) as (EU & EM & EL).
  unfold add_body. fold (matching h s). rewrite M, E. cbn [andb]. unfold distinct_values.
  rewrite assert_true by lia. cbn [bind]. eexists. split; [reflexivity|].
  split; [|repeat split; reflexivity].
  unfold is_empty in E. apply Z.eqb_eq in E. pose proof (empty_zero h WH E) as Z0.
  destruct WS as [C2 S2 Cn Mx Mi Mt Ms Mn Nb Ns Tt] eqn:WSE. clear WSE.
  rewrite EU, ?EM in *.
  constructor; hsimp.
  - constructor; hsimp; auto.
    + destruct CH; constructor; hsimp; auto.
    + pose proof (w_size h WH) as SZ. destruct SZ. constructor; hsimp; auto. rewrite EL. auto.
    + rewrite CT. auto.
  - constructor; reflexivity.
  - intros j Hj. rewrite Z0 by auto. cbn [Z.add].
    rewrite (wsum_ext (bin h) (bin s)) by (intros; unfold bin; rewrite EU, EM; reflexivity).
    rewrite wsum_contents by auto. rewrite CT. pose proof (zn_le_cmax s j WS). lia.
  - intros ->. rewrite E. lia.
  - lia.
  - lia.
Qed.

(** the list that gets re-recorded is a rearrangement of the contents *)
Lemma rerecord_list s : wf s ->
  (forall f j, wsum f j ((bval s (bin s (h_max s)), zn (h_counts s) (bin s (h_max s))) ::
      bins_from (bval s) (firstn (Z.to_nat (bin s (h_max s))) (h_counts s)) 0) = wsum f j (contents s)) /\
  wtotal ((bval s (bin s (h_max s)), zn (h_counts s) (bin s (h_max s))) ::
      bins_from (bval s) (firstn (Z.to_nat (bin s (h_max s))) (h_counts s)) 0) = wtotal (contents s).
Proof.
  intros WS. pose proof (maxp_in s WS) as MI. rewrite (bin_maxp s WS) in MI.
  pose proof (bin_nonneg s (h_max s) (w_cfg s WS) ltac:(apply (w_max s WS))) as MN.
  set (mi := bin s (h_max s)) in *.
  assert (SP : h_counts s = firstn (Z.to_nat mi) (h_counts s) ++ skipn (Z.to_nat mi) (h_counts s)) by (symmetry; apply firstn_skipn).
  assert (SK : exists rest, skipn (Z.to_nat mi) (h_counts s) = zn (h_counts s) mi :: rest /\ forall k, 0 <= k -> zn rest k = 0).
  { destruct (skipn (Z.to_nat mi) (h_counts s)) as [|x rest] eqn:SE.
    - exfalso. pose proof (zlen_skipn (h_counts s) mi ltac:(lia)) as L. rewrite SE, zlen_nil in L. lia.
    - exists rest. assert (X : zn (x :: rest) 0 = zn (h_counts s) mi).
      { rewrite <- SE, zn_skipn by lia. f_equal. lia. }
      rewrite zn_cons_0 in X. split; [congruence|].
      intros k Hk. assert (Y : zn (x :: rest) (k + 1) = zn (h_counts s) (mi + (k + 1))).
      { rewrite <- SE, zn_skipn by lia. reflexivity. }
      rewrite zn_cons_S in Y by lia. replace (k + 1 - 1) with k in Y by lia. rewrite Y.
      destruct (Z.eq_dec (zn (h_counts s) (mi + (k + 1))) 0); auto.
      pose proof (w_max_top s WS (mi + (k + 1)) ltac:(lia) ltac:(auto)) as T. fold (bin s (h_max s)) in T. fold mi in T. lia. }
  destruct SK as (rest & SK & RZ). rewrite SK in SP.
  assert (CT2 : contents s = bins_from (bval s) (firstn (Z.to_nat mi) (h_counts s)) 0 ++
     (if zn (h_counts s) mi =? 0 then [] else [(bval s mi, zn (h_counts s) mi)])).
  { unfold contents. rewrite SP at 1. rewrite bins_from_app. f_equal.
    rewrite zlen_firstn by lia. cbn [bins_from]. rewrite !(bins_from_zero _ rest) by auto.
    rewrite Z.add_0_l. reflexivity. }
  split.
  - intros f j. rewrite CT2, wsum_app. cbn [wsum]. destruct (Z.eqb_spec (zn (h_counts s) mi) 0) as [->|]; cbn [wsum].
    + destruct (_ =? j); lia.
    + lia.
  - rewrite CT2, wtotal_app. cbn [wtotal].
    destruct (Z.eqb_spec (zn (h_counts s) mi) 0) as [->|]; cbn [wtotal]; lia.
Qed.

(** re-recording *)
Lemma add_body_rerecord h s : wf h -> wf s -> h_ctr h = h_ctr s -> matching h s = false ->
  (bin h (maxp s) < zlen (h_counts h)) ->
  exists h', add_body h s = Ret h' /\ added h s h' /\
    rec_many h ((bval s (bin s (h_max s)), zn (h_counts s) (bin s (h_max s))) ::
      bins_from (bval s) (firstn (Z.to_nat (bin s (h_max s))) (h_counts s)) 0) h'.
Proof.
  intros WH WS CT M Fit. pose proof (w_cfg h WH) as CH. pose proof (w_cfg s WS) as CS.
  unfold add_body. fold (matching h s). rewrite M. cbn [andb].
  rewrite (max_ok s WS). cbn [bind]. pose proof (maxp_u64 s WS) as SMU.
  rewrite index_for_ok by auto. cbn [bind expect]. fold (bin s (maxp s)).
  pose proof (maxp_in s WS) as MI. pose proof (bin_nonneg s (maxp s) CS ltac:(apply SMU)) as MN.
  unfold count_at_index. rewrite vget_in by lia. cbn [bind expect].
  rewrite value_for_ok; auto. 2: { pose proof (len_le_top s CS (w_size s WS)). lia. }
  cbn [bind]. rewrite (bin_maxp s WS) in *. fold (bval s (bin s (h_max s))).
  set (mi := bin s (h_max s)) in *.
  assert (BF : forall k, 0 <= k <= mi -> bin h (bval s k) < zlen (h_counts h)).
  { intros k Hk. assert (bval s k <= maxp s).
    { pose proof (bval_le s k mi CS ltac:(lia) ltac:(lia)). unfold mi in H. rewrite bval_bin in H by (auto; apply (w_max s WS)).
      pose proof (loweq_le (h_um s) (h_half_mag s) (um_nonneg s CS) (h_max s) ltac:(apply (w_max s WS))).
      pose proof (h_max_le_maxp s WS). lia. }
    pose proof (bin_mono h (bval s k) (maxp s) CH ltac:(pose proof (bval_nonneg s k CS); lia)). lia. }
  pose proof (zn_Forall _ _ mi (w_cnt s WS) ltac:(lia)) as CB. cbv beta in CB.
  destruct (record_n_ok h (bval s mi) (zn (h_counts s) mi) WH) as (h1 & E1 & R).
  { apply bval_u64; auto using w_size. } { rewrite CT; auto. } { left. apply BF. lia. }
  rewrite E1. cbn [bind]. pose proof R as [R1 R2 R3 R4 _ _ R5 R6].
  destruct (add_rerecord_ok s WS (firstn (Z.to_nat mi) (h_counts s)) 0 h1) as (h2 & E2 & A); auto; try lia.
  { rewrite (ss_ctr _ _ R2). auto. }
  { rewrite zlen_firstn by lia. lia. }
  { apply Forall_firstn. apply (w_cnt s WS). }
  { intros k Hk _. rewrite zlen_firstn in Hk by lia. rewrite (same_shape_bin _ _ _ R2).
    pose proof (BF k ltac:(lia)). lia. }
  assert (RM : rec_many h ((bval s mi, zn (h_counts s) mi) :: bins_from (bval s) (firstn (Z.to_nat mi) (h_counts s)) 0) h2).
  { econstructor; eauto. - apply bval_u64; auto using w_size. - apply (proj1 CB). }
  exists h2. split; auto. split; [|auto]. pose proof (rec_many_all _ _ _ RM) as RA.
  destruct (rerecord_list s WS) as [RL RT]. fold mi in RL, RT.
  eapply recorded_all_added; [exact RA| |]; auto. rewrite RT. apply wtotal_contents.
Qed.

Lemma add_body_ok h s : wf h -> wf s -> h_ctr h = h_ctr s -> bin h (maxp s) < zlen (h_counts h) ->
  exists h', add_body h s = Ret h' /\ added h s h'.
Proof.
  intros WH WS CT Fit. destruct (matching h s) eqn:M.
  - destruct (is_empty h) eqn:E.
    + destruct (add_body_copy h s) as (h' & ? & ? & _); eauto.
    + destruct (add_body_aligned h s) as (h' & ? & ? & _); eauto.
  - destruct (add_body_rerecord h s) as (h' & ? & ? & _); eauto.
Qed.

(** the range check of [add]: everything the source holds fits *)
Lemma resized_wf h v : wf h -> u64 v -> h_high h <= v -> zlen (h_counts h) <= zlen (h_counts (resized h v)) /\ wf (resized h v).
Proof.
  intros W V L. pose proof (w_cfg h W) as C. pose proof (c_high h C) as CH.
  pose proof (resized_cfg h C v V ltac:(lia)) as RC. pose proof (resized_size h C v) as RS.
  pose proof (high_u64 h C) as HU. pose proof (half_range h C) as HR.
  assert (LG : zlen (h_counts h) <= (bkt (h_um h) (h_half_mag h) v + 2) * 2 ^ h_half_mag h).
  { rewrite (s_len h (w_size h W)). pose proof (bkt_mono (h_um h) (h_half_mag h) (h_high h) v L).
    nia. }
  assert (LR : zlen (h_counts (resized h v)) = (bkt (h_um h) (h_half_mag h) v + 2) * 2 ^ h_half_mag h) by apply (s_len _ RS).
  split; [lia|].
  assert (ZR : forall i, 0 <= i -> zn (h_counts (resized h v)) i = zn (h_counts h) i).
  { intros i Hi. unfold resized; hsimp. rewrite zn_vresize; auto. 2: { rewrite <- LR. apply zlen_nonneg. }
    rewrite <- LR. destruct (Z.ltb_spec i (zlen (h_counts (resized h v)))); auto. rewrite zn_out by lia. reflexivity. }
  destruct W as [_ S Cn Mx Mi Mt Ms Mn Nb Ns Tt].
  constructor; auto.
  - unfold resized; hsimp. apply Forall_vresize; auto. pose proof (cmax_le (h_ctr h)). lia.
  - rewrite LR. eapply Z.lt_le_trans; [exact Mi|]. exact LG.
  - intros i Hi. rewrite ZR by auto. apply Mt. auto.
  - intros i Hi. rewrite ZR by lia. apply Nb. auto.
  - rewrite (zsum_ext _ _ ZR). apply Tt.
Qed.

Lemma add_ok h s : wf h -> wf s -> h_ctr h = h_ctr s ->
  (is_empty s = true /\ add h s = Ret (h, ROk tt)) \/
  (is_empty s = false /\ top_val h < maxp s /\ h_auto h = false /\ add h s = Ret (h, RErr OtherAddendValueExceedsRange)) \/
  (is_empty s = false /\ (maxp s <= top_val h \/ h_auto h = true) /\
     exists h', add h s = Ret (h', ROk tt) /\ added h s h' /\
       exists h0, add_body h0 s = Ret h' /\
         ((maxp s <= top_val h /\ h0 = h) \/ (top_val h < maxp s /\ h0 = resized h (maxp s)))).
Proof.
  intros WH WS CT. unfold add. destruct (is_empty s) eqn:ES; auto. right.
  pose proof (w_cfg h WH) as CH. pose proof (w_size h WH) as SH.
  rewrite (last_index_ok h CH SH). cbn [bind].
  destruct (top_ok h CH SH) as (l & E1 & E2). rewrite E1. cbn [bind]. rewrite E2. cbn [bind].
  rewrite (max_ok s WS). cbn [bind]. pose proof (maxp_u64 s WS) as SMU.
  destruct (Z.ltb_spec (top_val h) (maxp s)) as [L|L].
  - destruct (h_auto h) eqn:A; cbn [negb]; [right|left; auto].
    split; auto. split; auto.
    assert (HL : h_high h <= maxp s).
    { destruct (Z.eq_dec (h_high h) u64_max) as [E|N].
      - assert (top_val h = u64_max - 1).
        { unfold top_val. pose proof (proj1 (idx_in_iff_top h CH SH _ (high_u64 h CH)) (high_in h CH SH)).
          unfold u64_max in *. lia. }
        destruct SMU. lia.
      - pose proof (top_val_ge_high h CH SH N). lia. }
    pose proof (c_high h CH).
    rewrite resize_ok by (auto; lia). cbn [bind].
    destruct (resized_wf h (maxp s) WH SMU HL) as [RL RW].
    destruct (add_body_ok (resized h (maxp s)) s RW WS CT) as (h' & E & A').
    { apply (idx_in_iff _ (w_cfg _ RW) (w_size _ RW)); auto. apply Z.le_refl. }
    rewrite E. cbn [bind]. exists h'. split; auto.
    split; [|exists (resized h (maxp s)); split; auto].
    destruct A' as [A1 A2 A3 A4 A5 A6]. constructor; auto.
    + destruct A2; constructor; auto.
    + intros j Hj. rewrite A3 by auto. change (h_ctr (resized h (maxp s))) with (h_ctr h). f_equal. f_equal.
      unfold resized; hsimp.
      assert (0 <= (bkt (h_um h) (h_half_mag h) (maxp s) + 2) * 2 ^ h_half_mag h).
      { pose proof (bkt_nonneg (h_um h) (h_half_mag h) (maxp s)). pose proof (half_range h CH). nia. }
      assert (LR : zlen (h_counts (resized h (maxp s))) = (bkt (h_um h) (h_half_mag h) (maxp s) + 2) * 2 ^ h_half_mag h)
        by apply (s_len _ (w_size _ RW)).
      rewrite zn_vresize by auto. rewrite <- LR.
      destruct (Z.ltb_spec j (zlen (h_counts (resized h (maxp s))))); auto. rewrite zn_out by lia. reflexivity.
    + lia.
    + unfold resized in A6; hsimp in A6. lia.
  - right. split; auto. split; auto.
    destruct (add_body_ok h s WH WS CT) as (h' & E & A').
    { destruct (top_val_in h CH SH) as [TU TI]. fold (bin h (top_val h)) in TI.
      pose proof (bin_mono h (maxp s) (top_val h) CH). destruct SMU. lia. }
    rewrite E. cbn [bind]. exists h'. split; auto. split; auto. exists h; auto.
Qed.
