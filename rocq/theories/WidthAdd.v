(** * A [usize] of another width: the operations that record many values *)
From Verif Require Import Machine Log2Model FloatModel HistModel IterModel SerModel WidthModel WidthSpec WidthFacts WidthWf ListZ Bins Log2Facts
  Cfg Wf Ops MoreFacts AddFacts SubFacts Exact.
From Coq Require Import ZifyBool ZifyNat.

Section ANY.
Variable w : Z.
Hypothesis W1 : 1 <= w.

Lemma wf_fits h : wf h -> addressable w h -> fits w h.
Proof using W1. intros W A. apply addressable_fits; auto; [apply (w_cfg _ W)|apply (w_size _ W)]. Qed.

Lemma addressable_same h h' : h_ctr h' = h_ctr h -> zlen (h_counts h') = zlen (h_counts h) -> addressable w h -> addressable w h'.
Proof using. unfold addressable, distinct_values. intros -> ->. auto. Qed.

Lemma addressable_less h h' : h_ctr h' = h_ctr h -> zlen (h_counts h) <= zlen (h_counts h') -> addressable w h' -> addressable w h.
Proof using. clear W1. unfold addressable, distinct_values. intros -> L A. pose proof (size_of_range (h_ctr h)). nia. Qed.

Lemma record_in h v n : wf h -> u64 v -> 0 <= n <= cmax (h_ctr h) -> addressable w h -> bin h v < zlen (h_counts h) ->
  exists h1, record_n h v n = Ret (h1, ROk tt) /\ record_n_w w h v n = Ret (h1, ROk tt) /\ recorded h v n h1 /\
    zlen (h_counts h1) = zlen (h_counts h) /\ addressable w h1.
Proof using W1.
  intros W V N A B. exists (rec_pure h v n).
  assert (E : record_n h v n = Ret (rec_pure h v n, ROk tt)).
  { unfold record_n. rewrite record_n_inner_ok; auto using w_cfg, w_size. fold (bin h v).
    destruct (Z.ltb_spec (bin h v) (zlen (h_counts h))); [reflexivity|lia]. }
  assert (L : zlen (h_counts (rec_pure h v n)) = zlen (h_counts h)) by (unfold rec_pure; cbn zeta; hsimp; apply zlen_vset).
  assert (A1 : addressable w (rec_pure h v n)) by (apply (addressable_same h); auto).
  split; auto. split. { rewrite record_n_w_ok by auto. rewrite E. rewrite allowed_addressable by auto. reflexivity. }
  split; [apply rec_pure_recorded; auto; lia|]. auto.
Qed.

Lemma rerecord_any s : wf s -> addressable w s -> forall cs i h,
  wf h -> h_ctr h = h_ctr s -> 0 <= i -> i + zlen cs <= zlen (h_counts s) -> addressable w h ->
  Forall (fun c => 0 <= c <= cmax (h_ctr s)) cs ->
  (forall k, i <= k < i + zlen cs -> zn cs (k - i) <> 0 -> bin h (bval s k) < zlen (h_counts h)) ->
  exists h', add_rerecord h s cs i = Ret h' /\ add_rerecord_w w h s cs i = Ret h' /\
    zlen (h_counts h') = zlen (h_counts h) /\ h_ctr h' = h_ctr h.
Proof using W1.
  intros WS AS. induction cs as [|c cs IH]; intros i h WH CT Hi Hl AH F Fit.
  - cbn. exists h. auto.
  - cbn [add_rerecord add_rerecord_w]. rewrite zlen_cons in *. pose proof (zlen_nonneg cs).
    inversion F as [|? ? Fc F']; subst.
    assert (Fit' : forall h1, same_shape h h1 -> zlen (h_counts h) = zlen (h_counts h1) ->
       forall k, i + 1 <= k < i + 1 + zlen cs -> zn cs (k - (i + 1)) <> 0 -> bin h1 (bval s k) < zlen (h_counts h1)).
    { intros h1 SS LL k Hk NZ. rewrite (same_shape_bin _ _ _ SS).
      assert (bin h (bval s k) < zlen (h_counts h)); [|lia].
      apply Fit; [lia|]. rewrite zn_cons_S by lia. replace (k - i - 1) with (k - (i + 1)) by lia. auto. }
    destruct (Z.eqb_spec c 0).
    + apply IH; auto; try lia. apply Fit'; auto using same_shape_refl; lia.
    + pose proof (bval_u64 s i (w_cfg s WS) (w_size s WS) ltac:(lia)) as VU.
      rewrite value_for_w_eq by (apply wf_fits; auto).
      rewrite value_for_ok; [|apply (w_cfg s WS)|].
      2: { pose proof (len_le_top s (w_cfg s WS) (w_size s WS)). lia. }
      cbn [bind]. fold (bval s i).
      destruct (record_in h (bval s i) c WH VU) as (h1 & E & E' & R & L1 & A1); auto.
      { rewrite CT. lia. }
      { apply Fit; [lia|]. rewrite Z.sub_diag, zn_cons_0. auto. }
      rewrite E, E'. cbn [bind]. pose proof R as [R1 R2 R3 R4 _ _ R5 R6].
      destruct (IH (i + 1) h1) as (h2 & E2 & E2' & L2 & C2); auto; try lia.
      { rewrite (Ops.ss_ctr _ _ R2). auto. }
      exists h2. split; auto. split; auto. split; [lia|]. rewrite C2. apply (Ops.ss_ctr _ _ R2).
Qed.

Lemma add_body_any h s : wf h -> wf s -> h_ctr h = h_ctr s -> addressable w h -> addressable w s ->
  bin h (maxp s) < zlen (h_counts h) ->
  exists h', add_body h s = Ret h' /\ add_body_w w h s = Ret h' /\ zlen (h_counts h') = zlen (h_counts h) /\ h_ctr h' = h_ctr h.
Proof using W1.
  intros WH WS CT AH AS Fit. pose proof (w_cfg h WH) as CH. pose proof (w_cfg s WS) as CS.
  destruct (matching h s) eqn:M.
  - destruct (add_body_ok h s WH WS CT Fit) as (h' & E & _). exists h'. split; auto. split.
    { rewrite <- E. unfold add_body_w, add_body. cbv zeta. fold (matching h s). rewrite M. destruct (is_empty h); reflexivity. }
    destruct (matching_facts h s CH CS (w_size h WH) (w_size s WS) M) as (EU & EM & EL).
    unfold add_body in E. cbv zeta in E. fold (matching h s) in E. rewrite M in E. cbn [andb] in E.
    destruct (is_empty h).
    + destruct (assert _) as [u|]; cbn [bind] in E; [|discriminate]. injection E as <-. hsimp. split; auto.
    + destruct (add_aligned_ok (h_ctr h) (h_counts h) (h_counts s) 0) as (l & EA & LL & ZL); auto.
      { apply (w_cnt h WH). } { apply wf_nonneg; auto. } { unfold u64_max; lia. }
      rewrite EA in E. cbn [bind] in E.
      repeat match type of E with bind ?m _ = _ => destruct m; cbn [bind] in E; [|discriminate] end.
      injection E as <-. unfold update_max, update_min.
      repeat match goal with |- context [if ?b then _ else _] => destruct b end; hsimp; auto.
  - unfold add_body, add_body_w. cbv zeta. fold (matching h s). rewrite M. cbn [andb].
    rewrite (max_ok s WS). cbn [bind]. pose proof (maxp_u64 s WS) as SMU.
    rewrite index_for_w_eq. rewrite index_for_ok by auto. cbn [bind expect]. fold (bin s (maxp s)).
    pose proof (maxp_in s WS) as MI. pose proof (bin_nonneg s (maxp s) CS ltac:(apply SMU)) as MN.
    pose proof (f_len _ _ (wf_fits s WS AS)) as FL. unfold distinct_values in FL.
    unfold to_usize_w. replace (_ && _) with true by lia. cbn [expect bind].
    unfold count_at_index. rewrite vget_in by lia. cbn [bind expect].
    rewrite value_for_w_eq by (apply wf_fits; auto).
    rewrite value_for_ok; auto. 2: { pose proof (len_le_top s CS (w_size s WS)). lia. }
    cbn [bind]. rewrite (bin_maxp s WS) in *. fold (bval s (bin s (h_max s))).
    set (mi := bin s (h_max s)) in *.
    assert (BF : forall k, 0 <= k <= mi -> bin h (bval s k) < zlen (h_counts h)).
    { intros k Hk. assert (bval s k <= maxp s).
      { pose proof (bval_le s k mi CS ltac:(lia) ltac:(lia)) as H. unfold mi in H. rewrite bval_bin in H by (auto; apply (w_max s WS)).
        pose proof (loweq_le (h_um s) (h_half_mag s) (um_nonneg s CS) (h_max s) ltac:(apply (w_max s WS))).
        pose proof (h_max_le_maxp s WS). lia. }
      pose proof (bin_mono h (bval s k) (maxp s) CH ltac:(pose proof (bval_nonneg s k CS); lia)). lia. }
    pose proof (zn_Forall _ _ mi (w_cnt s WS) ltac:(lia)) as CB. cbv beta in CB.
    destruct (record_in h (bval s mi) (zn (h_counts s) mi) WH) as (h1 & E1 & E1' & R & L1 & A1); auto.
    { apply bval_u64; auto using w_size. } { rewrite CT; auto. } { apply BF. lia. }
    rewrite E1, E1'. cbn [bind]. pose proof R as [R1 R2 R3 R4 _ _ R5 R6].
    destruct (rerecord_any s WS AS (firstn (Z.to_nat mi) (h_counts s)) 0 h1) as (h2 & E2 & E2' & L2 & C2); auto; try lia.
    { rewrite (Ops.ss_ctr _ _ R2). auto. }
    { rewrite zlen_firstn by lia. lia. }
    { apply Forall_firstn. apply (w_cnt s WS). }
    { intros k Hk _. rewrite zlen_firstn in Hk by lia. rewrite (same_shape_bin _ _ _ R2).
      pose proof (BF k ltac:(lia)). lia. }
    exists h2. split; auto. split; auto. split; [lia|]. rewrite C2. apply (Ops.ss_ctr _ _ R2).
Qed.

End ANY.

Lemma add_body_size h s h' : wf h -> wf s -> h_ctr h = h_ctr s -> bin h (maxp s) < zlen (h_counts h) -> add_body h s = Ret h' ->
  zlen (h_counts h') = zlen (h_counts h) /\ h_ctr h' = h_ctr h.
Proof.
  intros WH WS CT B E.
  destruct (add_body_any 64 ltac:(lia) h s WH WS CT) as (h2 & E2 & _ & L & C); auto.
  - apply wide_addressable; [lia|apply (w_cfg _ WH)|apply (w_size _ WH)].
  - apply wide_addressable; [lia|apply (w_cfg _ WS)|apply (w_size _ WS)].
  - rewrite E in E2. injection E2 as <-. auto.
Qed.

Section ADD.
Variable w : Z.
Hypothesis W1 : 1 <= w.

Definition after_add (h h' : hist) : res (hist * result unit addition_error) :=
  a <- allowed w h' ;; Ret (match a with Some _ => (h', ROk tt) | None => (h, RErr AddResizeFailedUsizeTypeTooSmall) end).

Lemma allowed_size h h' : h_ctr h' = h_ctr h -> zlen (h_counts h') = zlen (h_counts h) ->
  allowed w h' = (o <- allowed w h ;; Ret (match o with Some _ => Some h' | None => None end)).
Proof using.
  intros C L. unfold allowed, distinct_values. rewrite C, L.
  destruct (_ <=? _); [|reflexivity]. destruct (vec_fits_w _ _ _); reflexivity.
Qed.

Lemma add_any h s : wf h -> wf s -> h_ctr h = h_ctr s -> addressable w h -> addressable w s ->
  add_w w h s = match add h s with Ret (h', ROk _) => after_add h h' | r => r end.
Proof using W1.
  intros WH WS CT AH AS. unfold add_w, add. destruct (is_empty s) eqn:ES.
  { unfold after_add. rewrite allowed_addressable by auto. reflexivity. }
  pose proof (w_cfg h WH) as CH. pose proof (w_size h WH) as SH.
  rewrite (last_index_ok h CH SH). cbn [bind]. rewrite value_for_w_eq by (apply (wf_fits w W1); auto).
  destruct (top_ok h CH SH) as (l & E1 & E2). rewrite E1. cbn [bind]. rewrite E2. cbn [bind].
  rewrite (max_ok s WS). cbn [bind]. pose proof (maxp_u64 s WS) as SMU.
  destruct (Z.ltb_spec (top_val h) (maxp s)) as [L|L].
  - destruct (h_auto h) eqn:A; cbn [negb]; [|reflexivity].
    assert (HL : h_high h <= maxp s).
    { destruct (Z.eq_dec (h_high h) u64_max) as [E|N].
      - assert (top_val h = u64_max - 1).
        { unfold top_val. pose proof (proj1 (idx_in_iff_top h CH SH _ (high_u64 h CH)) (high_in h CH SH)).
          unfold u64_max in *. lia. }
        destruct SMU. lia.
      - pose proof (top_val_ge_high h CH SH N). lia. }
    pose proof (c_high h CH). rewrite resize_w_eq. rewrite resize_ok by (auto; lia). cbn [bind].
    destruct (resized_wf h (maxp s) WH SMU HL) as [RL RW].
    assert (RB : bin (resized h (maxp s)) (maxp s) < zlen (h_counts (resized h (maxp s)))).
    { apply (idx_in_iff _ (w_cfg _ RW) (w_size _ RW)); auto. apply Z.le_refl. }
    destruct (add_body_ok (resized h (maxp s)) s RW WS CT RB) as (h' & E & AD).
    rewrite E. cbn [bind]. unfold after_add.
    destruct (allowed w (resized h (maxp s))) as [[hr|]|] eqn:EL; cbn [bind].
    + pose proof (allowed_ctr _ _ _ EL); subst hr.
      assert (AR : addressable w (resized h (maxp s))).
      { unfold allowed, vec_fits_w in EL. unfold addressable, isize_max_w in *. destruct (_ <=? usize_max_w w); [|discriminate].
        destruct (Z.leb_spec (size_of (h_ctr (resized h (maxp s))) * distinct_values (resized h (maxp s))) (2 ^ (w - 1) - 1)); [auto|discriminate]. }
      destruct (add_body_any w W1 (resized h (maxp s)) s RW WS CT AR AS RB) as (h2 & E3 & E4 & L4 & C4).
      rewrite E in E3. injection E3 as <-. rewrite E4. cbn [bind]. rewrite (allowed_size _ _ C4 L4), EL. reflexivity.
    + assert (SZ : zlen (h_counts h') = zlen (h_counts (resized h (maxp s))) /\ h_ctr h' = h_ctr (resized h (maxp s))) by (exact (add_body_size _ _ _ RW WS CT RB E)).
      rewrite (allowed_size _ _ (proj2 SZ) (proj1 SZ)), EL. reflexivity.
    + assert (SZ : zlen (h_counts h') = zlen (h_counts (resized h (maxp s))) /\ h_ctr h' = h_ctr (resized h (maxp s))) by (exact (add_body_size _ _ _ RW WS CT RB E)).
      rewrite (allowed_size _ _ (proj2 SZ) (proj1 SZ)), EL. reflexivity.
  - assert (B : bin h (maxp s) < zlen (h_counts h)).
    { destruct (top_val_in h CH SH) as [TU TI]. fold (bin h (top_val h)) in TI.
      pose proof (bin_mono h (maxp s) (top_val h) CH). destruct SMU. lia. }
    destruct (add_body_any w W1 h s WH WS CT AH AS B) as (h' & E & E' & LL & CC). rewrite E, E'. cbn [bind].
    unfold after_add. rewrite allowed_addressable; auto. apply (addressable_same w h); auto.
Qed.
End ADD.

(** ** Subtraction, and recording with clamping, never resize *)
Section FIX.
Variable w : Z.

Lemma fits_set h h' : fits w h -> h_half_mag h' = h_half_mag h -> zlen (h_counts h') = zlen (h_counts h) -> fits w h'.
Proof using. intros [] E1 E3. unfold distinct_values in *. constructor; unfold distinct_values; rewrite ?E1, ?E3; auto. Qed.

Lemma restat_update_any s h : fits w h -> restat_update_w w s h = restat_update s h.
Proof using.
  intros N. unfold restat_update_w, restat_update.
  match goal with |- bind ?m _ = bind ?m' _ => assert (M : m = m') end.
  { destruct (rs_max s); auto. rewrite value_for_w_eq by auto. reflexivity. }
  rewrite M. clear M. bc. assert (N1 : fits w a).
  { destruct (rs_max s); [|inversion E; subst; auto].
    repeat match type of E with bind ?m _ = _ => destruct m; cbn [bind] in E; [|discriminate] end. injection E as <-.
    unfold update_max. destruct (_ <? _); auto. apply (fits_set h); auto. }
  destruct (rs_min s); auto. rewrite value_for_w_eq by auto. reflexivity.
Qed.

Lemma restat_any h : fits w h -> restat_w w h = restat h.
Proof using. intros N. unfold restat_w, restat. cbv zeta. apply restat_update_any. apply (fits_set h); auto. Qed.

Lemma sub_loop_fits s cs : forall i h b x y h' r, fits w h -> sub_loop s cs i h b x y = Ret (h', r) -> fits w h'.
Proof using.
  induction cs as [|c cs IH]; intros i h b x y h' r N E; cbn [sub_loop] in E; [inversion E; subst; auto|].
  destruct (_ =? _); [eapply IH; eauto|]. destruct (value_for s i); cbn [bind] in E; [|discriminate].
  destruct (mut_at h a) as [[j|]|]; cbn [bind] in E; try discriminate.
  destruct (expect _) as [c0|]; cbn [bind] in E; [|discriminate].
  destruct (cchecked_sub c0 c) as [c1|]; [|inversion E; subst; auto]. cbv zeta in E.
  assert (N1 : fits w (set_counts h (vset (h_counts h) j c1))) by (apply (fits_set h); auto; hsimp; apply zlen_vset).
  destruct (_ || _); cbn [bind] in E.
  - eapply IH; eauto.
  - destruct (expect _) as [t|]; cbn [bind] in E; [|discriminate]. eapply IH; [|exact E]. apply (fits_set _ _ N1); auto.
Qed.

Lemma sub_loop_any s cs : fits w s -> forall i h b x y, fits w h -> sub_loop_w w s cs i h b x y = sub_loop s cs i h b x y.
Proof using.
  intros NS. induction cs as [|c cs IH]; intros i h b x y N; cbn [sub_loop_w sub_loop]; auto. destruct (_ =? _); auto.
  rewrite value_for_w_eq by auto. bc. rewrite mut_at_w_eq by auto. bc.
  destruct a0 as [j|]; auto. bc. destruct (cchecked_sub a0 c) as [c1|]; auto. cbv zeta.
  assert (N1 : fits w (set_counts h (vset (h_counts h) j c1))) by (apply (fits_set h); auto; hsimp; apply zlen_vset).
  bc. apply IH. destruct (_ || _); [inversion E2; subst; auto|].
  destruct (expect (cchecked_sub _ _)) as [t|]; cbn [bind] in E2; [|discriminate]. injection E2 as <-. apply (fits_set _ _ N1); auto.
Qed.

Lemma subtract_any h s : fits w h -> fits w s -> subtract_w w h s = subtract h s.
Proof using.
  intros N NS. unfold subtract_w, subtract. destruct (is_empty s); auto. bc. rewrite value_for_w_eq by auto.
  bc. bc. bc. bc. destruct (_ <? _); auto. bc. bc. bc. bc. rewrite sub_loop_any by auto. bc. destruct a8 as [h1 [[]|]]; auto.
  rewrite restat_any; auto. apply (sub_loop_fits _ _ _ _ _ _ _ _ _ N E8).
Qed.

Lemma saturating_any h v n : fits w h -> saturating_record_n_w w h v n = saturating_record_n h v n.
Proof using.
  intros F. unfold saturating_record_n_w, saturating_record_n. rewrite record_n_inner_w_eq by auto. unfold record_pre.
  destruct (mut_at h v) as [slot|] eqn:E; cbn [bind].
  2: { unfold record_n_inner. rewrite E. reflexivity. }
  destruct slot; reflexivity.
Qed.
End FIX.

(** ** Correction *)
Section CORRECT.
Variable w : Z.
Hypothesis W1 : 1 <= w.

Lemma correct_loop_any fuel : forall h mv n i,
  wf h -> u64 mv -> 0 <= n <= cmax (h_ctr h) -> 1 <= i -> bin h mv < zlen (h_counts h) -> addressable w h ->
  correct_loop_w w fuel h mv n i = correct_loop fuel h mv n i /\
  (forall h' r, correct_loop fuel h mv n i = Ret (h', r) -> zlen (h_counts h') = zlen (h_counts h) /\ h_ctr h' = h_ctr h).
Proof using W1.
  induction fuel as [|f IH]; intros h mv n i W V N Hi B A; cbn [correct_loop correct_loop_w].
  { split; auto. intros h' r E. destruct (_ <=? _); inversion E; subst; auto. }
  destruct (Z.leb_spec i mv) as [L|L].
  2: { split; auto. intros h' r E. inversion E; subst; auto. }
  destruct (record_in w W1 h mv n W V N A B) as (h1 & E & E' & R & LL & A1).
  unfold record_n, record_n_w in *. rewrite E, E'. cbn [bind].
  unfold u64_sub. rewrite in_range_ok by (unfold u64 in V; lia). cbn [bind].
  pose proof (Ops.ss_ctr _ _ (rd_shape _ _ _ _ R)) as EC.
  destruct (IH h1 (mv - i) n i) as (P & Q); auto.
  - apply R.
  - unfold u64 in *; lia.
  - rewrite EC; auto.
  - rewrite (recorded_bin _ _ _ _ _ R).
    pose proof (bin_mono h (mv - i) mv (w_cfg h W) ltac:(unfold u64 in *; lia)). lia.
  - split; auto. intros h' r X. destruct (Q h' r X) as (Q1 & Q2). split; congruence.
Qed.

End CORRECT.

Lemma correct_loop_size fuel h mv n i h' r : wf h -> u64 mv -> 0 <= n <= cmax (h_ctr h) -> 1 <= i -> bin h mv < zlen (h_counts h) ->
  correct_loop fuel h mv n i = Ret (h', r) -> zlen (h_counts h') = zlen (h_counts h) /\ h_ctr h' = h_ctr h.
Proof.
  intros W V N I B E. destruct (correct_loop_any 64 ltac:(lia) fuel h mv n i W V N I B) as (_ & Q); [|apply (Q h' r E)].
  apply wide_addressable; [lia|apply (w_cfg _ W)|apply (w_size _ W)].
Qed.

Section CORRECT2.
Variable w : Z.
Hypothesis W1 : 1 <= w.

Definition after_record (h h' : hist) : res (hist * result unit record_error) :=
  a <- allowed w h' ;; Ret (match a with Some _ => (h', ROk tt) | None => (h, RErr RecordResizeFailedUsizeTypeTooSmall) end).

Lemma allowed_inv h o : allowed w h = Ret (Some o) -> addressable w h.
Proof using.
  intros EL. unfold allowed, vec_fits_w in EL. unfold addressable, isize_max_w in *. destruct (_ <=? usize_max_w w); [|discriminate].
  destruct (Z.leb_spec (size_of (h_ctr h) * distinct_values h) (2 ^ (w - 1) - 1)); [auto|discriminate].
Qed.

Lemma correct_any h v n i : wf h -> u64 v -> 0 <= n <= cmax (h_ctr h) -> u64 i -> addressable w h ->
  record_n_correct_w w h v n i = match record_n_correct h v n i with Ret (h', ROk _) => after_record h h' | r => r end.
Proof using W1.
  intros W V N I A. unfold record_n_correct_w, record_n_correct. rewrite record_n_w_ok by auto.
  destruct (record_n_cases h v n W V N) as [(h1 & E & R)|(E & _ & _)]; rewrite E; cbn [bind]; [|reflexivity].
  assert (WR : wf h1) by apply R.
  assert (IN : bin h1 v < zlen (h_counts h1)).
  { pose proof (w_max_in h1 WR) as MI. fold (bin h1 (h_max h1)) in MI. rewrite (rd_max _ _ _ _ R) in MI.
    rewrite (recorded_bin _ _ _ _ _ R) in MI. rewrite new_max_bin in MI by auto.
    rewrite (recorded_bin _ _ _ _ _ R). lia. }
  assert (C1 : h_ctr h1 = h_ctr h) by apply (Ops.ss_ctr _ _ (rd_shape _ _ _ _ R)).
  destruct (Z.eqb_spec i 0) as [I0|I0].
  { unfold after_record. destruct (allowed w h1) as [[?|]|]; reflexivity. }
  destruct (Z.ltb_spec i v) as [L|L].
  2: { unfold after_record. destruct (allowed w h1) as [[?|]|]; reflexivity. }
  unfold u64_sub. rewrite in_range_ok by (unfold u64 in *; lia). cbn [bind].
  assert (V2 : u64 (v - i)) by (unfold u64 in *; lia).
  assert (B1 : bin h1 (v - i) < zlen (h_counts h1)).
  { pose proof (bin_mono h1 (v - i) v (w_cfg h1 WR) ltac:(unfold u64 in *; lia)). lia. }
  assert (I1 : 1 <= i) by (unfold u64 in *; lia).
  assert (N1 : 0 <= n <= cmax (h_ctr h1)) by (rewrite C1; auto).
  destruct (correct_loop_ok (Z.to_nat (v / i)) h1 (v - i) n i) as (h2 & E2 & RM); auto.
  { assert (0 <= v / i) by (apply Z.div_pos; unfold u64 in *; lia).
    rewrite Z2Nat.id by lia. apply Z.div_le_mono; unfold u64 in *; lia. }
  rewrite E2. destruct (correct_loop_size _ _ _ _ _ _ _ WR V2 N1 I1 B1 E2) as (S1 & S2).
  unfold after_record. rewrite (allowed_size w h1 h2) by auto.
  destruct (allowed w h1) as [[o|]|] eqn:EL; cbn [bind]; [|reflexivity|reflexivity].
  apply allowed_inv in EL. destruct (correct_loop_any w W1 (Z.to_nat (v / i)) h1 (v - i) n i) as (P & _); auto.
  rewrite P. exact E2.
Qed.

Lemma correct_grows h v n i h' r : wf h -> u64 v -> 0 <= n <= cmax (h_ctr h) -> u64 i ->
  record_n_correct h v n i = Ret (h', r) -> wf h' /\ h_ctr h' = h_ctr h /\ zlen (h_counts h) <= zlen (h_counts h').
Proof using.
  intros W V N I E. destruct (record_n_correct_ok h v n i W V N I) as [(h2 & E2 & RM)|(E2 & _)]; rewrite E in E2; injection E2 as -> ->.
  - pose proof (rec_many_all _ _ _ RM) as [A1 A2 _ _ A5 _]. split; auto. split; auto. apply (Ops.ss_ctr _ _ A2).
  - split; auto. split; auto. lia.
Qed.

Lemma items_grow xs i : u64 i -> forall h, wf h -> Forall (fun x => u64 (iv_value x) /\ 0 <= iv_count x <= cmax (h_ctr h)) xs ->
  forall h' r, correct_items h xs i = Ret (h', r) -> h_ctr h' = h_ctr h /\ zlen (h_counts h) <= zlen (h_counts h').
Proof using.
  intros I. induction xs as [|x xs IH]; intros h W F h' r E; cbn [correct_items] in E.
  { injection E as <- <-. split; auto. lia. }
  inversion F as [|? ? (F1 & F2) F']; subst.
  destruct (record_n_correct h (iv_value x) (iv_count x) i) as [[h1 r1]|] eqn:E1; cbn [bind] in E; [|discriminate].
  destruct (correct_grows _ _ _ _ _ _ W F1 F2 I E1) as (A & B & C).
  destruct r1; [|injection E as <- <-; auto]. rewrite <- B in F'. destruct (IH h1 A F' h' r E) as (P & Q). split; [congruence|lia].
Qed.

Lemma items_any xs i : u64 i -> forall h, wf h -> Forall (fun x => u64 (iv_value x) /\ 0 <= iv_count x <= cmax (h_ctr h)) xs ->
  addressable w h -> forall h' r, correct_items h xs i = Ret (h', r) -> addressable w h' -> correct_items_w w h xs i = Ret (h', r).
Proof using W1.
  intros I. induction xs as [|x xs IH]; intros h W F A h' r E A'; cbn [correct_items_w]; cbn [correct_items] in E; auto.
  inversion F as [|? ? (F1 & F2) F']; subst. rewrite correct_any by auto.
  destruct (record_n_correct h (iv_value x) (iv_count x) i) as [[h1 r1]|] eqn:E1; cbn [bind] in E; [|discriminate].
  destruct (correct_grows _ _ _ _ _ _ W F1 F2 I E1) as (W' & B & C). rewrite <- B in F'.
  destruct r1 as [u|e]; [|exact E].
  destruct (items_grow xs i I h1 W' F' h' r E) as (P & Q).
  assert (A1 : addressable w h1) by (apply (addressable_less w h1 h'); auto).
  unfold after_record. rewrite allowed_addressable by auto. cbn [bind]. eapply IH; eauto.
Qed.
End CORRECT2.
