(** * A [usize] of another width: histograms that satisfy the invariant *)
From Verif Require Import Machine Log2Model FloatModel HistModel IterModel SerModel WidthModel WidthSpec WidthFacts ListZ Bins Log2Facts
  Cfg Wf Ops MoreFacts.
From Coq Require Import ZifyBool ZifyNat.

Lemma addressable_fits w h : 1 <= w -> cfg_ok h -> size_ok h -> addressable w h -> fits w h.
Proof.
  intros W C S A. unfold addressable in A. pose proof (size_of_range (h_ctr h)) as SR.
  pose proof (imax_umax w W) as I. unfold isize_max_w in I.
  pose proof (m_range h C) as MR. pose proof (len_pos h C S) as LP. pose proof (len_le_top h C S) as LT.
  pose proof (idx_bound_u64 h C u64_max ltac:(unfold u64, u64_max; lia)) as IB.
  assert (D : distinct_values h <= 2 ^ (w - 1) - 1) by (unfold distinct_values in *; nia).
  constructor; try lia.
  - destruct (Z_lt_le_dec (h_half_mag h) w) as [|G]; auto. exfalso.
    pose proof (s_len h S) as SL. pose proof (bkt_nonneg (h_um h) (h_half_mag h) (h_high h)) as BN.
    pose proof (Z.pow_le_mono_r 2 w (h_half_mag h) ltac:(lia) G) as PM.
    pose proof (Z.pow_le_mono_r 2 (w - 1) w ltac:(lia) ltac:(lia)) as PM2. unfold distinct_values in D.
    pose proof (pow2_pos (h_half_mag h) ltac:(lia)). nia.
  - unfold distinct_values, usize_max, u64_max. lia.
Qed.

Lemma wide_addressable w h : 32 <= w -> cfg_ok h -> size_ok h -> addressable w h.
Proof.
  intros W C S. unfold addressable, distinct_values. pose proof (size_of_range (h_ctr h)) as SR.
  pose proof (len_le_top h C S) as LT. pose proof (len_pos h C S) as LP.
  pose proof (idx_bound_u64 h C u64_max ltac:(unfold u64, u64_max; lia)) as IB.
  pose proof (Z.pow_le_mono_r 2 31 (w - 1) ltac:(lia) ltac:(lia)) as PM. change (2 ^ 31) with 2147483648 in PM. nia.
Qed.

Lemma allowed_addressable w h : 1 <= w -> addressable w h -> allowed w h = Ret (Some h).
Proof.
  intros W A. unfold allowed, vec_fits_w, addressable in *. pose proof (size_of_range (h_ctr h)) as SR.
  pose proof (imax_umax w W) as I. fold (isize_max_w w) in A.
  assert (0 <= distinct_values h) by (unfold distinct_values, zlen; lia).
  destruct (Z.leb_spec (distinct_values h) (usize_max_w w)); [|nia].
  destruct (Z.leb_spec (size_of (h_ctr h) * distinct_values h) (isize_max_w w)); [auto|lia].
Qed.

(** recording on a target of any width *)
Lemma record_n_w_ok w h v n : 1 <= w -> wf h -> u64 v -> 0 <= n <= cmax (h_ctr h) -> addressable w h ->
  record_n_w w h v n =
  match record_n h v n with
  | Ret (h', ROk _) =>
      a <- allowed w h' ;;
      Ret (match a with Some _ => (h', ROk tt) | None => (h, RErr RecordResizeFailedUsizeTypeTooSmall) end)
  | r => r
  end.
Proof.
  intros W1 W V N A. pose proof (w_cfg h W) as C. pose proof (w_size h W) as S.
  pose proof (addressable_fits w h W1 C S A) as F.
  unfold record_n_w, record_n. rewrite record_n_inner_w_eq by auto. rewrite record_n_inner_ok by auto.
  unfold record_pre. rewrite mut_at_ok by auto. cbn [bind].
  destruct (Z.ltb_spec (idx (h_um h) (h_half_mag h) v) (zlen (h_counts h))) as [I|I]; cbn [bind].
  - rewrite allowed_addressable; auto. unfold addressable, distinct_values, rec_pure; cbn zeta; hsimp. rewrite zlen_vset. exact A.
  - destruct (h_auto h) eqn:EA; cbn [negb bind]; [|reflexivity].
    pose proof (out_gt_high h v C S V I) as OG. pose proof (c_high h C) as CH.
    rewrite resize_ok by (auto; lia). cbn [bind].
    assert (L64 : distinct_values (resized h v) <= usize_max).
    { pose proof (len_le_top (resized h v) (resized_cfg h C v V ltac:(lia)) (resized_size h C v)) as LT.
      pose proof (idx_bound_u64 _ (resized_cfg h C v V ltac:(lia)) u64_max ltac:(unfold u64, u64_max; lia)).
      unfold distinct_values, usize_max, u64_max. lia. }
    assert (SZ : distinct_values (rec_pure (grown h v) v n) = distinct_values (resized h v)).
    { unfold distinct_values, rec_pure; cbn zeta; hsimp. rewrite zlen_vset. unfold grown.
      destruct (Z.ltb_spec (idx (h_um h) (h_half_mag h) v) (zlen (h_counts h))); [lia|]. reflexivity. }
    assert (CT : h_ctr (rec_pure (grown h v) v n) = h_ctr (resized h v)).
    { unfold rec_pure; cbn zeta; hsimp. unfold grown. destruct (_ <? _); reflexivity. }
    apply Z.leb_le in L64. rewrite L64. unfold allowed. rewrite SZ, CT.
    destruct (distinct_values (resized h v) <=? usize_max_w w); cbn [bind]; [|reflexivity].
    destruct (vec_fits_w _ _ _); cbn [bind]; reflexivity.
Qed.

(** ** At least 32 bits: everything agrees *)
Record narrow (h : hist) : Prop := {
  n_mag : 0 <= h_half_mag h <= 17;
  n_half : 0 <= h_half_count h <= 131072;
  n_len : zlen (h_counts h) <= 67108864
}.

Lemma wf_narrow h : cfg_ok h -> size_ok h -> narrow h.
Proof.
  intros C S. constructor.
  - apply (m_range h C).
  - rewrite (c_half h C). pose proof (half_range h C). lia.
  - pose proof (len_le_top h C S). pose proof (idx_bound_u64 h C u64_max ltac:(unfold u64, u64_max; lia)). lia.
Qed.

Section WIDE.
Variable w : Z.
Hypothesis W32 : 32 <= w.

Lemma imax_big : 2147483647 <= isize_max_w w /\ 4294967295 <= usize_max_w w.
Proof using W32.
  unfold isize_max_w, usize_max_w.
  pose proof (Z.pow_le_mono_r 2 31 (w - 1) ltac:(lia) ltac:(lia)) as P1. change (2 ^ 31) with 2147483648 in P1.
  pose proof (Z.pow_le_mono_r 2 32 w ltac:(lia) ltac:(lia)) as P2. change (2 ^ 32) with 4294967296 in P2. lia.
Qed.

Lemma narrow_fits h : narrow h -> fits w h.
Proof using W32.
  intros [A B C]. pose proof imax_big. constructor; unfold distinct_values, usize_max, u64_max in *; lia.
Qed.

Lemma narrow_allowed h : narrow h -> allowed w h = Ret (Some h).
Proof using W32.
  intros [A B C]. pose proof imax_big. pose proof (size_of_range (h_ctr h)).
  apply allowed_addressable; [lia|]. unfold addressable, distinct_values. fold (isize_max_w w).
  assert (0 <= zlen (h_counts h)) by (unfold zlen; lia). nia.
Qed.

Lemma btc_loop_u8 fuel : forall v s b r, b <= 255 -> btc_loop fuel v s b = Ret r -> r <= 255.
Proof using.
  induction fuel as [|f IH]; intros v s b r B E; cbn [btc_loop] in E; [discriminate|].
  destruct (s <=? v); [|inversion E; lia].
  destruct (_ <? _). { apply in_range_inv in E. unfold u8_max in E. lia. }
  destruct (u64_shl s 1); cbn [bind] in E; [|discriminate].
  destruct (u8_add b 1) eqn:U; cbn [bind] in E; [|discriminate]. apply in_range_inv in U. unfold u8_max in U.
  eapply IH; [|exact E]. lia.
Qed.

Lemma resize_narrow h v h1 : narrow h -> resize h v = Ret h1 -> narrow h1.
Proof using.
  intros N E. pose proof (resize_same _ _ _ E) as (R1 & R2 & _). destruct N as [A B C].
  constructor; rewrite ?R1, ?R2; auto. clear R1 R2.
  unfold resize in E. destruct (u64_mul 2 (h_low h)); cbn [bind] in E; [|discriminate].
  destruct (assert _); cbn [bind] in E; [|discriminate].
  destruct (buckets_to_cover h v) as [b|] eqn:EB; cbn [bind] in E; [|discriminate].
  destruct (num_bins h b) as [n|] eqn:EN; cbn [bind] in E; [|discriminate]. injection E as <-. hsimp.
  pose proof (num_bins_range _ _ _ EN). rewrite zlen_vresize by lia.
  unfold buckets_to_cover in EB. destruct (u64_shl _ _) as [su|]; cbn [bind] in EB; [|discriminate].
  assert (b <= 255) by (eapply btc_loop_u8; [|exact EB]; lia).
  unfold num_bins in EN. destruct (u32_add b 1) as [b1|] eqn:U; cbn [bind] in EN; [|discriminate].
  apply in_range_inv in U. apply in_range_inv in EN. nia.
Qed.

Lemma resize_w_same h v : narrow h -> resize_w w h v = (h1 <- resize h v ;; Ret (Some h1)).
Proof using W32.
  intros N. rewrite resize_w_eq. destruct (resize h v) as [h1|] eqn:E; cbn [bind]; [|reflexivity].
  apply narrow_allowed. eapply resize_narrow; eauto.
Qed.

Lemma narrow_set h h' : narrow h -> h_half_mag h' = h_half_mag h -> h_half_count h' = h_half_count h ->
  zlen (h_counts h') = zlen (h_counts h) -> narrow h'.
Proof using. intros [] E1 E2 E3. constructor; rewrite ?E1, ?E2, ?E3; auto. Qed.

Lemma update_min_max_fields h v : h_half_mag (update_min_max h v) = h_half_mag h /\
  h_half_count (update_min_max h v) = h_half_count h /\ h_counts (update_min_max h v) = h_counts h.
Proof using.
  unfold update_min_max, update_max, update_min.
  repeat match goal with |- context [if ?b then _ else _] => destruct b end; auto.
Qed.

Lemma finish_narrow h v n : narrow h ->
  narrow (set_total (update_min_max h v) (sat_add64 (h_total (update_min_max h v)) n)).
Proof using.
  intros N. destruct (update_min_max_fields h v) as (A & B & C).
  eapply narrow_set; [exact N| | |]; hsimp; rewrite ?A, ?B, ?C; auto.
Qed.

Lemma record_n_inner_narrow h v n clamp h' r : narrow h -> record_n_inner h v n clamp = Ret (h', r) -> narrow h'.
Proof using.
  intros N E. unfold record_n_inner in E. destruct (mut_at h v) as [slot|]; cbn [bind] in E; [|discriminate].
  match type of E with bind ?m _ = _ => assert (M : forall v1 h1, m = Ret (ROk (v1, h1)) -> narrow h1) end.
  { intros v1 h1 E1. destruct slot as [i|].
    - destruct (expect _) as [c|]; cbn [bind] in E1; [|discriminate]. injection E1 as <- <-.
      apply (narrow_set h); auto; hsimp; auto. apply zlen_vset.
    - destruct clamp.
      + destruct (mut_at h _) as [slot'|]; cbn [bind] in E1; [|discriminate].
        destruct (expect slot') as [i|]; cbn [bind] in E1; [|discriminate].
        destruct (expect (vget _ _)) as [c|]; cbn [bind] in E1; [|discriminate]. injection E1 as <- <-.
        apply (narrow_set h); auto; hsimp; auto. apply zlen_vset.
      + destruct (negb (h_auto h)); [discriminate|].
        destruct (resize h v) as [h2|] eqn:ER; cbn [bind] in E1; [|discriminate]. apply resize_narrow in ER; auto.
        repeat match type of E1 with bind ?m _ = _ => destruct m; cbn [bind] in E1; [|discriminate] end.
        injection E1 as <- <-. apply (narrow_set h2); auto; hsimp; auto. apply zlen_vset. }
  match type of E with bind ?m _ = _ => destruct m as [[[v1 h1]|e]|] end; cbn [bind] in E; [| |discriminate].
  - injection E as <- <-. apply finish_narrow. eapply M; eauto.
  - injection E as <- <-. auto.
Qed.

Lemma record_n_inner_w_same h v n clamp : narrow h -> record_n_inner_w w h v n clamp = record_n_inner h v n clamp.
Proof using W32.
  intros N. pose proof (narrow_fits h N) as F. rewrite record_n_inner_w_eq by auto.
  unfold record_pre. destruct (mut_at h v) as [slot|] eqn:EM; cbn [bind].
  2: { unfold record_n_inner. rewrite EM. reflexivity. }
  destruct slot; [reflexivity|]. destruct clamp; [reflexivity|]. destruct (h_auto h) eqn:EA; [|reflexivity]. cbn [negb].
  destruct (resize h v) as [h1|] eqn:ER; cbn [bind].
  2: { unfold record_n_inner. rewrite EM. cbn [bind]. rewrite EA. cbn [negb]. rewrite ER. reflexivity. }
  apply resize_narrow in ER; auto. rewrite narrow_allowed by auto. cbn [bind].
  pose proof (f_len64 _ _ (narrow_fits h1 ER)) as L. apply Z.leb_le in L. rewrite L. reflexivity.
Qed.

Lemma correct_loop_narrow fuel : forall h mv n i h' r, narrow h -> correct_loop fuel h mv n i = Ret (h', r) -> narrow h'.
Proof using.
  induction fuel as [|f IH]; intros h mv n i h' r N E; cbn [correct_loop] in E.
  { destruct (_ <=? _); inversion E; subst; auto. }
  destruct (_ <=? _); [|inversion E; subst; auto].
  destruct (record_n_inner h mv n false) as [[h1 r1]|] eqn:E1; cbn [bind] in E; [|discriminate].
  apply record_n_inner_narrow in E1; auto. destruct r1; [|inversion E; subst; auto].
  destruct (u64_sub _ _); cbn [bind] in E; [|discriminate]. eapply IH; eauto.
Qed.

Lemma correct_loop_same fuel : forall h mv n i, narrow h -> correct_loop_w w fuel h mv n i = correct_loop fuel h mv n i.
Proof using W32.
  induction fuel as [|f IH]; intros h mv n i N; cbn [correct_loop_w correct_loop]; auto.
  destruct (_ <=? _); auto. rewrite record_n_inner_w_same by auto. bc. destruct a as [h1 r1].
  apply record_n_inner_narrow in E; auto. destruct r1; auto. bc. apply IH; auto.
Qed.

Lemma record_n_correct_narrow h v n i h' r : narrow h -> record_n_correct h v n i = Ret (h', r) -> narrow h'.
Proof using.
  intros N E. unfold record_n_correct, record_n in E.
  destruct (record_n_inner h v n false) as [[h1 r1]|] eqn:E1; cbn [bind] in E; [|discriminate].
  apply record_n_inner_narrow in E1; auto. destruct r1; [|inversion E; subst; auto].
  destruct (_ =? _); [inversion E; subst; auto|]. destruct (_ <? _); [|inversion E; subst; auto].
  destruct (u64_sub _ _); cbn [bind] in E; [|discriminate]. eapply correct_loop_narrow; eauto.
Qed.

Lemma record_n_correct_same h v n i : narrow h -> record_n_correct_w w h v n i = record_n_correct h v n i.
Proof using W32.
  intros N. unfold record_n_correct_w, record_n_correct, record_n_w, record_n. rewrite record_n_inner_w_same by auto.
  bc. destruct a as [h1 r1]. apply record_n_inner_narrow in E; auto. destruct r1; auto. destruct (_ =? _); auto.
  destruct (_ <? _); auto. bc. apply correct_loop_same; auto.
Qed.

(** ** Merging *)
Lemma add_rerecord_same s cs : narrow s -> forall h i, narrow h -> add_rerecord_w w h s cs i = add_rerecord h s cs i.
Proof using W32.
  intros NS. induction cs as [|c cs IH]; intros h i N; cbn [add_rerecord_w add_rerecord]; auto. destruct (_ =? _); auto.
  rewrite value_for_w_eq by (apply narrow_fits; auto). bc. unfold record_n_w, record_n. rewrite record_n_inner_w_same by auto.
  bc. destruct a0 as [h1 r1]. apply record_n_inner_narrow in E0; auto. destruct r1; auto.
Qed.

Lemma add_rerecord_narrow s cs : forall h i h', narrow h -> add_rerecord h s cs i = Ret h' -> narrow h'.
Proof using.
  induction cs as [|c cs IH]; intros h i h' N E; cbn [add_rerecord] in E; [inversion E; subst; auto|].
  destruct (_ =? _); [eapply IH; eauto|]. destruct (value_for s i); cbn [bind] in E; [|discriminate].
  unfold record_n in E. destruct (record_n_inner _ _ _ _) as [[h1 r1]|] eqn:E1; cbn [bind] in E; [|discriminate].
  apply record_n_inner_narrow in E1; auto. destruct r1; [|discriminate]. eapply IH; eauto.
Qed.

Lemma index_in_range h v i : index_for h v = Ret (Some i) -> i <= 2147483647.
Proof using.
  unfold index_for. intros E.
  repeat match type of E with
  | bind ?m _ = _ => let H := fresh "H" in destruct m eqn:H; cbn [bind] in E; [|discriminate]
  end.
  match goal with H : i32_add ?x ?y = Ret ?z, E : Ret (if 0 <=? ?z then _ else _) = _ |- _ => apply in_range_inv in H;
    destruct (0 <=? z); inversion E; subst end. unfold i32_max in *. lia.
Qed.

Lemma index_for_w_same h v : index_for_w w h v = index_for h v.
Proof using W32.
  rewrite index_for_w_eq. destruct (index_for h v) as [[i|]|] eqn:E; cbn [bind]; auto.
  pose proof (index_for_nonneg _ _ _ E). pose proof (index_in_range _ _ _ E). pose proof imax_big.
  unfold to_usize_w. destruct (Z.leb_spec 0 i); [|lia]. destruct (Z.leb_spec i (usize_max_w w)); [auto|lia].
Qed.

Lemma add_body_same h s : narrow h -> narrow s -> add_body_w w h s = add_body h s.
Proof using W32.
  intros N NS. unfold add_body_w, add_body. cbv zeta. destruct (_ && is_empty h); auto.
  destruct (_ && _); auto. bc. rewrite index_for_w_same. bc. bc. bc.
  rewrite value_for_w_eq by (apply narrow_fits; auto). bc. unfold record_n_w, record_n. rewrite record_n_inner_w_same by auto.
  bc. destruct a4 as [h1 r1]. apply record_n_inner_narrow in E4; auto. destruct r1; auto. apply add_rerecord_same; auto.
Qed.

Lemma add_same h s : narrow h -> narrow s -> add_w w h s = add h s.
Proof using W32.
  intros N NS. unfold add_w, add. destruct (is_empty s); auto. bc. rewrite value_for_w_eq by (apply narrow_fits; auto). bc. bc. bc.
  destruct (_ <? _).
  - destruct (negb _); auto. rewrite resize_w_same by auto. destruct (resize h a2) as [h1|] eqn:ER; cbn [bind]; auto.
    rewrite add_body_same; auto. apply (resize_narrow h a2); auto.
  - rewrite add_body_same by auto. reflexivity.
Qed.

Lemma restat_update_same s h : narrow h -> restat_update_w w s h = restat_update s h.
Proof using W32.
  intros N. unfold restat_update_w, restat_update.
  match goal with |- bind ?m _ = bind ?m' _ => assert (M : m = m') end.
  { destruct (rs_max s); auto. rewrite value_for_w_eq by (apply narrow_fits; auto). reflexivity. }
  rewrite M. clear M. bc. assert (N1 : narrow a).
  { destruct (rs_max s); [|inversion E; subst; auto].
    repeat match type of E with bind ?m _ = _ => destruct m; cbn [bind] in E; [|discriminate] end. injection E as <-.
    unfold update_max. destruct (_ <? _); auto. apply (narrow_set h); auto. }
  destruct (rs_min s); auto. rewrite value_for_w_eq by (apply narrow_fits; auto). reflexivity.
Qed.

Lemma restat_same h : narrow h -> restat_w w h = restat h.
Proof using W32. intros N. unfold restat_w, restat. cbv zeta. apply restat_update_same. apply (narrow_set h); auto. Qed.

Lemma sub_loop_narrow s cs : forall i h b x y h' r, narrow h -> sub_loop s cs i h b x y = Ret (h', r) -> narrow h'.
Proof using.
  induction cs as [|c cs IH]; intros i h b x y h' r N E; cbn [sub_loop] in E; [inversion E; subst; auto|].
  destruct (_ =? _); [eapply IH; eauto|]. destruct (value_for s i); cbn [bind] in E; [|discriminate].
  destruct (mut_at h a) as [[j|]|]; cbn [bind] in E; try discriminate.
  destruct (expect _) as [c0|]; cbn [bind] in E; [|discriminate].
  destruct (cchecked_sub c0 c) as [c1|]; [|inversion E; subst; auto]. cbv zeta in E.
  assert (N1 : narrow (set_counts h (vset (h_counts h) j c1))) by (apply (narrow_set h); auto; hsimp; apply zlen_vset).
  destruct (_ || _); cbn [bind] in E.
  - eapply IH; eauto.
  - destruct (expect _) as [t|]; cbn [bind] in E; [|discriminate]. eapply IH; [|exact E]. apply (narrow_set _ _ N1); auto.
Qed.

Lemma sub_loop_same s cs : narrow s -> forall i h b x y, narrow h -> sub_loop_w w s cs i h b x y = sub_loop s cs i h b x y.
Proof using W32.
  intros NS. induction cs as [|c cs IH]; intros i h b x y N; cbn [sub_loop_w sub_loop]; auto. destruct (_ =? _); auto.
  rewrite value_for_w_eq by (apply narrow_fits; auto). bc. rewrite mut_at_w_eq by (apply narrow_fits; auto). bc.
  destruct a0 as [j|]; auto. bc. destruct (cchecked_sub a0 c) as [c1|]; auto. cbv zeta.
  assert (N1 : narrow (set_counts h (vset (h_counts h) j c1))) by (apply (narrow_set h); auto; hsimp; apply zlen_vset).
  bc. apply IH. destruct (_ || _); [inversion E2; subst; auto|].
  destruct (expect (cchecked_sub _ _)) as [t|]; cbn [bind] in E2; [|discriminate]. injection E2 as <-. apply (narrow_set _ _ N1); auto.
Qed.

Lemma subtract_same h s : narrow h -> narrow s -> subtract_w w h s = subtract h s.
Proof using W32.
  intros N NS. unfold subtract_w, subtract. destruct (is_empty s); auto. bc. rewrite value_for_w_eq by (apply narrow_fits; auto).
  bc. bc. bc. bc. destruct (_ <? _); auto. bc. bc. bc. bc. rewrite sub_loop_same by auto. bc. destruct a8 as [h1 [[]|]]; auto.
  rewrite restat_same; auto. apply (sub_loop_narrow _ _ _ _ _ _ _ _ _ N E8).
Qed.

(** ** Iteration, correction, floating point *)
Lemma iter_new_same {P} h (p : P) : iter_new_w w h p = iter_new h p.
Proof using W32. unfold iter_new_w, iter_new. bc. rewrite index_for_w_same. reflexivity. Qed.

Lemma iter_new_index {P} h (p : P) st : iter_new h p = Ret st -> it_index st = 0.
Proof using.
  unfold iter_new. destruct (max h); cbn [bind]; [|discriminate]. destruct (index_for h a); cbn [bind]; [|discriminate].
  destruct (expect _); cbn [bind]; [|discriminate]. intros E; injection E as <-. reflexivity.
Qed.

Lemma recorded_items_same h : narrow h -> recorded_items_w w h = recorded_items h.
Proof using W32.
  intros N. unfold recorded_items_w, recorded_items, iter_recorded_w, iter_recorded. rewrite iter_new_same. bc.
  apply iter_new_index in E. apply iter_collect_w_eq; [apply narrow_fits; auto|apply same_picker_refl|].
  rewrite E. unfold distinct_values, zlen. lia.
Qed.

Lemma correct_items_same xs : forall h i, narrow h -> correct_items_w w h xs i = correct_items h xs i.
Proof using W32.
  induction xs as [|x xs IH]; intros h i N; cbn [correct_items_w correct_items]; auto.
  rewrite record_n_correct_same by auto. bc. destruct a as [h1 r1]. apply record_n_correct_narrow in E; auto. destruct r1; auto.
Qed.

Lemma add_correct_same h s i : narrow h -> narrow s -> add_correct_w w h s i = add_correct h s i.
Proof using W32.
  intros N NS. unfold add_correct_w, add_correct. rewrite recorded_items_same by auto. bc. apply correct_items_same; auto.
Qed.

Lemma mean_same h : narrow h -> mean_w w h = mean h.
Proof using W32. intros N. unfold mean_w, mean. rewrite recorded_items_same by auto. reflexivity. Qed.
Lemma stdev_same h : narrow h -> stdev_w w h = stdev h.
Proof using W32. intros N. unfold stdev_w, stdev. rewrite mean_same, recorded_items_same by auto. reflexivity. Qed.
End WIDE.
