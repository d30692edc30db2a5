(** * A [usize] of another width: copies, serialization *)
From Verif Require Import Machine Log2Model FloatModel HistModel IterModel SerModel WidthModel WidthSpec WidthFacts WidthWf ListZ Bins Log2Facts
  Cfg Wf Ops MoreFacts SerSpec SerFacts SerCode SerDecode.
From Coq Require Import ZifyBool ZifyNat.

(** ** Writing: any width *)
Lemma put_len b i x b' : put b i x = Ret b' -> zlen b' = zlen b /\ 0 <= i < zlen b.
Proof. unfold put. destruct ((0 <=? i) && (i <? zlen b)) eqn:E; [|discriminate]. intros Q; injection Q as <-. rewrite zlen_vset. lia. Qed.

Lemma varint_write_from_len steps : forall n x b off b' k, Z.of_nat steps + n = 8 -> 1 <= n ->
  varint_write_from steps n x b off = Ret (b', k) -> zlen b' = zlen b /\ 0 <= k <= 9 /\ off + k <= zlen b.
Proof.
  induction steps as [|s IH]; intros n x b off b' k SN N E; cbn [varint_write_from] in E.
  - destruct (u64_shr x 56); cbn [bind] in E; [|discriminate].
    destruct (put b (off + 8) _) eqn:P; cbn [bind] in E; [|discriminate]. injection E as <- <-. apply put_len in P. lia.
  - destruct (shift_by_7s x (n + 1)); cbn [bind] in E; [|discriminate]. destruct (_ =? 0).
    + destruct (shift_by_7s x n); cbn [bind] in E; [|discriminate].
      destruct (put b (off + n) _) eqn:P; cbn [bind] in E; [|discriminate]. injection E as <- <-. apply put_len in P. lia.
    + destruct (nth_7b_chunk_with_high_bit x n); cbn [bind] in E; [|discriminate].
      destruct (put b (off + n) _) as [b1|] eqn:P; cbn [bind] in E; [|discriminate]. apply put_len in P.
      apply IH in E; lia.
Qed.

Lemma varint_write_len x b off b' k : varint_write x b off = Ret (b', k) ->
  zlen b' = zlen b /\ 0 <= k <= 9 /\ off + k <= zlen b.
Proof.
  unfold varint_write. destruct (shift_by_7s x 1); cbn [bind]; [|discriminate]. destruct (_ =? 0).
  - destruct (put b off _) eqn:P; cbn [bind]; [|discriminate]. intros E; injection E as <- <-. apply put_len in P. lia.
  - destruct (put b off _) as [b1|] eqn:P; cbn [bind]; [|discriminate]. apply put_len in P. intros E.
    apply varint_write_from_len in E; lia.
Qed.

Section WRITE.
Variables (w : Z) (h : hist).
Hypothesis L : zlen (h_counts h) <= usize_max_w w.
Hypothesis L64 : zlen (h_counts h) <= usize_max.

Lemma add1_same i : 0 <= i < zlen (h_counts h) -> usize_add_w w i 1 = Ret (i + 1) /\ usize_add i 1 = Ret (i + 1).
Proof using L L64. intros I. unfold usize_add_w, usize_add. rewrite !in_range_ok by lia. auto. Qed.

Lemma vget_in {A} (l : list A) i x : 0 <= i -> vget l i = Some x -> i < zlen l.
Proof using.
  intros I. unfold vget. destruct (_ && _) eqn:E; [|discriminate]. lia.
Qed.

Lemma zeros_loop_same fuel : forall i limit z, 0 <= i -> zeros_loop_w w fuel h i limit z = zeros_loop fuel h i limit z.
Proof using L L64.
  induction fuel as [|f IH]; intros i limit z I; cbn [zeros_loop_w zeros_loop]; auto.
  destruct (i <=? limit); auto. destruct (vget (h_counts h) i) eqn:V; cbn [expect bind]; auto.
  destruct (_ =? 0); auto. bc. apply vget_in in V; auto. destruct (add1_same i ltac:(lia)) as (-> & ->). cbn [bind].
  apply IH; lia.
Qed.

Lemma zeros_loop_nonneg fuel : forall i limit z i' z', 0 <= i -> zeros_loop fuel h i limit z = Ret (i', z') -> 0 <= i'.
Proof using L L64.
  induction fuel as [|f IH]; intros i limit z i' z' I E; cbn [zeros_loop] in E; [discriminate|].
  destruct (i <=? limit); [|inversion E; subst; auto]. destruct (vget (h_counts h) i) eqn:V; cbn [expect bind] in E; [|discriminate].
  destruct (_ =? 0); [|inversion E; subst; auto].
  destruct (in_range _ _ _); cbn [bind] in E; [|discriminate]. apply vget_in in V; auto.
  destruct (add1_same i ltac:(lia)) as (_ & A). rewrite A in E. cbn [bind] in E. eapply IH; [|exact E]. lia.
Qed.

Lemma encode_loop_same fuel : forall buf base i limit bw, 0 <= i -> 0 <= base -> 0 <= bw ->
  zlen buf <= usize_max_w w -> zlen buf <= usize_max ->
  encode_loop_w w fuel h buf base i limit bw = encode_loop fuel h buf base i limit bw.
Proof using L L64.
  induction fuel as [|f IH]; intros buf base i limit bw I B BW U U64; cbn [encode_loop_w encode_loop]; auto.
  destruct (i <=? limit); auto. destruct (vget (h_counts h) i) eqn:V; cbn [expect bind]; auto.
  apply vget_in in V; auto. destruct (add1_same i ltac:(lia)) as (-> & ->). cbn [bind].
  rewrite zeros_loop_same by lia. 
  match goal with |- bind ?m _ = _ => destruct m as [[i2 zc]|] eqn:EZ; cbn [bind]; [|reflexivity] end.
  assert (I2 : 0 <= i2). { destruct (_ =? 0); [|inversion EZ; lia]. eapply zeros_loop_nonneg; [|exact EZ]. lia. }
  bc. destruct a as [c|]; auto. bc.
  match goal with |- bind ?m _ = _ => destruct m as [[b' n]|] eqn:EV; cbn [bind]; [|reflexivity] end.
  apply varint_write_len in EV. unfold usize_add_w, usize_add. rewrite !in_range_ok by lia. cbn [bind].
  apply IH; lia.
Qed.

Lemma encode_loop_len fuel : forall buf base i limit bw b' n, 0 <= base -> 0 <= bw -> base + bw <= zlen buf ->
  encode_loop fuel h buf base i limit bw = Ret (b', ROk n) -> 0 <= n /\ base + n <= zlen buf.
Proof using.
  induction fuel as [|f IH]; intros buf base i limit bw b' n B BW U E; cbn [encode_loop] in E; [discriminate|].
  destruct (i <=? limit); [|inversion E; subst; lia].
  destruct (vget (h_counts h) i) eqn:V; cbn [expect bind] in E; [|discriminate].
  destruct (usize_add i 1); cbn [bind] in E; [|discriminate].
  match type of E with bind ?m _ = _ => destruct m as [[i2 zc]|] eqn:EZ; cbn [bind] in E; [|discriminate] end.
  match type of E with bind ?m _ = _ => destruct m as [oc|] eqn:EO; cbn [bind] in E; [|discriminate] end.
  destruct oc as [c|]; [|discriminate]. destruct (assert _); cbn [bind] in E; [|discriminate].
  destruct (varint_write _ _ _) as [[b1 k]|] eqn:EV; cbn [bind] in E; [|discriminate]. apply varint_write_len in EV.
  destruct (usize_add bw k) as [bw'|] eqn:EA; cbn [bind] in E; [|discriminate].
  unfold usize_add, in_range in EA. destruct (_ && _); [|discriminate]. injection EA as <-.
  apply IH in E; lia.
Qed.
End WRITE.

Lemma v2_serialize_w_ok w junk h : 1 <= w -> wf h -> addressable w h ->
  let size := (bin h (h_max h) + 1) * 9 + 40 in
  v2_serialize_w w junk h =
  if size <=? usize_max_w w then if size <=? isize_max_w w then v2_serialize junk h else Panic
  else Ret (RErr SerUsizeTypeTooSmall).
Proof.
  intros W1 W A size. pose proof (w_cfg h W) as C. pose proof (w_size h W) as S.
  pose proof (addressable_fits w h W1 C S A) as F. pose proof (f_len _ _ F) as FL. unfold distinct_values in FL.
  pose proof (coded_facts h W) as (B & ZC & CB & ZN & FI). pose proof (payload_small h W) as (PS & LS).
  pose proof (imax_umax w W1) as IU.
  unfold v2_serialize_w, v2_serialize, max_encoded_size_w, max_encoded_size, encode_counts_w, encode_counts.
  rewrite max_ok by auto. cbn [bind]. rewrite !index_for_w_eq.
  rewrite index_for_ok by (auto; apply maxp_u64; auto). fold (bin h (maxp h)). rewrite (bin_maxp h W). cbn [bind].
  unfold to_usize_w. replace (_ && _) with true by lia.
  destruct (add1_same w h FL ltac:(unfold usize_max, u64_max; lia) (bin h (h_max h)) ltac:(lia)) as (-> & ->). cbn [bind].
  unfold counts_array_max_encoded_size_w, counts_array_max_encoded_size, V2_HEADER_SIZE.
  destruct (Z.leb_spec ((bin h (h_max h) + 1) * 9) (usize_max_w w)); [|destruct (Z.leb_spec size (usize_max_w w)); [lia|reflexivity]].
  destruct (Z.leb_spec ((bin h (h_max h) + 1) * 9) usize_max) as [_|X]; [|unfold usize_max, u64_max in X; lia].
  fold size.
  destruct (Z.leb_spec size (usize_max_w w)); [|reflexivity].
  destruct (Z.leb_spec size usize_max) as [_|X]; [|unfold usize_max, u64_max in X; lia]. cbn [bind expect].
  unfold vec_fits_w. rewrite Z.mul_1_l. destruct (Z.leb_spec size (isize_max_w w)); [|reflexivity]. cbn [assert bind].
  set (buf := v2_header h ++ _). assert (BL : zlen buf = size).
  { unfold buf, zlen. rewrite app_length, header_len, map_length, seq_length. unfold size. lia. }
  clearbody buf.
  destruct (40 =? zlen (v2_header h)); cbn [assert bind]; auto.
  destruct (bin h (h_max h) <=? zlen (h_counts h)); cbn [assert bind]; auto.
  destruct (40 <=? zlen buf) eqn:E40; cbn [assert bind]; auto.
  rewrite encode_loop_same by (auto; unfold usize_max, u64_max; lia).
  destruct (encode_loop _ _ _ _ _ _ _) as [[b1 r]|] eqn:EL; cbn [bind]; auto. destruct r as [n|]; auto.
  apply encode_loop_len in EL; try lia. unfold usize_add_w, usize_add.
  rewrite !in_range_ok by (unfold usize_max, u64_max; lia). reflexivity.
Qed.

(** ** 32 bits and more *)
Section WIDE.
Variable w : Z.
Hypothesis W32 : 32 <= w.

Lemma v2_serialize_same junk h : wf h -> v2_serialize_w w junk h = v2_serialize junk h.
Proof using W32.
  intros W. pose proof (w_cfg h W) as C. pose proof (w_size h W) as S. rewrite v2_serialize_w_ok; auto; try lia.
  - pose proof (coded_facts h W) as (B & _). pose proof (payload_small h W) as (_ & LS).
    destruct (imax_big w W32) as (IB & UB).
    destruct (Z.leb_spec ((bin h (h_max h) + 1) * 9 + 40) (usize_max_w w)); [|lia].
    destruct (Z.leb_spec ((bin h (h_max h) + 1) * 9 + 40) (isize_max_w w)); [reflexivity|lia].
  - apply wide_addressable; auto.
Qed.

Lemma v2_deflate_serialize_same cd junk h : wf h -> v2_deflate_serialize_w w cd junk h = v2_deflate_serialize cd junk h.
Proof using W32. intros W. unfold v2_deflate_serialize_w, v2_deflate_serialize. rewrite v2_serialize_same by auto. reflexivity. Qed.

Lemma created_same T lo hi sf : u64 lo -> u64 hi -> 0 <= sf <= u8_max ->
  new_with_bounds_w w T lo hi sf = new_with_bounds T lo hi sf.
Proof using W32.
  intros U1 U2 U3. rewrite new_with_bounds_w_eq, new_with_bounds_ok by auto. cbn [bind].
  destruct (creation_check lo hi sf) eqn:CC; cbn [created_w]; auto.
  pose proof (fresh_wf T lo hi sf U1 U2 U3 CC) as W.
  rewrite narrow_allowed; auto. apply wf_narrow; [apply (w_cfg _ W)|apply (w_size _ W)].
Qed.

Lemma new_from_same T h : wf h -> new_from_w w T h = new_from T h.
Proof using W32.
  intros W. pose proof (w_cfg h W) as C. pose proof (w_size h W) as S. destruct (self_params h C) as (UL & UH & US & CC).
  unfold new_from_w, new_from. rewrite created_same by auto. rewrite new_with_bounds_ok by auto. rewrite CC. cbn [bind]. cbv zeta.
  unfold vec_resize_w. pose proof (n_len h (wf_narrow h C S)) as NL. pose proof (size_of_range T).
  destruct (imax_big w W32) as (IB & UB). unfold vec_fits_w.
  assert (0 <= distinct_values h) by (unfold distinct_values, zlen; lia).
  destruct (Z.leb_spec (size_of T * distinct_values h) (isize_max_w w)); [reflexivity|].
  unfold distinct_values in *. nia.
Qed.
End WIDE.
