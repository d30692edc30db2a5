(** * A [usize] of another width: agreement with the 64-bit model *)
From Verif Require Import Machine Log2Model FloatModel HistModel IterModel SerModel WidthModel ListZ Bins Cfg Wf.
From Coq Require Import ZifyBool ZifyNat.

Ltac bc := match goal with
  | |- bind ?m _ = bind ?m _ => let E := fresh "E" in destruct m eqn:E; cbn [bind]; [|reflexivity]
  end.

(** ** Primitives *)
Lemma umax_mono a b : 0 <= a -> a <= b -> usize_max_w a <= usize_max_w b.
Proof. intros A B. unfold usize_max_w. pose proof (Z.pow_le_mono_r 2 a b ltac:(lia) B). lia. Qed.
Lemma imax_umax w : 1 <= w -> 0 <= isize_max_w w < usize_max_w w.
Proof.
  intros W. unfold isize_max_w, usize_max_w. pose proof (pow2_pos (w - 1) ltac:(lia)) as P.
  assert (E : 2 ^ w = 2 ^ (w - 1) * 2) by (rewrite Z.mul_comm, <- Z.pow_succ_r by lia; f_equal; lia). lia.
Qed.
Lemma size_of_range T : 1 <= size_of T <= 8.
Proof. destruct T; cbn; lia. Qed.

Lemma index_for_w_eq w h v : index_for_w w h v =
  (oi <- index_for h v ;; Ret (match oi with Some i => to_usize_w w i | None => None end)).
Proof.
  unfold index_for_w, index_for.
  repeat match goal with
  | |- bind ?m _ = bind (bind ?m _) _ => destruct m eqn:?; cbn [bind]; [|reflexivity]
  end.
  match goal with H : assert (0 <=? ?x) = Ret _ |- _ => destruct (0 <=? x) eqn:L; [|discriminate H] end.
  reflexivity.
Qed.

Lemma index_for_nonneg h v i : index_for h v = Ret (Some i) -> 0 <= i.
Proof.
  unfold index_for. intros E.
  repeat match type of E with
  | bind ?m _ = _ => destruct m eqn:?; cbn [bind] in E; [|discriminate]
  end.
  match type of E with Ret (if ?b then _ else _) = _ => destruct b eqn:L; inversion E; subst end. lia.
Qed.

(** ** Histograms whose indexes can be expressed *)
Record fits (w : Z) (h : hist) : Prop := {
  f_shift : h_half_mag h < w;
  f_shift64 : h_half_mag h < 64;
  f_len : distinct_values h <= usize_max_w w;
  f_len64 : distinct_values h <= usize_max
}.

Section FITS.
Variables (w : Z) (h : hist).
Hypothesis F : fits w h.

Lemma value_for_w_eq i : value_for_w w h i = value_for h i.
Proof using F.
  unfold value_for_w, value_for, usize_shr_w, usize_shr.
  destruct F as [A B _ _]. apply Z.ltb_lt in A, B. rewrite A, B. reflexivity.
Qed.

Lemma mut_at_w_eq v : mut_at_w w h v = mut_at h v.
Proof using F.
  unfold mut_at_w, mut_at. rewrite index_for_w_eq. destruct (index_for h v) as [oi|] eqn:E; cbn [bind]; [|reflexivity].
  destruct oi as [i|]; [|reflexivity]. apply index_for_nonneg in E. unfold to_usize_w.
  pose proof (f_len _ _ F). destruct (Z.leb_spec 0 i); destruct (Z.leb_spec i (usize_max_w w)); cbn [andb]; try lia; auto.
  destruct (Z.ltb_spec i (distinct_values h)); auto; lia.
Qed.

Lemma index_for_or_last_w_eq v : index_for_or_last_w w h v = index_for_or_last h v.
Proof using F.
  unfold index_for_or_last_w, index_for_or_last. rewrite index_for_w_eq.
  destruct (index_for h v) as [oi|] eqn:E; cbn [bind]; [|reflexivity].
  destruct (last_index h) as [li|] eqn:EL; cbn [bind]; [|reflexivity].
  destruct oi as [i|]; [|reflexivity]. apply index_for_nonneg in E. unfold to_usize_w.
  pose proof (f_len _ _ F). unfold last_index in EL. destruct (1 <=? distinct_values h); [|discriminate]. injection EL as EL.
  destruct (Z.leb_spec 0 i); destruct (Z.leb_spec i (usize_max_w w)); cbn [andb]; try lia; auto. f_equal. lia.
Qed.

Lemma index_for_or_last_range v i : index_for_or_last h v = Ret i -> 0 <= i <= distinct_values h - 1.
Proof using.
  unfold index_for_or_last. destruct (index_for h v) as [oi|] eqn:E; cbn [bind]; [|discriminate].
  unfold last_index. destruct (Z.leb_spec 1 (distinct_values h)); cbn [bind]; [|discriminate].
  intros Q; injection Q as Q. destruct oi as [j|]; [apply index_for_nonneg in E|]; lia.
Qed.

Lemma usize_add_eq i : 0 <= i -> i < distinct_values h -> usize_add_w w i 1 = usize_add i 1.
Proof using F.
  intros A B. pose proof (f_len _ _ F). pose proof (f_len64 _ _ F). unfold usize_add_w, usize_add.
  rewrite !in_range_ok; auto; lia.
Qed.

(** ** Queries *)
Lemma count_at_w_eq v : count_at_w w h v = count_at h v.
Proof using F. unfold count_at_w, count_at. rewrite index_for_or_last_w_eq. reflexivity. Qed.

Lemma count_between_w_eq a b : count_between_w w h a b = count_between h a b.
Proof using F.
  unfold count_between_w, count_between. rewrite !index_for_or_last_w_eq. bc. bc.
  apply index_for_or_last_range in E0. rewrite usize_add_eq by lia. reflexivity.
Qed.

Lemma vaq_scan_w_eq cs : forall i t g z, vaq_scan_w w h cs i t g z = vaq_scan h cs i t g z.
Proof using F.
  induction cs as [|c cs IH]; intros; cbn [vaq_scan_w vaq_scan]; auto. bc.
  destruct (_ <=? _); auto. rewrite value_for_w_eq. reflexivity.
Qed.

Lemma value_at_quantile_w_eq q : value_at_quantile_w w h q = value_at_quantile h q.
Proof using F. unfold value_at_quantile_w, value_at_quantile. cbv zeta. apply vaq_scan_w_eq. Qed.

Lemma quantile_below_w_eq v : quantile_below_w w h v = quantile_below h v.
Proof using F.
  unfold quantile_below_w, quantile_below. rewrite index_for_or_last_w_eq. destruct (_ =? _); auto. bc.
  apply index_for_or_last_range in E. rewrite usize_add_eq by lia. reflexivity.
Qed.

(** ** Iterators *)
Definition same_picker {P} (pk pk' : picker P) : Prop :=
  (forall p i t c, 0 <= i < distinct_values h -> pk_pick pk h p i t c = pk_pick pk' h p i t c) /\
  (forall p i, 0 <= i < distinct_values h -> pk_more pk h p i = pk_more pk' h p i).

Lemma iter_round_w_eq {P} (pk pk' : picker P) st : same_picker pk pk' -> 0 <= it_index st <= distinct_values h ->
  iter_round_w w pk h st = iter_round pk' h st.
Proof using F.
  intros (Q1 & Q2) R. unfold iter_round_w, iter_round. destruct (Z.eqb_spec (it_index st) (distinct_values h)); auto.
  match goal with |- bind ?m _ = bind ?m' _ => assert (M : m = m') end.
  { destruct (opt_ge _ _); [rewrite Q2 by lia|]; reflexivity. }
  rewrite M. clear M.
  match goal with |- bind ?m _ = _ => destruct m as [[go st1]|] eqn:E; cbn [bind]; [|reflexivity] end.
  assert (I : it_index st1 = it_index st).
  { destruct (opt_ge _ _).
    - destruct (pk_more pk' h (it_picker st) (it_index st)) as [[m p]|]; cbn [bind] in E; [|discriminate].
      injection E as <- <-. destruct m; reflexivity.
    - destruct (assert _); cbn [bind] in E; [|discriminate]. destruct (it_fresh st).
      + destruct (expect _); cbn [bind] in E; [|discriminate]. injection E as <- <-. reflexivity.
      + injection E as <- <-. reflexivity. }
  destruct go; cbn [negb]; [|reflexivity].
  rewrite Q1 by lia. bc. destruct a as [[md|] p].
  - rewrite value_for_w_eq. reflexivity.
  - rewrite usize_add_eq by lia. reflexivity.
Qed.

Lemma iter_round_index {P} (pk : picker P) st st' o : iter_round pk h st = Ret (st', o) ->
  0 <= it_index st <= distinct_values h -> 0 <= it_index st' <= distinct_values h.
Proof using.
  intros E R. unfold iter_round in E. destruct (Z.eqb_spec (it_index st) (distinct_values h)).
  { injection E as <- <-. exact R. }
  match type of E with bind ?m _ = _ => destruct m as [[go st1]|] eqn:E1; cbn [bind] in E; [|discriminate] end.
  assert (I : it_index st1 = it_index st).
  { destruct (opt_ge _ _).
    - destruct (pk_more pk h (it_picker st) (it_index st)) as [[m p]|]; cbn [bind] in E1; [|discriminate].
      injection E1 as <- <-. destruct m; reflexivity.
    - destruct (assert _); cbn [bind] in E1; [|discriminate]. destruct (it_fresh st).
      + destruct (expect _); cbn [bind] in E1; [|discriminate]. injection E1 as <- <-. reflexivity.
      + injection E1 as <- <-. reflexivity. }
  destruct go; cbn [negb] in E; [|injection E as <- <-; lia].
  destruct (pk_pick _ _ _ _ _ _) as [[[md|] p]|]; cbn [bind] in E; [| |discriminate].
  - repeat match type of E with bind ?m _ = _ => destruct m; cbn [bind] in E; [|discriminate] end.
    injection E as <- <-. cbn [it_index]. lia.
  - destruct (usize_add _ _) as [i|] eqn:U; cbn [bind] in E; [|discriminate].
    injection E as <- <-. cbn [it_index]. apply in_range_inv in U. lia.
Qed.

Lemma iter_loop_w_eq {P} (pk pk' : picker P) n : same_picker pk pk' -> forall st, 0 <= it_index st <= distinct_values h ->
  iter_loop_w w n pk h st = iter_loop n pk' h st.
Proof using F.
  intros Q. induction n as [|n IH]; intros st R; cbn [iter_loop_w iter_loop]; auto. destruct (it_ended st); auto.
  rewrite (iter_round_w_eq pk pk') by auto. bc. destruct a as [st' o]. destruct o; auto. apply IH.
  eapply iter_round_index; eauto.
Qed.

Lemma iter_loop_index {P} (pk : picker P) n : forall st st' o, 0 <= it_index st <= distinct_values h ->
  iter_loop n pk h st = Ret (st', o) -> 0 <= it_index st' <= distinct_values h.
Proof using.
  induction n as [|n IH]; intros st st' o R E; cbn [iter_loop] in E.
  { destruct (it_ended st); inversion E; subst; auto. }
  destruct (it_ended st); [inversion E; subst; auto|].
  destruct (iter_round pk h st) as [[st1 o1]|] eqn:E1; cbn [bind] in E; [|discriminate].
  apply iter_round_index in E1; auto. destruct o1; try (inversion E; subst; auto; fail). eapply IH; eauto.
Qed.

Lemma iter_next_w_eq {P} (pk pk' : picker P) st : same_picker pk pk' -> 0 <= it_index st <= distinct_values h ->
  iter_next_w w pk h st = iter_next pk' h st.
Proof using F. intros. apply iter_loop_w_eq; auto. Qed.

Lemma iter_collect_w_eq {P} (pk pk' : picker P) n : same_picker pk pk' -> forall st, 0 <= it_index st <= distinct_values h ->
  iter_collect_w w n pk h st = iter_collect n pk' h st.
Proof using F.
  intros Q. induction n as [|n IH]; intros st R; cbn [iter_collect_w iter_collect]; auto.
  rewrite (iter_next_w_eq pk pk') by auto. bc. destruct a as [st' [x|]]; auto.
  rewrite IH; auto. eapply iter_loop_index; eauto.
Qed.

Lemma same_picker_refl {P} (pk : picker P) : same_picker pk pk.
Proof using. split; auto. Qed.

Lemma pk_linear_same : same_picker (pk_linear_w w) pk_linear.
Proof using F.
  split; intros; cbn [pk_linear_w pk_linear pk_pick pk_more].
  - rewrite value_for_w_eq. reflexivity.
  - rewrite usize_add_eq by lia. bc. rewrite value_for_w_eq. reflexivity.
Qed.

Lemma pk_log_same : same_picker (pk_log_w w) pk_log.
Proof using F.
  split; intros; cbn [pk_log_w pk_log pk_pick pk_more]; rewrite value_for_w_eq; reflexivity.
Qed.
End FITS.

(** ** Resizing, construction and recording *)
Lemma num_bins_range h b n : num_bins h b = Ret n -> 0 <= n <= u32_max.
Proof.
  unfold num_bins. destruct (u32_add b 1); cbn [bind]; [|discriminate]. intros E. apply in_range_inv in E. lia.
Qed.

(** what a width allows a histogram's array to be *)
Definition allowed (w : Z) (h : hist) : res (option hist) :=
  if distinct_values h <=? usize_max_w w then
    if vec_fits_w w (size_of (h_ctr h)) (distinct_values h) then Ret (Some h) else Panic
  else Ret None.

Lemma resize_w_eq w h v : resize_w w h v = (h' <- resize h v ;; allowed w h').
Proof.
  unfold resize_w, resize.
  repeat match goal with
  | |- bind ?m _ = bind (bind ?m _) _ => destruct m eqn:?; cbn [bind]; [|reflexivity]
  end.
  match goal with H : num_bins _ _ = Ret _ |- _ => apply num_bins_range in H end.
  unfold allowed, distinct_values, to_usize_w, vec_resize_w. hsimp. rewrite zlen_vresize by lia.
  destruct (Z.leb_spec 0 a2); [|lia]. cbn [andb]. destruct (a2 <=? usize_max_w w); [|reflexivity].
  destruct (vec_fits_w _ _ _); reflexivity.
Qed.

Definition created_w (w : Z) (r : result hist creation_error) : res (result hist creation_error) :=
  match r with
  | RErr e => Ret (RErr e)
  | ROk h => o <- allowed w h ;; Ret (match o with None => RErr CreateUsizeTypeTooSmall | Some h => ROk h end)
  end.

Lemma new_with_bounds_w_eq w T lo hi sf : new_with_bounds_w w T lo hi sf = (r <- new_with_bounds T lo hi sf ;; created_w w r).
Proof.
  unfold new_with_bounds_w, new_with_bounds.
  repeat (match goal with
  | |- bind ?m _ = bind (bind ?m _) _ => destruct m eqn:?; cbn [bind created_w]; [|reflexivity]
  | |- (if ?b then _ else _) = _ => destruct b; cbn [bind created_w]; [reflexivity|]
  end; cbv zeta).
  rewrite resize_w_eq. destruct (resize _ _); reflexivity.
Qed.

Lemma allowed_ctr w h h' : allowed w h = Ret (Some h') -> h' = h.
Proof. unfold allowed. destruct (_ <=? _); [|discriminate]. destruct (vec_fits_w _ _ _); [|discriminate]. congruence. Qed.

Lemma new_w_eq w T sf : new_w w T sf = (r <- new T sf ;; created_w w r).
Proof.
  unfold new_w, new. rewrite new_with_bounds_w_eq. destruct (new_with_bounds T 1 2 sf) as [[h|e]|]; cbn [bind created_w]; auto.
  unfold allowed, distinct_values. hsimp. destruct (_ <=? _); [|reflexivity]. destruct (vec_fits_w _ _ _); reflexivity.
Qed.

(** the array after recording [value]: unchanged, or resized *)
Definition record_pre (h : hist) (v : Z) (clamp : bool) : res (option hist) :=
  slot <- mut_at h v ;;
  match slot with
  | Some _ => Ret None
  | None => if clamp then Ret None else if negb (h_auto h) then Ret None else h1 <- resize h v ;; Ret (Some h1)
  end.

Lemma resize_same h v h1 : resize h v = Ret h1 ->
  h_half_mag h1 = h_half_mag h /\ h_half_count h1 = h_half_count h /\ h_ctr h1 = h_ctr h.
Proof.
  unfold resize. intros E.
  repeat match type of E with bind ?m _ = _ => destruct m; cbn [bind] in E; [|discriminate] end.
  injection E as <-. auto.
Qed.

Lemma record_n_inner_w_eq w h v n clamp : fits w h ->
  record_n_inner_w w h v n clamp =
  (o <- record_pre h v clamp ;;
   match o with
   | None => record_n_inner h v n clamp
   | Some h1 =>
       a <- allowed w h1 ;;
       match a with
       | None => Ret (h, RErr RecordResizeFailedUsizeTypeTooSmall)
       | Some _ => if distinct_values h1 <=? usize_max then record_n_inner h v n clamp else record_n_inner_w w h v n clamp
       end
   end).
Proof.
  intros F. unfold record_pre. destruct (mut_at h v) as [slot|] eqn:EM; cbn [bind].
  2: { unfold record_n_inner_w. rewrite mut_at_w_eq, EM by auto. reflexivity. }
  destruct slot as [i|]; cbn [bind].
  { unfold record_n_inner_w, record_n_inner. rewrite mut_at_w_eq, EM by auto. reflexivity. }
  destruct clamp; cbn [bind].
  { unfold record_n_inner_w, record_n_inner. rewrite !mut_at_w_eq, EM by auto. reflexivity. }
  destruct (h_auto h) eqn:EA; cbn [negb bind].
  2: { unfold record_n_inner_w, record_n_inner. rewrite mut_at_w_eq, EM, EA by auto. reflexivity. }
  destruct (resize h v) as [h1|] eqn:ER; cbn [bind].
  2: { unfold record_n_inner_w, record_n_inner. rewrite mut_at_w_eq, EM, EA by auto. cbn [bind negb].
       rewrite resize_w_eq, ER. reflexivity. }
  destruct (allowed w h1) as [[h2|]|] eqn:EL; cbn [bind].
  - destruct (Z.leb_spec (distinct_values h1) usize_max) as [L64|L64]; [|reflexivity].
    pose proof (allowed_ctr w h1 h2 EL); subst h2. pose proof (resize_same _ _ _ ER) as (R1 & _).
    assert (F1 : fits w h1).
    { constructor; auto; rewrite ?R1; try apply F. unfold allowed in EL.
      destruct (Z.leb_spec (distinct_values h1) (usize_max_w w)); [auto|discriminate]. }
    unfold record_n_inner_w, record_n_inner. rewrite mut_at_w_eq, EM, EA by auto. cbn [bind negb].
    rewrite resize_w_eq, ER. cbn [bind]. rewrite EL. cbn [bind].
    destruct (last_index h1) as [li|]; cbn [bind]; [|reflexivity].
    rewrite value_for_w_eq by auto. destruct (value_for h1 li) as [vl|]; cbn [bind]; [|reflexivity].
    destruct (highest_equivalent h1 vl) as [top|]; cbn [bind]; [|reflexivity].
    rewrite mut_at_w_eq; [reflexivity|]. destruct F1. constructor; auto.
  - unfold record_n_inner_w. rewrite mut_at_w_eq, EM, EA by auto. cbn [bind negb].
    rewrite resize_w_eq, ER. cbn [bind]. rewrite EL. reflexivity.
  - unfold record_n_inner_w. rewrite mut_at_w_eq, EM, EA by auto. cbn [bind negb].
    rewrite resize_w_eq, ER. cbn [bind]. rewrite EL. reflexivity.
Qed.
