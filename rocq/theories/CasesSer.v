(** * Concrete cases for the theorems about serialization

    Decision procedures for their hypotheses, each with a proof that it is right, two codecs, and a
    tactic, as in [Cases]. *)
From Verif Require Import Machine Log2Model HistModel Spec Reach Witness Cases SerModel SerSpec ImageSpec.

(** [bytes] *)
Definition byte_b (b : Z) : bool := (0 <=? b) && (b <? 256).
Lemma bytes_ok bs : forallb byte_b bs = true -> bytes bs.
Proof. rewrite forallb_forall. intros H. apply Forall_forall. intros b I. specialize (H b I). unfold byte_b in H. lia. Qed.

(** no compression at all *)
Definition plain : codec := mk_codec (fun l => l) (fun l => l) zlen.
Lemma plain_ok : codec_ok plain.
Proof. intros bs B. split; [exact B|]. cbn. pose proof (Nat2Z.is_nonneg (length bs)). unfold zlen. lia. Qed.
Lemma plain_lossless : lossless plain.
Proof. intros bs B. split; [exact B|reflexivity]. Qed.
(** a toy compressor: it writes every byte twice, and then a byte which the decompressor does not look at *)
Fixpoint halve (l : list Z) : list Z := match l with a :: _ :: l' => a :: halve l' | _ => [] end.
Definition twice : codec := mk_codec (fun l => flat_map (fun b => [b; b]) l ++ [0]) halve (fun l => zlen l - zlen l mod 2).
Lemma halve_bytes n : forall l, (length l <= n)%nat -> bytes l -> bytes (halve l).
Proof.
  induction n as [|n IH]; intros [|a [|b l]] L B; cbn in *; try (constructor; fail); try lia.
  inversion B as [|? ? A B2]; subst. inversion B2; subst. constructor; auto. apply IH; auto. lia.
Qed.
Lemma twice_ok : codec_ok twice.
Proof.
  intros bs B. split; [apply (halve_bytes (length bs)); auto|]. cbn [inflate_used twice].
  pose proof (Nat2Z.is_nonneg (length bs)). unfold zlen. pose proof (Z.mod_pos_bound (Z.of_nat (length bs)) 2 ltac:(lia)).
  pose proof (Z.mod_le (Z.of_nat (length bs)) 2 ltac:(lia) ltac:(lia)). lia.
Qed.
Lemma twice_lossless : lossless twice.
Proof.
  intros bs B. cbn [deflate inflate twice]. induction B as [|b bs X B IH]; cbn [flat_map app halve].
  - split; [repeat constructor; lia|reflexivity].
  - destruct IH as [IH1 IH2]. split; [repeat constructor; auto; lia|rewrite IH2; reflexivity].
Qed.

(** [numbers] *)
Fixpoint read_number (k : nat) (p : list Z) : option (Z * list Z) :=
  match p with
  | [] => None
  | b :: p' =>
      match k with
      | O => Some (b, p')
      | S k' => if b <? 128 then Some (b, p') else match read_number k' p' with Some (x, r) => Some (b - 128 + 128 * x, r) | None => None end
      end
  end.
Lemma read_number_ok k : forall p x r, read_number k p = Some (x, r) -> exists c, p = c ++ r /\ number k c x.
Proof.
  induction k as [|k IH]; intros [|b p] x r E; cbn in E; try discriminate.
  - injection E as <- <-. exists [b]. split; [reflexivity|constructor].
  - destruct (b <? 128) eqn:B.
    + injection E as <- <-. exists [b]. split; [reflexivity|]. constructor. lia.
    + destruct (read_number k p) as [[y q]|] eqn:R; [|discriminate]. injection E as <- <-.
      destruct (IH _ _ _ R) as (c & -> & N). exists (b :: c). split; [reflexivity|]. constructor; auto. lia.
Qed.
Fixpoint numbers_b (p ts : list Z) : bool :=
  match ts with
  | [] => match p with [] => true | _ => false end
  | t :: ts' => match read_number 8 p with Some (x, r) => (x =? zig_zag t) && numbers_b r ts' | None => false end
  end.
Lemma numbers_ok ts : forall p, numbers_b p ts = true -> numbers p ts.
Proof.
  induction ts as [|t ts IH]; intros p E; cbn [numbers_b] in E.
  - destruct p; [constructor|discriminate].
  - destruct (read_number 8 p) as [[x r]|] eqn:R; [|discriminate]. apply andb_true_iff in E. destruct E as [E1 E2].
    destruct (read_number_ok _ _ _ _ R) as (c & -> & N). apply Z.eqb_eq in E1. subst x. constructor; auto.
Qed.
Lemma number_ok c x : read_number 8 c = Some (x, []) -> number 8 c x.
Proof. intros E. destruct (read_number_ok _ _ _ _ E) as (c' & -> & N). rewrite app_nil_r. exact N. Qed.
(** bytes that end within a number *)
Lemma number_prefix k c x : number k c x -> forall r, read_number k (c ++ r) = Some (x, r).
Proof.
  induction 1 as [b|k b B|k b bs x B N IH]; intros r; cbn; auto.
  - rewrite (proj2 (Z.ltb_lt b 128) B). reflexivity.
  - rewrite (proj2 (Z.ltb_ge b 128) B), IH. reflexivity.
Qed.
Lemma cut_ok p : read_number 8 p = None -> forall c p3 x, p = c ++ p3 -> ~ number 8 c x.
Proof. intros E c p3 x -> N. rewrite (number_prefix _ _ _ N) in E. discriminate. Qed.

(** [fits] *)
Definition fits_b (T : counter) (slots : Z) (ts : list Z) : bool :=
  forallb (fun t => (i64_min <? t) && (t <=? cmax T)) ts && (zlen (expand ts) <=? usize_max) &&
  (0 <=? slots) && forallb (fun c => c =? 0) (skipn (Z.to_nat slots) (expand ts)).
Lemma beyond_ok slots l : 0 <= slots -> forallb (fun c => c =? 0) (skipn (Z.to_nat slots) l) = true ->
  forall i, slots <= i -> nth (Z.to_nat i) l 0 = 0.
Proof.
  intros S H i L. rewrite forallb_forall in H.
  destruct (Nat.lt_ge_cases (Z.to_nat i) (length l)) as [K|K]; [|apply nth_overflow; exact K].
  rewrite <- (firstn_skipn (Z.to_nat slots) l). rewrite app_nth2; rewrite firstn_length; [|lia].
  apply Z.eqb_eq. apply H. apply nth_In. rewrite skipn_length. lia.
Qed.
Lemma fits_ok T slots ts : fits_b T slots ts = true -> fits T slots ts.
Proof.
  unfold fits_b. rewrite !andb_true_iff. intros [[[A B] S] C]. split; [|split; [lia|]].
  - apply Forall_forall. intros t I. rewrite forallb_forall in A. specialize (A t I). lia.
  - apply beyond_ok; [lia|exact C].
Qed.

(** [canonical] *)
Fixpoint no_two (ts : list Z) : bool :=
  match ts with a :: (b :: _) as r => ((0 <? a) || (0 <? b)) && no_two r | _ => true end.
Lemma canonical_ok ts : negb (existsb (Z.eqb (-1)) ts) && no_two ts = true -> canonical ts.
Proof.
  rewrite andb_true_iff, negb_true_iff. intros [A B]. split.
  - intros I. assert (X : existsb (Z.eqb (-1)) ts = true) by (apply existsb_exists; exists (-1); auto). congruence.
  - intros before. revert ts A B. induction before as [|c before IH]; intros ts A B a b after ->.
    + cbn in B. lia.
    + cbn [app] in *. cbn [existsb] in A. apply orb_false_iff in A. destruct A as [_ A].
      apply (IH _ A) with (after := after); [|reflexivity].
      destruct before; cbn in B |- *; apply andb_true_iff in B; apply B.
Qed.

(** [counts_fit_i64], the extremes, and what is read back *)
Lemma counts_ok h : forallb (fun p => snd p <=? i64_max) (held h) = true -> counts_fit_i64 h.
Proof. rewrite forallb_forall. intros H v n I. specialize (H _ I). cbn in H. lia. Qed.
Lemma max_ok h : stats_fit h = true -> max_agrees h.
Proof. intros E. apply stats_fit_ok in E. apply E. Qed.
Lemma min_ok h : stats_fit h = true -> min_agrees h.
Proof. intros E. apply stats_fit_ok in E. apply E. Qed.

Ltac ser_leaf :=
  lazymatch goal with
  | |- bytes _ => apply bytes_ok; vm_compute; reflexivity
  | |- codec_ok plain => exact plain_ok
  | |- codec_ok twice => exact twice_ok
  | |- lossless plain => exact plain_lossless
  | |- lossless twice => exact twice_lossless
  | |- numbers _ _ => apply numbers_ok; vm_compute; reflexivity
  | |- number 8 _ _ => apply number_ok; vm_compute; reflexivity
  | |- fits _ _ _ => apply fits_ok; vm_compute; reflexivity
  | |- canonical _ => apply canonical_ok; vm_compute; reflexivity
  | |- counts_fit_i64 _ => apply counts_ok; vm_compute; reflexivity
  | |- max_agrees _ => apply max_ok; vm_compute; reflexivity
  | |- min_agrees _ => apply min_ok; vm_compute; reflexivity
  | |- is_u8 _ => vm_compute; split; discriminate
  | |- forall c p3 x, _ = c ++ p3 -> ~ number 8 c x => apply cut_ok; vm_compute; reflexivity
  | |- forall i, _ <= i -> nth (Z.to_nat i) _ 0 = 0 => apply beyond_ok; [vm_compute; discriminate|vm_compute; reflexivity]
  | |- _ <= _ <= _ => vm_compute; split; discriminate
  | |- Forall (fun t => _ < t <= _ /\ _) _ => repeat constructor; vm_compute; first [reflexivity|discriminate]
  | |- (_ < _)%nat => vm_compute; lia
  | |- _ => case_leaf
  end.
Ltac ser_case :=
  repeat first [case_match | lazymatch goal with |- (let x := _ in _) => cbv zeta end | lazymatch goal with |- _ /\ _ => split end]; ser_leaf.
