(** * Lists indexed by integers *)
From Verif Require Import Machine.
From Coq Require Import ZifyBool ZifyNat.

Definition zn (l : list Z) (i : Z) : Z := nth (Z.to_nat i) l 0.
Definition zsum (l : list Z) : Z := fold_right Z.add 0 l.

Lemma zlen_nonneg {A} (l : list A) : 0 <= zlen l.
Proof. unfold zlen; lia. Qed.

Lemma zn_out l i : zlen l <= i -> zn l i = 0.
Proof. intros. unfold zn, zlen in *. apply nth_overflow. lia. Qed.

Lemma zn_nil i : zn [] i = 0.
Proof. unfold zn. destruct (Z.to_nat i); reflexivity. Qed.

Lemma zn_cons_0 x l : zn (x :: l) 0 = x.
Proof. reflexivity. Qed.

Lemma zn_cons_S x l i : 0 < i -> zn (x :: l) i = zn l (i - 1).
Proof.
  intros. unfold zn. replace (Z.to_nat i) with (S (Z.to_nat (i - 1))) by lia. reflexivity.
Qed.

Lemma zlen_cons {A} (x : A) l : zlen (x :: l) = zlen l + 1.
Proof. unfold zlen. cbn [length]. lia. Qed.

Lemma zlen_nil {A} : zlen (@nil A) = 0.
Proof. reflexivity. Qed.

Lemma zlen_app {A} (a b : list A) : zlen (a ++ b) = zlen a + zlen b.
Proof. unfold zlen. rewrite app_length. lia. Qed.

Lemma length_upd {A} (l : list A) n x : length (upd l n x) = length l.
Proof. revert n; induction l; destruct n; cbn; auto. Qed.

Lemma zlen_vset {A} (l : list A) i x : zlen (vset l i x) = zlen l.
Proof. unfold zlen, vset. now rewrite length_upd. Qed.

Lemma nth_upd l n x k : (n < length l)%nat ->
  nth k (upd l n x) 0 = if Nat.eqb n k then x else nth k l 0.
Proof.
  revert n k; induction l; cbn; intros n k Hn; [lia|].
  destruct n, k; cbn; auto. apply IHl. lia.
Qed.

Lemma zn_vset l i x j : 0 <= i < zlen l -> 0 <= j ->
  zn (vset l i x) j = if i =? j then x else zn l j.
Proof.
  intros. unfold zn, vset, zlen in *. rewrite nth_upd by lia.
  destruct (Nat.eqb_spec (Z.to_nat i) (Z.to_nat j)); destruct (Z.eqb_spec i j); auto; lia.
Qed.

Lemma sum_upd l n x : (n < length l)%nat -> zsum (upd l n x) = zsum l - nth n l 0 + x.
Proof.
  revert n; induction l; cbn; intros n Hn; [lia|].
  destruct n; cbn; [lia|]. unfold zsum in *. rewrite IHl by lia. lia.
Qed.

Lemma zsum_vset l i x : 0 <= i < zlen l -> zsum (vset l i x) = zsum l - zn l i + x.
Proof. intros. unfold vset, zn, zlen in *. apply sum_upd. lia. Qed.

Lemma zsum_app a b : zsum (a ++ b) = zsum a + zsum b.
Proof. unfold zsum. induction a; cbn; lia. Qed.

Lemma zsum_repeat0 n : zsum (repeat 0 n) = 0.
Proof. induction n; cbn; auto. Qed.

Lemma zsum_cons x l : zsum (x :: l) = x + zsum l.
Proof. reflexivity. Qed.

Lemma zn_nonneg l i : Forall (fun c => 0 <= c) l -> 0 <= zn l i.
Proof.
  intros F. unfold zn. destruct (nth_in_or_default (Z.to_nat i) l 0) as [I|E].
  - rewrite Forall_forall in F. auto.
  - rewrite E; lia.
Qed.

Lemma zsum_nonneg l : Forall (fun c => 0 <= c) l -> 0 <= zsum l.
Proof. induction 1; cbn; unfold zsum in *; lia. Qed.

Lemma zn_le_zsum l i : Forall (fun c => 0 <= c) l -> zn l i <= zsum l.
Proof.
  intros F. unfold zn. revert F. generalize (Z.to_nat i) as n. induction l; intros n F.
  - destruct n; cbn; lia.
  - inversion F; subst. pose proof (zsum_nonneg l H2). destruct n; cbn -[Z.add].
    + unfold zsum in *. cbn. lia.
    + specialize (IHl n H2). unfold zsum in *; cbn in *; lia.
Qed.

Lemma vget_in l i : 0 <= i < zlen l -> vget l i = Some (zn l i).
Proof.
  intros. unfold vget. destruct (Z.leb_spec 0 i); destruct (Z.ltb_spec i (zlen l)); cbn; try lia.
  unfold zn, zlen in *. apply nth_error_nth'. lia.
Qed.

Lemma vget_out {A} (l : list A) i : zlen l <= i -> vget l i = None.
Proof.
  intros. unfold vget. destruct (Z.leb_spec 0 i); destruct (Z.ltb_spec i (zlen l)); cbn; try lia; auto.
Qed.

Lemma zlen_vresize {A} (l : list A) n x : 0 <= n -> zlen (vresize l n x) = n.
Proof.
  intros. unfold zlen, vresize. rewrite app_length, firstn_length, repeat_length. lia.
Qed.

Lemma nth_firstn_lt l n k : (k < n)%nat -> nth k (firstn n l) 0 = nth k l 0.
Proof.
  revert n k; induction l; intros n k Hk; destruct n; cbn; auto; try lia.
  destruct k; auto. apply IHl. lia.
Qed.

Lemma zn_vresize l n j : 0 <= n -> 0 <= j ->
  zn (vresize l n 0) j = if j <? n then zn l j else 0.
Proof.
  intros. unfold zn, vresize. destruct (Z.ltb_spec j n).
  - destruct (Nat.lt_ge_cases (Z.to_nat j) (length l)).
    + rewrite app_nth1 by (rewrite firstn_length; lia). apply nth_firstn_lt. lia.
    + rewrite (nth_overflow l) by lia. rewrite app_nth2 by (rewrite firstn_length; lia).
      rewrite nth_repeat. reflexivity.
  - apply nth_overflow. rewrite app_length, firstn_length, repeat_length. lia.
Qed.

Lemma vresize_grow l n : zlen l <= n -> vresize l n 0 = l ++ repeat 0 (Z.to_nat n - length l).
Proof. intros. unfold vresize. rewrite firstn_all2; auto. unfold zlen in *. lia. Qed.

Lemma vresize_same l : vresize l (zlen l) 0 = l.
Proof.
  rewrite vresize_grow by lia. replace (Z.to_nat (zlen l) - length l)%nat with 0%nat by (unfold zlen; lia).
  cbn. apply app_nil_r.
Qed.

Lemma zsum_vresize_grow l n : zlen l <= n -> zsum (vresize l n 0) = zsum l.
Proof. intros. rewrite vresize_grow by auto. rewrite zsum_app, zsum_repeat0. lia. Qed.

Lemma Forall_upd {A} (P : A -> Prop) l n x : Forall P l -> P x -> Forall P (upd l n x).
Proof.
  intros F Px. revert n. induction F; intros n; destruct n; cbn; constructor; auto.
Qed.

Lemma Forall_vset {A} (P : A -> Prop) l i x : Forall P l -> P x -> Forall P (vset l i x).
Proof. apply Forall_upd. Qed.

Lemma Forall_repeat {A} (P : A -> Prop) x n : P x -> Forall P (repeat x n).
Proof. induction n; cbn; auto. Qed.

Lemma Forall_firstn {A} (P : A -> Prop) l n : Forall P l -> Forall P (firstn n l).
Proof. intros F. revert n. induction F; intros n; destruct n; cbn; auto. Qed.

Lemma Forall_skipn {A} (P : A -> Prop) l n : Forall P l -> Forall P (skipn n l).
Proof. intros F. revert n. induction F; intros n; destruct n; cbn; auto. Qed.

Lemma Forall_vresize (P : Z -> Prop) l n x : Forall P l -> P x -> Forall P (vresize l n x).
Proof.
  intros. unfold vresize. apply Forall_app. split; [apply Forall_firstn; auto | apply Forall_repeat; auto].
Qed.

Lemma list_ext (a b : list Z) : zlen a = zlen b -> (forall i, 0 <= i -> zn a i = zn b i) -> a = b.
Proof.
  intros L E. apply (nth_ext _ _ 0 0). { unfold zlen in *; lia. }
  intros n Hn. specialize (E (Z.of_nat n) ltac:(lia)). unfold zn in E. rewrite Nat2Z.id in E. exact E.
Qed.

Lemma Forall_zn (P : Z -> Prop) l : (forall i, 0 <= i < zlen l -> P (zn l i)) -> Forall P l.
Proof.
  intros E. apply Forall_forall. intros x I. destruct (In_nth l x 0 I) as (n & Hn & <-).
  specialize (E (Z.of_nat n)). unfold zn, zlen in E. rewrite Nat2Z.id in E. apply E. lia.
Qed.

Lemma zn_Forall (P : Z -> Prop) l i : Forall P l -> 0 <= i < zlen l -> P (zn l i).
Proof.
  intros F B. rewrite Forall_forall in F. apply F. unfold zn, zlen in *. apply nth_In. lia.
Qed.

Lemma zn_map0 (l : list Z) i : zn (map (fun _ => 0) l) i = 0.
Proof.
  unfold zn. revert i. intros i. generalize (Z.to_nat i). induction l; intros n; destruct n; cbn; auto.
Qed.

Lemma zlen_map {A B} (f : A -> B) l : zlen (map f l) = zlen l.
Proof. unfold zlen. now rewrite map_length. Qed.

Lemma zsum_map0 (l : list Z) : zsum (map (fun _ => 0) l) = 0.
Proof. induction l; cbn; auto. Qed.

Lemma zn_firstn l n j : 0 <= j < n -> zn (firstn (Z.to_nat n) l) j = zn l j.
Proof. intros. unfold zn. apply nth_firstn_lt. lia. Qed.

Lemma nth_skipn (l : list Z) n k : nth k (skipn n l) 0 = nth (n + k) l 0.
Proof.
  revert n; induction l; intros n; destruct n; cbn; auto. destruct k; reflexivity.
Qed.

Lemma zn_skipn l n j : 0 <= n -> 0 <= j -> zn (skipn (Z.to_nat n) l) j = zn l (n + j).
Proof. intros. unfold zn. rewrite nth_skipn. f_equal. lia. Qed.

Lemma zlen_firstn {A} (l : list A) n : 0 <= n <= zlen l -> zlen (firstn (Z.to_nat n) l) = n.
Proof. intros. unfold zlen in *. rewrite firstn_length. lia. Qed.

Lemma zlen_skipn {A} (l : list A) n : 0 <= n <= zlen l -> zlen (skipn (Z.to_nat n) l) = zlen l - n.
Proof. intros. unfold zlen in *. rewrite skipn_length. lia. Qed.

(** sum of the counts of the bins [0 .. n-1] *)
Definition zpre (l : list Z) (n : Z) : Z := zsum (firstn (Z.to_nat n) l).

Lemma zpre_0 l : zpre l 0 = 0.
Proof. reflexivity. Qed.

Lemma firstn_S_nth (l : list Z) n : (n < length l)%nat -> firstn (S n) l = firstn n l ++ [nth n l 0].
Proof.
  revert n; induction l; intros n Hn; cbn in *; [lia|]. destruct n; cbn; auto.
  f_equal. apply IHl. lia.
Qed.

Lemma zpre_succ l n : 0 <= n -> zpre l (n + 1) = zpre l n + zn l n.
Proof.
  intros. unfold zpre, zn. replace (Z.to_nat (n + 1)) with (S (Z.to_nat n)) by lia.
  destruct (Nat.lt_ge_cases (Z.to_nat n) (length l)).
  - rewrite firstn_S_nth by auto. rewrite zsum_app. cbn. lia.
  - rewrite !firstn_all2 by lia. rewrite nth_overflow by lia. lia.
Qed.

Lemma zpre_all l n : zlen l <= n -> zpre l n = zsum l.
Proof. intros. unfold zpre. rewrite firstn_all2; auto. unfold zlen in *. lia. Qed.

Lemma zpre_ext a b n : (forall i, 0 <= i < n -> zn a i = zn b i) -> zpre a n = zpre b n.
Proof.
  intros E. destruct (Z_le_gt_dec n 0) as [N|N].
  - unfold zpre. replace (Z.to_nat n) with 0%nat by lia. reflexivity.
  - assert (A : forall k, 0 <= k -> k <= n -> zpre a k = zpre b k).
    { intros k Hk. pattern k. apply natlike_ind; auto.
      intros x Hx IH Hn. rewrite <- Z.add_1_r, !zpre_succ by auto. rewrite IH by lia.
      rewrite E by lia. reflexivity. }
    apply A; lia.
Qed.

Lemma zsum_ext a b : (forall i, 0 <= i -> zn a i = zn b i) -> zsum a = zsum b.
Proof.
  intros E. rewrite <- (zpre_all a (Z.max (zlen a) (zlen b))) by lia.
  rewrite <- (zpre_all b (Z.max (zlen a) (zlen b))) by lia.
  apply zpre_ext. intros; apply E; lia.
Qed.

Lemma zpre_mono l a b : Forall (fun c => 0 <= c) l -> 0 <= a <= b -> zpre l a <= zpre l b.
Proof.
  intros F [Ha Hb].
  assert (A : forall d, 0 <= d -> zpre l a <= zpre l (a + d)).
  { intros d Hd. pattern d. apply natlike_ind; auto.
    - rewrite Z.add_0_r. lia.
    - intros x Hx IH. replace (a + Z.succ x) with (a + x + 1) by lia. rewrite zpre_succ by lia.
      pose proof (zn_nonneg l (a + x) F). lia. }
  specialize (A (b - a) ltac:(lia)). replace (a + (b - a)) with b in A by lia. exact A.
Qed.

Lemma zpre_le_zsum l n : Forall (fun c => 0 <= c) l -> zpre l n <= zsum l.
Proof.
  intros F. destruct (Z_le_gt_dec 0 n).
  - rewrite <- (zpre_all l (Z.max n (zlen l))) by lia. apply zpre_mono; auto. lia.
  - unfold zpre. replace (Z.to_nat n) with 0%nat by lia. apply zsum_nonneg. auto.
Qed.

Lemma zpre_nonneg l n : Forall (fun c => 0 <= c) l -> 0 <= zpre l n.
Proof. intros. unfold zpre. apply zsum_nonneg, Forall_firstn. auto. Qed.

Lemma zsum_split l n : zsum l = zpre l n + zsum (skipn (Z.to_nat n) l).
Proof. unfold zpre. rewrite <- zsum_app, firstn_skipn. reflexivity. Qed.

Lemma zsum_0_iff l : Forall (fun c => 0 <= c) l -> (zsum l = 0 <-> forall i, 0 <= i -> zn l i = 0).
Proof.
  intros F. split; intros.
  - pose proof (zn_le_zsum l i F). pose proof (zn_nonneg l i F). lia.
  - rewrite (zsum_ext l []) by (intros; rewrite zn_nil; auto). reflexivity.
Qed.
