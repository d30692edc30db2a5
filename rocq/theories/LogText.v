(** * Facts about the texts the log writer produces *)
From Coq Require Import String.
From Flocq Require Import IEEE754.BinarySingleNaN.
From Verif Require Import Machine ListZ HistModel Spec SerModel SerSpec FloatModel LogModel LogSpec LogFacts.

(** ** Decimal numbers *)
Lemma dec_loop_ok fuel n acc : 0 <= n < 2 ^ Z.of_nat (S fuel) ->
  exists ds, dec_loop (S fuel) n acc = ds ++ acc /\ ds <> [] /\ all_digits ds /\ decimal_value ds = n.
Proof.
  revert n acc. induction fuel as [|f IH]; intros n acc B.
  - change (2 ^ Z.of_nat 1) with 2 in B. cbn [dec_loop]. destruct (n <? 10) eqn:E; [|apply Z.ltb_ge in E; lia].
    exists [48 + n]. repeat split; try discriminate.
    + constructor; [lia|constructor].
    + unfold decimal_value. cbn [fold_left]. lia.
  - cbn [dec_loop]. destruct (n <? 10) eqn:E.
    + apply Z.ltb_lt in E. exists [48 + n]. repeat split; try discriminate.
      * constructor; [lia|constructor].
      * unfold decimal_value. cbn [fold_left]. lia.
    + apply Z.ltb_ge in E. rewrite Nat2Z.inj_succ, Z.pow_succ_r in B by lia.
      destruct (IH (n / 10) (48 + n mod 10 :: acc)) as (ds & R & N & F & V).
      { split; [apply Z.div_pos; lia|]. apply Z.div_lt_upper_bound; lia. }
      cbn [dec_loop] in R. rewrite R. exists (ds ++ [48 + n mod 10]). repeat split.
      * rewrite <- app_assoc. reflexivity.
      * destruct ds; discriminate.
      * apply Forall_app. split; auto. constructor; [|constructor]. pose proof (Z.mod_pos_bound n 10). lia.
      * rewrite decimal_app, V. unfold decimal_value. cbn [fold_left]. change (10 ^ zlen [48 + n mod 10]) with 10.
        pose proof (Z.div_mod n 10). lia.
Qed.
Lemma dec_ok n : 0 <= n -> dec n <> [] /\ all_digits (dec n) /\ decimal_value (dec n) = n.
Proof.
  intros H. unfold dec. destruct (dec_loop_ok (Z.to_nat (Z.log2 n)) n []) as (ds & R & N & F & V).
  - split; [lia|]. rewrite Nat2Z.inj_succ, Z2Nat.id by apply Z.log2_nonneg.
    destruct (Z.eq_dec n 0) as [->|]; [reflexivity|]. apply Z.log2_spec; lia.
  - rewrite R, app_nil_r. auto.
Qed.
Lemma dec3_ok n : 0 <= n -> is_decimal3 (dec3 n) n.
Proof.
  intros H. destruct (dec_ok (n / 1000)) as (N & F & V); [apply Z.div_pos; lia|].
  exists (dec (n / 1000)), [48 + n / 100 mod 10; 48 + n / 10 mod 10; 48 + n mod 10].
  split; [reflexivity|]. repeat split; auto.
  - pose proof (Z.mod_pos_bound (n / 100) 10). pose proof (Z.mod_pos_bound (n / 10) 10). pose proof (Z.mod_pos_bound n 10).
    repeat constructor; lia.
  - rewrite V. unfold decimal_value. cbn [fold_left].
    replace (n / 100) with (n / 10 / 10) by (rewrite Z.div_div by lia; reflexivity).
    replace (n / 1000) with (n / 10 / 10 / 10) by (rewrite !Z.div_div by lia; reflexivity).
    pose proof (Z.div_mod n 10). pose proof (Z.div_mod (n / 10) 10). pose proof (Z.div_mod (n / 10 / 10) 10). lia.
Qed.
Lemma decimal3_parts s n : is_decimal3 s n -> exists i f, s = i ++ DOT :: f /\ i <> [] /\ all_digits i /\ all_digits f /\
  zlen f = 3 /\ decimal_value i = n / 1000 /\ decimal_value f = n mod 1000.
Proof.
  intros (i & f & -> & N & I & F & L & V). exists i, f. pose proof (decimal_bound _ F) as B. rewrite L in B.
  change (10 ^ 3) with 1000 in B. repeat split; auto.
  - apply (Z.div_unique n 1000 _ (decimal_value f)); lia.
  - apply (Z.mod_unique n 1000 (decimal_value i)); lia.
Qed.

(** ** UTF-8 *)
Lemma within_iff lo hi b : within lo hi b = true <-> lo <= b <= hi.
Proof. unfold within. rewrite andb_true_iff, !Z.leb_le. lia. Qed.
Definition ascii (s : list Z) : Prop := Forall (fun c => 0 <= c <= 127) s.
Lemma ascii_decode s : ascii s -> utf8_decode s = Some s.
Proof.
  induction 1 as [|c s C F IH]; [reflexivity|]. cbn [utf8_decode].
  apply within_iff in C. rewrite C, IH. reflexivity.
Qed.
Lemma ascii_utf8 s : ascii s -> utf8 s = true.
Proof. intros H. unfold utf8. rewrite ascii_decode; auto. Qed.
Lemma digits_ascii s : all_digits s -> ascii s.
Proof. unfold all_digits, ascii. intros F. eapply Forall_impl; [|exact F]. cbn. lia. Qed.

Lemma decode_in s : bytes s -> forall cs, utf8_decode s = Some cs -> forall c, 0 <= c <= 127 -> (In c cs <-> In c s).
Proof.
  remember (length s) as n eqn:Ln. assert (L : (length s <= n)%nat) by lia. clear Ln. revert s L.
  induction n as [|n IH]; intros s L Bs cs D c C.
  { destruct s; [|cbn in L; lia]. injection D as <-. tauto. }
  assert (Bc : forall b r, bytes (b :: r) -> 0 <= b < 256 /\ bytes r) by (intros b r K; inversion K; auto).
  destruct s as [|b0 r0]; [injection D as <-; tauto|]. cbn [length] in L.
  destruct (Bc _ _ Bs) as (B0 & Bs0). cbn [utf8_decode] in D.
  destruct (within 0 127 b0) eqn:W0.
  { destruct (utf8_decode r0) as [cs0|] eqn:E; [|discriminate]. injection D as <-.
    cbn [In]. rewrite (IH r0 ltac:(lia) Bs0 cs0 E c C). tauto. }
  assert (128 <= b0) by (destruct (Z_le_gt_dec 128 b0); auto; assert (within 0 127 b0 = true) by (apply within_iff; lia); congruence).
  destruct r0 as [|b1 r1]; [discriminate|]. destruct (Bc _ _ Bs0) as (B1 & Bs1). cbn [length] in L.
  destruct (within 194 223 b0 && within 128 191 b1) eqn:W1.
  { destruct (utf8_decode r1) as [cs0|] eqn:E; [|discriminate]. injection D as <-.
    apply andb_true_iff in W1. rewrite !within_iff in W1.
    cbn [In]. rewrite (IH r1 ltac:(lia) Bs1 cs0 E c C). split; [intros [K|K]; [lia|auto]|intros [K|[K|K]]; [lia|lia|auto]]. }
  clear W1. destruct r1 as [|b2 r2]; [discriminate|]. destruct (Bc _ _ Bs1) as (B2 & Bs2). cbn [length] in L.
  match type of D with context [if ?x then _ else _] => destruct x eqn:W2 end.
  { destruct (utf8_decode r2) as [cs0|] eqn:E; [|discriminate]. injection D as <-.
    rewrite andb_true_iff, !orb_true_iff, !andb_true_iff, !within_iff, !Z.eqb_eq in W2.
    cbn [In]. rewrite (IH r2 ltac:(lia) Bs2 cs0 E c C). split; [intros [K|K]; [lia|auto]|intros [K|[K|[K|K]]]; [lia|lia|lia|auto]]. }
  clear W2. destruct r2 as [|b3 r3]; [discriminate|]. destruct (Bc _ _ Bs2) as (B3 & Bs3). cbn [length] in L.
  match type of D with context [if ?x then _ else _] => destruct x eqn:W3 end; [|discriminate].
  destruct (utf8_decode r3) as [cs0|] eqn:E; [|discriminate]. injection D as <-.
  rewrite !andb_true_iff, !orb_true_iff, !andb_true_iff, !within_iff, !Z.eqb_eq in W3.
  cbn [In]. rewrite (IH r3 ltac:(lia) Bs3 cs0 E c C). split; [intros [K|K]; [lia|auto]|intros [K|[K|[K|[K|K]]]]; [lia|lia|lia|lia|auto]].
Qed.
Lemma chars_in s c : is_str s -> 0 <= c <= 127 -> (In c (chars s) <-> In c s).
Proof.
  intros (B & U) C. unfold utf8, chars in *. destruct (utf8_decode s) as [cs|] eqn:E; [|discriminate].
  eapply decode_in; eauto.
Qed.

(** ** Base 64 *)
Lemma b64_value_char x : 0 <= x < 64 -> b64_value (b64_char x) = Some x.
Proof.
  intros H. unfold b64_char.
  destruct (x <? 26) eqn:E1; [apply Z.ltb_lt in E1|apply Z.ltb_ge in E1; destruct (x <? 52) eqn:E2; [apply Z.ltb_lt in E2|
    apply Z.ltb_ge in E2; destruct (x <? 62) eqn:E3; [apply Z.ltb_lt in E3|apply Z.ltb_ge in E3; destruct (x =? 62) eqn:E4]]].
  - unfold b64_value. replace ((65 <=? 65 + x) && (65 + x <=? 90)) with true by (symmetry; rewrite andb_true_iff, !Z.leb_le; lia). f_equal. lia.
  - unfold b64_value. replace ((65 <=? 97 + (x - 26)) && (97 + (x - 26) <=? 90)) with false by (symmetry; rewrite andb_false_iff, !Z.leb_gt; lia).
    replace ((97 <=? 97 + (x - 26)) && (97 + (x - 26) <=? 122)) with true by (symmetry; rewrite andb_true_iff, !Z.leb_le; lia). f_equal. lia.
  - unfold b64_value. replace ((65 <=? 48 + (x - 52)) && (48 + (x - 52) <=? 90)) with false by (symmetry; rewrite andb_false_iff, !Z.leb_gt; lia).
    replace ((97 <=? 48 + (x - 52)) && (48 + (x - 52) <=? 122)) with false by (symmetry; rewrite andb_false_iff, !Z.leb_gt; lia).
    replace ((48 <=? 48 + (x - 52)) && (48 + (x - 52) <=? 57)) with true by (symmetry; rewrite andb_true_iff, !Z.leb_le; lia). f_equal. lia.
  - apply Z.eqb_eq in E4. subst. reflexivity.
  - apply Z.eqb_neq in E4. assert (x = 63) by lia. subst. reflexivity.
Qed.
Lemma b64_char_range x : 43 <= b64_char x <= 122 /\ b64_char x <> 61 \/ x < 0.
Proof.
  unfold b64_char. destruct (x <? 26) eqn:E1; [lia|]. destruct (x <? 52) eqn:E2; [lia|].
  destruct (x <? 62) eqn:E3; [lia|]. destruct (x =? 62); lia.
Qed.
Lemma b64_char_not_pad x : 0 <= x -> b64_char x =? 61 = false.
Proof. intros H. apply Z.eqb_neq. destruct (b64_char_range x); lia. Qed.
Definition b64_text (s : list Z) : Prop := Forall (fun c => 43 <= c <= 122) s.

Lemma bytes_ind3 (P : list Z -> Prop) :
  P [] -> (forall a, P [a]) -> (forall a b, P [a; b]) -> (forall a b c r, P r -> P (a :: b :: c :: r)) -> forall s, P s.
Proof.
  intros H0 H1 H2 H3 s. remember (length s) as n eqn:E. assert (L : (length s <= n)%nat) by lia. clear E.
  revert s L. induction n as [|n IH]; intros s L; [destruct s; [auto|cbn in L; lia]|].
  destruct s as [|a [|b [|c r]]]; auto. apply H3, IH. cbn in L. lia.
Qed.
Lemma b64_text_encode s : bytes s -> b64_text (b64_encode s).
Proof.
  assert (R : forall x, 0 <= x -> 43 <= b64_char x <= 122) by (intros x H; destruct (b64_char_range x); lia).
  pattern s. apply bytes_ind3; clear s.
  - constructor.
  - intros a B. inversion B; subst. cbn [b64_encode]. pose proof (Z.div_pos a 4). pose proof (Z.mod_pos_bound a 4).
    repeat constructor; try lia; apply R; lia.
  - intros a b B. inversion B as [|? ? ? B']; inversion B'; subst. cbn [b64_encode].
    pose proof (Z.div_pos a 4). pose proof (Z.mod_pos_bound a 4). pose proof (Z.div_pos b 16). pose proof (Z.mod_pos_bound b 16).
    repeat constructor; try lia; apply R; lia.
  - intros a b c r IH B. inversion B as [|? ? ? B']; inversion B' as [|? ? ? B'']; inversion B''; subst. cbn [b64_encode].
    pose proof (Z.div_pos a 4). pose proof (Z.mod_pos_bound a 4). pose proof (Z.div_pos b 16). pose proof (Z.mod_pos_bound b 16).
    pose proof (Z.div_pos c 64). pose proof (Z.mod_pos_bound c 64).
    repeat (constructor; [try lia; apply R; lia|]). apply IH; auto.
Qed.
Ltac b64_vals :=
  repeat match goal with |- context [b64_value (b64_char ?x)] => rewrite (b64_value_char x) by (Z.to_euclidean_division_equations; lia) end.
Lemma b64_decode_encode s : bytes s -> b64_decode (b64_encode s) = Some s.
Proof.
  pattern s. apply bytes_ind3; clear s.
  - reflexivity.
  - intros a B. inversion B; subst. cbn [b64_encode b64_decode]. b64_vals. cbn.
    do 2 f_equal. Z.to_euclidean_division_equations; lia.
  - intros a b B. inversion B as [|? ? ? B']; inversion B'; subst. cbn [b64_encode b64_decode]. b64_vals.
    rewrite b64_char_not_pad by (Z.to_euclidean_division_equations; lia). cbn.
    f_equal. f_equal; [|f_equal]; Z.to_euclidean_division_equations; lia.
  - intros a b c r IH B. inversion B as [|? ? ? B']; inversion B' as [|? ? ? B'']; inversion B''; subst. cbn [b64_encode b64_decode].
    b64_vals. rewrite !b64_char_not_pad by (Z.to_euclidean_division_equations; lia). cbn [andb].
    rewrite IH by auto. f_equal. f_equal; [|f_equal; [|f_equal]]; Z.to_euclidean_division_equations; lia.
Qed.
Lemma b64_ascii s : b64_text s -> ascii s.
Proof. intros F. eapply Forall_impl; [|exact F]. cbn. lia. Qed.
Lemma b64_no_lf s : b64_text s -> ~ In LF s.
Proof. unfold b64_text. rewrite Forall_forall. intros F H. specialize (F _ H). unfold LF in F. lia. Qed.
Lemma trim_id s : b64_text s -> trim_cr s = s.
Proof.
  intros F. unfold trim_cr. rewrite <- (rev_involutive s) at 2. f_equal.
  apply Forall_rev in F. destruct F as [|c l C F]; [reflexivity|]. cbn.
  replace (c =? CR) with false; [reflexivity|]. symmetry. apply Z.eqb_neq. unfold CR. lia.
Qed.

(** ** Reading a line back *)
Lemma p_tag_app s rest : p_tag s (s ++ rest) = Ret (Some (rest, tt)).
Proof. induction s as [|c s IH]; [reflexivity|]. cbn. rewrite Z.eqb_refl. exact IH. Qed.
Lemma p_char_app c rest : p_char c (c :: rest) = Ret (Some (rest, tt)).
Proof. cbn. rewrite Z.eqb_refl. reflexivity. Qed.
Lemma until_app c a rest : ~ In c a -> p_take_until c (a ++ c :: rest) = Ret (Some (c :: rest, a)).
Proof. intros N. unfold p_take_until. rewrite find_app by auto. reflexivity. Qed.
Lemma p_tag_no s input : ~ starts_with s input -> p_tag s input = Ret None.
Proof.
  intros N. pose proof (p_tag_ok s input) as H. destruct (p_tag s input) as [[[rest a]|]|]; cbn in H; auto; [|contradiction].
  destruct H as (pre & -> & ->). elim N. exists rest. reflexivity.
Qed.

Lemma read_seconds s n c rest : is_decimal3 s n -> n / 1000 <= u64_max -> is_digit c = false ->
  fract_sec_duration (s ++ c :: rest) = Ret (Some (c :: rest, ms_duration n)).
Proof.
  intros D B C. destruct (decimal3_parts _ _ D) as (i & f & -> & N & I & F & L & Vi & Vf).
  assert (NI : ~ In DOT i).
  { intros H. unfold all_digits in I. rewrite Forall_forall in I. specialize (I _ H). unfold DOT in I. lia. }
  assert (NF : f <> []) by (intros ->; cbn in L; discriminate).
  assert (E : fract_sec_tuple ((i ++ DOT :: f) ++ c :: rest) = Ret (Some (c :: rest, (n / 1000, f)))).
  { unfold fract_sec_tuple. rewrite <- app_assoc. cbn [app]. rewrite until_app by auto.
    unfold p_map_res at 2. cbn [pbind]. unfold from_utf8 at 1. rewrite (ascii_utf8 i) by (apply digits_ascii; auto).
    unfold p_map_res at 1. cbn [pbind]. rewrite uint_from_str_digits by (auto; lia). rewrite Vi. cbn [pbind].
    change (p_tag [DOT] (DOT :: f ++ c :: rest)) with (p_tag [DOT] ([DOT] ++ f ++ c :: rest)). rewrite p_tag_app. cbn [pbind]. unfold p_digits1. rewrite span_digits_app by auto.
    destruct f as [|f0 f']; [congruence|]. unfold p_map_res. cbn [pbind]. unfold from_utf8.
    rewrite ascii_utf8 by (apply digits_ascii; auto). reflexivity. }
  rewrite (fract_sec_run _ _ _ _ E F NF). do 3 f_equal. unfold ms_duration, nanos_of. rewrite L, Vf. reflexivity.
Qed.

(** numbers the reader of floating point numbers takes as a whole *)
Lemma float_rest_decimal s n rest : is_decimal3 s n ->
  float_rest (s ++ COMMA :: rest) = Some (COMMA :: rest) /\ float_rest (MINUS :: s ++ COMMA :: rest) = Some (COMMA :: rest).
Proof.
  intros D. destruct (decimal3_parts _ _ D) as (i & f & -> & N & I & F & L & _).
  assert (SG : skip_sign ((i ++ DOT :: f) ++ COMMA :: rest) = (i ++ DOT :: f) ++ COMMA :: rest).
  { destruct i as [|c i]; [congruence|]. cbn [app skip_sign]. inversion I; subst.
    replace ((c =? PLUS) || (c =? MINUS)) with false; [reflexivity|]. symmetry. rewrite orb_false_iff, !Z.eqb_neq. unfold PLUS, MINUS. lia. }
  assert (S2 : skip_sign (MINUS :: (i ++ DOT :: f) ++ COMMA :: rest) = (i ++ DOT :: f) ++ COMMA :: rest) by reflexivity.
  unfold float_rest. rewrite SG, S2. rewrite <- app_assoc. cbn [app]. rewrite span_digits_app by (auto; reflexivity).
  destruct i as [|c i]; [congruence|]. change (DOT =? DOT) with true. cbv iota.
  unfold skip_digits. rewrite span_digits_app by (auto; reflexivity). cbn [snd]. split; reflexivity.
Qed.
Definition number_text (s : list Z) : Prop :=
  (exists d n, is_decimal3 d n /\ (s = d \/ s = MINUS :: d)) \/ s = text "NaN" \/ s = text "inf".
Lemma read_number pf s rest : number_text s ->
  p_double pf (s ++ COMMA :: rest) = Ret (match pf s with Some x => Some (COMMA :: rest, x) | None => None end).
Proof.
  intros H. unfold p_double.
  assert (LEN : forall a, (length (a ++ COMMA :: rest) - length (COMMA :: rest) = length a)%nat) by (intros a; rewrite app_length; lia).
  assert (FN : forall a, firstn (length a) (a ++ COMMA :: rest) = a).
  { intros a. rewrite firstn_app, firstn_all, Nat.sub_diag. cbn. apply app_nil_r. }
  destruct H as [(d & n & D & [->| ->])|[->| ->]].
  - destruct (float_rest_decimal _ _ rest D) as (E & _). rewrite E, LEN, FN. reflexivity.
  - destruct (float_rest_decimal _ _ rest D) as (_ & E).
    change ((MINUS :: d) ++ COMMA :: rest) with (MINUS :: d ++ COMMA :: rest). rewrite E.
    change (MINUS :: d ++ COMMA :: rest) with ((MINUS :: d) ++ COMMA :: rest). rewrite LEN, FN. reflexivity.
  - assert (float_rest (text "NaN" ++ COMMA :: rest) = None) as -> by reflexivity.
    assert (no_case_rest (text "nan") (text "NaN" ++ COMMA :: rest) = Some (COMMA :: rest)) as -> by reflexivity.
    rewrite LEN, FN. reflexivity.
  - assert (float_rest (text "inf" ++ COMMA :: rest) = None) as -> by reflexivity.
    assert (no_case_rest (text "nan") (text "inf" ++ COMMA :: rest) = None) as -> by reflexivity.
    assert (no_case_rest (text "inf") (text "inf" ++ COMMA :: rest) = Some (COMMA :: rest)) as -> by reflexivity.
    rewrite LEN, FN. reflexivity.
Qed.
Lemma thousandths_nonneg m e : 0 <= m -> 0 <= thousandths_of m e.
Proof.
  intros H. unfold thousandths_of. destruct (0 <=? e) eqn:E.
  - apply Z.leb_le in E. pose proof (Z.pow_nonneg 2 e). nia.
  - apply Z.leb_gt in E. assert (0 < 2 ^ (- e)) by (apply Z.pow_pos_nonneg; lia).
    assert (0 <= m * 1000 / 2 ^ (- e)) by (apply Z.div_pos; lia).
    destruct (_ <? _); [lia|]. destruct (_ <? _); [lia|]. destruct (Z.even _); lia.
Qed.
Lemma fmt3_number x : x <> B754_infinity true -> number_text (fmt3 x).
Proof.
  intros N. destruct x as [s|s| |s m e B]; cbn [fmt3].
  - left. exists (dec3 0), 0. split; [apply dec3_ok; lia|]. destruct s; cbn; auto.
  - destruct s; [congruence|]. right. right. reflexivity.
  - right. left. reflexivity.
  - left. exists (dec3 (thousandths_of (Zpos m) e)), (thousandths_of (Zpos m) e).
    split; [apply dec3_ok, thousandths_nonneg; lia|]. destruct s; cbn; auto.
Qed.
