(** * Lemmas about the language of interval logs *)
From Coq Require Import String.
From Verif Require Import Machine ListZ SerModel SerSpec FloatModel LogModel LogSpec LogFacts LogText LogLines LangSpec.

(** ** UTF-8 *)
Ltac bools := repeat match goal with
  | H : (_ && _)%bool = true |- _ => apply andb_true_iff in H; destruct H
  | H : (_ || _)%bool = true |- _ => apply orb_true_iff in H; destruct H
  | H : within _ _ _ = true |- _ => apply within_iff in H
  | H : (_ =? _) = true |- _ => apply Z.eqb_eq in H
  end.
Lemma digits64 a b c d : 0 <= b < 64 -> 0 <= c < 64 -> 0 <= d < 64 -> let n := a * 262144 + b * 4096 + c * 64 + d in
  n / 262144 = a /\ n / 4096 = a * 64 + b /\ n / 64 = (a * 64 + b) * 64 + c /\
  n / 4096 mod 64 = b /\ n / 64 mod 64 = c /\ n mod 64 = d.
Proof.
  intros B C D n.
  assert (E1 : n / 262144 = a) by (symmetry; apply (Z.div_unique n 262144 a (b * 4096 + c * 64 + d)); subst n; lia).
  assert (E2 : n / 4096 = a * 64 + b) by (symmetry; apply (Z.div_unique n 4096 (a * 64 + b) (c * 64 + d)); subst n; lia).
  assert (E3 : n / 64 = (a * 64 + b) * 64 + c) by (symmetry; apply (Z.div_unique n 64 ((a * 64 + b) * 64 + c) d); subst n; lia).
  rewrite E1, E2, E3. repeat split.
  - symmetry. apply (Z.mod_unique _ 64 a); lia.
  - symmetry. apply (Z.mod_unique _ 64 (a * 64 + b)); lia.
  - symmetry. apply (Z.mod_unique _ 64 ((a * 64 + b) * 64 + c)); subst n; lia.
Qed.
Lemma encode1 b : 0 <= b <= 127 -> utf8_encode b = [b].
Proof. intros H. unfold utf8_encode. destruct (Z.leb_spec b 0x7F); [reflexivity|lia]. Qed.
Lemma encode2 b0 b1 : 194 <= b0 <= 223 -> 128 <= b1 <= 191 -> utf8_encode ((b0 - 192) * 64 + (b1 - 128)) = [b0; b1].
Proof.
  intros H0 H1. unfold utf8_encode. destruct (digits64 0 0 (b0 - 192) (b1 - 128)) as (_ & _ & E1 & _ & _ & E2); try lia.
  replace (0 * 262144 + 0 * 4096 + (b0 - 192) * 64 + (b1 - 128)) with ((b0 - 192) * 64 + (b1 - 128)) in * by lia. rewrite E1, E2.
  destruct (Z.leb_spec ((b0 - 192) * 64 + (b1 - 128)) 0x7F); [lia|]. destruct (Z.leb_spec ((b0 - 192) * 64 + (b1 - 128)) 0x7FF); [|lia].
  repeat (f_equal; try lia).
Qed.
Lemma encode3 b0 b1 b2 : 224 <= b0 <= 239 -> 128 <= b1 <= 191 -> 128 <= b2 <= 191 -> (b0 = 224 -> 160 <= b1) ->
  utf8_encode ((b0 - 224) * 4096 + (b1 - 128) * 64 + (b2 - 128)) = [b0; b1; b2].
Proof.
  intros H0 H1 H2 H3. unfold utf8_encode. destruct (digits64 0 (b0 - 224) (b1 - 128) (b2 - 128)) as (_ & E0 & _ & _ & E1 & E2); try lia.
  replace (0 * 262144 + (b0 - 224) * 4096 + (b1 - 128) * 64 + (b2 - 128)) with ((b0 - 224) * 4096 + (b1 - 128) * 64 + (b2 - 128)) in * by lia.
  rewrite E0, E1, E2. set (n := (b0 - 224) * 4096 + (b1 - 128) * 64 + (b2 - 128)).
  assert (0x7FF < n <= 0xFFFF) by (subst n; lia).
  destruct (Z.leb_spec n 0x7F); [lia|]. destruct (Z.leb_spec n 0x7FF); [lia|]. destruct (Z.leb_spec n 0xFFFF); [|lia].
  repeat (f_equal; try lia).
Qed.
Lemma encode4 b0 b1 b2 b3 : 240 <= b0 <= 244 -> 128 <= b1 <= 191 -> 128 <= b2 <= 191 -> 128 <= b3 <= 191 -> (b0 = 240 -> 144 <= b1) ->
  utf8_encode ((b0 - 240) * 262144 + (b1 - 128) * 4096 + (b2 - 128) * 64 + (b3 - 128)) = [b0; b1; b2; b3].
Proof.
  intros H0 H1 H2 H3 H4. unfold utf8_encode. destruct (digits64 (b0 - 240) (b1 - 128) (b2 - 128) (b3 - 128)) as (E & _ & _ & E0 & E1 & E2); try lia.
  rewrite E, E0, E1, E2. set (n := (b0 - 240) * 262144 + (b1 - 128) * 4096 + (b2 - 128) * 64 + (b3 - 128)).
  assert (0xFFFF < n) by (subst n; lia).
  destruct (Z.leb_spec n 0x7F); [lia|]. destruct (Z.leb_spec n 0x7FF); [lia|]. destruct (Z.leb_spec n 0xFFFF); [lia|].
  repeat (f_equal; try lia).
Qed.
Lemma decode_sound n : forall bs cs, (length bs <= n)%nat -> utf8_decode bs = Some cs -> Forall scalar cs /\ bs = flat_map utf8_encode cs.
Proof.
  induction n as [|n IH]; intros bs cs L.
  { destruct bs; [|cbn in L; lia]. intros [= <-]. split; [constructor|reflexivity]. }
  destruct bs as [|b0 r0]; [intros [= <-]; split; [constructor|reflexivity]|].
  cbn [utf8_decode length] in *.
  assert (STEP : forall r c pre, (length r <= n)%nat -> scalar c -> utf8_encode c = pre -> option_map (cons c) (utf8_decode r) = Some cs ->
            Forall scalar cs /\ pre ++ r = flat_map utf8_encode cs).
  { intros r c pre Lr C <-. destruct (utf8_decode r) as [cs'|] eqn:E; [|discriminate]. intros [= <-].
    destruct (IH r cs' Lr E) as (F & ->). split; [constructor; auto|reflexivity]. }
  destruct (within 0 127 b0) eqn:E0.
  { intros HH. bools. apply (STEP r0 b0 [b0]) in HH; auto; [lia|left; lia|apply encode1; lia]. }
  destruct r0 as [|b1 r1]; [discriminate|]. cbn [length] in L.
  destruct (within 194 223 b0 && within 128 191 b1) eqn:E1.
  { intros HH. bools. apply (STEP r1 _ [b0; b1]) in HH; auto; [lia|left; lia|apply encode2; lia]. }
  destruct r1 as [|b2 r2]; [discriminate|]. cbn [length] in L.
  destruct ((((b0 =? 224) && within 160 191 b1) || (within 225 236 b0 && within 128 191 b1) ||
                  ((b0 =? 237) && within 128 159 b1) || (within 238 239 b0 && within 128 191 b1)) && within 128 191 b2) eqn:E2.
  { intros H. apply (STEP r2 _ [b0; b1; b2]) in H; [|clear - L; lia|clear - E2; bools; unfold scalar; lia|clear - E2; apply encode3; bools; lia]; exact H. }
  destruct r2 as [|b3 r3]; [discriminate|]. cbn [length] in L.
  match goal with |- context [if ?b then _ else None] => destruct b eqn:E3; [|discriminate] end.
  intros H. apply (STEP r3 _ [b0; b1; b2; b3]) in H; [|clear - L; lia|clear - E3; bools; unfold scalar; lia|clear - E3; apply encode4; bools; lia]; exact H.
Qed.
Lemma decode_eq bs : utf8_decode bs =
  match bs with
  | [] => Some []
  | b0 :: r0 =>
      if within 0 127 b0 then option_map (cons b0) (utf8_decode r0)
      else match r0 with
      | [] => None
      | b1 :: r1 =>
          if within 194 223 b0 && within 128 191 b1
          then option_map (cons ((b0 - 192) * 64 + (b1 - 128))) (utf8_decode r1)
          else match r1 with
          | [] => None
          | b2 :: r2 =>
              if (((b0 =? 224) && within 160 191 b1) || (within 225 236 b0 && within 128 191 b1) ||
                  ((b0 =? 237) && within 128 159 b1) || (within 238 239 b0 && within 128 191 b1)) && within 128 191 b2
              then option_map (cons ((b0 - 224) * 4096 + (b1 - 128) * 64 + (b2 - 128))) (utf8_decode r2)
              else match r2 with
              | [] => None
              | b3 :: r3 =>
                  if (((b0 =? 240) && within 144 191 b1) || (within 241 243 b0 && within 128 191 b1) ||
                      ((b0 =? 244) && within 128 143 b1)) && within 128 191 b2 && within 128 191 b3
                  then option_map (cons ((b0 - 240) * 262144 + (b1 - 128) * 4096 + (b2 - 128) * 64 + (b3 - 128))) (utf8_decode r3)
                  else None
              end
          end
      end
  end.
Proof. destruct bs; reflexivity. Qed.
Lemma within_no lo hi b : b < lo \/ hi < b -> within lo hi b = false.
Proof. intros H. destruct (within lo hi b) eqn:E; auto. apply within_iff in E. lia. Qed.
Lemma decode_complete c rest : scalar c -> utf8_decode (utf8_encode c ++ rest) = option_map (cons c) (utf8_decode rest).
Proof.
  intros C. unfold utf8_encode.
  pose proof (Z.mod_pos_bound c 64 ltac:(lia)) as M0. pose proof (Z.mod_pos_bound (c / 64) 64 ltac:(lia)) as M1.
  pose proof (Z.mod_pos_bound (c / 4096) 64 ltac:(lia)) as M2.
  pose proof (Z.div_mod c 64 ltac:(lia)) as D0. pose proof (Z.div_mod (c / 64) 64 ltac:(lia)) as D1.
  pose proof (Z.div_mod (c / 4096) 64 ltac:(lia)) as D2.
  assert (E1 : c / 64 / 64 = c / 4096) by (rewrite Z.div_div by lia; reflexivity).
  assert (E2 : c / 4096 / 64 = c / 262144) by (rewrite Z.div_div by lia; reflexivity).
  rewrite E1 in D1. rewrite E2 in D2.
  set (x0 := c mod 64) in *. set (x1 := (c / 64) mod 64) in *. set (x2 := (c / 4096) mod 64) in *.
  set (y0 := c / 64) in *. set (y1 := c / 4096) in *. set (y2 := c / 262144) in *. clearbody x0 x1 x2 y0 y1 y2. clear E1 E2.
  destruct (Z.leb_spec c 0x7F).
  { cbn [app]. rewrite decode_eq. rewrite (proj2 (within_iff 0 127 c)) by (destruct C; lia). reflexivity. }
  destruct (Z.leb_spec c 0x7FF).
  { cbn [app]. rewrite decode_eq. rewrite (within_no 0 127) by lia.
    rewrite (proj2 (within_iff 194 223 (0xC0 + y0))), (proj2 (within_iff 128 191 (0x80 + x0))) by lia. cbv beta match delta [andb]. do 3 f_equal. lia. }
  destruct (Z.leb_spec c 0xFFFF).
  { cbn [app]. rewrite decode_eq. rewrite (within_no 0 127), (within_no 194 223) by lia. cbv beta match delta [andb].
    match goal with |- (if ?b then _ else _) = _ => assert (b = true) as ->; [|do 3 f_equal; lia] end.
    match goal with |- ?x = true => change x with
      (((0xE0 + y1 =? 224) && within 160 191 (0x80 + x1) || within 225 236 (0xE0 + y1) && within 128 191 (0x80 + x1) ||
        (0xE0 + y1 =? 237) && within 128 159 (0x80 + x1) || within 238 239 (0xE0 + y1) && within 128 191 (0x80 + x1)) && within 128 191 (0x80 + x0)) end.
    rewrite andb_true_iff, !orb_true_iff, !andb_true_iff, !within_iff, !Z.eqb_eq. destruct C; lia. }
  cbn [app]. rewrite decode_eq. rewrite (within_no 0 127), (within_no 194 223), (within_no 225 236), (within_no 238 239) by lia.
  replace (0xF0 + y2 =? 224) with false by (symmetry; apply Z.eqb_neq; lia).
  replace (0xF0 + y2 =? 237) with false by (symmetry; apply Z.eqb_neq; lia). cbv beta match delta [andb orb].
  match goal with |- (if ?b then _ else _) = _ => assert (b = true) as ->; [|do 3 f_equal; lia] end.
  match goal with |- ?x = true => change x with
    (((0xF0 + y2 =? 240) && within 144 191 (0x80 + x2) || within 241 243 (0xF0 + y2) && within 128 191 (0x80 + x2) ||
      (0xF0 + y2 =? 244) && within 128 143 (0x80 + x2)) && within 128 191 (0x80 + x1) && within 128 191 (0x80 + x0)) end.
  rewrite !andb_true_iff, !orb_true_iff, !andb_true_iff, !within_iff, !Z.eqb_eq. destruct C; lia.
Qed.
Lemma utf8_iff s : utf8 s = true <-> is_utf8 s.
Proof.
  unfold utf8, is_utf8. split.
  - destruct (utf8_decode s) as [cs|] eqn:E; [|discriminate]. intros _. exists cs. eapply decode_sound; eauto.
  - intros (cs & F & ->). assert (E : utf8_decode (flat_map utf8_encode cs) = Some cs); [|rewrite E; reflexivity].
    induction F as [|c cs C F IH]; [reflexivity|]. cbn [flat_map]. rewrite decode_complete, IH by auto. reflexivity.
Qed.

(** ** Seconds *)
Lemma from_digits_bound mx acc s n : from_digits mx acc s = Some n -> acc <= mx -> n <= mx.
Proof.
  revert acc. induction s as [|c s IH]; intros acc; cbn [from_digits]; [intros [= ->]; auto|].
  destruct (is_digit c); [|discriminate]. destruct (acc * 10 + (c - 48) <=? mx) eqn:E; [|discriminate].
  intros H _. apply Z.leb_le in E. eauto.
Qed.
Lemma uint_iff mx s n : 0 <= mx -> (uint_from_str mx s = Some n <->
  exists sign i, s = sign ++ i /\ (sign = [] \/ sign = [PLUS]) /\ i <> [] /\ all_digits i /\ n = decimal_value i /\ decimal_value i <= mx).
Proof.
  intros M. split.
  - destruct s as [|c s]; [discriminate|]. unfold uint_from_str. destruct (c =? PLUS) eqn:E.
    + apply Z.eqb_eq in E. subst c. destruct s as [|d s]; [discriminate|]. intros H.
      pose proof (from_digits_bound _ _ _ _ H M). destruct (from_digits_some _ _ _ _ H) as (F & E). rewrite Z.mul_0_l, Z.add_0_l in E.
      exists [PLUS], (d :: s). split; [reflexivity|]. split; [right; reflexivity|]. split; [discriminate|]. split; [exact F|]. split; [exact E|]. lia.
    + intros H. pose proof (from_digits_bound _ _ _ _ H M). destruct (from_digits_some _ _ _ _ H) as (F & E'). rewrite Z.mul_0_l, Z.add_0_l in E'.
      exists [], (c :: s). split; [reflexivity|]. split; [left; reflexivity|]. split; [discriminate|]. split; [exact F|]. split; [exact E'|]. lia.
  - intros (sign & i & -> & [->| ->] & N & F & -> & B); cbn [app].
    + apply uint_from_str_digits; auto.
    + unfold uint_from_str. rewrite Z.eqb_refl. destruct i as [|c i]; [congruence|]. rewrite from_digits_ok; auto; lia.
Qed.
Lemma zeros_value k : decimal_value (repeat 48 k) = 0.
Proof. induction k as [|k IH]; [reflexivity|]. cbn [repeat]. rewrite decimal_cons, IH. lia. Qed.
Lemma zlen_repeat {A} (x : A) k : zlen (repeat x k) = Z.of_nat k.
Proof. unfold zlen. rewrite repeat_length. reflexivity. Qed.
Lemma firstn_repeat {A} (x : A) k n : firstn k (repeat x n) = repeat x (Nat.min k n).
Proof. revert n. induction k as [|k IH]; intros [|n]; cbn; auto. rewrite IH. reflexivity. Qed.
Lemma nanos_places f : nanos_of f = decimal_value (firstn 9 (f ++ repeat 48 9)).
Proof.
  unfold nanos_of. rewrite firstn_app. destruct (9 <? zlen f) eqn:E.
  - apply Z.ltb_lt in E. unfold zlen in E. replace (9 - length f)%nat with O by lia. rewrite firstn_O, app_nil_r. reflexivity.
  - apply Z.ltb_ge in E. rewrite firstn_repeat, decimal_app, zeros_value, zlen_repeat. unfold zlen in *.
    rewrite firstn_all2 by lia. rewrite Z.add_0_r. do 2 f_equal. lia.
Qed.
Lemma seconds_sound input rest d : fract_sec_duration input = Ret (Some (rest, d)) -> exists s, input = s ++ rest /\ seconds s d.
Proof.
  intros H. pose proof (fract_sec_tuple_ok input) as K.
  destruct (fract_sec_tuple input) as [[[r [secs ds]]|]|] eqn:E; cbn in K; [|unfold fract_sec_duration in H; rewrite E in H; discriminate|contradiction].
  destruct K as (pre & -> & s & -> & U & F & N). rewrite (fract_sec_run _ _ _ _ E F N) in H.
  assert (rest = r /\ d = mk_duration secs (nanos_of ds)) as (-> & ->) by (split; congruence).
  apply uint_iff in U; [|unfold u64_max; lia]. destruct U as (sign & i & -> & S & NI & FI & -> & B).
  exists ((sign ++ i) ++ DOT :: ds). split; [reflexivity|]. exists sign, i, ds. rewrite <- app_assoc, nanos_places. auto 10.
Qed.
Lemma no_digit (c : Z) s : all_digits s -> is_digit c = false -> ~ In c s.
Proof. unfold all_digits. rewrite Forall_forall. intros F D H. apply F, is_digit_iff in H. congruence. Qed.
Lemma seconds_complete s d c rest : seconds s d -> is_digit c = false -> fract_sec_duration (s ++ c :: rest) = Ret (Some (c :: rest, d)).
Proof.
  intros (sign & i & f & -> & S & NI & FI & B & NF & FF & ->) C. rewrite <- nanos_places. apply fract_sec_run; auto.
  unfold fract_sec_tuple. assert (ND : ~ In DOT (sign ++ i)).
  { intros H. apply in_app_or in H. destruct H as [H|H]; [|revert H; apply no_digit; auto].
    destruct S as [->| ->]; [destruct H|destruct H as [H|[]]; discriminate]. }
  replace ((sign ++ i ++ DOT :: f) ++ c :: rest) with ((sign ++ i) ++ DOT :: f ++ c :: rest) by (rewrite <- !app_assoc; reflexivity).
  rewrite until_app by auto. unfold p_map_res. cbn [pbind]. unfold from_utf8.
  rewrite ascii_utf8.
  2:{ apply Forall_app. split; [|apply digits_ascii; auto]. destruct S as [->| ->]; repeat constructor; unfold PLUS; lia. }
  cbn [pbind].
  assert (U : uint_from_str u64_max (sign ++ i) = Some (decimal_value i)).
  { apply uint_iff; [unfold u64_max; lia|]. exists sign, i. auto 10. }
  rewrite U. cbn [pbind]. change (DOT :: f ++ c :: rest) with ([DOT] ++ f ++ c :: rest). rewrite p_tag_app. cbn [pbind].
  unfold p_digits1. rewrite span_digits_app by auto. destruct f as [|x f]; [congruence|]. cbn [pbind].
  rewrite ascii_utf8 by (apply digits_ascii; auto). reflexivity.
Qed.
Lemma seconds_chars s d : seconds s d -> forall c, In c s -> is_digit c = true \/ c = DOT \/ c = PLUS.
Proof.
  intros (sign & i & f & -> & S & _ & FI & _ & _ & FF & _) c H. unfold all_digits in *. rewrite Forall_forall in FI, FF.
  apply in_app_or in H. destruct H as [H|H].
  { destruct S as [->| ->]; [destruct H|destruct H as [<-|[]]; auto]. }
  apply in_app_or in H. destruct H as [H|[<-|H]]; auto; left; apply is_digit_iff; auto.
Qed.
Lemma seconds_no_lf s d : seconds s d -> ~ In LF s.
Proof. intros S H. destruct (seconds_chars s d S _ H) as [K|[K|K]]; discriminate. Qed.
Lemma seconds_head s d : seconds s d -> exists c r, s = c :: r /\ (is_digit c = true \/ c = PLUS).
Proof.
  intros (sign & i & f & -> & S & NI & FI & _). destruct S as [->| ->].
  - destruct i as [|c i]; [congruence|]. exists c, (i ++ DOT :: f). split; [reflexivity|]. left. inversion FI; subst. apply is_digit_iff; auto.
  - exists PLUS, (i ++ DOT :: f). auto.
Qed.

(** ** Maxima *)
Lemma is_digit_false c : ~ 48 <= c <= 57 -> is_digit c = false.
Proof. intros H. destruct (is_digit c) eqn:E; auto. apply is_digit_iff in E. contradiction. Qed.
Lemma skip_sign_split i : exists sg, is_sign sg /\ i = sg ++ skip_sign i.
Proof.
  destruct i as [|c r]; [exists []; split; [left|]; reflexivity|]. cbn [skip_sign].
  destruct (c =? PLUS) eqn:E1; [apply Z.eqb_eq in E1; subst; exists [PLUS]; split; [right; left|]; reflexivity|].
  destruct (c =? MINUS) eqn:E2; [apply Z.eqb_eq in E2; subst; exists [MINUS]; split; [right; right|]; reflexivity|].
  exists []. split; [left|]; reflexivity.
Qed.
Lemma skip_sign_complete sg r : is_sign sg -> (forall c r', r = c :: r' -> c <> PLUS /\ c <> MINUS) -> skip_sign (sg ++ r) = r.
Proof.
  intros [->|[->| ->]] H; try reflexivity. cbn [app]. destruct r as [|c r']; [reflexivity|]. destruct (H c r' eq_refl) as (A & B).
  cbn. apply Z.eqb_neq in A, B. rewrite A, B. reflexivity.
Qed.
Lemma no_sign_digit c : is_digit c = true -> c <> PLUS /\ c <> MINUS.
Proof. intros D. apply is_digit_iff in D. unfold PLUS, MINUS. lia. Qed.

Definition mantissa_rest (i : list Z) : option (list Z) :=
  match span_digits i with
  | ([], _) =>
      match i with
      | c :: r => if c =? DOT then match span_digits r with ([], _) => None | (_, r') => Some r' end else None
      | [] => None
      end
  | (_, c :: r) => if c =? DOT then Some (skip_digits r) else Some (c :: r)
  | (_, []) => Some []
  end.
Definition exponent_rest (m : list Z) : option (list Z) :=
  match m with
  | c :: r => if (c =? 101) || (c =? 69) then match span_digits (skip_sign r) with ([], _) => None | (_, r') => Some r' end else Some (c :: r)
  | [] => Some []
  end.
Lemma float_rest_eq i : float_rest i = match mantissa_rest (skip_sign i) with Some m => exponent_rest m | None => None end.
Proof. unfold float_rest. fold (mantissa_rest (skip_sign i)). destruct (mantissa_rest (skip_sign i)) as [[|c r]|]; reflexivity. Qed.
Lemma mantissa_sound i r : mantissa_rest i = Some r -> exists m, i = m ++ r /\ is_mantissa m.
Proof.
  unfold mantissa_rest. destruct (span_digits i) as [ds q] eqn:E. destruct (span_digits_spec _ _ _ E) as (Ei & F & N).
  destruct ds as [|d ds].
  - cbn in Ei. destruct i as [|c i']; [discriminate|]. destruct (c =? DOT) eqn:D; [|discriminate]. apply Z.eqb_eq in D. subst c.
    destruct (span_digits i') as [f q'] eqn:E'. destruct (span_digits_spec _ _ _ E') as (-> & F' & _). destruct f as [|x f]; [discriminate|].
    intros [= <-]. exists (DOT :: x :: f). split; [reflexivity|]. right. exists [], (x :: f). repeat split; auto. right. discriminate.
  - destruct q as [|c q].
    { intros [= <-]. exists (d :: ds). split; [exact Ei|]. left. split; [discriminate|exact F]. }
    destruct (c =? DOT) eqn:D.
    + apply Z.eqb_eq in D. subst c. unfold skip_digits. destruct (span_digits q) as [f q'] eqn:E'.
      destruct (span_digits_spec _ _ _ E') as (-> & F' & _). intros [= <-]. cbn [snd].
      exists ((d :: ds) ++ DOT :: f). split; [rewrite Ei, <- app_assoc; reflexivity|].
      right. exists (d :: ds), f. repeat split; auto. left. discriminate.
    + intros [= <-]. exists (d :: ds). split; [exact Ei|]. left. split; [discriminate|exact F].
Qed.
Lemma exponent_sound m r : exponent_rest m = Some r -> exists x, m = x ++ r /\ is_exponent x.
Proof.
  unfold exponent_rest. destruct m as [|c m]; [intros [= <-]; exists []; split; [reflexivity|left; reflexivity]|].
  destruct ((c =? 101) || (c =? 69)) eqn:E.
  - destruct (span_digits (skip_sign m)) as [ds q] eqn:S. destruct (span_digits_spec _ _ _ S) as (Em & F & _).
    destruct ds as [|d ds]; [discriminate|]. intros [= <-]. destruct (skip_sign_split m) as (sg & SG & M). rewrite Em in M.
    exists (c :: sg ++ d :: ds). split; [rewrite M at 1; rewrite !app_comm_cons, app_assoc; reflexivity|]. right.
    exists c, sg, (d :: ds). rewrite orb_true_iff, !Z.eqb_eq in E. repeat split; auto. discriminate.
  - intros [= <-]. exists []. split; [reflexivity|left; reflexivity].
Qed.
Lemma float_sound i r : float_rest i = Some r -> exists s, i = s ++ r /\ is_decimal s.
Proof.
  rewrite float_rest_eq. destruct (mantissa_rest (skip_sign i)) as [m|] eqn:E; [|discriminate]. intros H.
  destruct (skip_sign_split i) as (sg & SG & Ei). destruct (mantissa_sound _ _ E) as (mm & EM & M).
  destruct (exponent_sound _ _ H) as (x & EX & X). exists (sg ++ mm ++ x). split; [|exists sg, mm, x; auto].
  rewrite Ei, EM, EX, !app_assoc. reflexivity.
Qed.
(** what follows neither continues the digits nor starts an exponent *)
Definition stops (rest : list Z) : Prop :=
  match rest with c :: _ => is_digit c = false /\ c <> DOT /\ c <> 101 /\ c <> 69 | [] => True end.
Lemma exponent_complete x rest : is_exponent x -> stops rest -> exponent_rest (x ++ rest) = Some rest.
Proof.
  intros [->|(e & sg & ds & -> & E & S & N & F)] T.
  - cbn [app]. destruct rest as [|c r]; [reflexivity|]. destruct T as (_ & _ & A & B). cbn. apply Z.eqb_neq in A, B. rewrite A, B. reflexivity.
  - rewrite <- app_comm_cons, <- app_assoc. unfold exponent_rest.
    replace ((e =? 101) || (e =? 69)) with true by (destruct E as [->| ->]; reflexivity).
    rewrite skip_sign_complete; auto.
    + rewrite span_digits_app; auto; [destruct ds; [congruence|reflexivity]|]. destruct rest; [auto|]. apply T.
    + intros c r' H. destruct ds as [|d ds]; [congruence|]. assert (d = c) by (cbn in H; congruence). subst d.
      inversion F; subst. apply no_sign_digit, is_digit_iff; auto.
Qed.
Lemma exponent_follows x rest : is_exponent x -> stops rest -> match x ++ rest with c :: _ => is_digit c = false /\ c <> DOT | [] => True end.
Proof.
  intros [->|(e & sg & ds & -> & E & _)] T; cbn [app].
  - destruct rest; auto. destruct T as (A & B & _). auto.
  - destruct E as [->| ->]; split; try reflexivity; discriminate.
Qed.
Lemma mantissa_complete m rest : is_mantissa m -> match rest with c :: _ => is_digit c = false /\ c <> DOT | [] => True end ->
  mantissa_rest (m ++ rest) = Some rest.
Proof.
  intros M T. assert (T' : match rest with c :: _ => is_digit c = false | [] => True end) by (destruct rest; [auto|apply T]).
  unfold mantissa_rest. destruct M as [(N & F)|(i & f & -> & FI & FF & N)].
  - rewrite span_digits_app by auto. destruct m as [|d m]; [congruence|]. destruct rest as [|c r]; [reflexivity|].
    destruct T as (_ & D). apply Z.eqb_neq in D. rewrite D. reflexivity.
  - rewrite <- app_assoc. cbn [app]. rewrite span_digits_app by (auto; reflexivity). destruct i as [|d i].
    + destruct N as [N|N]; [congruence|]. cbn [app]. rewrite Z.eqb_refl. rewrite span_digits_app by auto. destruct f; [congruence|reflexivity].
    + rewrite Z.eqb_refl. unfold skip_digits. rewrite span_digits_app by auto. reflexivity.
Qed.
Lemma float_complete s rest : is_decimal s -> stops rest -> float_rest (s ++ rest) = Some rest.
Proof.
  intros (sg & m & x & -> & S & M & X) T. rewrite float_rest_eq, <- !app_assoc. rewrite skip_sign_complete; auto.
  - rewrite mantissa_complete; [apply exponent_complete; auto|auto|apply exponent_follows; auto].
  - intros c r H. destruct M as [(N & F)|(i & f & -> & FI & FF & N)].
    + destruct m as [|d m]; [congruence|]. assert (d = c) by (cbn in H; congruence). subst d. inversion F; subst. apply no_sign_digit, is_digit_iff; auto.
    + destruct i as [|d i].
      * assert (DOT = c) by (cbn in H; congruence). subst c. split; discriminate.
      * assert (d = c) by (cbn in H; congruence). subst d. inversion FI; subst. apply no_sign_digit, is_digit_iff; auto.
Qed.
Lemma word_sound w i r : no_case_rest w i = Some r -> exists s, i = s ++ r /\ is_word w s.
Proof.
  revert i. induction w as [|c w IH]; intros i; cbn [no_case_rest]; [intros [= <-]; exists []; split; [reflexivity|constructor]|].
  destruct i as [|d i]; [discriminate|]. destruct ((d =? c) || (d + 32 =? c)) eqn:E; [|discriminate]. intros H.
  destruct (IH _ H) as (s & -> & W). exists (d :: s). split; [reflexivity|]. constructor; auto.
  rewrite orb_true_iff, !Z.eqb_eq in E. lia.
Qed.
Lemma word_complete w s rest : is_word w s -> no_case_rest w (s ++ rest) = Some rest.
Proof.
  induction 1 as [|c d w s E W IH]; [reflexivity|]. cbn [app no_case_rest].
  replace ((d =? c) || (d + 32 =? c)) with true; [exact IH|]. symmetry. rewrite orb_true_iff, !Z.eqb_eq. lia.
Qed.
Lemma letters_no_float c r : is_digit c = false -> c <> PLUS -> c <> MINUS -> c <> DOT -> float_rest (c :: r) = None.
Proof.
  intros D P M T. rewrite float_rest_eq. apply Z.eqb_neq in P, M, T. cbn [skip_sign]. rewrite P, M. cbn [orb].
  unfold mantissa_rest. cbn [span_digits]. rewrite D, T. reflexivity.
Qed.
Lemma number_sound pf input rest y : p_double pf input = Ret (Some (rest, y)) -> exists s, input = s ++ rest /\ is_number s /\ pf s = Some y.
Proof.
  unfold p_double.
  assert (K : forall s r, input = s ++ r -> is_number s ->
    Ret (match pf (firstn (length input - length r) input) with Some x => Some (r, x) | None => None end) = Ret (Some (rest, y)) ->
    exists s, input = s ++ rest /\ is_number s /\ pf s = Some y).
  { intros s r -> N. rewrite app_length. replace (length s + length r - length r)%nat with (length s) by lia.
    rewrite firstn_app, Nat.sub_diag, firstn_all, app_nil_r. destruct (pf s) as [x|] eqn:P; [|discriminate].
    intros [= <- <-]. eauto. }
  destruct (float_rest input) as [r|] eqn:E.
  { destruct (float_sound _ _ E) as (s & Es & D). apply (K s r); auto. left. exact D. }
  destruct (no_case_rest (text "nan") input) as [r|] eqn:E2.
  { destruct (word_sound _ _ _ E2) as (s & Es & W). apply (K s r); auto. right. left. exact W. }
  destruct (no_case_rest (text "inf") input) as [r|] eqn:E3; [|discriminate].
  destruct (word_sound _ _ _ E3) as (s & Es & W). apply (K s r); auto. right. right. exact W.
Qed.
Lemma number_complete pf s rest y : is_number s -> pf s = Some y -> stops rest -> p_double pf (s ++ rest) = Ret (Some (rest, y)).
Proof.
  intros N P T. unfold p_double.
  assert (L : firstn (length (s ++ rest) - length rest) (s ++ rest) = s).
  { rewrite app_length. replace (length s + length rest - length rest)%nat with (length s) by lia.
    rewrite firstn_app, Nat.sub_diag, firstn_all, app_nil_r. reflexivity. }
  destruct N as [D|[W|W]].
  - rewrite float_complete by auto. rewrite L, P. reflexivity.
  - rewrite (word_complete _ _ _ W). destruct s as [|c s]; [inversion W|].
    cbn [app] in *. rewrite letters_no_float; [rewrite L, P; reflexivity|..]; inversion W as [|? ? ? ? E]; subst; destruct E; subst c; try reflexivity; discriminate.
  - rewrite (word_complete _ _ _ W). destruct s as [|c s]; [inversion W|].
    cbn [app] in *. rewrite letters_no_float by (inversion W as [|? ? ? ? E]; subst; destruct E; subst c; try reflexivity; discriminate).
    replace (no_case_rest (text "nan") (c :: s ++ rest)) with (@None (list Z)); [rewrite L, P; reflexivity|].
    inversion W as [|? ? ? ? E]; subst; destruct E; subst c; reflexivity.
Qed.

(** ** Lines *)
Lemma pbind_inv {A B} (m : parsed A) (k : list Z -> A -> parsed B) x : pbind m k = Ret (Some x) ->
  exists rest a, m = Ret (Some (rest, a)) /\ k rest a = Ret (Some x).
Proof. destruct m as [[[rest a]|]|]; try discriminate. cbn. eauto. Qed.
Lemma p_tag_inv s i r u : p_tag s i = Ret (Some (r, u)) -> i = s ++ r.
Proof. intros H. pose proof (p_tag_ok s i) as K. rewrite H in K. cbn in K. destruct K as (pre & -> & ->). reflexivity. Qed.
Lemma p_char_inv c i r u : p_char c i = Ret (Some (r, u)) -> i = c :: r.
Proof.
  unfold p_char. destruct i as [|d i]; [discriminate|]. destruct (c =? d) eqn:E; [|discriminate]. apply Z.eqb_eq in E.
  intros [= <- _]. congruence.
Qed.
Lemma until_inv c i r a : p_take_until c i = Ret (Some (r, a)) -> exists r', r = c :: r' /\ i = a ++ c :: r' /\ ~ In c a.
Proof.
  unfold p_take_until. destruct (find c i) as [[pre rest]|] eqn:E; [|discriminate]. intros [= <- <-].
  destruct (find_some _ _ _ _ E) as (-> & N & r' & ->). eauto.
Qed.
Lemma map_res_inv {A B} (m : parsed A) (f : A -> option B) r b : p_map_res m f = Ret (Some (r, b)) ->
  exists a, m = Ret (Some (r, a)) /\ f a = Some b.
Proof.
  unfold p_map_res. intros H. destruct (pbind_inv _ _ _ H) as (r' & a & -> & K). destruct (f a) as [b'|] eqn:E; [|discriminate].
  assert (r' = r /\ b' = b) as (-> & ->) by (split; congruence). eauto.
Qed.

(** a header line, whichever it is *)
Definition header_p (name : list Z) (wrap : duration -> log_entry) (input0 : list Z) : parsed log_entry :=
  parse input1, _ <~ p_tag name input0 ;;
  parse input2, d <~ fract_sec_duration input1 ;;
  parse input3, _ <~ p_char SPACE input2 ;;
  parse input4, _ <~ p_take_until LF input3 ;;
  parse input5, _ <~ p_take1 input4 ;;
  Ret (Some (input5, wrap d)).
Lemma header_sound name wrap input rest e : header_p name wrap input = Ret (Some (rest, e)) ->
  exists s d remark, input = (name ++ s ++ SPACE :: remark) ++ LF :: rest /\ e = wrap d /\ seconds s d /\ ~ In LF remark.
Proof.
  unfold header_p. intros H. destruct (pbind_inv _ _ _ H) as (i1 & [] & H1 & K1). destruct (pbind_inv _ _ _ K1) as (i2 & d & H2 & K2).
  destruct (pbind_inv _ _ _ K2) as (i3 & [] & H3 & K3). destruct (pbind_inv _ _ _ K3) as (i4 & a & H4 & K4).
  apply until_inv in H4. destruct H4 as (i5 & -> & E4 & N). cbn [p_take1 pbind] in K4.
  apply p_tag_inv in H1. apply seconds_sound in H2. destruct H2 as (s & E2 & S). apply p_char_inv in H3.
  assert (rest = i5 /\ e = wrap d) as (-> & ->) by (split; congruence).
  exists s, d, a. subst. split; [rewrite <- !app_assoc; cbn [app]; rewrite <- ?app_assoc; reflexivity|auto].
Qed.
Lemma header_complete name wrap s d remark rest : seconds s d -> ~ In LF remark ->
  header_p name wrap ((name ++ s ++ SPACE :: remark) ++ LF :: rest) = Ret (Some (rest, wrap d)).
Proof.
  intros S N. unfold header_p. rewrite <- !app_assoc. cbn [app]. rewrite p_tag_app. cbn [pbind].
  rewrite (seconds_complete s d SPACE) by (auto; reflexivity). cbn [pbind]. rewrite p_char_app. cbn [pbind].
  rewrite until_app by auto. reflexivity.
Qed.
Lemma start_sound input rest e : start_time input = Ret (Some (rest, e)) ->
  exists l d, input = l ++ LF :: rest /\ e = StartTime d /\ start_time_line l d.
Proof.
  intros H. destruct (header_sound (text "#[StartTime: ") StartTime input rest e H) as (s & d & rm & E & W & S & N).
  exists (text "#[StartTime: " ++ s ++ SPACE :: rm), d. split; [exact E|]. split; [exact W|]. exists s, rm. auto.
Qed.
Lemma base_sound input rest e : base_time input = Ret (Some (rest, e)) ->
  exists l d, input = l ++ LF :: rest /\ e = BaseTime d /\ base_time_line l d.
Proof.
  intros H. destruct (header_sound (text "#[BaseTime: ") BaseTime input rest e H) as (s & d & rm & E & W & S & N).
  exists (text "#[BaseTime: " ++ s ++ SPACE :: rm), d. split; [exact E|]. split; [exact W|]. exists s, rm. auto.
Qed.
Lemma start_complete l d rest : start_time_line l d -> start_time (l ++ LF :: rest) = Ret (Some (rest, StartTime d)).
Proof. intros (s & rm & -> & S & N). exact (header_complete (text "#[StartTime: ") StartTime s d rm rest S N). Qed.
Lemma base_complete l d rest : base_time_line l d ->
  start_time (l ++ LF :: rest) = Ret None /\ base_time (l ++ LF :: rest) = Ret (Some (rest, BaseTime d)).
Proof.
  intros (s & rm & -> & S & N). split; [reflexivity|]. exact (header_complete (text "#[BaseTime: ") BaseTime s d rm rest S N).
Qed.
Lemma header_line_no_lf name l d : ~ In LF name -> header_line name l d -> ~ In LF l.
Proof.
  intros NN (s & rm & -> & S & N) H. destruct H as [H|[H|H]]; [discriminate..|].
  apply in_app_or in H. destruct H as [H|H]; [auto|]. apply in_app_or in H. destruct H as [H|H]; [cbn in H; intuition discriminate|].
  apply in_app_or in H. destruct H as [H|[H|H]]; [revert H; eapply seconds_no_lf; eauto|discriminate|auto].
Qed.
Lemma start_no_lf l d : start_time_line l d -> ~ In LF l.
Proof. apply header_line_no_lf. cbn. intuition discriminate. Qed.
Lemma base_no_lf l d : base_time_line l d -> ~ In LF l.
Proof. apply header_line_no_lf. cbn. intuition discriminate. Qed.

(** carriage returns at the end *)
Lemma drop_cr_split l : exists crs, l = crs ++ drop_cr l /\ Forall (fun c => c = CR) crs /\ (forall r, drop_cr l <> CR :: r).
Proof.
  induction l as [|c l (crs & E & F & N)]; [exists []; repeat split; [constructor|discriminate]|].
  cbn [drop_cr]. destruct (c =? CR) eqn:D.
  - apply Z.eqb_eq in D. subst c. exists (CR :: crs). split; [cbn; rewrite <- E; reflexivity|]. split; [constructor; auto|exact N].
  - exists []. repeat split; [constructor|]. intros r [= -> ->]. discriminate.
Qed.
Lemma trim_split l : exists crs, l = trim_cr l ++ crs /\ Forall (fun c => c = CR) crs /\ (forall h, trim_cr l <> h ++ [CR]).
Proof.
  destruct (drop_cr_split (rev l)) as (crs & E & F & N). exists (rev crs). unfold trim_cr. split.
  - rewrite <- rev_app_distr, <- E, rev_involutive. reflexivity.
  - split; [apply Forall_rev; auto|]. intros h H. apply (f_equal (@rev Z)) in H. rewrite rev_involutive, rev_app_distr in H.
    cbn in H. apply (N (rev h)). exact H.
Qed.
Lemma trim_unique h crs : Forall (fun c => c = CR) crs -> (forall x, h <> x ++ [CR]) -> trim_cr (h ++ crs) = h.
Proof.
  intros F N. unfold trim_cr. rewrite rev_app_distr.
  assert (D : drop_cr (rev crs ++ rev h) = rev h).
  { apply Forall_rev in F. induction F as [|c l C F IH]; cbn [app].
    - destruct (rev h) as [|c r] eqn:E; [reflexivity|]. cbn. destruct (c =? CR) eqn:D; [|reflexivity].
      apply Z.eqb_eq in D. subst c. exfalso. apply (N (rev r)). rewrite <- (rev_involutive h), E. reflexivity.
    - subst c. cbn [drop_cr]. rewrite Z.eqb_refl. exact IH. }
  rewrite D. apply rev_involutive.
Qed.

Lemma tag_sound input rest t : p_opt tag_parser input = Ret (Some (rest, t)) -> exists tg, input = tg ++ rest /\ tag_field tg t.
Proof.
  unfold p_opt. pose proof (tag_parser_ok input) as K. destruct (tag_parser input) as [[[r x]|]|]; cbn in K; [|..|discriminate].
  - destruct K as (pre & -> & -> & N & U). intros [= <- <-]. exists (text "Tag=" ++ x ++ [COMMA]). split; [reflexivity|].
    cbn [tag_field]. split; [reflexivity|]. split; [exact N|]. apply utf8_iff; auto.
  - intros [= <- <-]. exists []. split; reflexivity.
Qed.
Lemma tag_complete tg t c r : tag_field tg t -> c <> 84 -> p_opt tag_parser (tg ++ c :: r) = Ret (Some (c :: r, t)).
Proof.
  intros T C. unfold p_opt. destruct t as [x|]; cbn [tag_field] in T.
  - destruct T as (-> & N & U). unfold tag_parser, tag_bytes. rewrite <- !app_assoc, p_tag_app. cbn [pbind app].
    rewrite until_app by auto. cbn [pbind p_take1]. unfold p_map_res, from_utf8. cbn [pbind]. apply utf8_iff in U. rewrite U. reflexivity.
  - subst tg. cbn [app]. rewrite tag_parser_head by auto. reflexivity.
Qed.
Lemma interval_sound pf input rest e : interval_hist pf input = Ret (Some (rest, e)) ->
  exists l i, input = l ++ LF :: rest /\ e = Interval i /\ interval_text pf l i.
Proof.
  unfold interval_hist. intros H. destruct (pbind_inv _ _ _ H) as (i1 & t & H1 & K1). destruct (pbind_inv _ _ _ K1) as (i2 & d1 & H2 & K2).
  destruct (pbind_inv _ _ _ K2) as (i3 & [] & H3 & K3). destruct (pbind_inv _ _ _ K3) as (i4 & d2 & H4 & K4).
  destruct (pbind_inv _ _ _ K4) as (i5 & [] & H5 & K5). destruct (pbind_inv _ _ _ K5) as (i6 & y & H6 & K6).
  destruct (pbind_inv _ _ _ K6) as (i7 & [] & H7 & K7). destruct (pbind_inv _ _ _ K7) as (i8 & enc & H8 & K8).
  destruct (map_res_inv _ _ _ _ H8) as (a & H9 & U). apply from_utf8_some in U. destruct U as (-> & U). apply utf8_iff in U.
  apply until_inv in H9. destruct H9 as (i9 & -> & E9 & N). cbn [p_take1 pbind] in K8.
  apply tag_sound in H1. destruct H1 as (tg & E1 & T). apply seconds_sound in H2. destruct H2 as (s1 & E2 & S1).
  apply p_char_inv in H3. apply seconds_sound in H4. destruct H4 as (s2 & E4 & S2). apply p_char_inv in H5.
  apply number_sound in H6. destruct H6 as (mx & E6 & M & P). apply p_char_inv in H7.
  destruct (trim_split a) as (crs & EA & FC & NC).
  assert (rest = i9 /\ e = Interval (mk_interval t d1 d2 y (trim_cr a))) as (-> & ->) by (split; congruence).
  exists (tg ++ s1 ++ [COMMA] ++ s2 ++ [COMMA] ++ mx ++ [COMMA] ++ trim_cr a ++ crs), (mk_interval t d1 d2 y (trim_cr a)).
  split. { rewrite <- EA. rewrite E1, E2, H3, E4, H5, E6, H7, E9. rewrite <- !app_assoc. reflexivity. }
  split; [reflexivity|]. exists tg, s1, s2, mx, crs. cbn [i_histogram i_tag i_start i_duration i_max].
  rewrite <- EA. repeat (split; auto). intros I. apply N. rewrite EA. apply in_or_app. auto.
Qed.
Lemma comma_stops r : stops (COMMA :: r).
Proof. repeat split; discriminate. Qed.
Lemma interval_complete pf l i rest : interval_text pf l i -> interval_hist pf (l ++ LF :: rest) = Ret (Some (rest, Interval i)).
Proof.
  intros (tg & s1 & s2 & mx & crs & -> & T & S1 & S2 & M & P & U & N & F & NC). unfold interval_hist.
  rewrite <- !app_assoc. cbn [app]. destruct (seconds_head s1 _ S1) as (c & r & E & C).
  assert (C84 : c <> 84). { intros ->. destruct C as [C|C]; discriminate. }
  assert (Q : p_opt tag_parser (tg ++ s1 ++ COMMA :: s2 ++ COMMA :: mx ++ COMMA :: i_histogram i ++ crs ++ LF :: rest) =
              Ret (Some (s1 ++ COMMA :: s2 ++ COMMA :: mx ++ COMMA :: i_histogram i ++ crs ++ LF :: rest, i_tag i))).
  { rewrite E. cbn [app]. apply tag_complete; auto. }
  rewrite Q. cbn [pbind]. rewrite (seconds_complete s1 (i_start i) COMMA) by (auto; reflexivity). cbn [pbind]. rewrite p_char_app. cbn [pbind].
  rewrite (seconds_complete s2 (i_duration i) COMMA) by (auto; reflexivity). cbn [pbind]. rewrite p_char_app. cbn [pbind].
  rewrite (number_complete pf mx _ (i_max i)) by auto using comma_stops. cbn [pbind]. rewrite p_char_app. cbn [pbind].
  rewrite app_assoc. rewrite until_app.
  2:{ intros H. apply in_app_or in H. destruct H as [H|H]; [auto|]. rewrite Forall_forall in F. specialize (F _ H). discriminate. }
  unfold p_map_res, from_utf8. cbn [pbind]. apply utf8_iff in U. rewrite U. cbn [pbind p_take1]. rewrite trim_unique by auto.
  destruct i; reflexivity.
Qed.
Lemma interval_head pf l i : interval_text pf l i -> exists c r, l = c :: r /\ c <> HASH.
Proof.
  intros (tg & s1 & s2 & mx & crs & -> & T & S1 & _). destruct (i_tag i) as [x|]; cbn [tag_field] in T.
  - destruct T as (-> & _). eexists 84, _. split; [reflexivity|discriminate].
  - subst tg. destruct (seconds_head s1 _ S1) as (c & r & -> & C). eexists c, _. split; [reflexivity|]. intros ->. destruct C as [C|C]; discriminate.
Qed.
Lemma same_line a b x y : ~ In LF a -> ~ In LF b -> a ++ LF :: x = b ++ LF :: y -> a = b.
Proof.
  intros A B E. destruct (split_first a x b y A E) as [(-> & _)|(b' & -> & _)]; [reflexivity|].
  exfalso. apply B. apply in_or_app. right. left. reflexivity.
Qed.

(** ** The parsers and the grammar *)
Lemma entry_sound pf input rest e : log_entry_p pf input = Ret (Some (rest, e)) -> exists l, input = l ++ LF :: rest /\ log_line pf l [e].
Proof.
  unfold log_entry_p, p_alt.
  destruct (start_time input) as [[[r e']|]|] eqn:E1.
  { intros H. assert (r = rest /\ e' = e) as (-> & ->) by (split; congruence).
    destruct (start_sound _ _ _ E1) as (l & d & E & -> & L). exists l. split; [exact E|]. constructor; auto. }
  2: discriminate.
  destruct (base_time input) as [[[r e']|]|] eqn:E2.
  { intros H. assert (r = rest /\ e' = e) as (-> & ->) by (split; congruence).
    destruct (base_sound _ _ _ E2) as (l & d & E & -> & L). exists l. split; [exact E|]. constructor; auto. }
  2: discriminate.
  intros H. destruct (interval_sound _ _ _ _ H) as (l & i & E & -> & L). exists l. split; [exact E|]. constructor; auto.
Qed.
Lemma line_complete pf l es rest : log_line pf l es ->
  match es with
  | [] => log_entry_p pf (l ++ LF :: rest) = Ret None /\ ignored_line (l ++ LF :: rest) = Ret (Some (rest, tt))
  | [e] => log_entry_p pf (l ++ LF :: rest) = Ret (Some (rest, e))
  | _ => False
  end.
Proof.
  intros [l' d S|l' d B|l' i I|l' C|l' G]; unfold log_entry_p, p_alt.
  - rewrite (start_complete _ _ _ S). reflexivity.
  - destruct (base_complete _ _ rest B) as (-> & ->). reflexivity.
  - destruct (interval_head _ _ _ I) as (c & r & E & N).
    pose proof (headers_need_hash c (r ++ LF :: rest) N) as K. unfold p_alt in K. rewrite E. cbn [app]. rewrite K.
    change (c :: r ++ LF :: rest) with ((c :: r) ++ LF :: rest). rewrite <- E. apply interval_complete; auto.
  - destruct C as ((r & E) & N & NS & NB). split.
    + destruct (start_time (l' ++ LF :: rest)) as [[[r' e']|]|] eqn:E1.
      { destruct (start_sound _ _ _ E1) as (l2 & d & EL & _ & L). exfalso. apply same_line in EL; auto; [|eapply start_no_lf; eauto]. subst. eapply NS; eauto. }
      2: { pose proof (start_time_ok (l' ++ LF :: rest)) as K. rewrite E1 in K. contradiction. }
      destruct (base_time (l' ++ LF :: rest)) as [[[r' e']|]|] eqn:E2.
      { destruct (base_sound _ _ _ E2) as (l2 & d & EL & _ & L). exfalso. apply same_line in EL; auto; [|eapply base_no_lf; eauto]. subst. eapply NB; eauto. }
      2: { pose proof (base_time_ok (l' ++ LF :: rest)) as K. rewrite E2 in K. contradiction. }
      subst l'. cbn [app]. unfold interval_hist, p_opt. rewrite tag_parser_head by discriminate. cbn [pbind].
      rewrite seconds_need_number by (try reflexivity; discriminate). reflexivity.
    + subst l'. unfold ignored_line, p_alt, comment_line. change (text "#") with [HASH]. cbn [app].
      change (HASH :: r ++ LF :: rest) with ([HASH] ++ r ++ LF :: rest). rewrite p_tag_app. cbn [pbind].
      rewrite until_app; [reflexivity|]. intros H. apply N. right. exact H.
  - destruct G as ((r & ->) & N). split.
    + rewrite <- !app_assoc. change ([34] ++ ?x) with (34 :: x). pose proof (headers_need_hash 34 (text "StartTimestamp" ++ [34] ++ r ++ LF :: rest)) as K.
      unfold p_alt in K. rewrite K by discriminate. unfold interval_hist, p_opt. rewrite tag_parser_head by discriminate. cbn [pbind].
      rewrite seconds_need_number by (try reflexivity; discriminate). reflexivity.
    + replace (([34] ++ text "StartTimestamp" ++ [34] ++ r) ++ LF :: rest) with ((34 :: text "StartTimestamp" ++ [34]) ++ r ++ LF :: rest) by (rewrite <- !app_assoc; reflexivity).
      unfold ignored_line, p_alt. replace (comment_line _) with (@Ret (option (list Z * unit)) None) by reflexivity. unfold legend.
      rewrite p_tag_app. cbn [pbind]. rewrite until_app; [reflexivity|]. intros H. apply N. rewrite !in_app_iff. auto.
Qed.
Lemma ignored_sound pf input rest : log_entry_p pf input = Ret None -> ignored_line input = Ret (Some (rest, tt)) ->
  exists l, input = l ++ LF :: rest /\ log_line pf l [].
Proof.
  intros E G. pose proof (ignored_line_ok input) as K. rewrite G in K. cbn in K. destruct K as (pre & -> & l & -> & N & [(r & S)|(r & S)]).
  - exists l. split; [rewrite <- app_assoc; reflexivity|]. apply log_line_comment. split; [exists r; exact S|]. split; [exact N|].
    split; intros d H.
    + pose proof (line_complete pf l [StartTime d] rest (log_line_start pf l d H)) as C. cbn in C.
      rewrite <- app_assoc in E. cbn [app] in E. congruence.
    + pose proof (line_complete pf l [BaseTime d] rest (log_line_base pf l d H)) as C. cbn in C.
      rewrite <- app_assoc in E. cbn [app] in E. congruence.
  - exists l. split; [rewrite <- app_assoc; reflexivity|]. apply log_line_legend. split; [|exact N]. exists r. exact S.
Qed.
Lemma line_or_not pf input : (exists l es rest, input = l ++ LF :: rest /\ log_line pf l es) \/
  (log_entry_p pf input = Ret None /\ ignored_line input = Ret None).
Proof.
  pose proof (log_entry_ok pf input) as K. destruct (log_entry_p pf input) as [[[r e]|]|] eqn:E; [|..|contradiction].
  { destruct (entry_sound _ _ _ _ E) as (l & EL & L). left. exists l, [e], r. auto. }
  pose proof (ignored_line_ok input) as G. destruct (ignored_line input) as [[[r []]|]|] eqn:EG; [|..|contradiction]; [|right; auto].
  destruct (ignored_sound _ _ _ E EG) as (l & EL & L). left. exists l, [], r. auto.
Qed.
Lemma unreadable_iff pf q : unreadable pf q <-> q <> [] /\ log_entry_p pf q = Ret None /\ ignored_line q = Ret None.
Proof.
  split.
  - intros (N & H). split; [exact N|]. destruct (line_or_not pf q) as [(l & es & rest & E & L)|K]; [|exact K]. exfalso. eapply H; eauto.
  - intros (N & A & B). split; [exact N|]. intros l rest es E L. pose proof (line_complete pf l es rest L) as C. rewrite <- E in C.
    destruct es as [|e [|]]; [destruct C; congruence|congruence|contradiction].
Qed.
(** every input is a log and perhaps something unreadable *)
Lemma log_or_not pf input : exists es p q, input = p ++ q /\ log_text pf p es /\ (q = [] \/ unreadable pf q).
Proof.
  remember (length input) as n eqn:Ln. assert (L : (length input <= n)%nat) by lia. clear Ln. revert input L.
  induction n as [|n IH]; intros input L.
  { destruct input; [|cbn in L; lia]. exists [], [], []. split; [reflexivity|]. split; [constructor|auto]. }
  destruct input as [|c r] eqn:Ei. { exists [], [], []. split; [reflexivity|]. split; [constructor|auto]. }
  rewrite <- Ei in *. assert (NE : input <> []) by (rewrite Ei; discriminate). clear Ei c r.
  destruct (line_or_not pf input) as [(l & es & rest & E & LL)|(A & B)].
  - destruct (IH rest) as (more & p & q & -> & T & Q). { rewrite E, app_length in L. cbn in L. lia. }
    exists (es ++ more), (l ++ LF :: p), q. split; [rewrite E, <- app_assoc; reflexivity|]. split; [constructor; auto|exact Q].
  - exists [], [], input. split; [reflexivity|]. split; [constructor|]. right. apply unreadable_iff. auto.
Qed.
Lemma text_says pf txt es : log_text pf txt es -> says pf txt es.
Proof.
  induction 1 as [|l es rest more L T IH]; [constructor|].
  assert (NE : l ++ [LF] <> []) by (destruct l; discriminate).
  replace (l ++ LF :: rest) with ((l ++ [LF]) ++ rest) by (rewrite <- app_assoc; reflexivity).
  destruct es as [|e [|]].
  - apply says_skip; auto. intros r. rewrite <- app_assoc. apply (line_complete pf l [] r L).
  - cbn [app]. apply says_read; auto. intros r. rewrite <- app_assoc. apply (line_complete pf l [e] r L).
  - pose proof (line_complete pf l _ rest L). contradiction.
Qed.
Lemma yields_unique pf it a b : yields pf it a -> yields pf it b -> a = b.
Proof.
  intros Y. revert b. induction Y as [it it' E|it it' x l E Y IH]; intros b Y2; inversion Y2; subst; auto; try congruence.
  rewrite H in E. assert (it'0 = it' /\ x0 = x) as (-> & ->) by (split; congruence). f_equal. auto.
Qed.
Lemma yields_error pf n q : unreadable pf q -> zlen q <= n <= usize_max ->
  yields pf (mk_log_iter n q false) [RErr (ParseError (n - zlen q))].
Proof.
  intros U B. apply unreadable_iff in U. destruct U as (N & A & G).
  eapply yields_item; [|eapply yields_end, (ended_next pf (mk_log_iter n q true)); reflexivity].
  unfold log_next. cbn [li_input next_loop li_ended li_orig_len]. destruct q as [|c q0] eqn:Eq; [congruence|]. rewrite <- Eq in *.
  rewrite A. cbn [bind]. rewrite G. cbn [bind]. pose proof (zlen_nonneg q).
  unfold usize_sub, in_range. replace ((0 <=? n - zlen q) && (n - zlen q <=? usize_max)) with true
    by (symmetry; rewrite andb_true_iff, !Z.leb_le; lia). reflexivity.
Qed.
Lemma text_yields pf p es : log_text pf p es -> yields pf (log_iter_new p) (map ROk es).
Proof.
  intros T. unfold log_iter_new. rewrite <- (app_nil_r p) at 2. rewrite <- (app_nil_r (map ROk es)).
  apply says_yields; [apply text_says; auto|apply yields_nothing].
Qed.
Lemma text_error_yields pf p q es : log_text pf p es -> unreadable pf q -> zlen (p ++ q) <= usize_max ->
  yields pf (log_iter_new (p ++ q)) (map ROk es ++ [RErr (ParseError (zlen p))]).
Proof.
  intros T U B. unfold log_iter_new. apply says_yields; [apply text_says; auto|].
  replace (zlen p) with (zlen (p ++ q) - zlen q) by (rewrite zlen_app; lia).
  apply yields_error; auto. rewrite zlen_app in *. pose proof (zlen_nonneg p). lia.
Qed.
Lemma oks_inj {A E} (a b : list A) : map (@ROk A E) a = map ROk b -> a = b.
Proof. revert b. induction a as [|x a IH]; intros [|y b]; cbn; try discriminate; auto. intros H. f_equal; [congruence|]. apply IH. congruence. Qed.
Lemma oks_no_error {A E} (a b : list A) (e : E) : map ROk a <> map ROk b ++ [RErr e].
Proof. revert b. induction a as [|x a IH]; intros [|y b]; cbn; try discriminate. intros H. apply (IH b). congruence. Qed.
Lemma oks_error_inj {A E} (a b : list A) (e f : E) : map ROk a ++ [RErr e] = map ROk b ++ [RErr f] -> a = b /\ e = f.
Proof.
  intros H. apply app_inj_tail in H. destruct H as (H & K). split; [eapply oks_inj; eauto|congruence].
Qed.
