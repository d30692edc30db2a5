(** * Facts about the log parser on any input *)
From Coq Require Import String.
From Verif Require Import Machine ListZ HistModel Spec SerModel SerSpec FloatModel LogModel LogSpec.

(** what a parser result says: [rest] is what is left after a prefix with property [Q] *)
Definition pok {A} (Q : list Z -> A -> Prop) (input : list Z) (m : parsed A) : Prop :=
  match m with
  | Ret (Some (rest, a)) => exists pre, input = pre ++ rest /\ Q pre a
  | Ret None => True
  | Panic => False
  end.
Lemma pok_bind {A B} (m : parsed A) (k : list Z -> A -> parsed B) P Q input :
  pok P input m -> (forall pre rest a, input = pre ++ rest -> P pre a -> pok (fun x => Q (pre ++ x)) rest (k rest a)) ->
  pok Q input (pbind m k).
Proof.
  intros Hm Hk. destruct m as [[[rest a]|]|]; cbn in *; auto.
  destruct Hm as (pre & E & HP). specialize (Hk _ _ _ E HP).
  destruct (k rest a) as [[[rest2 b]|]|]; cbn in *; auto.
  destruct Hk as (pre2 & E2 & HQ). exists (pre ++ pre2). split; [|exact HQ].
  rewrite E, E2, app_assoc. reflexivity.
Qed.
Lemma pok_weaken {A} (P Q : list Z -> A -> Prop) input m :
  pok P input m -> (forall pre a, P pre a -> Q pre a) -> pok Q input m.
Proof. destruct m as [[[rest a]|]|]; cbn; auto. intros (pre & E & H) W. exists pre. auto. Qed.
Lemma pok_ret {A} (Q : list Z -> A -> Prop) input a : Q [] a -> pok Q input (Ret (Some (input, a))).
Proof. intros H. exists []. auto. Qed.

Lemma p_tag_ok s input : pok (fun pre _ => pre = s) input (p_tag s input).
Proof.
  revert input. induction s as [|c s IH]; intros [|d input]; cbn; auto.
  - exists []. auto.
  - exists []. auto.
  - destruct (c =? d) eqn:E; cbn; auto. specialize (IH input).
    destruct (p_tag s input) as [[[rest a]|]|]; cbn in *; auto.
    destruct IH as (pre & -> & ->). exists (c :: s). apply Z.eqb_eq in E. subst. auto.
Qed.
Lemma p_char_ok c input : pok (fun pre _ => pre = [c]) input (p_char c input).
Proof.
  destruct input as [|d r]; cbn; auto. destruct (c =? d) eqn:E; cbn; auto.
  apply Z.eqb_eq in E. subst. exists [d]. auto.
Qed.
Lemma find_some c input pre rest : find c input = Some (pre, rest) ->
  input = pre ++ rest /\ ~ In c pre /\ exists r, rest = c :: r.
Proof.
  revert pre. induction input as [|d r IH]; intros pre; cbn; [discriminate|].
  destruct (d =? c) eqn:E.
  - intros [= <- <-]. apply Z.eqb_eq in E. subst. repeat split; auto. eauto.
  - destruct (find c r) as [[p q]|]; [|discriminate]. intros [= <- <-].
    destruct (IH p eq_refl) as (-> & N & R). repeat split; auto.
    intros [->|H]; [rewrite Z.eqb_refl in E; discriminate|auto].
Qed.
Lemma find_app c pre r : ~ In c pre -> find c (pre ++ c :: r) = Some (pre, c :: r).
Proof.
  induction pre as [|d pre IH]; cbn; intros N.
  - rewrite Z.eqb_refl. reflexivity.
  - destruct (d =? c) eqn:E; [apply Z.eqb_eq in E; subst; tauto|].
    rewrite IH by tauto. reflexivity.
Qed.
Lemma find_none c input : find c input = None -> ~ In c input.
Proof.
  induction input as [|d r IH]; cbn; [auto|].
  destruct (d =? c) eqn:E; [discriminate|]. destruct (find c r) as [[p q]|]; [discriminate|].
  intros _ [->|H]; [rewrite Z.eqb_refl in E; discriminate|apply IH; auto].
Qed.
Lemma p_take_until_ok c input : pok (fun pre a => pre = a /\ ~ In c a) input (p_take_until c input).
Proof.
  unfold p_take_until. destruct (find c input) as [[pre rest]|] eqn:E; cbn; auto.
  destruct (find_some _ _ _ _ E) as (-> & N & _). exists pre. auto.
Qed.
Lemma p_take1_ok input : pok (fun pre a => pre = [a]) input (p_take1 input).
Proof. destruct input; cbn; auto. exists [z]. auto. Qed.
(** reading up to a character and over it *)
Lemma until_and_over {B} c input (k : list Z -> list Z -> parsed B) Q :
  (forall a rest, input = a ++ c :: rest -> ~ In c a -> pok (fun x => Q (a ++ c :: x)) rest (k rest a)) ->
  pok Q input (parse i1, a <~ p_take_until c input ;; parse i2, _ <~ p_take1 i1 ;; k i2 a).
Proof.
  intros H. unfold p_take_until. destruct (find c input) as [[pre rest]|] eqn:E; cbn; auto.
  destruct (find_some _ _ _ _ E) as (-> & N & r & ->). cbn.
  specialize (H pre r eq_refl N).
  destruct (k r pre) as [[[rest2 b]|]|]; cbn in *; auto.
  destruct H as (p2 & -> & HQ). exists (pre ++ c :: p2). rewrite <- app_assoc. auto.
Qed.

Lemma is_digit_iff c : is_digit c = true <-> 48 <= c <= 57.
Proof. unfold is_digit, within. rewrite andb_true_iff, !Z.leb_le. lia. Qed.
Lemma span_digits_spec input ds rest : span_digits input = (ds, rest) ->
  input = ds ++ rest /\ all_digits ds /\ match rest with c :: _ => is_digit c = false | [] => True end.
Proof.
  unfold all_digits. revert ds. induction input as [|d r IH]; intros ds; cbn.
  - intros [= <- <-]. auto.
  - destruct (is_digit d) eqn:E.
    + destruct (span_digits r) as [ds' rest']. intros [= <- <-].
      destruct (IH ds' eq_refl) as (-> & F & N). repeat split; auto.
      constructor; auto. apply is_digit_iff; auto.
    + intros [= <- <-]. auto.
Qed.
Lemma span_digits_app ds rest : all_digits ds -> match rest with c :: _ => is_digit c = false | [] => True end ->
  span_digits (ds ++ rest) = (ds, rest).
Proof.
  unfold all_digits. intros F N. induction F as [|d ds D F IH]; cbn.
  - destruct rest as [|c r]; cbn; auto. rewrite N. reflexivity.
  - apply is_digit_iff in D. rewrite D, IH. reflexivity.
Qed.
Lemma p_digits1_ok input : pok (fun pre a => pre = a /\ all_digits a /\ a <> []) input (p_digits1 input).
Proof.
  unfold p_digits1. destruct (span_digits input) as [ds rest] eqn:E.
  destruct (span_digits_spec _ _ _ E) as (-> & F & _). destruct ds as [|d ds]; cbn; auto.
  exists (d :: ds). repeat split; auto. discriminate.
Qed.
Lemma p_map_res_ok {A B} (m : parsed A) (f : A -> option B) (P : list Z -> A -> Prop) (Q : list Z -> B -> Prop) input :
  pok P input m -> (forall pre a b, P pre a -> f a = Some b -> Q pre b) -> pok Q input (p_map_res m f).
Proof.
  unfold p_map_res. intros H W. destruct m as [[[rest a]|]|]; cbn in *; auto.
  destruct H as (pre & -> & HP). destruct (f a) as [b|] eqn:E; cbn; auto. exists pre. split; eauto.
Qed.
Lemma p_opt_ok {A} (p : list Z -> parsed A) Q input :
  pok Q input (p input) -> pok (fun pre a => match a with Some x => Q pre x | None => pre = [] end) input (p_opt p input).
Proof.
  unfold p_opt. intros H. destruct (p input) as [[[rest a]|]|]; cbn in *; auto. exists []. auto.
Qed.
Lemma p_alt_ok {A} (p q : list Z -> parsed A) Q input :
  pok Q input (p input) -> pok Q input (q input) -> pok Q input (p_alt p q input).
Proof. unfold p_alt. destruct (p input) as [[[rest a]|]|]; cbn; auto. Qed.
Lemma from_utf8_some bs a : from_utf8 bs = Some a -> a = bs /\ utf8 bs = true.
Proof. unfold from_utf8. destruct (utf8 bs); [|discriminate]. intros [= ->]. auto. Qed.

(** ** Numbers *)
Lemma decimal_from s a : fold_left (fun n c => 10 * n + (c - 48)) s a = a * 10 ^ zlen s + decimal_value s.
Proof.
  unfold decimal_value. revert a. induction s as [|c s IH]; intros a.
  - cbn. lia.
  - cbn [fold_left]. rewrite IH. rewrite (IH (10 * 0 + (c - 48))). rewrite zlen_cons, Z.add_comm, Z.pow_add_r by (pose proof (zlen_nonneg s); lia).
    ring.
Qed.
Lemma decimal_cons c s : decimal_value (c :: s) = (c - 48) * 10 ^ zlen s + decimal_value s.
Proof. unfold decimal_value at 1. cbn [fold_left]. rewrite decimal_from. f_equal. Qed.
Lemma decimal_app a b : decimal_value (a ++ b) = decimal_value a * 10 ^ zlen b + decimal_value b.
Proof. unfold decimal_value at 1. rewrite fold_left_app, decimal_from. reflexivity. Qed.
Lemma decimal_bound s : all_digits s -> 0 <= decimal_value s < 10 ^ zlen s.
Proof.
  induction 1 as [|c s D F IH]; [cbn; lia|].
  rewrite decimal_cons, zlen_cons, Z.add_1_r, Z.pow_succ_r by apply zlen_nonneg.
  assert (1 <= 10 ^ zlen s) by (pose proof (zlen_nonneg s); pose proof (Z.pow_pos_nonneg 10 (zlen s)); lia).
  nia.
Qed.
Lemma from_digits_some mx acc s n : from_digits mx acc s = Some n ->
  all_digits s /\ n = acc * 10 ^ zlen s + decimal_value s.
Proof.
  revert acc. induction s as [|c s IH]; intros acc; cbn [from_digits].
  - intros [= <-]. split; [constructor|]. cbn. lia.
  - destruct (is_digit c) eqn:D; [|discriminate]. destruct (_ <=? mx); [|discriminate].
    intros H. destruct (IH _ H) as (F & ->). apply is_digit_iff in D. split; [constructor; auto|].
    rewrite decimal_cons, zlen_cons, Z.add_1_r, Z.pow_succ_r by apply zlen_nonneg. ring.
Qed.
Lemma from_digits_ok mx acc s : all_digits s -> 0 <= acc -> acc * 10 ^ zlen s + decimal_value s <= mx ->
  from_digits mx acc s = Some (acc * 10 ^ zlen s + decimal_value s).
Proof.
  intros F. revert acc. induction F as [|c s D F IH]; intros acc A B; cbn [from_digits].
  - f_equal. cbn. lia.
  - pose proof D as D'. apply is_digit_iff in D'. rewrite D'.
    rewrite decimal_cons, zlen_cons, Z.add_1_r, Z.pow_succ_r in * by apply zlen_nonneg.
    pose proof (decimal_bound _ F).
    assert (1 <= 10 ^ zlen s) by (pose proof (zlen_nonneg s); pose proof (Z.pow_pos_nonneg 10 (zlen s)); lia).
    assert (E : acc * 10 + (c - 48) <= mx) by nia.
    apply Z.leb_le in E. rewrite E. rewrite IH by nia. f_equal. ring.
Qed.
Lemma uint_from_str_digits mx s : all_digits s -> s <> [] -> decimal_value s <= mx ->
  uint_from_str mx s = Some (decimal_value s).
Proof.
  intros F N B. destruct s as [|c s]; [congruence|]. unfold uint_from_str.
  assert (c =? PLUS = false) as ->. { inversion F; subst. apply Z.eqb_neq. unfold PLUS. lia. }
  rewrite from_digits_ok; auto; lia.
Qed.
Lemma uint_from_str_some mx s n : uint_from_str mx s = Some n ->
  (all_digits s \/ exists s', s = PLUS :: s' /\ all_digits s') /\ 0 <= n.
Proof.
  destruct s as [|c s]; [discriminate|]. unfold uint_from_str. destruct (c =? PLUS) eqn:E.
  - apply Z.eqb_eq in E. subst. destruct s as [|d s]; [discriminate|]. intros H.
    destruct (from_digits_some _ _ _ _ H) as (F & ->). split; [right; eauto|].
    pose proof (decimal_bound _ F). lia.
  - intros H. destruct (from_digits_some _ _ _ _ H) as (F & ->). split; [left; auto|].
    pose proof (decimal_bound _ F). lia.
Qed.

(** ** The parsers of the log *)
Lemma fract_sec_tuple_ok input :
  pok (fun pre a => exists s, pre = s ++ DOT :: snd a /\ uint_from_str u64_max s = Some (fst a) /\
                     all_digits (snd a) /\ snd a <> []) input (fract_sec_tuple input).
Proof.
  unfold fract_sec_tuple.
  eapply pok_bind with (P := fun pre a => uint_from_str u64_max pre = Some a).
  { eapply p_map_res_ok with (P := fun pre a => pre = a).
    - eapply p_map_res_ok; [apply p_take_until_ok|]. cbn beta. intros pre a b (-> & _) H.
      apply from_utf8_some in H. intuition.
    - cbn beta. intros pre a b -> H. exact H. }
  cbn beta. intros pre rest a E H.
  eapply pok_bind; [apply p_tag_ok|]. cbn beta. intros pre2 rest2 [] -> ->.
  eapply pok_bind with (P := fun pre a => pre = a /\ all_digits a /\ a <> []).
  { eapply p_map_res_ok; [apply p_digits1_ok|]. cbn beta. intros p x y (-> & F & N) K.
    apply from_utf8_some in K. destruct K as (-> & _). auto. }
  cbn beta. intros pre3 rest3 ds -> (-> & F & N).
  apply pok_ret. exists pre. cbn [fst snd]. rewrite app_nil_r. auto.
Qed.

Lemma all_digits_firstn n s : all_digits s -> all_digits (firstn n s).
Proof.
  unfold all_digits. intros F. revert n. induction F; intros [|n]; cbn; constructor; auto.
Qed.

(** what a number of seconds reads as *)
Definition nanos_of (ds : list Z) : Z :=
  if 9 <? zlen ds then decimal_value (firstn 9 ds) else decimal_value ds * 10 ^ (9 - zlen ds).
Lemma zlen_firstn9 (ds : list Z) : 9 < zlen ds -> zlen (firstn 9 ds) = 9.
Proof. unfold zlen. rewrite firstn_length. lia. Qed.
Lemma nanos_bound ds : all_digits ds -> 0 <= nanos_of ds < 1000000000.
Proof.
  intros F. unfold nanos_of. destruct (9 <? zlen ds) eqn:E.
  - apply Z.ltb_lt in E. pose proof (decimal_bound _ (all_digits_firstn 9 _ F)) as B.
    rewrite zlen_firstn9 in B by lia. exact B.
  - apply Z.ltb_ge in E. pose proof (decimal_bound _ F) as B. pose proof (zlen_nonneg ds).
    assert (P : 10 ^ zlen ds * 10 ^ (9 - zlen ds) = 1000000000).
    { rewrite <- Z.pow_add_r by lia. replace (zlen ds + (9 - zlen ds)) with 9 by lia. reflexivity. }
    assert (0 < 10 ^ (9 - zlen ds)) by (apply Z.pow_pos_nonneg; lia). nia.
Qed.
Lemma fract_sec_run input rest secs ds : fract_sec_tuple input = Ret (Some (rest, (secs, ds))) ->
  all_digits ds -> ds <> [] -> fract_sec_duration input = Ret (Some (rest, mk_duration secs (nanos_of ds))).
Proof.
  intros E F N. unfold fract_sec_duration. rewrite E. cbn [pbind].
  pose proof (nanos_bound _ F) as NB. unfold nanos_of in *. pose proof (decimal_bound _ F) as B. pose proof (zlen_nonneg ds).
  destruct (9 <? zlen ds) eqn:L.
  - apply Z.ltb_lt in L. cbn [bind]. rewrite uint_from_str_digits.
    + unfold duration_new. cbn [bind]. unfold assert. destruct (_ <? 1000000000) eqn:K; [reflexivity|]. apply Z.ltb_ge in K. lia.
    + apply all_digits_firstn; auto.
    + destruct ds; [congruence|discriminate].
    + unfold u32_max. lia.
  - apply Z.ltb_ge in L.
    assert (P : 10 ^ zlen ds * 10 ^ (9 - zlen ds) = 1000000000).
    { rewrite <- Z.pow_add_r by lia. replace (zlen ds + (9 - zlen ds)) with 9 by lia. reflexivity. }
    assert (0 < 10 ^ (9 - zlen ds)) by (apply Z.pow_pos_nonneg; lia).
    assert (decimal_value ds <= u32_max) by (unfold u32_max; nia).
    rewrite uint_from_str_digits by auto.
    destruct (zlen ds =? 9) eqn:L9.
    + apply Z.eqb_eq in L9. rewrite L9 in *. cbn [bind]. change (10 ^ (9 - 9)) with 1 in *. rewrite Z.mul_1_r in *.
      unfold duration_new, assert. destruct (_ <? 1000000000) eqn:K; [reflexivity|]. apply Z.ltb_ge in K. lia.
    + apply Z.eqb_neq in L9. unfold u32_sub, u32_pow10, u32_mul, in_range.
      assert (10 ^ (9 - zlen ds) <= 1000000000) by nia.
      replace ((0 <=? 9 - zlen ds) && (9 - zlen ds <=? u32_max)) with true
        by (symmetry; rewrite andb_true_iff, !Z.leb_le; unfold u32_max; lia). cbn [bind].
      replace ((0 <=? 10 ^ (9 - zlen ds)) && (10 ^ (9 - zlen ds) <=? u32_max)) with true
        by (symmetry; rewrite andb_true_iff, !Z.leb_le; unfold u32_max; lia). cbn [bind].
      replace ((0 <=? decimal_value ds * 10 ^ (9 - zlen ds)) && (decimal_value ds * 10 ^ (9 - zlen ds) <=? u32_max)) with true
        by (symmetry; rewrite andb_true_iff, !Z.leb_le; unfold u32_max; lia). cbn [bind].
      unfold duration_new, assert. destruct (_ <? 1000000000) eqn:K; [reflexivity|]. apply Z.ltb_ge in K. lia.
Qed.
Lemma fract_sec_duration_ok input :
  pok (fun pre d => (exists s ds, pre = s ++ DOT :: ds /\ uint_from_str u64_max s = Some (d_secs d)) /\
         0 <= d_nanos d < 1000000000) input (fract_sec_duration input).
Proof.
  pose proof (fract_sec_tuple_ok input) as H.
  destruct (fract_sec_tuple input) as [[[rest [secs ds]]|]|] eqn:E; cbn in H; [|unfold fract_sec_duration; rewrite E; exact I|contradiction].
  destruct H as (pre & -> & s & -> & U & F & N). rewrite (fract_sec_run _ _ _ _ E F N). cbn [pok].
  exists (s ++ DOT :: ds). split; auto. split; [exists s, ds; auto|apply nanos_bound; auto].
Qed.

(** consumed text is whole lines *)
Definition ends_line (pre : list Z) : Prop := exists p, pre = p ++ [LF].
Lemma ends_line_app a b : ends_line b -> ends_line (a ++ b).
Proof. intros (p & ->). exists (a ++ p). rewrite app_assoc. reflexivity. Qed.
Lemma ends_line_nonempty a : ends_line a -> a <> [].
Proof. intros (p & ->). destruct p; discriminate. Qed.
Lemma line_end {B} input (b : B) (P : list Z -> Prop) : (forall a, ~ In LF a -> P (a ++ [LF])) ->
  pok (fun pre _ => P pre) input (parse i1, _ <~ p_take_until LF input ;; parse i2, _ <~ p_take1 i1 ;; Ret (Some (i2, b))).
Proof.
  intros HP. apply (until_and_over LF input (fun i2 _ => Ret (Some (i2, b)))).
  intros a rest -> N. apply pok_ret. auto.
Qed.

Lemma start_time_ok input : pok (fun pre _ => ends_line pre) input (start_time input).
Proof.
  unfold start_time. eapply pok_bind; [apply p_tag_ok|]. cbn beta. intros p1 r1 [] _ _.
  eapply pok_bind; [apply fract_sec_duration_ok|]. cbn beta. intros p2 r2 d _ _.
  eapply pok_bind; [apply p_char_ok|]. cbn beta. intros p3 r3 [] _ _.
  apply (line_end r3 (StartTime d) (fun x => ends_line (p1 ++ p2 ++ p3 ++ x))).
  intros a _. do 4 apply ends_line_app. exists []. auto.
Qed.
Lemma base_time_ok input : pok (fun pre _ => ends_line pre) input (base_time input).
Proof.
  unfold base_time. eapply pok_bind; [apply p_tag_ok|]. cbn beta. intros p1 r1 [] _ _.
  eapply pok_bind; [apply fract_sec_duration_ok|]. cbn beta. intros p2 r2 d _ _.
  eapply pok_bind; [apply p_char_ok|]. cbn beta. intros p3 r3 [] _ _.
  apply (line_end r3 (BaseTime d) (fun x => ends_line (p1 ++ p2 ++ p3 ++ x))).
  intros a _. do 4 apply ends_line_app. exists []. auto.
Qed.
Lemma tag_parser_ok input :
  pok (fun pre t => pre = text "Tag=" ++ t ++ [COMMA] /\ ~ In COMMA t /\ utf8 t = true) input (tag_parser input).
Proof.
  unfold tag_parser. eapply p_map_res_ok with (P := fun pre t => pre = text "Tag=" ++ t ++ [COMMA] /\ ~ In COMMA t).
  - unfold tag_bytes. eapply pok_bind; [apply p_tag_ok|]. cbn beta. intros p1 r1 [] _ ->.
    apply (until_and_over COMMA r1 (fun i t => Ret (Some (i, t)))). intros a rest -> N. apply pok_ret. auto.
  - cbn beta. intros pre a b (-> & N) H. apply from_utf8_some in H. destruct H as (-> & U). auto.
Qed.
Lemma skipped {A} (a b : list A) : skipn (length a) (a ++ b) = b.
Proof. rewrite skipn_app, skipn_all, Nat.sub_diag. reflexivity. Qed.

Definition is_suffix (r i : list Z) : Prop := exists p, i = p ++ r.
Lemma is_suffix_refl i : is_suffix i i. Proof. exists []. reflexivity. Qed.
Lemma is_suffix_cons c r i : is_suffix r i -> is_suffix r (c :: i).
Proof. intros (p & ->). exists (c :: p). reflexivity. Qed.
Lemma is_suffix_trans a b c : is_suffix a b -> is_suffix b c -> is_suffix a c.
Proof. intros (p & ->) (q & ->). exists (q ++ p). rewrite app_assoc. reflexivity. Qed.
Lemma span_suffix i ds r : span_digits i = (ds, r) -> is_suffix r i.
Proof. intros H. destruct (span_digits_spec _ _ _ H) as (-> & _). exists ds. reflexivity. Qed.
Lemma skip_sign_suffix i : is_suffix (skip_sign i) i.
Proof. destruct i as [|c r]; cbn; [apply is_suffix_refl|]. destruct (_ || _); [apply is_suffix_cons|]; apply is_suffix_refl. Qed.
Lemma skip_digits_suffix i : is_suffix (skip_digits i) i.
Proof. unfold skip_digits. destruct (span_digits i) as [ds r] eqn:E. eapply span_suffix; eauto. Qed.
Lemma float_rest_suffix i r : float_rest i = Some r -> is_suffix r i.
Proof.
  unfold float_rest. intros H. eapply is_suffix_trans; [|apply (skip_sign_suffix i)].
  set (j := skip_sign i) in *. clearbody j. clear i.
  destruct (match span_digits j with
            | ([], _) => match j with
                         | [] => None
                         | c :: r => if c =? DOT then match span_digits r with ([], _) => None | (_ :: _, r') => Some r' end else None
                         end
            | (_ :: _, []) => Some []
            | (_ :: _, c :: r) => if c =? DOT then Some (skip_digits r) else Some (c :: r) end) as [m|] eqn:E; [|discriminate].
  assert (M : is_suffix m j).
  { destruct (span_digits j) as [ds rr] eqn:S. pose proof (span_suffix _ _ _ S) as SS. destruct ds as [|d ds].
    - destruct j as [|c j']; [discriminate|]. destruct (c =? DOT); [|discriminate].
      destruct (span_digits j') as [ds2 r2] eqn:S2. destruct ds2; [discriminate|]. injection E as <-.
      apply is_suffix_cons. eapply span_suffix; eauto.
    - destruct rr as [|c rr]; [injection E as <-; exact SS|].
      destruct (c =? DOT); injection E as <-; [|exact SS].
      eapply is_suffix_trans; [|exact SS]. apply is_suffix_cons, skip_digits_suffix. }
  eapply is_suffix_trans; [|exact M]. clear E M.
  destruct m as [|c m]; [injection H as <-; apply is_suffix_refl|].
  destruct (_ || _); [|injection H as <-; apply is_suffix_refl].
  destruct (span_digits (skip_sign m)) as [ds2 r2] eqn:S. destruct ds2; [discriminate|]. injection H as <-.
  apply is_suffix_cons. eapply is_suffix_trans; [eapply span_suffix; eauto|apply skip_sign_suffix].
Qed.
Lemma no_case_suffix s i r : no_case_rest s i = Some r -> is_suffix r i.
Proof.
  revert i. induction s as [|c s IH]; intros i; cbn.
  - intros [= <-]. apply is_suffix_refl.
  - destruct i as [|d i]; [discriminate|]. destruct (_ || _); [|discriminate]. intros H. apply is_suffix_cons; auto.
Qed.
Lemma p_double_ok pf input : pok (fun _ _ => True) input (p_double pf input).
Proof.
  unfold p_double.
  destruct (match float_rest input with Some r => Some r | None => _ end) as [rest|] eqn:E; cbn; auto.
  assert (S : is_suffix rest input).
  { destruct (float_rest input) eqn:F; [injection E as <-; apply float_rest_suffix; auto|].
    destruct (no_case_rest (text "nan") input) eqn:G; [injection E as <-|]; eapply no_case_suffix; eauto. }
  destruct (pf _); cbn; auto. destruct S as (p & ->). exists p. auto.
Qed.

Lemma interval_hist_ok pf input : pok (fun pre _ => ends_line pre) input (interval_hist pf input).
Proof.
  unfold interval_hist. eapply pok_bind; [apply p_opt_ok, tag_parser_ok|]. cbn beta. intros p1 r1 t _ _.
  eapply pok_bind; [apply fract_sec_duration_ok|]. cbn beta. intros p2 r2 d _ _.
  eapply pok_bind; [apply p_char_ok|]. cbn beta. intros p3 r3 [] _ _.
  eapply pok_bind; [apply fract_sec_duration_ok|]. cbn beta. intros p4 r4 d2 _ _.
  eapply pok_bind; [apply p_char_ok|]. cbn beta. intros p5 r5 [] _ _.
  eapply pok_bind; [apply p_double_ok|]. cbn beta. intros p6 r6 x _ _.
  eapply pok_bind; [apply p_char_ok|]. cbn beta. intros p7 r7 [] _ _.
  unfold p_map_res. unfold p_take_until. destruct (find LF r7) as [[pre rest]|] eqn:E; cbn; auto.
  destruct (find_some _ _ _ _ E) as (-> & N & r & ->). destruct (from_utf8 pre); cbn; auto.
  exists (pre ++ [LF]). rewrite <- app_assoc. split; auto. do 7 apply ends_line_app. exists pre. auto.
Qed.
Lemma log_entry_ok pf input : pok (fun pre _ => ends_line pre) input (log_entry_p pf input).
Proof.
  unfold log_entry_p. apply (p_alt_ok (p_alt start_time base_time) (interval_hist pf)); [|apply interval_hist_ok].
  apply p_alt_ok; [apply start_time_ok|apply base_time_ok].
Qed.
(** a line that is ignored: one with a hash, or the legend *)
Lemma ignored_line_ok input :
  pok (fun pre _ => exists l, pre = l ++ [LF] /\ ~ In LF l /\ (starts_with [HASH] l \/ starts_with (34 :: text "StartTimestamp" ++ [34]) l))
    input (ignored_line input).
Proof.
  unfold ignored_line. apply p_alt_ok.
  - unfold comment_line. eapply pok_bind; [apply p_tag_ok|]. cbn beta. intros p1 r1 [] _ ->.
    apply (line_end r1 tt (fun x => exists l, text "#" ++ x = l ++ [LF] /\ ~ In LF l /\ (starts_with [HASH] l \/ _ l))).
    intros a N. exists (HASH :: a). repeat split; auto.
    + intros [H|H]; [discriminate|auto].
    + left. exists a. reflexivity.
  - unfold legend. eapply pok_bind; [apply p_tag_ok|]. cbn beta. intros p1 r1 [] _ ->.
    apply (line_end r1 tt (fun x => exists l, (34 :: text "StartTimestamp" ++ [34]) ++ x = l ++ [LF] /\ ~ In LF l /\ (_ l \/ starts_with (34 :: text "StartTimestamp" ++ [34]) l))).
    intros a N. exists ((34 :: text "StartTimestamp" ++ [34]) ++ a). repeat split.
    + intros H. apply in_app_or in H. destruct H as [H|H]; [|auto]. cbn in H. unfold LF in H. intuition discriminate.
    + right. exists a. reflexivity.
Qed.

(** ** The iterator *)
Definition whole_lines (p : list Z) : Prop := p = [] \/ ends_line p.
Lemma whole_lines_app a b : ends_line a -> whole_lines b -> whole_lines (a ++ b).
Proof. intros A [->|B]; right; [rewrite app_nil_r; auto|apply ends_line_app; auto]. Qed.

Lemma next_loop_spec pf fuel it : (length (li_input it) < fuel)%nat -> zlen (li_input it) <= li_orig_len it <= usize_max ->
  exists it' x, next_loop fuel pf it = Ret (it', x) /\ li_orig_len it' = li_orig_len it /\
    match x with
    | None => (li_ended it = true /\ it' = it) \/ (li_ended it' = true /\ li_input it' = [] /\ whole_lines (li_input it))
    | Some (ROk e) => li_ended it = false /\ li_ended it' = false /\ exists p, li_input it = p ++ li_input it' /\ ends_line p
    | Some (RErr (ParseError off)) => li_ended it = false /\ li_ended it' = true /\ li_input it' <> [] /\
        log_entry_p pf (li_input it') = Ret None /\ ignored_line (li_input it') = Ret None /\
        off = li_orig_len it - zlen (li_input it') /\ exists p, li_input it = p ++ li_input it' /\ whole_lines p
    end.
Proof.
  revert it. induction fuel as [|f IH]; intros it L B; [lia|].
  cbn [next_loop]. destruct (li_ended it) eqn:EE.
  { exists it, None. repeat split; auto. }
  destruct (li_input it) as [|c0 i0] eqn:EI.
  { eexists _, None. split; [reflexivity|]. cbn. repeat split; auto. right. repeat split; auto. left. auto. }
  rewrite <- EI in *. assert (NE : li_input it <> []) by (rewrite EI; discriminate).
  pose proof (log_entry_ok pf (li_input it)) as HL.
  destruct (log_entry_p pf (li_input it)) as [[[rest e]|]|] eqn:EL; cbn in HL; [| |contradiction]; cbn [bind].
  { destruct HL as (p & E & LE). eexists _, (Some (ROk e)). split; [reflexivity|]. cbn. repeat split; auto. eauto. }
  pose proof (ignored_line_ok (li_input it)) as HI.
  destruct (ignored_line (li_input it)) as [[[rest []]|]|] eqn:EG; cbn in HI; [| |contradiction]; cbn [bind].
  - destruct HI as (p & E & l & -> & N & _).
    assert (LE : ends_line (l ++ [LF])) by (exists l; auto).
    destruct (IH (mk_log_iter (li_orig_len it) rest false)) as (it' & x & R & O & X); cbn.
    { rewrite E in L. rewrite !app_length in L. cbn in L. lia. }
    { rewrite E in B. unfold zlen in *. rewrite !app_length in B. lia. }
    cbn in O, X. exists it', x. split; [exact R|]. split; [exact O|].
    destruct x as [[e|[off]]|].
    + destruct X as (_ & E2 & q & -> & LE2). repeat split; auto. exists ((l ++ [LF]) ++ q).
      split; [rewrite E, !app_assoc; auto|apply ends_line_app; auto].
    + destruct X as (_ & E2 & N2 & E3 & E4 & -> & q & -> & W). repeat split; auto. exists ((l ++ [LF]) ++ q).
      split; [rewrite E, !app_assoc; auto|apply whole_lines_app; auto].
    + destruct X as [[D _]|(E2 & E3 & W)]; [discriminate|]. right. repeat split; auto.
      rewrite E. apply whole_lines_app; auto.
  - unfold usize_sub, in_range.
    replace ((0 <=? li_orig_len it - zlen (li_input it)) && (li_orig_len it - zlen (li_input it) <=? usize_max)) with true
      by (symmetry; rewrite andb_true_iff, !Z.leb_le; pose proof (zlen_nonneg (li_input it)); lia).
    cbn [bind]. eexists _, (Some (RErr (ParseError _))). split; [reflexivity|]. cbn. repeat split; auto.
    exists []. split; auto. left. auto.
Qed.
Lemma log_next_spec pf it : zlen (li_input it) <= li_orig_len it <= usize_max ->
  exists it' x, log_next pf it = Ret (it', x) /\ li_orig_len it' = li_orig_len it /\
    match x with
    | None => (li_ended it = true /\ it' = it) \/ (li_ended it' = true /\ li_input it' = [] /\ whole_lines (li_input it))
    | Some (ROk e) => li_ended it = false /\ li_ended it' = false /\ exists p, li_input it = p ++ li_input it' /\ ends_line p
    | Some (RErr (ParseError off)) => li_ended it = false /\ li_ended it' = true /\ li_input it' <> [] /\
        log_entry_p pf (li_input it') = Ret None /\ ignored_line (li_input it') = Ret None /\
        off = li_orig_len it - zlen (li_input it') /\ exists p, li_input it = p ++ li_input it' /\ whole_lines p
    end.
Proof. intros B. apply next_loop_spec; auto. Qed.
Lemma ended_next pf it : li_ended it = true -> log_next pf it = Ret (it, None).
Proof. intros E. unfold log_next. cbn [next_loop]. rewrite E. reflexivity. Qed.
(** more fuel changes nothing *)
Lemma next_fuel pf f1 f2 it : (length (li_input it) < f1)%nat -> (length (li_input it) < f2)%nat ->
  next_loop f1 pf it = next_loop f2 pf it.
Proof.
  revert f2 it. induction f1 as [|f1 IH]; intros [|f2] it L1 L2; try lia.
  cbn [next_loop]. destruct (li_ended it); auto. destruct (li_input it) as [|c0 i0] eqn:EI; auto.
  rewrite <- EI in *.
  destruct (log_entry_p pf (li_input it)) as [[[rest e]|]|]; auto. cbn [bind].
  pose proof (ignored_line_ok (li_input it)) as HI.
  destruct (ignored_line (li_input it)) as [[[rest []]|]|] eqn:EG; cbn in HI; [| |contradiction]; cbn [bind]; auto.
  destruct HI as (p & E & l & -> & _). apply IH; cbn; rewrite E in L1, L2; rewrite !app_length in L1, L2; cbn in L1, L2; lia.
Qed.

Lemma line_feeds_app a b : line_feeds (a ++ b) = line_feeds a + line_feeds b.
Proof. unfold line_feeds. rewrite count_occ_app. lia. Qed.
Lemma line_feeds_pos a : ends_line a -> 1 <= line_feeds a.
Proof.
  intros (p & ->). rewrite line_feeds_app. unfold line_feeds at 2. cbn.
  assert (0 <= line_feeds p) by (unfold line_feeds; lia). lia.
Qed.
Lemma line_feeds_nonneg a : 0 <= line_feeds a. Proof. unfold line_feeds. lia. Qed.

(** from the middle of the input *)
Lemma iterate pf n it all : (length (li_input it) <= n)%nat -> li_ended it = false -> li_orig_len it = zlen all -> zlen all <= usize_max ->
  (exists p, all = p ++ li_input it /\ whole_lines p) ->
  exists es err, yields pf it (map ROk es ++ err) /\ zlen es <= line_feeds (li_input it) /\
    ((err = [] /\ whole_lines all) \/
     exists p q, all = p ++ q /\ whole_lines p /\ q <> [] /\ err = [RErr (ParseError (zlen p))] /\
       log_entry_p pf q = Ret None /\ ignored_line q = Ret None).
Proof.
  revert it. induction n as [|n IH]; intros it L EE O U (p0 & E & W).
  all: assert (B : zlen (li_input it) <= li_orig_len it <= usize_max)
    by (rewrite O; split; [rewrite E; unfold zlen; rewrite app_length; lia|auto]).
  all: destruct (log_next_spec pf it B) as (it' & x & N & O' & X).
  all: destruct x as [[e|[off]]|].
  all: try (destruct X as (_ & E' & q & Eq & LE);
    assert (length (li_input it') < length (li_input it))%nat
      by (rewrite Eq, app_length; destruct LE as (p & ->); rewrite app_length; cbn; lia); try lia).
  all: try (destruct X as (_ & E' & N' & E3 & E4 & -> & q & Eq & W'); exists [], [RErr (ParseError (zlen (p0 ++ q)))];
    split; [cbn; eapply yields_item;
      [rewrite N; do 3 f_equal; rewrite O, E, Eq; unfold zlen; rewrite !app_length; do 2 f_equal; lia
      |eapply yields_end, ended_next, E']|];
    split; [unfold zlen; cbn; apply line_feeds_nonneg|]; right;
    exists (p0 ++ q), (li_input it'); repeat split; auto;
    [rewrite E, Eq, app_assoc; reflexivity
    |destruct W as [->|W]; [exact W'|destruct W' as [->|W']; [rewrite app_nil_r; right; auto|right; apply ends_line_app; auto]]]).
  all: try (destruct X as [[D _]|(E' & E2 & W')]; [congruence|];
    exists [], []; split; [eapply yields_end; exact N|]; split; [unfold zlen; cbn; apply line_feeds_nonneg|];
    left; split; auto; rewrite E; destruct W as [->|W]; [exact W'|apply whole_lines_app; auto]).
  destruct (IH it') as (es & err & Y & K & C); auto; try lia.
  { exists (p0 ++ q). split; [rewrite E, Eq, app_assoc; reflexivity|right; apply ends_line_app; auto]. }
  exists (e :: es), err. split; [cbn; eapply yields_item; eauto|]. split; [|exact C].
  rewrite Eq, line_feeds_app, zlen_cons. apply line_feeds_pos in LE. lia.
Qed.
