(** * Exactly what the deserializer accepts *)
From Verif Require Import Machine Log2Model HistModel Bins ListZ Log2Facts Cfg Wf Ops AddFacts SubFacts Exact MoreFacts
  Spec SerModel SerSpec ImageSpec SerFacts SerCode SerDecode SerRest.
From Coq Require Import ZifyBool ZifyNat.

(** ** Numbers *)
Lemma number_nonempty k c x : number k c x -> c <> [].
Proof. destruct 1; discriminate. Qed.

Lemma number_range k c x : Forall byte c -> number k c x -> 0 <= x < 2 ^ (7 * Z.of_nat k + 8).
Proof.
  intros F N. revert F. induction N as [b|k b L|k b bs x L N IH]; intros F; inversion F as [|? ? B F']; subst; unfold byte in *.
  - cbn. lia.
  - assert (2 ^ 8 <= 2 ^ (7 * Z.of_nat (S k) + 8)) by (apply Z.pow_le_mono_r; lia). change (2 ^ 8) with 256 in *. lia.
  - specialize (IH F'). replace (7 * Z.of_nat (S k) + 8) with (7 + (7 * Z.of_nat k + 8)) by lia.
    rewrite Z.pow_add_r by lia. change (2 ^ 7) with 128. lia.
Qed.

Lemma number_read k : forall c x n v rest, Forall byte c -> number k c x -> Z.of_nat k + n = 8 -> 0 <= n -> 0 <= v < 2 ^ (7 * n) ->
  varint_read_from k n v (c ++ rest) = Some (v + x * 2 ^ (7 * n), rest).
Proof.
  induction k as [|k IH]; intros c x n v rest F N K N0 V; inversion N as [b E1 E2|k' b L E1 E2|k' b bs y L M E1 E2]; subst; cbn [app varint_read_from].
  - inversion F as [|? ? B _]; subst. unfold byte in B. rewrite lor_shift by (try lia; replace n with 8 in V by lia; exact V).
    replace n with 8 by lia. reflexivity.
  - inversion F as [|? ? B _]; subst. rewrite high_bit by exact B. unfold byte in B. destruct (Z.leb_spec 128 x); [lia|].
    rewrite low7 by lia. rewrite Z.mod_small by lia. rewrite lor_shift by lia. reflexivity.
  - inversion F as [|? ? B F']; subst. rewrite high_bit by exact B. unfold byte in B. destruct (Z.leb_spec 128 b); [|lia].
    rewrite low7 by lia. replace (b mod 128) with (b - 128) by (apply (Z.mod_unique b 128 1); lia).
    rewrite lor_shift by lia. rewrite (IH bs y) by (auto; try lia; replace (7 * (n + 1)) with (7 * n + 7) by lia; rewrite Z.pow_add_r by lia; change (2 ^ 7) with 128; pose proof (Z.pow_pos_nonneg 2 (7 * n) ltac:(lia) ltac:(lia)); nia).
    do 2 f_equal. replace (7 * (n + 1)) with (7 * n + 7) by lia. rewrite Z.pow_add_r by lia. change (2 ^ 7) with 128. lia.
Qed.

Lemma read_number k : forall rd n v y rest, Forall byte rd -> Z.of_nat k + n = 8 -> 0 <= n -> 0 <= v < 2 ^ (7 * n) ->
  varint_read_from k n v rd = Some (y, rest) -> exists c x, rd = c ++ rest /\ number k c x /\ y = v + x * 2 ^ (7 * n).
Proof.
  induction k as [|k IH]; intros rd n v y rest F K N0 V E; destruct rd as [|b rd]; cbn [varint_read_from] in E; try discriminate;
    inversion F as [|? ? B F']; subst; unfold byte in B.
  - assert (Y : Z.lor v (Z.shiftl b 56) = y) by congruence. assert (rd = rest) by congruence. subst rd. clear E. rewrite <- Y.
    exists [b], b. split; [reflexivity|]. split; [constructor|].
    replace n with 8 in * by lia. apply lor_shift; [lia|exact V|lia].
  - rewrite high_bit in E by exact B. rewrite low7 in E by lia. destruct (Z.leb_spec 128 b).
    + replace (b mod 128) with (b - 128) in E by (apply (Z.mod_unique b 128 1); lia). rewrite lor_shift in E by lia.
      apply IH in E; auto; try lia.
      * destruct E as (c & x & -> & N & ->). exists (b :: c), (b - 128 + 128 * x). split; [reflexivity|]. split; [constructor; auto; lia|].
        replace (7 * (n + 1)) with (7 * n + 7) by lia. rewrite Z.pow_add_r by lia. change (2 ^ 7) with 128. lia.
      * replace (7 * (n + 1)) with (7 * n + 7) by lia. rewrite Z.pow_add_r by lia. change (2 ^ 7) with 128.
        pose proof (Z.pow_pos_nonneg 2 (7 * n) ltac:(lia) ltac:(lia)). nia.
    + injection E as <- <-. exists [b], b. split; [reflexivity|]. split; [constructor; lia|].
      rewrite Z.mod_small by lia. apply lor_shift; lia.
Qed.

Lemma varint_read_iff rd x rest : Forall byte rd ->
  (varint_read rd = Some (x, rest) <-> exists c, rd = c ++ rest /\ number 8 c x).
Proof.
  intros F. unfold varint_read. split.
  - intros E. apply read_number in E; auto; try lia. destruct E as (c & y & R & N & ->).
    exists c. split; auto. change (2 ^ (7 * 0)) with 1. replace (0 + y * 1) with y by lia. exact N.
  - intros (c & -> & N). apply Forall_app in F. rewrite (number_read 8 c x); auto; try lia; [|apply F].
    change (2 ^ (7 * 0)) with 1. do 2 f_equal. lia.
Qed.

Lemma zz_spec t : 0 <= zig_zag t <= u64_max -> tok_ok t /\ zig_zag_decode (zig_zag t) = t.
Proof.
  unfold zig_zag. intros Z0. assert (T : tok_ok t) by (unfold tok_ok, i64_min, i64_max, u64_max in *; destruct (Z.ltb_spec t 0); lia).
  split; auto. fold (zig_zag t). rewrite zig_zag_eq by auto. apply zz_inv. exact T.
Qed.

Lemma number_tok c t : Forall byte c -> number 8 c (zig_zag t) -> tok_ok t /\ zig_zag_decode (zig_zag t) = t.
Proof. intros F N. apply zz_spec. pose proof (number_range 8 c _ F N) as R. change (2 ^ (7 * Z.of_nat 8 + 8)) with (u64_max + 1) in R. lia. Qed.

Lemma decode_zz x : 0 <= x <= u64_max -> zig_zag (zig_zag_decode x) = x.
Proof. intros X. rewrite zig_zag_eq by (apply zz_decode_range; auto). apply zz_inv2; auto. Qed.

Lemma numbers_app p1 ts1 p2 ts2 : numbers p1 ts1 -> numbers p2 ts2 -> numbers (p1 ++ p2) (ts1 ++ ts2).
Proof. induction 1 as [|c t p ts N NS IH]; intros N2; [exact N2|]. cbn [app]. rewrite <- app_assoc. constructor; auto. Qed.

Lemma numbers_toks p ts : numbers p ts -> Forall byte p -> Forall tok_ok ts.
Proof.
  induction 1 as [|c t p ts N NS IH]; intros F; constructor; apply Forall_app in F; [|apply IH; tauto].
  eapply number_tok; [|exact N]. tauto.
Qed.

Lemma varint_number steps : forall x, 0 <= x -> number steps (leb steps x) x.
Proof.
  induction steps as [|k IH]; intros x X; cbn [leb]; [constructor|]. destruct (Z.ltb_spec x 128); [constructor; auto|].
  replace x with (x mod 128 + 128 - 128 + 128 * (x / 128)) at 3 by (pose proof (Z.div_mod x 128 ltac:(lia)); lia).
  constructor; [pose proof (Z.mod_pos_bound x 128 ltac:(lia)); lia|]. apply IH. apply Z.div_pos; lia.
Qed.

Lemma payload_numbers ts : Forall tok_ok ts -> numbers (v2_payload ts) ts.
Proof.
  unfold v2_payload. induction 1 as [|t ts T F IH]; cbn [flat_map]; constructor; auto. apply varint_number.
  unfold zig_zag. destruct (Z.ltb_spec t 0); lia.
Qed.

(** ** A payload *)
Section CHECKS.
Variable oc : bool.
Local Notation on_decoded_num := (SerModel.on_decoded_num oc).
Local Notation decode_payload := (SerModel.decode_payload oc).
Local Notation slow := (SerDecode.slow oc).
Local Notation run_toks := (SerDecode.run_toks oc).

Lemma slow_numbers p ts : numbers p ts -> forall p2 d rs h, Forall byte (p ++ p2) ->
  slow (p ++ p2) d rs h =
  (r <- run_toks ts d rs h ;; match r with RErr e => Ret (RErr e) | ROk (d', rs', h') => slow p2 d' rs' h' end).
Proof.
  induction 1 as [|c t p ts N NS IH]; intros p2 d rs h F; [reflexivity|].
  rewrite <- app_assoc in F |- *. pose proof (proj1 (proj1 (Forall_app _ _ _) F)) as FC. pose proof (proj2 (proj1 (Forall_app _ _ _) F)) as FP.
  rewrite slow_step by auto. pose proof (number_nonempty _ _ _ N) as NE. destruct c as [|b c]; [contradiction|]. cbn [app].
  replace (varint_read (b :: c ++ p ++ p2)) with (Some (zig_zag t, p ++ p2)).
  2:{ symmetry. apply varint_read_iff; [exact F|]. exists (b :: c). auto. }
  destruct (number_tok _ _ FC N) as (TK & ->). cbn [SerDecode.run_toks].
  destruct (on_decoded_num d t rs h) as [[[[d' rs'] h']|e]|]; cbn [bind]; auto.
Qed.

Lemma slow_numbers_all p ts d rs h : numbers p ts -> Forall byte p -> slow p d rs h = run_toks ts d rs h.
Proof.
  intros N F. pose proof (slow_numbers p ts N [] d rs h) as S. rewrite app_nil_r in S. rewrite S by auto.
  destruct (run_toks ts d rs h) as [[[[d' rs'] h']|e]|]; cbn [bind]; auto.
Qed.

Lemma slow_some n : forall p d rs h r, (length p <= n)%nat -> Forall byte p -> slow p d rs h = Ret (ROk r) -> exists ts, numbers p ts.
Proof.
  induction n as [|n IH]; intros p d rs h r L F E; (destruct p as [|b p]; [exists []; constructor|]); [cbn in L; lia|].
  rewrite slow_step in E by auto. destruct (varint_read (b :: p)) as [[x c']|] eqn:V; [|discriminate].
  apply varint_read_iff in V; auto. destruct V as (c & EC & N). rewrite EC in F.
  pose proof (number_range 8 c x (proj1 (proj1 (Forall_app _ _ _) F)) N) as RX. change (2 ^ (7 * Z.of_nat 8 + 8)) with (u64_max + 1) in RX.
  destruct (on_decoded_num d (zig_zag_decode x) rs h) as [[[[d' rs'] h']|e]|]; cbn [bind] in E; try discriminate.
  assert (LC : (length c' < length (b :: p))%nat).
  { rewrite EC, app_length. pose proof (number_nonempty _ _ _ N). destruct c; [contradiction|]. cbn [length]. lia. }
  destruct (IH c' d' rs' h' r ltac:(lia) (proj2 (proj1 (Forall_app _ _ _) F)) E) as (ts & NS).
  exists (zig_zag_decode x :: ts). rewrite EC. constructor; auto. rewrite decode_zz by lia. exact N.
Qed.

(** ** The numbers a successful run has seen *)
Definition tok_len (t : Z) : Z := if t <? 0 then - t else 1.
Lemma expand_cons t ts : expand (t :: ts) = expand [t] ++ expand ts.
Proof. cbn [expand]. rewrite app_nil_r. reflexivity. Qed.
Lemma expand_one_len t : zlen (expand [t]) = tok_len t.
Proof.
  cbn [expand]. rewrite app_nil_r. unfold tok_len. destruct (Z.ltb_spec t 0); [|reflexivity]. unfold zlen. rewrite repeat_length. lia.
Qed.

(** one number, exactly *)
Lemma step_cases h0 d rs h t : dinv h0 d rs h -> tok_ok t ->
  on_decoded_num d t rs h =
    if t =? i64_min then (if oc then Panic else Ret (RErr DeUsizeTypeTooSmall))
    else if cmax (h_ctr h0) <? t then Ret (RErr UnsuitableCounterType)
    else if (0 <? t) && (zlen (h_counts h0) <=? d) then Ret (RErr EncodedArrayTooLong)
    else if usize_max <? d + tok_len t then Ret (RErr DeUsizeTypeTooSmall)
    else if 0 <? t then Ret (ROk (d + 1, on_nonzero_count rs d t, set_counts h (vset (h_counts h) d t)))
    else Ret (ROk (d + tok_len t, rs, h)).
Proof.
  intros DI TK. unfold SerModel.on_decoded_num, tok_len, tok_ok in *. pose proof (di_d _ _ _ _ DI). pose proof (di_len _ _ _ _ DI) as LEN.
  assert (HC : h_ctr h = h_ctr h0) by (rewrite (di_eq _ _ _ _ DI); reflexivity). rewrite HC.
  assert (CM : 0 < cmax (h_ctr h0)) by (destruct (h_ctr h0); reflexivity).
  destruct (Z.eqb_spec t i64_min) as [->|NM].
  { cbn [Z.ltb i64_min]. destruct oc; reflexivity. }
  destruct (Z.ltb_spec t 0).
  - destruct (Z.ltb_spec (cmax (h_ctr h0)) t); [lia|]. destruct (Z.ltb_spec 0 t); [lia|]. cbn [andb].
    replace (if oc then in_range i64_min i64_max (- t) else Ret (wrap_i64 (- t))) with (Ret (- t)).
    2:{ unfold i64_min, i64_max in *. destruct oc; [rewrite in_range_ok by lia; reflexivity|]. unfold wrap_i64. rewrite Z.mod_small by lia. f_equal. lia. }
    cbn [bind]. destruct (Z.ltb_spec (- t) 0); [lia|].
    destruct (Z.leb_spec (d + - t) usize_max), (Z.ltb_spec usize_max (d + - t)); try lia; reflexivity.
  - destruct (Z.ltb_spec (cmax (h_ctr h0)) t); [reflexivity|]. cbn zeta. rewrite LEN.
    destruct (Z.ltb_spec 0 t); cbn [andb].
    + destruct (Z.ltb_spec d (zlen (h_counts h0))), (Z.leb_spec (zlen (h_counts h0)) d); try lia; [|reflexivity].
      destruct (Z.leb_spec (d + 1) usize_max), (Z.ltb_spec usize_max (d + 1)); try lia; reflexivity.
    + destruct (Z.leb_spec (d + 1) usize_max), (Z.ltb_spec usize_max (d + 1)); try lia; reflexivity.
Qed.

Lemma run_some h0 ts : Forall tok_ok ts -> forall d rs h d' rs' h', dinv h0 d rs h -> d <= usize_max ->
  run_toks ts d rs h = Ret (ROk (d', rs', h')) ->
  Forall (fun t => i64_min < t <= cmax (h_ctr h0)) ts /\ d' = d + zlen (expand ts) /\ d' <= usize_max /\
  (forall i, 0 <= i -> zn (expand ts) i <> 0 -> d + i < zlen (h_counts h0)).
Proof.
  induction 1 as [|t ts T F IH]; intros d rs h d' rs' h' DI D E; cbn [SerDecode.run_toks] in E.
  - injection E as <- _ _. change (expand []) with (@nil Z). change (zlen (@nil Z)) with 0. split; [constructor|]. split; [lia|]. split; [lia|].
    intros i _ N. rewrite zn_nil in N. lia.
  - pose proof (dinv_step oc h0 d rs h t DI T) as ST. rewrite (step_cases h0) in E, ST by auto.
    destruct (Z.eqb_spec t i64_min); [destruct oc; discriminate|].
    destruct (Z.ltb_spec (cmax (h_ctr h0)) t); [discriminate|].
    assert (B : i64_min < t <= cmax (h_ctr h0)) by (unfold tok_ok in T; lia).
    destruct (Z.ltb_spec 0 t), (Z.leb_spec (zlen (h_counts h0)) d); cbn [andb] in *; try discriminate;
      destruct (Z.ltb_spec usize_max (d + tok_len t)); try discriminate; cbn [bind] in E;
      (destruct ST as [(_ & ST & _)|(r & ER & DI1)]; [contradiction|]); injection ER as <-;
      try (replace (tok_len t) with 1 in * by (unfold tok_len; destruct (Z.ltb_spec t 0); lia));
      (eapply IH in E; [|eassumption|lia]); destruct E as (A1 & A2 & A3 & A4);
      (split; [constructor; auto|]); rewrite expand_cons, zlen_app, expand_one_len;
      (split; [first [lia|unfold tok_len in *; destruct (Z.ltb_spec t 0); lia]|]); (split; [lia|]);
      intros i I0 N; rewrite zn_app in N by auto; rewrite expand_one_len in N;
      (destruct (Z.ltb_spec i (tok_len t)) as [LI|LI];
       [|specialize (A4 (i - tok_len t) ltac:(lia) N); unfold tok_len in *; destruct (Z.ltb_spec t 0); lia]);
      cbn [expand] in N; rewrite app_nil_r in N; unfold tok_len in LI; destruct (Z.ltb_spec t 0) as [TN|TN]; try lia;
      try (rewrite zn_repeat in N; lia); replace i with 0 in * by lia; change (zn [t] 0) with t in N; lia.
Qed.

(** ** Reading an image *)
Lemma be_value_app a b acc : be_value (a ++ [b]) acc = be_value a acc * 2 ^ 8 + b.
Proof. revert acc. induction a as [|x a IH]; intros acc; cbn [app be_value]; auto. Qed.

Lemma big_endian_value n : forall bs, Forall byte bs -> length bs = n -> big_endian n (be_value bs 0) = bs.
Proof.
  induction n as [|n IH]; intros bs F L; [destruct bs; [reflexivity|discriminate]|].
  destruct (exists_last (l := bs) ltac:(intros ->; discriminate)) as (a & b & ->). rewrite app_length in L. cbn [length] in L.
  apply Forall_app in F. destruct F as (FA & FB). inversion FB as [|? ? B _]; subst. unfold byte in B.
  rewrite be_value_app. change (2 ^ 8) with 256. cbn [big_endian]. rewrite Z.div_add_l, Z.div_small, Z.add_0_r by lia.
  rewrite Z.add_comm, Z.mod_add, Z.mod_small by lia. rewrite IH by (auto; lia). reflexivity.
Qed.

Lemma read_be_inv n rd x rd' : Forall byte rd -> read_be (Z.of_nat n) rd = Some (x, rd') ->
  rd = big_endian n x ++ rd' /\ 0 <= x < 2 ^ (8 * Z.of_nat n) /\ Forall byte rd'.
Proof.
  intros F E. destruct (read_be_range (Z.of_nat n) rd x rd' F ltac:(lia) E) as (R & F' & _). split; [|auto].
  unfold read_be in E. destruct (read_exact (Z.of_nat n) rd) as [[bs r]|] eqn:RE; [|discriminate]. injection E as <- <-.
  apply read_exact_some in RE; [|lia]. destruct RE as (-> & L). apply Forall_app in F.
  rewrite big_endian_value; [reflexivity|apply F|]. unfold zlen in L. lia.
Qed.

Lemma v2_image_header lo hi sf p rest : u64 lo -> u64 hi -> 0 <= sf ->
  v2_image lo hi sf p ++ rest = be_write 4 V2_COOKIE ++ header (zlen p) sf lo hi ++ p ++ rest.
Proof.
  intros UL UH US. unfold v2_image, header. pose proof (zlen_nonneg p). unfold u64 in *. rewrite !big_endian_write by lia.
  rewrite <- !app_assoc. reflexivity.
Qed.

Lemma deserialize_v2_image cd buf T lo hi sf p rest : u64 lo -> u64 hi -> 0 <= sf <= u8_max -> creation_check lo hi sf = None ->
  zlen p <= u32_max ->
  SerModel.deserialize oc cd buf T (v2_image lo hi sf p ++ rest) =
  (r <- decode_payload p (fresh T lo hi sf) ;; Ret (match r with RErr e => RErr e | ROk h => ROk (h, rest) end)).
Proof.
  intros UL UH US CC PL. pose proof (zlen_nonneg p). rewrite v2_image_header by (auto; lia). unfold SerModel.deserialize.
  rewrite (read_be_write 4) by apply cookie_small. rewrite Z.eqb_refl. apply deser_v2_header; auto; unfold u32_max in *; lia.
Qed.

(** what follows the numbers [ts] in a payload is read in this state *)
Lemma after_numbers T lo hi sf p1 ts p2 : u64 lo -> u64 hi -> 0 <= sf <= u8_max -> creation_check lo hi sf = None ->
  Forall byte (p1 ++ p2) -> zlen (p1 ++ p2) <= u32_max -> numbers p1 ts ->
  Forall (fun t => i64_min < t <= cmax T) ts -> zlen (expand ts) <= usize_max ->
  (forall i, 0 <= i -> zn (expand ts) i <> 0 -> i < zlen (h_counts (fresh T lo hi sf))) ->
  exists rs h, dinv (fresh T lo hi sf) (zlen (expand ts)) rs h /\
    (forall i, 0 <= i -> zn (h_counts h) i = zn (expand ts) i) /\
    decode_payload (p1 ++ p2) (fresh T lo hi sf) =
    (r <- slow p2 (zlen (expand ts)) rs h ;;
     match r with RErr e => Ret (RErr e) | ROk (_, rs2, h2) => h3 <- restat_update rs2 h2 ;; Ret (ROk h3) end).
Proof.
  intros UL UH US CC F PS N TB ES NZ. rewrite decode_payload_eq by (auto; unfold usize_max, u64_max, u32_max in *; lia).
  pose proof (dinv_fresh T lo hi sf UL UH US CC) as DI. set (h0 := fresh T lo hi sf) in *.
  assert (TK : Forall tok_ok ts) by (eapply numbers_toks; [exact N|]; apply Forall_app in F; tauto).
  destruct (run_any oc h0 ts) with (d := 0) (rs := restat_new) (h := h0) as (rs' & h' & E & DI' & Q); auto; try lia.
  - change (h_ctr h0) with T. rewrite Forall_forall in TB, TK |- *. intros t I. specialize (TB t I). specialize (TK t I). unfold tok_ok in TK. lia.
  - rewrite Z.add_0_l in *. exists rs', h'. split; [exact DI'|]. split.
    { intros i I0. rewrite Q by auto. destruct (Z.leb_spec 0 i); [|lia]. f_equal. lia. }
    rewrite (slow_numbers p1 ts N) by auto. rewrite E. reflexivity.
Qed.

Lemma image_reads cd buf T lo hi sf p ts rest : u64 lo -> u64 hi -> 0 <= sf <= u8_max -> creation_check lo hi sf = None ->
  Forall byte p -> zlen p <= u32_max -> numbers p ts ->
  Forall (fun t => i64_min < t <= cmax T) ts -> zlen (expand ts) <= usize_max ->
  (forall i, 0 <= i -> zn (expand ts) i <> 0 -> i < zlen (h_counts (fresh T lo hi sf))) ->
  exists h cs, SerModel.deserialize oc cd buf T (v2_image lo hi sf p ++ rest) = Ret (ROk (h, rest)) /\ decoded T lo hi sf cs h /\
    forall i, 0 <= i -> zn cs i = zn (expand ts) i.
Proof.
  intros UL UH US CC F PS N TB ES NZ. rewrite deserialize_v2_image by auto.
  destruct (after_numbers T lo hi sf p ts []) as (rs' & h' & DI' & Q & E); rewrite ?app_nil_r; auto.
  rewrite app_nil_r in E. rewrite E. change (slow [] (zlen (expand ts)) rs' h') with (Ret (ROk (zlen (expand ts), rs', h')) : res (result (Z * restat_state * hist) deser_error)). cbn [bind].
  destruct (decoded_ok T lo hi sf (h_counts h') rs' UL UH US CC) as (h3 & E3 & D3).
  - apply (di_len _ _ _ _ DI').
  - apply (di_cnt _ _ _ _ DI').
  - apply (di_desc _ _ _ _ DI').
  - exists h3, (h_counts h'). rewrite (di_eq _ _ _ _ DI'). rewrite E3. cbn [bind]. auto.
Qed.

(** an accepted payload *)
Lemma payload_accepted T lo hi sf p h : u64 lo -> u64 hi -> 0 <= sf <= u8_max -> creation_check lo hi sf = None ->
  Forall byte p -> zlen p <= u32_max -> decode_payload p (fresh T lo hi sf) = Ret (ROk h) ->
  exists ts, numbers p ts /\ Forall (fun t => i64_min < t <= cmax T) ts /\ zlen (expand ts) <= usize_max /\
    (forall i, 0 <= i -> zn (expand ts) i <> 0 -> i < zlen (h_counts (fresh T lo hi sf))).
Proof.
  intros UL UH US CC F PS E. rewrite decode_payload_eq in E by (auto; unfold usize_max, u64_max, u32_max in *; lia).
  pose proof (dinv_fresh T lo hi sf UL UH US CC) as DI. set (h0 := fresh T lo hi sf) in *.
  destruct (slow p 0 restat_new h0) as [[[[d rs] h1]|e]|] eqn:SL; cbn [bind] in E; try discriminate.
  destruct (slow_some (length p) p 0 restat_new h0 _ (le_n _) F SL) as (ts & N). exists ts. split; [exact N|].
  rewrite (slow_numbers_all p ts) in SL by auto.
  apply (run_some h0) in SL; auto; [|eapply numbers_toks; eauto|unfold usize_max, u64_max; lia].
  destruct SL as (A & B & C & D). split; [exact A|]. split; [lia|]. exact D.
Qed.

(** an accepted input *)
Lemma deserialize_accepted cd buf T rd h rest : Forall byte rd -> firstn 4 rd = big_endian 4 0x1c849313 ->
  SerModel.deserialize oc cd buf T rd = Ret (ROk (h, rest)) ->
  exists lo hi sf p ts, u64 lo /\ u64 hi /\ 0 <= sf <= u8_max /\ creation_check lo hi sf = None /\ Forall byte p /\ zlen p <= u32_max /\
    rd = v2_image lo hi sf p ++ rest /\ numbers p ts /\ Forall (fun t => i64_min < t <= cmax T) ts /\ zlen (expand ts) <= usize_max /\
    (forall i, 0 <= i -> zn (expand ts) i <> 0 -> i < zlen (h_counts (fresh T lo hi sf))).
Proof.
  intros F CK E. unfold SerModel.deserialize in E. destruct (read_be 4 rd) as [[ck rd0]|] eqn:E0; [|discriminate].
  destruct (read_be_inv 4 rd ck rd0 F E0) as (B0 & R0 & F0).
  assert (CE : ck = V2_COOKIE).
  { rewrite B0 in CK. rewrite firstn_app_at in CK by (rewrite big_endian_write by lia; rewrite be_write_len; reflexivity).
    pose proof (read_be_write 4 ck [] R0) as Q. rewrite <- big_endian_write in Q by lia. rewrite CK in Q. vm_compute in Q. injection Q as <-. reflexivity. }
  subst ck. rewrite Z.eqb_refl in E. unfold SerModel.deser_v2 in E.
  destruct (read_be 4 rd0) as [[pl rd1]|] eqn:E1; [|discriminate]. destruct (read_be_inv 4 rd0 pl rd1 F0 E1) as (B1 & R1 & F1).
  destruct (read_be 4 rd1) as [[no rd2]|] eqn:E2; [|discriminate]. destruct (read_be_inv 4 rd1 no rd2 F1 E2) as (B2 & R2 & F2).
  destruct (Z.eqb_spec no 0) as [->|]; cbn [negb] in E; [|discriminate].
  destruct (read_be 4 rd2) as [[sf rd3]|] eqn:E3; [|discriminate]. destruct (read_be_inv 4 rd2 sf rd3 F2 E3) as (B3 & R3 & F3).
  destruct (Z.ltb_spec u8_max sf); [discriminate|].
  destruct (read_be 8 rd3) as [[lo rd4]|] eqn:E4; [|discriminate]. destruct (read_be_inv 8 rd3 lo rd4 F3 E4) as (B4 & R4 & F4).
  destruct (read_be 8 rd4) as [[hi rd5]|] eqn:E5; [|discriminate]. destruct (read_be_inv 8 rd4 hi rd5 F4 E5) as (B5 & R5 & F5).
  destruct (read_be 8 rd5) as [[dr rd6]|] eqn:E6; [|discriminate]. destruct (read_be_inv 8 rd5 dr rd6 F5 E6) as (B6 & R6 & F6).
  destruct (Z.eqb_spec dr 4607182418800017408) as [->|]; cbn [negb] in E; [|discriminate].
  change (2 ^ (8 * Z.of_nat 8)) with (u64_max + 1) in *. change (2 ^ (8 * Z.of_nat 4)) with (u32_max + 1) in *.
  assert (UL : u64 lo) by (unfold u64; lia). assert (UH : u64 hi) by (unfold u64; lia).
  assert (US : 0 <= sf <= u8_max) by lia.
  rewrite new_with_bounds_ok in E by auto.
  destruct (creation_check lo hi sf) eqn:CC; cbn [bind] in E; [discriminate|].
  cbn zeta in E. rewrite payload_slice_len in E by lia.
  destruct (read_exact pl rd6) as [[p rd7]|] eqn:E7; [|discriminate].
  destruct (read_exact_some pl rd6 p rd7 ltac:(lia) E7) as (B7 & LP).
  assert (FP : Forall byte p) by (rewrite B7 in F6; apply Forall_app in F6; tauto).
  destruct (decode_payload p (fresh T lo hi sf)) as [[h1|e]|] eqn:DP; cbn [bind] in E; try discriminate. injection E as <- <-.
  destruct (payload_accepted T lo hi sf p h1 UL UH US CC FP ltac:(lia) DP) as (ts & N & A & B & D).
  exists lo, hi, sf, p, ts. repeat (split; [solve [auto|lia]|]). split; [|auto].
  rewrite B0, B1, B2, B3, B4, B5, B6, B7. unfold v2_image. rewrite <- !app_assoc. rewrite LP. reflexivity.
Qed.

End CHECKS.
