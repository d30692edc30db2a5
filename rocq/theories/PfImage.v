(** * Proofs of the properties about the images that are accepted (C64) and about their canonical form (C65) *)
(*PROPS-IMPORTS Machine Log2Model HistModel Spec Reach Witness Cases CasesSer SerModel SerSpec ImageSpec *)
From Verif Require Import Machine Log2Model HistModel Spec Reach Bins ListZ Log2Facts Cfg Wf Ops AddFacts SubFacts Exact MoreFacts Witness HeldFacts PfRecord
  SerModel SerSpec ImageSpec SerFacts SerCode SerDecode SerRest ImageFacts PfSer.
From Coq Require Import ZifyBool ZifyNat.

Lemma fits_zn T lo hi sf ts : fits T (distinct_values (fresh T lo hi sf)) ts ->
  Forall (fun t => i64_min < t <= cmax T) ts /\ zlen (expand ts) <= usize_max /\
  (forall i, 0 <= i -> zn (expand ts) i <> 0 -> i < zlen (h_counts (fresh T lo hi sf))).
Proof.
  intros (A & B & C). split; [auto|]. split; [auto|]. intros i I0 N. unfold distinct_values in C.
  destruct (Z_lt_le_dec i (zlen (h_counts (fresh T lo hi sf)))); auto. exfalso. apply N. apply C. auto.
Qed.
Lemma zn_fits T lo hi sf ts : Forall (fun t => i64_min < t <= cmax T) ts -> zlen (expand ts) <= usize_max ->
  (forall i, 0 <= i -> zn (expand ts) i <> 0 -> i < zlen (h_counts (fresh T lo hi sf))) ->
  fits T (distinct_values (fresh T lo hi sf)) ts.
Proof.
  intros A B C. split; [auto|]. split; [auto|]. unfold distinct_values. intros i L.
  destruct (Z.eq_dec (nth (Z.to_nat i) (expand ts) 0) 0) as [|N]; auto. pose proof (zlen_nonneg (h_counts (fresh T lo hi sf))).
  specialize (C i ltac:(lia) N). lia.
Qed.

(** C64: input that starts with the cookie of the plain format is accepted exactly if it is an image: the header with its own payload length, parameters a histogram can be created with, and a payload encoding numbers that fit; nothing more of the input is consumed *)
Lemma C64_accepted_proof : forall checks cd buf T rd rest, bytes rd -> firstn 4 rd = big_endian 4 0x1c849313 ->
  ((exists h, deserialize checks cd buf T rd = Ret (ROk (h, rest))) <->
   exists lo hi sf p ts h0, is_u64 lo /\ is_u64 hi /\ is_u8 sf /\ zlen p <= u32_max /\ rd = v2_image lo hi sf p ++ rest /\
     new_with_bounds T lo hi sf = Ret (ROk h0) /\ numbers p ts /\ fits T (distinct_values h0) ts).
Proof.
  intros checks cd buf T rd rest. intros F CK. split.
  - intros (h & E). destruct (deserialize_accepted checks cd buf T rd h rest F CK E)
      as (lo & hi & sf & p & ts & UL & UH & US & CC & FP & PL & -> & N & A & B & C).
    exists lo, hi, sf, p, ts, (fresh T lo hi sf). repeat (split; [assumption|]). split; [reflexivity|].
    split; [rewrite new_with_bounds_ok by auto; rewrite CC; reflexivity|]. split; [exact N|]. apply zn_fits; auto.
  - intros (lo & hi & sf & p & ts & h0 & UL & UH & US & PL & -> & EN & N & FI).
    destruct (created_wf T lo hi sf h0 UL UH US EN) as (-> & CC & WF & _).
    apply fits_zn in FI. destruct FI as (A & B & C).
    assert (FP : Forall byte p) by (unfold v2_image in F; rewrite <- !app_assoc in F; do 7 (apply Forall_app in F; destruct F as (_ & F)); apply Forall_app in F; apply F).
    destruct (image_reads checks cd buf T lo hi sf p ts rest UL UH US CC FP PL N A B C) as (h & cs & E & _). eauto.
Qed.

(*EX
(** the number 5 written with a needless byte is accepted *)
Example ex_C64_accepted : let p := [5; 138; 0] in let ts := [-3; 5] in
  bytes (v2_image 1 1000 1 p ++ [9]) /\ firstn 4 (v2_image 1 1000 1 p ++ [9]) = big_endian 4 0x1c849313 /\
  is_u64 1 /\ is_u64 1000 /\ is_u8 1 /\ zlen p <= u32_max /\ numbers p ts /\
  match new_with_bounds U8 1 1000 1 with Ret (ROk h0) => fits U8 (distinct_values h0) ts | _ => False end /\
  match deserialize true plain [] U8 (v2_image 1 1000 1 p ++ [9]) with
  | Ret (ROk (h, rest)) => held h = [(3, 5)] /\ rest = [9]
  | _ => False end.
Proof. ser_case. Qed.
EX*)

(** C64: the histogram read has the parameters of the header and the counts the payload stands for; its length and extremes are computed from the counts *)
Lemma C64_meaning_proof : forall checks cd buf T lo hi sf p ts rest h rest', is_u64 lo -> is_u64 hi -> is_u8 sf -> bytes p -> zlen p <= u32_max ->
  numbers p ts -> deserialize checks cd buf T (v2_image lo hi sf p ++ rest) = Ret (ROk (h, rest')) ->
  rest' = rest /\ h_ctr h = T /\ h_low h = lo /\ h_high h = hi /\ h_sigfig h = sf /\ h_auto h = false /\
  len h = Z.min u64_max (weight (held h)) /\ max_agrees h /\ min_agrees h /\
  forall v i, is_u64 v -> covers h v -> index_for h v = Ret (Some i) -> count_at h v = Ret (nth (Z.to_nat i) (expand ts) 0).
Proof.
  intros checks cd buf T lo hi sf p ts rest h rest'. intros UL UH US FP PL N E.
  destruct (creation_check lo hi sf) eqn:CC.
  { exfalso. rewrite v2_image_header in E by (auto; apply US). unfold deserialize in E. rewrite (read_be_write 4) in E by apply cookie_small.
    rewrite Z.eqb_refl in E. unfold header in E. rewrite <- !app_assoc in E. unfold deser_v2 in E. pose proof (zlen_nonneg p) as P0. unfold is_u64, is_u8, u32_max in *.
    rewrite (read_be_write 4) in E by (change (2 ^ (8 * Z.of_nat 4)) with 4294967296; lia).
    rewrite (read_be_write 4) in E by (change (2 ^ (8 * Z.of_nat 4)) with 4294967296; lia). cbn [negb Z.eqb] in E.
    rewrite (read_be_write 4) in E by (change (2 ^ (8 * Z.of_nat 4)) with 4294967296; unfold u8_max in *; lia).
    destruct (Z.ltb_spec u8_max sf); [lia|].
    rewrite (read_be_write 8) in E by (change (2 ^ (8 * Z.of_nat 8)) with (u64_max + 1); lia).
    rewrite (read_be_write 8) in E by (change (2 ^ (8 * Z.of_nat 8)) with (u64_max + 1); lia).
    rewrite (read_be_write 8) in E by (change (2 ^ (8 * Z.of_nat 8)) with (u64_max + 1); unfold u64_max; lia).
    rewrite Z.eqb_refl in E. cbn [negb] in E. rewrite new_with_bounds_ok in E by auto. rewrite CC in E. discriminate. }
  pose proof E as E'. rewrite deserialize_v2_image in E' by auto.
  destruct (decode_payload checks p (fresh T lo hi sf)) as [[h1|e]|] eqn:DP; cbn [bind] in E'; try discriminate. injection E' as -> <-.
  split; [reflexivity|].
  assert (FI : Forall (fun t => i64_min < t <= cmax T) ts /\ zlen (expand ts) <= usize_max /\
    (forall i, 0 <= i -> zn (expand ts) i <> 0 -> i < zlen (h_counts (fresh T lo hi sf)))).
  { rewrite decode_payload_eq in DP by (auto; unfold usize_max, u64_max, u32_max in *; lia).
    rewrite (slow_numbers_all checks p ts) in DP by auto.
    destruct (run_toks checks ts 0 restat_new (fresh T lo hi sf)) as [[[[d rs] h2]|e]|] eqn:SL; cbn [bind] in DP; try discriminate.
    apply (run_some checks (fresh T lo hi sf)) in SL; [|eapply numbers_toks; eauto|apply dinv_fresh; auto|unfold usize_max, u64_max; lia].
    destruct SL as (A & B & C & D). split; [exact A|]. split; [lia|]. exact D. }
  destruct FI as (A & B & C).
  destruct (image_reads checks cd buf T lo hi sf p ts rest UL UH US CC FP PL N A B C) as (h2 & cs & E2 & D & Q).
  assert (h2 = h) by congruence. subst h2.
  pose proof (dc_wf _ _ _ _ _ _ D) as W. pose proof (w_cfg h W) as CF.
  split; [apply D|]. split; [apply D|]. split; [apply D|]. split; [apply D|]. split; [apply D|].
  split; [unfold len; rewrite (dc_total _ _ _ _ _ _ D), held_total, (dc_counts _ _ _ _ _ _ D) by auto; reflexivity|].
  split; [apply max_agrees_iff; auto; apply D|]. split; [apply min_agrees_iff; auto; apply D|].
  intros v i V CV EI. rewrite index_for_ok in EI by auto. fold (bin h v) in EI. injection EI as <-.
  apply covers_bin in CV; auto. rewrite count_at_ok by auto. rewrite cbin_in by lia. f_equal.
  rewrite (dc_counts _ _ _ _ _ _ D). apply Q. apply bin_nonneg; auto. apply V.
Qed.
(*EX
Example ex_C64_meaning : let p := [5; 138; 0; 3; 2] in let ts := [-3; 5; -2; 1] in
  is_u64 1 /\ is_u64 1000 /\ is_u8 1 /\ bytes p /\ zlen p <= u32_max /\ numbers p ts /\
  match deserialize true plain [] U8 (v2_image 1 1000 1 p ++ [9]) with
  | Ret (ROk (h, rest)) => rest = [9] /\ is_u64 6 /\ covers h 6 /\ index_for h 6 = Ret (Some 6) /\ nth (Z.to_nat 6) (expand ts) 0 = 1 /\ count_at h 6 = Ret 1 /\
      held h = [(3, 5); (6, 1)] /\ len h = 6
  | _ => False end.
Proof. ser_case. Qed.
EX*)

(** C64: a header that asks for more than this crate supports, or for a histogram that cannot be created, is rejected, whatever follows *)
Lemma C64_header_errors_proof : forall checks cd buf T plen offset digits lo hi ratio rest,
  0 <= plen <= u32_max -> 0 <= offset <= u32_max -> 0 <= digits <= u32_max -> is_u64 lo -> is_u64 hi -> is_u64 ratio ->
  let start := big_endian 4 0x1c849313 ++ big_endian 4 plen ++ big_endian 4 offset in
  let header := start ++ big_endian 4 digits ++ big_endian 8 lo ++ big_endian 8 hi ++ big_endian 8 ratio in
  (offset <> 0 -> deserialize checks cd buf T (start ++ rest) = Ret (RErr UnsupportedFeature)) /\
  (offset = 0 -> 255 < digits -> deserialize checks cd buf T (start ++ big_endian 4 digits ++ rest) = Ret (RErr InvalidParameters)) /\
  (offset = 0 -> digits <= 255 -> ratio <> 0x3ff0000000000000 ->
     deserialize checks cd buf T (header ++ rest) = Ret (RErr UnsupportedFeature)) /\
  (offset = 0 -> digits <= 255 -> ratio = 0x3ff0000000000000 ->
     forall e, new_with_bounds T lo hi digits = Ret (RErr e) ->
     deserialize checks cd buf T (header ++ rest) = Ret (RErr InvalidParameters)).
Proof.
  intros checks cd buf T plen offset digits lo hi ratio rest. intros P O D L H R. cbn zeta. unfold is_u64, u32_max in *.
  rewrite !big_endian_write by lia. rewrite <- !app_assoc. unfold deserialize.
  rewrite !(read_be_write 4) by apply cookie_small. change (0x1c849313 =? V2_COOKIE) with true. cbn iota. unfold deser_v2.
  rewrite !(read_be_write 4 plen) by (change (2 ^ (8 * Z.of_nat 4)) with 4294967296; lia).
  rewrite !(read_be_write 4 offset) by (change (2 ^ (8 * Z.of_nat 4)) with 4294967296; lia).
  rewrite !(read_be_write 4 digits) by (change (2 ^ (8 * Z.of_nat 4)) with 4294967296; lia).
  rewrite !(read_be_write 8) by (change (2 ^ (8 * Z.of_nat 8)) with (u64_max + 1); lia).
  split; [intros N; destruct (Z.eqb_spec offset 0); [contradiction|]; reflexivity|].
  split; [intros -> G; cbn [Z.eqb negb]; destruct (Z.ltb_spec u8_max digits); [reflexivity|unfold u8_max in *; lia]|].
  split.
  - intros -> G N. cbn [Z.eqb negb]. destruct (Z.ltb_spec u8_max digits); [unfold u8_max in *; lia|].
    destruct (Z.eqb_spec ratio 4607182418800017408); [contradiction|]. reflexivity.
  - intros -> G -> e EN. cbn [Z.eqb negb]. destruct (Z.ltb_spec u8_max digits); [unfold u8_max in *; lia|].
    change (0x3ff0000000000000 =? 4607182418800017408) with true. cbn [negb]. rewrite EN. reflexivity.
Qed.

(*EX
Example ex_C64_header_errors :
  let header offset digits lo ratio := big_endian 4 0x1c849313 ++ big_endian 4 1 ++ big_endian 4 offset ++ big_endian 4 digits ++ big_endian 8 lo ++
                                       big_endian 8 1000 ++ big_endian 8 ratio in
  let read bs := deserialize true plain [] U64 (bs ++ [2]) in
  read (header 3 2 1 0x3ff0000000000000) = Ret (RErr UnsupportedFeature) /\
  read (header 0 256 1 0x3ff0000000000000) = Ret (RErr InvalidParameters) /\
  read (header 0 2 1 0x4000000000000000) = Ret (RErr UnsupportedFeature) /\
  new_with_bounds U64 0 1000 2 = Ret (RErr LowIsZero) /\ read (header 0 2 0 0x3ff0000000000000) = Ret (RErr InvalidParameters) /\
  match read (header 0 2 1 0x3ff0000000000000) with Ret (ROk (h, rest)) => held h = [(0, 1)] /\ rest = [] | _ => False end.
Proof. ser_case. Qed.
EX*)

(** C64: the first number of the payload that does not fit decides the error; so do bytes that end within a number *)
Lemma C64_payload_errors_proof : forall checks cd buf T lo hi sf h0 p1 ts p2 rest, is_u64 lo -> is_u64 hi -> is_u8 sf ->
  bytes (p1 ++ p2) -> zlen (p1 ++ p2) <= u32_max -> new_with_bounds T lo hi sf = Ret (ROk h0) ->
  numbers p1 ts -> fits T (distinct_values h0) ts ->
  let outcome := deserialize checks cd buf T (v2_image lo hi sf (p1 ++ p2) ++ rest) in
  (forall t c p3, p2 = c ++ p3 -> number 8 c (zig_zag t) ->
     (t = i64_min -> outcome = if checks then Panic else Ret (RErr DeUsizeTypeTooSmall)) /\
     (cmax T < t -> outcome = Ret (RErr UnsuitableCounterType)) /\
     (0 < t <= cmax T -> distinct_values h0 <= zlen (expand ts) -> outcome = Ret (RErr EncodedArrayTooLong)) /\
     (i64_min < t <= 0 -> usize_max < zlen (expand (ts ++ [t])) -> outcome = Ret (RErr DeUsizeTypeTooSmall))) /\
  (p2 <> [] -> (forall c p3 x, p2 = c ++ p3 -> ~ number 8 c x) -> outcome = Ret (RErr DeIoError)).
Proof.
  intros checks cd buf T lo hi sf h0 p1 ts p2 rest. intros UL UH US F PL EN N FI. cbn zeta.
  destruct (created_wf T lo hi sf h0 UL UH US EN) as (-> & CC & WF & _).
  pose proof FI as FI0. apply fits_zn in FI. destruct FI as (A & B & C).
  rewrite deserialize_v2_image by auto.
  destruct (after_numbers checks T lo hi sf p1 ts p2 UL UH US CC F PL N A B C) as (rs & h & DI & Q & ->).
  pose proof (proj2 (proj1 (Forall_app _ _ _) F)) as F2. set (h0 := fresh T lo hi sf) in *.
  split.
  - intros t c p3 EP NT. rewrite EP in *. pose proof (proj1 (proj1 (Forall_app _ _ _) F2)) as FC.
    destruct (number_tok c t FC NT) as (TK & DZ).
    assert (SL : slow checks (c ++ p3) (zlen (expand ts)) rs h =
      (r <- on_decoded_num checks (zlen (expand ts)) t rs h ;; match r with RErr e => Ret (RErr e) | ROk (d', rs', h') => slow checks p3 d' rs' h' end)).
    { rewrite slow_step by auto. pose proof (number_nonempty _ _ _ NT) as NE. destruct c as [|b c]; [contradiction|]. cbn [app].
      replace (varint_read (b :: c ++ p3)) with (Some (zig_zag t, p3)); [rewrite DZ; reflexivity|].
      symmetry. apply varint_read_iff; [exact F2|]. exists (b :: c). auto. }
    rewrite SL, (step_cases checks h0) by auto. change (h_ctr h0) with T.
    change (distinct_values h0) with (zlen (h_counts h0)). unfold i64_min, tok_ok in *.
    assert (CM : 0 < cmax T) by (destruct T; reflexivity).
    split; [intros ->; destruct checks; reflexivity|].
    destruct (Z.eqb_spec t (-9223372036854775808)) as [->|NM].
    { split; [lia|]. split; lia. }
    split; [intros G; destruct (Z.ltb_spec (cmax T) t); [reflexivity|lia]|].
    split.
    + intros G D. destruct (Z.ltb_spec (cmax T) t); [lia|]. destruct (Z.ltb_spec 0 t); [|lia].
      destruct (Z.leb_spec (zlen (h_counts h0)) (zlen (expand ts))); [|lia]. reflexivity.
    + intros G D. destruct (Z.ltb_spec (cmax T) t); [lia|]. destruct (Z.ltb_spec 0 t); [lia|]. cbn [andb].
      rewrite expand_app, zlen_app, expand_one_len in D. destruct (Z.ltb_spec usize_max (zlen (expand ts) + tok_len t)); [|lia]. reflexivity.
  - intros NE NN. rewrite slow_step by auto. destruct p2 as [|b p2]; [contradiction|].
    destruct (varint_read (b :: p2)) as [[x c']|] eqn:V; [|reflexivity].
    apply varint_read_iff in V; auto. destruct V as (c & EC & NC). exfalso. eapply NN; eauto.
Qed.

(*EX
(** 256 does not fit a U8 counter, 5 has no class left to go to, a number is cut off *)
Example ex_C64_payload_errors :
  let read p := deserialize true plain [] U8 (v2_image 1 1000 1 p) in
  match new_with_bounds U8 1 1000 1 with
  | Ret (ROk h0) => distinct_values h0 = 112 /\
      numbers [2] [1] /\ fits U8 (distinct_values h0) [1] /\
      number 8 [128; 4] (zig_zag 256) /\ cmax U8 < 256 /\ read ([2] ++ [128; 4] ++ [255]) = Ret (RErr UnsuitableCounterType) /\
      numbers [2; 255; 1] [1; -128] /\ fits U8 (distinct_values h0) [1; -128] /\
      number 8 [10] (zig_zag 5) /\ distinct_values h0 <= zlen (expand [1; -128]) /\ read ([2; 255; 1] ++ [10]) = Ret (RErr EncodedArrayTooLong) /\
      (forall c p3 x, [128] = c ++ p3 -> ~ number 8 c x) /\ read ([2] ++ [128]) = Ret (RErr DeIoError) /\
      number 8 [255; 255; 255; 255; 255; 255; 255; 255; 255] (zig_zag i64_min) /\
      read ([2] ++ [255; 255; 255; 255; 255; 255; 255; 255; 255]) = Panic
  | _ => False end.
Proof. ser_case. Qed.
EX*)

(** C64: input that ends before the end of the payload the header announces is an i/o error, whatever the payload *)
Lemma C64_truncated_proof : forall checks cd buf T lo hi sf h0 p k, is_u64 lo -> is_u64 hi -> is_u8 sf -> zlen p <= u32_max ->
  new_with_bounds T lo hi sf = Ret (ROk h0) -> (k < length (v2_image lo hi sf p))%nat ->
  deserialize checks cd buf T (firstn k (v2_image lo hi sf p)) = Ret (RErr DeIoError).
Proof.
  intros checks cd buf T lo hi sf h0 p k. intros UL UH US PL EN K. destruct (created_wf T lo hi sf h0 UL UH US EN) as (-> & CC & _).
  pose proof (v2_image_header lo hi sf p [] UL UH ltac:(apply US)) as EH. rewrite !app_nil_r in EH. rewrite EH in *. pose proof (zlen_nonneg p).
  unfold deserialize. rewrite (read_be_prefix 4) by apply cookie_small. destruct (Nat.ltb_spec k 4); [reflexivity|]. rewrite Z.eqb_refl.
  apply deser_v2_prefix; auto; [unfold u32_max in *; lia|]. unfold header in K. rewrite !app_length, !be_write_len in K. lia.
Qed.
(*EX
Example ex_C64_truncated : is_u64 1 /\ is_u64 1000 /\ is_u8 1 /\ zlen [2; 128; 4] <= u32_max /\
  match new_with_bounds U8 1 1000 1 with Ret (ROk _) => True | _ => False end /\ (42 < length (v2_image 1 1000 1 [2; 128; 4]%Z))%nat /\
  deserialize true plain [] U8 (firstn 42 (v2_image 1 1000 1 [2; 128; 4])) = Ret (RErr DeIoError) /\
  deserialize true plain [] U8 (firstn 20 (v2_image 1 1000 1 [2; 128; 4])) = Ret (RErr DeIoError).
Proof. ser_case. Qed.
EX*)

(** C64: the compressed format is the plain one behind a decompressor: what is decompressed from the announced number of bytes must start with the cookie of the plain format and is then read like any plain input *)
Lemma C64_compressed_proof : forall checks cd buf T n body, codec_ok cd -> bytes body -> 0 <= n <= u32_max ->
  let z := firstn (Z.to_nat n) body in
  let outcome := deserialize checks cd buf T (big_endian 4 0x1c849314 ++ big_endian 4 n ++ body) in
  (zlen (inflate cd z) < 4 -> outcome = Ret (RErr DeIoError)) /\
  (4 <= zlen (inflate cd z) -> firstn 4 (inflate cd z) <> big_endian 4 0x1c849313 -> outcome = Ret (RErr InvalidCookie)) /\
  (firstn 4 (inflate cd z) = big_endian 4 0x1c849313 ->
     outcome = match deserialize checks cd buf T (inflate cd z) with
               | Panic => Panic
               | Ret (RErr e) => Ret (RErr e)
               | Ret (ROk (h, _)) => Ret (ROk (h, skipn (Z.to_nat (inflate_used cd z)) body))
               end).
Proof.
  intros checks cd buf T n body. intros CD F N. cbn zeta. unfold u32_max in N. rewrite !big_endian_write by lia.
  unfold deserialize at 1 2 3. rewrite (read_be_write 4 0x1c849314) by apply ccookie_small.
  change (0x1c849314 =? V2_COOKIE) with false. change (0x1c849314 =? V2_COMPRESSED_COOKIE) with true. cbn iota.
  unfold deser_v2_compressed. rewrite (read_be_write 4) by (change (2 ^ (8 * Z.of_nat 4)) with 4294967296; lia). cbn zeta.
  set (z := firstn (Z.to_nat n) body). destruct (CD z ltac:(apply Forall_firstn; exact F)) as (FI & _). set (d := inflate cd z) in *.
  change (be_write 4 478450451) with (be_write 4 V2_COOKIE).
  split; [intros L; rewrite read_be_short by auto; reflexivity|]. split.
  - intros L NC. destruct (read_be 4 d) as [[ck d']|] eqn:E.
    + destruct (read_be_inv 4 d ck d' FI E) as (B & R & _). destruct (Z.eqb_spec ck V2_COOKIE) as [->|]; cbn [negb]; [|reflexivity].
      exfalso. apply NC. rewrite B. rewrite big_endian_write by lia. rewrite firstn_app_at by (rewrite be_write_len; reflexivity). reflexivity.
    + unfold read_be, read_exact in E. destruct (Z.leb_spec 4 (zlen d)); [discriminate|lia].
  - intros CK. assert (B : d = be_write 4 V2_COOKIE ++ skipn 4 d) by (rewrite <- CK at 1; symmetry; apply firstn_skipn).
    unfold deserialize. rewrite B. rewrite (read_be_write 4) by apply cookie_small. rewrite Z.eqb_refl. cbn [negb].
    destruct (deser_v2 checks buf T (skipn 4 d)) as [[[h r]|e]|]; reflexivity.
Qed.
(*EX
(** with the decompressor that reads every byte twice: three bytes are too few, another cookie, an image *)
Example ex_C64_compressed : let read n body := deserialize true twice [] U8 (big_endian 4 0x1c849314 ++ big_endian 4 n ++ body) in
  let image := v2_image 1 1000 1 [2] in
  codec_ok twice /\ bytes (deflate twice image ++ [7]) /\ 0 <= 83 <= u32_max /\ zlen (deflate twice image) = 83 /\
  zlen (inflate twice (firstn 6 (deflate twice image))) = 3 /\ read 6 (deflate twice image) = Ret (RErr DeIoError) /\
  read 8 [28; 28; 132; 132; 147; 147; 20; 20] = Ret (RErr InvalidCookie) /\
  inflate twice (firstn 83 (deflate twice image ++ [7])) = image /\
  match read 83 (deflate twice image ++ [7]) with
  | Ret (ROk (h, rest)) => held h = [(0, 1)] /\ rest = [0; 7]
  | _ => False end.
Proof. ser_case. Qed.
EX*)

(** ** Canonical form *)
Lemma toks_first zc cs : 0 <= zc -> Forall (fun c => 0 <= c) cs ->
  ~ In (-1) (toks zc cs) /\ (forall before a b after, toks zc cs = before ++ a :: b :: after -> 0 < a \/ 0 < b).
Proof.
  intros Z0 F. revert zc Z0. induction F as [|c cs C F IH]; intros zc Z0; cbn [toks].
  - unfold flush. destruct (Z.eqb_spec zc 0); [split; [auto|intros [|? []]; discriminate]|].
    destruct (Z.eqb_spec zc 1); (split; [intros [|[]]; lia|]); intros [|? [|? ?]] ? ? ? E; discriminate.
  - destruct (Z.eqb_spec c 0) as [->|NZ]; [apply IH; lia|].
    destruct (IH 0 ltac:(lia)) as (I1 & I2).
    assert (G : ~ In (-1) (c :: toks 0 cs) /\ (forall before a b after, c :: toks 0 cs = before ++ a :: b :: after -> 0 < a \/ 0 < b)).
    { split; [intros [|]; [lia|auto]|]. intros [|x before] a b after E; cbn [app] in E.
      - injection E as <- _. left. lia.
      - injection E as _ E. eapply I2; eauto. }
    unfold flush. destruct (Z.eqb_spec zc 0); [exact G|].
    destruct (Z.eqb_spec zc 1) as [->|N1].
    + destruct G as (G1 & G2). split; [intros [|]; [lia|auto]|]. intros [|x before] a b after E; cbn [app] in E.
      * injection E as _ <- _. right. lia.
      * injection E as _ E. eapply G2; eauto.
    + destruct G as (G1 & G2). split; [intros [|]; [lia|auto]|]. intros [|x before] a b after E; cbn [app] in E.
      * injection E as _ <- _. right. lia.
      * injection E as _ E. eapply G2; eauto.
Qed.

(** C65: the serializer writes its counts in the shortest way: a run of zeros is one number, a single zero is a count of zero *)
Lemma C65_canonical_proof : forall junk h bs, reachable h -> v2_serialize junk h = Ret (ROk bs) ->
  exists ts, bs = v2_format (h_low h) (h_high h) (h_sigfig h) ts /\ canonical ts /\ ts <> [].
Proof.
  intros junk h bs. intros R E. pose proof (reachable_wf h R) as W. destruct (ser_inv junk h bs W E) as (-> & F).
  pose proof (coded_facts h W) as (B & ZC & CB & ZN & FI).
  assert (CP : Forall (fun c => 0 <= c) (coded h)) by (eapply Forall_impl; [|exact CB]; cbn; lia).
  exists (toks 0 (coded h)). split; [apply image_format; auto|]. split; [apply toks_first; auto; lia|].
  intros EN. pose proof (toks_expand (coded h) CP 0 ltac:(lia)) as X. rewrite EN in X. cbn in X. rewrite <- X in ZC. change (zlen (@nil Z)) with 0 in ZC. lia.
Qed.
(*EX
Example ex_C65_canonical : match build U16 1 10000 2 false [(0, 300); (3, 7); (5, 1); (500, 2)] with
  | Some h => reachable h /\ v2_serialize (fun _ => 77) h = Ret (ROk (v2_format 1 10000 2 [300; -2; 7; 0; 1; -372; 2])) /\
      canonical [300; -2; 7; 0; 1; -372; 2]
  | None => False end.
Proof. ser_case. Qed.
EX*)

(** the numbers are determined by the counts *)
Lemma canonical_tail t ts : canonical (t :: ts) -> canonical ts.
Proof.
  intros (A & B). split; [intros I; apply A; right; auto|]. intros before a b after E. apply (B (t :: before) a b after). rewrite E. reflexivity.
Qed.

(** leading zeros of what canonical numbers stand for *)
Lemma lead_zero ts : canonical ts -> lead (expand ts) = match ts with t :: _ => if t <? 0 then Z.to_nat (- t) else if t =? 0 then 1%nat else 0%nat | [] => 0%nat end.
Proof.
  intros CA. destruct ts as [|t ts]; [reflexivity|]. cbn [expand].
  assert (NX : t <= 0 -> lead (expand ts) = 0%nat).
  { intros T. destruct ts as [|u ts]; [reflexivity|]. destruct CA as (_ & B). destruct (B [] t u ts eq_refl) as [|U]; [lia|].
    cbn [expand]. destruct (Z.ltb_spec u 0); [lia|]. cbn [app lead]. destruct (Z.eqb_spec u 0); [lia|]. reflexivity. }
  assert (LR : forall k l, lead (repeat 0 k ++ l) = (k + lead l)%nat) by (induction k as [|k IH]; intros l; cbn [repeat app lead Z.eqb plus]; [reflexivity|]; rewrite IH; reflexivity).
  destruct (Z.ltb_spec t 0).
  - rewrite LR, NX by lia. lia.
  - cbn [app lead]. destruct (Z.eqb_spec t 0); [|reflexivity]. rewrite NX by lia. reflexivity.
Qed.

(** C65: and there is no other such way to write the same counts *)
Lemma C65_unique_proof : forall ts1 ts2, canonical ts1 -> canonical ts2 -> expand ts1 = expand ts2 -> ts1 = ts2.
Proof.
  induction ts1 as [|t ts1 IH]; intros ts2 C1 C2 E.
  - destruct ts2 as [|u ts2]; [reflexivity|]. exfalso. cbn [expand] in E. destruct (Z.ltb_spec u 0); [|discriminate].
    destruct (Z.to_nat (- u)) eqn:Q; [lia|discriminate].
  - destruct ts2 as [|u ts2].
    { exfalso. cbn [expand] in E. destruct (Z.ltb_spec t 0); [|discriminate]. destruct (Z.to_nat (- t)) eqn:Q; [lia|discriminate]. }
    pose proof (lead_zero _ C1) as L1. pose proof (lead_zero _ C2) as L2. rewrite E, L2 in L1.
    assert (N1 : t <> -1) by (intros ->; apply (proj1 C1); left; reflexivity).
    assert (N2 : u <> -1) by (intros ->; apply (proj1 C2); left; reflexivity).
    assert (TU : t = u).
    { cbn [expand] in E. destruct (Z.ltb_spec t 0), (Z.ltb_spec u 0); try lia.
      - destruct (Z.eqb_spec u 0); lia.
      - destruct (Z.eqb_spec t 0); lia.
      - injection E as -> _. reflexivity. }
    subst u. f_equal. apply IH; [eapply canonical_tail; eauto|eapply canonical_tail; eauto|].
    cbn [expand] in E. apply app_inv_head in E. exact E.
Qed.

(*EX
Example ex_C65_unique : canonical [300; -2; 7; -374; 2] /\ ~ canonical [300; 0; 0; 7] /\ ~ canonical [-2; -3] /\
  expand [300; 0; 0; 7] = expand [300; -2; 7].
Proof.
  split; [|split; [|split; [|reflexivity]]].
  - split; [cbn; intros H; repeat (destruct H as [H|H]; [discriminate|]); destruct H|].
    intros before a b after E. destruct before as [|x1 [|x2 [|x3 [|x4 [|x5 before]]]]]; cbn [app] in E; inversion E; subst; try (vm_compute; auto).
    destruct before; discriminate.
  - intros (_ & H). destruct (H [300] 0 0 [7] eq_refl); discriminate.
  - intros (_ & H). destruct (H [] (-2) (-3) [] eq_refl); discriminate.
Qed.
EX*)

Lemma payload_inj ts1 : forall ts2, Forall tok_ok ts1 -> Forall tok_ok ts2 -> code ts1 = code ts2 -> ts1 = ts2.
Proof.
  induction ts1 as [|t ts1 IH]; intros ts2 F1 F2 E; destruct ts2 as [|u ts2]; auto.
  - exfalso. pose proof (code_len (u :: ts2)) as L. rewrite <- E in L. cbn in L. lia.
  - exfalso. pose proof (code_len (t :: ts1)) as L. rewrite E in L. cbn in L. lia.
  - inversion F1 as [|? ? T1 F1']; inversion F2 as [|? ? T2 F2']; subst.
    change (varint (zig_zag_encode t) ++ code ts1 = varint (zig_zag_encode u) ++ code ts2) in E.
    pose proof (varint_read_ok (zig_zag_encode t) (code ts1) (zz_encode_range t T1)) as R1.
    pose proof (varint_read_ok (zig_zag_encode u) (code ts2) (zz_encode_range u T2)) as R2.
    rewrite E, R2 in R1. injection R1 as RZ RC. rewrite <- (zz_inv t T1), <- (zz_inv u T2), RZ. f_equal. apply IH; auto.
Qed.

Lemma held_counts a b : wf a -> wf b -> h_um a = h_um b -> h_half_mag a = h_half_mag b -> held a = held b ->
  forall i, 0 <= i -> zn (h_counts a) i = zn (h_counts b) i.
Proof.
  assert (G : forall a b, wf a -> wf b -> h_um a = h_um b -> h_half_mag a = h_half_mag b -> held a = held b ->
    forall i, 0 <= i -> zn (h_counts a) i <> 0 -> zn (h_counts a) i = zn (h_counts b) i).
  { intros x y WX WY U M H i I0 NZ. pose proof (contents_mem x i WX I0 NZ) as I. rewrite <- held_contents, H in I by auto.
    apply held_in in I; auto. destruct I as (_ & _ & E & _). rewrite E. f_equal.
    replace (bval x i) with (bval y i) by (unfold bval; rewrite U, M; reflexivity).
    apply bin_bval; auto. apply (w_cfg y WY). }
  intros WA WB U M H i I0. destruct (Z.eq_dec (zn (h_counts a) i) 0) as [Z1|N1]; [|apply G; auto].
  destruct (Z.eq_dec (zn (h_counts b) i) 0) as [Z2|N2]; [congruence|]. symmetry. apply G; auto.
Qed.

(** C65: two histograms are written as the same bytes exactly if they have the same bounds, precision and samples and their maxima are in the same class *)
Lemma C65_same_bytes_proof : forall junk1 junk2 h1 h2 bs1 bs2 m1 m2, reachable h1 -> reachable h2 ->
  v2_serialize junk1 h1 = Ret (ROk bs1) -> v2_serialize junk2 h2 = Ret (ROk bs2) -> max h1 = Ret m1 -> max h2 = Ret m2 ->
  (bs1 = bs2 <->
   h_low h1 = h_low h2 /\ h_high h1 = h_high h2 /\ h_sigfig h1 = h_sigfig h2 /\ held h1 = held h2 /\ equivalent h1 m1 m2 = Ret true).
Proof.
  intros junk1 junk2 h1 h2 bs1 bs2 m1 m2. intros R1 R2 E1 E2 M1 M2.
  pose proof (reachable_wf h1 R1) as W1. pose proof (reachable_wf h2 R2) as W2. pose proof (w_cfg h1 W1) as C1. pose proof (w_cfg h2 W2) as C2.
  destruct (ser_inv _ _ _ W1 E1) as (-> & F1). destruct (ser_inv _ _ _ W2 E2) as (-> & F2).
  rewrite max_ok in M1, M2 by auto. injection M1 as <-. injection M2 as <-.
  destruct (coded_facts h1 W1) as (B1 & ZC1 & CB1 & ZN1 & FI1). destruct (coded_facts h2 W2) as (B2 & ZC2 & CB2 & ZN2 & FI2).
  destruct (payload_ok h1 W1 F1) as (_ & TK1 & FC1). destruct (payload_ok h2 W2 F2) as (_ & TK2 & FC2).
  assert (CP1 : Forall (fun c => 0 <= c) (coded h1)) by (eapply Forall_impl; [|exact CB1]; cbn; lia).
  assert (CP2 : Forall (fun c => 0 <= c) (coded h2)) by (eapply Forall_impl; [|exact CB2]; cbn; lia).
  rewrite equivalent_bin by (auto using maxp_u64).
  assert (SHAPE : h_low h1 = h_low h2 -> h_sigfig h1 = h_sigfig h2 -> h_um h1 = h_um h2 /\ h_half_mag h1 = h_half_mag h2).
  { intros L S. rewrite (c_um h1 C1), (c_um h2 C2), (c_m h1 C1), (c_m h2 C2), L, S. auto. }
  assert (BINS : h_um h1 = h_um h2 -> h_half_mag h1 = h_half_mag h2 -> bin h1 (maxp h1) = bin h1 (h_max h1) /\ bin h1 (maxp h2) = bin h2 (h_max h2)).
  { intros U M. split; [apply bin_maxp; auto|]. rewrite <- (bin_maxp h2 W2). unfold bin. rewrite U, M. reflexivity. }
  split.
  - intros E.
    assert (HD : h_low h1 = h_low h2 /\ h_high h1 = h_high h2 /\ h_sigfig h1 = h_sigfig h2 /\ payload h1 = payload h2).
    { rewrite !image_header in E. apply app_inv_head in E. unfold header in E. rewrite <- !app_assoc in E.
      destruct (self_params h1 C1) as (UL1 & UH1 & US1 & _). destruct (self_params h2 C2) as (UL2 & UH2 & US2 & _). unfold u64, u8_max in *.
      pose proof (payload_small h1 W1) as (PS1 & PS1b). pose proof (payload_small h2 W2) as (PS2 & PS2b). pose proof (zlen_nonneg (payload h1)). pose proof (zlen_nonneg (payload h2)).
      assert (NX : forall n a b r s, 0 <= a < 2 ^ (8 * Z.of_nat n) -> 0 <= b < 2 ^ (8 * Z.of_nat n) -> be_write n a ++ r = be_write n b ++ s -> a = b /\ r = s).
      { intros n a b r s A B X. pose proof (read_be_write n a r A) as Q1. rewrite X, read_be_write in Q1 by auto. injection Q1 as -> ->. auto. }
      apply NX in E; [|change (2 ^ (8 * Z.of_nat 4)) with 4294967296; lia|change (2 ^ (8 * Z.of_nat 4)) with 4294967296; lia]. destruct E as (_ & E).
      apply app_inv_head in E.
      apply NX in E; [|change (2 ^ (8 * Z.of_nat 4)) with 4294967296; lia|change (2 ^ (8 * Z.of_nat 4)) with 4294967296; lia]. destruct E as (ES & E).
      apply NX in E; [|change (2 ^ (8 * Z.of_nat 8)) with (u64_max + 1); lia|change (2 ^ (8 * Z.of_nat 8)) with (u64_max + 1); lia]. destruct E as (EL & E).
      apply NX in E; [|change (2 ^ (8 * Z.of_nat 8)) with (u64_max + 1); lia|change (2 ^ (8 * Z.of_nat 8)) with (u64_max + 1); lia]. destruct E as (EH & E).
      apply app_inv_head in E. auto. }
    destruct HD as (EL & EH & ES & EP). destruct (SHAPE EL ES) as (EU & EM). destruct (BINS EU EM) as (Q1 & Q2).
    unfold payload in EP. apply payload_inj in EP; auto.
    assert (EC : coded h1 = coded h2).
    { pose proof (toks_expand (coded h1) CP1 0 ltac:(lia)) as X1. pose proof (toks_expand (coded h2) CP2 0 ltac:(lia)) as X2. rewrite EP in X1. cbn [Z.to_nat repeat app] in *. congruence. }
    split; [auto|]. split; [auto|]. split; [auto|]. split.
    + apply held_ext; auto. intros j J. rewrite <- ZN1, <- ZN2, EC by auto. reflexivity.
    + rewrite Q1, Q2. f_equal. apply Z.eqb_eq. rewrite EC in ZC1. lia.
  - intros (EL & EH & ES & HE & EQ). destruct (SHAPE EL ES) as (EU & EM). destruct (BINS EU EM) as (Q1 & Q2).
    rewrite Q1, Q2 in EQ. assert (EB : bin h1 (h_max h1) = bin h2 (h_max h2)) by (injection EQ as EQ; lia).
    pose proof (held_counts h1 h2 W1 W2 EU EM HE) as CE.
    assert (EC : coded h1 = coded h2).
    { apply list_ext; [lia|]. intros i I0. rewrite ZN1, ZN2 by auto. auto. }
    unfold image, payload. rewrite EC, EL, EH, ES. reflexivity.
Qed.

(*EX
(** three histograms holding the same samples, of different counter types or after a subtraction *)
Example ex_C65_same_bytes :
  match build U16 1 10000 2 false [(3, 7); (500, 2)], build U64 1 10000 2 true [(500, 2); (3, 7)],
        build U16 1 10000 2 false [(3, 7); (500, 2); (9000, 1)] with
  | Some h1, Some h2, Some h3 => match build U16 1 10000 2 false [(9000, 1)] with
      | Some s => match subtract h3 s with
          | Ret (h4, ROk tt) => v2_serialize (fun _ => 7) h1 = v2_serialize (fun _ => 9) h2 /\ held h4 = held h1 /\
              max h4 = Ret 501 /\ v2_serialize (fun _ => 7) h4 = v2_serialize (fun _ => 7) h1
          | _ => False end
      | None => False end
  | _, _, _ => False end.
Proof. vm_compute. auto. Qed.
EX*)

(** C65: writing what was read back gives the same bytes, if the maximum of the histogram written agreed with its samples *)
Lemma C65_rewritten_proof : forall checks cd buf junk1 junk2 h bs rest h' rest', reachable h -> max_agrees h ->
  v2_serialize junk1 h = Ret (ROk bs) -> deserialize checks cd buf (h_ctr h) (bs ++ rest) = Ret (ROk (h', rest')) ->
  v2_serialize junk2 h' = Ret (ROk bs).
Proof.
  intros checks cd buf junk1 junk2 h bs rest h' rest'. intros R MA E ED. pose proof (reachable_wf h R) as W. pose proof (w_cfg h W) as C.
  destruct (C32_round_trip_proof checks cd buf junk1 h bs rest R E) as (h2 & E2 & R2 & CT & HE & EL & EH & ES & DV & _ & _ & MX & _).
  assert (h2 = h') by congruence. subst h2. pose proof (reachable_wf h' R2) as W2. pose proof (w_cfg h' W2) as C2.
  destruct (ser_inv _ _ _ W E) as (EB & F).
  assert (FIT : counts_fit_i64 h') by (unfold counts_fit_i64; rewrite HE; apply (fits_iff h W); exact F).
  destruct (C33_serializable_proof junk2 h' R2) as (_ & S). destruct (S FIT) as (bs2 & ES2 & _). rewrite ES2. do 2 f_equal.
  eapply (C65_same_bytes_proof junk2 junk1 h' h bs2 bs (maxp h') (maxp h)); eauto using max_ok.
  repeat (split; [assumption|]). rewrite equivalent_bin by (auto using maxp_u64). f_equal. apply Z.eqb_eq.
  assert (EU : h_um h' = h_um h /\ h_half_mag h' = h_half_mag h) by (rewrite (c_um h C), (c_um h' C2), (c_m h C), (c_m h' C2), EL, ES; auto).
  destruct EU as (EU & EM). assert (BQ : forall v, bin h' v = bin h v) by (intros v; unfold bin; rewrite EU, EM; reflexivity).
  rewrite bin_maxp by auto. rewrite (BQ (maxp h)), bin_maxp by auto.
  pose proof (held_counts h' h W2 W EU EM HE) as CE.
  apply max_agrees_iff in MA; auto. apply max_agrees_iff in MX; auto.
  pose proof (bin_nonneg h (h_max h) C ltac:(apply (w_max h W))) as P1. pose proof (bin_nonneg h' (h_max h') C2 ltac:(apply (w_max h' W2))) as P2.
  destruct MA as [(A1 & A2)|A], MX as [(X1 & X2)|X].
  - lia.
  - exfalso. apply X. rewrite CE by auto. auto.
  - exfalso. apply A. rewrite <- CE by auto. auto.
  - pose proof (w_max_top h W (bin h' (h_max h')) P2) as T1. rewrite <- CE in T1 by auto. specialize (T1 X). fold (bin h (h_max h)) in T1.
    pose proof (w_max_top h' W2 (bin h (h_max h)) P1) as T2. rewrite CE in T2 by auto. specialize (T2 A). fold (bin h' (h_max h')) in T2. lia.
Qed.
(*EX
Example ex_C65_rewritten : match build U16 1 10000 2 false [(3, 7); (500, 2)] with
  | Some h => match v2_serialize (fun _ => 77) h with
      | Ret (ROk bs) => reachable h /\ max_agrees h /\ match deserialize true plain [] (h_ctr h) (bs ++ [1]) with
          | Ret (ROk (h', _)) => v2_serialize (fun _ => 78) h' = Ret (ROk bs) /\ zlen bs = 45
          | _ => False end
      | _ => False end
  | None => False end.
Proof. ser_case. Qed.
EX*)
