(** Property theorems; the proofs are in [PfImage].  Generated by tools/gen_theorems.py. *)
From Verif Require Import Machine Log2Model HistModel Spec Reach Witness Cases CasesSer SerModel SerSpec ImageSpec PfImage.

(** C64: input that starts with the cookie of the plain format is accepted exactly if it is an image: the header with its own payload length, parameters a histogram can be created with, and a payload encoding numbers that fit; nothing more of the input is consumed *)
Theorem C64_accepted : forall checks cd buf T rd rest, bytes rd -> firstn 4 rd = big_endian 4 0x1c849313 ->
  ((exists h, deserialize checks cd buf T rd = Ret (ROk (h, rest))) <->
   exists lo hi sf p ts h0, is_u64 lo /\ is_u64 hi /\ is_u8 sf /\ zlen p <= u32_max /\ rd = v2_image lo hi sf p ++ rest /\
     new_with_bounds T lo hi sf = Ret (ROk h0) /\ numbers p ts /\ fits T (distinct_values h0) ts).
Proof. exact C64_accepted_proof. Qed.
Print Assumptions C64_accepted.

(** the number 5 written with a needless byte is accepted *)
Example ex_C64_accepted : let p := [5; 138; 0] in let ts := [-3; 5] in
  bytes (v2_image 1 1000 1 p ++ [9]) /\ firstn 4 (v2_image 1 1000 1 p ++ [9]) = big_endian 4 0x1c849313 /\
  is_u64 1 /\ is_u64 1000 /\ is_u8 1 /\ zlen p <= u32_max /\ numbers p ts /\
  match new_with_bounds U8 1 1000 1 with Ret (ROk h0) => fits U8 (distinct_values h0) ts | _ => False end /\
  match deserialize true plain [] U8 (v2_image 1 1000 1 p ++ [9]) with
  | Ret (ROk (h, rest)) => held h = [(3, 5)] /\ rest = [9]
  | _ => False end.
Proof. ser_case. Qed.

(** C64: the histogram read has the parameters of the header and the counts the payload stands for; its length and extremes are computed from the counts *)
Theorem C64_meaning : forall checks cd buf T lo hi sf p ts rest h rest', is_u64 lo -> is_u64 hi -> is_u8 sf -> bytes p -> zlen p <= u32_max ->
  numbers p ts -> deserialize checks cd buf T (v2_image lo hi sf p ++ rest) = Ret (ROk (h, rest')) ->
  rest' = rest /\ h_ctr h = T /\ h_low h = lo /\ h_high h = hi /\ h_sigfig h = sf /\ h_auto h = false /\
  len h = Z.min u64_max (weight (held h)) /\ max_agrees h /\ min_agrees h /\
  forall v i, is_u64 v -> covers h v -> index_for h v = Ret (Some i) -> count_at h v = Ret (nth (Z.to_nat i) (expand ts) 0).
Proof. exact C64_meaning_proof. Qed.
Print Assumptions C64_meaning.

Example ex_C64_meaning : let p := [5; 138; 0; 3; 2] in let ts := [-3; 5; -2; 1] in
  is_u64 1 /\ is_u64 1000 /\ is_u8 1 /\ bytes p /\ zlen p <= u32_max /\ numbers p ts /\
  match deserialize true plain [] U8 (v2_image 1 1000 1 p ++ [9]) with
  | Ret (ROk (h, rest)) => rest = [9] /\ is_u64 6 /\ covers h 6 /\ index_for h 6 = Ret (Some 6) /\ nth (Z.to_nat 6) (expand ts) 0 = 1 /\ count_at h 6 = Ret 1 /\
      held h = [(3, 5); (6, 1)] /\ len h = 6
  | _ => False end.
Proof. ser_case. Qed.

(** C64: a header that asks for more than this crate supports, or for a histogram that cannot be created, is rejected, whatever follows *)
Theorem C64_header_errors : forall checks cd buf T plen offset digits lo hi ratio rest,
  0 <= plen <= u32_max -> 0 <= offset <= u32_max -> 0 <= digits <= u32_max -> is_u64 lo -> is_u64 hi -> is_u64 ratio ->
  let start := big_endian 4 0x1c849313 ++ big_endian 4 plen ++ big_endian 4 offset in
  let header := start ++ big_endian 4 digits ++ big_endian 8 lo ++ big_endian 8 hi ++ big_endian 8 ratio in
  (offset <> 0 -> deserialize checks cd buf T (start ++ rest) = Ret (RErr UnsupportedFeature)) /\
  (offset = 0 -> 255 < digits -> deserialize checks cd buf T (start ++ big_endian 4 digits ++ rest) = Ret (RErr InvalidParameters)) /\
  (offset = 0 -> digits <= 255 -> ratio <> 0x3ff0000000000000 ->
     deserialize checks cd buf T (header ++ rest) = Ret (RErr UnsupportedFeature)) /\
  (offset = 0 -> digits <= 255 -> ratio = 0x3ff0000000000000 ->
     forall e, new_with_bounds T lo hi digits = Ret (RErr e) ->
     deserialize checks cd buf T (header ++ rest) = Ret (RErr InvalidParameters)).
Proof. exact C64_header_errors_proof. Qed.
Print Assumptions C64_header_errors.

Example ex_C64_header_errors :
  let header offset digits lo ratio := big_endian 4 0x1c849313 ++ big_endian 4 1 ++ big_endian 4 offset ++ big_endian 4 digits ++ big_endian 8 lo ++
                                       big_endian 8 1000 ++ big_endian 8 ratio in
  let read bs := deserialize true plain [] U64 (bs ++ [2]) in
  read (header 3 2 1 0x3ff0000000000000) = Ret (RErr UnsupportedFeature) /\
  read (header 0 256 1 0x3ff0000000000000) = Ret (RErr InvalidParameters) /\
  read (header 0 2 1 0x4000000000000000) = Ret (RErr UnsupportedFeature) /\
  new_with_bounds U64 0 1000 2 = Ret (RErr LowIsZero) /\ read (header 0 2 0 0x3ff0000000000000) = Ret (RErr InvalidParameters) /\
  match read (header 0 2 1 0x3ff0000000000000) with Ret (ROk (h, rest)) => held h = [(0, 1)] /\ rest = [] | _ => False end.
Proof. ser_case. Qed.

(** C64: the first number of the payload that does not fit decides the error; so do bytes that end within a number *)
Theorem C64_payload_errors : forall checks cd buf T lo hi sf h0 p1 ts p2 rest, is_u64 lo -> is_u64 hi -> is_u8 sf ->
  bytes (p1 ++ p2) -> zlen (p1 ++ p2) <= u32_max -> new_with_bounds T lo hi sf = Ret (ROk h0) ->
  numbers p1 ts -> fits T (distinct_values h0) ts ->
  let outcome := deserialize checks cd buf T (v2_image lo hi sf (p1 ++ p2) ++ rest) in
  (forall t c p3, p2 = c ++ p3 -> number 8 c (zig_zag t) ->
     (t = i64_min -> outcome = if checks then Panic else Ret (RErr DeUsizeTypeTooSmall)) /\
     (cmax T < t -> outcome = Ret (RErr UnsuitableCounterType)) /\
     (0 < t <= cmax T -> distinct_values h0 <= zlen (expand ts) -> outcome = Ret (RErr EncodedArrayTooLong)) /\
     (i64_min < t <= 0 -> usize_max < zlen (expand (ts ++ [t])) -> outcome = Ret (RErr DeUsizeTypeTooSmall))) /\
  (p2 <> [] -> (forall c p3 x, p2 = c ++ p3 -> ~ number 8 c x) -> outcome = Ret (RErr DeIoError)).
Proof. exact C64_payload_errors_proof. Qed.
Print Assumptions C64_payload_errors.

(** 256 does not fit a U8 counter, 5 has no class left to go to, a number is cut off *)
Example ex_C64_payload_errors :
  let read p := deserialize true plain [] U8 (v2_image 1 1000 1 p) in
  match new_with_bounds U8 1 1000 1 with
  | Ret (ROk h0) => distinct_values h0 = 112 /\
      numbers [2] [1] /\ fits U8 (distinct_values h0) [1] /\
      number 8 [128; 4] (zig_zag 256) /\ cmax U8 < 256 /\ read ([2] ++ [128; 4] ++ [255]) = Ret (RErr UnsuitableCounterType) /\
      numbers [2; 255; 1] [1; -128] /\ fits U8 (distinct_values h0) [1; -128] /\
      number 8 [10] (zig_zag 5) /\ distinct_values h0 <= zlen (expand [1; -128]) /\ read ([2; 255; 1] ++ [10]) = Ret (RErr EncodedArrayTooLong) /\
      (forall c p3 x, [128] = c ++ p3 -> ~ number 8 c x) /\ read ([2] ++ [128]) = Ret (RErr DeIoError) /\
      number 8 [255; 255; 255; 255; 255; 255; 255; 255; 255] (zig_zag i64_min) /\
      read ([2] ++ [255; 255; 255; 255; 255; 255; 255; 255; 255]) = Panic
  | _ => False end.
Proof. ser_case. Qed.

(** C64: input that ends before the end of the payload the header announces is an i/o error, whatever the payload *)
Theorem C64_truncated : forall checks cd buf T lo hi sf h0 p k, is_u64 lo -> is_u64 hi -> is_u8 sf -> zlen p <= u32_max ->
  new_with_bounds T lo hi sf = Ret (ROk h0) -> (k < length (v2_image lo hi sf p))%nat ->
  deserialize checks cd buf T (firstn k (v2_image lo hi sf p)) = Ret (RErr DeIoError).
Proof. exact C64_truncated_proof. Qed.
Print Assumptions C64_truncated.

Example ex_C64_truncated : is_u64 1 /\ is_u64 1000 /\ is_u8 1 /\ zlen [2; 128; 4] <= u32_max /\
  match new_with_bounds U8 1 1000 1 with Ret (ROk _) => True | _ => False end /\ (42 < length (v2_image 1 1000 1 [2; 128; 4]%Z))%nat /\
  deserialize true plain [] U8 (firstn 42 (v2_image 1 1000 1 [2; 128; 4])) = Ret (RErr DeIoError) /\
  deserialize true plain [] U8 (firstn 20 (v2_image 1 1000 1 [2; 128; 4])) = Ret (RErr DeIoError).
Proof. ser_case. Qed.

(** C64: the compressed format is the plain one behind a decompressor: what is decompressed from the announced number of bytes must start with the cookie of the plain format and is then read like any plain input *)
Theorem C64_compressed : forall checks cd buf T n body, codec_ok cd -> bytes body -> 0 <= n <= u32_max ->
  let z := firstn (Z.to_nat n) body in
  let outcome := deserialize checks cd buf T (big_endian 4 0x1c849314 ++ big_endian 4 n ++ body) in
  (zlen (inflate cd z) < 4 -> outcome = Ret (RErr DeIoError)) /\
  (4 <= zlen (inflate cd z) -> firstn 4 (inflate cd z) <> big_endian 4 0x1c849313 -> outcome = Ret (RErr InvalidCookie)) /\
  (firstn 4 (inflate cd z) = big_endian 4 0x1c849313 ->
     outcome = match deserialize checks cd buf T (inflate cd z) with
               | Panic => Panic
               | Ret (RErr e) => Ret (RErr e)
               | Ret (ROk (h, _)) => Ret (ROk (h, skipn (Z.to_nat (inflate_used cd z)) body))
               end).
Proof. exact C64_compressed_proof. Qed.
Print Assumptions C64_compressed.

(** with the decompressor that reads every byte twice: three bytes are too few, another cookie, an image *)
Example ex_C64_compressed : let read n body := deserialize true twice [] U8 (big_endian 4 0x1c849314 ++ big_endian 4 n ++ body) in
  let image := v2_image 1 1000 1 [2] in
  codec_ok twice /\ bytes (deflate twice image ++ [7]) /\ 0 <= 83 <= u32_max /\ zlen (deflate twice image) = 83 /\
  zlen (inflate twice (firstn 6 (deflate twice image))) = 3 /\ read 6 (deflate twice image) = Ret (RErr DeIoError) /\
  read 8 [28; 28; 132; 132; 147; 147; 20; 20] = Ret (RErr InvalidCookie) /\
  inflate twice (firstn 83 (deflate twice image ++ [7])) = image /\
  match read 83 (deflate twice image ++ [7]) with
  | Ret (ROk (h, rest)) => held h = [(0, 1)] /\ rest = [0; 7]
  | _ => False end.
Proof. ser_case. Qed.

(** C65: the serializer writes its counts in the shortest way: a run of zeros is one number, a single zero is a count of zero *)
Theorem C65_canonical : forall junk h bs, reachable h -> v2_serialize junk h = Ret (ROk bs) ->
  exists ts, bs = v2_format (h_low h) (h_high h) (h_sigfig h) ts /\ canonical ts /\ ts <> [].
Proof. exact C65_canonical_proof. Qed.
Print Assumptions C65_canonical.

Example ex_C65_canonical : match build U16 1 10000 2 false [(0, 300); (3, 7); (5, 1); (500, 2)] with
  | Some h => reachable h /\ v2_serialize (fun _ => 77) h = Ret (ROk (v2_format 1 10000 2 [300; -2; 7; 0; 1; -372; 2])) /\
      canonical [300; -2; 7; 0; 1; -372; 2]
  | None => False end.
Proof. ser_case. Qed.

(** C65: and there is no other such way to write the same counts *)
Theorem C65_unique : forall ts1 ts2, canonical ts1 -> canonical ts2 -> expand ts1 = expand ts2 -> ts1 = ts2.
Proof. exact C65_unique_proof. Qed.
Print Assumptions C65_unique.

Example ex_C65_unique : canonical [300; -2; 7; -374; 2] /\ ~ canonical [300; 0; 0; 7] /\ ~ canonical [-2; -3] /\
  expand [300; 0; 0; 7] = expand [300; -2; 7].
Proof.
  split; [|split; [|split; [|reflexivity]]].
  - split; [cbn; intros H; repeat (destruct H as [H|H]; [discriminate|]); destruct H|].
    intros before a b after E. destruct before as [|x1 [|x2 [|x3 [|x4 [|x5 before]]]]]; cbn [app] in E; inversion E; subst; try (vm_compute; auto).
    destruct before; discriminate.
  - intros (_ & H). destruct (H [300] 0 0 [7] eq_refl); discriminate.
  - intros (_ & H). destruct (H [] (-2) (-3) [] eq_refl); discriminate.
Qed.

(** C65: two histograms are written as the same bytes exactly if they have the same bounds, precision and samples and their maxima are in the same class *)
Theorem C65_same_bytes : forall junk1 junk2 h1 h2 bs1 bs2 m1 m2, reachable h1 -> reachable h2 ->
  v2_serialize junk1 h1 = Ret (ROk bs1) -> v2_serialize junk2 h2 = Ret (ROk bs2) -> max h1 = Ret m1 -> max h2 = Ret m2 ->
  (bs1 = bs2 <->
   h_low h1 = h_low h2 /\ h_high h1 = h_high h2 /\ h_sigfig h1 = h_sigfig h2 /\ held h1 = held h2 /\ equivalent h1 m1 m2 = Ret true).
Proof. exact C65_same_bytes_proof. Qed.
Print Assumptions C65_same_bytes.

(** three histograms holding the same samples, of different counter types or after a subtraction *)
Example ex_C65_same_bytes :
  match build U16 1 10000 2 false [(3, 7); (500, 2)], build U64 1 10000 2 true [(500, 2); (3, 7)],
        build U16 1 10000 2 false [(3, 7); (500, 2); (9000, 1)] with
  | Some h1, Some h2, Some h3 => match build U16 1 10000 2 false [(9000, 1)] with
      | Some s => match subtract h3 s with
          | Ret (h4, ROk tt) => v2_serialize (fun _ => 7) h1 = v2_serialize (fun _ => 9) h2 /\ held h4 = held h1 /\
              max h4 = Ret 501 /\ v2_serialize (fun _ => 7) h4 = v2_serialize (fun _ => 7) h1
          | _ => False end
      | None => False end
  | _, _, _ => False end.
Proof. vm_compute. auto. Qed.

(** C65: writing what was read back gives the same bytes, if the maximum of the histogram written agreed with its samples *)
Theorem C65_rewritten : forall checks cd buf junk1 junk2 h bs rest h' rest', reachable h -> max_agrees h ->
  v2_serialize junk1 h = Ret (ROk bs) -> deserialize checks cd buf (h_ctr h) (bs ++ rest) = Ret (ROk (h', rest')) ->
  v2_serialize junk2 h' = Ret (ROk bs).
Proof. exact C65_rewritten_proof. Qed.
Print Assumptions C65_rewritten.

Example ex_C65_rewritten : match build U16 1 10000 2 false [(3, 7); (500, 2)] with
  | Some h => match v2_serialize (fun _ => 77) h with
      | Ret (ROk bs) => reachable h /\ max_agrees h /\ match deserialize true plain [] (h_ctr h) (bs ++ [1]) with
          | Ret (ROk (h', _)) => v2_serialize (fun _ => 78) h' = Ret (ROk bs) /\ zlen bs = 45
          | _ => False end
      | _ => False end
  | None => False end.
Proof. ser_case. Qed.
