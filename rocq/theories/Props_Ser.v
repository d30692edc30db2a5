(** Property theorems; the proofs are in [PfSer].  Generated by tools/gen_theorems.py. *)
From Verif Require Import Machine Log2Model HistModel Spec Reach Witness Cases CasesSer SerModel SerSpec PfSer.

(** C32: reading what was written gives the same samples and parameters, with the length and the extremes computed from the samples; what follows in the input is left unread *)
Theorem C32_round_trip : forall checks cd buf junk h bs rest, reachable h -> v2_serialize junk h = Ret (ROk bs) ->
  exists h', deserialize checks cd buf (h_ctr h) (bs ++ rest) = Ret (ROk (h', rest)) /\ reachable h' /\ h_ctr h' = h_ctr h /\
    held h' = held h /\ h_low h' = h_low h /\ h_high h' = h_high h /\ h_sigfig h' = h_sigfig h /\
    distinct_values h' = distinct_values h /\ h_auto h' = false /\
    len h' = Z.min u64_max (weight (held h)) /\ max_agrees h' /\ min_agrees h'.
Proof. exact C32_round_trip_proof. Qed.
Print Assumptions C32_round_trip.

(** a U16 histogram with samples in three classes, followed by two more bytes *)
Example ex_C32 : match build U16 1 10000 2 false [(3, 7); (500, 2); (9999, 40000)] with
  | Some h => match v2_serialize (fun _ => 77) h with
      | Ret (ROk bs) => reachable h /\ match deserialize true plain [1; 2; 3] (h_ctr h) (bs ++ [5; 6]) with
          | Ret (ROk (h', rest)) => rest = [5; 6] /\ held h' = [(3, 7); (500, 2); (9984, 40000)] /\ len h' = 40009 /\ zlen bs = 50
          | _ => False end
      | _ => False end
  | None => False end.
Proof. ser_case. Qed.

(** C32: if the histogram's own length and extremes agreed with its samples, the histogram read back reports the same *)
Theorem C32_statistics : forall checks cd buf junk h bs rest h' rest', reachable h -> stats_agree h ->
  v2_serialize junk h = Ret (ROk bs) -> deserialize checks cd buf (h_ctr h) (bs ++ rest) = Ret (ROk (h', rest')) ->
  len h' = len h /\ same_max h h' /\ same_min_nz h h'.
Proof. exact C32_statistics_proof. Qed.
Print Assumptions C32_statistics.

Example ex_C32_statistics : match build U16 4 10000 2 false [(3, 7); (500, 2)] with
  | Some h => match v2_serialize (fun _ => 77) h with
      | Ret (ROk bs) => reachable h /\ stats_agree h /\ match deserialize true plain [] (h_ctr h) (bs ++ [1]) with
          | Ret (ROk (h', rest)) => rest = [1] /\ len h = 9 /\ len h' = 9 /\ max h = Ret 503 /\ max h' = Ret 503 /\ min_nz h' = min_nz h
          | _ => False end
      | _ => False end
  | None => False end.
Proof. ser_case. Qed.

(** C32: and the two compare equal, unless the maximum is in the class of 0 or in that of [u64::MAX] *)
Theorem C32_equal : forall checks cd buf junk h bs rest h' rest' mx, reachable h -> stats_agree h ->
  v2_serialize junk h = Ret (ROk bs) -> deserialize checks cd buf (h_ctr h) (bs ++ rest) = Ret (ROk (h', rest')) ->
  max h = Ret mx -> equivalent h mx 0 = Ret false -> equivalent h mx u64_max = Ret false ->
  hist_eq h h' = Ret true /\ hist_eq h' h = Ret true.
Proof. exact C32_equal_proof. Qed.
Print Assumptions C32_equal.

Example ex_C32_equal : match build U64 1 10000 2 false [(3, 7); (500, 2)] with
  | Some h => match v2_serialize (fun _ => 0) h with
      | Ret (ROk bs) => reachable h /\ stats_agree h /\ match deserialize false plain [] (h_ctr h) (bs ++ [1]) with
          | Ret (ROk (h', rest)) => hist_eq h h' = Ret true /\ len h' = 9 /\ max h = Ret 501 /\
              equivalent h 501 0 = Ret false /\ equivalent h 501 u64_max = Ret false
          | _ => False end
      | _ => False end
  | None => False end.
Proof. ser_case. Qed.

(** C32: they also compare equal if the maximum is 0 and there are no samples or the unit is one *)
Theorem C32_equal_empty : forall checks cd buf junk h bs rest h' rest', reachable h -> stats_agree h ->
  v2_serialize junk h = Ret (ROk bs) -> deserialize checks cd buf (h_ctr h) (bs ++ rest) = Ret (ROk (h', rest')) ->
  max h = Ret 0 -> held h = [] \/ equivalent h 0 1 = Ret false ->
  hist_eq h h' = Ret true /\ hist_eq h' h = Ret true.
Proof. exact C32_equal_empty_proof. Qed.
Print Assumptions C32_equal_empty.

Example ex_C32_equal_empty : match build U64 4 10000 2 false [], build U64 1 10000 2 false [(0, 3)] with
  | Some h, Some h2 => reachable h /\ stats_agree h /\ max h = Ret 0 /\ held h = [] /\ reachable h2 /\ stats_agree h2 /\ max h2 = Ret 0 /\
      equivalent h2 0 1 = Ret false /\
      match v2_serialize (fun _ => 0) h, v2_serialize (fun _ => 0) h2 with
      | Ret (ROk bs), Ret (ROk bs2) =>
          match deserialize false plain [] U64 bs, deserialize false plain [] U64 bs2 with
          | Ret (ROk (h', _)), Ret (ROk (h2', _)) => hist_eq h h' = Ret true /\ hist_eq h2 h2' = Ret true
          | _, _ => False end
      | _, _ => False end
  | _, _ => False end.
Proof. ser_case. Qed.

(** C32: with a sample of [u64::MAX], the histogram read back is not equal to the original: its maximum is one less *)
Theorem C32_equal_top_refuted : exists h bs h', reachable h /\
  v2_serialize (fun _ => 0) h = Ret (ROk bs) /\ deserialize false (mk_codec (fun l => l) (fun l => l) zlen) [] (h_ctr h) bs = Ret (ROk (h', [])) /\
  max h = Ret u64_max /\ max h' = Ret (u64_max - 1) /\ hist_eq h h' = Ret false.
Proof. exact C32_equal_top_refuted_proof. Qed.
Print Assumptions C32_equal_top_refuted.

(** C32: with a unit of two or more and only zeros recorded, the histogram read back is not equal to the original either *)
Theorem C32_equal_zero_refuted : exists h bs h', reachable h /\
  v2_serialize (fun _ => 0) h = Ret (ROk bs) /\ deserialize false (mk_codec (fun l => l) (fun l => l) zlen) [] (h_ctr h) bs = Ret (ROk (h', [])) /\
  held h = [(0, 1)] /\ max h = Ret 0 /\ max h' = Ret 3 /\ hist_eq h h' = Ret false.
Proof. exact C32_equal_zero_refuted_proof. Qed.
Print Assumptions C32_equal_zero_refuted.

(** C32: whether the histogram resizes automatically is not part of the format: the one read back never does *)
Theorem C32_auto_resize_refuted : exists h bs h', reachable h /\
  v2_serialize (fun _ => 0) h = Ret (ROk bs) /\ deserialize false (mk_codec (fun l => l) (fun l => l) zlen) [] (h_ctr h) bs = Ret (ROk (h', [])) /\
  is_auto_resize h = true /\ is_auto_resize h' = false /\ hist_eq h h' = Ret true.
Proof. exact C32_auto_resize_refuted_proof. Qed.
Print Assumptions C32_auto_resize_refuted.

(** C33: serialization fails exactly if some count exceeds [i64::MAX] *)
Theorem C33_serializable : forall junk h, reachable h ->
  (v2_serialize junk h = Ret (RErr CountNotSerializable) <-> exists v n, In (v, n) (held h) /\ i64_max < n) /\
  (counts_fit_i64 h -> exists bs, v2_serialize junk h = Ret (ROk bs) /\ bytes bs).
Proof. exact C33_serializable_proof. Qed.
Print Assumptions C33_serializable.

Example ex_C33 : match build U64 1 10000 2 false [(3, i64_max); (500, 2)], build U64 1 10000 2 false [(3, i64_max); (3, 1)] with
  | Some h, Some h2 => held h = [(3, i64_max); (500, 2)] /\ (exists bs, v2_serialize (fun _ => 9) h = Ret (ROk bs)) /\
      held h2 = [(3, i64_max + 1)] /\ v2_serialize (fun _ => 9) h2 = Ret (RErr CountNotSerializable)
  | _, _ => False end.
Proof. vm_compute. repeat split; eauto. Qed.

(** C34: every [u64] is written as its 1 to 9 byte encoding and read back by both readers *)
Theorem C34_varint : forall x pre post rest, is_u64 x -> zlen (varint x) <= zlen post -> bytes rest ->
  1 <= zlen (varint x) <= 9 /\ bytes (varint x) /\
  varint_write x (pre ++ post) (zlen pre) = Ret (pre ++ varint x ++ skipn (length (varint x)) post, zlen (varint x)) /\
  varint_read (varint x ++ rest) = Some (x, rest) /\
  (9 <= zlen (varint x ++ rest) -> varint_read_slice (firstn 9 (varint x ++ rest)) = Ret (x, zlen (varint x))).
Proof. exact C34_varint_proof. Qed.
Print Assumptions C34_varint.

Example ex_C34_varint : varint 300 = [172; 2] /\ varint u64_max = [255; 255; 255; 255; 255; 255; 255; 255; 255] /\
  is_u64 300 /\ zlen (varint 300) <= zlen [7; 7; 7] /\ bytes [5; 5; 5; 5; 5; 5; 5] /\
  varint_write 300 ([7] ++ [7; 7; 7]) (zlen [7]) = Ret ([7; 172; 2; 7], 2) /\ varint_read (varint 300 ++ [5; 5; 5; 5; 5; 5; 5]) = Some (300, [5; 5; 5; 5; 5; 5; 5]) /\
  9 <= zlen (varint 300 ++ [5; 5; 5; 5; 5; 5; 5]) /\ varint_read_slice [172; 2; 5; 5; 5; 5; 5; 5; 5] = Ret (300, 2).
Proof. ser_case. Qed.

(** C34: the encoding is as short as seven bits a byte allow *)
Theorem C34_varint_length : forall x k, is_u64 x -> (1 <= k <= 8)%nat -> (zlen (varint x) <= Z.of_nat k <-> x < 128 ^ Z.of_nat k).
Proof. exact C34_varint_length_proof. Qed.
Print Assumptions C34_varint_length.

Example ex_C34_varint_length : is_u64 16383 /\ zlen (varint 16383) = 2 /\ is_u64 16384 /\ zlen (varint 16384) = 3 /\ 128 ^ 2 = 16384.
Proof. ser_case. Qed.

(** C34: on any nine or more bytes the two readers return the same number and consume the same bytes *)
Theorem C34_readers_agree : forall bs, bytes bs -> 9 <= zlen bs ->
  exists x n, is_u64 x /\ 1 <= n <= 9 /\ varint_read bs = Some (x, skipn (Z.to_nat n) bs) /\
    varint_read_slice (firstn 9 bs) = Ret (x, n).
Proof. exact C34_readers_agree_proof. Qed.
Print Assumptions C34_readers_agree.

Example ex_C34_readers : bytes [128; 128; 128; 128; 128; 128; 128; 128; 128; 3] /\ 9 <= zlen [128; 128; 128; 128; 128; 128; 128; 128; 128; 3] /\
  varint_read [128; 128; 128; 128; 128; 128; 128; 128; 128; 3] = Some (2 ^ 63, [3]) /\
  varint_read_slice [128; 128; 128; 128; 128; 128; 128; 128; 128] = Ret (2 ^ 63, 9).
Proof. ser_case. Qed.

(** C34: zig-zag is a bijection between [i64] and [u64] *)
Theorem C34_zig_zag :
  (forall t, i64_min <= t <= i64_max -> zig_zag_encode t = zig_zag t /\ is_u64 (zig_zag_encode t) /\ zig_zag_decode (zig_zag_encode t) = t) /\
  (forall e, is_u64 e -> i64_min <= zig_zag_decode e <= i64_max /\ zig_zag_encode (zig_zag_decode e) = e).
Proof. exact C34_zig_zag_proof. Qed.
Print Assumptions C34_zig_zag.

Example ex_C34_zig_zag : map zig_zag_encode [0; -1; 1; -2; i64_max; i64_min] = [0; 1; 2; 3; u64_max - 1; u64_max] /\
  map zig_zag_decode [0; 1; 2; 3; u64_max - 1; u64_max] = [0; -1; 1; -2; i64_max; i64_min].
Proof. vm_compute. auto. Qed.

(** C35: the serializer never panics, never reads or writes outside its arrays (both are panics in the model), and the length in the header is that of the payload, whatever the reserved buffer contained *)
Theorem C35_bounds : forall junk h, reachable h -> exists r, v2_serialize junk h = Ret r /\
  forall bs, r = ROk bs ->
    be_value (firstn 4 (skipn 4 bs)) 0 = zlen bs - 40 /\ 41 <= zlen bs <= 40 + 9 * distinct_values h.
Proof. exact C35_bounds_proof. Qed.
Print Assumptions C35_bounds.

Example ex_C35 : match build U64 1 10000 2 false [(3, i64_max); (500, 2)] with
  | Some h => match v2_serialize (fun i => i mod 7) h with
      | Ret (ROk bs) => zlen bs = 53 /\ firstn 4 (skipn 4 bs) = [0; 0; 0; 13] /\ v2_serialize (fun _ => 255) h = Ret (ROk bs)
      | _ => False end
  | _ => False end.
Proof. vm_compute. auto. Qed.

(** C36: on any bytes, with any decompressor, the deserializer returns a histogram or an error; a histogram it returns is reachable, its length and extremes agree with its samples; it panics only if the build checks for overflow and the input encodes [i64::MIN] *)
Theorem C36_total : forall checks cd buf T rd, codec_ok cd -> bytes rd ->
  (exists h rest, deserialize checks cd buf T rd = Ret (ROk (h, rest)) /\ reachable h /\ h_ctr h = T /\
     len h = Z.min u64_max (weight (held h)) /\ max_agrees h /\ min_agrees h /\ exists used, rd = used ++ rest) \/
  (exists e, deserialize checks cd buf T rd = Ret (RErr e)) \/
  (deserialize checks cd buf T rd = Panic /\ checks = true /\ holds_i64_min cd rd).
Proof. exact C36_total_proof. Qed.
Print Assumptions C36_total.

(** an image no serializer of this crate writes: a zero count as 0, then a run of one zero as -1, then 5 *)
Example ex_C36 : codec_ok plain /\ bytes (v2_format 1 1000 1 [0; -1; 5]) /\ bytes (v2_format 1 1000 1 [-10000; 5]) /\
  match deserialize true plain [] U8 (v2_format 1 1000 1 [0; -1; 5]) with
  | Ret (ROk (h, rest)) => held h = [(2, 5)] /\ len h = 5 /\ max h = Ret 2 /\ rest = []
  | _ => False end /\
  deserialize true plain [] U8 (v2_format 1 1000 1 [-10000; 5]) = Ret (RErr EncodedArrayTooLong).
Proof. ser_case. Qed.

(** C36: without overflow checks it never panics *)
Theorem C36_release_total : forall cd buf T rd, codec_ok cd -> bytes rd -> deserialize false cd buf T rd <> Panic.
Proof. exact C36_release_total_proof. Qed.
Print Assumptions C36_release_total.

Example ex_C36_release_total : codec_ok twice /\ bytes [28; 132; 147; 19; 0; 1; 2; 255] /\
  deserialize false twice [] U8 [28; 132; 147; 19; 0; 1; 2; 255] = Ret (RErr DeIoError).
Proof. ser_case. Qed.

(** C36: with overflow checks, 49 bytes make it panic *)
Theorem C36_debug_panic_refuted : exists rd, bytes rd /\ zlen rd = 49 /\
  forall cd buf T, deserialize true cd buf T rd = Panic.
Proof. exact C36_debug_panic_refuted_proof. Qed.
Print Assumptions C36_debug_panic_refuted.

(** C37: every strict prefix of a serialized histogram gives an i/o error *)
Theorem C37_prefix : forall checks cd buf T junk h bs k, reachable h -> v2_serialize junk h = Ret (ROk bs) -> (k < length bs)%nat ->
  deserialize checks cd buf T (firstn k bs) = Ret (RErr DeIoError).
Proof. exact C37_prefix_proof. Qed.
Print Assumptions C37_prefix.

Example ex_C37_prefix : match build U16 1 10000 2 false [(3, 7); (500, 2)] with
  | Some h => match v2_serialize (fun _ => 77) h with
      | Ret (ROk bs) => reachable h /\ length bs = 45%nat /\ (44 < length bs)%nat /\
          deserialize true plain [] U16 (firstn 44 bs) = Ret (RErr DeIoError)
      | _ => False end
  | None => False end.
Proof. ser_case. Qed.

(** C37: input that does not start with one of the two cookies is rejected *)
Theorem C37_cookie : forall checks cd buf T c rest, 0 <= c <= u32_max -> c <> 0x1c849313 -> c <> 0x1c849314 ->
  deserialize checks cd buf T (big_endian 4 c ++ rest) = Ret (RErr InvalidCookie).
Proof. exact C37_cookie_proof. Qed.
Print Assumptions C37_cookie.

(** the cookie of the first version of the format *)
Example ex_C37_cookie : 0 <= 0x1c849301 <= u32_max /\ 0x1c849301 <> 0x1c849313 /\ 0x1c849301 <> 0x1c849314 /\
  deserialize true plain [] U64 (big_endian 4 0x1c849301 ++ [0; 0; 0; 1]) = Ret (RErr InvalidCookie).
Proof. ser_case. Qed.

(** C37: histograms written one after the other are read back one after the other *)
Theorem C37_concatenated : forall checks cd T junk hs bss rest,
  Forall (fun h => reachable h /\ h_ctr h = T) hs ->
  Forall2 (fun h bs => v2_serialize junk h = Ret (ROk bs)) hs bss ->
  exists hs', reads checks cd T (concat bss ++ rest) hs' rest /\
    Forall2 (fun h h' => held h' = held h /\ h_low h' = h_low h /\ h_high h' = h_high h /\ h_sigfig h' = h_sigfig h) hs hs'.
Proof. exact C37_concatenated_proof. Qed.
Print Assumptions C37_concatenated.

Example ex_C37_concatenated : match build U16 1 10000 2 false [(3, 7); (500, 2)], build U16 1 1000 1 false [(40, 9)] with
  | Some h1, Some h2 => reachable h1 /\ h_ctr h1 = U16 /\ reachable h2 /\ h_ctr h2 = U16 /\
      match v2_serialize (fun _ => 7) h1, v2_serialize (fun _ => 7) h2 with
      | Ret (ROk bs1), Ret (ROk bs2) => match deserialize true plain [] U16 (concat [bs1; bs2] ++ [1]) with
          | Ret (ROk (h1', rest)) => held h1' = [(3, 7); (500, 2)] /\ match deserialize true plain bs1 U16 rest with
              | Ret (ROk (h2', rest2)) => held h2' = [(40, 9)] /\ rest2 = [1]
              | _ => False end
          | _ => False end
      | _, _ => False end
  | _, _ => False end.
Proof. ser_case. Qed.

(** C38: reading into another counter type fails exactly if some count does not fit, and otherwise gives the same samples *)
Theorem C38_narrowing : forall checks cd buf T junk h bs rest, reachable h -> v2_serialize junk h = Ret (ROk bs) ->
  (deserialize checks cd buf T (bs ++ rest) = Ret (RErr UnsuitableCounterType) <-> exists v n, In (v, n) (held h) /\ cmax T < n) /\
  ((forall v n, In (v, n) (held h) -> n <= cmax T) ->
   exists h', deserialize checks cd buf T (bs ++ rest) = Ret (ROk (h', rest)) /\ h_ctr h' = T /\ held h' = held h).
Proof. exact C38_narrowing_proof. Qed.
Print Assumptions C38_narrowing.

Example ex_C38 : match build U16 1 10000 2 false [(3, 7); (500, 256)] with
  | Some h => match v2_serialize (fun _ => 77) h with
      | Ret (ROk bs) => reachable h /\ deserialize true plain [] U8 (bs ++ [1]) = Ret (RErr UnsuitableCounterType) /\
          match deserialize true plain [] U32 (bs ++ [1]) with
          | Ret (ROk (h', rest)) => rest = [1] /\ held h' = [(3, 7); (500, 256)]
          | _ => False end
      | _ => False end
  | None => False end.
Proof. ser_case. Qed.

(** C39: what the serializer's buffer held before does not matter *)
Theorem C39_serializer_reuse : forall cd junk1 junk2 h, reachable h ->
  v2_serialize junk1 h = v2_serialize junk2 h /\ v2_deflate_serialize cd junk1 h = v2_deflate_serialize cd junk2 h.
Proof. exact C39_serializer_reuse_proof. Qed.
Print Assumptions C39_serializer_reuse.

Example ex_C39_serializer : match build U16 1 10000 2 false [(3, 7); (500, 2)] with
  | Some h => reachable h /\ v2_serialize (fun _ => 7) h = v2_serialize (fun i => i mod 256) h /\
      v2_deflate_serialize twice (fun _ => 7) h = v2_deflate_serialize twice (fun i => i mod 256) h /\
      match v2_deflate_serialize twice (fun _ => 7) h with Ret (ROk zs) => zlen zs = 99 | _ => False end
  | None => False end.
Proof. ser_case. Qed.

(** C39: what the deserializer's buffer held before does not matter, whatever the input *)
Theorem C39_deserializer_reuse : forall checks cd buf1 buf2 T rd, codec_ok cd -> bytes rd ->
  deserialize checks cd buf1 T rd = deserialize checks cd buf2 T rd.
Proof. exact C39_deserializer_reuse_proof. Qed.
Print Assumptions C39_deserializer_reuse.

Example ex_C39_deserializer : codec_ok twice /\ bytes (v2_format 1 1000 1 [0; -1; 5]) /\
  match deserialize true twice (repeat 9 100) U8 (v2_format 1 1000 1 [0; -1; 5]), deserialize true twice [] U8 (v2_format 1 1000 1 [0; -1; 5]) with
  | Ret (ROk (h1, _)), Ret (ROk (h2, _)) => h1 = h2 /\ held h1 = [(2, 5)]
  | _, _ => False end.
Proof. ser_case. Qed.

(** C40: with a lossless compressor, the compressed form is read back as the plain one is, and what follows it is left unread *)
Theorem C40_compressed : forall checks cd buf junk T h bs rest, reachable h -> lossless cd -> codec_ok cd ->
  v2_serialize junk h = Ret (ROk bs) -> zlen (deflate cd bs) + 8 <= u32_max ->
  exists zs left, v2_deflate_serialize cd junk h = Ret (ROk zs) /\
    zs = big_endian 4 0x1c849314 ++ big_endian 4 (zlen (deflate cd bs)) ++ deflate cd bs /\
    zlen left = zlen (deflate cd bs) - inflate_used cd (deflate cd bs) /\
    (forall e, deserialize checks cd buf T bs = Ret (RErr e) -> deserialize checks cd buf T (zs ++ rest) = Ret (RErr e)) /\
    (forall h', deserialize checks cd buf T bs = Ret (ROk (h', [])) ->
       deserialize checks cd buf T (zs ++ rest) = Ret (ROk (h', left ++ rest))).
Proof. exact C40_compressed_proof. Qed.
Print Assumptions C40_compressed.

(** with a toy compressor, which writes every byte twice and one more that the decompressor does not look at *)
Example ex_C40 : match build U16 1 10000 2 false [(3, 7); (500, 256)] with
  | Some h => match v2_serialize (fun _ => 77) h, v2_deflate_serialize twice (fun _ => 77) h with
      | Ret (ROk bs), Ret (ROk zs) => reachable h /\ lossless twice /\ codec_ok twice /\ zlen (deflate twice bs) + 8 <= u32_max /\
          zlen zs = 2 * zlen bs + 9 /\
          match deserialize true twice [] U16 bs, deserialize true twice [] U16 (zs ++ [1; 2]) with
          | Ret (ROk (h1, r1)), Ret (ROk (h2, r2)) => r1 = [] /\ r2 = [0; 1; 2] /\ held h2 = [(3, 7); (500, 256)] /\ h1 = h2
          | _, _ => False end
      | _, _ => False end
  | None => False end.
Proof. ser_case. Qed.

(** C54: the bytes written are the V2 format of the histogram: its parameters, and numbers that stand for its counts up to the class of the maximum, with no two zero runs in a row and a single zero written as a count *)
Theorem C54_format : forall junk h bs mx, reachable h -> v2_serialize junk h = Ret (ROk bs) -> max h = Ret mx ->
  exists ts, bs = v2_format (h_low h) (h_high h) (h_sigfig h) ts /\
    Forall (fun t => (- distinct_values h <= t /\ t <> -1) /\ t <= i64_max) ts /\
    (forall i, index_for h mx = Ret (Some i) -> zlen (expand ts) = i + 1) /\
    (forall v i c, is_u64 v -> covers h v -> index_for h v = Ret (Some i) -> count_at h v = Ret c -> nth (Z.to_nat i) (expand ts) 0 = c).
Proof. exact C54_format_proof. Qed.
Print Assumptions C54_format.

Example ex_C54 : match build U16 1 10000 2 false [(0, 300); (3, 7); (500, 2)] with
  | Some h => reachable h /\ v2_serialize (fun _ => 77) h = Ret (ROk (v2_format 1 10000 2 [300; -2; 7; -374; 2])) /\ max h = Ret 501 /\
      index_for h 501 = Ret (Some 378) /\ zlen (expand [300; -2; 7; -374; 2]) = 379 /\ is_u64 3 /\ covers h 3 /\ index_for h 3 = Ret (Some 3) /\ count_at h 3 = Ret 7
  | None => False end.
Proof. ser_case. Qed.

(** C55: any image in the V2 format, by whatever implementation and with whatever choice of zero runs, is read back as the counts it stands for, provided its parameters are acceptable, its counts fit the counter type and lie within the range *)
Theorem C55_foreign_images : forall checks cd buf T lo hi sf h0 ts rest, is_u64 lo -> is_u64 hi -> is_u8 sf ->
  new_with_bounds T lo hi sf = Ret (ROk h0) ->
  Forall (fun t => i64_min < t <= i64_max /\ t <= cmax T) ts ->
  zlen (v2_payload ts) <= u32_max -> zlen (expand ts) <= usize_max ->
  (forall i, distinct_values h0 <= i -> nth (Z.to_nat i) (expand ts) 0 = 0) ->
  exists h, deserialize checks cd buf T (v2_format lo hi sf ts ++ rest) = Ret (ROk (h, rest)) /\
    h_ctr h = T /\ h_low h = lo /\ h_high h = hi /\ h_sigfig h = sf /\ distinct_values h = distinct_values h0 /\
    len h = Z.min u64_max (weight (held h)) /\ max_agrees h /\ min_agrees h /\
    forall v i, is_u64 v -> covers h v -> index_for h v = Ret (Some i) -> count_at h v = Ret (nth (Z.to_nat i) (expand ts) 0).
Proof. exact C55_foreign_images_proof. Qed.
Print Assumptions C55_foreign_images.

(** single zeros written as runs and as counts, two runs in a row, and zeros beyond the range at the end *)
Example ex_C55 : let ts := [3; -1; -2; 0; 7; 0; -10000] in
  is_u64 1 /\ is_u64 1000 /\ is_u8 1 /\
  match new_with_bounds U8 1 1000 1 with
  | Ret (ROk h0) => Forall (fun t => i64_min < t <= i64_max /\ t <= cmax U8) ts /\ zlen (v2_payload ts) <= u32_max /\ zlen (expand ts) <= usize_max /\
      (forall i, distinct_values h0 <= i -> nth (Z.to_nat i) (expand ts) 0 = 0) /\
      match deserialize true plain [] U8 (v2_format 1 1000 1 ts ++ [4]) with
      | Ret (ROk (h, rest)) => rest = [4] /\ held h = [(0, 3); (5, 7)] /\ len h = 10
      | _ => False end
  | _ => False end.
Proof. ser_case. Qed.
