(** * Model of the V2 binary format, src/serialization

    Bytes are integers between 0 and 255.  A reader is the list of bytes it will still deliver; reading
    past its end is an i/o error.  Every index operation is checked: out of bounds is [Panic], also for
    [get_unchecked], where Rust would have undefined behaviour. *)
From Verif Require Import Machine Log2Model HistModel.

(** src/serialization/mod.rs:202-205 *)
Definition V2_COOKIE : Z := Z.lor 478450435 16.
(** src/serialization/mod.rs:203-206 *)
Definition V2_COMPRESSED_COOKIE : Z := Z.lor 478450436 16.
(** src/serialization/mod.rs:208 *)
Definition V2_HEADER_SIZE : Z := 40.

(** [V2SerializeError], src/serialization/v2_serializer.rs:9-18 *)
Inductive ser_error := CountNotSerializable | SerUsizeTypeTooSmall | SerIoError.
(** [DeserializeError], src/serialization/deserializer.rs:12-30 *)
Inductive deser_error :=
| DeIoError | InvalidCookie | UnsupportedFeature | UnsuitableCounterType | InvalidParameters
| DeUsizeTypeTooSmall | EncodedArrayTooLong.

(** ** Integer encodings *)

(** [write_u32::<BigEndian>] and friends (byteorder crate, used at src/serialization/v2_serializer.rs:81-93):
    [n] bytes, most significant first *)
Fixpoint be_write (n : nat) (x : Z) : list Z :=
  match n with O => [] | S k => (x / 2 ^ (8 * Z.of_nat k)) mod 2 ^ 8 :: be_write k x end.
(** [read_u32::<BigEndian>] and friends (byteorder crate, used at src/serialization/deserializer.rs:108-156) *)
Fixpoint be_value (bs : list Z) (acc : Z) : Z :=
  match bs with [] => acc | b :: bs' => be_value bs' (acc * 2 ^ 8 + b) end.
(** [Read::read_exact] (used at src/serialization/deserializer.rs:168): [n] bytes and the remaining reader,
    or an i/o error *)
Definition read_exact (n : Z) (rd : list Z) : option (list Z * list Z) :=
  if n <=? zlen rd then Some (firstn (Z.to_nat n) rd, skipn (Z.to_nat n) rd) else None.
(** byteorder's reads of [n] byte big-endian integers (src/serialization/deserializer.rs:108-156) *)
Definition read_be (n : Z) (rd : list Z) : option (Z * list Z) :=
  match read_exact n rd with Some (bs, rd') => Some (be_value bs 0, rd') | None => None end.

(** [shift_by_7s], src/serialization/v2_serializer.rs:256-258 *)
Definition shift_by_7s (input n : Z) : res Z := u64_shr input (7 * n).
(** [nth_7b_chunk_with_high_bit], src/serialization/v2_serializer.rs:265-267 *)
Definition nth_7b_chunk_with_high_bit (input n : Z) : res Z :=
  x <- shift_by_7s input n ;; Ret (Z.lor (as_u8 x) 128).
(** [buf[i] = x], src/serialization/v2_serializer.rs:206-248 *)
Definition put (buf : list Z) (i x : Z) : res (list Z) :=
  if (0 <=? i) && (i <? zlen buf) then Ret (vset buf i x) else Panic.

(** [varint_write], src/serialization/v2_serializer.rs:199-250, from byte [n] on ([1 <= n <= 8]); the
    code is unrolled.  [off] is where the slice handed to it starts in the buffer. *)
Fixpoint varint_write_from (steps : nat) (n input : Z) (buf : list Z) (off : Z) : res (list Z * Z) :=
  match steps with
  | O =>
      x <- u64_shr input 56 ;;
      b <- put buf (off + 8) (as_u8 x) ;;
      Ret (b, 9)
  | S k =>
      s <- shift_by_7s input (n + 1) ;;
      if s =? 0 then
        x <- shift_by_7s input n ;;
        b <- put buf (off + n) (as_u8 x) ;;
        Ret (b, n + 1)
      else
        c <- nth_7b_chunk_with_high_bit input n ;;
        b <- put buf (off + n) c ;;
        varint_write_from k (n + 1) input b off
  end.
(** [varint_write], src/serialization/v2_serializer.rs:199-250 *)
Definition varint_write (input : Z) (buf : list Z) (off : Z) : res (list Z * Z) :=
  s <- shift_by_7s input 1 ;;
  if s =? 0 then
    b <- put buf off (as_u8 input) ;;
    Ret (b, 1)
  else
    b <- put buf off (Z.lor 128 (as_u8 (Z.land input 127))) ;;
    varint_write_from 7 1 input b off.

(** wrapping to [i64] (Rust primitive, used at src/serialization/v2_serializer.rs:274) *)
Definition wrap_i64 (x : Z) : Z := (x + 2 ^ 63) mod 2 ^ 64 - 2 ^ 63.
(** [zig_zag_encode], src/serialization/v2_serializer.rs:272-275; [<<] drops the bits shifted out, [>>]
    on [i64] is arithmetic *)
Definition zig_zag_encode (num : Z) : Z :=
  Z.lxor (wrap_i64 (Z.shiftl num 1)) (Z.shiftr num 63) mod 2 ^ 64.
(** [zig_zag_decode], src/serialization/deserializer.rs:318-320 *)
Definition zig_zag_decode (encoded : Z) : Z :=
  Z.lxor (wrap_i64 (Z.shiftr encoded 1)) (- (Z.land encoded 1)).

(** [low_7_bits] and [is_high_bit_set], src/serialization/deserializer.rs:307-314 *)
Definition low_7_bits (b : Z) : Z := Z.land b 127.
(** src/serialization/deserializer.rs:312-314 *)
Definition is_high_bit_set (b : Z) : bool := negb (Z.land b 128 =? 0).

(** [varint_read_slice], src/serialization/deserializer.rs:207-257, from byte [n] on; unrolled in the
    code *)
Fixpoint varint_read_slice_from (steps : nat) (n value : Z) (slice : list Z) : res (Z * Z) :=
  b <- expect (vget slice n) ;;
  match steps with
  | O => x <- u64_shl b 56 ;; Ret (Z.lor value x, 9)
  | S k =>
      x <- u64_shl (low_7_bits b) (7 * n) ;;
      let v := Z.lor value x in
      if negb (is_high_bit_set b) then Ret (v, n + 1)
      else varint_read_slice_from k (n + 1) v slice
  end.
(** src/serialization/deserializer.rs:207-257 *)
Definition varint_read_slice (slice : list Z) : res (Z * Z) := varint_read_slice_from 8 0 0 slice.

(** [varint_read], src/serialization/deserializer.rs:261-303, from byte [n] on; nested [if]s in the
    code.  The outer [option] is the i/o error. *)
Fixpoint varint_read_from (steps : nat) (n value : Z) (rd : list Z) : option (Z * list Z) :=
  match rd with
  | [] => None
  | b :: rd' =>
      match steps with
      | O => Some (Z.lor value (Z.shiftl b 56), rd')
      | S k =>
          let v := Z.lor value (Z.shiftl (low_7_bits b) (7 * n)) in
          if is_high_bit_set b then varint_read_from k (n + 1) v rd' else Some (v, rd')
      end
  end.
(** src/serialization/deserializer.rs:261-303 *)
Definition varint_read (rd : list Z) : option (Z * list Z) := varint_read_from 8 0 0 rd.

(** ** Serializer *)

(** [counts_array_max_encoded_size], src/serialization/v2_serializer.rs:124-130 *)
Definition counts_array_max_encoded_size (length : Z) : option Z :=
  if length * 9 <=? usize_max then Some (length * 9) else None.
(** [max_encoded_size], src/serialization/v2_serializer.rs:117-121 *)
Definition max_encoded_size (h : hist) : res (option Z) :=
  m <- max h ;;
  oi <- index_for h m ;;
  match oi with
  | None => Ret None
  | Some i =>
      i1 <- usize_add i 1 ;;
      Ret (match counts_array_max_encoded_size i1 with
           | None => None
           | Some x => if x + V2_HEADER_SIZE <=? usize_max then Some (x + V2_HEADER_SIZE) else None
           end)
  end.

(** the inner loop of [encode_counts], src/serialization/v2_serializer.rs:160-165 *)
Fixpoint zeros_loop (fuel : nat) (h : hist) (index index_limit zero_count : Z) : res (Z * Z) :=
  match fuel with
  | O => Panic
  | S f =>
      if index <=? index_limit then
        c <- expect (vget (h_counts h) index) ;;
        if c =? 0 then
          z <- in_range i64_min i64_max (zero_count + 1) ;;
          i <- usize_add index 1 ;;
          zeros_loop f h i index_limit z
        else Ret (index, zero_count)
      else Ret (index, zero_count)
  end.
(** the loop of [encode_counts], src/serialization/v2_serializer.rs:147-189 *)
Fixpoint encode_loop (fuel : nat) (h : hist) (buf : list Z) (base index index_limit bytes_written : Z)
  : res (list Z * result Z ser_error) :=
  match fuel with
  | O => Panic
  | S f =>
      if index <=? index_limit then
        count <- expect (vget (h_counts h) index) ;;
        index1 <- usize_add index 1 ;;
        '(index2, zero_count) <- (if count =? 0 then zeros_loop f h index1 index_limit 1 else Ret (index1, 0)) ;;
        oc <- (if 1 <? zero_count then
                 n <- in_range i64_min i64_max (- zero_count) ;; Ret (ROk n)
               else Ret (if count <=? i64_max then ROk count else RErr CountNotSerializable)) ;;
        match oc with
        | RErr e => Ret (buf, RErr e)
        | ROk count_or_zeros =>
            _ <- assert (base + bytes_written <=? zlen buf) ;;
            '(buf', n) <- varint_write (zig_zag_encode count_or_zeros) buf (base + bytes_written) ;;
            b <- usize_add bytes_written n ;;
            encode_loop f h buf' base index2 index_limit b
        end
      else Ret (buf, ROk bytes_written)
  end.
(** [encode_counts], src/serialization/v2_serializer.rs:135-190, into [buf] from [base] on *)
Definition encode_counts (h : hist) (buf : list Z) (base : Z) : res (list Z * result Z ser_error) :=
  m <- max h ;;
  oi <- index_for h m ;;
  index_limit <- expect oi ;;
  _ <- assert (index_limit <=? zlen (h_counts h)) ;;
  _ <- assert (base <=? zlen buf) ;;
  encode_loop (Z.to_nat (index_limit + 2)) h buf base 0 index_limit 0.

(** the header, src/serialization/v2_serializer.rs:81-93, with the placeholder for the length.  The last
    field is the bits of [1.0f64]. *)
Definition v2_header (h : hist) : list Z :=
  be_write 4 V2_COOKIE ++ be_write 4 0 ++ be_write 4 0 ++ be_write 4 (h_sigfig h) ++
  be_write 8 (h_low h) ++ be_write 8 (h_high h) ++ be_write 8 4607182418800017408.

(** [V2Serializer::serialize], src/serialization/v2_serializer.rs:70-114.  The result is the slice
    handed to [write_all]; its length is the value returned when the writer accepts it.  [junk i] is
    what the memory at position [i] of the reserved buffer holds when [set_len] exposes it. *)
Definition v2_serialize (junk : Z -> Z) (h : hist) : res (result (list Z) ser_error) :=
  om <- max_encoded_size h ;;
  match om with
  | None => Ret (RErr SerUsizeTypeTooSmall)
  | Some max_size =>
      let hd := v2_header h in
      _ <- assert (V2_HEADER_SIZE =? zlen hd) ;;
      let buf := hd ++ map (fun k => junk (V2_HEADER_SIZE + Z.of_nat k)) (seq 0 (Z.to_nat (max_size - V2_HEADER_SIZE))) in
      '(buf1, r) <- encode_counts h buf V2_HEADER_SIZE ;;
      match r with
      | RErr e => Ret (RErr e)
      | ROk counts_len =>
          total_len <- usize_add V2_HEADER_SIZE counts_len ;;
          (* (&mut self.buf[4..8]).write_u32(counts_len as u32) *)
          let buf2 := firstn 4 buf1 ++ be_write 4 (as_u32 counts_len) ++ skipn 8 buf1 in
          _ <- assert (total_len <=? zlen buf2) ;;
          Ret (ROk (firstn (Z.to_nat total_len) buf2))
      end
  end.

(** ** Deserializer *)

(** [DecodeLoopState::on_decoded_num], src/serialization/deserializer.rs:338-373.  Negating [i64::MIN]
    overflows: a panic if the build checks for overflow ([checks]), otherwise [i64::MIN] again. *)
Definition on_decoded_num (checks : bool) (dest_index count_or_zeros : Z) (rs : restat_state) (h : hist)
  : res (result (Z * restat_state * hist) deser_error) :=
  if count_or_zeros <? 0 then
    zero_count <- (if checks then in_range i64_min i64_max (- count_or_zeros) else Ret (wrap_i64 (- count_or_zeros))) ;;
    if zero_count <? 0 then Ret (RErr DeUsizeTypeTooSmall)
    else if dest_index + zero_count <=? usize_max then Ret (ROk (dest_index + zero_count, rs, h))
    else Ret (RErr DeUsizeTypeTooSmall)
  else if cmax (h_ctr h) <? count_or_zeros then Ret (RErr UnsuitableCounterType)
  else
    let next rs' h' :=
      if dest_index + 1 <=? usize_max then Ret (ROk (dest_index + 1, rs', h')) else Ret (RErr DeUsizeTypeTooSmall) in
    if 0 <? count_or_zeros then
      if dest_index <? zlen (h_counts h)
      then next (on_nonzero_count rs dest_index count_or_zeros) (set_counts h (vset (h_counts h) dest_index count_or_zeros))
      else Ret (RErr EncodedArrayTooLong)
    else next rs h.

(** the fast loop, src/serialization/deserializer.rs:174-186 *)
Fixpoint decode_fast (checks : bool) (fuel : nat) (payload : list Z) (payload_index dest_index : Z) (rs : restat_state) (h : hist)
  : res (result (Z * Z * restat_state * hist) deser_error) :=
  match fuel with
  | O => Panic
  | S f =>
      if payload_index <? Z.max 0 (zlen payload - 9) then
        '(zz_num, bytes_read) <- varint_read_slice (firstn 9 (skipn (Z.to_nat payload_index) payload)) ;;
        i <- usize_add payload_index bytes_read ;;
        r <- on_decoded_num checks dest_index (zig_zag_decode zz_num) rs h ;;
        match r with
        | RErr e => Ret (RErr e)
        | ROk (d, rs', h') => decode_fast checks f payload i d rs' h'
        end
      else Ret (ROk (payload_index, dest_index, rs, h))
  end.
(** the loop over the leftovers, src/serialization/deserializer.rs:190-195 *)
Fixpoint decode_slow (checks : bool) (fuel : nat) (cursor : list Z) (dest_index : Z) (rs : restat_state) (h : hist)
  : res (result (Z * restat_state * hist) deser_error) :=
  match fuel with
  | O => Panic
  | S f =>
      match cursor with
      | [] => Ret (ROk (dest_index, rs, h))
      | _ =>
          match varint_read cursor with
          | None => Ret (RErr DeIoError)
          | Some (n, cursor') =>
              r <- on_decoded_num checks dest_index (zig_zag_decode n) rs h ;;
              match r with
              | RErr e => Ret (RErr e)
              | ROk (d, rs', h') => decode_slow checks f cursor' d rs' h'
              end
          end
      end
  end.
(** decoding of a payload, src/serialization/deserializer.rs:170-199 *)
Definition decode_payload (checks : bool) (payload : list Z) (h : hist) : res (result hist deser_error) :=
  r <- decode_fast checks (S (length payload)) payload 0 0 restat_new h ;;
  match r with
  | RErr e => Ret (RErr e)
  | ROk (i, d, rs, h1) =>
      _ <- assert (i <=? zlen payload) ;;
      let leftover := skipn (Z.to_nat i) payload in
      r2 <- decode_slow checks (S (length leftover)) leftover d rs h1 ;;
      match r2 with
      | RErr e => Ret (RErr e)
      | ROk (_, rs2, h2) => h3 <- restat_update rs2 h2 ;; Ret (ROk h3)
      end
  end.

(** result of reading: the value and the remaining reader, or an error *)
Notation "'do' ' p <- m 'else' e ;; k" :=
  (match m with Some x => match x with p => k end | None => Ret (RErr e) end)
  (at level 61, p pattern, m at next level, e at next level, right associativity).

(** [Deserializer::deser_v2], src/serialization/deserializer.rs:137-200.  [payload_buf] is what earlier
    calls left in the buffer of the same object.  [int_double_ratio != 1.0] is a comparison with the
    only f64 equal to 1.0, so the bits are compared. *)
Definition deser_v2 (checks : bool) (payload_buf : list Z) (T : counter) (rd : list Z) : res (result (hist * list Z) deser_error) :=
  do '(payload_len, rd1) <- read_be 4 rd else DeIoError ;;
  do '(normalizing_offset, rd2) <- read_be 4 rd1 else DeIoError ;;
  if negb (normalizing_offset =? 0) then Ret (RErr UnsupportedFeature)
  else
  do '(num_digits, rd3) <- read_be 4 rd2 else DeIoError ;;
  if u8_max <? num_digits then Ret (RErr InvalidParameters)
  else
  do '(low, rd4) <- read_be 8 rd3 else DeIoError ;;
  do '(high, rd5) <- read_be 8 rd4 else DeIoError ;;
  do '(int_double_ratio, rd6) <- read_be 8 rd5 else DeIoError ;;
  if negb (int_double_ratio =? 4607182418800017408) then Ret (RErr UnsupportedFeature)
  else
    c <- new_with_bounds T low high num_digits ;;
    match c with
    | RErr _ => Ret (RErr InvalidParameters)
    | ROk h =>
        let buf := if zlen payload_buf <? payload_len then vresize payload_buf payload_len 0 else payload_buf in
        let payload_slice := firstn (Z.to_nat payload_len) buf in
        do '(bytes, rd7) <- read_exact (zlen payload_slice) rd6 else DeIoError ;;
        r <- decode_payload checks bytes h ;;
        match r with
        | RErr e => Ret (RErr e)
        | ROk h' => Ret (ROk (h', rd7))
        end
    end.

(** the flate2 crate, used at src/serialization/deserializer.rs:127 and
    src/serialization/v2_deflate_serializer.rs:117-119: [inflate bs] is what a [ZlibDecoder] over [bs] delivers before the end of the
    stream or an error, [inflate_used bs] how much of [bs] it has then taken from the reader *)
Record codec := mk_codec { deflate : list Z -> list Z; inflate : list Z -> list Z; inflate_used : list Z -> Z }.

(** [Deserializer::deser_v2_compressed], src/serialization/deserializer.rs:117-134.  A reader that ends
    within the payload makes the decoder see the shorter input. *)
Definition deser_v2_compressed (checks : bool) (cd : codec) (payload_buf : list Z) (T : counter) (rd : list Z)
  : res (result (hist * list Z) deser_error) :=
  do '(payload_len, rd1) <- read_be 4 rd else DeIoError ;;
  let taken := firstn (Z.to_nat payload_len) rd1 in
  do '(inner_cookie, drd) <- read_be 4 (inflate cd taken) else DeIoError ;;
  if negb (inner_cookie =? V2_COOKIE) then Ret (RErr InvalidCookie)
  else
    r <- deser_v2 checks payload_buf T drd ;;
    Ret (match r with
         | RErr e => RErr e
         | ROk (h, _) => ROk (h, skipn (Z.to_nat (inflate_used cd taken)) rd1)
         end).

(** [Deserializer::deserialize], src/serialization/deserializer.rs:104-115 *)
Definition deserialize (checks : bool) (cd : codec) (payload_buf : list Z) (T : counter) (rd : list Z)
  : res (result (hist * list Z) deser_error) :=
  do '(cookie, rd1) <- read_be 4 rd else DeIoError ;;
  if cookie =? V2_COOKIE then deser_v2 checks payload_buf T rd1
  else if cookie =? V2_COMPRESSED_COOKIE then deser_v2_compressed checks cd payload_buf T rd1
  else Ret (RErr InvalidCookie).

(** [V2DeflateSerializer::serialize], src/serialization/v2_deflate_serializer.rs:78-132 *)
Definition v2_deflate_serialize (cd : codec) (junk : Z -> Z) (h : hist) : res (result (list Z) ser_error) :=
  r <- v2_serialize junk h ;;
  match r with
  | RErr e => Ret (RErr e)
  | ROk uncompressed =>
      let compressed_buf := be_write 4 V2_COMPRESSED_COOKIE ++ be_write 4 0 ++ deflate cd uncompressed in
      let total_compressed_len := zlen compressed_buf in
      l <- u32_sub (as_u32 total_compressed_len) 8 ;;
      Ret (ROk (firstn 4 compressed_buf ++ be_write 4 l ++ skipn 8 compressed_buf))
  end.
