(** * Serializing to a [Write] and deserializing from a [Read]

    [SerModel] serializes to a list of bytes and deserializes from one.  Here the other end is any
    implementation of [io::Write] or [io::Read]: it may take or deliver the bytes in pieces of any size,
    be interrupted, or fail at any byte. *)
From Verif Require Import Machine HistModel SerModel.

(** [io::Error] (Rust primitive, carried by the errors at src/serialization/v2_serializer.rs:17,
    src/serialization/v2_deflate_serializer.rs:17 and src/serialization/deserializer.rs:14): the two kinds the
    standard library makes itself, and those of the other end *)
Inductive io_error := UnexpectedEof | WriteZero | Foreign (e : Z).

(** ** Readers *)

(** What one call of [Read::read] with a large enough buffer returns (Rust primitive, called through
    [read_exact] at src/serialization/deserializer.rs:108-168): [Ok] with some bytes - none means the end -,
    an error of kind [Interrupted], or another error. *)
Inductive read_event := Data (bs : list Z) | ReadInterrupted | ReadFailed (e : Z).
(** an implementation of [Read] (src/serialization/deserializer.rs:104): what the coming calls return, then the
    end.  A call with a smaller buffer leaves the rest of the bytes for the next one. *)
Definition reader := list read_event.

(** [Read::read_exact] of the standard library, used at src/serialization/deserializer.rs:168 and by
    byteorder at 108-156: reads again after an interruption and after a short read *)
Fixpoint io_read_exact (n : Z) (r : reader) : result (list Z) io_error * reader :=
  if n <=? 0 then (ROk [], r)
  else
    match r with
    | [] => (RErr UnexpectedEof, [])
    | ReadInterrupted :: r' => io_read_exact n r'
    | ReadFailed e :: r' => (RErr (Foreign e), r')
    | Data bs :: r' =>
        if zlen bs =? 0 then (RErr UnexpectedEof, r')
        else if n <? zlen bs then (ROk (firstn (Z.to_nat n) bs), Data (skipn (Z.to_nat n) bs) :: r')
        else
          match io_read_exact (n - zlen bs) r' with
          | (ROk more, r'') => (ROk (bs ++ more), r'')
          | (RErr e, r'') => (RErr e, r'')
          end
    end.
(** byteorder's reads of big-endian integers (src/serialization/deserializer.rs:108-156) *)
Definition io_read_be (n : Z) (r : reader) : result Z io_error * reader :=
  match io_read_exact n r with
  | (ROk bs, r') => (ROk (be_value bs 0), r')
  | (RErr e, r') => (RErr e, r')
  end.

(** [DeserializeError], src/serialization/deserializer.rs:12-30, with the [io::Error] it carries *)
Inductive io_deser_error := DeIo (e : io_error) | DeOther (e : deser_error).
(** errors of the decoding loops, which read from a [Cursor] over the payload
    (src/serialization/deserializer.rs:190-195): its only error is [UnexpectedEof] *)
Definition of_deser_error (e : deser_error) : io_deser_error :=
  match e with DeIoError => DeIo UnexpectedEof | _ => DeOther e end.

(** the operator [?] on a read (Rust primitive), src/serialization/deserializer.rs:108-168 *)
Notation "'receive' x , r <~ m ;; k" :=
  (match m with (ROk x, r) => k | (RErr e, r) => Ret (RErr (DeIo e), r) end)
  (at level 61, x name, r name, m at next level, right associativity).

(** [Deserializer::deser_v2], src/serialization/deserializer.rs:137-200; see [SerModel.deser_v2] *)
Definition io_deser_v2 (checks : bool) (payload_buf : list Z) (T : counter) (r0 : reader)
  : res (result hist io_deser_error * reader) :=
  receive payload_len, r1 <~ io_read_be 4 r0 ;;
  receive normalizing_offset, r2 <~ io_read_be 4 r1 ;;
  if negb (normalizing_offset =? 0) then Ret (RErr (DeOther UnsupportedFeature), r2)
  else
  receive num_digits, r3 <~ io_read_be 4 r2 ;;
  if u8_max <? num_digits then Ret (RErr (DeOther InvalidParameters), r3)
  else
  receive low, r4 <~ io_read_be 8 r3 ;;
  receive high, r5 <~ io_read_be 8 r4 ;;
  receive int_double_ratio, r6 <~ io_read_be 8 r5 ;;
  if negb (int_double_ratio =? 4607182418800017408) then Ret (RErr (DeOther UnsupportedFeature), r6)
  else
    c <- new_with_bounds T low high num_digits ;;
    match c with
    | RErr _ => Ret (RErr (DeOther InvalidParameters), r6)
    | ROk h =>
        let buf := if zlen payload_buf <? payload_len then vresize payload_buf payload_len 0 else payload_buf in
        let payload_slice := firstn (Z.to_nat payload_len) buf in
        receive bytes, r7 <~ io_read_exact (zlen payload_slice) r6 ;;
        d <- decode_payload checks bytes h ;;
        match d with
        | RErr e => Ret (RErr (of_deser_error e), r7)
        | ROk h' => Ret (ROk h', r7)
        end
    end.

(** A [ZlibDecoder] over [reader.take(n)] (flate2 crate, used at src/serialization/deserializer.rs:127): what it
    delivers, and what is left of the reader once it has been dropped.  An oracle. *)
Definition decoder := Z -> reader -> reader * reader.

(** [Deserializer::deser_v2_compressed], src/serialization/deserializer.rs:117-134 *)
Definition io_deser_v2_compressed (checks : bool) (zd : decoder) (payload_buf : list Z) (T : counter) (r0 : reader)
  : res (result hist io_deser_error * reader) :=
  receive payload_len, r1 <~ io_read_be 4 r0 ;;
  let '(deflate_reader, r2) := zd payload_len r1 in
  match io_read_be 4 deflate_reader with
  | (RErr e, _) => Ret (RErr (DeIo e), r2)
  | (ROk inner_cookie, deflate_reader1) =>
      if negb (inner_cookie =? V2_COOKIE) then Ret (RErr (DeOther InvalidCookie), r2)
      else
        '(r, _) <- io_deser_v2 checks payload_buf T deflate_reader1 ;;
        Ret (r, r2)
  end.

(** [Deserializer::deserialize], src/serialization/deserializer.rs:104-115 *)
Definition io_deserialize (checks : bool) (zd : decoder) (payload_buf : list Z) (T : counter) (r0 : reader)
  : res (result hist io_deser_error * reader) :=
  receive cookie, r1 <~ io_read_be 4 r0 ;;
  if cookie =? V2_COOKIE then io_deser_v2 checks payload_buf T r1
  else if cookie =? V2_COMPRESSED_COOKIE then io_deser_v2_compressed checks zd payload_buf T r1
  else Ret (RErr (DeOther InvalidCookie), r1).

(** ** Writers *)

(** What one call of [Write::write] does (Rust primitive, called through [write_all] at
    src/serialization/v2_serializer.rs:110-111 and src/serialization/v2_deflate_serializer.rs:129): takes up to so
    many bytes, or returns an error of kind [Interrupted], or another error. *)
Inductive write_event := Accept (n : Z) | WriteInterrupted | WriteFailed (e : Z).
(** an implementation of [Write] (src/serialization/v2_serializer.rs:70): what it has taken so far and what the
    coming calls do; after them it takes everything *)
Record writer := mk_writer { w_out : list Z; w_script : list write_event }.

(** [Write::write_all] of the standard library, used at src/serialization/v2_serializer.rs:110-111 and
    src/serialization/v2_deflate_serializer.rs:129 *)
Fixpoint io_write_all (script : list write_event) (out bs : list Z) : writer * result unit io_error :=
  if zlen bs =? 0 then (mk_writer out script, ROk tt)
  else
    match script with
    | [] => (mk_writer (out ++ bs) [], ROk tt)
    | WriteInterrupted :: s => io_write_all s out bs
    | WriteFailed e :: s => (mk_writer out s, RErr (Foreign e))
    | Accept n :: s =>
        if n <=? 0 then (mk_writer out s, RErr WriteZero)
        else io_write_all s (out ++ firstn (Z.to_nat n) bs) (skipn (Z.to_nat n) bs)
    end.

(** [V2SerializeError], src/serialization/v2_serializer.rs:9-18, with the [io::Error] it carries *)
Inductive io_ser_error := SerIo (e : io_error) | SerOther (e : ser_error).
(** [V2DeflateSerializeError], src/serialization/v2_deflate_serializer.rs:13-18 *)
Inductive io_deflate_error := InternalSerializationError (e : io_ser_error) | DeflateIo (e : io_error).

(** [V2Serializer::serialize], src/serialization/v2_serializer.rs:70-114: the image is complete before the
    writer is called *)
Definition io_v2_serialize (junk : Z -> Z) (h : hist) (w : writer) : res (writer * result Z io_ser_error) :=
  r <- v2_serialize junk h ;;
  Ret (match r with
       | RErr e => (w, RErr (SerOther e))
       | ROk bs =>
           match io_write_all (w_script w) (w_out w) bs with
           | (w', ROk _) => (w', ROk (zlen bs))
           | (w', RErr e) => (w', RErr (SerIo e))
           end
       end).
(** [V2DeflateSerializer::serialize], src/serialization/v2_deflate_serializer.rs:78-132; the writes to the two
    vectors do not fail *)
Definition io_v2_deflate_serialize (cd : codec) (junk : Z -> Z) (h : hist) (w : writer)
  : res (writer * result Z io_deflate_error) :=
  r <- v2_deflate_serialize cd junk h ;;
  Ret (match r with
       | RErr e => (w, RErr (InternalSerializationError (SerOther e)))
       | ROk bs =>
           match io_write_all (w_script w) (w_out w) bs with
           | (w', ROk _) => (w', ROk (zlen bs))
           | (w', RErr e) => (w', RErr (DeflateIo e))
           end
       end).
