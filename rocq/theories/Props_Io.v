(** Property theorems; the proofs are in [PfIo].  Generated by tools/gen_theorems.py. *)
From Verif Require Import Machine Log2Model HistModel Spec Reach Witness Cases CasesSer CasesIo SerModel SerSpec IoModel IoSpec PfIo.

(** ** C68.  Every reader delivers certain bytes and then stops, in one way *)
Theorem C68_delivers : forall r, exists bs s, delivers r bs s /\ forall bs' s', delivers r bs' s' -> bs' = bs /\ s' = s.
Proof. exact C68_delivers_proof. Qed.
Print Assumptions C68_delivers.

Example ex_C68_delivers : delivers [Data [1; 2]; ReadInterrupted; Data [3]; ReadFailed 4; Data [5]] [1; 2; 3] (Fails 4) /\
  delivers [Data [1; 2]; Data []; Data [5]] [1; 2] End.
Proof. io_case. Qed.

(** The outcome of deserialize depends only on the bytes that the reader delivers before it stops, not on the
    pieces in which they come: the same histogram, the same error *)
Theorem C68_outcome : forall checks cd zd buf T r bs s, decodes cd zd -> bytes bs -> delivers r bs s ->
  match deserialize checks cd buf T bs with
  | Panic => io_deserialize checks zd buf T r = Panic
  | Ret x => exists y r', io_deserialize checks zd buf T r = Ret (y, r') /\ same_outcome x y
  end.
Proof. exact C68_outcome_proof. Qed.
Print Assumptions C68_outcome.

(** a compressed image that arrives in two pieces, and one of another counter type *)
Example ex_C68_outcome : match build U16 1 10000 2 false [(3, 7); (500, 256)] with
  | Some h => match v2_deflate_serialize twice (fun _ => 77) h with
      | Ret (ROk zs) => let r := [Data (firstn 20 zs); ReadInterrupted; Data (skipn 20 zs)] in
          decodes twice (over twice) /\ bytes zs /\ delivers r zs End /\
          match deserialize true twice [] U16 zs, io_deserialize true (over twice) [] U16 r with
          | Ret (ROk (h1, _)), Ret (ROk h2, _) => h1 = h2 /\ held h1 = [(3, 7); (500, 256)]
          | _, _ => False end /\
          deserialize true twice [] U8 zs = Ret (RErr UnsuitableCounterType) /\
          match io_deserialize true (over twice) [] U8 r with Ret (RErr e, _) => e = DeOther UnsuitableCounterType | _ => False end
      | _ => False end
  | None => False end.
Proof. io_case. Qed.

(** Unless the image is compressed, what follows it is left to the next read; an error of the reader is passed
    on, unless the whole image had been read, and the error is in the image whatever follows it *)
Theorem C68_plain : forall checks cd zd buf T r bs s, delivers r bs s -> bytes bs ->
  (forall rest, bs <> big_endian 4 0x1c849314 ++ rest) ->
  match deserialize checks cd buf T bs with
  | Panic => io_deserialize checks zd buf T r = Panic
  | Ret (ROk (h, rest)) => exists r', io_deserialize checks zd buf T r = Ret (ROk h, r') /\ delivers r' rest s
  | Ret (RErr e) => exists r' e', io_deserialize checks zd buf T r = Ret (RErr e', r') /\
      (e <> DeIoError -> e' = DeOther e) /\
      (e = DeIoError -> e' = DeIo (stop_error s) \/
         e' = DeIo UnexpectedEof /\ forall c, deserialize checks cd buf T (bs ++ c) = Ret (RErr DeIoError))
  end.
Proof. exact C68_plain_proof. Qed.
Print Assumptions C68_plain.

(** an image that arrives in pieces of 3, 39 and 3 bytes with interruptions, followed by a byte of something else;
    the same one with a failure before its last byte *)
Example ex_C68_reader : match build U16 1 10000 2 false [(3, 7); (500, 2)] with
  | Some h => match v2_serialize (fun _ => 77) h with
      | Ret (ROk bs) => zlen bs = 45 /\ bytes (bs ++ [9]) /\ decodes plain (over plain) /\
          (let r := [Data (firstn 3 bs); ReadInterrupted; Data (firstn 39 (skipn 3 bs)); ReadInterrupted; Data (skipn 42 bs); Data [9]] in
           delivers r (bs ++ [9]) End /\
           match io_deserialize true (over plain) [] U16 r with
           | Ret (ROk h', r') => held h' = held h /\ r' = [Data [9]] | _ => False end) /\
          (let r := [Data (firstn 44 bs); ReadFailed 5; Data [9]] in
           delivers r (firstn 44 bs) (Fails 5) /\
           io_deserialize true (over plain) [] U16 r = Ret (RErr (DeIo (Foreign 5)), [Data [9]]))
      | _ => False end
  | None => False end.
Proof. io_case. Qed.

(** What serialize hands to the writer: everything when it reports success, and then it returns the number of
    bytes; a proper part of the front when the writer fails, and then it returns the writer's error; nothing
    when the histogram cannot be serialized *)
Theorem C68_writer : forall junk h w, reachable h ->
  exists w' x, io_v2_serialize junk h w = Ret (w', x) /\
  match x with
  | ROk n => exists bs, v2_serialize junk h = Ret (ROk bs) /\ n = zlen bs /\ w_out w' = w_out w ++ bs
  | RErr (SerIo e) => exists bs taken rest, v2_serialize junk h = Ret (ROk bs) /\ bs = taken ++ rest /\ rest <> [] /\
      w_out w' = w_out w ++ taken /\ (e = WriteZero \/ exists k, e = Foreign k /\ In (WriteFailed k) (w_script w))
  | RErr (SerOther e) => w' = w /\ e = CountNotSerializable /\ v2_serialize junk h = Ret (RErr e)
  end.
Proof. exact C68_writer_proof. Qed.
Print Assumptions C68_writer.

(** a writer that takes at least a byte whenever it is called and does not fail gets everything *)
Theorem C68_willing : forall junk h w bs, v2_serialize junk h = Ret (ROk bs) -> Forall (fun e => ~ refusal e) (w_script w) ->
  exists w', io_v2_serialize junk h w = Ret (w', ROk (zlen bs)) /\ w_out w' = w_out w ++ bs.
Proof. exact C68_willing_proof. Qed.
Print Assumptions C68_willing.

Example ex_C68_willing : match build U16 1 10000 2 false [(3, 7); (500, 2)] with
  | Some h => match v2_serialize (fun _ => 77) h with
      | Ret (ROk bs) => Forall (fun e => ~ refusal e) [Accept 1; WriteInterrupted; Accept 30] /\
          io_v2_serialize (fun _ => 77) h (mk_writer [8] [Accept 1; WriteInterrupted; Accept 30]) = Ret (mk_writer (8 :: bs) [], ROk 45)
      | _ => False end
  | None => False end.
Proof. io_case. Qed.

(** the same for the compressed form; the errors of the writer are told from those of the serialization *)
Theorem C68_deflate_writer : forall cd junk h w w' x, io_v2_deflate_serialize cd junk h w = Ret (w', x) ->
  match x with
  | ROk n => exists bs, v2_deflate_serialize cd junk h = Ret (ROk bs) /\ n = zlen bs /\ w_out w' = w_out w ++ bs
  | RErr (DeflateIo e) => exists bs taken rest, v2_deflate_serialize cd junk h = Ret (ROk bs) /\ bs = taken ++ rest /\ rest <> [] /\
      w_out w' = w_out w ++ taken /\ (e = WriteZero \/ exists k, e = Foreign k /\ In (WriteFailed k) (w_script w))
  | RErr (InternalSerializationError e) => w' = w /\ exists e', e = SerOther e' /\ v2_deflate_serialize cd junk h = Ret (RErr e')
  end.
Proof. exact C68_deflate_writer_proof. Qed.
Print Assumptions C68_deflate_writer.

Example ex_C68_deflate_writer : match build U16 1 10000 2 false [(3, 7); (500, 2)], build U64 1 10000 2 false [(3, i64_max); (3, 1)] with
  | Some h, Some h2 => match v2_deflate_serialize twice (fun _ => 77) h with
      | Ret (ROk zs) => zlen zs = 99 /\
          io_v2_deflate_serialize twice (fun _ => 1) h (mk_writer [8] [Accept 30; WriteInterrupted]) = Ret (mk_writer (8 :: zs) [], ROk 99) /\
          io_v2_deflate_serialize twice (fun _ => 1) h (mk_writer [8] [Accept 30; WriteFailed 5]) =
            Ret (mk_writer (8 :: firstn 30 zs) [], RErr (DeflateIo (Foreign 5))) /\
          io_v2_deflate_serialize twice (fun _ => 1) h2 (mk_writer [8] []) = Ret (mk_writer [8] [], RErr (InternalSerializationError (SerOther CountNotSerializable)))
      | _ => False end
  | _, _ => False end.
Proof. io_case. Qed.

(** a failed write spoils nothing: the same histogram and the same serializer, whatever its buffer holds now, give
    the whole image to the next willing writer *)
Theorem C68_retry : forall junk junk' h w w1 e w2, reachable h ->
  io_v2_serialize junk h w = Ret (w1, RErr (SerIo e)) -> Forall (fun e => ~ refusal e) (w_script w2) ->
  exists bs w', v2_serialize junk h = Ret (ROk bs) /\
    io_v2_serialize junk' h w2 = Ret (w', ROk (zlen bs)) /\ w_out w' = w_out w2 ++ bs.
Proof. exact C68_retry_proof. Qed.
Print Assumptions C68_retry.

Example ex_C68_retry : match build U16 1 10000 2 false [(3, 7); (500, 2)] with
  | Some h => reachable h /\ match v2_serialize (fun _ => 77) h with
      | Ret (ROk bs) =>
          io_v2_serialize (fun _ => 77) h (mk_writer [] [Accept 30; WriteFailed 5]) = Ret (mk_writer (firstn 30 bs) [], RErr (SerIo (Foreign 5))) /\
          Forall (fun e => ~ refusal e) [Accept 1] /\ io_v2_serialize (fun _ => 3) h (mk_writer [9] [Accept 1]) = Ret (mk_writer (9 :: bs) [], ROk 45)
      | _ => False end
  | None => False end.
Proof. io_case. Qed.

(** what a writer reported as written is read back by whatever delivers it, and what follows is left *)
Theorem C68_round_trip : forall checks zd buf junk h w w' n image r rest s, reachable h ->
  io_v2_serialize junk h w = Ret (w', ROk n) -> w_out w' = w_out w ++ image ->
  delivers r (image ++ rest) s -> bytes rest ->
  exists h' r', io_deserialize checks zd buf (h_ctr h) r = Ret (ROk h', r') /\ delivers r' rest s /\
    held h' = held h /\ h_low h' = h_low h /\ h_high h' = h_high h /\ h_sigfig h' = h_sigfig h.
Proof. exact C68_round_trip_proof. Qed.
Print Assumptions C68_round_trip.

(** a writer that takes 30 bytes and fails, then one that takes 30, is interrupted, and takes the rest *)
Example ex_C68_writer : match build U16 1 10000 2 false [(3, 7); (500, 2)] with
  | Some h => reachable h /\ match v2_serialize (fun _ => 77) h with
      | Ret (ROk bs) =>
          io_v2_serialize (fun _ => 1) h (mk_writer [] [Accept 30; WriteFailed 5]) = Ret (mk_writer (firstn 30 bs) [], RErr (SerIo (Foreign 5))) /\
          io_v2_serialize (fun _ => 2) h (mk_writer [] [Accept 30; WriteInterrupted]) = Ret (mk_writer bs [], ROk 45) /\
          Forall (fun e => ~ refusal e) [Accept 30; WriteInterrupted] /\
          delivers [Data (firstn 10 bs); Data (skipn 10 bs); Data [4]] (bs ++ [4]) End /\ bytes [4] /\
          match io_deserialize true (over plain) [] (h_ctr h) [Data (firstn 10 bs); Data (skipn 10 bs); Data [4]] with
          | Ret (ROk h', r') => held h' = [(3, 7); (500, 2)] /\ delivers r' [4] End
          | _ => False end
      | _ => False end
  | None => False end.
Proof. io_case. Qed.
