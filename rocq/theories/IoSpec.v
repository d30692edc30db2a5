(** * Vocabulary for the statements about readers and writers *)
From Verif Require Import Machine HistModel Spec SerModel SerSpec IoModel.

(** how a reader stops delivering: it says that there is no more, or fails *)
Inductive stop := End | Fails (e : Z).

(** the reader [r] delivers the bytes [bs], in pieces of any size and with any number of interruptions, and
    then stops *)
Inductive delivers : reader -> list Z -> stop -> Prop :=
| delivers_end : delivers [] [] End
| delivers_zero r : delivers (Data [] :: r) [] End
| delivers_failed e r : delivers (ReadFailed e :: r) [] (Fails e)
| delivers_interrupted r bs s : delivers r bs s -> delivers (ReadInterrupted :: r) bs s
| delivers_data c r bs s : c <> [] -> delivers r bs s -> delivers (Data c :: r) (c ++ bs) s.

(** what a read that hits the stop reports *)
Definition stop_error (s : stop) : io_error := match s with End => UnexpectedEof | Fails e => Foreign e end.

(** what is assumed of the decompressor over a reader cut off after [n] bytes: it delivers what the
    decompressor makes of those bytes, however they arrive, before it stops *)
Definition decodes (cd : codec) (zd : decoder) : Prop :=
  forall n r bs s, 0 <= n -> delivers r bs s ->
    exists s', delivers (fst (zd n r)) (inflate cd (firstn (Z.to_nat n) bs)) s'.

(** the outcome of a read from a stream agrees with that of a read from a list of bytes *)
Definition same_outcome (a : result (hist * list Z) deser_error) (b : result hist io_deser_error) : Prop :=
  match a, b with
  | ROk (h, _), ROk h' => h' = h
  | RErr DeIoError, RErr (DeIo _) => True
  | RErr e, RErr (DeOther e') => e' = e /\ e <> DeIoError
  | _, _ => False
  end.

(** a call of [write] that fails or takes nothing *)
Definition refusal (e : write_event) : Prop :=
  match e with Accept n => n <= 0 | WriteInterrupted => False | WriteFailed _ => True end.
