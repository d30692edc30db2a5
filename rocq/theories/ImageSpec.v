(** * Vocabulary for the statements about the images the deserializer accepts *)
From Verif Require Import Machine Log2Model HistModel Spec SerModel SerSpec.

(** The bytes of an image of the V2 format, whatever the payload [p] *)
Definition v2_image (low high sigfig : Z) (p : list Z) : list Z :=
  big_endian 4 0x1c849313 ++ big_endian 4 (zlen p) ++ big_endian 4 0 ++ big_endian 4 sigfig ++
  big_endian 8 low ++ big_endian 8 high ++ big_endian 8 0x3ff0000000000000 ++ p.

(** Bytes that encode the number [x]: seven bits a byte, least significant first, the high bit saying that
    more bytes follow; a ninth byte has eight bits.  Unlike [leb], this allows needless bytes. *)
Inductive number : nat -> list Z -> Z -> Prop :=
| number_ninth b : number 0 [b] b
| number_last k b : b < 128 -> number (S k) [b] b
| number_more k b bs x : 128 <= b -> number k bs x -> number (S k) (b :: bs) (b - 128 + 128 * x).

(** a payload that encodes the signed numbers [ts] *)
Inductive numbers : list Z -> list Z -> Prop :=
| numbers_nil : numbers [] []
| numbers_cons c t p ts : number 8 c (zig_zag t) -> numbers p ts -> numbers (c ++ p) (t :: ts).

(** the numbers [ts] are counts for [slots] classes: every count fits the counter type, no run of zeros is
    of length 2^63, there are not more counts than a [usize] can number, those beyond the classes are zero *)
Definition fits (T : counter) (slots : Z) (ts : list Z) : Prop :=
  Forall (fun t => i64_min < t <= cmax T) ts /\ zlen (expand ts) <= usize_max /\
  forall i, slots <= i -> nth (Z.to_nat i) (expand ts) 0 = 0.

(** [ts] is the shortest way to write its counts: a run of zeros is one number, a single zero is not a run *)
Definition canonical (ts : list Z) : Prop :=
  ~ In (-1) ts /\ forall before a b after, ts = before ++ a :: b :: after -> 0 < a \/ 0 < b.
