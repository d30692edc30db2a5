(** * Vocabulary for the statements about serialization *)
From Verif Require Import Machine Log2Model HistModel Spec SerModel.

(** LEB128-64b9B: groups of seven bits, least significant first, the high bit of a byte saying that more
    follows; the ninth byte, if there is one, has eight bits. *)
Fixpoint leb (bytes_before_the_ninth : nat) (x : Z) : list Z :=
  match bytes_before_the_ninth with
  | O => [x]
  | S k => if x <? 128 then [x] else x mod 128 + 128 :: leb k (x / 128)
  end.
Definition varint (x : Z) : list Z := leb 8 x.

(** a byte string *)
Definition bytes (bs : list Z) : Prop := Forall (fun b => 0 <= b < 256) bs.

(** the [n] least significant bytes of [x], most significant first *)
Fixpoint big_endian (n : nat) (x : Z) : list Z :=
  match n with O => [] | S k => big_endian k (x / 256) ++ [x mod 256] end.

(** signed numbers as unsigned ones: 0, -1, 1, -2, 2, ... *)
Definition zig_zag (t : Z) : Z := if t <? 0 then - 2 * t - 1 else 2 * t.

(** the counts a sequence of numbers stands for: a negative number is that many zeros *)
Fixpoint expand (ts : list Z) : list Z :=
  match ts with
  | [] => []
  | t :: ts' => (if t <? 0 then repeat 0 (Z.to_nat (- t)) else [t]) ++ expand ts'
  end.

(** The V2 format: cookie, length of the payload, normalizing index offset 0, number of significant
    digits, lowest and highest trackable value, the IEEE 754 representation of the conversion ratio
    1.0, and the payload *)
Definition v2_payload (ts : list Z) : list Z := flat_map (fun t => varint (zig_zag t)) ts.
Definition v2_format (low high sigfig : Z) (ts : list Z) : list Z :=
  big_endian 4 0x1c849313 ++ big_endian 4 (zlen (v2_payload ts)) ++ big_endian 4 0 ++ big_endian 4 sigfig ++
  big_endian 8 low ++ big_endian 8 high ++ big_endian 8 0x3ff0000000000000 ++ v2_payload ts.

(** what is assumed of the decompressor on arbitrary input: it delivers bytes and takes no more than there are *)
Definition codec_ok (cd : codec) : Prop :=
  forall bs, bytes bs -> bytes (inflate cd bs) /\ 0 <= inflate_used cd bs <= zlen bs.
(** the decompressor inverts the compressor *)
Definition lossless (cd : codec) : Prop :=
  forall bs, bytes bs -> bytes (deflate cd bs) /\ inflate cd (deflate cd bs) = bs.

(** every sample count fits the [i64] the format has room for *)
Definition counts_fit_i64 (h : hist) : Prop := forall v n, In (v, n) (held h) -> n <= i64_max.

(** somewhere in [p], a number can be read that zig-zag decodes to [i64::MIN] *)
Definition has_i64_min (p : list Z) : Prop :=
  exists pre rest x post, p = pre ++ rest /\ varint_read rest = Some (x, post) /\ zig_zag_decode x = i64_min.

(** ... directly or in a compressed part *)
Definition holds_i64_min (cd : codec) (rd : list Z) : Prop :=
  exists pre p post, has_i64_min p /\
    (rd = pre ++ p ++ post \/ exists z1 z z2, rd = z1 ++ z ++ z2 /\ inflate cd z = pre ++ p ++ post).

(** reading histograms one after the other from the same reader *)
Inductive reads (checks : bool) (cd : codec) (T : counter) : list Z -> list hist -> list Z -> Prop :=
| reads_nil rd : reads checks cd T rd [] rd
| reads_cons buf rd h rd1 hs rd2 :
    deserialize checks cd buf T rd = Ret (ROk (h, rd1)) -> reads checks cd T rd1 hs rd2 ->
    reads checks cd T rd (h :: hs) rd2.
