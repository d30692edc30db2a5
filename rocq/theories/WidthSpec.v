(** * Vocabulary of the statements about the width of [usize] *)
From Verif Require Import Machine HistModel SerModel SerSpec WidthModel.

(** the array of counts has at most [isize::MAX] bytes, the most that a target with a [usize] of [w] bits
    can allocate *)
Definition addressable (w : Z) (h : hist) : Prop := size_of (h_ctr h) * distinct_values h <= 2 ^ (w - 1) - 1.

(** the number of bins is too large for a [usize] of [w] bits *)
Definition too_many_bins (w : Z) (h : hist) : Prop := 2 ^ w <= distinct_values h.

(** the length that the header of an image, or of an image inside compressed data, claims for its payload *)
Definition declares (cd : codec) (rd : list Z) (n : Z) : Prop :=
  (exists rest, rd = big_endian 4 0x1c849313 ++ big_endian 4 n ++ rest) \/
  (exists len z rest' rest, length len = 4%nat /\ rd = big_endian 4 0x1c849314 ++ len ++ z ++ rest' /\
     inflate cd z = big_endian 4 0x1c849313 ++ big_endian 4 n ++ rest).
