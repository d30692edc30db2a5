(** * Vocabulary for statements about floating point results

    An f64 operation is specified by the real number it approximates and by [rne], rounding to the
    nearest binary64 number, ties to even. *)
From Coq Require Import ZArith Reals.
From Flocq Require Import Core IEEE754.BinarySingleNaN.
From Verif Require Import Machine HistModel Spec FloatModel.

(** rounding a real to binary64 (53 bits, least exponent -1074), ties to even *)
Definition rne (x : R) : R := round radix2 (FLT_exp (-1074) 53) ZnearestE x.
(** the real number an f64 stands for (0 for infinities and NaN) *)
Definition real_of (x : f64) : R := B2R x.
(** neither infinite nor NaN *)
Definition finite (x : f64) : Prop := is_finite x = true.

(** rank asked for by quantile [q] (at most 1) among [n] samples: [q * n], both operations rounded,
    rounded up, and at least 1 *)
Definition rank_of (q : R) (n : Z) : Z := Z.max 1 (Z.min u64_max (Zceil (rne (q * rne (IZR n))))).
Definition quantile_rank (q : f64) (n : Z) : Z :=
  match q with
  | B754_nan => 1
  | B754_infinity true => 1
  | B754_infinity false => rank_of 1 n
  | _ => rank_of (Rmin 1 (real_of q)) n
  end.
