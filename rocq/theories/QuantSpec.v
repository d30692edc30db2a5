(** * Vocabulary of the statements about [iter_quantiles] *)
From Coq Require Import ZArith Reals List.
From Flocq Require Import Core IEEE754.BinarySingleNaN.
From Verif Require Import Machine HistModel Spec FloatModel FloatSpec IterModel IterSpec.
Import ListNotations.

(** what is assumed of the C library's [log2]: between 2^k and 2^(k+1) the result is between k and
    k + 1, and it is below k + 1 unless the argument is within a factor of 1 - 2^-40 of 2^(k+1) (a
    monotone function that is exact on powers of two and has an error below 2^-41 has this property) *)
Definition log2_ok (log2 : f64 -> f64) : Prop :=
  forall y k, finite y -> (-1 <= k <= 1022)%Z -> (bpow radix2 k <= real_of y <= bpow radix2 (k + 1))%R ->
    finite (log2 y) /\ (IZR k <= real_of (log2 y) <= IZR k + 1)%R /\
    ((0 <= k)%Z -> (real_of y <= bpow radix2 (k + 1) * (1 - bpow radix2 (-40)))%R -> (real_of (log2 y) < IZR k + 1)%R).

(** a function meeting it, for the examples *)
Definition floor_log2 (y : f64) : f64 := f64_of_u64 (Z.log2 (Btrunc y)).

(** the tick after quantile [q]: the distance to 1 has been halved [j] times, up to a relative 2^-38;
    the half of it that is walked now is divided into [ticks] steps; when the step is too small to
    change [q], the next quantile is 1 *)
Definition tick (ticks : Z) (q q' : R) : Prop :=
  exists j : Z, (0 <= j)%Z /\ (bpow radix2 (- (j + 1)) < 1 - q <= bpow radix2 (- j) * (1 + bpow radix2 (-38)))%R /\
    let s := rne (q + rne (/ (IZR ticks * bpow radix2 (j + 1)))) in
    (s <> q /\ q' = s) \/ (s = q /\ q' = 1%R).

(** the fraction of the samples in the class starting at [w] and below *)
Definition quantile_at (h : hist) (w : Z) : f64 :=
  f64_div (f64_of_u64 (Z.min u64_max (weight_between 0 w (held h)))) (f64_of_u64 (len h)).

(** the item is for the first class with samples whose fraction is not below the iterated quantile *)
Definition first_reaching (h : hist) (x : item) : Prop :=
  exists w, In (w, iv_count x) (held h) /\ highest_equivalent h w = Ret (iv_value x) /\
    iv_quantile x = quantile_at h w /\ f64_lt (iv_quantile x) (iv_qto x) = false /\
    forall w' n', In (w', n') (held h) -> (w' < w)%Z -> f64_lt (quantile_at h w') (iv_qto x) = true.
