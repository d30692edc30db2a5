(** * What is asked of the C library's binary logarithm *)
From Coq Require Import ZArith Reals.
From Flocq Require Import Core IEEE754.BinarySingleNaN.
From Verif Require Import Machine HistModel FloatModel FloatSpec.
Local Open Scope R_scope.

(** arguments the constructor can give it *)
Definition in_domain (y : f64) : Prop := finite y /\ 1 <= real_of y <= bpow radix2 64.

(** correctly rounded: the nearest f64 to the binary logarithm *)
Definition rounded_log2 (log2 : f64 -> f64) : Prop :=
  forall y, in_domain y -> finite (log2 y) /\ real_of (log2 y) = rne (ln (real_of y) / ln 2).

(** close to the logarithm (an error below 2^-41; one unit in the last place is at most 2^-46 here),
    exact on powers of two, monotone *)
Record good_log2 (log2 : f64 -> f64) : Prop := {
  good_near : forall y, in_domain y ->
    finite (log2 y) /\ Rabs (real_of (log2 y) - ln (real_of y) / ln 2) < bpow radix2 (-41);
  good_exact : forall y k, in_domain y -> (0 <= k)%Z -> real_of y = bpow radix2 k -> real_of (log2 y) = IZR k;
  good_monotone : forall x y, in_domain x -> in_domain y -> real_of x <= real_of y -> real_of (log2 x) <= real_of (log2 y)
}.

(** the correctly rounded function, to show that the requirements can be met; 0 outside the domain *)
Definition nearest_log2 (y : f64) : f64 :=
  let x := rne (ln (real_of y) / ln 2) in
  binary_normalize 53 1024 _ _ mode_NE (Ztrunc (scaled_mantissa radix2 (FLT_exp (-1074) 53) x)) (cexp radix2 (FLT_exp (-1074) 53) x) false.

(** a less accurate one: it gives 48 already for the arguments just below 2^48 *)
Definition coarse_log2 (y : f64) : f64 :=
  if Rle_bool (bpow radix2 48 * (1 - bpow radix2 (-42))) (real_of y) && Rlt_bool (real_of y) (bpow radix2 48)
  then f64_of_u64 48 else nearest_log2 y.

(** two histograms divide the values in the same way *)
Definition same_classes (h k : hist) : Prop :=
  forall v, lowest_equivalent h v = lowest_equivalent k v /\ highest_equivalent h v = highest_equivalent k v /\
    equivalent_range h v = equivalent_range k v /\ median_equivalent h v = median_equivalent k v /\
    next_non_equivalent h v = next_non_equivalent k v /\ forall w, equivalent h v w = equivalent k v w.
