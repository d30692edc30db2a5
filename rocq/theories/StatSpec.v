(** * Vocabulary of the statements about [mean] and [stdev] *)
From Coq Require Import ZArith Reals List.
From Flocq Require Import Core IEEE754.BinarySingleNaN.
From Verif Require Import Machine HistModel Spec FloatModel FloatSpec.
Import ListNotations.
Local Open Scope R_scope.

(** the median of the class of a value *)
Definition class_median (h : hist) (v : Z) : Z := match median_equivalent h v with Ret m => m | Panic => 0%Z end.

(** sum of [f value * count], exact, over samples *)
Fixpoint moment (f : Z -> R) (l : list (Z * Z)) : R :=
  match l with [] => 0 | (v, n) :: l' => f v * IZR n + moment f l' end.

(** the exact mean of the class medians *)
Definition exact_mean (h : hist) : R := moment (fun v => IZR (class_median h v)) (held h) / IZR (len h).
(** the exact mean of the squared distances of the class medians (as f64) from [a] *)
Definition exact_square_dev (h : hist) (a : R) : R :=
  moment (fun v => (real_of (f64_of_u64 (class_median h v)) - a) ^ 2) (held h) / IZR (len h).

(** [x] is [y >= 0] up to [n] relative errors of 2^-53 each *)
Definition within (n : nat) (x y : R) : Prop :=
  (1 - bpow radix2 (-53)) ^ n * y <= x <= (1 + bpow radix2 (-53)) ^ n * y.

(** what the samples themselves say, exactly: their mean, root mean square and standard deviation *)
Definition sample_mean (l : list (Z * Z)) : R := moment IZR l / IZR (weight l).
Definition sample_rms (l : list (Z * Z)) : R := sqrt (moment (fun v => IZR v ^ 2) l / IZR (weight l)).
Definition sample_stdev (l : list (Z * Z)) : R := sqrt (moment (fun v => (IZR v - sample_mean l) ^ 2) l / IZR (weight l)).
