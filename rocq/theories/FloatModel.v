(** * IEEE-754 binary64 arithmetic ([f64])

    [f64] is Flocq's [binary_float 53 1024] (one NaN: the library never looks at NaN payloads), with
    every operation rounding to nearest, ties to even, as Rust specifies. *)
From Coq Require Import ZArith Bool.
From Flocq Require Import IEEE754.BinarySingleNaN.
From Verif Require Import Machine.

(** the Rust primitive type [f64], as at src/lib.rs:1293, 1340 *)
Definition f64 := binary_float 53 1024.
(** side condition of Flocq's operations at binary64 ([f64], src/lib.rs:1293): not code *)
Definition prec_gt_0_64 : FLX.Prec_gt_0 53 := eq_refl.
(** side condition of Flocq's operations at binary64 ([f64], src/lib.rs:1293): not code *)
Definition prec_lt_emax_64 : Prec_lt_emax 53 1024 := eq_refl.
#[global] Existing Instance prec_gt_0_64.
#[global] Existing Instance prec_lt_emax_64.

(** [x as f64] for an unsigned integer (Rust primitive; src/core/counter.rs:55-64 [as_f64]) *)
Definition f64_of_u64 (x : Z) : f64 := binary_normalize 53 1024 _ _ mode_NE x 0 false.
(** the literal [0.0], src/lib.rs:1295, 1298 *)
Definition f64_zero : f64 := B754_zero false.
(** the literal [1.0], src/lib.rs:1342, 1393 *)
Definition f64_one : f64 := f64_of_u64 1.
(** [*] (Rust primitive), src/lib.rs:1301, 1315, 1344 *)
Definition f64_mul (x y : f64) : f64 := Bmult mode_NE x y.
(** [/] (Rust primitive), src/lib.rs:1302, 1318, 1419 *)
Definition f64_div (x y : f64) : f64 := Bdiv mode_NE x y.
(** [+] (Rust primitive), src/lib.rs:1300, 1315 *)
Definition f64_add (x y : f64) : f64 := Bplus mode_NE x y.
(** [-] (Rust primitive), src/lib.rs:1314 *)
Definition f64_sub (x y : f64) : f64 := Bminus mode_NE x y.
(** [f64::sqrt] (Rust primitive), src/lib.rs:1318 *)
Definition f64_sqrt (x : f64) : f64 := Bsqrt mode_NE x.
(** [<] (Rust primitive), false when an operand is NaN, as are the next two; src/iterators/quantile.rs:46 *)
Definition f64_lt (x y : f64) : bool := Bltb x y.
(** [<=] (Rust primitive), unused by the code that is modelled; src/iterators/log.rs:29 uses [<] *)
Definition f64_le (x y : f64) : bool := Bleb x y.
(** [==] (Rust primitive), src/iterators/quantile.rs:96, 148 *)
Definition f64_eq (x y : f64) : bool := Beqb x y.
(** [f64::ceil] (Rust primitive), src/lib.rs:1346 *)
Definition f64_ceil (x : f64) : f64 := Bnearbyint mode_UP x.

(** [x as uN]: truncates, saturates at both ends, NaN gives 0 (Rust primitive since 1.45);
    src/lib.rs:1346 *)
Definition f64_to_uint (mx : Z) (x : f64) : Z :=
  match x with
  | B754_nan => 0
  | B754_infinity s => if s then 0 else mx
  | _ => Z.max 0 (Z.min mx (Btrunc x))
  end.
(** [x as u64], src/lib.rs:1346, src/iterators/log.rs:46-64 *)
Definition f64_to_u64 (x : f64) : Z := f64_to_uint u64_max x.
(** [x as u32], src/iterators/quantile.rs:130 *)
Definition f64_to_u32 (x : f64) : Z := f64_to_uint u32_max x.
