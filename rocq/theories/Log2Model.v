(** * The float computation in the constructor

    [(low as f64).log2().floor() as u8], src/lib.rs:760, evaluated exactly: [low as f64] rounds to
    the nearest 53-bit float, ties to even; [log2] is taken to be correctly rounded (the one
    assumption about libm, see DESIGN.md).  [Log2Spec.v] proves that this integer-only definition is
    the floor of the rounded real logarithm. *)
From Verif Require Import Machine.

(** [low as f64], src/lib.rs:760, as an integer: round to nearest even on 53 bits. *)
Definition f64_round_u64 (x : Z) : Z :=
  let e := Z.log2 x - 52 in
  if e <=? 0 then x
  else
    let q := x / 2^e in
    let r := x mod 2^e in
    let half := 2^(e-1) in
    let q' := if r <? half then q
              else if half <? r then q + 1
              else if Z.even q then q else q + 1 in
    q' * 2^e.

(** [floor (RN (log2 (RN low)))], src/lib.rs:760: the rounded logarithm reaches the next integer [k+1] exactly when
    the distance [d] of the float below [2^(k+1)] is at most [2^(k+1) * (1 - 2^(-h))] with [h] half
    an ulp of the floats just below [k+1]; [ln 2] is entered to 12 digits. *)
Definition log2_floor_f64 (low : Z) : Z :=
  let x := f64_round_u64 low in
  let k := Z.log2 x in
  let d := 2^(k+1) - x in
  if (1 <=? k) && (d * 2^52 * 10^12 <=? 693147180559 * 2^(k + Z.log2 k)) then k + 1 else k.
