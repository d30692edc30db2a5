(** * Machine integers, panics and vectors

    Checked arithmetic as performed by a Rust build with overflow checks (debug profile):
    an operation whose mathematical result does not fit its type is [Panic].  A theorem that
    concludes [Ret ...] therefore also excludes every overflow, and then a release build
    computes the same thing. *)
From Coq Require Export ZArith List Bool Lia.
Export ListNotations.
Open Scope Z_scope.

(** what running code does: return, or panic (Rust primitive; for instance the [expect] at src/lib.rs:403 or any arithmetic overflow) *)
Inductive res (A : Type) : Type :=
| Ret (a : A)
| Panic.
Arguments Ret {A} a.
Arguments Panic {A}.

(** Rust's [Result]: plain data, as at src/lib.rs:462 or 849. *)
Inductive result (A E : Type) : Type :=
| ROk (a : A)
| RErr (e : E).
Arguments ROk {A E} a.
Arguments RErr {A E} e.

(** sequencing of statements; a panic ends it (Rust primitive, everywhere in src/lib.rs) *)
Definition bind {A B} (m : res A) (k : A -> res B) : res B :=
  match m with Ret a => k a | Panic => Panic end.
Notation "x <- m ;; k" := (bind m (fun x => k)) (at level 61, m at next level, right associativity).
Notation "' p <- m ;; k" := (bind m (fun x => match x with p => k end))
  (at level 61, p pattern, m at next level, right associativity).

(** [assert!] and [debug_assert!] (Rust primitives), as at src/lib.rs:362, 381, 1649, 1722 *)
Definition assert (b : bool) : res unit := if b then Ret tt else Panic.
(** [Option::expect] (Rust primitive), as at src/lib.rs:403, 525, 1398 *)
Definition expect {A} (o : option A) : res A :=
  match o with Some a => Ret a | None => Panic end.

(** ** Ranges *)
(** bound of the primitive type u8: src/lib.rs:191-206 *)
Definition u8_max : Z := 255.
(** bound of the primitive type u16: src/core/counter.rs:36-45 *)
Definition u16_max : Z := 65535.
(** bound of the primitive type u32: src/lib.rs:199-204 *)
Definition u32_max : Z := 4294967295.
(** bound of the primitive type u64: src/lib.rs:191-215 *)
Definition u64_max : Z := 18446744073709551615.
(** bound of the primitive type i32: src/lib.rs:368-375 *)
Definition i32_min : Z := -2147483648.
(** bound of the primitive type i32: src/lib.rs:368-375 *)
Definition i32_max : Z := 2147483647.
(** bound of the primitive type i64: src/serialization/deserializer.rs:318 *)
Definition i64_min : Z := -9223372036854775808.
(** bound of the primitive type i64: src/serialization/v2_serializer.rs:150-180 *)
Definition i64_max : Z := 9223372036854775807.
(** the model fixes a 64-bit target: [usize] (src/lib.rs:358, 1532) is 64 bits wide *)
Definition usize_max : Z := u64_max.

(** the overflow check of an arithmetic operator (Rust primitive), as at src/lib.rs:1577, 1638 *)
Definition in_range (lo hi x : Z) : res Z := if (lo <=? x) && (x <=? hi) then Ret x else Panic.

(** [+] on [u8] (Rust primitive), as at src/lib.rs:1510, 1593 *)
Definition u8_add (a b : Z) := in_range 0 u8_max (a + b).
(** [-] on [u8] (Rust primitive), as at src/lib.rs:1577 *)
Definition u8_sub (a b : Z) := in_range 0 u8_max (a - b).
(** [+] on [u32] (Rust primitive), as at src/lib.rs:1546, 1638, src/iterators/quantile.rs:138 *)
Definition u32_add (a b : Z) := in_range 0 u32_max (a + b).
(** [-] on [u32] (Rust primitive), as at src/lib.rs:1545, 1549 *)
Definition u32_sub (a b : Z) := in_range 0 u32_max (a - b).
(** [*] on [u32] (Rust primitive), as at src/lib.rs:1638, src/serialization/interval_log/mod.rs:797 *)
Definition u32_mul (a b : Z) := in_range 0 u32_max (a * b).
(** [+] on [i32] (Rust primitive), as at src/lib.rs:377 *)
Definition i32_add (a b : Z) := in_range i32_min i32_max (a + b).
(** [-] on [i32] (Rust primitive), as at src/lib.rs:375 *)
Definition i32_sub (a b : Z) := in_range i32_min i32_max (a - b).
(** [+] on [u64] (Rust primitive), as at src/lib.rs:1491, src/iterators/linear.rs:41-55 *)
Definition u64_add (a b : Z) := in_range 0 u64_max (a + b).
(** [-] on [u64] (Rust primitive), as at src/lib.rs:1479, 964, 967 *)
Definition u64_sub (a b : Z) := in_range 0 u64_max (a - b).
(** [*] on [u64] (Rust primitive), as at src/lib.rs:1650, src/iterators/quantile.rs:135-141 *)
Definition u64_mul (a b : Z) := in_range 0 u64_max (a * b).
(** [+] on [usize] (Rust primitive), as at src/lib.rs:1398, 1439, src/sync/mod.rs:48 *)
Definition usize_add (a b : Z) := in_range 0 usize_max (a + b).
(** [-] on [usize] (Rust primitive), as at src/lib.rs:402, src/sync/mod.rs:64 *)
Definition usize_sub (a b : Z) := in_range 0 usize_max (a - b).

(** Shifts panic when the amount is not smaller than the width; shifted-out bits are lost (Rust primitives);
    [<<] on [u64], as at src/lib.rs:786, 1510, 1605 *)
Definition u64_shl (x s : Z) : res Z := if s <? 64 then Ret (Z.shiftl x s mod 2^64) else Panic.
(** [>>] on [u64], as at src/lib.rs:1593 *)
Definition u64_shr (x s : Z) : res Z := if s <? 64 then Ret (Z.shiftr x s) else Panic.
(** [<<] on [u32], as at src/lib.rs:772 *)
Definition u32_shl (x s : Z) : res Z := if s <? 32 then Ret (Z.shiftl x s mod 2^32) else Panic.
(** [>>] on [usize], as at src/lib.rs:1536 *)
Definition usize_shr (x s : Z) : res Z := if s <? 64 then Ret (Z.shiftr x s) else Panic.
(** reduction to 32 bits, two's complement (Rust primitive), used by [<<] and [as i32] at src/lib.rs:369, 375 *)
Definition wrap_i32 (x : Z) : Z := (x + 2^31) mod 2^32 - 2^31.
(** [<<] on [i32], as at src/lib.rs:369 *)
Definition i32_shl (x s : Z) : res Z := if s <? 32 then Ret (wrap_i32 (Z.shiftl x s)) else Panic.

(** [as u8] (Rust primitive), as at src/lib.rs:760, 1552, 1577 *)
Definition as_u8 (x : Z) : Z := x mod 2^8.
(** [as u32] (Rust primitive), as at src/lib.rs:1593 *)
Definition as_u32 (x : Z) : Z := x mod 2^32.
(** [as i32] (Rust primitive), as at src/lib.rs:375 *)
Definition as_i32 (x : Z) : Z := wrap_i32 x.

(** [u64::leading_zeros] (Rust primitive), as at src/lib.rs:1577 *)
Definition leading_zeros (x : Z) : Z := if x =? 0 then 64 else 63 - Z.log2 x.

(** [u64::saturating_add] (Rust primitive), as at src/lib.rs:504, 927, 1441, 1502 *)
Definition sat_add64 (a b : Z) : Z := Z.min u64_max (a + b).

(** ** Counter types: src/core/counter.rs:26-67 (u8, u16, u32, u64) *)
Inductive counter := U8 | U16 | U32 | U64.
(** [T::max_value()], src/core/counter.rs:8-16, and the widths of the four types, src/core/counter.rs:26-67 *)
Definition cmax (c : counter) : Z :=
  match c with U8 => u8_max | U16 => u16_max | U32 => u32_max | U64 => u64_max end.
(** [Saturating::saturating_add] of num-traits on the counter type, as at src/lib.rs:502, 887, 906 *)
Definition csat_add (c : counter) (a b : Z) : Z := Z.min (cmax c) (a + b).
(** [CheckedAdd::checked_add] of num-traits, as at src/lib.rs:920 *)
Definition cchecked_add (c : counter) (a b : Z) : option Z :=
  if a + b <=? cmax c then Some (a + b) else None.
(** [CheckedSub::checked_sub] of num-traits, as at src/lib.rs:402, 625, 642 *)
Definition cchecked_sub (a b : Z) : option Z := if b <=? a then Some (a - b) else None.

(** ** Vectors: [Vec<T>] as lists *)

(** [Vec::len] (Rust primitive), as at src/lib.rs:303 *)
Definition zlen {A} (l : list A) : Z := Z.of_nat (length l).
(** [Vec::get] and indexing (Rust primitives), as at src/lib.rs:1556-1558 *)
Definition vget {A} (l : list A) (i : Z) : option A :=
  if (0 <=? i) && (i <? zlen l) then nth_error l (Z.to_nat i) else None.
(** assignment to the [n]-th element (Rust primitive), as at src/lib.rs:502 *)
Fixpoint upd {A} (l : list A) (n : nat) (x : A) : list A :=
  match l, n with
  | [], _ => []
  | _ :: l', O => x :: l'
  | y :: l', S n' => y :: upd l' n' x
  end.
(** [vec[i] = x] for an index in bounds (Rust primitive), as at src/lib.rs:502, 1562-1566 *)
Definition vset {A} (l : list A) (i : Z) (x : A) : list A := upd l (Z.to_nat i) x.
(** [Vec::resize(n, x)]: truncate or pad (Rust primitive), src/lib.rs:1665 *)
Definition vresize {A} (l : list A) (n : Z) (x : A) : list A :=
  firstn (Z.to_nat n) l ++ repeat x (Z.to_nat n - length l).
