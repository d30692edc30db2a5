(** Property theorems; the proofs are in [PfLevel].  Generated by tools/gen_theorems.py. *)
From Verif Require Import Machine Log2Model HistModel Spec Reach Witness Cases FloatModel IterModel IterSpec PfLevel.
From Coq Require Import Sorted.


(** ** C25.  [iter_linear] reports at [step - 1], [2 * step - 1], ...; it goes on until the class of the
    maximum has been reported and the next level is in another class.  The levels it computes end less
    than two steps (and the width of a class) above the maximum; as long as those are below [u64::MAX]
    nothing panics. *)
Theorem C25_linear : forall h step mx lo t, reachable h -> 0 < step ->
  max h = Ret mx -> lowest_equivalent h mx = Ret lo ->
  mx + step <= u64_max -> highest_equivalent h (mx + step) = Ret t -> t + step < u64_max ->
  exists it items n, iter_linear h step = Ret it /\ drains pk_linear h it items /\
    at_levels h 0 items (map (linear_level step) (seq 0 (S n))) /\
    (forall k, (k < n)%nat -> goes_on h lo (linear_level step k) (linear_level step (S k))) /\
    ~ goes_on h lo (linear_level step n) (linear_level step (S n)) /\
    (weight (held h) <= u64_max -> reported items = weight (held h)).
Proof. exact C25_linear_proof. Qed.
Print Assumptions C25_linear.

Example ex_C25 : match build U64 1 10000 0 false [(5, 2); (333, 1); (410, 4); (300, 1)] with
  | Some h => reachable h /\ match iter_linear h 50, lowest_equivalent h 511 with
      | Ret it, Ret lo => match iter_collect 12 pk_linear h it with
          | Ret xs => map (fun x => (iv_value x, iv_count x, iv_since x)) xs =
              [(49, 0, 2); (99, 0, 0); (149, 0, 0); (199, 0, 0); (249, 0, 0); (299, 6, 6); (349, 6, 0); (399, 6, 0); (449, 6, 0); (499, 6, 0)] /\
              held h = [(4, 2); (256, 6)] /\ lo = 256 /\ max h = Ret 511 /\ highest_equivalent h (511 + 50) = Ret 1023
          | _ => False end
      | _, _ => False end
  | _ => False end.
Proof. float_case. Qed.

(** close to [u64::MAX] computing the next level overflows (a panic in a build with overflow checks) and
    the largest sample is never reported *)
Theorem C25_overflow_refuted : exists h it it' x, reachable h /\ max h = Ret u64_max /\ weight (held h) = 1 /\
  iter_linear h (2 ^ 63) = Ret it /\ iter_next pk_linear h it = Ret (it', Some x) /\ iv_since x = 0 /\ iter_next pk_linear h it' = Panic.
Proof. exact C25_overflow_refuted_proof. Qed.
Print Assumptions C25_overflow_refuted.

(** with no significant digits and the full range, deciding whether to go on shifts by 64 bits: a panic
    although all levels fit *)
Theorem C25_shift_refuted : exists h it items it', reachable h /\ held h = [(2 ^ 63, 1)] /\
  iter_linear h (2 ^ 61) = Ret it /\ takes pk_linear h it items it' /\
  map iv_value items = map (linear_level (2 ^ 61)) (seq 0 5) /\ linear_level (2 ^ 61) 6 < u64_max /\ iter_next pk_linear h it' = Panic.
Proof. exact C25_shift_refuted_proof. Qed.
Print Assumptions C25_shift_refuted.

Theorem C26_log : forall h start base mx lo, reachable h -> is_u64 start -> 0 < start -> f64_lt f64_one base = true ->
  max h = Ret mx -> lowest_equivalent h mx = Ret lo ->
  exists it items n, let levels := (start - 1) :: log_levels (f64_of_u64 start) base n in
    iter_log h start base = Ret it /\ drains pk_log h it items /\ at_levels h 0 items levels /\
    Sorted Z.le levels /\ Forall (fun l => l < lo) (removelast levels) /\ lo <= last levels 0 /\
    (weight (held h) <= u64_max -> reported items = weight (held h)).
Proof. exact C26_log_proof. Qed.
Print Assumptions C26_log.

Example ex_C26 : match build U64 1 10000 1 false [(5, 2); (333, 1); (410, 4); (415, 1)] with
  | Some h => reachable h /\ match iter_log h 7 (f64_div (f64_of_u64 5) (f64_of_u64 2)) with
      | Ret it => match iter_collect 12 pk_log h it with
          | Ret xs => map (fun x => (iv_value x, iv_count x, iv_since x)) xs = [(6, 0, 2); (16, 0, 0); (42, 0, 0); (108, 0, 0); (272, 0, 0); (682, 0, 6)] /\
              held h = [(5, 2); (320, 1); (400, 5)] /\ max h = Ret 415 /\ lowest_equivalent h 415 = Ret 400
          | _ => False end
      | _ => False end
  | _ => False end.
Proof. float_case. Qed.

(** when start and base are integers the levels are [start * base^k - 1], exactly while those are below
    2^53 *)
Theorem C26_integer_base : forall start b n k, 0 < start -> 1 < b -> (k < n)%nat -> start * b ^ (Z.of_nat k + 1) <= 2 ^ 53 ->
  nth_error (log_levels (f64_of_u64 start) (f64_of_u64 b) n) k = Some (start * b ^ (Z.of_nat k + 1) - 1).
Proof. exact C26_integer_base_proof. Qed.
Print Assumptions C26_integer_base.

Example ex_C26_integer_base : log_levels (f64_of_u64 3) (f64_of_u64 10) 4 = [29; 299; 2999; 29999].
Proof. vm_compute. auto. Qed.
