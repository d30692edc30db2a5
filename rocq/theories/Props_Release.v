(** Property theorems; the proofs are in [PfRelease].  Generated by tools/gen_theorems.py. *)
From Verif Require Import Machine Log2Model HistModel Spec Reach Witness Cases FloatModel IterModel IterSpec FloatSpec ReleaseModel PfRelease.
From Coq Require Import Reals.


(** ** C75.  A build without overflow checks never panics in [value_at_quantile].  It reports the first
    class at which the number of samples so far, modulo 2^64, reaches the rank, or 0 if there is none. *)
Theorem C75_quantile : forall h q, reachable h ->
  let k := quantile_rank q (len h) in
  let so_far w := weight_between 0 w (held h) mod 2 ^ 64 in
  ((forall w n, In (w, n) (held h) -> so_far w < k) /\ value_at_quantile_release h q = Ret 0) \/
  (exists w n, In (w, n) (held h) /\ k <= so_far w /\
     (forall w' n', In (w', n') (held h) -> w' < w -> so_far w' < k) /\
     value_at_quantile_release h q = if f64_eq q f64_zero then Ret w else highest_equivalent h w).
Proof. exact C75_quantile_proof. Qed.
Print Assumptions C75_quantile.

Example ex_C75_quantile : match build U64 1 100 1 false [(5, 2 ^ 63); (40, 2 ^ 63); (60, 3)] with
  | Some h => reachable h /\ len h = u64_max /\ map (fun p => weight_between 0 (fst p) (held h) mod 2 ^ 64) (held h) = [2 ^ 63; 0; 3] /\
      value_at_quantile_release h (f64_div f64_one (f64_of_u64 2)) = Ret 5 /\ value_at_quantile_release h f64_one = Ret 0
  | _ => False end.
Proof. float_case. Qed.

Theorem C75_quantile_same : forall h q x, reachable h -> value_at_quantile h q = Ret x -> value_at_quantile_release h q = Ret x.
Proof. exact C75_quantile_same_proof. Qed.
Print Assumptions C75_quantile_same.

Example ex_C75_quantile_same : match build U64 1 100 1 false [(5, 2 ^ 62); (40, 2 ^ 63); (60, 3)] with
  | Some h => reachable h /\ value_at_quantile h (f64_div f64_one (f64_of_u64 2)) = Ret 41 /\ value_at_quantile_release h (f64_div f64_one (f64_of_u64 2)) = Ret 41
  | _ => False end.
Proof. float_case. Qed.

(** and elsewhere it can be far off: more than half of these samples are in the class of 88, and the median is reported as 0 *)
Theorem C75_median_refuted : exists h, reachable h /\ held h = [(5, 2 ^ 62); (40, 2 ^ 62 - 1); (88, 2 ^ 63 + 2 ^ 62)] /\
  value_at_quantile_release h (f64_div f64_one (f64_of_u64 2)) = Ret 0.
Proof. exact C75_median_refuted_proof. Qed.
Print Assumptions C75_median_refuted.

(** ** C75.  The linear iterator: as long as the checked build does not panic, the other one yields the
    same items, and it ends where that one ends *)
Theorem C75_linear_same : forall h step it, reachable h -> iter_linear h step = Ret it ->
  (forall items it', takes pk_linear h it items it' -> takes pk_linear_release h it items it') /\
  (forall items, drains pk_linear h it items -> drains pk_linear_release h it items).
Proof. exact C75_linear_same_proof. Qed.
Print Assumptions C75_linear_same.

Example ex_C75_linear_same : match build U64 1 10000 1 false [(5000, 8); (5, 2); (333, 1)] with
  | Some h => reachable h /\ match iter_linear h 3000 with Ret it =>
        match iter_collect 5 pk_linear h it, iter_collect 5 pk_linear_release h it with
        | Ret xs, Ret ys => map iv_value xs = [2999; 5999] /\ map iv_value ys = [2999; 5999]
        | _, _ => False end
      | _ => False end
  | _ => False end.
Proof. float_case. Qed.

Theorem C75_linear_total : forall h step, reachable h -> is_u64 step -> 0 < step ->
  exists it, iter_linear h step = Ret it /\
    forall items it', takes pk_linear_release h it items it' -> iter_next pk_linear_release h it' <> Panic.
Proof. exact C75_linear_total_proof. Qed.
Print Assumptions C75_linear_total.

(** the case in which the checked build panics (C25_overflow_refuted); here the sample is reported *)
Example ex_C75_linear_total : match build U64 1 1000 0 true [(u64_max, 1)] with
  | Some h => reachable h /\ is_u64 (2 ^ 63) /\ max h = Ret u64_max /\ match iter_linear h (2 ^ 63) with Ret it =>
        match iter_collect 5 pk_linear h it, iter_collect 5 pk_linear_release h it with
        | Panic, Ret ys => map (fun x => (iv_value x, iv_since x)) ys = [(2 ^ 63 - 1, 0); (u64_max, 1)]
        | _, _ => False end
      | _ => False end
  | _ => False end.
Proof. float_case. Qed.

(** but once a level has wrapped around, the values reported go down, all of them at the same bin *)
Theorem C75_linear_wraps_refuted : exists h it items, reachable h /\ held h = [(u64_max - (2 ^ 59 - 1), 1)] /\
  iter_linear h (2 ^ 64 - 2 ^ 61) = Ret it /\ drains pk_linear_release h it items /\
  map (fun x => (iv_value x, iv_since x)) items =
    [(7 * 2 ^ 61 - 1, 0); (6 * 2 ^ 61 - 1, 0); (5 * 2 ^ 61 - 1, 0); (4 * 2 ^ 61 - 1, 0); (3 * 2 ^ 61 - 1, 0); (2 * 2 ^ 61 - 1, 0);
     (2 ^ 61 - 1, 0); (u64_max, 1)].
Proof. exact C75_linear_wraps_refuted_proof. Qed.
Print Assumptions C75_linear_wraps_refuted.
