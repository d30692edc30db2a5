(** Property theorems; the proofs are in [PfTotal].  Generated by tools/gen_theorems.py. *)
From Verif Require Import Machine Log2Model HistModel Spec Reach Witness Cases FloatModel IterModel IterSpec FloatSpec PfTotal.
From Coq Require Import Reals.


(** ** C28.  What [value_at_quantile] does in every state, also when the counts add up to more than
    [u64::MAX]: it panics (where overflow is checked) exactly when the sample of the rank asked for is in
    the class in which the running total overflows *)
Theorem C28_outcome : forall h q, reachable h ->
  let k := quantile_rank q (len h) in
  (weight (held h) < k /\ value_at_quantile h q = Ret 0) \/
  (exists w n, In (w, n) (held h) /\ weight_between 0 w (held h) - n < k <= weight_between 0 w (held h) /\
     value_at_quantile h q =
       if u64_max <? weight_between 0 w (held h) then Panic else if f64_eq q f64_zero then Ret w else highest_equivalent h w).
Proof. exact C28_outcome_proof. Qed.
Print Assumptions C28_outcome.

Example ex_C28_outcome : match build U64 1 100 1 false [(5, 2 ^ 63); (40, 2 ^ 63); (60, 3)] with
  | Some h => reachable h /\ len h = u64_max /\ weight (held h) = 2 ^ 64 + 3 /\
      value_at_quantile h (f64_div f64_one (f64_of_u64 2)) = Ret 5 /\ value_at_quantile h f64_one = Panic /\
      weight_between 0 40 (held h) = 2 ^ 64
  | _ => False end.
Proof. float_case. Qed.

(** ** C31.  The statistics never panic either (the quantile queries as long as the counts add up to at
    most [u64::MAX]) *)
Theorem C31_statistics_total : forall h v q, reachable h -> is_u64 v ->
  mean h <> Panic /\ stdev h <> Panic /\ quantile_below h v <> Panic /\ percentile_below h v <> Panic /\
  (weight (held h) <= u64_max -> value_at_quantile h q <> Panic /\ value_at_percentile h q <> Panic).
Proof. exact C31_statistics_total_proof. Qed.
Print Assumptions C31_statistics_total.

Example ex_C31_statistics : match build U8 1 1000 1 true [(5, 200); (7, 255); (5, 100); (u64_max, 1)] with
  | Some h => reachable h /\ is_u64 u64_max /\ len h = 556 /\ weight (held h) = 511 /\ weight (held h) <= u64_max /\
      match mean h with Ret m => f64_lt (f64_of_u64 (2 ^ 54)) m = true | _ => False end /\
      value_at_quantile h f64_one = Ret 0 /\ value_at_quantile h (f64_div f64_one (f64_of_u64 2)) = Ret 7
  | _ => False end.
Proof. float_case. Qed.

Theorem C31_iterators_start : forall h n base, reachable h -> is_u64 n ->
  iter_all h <> Panic /\ iter_recorded h <> Panic /\
  (iter_quantiles h n = Panic <-> n = 0) /\
  (iter_linear h n = Panic <-> n = 0) /\
  (iter_log h n base = Panic <-> n = 0 \/ f64_lt f64_one base = false).
Proof. exact C31_iterators_start_proof. Qed.
Print Assumptions C31_iterators_start.

Example ex_C31_iterators_start : match build U64 1 1000 2 false [(5, 1)] with
  | Some h => reachable h /\ is_u64 7 /\ match iter_log h 7 (f64_of_u64 2), iter_linear h 7, iter_quantiles h 7 with Ret _, Ret _, Ret _ => True | _, _, _ => False end /\
      match iter_log h 7 f64_one, iter_linear h 0, iter_quantiles h 0 with Panic, Panic, Panic => True | _, _, _ => False end
  | _ => False end.
Proof. float_case. Qed.
