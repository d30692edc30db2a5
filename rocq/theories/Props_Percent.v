(** Property theorems; the proofs are in [PfPercent].  Generated by tools/gen_theorems.py. *)
From Verif Require Import Machine Log2Model HistModel Spec Reach Witness Cases FloatModel IterModel IterSpec FloatSpec PfPercent.
From Coq Require Import Reals.


(** ** C58.  [value_at_percentile p] is the class of the sample whose rank is [p / 100] of [len] (the
    division and the product rounded, the rank rounded up): its highest value, or its lowest if the
    rounded [p / 100] is 0 *)
Theorem C58_value_at_percentile : forall h p, reachable h -> weight (held h) <= u64_max -> finite p ->
  let q := rne (real_of p / 100) in
  let k := rank_of (Rmin 1 q) (len h) in
  (weight (held h) < k /\ value_at_percentile h p = Ret 0) \/
  (exists w n, In (w, n) (held h) /\ weight_between 0 w (held h) - n < k <= weight_between 0 w (held h) /\
     (q = 0%R -> value_at_percentile h p = Ret w) /\ (q <> 0%R -> value_at_percentile h p = highest_equivalent h w)).
Proof. exact C58_value_at_percentile_proof. Qed.
Print Assumptions C58_value_at_percentile.

Example ex_C58_value : match build U64 1 10000 1 false [(5000, 8); (5, 2); (333, 1); (900, 9)] with
  | Some h => reachable h /\ weight (held h) <= u64_max /\ finite (f64_of_u64 60) /\ len h = 20 /\ In (896, 9) (held h) /\ weight_between 0 896 (held h) = 12 /\
      value_at_percentile h (f64_of_u64 60) = Ret 927 /\ highest_equivalent h 896 = Ret 927
  | None => False end.
Proof. float_case. Qed.

(** larger percentiles report larger values *)
Theorem C58_monotone : forall h a b x y, reachable h -> len_agrees h -> len h <= 2 ^ 53 -> finite a -> finite b ->
  (0 <= real_of a <= real_of b)%R ->
  value_at_percentile h a = Ret x -> value_at_percentile h b = Ret y -> x <= y.
Proof. exact C58_monotone_proof. Qed.
Print Assumptions C58_monotone.

Example ex_C58_monotone : match build U64 1 10000 1 false [(5000, 8); (5, 2); (333, 1); (900, 9)] with
  | Some h => reachable h /\ len_agrees h /\ len h = 20 /\ finite (f64_of_u64 15) /\ finite (f64_of_u64 60) /\ f64_le (f64_of_u64 15) (f64_of_u64 60) = true /\
      value_at_percentile h (f64_of_u64 15) = Ret 335 /\ value_at_percentile h (f64_of_u64 60) = Ret 927
  | None => False end.
Proof. float_case. Qed.

(** percentile 0 is the lowest value of the first class, 100 and more the highest of the last *)
Theorem C58_ends : forall h p w n l, reachable h -> len_agrees h -> len h <= 2 ^ 53 -> finite p ->
  (real_of p = 0%R -> held h = (w, n) :: l -> value_at_percentile h p = Ret w) /\
  ((100 <= real_of p)%R -> held h = l ++ [(w, n)] -> value_at_percentile h p = highest_equivalent h w).
Proof. exact C58_ends_proof. Qed.
Print Assumptions C58_ends.

Example ex_C58_ends : match build U64 1 10000 1 false [(5000, 8); (5, 2); (333, 1); (900, 9)] with
  | Some h => reachable h /\ len_agrees h /\ len h = 20 /\ finite (f64_of_u64 0) /\ finite (f64_of_u64 200) /\ held h = (5, 2) :: [(320, 1); (896, 9); (4864, 8)] /\
      value_at_percentile h (f64_of_u64 0) = Ret 5 /\ value_at_percentile h (f64_of_u64 200) = Ret 5119
  | None => False end.
Proof. float_case. Qed.

(** [percentile_below] is 100 times [quantile_below], rounded, and between 0 and 100 *)
Theorem C58_percentile_below : forall h v, reachable h -> is_u64 v -> exists p q,
  percentile_below h v = Ret p /\ quantile_below h v = Ret q /\ finite p /\ finite q /\
  real_of p = rne (100 * real_of q) /\ (0 <= real_of p <= 100)%R /\ (len h = 0 -> real_of p = 100%R) /\
  (len_agrees h -> (forall w n, In (w, n) (held h) -> w <= v) -> real_of p = 100%R).
Proof. exact C58_percentile_below_proof. Qed.
Print Assumptions C58_percentile_below.

Example ex_C58_below : match build U64 1 10000 1 false [(5000, 8); (5, 2); (333, 1); (900, 9)] with
  | Some h => reachable h /\ is_u64 330 /\
      match percentile_below h 330, percentile_below h 5000 with Ret x, Ret y => f64_eq x (f64_of_u64 15) = true /\ f64_eq y (f64_of_u64 100) = true | _, _ => False end
  | None => False end.
Proof. float_case. Qed.

(** the iterators' [percentile()] is 100 times their [quantile()], rounded *)
Theorem C58_step_percentile : forall x, finite (iv_quantile x) -> (0 <= real_of (iv_quantile x) <= 1)%R ->
  finite (iv_percentile x) /\ real_of (iv_percentile x) = rne (100 * real_of (iv_quantile x)) /\ (0 <= real_of (iv_percentile x) <= 100)%R.
Proof. exact C58_step_percentile_proof. Qed.
Print Assumptions C58_step_percentile.

Example ex_C58 : match build U64 1 10000 1 false [(5000, 8); (5, 2); (333, 1); (900, 9)] with
  | Some h =>
      reachable h /\ map (fun n => value_at_percentile h (f64_of_u64 n)) [0; 10; 11; 15; 60; 61; 100; 200] =
        [Ret 5; Ret 5; Ret 335; Ret 335; Ret 927; Ret 5119; Ret 5119; Ret 5119] /\
      match percentile_below h 330 with Ret p => f64_eq p (f64_of_u64 15) = true | Panic => False end
  | _ => False end.
Proof. float_case. Qed.
