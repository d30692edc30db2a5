(** Property theorems; the proofs are in [PfQuantile].  Generated by tools/gen_theorems.py. *)
From Verif Require Import Machine Log2Model HistModel Spec Reach Witness Cases FloatModel IterModel IterSpec FloatSpec PfQuantile.
From Coq Require Import Reals.


Theorem C28_rank : forall h q, reachable h -> weight (held h) <= u64_max ->
  let k := quantile_rank q (len h) in
  (weight (held h) < k /\ value_at_quantile h q = Ret 0) \/
  (exists w n, In (w, n) (held h) /\ weight_between 0 w (held h) - n < k <= weight_between 0 w (held h) /\
     value_at_quantile h q = if f64_eq q f64_zero then Ret w else highest_equivalent h w).
Proof. exact C28_rank_proof. Qed.
Print Assumptions C28_rank.

Example ex_C28_rank : match build U64 1 10000 1 false [(5000, 8); (5, 2); (333, 1); (900, 9)] with
  | Some h => reachable h /\ weight (held h) <= u64_max /\ len h = 20 /\ In (896, 9) (held h) /\
      weight_between 0 896 (held h) = 12 /\ value_at_quantile h (f64_div (f64_of_u64 12) (f64_of_u64 20)) = Ret 927 /\ highest_equivalent h 896 = Ret 927
  | None => False end.
Proof. float_case. Qed.

(** with at most 2^53 samples the rank exists, so the result is always a recorded class *)
Theorem C28_rank_exists : forall h q, reachable h -> len_agrees h -> 1 <= len h <= 2 ^ 53 ->
  1 <= quantile_rank q (len h) <= weight (held h).
Proof. exact C28_rank_exists_proof. Qed.
Print Assumptions C28_rank_exists.

Example ex_C28_rank_exists : match build U64 1 10000 1 false [(5000, 8); (5, 2); (333, 1); (900, 9)] with
  | Some h => reachable h /\ len_agrees h /\ len h = 20 /\ 1 <= len h <= 2 ^ 53 /\ weight (held h) = 20
  | None => False end.
Proof. float_case. Qed.

(** larger quantiles report larger values *)
Theorem C28_monotone : forall h a b x y, reachable h -> weight (held h) <= u64_max ->
  f64_le f64_zero a = true -> f64_le a b = true -> quantile_rank b (len h) <= weight (held h) ->
  value_at_quantile h a = Ret x -> value_at_quantile h b = Ret y -> x <= y.
Proof. exact C28_monotone_proof. Qed.
Print Assumptions C28_monotone.

Example ex_C28_monotone : match build U64 1 10000 1 false [(5000, 8); (5, 2); (333, 1); (900, 9)] with
  | Some h =>
      let q n := f64_div (f64_of_u64 n) (f64_of_u64 20) in
      reachable h /\ weight (held h) <= u64_max /\ f64_le f64_zero (q 3) = true /\ f64_le (q 3) (q 12) = true /\
      quantile_rank (q 12) (len h) <= weight (held h) /\ value_at_quantile h (q 3) = Ret 335 /\ value_at_quantile h (q 12) = Ret 927
  | _ => False end.
Proof.
  case_match. cbv zeta. repeat match goal with |- _ /\ _ => split end; 
  lazymatch goal with
  | R : reachable ?h |- quantile_rank ?q _ <= _ => apply (C28_rank_exists h q R); [vm_compute; reflexivity|vm_compute; split; discriminate]
  | |- _ => case_leaf
  end.
Qed.

(** quantile 0 is the lowest value of the first class, anything from 1 up the highest of the last *)
Theorem C28_zero : forall h q w n l, reachable h -> weight (held h) <= u64_max -> f64_eq q f64_zero = true ->
  held h = (w, n) :: l -> value_at_quantile h q = Ret w.
Proof. exact C28_zero_proof. Qed.
Print Assumptions C28_zero.

Example ex_C28_zero : match build U64 1 10000 1 false [(5000, 8); (5, 2); (333, 1); (900, 9)] with
  | Some h => reachable h /\ weight (held h) <= u64_max /\ f64_eq (f64_div (f64_of_u64 0) (f64_of_u64 20)) f64_zero = true /\ held h = [(5, 2); (320, 1); (896, 9); (4864, 8)] /\ value_at_quantile h (f64_div (f64_of_u64 0) (f64_of_u64 20)) = Ret 5
  | None => False end.
Proof. float_case. Qed.

Theorem C28_one : forall h q w n l, reachable h -> len_agrees h -> len h <= 2 ^ 53 -> f64_le f64_one q = true ->
  held h = l ++ [(w, n)] -> value_at_quantile h q = highest_equivalent h w.
Proof. exact C28_one_proof. Qed.
Print Assumptions C28_one.

Example ex_C28_one : match build U64 1 10000 1 false [(5000, 8); (5, 2); (333, 1); (900, 9)] with
  | Some h => reachable h /\ len_agrees h /\ len h = 20 /\ f64_le f64_one (f64_div (f64_of_u64 30) (f64_of_u64 20)) = true /\ held h = [(5, 2); (320, 1); (896, 9)] ++ [(4864, 8)] /\
      value_at_quantile h (f64_div (f64_of_u64 30) (f64_of_u64 20)) = Ret 5119 /\ highest_equivalent h 4864 = Ret 5119
  | None => False end.
Proof. float_case. Qed.

(** beyond 2^53 samples [len as f64] may round up, and quantile 1 then finds nothing: 0 is reported
    although every sample is 5 *)
Theorem C28_rank_beyond_len_refuted : exists h, reachable h /\ len_agrees h /\ held h = [(5, 2 ^ 53 + 3)] /\ max h = Ret 5 /\
  value_at_quantile h f64_one = Ret 0.
Proof. exact C28_rank_beyond_len_refuted_proof. Qed.
Print Assumptions C28_rank_beyond_len_refuted.

(** when the counts add up to more than [u64::MAX] the running total can overflow, which panics where
    overflow is checked *)
Theorem C28_overflow_panics_refuted : exists h, reachable h /\ len h = u64_max /\ value_at_quantile h f64_one = Panic.
Proof. exact C28_overflow_panics_refuted_proof. Qed.
Print Assumptions C28_overflow_panics_refuted.

(** the hypotheses, and every rank from 0 to beyond the end *)
Example ex_C28 : match build U64 1 10000 1 false [(5000, 8); (5, 2); (333, 1); (900, 9)] with
  | Some h =>
      let q n := f64_div (f64_of_u64 n) (f64_of_u64 20) in
      reachable h /\ len_agrees h /\ weight (held h) <= u64_max /\ 1 <= len h <= 2 ^ 53 /\
      f64_le f64_zero (q 3) = true /\ f64_le (q 3) (q 12) = true /\ f64_le f64_one (q 30) = true /\
      len h = 20 /\ held h = [(5, 2); (320, 1); (896, 9); (4864, 8)] /\
      map (fun n => value_at_quantile h (q n)) [0; 1; 2; 3; 4; 12; 13; 20; 30] =
        [Ret 5; Ret 5; Ret 5; Ret 335; Ret 927; Ret 927; Ret 5119; Ret 5119; Ret 5119]
  | _ => False end.
Proof. case_of. Qed.

Theorem C29_fraction : forall h v, reachable h -> is_u64 v -> len_agrees h -> len h <> 0 ->
  exists q, quantile_below h v = Ret q /\ finite q /\
    real_of q = rne (rne (IZR (weight_between 0 v (held h))) / rne (IZR (len h))).
Proof. exact C29_fraction_proof. Qed.
Print Assumptions C29_fraction.

Example ex_C29_fraction : match build U64 1 10000 1 false [(5000, 8); (5, 2); (333, 1); (900, 9)] with
  | Some h => reachable h /\ is_u64 330 /\ len_agrees h /\ len h <> 0 /\ weight_between 0 330 (held h) = 3 /\
      match quantile_below h 330 with Ret x => f64_eq x (f64_div (f64_of_u64 3) (f64_of_u64 20)) = true | Panic => False end
  | None => False end.
Proof. float_case. Qed.

(** it never panics, counts saturated or not, and lies between 0 and 1; an empty histogram gives 1 *)
Theorem C29_total : forall h v, reachable h -> is_u64 v ->
  exists q, quantile_below h v = Ret q /\ finite q /\ (0 <= real_of q <= 1)%R /\ (len h = 0 -> real_of q = 1%R).
Proof. exact C29_total_proof. Qed.
Print Assumptions C29_total.

Example ex_C29_total : match build U8 1 10000 1 false [(5, 200); (5, 100); (900, 9)] with
  | Some h => reachable h /\ is_u64 5 /\ ~ len_agrees h /\ len h = 309 /\
      match quantile_below h 5 with Ret x => f64_lt x f64_one = true /\ f64_lt f64_zero x = true | Panic => False end
  | None => False end.
Proof. float_case. discriminate. Qed.

(** monotone, and 1 as soon as no sample is above *)
Theorem C29_monotone : forall h v w p q, reachable h -> is_u64 v -> is_u64 w -> len_agrees h -> v <= w ->
  quantile_below h v = Ret p -> quantile_below h w = Ret q -> (real_of p <= real_of q)%R.
Proof. exact C29_monotone_proof. Qed.
Print Assumptions C29_monotone.

Example ex_C29_monotone : match build U64 1 10000 1 false [(5000, 8); (5, 2); (333, 1); (900, 9)] with
  | Some h => reachable h /\ is_u64 330 /\ is_u64 4000 /\ len_agrees h /\
      match quantile_below h 330, quantile_below h 4000 with Ret x, Ret y => f64_eq x (f64_div (f64_of_u64 3) (f64_of_u64 20)) = true /\ f64_eq y (f64_div (f64_of_u64 12) (f64_of_u64 20)) = true | _, _ => False end
  | None => False end.
Proof. float_case. Qed.

Theorem C29_top : forall h v, reachable h -> is_u64 v -> len_agrees h -> (forall w n, In (w, n) (held h) -> w <= v) ->
  exists q, quantile_below h v = Ret q /\ real_of q = 1%R.
Proof. exact C29_top_proof. Qed.
Print Assumptions C29_top.

Example ex_C29_top : match build U64 1 10000 1 false [(5000, 8); (5, 2); (333, 1); (900, 9)] with
  | Some h => reachable h /\ is_u64 5000 /\ len_agrees h /\ held h = [(5, 2); (320, 1); (896, 9); (4864, 8)] /\
      match quantile_below h 5000 with Ret x => f64_eq x f64_one = true | _ => False end
  | None => False end.
Proof. float_case. Qed.

(** once a counter has saturated, [len] exceeds the counts, and the answer depends on which half is
    counted: here all samples are 5, but only half of them are reported at or below 30 *)
Theorem C29_saturated_refuted : exists h p q, reachable h /\ held h = [(5, 255)] /\ quantile_below h 30 = Ret p /\ quantile_below h 40 = Ret q /\
  f64_eq p (f64_div f64_one (f64_of_u64 2)) = true /\ f64_eq q f64_one = true.
Proof. exact C29_saturated_refuted_proof. Qed.
Print Assumptions C29_saturated_refuted.

Example ex_C29 : match build U64 1 10000 1 false [(5000, 8); (5, 2); (333, 1); (900, 9)] with
  | Some h => reachable h /\ len_agrees h /\ len h <> 0 /\ is_u64 330 /\ is_u64 4000 /\ forallb (fun p => fst p <=? 5000) (held h) = true /\
      map (fun p => match quantile_below h (fst p) with Ret q => f64_eq q (f64_div (f64_of_u64 (snd p)) (f64_of_u64 20)) | Panic => false end)
        [(4, 0); (5, 2); (330, 3); (4000, 12); (5000, 20); (10000, 20)] = [true; true; true; true; true; true]
  | _ => False end.
Proof. case_of. Qed.
