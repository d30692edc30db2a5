(** Property theorems; the proofs are in [PfAccuracy].  Generated by tools/gen_theorems.py. *)
From Verif Require Import Machine Log2Model HistModel Spec Reach Witness Cases FloatModel IterModel FloatSpec StatSpec PfAccuracy.
From Coq Require Import Reals List.
From Flocq Require Import Core.
Import ListNotations.


(** ** C61.  The value reported for a quantile is equivalent to the recorded sample of that rank, and so
    within the resolution of the histogram: closer than a unit or than 10^-sigfig of the sample.  Apart
    from quantile 0, it is not below the sample (except for the sample u64::MAX). *)
Theorem C61_quantile_accuracy : forall T lo hi sf b h0 l h q unit, is_u64 lo -> is_u64 hi -> is_u8 sf ->
  new_with_bounds T lo hi sf = Ret (ROk h0) -> records (auto h0 b) l h -> no_saturation (auto h0 b) l ->
  equivalent_range h 0 = Ret unit ->
  let k := quantile_rank q (weight l) in k <= weight l ->
  exists s n x, In (s, n) l /\ weight_between 0 (s - 1) l < k <= weight_between 0 s l /\
    value_at_quantile h q = Ret x /\ equivalent h s x = Ret true /\
    (Z.abs (s - x) < unit \/ Z.abs (s - x) * 10 ^ sf < s) /\
    (f64_eq q f64_zero = true -> x <= s) /\ (f64_eq q f64_zero = false -> s <= x \/ s = u64_max).
Proof. exact C61_quantile_accuracy_proof. Qed.
Print Assumptions C61_quantile_accuracy.

(** 100 samples; quantile 0.995 asks for the largest, 0.5 for one of the 17s, 0.6 for the last of them *)
Example ex_C61 : match build U64 1 100000 2 false [(17, 60); (12345, 1); (420, 39)] with
  | Some h => reachable h /\ equivalent_range h 0 = Ret 1 /\ len h = 100 /\
      value_at_quantile h (f64_div (f64_of_u64 199) (f64_of_u64 200)) = Ret 12351 /\
      value_at_quantile h (f64_div (f64_of_u64 1) (f64_of_u64 2)) = Ret 17 /\
      value_at_quantile h (f64_div (f64_of_u64 61) (f64_of_u64 100)) = Ret 421
  | None => False end.
Proof. float_case. Qed.

(** with at most 2^53 samples the rank asked for is [q * n] rounded up, or down if the product is rounded
    to an integer below it *)
Theorem C61_rank : forall q n, finite q -> (0 <= real_of q <= 1)%R -> 1 <= n <= 2 ^ 53 ->
  Zfloor (real_of q * IZR n) <= quantile_rank q n <= Z.max 1 (Zceil (real_of q * IZR n)) /\ quantile_rank q n <= n.
Proof. exact C61_rank_proof. Qed.
Print Assumptions C61_rank.

Example ex_C61_rank : let q := f64_div (f64_of_u64 1) (f64_of_u64 2) in finite q /\ (0 <= real_of q <= 1)%R /\ 1 <= 101 <= 2 ^ 53.
Proof. exact half_case. Qed.

(** ** C62.  mean() is the mean of the recorded samples, up to the rounding of the float operations (a
    relative 2^-53 for every class and six more) and half the resolution of the histogram: half a unit
    (rounded down, so nothing when the unit is 1) plus half of 10^-sigfig of the mean. *)
Theorem C62_mean_accuracy : forall T lo hi sf b h0 l h unit, is_u64 lo -> is_u64 hi -> is_u8 sf ->
  new_with_bounds T lo hi sf = Ret (ROk h0) -> records (auto h0 b) l h -> no_saturation (auto h0 b) l ->
  equivalent_range h 0 = Ret unit -> (0 < weight l)%Z ->
  exists f a, mean h = Ret f /\ finite f /\ within (length (held h) + 6) (real_of f) a /\
    (Rabs (a - sample_mean l) <= IZR (unit / 2) + sample_mean l / (2 * 10 ^ Z.to_nat sf))%R.
Proof. exact C62_mean_accuracy_proof. Qed.
Print Assumptions C62_mean_accuracy.

(** samples 17 (60 times), 12345, 420 (39 times): mean 297.45; the medians are 17, 12320 and 421 *)
Example ex_C62 : match build U64 1 100000 2 false [(17, 60); (12345, 1); (420, 39)] with
  | Some h => reachable h /\ equivalent_range h 0 = Ret 1 /\ map (fun p => class_median h (fst p)) (held h) = [17; 421; 12320] /\
      match mean h with Ret m => f64_to_u64 (f64_mul m (f64_of_u64 100)) = 29758 | _ => False end
  | None => False end.
Proof. float_case. Qed.
