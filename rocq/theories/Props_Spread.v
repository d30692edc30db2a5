(** Property theorems; the proofs are in [PfSpread].  Generated by tools/gen_theorems.py. *)
From Verif Require Import Machine Log2Model HistModel Spec Reach Witness Cases FloatModel IterModel FloatSpec StatSpec PfSpread.
From Coq Require Import Reals List.
From Flocq Require Import Core.
Import ListNotations.


(** ** C72.  stdev() is the standard deviation of the recorded samples, up to the rounding of the float
    operations and half the resolution of the histogram.  With [r] half a unit (rounded down, so nothing when
    the unit is 1) plus half of 10^-sigfig of the root mean square of the samples, the root of the squares
    actually summed differs from the true standard deviation by at most [r] and a relative 2^-53 per class
    and seven more of the root mean square and [r]; the result differs from that root by a relative 2^-53
    for every class and nine more. *)
Theorem C72_stdev_accuracy : forall T lo hi sf b h0 l h unit, is_u64 lo -> is_u64 hi -> is_u8 sf ->
  new_with_bounds T lo hi sf = Ret (ROk h0) -> records (auto h0 b) l h -> no_saturation (auto h0 b) l ->
  equivalent_range h 0 = Ret unit -> (0 < weight l)%Z ->
  let r := (IZR (unit / 2) + sample_rms l / (2 * 10 ^ Z.to_nat sf))%R in
  exists s a, stdev h = Ret s /\ finite s /\ within (length (held h) + 9) (real_of s) a /\
    (Rabs (a - sample_stdev l) <= r + ((1 + bpow radix2 (-53)) ^ (length (held h) + 7) - 1) * (sample_rms l + r))%R.
Proof. exact C72_stdev_accuracy_proof. Qed.
Print Assumptions C72_stdev_accuracy.

(** samples 17 (60 times), 12345, 420 (39 times): standard deviation 1226.57; the medians are 17, 12320
    and 421, giving 1224.15; the root mean square is 1262.1, so half of 10^-2 of it is about 6.3 *)
Example ex_C72 : match build U64 1 100000 2 false [(17, 60); (12345, 1); (420, 39)] with
  | Some h => reachable h /\ equivalent_range h 0 = Ret 1 /\ map (fun p => class_median h (fst p)) (held h) = [17; 421; 12320] /\
      match stdev h with Ret m => f64_to_u64 (f64_mul m (f64_of_u64 100)) = 122415 | _ => False end
  | None => False end.
Proof. float_case. Qed.
