(** Property theorems; the proofs are in [PfStats].  Generated by tools/gen_theorems.py. *)
From Verif Require Import Machine Log2Model HistModel Spec Reach Witness Cases FloatModel FloatSpec IterModel StatSpec PfStats.
From Coq Require Import Reals List.
From Flocq Require Import Core.
Import ListNotations.


(** ** C51.  mean() of a non-empty histogram is the mean of the class medians weighted with the counts, up
    to a relative error of 2^-53 for every class and six more *)
Theorem C51_mean : forall h, reachable h -> (0 < len h)%Z ->
  exists f, mean h = Ret f /\ finite f /\ within (length (held h) + 6) (real_of f) (exact_mean h).
Proof. exact C51_mean_proof. Qed.
Print Assumptions C51_mean.

(** classes of 320..335, 896..927 and 4864..5119 among others: medians 328, 912, 4992; mean 2928.13 *)
Example ex_C51 : match build U64 1 10000 1 false [(5000, 8); (5, 2); (333, 1); (900, 4)] with
  | Some h => reachable h /\ held h = [(5, 2); (320, 1); (896, 4); (4864, 8)] /\ map (fun p => class_median h (fst p)) (held h) = [5; 328; 912; 4992] /\ len h = 15 /\
      match mean h, stdev h with Ret m, Ret s => f64_to_u64 (f64_mul m (f64_of_u64 1000)) = 2928133 /\ f64_to_u64 s = 2223 | _, _ => False end
  | _ => False end.
Proof. float_case. Qed.

(** so it lies, up to that error, between the smallest and the largest class median (as long as len() is
    the number of samples held) *)
Theorem C51_mean_between : forall h lo hi, reachable h -> len_agrees h -> (0 < len h)%Z ->
  (forall v n, In (v, n) (held h) -> (lo <= class_median h v <= hi)%Z) ->
  exists f, mean h = Ret f /\ finite f /\
    ((1 - bpow radix2 (-53)) ^ (length (held h) + 6) * IZR lo <= real_of f <= (1 + bpow radix2 (-53)) ^ (length (held h) + 6) * IZR hi)%R.
Proof. exact C51_mean_between_proof. Qed.
Print Assumptions C51_mean_between.

Example ex_C51_mean_between : match build U64 1 10000 1 false [(5000, 8); (5, 2); (333, 1); (900, 4)] with
  | Some h => reachable h /\ len h = weight (held h) /\ 0 < len h /\ map (fun p => class_median h (fst p)) (held h) = [5; 328; 912; 4992] /\
      match mean h with Ret m => 5 < f64_to_u64 m < 4992 | _ => False end
  | _ => False end.
Proof. float_case. Qed.

(** stdev() is a non-negative number: the root of the mean squared distance of the class medians from
    mean(), up to a relative error of 2^-53 for every class and nine more *)
Theorem C51_stdev : forall h, reachable h -> (0 < len h)%Z ->
  exists m s, mean h = Ret m /\ stdev h = Ret s /\ finite s /\ (0 <= real_of s)%R /\
    within (length (held h) + 9) (real_of s) (sqrt (exact_square_dev h (real_of m))).
Proof. exact C51_stdev_proof. Qed.
Print Assumptions C51_stdev.

Example ex_C51_stdev : match build U64 1 10000 1 false [(5000, 8); (5, 2); (333, 1); (900, 9)] with
  | Some h => reachable h /\ len h = 20 /\ match mean h, stdev h with Ret m, Ret s => f64_to_u64 m = 2424 /\ f64_to_u64 s = 2114 | _, _ => False end
  | None => False end.
Proof. float_case. Qed.

(** both are 0.0 when nothing has been recorded *)
Theorem C51_empty : forall h, len h = 0%Z -> mean h = Ret f64_zero /\ stdev h = Ret f64_zero.
Proof. exact C51_empty_proof. Qed.
Print Assumptions C51_empty.

Example ex_C51_empty : match build U64 1 10000 1 false [(5, 0)] with
  | Some h => reachable h /\ len h = 0 /\ max h = Ret 5 /\ match mean h with Ret m => f64_eq m f64_zero = true | _ => False end
  | _ => False end.
Proof. float_case. Qed.
