(** Property theorems; the proofs are in [PfTicks].  Generated by tools/gen_theorems.py. *)
From Verif Require Import Machine Log2Model HistModel Spec Reach Witness Cases FloatModel FloatSpec IterModel IterSpec QuantSpec PfTicks.
From Coq Require Import Reals List.
Import ListNotations.


(** ** C27.  On any reachable histogram and for any positive number of ticks (a u32), the quantile
    iterator does not panic and terminates, whatever rounding does; its first item is for quantile 0;
    each item is for the first class whose fraction of the samples is not below the iterated quantile.
    From one item to the next the iterated quantile strictly increases, by the tick that halves with
    every halving of the distance to 1, or jumps to exactly 1 as the last item once the class of the
    maximum has been reported; values never decrease. *)
Theorem C27_quantiles : forall log2 h ticks, log2_ok log2 -> reachable h -> 0 < ticks < 2 ^ 32 ->
  exists it items, iter_quantiles h ticks = Ret it /\ drains (pk_quantile log2) h it items /\
    Forall (first_reaching h) items /\
    (forall x xs, items = x :: xs -> iv_qto x = f64_zero) /\
    (forall pre x y post m, items = pre ++ x :: y :: post -> max h = Ret m ->
       (real_of (iv_qto x) < real_of (iv_qto y))%R /\ iv_value x <= iv_value y /\
       (equivalent h (iv_value x) m = Ret false -> tick ticks (real_of (iv_qto x)) (real_of (iv_qto y))) /\
       (equivalent h (iv_value x) m = Ret true -> iv_value y = iv_value x /\ iv_qto y = f64_one /\ post = [])).
Proof. exact C27_quantiles_proof. Qed.
Print Assumptions C27_quantiles.

(** the assumption on log2 can be met *)
Example ex_log2 : log2_ok floor_log2.
Proof. exact floor_log2_ok. Qed.
(** two ticks per half distance: quantiles 0, 1/4, 1/2, 5/8, 3/4, ...; the class of 5 reaches 1/2, that
    of 320 reaches 3/4, the last one is reported at the next tick and at 1 *)
Example ex_C27 : match build U64 1 10000 1 false [(5000, 1); (5, 4); (333, 2); (900, 1)] with
  | Some h => reachable h /\ match iter_quantiles h 2 with
      | Ret it => match iter_collect 20 (pk_quantile floor_log2) h it with
          | Ret xs => map (fun x => (iv_value x, iv_count x, iv_since x, f64_to_u64 (f64_mul (iv_qto x) (f64_of_u64 1000)), f64_to_u64 (f64_mul (iv_quantile x) (f64_of_u64 1000)))) xs =
              [(5, 4, 4, 0, 500); (5, 4, 0, 250, 500); (5, 4, 0, 500, 500); (335, 2, 2, 625, 750); (335, 2, 0, 750, 750); (927, 1, 1, 812, 875); (927, 1, 0, 875, 875); (5119, 1, 1, 906, 1000); (5119, 1, 0, 1000, 1000)]
          | _ => False end
      | _ => False end
  | _ => False end.
Proof. float_case. Qed.

(** when [len] is the number of samples held (no counter has saturated), the last item is for quantile
    1.0 exactly; and up to 2^53 samples every sample has been reported by then *)
Theorem C27_ends : forall log2 h ticks it items, log2_ok log2 -> reachable h -> 0 < ticks < 2 ^ 32 -> len_agrees h -> held h <> [] ->
  iter_quantiles h ticks = Ret it -> drains (pk_quantile log2) h it items ->
  exists pre x, items = pre ++ [x] /\ iv_qto x = f64_one /\ (len h <= 2 ^ 53 -> reported items = len h).
Proof. exact C27_ends_proof. Qed.
Print Assumptions C27_ends.

Example ex_C27_ends : match build U64 1 10000 1 false [(5000, 1); (5, 4); (333, 2); (900, 1)] with
  | Some h => reachable h /\ len_agrees h /\ held h <> [] /\ len h <= 2 ^ 53 /\ match iter_quantiles h 2 with
      | Ret it => match iter_collect 20 (pk_quantile floor_log2) h it with
          | Ret xs => reported xs = 8 /\ match rev xs with x :: _ => f64_eq (iv_qto x) f64_one = true | [] => False end
          | _ => False end
      | _ => False end
  | _ => False end.
Proof. float_case. Qed.

(** an empty histogram yields nothing *)
Theorem C27_empty : forall log2 h ticks it items, log2_ok log2 -> reachable h -> 0 < ticks < 2 ^ 32 -> held h = [] ->
  iter_quantiles h ticks = Ret it -> drains (pk_quantile log2) h it items -> items = [].
Proof. exact C27_empty_proof. Qed.
Print Assumptions C27_empty.

Example ex_C27_empty : match build U64 1 10000 1 false [] with
  | Some h => reachable h /\ held h = [] /\ match iter_quantiles h 2 with
      | Ret it => match iter_collect 20 (pk_quantile floor_log2) h it with Ret xs => length xs = 0%nat | _ => False end
      | _ => False end
  | _ => False end.
Proof. float_case. Qed.

(** once a counter has saturated, the fraction of the samples never gets to 1 and the last item is for a
    quantile below 1: two batches of 200 samples in a u8 counter *)
Theorem C27_saturated_refuted : exists h it items, reachable h /\ held h <> [] /\ iter_quantiles h 1 = Ret it /\
  log2_ok floor_log2 /\ drains (pk_quantile floor_log2) h it items /\ items <> [] /\ Forall (fun x => f64_lt (iv_qto x) f64_one = true) items.
Proof. exact C27_saturated_refuted_proof. Qed.
Print Assumptions C27_saturated_refuted.
