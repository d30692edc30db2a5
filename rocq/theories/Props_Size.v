(** Property theorems; the proofs are in [PfSize].  Generated by tools/gen_theorems.py. *)
From Verif Require Import Machine Log2Model HistModel Spec Reach Witness Cases PfSize.

(** ** C59.  The bins form [buckets()] octaves of a power-of-two number of steps that resolves [sigfig]
    digits; there are just enough octaves for [high()], and all of them are usable *)
Theorem C59_layout : forall h unit, reachable h -> equivalent_range h 0 = Ret unit ->
  exists sub, (exists k, sub = 2 ^ k /\ 1 <= k) /\ 2 * 10 ^ sigfig h <= sub < 4 * 10 ^ sigfig h /\
    distinct_values h = (buckets h + 1) * (sub / 2) /\ 1 <= buckets h <= 64 /\
    (forall v, is_u64 v -> (covers h v <-> v < unit * sub * 2 ^ (buckets h - 1))) /\
    high h < unit * sub * 2 ^ (buckets h - 1) /\
    (1 < buckets h -> unit * sub * 2 ^ (buckets h - 2) <= high h).
Proof. exact C59_layout_proof. Qed.
Print Assumptions C59_layout.

Example ex_C59_layout : match build U8 1000 123456789 2 false [(5, 200)] with
  | Some h => reachable h /\ equivalent_range h 0 = Ret 512 /\ buckets h = 11 /\ distinct_values h = 12 * 128 /\ covers h (512 * 256 * 2 ^ 10 - 1) /\
      ~ covers h (512 * 256 * 2 ^ 10) /\ 512 * 256 * 2 ^ 9 <= high h
  | None => False end.
Proof. case_of. Qed.

(** so the number of bins is bounded by the precision alone, whatever is recorded *)
Theorem C59_bounded : forall h, reachable h ->
  match sigfig h with
  | 0 => distinct_values h <= 65
  | 1 => distinct_values h <= 976
  | 2 => distinct_values h <= 7424
  | 3 => distinct_values h <= 56320
  | 4 => distinct_values h <= 835584
  | _ => sigfig h = 5 /\ distinct_values h <= 6291456
  end.
Proof. exact C59_bounded_proof. Qed.
Print Assumptions C59_bounded.

Example ex_C59 : match build U64 1000 3600000 2 false [] with
  | Some h => reachable h /\ buckets h = 6 /\ distinct_values h = 896 /\ equivalent_range h 0 = Ret 512 /\
      (512 * 256 * 2 ^ 4 <=? high h) = true /\ (high h <? 512 * 256 * 2 ^ 5) = true
  | None => False end.
Proof. case_of. Qed.

(** and that bound is reached by the full range *)
Theorem C59_full_range : forall T sf, 0 <= sf <= 5 -> exists h, new_with_bounds T 1 u64_max sf = Ret (ROk h) /\
  distinct_values h = nth (Z.to_nat sf) [65; 976; 7424; 56320; 835584; 6291456] 0.
Proof. exact C59_full_range_proof. Qed.
Print Assumptions C59_full_range.

Example ex_C59_full_range : match new_with_bounds U8 1 u64_max 1 with Ret (ROk h) => reachable h /\ distinct_values h = 976 /\ covers h u64_max | _ => False end.
Proof. case_of. Qed.
