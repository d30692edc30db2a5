(** Property theorems; the proofs are in [PfBounds].  Generated by tools/gen_theorems.py. *)
From Verif Require Import Machine Log2Model HistModel Spec Reach Witness Cases PfBounds.
(** Bounds that hold in every state of a histogram, whatever was done to it -- including records of
    zero samples, saturated counters and a [subtract] that failed half way -- and the cases of C10,
    C16, C17 and C21 that the other files leave out. *)


(** ** C63.  [max], [min_nz], [min] and [len] are bounds for the samples held, in every state *)
Theorem C63_max_bound : forall h, reachable h -> exists mx, max h = Ret mx /\ is_u64 mx /\ covers h mx /\
  forall v c, is_u64 v -> covers h v -> count_at h v = Ret c -> c <> 0 -> v <= mx \/ equivalent h v mx = Ret true.
Proof. exact C63_max_bound_proof. Qed.
Print Assumptions C63_max_bound.

Example ex_C63_max_bound : match build U8 1 1000 1 false [(5, 200); (900, 3)] with
  | Some h => reachable h /\ is_u64 927 /\ covers h 927 /\ count_at h 927 = Ret 3 /\ max h = Ret 927 /\ is_u64 901 /\ covers h 901 /\ count_at h 901 = Ret 3
  | None => False end.
Proof. case_of. Qed.

(** every value [iter_recorded] lists is at most [max] *)
Theorem C63_max_held : forall h mx v n, reachable h -> max h = Ret mx -> In (v, n) (held h) -> v <= mx.
Proof. exact C63_max_held_proof. Qed.
Print Assumptions C63_max_held.

Example ex_C63_max_held : match build U8 1 1000 1 false [(5, 200); (900, 3)] with
  | Some h => reachable h /\ max h = Ret 927 /\ In (896, 3) (held h) /\ In (5, 200) (held h)
  | None => False end.
Proof. case_of. Qed.

Theorem C63_min_nz_bound : forall h, reachable h -> exists mn, min_nz h = Ret mn /\ is_u64 mn /\
  equivalent h mn 0 = Ret false /\
  forall v c, is_u64 v -> covers h v -> count_at h v = Ret c -> c <> 0 -> equivalent h v 0 = Ret false ->
    mn <= v \/ equivalent h v mn = Ret true.
Proof. exact C63_min_nz_bound_proof. Qed.
Print Assumptions C63_min_nz_bound.

Example ex_C63_min_nz_bound : match build U8 1 1000 1 false [(0, 4); (50, 200); (900, 3)] with
  | Some h => reachable h /\ min_nz h = Ret 50 /\ is_u64 51 /\ covers h 51 /\ count_at h 51 = Ret 200 /\ equivalent h 51 0 = Ret false /\ equivalent h 51 50 = Ret true
  | None => False end.
Proof. case_of. Qed.

Theorem C63_min_bound : forall h, reachable h -> exists mn, min h = Ret mn /\ is_u64 mn /\
  (len h = 0 -> mn = 0) /\
  forall v c, is_u64 v -> covers h v -> count_at h v = Ret c -> c <> 0 -> mn <= v \/ equivalent h v mn = Ret true.
Proof. exact C63_min_bound_proof. Qed.
Print Assumptions C63_min_bound.

Example ex_C63_min_bound : match build U8 1 1000 1 false [(50, 200); (900, 3)] with
  | Some h => reachable h /\ min h = Ret 50 /\ is_u64 51 /\ covers h 51 /\ count_at h 51 = Ret 200 /\ len h = 203
  | None => False end.
Proof. case_of. Qed.

(** [len] is never below the number of samples in the bins (counted up to [u64::MAX]) *)
Theorem C63_len_bound : forall h, reachable h -> is_u64 (len h) /\ Z.min u64_max (weight (held h)) <= len h /\
  (len h = 0 -> held h = []).
Proof. exact C63_len_bound_proof. Qed.
Print Assumptions C63_len_bound.

Example ex_C63_len_bound : match build U8 1 1000 1 false [(5, 200); (900, 3); (5, 100)] with
  | Some h => reachable h /\ weight (held h) = 258 /\ len h = 303
  | None => False end.
Proof. case_of. Qed.

(** when [len] is the number of samples held, [min] is at most [max] or in its class *)
Theorem C63_min_le_max : forall h mn mx, reachable h -> len_agrees h -> min h = Ret mn -> max h = Ret mx ->
  mn <= mx \/ equivalent h mn mx = Ret true.
Proof. exact C63_min_le_max_proof. Qed.
Print Assumptions C63_min_le_max.

Example ex_C63_min_le_max : match build U8 1 1000 1 false [(50, 200); (900, 3)] with
  | Some h => reachable h /\ len_agrees h /\ min h = Ret 50 /\ max h = Ret 927
  | None => False end.
Proof. case_of. Qed.

(** otherwise it need not be: a [subtract] that fails half way can leave [min] at [u64::MAX] and [max]
    at 0 *)
Theorem C63_min_above_max_refuted : exists h s h', reachable h /\ reachable s /\ h_ctr h = h_ctr s /\
  subtract h s = Ret (h', RErr SubtrahendCountExceedsMinuendCount) /\ reachable h' /\
  len h' = 300 /\ held h' = [] /\ min h' = Ret u64_max /\ max h' = Ret 0.
Proof. exact C63_min_above_max_refuted_proof. Qed.
Print Assumptions C63_min_above_max_refuted.

Example ex_C63 : match build U64 1 1000 1 false [(0, 1); (5, 1); (9, 1)], build U64 1 1000 1 false [(5, 1)] with
  | Some h, Some s =>
      reachable h /\ reachable s /\ match subtract h s with
      | Ret (h', ROk _) => held h' = [(0, 1); (9, 1)] /\ min_nz h' = Ret 5 /\ min h' = Ret 0 /\ max h' = Ret 9 /\ len h' = 2
      | _ => False end
  | _, _ => False end.
Proof. case_of. Qed.

(** ** C52.  What is right after a successful [subtract] in any case: [len] and [max] are exact, [min_nz]
    is a lower bound, exact if no sample equivalent to 0 was held.  Missing for the full claim: [min_nz]
    exact in every case, which is false (C52_stale_min_nz_refuted). *)
Theorem C52_subtract_stats_partial : forall h s h', reachable h -> reachable s -> h_ctr h = h_ctr s ->
  stats_agree h -> subtract h s = Ret (h', ROk tt) ->
  len_agrees h' /\ max_agrees h' /\ (count_at h 0 = Ret 0 -> min_agrees h') /\
  exists mn, min_nz h' = Ret mn /\ equivalent h' mn 0 = Ret false /\
    forall v n, In (v, n) (held h') -> equivalent h' v 0 = Ret false -> mn <= v \/ equivalent h' v mn = Ret true.
Proof. exact C52_subtract_stats_partial_proof. Qed.
Print Assumptions C52_subtract_stats_partial.

Example ex_C52 : match build U64 1 1000 1 false [(3, 1); (5, 1); (9, 1)], build U64 1 1000 1 false [(3, 1)] with
  | Some h, Some s =>
      reachable h /\ reachable s /\ match subtract h s with
      | Ret (h', ROk _) => held h' = [(5, 1); (9, 1)] /\ min_nz h' = Ret 5 /\ max h' = Ret 9 /\ len h' = 2
      | _ => False end
  | _, _ => False end.
Proof. case_of. Qed.

(** ** C10.  After a resize [high] is the largest value the bins cover *)
Theorem C10_resize_high : forall h v n h', reachable h -> is_u64 v -> is_count (h_ctr h) n -> ~ covers h v ->
  record_n h v n = Ret (h', ROk tt) ->
  is_u64 (high h') /\ covers h' (high h') /\ (forall w, is_u64 w -> covers h' w -> w <= high h' \/ w = u64_max).
Proof. exact C10_resize_high_proof. Qed.
Print Assumptions C10_resize_high.

Example ex_C10_resize_high : match build U64 1 1000 1 true [(5, 3)] with
  | Some h => reachable h /\ match record_n h 5000 1 with
      | Ret (h', ROk _) => high h = 1000 /\ high h' = 8191 /\ index_for h' 8191 = Ret (Some 159) /\ distinct_values h' = 160
      | _ => False end
  | None => False end.
Proof. case_of. Qed.

(** ** C16, C17.  Merging an empty histogram changes nothing, whatever its range or precision *)
Theorem C16_add_empty : forall h s, reachable h -> reachable s -> h_ctr h = h_ctr s -> is_empty s = true ->
  add h s = Ret (h, ROk tt).
Proof. exact C16_add_empty_proof. Qed.
Print Assumptions C16_add_empty.

Example ex_C16_add_empty : match build U8 1 1000 1 false [(50, 200); (900, 3)], build U8 10 100000 2 false [] with
  | Some h, Some s => reachable h /\ reachable s /\ h_ctr h = h_ctr s /\ is_empty s = true /\ ~ covers h 100000 /\ add h s = Ret (h, ROk tt)
  | _, _ => False end.
Proof. case_of. Qed.

Theorem C17_subtract_empty : forall h s, reachable h -> reachable s -> h_ctr h = h_ctr s -> is_empty s = true ->
  subtract h s = Ret (h, ROk tt).
Proof. exact C17_subtract_empty_proof. Qed.
Print Assumptions C17_subtract_empty.

Example ex_C17_empty : match build U64 1 1000 1 false [(5, 3)], build U64 2 100000 3 false [] with
  | Some h, Some s => reachable h /\ reachable s /\ is_empty s = true /\ add h s = Ret (h, ROk tt) /\ subtract h s = Ret (h, ROk tt)
  | _, _ => False end.
Proof. case_of. Qed.

(** ** C21.  What equality compares, exactly *)
Theorem C21_eq_iff : forall a b, reachable a -> reachable b ->
  hist_eq a b = Ret true <->
  (same_precision a b /\ len a = len b /\ max a = max b /\ min_nz a = min_nz b /\
   distinct_values a <= distinct_values b /\
   forall v, is_u64 v -> covers a v -> count_at a v = count_at b v).
Proof. exact C21_eq_iff_proof. Qed.
Print Assumptions C21_eq_iff.

Example ex_C21_iff : match build U64 1 1000 1 false [(5, 2); (7, 1)], build U64 1 1000 1 false [(5, 1); (7, 2)] with
  | Some a, Some b => reachable a /\ reachable b /\ len a = len b /\ max a = max b /\ min_nz a = min_nz b /\ hist_eq a b = Ret false
  | _, _ => False end.
Proof. case_of. Qed.
