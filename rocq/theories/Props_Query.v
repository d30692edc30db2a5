(** Property theorems; the proofs are in [PfQuery].  Generated by tools/gen_theorems.py. *)
From Verif Require Import Machine Log2Model HistModel Spec Reach Witness Cases PfQuery.

(** ** C21.  Equality *)
Theorem C21_eq_reflexive : forall h, reachable h -> hist_eq h h = Ret true.
Proof. exact C21_eq_reflexive_proof. Qed.
Print Assumptions C21_eq_reflexive.

Example ex_C21_reflexive : match build U8 1 1000 1 false [(5, 200); (5, 100); (900, 3)] with
  | Some h => reachable h /\ len h = 303 /\ hist_eq h h = Ret true
  | None => False end.
Proof. case_of. Qed.

Theorem C21_eq_transitive : forall a b c, reachable a -> reachable b -> reachable c ->
  hist_eq a b = Ret true -> hist_eq b c = Ret true -> hist_eq a c = Ret true.
Proof. exact C21_eq_transitive_proof. Qed.
Print Assumptions C21_eq_transitive.

Example ex_C21_transitive : match build U64 1 1000 1 false [(5, 2); (7, 1)], build U64 1 5000 1 true [(7, 1); (5, 1); (5, 1)], build U64 1 50000 1 true [(5, 2); (7, 1)] with
  | Some a, Some b, Some c => reachable a /\ reachable b /\ reachable c /\ hist_eq a b = Ret true /\ hist_eq b c = Ret true /\ hist_eq a c = Ret true
  | _, _, _ => False end.
Proof. case_of. Qed.

(** equal histograms agree on everything they report *)
Theorem C21_eq_agree : forall a b, reachable a -> reachable b -> hist_eq a b = Ret true ->
  same_precision a b /\ len a = len b /\ max a = max b /\ min_nz a = min_nz b /\
  (forall w, is_u64 w -> covers a w -> covers b w /\ count_at a w = count_at b w) /\
  (len_agrees a -> len_agrees b -> held a = held b).
Proof. exact C21_eq_agree_proof. Qed.
Print Assumptions C21_eq_agree.

Example ex_C21_agree : match build U64 1 1000 1 false [(5, 2); (7, 1)], build U64 1 5000 1 true [(7, 1); (5, 1); (5, 1)] with
  | Some a, Some b => reachable a /\ reachable b /\ hist_eq a b = Ret true /\ len_agrees a /\ len_agrees b /\ distinct_values a <> distinct_values b /\
      is_u64 5 /\ covers a 5 /\ covers b 5 /\ count_at b 5 = Ret 2 /\ held b = [(5, 2); (7, 1)]
  | _, _ => False end.
Proof. case_of. Qed.

(** between histograms of the same number of bins it is symmetric *)
Theorem C21_eq_symmetric : forall a b, reachable a -> reachable b -> distinct_values a = distinct_values b ->
  hist_eq a b = hist_eq b a.
Proof. exact C21_eq_symmetric_proof. Qed.
Print Assumptions C21_eq_symmetric.

Example ex_C21_symmetric : match build U64 1 1000 1 false [(5, 2); (7, 1)], build U64 1 1000 1 true [(7, 1); (5, 1); (5, 1)], build U64 1 1000 1 true [(7, 1)] with
  | Some a, Some b, Some c => reachable a /\ reachable b /\ reachable c /\ distinct_values a = distinct_values b /\ distinct_values a = distinct_values c /\
      hist_eq a b = Ret true /\ hist_eq b a = Ret true /\ hist_eq a c = Ret false /\ hist_eq c a = Ret false
  | _, _, _ => False end.
Proof. case_of. Qed.

(** in general it is not: a resized empty histogram *)
Theorem C21_eq_not_symmetric_refuted : exists a b, reachable a /\ reachable b /\ h_ctr a = h_ctr b /\
  hist_eq a b = Ret true /\ hist_eq b a = Ret false.
Proof. exact C21_eq_not_symmetric_refuted_proof. Qed.
Print Assumptions C21_eq_not_symmetric_refuted.

Example ex_C21 : match build U64 1 1000 1 false [(5, 2); (7, 1)], build U64 1 5000 1 true [(7, 1); (5, 1); (5, 1)], build U64 1 50000 1 true [(5, 2); (7, 1)] with
  | Some a, Some b, Some c => reachable a /\ reachable b /\ reachable c /\ hist_eq a b = Ret true /\ hist_eq b c = Ret true /\ hist_eq a c = Ret true /\
      held a = [(5, 2); (7, 1)] /\ held b = held a /\ len_agrees a /\ len_agrees b
  | _, _, _ => False end.
Proof. case_of. Qed.

(** [count_between a b], for values that have bins, is the number of samples held in the classes from
    [a]'s to [b]'s *)
Theorem C30_count_between : forall h a b la hb, reachable h -> is_u64 a -> is_u64 b -> covers h a -> covers h b ->
  lowest_equivalent h a = Ret la -> highest_equivalent h b = Ret hb ->
  count_between h a b = Ret (Z.min u64_max (weight_between la hb (held h))).
Proof. exact C30_count_between_proof. Qed.
Print Assumptions C30_count_between.

Example ex_C30_count_between : match build U64 1 10000 1 false [(5000, 8); (5, 2); (333, 1); (900, 9)] with
  | Some h => reachable h /\ is_u64 5 /\ is_u64 900 /\ covers h 5 /\ covers h 900 /\ lowest_equivalent h 5 = Ret 5 /\ highest_equivalent h 900 = Ret 927 /\
      weight_between 5 927 (held h) = 12 /\ count_between h 5 900 = Ret 12
  | None => False end.
Proof. case_of. Qed.

(** values beyond the last bin stand for the last bin *)
Theorem C30_clamped : forall h a b t, reachable h -> is_u64 a -> is_u64 b -> is_u64 t ->
  covers h t -> (forall w, is_u64 w -> covers h w -> w <= t) -> ~ covers h a ->
  count_at h a = count_at h t /\ count_between h a b = count_between h t b /\ count_between h b a = count_between h b t.
Proof. exact C30_clamped_proof. Qed.
Print Assumptions C30_clamped.

Example ex_C30_clamped : match build U64 1 10000 1 false [(5, 2); (333, 1); (900, 4); (5000, 8); (10000, 3)] with
  | Some h => reachable h /\ is_u64 99999 /\ is_u64 5000 /\ is_u64 16383 /\ covers h 16383 /\ ~ covers h 16384 /\ ~ covers h 99999 /\
      count_at h 99999 = Ret 0 /\ count_at h 16383 = Ret 0 /\ count_between h 5000 99999 = Ret 11 /\ count_between h 99999 5000 = Ret 0
  | _ => False end.
Proof. case_of. Qed.

(** adjacent ranges add up *)
Theorem C30_additive : forall h a b c nb x y z, reachable h -> is_u64 a -> is_u64 b -> is_u64 c ->
  covers h b -> covers h nb -> a <= b -> next_non_equivalent h b = Ret nb -> nb <= c -> equivalent h b nb = Ret false ->
  count_between h a b = Ret x -> count_between h nb c = Ret y -> count_between h a c = Ret z ->
  z = Z.min u64_max (x + y).
Proof. exact C30_additive_proof. Qed.
Print Assumptions C30_additive.

Example ex_C30_additive : match build U64 1 10000 1 false [(5, 2); (333, 1); (900, 4); (5000, 8)] with
  | Some h => reachable h /\ is_u64 4 /\ is_u64 332 /\ is_u64 6000 /\ covers h 332 /\ covers h 336 /\ next_non_equivalent h 332 = Ret 336 /\ equivalent h 332 336 = Ret false /\
      count_between h 4 332 = Ret 3 /\ count_between h 336 6000 = Ret 12 /\ count_between h 4 6000 = Ret 15
  | _ => False end.
Proof. case_of. Qed.

(** in terms of what was recorded *)
Theorem C30_history : forall T lo hi sf bb h0 l h a b la hb, is_u64 lo -> is_u64 hi -> is_u8 sf ->
  new_with_bounds T lo hi sf = Ret (ROk h0) -> records (auto h0 bb) l h -> no_saturation (auto h0 bb) l ->
  is_u64 a -> is_u64 b -> covers h a -> covers h b -> b = u64_max \/ equivalent h b u64_max = Ret false ->
  lowest_equivalent h a = Ret la -> highest_equivalent h b = Ret hb ->
  count_between h a b = Ret (weight_between la hb l).
Proof. exact C30_history_proof. Qed.
Print Assumptions C30_history.

Example ex_C30_history : match new_with_bounds U64 1 10000 1, build U64 1 10000 1 false [(5, 2); (333, 1); (900, 4); (5000, 8)] with
  | Ret (ROk h0), Some h => reachable (auto h0 false) /\
      records (auto h0 false) [(5, 2); (333, 1); (900, 4); (5000, 8)] h /\ no_saturation (auto h0 false) [(5, 2); (333, 1); (900, 4); (5000, 8)] /\
      covers h 6 /\ covers h 901 /\ equivalent h 901 u64_max = Ret false /\ lowest_equivalent h 6 = Ret 6 /\ highest_equivalent h 901 = Ret 927 /\
      weight_between 6 927 [(5, 2); (333, 1); (900, 4); (5000, 8)] = 5 /\ count_between h 6 901 = Ret 5
  | _, _ => False end.
Proof. case_of. Qed.

Example ex_C30 : match build U64 1 10000 1 false [(5, 2); (333, 1); (900, 4); (5000, 8)] with
  | Some h => reachable h /\ is_u64 5 /\ is_u64 900 /\ covers h 5 /\ covers h 900 /\ lowest_equivalent h 5 = Ret 5 /\ highest_equivalent h 900 = Ret 927 /\
     weight_between 5 927 (held h) = 7 /\ count_between h 5 900 = Ret 7 /\ count_between h 6 9999999 = Ret 13 /\ count_between h 6 332 = Ret 1
  | _ => False end.
Proof. case_of. Qed.

(** ** C31.  None of the modelled operations panics on a reachable histogram *)
Theorem C31_queries_total : forall h v w, reachable h -> is_u64 v -> is_u64 w ->
  index_for h v <> Panic /\ lowest_equivalent h v <> Panic /\ highest_equivalent h v <> Panic /\
  next_non_equivalent h v <> Panic /\ median_equivalent h v <> Panic /\ equivalent_range h v <> Panic /\
  equivalent h v w <> Panic /\ count_at h v <> Panic /\ count_between h v w <> Panic /\
  max h <> Panic /\ min h <> Panic /\ min_nz h <> Panic.
Proof. exact C31_queries_total_proof. Qed.
Print Assumptions C31_queries_total.

Example ex_C31_queries : match build U8 3 10000 2 true [(5, 255); (0, 1); (u64_max, 200)] with
  | Some h => reachable h /\ is_u64 u64_max /\ is_u64 0 /\ highest_equivalent h u64_max = Ret u64_max /\ next_non_equivalent h u64_max = Ret u64_max /\
      count_between h 0 u64_max = Ret 456
  | None => False end.
Proof. case_of. Qed.

Theorem C31_updates_total : forall h v n i, reachable h -> is_u64 v -> is_count (h_ctr h) n -> is_u64 i ->
  record_n h v n <> Panic /\ saturating_record_n h v n <> Panic /\ record_n_correct h v n i <> Panic /\
  record h v <> Panic /\ saturating_record h v <> Panic /\ record_correct h v i <> Panic.
Proof. exact C31_updates_total_proof. Qed.
Print Assumptions C31_updates_total.

Example ex_C31_updates : match build U8 3 10000 2 false [(5, 255); (0, 1)] with
  | Some h => reachable h /\ is_u64 u64_max /\ is_count (h_ctr h) 255 /\ is_u64 0 /\ record_n h u64_max 255 = Ret (h, RErr ValueOutOfRangeResizeDisabled) /\
      match saturating_record_n h u64_max 255 with Ret h' => count_at h' 10000 = Ret 255 | _ => False end
  | None => False end.
Proof. case_of. Qed.

Theorem C31_merge_total : forall h s T, reachable h -> reachable s -> h_ctr h = h_ctr s ->
  add h s <> Panic /\ subtract h s <> Panic /\ set_to h s <> Panic /\ hist_eq h s <> Panic /\ new_from T h <> Panic.
Proof. exact C31_merge_total_proof. Qed.
Print Assumptions C31_merge_total.

Example ex_C31_merge : match build U8 3 10000 2 true [(5, 255); (0, 1); (u64_max, 200)], build U8 1 1000 1 false [(7, 3)] with
  | Some h, Some s => reachable h /\ reachable s /\ h_ctr h = h_ctr s /\ add s h = Ret (s, RErr OtherAddendValueExceedsRange) /\
      match add h s with Ret (h', ROk _) => len h' = 459 | _ => False end
  | _, _ => False end.
Proof. case_of. Qed.

Theorem C31_construction_total : forall T lo hi sf, is_u64 lo -> is_u64 hi -> is_u8 sf ->
  new_with_bounds T lo hi sf <> Panic /\ new_with_max T hi sf <> Panic /\ new T sf <> Panic.
Proof. exact C31_construction_total_proof. Qed.
Print Assumptions C31_construction_total.

Example ex_C31 : match build U8 3 10000 2 true [(5, 255); (0, 1); (u64_max, 200)], build U8 1 1000 1 false [(7, 3)] with
  | Some h, Some s => reachable h /\ reachable s /\ h_ctr h = h_ctr s /\ is_u64 u64_max /\ is_count (h_ctr h) 255 /\ len h = 456 /\ max h = Ret u64_max /\ min h = Ret 0 /\
      match add s h with Ret (_, RErr e) => e = OtherAddendValueExceedsRange | _ => False end
  | _, _ => False end.
Proof. case_of. Qed.
