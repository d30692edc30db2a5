(** Property theorems; the proofs are in [PfMerge].  Generated by tools/gen_theorems.py. *)
From Verif Require Import Machine Log2Model HistModel Spec Reach Witness Cases PfMerge.

(** ** C14.  A successful [add] adds, for every value, the samples of the source that fall into its
    class (capped at the counter's maximum); every sample of the source has a bin afterwards. *)
Theorem C14_add_counts : forall h s h', reachable h -> reachable s -> h_ctr h = h_ctr s ->
  add h s = Ret (h', ROk tt) ->
  (forall w c, is_u64 w -> covers h w -> count_at h w = Ret c ->
     count_at h' w = Ret (Z.min (cmax (h_ctr h)) (c + weight_at h w (held s)))) /\
  (forall w, is_u64 w -> ~ covers h w -> covers h' w ->
     count_at h' w = Ret (Z.min (cmax (h_ctr h)) (weight_at h w (held s)))) /\
  (forall v n, In (v, n) (held s) -> covers h' v) /\
  (forall w, is_u64 w -> covers h w -> covers h' w) /\
  low h' = low h /\ sigfig h' = sigfig h /\ is_auto_resize h' = is_auto_resize h /\ high h <= high h'.
Proof. exact C14_add_counts_proof. Qed.
Print Assumptions C14_add_counts.

Example ex_C14_counts : match build U8 1 1000 1 true [(5, 200); (900, 1)], build U8 2 5000 2 false [(5, 100); (333, 7); (5000, 9)] with
  | Some h, Some s => reachable h /\ reachable s /\ h_ctr h = h_ctr s /\ is_u64 4 /\ covers h 4 /\ count_at h 4 = Ret 0 /\ weight_at h 4 (held s) = 100 /\
      is_u64 5000 /\ ~ covers h 5000 /\ weight_at h 5000 (held s) = 9 /\ In (332, 7) (held s) /\
      match add h s with Ret (h', ROk _) => count_at h' 4 = Ret 100 /\ covers h' 5000 /\ count_at h' 5000 = Ret 9 | _ => False end
  | _, _ => False end.
Proof. case_of. Qed.

(** between histograms of the same precision, counts simply add *)
Theorem C14_add_same_precision : forall h s h' w c d, reachable h -> reachable s -> h_ctr h = h_ctr s ->
  same_precision h s -> add h s = Ret (h', ROk tt) -> is_u64 w -> covers h w -> covers s w ->
  count_at h w = Ret c -> count_at s w = Ret d -> count_at h' w = Ret (Z.min (cmax (h_ctr h)) (c + d)).
Proof. exact C14_add_same_precision_proof. Qed.
Print Assumptions C14_add_same_precision.

Example ex_C14_same_precision : match build U8 1 1000 1 false [(5, 200); (900, 1)], build U8 1 3000 1 false [(5, 100); (333, 7)] with
  | Some h, Some s => reachable h /\ reachable s /\ h_ctr h = h_ctr s /\ same_precision h s /\ distinct_values h <> distinct_values s /\
      covers h 333 /\ covers s 333 /\ count_at h 333 = Ret 0 /\ count_at s 333 = Ret 7 /\
      match add h s with Ret (h', ROk _) => count_at h' 333 = Ret 7 /\ count_at h' 5 = Ret 255 | _ => False end
  | _, _ => False end.
Proof. case_of. Qed.

(** [len] adds up when the source's own [len] is the number of samples it holds *)
Theorem C14_add_len : forall h s h', reachable h -> reachable s -> h_ctr h = h_ctr s -> len_agrees s ->
  add h s = Ret (h', ROk tt) -> len h' = Z.min u64_max (len h + len s).
Proof. exact C14_add_len_proof. Qed.
Print Assumptions C14_add_len.

Example ex_C14_len : match build U8 1 1000 1 false [(5, 200); (5, 100)], build U8 2 500 2 false [(5, 100); (333, 7)] with
  | Some h, Some s => reachable h /\ reachable s /\ h_ctr h = h_ctr s /\ len_agrees s /\ ~ len_agrees h /\
      match add h s with Ret (h', ROk _) => len h = 300 /\ len s = 107 /\ len h' = 407 | _ => False end
  | _, _ => False end.
Proof. case_of. discriminate. Qed.

(** the extremes afterwards are those of all samples held *)
Theorem C14_add_stats : forall h s h' r, reachable h -> reachable s -> h_ctr h = h_ctr s ->
  stats_agree h -> stats_agree s -> no_saturation h (held s) ->
  add h s = Ret (h', r) -> stats_agree h'.
Proof. exact C14_add_stats_proof. Qed.
Print Assumptions C14_add_stats.

Example ex_C14_stats : match build U8 1 1000 1 false [(5, 20); (900, 1)], build U8 2 500 2 false [(2, 100); (333, 7)] with
  | Some h, Some s => reachable h /\ reachable s /\ h_ctr h = h_ctr s /\ stats_agree h /\ stats_agree s /\ no_saturation h (held s) /\
      match add h s with Ret (h', ROk _) => min_nz h = Ret 5 /\ min_nz h' = Ret 2 /\ max h' = Ret 927 /\ len h' = 128 | _ => False end
  | _, _ => False end.
Proof. case_of. Qed.

(** a failing [add] changes nothing, and [add] never panics *)
Theorem C14_add_error : forall h s, reachable h -> reachable s -> h_ctr h = h_ctr s ->
  exists h' r, add h s = Ret (h', r) /\
    (forall e, r = RErr e -> h' = h /\ e = OtherAddendValueExceedsRange /\ is_auto_resize h = false).
Proof. exact C14_add_error_proof. Qed.
Print Assumptions C14_add_error.

Example ex_C14 : match build U8 1 1000 1 false [(5, 200); (900, 1)], build U8 2 500 2 false [(5, 100); (333, 7)] with
  | Some h, Some s => held s = [(4, 100); (332, 7)] /\
      match add h s with
      | Ret (h', ROk _) => count_at h' 5 = Ret 200 /\ count_at h' 4 = Ret 100 /\ count_at h' 333 = Ret 7 /\ len h' = 308
      | _ => False end
  | _, _ => False end.
Proof. vm_compute. auto 10. Qed.
Example ex_C14_sat : match build U8 1 1000 1 false [(5, 200)], build U8 1 1000 1 false [(5, 100)] with
  | Some h, Some s =>
      match add h s with
      | Ret (h', ROk _) => count_at h' 5 = Ret 255 /\ len h' = 300
      | _ => False end
  | _, _ => False end.
Proof. vm_compute. auto 10. Qed.

(** if counters of the source saturated, its [len] is larger than the number of samples it holds and
    [add] may not add it: here 300 samples were recorded, 255 are held and [len] grows by 255 *)
Theorem C14_len_after_saturation_refuted : exists h s h', reachable h /\ reachable s /\ h_ctr h = h_ctr s /\
  add h s = Ret (h', ROk tt) /\ len h = 0 /\ len s = 300 /\ len h' = 255.
Proof. exact C14_len_after_saturation_refuted_proof. Qed.
Print Assumptions C14_len_after_saturation_refuted.

Theorem C15_commutative : forall a b ab ba, reachable a -> reachable b -> h_ctr a = h_ctr b ->
  same_precision a b -> stats_agree a -> stats_agree b -> no_saturation a (held b) -> no_saturation b (held a) ->
  add a b = Ret (ab, ROk tt) -> add b a = Ret (ba, ROk tt) ->
  held ab = held ba /\ len ab = len ba /\ same_max ab ba /\ same_min_nz ab ba.
Proof. exact C15_commutative_proof. Qed.
Print Assumptions C15_commutative.

Example ex_C15_commutative : match build U64 1 1000 1 false [(5, 200); (900, 1)], build U64 1 1000 1 false [(5, 100); (333, 7)] with
  | Some a, Some b => reachable a /\ reachable b /\ h_ctr a = h_ctr b /\ same_precision a b /\ stats_agree a /\ stats_agree b /\
      no_saturation a (held b) /\ no_saturation b (held a) /\
      match add a b, add b a with
      | Ret (ab, ROk _), Ret (ba, ROk _) => held ab = [(5, 300); (320, 7); (896, 1)] /\ held ba = held ab /\
          len ab = 308 /\ max ab = Ret 927 /\ max ba = max ab
      | _, _ => False end
  | _, _ => False end.
Proof. case_of. Qed.

Theorem C15_associative : forall a b c ab bc l r, reachable a -> reachable b -> reachable c ->
  h_ctr a = h_ctr b -> h_ctr b = h_ctr c -> same_precision a b -> same_precision b c ->
  stats_agree a -> stats_agree b -> stats_agree c ->
  no_saturation a (held b) -> no_saturation b (held c) -> no_saturation ab (held c) -> no_saturation a (held bc) ->
  add a b = Ret (ab, ROk tt) -> add ab c = Ret (l, ROk tt) ->
  add b c = Ret (bc, ROk tt) -> add a bc = Ret (r, ROk tt) ->
  held l = held r /\ len l = len r /\ same_max l r /\ same_min_nz l r.
Proof. exact C15_associative_proof. Qed.
Print Assumptions C15_associative.

(** [b] has to be resized when [c] is added to it, [a] need not *)
Example ex_C15_associative : match build U64 1 10000 1 false [(5, 200); (900, 1)], build U64 1 1000 1 true [(5, 100); (333, 7)], build U64 1 10000 1 false [(9000, 4)] with
  | Some a, Some b, Some c => reachable a /\ reachable b /\ reachable c /\ h_ctr a = h_ctr b /\ h_ctr b = h_ctr c /\
      same_precision a b /\ same_precision b c /\ stats_agree a /\ stats_agree b /\ stats_agree c /\
      no_saturation a (held b) /\ no_saturation b (held c) /\
      match add a b, add b c with
      | Ret (ab, ROk _), Ret (bc, ROk _) => no_saturation ab (held c) /\ no_saturation a (held bc) /\
          match add ab c, add a bc with
          | Ret (l, ROk _), Ret (r, ROk _) => held l = [(5, 300); (320, 7); (896, 1); (8704, 4)] /\ held r = held l /\ len l = 312
          | _, _ => False end
      | _, _ => False end
  | _, _, _ => False end.
Proof. case_of. Qed.

Example ex_C15 : match build U64 1 1000 1 false [(5, 200); (900, 1)], build U64 1 1000 1 false [(5, 100); (333, 7)] with
  | Some a, Some b => same_precision a b /\
      match add a b, add b a with
      | Ret (ab, ROk _), Ret (ba, ROk _) => held ab = [(5, 300); (320, 7); (896, 1)] /\ held ba = held ab /\
          len ab = 308 /\ max ab = Ret 927 /\ max ba = max ab
      | _, _ => False end
  | _, _ => False end.
Proof. vm_compute. auto 10. Qed.

(** ** C16.  When [add] fails *)
Theorem C16_add_fails_iff : forall h s mx, reachable h -> reachable s -> h_ctr h = h_ctr s -> max s = Ret mx ->
  (add h s = Ret (h, RErr OtherAddendValueExceedsRange) <->
   is_auto_resize h = false /\ is_empty s = false /\ (~ covers h mx \/ mx = u64_max)).
Proof. exact C16_add_fails_iff_proof. Qed.
Print Assumptions C16_add_fails_iff.

Example ex_C16_fails : match build U64 1 1000 1 false [(3, 1)], build U64 1 5000 1 false [(4000, 1)], build U64 1 5000 1 false [(999, 1)] with
  | Some h, Some s, Some s2 => reachable h /\ reachable s /\ h_ctr h = h_ctr s /\ is_auto_resize h = false /\ is_empty s = false /\
      max s = Ret 4095 /\ ~ covers h 4095 /\ add h s = Ret (h, RErr OtherAddendValueExceedsRange) /\
      max s2 = Ret 1023 /\ covers h 1023 /\ match add h s2 with Ret (h', ROk _) => len h' = 2 | _ => False end
  | _, _, _ => False end.
Proof. case_of. Qed.

(** hence a histogram can be added to one of the same configuration if its maximum is not [u64::MAX] *)
Theorem C16_same_config : forall h s, reachable h -> reachable s -> h_ctr h = h_ctr s ->
  same_config h s -> max s <> Ret u64_max -> exists h', add h s = Ret (h', ROk tt).
Proof. exact C16_same_config_proof. Qed.
Print Assumptions C16_same_config.

Example ex_C16_same_config : match build U64 1 1000 1 false [(5, 1)], build U64 1 1000 1 false [(1000, 1)] with
  | Some h, Some s => reachable h /\ reachable s /\ h_ctr h = h_ctr s /\ same_config h s /\ max s <> Ret u64_max /\
      match add h s with Ret (h', ROk _) => held h' = [(5, 1); (992, 1)] | _ => False end
  | _, _ => False end.
Proof. case_of. Qed.

(** and not always: two identical histograms that recorded [u64::MAX] cannot be added *)
Theorem C16_identical_add_fails_refuted : exists h, reachable h /\ is_auto_resize h = false /\
  (exists h1, record h u64_max = Ret (h1, ROk tt) /\ add h1 h1 = Ret (h1, RErr OtherAddendValueExceedsRange)).
Proof. exact C16_identical_add_fails_refuted_proof. Qed.
Print Assumptions C16_identical_add_fails_refuted.

Example ex_C16 : match build U64 1 1000 1 false [], build U64 1 5000 1 false [(4000, 1)] with
  | Some h, Some s => add h s = Ret (h, RErr OtherAddendValueExceedsRange) /\ max s = Ret 4095
  | _, _ => False end.
Proof. vm_compute. auto 10. Qed.

(** ** C17.  A successful [subtract] removes, for every value, the samples of the subtrahend that fall in
    its class. *)
Theorem C17_subtract_counts : forall h s h', reachable h -> reachable s -> h_ctr h = h_ctr s ->
  subtract h s = Ret (h', ROk tt) ->
  (forall w c, is_u64 w -> covers h w -> count_at h w = Ret c -> count_at h' w = Ret (c - weight_at h w (held s))) /\
  low h' = low h /\ high h' = high h /\ sigfig h' = sigfig h /\ distinct_values h' = distinct_values h /\
  is_auto_resize h' = is_auto_resize h.
Proof. exact C17_subtract_counts_proof. Qed.
Print Assumptions C17_subtract_counts.

Example ex_C17_counts : match build U64 1 1000 1 false [(5, 200); (900, 4)], build U64 1 1000 2 false [(5, 100); (897, 1); (905, 2)] with
  | Some h, Some s => reachable h /\ reachable s /\ h_ctr h = h_ctr s /\ covers h 900 /\ count_at h 900 = Ret 4 /\
      weight_at h 900 (held s) = 3 /\
      match subtract h s with Ret (h', ROk _) => count_at h' 900 = Ret 1 /\ count_at h' 5 = Ret 100 /\ len h' = 101 | _ => False end
  | _, _ => False end.
Proof. case_of. Qed.

(** when it succeeds *)
Theorem C17_subtract_success_iff : forall h s mx, reachable h -> reachable s -> h_ctr h = h_ctr s ->
  is_empty s = false -> max s = Ret mx ->
  ((exists h', subtract h s = Ret (h', ROk tt)) <->
   covers h mx /\ mx <> u64_max /\
   (forall w c, is_u64 w -> covers h w -> count_at h w = Ret c -> weight_at h w (held s) <= c)).
Proof. exact C17_subtract_success_iff_proof. Qed.
Print Assumptions C17_subtract_success_iff.

Example ex_C17_success : match build U64 1 1000 1 false [(5, 200); (900, 1)], build U64 1 1000 1 false [(5, 100)], build U64 1 1000 1 false [(5, 100); (7, 1)] with
  | Some h, Some s, Some s2 => reachable h /\ reachable s /\ h_ctr h = h_ctr s /\ is_empty s = false /\ max s = Ret 5 /\ covers h 5 /\
      match subtract h s with Ret (h', ROk _) => len h' = 101 | _ => False end /\
      count_at h 7 = Ret 0 /\ weight_at h 7 (held s2) = 1 /\ match subtract h s2 with Ret (h', RErr _) => True | _ => False end
  | _, _, _ => False end.
Proof. case_of. Qed.

(** subtracting what was added gives back every count and [len] *)
Theorem C17_undo : forall h s h1, reachable h -> reachable s -> h_ctr h = h_ctr s ->
  stats_agree h -> stats_agree s -> no_saturation h (held s) -> max s <> Ret u64_max ->
  add h s = Ret (h1, ROk tt) ->
  exists h2, subtract h1 s = Ret (h2, ROk tt) /\ held h2 = held h /\ len h2 = len h /\ same_max h2 h /\
    (forall w c, is_u64 w -> covers h w -> count_at h w = Ret c -> count_at h2 w = Ret c).
Proof. exact C17_undo_proof. Qed.
Print Assumptions C17_undo.

Example ex_C17_undo : match build U64 1 1000 1 false [(5, 200); (900, 1)], build U64 2 1000 2 false [(5, 100); (444, 2)] with
  | Some h, Some s => reachable h /\ reachable s /\ h_ctr h = h_ctr s /\ stats_agree h /\ stats_agree s /\ no_saturation h (held s) /\
      max s <> Ret u64_max /\
      match add h s with
      | Ret (h1, ROk _) => match subtract h1 s with
          | Ret (h2, ROk _) => held h1 = [(4, 100); (5, 200); (432, 2); (896, 1)] /\ held h2 = held h /\ len h2 = 201 /\ max h2 = max h
          | _ => False end
      | _ => False end
  | _, _ => False end.
Proof. case_of. Qed.

(** statistics after a successful subtract: [len] and [max] agree again, and [min_nz] if nothing
    equivalent to 0 was held *)
Theorem C17_subtract_stats : forall h s h', reachable h -> reachable s -> h_ctr h = h_ctr s ->
  stats_agree h -> subtract h s = Ret (h', ROk tt) ->
  len_agrees h' /\ max_agrees h' /\ (count_at h 0 = Ret 0 -> min_agrees h').
Proof. exact C17_subtract_stats_proof. Qed.
Print Assumptions C17_subtract_stats.

Example ex_C17_stats : match build U64 1 1000 1 false [(5, 2); (40, 3); (900, 1)], build U64 1 1000 1 false [(5, 2); (900, 1)] with
  | Some h, Some s => reachable h /\ reachable s /\ h_ctr h = h_ctr s /\ stats_agree h /\ count_at h 0 = Ret 0 /\
      match subtract h s with Ret (h', ROk _) => held h' = [(40, 3)] /\ max h' = Ret 41 /\ min_nz h' = Ret 40 /\ len h' = 3 | _ => False end
  | _, _ => False end.
Proof. case_of. Qed.

Example ex_C17 : match build U64 1 1000 1 false [(5, 200); (900, 1)], build U64 1 1000 1 false [(5, 100)] with
  | Some h, Some s =>
      match add h s with
      | Ret (h1, ROk _) => match subtract h1 s with
          | Ret (h2, ROk _) => count_at h1 5 = Ret 300 /\ count_at h2 5 = Ret 200 /\ len h2 = 201 /\ hist_eq h2 h = Ret true
          | _ => False end
      | _ => False end
  | _, _ => False end.
Proof. vm_compute. auto 10. Qed.

(** ** C18.  A failing [subtract] *)
Theorem C18_subtract_error : forall h s h' e, reachable h -> reachable s -> h_ctr h = h_ctr s ->
  subtract h s = Ret (h', RErr e) ->
  (e = SubtrahendValueExceedsMinuendRange /\ h' = h) \/
  (e = SubtrahendCountExceedsMinuendCount /\
   low h' = low h /\ high h' = high h /\ sigfig h' = sigfig h /\ distinct_values h' = distinct_values h /\
   is_auto_resize h' = is_auto_resize h /\ len h' <= len h /\
   (exists w c, is_u64 w /\ count_at h w = Ret c /\ c < weight_at h w (held s)) /\
   (forall w c, is_u64 w -> covers h w -> count_at h w = Ret c -> exists c', count_at h' w = Ret c' /\ 0 <= c' <= c)).
Proof. exact C18_subtract_error_proof. Qed.
Print Assumptions C18_subtract_error.

Example ex_C18 : match build U64 1 1000 1 false [(5, 3); (7, 1); (900, 1)], build U64 1 1000 1 false [(5, 2); (7, 4); (900, 1)], build U64 1 5000 1 false [(5, 2); (4000, 1)] with
  | Some h, Some s, Some s2 => reachable h /\ reachable s /\ h_ctr h = h_ctr s /\
      match subtract h s with
      | Ret (h', RErr e) => e = SubtrahendCountExceedsMinuendCount /\ held h' = [(5, 1); (7, 1); (896, 1)] /\
          count_at h 7 = Ret 1 /\ weight_at h 7 (held s) = 4
      | _ => False end /\
      subtract h s2 = Ret (h, RErr SubtrahendValueExceedsMinuendRange)
  | _, _, _ => False end.
Proof. case_of. Qed.

(** it never panics *)
Theorem C18_subtract_total : forall h s, reachable h -> reachable s -> h_ctr h = h_ctr s -> subtract h s <> Panic.
Proof. exact C18_subtract_total_proof. Qed.
Print Assumptions C18_subtract_total.

Example ex_C18_total : match build U64 1 1000 1 false [(5, 3)], build U64 1 5000 2 false [(5, 2); (4000, 1)] with
  | Some h, Some s => reachable h /\ reachable s /\ h_ctr h = h_ctr s /\ match subtract h s with Ret (h', RErr e) => e = SubtrahendValueExceedsMinuendRange | _ => False end
  | _, _ => False end.
Proof. case_of. Qed.

(** it can be half done: the count of 5 is already reduced when 900 fails, and [len] is stale *)
Theorem C18_partial_effect_refuted : exists h s h', reachable h /\ reachable s /\ h_ctr h = h_ctr s /\
  subtract h s = Ret (h', RErr SubtrahendCountExceedsMinuendCount) /\
  count_at h 5 = Ret 3 /\ count_at h' 5 = Ret 1 /\ len h = 4 /\ len h' = 4.
Proof. exact C18_partial_effect_refuted_proof. Qed.
Print Assumptions C18_partial_effect_refuted.

(** ** C52.  After a subtract [min_nz] can be stale: samples equivalent to 0 hide the old minimum. *)
Theorem C52_stale_min_nz_refuted : exists h s h', reachable h /\ reachable s /\ h_ctr h = h_ctr s /\
  stats_agree h /\ stats_agree s /\ subtract h s = Ret (h', ROk tt) /\
  held h' = [(0, 1); (9, 1)] /\ min_nz h' = Ret 5.
Proof. exact C52_stale_min_nz_refuted_proof. Qed.
Print Assumptions C52_stale_min_nz_refuted.

(** so subtracting what was added does not always give an equal histogram *)
Theorem C52_undo_not_equal_refuted : exists h s h1 h2, reachable h /\ reachable s /\ h_ctr h = h_ctr s /\
  add h s = Ret (h1, ROk tt) /\ subtract h1 s = Ret (h2, ROk tt) /\ hist_eq h2 h = Ret false.
Proof. exact C52_undo_not_equal_refuted_proof. Qed.
Print Assumptions C52_undo_not_equal_refuted.

(** ** C19.  Copies *)
Theorem C19_new_from : forall T h, reachable h -> exists h', new_from T h = Ret h' /\
  h_ctr h' = T /\ low h' = low h /\ high h' = high h /\ sigfig h' = sigfig h /\
  distinct_values h' = distinct_values h /\ is_auto_resize h' = is_auto_resize h /\
  held h' = [] /\ len h' = 0 /\ max h' = Ret 0 /\ min_nz h' = Ret u64_max.
Proof. exact C19_new_from_proof. Qed.
Print Assumptions C19_new_from.

Example ex_C19_new_from : match build U64 3 1000 2 true [(5000, 2)] with
  | Some h => reachable h /\ match new_from U16 h with Ret h' => h_ctr h' = U16 /\ high h' = high h /\ distinct_values h' = 768 /\ len h' = 0 | _ => False end
  | _ => False end.
Proof. case_of. Qed.

Theorem C19_set_to : forall h s h', reachable h -> reachable s -> h_ctr h = h_ctr s ->
  set_to h s = Ret (h', ROk tt) ->
  (forall w, is_u64 w -> covers h' w -> count_at h' w = Ret (Z.min (cmax (h_ctr h)) (weight_at h w (held s)))) /\
  (len_agrees s -> len h' = len s) /\
  (same_precision h s -> held h' = held s) /\
  (stats_agree s -> no_saturation (reset h) (held s) -> stats_agree h').
Proof. exact C19_set_to_proof. Qed.
Print Assumptions C19_set_to.

Example ex_C19_set_to : match build U64 1 1000 1 true [(7, 2)], build U64 1 9000 1 false [(5, 100); (8000, 3)] with
  | Some h, Some s => reachable h /\ reachable s /\ h_ctr h = h_ctr s /\ len_agrees s /\ same_precision h s /\ stats_agree s /\ no_saturation (reset h) (held s) /\
      match set_to h s with Ret (h', ROk _) => held h' = [(5, 100); (7936, 3)] /\ len h' = 103 /\ max h' = Ret 8191 | _ => False end
  | _, _ => False end.
Proof. case_of. Qed.

(** and with the same configuration a non-empty source is copied exactly *)
Theorem C19_set_to_equal : forall h s, reachable h -> reachable s -> h_ctr h = h_ctr s ->
  same_config h s -> is_empty s = false -> max s <> Ret u64_max ->
  exists h', set_to h s = Ret (h', ROk tt) /\ hist_eq h' s = Ret true /\ max h' = max s /\ min_nz h' = min_nz s /\ min h' = min s.
Proof. exact C19_set_to_equal_proof. Qed.
Print Assumptions C19_set_to_equal.

Example ex_C19_set_to_equal : match build U64 1 1000 1 false [(7, 2)], build U64 1 1000 1 false [(5, 100); (800, 3)] with
  | Some h, Some s => reachable h /\ reachable s /\ h_ctr h = h_ctr s /\ same_config h s /\ is_empty s = false /\ max s <> Ret u64_max /\
      match set_to h s with
      | Ret (h', ROk _) => held h' = [(5, 100); (800, 3)] /\ hist_eq h' s = Ret true /\ max h' = max s
      | _ => False end
  | _, _ => False end.
Proof. case_of. Qed.

Example ex_C19 : match build U64 1 1000 1 false [(7, 2)], build U64 1 1000 1 false [(5, 100); (800, 3)] with
  | Some h, Some s => same_config h s /\
      match set_to h s with
      | Ret (h', ROk _) => held h' = [(5, 100); (800, 3)] /\ hist_eq h' s = Ret true
      | _ => False end
  | _, _ => False end.
Proof. vm_compute. auto 10. Qed.

Theorem C20_reset : forall h, reachable h ->
  held (reset h) = [] /\ len (reset h) = 0 /\ low (reset h) = low h /\ high (reset h) = high h /\
  sigfig (reset h) = sigfig h /\ distinct_values (reset h) = distinct_values h /\
  is_auto_resize (reset h) = is_auto_resize h /\ min (reset h) = Ret 0 /\ min_nz (reset h) = Ret u64_max /\
  (exists mx, max (reset h) = Ret mx /\ equivalent h 0 mx = Ret true) /\
  (forall v, is_u64 v -> count_at (reset h) v = Ret 0).
Proof. exact C20_reset_proof. Qed.
Print Assumptions C20_reset.

Example ex_C20_reset : match build U8 1 1000 1 true [(5, 200); (5, 100); (9000, 1)] with
  | Some h => reachable h /\ reachable (reset h) /\ len h = 301 /\ len (reset h) = 0 /\ held (reset h) = [] /\ high (reset h) = 16383 /\ is_auto_resize (reset h) = true /\
      is_u64 5 /\ count_at (reset h) 5 = Ret 0
  | None => False end.
Proof. case_of. Qed.

(** recording after [reset] and into a new histogram of the same parameters give the same contents *)
Theorem C20_reset_like_new : forall h n l h1 h2, reachable h -> new_from (h_ctr h) h = Ret n ->
  records (reset h) l h1 -> records n l h2 ->
  held h1 = held h2 /\ len h1 = len h2 /\ min_nz h1 = min_nz h2.
Proof. exact C20_reset_like_new_proof. Qed.
Print Assumptions C20_reset_like_new.

Example ex_C20_like_new : match build U64 4 1000 1 false [(7, 2); (900, 1)] with
  | Some h => reachable h /\
      match new_from U64 h, run_records (reset h) [(13, 2); (200, 1)] with
      | Ret n, Some h1 => match run_records n [(13, 2); (200, 1)] with
          | Some h2 => records (reset h) [(13, 2); (200, 1)] h1 /\ records n [(13, 2); (200, 1)] h2 /\
              held h1 = [(12, 2); (200, 1)] /\ held h2 = held h1
          | _ => False end
      | _, _ => False end
  | _ => False end.
Proof. case_of. Qed.

(** with [low] = 1 the reset histogram is the new one *)
Theorem C20_reset_is_new : forall h, reachable h -> equivalent h 0 1 = Ret false ->
  new_from (h_ctr h) h = Ret (reset h).
Proof. exact C20_reset_is_new_proof. Qed.
Print Assumptions C20_reset_is_new.

Example ex_C20_reset_is_new : match build U8 1 1000 1 false [(5, 200); (900, 1)] with
  | Some h => reachable h /\ equivalent h 0 1 = Ret false /\ new_from (h_ctr h) h = Ret (reset h)
  | None => False end.
Proof. case_of. Qed.

(** with a larger [low], [max()] of a reset histogram is not 0 and it differs from a new one *)
Theorem C20_reset_not_equal_new_refuted : exists h n, reachable h /\ new_from (h_ctr h) h = Ret n /\
  max n = Ret 0 /\ max (reset h) = Ret 3 /\ hist_eq (reset h) n = Ret false.
Proof. exact C20_reset_not_equal_new_refuted_proof. Qed.
Print Assumptions C20_reset_not_equal_new_refuted.

(** [clear] removes all counts and keeps the extremes *)
Theorem C20_clear : forall h, reachable h ->
  held (clear h) = [] /\ len (clear h) = 0 /\ low (clear h) = low h /\ high (clear h) = high h /\
  sigfig (clear h) = sigfig h /\ distinct_values (clear h) = distinct_values h /\
  is_auto_resize (clear h) = is_auto_resize h /\ max (clear h) = max h /\ min_nz (clear h) = min_nz h /\ min (clear h) = Ret 0 /\
  (forall v, is_u64 v -> count_at (clear h) v = Ret 0).
Proof. exact C20_clear_proof. Qed.
Print Assumptions C20_clear.

Example ex_C20 : match build U64 1 1000 1 false [(7, 2); (900, 1)] with
  | Some h => equivalent h 0 1 = Ret false /\ new_from U64 h = Ret (reset h) /\ max (reset h) = Ret 0 /\
      max (clear h) = Ret 927 /\ len (clear h) = 0
  | _ => False end.
Proof. vm_compute. auto 10. Qed.
