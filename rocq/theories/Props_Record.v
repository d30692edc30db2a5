(** Property theorems; the proofs are in [PfRecord].  Generated by tools/gen_theorems.py. *)
From Verif Require Import Machine Log2Model HistModel Spec Reach Witness Cases PfRecord.

(** ** C06.  Recording [l] adds to the count of every value the number of samples of [l] in its class,
    capped at the counter's maximum. *)
Theorem C06_records_add_up : forall h l h' w c, reachable h -> records h l h' -> is_u64 w -> covers h w ->
  count_at h w = Ret c -> count_at h' w = Ret (Z.min (cmax (h_ctr h)) (c + weight_at h w l)).
Proof. exact C06_records_add_up_proof. Qed.
Print Assumptions C06_records_add_up.

Example ex_C06_records_add_up : match build U8 1 1000 1 false [(5, 200); (900, 3)] with
  | Some h => match record_n h 5 100 with
      | Ret (h', ROk _) => reachable h /\ records h [(5, 100)] h' /\ is_u64 5 /\ covers h 5 /\ count_at h 5 = Ret 200 /\ count_at h' 5 = Ret 255 /\
          is_u64 901 /\ covers h 901 /\ count_at h 901 = Ret 3 /\ count_at h' 901 = Ret 3
      | _ => False end
  | None => False end.
Proof. case_of. Qed.

(** values that had no bin before start from 0 *)
Theorem C06_records_new_bins : forall h l h' w, reachable h -> records h l h' -> is_u64 w ->
  ~ covers h w -> covers h' w -> count_at h' w = Ret (Z.min (cmax (h_ctr h)) (weight_at h w l)).
Proof. exact C06_records_new_bins_proof. Qed.
Print Assumptions C06_records_new_bins.

Example ex_C06_records_new_bins : match build U8 1 1000 1 true [(5, 200); (900, 3)] with
  | Some h => match record_n h 5000 100 with
      | Ret (h', ROk _) => reachable h /\ records h [(5000, 100)] h' /\ is_u64 4900 /\ ~ covers h 4900 /\ covers h' 4900 /\ count_at h' 4900 = Ret 100 /\
          is_u64 2000 /\ ~ covers h 2000 /\ covers h' 2000 /\ count_at h' 2000 = Ret 0
      | _ => False end
  | None => False end.
Proof. case_of. Qed.

(** from a new histogram *)
Theorem C06_count_at : forall T lo hi sf b h0 l h w, is_u64 lo -> is_u64 hi -> is_u8 sf ->
  new_with_bounds T lo hi sf = Ret (ROk h0) -> records (auto h0 b) l h -> is_u64 w -> covers h w ->
  count_at h w = Ret (Z.min (cmax T) (weight_at h w l)).
Proof. exact C06_count_at_proof. Qed.
Print Assumptions C06_count_at.

Example ex_C06 : match build U8 1 1000 1 false [(5, 200); (900, 3); (5, 100); (901, 4)] with
  | Some h => reachable h /\ count_at h 5 = Ret 255 /\ count_at h 900 = Ret 7 /\ count_at h 6 = Ret 0
  | None => False end.
Proof. case_of. Qed.

(** ** C07.  [len] is the number of samples recorded, saturating at [u64::MAX]. *)
Theorem C07_len : forall h l h', reachable h -> records h l h' ->
  len h' = Z.min u64_max (len h + weight l) /\ is_empty h' = (len h' =? 0).
Proof. exact C07_len_proof. Qed.
Print Assumptions C07_len.

Example ex_C07 : match build U8 1 1000 1 false [(5, 200); (900, 3); (5, 100); (901, 4)] with
  | Some h => reachable h /\ len h = 307
  | None => False end.
Proof. case_of. Qed.

(** [max] is the top of the class of the largest recorded value [M] (0 if that is 0; in the class
    ending at [u64::MAX] the very last value may be left out) *)
Theorem C08_max : forall T lo hi sf b h0 l h M n, is_u64 lo -> is_u64 hi -> is_u8 sf ->
  new_with_bounds T lo hi sf = Ret (ROk h0) -> records (auto h0 b) l h ->
  In (M, n) l -> (forall v k, In (v, k) l -> v <= M) ->
  exists mx, max h = Ret mx /\ is_u64 mx /\ M <= mx /\ equivalent h M mx = Ret true /\ (M = 0 -> mx = 0) /\
    (0 < M -> forall w, is_u64 w -> equivalent h M w = Ret true -> w <= mx \/ w = u64_max).
Proof. exact C08_max_proof. Qed.
Print Assumptions C08_max.

Example ex_C08_max : match new_with_bounds U16 1 100000 2, build U16 1 100000 2 false [(0, 1); (70000, 2); (600, 3)] with
  | Ret (ROk h0), Some h => reachable (auto h0 false) /\ records (auto h0 false) [(0, 1); (70000, 2); (600, 3)] h /\
      In (70000, 2) [(0, 1); (70000, 2); (600, 3)] /\ forallb (fun p => fst p <=? 70000) [(0, 1); (70000, 2); (600, 3)] = true /\
      max h = Ret 70143 /\ equivalent h 70000 70143 = Ret true /\ equivalent h 70000 70144 = Ret false
  | _, _ => False end.
Proof. case_of. Qed.

(** [min_nz] is the bottom of the class of the smallest recorded value not equivalent to 0, or
    [u64::MAX] if there is none ([u64::MAX] recorded alone stays [u64::MAX]) *)
Theorem C08_min_nz : forall T lo hi sf b h0 l h m n, is_u64 lo -> is_u64 hi -> is_u8 sf ->
  new_with_bounds T lo hi sf = Ret (ROk h0) -> records (auto h0 b) l h ->
  In (m, n) l -> equivalent h 0 m = Ret false ->
  (forall v k, In (v, k) l -> equivalent h 0 v = Ret false -> m <= v) ->
  min_nz h = if m =? u64_max then Ret u64_max else lowest_equivalent h m.
Proof. exact C08_min_nz_proof. Qed.
Print Assumptions C08_min_nz.

Example ex_C08_min_nz : match new_with_bounds U16 16 100000 2, build U16 16 100000 2 false [(15, 1); (70000, 2); (601, 3)] with
  | Ret (ROk h0), Some h => reachable (auto h0 false) /\ records (auto h0 false) [(15, 1); (70000, 2); (601, 3)] h /\
      In (601, 3) [(15, 1); (70000, 2); (601, 3)] /\ equivalent h 0 601 = Ret false /\ equivalent h 0 15 = Ret true /\
      min_nz h = Ret 592 /\ lowest_equivalent h 601 = Ret 592
  | _, _ => False end.
Proof. case_of. Qed.

Theorem C08_min_nz_none : forall T lo hi sf b h0 l h, is_u64 lo -> is_u64 hi -> is_u8 sf ->
  new_with_bounds T lo hi sf = Ret (ROk h0) -> records (auto h0 b) l h ->
  (forall v k, In (v, k) l -> equivalent h 0 v = Ret true) -> min_nz h = Ret u64_max.
Proof. exact C08_min_nz_none_proof. Qed.
Print Assumptions C08_min_nz_none.

Example ex_C08_min_nz_none : match build U16 16 100000 2 false [(0, 1); (15, 2); (7, 3)] with
  | Some h => reachable h /\ equivalent h 0 15 = Ret true /\ equivalent h 0 7 = Ret true /\ min_nz h = Ret u64_max /\ max h = Ret 15
  | None => False end.
Proof. case_of. Qed.

(** [min] is the bottom of the class of the smallest recorded value *)
Theorem C08_min : forall T lo hi sf b h0 l h m n, is_u64 lo -> is_u64 hi -> is_u8 sf ->
  new_with_bounds T lo hi sf = Ret (ROk h0) -> records (auto h0 b) l h ->
  (forall v k, In (v, k) l -> 1 <= k) ->
  In (m, n) l -> (forall v k, In (v, k) l -> m <= v) ->
  min h = if m =? u64_max then Ret u64_max else lowest_equivalent h m.
Proof. exact C08_min_proof. Qed.
Print Assumptions C08_min.

Example ex_C08 : match build U16 1 100000 2 false [(0, 1); (70000, 2); (600, 3)] with
  | Some h => reachable h /\ max h = Ret 70143 /\ min h = Ret 0 /\ min_nz h = Ret 600 /\ highest_equivalent h 70000 = Ret 70143
  | None => False end.
Proof. case_of. Qed.
Example ex_C08_min : match build U16 1 100000 2 false [(70001, 2)] with
  | Some h => reachable h /\ min h = Ret 69632 /\ lowest_equivalent h 70001 = Ret 69632
  | None => False end.
Proof. case_of. Qed.

(** a record with count 0 is not neutral: it moves the extremes *)
Theorem C08_zero_count_moves_max_refuted : exists h h' v,
  reachable h /\ is_u64 v /\ record_n h v 0 = Ret (h', ROk tt) /\ len h' = 0 /\ max h = Ret 0 /\ max h' = Ret 7.
Proof. exact C08_zero_count_moves_max_refuted_proof. Qed.
Print Assumptions C08_zero_count_moves_max_refuted.

(** ** C09.  Without auto-resize a record is accepted exactly when the bins cover the value; otherwise
    nothing changes.  The bins cover everything up to [high], and what they cover is everything below
    a power of two. *)
Theorem C09_reject_unchanged : forall h v n, reachable h -> is_u64 v -> is_count (h_ctr h) n ->
  is_auto_resize h = false ->
  (covers h v -> exists h', record_n h v n = Ret (h', ROk tt)) /\
  (~ covers h v -> record_n h v n = Ret (h, RErr ValueOutOfRangeResizeDisabled)).
Proof. exact C09_reject_unchanged_proof. Qed.
Print Assumptions C09_reject_unchanged.

Example ex_C09_reject_unchanged : match build U64 1 1000 1 false [(5, 1)] with
  | Some h => reachable h /\ is_auto_resize h = false /\ is_u64 1024 /\ is_count U64 3 /\ ~ covers h 1024 /\
      record_n h 1024 3 = Ret (h, RErr ValueOutOfRangeResizeDisabled) /\
      covers h 1023 /\ match record_n h 1023 3 with Ret (h', ROk _) => len h' = 4 | _ => False end
  | None => False end.
Proof. case_of. Qed.

Theorem C09_covered_range : forall h, reachable h -> exists k, 1 <= k <= 64 /\ high h < 2 ^ k /\
  (forall v, is_u64 v -> (covers h v <-> v < 2 ^ k)).
Proof. exact C09_covered_range_proof. Qed.
Print Assumptions C09_covered_range.

Example ex_C09_covered_range : match build U64 1 1000 1 false [(5, 1)] with
  | Some h => reachable h /\ high h = 1000 /\ covers h 0 /\ covers h (2 ^ 10 - 1) /\ ~ covers h (2 ^ 10)
  | None => False end.
Proof. case_of. Qed.

(** [record] accepts values above [high()] (up to the top of the last bin) although resizing is off *)
Theorem C09_above_high_accepted_refuted : exists h v h',
  reachable h /\ is_auto_resize h = false /\ high h < v /\ record h v = Ret (h', ROk tt).
Proof. exact C09_above_high_accepted_refuted_proof. Qed.
Print Assumptions C09_above_high_accepted_refuted.

Example ex_C09 : match build U64 1 1000 1 false [(5, 1)] with
  | Some h => reachable h /\ record_n h 1024 1 = Ret (h, RErr ValueOutOfRangeResizeDisabled) /\
              index_for h 1023 = Ret (Some 111) /\ distinct_values h = 112
  | None => False end.
Proof. case_of. Qed.

(** ** C10.  With auto-resize on, every value is recorded; nothing that was there is lost. *)
Theorem C10_auto_resize : forall h v n, reachable h -> is_u64 v -> is_count (h_ctr h) n ->
  is_auto_resize h = true ->
  exists h', record_n h v n = Ret (h', ROk tt) /\ covers h' v /\ distinct_values h <= distinct_values h' /\
    high h <= high h' /\ low h' = low h /\ sigfig h' = sigfig h /\ is_auto_resize h' = true /\
    len h' = Z.min u64_max (len h + n) /\
    (forall w, is_u64 w -> covers h w -> covers h' w) /\
    (forall w c, is_u64 w -> covers h w -> count_at h w = Ret c -> equivalent h v w = Ret false -> count_at h' w = Ret c) /\
    (forall w, is_u64 w -> ~ covers h w -> covers h' w -> equivalent h v w = Ret false -> count_at h' w = Ret 0) /\
    (~ covers h v -> v <= high h' \/ (v = u64_max /\ high h' = u64_max - 1)).
Proof. exact C10_auto_resize_proof. Qed.
Print Assumptions C10_auto_resize.

Example ex_C10 : match build U64 1 1000 1 true [(5, 3)] with
  | Some h => reachable h /\ is_auto_resize h = true /\ index_for h 5000 = Ret (Some 147) /\ distinct_values h = 112 /\
      match record_n h 5000 1 with
      | Ret (h', ROk _) => high h' = 8191 /\ count_at h' 5 = Ret 3 /\ count_at h' 5000 = Ret 1
      | _ => False end
  | None => False end.
Proof. case_of. Qed.

(** ** C11.  [saturating_record_n] never fails: it is [record_n] of the value if the bins cover it and of
    [high()] otherwise; the range and the number of bins stay the same. *)
Theorem C11_saturating : forall h v n, reachable h -> is_u64 v -> is_count (h_ctr h) n ->
  exists h', saturating_record_n h v n = Ret h' /\
    (covers h v -> record_n h v n = Ret (h', ROk tt)) /\
    (~ covers h v -> record_n h (high h) n = Ret (h', ROk tt)) /\
    distinct_values h' = distinct_values h /\ high h' = high h /\ low h' = low h /\ sigfig h' = sigfig h /\
    is_auto_resize h' = is_auto_resize h.
Proof. exact C11_saturating_proof. Qed.
Print Assumptions C11_saturating.

Example ex_C11_saturating : match build U64 1 1000 1 false [(5, 3)] with
  | Some h => reachable h /\ is_u64 1024 /\ is_count (h_ctr h) 2 /\ ~ covers h 1024 /\
      match saturating_record_n h 1024 2 with Ret h' => record_n h (high h) 2 = Ret (h', ROk tt) | _ => False end /\
      is_u64 1023 /\ covers h 1023 /\ match saturating_record_n h 1023 2 with Ret h' => record_n h 1023 2 = Ret (h', ROk tt) | _ => False end
  | None => False end.
Proof. case_of. Qed.

(** it is not monotone: a larger value can be counted in a smaller class *)
Theorem C11_not_monotone_refuted : exists h v w hv hw,
  reachable h /\ is_u64 v /\ is_u64 w /\ v < w /\
  saturating_record h v = Ret hv /\ saturating_record h w = Ret hw /\
  max hv = Ret 1023 /\ max hw = Ret 607.
Proof. exact C11_not_monotone_refuted_proof. Qed.
Print Assumptions C11_not_monotone_refuted.

Example ex_C11 : match build U64 1 1000 1 false [(5, 3)] with
  | Some h => reachable h /\ match saturating_record_n h 1000000 2 with
      | Ret h' => count_at h' 1000 = Ret 2 /\ len h' = 5 /\ max h' = Ret 1023
      | _ => False end
  | None => False end.
Proof. case_of. Qed.

Theorem C12_correction : forall h v n i, reachable h -> is_u64 v -> is_count (h_ctr h) n -> is_u64 i ->
  (exists h', record_n_correct h v n i = Ret (h', ROk tt) /\
     records h ((v, n) :: map (fun x => (x, n)) (missing_values v i)) h') \/
  (record_n_correct h v n i = record_n h v n /\ exists e, record_n h v n = Ret (h, RErr e)).
Proof. exact C12_correction_proof. Qed.
Print Assumptions C12_correction.

Example ex_C12_rejected : match build U64 1 1000 1 false [(100, 1)] with
  | Some h => reachable h /\ is_u64 5000 /\ is_count U64 2 /\ is_u64 3 /\ ~ covers h 5000 /\ record_n_correct h 5000 2 3 = Ret (h, RErr ValueOutOfRangeResizeDisabled)
  | None => False end.
Proof. case_of. Qed.

(** which values those are *)
Theorem C12_missing_values : forall v i x, 0 <= v -> 0 < i ->
  (In x (missing_values v i) <-> exists k, 1 <= k /\ x = v - k * i /\ i <= x).
Proof. exact C12_missing_values_proof. Qed.
Print Assumptions C12_missing_values.

Example ex_C12 : missing_values 10 3 = [7; 4] /\
  match build U64 1 1000 1 false [(100, 1)] with
  | Some h => match record_n_correct h 10 2 3 with
      | Ret (h', ROk _) => reachable h /\ is_u64 10 /\ is_count U64 2 /\ is_u64 3 /\ records h [(10, 2); (7, 2); (4, 2)] h' /\
          count_at h' 10 = Ret 2 /\ count_at h' 7 = Ret 2 /\ count_at h' 4 = Ret 2 /\ len h' = 7
      | _ => False end
  | None => False end.
Proof. case_of. Qed.

(** ** C13.  Counts stay within the counter type and recording or adding never lowers one. *)
Theorem C13_counts_in_type : forall h v c, reachable h -> is_u64 v -> count_at h v = Ret c -> is_count (h_ctr h) c.
Proof. exact C13_counts_in_type_proof. Qed.
Print Assumptions C13_counts_in_type.

Example ex_C13_counts : match build U8 1 1000 1 false [(5, 250); (5, 10)] with
  | Some h => reachable h /\ is_u64 5 /\ count_at h 5 = Ret 255 /\ is_count (h_ctr h) 255
  | None => False end.
Proof. case_of. Qed.

Theorem C13_monotone_record : forall h v n i h' r1 r2 w c c', reachable h -> is_u64 v -> is_count (h_ctr h) n -> is_u64 i ->
  record_n h v n = Ret (h', r1) \/ saturating_record_n h v n = Ret h' \/ record_n_correct h v n i = Ret (h', r2) ->
  is_u64 w -> covers h w -> count_at h w = Ret c -> count_at h' w = Ret c' -> c <= c'.
Proof. exact C13_monotone_record_proof. Qed.
Print Assumptions C13_monotone_record.

Example ex_C13_monotone_record : match build U8 1 1000 1 false [(5, 250)] with
  | Some h => reachable h /\ is_u64 5 /\ is_count (h_ctr h) 10 /\ is_u64 2 /\ covers h 5 /\ count_at h 5 = Ret 250 /\
      match record_n h 5 10 with Ret (h', ROk _) => count_at h' 5 = Ret 255 | _ => False end /\
      match record_n_correct h 7 10 2 with Ret (h', ROk _) => count_at h' 5 = Ret 255 | _ => False end
  | None => False end.
Proof. case_of. Qed.

Theorem C13_monotone_add : forall h s h' r w c c', reachable h -> reachable s -> h_ctr h = h_ctr s ->
  add h s = Ret (h', r) -> is_u64 w -> covers h w -> count_at h w = Ret c -> count_at h' w = Ret c' -> c <= c'.
Proof. exact C13_monotone_add_proof. Qed.
Print Assumptions C13_monotone_add.

Example ex_C13_monotone_add : match build U8 1 1000 1 false [(5, 250); (6, 1)] with Some h =>
  match build U8 1 1000 1 false [(5, 20); (900, 1)] with Some s =>
  match add h s with
  | Ret (h', ROk _) => reachable h /\ reachable s /\ h_ctr h = h_ctr s /\ is_u64 5 /\ covers h 5 /\ count_at h 5 = Ret 250 /\ count_at h' 5 = Ret 255 /\
      covers h 6 /\ count_at h 6 = Ret 1 /\ count_at h' 6 = Ret 1
  | _ => False end | None => False end | None => False end.
Proof. case_of. Qed.

Example ex_C13 : match build U8 1 1000 1 false [(5, 250)] with
  | Some h => reachable h /\ match record_n h 5 10 with
      | Ret (h', ROk _) => count_at h 5 = Ret 250 /\ count_at h' 5 = Ret 255
      | _ => False end
  | None => False end.
Proof. case_of. Qed.
