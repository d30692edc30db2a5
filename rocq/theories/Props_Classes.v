(** Property theorems; the proofs are in [PfClasses].  Generated by tools/gen_theorems.py. *)
From Verif Require Import Machine Log2Model HistModel Spec Reach Witness Cases PfClasses.

(** ** C01.  The class of [v] is the interval [lo .. lo + range - 1]: a whole number of units wide,
    aligned to its power-of-two width.  [highest_equivalent] is its top, except in the class that
    ends at [u64::MAX], where it is one less (unless asked for [u64::MAX] itself). *)
Theorem C01_class_is_interval : forall h v, reachable h -> is_u64 v ->
  exists lo range,
    lowest_equivalent h v = Ret lo /\ equivalent_range h v = Ret range /\
    0 <= lo <= v /\ v < lo + range <= u64_max + 1 /\
    (exists k, 0 <= k /\ range = 2 ^ k) /\ lo mod range = 0 /\
    (forall w, is_u64 w -> equivalent h v w = Ret ((lo <=? w) && (w <? lo + range))) /\
    next_non_equivalent h v = Ret (Z.min u64_max (lo + range)) /\
    median_equivalent h v = Ret (lo + range / 2) /\ lo <= lo + range / 2 < lo + range /\
    highest_equivalent h v =
      Ret (if (lo + range =? u64_max + 1) && negb (v =? u64_max) then u64_max - 1 else lo + range - 1).
Proof. exact C01_class_is_interval_proof. Qed.
Print Assumptions C01_class_is_interval.

Example ex_C01 : match build U64 3 1000000 2 false [(5, 1); (70000, 2)] with
  | Some h => reachable h /\ lowest_equivalent h 70000 = Ret 69632 /\ highest_equivalent h 70000 = Ret 70143 /\
  equivalent h 70000 70143 = Ret true /\ equivalent h 70000 70144 = Ret false
  | None => False end.
Proof. case_of. Qed.

(** C01, the exception: [highest_equivalent] of a value in the topmost class is not the largest
    equivalent value. *)
Theorem C01_highest_equivalent_top_refuted : exists h v w top,
  reachable h /\ is_u64 v /\ is_u64 w /\ equivalent h v w = Ret true /\
  highest_equivalent h v = Ret top /\ top < w.
Proof. exact C01_highest_equivalent_top_refuted_proof. Qed.
Print Assumptions C01_highest_equivalent_top_refuted.

(** ** C02.  Two values the histogram cannot tell apart differ by less than the width of the class of
    0 (the unit), or by less than [v / 10^sigfig]. *)
Theorem C02_resolution : forall h v w unit, reachable h -> is_u64 v -> is_u64 w ->
  equivalent h v w = Ret true -> equivalent_range h 0 = Ret unit ->
  Z.abs (v - w) < unit \/ Z.abs (v - w) * 10 ^ sigfig h < v.
Proof. exact C02_resolution_proof. Qed.
Print Assumptions C02_resolution.

Example ex_C02 : match build U64 1 100000 2 false [(20000, 1)] with
  | Some h => reachable h /\ equivalent h 20000 20063 = Ret true /\ equivalent_range h 0 = Ret 1
  | None => False end.
Proof. case_of. Qed.

(** ** C03.  Every value has a bin; bins are ordered like values; two values share a bin exactly when
    they are equivalent; every bin of the histogram is the bin of its own value; nothing overflows. *)
Theorem C03_binning : forall h v w, reachable h -> is_u64 v -> is_u64 w ->
  exists i j, index_for h v = Ret (Some i) /\ index_for h w = Ret (Some j) /\ 0 <= i /\ 0 <= j /\
    (v <= w -> i <= j) /\ equivalent h v w = Ret (i =? j) /\
    (v <= high h -> i < distinct_values h).
Proof. exact C03_binning_proof. Qed.
Print Assumptions C03_binning.

Example ex_C03_binning : match build U8 1000 123456789 3 true [(2000000000, 3)] with
  | Some h => reachable h /\ is_u64 777777777 /\ is_u64 778000000 /\ index_for h 777777777 = Ret (Some 11723) /\ index_for h 778000000 = Ret (Some 11723) /\
      equivalent h 777777777 778000000 = Ret true /\ index_for h u64_max = Ret (Some 47103) /\ high h < u64_max
  | None => False end.
Proof. case_of. Qed.

Theorem C03_bins_onto : forall h i, reachable h -> 0 <= i < distinct_values h ->
  exists v, value_for h i = Ret v /\ is_u64 v /\ index_for h v = Ret (Some i) /\ lowest_equivalent h v = Ret v.
Proof. exact C03_bins_onto_proof. Qed.
Print Assumptions C03_bins_onto.

Example ex_C03 : match build U8 1000 123456789 3 true [(2000000000, 3)] with
  | Some h => reachable h /\ index_for h 0 = Ret (Some 0) /\ index_for h 777777777 = Ret (Some 11723) /\ distinct_values h = 13312
  | None => False end.
Proof. case_of. Qed.

(** ** C04.  Which parameters are accepted, and the errors otherwise. *)
Theorem C04_construction : forall T lo hi sf, is_u64 lo -> is_u64 hi -> is_u8 sf ->
  exists r, new_with_bounds T lo hi sf = Ret r /\
    ((exists h, r = ROk h) <-> (1 <= lo <= u64_max / 2 /\ 2 * lo <= hi /\ sf <= 5 /\ precision_fits lo sf)) /\
    (r = RErr LowIsZero <-> lo = 0) /\
    (r = RErr LowExceedsMax <-> u64_max / 2 < lo) /\
    (r = RErr HighLessThanTwiceLow <-> 1 <= lo <= u64_max / 2 /\ hi < 2 * lo) /\
    (r = RErr SigFigExceedsMax <-> 1 <= lo <= u64_max / 2 /\ 2 * lo <= hi /\ 5 < sf) /\
    (r = RErr CannotRepresentSigFigBeyondLow <->
       1 <= lo <= u64_max / 2 /\ 2 * lo <= hi /\ sf <= 5 /\ ~ precision_fits lo sf) /\
    r <> RErr CreateUsizeTypeTooSmall.
Proof. exact C04_construction_proof. Qed.
Print Assumptions C04_construction.

Example ex_C04_construction : is_u64 1000 /\ is_u64 3600000 /\ is_u8 3 /\
  match new_with_bounds U16 1000 3600000 3 with Ret (ROk h) => high h = 3600000 | _ => False end /\
  new_with_bounds U16 0 0 9 = Ret (RErr LowIsZero) /\ new_with_bounds U16 (2 ^ 63) 0 9 = Ret (RErr LowExceedsMax) /\
  new_with_bounds U16 1000 1999 9 = Ret (RErr HighLessThanTwiceLow) /\ new_with_bounds U16 1000 2000 6 = Ret (RErr SigFigExceedsMax) /\
  new_with_bounds U16 (2 ^ 60) (2 ^ 61) 3 = Ret (RErr CannotRepresentSigFigBeyondLow).
Proof. case_of. split; discriminate. Qed.

(** a new histogram is empty, keeps its parameters and covers everything up to [high] *)
Theorem C04_new_is_empty : forall T lo hi sf h, is_u64 lo -> is_u64 hi -> is_u8 sf ->
  new_with_bounds T lo hi sf = Ret (ROk h) ->
  low h = lo /\ high h = hi /\ sigfig h = sf /\ h_ctr h = T /\ is_auto_resize h = false /\
  len h = 0 /\ is_empty h = true /\ max h = Ret 0 /\ min h = Ret 0 /\ min_nz h = Ret u64_max /\
  (forall v, is_u64 v -> count_at h v = Ret 0) /\
  (forall v, is_u64 v -> v <= hi -> covers h v).
Proof. exact C04_new_is_empty_proof. Qed.
Print Assumptions C04_new_is_empty.

Example ex_C04_new_is_empty : match new_with_bounds U16 1000 3600000 3 with
  | Ret (ROk h) => reachable h /\ is_u64 1000 /\ is_u64 3600000 /\ is_u8 3 /\ is_u64 3600000 /\ covers h 3600000 /\ count_at h 3600000 = Ret 0 /\
      min_nz h = Ret u64_max /\ max h = Ret 0
  | _ => False end.
Proof. case_of. split; discriminate. Qed.

(** [new]: auto-resizing, range 1 .. 2 *)
Theorem C04_new : forall T sf, is_u8 sf ->
  (sf <= 5 /\ exists h, new T sf = Ret (ROk h) /\ is_auto_resize h = true /\ len h = 0 /\ low h = 1 /\ high h = 2 /\ sigfig h = sf) \/
  (5 < sf /\ new T sf = Ret (RErr SigFigExceedsMax)).
Proof. exact C04_new_proof. Qed.
Print Assumptions C04_new.

Example ex_C04 : match new_with_bounds U16 1000 3600000 3 with
  | Ret (ROk h) => low h = 1000 /\ high h = 3600000 /\ count_at h 500000 = Ret 0
  | _ => False end 
  /\ new_with_bounds U16 1000 1999 3 = Ret (RErr HighLessThanTwiceLow) /\
  new_with_bounds U16 (2 ^ 62) u64_max 3 = Ret (RErr CannotRepresentSigFigBeyondLow).
Proof. vm_compute. auto. Qed.

(** ** C05.  For [low < 2^48] the unit is [low] rounded down to a power of two and [low] is told apart
    from 0.  Missing from the full statement ("every accepted low"): see the refutation below. *)
Theorem C05_low_discernible_partial : forall h, reachable h -> low h < 2 ^ 48 ->
  equivalent_range h 0 = Ret (2 ^ Z.log2 (low h)) /\ equivalent h (low h) 0 = Ret false.
Proof. exact C05_low_discernible_partial_proof. Qed.
Print Assumptions C05_low_discernible_partial.

Example ex_C05_partial : match build U64 (2 ^ 48 - 1) (2 ^ 60) 1 false [] with
  | Some h => reachable h /\ low h < 2 ^ 48 /\ equivalent_range h 0 = Ret (2 ^ 47) /\ equivalent h (2 ^ 48 - 1) 0 = Ret false
  | None => False end.
Proof. case_of. Qed.

(** the granularity never differs from [low] rounded down by more than one binary order *)
Theorem C05_unit_bounds : forall h, reachable h ->
  equivalent_range h 0 = Ret (2 ^ Z.log2 (low h)) \/ equivalent_range h 0 = Ret (2 ^ (Z.log2 (low h) + 1)).
Proof. exact C05_unit_bounds_proof. Qed.
Print Assumptions C05_unit_bounds.

Example ex_C05_unit_bounds : match build U64 (2 ^ 49 - 1) (2 ^ 60) 1 false [] with Some h =>
  match build U64 1000 1000000 3 false [] with Some k =>
    reachable h /\ low h = 2 ^ 49 - 1 /\ equivalent_range h 0 = Ret (2 ^ (48 + 1)) /\ reachable k /\ low k = 1000 /\ equivalent_range k 0 = Ret (2 ^ 9)
  | None => False end | None => False end.
Proof. case_of. Qed.

(** rounding UP happens: [low = 2^49 - 1] gets the unit [2^49] and is indistinguishable from 0 *)
Theorem C05_low_discernible_refuted : exists h,
  reachable h /\ low h = 2 ^ 49 - 1 /\ equivalent h (low h) 0 = Ret true /\ equivalent_range h 0 = Ret (2 ^ 49).
Proof. exact C05_low_discernible_refuted_proof. Qed.
Print Assumptions C05_low_discernible_refuted.

Example ex_C05 : match build U64 1000 1000000 3 false [] with
  | Some h => reachable h /\ low h < 2 ^ 48 /\ equivalent_range h 0 = Ret 512 /\ equivalent h 1000 0 = Ret false
  | None => False end.
Proof. case_of. Qed.
