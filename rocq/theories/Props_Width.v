(** Property theorems; the proofs are in [PfWidth].  Generated by tools/gen_theorems.py. *)
From Verif Require Import Machine HistModel Spec Reach Witness Cases CasesSer FloatModel IterModel SerModel SerSpec WidthModel WidthSpec PfWidth.
From Coq Require Import Lia.

Ltac width_leaf :=
  lazymatch goal with
  | |- addressable _ _ => vm_compute; discriminate
  | |- too_many_bins _ _ => vm_compute; discriminate
  | |- ~ _ => let X := fresh in vm_compute; intros X; apply X; reflexivity
  | |- declares _ _ _ => left; eexists; reflexivity
  | |- _ => ser_leaf
  end.
Ltac width_case :=
  repeat first [case_match | lazymatch goal with |- (let x := _ in _) => cbv zeta end | lazymatch goal with |- _ /\ _ => split end]; width_leaf.


(** ** C80.  With a [usize] of any width, a constructor rejects the same parameters for the same reasons as
    with 64 bits.  It returns the same histogram if the array of counts can be allocated.  It returns
    [UsizeTypeTooSmall] if the number of bins does not fit a [usize], and panics in between *)
Theorem C80_create : forall w T lo hi sf, 1 <= w -> is_u64 lo -> is_u64 hi -> is_u8 sf ->
  (forall e, new_with_bounds T lo hi sf = Ret (RErr e) -> new_with_bounds_w w T lo hi sf = Ret (RErr e)) /\
  (forall h, new_with_bounds T lo hi sf = Ret (ROk h) ->
     (addressable w h -> new_with_bounds_w w T lo hi sf = Ret (ROk h)) /\
     (too_many_bins w h -> new_with_bounds_w w T lo hi sf = Ret (RErr CreateUsizeTypeTooSmall)) /\
     (~ addressable w h -> ~ too_many_bins w h -> new_with_bounds_w w T lo hi sf = Panic)).
Proof. exact C80_create_proof. Qed.
Print Assumptions C80_create.

(** 1792 bins of 8 bytes with 16 bits; 7424 bins with 8 bits; 7424 bins of 8 bytes with 16 bits *)
Example ex_C80_create :
  (match new_with_bounds U64 1 1000000 2 with
   | Ret (ROk h) => size_of U64 * distinct_values h = 14336 /\ addressable 16 h /\
       match new_with_bounds_w 16 U64 1 1000000 2 with Ret (ROk k) => distinct_values k = 1792 | _ => False end
   | _ => False end) /\
  (match new_with_bounds U8 1 u64_max 2 with
   | Ret (ROk h) => distinct_values h = 7424 /\ too_many_bins 8 h
   | _ => False end) /\
  new_with_bounds_w 8 U8 1 u64_max 2 = Ret (RErr CreateUsizeTypeTooSmall) /\
  (match new_with_bounds U64 1 u64_max 2 with
   | Ret (ROk h) => ~ addressable 16 h /\ ~ too_many_bins 16 h
   | _ => False end) /\
  new_with_bounds_w 16 U64 1 u64_max 2 = Panic.
Proof. width_case. Qed.

(** ... and so do [new] and [new_with_max] *)
Theorem C80_create_default : forall w T hi sf, 1 <= w -> is_u64 hi -> is_u8 sf ->
  new_with_max_w w T hi sf = new_with_bounds_w w T 1 hi sf /\
  (forall e, new T sf = Ret (RErr e) -> new_w w T sf = Ret (RErr e)) /\
  (forall h, new T sf = Ret (ROk h) ->
     (addressable w h -> new_w w T sf = Ret (ROk h)) /\
     (too_many_bins w h -> new_w w T sf = Ret (RErr CreateUsizeTypeTooSmall)) /\
     (~ addressable w h -> ~ too_many_bins w h -> new_w w T sf = Panic)).
Proof. exact C80_create_default_proof. Qed.
Print Assumptions C80_create_default.

Example ex_C80_create_default :
  match new U64 2, new_w 16 U64 2 with
  | Ret (ROk h), Ret (ROk k) => addressable 16 h /\ h = k /\ distinct_values k = 256
  | _, _ => False end.
Proof. width_case. Qed.

(** recording with a [usize] of any width, into a histogram that could be allocated: the result is that of
    64 bits, if it can be allocated.  Otherwise it is [ResizeFailedUsizeTypeTooSmall] and the histogram is
    as before, or a panic *)
Theorem C80_record : forall w h v n, 1 <= w -> reachable h -> is_u64 v -> is_count (h_ctr h) n -> addressable w h ->
  forall h' r, record_n h v n = Ret (h', r) ->
    (addressable w h' -> record_n_w w h v n = Ret (h', r)) /\
    (too_many_bins w h' -> record_n_w w h v n = Ret (h, RErr RecordResizeFailedUsizeTypeTooSmall)) /\
    (~ addressable w h' -> ~ too_many_bins w h' -> record_n_w w h v n = Panic).
Proof. exact C80_record_proof. Qed.
Print Assumptions C80_record.

(** a histogram of bytes without significant digits, of 3 bins, needs 11 for the value 1000: with 8 bits it
    takes it, with 3 bits (a [usize] is at most 7) it returns the error, with 4 bits (an array has at most
    7 bytes) it panics *)
Example ex_C80_record :
  match build U8 1 2 0 true [(1, 1)] with
  | Some h => reachable h /\ addressable 8 h /\ addressable 3 h /\ distinct_values h = 3 /\
      record_n_w 3 h 1000 1 = Ret (h, RErr RecordResizeFailedUsizeTypeTooSmall) /\ record_n_w 4 h 1000 1 = Panic /\
      match record_n h 1000 1, record_n_w 8 h 1000 1 with
      | Ret (h1, ROk _), Ret (h2, ROk _) => h1 = h2 /\ addressable 8 h1 /\ too_many_bins 3 h1 /\
          ~ addressable 4 h1 /\ ~ too_many_bins 4 h1
      | _, _ => False end
  | None => False end.
Proof. width_case. Qed.

(** every query gives the answer of 64 bits, whatever the width, if the array of counts could be allocated *)
Theorem C80_query : forall w h, 1 <= w -> reachable h -> addressable w h ->
  (forall v, count_at_w w h v = count_at h v) /\
  (forall a b, count_between_w w h a b = count_between h a b) /\
  (forall q, value_at_quantile_w w h q = value_at_quantile h q) /\
  (forall p, value_at_percentile_w w h p = value_at_percentile h p) /\
  (forall v, quantile_below_w w h v = quantile_below h v) /\
  (forall v, percentile_below_w w h v = percentile_below h v) /\
  mean_w w h = mean h /\ stdev_w w h = stdev h.
Proof. exact C80_query_proof. Qed.
Print Assumptions C80_query.

Example ex_C80_query :
  match build U8 1 255 1 false [(3, 2); (200, 5)] with
  | Some h => reachable h /\ addressable 16 h /\ count_at_w 16 h 200 = Ret 5 /\ count_between_w 16 h 0 100 = Ret 2 /\
      value_at_quantile_w 16 h (f64_of_u64 1) = Ret 207 
  | None => False end.
Proof. width_case. Qed.

(** ... and so does every iterator: the same items, or the same panic, after any number of calls of [next] *)
Theorem C80_iterate : forall w h k, 1 <= w -> reachable h -> addressable w h ->
  (it <- iter_recorded_w w h ;; iter_collect_w w k pk_recorded h it) = (it <- iter_recorded h ;; iter_collect k pk_recorded h it) /\
  (it <- iter_all_w w h ;; iter_collect_w w k pk_all h it) = (it <- iter_all h ;; iter_collect k pk_all h it) /\
  (forall lg ticks, (it <- iter_quantiles_w w h ticks ;; iter_collect_w w k (pk_quantile lg) h it) =
     (it <- iter_quantiles h ticks ;; iter_collect k (pk_quantile lg) h it)) /\
  (forall step, (it <- iter_linear_w w h step ;; iter_collect_w w k (pk_linear_w w) h it) =
     (it <- iter_linear h step ;; iter_collect k pk_linear h it)) /\
  (forall start base, (it <- iter_log_w w h start base ;; iter_collect_w w k (pk_log_w w) h it) =
     (it <- iter_log h start base ;; iter_collect k pk_log h it)).
Proof. exact C80_iterate_proof. Qed.
Print Assumptions C80_iterate.

Example ex_C80_iterate :
  match build U8 1 255 1 false [(3, 2); (200, 5)] with
  | Some h => reachable h /\ addressable 16 h /\
      match (it <- iter_linear_w 16 h 100 ;; iter_collect_w 16 10 (pk_linear_w 16) h it) with
      | Ret [a; b; c] => iv_since a = 2 /\ iv_since b = 0 /\ iv_since c = 5 
      | _ => False end
  | None => False end.
Proof.
  eapply case_build; [vm_compute; reflexivity|intro]. split; [width_leaf|split; [width_leaf|]].
  vm_compute. auto.
Qed.

(** [add] and [set_to] with a [usize] of any width: the result is that of 64 bits, if it can be allocated.
    Otherwise it is [ResizeFailedUsizeTypeTooSmall] and nothing has been added, or a panic *)
Theorem C80_add : forall w h s, 1 <= w -> reachable h -> reachable s -> h_ctr h = h_ctr s -> addressable w h -> addressable w s ->
  (forall h' r, add h s = Ret (h', r) ->
    (addressable w h' -> add_w w h s = Ret (h', r)) /\
    (too_many_bins w h' -> add_w w h s = Ret (h, RErr AddResizeFailedUsizeTypeTooSmall)) /\
    (~ addressable w h' -> ~ too_many_bins w h' -> add_w w h s = Panic)) /\
  (forall h' r, set_to h s = Ret (h', r) ->
    (addressable w h' -> set_to_w w h s = Ret (h', r)) /\
    (too_many_bins w h' -> set_to_w w h s = Ret (reset h, RErr AddResizeFailedUsizeTypeTooSmall)) /\
    (~ addressable w h' -> ~ too_many_bins w h' -> set_to_w w h s = Panic)).
Proof. exact C80_add_proof. Qed.
Print Assumptions C80_add.

(** with 8 bits, 3 bins of one byte become 5 to take the value 10 *)
Example ex_C80_add :
  match build U8 1 2 0 true [(1, 1)], build U8 1 2 0 false [(2, 4)], build U8 1 10 0 false [(10, 3)] with
  | Some h, Some s, Some t => reachable h /\ reachable s /\ reachable t /\ h_ctr h = h_ctr t /\ addressable 8 h /\ addressable 8 t /\
      addressable 3 h /\ addressable 3 s /\ add_w 3 h s = add h s /\
      match add h t, add_w 8 h t with
      | Ret (h1, ROk _), Ret (h2, ROk _) => h1 = h2 /\ held h1 = [(1, 1); (8, 3)] /\ distinct_values h1 = 5 /\ addressable 8 h1 /\ ~ addressable 3 h1
      | _, _ => False end
  | _, _, _ => False end.
Proof. width_case. Qed.

(** with 3 bits an array has at most 3 bytes and a [usize] is at most 7: to take the value 16, 6 bins are
    needed, to take 255, 9 *)
Example ex_C80_add_fails :
  match build U8 1 2 0 true [(1, 1)], build U8 8 16 0 false [(16, 3)] with
  | Some h, Some s => reachable h /\ reachable s /\ h_ctr h = h_ctr s /\ distinct_values h = 3 /\ distinct_values s = 3 /\
      addressable 3 h /\ addressable 3 s /\
      (match add h s with Ret (h1, ROk _) => ~ addressable 3 h1 /\ ~ too_many_bins 3 h1 | _ => False end) /\
      add_w 3 h s = Panic /\ set_to_w 3 h s = Panic
  | _, _ => False end /\
  match build U8 1 2 0 true [(1, 1)], build U8 64 128 0 false [(255, 3)] with
  | Some h, Some s => reachable h /\ reachable s /\ h_ctr h = h_ctr s /\ addressable 3 h /\ addressable 3 s /\
      (match add h s with Ret (h1, ROk _) => too_many_bins 3 h1 | _ => False end) /\
      add_w 3 h s = Ret (h, RErr AddResizeFailedUsizeTypeTooSmall) /\
      set_to_w 3 h s = Ret (reset h, RErr AddResizeFailedUsizeTypeTooSmall)
  | _, _ => False end.
Proof. width_case. Qed.

(** operations that never resize do what they do with 64 bits, whatever the width: [subtract] and recording
    with clamping *)
Theorem C80_fixed : forall w h, 1 <= w -> reachable h -> addressable w h ->
  (forall v n, saturating_record_n_w w h v n = saturating_record_n h v n /\ saturating_record_w w h v = saturating_record h v) /\
  (forall s, reachable s -> addressable w s -> subtract_w w h s = subtract h s).
Proof. exact C80_fixed_proof. Qed.
Print Assumptions C80_fixed.

Example ex_C80_fixed :
  match build U8 1 255 1 false [(3, 2); (200, 5)], build U8 1 255 1 false [(200, 4)] with
  | Some h, Some s => reachable h /\ reachable s /\ addressable 8 h /\ addressable 8 s /\
      match subtract_w 8 h s, saturating_record_n_w 8 h 100000 7 with
      | Ret (h1, ROk _), Ret h2 => held h1 = [(3, 2); (200, 1)] /\ held h2 = [(3, 2); (200, 5); (248, 7)]
      | _, _ => False end
  | _, _ => False end.
Proof. width_case. Qed.

(** correction while recording: the outcome is that of 64 bits, if the result can be allocated.  Otherwise
    it is [ResizeFailedUsizeTypeTooSmall] and nothing has been recorded, or a panic *)
Theorem C80_correct : forall w h v n i, 1 <= w -> reachable h -> is_u64 v -> is_count (h_ctr h) n -> is_u64 i -> addressable w h ->
  forall h' r, record_n_correct h v n i = Ret (h', r) ->
    (addressable w h' -> record_n_correct_w w h v n i = Ret (h', r)) /\
    (too_many_bins w h' -> record_n_correct_w w h v n i = Ret (h, RErr RecordResizeFailedUsizeTypeTooSmall)) /\
    (~ addressable w h' -> ~ too_many_bins w h' -> record_n_correct_w w h v n i = Panic).
Proof. exact C80_correct_proof. Qed.
Print Assumptions C80_correct.

Example ex_C80_correct :
  match build U8 1 2 0 true [(1, 1)] with
  | Some h => reachable h /\ addressable 8 h /\ addressable 3 h /\
      record_n_correct_w 3 h 1000 1 400 = Ret (h, RErr RecordResizeFailedUsizeTypeTooSmall) /\ record_n_correct_w 4 h 1000 1 400 = Panic /\
      match record_n_correct h 1000 1 400, record_n_correct_w 8 h 1000 1 400 with
      | Ret (h1, ROk _), Ret (h2, ROk _) => h1 = h2 /\ held h1 = [(1, 1); (512, 2)] /\ addressable 8 h1 /\ too_many_bins 3 h1 /\
          ~ addressable 4 h1 /\ ~ too_many_bins 4 h1
      | _, _ => False end
  | None => False end.
Proof. width_case. Qed.

(** copying the parameters gives what it gives with 64 bits, or panics if the copy cannot be allocated;
    correction after recording gives what it gives with 64 bits, if the result can be allocated *)
Theorem C80_copy_correct : forall w h s i, 1 <= w -> reachable h -> reachable s -> h_ctr h = h_ctr s -> is_u64 i ->
  addressable w h -> addressable w s ->
  (forall T h', new_from T h = Ret h' -> (addressable w h' -> new_from_w w T h = Ret h') /\ (~ addressable w h' -> new_from_w w T h = Panic)) /\
  (forall h' r, add_correct h s i = Ret (h', r) -> addressable w h' -> add_correct_w w h s i = Ret (h', r)) /\
  (forall h' r, set_to_corrected h s i = Ret (h', r) -> addressable w h' -> set_to_corrected_w w h s i = Ret (h', r)) /\
  (forall h', clone_correct h i = Ret h' -> addressable w h' -> clone_correct_w w h i = Ret h').
Proof. exact C80_copy_correct_proof. Qed.
Print Assumptions C80_copy_correct.

Example ex_C80_copy_correct :
  match build U8 1 2 1 true [(1, 1)], build U8 1 255 1 false [(3, 2); (200, 5)] with
  | Some h, Some s => reachable h /\ reachable s /\ h_ctr h = h_ctr s /\ is_u64 100 /\ addressable 8 h /\ addressable 8 s
  | _, _ => False end.
Proof. width_case. Qed.

Example ex_C80_copy_correct_result :
  match build U8 1 2 1 true [(1, 1)], build U8 1 255 1 false [(3, 2); (200, 5)] with
  | Some h, Some s =>
      match add_correct_w 8 h s 100, new_from_w 8 U8 s with
      | Ret (h1, ROk _), Ret h2 => held h1 = [(1, 1); (3, 2); (104, 5); (200, 5)] /\ distinct_values h1 = 80 /\ distinct_values h2 = 80
      | _, _ => False end /\ new_from_w 8 U64 s = Panic
  | _, _ => False end.
Proof. vm_compute. auto. Qed.

(** a target with 32 bits or more: the arrays of counts always fit, and every operation does what it does
    with 64 bits *)
Theorem C80_wide : forall w, 32 <= w ->
  (forall T lo hi sf, is_u64 lo -> is_u64 hi -> is_u8 sf -> new_with_bounds_w w T lo hi sf = new_with_bounds T lo hi sf) /\
  (forall T sf, is_u8 sf -> new_w w T sf = new T sf) /\
  (forall h, reachable h -> addressable w h) /\
  (forall T h, reachable h -> new_from_w w T h = new_from T h) /\
  (forall h v n, reachable h -> record_n_w w h v n = record_n h v n /\ saturating_record_n_w w h v n = saturating_record_n h v n) /\
  (forall h v n i, reachable h -> record_n_correct_w w h v n i = record_n_correct h v n i) /\
  (forall h s, reachable h -> reachable s ->
     add_w w h s = add h s /\ subtract_w w h s = subtract h s /\ set_to_w w h s = set_to h s) /\
  (forall h s i, reachable h -> reachable s ->
     add_correct_w w h s i = add_correct h s i /\ set_to_corrected_w w h s i = set_to_corrected h s i) /\
  (forall h i, reachable h -> clone_correct_w w h i = clone_correct h i).
Proof. exact C80_wide_proof. Qed.
Print Assumptions C80_wide.

Example ex_C80_wide :
  match build U8 1 2 1 true [(3, 2); (70000, 5)] with
  | Some h => reachable h /\ addressable 32 h /\
      match record_n_w 32 h 1000000 3, add_w 32 h h with
      | Ret (a, ROk _), Ret (b, ROk _) => held a = [(3, 2); (69632, 5); (983040, 3)] /\ held b = [(3, 4); (69632, 10)]
      | _, _ => False end
  | None => False end.
Proof. width_case. Qed.

(** so a constructor whose array cannot be allocated need not return [UsizeTypeTooSmall]: here it panics *)
Theorem C80_panic_refuted : exists T lo hi sf h, is_u64 lo /\ is_u64 hi /\ is_u8 sf /\
  new_with_bounds T lo hi sf = Ret (ROk h) /\ new_with_bounds_w 16 T lo hi sf = Panic.
Proof. exact C80_panic_refuted_proof. Qed.
Print Assumptions C80_panic_refuted.

(** ** C81.  Serializing a histogram takes a buffer of a certain size, at most nine bytes for every bin and 40
    for the header.  With a [usize] of any width, it gives the bytes of 64 bits if that can be allocated,
    [UsizeTypeTooSmall] if it does not fit a [usize], and panics in between *)
Theorem C81_serialize : forall h, reachable h -> exists size, 49 <= size <= 9 * distinct_values h + 40 /\
  forall w junk, 1 <= w -> addressable w h ->
    (size <= 2 ^ (w - 1) - 1 -> v2_serialize_w w junk h = v2_serialize junk h) /\
    (2 ^ (w - 1) <= size < 2 ^ w -> v2_serialize_w w junk h = Panic) /\
    (2 ^ w <= size -> v2_serialize_w w junk h = Ret (RErr SerUsizeTypeTooSmall)).
Proof. exact C81_serialize_proof. Qed.
Print Assumptions C81_serialize.

(** 80 bins of one byte with 16 bits; 976 of them with 13 and 14 bits *)
Example ex_C81_serialize :
  (match build U8 1 255 1 false [(3, 2); (200, 5)] with
   | Some h => reachable h /\ addressable 16 h /\ 9 * distinct_values h + 40 <= 2 ^ 15 - 1 /\
       match v2_serialize_w 16 (fun _ => 7) h with Ret (ROk bs) => zlen bs = 45 | _ => False end
   | None => False end) /\
  (match build U8 1 u64_max 1 false [(u64_max, 1)] with
   | Some h => reachable h /\ addressable 13 h /\ 9 * distinct_values h + 40 = 8824 /\ v2_serialize_w 13 (fun _ => 7) h = Ret (RErr SerUsizeTypeTooSmall) /\
       v2_serialize_w 14 (fun _ => 7) h = Panic
   | None => False end).
Proof. width_case. Qed.

(** with 32 bits or more it always gives the bytes, also in the compressed format *)
Theorem C81_serialize_wide : forall w junk cd h, 32 <= w -> reachable h ->
  v2_serialize_w w junk h = v2_serialize junk h /\ v2_deflate_serialize_w w cd junk h = v2_deflate_serialize cd junk h.
Proof. exact C81_serialize_wide_proof. Qed.
Print Assumptions C81_serialize_wide.

Example ex_C81_serialize_wide :
  match build U8 1 255 1 false [(3, 2); (200, 5)] with
  | Some h => reachable h /\
      match v2_serialize_w 32 (fun _ => 7) h with Ret (ROk bs) => zlen bs = 45 | _ => False end
  | None => False end.
Proof. width_case. Qed.

(** and what was written is read back there, as the histogram that 64 bits would give: also when it was
    written on a target with another width *)
Theorem C81_round_trip : forall w w' checks cd buf junk h bs rest, 32 <= w <= 64 -> 32 <= w' -> reachable h ->
  v2_serialize_w w' junk h = Ret (ROk bs) ->
  deserialize_w w checks cd buf (h_ctr h) (bs ++ rest) = deserialize checks cd buf (h_ctr h) (bs ++ rest) /\
  (exists h', deserialize_w w checks cd buf (h_ctr h) (bs ++ rest) = Ret (ROk (h', rest)) /\ held h' = held h) /\
  (lossless cd -> zlen (deflate cd bs) + 8 <= u32_max -> exists zs, v2_deflate_serialize_w w' cd junk h = Ret (ROk zs) /\
     deserialize_w w checks cd buf (h_ctr h) (zs ++ rest) = deserialize checks cd buf (h_ctr h) (zs ++ rest)).
Proof. exact C81_round_trip_proof. Qed.
Print Assumptions C81_round_trip.

Example ex_C81_round_trip :
  match build U8 1 255 1 false [(3, 2); (200, 5)] with
  | Some h => reachable h /\
      match v2_serialize_w 32 (fun _ => 7) h with
      | Ret (ROk bs) => match deserialize_w 32 true plain [] U8 (bs ++ [1; 2]) with
          | Ret (ROk (h', rest)) => held h' = [(3, 2); (200, 5)] /\ rest = [1; 2]
          | _ => False end
      | _ => False end
  | None => False end.
Proof. width_case. Qed.

(** reading arbitrary bytes with 32 to 64 bits: the outcome is that of 64 bits, or [UsizeTypeTooSmall], or a
    panic, the last only if the header claims a payload that cannot be allocated *)
Theorem C81_deserialize : forall w checks cd buf T rd, 32 <= w <= 64 -> codec_ok cd -> bytes rd ->
  deserialize_w w checks cd buf T rd = deserialize checks cd buf T rd \/
  deserialize_w w checks cd buf T rd = Ret (RErr DeUsizeTypeTooSmall) \/
  (deserialize_w w checks cd buf T rd = Panic /\ exists n, 2 ^ (w - 1) <= n /\ zlen buf < n /\ declares cd rd n).
Proof. exact C81_deserialize_proof. Qed.
Print Assumptions C81_deserialize.

(** the three cases, at 32 bits: an image; one with a run of 2^32 zeros; one that claims 2^31 bytes *)
Example ex_C81_deserialize :
  let rd1 := v2_format 1 255 1 [5; -3; 2] in
  let rd2 := v2_format 1 255 1 [- 2 ^ 32; 0] in
  let rd3 := big_endian 4 0x1c849313 ++ big_endian 4 (2 ^ 31) ++ big_endian 4 0 ++ big_endian 4 1 ++
    big_endian 8 1 ++ big_endian 8 255 ++ big_endian 8 0x3ff0000000000000 in
  codec_ok plain /\ bytes rd1 /\ bytes rd2 /\ bytes rd3 /\
  deserialize_w 32 true plain [] U8 rd1 = deserialize true plain [] U8 rd1 /\
  deserialize_w 32 true plain [] U8 rd2 = Ret (RErr DeUsizeTypeTooSmall) /\
  deserialize_w 32 true plain [] U8 rd3 = Panic /\ declares plain rd3 (2 ^ 31).
Proof. width_case. Qed.

(** all three happen.  There are 46 bytes that are read on a 64-bit target and rejected on a 32-bit one *)
Theorem C81_run_refuted : exists rd h, bytes rd /\ zlen rd = 46 /\ forall cd,
  deserialize true cd [] U8 rd = Ret (ROk (h, [])) /\ deserialize_w 32 true cd [] U8 rd = Ret (RErr DeUsizeTypeTooSmall).
Proof. exact C81_run_refuted_proof. Qed.
Print Assumptions C81_run_refuted.

(** ... and every header of a valid histogram that claims at least 2^31 bytes, whatever follows it, makes a
    32-bit target panic, unless an earlier read with the same object had grown the buffer that far *)
Theorem C81_claimed_length : forall checks cd buf T lo hi sf h0 n rest, is_u64 lo -> is_u64 hi -> is_u8 sf ->
  new_with_bounds T lo hi sf = Ret (ROk h0) -> 2 ^ 31 <= n < 2 ^ 32 -> zlen buf < n ->
  deserialize_w 32 checks cd buf T
    (big_endian 4 0x1c849313 ++ big_endian 4 n ++ big_endian 4 0 ++ big_endian 4 sf ++
     big_endian 8 lo ++ big_endian 8 hi ++ big_endian 8 0x3ff0000000000000 ++ rest) = Panic.
Proof. exact C81_claimed_length_proof. Qed.
Print Assumptions C81_claimed_length.

(** the same 40 bytes are an i/o error on a 64-bit target *)
Example ex_C81_claimed_length :
  let rd := big_endian 4 0x1c849313 ++ big_endian 4 (2 ^ 31) ++ big_endian 4 0 ++ big_endian 4 1 ++
    big_endian 8 1 ++ big_endian 8 255 ++ big_endian 8 0x3ff0000000000000 ++ [] in
  zlen rd = 40 /\ deserialize_w 32 true plain [] U8 rd = Panic.
Proof. width_case. Qed.
