(** * Builds without overflow checks (the release profile)

    The other models check every arithmetic operation, as a debug build does: a result that does not fit
    is [Panic].  Where such a model returns, a release build computes the same.  This file has the release
    versions of the code that can overflow on a histogram a program can build: [value_at_quantile] and the
    linear iterator.  (The third such place is the deserializer, whose model [SerModel.deserialize] takes
    the profile as an argument; the fourth is the number of recorders, [ReleaseSyncModel].)  In a release build [+] wraps around, and a shift uses its amount modulo
    the width.  [expect] and [assert!] still panic.

    Simplified: functions these call which never overflow on such a histogram (C31) are those of the other
    models. *)
From Verif Require Import Machine HistModel FloatModel IterModel.

(** [+] on [u64] (Rust primitive), as at src/lib.rs:1360 and src/iterators/linear.rs:48 *)
Definition wrapping_add (a b : Z) : Z := (a + b) mod 2 ^ 64.
(** [<<] on [u64] (Rust primitive), as at src/lib.rs:1605 *)
Definition wrapping_shl (x s : Z) : Z := Z.shiftl x (s mod 64) mod 2 ^ 64.

(** [value_from_loc], src/lib.rs:1600-1606; the sum is one of [u8]s *)
Definition value_from_loc_release (h : hist) (bucket_index sub_bucket_index : Z) : Z :=
  wrapping_shl sub_bucket_index ((bucket_index + h_um h) mod 2 ^ 8).
(** [value_for], src/lib.rs:1532-1553; the sums and differences of [u32]s *)
Definition value_for_release (h : hist) (index : Z) : res Z :=
  let bucket_index := Z.shiftr index (h_half_mag h mod 64) - 1 in
  i32 <- (if index <=? u32_max then Ret index else Panic) ;;
  let sub_bucket_index := (Z.land i32 ((h_half_count h - 1) mod 2 ^ 32) + h_half_count h) mod 2 ^ 32 in
  if bucket_index <? 0 then Ret (value_from_loc_release h 0 ((sub_bucket_index - h_half_count h) mod 2 ^ 32))
  else Ret (value_from_loc_release h (as_u8 bucket_index) sub_bucket_index).

(** [value_at_quantile], src/lib.rs:1353-1368: the scan *)
Fixpoint vaq_scan_release (h : hist) (cs : list Z) (i total target : Z) (is_zero : bool) : res Z :=
  match cs with
  | [] => Ret 0
  | c :: cs' =>
      let t := wrapping_add total c in
      if target <=? t then
        v <- value_for h i ;;
        if is_zero then lowest_equivalent h v else highest_equivalent h v
      else vaq_scan_release h cs' (i + 1) t target is_zero
  end.
(** src/lib.rs:1340-1369 *)
Definition value_at_quantile_release (h : hist) (quantile : f64) : res Z :=
  let q := if f64_lt f64_one quantile then f64_one else quantile in
  let fractional_count := f64_mul q (f64_of_u64 (h_total h)) in
  let c := f64_to_u64 (f64_ceil fractional_count) in
  let count_at_quantile := if c =? 0 then 1 else c in
  vaq_scan_release h (h_counts h) 0 0 count_at_quantile (f64_eq q f64_zero).

(** the linear iterator, src/iterators/linear.rs:40-68.  The index looked up in [pick] is that of a bin,
    so [value_for] cannot overflow there. *)
Definition pk_linear_release : picker linear :=
  mk_picker
    (fun h p index _ _ =>
       val <- value_for h index ;;
       last <- last_index h ;;
       if (ln_low p <=? val) || (index =? last) then
         let hi := wrapping_add (ln_high p) (ln_step p) in
         lo <- lowest_equivalent h hi ;;
         Ret (Some (mk_md None (Some (ln_high p))), mk_linear (ln_step p) hi lo)
       else Ret (None, p))
    (fun h p index_to_pick =>
       next_index <- usize_add index_to_pick 1 ;;
       v <- value_for_release h next_index ;;
       Ret (ln_high p <? v, p)).
