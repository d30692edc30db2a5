(** * Model of [Histogram<T>], src/lib.rs

    Function by function; every definition cites the lines it models. *)
From Verif Require Import Machine Log2Model.

(** [struct Histogram], src/lib.rs:255-292.  [h_ctr] is the type parameter [T]. *)
Record hist := mk_hist {
  h_ctr : counter;
  h_auto : bool;
  h_high : Z;                 (* highest_trackable_value *)
  h_low : Z;                  (* lowest_discernible_value *)
  h_sigfig : Z;               (* significant_value_digits *)
  h_bucket_count : Z;
  h_sub_bucket_count : Z;
  h_half_count : Z;           (* sub_bucket_half_count *)
  h_half_mag : Z;             (* sub_bucket_half_count_magnitude *)
  h_mask : Z;                 (* sub_bucket_mask *)
  h_lzb : Z;                  (* leading_zero_count_base *)
  h_um : Z;                   (* unit_magnitude *)
  h_um_mask : Z;              (* unit_magnitude_mask *)
  h_max : Z;                  (* max_value *)
  h_min : Z;                  (* min_non_zero_value *)
  h_total : Z;                (* total_count *)
  h_counts : list Z           (* counts *)
}.

(** assignment to [self.auto_resize], as in src/lib.rs:683 *)
Definition set_auto (h : hist) (b : bool) : hist :=
  mk_hist (h_ctr h) b (h_high h) (h_low h) (h_sigfig h) (h_bucket_count h) (h_sub_bucket_count h)
    (h_half_count h) (h_half_mag h) (h_mask h) (h_lzb h) (h_um h) (h_um_mask h)
    (h_max h) (h_min h) (h_total h) (h_counts h).
(** assignment to [self.highest_trackable_value], as in src/lib.rs:911 *)
Definition set_high (h : hist) (v : Z) : hist :=
  mk_hist (h_ctr h) (h_auto h) v (h_low h) (h_sigfig h) (h_bucket_count h) (h_sub_bucket_count h)
    (h_half_count h) (h_half_mag h) (h_mask h) (h_lzb h) (h_um h) (h_um_mask h)
    (h_max h) (h_min h) (h_total h) (h_counts h).
(** assignment to [self.max_value], as in src/lib.rs:1676 *)
Definition set_max (h : hist) (v : Z) : hist :=
  mk_hist (h_ctr h) (h_auto h) (h_high h) (h_low h) (h_sigfig h) (h_bucket_count h) (h_sub_bucket_count h)
    (h_half_count h) (h_half_mag h) (h_mask h) (h_lzb h) (h_um h) (h_um_mask h)
    v (h_min h) (h_total h) (h_counts h).
(** assignment to [self.min_non_zero_value], as in src/lib.rs:1689 *)
Definition set_min (h : hist) (v : Z) : hist :=
  mk_hist (h_ctr h) (h_auto h) (h_high h) (h_low h) (h_sigfig h) (h_bucket_count h) (h_sub_bucket_count h)
    (h_half_count h) (h_half_mag h) (h_mask h) (h_lzb h) (h_um h) (h_um_mask h)
    (h_max h) v (h_total h) (h_counts h).
(** assignment to [self.total_count], as in src/lib.rs:927 *)
Definition set_total (h : hist) (v : Z) : hist :=
  mk_hist (h_ctr h) (h_auto h) (h_high h) (h_low h) (h_sigfig h) (h_bucket_count h) (h_sub_bucket_count h)
    (h_half_count h) (h_half_mag h) (h_mask h) (h_lzb h) (h_um h) (h_um_mask h)
    (h_max h) (h_min h) v (h_counts h).
(** update of [self.counts], as in src/lib.rs:887 *)
Definition set_counts (h : hist) (l : list Z) : hist :=
  mk_hist (h_ctr h) (h_auto h) (h_high h) (h_low h) (h_sigfig h) (h_bucket_count h) (h_sub_bucket_count h)
    (h_half_count h) (h_half_mag h) (h_mask h) (h_lzb h) (h_um h) (h_um_mask h)
    (h_max h) (h_min h) (h_total h) l.

(** src/lib.rs:217 *)
Definition ORIGINAL_MIN : Z := u64_max.
(** src/lib.rs:219 *)
Definition ORIGINAL_MAX : Z := 0.

(** ** Errors, src/errors/mod.rs: [CreationError], [AdditionError], [SubtractionError],
    [RecordError] *)
Inductive creation_error :=
| LowIsZero | LowExceedsMax | HighLessThanTwiceLow | SigFigExceedsMax
| CannotRepresentSigFigBeyondLow | CreateUsizeTypeTooSmall.
(** src/errors/mod.rs:36-44 *)
Inductive addition_error := OtherAddendValueExceedsRange | AddResizeFailedUsizeTypeTooSmall.
(** src/errors/mod.rs:48-58 *)
Inductive subtraction_error := SubtrahendValueExceedsMinuendRange | SubtrahendCountExceedsMinuendCount.
(** src/errors/mod.rs:62-71 *)
Inductive record_error := ValueOutOfRangeResizeDisabled | RecordResizeFailedUsizeTypeTooSmall.

(** ** Read-outs, src/lib.rs:302-350 *)
Definition distinct_values (h : hist) : Z := zlen (h_counts h).
(** src/lib.rs:307-309 *)
Definition low (h : hist) : Z := h_low h.
(** src/lib.rs:312-314 *)
Definition high (h : hist) : Z := h_high h.
(** src/lib.rs:317-319 *)
Definition sigfig (h : hist) : Z := h_sigfig h.
(** src/lib.rs:328-330 *)
Definition len (h : hist) : Z := h_total h.
(** src/lib.rs:333-335 *)
Definition is_empty (h : hist) : bool := h_total h =? 0.
(** src/lib.rs:343-345 *)
Definition buckets (h : hist) : Z := h_bucket_count h.
(** src/lib.rs:348-350 *)
Definition is_auto_resize (h : hist) : bool := h_auto h.

(** ** Location arithmetic *)

(** [bucket_for], src/lib.rs:1571-1578 *)
Definition bucket_for (h : hist) (value : Z) : res Z :=
  u8_sub (h_lzb h) (leading_zeros (Z.lor value (h_mask h))).

(** [sub_bucket_for], src/lib.rs:1584-1594 *)
Definition sub_bucket_for (h : hist) (value bucket_index : Z) : res Z :=
  s <- u8_add bucket_index (h_um h) ;;
  x <- u64_shr value s ;;
  Ret (as_u32 x).

(** [value_from_loc], src/lib.rs:1600-1606 *)
Definition value_from_loc (h : hist) (bucket_index sub_bucket_index : Z) : res Z :=
  s <- u8_add bucket_index (h_um h) ;;
  u64_shl sub_bucket_index s.

(** [index_for], src/lib.rs:358-383.  [None] is the [to_usize] failure. *)
Definition index_for (h : hist) (value : Z) : res (option Z) :=
  bucket_index <- bucket_for h value ;;
  sub_bucket_index <- sub_bucket_for h value bucket_index ;;
  _ <- assert (sub_bucket_index <? h_sub_bucket_count h) ;;
  _ <- assert ((bucket_index =? 0) || (h_half_count h <=? sub_bucket_index)) ;;
  b1 <- i32_add bucket_index 1 ;;
  bucket_base_index <- i32_shl b1 (h_half_mag h) ;;
  offset_in_bucket <- i32_sub (as_i32 sub_bucket_index) (as_i32 (h_half_count h)) ;;
  index <- i32_add bucket_base_index offset_in_bucket ;;
  _ <- assert (0 <=? index) ;;
  Ret (if 0 <=? index then Some index else None).

(** [last_index], src/lib.rs:400-404 *)
Definition last_index (h : hist) : res Z :=
  if 1 <=? distinct_values h then Ret (distinct_values h - 1) else Panic.

(** [index_for_or_last], src/lib.rs:388-391 *)
Definition index_for_or_last (h : hist) (value : Z) : res Z :=
  oi <- index_for h value ;;
  li <- last_index h ;;
  Ret (match oi with None => li | Some i => Z.min i li end).

(** [mut_at], src/lib.rs:394-397: the index of the slot a reference is handed out for *)
Definition mut_at (h : hist) (value : Z) : res (option Z) :=
  oi <- index_for h value ;;
  Ret (match oi with
       | Some i => if i <? distinct_values h then Some i else None
       | None => None end).

(** [count_at_index], src/lib.rs:1556-1558 *)
Definition count_at_index (h : hist) (index : Z) : option Z := vget (h_counts h) index.

(** [set_count_at_index], src/lib.rs:1562-1566 *)
Definition set_count_at_index (h : hist) (index count : Z) : option hist :=
  match vget (h_counts h) index with
  | Some _ => Some (set_counts h (vset (h_counts h) index count))
  | None => None
  end.

(** [value_for], src/lib.rs:1532-1553 *)
Definition value_for (h : hist) (index : Z) : res Z :=
  x <- usize_shr index (h_half_mag h) ;;
  let bucket_index := x - 1 in
  i32 <- (if index <=? u32_max then Ret index else Panic) ;;
  hm1 <- u32_sub (h_half_count h) 1 ;;
  sub_bucket_index <- u32_add (Z.land i32 hm1) (h_half_count h) ;;
  if bucket_index <? 0 then
    sbi <- u32_sub sub_bucket_index (h_half_count h) ;;
    value_from_loc h 0 sbi
  else value_from_loc h (as_u8 bucket_index) sub_bucket_index.

(** ** Public helpers, src/lib.rs:1288-1290 and 1464-1511 *)
Definition lowest_equivalent (h : hist) (value : Z) : res Z :=
  b <- bucket_for h value ;;
  sb <- sub_bucket_for h value b ;;
  value_from_loc h b sb.

(** src/lib.rs:1508-1511 *)
Definition equivalent_range (h : hist) (value : Z) : res Z :=
  b <- bucket_for h value ;;
  s <- u8_add (h_um h) b ;;
  u64_shl 1 s.

(** src/lib.rs:1500-1503 *)
Definition next_non_equivalent (h : hist) (value : Z) : res Z :=
  lo <- lowest_equivalent h value ;;
  r <- equivalent_range h value ;;
  Ret (sat_add64 lo r).

(** src/lib.rs:1475-1481 *)
Definition highest_equivalent (h : hist) (value : Z) : res Z :=
  if value =? u64_max then Ret u64_max
  else
    n <- next_non_equivalent h value ;;
    u64_sub n 1.

(** src/lib.rs:1488-1493 *)
Definition median_equivalent (h : hist) (value : Z) : res Z :=
  lo <- lowest_equivalent h value ;;
  r <- equivalent_range h value ;;
  u64_add lo (Z.shiftr r 1).

(** src/lib.rs:1288-1290 *)
Definition equivalent (h : hist) (value1 value2 : Z) : res bool :=
  a <- lowest_equivalent h value1 ;;
  b <- lowest_equivalent h value2 ;;
  Ret (a =? b).

(** ** Statistics read-outs, src/lib.rs:1252-1283 *)
Definition max (h : hist) : res Z :=
  if h_max h =? ORIGINAL_MAX then Ret ORIGINAL_MAX else highest_equivalent h (h_max h).

(** src/lib.rs:1277-1283 *)
Definition min_nz (h : hist) : res Z :=
  if h_min h =? ORIGINAL_MIN then Ret ORIGINAL_MIN else lowest_equivalent h (h_min h).

(** src/lib.rs:1252-1263 *)
Definition min (h : hist) : res Z :=
  if h_total h =? 0 then Ret 0
  else
    c0 <- expect (count_at_index h 0) ;;
    if negb (c0 =? 0) then Ret 0 else min_nz h.

(** ** Sizing *)

(** [buckets_to_cover], src/lib.rs:1609-1627; 65 rounds are always enough (see [buckets_to_cover_total]). *)
Fixpoint btc_loop (fuel : nat) (value smallest_untrackable buckets_needed : Z) : res Z :=
  match fuel with
  | O => Panic
  | S f =>
      if smallest_untrackable <=? value then
        if u64_max / 2 <? smallest_untrackable then u8_add buckets_needed 1
        else
          su <- u64_shl smallest_untrackable 1 ;;
          bn <- u8_add buckets_needed 1 ;;
          btc_loop f value su bn
      else Ret buckets_needed
  end.
(** src/lib.rs:1609-1627 *)
Definition buckets_to_cover (h : hist) (value : Z) : res Z :=
  su <- u64_shl (h_sub_bucket_count h) (h_um h) ;;
  btc_loop 65 value su 1.

(** [num_bins], src/lib.rs:1637-1639 *)
Definition num_bins (h : hist) (number_of_buckets : Z) : res Z :=
  n <- u32_add number_of_buckets 1 ;;
  u32_mul n (h_half_count h).

(** [resize], src/lib.rs:1646-1670.  The [to_usize] of a u32 cannot fail on a 64-bit target. *)
Definition resize (h : hist) (new_high : Z) : res hist :=
  l2 <- u64_mul 2 (h_low h) ;;
  _ <- assert (l2 <=? new_high) ;;
  buckets_needed <- buckets_to_cover h new_high ;;
  l <- num_bins h buckets_needed ;;
  Ret (mk_hist (h_ctr h) (h_auto h) new_high (h_low h) (h_sigfig h) buckets_needed
         (h_sub_bucket_count h) (h_half_count h) (h_half_mag h) (h_mask h) (h_lzb h) (h_um h)
         (h_um_mask h) (h_max h) (h_min h) (h_total h) (vresize (h_counts h) l 0)).

(** ** Statistics updates, src/lib.rs:1673-1713 *)
Definition update_max (h : hist) (value : Z) : hist :=
  let internal_value := Z.lor value (h_um_mask h) in
  if h_max h <? internal_value then set_max h internal_value else h.

(** src/lib.rs:1682-1691 *)
Definition update_min (h : hist) (value : Z) : hist :=
  if value <=? h_um_mask h then h
  else
    let internal_value := Z.ldiff value (h_um_mask h) in
    if internal_value <? h_min h then set_min h internal_value else h.

(** src/lib.rs:1693-1700 *)
Definition update_min_max (h : hist) (value : Z) : hist :=
  let h1 := if h_max h <? value then update_max h value else h in
  if (value <? h_min h1) && negb (value =? 0) then update_min h1 value else h1.

(** src/lib.rs:1702-1704 *)
Definition reset_max (h : hist) (mx : Z) : hist := set_max h (Z.lor mx (h_um_mask h)).
(** src/lib.rs:1706-1713 *)
Definition reset_min (h : hist) (mn : Z) : hist :=
  set_min h (if mn =? u64_max then mn else Z.ldiff mn (h_um_mask h)).

(** ** Construction *)

(** [new_with_bounds], src/lib.rs:736-822.  [sub_bucket_count_magnitude] is
    [(2 * 10^sigfig as f64).log2().ceil()], an exact small table (1, 5, 8, 11, 15, 18), which is
    [Z.log2_up]. *)
Definition new_with_bounds (T : counter) (lo hi sf : Z) : res (result hist creation_error) :=
  if lo <? 1 then Ret (RErr LowIsZero)
  else if u64_max / 2 <? lo then Ret (RErr LowExceedsMax)
  else
    l2 <- u64_mul 2 lo ;;
    if hi <? l2 then Ret (RErr HighLessThanTwiceLow)
    else if 5 <? sf then Ret (RErr SigFigExceedsMax)
    else
      largest <- u32_mul 2 (10 ^ sf) ;;
      let unit_magnitude := log2_floor_f64 lo in
      b <- u64_shl 1 unit_magnitude ;;
      unit_magnitude_mask <- u64_sub b 1 ;;
      let sub_bucket_count_magnitude := Z.log2_up largest in
      sub_bucket_half_count_magnitude <- u8_sub sub_bucket_count_magnitude 1 ;;
      sub_bucket_count <- u32_shl 1 sub_bucket_count_magnitude ;;
      s <- u8_add unit_magnitude sub_bucket_count_magnitude ;;
      if 63 <? s then Ret (RErr CannotRepresentSigFigBeyondLow)
      else
        let sub_bucket_half_count := sub_bucket_count / 2 in
        m <- u64_sub sub_bucket_count 1 ;;
        sub_bucket_mask <- u64_shl m unit_magnitude ;;
        z <- u8_sub 64 unit_magnitude ;;
        lzb <- u8_sub z sub_bucket_count_magnitude ;;
        h <- resize
               (mk_hist T false hi lo sf 0 sub_bucket_count sub_bucket_half_count
                  sub_bucket_half_count_magnitude sub_bucket_mask lzb unit_magnitude
                  unit_magnitude_mask ORIGINAL_MAX ORIGINAL_MIN 0 []) hi ;;
        Ret (ROk h).

(** [new_with_max], src/lib.rs:712-714 *)
Definition new_with_max (T : counter) (hi sf : Z) := new_with_bounds T 1 hi sf.

(** [new], src/lib.rs:697-703 *)
Definition new (T : counter) (sf : Z) : res (result hist creation_error) :=
  r <- new_with_bounds T 1 2 sf ;;
  Ret (match r with ROk h => ROk (set_auto h true) | RErr e => RErr e end).

(** [new_from], src/lib.rs:826-839 *)
Definition new_from (T : counter) (source : hist) : res hist :=
  r <- new_with_bounds T (h_low source) (h_high source) (h_sigfig source) ;;
  match r with
  | RErr _ => Panic
  | ROk h =>
      let h1 := set_auto h (h_auto source) in
      Ret (set_counts h1 (vresize (h_counts h1) (distinct_values source) 0))
  end.

(** ** Recording *)

(** [record_n_inner], src/lib.rs:885-929 *)
Definition record_n_inner (h : hist) (value count : Z) (clamp : bool)
  : res (hist * result unit record_error) :=
  slot <- mut_at h value ;;
  st <- match slot with
        | Some i =>
            c <- expect (vget (h_counts h) i) ;;
            Ret (ROk (value, set_counts h (vset (h_counts h) i (csat_add (h_ctr h) c count))))
        | None =>
            if clamp then
              let value' := if h_high h <? value then h_high h else h_low h in
              slot' <- mut_at h value' ;;
              i <- expect slot' ;;
              c <- expect (vget (h_counts h) i) ;;
              Ret (ROk (value', set_counts h (vset (h_counts h) i (csat_add (h_ctr h) c count))))
            else if negb (h_auto h) then Ret (RErr ValueOutOfRangeResizeDisabled)
            else
              h1 <- resize h value ;;
              li <- last_index h1 ;;
              vl <- value_for h1 li ;;
              top <- highest_equivalent h1 vl ;;
              let h2 := set_high h1 top in
              slot' <- mut_at h2 value ;;
              i <- expect slot' ;;
              c <- expect (vget (h_counts h2) i) ;;
              c' <- expect (cchecked_add (h_ctr h) c count) ;;
              Ret (ROk (value, set_counts h2 (vset (h_counts h2) i c')))
        end ;;
  match st with
  | RErr e => Ret (h, RErr e)
  | ROk (v, h1) =>
      let h2 := update_min_max h1 v in
      Ret (set_total h2 (sat_add64 (h_total h2) count), ROk tt)
  end.

(** [record_n], [record], [saturating_record_n], [saturating_record], src/lib.rs:849-883 *)
Definition record_n (h : hist) (value count : Z) := record_n_inner h value count false.
(** src/lib.rs:849-851 *)
Definition record (h : hist) (value : Z) := record_n h value 1.
(** src/lib.rs:881-883 *)
Definition saturating_record_n (h : hist) (value count : Z) : res hist :=
  '(h', r) <- record_n_inner h value count true ;;
  match r with ROk _ => Ret h' | RErr _ => Panic end.
(** src/lib.rs:859-861 *)
Definition saturating_record (h : hist) (value : Z) : res hist := saturating_record_n h value 1.

(** [record_n_correct], src/lib.rs:951-973 (and [record_correct], 934-936); the loop gets [value / interval] rounds. *)
Fixpoint correct_loop (fuel : nat) (h : hist) (missing_value count interval : Z)
  : res (hist * result unit record_error) :=
  if interval <=? missing_value then
    match fuel with
    | O => Panic
    | S f =>
        '(h', r) <- record_n_inner h missing_value count false ;;
        match r with
        | RErr e => Ret (h', RErr e)
        | ROk _ =>
            mv <- u64_sub missing_value interval ;;
            correct_loop f h' mv count interval
        end
    end
  else Ret (h, ROk tt).
(** src/lib.rs:951-972 *)
Definition record_n_correct (h : hist) (value count interval : Z)
  : res (hist * result unit record_error) :=
  '(h1, r) <- record_n h value count ;;
  match r with
  | RErr e => Ret (h1, RErr e)
  | ROk _ =>
      if interval =? 0 then Ret (h1, ROk tt)
      else if interval <? value then
        mv <- u64_sub value interval ;;
        correct_loop (Z.to_nat (value / interval)) h1 mv count interval
      else Ret (h1, ROk tt)
  end.
(** src/lib.rs:934-936 *)
Definition record_correct (h : hist) (value interval : Z) := record_n_correct h value 1 interval.

(** ** Clearing, src/lib.rs:661-684 *)
Definition clear (h : hist) : hist :=
  set_total (set_counts h (map (fun _ => 0) (h_counts h))) 0.
(** src/lib.rs:669-678 *)
Definition reset (h : hist) : hist := reset_min (reset_max (clear h) ORIGINAL_MAX) ORIGINAL_MIN.
(** src/lib.rs:682-684 *)
Definition auto (h : hist) (enabled : bool) : hist := set_auto h enabled.

(** ** Restat, src/lib.rs:1735-1764 *)
Record restat_state := mk_restat { rs_max : option Z; rs_min : option Z; rs_total : Z }.
(** src/lib.rs:1745-1752 *)
Definition restat_new : restat_state := mk_restat None None 0.
(** src/lib.rs:1756-1764 *)
Definition on_nonzero_count (s : restat_state) (index count : Z) : restat_state :=
  mk_restat (Some index)
    (match rs_min s with
     | Some m => Some m
     | None => if index =? 0 then None else Some index end)
    (sat_add64 (rs_total s) count).
(** the loop of [restat], src/lib.rs:1722-1729 *)
Fixpoint restat_loop (cs : list Z) (i : Z) (s : restat_state) : restat_state :=
  match cs with
  | [] => s
  | c :: cs' => restat_loop cs' (i + 1) (if c =? 0 then s else on_nonzero_count s i c)
  end.
(** [RestatState::update_histogram], src/lib.rs:1768-1779 *)
Definition restat_update (s : restat_state) (h : hist) : res hist :=
  h1 <- match rs_max s with
        | Some mi => v <- value_for h mi ;; mx <- highest_equivalent h v ;; Ret (update_max h mx)
        | None => Ret h end ;;
  h2 <- match rs_min s with
        | Some mi => mn <- value_for h1 mi ;; Ret (update_min h1 mn)
        | None => Ret h1 end ;;
  Ret (set_total h2 (rs_total s)).
(** [restat(length_to_scan)], src/lib.rs:1716-1732; only ever called with the full length *)
Definition restat (h : hist) : res hist :=
  let h1 := reset_min (reset_max h ORIGINAL_MAX) ORIGINAL_MIN in
  restat_update (restat_loop (h_counts h1) 0 restat_new) h1.

(** ** Addition, src/lib.rs:462-551 *)

(** src/lib.rs:492-503: the aligned loop, both arrays walked together; an index past the end of [self]
    would panic *)
Fixpoint add_aligned (T : counter) (self src : list Z) (observed : Z) : res (list Z * Z) :=
  match src with
  | [] => Ret (self, observed)
  | o :: src' =>
      match self with
      | [] => if o =? 0 then add_aligned T [] src' observed else Panic
      | x :: self' =>
          let x' := if o =? 0 then x else csat_add T x o in
          let obs := if o =? 0 then observed else sat_add64 observed o in
          '(l, t) <- add_aligned T self' src' obs ;;
          Ret (x' :: l, t)
      end
  end.

(** src/lib.rs:531-540: the re-record loop over [source.counts[i..]] *)
Fixpoint add_rerecord (h source : hist) (cs : list Z) (i : Z) : res hist :=
  match cs with
  | [] => Ret h
  | c :: cs' =>
      if c =? 0 then add_rerecord h source cs' (i + 1)
      else
        v <- value_for source i ;;
        '(h', r) <- record_n h v c ;;
        match r with
        | ROk _ => add_rerecord h' source cs' (i + 1)
        | RErr _ => Panic
        end
  end.

(** src/lib.rs:481-541, after the range check *)
Definition add_body (h source : hist) : res hist :=
  let matching := (h_bucket_count h =? h_bucket_count source)
                  && (h_sub_bucket_count h =? h_sub_bucket_count source)
                  && (h_um h =? h_um source) in
  if matching && is_empty h then
    (* copy_from_slice panics on different lengths *)
    _ <- assert (distinct_values h =? distinct_values source) ;;
    Ret (set_max (set_min (set_total (set_counts h (h_counts source)) (h_total source))
                    (h_min source)) (h_max source))
  else if matching then
    '(cs, observed) <- add_aligned (h_ctr h) (h_counts h) (h_counts source) 0 ;;
    let h1 := set_counts h cs in
    let h2 := set_total h1 (sat_add64 (h_total h1) observed) in
    mx <- max source ;;
    m2 <- max h2 ;;
    let h3 := if m2 <? mx then update_max h2 mx else h2 in
    mn <- min_nz source ;;
    n3 <- min_nz h3 ;;
    Ret (if mn <? n3 then update_min h3 mn else h3)
  else
    mx <- max source ;;
    oi <- index_for source mx ;;
    other_max_index <- expect oi ;;
    other_count <- expect (count_at_index source other_max_index) ;;
    v <- value_for source other_max_index ;;
    '(h1, r) <- record_n h v other_count ;;
    match r with
    | RErr _ => Panic
    | ROk _ => add_rerecord h1 source (firstn (Z.to_nat other_max_index) (h_counts source)) 0
    end.

(** src/lib.rs:462-480 and 551 *)
Definition add (h source : hist) : res (hist * result unit addition_error) :=
  if is_empty source then Ret (h, ROk tt)
  else
    li <- last_index h ;;
    vl <- value_for h li ;;
    top <- highest_equivalent h vl ;;
    smax <- max source ;;
    if top <? smax then
      if negb (h_auto h) then Ret (h, RErr OtherAddendValueExceedsRange)
      else
        h1 <- resize h smax ;;
        h2 <- add_body h1 source ;;
        Ret (h2, ROk tt)
    else
      h2 <- add_body h source ;;
      Ret (h2, ROk tt).

(** ** Subtraction, src/lib.rs:587-653; the loop is lines 610-645 *)
Fixpoint sub_loop (sub : hist) (cs : list Z) (i : Z) (h : hist) (needs_restat : bool)
    (old_min_highest_equiv old_max_lowest_equiv : Z)
  : res (hist * result bool subtraction_error) :=
  match cs with
  | [] => Ret (h, ROk needs_restat)
  | other_count :: cs' =>
      if other_count =? 0 then
        sub_loop sub cs' (i + 1) h needs_restat old_min_highest_equiv old_max_lowest_equiv
      else
        other_value <- value_for sub i ;;
        slot <- mut_at h other_value ;;
        match slot with
        | None => Panic
        | Some j =>
            c <- expect (vget (h_counts h) j) ;;
            match cchecked_sub c other_count with
            | None => Ret (h, RErr SubtrahendCountExceedsMinuendCount)
            | Some c' =>
                let h1 := set_counts h (vset (h_counts h) j c') in
                let needs := needs_restat || (other_value <=? old_min_highest_equiv)
                             || (old_max_lowest_equiv <=? other_value) in
                h2 <- (if needs then Ret h1
                       else
                         t <- expect (cchecked_sub (h_total h1) other_count) ;;
                         Ret (set_total h1 t)) ;;
                sub_loop sub cs' (i + 1) h2 needs old_min_highest_equiv old_max_lowest_equiv
            end
        end
  end.

(** src/lib.rs:587-608 and 647-653 *)
Definition subtract (h sub : hist) : res (hist * result unit subtraction_error) :=
  if is_empty sub then Ret (h, ROk tt)
  else
    li <- last_index h ;;
    vl <- value_for h li ;;
    top <- highest_equivalent h vl ;;
    smax <- max sub ;;
    smax_h <- highest_equivalent h smax ;;
    if top <? smax_h then Ret (h, RErr SubtrahendValueExceedsMinuendRange)
    else
      mn <- min h ;;
      old_min <- highest_equivalent h mn ;;
      mx <- max h ;;
      old_max <- lowest_equivalent h mx ;;
      '(h1, r) <- sub_loop sub (h_counts sub) 0 h (h_total h =? u64_max) old_min old_max ;;
      match r with
      | RErr e => Ret (h1, RErr e)
      | ROk true => h2 <- restat h1 ;; Ret (h2, ROk tt)
      | ROk false => Ret (h1, ROk tt)
      end.

(** ** Copying, src/lib.rs:438-441 *)
Definition set_to (h source : hist) : res (hist * result unit addition_error) :=
  add (reset h) source.

(** ** Operators that unwrap, src/lib.rs:1787-1866 *)
Definition unwrap {A E} (m : res (A * result unit E)) : res A :=
  '(a, r) <- m ;;
  match r with ROk _ => Ret a | RErr _ => Panic end.
(** src/lib.rs:1787-1814 ([+=] and [+]) *)
Definition add_assign (h source : hist) : res hist := unwrap (add h source).
(** src/lib.rs:1833-1860 ([-=] and [-]) *)
Definition sub_assign (h other : hist) : res hist := unwrap (subtract h other).
(** src/lib.rs:1862-1866 *)
Definition add_assign_u64 (h : hist) (value : Z) : res hist := unwrap (record h value).

(** [Sum], src/lib.rs:1816-1831 *)
Fixpoint sum_loop (first : hist) (rest : list hist) : res hist :=
  match rest with
  | [] => Ret first
  | h :: rest' => f <- add_assign first h ;; sum_loop f rest'
  end.
(** src/lib.rs:1817-1830 *)
Definition sum_hist (T : counter) (hs : list hist) : res hist :=
  match hs with
  | [] => r <- new T 3 ;; match r with ROk h => Ret h | RErr _ => Panic end
  | h :: hs' => sum_loop h hs'
  end.

(** ** Counting queries, src/lib.rs:1435-1455 *)
Definition count_at (h : hist) (value : Z) : res Z :=
  i <- index_for_or_last h value ;;
  expect (count_at_index h i).

(** [fold(0, saturating_add)], src/lib.rs:1441 and 1412 *)
Fixpoint fold_sat (cs : list Z) (t : Z) : Z :=
  match cs with [] => t | c :: cs' => fold_sat cs' (sat_add64 t c) end.

(** src/lib.rs:1435-1442: the index range [low_index .. high_index + 1] of the counts, summed with saturation; every
    index is [<= last_index] so the inner [expect] is the slice being inside the array *)
Definition count_between (h : hist) (lo hi : Z) : res Z :=
  low_index <- index_for_or_last h lo ;;
  high_index <- index_for_or_last h hi ;;
  hi1 <- usize_add high_index 1 ;;
  _ <- assert (hi1 <=? distinct_values h) ;;
  Ret (fold_sat (firstn (Z.to_nat (hi1 - low_index)) (skipn (Z.to_nat low_index) (h_counts h))) 0).

(** ** Equality, src/lib.rs:1869-1901 (at one counter type) *)
Fixpoint counts_eq (a b : list Z) : bool :=
  match a with
  | [] => true
  | x :: a' => match b with [] => false | y :: b' => (x =? y) && counts_eq a' b' end
  end.
(** src/lib.rs:1873-1896 *)
Definition hist_eq (a b : hist) : res bool :=
  if negb (h_low a =? h_low b) || negb (h_sigfig a =? h_sigfig b) then Ret false
  else if negb (h_total a =? h_total b) then Ret false
  else
    ma <- max a ;;
    mb <- max b ;;
    if negb (ma =? mb) then Ret false
    else
      na <- min_nz a ;;
      nb <- min_nz b ;;
      if negb (na =? nb) then Ret false
      else Ret (counts_eq (h_counts a) (h_counts b)).
