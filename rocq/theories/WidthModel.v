(** * The code with a [usize] of any width

    The other model files fix a 64-bit target.  Here every function that computes with [usize], and every
    function that calls one of those, is written again with the width [w] of [usize] in bits as its first
    argument.  The width enters through [to_usize], the checked additions and the shift of [usize], and
    the limit of [isize::MAX] bytes per allocation. *)
From Verif Require Import Machine Log2Model FloatModel HistModel IterModel SerModel.

(** [usize::MAX] (Rust primitive), as used by the conversions at src/lib.rs:382, 1658 *)
Definition usize_max_w (w : Z) : Z := 2 ^ w - 1.
(** [isize::MAX] (Rust primitive), the largest size of an allocation, as made at src/lib.rs:1668 *)
Definition isize_max_w (w : Z) : Z := 2 ^ (w - 1) - 1.
(** [to_usize] of num-traits, as at src/lib.rs:382, 1658, src/serialization/deserializer.rs:123, 143, 348 *)
Definition to_usize_w (w x : Z) : option Z := if (0 <=? x) && (x <=? usize_max_w w) then Some x else None.
(** [+] on [usize] (Rust primitive), as at src/lib.rs:1398, 1439 *)
Definition usize_add_w (w a b : Z) : res Z := in_range 0 (usize_max_w w) (a + b).
(** [>>] on [usize] (Rust primitive), as at src/lib.rs:1536 *)
Definition usize_shr_w (w x s : Z) : res Z := if s <? w then Ret (Z.shiftr x s) else Panic.
(** size in bytes of the counter types, src/core/counter.rs:26-67 *)
Definition size_of (T : counter) : Z := match T with U8 => 1 | U16 => 2 | U32 => 4 | U64 => 8 end.
(** whether [len] elements of [bytes] bytes may be allocated (Rust primitive), as needed at src/lib.rs:1668,
    837, src/serialization/v2_serializer.rs:79, src/serialization/deserializer.rs:164.  Simplified: a [Vec] that grows may
    ask for up to twice what it needs. *)
Definition vec_fits_w (w bytes len : Z) : bool := bytes * len <=? isize_max_w w.
(** [Vec::resize] (Rust primitive), which panics with "capacity overflow" if the elements do not fit in
    [isize::MAX] bytes, as at src/lib.rs:1668, 837, src/serialization/deserializer.rs:164 *)
Definition vec_resize_w {A} (w bytes : Z) (l : list A) (n : Z) (x : A) : res (list A) :=
  if vec_fits_w w bytes n then Ret (vresize l n x) else Panic.

(** ** src/lib.rs *)

(** [index_for], src/lib.rs:358-383.  [None] is the [to_usize] failure. *)
Definition index_for_w (w : Z) (h : hist) (value : Z) : res (option Z) :=
  bucket_index <- bucket_for h value ;;
  sub_bucket_index <- sub_bucket_for h value bucket_index ;;
  _ <- assert (sub_bucket_index <? h_sub_bucket_count h) ;;
  _ <- assert ((bucket_index =? 0) || (h_half_count h <=? sub_bucket_index)) ;;
  b1 <- i32_add bucket_index 1 ;;
  bucket_base_index <- i32_shl b1 (h_half_mag h) ;;
  offset_in_bucket <- i32_sub (as_i32 sub_bucket_index) (as_i32 (h_half_count h)) ;;
  index <- i32_add bucket_base_index offset_in_bucket ;;
  _ <- assert (0 <=? index) ;;
  Ret (to_usize_w w index).

(** [index_for_or_last], src/lib.rs:388-391 *)
Definition index_for_or_last_w (w : Z) (h : hist) (value : Z) : res Z :=
  oi <- index_for_w w h value ;;
  li <- last_index h ;;
  Ret (match oi with None => li | Some i => Z.min i li end).

(** [mut_at], src/lib.rs:394-397: the index of the slot a reference is handed out for *)
Definition mut_at_w (w : Z) (h : hist) (value : Z) : res (option Z) :=
  oi <- index_for_w w h value ;;
  Ret (match oi with
       | Some i => if i <? distinct_values h then Some i else None
       | None => None end).

(** [value_for], src/lib.rs:1532-1553 *)
Definition value_for_w (w : Z) (h : hist) (index : Z) : res Z :=
  x <- usize_shr_w w index (h_half_mag h) ;;
  let bucket_index := x - 1 in
  i32 <- (if index <=? u32_max then Ret index else Panic) ;;
  hm1 <- u32_sub (h_half_count h) 1 ;;
  sub_bucket_index <- u32_add (Z.land i32 hm1) (h_half_count h) ;;
  if bucket_index <? 0 then
    sbi <- u32_sub sub_bucket_index (h_half_count h) ;;
    value_from_loc h 0 sbi
  else value_from_loc h (as_u8 bucket_index) sub_bucket_index.

(** [resize], src/lib.rs:1646-1670; [None] is [Err(UsizeTypeTooSmall)] *)
Definition resize_w (w : Z) (h : hist) (new_high : Z) : res (option hist) :=
  l2 <- u64_mul 2 (h_low h) ;;
  _ <- assert (l2 <=? new_high) ;;
  buckets_needed <- buckets_to_cover h new_high ;;
  n <- num_bins h buckets_needed ;;
  match to_usize_w w n with
  | None => Ret None
  | Some l =>
      counts <- vec_resize_w w (size_of (h_ctr h)) (h_counts h) l 0 ;;
      Ret (Some (mk_hist (h_ctr h) (h_auto h) new_high (h_low h) (h_sigfig h) buckets_needed
             (h_sub_bucket_count h) (h_half_count h) (h_half_mag h) (h_mask h) (h_lzb h) (h_um h)
             (h_um_mask h) (h_max h) (h_min h) (h_total h) counts))
  end.

(** [new_with_bounds], src/lib.rs:736-822.  [sub_bucket_count_magnitude] is
    [(2 * 10^sigfig as f64).log2().ceil()], an exact small table (1, 5, 8, 11, 15, 18), which is
    [Z.log2_up]. *)
Definition new_with_bounds_w (w : Z) (T : counter) (lo hi sf : Z) : res (result hist creation_error) :=
  if lo <? 1 then Ret (RErr LowIsZero)
  else if u64_max / 2 <? lo then Ret (RErr LowExceedsMax)
  else
    l2 <- u64_mul 2 lo ;;
    if hi <? l2 then Ret (RErr HighLessThanTwiceLow)
    else if 5 <? sf then Ret (RErr SigFigExceedsMax)
    else
      largest <- u32_mul 2 (10 ^ sf) ;;
      let unit_magnitude := log2_floor_f64 lo in
      b <- u64_shl 1 unit_magnitude ;;
      unit_magnitude_mask <- u64_sub b 1 ;;
      let sub_bucket_count_magnitude := Z.log2_up largest in
      sub_bucket_half_count_magnitude <- u8_sub sub_bucket_count_magnitude 1 ;;
      sub_bucket_count <- u32_shl 1 sub_bucket_count_magnitude ;;
      s <- u8_add unit_magnitude sub_bucket_count_magnitude ;;
      if 63 <? s then Ret (RErr CannotRepresentSigFigBeyondLow)
      else
        let sub_bucket_half_count := sub_bucket_count / 2 in
        m <- u64_sub sub_bucket_count 1 ;;
        sub_bucket_mask <- u64_shl m unit_magnitude ;;
        z <- u8_sub 64 unit_magnitude ;;
        lzb <- u8_sub z sub_bucket_count_magnitude ;;
        oh <- resize_w w
               (mk_hist T false hi lo sf 0 sub_bucket_count sub_bucket_half_count
                  sub_bucket_half_count_magnitude sub_bucket_mask lzb unit_magnitude
                  unit_magnitude_mask ORIGINAL_MAX ORIGINAL_MIN 0 []) hi ;;
        Ret (match oh with None => RErr CreateUsizeTypeTooSmall | Some h => ROk h end).

(** [new_with_max], src/lib.rs:712-714 *)
Definition new_with_max_w (w : Z) (T : counter) (hi sf : Z) := new_with_bounds_w w T 1 hi sf.

(** [new], src/lib.rs:697-703 *)
Definition new_w (w : Z) (T : counter) (sf : Z) : res (result hist creation_error) :=
  r <- new_with_bounds_w w T 1 2 sf ;;
  Ret (match r with ROk h => ROk (set_auto h true) | RErr e => RErr e end).

(** [new_from], src/lib.rs:826-839 *)
Definition new_from_w (w : Z) (T : counter) (source : hist) : res hist :=
  r <- new_with_bounds_w w T (h_low source) (h_high source) (h_sigfig source) ;;
  match r with
  | RErr _ => Panic
  | ROk h =>
      let h1 := set_auto h (h_auto source) in
      counts <- vec_resize_w w (size_of T) (h_counts h1) (distinct_values source) 0 ;;
      Ret (set_counts h1 counts)
  end.

(** [record_n_inner], src/lib.rs:885-929 *)
Definition record_n_inner_w (w : Z) (h : hist) (value count : Z) (clamp : bool)
  : res (hist * result unit record_error) :=
  slot <- mut_at_w w h value ;;
  st <- match slot with
        | Some i =>
            c <- expect (vget (h_counts h) i) ;;
            Ret (ROk (value, set_counts h (vset (h_counts h) i (csat_add (h_ctr h) c count))))
        | None =>
            if clamp then
              let value' := if h_high h <? value then h_high h else h_low h in
              slot' <- mut_at_w w h value' ;;
              i <- expect slot' ;;
              c <- expect (vget (h_counts h) i) ;;
              Ret (ROk (value', set_counts h (vset (h_counts h) i (csat_add (h_ctr h) c count))))
            else if negb (h_auto h) then Ret (RErr ValueOutOfRangeResizeDisabled)
            else
              oh <- resize_w w h value ;;
              match oh with
              | None => Ret (RErr RecordResizeFailedUsizeTypeTooSmall)
              | Some h1 =>
                  li <- last_index h1 ;;
                  vl <- value_for_w w h1 li ;;
                  top <- highest_equivalent h1 vl ;;
                  let h2 := set_high h1 top in
                  slot' <- mut_at_w w h2 value ;;
                  i <- expect slot' ;;
                  c <- expect (vget (h_counts h2) i) ;;
                  c' <- expect (cchecked_add (h_ctr h) c count) ;;
                  Ret (ROk (value, set_counts h2 (vset (h_counts h2) i c')))
              end
        end ;;
  match st with
  | RErr e => Ret (h, RErr e)
  | ROk (v, h1) =>
      let h2 := update_min_max h1 v in
      Ret (set_total h2 (sat_add64 (h_total h2) count), ROk tt)
  end.

(** [record_n], [record], [saturating_record_n], [saturating_record], src/lib.rs:849-883 *)
Definition record_n_w (w : Z) (h : hist) (value count : Z) := record_n_inner_w w h value count false.

(** src/lib.rs:849-851 *)
Definition record_w (w : Z) (h : hist) (value : Z) := record_n_w w h value 1.

(** src/lib.rs:881-883 *)
Definition saturating_record_n_w (w : Z) (h : hist) (value count : Z) : res hist :=
  '(h', r) <- record_n_inner_w w h value count true ;;
  match r with ROk _ => Ret h' | RErr _ => Panic end.

(** src/lib.rs:859-861 *)
Definition saturating_record_w (w : Z) (h : hist) (value : Z) : res hist := saturating_record_n_w w h value 1.

(** [record_n_correct], src/lib.rs:951-973 (and [record_correct], 934-936); the loop gets [value / interval] rounds. *)
Fixpoint correct_loop_w (w : Z) (fuel : nat) (h : hist) (missing_value count interval : Z)
  : res (hist * result unit record_error) :=
  if interval <=? missing_value then
    match fuel with
    | O => Panic
    | S f =>
        '(h', r) <- record_n_inner_w w h missing_value count false ;;
        match r with
        | RErr e => Ret (h', RErr e)
        | ROk _ =>
            mv <- u64_sub missing_value interval ;;
            correct_loop_w w f h' mv count interval
        end
    end
  else Ret (h, ROk tt).

(** src/lib.rs:951-972 *)
Definition record_n_correct_w (w : Z) (h : hist) (value count interval : Z)
  : res (hist * result unit record_error) :=
  '(h1, r) <- record_n_w w h value count ;;
  match r with
  | RErr e => Ret (h1, RErr e)
  | ROk _ =>
      if interval =? 0 then Ret (h1, ROk tt)
      else if interval <? value then
        mv <- u64_sub value interval ;;
        correct_loop_w w (Z.to_nat (value / interval)) h1 mv count interval
      else Ret (h1, ROk tt)
  end.

(** src/lib.rs:934-936 *)
Definition record_correct_w (w : Z) (h : hist) (value interval : Z) := record_n_correct_w w h value 1 interval.

(** [RestatState::update_histogram], src/lib.rs:1768-1779 *)
Definition restat_update_w (w : Z) (s : restat_state) (h : hist) : res hist :=
  h1 <- match rs_max s with
        | Some mi => v <- value_for_w w h mi ;; mx <- highest_equivalent h v ;; Ret (update_max h mx)
        | None => Ret h end ;;
  h2 <- match rs_min s with
        | Some mi => mn <- value_for_w w h1 mi ;; Ret (update_min h1 mn)
        | None => Ret h1 end ;;
  Ret (set_total h2 (rs_total s)).

(** [restat(length_to_scan)], src/lib.rs:1716-1732; only ever called with the full length *)
Definition restat_w (w : Z) (h : hist) : res hist :=
  let h1 := reset_min (reset_max h ORIGINAL_MAX) ORIGINAL_MIN in
  restat_update_w w (restat_loop (h_counts h1) 0 restat_new) h1.

(** src/lib.rs:531-540: the re-record loop over [source.counts[i..]] *)
Fixpoint add_rerecord_w (w : Z) (h source : hist) (cs : list Z) (i : Z) : res hist :=
  match cs with
  | [] => Ret h
  | c :: cs' =>
      if c =? 0 then add_rerecord_w w h source cs' (i + 1)
      else
        v <- value_for_w w source i ;;
        '(h', r) <- record_n_w w h v c ;;
        match r with
        | ROk _ => add_rerecord_w w h' source cs' (i + 1)
        | RErr _ => Panic
        end
  end.

(** src/lib.rs:481-541, after the range check *)
Definition add_body_w (w : Z) (h source : hist) : res hist :=
  let matching := (h_bucket_count h =? h_bucket_count source)
                  && (h_sub_bucket_count h =? h_sub_bucket_count source)
                  && (h_um h =? h_um source) in
  if matching && is_empty h then
    (* copy_from_slice panics on different lengths *)
    _ <- assert (distinct_values h =? distinct_values source) ;;
    Ret (set_max (set_min (set_total (set_counts h (h_counts source)) (h_total source))
                    (h_min source)) (h_max source))
  else if matching then
    '(cs, observed) <- add_aligned (h_ctr h) (h_counts h) (h_counts source) 0 ;;
    let h1 := set_counts h cs in
    let h2 := set_total h1 (sat_add64 (h_total h1) observed) in
    mx <- max source ;;
    m2 <- max h2 ;;
    let h3 := if m2 <? mx then update_max h2 mx else h2 in
    mn <- min_nz source ;;
    n3 <- min_nz h3 ;;
    Ret (if mn <? n3 then update_min h3 mn else h3)
  else
    mx <- max source ;;
    oi <- index_for_w w source mx ;;
    other_max_index <- expect oi ;;
    other_count <- expect (count_at_index source other_max_index) ;;
    v <- value_for_w w source other_max_index ;;
    '(h1, r) <- record_n_w w h v other_count ;;
    match r with
    | RErr _ => Panic
    | ROk _ => add_rerecord_w w h1 source (firstn (Z.to_nat other_max_index) (h_counts source)) 0
    end.

(** src/lib.rs:462-480 and 551 *)
Definition add_w (w : Z) (h source : hist) : res (hist * result unit addition_error) :=
  if is_empty source then Ret (h, ROk tt)
  else
    li <- last_index h ;;
    vl <- value_for_w w h li ;;
    top <- highest_equivalent h vl ;;
    smax <- max source ;;
    if top <? smax then
      if negb (h_auto h) then Ret (h, RErr OtherAddendValueExceedsRange)
      else
        oh <- resize_w w h smax ;;
        match oh with
        | None => Ret (h, RErr AddResizeFailedUsizeTypeTooSmall)
        | Some h1 =>
            h2 <- add_body_w w h1 source ;;
            Ret (h2, ROk tt)
        end
    else
      h2 <- add_body_w w h source ;;
      Ret (h2, ROk tt).

(** ** Subtraction, src/lib.rs:587-653; the loop is lines 610-645 *)
Fixpoint sub_loop_w (w : Z) (sub : hist) (cs : list Z) (i : Z) (h : hist) (needs_restat : bool)
    (old_min_highest_equiv old_max_lowest_equiv : Z)
  : res (hist * result bool subtraction_error) :=
  match cs with
  | [] => Ret (h, ROk needs_restat)
  | other_count :: cs' =>
      if other_count =? 0 then
        sub_loop_w w sub cs' (i + 1) h needs_restat old_min_highest_equiv old_max_lowest_equiv
      else
        other_value <- value_for_w w sub i ;;
        slot <- mut_at_w w h other_value ;;
        match slot with
        | None => Panic
        | Some j =>
            c <- expect (vget (h_counts h) j) ;;
            match cchecked_sub c other_count with
            | None => Ret (h, RErr SubtrahendCountExceedsMinuendCount)
            | Some c' =>
                let h1 := set_counts h (vset (h_counts h) j c') in
                let needs := needs_restat || (other_value <=? old_min_highest_equiv)
                             || (old_max_lowest_equiv <=? other_value) in
                h2 <- (if needs then Ret h1
                       else
                         t <- expect (cchecked_sub (h_total h1) other_count) ;;
                         Ret (set_total h1 t)) ;;
                sub_loop_w w sub cs' (i + 1) h2 needs old_min_highest_equiv old_max_lowest_equiv
            end
        end
  end.

(** src/lib.rs:587-608 and 647-653 *)
Definition subtract_w (w : Z) (h sub : hist) : res (hist * result unit subtraction_error) :=
  if is_empty sub then Ret (h, ROk tt)
  else
    li <- last_index h ;;
    vl <- value_for_w w h li ;;
    top <- highest_equivalent h vl ;;
    smax <- max sub ;;
    smax_h <- highest_equivalent h smax ;;
    if top <? smax_h then Ret (h, RErr SubtrahendValueExceedsMinuendRange)
    else
      mn <- min h ;;
      old_min <- highest_equivalent h mn ;;
      mx <- max h ;;
      old_max <- lowest_equivalent h mx ;;
      '(h1, r) <- sub_loop_w w sub (h_counts sub) 0 h (h_total h =? u64_max) old_min old_max ;;
      match r with
      | RErr e => Ret (h1, RErr e)
      | ROk true => h2 <- restat_w w h1 ;; Ret (h2, ROk tt)
      | ROk false => Ret (h1, ROk tt)
      end.

(** ** Copying, src/lib.rs:438-441 *)
Definition set_to_w (w : Z) (h source : hist) : res (hist * result unit addition_error) :=
  add_w w (reset h) source.

(** ** Counting queries, src/lib.rs:1435-1455 *)
Definition count_at_w (w : Z) (h : hist) (value : Z) : res Z :=
  i <- index_for_or_last_w w h value ;;
  expect (count_at_index h i).

(** src/lib.rs:1435-1442: the index range [low_index .. high_index + 1] of the counts, summed with saturation; every
    index is [<= last_index] so the inner [expect] is the slice being inside the array *)
Definition count_between_w (w : Z) (h : hist) (lo hi : Z) : res Z :=
  low_index <- index_for_or_last_w w h lo ;;
  high_index <- index_for_or_last_w w h hi ;;
  hi1 <- usize_add_w w high_index 1 ;;
  _ <- assert (hi1 <=? distinct_values h) ;;
  Ret (fold_sat (firstn (Z.to_nat (hi1 - low_index)) (skipn (Z.to_nat low_index) (h_counts h))) 0).

(** ** src/iterators and the queries that use them *)

(** [HistogramIterator::new], src/iterators/mod.rs:148-161 *)
Definition iter_new_w {P} (w : Z) (h : hist) (p : P) : res (iter P) :=
  mx <- max h ;;
  oi <- index_for_w w h mx ;;
  mi <- expect oi ;;
  Ret (mk_iter 0 0 0 0 None mi true false p).

(** one round of the loop in [next], src/iterators/mod.rs:182-252 *)
Definition iter_round_w {P} (w : Z) (pk : picker P) (h : hist) (st : iter P) : res (iter P * outcome) :=
  if it_index st =? distinct_values h then Ret (it_end st (it_picker st), End)
  else
    '(go, st1) <-
      (if opt_ge (it_last st) (it_maxi st) then
         '(m, p) <- pk_more pk h (it_picker st) (it_index st) ;;
         Ret (m, if m
                 then mk_iter (it_total st) (it_since st) (it_count st) (it_index st) (it_last st)
                        (it_maxi st) (it_fresh st) (it_ended st) p
                 else it_end st p)
       else
         _ <- assert (it_index st <? distinct_values h) ;;
         if it_fresh st then
           c <- expect (count_at_index h (it_index st)) ;;
           Ret (true, mk_iter (sat_add64 (it_total st) c) (sat_add64 (it_since st) c) c (it_index st)
                        (it_last st) (it_maxi st) false (it_ended st) (it_picker st))
         else Ret (true, st)) ;;
    if negb go then Ret (st1, End)
    else
      '(md, p) <- pk_pick pk h (it_picker st1) (it_index st1) (it_total st1) (it_count st1) ;;
      match md with
      | Some md =>
          let quantile := f64_div (f64_of_u64 (it_total st1)) (f64_of_u64 (len h)) in
          v <- match md_value md with
               | Some v => Ret v
               | None => v0 <- value_for_w w h (it_index st1) ;; highest_equivalent h v0
               end ;;
          c <- expect (count_at_index h (it_index st1)) ;;
          Ret (mk_iter (it_total st1) 0 (it_count st1) (it_index st1) (Some (it_index st1)) (it_maxi st1)
                 (it_fresh st1) (it_ended st1) p,
               Yield (mk_item v quantile (match md_quantile md with Some q => q | None => quantile end) c
                        (it_since st1)))
      | None =>
          i <- usize_add_w w (it_index st1) 1 ;;
          Ret (mk_iter (it_total st1) (it_since st1) (it_count st1) i (it_last st1) (it_maxi st1) true
                 (it_ended st1) p, Again)
      end.

(** [next], src/iterators/mod.rs:170-255.  Every round that goes round again advances the index, so
    [distinct_values - index + 1] rounds are enough. *)
Fixpoint iter_loop_w {P} (w : Z) (fuel : nat) (pk : picker P) (h : hist) (st : iter P) : res (iter P * option item) :=
  if it_ended st then Ret (st, None)
  else
    match fuel with
    | O => Panic
    | S f =>
        '(st', o) <- iter_round_w w pk h st ;;
        match o with
        | End => Ret (st', None)
        | Yield x => Ret (st', Some x)
        | Again => iter_loop_w w f pk h st'
        end
    end.

(** src/iterators/mod.rs:170-255 *)
Definition iter_next_w {P} (w : Z) (pk : picker P) (h : hist) (st : iter P) : res (iter P * option item) :=
  iter_loop_w w (S (Z.to_nat (distinct_values h - it_index st))) pk h st.

(** src/iterators/recorded.rs:12-14, src/lib.rs:1183-1185 *)
Definition iter_recorded_w (w : Z) (h : hist) : res (iter (option Z)) := iter_new_w w h None.

(** src/iterators/all.rs:12-14, src/lib.rs:1242-1244 *)
Definition iter_all_w (w : Z) (h : hist) : res (iter (option Z)) := iter_new_w w h None.

(** src/iterators/linear.rs:40-68 *)
Definition pk_linear_w (w : Z) : picker linear :=
  mk_picker
    (fun h p index _ _ =>
       val <- value_for_w w h index ;;
       last <- last_index h ;;
       if (ln_low p <=? val) || (index =? last) then
         hi <- u64_add (ln_high p) (ln_step p) ;;
         lo <- lowest_equivalent h hi ;;
         Ret (Some (mk_md None (Some (ln_high p))), mk_linear (ln_step p) hi lo)
       else Ret (None, p))
    (fun h p index_to_pick =>
       next_index <- usize_add_w w index_to_pick 1 ;;
       v <- value_for_w w h next_index ;;
       Ret (ln_high p <? v, p)).

(** src/iterators/linear.rs:17-37, src/lib.rs:1107-1109 *)
Definition iter_linear_w (w : Z) (h : hist) (step : Z) : res (iter linear) :=
  _ <- assert (0 <? step) ;;
  s <- u64_sub step 1 ;;
  lo <- lowest_equivalent h s ;;
  iter_new_w w h (mk_linear step s lo).

(** src/iterators/log.rs:45-75 *)
Definition pk_log_w (w : Z) : picker logit :=
  mk_picker
    (fun h p index _ _ =>
       val <- value_for_w w h index ;;
       last <- last_index h ;;
       if (lg_low p <=? val) || (index =? last) then
         let nx := f64_mul (lg_next p) (lg_base p) in
         hi <- u64_sub (f64_to_u64 nx) 1 ;;
         lo <- lowest_equivalent h hi ;;
         Ret (Some (mk_md None (Some (lg_high p))), mk_logit nx (lg_base p) lo hi)
       else Ret (None, p))
    (fun h p index_to_pick =>
       a <- lowest_equivalent h (f64_to_u64 (lg_next p)) ;;
       v <- value_for_w w h index_to_pick ;;
       Ret (a <? v, p)).

(** src/iterators/log.rs:20-42, src/lib.rs:1145-1147 *)
Definition iter_log_w (w : Z) (h : hist) (start : Z) (base : f64) : res (iter logit) :=
  _ <- assert (0 <? start) ;;
  _ <- assert (f64_lt f64_one base) ;;
  s <- u64_sub start 1 ;;
  lo <- lowest_equivalent h s ;;
  iter_new_w w h (mk_logit (f64_of_u64 start) base lo s).

(** src/iterators/quantile.rs:15-33, src/lib.rs:1044-1050 *)
Definition iter_quantiles_w (w : Z) (h : hist) (ticks : Z) : res (iter quantit) :=
  _ <- assert (0 <? ticks) ;;
  iter_new_w w h (mk_quantit ticks f64_zero false).

(** a [for] loop or [fold] over an iterator, as at src/lib.rs:452, 575, 1298, 1313: collect up to [fuel]
    items, [Panic] if there are more *)
Fixpoint iter_collect_w {P} (w : Z) (fuel : nat) (pk : picker P) (h : hist) (st : iter P) : res (list item) :=
  match fuel with
  | O => Panic
  | S f =>
      '(st', o) <- iter_next_w w pk h st ;;
      match o with
      | None => Ret []
      | Some x => xs <- iter_collect_w w f pk h st' ;; Ret (x :: xs)
      end
  end.

(** all items of [iter_recorded], src/lib.rs:1183-1185; there is at most one per bin *)
Definition recorded_items_w (w : Z) (h : hist) : res (list item) :=
  it <- iter_recorded_w w h ;;
  iter_collect_w w (S (Z.to_nat (distinct_values h))) pk_recorded h it.

(** [record_n_correct] of every item, stopping at the first error, src/lib.rs:578-580 *)
Fixpoint correct_items_w (w : Z) (h : hist) (xs : list item) (interval : Z) : res (hist * result unit record_error) :=
  match xs with
  | [] => Ret (h, ROk tt)
  | x :: xs' =>
      '(h', r) <- record_n_correct_w w h (iv_value x) (iv_count x) interval ;;
      match r with
      | RErr e => Ret (h', RErr e)
      | ROk _ => correct_items_w w h' xs' interval
      end
  end.

(** [add_correct], src/lib.rs:571-582.  The iterator only borrows the source, so collecting its items
    first is the same as interleaving. *)
Definition add_correct_w (w : Z) (h source : hist) (interval : Z) : res (hist * result unit record_error) :=
  xs <- recorded_items_w w source ;;
  correct_items_w w h xs interval.

(** [set_to_corrected], src/lib.rs:446-453 *)
Definition set_to_corrected_w (w : Z) (h source : hist) (interval : Z) : res (hist * result unit record_error) :=
  add_correct_w w (reset h) source interval.

(** [clone_correct], src/lib.rs:427-434 *)
Definition clone_correct_w (w : Z) (h : hist) (interval : Z) : res hist :=
  h0 <- new_from_w w (h_ctr h) h ;;
  xs <- recorded_items_w w h ;;
  '(h', r) <- correct_items_w w h0 xs interval ;;
  match r with ROk _ => Ret h' | RErr _ => Panic end.

(** src/lib.rs:1293-1304 *)
Definition mean_w (w : Z) (h : hist) : res f64 :=
  if h_total h =? 0 then Ret f64_zero
  else xs <- recorded_items_w w h ;; mean_fold h xs f64_zero.

(** src/lib.rs:1307-1319 *)
Definition stdev_w (w : Z) (h : hist) : res f64 :=
  if h_total h =? 0 then Ret f64_zero
  else
    mn <- mean_w w h ;;
    xs <- recorded_items_w w h ;;
    g <- stdev_fold h mn xs f64_zero ;;
    Ret (f64_sqrt (f64_div g (f64_of_u64 (h_total h)))).

(** [value_at_quantile], src/lib.rs:1353-1368: the scan *)
Fixpoint vaq_scan_w (w : Z) (h : hist) (cs : list Z) (i total target : Z) (is_zero : bool) : res Z :=
  match cs with
  | [] => Ret 0
  | c :: cs' =>
      t <- u64_add total c ;;
      if target <=? t then
        v <- value_for_w w h i ;;
        if is_zero then lowest_equivalent h v else highest_equivalent h v
      else vaq_scan_w w h cs' (i + 1) t target is_zero
  end.

(** src/lib.rs:1340-1369 *)
Definition value_at_quantile_w (w : Z) (h : hist) (quantile : f64) : res Z :=
  let q := if f64_lt f64_one quantile then f64_one else quantile in
  let fractional_count := f64_mul q (f64_of_u64 (h_total h)) in
  let c := f64_to_u64 (f64_ceil fractional_count) in
  let count_at_quantile := if c =? 0 then 1 else c in
  vaq_scan_w w h (h_counts h) 0 0 count_at_quantile (f64_eq q f64_zero).

(** [value_at_percentile], src/lib.rs:1325-1327 *)
Definition value_at_percentile_w (w : Z) (h : hist) (percentile : f64) : res Z :=
  value_at_quantile_w w h (f64_div percentile (f64_of_u64 100)).

(** [quantile_below], src/lib.rs:1391-1420 *)
Definition quantile_below_w (w : Z) (h : hist) (value : Z) : res f64 :=
  if h_total h =? 0 then Ret f64_one
  else
    target_index <- index_for_or_last_w w h value ;;
    end_ <- usize_add_w w target_index 1 ;;
    _ <- assert (end_ <=? distinct_values h) ;;
    let lower := target_index <? distinct_values h / 2 in
    let slice := if lower then firstn (Z.to_nat end_) (h_counts h) else skipn (Z.to_nat end_) (h_counts h) in
    s <- (if h_total h <? u64_max then sum_u64 slice 0 else Ret (fold_sat slice 0)) ;;
    t <- (if lower then Ret s else u64_sub (h_total h) s) ;;
    Ret (f64_div (f64_of_u64 t) (f64_of_u64 (h_total h))).

(** [percentile_below], src/lib.rs:1375-1377 *)
Definition percentile_below_w (w : Z) (h : hist) (value : Z) : res f64 :=
  q <- quantile_below_w w h value ;; Ret (f64_mul q (f64_of_u64 100)).

(** ** src/serialization *)

(** [counts_array_max_encoded_size], src/serialization/v2_serializer.rs:124-130 *)
Definition counts_array_max_encoded_size_w (w : Z) (length : Z) : option Z :=
  if length * 9 <=? usize_max_w w then Some (length * 9) else None.

(** [max_encoded_size], src/serialization/v2_serializer.rs:117-121 *)
Definition max_encoded_size_w (w : Z) (h : hist) : res (option Z) :=
  m <- max h ;;
  oi <- index_for_w w h m ;;
  match oi with
  | None => Ret None
  | Some i =>
      i1 <- usize_add_w w i 1 ;;
      Ret (match counts_array_max_encoded_size_w w i1 with
           | None => None
           | Some x => if x + V2_HEADER_SIZE <=? usize_max_w w then Some (x + V2_HEADER_SIZE) else None
           end)
  end.

(** the inner loop of [encode_counts], src/serialization/v2_serializer.rs:160-165 *)
Fixpoint zeros_loop_w (w : Z) (fuel : nat) (h : hist) (index index_limit zero_count : Z) : res (Z * Z) :=
  match fuel with
  | O => Panic
  | S f =>
      if index <=? index_limit then
        c <- expect (vget (h_counts h) index) ;;
        if c =? 0 then
          z <- in_range i64_min i64_max (zero_count + 1) ;;
          i <- usize_add_w w index 1 ;;
          zeros_loop_w w f h i index_limit z
        else Ret (index, zero_count)
      else Ret (index, zero_count)
  end.

(** the loop of [encode_counts], src/serialization/v2_serializer.rs:147-189 *)
Fixpoint encode_loop_w (w : Z) (fuel : nat) (h : hist) (buf : list Z) (base index index_limit bytes_written : Z)
  : res (list Z * result Z ser_error) :=
  match fuel with
  | O => Panic
  | S f =>
      if index <=? index_limit then
        count <- expect (vget (h_counts h) index) ;;
        index1 <- usize_add_w w index 1 ;;
        '(index2, zero_count) <- (if count =? 0 then zeros_loop_w w f h index1 index_limit 1 else Ret (index1, 0)) ;;
        oc <- (if 1 <? zero_count then
                 n <- in_range i64_min i64_max (- zero_count) ;; Ret (ROk n)
               else Ret (if count <=? i64_max then ROk count else RErr CountNotSerializable)) ;;
        match oc with
        | RErr e => Ret (buf, RErr e)
        | ROk count_or_zeros =>
            _ <- assert (base + bytes_written <=? zlen buf) ;;
            '(buf', n) <- varint_write (zig_zag_encode count_or_zeros) buf (base + bytes_written) ;;
            b <- usize_add_w w bytes_written n ;;
            encode_loop_w w f h buf' base index2 index_limit b
        end
      else Ret (buf, ROk bytes_written)
  end.

(** [encode_counts], src/serialization/v2_serializer.rs:135-190, into [buf] from [base] on *)
Definition encode_counts_w (w : Z) (h : hist) (buf : list Z) (base : Z) : res (list Z * result Z ser_error) :=
  m <- max h ;;
  oi <- index_for_w w h m ;;
  index_limit <- expect oi ;;
  _ <- assert (index_limit <=? zlen (h_counts h)) ;;
  _ <- assert (base <=? zlen buf) ;;
  encode_loop_w w (Z.to_nat (index_limit + 2)) h buf base 0 index_limit 0.

(** [V2Serializer::serialize], src/serialization/v2_serializer.rs:70-114.  The result is the slice
    handed to [write_all]; its length is the value returned when the writer accepts it.  [junk i] is
    what the memory at position [i] of the reserved buffer holds when [set_len] exposes it. *)
Definition v2_serialize_w (w : Z) (junk : Z -> Z) (h : hist) : res (result (list Z) ser_error) :=
  om <- max_encoded_size_w w h ;;
  match om with
  | None => Ret (RErr SerUsizeTypeTooSmall)
  | Some max_size =>
      (* self.buf.reserve(max_size) *)
      _ <- assert (vec_fits_w w 1 max_size) ;;
      let hd := v2_header h in
      _ <- assert (V2_HEADER_SIZE =? zlen hd) ;;
      let buf := hd ++ map (fun k => junk (V2_HEADER_SIZE + Z.of_nat k)) (seq 0 (Z.to_nat (max_size - V2_HEADER_SIZE))) in
      '(buf1, r) <- encode_counts_w w h buf V2_HEADER_SIZE ;;
      match r with
      | RErr e => Ret (RErr e)
      | ROk counts_len =>
          total_len <- usize_add_w w V2_HEADER_SIZE counts_len ;;
          (* (&mut self.buf[4..8]).write_u32(counts_len as u32) *)
          let buf2 := firstn 4 buf1 ++ be_write 4 (as_u32 counts_len) ++ skipn 8 buf1 in
          _ <- assert (total_len <=? zlen buf2) ;;
          Ret (ROk (firstn (Z.to_nat total_len) buf2))
      end
  end.

(** [V2DeflateSerializer::serialize], src/serialization/v2_deflate_serializer.rs:78-132 *)
Definition v2_deflate_serialize_w (w : Z) (cd : codec) (junk : Z -> Z) (h : hist) : res (result (list Z) ser_error) :=
  r <- v2_serialize_w w junk h ;;
  match r with
  | RErr e => Ret (RErr e)
  | ROk uncompressed =>
      let compressed_buf := be_write 4 V2_COMPRESSED_COOKIE ++ be_write 4 0 ++ deflate cd uncompressed in
      let total_compressed_len := zlen compressed_buf in
      l <- u32_sub (as_u32 total_compressed_len) 8 ;;
      Ret (ROk (firstn 4 compressed_buf ++ be_write 4 l ++ skipn 8 compressed_buf))
  end.

(** [DecodeLoopState::on_decoded_num], src/serialization/deserializer.rs:338-373.  Negating [i64::MIN]
    overflows: a panic if the build checks for overflow ([checks]), otherwise [i64::MIN] again. *)
Definition on_decoded_num_w (w : Z) (checks : bool) (dest_index count_or_zeros : Z) (rs : restat_state) (h : hist)
  : res (result (Z * restat_state * hist) deser_error) :=
  if count_or_zeros <? 0 then
    zero_count <- (if checks then in_range i64_min i64_max (- count_or_zeros) else Ret (wrap_i64 (- count_or_zeros))) ;;
    match to_usize_w w zero_count with
    | None => Ret (RErr DeUsizeTypeTooSmall)
    | Some zero_count =>
        if dest_index + zero_count <=? usize_max_w w then Ret (ROk (dest_index + zero_count, rs, h))
        else Ret (RErr DeUsizeTypeTooSmall)
    end
  else if cmax (h_ctr h) <? count_or_zeros then Ret (RErr UnsuitableCounterType)
  else
    let next rs' h' :=
      if dest_index + 1 <=? usize_max_w w then Ret (ROk (dest_index + 1, rs', h')) else Ret (RErr DeUsizeTypeTooSmall) in
    if 0 <? count_or_zeros then
      if dest_index <? zlen (h_counts h)
      then next (on_nonzero_count rs dest_index count_or_zeros) (set_counts h (vset (h_counts h) dest_index count_or_zeros))
      else Ret (RErr EncodedArrayTooLong)
    else next rs h.

(** the fast loop, src/serialization/deserializer.rs:174-186 *)
Fixpoint decode_fast_w (w : Z) (checks : bool) (fuel : nat) (payload : list Z) (payload_index dest_index : Z) (rs : restat_state) (h : hist)
  : res (result (Z * Z * restat_state * hist) deser_error) :=
  match fuel with
  | O => Panic
  | S f =>
      if payload_index <? Z.max 0 (zlen payload - 9) then
        '(zz_num, bytes_read) <- varint_read_slice (firstn 9 (skipn (Z.to_nat payload_index) payload)) ;;
        i <- usize_add_w w payload_index bytes_read ;;
        r <- on_decoded_num_w w checks dest_index (zig_zag_decode zz_num) rs h ;;
        match r with
        | RErr e => Ret (RErr e)
        | ROk (d, rs', h') => decode_fast_w w checks f payload i d rs' h'
        end
      else Ret (ROk (payload_index, dest_index, rs, h))
  end.

(** the loop over the leftovers, src/serialization/deserializer.rs:190-195 *)
Fixpoint decode_slow_w (w : Z) (checks : bool) (fuel : nat) (cursor : list Z) (dest_index : Z) (rs : restat_state) (h : hist)
  : res (result (Z * restat_state * hist) deser_error) :=
  match fuel with
  | O => Panic
  | S f =>
      match cursor with
      | [] => Ret (ROk (dest_index, rs, h))
      | _ =>
          match varint_read cursor with
          | None => Ret (RErr DeIoError)
          | Some (n, cursor') =>
              r <- on_decoded_num_w w checks dest_index (zig_zag_decode n) rs h ;;
              match r with
              | RErr e => Ret (RErr e)
              | ROk (d, rs', h') => decode_slow_w w checks f cursor' d rs' h'
              end
          end
      end
  end.

(** decoding of a payload, src/serialization/deserializer.rs:170-199 *)
Definition decode_payload_w (w : Z) (checks : bool) (payload : list Z) (h : hist) : res (result hist deser_error) :=
  r <- decode_fast_w w checks (S (length payload)) payload 0 0 restat_new h ;;
  match r with
  | RErr e => Ret (RErr e)
  | ROk (i, d, rs, h1) =>
      _ <- assert (i <=? zlen payload) ;;
      let leftover := skipn (Z.to_nat i) payload in
      r2 <- decode_slow_w w checks (S (length leftover)) leftover d rs h1 ;;
      match r2 with
      | RErr e => Ret (RErr e)
      | ROk (_, rs2, h2) => h3 <- restat_update_w w rs2 h2 ;; Ret (ROk h3)
      end
  end.

(** [Deserializer::deser_v2], src/serialization/deserializer.rs:137-200.  [payload_buf] is what earlier
    calls left in the buffer of the same object.  [int_double_ratio != 1.0] is a comparison with the
    only f64 equal to 1.0, so the bits are compared. *)
Definition deser_v2_w (w : Z) (checks : bool) (payload_buf : list Z) (T : counter) (rd : list Z) : res (result (hist * list Z) deser_error) :=
  do '(payload_len, rd1) <- read_be 4 rd else DeIoError ;;
  match to_usize_w w payload_len with None => Ret (RErr DeUsizeTypeTooSmall) | Some payload_len =>
  do '(normalizing_offset, rd2) <- read_be 4 rd1 else DeIoError ;;
  if negb (normalizing_offset =? 0) then Ret (RErr UnsupportedFeature)
  else
  do '(num_digits, rd3) <- read_be 4 rd2 else DeIoError ;;
  if u8_max <? num_digits then Ret (RErr InvalidParameters)
  else
  do '(low, rd4) <- read_be 8 rd3 else DeIoError ;;
  do '(high, rd5) <- read_be 8 rd4 else DeIoError ;;
  do '(int_double_ratio, rd6) <- read_be 8 rd5 else DeIoError ;;
  if negb (int_double_ratio =? 4607182418800017408) then Ret (RErr UnsupportedFeature)
  else
    c <- new_with_bounds_w w T low high num_digits ;;
    match c with
    | RErr _ => Ret (RErr InvalidParameters)
    | ROk h =>
        buf <- (if zlen payload_buf <? payload_len then vec_resize_w w 1 payload_buf payload_len 0 else Ret payload_buf) ;;
        let payload_slice := firstn (Z.to_nat payload_len) buf in
        do '(bytes, rd7) <- read_exact (zlen payload_slice) rd6 else DeIoError ;;
        r <- decode_payload_w w checks bytes h ;;
        match r with
        | RErr e => Ret (RErr e)
        | ROk h' => Ret (ROk (h', rd7))
        end
    end
  end.

(** [Deserializer::deser_v2_compressed], src/serialization/deserializer.rs:117-134.  A reader that ends
    within the payload makes the decoder see the shorter input. *)
Definition deser_v2_compressed_w (w : Z) (checks : bool) (cd : codec) (payload_buf : list Z) (T : counter) (rd : list Z)
  : res (result (hist * list Z) deser_error) :=
  do '(payload_len, rd1) <- read_be 4 rd else DeIoError ;;
  match to_usize_w w payload_len with None => Ret (RErr DeUsizeTypeTooSmall) | Some payload_len =>
  let taken := firstn (Z.to_nat payload_len) rd1 in
  do '(inner_cookie, drd) <- read_be 4 (inflate cd taken) else DeIoError ;;
  if negb (inner_cookie =? V2_COOKIE) then Ret (RErr InvalidCookie)
  else
    r <- deser_v2_w w checks payload_buf T drd ;;
    Ret (match r with
         | RErr e => RErr e
         | ROk (h, _) => ROk (h, skipn (Z.to_nat (inflate_used cd taken)) rd1)
         end)
  end.

(** [Deserializer::deserialize], src/serialization/deserializer.rs:104-115 *)
Definition deserialize_w (w : Z) (checks : bool) (cd : codec) (payload_buf : list Z) (T : counter) (rd : list Z)
  : res (result (hist * list Z) deser_error) :=
  do '(cookie, rd1) <- read_be 4 rd else DeIoError ;;
  if cookie =? V2_COOKIE then deser_v2_w w checks payload_buf T rd1
  else if cookie =? V2_COMPRESSED_COOKIE then deser_v2_compressed_w w checks cd payload_buf T rd1
  else Ret (RErr InvalidCookie).

