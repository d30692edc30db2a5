(** * Model of the iterators, src/iterators *)
From Coq Require Import ZArith Bool.
From Flocq Require Import IEEE754.BinarySingleNaN.
From Verif Require Import Machine HistModel FloatModel.

(** [PickMetadata], src/iterators/mod.rs:20-38 *)
Record pick_md := mk_md { md_quantile : option f64; md_value : option Z }.

(** [IterationValue], src/iterators/mod.rs:86-145 *)
Record item := mk_item {
  iv_value : Z;        (* value_iterated_to *)
  iv_quantile : f64;   (* quantile *)
  iv_qto : f64;        (* quantile_iterated_to *)
  iv_count : Z;        (* count_at_value *)
  iv_since : Z         (* count_since_last_iteration *)
}.
(** src/iterators/mod.rs:121-123 *)
Definition iv_percentile (x : item) : f64 := f64_mul (iv_quantile x) (f64_of_u64 100).

(** [PickyIterator], src/iterators/mod.rs:41-62: the picker may panic, and [&mut self] is its state
    threaded through *)
Record picker (P : Type) := mk_picker {
  pk_pick : hist -> P -> Z -> Z -> Z -> res (option pick_md * P);
  pk_more : hist -> P -> Z -> res (bool * P)
}.
Arguments mk_picker {P}. Arguments pk_pick {P}. Arguments pk_more {P}.

(** [HistogramIterator], src/iterators/mod.rs:71-82, without the reference to the histogram, which is
    an argument of the functions below *)
Record iter (P : Type) := mk_iter {
  it_total : Z;          (* total_count_to_index *)
  it_since : Z;          (* count_since_last_iteration *)
  it_count : Z;          (* count_at_index *)
  it_index : Z;          (* current_index *)
  it_last : option Z;    (* last_picked_index *)
  it_maxi : Z;           (* max_value_index *)
  it_fresh : bool;
  it_ended : bool;
  it_picker : P
}.
Arguments mk_iter {P}. Arguments it_total {P}. Arguments it_since {P}. Arguments it_count {P}.
Arguments it_index {P}. Arguments it_last {P}. Arguments it_maxi {P}. Arguments it_fresh {P}.
Arguments it_ended {P}. Arguments it_picker {P}.

(** [HistogramIterator::new], src/iterators/mod.rs:148-161 *)
Definition iter_new {P} (h : hist) (p : P) : res (iter P) :=
  mx <- max h ;;
  oi <- index_for h mx ;;
  mi <- expect oi ;;
  Ret (mk_iter 0 0 0 0 None mi true false p).

(** [Option<usize> >= Option<usize>] with [None] smallest, as used in src/iterators/mod.rs:189 *)
Definition opt_ge (a : option Z) (b : Z) : bool :=
  match a with None => false | Some x => b <=? x end.

(** what one round of the [while] loop at src/iterators/mod.rs:170-246 does: return [None], return [Some],
    or go round again *)
Inductive outcome := End | Yield (x : item) | Again.

(** set the [ended] flag, src/iterators/mod.rs:184 and 192 *)
Definition it_end {P} (st : iter P) (p : P) : iter P :=
  mk_iter (it_total st) (it_since st) (it_count st) (it_index st) (it_last st) (it_maxi st) (it_fresh st) true p.

(** one round of the loop in [next], src/iterators/mod.rs:182-252 *)
Definition iter_round {P} (pk : picker P) (h : hist) (st : iter P) : res (iter P * outcome) :=
  if it_index st =? distinct_values h then Ret (it_end st (it_picker st), End)
  else
    '(go, st1) <-
      (if opt_ge (it_last st) (it_maxi st) then
         '(m, p) <- pk_more pk h (it_picker st) (it_index st) ;;
         Ret (m, if m
                 then mk_iter (it_total st) (it_since st) (it_count st) (it_index st) (it_last st)
                        (it_maxi st) (it_fresh st) (it_ended st) p
                 else it_end st p)
       else
         _ <- assert (it_index st <? distinct_values h) ;;
         if it_fresh st then
           c <- expect (count_at_index h (it_index st)) ;;
           Ret (true, mk_iter (sat_add64 (it_total st) c) (sat_add64 (it_since st) c) c (it_index st)
                        (it_last st) (it_maxi st) false (it_ended st) (it_picker st))
         else Ret (true, st)) ;;
    if negb go then Ret (st1, End)
    else
      '(md, p) <- pk_pick pk h (it_picker st1) (it_index st1) (it_total st1) (it_count st1) ;;
      match md with
      | Some md =>
          let quantile := f64_div (f64_of_u64 (it_total st1)) (f64_of_u64 (len h)) in
          v <- match md_value md with
               | Some v => Ret v
               | None => v0 <- value_for h (it_index st1) ;; highest_equivalent h v0
               end ;;
          c <- expect (count_at_index h (it_index st1)) ;;
          Ret (mk_iter (it_total st1) 0 (it_count st1) (it_index st1) (Some (it_index st1)) (it_maxi st1)
                 (it_fresh st1) (it_ended st1) p,
               Yield (mk_item v quantile (match md_quantile md with Some q => q | None => quantile end) c
                        (it_since st1)))
      | None =>
          i <- usize_add (it_index st1) 1 ;;
          Ret (mk_iter (it_total st1) (it_since st1) (it_count st1) i (it_last st1) (it_maxi st1) true
                 (it_ended st1) p, Again)
      end.

(** [next], src/iterators/mod.rs:170-255.  Every round that goes round again advances the index, so
    [distinct_values - index + 1] rounds are enough. *)
Fixpoint iter_loop {P} (fuel : nat) (pk : picker P) (h : hist) (st : iter P) : res (iter P * option item) :=
  if it_ended st then Ret (st, None)
  else
    match fuel with
    | O => Panic
    | S f =>
        '(st', o) <- iter_round pk h st ;;
        match o with
        | End => Ret (st', None)
        | Yield x => Ret (st', Some x)
        | Again => iter_loop f pk h st'
        end
    end.
(** src/iterators/mod.rs:170-255 *)
Definition iter_next {P} (pk : picker P) (h : hist) (st : iter P) : res (iter P * option item) :=
  iter_loop (S (Z.to_nat (distinct_values h - it_index st))) pk h st.

(** ** Pickers *)

(** src/iterators/recorded.rs:17-36; the state is [visited] *)
Definition pk_recorded : picker (option Z) :=
  mk_picker
    (fun _ visited index _ count_at_index =>
       Ret (if negb (count_at_index =? 0)
               && (match visited with None => true | Some i => negb (i =? index) end)
            then (Some (mk_md None None), Some index) else (None, visited)))
    (fun _ visited _ => Ret (false, visited)).
(** src/iterators/recorded.rs:12-14, src/lib.rs:1183-1185 *)
Definition iter_recorded (h : hist) : res (iter (option Z)) := iter_new h None.

(** src/iterators/all.rs:17-31 *)
Definition pk_all : picker (option Z) :=
  mk_picker
    (fun _ visited index _ _ =>
       Ret (if match visited with None => true | Some i => negb (i =? index) end
            then (Some (mk_md None None), Some index) else (None, visited)))
    (fun _ visited _ => Ret (true, visited)).
(** src/iterators/all.rs:12-14, src/lib.rs:1242-1244 *)
Definition iter_all (h : hist) : res (iter (option Z)) := iter_new h None.

(** [linear::Iter], src/iterators/linear.rs:6-13 *)
Record linear := mk_linear { ln_step : Z; ln_high : Z; ln_low : Z }.
(** src/iterators/linear.rs:40-68 *)
Definition pk_linear : picker linear :=
  mk_picker
    (fun h p index _ _ =>
       val <- value_for h index ;;
       last <- last_index h ;;
       if (ln_low p <=? val) || (index =? last) then
         hi <- u64_add (ln_high p) (ln_step p) ;;
         lo <- lowest_equivalent h hi ;;
         Ret (Some (mk_md None (Some (ln_high p))), mk_linear (ln_step p) hi lo)
       else Ret (None, p))
    (fun h p index_to_pick =>
       next_index <- usize_add index_to_pick 1 ;;
       v <- value_for h next_index ;;
       Ret (ln_high p <? v, p)).
(** src/iterators/linear.rs:17-37, src/lib.rs:1107-1109 *)
Definition iter_linear (h : hist) (step : Z) : res (iter linear) :=
  _ <- assert (0 <? step) ;;
  s <- u64_sub step 1 ;;
  lo <- lowest_equivalent h s ;;
  iter_new h (mk_linear step s lo).

(** [log::Iter], src/iterators/log.rs:6-16 *)
Record logit := mk_logit { lg_next : f64; lg_base : f64; lg_low : Z; lg_high : Z }.
(** src/iterators/log.rs:45-75 *)
Definition pk_log : picker logit :=
  mk_picker
    (fun h p index _ _ =>
       val <- value_for h index ;;
       last <- last_index h ;;
       if (lg_low p <=? val) || (index =? last) then
         let nx := f64_mul (lg_next p) (lg_base p) in
         hi <- u64_sub (f64_to_u64 nx) 1 ;;
         lo <- lowest_equivalent h hi ;;
         Ret (Some (mk_md None (Some (lg_high p))), mk_logit nx (lg_base p) lo hi)
       else Ret (None, p))
    (fun h p index_to_pick =>
       a <- lowest_equivalent h (f64_to_u64 (lg_next p)) ;;
       v <- value_for h index_to_pick ;;
       Ret (a <? v, p)).
(** src/iterators/log.rs:20-42, src/lib.rs:1145-1147 *)
Definition iter_log (h : hist) (start : Z) (base : f64) : res (iter logit) :=
  _ <- assert (0 <? start) ;;
  _ <- assert (f64_lt f64_one base) ;;
  s <- u64_sub start 1 ;;
  lo <- lowest_equivalent h s ;;
  iter_new h (mk_logit (f64_of_u64 start) base lo s).

(** [quantile::Iter], src/iterators/quantile.rs:6-11 *)
Record quantit := mk_quantit { qn_ticks : Z; qn_to : f64; qn_end : bool }.

(** src/iterators/quantile.rs:130-156: the next quantile to iterate to.  [log2] is the C library's
    logarithm ([f64::log2]), a parameter of the model. *)
Definition next_quantile (log2 : f64 -> f64) (ticks : Z) (q : f64) : res f64 :=
  let num_halvings := f64_to_u32 (log2 (f64_div f64_one (f64_sub f64_one q))) in
  sh <- u32_add num_halvings 1 ;;
  slices <- u64_shl 1 sh ;;
  total_ticks <- u64_mul ticks slices ;;
  let increment_size := f64_div f64_one (f64_of_u64 total_ticks) in
  let sum := f64_add q increment_size in
  Ret (if f64_eq sum q then f64_one else sum).

(** src/iterators/quantile.rs:36-173 *)
Definition pk_quantile (log2 : f64 -> f64) : picker quantit :=
  mk_picker
    (fun h p _ running_total count_at_index =>
       if count_at_index =? 0 then Ret (None, p)
       else
         let current_quantile := f64_div (f64_of_u64 running_total) (f64_of_u64 (len h)) in
         if f64_lt current_quantile (qn_to p) then Ret (None, p)
         else if qn_end p then Ret (None, p)
         else if f64_eq (qn_to p) f64_one then
           Ret (Some (mk_md (Some f64_one) None), mk_quantit (qn_ticks p) (qn_to p) true)
         else
           q <- next_quantile log2 (qn_ticks p) (qn_to p) ;;
           Ret (Some (mk_md (Some (qn_to p)) None), mk_quantit (qn_ticks p) q (qn_end p)))
    (fun _ p _ =>
       Ret (if qn_end p then (false, p) else (true, mk_quantit (qn_ticks p) f64_one (qn_end p)))).
(** src/iterators/quantile.rs:15-33, src/lib.rs:1044-1050 *)
Definition iter_quantiles (h : hist) (ticks : Z) : res (iter quantit) :=
  _ <- assert (0 <? ticks) ;;
  iter_new h (mk_quantit ticks f64_zero false).

(** ** Code that loops over an iterator *)

(** a [for] loop or [fold] over an iterator, as at src/lib.rs:452, 575, 1298, 1313: collect up to [fuel]
    items, [Panic] if there are more *)
Fixpoint iter_collect {P} (fuel : nat) (pk : picker P) (h : hist) (st : iter P) : res (list item) :=
  match fuel with
  | O => Panic
  | S f =>
      '(st', o) <- iter_next pk h st ;;
      match o with
      | None => Ret []
      | Some x => xs <- iter_collect f pk h st' ;; Ret (x :: xs)
      end
  end.
(** all items of [iter_recorded], src/lib.rs:1183-1185; there is at most one per bin *)
Definition recorded_items (h : hist) : res (list item) :=
  it <- iter_recorded h ;;
  iter_collect (S (Z.to_nat (distinct_values h))) pk_recorded h it.

(** [record_n_correct] of every item, stopping at the first error, src/lib.rs:578-580 *)
Fixpoint correct_items (h : hist) (xs : list item) (interval : Z) : res (hist * result unit record_error) :=
  match xs with
  | [] => Ret (h, ROk tt)
  | x :: xs' =>
      '(h', r) <- record_n_correct h (iv_value x) (iv_count x) interval ;;
      match r with
      | RErr e => Ret (h', RErr e)
      | ROk _ => correct_items h' xs' interval
      end
  end.
(** [add_correct], src/lib.rs:571-582.  The iterator only borrows the source, so collecting its items
    first is the same as interleaving. *)
Definition add_correct (h source : hist) (interval : Z) : res (hist * result unit record_error) :=
  xs <- recorded_items source ;;
  correct_items h xs interval.
(** [set_to_corrected], src/lib.rs:446-453 *)
Definition set_to_corrected (h source : hist) (interval : Z) : res (hist * result unit record_error) :=
  add_correct (reset h) source interval.
(** [clone_correct], src/lib.rs:427-434 *)
Definition clone_correct (h : hist) (interval : Z) : res hist :=
  h0 <- new_from (h_ctr h) h ;;
  xs <- recorded_items h ;;
  '(h', r) <- correct_items h0 xs interval ;;
  match r with ROk _ => Ret h' | RErr _ => Panic end.

(** ** Statistics with floating point *)

(** [mean], src/lib.rs:1293-1304 *)
Fixpoint mean_fold (h : hist) (xs : list item) (total : f64) : res f64 :=
  match xs with
  | [] => Ret total
  | x :: xs' =>
      m <- median_equivalent h (iv_value x) ;;
      mean_fold h xs'
        (f64_add total (f64_div (f64_mul (f64_of_u64 m) (f64_of_u64 (iv_count x))) (f64_of_u64 (h_total h))))
  end.
(** src/lib.rs:1293-1304 *)
Definition mean (h : hist) : res f64 :=
  if h_total h =? 0 then Ret f64_zero
  else xs <- recorded_items h ;; mean_fold h xs f64_zero.

(** [stdev], src/lib.rs:1307-1319 *)
Fixpoint stdev_fold (h : hist) (mean : f64) (xs : list item) (gdt : f64) : res f64 :=
  match xs with
  | [] => Ret gdt
  | x :: xs' =>
      m <- median_equivalent h (iv_value x) ;;
      let dev := f64_sub (f64_of_u64 m) mean in
      stdev_fold h mean xs' (f64_add gdt (f64_mul (f64_mul dev dev) (f64_of_u64 (iv_since x))))
  end.
(** src/lib.rs:1307-1319 *)
Definition stdev (h : hist) : res f64 :=
  if h_total h =? 0 then Ret f64_zero
  else
    mn <- mean h ;;
    xs <- recorded_items h ;;
    g <- stdev_fold h mn xs f64_zero ;;
    Ret (f64_sqrt (f64_div g (f64_of_u64 (h_total h)))).

(** [value_at_quantile], src/lib.rs:1353-1368: the scan *)
Fixpoint vaq_scan (h : hist) (cs : list Z) (i total target : Z) (is_zero : bool) : res Z :=
  match cs with
  | [] => Ret 0
  | c :: cs' =>
      t <- u64_add total c ;;
      if target <=? t then
        v <- value_for h i ;;
        if is_zero then lowest_equivalent h v else highest_equivalent h v
      else vaq_scan h cs' (i + 1) t target is_zero
  end.
(** src/lib.rs:1340-1369 *)
Definition value_at_quantile (h : hist) (quantile : f64) : res Z :=
  let q := if f64_lt f64_one quantile then f64_one else quantile in
  let fractional_count := f64_mul q (f64_of_u64 (h_total h)) in
  let c := f64_to_u64 (f64_ceil fractional_count) in
  let count_at_quantile := if c =? 0 then 1 else c in
  vaq_scan h (h_counts h) 0 0 count_at_quantile (f64_eq q f64_zero).
(** [value_at_percentile], src/lib.rs:1325-1327 *)
Definition value_at_percentile (h : hist) (percentile : f64) : res Z :=
  value_at_quantile h (f64_div percentile (f64_of_u64 100)).

(** [iter::sum::<u64>], src/lib.rs:1410: checked additions *)
Fixpoint sum_u64 (cs : list Z) (t : Z) : res Z :=
  match cs with
  | [] => Ret t
  | c :: cs' => t' <- u64_add t c ;; sum_u64 cs' t'
  end.
(** [quantile_below], src/lib.rs:1391-1420 *)
Definition quantile_below (h : hist) (value : Z) : res f64 :=
  if h_total h =? 0 then Ret f64_one
  else
    target_index <- index_for_or_last h value ;;
    end_ <- usize_add target_index 1 ;;
    _ <- assert (end_ <=? distinct_values h) ;;
    let lower := target_index <? distinct_values h / 2 in
    let slice := if lower then firstn (Z.to_nat end_) (h_counts h) else skipn (Z.to_nat end_) (h_counts h) in
    s <- (if h_total h <? u64_max then sum_u64 slice 0 else Ret (fold_sat slice 0)) ;;
    t <- (if lower then Ret s else u64_sub (h_total h) s) ;;
    Ret (f64_div (f64_of_u64 t) (f64_of_u64 (h_total h))).
(** [percentile_below], src/lib.rs:1375-1377 *)
Definition percentile_below (h : hist) (value : Z) : res f64 :=
  q <- quantile_below h value ;; Ret (f64_mul q (f64_of_u64 100)).
