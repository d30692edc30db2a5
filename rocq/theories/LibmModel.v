(** * The constructor with the C library's logarithm as a parameter

    [HistModel.new_with_bounds] has integer formulas in place of the two logarithms of the constructor.
    This file has the constructor as it is written, with binary64 arithmetic and with [f64::log2], which
    calls the C library, as a parameter. *)
From Coq Require Import ZArith.
From Flocq Require Import IEEE754.BinarySingleNaN.
From Verif Require Import Machine HistModel FloatModel.

(** [f64::floor] (Rust primitive), src/lib.rs:760 *)
Definition f64_floor (x : f64) : f64 := Bnearbyint mode_DN x.
(** [x as u8] (Rust primitive), src/lib.rs:760, 770 *)
Definition f64_to_u8 (x : f64) : Z := f64_to_uint u8_max x.

(** [new_with_bounds], src/lib.rs:736-822 *)
Definition new_with_bounds_libm (log2 : f64 -> f64) (T : counter) (lo hi sf : Z) : res (result hist creation_error) :=
  if lo <? 1 then Ret (RErr LowIsZero)
  else if u64_max / 2 <? lo then Ret (RErr LowExceedsMax)
  else
    l2 <- u64_mul 2 lo ;;
    if hi <? l2 then Ret (RErr HighLessThanTwiceLow)
    else if 5 <? sf then Ret (RErr SigFigExceedsMax)
    else
      p <- in_range 0 u32_max (10 ^ sf) ;;
      largest <- u32_mul 2 p ;;
      let unit_magnitude := f64_to_u8 (f64_floor (log2 (f64_of_u64 lo))) in
      b <- u64_shl 1 unit_magnitude ;;
      unit_magnitude_mask <- u64_sub b 1 ;;
      let sub_bucket_count_magnitude := f64_to_u8 (f64_ceil (log2 (f64_of_u64 largest))) in
      sub_bucket_half_count_magnitude <- u8_sub sub_bucket_count_magnitude 1 ;;
      sub_bucket_count <- u32_shl 1 sub_bucket_count_magnitude ;;
      s <- u8_add unit_magnitude sub_bucket_count_magnitude ;;
      if 63 <? s then Ret (RErr CannotRepresentSigFigBeyondLow)
      else
        let sub_bucket_half_count := sub_bucket_count / 2 in
        m <- u64_sub sub_bucket_count 1 ;;
        sub_bucket_mask <- u64_shl m unit_magnitude ;;
        z <- u8_sub 64 unit_magnitude ;;
        lzb <- u8_sub z sub_bucket_count_magnitude ;;
        h <- resize
               (mk_hist T false hi lo sf 0 sub_bucket_count sub_bucket_half_count
                  sub_bucket_half_count_magnitude sub_bucket_mask lzb unit_magnitude
                  unit_magnitude_mask ORIGINAL_MAX ORIGINAL_MIN 0 []) hi ;;
        Ret (ROk h).

(** [new_with_max], src/lib.rs:712-714 *)
Definition new_with_max_libm (log2 : f64 -> f64) (T : counter) (hi sf : Z) := new_with_bounds_libm log2 T 1 hi sf.

(** [new], src/lib.rs:697-703 *)
Definition new_libm (log2 : f64 -> f64) (T : counter) (sf : Z) : res (result hist creation_error) :=
  r <- new_with_bounds_libm log2 T 1 2 sf ;;
  Ret (match r with ROk h => ROk (set_auto h true) | RErr e => RErr e end).
