(** * Model of the command line program, examples/cli.rs

    Not modelled: the parsing of the command line by clap, and the widths and decimals with which
    [format!] prints the numbers of the report.  Standard input is the list of bytes it will deliver; all
    writes to standard output succeed (writers that fail are in [IoModel]). *)
From Verif Require Import Machine HistModel SerModel FloatModel IterModel LogModel IterSpec.

(** [BufRead::lines] (Rust primitive, used at examples/cli.rs:120): the line read so far, reversed, is [cur].
    A line ends at a line feed, which is not part of it, nor is one carriage return before it; what is left
    at the end of the input is a line if it is not empty. *)
Fixpoint stdin_lines (cur s : list Z) : list (list Z) :=
  match s with
  | [] => match cur with [] => [] | _ => [rev cur] end
  | c :: s' =>
      if c =? LF then
        rev (match cur with d :: cur' => if d =? CR then cur' else cur | [] => [] end) :: stdin_lines [] s'
      else stdin_lines (c :: cur) s'
  end.

(** [CliError] as far as [serialize] returns it, examples/cli.rs:231-237 *)
Inductive cli_error := HistogramRecord (e : record_error) | HistogramSerialize (e : ser_error).

(** the loop of [serialize], examples/cli.rs:119-125: a line that is not UTF-8 makes the first [expect] panic,
    one that is not a [u64] the second *)
Fixpoint record_lines (h : hist) (ls : list (list Z)) : res (result hist cli_error) :=
  match ls with
  | [] => Ret (ROk h)
  | l :: ls' =>
      if utf8 l then
        match uint_from_str u64_max l with
        | None => Panic
        | Some num =>
            '(h', r) <- record h num ;;
            match r with ROk _ => record_lines h' ls' | RErr e => Ret (RErr (HistogramRecord e)) end
        end
      else Panic
  end.

(** [serialize], examples/cli.rs:113-134; the result is what has been written when it returns [Ok].  It writes
    nothing before that.  A serializer that has just been made holds no buffer; [junk] as in [v2_serialize]. *)
Definition cli_serialize (cd : codec) (junk : Z -> Z) (stdin : list Z) (h : hist) (compression : bool)
  : res (result (list Z) cli_error) :=
  r <- record_lines h (stdin_lines [] stdin) ;;
  match r with
  | RErr e => Ret (RErr e)
  | ROk h' =>
      s <- (if compression then v2_deflate_serialize cd junk h' else v2_serialize junk h') ;;
      Ret (match s with ROk bs => ROk bs | RErr e => RErr (HistogramSerialize e) end)
  end.

(** [Result::unwrap] and [Result::expect] (Rust primitives, used at examples/cli.rs:90 and 109) *)
Definition expect {A E} (r : result A E) : res A := match r with ROk x => Ret x | RErr _ => Panic end.

(** [main] for the subcommand [serialize], examples/cli.rs:84-97 and 109: [Ret] is the standard output of a
    program that exits normally *)
Definition main_serialize (cd : codec) (junk : Z -> Z) (min max sigfig : Z) (resize compression : bool) (stdin : list Z)
  : res (list Z) :=
  r <- new_with_bounds U64 min max sigfig ;;
  h <- expect r ;;
  let h1 := if resize then auto h true else h in
  s <- cli_serialize cd junk stdin h1 compression ;;
  expect s.

(** one line of the report, examples/cli.rs:162-190: the columns Value, QuantileValue, QuantileIteration,
    TotalCount and 1/(1-Quantile), where [None] is printed as the sign for infinity *)
Record row := mk_row { rw_value : Z; rw_quantile : f64; rw_to : f64; rw_total : Z; rw_inverse : option f64 }.
(** the loop of [quantiles], examples/cli.rs:159-191, over the items the iterator yields *)
Fixpoint print_rows (sum : Z) (items : list item) : res (list row) :=
  match items with
  | [] => Ret []
  | v :: items' =>
      sum' <- u64_add sum (iv_since v) ;;
      let inverse := if f64_lt (iv_qto v) f64_one then Some (f64_div f64_one (f64_sub f64_one (iv_qto v))) else None in
      rows <- print_rows sum' items' ;;
      Ret (mk_row (iv_value v) (iv_quantile v) (iv_qto v) sum' inverse :: rows)
  end.
(** what [quantiles] prints: the rows and the three lines at the end, examples/cli.rs:147-224 *)
Record report := mk_report {
  rp_rows : list row; rp_mean : f64; rp_stdev : f64; rp_max : Z; rp_len : Z; rp_buckets : Z; rp_subbuckets : Z }.
(** [quantiles] after the histogram has been read, examples/cli.rs:147-224, with the items of [hist.iter_quantiles] *)
Definition print_report (h : hist) (items : list item) : res report :=
  rows <- print_rows 0 items ;;
  m <- mean h ;;
  s <- stdev h ;;
  x <- max h ;;
  Ret (mk_report rows m s x (len h) (buckets h) (distinct_values h)).

(** [quantiles], examples/cli.rs:138-224: it returns, with an error from the deserializer or with [Ok] and
    having printed the report.  A relation, since [drains] (calling [next] until it returns [None], as the
    [for] loop at 160 does) is one. *)
Inductive cli_quantiles (checks : bool) (cd : codec) (log2 : f64 -> f64) (ticks : Z) (stdin : list Z)
  : result report deser_error -> Prop :=
| quantiles_err e :
    deserialize checks cd [] U64 stdin = Ret (RErr e) -> cli_quantiles checks cd log2 ticks stdin (RErr e)
| quantiles_ok h rest it items rep :
    deserialize checks cd [] U64 stdin = Ret (ROk (h, rest)) ->
    iter_quantiles h ticks = Ret it -> drains (pk_quantile log2) h it items ->
    print_report h items = Ret rep -> cli_quantiles checks cd log2 ticks stdin (ROk rep).
