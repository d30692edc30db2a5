(** * Model of the interval log, src/serialization/interval_log/mod.rs

    Text is a list of bytes (integers between 0 and 255); a [str] is such a list that is well-formed
    UTF-8.  Not modelled: the reuse of [text_buf] and [serialize_buf], both of which are cleared before use. *)
From Coq Require Import String Ascii.
From Flocq Require Import IEEE754.BinarySingleNaN.
From Verif Require Import Machine HistModel SerModel FloatModel.

(** ** Text *)

(** string literals as bytes (Rust primitive), as at src/serialization/interval_log/mod.rs:470-481 and 710-816 *)
Fixpoint text (s : string) : list Z :=
  match s with EmptyString => [] | String a s' => Z.of_N (N_of_ascii a) :: text s' end.
(** the byte literals ["\n"], ["\r"], [','], ['.'], [' '], ['#'], ['+'], ['-'] used throughout
    src/serialization/interval_log/mod.rs, for instance at 455, 515, 711-730 *)
Definition LF : Z := 10.
(** see [LF]; src/serialization/interval_log/mod.rs:515 *)
Definition CR : Z := 13.
(** see [LF]; src/serialization/interval_log/mod.rs:515 *)
Definition COMMA : Z := 44.
(** see [LF]; src/serialization/interval_log/mod.rs:515 *)
Definition DOT : Z := 46.
(** see [LF]; src/serialization/interval_log/mod.rs:515 *)
Definition SPACE : Z := 32.
(** see [LF]; src/serialization/interval_log/mod.rs:515 *)
Definition HASH : Z := 35.
(** see [LF]; src/serialization/interval_log/mod.rs:515 *)
Definition PLUS : Z := 43.
(** see [LF]; src/serialization/interval_log/mod.rs:515 *)
Definition MINUS : Z := 45.

(** a UTF-8 continuation byte in the given range (Rust's [str::from_utf8], used at
    src/serialization/interval_log/mod.rs:735,747,813,817) *)
Definition within (lo hi b : Z) : bool := (lo <=? b) && (b <=? hi).
(** [str::from_utf8] with the characters of the string (Rust primitive; table 3-7 of the Unicode standard),
    used at src/serialization/interval_log/mod.rs:735,747,813,817 *)
Fixpoint utf8_decode (bs : list Z) : option (list Z) :=
  match bs with
  | [] => Some []
  | b0 :: r0 =>
      if within 0 127 b0 then option_map (cons b0) (utf8_decode r0)
      else match r0 with
      | [] => None
      | b1 :: r1 =>
          if within 194 223 b0 && within 128 191 b1
          then option_map (cons ((b0 - 192) * 64 + (b1 - 128))) (utf8_decode r1)
          else match r1 with
          | [] => None
          | b2 :: r2 =>
              if (((b0 =? 224) && within 160 191 b1) || (within 225 236 b0 && within 128 191 b1) ||
                  ((b0 =? 237) && within 128 159 b1) || (within 238 239 b0 && within 128 191 b1)) && within 128 191 b2
              then option_map (cons ((b0 - 224) * 4096 + (b1 - 128) * 64 + (b2 - 128))) (utf8_decode r2)
              else match r2 with
              | [] => None
              | b3 :: r3 =>
                  if (((b0 =? 240) && within 144 191 b1) || (within 241 243 b0 && within 128 191 b1) ||
                      ((b0 =? 244) && within 128 143 b1)) && within 128 191 b2 && within 128 191 b3
                  then option_map (cons ((b0 - 240) * 262144 + (b1 - 128) * 4096 + (b2 - 128) * 64 + (b3 - 128))) (utf8_decode r3)
                  else None
              end
          end
      end
  end.
(** [str::from_utf8(..).is_ok()] (Rust primitive), see src/serialization/interval_log/mod.rs:735 *)
Definition utf8 (bs : list Z) : bool := match utf8_decode bs with Some _ => true | None => false end.
(** [str::chars] (Rust primitive), for well-formed text; used at src/serialization/interval_log/mod.rs:514 *)
Definition chars (s : list Z) : list Z := match utf8_decode s with Some cs => cs | None => [] end.

(** [s.split('\n')] (Rust primitive, used at src/serialization/interval_log/mod.rs:455): the line read so
    far is [cur] *)
Fixpoint split_lines (cur s : list Z) : list (list Z) :=
  match s with
  | [] => [cur]
  | c :: s' => if c =? LF then cur :: split_lines [] s' else split_lines (cur ++ [c]) s'
  end.
(** leading carriage returns removed; on the reversed text this is [trim_end_matches('\r')],
    src/serialization/interval_log/mod.rs:749 *)
Fixpoint drop_cr (l : list Z) : list Z :=
  match l with c :: l' => if c =? CR then drop_cr l' else l | [] => [] end.
(** [trim_end_matches('\r')] (Rust primitive, used at src/serialization/interval_log/mod.rs:749) *)
Definition trim_cr (l : list Z) : list Z := rev (drop_cr (rev l)).

(** the base64 alphabet: [base64::engine::general_purpose::STANDARD] (base64 crate, used at
    src/serialization/interval_log/mod.rs:490) *)
Definition b64_char (x : Z) : Z :=
  if x <? 26 then 65 + x else if x <? 52 then 97 + (x - 26) else if x <? 62 then 48 + (x - 52) else if x =? 62 then 43 else 47.
(** [encode_string] (base64 crate, used at src/serialization/interval_log/mod.rs:490-491), with padding *)
Fixpoint b64_encode (bs : list Z) : list Z :=
  match bs with
  | [] => []
  | [a] => [b64_char (a / 4); b64_char (a mod 4 * 16); 61; 61]
  | [a; b] => [b64_char (a / 4); b64_char (a mod 4 * 16 + b / 16); b64_char (b mod 16 * 4); 61]
  | a :: b :: c :: r =>
      b64_char (a / 4) :: b64_char (a mod 4 * 16 + b / 16) :: b64_char (b mod 16 * 4 + c / 64) :: b64_char (c mod 64) ::
      b64_encode r
  end.

(** ** Numbers as text *)

(** decimal digits of a natural number, the last ones in [acc] (Rust primitive [Display], part of [{:.3}]
    at src/serialization/interval_log/mod.rs:478) *)
Fixpoint dec_loop (fuel : nat) (n : Z) (acc : list Z) : list Z :=
  match fuel with
  | O => acc
  | S f => if n <? 10 then 48 + n :: acc else dec_loop f (n / 10) (48 + n mod 10 :: acc)
  end.
(** decimal digits of a natural number (Rust primitive [Display], part of [{:.3}] at
    src/serialization/interval_log/mod.rs:478) *)
Definition dec (n : Z) : list Z := dec_loop (S (Z.to_nat (Z.log2 n))) n [].
(** [m * 2^e * 1000] to the nearest integer, ties to even (part of [{:.3}] at src/serialization/interval_log/mod.rs:478) *)
Definition thousandths_of (m e : Z) : Z :=
  if 0 <=? e then m * 2 ^ e * 1000
  else
    let d := 2 ^ (- e) in
    let q := m * 1000 / d in
    let r := m * 1000 mod d in
    if 2 * r <? d then q else if d <? 2 * r then q + 1 else if Z.even q then q else q + 1.
(** the digits of [n] thousandths with the decimal point (part of [{:.3}] at src/serialization/interval_log/mod.rs:478) *)
Definition dec3 (n : Z) : list Z :=
  dec (n / 1000) ++ [DOT; 48 + n / 100 mod 10; 48 + n / 10 mod 10; 48 + n mod 10].
(** [{:.3}] on an [f64] (Rust primitive, used at src/serialization/interval_log/mod.rs:324,331,340,478): the
    exact value to the nearest thousandth, ties to even; a negative sign is printed, also of zero *)
Definition fmt3 (x : f64) : list Z :=
  match x with
  | B754_nan => text "NaN"
  | B754_infinity s => (if s then [MINUS] else []) ++ text "inf"
  | B754_zero s => (if s then [MINUS] else []) ++ dec3 0
  | B754_finite s m e _ => (if s then [MINUS] else []) ++ dec3 (thousandths_of (Zpos m) e)
  end.

(** [is_digit] (nom crate, used at src/serialization/interval_log/mod.rs:817) *)
Definition is_digit (c : Z) : bool := within 48 57 c.
(** the loop of [u64::from_str] and [u32::from_str] (Rust primitives, used at
    src/serialization/interval_log/mod.rs:792-814): [None] on anything but a digit and on overflow *)
Fixpoint from_digits (mx acc : Z) (s : list Z) : option Z :=
  match s with
  | [] => Some acc
  | c :: s' =>
      if is_digit c then
        let acc' := acc * 10 + (c - 48) in
        if acc' <=? mx then from_digits mx acc' s' else None
      else None
  end.
(** [u64::from_str] (used at src/serialization/interval_log/mod.rs:814) and [u32::from_str] (792-795): a leading
    plus sign is accepted, the empty string and a sign alone are not *)
Definition uint_from_str (mx : Z) (s : list Z) : option Z :=
  match s with
  | [] => None
  | c :: s' =>
      if c =? PLUS then match s' with [] => None | _ => from_digits mx 0 s' end
      else from_digits mx 0 s
  end.

(** ** Times *)

(** [time::Duration] (Rust primitive, used at src/serialization/interval_log/mod.rs:396-397, 541-542): whole seconds, a [u64], and nanoseconds below 10^9 *)
Record duration := mk_duration { d_secs : Z; d_nanos : Z }.
(** [time::SystemTime] (Rust primitive, used at src/serialization/interval_log/mod.rs:273-285), as what [duration_since(UNIX_EPOCH)] says about it: the distance
    from the epoch, and whether it is before it *)
Record system_time := mk_system_time { st_before : bool; st_distance : duration }.
(** [Duration::new] (Rust primitive, used at src/serialization/interval_log/mod.rs:801), for fewer than 10^9
    nanoseconds; more would be carried over *)
Definition duration_new (secs nanos : Z) : res duration :=
  _ <- assert (nanos <? 1000000000) ;; Ret (mk_duration secs nanos).

(** [duration_as_fp_seconds], src/serialization/interval_log/mod.rs:696-698 *)
Definition duration_as_fp_seconds (d : duration) : f64 :=
  f64_add (f64_of_u64 (d_secs d)) (f64_div (f64_of_u64 (d_nanos d)) (f64_of_u64 1000000000)).
(** [system_time_as_fp_seconds], src/serialization/interval_log/mod.rs:700-707 *)
Definition system_time_as_fp_seconds (t : system_time) : f64 :=
  if st_before t then f64_mul (duration_as_fp_seconds (st_distance t)) (Bopp f64_one)
  else duration_as_fp_seconds (st_distance t).

(** ** Writer *)

(** the [io::Write] handed to the log writer, src/serialization/interval_log/mod.rs:305-309: what it has accepted, and what becomes of the coming calls
    of [write_all] - all is accepted, or only so many bytes and then an error; all calls not listed are
    accepted.  A [write!] with several pieces counts as one call: it stops at the first error, too. *)
Record sink := mk_sink { sk_out : list Z; sk_script : list (option nat) }.
(** [write_all] (Rust primitive, used at src/serialization/interval_log/mod.rs:450-494); says whether it succeeded *)
Definition emit (s : sink) (bs : list Z) : sink * bool :=
  match sk_script s with
  | Some k :: r =>
      if (k <? length bs)%nat then (mk_sink (sk_out s ++ firstn k bs) r, false) else (mk_sink (sk_out s ++ bs) r, true)
  | None :: r => (mk_sink (sk_out s ++ bs) r, true)
  | [] => (mk_sink (sk_out s ++ bs) [], true)
  end.

(** [IntervalLogWriterError], src/serialization/interval_log/mod.rs:407-412; [begin_log_with] and [write_comment]
    return the [io::Error] itself *)
Inductive log_write_error := LogSerializeError (e : ser_error) | LogIoError.

(** [InternalLogWriter::write_comment], src/serialization/interval_log/mod.rs:454-460, and
    [IntervalLogWriter::write_comment], 379-381 *)
Fixpoint write_comment_lines (s : sink) (ls : list (list Z)) : sink * result unit log_write_error :=
  match ls with
  | [] => (s, ROk tt)
  | l :: ls' =>
      let '(s1, ok) := emit s (HASH :: l ++ [LF]) in
      if ok then write_comment_lines s1 ls' else (s1, RErr LogIoError)
  end.
(** src/serialization/interval_log/mod.rs:454-460 *)
Definition write_comment (s : sink) (c : list Z) : sink * result unit log_write_error :=
  write_comment_lines s (split_lines [] c).

(** [Tag], src/serialization/interval_log/mod.rs:506-507 *)
Definition tag := list Z.
(** [Tag::new], src/serialization/interval_log/mod.rs:513-521 *)
Definition tag_new (s : list Z) : option tag :=
  if existsb (fun c => (c =? COMMA) || (c =? CR) || (c =? LF) || (c =? SPACE)) (chars s) then None else Some s.
(** [Tag::as_str], src/serialization/interval_log/mod.rs:524-526 *)
Definition tag_as_str (t : tag) : list Z := t.

(** a [Serializer], src/serialization/mod.rs:213-226: the bytes it writes to a vector, or an error *)
Definition serializer := hist -> res (result (list Z) ser_error).

(** [InternalLogWriter::write_histogram], src/serialization/interval_log/mod.rs:462-497, and
    [IntervalLogWriter::write_histogram], 393-402 *)
Definition write_histogram (ser : serializer) (max_value_divisor : f64) (s : sink)
  (h : hist) (start_timestamp dur : duration) (t : option tag) : res (sink * result unit log_write_error) :=
  let text_buf := match t with Some x => text "Tag=" ++ x ++ [COMMA] | None => [] end in
  m <- max h ;;
  let '(s1, ok1) := emit s (text_buf ++
      fmt3 (duration_as_fp_seconds start_timestamp) ++ [COMMA] ++
      fmt3 (duration_as_fp_seconds dur) ++ [COMMA] ++
      fmt3 (f64_div (f64_of_u64 m) max_value_divisor) ++ [COMMA]) in
  if negb ok1 then Ret (s1, RErr LogIoError)
  else
    r <- ser h ;;
    match r with
    | RErr e => Ret (s1, RErr (LogSerializeError e))
    | ROk serialize_buf =>
        let '(s2, ok2) := emit s1 (b64_encode serialize_buf) in
        if negb ok2 then Ret (s2, RErr LogIoError)
        else
          let '(s3, ok3) := emit s2 [LF] in
          if negb ok3 then Ret (s3, RErr LogIoError) else Ret (s3, ROk tt)
    end.

(** [IntervalLogWriterBuilder], src/serialization/interval_log/mod.rs:237-242 *)
Record log_builder := mk_builder {
  b_comments : list (list Z); b_start : option f64; b_base : option f64; b_divisor : f64 }.
(** [IntervalLogWriterBuilder::new], src/serialization/interval_log/mod.rs:252-259 *)
Definition builder_new : log_builder := mk_builder [] None None f64_one.
(** [add_comment], src/serialization/interval_log/mod.rs:264-267 *)
Definition add_comment (b : log_builder) (c : list Z) : log_builder :=
  mk_builder (b_comments b ++ [c]) (b_start b) (b_base b) (b_divisor b).
(** [with_start_time], src/serialization/interval_log/mod.rs:273-276 *)
Definition with_start_time (b : log_builder) (t : system_time) : log_builder :=
  mk_builder (b_comments b) (Some (system_time_as_fp_seconds t)) (b_base b) (b_divisor b).
(** [with_base_time], src/serialization/interval_log/mod.rs:282-285 *)
Definition with_base_time (b : log_builder) (t : system_time) : log_builder :=
  mk_builder (b_comments b) (b_start b) (Some (system_time_as_fp_seconds t)) (b_divisor b).
(** [with_max_value_divisor], src/serialization/interval_log/mod.rs:298-301 *)
Definition with_max_value_divisor (b : log_builder) (x : f64) : log_builder :=
  mk_builder (b_comments b) (b_start b) (b_base b) x.

(** the comments of [begin_log_with], src/serialization/interval_log/mod.rs:318-320 *)
Fixpoint write_comments (s : sink) (cs : list (list Z)) : sink * result unit log_write_error :=
  match cs with
  | [] => (s, ROk tt)
  | c :: cs' =>
      match write_comment s c with
      | (s1, ROk _) => write_comments s1 cs'
      | (s1, RErr e) => (s1, RErr e)
      end
  end.
(** one of the optional header lines of [begin_log_with], src/serialization/interval_log/mod.rs:322-343 *)
Definition write_header (s : sink) (o : option (list Z)) : sink * result unit log_write_error :=
  match o with
  | None => (s, ROk tt)
  | Some l => let '(s1, ok) := emit s l in (s1, if ok then ROk tt else RErr LogIoError)
  end.
(** [begin_log_with], src/serialization/interval_log/mod.rs:305-346.  On success the writer is the sink, the
    serializer and the divisor. *)
Definition begin_log_with (b : log_builder) (s : sink) : sink * result unit log_write_error :=
  match write_comments s (b_comments b) with
  | (s1, RErr e) => (s1, RErr e)
  | (s1, ROk _) =>
      match write_header s1 (option_map (fun st => text "#[StartTime: " ++ fmt3 st ++ text " (seconds since epoch)]" ++ [LF]) (b_start b)) with
      | (s2, RErr e) => (s2, RErr e)
      | (s2, ROk _) =>
          match write_header s2 (option_map (fun bt => text "#[BaseTime: " ++ fmt3 bt ++ text " (seconds since epoch)]" ++ [LF]) (b_base b)) with
          | (s3, RErr e) => (s3, RErr e)
          | (s3, ROk _) =>
              write_header s3 (if f64_eq (b_divisor b) f64_one then None
                               else Some (text "#[MaxValueDivisor: " ++ fmt3 (b_divisor b) ++ text "]" ++ [LF]))
          end
      end
  end.

(** ** Parser *)

(** [IntervalLogHistogram], src/serialization/interval_log/mod.rs:539-545 *)
Record interval := mk_interval {
  i_tag : option tag; i_start : duration; i_duration : duration; i_max : f64; i_histogram : list Z }.
(** [LogEntry], src/serialization/interval_log/mod.rs:594-601 *)
Inductive log_entry := StartTime (d : duration) | BaseTime (d : duration) | Interval (i : interval).
(** [LogIteratorError], src/serialization/interval_log/mod.rs:605-611 *)
Inductive log_parse_error := ParseError (offset : Z).

(** [IResult<&[u8], A>] (nom crate): [None] is any [Err].  [Err::Failure], which only [double] produces,
    differs from [Err::Error] in that [alt] does not try further alternatives; the only [alt] around
    [double] has it in its last alternative (src/serialization/interval_log/mod.rs:765). *)
Definition parsed (A : Type) := res (option (list Z * A)).
(** the operator [?] on parser results (Rust primitive), as at src/serialization/interval_log/mod.rs:711-749 *)
Definition pbind {A B} (m : parsed A) (k : list Z -> A -> parsed B) : parsed B :=
  match m with
  | Ret (Some (rest, a)) => k rest a
  | Ret None => Ret None
  | Panic => Panic
  end.
Notation "'parse' i , x <~ m ;; k" := (pbind m (fun i x => k))
  (at level 61, i name, x name, m at next level, right associativity).

(** [nom::bytes::complete::tag] (nom crate, used at src/serialization/interval_log/mod.rs:710-816) *)
Fixpoint p_tag (s input : list Z) : parsed unit :=
  match s, input with
  | [], _ => Ret (Some (input, tt))
  | c :: s', d :: input' => if c =? d then p_tag s' input' else Ret None
  | _ :: _, [] => Ret None
  end.
(** [nom::character::complete::char] (nom crate, used at src/serialization/interval_log/mod.rs:712-746) *)
Definition p_char (c : Z) (input : list Z) : parsed unit :=
  match input with d :: r => if c =? d then Ret (Some (r, tt)) else Ret None | [] => Ret None end.
(** the text before the first [c], and the text from it on (part of [take_until], used at
    src/serialization/interval_log/mod.rs:713-813) *)
Fixpoint find (c : Z) (input : list Z) : option (list Z * list Z) :=
  match input with
  | [] => None
  | d :: r =>
      if d =? c then Some ([], input)
      else match find c r with Some (pre, rest) => Some (d :: pre, rest) | None => None end
  end.
(** [nom::bytes::complete::take_until] (nom crate, used at src/serialization/interval_log/mod.rs:713-813): the
    needles are single bytes *)
Definition p_take_until (c : Z) (input : list Z) : parsed (list Z) :=
  Ret (match find c input with Some (pre, rest) => Some (rest, pre) | None => None end).
(** [nom::bytes::complete::take(1)] (nom crate, used at src/serialization/interval_log/mod.rs:714-778) *)
Definition p_take1 (input : list Z) : parsed Z :=
  Ret (match input with d :: r => Some (r, d) | [] => None end).
(** the longest prefix of digits, and the rest (part of [take_while1(is_digit)],
    src/serialization/interval_log/mod.rs:817) *)
Fixpoint span_digits (input : list Z) : list Z * list Z :=
  match input with
  | [] => ([], [])
  | d :: r => if is_digit d then let '(ds, rest) := span_digits r in (d :: ds, rest) else ([], input)
  end.
(** [take_while1(is_digit)] and [digit1] (nom crate, used at src/serialization/interval_log/mod.rs:817) *)
Definition p_digits1 (input : list Z) : parsed (list Z) :=
  Ret (match span_digits input with ([], _) => None | (ds, rest) => Some (rest, ds) end).
(** [map_res] (nom crate, used at src/serialization/interval_log/mod.rs:735-817) *)
Definition p_map_res {A B} (m : parsed A) (f : A -> option B) : parsed B :=
  pbind m (fun rest a => Ret (match f a with Some b => Some (rest, b) | None => None end)).
(** [str::from_utf8] as used in [map_res] (Rust primitive), src/serialization/interval_log/mod.rs:735 *)
Definition from_utf8 (bs : list Z) : option (list Z) := if utf8 bs then Some bs else None.
(** [opt] (nom crate, used at src/serialization/interval_log/mod.rs:740) *)
Definition p_opt {A} (p : list Z -> parsed A) (input : list Z) : parsed (option A) :=
  match p input with
  | Ret (Some (rest, a)) => Ret (Some (rest, Some a))
  | Ret None => Ret (Some (input, None))
  | Panic => Panic
  end.
(** [alt] (nom crate, used at src/serialization/interval_log/mod.rs:765,783) *)
Definition p_alt {A} (p q : list Z -> parsed A) (input : list Z) : parsed A :=
  match p input with
  | Ret None => q input
  | r => r
  end.

(** an optional sign, [opt(alt((char('+'), char('-'))))] in [recognize_float] (nom crate 7.1, called by [double]
    at src/serialization/interval_log/mod.rs:745) *)
Definition skip_sign (i : list Z) : list Z :=
  match i with c :: r => if (c =? PLUS) || (c =? MINUS) then r else i | [] => i end.
(** [opt(digit1)] (nom crate 7.1, called by [double] at src/serialization/interval_log/mod.rs:745) *)
Definition skip_digits (i : list Z) : list Z := snd (span_digits i).
(** what [recognize_float] (nom crate 7.1, part of [double], used at src/serialization/interval_log/mod.rs:745)
    leaves unread: optional sign, digits with an optional point and optional digits or a point and
    digits, and optionally an [e] with an optional sign and digits *)
Definition float_rest (i0 : list Z) : option (list Z) :=
  let i := skip_sign i0 in
  let mantissa :=
    match span_digits i with
    | ([], _) =>
        match i with
        | c :: r => if c =? DOT then match span_digits r with ([], _) => None | (_, r') => Some r' end else None
        | [] => None
        end
    | (_, c :: r) => if c =? DOT then Some (skip_digits r) else Some (c :: r)
    | (_, []) => Some []
    end in
  match mantissa with
  | Some (c :: r) =>
      if (c =? 101) || (c =? 69) then match span_digits (skip_sign r) with ([], _) => None | (_, r') => Some r' end
      else Some (c :: r)
  | m => m
  end.
(** [tag_no_case] (nom crate 7.1, called by [double] at src/serialization/interval_log/mod.rs:745) for lower case letters [s] *)
Fixpoint no_case_rest (s i : list Z) : option (list Z) :=
  match s, i with
  | [], _ => Some i
  | c :: s', d :: i' => if (d =? c) || (d + 32 =? c) then no_case_rest s' i' else None
  | _ :: _, [] => None
  end.
(** [f64::from_str] (Rust primitive, called by [double] at src/serialization/interval_log/mod.rs:745) is a parameter *)
Definition f64_reader := list Z -> option f64.
(** [nom::number::complete::double] (nom crate 7.1, used at src/serialization/interval_log/mod.rs:745): the
    recognized text goes to [f64::from_str]; its alternative [infinity] can never be reached, as [inf]
    comes first *)
Definition p_double (pf : f64_reader) (input : list Z) : parsed f64 :=
  let orest :=
    match float_rest input with
    | Some r => Some r
    | None => match no_case_rest (text "nan") input with
              | Some r => Some r
              | None => no_case_rest (text "inf") input
              end
    end in
  Ret (match orest with
       | None => None
       | Some rest => match pf (firstn (length input - length rest) input) with
                      | Some x => Some (rest, x)
                      | None => None
                      end
       end).

(** [fract_sec_tuple], src/serialization/interval_log/mod.rs:811-819 *)
Definition fract_sec_tuple (input0 : list Z) : parsed (Z * list Z) :=
  parse input1, secs <~ p_map_res (p_map_res (p_take_until DOT input0) from_utf8) (uint_from_str u64_max) ;;
  parse input2, _ <~ p_tag [DOT] input1 ;;
  parse input3, nanos_str <~ p_map_res (p_digits1 input2) from_utf8 ;;
  Ret (Some (input3, (secs, nanos_str))).

(** [10_u32.pow(n)] (Rust primitive, used at src/serialization/interval_log/mod.rs:797) *)
Definition u32_pow10 (n : Z) : res Z := in_range 0 u32_max (10 ^ n).

(** [fract_sec_duration], src/serialization/interval_log/mod.rs:786-807 *)
Definition fract_sec_duration (input : list Z) : parsed duration :=
  parse rest, data <~ fract_sec_tuple input ;;
  let '(secs, nanos_str) := data in
  nanos <- (if 9 <? zlen nanos_str then Ret (uint_from_str u32_max (firstn 9 nanos_str))
            else if zlen nanos_str =? 9 then Ret (uint_from_str u32_max nanos_str)
            else match uint_from_str u32_max nanos_str with
                 | None => Ret None
                 | Some n => e <- u32_sub 9 (zlen nanos_str) ;; p <- u32_pow10 e ;; x <- u32_mul n p ;; Ret (Some x)
                 end) ;;
  match nanos with
  | Some n => d <- duration_new secs n ;; Ret (Some (rest, d))
  | None => Ret None
  end.

(** [start_time], src/serialization/interval_log/mod.rs:709-716 *)
Definition start_time (input0 : list Z) : parsed log_entry :=
  parse input1, _ <~ p_tag (text "#[StartTime: ") input0 ;;
  parse input2, d <~ fract_sec_duration input1 ;;
  parse input3, _ <~ p_char SPACE input2 ;;
  parse input4, _ <~ p_take_until LF input3 ;;
  parse input5, _ <~ p_take1 input4 ;;
  Ret (Some (input5, StartTime d)).
(** [base_time], src/serialization/interval_log/mod.rs:718-725 *)
Definition base_time (input0 : list Z) : parsed log_entry :=
  parse input1, _ <~ p_tag (text "#[BaseTime: ") input0 ;;
  parse input2, d <~ fract_sec_duration input1 ;;
  parse input3, _ <~ p_char SPACE input2 ;;
  parse input4, _ <~ p_take_until LF input3 ;;
  parse input5, _ <~ p_take1 input4 ;;
  Ret (Some (input5, BaseTime d)).
(** [tag_bytes], src/serialization/interval_log/mod.rs:727-732 *)
Definition tag_bytes (input0 : list Z) : parsed (list Z) :=
  parse input1, _ <~ p_tag (text "Tag=") input0 ;;
  parse input2, t <~ p_take_until COMMA input1 ;;
  parse input3, _ <~ p_take1 input2 ;;
  Ret (Some (input3, t)).
(** [tag_parser], src/serialization/interval_log/mod.rs:734-737 *)
Definition tag_parser (input : list Z) : parsed tag := p_map_res (tag_bytes input) from_utf8.
(** [interval_hist], src/serialization/interval_log/mod.rs:739-762 *)
Definition interval_hist (pf : f64_reader) (input0 : list Z) : parsed log_entry :=
  parse input1, t <~ p_opt tag_parser input0 ;;
  parse input2, start <~ fract_sec_duration input1 ;;
  parse input3, _ <~ p_char COMMA input2 ;;
  parse input4, dur <~ fract_sec_duration input3 ;;
  parse input5, _ <~ p_char COMMA input4 ;;
  parse input6, mx <~ p_double pf input5 ;;
  parse input7, _ <~ p_char COMMA input6 ;;
  parse input8, encoded <~ p_map_res (p_take_until LF input7) from_utf8 ;;
  parse input9, _ <~ p_take1 input8 ;;
  Ret (Some (input9, Interval (mk_interval t start dur mx (trim_cr encoded)))).
(** [log_entry], src/serialization/interval_log/mod.rs:764-766 *)
Definition log_entry_p (pf : f64_reader) (input : list Z) : parsed log_entry :=
  p_alt (p_alt start_time base_time) (interval_hist pf) input.
(** [comment_line], src/serialization/interval_log/mod.rs:768-773 *)
Definition comment_line (input0 : list Z) : parsed unit :=
  parse input1, _ <~ p_tag (text "#") input0 ;;
  parse input2, _ <~ p_take_until LF input1 ;;
  parse input3, _ <~ p_take1 input2 ;;
  Ret (Some (input3, tt)).
(** [legend], src/serialization/interval_log/mod.rs:775-780 *)
Definition legend (input0 : list Z) : parsed unit :=
  parse input1, _ <~ p_tag (34 :: text "StartTimestamp" ++ [34]) input0 ;;
  parse input2, _ <~ p_take_until LF input1 ;;
  parse input3, _ <~ p_take1 input2 ;;
  Ret (Some (input3, tt)).
(** [ignored_line], src/serialization/interval_log/mod.rs:782-784 *)
Definition ignored_line (input : list Z) : parsed unit := p_alt comment_line legend input.

(** [IntervalLogIterator], src/serialization/interval_log/mod.rs:641-645 *)
Record log_iter := mk_log_iter { li_orig_len : Z; li_input : list Z; li_ended : bool }.
(** [IntervalLogIterator::new], src/serialization/interval_log/mod.rs:649-655 *)
Definition log_iter_new (input : list Z) : log_iter := mk_log_iter (zlen input) input false.

(** the loop of [IntervalLogIterator::next], src/serialization/interval_log/mod.rs:662-692 *)
Fixpoint next_loop (fuel : nat) (pf : f64_reader) (it : log_iter)
  : res (log_iter * option (result log_entry log_parse_error)) :=
  match fuel with
  | O => Panic
  | S f =>
      if li_ended it then Ret (it, None)
      else if match li_input it with [] => true | _ => false end
      then Ret (mk_log_iter (li_orig_len it) (li_input it) true, None)
      else
        e <- log_entry_p pf (li_input it) ;;
        match e with
        | Some (rest, x) => Ret (mk_log_iter (li_orig_len it) rest false, Some (ROk x))
        | None =>
            g <- ignored_line (li_input it) ;;
            match g with
            | Some (rest, _) => next_loop f pf (mk_log_iter (li_orig_len it) rest false)
            | None =>
                offset <- usize_sub (li_orig_len it) (zlen (li_input it)) ;;
                Ret (mk_log_iter (li_orig_len it) (li_input it) true, Some (RErr (ParseError offset)))
            end
        end
  end.
(** [IntervalLogIterator::next], src/serialization/interval_log/mod.rs:661-693 *)
Definition log_next (pf : f64_reader) (it : log_iter) := next_loop (S (length (li_input it))) pf it.
