(** * Vocabulary for the statements about interval logs *)
From Coq Require Import ZArith Reals String.
From Flocq Require Import Core IEEE754.BinarySingleNaN.
From Verif Require Import Machine HistModel Spec Reach SerModel SerSpec FloatModel FloatSpec LogModel.

(** ** Text *)

(** [s] is a [&str] *)
Definition is_str (s : list Z) : Prop := bytes s /\ utf8 s = true.
(** [c] starts with the given text *)
Definition starts_with (p c : list Z) : Prop := exists r, c = p ++ r.
(** the lines of a text: one more than it has line feeds *)
Definition line_of (l c : list Z) : Prop :=
  ~ In LF l /\ exists pre post, c = pre ++ l ++ post /\
    (pre = [] \/ exists p, pre = p ++ [LF]) /\ (post = [] \/ exists q, post = LF :: q).
(** no line of the comment looks like a header *)
Definition plain_comment (c : list Z) : Prop :=
  forall l, line_of l c -> ~ starts_with (text "[StartTime: ") l /\ ~ starts_with (text "[BaseTime: ") l.

(** base64 with padding (RFC 4648, section 4): the value of a character *)
Definition b64_value (c : Z) : option Z :=
  if (65 <=? c) && (c <=? 90) then Some (c - 65)
  else if (97 <=? c) && (c <=? 122) then Some (c - 71)
  else if (48 <=? c) && (c <=? 57) then Some (c + 4)
  else if c =? 43 then Some 62 else if c =? 47 then Some 63 else None.
(** ... and the bytes a text stands for *)
Fixpoint b64_decode (s : list Z) : option (list Z) :=
  match s with
  | [] => Some []
  | a :: b :: c :: d :: r =>
      match b64_value a, b64_value b with
      | Some x, Some y =>
          if (c =? 61) && (d =? 61) && match r with [] => true | _ => false end then Some [x * 4 + y / 16]
          else match b64_value c with
          | Some z =>
              if (d =? 61) && match r with [] => true | _ => false end then Some [x * 4 + y / 16; y mod 16 * 16 + z / 4]
              else match b64_value d, b64_decode r with
              | Some w, Some bs => Some (x * 4 + y / 16 :: y mod 16 * 16 + z / 4 :: z mod 4 * 64 + w :: bs)
              | _, _ => None
              end
          | None => None
          end
      | _, _ => None
      end
  | _ => None
  end.

(** ** Numbers and times *)

(** the number a string of decimal digits stands for *)
Definition decimal_value (s : list Z) : Z := fold_left (fun n c => 10 * n + (c - 48)) s 0.
Definition all_digits (s : list Z) : Prop := Forall (fun c => 48 <= c <= 57) s.
(** [s] is a decimal number with three places after the point, standing for [n] thousandths *)
Definition is_decimal3 (s : list Z) (n : Z) : Prop :=
  exists i f, s = i ++ DOT :: f /\ i <> [] /\ all_digits i /\ all_digits f /\ zlen f = 3 /\
    decimal_value i * 1000 + decimal_value f = n.
(** what is assumed of [f64::from_str]: it accepts decimal numbers, [NaN] and [inf] *)
Definition reads_numbers (pf : f64_reader) : Prop :=
  (forall s n, is_decimal3 s n -> pf s <> None /\ pf (MINUS :: s) <> None) /\
  pf (text "NaN") <> None /\ pf (text "inf") <> None.
(** ... and rounds correctly *)
Definition rounds_numbers (pf : f64_reader) : Prop :=
  forall s n, is_decimal3 s n -> (rne (IZR n / 1000) < bpow radix2 1024)%R ->
    exists y, pf s = Some y /\ finite y /\ real_of y = rne (IZR n / 1000).

Definition valid_duration (d : duration) : Prop := is_u64 (d_secs d) /\ 0 <= d_nanos d < 1000000000.
(** seconds as an [f64]: the two terms, their sum and the quotient are rounded *)
Definition fp_seconds (d : duration) : R := rne (rne (IZR (d_secs d)) + rne (IZR (d_nanos d) / 1000000000)).
(** what the log keeps of a duration: whole milliseconds *)
Definition logged_ms (d : duration) : Z := ZnearestE (fp_seconds d * 1000).
Definition ms_duration (n : Z) : duration := mk_duration (n / 1000) (n mod 1000 * 1000000).
Definition logged (d : duration) : duration := ms_duration (logged_ms d).
Definition duration_ns (d : duration) : Z := d_secs d * 1000000000 + d_nanos d.
(** the seconds of the logged duration fit a [u64] *)
Definition loggable (d : duration) : Prop := valid_duration d /\ d_secs (logged d) <= u64_max.

(** ** Writing *)

(** what a client does with a log writer *)
Inductive log_op :=
| Comment (c : list Z)
| Histogram (h : hist) (start dur : duration) (t : option tag).
Definition log_do (ser : serializer) (divisor : f64) (s : sink) (op : log_op) : res (sink * result unit log_write_error) :=
  match op with
  | Comment c => Ret (write_comment s c)
  | Histogram h start dur t => write_histogram ser divisor s h start dur t
  end.
Inductive log_run (ser : serializer) (divisor : f64) : sink -> list (log_op * result unit log_write_error) -> sink -> Prop :=
| log_run_nil s : log_run ser divisor s [] s
| log_run_cons s op r s1 l s2 :
    log_do ser divisor s op = Ret (s1, r) -> log_run ser divisor s1 l s2 -> log_run ser divisor s ((op, r) :: l) s2.
(** nothing written yet; what the sink will accept is in the script *)
Definition new_sink (script : list (option nat)) : sink := mk_sink [] script.
(** the serializer delivers bytes *)
Definition byte_serializer (ser : serializer) : Prop := forall h bs, reachable h -> ser h = Ret (ROk bs) -> bytes bs.
Definition succeeded (x : log_op * result unit log_write_error) : Prop := snd x = ROk tt.

(** the builder after these calls *)
Definition configured (comments : list (list Z)) (start base : option system_time) (divisor : f64) : log_builder :=
  let b1 := fold_left add_comment comments builder_new in
  let b2 := match start with Some t => with_start_time b1 t | None => b1 end in
  let b3 := match base with Some t => with_base_time b2 t | None => b2 end in
  with_max_value_divisor b3 divisor.
(** a header time that can be logged: not before the epoch *)
Definition header_ok (o : option system_time) : Prop :=
  forall t, o = Some t -> st_before t = false /\ loggable (st_distance t).

Definition op_ok (divisor : f64) (op : log_op) : Prop :=
  match op with
  | Comment c => plain_comment c
  | Histogram h start dur t =>
      reachable h /\ loggable start /\ loggable dur /\
      (forall x, t = Some x -> is_str x /\ tag_new x = Some x) /\
      (forall m, max h = Ret m -> f64_div (f64_of_u64 m) divisor <> B754_infinity true)
  end.

(** ** Reading *)

(** the items the iterator delivers before it says [None] for the first time *)
Inductive yields (pf : f64_reader) : log_iter -> list (result log_entry log_parse_error) -> Prop :=
| yields_end it it' : log_next pf it = Ret (it', None) -> yields pf it []
| yields_item it it' x l : log_next pf it = Ret (it', Some x) -> yields pf it' l -> yields pf it (x :: l).

(** what the log says about what was done: nothing about a comment; the tag, the times in milliseconds,
    the scaled maximum and the serialized histogram in base64 *)
Definition told (ser : serializer) (pf : f64_reader) (divisor : f64) (op : log_op) (es : list log_entry) : Prop :=
  match op with
  | Comment _ => es = []
  | Histogram h start dur t =>
      exists i bs m, es = [Interval i] /\ i_tag i = t /\ i_start i = logged start /\ i_duration i = logged dur /\
        max h = Ret m /\ pf (fmt3 (f64_div (f64_of_u64 m) divisor)) = Some (i_max i) /\
        ser h = Ret (ROk bs) /\ b64_decode (i_histogram i) = Some bs
  end.
Definition header_entries (start base : option system_time) : list log_entry :=
  match start with Some t => [StartTime (logged (st_distance t))] | None => [] end ++
  match base with Some t => [BaseTime (logged (st_distance t))] | None => [] end.
(** the number of lines *)
Definition line_feeds (input : list Z) : Z := Z.of_nat (count_occ Z.eq_dec input LF).
(** a line starts at this offset *)
Definition line_start (input : list Z) (off : Z) : Prop :=
  off = 0 \/ exists pre post, input = pre ++ LF :: post /\ off = zlen pre + 1.
(** an item of a log that is preceded by [n] more bytes *)
Definition moved (n : Z) (x : result log_entry log_parse_error) : result log_entry log_parse_error :=
  match x with ROk e => ROk e | RErr (ParseError off) => RErr (ParseError (off + n)) end.
