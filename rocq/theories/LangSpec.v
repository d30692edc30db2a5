(** * The language of interval logs, and the text a log writer produces *)
From Coq Require Import ZArith Reals String List.
From Flocq Require Import Core IEEE754.BinarySingleNaN.
From Verif Require Import Machine HistModel Reach SerModel FloatModel FloatSpec LogModel LogSpec.
Import ListNotations.
Open Scope Z_scope.

(** ** UTF-8 (RFC 3629, section 3) *)

(** a Unicode scalar value *)
Definition scalar (c : Z) : Prop := 0 <= c <= 0xD7FF \/ 0xE000 <= c <= 0x10FFFF.
(** its encoding *)
Definition utf8_encode (c : Z) : list Z :=
  if c <=? 0x7F then [c]
  else if c <=? 0x7FF then [0xC0 + c / 64; 0x80 + c mod 64]
  else if c <=? 0xFFFF then [0xE0 + c / 4096; 0x80 + c / 64 mod 64; 0x80 + c mod 64]
  else [0xF0 + c / 262144; 0x80 + c / 4096 mod 64; 0x80 + c / 64 mod 64; 0x80 + c mod 64].
(** the text is the encoding of some characters *)
Definition is_utf8 (s : list Z) : Prop := exists cs, Forall scalar cs /\ s = flat_map utf8_encode cs.

(** ** Numbers *)

(** a number of seconds: a whole part of at most [u64::MAX], perhaps with a plus sign, a point, and at
    least one more digit.  It stands for nine places: missing ones are zeros, further ones do not count. *)
Definition seconds (s : list Z) (d : duration) : Prop :=
  exists sign i f, s = sign ++ i ++ DOT :: f /\ (sign = [] \/ sign = [PLUS]) /\
    i <> [] /\ all_digits i /\ decimal_value i <= u64_max /\ f <> [] /\ all_digits f /\
    d = mk_duration (decimal_value i) (decimal_value (firstn 9 (f ++ repeat 48 9))).

(** a maximum: a decimal number, or one of two words in any case *)
Definition is_sign (s : list Z) : Prop := s = [] \/ s = [PLUS] \/ s = [MINUS].
Definition is_mantissa (s : list Z) : Prop :=
  (s <> [] /\ all_digits s) \/
  exists i f, s = i ++ DOT :: f /\ all_digits i /\ all_digits f /\ (i <> [] \/ f <> []).
Definition is_exponent (s : list Z) : Prop :=
  s = [] \/ exists e sign ds, s = e :: sign ++ ds /\ (e = 101 \/ e = 69) /\ is_sign sign /\ ds <> [] /\ all_digits ds.
Definition is_decimal (s : list Z) : Prop :=
  exists sign m x, s = sign ++ m ++ x /\ is_sign sign /\ is_mantissa m /\ is_exponent x.
Definition is_word (w s : list Z) : Prop := Forall2 (fun lower c => c = lower \/ c = lower - 32) w s.
Definition is_number (s : list Z) : Prop := is_decimal s \/ is_word (text "nan") s \/ is_word (text "inf") s.

(** ** Lines *)

(** the lines of the header that are understood; the rest of the line does not matter *)
Definition header_line (name l : list Z) (d : duration) : Prop :=
  exists s remark, l = HASH :: 91 :: name ++ text ": " ++ s ++ SPACE :: remark /\ seconds s d /\ ~ In LF remark.
Definition start_time_line (l : list Z) (d : duration) : Prop := header_line (text "StartTime") l d.
Definition base_time_line (l : list Z) (d : duration) : Prop := header_line (text "BaseTime") l d.

(** a comment: any other line with a hash *)
Definition skipped_comment (l : list Z) : Prop :=
  (exists r, l = HASH :: r) /\ ~ In LF l /\ (forall d, ~ start_time_line l d) /\ (forall d, ~ base_time_line l d).
(** a legend *)
Definition skipped_legend (l : list Z) : Prop :=
  (exists r, l = [34] ++ text "StartTimestamp" ++ [34] ++ r) /\ ~ In LF l.

(** the tag of an interval, with its comma: it may have line feeds in it *)
Definition tag_field (s : list Z) (t : option tag) : Prop :=
  match t with
  | None => s = []
  | Some x => s = text "Tag=" ++ x ++ [COMMA] /\ ~ In COMMA x /\ is_utf8 x
  end.
(** an interval: tag, start, length, maximum and histogram, without the carriage returns at the end *)
Definition interval_text (pf : f64_reader) (l : list Z) (i : interval) : Prop :=
  exists tg start dur mx crs,
    l = tg ++ start ++ [COMMA] ++ dur ++ [COMMA] ++ mx ++ [COMMA] ++ i_histogram i ++ crs /\
    tag_field tg (i_tag i) /\ seconds start (i_start i) /\ seconds dur (i_duration i) /\
    is_number mx /\ pf mx = Some (i_max i) /\
    is_utf8 (i_histogram i ++ crs) /\ ~ In LF (i_histogram i) /\
    Forall (fun c => c = CR) crs /\ (forall h, i_histogram i <> h ++ [CR]).

(** a line, without its line feed, and what the parser makes of it *)
Inductive log_line (pf : f64_reader) : list Z -> list log_entry -> Prop :=
| log_line_start l d : start_time_line l d -> log_line pf l [StartTime d]
| log_line_base l d : base_time_line l d -> log_line pf l [BaseTime d]
| log_line_interval l i : interval_text pf l i -> log_line pf l [Interval i]
| log_line_comment l : skipped_comment l -> log_line pf l []
| log_line_legend l : skipped_legend l -> log_line pf l [].

(** a log: lines, each with a line feed *)
Inductive log_text (pf : f64_reader) : list Z -> list log_entry -> Prop :=
| log_empty : log_text pf [] []
| log_lines l es rest more : log_line pf l es -> log_text pf rest more -> log_text pf (l ++ LF :: rest) (es ++ more).
(** no line can be read here *)
Definition unreadable (pf : f64_reader) (s : list Z) : Prop :=
  s <> [] /\ forall l rest es, s = l ++ LF :: rest -> ~ log_line pf l es.

(** ** What a writer writes *)

(** a decimal number as it is printed with three places: no superfluous zeros in front *)
Definition printed3 (s : list Z) (n : Z) : Prop :=
  is_decimal3 s n /\ (forall r, s = 48 :: r -> starts_with [DOT] r).
(** an [f64] with three places: the nearest such number, of two the one with the even last place *)
Definition printed (x : f64) (s : list Z) : Prop :=
  match x with
  | B754_nan => s = text "NaN"
  | B754_infinity false => s = text "inf"
  | B754_infinity true => s = text "-inf"
  | _ => exists ds, printed3 ds (ZnearestE (Rabs (B2R x) * 1000)) /\ s = (if Bsign x then [MINUS] else []) ++ ds
  end.

(** a comment and its lines *)
Inductive lines_of : list Z -> list (list Z) -> Prop :=
| lines_last l : ~ In LF l -> lines_of l [l]
| lines_more l c ls : ~ In LF l -> lines_of c ls -> lines_of (l ++ LF :: c) (l :: ls).
(** written with a hash before each line *)
Definition comment_text (c txt : list Z) : Prop :=
  exists ls, lines_of c ls /\ txt = flat_map (fun l => HASH :: l ++ [LF]) ls.
(** one of the times of the header, with the sign of a time before the epoch *)
Definition time_text (name : list Z) (o : option system_time) (txt : list Z) : Prop :=
  match o with
  | None => txt = []
  | Some t => exists ds, printed3 ds (logged_ms (st_distance t)) /\
      txt = text "#[" ++ name ++ text ": " ++ (if st_before t then [MINUS] else []) ++ ds ++ text " (seconds since epoch)]" ++ [LF]
  end.
(** the divisor, unless it is one *)
Definition divisor_text (d : f64) (txt : list Z) : Prop :=
  (finite d /\ real_of d = 1%R /\ txt = []) \/
  (~ (finite d /\ real_of d = 1%R) /\ exists ds, printed d ds /\ txt = text "#[MaxValueDivisor: " ++ ds ++ text "]" ++ [LF]).
(** the header: comments, start time, base time, divisor *)
Definition header_text (comments : list (list Z)) (start base : option system_time) (divisor : f64) (txt : list Z) : Prop :=
  exists cs st bt dv, Forall2 comment_text comments cs /\ time_text (text "StartTime") start st /\
    time_text (text "BaseTime") base bt /\ divisor_text divisor dv /\ txt = concat cs ++ st ++ bt ++ dv.

(** base64 (RFC 4648, section 4): six bits a character, the missing bits are zeros, and the text is filled up to
    a multiple of four characters *)
Definition b64_alphabet : list Z := text "ABCDEFGHIJKLMNOPQRSTUVWXYZabcdefghijklmnopqrstuvwxyz0123456789+/".
Definition big_endian (base : Z) (ds : list Z) : Z := fold_left (fun n d => n * base + d) ds 0.
Definition base64 (bs txt : list Z) : Prop :=
  exists ds pad, txt = map (fun d => nth (Z.to_nat d) b64_alphabet 0) ds ++ repeat 61 pad /\ (pad < 3)%nat /\
    Forall (fun d => 0 <= d < 64) ds /\
    zlen bs * 8 + 2 * Z.of_nat pad = zlen ds * 6 /\ big_endian 64 ds = big_endian 256 bs * 4 ^ Z.of_nat pad.

(** the maximum divided by the divisor, for a divisor that is a number other than zero *)
Definition scaled (m : Z) (d : f64) : R := rne (rne (IZR m) / real_of d).
Definition max_text (m : Z) (d : f64) (txt : list Z) : Prop :=
  printed (f64_div (f64_of_u64 m) d) txt /\
  (finite d -> real_of d <> 0%R -> (Rabs (scaled m d) < bpow radix2 1024)%R ->
   exists ds, printed3 ds (ZnearestE (Rabs (scaled m d) * 1000)) /\ txt = (if Bsign d then [MINUS] else []) ++ ds).
(** what a call writes *)
Definition op_text (ser : serializer) (divisor : f64) (op : log_op) (txt : list Z) : Prop :=
  match op with
  | Comment c => comment_text c txt
  | Histogram h start dur t =>
      exists m bs a b x p, max h = Ret m /\ ser h = Ret (ROk bs) /\
        printed3 a (logged_ms start) /\ printed3 b (logged_ms dur) /\ max_text m divisor x /\ base64 bs p /\
        txt = match t with Some tg => text "Tag=" ++ tg ++ [COMMA] | None => [] end ++
              a ++ [COMMA] ++ b ++ [COMMA] ++ x ++ [COMMA] ++ p ++ [LF]
  end.
(** the histogram is one a client can have, and the times are durations *)
Definition op_valid (op : log_op) : Prop :=
  match op with Comment _ => True | Histogram h start dur _ => reachable h /\ valid_duration start /\ valid_duration dur end.
Definition time_valid (o : option system_time) : Prop := forall t, o = Some t -> valid_duration (st_distance t).
