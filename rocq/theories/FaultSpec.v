(** * Vocabulary for what becomes of a log in which writes have failed *)
From Coq Require Import ZArith List.
From Verif Require Import Machine HistModel Reach SerModel FloatModel LogModel LogSpec.
Import ListNotations.
Open Scope Z_scope.

(** the histogram of this call could not be serialized *)
Definition unserialized (x : log_op * result unit log_write_error) : Prop :=
  exists e, snd x = RErr (LogSerializeError e).
(** the text of a comment is a string *)
Definition op_str (op : log_op) : Prop := match op with Comment c => is_str c | _ => True end.

(** an interval that was never written: with the tag, the times and the maximum of the call that failed, and
    a payload that is not base64 *)
Definition phantom (pf : f64_reader) (divisor : f64) (op : log_op) (i : interval) : Prop :=
  match op with
  | Comment _ => False
  | Histogram h start dur t =>
      exists m, max h = Ret m /\ i_tag i = t /\ i_start i = logged start /\ i_duration i = logged dur /\
        pf (fmt3 (f64_div (f64_of_u64 m) divisor)) = Some (i_max i) /\ b64_decode (i_histogram i) = None
  end.
(** what the log says about a history whose last call succeeded: the calls that succeeded, except that a run
    of calls that failed swallows the call after it and leaves a phantom of the first of them *)
Inductive retold (ser : serializer) (pf : f64_reader) (divisor : f64) :
  list (log_op * result unit log_write_error) -> list log_entry -> Prop :=
| retold_nil : retold ser pf divisor [] []
| retold_told op es l rest : told ser pf divisor op es -> retold ser pf divisor l rest ->
    retold ser pf divisor ((op, ROk tt) :: l) (es ++ rest)
| retold_phantom x fs op i l rest : unserialized x -> Forall unserialized fs -> phantom pf divisor (fst x) i ->
    retold ser pf divisor l rest ->
    retold ser pf divisor (x :: fs ++ (op, ROk tt) :: l) (Interval i :: rest).

(** the calls that succeeded and did not come right after one that failed *)
Fixpoint undamaged (clean : bool) (l : list (log_op * result unit log_write_error)) : list log_op :=
  match l with
  | [] => []
  | (op, ROk _) :: l' => (if clean then [op] else []) ++ undamaged true l'
  | (_, RErr _) :: l' => undamaged false l'
  end.
(** the calls that succeeded *)
Definition successes (l : list (log_op * result unit log_write_error)) : list log_op :=
  flat_map (fun x => match snd x with ROk _ => [fst x] | RErr _ => [] end) l.
(** a call that failed is followed by a comment *)
Fixpoint commented (l : list (log_op * result unit log_write_error)) : Prop :=
  match l with
  | [] => True
  | (_, RErr _) :: l' => match l' with (Comment _, _) :: _ => True | _ => False end /\ commented l'
  | (_, ROk _) :: l' => commented l'
  end.
(** an entry other than an interval whose payload is not base64 *)
Definition decodes (e : log_entry) : bool :=
  match e with Interval i => match b64_decode (i_histogram i) with Some _ => true | None => false end | _ => true end.
