(** Property theorems; the proofs are in [PfFault].  Generated by tools/gen_theorems.py. *)
From Verif Require Import Machine Log2Model HistModel Spec Reach Witness FloatModel FloatSpec SerModel SerSpec LogModel LogSpec LogReader FaultSpec PfFault.
From Coq Require Import String List.
Open Scope Z_scope.


(** C50: what a log says after any number of failures to serialize a histogram.  The calls up to the last
    success are retold: what succeeded is read, except that a run of failures swallows the call after it
    and leaves a phantom, an interval with the tag, the times and the maximum of the first failure and a
    payload that is not base64.  If there are failures after the last success, reading ends with an error
    at the place where the first of them started to write. *)
Theorem C50_failures : forall pf ser script comments start base divisor s0 l s,
  reads_numbers pf -> byte_serializer ser ->
  Forall plain_comment comments -> header_ok start -> header_ok base ->
  begin_log_with (configured comments start base divisor) (new_sink script) = (s0, ROk tt) ->
  log_run ser divisor s0 l s -> Forall (fun x => succeeded x \/ unserialized x) l ->
  Forall (fun x => op_ok divisor (fst x) /\ op_str (fst x)) l -> zlen (sk_out s) <= usize_max ->
  exists l1 l2 s1 es, l = l1 ++ l2 /\ (l1 = [] \/ exists l' op, l1 = l' ++ [(op, ROk tt)]) /\ Forall unserialized l2 /\
    log_run ser divisor s0 l1 s1 /\ retold ser pf divisor l1 es /\
    yields pf (log_iter_new (sk_out s)) (map ROk (header_entries start base ++ es) ++
      match l2 with [] => [] | _ => [RErr (ParseError (zlen (sk_out s1)))] end).
Proof. exact C50_failures_proof. Qed.
Print Assumptions C50_failures.

(** two histograms that cannot be serialized, then one that can, which is swallowed, then a comment and another one; at the end a failure *)
Definition ex_ser := v2_serialize (fun _ => 0).
Definition ex_ops (bad good : hist) : list log_op :=
  [Histogram bad (mk_duration 1 0) (mk_duration 2 0) None; Histogram bad (mk_duration 3 0) (mk_duration 4 0) None;
   Histogram good (mk_duration 5 0) (mk_duration 6 0) None; Comment (text "x"); Histogram good (mk_duration 7 0) (mk_duration 8 0) None;
   Histogram bad (mk_duration 9 0) (mk_duration 10 0) None].
Fixpoint ex_do (s : sink) (ops : list log_op) : list (option (result unit log_write_error)) * sink :=
  match ops with
  | [] => ([], s)
  | op :: ops' => match log_do ex_ser f64_one s op with
      | Ret (s1, r) => let '(rs, s2) := ex_do s1 ops' in (Some r :: rs, s2)
      | Panic => ([None], s)
      end
  end.
Example ex_C50_failures :
  match build U64 1 10000 2 false [(3, i64_max); (3, 1)], build U64 1 10000 2 false [(5, 2)] with
  | Some bad, Some good =>
      let p := text "HISTEwAAAAIAAAAAAAAAAgAAAAAAAAABAAAAAAAAJxA/8AAAAAAAAAkE" in
      let '(rs, s) := ex_do (new_sink []) (ex_ops bad good) in
      rs = [Some (RErr (LogSerializeError CountNotSerializable)); Some (RErr (LogSerializeError CountNotSerializable)); Some (ROk tt);
            Some (ROk tt); Some (ROk tt); Some (RErr (LogSerializeError CountNotSerializable))] /\
      sk_out s = text "1.000,2.000,3.000,3.000,4.000,3.000,5.000,6.000,5.000," ++ p ++ [LF] ++ text "#x" ++ [LF] ++ text "7.000,8.000,5.000," ++ p ++ [LF] ++ text "9.000,10.000,3.000," /\
      match log_next (fun _ => Some f64_zero) (log_iter_new (sk_out s)) with
      | Ret (it, Some (ROk (Interval i))) => i_start i = mk_duration 1 0 /\ b64_decode (i_histogram i) = None /\
          match log_next (fun _ => Some f64_zero) it with
          | Ret (it2, Some (ROk (Interval j))) => i_start j = mk_duration 7 0 /\ i_histogram j = p /\
              match log_next (fun _ => Some f64_zero) it2 with Ret (_, Some (RErr (ParseError off))) => off = 189 | _ => False end
          | _ => False end
      | _ => False end
  | _, _ => False end.
Proof. vm_compute. repeat split. Qed.

(** C50: the phantoms can be told apart: without the intervals whose payload is not base64, the log says
    what the calls say that succeeded and did not come right after a failure. *)
Theorem C50_recovered : forall pf ser script comments start base divisor s0 l s,
  reads_numbers pf -> byte_serializer ser ->
  Forall plain_comment comments -> header_ok start -> header_ok base ->
  begin_log_with (configured comments start base divisor) (new_sink script) = (s0, ROk tt) ->
  log_run ser divisor s0 l s -> Forall (fun x => succeeded x \/ unserialized x) l ->
  Forall (fun x => op_ok divisor (fst x) /\ op_str (fst x)) l -> zlen (sk_out s) <= usize_max ->
  exists es err ess, yields pf (log_iter_new (sk_out s)) (map ROk es ++ err) /\
    (err = [] \/ exists off, err = [RErr (ParseError off)]) /\
    Forall2 (told ser pf divisor) (undamaged true l) ess /\ filter decodes es = header_entries start base ++ concat ess.
Proof. exact C50_recovered_proof. Qed.
Print Assumptions C50_recovered.

(** C50: a client that writes a comment after every failure loses nothing: without the intervals whose
    payload is not base64, the log says what the calls say that succeeded. *)
Theorem C50_comment : forall pf ser script comments start base divisor s0 l s,
  reads_numbers pf -> byte_serializer ser ->
  Forall plain_comment comments -> header_ok start -> header_ok base ->
  begin_log_with (configured comments start base divisor) (new_sink script) = (s0, ROk tt) ->
  log_run ser divisor s0 l s -> Forall (fun x => succeeded x \/ unserialized x) l -> commented l ->
  Forall (fun x => op_ok divisor (fst x) /\ op_str (fst x)) l -> zlen (sk_out s) <= usize_max ->
  exists es ess, yields pf (log_iter_new (sk_out s)) (map ROk es) /\
    Forall2 (told ser pf divisor) (successes l) ess /\ filter decodes es = header_entries start base ++ concat ess.
Proof. exact C50_comment_proof. Qed.
Print Assumptions C50_comment.

(** a comment after each failure *)
Example ex_C50_comment :
  match build U64 1 10000 2 false [(3, i64_max); (3, 1)], build U64 1 10000 2 false [(5, 2)] with
  | Some bad, Some good =>
      let ops := [Histogram bad (mk_duration 1 0) (mk_duration 2 0) None; Comment []; Histogram good (mk_duration 5 0) (mk_duration 6 0) None] in
      let p := text "HISTEwAAAAIAAAAAAAAAAgAAAAAAAAABAAAAAAAAJxA/8AAAAAAAAAkE" in
      let '(rs, s) := ex_do (new_sink []) ops in
      rs = [Some (RErr (LogSerializeError CountNotSerializable)); Some (ROk tt); Some (ROk tt)] /\
      sk_out s = text "1.000,2.000,3.000,#" ++ [LF] ++ text "5.000,6.000,5.000," ++ p ++ [LF] /\
      match log_next (fun _ => Some f64_zero) (log_iter_new (sk_out s)) with
      | Ret (it, Some (ROk e)) => decodes e = false /\
          match log_next (fun _ => Some f64_zero) it with Ret (_, Some (ROk e2)) => decodes e2 = true | _ => False end
      | _ => False end
  | _, _ => False end.
Proof. vm_compute. repeat split. Qed.
Example ex_C50_commented h d : commented [(Histogram h d d None, RErr (LogSerializeError CountNotSerializable)); (Comment [], ROk tt); (Histogram h d d None, ROk tt)] /\
  undamaged true [(Histogram h d d None, RErr (LogSerializeError CountNotSerializable)); (Comment [], ROk tt); (Histogram h d d None, ROk tt)] = [Histogram h d d None].
Proof. cbn. auto. Qed.

(** C50: after an I/O error everything can be lost: the sink takes three bytes of the first call and fails
    once; whatever is written afterwards, with or without success, the log reads as one error at its start. *)
Theorem C50_io_failure_refuted : exists script h s0, reachable h /\
  write_histogram (v2_serialize (fun _ => 0)) f64_one (new_sink script) h (mk_duration 1 0) (mk_duration 2 0) None = Ret (s0, RErr LogIoError) /\
  sk_script s0 = [] /\
  (exists s1, log_do (v2_serialize (fun _ => 0)) f64_one s0 (Histogram h (mk_duration 1 0) (mk_duration 2 0) None) = Ret (s1, ROk tt)) /\
  forall l s pf, log_run (v2_serialize (fun _ => 0)) f64_one s0 ((Histogram h (mk_duration 1 0) (mk_duration 2 0) None, ROk tt) :: l) s ->
    zlen (sk_out s) <= usize_max -> yields pf (log_iter_new (sk_out s)) [RErr (ParseError 0)].
Proof. exact C50_io_failure_refuted_proof. Qed.
Print Assumptions C50_io_failure_refuted.
