(** Property theorems; the proofs are in [PfLang].  Generated by tools/gen_theorems.py. *)
From Verif Require Import Machine Log2Model HistModel Spec Reach Witness FloatModel FloatSpec SerModel SerSpec LogModel LogSpec LogReader LangSpec LangFacts FloatFacts Props_Log PfLang.
From Coq Require Import String Reals List Lra.
From Flocq Require Import Core IEEE754.BinarySingleNaN.
Open Scope Z_scope.


(** C66: the iterator delivers these entries and no error exactly if the input is a log that says so: lines that are a start time, a base time, an interval, a comment or a legend, each with its line feed *)
Theorem C66_language : forall pf input es, zlen input <= usize_max ->
  (yields pf (log_iter_new input) (map ROk es) <-> log_text pf input es).
Proof. exact C66_language_proof. Qed.
Print Assumptions C66_language.

(** C66: it delivers these entries and then an error exactly if the input is a log that says so, up to the offset of the error, followed by something that does not start with a line *)
Theorem C66_error : forall pf input es off, zlen input <= usize_max ->
  (yields pf (log_iter_new input) (map ROk es ++ [RErr (ParseError off)]) <->
   exists p q, input = p ++ q /\ off = zlen p /\ log_text pf p es /\ unreadable pf q).
Proof. exact C66_error_proof. Qed.
Print Assumptions C66_error.

(** C66: a log can be read in one way only *)
Theorem C66_unambiguous : forall pf input a b, log_text pf input a -> log_text pf input b -> a = b.
Proof. exact C66_unambiguous_proof. Qed.
Print Assumptions C66_unambiguous.

(** C66: two logs one after the other are a log *)
Theorem C66_concatenation : forall pf p q a b, log_text pf p a -> log_text pf q b -> log_text pf (p ++ q) (a ++ b).
Proof. exact C66_concatenation_proof. Qed.
Print Assumptions C66_concatenation.

(** seconds with a sign and more than nine places; numbers; a character of three bytes *)
Example ex_C66_fields : seconds (text "+7.1234567891") (mk_duration 7 123456789) /\ seconds (text "0.5") (mk_duration 0 500000000) /\
  is_number (text "-1.5E+3") /\ is_number (text ".5") /\ is_number (text "5.") /\ is_number (text "NaN") /\ ~ is_word (text "inf") (text "infinity") /\
  is_utf8 [226; 130; 172] /\ ~ is_utf8 [237; 160; 128].
Proof.
  assert (D : forall s, forallb (fun c => (48 <=? c) && (c <=? 57)) s = true -> all_digits s).
  { intros s H. apply Forall_forall. rewrite forallb_forall in H. intros c I. specialize (H c I). rewrite andb_true_iff, !Z.leb_le in H. exact H. }
  split. { exists [PLUS], (text "7"), (text "1234567891"). split; [reflexivity|]. split; [auto|]. split; [discriminate|]. split; [apply D; reflexivity|].
    split; [vm_compute; discriminate|]. split; [discriminate|]. split; [apply D; reflexivity|vm_compute; reflexivity]. }
  split. { exists [], (text "0"), (text "5"). split; [reflexivity|]. split; [auto|]. split; [discriminate|]. split; [apply D; reflexivity|].
    split; [vm_compute; discriminate|]. split; [discriminate|]. split; [apply D; reflexivity|vm_compute; reflexivity]. }
  split. { left. exists [MINUS], (text "1.5"), (text "E+3"). split; [reflexivity|]. split; [right; auto|]. split.
    - right. exists (text "1"), (text "5"). split; [reflexivity|]. split; [apply D; reflexivity|]. split; [apply D; reflexivity|left; discriminate].
    - right. exists 69, [PLUS], (text "3"). split; [reflexivity|]. split; [auto|]. split; [right; auto|]. split; [discriminate|apply D; reflexivity]. }
  split. { left. exists [], (text ".5"), []. split; [reflexivity|]. split; [left; auto|]. split; [|left; auto].
    right. exists [], (text "5"). split; [reflexivity|]. split; [constructor|]. split; [apply D; reflexivity|right; discriminate]. }
  split. { left. exists [], (text "5."), []. split; [reflexivity|]. split; [left; auto|]. split; [|left; auto].
    right. exists (text "5"), []. split; [reflexivity|]. split; [apply D; reflexivity|]. split; [constructor|left; discriminate]. }
  split. { right. left. repeat constructor; cbn; lia. }
  split. { intros H. assert (L : forall w s, is_word w s -> length w = length s) by (induction 1; cbn; congruence). apply L in H. discriminate. }
  split. { exists [8364]. split; [constructor; [left; lia|constructor]|reflexivity]. }
  intros H. apply utf8_iff in H. vm_compute in H. discriminate.
Qed.
(** a comment, a legend, a header, an interval with a line feed in its tag and carriage returns at its end; then an infinite maximum that is not understood *)
Example ex_C66 : let pf := fun _ => Some f64_zero in
  let log := text "#hello" ++ [LF; 34] ++ text "StartTimestamp" ++ [34] ++ text ",..." ++ [LF] ++ text "#[BaseTime: +12.5 x" ++ [LF] ++
             text "Tag=a" ++ [LF] ++ text "b,1.25,2.0,7.5,AAAA" ++ [CR; CR; LF] in
  let rest := text "1.0,2.0,infinity,AAAA" ++ [LF] in
  let es := [BaseTime (mk_duration 12 500000000);
             Interval (mk_interval (Some (text "a" ++ [LF] ++ text "b")) (mk_duration 1 250000000) (mk_duration 2 0) f64_zero (text "AAAA"))] in
  log_text pf log es /\ unreadable pf rest /\ yields pf (log_iter_new (log ++ rest)) (map ROk es ++ [RErr (ParseError 76)]).
Proof.
  cbv zeta. set (pf := fun _ : list Z => Some f64_zero).
  match goal with |- log_text pf ?l ?es /\ unreadable pf ?r /\ _ => assert (U : unreadable pf r);
    [apply unreadable_iff; split; [discriminate|]; split; vm_compute; reflexivity|assert (T : log_text pf l es)] end.
  - apply C66_language; [vm_compute; discriminate|].
    eapply yields_item; [vm_compute; reflexivity|]. eapply yields_item; [vm_compute; reflexivity|]. eapply yields_end. vm_compute. reflexivity.
  - split; [exact T|]. split; [exact U|]. apply C66_error; [vm_compute; discriminate|]. eexists _, _. split; [reflexivity|].
    split; [vm_compute; reflexivity|]. auto.
Qed.

(** C67: a log starts with the comments, each line after a hash, then the start time, the base time and the divisor, as far as they were configured, and with nothing else *)
Theorem C67_header : forall comments start base divisor script s, time_valid start -> time_valid base ->
  begin_log_with (configured comments start base divisor) (new_sink script) = (s, ROk tt) ->
  header_text comments start base divisor (sk_out s).
Proof. exact C67_header_proof. Qed.
Print Assumptions C67_header.

(** C67: a call that succeeds appends exactly this text: the lines of a comment, each after a hash, or one line with the tag, both times, the divided maximum and the histogram in base64 *)
Theorem C67_call : forall ser divisor s op s', byte_serializer ser -> op_valid op ->
  log_do ser divisor s op = Ret (s', ROk tt) -> exists txt, op_text ser divisor op txt /\ sk_out s' = sk_out s ++ txt.
Proof. exact C67_call_proof. Qed.
Print Assumptions C67_call.

(** C67: so a log written without an error is its header and the texts of the calls, in order, and nothing else *)
Theorem C67_text : forall ser script comments start base divisor s0 l s, byte_serializer ser -> time_valid start -> time_valid base ->
  begin_log_with (configured comments start base divisor) (new_sink script) = (s0, ROk tt) ->
  log_run ser divisor s0 l s -> Forall succeeded l -> Forall (fun x => op_valid (fst x)) l ->
  exists hd txts, header_text comments start base divisor hd /\ Forall2 (op_text ser divisor) (map fst l) txts /\ sk_out s = hd ++ concat txts.
Proof. exact C67_text_proof. Qed.
Print Assumptions C67_text.

(** C67: these descriptions leave no choice: there is only one text for a header and one for a call *)
Theorem C67_determined : 
  (forall comments start base divisor a b, header_text comments start base divisor a -> header_text comments start base divisor b -> a = b) /\
  (forall ser divisor op a b, op_text ser divisor op a -> op_text ser divisor op b -> a = b).
Proof. exact C67_determined_proof. Qed.
Print Assumptions C67_determined.

(** C67: the maximum read from the log is the one written, rounded to thousandths, for every positive divisor *)
Theorem C67_maximum : forall pf ser divisor h start dur t es m, rounds_numbers pf -> reachable h -> max h = Ret m ->
  finite divisor -> (0 < real_of divisor)%R -> (scaled m divisor < bpow radix2 1024)%R ->
  told ser pf divisor (Histogram h start dur t) es ->
  exists i, es = [Interval i] /\ finite (i_max i) /\ real_of (i_max i) = rne (IZR (ZnearestE (scaled m divisor * 1000)) / 1000).
Proof. exact C67_maximum_proof. Qed.
Print Assumptions C67_maximum.

(** a header with two comments and both times, one before the epoch; a divisor of one half prints a line, one does not *)
Example ex_C67 : let half := f64_div f64_one (f64_of_u64 2) in
  let start := Some (mk_system_time false (mk_duration 1700000000 123000000)) in
  let base := Some (mk_system_time true (mk_duration 5 0)) in
  time_valid start /\ time_valid base /\
  (exists s, begin_log_with (configured [text "hello"; text "a" ++ [LF] ++ text "b"] start base half) (new_sink []) = (s, ROk tt) /\
     sk_out s = text "#hello" ++ [LF] ++ text "#a" ++ [LF] ++ text "#b" ++ [LF] ++
       text "#[StartTime: 1700000000.123 (seconds since epoch)]" ++ [LF] ++
       text "#[BaseTime: -5.000 (seconds since epoch)]" ++ [LF] ++ text "#[MaxValueDivisor: 0.500]" ++ [LF]) /\
  (exists s, begin_log_with (configured [[]] None None f64_one) (new_sink []) = (s, ROk tt) /\ sk_out s = [HASH; LF]).
Proof.
  assert (V : forall b d, valid_duration d -> time_valid (Some (mk_system_time b d))) by (intros b d H t [= <-]; exact H).
  cbv zeta. split; [apply V; split; unfold is_u64, u64_max; cbn; lia|]. split; [apply V; split; unfold is_u64, u64_max; cbn; lia|].
  split; eexists; split; vm_compute; reflexivity.
Qed.
(** a histogram, with a tag and a divisor of two; the conditions of the theorems hold *)
Example ex_C67_histogram : let ser := v2_serialize (fun _ => 0) in let two := f64_of_u64 2 in
  byte_serializer ser /\ rounds_numbers simple_reader /\ finite two /\ real_of two = 2%R /\
  match build U64 1 10000 2 false [(3, 7); (500, 2)] with
  | Some h => let op := Histogram h (mk_duration 1 500000000) (mk_duration 2 0) (Some (text "a")) in
      op_valid op /\ max h = Ret 501 /\ (scaled 501 two < bpow radix2 1024)%R /\
      match log_do ser two (new_sink []) op with
      | Ret (s, ROk tt) => starts_with (text "Tag=a,1.500,2.000,250.500,HISTEwAAA") (sk_out s)
      | _ => False end
  | None => False end.
Proof.
  cbv zeta. split; [exact (C46_v2_bytes _)|]. split; [exact simple_rounds|].
  destruct (of_u64_ok 2) as (A & B & _); [unfold u64_max; lia|]. rewrite (rne_IZR 2) in A by lia.
  split; [exact B|]. split; [exact A|].
  assert (X : match build U64 1 10000 2 false [(3, 7); (500, 2)] with
    | Some h => max h = Ret 501 /\ match log_do (v2_serialize (fun _ => 0)) (f64_of_u64 2) (new_sink []) (Histogram h (mk_duration 1 500000000) (mk_duration 2 0) (Some (text "a"))) with
      | Ret (s, ROk tt) => starts_with (text "Tag=a,1.500,2.000,250.500,HISTEwAAA") (sk_out s)
      | _ => False end
    | None => False end) by (vm_compute; split; [reflexivity|eexists; reflexivity]).
  destruct (build U64 1 10000 2 false [(3, 7); (500, 2)]) as [h|] eqn:E; [|exact X]. destruct X as (X1 & X2).
  split. { split; [eapply build_reachable; eauto|]. split; split; unfold is_u64, u64_max; cbn; lia. }
  split; [exact X1|]. split; [|exact X2]. unfold scaled, real_of. rewrite A, (rne_IZR 501) by lia.
  apply Rle_lt_trans with (bpow radix2 9); [|apply bpow_lt; lia]. rewrite <- (rne_id (bpow radix2 9)) by (apply gf_bpow; lia).
  apply rne_le. change (bpow radix2 9) with 512%R. lra.
Qed.
