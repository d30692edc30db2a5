(** Property theorems; the proofs are in [PfLog].  Generated by tools/gen_theorems.py. *)
From Verif Require Import Machine Log2Model HistModel Spec Reach Witness Cases FloatModel FloatSpec SerModel SerSpec LogModel LogSpec LogLines LogReader PfLog.
From Coq Require Import String Reals List.
From Flocq Require Import Core IEEE754.BinarySingleNaN.
Open Scope Z_scope.


(** C47: whatever the bytes, the iterator never panics, delivers at most one entry per line feed and then says [None], after at most one error, the last item, which names the start of a line; without an error the input was empty or ended with a line feed *)
Theorem C47_total : forall pf input, zlen input <= usize_max ->
  exists es err, yields pf (log_iter_new input) (map ROk es ++ err) /\ zlen es <= line_feeds input /\
    ((err = [] /\ (input = [] \/ exists p, input = p ++ [LF])) \/
     exists off, err = [RErr (ParseError off)] /\ 0 <= off < zlen input /\ line_start input off /\
       yields pf (log_iter_new (skipn (Z.to_nat off) input)) [RErr (ParseError 0)]).
Proof. exact C47_total_proof. Qed.
Print Assumptions C47_total.

(** C47: once the iterator has said [None] or reported an error it says [None] for ever *)
Theorem C47_fused : forall pf it it' x, log_next pf it = Ret (it', x) -> (forall e, x <> Some (ROk e)) ->
  log_next pf it' = Ret (it', None).
Proof. exact C47_fused_proof. Qed.
Print Assumptions C47_fused.

(** a log with a header, an interval, a comment and a broken line *)
Example ex_C47 : let pf := fun _ => Some f64_zero in
  let input := text "#[BaseTime: 12.5 x" ++ [LF] ++ text "#hello" ++ [LF] ++ text "Tag=a,1.25,2.0,7.5,AAAA" ++ [CR; LF] ++ text "oops" ++ [LF] in
  zlen input = 56 /\
  exists it1 it2 it3, log_next pf (log_iter_new input) = Ret (it1, Some (ROk (BaseTime (mk_duration 12 500000000)))) /\
    log_next pf it1 = Ret (it2, Some (ROk (Interval (mk_interval (Some (text "a")) (mk_duration 1 250000000) (mk_duration 2 0) f64_zero (text "AAAA"))))) /\
    log_next pf it2 = Ret (it3, Some (RErr (ParseError 51))) /\ log_next pf it3 = Ret (it3, None) /\ line_start input 51.
Proof.
  cbv zeta. split; [reflexivity|]. eexists _, _, _. split; [vm_compute; reflexivity|]. split; [vm_compute; reflexivity|].
  split; [vm_compute; reflexivity|]. split; [vm_compute; reflexivity|]. right.
  exists (text "#[BaseTime: 12.5 x" ++ [LF] ++ text "#hello" ++ [LF] ++ text "Tag=a,1.25,2.0,7.5,AAAA" ++ [CR]), (text "oops" ++ [LF]).
  split; vm_compute; reflexivity.
Qed.

(** C48: a string is accepted as a tag exactly if it has no comma, carriage return, line feed or space *)
Theorem C48_tag_new : forall s, is_str s ->
  (tag_new s = Some s <-> ~ In COMMA s /\ ~ In CR s /\ ~ In LF s /\ ~ In SPACE s) /\
  (tag_new s = None <-> In COMMA s \/ In CR s \/ In LF s \/ In SPACE s) /\
  (forall t, tag_new s = Some t -> tag_as_str t = s).
Proof. exact C48_tag_new_proof. Qed.
Print Assumptions C48_tag_new.

(** a tag with characters of one, two, three and four bytes; a tag with a space; the empty tag *)
Example ex_C48 : let s := [65; 195; 169; 226; 130; 172; 240; 159; 152; 128] in
  is_str s /\ chars s = [65; 233; 8364; 128512] /\ tag_new s = Some s /\ tag_new (text "a b") = None /\ tag_new [] = Some [].
Proof. cbv zeta. split; [split; [repeat constructor; vm_compute; congruence|vm_compute; reflexivity]|]. vm_compute. auto. Qed.

(** C48: but the parser delivers tags that [Tag::new] would not accept *)
Theorem C48_parsed_tag_refuted : exists pf input it' i x, bytes input /\
  log_next pf (log_iter_new input) = Ret (it', Some (ROk (Interval i))) /\ i_tag i = Some x /\ tag_new x = None.
Proof. exact C48_parsed_tag_refuted_proof. Qed.
Print Assumptions C48_parsed_tag_refuted.

(** C46: a duration of whole milliseconds below 2^42 seconds is logged exactly *)
Theorem C46_milliseconds : forall d, valid_duration d -> d_secs d < 2 ^ 42 -> d_nanos d mod 1000000 = 0 -> logged d = d.
Proof. exact C46_milliseconds_proof. Qed.
Print Assumptions C46_milliseconds.

(** C46: any duration below 2^42 seconds is logged to the millisecond: no more than three quarters of one off *)
Theorem C46_close : forall d, valid_duration d -> d_secs d < 2 ^ 42 ->
  Z.abs (duration_ns (logged d) - duration_ns d) <= 750000.
Proof. exact C46_close_proof. Qed.
Print Assumptions C46_close.

(** C46: durations below 2^63 seconds can be logged *)
Theorem C46_loggable : forall d, valid_duration d -> d_secs d < 2 ^ 63 -> loggable d.
Proof. exact C46_loggable_proof. Qed.
Print Assumptions C46_loggable.

Example ex_C46_times : let d := mk_duration 1700000000 123000000 in valid_duration d /\ d_secs d < 2 ^ 42 /\ d_nanos d mod 1000000 = 0 /\
  fmt3 (duration_as_fp_seconds d) = text "1700000000.123" /\
  fmt3 (duration_as_fp_seconds (mk_duration 5 999600000)) = text "6.000" /\
  fmt3 (duration_as_fp_seconds (mk_duration 0 62500000)) = text "0.062".
Proof. cbv zeta. unfold valid_duration, is_u64. cbn [d_secs d_nanos]. repeat split; try (vm_compute; congruence); vm_compute; reflexivity. Qed.

(** C46: parsing a log delivers the configured headers and then what was written, in order: every interval with its tag, times in milliseconds, maximum and base64 payload, nothing for the comments, and no error *)
Theorem C46_round_trip : forall pf ser script comments start base divisor s0 l s,
  reads_numbers pf -> byte_serializer ser ->
  Forall plain_comment comments -> header_ok start -> header_ok base ->
  begin_log_with (configured comments start base divisor) (new_sink script) = (s0, ROk tt) ->
  log_run ser divisor s0 l s -> Forall succeeded l -> Forall (fun x => op_ok divisor (fst x)) l ->
  exists ess, Forall2 (told ser pf divisor) (map fst l) ess /\
    yields pf (log_iter_new (sk_out s)) (map ROk (header_entries start base ++ concat ess)).
Proof. exact C46_round_trip_proof. Qed.
Print Assumptions C46_round_trip.

(** a header comment of two lines, a start time, a tagged histogram and a comment *)
Example ex_C46_round_trip : let ser := v2_serialize (fun _ => 0) in
  let start := Some (mk_system_time false (mk_duration 1700000000 123000000)) in
  let comments := [text "a" ++ [LF] ++ text "b"] in
  reads_numbers simple_reader /\ byte_serializer ser /\ Forall plain_comment comments /\ header_ok start /\ header_ok None /\
  match build U64 1 10000 2 false [(3, 7); (500, 2)] with
  | Some h =>
      let l := [(Histogram h (mk_duration 1 500000000) (mk_duration 2 0) (Some (text "a")), ROk tt); (Comment (text "more"), ROk tt)] in
      exists s0 s, begin_log_with (configured comments start None f64_one) (new_sink []) = (s0, ROk tt) /\
        log_run ser f64_one s0 l s /\ Forall succeeded l /\ Forall (fun x => op_ok f64_one (fst x)) l /\ line_feeds (sk_out s) = 5
  | None => False end.
Proof.
  assert (L : forall a b, (0 <=? a) && (a <? 2 ^ 63) && (0 <=? b) && (b <? 1000000000) = true -> loggable (mk_duration a b)).
  { intros a b E. rewrite !andb_true_iff, !Z.leb_le, !Z.ltb_lt in E. apply C46_loggable; [split|]; cbn; unfold is_u64, u64_max; lia. }
  cbv zeta. split; [exact simple_reads|]. split; [exact (C46_v2_bytes_proof _)|]. split.
  { constructor; [apply plain_comment_ok; vm_compute; reflexivity|constructor]. }
  split. { intros t [= <-]. split; [reflexivity|]. apply L. reflexivity. }
  split; [discriminate|].
  assert (X : match build U64 1 10000 2 false [(3, 7); (500, 2)] with
    | Some h => max h = Ret 501 /\ match begin_log_with (configured [text "a" ++ [LF] ++ text "b"] (Some (mk_system_time false (mk_duration 1700000000 123000000))) None f64_one) (new_sink []) with
        | (s0, ROk tt) => match log_do (v2_serialize (fun _ => 0)) f64_one s0 (Histogram h (mk_duration 1 500000000) (mk_duration 2 0) (Some (text "a"))) with
            | Ret (s1, ROk tt) => match log_do (v2_serialize (fun _ => 0)) f64_one s1 (Comment (text "more")) with Ret (s, ROk tt) => line_feeds (sk_out s) = 5 | _ => False end
            | _ => False end
        | _ => False end
    | None => False end) by (vm_compute; auto).
  destruct (build U64 1 10000 2 false [(3, 7); (500, 2)]) as [h|] eqn:E; [|exact X]. destruct X as [M X].
  destruct (begin_log_with _ _) as [s0 [[]|]]; [|contradiction].
  destruct (log_do _ _ _ (Histogram _ _ _ _)) as [[s1 [[]|]]|] eqn:D1; try contradiction.
  destruct (log_do _ _ _ (Comment _)) as [[s [[]|]]|] eqn:D2; try contradiction.
  exists s0, s. split; [reflexivity|]. split; [exact (log_run_cons _ _ _ _ _ _ _ _ D1 (log_run_cons _ _ _ _ _ _ _ _ D2 (log_run_nil _ _ _)))|].
  split; [repeat constructor|]. split; [|exact X].
  constructor; [|constructor; [apply plain_comment_ok; vm_compute; reflexivity|constructor]].
  split; [eapply build_reachable; eauto|]. split; [apply L; reflexivity|]. split; [apply L; reflexivity|]. split.
  - intros x [= <-]. split; [|reflexivity]. split; [repeat constructor; vm_compute; congruence|reflexivity].
  - intros m M'. rewrite M in M'. injection M' as <-. intros K. apply (f_equal is_finite) in K. vm_compute in K. discriminate.
Qed.

(** C46: the serializers of the crate deliver bytes *)
Theorem C46_v2_bytes : forall junk, byte_serializer (v2_serialize junk).
Proof. exact C46_v2_bytes_proof. Qed.
Print Assumptions C46_v2_bytes.

(** C46: what the log says of a histogram deserializes to the same samples *)
Theorem C46_samples : forall pf junk divisor h start dur t es checks cd buf, reachable h ->
  told (v2_serialize junk) pf divisor (Histogram h start dur t) es ->
  exists i bs h', es = [Interval i] /\ b64_decode (i_histogram i) = Some bs /\
    deserialize checks cd buf (h_ctr h) bs = Ret (ROk (h', [])) /\ held h' = held h /\
    h_low h' = h_low h /\ h_high h' = h_high h /\ h_sigfig h' = h_sigfig h.
Proof. exact C46_samples_proof. Qed.
Print Assumptions C46_samples.

(** C46: without a divisor, the maximum read from the log is that of the histogram, up to 2^53 *)
Theorem C46_maximum : forall pf ser h start dur t es m, rounds_numbers pf -> max h = Ret m -> 0 <= m <= 2 ^ 53 ->
  told ser pf f64_one (Histogram h start dur t) es ->
  exists i, es = [Interval i] /\ finite (i_max i) /\ real_of (i_max i) = IZR m.
Proof. exact C46_maximum_proof. Qed.
Print Assumptions C46_maximum.

(** the hypotheses can be met: a reader of numbers, a time, a comment, a tagged histogram *)
Example ex_C46_hypotheses : reads_numbers simple_reader /\ rounds_numbers simple_reader /\
  header_ok (Some (mk_system_time false (mk_duration 1700000000 123000000))) /\ plain_comment (text "a" ++ [LF] ++ text "b") /\
  match build U64 1 10000 2 false [(3, 7); (500, 2)] with
  | Some h => op_ok f64_one (Histogram h (mk_duration 1 500000000) (mk_duration 2 0) (Some (text "a"))) /\ max h = Ret 501
  | None => False end.
Proof.
  assert (L : forall a b, (0 <=? a) && (a <? 2 ^ 63) && (0 <=? b) && (b <? 1000000000) = true -> loggable (mk_duration a b)).
  { intros a b E. rewrite !andb_true_iff, !Z.leb_le, !Z.ltb_lt in E. apply C46_loggable; [split|]; cbn; unfold is_u64, u64_max; lia. }
  split; [exact simple_reads|]. split; [exact simple_rounds|]. split.
  { intros t [= <-]. split; [reflexivity|]. apply L. reflexivity. }
  split; [apply plain_comment_ok; vm_compute; reflexivity|].
  assert (X : match build U64 1 10000 2 false [(3, 7); (500, 2)] with Some h => max h = Ret 501 | None => False end) by (vm_compute; reflexivity).
  destruct (build U64 1 10000 2 false [(3, 7); (500, 2)]) as [h|] eqn:E; [|exact X]. split; [|exact X].
  split; [eapply build_reachable; eauto|]. split; [apply L; reflexivity|]. split; [apply L; reflexivity|]. split.
  - intros x [= <-]. split; [|reflexivity]. split; [repeat constructor; vm_compute; congruence|reflexivity].
  - intros m M. rewrite X in M. injection M as <-. intros K. apply (f_equal is_finite) in K. vm_compute in K. discriminate.
Qed.
(** two header comments, both times, and then a tagged histogram, a comment and another histogram, with a divisor of 2 *)
Example ex_C46 : let ser := v2_serialize (fun _ => 0) in let two := f64_of_u64 2 in
  let start := Some (mk_system_time false (mk_duration 1700000000 123000000)) in
  let base := Some (mk_system_time false (mk_duration 5 0)) in
  let comments := [text "hello"; text "a" ++ [LF] ++ text "b"] in
  match build U64 1 10000 2 false [(3, 7); (500, 2)], build U32 1 10000 2 false [] with
  | Some h1, Some h2 =>
      let ops := [Histogram h1 (mk_duration 1 500000000) (mk_duration 2 0) (Some (text "a")); Comment (text "more"); Histogram h2 (mk_duration 3 0) (mk_duration 4 0) None] in
      match begin_log_with (configured comments start base two) (new_sink [None; Some 7%nat]) with
      | (s0, ROk tt) =>
          match log_do ser two s0 (nth 0 ops (Comment [])) with
          | Ret (s1, ROk tt) => match log_do ser two s1 (nth 1 ops (Comment [])) with
            | Ret (s2, ROk tt) => match log_do ser two s2 (nth 2 ops (Comment [])) with
              | Ret (s3, ROk tt) =>
                  starts_with (text "#hello" ++ [LF] ++ text "#a" ++ [LF] ++ text "#b" ++ [LF] ++
                    text "#[StartTime: 1700000000.123 (seconds since epoch)]" ++ [LF] ++
                    text "#[BaseTime: 5.000 (seconds since epoch)]" ++ [LF] ++ text "#[MaxValueDivisor: 2.000]" ++ [LF] ++
                    text "Tag=a,1.500,2.000,250.500,HISTEwAAA") (sk_out s3)
              | _ => False end
            | _ => False end
          | _ => False end
      | _ => False end
  | _, _ => False end.
Proof. cbv zeta. vm_compute. eexists. reflexivity. Qed.

(** C46: but a start time before the epoch is lost, without an error: its line counts as a comment *)
Theorem C46_before_epoch_refuted : forall pf, exists t s, st_before t = true /\ loggable (st_distance t) /\
  begin_log_with (configured [] (Some t) None f64_one) (new_sink []) = (s, ROk tt) /\
  yields pf (log_iter_new (sk_out s)) [].
Proof. exact C46_before_epoch_refuted_proof. Qed.
Print Assumptions C46_before_epoch_refuted.

(** C46: and a log with a duration close to [u64::MAX] seconds is written but cannot be read: the seconds round up to 2^64 *)
Theorem C46_huge_duration_refuted : forall pf, exists h d s, reachable h /\ valid_duration d /\
  write_histogram (v2_serialize (fun _ => 0)) f64_one (new_sink []) h d (mk_duration 1 0) None = Ret (s, ROk tt) /\
  yields pf (log_iter_new (sk_out s)) [RErr (ParseError 0)].
Proof. exact C46_huge_duration_refuted_proof. Qed.
Print Assumptions C46_huge_duration_refuted.

(** C46: neither can one whose divisor is the negative zero: the parser does not know negative infinity *)
Theorem C46_negative_divisor_refuted : forall pf, exists h s, reachable h /\
  write_histogram (v2_serialize (fun _ => 0)) (B754_zero true) (new_sink []) h (mk_duration 1 0) (mk_duration 1 0) None = Ret (s, ROk tt) /\
  yields pf (log_iter_new (sk_out s)) [RErr (ParseError 0)].
Proof. exact C46_negative_divisor_refuted_proof. Qed.
Print Assumptions C46_negative_divisor_refuted.

(** C49: a comment none of whose lines looks like a header is ignored: what follows it in the log is read as if it stood alone, with the offset of an error moved by the length of the comment *)
Theorem C49_comment : forall pf script c s rest items, plain_comment c ->
  write_comment (new_sink script) c = (s, ROk tt) -> zlen (sk_out s ++ rest) <= usize_max ->
  yields pf (log_iter_new rest) items ->
  yields pf (log_iter_new (sk_out s ++ rest)) (map (moved (zlen (sk_out s))) items).
Proof. exact C49_comment_proof. Qed.
Print Assumptions C49_comment.

(** a comment of two lines, the first quoting an interval, the second nearly a header *)
Example ex_C49 : let c := text "Tag=a,1.0,2.0,3.0,AAAA" ++ [LF] ++ text "[StartTime 5.0 x" in
  plain_comment c /\ sk_out (fst (write_comment (new_sink []) c)) = text "#Tag=a,1.0,2.0,3.0,AAAA" ++ [LF] ++ text "#[StartTime 5.0 x" ++ [LF] /\
  snd (write_comment (new_sink [None; None]) c) = ROk tt.
Proof. cbv zeta. split; [apply plain_comment_ok; vm_compute; reflexivity|]. split; vm_compute; reflexivity. Qed.

(** C49: but a comment can look like a header *)
Theorem C49_header_comment_refuted : forall pf, exists c s it, write_comment (new_sink []) c = (s, ROk tt) /\ bytes c /\
  log_next pf (log_iter_new (sk_out s)) = Ret (it, Some (ROk (StartTime (mk_duration 1 0)))).
Proof. exact C49_header_comment_refuted_proof. Qed.
Print Assumptions C49_header_comment_refuted.

(** C50 (what is missing: the writes after the failed one): when a write fails, of a comment or of a histogram, at whatever byte, the log up to there still reads as what was written before, followed by at most one error, whose offset is in the failed write; after a serialization error there always is that error *)
Theorem C50_before_partial : forall pf ser script comments start base divisor s0 l s op e s',
  reads_numbers pf -> byte_serializer ser ->
  Forall plain_comment comments -> header_ok start -> header_ok base ->
  begin_log_with (configured comments start base divisor) (new_sink script) = (s0, ROk tt) ->
  log_run ser divisor s0 l s -> Forall succeeded l -> Forall (fun x => op_ok divisor (fst x)) l ->
  op_ok divisor op -> log_do ser divisor s op = Ret (s', RErr e) -> zlen (sk_out s') <= usize_max ->
  exists ess err, Forall2 (told ser pf divisor) (map fst l) ess /\
    yields pf (log_iter_new (sk_out s')) (map ROk (header_entries start base ++ concat ess) ++ err) /\
    (err = [] \/ exists off, err = [RErr (ParseError off)] /\ zlen (sk_out s) <= off < zlen (sk_out s')) /\
    (forall x, e = LogSerializeError x -> err <> []).
Proof. exact C50_before_partial_proof. Qed.
Print Assumptions C50_before_partial.

(** a sink that takes five bytes of the second interval; a histogram that cannot be serialized *)
Example ex_C50 : let ser := v2_serialize (fun _ => 0) in
  match build U64 1 10000 2 false [(3, 7)], build U64 1 10000 2 false [(3, i64_max); (3, 1)] with
  | Some h1, Some h2 =>
      match log_do ser f64_one (new_sink [None; None; None; Some 5%nat]) (Histogram h1 (mk_duration 1 0) (mk_duration 2 0) None) with
      | Ret (s1, ROk tt) =>
          match log_do ser f64_one s1 (Histogram h1 (mk_duration 1 0) (mk_duration 2 0) None) with
          | Ret (s2, RErr LogIoError) => sk_out s2 = sk_out s1 ++ text "1.000"
          | _ => False end /\
          match log_do ser f64_one (mk_sink (sk_out s1) []) (Histogram h2 (mk_duration 1 0) (mk_duration 2 0) None) with
          | Ret (s2, RErr (LogSerializeError CountNotSerializable)) => sk_out s2 = sk_out s1 ++ text "1.000,2.000,3.000,"
          | _ => False end
      | _ => False end
  | _, _ => False end.
Proof. cbv zeta. vm_compute. split; reflexivity. Qed.

(** C50: but the half-written line stays, and the next interval is glued to it: it is written without an error, and lost, and an interval that was never written is read, with a payload that is not base64 *)
Theorem C50_after_failure_refuted : exists pf h1 h2 s1 s2 i it, reads_numbers pf /\ reachable h1 /\ reachable h2 /\
  log_run (v2_serialize (fun _ => 0)) f64_one (new_sink [])
    [(Histogram h1 (mk_duration 1 0) (mk_duration 2 0) None, RErr (LogSerializeError CountNotSerializable));
     (Histogram h2 (mk_duration 3 0) (mk_duration 4 0) None, ROk tt)] s2 /\
  log_do (v2_serialize (fun _ => 0)) f64_one (new_sink []) (Histogram h2 (mk_duration 3 0) (mk_duration 4 0) None) = Ret (s1, ROk tt) /\
  log_next pf (log_iter_new (sk_out s2)) = Ret (it, Some (ROk (Interval i))) /\ log_next pf it = Ret (mk_log_iter (li_orig_len it) [] true, None) /\
  i_start i = mk_duration 1 0 /\ i_duration i = mk_duration 2 0 /\ b64_decode (i_histogram i) = None.
Proof. exact C50_after_failure_refuted_proof. Qed.
Print Assumptions C50_after_failure_refuted.
