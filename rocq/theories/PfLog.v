(** * Proofs of the theorems about the interval log *)
From Coq Require Import String Reals Lra.
From Flocq Require Import Core IEEE754.BinarySingleNaN.
From Verif Require Import Machine ListZ Log2Model HistModel Spec Reach Wf MoreFacts HeldFacts Witness SerModel SerSpec SerCode FloatModel FloatSpec FloatFacts
  LogModel LogSpec LogFacts LogText LogTime LogLines PfSer.
Open Scope Z_scope.

(*PROPS-IMPORTS Machine Log2Model HistModel Spec Reach Witness Cases FloatModel FloatSpec SerModel SerSpec LogModel LogSpec LogLines LogReader *)
(*PROPS-HEADER
From Coq Require Import String Reals List.
From Flocq Require Import Core IEEE754.BinarySingleNaN.
Open Scope Z_scope.
PROPS-HEADER*)

(** ** Any input *)

(** C47: whatever the bytes, the iterator never panics, delivers at most one entry per line feed and then says [None], after at most one error, the last item, which names the start of a line; without an error the input was empty or ended with a line feed *)
Lemma C47_total_proof : forall pf input, zlen input <= usize_max ->
  exists es err, yields pf (log_iter_new input) (map ROk es ++ err) /\ zlen es <= line_feeds input /\
    ((err = [] /\ (input = [] \/ exists p, input = p ++ [LF])) \/
     exists off, err = [RErr (ParseError off)] /\ 0 <= off < zlen input /\ line_start input off /\
       yields pf (log_iter_new (skipn (Z.to_nat off) input)) [RErr (ParseError 0)]).
Proof.
  intros pf input U.
  destruct (iterate pf (length input) (log_iter_new input) input) as (es & err & Y & K & C); auto.
  { exists []. split; auto. left. auto. }
  exists es, err. split; [exact Y|]. split; [exact K|].
  destruct C as [(-> & W)|(p & q & -> & W & N & -> & E1 & E2)]; [left; auto|right].
  exists (zlen p). split; [reflexivity|].
  assert (QL : 0 < zlen q) by (unfold zlen; destruct q; [congruence|cbn; lia]).
  split; [rewrite zlen_app; pose proof (zlen_nonneg p); lia|]. split.
  - destruct W as [->|(r & ->)]; [left; reflexivity|]. right. exists r, q. rewrite <- app_assoc. split; [reflexivity|].
    rewrite zlen_app. reflexivity.
  - unfold zlen at 1. rewrite Nat2Z.id, skipped.
    eapply yields_item; [|eapply yields_end, (ended_next pf (mk_log_iter (zlen q) q true)); reflexivity].
    unfold log_next, log_iter_new. cbn [li_input next_loop li_ended li_orig_len].
    destruct q as [|c q0] eqn:Eq; [congruence|]. rewrite <- Eq in *. rewrite E1. cbn [bind]. rewrite E2. cbn [bind].
    rewrite zlen_app in U. pose proof (zlen_nonneg p).
    unfold usize_sub, in_range. replace ((0 <=? zlen q - zlen q) && (zlen q - zlen q <=? usize_max)) with true
      by (symmetry; rewrite andb_true_iff, !Z.leb_le; lia). cbn [bind]. rewrite Z.sub_diag. reflexivity.
Qed.

(** C47: once the iterator has said [None] or reported an error it says [None] for ever *)
Lemma C47_fused_proof : forall pf it it' x, log_next pf it = Ret (it', x) -> (forall e, x <> Some (ROk e)) ->
  log_next pf it' = Ret (it', None).
Proof.
  intros pf it it' x H N. apply ended_next. revert H.
  unfold log_next. generalize (S (length (li_input it))). intros fuel. revert it.
  induction fuel as [|f IH]; intros it; [discriminate|]. cbn [next_loop].
  destruct (li_ended it) eqn:E; [intros [= <- <-]; auto|].
  destruct (li_input it) as [|c i] eqn:EI; [intros [= <- <-]; auto|]. rewrite <- EI.
  destruct (log_entry_p pf (li_input it)) as [[[rest e]|]|]; cbn [bind]; [|..|discriminate].
  - intros [= <- <-]. exfalso. apply (N e). reflexivity.
  - destruct (ignored_line (li_input it)) as [[[rest []]|]|]; cbn [bind]; [apply IH|..|discriminate].
    destruct (usize_sub _ _); cbn [bind]; [|discriminate]. intros [= <- <-]. reflexivity.
Qed.
(*EX
(** a log with a header, an interval, a comment and a broken line *)
Example ex_C47 : let pf := fun _ => Some f64_zero in
  let input := text "#[BaseTime: 12.5 x" ++ [LF] ++ text "#hello" ++ [LF] ++ text "Tag=a,1.25,2.0,7.5,AAAA" ++ [CR; LF] ++ text "oops" ++ [LF] in
  zlen input = 56 /\
  exists it1 it2 it3, log_next pf (log_iter_new input) = Ret (it1, Some (ROk (BaseTime (mk_duration 12 500000000)))) /\
    log_next pf it1 = Ret (it2, Some (ROk (Interval (mk_interval (Some (text "a")) (mk_duration 1 250000000) (mk_duration 2 0) f64_zero (text "AAAA"))))) /\
    log_next pf it2 = Ret (it3, Some (RErr (ParseError 51))) /\ log_next pf it3 = Ret (it3, None) /\ line_start input 51.
Proof.
  cbv zeta. split; [reflexivity|]. eexists _, _, _. split; [vm_compute; reflexivity|]. split; [vm_compute; reflexivity|].
  split; [vm_compute; reflexivity|]. split; [vm_compute; reflexivity|]. right.
  exists (text "#[BaseTime: 12.5 x" ++ [LF] ++ text "#hello" ++ [LF] ++ text "Tag=a,1.25,2.0,7.5,AAAA" ++ [CR]), (text "oops" ++ [LF]).
  split; vm_compute; reflexivity.
Qed.
EX*)

(** ** Tags *)

(** C48: a string is accepted as a tag exactly if it has no comma, carriage return, line feed or space *)
Lemma C48_tag_new_proof : forall s, is_str s ->
  (tag_new s = Some s <-> ~ In COMMA s /\ ~ In CR s /\ ~ In LF s /\ ~ In SPACE s) /\
  (tag_new s = None <-> In COMMA s \/ In CR s \/ In LF s \/ In SPACE s) /\
  (forall t, tag_new s = Some t -> tag_as_str t = s).
Proof.
  intros s H. unfold tag_new.
  assert (X : existsb (fun c => (c =? COMMA) || (c =? CR) || (c =? LF) || (c =? SPACE)) (chars s) = true <->
              In COMMA s \/ In CR s \/ In LF s \/ In SPACE s).
  { rewrite existsb_exists. rewrite <- !(fun c K => chars_in s c H K) by (unfold COMMA, CR, LF, SPACE; lia). split.
    - intros (c & I & E). rewrite !orb_true_iff, !Z.eqb_eq in E. intuition subst; auto.
    - intros [I|[I|[I|I]]]; eexists; (split; [exact I|reflexivity]). }
  destruct (existsb _ _).
  - assert (Y : In COMMA s \/ In CR s \/ In LF s \/ In SPACE s) by (apply X; auto).
    split; [split; [discriminate|tauto]|]. split; [tauto|discriminate].
  - assert (Y : ~ (In COMMA s \/ In CR s \/ In LF s \/ In SPACE s)) by (intros K; apply X in K; discriminate).
    split; [tauto|]. split; [split; [discriminate|tauto]|]. intros t [= <-]. reflexivity.
Qed.
(*EX
(** a tag with characters of one, two, three and four bytes; a tag with a space; the empty tag *)
Example ex_C48 : let s := [65; 195; 169; 226; 130; 172; 240; 159; 152; 128] in
  is_str s /\ chars s = [65; 233; 8364; 128512] /\ tag_new s = Some s /\ tag_new (text "a b") = None /\ tag_new [] = Some [].
Proof. cbv zeta. split; [split; [repeat constructor; vm_compute; congruence|vm_compute; reflexivity]|]. vm_compute. auto. Qed.
EX*)

(** C48: but the parser delivers tags that [Tag::new] would not accept *)
Lemma C48_parsed_tag_refuted_proof : exists pf input it' i x, bytes input /\
  log_next pf (log_iter_new input) = Ret (it', Some (ROk (Interval i))) /\ i_tag i = Some x /\ tag_new x = None.
Proof.
  exists (fun _ => Some f64_zero), (text "Tag=a b,1.0,2.0,3.0,AAAA" ++ [LF]).
  eexists _, _, _. split; [repeat constructor; vm_compute; congruence|]. split; [vm_compute; reflexivity|]. cbn [i_tag]. split; [reflexivity|]. vm_compute. reflexivity.
Qed.

(** ** Times *)

(** C46: a duration of whole milliseconds below 2^42 seconds is logged exactly *)
Lemma C46_milliseconds_proof : forall d, valid_duration d -> d_secs d < 2 ^ 42 -> d_nanos d mod 1000000 = 0 -> logged d = d.
Proof. exact logged_exact. Qed.
(** C46: any duration below 2^42 seconds is logged to the millisecond: no more than three quarters of one off *)
Lemma C46_close_proof : forall d, valid_duration d -> d_secs d < 2 ^ 42 ->
  Z.abs (duration_ns (logged d) - duration_ns d) <= 750000.
Proof. exact logged_close. Qed.
(** C46: durations below 2^63 seconds can be logged *)
Lemma C46_loggable_proof : forall d, valid_duration d -> d_secs d < 2 ^ 63 -> loggable d.
Proof. exact loggable_small. Qed.
(*EX
Example ex_C46_times : let d := mk_duration 1700000000 123000000 in valid_duration d /\ d_secs d < 2 ^ 42 /\ d_nanos d mod 1000000 = 0 /\
  fmt3 (duration_as_fp_seconds d) = text "1700000000.123" /\
  fmt3 (duration_as_fp_seconds (mk_duration 5 999600000)) = text "6.000" /\
  fmt3 (duration_as_fp_seconds (mk_duration 0 62500000)) = text "0.062".
Proof. cbv zeta. unfold valid_duration, is_u64. cbn [d_secs d_nanos]. repeat split; try (vm_compute; congruence); vm_compute; reflexivity. Qed.
EX*)

(** ** Round trip *)
Lemma tag_ok_comma x : is_str x -> tag_new x = Some x -> ~ In COMMA x /\ ~ In LF x.
Proof. intros S T. destruct (C48_tag_new_proof x S) as (A & _). apply A in T. tauto. Qed.
Lemma op_says pf ser divisor s op s' : reads_numbers pf -> byte_serializer ser -> op_ok divisor op ->
  log_do ser divisor s op = Ret (s', ROk tt) ->
  exists txt es, sk_out s' = sk_out s ++ txt /\ says pf txt es /\ told ser pf divisor op es.
Proof.
  intros RN BS OK. destruct op as [c|h start dur t]; cbn [log_do told op_ok] in *.
  - unfold write_comment. intros [= H]. apply comment_lines_ok in H.
    exists (comment_text (split_lines [] c)), []. split; auto. split; auto. apply comment_says; auto.
  - destruct OK as (RH & (V1 & L1) & (V2 & L2) & T & NI). intros H.
    destruct (write_histogram_ok _ _ _ _ _ _ _ _ H) as (m & bs & EM & ES & EO).
    specialize (NI m EM). pose proof (fmt3_number _ NI) as NT.
    assert (PF : exists y, pf (fmt3 (f64_div (f64_of_u64 m) divisor)) = Some y).
    { destruct RN as (R1 & R2 & R3).
      assert (E : pf (fmt3 (f64_div (f64_of_u64 m) divisor)) <> None).
      { destruct NT as [(d & n & D & [->| ->])|[->| ->]]; auto; destruct (R1 _ _ D); auto. }
      destruct (pf (fmt3 (f64_div (f64_of_u64 m) divisor))) as [y|]; [exists y; reflexivity|congruence]. }
    destruct PF as (y & PF). specialize (BS h bs RH ES).
    eexists _, [Interval (mk_interval t (logged start) (logged dur) y (b64_encode bs))].
    split; [exact EO|]. split.
    + apply says_read1; [|destruct (hist_text _ _ _ _ _); [destruct (b64_encode bs)|]; discriminate].
      unfold hist_text. rewrite !fmt3_duration by auto. rewrite <- !app_assoc.
      apply interval_line; auto using logged_ms_nonneg, b64_text_encode.
      intros x E. destruct (T x E) as (S & TN). split; auto. apply tag_ok_comma; auto.
    + exists (mk_interval t (logged start) (logged dur) y (b64_encode bs)), bs, m. cbn [i_tag i_start i_duration i_max i_histogram].
      repeat split; auto. apply b64_decode_encode; auto.
Qed.
Lemma run_says pf ser divisor s l s' : reads_numbers pf -> byte_serializer ser ->
  log_run ser divisor s l s' -> Forall succeeded l -> Forall (fun x => op_ok divisor (fst x)) l ->
  exists txt ess, sk_out s' = sk_out s ++ txt /\ says pf txt (concat ess) /\ Forall2 (told ser pf divisor) (map fst l) ess.
Proof.
  intros RN BS R. induction R as [s|s op r s1 l s2 D R IH]; intros S O.
  - exists [], []. rewrite app_nil_r. repeat split; constructor.
  - inversion S as [|? ? S1 S2]; inversion O as [|? ? O1 O2]; subst. unfold succeeded in S1. cbn in S1, O1. subst r.
    destruct (op_says pf ser divisor s op s1 RN BS O1 D) as (t1 & e1 & E1 & Y1 & T1).
    destruct (IH S2 O2) as (t2 & e2 & E2 & Y2 & T2).
    exists (t1 ++ t2), (e1 :: e2). rewrite E2, E1, <- app_assoc. split; [reflexivity|]. cbn [concat map].
    split; [apply says_app; auto|constructor; auto].
Qed.
Lemma comments_say pf s cs s' : Forall plain_comment cs -> write_comments s cs = (s', ROk tt) ->
  exists txt, sk_out s' = sk_out s ++ txt /\ says pf txt [].
Proof.
  intros F. revert s. induction F as [|c cs P F IH]; intros s; cbn [write_comments].
  - intros [= ->]. exists []. rewrite app_nil_r. split; [reflexivity|constructor].
  - destruct (write_comment s c) as [s1 [[]|e]] eqn:E; [|discriminate]. intros H.
    apply comment_lines_ok in E. destruct (IH _ H) as (t & E2 & S).
    exists (comment_text (split_lines [] c) ++ t). rewrite E2, E, <- app_assoc. split; [reflexivity|].
    apply (says_app pf _ [] _ []); auto. apply comment_says; auto.
Qed.
Lemma header_says pf s o s' : write_header s o = (s', ROk tt) ->
  forall es, match o with Some l => says pf l es | None => es = [] end ->
  exists txt, sk_out s' = sk_out s ++ txt /\ says pf txt es.
Proof.
  unfold write_header. destruct o as [l|].
  - destruct (emit s l) as [s1 [|]] eqn:E; [|discriminate]. intros [= <-] es H. apply emit_ok in E. eauto.
  - intros [= ->] es ->. exists []. rewrite app_nil_r. split; [reflexivity|constructor].
Qed.
Lemma number_no_lf s : number_text s -> ~ In LF s.
Proof.
  assert (D : forall d n, is_decimal3 d n -> ~ In LF d).
  { intros d n (i & f & -> & _ & I & F & _) H. unfold all_digits in *. rewrite Forall_forall in I, F.
    apply in_app_or in H. destruct H as [H|[H|H]]; [specialize (I _ H)|discriminate|specialize (F _ H)]; unfold LF in *; lia. }
  intros [(d & n & K & [->| ->])|[->| ->]] H.
  - eapply D; eauto.
  - destruct H as [H|H]; [discriminate|]. eapply D; eauto.
  - cbn in H. intuition discriminate.
  - cbn in H. intuition discriminate.
Qed.
Lemma fmt3_no_lf x : ~ In LF (fmt3 x).
Proof.
  destruct x as [s|s| |s m e B] eqn:E; try (rewrite <- E; apply number_no_lf, fmt3_number; rewrite E; discriminate).
  destruct s; cbn; intuition discriminate.
Qed.
Lemma header_time_ok t : st_before t = false -> loggable (st_distance t) ->
  fmt3 (system_time_as_fp_seconds t) = dec3 (logged_ms (st_distance t)) /\
  0 <= logged_ms (st_distance t) /\ logged_ms (st_distance t) / 1000 <= u64_max.
Proof.
  intros B (V & L). unfold system_time_as_fp_seconds. rewrite B. split; [apply fmt3_duration; auto|].
  split; [apply logged_ms_nonneg; auto|exact L].
Qed.
Lemma begin_says pf script comments start base divisor s : Forall plain_comment comments -> header_ok start -> header_ok base ->
  begin_log_with (configured comments start base divisor) (new_sink script) = (s, ROk tt) ->
  exists txt, sk_out s = txt /\ says pf txt (header_entries start base).
Proof.
  intros FC HS HB. unfold begin_log_with.
  assert (EC : b_comments (configured comments start base divisor) = comments /\
               b_start (configured comments start base divisor) = option_map system_time_as_fp_seconds start /\
               b_base (configured comments start base divisor) = option_map system_time_as_fp_seconds base /\
               b_divisor (configured comments start base divisor) = divisor).
  { assert (K : forall cs b, b_comments (fold_left add_comment cs b) = b_comments b ++ cs /\
        b_start (fold_left add_comment cs b) = b_start b /\ b_base (fold_left add_comment cs b) = b_base b).
    { induction cs as [|c cs IH]; intros b; cbn; [rewrite app_nil_r; auto|].
      destruct (IH (add_comment b c)) as (A & B & C). rewrite A, B, C. cbn. rewrite <- app_assoc. auto. }
    destruct (K comments builder_new) as (A & B & C). unfold configured.
    destruct start as [t|], base as [u|]; cbn; rewrite ?A, ?B, ?C; auto. }
  destruct EC as (-> & -> & -> & ->).
  destruct (write_comments (new_sink script) comments) as [s1 [[]|]] eqn:E1; [|discriminate].
  destruct (comments_say pf _ _ _ FC E1) as (t1 & O1 & S1).
  destruct (write_header s1 _) as [s2 [[]|]] eqn:E2; [|discriminate].
  destruct (header_says pf _ _ _ E2 (match start with Some t => [StartTime (logged (st_distance t))] | None => [] end)) as (t2 & O2 & S2).
  { destruct start as [t|]; [|reflexivity]. cbn [option_map]. destruct (HS t eq_refl) as (B & L).
    destruct (header_time_ok t B L) as (-> & N & M). apply says_read1; [apply start_line; auto|discriminate]. }
  destruct (write_header s2 _) as [s3 [[]|]] eqn:E3; [|discriminate].
  destruct (header_says pf _ _ _ E3 (match base with Some t => [BaseTime (logged (st_distance t))] | None => [] end)) as (t3 & O3 & S3).
  { destruct base as [t|]; [|reflexivity]. cbn [option_map]. destruct (HB t eq_refl) as (B & L).
    destruct (header_time_ok t B L) as (-> & N & M). apply says_read1; [apply base_line; auto|discriminate]. }
  intros E4. destruct (header_says pf _ _ _ E4 []) as (t4 & O4 & S4).
  { destruct (f64_eq divisor f64_one); [reflexivity|]. apply says_skip1; [|discriminate].
    assert (K : is_skipped pf (HASH :: (text "[MaxValueDivisor: " ++ fmt3 divisor ++ text "]") ++ [LF])).
    { apply comment_skipped.
      - intros H. apply in_app_or in H. destruct H as [H|H]; [cbn in H; intuition discriminate|].
        apply in_app_or in H. destruct H as [H|H]; [eapply fmt3_no_lf; eauto|cbn in H; intuition discriminate].
      - intros (r & E). discriminate.
      - intros (r & E). discriminate. }
    rewrite <- !app_assoc in K. exact K. }
  exists (t1 ++ t2 ++ t3 ++ t4). rewrite O4, O3, O2, O1. cbn [new_sink sk_out app]. rewrite <- !app_assoc. split; [reflexivity|].
  unfold header_entries. rewrite <- (app_nil_r (match base with Some _ => _ | None => _ end)).
  apply (says_app pf t1 []); [auto|]. apply says_app; [auto|]. apply says_app; auto.
Qed.
Lemma says_all pf txt es : says pf txt es -> yields pf (log_iter_new txt) (map ROk es).
Proof.
  intros S. unfold log_iter_new. rewrite <- (app_nil_r txt) at 2. rewrite <- (app_nil_r (map ROk es)).
  apply says_yields; auto. apply yields_nothing.
Qed.

(** C46: parsing a log delivers the configured headers and then what was written, in order: every interval with its tag, times in milliseconds, maximum and base64 payload, nothing for the comments, and no error *)
Lemma C46_round_trip_proof : forall pf ser script comments start base divisor s0 l s,
  reads_numbers pf -> byte_serializer ser ->
  Forall plain_comment comments -> header_ok start -> header_ok base ->
  begin_log_with (configured comments start base divisor) (new_sink script) = (s0, ROk tt) ->
  log_run ser divisor s0 l s -> Forall succeeded l -> Forall (fun x => op_ok divisor (fst x)) l ->
  exists ess, Forall2 (told ser pf divisor) (map fst l) ess /\
    yields pf (log_iter_new (sk_out s)) (map ROk (header_entries start base ++ concat ess)).
Proof.
  intros pf ser script comments start base divisor s0 l s RN BS FC HS HB B R S O.
  destruct (begin_says pf _ _ _ _ _ _ FC HS HB B) as (t0 & E0 & S0).
  destruct (run_says pf ser divisor _ _ _ RN BS R S O) as (txt & ess & E & Y & T).
  exists ess. split; [exact T|]. rewrite E, E0. apply says_all, says_app; auto.
Qed.
(*EX
(** a header comment of two lines, a start time, a tagged histogram and a comment *)
Example ex_C46_round_trip : let ser := v2_serialize (fun _ => 0) in
  let start := Some (mk_system_time false (mk_duration 1700000000 123000000)) in
  let comments := [text "a" ++ [LF] ++ text "b"] in
  reads_numbers simple_reader /\ byte_serializer ser /\ Forall plain_comment comments /\ header_ok start /\ header_ok None /\
  match build U64 1 10000 2 false [(3, 7); (500, 2)] with
  | Some h =>
      let l := [(Histogram h (mk_duration 1 500000000) (mk_duration 2 0) (Some (text "a")), ROk tt); (Comment (text "more"), ROk tt)] in
      exists s0 s, begin_log_with (configured comments start None f64_one) (new_sink []) = (s0, ROk tt) /\
        log_run ser f64_one s0 l s /\ Forall succeeded l /\ Forall (fun x => op_ok f64_one (fst x)) l /\ line_feeds (sk_out s) = 5
  | None => False end.
Proof.
  assert (L : forall a b, (0 <=? a) && (a <? 2 ^ 63) && (0 <=? b) && (b <? 1000000000) = true -> loggable (mk_duration a b)).
  { intros a b E. rewrite !andb_true_iff, !Z.leb_le, !Z.ltb_lt in E. apply C46_loggable; [split|]; cbn; unfold is_u64, u64_max; lia. }
  cbv zeta. split; [exact simple_reads|]. split; [exact (C46_v2_bytes_proof _)|]. split.
  { constructor; [apply plain_comment_ok; vm_compute; reflexivity|constructor]. }
  split. { intros t [= <-]. split; [reflexivity|]. apply L. reflexivity. }
  split; [discriminate|].
  assert (X : match build U64 1 10000 2 false [(3, 7); (500, 2)] with
    | Some h => max h = Ret 501 /\ match begin_log_with (configured [text "a" ++ [LF] ++ text "b"] (Some (mk_system_time false (mk_duration 1700000000 123000000))) None f64_one) (new_sink []) with
        | (s0, ROk tt) => match log_do (v2_serialize (fun _ => 0)) f64_one s0 (Histogram h (mk_duration 1 500000000) (mk_duration 2 0) (Some (text "a"))) with
            | Ret (s1, ROk tt) => match log_do (v2_serialize (fun _ => 0)) f64_one s1 (Comment (text "more")) with Ret (s, ROk tt) => line_feeds (sk_out s) = 5 | _ => False end
            | _ => False end
        | _ => False end
    | None => False end) by (vm_compute; auto).
  destruct (build U64 1 10000 2 false [(3, 7); (500, 2)]) as [h|] eqn:E; [|exact X]. destruct X as [M X].
  destruct (begin_log_with _ _) as [s0 [[]|]]; [|contradiction].
  destruct (log_do _ _ _ (Histogram _ _ _ _)) as [[s1 [[]|]]|] eqn:D1; try contradiction.
  destruct (log_do _ _ _ (Comment _)) as [[s [[]|]]|] eqn:D2; try contradiction.
  exists s0, s. split; [reflexivity|]. split; [exact (log_run_cons _ _ _ _ _ _ _ _ D1 (log_run_cons _ _ _ _ _ _ _ _ D2 (log_run_nil _ _ _)))|].
  split; [repeat constructor|]. split; [|exact X].
  constructor; [|constructor; [apply plain_comment_ok; vm_compute; reflexivity|constructor]].
  split; [eapply build_reachable; eauto|]. split; [apply L; reflexivity|]. split; [apply L; reflexivity|]. split.
  - intros x [= <-]. split; [|reflexivity]. split; [repeat constructor; vm_compute; congruence|reflexivity].
  - intros m M'. rewrite M in M'. injection M' as <-. intros K. apply (f_equal is_finite) in K. vm_compute in K. discriminate.
Qed.
EX*)

(** C46: the serializers of the crate deliver bytes *)
Lemma C46_v2_bytes_proof : forall junk, byte_serializer (v2_serialize junk).
Proof.
  intros junk h bs R E. destruct (C33_serializable_proof junk h R) as (A & B).
  pose proof (reachable_wf h R) as W.
  destruct (v2_serialize_ok junk h W) as [(F & E1)|(F & E1)]; [|congruence].
  destruct B as (bs' & E2 & K); [apply fits_iff; auto|]. congruence.
Qed.

(** C46: what the log says of a histogram deserializes to the same samples *)
Lemma C46_samples_proof : forall pf junk divisor h start dur t es checks cd buf, reachable h ->
  told (v2_serialize junk) pf divisor (Histogram h start dur t) es ->
  exists i bs h', es = [Interval i] /\ b64_decode (i_histogram i) = Some bs /\
    deserialize checks cd buf (h_ctr h) bs = Ret (ROk (h', [])) /\ held h' = held h /\
    h_low h' = h_low h /\ h_high h' = h_high h /\ h_sigfig h' = h_sigfig h.
Proof.
  intros pf junk divisor h start dur t es checks cd buf R (i & bs & m & -> & _ & _ & _ & _ & _ & ES & EB).
  destruct (C32_round_trip_proof checks cd buf junk h bs [] R ES) as (h' & D & _ & _ & A & B & C & E & _).
  rewrite app_nil_r in D. exists i, bs, h'. auto 10.
Qed.

(** C46: without a divisor, the maximum read from the log is that of the histogram, up to 2^53 *)
Lemma C46_maximum_proof : forall pf ser h start dur t es m, rounds_numbers pf -> max h = Ret m -> 0 <= m <= 2 ^ 53 ->
  told ser pf f64_one (Histogram h start dur t) es ->
  exists i, es = [Interval i] /\ finite (i_max i) /\ real_of (i_max i) = IZR m.
Proof.
  intros pf ser h start dur t es m RN M B (i & bs & m' & -> & _ & _ & _ & M' & P & _).
  rewrite M in M'. injection M' as <-. exists i. split; [reflexivity|].
  assert (U : (0 <= m <= u64_max)%Z) by (unfold u64_max; lia).
  assert (K : B2R (f64_div (f64_of_u64 m) f64_one) = IZR m /\ is_finite (f64_div (f64_of_u64 m) f64_one) = true /\
              Bsign (f64_div (f64_of_u64 m) f64_one) = false).
  { assert (O : f64_one = f64_of_u64 1) by (apply B2SF_inj; vm_compute; reflexivity). rewrite O.
    destruct (of_u64_ok m U) as (A & F & S). destruct (of_u64_ok 1) as (A1 & F1 & S1); [unfold u64_max; lia|].
    pose proof (Bdiv_correct 53 1024 eq_refl eq_refl mode_NE (f64_of_u64 m) (f64_of_u64 1)) as C.
    unfold f64_div. rewrite A, A1, !rne_IZR in C by lia.
    assert (N1 : (IZR 1 <> 0)%R) by lra. specialize (C N1).
    replace (IZR m / IZR 1)%R with (IZR m) in C by (unfold Rdiv; lra).
    change (round radix2 (SpecFloat.fexp 53 1024) (round_mode mode_NE) (IZR m)) with (rne (IZR m)) in C.
    rewrite rne_IZR in C by lia. rewrite Rlt_bool_true in C.
    - destruct C as (C1 & C2 & C3). split; [exact C1|]. rewrite F in C2. split; [exact C2|].
      etransitivity; [apply C3|rewrite S, S1; reflexivity]. clear - C2.
      match goal with |- is_nan ?x = false => destruct x; auto; discriminate end.
    - rewrite <- (IZR_Zpower radix2) by lia. rewrite <- abs_IZR. apply IZR_lt. change (Z.pow (radix_val radix2) 1024) with (2 ^ 1024).
      apply Z.le_lt_trans with (2 ^ 53); [lia|]. apply Z.pow_lt_mono_r; lia. }
  destruct K as (K1 & K2 & K3). rewrite (fmt3_nonneg _ K2 K3), K1 in P.
  assert (Z1 : ZnearestE (IZR m * 1000) = m * 1000).
  { rewrite <- mult_IZR. apply (Zrnd_IZR ZnearestE). }
  rewrite Z1 in P.
  assert (Q : (IZR (m * 1000) / 1000)%R = IZR m) by (rewrite mult_IZR; field).
  destruct (RN (dec3 (m * 1000)) (m * 1000)) as (y & Py & Fy & Ry); [apply dec3_ok; lia| |].
  - rewrite Q, rne_IZR by lia. rewrite <- (IZR_Zpower radix2) by lia. apply IZR_lt. change (Z.pow (radix_val radix2) 1024) with (2 ^ 1024).
      apply Z.le_lt_trans with (2 ^ 53); [lia|]. apply Z.pow_lt_mono_r; lia.
  - rewrite Py in P. injection P as <-. split; [exact Fy|]. rewrite Ry, Q, rne_IZR by lia. reflexivity.
Qed.
(*EX
(** the hypotheses can be met: a reader of numbers, a time, a comment, a tagged histogram *)
Example ex_C46_hypotheses : reads_numbers simple_reader /\ rounds_numbers simple_reader /\
  header_ok (Some (mk_system_time false (mk_duration 1700000000 123000000))) /\ plain_comment (text "a" ++ [LF] ++ text "b") /\
  match build U64 1 10000 2 false [(3, 7); (500, 2)] with
  | Some h => op_ok f64_one (Histogram h (mk_duration 1 500000000) (mk_duration 2 0) (Some (text "a"))) /\ max h = Ret 501
  | None => False end.
Proof.
  assert (L : forall a b, (0 <=? a) && (a <? 2 ^ 63) && (0 <=? b) && (b <? 1000000000) = true -> loggable (mk_duration a b)).
  { intros a b E. rewrite !andb_true_iff, !Z.leb_le, !Z.ltb_lt in E. apply C46_loggable; [split|]; cbn; unfold is_u64, u64_max; lia. }
  split; [exact simple_reads|]. split; [exact simple_rounds|]. split.
  { intros t [= <-]. split; [reflexivity|]. apply L. reflexivity. }
  split; [apply plain_comment_ok; vm_compute; reflexivity|].
  assert (X : match build U64 1 10000 2 false [(3, 7); (500, 2)] with Some h => max h = Ret 501 | None => False end) by (vm_compute; reflexivity).
  destruct (build U64 1 10000 2 false [(3, 7); (500, 2)]) as [h|] eqn:E; [|exact X]. split; [|exact X].
  split; [eapply build_reachable; eauto|]. split; [apply L; reflexivity|]. split; [apply L; reflexivity|]. split.
  - intros x [= <-]. split; [|reflexivity]. split; [repeat constructor; vm_compute; congruence|reflexivity].
  - intros m M. rewrite X in M. injection M as <-. intros K. apply (f_equal is_finite) in K. vm_compute in K. discriminate.
Qed.
(** two header comments, both times, and then a tagged histogram, a comment and another histogram, with a divisor of 2 *)
Example ex_C46 : let ser := v2_serialize (fun _ => 0) in let two := f64_of_u64 2 in
  let start := Some (mk_system_time false (mk_duration 1700000000 123000000)) in
  let base := Some (mk_system_time false (mk_duration 5 0)) in
  let comments := [text "hello"; text "a" ++ [LF] ++ text "b"] in
  match build U64 1 10000 2 false [(3, 7); (500, 2)], build U32 1 10000 2 false [] with
  | Some h1, Some h2 =>
      let ops := [Histogram h1 (mk_duration 1 500000000) (mk_duration 2 0) (Some (text "a")); Comment (text "more"); Histogram h2 (mk_duration 3 0) (mk_duration 4 0) None] in
      match begin_log_with (configured comments start base two) (new_sink [None; Some 7%nat]) with
      | (s0, ROk tt) =>
          match log_do ser two s0 (nth 0 ops (Comment [])) with
          | Ret (s1, ROk tt) => match log_do ser two s1 (nth 1 ops (Comment [])) with
            | Ret (s2, ROk tt) => match log_do ser two s2 (nth 2 ops (Comment [])) with
              | Ret (s3, ROk tt) =>
                  starts_with (text "#hello" ++ [LF] ++ text "#a" ++ [LF] ++ text "#b" ++ [LF] ++
                    text "#[StartTime: 1700000000.123 (seconds since epoch)]" ++ [LF] ++
                    text "#[BaseTime: 5.000 (seconds since epoch)]" ++ [LF] ++ text "#[MaxValueDivisor: 2.000]" ++ [LF] ++
                    text "Tag=a,1.500,2.000,250.500,HISTEwAAA") (sk_out s3)
              | _ => False end
            | _ => False end
          | _ => False end
      | _ => False end
  | _, _ => False end.
Proof. cbv zeta. vm_compute. eexists. reflexivity. Qed.
EX*)

(** C46: but a start time before the epoch is lost, without an error: its line counts as a comment *)
Lemma C46_before_epoch_refuted_proof : forall pf, exists t s, st_before t = true /\ loggable (st_distance t) /\
  begin_log_with (configured [] (Some t) None f64_one) (new_sink []) = (s, ROk tt) /\
  yields pf (log_iter_new (sk_out s)) [].
Proof.
  intros pf. exists (mk_system_time true (mk_duration 5 0)).
  exists (mk_sink (text "#[StartTime: -5.000 (seconds since epoch)]" ++ [LF]) []).
  split; [reflexivity|]. split; [apply loggable_small; [split|]; cbn; unfold is_u64, u64_max; cbn; lia|].
  split; [vm_compute; reflexivity|]. eapply yields_end. vm_compute. reflexivity.
Qed.
(** C46: and a log with a duration close to [u64::MAX] seconds is written but cannot be read: the seconds round up to 2^64 *)
Lemma C46_huge_duration_refuted_proof : forall pf, exists h d s, reachable h /\ valid_duration d /\
  write_histogram (v2_serialize (fun _ => 0)) f64_one (new_sink []) h d (mk_duration 1 0) None = Ret (s, ROk tt) /\
  yields pf (log_iter_new (sk_out s)) [RErr (ParseError 0)].
Proof.
  intros pf.
  assert (X : match build U64 1 10000 2 false [(5, 2)] with
    | Some h => match write_histogram (v2_serialize (fun _ => 0)) f64_one (new_sink []) h (mk_duration u64_max 0) (mk_duration 1 0) None with
      | Ret (s, ROk tt) => match log_next pf (log_iter_new (sk_out s)) with Ret (_, x) => x = Some (RErr (ParseError 0)) | _ => False end
      | _ => False end
    | None => False end).
  { vm_compute. reflexivity. }
  destruct (build U64 1 10000 2 false [(5, 2)]) as [h|] eqn:EB; [|destruct X].
  destruct (write_histogram _ _ _ h _ _ _) as [[s [[]|]]|] eqn:E; try contradiction.
  exists h, (mk_duration u64_max 0), s. split; [eapply build_reachable; eauto|].
  split; [split; cbn; unfold is_u64, u64_max; lia|]. split; [exact E|].
  destruct (log_next pf (log_iter_new (sk_out s))) as [[it x]|] eqn:N; [|contradiction]. subst x.
  eapply yields_item; [exact N|]. eapply yields_end, (C47_fused_proof _ _ _ _ N). discriminate.
Qed.
(** C46: neither can one whose divisor is the negative zero: the parser does not know negative infinity *)
Lemma C46_negative_divisor_refuted_proof : forall pf, exists h s, reachable h /\
  write_histogram (v2_serialize (fun _ => 0)) (B754_zero true) (new_sink []) h (mk_duration 1 0) (mk_duration 1 0) None = Ret (s, ROk tt) /\
  yields pf (log_iter_new (sk_out s)) [RErr (ParseError 0)].
Proof.
  intros pf.
  assert (X : match build U64 1 10000 2 false [(5, 2)] with
    | Some h => match write_histogram (v2_serialize (fun _ => 0)) (B754_zero true) (new_sink []) h (mk_duration 1 0) (mk_duration 1 0) None with
      | Ret (s, ROk tt) => match log_next pf (log_iter_new (sk_out s)) with Ret (_, x) => x = Some (RErr (ParseError 0)) | _ => False end
      | _ => False end
    | None => False end).
  { vm_compute. reflexivity. }
  destruct (build U64 1 10000 2 false [(5, 2)]) as [h|] eqn:EB; [|destruct X].
  destruct (write_histogram _ _ _ h _ _ _) as [[s [[]|]]|] eqn:E; try contradiction.
  exists h, s. split; [eapply build_reachable; eauto|]. split; [exact E|].
  destruct (log_next pf (log_iter_new (sk_out s))) as [[it x]|] eqn:N; [|contradiction]. subst x.
  eapply yields_item; [exact N|]. eapply yields_end, (C47_fused_proof _ _ _ _ N). discriminate.
Qed.

(** ** Comments *)
Definition shift (n : Z) (it : log_iter) : log_iter := mk_log_iter (li_orig_len it + n) (li_input it) (li_ended it).
Lemma loop_moved pf n fuel it : 0 <= n -> zlen (li_input it) <= li_orig_len it -> li_orig_len it + n <= usize_max ->
  next_loop fuel pf (shift n it) =
  match next_loop fuel pf it with
  | Ret (it', x) => Ret (shift n it', option_map (moved n) x)
  | Panic => Panic
  end.
Proof.
  intros N. revert it. induction fuel as [|f IH]; intros it L U; [reflexivity|]. cbn [next_loop].
  change (li_ended (shift n it)) with (li_ended it). change (li_input (shift n it)) with (li_input it).
  change (li_orig_len (shift n it)) with (li_orig_len it + n).
  destruct (li_ended it); [reflexivity|].
  destruct (li_input it) as [|c i] eqn:EI; [reflexivity|]. rewrite <- EI in *.
  destruct (log_entry_p pf (li_input it)) as [[[rest e]|]|] eqn:E1; cbn [bind]; [reflexivity|..|reflexivity].
  pose proof (ignored_line_ok (li_input it)) as IL.
  destruct (ignored_line (li_input it)) as [[[rest []]|]|]; cbn [bind]; [|..|reflexivity].
  - destruct IL as (pre & EP & _). apply (IH (mk_log_iter (li_orig_len it) rest false)); cbn; auto. rewrite EP, zlen_app in L.
    pose proof (zlen_nonneg pre). lia.
  - pose proof (zlen_nonneg (li_input it)).
    unfold usize_sub, in_range. replace ((0 <=? li_orig_len it + n - zlen (li_input it)) && (li_orig_len it + n - zlen (li_input it) <=? usize_max)) with true
      by (symmetry; rewrite andb_true_iff, !Z.leb_le; lia).
    replace ((0 <=? li_orig_len it - zlen (li_input it)) && (li_orig_len it - zlen (li_input it) <=? usize_max)) with true
      by (symmetry; rewrite andb_true_iff, !Z.leb_le; lia).
    cbn [bind option_map moved]. unfold shift. cbn [li_orig_len li_input li_ended].
    replace (li_orig_len it + n - zlen (li_input it)) with (li_orig_len it - zlen (li_input it) + n) by lia. reflexivity.
Qed.
Lemma yields_moved pf n it items : 0 <= n -> zlen (li_input it) <= li_orig_len it -> li_orig_len it + n <= usize_max ->
  yields pf it items -> yields pf (shift n it) (map (moved n) items).
Proof.
  intros N L U Y. revert L U. induction Y as [it it' E|it it' x l E Y IH]; intros L U; cbn [map].
  - apply yields_end with (shift n it'). unfold log_next. rewrite loop_moved by auto.
    change (li_input (shift n it)) with (li_input it). unfold log_next in E. rewrite E. reflexivity.
  - destruct (log_next_spec pf it) as (it2 & x2 & E2 & LE & SP); [lia|]. rewrite E in E2. injection E2 as <- <-.
    apply yields_item with (shift n it'); [|apply IH; rewrite ?LE; auto].
    + unfold log_next. rewrite loop_moved by auto. change (li_input (shift n it)) with (li_input it). unfold log_next in E. rewrite E. reflexivity.
    + destruct x as [e|[off]].
      * destruct SP as (_ & _ & p & EP & _). rewrite EP, zlen_app in L. pose proof (zlen_nonneg p). lia.
      * destruct SP as (_ & _ & _ & _ & _ & _ & p & EP & _). rewrite EP, zlen_app in L. pose proof (zlen_nonneg p). lia.
Qed.

(** C49: a comment none of whose lines looks like a header is ignored: what follows it in the log is read as if it stood alone, with the offset of an error moved by the length of the comment *)
Lemma C49_comment_proof : forall pf script c s rest items, plain_comment c ->
  write_comment (new_sink script) c = (s, ROk tt) -> zlen (sk_out s ++ rest) <= usize_max ->
  yields pf (log_iter_new rest) items ->
  yields pf (log_iter_new (sk_out s ++ rest)) (map (moved (zlen (sk_out s))) items).
Proof.
  intros pf script c s rest items P W U Y. apply comment_lines_ok in W. cbn [new_sink sk_out app] in W.
  pose proof (comment_says pf c P) as S. rewrite <- W in S.
  unfold log_iter_new. apply (says_yields pf _ _ [] rest); auto.
  rewrite zlen_app in *. pose proof (zlen_nonneg (sk_out s)). pose proof (zlen_nonneg rest).
  pose proof (yields_moved pf (zlen (sk_out s)) (log_iter_new rest) items) as K.
  unfold shift, log_iter_new in K. cbn [li_input li_orig_len li_ended] in K. rewrite Z.add_comm. apply K; auto; lia.
Qed.
(*EX
(** a comment of two lines, the first quoting an interval, the second nearly a header *)
Example ex_C49 : let c := text "Tag=a,1.0,2.0,3.0,AAAA" ++ [LF] ++ text "[StartTime 5.0 x" in
  plain_comment c /\ sk_out (fst (write_comment (new_sink []) c)) = text "#Tag=a,1.0,2.0,3.0,AAAA" ++ [LF] ++ text "#[StartTime 5.0 x" ++ [LF] /\
  snd (write_comment (new_sink [None; None]) c) = ROk tt.
Proof. cbv zeta. split; [apply plain_comment_ok; vm_compute; reflexivity|]. split; vm_compute; reflexivity. Qed.
EX*)

(** C49: but a comment can look like a header *)
Lemma C49_header_comment_refuted_proof : forall pf, exists c s it, write_comment (new_sink []) c = (s, ROk tt) /\ bytes c /\
  log_next pf (log_iter_new (sk_out s)) = Ret (it, Some (ROk (StartTime (mk_duration 1 0)))).
Proof.
  intros pf. exists (text "[StartTime: 1.0 x"). eexists _, _. split; [vm_compute; reflexivity|].
  split; [repeat constructor; vm_compute; congruence|]. vm_compute. reflexivity.
Qed.

(** ** Failures *)
Lemma no_lf_input pf n part : ~ In LF part -> zlen part <= n <= usize_max ->
  yields pf (mk_log_iter n part false) (match part with [] => [] | _ => [RErr (ParseError (n - zlen part))] end).
Proof.
  intros N U. destruct part as [|c part0] eqn:EP; [apply yields_nothing|]. rewrite <- EP in *.
  assert (E1 : log_entry_p pf part = Ret None).
  { pose proof (log_entry_ok pf part) as K. destruct (log_entry_p pf part) as [[[r e]|]|]; [|auto|destruct K].
    destruct K as (pre & EQ & q & ->). exfalso. apply N. rewrite EQ. apply in_or_app. left. apply in_or_app. right. left. auto. }
  assert (E2 : ignored_line part = Ret None).
  { pose proof (ignored_line_ok part) as K. destruct (ignored_line part) as [[[r e]|]|]; [|auto|destruct K].
    destruct K as (pre & EQ & q & -> & _). exfalso. apply N. rewrite EQ. apply in_or_app. left. apply in_or_app. right. left. auto. }
  pose proof (zlen_nonneg part).
  eapply yields_item; [|eapply yields_end, (ended_next pf (mk_log_iter n part true)); reflexivity].
  unfold log_next. cbn [li_input next_loop li_ended li_orig_len]. rewrite EP. rewrite <- EP. rewrite E1. cbn [bind]. rewrite E2. cbn [bind].
  unfold usize_sub, in_range. replace ((0 <=? n - zlen part) && (n - zlen part <=? usize_max)) with true
    by (symmetry; rewrite andb_true_iff, !Z.leb_le; lia). reflexivity.
Qed.
Lemma not_in_prefix (c : Z) l a b : ~ In c l -> l = a ++ b -> ~ In c a.
Proof. intros N -> K. apply N. apply in_or_app. auto. Qed.
Lemma comment_fails pf s ls s' e : (forall l, In l ls -> ~ In LF l /\ is_skipped pf (HASH :: l ++ [LF])) ->
  write_comment_lines s ls = (s', RErr e) ->
  e = LogIoError /\ exists whole part, sk_out s' = sk_out s ++ whole ++ part /\ says pf whole [] /\ ~ In LF part.
Proof.
  revert s. induction ls as [|l ls IH]; intros s F; cbn [write_comment_lines]; [discriminate|].
  destruct (F l (or_introl eq_refl)) as (N & SK).
  destruct (emit s (HASH :: l ++ [LF])) as [s1 [|]] eqn:E.
  - intros H. apply emit_ok in E. destruct (IH s1) as (-> & w & p & O & S & NP); auto. { intros x I. apply F. right. auto. }
    split; [reflexivity|]. exists ((HASH :: l ++ [LF]) ++ w), p. rewrite O, E, <- !app_assoc. split; [reflexivity|]. split; [|auto].
    apply says_skip; auto. discriminate.
  - intros [= <- <-]. split; [reflexivity|]. destruct (emit_fails _ _ _ E) as (a & b & EQ & NB & O).
    exists [], a. split; [exact O|]. split; [constructor|].
    destruct (exists_last NB) as (b0 & x & ->). rewrite app_assoc in EQ. change (HASH :: l ++ [LF]) with ((HASH :: l) ++ [LF]) in EQ.
    apply app_inj_tail in EQ. destruct EQ as (EQ & _). eapply not_in_prefix; [|exact EQ]. intros [K|K]; [discriminate|auto].
Qed.
Lemma hist_text_no_lf divisor m start dur t : (forall x, t = Some x -> ~ In LF x) -> ~ In LF (hist_text divisor m start dur t).
Proof.
  intros T K. unfold hist_text in K. apply in_app_or in K. destruct K as [K|K].
  { destruct t as [x|]; [|destruct K]. unfold tag_text in K. apply in_app_or in K. destruct K as [K|K]; [cbn in K; intuition discriminate|].
    apply in_app_or in K. destruct K as [K|[K|[]]]; [|discriminate]. apply (T x eq_refl K). }
  apply in_app_or in K. destruct K as [K|K]; [eapply fmt3_no_lf; eauto|].
  apply in_app_or in K. destruct K as [[K|[]]|K]; [discriminate|].
  apply in_app_or in K. destruct K as [K|K]; [eapply fmt3_no_lf; eauto|].
  apply in_app_or in K. destruct K as [[K|[]]|K]; [discriminate|].
  apply in_app_or in K. destruct K as [K|[K|[]]]; [eapply fmt3_no_lf; eauto|discriminate].
Qed.
Lemma op_fails pf ser divisor s op s' e : byte_serializer ser -> op_ok divisor op ->
  log_do ser divisor s op = Ret (s', RErr e) ->
  exists whole part, sk_out s' = sk_out s ++ whole ++ part /\ says pf whole [] /\ ~ In LF part /\
    (forall x, e = LogSerializeError x -> part <> []).
Proof.
  intros BS OK. destruct op as [c|h start dur t]; cbn [log_do op_ok] in *.
  - unfold write_comment. intros [= H]. apply (comment_fails pf) in H.
    + destruct H as (-> & w & p & A & B & C). exists w, p. repeat split; auto. discriminate.
    + intros l I. assert (L : line_of l c). { apply (split_lines_of [] c) with (pre := []); auto. left; auto. }
      destruct (OK l L) as (A & B). destruct L as (N & _). split; [auto|]. apply comment_skipped; auto.
  - destruct OK as (RH & _ & _ & T & _). unfold write_histogram.
    destruct (max h) as [m|]; [|discriminate]. cbn [bind]. fold (tag_text t). fold (hist_text divisor m start dur t).
    assert (HN : ~ In LF (hist_text divisor m start dur t)).
    { apply hist_text_no_lf. intros x ->. destruct (T x eq_refl) as (S & TN). apply (tag_ok_comma x S TN). }
    destruct (emit s _) as [s1 [|]] eqn:E1; cbn [negb].
    2:{ intros [= <- <-]. destruct (emit_fails _ _ _ E1) as (a & b & EQ & _ & O). exists [], a. cbn [app].
        split; [exact O|]. split; [constructor|]. split; [eapply not_in_prefix; eauto|discriminate]. }
    apply emit_ok in E1.
    destruct (ser h) as [[bs|x]|] eqn:ES; cbn [bind]; [| |discriminate].
    2:{ intros [= <- <-]. exists [], (hist_text divisor m start dur t). cbn [app]. split; [exact E1|]. split; [constructor|]. split; [auto|].
        intros _ _ K. unfold hist_text in K. apply app_eq_nil in K. destruct K as (_ & K). apply app_eq_nil in K. destruct K as (_ & K). discriminate. }
    pose proof (b64_no_lf (b64_encode bs) (b64_text_encode bs (BS h bs RH ES))) as BN.
    destruct (emit s1 _) as [s2 [|]] eqn:E2; cbn [negb].
    2:{ intros [= <- <-]. destruct (emit_fails _ _ _ E2) as (a & b & EQ & _ & O). exists [], (hist_text divisor m start dur t ++ a). cbn [app].
        split; [rewrite O, E1, <- app_assoc; reflexivity|]. split; [constructor|]. split; [|discriminate].
        intros K. apply in_app_or in K. destruct K as [K|K]; [auto|]. exact (not_in_prefix _ _ _ _ BN EQ K). }
    apply emit_ok in E2.
    destruct (emit s2 _) as [s3 [|]] eqn:E3; cbn [negb]; [discriminate|].
    intros [= <- <-]. destruct (emit_fails _ _ _ E3) as (a & b & EQ & NB & O). exists [], (hist_text divisor m start dur t ++ b64_encode bs). cbn [app].
    destruct a as [|c a]; [|destruct a; [destruct b; [congruence|]|]; discriminate]. rewrite app_nil_r in O.
    split; [rewrite O, E2, E1, <- app_assoc; reflexivity|]. split; [constructor|]. split; [|discriminate].
    intros K. apply in_app_or in K. destruct K as [K|K]; auto.
Qed.

(** C50 (what is missing: the writes after the failed one): when a write fails, of a comment or of a histogram, at whatever byte, the log up to there still reads as what was written before, followed by at most one error, whose offset is in the failed write; after a serialization error there always is that error *)
Lemma C50_before_partial_proof : forall pf ser script comments start base divisor s0 l s op e s',
  reads_numbers pf -> byte_serializer ser ->
  Forall plain_comment comments -> header_ok start -> header_ok base ->
  begin_log_with (configured comments start base divisor) (new_sink script) = (s0, ROk tt) ->
  log_run ser divisor s0 l s -> Forall succeeded l -> Forall (fun x => op_ok divisor (fst x)) l ->
  op_ok divisor op -> log_do ser divisor s op = Ret (s', RErr e) -> zlen (sk_out s') <= usize_max ->
  exists ess err, Forall2 (told ser pf divisor) (map fst l) ess /\
    yields pf (log_iter_new (sk_out s')) (map ROk (header_entries start base ++ concat ess) ++ err) /\
    (err = [] \/ exists off, err = [RErr (ParseError off)] /\ zlen (sk_out s) <= off < zlen (sk_out s')) /\
    (forall x, e = LogSerializeError x -> err <> []).
Proof.
  intros pf ser script comments start base divisor s0 l s op e s' RN BS FC HS HB B R S O OK F U.
  destruct (begin_says pf _ _ _ _ _ _ FC HS HB B) as (t0 & E0 & S0).
  destruct (run_says pf ser divisor _ _ _ RN BS R S O) as (txt & ess & E & Y & T).
  destruct (op_fails pf ser divisor s op s' e BS OK F) as (whole & part & EO & SW & NP & NE).
  exists ess. rewrite E0 in E.
  assert (EA : sk_out s' = ((t0 ++ txt) ++ whole) ++ part) by (rewrite EO, E, !app_assoc; reflexivity).
  assert (SA : says pf ((t0 ++ txt) ++ whole) (header_entries start base ++ concat ess)).
  { rewrite <- (app_nil_r (header_entries start base ++ concat ess)). apply says_app; auto. apply says_app; auto. }
  assert (ZE : zlen (sk_out s') = zlen (sk_out s) + zlen whole + zlen part) by (rewrite EO, !zlen_app; lia).
  pose proof (zlen_nonneg (sk_out s)). pose proof (zlen_nonneg whole). pose proof (zlen_nonneg part).
  eexists. split; [exact T|]. split.
  { unfold log_iter_new. rewrite EA at 2. apply says_yields; [exact SA|]. apply no_lf_input; [auto|lia]. }
  split.
  - destruct part as [|c part]; [left; reflexivity|]. right. eexists. split; [reflexivity|]. rewrite ZE.
    rewrite zlen_cons in *. pose proof (zlen_nonneg part). lia.
  - intros x EX. specialize (NE x EX). destruct part; [congruence|discriminate].
Qed.
(*EX
(** a sink that takes five bytes of the second interval; a histogram that cannot be serialized *)
Example ex_C50 : let ser := v2_serialize (fun _ => 0) in
  match build U64 1 10000 2 false [(3, 7)], build U64 1 10000 2 false [(3, i64_max); (3, 1)] with
  | Some h1, Some h2 =>
      match log_do ser f64_one (new_sink [None; None; None; Some 5%nat]) (Histogram h1 (mk_duration 1 0) (mk_duration 2 0) None) with
      | Ret (s1, ROk tt) =>
          match log_do ser f64_one s1 (Histogram h1 (mk_duration 1 0) (mk_duration 2 0) None) with
          | Ret (s2, RErr LogIoError) => sk_out s2 = sk_out s1 ++ text "1.000"
          | _ => False end /\
          match log_do ser f64_one (mk_sink (sk_out s1) []) (Histogram h2 (mk_duration 1 0) (mk_duration 2 0) None) with
          | Ret (s2, RErr (LogSerializeError CountNotSerializable)) => sk_out s2 = sk_out s1 ++ text "1.000,2.000,3.000,"
          | _ => False end
      | _ => False end
  | _, _ => False end.
Proof. cbv zeta. vm_compute. split; reflexivity. Qed.
EX*)

(** C50: but the half-written line stays, and the next interval is glued to it: it is written without an error, and lost, and an interval that was never written is read, with a payload that is not base64 *)
Lemma C50_after_failure_refuted_proof : exists pf h1 h2 s1 s2 i it, reads_numbers pf /\ reachable h1 /\ reachable h2 /\
  log_run (v2_serialize (fun _ => 0)) f64_one (new_sink [])
    [(Histogram h1 (mk_duration 1 0) (mk_duration 2 0) None, RErr (LogSerializeError CountNotSerializable));
     (Histogram h2 (mk_duration 3 0) (mk_duration 4 0) None, ROk tt)] s2 /\
  log_do (v2_serialize (fun _ => 0)) f64_one (new_sink []) (Histogram h2 (mk_duration 3 0) (mk_duration 4 0) None) = Ret (s1, ROk tt) /\
  log_next pf (log_iter_new (sk_out s2)) = Ret (it, Some (ROk (Interval i))) /\ log_next pf it = Ret (mk_log_iter (li_orig_len it) [] true, None) /\
  i_start i = mk_duration 1 0 /\ i_duration i = mk_duration 2 0 /\ b64_decode (i_histogram i) = None.
Proof.
  assert (X : match build U64 1 10000 2 false [(3, i64_max); (3, 1)], build U64 1 10000 2 false [(5, 2)] with
    | Some h1, Some h2 =>
      match log_do (v2_serialize (fun _ => 0)) f64_one (new_sink []) (Histogram h1 (mk_duration 1 0) (mk_duration 2 0) None) with
      | Ret (sa, ra) => ra = RErr (LogSerializeError CountNotSerializable) /\
        match log_do (v2_serialize (fun _ => 0)) f64_one sa (Histogram h2 (mk_duration 3 0) (mk_duration 4 0) None) with
        | Ret (sb, rb) => rb = ROk tt /\ sk_out sb = text "1.000,2.000,3.000,3.000,4.000,5.000,HISTEwAAAAIAAAAAAAAAAgAAAAAAAAABAAAAAAAAJxA/8AAAAAAAAAkE" ++ [LF]
        | _ => False end /\
        match log_do (v2_serialize (fun _ => 0)) f64_one (new_sink []) (Histogram h2 (mk_duration 3 0) (mk_duration 4 0) None) with
        | Ret (_, r) => r = ROk tt
        | _ => False end
      | _ => False end
    | _, _ => False end) by (vm_compute; auto).
  destruct (build U64 1 10000 2 false [(3, i64_max); (3, 1)]) as [h1|] eqn:B1; [|destruct X].
  destruct (build U64 1 10000 2 false [(5, 2)]) as [h2|] eqn:B2; [|destruct X].
  destruct (log_do _ _ _ (Histogram h1 _ _ _)) as [[sa ra]|] eqn:L1; [|destruct X]. destruct X as (-> & X & X2).
  destruct (log_do _ _ sa _) as [[sb rb]|] eqn:L2; [|destruct X]. destruct X as (-> & EO).
  destruct (log_do _ _ _ (Histogram h2 _ _ _)) as [[s1 r]|] eqn:L3 in X2; [|destruct X2]. subst r.
  exists (fun _ => Some f64_zero), h1, h2, s1, sb.
  exists (mk_interval None (mk_duration 1 0) (mk_duration 2 0) f64_zero (text "3.000,4.000,5.000,HISTEwAAAAIAAAAAAAAAAgAAAAAAAAABAAAAAAAAJxA/8AAAAAAAAAkE")).
  exists (mk_log_iter (zlen (sk_out sb)) [] false).
  split; [split; [|split]; [intros; split|..]; discriminate|].
  split; [eapply build_reachable; eauto|]. split; [eapply build_reachable; eauto|].
  split; [eapply log_run_cons; [exact L1|]; eapply log_run_cons; [exact L2|]; constructor|].
  split; [exact L3|]. rewrite EO. split.
  { vm_compute. reflexivity. }
  split; [reflexivity|]. cbn [i_start i_duration i_histogram]. split; [reflexivity|]. split; [reflexivity|]. vm_compute. reflexivity.
Qed.
