(** * Proofs of the theorems about the language of interval logs and the text of the log writer *)
From Coq Require Import String Reals Lra.
From Flocq Require Import Core IEEE754.BinarySingleNaN.
From Verif Require Import Machine ListZ Log2Model HistModel Spec Reach Wf Ops MoreFacts HeldFacts Witness SerModel SerSpec FloatModel FloatSpec FloatFacts
  LogModel LogSpec LogFacts LogText LogTime LogLines LogReader PfLog LangSpec LangFacts.
Open Scope Z_scope.

(*PROPS-IMPORTS Machine Log2Model HistModel Spec Reach Witness FloatModel FloatSpec SerModel SerSpec LogModel LogSpec LogReader LangSpec LangFacts FloatFacts Props_Log *)
(*PROPS-HEADER
From Coq Require Import String Reals List Lra.
From Flocq Require Import Core IEEE754.BinarySingleNaN.
Open Scope Z_scope.
PROPS-HEADER*)

(** ** What is accepted *)

(** C66: the iterator delivers these entries and no error exactly if the input is a log that says so: lines that are a start time, a base time, an interval, a comment or a legend, each with its line feed *)
Lemma C66_language_proof : forall pf input es, zlen input <= usize_max ->
  (yields pf (log_iter_new input) (map ROk es) <-> log_text pf input es).
Proof.
  intros pf input es B. split; [|apply text_yields]. intros Y.
  destruct (log_or_not pf input) as (es' & p & q & -> & T & [->|U]).
  - rewrite app_nil_r in *. pose proof (yields_unique _ _ _ _ Y (text_yields _ _ _ T)) as E. apply oks_inj in E. congruence.
  - pose proof (yields_unique _ _ _ _ Y (text_error_yields _ _ _ _ T U B)) as E. apply oks_no_error in E. contradiction.
Qed.
(** C66: it delivers these entries and then an error exactly if the input is a log that says so, up to the offset of the error, followed by something that does not start with a line *)
Lemma C66_error_proof : forall pf input es off, zlen input <= usize_max ->
  (yields pf (log_iter_new input) (map ROk es ++ [RErr (ParseError off)]) <->
   exists p q, input = p ++ q /\ off = zlen p /\ log_text pf p es /\ unreadable pf q).
Proof.
  intros pf input es off B. split.
  - intros Y. destruct (log_or_not pf input) as (es' & p & q & -> & T & [->|U]).
    + rewrite app_nil_r in *. pose proof (yields_unique _ _ _ _ (text_yields _ _ _ T) Y) as E. apply oks_no_error in E. contradiction.
    + pose proof (yields_unique _ _ _ _ Y (text_error_yields _ _ _ _ T U B)) as E. apply oks_error_inj in E. destruct E as (-> & E).
      exists p, q. split; [reflexivity|]. split; [congruence|auto].
  - intros (p & q & -> & -> & T & U). apply text_error_yields; auto.
Qed.
(** C66: a log can be read in one way only *)
Lemma C66_unambiguous_proof : forall pf input a b, log_text pf input a -> log_text pf input b -> a = b.
Proof.
  intros pf input a b A B. apply text_yields in A, B. pose proof (yields_unique _ _ _ _ A B) as E. eapply oks_inj; eauto.
Qed.
(** C66: two logs one after the other are a log *)
Lemma C66_concatenation_proof : forall pf p q a b, log_text pf p a -> log_text pf q b -> log_text pf (p ++ q) (a ++ b).
Proof.
  intros pf p q a b A B. induction A as [|l es rest more L T IH]; [exact B|].
  rewrite <- app_assoc, <- app_comm_cons, <- app_assoc. constructor; auto.
Qed.
(*EX
(** seconds with a sign and more than nine places; numbers; a character of three bytes *)
Example ex_C66_fields : seconds (text "+7.1234567891") (mk_duration 7 123456789) /\ seconds (text "0.5") (mk_duration 0 500000000) /\
  is_number (text "-1.5E+3") /\ is_number (text ".5") /\ is_number (text "5.") /\ is_number (text "NaN") /\ ~ is_word (text "inf") (text "infinity") /\
  is_utf8 [226; 130; 172] /\ ~ is_utf8 [237; 160; 128].
Proof.
  assert (D : forall s, forallb (fun c => (48 <=? c) && (c <=? 57)) s = true -> all_digits s).
  { intros s H. apply Forall_forall. rewrite forallb_forall in H. intros c I. specialize (H c I). rewrite andb_true_iff, !Z.leb_le in H. exact H. }
  split. { exists [PLUS], (text "7"), (text "1234567891"). split; [reflexivity|]. split; [auto|]. split; [discriminate|]. split; [apply D; reflexivity|].
    split; [vm_compute; discriminate|]. split; [discriminate|]. split; [apply D; reflexivity|vm_compute; reflexivity]. }
  split. { exists [], (text "0"), (text "5"). split; [reflexivity|]. split; [auto|]. split; [discriminate|]. split; [apply D; reflexivity|].
    split; [vm_compute; discriminate|]. split; [discriminate|]. split; [apply D; reflexivity|vm_compute; reflexivity]. }
  split. { left. exists [MINUS], (text "1.5"), (text "E+3"). split; [reflexivity|]. split; [right; auto|]. split.
    - right. exists (text "1"), (text "5"). split; [reflexivity|]. split; [apply D; reflexivity|]. split; [apply D; reflexivity|left; discriminate].
    - right. exists 69, [PLUS], (text "3"). split; [reflexivity|]. split; [auto|]. split; [right; auto|]. split; [discriminate|apply D; reflexivity]. }
  split. { left. exists [], (text ".5"), []. split; [reflexivity|]. split; [left; auto|]. split; [|left; auto].
    right. exists [], (text "5"). split; [reflexivity|]. split; [constructor|]. split; [apply D; reflexivity|right; discriminate]. }
  split. { left. exists [], (text "5."), []. split; [reflexivity|]. split; [left; auto|]. split; [|left; auto].
    right. exists (text "5"), []. split; [reflexivity|]. split; [apply D; reflexivity|]. split; [constructor|left; discriminate]. }
  split. { right. left. repeat constructor; cbn; lia. }
  split. { intros H. assert (L : forall w s, is_word w s -> length w = length s) by (induction 1; cbn; congruence). apply L in H. discriminate. }
  split. { exists [8364]. split; [constructor; [left; lia|constructor]|reflexivity]. }
  intros H. apply utf8_iff in H. vm_compute in H. discriminate.
Qed.
(** a comment, a legend, a header, an interval with a line feed in its tag and carriage returns at its end; then an infinite maximum that is not understood *)
Example ex_C66 : let pf := fun _ => Some f64_zero in
  let log := text "#hello" ++ [LF; 34] ++ text "StartTimestamp" ++ [34] ++ text ",..." ++ [LF] ++ text "#[BaseTime: +12.5 x" ++ [LF] ++
             text "Tag=a" ++ [LF] ++ text "b,1.25,2.0,7.5,AAAA" ++ [CR; CR; LF] in
  let rest := text "1.0,2.0,infinity,AAAA" ++ [LF] in
  let es := [BaseTime (mk_duration 12 500000000);
             Interval (mk_interval (Some (text "a" ++ [LF] ++ text "b")) (mk_duration 1 250000000) (mk_duration 2 0) f64_zero (text "AAAA"))] in
  log_text pf log es /\ unreadable pf rest /\ yields pf (log_iter_new (log ++ rest)) (map ROk es ++ [RErr (ParseError 76)]).
Proof.
  cbv zeta. set (pf := fun _ : list Z => Some f64_zero).
  match goal with |- log_text pf ?l ?es /\ unreadable pf ?r /\ _ => assert (U : unreadable pf r);
    [apply unreadable_iff; split; [discriminate|]; split; vm_compute; reflexivity|assert (T : log_text pf l es)] end.
  - apply C66_language; [vm_compute; discriminate|].
    eapply yields_item; [vm_compute; reflexivity|]. eapply yields_item; [vm_compute; reflexivity|]. eapply yields_end. vm_compute. reflexivity.
  - split; [exact T|]. split; [exact U|]. apply C66_error; [vm_compute; discriminate|]. eexists _, _. split; [reflexivity|].
    split; [vm_compute; reflexivity|]. auto.
Qed.
EX*)

(** ** What is written *)
Lemma dec_loop_head fuel n acc : 0 < n < 2 ^ Z.of_nat (S fuel) -> exists d r, dec_loop (S fuel) n acc = d :: r /\ d <> 48.
Proof.
  revert n acc. induction fuel as [|f IH]; intros n acc B; cbn [dec_loop].
  - change (2 ^ Z.of_nat 1) with 2 in B. destruct (n <? 10) eqn:E; [|apply Z.ltb_ge in E; lia]. eexists _, _. split; [reflexivity|]. lia.
  - destruct (n <? 10) eqn:E; [eexists _, _; split; [reflexivity|]; lia|]. apply Z.ltb_ge in E. apply IH.
    rewrite (Nat2Z.inj_succ (S f)), Z.pow_succ_r in B by lia. pose proof (Z.div_mod n 10). pose proof (Z.mod_pos_bound n 10). lia.
Qed.
Lemma dec_head n : 0 < n -> exists d r, dec n = d :: r /\ d <> 48.
Proof.
  intros H. unfold dec. apply dec_loop_head. split; [lia|]. rewrite Nat2Z.inj_succ, Z2Nat.id by apply Z.log2_nonneg. apply Z.log2_spec; lia.
Qed.
Lemma dec3_printed n : 0 <= n -> printed3 (dec3 n) n.
Proof.
  intros H. split; [apply dec3_ok; auto|]. intros r E. unfold dec3 in E.
  destruct (Z.eq_dec (n / 1000) 0) as [Z0|NZ].
  - rewrite Z0 in E. change (dec 0) with [48] in E. cbn [app] in E. injection E as <-. eexists. reflexivity.
  - destruct (dec_head (n / 1000)) as (d & r' & E' & N). { pose proof (Z.div_pos n 1000). lia. }
    rewrite E' in E. cbn [app] in E. exfalso. congruence.
Qed.
Lemma znearest_nonneg (x : R) : (0 <= x)%R -> 0 <= ZnearestE x.
Proof. intros H. rewrite <- (Zrnd_IZR ZnearestE 0). apply Zrnd_le; [apply valid_rnd_N|]. exact H. Qed.
Lemma fmt3_printed x : printed x (fmt3 x).
Proof.
  destruct x as [s|[|]| |s m e B]; cbn [printed fmt3]; try reflexivity.
  - exists (dec3 0). split; [|reflexivity]. cbn [B2R]. rewrite Rabs_R0, Rmult_0_l, (Zrnd_IZR ZnearestE 0). apply dec3_printed. lia.
  - exists (dec3 (thousandths_of (Zpos m) e)). split; [|reflexivity].
    assert (E : Rabs (B2R (B754_finite s m e B : f64)) = (IZR (Zpos m) * bpow radix2 e)%R).
    { cbn [B2R]. rewrite <- F2R_Zabs. rewrite abs_cond_Zopp. reflexivity. }
    rewrite E, <- thousandths_ok by lia. apply dec3_printed, thousandths_nonneg. lia.
Qed.
Lemma fmt3_magnitude (x : f64) : is_finite x = true ->
  fmt3 x = (if Bsign x then [MINUS] else []) ++ dec3 (ZnearestE (Rabs (B2R x) * 1000)).
Proof.
  destruct x as [s|s| |s m e B]; try discriminate; intros _; cbn [fmt3 Bsign].
  - cbn [B2R]. rewrite Rabs_R0, Rmult_0_l, (Zrnd_IZR ZnearestE 0). reflexivity.
  - rewrite thousandths_ok by lia. do 3 f_equal. cbn [B2R]. rewrite <- F2R_Zabs. rewrite abs_cond_Zopp. reflexivity.
Qed.
Lemma negated (x : f64) : is_finite x = true ->
  is_finite (f64_mul x (Bopp f64_one)) = true /\ Bsign (f64_mul x (Bopp f64_one)) = negb (Bsign x) /\ B2R (f64_mul x (Bopp f64_one)) = (- B2R x)%R.
Proof.
  intros F. destruct one_ok as (O1 & O2).
  pose proof (Bmult_correct 53 1024 prec_gt_0_64 prec_lt_emax_64 mode_NE x (Bopp f64_one)) as M.
  rewrite B2R_Bopp, O1, is_finite_Bopp, O2, F in M. replace (B2R x * - (1))%R with (- B2R x)%R in M by ring.
  change (round radix2 (SpecFloat.fexp 53 1024) (round_mode mode_NE) (- B2R x)) with (rne (- B2R x)) in M.
  rewrite (rne_id (- B2R x)) in M by (apply generic_format_opp, gf_B2R).
  rewrite Rabs_Ropp, Rlt_bool_true in M by apply abs_B2R_lt_emax. destruct M as (M1 & M2 & M3).
  assert (M4 : is_nan (f64_mul x (Bopp f64_one)) = false).
  { unfold f64_mul. clear M3. destruct (Bmult mode_NE x (Bopp f64_one)); auto; discriminate. }
  split; [exact M2|]. split; [|exact M1]. unfold f64_mul in *. rewrite (M3 M4). rewrite Bsign_Bopp by reflexivity. change (Bsign f64_one) with false.
  destruct (Bsign x); reflexivity.
Qed.
Lemma fmt3_time t : valid_duration (st_distance t) ->
  fmt3 (system_time_as_fp_seconds t) = (if st_before t then [MINUS] else []) ++ dec3 (logged_ms (st_distance t)).
Proof.
  intros V. destruct (fp_seconds_ok _ V) as (F & S & R). unfold system_time_as_fp_seconds. destruct (st_before t).
  - destruct (negated _ F) as (F' & S' & R'). rewrite fmt3_magnitude by exact F'. rewrite S', S, R', R. cbn [negb]. do 3 f_equal.
    rewrite Rabs_Ropp, Rabs_pos_eq by (apply fp_seconds_nonneg; auto). reflexivity.
  - rewrite fmt3_duration by auto. reflexivity.
Qed.
Lemma split_lines_are cur s : ~ In LF cur -> lines_of (cur ++ s) (split_lines cur s).
Proof.
  revert cur. induction s as [|c s IH]; intros cur N; cbn [split_lines].
  - rewrite app_nil_r. constructor. exact N.
  - destruct (c =? LF) eqn:E.
    + apply Z.eqb_eq in E. subst c. constructor; [exact N|]. apply (IH []). auto.
    + replace (cur ++ c :: s) with ((cur ++ [c]) ++ s) by (rewrite <- app_assoc; reflexivity). apply IH.
      intros H. apply in_app_or in H. destruct H as [H|[H|[]]]; [auto|]. subst c. rewrite Z.eqb_refl in E. discriminate.
Qed.
Lemma comment_written s c s' : write_comment s c = (s', ROk tt) -> exists txt, sk_out s' = sk_out s ++ txt /\ LangSpec.comment_text c txt.
Proof.
  unfold write_comment. intros H. apply comment_lines_ok in H. eexists. split; [exact H|].
  exists (split_lines [] c). split; [apply (split_lines_are [] c); auto|reflexivity].
Qed.
Lemma comments_written s cs s' : write_comments s cs = (s', ROk tt) ->
  exists txts, sk_out s' = sk_out s ++ concat txts /\ Forall2 LangSpec.comment_text cs txts.
Proof.
  revert s. induction cs as [|c cs IH]; intros s; cbn [write_comments].
  - intros [= ->]. exists []. rewrite app_nil_r. split; [reflexivity|constructor].
  - destruct (write_comment s c) as [s1 [[]|e]] eqn:E; [|discriminate]. intros H.
    destruct (comment_written _ _ _ E) as (t & O1 & C). destruct (IH _ H) as (ts & O2 & F).
    exists (t :: ts). cbn [concat]. rewrite O2, O1, <- app_assoc. split; [reflexivity|constructor; auto].
Qed.
Lemma header_written s o s' : write_header s o = (s', ROk tt) -> sk_out s' = sk_out s ++ match o with Some l => l | None => [] end.
Proof.
  unfold write_header. destruct o as [l|].
  - destruct (emit s l) as [s1 [|]] eqn:E; [|discriminate]. intros [= <-]. apply emit_ok in E. exact E.
  - intros [= ->]. rewrite app_nil_r. reflexivity.
Qed.
Lemma configured_parts comments start base divisor :
  b_comments (configured comments start base divisor) = comments /\
  b_start (configured comments start base divisor) = option_map system_time_as_fp_seconds start /\
  b_base (configured comments start base divisor) = option_map system_time_as_fp_seconds base /\
  b_divisor (configured comments start base divisor) = divisor.
Proof.
  assert (K : forall cs b, b_comments (fold_left add_comment cs b) = b_comments b ++ cs /\
      b_start (fold_left add_comment cs b) = b_start b /\ b_base (fold_left add_comment cs b) = b_base b).
  { induction cs as [|c cs IH]; intros b; cbn; [rewrite app_nil_r; auto|].
    destruct (IH (add_comment b c)) as (A & B & C). rewrite A, B, C. cbn. rewrite <- app_assoc. auto. }
  destruct (K comments builder_new) as (A & B & C). unfold configured.
  destruct start as [t|], base as [u|]; cbn; rewrite ?A, ?B, ?C; auto.
Qed.
Lemma time_written name o : time_valid o ->
  time_text name o (match option_map (fun st => (text "#[" ++ name ++ text ": ") ++ fmt3 st ++ text " (seconds since epoch)]" ++ [LF])
    (option_map system_time_as_fp_seconds o) with Some l => l | None => [] end).
Proof.
  intros V. destruct o as [t|]; [|reflexivity]. cbn [option_map time_text]. specialize (V t eq_refl). exists (dec3 (logged_ms (st_distance t))).
  split; [apply dec3_printed, logged_ms_nonneg; auto|]. rewrite (fmt3_time t V), <- !app_assoc. reflexivity.
Qed.
Lemma is_one d : f64_eq d f64_one = true <-> finite d /\ real_of d = 1%R.
Proof.
  destruct one_ok as (O1 & O2). unfold f64_eq, finite, real_of. split.
  - intros H. assert (F : is_finite d = true).
    { destruct d as [s|s| |s m e B]; try reflexivity; exfalso; revert H; clear; [destruct s|]; vm_compute; discriminate. }
    split; [exact F|]. rewrite Beqb_correct, O1 in H by auto. destruct (Req_bool_spec (B2R d) 1); [auto|discriminate].
  - intros (F & R). rewrite Beqb_correct, O1 by auto. apply Req_bool_true. exact R.
Qed.
Lemma divisor_written d : divisor_text d (match (if f64_eq d f64_one then None else Some (text "#[MaxValueDivisor: " ++ fmt3 d ++ text "]" ++ [LF])) with Some l => l | None => [] end).
Proof.
  destruct (f64_eq d f64_one) eqn:E.
  - apply is_one in E. left. tauto.
  - right. split; [intros H; apply is_one in H; congruence|]. exists (fmt3 d). split; [apply fmt3_printed|reflexivity].
Qed.
(** C67: a log starts with the comments, each line after a hash, then the start time, the base time and the divisor, as far as they were configured, and with nothing else *)
Lemma C67_header_proof : forall comments start base divisor script s, time_valid start -> time_valid base ->
  begin_log_with (configured comments start base divisor) (new_sink script) = (s, ROk tt) ->
  header_text comments start base divisor (sk_out s).
Proof.
  intros comments start base divisor script s VS VB. unfold begin_log_with.
  destruct (configured_parts comments start base divisor) as (-> & -> & -> & ->).
  destruct (write_comments (new_sink script) comments) as [s1 [[]|]] eqn:E1; [|discriminate].
  destruct (comments_written _ _ _ E1) as (ts & O1 & F).
  destruct (write_header s1 _) as [s2 [[]|]] eqn:E2; [|discriminate]. apply header_written in E2.
  destruct (write_header s2 _) as [s3 [[]|]] eqn:E3; [|discriminate]. apply header_written in E3.
  intros E4. apply header_written in E4.
  eexists ts, _, _, _. split; [exact F|]. split; [exact (time_written (text "StartTime") start VS)|].
  split; [exact (time_written (text "BaseTime") base VB)|]. split; [exact (divisor_written divisor)|].
  rewrite E4, E3, E2, O1. cbn [new_sink sk_out app]. rewrite <- !app_assoc. reflexivity.
Qed.
Lemma alphabet_ok d : 0 <= d < 64 -> nth (Z.to_nat d) b64_alphabet 0 = b64_char d.
Proof.
  intros H. assert (F : forallb (fun n => nth n b64_alphabet 0 =? b64_char (Z.of_nat n)) (seq 0 64) = true) by (vm_compute; reflexivity).
  rewrite forallb_forall in F. specialize (F (Z.to_nat d)). rewrite Z2Nat.id in F by lia. apply Z.eqb_eq, F, in_seq. lia.
Qed.
Lemma big_endian_from base ds a : fold_left (fun n d => n * base + d) ds a = a * base ^ zlen ds + big_endian base ds.
Proof.
  unfold big_endian. revert a. induction ds as [|d ds IH]; intros a; cbn [fold_left]; [cbn; lia|].
  rewrite IH, (IH (0 * base + d)), zlen_cons, Z.add_1_r, Z.pow_succ_r by apply zlen_nonneg. ring.
Qed.
Lemma big_endian_app base a b : big_endian base (a ++ b) = big_endian base a * base ^ zlen b + big_endian base b.
Proof. unfold big_endian at 1. rewrite fold_left_app, big_endian_from. reflexivity. Qed.
Lemma encode_base64 bs : bytes bs -> base64 bs (b64_encode bs).
Proof.
  pattern bs. apply bytes_ind3; clear bs.
  - intros _. exists [], O. split; [reflexivity|]. split; [lia|]. split; [constructor|]. split; reflexivity.
  - intros a B. inversion B as [|? ? Ba B1]; subst.
    exists [a / 4; a mod 4 * 16], 2%nat.
    assert (F : Forall (fun d => 0 <= d < 64) [a / 4; a mod 4 * 16]) by (repeat constructor; Z.to_euclidean_division_equations; lia).
    split; [|split; [lia|split; [exact F|]]].
    + inversion F as [|? ? F1 F2]; inversion F2 as [|? ? F3 F4]; subst. cbn [map]. rewrite !alphabet_ok by auto. reflexivity.
    + split; [reflexivity|]. unfold big_endian. cbn [fold_left]. change (4 ^ Z.of_nat 2) with 16. pose proof (Z.div_mod a 4). lia.
  - intros a b B. inversion B as [|? ? Ba B1]; inversion B1 as [|? ? Bb B2]; subst.
    exists [a / 4; a mod 4 * 16 + b / 16; b mod 16 * 4], 1%nat.
    assert (F : Forall (fun d => 0 <= d < 64) [a / 4; a mod 4 * 16 + b / 16; b mod 16 * 4]) by (repeat constructor; Z.to_euclidean_division_equations; lia).
    split; [|split; [lia|split; [exact F|]]].
    + inversion F as [|? ? F1 F2]; inversion F2 as [|? ? F3 F4]; inversion F4 as [|? ? F5 F6]; subst. cbn [map]. rewrite !alphabet_ok by auto. reflexivity.
    + split; [reflexivity|]. unfold big_endian. cbn [fold_left]. change (4 ^ Z.of_nat 1) with 4. pose proof (Z.div_mod a 4). pose proof (Z.div_mod b 16). lia.
  - intros a b c r IH B. inversion B as [|? ? Ba B1]; inversion B1 as [|? ? Bb B2]; inversion B2 as [|? ? Bc B3]; subst.
    destruct (IH B3) as (ds & pad & E & P & F & L & V).
    set (q := [a / 4; a mod 4 * 16 + b / 16; b mod 16 * 4 + c / 64; c mod 64]).
    assert (FQ : Forall (fun d => 0 <= d < 64) q) by (repeat constructor; Z.to_euclidean_division_equations; lia).
    exists (q ++ ds), pad. split; [|split; [exact P|split; [apply Forall_app; auto|]]].
    + rewrite map_app, <- app_assoc, <- E. cbn [b64_encode]. unfold q in *.
      inversion FQ as [|? ? F1 F2]; inversion F2 as [|? ? F3 F4]; inversion F4 as [|? ? F5 F6]; inversion F6 as [|? ? F7 F8]; subst.
      cbn [map]. rewrite !alphabet_ok by auto. reflexivity.
    + rewrite zlen_app, !zlen_cons. change (zlen q) with 4. split; [lia|].
      change (a :: b :: c :: r) with ([a; b; c] ++ r). rewrite !big_endian_app, V.
      assert (Q : big_endian 64 q = big_endian 256 [a; b; c]).
      { unfold q, big_endian. cbn [fold_left]. pose proof (Z.div_mod a 4). pose proof (Z.div_mod b 16). pose proof (Z.div_mod c 64). lia. }
      assert (X : 64 ^ zlen ds = 256 ^ zlen r * 4 ^ Z.of_nat pad).
      { change 64 with (2 ^ 6). change 256 with (2 ^ 8). change 4 with (2 ^ 2). pose proof (zlen_nonneg ds). pose proof (zlen_nonneg r).
        rewrite <- !Z.pow_mul_r by lia. rewrite <- Z.pow_add_r by lia. f_equal. lia. }
      rewrite Q, X. ring.
Qed.
Lemma div_any m d : is_u64 m -> finite d -> real_of d <> 0%R -> (Rabs (scaled m d) < bpow radix2 1024)%R ->
  is_finite (f64_div (f64_of_u64 m) d) = true /\ B2R (f64_div (f64_of_u64 m) d) = scaled m d /\ Bsign (f64_div (f64_of_u64 m) d) = Bsign d.
Proof.
  intros U F N L. destruct (of_u64_ok m U) as (A & B & C).
  pose proof (Bdiv_correct 53 1024 prec_gt_0_64 prec_lt_emax_64 mode_NE (f64_of_u64 m) d N) as D.
  rewrite A in D. change (round radix2 (SpecFloat.fexp 53 1024) (round_mode mode_NE) (rne (IZR m) / B2R d)) with (scaled m d) in D.
  rewrite Rlt_bool_true in D by exact L. destruct D as (D1 & D2 & D3). rewrite B in D2. unfold f64_div in *.
  split; [exact D2|]. split; [exact D1|]. rewrite D3, C; [apply xorb_false_l|]. clear - D2.
  destruct (Bdiv mode_NE (f64_of_u64 m) d); auto; discriminate.
Qed.
Lemma max_written m d : is_u64 m -> max_text m d (fmt3 (f64_div (f64_of_u64 m) d)).
Proof.
  intros U. split; [apply fmt3_printed|]. intros F N L. destruct (div_any m d U F N L) as (A & B & C).
  exists (dec3 (ZnearestE (Rabs (scaled m d) * 1000))). split.
  - apply dec3_printed, znearest_nonneg. pose proof (Rabs_pos (scaled m d)). lra.
  - rewrite fmt3_magnitude, B, C by exact A. reflexivity.
Qed.
(** C67: a call that succeeds appends exactly this text: the lines of a comment, each after a hash, or one line with the tag, both times, the divided maximum and the histogram in base64 *)
Lemma C67_call_proof : forall ser divisor s op s', byte_serializer ser -> op_valid op ->
  log_do ser divisor s op = Ret (s', ROk tt) -> exists txt, op_text ser divisor op txt /\ sk_out s' = sk_out s ++ txt.
Proof.
  intros ser divisor s op s' BS OV. destruct op as [c|h start dur t]; cbn [log_do op_text op_valid] in *.
  - intros [= H]. destruct (comment_written _ _ _ H) as (txt & O & C). eauto.
  - destruct OV as (RH & V1 & V2). intros H. destruct (write_histogram_ok _ _ _ _ _ _ _ _ H) as (m & bs & EM & ES & EO).
    eexists. split; [|exact EO]. pose proof (reachable_wf h RH) as W.
    assert (U : is_u64 m). { rewrite (max_ok h W) in EM. injection EM as <-. apply maxp_u64; auto. }
    eexists m, bs, _, _, _, _. split; [exact EM|]. split; [exact ES|].
    split; [apply dec3_printed, logged_ms_nonneg; exact V1|]. split; [apply dec3_printed, logged_ms_nonneg; exact V2|].
    split; [apply max_written; exact U|]. split; [apply encode_base64; eapply BS; eauto|].
    unfold hist_text. rewrite !fmt3_duration by auto. unfold tag_text. rewrite <- !app_assoc. reflexivity.
Qed.
(** C67: so a log written without an error is its header and the texts of the calls, in order, and nothing else *)
Lemma C67_text_proof : forall ser script comments start base divisor s0 l s, byte_serializer ser -> time_valid start -> time_valid base ->
  begin_log_with (configured comments start base divisor) (new_sink script) = (s0, ROk tt) ->
  log_run ser divisor s0 l s -> Forall succeeded l -> Forall (fun x => op_valid (fst x)) l ->
  exists hd txts, header_text comments start base divisor hd /\ Forall2 (op_text ser divisor) (map fst l) txts /\ sk_out s = hd ++ concat txts.
Proof.
  intros ser script comments start base divisor s0 l s BS VS VB B R S O.
  exists (sk_out s0). assert (K : exists txts, Forall2 (op_text ser divisor) (map fst l) txts /\ sk_out s = sk_out s0 ++ concat txts).
  - clear B VS VB. induction R as [s|s op r s1 l s2 D R IH].
    + exists []. rewrite app_nil_r. split; [constructor|reflexivity].
    + inversion S as [|? ? S1 S2]; inversion O as [|? ? O1 O2]; subst. unfold succeeded in S1. cbn in S1, O1. subst r.
      destruct (C67_call_proof ser divisor s op s1 BS O1 D) as (t & T & E). destruct (IH S2 O2) as (ts & F & E').
      exists (t :: ts). cbn [map fst concat]. rewrite E', E, <- app_assoc. split; [constructor; auto|reflexivity].
  - destruct K as (txts & F & E). exists txts. split; [eapply C67_header_proof; eauto|]. auto.
Qed.
Lemma decimal_unique a b : all_digits a -> all_digits b -> length a = length b -> decimal_value a = decimal_value b -> a = b.
Proof.
  intros FA. revert b. induction FA as [|c a C FA IH]; intros [|d b] FB L V; try discriminate; [reflexivity|].
  inversion FB as [|? ? D FB']; subst. rewrite !decimal_cons in V. cbn [length] in L.
  assert (LL : zlen a = zlen b) by (unfold zlen; lia). rewrite <- LL in V.
  pose proof (decimal_bound _ FA) as BA. pose proof (decimal_bound _ FB') as BB. rewrite <- LL in BB.
  assert (c = d) by nia. subst d. f_equal. apply IH; auto. lia.
Qed.
Lemma canonical_unique a b : all_digits a -> all_digits b -> a <> [] -> b <> [] ->
  (forall r, a = 48 :: r -> r = []) -> (forall r, b = 48 :: r -> r = []) -> decimal_value a = decimal_value b -> a = b.
Proof.
  assert (G : forall a b, all_digits a -> all_digits b -> a <> [] -> (forall r, b = 48 :: r -> r = []) -> decimal_value a = decimal_value b ->
              (length b <= length a)%nat).
  { intros x y FX FY NX CY V. destruct (Nat.le_gt_cases (length y) (length x)) as [|LT]; [assumption|exfalso].
    destruct y as [|d y]; [cbn in LT; lia|]. inversion FY as [|? ? D FY']; subst.
    assert (d <> 48). { intros ->. specialize (CY y eq_refl). subst y. destruct x; [congruence|cbn in LT; lia]. }
    pose proof (decimal_bound _ FX) as BX. pose proof (decimal_bound _ FY') as BY. rewrite decimal_cons in V.
    assert (10 ^ zlen x <= 10 ^ zlen y). { apply Z.pow_le_mono_r; [lia|]. unfold zlen. cbn [length] in LT. lia. }
    nia. }
  intros FA FB NA NB CA CB V. apply decimal_unique; auto. apply Nat.le_antisymm; [apply (G b a)|apply (G a b)]; auto.
Qed.
Lemma printed3_unique a b n : printed3 a n -> printed3 b n -> a = b.
Proof.
  assert (P : forall s, printed3 s n -> exists i f, s = i ++ DOT :: f /\ i <> [] /\ all_digits i /\ all_digits f /\ length f = 3%nat /\
     decimal_value i = n / 1000 /\ decimal_value f = n mod 1000 /\ (forall r, i = 48 :: r -> r = [])).
  { intros s (D & C). destruct (decimal3_parts _ _ D) as (i & f & -> & N & FI & FF & L & VI & VF). exists i, f.
    repeat (split; [auto; try (unfold zlen in L; lia)|]). intros r ->. specialize (C (r ++ DOT :: f) eq_refl).
    destruct C as (x & E). destruct r as [|y r]; [reflexivity|]. exfalso. cbn in E. assert (y = DOT) by congruence. subst y.
    inversion FI as [|? ? ? FR]; subst. inversion FR as [|? ? K]; subst. unfold DOT in K. lia. }
  intros A B. destruct (P a A) as (i & f & -> & N & FI & FF & L & VI & VF & C). destruct (P b B) as (i' & f' & -> & N' & FI' & FF' & L' & VI' & VF' & C').
  assert (i = i') as <- by (apply canonical_unique; auto; congruence).
  assert (f = f') as <- by (apply decimal_unique; auto; congruence). reflexivity.
Qed.
Lemma printed_unique x a b : printed x a -> printed x b -> a = b.
Proof.
  assert (K : (exists ds, printed3 ds (ZnearestE (Rabs (B2R x) * 1000)) /\ a = (if Bsign x then [MINUS] else []) ++ ds) ->
              (exists ds, printed3 ds (ZnearestE (Rabs (B2R x) * 1000)) /\ b = (if Bsign x then [MINUS] else []) ++ ds) -> a = b).
  { intros (d1 & P1 & ->) (d2 & P2 & ->). f_equal. eapply printed3_unique; eauto. }
  destruct x as [s|[|]| |s m e B]; cbn [printed] in *; auto; congruence.
Qed.
Lemma lines_unique c a b : lines_of c a -> lines_of c b -> a = b.
Proof.
  intros A. revert b. induction A as [l N|l c a N A IH]; intros b B.
  - inversion B as [l' N' E1 E2|l' c' ls N' B' E1 E2]; subst; [reflexivity|]. exfalso. apply N. apply in_or_app. right. left. reflexivity.
  - inversion B as [l' N' E1 E2|l' c' ls N' B' E1 E2]; subst.
    + exfalso. apply N'. apply in_or_app. right. left. reflexivity.
    + destruct (split_first l c l' c' N (eq_sym E1)) as [(-> & ->)|(y & -> & _)]; [f_equal; auto|].
      exfalso. apply N'. apply in_or_app. right. left. reflexivity.
Qed.
Lemma comment_text_unique c a b : LangSpec.comment_text c a -> LangSpec.comment_text c b -> a = b.
Proof. intros (l1 & A & ->) (l2 & B & ->). rewrite (lines_unique _ _ _ A B). reflexivity. Qed.
Lemma big_endian_unique base a b : Forall (fun d => 0 <= d < base) a -> Forall (fun d => 0 <= d < base) b -> length a = length b ->
  big_endian base a = big_endian base b -> a = b.
Proof.
  assert (BD : forall s, Forall (fun d => 0 <= d < base) s -> 0 <= big_endian base s < base ^ zlen s).
  { induction s as [|d s IH]; intros F; [cbn; lia|]. inversion F as [|? ? D F']; subst. specialize (IH F').
    change (d :: s) with ([d] ++ s). rewrite big_endian_app, zlen_app. change (zlen [d]) with 1. change (big_endian base [d]) with (0 * base + d).
    rewrite Z.pow_add_r, Z.pow_1_r by (try lia; apply zlen_nonneg). nia. }
  intros FA. revert b. induction FA as [|c a C FA IH]; intros [|d b] FB L V; try discriminate; [reflexivity|].
  inversion FB as [|? ? D FB']; subst. change (c :: a) with ([c] ++ a) in V. change (d :: b) with ([d] ++ b) in V. rewrite !big_endian_app in V.
  cbn [length] in L. assert (LL : zlen a = zlen b) by (unfold zlen; lia). rewrite <- LL in V.
  change (big_endian base [c]) with (0 * base + c) in V. change (big_endian base [d]) with (0 * base + d) in V.
  pose proof (BD _ FA) as BA. pose proof (BD _ FB') as BB. rewrite <- LL in BB.
  assert (c = d) by nia. subst d. f_equal. apply IH; auto; lia.
Qed.
Lemma base64_unique bs a b : base64 bs a -> base64 bs b -> a = b.
Proof.
  intros (d1 & p1 & -> & P1 & F1 & L1 & V1) (d2 & p2 & -> & P2 & F2 & L2 & V2).
  assert (p1 = p2) as <- by lia. assert (zlen d1 = zlen d2) by lia.
  rewrite (big_endian_unique 64 d1 d2); auto; [unfold zlen in *; lia|congruence].
Qed.
Lemma time_text_unique name o a b : time_text name o a -> time_text name o b -> a = b.
Proof. destruct o as [t|]; cbn; [|congruence]. intros (x & X & ->) (y & Y & ->). rewrite (printed3_unique _ _ _ X Y). reflexivity. Qed.
Lemma divisor_text_unique d a b : divisor_text d a -> divisor_text d b -> a = b.
Proof. intros [(? & ? & ->)|(N & x & X & ->)] [(? & ? & ->)|(N' & y & Y & ->)]; try tauto. rewrite (printed_unique _ _ _ X Y). reflexivity. Qed.
(** C67: these descriptions leave no choice: there is only one text for a header and one for a call *)
Lemma C67_determined_proof : 
  (forall comments start base divisor a b, header_text comments start base divisor a -> header_text comments start base divisor b -> a = b) /\
  (forall ser divisor op a b, op_text ser divisor op a -> op_text ser divisor op b -> a = b).
Proof.
  split.
  - intros comments start base divisor a b (c1 & s1 & b1 & d1 & C1 & S1 & B1 & D1 & ->) (c2 & s2 & b2 & d2 & C2 & S2 & B2 & D2 & ->).
    rewrite (time_text_unique _ _ _ _ S1 S2), (time_text_unique _ _ _ _ B1 B2), (divisor_text_unique _ _ _ D1 D2). f_equal. f_equal.
    clear - C1 C2. revert c2 C2. induction C1 as [|c t cs ts H F IH]; intros c2 C2; inversion C2 as [|? t2 ? ts2 H2 F2]; subst; [reflexivity|].
    f_equal; [eapply comment_text_unique; eauto|auto].
  - intros ser divisor [c|h start dur t] a b; cbn [op_text]; [apply comment_text_unique|].
    intros (m & bs & x1 & x2 & x3 & x4 & M & S & A1 & A2 & (A3 & _) & A4 & ->) (m' & bs' & y1 & y2 & y3 & y4 & M' & S' & B1 & B2 & (B3 & _) & B4 & ->).
    assert (m = m' /\ bs = bs') as (<- & <-) by (split; congruence).
    rewrite (printed3_unique _ _ _ A1 B1), (printed3_unique _ _ _ A2 B2), (printed_unique _ _ _ A3 B3), (base64_unique _ _ _ A4 B4). reflexivity.
Qed.
Lemma big_is_integer x : gf x -> (bpow radix2 53 <= x)%R -> exists z, x = IZR z.
Proof.
  intros G L. unfold gf, generic_format in G.
  assert (E : (0 <= cexp radix2 (FLT_exp (-1074) 53) x)%Z).
  { unfold cexp, FLT_exp. assert (53 < mag radix2 x)%Z; [|lia]. apply mag_gt_bpow. rewrite Rabs_pos_eq; [exact L|].
    pose proof (bpow_gt_0 radix2 53). lra. }
  rewrite G. unfold F2R. cbn [Fnum Fexp]. rewrite <- IZR_Zpower by exact E. rewrite <- mult_IZR. eauto.
Qed.
Lemma thousandths_range q : gf q -> (0 <= q < bpow radix2 1024)%R -> (rne (IZR (ZnearestE (q * 1000)) / 1000) < bpow radix2 1024)%R.
Proof.
  intros G (Q0 & Q1). destruct (Rle_or_lt (bpow radix2 53) q) as [B|S].
  - destruct (big_is_integer q G B) as (z & ->). rewrite <- mult_IZR, (Zrnd_IZR ZnearestE), mult_IZR.
    replace (IZR z * 1000 / 1000)%R with (IZR z) by field. rewrite rne_id by exact G. exact Q1.
  - apply Rle_lt_trans with (bpow radix2 54); [|apply bpow_lt; lia]. rewrite <- (rne_id (bpow radix2 54)) by (apply gf_bpow; lia).
    apply rne_le. pose proof (Znearest_half (fun x => negb (Z.even x)) (q * 1000)) as H. apply Rabs_le_inv in H.
    assert (bpow radix2 54 = 2 * bpow radix2 53)%R by exact (bpow_plus_1 radix2 53).
    assert (1 <= bpow radix2 53)%R by (apply (bpow_le radix2 0); lia).
    fold ZnearestE in H. lra.
Qed.
(** C67: the maximum read from the log is the one written, rounded to thousandths, for every positive divisor *)
Lemma C67_maximum_proof : forall pf ser divisor h start dur t es m, rounds_numbers pf -> reachable h -> max h = Ret m ->
  finite divisor -> (0 < real_of divisor)%R -> (scaled m divisor < bpow radix2 1024)%R ->
  told ser pf divisor (Histogram h start dur t) es ->
  exists i, es = [Interval i] /\ finite (i_max i) /\ real_of (i_max i) = rne (IZR (ZnearestE (scaled m divisor * 1000)) / 1000).
Proof.
  intros pf ser divisor h start dur t es m RN RH M F P L (i & bs & m' & -> & _ & _ & _ & M' & PF & _).
  rewrite M in M'. injection M' as <-. exists i. split; [reflexivity|]. pose proof (reachable_wf h RH) as W.
  assert (U : is_u64 m). { rewrite (max_ok h W) in M. injection M as <-. apply maxp_u64; auto. }
  assert (Q0 : (0 <= scaled m divisor)%R).
  { unfold scaled. apply rne_nonneg. apply Rmult_le_pos; [apply (rne_u64 m U)|]. apply Rlt_le, Rinv_0_lt_compat. exact P. }
  destruct (div_any m divisor U F) as (A & B & C); [lra|rewrite Rabs_pos_eq; auto|].
  assert (SG : Bsign divisor = false).
  { destruct divisor as [s|s| |s k e K]; try discriminate; cbn in P; [lra|]. destruct s; [|reflexivity]. exfalso.
    unfold real_of, B2R in P. pose proof (F2R_lt_0 radix2 (Float radix2 (Zneg k) e)). cbn in H. specialize (H ltac:(lia)). cbn in P. lra. }
  rewrite fmt3_magnitude, C, B, SG, Rabs_pos_eq in PF by auto. cbn [app] in PF.
  destruct (RN (dec3 (ZnearestE (scaled m divisor * 1000))) (ZnearestE (scaled m divisor * 1000))) as (y & Py & Fy & Ry).
  - apply dec3_ok, znearest_nonneg. lra.
  - apply thousandths_range; [apply rne_gf|auto].
  - rewrite Py in PF. injection PF as <-. auto.
Qed.
(*EX
(** a header with two comments and both times, one before the epoch; a divisor of one half prints a line, one does not *)
Example ex_C67 : let half := f64_div f64_one (f64_of_u64 2) in
  let start := Some (mk_system_time false (mk_duration 1700000000 123000000)) in
  let base := Some (mk_system_time true (mk_duration 5 0)) in
  time_valid start /\ time_valid base /\
  (exists s, begin_log_with (configured [text "hello"; text "a" ++ [LF] ++ text "b"] start base half) (new_sink []) = (s, ROk tt) /\
     sk_out s = text "#hello" ++ [LF] ++ text "#a" ++ [LF] ++ text "#b" ++ [LF] ++
       text "#[StartTime: 1700000000.123 (seconds since epoch)]" ++ [LF] ++
       text "#[BaseTime: -5.000 (seconds since epoch)]" ++ [LF] ++ text "#[MaxValueDivisor: 0.500]" ++ [LF]) /\
  (exists s, begin_log_with (configured [[]] None None f64_one) (new_sink []) = (s, ROk tt) /\ sk_out s = [HASH; LF]).
Proof.
  assert (V : forall b d, valid_duration d -> time_valid (Some (mk_system_time b d))) by (intros b d H t [= <-]; exact H).
  cbv zeta. split; [apply V; split; unfold is_u64, u64_max; cbn; lia|]. split; [apply V; split; unfold is_u64, u64_max; cbn; lia|].
  split; eexists; split; vm_compute; reflexivity.
Qed.
(** a histogram, with a tag and a divisor of two; the conditions of the theorems hold *)
Example ex_C67_histogram : let ser := v2_serialize (fun _ => 0) in let two := f64_of_u64 2 in
  byte_serializer ser /\ rounds_numbers simple_reader /\ finite two /\ real_of two = 2%R /\
  match build U64 1 10000 2 false [(3, 7); (500, 2)] with
  | Some h => let op := Histogram h (mk_duration 1 500000000) (mk_duration 2 0) (Some (text "a")) in
      op_valid op /\ max h = Ret 501 /\ (scaled 501 two < bpow radix2 1024)%R /\
      match log_do ser two (new_sink []) op with
      | Ret (s, ROk tt) => starts_with (text "Tag=a,1.500,2.000,250.500,HISTEwAAA") (sk_out s)
      | _ => False end
  | None => False end.
Proof.
  cbv zeta. split; [exact (C46_v2_bytes _)|]. split; [exact simple_rounds|].
  destruct (of_u64_ok 2) as (A & B & _); [unfold u64_max; lia|]. rewrite (rne_IZR 2) in A by lia.
  split; [exact B|]. split; [exact A|].
  assert (X : match build U64 1 10000 2 false [(3, 7); (500, 2)] with
    | Some h => max h = Ret 501 /\ match log_do (v2_serialize (fun _ => 0)) (f64_of_u64 2) (new_sink []) (Histogram h (mk_duration 1 500000000) (mk_duration 2 0) (Some (text "a"))) with
      | Ret (s, ROk tt) => starts_with (text "Tag=a,1.500,2.000,250.500,HISTEwAAA") (sk_out s)
      | _ => False end
    | None => False end) by (vm_compute; split; [reflexivity|eexists; reflexivity]).
  destruct (build U64 1 10000 2 false [(3, 7); (500, 2)]) as [h|] eqn:E; [|exact X]. destruct X as (X1 & X2).
  split. { split; [eapply build_reachable; eauto|]. split; split; unfold is_u64, u64_max; cbn; lia. }
  split; [exact X1|]. split; [|exact X2]. unfold scaled, real_of. rewrite A, (rne_IZR 501) by lia.
  apply Rle_lt_trans with (bpow radix2 9); [|apply bpow_lt; lia]. rewrite <- (rne_id (bpow radix2 9)) by (apply gf_bpow; lia).
  apply rne_le. change (bpow radix2 9) with 512%R. lra.
Qed.
EX*)
