(** * What becomes of an interval log in which writes have failed *)
From Coq Require Import String Reals Lra.
From Flocq Require Import Core IEEE754.BinarySingleNaN.
From Verif Require Import Machine ListZ Log2Model HistModel Spec Reach Wf Ops MoreFacts HeldFacts Witness SerModel SerSpec FloatModel FloatSpec FloatFacts
  LogModel LogSpec LogFacts LogText LogTime LogLines LogReader PfLog LangSpec LangFacts FaultSpec.
Open Scope Z_scope.

(*PROPS-IMPORTS Machine Log2Model HistModel Spec Reach Witness FloatModel FloatSpec SerModel SerSpec LogModel LogSpec LogReader FaultSpec *)
(*PROPS-HEADER
From Coq Require Import String List.
Open Scope Z_scope.
PROPS-HEADER*)

(** *)
Lemma utf8_app a b : is_utf8 a -> is_utf8 b -> is_utf8 (a ++ b).
Proof. intros (x & F & ->) (y & G & ->). exists (x ++ y). rewrite flat_map_app. split; [apply Forall_app; auto|reflexivity]. Qed.
Lemma utf8_ascii s : ascii s -> is_utf8 s.
Proof. intros H. apply utf8_iff, ascii_utf8. exact H. Qed.
Lemma encode_lf c : scalar c -> In LF (utf8_encode c) -> c = LF.
Proof.
  intros S I. unfold utf8_encode, LF, scalar in *.
  destruct (c <=? 127) eqn:E1; [destruct I as [I|[]]; auto|]. apply Z.leb_gt in E1. exfalso.
  pose proof (Z.div_pos c 64 ltac:(lia) ltac:(lia)). pose proof (Z.div_pos c 4096 ltac:(lia) ltac:(lia)). pose proof (Z.div_pos c 262144 ltac:(lia) ltac:(lia)).
  pose proof (Z.mod_pos_bound c 64 ltac:(lia)). pose proof (Z.mod_pos_bound (c / 64) 64 ltac:(lia)). pose proof (Z.mod_pos_bound (c / 4096) 64 ltac:(lia)).
  destruct (c <=? 2047); [|destruct (c <=? 65535)]; cbn [In] in I; intuition lia.
Qed.
Lemma utf8_line a b : is_utf8 (a ++ LF :: b) -> is_utf8 a /\ is_utf8 b.
Proof.
  intros (cs & F & E). revert a E. induction F as [|c cs SC F IH]; intros a E; cbn [flat_map] in E; [destruct a; discriminate|].
  destruct (Z.eq_dec c LF) as [->|N].
  - change (utf8_encode LF) with [LF] in E. cbn [app] in E. destruct a as [|x a].
    + injection E as ->. split; [exists []; split; [constructor|reflexivity]|exists cs; auto].
    + injection E as X E. subst x. destruct (IH a E) as (A & B). split; auto. change (LF :: a) with ([LF] ++ a). apply utf8_app; auto.
      exists [LF]. split; [constructor; auto|reflexivity].
  - assert (NI : ~ In LF (utf8_encode c)) by (intros I; apply encode_lf in I; auto).
    assert (P : exists a', a = utf8_encode c ++ a' /\ a' ++ LF :: b = flat_map utf8_encode cs).
    { clear - E NI. revert a E NI. induction (utf8_encode c) as [|x u IHu]; intros a E NI; cbn [app] in *; [eauto|].
      destruct a as [|y a]; cbn [app] in E; injection E as E1 E2.
      - exfalso. apply NI. left. auto.
      - subst y. destruct (IHu a E2) as (a' & -> & K); [intros I; apply NI; right; auto|]. exists a'. auto. }
    destruct P as (a' & -> & E'). destruct (IH a' E') as (A & B). split; auto. apply utf8_app; auto.
    exists [c]. cbn [flat_map]. rewrite app_nil_r. split; [constructor; auto|reflexivity].
Qed.
Ltac ascii_lit := unfold ascii; cbv [text COMMA HASH]; cbn; repeat (constructor; [lia|]); constructor.
Lemma number_ascii s : number_text s -> ascii s.
Proof.
  assert (D : forall d n, is_decimal3 d n -> ascii d).
  { intros d n (i & f & -> & _ & I & F & _). unfold ascii. apply Forall_app. split; [apply digits_ascii; auto|].
    constructor; [unfold DOT; lia|apply digits_ascii; auto]. }
  intros [(d & n & K & [->| ->])|[->| ->]].
  - eapply D; eauto.
  - constructor; [unfold MINUS; lia|eapply D; eauto].
  - ascii_lit.
  - ascii_lit.
Qed.
(** *)
Lemma interval_glued pf t n1 n2 mx y payload : 0 <= n1 -> n1 / 1000 <= u64_max -> 0 <= n2 -> n2 / 1000 <= u64_max ->
  (forall x, t = Some x -> is_str x /\ ~ In COMMA x) -> number_text mx -> pf mx = Some y -> ~ In LF payload -> is_utf8 payload ->
  reads_as pf (tag_text t ++ dec3 n1 ++ [COMMA] ++ dec3 n2 ++ [COMMA] ++ mx ++ [COMMA] ++ payload ++ [LF])
    (Interval (mk_interval t (ms_duration n1) (ms_duration n2) y (trim_cr payload))).
Proof.
  intros N1 B1 N2 B2 T MX PF NL UT rest. unfold log_entry_p. unfold p_alt at 1.
  rewrite <- !app_assoc. cbn [app].
  assert (H : p_alt start_time base_time (tag_text t ++ dec3 n1 ++ COMMA :: dec3 n2 ++ COMMA :: mx ++ COMMA :: payload ++ LF :: rest) = Ret None).
  { destruct t as [x|]; cbn [tag_text].
    - apply (headers_need_hash 84). discriminate.
    - cbn [app]. destruct (dec3_head n1 (COMMA :: dec3 n2 ++ COMMA :: mx ++ COMMA :: payload ++ LF :: rest) N1) as (d & r & -> & D).
      apply headers_need_hash. intros ->. discriminate. }
  rewrite H. unfold interval_hist. rewrite read_tag by auto. cbn [pbind].
  rewrite (read_seconds _ n1) by (auto using dec3_ok; reflexivity). cbn [pbind].
  rewrite p_char_app. cbn [pbind].
  rewrite (read_seconds _ n2) by (auto using dec3_ok; reflexivity). cbn [pbind].
  rewrite p_char_app. cbn [pbind].
  rewrite read_number by auto. rewrite PF. cbn [pbind].
  rewrite p_char_app. cbn [pbind].
  rewrite until_app by auto. unfold p_map_res, from_utf8. cbn [pbind].
  apply utf8_iff in UT. rewrite UT. cbn [pbind p_take1]. reflexivity.
Qed.
(** *)
Lemma b64_decode_chars n : forall s bs, (length s <= n)%nat -> b64_decode s = Some bs -> forall c, In c s -> b64_value c <> None \/ c = 61.
Proof.
  induction n as [|n IH]; intros s bs L E c I.
  - destruct s; [destruct I|cbn in L; lia].
  - destruct s as [|a [|b [|x [|d r]]]]; try discriminate; [destruct I|]. cbn [b64_decode] in E.
    destruct (b64_value a) eqn:Va; [|discriminate]. destruct (b64_value b) eqn:Vb; [|discriminate].
    destruct ((x =? 61) && (d =? 61) && match r with [] => true | _ => false end) eqn:Q1.
    + destruct r; [|rewrite andb_false_r in Q1; discriminate]. rewrite andb_true_r, andb_true_iff, !Z.eqb_eq in Q1. destruct Q1 as (-> & ->).
      destruct I as [<-|[<-|[<-|[<-|[]]]]]; auto; left; congruence.
    + clear Q1. destruct (b64_value x) eqn:Vx; [|discriminate].
      destruct ((d =? 61) && match r with [] => true | _ => false end) eqn:Q2.
      * destruct r; [|rewrite andb_false_r in Q2; discriminate]. rewrite andb_true_r, Z.eqb_eq in Q2. subst d.
        destruct I as [<-|[<-|[<-|[<-|[]]]]]; auto; left; congruence.
      * clear Q2. destruct (b64_value d) eqn:Vd; [|discriminate]. destruct (b64_decode r) eqn:Er; [|discriminate].
        destruct I as [<-|[<-|[<-|[<-|I]]]]; try (left; congruence). apply (IH r l); auto. cbn in L. lia.
Qed.
Lemma not_base64 s : In COMMA s \/ In HASH s -> b64_decode s = None.
Proof.
  intros H. destruct (b64_decode s) as [bs|] eqn:E; auto. exfalso.
  destruct H as [H|H]; destruct (b64_decode_chars _ s bs (le_n _) E _ H) as [K|K]; [apply K|discriminate K|apply K|discriminate K]; reflexivity.
Qed.
Lemma in_trim c s : In c s -> c <> CR -> In c (trim_cr s).
Proof.
  intros I N. destruct (trim_split s) as (crs & E & F & _). rewrite E in I. apply in_app_or in I. destruct I as [I|I]; auto.
  rewrite Forall_forall in F. apply F in I. contradiction.
Qed.

(** *)
Lemma hist_text_utf8 divisor m start dur t : valid_duration start -> valid_duration dur -> (forall x, t = Some x -> is_str x) ->
  f64_div (f64_of_u64 m) divisor <> B754_infinity true -> is_utf8 (hist_text divisor m start dur t).
Proof.
  intros V1 V2 T NI. unfold hist_text. assert (C : is_utf8 [COMMA]) by (apply utf8_ascii; ascii_lit).
  assert (FD : forall d, valid_duration d -> is_utf8 (fmt3 (duration_as_fp_seconds d))).
  { intros d V. apply utf8_ascii, number_ascii. rewrite fmt3_duration by auto. left. exists (dec3 (logged_ms d)), (logged_ms d). split; [apply dec3_ok, logged_ms_nonneg; auto|auto]. }
  repeat apply utf8_app; auto.
  - destruct t as [x|]; cbn [tag_text]; [|exists []; split; [constructor|reflexivity]]. repeat apply utf8_app; auto.
    + apply utf8_ascii; ascii_lit.
    + apply utf8_iff. apply (T x eq_refl).
  - apply utf8_ascii, number_ascii, fmt3_number. auto.
Qed.
Lemma in_hist_text divisor m start dur t : In COMMA (hist_text divisor m start dur t).
Proof. unfold hist_text. apply in_or_app. right. apply in_or_app. right. left. reflexivity. Qed.
(** a failed serialization leaves the head of a line *)
Lemma unserialized_text ser divisor s op r s1 : op_ok divisor op -> log_do ser divisor s op = Ret (s1, r) -> unserialized (op, r) ->
  exists h start dur t m, op = Histogram h start dur t /\ max h = Ret m /\ sk_out s1 = sk_out s ++ hist_text divisor m start dur t.
Proof.
  intros OK D (e & E). cbn in E. subst r. destruct op as [c|h start dur t]; cbn [log_do] in D.
  - exfalso. revert D. unfold write_comment. generalize (split_lines [] c). intros ls D. injection D as D. revert s D.
    induction ls as [|l ls IH]; intros s; cbn [write_comment_lines]; [discriminate|]. destruct (emit s _) as [s2 [|]]; [apply IH|discriminate].
  - exists h, start, dur, t. revert D. unfold write_histogram. destruct (max h) as [m|]; [|discriminate]. cbn [bind]. fold (tag_text t). fold (hist_text divisor m start dur t).
    destruct (emit s _) as [s2 [|]] eqn:E1; cbn [negb]; [|discriminate].
    destruct (ser h) as [[bs|x]|]; cbn [bind]; [|intros [= <- <-]; exists m; apply emit_ok in E1; auto|discriminate].
    destruct (emit s2 _) as [s3 [|]]; cbn [negb]; [|discriminate]. destruct (emit s3 _) as [s4 [|]]; discriminate.
Qed.
Lemma tag_facts (t : option tag) : (forall x, t = Some x -> is_str x /\ tag_new x = Some x) ->
  (forall x, t = Some x -> is_str x) /\ (forall x, t = Some x -> is_str x /\ ~ In COMMA x) /\ (forall x, t = Some x -> ~ In LF x).
Proof.
  intros T. assert (K : forall x, t = Some x -> is_str x /\ ~ In COMMA x /\ ~ In LF x).
  { intros x E. destruct (T x E) as (S & N). pose proof (tag_ok_comma x S N). auto. }
  split; [|split]; intros x E; destruct (K x E) as (A & B & C); auto.
Qed.
Lemma head_facts divisor h start dur t m : op_ok divisor (Histogram h start dur t) -> max h = Ret m ->
  ~ In LF (hist_text divisor m start dur t) /\ is_utf8 (hist_text divisor m start dur t).
Proof.
  intros (RH & (V1 & L1) & (V2 & L2) & T & NI) EM. destruct (tag_facts t T) as (T1 & T2 & T3). split.
  - apply hist_text_no_lf. auto.
  - apply hist_text_utf8; auto.
Qed.
(** several of them *)
Lemma unserialized_texts ser divisor s fs s1 : log_run ser divisor s fs s1 -> Forall unserialized fs -> Forall (fun x => op_ok divisor (fst x)) fs ->
  exists txt, sk_out s1 = sk_out s ++ txt /\ ~ In LF txt /\ is_utf8 txt /\ (fs <> [] -> txt <> []).
Proof.
  induction 1 as [s|s op r s1 l s2 D R IH]; intros F O.
  - exists []. rewrite app_nil_r. split; [reflexivity|]. split; [intros []|]. split; [exists []; split; [constructor|reflexivity]|congruence].
  - inversion F as [|? ? F1 F2]; inversion O as [|? ? O1 O2]; subst. cbn in O1. destruct (IH F2 O2) as (txt & E & N & U & _).
    destruct (unserialized_text _ _ _ _ _ _ O1 D F1) as (h & start & dur & t & m & -> & EM & E1).
    destruct (head_facts _ _ _ _ _ _ O1 EM) as (N1 & U1). pose proof (in_hist_text divisor m start dur t) as IC.
    exists (hist_text divisor m start dur t ++ txt). rewrite E, E1, <- app_assoc. split; [reflexivity|].
    split; [intros K; apply in_app_or in K; tauto|]. split; [apply utf8_app; auto|]. intros _ K. apply app_eq_nil in K. destruct K as (K & _).
    rewrite K in IC. destruct IC.
Qed.
(** a successful call writes a first line that is not base64, and then lines that say nothing *)
Lemma first_line pf ser divisor s op s1 : byte_serializer ser -> op_ok divisor op -> op_str op -> log_do ser divisor s op = Ret (s1, ROk tt) ->
  exists l more, sk_out s1 = sk_out s ++ l ++ [LF] ++ more /\ ~ In LF l /\ is_utf8 l /\ (In COMMA l \/ In HASH l) /\ says pf more [].
Proof.
  intros BS OK ST. destruct op as [c|h start dur t]; cbn [log_do op_ok op_str] in *.
  - unfold write_comment. intros [= H]. apply comment_lines_ok in H.
    pose proof (split_lines_of [] c (fun x => x) []) as LO. cbn [app] in LO.
    assert (F : forall l, In l (split_lines [] c) -> ~ In LF l /\ is_skipped pf (HASH :: l ++ [LF])).
    { intros l I. assert (L : line_of l c) by (apply LO; auto; left; auto).
      destruct (OK l L) as (A & B). destruct L as (N & _). split; auto. apply comment_skipped; auto. }
    assert (U : forall cur s, is_utf8 (cur ++ s) -> forall l, In l (split_lines cur s) -> is_utf8 l).
    { clear. intros cur s. revert cur. induction s as [|c s IH]; intros cur U l; cbn [split_lines].
      - rewrite app_nil_r in U. intros [<-|[]]. auto.
      - destruct (c =? LF) eqn:E.
        + apply Z.eqb_eq in E. subst c. apply utf8_line in U. intros [<-|I]; [tauto|]. apply (IH []); auto. cbn. tauto.
        + intros I. apply (IH (cur ++ [c])); auto. rewrite <- app_assoc. exact U. }
    specialize (U [] c ltac:(apply utf8_iff; apply ST)).
    destruct (split_lines [] c) as [|l ls] eqn:E.
    { exfalso. clear - E. assert (X : forall s cur, split_lines cur s <> []).
      { induction s as [|x s IH]; intros cur; cbn [split_lines]; [discriminate|]. destruct (x =? LF); [discriminate|apply IH]. }
      exact (X c [] E). }
    exists (HASH :: l), (LogLines.comment_text ls). split; [rewrite H; cbn [LogLines.comment_text flat_map]; cbn [app]; rewrite <- app_assoc; reflexivity|].
    destruct (F l (or_introl eq_refl)) as (N & _). split; [intros [K|K]; [discriminate|auto]|].
    split. { change (HASH :: l) with ([HASH] ++ l). apply utf8_app; [apply utf8_ascii; ascii_lit|]. apply U. left; auto. }
    split; [right; left; reflexivity|]. assert (G : forall l', In l' ls -> is_skipped pf (HASH :: l' ++ [LF])) by (intros l' I; apply F; right; auto).
    clear - G. induction ls as [|l' ls IH]; [constructor|]. cbn [LogLines.comment_text flat_map]. apply says_skip; [apply G; left; auto|discriminate|apply IH].
    intros l'' I. apply G. right; auto.
  - intros H. destruct (write_histogram_ok _ _ _ _ _ _ _ _ H) as (m & bs & EM & ES & EO).
    destruct (head_facts _ _ _ _ _ _ OK EM) as (N1 & U1). pose proof (b64_text_encode bs (BS h bs (proj1 OK) ES)) as BT.
    exists (hist_text divisor m start dur t ++ b64_encode bs), []. rewrite app_nil_r. split; [rewrite EO, <- !app_assoc; reflexivity|].
    split; [intros K; apply in_app_or in K; destruct K as [K|K]; [auto|exact (b64_no_lf _ BT K)]|].
    split; [apply utf8_app; auto; apply utf8_ascii, b64_ascii; auto|]. split; [left; apply in_or_app; left; apply in_hist_text|constructor].
Qed.
(** a history either starts with a success, or is a run of failures, or is a run of failures and a success *)
Lemma cut l : Forall (fun x => succeeded x \/ unserialized x) l ->
  Forall unserialized l \/ exists fs op l', l = fs ++ (op, ROk tt) :: l' /\ Forall unserialized fs.
Proof.
  induction 1 as [|x l [S|U] F IH]; [left; constructor| |].
  - right. destruct x as [op r]. cbn in S. exists [], op, l. unfold succeeded in S. cbn in S. subst r. split; [reflexivity|constructor].
  - destruct IH as [IH|(fs & op & l' & -> & IH)]; [left; constructor; auto|]. right. exists (x :: fs), op, l'. split; [reflexivity|constructor; auto].
Qed.
Lemma run_app ser divisor s a b s2 : log_run ser divisor s (a ++ b) s2 -> exists s1, log_run ser divisor s a s1 /\ log_run ser divisor s1 b s2.
Proof.
  revert s. induction a as [|[op r] a IH]; intros s R; cbn [app] in R; [exists s; split; [constructor|auto]|].
  inversion R as [|? ? ? sm ? ? D R2]; subst. destruct (IH sm R2) as (sx & A & B). exists sx. split; auto. econstructor; eauto.
Qed.
Lemma app_run ser divisor s a s1 : log_run ser divisor s a s1 -> forall b s2, log_run ser divisor s1 b s2 -> log_run ser divisor s (a ++ b) s2.
Proof. induction 1; intros b s' R; cbn [app]; auto. econstructor; eauto. Qed.
Definition ends_well (l : list (log_op * result unit log_write_error)) : Prop := l = [] \/ exists l' op, l = l' ++ [(op, ROk tt)].
Lemma ends_well_app a op b : ends_well b -> ends_well (a ++ (op, ROk tt) :: b).
Proof. intros [->|(l' & op' & ->)]; right; [exists a, op; reflexivity|exists (a ++ (op, ROk tt) :: l'), op'; rewrite <- app_assoc; reflexivity]. Qed.

(** *)
Lemma run_retold pf ser divisor : reads_numbers pf -> byte_serializer ser -> forall n l s s', (length l <= n)%nat ->
  log_run ser divisor s l s' -> Forall (fun x => succeeded x \/ unserialized x) l ->
  Forall (fun x => op_ok divisor (fst x) /\ op_str (fst x)) l ->
  exists l1 l2 s1 txt es part, l = l1 ++ l2 /\ log_run ser divisor s l1 s1 /\ ends_well l1 /\ Forall unserialized l2 /\
    sk_out s1 = sk_out s ++ txt /\ says pf txt es /\ retold ser pf divisor l1 es /\
    sk_out s' = sk_out s1 ++ part /\ ~ In LF part /\ (l2 <> [] -> part <> []) /\ (l2 = [] -> part = []).
Proof.
  intros RN BS. induction n as [|n IH]; intros l s s' L R F O.
  - destruct l; [|cbn in L; lia]. inversion R; subst. exists [], [], s', [], [], []. rewrite ?app_nil_r.
    split; [reflexivity|]. split; [constructor|]. split; [left; auto|]. split; [constructor|]. split; [reflexivity|]. split; [constructor|].
    split; [constructor|]. split; [reflexivity|]. split; [intros []|]. split; [congruence|auto].
  - destruct (cut l F) as [U|(fs & op & l' & -> & U)].
    + destruct (unserialized_texts ser divisor s l s' R U) as (txt & E & N & _ & P).
      { eapply Forall_impl; [|exact O]. cbn. tauto. }
      exists [], l, s, [], [], txt. rewrite app_nil_r.
      split; [reflexivity|]. split; [constructor|]. split; [left; auto|]. split; [auto|]. split; [reflexivity|]. split; [constructor|].
      split; [constructor|]. split; [auto|]. split; [auto|]. split; [auto|]. intros ->. inversion R; subst.
      destruct txt; auto. exfalso. apply (f_equal (@length Z)) in E. rewrite app_length in E. cbn in E. lia.
    + destruct (run_app _ _ _ _ _ _ R) as (sa & RA & RB). inversion RB as [|? ? ? sb ? ? D RC]; subst.
      apply Forall_app in O, F. destruct O as (OA & OB). destruct F as (_ & FB). inversion OB as [|? ? (O1 & O2) OC]; subst. cbn in O1, O2. inversion FB as [|? ? _ FC]; subst.
      destruct (IH l' sb s') as (l1 & l2 & s1 & txt & es & part & -> & R1 & EW & U2 & E1 & S1 & RT & E2 & N & P1 & P2); auto.
      { rewrite app_length in L. cbn in L. lia. }
      destruct fs as [|[opx rx] fs].
      * inversion RA; subst. destruct (op_says pf ser divisor sa op sb RN BS O1 D) as (t1 & e1 & E0 & S0 & T0).
        exists ((op, ROk tt) :: l1), l2, s1, (t1 ++ txt), (e1 ++ es), part. split; [reflexivity|]. split; [econstructor; eauto|].
        split; [apply (ends_well_app []); auto|]. split; auto. split; [rewrite E1, E0, <- app_assoc; reflexivity|].
        split; [apply says_app; auto|]. split; [constructor; auto|]. auto.
      * inversion U as [|? ? Ux Uf]; subst. inversion OA as [|? ? (Ox & _) Of]; subst. inversion RA as [|? ? ? sx ? ? Dx Rf]; subst. cbn in Ox.
        destruct (unserialized_text _ _ _ _ _ _ Ox Dx Ux) as (h & start & dur & t & m & -> & EM & Ex).
        destruct (unserialized_texts ser divisor sx fs sa Rf Uf) as (gl & Eg & Ng & Ug & _).
        { eapply Forall_impl; [|exact Of]. cbn. tauto. }
        destruct (first_line pf ser divisor sa op sb BS O1 O2 D) as (ln & more & El & Nl & Ul & Cl & Sm).
        pose proof Ox as (RH & (V1 & L1) & (V2 & L2) & T & NI). destruct (tag_facts t T) as (T1 & T2 & T3). specialize (NI m EM).
        pose proof (fmt3_number _ NI) as NT.
        assert (PF : exists y, pf (fmt3 (f64_div (f64_of_u64 m) divisor)) = Some y).
        { destruct RN as (R1' & R2' & R3').
          assert (E : pf (fmt3 (f64_div (f64_of_u64 m) divisor)) <> None).
          { destruct NT as [(d & k & Dd & [->| ->])|[->| ->]]; auto; destruct (R1' _ _ Dd); auto. }
          destruct (pf (fmt3 (f64_div (f64_of_u64 m) divisor))) as [y|]; [exists y; reflexivity|congruence]. }
        destruct PF as (y & PF).
        set (i := mk_interval t (logged start) (logged dur) y (trim_cr (gl ++ ln))).
        assert (RD : reads_as pf (hist_text divisor m start dur t ++ (gl ++ ln) ++ [LF]) (Interval i)).
        { unfold hist_text, i. rewrite !fmt3_duration by auto. rewrite <- !app_assoc.
          replace (gl ++ ln ++ [LF]) with ((gl ++ ln) ++ [LF]) by (rewrite <- app_assoc; reflexivity).
          apply interval_glued; auto using logged_ms_nonneg; [|apply utf8_app; auto]. intros K. apply in_app_or in K. tauto. }
        exists (((Histogram h start dur t, rx) :: fs) ++ (op, ROk tt) :: l1), l2, s1,
          ((hist_text divisor m start dur t ++ (gl ++ ln) ++ [LF]) ++ more ++ txt), (Interval i :: es), part.
        split; [rewrite <- app_assoc; reflexivity|].
        split; [apply (app_run _ _ _ _ _ RA); econstructor; eauto|]. split; [apply ends_well_app; auto|]. split; auto.
        split; [rewrite E1, El, Eg, Ex, <- !app_assoc; reflexivity|].
        split. { apply says_read; [exact RD|destruct (hist_text divisor m start dur t); [destruct (gl ++ ln)|]; discriminate|].
                 apply (says_app pf more [] txt es); auto. }
        split; [|auto]. apply retold_phantom; auto. cbn [fst phantom]. exists m. cbn [i i_tag i_start i_duration i_max i_histogram].
        repeat split; auto. apply not_base64. destruct Cl as [Cl|Cl]; [left|right]; apply in_trim; try discriminate; apply in_or_app; right; exact Cl.
Qed.

(** C50: what a log says after any number of failures to serialize a histogram.  The calls up to the last
    success are retold: what succeeded is read, except that a run of failures swallows the call after it
    and leaves a phantom, an interval with the tag, the times and the maximum of the first failure and a
    payload that is not base64.  If there are failures after the last success, reading ends with an error
    at the place where the first of them started to write. *)
Lemma C50_failures_proof : forall pf ser script comments start base divisor s0 l s,
  reads_numbers pf -> byte_serializer ser ->
  Forall plain_comment comments -> header_ok start -> header_ok base ->
  begin_log_with (configured comments start base divisor) (new_sink script) = (s0, ROk tt) ->
  log_run ser divisor s0 l s -> Forall (fun x => succeeded x \/ unserialized x) l ->
  Forall (fun x => op_ok divisor (fst x) /\ op_str (fst x)) l -> zlen (sk_out s) <= usize_max ->
  exists l1 l2 s1 es, l = l1 ++ l2 /\ (l1 = [] \/ exists l' op, l1 = l' ++ [(op, ROk tt)]) /\ Forall unserialized l2 /\
    log_run ser divisor s0 l1 s1 /\ retold ser pf divisor l1 es /\
    yields pf (log_iter_new (sk_out s)) (map ROk (header_entries start base ++ es) ++
      match l2 with [] => [] | _ => [RErr (ParseError (zlen (sk_out s1)))] end).
Proof.
  intros pf ser script comments start base divisor s0 l s RN BS FC HS HB B R F O U.
  destruct (begin_says pf _ _ _ _ _ _ FC HS HB B) as (t0 & E0 & S0).
  destruct (run_retold pf ser divisor RN BS (length l) l s0 s (le_n _) R F O)
    as (l1 & l2 & s1 & txt & es & part & -> & R1 & EW & U2 & E1 & S1 & RT & E2 & N & P1 & P2).
  exists l1, l2, s1, es. split; [reflexivity|]. split; [exact EW|]. split; [auto|]. split; [auto|]. split; [auto|].
  assert (EA : sk_out s = (t0 ++ txt) ++ part) by (rewrite E2, E1, E0; reflexivity).
  assert (ZE : zlen (sk_out s1) = zlen (sk_out s) - zlen part) by (rewrite E2, zlen_app; lia).
  pose proof (zlen_nonneg (sk_out s1)) as Z1. pose proof (zlen_nonneg part) as Z2.
  unfold log_iter_new. rewrite EA at 2. apply says_yields; [apply says_app; auto|].
  pose proof (no_lf_input pf (zlen (sk_out s)) part N ltac:(lia)) as Y. rewrite ZE.
  destruct l2 as [|x l2]; [rewrite (P2 eq_refl) in *; exact Y|].
  destruct part as [|c part]; [exfalso; apply P1; [discriminate|reflexivity]|exact Y].
Qed.
(*EX
(** two histograms that cannot be serialized, then one that can, which is swallowed, then a comment and another one; at the end a failure *)
Definition ex_ser := v2_serialize (fun _ => 0).
Definition ex_ops (bad good : hist) : list log_op :=
  [Histogram bad (mk_duration 1 0) (mk_duration 2 0) None; Histogram bad (mk_duration 3 0) (mk_duration 4 0) None;
   Histogram good (mk_duration 5 0) (mk_duration 6 0) None; Comment (text "x"); Histogram good (mk_duration 7 0) (mk_duration 8 0) None;
   Histogram bad (mk_duration 9 0) (mk_duration 10 0) None].
Fixpoint ex_do (s : sink) (ops : list log_op) : list (option (result unit log_write_error)) * sink :=
  match ops with
  | [] => ([], s)
  | op :: ops' => match log_do ex_ser f64_one s op with
      | Ret (s1, r) => let '(rs, s2) := ex_do s1 ops' in (Some r :: rs, s2)
      | Panic => ([None], s)
      end
  end.
Example ex_C50_failures :
  match build U64 1 10000 2 false [(3, i64_max); (3, 1)], build U64 1 10000 2 false [(5, 2)] with
  | Some bad, Some good =>
      let p := text "HISTEwAAAAIAAAAAAAAAAgAAAAAAAAABAAAAAAAAJxA/8AAAAAAAAAkE" in
      let '(rs, s) := ex_do (new_sink []) (ex_ops bad good) in
      rs = [Some (RErr (LogSerializeError CountNotSerializable)); Some (RErr (LogSerializeError CountNotSerializable)); Some (ROk tt);
            Some (ROk tt); Some (ROk tt); Some (RErr (LogSerializeError CountNotSerializable))] /\
      sk_out s = text "1.000,2.000,3.000,3.000,4.000,3.000,5.000,6.000,5.000," ++ p ++ [LF] ++ text "#x" ++ [LF] ++ text "7.000,8.000,5.000," ++ p ++ [LF] ++ text "9.000,10.000,3.000," /\
      match log_next (fun _ => Some f64_zero) (log_iter_new (sk_out s)) with
      | Ret (it, Some (ROk (Interval i))) => i_start i = mk_duration 1 0 /\ b64_decode (i_histogram i) = None /\
          match log_next (fun _ => Some f64_zero) it with
          | Ret (it2, Some (ROk (Interval j))) => i_start j = mk_duration 7 0 /\ i_histogram j = p /\
              match log_next (fun _ => Some f64_zero) it2 with Ret (_, Some (RErr (ParseError off))) => off = 189 | _ => False end
          | _ => False end
      | _ => False end
  | _, _ => False end.
Proof. vm_compute. repeat split. Qed.
EX*)

(** *)
Lemma told_decodes ser pf divisor op es : told ser pf divisor op es -> filter decodes es = es.
Proof.
  destruct op as [c|h start dur t]; cbn [told]; [intros ->; reflexivity|].
  intros (i & bs & m & -> & _ & _ & _ & _ & _ & _ & E). cbn [filter decodes]. rewrite E. reflexivity.
Qed.
Lemma undamaged_fail fs op l b : Forall unserialized fs -> undamaged b (fs ++ (op, ROk tt) :: l) =
  (if match fs with [] => b | _ => false end then [op] else []) ++ undamaged true l.
Proof.
  intros F. revert b. induction F as [|[o r] fs (e & E) F IH]; intros b; [reflexivity|]. cbn in E. subst r.
  cbn [app undamaged]. rewrite IH. destruct fs; reflexivity.
Qed.
Lemma retold_decodes ser pf divisor l es : retold ser pf divisor l es ->
  exists ess, Forall2 (told ser pf divisor) (undamaged true l) ess /\ filter decodes es = concat ess.
Proof.
  induction 1 as [|op es l rest T R (ess & F & E)|x fs op i l rest U FU P R (ess & F & E)].
  - exists []. split; [constructor|reflexivity].
  - exists (es :: ess). cbn [undamaged app concat]. split; [constructor; auto|]. rewrite filter_app, E, (told_decodes _ _ _ _ _ T). reflexivity.
  - exists ess. pose proof (undamaged_fail (x :: fs) op l true ltac:(constructor; auto)) as K. cbn [app] in K. rewrite K. cbn [app].
    split; [exact F|]. cbn [filter decodes]. destruct (fst x) as [c|h start dur t]; [destruct P|].
    destruct P as (m & _ & _ & _ & _ & _ & ->). exact E.
Qed.
Lemma undamaged_end l1 l2 b : Forall unserialized l2 -> undamaged b (l1 ++ l2) = undamaged b l1.
Proof.
  intros F. revert b. induction l1 as [|[op [[]|e]] l1 IH]; intros b; cbn [app undamaged]; [|rewrite IH; reflexivity|apply IH].
  revert b. induction F as [|[o r] fs (e & E) F IH]; intros b; [reflexivity|]. cbn in E. subst r. cbn [undamaged]. apply IH.
Qed.
(** C50: the phantoms can be told apart: without the intervals whose payload is not base64, the log says
    what the calls say that succeeded and did not come right after a failure. *)
Lemma C50_recovered_proof : forall pf ser script comments start base divisor s0 l s,
  reads_numbers pf -> byte_serializer ser ->
  Forall plain_comment comments -> header_ok start -> header_ok base ->
  begin_log_with (configured comments start base divisor) (new_sink script) = (s0, ROk tt) ->
  log_run ser divisor s0 l s -> Forall (fun x => succeeded x \/ unserialized x) l ->
  Forall (fun x => op_ok divisor (fst x) /\ op_str (fst x)) l -> zlen (sk_out s) <= usize_max ->
  exists es err ess, yields pf (log_iter_new (sk_out s)) (map ROk es ++ err) /\
    (err = [] \/ exists off, err = [RErr (ParseError off)]) /\
    Forall2 (told ser pf divisor) (undamaged true l) ess /\ filter decodes es = header_entries start base ++ concat ess.
Proof.
  intros pf ser script comments start base divisor s0 l s RN BS FC HS HB B R F O U.
  destruct (C50_failures_proof pf ser script comments start base divisor s0 l s RN BS FC HS HB B R F O U)
    as (l1 & l2 & s1 & es & -> & _ & U2 & R1 & RT & Y).
  destruct (retold_decodes _ _ _ _ _ RT) as (ess & FT & E).
  eexists (header_entries start base ++ es), _, ess. split; [exact Y|]. split; [destruct l2; eauto|].
  rewrite undamaged_end by auto. split; [auto|]. rewrite filter_app, E. f_equal.
  unfold header_entries. destruct start, base; reflexivity.
Qed.
(** *)
Lemma commented_tolds ser pf divisor l ess b : commented l -> (b = false -> match l with (Comment _, _) :: _ => True | [] => True | _ => False end) ->
  Forall2 (told ser pf divisor) (undamaged b l) ess ->
  exists ess', Forall2 (told ser pf divisor) (successes l) ess' /\ concat ess' = concat ess.
Proof.
  revert ess b. induction l as [|[op [[]|e]] l IH]; intros ess b C N F.
  - inversion F; subst. exists []. split; [constructor|reflexivity].
  - cbn [undamaged successes flat_map snd fst commented] in *. fold (successes l). destruct b; cbn [app] in F.
    + inversion F as [|? e1 ? er T F2]; subst. destruct (IH er true C ltac:(discriminate) F2) as (ess' & G & E).
      exists (e1 :: ess'). cbn [app concat]. split; [constructor; auto|congruence].
    + destruct op as [c|]; [|destruct (N eq_refl)]. destruct (IH ess true C ltac:(discriminate) F) as (ess' & G & E).
      exists ([] :: ess'). cbn [app concat]. split; [constructor; [reflexivity|auto]|auto].
  - cbn [undamaged successes flat_map snd fst commented app] in *. destruct C as (C1 & C2). apply (IH ess false); auto.
    intros _. destruct l as [|[[c|h a d t] r] l]; auto.
Qed.
(** C50: a client that writes a comment after every failure loses nothing: without the intervals whose
    payload is not base64, the log says what the calls say that succeeded. *)
Lemma C50_comment_proof : forall pf ser script comments start base divisor s0 l s,
  reads_numbers pf -> byte_serializer ser ->
  Forall plain_comment comments -> header_ok start -> header_ok base ->
  begin_log_with (configured comments start base divisor) (new_sink script) = (s0, ROk tt) ->
  log_run ser divisor s0 l s -> Forall (fun x => succeeded x \/ unserialized x) l -> commented l ->
  Forall (fun x => op_ok divisor (fst x) /\ op_str (fst x)) l -> zlen (sk_out s) <= usize_max ->
  exists es ess, yields pf (log_iter_new (sk_out s)) (map ROk es) /\
    Forall2 (told ser pf divisor) (successes l) ess /\ filter decodes es = header_entries start base ++ concat ess.
Proof.
  intros pf ser script comments start base divisor s0 l s RN BS FC HS HB B R F CM O U.
  destruct (C50_failures_proof pf ser script comments start base divisor s0 l s RN BS FC HS HB B R F O U)
    as (l1 & l2 & s1 & es & -> & _ & U2 & R1 & RT & Y).
  assert (E2 : l2 = []).
  { destruct U2 as [|[op r] l2 (e & E) U2]; [reflexivity|exfalso]. cbn in E. subst r.
    assert (K : forall a b, commented (a ++ b) -> commented b).
    { induction a as [|[o [|]] a IH]; intros b; cbn [app commented]; auto. intros (_ & X). auto. }
    apply K in CM. cbn [commented] in CM. destruct CM as (CM & CM2). destruct U2 as [|[o r] l2 (e' & E) U2]; [destruct CM|].
    destruct o as [c|]; [|destruct CM]. cbn in E. subst r.
    destruct (run_app _ _ _ _ _ _ R) as (sa & RA & RB). inversion RB as [|? ? ? sb ? ? D1 RC]; subst. inversion RC as [|? ? ? sc ? ? D2 RD]; subst.
    apply Forall_app in O. destruct O as (_ & O). inversion O as [|? ? _ O1]; subst. inversion O1 as [|? ? (O2 & _) _]; subst.
    destruct (unserialized_text ser divisor sb (Comment c) _ sc O2 D2) as (h & a & d & t & m & X & _); [exists e'; reflexivity|discriminate X]. }
  subst l2. rewrite app_nil_r in *. destruct (retold_decodes _ _ _ _ _ RT) as (ess & FT & E).
  destruct (commented_tolds _ _ _ _ _ true CM ltac:(discriminate) FT) as (ess' & FT' & E').
  exists (header_entries start base ++ es), ess'. split; [exact Y|]. split; [auto|].
  rewrite filter_app, E, E'. f_equal. unfold header_entries. destruct start, base; reflexivity.
Qed.
(*EX
(** a comment after each failure *)
Example ex_C50_comment :
  match build U64 1 10000 2 false [(3, i64_max); (3, 1)], build U64 1 10000 2 false [(5, 2)] with
  | Some bad, Some good =>
      let ops := [Histogram bad (mk_duration 1 0) (mk_duration 2 0) None; Comment []; Histogram good (mk_duration 5 0) (mk_duration 6 0) None] in
      let p := text "HISTEwAAAAIAAAAAAAAAAgAAAAAAAAABAAAAAAAAJxA/8AAAAAAAAAkE" in
      let '(rs, s) := ex_do (new_sink []) ops in
      rs = [Some (RErr (LogSerializeError CountNotSerializable)); Some (ROk tt); Some (ROk tt)] /\
      sk_out s = text "1.000,2.000,3.000,#" ++ [LF] ++ text "5.000,6.000,5.000," ++ p ++ [LF] /\
      match log_next (fun _ => Some f64_zero) (log_iter_new (sk_out s)) with
      | Ret (it, Some (ROk e)) => decodes e = false /\
          match log_next (fun _ => Some f64_zero) it with Ret (_, Some (ROk e2)) => decodes e2 = true | _ => False end
      | _ => False end
  | _, _ => False end.
Proof. vm_compute. repeat split. Qed.
Example ex_C50_commented h d : commented [(Histogram h d d None, RErr (LogSerializeError CountNotSerializable)); (Comment [], ROk tt); (Histogram h d d None, ROk tt)] /\
  undamaged true [(Histogram h d d None, RErr (LogSerializeError CountNotSerializable)); (Comment [], ROk tt); (Histogram h d d None, ROk tt)] = [Histogram h d d None].
Proof. cbn. auto. Qed.
EX*)

(** C50: after an I/O error everything can be lost: the sink takes three bytes of the first call and fails
    once; whatever is written afterwards, with or without success, the log reads as one error at its start. *)
Lemma C50_io_failure_refuted_proof : exists script h s0, reachable h /\
  write_histogram (v2_serialize (fun _ => 0)) f64_one (new_sink script) h (mk_duration 1 0) (mk_duration 2 0) None = Ret (s0, RErr LogIoError) /\
  sk_script s0 = [] /\
  (exists s1, log_do (v2_serialize (fun _ => 0)) f64_one s0 (Histogram h (mk_duration 1 0) (mk_duration 2 0) None) = Ret (s1, ROk tt)) /\
  forall l s pf, log_run (v2_serialize (fun _ => 0)) f64_one s0 ((Histogram h (mk_duration 1 0) (mk_duration 2 0) None, ROk tt) :: l) s ->
    zlen (sk_out s) <= usize_max -> yields pf (log_iter_new (sk_out s)) [RErr (ParseError 0)].
Proof.
  assert (X : match build U64 1 10000 2 false [(5, 2)] with
    | Some h =>
      match write_histogram (v2_serialize (fun _ => 0)) f64_one (new_sink [Some 3%nat]) h (mk_duration 1 0) (mk_duration 2 0) None with
      | Ret (sa, ra) => ra = RErr LogIoError /\ sk_script sa = [] /\
        match log_do (v2_serialize (fun _ => 0)) f64_one sa (Histogram h (mk_duration 1 0) (mk_duration 2 0) None) with
        | Ret (sb, rb) => rb = ROk tt /\ sk_out sb = text "1.01.000,2.000,5.000,HISTEwAAAAIAAAAAAAAAAgAAAAAAAAABAAAAAAAAJxA/8AAAAAAAAAkE" ++ [LF]
        | _ => False end
      | _ => False end
    | _ => False end) by (vm_compute; auto).
  destruct (build U64 1 10000 2 false [(5, 2)]) as [h|] eqn:B; [|destruct X].
  destruct (write_histogram _ _ _ h _ _ _) as [[sa ra]|] eqn:W; [|destruct X]. destruct X as (-> & SC & X).
  destruct (log_do _ _ sa _) as [[sb rb]|] eqn:D; [|destruct X]. destruct X as (-> & X).
  exists [Some 3%nat], h, sa. split; [eapply build_reachable; eauto|]. split; [exact W|]. split; [exact SC|].
  split; [exists sb; exact D|]. intros l s pf R Z. inversion R as [|? ? ? sb' ? ? D' R2]; subst. rewrite D in D'. injection D' as <-.
  assert (EXT : forall l s s', log_run (v2_serialize (fun _ => 0)) f64_one s l s' -> exists t, sk_out s' = sk_out s ++ t).
  { clear. induction 1 as [s|s op r s1 l s2 D R (t & IH)]; [exists []; rewrite app_nil_r; reflexivity|].
    assert (K : exists u, sk_out s1 = sk_out s ++ u).
    { assert (EM : forall s bs s' b, emit s bs = (s', b) -> exists u, sk_out s' = sk_out s ++ u).
      { intros x bs x' [|] E; [apply emit_ok in E; eauto|]. apply emit_fails in E. destruct E as (a & _ & _ & _ & E). eauto. }
      destruct op as [c|h a d t0]; cbn [log_do] in D.
      - unfold write_comment in D. injection D as D. revert s D. induction (split_lines [] c) as [|y ls IH2]; intros s; cbn [write_comment_lines].
        + intros [= -> _]. exists []. rewrite app_nil_r. reflexivity.
        + destruct (emit s _) as [sx [|]] eqn:E; [intros D; destruct (IH2 sx D) as (u & U)|intros [= <- _]]; destruct (EM _ _ _ _ E) as (v & V); [|eauto].
          exists (v ++ u). rewrite U, V, app_assoc. reflexivity.
      - revert D. unfold write_histogram. destruct (max h) as [m|]; [|discriminate]. cbn [bind].
        destruct (emit s _) as [sx [|]] eqn:E1; cbn [negb]; destruct (EM _ _ _ _ E1) as (v & V); [|intros [= <- _]; eauto].
        destruct (v2_serialize _ h) as [[bs|e]|]; cbn [bind]; [|intros [= <- _]; eauto|discriminate].
        destruct (emit sx _) as [sy [|]] eqn:E2; cbn [negb]; destruct (EM _ _ _ _ E2) as (v2 & V2); [|intros [= <- _]; exists (v ++ v2); rewrite V2, V, app_assoc; reflexivity].
        destruct (emit sy _) as [sz b] eqn:E3. destruct (EM _ _ _ _ E3) as (v3 & V3).
        destruct b; intros [= <- _]; exists (v ++ v2 ++ v3); rewrite V3, V2, V, !app_assoc; reflexivity. }
    destruct K as (u & K). exists (u ++ t). rewrite IH, K, app_assoc. reflexivity. }
  destruct (EXT l sb s R2) as (t & E). rewrite X in E.
  assert (UN : unreadable pf (sk_out s)).
  { apply unreadable_iff. rewrite E. split; [discriminate|]. split; reflexivity. }
  pose proof (yields_error pf (zlen (sk_out s)) (sk_out s) UN ltac:(lia)) as Y. rewrite Z.sub_diag in Y. exact Y.
Qed.
