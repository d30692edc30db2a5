(** * What the log writer writes is read back *)
From Coq Require Import String.
From Flocq Require Import IEEE754.BinarySingleNaN.
From Verif Require Import Machine ListZ HistModel Spec SerModel SerSpec FloatModel LogModel LogSpec LogFacts LogText LogTime.

(** ** Lines *)
Definition reads_as (pf : f64_reader) (l : list Z) (e : log_entry) : Prop :=
  forall rest, log_entry_p pf (l ++ rest) = Ret (Some (rest, e)).
Definition is_skipped (pf : f64_reader) (l : list Z) : Prop :=
  forall rest, log_entry_p pf (l ++ rest) = Ret None /\ ignored_line (l ++ rest) = Ret (Some (rest, tt)).

Lemma starts_with_app p l rest : ~ In LF p -> starts_with p (l ++ LF :: rest) -> starts_with p l.
Proof.
  revert l. induction p as [|c p IH]; intros l N (r & E).
  - exists l. reflexivity.
  - destruct l as [|d l]; cbn in E; injection E as E1 E2; subst.
    + elim N. left. reflexivity.
    + destruct (IH l) as (r' & ->). { intros H. apply N. right; auto. } { exists r. auto. } exists r'. reflexivity.
Qed.
Lemma p_tag_head c s d i : c <> d -> p_tag (c :: s) (d :: i) = Ret None.
Proof. intros N. cbn. apply Z.eqb_neq in N. rewrite N. reflexivity. Qed.
Lemma tag_parser_head d i : d <> 84 -> tag_parser (d :: i) = Ret None.
Proof.
  intros N. unfold tag_parser, tag_bytes. change (text "Tag=") with (84 :: text "ag=").
  rewrite p_tag_head by auto. reflexivity.
Qed.
Lemma headers_need_hash d i : d <> HASH -> p_alt start_time base_time (d :: i) = Ret None.
Proof.
  intros N. unfold p_alt, start_time, base_time.
  change (text "#[StartTime: ") with (HASH :: text "[StartTime: "). change (text "#[BaseTime: ") with (HASH :: text "[BaseTime: ").
  rewrite !p_tag_head by auto. reflexivity.
Qed.
Lemma seconds_need_number d i : is_digit d = false -> d <> PLUS -> fract_sec_duration (d :: i) = Ret None.
Proof.
  intros D P. pose proof (fract_sec_duration_ok (d :: i)) as H.
  destruct (fract_sec_duration (d :: i)) as [[[rest x]|]|]; cbn in H; auto; [|contradiction].
  destruct H as (pre & E & (s & ds & -> & U) & _). exfalso.
  destruct s as [|c s]; [discriminate|]. cbn in E. injection E as -> E.
  apply uint_from_str_some in U. destruct U as ([F|(s' & K & F)] & _).
  - inversion F; subst. apply is_digit_iff in H1. congruence.
  - injection K as -> _. congruence.
Qed.

(** a comment *)
Lemma comment_skipped pf l : ~ In LF l -> ~ starts_with (text "[StartTime: ") l -> ~ starts_with (text "[BaseTime: ") l ->
  is_skipped pf (HASH :: l ++ [LF]).
Proof.
  intros N N1 N2 rest. cbn [app]. rewrite <- app_assoc. cbn [app]. split.
  - unfold log_entry_p, p_alt. unfold start_time at 1. unfold base_time at 1.
    rewrite !p_tag_no; cbn [pbind].
    + unfold interval_hist, p_opt. rewrite tag_parser_head by discriminate. cbn [pbind].
      rewrite seconds_need_number; [reflexivity|reflexivity|discriminate].
    + intros (r & E). apply N2. apply (starts_with_app _ _ rest); [cbn; intuition discriminate|].
      exists r. cbn in E. injection E as E. exact E.
    + intros (r & E). apply N1. apply (starts_with_app _ _ rest); [cbn; intuition discriminate|].
      exists r. cbn in E. injection E as E. exact E.
  - unfold ignored_line, p_alt, comment_line. change (HASH :: l ++ LF :: rest) with (text "#" ++ l ++ LF :: rest).
    rewrite p_tag_app. cbn [pbind]. rewrite until_app by auto. reflexivity.
Qed.

(** the headers *)
Lemma start_line pf n : 0 <= n -> n / 1000 <= u64_max ->
  reads_as pf (text "#[StartTime: " ++ dec3 n ++ text " (seconds since epoch)]" ++ [LF]) (StartTime (ms_duration n)).
Proof.
  intros N B rest. unfold log_entry_p, p_alt, start_time. rewrite <- !app_assoc, p_tag_app. cbn [pbind].
  change (text " (seconds since epoch)]" ++ [LF] ++ rest) with (SPACE :: text "(seconds since epoch)]" ++ LF :: rest).
  rewrite (read_seconds _ n) by (auto using dec3_ok; reflexivity). cbn [pbind].
  rewrite p_char_app. cbn [pbind]. rewrite until_app by (cbn; intuition discriminate). reflexivity.
Qed.
Lemma base_line pf n : 0 <= n -> n / 1000 <= u64_max ->
  reads_as pf (text "#[BaseTime: " ++ dec3 n ++ text " (seconds since epoch)]" ++ [LF]) (BaseTime (ms_duration n)).
Proof.
  intros N B rest. unfold log_entry_p, p_alt, start_time. rewrite <- !app_assoc.
  rewrite p_tag_no by (intros (r & E); discriminate). cbn [pbind].
  unfold base_time. rewrite p_tag_app. cbn [pbind].
  change (text " (seconds since epoch)]" ++ [LF] ++ rest) with (SPACE :: text "(seconds since epoch)]" ++ LF :: rest).
  rewrite (read_seconds _ n) by (auto using dec3_ok; reflexivity). cbn [pbind].
  rewrite p_char_app. cbn [pbind]. rewrite until_app by (cbn; intuition discriminate). reflexivity.
Qed.

(** an interval *)
Definition tag_text (t : option tag) : list Z := match t with Some x => text "Tag=" ++ x ++ [COMMA] | None => [] end.
Lemma dec3_head n rest : 0 <= n -> exists d r, dec3 n ++ rest = d :: r /\ is_digit d = true.
Proof.
  intros N. destruct (dec3_ok n N) as (i & f & -> & NI & I & _). destruct i as [|d i]; [congruence|].
  exists d, ((i ++ DOT :: f) ++ rest). split; [reflexivity|]. inversion I; subst. apply is_digit_iff; auto.
Qed.
Lemma read_tag t n rest : 0 <= n -> (forall x, t = Some x -> is_str x /\ ~ In COMMA x) ->
  p_opt tag_parser (tag_text t ++ dec3 n ++ rest) = Ret (Some (dec3 n ++ rest, t)).
Proof.
  intros N T. unfold p_opt. destruct t as [x|]; cbn [tag_text].
  - destruct (T x eq_refl) as ((_ & U) & C). unfold tag_parser, tag_bytes. rewrite <- !app_assoc, p_tag_app. cbn [pbind app].
    rewrite until_app by auto. cbn [pbind p_take1]. unfold p_map_res, from_utf8. cbn [pbind]. rewrite U. reflexivity.
  - cbn [app]. destruct (dec3_head n rest N) as (d & r & -> & D). rewrite tag_parser_head; [reflexivity|].
    intros ->. discriminate.
Qed.
Lemma interval_line pf t n1 n2 mx y payload : 0 <= n1 -> n1 / 1000 <= u64_max -> 0 <= n2 -> n2 / 1000 <= u64_max ->
  (forall x, t = Some x -> is_str x /\ ~ In COMMA x) -> number_text mx -> pf mx = Some y -> b64_text payload ->
  reads_as pf (tag_text t ++ dec3 n1 ++ [COMMA] ++ dec3 n2 ++ [COMMA] ++ mx ++ [COMMA] ++ payload ++ [LF])
    (Interval (mk_interval t (ms_duration n1) (ms_duration n2) y payload)).
Proof.
  intros N1 B1 N2 B2 T MX PF PL rest. unfold log_entry_p. unfold p_alt at 1.
  rewrite <- !app_assoc. cbn [app].
  assert (H : p_alt start_time base_time (tag_text t ++ dec3 n1 ++ COMMA :: dec3 n2 ++ COMMA :: mx ++ COMMA :: payload ++ LF :: rest) = Ret None).
  { destruct t as [x|]; cbn [tag_text].
    - apply (headers_need_hash 84). discriminate.
    - cbn [app]. destruct (dec3_head n1 (COMMA :: dec3 n2 ++ COMMA :: mx ++ COMMA :: payload ++ LF :: rest) N1) as (d & r & -> & D).
      apply headers_need_hash. intros ->. discriminate. }
  rewrite H. unfold interval_hist. rewrite read_tag by auto. cbn [pbind].
  rewrite (read_seconds _ n1) by (auto using dec3_ok; reflexivity). cbn [pbind].
  rewrite p_char_app. cbn [pbind].
  rewrite (read_seconds _ n2) by (auto using dec3_ok; reflexivity). cbn [pbind].
  rewrite p_char_app. cbn [pbind].
  rewrite read_number by auto. rewrite PF. cbn [pbind].
  rewrite p_char_app. cbn [pbind].
  rewrite until_app by (apply b64_no_lf; auto). unfold p_map_res, from_utf8. cbn [pbind].
  rewrite ascii_utf8 by (apply b64_ascii; auto). cbn [pbind p_take1]. rewrite trim_id by auto. reflexivity.
Qed.

(** ** Several lines *)
Inductive says (pf : f64_reader) : list Z -> list log_entry -> Prop :=
| says_nil : says pf [] []
| says_skip l txt es : is_skipped pf l -> l <> [] -> says pf txt es -> says pf (l ++ txt) es
| says_read l e txt es : reads_as pf l e -> l <> [] -> says pf txt es -> says pf (l ++ txt) (e :: es).
Lemma says_app pf a x b y : says pf a x -> says pf b y -> says pf (a ++ b) (x ++ y).
Proof.
  intros H K. induction H; cbn [app]; auto.
  - rewrite <- app_assoc. apply says_skip; auto.
  - rewrite <- app_assoc. apply says_read; auto.
Qed.
Lemma says_skip1 pf l : is_skipped pf l -> l <> [] -> says pf l [].
Proof. intros. rewrite <- (app_nil_r l). apply says_skip; auto. constructor. Qed.
Lemma says_read1 pf l e : reads_as pf l e -> l <> [] -> says pf l [e].
Proof. intros. rewrite <- (app_nil_r l). apply says_read; auto. constructor. Qed.

Lemma next_skip pf n l rest : is_skipped pf l -> l <> [] ->
  log_next pf (mk_log_iter n (l ++ rest) false) = log_next pf (mk_log_iter n rest false).
Proof.
  intros S N. unfold log_next at 1. cbn [li_input]. cbn [next_loop li_ended li_input li_orig_len].
  destruct (l ++ rest) as [|c r] eqn:E; [destruct l; [congruence|discriminate]|]. rewrite <- E.
  destruct (S rest) as (A & B). rewrite A. cbn [bind]. rewrite B. cbn [bind].
  apply next_fuel; cbn; [|lia]. rewrite app_length. destruct l; [congruence|cbn; lia].
Qed.
Lemma next_read pf n l rest e : reads_as pf l e -> l <> [] ->
  log_next pf (mk_log_iter n (l ++ rest) false) = Ret (mk_log_iter n rest false, Some (ROk e)).
Proof.
  intros S N. unfold log_next. cbn [li_input]. cbn [next_loop li_ended li_input li_orig_len].
  destruct (l ++ rest) as [|c r] eqn:E; [destruct l; [congruence|discriminate]|]. rewrite <- E.
  rewrite (S rest). reflexivity.
Qed.
Lemma says_yields pf n txt es rest items : says pf txt es -> yields pf (mk_log_iter n rest false) items ->
  yields pf (mk_log_iter n (txt ++ rest) false) (map ROk es ++ items).
Proof.
  intros S Y. induction S as [|l txt es H N S IH|l e txt es H N S IH]; cbn [map app]; auto.
  - rewrite <- app_assoc. inversion IH; subst.
    + apply yields_end with it'. rewrite next_skip; auto.
    + apply yields_item with it'; auto. rewrite next_skip; auto.
  - rewrite <- app_assoc. eapply yields_item; [apply next_read; eauto|]. exact IH.
Qed.
Lemma yields_nothing pf n : yields pf (mk_log_iter n [] false) [].
Proof. eapply yields_end. reflexivity. Qed.

(** ** The writer *)
Lemma emit_ok s bs s' : emit s bs = (s', true) -> sk_out s' = sk_out s ++ bs.
Proof.
  unfold emit. destruct (sk_script s) as [|[k|] r]; [| destruct (k <? _)%nat |]; intros [= <-]; reflexivity.
Qed.
Lemma emit_fails s bs s' : emit s bs = (s', false) -> exists a b, bs = a ++ b /\ b <> [] /\ sk_out s' = sk_out s ++ a.
Proof.
  unfold emit. destruct (sk_script s) as [|[k|] r]; [| destruct (k <? _)%nat eqn:E |]; intros [= <-].
  exists (firstn k bs), (skipn k bs). split; [symmetry; apply firstn_skipn|]. split; [|reflexivity].
  apply Nat.ltb_lt in E. intros H. apply (f_equal (@length Z)) in H. rewrite skipn_length in H. cbn in H. lia.
Qed.
Definition comment_text (ls : list (list Z)) : list Z := flat_map (fun l => HASH :: l ++ [LF]) ls.
Lemma comment_lines_ok s ls s' : write_comment_lines s ls = (s', ROk tt) -> sk_out s' = sk_out s ++ comment_text ls.
Proof.
  revert s. induction ls as [|l ls IH]; intros s; cbn [write_comment_lines comment_text flat_map].
  - intros [= ->]. rewrite app_nil_r. reflexivity.
  - destruct (emit s (HASH :: l ++ [LF])) as [s1 [|]] eqn:E; [|discriminate]. intros H.
    apply emit_ok in E. rewrite (IH _ H), E, <- app_assoc. reflexivity.
Qed.
Lemma split_lines_of cur s : ~ In LF cur -> forall pre l, whole_lines pre -> In l (split_lines cur s) -> line_of l (pre ++ cur ++ s).
Proof.
  revert cur. induction s as [|c s IH]; intros cur N pre l W; cbn [split_lines].
  - intros [->|[]]. split; auto. exists pre, []. rewrite !app_nil_r. repeat split; auto.
  - destruct (c =? LF) eqn:E.
    + apply Z.eqb_eq in E. subst c. intros [->|H].
      * split; auto. exists pre, (LF :: s). repeat split; eauto.
      * assert (K : line_of l ((pre ++ cur ++ [LF]) ++ [] ++ s)).
        { apply IH; auto. right. exists (pre ++ cur). rewrite app_assoc. reflexivity. }
        cbn [app] in K. rewrite <- !app_assoc in K. exact K.
    + intros H. assert (K : line_of l (pre ++ (cur ++ [c]) ++ s)).
      { apply IH; auto. intros K. apply in_app_or in K. destruct K as [K|[K|[]]]; [auto|].
        subst. rewrite Z.eqb_refl in E. discriminate. }
      rewrite <- app_assoc in K. exact K.
Qed.
Lemma comment_says pf c : plain_comment c -> says pf (comment_text (split_lines [] c)) [].
Proof.
  intros P. assert (F : forall l, In l (split_lines [] c) -> is_skipped pf (HASH :: l ++ [LF])).
  { intros l H. assert (L : line_of l c). { apply (split_lines_of [] c) with (pre := []); auto. left; auto. }
    destruct (P l L) as (A & B). destruct L as (N & _). apply comment_skipped; auto. }
  induction (split_lines [] c) as [|l ls IH]; [constructor|].
  cbn [comment_text flat_map]. apply says_skip; [apply F; left; auto|discriminate|apply IH].
  intros l' H. apply F. right; auto.
Qed.

(** what a histogram looks like in the log *)
Definition hist_text (divisor : f64) (m : Z) (start dur : duration) (t : option tag) : list Z :=
  tag_text t ++ fmt3 (duration_as_fp_seconds start) ++ [COMMA] ++ fmt3 (duration_as_fp_seconds dur) ++ [COMMA] ++
  fmt3 (f64_div (f64_of_u64 m) divisor) ++ [COMMA].
Lemma write_histogram_ok ser divisor s h start dur t s' : write_histogram ser divisor s h start dur t = Ret (s', ROk tt) ->
  exists m bs, max h = Ret m /\ ser h = Ret (ROk bs) /\
    sk_out s' = sk_out s ++ hist_text divisor m start dur t ++ b64_encode bs ++ [LF].
Proof.
  unfold write_histogram. destruct (max h) as [m|]; [|discriminate]. cbn [bind]. fold (tag_text t). fold (hist_text divisor m start dur t).
  destruct (emit s _) as [s1 [|]] eqn:E1; cbn [negb]; [|discriminate].
  destruct (ser h) as [[bs|e]|]; cbn [bind]; [|discriminate|discriminate].
  destruct (emit s1 _) as [s2 [|]] eqn:E2; cbn [negb]; [|discriminate].
  destruct (emit s2 _) as [s3 [|]] eqn:E3; cbn [negb]; [|discriminate].
  intros [= <-]. exists m, bs. repeat split.
  apply emit_ok in E1, E2, E3. rewrite E3, E2, E1, <- !app_assoc. reflexivity.
Qed.

(** [split_lines] finds all lines *)
Lemma split_first a x b y : ~ In LF a -> a ++ LF :: x = b ++ LF :: y ->
  (b = a /\ x = y) \/ exists b', b = a ++ LF :: b' /\ x = b' ++ LF :: y.
Proof.
  revert b. induction a as [|c a IH]; intros [|d b] N; cbn [app].
  - intros [= ->]. auto.
  - intros [= <- ->]. right. exists b. auto.
  - intros [= -> _]. exfalso. apply N. left. auto.
  - intros [= <- E]. destruct (IH b) as [(-> & ->)|(b' & -> & ->)]; auto.
    + intros K. apply N. right. auto.
    + right. exists b'. auto.
Qed.
Lemma lines_all cur s l : ~ In LF cur -> line_of l (cur ++ s) -> In l (split_lines cur s).
Proof.
  revert cur. induction s as [|c s IH]; intros cur N (NL & pre & post & E & A & B); cbn [split_lines].
  - rewrite app_nil_r in E. left. subst cur. destruct A as [->|(p & ->)].
    + destruct B as [->|(p & ->)]; [rewrite app_nil_r; reflexivity|]. exfalso. apply N. apply in_or_app. right. apply in_or_app. right. left. auto.
    + exfalso. apply N. apply in_or_app. left. apply in_or_app. right. left. auto.
  - destruct (c =? LF) eqn:EC.
    + apply Z.eqb_eq in EC. subst c. destruct A as [->|(p & ->)].
      * destruct B as [->|(p & ->)].
        { exfalso. cbn [app] in E. rewrite app_nil_r in E. apply NL. rewrite <- E. apply in_or_app. right. left. auto. }
        cbn [app] in E. destruct (split_first _ _ _ _ N E) as [(-> & _)|(b' & -> & _)]; [left; reflexivity|].
        exfalso. apply NL. apply in_or_app. right. left. auto.
      * right. apply IH; [auto|]. rewrite <- app_assoc in E. cbn [app] in E.
        destruct (split_first _ _ _ _ N E) as [(-> & ->)|(b' & -> & ->)]; split; auto.
        { exists [], post. auto. }
        { exists (b' ++ [LF]), post. rewrite <- app_assoc. repeat split; eauto. }
    + apply IH.
      * intros K. apply in_app_or in K. destruct K as [K|[K|[]]]; [auto|]. subst. rewrite Z.eqb_refl in EC. discriminate.
      * rewrite <- app_assoc. split; auto. exists pre, post. auto.
Qed.
(** decides whether a comment is plain *)
Definition looks_like (p l : list Z) : bool := if list_eq_dec Z.eq_dec (firstn (length p) l) p then true else false.
Lemma looks_like_ok p l : starts_with p l -> looks_like p l = true.
Proof. intros (r & ->). unfold looks_like. rewrite firstn_app, Nat.sub_diag, firstn_all, app_nil_r. destruct (list_eq_dec _ p p); congruence. Qed.
Lemma plain_comment_ok c :
  forallb (fun l => negb (looks_like (text "[StartTime: ") l) && negb (looks_like (text "[BaseTime: ") l)) (split_lines [] c) = true ->
  plain_comment c.
Proof.
  intros F l L. rewrite forallb_forall in F. specialize (F l (lines_all [] c l ltac:(auto) L)).
  apply andb_true_iff in F. rewrite !negb_true_iff in F. destruct F as (A & B).
  split; intros K; apply looks_like_ok in K; congruence.
Qed.
