(** * Proofs of the properties of the command line program (C77) *)
(*PROPS-IMPORTS Machine Log2Model HistModel Spec Reach Witness Cases CasesSer FloatModel FloatSpec IterModel IterSpec QuantSpec StatSpec SerModel SerSpec LogModel LogSpec CliModel CliSpec *)
(*PROPS-HEADER
From Coq Require Import String Reals List Lia.
From Flocq Require Import Core.
Import ListNotations.
Open Scope Z_scope.
PROPS-HEADER*)
From Coq Require Import Reals.
From Verif Require Import Machine Log2Model HistModel Spec Reach Bins ListZ Log2Facts Cfg Wf Ops AddFacts SubFacts Exact MoreFacts Witness HeldFacts PfClasses PfRecord PfMerge PfQuery
  FloatModel IterModel IterSpec IterFacts IterBins FloatSpec FloatFacts PfIter PfQuantile StatSpec PfStats PfAccuracy PfSpread QuantSpec QuantStep IterLog IterQuant PfTicks
  SerModel SerSpec SerFacts SerCode SerDecode SerRest PfSer PfSize SyncOps LogModel LogSpec LogFacts LogText LangFacts CliModel CliSpec.
From Coq Require Import ZifyBool ZifyNat Lra.
From Flocq Require Import Core IEEE754.BinarySingleNaN.
Open Scope Z_scope.

(** ** Lines *)
Lemma lines_end l s cur : ~ In LF l -> stdin_lines cur (l ++ LF :: s) =
  rev (match rev l ++ cur with d :: cur' => if d =? CR then cur' else rev l ++ cur | [] => [] end) :: stdin_lines [] s.
Proof.
  revert cur. induction l as [|c l IH]; intros cur N; cbn [app stdin_lines rev].
  - change (LF =? LF) with true. cbn match. reflexivity.
  - destruct (Z.eqb_spec c LF) as [->|NE]; [exfalso; apply N; left; auto|]. rewrite IH by (intros I; apply N; right; auto). rewrite <- app_assoc. reflexivity.
Qed.
Lemma lines_last l cur : ~ In LF l -> stdin_lines cur l = match rev l ++ cur with [] => [] | _ => [rev (rev l ++ cur)] end.
Proof.
  revert cur. induction l as [|c l IH]; intros cur N; cbn [stdin_lines rev app]; [reflexivity|].
  destruct (Z.eqb_spec c LF) as [->|NE]; [exfalso; apply N; left; auto|]. rewrite IH by (intros I; apply N; right; auto). rewrite <- app_assoc. reflexivity.
Qed.
Lemma lines_unique s ls : typed s ls -> stdin_lines [] s = ls.
Proof.
  induction 1 as [|l NE N|l s ls N NC T IH|l s ls N T IH].
  - reflexivity.
  - rewrite lines_last, app_nil_r, rev_involutive by auto. destruct (rev l) eqn:E; auto. exfalso. apply NE. rewrite <- (rev_involutive l), E. reflexivity.
  - rewrite lines_end, IH, app_nil_r by auto. f_equal. destruct (rev l) as [|d r] eqn:E.
    + rewrite <- (rev_involutive l), E. reflexivity.
    + destruct (Z.eqb_spec d CR) as [->|ND]; [|rewrite <- E; apply rev_involutive]. exfalso. apply (NC (rev r)). rewrite <- (rev_involutive l), E. reflexivity.
  - replace (l ++ CR :: LF :: s) with ((l ++ [CR]) ++ LF :: s) by (rewrite <- app_assoc; reflexivity).
    rewrite lines_end, IH, app_nil_r by (rewrite in_app_iff; intros [I|[I|[]]]; [auto|discriminate I]). rewrite rev_app_distr. cbn [rev app].
    change (CR =? CR) with true. cbn match. rewrite rev_involutive. reflexivity.
Qed.
Lemma lines_typed s : forall n, (length s <= n)%nat -> typed s (stdin_lines [] s).
Proof.
  intros n. revert s. induction n as [|n IH]; intros s L.
  - destruct s; [constructor|cbn in L; lia].
  - destruct (in_dec Z.eq_dec LF s) as [I|NI].
    + apply in_split in I. assert (X : exists l s', s = l ++ LF :: s' /\ ~ In LF l).
      { destruct I as (a & b & E). clear - E. revert a b E. induction s as [|c s IH]; intros a b E; [destruct a; discriminate|].
        destruct (Z.eq_dec c LF) as [->|NE]; [exists [], s; split; auto|]. destruct a as [|x a]; [injection E as -> _; contradiction|]. injection E as <- E.
        destruct (IH a b E) as (l & s' & -> & N). exists (c :: l), s'. split; auto. intros [A|A]; auto. }
      destruct X as (l & s' & -> & N). assert (T : typed s' (stdin_lines [] s')) by (apply IH; rewrite app_length in L; cbn in L; lia).
      rewrite lines_end, app_nil_r by auto. destruct (rev l) as [|d r] eqn:E.
      * assert (l = []) as -> by (rewrite <- (rev_involutive l), E; reflexivity). apply typed_lf; auto. intros l' H. destruct l'; discriminate.
      * assert (El : l = rev r ++ [d]) by (rewrite <- (rev_involutive l), E; reflexivity).
        destruct (Z.eqb_spec d CR) as [->|ND].
        -- rewrite El, <- app_assoc. cbn [app]. apply typed_crlf; auto. intros I'. apply N. rewrite El. apply in_or_app. auto.
        -- cbn [rev]. rewrite El. apply typed_lf; auto; [rewrite <- El; auto|]. intros l' H. apply app_inj_tail in H. destruct H; auto.
    + rewrite lines_last, app_nil_r by auto. destruct (rev s) eqn:E.
      * assert (s = []) as -> by (rewrite <- (rev_involutive s), E; reflexivity). constructor.
      * rewrite <- E, rev_involutive. apply typed_last; auto. intros ->. discriminate.
Qed.

(** Every input has exactly one division into lines. *)
Lemma C77_lines_proof : forall s, exists ls, typed s ls /\ forall ls', typed s ls' -> ls' = ls.
Proof.
  intros s. exists (stdin_lines [] s). split; [apply (lines_typed s (length s)); lia|]. intros ls' T. symmetry. apply lines_unique; auto.
Qed.
(*EX
(** a line that ends with a carriage return and a line feed, an empty one, and one without end *)
Example ex_C77_lines : typed (text "12" ++ [CR; LF; LF] ++ text "+7") [text "12"; []; text "+7"] /\ number_line (text "12") 12 /\ number_line (text "+7") 7 /\
  ~ number_line [] 0.
Proof.
  split; [apply (typed_crlf (text "12")); [cbn; intuition discriminate|]; apply (typed_lf []); [auto|intros [|] ?; discriminate|]; apply typed_last; [discriminate|cbn; intuition discriminate]|].
  split; [exists [], (text "12")|split; [exists [PLUS], (text "7")|]].
  1, 2: split; [reflexivity|]; split; [auto|]; split; [discriminate|]; split; [repeat constructor; discriminate|]; split; [reflexivity|discriminate].
  intros (sg & ds & E & _ & N & _). destruct sg; [|discriminate]. cbn in E. congruence.
Qed.
EX*)

(** *)
Lemma number_iff l v : number_line l v <-> uint_from_str u64_max l = Some v.
Proof.
  rewrite uint_iff by (unfold u64_max; lia). unfold number_line. split; intros (sg & ds & A & B & C & D & E & F); exists sg, ds; repeat (split; auto); congruence.
Qed.
Lemma number_utf8 l v : number_line l v -> utf8 l = true.
Proof.
  intros (sg & ds & -> & S & _ & D & _). apply ascii_utf8. apply Forall_app. split; [|apply digits_ascii; auto].
  destruct S as [->| ->]; repeat constructor; unfold PLUS; lia.
Qed.
Lemma number_u64 l v : number_line l v -> is_u64 v.
Proof.
  intros (sg & ds & _ & _ & _ & D & -> & B). split; auto. unfold decimal_value.
  assert (G : forall n, 0 <= n -> 0 <= fold_left (fun n c => 10 * n + (c - 48)) ds n); [|apply G; lia].
  clear B. induction D as [|c ds Hc D IH]; intros n N; cbn [fold_left]; auto. cbv beta in Hc. apply IH. lia.
Qed.

(** ** What [serialize] does with the lines *)
Lemma record_n_same_len h v h' : wf h -> u64 v -> h_ctr h = U64 -> h_auto h = false -> record_n h v 1 = Ret (h', ROk tt) -> zlen (h_counts h') = zlen (h_counts h) /\ h_auto h' = false.
Proof.
  intros W V CT A. unfold record_n. rewrite record_n_inner_ok; auto using w_cfg, w_size; [|rewrite CT; vm_compute; intuition discriminate].
  fold (bin h v). destruct (Z.ltb_spec (bin h v) (zlen (h_counts h))) as [L|L].
  - intros E. injection E as <-. unfold rec_pure. cbn zeta. hsimp. rewrite zlen_vset. auto.
  - rewrite A. discriminate.
Qed.
Lemma records_lines : forall vs ls h, reachable h -> h_ctr h = U64 -> Forall2 number_line ls vs -> (h_auto h = true \/ Forall (covers h) vs) ->
  exists h', records h (once vs) h' /\ (forall more, record_lines h (ls ++ more) = record_lines h' more) /\
    (h_auto h = false -> h_auto h' = false /\ forall v, is_u64 v -> (covers h' v <-> covers h v)).
Proof.
  induction vs as [|v vs IH]; intros ls h R CT F A.
  - inversion F; subst. exists h. split; [constructor|]. split; [reflexivity|]. intros AU. split; auto. tauto.
  - inversion F as [|l v' ls' vs' N F' E1 E2]; subst. pose proof (reachable_wf h R) as W. pose proof (number_u64 _ _ N) as V.
    assert (C1 : is_count (h_ctr h) 1) by (rewrite CT; vm_compute; intuition discriminate).
    destruct (record_n_cases h v 1 W V C1) as [(h1 & E & D)|(E & AU & B)].
    + assert (R1 : reachable h1) by (apply (reach_record_n h v 1 h1 (ROk tt)); auto).
      assert (CT1 : h_ctr h1 = U64) by (rewrite (ss_ctr _ _ (rd_shape _ _ _ _ D)); auto).
      assert (FX : h_auto h = false -> h_auto h1 = false /\ forall w, is_u64 w -> (covers h1 w <-> covers h w)).
      { intros AU. destruct (record_n_same_len _ _ _ W V CT AU E) as (X1 & X2). split; auto. intros w Hw.
        rewrite !covers_bin by (auto; apply D). rewrite X1, (same_shape_bin _ _ _ (rd_shape _ _ _ _ D)). tauto. }
      destruct (IH ls' h1 R1 CT1 F') as (h' & RC & RL & FX').
      { destruct A as [AU|A]; [left; rewrite (ss_auto _ _ (rd_shape _ _ _ _ D)); auto|]. destruct (h_auto h) eqn:AU; [left; rewrite (ss_auto _ _ (rd_shape _ _ _ _ D)); auto|].
        right. inversion A as [|? ? _ A']; subst. apply Forall_forall. intros w I. rewrite Forall_forall in A'. apply FX; auto.
        clear - I F'. induction F' as [|l w' ls vs N F IH]; [destruct I|]. destruct I as [->|I]; auto. eapply number_u64; eauto. }
      exists h'. split; [|split].
      * apply (records_cons h v 1 (once vs) h1 h'); auto.
      * intros more. cbn [app record_lines]. rewrite (number_utf8 _ _ N). apply number_iff in N. rewrite N. unfold record. rewrite E. cbn [bind]. apply RL.
      * intros AU. destruct (FX AU) as (X1 & X2). destruct (FX' X1) as (Y1 & Y2). split; auto. intros w Hw. rewrite Y2, X2 by auto. tauto.
    + exfalso. destruct A as [A|A]; [congruence|]. inversion A as [|? ? Cv _]; subst. rewrite covers_bin in Cv by auto. lia.
Qed.

Lemma started lo hi sf (resize : bool) h0 : is_u64 lo -> is_u64 hi -> is_u8 sf -> new_with_bounds U64 lo hi sf = Ret (ROk h0) ->
  (if resize then auto h0 true else h0) = auto h0 resize /\ reachable (auto h0 resize) /\ h_ctr (auto h0 resize) = U64 /\ h_auto (auto h0 resize) = resize /\
  (forall v, covers (auto h0 resize) v <-> covers h0 v) /\ new_with_bounds U64 lo hi sf = Ret (ROk h0).
Proof.
  intros L Hh S E. destruct (created_wf U64 lo hi sf h0 L Hh S E) as (-> & CC & W0 & EX). split; [destruct resize; reflexivity|].
  split; [apply reach_auto; exact (reach_new_with_bounds U64 lo hi sf _ L Hh S E)|]. split; [reflexivity|]. split; [reflexivity|]. split; [reflexivity|auto].
Qed.

(** [serialize]: if every line of the input is a number the histogram takes, they are recorded, each once, and
    the resulting histogram is written. *)
Lemma C77_serialize_proof : forall cd junk lo hi sf (resize compressed : bool) stdin ls vs h0, is_u64 lo -> is_u64 hi -> is_u8 sf ->
  new_with_bounds U64 lo hi sf = Ret (ROk h0) -> typed stdin ls -> Forall2 number_line ls vs -> (resize = true \/ Forall (covers h0) vs) ->
  exists h, records (auto h0 resize) (once vs) h /\
    forall bs, main_serialize cd junk lo hi sf resize compressed stdin = Ret bs <->
      (if compressed then v2_deflate_serialize cd junk h else v2_serialize junk h) = Ret (ROk bs).
Proof.
  intros cd junk lo hi sf resize z stdin ls vs h0 L Hh S E T F A. destruct (started lo hi sf resize h0 L Hh S E) as (E1 & R & CT & AU & CV & _).
  destruct (records_lines vs ls (auto h0 resize) R CT F) as (h & RC & RL & _).
  { destruct A as [->|A]; [left; auto|right]. eapply Forall_impl; [|exact A]. intros v. apply CV. }
  exists h. split; auto. intros bs. unfold main_serialize, cli_serialize. rewrite E. cbn [bind expect]. rewrite E1, (lines_unique _ _ T).
  specialize (RL []). rewrite app_nil_r in RL. rewrite RL. cbn [record_lines bind].
  destruct (if z then _ else _) as [[x|e]|]; cbn [bind expect]; split; intros H; try discriminate; congruence.
Qed.
(*EX
(** three numbers, one of them with a plus sign and a carriage return, for a histogram of 1 to 10000 *)
Definition sample_text : list Z := text "5" ++ [LF] ++ text "+333" ++ [CR; LF] ++ text "5".
Example ex_C77_input : typed sample_text [text "5"; text "+333"; text "5"] /\ Forall2 number_line [text "5"; text "+333"; text "5"] [5; 333; 5].
Proof.
  split.
  - apply (typed_lf (text "5")); [cbn; intuition discriminate|intros [|? [|? ?]] E; discriminate E|]. apply (typed_crlf (text "+333")); [cbn; intuition discriminate|]. apply typed_last; [discriminate|cbn; intuition discriminate].
  - constructor; [exists [], (text "5")|constructor; [exists [PLUS], (text "333")|constructor; [exists [], (text "5")|constructor]]].
    all: split; [reflexivity|]; split; [auto|]; split; [discriminate|]; split; [repeat constructor; discriminate|]; split; [reflexivity|discriminate].
Qed.
Example ex_C77_covers : match new_with_bounds U64 1 10000 1 with
  | Ret (ROk h0) => index_for h0 5 = Ret (Some 5) /\ index_for h0 333 = Ret (Some 84) /\ distinct_values h0 = 176 /\ equivalent_range h0 0 = Ret 1
  | _ => False end.
Proof. vm_compute. repeat split. Qed.
Example ex_C77_serialize : match build U64 1 10000 1 false (once [5; 333; 5]) with
  | Some h => held h = [(5, 2); (320, 1)] /\
      main_serialize plain (fun _ => 7) 1 10000 1 false false sample_text = (r <- v2_serialize (fun _ => 7) h ;; expect r) /\
      match main_serialize plain (fun _ => 7) 1 10000 1 false false sample_text with Ret bs => zlen bs = 45 | Panic => False end
  | None => False end.
Proof. vm_compute. repeat split. Qed.
EX*)
(** Otherwise it fails without writing anything: a line that is not a number makes it panic, a number that is
    out of range is an error, and so the exit of the program.  The first such line decides. *)
Lemma C77_rejects_proof : forall cd junk lo hi sf (resize compressed : bool) stdin ls vs l rest h0, is_u64 lo -> is_u64 hi -> is_u8 sf ->
  new_with_bounds U64 lo hi sf = Ret (ROk h0) -> typed stdin (ls ++ l :: rest) -> Forall2 number_line ls vs -> (resize = true \/ Forall (covers h0) vs) ->
  ((forall v, ~ number_line l v) -> cli_serialize cd junk stdin (auto h0 resize) compressed = Panic) /\
  (forall v, number_line l v -> resize = false -> ~ covers h0 v ->
     cli_serialize cd junk stdin (auto h0 resize) compressed = Ret (RErr (HistogramRecord ValueOutOfRangeResizeDisabled))) /\
  ((forall v, number_line l v -> resize = false /\ ~ covers h0 v) -> main_serialize cd junk lo hi sf resize compressed stdin = Panic).
Proof.
  intros cd junk lo hi sf resize z stdin ls vs l rest h0 L Hh S E T F A. destruct (started lo hi sf resize h0 L Hh S E) as (E1 & R & CT & AU & CV & _).
  destruct (records_lines vs ls (auto h0 resize) R CT F) as (h & RC & RL & FX).
  { destruct A as [->|A]; [left; auto|right]. eapply Forall_impl; [|exact A]. intros v. apply CV. }
  assert (P1 : (forall v, ~ number_line l v) -> cli_serialize cd junk stdin (auto h0 resize) z = Panic).
  { intros N. unfold cli_serialize. rewrite (lines_unique _ _ T), RL. cbn [record_lines]. destruct (utf8 l); auto.
    destruct (uint_from_str u64_max l) as [v|] eqn:U; auto. exfalso. apply (N v). apply number_iff; auto. }
  assert (P2 : forall v, number_line l v -> resize = false -> ~ covers h0 v ->
     cli_serialize cd junk stdin (auto h0 resize) z = Ret (RErr (HistogramRecord ValueOutOfRangeResizeDisabled))).
  { intros v N RS NC. destruct FX as (FX1 & FX2); [congruence|]. pose proof (number_u64 _ _ N) as V.
    pose proof (records_reachable _ _ _ R RC) as RH. pose proof (reachable_wf h RH) as W.
    assert (CTH : h_ctr h = U64). { pose proof (records_many _ _ _ (reachable_wf _ R) RC) as RM. rewrite (ss_ctr _ _ (ra_shape _ _ _ (rec_many_all _ _ _ RM))). auto. }
    unfold cli_serialize. rewrite (lines_unique _ _ T), RL. cbn [record_lines]. rewrite (number_utf8 _ _ N). apply number_iff in N. rewrite N. unfold record.
    assert (C1 : is_count (h_ctr h) 1) by (rewrite CTH; vm_compute; intuition discriminate).
    destruct (C09_reject_unchanged_proof h v 1 RH V C1 FX1) as (_ & X). rewrite X; [reflexivity|]. rewrite FX2, CV by auto. auto. }
  split; auto. split; auto. intros H. unfold main_serialize. rewrite E. cbn [bind expect]. rewrite E1.
  destruct (uint_from_str u64_max l) as [v|] eqn:U.
  - apply number_iff in U. destruct (H v U) as (RS & NC). rewrite (P2 v U RS NC). reflexivity.
  - rewrite P1; auto. intros v N. apply number_iff in N. congruence.
Qed.
(*EX
(** a line with a space, a number out of range, and the same with [resize] *)
Example ex_C77_rejects : match new_with_bounds U64 1 100 1 with
  | Ret (ROk h0) =>
      cli_serialize plain (fun _ => 7) (text "5" ++ [LF] ++ text "6 " ++ [LF] ++ text "999999") (auto h0 false) false = Panic /\
      cli_serialize plain (fun _ => 7) (text "5" ++ [LF] ++ text "999999" ++ [LF] ++ text "x") (auto h0 false) false = Ret (RErr (HistogramRecord ValueOutOfRangeResizeDisabled)) /\
      main_serialize plain (fun _ => 7) 1 100 1 false false (text "5" ++ [LF] ++ text "999999") = Panic /\
      main_serialize plain (fun _ => 7) 1 100 1 true false (text "5" ++ [LF] ++ text "999999") <> Panic
  | _ => False end.
Proof. vm_compute. repeat split; discriminate. Qed.
EX*)

(** *)
(** ** What a histogram reports about the numbers recorded in it *)
Lemma once_in v n vs : In (v, n) (once vs) <-> In v vs /\ n = 1.
Proof.
  unfold once. rewrite in_map_iff. split.
  - intros (x & E & I). injection E as -> <-. auto.
  - intros (I & ->). eauto.
Qed.
Lemma once_weight vs : weight (once vs) = zlen vs.
Proof. induction vs as [|v vs IH]; [reflexivity|]. cbn [once map weight]. fold (once vs). rewrite IH, zlen_cons. lia. Qed.
Lemma wsum_once f j vs : wsum f j (once vs) = Z.of_nat (length (filter (fun v => f v =? j) vs)).
Proof. induction vs as [|v vs IH]; [reflexivity|]. cbn [once map wsum filter]. fold (once vs). rewrite IH. destruct (f v =? j); cbn [length]; lia. Qed.
Lemma wrange_once f a b vs : wrange f a b (once vs) = Z.of_nat (length (filter (fun v => (a <=? f v) && (f v <=? b)) vs)).
Proof. induction vs as [|v vs IH]; [reflexivity|]. cbn [once map wrange filter]. fold (once vs). rewrite IH. destruct (_ && _); cbn [length]; lia. Qed.
Lemma filter_len_eq {A} (f g : A -> bool) l : (forall x, In x l -> f x = g x) -> length (filter f l) = length (filter g l).
Proof. induction l as [|x l IH]; intros E; [reflexivity|]. cbn [filter]. rewrite (E x) by (left; auto). destruct (g x); cbn [length]; rewrite IH; auto; intros; apply E; right; auto. Qed.
Lemma filter_short {A} (f : A -> bool) l : (length (filter f l) <= length l)%nat.
Proof. induction l as [|x l IH]; cbn [filter]; auto. destruct (f x); cbn [length]; lia. Qed.
Lemma filter_len_le {A} (f g : A -> bool) l : (forall x, In x l -> f x = true -> g x = true) -> (length (filter f l) <= length (filter g l))%nat.
Proof.
  induction l as [|x l IH]; intros E; [auto|]. cbn [filter]. pose proof (E x (or_introl eq_refl)) as X. specialize (IH (fun y I => E y (or_intror I))).
  destruct (f x); [rewrite X by auto; cbn [length]; lia|]. destruct (g x); cbn [length]; lia.
Qed.

Lemma fraction_lt a b n q : 1 <= n -> 0 <= a <= b /\ b <= n /\ n <= u64_max -> f64_lt (fraction b n) q = true -> f64_lt (fraction a n) q = true.
Proof.
  intros N (A & B & M). unfold fraction. destruct (div_ok a n ltac:(lia) ltac:(lia)) as (FA & EA). destruct (div_ok b n ltac:(lia) ltac:(lia)) as (FB & EB).
  pose proof (quot_mono a b n A N) as Q. rewrite <- EA, <- EB in Q. revert FA FB Q. generalize (f64_div (f64_of_u64 a) (f64_of_u64 n)), (f64_div (f64_of_u64 b) (f64_of_u64 n)). intros x y FA FB Q.
  unfold f64_lt. destruct (is_finite q) eqn:FQ.
  - rewrite !Bltb_correct by auto. destruct (Rlt_bool_spec (B2R y) (B2R q)); [|discriminate]. intros _. apply Rlt_bool_true. lra.
  - destruct q as [s|s| |s m e BD]; try discriminate; destruct x, y; try discriminate; auto.
Qed.

Record holds (h : hist) (vs : list Z) : Prop := {
  ho_reach : reachable h;
  ho_u64 : Forall u64 vs;
  ho_cnt : forall j, 0 <= j -> zn (h_counts h) j = wsum (bin h) j (once vs);
  ho_in : forall v, In v vs -> 0 <= bin h v < zlen (h_counts h);
  ho_tot : h_total h = zlen vs;
  ho_max : exact_max h;
  ho_zero : vs = [] -> h_max h = 0
}.

Section HOLDS.
Context (h : hist) (vs : list Z) (HO : holds h vs).
Let R := ho_reach h vs HO.
Let W := reachable_wf h R.
Let C := w_cfg h W.

Lemma ho_pre i : 0 <= i -> zpre (h_counts h) i = Z.of_nat (length (filter (fun v => bin h v <? i) vs)).
Proof.
  intros I. pose proof (zpre_wrange (h_counts h) (bin h) (once vs) (ho_cnt h vs HO) 0 i ltac:(lia) I) as Z. rewrite zpre_0, Z.sub_0_r in Z. replace (0 + i) with i in Z by lia. rewrite Z, wrange_once.
  f_equal. apply filter_len_eq. intros v IN. pose proof (ho_in h vs HO v IN). lia.
Qed.
Lemma ho_sum : zsum (h_counts h) = zlen vs.
Proof.
  rewrite <- (zpre_all (h_counts h) (zlen (h_counts h))) by lia. rewrite ho_pre by apply zlen_nonneg. unfold zlen at 2. f_equal.
  rewrite (filter_len_eq _ (fun _ => true)); [clear; induction vs as [|x l IH]; cbn; auto|].
  intros v IN. pose proof (ho_in h vs HO v IN). lia.
Qed.
Lemma ho_small : 0 <= zlen vs <= u64_max.
Proof. rewrite <- (ho_tot h vs HO). pose proof (w_total h W). pose proof (zlen_nonneg vs). rewrite (ho_tot h vs HO) in *. lia. Qed.
Lemma ho_len_agrees : h_total h = zsum (h_counts h).
Proof. rewrite ho_sum. apply HO. Qed.

(** the values a class of the histogram ends with *)
Lemma top_iff j v : 0 <= j < zlen (h_counts h) -> u64 v ->
  (bin h v <= j <-> v <= topval h j \/ (v = u64_max /\ topval h j = u64_max - 1)).
Proof.
  intros J V. pose proof (bval_u64 h j C (w_size h W) J) as BV. pose proof (bin_bval h j C ltac:(lia)) as BB.
  assert (BN : bval h j <> u64_max).
  { intros E. assert (M1 : u64 (u64_max - 1)) by (unfold u64, u64_max; lia). pose proof (bval_bin h (u64_max - 1) C ltac:(apply M1)) as X.
    rewrite (top_two h C), <- E, BB in X. pose proof (loweq_le (h_um h) (h_half_mag h) (um_nonneg h C) (bval h j - 1) ltac:(rewrite E; apply M1)). lia. }
  destruct (Z.eq_dec v u64_max) as [->|NV].
  - split; intros H.
    + right. split; auto. destruct (Z.eq_dec (bin h (bval h j)) (bin h u64_max)) as [E|NE].
      * pose proof (le_higheq_iff h (bval h j) (u64_max - 1) W BV ltac:(unfold u64, u64_max; lia) ltac:(left; unfold u64_max; lia)) as L.
        rewrite (top_two h C), E in L. fold (topval h j) in L. assert (u64_max - 1 <= topval h j) by (apply L; lia).
        enough (topval h j <= u64_max - 1) by lia. unfold topval, higheq. destruct (Z.eqb_spec (bval h j) u64_max); [contradiction|]. pose proof (nexteq_pos h C (bval h j) BV). lia.
      * exfalso. assert (bin h (bval h j) <= bin h u64_max) by (apply bin_mono; auto; destruct BV; lia). lia.
    + destruct H as [H|(_ & H)].
      * assert (E : topval h j = u64_max) by (destruct (topval_ge h j W J) as (_ & [_ ?] & _); lia). destruct (topval_ge h j W J) as (_ & _ & _ & B). rewrite E in B. lia.
      * destruct (topval_ge h j W J) as (_ & _ & _ & B). rewrite H, (top_two h C) in B. lia.
  - pose proof (le_higheq_iff h (bval h j) v W BV V ltac:(auto)) as L. rewrite BB in L. fold (topval h j) in L. rewrite <- L. intuition lia.
Qed.
Lemma at_most_top j : 0 <= j < zlen (h_counts h) -> at_most (topval h j) vs = zpre (h_counts h) (j + 1).
Proof.
  intros J. rewrite ho_pre by lia. unfold at_most. f_equal. apply filter_len_eq. intros v IN. pose proof (ho_u64 h vs HO) as F. rewrite Forall_forall in F.
  pose proof (top_iff j v J (F v IN)). lia.
Qed.
(** a number itself: not more than its class *)
Lemma at_most_le s : In s vs -> at_most s vs <= zpre (h_counts h) (bin h s + 1).
Proof.
  intros IN. pose proof (ho_in h vs HO s IN) as B. pose proof (ho_u64 h vs HO) as F. rewrite Forall_forall in F. pose proof (F s IN) as S. rewrite ho_pre by lia. unfold at_most.
  apply inj_le, filter_len_le. intros v IV H. pose proof (F v IV) as V.
  assert (bin h v <= bin h s); [|lia]. apply orb_prop in H. destruct H as [H|H].
  - apply bin_mono; auto. destruct V; lia.
  - assert (v = u64_max /\ s = u64_max - 1) as (-> & ->) by lia. rewrite (top_two h C). lia.
Qed.
(** the largest number in a class: exactly the class *)
Lemma class_number j : 0 <= j < zlen (h_counts h) -> zn (h_counts h) j <> 0 ->
  exists s, In s vs /\ bin h s = j /\ at_most s vs = zpre (h_counts h) (j + 1).
Proof.
  intros J NZ. rewrite (ho_cnt h vs HO), wsum_once in NZ by lia. pose proof (ho_u64 h vs HO) as F. rewrite Forall_forall in F.
  assert (X : exists s, In s vs /\ bin h s = j /\ forall v, In v vs -> bin h v = j -> v <= s).
  { assert (Y : exists s, In s (filter (fun v => bin h v =? j) vs)). { destruct (filter _ vs) as [|s l]; [cbn in NZ; lia|]. exists s. left; auto. }
    assert (G : forall l, (exists s, In s l) -> exists s, In s l /\ forall v, In v l -> v <= s).
    { clear. induction l as [|x l IH]; intros (s & I); [destruct I|]. destruct l as [|y l]; [exists x; split; [left; auto|]; intros v [->|[]]; lia|].
      destruct IH as (m & Im & Mm); [exists y; left; auto|]. destruct (Z_le_gt_dec x m).
      - exists m. split; [right; auto|]. intros v [->|Iv]; auto.
      - exists x. split; [left; auto|]. intros v [->|Iv]; [lia|]. pose proof (Mm v Iv). lia. }
    destruct (G _ Y) as (s & I & M). apply filter_In in I. destruct I as (I & B). exists s. split; auto. split; [lia|]. intros v Iv Bv. apply M, filter_In. split; auto. lia. }
  destruct X as (s & IN & B & M). exists s. split; auto. split; auto. apply Z.le_antisymm; [rewrite <- B; apply at_most_le; auto|].
  rewrite ho_pre by lia. unfold at_most. apply inj_le, filter_len_le. intros v IV H. destruct (Z.eq_dec (bin h v) j) as [E|NE]; [pose proof (M v IV E); lia|].
  assert (v < s); [|lia]. destruct (Z_lt_le_dec v s); auto. pose proof (bin_mono h s v C ltac:(pose proof (F s IN) as [? ?]; lia)). lia.
Qed.
Lemma class_near unit s j : equivalent_range h 0 = Ret unit -> In s vs -> bin h s = j -> near unit (sigfig h) s (topval h j).
Proof.
  intros U IN B. pose proof (ho_in h vs HO s IN) as J. rewrite B in J. pose proof (ho_u64 h vs HO) as F. rewrite Forall_forall in F. destruct (topval_ge h j W J) as (_ & T & _ & TB).
  assert (E : equivalent h s (topval h j) = Ret true) by (rewrite equivalent_bin by (auto; apply F; auto); rewrite B, TB, Z.eqb_refl; reflexivity).
  pose proof (C02_resolution_proof h s (topval h j) unit R (F s IN) T E U). unfold near. replace (Z.abs (topval h j - s)) with (Z.abs (s - topval h j)) by lia. auto.
Qed.

Definition inverse (q : f64) : option f64 := if f64_lt q f64_one then Some (f64_div f64_one (f64_sub f64_one q)) else None.
Definition rowitem (j : Z) (q : f64) : row := mk_row (topval h j) (cur h j) q (zpre (h_counts h) (j + 1)) (inverse q).
Definition is_row (x : item) (r : row) : Prop :=
  exists p j q, x = qitem h p j q /\ r = rowitem j q /\ pickat h 0 j q /\ match inverse q with None => q = f64_one | Some _ => (B2R q < 1)%R end.

Lemma inverse_below q : is_finite q = true -> (B2R q < 1)%R -> match inverse q with None => q = f64_one | Some _ => (B2R q < 1)%R end.
Proof. intros F L. destruct one_ok as [O1 O2]. unfold inverse, f64_lt. rewrite Bltb_correct, O1 by auto. rewrite Rlt_bool_true by auto. auto. Qed.
Lemma inverse_one : match inverse f64_one with None => f64_one = f64_one | Some _ => (B2R f64_one < 1)%R end.
Proof. vm_compute inverse. reflexivity. Qed.

Lemma since_exact a b : 0 <= a <= b -> u64s (zpre (h_counts h) b - zpre (h_counts h) a) = zpre (h_counts h) b - zpre (h_counts h) a /\
  in_range 0 u64_max (zpre (h_counts h) a + (zpre (h_counts h) b - zpre (h_counts h) a)) = Ret (zpre (h_counts h) b).
Proof.
  intros A. pose proof (zpre_le h W a b A). pose proof (zpre_nn h W a). pose proof (zpre_le_zsum (h_counts h) b (wf_nonneg h W)). rewrite ho_sum in *. pose proof ho_small.
  split; [unfold u64s; rewrite Z.min_r; lia|]. replace (_ + (_ - _)) with (zpre (h_counts h) b) by lia. apply in_range_ok. lia.
Qed.

Lemma print_step p j q xs : 0 <= p <= j + 1 ->
  print_rows (zpre (h_counts h) p) (qitem h p j q :: xs) = (rows <- print_rows (zpre (h_counts h) (j + 1)) xs ;; Ret (rowitem j q :: rows)).
Proof.
  intros P. cbn [print_rows qitem iv_since iv_qto iv_value iv_quantile]. destruct (since_exact p (j + 1) ltac:(lia)) as (-> & E). unfold u64_add. rewrite E. cbn [bind]. reflexivity.
Qed.

Lemma rows_of_qrun ticks p i q xs : qrun ticks h p i q xs -> 0 <= i -> 0 <= p <= i + 1 -> okq ticks q -> skips h 0 i q ->
  exists rows, print_rows (zpre (h_counts h) p) xs = Ret rows /\ Forall2 is_row xs rows.
Proof.
  intros Q. destruct one_ok as [O1 O2]. pose proof (maxi_range h W) as MR.
  induction Q as [p i q S|p i j PA|p i j q q' xs PA LT JM LT' OK' TI Q IH|p i q PA LT LC|p i q PA LT LC]; intros I0 P0 OK SK; pose proof OK as (F & QR & _).
  - exists []. split; [reflexivity|constructor].
  - destruct PA as (J & NZ & LJ & S). rewrite print_step by lia. exists [rowitem j f64_one]. split; [reflexivity|]. constructor; [|constructor].
    exists p, j, f64_one. split; auto. split; auto. split; [|apply inverse_one]. split; [lia|]. split; auto. split; auto. apply (skips_app h 0 i j); auto.
  - destruct PA as (J & NZ & LJ & S). assert (SK' : skips h 0 j q) by (apply (skips_app h 0 i j); auto). destruct IH as (rows & E & F2); auto; try lia.
    { apply (skips_up h 0 j q q'); auto; [apply OK'|lra]. }
    rewrite print_step by lia. rewrite E. cbn [bind]. exists (rowitem j q :: rows). split; auto. constructor; auto.
    exists p, j, q. split; auto. split; auto. split; [|apply inverse_below; auto]. split; [lia|]. split; auto.
  - destruct PA as (J & NZ & LJ & S). rewrite print_step by lia. exists [rowitem (bin h (h_max h)) q]. split; [reflexivity|]. constructor; [|constructor].
    exists p, (bin h (h_max h)), q. split; auto. split; auto. split; [|apply inverse_below; auto]. split; [lia|]. split; auto. split; auto. apply (skips_app h 0 i); auto.
  - destruct PA as (J & NZ & LJ & S). assert (SK' : skips h 0 (bin h (h_max h)) q) by (apply (skips_app h 0 i); auto). rewrite print_step by lia. rewrite print_step by lia. eexists. split; [reflexivity|]. constructor; [|constructor; [|constructor]].
    + exists p, (bin h (h_max h)), q. split; auto. split; auto. split; [|apply inverse_below; auto]. split; [lia|]. split; auto.
    + exists (bin h (h_max h) + 1), (bin h (h_max h)), f64_one. split; auto. split; auto. split; [|apply inverse_one]. split; [lia|]. split; auto. split; auto.
      apply (skips_up h 0 _ q); auto. rewrite O1. lra.
Qed.

Lemma cur_fraction j : 0 <= j < zlen (h_counts h) -> cur h j = fraction (zpre (h_counts h) (j + 1)) (zlen vs).
Proof.
  intros J. unfold cur, fraction. rewrite (ho_tot h vs HO). pose proof (zpre_le_zsum (h_counts h) (j + 1) (wf_nonneg h W)). rewrite ho_sum in *. pose proof ho_small. unfold u64s. rewrite Z.min_r by lia. reflexivity.
Qed.

Lemma is_row_ok unit x r : equivalent_range h 0 = Ret unit -> is_row x r -> row_ok unit (sigfig h) vs r.
Proof.
  intros U (p & j & q & -> & -> & ((J0 & J1) & NZ & LJ & SK) & INV). destruct (class_number j ltac:(lia) NZ) as (s & IN & B & AM). pose proof (ho_u64 h vs HO) as F. rewrite Forall_forall in F.
  constructor; cbn [rowitem rw_total rw_value rw_quantile rw_to rw_inverse].
  - symmetry. apply at_most_top. lia.
  - apply cur_fraction. lia.
  - exact LJ.
  - exists s. split; auto. split; [apply class_near; auto|]. split; auto. pose proof (top_iff j s ltac:(lia) (F s IN)) as T. rewrite B in T. destruct T as [T _]. destruct (T ltac:(lia)) as [?|(? & _)]; auto.
  - intros s' IN' L. pose proof (ho_in h vs HO s' IN') as B'. destruct (Z_lt_le_dec (bin h s') j) as [LT|GE].
    + exfalso. assert (NZ' : zn (h_counts h) (bin h s') <> 0).
      { rewrite (ho_cnt h vs HO), wsum_once by lia. intros E0. assert (X : In s' (filter (fun v => bin h v =? bin h s') vs)) by (apply filter_In; split; auto; apply Z.eqb_refl).
        destruct (filter (fun v => bin h v =? bin h s') vs); [destruct X|cbn in E0; lia]. }
      pose proof (SK (bin h s') ltac:(lia) NZ') as S1. rewrite cur_fraction in S1 by auto.
      assert (X : f64_lt (fraction (at_most s' vs) (zlen vs)) q = true); [|congruence]. revert S1. assert (N1 : 1 <= zlen vs) by (destruct vs; [destruct IN|rewrite zlen_cons; pose proof (zlen_nonneg l); lia]). apply fraction_lt; auto. pose proof (at_most_le s' IN').
      pose proof (zpre_le_zsum (h_counts h) (bin h s' + 1) (wf_nonneg h W)). rewrite ho_sum in *. unfold at_most in *. pose proof ho_small. lia.
    + destruct (Z.eq_dec (bin h s') j) as [E|NE]; [right; apply class_near; auto|left].
      destruct (topval_ge h j W ltac:(lia)) as (_ & T & _ & TB). destruct (Z_le_gt_dec (topval h j) s'); auto. exfalso.
      pose proof (bin_mono h s' (topval h j) C ltac:(pose proof (F s' IN') as [? ?]; lia)). lia.
  - destruct (inverse q) as [d|] eqn:E; auto. split; [exact INV|]. unfold inverse in E. destruct (f64_lt q f64_one); congruence.
Qed.

Lemma at_most_mono x y : x <= y -> at_most x vs <= at_most y vs.
Proof. intros L. unfold at_most. apply inj_le, filter_len_le. intros v _ H. pose proof (ho_u64 h vs HO) as F. lia. Qed.

Lemma full_reached j : 0 <= j < zlen (h_counts h) -> 1 <= zlen vs <= 2 ^ 53 -> f64_lt (cur h j) f64_one = false -> zpre (h_counts h) (j + 1) = zlen vs.
Proof.
  intros J N LT. destruct one_ok as [O1 O2]. pose proof (zpre_le_zsum (h_counts h) (j + 1) (wf_nonneg h W)) as ZS. pose proof (zpre_nn h W (j + 1)) as Z0. rewrite ho_sum in ZS. pose proof ho_small.
  destruct (Z.eq_dec (zpre (h_counts h) (j + 1)) (zlen vs)) as [|NE]; auto. exfalso. rewrite cur_fraction in LT by auto. unfold fraction in LT.
  destruct (div_ok (zpre (h_counts h) (j + 1)) (zlen vs) ltac:(lia) ltac:(lia)) as [F B]. apply f64_lt_false in LT; auto. rewrite O1, B in LT. pose proof (quot_below_1 (zpre (h_counts h) (j + 1)) (zlen vs) ltac:(lia) ltac:(lia)). lra.
Qed.

Lemma held_nil_iff : held h = [] <-> vs = [].
Proof.
  rewrite (held_nil h W). split; intros H.
  - pose proof ho_sum as S. destruct vs as [|v l]; auto. exfalso. assert (IN : In v (v :: l)) by (left; auto). pose proof (ho_in h (v :: l) HO v IN) as B.
    specialize (H (bin h v) ltac:(lia)). rewrite (ho_cnt h (v :: l) HO) in H by lia. cbn [once map wsum] in H. rewrite Z.eqb_refl in H. fold (once l) in H. pose proof (wsum_once (bin h) (bin h v) l). lia.
  - intros i I. rewrite (ho_cnt h vs HO) by auto. rewrite H. reflexivity.
Qed.

Lemma rows_good log2 ticks unit : log2_ok log2 -> 0 < ticks < 2 ^ 32 -> equivalent_range h 0 = Ret unit ->
  exists it xs rows, iter_quantiles h ticks = Ret it /\ drains (pk_quantile log2) h it xs /\ print_rows 0 xs = Ret rows /\ rows_ok ticks unit (sigfig h) vs rows.
Proof.
  intros LG TK U. destruct (quant_drains log2 h ticks LG W TK) as (it & xs & E & D & Q). pose proof (okq_zero ticks TK) as OK.
  destruct (rows_of_qrun ticks 0 0 f64_zero xs Q ltac:(lia) ltac:(lia) OK ltac:(intros k K; lia)) as (rows & PR & F2). rewrite zpre_0 in PR.
  exists it, xs, rows. split; auto. split; auto. split; auto.
  assert (RO : Forall (row_ok unit (sigfig h) vs) rows). { clear - F2 U HO R W C. induction F2 as [|x r xs rows X F IH]; constructor; auto. eapply is_row_ok; eauto. }
  assert (ENDS : vs <> [] -> exists pre x, xs = pre ++ [x] /\ iv_qto x = f64_one).
  { intros NE. assert (HN : held h <> []) by (rewrite held_nil_iff; auto). assert (LA : len_agrees h) by (apply len_agrees_iff; auto; apply ho_len_agrees).
    destruct (C27_ends_proof log2 h ticks it xs LG R TK LA HN E D) as (pre & x & -> & X & _). eauto. }
  constructor; auto.
  - intros VE. apply held_nil_iff in VE. rewrite (C27_empty_proof log2 h ticks it xs LG R TK VE E D) in F2. inversion F2. reflexivity.
  - intros NE. destruct (ENDS NE) as (pre & x & EX & _). destruct xs as [|x0 xs]; [destruct pre; discriminate|]. inversion F2 as [|? r ? rows' (p & j & q & X1 & X2 & _)]; subst.
    exists (rowitem j q), rows'. split; auto. apply qrun_head in Q. destruct Q as (j0 & X & _). injection X as _ _ X _ _. exact X.
  - intros NE. destruct (ENDS NE) as (pre & x & -> & X). apply Forall2_app_inv_l in F2. destruct F2 as (r1 & r2 & F1 & F2 & ->). inversion F2 as [|? r ? l (p & j & q & X1 & X2 & PA & _) N]; subst. inversion N; subst.
    exists r1, (rowitem j q). split; auto. cbn [qitem iv_qto] in X. subst q. split; auto. intros L. cbn [rowitem rw_total]. destruct PA as (J & _ & LT & _). apply full_reached; auto.
    split; auto. destruct vs; [contradiction|rewrite zlen_cons; pose proof (zlen_nonneg l); lia].
  - intros a x y b EQ. rewrite EQ in F2, RO. apply Forall2_app_inv_r in F2. destruct F2 as (x1 & x2 & F1 & F2 & ->). inversion F2 as [|ix ? x3 ? X F3]; subst. inversion F3 as [|iy ? x4 ? Y F4]; subst.
    pose proof (qrun_steps h ticks 0 0 f64_zero _ W Q OK ltac:(lia) x1 ix iy x4 (maxp h) eq_refl (max_ok h W)) as (S1 & S2 & S3 & S4).
    destruct X as (px & jx & qx & -> & -> & PX & _). destruct Y as (py & jy & qy & -> & -> & PY & _). cbn [qitem iv_value iv_qto rowitem rw_value rw_to rw_total] in *.
    destruct PX as (JX & _). destruct PY as (JY & _). split; auto. split; [rewrite <- !at_most_top by lia; apply at_most_mono; auto|]. split; auto.
    destruct (topval_ge h jx W ltac:(lia)) as (_ & TX & _ & TB). rewrite equivalent_bin in S3, S4 by (auto; apply maxp_u64; auto).
    destruct (_ =? _); [right|left; auto]. destruct (S4 eq_refl) as (A1 & A2 & A3). split; auto. split; auto. subst x4. inversion F4. reflexivity.
Qed.

Lemma max_good unit : equivalent_range h 0 = Ret unit -> max h = Ret (maxp h) /\ (vs = [] -> maxp h = 0) /\
  forall s, In s vs -> (forall v, In v vs -> v <= s) -> near unit (sigfig h) s (maxp h).
Proof.
  intros U. split; [apply max_ok; auto|]. split; [intros VE; unfold maxp; rewrite (ho_zero h vs HO VE); reflexivity|].
  intros s IN M. pose proof (ho_u64 h vs HO) as F. rewrite Forall_forall in F. pose proof (ho_in h vs HO s IN) as B.
  assert (NZ : zn (h_counts h) (bin h s) <> 0).
  { rewrite (ho_cnt h vs HO) by lia. pose proof (wsum_in (bin h) s 1 (once vs)) as X. assert (1 <= wsum (bin h) (bin h s) (once vs)); [|lia]. apply X; [|apply once_in; auto].
    apply Forall_forall. intros [v n] I. apply once_in in I. cbn. lia. }
  assert (E : bin h s = bin h (h_max h)).
  { destruct (ho_max h vs HO) as [(Z0 & _)|NM]; [exfalso; apply NZ, Z0; lia|].
    pose proof (w_max_top h W (bin h s) ltac:(lia) NZ) as L1. fold (bin h (h_max h)) in L1.
    assert (J : 0 <= bin h (h_max h) < zlen (h_counts h)) by apply (maxi_range h W).
    destruct (class_number (bin h (h_max h)) J NM) as (s2 & IN2 & B2 & _). pose proof (M s2 IN2). pose proof (bin_mono h s2 s C ltac:(pose proof (F s2 IN2) as [? ?]; lia)). lia. }
  assert (EQ : equivalent h s (maxp h) = Ret true) by (rewrite equivalent_bin by (auto; try apply maxp_u64; auto; apply F; auto); rewrite bin_maxp, E, Z.eqb_refl by auto; reflexivity).
  pose proof (C02_resolution_proof h s (maxp h) unit R (F s IN) (maxp_u64 h W) EQ U). unfold near. replace (Z.abs (maxp h - s)) with (Z.abs (s - maxp h)) by lia. auto.
Qed.
End HOLDS.

(** ** The same samples, the same mean and standard deviation *)
Section SAME.
Context (a b : hist) (WA : wf a) (WB : wf b) (UM : h_um a = h_um b) (HM : h_half_mag a = h_half_mag b) (CS : h_counts a = h_counts b) (TT : h_total a = h_total b).
Lemma same_topval i : topval a i = topval b i.
Proof. unfold topval, higheq, nexteq, bval. rewrite UM, HM. reflexivity. Qed.
Lemma same_ritem i : ritem a i = ritem b i.
Proof. unfold ritem. rewrite same_topval, CS, TT. reflexivity. Qed.
Lemma same_held_idxs : held_idxs a = held_idxs b.
Proof. unfold held_idxs, nz. rewrite CS. reflexivity. Qed.
Lemma same_median v : u64 v -> median_equivalent a v = median_equivalent b v.
Proof. intros V. rewrite !median_equivalent_ok by (auto using w_cfg). rewrite UM, HM. reflexivity. Qed.
Lemma held_items_u64 : Forall (fun x => u64 (iv_value x)) (map (ritem b) (held_idxs b)).
Proof. apply Forall_forall. intros x I. apply in_map_iff in I. destruct I as (k & <- & K). apply held_idxs_in in K. cbn [ritem iv_value]. apply (topval_ge b k WB); tauto. Qed.
Lemma same_items : recorded_items a = recorded_items b.
Proof. rewrite !recorded_items_ok by auto. rewrite same_held_idxs. f_equal. apply map_ext. apply same_ritem. Qed.
Lemma same_mean : mean a = mean b.
Proof.
  unfold mean. rewrite TT. destruct (_ =? 0); auto. rewrite same_items, recorded_items_ok by auto. cbn [bind]. pose proof held_items_u64 as F. revert F. generalize (map (ritem b) (held_idxs b)), f64_zero.
  intros l. induction l as [|x l IH]; intros t F; [reflexivity|]. inversion F; subst. cbn [mean_fold]. rewrite same_median by auto. destruct (median_equivalent b (iv_value x)); cbn [bind]; auto. rewrite TT. apply IH; auto.
Qed.
Lemma same_stdev : stdev a = stdev b.
Proof.
  unfold stdev. rewrite TT. destruct (_ =? 0); auto. rewrite same_mean. destruct (mean b) as [m|]; cbn [bind]; auto. rewrite same_items, recorded_items_ok by auto. cbn [bind].
  assert (E : stdev_fold a m (map (ritem b) (held_idxs b)) f64_zero = stdev_fold b m (map (ritem b) (held_idxs b)) f64_zero); [|rewrite E; reflexivity].
  pose proof held_items_u64 as F. revert F. generalize (map (ritem b) (held_idxs b)), f64_zero.
  intros l. induction l as [|x l IH]; intros t F; [reflexivity|]. inversion F; subst. cbn [stdev_fold]. rewrite same_median by auto. destruct (median_equivalent b (iv_value x)); cbn [bind]; auto.
Qed.
End SAME.

Lemma held_short h vs : holds h vs -> (length (held h) <= length vs)%nat.
Proof.
  intros HO. pose proof (reachable_wf h (ho_reach h vs HO)) as W. pose proof (held_total h W) as T. rewrite (ho_sum h vs HO) in T. unfold zlen in T.
  assert (F : Forall (fun p => 1 <= snd p) (held h)).
  { apply Forall_forall. intros [v n] I. rewrite held_contents in I by auto. destruct (contents_in h v n W I) as (k & _ & KL & _ & -> & NN & _). cbn [snd]. pose proof (zn_nonneg (h_counts h) k (wf_nonneg h W)). lia. }
  assert (G : Z.of_nat (length (held h)) <= weight (held h)); [|lia]. clear - F. induction F as [|[v n] l N F IH]; cbn [weight length snd] in *; lia.
Qed.

Lemma records_same_len h vs h' : wf h -> h_ctr h = U64 -> h_auto h = false -> records h (once vs) h' -> zlen (h_counts h') = zlen (h_counts h) /\ h_auto h' = false.
Proof.
  revert h. induction vs as [|v vs IH]; intros h W CT A RC.
  - inversion RC; subst. auto.
  - inversion RC as [|a v' n l h1 b V K E RC']; subst. destruct (record_n_same_len h v h1 W V CT A E) as (X1 & X2).
    destruct (record_n_cases h v 1 W V ltac:(rewrite CT; vm_compute; intuition discriminate)) as [(h2 & E2 & D)|(E2 & _)]; rewrite E in E2; [|discriminate]. injection E2 as <-.
    destruct (IH h1 (rd_wf _ _ _ _ D) ltac:(rewrite (ss_ctr _ _ (rd_shape _ _ _ _ D)); auto) X2 RC') as (Y1 & Y2). split; [congruence|auto].
Qed.

Lemma once_unsaturated lo hi sf b vs : is_u64 lo -> is_u64 hi -> is_u8 sf -> creation_check lo hi sf = None -> Forall u64 vs -> zlen vs <= i64_max ->
  no_saturation (auto (fresh U64 lo hi sf) b) (once vs).
Proof.
  intros L Hh S CC F N. assert (W : wf (auto (fresh U64 lo hi sf) b)) by (apply set_auto_wf, fresh_wf; auto).
  assert (F1 : Forall (fun p => u64 (fst p)) (once vs)). { rewrite Forall_forall in F |- *. intros [v n] I. apply once_in in I. cbn. apply F. tauto. }
  apply no_saturation_iff; auto. split.
  - intros j J. change (h_counts (auto (fresh U64 lo hi sf) b)) with (h_counts (fresh U64 lo hi sf)). rewrite fresh_zero by auto. rewrite wsum_once.
    pose proof (filter_short (fun v => bin (auto (fresh U64 lo hi sf) b) v =? j) vs).
    change (cmax (h_ctr (auto (fresh U64 lo hi sf) b))) with u64_max. unfold zlen, i64_max, u64_max in *. lia.
  - rewrite <- weight_wtotal, once_weight. change (h_total (auto (fresh U64 lo hi sf) b)) with 0. unfold i64_max, u64_max in *. lia.
Qed.

(** what [iter-quantiles] reads is what [serialize] recorded *)
Lemma round checks cd junk h (compressed : bool) : reachable h -> Forall (fun c => c <= i64_max) (h_counts h) -> h_ctr h = U64 -> (compressed = true -> lossless cd /\ codec_ok cd /\ at_most_doubles cd) ->
  exists out h' rest, (if compressed then v2_deflate_serialize cd junk h else v2_serialize junk h) = Ret (ROk out) /\
    deserialize checks cd [] U64 out = Ret (ROk (h', rest)) /\ reachable h' /\ decoded U64 (h_low h) (h_high h) (h_sigfig h) (h_counts h) h'.
Proof.
  intros R F CT CD. pose proof (reachable_wf h R) as W.
  assert (E : v2_serialize junk h = Ret (ROk (image h))) by (destruct (v2_serialize_ok junk h W) as [(_ & E)|(NF & _)]; [auto|contradiction]).
  destruct (image_back checks cd [] U64 h [] W F) as (A & _). rewrite app_nil_r in A.
  destruct A as (h' & E' & R' & D); [eapply Forall_impl; [|apply (w_cnt h W)]; rewrite CT; cbn; lia|].
  destruct compressed.
  - destruct (CD eq_refl) as (LS & CO & CP). pose proof (image_bytes h W F) as IB. pose proof (CP _ IB) as SZ. rewrite image_len in SZ. pose proof (payload_small h W).
    destruct (C40_compressed_proof checks cd [] junk U64 h (image h) [] R LS CO E ltac:(unfold u32_max; lia)) as (zs & left & ZE & _ & _ & _ & OKS). rewrite !app_nil_r in OKS.
    exists zs, h', left. split; auto.
  - exists (image h), h', []. auto.
Qed.

(** ** C77.  The pipe [serialize | iter-quantiles]: numbers typed one per line come out as the report that
    describes them, whatever the parameters, with or without compression.  [report_ok] says what the report
    states about the numbers. *)
Lemma C77_report_proof : forall checks cd junk log2 lo hi sf (resize compressed : bool) ticks stdin ls vs h0 unit,
  is_u64 lo -> is_u64 hi -> is_u8 sf -> new_with_bounds U64 lo hi sf = Ret (ROk h0) -> equivalent_range h0 0 = Ret unit ->
  typed stdin ls -> Forall2 number_line ls vs -> (resize = true \/ Forall (covers h0) vs) -> zlen vs <= i64_max ->
  (compressed = true -> lossless cd /\ codec_ok cd /\ at_most_doubles cd) -> log2_ok log2 -> 0 < ticks < 2 ^ 32 ->
  exists out rep, main_serialize cd junk lo hi sf resize compressed stdin = Ret out /\
    cli_quantiles checks cd log2 ticks out (ROk rep) /\ (forall r, cli_quantiles checks cd log2 ticks out r -> r = ROk rep) /\
    report_ok ticks unit sf vs rep /\
    (resize = false -> rp_buckets rep = buckets h0 /\ rp_subbuckets rep = distinct_values h0).
Proof.
  intros checks cd junk log2 lo hi sf resize z ticks stdin ls vs h0 unit L Hh S E U T F A N CD LG TK.
  destruct (C77_serialize_proof cd junk lo hi sf resize z stdin ls vs h0 L Hh S E T F A) as (h & RC & OUT).
  destruct (started lo hi sf resize h0 L Hh S E) as (_ & R0 & _).
  pose proof (records_reachable _ _ _ R0 RC) as RH. pose proof (created_wf U64 lo hi sf h0 L Hh S E) as (E0 & CC & W0 & _). subst h0.
  assert (FU : Forall u64 vs). { clear - F. induction F as [|l v ls vs NL F IH]; constructor; auto. eapply number_u64; eauto. }
  pose proof (once_unsaturated lo hi sf resize vs L Hh S CC FU N) as NS.
  assert (WA : wf (set_auto (fresh U64 lo hi sf) resize)) by (apply set_auto_wf; auto).
  pose proof RC as RM. apply records_many in RM; [|exact WA].
  destruct (recorded_counts U64 lo hi sf resize (once vs) h WA RM NS) as (RA & W & _ & _ & CNT & TOT & FB). pose proof (ra_shape _ _ _ RA) as SH. rewrite once_weight in TOT. unfold len in TOT.
  assert (CT : h_ctr h = U64) by (rewrite (ss_ctr _ _ SH); reflexivity).
  assert (SF : h_sigfig h = sf) by (rewrite (ss_sf _ _ SH); reflexivity).
  assert (FI : Forall (fun c => c <= i64_max) (h_counts h)).
  { apply Forall_forall. intros c I. destruct (In_nth (h_counts h) c 0 I) as (k & KL & <-). replace k with (Z.to_nat (Z.of_nat k)) by lia. fold (zn (h_counts h) (Z.of_nat k)). rewrite CNT by lia. rewrite wsum_once.
    pose proof (filter_short (fun v => bin h v =? Z.of_nat k) vs).
    unfold zlen in N. lia. }
  destruct (round checks cd junk h z RH FI CT CD) as (out & h' & rest & SE & DE & R' & D).
  pose proof (dc_wf _ _ _ _ _ _ D) as W'.
  assert (UM : h_um h' = h_um h) by (rewrite (dc_um _ _ _ _ _ _ D), (c_um h (w_cfg h W)); reflexivity).
  assert (HM : h_half_mag h' = h_half_mag h) by (rewrite (dc_m _ _ _ _ _ _ D), (c_m h (w_cfg h W)); reflexivity).
  assert (CS : h_counts h' = h_counts h) by apply D.
  assert (BI : forall v, bin h' v = bin h v) by (intros v; unfold bin; rewrite UM, HM; reflexivity).
  assert (HI : forall v, In v vs -> 0 <= bin h v < zlen (h_counts h)).
  { intros v I. rewrite Forall_forall in FB. destruct (FB (v, 1)) as [X|X]; [apply once_in; auto|discriminate X|exact X]. }
  assert (HO : forall hh, reachable hh -> h_um hh = h_um h -> h_half_mag hh = h_half_mag h -> h_counts hh = h_counts h -> h_total hh = zlen vs -> exact_max hh -> (vs = [] -> h_max hh = 0) -> holds hh vs).
  { intros hh RR U1 U2 U3 U4 U5 U6. constructor; auto.
    - intros j J. rewrite U3, CNT by auto. apply wsum_ext. intros v n _. unfold bin. rewrite U1, U2. reflexivity.
    - intros v I. unfold bin. rewrite U1, U2, U3. apply HI; auto. }
  assert (ZS : zsum (h_counts h) = zlen vs).
  { rewrite <- (zpre_all (h_counts h) (zlen (h_counts h))) by lia. pose proof (zpre_wrange (h_counts h) (bin h) (once vs) CNT 0 (zlen (h_counts h)) ltac:(lia) (zlen_nonneg _)) as Z. rewrite zpre_0, Z.sub_0_r in Z. rewrite !Z.add_0_l in Z. rewrite Z, wrange_once.
    unfold zlen at 2. f_equal. rewrite (filter_len_eq _ (fun _ => true)); [clear; induction vs as [|x l IH]; cbn; auto|]. intros v IN. pose proof (HI v IN). lia. }
  assert (TT : h_total h' = zlen vs) by (rewrite (dc_total _ _ _ _ _ _ D), ZS; unfold i64_max, u64_max in *; lia).
  assert (HO' : holds h' vs).
  { apply HO; auto; [apply D|]. intros ->. apply (dc_empty _ _ _ _ _ _ D). intros i I. rewrite CNT by auto. reflexivity. }
  assert (UN : equivalent_range h' 0 = Ret unit).
  { rewrite <- U. rewrite !equivalent_range_ok by (auto using w_cfg; unfold u64, u64_max; lia). rewrite UM, HM, (ss_um _ _ SH), (ss_m _ _ SH). reflexivity. }
  assert (UNH : equivalent_range h 0 = Ret unit).
  { rewrite <- U. rewrite !equivalent_range_ok by (auto using w_cfg; unfold u64, u64_max; lia). rewrite (ss_um _ _ SH), (ss_m _ _ SH). reflexivity. }
  assert (SF' : sigfig h' = sf) by (unfold sigfig; rewrite (dc_sf _ _ _ _ _ _ D); auto).
  destruct (rows_good h' vs HO' log2 ticks unit LG TK UN) as (it & xs & rows & EI & DR & PR & RO). destruct (max_good h' vs HO' unit UN) as (EM & M0 & M1). rewrite SF' in *.
  assert (HH : held h' = held h) by (eapply decoded_held; eauto).
  assert (MS : exists m s, mean h' = Ret m /\ stdev h' = Ret s /\
     ((vs = [] -> m = f64_zero /\ s = f64_zero) /\ (vs <> [] -> 
        (finite m /\ exists k a, (k <= length vs)%nat /\ StatSpec.within (k + 6) (real_of m) a /\
         (Rabs (a - sample_mean (once vs)) <= IZR (unit / 2) + sample_mean (once vs) / (2 * 10 ^ Z.to_nat sf))%R) /\
        (let r := (IZR (unit / 2) + sample_rms (once vs) / (2 * 10 ^ Z.to_nat sf))%R in
         finite s /\ exists k a, (k <= length vs)%nat /\ StatSpec.within (k + 9) (real_of s) a /\
         (Rabs (a - sample_stdev (once vs)) <= r + ((1 + bpow radix2 (-53)) ^ (k + 7) - 1) * (sample_rms (once vs) + r))%R)))).
  { destruct (list_eq_dec Z.eq_dec vs []) as [VE|VE].
    - exists f64_zero, f64_zero. unfold mean, stdev. rewrite TT, VE. cbn [zlen length]. change (Z.of_nat 0 =? 0) with true. cbn match. split; auto. split; auto. split; [auto|contradiction].
    - assert (WL : 0 < weight (once vs)) by (rewrite once_weight; destruct vs as [|v0 l0]; [contradiction|rewrite zlen_cons; pose proof (zlen_nonneg l0); lia]).
      destruct (C62_mean_accuracy_proof U64 lo hi sf resize _ (once vs) h unit L Hh S E RC NS UNH WL) as (m & am & ME & MF & MW & MA).
      destruct (C72_stdev_accuracy_proof U64 lo hi sf resize _ (once vs) h unit L Hh S E RC NS UNH WL) as (s & as_ & SE2 & SFI & SW & SA).
      pose proof (held_short h' vs HO') as HL. rewrite HH in HL. exists m, s.
      split; [rewrite (same_mean h' h) by (auto; congruence); auto|]. split; [rewrite (same_stdev h' h) by (auto; congruence); auto|]. split; [contradiction|]. intros _.
      split; [split; auto; exists (length (held h)), am; auto|]. split; auto. exists (length (held h)), as_. auto. }
  destruct MS as (m & s & EMn & ESd & MS0 & MS1).
  set (rep := mk_report rows m s (maxp h') (len h') (buckets h') (distinct_values h')).
  assert (PREP : print_report h' xs = Ret rep) by (unfold print_report; rewrite PR, EMn, ESd, EM; reflexivity).
  exists out, rep. split; [apply OUT; auto|]. split; [eapply quantiles_ok; eauto|]. split; [|split].
  - intros r Q. inversion Q as [e DE2|h2 rest2 it2 xs2 rep2 DE2 EI2 DR2 PR2]; subst; rewrite DE in DE2; [discriminate|]. injection DE2 as <- _. rewrite EI in EI2. injection EI2 as <-.
    rewrite (drains_fun _ _ _ _ DR _ DR2) in PR2. rewrite PREP in PR2. congruence.
  - constructor; cbn [rep rp_rows rp_mean rp_stdev rp_max rp_len]; auto.
    + destruct (C59_layout_proof h' unit R' UN) as (sub & _ & SB & DV & BK & CV & _). rewrite SF' in SB. exists sub. split; auto. split; auto. split; auto.
      intros v I. rewrite Forall_forall in FU. apply (CV v (FU v I)). apply (covers_bin h' v W' (FU v I)). rewrite BI, CS. apply HI; auto.
    + split; [intros VE; apply MS0; auto|]. intros VE. apply MS1; auto.
    + split; [intros VE; apply MS0; auto|]. intros VE. apply (MS1 VE).
  - intros RS. subst resize. cbn [rep rp_buckets rp_subbuckets].
    destruct (records_same_len (auto (fresh U64 lo hi sf) false) vs h WA eq_refl eq_refl RC) as (ZL & _). change (h_counts (auto (fresh U64 lo hi sf) false)) with (h_counts (fresh U64 lo hi sf)) in ZL.
    assert (ZL' : zlen (h_counts h') = zlen (h_counts (fresh U64 lo hi sf))) by congruence.
    split; [|exact ZL']. unfold buckets. destruct (w_size h' W') as [B1 L1]. destruct (w_size _ W0) as [B2 L2]. rewrite B1, B2. assert (HMF : h_half_mag h' = h_half_mag (fresh U64 lo hi sf)) by (rewrite HM, (ss_m _ _ SH); reflexivity).
    rewrite L1, L2, HMF in ZL'. rewrite HMF. pose proof (m_nonneg _ (w_cfg _ W0)) as M0'. pose proof (pow2_pos _ M0') as PP. apply Z.mul_reg_r in ZL'; lia.
Qed.
(*EX
(** the three numbers through the pipe, compressed: the rows (value, total so far, thousandths of the quantile
    reached and of the one iterated to, whether the last column is a number), and the numbers at the end *)
Example ex_C77_report : match main_serialize plain (fun _ => 7) 1 10000 1 false true sample_text with
  | Ret out => match deserialize true plain [] U64 out with
      | Ret (ROk (h, rest)) => match iter_quantiles h 1 with
          | Ret it => match iter_collect 20 (pk_quantile floor_log2) h it with
              | Ret xs => match print_report h xs with
                  | Ret rep => map (fun r => (rw_value r, rw_total r, f64_to_u64 (f64_mul (rw_quantile r) (f64_of_u64 1000)), f64_to_u64 (f64_mul (rw_to r) (f64_of_u64 1000)), match rw_inverse r with Some d => f64_to_u64 d | None => 0 end)) (rp_rows rep) =
                        [(5, 2, 666, 0, 1); (5, 2, 666, 500, 2); (335, 3, 1000, 750, 4); (335, 3, 1000, 1000, 0)] /\
                      rp_len rep = 3 /\ rp_max rep = 335 /\ f64_to_u64 (rp_mean rep) = 112 /\ f64_to_u64 (rp_stdev rep) = 152
                  | _ => False end
              | _ => False end
          | _ => False end
      | _ => False end
  | _ => False end.
Proof. float_case. Qed.
Example ex_C77_codec : lossless plain /\ codec_ok plain /\ at_most_doubles plain.
Proof. split; [exact plain_lossless|]. split; [exact plain_ok|]. intros bs B. change (zlen bs <= 2 * zlen bs + 64). unfold zlen. lia. Qed.
EX*)

(** With 0 ticks per half distance, [iter-quantiles] never prints a report. *)
Lemma C77_no_ticks_proof : forall checks cd log2 stdin rep, ~ cli_quantiles checks cd log2 0 stdin (ROk rep).
Proof.
  intros checks cd log2 stdin rep Q. inversion Q as [|h rest it xs rep' D E]. discriminate E.
Qed.
(*EX
Example ex_C77_no_ticks : match main_serialize plain (fun _ => 7) 1 10000 1 false true sample_text with
  | Ret out => match deserialize true plain [] U64 out with Ret (ROk (h, _)) => iter_quantiles h 0 = Panic | _ => False end
  | _ => False end.
Proof. float_case. Qed.
EX*)
