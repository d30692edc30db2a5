(** * Proofs of the properties about the short forms of recording and merging (C57) *)
(*PROPS-IMPORTS Machine Log2Model HistModel Spec OrderSpec Reach Witness Cases *)
From Verif Require Import Machine Log2Model HistModel Spec OrderSpec Reach Bins ListZ Log2Facts Cfg Wf Ops AddFacts SubFacts Exact MoreFacts Witness HeldFacts PfClasses PfRecord PfMerge.
From Coq Require Import ZifyBool ZifyNat.

Lemma one_count T : is_count T 1.
Proof. unfold is_count. destruct T; vm_compute; split; discriminate. Qed.

Lemma same_config_matching h s : wf h -> wf s -> same_config h s -> matching h s = true.
Proof.
  intros W WS [SP DV]. destruct (same_precision_cfg h s W WS SP) as (U & M). unfold matching.
  pose proof (w_cfg h W) as C. pose proof (w_cfg s WS) as CS. pose proof (w_size h W) as SZ. pose proof (w_size s WS) as SZS.
  rewrite U, Z.eqb_refl, (c_sbc h C), (c_sbc s CS), M, Z.eqb_refl, !andb_true_r.
  unfold distinct_values in DV. rewrite (s_len h SZ), (s_len s SZS), U, M in DV. rewrite (s_bc h SZ), (s_bc s SZS), U, M.
  pose proof (half_range s CS). apply Z.eqb_eq. nia.
Qed.

Lemma add_keeps_bins h s h' : wf h -> wf s -> h_ctr h = h_ctr s -> same_config h s -> maxp s <> u64_max ->
  add h s = Ret (h', ROk tt) -> zlen (h_counts h') = zlen (h_counts h).
Proof.
  intros W WS CT SC NM E. pose proof (same_config_matching h s W WS SC) as MP.
  destruct (matching_facts h s (w_cfg h W) (w_cfg s WS) (w_size h W) (w_size s WS) MP) as (U & M & LN).
  destruct (add_ok h s W WS CT) as [(Es & A)|[(_ & _ & _ & A)|(Es & _ & h1 & A & AD & h0 & AB & H0)]];
    rewrite A in E; inversion E; subst; auto. clear E.
  assert (H0' : h0 = h).
  { destruct H0 as [[_ ->]|[L _]]; auto. exfalso. destruct SC as [SP DV].
    assert (CV : bin h (maxp s) < zlen (h_counts h)).
    { rewrite (same_precision_bin h s) by auto. rewrite <- LN. apply maxp_in; auto. }
    unfold bin in CV. rewrite idx_in_iff_top in CV by (auto using w_cfg, w_size, maxp_u64).
    pose proof (maxp_u64 s WS). unfold top_val, u64, u64_max in *. lia. }
  subst h0. destruct (is_empty h) eqn:EM.
  - unfold add_body in AB. fold (matching h s) in AB. rewrite MP, EM in AB. cbn [andb] in AB.
    rewrite assert_true in AB by (destruct SC as [_ ->]; apply Z.eqb_refl). cbn [bind] in AB. injection AB as <-. exact LN.
  - unfold add_body in AB. fold (matching h s) in AB. rewrite MP, EM in AB. cbn [andb] in AB.
    destruct (add_aligned_ok (h_ctr h) (h_counts h) (h_counts s) 0) as (l & EA & LL & _).
    { lia. } { apply W. } { apply (Forall_impl _ (fun c => @proj1 _ _) (w_cnt s WS)). } { unfold u64_max; lia. }
    rewrite EA in AB. cbn [bind] in AB. rewrite (max_ok s WS) in AB. cbn [bind] in AB.
    repeat match type of AB with bind ?m _ = _ => destruct m eqn:?; cbn [bind] in AB; [|discriminate] end.
    injection AB as <-. unfold update_max, update_min. repeat match goal with |- context [if ?b then _ else _] => destruct b end; exact LL.
Qed.

(** ** C57.  The short forms mean what the long ones mean.  [record] stores one sample, or fails and
    changes nothing. *)
Lemma C57_record_proof : forall h v, reachable h -> is_u64 v ->
  (exists h', record h v = Ret (h', ROk tt) /\ (covers h v \/ is_auto_resize h = true) /\
     records h [(v, 1)] h' /\ len h' = Z.min u64_max (len h + 1)) \/
  (record h v = Ret (h, RErr ValueOutOfRangeResizeDisabled) /\ is_auto_resize h = false /\ ~ covers h v).
Proof.
  intros h v R V. pose proof (reachable_wf h R) as W. unfold record.
  destruct (record_n_cases h v 1 W V (one_count _)) as [(h1 & E & RD)|(E & A & B)].
  - left. exists h1. split; auto.
    assert (RR : records h [(v, 1)] h1) by (econstructor; eauto using one_count; constructor).
    split; [|split; auto].
    + destruct (is_auto_resize h) eqn:AU; auto. left.
      destruct (C09_reject_unchanged_proof h v 1 R V (one_count _) AU) as [_ N].
      destruct (Z.lt_ge_cases (bin h v) (zlen (h_counts h))) as [L|L]; [apply covers_bin; auto|].
      rewrite N in E; [discriminate|]. intros CV. apply covers_bin in CV; auto. lia.
    + destruct (C07_len_proof h _ h1 R RR) as [-> _]. cbn. f_equal; lia.
  - right. split; [exact E|]. split; auto. intros CV. apply covers_bin in CV; auto. lia.
Qed.
(*EX
Example ex_C57_record : match build U8 1 100 2 false [(5, 200)] with
  | Some h => reachable h /\ is_u64 100 /\ is_u64 256 /\ covers h 100 /\ ~ covers h 256 /\ record h 256 = Ret (h, RErr ValueOutOfRangeResizeDisabled) /\
      match record h 100 with Ret (h', ROk _) => records h [(100, 1)] h' /\ len h' = 201 | _ => False end
  | None => False end.
Proof. case_of. Qed.
EX*)
(** [saturating_record] stores one sample, at [high] if the value has no bin *)
Lemma C57_saturating_record_proof : forall h v, reachable h -> is_u64 v ->
  exists h', saturating_record h v = Ret h' /\ len h' = Z.min u64_max (len h + 1) /\
    (covers h v -> record h v = Ret (h', ROk tt)) /\ (~ covers h v -> record h (high h) = Ret (h', ROk tt)).
Proof.
  intros h v R V. pose proof (reachable_wf h R) as W.
  destruct (C11_saturating_proof h v 1 R V (one_count _)) as (h' & E & A & B & _). exists h'.
  split; auto. split; [|split; auto].
  destruct (Z.lt_ge_cases (bin h v) (zlen (h_counts h))) as [L|L].
  - destruct (C57_record_proof h v R V) as [(h1 & E1 & _ & _ & LN)|(_ & _ & NC)].
    + unfold record in E1. rewrite A in E1 by (apply covers_bin; auto). injection E1 as <-. auto.
    + destruct NC. apply covers_bin; auto.
  - assert (HU : is_u64 (high h)). { pose proof (c_high h (w_cfg h W)). pose proof (c_low h (w_cfg h W)). unfold is_u64, high. lia. }
    assert (NC : ~ covers h v). { intros CV. apply covers_bin in CV; auto. lia. }
    destruct (C57_record_proof h (high h) R HU) as [(h1 & E1 & _ & _ & LN)|(E1 & _ & _)];
      unfold record in E1; rewrite B in E1 by auto; inversion E1; subst; auto.
Qed.
(*EX
Example ex_C57_saturating_record : match build U8 1 100 2 false [(5, 200)] with
  | Some h => reachable h /\ is_u64 256 /\ ~ covers h 256 /\ match saturating_record h 256 with Ret h' => count_at h' 100 = Ret 1 /\ len h' = 201 | _ => False end
  | None => False end.
Proof. case_of. Qed.
EX*)
(** [record_correct] stores the value once and every missing value once *)
Lemma C57_record_correct_proof : forall h v i, reachable h -> is_u64 v -> is_u64 i ->
  (exists h', record_correct h v i = Ret (h', ROk tt) /\
     records h (map (fun x => (x, 1)) (v :: missing_values v i)) h') \/
  (record_correct h v i = Ret (h, RErr ValueOutOfRangeResizeDisabled) /\ is_auto_resize h = false /\ ~ covers h v).
Proof.
  intros h v i R V I.
  destruct (C12_correction_proof h v 1 i R V (one_count _) I) as [(h' & E & RR)|(E & e & E2)]; [left; eauto|right].
  unfold record_correct. rewrite E. destruct (C57_record_proof h v R V) as [(h1 & E1 & _)|X]; [|exact X].
  unfold record in E1. rewrite E1 in E2. discriminate.
Qed.
(*EX
Example ex_C57_record_correct : match build U8 1 100 2 false [(5, 200)] with
  | Some h => reachable h /\ is_u64 10 /\ is_u64 3 /\ missing_values 10 3 = [7; 4] /\
      match record_correct h 10 3 with Ret (h', ROk _) => records h [(10, 1); (7, 1); (4, 1)] h' /\ len h' = 203 | _ => False end /\
      is_u64 256 /\ ~ covers h 256 /\ record_correct h 256 3 = Ret (h, RErr ValueOutOfRangeResizeDisabled)
  | None => False end.
Proof. case_of. Qed.
EX*)
(** [+= value] records it, and panics where [record] fails *)
Lemma C57_plus_value_proof : forall h v, reachable h -> is_u64 v ->
  (forall h', add_assign_u64 h v = Ret h' <-> record h v = Ret (h', ROk tt)) /\
  (add_assign_u64 h v = Panic <-> is_auto_resize h = false /\ ~ covers h v).
Proof.
  intros h v R V. unfold add_assign_u64, unwrap.
  destruct (C57_record_proof h v R V) as [(h1 & E & A & _)|(E & A & B)]; rewrite E; cbn [bind]; split.
  - intros h'. split; intros X; inversion X; auto.
  - split; [discriminate|]. intros [X Y]. destruct A as [A|A]; [contradiction|congruence].
  - intros h'. split; intros X; inversion X; auto.
  - split; auto.
Qed.
(*EX
Example ex_C57_plus_value : match build U8 1 100 2 false [(5, 200)] with
  | Some h => reachable h /\ is_u64 100 /\ is_u64 256 /\ covers h 100 /\ ~ covers h 256 /\ add_assign_u64 h 256 = Panic /\
      match add_assign_u64 h 100 with Ret h' => count_at h' 100 = Ret 1 | _ => False end
  | None => False end.
Proof. case_of. Qed.
EX*)
(** [+] and [+=] of two histograms give what [add] gives, and panic exactly where it fails *)
Lemma C57_plus_proof : forall h s mx, reachable h -> reachable s -> h_ctr h = h_ctr s -> max s = Ret mx ->
  (forall h', add_assign h s = Ret h' <-> add h s = Ret (h', ROk tt)) /\
  (add_assign h s = Panic <-> is_auto_resize h = false /\ is_empty s = false /\ (~ covers h mx \/ mx = u64_max)).
Proof.
  intros h s mx R RS CT MX. destruct (C14_add_error_proof h s R RS CT) as (h1 & r & E & ER).
  pose proof (C16_add_fails_iff_proof h s mx R RS CT MX) as F. unfold add_assign, unwrap. rewrite E in *. cbn [bind].
  destruct r as [[]|e].
  - split. { intros h'. split; intros X; inversion X; auto. }
    rewrite <- F. split; discriminate.
  - destruct (ER e eq_refl) as (-> & -> & _). split. { intros h'. split; intros X; inversion X. }
    rewrite <- F. split; auto.
Qed.
(*EX
Example ex_C57_plus : match build U8 1 100 2 false [(5, 200)], build U8 1 1000 2 false [(5, 100); (90, 1)] with
  | Some h, Some s => reachable h /\ reachable s /\ h_ctr h = h_ctr s /\ max s = Ret 90 /\ max h = Ret 5 /\
      match add_assign h s with Ret h' => count_at h' 5 = Ret 255 /\ count_at h' 90 = Ret 1 | _ => False end /\
      match record s 900 with Ret (s2, ROk _) => add_assign h s2 = Panic | _ => False end
  | _, _ => False end.
Proof. case_of. Qed.
EX*)
(** [-] and [-=] give what [subtract] gives, and panic exactly where it fails *)
Lemma C57_minus_proof : forall h s mx, reachable h -> reachable s -> h_ctr h = h_ctr s -> max s = Ret mx ->
  (forall h', sub_assign h s = Ret h' <-> subtract h s = Ret (h', ROk tt)) /\
  (sub_assign h s = Panic <-> is_empty s = false /\
    ~ (covers h mx /\ mx <> u64_max /\
       (forall w c, is_u64 w -> covers h w -> count_at h w = Ret c -> weight_at h w (held s) <= c))).
Proof.
  intros h s mx R RS CT MX. pose proof (C18_subtract_total_proof h s R RS CT) as TOT.
  unfold sub_assign, unwrap. destruct (subtract h s) as [[h1 [[]|e]]|] eqn:E; cbn [bind]; [| |contradiction]; split.
  - intros h'. split; intros X; inversion X; auto.
  - split; [discriminate|]. intros (ES & D). exfalso. apply D.
    apply (C17_subtract_success_iff_proof h s mx R RS CT ES MX). eauto.
  - intros h'. split; intros X; inversion X.
  - split; auto. intros _. assert (ES : is_empty s = false).
    { destruct (is_empty s) eqn:ES; auto. unfold subtract in E. rewrite ES in E. discriminate. }
    split; auto. intros D. apply (C17_subtract_success_iff_proof h s mx R RS CT ES MX) in D.
    destruct D as (h' & D). rewrite D in E. discriminate.
Qed.
(*EX
Example ex_C57 : match build U8 1 100 2 false [(5, 200)], build U8 1 1000 2 false [(5, 100); (900, 1)] with
  | Some h, Some s => reachable h /\ reachable s /\ add_assign h s = Panic /\ sub_assign h s = Panic /\ add_assign_u64 h 5000 = Panic /\
      match add_assign s h, add_assign_u64 h 90, record_correct h 30 10 with
      | Ret a, Ret b, Ret (c, ROk _) => count_at a 5 = Ret 255 /\ count_at b 90 = Ret 1 /\ len c = 203 /\ count_at c 10 = Ret 1
      | _, _, _ => False end
  | _, _ => False end.
Proof. case_of. Qed.
EX*)

(** [Sum] adds the histograms one after the other to the first; of no histograms it is [new(3)] *)
Lemma C57_sum_proof : forall T h hs h', sum_hist T (h :: hs) = Ret h' <-> merges h hs h'.
Proof.
  intros T h hs h'. cbn [sum_hist]. revert h. induction hs as [|s hs IH]; intros h; cbn [sum_loop].
  - split; intros X; inversion X; subst; constructor.
  - unfold add_assign, unwrap. split.
    + destruct (add h s) as [[h1 [[]|e]]|] eqn:E; cbn [bind]; try discriminate. intros X. econstructor; eauto. apply IH; auto.
    + intros X. inversion X as [|a b c d f E Y]; subst. rewrite E. cbn [bind]. apply IH; auto.
Qed.
Lemma C57_sum_empty_proof : forall T, exists h, sum_hist T [] = Ret h /\ new T 3 = Ret (ROk h) /\ len h = 0 /\
  is_auto_resize h = true /\ sigfig h = 3.
Proof.
  intros T. assert (S3 : is_u8 3) by (vm_compute; split; discriminate).
  destruct (C04_new_proof T 3 S3) as [(_ & h & E & A & B & _ & _ & D)|(X & _)]; [|lia].
  exists h. unfold sum_hist. rewrite E. cbn [bind]. auto.
Qed.
(*EX
Example ex_C57_sum_empty : match sum_hist U16 [] with Ret h => match record h 123456 with Ret (h', ROk _) => count_at h' 123456 = Ret 1 | _ => False end | _ => False end.
Proof. vm_compute. auto. Qed.
EX*)
(** of histograms that share a configuration it never panics, whatever they hold below [u64::MAX]:
    counts add up (and stop at the largest the type holds), and so does [len] *)
Lemma C57_sum_same_config_proof : forall h hs, reachable h ->
  Forall (fun s => reachable s /\ h_ctr h = h_ctr s /\ same_config h s /\ max s <> Ret u64_max) hs ->
  exists h', sum_hist (h_ctr h) (h :: hs) = Ret h' /\ same_config h h' /\
    (forall w cs, is_u64 w -> covers h w -> Forall2 (fun s c => count_at s w = Ret c) (h :: hs) cs ->
       count_at h' w = Ret (Z.min (cmax (h_ctr h)) (fold_right Z.add 0 cs))) /\
    (Forall len_agrees hs -> len h' = Z.min u64_max (fold_right Z.add 0 (map len (h :: hs)))).
Proof.
  intros h hs R F. cbn [sum_hist]. revert h R F. induction hs as [|s hs IH]; intros h R F; cbn [sum_loop].
  - pose proof (reachable_wf h R) as W. exists h. split; auto. split; [split; [split|]; auto|]. split.
    + intros w cs U CV F2. inversion F2 as [|a c l l' EC F2' X Y]; subst. inversion F2'; subst. rewrite EC. f_equal. cbn.
      pose proof (C13_counts_in_type_proof h w c R U EC) as [X1 X2]. lia.
    + intros _. cbn. pose proof (w_total h W). unfold len. lia.
  - inversion F as [|a l (RS & CT & SC & NM) F' X]; subst. pose proof (reachable_wf h R) as W. pose proof (reachable_wf s RS) as WS.
    destruct (C16_same_config_proof h s R RS CT SC NM) as (h1 & E).
    pose proof (reach_add h s h1 _ R RS CT E) as R1.
    destruct (C14_add_counts_proof h s h1 R RS CT E) as (_ & _ & _ & CV1 & LO & SF & AU & _).
    assert (NM' : maxp s <> u64_max) by (rewrite max_ok in NM by auto; congruence).
    pose proof (add_keeps_bins h s h1 W WS CT SC NM' E) as KB.
    assert (C1 : h_ctr h1 = h_ctr h).
    { destruct (add_success h s h1 W WS CT E) as [(_ & ->)|(_ & AD & _)]; auto. apply (ss_ctr _ _ (ad_shape _ _ _ AD)). }
    assert (SC1 : same_config h h1). { split; [split; symmetry; auto|]. unfold distinct_values. change (zlen (h_counts h) = zlen (h_counts h1)). auto. }
    destruct (IH h1 R1) as (h' & ES & SC' & CN & LN).
    { eapply Forall_impl; [|exact F']. intros x (A1 & A2 & A3 & A4). split; auto. split; [congruence|]. split; auto.
      destruct A3 as [[A5 A6] A7]. destruct SC1 as [[A8 A9] A10]. split; [split|]; congruence. }
    exists h'. unfold add_assign, unwrap. rewrite E. cbn [bind]. split; auto. split.
    { destruct SC' as [[A5 A6] A7]. destruct SC1 as [[A8 A9] A10]. split; [split|]; congruence. }
    split.
    + intros w cs U CV F2. inversion F2 as [|a c l l' EC F2' X Y]; subst. inversion F2' as [|a c' l l'' EC' F2'' X Y]; subst.
      assert (CVS : covers s w). { apply covers_bin; auto. apply covers_bin in CV; auto. destruct SC as [SP DV].
        rewrite <- (same_precision_bin h s) by auto. unfold distinct_values in DV. lia. }
      pose proof (C14_add_same_precision_proof h s h1 w c c' R RS CT (proj1 SC) E U CV CVS EC EC') as EC1.
      rewrite (CN w (Z.min (cmax (h_ctr h)) (c + c') :: l'') U (CV1 w U CV)) by (constructor; auto).
      rewrite C1. f_equal. cbn [fold_right].
      assert (P : 0 <= fold_right Z.add 0 l'').
      { clear - F2'' U F'. revert F'. induction F2'' as [|x c l l' E F IH]; intros F'; [cbn; lia|]. cbn [fold_right].
        inversion F' as [|a b (A & _) F'' X]; subst. pose proof (C13_counts_in_type_proof x w c A U E) as [P _]. specialize (IH F''). lia. }
      lia.
    + intros FL. inversion FL as [|a l LA FL' X]; subst. rewrite (LN FL'). cbn [map fold_right].
      rewrite (C14_add_len_proof h s h1 R RS CT LA E).
      assert (P : 0 <= fold_right Z.add 0 (map len hs)).
      { clear - F'. induction F' as [|x l (A & _) F IH]; cbn; [lia|]. pose proof (w_total x (reachable_wf x A)). pose proof (zsum_nonneg _ (wf_nonneg x (reachable_wf x A))). unfold len, u64_max in *. lia. }
      lia.
Qed.
(*EX
Example ex_C57_sum : match build U8 1 100 2 false [(5, 200)], build U8 1 100 2 false [(5, 100); (90, 1)] with
  | Some a, Some b => reachable a /\ reachable b /\ same_config a b /\ match sum_hist U8 [a; b; b] with
      | Ret h => count_at h 5 = Ret 255 /\ count_at h 90 = Ret 2 /\ len h = 402
      | _ => False end
  | _, _ => False end.
Proof. case_of. Qed.
EX*)
(** switching auto-resize changes only that *)
Lemma C57_auto_proof : forall h b, reachable h ->
  is_auto_resize (auto h b) = b /\ held (auto h b) = held h /\ len (auto h b) = len h /\
  max (auto h b) = max h /\ min (auto h b) = min h /\ min_nz (auto h b) = min_nz h /\
  low (auto h b) = low h /\ high (auto h b) = high h /\ sigfig (auto h b) = sigfig h /\
  (forall v, count_at (auto h b) v = count_at h v) /\
  (forall v, is_u64 v -> (covers (auto h b) v <-> covers h v)).
Proof.
  intros h b R. pose proof (reachable_wf h R) as W. assert (WA : wf (auto h b)) by (apply set_auto_wf; auto).
  split; [reflexivity|]. split. { apply held_ext; auto. }
  repeat (split; [reflexivity|]). intros v U. rewrite !covers_bin by auto. reflexivity.
Qed.
(*EX
Example ex_C57_auto : match build U64 1 1000 1 false [(5, 3)] with
  | Some h => reachable h /\ is_auto_resize (auto h true) = true /\ held (auto h true) = [(5, 3)] /\ ~ covers (auto h true) 5000 /\
      record h 5000 = Ret (h, RErr ValueOutOfRangeResizeDisabled) /\ match record (auto h true) 5000 with Ret (h', ROk _) => len h' = 4 | _ => False end
  | None => False end.
Proof. case_of. Qed.
EX*)
