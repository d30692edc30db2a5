(** * What one call on a recorder does to its local histogram *)
From Verif Require Import Machine Log2Model HistModel FloatModel IterModel Bins ListZ Cfg Wf Ops AddFacts SubFacts Exact
  MoreFacts Spec IterSpec IterFacts Reach HeldFacts PfRecord PfMerge PfIter SyncModel SyncSpec.

(** ** Without auto-resize the range stays as it is *)
Definition fixed (h h' : hist) : Prop := h_auto h = false -> h_auto h' = false /\ h_high h' = h_high h.
Lemma fixed_refl h : fixed h h.
Proof. intros A; auto. Qed.
Lemma fixed_trans a b c : fixed a b -> fixed b c -> fixed a c.
Proof. intros F G A. destruct (F A) as [A1 A2]. destruct (G A1). split; congruence. Qed.

Ltac binds H := repeat match type of H with
  | bind ?m _ = Ret _ => let E := fresh "E" in destruct m eqn:E; cbn [bind] in H; [|discriminate]
  | (let (_, _) := ?p in _) = _ => destruct p
  | (match ?r with ROk _ => _ | RErr _ => _ end) = _ => destruct r
  | (if ?b then _ else _) = _ => destruct b eqn:?
  end.

Lemma update_max_keeps h v : h_auto (update_max h v) = h_auto h /\ h_high (update_max h v) = h_high h.
Proof. unfold update_max. destruct (_ <? _); auto. Qed.
Lemma update_min_keeps h v : h_auto (update_min h v) = h_auto h /\ h_high (update_min h v) = h_high h.
Proof. unfold update_min. repeat (match goal with |- context [if ?b then _ else _] => destruct b end; auto). Qed.
Lemma update_keeps h v : h_auto (update_min_max h v) = h_auto h /\ h_high (update_min_max h v) = h_high h.
Proof.
  unfold update_min_max. cbn zeta.
  assert (X : h_auto (if h_max h <? v then update_max h v else h) = h_auto h /\
    h_high (if h_max h <? v then update_max h v else h) = h_high h) by (destruct (_ <? _); auto using update_max_keeps).
  destruct (_ && _); auto. destruct X as [X1 X2]. rewrite <- X1, <- X2. apply update_min_keeps.
Qed.
Lemma update_fixed h v n c : fixed h (set_total (update_min_max (set_counts h v) n) c).
Proof.
  intros A. destruct (update_keeps (set_counts h v) n) as [A1 A2]. hsimp. rewrite A1, A2. auto.
Qed.
Lemma record_inner_fixed h v n b h' r : record_n_inner h v n b = Ret (h', r) -> fixed h h'.
Proof.
  intros E A. unfold record_n_inner in E. destruct (mut_at h v) as [slot|]; cbn [bind] in E; [|discriminate].
  destruct slot as [i|].
  - destruct (expect _); cbn [bind] in E; [|discriminate]. injection E as <- _. apply update_fixed; auto.
  - destruct b.
    + destruct (mut_at h _) as [slot'|]; cbn [bind] in E; [|discriminate].
      destruct (expect slot') as [i|]; cbn [bind] in E; [|discriminate].
      destruct (expect (vget (h_counts h) i)); cbn [bind] in E; [|discriminate].
      injection E as <- _. apply update_fixed; auto.
    + rewrite A in E. cbn [negb bind] in E. injection E as <- _. auto.
Qed.
Lemma correct_loop_fixed fuel : forall h v n i h' r, correct_loop fuel h v n i = Ret (h', r) -> fixed h h'.
Proof.
  induction fuel as [|f IH]; intros h v n i h' r E; cbn [correct_loop] in E.
  - destruct (i <=? v); [discriminate|]. injection E as <- _. apply fixed_refl.
  - destruct (i <=? v); [|injection E as <- _; apply fixed_refl].
    destruct (record_n_inner h v n false) as [[h1 r1]|] eqn:E1; cbn [bind] in E; [|discriminate].
    apply record_inner_fixed in E1. destruct r1.
    + destruct (u64_sub v i); cbn [bind] in E; [|discriminate]. apply IH in E. eapply fixed_trans; eauto.
    + injection E as <- _. auto.
Qed.
Lemma correct_fixed h v n i h' r : record_n_correct h v n i = Ret (h', r) -> fixed h h'.
Proof.
  unfold record_n_correct, record_n. intros E.
  destruct (record_n_inner h v n false) as [[h1 r1]|] eqn:E1; cbn [bind] in E; [|discriminate].
  apply record_inner_fixed in E1. destruct r1; [|injection E as <- _; auto].
  destruct (i =? 0); [injection E as <- _; auto|]. destruct (i <? v); [|injection E as <- _; auto].
  destruct (u64_sub v i); cbn [bind] in E; [|discriminate]. apply correct_loop_fixed in E. eapply fixed_trans; eauto.
Qed.
Lemma items_fixed xs : forall h i h' r, correct_items h xs i = Ret (h', r) -> fixed h h'.
Proof.
  induction xs as [|x xs IH]; intros h i h' r E; cbn [correct_items] in E.
  - injection E as <- _. apply fixed_refl.
  - destruct (record_n_correct h _ _ i) as [[h1 r1]|] eqn:E1; cbn [bind] in E; [|discriminate].
    apply correct_fixed in E1. destruct r1; [apply IH in E; eapply fixed_trans; eauto|injection E as <- _; auto].
Qed.
Lemma rerecord_fixed s cs : forall h i h', add_rerecord h s cs i = Ret h' -> fixed h h'.
Proof.
  induction cs as [|c cs IH]; intros h i h' E; cbn [add_rerecord] in E.
  - injection E as <-. apply fixed_refl.
  - destruct (c =? 0); [eauto|]. destruct (value_for s i) as [v|]; cbn [bind] in E; [|discriminate].
    unfold record_n in E. destruct (record_n_inner h v c false) as [[h1 r1]|] eqn:E1; cbn [bind] in E; [|discriminate].
    apply record_inner_fixed in E1. destruct r1; [|discriminate]. apply IH in E. eapply fixed_trans; eauto.
Qed.
Lemma add_fixed h s h' r : add h s = Ret (h', r) -> fixed h h'.
Proof.
  intros E A. unfold add in E. destruct (is_empty s); [injection E as <- _; auto|].
  destruct (last_index h) as [li|]; cbn [bind] in E; [|discriminate].
  destruct (value_for h li) as [vl|]; cbn [bind] in E; [|discriminate].
  destruct (highest_equivalent h vl) as [top|]; cbn [bind] in E; [|discriminate].
  destruct (max s) as [mx|] eqn:EM; cbn [bind] in E; [|discriminate].
  rewrite A in E. cbn [negb] in E. destruct (top <? mx); [injection E as <- _; auto|].
  destruct (add_body h s) as [h2|] eqn:EB; cbn [bind] in E; [|discriminate].
  injection E as <- _. clear - A EB. unfold add_body in EB.
  destruct (_ && is_empty h).
  { destruct (assert _); cbn [bind] in EB; [|discriminate]. injection EB as <-. hsimp. auto. }
  destruct (_ && _).
  - destruct (add_aligned _ _ _ _) as [[cs ob]|]; cbn [bind] in EB; [|discriminate].
    destruct (max s) as [mx|]; cbn [bind] in EB; [|discriminate].
    destruct (max _) as [m2|]; cbn [bind] in EB; [|discriminate].
    destruct (min_nz s) as [mn|]; cbn [bind] in EB; [|discriminate].
    destruct (min_nz _) as [n3|]; cbn [bind] in EB; [|discriminate].
    injection EB as <-. match goal with |- context [update_min ?x mn] => assert (X : h_auto x = false /\ h_high x = h_high h) end.
    { destruct (m2 <? mx); [|auto]. match goal with |- context [update_max ?x mx] => destruct (update_max_keeps x mx) as [X1 X2]; rewrite X1, X2; auto end. }
    destruct (mn <? n3); [|exact X]. match goal with |- context [update_min ?x mn] => destruct (update_min_keeps x mn) as [X1 X2]; rewrite X1, X2; auto end.
  - destruct (max s) as [mx|]; cbn [bind] in EB; [|discriminate].
    destruct (index_for s mx) as [oi|]; cbn [bind] in EB; [|discriminate].
    destruct (expect oi) as [k|]; cbn [bind] in EB; [|discriminate].
    destruct (expect (count_at_index s k)) as [c|]; cbn [bind] in EB; [|discriminate].
    destruct (value_for s k) as [v|]; cbn [bind] in EB; [|discriminate].
    unfold record_n in EB. destruct (record_n_inner h v c false) as [[h1 r1]|] eqn:E1; cbn [bind] in EB; [|discriminate].
    apply record_inner_fixed in E1. destruct r1; [|discriminate]. apply rerecord_fixed in EB.
    apply (fixed_trans h h1); auto.
Qed.

(** ** Every call returns, and yields a histogram of the same kind *)
Lemma rec_many_shape h l h' : rec_many h l h' -> same_shape h h'.
Proof. intros R. apply (ra_shape _ _ _ (rec_many_all _ _ _ R)). Qed.

Lemma op_facts h o : reachable h -> op_ok (h_ctr h) o ->
  exists h' ok, apply_op h o = Ret (h', ok) /\ reachable h' /\ same_shape h h' /\ fixed h h'.
Proof.
  intros R K. pose proof (reachable_wf h R) as W. destruct o as [v n|v n|v n i|s|s|s i]; cbn [op_ok apply_op] in *.
  - destruct K as [V N].
    destruct (record_n_cases h v n W V N) as [(h' & E & D)|(E & _)]; rewrite E; cbn [bind]; do 2 eexists; (split; [reflexivity|]).
    + split; [apply (reach_record_n h v n h' (ROk tt)); auto|]. split; [apply D|]. eapply record_inner_fixed; eauto.
    + split; auto. split; [apply same_shape_refl|apply fixed_refl].
  - destruct K as [V N]. destruct (saturating_ok h v n W V N) as (h' & E & D & HH & _). rewrite E; cbn [bind]. do 2 eexists. split; [reflexivity|].
    split; [eapply reach_saturating; eauto|]. split; [apply D|]. intros A. split; auto. rewrite (ss_auto _ _ (rd_shape _ _ _ _ D)). auto.
  - destruct K as (V & N & I). destruct (record_n_correct_ok h v n i W V N I) as [(h' & E & D)|(E & _)]; rewrite E; cbn [bind];
      do 2 eexists; (split; [reflexivity|]).
    + split; [apply (reach_correct h v n i h' (ROk tt)); auto|]. split; [eapply rec_many_shape; eauto|]. eapply correct_fixed; eauto.
    + split; auto. split; [apply same_shape_refl|apply fixed_refl].
  - destruct K as [RS CT]. pose proof (reachable_wf s RS) as WS.
    destruct (add_ok h s W WS (eq_sym CT)) as [(_ & E)|[(_ & _ & _ & E)|(_ & _ & h' & E & D & _)]];
      pose proof E as E'; rewrite E'; cbn [bind]; do 2 eexists; (split; [reflexivity|]).
    + split; auto. split; [apply same_shape_refl|apply fixed_refl].
    + split; auto. split; [apply same_shape_refl|apply fixed_refl].
    + split; [apply (reach_add h s h' (ROk tt)); auto|]. split; [apply D|]. eapply add_fixed; eauto.
  - destruct K as [RS CT]. pose proof (reachable_wf s RS) as WS.
    destruct (subtract_ok h s W WS (eq_sym CT)) as [(_ & E)|[(_ & _ & E)|[(_ & _ & _ & h' & E & W' & SK & _)|(_ & _ & _ & h' & E & D)]]];
      pose proof E as E'; rewrite E'; cbn [bind]; do 2 eexists; (split; [reflexivity|]).
    + split; auto. split; [apply same_shape_refl|apply fixed_refl].
    + split; auto. split; [apply same_shape_refl|apply fixed_refl].
    + split; [eapply (reach_subtract h s h' _ R RS (eq_sym CT) E)|]. split; [apply SK|]. intros A. rewrite (sk_high _ _ SK), (ss_auto _ _ (sk_shape _ _ SK)). auto.
    + split; [apply (reach_subtract h s h' (ROk tt)); auto|]. split; [apply D|]. intros A.
      rewrite (su_high _ _ _ D), (ss_auto _ _ (su_shape _ _ _ D)). auto.
  - destruct K as (RS & CT & I).
    destruct (C53_add_correct_proof h s i R RS (eq_sym CT) I) as [(h' & E & D)|(h' & e & l1 & v & n & l2 & t & E & _ & D & _)];
      pose proof E as E'; rewrite E'; cbn [bind]; do 2 eexists; (split; [reflexivity|]).
    all: split; [exact (records_reachable h _ h' R D)|].
    all: split; [exact (rec_many_shape _ _ _ (records_many h _ h' W D))|].
    all: unfold add_correct in E; destruct (recorded_items s) as [xs|]; cbn [bind] in E; [|discriminate].
    all: exact (items_fixed _ _ _ _ _ E).
Qed.
Lemma op_reach h o h' ok : reachable h -> op_ok (h_ctr h) o -> apply_op h o = Ret (h', ok) ->
  reachable h' /\ same_shape h h' /\ fixed h h'.
Proof. intros R K E. destruct (op_facts h o R K) as (h1 & ok1 & E1 & F). rewrite E1 in E. injection E as <- <-. exact F. Qed.

(** the empty histogram that takes the place of a full one *)
Lemma new_from_reach h : reachable h -> exists n, new_from (h_ctr h) h = Ret n /\ reachable n /\ same_shape h n /\
  h_high n = h_high h /\ h_total n = 0 /\ (forall i, 0 <= i -> zn (h_counts n) i = 0).
Proof.
  intros R. pose proof (reachable_wf h R) as W. pose proof (w_cfg h W) as C. pose proof (w_size h W) as SZ.
  pose proof (new_from_ok (h_ctr h) h C SZ) as E. eexists. split; [exact E|]. split; [eapply reach_new_from; eauto|].
  split; [constructor; hsimp; auto|split; [reflexivity|split; [reflexivity|]]].
  - change (log2_floor_f64 (h_low h) = h_um h). symmetry. apply (c_um h C).
  - change (Z.log2_up (2 * 10 ^ h_sigfig h) - 1 = h_half_mag h). symmetry. apply (c_m h C).
  - intros i I. apply fresh_zero; auto.
Qed.

(** ** Counting samples *)
Lemma zsum_wtotal f cs l : (forall j, 0 <= j -> zn cs j = wsum f j l) -> Forall (fun p => 0 <= f (fst p)) l -> zsum cs = wtotal l.
Proof.
  intros E F.
  assert (BND : exists N, zlen cs <= N /\ Forall (fun p => f (fst p) < N) l).
  { clear E. induction F as [|[v n] l P F IH].
    - exists (zlen cs). split; [lia|constructor].
    - destruct IH as (N & L & G). exists (Z.max N (f v + 1)). split; [lia|]. constructor; [cbn [fst]; lia|].
      eapply Forall_impl; [|exact G]. cbn beta. intros; lia. }
  destruct BND as (N & L & G). rewrite <- (zpre_all cs N L).
  assert (N0 : 0 <= N) by (pose proof (zlen_nonneg cs); lia).
  assert (A : forall k, 0 <= k -> zpre cs k = wtotal (filter (fun p => f (fst p) <? k) l)).
  { intros k K. pattern k. apply natlike_ind; auto.
    - rewrite zpre_0. clear - F. induction F as [|[v n] l P F IH]; auto. cbn [filter fst] in *. destruct (Z.ltb_spec (f v) 0); [lia|auto].
    - intros x X IH. rewrite <- Z.add_1_r, zpre_succ, IH, E by auto. clear - X F.
      induction F as [|[v n] l P F IH]; auto. cbn [filter wsum fst] in *.
      destruct (Z.ltb_spec (f v) x); destruct (Z.eqb_spec (f v) x); destruct (Z.ltb_spec (f v) (x + 1)); cbn [wtotal]; lia. }
  rewrite A by auto. f_equal. clear - G. induction G as [|[v n] l P G IH]; auto. cbn [filter fst] in *.
  destruct (Z.ltb_spec (f v) N); [|lia]. f_equal; auto.
Qed.

Definition log_ok (T : counter) (l : list call) : Prop := Forall (fun c => op_ok T (c_op c)) l.
Lemma call_samples_ok T c : op_ok T (c_op c) -> Forall (fun p => u64 (fst p) /\ 0 <= snd p) (call_samples c).
Proof.
  unfold call_samples. destruct (c_ok c); [|constructor]. destruct (c_op c) as [v n|v n|v n i|s|s|s i]; cbn [op_ok]; intros K; auto.
  - destruct K as [V N]. constructor; [|constructor]. cbn [fst snd]. unfold is_count in N. split; [exact V|lia].
  - destruct K as (V & N & I). unfold is_count in N. constructor; [cbn [fst snd]; split; [exact V|lia]|].
    apply Forall_forall. intros p P. apply in_map_iff in P. destruct P as (x & <- & P). cbn [fst snd].
    destruct (Z.eq_dec i 0) as [->|NZ]; [destruct P|].
    apply C12_missing_values_proof in P; [|apply V|unfold is_u64 in I; lia].
    destruct P as (k & K1 & -> & K3). unfold is_u64, u64 in *. split; nia.
  - destruct K as [RS CT]. pose proof (reachable_wf s RS) as WS. rewrite held_contents by auto.
    pose proof (contents_u64 s WS) as CU. pose proof (contents_nonneg s WS) as CN. rewrite Forall_forall in *. auto.
Qed.
Lemma samples_ok T l : log_ok T l -> Forall (fun p => u64 (fst p) /\ 0 <= snd p) (samples l).
Proof.
  induction 1 as [|c l C F IH]; cbn; [constructor|]. apply Forall_app. split; auto. eapply call_samples_ok; eauto.
Qed.
Lemma samples_app a b : samples (a ++ b) = samples a ++ samples b.
Proof. apply flat_map_app. Qed.

Section CONTENT.
Variable h0 : hist.
Variables (z0 : Z -> Z) (t0 : Z).
Definition fits (l : list (Z * Z)) : Prop :=
  (forall j, 0 <= j -> z0 j + wsum (bin h0) j l <= cmax (h_ctr h0)) /\ t0 + wtotal l <= u64_max.
Definition content (h : hist) (l : list (Z * Z)) : Prop :=
  fits l -> (forall j, 0 <= j -> zn (h_counts h) j = z0 j + wsum (bin h0) j l) /\ h_total h = t0 + wtotal l.

Lemma fits_app a b : Forall (fun p => u64 (fst p) /\ 0 <= snd p) b -> fits (a ++ b) -> fits a.
Proof.
  intros F [F1 F2].
  assert (N : Forall (fun p => 0 <= snd p) b) by (eapply Forall_impl; [|exact F]; cbn beta; tauto). split.
  - intros j J. specialize (F1 j J). rewrite wsum_app in F1. pose proof (wsum_nonneg (bin h0) j b N). lia.
  - rewrite wtotal_app in F2. pose proof (wtotal_nonneg b N). lia.
Qed.
Lemma content_all h l x h' : same_shape h0 h -> Forall (fun p => u64 (fst p) /\ 0 <= snd p) x ->
  recorded_all h x h' -> content h l -> content h' (l ++ x).
Proof.
  intros S F R C FT. destruct (C (fits_app _ _ F FT)) as [C1 C2]. destruct FT as [F1 F2]. split.
  - intros j J. rewrite (ra_cnt _ _ _ R) by auto. rewrite C1 by auto. specialize (F1 j J). rewrite wsum_app in *.
    rewrite (wsum_ext (bin h) (bin h0)) by (intros; apply same_shape_bin; auto). rewrite (ss_ctr _ _ S). lia.
  - rewrite (ra_total _ _ _ R), C2. rewrite wtotal_app in *. lia.
Qed.
Lemma content_added h l s h' : same_shape h0 h -> wf s ->
  h_total s = zsum (h_counts s) -> added h s h' -> content h l -> content h' (l ++ contents s).
Proof.
  intros S W T A C FT.
  assert (F : Forall (fun p => u64 (fst p) /\ 0 <= snd p) (contents s)).
  { pose proof (contents_u64 s W) as CU. pose proof (contents_nonneg s W) as CN. rewrite Forall_forall in *. auto. }
  destruct (C (fits_app _ _ F FT)) as [C1 C2]. destruct FT as [F1 F2]. split.
  - intros j J. rewrite (ad_cnt _ _ _ A) by auto. rewrite C1 by auto. specialize (F1 j J). rewrite wsum_app in *.
    rewrite (wsum_ext (bin h) (bin h0)) by (intros; apply same_shape_bin; auto). rewrite (ss_ctr _ _ S). lia.
  - pose proof (w_total s W). rewrite wtotal_app, wtotal_contents in *. rewrite (ad_total _ _ _ A), C2 by lia. lia.
Qed.
Lemma content_eq h l l' : (forall j, 0 <= j -> wsum (bin h0) j l = wsum (bin h0) j l') -> wtotal l = wtotal l' ->
  content h l -> content h l'.
Proof.
  intros E T C [F1 F2]. destruct C as [C1 C2].
  - split; [|rewrite T; auto]. intros j J. rewrite E by auto. auto.
  - split; [|rewrite <- T; auto]. intros j J. rewrite <- E by auto. auto.
Qed.
Definition adds_op (o : op) : Prop :=
  match o with ORecord _ _ | OCorrect _ _ _ => True | OAdd s => len_agrees s | _ => False end.
Lemma op_content h l o h' ok c : reachable h -> same_shape h0 h -> op_ok (h_ctr h) o -> adds_op o ->
  apply_op h o = Ret (h', ok) -> c_op c = o -> c_ok c = ok -> content h l -> content h' (l ++ call_samples c).
Proof.
  intros R S K AD E CO CK C. pose proof (reachable_wf h R) as W.
  pose proof (call_samples_ok (h_ctr h) c) as CF. rewrite CO in CF. specialize (CF K).
  unfold call_samples in *. rewrite CO, CK in *. destruct o as [v n|v n|v n i|s|s|s i]; cbn [op_ok apply_op adds_op] in *; try contradiction.
  - destruct K as [V N]. destruct (record_n_cases h v n W V N) as [(h1 & E1 & D)|(E1 & _)]; rewrite E1 in E; cbn [bind] in E; injection E as <- <-.
    + apply (content_all h); auto. apply rec_many_all. econstructor; eauto; [unfold is_count in N; lia|]. constructor. apply D.
    + rewrite app_nil_r. auto.
  - destruct K as (V & N & I). destruct (C12_correction_proof h v n i R V N I) as [(h1 & E1 & D)|(E1 & e & E2)].
    + rewrite E1 in E. cbn [bind] in E. injection E as <- <-. apply (content_all h); auto. apply rec_many_all, records_many; auto.
    + rewrite E1, E2 in E. cbn [bind] in E. injection E as <- <-. rewrite app_nil_r. auto.
  - destruct K as [RS CT]. pose proof (reachable_wf s RS) as WS. apply len_agrees_iff in AD; auto.
    destruct (add_ok h s W WS (eq_sym CT)) as [(EM & E1)|[(_ & _ & _ & E1)|(_ & _ & h1 & E1 & D & _)]]; rewrite E1 in E; cbn [bind] in E; injection E as <- <-.
    + rewrite empty_held by auto. rewrite app_nil_r. auto.
    + rewrite app_nil_r. auto.
    + rewrite held_contents by auto. apply (content_added h); auto.
Qed.
End CONTENT.

Lemma shape_bin_ext h0 h j l : same_shape h0 h -> wsum (bin h) j l = wsum (bin h0) j l.
Proof. intros S. apply wsum_ext. intros. apply same_shape_bin; auto. Qed.

Lemma merge_content h0 z0 t0 m lm s ls h' : (forall j, 0 <= j -> 0 <= z0 j) -> 0 <= t0 ->
  reachable m -> reachable s -> same_shape h0 m -> same_shape h0 s ->
  Forall (fun p => u64 (fst p) /\ 0 <= snd p) ls -> Forall (fun p => u64 (fst p) /\ 0 <= snd p) lm ->
  add m s = Ret (h', ROk tt) -> content h0 z0 t0 m lm -> content h0 (fun _ => 0) 0 s ls ->
  content h0 z0 t0 h' (lm ++ ls).
Proof.
  intros Z0 T0 RM RS SM SS FS FM E CM CS FT.
  pose proof (reachable_wf m RM) as WM. pose proof (reachable_wf s RS) as WS.
  assert (CT : h_ctr m = h_ctr s) by (rewrite (ss_ctr _ _ SM), (ss_ctr _ _ SS); auto).
  assert (NS : Forall (fun p => 0 <= snd p) ls) by (eapply Forall_impl; [|exact FS]; cbn beta; tauto).
  assert (NM : Forall (fun p => 0 <= snd p) lm) by (eapply Forall_impl; [|exact FM]; cbn beta; tauto).
  assert (FS0 : fits h0 (fun _ => 0) 0 ls).
  { destruct FT as [F1 F2]. split.
    - intros j J. specialize (F1 j J). rewrite wsum_app in F1. pose proof (wsum_nonneg (bin h0) j lm NM). specialize (Z0 j J). lia.
    - rewrite wtotal_app in F2. pose proof (wtotal_nonneg lm NM). lia. }
  destruct (CS FS0) as [S1 S2].
  assert (SZ : zsum (h_counts s) = wtotal ls).
  { apply (zsum_wtotal (bin h0)); [intros; apply S1; auto|]. eapply Forall_impl; [|exact FS]. cbn beta. intros [v n] [V _].
    cbn [fst] in *. rewrite <- (same_shape_bin _ _ v SS). apply bin_nonneg; [apply w_cfg; auto|apply V]. }
  destruct (add_success m s h' WM WS CT E) as [(EM & ->)|(EM & AD & _)].
  - unfold is_empty in EM. assert (T : wtotal ls = 0) by lia.
    assert (ZZ : forall j, 0 <= j -> wsum (bin h0) j ls = 0).
    { intros j J. pose proof (S1 j J). rewrite T in SZ. pose proof (zn_le_zsum (h_counts s) j (wf_nonneg s WS)).
      pose proof (zn_nonneg (h_counts s) j (wf_nonneg s WS)). lia. }
    revert FT. apply (content_eq h0 z0 t0 m lm); auto.
    + intros j J. rewrite wsum_app, ZZ by auto. lia.
    + rewrite wtotal_app. lia.
  - revert FT. apply (content_eq h0 z0 t0 h' (lm ++ contents s)).
    + intros j J. rewrite !wsum_app. f_equal. rewrite <- (shape_bin_ext h0 s) by auto. rewrite wsum_contents by auto. rewrite S1 by auto. reflexivity.
    + rewrite !wtotal_app, wtotal_contents. lia.
    + apply (content_added h0 z0 t0 m); auto. lia.
Qed.
