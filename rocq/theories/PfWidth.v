(** * Proofs of the properties about targets with another [usize] (C80, C81) *)
(*PROPS-IMPORTS Machine HistModel Spec Reach Witness Cases CasesSer FloatModel IterModel SerModel SerSpec WidthModel WidthSpec *)
(*PROPS-HEADER
From Coq Require Import Lia.

Ltac width_leaf :=
  lazymatch goal with
  | |- addressable _ _ => vm_compute; discriminate
  | |- too_many_bins _ _ => vm_compute; discriminate
  | |- ~ _ => let X := fresh in vm_compute; intros X; apply X; reflexivity
  | |- declares _ _ _ => left; eexists; reflexivity
  | |- _ => ser_leaf
  end.
Ltac width_case :=
  repeat first [case_match | lazymatch goal with |- (let x := _ in _) => cbv zeta end | lazymatch goal with |- _ /\ _ => split end]; width_leaf.
PROPS-HEADER*)
From Verif Require Import Machine Log2Model FloatModel HistModel IterModel SerModel Spec Reach WidthModel WidthSpec WidthFacts WidthWf WidthAdd WidthSer WidthDe
  ListZ Bins Log2Facts Cfg Wf Ops MoreFacts SerSpec SerFacts SerCode SerDecode SerRest Witness HeldFacts IterBins PfIter PfSer.
From Coq Require Import ZifyBool ZifyNat.

Lemma allowed_cases w h : 1 <= w ->
  (addressable w h -> allowed w h = Ret (Some h)) /\ (too_many_bins w h -> allowed w h = Ret None) /\
  (~ addressable w h -> ~ too_many_bins w h -> allowed w h = Panic).
Proof.
  intros W. split; [apply allowed_addressable; auto|]. unfold too_many_bins, allowed, usize_max_w. split.
  - intros T. destruct (Z.leb_spec (distinct_values h) (2 ^ w - 1)); [lia|reflexivity].
  - intros A T. destruct (Z.leb_spec (distinct_values h) (2 ^ w - 1)); [|lia].
    unfold vec_fits_w, isize_max_w, addressable in *. destruct (Z.leb_spec (size_of (h_ctr h) * distinct_values h) (2 ^ (w - 1) - 1)); [lia|reflexivity].
Qed.

(** ** C80.  With a [usize] of any width, a constructor rejects the same parameters for the same reasons as
    with 64 bits.  It returns the same histogram if the array of counts can be allocated.  It returns
    [UsizeTypeTooSmall] if the number of bins does not fit a [usize], and panics in between *)
Lemma C80_create_proof : forall w T lo hi sf, 1 <= w -> is_u64 lo -> is_u64 hi -> is_u8 sf ->
  (forall e, new_with_bounds T lo hi sf = Ret (RErr e) -> new_with_bounds_w w T lo hi sf = Ret (RErr e)) /\
  (forall h, new_with_bounds T lo hi sf = Ret (ROk h) ->
     (addressable w h -> new_with_bounds_w w T lo hi sf = Ret (ROk h)) /\
     (too_many_bins w h -> new_with_bounds_w w T lo hi sf = Ret (RErr CreateUsizeTypeTooSmall)) /\
     (~ addressable w h -> ~ too_many_bins w h -> new_with_bounds_w w T lo hi sf = Panic)).
Proof.
  intros w T lo hi sf W _ _ _. rewrite new_with_bounds_w_eq. split.
  - intros e ->. reflexivity.
  - intros h ->. cbn [bind created_w]. destruct (allowed_cases w h W) as (A & B & C).
    split; [intros X; rewrite (A X); reflexivity|]. split; [intros X; rewrite (B X); reflexivity|]. intros X Y; rewrite (C X Y); reflexivity.
Qed.

(*EX
(** 1792 bins of 8 bytes with 16 bits; 7424 bins with 8 bits; 7424 bins of 8 bytes with 16 bits *)
Example ex_C80_create :
  (match new_with_bounds U64 1 1000000 2 with
   | Ret (ROk h) => size_of U64 * distinct_values h = 14336 /\ addressable 16 h /\
       match new_with_bounds_w 16 U64 1 1000000 2 with Ret (ROk k) => distinct_values k = 1792 | _ => False end
   | _ => False end) /\
  (match new_with_bounds U8 1 u64_max 2 with
   | Ret (ROk h) => distinct_values h = 7424 /\ too_many_bins 8 h
   | _ => False end) /\
  new_with_bounds_w 8 U8 1 u64_max 2 = Ret (RErr CreateUsizeTypeTooSmall) /\
  (match new_with_bounds U64 1 u64_max 2 with
   | Ret (ROk h) => ~ addressable 16 h /\ ~ too_many_bins 16 h
   | _ => False end) /\
  new_with_bounds_w 16 U64 1 u64_max 2 = Panic.
Proof. width_case. Qed.
EX*)
(** *)
Lemma new_w_of w T sf : new_w w T sf = (r <- new T sf ;; created_w w r).
Proof. apply new_w_eq. Qed.

(** ... and so do [new] and [new_with_max] *)
Lemma C80_create_default_proof : forall w T hi sf, 1 <= w -> is_u64 hi -> is_u8 sf ->
  new_with_max_w w T hi sf = new_with_bounds_w w T 1 hi sf /\
  (forall e, new T sf = Ret (RErr e) -> new_w w T sf = Ret (RErr e)) /\
  (forall h, new T sf = Ret (ROk h) ->
     (addressable w h -> new_w w T sf = Ret (ROk h)) /\
     (too_many_bins w h -> new_w w T sf = Ret (RErr CreateUsizeTypeTooSmall)) /\
     (~ addressable w h -> ~ too_many_bins w h -> new_w w T sf = Panic)).
Proof.
  intros w T hi sf W _ _. split; [reflexivity|]. rewrite new_w_of. split.
  - intros e ->. reflexivity.
  - intros h ->. cbn [bind created_w]. destruct (allowed_cases w h W) as (A & B & C).
    split; [intros X; rewrite (A X); reflexivity|]. split; [intros X; rewrite (B X); reflexivity|]. intros X Y; rewrite (C X Y); reflexivity.
Qed.

(*EX
Example ex_C80_create_default :
  match new U64 2, new_w 16 U64 2 with
  | Ret (ROk h), Ret (ROk k) => addressable 16 h /\ h = k /\ distinct_values k = 256
  | _, _ => False end.
Proof. width_case. Qed.
EX*)
(** recording with a [usize] of any width, into a histogram that could be allocated: the result is that of
    64 bits, if it can be allocated.  Otherwise it is [ResizeFailedUsizeTypeTooSmall] and the histogram is
    as before, or a panic *)
Lemma C80_record_proof : forall w h v n, 1 <= w -> reachable h -> is_u64 v -> is_count (h_ctr h) n -> addressable w h ->
  forall h' r, record_n h v n = Ret (h', r) ->
    (addressable w h' -> record_n_w w h v n = Ret (h', r)) /\
    (too_many_bins w h' -> record_n_w w h v n = Ret (h, RErr RecordResizeFailedUsizeTypeTooSmall)) /\
    (~ addressable w h' -> ~ too_many_bins w h' -> record_n_w w h v n = Panic).
Proof.
  unfold is_u64, is_count. intros w h v n W R V N A h' r E. pose proof (reachable_wf h R) as WF.
  rewrite record_n_w_ok by auto. rewrite E.
  destruct r as [[]|e].
  - destruct (allowed_cases w h' W) as (P & Q & S).
    split; [intros X; rewrite (P X); reflexivity|]. split; [intros X; rewrite (Q X); reflexivity|]. intros X Y; rewrite (S X Y); reflexivity.
  - assert (h' = h) as ->.
    { unfold record_n in E. rewrite record_n_inner_ok in E by (auto; apply WF).
      destruct (_ <? _); [inversion E|]. destruct (h_auto h); inversion E; auto. }
    split; auto. split.
    + intros T. exfalso. unfold too_many_bins, addressable in *. pose proof (size_of_range (h_ctr h)).
      pose proof (imax_umax w W) as IU. unfold isize_max_w, usize_max_w in IU. unfold distinct_values, zlen in *. nia.
    + intros X. contradiction.
Qed.

(*EX
(** a histogram of bytes without significant digits, of 3 bins, needs 11 for the value 1000: with 8 bits it
    takes it, with 3 bits (a [usize] is at most 7) it returns the error, with 4 bits (an array has at most
    7 bytes) it panics *)
Example ex_C80_record :
  match build U8 1 2 0 true [(1, 1)] with
  | Some h => reachable h /\ addressable 8 h /\ addressable 3 h /\ distinct_values h = 3 /\
      record_n_w 3 h 1000 1 = Ret (h, RErr RecordResizeFailedUsizeTypeTooSmall) /\ record_n_w 4 h 1000 1 = Panic /\
      match record_n h 1000 1, record_n_w 8 h 1000 1 with
      | Ret (h1, ROk _), Ret (h2, ROk _) => h1 = h2 /\ addressable 8 h1 /\ too_many_bins 3 h1 /\
          ~ addressable 4 h1 /\ ~ too_many_bins 4 h1
      | _, _ => False end
  | None => False end.
Proof. width_case. Qed.
EX*)
(** *)
Lemma iter_new_any w h {P} (p : P) : 1 <= w -> wf h -> addressable w h -> iter_new_w w h p = iter_new h p.
Proof.
  intros W1 W A. pose proof (w_cfg h W) as C. pose proof (w_size h W) as S.
  pose proof (f_len _ _ (addressable_fits w h W1 C S A)) as FL. unfold distinct_values in FL.
  pose proof (coded_facts h W) as (B & _).
  unfold iter_new_w, iter_new. rewrite max_ok by auto. cbn [bind]. rewrite index_for_w_eq.
  rewrite index_for_ok by (auto; apply maxp_u64; auto). fold (bin h (maxp h)). rewrite (bin_maxp h W). cbn [bind].
  unfold to_usize_w. replace (_ && _) with true by lia. reflexivity.
Qed.

Lemma collect_any w h {P} (pk pk' : picker P) n st (m : res (iter P)) : 1 <= w -> wf h -> addressable w h ->
  (fits w h -> same_picker h pk pk') -> iter_new h st = m ->
  (it <- iter_new_w w h st ;; iter_collect_w w n pk h it) = (it <- m ;; iter_collect n pk' h it).
Proof.
  intros W1 W A Q <-. pose proof (w_cfg h W) as C. pose proof (w_size h W) as S.
  pose proof (addressable_fits w h W1 C S A) as F.
  rewrite iter_new_any by auto. bc. apply iter_new_index in E. apply iter_collect_w_eq; auto.
  rewrite E. unfold distinct_values, zlen. lia.
Qed.

(** every query gives the answer of 64 bits, whatever the width, if the array of counts could be allocated *)
Lemma C80_query_proof : forall w h, 1 <= w -> reachable h -> addressable w h ->
  (forall v, count_at_w w h v = count_at h v) /\
  (forall a b, count_between_w w h a b = count_between h a b) /\
  (forall q, value_at_quantile_w w h q = value_at_quantile h q) /\
  (forall p, value_at_percentile_w w h p = value_at_percentile h p) /\
  (forall v, quantile_below_w w h v = quantile_below h v) /\
  (forall v, percentile_below_w w h v = percentile_below h v) /\
  mean_w w h = mean h /\ stdev_w w h = stdev h.
Proof.
  intros w h W1 R A. pose proof (reachable_wf h R) as W. pose proof (w_cfg h W) as C. pose proof (w_size h W) as S.
  pose proof (addressable_fits w h W1 C S A) as F.
  split; [intros; apply count_at_w_eq; auto|]. split; [intros; apply count_between_w_eq; auto|].
  split; [intros; apply value_at_quantile_w_eq; auto|]. split; [intros; apply value_at_quantile_w_eq; auto|].
  split; [intros; apply quantile_below_w_eq; auto|].
  split; [intros; unfold percentile_below_w, percentile_below; rewrite quantile_below_w_eq by auto; reflexivity|].
  assert (I : recorded_items_w w h = recorded_items h).
  { unfold recorded_items_w, recorded_items, iter_recorded_w. apply collect_any; auto. intros _. apply same_picker_refl. }
  assert (M : mean_w w h = mean h) by (unfold mean_w, mean; rewrite I; reflexivity).
  split; [exact M|]. unfold stdev_w, stdev. rewrite M, I. reflexivity.
Qed.

(*EX
Example ex_C80_query :
  match build U8 1 255 1 false [(3, 2); (200, 5)] with
  | Some h => reachable h /\ addressable 16 h /\ count_at_w 16 h 200 = Ret 5 /\ count_between_w 16 h 0 100 = Ret 2 /\
      value_at_quantile_w 16 h (f64_of_u64 1) = Ret 207 
  | None => False end.
Proof. width_case. Qed.
EX*)
(** ... and so does every iterator: the same items, or the same panic, after any number of calls of [next] *)
Lemma C80_iterate_proof : forall w h k, 1 <= w -> reachable h -> addressable w h ->
  (it <- iter_recorded_w w h ;; iter_collect_w w k pk_recorded h it) = (it <- iter_recorded h ;; iter_collect k pk_recorded h it) /\
  (it <- iter_all_w w h ;; iter_collect_w w k pk_all h it) = (it <- iter_all h ;; iter_collect k pk_all h it) /\
  (forall lg ticks, (it <- iter_quantiles_w w h ticks ;; iter_collect_w w k (pk_quantile lg) h it) =
     (it <- iter_quantiles h ticks ;; iter_collect k (pk_quantile lg) h it)) /\
  (forall step, (it <- iter_linear_w w h step ;; iter_collect_w w k (pk_linear_w w) h it) =
     (it <- iter_linear h step ;; iter_collect k pk_linear h it)) /\
  (forall start base, (it <- iter_log_w w h start base ;; iter_collect_w w k (pk_log_w w) h it) =
     (it <- iter_log h start base ;; iter_collect k pk_log h it)).
Proof.
  intros w h k W1 R A. pose proof (reachable_wf h R) as W.
  split; [apply collect_any; auto; intros _; apply same_picker_refl|].
  split; [apply collect_any; auto; intros _; apply same_picker_refl|].
  split; [|split].
  - intros lg t. unfold iter_quantiles_w, iter_quantiles. destruct (assert _); cbn [bind]; auto.
    apply collect_any; auto. intros _; apply same_picker_refl.
  - intros s. unfold iter_linear_w, iter_linear. destruct (assert _); cbn [bind]; auto.
    destruct (u64_sub s 1); cbn [bind]; auto. destruct (lowest_equivalent h _); cbn [bind]; auto.
    apply collect_any; auto. intros F. apply pk_linear_same; auto.
  - intros s b. unfold iter_log_w, iter_log. destruct (assert (0 <? s)); cbn [bind]; auto.
    destruct (assert (f64_lt _ _)); cbn [bind]; auto.
    destruct (u64_sub s 1); cbn [bind]; auto. destruct (lowest_equivalent h _); cbn [bind]; auto.
    apply collect_any; auto. intros F. apply pk_log_same; auto.
Qed.

(*EX
Example ex_C80_iterate :
  match build U8 1 255 1 false [(3, 2); (200, 5)] with
  | Some h => reachable h /\ addressable 16 h /\
      match (it <- iter_linear_w 16 h 100 ;; iter_collect_w 16 10 (pk_linear_w 16) h it) with
      | Ret [a; b; c] => iv_since a = 2 /\ iv_since b = 0 /\ iv_since c = 5 
      | _ => False end
  | None => False end.
Proof.
  eapply case_build; [vm_compute; reflexivity|intro]. split; [width_leaf|split; [width_leaf|]].
  vm_compute. auto.
Qed.
EX*)
(** *)
Lemma reset_fields w h : addressable w h -> addressable w (reset h).
Proof. unfold addressable, distinct_values, reset, reset_min, reset_max, clear; hsimp. unfold zlen. rewrite map_length. auto. Qed.

(** [add] and [set_to] with a [usize] of any width: the result is that of 64 bits, if it can be allocated.
    Otherwise it is [ResizeFailedUsizeTypeTooSmall] and nothing has been added, or a panic *)
Lemma C80_add_proof : forall w h s, 1 <= w -> reachable h -> reachable s -> h_ctr h = h_ctr s -> addressable w h -> addressable w s ->
  (forall h' r, add h s = Ret (h', r) ->
    (addressable w h' -> add_w w h s = Ret (h', r)) /\
    (too_many_bins w h' -> add_w w h s = Ret (h, RErr AddResizeFailedUsizeTypeTooSmall)) /\
    (~ addressable w h' -> ~ too_many_bins w h' -> add_w w h s = Panic)) /\
  (forall h' r, set_to h s = Ret (h', r) ->
    (addressable w h' -> set_to_w w h s = Ret (h', r)) /\
    (too_many_bins w h' -> set_to_w w h s = Ret (reset h, RErr AddResizeFailedUsizeTypeTooSmall)) /\
    (~ addressable w h' -> ~ too_many_bins w h' -> set_to_w w h s = Panic)).
Proof.
  assert (M : forall w h s, 1 <= w -> reachable h -> reachable s -> h_ctr h = h_ctr s -> addressable w h -> addressable w s ->
    forall h' r, add h s = Ret (h', r) ->
    (addressable w h' -> add_w w h s = Ret (h', r)) /\
    (too_many_bins w h' -> add_w w h s = Ret (h, RErr AddResizeFailedUsizeTypeTooSmall)) /\
    (~ addressable w h' -> ~ too_many_bins w h' -> add_w w h s = Panic)).
  { intros w h s W R RS CT A AS h' r E. pose proof (reachable_wf h R) as WH. pose proof (reachable_wf s RS) as WS.
    rewrite (add_any w W) by auto. rewrite E. destruct r as [[]|e].
    - destruct (allowed_cases w h' W) as (P & Q & S). unfold after_add.
      split; [intros X; rewrite (P X); reflexivity|]. split; [intros X; rewrite (Q X); reflexivity|]. intros X Y; rewrite (S X Y); reflexivity.
    - assert (h' = h) as ->.
      { destruct (AddFacts.add_ok h s WH WS CT) as [(_ & Q)|[(_ & _ & _ & Q)|(_ & _ & h1 & Q & _)]]; rewrite E in Q; inversion Q; auto. }
      split; auto. split.
      + intros T. exfalso. unfold too_many_bins, addressable in *. pose proof (size_of_range (h_ctr h)).
        pose proof (imax_umax w W) as IU. unfold isize_max_w, usize_max_w in IU. unfold distinct_values, zlen in *. nia.
      + intros X. contradiction. }
  intros w h s W R RS CT A AS. split; [intros h' r E; apply M; auto|]. intros h' r E. unfold set_to_w. apply M; auto.
  - apply reach_reset; auto.
  - apply reset_fields; auto.
Qed.

(*EX
(** with 8 bits, 3 bins of one byte become 5 to take the value 10 *)
Example ex_C80_add :
  match build U8 1 2 0 true [(1, 1)], build U8 1 2 0 false [(2, 4)], build U8 1 10 0 false [(10, 3)] with
  | Some h, Some s, Some t => reachable h /\ reachable s /\ reachable t /\ h_ctr h = h_ctr t /\ addressable 8 h /\ addressable 8 t /\
      addressable 3 h /\ addressable 3 s /\ add_w 3 h s = add h s /\
      match add h t, add_w 8 h t with
      | Ret (h1, ROk _), Ret (h2, ROk _) => h1 = h2 /\ held h1 = [(1, 1); (8, 3)] /\ distinct_values h1 = 5 /\ addressable 8 h1 /\ ~ addressable 3 h1
      | _, _ => False end
  | _, _, _ => False end.
Proof. width_case. Qed.

(** with 3 bits an array has at most 3 bytes and a [usize] is at most 7: to take the value 16, 6 bins are
    needed, to take 255, 9 *)
Example ex_C80_add_fails :
  match build U8 1 2 0 true [(1, 1)], build U8 8 16 0 false [(16, 3)] with
  | Some h, Some s => reachable h /\ reachable s /\ h_ctr h = h_ctr s /\ distinct_values h = 3 /\ distinct_values s = 3 /\
      addressable 3 h /\ addressable 3 s /\
      (match add h s with Ret (h1, ROk _) => ~ addressable 3 h1 /\ ~ too_many_bins 3 h1 | _ => False end) /\
      add_w 3 h s = Panic /\ set_to_w 3 h s = Panic
  | _, _ => False end /\
  match build U8 1 2 0 true [(1, 1)], build U8 64 128 0 false [(255, 3)] with
  | Some h, Some s => reachable h /\ reachable s /\ h_ctr h = h_ctr s /\ addressable 3 h /\ addressable 3 s /\
      (match add h s with Ret (h1, ROk _) => too_many_bins 3 h1 | _ => False end) /\
      add_w 3 h s = Ret (h, RErr AddResizeFailedUsizeTypeTooSmall) /\
      set_to_w 3 h s = Ret (reset h, RErr AddResizeFailedUsizeTypeTooSmall)
  | _, _ => False end.
Proof. width_case. Qed.
EX*)
(** operations that never resize do what they do with 64 bits, whatever the width: [subtract] and recording
    with clamping *)
Lemma C80_fixed_proof : forall w h, 1 <= w -> reachable h -> addressable w h ->
  (forall v n, saturating_record_n_w w h v n = saturating_record_n h v n /\ saturating_record_w w h v = saturating_record h v) /\
  (forall s, reachable s -> addressable w s -> subtract_w w h s = subtract h s).
Proof.
  intros w h W R A. pose proof (wf_fits w W h (reachable_wf h R) A) as F. split.
  - intros v n. split; [|unfold saturating_record_w, saturating_record]; apply saturating_any; auto.
  - intros s RS AS. apply subtract_any; auto. apply (wf_fits w W); auto. apply reachable_wf; auto.
Qed.

(*EX
Example ex_C80_fixed :
  match build U8 1 255 1 false [(3, 2); (200, 5)], build U8 1 255 1 false [(200, 4)] with
  | Some h, Some s => reachable h /\ reachable s /\ addressable 8 h /\ addressable 8 s /\
      match subtract_w 8 h s, saturating_record_n_w 8 h 100000 7 with
      | Ret (h1, ROk _), Ret h2 => held h1 = [(3, 2); (200, 1)] /\ held h2 = [(3, 2); (200, 5); (248, 7)]
      | _, _ => False end
  | _, _ => False end.
Proof. width_case. Qed.
EX*)
(** correction while recording: the outcome is that of 64 bits, if the result can be allocated.  Otherwise
    it is [ResizeFailedUsizeTypeTooSmall] and nothing has been recorded, or a panic *)
Lemma C80_correct_proof : forall w h v n i, 1 <= w -> reachable h -> is_u64 v -> is_count (h_ctr h) n -> is_u64 i -> addressable w h ->
  forall h' r, record_n_correct h v n i = Ret (h', r) ->
    (addressable w h' -> record_n_correct_w w h v n i = Ret (h', r)) /\
    (too_many_bins w h' -> record_n_correct_w w h v n i = Ret (h, RErr RecordResizeFailedUsizeTypeTooSmall)) /\
    (~ addressable w h' -> ~ too_many_bins w h' -> record_n_correct_w w h v n i = Panic).
Proof.
  unfold is_u64, is_count. intros w h v n i W R V N I A h' r E. pose proof (reachable_wf h R) as WF.
  rewrite (correct_any w W) by auto. rewrite E. destruct r as [[]|e].
  - destruct (allowed_cases w h' W) as (P & Q & S). unfold after_record.
    split; [intros X; rewrite (P X); reflexivity|]. split; [intros X; rewrite (Q X); reflexivity|]. intros X Y; rewrite (S X Y); reflexivity.
  - assert (h' = h) as ->.
    { destruct (record_n_correct_ok h v n i WF V N I) as [(h1 & Q & _)|(Q & _)]; rewrite E in Q; inversion Q; auto. }
    split; auto. split.
    + intros T. exfalso. unfold too_many_bins, addressable in *. pose proof (size_of_range (h_ctr h)).
      pose proof (imax_umax w W) as IU. unfold isize_max_w, usize_max_w in IU. unfold distinct_values, zlen in *. nia.
    + intros X. contradiction.
Qed.

(*EX
Example ex_C80_correct :
  match build U8 1 2 0 true [(1, 1)] with
  | Some h => reachable h /\ addressable 8 h /\ addressable 3 h /\
      record_n_correct_w 3 h 1000 1 400 = Ret (h, RErr RecordResizeFailedUsizeTypeTooSmall) /\ record_n_correct_w 4 h 1000 1 400 = Panic /\
      match record_n_correct h 1000 1 400, record_n_correct_w 8 h 1000 1 400 with
      | Ret (h1, ROk _), Ret (h2, ROk _) => h1 = h2 /\ held h1 = [(1, 1); (512, 2)] /\ addressable 8 h1 /\ too_many_bins 3 h1 /\
          ~ addressable 4 h1 /\ ~ too_many_bins 4 h1
      | _, _ => False end
  | None => False end.
Proof. width_case. Qed.
EX*)
(** *)
Lemma recorded_any w h : 1 <= w -> wf h -> addressable w h -> recorded_items_w w h = recorded_items h.
Proof. intros W1 W A. unfold recorded_items_w, recorded_items, iter_recorded_w. apply collect_any; auto. intros _. apply same_picker_refl. Qed.

Lemma items_facts s xs : wf s -> recorded_items s = Ret xs -> Forall (fun x => u64 (iv_value x) /\ 0 <= iv_count x <= cmax (h_ctr s)) xs.
Proof.
  intros W E. rewrite recorded_items_ok in E by auto. injection E as <-. rewrite Forall_map. apply Forall_forall. intros k K.
  apply held_idxs_in in K. cbn [ritem iv_value iv_count]. destruct (topval_ge s k W (proj1 K)) as (_ & TU & _ & _). split; [exact TU|].
  split; [apply zn_nonneg, wf_nonneg; auto|apply zn_le_cmax; auto].
Qed.

Lemma new_from_any w T h : 1 <= w -> wf h ->
  new_from_w w T h = match new_from T h with Ret h' => if size_of T * distinct_values h' <=? 2 ^ (w - 1) - 1 then Ret h' else Panic | Panic => Panic end.
Proof.
  intros W1 W. pose proof (w_cfg h W) as C. pose proof (w_size h W) as S. rewrite new_from_ok by auto.
  pose proof (fresh_self_len T h C S) as FL. destruct (self_params h C) as (UL & UH & US & CC).
  unfold new_from_w. rewrite new_with_bounds_w_eq, new_with_bounds_ok by auto. rewrite CC. cbn [bind created_w].
  set (f := fresh T (h_low h) (h_high h) (h_sigfig h)) in *.
  assert (FC : h_ctr f = T) by reflexivity.
  change (distinct_values (set_auto f (h_auto h))) with (distinct_values f).
  unfold allowed. rewrite FC. unfold distinct_values in *. change (h_counts (set_auto f (h_auto h))) with (h_counts f) in FL.
  pose proof (imax_umax w W1) as IU. unfold vec_fits_w, isize_max_w in *. pose proof (size_of_range T) as SR.
  assert (0 <= zlen (h_counts f)) by (unfold zlen; lia).
  destruct (Z.leb_spec (size_of T * zlen (h_counts f)) (2 ^ (w - 1) - 1)) as [L|L].
  - destruct (Z.leb_spec (zlen (h_counts f)) (usize_max_w w)); [|nia]. cbn [bind]. unfold vec_resize_w, vec_fits_w, isize_max_w.
    cbv zeta. change (h_counts (set_auto f (h_auto h))) with (h_counts f). rewrite <- FL.
    destruct (Z.leb_spec (size_of T * zlen (h_counts f)) (2 ^ (w - 1) - 1)); [|lia]. cbn [bind]. rewrite vresize_same. reflexivity.
  - destruct (Z.leb_spec (zlen (h_counts f)) (usize_max_w w)); reflexivity.
Qed.

(** copying the parameters gives what it gives with 64 bits, or panics if the copy cannot be allocated;
    correction after recording gives what it gives with 64 bits, if the result can be allocated *)
Lemma C80_copy_correct_proof : forall w h s i, 1 <= w -> reachable h -> reachable s -> h_ctr h = h_ctr s -> is_u64 i ->
  addressable w h -> addressable w s ->
  (forall T h', new_from T h = Ret h' -> (addressable w h' -> new_from_w w T h = Ret h') /\ (~ addressable w h' -> new_from_w w T h = Panic)) /\
  (forall h' r, add_correct h s i = Ret (h', r) -> addressable w h' -> add_correct_w w h s i = Ret (h', r)) /\
  (forall h' r, set_to_corrected h s i = Ret (h', r) -> addressable w h' -> set_to_corrected_w w h s i = Ret (h', r)) /\
  (forall h', clone_correct h i = Ret h' -> addressable w h' -> clone_correct_w w h i = Ret h').
Proof.
  intros w h s i W1 R RS CT I A AS. pose proof (reachable_wf h R) as W. pose proof (reachable_wf s RS) as WS. unfold is_u64 in I.
  assert (NF : forall T h', new_from T h = Ret h' -> (addressable w h' -> new_from_w w T h = Ret h') /\ (~ addressable w h' -> new_from_w w T h = Panic)).
  { intros T h' E. rewrite new_from_any by auto. rewrite E.
    assert (CT' : h_ctr h' = T) by (rewrite new_from_ok in E by (apply W); injection E as <-; reflexivity).
    unfold addressable. rewrite CT'. split; intros X; destruct (Z.leb_spec (size_of T * distinct_values h') (2 ^ (w - 1) - 1)); auto; lia. }
  assert (M : forall h, reachable h -> h_ctr h = h_ctr s -> addressable w h ->
    forall h' r, add_correct h s i = Ret (h', r) -> addressable w h' -> add_correct_w w h s i = Ret (h', r)).
  { clear h R CT A W NF. intros h R CT A h' r E A'. unfold add_correct_w, add_correct in *. rewrite recorded_any by auto.
    destruct (recorded_items s) as [xs|] eqn:EX; cbn [bind] in *; [|discriminate].
    apply (items_any w W1); auto; [apply reachable_wf; auto|]. rewrite CT. apply items_facts; auto. }
  split; [exact NF|]. split; [apply M; auto|]. split.
  { intros h' r E A'. unfold set_to_corrected_w. apply M; auto; [apply reach_reset; auto|apply reset_fields; auto]. }
  intros h' E A'. unfold clone_correct_w, clone_correct in *.
  pose proof (new_from_ok (h_ctr h) h (w_cfg h W) (w_size h W)) as EN. destruct (new_from_wf (h_ctr h) h (w_cfg h W) (w_size h W)) as [WN _].
  pose proof (fresh_self_len (h_ctr h) h (w_cfg h W) (w_size h W)) as LN.
  set (n := set_auto (fresh (h_ctr h) (h_low h) (h_high h) (h_sigfig h)) (h_auto h)) in *.
  assert (AN : addressable w n) by (apply (addressable_same w h); auto).
  destruct (NF _ _ EN) as (NF1 & _). rewrite (NF1 AN), EN in *. cbn [bind] in *. rewrite recorded_any by auto.
  destruct (recorded_items h) as [xs|] eqn:EX; cbn [bind] in *; [|discriminate].
  destruct (correct_items n xs i) as [[h1 [u|e]]|] eqn:EC; cbn [bind] in E; try discriminate. injection E as ->.
  rewrite (items_any w W1 xs i I n WN) with (h' := h') (r := ROk u); auto. apply (items_facts h xs W EX).
Qed.

(*EX
Example ex_C80_copy_correct :
  match build U8 1 2 1 true [(1, 1)], build U8 1 255 1 false [(3, 2); (200, 5)] with
  | Some h, Some s => reachable h /\ reachable s /\ h_ctr h = h_ctr s /\ is_u64 100 /\ addressable 8 h /\ addressable 8 s
  | _, _ => False end.
Proof. width_case. Qed.

Example ex_C80_copy_correct_result :
  match build U8 1 2 1 true [(1, 1)], build U8 1 255 1 false [(3, 2); (200, 5)] with
  | Some h, Some s =>
      match add_correct_w 8 h s 100, new_from_w 8 U8 s with
      | Ret (h1, ROk _), Ret h2 => held h1 = [(1, 1); (3, 2); (104, 5); (200, 5)] /\ distinct_values h1 = 80 /\ distinct_values h2 = 80
      | _, _ => False end /\ new_from_w 8 U64 s = Panic
  | _, _ => False end.
Proof. vm_compute. auto. Qed.
EX*)
(** a target with 32 bits or more: the arrays of counts always fit, and every operation does what it does
    with 64 bits *)
Lemma C80_wide_proof : forall w, 32 <= w ->
  (forall T lo hi sf, is_u64 lo -> is_u64 hi -> is_u8 sf -> new_with_bounds_w w T lo hi sf = new_with_bounds T lo hi sf) /\
  (forall T sf, is_u8 sf -> new_w w T sf = new T sf) /\
  (forall h, reachable h -> addressable w h) /\
  (forall T h, reachable h -> new_from_w w T h = new_from T h) /\
  (forall h v n, reachable h -> record_n_w w h v n = record_n h v n /\ saturating_record_n_w w h v n = saturating_record_n h v n) /\
  (forall h v n i, reachable h -> record_n_correct_w w h v n i = record_n_correct h v n i) /\
  (forall h s, reachable h -> reachable s ->
     add_w w h s = add h s /\ subtract_w w h s = subtract h s /\ set_to_w w h s = set_to h s) /\
  (forall h s i, reachable h -> reachable s ->
     add_correct_w w h s i = add_correct h s i /\ set_to_corrected_w w h s i = set_to_corrected h s i) /\
  (forall h i, reachable h -> clone_correct_w w h i = clone_correct h i).
Proof.
  intros w W.
  assert (NR : forall h, reachable h -> narrow h) by (intros h R; pose proof (reachable_wf h R) as X; apply wf_narrow; [apply (w_cfg _ X)|apply (w_size _ X)]).
  assert (NZ : forall h, narrow h -> narrow (reset h)).
  { intros h [A B C]. constructor; [exact A|exact B|]. unfold reset, reset_min, reset_max, clear; hsimp. unfold zlen in *. rewrite map_length. exact C. }
  split; [intros; apply created_same; auto|]. split.
  { intros T sf S. unfold new_w, new. rewrite created_same; auto; unfold u64, u64_max; lia. }
  split. { intros h R. pose proof (reachable_wf h R) as X. apply wide_addressable; [auto|apply (w_cfg _ X)|apply (w_size _ X)]. }
  split; [intros; apply new_from_same; auto; apply reachable_wf; auto|].
  split.
  { intros h v n R. unfold record_n_w, record_n, saturating_record_n_w, saturating_record_n.
    rewrite !record_n_inner_w_same by auto. auto. }
  split; [intros; apply record_n_correct_same; auto|].
  split.
  { intros h s R RS. split; [apply add_same; auto|]. split; [apply subtract_same; auto|].
    unfold set_to_w, set_to. apply add_same; auto. }
  split.
  { intros h s i R RS. split; [apply add_correct_same; auto|]. unfold set_to_corrected_w, set_to_corrected. apply add_correct_same; auto. }
  intros h i R. unfold clone_correct_w, clone_correct. pose proof (reachable_wf h R) as X.
  rewrite new_from_same by auto. destruct (new_from (h_ctr h) h) as [h0|] eqn:E; cbn [bind]; auto.
  rewrite recorded_items_same by auto. destruct (recorded_items h); cbn [bind]; auto.
  rewrite correct_items_same; auto.
  unfold new_from in E. destruct (self_params h (w_cfg h X)) as (UL & UH & US & CC).
  rewrite new_with_bounds_ok in E by auto. rewrite CC in E. cbn [bind] in E. cbv zeta in E. injection E as <-.
  pose proof (fresh_wf (h_ctr h) _ _ _ UL UH US CC) as W0. pose proof (wf_narrow _ (w_cfg _ W0) (w_size _ W0)) as N0.
  pose proof (NR h R) as N. constructor; [apply (n_mag _ N0)|apply (n_half _ N0)|]. hsimp.
  rewrite zlen_vresize by (unfold distinct_values, zlen; lia). apply (n_len _ N).
Qed.

(*EX
Example ex_C80_wide :
  match build U8 1 2 1 true [(3, 2); (70000, 5)] with
  | Some h => reachable h /\ addressable 32 h /\
      match record_n_w 32 h 1000000 3, add_w 32 h h with
      | Ret (a, ROk _), Ret (b, ROk _) => held a = [(3, 2); (69632, 5); (983040, 3)] /\ held b = [(3, 4); (69632, 10)]
      | _, _ => False end
  | None => False end.
Proof. width_case. Qed.
EX*)
(** so a constructor whose array cannot be allocated need not return [UsizeTypeTooSmall]: here it panics *)
Lemma C80_panic_refuted_proof : exists T lo hi sf h, is_u64 lo /\ is_u64 hi /\ is_u8 sf /\
  new_with_bounds T lo hi sf = Ret (ROk h) /\ new_with_bounds_w 16 T lo hi sf = Panic.
Proof.
  exists U64, 1, u64_max, 2. destruct (new_with_bounds U64 1 u64_max 2) as [[h|e]|] eqn:E; [|vm_compute in E; discriminate|vm_compute in E; discriminate].
  exists h. split; [unfold is_u64, u64_max; lia|]. split; [unfold is_u64, u64_max; lia|]. split; [unfold is_u8, u8_max; lia|].
  split; [reflexivity|]. vm_compute. reflexivity.
Qed.

(** ** C81.  Serializing a histogram takes a buffer of a certain size, at most nine bytes for every bin and 40
    for the header.  With a [usize] of any width, it gives the bytes of 64 bits if that can be allocated,
    [UsizeTypeTooSmall] if it does not fit a [usize], and panics in between *)
Lemma C81_serialize_proof : forall h, reachable h -> exists size, 49 <= size <= 9 * distinct_values h + 40 /\
  forall w junk, 1 <= w -> addressable w h ->
    (size <= 2 ^ (w - 1) - 1 -> v2_serialize_w w junk h = v2_serialize junk h) /\
    (2 ^ (w - 1) <= size < 2 ^ w -> v2_serialize_w w junk h = Panic) /\
    (2 ^ w <= size -> v2_serialize_w w junk h = Ret (RErr SerUsizeTypeTooSmall)).
Proof.
  intros h R. pose proof (reachable_wf h R) as W. pose proof (coded_facts h W) as (B & _).
  exists ((bin h (h_max h) + 1) * 9 + 40). split; [unfold distinct_values; lia|]. intros w junk W1 A.
  rewrite v2_serialize_w_ok by auto. pose proof (imax_umax w W1) as IU. unfold isize_max_w, usize_max_w in *.
  set (n := (bin h (h_max h) + 1) * 9 + 40) in *.
  destruct (Z.leb_spec n (2 ^ w - 1)); destruct (Z.leb_spec n (2 ^ (w - 1) - 1)); repeat split; intros; auto; lia.
Qed.

(*EX
(** 80 bins of one byte with 16 bits; 976 of them with 13 and 14 bits *)
Example ex_C81_serialize :
  (match build U8 1 255 1 false [(3, 2); (200, 5)] with
   | Some h => reachable h /\ addressable 16 h /\ 9 * distinct_values h + 40 <= 2 ^ 15 - 1 /\
       match v2_serialize_w 16 (fun _ => 7) h with Ret (ROk bs) => zlen bs = 45 | _ => False end
   | None => False end) /\
  (match build U8 1 u64_max 1 false [(u64_max, 1)] with
   | Some h => reachable h /\ addressable 13 h /\ 9 * distinct_values h + 40 = 8824 /\ v2_serialize_w 13 (fun _ => 7) h = Ret (RErr SerUsizeTypeTooSmall) /\
       v2_serialize_w 14 (fun _ => 7) h = Panic
   | None => False end).
Proof. width_case. Qed.
EX*)
(** with 32 bits or more it always gives the bytes, also in the compressed format *)
Lemma C81_serialize_wide_proof : forall w junk cd h, 32 <= w -> reachable h ->
  v2_serialize_w w junk h = v2_serialize junk h /\ v2_deflate_serialize_w w cd junk h = v2_deflate_serialize cd junk h.
Proof.
  intros w junk cd h W R. pose proof (reachable_wf h R) as X. split; [apply v2_serialize_same; auto|apply v2_deflate_serialize_same; auto].
Qed.

(*EX
Example ex_C81_serialize_wide :
  match build U8 1 255 1 false [(3, 2); (200, 5)] with
  | Some h => reachable h /\
      match v2_serialize_w 32 (fun _ => 7) h with Ret (ROk bs) => zlen bs = 45 | _ => False end
  | None => False end.
Proof. width_case. Qed.
EX*)
(** and what was written is read back there, as the histogram that 64 bits would give: also when it was
    written on a target with another width *)
Lemma C81_round_trip_proof : forall w w' checks cd buf junk h bs rest, 32 <= w <= 64 -> 32 <= w' -> reachable h ->
  v2_serialize_w w' junk h = Ret (ROk bs) ->
  deserialize_w w checks cd buf (h_ctr h) (bs ++ rest) = deserialize checks cd buf (h_ctr h) (bs ++ rest) /\
  (exists h', deserialize_w w checks cd buf (h_ctr h) (bs ++ rest) = Ret (ROk (h', rest)) /\ held h' = held h) /\
  (lossless cd -> zlen (deflate cd bs) + 8 <= u32_max -> exists zs, v2_deflate_serialize_w w' cd junk h = Ret (ROk zs) /\
     deserialize_w w checks cd buf (h_ctr h) (zs ++ rest) = deserialize checks cd buf (h_ctr h) (zs ++ rest)).
Proof.
  intros w w' checks cd buf junk h bs rest W W' R E. pose proof (reachable_wf h R) as X.
  rewrite v2_serialize_same in E by auto. pose proof E as E0. destruct (ser_inv junk h bs X E) as (-> & F).
  assert (FT : Forall (fun c => c <= cmax (h_ctr h)) (h_counts h)) by (eapply Forall_impl; [|apply (w_cnt h X)]; cbn; lia).
  pose proof (deserialize_image_same w checks W cd buf (h_ctr h) h rest X F FT) as D. split; [exact D|]. split.
  - rewrite D. destruct (C32_round_trip_proof checks cd buf junk h (image h) rest R E0) as (h' & Q & H'). 
    exists h'. split; [exact Q|]. tauto.
  - intros LS L. exists (cimage cd h). rewrite v2_deflate_serialize_same by auto. split; [apply deflate_ok; auto|].
    apply deserialize_cimage_same; auto.
Qed.

(*EX
Example ex_C81_round_trip :
  match build U8 1 255 1 false [(3, 2); (200, 5)] with
  | Some h => reachable h /\
      match v2_serialize_w 32 (fun _ => 7) h with
      | Ret (ROk bs) => match deserialize_w 32 true plain [] U8 (bs ++ [1; 2]) with
          | Ret (ROk (h', rest)) => held h' = [(3, 2); (200, 5)] /\ rest = [1; 2]
          | _ => False end
      | _ => False end
  | None => False end.
Proof. width_case. Qed.
EX*)
(** reading arbitrary bytes with 32 to 64 bits: the outcome is that of 64 bits, or [UsizeTypeTooSmall], or a
    panic, the last only if the header claims a payload that cannot be allocated *)
Lemma C81_deserialize_proof : forall w checks cd buf T rd, 32 <= w <= 64 -> codec_ok cd -> bytes rd ->
  deserialize_w w checks cd buf T rd = deserialize checks cd buf T rd \/
  deserialize_w w checks cd buf T rd = Ret (RErr DeUsizeTypeTooSmall) \/
  (deserialize_w w checks cd buf T rd = Panic /\ exists n, 2 ^ (w - 1) <= n /\ zlen buf < n /\ declares cd rd n).
Proof. intros w checks cd buf T rd W CD F. apply deserialize_tracks; auto. Qed.

(*EX
(** the three cases, at 32 bits: an image; one with a run of 2^32 zeros; one that claims 2^31 bytes *)
Example ex_C81_deserialize :
  let rd1 := v2_format 1 255 1 [5; -3; 2] in
  let rd2 := v2_format 1 255 1 [- 2 ^ 32; 0] in
  let rd3 := big_endian 4 0x1c849313 ++ big_endian 4 (2 ^ 31) ++ big_endian 4 0 ++ big_endian 4 1 ++
    big_endian 8 1 ++ big_endian 8 255 ++ big_endian 8 0x3ff0000000000000 in
  codec_ok plain /\ bytes rd1 /\ bytes rd2 /\ bytes rd3 /\
  deserialize_w 32 true plain [] U8 rd1 = deserialize true plain [] U8 rd1 /\
  deserialize_w 32 true plain [] U8 rd2 = Ret (RErr DeUsizeTypeTooSmall) /\
  deserialize_w 32 true plain [] U8 rd3 = Panic /\ declares plain rd3 (2 ^ 31).
Proof. width_case. Qed.
EX*)
(** all three happen.  There are 46 bytes that are read on a 64-bit target and rejected on a 32-bit one *)
Lemma C81_run_refuted_proof : exists rd h, bytes rd /\ zlen rd = 46 /\ forall cd,
  deserialize true cd [] U8 rd = Ret (ROk (h, [])) /\ deserialize_w 32 true cd [] U8 rd = Ret (RErr DeUsizeTypeTooSmall).
Proof.
  assert (E : exists h, deser_v2 true [] U8 (skipn 4 (v2_format 1 255 1 [- 2 ^ 32; 0])) = Ret (ROk (h, []))) by (eexists; vm_compute; reflexivity).
  destruct E as (h & E). exists (v2_format 1 255 1 [- 2 ^ 32; 0]), h.
  split; [vm_compute; repeat constructor; discriminate|]. split; [vm_compute; reflexivity|]. intros cd. split.
  - rewrite <- E. reflexivity.
  - reflexivity.
Qed.

(** ... and every header of a valid histogram that claims at least 2^31 bytes, whatever follows it, makes a
    32-bit target panic, unless an earlier read with the same object had grown the buffer that far *)
Lemma C81_claimed_length_proof : forall checks cd buf T lo hi sf h0 n rest, is_u64 lo -> is_u64 hi -> is_u8 sf ->
  new_with_bounds T lo hi sf = Ret (ROk h0) -> 2 ^ 31 <= n < 2 ^ 32 -> zlen buf < n ->
  deserialize_w 32 checks cd buf T
    (big_endian 4 0x1c849313 ++ big_endian 4 n ++ big_endian 4 0 ++ big_endian 4 sf ++
     big_endian 8 lo ++ big_endian 8 hi ++ big_endian 8 0x3ff0000000000000 ++ rest) = Panic.
Proof.
  intros checks cd buf T lo hi sf h0 n rest UL UH US E N B. unfold is_u64, is_u8 in *. unfold u8_max in US.
  rewrite !big_endian_write by lia. unfold deserialize_w.
  rewrite (read_be_write 4) by (vm_compute; split; [discriminate|reflexivity]).
  change (478450451 =? V2_COOKIE) with true. cbv iota. unfold deser_v2_w.
  rewrite (read_be_write 4) by (change (2 ^ (8 * Z.of_nat 4)) with (2 ^ 32); lia).
  unfold to_usize_w. replace (_ && _) with true by (unfold usize_max_w; lia).
  rewrite (read_be_write 4) by (change (2 ^ (8 * Z.of_nat 4)) with (2 ^ 32); lia). cbn [negb Z.eqb].
  rewrite (read_be_write 4) by (change (2 ^ (8 * Z.of_nat 4)) with (2 ^ 32); lia).
  destruct (Z.ltb_spec u8_max sf) as [X|_]; [unfold u8_max in X; lia|].
  rewrite (read_be_write 8) by (change (2 ^ (8 * Z.of_nat 8)) with (u64_max + 1); lia).
  rewrite (read_be_write 8) by (change (2 ^ (8 * Z.of_nat 8)) with (u64_max + 1); lia).
  rewrite (read_be_write 8) by (change (2 ^ (8 * Z.of_nat 8)) with (u64_max + 1); unfold u64_max; lia).
  change (4607182418800017408 =? 4607182418800017408) with true. cbn [negb].
  rewrite created_same by (unfold u64, u8_max; lia). rewrite E. cbn [bind].
  destruct (Z.ltb_spec (zlen buf) n); [|lia]. unfold vec_resize_w, vec_fits_w, isize_max_w.
  destruct (Z.leb_spec (1 * n) (2 ^ (32 - 1) - 1)) as [X|_]; [change (2 ^ (32 - 1)) with (2 ^ 31) in X; lia|]. reflexivity.
Qed.

(*EX
(** the same 40 bytes are an i/o error on a 64-bit target *)
Example ex_C81_claimed_length :
  let rd := big_endian 4 0x1c849313 ++ big_endian 4 (2 ^ 31) ++ big_endian 4 0 ++ big_endian 4 1 ++
    big_endian 8 1 ++ big_endian 8 255 ++ big_endian 8 0x3ff0000000000000 ++ [] in
  zlen rd = 40 /\ deserialize_w 32 true plain [] U8 rd = Panic.
Proof. width_case. Qed.
EX*)
