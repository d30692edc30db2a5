(** * Proofs of the properties about iterating by levels (C25, C26) *)
(*PROPS-IMPORTS Machine Log2Model HistModel Spec Reach Witness Cases FloatModel IterModel IterSpec *)
(*PROPS-HEADER
From Coq Require Import Sorted.
PROPS-HEADER*)
From Verif Require Import Machine Log2Model HistModel Spec Reach Bins ListZ Log2Facts Cfg Wf Ops AddFacts SubFacts MoreFacts Witness HeldFacts PfQuery FloatModel IterModel IterSpec IterFacts IterBins PfIter IterLevels IterLinear IterLog.
From Coq Require Import ZifyBool ZifyNat Sorted.
From Flocq Require Import IEEE754.BinarySingleNaN.

Lemma loweq_maxp h mx : wf h -> max h = Ret mx -> u64 mx /\ loweq (h_um h) (h_half_mag h) mx = loweq (h_um h) (h_half_mag h) (h_max h).
Proof.
  intros W E. pose proof (w_cfg h W) as C. rewrite max_ok in E by auto. injection E as <-. pose proof (maxp_u64 h W) as U. split; auto.
  pose proof (bin_maxp h W) as B. apply (loweq_idx _ _ (um_nonneg h C) (m_nonneg h C)); [apply U|apply (w_max h W)|exact B].
Qed.
Lemma nexteq_class h a b : cfg_ok h -> u64 a -> u64 b -> loweq (h_um h) (h_half_mag h) a = loweq (h_um h) (h_half_mag h) b -> nexteq h a = nexteq h b.
Proof.
  intros C UA UB E. unfold nexteq. rewrite E. f_equal. f_equal.
  rewrite <- (wid_loweq _ _ (um_nonneg h C) (m_nonneg h C) a) by apply UA. rewrite E. apply (wid_loweq _ _ (um_nonneg h C) (m_nonneg h C)). apply UB.
Qed.
Lemma higheq_idem h v : wf h -> u64 v -> higheq h (higheq h v) = higheq h v.
Proof.
  intros W U. pose proof (w_cfg h W) as C. pose proof (higheq_u64 h C v U) as U2. pose proof (idx_higheq h C v U) as E.
  apply (loweq_idx _ _ (um_nonneg h C) (m_nonneg h C)) in E; [|apply U2|apply U].
  pose proof (nexteq_class h _ _ C U2 U E) as N. pose proof (higheq_range h C v U) as HR.
  unfold higheq at 1. destruct (Z.eqb_spec (higheq h v) u64_max) as [X|X]; [congruence|]. rewrite N. unfold higheq. destruct (Z.eqb_spec v u64_max); auto.
  subst. unfold higheq in X. rewrite Z.eqb_refl in X. lia.
Qed.

(** the items, given the levels *)
Lemma levels_report h ls : wf h -> zsum (h_counts h) <= u64_max -> Forall u64 ls -> ls <> [] ->
  (forall a b x y, ls = a ++ x :: y :: b -> x <= y) -> loweq (h_um h) (h_half_mag h) (h_max h) <= last ls 0 ->
  reported (lvitems h 0 ls) = zsum (h_counts h).
Proof.
  intros W SM F NE MO LA. pose proof (w_cfg h W) as C. pose proof (maxi_range h W) as MR.
  assert (LU : u64 (last ls 0)) by (rewrite Forall_forall in F; apply F; destruct ls; [contradiction|]; apply (exists_last) in NE; destruct NE as (a & b & ->); rewrite last_last; apply in_or_app; cbn; auto).
  rewrite lvitems_reported; auto; try lia.
  - destruct ls as [|l ls]; [contradiction|]. rewrite zpre_0, Z.sub_0_r. apply zpre_top; auto.
    rewrite <- (bval_bin h (h_max h)) in LA by (auto; apply (w_max h W)).
    pose proof (bin_mono h (bval h (bin h (h_max h))) (last (l :: ls) 0) C) as B. rewrite bin_bval in B by (auto; lia). pose proof (bval_nonneg h _ C (proj1 MR)).
    unfold cbin. specialize (B ltac:(lia)). lia.
  - destruct ls as [|l ls]; auto. inversion F; subst. pose proof (cbin_range h l W H1). lia.
  - intros a b x y E. pose proof (MO a b x y E). rewrite Forall_forall in F. pose proof (F x) as FX. pose proof (F y) as FY. rewrite E in FX, FY.
    specialize (FX ltac:(apply in_or_app; right; cbn; auto)). specialize (FY ltac:(apply in_or_app; right; cbn; auto)).
    pose proof (bin_mono h x y C). unfold cbin, u64 in *. lia.
Qed.

(** ** C25.  [iter_linear] reports at [step - 1], [2 * step - 1], ...; it goes on until the class of the
    maximum has been reported and the next level is in another class.  The levels it computes end less
    than two steps (and the width of a class) above the maximum; as long as those are below [u64::MAX]
    nothing panics. *)
Lemma C25_linear_proof : forall h step mx lo t, reachable h -> 0 < step ->
  max h = Ret mx -> lowest_equivalent h mx = Ret lo ->
  mx + step <= u64_max -> highest_equivalent h (mx + step) = Ret t -> t + step < u64_max ->
  exists it items n, iter_linear h step = Ret it /\ drains pk_linear h it items /\
    at_levels h 0 items (map (linear_level step) (seq 0 (S n))) /\
    (forall k, (k < n)%nat -> goes_on h lo (linear_level step k) (linear_level step (S k))) /\
    ~ goes_on h lo (linear_level step n) (linear_level step (S n)) /\
    (weight (held h) <= u64_max -> reported items = weight (held h)).
Proof.
  intros h step mx lo t R S0 EM EL B1 ET B2. pose proof (reachable_wf h R) as W. pose proof (w_cfg h W) as C. pose proof (w_size h W) as SZ.
  destruct (loweq_maxp h mx W EM) as [UM LM]. rewrite lowest_equivalent_ok in EL by auto. injection EL as EL.
  assert (US : u64 (mx + step)) by (unfold u64 in *; lia). rewrite highest_equivalent_ok in ET by auto. injection ET as ET.
  pose proof (higheq_u64 h C _ US) as UT. pose proof (higheq_range h C _ US) as HR. pose proof (higheq_idem h _ W US) as HI. rewrite ET in *.
  pose proof (loweq_le _ (h_half_mag h) (um_nonneg h C) mx ltac:(apply UM)) as LL.
  assert (U1 : u64 (step - 1)) by (unfold u64 in *; lia).
  destruct (new_ok h W (lin h step (step - 1))) as (st & E & I & EN & IX & LA & PK & FR).
  assert (EI : iter_linear h step = Ret st).
  { unfold iter_linear. destruct (Z.ltb_spec 0 step); [|lia]. cbn [assert bind]. unfold u64_sub. rewrite in_range_ok by exact U1. cbn [bind].
    rewrite lowest_equivalent_ok by auto. exact E. }
  destruct (lin_runs h W step S0 t UT (eq_sym HI) B2 ltac:(lia) (S (Z.to_nat (t - (step - 1)))) st (step - 1) ltac:(lia) I EN PK U1 ltac:(lia)) as (k & K1 & K2 & K3 & K4).
  { left. rewrite LA, IX. split; auto. apply cbin_range; auto. }
  assert (LV : forall i, level_from step (step - 1) i = linear_level step i) by (intros; unfold level_from, linear_level; lia).
  assert (MP : map (level_from step (step - 1)) (seq 0 (S k)) = map (linear_level step) (seq 0 (S k))) by (apply map_ext; auto).
  rewrite MP in K1. replace (prevd st) with 0 in K1 by (unfold prevd; rewrite LA; auto).
  assert (FU : Forall u64 (map (linear_level step) (seq 0 (S k)))).
  { apply Forall_forall. intros x X. apply in_map_iff in X. destruct X as (i & <- & X). apply in_seq in X. rewrite <- LV. apply K2. lia. }
  rewrite LV in K4. rewrite LV in K4. rewrite <- LM, EL in K3, K4.
  exists st, (lvitems h 0 (map (linear_level step) (seq 0 (S k)))), k. split; [exact EI|]. split; [apply runs_drains; auto|]. split.
  { apply lvitems_at; auto. }
  split. { intros i IK. rewrite <- !LV. apply K3; auto. } split; [exact K4|].
  intros SM. rewrite held_total in * by auto. apply levels_report; auto.
  - discriminate.
  - intros a b x y E2. assert (X : nth_error (map (linear_level step) (seq 0 (S k))) (length a) = Some x) by (rewrite E2, nth_error_app2, Nat.sub_diag by lia; reflexivity).
    assert (Y : nth_error (map (linear_level step) (seq 0 (S k))) (S (length a)) = Some y) by (rewrite E2, nth_error_app2 by lia; replace (S (length a) - length a)%nat with 1%nat by lia; reflexivity).
    assert (NS : forall j z, nth_error (map (linear_level step) (seq 0 (S k))) j = Some z -> z = linear_level step j).
    { intros j z J. assert (j < S k)%nat by (rewrite <- (seq_length (S k) 0), <- (map_length (linear_level step)); apply nth_error_Some; congruence).
      apply (nth_error_nth _ _ (linear_level step 0)) in J. rewrite map_nth, seq_nth in J by auto. auto. }
    apply NS in X, Y. subst. unfold linear_level. lia.
  - rewrite seq_S, map_app. cbn [map]. rewrite last_last. rewrite LM in EL. rewrite EL. cbn [Nat.add]. apply Z.nlt_ge. intros L. apply K4. left. exact L.
Qed.
(*EX
Example ex_C25 : match build U64 1 10000 0 false [(5, 2); (333, 1); (410, 4); (300, 1)] with
  | Some h => reachable h /\ match iter_linear h 50, lowest_equivalent h 511 with
      | Ret it, Ret lo => match iter_collect 12 pk_linear h it with
          | Ret xs => map (fun x => (iv_value x, iv_count x, iv_since x)) xs =
              [(49, 0, 2); (99, 0, 0); (149, 0, 0); (199, 0, 0); (249, 0, 0); (299, 6, 6); (349, 6, 0); (399, 6, 0); (449, 6, 0); (499, 6, 0)] /\
              held h = [(4, 2); (256, 6)] /\ lo = 256 /\ max h = Ret 511 /\ highest_equivalent h (511 + 50) = Ret 1023
          | _ => False end
      | _, _ => False end
  | _ => False end.
Proof. float_case. Qed.
EX*)

(** close to [u64::MAX] computing the next level overflows (a panic in a build with overflow checks) and
    the largest sample is never reported *)
Lemma C25_overflow_refuted_proof : exists h it it' x, reachable h /\ max h = Ret u64_max /\ weight (held h) = 1 /\
  iter_linear h (2 ^ 63) = Ret it /\ iter_next pk_linear h it = Ret (it', Some x) /\ iv_since x = 0 /\ iter_next pk_linear h it' = Panic.
Proof.
  assert (X : match build U64 1 1000 1 true [(u64_max, 1)] with
    | Some h => max h = Ret u64_max /\ weight (held h) = 1 /\
        match iter_linear h (2 ^ 63) with
        | Ret it => match iter_next pk_linear h it with
            | Ret (it', Some x) => iv_since x = 0 /\ iter_next pk_linear h it' = Panic
            | _ => False end
        | _ => False end
    | None => False end) by (vm_compute; auto).
  destruct (build U64 1 1000 1 true [(u64_max, 1)]) as [h|] eqn:B; [|contradiction]. destruct X as (X1 & X2 & X).
  destruct (iter_linear h (2 ^ 63)) as [it|] eqn:L; [|contradiction]. destruct (iter_next pk_linear h it) as [[it' [x|]]|] eqn:N; try contradiction. destruct X as [X3 X4].
  exists h, it, it', x. split; [eapply build_reachable; eauto|]. auto 8.
Qed.

(** with no significant digits and the full range, deciding whether to go on shifts by 64 bits: a panic
    although all levels fit *)
Lemma C25_shift_refuted_proof : exists h it items it', reachable h /\ held h = [(2 ^ 63, 1)] /\
  iter_linear h (2 ^ 61) = Ret it /\ takes pk_linear h it items it' /\
  map iv_value items = map (linear_level (2 ^ 61)) (seq 0 5) /\ linear_level (2 ^ 61) 6 < u64_max /\ iter_next pk_linear h it' = Panic.
Proof.
  assert (X : match build U64 1 1000 0 true [(2 ^ 63, 1)] with
    | Some h => held h = [(2 ^ 63, 1)] /\
        match iter_linear h (2 ^ 61) with
        | Ret i0 => match iter_next pk_linear h i0 with
          | Ret (i1, Some x1) => match iter_next pk_linear h i1 with
          | Ret (i2, Some x2) => match iter_next pk_linear h i2 with
          | Ret (i3, Some x3) => match iter_next pk_linear h i3 with
          | Ret (i4, Some x4) => match iter_next pk_linear h i4 with
          | Ret (i5, Some x5) => map iv_value [x1; x2; x3; x4; x5] = map (linear_level (2 ^ 61)) (seq 0 5) /\ iter_next pk_linear h i5 = Panic
          | _ => False end | _ => False end | _ => False end | _ => False end | _ => False end
        | _ => False end
    | None => False end) by (vm_compute; auto).
  destruct (build U64 1 1000 0 true [(2 ^ 63, 1)]) as [h|] eqn:B; [|contradiction]. destruct X as [X1 X].
  destruct (iter_linear h (2 ^ 61)) as [i0|] eqn:L; [|contradiction].
  destruct (iter_next pk_linear h i0) as [[i1 [x1|]]|] eqn:N1; try contradiction.
  destruct (iter_next pk_linear h i1) as [[i2 [x2|]]|] eqn:N2; try contradiction.
  destruct (iter_next pk_linear h i2) as [[i3 [x3|]]|] eqn:N3; try contradiction.
  destruct (iter_next pk_linear h i3) as [[i4 [x4|]]|] eqn:N4; try contradiction.
  destruct (iter_next pk_linear h i4) as [[i5 [x5|]]|] eqn:N5; try contradiction. destruct X as [X2 X3].
  exists h, i0, [x1; x2; x3; x4; x5], i5. split; [eapply build_reachable; eauto|]. split; auto. split; auto.
  split. { repeat (econstructor; eauto). } split; auto. split; auto. vm_compute. auto.
Qed.

(** ** C26.  [iter_log] reports at [start - 1] and then at levels growing by the factor [base]; it stops at
    the first level in or above the class of the maximum, so it always ends, and it never panics. *)
Lemma adjacent_removelast (l : list Z) (P : Z -> Z -> Prop) (Q : Z -> Prop) :
  (forall p q y z, l = p ++ y :: z :: q -> P y z /\ Q y) -> Sorted P l /\ Forall Q (removelast l).
Proof.
  induction l as [|x l IH]; intros H; cbn [removelast]; [split; constructor|].
  destruct IH as [I1 I2]. { intros p q y z E. apply (H (x :: p) q). rewrite E. reflexivity. }
  split.
  - constructor; auto. destruct l as [|y l]; constructor. apply (H [] l x y eq_refl).
  - destruct l as [|y l]; [constructor|]. constructor; auto. apply (H [] l x y eq_refl).
Qed.

Lemma C26_log_proof : forall h start base mx lo, reachable h -> is_u64 start -> 0 < start -> f64_lt f64_one base = true ->
  max h = Ret mx -> lowest_equivalent h mx = Ret lo ->
  exists it items n, let levels := (start - 1) :: log_levels (f64_of_u64 start) base n in
    iter_log h start base = Ret it /\ drains pk_log h it items /\ at_levels h 0 items levels /\
    Sorted Z.le levels /\ Forall (fun l => l < lo) (removelast levels) /\ lo <= last levels 0 /\
    (weight (held h) <= u64_max -> reported items = weight (held h)).
Proof.
  intros h start base mx lo R US S0 BL EM EL. pose proof (reachable_wf h R) as W. pose proof (w_cfg h W) as C. pose proof (w_size h W) as SZ.
  destruct (loweq_maxp h mx W EM) as [UM LM]. rewrite lowest_equivalent_ok in EL by auto. injection EL as EL. rewrite LM in EL. subst lo.
  assert (U1 : u64 (start - 1)) by (unfold u64, is_u64 in *; lia).
  destruct (first_level start base ltac:(unfold is_u64 in *; lia) BL) as [A1 A2].
  assert (G : good (f64_of_u64 start) base (start - 1)) by (split; auto; lia).
  destruct (new_ok h W (lgp h (f64_of_u64 start) base (start - 1))) as (st & E & I & EN & IX & LA & PK & FR).
  assert (EI : iter_log h start base = Ret st).
  { unfold iter_log. destruct (Z.ltb_spec 0 start); [|lia]. rewrite BL. cbn [assert bind]. unfold u64_sub. rewrite in_range_ok by exact U1. cbn [bind].
    rewrite lowest_equivalent_ok by auto. exact E. }
  destruct (close_exists (f64_of_u64 start) (start - 1) A1) as (n & CL).
  destruct (log_runs h W base BL n st _ _ CL G I EN PK) as (k & K1 & K2 & K3 & K4).
  { rewrite LA. reflexivity. } { rewrite IX. apply cbin_range; auto. }
  replace (prevd st) with 0 in K1 by (unfold prevd; rewrite LA; auto).
  exists st, (lvitems h 0 ((start - 1) :: log_levels (f64_of_u64 start) base k)), k. cbn zeta.
  destruct (adjacent_removelast _ _ _ K3) as [S1 S2].
  split; auto. split; [apply runs_drains; auto|]. split; [apply lvitems_at; auto|]. split; auto. split; auto. split; auto.
  intros SM. rewrite held_total in * by auto. apply levels_report; auto; [discriminate|]. intros p q y z E2. apply (K3 p q y z E2).
Qed.
(*EX
Example ex_C26 : match build U64 1 10000 1 false [(5, 2); (333, 1); (410, 4); (415, 1)] with
  | Some h => reachable h /\ match iter_log h 7 (f64_div (f64_of_u64 5) (f64_of_u64 2)) with
      | Ret it => match iter_collect 12 pk_log h it with
          | Ret xs => map (fun x => (iv_value x, iv_count x, iv_since x)) xs = [(6, 0, 2); (16, 0, 0); (42, 0, 0); (108, 0, 0); (272, 0, 0); (682, 0, 6)] /\
              held h = [(5, 2); (320, 1); (400, 5)] /\ max h = Ret 415 /\ lowest_equivalent h 415 = Ret 400
          | _ => False end
      | _ => False end
  | _ => False end.
Proof. float_case. Qed.
EX*)

(** when start and base are integers the levels are [start * base^k - 1], exactly while those are below
    2^53 *)
Lemma C26_integer_base_proof : forall start b n k, 0 < start -> 1 < b -> (k < n)%nat -> start * b ^ (Z.of_nat k + 1) <= 2 ^ 53 ->
  nth_error (log_levels (f64_of_u64 start) (f64_of_u64 b) n) k = Some (start * b ^ (Z.of_nat k + 1) - 1).
Proof.
  intros start b n k S0 B1. revert start n S0. induction k as [|k IH]; intros start n S0 K L; destruct n as [|n]; try lia; cbn [log_levels nth_error].
  - change (Z.of_nat 0 + 1) with 1 in *. rewrite Z.pow_1_r in *. rewrite mul_exact by nia. rewrite to_u64_exact by nia. reflexivity.
  - assert (E : b ^ (Z.of_nat (S k) + 1) = b * b ^ (Z.of_nat k + 1)). { rewrite <- Z.pow_succ_r by lia. f_equal. lia. }
    rewrite E in *. assert (1 <= b ^ (Z.of_nat k + 1)) by (pose proof (Z.pow_pos_nonneg b (Z.of_nat k + 1)); lia).
    rewrite mul_exact by nia. rewrite IH by (try lia; nia). f_equal. ring.
Qed.
(*EX
Example ex_C26_integer_base : log_levels (f64_of_u64 3) (f64_of_u64 10) 4 = [29; 299; 2999; 29999].
Proof. vm_compute. auto. Qed.
EX*)
