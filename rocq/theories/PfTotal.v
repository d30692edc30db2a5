(** * Proofs of the properties about panics (C28, C31) *)
(*PROPS-IMPORTS Machine Log2Model HistModel Spec Reach Witness Cases FloatModel IterModel IterSpec FloatSpec *)
(*PROPS-HEADER
From Coq Require Import Reals.
PROPS-HEADER*)
From Coq Require Import Reals.
From Verif Require Import Machine Log2Model HistModel Spec Reach Bins ListZ Log2Facts Cfg Wf Ops AddFacts SubFacts Exact MoreFacts Witness HeldFacts PfRecord PfMerge PfQuery FloatModel IterModel IterSpec IterFacts IterBins FloatSpec FloatFacts PfIter PfQuantile PfPercent StatSpec PfStats.
From Coq Require Import ZifyBool ZifyNat Lra.
From Flocq Require Import Core IEEE754.BinarySingleNaN.
Open Scope Z_scope.

Lemma scan_any h target z : wf h -> 1 <= target <= u64_max ->
  (zsum (h_counts h) < target /\ vaq_scan h (h_counts h) 0 0 target z = Ret 0) \/
  (exists i, 0 <= i < zlen (h_counts h) /\ zpre (h_counts h) i < target <= zpre (h_counts h) (i + 1) /\
     vaq_scan h (h_counts h) 0 0 target z = if u64_max <? zpre (h_counts h) (i + 1) then Panic else Ret (if z then bval h i else topval h i)).
Proof.
  intros W T. pose proof (w_cfg h W) as C. pose proof (w_size h W) as SZ.
  pose proof (len_le_top h C SZ) as LT.
  assert (G : forall cs i, 0 <= i -> cs = skipn (Z.to_nat i) (h_counts h) -> i + zlen cs = zlen (h_counts h) -> zpre (h_counts h) i < target ->
    (zsum (h_counts h) < target /\ vaq_scan h cs i (zpre (h_counts h) i) target z = Ret 0) \/
    (exists j, 0 <= j < zlen (h_counts h) /\ zpre (h_counts h) j < target <= zpre (h_counts h) (j + 1) /\
       vaq_scan h cs i (zpre (h_counts h) i) target z = if u64_max <? zpre (h_counts h) (j + 1) then Panic else Ret (if z then bval h j else topval h j))).
  { induction cs as [|c cs IH]; intros i I E L P; cbn [vaq_scan].
    - left. rewrite zlen_nil in L. rewrite zpre_all in P by lia. auto.
    - rewrite zlen_cons in L. pose proof (zlen_nonneg cs).
      assert (CE : c = zn (h_counts h) i). { pose proof (zn_skipn (h_counts h) i 0 I ltac:(lia)) as Z. rewrite <- E, zn_cons_0, Z.add_0_r in Z. auto. }
      assert (SE : cs = skipn (Z.to_nat (i + 1)) (h_counts h)).
      { replace (Z.to_nat (i + 1)) with (Datatypes.S (Z.to_nat i)) by lia. clear - E. revert E. generalize (Z.to_nat i) as k. generalize (h_counts h) as l.
        induction l as [|x l IH]; intros k E; [destruct k; discriminate|]. destruct k; cbn [skipn] in E |- *; [injection E; auto|]. rewrite (IH k E). destruct l; auto. }
      pose proof (zpre_succ (h_counts h) i I) as ZS. rewrite <- CE in ZS.
      pose proof (zpre_le_zsum (h_counts h) (i + 1) (wf_nonneg h W)). pose proof (zpre_nonneg (h_counts h) (i + 1) (wf_nonneg h W)).
      destruct (Z.ltb_spec u64_max (zpre (h_counts h) (i + 1))) as [O|O].
      + right. exists i. split; [lia|]. split; [lia|]. unfold u64_add, in_range. rewrite <- ZS. rewrite (proj2 (Z.ltb_lt _ _) O).
        destruct (Z.leb_spec 0 (zpre (h_counts h) (i + 1))), (Z.leb_spec (zpre (h_counts h) (i + 1)) u64_max); try lia. reflexivity.
      + unfold u64_add. rewrite in_range_ok by lia. cbn [bind]. rewrite <- ZS. destruct (Z.leb_spec target (zpre (h_counts h) (i + 1))) as [R|R].
        * right. exists i. split; [lia|]. split; [lia|]. rewrite (proj2 (Z.ltb_ge _ _)) by lia. rewrite value_for_ok by (auto; lia). cbn [bind]. destruct z.
          -- apply (covers_bval h i W). lia.
          -- apply highest_bval; auto. lia.
        * apply IH; auto; lia. }
  destruct (G (h_counts h) 0) as [A|A]; auto; try lia.
  rewrite zpre_0. lia.
Qed.

Lemma rank_le q n : quantile_rank q n <= u64_max.
Proof. unfold quantile_rank, rank_of. destruct q as [s|[]| |s m e B]; unfold u64_max; lia. Qed.

(** ** C28.  What [value_at_quantile] does in every state, also when the counts add up to more than
    [u64::MAX]: it panics (where overflow is checked) exactly when the sample of the rank asked for is in
    the class in which the running total overflows *)
Lemma C28_outcome_proof : forall h q, reachable h ->
  let k := quantile_rank q (len h) in
  (weight (held h) < k /\ value_at_quantile h q = Ret 0) \/
  (exists w n, In (w, n) (held h) /\ weight_between 0 w (held h) - n < k <= weight_between 0 w (held h) /\
     value_at_quantile h q =
       if u64_max <? weight_between 0 w (held h) then Panic else if f64_eq q f64_zero then Ret w else highest_equivalent h w).
Proof.
  intros h q R k. pose proof (reachable_wf h R) as W. rewrite held_total by auto.
  pose proof (wf_total_nonneg h W) as TN. pose proof (w_total h W) as TT.
  destruct (rank_ok q (h_total h) ltac:(lia)) as [E1 E2]. unfold value_at_quantile. cbn zeta in E1 |- *. rewrite E1, E2.
  destruct (scan_any h (quantile_rank q (h_total h)) (f64_eq q f64_zero) W) as [A|(i & I & P & E)]; [split; [apply rank_pos|apply rank_le]|left; auto|right].
  exists (bval h i), (zn (h_counts h) i). pose proof (zpre_succ (h_counts h) i ltac:(lia)).
  rewrite held_contents by auto. rewrite weight_below by auto. split; [apply contents_mem; auto; lia|]. split; [unfold k, len; lia|].
  rewrite E, highest_bval by auto. destruct (f64_eq q f64_zero); reflexivity.
Qed.
(*EX
Example ex_C28_outcome : match build U64 1 100 1 false [(5, 2 ^ 63); (40, 2 ^ 63); (60, 3)] with
  | Some h => reachable h /\ len h = u64_max /\ weight (held h) = 2 ^ 64 + 3 /\
      value_at_quantile h (f64_div f64_one (f64_of_u64 2)) = Ret 5 /\ value_at_quantile h f64_one = Panic /\
      weight_between 0 40 (held h) = 2 ^ 64
  | _ => False end.
Proof. float_case. Qed.
EX*)

Lemma vaq_total h q : reachable h -> weight (held h) <= u64_max -> value_at_quantile h q <> Panic.
Proof.
  intros R S. destruct (C28_rank_proof h q R S) as [[_ E]|(w & n & I & _ & E)]; rewrite E; [discriminate|].
  destruct (f64_eq q f64_zero); [discriminate|]. pose proof (reachable_wf h R) as W.
  destruct (held_one h w n W I) as (U & _). apply (C31_queries_total_proof h w 0); auto. split; [lia|unfold u64_max; lia].
Qed.

(** ** C31.  The statistics never panic either (the quantile queries as long as the counts add up to at
    most [u64::MAX]) *)
Lemma C31_statistics_total_proof : forall h v q, reachable h -> is_u64 v ->
  mean h <> Panic /\ stdev h <> Panic /\ quantile_below h v <> Panic /\ percentile_below h v <> Panic /\
  (weight (held h) <= u64_max -> value_at_quantile h q <> Panic /\ value_at_percentile h q <> Panic).
Proof.
  intros h v q R V. pose proof (reachable_wf h R) as W. pose proof (wf_total_nonneg h W) as TN.
  assert (M : mean h <> Panic /\ stdev h <> Panic).
  { destruct (Z.eq_dec (len h) 0) as [E|E].
    - destruct (C51_empty_proof h E) as [-> ->]. split; discriminate.
    - destruct (C51_stdev_proof h R ltac:(unfold len in *; lia)) as (m & s & -> & -> & _). split; discriminate. }
  destruct M as [M1 M2]. split; auto. split; auto.
  destruct (C58_percentile_below_proof h v R V) as (p & q' & -> & -> & _). split; [discriminate|]. split; [discriminate|].
  intros S. split; [|unfold value_at_percentile]; apply vaq_total; auto.
Qed.
(*EX
Example ex_C31_statistics : match build U8 1 1000 1 true [(5, 200); (7, 255); (5, 100); (u64_max, 1)] with
  | Some h => reachable h /\ is_u64 u64_max /\ len h = 556 /\ weight (held h) = 511 /\ weight (held h) <= u64_max /\
      match mean h with Ret m => f64_lt (f64_of_u64 (2 ^ 54)) m = true | _ => False end /\
      value_at_quantile h f64_one = Ret 0 /\ value_at_quantile h (f64_div f64_one (f64_of_u64 2)) = Ret 7
  | _ => False end.
Proof. float_case. Qed.
EX*)

(** ** C31.  The iterators: which arguments are refused *)
Lemma iter_new_ok P h (p : P) : reachable h -> iter_new h p <> Panic.
Proof.
  intros R. destruct (C24_no_panic_proof P (mk_picker (fun _ p _ _ _ => Ret (None, p)) (fun _ p _ => Ret (false, p))) h p R) as (it & -> & _); [discriminate|discriminate|discriminate].
Qed.
Lemma C31_iterators_start_proof : forall h n base, reachable h -> is_u64 n ->
  iter_all h <> Panic /\ iter_recorded h <> Panic /\
  (iter_quantiles h n = Panic <-> n = 0) /\
  (iter_linear h n = Panic <-> n = 0) /\
  (iter_log h n base = Panic <-> n = 0 \/ f64_lt f64_one base = false).
Proof.
  intros h n base R [N0 N1]. split; [apply iter_new_ok; auto|]. split; [apply iter_new_ok; auto|].
  assert (L : 0 < n -> exists lo, u64_sub n 1 = Ret (n - 1) /\ lowest_equivalent h (n - 1) = Ret lo).
  { intros NP. destruct (lowest_equivalent h (n - 1)) as [lo|] eqn:E.
    - exists lo. split; auto. unfold u64_sub. rewrite in_range_ok by lia. reflexivity.
    - exfalso. destruct (C31_queries_total_proof h (n - 1) 0 R) as (_ & X & _); [split; lia|split; [lia|unfold u64_max; lia]|]. auto. }
  split; [|split].
  - unfold iter_quantiles, assert. destruct (Z.ltb_spec 0 n); cbn [bind]; split; try lia; auto.
    intros X. destruct (iter_new_ok _ h (mk_quantit n f64_zero false) R X).
  - unfold iter_linear, assert. destruct (Z.ltb_spec 0 n); cbn [bind]; split; try lia; auto.
    destruct (L ltac:(lia)) as (lo & -> & E). cbn [bind]. rewrite E. cbn [bind]. intros X. destruct (iter_new_ok _ h _ R X).
  - unfold iter_log, assert. destruct (Z.ltb_spec 0 n); cbn [bind]; [|split; auto; intros _; left; lia].
    destruct (f64_lt f64_one base); cbn [bind]; [|split; auto].
    destruct (L ltac:(lia)) as (lo & -> & E). cbn [bind]. rewrite E. cbn [bind]. split; [|intros [X|X]; [lia|discriminate]].
    intros X. destruct (iter_new_ok _ h _ R X).
Qed.
(*EX
Example ex_C31_iterators_start : match build U64 1 1000 2 false [(5, 1)] with
  | Some h => reachable h /\ is_u64 7 /\ match iter_log h 7 (f64_of_u64 2), iter_linear h 7, iter_quantiles h 7 with Ret _, Ret _, Ret _ => True | _, _, _ => False end /\
      match iter_log h 7 f64_one, iter_linear h 0, iter_quantiles h 0 with Panic, Panic, Panic => True | _, _, _ => False end
  | _ => False end.
Proof. float_case. Qed.
EX*)
