(** * Proofs of the properties about quantiles (C28, C29) *)
(*PROPS-IMPORTS Machine Log2Model HistModel Spec Reach Witness Cases FloatModel IterModel IterSpec FloatSpec *)
(*PROPS-HEADER
From Coq Require Import Reals.
PROPS-HEADER*)
From Coq Require Import Reals.
From Verif Require Import Machine Log2Model HistModel Spec Reach Bins ListZ Log2Facts Cfg Wf Ops AddFacts SubFacts Exact MoreFacts Witness HeldFacts PfRecord PfMerge PfQuery FloatModel IterModel IterSpec IterFacts IterBins FloatSpec FloatFacts PfIter.
From Coq Require Import ZifyBool ZifyNat Lra.
From Flocq Require Import Core IEEE754.BinarySingleNaN.
Open Scope Z_scope.

(** ** The scan *)
Lemma scan_ok h target z : wf h -> zsum (h_counts h) <= u64_max -> 1 <= target ->
  (zsum (h_counts h) < target /\ vaq_scan h (h_counts h) 0 0 target z = Ret 0) \/
  (exists i, 0 <= i < zlen (h_counts h) /\ zpre (h_counts h) i < target <= zpre (h_counts h) (i + 1) /\
     vaq_scan h (h_counts h) 0 0 target z = Ret (if z then bval h i else topval h i)).
Proof.
  intros W S T. pose proof (w_cfg h W) as C. pose proof (w_size h W) as SZ.
  pose proof (len_le_top h C SZ) as LT.
  assert (G : forall cs i, 0 <= i -> cs = skipn (Z.to_nat i) (h_counts h) -> i + zlen cs = zlen (h_counts h) -> zpre (h_counts h) i < target ->
    (zsum (h_counts h) < target /\ vaq_scan h cs i (zpre (h_counts h) i) target z = Ret 0) \/
    (exists j, 0 <= j < zlen (h_counts h) /\ zpre (h_counts h) j < target <= zpre (h_counts h) (j + 1) /\
       vaq_scan h cs i (zpre (h_counts h) i) target z = Ret (if z then bval h j else topval h j))).
  { induction cs as [|c cs IH]; intros i I E L P; cbn [vaq_scan].
    - left. rewrite zlen_nil in L. rewrite zpre_all in P by lia. auto.
    - rewrite zlen_cons in L. pose proof (zlen_nonneg cs).
      assert (CE : c = zn (h_counts h) i). { pose proof (zn_skipn (h_counts h) i 0 I ltac:(lia)) as Z. rewrite <- E, zn_cons_0, Z.add_0_r in Z. auto. }
      assert (SE : cs = skipn (Z.to_nat (i + 1)) (h_counts h)).
      { replace (Z.to_nat (i + 1)) with (Datatypes.S (Z.to_nat i)) by lia. clear - E. revert E. generalize (Z.to_nat i) as k. generalize (h_counts h) as l.
        induction l as [|x l IH]; intros k E; [destruct k; discriminate|]. destruct k; cbn [skipn] in E |- *; [injection E; auto|]. rewrite (IH k E). destruct l; auto. }
      pose proof (zpre_succ (h_counts h) i I) as ZS. rewrite <- CE in ZS.
      pose proof (zpre_le_zsum (h_counts h) (i + 1) (wf_nonneg h W)). pose proof (zpre_nonneg (h_counts h) (i + 1) (wf_nonneg h W)).
      unfold u64_add. rewrite in_range_ok by lia. cbn [bind]. rewrite <- ZS. destruct (Z.leb_spec target (zpre (h_counts h) (i + 1))) as [R|R].
      + right. exists i. split; [lia|]. split; [lia|]. rewrite value_for_ok by (auto; lia). cbn [bind]. destruct z.
        * apply (covers_bval h i W). lia.
        * apply highest_bval; auto. lia.
      + apply IH; auto; lia. }
  destruct (G (h_counts h) 0) as [A|A]; auto; try lia.
  rewrite zpre_0. lia.
Qed.

(** ** C28.  [value_at_quantile q] reports the class of the sample whose rank is [q * len]: computed in
    f64, rounded up, at least 1.  Quantile 0 reports the lowest value of the class, other quantiles the
    highest.  0 is reported if there is no sample of that rank. *)
Lemma vaq_ok h q : wf h -> zsum (h_counts h) <= u64_max ->
  (zsum (h_counts h) < quantile_rank q (len h) /\ value_at_quantile h q = Ret 0) \/
  (exists i, 0 <= i < zlen (h_counts h) /\ zpre (h_counts h) i < quantile_rank q (len h) <= zpre (h_counts h) (i + 1) /\
     value_at_quantile h q = Ret (if f64_eq q f64_zero then bval h i else topval h i)).
Proof.
  intros W S. pose proof (wf_total_nonneg h W) as TN. pose proof (w_total h W) as TT.
  destruct (rank_ok q (h_total h) ltac:(lia)) as [E1 E2]. unfold value_at_quantile. cbn zeta in E1 |- *. rewrite E1, E2.
  apply scan_ok; auto. apply rank_pos.
Qed.
Lemma C28_rank_proof : forall h q, reachable h -> weight (held h) <= u64_max ->
  let k := quantile_rank q (len h) in
  (weight (held h) < k /\ value_at_quantile h q = Ret 0) \/
  (exists w n, In (w, n) (held h) /\ weight_between 0 w (held h) - n < k <= weight_between 0 w (held h) /\
     value_at_quantile h q = if f64_eq q f64_zero then Ret w else highest_equivalent h w).
Proof.
  intros h q R S k. pose proof (reachable_wf h R) as W. rewrite held_total in S by auto. rewrite held_total by auto.
  destruct (vaq_ok h q W S) as [A|(i & I & P & E)]; [left; auto|right].
  exists (bval h i), (zn (h_counts h) i). pose proof (zpre_succ (h_counts h) i ltac:(lia)).
  rewrite held_contents by auto. rewrite weight_below by auto. split; [apply contents_mem; auto; lia|]. split; [fold k in P; lia|].
  rewrite E, highest_bval by auto. destruct (f64_eq q f64_zero); reflexivity.
Qed.
(*EX
Example ex_C28_rank : match build U64 1 10000 1 false [(5000, 8); (5, 2); (333, 1); (900, 9)] with
  | Some h => reachable h /\ weight (held h) <= u64_max /\ len h = 20 /\ In (896, 9) (held h) /\
      weight_between 0 896 (held h) = 12 /\ value_at_quantile h (f64_div (f64_of_u64 12) (f64_of_u64 20)) = Ret 927 /\ highest_equivalent h 896 = Ret 927
  | None => False end.
Proof. float_case. Qed.
EX*)
(** with at most 2^53 samples the rank exists, so the result is always a recorded class *)
Lemma C28_rank_exists_proof : forall h q, reachable h -> len_agrees h -> 1 <= len h <= 2 ^ 53 ->
  1 <= quantile_rank q (len h) <= weight (held h).
Proof.
  intros h q R A L. unfold len_agrees in A. rewrite <- A. pose proof (rank_pos q (len h)). pose proof (rank_bound q (len h) ltac:(lia)). lia.
Qed.
(*EX
Example ex_C28_rank_exists : match build U64 1 10000 1 false [(5000, 8); (5, 2); (333, 1); (900, 9)] with
  | Some h => reachable h /\ len_agrees h /\ len h = 20 /\ 1 <= len h <= 2 ^ 53 /\ weight (held h) = 20
  | None => False end.
Proof. float_case. Qed.
EX*)
(** larger quantiles report larger values *)
Lemma C28_monotone_proof : forall h a b x y, reachable h -> weight (held h) <= u64_max ->
  f64_le f64_zero a = true -> f64_le a b = true -> quantile_rank b (len h) <= weight (held h) ->
  value_at_quantile h a = Ret x -> value_at_quantile h b = Ret y -> x <= y.
Proof.
  intros h a b x y R S A0 AB RB EA EB. pose proof (reachable_wf h R) as W. rewrite held_total in S, RB by auto.
  pose proof (wf_total_nonneg h W) as TN. pose proof (w_total h W) as TT.
  pose proof (rank_mono a b (len h) ltac:(unfold len; lia) AB) as RM.
  destruct (vaq_ok h a W S) as [A|(i & I & P & E)]; [lia|]. destruct (vaq_ok h b W S) as [B|(j & J & P' & E')]; [lia|].
  rewrite EA in E. injection E as ->. rewrite EB in E'. injection E' as ->.
  assert (IJ : i <= j). { destruct (Z_le_dec i j); auto. pose proof (zpre_mono (h_counts h) (j + 1) i (wf_nonneg h W) ltac:(lia)). lia. }
  destruct (topval_ge h i W I) as (T1 & _). destruct (topval_ge h j W J) as (T2 & _).
  assert (TB : i < j -> topval h i < bval h j) by (intros; apply topval_lt; auto; lia).
  assert (BB : bval h i <= bval h j) by (apply bval_le; [apply w_cfg; auto|lia|lia]).
  destruct (Z.eq_dec i j) as [->|NE].
  - destruct (f64_eq b f64_zero) eqn:ZB; [|destruct (f64_eq a f64_zero); lia].
    replace (f64_eq a f64_zero) with true; [lia|]. symmetry. clear - A0 AB ZB.
    destruct a as [s|[]| |[] m e B]; destruct b as [s'|[]| |[] m' e' B']; cbn in *; try discriminate; auto.
  - specialize (TB ltac:(lia)). destruct (f64_eq a f64_zero), (f64_eq b f64_zero); lia.
Qed.
(*EX
Example ex_C28_monotone : match build U64 1 10000 1 false [(5000, 8); (5, 2); (333, 1); (900, 9)] with
  | Some h =>
      let q n := f64_div (f64_of_u64 n) (f64_of_u64 20) in
      reachable h /\ weight (held h) <= u64_max /\ f64_le f64_zero (q 3) = true /\ f64_le (q 3) (q 12) = true /\
      quantile_rank (q 12) (len h) <= weight (held h) /\ value_at_quantile h (q 3) = Ret 335 /\ value_at_quantile h (q 12) = Ret 927
  | _ => False end.
Proof.
  case_match. cbv zeta. repeat match goal with |- _ /\ _ => split end; 
  lazymatch goal with
  | R : reachable ?h |- quantile_rank ?q _ <= _ => apply (C28_rank_exists h q R); [vm_compute; reflexivity|vm_compute; split; discriminate]
  | |- _ => case_leaf
  end.
Qed.
EX*)
(** quantile 0 is the lowest value of the first class, anything from 1 up the highest of the last *)
Lemma C28_zero_proof : forall h q w n l, reachable h -> weight (held h) <= u64_max -> f64_eq q f64_zero = true ->
  held h = (w, n) :: l -> value_at_quantile h q = Ret w.
Proof.
  intros h q w n l R S Z H. pose proof (reachable_wf h R) as W. 
  assert (K : quantile_rank q (len h) = 1).
  { pose proof (wf_total_nonneg h W) as TN. pose proof (w_total h W) as TT. destruct q as [s|[]| |[] m e B]; cbn in Z; try discriminate. cbn [quantile_rank real_of B2R].
    rewrite Rmin_right by lra. apply rank_of_neg; [unfold len; lia|lra]. }
  destruct (C28_rank_proof h q R S) as [[A E]|(w' & n' & IN & P & E)]; rewrite K in *.
  - exfalso. rewrite H in A. cbn [weight] in A. destruct (held_one h w n W) as (_ & N & _); [rewrite H; cbn; auto|].
    assert (0 <= weight l); [|lia]. rewrite weight_wtotal.
    assert (F : Forall (fun p => 0 <= snd p) (held h)) by (rewrite held_contents by auto; apply contents_nonneg; auto). rewrite H in F. inversion F; subst. clear - H3.
    induction H3 as [|[v n] l]; cbn in *; lia.
  - rewrite Z in E. rewrite E. f_equal. destruct (held_one h w' n' W IN) as (U' & N' & _).
    rewrite H in IN, P. destruct IN as [EQ|IN]; [congruence|]. exfalso. revert P.
    destruct (held_one h w n W) as (U & N & _); [rewrite H; cbn; auto|].
    assert (F : Forall (fun p => 0 <= snd p) l). { assert (F : Forall (fun p => 0 <= snd p) (held h)) by (rewrite held_contents by auto; apply contents_nonneg; auto). rewrite H in F. inversion F; auto. }
    assert (LE : w <= w').
    { pose proof (sorted_idxs (Z.to_nat (zlen (h_counts h))) 0 (nz h)) as SO. 
      assert (SM : Sorted.StronglySorted Z.lt (map fst (held h))).
      { rewrite held_pairs by auto. rewrite map_map. cbn [fst]. apply sorted_map.
        - unfold held_idxs. exact SO.
        - intros a b A B L. apply held_idxs_in in A, B. apply bval_lt; [apply w_cfg; auto|lia|lia]. }
      rewrite H in SM. cbn [map fst] in SM. inversion SM; subst. rewrite Forall_forall in H3. specialize (H3 w' ltac:(apply in_map_iff; exists (w', n'); auto)). lia. }
    cbn [weight_between]. destruct (Z.leb_spec 0 w); [|destruct U; lia]. destruct (Z.leb_spec w w'); [|lia]. cbn [andb].
    assert (n' <= weight_between 0 w' l); [|lia]. clear - IN F U'. induction l as [|[v m] l IH]; [destruct IN|].
    inversion F; subst. cbn [snd weight_between] in *. specialize (IH).
    assert (0 <= weight_between 0 w' l). { clear - H2. induction H2 as [|[v m] l]; cbn in *; [lia|]. destruct (_ && _); lia. }
    destruct IN as [EQ|IN]; [injection EQ as -> ->|specialize (IH IN H2); destruct (_ && _); lia].
    destruct (Z.leb_spec 0 w'); [|destruct U'; lia]. rewrite Z.leb_refl. cbn [andb]. lia.
Qed.
(*EX
Example ex_C28_zero : match build U64 1 10000 1 false [(5000, 8); (5, 2); (333, 1); (900, 9)] with
  | Some h => reachable h /\ weight (held h) <= u64_max /\ f64_eq (f64_div (f64_of_u64 0) (f64_of_u64 20)) f64_zero = true /\ held h = [(5, 2); (320, 1); (896, 9); (4864, 8)] /\ value_at_quantile h (f64_div (f64_of_u64 0) (f64_of_u64 20)) = Ret 5
  | None => False end.
Proof. float_case. Qed.
EX*)
Lemma C28_one_proof : forall h q w n l, reachable h -> len_agrees h -> len h <= 2 ^ 53 -> f64_le f64_one q = true ->
  held h = l ++ [(w, n)] -> value_at_quantile h q = highest_equivalent h w.
Proof.
  intros h q w n l R A L Q H. pose proof (reachable_wf h R) as W. pose proof (wf_total_nonneg h W) as TN. pose proof (w_total h W) as TT.
  assert (LU : 0 <= len h <= u64_max) by (unfold len; lia).
  assert (F : Forall (fun p => 0 <= snd p) (held h)) by (rewrite held_contents by auto; apply contents_nonneg; auto).
  destruct (held_one h w n W) as (U & N & _); [rewrite H; apply in_or_app; cbn; auto|].
  assert (WL : 1 <= weight (held h)).
  { rewrite H in *. clear - F N. rewrite weight_wtotal. induction l as [|[v m] l IH]; cbn [app wtotal] in *; [lia|]. inversion F; subst. specialize (IH H2). cbn in H1. lia. }
  assert (K : quantile_rank q (len h) = len h).
  { unfold len_agrees in A. transitivity (rank_of 1 (len h)); [|rewrite rank_of_one; lia].
    destruct one_ok as [O1 O2]. assert (FQ : is_finite q = true -> (1 <= B2R q)%R).
    { intros FQ. unfold f64_le in Q. rewrite Bleb_correct in Q by auto. rewrite O1 in Q. destruct (Rle_bool_spec 1 (B2R q)); auto. discriminate. }
    destruct q as [s|[]| |s m e B]; try discriminate; cbn [quantile_rank]; auto; rewrite Rmin_left; auto; apply FQ; reflexivity. }
  assert (SU : weight (held h) <= u64_max) by (unfold len_agrees in A; lia).
  assert (NZ : f64_eq q f64_zero = false).
  { destruct q as [s|[]| |[] m e B]; cbn in Q |- *; auto; discriminate. }
  destruct (C28_rank_proof h q R SU) as [[X E]|(w' & n' & IN & P & E)]; rewrite K in *; unfold len_agrees in A; [lia|].
  rewrite NZ in E. rewrite E. f_equal. rewrite A in P.
  destruct (held_one h w' n' W IN) as (U' & N' & _).
  assert (SM : Sorted.StronglySorted Z.lt (map fst (held h))).
  { rewrite held_pairs by auto. rewrite map_map. cbn [fst]. apply sorted_map.
    - apply sorted_idxs.
    - intros a b AA B LT. apply held_idxs_in in AA, B. apply bval_lt; [apply w_cfg; auto|lia|lia]. }
  destruct P as [_ P]. rewrite H in IN. apply in_app_or in IN. destruct IN as [IN|[EQ|[]]]; [|congruence]. exfalso.
  rewrite H in P, SM, F.
  assert (LT : w' < w).
  { clear - SM IN. induction l as [|[v m] l IH]; [destruct IN|]. cbn [app map fst] in SM. inversion SM; subst. destruct IN as [EQ|IN]; auto.
    injection EQ as -> ->. rewrite Forall_forall in H2. apply H2. rewrite map_app. apply in_or_app. right. cbn. auto. }
  revert P. clear - F N LT. intros P. assert (G : weight_between 0 w' (l ++ [(w, n)]) < weight (l ++ [(w, n)])); [|lia].
  clear P. induction l as [|[v m] l IH]; cbn [app weight_between weight] in *.
  - destruct (Z.leb_spec w w'); [lia|]. rewrite andb_false_r. lia.
  - inversion F; subst. specialize (IH H2). cbn in H1. destruct (_ && _); lia.
Qed.
(*EX
Example ex_C28_one : match build U64 1 10000 1 false [(5000, 8); (5, 2); (333, 1); (900, 9)] with
  | Some h => reachable h /\ len_agrees h /\ len h = 20 /\ f64_le f64_one (f64_div (f64_of_u64 30) (f64_of_u64 20)) = true /\ held h = [(5, 2); (320, 1); (896, 9)] ++ [(4864, 8)] /\
      value_at_quantile h (f64_div (f64_of_u64 30) (f64_of_u64 20)) = Ret 5119 /\ highest_equivalent h 4864 = Ret 5119
  | None => False end.
Proof. float_case. Qed.
EX*)
(** beyond 2^53 samples [len as f64] may round up, and quantile 1 then finds nothing: 0 is reported
    although every sample is 5 *)
Lemma C28_rank_beyond_len_refuted_proof : exists h, reachable h /\ len_agrees h /\ held h = [(5, 2 ^ 53 + 3)] /\ max h = Ret 5 /\
  value_at_quantile h f64_one = Ret 0.
Proof.
  destruct (build U64 1 100 1 false [(5, 2 ^ 53 + 3)]) as [h|] eqn:B; [|vm_compute in B; discriminate].
  pose proof (build_reachable _ _ _ _ _ _ _ B) as R.
  vm_compute in B. injection B as <-.
  eexists. split; [exact R|]. split; [vm_compute; auto|]. vm_compute. auto.
Qed.
(** when the counts add up to more than [u64::MAX] the running total can overflow, which panics where
    overflow is checked *)
Lemma C28_overflow_panics_refuted_proof : exists h, reachable h /\ len h = u64_max /\ value_at_quantile h f64_one = Panic.
Proof.
  destruct (build U64 1 100 1 false [(5, 2 ^ 63); (7, 2 ^ 63 + 5)]) as [h|] eqn:B; [|vm_compute in B; discriminate].
  pose proof (build_reachable _ _ _ _ _ _ _ B) as R. vm_compute in B. injection B as <-.
  eexists. split; [exact R|]. vm_compute. auto.
Qed.
(*EX
(** the hypotheses, and every rank from 0 to beyond the end *)
Example ex_C28 : match build U64 1 10000 1 false [(5000, 8); (5, 2); (333, 1); (900, 9)] with
  | Some h =>
      let q n := f64_div (f64_of_u64 n) (f64_of_u64 20) in
      reachable h /\ len_agrees h /\ weight (held h) <= u64_max /\ 1 <= len h <= 2 ^ 53 /\
      f64_le f64_zero (q 3) = true /\ f64_le (q 3) (q 12) = true /\ f64_le f64_one (q 30) = true /\
      len h = 20 /\ held h = [(5, 2); (320, 1); (896, 9); (4864, 8)] /\
      map (fun n => value_at_quantile h (q n)) [0; 1; 2; 3; 4; 12; 13; 20; 30] =
        [Ret 5; Ret 5; Ret 5; Ret 335; Ret 927; Ret 927; Ret 5119; Ret 5119; Ret 5119]
  | _ => False end.
Proof. case_of. Qed.
EX*)

(** ** C29.  [quantile_below v] is the f64 quotient of the number of samples at or below [v] and [len] *)
Lemma sum_u64_ok cs : forall t, Forall (fun c => 0 <= c) cs -> 0 <= t -> t + zsum cs <= u64_max -> sum_u64 cs t = Ret (t + zsum cs).
Proof.
  induction cs as [|c cs IH]; intros t F T S; cbn [sum_u64]; [cbn; f_equal; lia|]. inversion F; subst. rewrite zsum_cons in *.
  pose proof (zsum_nonneg cs H2). unfold u64_add. rewrite in_range_ok by lia. cbn [bind]. rewrite IH by (auto; lia). f_equal. lia.
Qed.
Lemma weight_upto h v : wf h -> u64 v -> weight_between 0 v (contents h) = zpre (h_counts h) (cbin h v + 1).
Proof.
  intros W V. pose proof (w_cfg h W) as C. pose proof (w_size h W) as SZ. pose proof (len_pos h C SZ).
  pose proof (bin_nonneg h v C ltac:(apply V)) as B0.
  assert (CB : 0 <= cbin h v) by (unfold cbin; lia).
  pose proof (zpre_wrange (h_counts h) (bin h) (contents h) (fun k Hk => eq_sym (wsum_contents h k W Hk)) 0 (cbin h v + 1) ltac:(lia) ltac:(lia)) as Z.
  rewrite zpre_0 in Z. replace (0 + (cbin h v + 1)) with (cbin h v + 1) in Z by lia. replace (cbin h v + 1 - 1) with (cbin h v) in Z by lia. rewrite Z.sub_0_r in Z. rewrite Z.
  symmetry. apply wrange_between. intros w n IN. destruct (contents_in h w n W IN) as (k & [K0 _] & KL & -> & _).
  rewrite bin_bval by auto. split.
  - pose proof (bval_nonneg h k C K0). lia.
  - split; intros L.
    + assert (k <= bin h v); [|unfold cbin; lia]. rewrite <- (bin_bval h k C K0). apply bin_mono; auto. pose proof (bval_nonneg h k C K0). lia.
    + assert (k <= bin h v) by (unfold cbin in L; lia). pose proof (bval_le h k (bin h v) C K0 ltac:(auto)) as BL. rewrite (bval_bin h v) in BL by (auto; apply V).
      pose proof (loweq_le (h_um h) (h_half_mag h) (um_nonneg h C) v ltac:(apply V)). lia.
Qed.
Lemma quantile_below_ok h v : wf h -> u64 v -> h_total h <> 0 -> exists k, 0 <= k <= h_total h /\
  quantile_below h v = Ret (f64_div (f64_of_u64 k) (f64_of_u64 (h_total h))) /\
  (h_total h = zsum (h_counts h) -> k = zpre (h_counts h) (cbin h v + 1)).
Proof.
  intros W V NZ. pose proof (w_cfg h W) as C. pose proof (w_size h W) as SZ. pose proof (len_pos h C SZ) as LP.
  pose proof (wf_total_nonneg h W) as TN. pose proof (w_total h W) as TT. pose proof (bin_nonneg h v C ltac:(apply V)) as B0.
  unfold quantile_below. destruct (Z.eqb_spec (h_total h) 0); [contradiction|]. rewrite index_for_or_last_ok by auto. cbn [bind]. fold (cbin h v).
  assert (CB : 0 <= cbin h v < zlen (h_counts h)) by (unfold cbin; lia).
  unfold usize_add. rewrite in_range_ok by (pose proof (zlen_small h W); lia). cbn [bind].
  unfold distinct_values. destruct (Z.leb_spec (cbin h v + 1) (zlen (h_counts h))); [|lia]. cbn [assert bind].
  pose proof (zsum_split (h_counts h) (cbin h v + 1)) as SP. fold (zpre (h_counts h) (cbin h v + 1)) in SP.
  pose proof (wf_nonneg h W) as NN.
  set (lower := cbin h v <? zlen (h_counts h) / 2). cbn zeta.
  set (slice := if lower then firstn (Z.to_nat (cbin h v + 1)) (h_counts h) else skipn (Z.to_nat (cbin h v + 1)) (h_counts h)).
  assert (FS : Forall (fun c => 0 <= c) slice) by (unfold slice; destruct lower; [apply Forall_firstn|apply Forall_skipn]; auto).
  assert (P0 : 0 <= zpre (h_counts h) (cbin h v + 1)) by (apply zpre_nonneg; auto).
  assert (S0 : 0 <= zsum (skipn (Z.to_nat (cbin h v + 1)) (h_counts h))) by (apply zsum_nonneg, Forall_skipn; auto).
  assert (SL : 0 <= zsum slice <= zsum (h_counts h)).
  { unfold slice. destruct lower; [|lia]. change (zsum (firstn ?n ?l)) with (zpre (h_counts h) (cbin h v + 1)). lia. }
  assert (SS : (if h_total h <? u64_max then sum_u64 slice 0 else Ret (fold_sat slice 0)) = Ret (Z.min u64_max (zsum slice))).
  { destruct (Z.ltb_spec (h_total h) u64_max).
    - rewrite sum_u64_ok by (auto; lia). f_equal. lia.
    - rewrite fold_sat_ok by (auto; unfold u64_max; lia). f_equal. }
  rewrite SS. cbn [bind]. destruct lower eqn:LO.
  - cbn [bind]. exists (Z.min u64_max (zsum slice)). split; [lia|]. split; auto.
    intros TE. change (zsum slice) with (zpre (h_counts h) (cbin h v + 1)) in *. lia.
  - unfold u64_sub. rewrite in_range_ok by lia. cbn [bind]. exists (h_total h - Z.min u64_max (zsum slice)). split; [lia|]. split; auto.
    intros TE. unfold slice in *. lia.
Qed.
Lemma C29_fraction_proof : forall h v, reachable h -> is_u64 v -> len_agrees h -> len h <> 0 ->
  exists q, quantile_below h v = Ret q /\ finite q /\
    real_of q = rne (rne (IZR (weight_between 0 v (held h))) / rne (IZR (len h))).
Proof.
  intros h v R V A NZ. pose proof (reachable_wf h R) as W. pose proof (w_total h W). pose proof (wf_total_nonneg h W).
  destruct (quantile_below_ok h v W V NZ) as (k & K & E & KE). rewrite held_contents, weight_upto by auto.
  rewrite len_agrees_iff in A by auto. rewrite <- (KE A). eexists. split; [exact E|]. unfold len in *. destruct (div_ok k (h_total h) ltac:(lia) ltac:(lia)) as [D1 D2]. split; auto.
Qed.
(*EX
Example ex_C29_fraction : match build U64 1 10000 1 false [(5000, 8); (5, 2); (333, 1); (900, 9)] with
  | Some h => reachable h /\ is_u64 330 /\ len_agrees h /\ len h <> 0 /\ weight_between 0 330 (held h) = 3 /\
      match quantile_below h 330 with Ret x => f64_eq x (f64_div (f64_of_u64 3) (f64_of_u64 20)) = true | Panic => False end
  | None => False end.
Proof. float_case. Qed.
EX*)
(** it never panics, counts saturated or not, and lies between 0 and 1; an empty histogram gives 1 *)
Lemma C29_total_proof : forall h v, reachable h -> is_u64 v ->
  exists q, quantile_below h v = Ret q /\ finite q /\ (0 <= real_of q <= 1)%R /\ (len h = 0 -> real_of q = 1%R).
Proof.
  intros h v R V. pose proof (reachable_wf h R) as W. pose proof (w_total h W). pose proof (wf_total_nonneg h W).
  destruct (Z.eq_dec (len h) 0) as [Z|NZ].
  - unfold len in *. unfold quantile_below. rewrite Z. cbn [Z.eqb]. exists f64_one. destruct one_ok as [O1 O2]. unfold real_of. rewrite O1. split; auto. split; auto. split; auto; lra.
  - destruct (quantile_below_ok h v W V NZ) as (k & K & E & _). exists (f64_div (f64_of_u64 k) (f64_of_u64 (h_total h))).
    destruct (div_ok k (h_total h) ltac:(lia) ltac:(unfold len in *; lia)) as [D1 D2]. split; auto. split; auto. unfold real_of. rewrite D2.
    split; [|contradiction]. apply quot_range; unfold len in *; lia.
Qed.
(*EX
Example ex_C29_total : match build U8 1 10000 1 false [(5, 200); (5, 100); (900, 9)] with
  | Some h => reachable h /\ is_u64 5 /\ ~ len_agrees h /\ len h = 309 /\
      match quantile_below h 5 with Ret x => f64_lt x f64_one = true /\ f64_lt f64_zero x = true | Panic => False end
  | None => False end.
Proof. float_case. discriminate. Qed.
EX*)
(** monotone, and 1 as soon as no sample is above *)
Lemma C29_monotone_proof : forall h v w p q, reachable h -> is_u64 v -> is_u64 w -> len_agrees h -> v <= w ->
  quantile_below h v = Ret p -> quantile_below h w = Ret q -> (real_of p <= real_of q)%R.
Proof.
  intros h v w p q R V V2 A L E1 E2. pose proof (reachable_wf h R) as W. pose proof (w_total h W). pose proof (wf_total_nonneg h W).
  destruct (Z.eq_dec (len h) 0) as [Z|NZ].
  { unfold quantile_below, len in *. rewrite Z in *. cbn [Z.eqb] in *. injection E1 as <-. injection E2 as <-. apply Rle_refl. }
  destruct (C29_fraction_proof h v R V A NZ) as (p' & E1' & _ & P). rewrite E1' in E1. injection E1 as <-.
  destruct (C29_fraction_proof h w R V2 A NZ) as (q' & E2' & _ & Q). rewrite E2' in E2. injection E2 as <-.
  rewrite P, Q. apply quot_mono; [|unfold len in *; lia]. rewrite !held_contents, !weight_upto by auto.
  pose proof (w_cfg h W) as C. pose proof (len_pos h C (w_size h W)). pose proof (bin_nonneg h v C ltac:(apply V)).
  split; [apply zpre_nonneg, wf_nonneg; auto|]. apply zpre_mono; [apply wf_nonneg; auto|]. pose proof (bin_mono h v w C ltac:(destruct V; lia)). unfold cbin. lia.
Qed.
(*EX
Example ex_C29_monotone : match build U64 1 10000 1 false [(5000, 8); (5, 2); (333, 1); (900, 9)] with
  | Some h => reachable h /\ is_u64 330 /\ is_u64 4000 /\ len_agrees h /\
      match quantile_below h 330, quantile_below h 4000 with Ret x, Ret y => f64_eq x (f64_div (f64_of_u64 3) (f64_of_u64 20)) = true /\ f64_eq y (f64_div (f64_of_u64 12) (f64_of_u64 20)) = true | _, _ => False end
  | None => False end.
Proof. float_case. Qed.
EX*)
Lemma C29_top_proof : forall h v, reachable h -> is_u64 v -> len_agrees h -> (forall w n, In (w, n) (held h) -> w <= v) ->
  exists q, quantile_below h v = Ret q /\ real_of q = 1%R.
Proof.
  intros h v R V A F. pose proof (reachable_wf h R) as W. pose proof (wf_total_nonneg h W).
  destruct (Z.eq_dec (len h) 0) as [Z|NZ].
  - destruct (C29_total_proof h v R V) as (q & E & _ & _ & Q). eauto.
  - destruct (C29_fraction_proof h v R V A NZ) as (q & E & _ & Q). exists q. split; auto. rewrite Q.
    replace (weight_between 0 v (held h)) with (len h). { apply quot_same. unfold len in *. lia. }
    rewrite A. assert (G : forall w n, In (w, n) (held h) -> 0 <= w) by (intros w n IN; apply (held_one h w n W IN)).
    clear - F G. induction (held h) as [|[w n] l IH]; cbn [weight weight_between]; auto.
    rewrite <- IH; [|intros; eapply F; cbn; eauto|intros; eapply G; cbn; eauto].
    specialize (F w n ltac:(cbn; auto)). specialize (G w n ltac:(cbn; auto)).
    destruct (Z.leb_spec 0 w); [|lia]. destruct (Z.leb_spec w v); [|lia]. reflexivity.
Qed.
(*EX
Example ex_C29_top : match build U64 1 10000 1 false [(5000, 8); (5, 2); (333, 1); (900, 9)] with
  | Some h => reachable h /\ is_u64 5000 /\ len_agrees h /\ held h = [(5, 2); (320, 1); (896, 9); (4864, 8)] /\
      match quantile_below h 5000 with Ret x => f64_eq x f64_one = true | _ => False end
  | None => False end.
Proof. float_case. Qed.
EX*)
(** once a counter has saturated, [len] exceeds the counts, and the answer depends on which half is
    counted: here all samples are 5, but only half of them are reported at or below 30 *)
Lemma C29_saturated_refuted_proof : exists h p q, reachable h /\ held h = [(5, 255)] /\ quantile_below h 30 = Ret p /\ quantile_below h 40 = Ret q /\
  f64_eq p (f64_div f64_one (f64_of_u64 2)) = true /\ f64_eq q f64_one = true.
Proof.
  destruct (build U8 1 100 1 false [(5, 255); (5, 255)]) as [h|] eqn:B; [|vm_compute in B; discriminate].
  pose proof (build_reachable _ _ _ _ _ _ _ B) as R. vm_compute in B. injection B as <-.
  match type of R with reachable ?x =>
    assert (P : match quantile_below x 30 with Ret p => f64_eq p (f64_div f64_one (f64_of_u64 2)) | Panic => false end = true) by (vm_compute; reflexivity);
    assert (Q : match quantile_below x 40 with Ret q => f64_eq q f64_one | Panic => false end = true) by (vm_compute; reflexivity);
    destruct (quantile_below x 30) as [p|] eqn:EP; [|discriminate]; destruct (quantile_below x 40) as [q|] eqn:EQ; [|discriminate]
  end.
  eexists. exists p, q. split; [exact R|]. split; [vm_compute; reflexivity|]. split; [exact EP|]. split; [exact EQ|]. auto.
Qed.
(*EX
Example ex_C29 : match build U64 1 10000 1 false [(5000, 8); (5, 2); (333, 1); (900, 9)] with
  | Some h => reachable h /\ len_agrees h /\ len h <> 0 /\ is_u64 330 /\ is_u64 4000 /\ forallb (fun p => fst p <=? 5000) (held h) = true /\
      map (fun p => match quantile_below h (fst p) with Ret q => f64_eq q (f64_div (f64_of_u64 (snd p)) (f64_of_u64 20)) | Panic => false end)
        [(4, 0); (5, 2); (330, 3); (4000, 12); (5000, 20); (10000, 20)] = [true; true; true; true; true; true]
  | _ => False end.
Proof. case_of. Qed.
EX*)
