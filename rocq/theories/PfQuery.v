(** * Proofs of the properties about equality and counting queries (C21, C30, C31) *)
From Verif Require Import Machine Log2Model HistModel Spec Reach Bins ListZ Log2Facts Cfg Wf Ops AddFacts SubFacts Exact MoreFacts Witness HeldFacts PfRecord PfMerge.
(*PROPS-IMPORTS Machine Log2Model HistModel Spec Reach Witness Cases *)
From Coq Require Import ZifyBool ZifyNat.

(** ** C21.  Equality *)
Lemma C21_eq_reflexive_proof : forall h, reachable h -> hist_eq h h = Ret true.
Proof.
  intros h R. pose proof (reachable_wf h R) as W. destruct (hist_eq_ok h h W W) as (r & -> & H). f_equal. apply H.
  do 5 (split; [reflexivity|]). split; [lia|auto].
Qed.
(*EX
Example ex_C21_reflexive : match build U8 1 1000 1 false [(5, 200); (5, 100); (900, 3)] with
  | Some h => reachable h /\ len h = 303 /\ hist_eq h h = Ret true
  | None => False end.
Proof. case_of. Qed.
EX*)
Lemma C21_eq_transitive_proof : forall a b c, reachable a -> reachable b -> reachable c ->
  hist_eq a b = Ret true -> hist_eq b c = Ret true -> hist_eq a c = Ret true.
Proof.
  intros a b c RA RB RC E1 E2. pose proof (reachable_wf a RA) as WA. pose proof (reachable_wf b RB) as WB. pose proof (reachable_wf c RC) as WC.
  destruct (hist_eq_ok a b WA WB) as (r1 & X1 & H1). destruct (hist_eq_ok b c WB WC) as (r2 & X2 & H2).
  rewrite X1 in E1. injection E1 as ->. rewrite X2 in E2. injection E2 as ->.
  destruct (proj1 H1 eq_refl) as (A1 & A2 & A3 & A4 & A5 & A6 & A7). destruct (proj1 H2 eq_refl) as (B1 & B2 & B3 & B4 & B5 & B6 & B7).
  destruct (hist_eq_ok a c WA WC) as (r & -> & H). f_equal. apply H.
  split; [congruence|]. split; [congruence|]. split; [congruence|]. split; [congruence|]. split; [congruence|]. split; [lia|].
  intros i Hi. rewrite A7 by auto. apply B7. lia.
Qed.
(*EX
Example ex_C21_transitive : match build U64 1 1000 1 false [(5, 2); (7, 1)], build U64 1 5000 1 true [(7, 1); (5, 1); (5, 1)], build U64 1 50000 1 true [(5, 2); (7, 1)] with
  | Some a, Some b, Some c => reachable a /\ reachable b /\ reachable c /\ hist_eq a b = Ret true /\ hist_eq b c = Ret true /\ hist_eq a c = Ret true
  | _, _, _ => False end.
Proof. case_of. Qed.
EX*)
(** equal histograms agree on everything they report *)
Lemma C21_eq_agree_proof : forall a b, reachable a -> reachable b -> hist_eq a b = Ret true ->
  same_precision a b /\ len a = len b /\ max a = max b /\ min_nz a = min_nz b /\
  (forall w, is_u64 w -> covers a w -> covers b w /\ count_at a w = count_at b w) /\
  (len_agrees a -> len_agrees b -> held a = held b).
Proof.
  intros a b RA RB E. pose proof (reachable_wf a RA) as WA. pose proof (reachable_wf b RB) as WB.
  destruct (hist_eq_ok a b WA WB) as (r1 & X1 & H1). rewrite X1 in E. injection E as ->.
  destruct (proj1 H1 eq_refl) as (A1 & A2 & A3 & A4 & A5 & A6 & A7).
  assert (SP : same_precision a b) by (split; auto). split; auto. split; auto.
  rewrite !max_ok, !min_nz_ok by auto. split; [congruence|]. split; [congruence|].
  pose proof (fun v => same_precision_bin a b v WA WB SP) as BE. split.
  - intros w V CV. rewrite covers_bin in * by auto. rewrite <- BE. split; [lia|]. rewrite !count_at_ok by auto.
    rewrite !cbin_in by (rewrite <- ?BE; lia). rewrite <- BE. f_equal. apply A7. split; auto. apply bin_nonneg; [apply w_cfg; auto|apply V].
  - intros LA LB. apply len_agrees_iff in LA, LB; auto. destruct (same_precision_cfg a b WA WB SP) as [U M]. apply held_ext; auto.
    intros j Hj. destruct (Z_lt_le_dec j (zlen (h_counts a))) as [L|L]; [apply A7; lia|]. rewrite zn_out by lia.
    assert (SUM : zsum (h_counts a) = zsum (h_counts b)) by congruence.
    assert (P : zpre (h_counts b) (zlen (h_counts a)) = zsum (h_counts a)).
    { rewrite <- (zpre_all (h_counts a) (zlen (h_counts a))) by lia. apply zpre_ext. intros. symmetry. apply A7. auto. }
    pose proof (zpre_mono (h_counts b) (zlen (h_counts a)) j (wf_nonneg b WB) ltac:(pose proof (zlen_nonneg (h_counts a)); lia)).
    pose proof (zpre_succ (h_counts b) j Hj). pose proof (zpre_le_zsum (h_counts b) (j + 1) (wf_nonneg b WB)).
    pose proof (zn_nonneg (h_counts b) j (wf_nonneg b WB)). lia.
Qed.
(*EX
Example ex_C21_agree : match build U64 1 1000 1 false [(5, 2); (7, 1)], build U64 1 5000 1 true [(7, 1); (5, 1); (5, 1)] with
  | Some a, Some b => reachable a /\ reachable b /\ hist_eq a b = Ret true /\ len_agrees a /\ len_agrees b /\ distinct_values a <> distinct_values b /\
      is_u64 5 /\ covers a 5 /\ covers b 5 /\ count_at b 5 = Ret 2 /\ held b = [(5, 2); (7, 1)]
  | _, _ => False end.
Proof. case_of. Qed.
EX*)
(** between histograms of the same number of bins it is symmetric *)
Lemma C21_eq_symmetric_proof : forall a b, reachable a -> reachable b -> distinct_values a = distinct_values b ->
  hist_eq a b = hist_eq b a.
Proof.
  intros a b RA RB D. pose proof (reachable_wf a RA) as WA. pose proof (reachable_wf b RB) as WB.
  destruct (hist_eq_ok a b WA WB) as (r1 & -> & H1). destruct (hist_eq_ok b a WB WA) as (r2 & -> & H2). f_equal.
  unfold distinct_values in D.
  assert (r1 = true <-> r2 = true); [|destruct r1, r2; intuition congruence].
  rewrite H1, H2. split; intros (A1 & A2 & A3 & A4 & A5 & A6 & A7); repeat (split; [congruence || lia|]); intros; symmetry; apply A7; lia.
Qed.
(*EX
Example ex_C21_symmetric : match build U64 1 1000 1 false [(5, 2); (7, 1)], build U64 1 1000 1 true [(7, 1); (5, 1); (5, 1)], build U64 1 1000 1 true [(7, 1)] with
  | Some a, Some b, Some c => reachable a /\ reachable b /\ reachable c /\ distinct_values a = distinct_values b /\ distinct_values a = distinct_values c /\
      hist_eq a b = Ret true /\ hist_eq b a = Ret true /\ hist_eq a c = Ret false /\ hist_eq c a = Ret false
  | _, _, _ => False end.
Proof. case_of. Qed.
EX*)
(** in general it is not: a resized empty histogram *)
Lemma C21_eq_not_symmetric_refuted_proof : exists a b, reachable a /\ reachable b /\ h_ctr a = h_ctr b /\
  hist_eq a b = Ret true /\ hist_eq b a = Ret false.
Proof.
  destruct (build U64 1 1000 1 false []) as [h|] eqn:B; [|vm_compute in B; discriminate].
  destruct (build U64 1 5000 1 false []) as [s|] eqn:B2; [|vm_compute in B2; discriminate].
  pose proof (build_reachable _ _ _ _ _ _ _ B) as R. vm_compute in B. injection B as <-.
  pose proof (build_reachable _ _ _ _ _ _ _ B2) as R2. vm_compute in B2. injection B2 as <-.
  do 2 eexists. split; [exact R|]. split; [exact R2|]. split; [reflexivity|]. split; vm_compute; reflexivity.
Qed.
(*EX
Example ex_C21 : match build U64 1 1000 1 false [(5, 2); (7, 1)], build U64 1 5000 1 true [(7, 1); (5, 1); (5, 1)], build U64 1 50000 1 true [(5, 2); (7, 1)] with
  | Some a, Some b, Some c => reachable a /\ reachable b /\ reachable c /\ hist_eq a b = Ret true /\ hist_eq b c = Ret true /\ hist_eq a c = Ret true /\
      held a = [(5, 2); (7, 1)] /\ held b = held a /\ len_agrees a /\ len_agrees b
  | _, _, _ => False end.
Proof. case_of. Qed.
EX*)

(** ** C30.  Counting a range *)
Fixpoint wrange (f : Z -> Z) (i j : Z) (l : list (Z * Z)) : Z :=
  match l with
  | [] => 0
  | (v, n) :: l' => (if (i <=? f v) && (f v <=? j) then n else 0) + wrange f i j l'
  end.
Lemma wrange_step f i j l : i <= j + 1 -> wrange f i (j + 1) l = wrange f i j l + wsum f (j + 1) l.
Proof.
  intros L. induction l as [|[v n] l IH]; cbn [wrange wsum]; auto. rewrite IH.
  destruct (Z.leb_spec i (f v)); destruct (Z.leb_spec (f v) (j + 1)); destruct (Z.leb_spec (f v) j);
    destruct (Z.eqb_spec (f v) (j + 1)); cbn [andb]; lia.
Qed.
Lemma wrange_nil f i j l : j < i -> wrange f i j l = 0.
Proof.
  intros L. induction l as [|[v n] l IH]; cbn [wrange]; auto. rewrite IH.
  destruct (Z.leb_spec i (f v)); destruct (Z.leb_spec (f v) j); cbn [andb]; lia.
Qed.
Lemma zpre_wrange cs f l : (forall k, 0 <= k -> zn cs k = wsum f k l) ->
  forall i n, 0 <= i -> 0 <= n -> zpre cs (i + n) - zpre cs i = wrange f i (i + n - 1) l.
Proof.
  intros E i n Hi Hn. pattern n. apply natlike_ind; auto.
  - rewrite Z.add_0_r, wrange_nil by lia. lia.
  - intros x Hx IH. replace (i + Z.succ x - 1) with ((i + x - 1) + 1) by lia. rewrite wrange_step by lia.
    replace (i + Z.succ x) with ((i + x) + 1) by lia. rewrite zpre_succ by lia. rewrite <- IH.
    replace (i + x - 1 + 1) with (i + x) by lia. rewrite <- E by lia. lia.
Qed.
Lemma wrange_between h la hb i j l : (forall v n, In (v, n) l -> (la <= v <-> i <= bin h v) /\ (v <= hb <-> bin h v <= j)) ->
  wrange (bin h) i j l = weight_between la hb l.
Proof.
  induction l as [|[v n] l IH]; intros F; cbn [wrange weight_between]; auto. rewrite IH by (intros; eapply F; right; eauto).
  destruct (F v n ltac:(left; reflexivity)) as [F1 F2].
  destruct (Z.leb_spec i (bin h v)); destruct (Z.leb_spec (bin h v) j); destruct (Z.leb_spec la v); destruct (Z.leb_spec v hb); cbn [andb]; lia.
Qed.

Lemma loweq_le_iff h a v : wf h -> u64 a -> u64 v -> (loweq (h_um h) (h_half_mag h) a <= v <-> bin h a <= bin h v).
Proof.
  intros W A V. pose proof (w_cfg h W) as C. pose proof (um_nonneg h C). pose proof (m_nonneg h C). split; intros L.
  - rewrite <- (bin_loweq h a C ltac:(apply A)). apply bin_mono; auto. pose proof (loweq_le (h_um h) (h_half_mag h) ltac:(auto) a ltac:(apply A)). lia.
  - rewrite <- bval_bin by (auto; apply A). pose proof (bval_le h (bin h a) (bin h v) C (bin_nonneg h a C ltac:(apply A)) L) as B.
    rewrite (bval_bin h v) in B by (auto; apply V). pose proof (loweq_le (h_um h) (h_half_mag h) ltac:(auto) v ltac:(apply V)). lia.
Qed.
Lemma le_higheq_iff h b v : wf h -> u64 b -> u64 v -> v <> u64_max \/ b = u64_max \/ bin h b <> bin h u64_max ->
  (v <= higheq h b <-> bin h v <= bin h b).
Proof.
  intros W B V X. pose proof (w_cfg h W) as C. pose proof (um_nonneg h C) as U0. pose proof (m_nonneg h C) as M0. split; intros L.
  - assert (E : bin h (higheq h b) = bin h b) by (apply (idx_higheq h C b B)). rewrite <- E. apply bin_mono; auto. destruct V; lia.
  - destruct (Z.eq_dec b u64_max) as [->|NB]. { unfold higheq. rewrite Z.eqb_refl. apply V. }
    assert (LT : v < val (h_um h) (h_half_mag h) (bin h b + 1)).
    { pose proof (proj1 (idx_iff _ _ U0 M0 v (bin h v) ltac:(apply V) (bin_nonneg h v C ltac:(apply V))) eq_refl) as [_ LT].
      pose proof (val_le _ _ U0 M0 (bin h v + 1) (bin h b + 1) ltac:(pose proof (bin_nonneg h v C ltac:(apply V)); lia) ltac:(lia)). lia. }
    unfold bin in LT. rewrite val_idx_succ in LT by (auto; apply B).
    unfold higheq, nexteq. destruct (Z.eqb_spec b u64_max); [lia|]. destruct V as [V0 V1]. destruct X as [X|[X|X]]; try lia.
    assert (v <> u64_max); [|lia]. intros ->. apply X. pose proof (bin_mono h b u64_max C ltac:(destruct B; lia)). lia.
Qed.

(** [count_between a b], for values that have bins, is the number of samples held in the classes from
    [a]'s to [b]'s *)
Lemma C30_count_between_proof : forall h a b la hb, reachable h -> is_u64 a -> is_u64 b -> covers h a -> covers h b ->
  lowest_equivalent h a = Ret la -> highest_equivalent h b = Ret hb ->
  count_between h a b = Ret (Z.min u64_max (weight_between la hb (held h))).
Proof.
  intros h a b la hb R A B CA CB EL EH. pose proof (reachable_wf h R) as W. pose proof (w_cfg h W) as C.
  pose proof (bin_nonneg h a C ltac:(apply A)) as A0. pose proof (bin_nonneg h b C ltac:(apply B)) as B0.
  rewrite lowest_equivalent_ok in EL by auto. injection EL as <-. rewrite highest_equivalent_ok in EH by auto. injection EH as <-.
  apply covers_bin in CA, CB; auto. rewrite count_between_ok by auto. rewrite !cbin_in by auto.
  rewrite held_contents by auto. f_equal.
  assert (K : wrange (bin h) (bin h a) (bin h b) (contents h) =
    weight_between (loweq (h_um h) (h_half_mag h) a) (higheq h b) (contents h)).
  { apply wrange_between. intros v n I. pose proof (contents_u64 h W) as F. rewrite Forall_forall in F. pose proof (F _ I) as V. cbn [fst] in V.
    split; [apply loweq_le_iff; auto|]. apply le_higheq_iff; auto. left.
    destruct (contents_in h v n W I) as (i & [I0 _] & LI & -> & _). intros E.
    pose proof (um_nonneg h C) as U0. pose proof (m_nonneg h C) as M0.
    assert (i <= idx (h_um h) (h_half_mag h) u64_max) by (pose proof (len_le_top h C (w_size h W)); lia).
    pose proof (proj1 (idx_iff _ _ U0 M0 (bval h i) i (bval_nonneg h i C I0) I0) (bin_bval h i C I0)) as [_ LT].
      pose proof (wid_range h C u64_max u64_top) as WR.
      assert (EB : idx (h_um h) (h_half_mag h) u64_max = i) by (rewrite <- E; apply bin_bval; auto).
      assert (V1 : bval h i = loweq (h_um h) (h_half_mag h) u64_max). { rewrite <- EB. apply (bval_bin h u64_max C). unfold u64_max; lia. }
      rewrite E in V1. unfold loweq in V1. unfold wid, bkt in V1.
      change (Z.log2 u64_max) with 63 in V1. pose proof (c_fit h C). pose proof (m_range h C). pose proof (um_range h C).
      rewrite Z.max_r in V1 by lia. replace (h_um h + (63 - (h_um h + h_half_mag h))) with (63 - h_half_mag h) in V1 by lia.
      assert (D : (2 | u64_max)).
      { rewrite V1. apply Z.divide_mul_r. exists (2 ^ (62 - h_half_mag h)). rewrite Z.mul_comm, <- Z.pow_succ_r by lia. f_equal. lia. }
      destruct D as [q D]. unfold u64_max in D. lia. }
  destruct (Z.leb_spec (bin h a) (bin h b)) as [L|L].
  - rewrite <- K. f_equal. pose proof (zpre_wrange (h_counts h) (bin h) (contents h) (fun k Hk => eq_sym (wsum_contents h k W Hk))
      (bin h a) (bin h b + 1 - bin h a) A0 ltac:(lia)) as Z.
    replace (bin h a + (bin h b + 1 - bin h a)) with (bin h b + 1) in Z by lia. replace (bin h b + 1 - 1) with (bin h b) in Z by lia. exact Z.
  - rewrite <- K, wrange_nil by lia. reflexivity.
Qed.
(*EX
Example ex_C30_count_between : match build U64 1 10000 1 false [(5000, 8); (5, 2); (333, 1); (900, 9)] with
  | Some h => reachable h /\ is_u64 5 /\ is_u64 900 /\ covers h 5 /\ covers h 900 /\ lowest_equivalent h 5 = Ret 5 /\ highest_equivalent h 900 = Ret 927 /\
      weight_between 5 927 (held h) = 12 /\ count_between h 5 900 = Ret 12
  | None => False end.
Proof. case_of. Qed.
EX*)
(** values beyond the last bin stand for the last bin *)
Lemma C30_clamped_proof : forall h a b t, reachable h -> is_u64 a -> is_u64 b -> is_u64 t ->
  covers h t -> (forall w, is_u64 w -> covers h w -> w <= t) -> ~ covers h a ->
  count_at h a = count_at h t /\ count_between h a b = count_between h t b /\ count_between h b a = count_between h b t.
Proof.
  intros h a b t R A B T CT MX NA. pose proof (reachable_wf h R) as W. pose proof (w_cfg h W) as C. pose proof (w_size h W) as SZ.
  assert (E : cbin h a = cbin h t).
  { apply covers_bin in CT; auto. rewrite covers_bin in NA by auto. rewrite (cbin_in h t) by auto. unfold cbin.
    pose proof (len_pos h C SZ). destruct (top_val_in h C SZ) as [TU TI]. fold (bin h (top_val h)) in TI.
    specialize (MX (top_val h) TU ltac:(apply covers_bin; auto; lia)).
    pose proof (bin_mono h (top_val h) t C ltac:(destruct TU; lia)). lia. }
  rewrite !count_at_ok, !count_between_ok by auto. rewrite E. auto.
Qed.
(*EX
Example ex_C30_clamped : match build U64 1 10000 1 false [(5, 2); (333, 1); (900, 4); (5000, 8); (10000, 3)] with
  | Some h => reachable h /\ is_u64 99999 /\ is_u64 5000 /\ is_u64 16383 /\ covers h 16383 /\ ~ covers h 16384 /\ ~ covers h 99999 /\
      count_at h 99999 = Ret 0 /\ count_at h 16383 = Ret 0 /\ count_between h 5000 99999 = Ret 11 /\ count_between h 99999 5000 = Ret 0
  | _ => False end.
Proof. case_of. Qed.
EX*)
(** adjacent ranges add up *)
Lemma C30_additive_proof : forall h a b c nb x y z, reachable h -> is_u64 a -> is_u64 b -> is_u64 c ->
  covers h b -> covers h nb -> a <= b -> next_non_equivalent h b = Ret nb -> nb <= c -> equivalent h b nb = Ret false ->
  count_between h a b = Ret x -> count_between h nb c = Ret y -> count_between h a c = Ret z ->
  z = Z.min u64_max (x + y).
Proof.
  intros h a b c nb x y z R A B D CB CN LAB EN LBC NQ E1 E2 E3. pose proof (reachable_wf h R) as W. pose proof (w_cfg h W) as C. pose proof (w_size h W) as SZ.
  rewrite next_non_equivalent_ok in EN by auto. injection EN as <-. pose proof (nexteq_pos h C b B) as NP.
  assert (NU : u64 (nexteq h b)) by (unfold u64; lia).
  apply covers_bin in CB, CN; auto. rewrite equivalent_bin in NQ by auto. injection NQ as NQ.
  assert (BN : bin h (nexteq h b) = bin h b + 1).
  { pose proof (um_nonneg h C) as U0. pose proof (m_nonneg h C) as M0. unfold nexteq in *.
    destruct (Z_le_dec (loweq (h_um h) (h_half_mag h) b + wid (h_um h) (h_half_mag h) b) u64_max) as [L|L].
    - rewrite Z.min_r by lia. rewrite <- val_idx_succ by (auto; apply B). apply (bin_bval h). auto. pose proof (bin_nonneg h b C ltac:(apply B)). unfold bin in *. lia.
    - exfalso. rewrite Z.min_l in NQ by lia. assert (bin h u64_max = bin h b); [|lia].
      pose proof (bin_mono h b u64_max C ltac:(destruct B; lia)).
      assert (bin h u64_max <= bin h b); [|lia].
      destruct (Z_le_dec (bin h u64_max) (bin h b)); auto. exfalso.
      pose proof (proj1 (idx_iff _ _ U0 M0 u64_max (bin h u64_max) ltac:(apply u64_top) (bin_nonneg h _ C ltac:(apply u64_top))) eq_refl) as [LL _].
      pose proof (val_le _ _ U0 M0 (bin h b + 1) (bin h u64_max) ltac:(pose proof (bin_nonneg h b C ltac:(apply B)); lia) ltac:(lia)) as VL.
      unfold bin in VL at 1. rewrite val_idx_succ in VL by (auto; apply B). lia. }
  rewrite count_between_ok in E1, E2, E3 by auto. injection E1 as <-. injection E2 as <-. injection E3 as <-.
  rewrite (cbin_in h b) in * by auto. rewrite (cbin_in h (nexteq h b)) by auto. rewrite BN.
  assert (CA : cbin h a <= bin h b). { unfold cbin. pose proof (bin_mono h a b C ltac:(destruct A; lia)). lia. }
  assert (CC : bin h b + 1 <= cbin h c). { unfold cbin. pose proof (bin_mono h (nexteq h b) c C ltac:(lia)). lia. }
  destruct (Z.leb_spec (cbin h a) (bin h b)); [|lia]. destruct (Z.leb_spec (bin h b + 1) (cbin h c)); [|lia].
  destruct (Z.leb_spec (cbin h a) (cbin h c)); [|lia].
  pose proof (cbin_range h a W A).
  pose proof (zpre_mono (h_counts h) (cbin h a) (bin h b + 1) (wf_nonneg h W) ltac:(lia)).
  pose proof (zpre_mono (h_counts h) (bin h b + 1) (cbin h c + 1) (wf_nonneg h W) ltac:(lia)). lia.
Qed.
(*EX
Example ex_C30_additive : match build U64 1 10000 1 false [(5, 2); (333, 1); (900, 4); (5000, 8)] with
  | Some h => reachable h /\ is_u64 4 /\ is_u64 332 /\ is_u64 6000 /\ covers h 332 /\ covers h 336 /\ next_non_equivalent h 332 = Ret 336 /\ equivalent h 332 336 = Ret false /\
      count_between h 4 332 = Ret 3 /\ count_between h 336 6000 = Ret 12 /\ count_between h 4 6000 = Ret 15
  | _ => False end.
Proof. case_of. Qed.
EX*)
(** in terms of what was recorded *)
Lemma C30_history_proof : forall T lo hi sf bb h0 l h a b la hb, is_u64 lo -> is_u64 hi -> is_u8 sf ->
  new_with_bounds T lo hi sf = Ret (ROk h0) -> records (auto h0 bb) l h -> no_saturation (auto h0 bb) l ->
  is_u64 a -> is_u64 b -> covers h a -> covers h b -> b = u64_max \/ equivalent h b u64_max = Ret false ->
  lowest_equivalent h a = Ret la -> highest_equivalent h b = Ret hb ->
  count_between h a b = Ret (weight_between la hb l).
Proof.
  intros T lo hi sf bb h0 l h a b la hb L Hh S E R NS A B CA CB TOP EL EH.
  destruct (created_wf T lo hi sf h0 L Hh S E) as (-> & CC & W0 & EX).
  assert (WA : wf (set_auto (fresh T lo hi sf) bb)) by (apply set_auto_wf; auto).
  apply records_many in R; auto. pose proof (rec_many_all _ _ _ R) as RA. pose proof (ra_wf _ _ _ RA) as W.
  pose proof (rec_many_u64 _ _ _ R) as FU. apply no_saturation_iff in NS; auto. destruct NS as [NS1 NS2].
  pose proof (w_cfg h W) as C.
  pose proof (bin_nonneg h a C ltac:(apply A)) as A0. pose proof (bin_nonneg h b C ltac:(apply B)) as B0.
  rewrite lowest_equivalent_ok in EL by auto. injection EL as <-. rewrite highest_equivalent_ok in EH by auto. injection EH as <-.
  apply covers_bin in CA, CB; auto. rewrite count_between_ok by auto. rewrite !cbin_in by auto. f_equal.
  assert (CNT : forall k, 0 <= k -> zn (h_counts h) k = wsum (bin h) k l).
  { intros k Hk. rewrite (ra_cnt _ _ _ RA) by auto. specialize (NS1 k Hk).
    rewrite (wsum_ext (bin h) (bin (auto (fresh T lo hi sf) bb))) by (intros; apply same_shape_bin; apply RA).
    change (h_counts (auto (fresh T lo hi sf) bb)) with (h_counts (fresh T lo hi sf)) in *. rewrite fresh_zero in * by auto. lia. }
  assert (K : wrange (bin h) (bin h a) (bin h b) l = weight_between (loweq (h_um h) (h_half_mag h) a) (higheq h b) l).
  { apply wrange_between. intros v n I. rewrite Forall_forall in FU. pose proof (FU _ I) as V. cbn [fst] in V.
    split; [apply loweq_le_iff; auto|]. apply le_higheq_iff; auto. right. destruct TOP as [->|TOP]; auto. right.
    rewrite equivalent_bin in TOP by (auto using u64_top). injection TOP as TOP. lia. }
  destruct (Z.leb_spec (bin h a) (bin h b)) as [LE|LE].
  - pose proof (zpre_wrange (h_counts h) (bin h) l CNT (bin h a) (bin h b + 1 - bin h a) A0 ltac:(lia)) as Z.
    replace (bin h a + (bin h b + 1 - bin h a)) with (bin h b + 1) in Z by lia. replace (bin h b + 1 - 1) with (bin h b) in Z by lia.
    rewrite Z, K in *. rewrite Z.min_r; auto. rewrite <- K.
    assert (WL : wrange (bin h) (bin h a) (bin h b) l <= wtotal l).
    { pose proof (rec_many_nonneg _ _ _ R) as NN. clear - NN. induction l as [|[v n] l IH]; cbn [wrange wtotal]; [lia|].
      inversion NN; subst. cbn [snd] in *. specialize (IH H2). destruct (_ && _); lia. }
    change (h_total (auto (fresh T lo hi sf) bb)) with 0 in NS2. lia.
  - rewrite <- K, wrange_nil by lia. reflexivity.
Qed.
(*EX
Example ex_C30_history : match new_with_bounds U64 1 10000 1, build U64 1 10000 1 false [(5, 2); (333, 1); (900, 4); (5000, 8)] with
  | Ret (ROk h0), Some h => reachable (auto h0 false) /\
      records (auto h0 false) [(5, 2); (333, 1); (900, 4); (5000, 8)] h /\ no_saturation (auto h0 false) [(5, 2); (333, 1); (900, 4); (5000, 8)] /\
      covers h 6 /\ covers h 901 /\ equivalent h 901 u64_max = Ret false /\ lowest_equivalent h 6 = Ret 6 /\ highest_equivalent h 901 = Ret 927 /\
      weight_between 6 927 [(5, 2); (333, 1); (900, 4); (5000, 8)] = 5 /\ count_between h 6 901 = Ret 5
  | _, _ => False end.
Proof. case_of. Qed.
EX*)
(*EX
Example ex_C30 : match build U64 1 10000 1 false [(5, 2); (333, 1); (900, 4); (5000, 8)] with
  | Some h => reachable h /\ is_u64 5 /\ is_u64 900 /\ covers h 5 /\ covers h 900 /\ lowest_equivalent h 5 = Ret 5 /\ highest_equivalent h 900 = Ret 927 /\
     weight_between 5 927 (held h) = 7 /\ count_between h 5 900 = Ret 7 /\ count_between h 6 9999999 = Ret 13 /\ count_between h 6 332 = Ret 1
  | _ => False end.
Proof. case_of. Qed.
EX*)

(** ** C31.  None of the modelled operations panics on a reachable histogram *)
Lemma C31_queries_total_proof : forall h v w, reachable h -> is_u64 v -> is_u64 w ->
  index_for h v <> Panic /\ lowest_equivalent h v <> Panic /\ highest_equivalent h v <> Panic /\
  next_non_equivalent h v <> Panic /\ median_equivalent h v <> Panic /\ equivalent_range h v <> Panic /\
  equivalent h v w <> Panic /\ count_at h v <> Panic /\ count_between h v w <> Panic /\
  max h <> Panic /\ min h <> Panic /\ min_nz h <> Panic.
Proof.
  intros h v w R V V2. pose proof (reachable_wf h R) as W. pose proof (w_cfg h W) as C.
  rewrite index_for_ok, lowest_equivalent_ok, highest_equivalent_ok, next_non_equivalent_ok, median_equivalent_ok,
    equivalent_range_ok, equivalent_ok, count_at_ok, count_between_ok, max_ok, min_ok, min_nz_ok by auto.
  repeat split; discriminate.
Qed.
(*EX
Example ex_C31_queries : match build U8 3 10000 2 true [(5, 255); (0, 1); (u64_max, 200)] with
  | Some h => reachable h /\ is_u64 u64_max /\ is_u64 0 /\ highest_equivalent h u64_max = Ret u64_max /\ next_non_equivalent h u64_max = Ret u64_max /\
      count_between h 0 u64_max = Ret 456
  | None => False end.
Proof. case_of. Qed.
EX*)
Lemma C31_updates_total_proof : forall h v n i, reachable h -> is_u64 v -> is_count (h_ctr h) n -> is_u64 i ->
  record_n h v n <> Panic /\ saturating_record_n h v n <> Panic /\ record_n_correct h v n i <> Panic /\
  record h v <> Panic /\ saturating_record h v <> Panic /\ record_correct h v i <> Panic.
Proof.
  intros h v n i R V N I. pose proof (reachable_wf h R) as W.
  assert (G : forall n, is_count (h_ctr h) n -> record_n h v n <> Panic /\ saturating_record_n h v n <> Panic /\ record_n_correct h v n i <> Panic).
  { clear n N. intros n N. split; [|split].
    - destruct (record_n_cases h v n W V N) as [(h' & -> & _)|(-> & _)]; discriminate.
    - destruct (saturating_ok h v n W V N) as (h' & -> & _). discriminate.
    - destruct (record_n_correct_ok h v n i W V N I) as [(h' & -> & _)|(-> & _)]; discriminate. }
  pose proof (G n N) as (G1 & G2 & G3).
  assert (N1 : is_count (h_ctr h) 1) by (unfold is_count; pose proof (cmax_le (h_ctr h)); lia).
  pose proof (G 1 N1) as (G4 & G5 & G6). auto 10.
Qed.
(*EX
Example ex_C31_updates : match build U8 3 10000 2 false [(5, 255); (0, 1)] with
  | Some h => reachable h /\ is_u64 u64_max /\ is_count (h_ctr h) 255 /\ is_u64 0 /\ record_n h u64_max 255 = Ret (h, RErr ValueOutOfRangeResizeDisabled) /\
      match saturating_record_n h u64_max 255 with Ret h' => count_at h' 10000 = Ret 255 | _ => False end
  | None => False end.
Proof. case_of. Qed.
EX*)
Lemma C31_merge_total_proof : forall h s T, reachable h -> reachable s -> h_ctr h = h_ctr s ->
  add h s <> Panic /\ subtract h s <> Panic /\ set_to h s <> Panic /\ hist_eq h s <> Panic /\ new_from T h <> Panic.
Proof.
  intros h s T R RS CT. pose proof (reachable_wf h R) as W. pose proof (reachable_wf s RS) as WS.
  split; [|split; [|split; [|split]]].
  - destruct (C14_add_error_proof h s R RS CT) as (h' & r & -> & _). discriminate.
  - apply C18_subtract_total_proof; auto.
  - unfold set_to. destruct (C14_add_error_proof (reset h) s (reach_reset h R) RS CT) as (h' & r & -> & _). discriminate.
  - destruct (hist_eq_ok h s W WS) as (r & -> & _). discriminate.
  - destruct (C19_new_from_proof T h R) as (h' & -> & _). discriminate.
Qed.
(*EX
Example ex_C31_merge : match build U8 3 10000 2 true [(5, 255); (0, 1); (u64_max, 200)], build U8 1 1000 1 false [(7, 3)] with
  | Some h, Some s => reachable h /\ reachable s /\ h_ctr h = h_ctr s /\ add s h = Ret (s, RErr OtherAddendValueExceedsRange) /\
      match add h s with Ret (h', ROk _) => len h' = 459 | _ => False end
  | _, _ => False end.
Proof. case_of. Qed.
EX*)
Lemma C31_construction_total_proof : forall T lo hi sf, is_u64 lo -> is_u64 hi -> is_u8 sf ->
  new_with_bounds T lo hi sf <> Panic /\ new_with_max T hi sf <> Panic /\ new T sf <> Panic.
Proof.
  intros T lo hi sf L Hh S.
  assert (G : forall lo hi, is_u64 lo -> is_u64 hi -> new_with_bounds T lo hi sf <> Panic).
  { intros a b A B. rewrite new_with_bounds_ok by auto. destruct (creation_check a b sf); discriminate. }
  split; [auto|]. split; [apply G; auto; unfold is_u64, u64_max; lia|].
  unfold new. pose proof (G 1 2 ltac:(unfold is_u64, u64_max; lia) ltac:(unfold is_u64, u64_max; lia)) as G2.
  destruct (new_with_bounds T 1 2 sf) as [[h|e]|]; cbn [bind]; try discriminate. contradiction.
Qed.
(*EX
Example ex_C31 : match build U8 3 10000 2 true [(5, 255); (0, 1); (u64_max, 200)], build U8 1 1000 1 false [(7, 3)] with
  | Some h, Some s => reachable h /\ reachable s /\ h_ctr h = h_ctr s /\ is_u64 u64_max /\ is_count (h_ctr h) 255 /\ len h = 456 /\ max h = Ret u64_max /\ min h = Ret 0 /\
      match add s h with Ret (_, RErr e) => e = OtherAddendValueExceedsRange | _ => False end
  | _, _ => False end.
Proof. case_of. Qed.
EX*)
