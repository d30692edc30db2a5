(** * Histograms whose statistics agree with their counts *)
From Verif Require Import Machine Log2Model HistModel Bins ListZ Log2Facts Cfg Wf Ops AddFacts SubFacts.
From Coq Require Import ZifyBool ZifyNat.

Record exact_total (h : hist) : Prop := { et_total : h_total h = zsum (h_counts h) }.
Definition exact_max (h : hist) : Prop :=
  ((forall i, 0 <= i -> zn (h_counts h) i = 0) /\ bin h (h_max h) = 0) \/ zn (h_counts h) (bin h (h_max h)) <> 0.
Definition exact_min (h : hist) : Prop :=
  ((forall i, 0 < i -> zn (h_counts h) i = 0) /\ h_min h = u64_max) \/ zn (h_counts h) (bin h (h_min h)) <> 0.
Record exact (h : hist) : Prop := {
  e_total : h_total h = zsum (h_counts h);
  e_max : exact_max h;
  e_min : exact_min h
}.

(** no counter saturates while [l] is recorded *)
Definition unsaturated (h : hist) (l : list (Z * Z)) : Prop :=
  (forall j, 0 <= j -> zn (h_counts h) j + wsum (bin h) j l <= cmax (h_ctr h)) /\
  h_total h + wtotal l <= u64_max.

Lemma bin0_zero h v : cfg_ok h -> 0 <= v < 2 ^ h_um h -> bin h v = 0.
Proof. intros C V. apply idx_0_iff; auto using um_nonneg, m_nonneg; lia. Qed.

Lemma zero_class h v : cfg_ok h -> 0 <= v -> (bin h v = 0 <-> v < 2 ^ h_um h).
Proof. intros C V. apply idx_0_iff; auto using um_nonneg, m_nonneg. Qed.

Lemma h_min_bin_pos h : wf h -> 0 < bin h (h_min h).
Proof.
  intros W. pose proof (w_cfg h W) as C. pose proof (w_min h W) as MU.
  pose proof (bin_nonneg h (h_min h) C ltac:(apply MU)) as N.
  assert (bin h (h_min h) <> 0); [|lia]. rewrite zero_class by (auto; apply MU).
  destruct (w_min_shape h W) as [->|[_ G]]; [|lia].
  pose proof (um_range h C). pose proof (pow2_le_64 (h_um h) ltac:(lia)) as PL.
  change (2 ^ 63) with 9223372036854775808 in PL. unfold u64_max. lia.
Qed.

(** the bins of the new extremes *)
Lemma new_max_bin h v : wf h -> u64 v -> bin h (new_max h v) = Z.max (bin h (h_max h)) (bin h v).
Proof.
  intros W V. pose proof (w_cfg h W) as C. pose proof (w_max h W) as MU. destruct V as [V0 V1]. destruct MU as [X0 X1].
  unfold new_max. destruct (Z.ltb_spec (h_max h) v).
  - unfold bin. rewrite idx_ceil_um by (auto using um_nonneg, m_nonneg).
    fold (bin h v) (bin h (h_max h)). pose proof (bin_mono h (h_max h) v C). lia.
  - pose proof (bin_mono h v (h_max h) C). lia.
Qed.

Lemma new_min_bin h v : wf h -> u64 v -> 2 ^ h_um h <= v -> bin h (new_min h v) = Z.min (bin h (h_min h)) (bin h v).
Proof.
  intros W V G. pose proof (w_cfg h W) as C. pose proof (w_min h W) as MU. destruct V as [V0 V1]. destruct MU as [X0 X1].
  unfold new_min. destruct (Z.leb_spec (2 ^ h_um h) v); [|lia]. rewrite andb_true_r.
  destruct (Z.ltb_spec v (h_min h)).
  - unfold bin. rewrite idx_floor_um by (auto using um_nonneg, m_nonneg).
    fold (bin h v) (bin h (h_min h)). pose proof (bin_mono h v (h_min h) C). lia.
  - pose proof (bin_mono h (h_min h) v C). lia.
Qed.

Lemma recorded_bin h v n h' w : recorded h v n h' -> bin h' w = bin h w.
Proof. intros R. apply same_shape_bin. apply R. Qed.

Lemma sum_recorded h v n h' : wf h -> u64 v -> recorded h v n h' -> zn (h_counts h) (bin h v) + n <= cmax (h_ctr h) ->
  zsum (h_counts h') = zsum (h_counts h) + n.
Proof.
  intros W V R SAT. pose proof R as [R1 R2 R3 R4 R5 R6 R7 R8]. pose proof (w_cfg h W) as C.
  pose proof (bin_nonneg h v C ltac:(apply V)) as B0.
  assert (P : forall k, 0 <= k -> zpre (h_counts h') k = zpre (h_counts h) k + (if bin h v <? k then n else 0)).
  { intros k Hk. pattern k. apply natlike_ind; auto.
    - rewrite !zpre_0. destruct (Z.ltb_spec (bin h v) 0); lia.
    - intros x Hx IH. rewrite <- Z.add_1_r, !zpre_succ by lia. rewrite IH, R3 by auto.
      unfold csat_add. destruct (Z.eqb_spec (bin h v) x) as [E|]; destruct (Z.ltb_spec (bin h v) x);
        destruct (Z.ltb_spec (bin h v) (x + 1)); try lia. rewrite <- E in *. lia. }
  destruct (Z_lt_le_dec (bin h v) (zlen (h_counts h'))) as [I|I].
  - specialize (P (zlen (h_counts h')) ltac:(apply zlen_nonneg)).
    rewrite !zpre_all in P by lia. destruct (Z.ltb_spec (bin h v) (zlen (h_counts h'))); lia.
  - exfalso. pose proof (w_max_in h' R1) as MI. fold (bin h' (h_max h')) in MI. rewrite R5 in MI.
    rewrite (recorded_bin _ _ _ _ _ R), (new_max_bin h v W V) in MI. lia.
Qed.

Lemma recorded_exact h v n h' : wf h -> u64 v -> 1 <= n -> recorded h v n h' ->
  zn (h_counts h) (bin h v) + n <= cmax (h_ctr h) -> h_total h + n <= u64_max -> exact h -> exact h'.
Proof.
  intros W V N R SAT ST [ET EX EN]. pose proof (sum_recorded _ _ _ _ W V R SAT) as SR.
  pose proof R as [R1 R2 R3 R4 R5 R6 R7 R8]. pose proof (w_cfg h W) as C.
  pose proof (bin_nonneg h v C ltac:(apply V)) as B0.
  assert (NZ : zn (h_counts h') (bin h v) <> 0).
  { rewrite R3, Z.eqb_refl by auto. pose proof (zn_nonneg (h_counts h) (bin h v) (wf_nonneg h W)).
    unfold csat_add. lia. }
  assert (KEEP : forall j, 0 <= j -> zn (h_counts h) j <> 0 -> zn (h_counts h') j <> 0).
  { intros j Hj K. destruct (Z.eq_dec (bin h v) j) as [<-|E]; auto.
    rewrite R3 by auto. destruct (Z.eqb_spec (bin h v) j); [lia|auto]. }
  constructor.
  - rewrite R4, SR, ET. unfold sat_add64. lia.
  - right. rewrite (recorded_bin _ _ _ _ _ R), R5, (new_max_bin h v W V).
    pose proof (bin_nonneg h (h_max h) C ltac:(apply (w_max h W))).
    destruct (Z.max_spec (bin h (h_max h)) (bin h v)) as [[L ->]|[L ->]]; auto.
    destruct EX as [[Z0 B]|K]; [|auto].
    assert (bin h v = bin h (h_max h)) as <- by lia. auto.
  - unfold exact_min. rewrite (recorded_bin _ _ _ _ _ R), R6.
    pose proof (h_min_bin_pos h W) as MP.
    destruct (Z_lt_le_dec v (2 ^ h_um h)) as [L|G].
    + assert (E : new_min h v = h_min h).
      { unfold new_min. destruct (Z.leb_spec (2 ^ h_um h) v); [lia|]. rewrite andb_false_r. reflexivity. }
      rewrite E. destruct EN as [[Z0 B]|K]; [|right; apply KEEP; auto; lia].
      left. split; auto. intros i Hi. rewrite R3 by lia.
      assert (bin h v = 0) as -> by (apply zero_class; auto; apply V).
      destruct (Z.eqb_spec 0 i); [lia|auto].
    + right. rewrite (new_min_bin h v W V G).
      destruct (Z.min_spec (bin h (h_min h)) (bin h v)) as [[L ->]|[L ->]]; auto.
      destruct EN as [[Z0 B]|K]; [|apply KEEP; auto; lia].
      exfalso. rewrite B in L. pose proof (bin_mono h v u64_max C V). lia.
Qed.

Lemma rec_many_exact h l h' : wf h -> rec_many h l h' -> Forall (fun p => 1 <= snd p) l -> unsaturated h l -> exact h -> exact h'.
Proof.
  intros W RM. revert W. induction RM as [h W0|h v n l h1 h2 V N R RM IH]; intros W F [U1 U2] E; auto.
  inversion F as [|? ? F1 F2]; subst. cbn [snd] in F1.
  assert (W1 : wf h1) by apply R.
  pose proof (wtotal_nonneg l (rec_many_nonneg _ _ _ RM)) as TN. pose proof (rec_many_nonneg _ _ _ RM) as FN.
  cbn [wsum wtotal] in *. pose proof (bin_nonneg h v (w_cfg h W) ltac:(apply V)) as B0.
  assert (S1 : zn (h_counts h) (bin h v) + n <= cmax (h_ctr h)).
  { specialize (U1 (bin h v) B0). rewrite Z.eqb_refl in U1. pose proof (wsum_nonneg (bin h) (bin h v) l FN). lia. }
  apply IH; auto.
  - split.
    + intros j Hj. specialize (U1 j Hj). rewrite (ss_ctr _ _ (rd_shape _ _ _ _ R)), (rd_cnt _ _ _ _ R) by auto.
      rewrite (wsum_ext (bin h1) (bin h)) by (intros; eapply recorded_bin; eauto).
      unfold csat_add. destruct (Z.eqb_spec (bin h v) j); lia.
    + rewrite (rd_total _ _ _ _ R). unfold sat_add64. lia.
  - apply (recorded_exact h v n h1); auto. lia.
Qed.

(** ** fresh histograms *)
Lemma fresh_zero T lo hi sf i : 0 <= i -> zn (h_counts (fresh T lo hi sf)) i = 0.
Proof.
  intros Hi. unfold fresh; cbn zeta; hsimp. unfold vresize. rewrite firstn_nil, app_nil_l.
  unfold zn. destruct (nth_in_or_default (Z.to_nat i) (repeat 0 (Z.to_nat ((bkt (log2_floor_f64 lo) (Z.log2_up (2 * 10 ^ sf) - 1) hi + 2) *
                2 ^ (Z.log2_up (2 * 10 ^ sf) - 1)) - length (@nil Z))) 0) as [I|I]; auto.
  apply repeat_spec in I. auto.
Qed.

Lemma zeroed_exact h : wf h -> (forall i, 0 <= i -> zn (h_counts h) i = 0) -> h_total h = 0 ->
  bin h (h_max h) = 0 -> h_min h = u64_max -> exact h.
Proof.
  intros W Z0 T B M. constructor.
  - rewrite T. symmetry. apply zsum_0_iff; auto. apply wf_nonneg; auto.
  - left. auto.
  - left. split; auto. intros; apply Z0; lia.
Qed.

Lemma fresh_exact T lo hi sf : u64 lo -> u64 hi -> 0 <= sf <= u8_max -> creation_check lo hi sf = None ->
  exact (fresh T lo hi sf).
Proof.
  intros L Hh S CC. pose proof (fresh_wf T lo hi sf L Hh S CC) as W. apply zeroed_exact; auto.
  - apply fresh_zero.
  - apply zero_class; [apply w_cfg; auto|unfold fresh; cbn zeta; hsimp; unfold ORIGINAL_MAX; lia|].
    change (h_max (fresh T lo hi sf)) with 0. apply pow2_pos. apply um_nonneg, w_cfg; auto.
Qed.

Lemma reset_exact h : wf h -> exact (reset h).
Proof.
  intros W. pose proof (reset_wf h W) as RW. pose proof (reset_eq h (w_cfg h W)) as RE.
  apply zeroed_exact; auto; rewrite RE; hsimp.
  - intros i Hi. unfold clear; hsimp. apply zn_map0.
  - destruct (mask_bin0 h (w_cfg h W)) as [_ B]. exact B.
Qed.

Lemma exact_shape_counts h h' : same_shape h h' -> (forall i, 0 <= i -> zn (h_counts h') i = zn (h_counts h) i) ->
  h_max h' = h_max h -> h_min h' = h_min h -> h_total h' = h_total h ->
  cfg_ok h -> u64 (h_max h) -> u64 (h_min h) -> exact h -> exact h'.
Proof.
  intros S Z0 M N T C MU NU [ET EX EN]. constructor.
  - rewrite T, ET. symmetry. apply zsum_ext. auto.
  - unfold exact_max in *. rewrite M, (same_shape_bin _ _ _ S). pose proof (bin_nonneg h (h_max h) C ltac:(apply MU)).
    rewrite Z0 by auto. destruct EX as [[A B]|A]; [left|right]; auto. split; auto. intros i Hi. rewrite Z0 by auto. auto.
  - unfold exact_min in *. rewrite N, (same_shape_bin _ _ _ S). pose proof (bin_nonneg h (h_min h) C ltac:(apply NU)).
    rewrite Z0 by auto. destruct EN as [[A B]|A]; [left|right]; auto. split; auto. intros i Hi. rewrite Z0 by lia. auto.
Qed.

Lemma set_auto_exact h b : wf h -> exact h -> exact (set_auto h b).
Proof. intros W [ET EX EN]. constructor; auto. Qed.

(** ** Addition *)
Lemma contents_pos h : wf h -> Forall (fun p => 1 <= snd p) (contents h).
Proof.
  intros W. apply Forall_forall. intros [v n] I. cbn [snd].
  pose proof (contents_in h v n W I) as (i & _ & IL & _ & -> & NZ & _).
  pose proof (zn_nonneg (h_counts h) i (wf_nonneg h W)). lia.
Qed.

Lemma added_sum h s h' : wf h -> wf s -> added h s h' -> bin h (maxp s) < zlen (h_counts h') ->
  (forall j, 0 <= j -> zn (h_counts h) j + wsum (bin h) j (contents s) <= cmax (h_ctr h)) ->
  zsum (h_counts h') = zsum (h_counts h) + zsum (h_counts s).
Proof.
  intros WH WS A FIT U. pose proof A as [A1 A2 A3 A4 A5 A6]. pose proof (w_cfg h WH) as CH.
  assert (G : forall l n, 0 <= n -> (forall v c, In (v, c) l -> 0 <= bin h v < n) ->
     zsum (map (fun j => wsum (bin h) j l) (map Z.of_nat (seq 0 (Z.to_nat n)))) = wtotal l).
  { clear. intros l n Hn. induction l as [|[v c] l IH]; intros I; cbn [wsum wtotal].
    - rewrite map_map. induction (seq 0 (Z.to_nat n)); auto.
    - rewrite <- IH by (intros; eapply I; right; eauto).
      assert (B : 0 <= bin h v < n) by (eapply I; left; reflexivity).
      set (b := bin h v) in *. clearbody b.
      assert (Q : forall a k, zsum (map (fun j => (if b =? j then c else 0) + wsum (bin h) j l) (map Z.of_nat (seq a k)))
        = (if (Z.of_nat a <=? b) && (b <? Z.of_nat (a + k)) then c else 0) + zsum (map (fun j => wsum (bin h) j l) (map Z.of_nat (seq a k)))).
      { intros a k. revert a. induction k as [|k IHk]; intros a.
        - cbn [seq map]. change (zsum []) with 0. destruct (Z.leb_spec (Z.of_nat a) b); destruct (Z.ltb_spec b (Z.of_nat (a + 0))); cbn [andb]; lia.
        - cbn [seq map]. rewrite !zsum_cons, IHk.
          destruct (Z.eqb_spec b (Z.of_nat a)); destruct (Z.leb_spec (Z.of_nat a) b); destruct (Z.leb_spec (Z.of_nat (S a)) b);
          destruct (Z.ltb_spec b (Z.of_nat (a + S k))); destruct (Z.ltb_spec b (Z.of_nat (S a + k))); cbn [andb]; lia. }
      rewrite Q. destruct (Z.leb_spec (Z.of_nat 0) b); [|lia]. destruct (Z.ltb_spec b (Z.of_nat (0 + Z.to_nat n))); [|lia].
      reflexivity. }
  set (n := zlen (h_counts h')). pose proof (zlen_nonneg (h_counts h')) as N0. fold n in N0.
  assert (GC : zsum (map (fun j => wsum (bin h) j (contents s)) (map Z.of_nat (seq 0 (Z.to_nat n)))) = zsum (h_counts s)).
  { rewrite <- wtotal_contents. apply G; auto. intros v c I.
    pose proof (contents_in s v c WS I) as (k & K & _ & -> & _ & _ & VM & VU).
    split; [apply bin_nonneg; auto; apply VU|].
    pose proof (bin_mono h (bval s k) (maxp s) CH). destruct VU. fold n in FIT. lia. }
  rewrite <- GC.
  rewrite <- (zpre_all (h_counts h') n), <- (zpre_all (h_counts h) n) by (unfold n; lia).
  rewrite <- (zpre_all (map _ _) n) by (rewrite !zlen_map; unfold zlen; rewrite seq_length; lia).
  pose proof (sum_sub (h_counts h') (h_counts h) (fun j => wsum (bin h) j (contents s)) n N0) as SS.
  rewrite SS; [lia|]. intros j Hj. rewrite A3 by auto. specialize (U j Hj). lia.
Qed.

Lemma added_keep h s h' : wf h -> wf s -> added h s h' ->
  (forall j, 0 <= j -> zn (h_counts h) j <> 0 -> zn (h_counts h') j <> 0) /\ (forall i, 0 <= i -> zn (h_counts s) i <> 0 -> zn (h_counts h') (bin h (bval s i)) <> 0).
Proof.
  intros WH WS A. pose proof (cmax_le (h_ctr h)) as CM. split.
  - intros j Hj NZ. rewrite (ad_cnt _ _ _ A) by auto. pose proof (zn_nonneg (h_counts h) j (wf_nonneg h WH)).
    pose proof (wsum_nonneg (bin h) j _ (contents_nonneg s WS)). lia.
  - intros i Hi NZ. pose proof (w_cfg h WH) as CH. pose proof (w_cfg s WS) as CS.
    pose proof (bval_nonneg s i CS Hi). pose proof (bin_nonneg h (bval s i) CH ltac:(lia)) as B0.
    rewrite (ad_cnt _ _ _ A) by auto. pose proof (zn_nonneg (h_counts h) (bin h (bval s i)) (wf_nonneg h WH)).
    assert (1 <= wsum (bin h) (bin h (bval s i)) (contents s)); [|lia].
    assert (I : In (bval s i, zn (h_counts s) i) (contents s)).
    { unfold contents. clear - NZ Hi.
      assert (Q : forall cs k, 0 <= k -> zn cs i <> 0 -> In (bval s (k + i), zn cs i) (bins_from (bval s) cs k)).
      { clear NZ. intros cs. revert i Hi. induction cs as [|c cs IH]; intros i Hi k Hk NZ.
        - rewrite zn_nil in NZ. lia.
        - cbn [bins_from]. destruct (Z.eq_dec i 0) as [->|N].
          + rewrite zn_cons_0 in *. destruct (Z.eqb_spec c 0); [lia|]. left. rewrite Z.add_0_r. reflexivity.
          + rewrite zn_cons_S in * by lia. specialize (IH (i - 1) ltac:(lia) (k + 1) ltac:(lia) NZ).
            replace (k + 1 + (i - 1)) with (k + i) in IH by lia. destruct (c =? 0); [|right]; auto. }
      specialize (Q (h_counts s) 0 ltac:(lia) NZ). exact Q. }
    pose proof (contents_pos s WS) as CP. clear - I CP.
    assert (Q : forall l, Forall (fun p : Z * Z => 1 <= snd p) l -> In (bval s i, zn (h_counts s) i) l -> 1 <= wsum (bin h) (bin h (bval s i)) l).
    { induction 1 as [|[v n] l Hn F IH]; intros [].
      - inversion H; subst. cbn [wsum]. rewrite Z.eqb_refl. cbn [snd] in Hn.
        assert (0 <= wsum (bin h) (bin h (bval s i)) l); [|lia].
        apply wsum_nonneg. eapply Forall_impl; [|exact F]. cbn; lia.
      - cbn [wsum]. specialize (IH H). cbn [snd] in Hn. destruct (_ =? _); lia. }
    apply Q; auto.
Qed.

Lemma add_body_exact h s h' : wf h -> wf s -> h_ctr h = h_ctr s -> bin h (maxp s) < zlen (h_counts h) ->
  is_empty s = false -> unsaturated h (contents s) -> exact h -> exact s -> add_body h s = Ret h' -> exact h'.
Proof.
  intros WH WS CT FIT NE [U1 U2] EH ES E. pose proof (w_cfg h WH) as CH. pose proof (w_cfg s WS) as CS.
  destruct (matching h s) eqn:M.
  - destruct (matching_facts h s CH CS (w_size h WH) (w_size s WS) M) as (EU & EM & EL).
    assert (BE : forall v, bin s v = bin h v) by (intros; unfold bin; rewrite EU, EM; reflexivity).
    destruct (is_empty h) eqn:EMP.
    + destruct (add_body_copy h s WH WS CT M EMP) as (h2 & E2 & A & MX & MN & CC & TT).
      rewrite E2 in E. inversion E; subst h2. clear E. destruct ES as [ET EX EN].
      pose proof (ad_shape _ _ _ A) as SH.
      constructor.
      * rewrite TT, CC. auto.
      * unfold exact_max in *. rewrite MX, CC, (same_shape_bin _ _ _ SH), <- BE. auto.
      * unfold exact_min in *. rewrite MN, CC, (same_shape_bin _ _ _ SH), <- BE. auto.
    + destruct (add_body_aligned h s WH WS CT M EMP) as (h2 & E2 & A & MX & MN).
      rewrite E2 in E. inversion E; subst h2. clear E.
      pose proof (ad_shape _ _ _ A) as SH. destruct (added_keep h s h' WH WS A) as [K1 K2].
      assert (K2' : forall i, 0 <= i -> zn (h_counts s) i <> 0 -> zn (h_counts h') i <> 0).
      { intros i Hi NZ. specialize (K2 i Hi NZ). assert (bin h (bval s i) = i); [|congruence].
        rewrite <- BE. apply bin_bval; auto. }
      assert (LF : bin h (maxp s) < zlen (h_counts h')) by (pose proof (ad_len _ _ _ A); lia).
      pose proof (added_sum h s h' WH WS A LF U1) as SUM.
      destruct EH as [ET EX EN]. destruct ES as [ET' EX' EN'].
      assert (Z0 : (forall i, 0 <= i -> zn (h_counts h) i = 0) -> (forall i, 0 <= i -> zn (h_counts s) i = 0) ->
                forall i, 0 <= i -> zn (h_counts h') i = 0).
      { intros Z1 Z2 i Hi. rewrite (ad_cnt _ _ _ A), Z1 by auto. rewrite (wsum_ext (bin h) (bin s)) by auto.
        rewrite wsum_contents, Z2 by auto. pose proof (cmax_le (h_ctr h)). lia. }
      assert (Z0' : forall i, 0 < i -> zn (h_counts h) i = 0 -> zn (h_counts s) i = 0 -> zn (h_counts h') i = 0).
      { intros i Hi Z1 Z2. rewrite (ad_cnt _ _ _ A), Z1 by lia. rewrite (wsum_ext (bin h) (bin s)) by auto.
        rewrite wsum_contents, Z2 by (auto; lia). pose proof (cmax_le (h_ctr h)). lia. }
      pose proof (bin_nonneg h (h_max h) CH ltac:(apply (w_max h WH))).
      pose proof (bin_nonneg h (h_max s) CH ltac:(apply (w_max s WS))).
      constructor.
      * rewrite wtotal_contents in U2. rewrite SUM, (ad_total _ _ _ A).
        -- rewrite ET. rewrite ET in U2. lia.
        -- pose proof (wf_total_nonneg s WS). rewrite ET' in *. lia.
      * unfold exact_max in *. rewrite MX, (same_shape_bin _ _ _ SH), (add_max_bin h s WH WS EU EM).
        rewrite BE in EX'.
        destruct EX as [[Za B]|N]; destruct EX' as [[Zb B']|N'].
        -- left. split; auto. lia.
        -- right. rewrite B. rewrite Z.max_r by lia. apply K2'; auto.
        -- right. rewrite B'. rewrite Z.max_l by lia. apply K1; auto.
        -- right. destruct (Z.max_spec (bin h (h_max h)) (bin h (h_max s))) as [[L ->]|[L ->]]; auto.
      * pose proof (h_min_bin_pos h WH) as P1. pose proof (h_min_bin_pos s WS) as P2. rewrite BE in P2.
        pose proof (w_min h WH) as U1'. pose proof (w_min s WS) as U2'.
        assert (UM : forall v, u64 v -> bin h v <= bin h u64_max).
        { intros v [V0 V1]. apply bin_mono; auto. }
        unfold exact_min in *. rewrite MN, (same_shape_bin _ _ _ SH), (add_min_bin h s WH WS EU EM).
        rewrite BE in EN'.
        destruct EN as [[Za B]|N]; destruct EN' as [[Zb B']|N'].
        -- left. split. { intros i Hi. apply Z0'; auto. }
           assert (MS : minp s = u64_max) by (unfold minp; rewrite B', Z.eqb_refl; reflexivity).
           assert (MH : minp h = u64_max) by (unfold minp; rewrite B, Z.eqb_refl; reflexivity).
           unfold add_min. rewrite MS, MH, Z.ltb_irrefl. cbn [andb]. auto.
        -- right. rewrite B. rewrite Z.min_r by (apply UM; auto). apply K2'; auto; lia.
        -- right. rewrite B'. rewrite Z.min_l by (apply UM; auto). apply K1; auto; lia.
        -- right. destruct (Z.min_spec (bin h (h_min h)) (bin h (h_min s))) as [[L ->]|[L ->]].
           ++ apply K1; auto; lia.
           ++ apply K2'; auto; lia.
  - destruct (add_body_rerecord h s WH WS CT M FIT) as (h2 & E2 & A & RM).
    rewrite E2 in E. inversion E; subst h2. clear E.
    eapply rec_many_exact; [exact WH|exact RM| | |exact EH].
    + constructor.
      * cbn [snd]. pose proof (zn_nonneg (h_counts s) (bin s (h_max s)) (wf_nonneg s WS)).
        destruct (e_max s ES) as [[Z0 _]|N]; [|lia]. exfalso.
        unfold is_empty in NE. rewrite (e_total s ES) in NE. apply Z.eqb_neq in NE. apply NE.
        apply zsum_0_iff; auto. apply wf_nonneg; auto.
      * apply Forall_forall. intros [v n] I. cbn [snd]. apply bins_from_in in I; [|lia].
        destruct I as (k & K & _ & -> & NZ). rewrite Z.sub_0_r in *.
        pose proof (zn_nonneg (firstn (Z.to_nat (bin s (h_max s))) (h_counts s)) k).
        assert (Forall (fun c => 0 <= c) (firstn (Z.to_nat (bin s (h_max s))) (h_counts s))) by (apply Forall_firstn, wf_nonneg; auto).
        specialize (H H0). lia.
    + (* the re-recorded list is a rearrangement of the contents *)
      pose proof (rerecord_list s WS) as [RL RT]. split.
      * intros j Hj. rewrite RL. auto.
      * rewrite RT. auto.
Qed.

Lemma resized_exact h v : wf h -> u64 v -> h_high h <= v -> exact h -> exact (resized h v).
Proof.
  intros W V L E. destruct (resized_wf h v W V L) as [LL RW].
  apply (exact_shape_counts h); auto.
  - constructor; reflexivity.
  - intros i Hi. unfold resized; hsimp.
    assert (LR : zlen (h_counts (resized h v)) = (bkt (h_um h) (h_half_mag h) v + 2) * 2 ^ h_half_mag h)
        by apply (s_len _ (w_size _ RW)).
    rewrite zn_vresize; auto. 2: { rewrite <- LR. apply zlen_nonneg. }
    rewrite <- LR. destruct (Z.ltb_spec i (zlen (h_counts (resized h v)))); auto. rewrite zn_out by lia. reflexivity.
  - apply w_cfg; auto.
  - apply w_max; auto.
  - apply w_min; auto.
Qed.

Lemma add_exact h s h' r : wf h -> wf s -> h_ctr h = h_ctr s -> unsaturated h (contents s) -> exact h -> exact s ->
  add h s = Ret (h', r) -> exact h'.
Proof.
  intros WH WS CT U EH ES E. pose proof (w_cfg h WH) as CH. pose proof (w_size h WH) as SH.
  destruct (add_ok h s WH WS CT) as [[EM E1]|[(EM & L & A & E1)|(EM & F & h2 & E1 & AD & h0 & EB & HC)]];
    rewrite E1 in E; inversion E; subst; auto.
  pose proof (maxp_u64 s WS) as SMU.
  destruct HC as [[L ->]|[L ->]].
  - apply (add_body_exact h s); auto. destruct (top_val_in h CH SH) as [TU TI]. fold (bin h (top_val h)) in TI.
    pose proof (bin_mono h (maxp s) (top_val h) CH). destruct SMU. lia.
  - assert (HL : h_high h <= maxp s).
    { destruct (Z.eq_dec (h_high h) u64_max) as [EQ|N].
      - assert (top_val h = u64_max - 1).
        { unfold top_val. pose proof (proj1 (idx_in_iff_top h CH SH _ (high_u64 h CH)) (high_in h CH SH)).
          unfold u64_max in *. lia. }
        destruct SMU. lia.
      - pose proof (top_val_ge_high h CH SH N). lia. }
    destruct (resized_wf h (maxp s) WH SMU HL) as [RL RW].
    apply (add_body_exact (resized h (maxp s)) s); auto.
    + apply (idx_in_iff _ (w_cfg _ RW) (w_size _ RW)); auto. apply Z.le_refl.
    + destruct U as [U1 U2]. split; auto. intros j Hj. specialize (U1 j Hj).
      assert (Z.le (zn (h_counts (resized h (maxp s))) j) (zn (h_counts h) j)); [|].
      { unfold resized; hsimp.
        assert (LR : zlen (h_counts (resized h (maxp s))) = (bkt (h_um h) (h_half_mag h) (maxp s) + 2) * 2 ^ h_half_mag h)
          by apply (s_len _ (w_size _ RW)).
        rewrite zn_vresize; auto. 2: { rewrite <- LR. apply zlen_nonneg. }
        destruct (_ <? _); [lia|]. apply zn_nonneg, wf_nonneg; auto. }
      change (h_ctr (resized h (maxp s))) with (h_ctr h). change (bin (resized h (maxp s))) with (bin h). lia.
    + apply resized_exact; auto.
Qed.

(** ** Subtraction: len and max become exact again; min_nz only when no sample is equivalent to zero *)
Lemma subtracted_le_sum h s h' : wf h -> wf s -> subtracted h s h' -> zsum (h_counts h') <= zsum (h_counts h).
Proof.
  intros WH WS [S1 S2 S3 S4 S5 _ _].
  assert (A : forall k, 0 <= k -> zpre (h_counts h') k <= zpre (h_counts h) k).
  { intros k Hk. pattern k. apply natlike_ind; auto.
    - rewrite !zpre_0. lia.
    - intros x Hx IH. rewrite <- Z.add_1_r, !zpre_succ by lia. rewrite S5 by auto.
      pose proof (wsum_nonneg (bin h) x _ (contents_nonneg s WS)). lia. }
  specialize (A (zlen (h_counts h)) ltac:(apply zlen_nonneg)). rewrite !zpre_all in A by lia. auto.
Qed.

Lemma subtracted_exact h s h' : wf h -> wf s -> subtracted h s h' -> exact h ->
  h_total h' = zsum (h_counts h') /\ exact_max h' /\ (zn (h_counts h) 0 = 0 -> exact_min h').
Proof.
  intros WH WS S [ET EX EN]. pose proof (subtracted_le_sum h s h' WH WS S) as LE.
  pose proof S as [S1 S2 S3 S4 S5 S6 S7]. pose proof (w_cfg h WH) as CH.
  pose proof (wf_total_nonneg h WH) as TN. split.
  { rewrite S6 by auto. lia. }
  destruct S7 as [(h1 & RT & SH)|(K1 & K2 & K3 & K4)].
  - assert (BE : forall v, bin h' v = bin h1 v) by (intros; apply same_shape_bin; auto).
    pose proof RT as [RC RS RH RTt RM RN]. split.
    + unfold exact_max. rewrite RC, BE. destruct RM as [[Z0 M]|(k & K & NZ & ZZ & B & M)].
      * left. split; auto. rewrite M, <- BE. destruct (mask_bin0 h' (w_cfg _ S1)) as [_ B].
        rewrite (ss_um _ _ SH) in B. auto.
      * right. rewrite B. auto.
    + intros _. unfold exact_min. rewrite RC, BE. destruct RN as [[Z0 M]|(k & K & NZ & ZZ & M)].
      * left. auto.
      * right. rewrite M, <- BE, <- (same_shape_bval _ _ k SH). rewrite bin_bval; auto; [apply w_cfg; auto|lia].
  - assert (BE : forall v, bin h' v = bin h v) by (intros; apply same_shape_bin; auto).
    pose proof (bin_nonneg h (h_max h) CH ltac:(apply (w_max h WH))).
    assert (MO : exists mn, min h = Ret mn /\ u64 mn /\ (zn (h_counts h) 0 = 0 -> h_total h <> 0 -> mn = minp h)).
    { rewrite (min_ok h WH). eexists. split; [reflexivity|]. split.
      - destruct (_ || _); [unfold u64, u64_max; lia|apply minp_u64; auto].
      - intros Z0 T0. rewrite Z0. destruct (Z.eqb_spec (h_total h) 0); [lia|]. reflexivity. }
    destruct MO as (mn & MO & MU & ME).
    assert (SAME : forall j, 0 <= j -> (forall v n, In (v, n) (contents s) -> bin h v <> j) -> zn (h_counts h') j = zn (h_counts h) j).
    { intros j Hj NI. rewrite S5 by auto. assert (wsum (bin h) j (contents s) = 0); [|lia].
      revert NI. clear. induction (contents s) as [|[v n] l IH]; intros NI; auto. cbn [wsum].
      destruct (Z.eqb_spec (bin h v) j) as [E|E]; [exfalso; eapply NI; [left; reflexivity|exact E]|].
      rewrite IH; [lia|]. intros. eapply NI. right; eauto. }
    assert (MAXB : forall v n, In (v, n) (contents s) -> bin h v < bin h (h_max h)).
    { intros v n I. specialize (K4 v n mn I MO). pose proof (contents_in s v n WS I) as (k & _ & _ & _ & _ & _ & _ & VU).
      pose proof (maxp_u64 h WH) as MXU.
      pose proof (bin_mono h v (loweq (h_um h) (h_half_mag h) (maxp h)) CH) as BM.
      rewrite bin_loweq in BM by (auto; apply MXU). rewrite bin_maxp in BM by auto.
      destruct VU as [V0 V1]. destruct (Z.eq_dec (bin h v) (bin h (h_max h))) as [E|]; [|lia].
      exfalso. rewrite <- (bin_maxp h WH) in E. apply (loweq_idx _ _ (um_nonneg h CH) (m_nonneg h CH)) in E; [|lia|apply MXU].
      pose proof (loweq_le (h_um h) (h_half_mag h) (um_nonneg h CH) v V0). lia. }
    split.
    + unfold exact_max in *. rewrite K1, BE. destruct EX as [[Z0 B]|NZ].
      * left. split; auto. intros i Hi. pose proof (zn_nonneg (h_counts h') i (wf_nonneg _ S1)).
        rewrite S5 in * by auto. rewrite Z0 in * by auto. pose proof (wsum_nonneg (bin h) i _ (contents_nonneg s WS)). lia.
      * right. rewrite SAME; auto. intros v n I E. specialize (MAXB v n I). lia.
    + intros Z0. unfold exact_min in *. rewrite K2, BE. destruct EN as [[Z1 B]|NZ].
      * left. split; auto. intros i Hi. pose proof (zn_nonneg (h_counts h') i (wf_nonneg _ S1)).
        rewrite S5 in * by lia. rewrite Z1 in * by lia. pose proof (wsum_nonneg (bin h) i _ (contents_nonneg s WS)). lia.
      * right. pose proof (h_min_bin_pos h WH) as MP.
        rewrite SAME; auto; [lia|]. intros v n I E.
        assert (T0 : h_total h <> 0).
        { intros T0. apply NZ. apply (empty_zero h WH T0). lia. }
        specialize (K4 v n mn I MO). rewrite (ME Z0 T0) in K4.
        pose proof (contents_in s v n WS I) as (k & _ & _ & _ & _ & _ & _ & VU). destruct VU as [V0 V1].
        pose proof (minp_u64 h WH) as NU.
        assert (EB : bin h v = bin h (minp h)) by (rewrite bin_minp; auto).
        assert (EH : higheq h v = higheq h (minp h) \/ v = u64_max \/ minp h = u64_max).
        { destruct (Z.eq_dec v u64_max); auto. destruct (Z.eq_dec (minp h) u64_max); auto. left.
          unfold higheq, nexteq. destruct (Z.eqb_spec v u64_max); [lia|]. destruct (Z.eqb_spec (minp h) u64_max); [lia|].
          apply (loweq_idx _ _ (um_nonneg h CH) (m_nonneg h CH)) in EB; [|lia|apply NU].
          assert (wid (h_um h) (h_half_mag h) v = wid (h_um h) (h_half_mag h) (minp h)); [|congruence].
          rewrite <- (wid_loweq _ _ (um_nonneg h CH) (m_nonneg h CH) v V0), EB. apply wid_loweq; auto using um_nonneg, m_nonneg. apply NU. }
        specialize (MAXB v n I). pose proof (higheq_range h CH v (conj V0 V1)).
        destruct EH as [EH|[EH|EH]].
        -- lia.
        -- subst v. pose proof (bin_mono h (h_max h) u64_max CH (w_max h WH)). lia.
        -- rewrite EH in K4. unfold higheq in K4. rewrite Z.eqb_refl in K4. lia.
Qed.
