(** * Proofs of the properties about quantiles and means against the raw samples (C61, C62) *)
(*PROPS-IMPORTS Machine Log2Model HistModel Spec Reach Witness Cases FloatModel IterModel FloatSpec StatSpec *)
(*PROPS-HEADER
From Coq Require Import Reals List.
From Flocq Require Import Core.
Import ListNotations.
PROPS-HEADER*)
From Coq Require Import Reals.
From Verif Require Import Machine Log2Model HistModel Spec Reach Bins ListZ Log2Facts Cfg Wf Ops AddFacts SubFacts Exact MoreFacts Witness HeldFacts PfClasses PfRecord PfMerge PfQuery FloatModel IterModel IterSpec IterFacts IterBins FloatSpec FloatFacts PfIter PfQuantile StatSpec PfStats.
From Coq Require Import ZifyBool ZifyNat Lra.
From Flocq Require Import Core IEEE754.BinarySingleNaN.
Open Scope Z_scope.

(** ** The sample of a given rank *)
Lemma wb_mono l a b c : Forall (fun p => 0 <= snd p) l -> b <= c -> weight_between a b l <= weight_between a c l.
Proof.
  intros F L. induction F as [|[v n] l N F IH]; cbn [weight_between snd] in *; [lia|].
  destruct (Z.leb_spec a v), (Z.leb_spec v b), (Z.leb_spec v c); cbn [andb]; lia.
Qed.
Lemma wb_neg l : Forall (fun p => 0 <= fst p) l -> weight_between 0 (-1) l = 0.
Proof.
  intros F. induction F as [|[v n] l N F IH]; cbn [weight_between fst] in *; [lia|].
  destruct (Z.leb_spec 0 v), (Z.leb_spec v (-1)); cbn [andb]; lia.
Qed.
Lemma wb_all l M : Forall (fun p => 0 <= fst p <= M) l -> weight_between 0 M l = weight l.
Proof.
  intros F. induction F as [|[v n] l N F IH]; cbn [weight_between weight fst] in *; [lia|].
  destruct (Z.leb_spec 0 v), (Z.leb_spec v M); cbn [andb]; lia.
Qed.
Lemma wb_step l z : weight_between 0 (z - 1) l <> weight_between 0 z l -> exists n, In (z, n) l.
Proof.
  induction l as [|[v n] l IH]; cbn [weight_between]; intros N; [lia|].
  destruct (Z.eq_dec v z) as [->|NE]; [exists n; left; auto|].
  destruct IH as [m I]; [|exists m; right; auto].
  destruct (Z.leb_spec 0 v), (Z.leb_spec v (z - 1)), (Z.leb_spec v z); cbn [andb] in *; lia.
Qed.
Lemma rank_sample l k : Forall (fun p => u64 (fst p)) l -> Forall (fun p => 0 <= snd p) l -> 1 <= k <= weight l ->
  exists s n, In (s, n) l /\ weight_between 0 (s - 1) l < k <= weight_between 0 s l.
Proof.
  intros FU FN K.
  assert (G : forall M, 0 <= M -> k <= weight_between 0 M l -> exists s, 0 <= s <= M /\ weight_between 0 (s - 1) l < k <= weight_between 0 s l).
  { intros M HM. pattern M. apply natlike_ind; auto; clear M HM.
    - intros H. exists 0. split; [lia|]. rewrite wb_neg by (eapply Forall_impl; [|exact FU]; unfold u64; cbn; lia). lia.
    - intros x Hx IH H. destruct (Z_le_gt_dec k (weight_between 0 x l)) as [L|L].
      + destruct (IH L) as (s & S & E). exists s. split; [lia|auto].
      + exists (Z.succ x). split; [lia|]. replace (Z.succ x - 1) with x by lia. lia. }
  destruct (G u64_max) as (s & S & E); [unfold u64_max; lia| |].
  { rewrite wb_all; [lia|]. eapply Forall_impl; [|exact FU]. unfold u64; cbn; lia. }
  destruct (wb_step l s) as [n I]; [lia|]. exists s, n. auto.
Qed.

Lemma wsum_in f v m l : Forall (fun p => 0 <= snd p) l -> In (v, m) l -> m <= wsum f (f v) l.
Proof.
  intros F I. induction F as [|[w n] l N F IH]; [destruct I|]. cbn [wsum snd] in *. pose proof (wsum_nonneg f (f v) l F).
  destruct I as [E|I]; [injection E as -> ->; rewrite Z.eqb_refl; lia|]. specialize (IH I). destruct (_ =? _); lia.
Qed.

(** ** C61.  The value reported for a quantile is equivalent to the recorded sample of that rank, and so
    within the resolution of the histogram: closer than a unit or than 10^-sigfig of the sample.  Apart
    from quantile 0, it is not below the sample (except for the sample u64::MAX). *)
Lemma C61_quantile_accuracy_proof : forall T lo hi sf b h0 l h q unit, is_u64 lo -> is_u64 hi -> is_u8 sf ->
  new_with_bounds T lo hi sf = Ret (ROk h0) -> records (auto h0 b) l h -> no_saturation (auto h0 b) l ->
  equivalent_range h 0 = Ret unit ->
  let k := quantile_rank q (weight l) in k <= weight l ->
  exists s n x, In (s, n) l /\ weight_between 0 (s - 1) l < k <= weight_between 0 s l /\
    value_at_quantile h q = Ret x /\ equivalent h s x = Ret true /\
    (Z.abs (s - x) < unit \/ Z.abs (s - x) * 10 ^ sf < s) /\
    (f64_eq q f64_zero = true -> x <= s) /\ (f64_eq q f64_zero = false -> s <= x \/ s = u64_max).
Proof.
  intros T lo hi sf b h0 l h q unit L Hh S E R NS UN k K.
  assert (RH : reachable h) by (eapply records_reachable; [|exact R]; apply reach_auto; exact (reach_new_with_bounds T lo hi sf h0 L Hh S E)).
  destruct (created_wf T lo hi sf h0 L Hh S E) as (-> & CC & W0 & EX).
  assert (WA : wf (set_auto (fresh T lo hi sf) b)) by (apply set_auto_wf; auto).
  apply records_many in R; auto. pose proof (rec_many_all _ _ _ R) as RA. pose proof (ra_wf _ _ _ RA) as W.
  pose proof (rec_many_u64 _ _ _ R) as FU. pose proof (rec_many_nonneg _ _ _ R) as FN. apply no_saturation_iff in NS; auto. destruct NS as [NS1 NS2].
  pose proof (w_cfg h W) as C.
  assert (CNT : forall j, 0 <= j -> zn (h_counts h) j = wsum (bin h) j l).
  { intros j Hj. rewrite (ra_cnt _ _ _ RA) by auto. specialize (NS1 j Hj).
    rewrite (wsum_ext (bin h) (bin (auto (fresh T lo hi sf) b))) by (intros; apply same_shape_bin; apply RA).
    change (h_counts (auto (fresh T lo hi sf) b)) with (h_counts (fresh T lo hi sf)) in *. rewrite fresh_zero in * by auto. lia. }
  assert (TOT : len h = weight l).
  { unfold len. pose proof (ra_total _ _ _ RA) as RT. pose proof (weight_wtotal l) as WT. change (h_total (auto (fresh T lo hi sf) b)) with 0 in *. lia. }
  assert (PRE : forall i, 0 <= i -> zpre (h_counts h) i = wrange (bin h) 0 (i - 1) l).
  { intros i Hi. pose proof (zpre_wrange (h_counts h) (bin h) l CNT 0 i ltac:(lia) Hi) as Z. rewrite zpre_0 in Z. replace (0 + i) with i in Z by lia. lia. }
  assert (BL : forall v n, In (v, n) l -> 0 <= bin h v).
  { intros v n I. rewrite Forall_forall in FU. apply bin_nonneg; auto. apply (FU _ I). }
  assert (ZL : zsum (h_counts h) <= u64_max).
  { rewrite <- (zpre_all (h_counts h) (zlen (h_counts h))), PRE by (try lia; apply zlen_nonneg).
    assert (wrange (bin h) 0 (zlen (h_counts h) - 1) l <= wtotal l).
    { clear - FN. induction FN as [|[v n] l N F IH]; cbn [wrange wtotal snd] in *; [lia|]. destruct (_ && _); lia. }
    change (h_total (auto (fresh T lo hi sf) b)) with 0 in NS2. lia. }
  destruct (rank_sample l k FU FN ltac:(pose proof (rank_pos q (weight l)); lia)) as (s & n & IS & RS).
  assert (VS : u64 s) by (rewrite Forall_forall in FU; apply (FU _ IS)).
  (* the bin found by the scan is the bin of s *)
  assert (LOW : forall i, 0 <= i -> bin h s < i -> weight_between 0 s l <= zpre (h_counts h) i).
  { intros i Hi B. rewrite PRE by auto. clear RS IS. revert FU FN BL. clear - C B VS. intros FU FN BL. induction l as [|[v m] l IH]; cbn [weight_between wrange]; [lia|].
    inversion FU as [|? ? F1 F2]; subst. inversion FN as [|? ? N1 N2]; subst. cbn [fst snd] in *.
    specialize (IH F2 N2 (fun a b I => BL a b (or_intror I))). pose proof (BL v m (or_introl eq_refl)).
    destruct (Z.leb_spec 0 v), (Z.leb_spec v s); cbn [andb]; try (destruct (_ && _); lia).
    pose proof (bin_mono h v s C ltac:(lia)). destruct (Z.leb_spec 0 (bin h v)), (Z.leb_spec (bin h v) (i - 1)); cbn [andb]; lia. }
  assert (HIGH : forall i, 0 <= i -> i <= bin h s -> zpre (h_counts h) i <= weight_between 0 (s - 1) l).
  { intros i Hi B. rewrite PRE by auto. clear RS IS. revert FU FN BL. clear - C B VS. intros FU FN BL. induction l as [|[v m] l IH]; cbn [weight_between wrange]; [lia|].
    inversion FU as [|? ? F1 F2]; subst. inversion FN as [|? ? N1 N2]; subst. cbn [fst snd] in *.
    specialize (IH F2 N2 (fun a b I => BL a b (or_intror I))). pose proof (BL v m (or_introl eq_refl)).
    destruct (Z.leb_spec 0 (bin h v)), (Z.leb_spec (bin h v) (i - 1)); cbn [andb]; try (destruct (_ && _); lia).
    assert (v < s). { destruct (Z_lt_le_dec v s); auto. pose proof (bin_mono h s v C ltac:(destruct VS; lia)). lia. }
    destruct F1. destruct (Z.leb_spec 0 v), (Z.leb_spec v (s - 1)); cbn [andb]; lia. }
  destruct (vaq_ok h q W ZL) as [[A _]|(i & I & P & V)].
  { exfalso. rewrite TOT in A. fold k in A.
    assert (zsum (h_counts h) = weight l); [|lia].
    rewrite <- (zpre_all (h_counts h) (zlen (h_counts h))), PRE by (try lia; apply zlen_nonneg). rewrite weight_wtotal.
    assert (FB : Forall (fun p => snd p = 0 \/ 0 <= bin h (fst p) < zlen (h_counts h)) l).
    { apply Forall_forall. intros [v m] IV. cbn [fst snd]. destruct (Z.eq_dec m 0); [left; auto|right]. pose proof (BL v m IV). split; auto.
      destruct (Z_lt_le_dec (bin h v) (zlen (h_counts h))) as [|O]; auto. exfalso.
      pose proof (CNT (bin h v) ltac:(auto)) as Z. rewrite zn_out in Z by lia.
      assert (m <= wsum (bin h) (bin h v) l); [|rewrite Forall_forall in FN; specialize (FN _ IV); cbn [snd] in FN; lia].
      apply wsum_in; auto. }
    clear - FB. induction FB as [|[v m] l N F IH]; cbn [wrange wtotal fst snd] in *; [lia|].
    destruct (Z.leb_spec 0 (bin h v)), (Z.leb_spec (bin h v) (zlen (h_counts h) - 1)); cbn [andb]; lia. }
  rewrite TOT in P. fold k in P.
  assert (BI : bin h s = i).
  { destruct (Z_lt_le_dec (bin h s) i) as [A|A]; [pose proof (LOW i ltac:(lia) A); lia|].
    destruct (Z_lt_le_dec i (bin h s)) as [A2|A2]; [pose proof (HIGH (i + 1) ltac:(lia) ltac:(lia)); lia|lia]. }
  destruct (topval_ge h i W I) as (T1 & T2 & T3 & T4).
  set (x := if f64_eq q f64_zero then bval h i else topval h i) in V.
  assert (XU : u64 x) by (unfold x; destruct (f64_eq q f64_zero); auto).
  assert (XB : bin h x = i). { unfold x; destruct (f64_eq q f64_zero); auto. apply bin_bval; auto. lia. }
  assert (EQ : equivalent h s x = Ret true) by (rewrite equivalent_bin by auto; rewrite XB, BI, Z.eqb_refl; reflexivity).
  exists s, n, x. split; auto. split; auto. split; auto. split; auto. split.
  - pose proof (C02_resolution_proof h s x unit RH VS XU EQ UN) as [A|A]; [left; lia|right].
    replace (sigfig h) with sf in A; auto. unfold sigfig. rewrite (ss_sf _ _ (ra_shape _ _ _ RA)). reflexivity.
  - unfold x. destruct (f64_eq q f64_zero); split; try discriminate; intros _.
    + rewrite <- BI, bval_bin by (auto; apply VS). apply loweq_le; [apply um_nonneg; auto|apply VS].
    + destruct (Z.eq_dec s u64_max) as [|NE]; [right; auto|left].
      assert (H : s <= higheq h (bval h i) <-> bin h s <= bin h (bval h i)) by (apply le_higheq_iff; auto).
      unfold topval. apply H. rewrite bin_bval by (auto; lia). lia.
Qed.
(*EX
(** 100 samples; quantile 0.995 asks for the largest, 0.5 for one of the 17s, 0.6 for the last of them *)
Example ex_C61 : match build U64 1 100000 2 false [(17, 60); (12345, 1); (420, 39)] with
  | Some h => reachable h /\ equivalent_range h 0 = Ret 1 /\ len h = 100 /\
      value_at_quantile h (f64_div (f64_of_u64 199) (f64_of_u64 200)) = Ret 12351 /\
      value_at_quantile h (f64_div (f64_of_u64 1) (f64_of_u64 2)) = Ret 17 /\
      value_at_quantile h (f64_div (f64_of_u64 61) (f64_of_u64 100)) = Ret 421
  | None => False end.
Proof. float_case. Qed.
EX*)
(** with at most 2^53 samples the rank asked for is [q * n] rounded up, or down if the product is rounded
    to an integer below it *)
Lemma C61_rank_proof : forall q n, finite q -> (0 <= real_of q <= 1)%R -> 1 <= n <= 2 ^ 53 ->
  Zfloor (real_of q * IZR n) <= quantile_rank q n <= Z.max 1 (Zceil (real_of q * IZR n)) /\ quantile_rank q n <= n.
Proof.
  intros q n F Q N. assert (N0 : (1 <= IZR n)%R) by (apply IZR_le; lia).
  assert (E : quantile_rank q n = rank_of (real_of q) n).
  { unfold quantile_rank. destruct q as [s|s| |s m e B]; try discriminate F; f_equal; apply Rmin_right; apply Q. }
  assert (B : quantile_rank q n <= n) by (pose proof (rank_bound q n ltac:(lia)); lia). split; auto. rewrite E. unfold rank_of.
  rewrite (rne_IZR n) by lia. set (x := (real_of q * IZR n)%R).
  assert (X0 : (0 <= x <= IZR n)%R) by (unfold x; nra).
  assert (C1 : (Zceil x <= n)) by (apply Zceil_glb; lra).
  assert (F1 : (0 <= Zfloor x)) by (apply Zfloor_lub; simpl; lra).
  assert (C0 : (0 <= Zceil x)) by (apply le_IZR; pose proof (Zceil_ub x); lra).
  assert (F2 : Zfloor x <= n) by (apply le_IZR; pose proof (Zfloor_lb x); lra).
  assert (U : Zceil (rne x) <= Zceil x).
  { apply Zceil_glb. rewrite <- (rne_IZR (Zceil x)) by lia. apply rne_le, Zceil_ub. }
  assert (D : Zfloor x <= Zceil (rne x)).
  { apply le_IZR. pose proof (Zceil_ub (rne x)). pose proof (rne_le _ _ (Zfloor_lb x)). rewrite rne_IZR in H0 by lia. lra. }
  unfold u64_max. lia.
Qed.
(*EX
Example ex_C61_rank : let q := f64_div (f64_of_u64 1) (f64_of_u64 2) in finite q /\ (0 <= real_of q <= 1)%R /\ 1 <= 101 <= 2 ^ 53.
Proof. exact half_case. Qed.
EX*)

(** what the counts are after a history without saturation *)
Lemma recorded_counts T lo hi sf b l h : wf (set_auto (fresh T lo hi sf) b) -> rec_many (set_auto (fresh T lo hi sf) b) l h ->
  no_saturation (auto (fresh T lo hi sf) b) l ->
  recorded_all (auto (fresh T lo hi sf) b) l h /\ wf h /\ Forall (fun p => u64 (fst p)) l /\ Forall (fun p => 0 <= snd p) l /\
  (forall j, 0 <= j -> zn (h_counts h) j = wsum (bin h) j l) /\ len h = weight l /\
  Forall (fun p => snd p = 0 \/ 0 <= bin h (fst p) < zlen (h_counts h)) l.
Proof.
  intros WA R NS. pose proof (rec_many_all _ _ _ R) as RA. pose proof (ra_wf _ _ _ RA) as W.
  pose proof (rec_many_u64 _ _ _ R) as FU. pose proof (rec_many_nonneg _ _ _ R) as FN. apply no_saturation_iff in NS; auto. destruct NS as [NS1 NS2].
  assert (CNT : forall j, 0 <= j -> zn (h_counts h) j = wsum (bin h) j l).
  { intros j Hj. rewrite (ra_cnt _ _ _ RA) by auto. specialize (NS1 j Hj).
    rewrite (wsum_ext (bin h) (bin (auto (fresh T lo hi sf) b))) by (intros; apply same_shape_bin; apply RA).
    change (h_counts (auto (fresh T lo hi sf) b)) with (h_counts (fresh T lo hi sf)) in *.
    change (h_counts (set_auto (fresh T lo hi sf) b)) with (h_counts (fresh T lo hi sf)) in *. rewrite fresh_zero in * by auto. 
    change (h_ctr (set_auto (fresh T lo hi sf) b)) with (h_ctr (auto (fresh T lo hi sf) b)). change (bin (set_auto (fresh T lo hi sf) b)) with (bin (auto (fresh T lo hi sf) b)). lia. }
  split; auto. split; auto. split; auto. split; auto. split; auto. split.
  { unfold len. pose proof (ra_total _ _ _ RA) as RT. pose proof (weight_wtotal l) as WT. change (h_total (auto (fresh T lo hi sf) b)) with 0 in *. change (h_total (set_auto (fresh T lo hi sf) b)) with 0 in *. lia. }
  apply Forall_forall. intros [v m] IV. cbn [fst snd]. destruct (Z.eq_dec m 0); [left; auto|right].
  assert (B0 : 0 <= bin h v). { rewrite Forall_forall in FU. apply bin_nonneg; [apply w_cfg; auto|apply (FU _ IV)]. } split; auto.
  destruct (Z_lt_le_dec (bin h v) (zlen (h_counts h))) as [|O]; auto. exfalso.
  pose proof (CNT (bin h v) B0) as Z. rewrite zn_out in Z by lia.
  assert (m <= wsum (bin h) (bin h v) l) by (apply wsum_in; auto). rewrite Forall_forall in FN; specialize (FN _ IV); cbn [snd] in FN; lia.
Qed.
Lemma median_of h v : wf h -> u64 v -> exists x, median_equivalent h v = Ret x /\ x = class_median h (bval h (bin h v)) /\ u64 x /\ bin h x = bin h v.
Proof.
  intros W V. pose proof (w_cfg h W) as C. pose proof (um_nonneg h C) as U0. pose proof (m_nonneg h C) as M0.
  pose proof (loweq_le (h_um h) (h_half_mag h) U0 v ltac:(apply V)) as LL. pose proof (lt_loweq_wid (h_um h) (h_half_mag h) U0 v ltac:(apply V)) as LW.
  assert (LU : u64 (loweq (h_um h) (h_half_mag h) v)) by (apply loweq_range; auto).
  pose proof (median_equivalent_ok h C v V) as MO. change (median_equivalent h v = Ret (med h v)) in MO.
  exists (med h v). split; auto.
  assert (LI : loweq (h_um h) (h_half_mag h) (loweq (h_um h) (h_half_mag h) v) = loweq (h_um h) (h_half_mag h) v).
  { apply (loweq_idx _ _ U0 M0); [apply LU|apply V|]. apply (bin_loweq h v C ltac:(apply V)). }
  split.
  { rewrite bval_bin by (auto; apply V). unfold class_median. rewrite median_equivalent_ok by auto. unfold med. rewrite LI, (wid_loweq _ _ U0 M0) by apply V. reflexivity. }
  pose proof (wid_pos (h_um h) (h_half_mag h) U0 v) as WP.
  assert (HD : 0 <= wid (h_um h) (h_half_mag h) v / 2 < wid (h_um h) (h_half_mag h) v) by (split; [apply Z.div_pos; lia|apply Z.div_lt; lia]).
  assert (MU : u64 (med h v)).
  { unfold median_equivalent in MO. rewrite lowest_equivalent_ok, equivalent_range_ok in MO by auto. cbn [bind] in MO. unfold u64_add, in_range in MO.
    destruct (_ && _) eqn:B in MO; [|discriminate]. injection MO as MO. unfold u64. lia. }
  split; auto. apply (idx_iff _ _ U0 M0); [apply MU|apply bin_nonneg; auto; apply V|]. unfold bin. rewrite val_idx, val_idx_succ by (auto; apply V). unfold med. lia.
Qed.

(** ** Sums over bins and sums over samples *)
Local Open Scope R_scope.
Fixpoint rs (n : nat) (i : Z) (g : Z -> R) (w : Z -> Z) : R :=
  match n with O => 0 | S n' => g i * IZR (w i) + rs n' (i + 1) g w end.
Lemma rs_ext n : forall i g w w', (forall k, (i <= k)%Z -> w k = w' k) -> rs n i g w = rs n i g w'.
Proof. induction n as [|n IH]; intros i g w w' E; cbn [rs]; auto. rewrite E by lia. f_equal. apply IH. intros; apply E; lia. Qed.
Lemma rs_zero n : forall i g, rs n i g (fun _ => 0%Z) = 0.
Proof. induction n as [|n IH]; intros; cbn [rs]; auto. rewrite IH. lra. Qed.
Lemma rs_delta n : forall i g w j m, rs n i g (fun k => ((if j =? k then m else 0) + w k)%Z) =
  (if ((i <=? j) && (j <? i + Z.of_nat n))%Z then g j * IZR m else 0) + rs n i g w.
Proof.
  induction n as [|n IH]; intros i g w j m; cbn [rs].
  - destruct (Z.leb_spec i j), (Z.ltb_spec j (i + Z.of_nat 0)); cbn [andb]; try lia; lra.
  - rewrite IH, plus_IZR. destruct (Z.eqb_spec j i) as [->|N].
    + destruct (Z.leb_spec i i); [|lia]. destruct (Z.ltb_spec i (i + Z.of_nat (S n))); [|lia]. destruct (Z.leb_spec (i + 1) i); [lia|]. cbn [andb]. lra.
    + destruct (Z.leb_spec i j), (Z.leb_spec (i + 1) j), (Z.ltb_spec j (i + Z.of_nat (S n))), (Z.ltb_spec j (i + 1 + Z.of_nat n)); cbn [andb]; try lia; lra.
Qed.
Lemma moment_bins f bv : forall cs i, moment f (bins_from bv cs i) = rs (length cs) i (fun k => f (bv k)) (fun k => zn cs (k - i)).
Proof.
  induction cs as [|c cs IH]; intros i; cbn [bins_from length rs]; auto.
  rewrite (rs_ext _ _ _ (fun k => zn (c :: cs) (k - i)) (fun k => zn cs (k - (i + 1)))).
  2: { intros k K. rewrite zn_cons_S by lia. f_equal. lia. }
  rewrite Z.sub_diag, zn_cons_0. destruct (Z.eqb_spec c 0) as [->|]; cbn [moment]; rewrite IH; lra.
Qed.
Lemma moment_samples f h l : Forall (fun p => snd p = 0%Z \/ (0 <= bin h (fst p) < zlen (h_counts h))%Z) l ->
  (forall j, (0 <= j)%Z -> zn (h_counts h) j = wsum (bin h) j l) ->
  moment f (contents h) = moment (fun v => f (bval h (bin h v))) l.
Proof.
  intros FB CN. unfold contents. rewrite moment_bins.
  rewrite (rs_ext _ _ _ _ (fun k => wsum (bin h) k l)). 2: { intros k K. rewrite Z.sub_0_r. apply CN. auto. }
  clear CN. induction FB as [|[v n] l N F IH]; cbn [wsum moment fst snd] in *; [apply rs_zero|].
  rewrite (rs_delta _ _ _ (fun k => wsum (bin h) k l)), IH. f_equal.
  destruct N as [->|N]; [destruct (_ && _)%Z; lra|].
  unfold zlen in N. destruct (Z.leb_spec 0 (bin h v)), (Z.ltb_spec (bin h v) (0 + Z.of_nat (length (h_counts h)))); cbn [andb]; try lia. reflexivity.
Qed.
Lemma moment_close f (u : R) (d : R) l : (forall v n, In (v, n) l -> (0 <= n)%Z /\ Rabs (f v - IZR v) <= u + IZR v * d) ->
  Rabs (moment f l - moment IZR l) <= u * IZR (weight l) + moment IZR l * d.
Proof.
  induction l as [|[v n] l IH]; intros B; cbn [moment weight].
  - rewrite Rminus_0_r, Rabs_R0. lra.
  - destruct (B v n (or_introl eq_refl)) as [N C]. specialize (IH (fun a b I => B a b (or_intror I))).
    rewrite plus_IZR. assert (0 <= IZR n) by (apply IZR_le; auto).
    replace (f v * IZR n + moment f l - (IZR v * IZR n + moment IZR l)) with ((f v - IZR v) * IZR n + (moment f l - moment IZR l)) by ring.
    pose proof (Rabs_triang ((f v - IZR v) * IZR n) (moment f l - moment IZR l)) as T.
    rewrite Rabs_mult, (Rabs_pos_eq (IZR n)) in T by auto. nra.
Qed.

(** a sample is half a class from the median of its class, at most *)
Lemma median_near h v unit : wf h -> u64 v -> equivalent_range h 0 = Ret unit ->
  Rabs (IZR (class_median h (bval h (bin h v))) - IZR v) <= IZR (unit / 2) + IZR v * (/ (2 * 10 ^ Z.to_nat (sigfig h))).
Proof.
  intros W V UN. pose proof (w_cfg h W) as C. pose proof (um_nonneg h C) as U0. pose proof (m_nonneg h C) as M0.
  destruct (median_of h v W V) as (x & MX & -> & XU & XB). set (x := class_median h (bval h (bin h v))) in *.
  rewrite median_equivalent_ok in MX by auto. injection MX as MX.
  rewrite equivalent_range_ok in UN by (auto; unfold u64, u64_max; lia). injection UN as <-.
  pose proof (loweq_le _ (h_half_mag h) U0 v ltac:(apply V)) as LL. pose proof (lt_loweq_wid _ (h_half_mag h) U0 v ltac:(apply V)) as LW.
  pose proof (wid_pos _ (h_half_mag h) U0 v) as WP. set (w := wid (h_um h) (h_half_mag h) v) in *.
  assert (D : (Z.abs (x - v) <= w / 2)%Z) by lia.
  assert (D2 : (2 * (w / 2) <= w)%Z) by (apply Z.mul_div_le; lia).
  assert (W0 : wid (h_um h) (h_half_mag h) 0 = (2 ^ h_um h)%Z) by (unfold wid, bkt; change (Z.log2 0) with 0%Z; f_equal; lia).
  rewrite W0. assert (P0 : 0 < 10 ^ Z.to_nat (sigfig h)) by (apply pow_lt; lra). assert (P2 : 0 < / (2 * 10 ^ Z.to_nat (sigfig h))) by (apply Rinv_0_lt_compat; lra).
  assert (V0 : 0 <= IZR v) by (apply IZR_le; apply V). assert (UP : (0 <= 2 ^ h_um h / 2)%Z) by (apply Z.div_pos; [apply Z.pow_nonneg|]; lia). apply IZR_le in UP.
  rewrite <- minus_IZR, <- abs_IZR. destruct (Z.eq_dec (bkt (h_um h) (h_half_mag h) v) 0) as [B|B].
  - assert (E : w = (2 ^ h_um h)%Z) by (unfold w, wid; rewrite B, Z.add_0_r; reflexivity). rewrite E in D. apply IZR_le in D. nra.
  - pose proof (bkt_nonneg (h_um h) (h_half_mag h) v).
    pose proof (Bins.sub_range _ _ U0 M0 v ltac:(apply V)) as [_ SB]. specialize (SB ltac:(lia)).
    assert (L : (2 ^ h_half_mag h * w <= v)%Z) by (pose proof (Z.mul_div_le v w WP); unfold w in *; nia).
    assert (P10 : (10 ^ sigfig h <= 2 ^ h_half_mag h)%Z).
    { unfold sigfig. rewrite (c_m h C). pose proof (c_sf h C).
      pose proof (Z.log2_up_spec (2 * 10 ^ h_sigfig h)) as LS.
      pose proof (Z.pow_pos_nonneg 10 (h_sigfig h) ltac:(lia) ltac:(lia)).
      specialize (LS ltac:(lia)). 
      assert (L1 : (1 <= Z.log2_up (2 * 10 ^ h_sigfig h))%Z) by (change 1%Z with (Z.log2_up 2); apply Z.log2_up_le_mono; lia).
      replace (Z.log2_up (2 * 10 ^ h_sigfig h)) with (Z.succ (Z.log2_up (2 * 10 ^ h_sigfig h) - 1)) in LS by lia.
      rewrite Z.pow_succ_r in LS by lia. lia. }
    assert (SF : (0 <= sigfig h)%Z) by (unfold sigfig; pose proof (c_sf h C); lia).
    assert (PW : IZR (10 ^ sigfig h) = 10 ^ Z.to_nat (sigfig h)). { rewrite <- (Z2Nat.id (sigfig h)) at 1 by auto. rewrite <- pow_IZR. reflexivity. }
    assert (A : (2 * 10 ^ sigfig h * Z.abs (x - v) <= v)%Z) by nia.
    apply IZR_le in A. rewrite !mult_IZR, PW in A. assert (IZR (Z.abs (x - v)) <= IZR v * / (2 * 10 ^ Z.to_nat (sigfig h))); [|lra].
    apply Rmult_le_reg_r with (2 * 10 ^ Z.to_nat (sigfig h)); [lra|]. rewrite Rmult_assoc, Rinv_l, Rmult_1_r by lra. lra.
Qed.

(** ** C62.  mean() is the mean of the recorded samples, up to the rounding of the float operations (a
    relative 2^-53 for every class and six more) and half the resolution of the histogram: half a unit
    (rounded down, so nothing when the unit is 1) plus half of 10^-sigfig of the mean. *)
Lemma C62_mean_accuracy_proof : forall T lo hi sf b h0 l h unit, is_u64 lo -> is_u64 hi -> is_u8 sf ->
  new_with_bounds T lo hi sf = Ret (ROk h0) -> records (auto h0 b) l h -> no_saturation (auto h0 b) l ->
  equivalent_range h 0 = Ret unit -> (0 < weight l)%Z ->
  exists f a, mean h = Ret f /\ finite f /\ within (length (held h) + 6) (real_of f) a /\
    (Rabs (a - sample_mean l) <= IZR (unit / 2) + sample_mean l / (2 * 10 ^ Z.to_nat sf))%R.
Proof.
  intros T lo hi sf b h0 l h unit L Hh S E R NS UN WL.
  destruct (created_wf T lo hi sf h0 L Hh S E) as (-> & CC & W0 & EX).
  assert (WA : wf (set_auto (fresh T lo hi sf) b)) by (apply set_auto_wf; auto).
  apply records_many in R; auto. destruct (recorded_counts T lo hi sf b l h WA R NS) as (RA & W & FU & FN & CNT & TOT & FB).
  destruct (mean_ok h W ltac:(unfold len in TOT; lia)) as (f & EF & FF & _ & WI).
  exists f, (exact_mean h). split; auto. split; auto. split; auto.
  assert (SF : sigfig h = sf) by (unfold sigfig; rewrite (ss_sf _ _ (ra_shape _ _ _ RA)); reflexivity).
  set (d := / (2 * 10 ^ Z.to_nat sf)). assert (D0 : 0 < d) by (apply Rinv_0_lt_compat; pose proof (pow_lt 10 (Z.to_nat sf)); lra).
  assert (CL : Rabs (moment (fun v => IZR (class_median h (bval h (bin h v)))) l - moment IZR l) <= IZR (unit / 2) * IZR (weight l) + moment IZR l * d).
  { apply (moment_close (fun v => IZR (class_median h (bval h (bin h v)))) (IZR (unit / 2)) d). intros v n I. rewrite Forall_forall in FU, FN.
    pose proof (FN _ I) as N. cbn [fst snd] in *. split; auto. unfold d. rewrite <- SF. apply median_near; auto. apply (FU _ I). }
  assert (N : 0 < IZR (weight l)) by (apply (IZR_lt 0); auto). assert (NI : 0 < / IZR (weight l)) by (apply Rinv_0_lt_compat; auto).
  unfold exact_mean, sample_mean. rewrite TOT, held_contents, (moment_samples _ h l FB CNT) by auto.
  set (A := moment _ l) in *. set (B := moment IZR l) in *. replace (A / IZR (weight l) - B / IZR (weight l)) with ((A - B) * / IZR (weight l)) by (unfold Rdiv; ring).
  rewrite Rabs_mult, (Rabs_pos_eq (/ _)) by lra. unfold Rdiv. fold d.
  apply Rle_trans with ((IZR (unit / 2) * IZR (weight l) + B * d) * / IZR (weight l)); [apply Rmult_le_compat_r; lra|].
  right. field. lra.
Qed.
(*EX
(** samples 17 (60 times), 12345, 420 (39 times): mean 297.45; the medians are 17, 12320 and 421 *)
Example ex_C62 : match build U64 1 100000 2 false [(17, 60); (12345, 1); (420, 39)] with
  | Some h => reachable h /\ equivalent_range h 0 = Ret 1 /\ map (fun p => class_median h (fst p)) (held h) = [17; 421; 12320] /\
      match mean h with Ret m => f64_to_u64 (f64_mul m (f64_of_u64 100)) = 29758 | _ => False end
  | None => False end.
Proof. float_case. Qed.
EX*)

(** *)
(** a case of [C61_rank] *)
Lemma half_case : let q := f64_div (f64_of_u64 1) (f64_of_u64 2) in finite q /\ (0 <= real_of q <= 1)%R /\ (1 <= 101 <= 2 ^ 53)%Z.
Proof.
  set (q := f64_div _ _). cbv zeta.
  assert (H : is_finite q = true /\ f64_le f64_zero q = true /\ f64_le q f64_one = true) by (subst q; vm_compute; auto).
  destruct H as (F & A & B). destruct one_ok as [O FO]. unfold f64_le in A, B. rewrite Bleb_correct in A, B by auto. rewrite O in B.
  split; [exact F|]. split; [|lia]. change (real_of q) with (B2R q).
  destruct (Rle_bool_spec (B2R f64_zero) (B2R q)) as [X|]; [|discriminate]. destruct (Rle_bool_spec (B2R q) 1) as [Y|]; [|discriminate].
  split; [exact X|exact Y].
Qed.
