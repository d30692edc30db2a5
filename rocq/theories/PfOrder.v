(** * Proofs of the properties about the order of recording (C60) *)
(*PROPS-IMPORTS Machine Log2Model HistModel Spec OrderSpec Reach Witness Cases *)
(*PROPS-HEADER
From Coq Require Import Permutation.
PROPS-HEADER*)
From Coq Require Import Permutation.
From Verif Require Import Machine Log2Model HistModel Spec OrderSpec Reach Bins ListZ Log2Facts Cfg Wf Ops AddFacts SubFacts Exact MoreFacts Witness HeldFacts PfRecord PfMerge.
From Coq Require Import ZifyBool ZifyNat.

Definition hb (h : hist) (v : Z) : Z := bkt (h_um h) (h_half_mag h) v.
(** the new upper end after growing for a value of bucket [k] *)
Definition htop (h : hist) (k : Z) : Z := Z.min u64_max (2 ^ (h_um h + h_half_mag h + k + 1)) - 1.

Lemma fits_hb h v : wf h -> u64 v -> (bin h v < zlen (h_counts h) <-> hb h v <= hb h (h_high h)).
Proof. intros W V. apply (idx_in_iff h (w_cfg h W) (w_size h W) v V). Qed.

Lemma grown_high h v : wf h -> u64 v ->
  h_high (grown h v) = (if hb h v <=? hb h (h_high h) then h_high h else htop h (hb h v)) /\
  hb h (h_high (grown h v)) = Z.max (hb h v) (hb h (h_high h)).
Proof.
  intros W V. pose proof (w_cfg h W) as C. pose proof (w_size h W) as S.
  pose proof (fits_hb h v W V) as F. unfold bin in F.
  destruct (grown_facts h v C S V) as (GC & GS & GI & GL & _). revert GC GS GI GL. unfold grown.
  destruct (Z.ltb_spec (idx (h_um h) (h_half_mag h) v) (zlen (h_counts h))) as [I|I]; intros GC GS GI GL.
  - apply F in I. destruct (Z.leb_spec (hb h v) (hb h (h_high h))); [|lia]. split; auto. lia.
  - destruct (Z.leb_spec (hb h v) (hb h (h_high h))) as [L|L]; [lia|]. split; [reflexivity|].
    pose proof (s_bc _ GS) as B. change (h_bucket_count (set_high (resized h v) (top_val (resized h v)))) with (hb h v + 1) in B.
    change (h_um (set_high (resized h v) (top_val (resized h v)))) with (h_um h) in B.
    change (h_half_mag (set_high (resized h v) (top_val (resized h v)))) with (h_half_mag h) in B. unfold hb in *. lia.
Qed.

Record stepped (h : hist) (v n : Z) (h' : hist) : Prop := {
  sp_rec : recorded h v n h';
  sp_auto : h_auto h' = h_auto h;
  sp_high : h_high h' = (if hb h v <=? hb h (h_high h) then h_high h else htop h (hb h v));
  sp_hb : hb h (h_high h') = Z.max (hb h v) (hb h (h_high h)) }.

Lemma record_n_stepped h v n h' : wf h -> u64 v -> 0 <= n <= cmax (h_ctr h) -> record_n h v n = Ret (h', ROk tt) ->
  stepped h v n h' /\ (hb h v <= hb h (h_high h) \/ h_auto h = true).
Proof.
  intros W V N E. pose proof (fits_hb h v W V) as F.
  destruct (record_n_cases h v n W V N) as [(h1 & E1 & R)|(E1 & _)]; rewrite E1 in E; inversion E; subst h1.
  revert E1. unfold record_n. rewrite record_n_inner_ok by (auto using w_cfg, w_size). fold (bin h v).
  destruct (grown_high h v W V) as [G1 G2].
  destruct (Z.ltb_spec (bin h v) (zlen (h_counts h))) as [I|I].
  - intros E1. inversion E1; subst h'. assert (GE : grown h v = h).
    { unfold grown. fold (bin h v). destruct (Z.ltb_spec (bin h v) (zlen (h_counts h))); auto; lia. }
    rewrite GE in *. split; [|left; lia]. constructor; auto.
  - destruct (h_auto h) eqn:A; [|discriminate]. intros E1. inversion E1; subst h'. split; [|auto]. constructor; auto.
    unfold rec_pure, grown; cbn zeta; hsimp. destruct (_ <? _); auto.
Qed.

Lemma hb_shape a b v : same_shape a b -> hb b v = hb a v.
Proof. intros S. unfold hb. rewrite (ss_um _ _ S), (ss_m _ _ S). auto. Qed.

Lemma new_max_swap M P a b : 0 < P -> 0 <= a -> 0 <= b ->
  let up v := v / P * P + (P - 1) in let mx m v := if m <? v then up v else m in mx (mx M a) b = mx (mx M b) a.
Proof.
  intros HP Ha Hb up mx. pose proof (Z.div_mod a P ltac:(lia)). pose proof (Z.div_mod b P ltac:(lia)).
  pose proof (Z.mod_pos_bound a P HP). pose proof (Z.mod_pos_bound b P HP).
  unfold mx, up. set (x := a / P) in *. set (y := b / P) in *.
  assert (x < y \/ x = y \/ y < x) as [L|[L|L]] by lia.
  - assert (P * x + P <= P * y) by nia.
    destruct (Z.ltb_spec M a); destruct (Z.ltb_spec M b); destruct (Z.ltb_spec (x * P + (P - 1)) b); destruct (Z.ltb_spec (y * P + (P - 1)) a); 
      destruct (Z.ltb_spec M a); destruct (Z.ltb_spec M b); try lia.
  - rewrite L in *. destruct (Z.ltb_spec M a); destruct (Z.ltb_spec M b); destruct (Z.ltb_spec (y * P + (P - 1)) b); destruct (Z.ltb_spec (y * P + (P - 1)) a); 
      destruct (Z.ltb_spec M a); destruct (Z.ltb_spec M b); try lia.
  - assert (P * y + P <= P * x) by nia.
    destruct (Z.ltb_spec M a); destruct (Z.ltb_spec M b); destruct (Z.ltb_spec (x * P + (P - 1)) b); destruct (Z.ltb_spec (y * P + (P - 1)) a); 
      destruct (Z.ltb_spec M a); destruct (Z.ltb_spec M b); try lia.
Qed.
Lemma new_min_swap M P a b : 0 < P -> 0 <= a -> 0 <= b ->
  let dn v := v / P * P in let mn m v := if (v <? m) && (P <=? v) then dn v else m in mn (mn M a) b = mn (mn M b) a.
Proof.
  intros HP Ha Hb dn mn. pose proof (Z.div_mod a P ltac:(lia)). pose proof (Z.div_mod b P ltac:(lia)).
  pose proof (Z.mod_pos_bound a P HP). pose proof (Z.mod_pos_bound b P HP).
  unfold mn, dn. set (x := a / P) in *. set (y := b / P) in *.
  destruct (Z.leb_spec P a), (Z.leb_spec P b); rewrite ?Bool.andb_false_r, ?Bool.andb_true_r; auto.
  assert (x < y \/ x = y \/ y < x) as [L|[L|L]] by lia.
  - assert (P * x + P <= P * y) by nia.
    destruct (Z.ltb_spec a M); destruct (Z.ltb_spec b M); destruct (Z.ltb_spec b (x * P)); destruct (Z.ltb_spec a (y * P)); 
      destruct (Z.ltb_spec a M); destruct (Z.ltb_spec b M); try lia.
  - rewrite L in *. destruct (Z.ltb_spec a M); destruct (Z.ltb_spec b M); destruct (Z.ltb_spec b (y * P)); destruct (Z.ltb_spec a (y * P)); 
      destruct (Z.ltb_spec a M); destruct (Z.ltb_spec b M); try lia.
  - assert (P * y + P <= P * x) by nia.
    destruct (Z.ltb_spec a M); destruct (Z.ltb_spec b M); destruct (Z.ltb_spec b (x * P)); destruct (Z.ltb_spec a (y * P)); 
      destruct (Z.ltb_spec a M); destruct (Z.ltb_spec b M); try lia.
Qed.

(** two histograms of the same shape with equal contents and statistics are equal *)
Lemma hist_ext a b : wf a -> wf b -> same_shape a b -> h_auto b = h_auto a -> h_high b = h_high a ->
  (forall j, 0 <= j -> zn (h_counts b) j = zn (h_counts a) j) -> h_total b = h_total a -> h_max b = h_max a -> h_min b = h_min a -> b = a.
Proof.
  intros WA WB SS EA EH EC ET EX EN. pose proof (w_size a WA) as [A1 A2]. pose proof (w_size b WB) as [B1 B2].
  rewrite (ss_um _ _ SS), (ss_m _ _ SS), EH in B1, B2.
  assert (BC : h_bucket_count b = h_bucket_count a) by congruence.
  assert (LC : h_counts b = h_counts a) by (apply list_ext; auto; congruence).
  pose proof (w_cfg a WA) as CA. pose proof (w_cfg b WB) as CB. destruct SS as [S1 S2 S3 S4 S5 S6].
  assert (D : h_sub_bucket_count b = h_sub_bucket_count a /\ h_half_count b = h_half_count a /\ h_mask b = h_mask a /\ h_lzb b = h_lzb a /\ h_um_mask b = h_um_mask a).
  { destruct CA, CB. repeat split; congruence. }
  destruct D as (D1 & D2 & D3 & D4 & D5).
  assert (ETA : forall h, h = mk_hist (h_ctr h) (h_auto h) (h_high h) (h_low h) (h_sigfig h) (h_bucket_count h)
    (h_sub_bucket_count h) (h_half_count h) (h_half_mag h) (h_mask h) (h_lzb h) (h_um h) (h_um_mask h) (h_max h) (h_min h) (h_total h) (h_counts h)) by (intros []; reflexivity).
  rewrite (ETA a), (ETA b), S1, S2, S3, S4, S5, S6, EH, ET, EX, EN, D1, D2, D3, D4, D5, BC, LC. reflexivity.
Qed.

Lemma high_swap (f : Z -> Z) H A B X :
  (if B <=? Z.max A H then (if A <=? H then X else f A) else f B) = (if A <=? Z.max B H then (if B <=? H then X else f B) else f A).
Proof.
  destruct (Z.leb_spec B (Z.max A H)), (Z.leb_spec A (Z.max B H)), (Z.leb_spec A H), (Z.leb_spec B H); auto; try lia.
  replace B with A by lia. auto.
Qed.
Lemma record_swap h a n b m h1 h2 : wf h -> u64 a -> u64 b -> 0 <= n <= cmax (h_ctr h) -> 0 <= m <= cmax (h_ctr h) ->
  record_n h a n = Ret (h1, ROk tt) -> record_n h1 b m = Ret (h2, ROk tt) ->
  exists h3, record_n h b m = Ret (h3, ROk tt) /\ record_n h3 a n = Ret (h2, ROk tt).
Proof.
  intros W A B N M E1 E2. destruct (record_n_stepped h a n h1 W A N E1) as [S1 F1].
  pose proof (rd_wf _ _ _ _ (sp_rec _ _ _ _ S1)) as W1. pose proof (rd_shape _ _ _ _ (sp_rec _ _ _ _ S1)) as SS1.
  destruct (record_n_stepped h1 b m h2 W1 B ltac:(rewrite (ss_ctr _ _ SS1); lia) E2) as [S2 F2].
  pose proof (rd_wf _ _ _ _ (sp_rec _ _ _ _ S2)) as W2. pose proof (rd_shape _ _ _ _ (sp_rec _ _ _ _ S2)) as SS2.
  rewrite (sp_auto _ _ _ _ S1) in F2. rewrite !(hb_shape _ _ _ SS1), (sp_hb _ _ _ _ S1) in F2.
  assert (FB : hb h b <= hb h (h_high h) \/ h_auto h = true) by lia.
  destruct (record_n_ok h b m W B M) as (h3 & E3 & _). { rewrite fits_hb by auto. lia. }
  destruct (record_n_stepped h b m h3 W B M E3) as [S3 F3].
  pose proof (rd_wf _ _ _ _ (sp_rec _ _ _ _ S3)) as W3. pose proof (rd_shape _ _ _ _ (sp_rec _ _ _ _ S3)) as SS3.
  assert (N3 : 0 <= n <= cmax (h_ctr h3)) by (rewrite (ss_ctr _ _ SS3); lia).
  destruct (record_n_ok h3 a n W3 A N3) as (h4 & E4 & _).
  { rewrite fits_hb by auto. rewrite !(hb_shape _ _ _ SS3), (sp_hb _ _ _ _ S3), (sp_auto _ _ _ _ S3). lia. }
  destruct (record_n_stepped h3 a n h4 W3 A N3 E4) as [S4 F4].
  pose proof (rd_wf _ _ _ _ (sp_rec _ _ _ _ S4)) as W4. pose proof (rd_shape _ _ _ _ (sp_rec _ _ _ _ S4)) as SS4.
  exists h3. split; auto. rewrite E4. do 2 f_equal.
  destruct S1 as [[_ _ C1 T1 X1 I1 _ _] A1 H1 G1], S2 as [[_ _ C2 T2 X2 I2 _ _] A2 H2 G2], S3 as [[_ _ C3 T3 X3 I3 _ _] A3 H3 G3], S4 as [[_ _ C4 T4 X4 I4 _ _] A4 H4 G4].
  pose proof (w_cfg h W) as C. pose proof (um_nonneg h C) as U0. pose proof (pow2_pos (h_um h) U0) as P2.
  apply hist_ext; auto.
  - pose proof (same_shape_trans _ _ _ SS1 SS2) as [? ? ? ? ? ?]. pose proof (same_shape_trans _ _ _ SS3 SS4) as [? ? ? ? ? ?]. constructor; congruence.
  - congruence.
  - rewrite H4, H2, !(hb_shape _ _ _ SS1), !(hb_shape _ _ _ SS3), G1, G3, H1, H3. unfold htop.
    rewrite (ss_um _ _ SS1), (ss_m _ _ SS1), (ss_um _ _ SS3), (ss_m _ _ SS3).
    exact (eq_sym (high_swap (fun k => Z.min u64_max (2 ^ (h_um h + h_half_mag h + k + 1)) - 1) (hb h (h_high h)) (hb h a) (hb h b) (h_high h))).
  - intros j Hj. rewrite C4, C2, C1, C3 by auto. rewrite (same_shape_bin _ _ _ SS1), (same_shape_bin _ _ _ SS3), (ss_ctr _ _ SS1), (ss_ctr _ _ SS3).
    clear - N M. unfold csat_add. destruct (_ =? j), (_ =? j); lia.
  - rewrite T4, T3, T2, T1. clear - N M. unfold sat_add64. lia.
  - rewrite X4, X2. unfold new_max. rewrite (ss_um _ _ SS1), (ss_um _ _ SS3), X1, X3. unfold new_max.
    symmetry. apply new_max_swap; auto; [apply A|apply B].
  - rewrite I4, I2. unfold new_min. rewrite (ss_um _ _ SS1), (ss_um _ _ SS3), I1, I3. unfold new_min.
    symmetry. apply new_min_swap; auto; [apply A|apply B].
Qed.

(** ** C60.  The order in which samples are recorded does not matter: any reordering is accepted too and
    leaves exactly the same histogram, even if counters saturate or the histogram grows on the way. *)
Lemma C60_order_proof : forall h l l' h', reachable h -> Permutation l l' -> records h l h' -> records h l' h'.
Proof.
  intros h l l' h' R P. apply reachable_wf in R. revert h h' R.
  induction P as [|[v n] l l' P IH|[v n] [w m] l|l1 l2 l3 P1 IH1 P2 IH2]; intros h h' W RC; auto.
  - inversion RC as [|? ? ? ? h1 ? V N E RC' ]; subst. econstructor; eauto.
    destruct (record_n_stepped h v n h1 W V N E) as [S _]. apply IH; auto. apply S.
  - inversion RC as [|? ? ? ? h1 ? V N E RC' ]; subst. inversion RC' as [|? ? ? ? h2 ? V2 N2 E2 RC2 ]; subst.
    destruct (record_n_stepped h w m h1 W V N E) as [S _].
    assert (EC : h_ctr h1 = h_ctr h) by (apply ss_ctr, S). unfold is_count in *. rewrite EC in N2.
    destruct (record_swap h w m v n h1 h2 W V V2 N N2 E E2) as (h3 & E3 & E4).
    destruct (record_n_stepped h v n h3 W V2 N2 E3) as [S3 _].
    assert (EC3 : h_ctr h3 = h_ctr h) by (apply ss_ctr, S3).
    econstructor; [auto|exact N2|exact E3|]. econstructor; [auto|unfold is_count; rewrite EC3; exact N|exact E4|auto].
Qed.
(*EX
Example ex_C60 : match build U8 1 100 2 true [(5, 200); (100000, 1); (5, 100)], build U8 1 100 2 true [(100000, 1); (5, 100); (5, 200)] with
  | Some a, Some b => reachable a /\ reachable b /\ a = b /\ held a = [(5, 255); (99840, 1)] /\ len a = 301
  | _, _ => False end.
Proof. case_of. Qed.
EX*)
(** a list of records is accepted or not independently of the order *)
Lemma C60_accepted_proof : forall h l l', reachable h -> Permutation l l' ->
  ((exists h', records h l h') <-> (exists h', records h l' h')).
Proof.
  intros h l l' R P. split; intros [h' E]; exists h'; [apply (C60_order_proof h l l')|apply (C60_order_proof h l' l)]; auto. apply Permutation_sym; auto.
Qed.
(*EX
Example ex_C60_accepted : match build U8 1 100 2 false [] with
  | Some h => reachable h /\ covers h 100 /\ ~ covers h 5000 /\ Permutation [(5, 1); (5000, 1)] [(5000, 1); (5, 1)] /\ Permutation [(5, 1); (100, 1)] [(100, 1); (5, 1)] /\
      match build U8 1 100 2 false [(5, 1); (100, 1)] with Some a => records h [(5, 1); (100, 1)] a /\ records h [(100, 1); (5, 1)] a | None => False end
  | None => False end.
Proof. case_of. all: apply perm_swap. Qed.
EX*)

Lemma shard_run z : wf z -> (forall j, 0 <= j -> zn (h_counts z) j = 0) -> h_total z = 0 -> exact z -> forall ls ss, Forall2 (records z) ls ss ->
  forall acc P h', merges acc ss h' ->
  wf acc -> same_shape z acc -> Forall (fun p => 0 <= snd p) P ->
  (forall j, 0 <= j -> zn (h_counts acc) j = Z.min (cmax (h_ctr z)) (wsum (bin z) j P)) ->
  wf h' /\ same_shape z h' /\ Forall (fun p => 0 <= snd p) (P ++ concat ls) /\
  (forall j, 0 <= j -> zn (h_counts h') j = Z.min (cmax (h_ctr z)) (wsum (bin z) j (P ++ concat ls))) /\
  ((forall j, 0 <= j -> wsum (bin z) j (P ++ concat ls) <= cmax (h_ctr z)) -> wtotal (P ++ concat ls) <= u64_max ->
   Forall (fun p => 1 <= snd p) (concat ls) -> exact acc -> h_total acc = wtotal P -> exact h' /\ h_total h' = wtotal (P ++ concat ls)).
Proof.
  intros WZ Z0 TZ EZ ls ss F. induction F as [|l s ls ss R F IH]; intros acc P h' MR WA SS FP CN.
  - inversion MR; subst. cbn [concat]. rewrite app_nil_r. auto 10.
  - inversion MR as [|? ? ? h1 ? E MR']; subst. cbn [concat]. rewrite app_assoc.
    apply records_many in R; auto. pose proof (rec_many_all _ _ _ R) as RA. pose proof (ra_wf _ _ _ RA) as WS. pose proof (rec_many_nonneg _ _ _ R) as FN.
    assert (CT : h_ctr acc = h_ctr s) by (rewrite (ss_ctr _ _ SS), (ss_ctr _ _ (ra_shape _ _ _ RA)); auto).
    assert (SP : same_precision acc s). { pose proof SS as [? ? ? ? ? ?]. pose proof (ra_shape _ _ _ RA) as [? ? ? ? ? ?]. split; congruence. }
    destruct (add_same_counts acc s h1 WA WS CT SP E) as (W1 & S1 & K1).
    assert (FP1 : Forall (fun p => 0 <= snd p) (P ++ l)) by (apply Forall_app; auto).
    assert (CN1 : forall j, 0 <= j -> zn (h_counts h1) j = Z.min (cmax (h_ctr z)) (wsum (bin z) j (P ++ l))).
    { intros j Hj. rewrite K1, CN, (ra_cnt _ _ _ RA), Z0, (ss_ctr _ _ SS), wsum_app by auto.
      pose proof (cmax_le (h_ctr z)). pose proof (wsum_nonneg (bin z) j P FP). pose proof (wsum_nonneg (bin z) j l FN). lia. }
    destruct (IH h1 (P ++ l) h' MR' W1 (same_shape_trans _ _ _ SS S1) FP1 CN1) as (A & B & D & G & X).
    split; auto. split; auto. split; auto. split; auto. intros U T F1 EA TA. apply Forall_app in F1. destruct F1 as [F1 F2].
    assert (FC : Forall (fun p => 0 <= snd p) (concat ls)) by (eapply Forall_impl; [|exact F2]; cbn; lia).
    assert (US : unsaturated z l).
    { split.
      - intros j Hj. rewrite Z0 by auto. specialize (U j Hj). rewrite !wsum_app in U. pose proof (wsum_nonneg (bin z) j P FP). pose proof (wsum_nonneg (bin z) j _ FC). lia.
      - rewrite TZ. rewrite !wtotal_app in T. pose proof (wtotal_nonneg P FP). pose proof (wtotal_nonneg _ FC). lia. }
    pose proof (rec_many_exact z l s WZ R F1 US EZ) as ES.
    assert (TS : h_total s = wtotal l). { rewrite (ra_total _ _ _ RA). destruct US as [_ US]. lia. }
    assert (ZS : zsum (h_counts s) = wtotal l) by (rewrite <- TS; symmetry; apply ES).
    assert (TT : wtotal P + wtotal l <= u64_max). { rewrite !wtotal_app in T. pose proof (wtotal_nonneg _ FC). lia. }
    assert (UA : unsaturated acc (contents s)).
    { split.
      - intros j Hj. rewrite (wsum_ext _ (bin s)) by (intros; apply same_precision_bin; auto). rewrite wsum_contents by auto.
        rewrite CN, (ra_cnt _ _ _ RA), Z0, (ss_ctr _ _ SS) by auto. specialize (U j Hj). rewrite !wsum_app in U. pose proof (wsum_nonneg (bin z) j _ FC). lia.
      - rewrite wtotal_contents, ZS, TA. lia. }
    apply X; auto.
    + apply (add_exact acc s h1 (ROk tt)); auto.
    + rewrite wtotal_app. destruct (add_success acc s h1 WA WS CT E) as [(EM & ->)|(EM & AD & FIT)].
      * unfold is_empty in EM. lia.
      * pose proof (wtotal_nonneg P FP). rewrite (ad_total _ _ _ AD); rewrite ZS; lia.
Qed.

(** recording into several histograms of the same configuration and adding them up holds the same samples
    as recording everything into one of them *)
Lemma C60_shards_held_proof : forall T lo hi sf b h0 ls ss h h', is_u64 lo -> is_u64 hi -> is_u8 sf ->
  new_with_bounds T lo hi sf = Ret (ROk h0) ->
  Forall2 (records (auto h0 b)) ls ss -> merges (auto h0 b) ss h' -> records (auto h0 b) (concat ls) h ->
  held h' = held h.
Proof.
  intros T lo hi sf b h0 ls ss h h' L Hh S E F M R.
  destruct (created_wf T lo hi sf h0 L Hh S E) as (-> & CC & W0 & EX).
  assert (WA : wf (auto (fresh T lo hi sf) b)) by (apply set_auto_wf; auto).
  destruct (shard_run (auto (fresh T lo hi sf) b) WA (fun j => fresh_zero T lo hi sf j) eq_refl (set_auto_exact _ b W0 EX) ls ss F _ [] h' M WA (same_shape_refl _) (Forall_nil _)) as (A & B & D & G & X).
  { intros j Hj. cbn [wsum]. rewrite Z.min_r by (pose proof (cmax_le T); cbn; lia). apply (fresh_zero T lo hi sf j Hj). }
  apply records_many in R; auto. pose proof (rec_many_all _ _ _ R) as RA.
  apply held_ext; auto; try apply RA.
  - rewrite (ss_um _ _ B), (ss_um _ _ (ra_shape _ _ _ RA)). auto.
  - rewrite (ss_m _ _ B), (ss_m _ _ (ra_shape _ _ _ RA)). auto.
  - intros j Hj. rewrite G, (ra_cnt _ _ _ RA) by auto. cbn [app].
    change (h_counts (auto (fresh T lo hi sf) b)) with (h_counts (fresh T lo hi sf)). rewrite fresh_zero by auto. reflexivity.
Qed.
(*EX
Example ex_C60_shards_held : match build U64 1 1000 2 false [(5, 2); (900, 1)], build U64 1 1000 2 false [(7, 3)],
    build U64 1 1000 2 false [], build U64 1 1000 2 false [(5, 2); (900, 1); (7, 3)] with
  | Some a, Some b, Some z, Some h =>
      reachable z /\ records z [(5, 2); (900, 1)] a /\ records z [(7, 3)] b /\ records z [(5, 2); (900, 1); (7, 3)] h /\
      match add z a with Ret (z1, ROk _) => match add z1 b with Ret (z2, ROk _) => held z2 = held h | _ => False end | _ => False end
  | _, _, _, _ => False end.
Proof. case_of. Qed.
EX*)
(** and reports the same [len], [max] and [min_nz], if nothing saturates and no count is zero *)
Lemma C60_shards_stats_proof : forall T lo hi sf b h0 ls ss h h', is_u64 lo -> is_u64 hi -> is_u8 sf ->
  new_with_bounds T lo hi sf = Ret (ROk h0) ->
  Forall2 (records (auto h0 b)) ls ss -> merges (auto h0 b) ss h' -> records (auto h0 b) (concat ls) h ->
  no_saturation (auto h0 b) (concat ls) -> (forall v n, In (v, n) (concat ls) -> 1 <= n) ->
  stats_agree h' /\ len h' = len h /\ same_max h' h /\ same_min_nz h' h.
Proof.
  intros T lo hi sf b h0 ls ss h h' L Hh S E F M R NS POS.
  destruct (created_wf T lo hi sf h0 L Hh S E) as (-> & CC & W0 & EX).
  assert (WA : wf (auto (fresh T lo hi sf) b)) by (apply set_auto_wf; auto).
  destruct (shard_run (auto (fresh T lo hi sf) b) WA (fun j => fresh_zero T lo hi sf j) eq_refl (set_auto_exact _ b W0 EX) ls ss F _ [] h' M WA (same_shape_refl _) (Forall_nil _)) as (A & B & D & G & X).
  { intros j Hj. cbn [wsum]. rewrite Z.min_r by (pose proof (cmax_le T); cbn; lia). apply (fresh_zero T lo hi sf j Hj). }
  apply records_many in R; auto. pose proof (rec_many_all _ _ _ R) as RA. pose proof (rec_many_u64 _ _ _ R) as FU.
  apply no_saturation_iff in NS; auto. pose proof NS as [NS1 NS2]. cbn [app] in *.
  assert (F1 : Forall (fun p => 1 <= snd p) (concat ls)). { apply Forall_forall. intros [v n] I. cbn [snd]. eauto. }
  pose proof (rec_many_exact _ _ _ WA R F1 NS (set_auto_exact _ b W0 EX)) as XH.
  assert (XS : exact h' /\ h_total h' = wtotal (concat ls)).
  { apply X; auto.
    - intros j Hj. specialize (NS1 j Hj). change (h_counts (auto (fresh T lo hi sf) b)) with (h_counts (fresh T lo hi sf)) in NS1. rewrite fresh_zero in NS1 by auto. lia.
    - apply set_auto_exact; auto. }
  destruct XS as [XS XT].
  assert (U : h_um h' = h_um h) by (rewrite (ss_um _ _ B), (ss_um _ _ (ra_shape _ _ _ RA)); auto).
  assert (MM : h_half_mag h' = h_half_mag h) by (rewrite (ss_m _ _ B), (ss_m _ _ (ra_shape _ _ _ RA)); auto).
  assert (K : forall j, 0 <= j -> zn (h_counts h') j = zn (h_counts h) j).
  { intros j Hj. rewrite G, (ra_cnt _ _ _ RA) by auto.
    change (h_counts (auto (fresh T lo hi sf) b)) with (h_counts (fresh T lo hi sf)). rewrite fresh_zero by auto. reflexivity. }
  destruct (same_stats h' h A (ra_wf _ _ _ RA) U MM K) as (T1 & T2 & T3).
  split; [apply stats_agree_iff; auto|]. split; [apply T1; [apply XS|apply XH]|]. split; [apply T2; [apply XS|apply XH]|apply T3; [apply XS|apply XH]].
Qed.
(*EX
Example ex_C60_shards : match build U64 1 1000 2 false [(5, 2); (900, 1)], build U64 1 1000 2 false [(7, 3)],
    build U64 1 1000 2 false [], build U64 1 1000 2 false [(5, 2); (900, 1); (7, 3)] with
  | Some a, Some b, Some z, Some h =>
      reachable a /\ reachable b /\ reachable z /\ reachable h /\ match add z a with
      | Ret (z1, ROk _) => match add z1 b with
          | Ret (z2, ROk _) => held z2 = held h /\ len z2 = len h /\ max z2 = max h /\ min_nz z2 = min_nz h /\ held h = [(5, 2); (7, 3); (900, 1)]
          | _ => False end
      | _ => False end
  | _, _, _, _ => False end.
Proof. case_of. Qed.
EX*)
