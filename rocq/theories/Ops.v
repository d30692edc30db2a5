(** * Statistics read-outs, clearing, sequences of records *)
From Verif Require Import Machine Log2Model HistModel Bins ListZ Log2Facts Cfg Wf.
From Coq Require Import ZifyBool ZifyNat.

(** bin of a value in a histogram, and first value of a bin *)
Definition bin (h : hist) (v : Z) : Z := idx (h_um h) (h_half_mag h) v.
Definition bval (h : hist) (i : Z) : Z := val (h_um h) (h_half_mag h) i.

Lemma bin_nonneg h v : cfg_ok h -> 0 <= v -> 0 <= bin h v.
Proof. intros C V. apply idx_nonneg; auto using um_nonneg, m_nonneg. Qed.

Lemma bin_mono h v w : cfg_ok h -> 0 <= v <= w -> bin h v <= bin h w.
Proof. intros C V. apply idx_mono; auto using um_nonneg, m_nonneg. Qed.

Lemma bin_lt_inv h v w : cfg_ok h -> 0 <= v -> 0 <= w -> bin h v < bin h w -> v < w.
Proof. intros C V W. apply idx_lt_inv; auto using um_nonneg, m_nonneg. Qed.

Lemma bin_bval h i : cfg_ok h -> 0 <= i -> bin h (bval h i) = i.
Proof. intros C I. apply idx_val; auto using um_nonneg, m_nonneg. Qed.

Lemma bval_bin h v : cfg_ok h -> 0 <= v -> bval h (bin h v) = loweq (h_um h) (h_half_mag h) v.
Proof. intros C I. apply val_idx; auto using um_nonneg, m_nonneg. Qed.

Lemma bval_nonneg h i : cfg_ok h -> 0 <= i -> 0 <= bval h i.
Proof. intros C I. apply val_nonneg; auto using um_nonneg, m_nonneg. Qed.

Lemma bval_u64 h i : cfg_ok h -> size_ok h -> 0 <= i < zlen (h_counts h) -> u64 (bval h i).
Proof. intros C S I. apply val_u64; auto. pose proof (len_le_top h C S). lia. Qed.

Lemma bval_lt h i j : cfg_ok h -> 0 <= i -> i < j -> bval h i < bval h j.
Proof. intros C I. apply val_lt; auto using um_nonneg, m_nonneg. Qed.

Lemma bval_le h i j : cfg_ok h -> 0 <= i -> i <= j -> bval h i <= bval h j.
Proof. intros C I. apply val_le; auto using um_nonneg, m_nonneg. Qed.

(** ** max, min_nz, min *)
Definition maxp (h : hist) : Z := if h_max h =? 0 then 0 else higheq h (h_max h).
Definition minp (h : hist) : Z :=
  if h_min h =? u64_max then u64_max else loweq (h_um h) (h_half_mag h) (h_min h).

Lemma max_ok h : wf h -> max h = Ret (maxp h).
Proof.
  intros W. unfold max, maxp, ORIGINAL_MAX. destruct (h_max h =? 0); auto.
  apply highest_equivalent_ok; [apply (w_cfg h W)|apply (w_max h W)].
Qed.

Lemma min_nz_ok h : wf h -> min_nz h = Ret (minp h).
Proof.
  intros W. unfold min_nz, minp, ORIGINAL_MIN. destruct (h_min h =? u64_max); auto.
  apply lowest_equivalent_ok; [apply (w_cfg h W)|apply (w_min h W)].
Qed.

Lemma min_ok h : wf h -> min h =
  Ret (if (h_total h =? 0) || negb (zn (h_counts h) 0 =? 0) then 0 else minp h).
Proof.
  intros W. unfold min. destruct (Z.eqb_spec (h_total h) 0); cbn [orb]; auto.
  pose proof (len_pos h (w_cfg h W) (w_size h W)).
  unfold count_at_index. rewrite vget_in by lia. cbn [bind expect].
  destruct (negb _); auto. apply min_nz_ok. auto.
Qed.

Lemma maxp_u64 h : wf h -> u64 (maxp h).
Proof.
  intros W. unfold maxp. destruct (h_max h =? 0); [unfold u64, u64_max; lia|].
  apply higheq_u64; [apply (w_cfg h W)|apply (w_max h W)].
Qed.

Lemma minp_u64 h : wf h -> u64 (minp h).
Proof.
  intros W. unfold minp. destruct (h_min h =? u64_max); [unfold u64, u64_max; lia|].
  apply loweq_range; [apply (w_cfg h W)|apply (w_min h W)].
Qed.

Lemma bin_maxp h : wf h -> bin h (maxp h) = bin h (h_max h).
Proof.
  intros W. unfold maxp. destruct (Z.eqb_spec (h_max h) 0) as [->|]; auto.
  apply idx_higheq; [apply (w_cfg h W)|apply (w_max h W)].
Qed.

Lemma bin_loweq h v : cfg_ok h -> 0 <= v -> bin h (loweq (h_um h) (h_half_mag h) v) = bin h v.
Proof.
  intros C V. rewrite <- bval_bin by auto. apply bin_bval; auto. apply bin_nonneg; auto.
Qed.

Lemma bin_minp h : wf h -> bin h (minp h) = bin h (h_min h).
Proof.
  intros W. unfold minp. destruct (Z.eqb_spec (h_min h) u64_max) as [->|]; auto.
  apply bin_loweq; [apply (w_cfg h W)|apply (w_min h W)].
Qed.

Lemma maxp_in h : wf h -> bin h (maxp h) < zlen (h_counts h).
Proof. intros W. rewrite bin_maxp by auto. apply (w_max_in h W). Qed.

Lemma h_max_le_maxp h : wf h -> h_max h <= maxp h.
Proof.
  intros W. unfold maxp. destruct (Z.eqb_spec (h_max h) 0); [lia|].
  pose proof (higheq_range h (w_cfg h W) (h_max h) (w_max h W)). lia.
Qed.

(** ** clear and reset *)
Lemma clear_wf h : wf h -> wf (clear h).
Proof.
  intros W. pose proof (cmax_le (h_ctr h)). destruct W as [C S Cn Mx Mi Mt Ms Mn Nb Ns Tt].
  unfold clear. constructor; hsimp; auto.
  - destruct C; constructor; hsimp; auto.
  - destruct S; constructor; hsimp; auto. rewrite zlen_map. auto.
  - apply Forall_forall. intros x I. apply in_map_iff in I. destruct I as (? & <- & _). lia.
  - rewrite zlen_map. auto.
  - intros i _. rewrite zn_map0. lia.
  - intros i _. rewrite zn_map0. lia.
  - rewrite zsum_map0. unfold u64_max. lia.
Qed.

Lemma reset_eq h : cfg_ok h ->
  reset h = set_min (set_max (clear h) (2 ^ h_um h - 1)) u64_max.
Proof.
  intros C. unfold reset, reset_min, reset_max, ORIGINAL_MAX, ORIGINAL_MIN.
  change (h_um_mask (clear h)) with (h_um_mask h). rewrite (c_umm h C). rewrite Z.lor_0_l. reflexivity.
Qed.

Lemma mask_bin0 h : cfg_ok h -> u64 (2 ^ h_um h - 1) /\ bin h (2 ^ h_um h - 1) = 0.
Proof.
  intros C. pose proof (um_range h C). pose proof (pow2_le_64 (h_um h) ltac:(lia)) as P.
  split. { unfold u64, u64_max. change (2 ^ 63) with 9223372036854775808 in P. lia. }
  apply idx_0_iff; [lia|apply m_nonneg; auto|lia|lia].
Qed.

Lemma zeroed_stats_wf h : wf h -> (forall i, 0 <= i -> zn (h_counts h) i = 0) ->
  wf (set_min (set_max h (2 ^ h_um h - 1)) u64_max).
Proof.
  intros W Z0. pose proof (w_cfg h W) as C. pose proof (len_pos h C (w_size h W)) as LP.
  destruct (mask_bin0 h C) as [MU MB]. unfold bin in MB. pose proof (um_range h C).
  pose proof (pow2_pos (h_um h) ltac:(lia)).
  destruct W as [_ S Cn Mx Mi Mt Ms Mn Nb Ns Tt].
  constructor; hsimp; auto.
  - destruct C; constructor; hsimp; auto.
  - destruct S; constructor; hsimp; auto.
  - lia.
  - intros i Hi. rewrite Z0 by auto. lia.
  - right. apply Z.mod_small. lia.
  - unfold u64, u64_max; lia.
  - intros i Hi. rewrite Z0 by lia. lia.
Qed.

Lemma reset_wf h : wf h -> wf (reset h).
Proof.
  intros W. rewrite reset_eq by apply (w_cfg h W).
  change (h_um h) with (h_um (clear h)).
  apply zeroed_stats_wf; [apply clear_wf; auto|]. intros i _. unfold clear; hsimp. apply zn_map0.
Qed.

Lemma set_auto_wf h b : wf h -> wf (set_auto h b).
Proof.
  intros [C S Cn Mx Mi Mt Ms Mn Nb Ns Tt]. constructor; hsimp; auto.
  - destruct C; constructor; hsimp; auto.
  - destruct S; constructor; hsimp; auto.
Qed.

(** ** Sequences of records *)

(** total weight of the records that fall into bin [j] *)
Fixpoint wsum (f : Z -> Z) (j : Z) (l : list (Z * Z)) : Z :=
  match l with
  | [] => 0
  | (v, n) :: l' => (if f v =? j then n else 0) + wsum f j l'
  end.
Fixpoint wtotal (l : list (Z * Z)) : Z :=
  match l with [] => 0 | (_, n) :: l' => n + wtotal l' end.

Lemma wsum_app f j a b : wsum f j (a ++ b) = wsum f j a + wsum f j b.
Proof. induction a as [|[v n] a IH]; cbn [wsum app]; lia. Qed.
Lemma wtotal_app a b : wtotal (a ++ b) = wtotal a + wtotal b.
Proof. induction a as [|[v n] a IH]; cbn [wtotal app]; lia. Qed.

Lemma wsum_nonneg f j l : Forall (fun p => 0 <= snd p) l -> 0 <= wsum f j l.
Proof.
  induction 1 as [|[v n] l Hn Hl IH]; cbn [wsum]; [lia|]. cbn [snd] in Hn. destruct (_ =? _); lia.
Qed.
Lemma wtotal_nonneg l : Forall (fun p => 0 <= snd p) l -> 0 <= wtotal l.
Proof. induction 1 as [|[v n] l Hn Hl IH]; cbn [wtotal]; cbn [snd] in *; lia. Qed.

Lemma wsum_ext f g j l : (forall v n, In (v, n) l -> f v = g v) -> wsum f j l = wsum g j l.
Proof.
  induction l as [|[v n] l IH]; cbn [wsum]; intros E; auto.
  rewrite (E v n) by (left; auto). rewrite IH; auto. intros. eapply E. right; eauto.
Qed.

(** records that leave the configuration alone *)
Record same_shape (a b : hist) : Prop := {
  ss_um : h_um b = h_um a;
  ss_m : h_half_mag b = h_half_mag a;
  ss_ctr : h_ctr b = h_ctr a;
  ss_low : h_low b = h_low a;
  ss_sf : h_sigfig b = h_sigfig a;
  ss_auto : h_auto b = h_auto a
}.

Lemma same_shape_refl a : same_shape a a.
Proof. constructor; auto. Qed.
Lemma same_shape_trans a b c : same_shape a b -> same_shape b c -> same_shape a c.
Proof. intros [] []; constructor; congruence. Qed.
Lemma same_shape_bin a b v : same_shape a b -> bin b v = bin a v.
Proof. intros []. unfold bin. congruence. Qed.
Lemma same_shape_bval a b i : same_shape a b -> bval b i = bval a i.
Proof. intros []. unfold bval. congruence. Qed.

Lemma grown_shape h v : same_shape h (grown h v).
Proof. unfold grown. destruct (_ <? _); constructor; reflexivity. Qed.
Lemma rec_pure_shape h v n : same_shape h (rec_pure h v n).
Proof. constructor; reflexivity. Qed.

(** one successful record: what it does to counts and total *)
Record recorded (h : hist) (v n : Z) (h' : hist) : Prop := {
  rd_wf : wf h';
  rd_shape : same_shape h h';
  rd_cnt : forall j, 0 <= j -> zn (h_counts h') j =
      if bin h v =? j then csat_add (h_ctr h) (zn (h_counts h) j) n else zn (h_counts h) j;
  rd_total : h_total h' = sat_add64 (h_total h) n;
  rd_max : h_max h' = new_max h v;
  rd_min : h_min h' = new_min h v;
  rd_len : zlen (h_counts h) <= zlen (h_counts h');
  rd_high : h_high h <= h_high h'
}.

Lemma rec_pure_recorded h v n : wf h -> u64 v -> 0 <= n -> bin h v < zlen (h_counts h) ->
  recorded h v n (rec_pure h v n).
Proof.
  intros W V N I. pose proof (bin_nonneg h v (w_cfg h W) ltac:(apply V)).
  constructor; auto.
  - apply rec_pure_wf; auto.
  - apply rec_pure_shape.
  - intros j Hj. unfold rec_pure; cbn zeta; hsimp. fold (bin h v). rewrite zn_vset by lia.
    destruct (Z.eqb_spec (bin h v) j) as [->|]; auto.
  - unfold rec_pure; cbn zeta; hsimp. rewrite zlen_vset. lia.
  - unfold rec_pure; cbn zeta; hsimp. lia.
Qed.

Lemma record_n_ok h v n : wf h -> u64 v -> 0 <= n <= cmax (h_ctr h) ->
  bin h v < zlen (h_counts h) \/ h_auto h = true ->
  exists h', record_n h v n = Ret (h', ROk tt) /\ recorded h v n h'.
Proof.
  intros W V N F. unfold record_n. rewrite record_n_inner_ok; auto using w_cfg, w_size.
  fold (bin h v). destruct (Z.ltb_spec (bin h v) (zlen (h_counts h))) as [I|I].
  - eexists; split; [reflexivity|]. apply rec_pure_recorded; auto; lia.
  - destruct F as [F|F]; [lia|]. rewrite F. eexists; split; [reflexivity|].
    pose proof (grown_wf h v W V) as GW. pose proof (grown_shape h v) as GS.
    destruct (grown_facts h v (w_cfg h W) (w_size h W) V) as (_ & _ & GI & GL & GZ & _ & _ & GH).
    assert (GB : bin (grown h v) v = bin h v) by (apply same_shape_bin; auto).
    destruct (rec_pure_recorded (grown h v) v n GW V ltac:(lia)) as [R1 R2 R3 R4 R5 R6 R7 R8].
    { rewrite GB. exact GI. }
    assert (E1 : h_total (grown h v) = h_total h) by (unfold grown; destruct (_ <? _); reflexivity).
    assert (E2 : new_max (grown h v) v = new_max h v).
    { unfold new_max, grown; destruct (_ <? zlen _); reflexivity. }
    assert (E3 : new_min (grown h v) v = new_min h v).
    { unfold new_min, grown; destruct (_ <? zlen _); reflexivity. }
    constructor; auto; try lia.
    + eapply same_shape_trans; eauto.
    + intros j Hj. rewrite R3 by auto. rewrite GB, (ss_ctr _ _ GS), !GZ by auto. reflexivity.
    + rewrite R4, E1. reflexivity.
Qed.

Lemma record_n_err h v n : wf h -> u64 v -> 0 <= n <= cmax (h_ctr h) ->
  zlen (h_counts h) <= bin h v -> h_auto h = false ->
  record_n h v n = Ret (h, RErr ValueOutOfRangeResizeDisabled).
Proof.
  intros W V N I A. unfold record_n. rewrite record_n_inner_ok; auto using w_cfg, w_size.
  fold (bin h v). destruct (Z.ltb_spec (bin h v) (zlen (h_counts h))) as [L|L]; [lia|]. rewrite A. reflexivity.
Qed.

Lemma record_n_cases h v n : wf h -> u64 v -> 0 <= n <= cmax (h_ctr h) ->
  (exists h', record_n h v n = Ret (h', ROk tt) /\ recorded h v n h') \/
  (record_n h v n = Ret (h, RErr ValueOutOfRangeResizeDisabled) /\ h_auto h = false /\ zlen (h_counts h) <= bin h v).
Proof.
  intros W V N. destruct (Z_lt_le_dec (bin h v) (zlen (h_counts h))).
  - left. apply record_n_ok; auto.
  - destruct (h_auto h) eqn:A; [left; apply record_n_ok; auto|right].
    split; [apply record_n_err; auto|]. auto.
Qed.

Lemma saturating_ok h v n : wf h -> u64 v -> 0 <= n <= cmax (h_ctr h) ->
  exists h', saturating_record_n h v n = Ret h' /\
    recorded h (if bin h v <? zlen (h_counts h) then v else h_high h) n h' /\
    h_high h' = h_high h /\ zlen (h_counts h') = zlen (h_counts h).
Proof.
  intros W V N. unfold saturating_record_n. rewrite record_n_inner_ok; auto using w_cfg, w_size.
  fold (bin h v). destruct (Z.ltb_spec (bin h v) (zlen (h_counts h))) as [I|I]; cbn [bind];
    (eexists; split; [reflexivity|split; [|split; [reflexivity|unfold rec_pure; cbn zeta; hsimp; apply zlen_vset]]]).
  - apply rec_pure_recorded; auto; lia.
  - apply rec_pure_recorded; auto; try lia. { apply (high_u64 h (w_cfg h W)). }
    apply (high_in h (w_cfg h W) (w_size h W)).
Qed.

(** many successful records, composed *)
Record recorded_all (h : hist) (l : list (Z * Z)) (h' : hist) : Prop := {
  ra_wf : wf h';
  ra_shape : same_shape h h';
  ra_cnt : forall j, 0 <= j -> zn (h_counts h') j = Z.min (cmax (h_ctr h)) (zn (h_counts h) j + wsum (bin h) j l);
  ra_total : h_total h' = Z.min u64_max (h_total h + wtotal l);
  ra_len : zlen (h_counts h) <= zlen (h_counts h');
  ra_high : h_high h <= h_high h'
}.

Lemma zn_le_cmax h i : wf h -> zn (h_counts h) i <= cmax (h_ctr h).
Proof.
  intros W. unfold zn. destruct (nth_in_or_default (Z.to_nat i) (h_counts h) 0) as [I|E].
  - pose proof (w_cnt h W) as F. rewrite Forall_forall in F. apply F in I. lia.
  - rewrite E. pose proof (cmax_le (h_ctr h)). lia.
Qed.

Lemma recorded_all_nil h : wf h -> recorded_all h [] h.
Proof.
  intros W. constructor; auto; try lia; try apply same_shape_refl.
  - intros j Hj. cbn [wsum]. pose proof (zn_le_cmax h j W). lia.
  - cbn [wtotal]. pose proof (wf_total_nonneg h W). lia.
Qed.

Lemma recorded_all_cons h v n l h1 h2 :
  0 <= n -> Forall (fun p => 0 <= snd p) l ->
  recorded h v n h1 -> recorded_all h1 l h2 -> recorded_all h ((v, n) :: l) h2.
Proof.
  intros N F [R1 R2 R3 R4 _ _ R5 R6] [A1 A2 A3 A4 A5 A6]. constructor; auto; try lia.
  - eapply same_shape_trans; eauto.
  - intros j Hj. rewrite A3, R3 by auto. rewrite (ss_ctr _ _ R2). cbn [wsum].
    rewrite (wsum_ext (bin h1) (bin h)) by (intros; apply same_shape_bin; auto).
    pose proof (wsum_nonneg (bin h) j l F). unfold csat_add. destruct (_ =? j); lia.
  - rewrite A4, R4. cbn [wtotal]. pose proof (wtotal_nonneg l F). unfold sat_add64. lia.
Qed.

(** a sequence of successful records, one after another *)
Inductive rec_many : hist -> list (Z * Z) -> hist -> Prop :=
| rm_nil h : wf h -> rec_many h [] h
| rm_cons h v n l h1 h2 : u64 v -> 0 <= n -> recorded h v n h1 -> rec_many h1 l h2 -> rec_many h ((v, n) :: l) h2.

Lemma rec_many_nonneg h l h' : rec_many h l h' -> Forall (fun p => 0 <= snd p) l.
Proof. induction 1; constructor; auto. Qed.
Lemma rec_many_all h l h' : rec_many h l h' -> recorded_all h l h'.
Proof.
  induction 1 as [h W|h v n l h1 h2 V N R RM IH]; [apply recorded_all_nil; auto|].
  eapply recorded_all_cons; eauto using rec_many_nonneg.
Qed.
Lemma rec_many_app h a h1 b h2 : rec_many h a h1 -> rec_many h1 b h2 -> rec_many h (a ++ b) h2.
Proof. induction 1; intros; cbn [app]; auto. econstructor; eauto. Qed.
