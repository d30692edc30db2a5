(** * Further facts: corrected recording, copies, counting queries, equality, extremes *)
From Verif Require Import Machine Log2Model HistModel Bins ListZ Log2Facts Cfg Wf Ops AddFacts SubFacts Exact.
From Coq Require Import ZifyBool ZifyNat.

(** ** record_n_correct *)
(** [start], [start - i], ... while at least [i] *)
Definition down_series (start i : Z) : list Z :=
  map (fun k => start - Z.of_nat k * i) (seq 0 (Z.to_nat (start / i))).

Lemma down_series_step a i : 1 <= i -> i <= a -> down_series a i = a :: down_series (a - i) i.
Proof.
  intros Hi Ha. unfold down_series.
  assert (E : a / i = (a - i) / i + 1).
  { replace a with (a - i + 1 * i) at 1 by lia. rewrite Z.div_add by lia. reflexivity. }
  assert (P : 0 <= (a - i) / i) by (apply Z.div_pos; lia).
  rewrite E. replace (Z.to_nat ((a - i) / i + 1)) with (S (Z.to_nat ((a - i) / i))) by lia.
  cbn [seq map]. f_equal; [lia|]. rewrite <- seq_shift, map_map. apply map_ext. intros k. lia.
Qed.

Lemma down_series_stop a i : 1 <= i -> 0 <= a < i -> down_series a i = [].
Proof. intros Hi Ha. unfold down_series. rewrite Z.div_small by lia. reflexivity. Qed.

Definition weighted (n : Z) (l : list Z) : list (Z * Z) := map (fun v => (v, n)) l.

Lemma correct_loop_ok fuel : forall h mv n i,
  wf h -> u64 mv -> 0 <= n <= cmax (h_ctr h) -> 1 <= i -> bin h mv < zlen (h_counts h) ->
  mv / i <= Z.of_nat fuel ->
  exists h', correct_loop fuel h mv n i = Ret (h', ROk tt) /\ rec_many h (weighted n (down_series mv i)) h'.
Proof.
  induction fuel as [|f IH]; intros h mv n i W V N Hi B F.
  - assert (mv / i = 0) by (pose proof (Z.div_pos mv i ltac:(apply V) ltac:(lia)); lia).
    assert (mv < i). { pose proof (Z.div_mod mv i ltac:(lia)). pose proof (Z.mod_pos_bound mv i ltac:(lia)). nia. }
    cbn [correct_loop]. destruct (Z.leb_spec i mv); [lia|]. exists h. split; auto.
    rewrite down_series_stop by (unfold u64 in V; lia). constructor; auto.
  - cbn [correct_loop]. destruct (Z.leb_spec i mv) as [L|L].
    + destruct (record_n_ok h mv n W V N ltac:(auto)) as (h1 & E & R).
      unfold record_n in E. rewrite E. cbn [bind].
      unfold u64_sub. rewrite in_range_ok by (unfold u64 in V; lia). cbn [bind].
      assert (V2 : u64 (mv - i)) by (unfold u64 in *; lia).
      pose proof (ss_ctr _ _ (rd_shape _ _ _ _ R)) as EC.
      destruct (IH h1 (mv - i) n i) as (h' & E' & R'); auto.
      * apply R.
      * rewrite EC; auto.
      * rewrite (recorded_bin _ _ _ _ _ R). pose proof (rd_len _ _ _ _ R).
        pose proof (bin_mono h (mv - i) mv (w_cfg h W) ltac:(unfold u64 in *; lia)). lia.
      * assert (mv / i = (mv - i) / i + 1); [|lia].
        replace mv with (mv - i + 1 * i) at 1 by lia. rewrite Z.div_add by lia. reflexivity.
      * exists h'. split; auto. rewrite down_series_step by lia. cbn [weighted map].
        econstructor; eauto. lia.
    + exists h. split; auto. rewrite down_series_stop by (unfold u64 in V; lia). constructor; auto.
Qed.

(** the values a corrected record stands for: the value itself and the missing ones *)
Definition correction_series (v i : Z) : list Z :=
  v :: (if (i =? 0) || (v <=? i) then [] else down_series (v - i) i).

Lemma record_n_correct_ok h v n i : wf h -> u64 v -> 0 <= n <= cmax (h_ctr h) -> u64 i ->
  (exists h', record_n_correct h v n i = Ret (h', ROk tt) /\ rec_many h (weighted n (correction_series v i)) h') \/
  (record_n_correct h v n i = Ret (h, RErr ValueOutOfRangeResizeDisabled) /\ h_auto h = false /\
     zlen (h_counts h) <= bin h v).
Proof.
  intros W V N I. unfold record_n_correct.
  destruct (record_n_cases h v n W V N) as [(h1 & E & R)|(E & A & B)]; rewrite E; cbn [bind].
  2: { right. auto. }
  left. unfold correction_series.
  assert (W1 : wf h1) by apply R.
  assert (BASE : rec_many h (weighted n [v]) h1). { cbn. econstructor; eauto; [lia|]. constructor; auto. }
  destruct (Z.eqb_spec i 0) as [|NZ]; cbn [orb]. { exists h1. split; auto. }
  destruct (Z.ltb_spec i v) as [L|L]; destruct (Z.leb_spec v i) as [L2|L2]; try lia.
  2: { exists h1. split; auto. }
  unfold u64_sub. rewrite in_range_ok by (unfold u64 in *; lia). cbn [bind].
  destruct (correct_loop_ok (Z.to_nat (v / i)) h1 (v - i) n i) as (h' & E' & R'); auto.
  - unfold u64 in *; lia.
  - rewrite (ss_ctr _ _ (rd_shape _ _ _ _ R)); auto.
  - unfold u64 in *; lia.
  - assert (IN : bin h1 v < zlen (h_counts h1)).
    { pose proof (w_max_in h1 W1) as MI. fold (bin h1 (h_max h1)) in MI. rewrite (rd_max _ _ _ _ R) in MI.
      rewrite (recorded_bin _ _ _ _ _ R) in MI. rewrite new_max_bin in MI by auto.
      rewrite (recorded_bin _ _ _ _ _ R). lia. }
    pose proof (bin_mono h1 (v - i) v (w_cfg h1 W1) ltac:(unfold u64 in *; lia)). lia.
  - assert (0 <= v / i) by (apply Z.div_pos; unfold u64 in *; lia).
    rewrite Z2Nat.id by lia. apply Z.div_le_mono; unfold u64 in *; lia.
  - exists h'. split; auto. cbn [weighted map]. econstructor; eauto. lia.
Qed.

(** ** new_from, set_to *)
Lemma accepted_self h : cfg_ok h -> creation_check (h_low h) (h_high h) (h_sigfig h) = None.
Proof.
  intros C. unfold creation_check. pose proof (c_low h C). pose proof (c_high h C). pose proof (c_sf h C).
  pose proof (low_range h C). pose proof (c_fit h C) as F. pose proof (c_m h C). pose proof (c_um h C).
  destruct (Z.ltb_spec (h_low h) 1); [lia|].
  destruct (Z.ltb_spec (u64_max / 2) (h_low h)); [lia|].
  destruct (Z.ltb_spec (h_high h) (2 * h_low h)); [lia|].
  destruct (Z.ltb_spec 5 (h_sigfig h)); [lia|].
  destruct (Z.ltb_spec 63 (log2_floor_f64 (h_low h) + Z.log2_up (2 * 10 ^ h_sigfig h))); [lia|]. reflexivity.
Qed.

Lemma fresh_self_len T h : cfg_ok h -> size_ok h ->
  zlen (h_counts (fresh T (h_low h) (h_high h) (h_sigfig h))) = zlen (h_counts h).
Proof.
  intros C S. unfold fresh; cbn zeta; hsimp. rewrite (s_len h S), (c_um h C), (c_m h C).
  apply zlen_vresize. pose proof (bkt_nonneg (log2_floor_f64 (h_low h)) (Z.log2_up (2 * 10 ^ h_sigfig h) - 1) (h_high h)).
  pose proof (half_range h C) as HR. rewrite (c_m h C) in HR. nia.
Qed.

Lemma new_from_ok T h : cfg_ok h -> size_ok h ->
  new_from T h = Ret (set_auto (fresh T (h_low h) (h_high h) (h_sigfig h)) (h_auto h)).
Proof.
  intros C S. unfold new_from. pose proof (c_low h C). pose proof (c_high h C). pose proof (c_sf h C).
  pose proof (low_range h C) as LR. pose proof (high_u64 h C).
  rewrite new_with_bounds_ok; auto.
  2: { unfold u64. lia. }
  2: { unfold u8_max; lia. }
  rewrite accepted_self by auto. cbn [bind]. do 1 f_equal.
  unfold distinct_values. rewrite <- (fresh_self_len T h C S).
  change (h_counts (set_auto (fresh T (h_low h) (h_high h) (h_sigfig h)) (h_auto h))) with
    (h_counts (fresh T (h_low h) (h_high h) (h_sigfig h))).
  rewrite vresize_same. reflexivity.
Qed.

Lemma new_from_wf T h : cfg_ok h -> size_ok h ->
  wf (set_auto (fresh T (h_low h) (h_high h) (h_sigfig h)) (h_auto h)) /\
  exact (set_auto (fresh T (h_low h) (h_high h) (h_sigfig h)) (h_auto h)).
Proof.
  intros C S. pose proof (c_low h C). pose proof (c_high h C). pose proof (c_sf h C).
  pose proof (high_u64 h C). pose proof (accepted_self h C).
  assert (u64 (h_low h)) by (unfold u64; lia). assert (0 <= h_sigfig h <= u8_max) by (unfold u8_max; lia).
  assert (W : wf (fresh T (h_low h) (h_high h) (h_sigfig h))) by (apply fresh_wf; auto).
  split; [apply set_auto_wf; auto|apply set_auto_exact; auto; apply fresh_exact; auto].
Qed.

(** ** Counting queries *)
Lemma index_for_or_last_ok h v : wf h -> u64 v ->
  index_for_or_last h v = Ret (Z.min (bin h v) (zlen (h_counts h) - 1)).
Proof.
  intros W V. unfold index_for_or_last. rewrite index_for_ok by (auto; apply w_cfg; auto).
  cbn [bind]. rewrite last_index_ok by (apply w_cfg || apply w_size; auto). reflexivity.
Qed.

Definition cbin (h : hist) (v : Z) : Z := Z.min (bin h v) (zlen (h_counts h) - 1).

Lemma cbin_range h v : wf h -> u64 v -> 0 <= cbin h v < zlen (h_counts h).
Proof.
  intros W V. unfold cbin. pose proof (len_pos h (w_cfg h W) (w_size h W)).
  pose proof (bin_nonneg h v (w_cfg h W) ltac:(apply V)). lia.
Qed.

Lemma count_at_ok h v : wf h -> u64 v -> count_at h v = Ret (zn (h_counts h) (cbin h v)).
Proof.
  intros W V. unfold count_at. rewrite index_for_or_last_ok by auto. fold (cbin h v). cbn [bind].
  unfold count_at_index. rewrite vget_in by (apply cbin_range; auto). reflexivity.
Qed.

Lemma fold_sat_ok cs : forall t, Forall (fun c => 0 <= c) cs -> 0 <= t <= u64_max ->
  fold_sat cs t = Z.min u64_max (t + zsum cs).
Proof.
  induction cs as [|c cs IH]; intros t F T; cbn [fold_sat].
  - change (zsum []) with 0. lia.
  - inversion F; subst. rewrite IH; auto; rewrite ?zsum_cons; unfold sat_add64; [|lia].
    pose proof (zsum_nonneg cs H2). lia.
Qed.

Lemma zsum_slice l a n : 0 <= a -> 0 <= n -> zsum (firstn (Z.to_nat n) (skipn (Z.to_nat a) l)) = zpre l (a + n) - zpre l a.
Proof.
  intros A N. unfold zpre. assert (E : firstn (Z.to_nat (a + n)) l = firstn (Z.to_nat a) l ++ firstn (Z.to_nat n) (skipn (Z.to_nat a) l)).
  { replace (Z.to_nat (a + n)) with (Z.to_nat a + Z.to_nat n)%nat by lia.
    generalize (Z.to_nat a) (Z.to_nat n). clear. intros p q. revert l.
    induction p as [|p IH]; intros l; [reflexivity|]. destruct l; cbn [Nat.add firstn skipn app].
    - rewrite firstn_nil. reflexivity.
    - rewrite IH. reflexivity. }
  rewrite E, zsum_app. lia.
Qed.

Lemma count_between_ok h a b : wf h -> u64 a -> u64 b ->
  count_between h a b =
  Ret (if cbin h a <=? cbin h b then Z.min u64_max (zpre (h_counts h) (cbin h b + 1) - zpre (h_counts h) (cbin h a)) else 0).
Proof.
  intros W A B. unfold count_between. rewrite !index_for_or_last_ok by auto. fold (cbin h a) (cbin h b). cbn [bind].
  pose proof (cbin_range h a W A). pose proof (cbin_range h b W B).
  pose proof (len_le_top h (w_cfg h W) (w_size h W)) as LT.
  pose proof (idx_bound_u64 h (w_cfg h W) u64_max ltac:(unfold u64, u64_max; lia)).
  unfold usize_add. rewrite in_range_ok by (unfold usize_max, u64_max; lia). cbn [bind].
  rewrite assert_true by (unfold distinct_values; lia). cbn [bind]. f_equal.
  rewrite fold_sat_ok by (try (apply Forall_firstn, Forall_skipn, wf_nonneg; auto); unfold u64_max; lia).
  destruct (Z.leb_spec (cbin h a) (cbin h b)).
  - rewrite zsum_slice by lia. replace (cbin h a + (cbin h b + 1 - cbin h a)) with (cbin h b + 1) by lia. lia.
  - replace (Z.to_nat (cbin h b + 1 - cbin h a)) with 0%nat by lia. cbn [firstn]. reflexivity.
Qed.

(** ** Equality *)
Lemma counts_eq_iff a : forall b, counts_eq a b = true <-> zlen a <= zlen b /\ forall i, 0 <= i < zlen a -> zn a i = zn b i.
Proof.
  induction a as [|x a IH]; intros b.
  - cbn [counts_eq]. change (zlen []) with 0. pose proof (zlen_nonneg b). split; auto. intros _. split; auto. lia.
  - cbn [counts_eq]. destruct b as [|y b].
    + rewrite zlen_cons. change (zlen []) with 0. pose proof (zlen_nonneg a). split; [discriminate|lia].
    + rewrite andb_true_iff, IH, Z.eqb_eq, !zlen_cons. pose proof (zlen_nonneg a). split.
      * intros (-> & L & E). split; [lia|]. intros i Hi. destruct (Z.eq_dec i 0) as [->|]; [reflexivity|].
        rewrite !zn_cons_S by lia. apply E. lia.
      * intros (L & E). split; [apply (E 0); lia|]. split; [lia|]. intros i Hi.
        specialize (E (i + 1) ltac:(lia)). rewrite !zn_cons_S in E by lia. replace (i + 1 - 1) with i in E by lia. auto.
Qed.

Lemma hist_eq_ok a b : wf a -> wf b -> exists r, hist_eq a b = Ret r /\
  (r = true <-> h_low a = h_low b /\ h_sigfig a = h_sigfig b /\ h_total a = h_total b /\ maxp a = maxp b /\
     minp a = minp b /\ zlen (h_counts a) <= zlen (h_counts b) /\
     forall i, 0 <= i < zlen (h_counts a) -> zn (h_counts a) i = zn (h_counts b) i).
Proof.
  intros WA WB. unfold hist_eq. rewrite !max_ok, !min_nz_ok by auto. cbn [bind].
  destruct (Z.eqb_spec (h_low a) (h_low b)) as [E1|]; cbn [negb orb]; [|exists false; split; auto; split; [discriminate|tauto]].
  destruct (Z.eqb_spec (h_sigfig a) (h_sigfig b)) as [E2|]; cbn [negb orb]; [|exists false; split; auto; split; [discriminate|tauto]].
  destruct (Z.eqb_spec (h_total a) (h_total b)) as [E3|]; cbn [negb orb]; [|exists false; split; auto; split; [discriminate|tauto]].
  destruct (Z.eqb_spec (maxp a) (maxp b)) as [E4|]; cbn [negb orb]; [|exists false; split; auto; split; [discriminate|tauto]].
  destruct (Z.eqb_spec (minp a) (minp b)) as [E5|]; cbn [negb orb]; [|exists false; split; auto; split; [discriminate|tauto]].
  eexists; split; [reflexivity|]. rewrite counts_eq_iff. tauto.
Qed.

(** ** Extremes of a history of records *)
Definition largest (l : list (Z * Z)) : Z := fold_right (fun p m => Z.max (fst p) m) 0 l.
(** smallest value that is at least [u], [u64::MAX] when there is none *)
Definition smallest_from (u : Z) (l : list (Z * Z)) : Z :=
  fold_right (fun p m => if u <=? fst p then Z.min (fst p) m else m) u64_max l.

Definition ceil_to (u v : Z) : Z := v / u * u + (u - 1).
Definition floor_to (u v : Z) : Z := v / u * u.

Lemma ceil_to_ge u v : 0 < u -> v <= ceil_to u v.
Proof. intros U. unfold ceil_to. pose proof (Z.div_mod v u ltac:(lia)). pose proof (Z.mod_pos_bound v u U). lia. Qed.
Lemma floor_to_le u v : 0 < u -> floor_to u v <= v.
Proof. intros U. unfold floor_to. pose proof (Z.div_mod v u ltac:(lia)). pose proof (Z.mod_pos_bound v u U). lia. Qed.
Lemma div_between u v w : 0 < u -> v <= w -> w <= ceil_to u v -> w / u = v / u.
Proof.
  intros U L H. unfold ceil_to in H. pose proof (Z.div_mod v u ltac:(lia)). pose proof (Z.mod_pos_bound v u U).
  symmetry. apply Z.div_unique_pos with (r := w - u * (v / u)); lia.
Qed.

Definition stat_max (u M : Z) : Z := if M =? 0 then 0 else ceil_to u M.
Definition stat_min (u m : Z) : Z := if m =? u64_max then u64_max else floor_to u m.

Lemma rec_many_stats h l h' : rec_many h l h' -> wf h -> forall M m, 0 <= M -> 0 <= m <= u64_max ->
  h_max h = stat_max (2 ^ h_um h) M -> h_min h = stat_min (2 ^ h_um h) m ->
  h_max h' = stat_max (2 ^ h_um h) (Z.max M (largest l)) /\
  h_min h' = stat_min (2 ^ h_um h) (Z.min m (smallest_from (2 ^ h_um h) l)).
Proof.
  induction 1 as [h W|h v n l h1 h2 V N R RM IH]; intros W0 M m HM Hm EM Em.
  - cbn [largest smallest_from fold_right]. rewrite Z.max_l, Z.min_l by lia. auto.
  - pose proof (um_nonneg h (w_cfg h W0)) as U0. pose proof (pow2_pos (h_um h) U0) as P.
    pose proof (ss_um _ _ (rd_shape _ _ _ _ R)) as EU. destruct V as [V0 V1].
    assert (W1 : wf h1) by apply R.
    set (u := 2 ^ h_um h) in *.
    specialize (IH W1 (Z.max M v) (if u <=? v then Z.min m v else m)).
    rewrite EU in IH. fold u in IH.
    destruct IH as [I1 I2].
    + lia.
    + destruct (u <=? v); lia.
    + rewrite (rd_max _ _ _ _ R). unfold new_max. fold u. rewrite EM. unfold stat_max.
      fold (ceil_to u v).
      destruct (Z.eqb_spec M 0) as [M0|M0].
      * destruct (Z.ltb_spec 0 v); destruct (Z.eqb_spec (Z.max M v) 0); try lia.
        rewrite Z.max_r by lia. reflexivity.
      * pose proof (ceil_to_ge u M P). destruct (Z.ltb_spec (ceil_to u M) v); destruct (Z.eqb_spec (Z.max M v) 0); try lia.
        -- rewrite Z.max_r by lia. reflexivity.
        -- destruct (Z_le_dec M v); [rewrite Z.max_r by lia|rewrite Z.max_l by lia; reflexivity].
           unfold ceil_to. rewrite (div_between u M v) by lia. reflexivity.
    + rewrite (rd_min _ _ _ _ R). unfold new_min. fold u. rewrite Em. unfold stat_min. fold (floor_to u v).
      destruct (Z.leb_spec u v) as [L|L]; [|rewrite andb_false_r; reflexivity]. rewrite andb_true_r.
      destruct (Z.eqb_spec m u64_max) as [M0|M0].
      * destruct (Z.ltb_spec v u64_max); destruct (Z.eqb_spec (Z.min m v) u64_max); try lia.
        rewrite Z.min_r by lia. reflexivity.
      * pose proof (floor_to_le u m P). destruct (Z.ltb_spec v (floor_to u m)); destruct (Z.eqb_spec (Z.min m v) u64_max); try lia.
        -- rewrite Z.min_r by lia. reflexivity.
        -- destruct (Z_le_dec m v); [rewrite Z.min_l by lia; reflexivity|rewrite Z.min_r by lia].
           unfold floor_to in *. rewrite (div_between u v m); [reflexivity|lia|lia|].
           unfold ceil_to. pose proof (Z.div_mod m u ltac:(lia)). pose proof (Z.mod_pos_bound m u P).
           pose proof (Z.div_mod v u ltac:(lia)). pose proof (Z.mod_pos_bound v u P).
           assert (m / u <= v / u) by (apply Z.div_le_lower_bound; lia). nia.
    + rewrite I1, I2. cbn [largest smallest_from fold_right fst]. split.
      * f_equal. unfold largest. lia.
      * f_equal. fold (smallest_from u l). destruct (u <=? v); lia.
Qed.
