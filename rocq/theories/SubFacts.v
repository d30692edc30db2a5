(** * Re-computing the statistics, and subtraction *)
From Verif Require Import Machine Log2Model HistModel Bins ListZ Log2Facts Cfg Wf Ops AddFacts.
From Coq Require Import ZifyBool ZifyNat.

(** ** restat *)
Definition describes (l : list Z) (st : restat_state) : Prop :=
  rs_total st = Z.min u64_max (zsum l) /\
  match rs_max st with
  | None => forall i, 0 <= i -> zn l i = 0
  | Some k => 0 <= k < zlen l /\ zn l k <> 0 /\ forall i, k < i -> zn l i = 0
  end /\
  match rs_min st with
  | None => forall i, 0 < i -> zn l i = 0
  | Some k => 0 < k < zlen l /\ zn l k <> 0 /\ forall i, 0 < i < k -> zn l i = 0
  end.

Lemma zn_app_l a b i : 0 <= i < zlen a -> zn (a ++ b) i = zn a i.
Proof. intros. unfold zn. apply app_nth1. unfold zlen in *. lia. Qed.
Lemma zn_snoc a c : zn (a ++ [c]) (zlen a) = c.
Proof. unfold zn, zlen. rewrite app_nth2 by lia. replace (_ - _)%nat with 0%nat by lia. reflexivity. Qed.
Lemma zn_snoc_cases a c i : 0 <= i -> zn (a ++ [c]) i = if i =? zlen a then c else zn a i.
Proof.
  intros Hi. destruct (Z.eqb_spec i (zlen a)) as [->|].
  - apply zn_snoc.
  - destruct (Z_lt_le_dec i (zlen a)); [apply zn_app_l; lia|].
    rewrite !zn_out; auto. rewrite zlen_app, zlen_cons, zlen_nil. lia.
Qed.

Lemma describes_step l st c : 0 <= c -> Forall (fun c => 0 <= c) l -> describes l st ->
  describes (l ++ [c]) (if c =? 0 then st else on_nonzero_count st (zlen l) c).
Proof.
  intros Hc F (T & MX & MN). pose proof (zlen_nonneg l) as L0. pose proof (zsum_nonneg l F) as S0.
  assert (LA : zlen (l ++ [c]) = zlen l + 1) by (rewrite zlen_app, zlen_cons, zlen_nil; lia).
  unfold describes. rewrite zsum_app, zsum_cons. change (zsum []) with 0.
  destruct (Z.eqb_spec c 0) as [->|N].
  - split; [rewrite T; f_equal; lia|]. split.
    + destruct (rs_max st) as [k|].
      * destruct MX as (K & NZ & ZZ). split; [lia|]. split; [rewrite zn_app_l; auto|].
        intros i Hi. rewrite zn_snoc_cases by lia. destruct (_ =? _); auto.
      * intros i Hi. rewrite zn_snoc_cases by lia. destruct (_ =? _); auto.
    + destruct (rs_min st) as [k|].
      * destruct MN as (K & NZ & ZZ). split; [lia|]. split; [rewrite zn_app_l; auto; lia|].
        intros i Hi. rewrite zn_snoc_cases by lia. destruct (_ =? _); auto.
      * intros i Hi. rewrite zn_snoc_cases by lia. destruct (_ =? _); auto.
  - unfold on_nonzero_count. cbn [rs_total rs_max rs_min]. split; [rewrite T; unfold sat_add64; lia|]. split.
    + split; [lia|]. rewrite zn_snoc. split; auto. intros i Hi. apply zn_out.
      rewrite zlen_app, zlen_cons, zlen_nil. lia.
    + destruct (rs_min st) as [k|].
      * destruct MN as (K & NZ & ZZ). split; [lia|]. split; [rewrite zn_app_l; auto; lia|].
        intros i Hi. rewrite zn_app_l by lia. auto.
      * destruct (Z.eqb_spec (zlen l) 0) as [E|E].
        -- intros i Hi. rewrite zn_snoc_cases by lia. destruct (Z.eqb_spec i (zlen l)); [lia|auto].
        -- split; [lia|]. rewrite zn_snoc. split; auto. intros i Hi. rewrite zn_app_l by lia. apply MN. lia.
Qed.

Lemma restat_loop_ok cs : Forall (fun c => 0 <= c) cs -> forall pre st, Forall (fun c => 0 <= c) pre -> describes pre st ->
  describes (pre ++ cs) (restat_loop cs (zlen pre) st).
Proof.
  induction 1 as [|c cs Hc Hcs IH]; intros pre st F D.
  - rewrite app_nil_r. exact D.
  - cbn [restat_loop]. replace (pre ++ c :: cs) with ((pre ++ [c]) ++ cs) by (rewrite <- app_assoc; reflexivity).
    replace (zlen pre + 1) with (zlen (pre ++ [c])) by (rewrite zlen_app, zlen_cons, zlen_nil; lia).
    apply IH; [apply Forall_app; auto|]. apply describes_step; auto.
Qed.

Lemma restat_loop_describes cs : Forall (fun c => 0 <= c) cs -> describes cs (restat_loop cs 0 restat_new).
Proof.
  intros F. apply (restat_loop_ok cs F [] restat_new); auto.
  split; [reflexivity|]. split; cbn; intros i _; apply zn_nil.
Qed.

(** everything [wf] needs except the statistics *)
Record wf0 (h : hist) : Prop := {
  w0_cfg : cfg_ok h; w0_size : size_ok h;
  w0_cnt : Forall (fun c => 0 <= c <= cmax (h_ctr h)) (h_counts h) }.
Lemma wf_wf0 h : wf h -> wf0 h.
Proof. intros []; constructor; auto. Qed.

(** the statistics computed from the counts *)
Record restated (h h' : hist) : Prop := {
  rt_counts : h_counts h' = h_counts h;
  rt_shape : same_shape h h';
  rt_high : h_high h' = h_high h;
  rt_total : h_total h' = Z.min u64_max (zsum (h_counts h));
  rt_max : (forall i, 0 <= i -> zn (h_counts h) i = 0) /\ h_max h' = 2 ^ h_um h - 1 \/
           exists k, 0 <= k < zlen (h_counts h) /\ zn (h_counts h) k <> 0 /\
             (forall i, k < i -> zn (h_counts h) i = 0) /\ bin h (h_max h') = k /\
             h_max h' = higheq h (bval h k) / 2 ^ h_um h * 2 ^ h_um h + (2 ^ h_um h - 1);
  rt_min : (forall i, 0 < i -> zn (h_counts h) i = 0) /\ h_min h' = u64_max \/
           exists k, 0 < k < zlen (h_counts h) /\ zn (h_counts h) k <> 0 /\
             (forall i, 0 < i < k -> zn (h_counts h) i = 0) /\ h_min h' = bval h k
}.

Lemma bval_pos_um h k : cfg_ok h -> 0 < k -> 2 ^ h_um h <= bval h k /\ bval h k mod 2 ^ h_um h = 0.
Proof.
  intros C K. pose proof (um_nonneg h C) as U0. pose proof (m_nonneg h C) as M0.
  pose proof (pow2_pos (h_um h) U0) as P2.
  destruct (val_mult (h_um h) (h_half_mag h) U0 M0 k ltac:(lia)) as [x X].
  assert (bin h (bval h k) <> 0) by (rewrite bin_bval by (auto; lia); lia).
  pose proof (bval_nonneg h k C ltac:(lia)) as V0.
  unfold bin in H. rewrite idx_0_iff in H by auto. split; [lia|].
  unfold bval. rewrite X. apply Z.mod_mul. lia.
Qed.

Lemma restat_ok h : wf0 h -> exists h', restat h = Ret h' /\ restated h h' /\ wf h'.
Proof.
  intros [C S Cn]. unfold restat.
  assert (F0 : Forall (fun c => 0 <= c) (h_counts h)) by (eapply Forall_impl; [|exact Cn]; cbn; lia).
  set (h1 := reset_min (reset_max h ORIGINAL_MAX) ORIGINAL_MIN).
  assert (E1 : h1 = set_min (set_max h (2 ^ h_um h - 1)) u64_max).
  { unfold h1, reset_min, reset_max, ORIGINAL_MAX, ORIGINAL_MIN. rewrite (c_umm h C), Z.lor_0_l. reflexivity. }
  assert (C1 : cfg_ok h1) by (rewrite E1; destruct C; constructor; hsimp; auto).
  assert (S1 : size_ok h1) by (rewrite E1; destruct S; constructor; hsimp; auto).
  assert (EC : h_counts h1 = h_counts h) by (rewrite E1; reflexivity).
  assert (EU : h_um h1 = h_um h) by (rewrite E1; reflexivity).
  assert (EM : h_half_mag h1 = h_half_mag h) by (rewrite E1; reflexivity).
  pose proof (restat_loop_describes (h_counts h1) ltac:(rewrite EC; auto)) as D.
  set (st := restat_loop (h_counts h1) 0 restat_new) in *. rewrite EC in D.
  destruct D as (T & MX & MN). unfold restat_update.
  pose proof (um_range h C) as UR. pose proof (um_nonneg h C) as U0. pose proof (m_nonneg h C) as M0.
  pose proof (pow2_pos (h_um h) U0) as P2.
  pose proof (len_le_top h C S) as LT. pose proof (len_pos h C S) as LP.
  destruct (mask_bin0 h C) as [KU KB]. pose proof (bin_mono h) as BMN.
  (* the maximum *)
  assert (A1 : exists mx,
     match rs_max st with
     | Some mi => v <- value_for h1 mi ;; mx <- highest_equivalent h1 v ;; Ret (update_max h1 mx)
     | None => Ret h1 end = Ret (set_max h1 mx) /\ u64 mx /\ bin h mx < zlen (h_counts h) /\
       (forall i, 0 <= i -> zn (h_counts h) i <> 0 -> i <= bin h mx) /\ mx mod 2 ^ h_um h = 2 ^ h_um h - 1 /\
       ((forall i, 0 <= i -> zn (h_counts h) i = 0) /\ mx = 2 ^ h_um h - 1 \/
           exists k, 0 <= k < zlen (h_counts h) /\ zn (h_counts h) k <> 0 /\
             (forall i, k < i -> zn (h_counts h) i = 0) /\ bin h mx = k /\
             mx = higheq h (bval h k) / 2 ^ h_um h * 2 ^ h_um h + (2 ^ h_um h - 1))).
  { destruct (rs_max st) as [k|].
    - destruct MX as (K & NZ & ZZ).
      assert (VU : u64 (bval h k)) by (apply bval_u64; auto).
      rewrite value_for_ok; [|auto|rewrite EU, EM; lia]. cbn [bind]. rewrite EU, EM. fold (bval h k).
      rewrite highest_equivalent_ok by auto. cbn [bind].
      assert (HE : higheq h1 (bval h k) = higheq h (bval h k)) by (unfold higheq, nexteq; rewrite EU, EM; reflexivity).
      rewrite HE. pose proof (higheq_u64 h C _ VU) as HU.
      rewrite update_max_ok by (auto; apply HU). rewrite EU.
      set (mx := higheq h (bval h k) / 2 ^ h_um h * 2 ^ h_um h + (2 ^ h_um h - 1)).
      assert (BX : bin h mx = k).
      { unfold mx, bin. rewrite idx_ceil_um by (auto; apply HU). rewrite idx_higheq by auto.
        fold (bin h (bval h k)). apply bin_bval; auto; lia. }
      assert (DN : 0 <= higheq h (bval h k) / 2 ^ h_um h) by (apply Z.div_pos; [apply HU|lia]).
      assert (MG : 2 ^ h_um h - 1 <= mx) by (unfold mx; nia).
      exists mx. split.
      { f_equal. rewrite Z.max_r; [reflexivity|]. rewrite E1; hsimp. lia. }
      split. { apply ceil_um_u64; auto. } rewrite BX. split; [lia|]. split.
      { intros i Hi Z1. destruct (Z_le_gt_dec i k); auto. exfalso. apply Z1, ZZ. lia. }
      split. { unfold mx. rewrite Z.add_comm, Z.mod_add by lia. apply Z.mod_small; lia. }
      right. exists k. auto 10.
    - exists (2 ^ h_um h - 1). split. { f_equal. rewrite E1. destruct h; reflexivity. }
      split; auto. rewrite KB. split; [lia|]. split.
      { intros i Hi NZ. exfalso. apply NZ, MX. auto. }
      split. { apply Z.mod_small; lia. } left. auto. }
  destruct A1 as (mx & -> & XU & XI & XT & XS & XC). cbn [bind].
  set (h2 := set_max h1 mx).
  assert (C2 : cfg_ok h2) by (unfold h2; destruct C1; constructor; hsimp; auto).
  assert (A2 : exists mn,
     match rs_min st with
     | Some mi => v <- value_for h2 mi ;; Ret (update_min h2 v)
     | None => Ret h2 end = Ret (set_min h2 mn) /\ u64 mn /\
       (forall i, 0 < i -> zn (h_counts h) i <> 0 -> bin h mn <= i) /\
       (mn = u64_max \/ mn mod 2 ^ h_um h = 0 /\ 2 ^ h_um h <= mn) /\
       ((forall i, 0 < i -> zn (h_counts h) i = 0) /\ mn = u64_max \/
           exists k, 0 < k < zlen (h_counts h) /\ zn (h_counts h) k <> 0 /\
             (forall i, 0 < i < k -> zn (h_counts h) i = 0) /\ mn = bval h k)).
  { destruct (rs_min st) as [k|].
    - destruct MN as (K & NZ & ZZ).
      assert (VU : u64 (bval h k)) by (apply bval_u64; auto; lia).
      change (value_for h2 k) with (value_for h1 k).
      rewrite value_for_ok; [|auto|rewrite EU, EM; lia]. cbn [bind]. rewrite EU, EM. fold (bval h k).
      rewrite update_min_ok by (auto; apply VU).
      change (h_um h2) with (h_um h1). rewrite EU. destruct (bval_pos_um h k C ltac:(lia)) as [V1 V2].
      destruct (Z.leb_spec (2 ^ h_um h) (bval h k)); [|lia].
      assert (VV : bval h k / 2 ^ h_um h * 2 ^ h_um h = bval h k).
      { pose proof (Z.div_mod (bval h k) (2 ^ h_um h) ltac:(lia)). lia. }
      rewrite VV. exists (bval h k). split.
      { f_equal. f_equal. unfold h2. rewrite E1; hsimp. apply Z.min_r. apply VU. }
      split; auto. split.
      { intros i Hi Z1. rewrite bin_bval by (auto; lia). destruct (Z_le_gt_dec k i); auto. exfalso. apply Z1, ZZ. lia. }
      split; auto. right. exists k. auto.
    - exists u64_max. split. { unfold h2. rewrite E1. destruct h; reflexivity. }
      split. { unfold u64, u64_max; lia. } split. { intros i Hi NZ. exfalso. apply NZ, MN; auto. }
      split; auto. }
  destruct A2 as (mn & -> & NU & NB & NS & NC). cbn [bind].
  eexists. split; [reflexivity|]. unfold h2. rewrite E1. split.
  - constructor; hsimp; auto. constructor; reflexivity.
  - pose proof (zsum_nonneg _ F0). constructor; hsimp; auto.
    + destruct C; constructor; hsimp; auto.
    + destruct S; constructor; hsimp; auto.
    + rewrite T. unfold u64_max. lia.
Qed.

(** ** The subtraction loop *)
Definition oob_lo (h : hist) (lo hi : Z) (l : list (Z * Z)) : Prop := forall v n, In (v, n) l -> lo < v < hi.

(** counts and total replaced, everything else kept *)
Record sub_kept (h h' : hist) : Prop := {
  sk_shape : same_shape h h';
  sk_high : h_high h' = h_high h;
  sk_len : zlen (h_counts h') = zlen (h_counts h);
  sk_max : h_max h' = h_max h;
  sk_min : h_min h' = h_min h
}.
Lemma sub_kept_refl h : sub_kept h h.
Proof. constructor; auto using same_shape_refl. Qed.
Lemma sub_kept_trans a b c : sub_kept a b -> sub_kept b c -> sub_kept a c.
Proof. intros [] []; constructor; try congruence. eapply same_shape_trans; eauto. Qed.

Definition sub_result (h : hist) (needs : bool) (lo hi : Z) (l : list (Z * Z)) (h' : hist)
    (r : result bool subtraction_error) : Prop :=
  match r with
  | ROk needs' =>
      (forall j, 0 <= j -> zn (h_counts h') j = zn (h_counts h) j - wsum (bin h) j l) /\
      (needs' = false -> needs = false /\ h_total h' = h_total h - wtotal l /\
          zsum (h_counts h') <= h_total h' /\ forall v n, In (v, n) l -> lo < v < hi)
  | RErr e => e = SubtrahendCountExceedsMinuendCount /\
      (exists j, 0 <= j /\ zn (h_counts h) j < wsum (bin h) j l)
  end.

Lemma sub_loop_ok s : wf s -> forall lo hi cs i h needs,
  wf h -> h_ctr h = h_ctr s -> 0 <= i -> i + zlen cs <= zlen (h_counts s) ->
  Forall (fun c => 0 <= c <= cmax (h_ctr s)) cs ->
  (forall k, i <= k < i + zlen cs -> zn cs (k - i) <> 0 -> bin h (bval s k) < zlen (h_counts h)) ->
  (needs = false -> zsum (h_counts h) <= h_total h) ->
  exists h' r, sub_loop s cs i h needs lo hi = Ret (h', r) /\ wf h' /\ sub_kept h h' /\
    (forall j, 0 <= j -> zn (h_counts h') j <= zn (h_counts h) j) /\
    h_total h' <= h_total h /\
    sub_result h needs lo hi (bins_from (bval s) cs i) h' r.
Proof.
  intros WS lo hi. induction cs as [|c cs IH]; intros i h needs WH CT Hi Hl F Fit NT.
  - cbn [sub_loop]. exists h, (ROk needs). split; auto. split; auto. split; [apply sub_kept_refl|].
    split; [intros; lia|]. split; [lia|]. cbn [sub_result bins_from wsum wtotal]. split; [intros; lia|].
    intros N. split; auto. split; [lia|]. split; auto. intros v n [].
  - cbn [sub_loop bins_from]. rewrite zlen_cons in *. pose proof (zlen_nonneg cs).
    inversion F as [|? ? Fc F']; subst.
    assert (Fit' : forall h1, same_shape h h1 -> zlen (h_counts h1) = zlen (h_counts h) ->
       forall k, i + 1 <= k < i + 1 + zlen cs -> zn cs (k - (i + 1)) <> 0 -> bin h1 (bval s k) < zlen (h_counts h1)).
    { intros h1 SS LL k Hk NZ. rewrite (same_shape_bin _ _ _ SS), LL.
      apply Fit; [lia|]. rewrite zn_cons_S by lia. replace (k - i - 1) with (k - (i + 1)) by lia. auto. }
    destruct (Z.eqb_spec c 0) as [->|NC].
    { apply IH; auto; try lia. apply Fit'; auto using same_shape_refl. }
    pose proof (w_cfg h WH) as CH. pose proof (w_cfg s WS) as CS.
    pose proof (bval_u64 s i CS (w_size s WS) ltac:(lia)) as VU.
    rewrite value_for_ok; [|auto|]. 2: { pose proof (len_le_top s CS (w_size s WS)). lia. }
    cbn [bind]. fold (bval s i). set (v := bval s i) in *.
    assert (FI : bin h v < zlen (h_counts h)).
    { apply Fit; [lia|]. rewrite Z.sub_diag, zn_cons_0. auto. }
    pose proof (bin_nonneg h v CH ltac:(apply VU)) as B0.
    rewrite mut_at_ok by auto. fold (bin h v).
    destruct (Z.ltb_spec (bin h v) (zlen (h_counts h))); [|lia]. cbn [bind].
    rewrite vget_in by lia. cbn [bind expect]. unfold cchecked_sub at 1.
    set (j0 := bin h v) in *. pose proof (zn_nonneg (h_counts h) j0 (wf_nonneg h WH)) as ZN.
    assert (FB : Forall (fun p : Z * Z => 0 <= snd p) (bins_from (bval s) cs (i + 1))).
    { eapply Forall_impl; [|apply bins_from_snd; exact F']. cbn; lia. }
    destruct (Z.leb_spec c (zn (h_counts h) j0)) as [GE|LT].
    2: { exists h. eexists. split; [reflexivity|]. split; auto. split; [apply sub_kept_refl|].
      split; [intros; lia|]. split; [lia|]. cbn [sub_result]. split; auto. exists j0. split; [lia|]. cbn [wsum].
      fold j0. rewrite Z.eqb_refl. pose proof (wsum_nonneg (bin h) j0 _ FB). lia. }
    set (needs' := needs || (v <=? lo) || (hi <=? v)).
    set (h1 := set_counts h (vset (h_counts h) j0 (zn (h_counts h) j0 - c))).
    set (t := if needs' then h_total h else h_total h - c).
    pose proof (wf_total_nonneg h WH) as TN. pose proof (zn_le_zsum (h_counts h) j0 (wf_nonneg h WH)) as ZS.
    assert (NF : needs' = false -> needs = false /\ lo < v < hi).
    { unfold needs'. intros E. apply orb_false_iff in E. destruct E as [E E3]. apply orb_false_iff in E.
      destruct E as [E1 E2]. lia. }
    assert (TB : needs' = false -> c <= h_total h).
    { intros E. specialize (NT (proj1 (NF E))). lia. }
    assert (ZV : forall j, 0 <= j -> zn (vset (h_counts h) j0 (zn (h_counts h) j0 - c)) j =
       zn (h_counts h) j - (if j0 =? j then c else 0)).
    { intros j Hj. rewrite zn_vset by lia. destruct (Z.eqb_spec j0 j) as [E|]; [rewrite E|]; lia. }
    assert (ZSV : zsum (vset (h_counts h) j0 (zn (h_counts h) j0 - c)) = zsum (h_counts h) - c).
    { rewrite zsum_vset by lia. lia. }
    assert (EX : (if needs' then Ret h1 else t <- expect (cchecked_sub (h_total h1) c) ;; Ret (set_total h1 t)) = Ret (set_total h1 t)).
    { unfold t. destruct needs'.
      - reflexivity.
      - change (h_total h1) with (h_total h). unfold cchecked_sub. specialize (TB eq_refl).
        destruct (Z.leb_spec c (h_total h)); [|lia]. reflexivity. }
    fold needs'. rewrite EX. cbn [bind]. set (h2 := set_total h1 t).
    assert (SK : sub_kept h h2).
    { unfold h2, h1. constructor; hsimp; auto. - constructor; reflexivity. - apply zlen_vset. }
    assert (W2 : wf h2).
    { pose proof WH as [C S Cn Mx Mi Mt Ms Mn Nb Ns Tt]. unfold h2, h1. constructor; hsimp; auto.
      - destruct C; constructor; hsimp; auto.
      - destruct S; constructor; hsimp; auto. rewrite zlen_vset. auto.
      - apply Forall_vset; auto. pose proof (zn_le_cmax h j0 WH) as ZC. clear - ZN GE Fc ZC. lia.
      - rewrite zlen_vset. auto.
      - intros j Hj NZ. apply Mt; auto. rewrite ZV in NZ by auto.
        destruct (Z.eqb_spec j0 j) as [<-|J]; clear - NZ GE ZN Fc NC; lia.
      - intros j Hj NZ. apply Nb; auto. rewrite ZV in NZ by (clear - Hj; lia).
        destruct (Z.eqb_spec j0 j) as [<-|J]; clear - NZ GE ZN Fc NC; lia.
      - rewrite ZSV. unfold t. destruct needs'.
        + clear - Tt Fc. lia.
        + pose proof (NT (proj1 (NF eq_refl))) as NT'. pose proof (zsum_nonneg _ (wf_nonneg _ WH)) as SN.
          clear - Tt Fc NT' ZS GE SN. lia. }
    destruct (IH (i + 1) h2 needs') as (h3 & r & E3 & W3 & K3 & D3 & T3 & R3); auto; try lia.
    { apply Fit'; [apply SK|apply SK]. }
    { intros NE. unfold h2, h1, t; hsimp. rewrite ZSV, NE. specialize (NT (proj1 (NF NE))). lia. }
    exists h3, r. split; auto. split; auto. split; [eapply sub_kept_trans; eauto|].
    assert (WE : forall j, wsum (bin h2) j (bins_from (bval s) cs (i + 1)) = wsum (bin h) j (bins_from (bval s) cs (i + 1))).
    { intros. apply wsum_ext. intros. apply same_shape_bin. apply SK. }
    assert (Z2 : forall j, 0 <= j -> zn (h_counts h2) j = zn (h_counts h) j - (if j0 =? j then c else 0)) by exact ZV.
    split. { intros j Hj. specialize (D3 j Hj). rewrite Z2 in D3 by auto. destruct (j0 =? j); lia. }
    split. { assert (h_total h2 <= h_total h); [|lia]. unfold h2, h1, t; hsimp. destruct needs'; lia. }
    destruct r as [nd|e]; cbn [sub_result] in *.
    + destruct R3 as [R3 R4]. split.
      * intros j Hj. rewrite R3, Z2, WE by auto. cbn [wsum]. fold j0. lia.
      * intros NE. destruct (R4 NE) as (N1 & N2 & N3 & N4). destruct (NF N1) as [N5 N6]. split; auto. split.
        { rewrite N2. unfold h2, h1, t; hsimp. rewrite N1. cbn [wtotal]. lia. }
        split; auto. intros v' n' [E|I]; [inversion E; subst; auto|eauto].
    + destruct R3 as [-> (j & Hj & R3)]. split; auto. exists j. split; auto. rewrite Z2, WE in R3 by auto.
      cbn [wsum]. fold j0. lia.
Qed.

(** ** Subtraction *)
Record subtracted (h s h' : hist) : Prop := {
  su_wf : wf h';
  su_shape : same_shape h h';
  su_high : h_high h' = h_high h;
  su_len : zlen (h_counts h') = zlen (h_counts h);
  su_cnt : forall j, 0 <= j -> zn (h_counts h') j = zn (h_counts h) j - wsum (bin h) j (contents s);
  su_total : h_total h = zsum (h_counts h) -> h_total h' = Z.min u64_max (zsum (h_counts h'));
  (** either the statistics were recomputed, or nothing at the old extremes was touched *)
  su_stats : (exists h1, restated h1 h' /\ same_shape h1 h') \/
     (h_max h' = h_max h /\ h_min h' = h_min h /\ h_total h' = h_total h - zsum (h_counts s) /\
      forall v n mn, In (v, n) (contents s) -> min h = Ret mn ->
         higheq h mn < v < loweq (h_um h) (h_half_mag h) (maxp h))
}.

Definition sub_range (h s : hist) : Prop := higheq h (maxp s) <= top_val h.

Lemma sum_sub l l' (w : Z -> Z) n : 0 <= n -> (forall j, 0 <= j -> zn l' j = zn l j - w j) ->
  zpre l' n = zpre l n - zpre (map w (map Z.of_nat (seq 0 (Z.to_nat n)))) n.
Proof.
  intros Hn E. apply (natlike_ind (fun n => forall N, n <= N -> zpre l' n = zpre l n - zpre (map w (map Z.of_nat (seq 0 (Z.to_nat N)))) n)); auto.
  - intros x Hx IH N HN. rewrite <- Z.add_1_r, !zpre_succ by lia. rewrite (IH N ltac:(lia)), E by lia.
    assert (zn (map w (map Z.of_nat (seq 0 (Z.to_nat N)))) x = w x); [|lia].
    unfold zn. rewrite (nth_indep _ 0 (w (Z.of_nat 0))) by (rewrite !map_length, seq_length; lia).
    rewrite map_nth. rewrite (map_nth Z.of_nat). rewrite seq_nth by lia. f_equal. lia.
  - lia.
Qed.

Lemma subtract_ok h s : wf h -> wf s -> h_ctr h = h_ctr s ->
  (is_empty s = true /\ subtract h s = Ret (h, ROk tt)) \/
  (is_empty s = false /\ top_val h < higheq h (maxp s) /\
     subtract h s = Ret (h, RErr SubtrahendValueExceedsMinuendRange)) \/
  (is_empty s = false /\ higheq h (maxp s) <= top_val h /\
     (exists j, 0 <= j /\ zn (h_counts h) j < wsum (bin h) j (contents s)) /\
     exists h', subtract h s = Ret (h', RErr SubtrahendCountExceedsMinuendCount) /\ wf h' /\ sub_kept h h' /\
       (forall j, 0 <= j -> zn (h_counts h') j <= zn (h_counts h) j) /\ h_total h' <= h_total h) \/
  (is_empty s = false /\ higheq h (maxp s) <= top_val h /\
     (forall j, 0 <= j -> wsum (bin h) j (contents s) <= zn (h_counts h) j) /\
     exists h', subtract h s = Ret (h', ROk tt) /\ subtracted h s h').
Proof.
  intros WH WS CT. unfold subtract. destruct (is_empty s) eqn:ES; auto. right.
  pose proof (w_cfg h WH) as CH. pose proof (w_size h WH) as SH.
  rewrite (last_index_ok h CH SH). cbn [bind].
  destruct (top_ok h CH SH) as (l & E1 & E2). rewrite E1. cbn [bind]. rewrite E2. cbn [bind].
  rewrite (max_ok s WS). cbn [bind]. pose proof (maxp_u64 s WS) as SMU.
  rewrite highest_equivalent_ok by auto. cbn [bind].
  destruct (Z.ltb_spec (top_val h) (higheq h (maxp s))) as [L|L]; [left; auto|right].
  rewrite (min_ok h WH).
  set (mn := if (h_total h =? 0) || negb (zn (h_counts h) 0 =? 0) then 0 else minp h).
  assert (MO : min h = Ret mn) by (rewrite (min_ok h WH); reflexivity).
  assert (MU : u64 mn).
  { unfold mn. destruct (_ || _); [unfold u64, u64_max; lia|apply minp_u64; auto]. }
  cbn [bind].
  rewrite highest_equivalent_ok by auto. cbn [bind]. rewrite (max_ok h WH). cbn [bind].
  pose proof (maxp_u64 h WH) as HMU.
  rewrite lowest_equivalent_ok by auto. cbn [bind].
  assert (Fit : bin h (maxp s) < zlen (h_counts h)).
  { unfold bin. rewrite <- (idx_higheq h CH) by auto. fold (bin h (higheq h (maxp s))).
    destruct (top_val_in h CH SH) as [TU TI]. fold (bin h (top_val h)) in TI.
    pose proof (bin_mono h (higheq h (maxp s)) (top_val h) CH). pose proof (higheq_u64 h CH _ SMU) as HU. destruct HU. lia. }
  destruct (sub_loop_ok s WS (higheq h mn) (loweq (h_um h) (h_half_mag h) (maxp h)) (h_counts s) 0 h (h_total h =? u64_max))
    as (h1 & r & E & W1 & K1 & D1 & T1 & R); auto; try lia.
  { apply (w_cnt s WS). }
  { intros k Hk NZ. rewrite Z.sub_0_r in NZ.
    assert (bin h (bval s k) <= bin h (maxp s)); [|lia].
    apply bin_mono; auto. split; [apply bval_nonneg; auto using w_cfg; lia|].
    pose proof (w_cfg s WS) as CS. pose proof (w_max_top s WS k ltac:(lia) NZ) as T. fold (bin s (h_max s)) in T.
    pose proof (bval_le s k (bin s (h_max s)) CS ltac:(lia) T) as B.
    pose proof (w_max s WS) as XU. rewrite bval_bin in B by (auto; apply XU).
    pose proof (loweq_le (h_um s) (h_half_mag s) (um_nonneg s CS) (h_max s) ltac:(apply XU)).
    pose proof (h_max_le_maxp s WS). lia. }
  { intros N. pose proof (w_total h WH). lia. }
  fold (contents s) in R.
  rewrite E. cbn [bind]. destruct r as [nd|e]; cbn [sub_result] in R.
  - right. split; auto. split; auto. destruct R as [RC RN].
    assert (LE : forall j, 0 <= j -> wsum (bin h) j (contents s) <= zn (h_counts h) j).
    { intros j Hj. specialize (RC j Hj). pose proof (zn_nonneg (h_counts h1) j (wf_nonneg _ W1)). lia. }
    split; auto. destruct K1 as [K1 K2 K3 K4 K5]. destruct nd.
    + destruct (restat_ok h1 (wf_wf0 _ W1)) as (h2 & E3 & RT & W2). rewrite E3. cbn [bind].
      exists h2. split; auto. constructor; auto.
      * eapply same_shape_trans; [exact K1|apply (rt_shape _ _ RT)].
      * rewrite (rt_high _ _ RT). auto.
      * rewrite (rt_counts _ _ RT). auto.
      * intros j Hj. rewrite (rt_counts _ _ RT). auto.
      * intros _. rewrite (rt_total _ _ RT), (rt_counts _ _ RT). reflexivity.
      * left. exists h1. split; auto. apply (rt_shape _ _ RT).
    + destruct (RN eq_refl) as (N1 & N2 & N3 & N4). exists h1. split; auto. constructor; auto.
      * intros TE. pose proof (wf_total_nonneg _ W1). rewrite wtotal_contents in N2.
        assert (zsum (h_counts h1) = h_total h1); [|lia].
        rewrite N2, TE. pose proof (zlen_nonneg (h_counts h)).
        set (w := fun j => wsum (bin h) j (contents s)).
        assert (S1 : zsum (h_counts h1) = zsum (h_counts h) - zpre (map w (map Z.of_nat (seq 0 (Z.to_nat (zlen (h_counts h)))))) (zlen (h_counts h))).
        { rewrite <- (zpre_all (h_counts h1) (zlen (h_counts h))), <- (zpre_all (h_counts h) (zlen (h_counts h))) by lia.
          apply sum_sub; auto. }
        rewrite S1. f_equal.
        rewrite <- wtotal_contents.
        assert (G : forall l n, 0 <= n -> (forall v c, In (v, c) l -> 0 <= bin h v < n) ->
           zpre (map (fun j => wsum (bin h) j l) (map Z.of_nat (seq 0 (Z.to_nat n)))) n = wtotal l).
        { clear. intros l n Hn I. unfold zpre.
          rewrite firstn_all2 by (rewrite !map_length, seq_length; lia).
          revert I. induction l as [|[v c] l IH]; intros I; cbn [wsum wtotal].
          - rewrite map_map. induction (seq 0 (Z.to_nat n)); auto.
          - rewrite <- IH by (intros; eapply I; right; eauto).
            assert (B : 0 <= bin h v < n) by (eapply I; left; reflexivity).
            set (b := bin h v) in *. clearbody b.
            assert (Q : forall a k, zsum (map (fun j => (if b =? j then c else 0) + wsum (bin h) j l) (map Z.of_nat (seq a k)))
              = (if (Z.of_nat a <=? b) && (b <? Z.of_nat (a + k)) then c else 0) + zsum (map (fun j => wsum (bin h) j l) (map Z.of_nat (seq a k)))).
            { intros a k. revert a. induction k as [|k IHk]; intros a.
              - cbn [seq map]. change (zsum []) with 0. destruct (Z.leb_spec (Z.of_nat a) b); destruct (Z.ltb_spec b (Z.of_nat (a + 0))); cbn [andb]; lia.
              - cbn [seq map]. rewrite !zsum_cons, IHk.
                destruct (Z.eqb_spec b (Z.of_nat a)); destruct (Z.leb_spec (Z.of_nat a) b); destruct (Z.leb_spec (Z.of_nat (S a)) b);
                destruct (Z.ltb_spec b (Z.of_nat (a + S k))); destruct (Z.ltb_spec b (Z.of_nat (S a + k))); cbn [andb]; lia. }
            rewrite Q. destruct (Z.leb_spec (Z.of_nat 0) b); [|lia]. destruct (Z.ltb_spec b (Z.of_nat (0 + Z.to_nat n))); [|lia].
            reflexivity. }
        apply G; auto. intros v c I. pose proof (contents_in s v c WS I) as (k & K & _ & -> & _ & _ & VM & VU).
        split; [apply bin_nonneg; auto; apply VU|].
        pose proof (bin_mono h (bval s k) (maxp s) CH). destruct VU. lia.
      * right. split; auto. split; auto. rewrite wtotal_contents in N2. split; auto.
        intros v n mn' I MN'. rewrite MO in MN'. inversion MN'; subst. eauto.
  - left. destruct R as [-> EX]. split; auto. split; auto. split; auto. exists h1. auto.
Qed.
