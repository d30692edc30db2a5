(** * [iter_recorded] and [iter_all]: the exact sequence of items *)
From Verif Require Import Machine Log2Model HistModel Bins ListZ Log2Facts Cfg Wf Ops AddFacts MoreFacts FloatModel IterModel IterSpec IterFacts.
From Coq Require Import ZifyBool ZifyNat.

Fixpoint idxs (n : nat) (i : Z) : list Z := match n with O => [] | S k => i :: idxs k (i + 1) end.

Definition ritem (h : hist) (i : Z) : item :=
  let q := f64_div (f64_of_u64 (u64s (zpre (h_counts h) (i + 1)))) (f64_of_u64 (h_total h)) in
  mk_item (topval h i) q q (zn (h_counts h) i) (zn (h_counts h) i).

Definition nz (h : hist) (i : Z) : bool := negb (zn (h_counts h) i =? 0).

Lemma u64s_count h i : wf h -> u64s (zn (h_counts h) i) = zn (h_counts h) i.
Proof.
  intros W. pose proof (zn_le_cmax h i W). pose proof (cmax_le (h_ctr h)). unfold u64s. lia.
Qed.
Lemma filter_nz_zero h n : forall i, (forall k, i <= k -> zn (h_counts h) k = 0) -> filter (nz h) (idxs n i) = [].
Proof.
  induction n as [|n IH]; intros i E; cbn [idxs filter]; auto. unfold nz at 1. rewrite E by lia. cbn. apply IH. intros; apply E; lia.
Qed.

Lemma recorded_runs h : wf h -> forall n st, Z.to_nat (zlen (h_counts h) - it_index st) = n -> inv h st -> it_ended st = false ->
  it_picker st = it_last st -> it_fresh st = true -> opt_ge (it_last st) (bin h (h_max h)) = false ->
  zpre (h_counts h) (it_index st) = zpre (h_counts h) (prevd st) ->
  runs pk_recorded h st (map (ritem h) (filter (nz h) (idxs n (it_index st)))).
Proof.
  intros W. induction n as [|n IH]; intros st N I EN PK FR O CL; pose proof (ii_index h st I) as IX.
  - cbn. apply (runs_end pk_recorded h st (it_end st (it_picker st))); auto. apply end_ok. lia.
  - assert (L : it_index st < zlen (h_counts h)) by lia. cbn [idxs filter].
    pose proof (round_ok pk_recorded h W st I L) as R. rewrite O in R.
    unfold consult in R. cbn [pk_pick pk_recorded] in R. rewrite PK in R.
    assert (VIS : match it_last st with None => true | Some i => negb (i =? it_index st) end = true).
    { pose proof (ii_last h st I) as LL. destruct (it_last st) as [p|]; auto. cbn in O. destruct LL as [L1 L2]. assert (p <> it_index st); [|lia].
      intros E. destruct (L2 E); [congruence|lia]. }
    change (it_picker (load h st (it_last st))) with (it_last st) in R. change (it_index (load h st (it_last st))) with (it_index st) in R. rewrite VIS in R.
    replace (it_count (load h st (it_last st))) with (zn (h_counts h) (it_index st)) in R by (cbn; rewrite O; auto).
    unfold nz at 1. destruct (zn (h_counts h) (it_index st) =? 0) eqn:Z0; cbn [negb andb bind] in R |- *.
    + apply (runs_again pk_recorded h st _ _ EN R). rewrite <- (Z.add_0_r (it_index st)) at 1. rewrite Z.add_0_r.
      apply (IH (advanced (load h st (it_last st)) (it_last st))); cbn [advanced load it_index it_ended it_last it_picker it_fresh]; auto; try lia.
      * apply advanced_inv; auto.
      * rewrite zpre_succ by lia. change (prevd (advanced (load h st (it_last st)) (it_last st))) with (prevd st). lia.
    + assert (YI : yielded h (load h st (it_last st)) (mk_md None None) = ritem h (it_index st)).
      { unfold yielded, ritem, load. cbn [md_value md_quantile it_index it_since it_total]. f_equal. rewrite <- CL, zpre_succ by lia.
        rewrite <- (u64s_count h (it_index st) W) at 2. f_equal. lia. }
      cbn [map]. rewrite <- YI.
      set (st1 := picked (load h st (it_last st)) (Some (it_index st))) in R.
      assert (I1 : inv h st1) by (apply picked_inv; auto).
      apply (runs_yield pk_recorded h st st1 _ _ EN R).
      pose proof (round_ok pk_recorded h W st1 I1 L) as R1. cbn [st1 picked it_last opt_ge] in R1. cbn [load it_index] in R1.
      destruct (Z.leb_spec (bin h (h_max h)) (it_index st)) as [GE|LT].
      * cbn [pk_more pk_recorded bind] in R1.
        rewrite filter_nz_zero by (intros; apply zn_flat; auto; lia). apply (runs_end pk_recorded h st1 _ EN R1).
      * unfold consult in R1. cbn [pk_pick pk_recorded] in R1.
        change (it_picker (load h st1 (it_picker st1))) with (Some (it_index st)) in R1. change (it_index (load h st1 (it_picker st1))) with (it_index st) in R1.
        cbv beta iota in R1. rewrite Z.eqb_refl in R1. cbn [negb] in R1. rewrite andb_false_r in R1. cbn [bind] in R1.
        apply (runs_again pk_recorded h st1 _ _ EN R1).
        apply (IH (advanced (load h st1 (Some (it_index st))) (Some (it_index st)))); cbn [advanced load it_index it_ended it_last it_picker it_fresh]; auto; try lia.
        -- change (it_index st1) with (it_index st). lia.
        -- apply advanced_inv; auto.
        -- cbn. lia.
Qed.

Lemma all_runs h : wf h -> forall n st, Z.to_nat (zlen (h_counts h) - it_index st) = n -> inv h st -> it_ended st = false ->
  it_picker st = it_last st -> it_fresh st = true -> prevd st = it_index st ->
  runs pk_all h st (map (ritem h) (idxs n (it_index st))).
Proof.
  intros W. induction n as [|n IH]; intros st N I EN PK FR PD; pose proof (ii_index h st I) as IX.
  - cbn. apply (runs_end pk_all h st (it_end st (it_picker st))); auto. apply end_ok. lia.
  - assert (L : it_index st < zlen (h_counts h)) by lia. cbn [idxs map].
    pose proof (round_ok pk_all h W st I L) as R.
    assert (VIS : match it_last st with None => true | Some i => negb (i =? it_index st) end = true).
    { unfold prevd in PD. destruct (it_last st); auto. lia. }
    cbn [pk_more pk_all bind] in R. rewrite PK in R.
    unfold consult in R. cbn [pk_pick pk_all] in R.
    change (it_picker (load h st (it_last st))) with (it_last st) in R. change (it_index (load h st (it_last st))) with (it_index st) in R. rewrite VIS in R.
    cbn [bind] in R.
    assert (YI : yielded h (load h st (it_last st)) (mk_md None None) = ritem h (it_index st)).
    { unfold yielded, ritem, load. cbn [md_value md_quantile it_index it_since it_total]. f_equal. rewrite PD, zpre_succ by lia.
      rewrite <- (u64s_count h (it_index st) W) at 2. f_equal. lia. }
    set (st1 := picked (load h st (it_last st)) (Some (it_index st))) in R.
    assert (I1 : inv h st1) by (apply picked_inv; auto).
    assert (RR : iter_round pk_all h st = Ret (st1, Yield (ritem h (it_index st)))).
    { rewrite R, YI. destruct (opt_ge _ _); reflexivity. }
    apply (runs_yield pk_all h st st1 _ _ EN RR).
    pose proof (round_ok pk_all h W st1 I1 L) as R1. cbn [pk_more pk_all bind] in R1.
    unfold consult in R1. cbn [pk_pick pk_all] in R1.
    change (it_picker (load h st1 (it_picker st1))) with (Some (it_index st)) in R1. change (it_index (load h st1 (it_picker st1))) with (it_index st) in R1.
    cbv beta iota in R1. rewrite Z.eqb_refl in R1. cbn [negb bind] in R1.
    assert (RR1 : iter_round pk_all h st1 = Ret (advanced (load h st1 (Some (it_index st))) (Some (it_index st)), Again)).
    { rewrite R1. destruct (opt_ge (it_last st1) (bin h (h_max h))); reflexivity. }
    apply (runs_again pk_all h st1 _ _ EN RR1).
    apply (IH (advanced (load h st1 (Some (it_index st))) (Some (it_index st)))); cbn [advanced load it_index it_ended it_last it_picker it_fresh]; auto.
    + change (it_index st1) with (it_index st). lia.
    + apply advanced_inv; auto.
Qed.

Lemma bins_idxs f cs : forall i, 0 <= i -> forall all, (forall k, i <= k < i + zlen cs -> zn all k = zn cs (k - i)) ->
  bins_from f cs i = map (fun k => (f k, zn all k)) (filter (fun k => negb (zn all k =? 0)) (idxs (length cs) i)).
Proof.
  induction cs as [|c cs IH]; intros i I all E; cbn [bins_from length idxs filter map]; auto. rewrite zlen_cons in E. pose proof (zlen_nonneg cs).
  assert (E0 : zn all i = c) by (rewrite E by lia; rewrite Z.sub_diag; apply zn_cons_0). rewrite E0.
  rewrite (IH (i + 1) ltac:(lia) all). 2: { intros k K. rewrite E by lia. rewrite zn_cons_S by lia. f_equal. lia. }
  destruct (c =? 0); cbn [negb map]; auto. rewrite E0. auto.
Qed.

Definition held_idxs (h : hist) : list Z := filter (nz h) (idxs (Z.to_nat (zlen (h_counts h))) 0).
Lemma contents_idxs h : contents h = map (fun k => (bval h k, zn (h_counts h) k)) (held_idxs h).
Proof.
  unfold contents, held_idxs, nz. rewrite (bins_idxs (bval h) (h_counts h) 0 ltac:(lia) (h_counts h)) by (intros; f_equal; lia).
  unfold zlen. rewrite Nat2Z.id. reflexivity.
Qed.
Lemma idxs_range n : forall i k, In k (idxs n i) -> i <= k < i + Z.of_nat n.
Proof. induction n as [|n IH]; intros i k H; cbn in H; [contradiction|]. destruct H as [->|H]; [lia|]. specialize (IH _ _ H). lia. Qed.
Lemma held_idxs_in h k : In k (held_idxs h) <-> 0 <= k < zlen (h_counts h) /\ zn (h_counts h) k <> 0.
Proof.
  unfold held_idxs. rewrite filter_In. unfold nz. split.
  - intros [A B]. apply idxs_range in A. pose proof (zlen_nonneg (h_counts h)). lia.
  - intros [A B]. split; [|lia]. assert (G : forall n i, i <= k < i + Z.of_nat n -> In k (idxs n i)).
    { clear. induction n as [|n IH]; intros i H; cbn; [lia|]. destruct (Z.eq_dec i k); auto. right. apply IH. lia. }
    apply G. lia.
Qed.

Lemma recorded_drains h : wf h -> exists it, iter_recorded h = Ret it /\ inv h it /\ it_ended it = false /\ runs pk_recorded h it (map (ritem h) (held_idxs h)) /\
  drains pk_recorded h it (map (ritem h) (held_idxs h)).
Proof.
  intros W. unfold iter_recorded. destruct (new_ok h W (@None Z)) as (st & E & I & EN & IX & LA & PK & FR). exists st. split; auto. split; auto. split; auto.
  assert (R : runs pk_recorded h st (map (ritem h) (held_idxs h))).
  { unfold held_idxs. replace (Z.to_nat (zlen (h_counts h))) with (Z.to_nat (zlen (h_counts h) - it_index st)) by (f_equal; lia). rewrite <- IX.
    apply recorded_runs; auto; try congruence; [rewrite LA; auto|]. unfold prevd. rewrite LA, IX. auto. }
  split; auto. apply runs_drains; auto.
Qed.
Lemma all_drains h : wf h -> exists it, iter_all h = Ret it /\ drains pk_all h it (map (ritem h) (idxs (Z.to_nat (zlen (h_counts h))) 0)).
Proof.
  intros W. unfold iter_all. destruct (new_ok h W (@None Z)) as (st & E & I & EN & IX & LA & PK & FR). exists st. split; auto.
  apply runs_drains; auto. replace (Z.to_nat (zlen (h_counts h))) with (Z.to_nat (zlen (h_counts h) - it_index st)) by (f_equal; lia). rewrite <- IX.
  apply all_runs; auto; try congruence. unfold prevd. rewrite LA, IX. auto.
Qed.

(** ** Uniqueness, collecting *)
Lemma drains_unique {P} (pk : picker P) h it xs : drains pk h it xs -> forall ys, drains pk h it ys -> xs = ys.
Proof.
  induction 1 as [it it' E|it it' x xs E D IH]; intros ys D2; inversion D2; subst; try congruence.
  rewrite E in H. injection H as <- <-. f_equal. auto.
Qed.
Lemma drains_collect {P} (pk : picker P) h it xs : drains pk h it xs -> forall fuel, (length xs < fuel)%nat -> iter_collect fuel pk h it = Ret xs.
Proof.
  induction 1 as [it it' E|it it' x xs E D IH]; intros fuel F; (destruct fuel as [|f]; [lia|]); cbn [iter_collect]; rewrite E; cbn [bind]; auto.
  rewrite IH by (cbn in F; lia). reflexivity.
Qed.
Lemma length_idxs n : forall i, length (idxs n i) = n.
Proof. induction n; intros; cbn; auto. Qed.
Lemma length_filter {A} (f : A -> bool) l : (length (filter f l) <= length l)%nat.
Proof. induction l as [|x l IH]; cbn; auto. destruct (f x); cbn; lia. Qed.
Lemma recorded_items_ok h : wf h -> recorded_items h = Ret (map (ritem h) (held_idxs h)).
Proof.
  intros W. unfold recorded_items. destruct (recorded_drains h W) as (it & -> & _ & _ & _ & D). cbn [bind]. apply (drains_collect _ _ _ _ D).
  rewrite map_length. unfold held_idxs, distinct_values. pose proof (length_filter (nz h) (idxs (Z.to_nat (zlen (h_counts h))) 0)) as L. rewrite length_idxs in L. lia.
Qed.
