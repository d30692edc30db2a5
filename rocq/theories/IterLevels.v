(** * Iterators that report at levels ([iter_linear], [iter_log]) *)
From Verif Require Import Machine Log2Model HistModel Spec Reach Bins ListZ Log2Facts Cfg Wf Ops AddFacts MoreFacts HeldFacts FloatModel IterModel IterSpec IterFacts IterBins PfQuery PfIter.
From Coq Require Import ZifyBool ZifyNat.

(** the item reported for level [l] when everything below bin [prev] has been reported *)
Definition lvitem (h : hist) (prev l : Z) : item :=
  let q := f64_div (f64_of_u64 (u64s (zpre (h_counts h) (cbin h l + 1)))) (f64_of_u64 (h_total h)) in
  mk_item l q q (zn (h_counts h) (cbin h l)) (u64s (zpre (h_counts h) (cbin h l + 1) - zpre (h_counts h) prev)).
Fixpoint lvitems (h : hist) (prev : Z) (ls : list Z) : list item :=
  match ls with [] => [] | l :: ls' => lvitem h prev l :: lvitems h (cbin h l + 1) ls' end.

Lemma weight_level h l : wf h -> u64 l -> weight_between 0 l (contents h) = zpre (h_counts h) (cbin h l + 1).
Proof.
  intros W U. pose proof (w_cfg h W) as C. pose proof (w_size h W) as SZ. pose proof (cbin_range h l W U) as CR.
  rewrite <- (weight_below h (cbin h l) W CR). pose proof (bin_nonneg h l C ltac:(apply U)) as B0.
  assert (G : forall v n, In (v, n) (contents h) -> (v <= l <-> v <= bval h (cbin h l))).
  { intros v n IN. destruct (contents_in h v n W IN) as (k & [K0 K1] & KL & -> & _).
    pose proof (proj1 (idx_iff _ _ (um_nonneg h C) (m_nonneg h C) l (bin h l) ltac:(apply U) B0) eq_refl) as [LO HI].
    change (val (h_um h) (h_half_mag h) (bin h l)) with (bval h (bin h l)) in LO. change (val (h_um h) (h_half_mag h) (bin h l + 1)) with (bval h (bin h l + 1)) in HI.
    unfold cbin in *. split; intros L.
    - apply bval_le; auto. assert (k <= bin h l); [|lia]. destruct (Z_le_dec k (bin h l)); auto.
      pose proof (bval_le h (bin h l + 1) k C ltac:(lia) ltac:(lia)). lia.
    - pose proof (bval_le h (Z.min (bin h l) (zlen (h_counts h) - 1)) (bin h l) C ltac:(lia) ltac:(lia)). lia. }
  induction (contents h) as [|[v n] cs IH]; auto. cbn [weight_between]. rewrite IH by (intros; eapply G; right; eauto).
  f_equal. specialize (G v n (or_introl eq_refl)). destruct (Z.leb_spec 0 v); auto. cbn [andb]. destruct (Z.leb_spec v l); destruct (Z.leb_spec v (bval h (cbin h l))); auto; lia.
Qed.

Lemma lvitems_at h ls : wf h -> reachable h -> Forall u64 ls -> forall prev so_far, so_far = zpre (h_counts h) prev ->
  at_levels h so_far (lvitems h prev ls) ls.
Proof.
  intros W R F. induction F as [|l ls U F IH]; intros prev so_far E; cbn [lvitems at_levels]; auto.
  rewrite held_contents by auto. rewrite weight_level by auto. subst so_far.
  split; [exact U|]. split; [reflexivity|]. split; [apply count_at_ok; auto|]. split; [reflexivity|]. split; [reflexivity|]. split; [reflexivity|].
  apply IH. auto.
Qed.

(** if the last level is at or above the class of the maximum, everything is reported *)
Lemma lvitems_reported h ls : wf h -> zsum (h_counts h) <= u64_max -> Forall u64 ls -> forall prev, 0 <= prev ->
  (match ls with [] => True | l :: _ => prev <= cbin h l + 1 end) ->
  (forall a b x y, ls = a ++ x :: y :: b -> cbin h x <= cbin h y) ->
  reported (lvitems h prev ls) = zpre (h_counts h) (match ls with [] => prev | _ => cbin h (last ls 0) + 1 end) - zpre (h_counts h) prev.
Proof.
  intros W SM F. induction F as [|l ls U F IH]; intros prev P0 P1 MO; cbn [lvitems reported]; [lia|].
  pose proof (cbin_range h l W U) as CR. pose proof (zpre_le h W prev (cbin h l + 1) ltac:(lia)) as ZL. pose proof (zpre_nn h W prev).
  pose proof (zpre_le_zsum (h_counts h) (cbin h l + 1) (wf_nonneg h W)) as ZU.
  rewrite IH; [|lia| |].
  - cbn [lvitem iv_since]. unfold u64s. rewrite Z.min_r by lia. destruct ls as [|y ls]; [cbn; lia|]. change (last (l :: y :: ls) 0) with (last (y :: ls) 0). lia.
  - destruct ls as [|y ls]; auto. specialize (MO [] ls l y eq_refl). lia.
  - intros a b x y E. apply (MO (l :: a) b x y). rewrite E. reflexivity.
Qed.

Section LEVELS.
Context {P : Type} (pk : picker P) (h : hist).
Hypothesis W : wf h.
Notation cs := (h_counts h).
Notation maxi := (bin h (h_max h)).

(** [p] reports at level [l] and then becomes [p'] *)
Definition picks (p : P) (l : Z) (p' : P) : Prop :=
  u64 l /\ forall i t c, 0 <= i < zlen cs ->
    pk_pick pk h p i t c = Ret (if cbin h l <=? i then (Some (mk_md None (Some l)), p') else (None, p)).

Lemma pick_here st p l p' : inv h st -> it_index st = cbin h l -> picks p l p' ->
  consult pk h (load h st p) = Ret (picked (load h st p) p', Yield (lvitem h (prevd st) l)).
Proof.
  intros I E [U PK]. pose proof (cbin_range h l W U) as CR. unfold consult. cbn [it_picker load it_index it_total it_count]. rewrite PK by lia.
  destruct (Z.leb_spec (cbin h l) (it_index st)); [|lia]. cbn [bind]. f_equal. f_equal. f_equal. unfold yielded, lvitem, load. cbn [md_value md_quantile it_index it_since it_total]. rewrite E. reflexivity.
Qed.

(** the state right after reporting at level [l] *)
Definition after (l : Z) (p' : P) (st' : iter P) : Prop :=
  inv h st' /\ it_ended st' = false /\ it_index st' = cbin h l /\ it_last st' = Some (cbin h l) /\ it_picker st' = p'.

(** before the class of the maximum has been reported: walk up to the bin of the level *)
Lemma walk_up l p p' : picks p l p' -> forall n st, Z.to_nat (cbin h l - it_index st) = n -> inv h st -> it_ended st = false ->
  it_picker st = p -> opt_ge (it_last st) maxi = false -> it_index st <= cbin h l ->
  exists st', after l p' st' /\ forall xs, runs pk h st' xs -> runs pk h st (lvitem h (prevd st) l :: xs).
Proof.
  intros PK. pose proof PK as [U PK']. pose proof (cbin_range h l W U) as CR. induction n as [|n IH]; intros st N I EN EP O L.
  - assert (E : it_index st = cbin h l) by lia. pose proof (round_ok pk h W st I ltac:(lia)) as R. rewrite O, EP in R. rewrite (pick_here st p l p' I E PK) in R.
    exists (picked (load h st p) p'). split.
    + split; [apply picked_inv; auto; lia|]. cbn [picked load it_ended it_index it_last it_picker]. repeat split; auto. congruence.
    + intros xs X. apply (runs_yield pk h st _ _ _ EN R X).
  - pose proof (ii_index h st I) as IX. pose proof (round_ok pk h W st I ltac:(lia)) as R. rewrite O, EP in R. unfold consult in R. cbn [it_picker load it_index it_total it_count] in R.
    rewrite PK' in R by lia. destruct (Z.leb_spec (cbin h l) (it_index st)); [lia|]. cbn [bind] in R.
    destruct (IH (advanced (load h st p) p)) as (st' & A & B); cbn [advanced load it_index it_ended it_last it_picker]; auto; try lia.
    { apply advanced_inv; auto. lia. }
    exists st'. split; auto. intros xs X. apply (runs_again pk h st _ _ EN R). apply (B xs X).
Qed.

(** after it: [more] decides *)
Lemma stop_here st p2 : inv h st -> it_ended st = false -> it_index st < zlen cs -> opt_ge (it_last st) maxi = true ->
  pk_more pk h (it_picker st) (it_index st) = Ret (false, p2) -> runs pk h st [].
Proof.
  intros I EN L O M. pose proof (round_ok pk h W st I L) as R. rewrite O, M in R. cbn [bind] in R. apply (runs_end pk h st _ EN R).
Qed.
Lemma more_here st l p' : inv h st -> it_ended st = false -> opt_ge (it_last st) maxi = true -> it_index st = cbin h l ->
  pk_more pk h (it_picker st) (it_index st) = Ret (true, it_picker st) -> picks (it_picker st) l p' ->
  exists st', after l p' st' /\ forall xs, runs pk h st' xs -> runs pk h st (lvitem h (prevd st) l :: xs).
Proof.
  intros I EN O E M PK. pose proof PK as [U _]. pose proof (cbin_range h l W U) as CR. pose proof (round_ok pk h W st I ltac:(lia)) as R. rewrite O, M in R. cbn [bind] in R.
  rewrite (pick_here st _ l p' I E PK) in R. exists (picked (load h st (it_picker st)) p'). split.
  - split; [apply picked_inv; auto; lia|]. cbn [picked load it_ended it_index it_last it_picker]. repeat split; auto. congruence.
  - intros xs X. apply (runs_yield pk h st _ _ _ EN R X).
Qed.
End LEVELS.
