(** * Building concrete histograms for the examples beside the theorems *)
From Verif Require Import Machine HistModel Spec Wf Reach.

Definition in_u64 (v : Z) : bool := (0 <=? v) && (v <=? u64_max).
Definition in_count (T : counter) (n : Z) : bool := (0 <=? n) && (n <=? cmax T).

(** create, set auto-resize, record the samples *)
Definition build (T : counter) (lo hi sf : Z) (auto : bool) (l : list (Z * Z)) : option hist :=
  if in_u64 lo && in_u64 hi && (0 <=? sf) && (sf <=? u8_max)
     && forallb (fun p => in_u64 (fst p) && in_count T (snd p)) l
  then match new_with_bounds T lo hi sf with
       | Ret (ROk h) => run_records (HistModel.auto h auto) l
       | _ => None
       end
  else None.

Lemma build_sound T lo hi sf b l h : build T lo hi sf b l = Some h ->
  exists h0, is_u64 lo /\ is_u64 hi /\ is_u8 sf /\ new_with_bounds T lo hi sf = Ret (ROk h0) /\
    reachable (HistModel.auto h0 b) /\ records (HistModel.auto h0 b) l h /\ reachable h.
Proof.
  unfold build, in_u64. destruct (_ && forallb _ l) eqn:E; [|discriminate].
  rewrite !andb_true_iff in E. destruct E as (((((E1 & E2) & E3 & E4) & E5) & E6) & E7).
  destruct (new_with_bounds T lo hi sf) as [[h0|]|] eqn:EN; try discriminate. intros R.
  assert (L1 : is_u64 lo) by (unfold is_u64; lia). assert (L2 : is_u64 hi) by (unfold is_u64; lia).
  assert (L3 : is_u8 sf) by (unfold is_u8; lia).
  assert (RH : reachable (HistModel.auto h0 b)). { apply reach_auto. apply (reach_new_with_bounds T lo hi sf); auto. }
  assert (CT : h_ctr (HistModel.auto h0 b) = T).
  { destruct (created_wf T lo hi sf h0 L1 L2 L3 EN) as (-> & _). reflexivity. }
  assert (RR : records (HistModel.auto h0 b) l h).
  { apply run_records_sound; auto; [|apply reachable_wf; auto].
    rewrite CT. apply Forall_forall. intros p I. rewrite forallb_forall in E7. specialize (E7 p I).
    unfold in_u64, in_count in E7. unfold is_u64, is_count. lia. }
  exists h0. repeat (split; auto); try apply L1; try apply L2; try apply L3. eapply records_reachable; eauto.
Qed.

Lemma build_reachable T lo hi sf b l h : build T lo hi sf b l = Some h -> reachable h.
Proof. intros B. destruct (build_sound _ _ _ _ _ _ _ B) as (h0 & _ & _ & _ & _ & _ & _ & R). exact R. Qed.
