(** * Concrete cases for the theorems

    Decision procedures for the hypotheses that quantify over all values, each with a proof that it is
    right, and a tactic.  The examples beside the theorems state the hypotheses themselves. *)
From Verif Require Import Machine Log2Model HistModel Spec Bins ListZ Log2Facts Cfg Wf Ops AddFacts SubFacts Exact MoreFacts HeldFacts Reach Witness.

Definition is_true (r : res bool) : bool := match r with Ret b => b | Panic => false end.
Definition is_false (r : res bool) : bool := match r with Ret b => negb b | Panic => false end.
Lemma is_true_ok r : is_true r = true <-> r = Ret true.
Proof. destruct r as [[]|]; cbn; split; congruence. Qed.
Lemma is_false_ok r : is_false r = true <-> r = Ret false.
Proof. destruct r as [[]|]; cbn; split; congruence. Qed.

(** [stats_agree] *)
Definition max_fits (h : hist) : bool :=
  match max h with
  | Panic => true
  | Ret mx => forallb (fun p => fst p <=? mx) (held h) &&
      (match held h with [] => is_true (equivalent h mx 0) | _ => existsb (fun p => is_true (equivalent h (fst p) mx)) (held h) end)
  end.
Definition min_fits (h : hist) : bool :=
  match min_nz h with
  | Panic => true
  | Ret mn => forallb (fun p => negb (is_false (equivalent h (fst p) 0)) || (mn <=? fst p) || is_true (equivalent h (fst p) mn)) (held h) &&
      ((forallb (fun p => is_true (equivalent h (fst p) 0)) (held h) && (mn =? u64_max)) ||
       existsb (fun p => is_true (equivalent h (fst p) mn)) (held h))
  end.
Definition stats_fit (h : hist) : bool := (len h =? weight (held h)) && max_fits h && min_fits h.

Lemma stats_fit_ok h : stats_fit h = true -> stats_agree h.
Proof.
  unfold stats_fit. rewrite !andb_true_iff. intros [[A B] C]. split; [apply Z.eqb_eq; exact A|]. split.
  - intros mx E. unfold max_fits in B. rewrite E in B. apply andb_true_iff in B. destruct B as [B1 B2]. rewrite forallb_forall in B1. split.
    + intros v n I. specialize (B1 _ I). cbn in B1. lia.
    + destruct (held h) as [|p l] eqn:H; [left; split; [reflexivity|apply is_true_ok; exact B2]|].
      right. rewrite <- H in *. apply existsb_exists in B2. destruct B2 as ([v n] & I & X). exists v, n. split; auto. apply is_true_ok. exact X.
  - intros mn E. unfold min_fits in C. rewrite E in C. apply andb_true_iff in C. destruct C as [C1 C2]. rewrite forallb_forall in C1. split.
    + intros v n I Q. specialize (C1 _ I). cbn [fst] in C1. apply is_false_ok in Q. rewrite Q in C1. cbn in C1. apply orb_true_iff in C1.
      destruct C1 as [C1|C1]; [left; lia|right; apply is_true_ok; exact C1].
    + apply orb_true_iff in C2. destruct C2 as [C2|C2]; [left|right].
      * apply andb_true_iff in C2. destruct C2 as [C2 C3]. rewrite forallb_forall in C2. split; [|lia].
        intros v n I. apply is_true_ok. apply (C2 _ I).
      * apply existsb_exists in C2. destruct C2 as ([v n] & I & X). exists v, n. split; auto. apply is_true_ok. exact X.
Qed.

(** [no_saturation] *)
Definition sample_fits (p : Z * Z) : bool := (0 <=? fst p) && (fst p <=? u64_max) && (0 <=? snd p).
Definition has_room (h : hist) (l : list (Z * Z)) : bool :=
  forallb sample_fits l && forallb (fun c => c + weight l <=? cmax (h_ctr h)) (h_counts h) && (weight l <=? cmax (h_ctr h)) && (len h + weight l <=? u64_max).
Lemma has_room_ok h l : reachable h -> has_room h l = true -> no_saturation h l.
Proof.
  intros R. apply reachable_wf in R. unfold has_room. rewrite !andb_true_iff, !forallb_forall. intros [[[A B] D] E].
  assert (F : Forall (fun p => u64 (fst p)) l).
  { apply Forall_forall. intros p I. specialize (A p I). unfold sample_fits in A. unfold u64. lia. }
  apply no_saturation_iff; auto.
  assert (WS : forall f j, wsum f j l <= weight l).
  { intros f j. clear - A. induction l as [|[v n] l IH]; cbn [wsum weight]; [lia|].
    assert (0 <= n). { specialize (A (v, n) (or_introl eq_refl)). unfold sample_fits in A. cbn [fst snd] in A. lia. }
    specialize (IH (fun p I => A p (or_intror I))). destruct (f v =? j); lia. }
  split.
  - intros j J. specialize (WS (bin h) j). destruct (Z_lt_le_dec j (zlen (h_counts h))) as [L|L].
    + specialize (B (zn (h_counts h) j)).
      assert (I : In (zn (h_counts h) j) (h_counts h)) by (unfold zn; apply nth_In; unfold zlen in L; lia). specialize (B I). lia.
    + rewrite zn_out by lia. lia.
  - rewrite weight_wtotal in E. unfold len in E. lia.
Qed.

(** [covers] *)
Definition has_bin (h : hist) (v : Z) : bool :=
  match index_for h v with Ret (Some i) => i <? distinct_values h | _ => false end.
Lemma has_bin_ok h v : has_bin h v = true <-> covers h v.
Proof.
  unfold has_bin, covers. destruct (index_for h v) as [[i|]|]; split; try discriminate.
  - intros E. exists i. split; [reflexivity|]. lia.
  - intros (j & E & L). injection E as ->. lia.
  - intros (j & E & L). discriminate.
  - intros (j & E & L). discriminate.
Qed.
Lemma has_no_bin h v : has_bin h v = false -> ~ covers h v.
Proof. intros E C. apply has_bin_ok in C. congruence. Qed.

(** [records] *)
Definition sample_ok (h : hist) (p : Z * Z) : bool := in_u64 (fst p) && in_count (h_ctr h) (snd p).
Lemma records_ok h l h' : reachable h -> forallb (sample_ok h) l = true -> run_records h l = Some h' -> records h l h'.
Proof.
  intros R F E. apply run_records_sound; auto; [|apply reachable_wf; auto].
  apply Forall_forall. intros p I. rewrite forallb_forall in F. specialize (F p I). unfold sample_ok, in_u64, in_count in F. unfold is_u64, is_count. lia.
Qed.

(** use [build] in an example *)
Lemma case_build T lo hi sf b l h (P : hist -> Prop) :
  build T lo hi sf b l = Some h -> (reachable h -> P h) -> match build T lo hi sf b l with Some h => P h | None => False end.
Proof. intros E H. rewrite E. apply H. eapply build_reachable; eauto. Qed.
(** the results of the operations are reachable too *)
Ltac case_reach x r :=
  lazymatch r with
  | Ret (?h', _) =>
      lazymatch x with
      | add ?h ?s => assert (reachable h') by (eapply (reach_add h s); [assumption|assumption|reflexivity|vm_compute; reflexivity])
      | subtract ?h ?s => assert (reachable h') by (eapply (reach_subtract h s); [assumption|assumption|reflexivity|vm_compute; reflexivity])
      | set_to ?h ?s => assert (reachable h') by (eapply (reach_set_to h s); [assumption|assumption|reflexivity|vm_compute; reflexivity])
      | record_n ?h ?v ?n => assert (reachable h') by (eapply (reach_record_n h v n); [assumption|vm_compute; split; discriminate|vm_compute; split; discriminate|vm_compute; reflexivity])
      | record_n_correct ?h ?v ?n ?i => assert (reachable h') by (eapply (reach_correct h v n i); [assumption|vm_compute; split; discriminate|vm_compute; split; discriminate|vm_compute; split; discriminate|vm_compute; reflexivity])
      | _ => idtac
      end
  | Ret (ROk ?h') =>
      lazymatch x with
      | new_with_bounds ?T ?lo ?hi ?sf => assert (reachable h') by (eapply (reach_new_with_bounds T lo hi sf); [vm_compute; split; discriminate|vm_compute; split; discriminate|vm_compute; split; discriminate|vm_compute; reflexivity])
      | _ => idtac
      end
  | Ret ?h' =>
      lazymatch x with
      | saturating_record_n ?h ?v ?n => assert (reachable h') by (eapply (reach_saturating h v n); [assumption|vm_compute; split; discriminate|vm_compute; split; discriminate|vm_compute; reflexivity])
      | new_from ?T ?s => assert (reachable h') by (eapply (reach_new_from T s); [assumption|vm_compute; reflexivity])
      | _ => idtac
      end
  | _ => idtac
  end.
Ltac case_match :=
  lazymatch goal with
  | |- match build _ _ _ _ _ _ with _ => _ end => eapply case_build; [vm_compute; reflexivity|intro]
  | |- match ?x with _ => _ end =>
      let r := eval vm_compute in x in try case_reach x r; replace x with r by (vm_compute; reflexivity); cbv iota beta
  end.
Ltac case_reachable := first [assumption|apply reach_reset; assumption|apply reach_clear; assumption|apply reach_auto; assumption].
Ltac case_leaf :=
  lazymatch goal with
  | |- reachable _ => case_reachable
  | |- stats_agree _ => apply stats_fit_ok; vm_compute; reflexivity
  | |- no_saturation _ _ => apply has_room_ok; [case_reachable|vm_compute; reflexivity]
  | |- covers _ _ => apply has_bin_ok; vm_compute; reflexivity
  | |- ~ covers _ _ => apply has_no_bin; vm_compute; reflexivity
  | |- records _ _ _ => apply records_ok; [case_reachable|vm_compute; reflexivity|vm_compute; reflexivity]
  | |- is_u64 _ => vm_compute; split; discriminate
  | |- is_count _ _ => vm_compute; split; discriminate
  | |- _ <= _ => vm_compute; discriminate
  | |- _ <> _ => vm_compute; discriminate
  | |- _ < _ => vm_compute; reflexivity
  | |- _ => vm_compute; try reflexivity; auto 20
  end.
(** a conjunction of concrete facts about the histograms built *)
Ltac case_of :=
  repeat first [case_match | lazymatch goal with |- _ /\ _ => split end];
  case_leaf.
(** the same for facts that contain floats: a nested [match] is evaluated as a whole, so that no float (a
    number together with a proof) appears in a goal *)
Ltac float_case :=
  repeat lazymatch goal with
  | |- match build _ _ _ _ _ _ with _ => _ end => eapply case_build; [vm_compute; reflexivity|intro]
  | |- _ /\ _ => split
  end;
  case_leaf.
