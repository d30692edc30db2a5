(** * Concrete cases for the theorems about the concurrent histogram

    Decision procedures for the hypotheses about a run, each with a proof that it is right, and a
    tactic, as in [Cases]. *)
From Verif Require Import Machine HistModel Spec Reach Witness Cases SyncModel SyncSpec WeakModel WeakSpec.

(** [run] and [wrun] *)
Definition op_fits (T : counter) (o : op) : bool :=
  match o with
  | ORecord v n | OSaturating v n => in_u64 v && in_count T n
  | OCorrect v n i => in_u64 v && in_count T n && in_u64 i
  | _ => false
  end.
Definition label_fits (T : counter) (l : label) : bool :=
  match l with LWrite _ o => op_fits T o | RSet _ => false | _ => true end.
Lemma label_fits_ok T tr : forallb (label_fits T) tr = true -> Forall (label_ok T) tr.
Proof.
  rewrite forallb_forall. intros H. apply Forall_forall. intros l I. specialize (H l I).
  destruct l; cbn in *; auto; try discriminate.
  destruct o; cbn in *; try discriminate; unfold in_u64, in_count, is_u64, is_count in *; lia.
Qed.
Lemma run_ok h tr st : reachable h -> forallb (label_fits (h_ctr h)) tr = true -> exec (init h) tr = Some st -> run h tr st.
Proof. intros R F E. split; [exact R|]. split; [apply label_fits_ok; exact F|exact E]. Qed.
Lemma wrun_ok h tr w : reachable h -> forallb (label_fits (h_ctr h)) (acts tr) = true -> wexec (winit h) tr = Some w -> wrun h tr w.
Proof. intros R F E. split; [exact R|]. split; [apply label_fits_ok; exact F|exact E]. Qed.

(** [merged_untouched], [guards_dropped], [only_adds_samples] *)
Definition not_set (l : label) : bool := match l with RSet _ => false | _ => true end.
Lemma untouched_ok tr : forallb not_set tr = true -> merged_untouched tr.
Proof. rewrite forallb_forall. intros H h I. specialize (H _ I). discriminate. Qed.
Definition not_leak (l : label) : bool := match l with LForget _ => false | _ => true end.
Lemma dropped_ok tr : forallb not_leak tr = true -> guards_dropped tr.
Proof. rewrite forallb_forall. intros H h I. specialize (H _ I). discriminate. Qed.
Definition adds (l : label) : bool :=
  match l with LWrite _ (ORecord _ _) | LWrite _ (OCorrect _ _ _) => true | LWrite _ _ => false | _ => true end.
Lemma adds_ok tr : forallb adds tr = true -> only_adds_samples tr.
Proof. rewrite forallb_forall. intros H i o I. specialize (H _ I). destruct o; cbn in *; auto; discriminate. Qed.

(** [synced], [all_quiet], [all_dropped], and who owes *)
Definition seen_b (ph : Z) (r : recorder) : bool :=
  match r_pc r with
  | PReady | PWrote | PIdling => r_phase r =? ph
  | PLoaded q | PIdlingLoaded q => (r_phase r =? ph) && (q =? ph)
  | _ => true
  end.
Lemma synced_ok st : forallb (seen_b (s_phase st)) (s_recs st) = true -> synced st.
Proof.
  rewrite forallb_forall. intros H r I. specialize (H r I). unfold seen, seen_b in *. destruct (r_pc r); auto; lia.
Qed.
Definition quiet_b (r : recorder) : bool := match r_pc r with PGone | PIdle => true | _ => false end.
Lemma quiet_ok st : forallb quiet_b (s_recs st) = true -> all_quiet st.
Proof. rewrite forallb_forall. intros H r I. specialize (H r I). unfold quiet_b in H. destruct (r_pc r); auto; discriminate. Qed.
Definition gone_b (r : recorder) : bool := match r_pc r with PGone => true | _ => false end.
Lemma gone_ok st : forallb gone_b (s_recs st) = true -> all_dropped st.
Proof. rewrite forallb_forall. intros H r I. specialize (H r I). unfold gone_b in H. destruct (r_pc r); auto; discriminate. Qed.
Lemma paid_ok st : forallb (fun r => negb (owes (s_phase st) r)) (s_recs st) = true -> forall r, In r (s_recs st) -> owes (s_phase st) r = false.
Proof. rewrite forallb_forall. intros H r I. apply negb_true_iff. apply (H r I). Qed.

(** [along] *)
Fixpoint along_b (P : state -> label -> bool) (st : state) (tr : list label) : bool :=
  match tr with
  | [] => true
  | l :: tr' => P st l && match step st l with Some st' => along_b P st' tr' | None => true end
  end.
Lemma along_ok P (Q : state -> label -> Prop) tr : (forall st l, P st l = true -> Q st l) -> forall st, along_b P st tr = true -> along Q st tr.
Proof.
  intros H. induction tr as [|l tr IH]; intros st E; cbn in *; auto. apply andb_true_iff in E. destruct E as [E1 E2].
  split; auto. destruct (step st l); auto.
Qed.
Definition window_b (st : state) : bool := match s_reader st with RBump _ _ => true | _ => false end.
Lemma window_ok st : window_b st = false -> ~ in_window st.
Proof. intros E (t & n & X). unfold window_b in E. rewrite X in E. discriminate. Qed.
Definition smooth_b (st : state) (l : label) : bool :=
  match l with
  | LForget _ | LDrop _ | LDropEnd _ | RTimeout => false
  | LIdle _ | LWake _ => negb (window_b st)
  | LClone i => match s_reader st with RDrain _ | RCount _ => true | _ => false end &&
      match nth_error (s_recs st) i with Some r => match r_pc r with PIdle => false | _ => true end | None => true end
  | _ => true
  end.
Lemma smooth_ok st l : smooth_b st l = true -> smooth st l.
Proof.
  destruct l; cbn; auto; try discriminate.
  - rewrite andb_true_iff. intros [A B]. split.
    + destruct (s_reader st); try discriminate; eauto.
    + intros r E. rewrite E in B. destruct (r_pc r); try discriminate; intros X; discriminate.
  - intros E. apply window_ok. apply negb_true_iff. exact E.
  - intros E. apply window_ok. apply negb_true_iff. exact E.
Qed.
Definition idles_b (st : state) (l : label) : bool := match l with LIdleLoad _ => negb (window_b st) | _ => true end.
Lemma idles_ok st l : idles_b st l = true -> idles_outside st l.
Proof. destruct l; cbn; auto. intros E. apply window_ok. apply negb_true_iff. exact E. Qed.

(** [walong] *)
Fixpoint walong_b (P : wstate -> label * Z -> bool) (w : wstate) (tr : list (label * Z)) : bool :=
  match tr with
  | [] => true
  | a :: tr' => P w a && match wstep w a with Some w' => walong_b P w' tr' | None => true end
  end.
Lemma walong_ok P (Q : wstate -> label * Z -> Prop) tr : (forall w a, P w a = true -> Q w a) -> forall w, walong_b P w tr = true -> walong Q w tr.
Proof.
  intros H. induction tr as [|a tr IH]; intros w E; cbn [walong_b walong] in *; auto. apply andb_true_iff in E. destruct E as [E1 E2].
  split; auto. destruct (wstep w a); auto.
Qed.
Definition wsmooth_b (w : wstate) (a : label * Z) : bool :=
  smooth_b (w_st w) (fst a) && match fst a with LIdleLoad _ | LWakeEnd _ => snd a =? w_now w | _ => true end.
Lemma wsmooth_ok w a : wsmooth_b w a = true -> wsmooth w a.
Proof.
  unfold wsmooth_b. rewrite andb_true_iff. intros [A B]. split; [apply smooth_ok; exact A|]. unfold quiet_up_to_date.
  destruct (fst a); auto; lia.
Qed.
Definition widles_b (w : wstate) (a : label * Z) : bool :=
  idles_b (w_st w) (fst a) &&
  match fst a with LIdleLoad _ => match s_reader (w_st w) with RWait _ _ _ => snd a =? w_now w | _ => true end | _ => true end.
Lemma widles_ok w a : widles_b w a = true -> widles_outside w a.
Proof.
  unfold widles_b. rewrite andb_true_iff. intros [A B]. split; [apply idles_ok; exact A|].
  destruct (fst a); auto. intros (t & n & k & X). rewrite X in B. lia.
Qed.
Definition up_b (w : wstate) (a : label * Z) : bool :=
  match fst a with LLoad _ | LIdleLoad _ | LWakeEnd _ => snd a =? w_now w | _ => true end.
Lemma up_ok w a : up_b w a = true -> up_to_date w a.
Proof. unfold up_b, up_to_date, is_load. destruct (fst a); intros H []; lia. Qed.

(** steps of a refresh, and steps while it runs *)
Definition refresh_b (l : label) : bool :=
  match l with RRecv | REmpty | RRead | RShift | RTimeout | RDone => true | _ => false end.
Definition in_call_b (l : label) : bool :=
  match l with RStart _ | RRecorder | RSet _ | RDrop => false | _ => true end.
Lemma refresh_ok tr : forallb refresh_b tr = true -> Forall refresh_step tr.
Proof. rewrite forallb_forall. intros H. apply Forall_forall. intros l I. specialize (H l I). destruct l; cbn in *; auto; discriminate. Qed.
Lemma in_call_ok tr : forallb in_call_b tr = true -> Forall in_call tr.
Proof. rewrite forallb_forall. intros H. apply Forall_forall. intros l I. specialize (H l I). destruct l; cbn in *; auto; discriminate. Qed.

(** [merge_safe] *)
Definition safe_b (h : hist) : bool := is_auto_resize h || negb (has_bin h u64_max).
Lemma safe_ok h : safe_b h = true -> merge_safe h.
Proof.
  unfold safe_b. rewrite orb_true_iff. intros [E|E]; [left; exact E|right; apply has_no_bin; apply negb_true_iff; exact E].
Qed.

Ltac sync_leaf :=
  lazymatch goal with
  | |- run _ _ _ => apply run_ok; [assumption|vm_compute; reflexivity|vm_compute; reflexivity]
  | |- wrun _ _ _ => apply wrun_ok; [assumption|vm_compute; reflexivity|vm_compute; reflexivity]
  | |- merged_untouched _ => apply untouched_ok; vm_compute; reflexivity
  | |- guards_dropped _ => apply dropped_ok; vm_compute; reflexivity
  | |- only_adds_samples _ => apply adds_ok; vm_compute; reflexivity
  | |- synced _ => apply synced_ok; vm_compute; reflexivity
  | |- all_quiet _ => apply quiet_ok; vm_compute; reflexivity
  | |- all_dropped _ => apply gone_ok; vm_compute; reflexivity
  | |- along smooth _ _ => apply (along_ok smooth_b); [exact smooth_ok|vm_compute; reflexivity]
  | |- along idles_outside _ _ => apply (along_ok idles_b); [exact idles_ok|vm_compute; reflexivity]
  | |- walong wsmooth _ _ => apply (walong_ok wsmooth_b); [exact wsmooth_ok|vm_compute; reflexivity]
  | |- walong widles_outside _ _ => apply (walong_ok widles_b); [exact widles_ok|vm_compute; reflexivity]
  | |- walong up_to_date _ _ => apply (walong_ok up_b); [exact up_ok|vm_compute; reflexivity]
  | |- Forall refresh_step _ => apply refresh_ok; vm_compute; reflexivity
  | |- Forall in_call _ => apply in_call_ok; vm_compute; reflexivity
  | |- merge_safe _ => apply safe_ok; vm_compute; reflexivity
  | |- reader_alive _ => vm_compute; split; discriminate
  | |- forall r, In r _ -> owes _ r = false => apply paid_ok; vm_compute; reflexivity
  | |- ~ In _ _ => vm_compute; intuition discriminate
  | |- _ => case_leaf
  end.
(** a conjunction of concrete facts about the runs *)
Ltac sync_case :=
  repeat first [case_match | lazymatch goal with |- (let x := _ in _) => cbv zeta end | lazymatch goal with |- _ /\ _ => split end]; sync_leaf.
