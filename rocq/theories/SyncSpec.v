(** * Vocabulary of the statements about the concurrent histogram *)
From Verif Require Import Machine HistModel Spec SerModel Reach SyncModel.

(** arguments the Rust types allow: [u64] values, counts of the counter type, histograms of the same
    counter type *)
Definition op_ok (T : counter) (o : op) : Prop :=
  match o with
  | ORecord v n | OSaturating v n => is_u64 v /\ is_count T n
  | OCorrect v n i => is_u64 v /\ is_count T n /\ is_u64 i
  | OAdd s | OSubtract s => reachable s /\ h_ctr s = T
  | OAddCorrect s i => reachable s /\ h_ctr s = T /\ is_u64 i
  end.
Definition label_ok (T : counter) (l : label) : Prop :=
  match l with
  | LWrite _ o => op_ok T o
  | RSet h => reachable h /\ h_ctr h = T
  | _ => True
  end.

(** [st] is a state some interleaving reaches: [SyncHistogram::from(h0)], then the actions [tr] *)
Definition run (h0 : hist) (tr : list label) (st : state) : Prop :=
  reachable h0 /\ Forall (label_ok (h_ctr h0)) tr /\ exec (init h0) tr = Some st.

(** the calls made on recorders: which recorder, which call *)
Definition writes (tr : list label) : list (nat * op) :=
  flat_map (fun l => match l with LWrite i o => [(i, o)] | _ => [] end) tr.

(** the program never writes to the merged histogram itself *)
Definition merged_untouched (tr : list label) : Prop := forall h, ~ In (RSet h) tr.
(** the program never leaks the guard of an idle recorder *)
Definition guards_dropped (tr : list label) : Prop := forall i, ~ In (LForget i) tr.

(** the [SyncHistogram] is still there *)
Definition reader_alive (st : state) : Prop := s_reader st <> RPanicked /\ s_reader st <> RGone.

(** a recorder that is neither idle nor dropped (nor about to be) *)
Definition is_active (r : recorder) : bool :=
  match r_pc r with
  | PReady | PWrote | PLoaded _ | PWaking => true
  | PIdling | PIdlingLoaded _ | PIdle | PDropping | PGone => false
  end.

(** the samples a call adds to the local histogram, for the calls that only add samples *)
Definition call_samples (c : call) : list (Z * Z) :=
  if c_ok c then
    match c_op c with
    | ORecord v n => [(v, n)]
    | OCorrect v n i => (v, n) :: map (fun w => (w, n)) (missing_values v i)
    | OAdd s => held s
    | _ => []
    end
  else [].
Definition samples (l : list call) : list (Z * Z) := flat_map call_samples l.
Definition only_adds_samples (tr : list label) : Prop :=
  forall i o, In (LWrite i o) tr ->
    match o with
    | ORecord _ _ | OCorrect _ _ _ => True
    | OAdd s => len_agrees s
    | _ => False
    end.

(** [h] holds exactly the samples [l], in addition to those of [base]; values are told apart as in
    [base] *)
Definition holds_over (base h : hist) (l : list (Z * Z)) : Prop :=
  (forall v, is_u64 v -> weight_at base v (held h) = weight_at base v (held base) + weight_at base v l) /\
  len h = len base + weight l.
Definition holds (base h : hist) (l : list (Z * Z)) : Prop :=
  (forall v, is_u64 v -> weight_at base v (held h) = weight_at base v l) /\ len h = weight l.

(** no merge can fail: the histogram resizes itself, or has no bin for [u64::MAX] *)
Definition merge_safe (h0 : hist) : Prop := is_auto_resize h0 = true \/ ~ covers h0 u64_max.

(** the steps of one call of [refresh] (or [refresh_timeout]) *)
Definition refresh_step (l : label) : Prop :=
  match l with RRecv | REmpty | RRead | RShift | RTimeout | RDone => True | _ => False end.
(** steps that can happen while such a call is running: its own and those of the recorders *)
Definition in_call (l : label) : Prop :=
  match l with RStart _ | RRecorder | RSet _ | RDrop => False | _ => True end.
(** every recorder has been dropped *)
Definition all_dropped (st : state) : Prop := forall r, In r (s_recs st) -> r_pc r = PGone.
(** every recorder has been dropped or is idle *)
Definition all_quiet (st : state) : Prop := forall r, In r (s_recs st) -> r_pc r = PGone \/ r_pc r = PIdle.

(** how many recorders are in use *)
Definition active_recorders (st : state) : Z := Z.of_nat (length (filter is_active (s_recs st))).
(** a recorder whose thread is between [lock] and the end of the guard *)
Definition in_section (r : recorder) : bool :=
  match r_pc r with PIdling | PIdlingLoaded _ | PWaking | PDropping => true | _ => false end.
(** the next step of such a thread *)
Definition section_step (i : nat) (l : label) : Prop :=
  l = LIdleLoad i \/ l = LIdleEnd i \/ l = LWakeEnd i \/ l = LDropEnd i.

(** what recorder [r] is doing while the current phase is [ph]: it has seen the phase, and so has nothing
    to send.  Between two calls of [refresh] this holds of every recorder but a clone of a stale one. *)
Definition seen (ph : Z) (r : recorder) : Prop :=
  match r_pc r with
  | PReady | PWrote | PIdling => r_phase r = ph
  | PLoaded q | PIdlingLoaded q => r_phase r = ph /\ q = ph
  | PIdle | PGone | PWaking | PDropping => True
  end.
Definition synced (st : state) : Prop := forall r, In r (s_recs st) -> seen (s_phase st) r.
(** the recorder can be written to: not idle, not dropped, nor about to be *)
Definition recording (r : recorder) : Prop :=
  match r_pc r with PReady | PWrote | PLoaded _ => True | _ => False end.

(** [P] holds of every step of the run [tr] from [st] *)
Fixpoint along (P : state -> label -> Prop) (st : state) (tr : list label) : Prop :=
  match tr with
  | [] => True
  | l :: tr' => P st l /\ match step st l with Some st' => along P st' tr' | None => True end
  end.
(** The reader has read the number of recorders and not yet moved the phase *)
Definition in_window (st : state) : Prop := exists t n, s_reader st = RBump t n.
(** Steps that do not disturb a [refresh] in progress: it does not time out, no recorder is dropped and
    none becomes idle or wakes up between the reader's lines 316 and 319, and only active recorders are
    cloned, before line 316. *)
Definition smooth (st : state) (l : label) : Prop :=
  match l with
  | LForget _ | LDrop _ | LDropEnd _ | RTimeout => False
  | LIdle _ | LWake _ => ~ in_window st
  | LClone i => ((exists t, s_reader st = RDrain t) \/ (exists t, s_reader st = RCount t)) /\
                (forall r, nth_error (s_recs st) i = Some r -> r_pc r <> PIdle)
  | _ => True
  end.
(** No recorder on its way to idle loads the phase between the reader's lines 316 and 319 *)
Definition idles_outside (st : state) (l : label) : Prop :=
  match l with LIdleLoad _ => ~ in_window st | _ => True end.

(** how often the phase has moved *)
Definition shifts (tr : list label) : Z :=
  Z.of_nat (length (filter (fun l => match l with RShift => true | _ => false end) tr)).
(** recorder [r] has still to send its histogram for the phase [ph]: it is active and has not seen it, or
    it is about to send on its way to idle, or when dropped *)
Definition owes (ph : Z) (r : recorder) : bool :=
  match r_pc r with
  | PReady | PWrote | PLoaded _ | PIdling => negb (r_phase r =? ph)
  | PIdlingLoaded q => negb (q =? r_phase r)
  | PDropping => true
  | _ => false
  end.
