(** * Vocabulary of the statements about what one call of [refresh] can miss *)
From Verif Require Import Machine HistModel Spec Reach SyncModel SyncSpec.

(** how many histograms recorder [r] is going to send although the phase does not move from [ph] any more
    and it is not dropped: it has not seen the phase [ph] yet.  Twice, if it is in the middle of a call in
    which it has read a phase it did not know, and that is not the current one any more. *)
Definition owed (ph : Z) (r : recorder) : Z :=
  match r_pc r with
  | PReady | PWrote | PIdling => if r_phase r =? ph then 0 else 1
  | PLoaded q => (if q =? r_phase r then 0 else 1) + (if q =? ph then 0 else 1)
  | PIdlingLoaded q => if q =? r_phase r then 0 else 1
  | _ => 0
  end.
(** all of them together *)
Definition all_owed (st : state) : Z := fold_right Z.add 0 (map (owed (s_phase st)) (s_recs st)).

(** the phase recorder [i] knows is the current one *)
Definition up_to_date (st : state) (i : nat) : bool :=
  match nth_error (s_recs st) i with Some r => r_phase r =? s_phase st | None => true end.

(** How much a step disturbs a [refresh] in progress:
    - a recorder that does not know the current phase is cloned (at any moment);
    - a drop is completed between the reader's emptying of the channel and its reading of the number;
    - a recorder is cloned or wakes up between the reading of the number and the moving of the phase (a
      clone of one that does not know the current phase counts twice);
    - a recorder that has already seen the new phase is dropped while the reader waits. *)
Definition disturbance (st : state) (l : label) : Z :=
  match s_reader st, l with
  | RCount _, LDropEnd _ => 1
  | RBump _ _, LClone i => if up_to_date st i then 1 else 2
  | RBump _ _, LWakeEnd _ => 1
  | RWait _ _ _, LDrop i => if up_to_date st i then 1 else 0
  | _, LClone i => if up_to_date st i then 0 else 1
  | _, _ => 0
  end.
Fixpoint disturbances (st : state) (tr : list label) : Z :=
  match tr with
  | [] => 0
  | l :: tr' => disturbance st l + match step st l with Some st' => disturbances st' tr' | None => 0 end
  end.

(** Recorder [i] could be written to when [refresh] was called in [st1], has not started to become idle
    during the steps [tr], and some call made on it before is not in the merged histogram of [st2]. *)
Definition missed (st1 : state) (tr : list label) (st2 : state) (i : nat) : Prop :=
  (exists r, nth_error (s_recs st1) i = Some r /\ recording r) /\ ~ In (LIdle i) tr /\
  (exists c, In c (s_history st1) /\ c_rec c = i /\ ~ In c (b_log (s_merged st2))).

(** how often a recorder on its way to idle loads the phase between the reader's reading of the number of
    recorders and its moving of the phase *)
Fixpoint slips (st : state) (tr : list label) : Z :=
  match tr with
  | [] => 0
  | l :: tr' => (match s_reader st, l with RBump _ _, LIdleLoad _ => 1 | _, _ => 0 end) +
                match step st l with Some st' => slips st' tr' | None => 0 end
  end.
(** how many recorders still have to send their histogram for the current phase *)
Definition owing (st : state) : Z := Z.of_nat (length (filter (owes (s_phase st)) (s_recs st))).
