(** * Vocabulary of the statements about the concurrent histogram under release/acquire memory *)
From Verif Require Import Machine HistModel Spec Reach SyncModel SyncSpec WeakModel.

(** the actions of a run, without the numbers of the values that were loaded *)
Definition acts (tr : list (label * Z)) : list label := map fst tr.

(** [w] is a state some execution reaches: [SyncHistogram::from(h0)], then the actions [tr] *)
Definition wrun (h0 : hist) (tr : list (label * Z)) (w : wstate) : Prop :=
  reachable h0 /\ Forall (label_ok (h_ctr h0)) (acts tr) /\ wexec (winit h0) tr = Some w.

(** actions that load the phase *)
Definition is_load (l : label) : Prop :=
  match l with LLoad _ | LIdleLoad _ | LWakeEnd _ => True | _ => False end.
(** if it loads the phase, it sees the latest value *)
Definition up_to_date (w : wstate) (a : label * Z) : Prop := is_load (fst a) -> snd a = w_now w.
(** the same, only for recorders on their way to idle or waking up *)
Definition quiet_up_to_date (w : wstate) (a : label * Z) : Prop :=
  match fst a with LIdleLoad _ | LWakeEnd _ => snd a = w_now w | _ => True end.

(** [P] holds of every step of the run [tr] from [w] *)
Fixpoint walong (P : wstate -> label * Z -> Prop) (w : wstate) (tr : list (label * Z)) : Prop :=
  match tr with
  | [] => True
  | a :: tr' => P w a /\ match wstep w a with Some w' => walong P w' tr' | None => True end
  end.

(** [smooth] (SyncSpec), and recorders that become idle or wake up see the latest phase; those that record
    need not *)
Definition wsmooth (w : wstate) (a : label * Z) : Prop := smooth (w_st w) (fst a) /\ quiet_up_to_date w a.
(** [idles_outside] (SyncSpec), and recorders that become idle while the reader waits see the latest phase *)
Definition widles_outside (w : wstate) (a : label * Z) : Prop :=
  idles_outside (w_st w) (fst a) /\
  match fst a with LIdleLoad _ => (exists t n k, s_reader (w_st w) = RWait t n k) -> snd a = w_now w | _ => True end.
