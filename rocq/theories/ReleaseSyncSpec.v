(** * Vocabulary of the statements about the concurrent histogram in builds without overflow checks *)
From Verif Require Import Machine HistModel Spec Reach SyncModel SyncSpec WeakModel WeakSpec ReleaseSyncModel.

(** [w] is a state some execution reaches: [SyncHistogram::from(h0)], then the actions [tr] *)
Definition rrun (h0 : hist) (tr : list (label * Z)) (w : wstate) : Prop :=
  reachable h0 /\ Forall (label_ok (h_ctr h0)) (acts tr) /\ rexec (winit h0) tr = Some w.

(** how many guards of idle recorders have been forgotten *)
Definition forgotten (tr : list label) : Z :=
  Z.of_nat (length (filter (fun l => match l with LForget _ => true | _ => false end) tr)).
