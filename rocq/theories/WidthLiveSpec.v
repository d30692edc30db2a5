(** * Vocabulary of the examples about unbounded executions with a usize of another width *)
From Verif Require Import Machine HistModel SyncModel WeakModel WidthSyncModel.

(** The execution that follows a finite schedule [tr] from [w], after which nothing happens any more. *)
Definition nsettle (B : Z) (w : wstate) (tr : list (label * Z)) (k : nat) : wstate :=
  match nexec B w (firstn k tr) with Some w' => w' | None => w end.
