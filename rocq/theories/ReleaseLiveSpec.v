(** * Vocabulary of the statements about unbounded executions in builds without overflow checks *)
From Verif Require Import Machine HistModel Reach SyncModel SyncSpec WeakModel WeakSpec ReleaseSyncModel.

(** [wcontinues] (WeakLiveSpec) in a build without overflow checks *)
Definition rcontinues (h0 : hist) (w : nat -> wstate) (a : nat -> option (label * Z)) : Prop :=
  forall k, match a k with
            | Some x => label_ok (h_ctr h0) (fst x) /\ rstep (w k) x = Some (w (Datatypes.S k))
            | None => w (Datatypes.S k) = w k
            end.

(** The execution that follows a finite schedule [tr] from [w], after which nothing happens any more. *)
Definition rsettle (w : wstate) (tr : list (label * Z)) (k : nat) : wstate :=
  match rexec w (firstn k tr) with Some w' => w' | None => w end.
