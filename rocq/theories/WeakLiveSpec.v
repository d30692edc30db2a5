(** * Vocabulary of the statements about unbounded executions under release/acquire memory *)
From Verif Require Import Machine HistModel Reach SyncModel SyncSpec LiveSpec WeakModel WeakSpec.

(** [continues] (LiveSpec) with outdated loads: at each moment one action, which may load the value with
    the number that comes with it, or nothing. *)
Definition wcontinues (h0 : hist) (w : nat -> wstate) (a : nat -> option (label * Z)) : Prop :=
  forall k, match a k with
            | Some x => label_ok (h_ctr h0) (fst x) /\ wstep (w k) x = Some (w (Datatypes.S k))
            | None => w (Datatypes.S k) = w k
            end.
(** the states and the actions as [LiveSpec] talks about them *)
Definition states (w : nat -> wstate) (k : nat) : state := w_st (w k).
Definition actions (a : nat -> option (label * Z)) (k : nat) : option label := option_map fst (a k).

(** [reader_goes_on] (LiveSpec) with outdated loads: the reader takes a step of [refresh] now or later, or is stuck
    for good from some later moment on; [next] is the step function of the model at hand. *)
Definition wreader_goes_on (next : wstate -> label * Z -> option wstate) (w : nat -> wstate) (a : nat -> option (label * Z)) : Prop :=
  forall k, exists k', (k <= k')%nat /\
    ((exists l n, a k' = Some (l, n) /\ refresh_step l) \/
     (forall j l n, (k' <= j)%nat -> refresh_step l -> next (w j) (l, n) = None)).

(** Every move of the phase becomes visible some time: for every moment there is a later one after which all
    loads return what was the latest value then, or a newer one. *)
Definition becomes_visible (w : nat -> wstate) (a : nat -> option (label * Z)) : Prop :=
  forall k, exists K, forall j l n, (K <= j)%nat -> a j = Some (l, n) -> is_load l -> w_now (w k) <= n.

(** [widles_outside] (WeakSpec) for the whole execution *)
Definition widles_outside_ever (w : nat -> wstate) (a : nat -> option (label * Z)) : Prop :=
  forall k x, a k = Some x -> widles_outside (w k) x.

(** The execution that follows a finite schedule [tr] from [w], after which nothing happens any more. *)
Definition wsettle (w : wstate) (tr : list (label * Z)) (k : nat) : wstate :=
  match wexec w (firstn k tr) with Some w' => w' | None => w end.
