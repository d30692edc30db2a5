(** * Vocabulary of the statements about builds without overflow checks and a usize of another width *)
From Verif Require Import Machine HistModel Spec Reach SyncModel SyncSpec WeakModel WeakSpec WidthReleaseModel.

(** [w] is a state some execution with a usize of [B] bits reaches: [SyncHistogram::from(h0)], then the actions [tr] *)
Definition mrun (B : Z) (h0 : hist) (tr : list (label * Z)) (w : wstate) : Prop :=
  32 <= B <= 64 /\ reachable h0 /\ Forall (label_ok (h_ctr h0)) (acts tr) /\ mexec B (winit h0) tr = Some w.

(** [wcontinues] (WeakLiveSpec) in such a build *)
Definition mcontinues (B : Z) (h0 : hist) (w : nat -> wstate) (a : nat -> option (label * Z)) : Prop :=
  forall k, match a k with
            | Some x => label_ok (h_ctr h0) (fst x) /\ mstep B (w k) x = Some (w (Datatypes.S k))
            | None => w (Datatypes.S k) = w k
            end.

(** The execution that follows a finite schedule [tr] from [w], after which nothing happens any more. *)
Definition msettle (B : Z) (w : wstate) (tr : list (label * Z)) (k : nat) : wstate :=
  match mexec B w (firstn k tr) with Some w' => w' | None => w end.
