(** * Vocabulary of the statements about delivery in unbounded executions under release/acquire memory *)
From Verif Require Import Machine HistModel Spec Reach SyncModel SyncSpec LiveSpec EventSpec WeakModel WeakSpec WeakLiveSpec.

(** at moment [j] recorder [i] reads the phase, in a call or on its way to idle, and gets value number [n] *)
Definition reads (a : nat -> option (label * Z)) (i j : nat) (n : Z) : Prop :=
  exists l, a j = Some (l, n) /\ looks i l.
(** from moment [k0] on, what recorder [i] reads never moves on by more than [usize::MAX] values at once *)
Definition wlooks_in_time (a : nat -> option (label * Z)) (i k0 : nat) : Prop :=
  forall j1 n1 j2 n2, (k0 <= j1 < j2)%nat -> reads a i j1 n1 -> reads a i j2 n2 ->
    (forall j n, (j1 < j < j2)%nat -> ~ reads a i j n) -> n2 - n1 <= usize_max.
