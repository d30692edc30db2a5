(** * Vocabulary of the statements about delivery with a usize of another width *)
From Verif Require Import Machine HistModel Reach SyncModel SyncSpec LiveSpec EventSpec WeakModel WeakSpec WeakLiveSpec WeakEventSpec WidthSyncModel WidthSyncSpec.

(** [wcontinues] (WeakLiveSpec) with a usize of [B] bits *)
Definition ncontinues (B : Z) (h0 : hist) (w : nat -> wstate) (a : nat -> option (label * Z)) : Prop :=
  forall k, match a k with
            | Some x => label_ok (h_ctr h0) (fst x) /\ nstep B (w k) x = Some (w (Datatypes.S k))
            | None => w (Datatypes.S k) = w k
            end.
(** from moment [k0] on, what recorder [i] reads never moves on by 2^B values or more at once *)
Definition nlooks_in_time (B : Z) (a : nat -> option (label * Z)) (i k0 : nat) : Prop :=
  forall j1 n1 j2 n2, (k0 <= j1 < j2)%nat -> reads a i j1 n1 -> reads a i j2 n2 ->
    (forall j n, (j1 < j < j2)%nat -> ~ reads a i j n) -> n2 - n1 <= 2 ^ B - 1.
