(** * Vocabulary of the statements about delivery in unbounded executions of the concurrent histogram *)
From Verif Require Import Machine HistModel Spec Reach SyncModel SyncSpec LiveSpec.

(** recorder [i] reads the phase: in a call, or on its way to idle *)
Definition looks (i : nat) (l : label) : Prop := l = LLoad i \/ l = LIdleLoad i.

(** what happens in the [n] moments from moment [k] on *)
Fixpoint happened (a : nat -> option label) (k n : nat) : list label :=
  match n with
  | O => []
  | Datatypes.S m => match a k with Some l => l :: happened a (Datatypes.S k) m | None => happened a (Datatypes.S k) m end
  end.

(** recorder [i] begins a new call again and again *)
Definition keeps_recording (a : nat -> option label) (i : nat) : Prop :=
  forall k, exists k' o, (k <= k')%nat /\ a k' = Some (LWrite i o).
(** recorder [i] wakes up from idle only finitely often *)
Definition wakes_end (a : nat -> option label) (i : nat) : Prop :=
  exists K, forall k, (K <= k)%nat -> a k <> Some (LWakeEnd i).
(** the reader calls [refresh] or [refresh_timeout] again and again *)
Definition keeps_refreshing (a : nat -> option label) : Prop :=
  forall k, exists k' t, (k <= k')%nat /\ a k' = Some (RStart t).
(** from moment [k0] on the phase never moves [usize::MAX + 1] times without recorder [i] reading it *)
Definition looks_in_time (a : nat -> option label) (i k0 : nat) : Prop :=
  forall k n, (k0 <= k)%nat -> (forall j l, (k <= j < k + n)%nat -> a j = Some l -> ~ looks i l) ->
    shifts (happened a k n) <= usize_max.
(** the program never writes to the merged histogram itself *)
Definition never_set (a : nat -> option label) : Prop := forall k h, a k <> Some (RSet h).

(** whenever no call of [refresh] is running the reader calls [refresh_timeout] now or later; it never calls
    [refresh] and never drops the [SyncHistogram] *)
Definition refreshes_with_timeout (s : nat -> state) (a : nat -> option label) : Prop :=
  (forall k, s_reader (s k) = RReady -> exists k', (k <= k')%nat /\ a k' = Some (RStart true)) /\
  (forall k, a k <> Some (RStart false) /\ a k <> Some RDrop).

(** a whole [refresh_timeout] that finds nothing and gives up at once *)
Definition idle_refresh : list label := [RStart true; REmpty; RRead; RShift; RTimeout; REmpty].
(** one call of [o] on recorder 0 *)
Definition one_call (o : op) : list label := [LWrite 0 o; LLoad 0; LFinish 0].
