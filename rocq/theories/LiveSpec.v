(** * Vocabulary of the statements about unbounded executions of the concurrent histogram *)
From Verif Require Import Machine HistModel Spec Reach SyncModel SyncSpec.

(** An execution without end: [s k] is the state after [k] moments, [a k] what happens at moment [k] -
    one atomic action of some thread, or nothing at all.  So programs that come to an end are covered
    as well: nothing happens any more. *)
Definition continues (h0 : hist) (s : nat -> state) (a : nat -> option label) : Prop :=
  forall k, match a k with
            | Some l => label_ok (h_ctr h0) l /\ step (s k) l = Some (s (Datatypes.S k))
            | None => s (Datatypes.S k) = s k
            end.

(** the reader is inside [refresh] or [refresh_timeout] *)
Definition in_refresh (st : state) : Prop :=
  match s_reader st with RDrain _ | RCount _ | RBump _ _ | RWait _ _ _ | RDrain2 => True | _ => False end.
(** inside [refresh_timeout], as far as that still makes a difference *)
Definition in_timed_refresh (st : state) : Prop :=
  match s_reader st with
  | RDrain t | RCount t | RBump t _ | RWait t _ _ => t = true
  | RDrain2 => True
  | _ => False
  end.

(** action [l] is a step of the thread that owns recorder [i]: recording, becoming idle, waking up or
    dropping (not cloning) *)
Definition moves (i : nat) (l : label) : Prop :=
  match l with
  | LWrite j _ | LLoad j | LFinish j | LIdle j | LIdleLoad j | LIdleEnd j | LWake j | LWakeEnd j
  | LDrop j | LDropEnd j => j = i
  | _ => False
  end.

(** Every recorder is used again and again: at every moment it is idle or dropped (or not made yet) now or
    later, or takes a step now or later. *)
Definition recorders_go_on (s : nat -> state) (a : nat -> option label) : Prop :=
  forall i k, exists k', (k <= k')%nat /\
    ((exists l, a k' = Some l /\ moves i l) \/
     (forall r, nth_error (s_recs (s k')) i = Some r -> r_pc r = PIdle \/ r_pc r = PGone)).
(** Much weaker: a thread that holds the mutex takes another step some time. *)
Definition sections_go_on (s : nat -> state) (a : nat -> option label) : Prop :=
  forall i k r, nth_error (s_recs (s k)) i = Some r -> in_section r = true ->
    exists k' l, (k <= k')%nat /\ a k' = Some l /\ moves i l.
(** The reader is not starved: at every moment it takes a step of [refresh] now or later, or is stuck from
    some later moment on for good. *)
Definition reader_goes_on (s : nat -> state) (a : nat -> option label) : Prop :=
  forall k, exists k', (k <= k')%nat /\
    ((exists l, a k' = Some l /\ refresh_step l) \/
     (forall j l, (k' <= j)%nat -> refresh_step l -> step (s j) l = None)).

(** recorders are cloned only finitely often *)
Definition clones_end (a : nat -> option label) : Prop :=
  exists K, forall k i, (K <= k)%nat -> a k <> Some (LClone i).
(** there are never [usize::MAX] recorders in use at the same time *)
Definition few_recorders (s : nat -> state) : Prop := forall k, active_recorders (s k) < usize_max.
(** [guards_dropped] and [idles_outside] (SyncSpec) for the whole execution *)
Definition no_leak (a : nat -> option label) : Prop := forall k i, a k <> Some (LForget i).
Definition idles_outside_ever (s : nat -> state) (a : nat -> option label) : Prop :=
  forall k l, a k = Some l -> idles_outside (s k) l.

(** The execution that follows a finite schedule [tr] from [st], after which nothing happens any more;
    what happens at moment [k] is [nth_error tr k]. *)
Definition settle (st : state) (tr : list label) (k : nat) : state :=
  match exec st (firstn k tr) with Some st' => st' | None => st end.

(** steps of other threads than the owner of recorder [i] *)
Definition others (i : nat) (l : label) : Prop := ~ moves i l /\ l <> LForget i.

(** One call of [o] on recorder 0, which then goes idle; a whole [refresh]; the recorder wakes up. *)
Definition nap (o : op) : list label :=
  [LWrite 0 o; LLoad 0; LFinish 0; LIdle 0; LIdleLoad 0; LIdleEnd 0;
   RStart false; REmpty; RRead; RShift; RDone; REmpty; LWake 0; LWakeEnd 0].
