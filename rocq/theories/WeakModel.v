(** * The concurrent histogram with the memory orderings of the code (src/sync/mod.rs)

    [SyncModel] takes the shared memory to be sequentially consistent: a load of [phase] returns its
    latest value.  The code asks for less: [phase] is loaded with [Ordering::Acquire] (src/sync/mod.rs:134,
    169, 196, 384) and moved with [Ordering::AcqRel] (319).  With these orderings a load may return any
    older value, unless the thread already knows a newer one: because it has read it (coherence), or
    because whoever moved the phase afterwards released the mutex and the thread has acquired it since, or
    because the recorder was made or cloned by a thread that knew it.

    [wstep] is [step] with such loads.  The values of [phase] are numbered in the order in which they were
    written: number [k] is [k] modulo 2^64.  A view is a lower bound for what a load may return: each
    recorder has one (that of whatever thread owns it), and the mutex has one (that of its last owner).  A
    label comes with a number, the number of the value the load returns; it means nothing for labels that
    load nothing.

    What else a program does to order its threads can only raise the views, so every execution of the
    real code is among those of this model.

    Simplified:
    - the mutex and the channel are those of [SyncModel]: operations on each of them happen one after the
      other, and a message that has been sent is seen by the next receive;
    - only one thread at a time has the [SyncHistogram], and it is the only one that moves the phase, so
      it always knows the latest value (it is in its own program order, or was passed on with the
      [SyncHistogram]). *)
From Verif Require Import Machine HistModel SyncModel.

(** [Shared], [SyncHistogram] and the recorders (src/sync/mod.rs:30-34, 87-91, 296-300) with the ghost
    state of the memory model: how often the phase has moved, the views of the recorders and that of the
    mutex *)
Record wstate : Type := WState {
  w_st : state;
  w_now : Z;
  w_views : list Z;
  w_lock : Z }.

(** the value number [k] of [phase]: it starts at 0 and [fetch_add] wraps around; src/sync/mod.rs:319, 394 *)
Definition phase_at (k : Z) : Z := k mod (usize_max + 1).
(** the state as it looks to a thread that loads the value [p]; src/sync/mod.rs:134, 169, 196 *)
Definition with_phase (st : state) (p : Z) : state :=
  State (s_merged st) (s_chan st) (s_lock st) (s_count st) p (s_recs st) (s_reader st) (s_history st).

(** the view of recorder [i] (ghost; src/sync/mod.rs:30-34) *)
Definition view (vs : list Z) (i : nat) : Z := nth i vs 0.
(** replace it (ghost; src/sync/mod.rs:30-34) *)
Fixpoint put_view (vs : list Z) (i : nat) (v : Z) : list Z :=
  match vs, i with
  | [], _ => []
  | _ :: vs', O => v :: vs'
  | x :: vs', S i' => x :: put_view vs' i' v
  end.
(** a view for a new recorder, if there is one (ghost; src/sync/mod.rs:44-57, 373-386) *)
Definition add_view (vs : list Z) (n : nat) (v : Z) : list Z :=
  if (length vs <? n)%nat then vs ++ [v] else vs.

(** One atomic action of src/sync/mod.rs:43-417; [k] is the number of the value a load returns. *)
Definition wstep (w : wstate) (a : label * Z) : option wstate :=
  let '(l, k) := a in
  let st := w_st w in
  let vs := w_views w in
  match l with
  (* [phase.load(Acquire)], 169, 196 and 134; the last one is followed by the release of the mutex *)
  | LLoad i | LIdleLoad i | LWakeEnd i =>
      if (view vs i <=? k) && (k <=? w_now w) then
        match step (with_phase st (phase_at k)) l with
        | Some st' =>
            Some (WState (with_phase st' (s_phase st)) (w_now w) (put_view vs i k)
                    (match l with LWakeEnd _ => k | _ => w_lock w end))
        | None => None
        end
      else None
  | _ =>
      match step st l with
      | None => None
      | Some st' =>
          Some (match l with
          (* acquire the mutex: 192, 123, 63 *)
          | LIdle i | LWake i | LDrop i =>
              WState st' (w_now w) (put_view vs i (Z.max (view vs i) (w_lock w))) (w_lock w)
          (* release it: 204, 77 *)
          | LIdleEnd i | LDropEnd i => WState st' (w_now w) vs (view vs i)
          (* acquire and release it, and make a recorder: 47-56 *)
          | LClone i =>
              let v := Z.max (view vs i) (w_lock w) in
              WState st' (w_now w) (add_view (put_view vs i v) (length (s_recs st')) v) v
          (* the reader does: 316, 376-385 *)
          | RRead => WState st' (w_now w) vs (w_now w)
          | RRecorder => WState st' (w_now w) (add_view vs (length (s_recs st')) (w_now w)) (w_now w)
          (* [fetch_add], 319 *)
          | RShift => WState st' (w_now w + 1) vs (w_lock w)
          | _ => WState st' (w_now w) vs (w_lock w)
          end)
      end
  end.

(** a whole run; src/sync/mod.rs *)
Fixpoint wexec (w : wstate) (tr : list (label * Z)) : option wstate :=
  match tr with
  | [] => Some w
  | a :: tr' => match wstep w a with Some w' => wexec w' tr' | None => None end
  end.

(** [From<Histogram>], src/sync/mod.rs:389-402 *)
Definition winit (h : hist) : wstate := WState (init h) 0 [] 0.
