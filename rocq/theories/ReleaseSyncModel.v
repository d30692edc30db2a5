(** * The concurrent histogram in builds without overflow checks (src/sync/mod.rs, the release profile)

    The only arithmetic of src/sync/mod.rs that can overflow is that on the number of recorders, [+= 1] at 48,
    124 and 377 and [-= 1] at 64 and 193 (the phase is moved by [fetch_add], which wraps around in every build,
    319; [phased += 1] at 342 stays below the number it is compared with).  [WeakModel] has it as a checked build
    does: an overflow is a panic of the thread that holds the mutex, which is poisoned from then on.  Here the
    number wraps around, and nothing is poisoned.  Everything else is [WeakModel]. *)
From Verif Require Import Machine HistModel SyncModel WeakModel.

(** the state with another number of recorders; src/sync/mod.rs:83 *)
Definition at_count (w : wstate) (c : Z) : wstate :=
  WState (put_lock (w_st w) (s_lock (w_st w)) c) (w_now w) (w_views w) (w_lock w).

(** what an action adds to the number of recorders; src/sync/mod.rs:48, 124, 377 and 64, 193 *)
Definition counts (l : label) : Z :=
  match l with
  | LClone _ | LWake _ | RRecorder => 1
  | LIdle _ | LDrop _ => -1
  | _ => 0
  end.

(** One atomic action of src/sync/mod.rs:43-417.  The five actions that count do not use the number otherwise,
    so each is that of [WeakModel] with a number that does not overflow, and then the right one. *)
Definition rstep (w : wstate) (a : label * Z) : option wstate :=
  if counts (fst a) =? 0 then wstep w a
  else match wstep (at_count w 1) a with
       | Some w' => Some (at_count w' ((s_count (w_st w) + counts (fst a)) mod (usize_max + 1)))
       | None => None
       end.

(** a whole run; src/sync/mod.rs *)
Fixpoint rexec (w : wstate) (tr : list (label * Z)) : option wstate :=
  match tr with
  | [] => Some w
  | a :: tr' => match rstep w a with Some w' => rexec w' tr' | None => None end
  end.
