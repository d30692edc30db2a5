(** * The concurrent histogram on targets with a usize of 32 to 64 bits (src/sync/mod.rs)

    [WeakModel] is about a 64-bit target.  src/sync/mod.rs uses [usize] for two numbers: [phase], which
    [fetch_add] wraps around (319), and [recorders], whose overflow is a panic of the thread that holds the
    mutex (48, 124, 377; [-= 1] at 64 and 193 does not depend on the width).  Here both have [B] bits.
    Everything else is [WeakModel].

    Simplified: the operations on the histograms are those of a 64-bit target; with 32 bits or more they give
    the same results (C80). *)
From Verif Require Import Machine HistModel SyncModel WeakModel ReleaseSyncModel.

(** value number [k] of [phase]; src/sync/mod.rs:319, 394 *)
Definition phase_b (B k : Z) : Z := k mod 2 ^ B.
(** the state with another value of [phase]; src/sync/mod.rs:90 *)
Definition at_phase (w : wstate) (p : Z) : wstate :=
  WState (with_phase (w_st w) p) (w_now w) (w_views w) (w_lock w).
(** the action adds 1 to a number of recorders that is [usize::MAX]; src/sync/mod.rs:48, 124, 377 *)
Definition overflows (B : Z) (w : wstate) (l : label) : bool :=
  (counts l =? 1) && (s_count (w_st w) =? 2 ^ B - 1).

(** One atomic action of src/sync/mod.rs:43-417; [k] is the number of the value a load returns. *)
Definition nstep (B : Z) (w : wstate) (a : label * Z) : option wstate :=
  let '(l, k) := a in
  match l with
  (* [phase.load(Acquire)], 169, 196 and 134, as in [WeakModel] *)
  | LLoad i | LIdleLoad i | LWakeEnd i =>
      if (view (w_views w) i <=? k) && (k <=? w_now w) then
        match step (with_phase (w_st w) (phase_b B k)) l with
        | Some st' =>
            Some (WState (with_phase st' (s_phase (w_st w))) (w_now w) (put_view (w_views w) i k)
                    (match l with LWakeEnd _ => k | _ => w_lock w end))
        | None => None
        end
      else None
  | _ =>
      (* [recorders += 1] overflows, 48, 124, 377: what [WeakModel] does where a 64-bit number overflows *)
      if overflows B w l then
        match wstep (at_count w usize_max) a with
        | Some w' => Some (at_count w' (s_count (w_st w)))
        | None => None
        end
      (* everything else; [fetch_add] wraps around, 319 *)
      else
        match wstep w a with
        | Some w' => Some (at_phase w' (phase_b B (s_phase (w_st w'))))
        | None => None
        end
  end.

(** a whole run; src/sync/mod.rs *)
Fixpoint nexec (B : Z) (w : wstate) (tr : list (label * Z)) : option wstate :=
  match tr with
  | [] => Some w
  | a :: tr' => match nstep B w a with Some w' => nexec B w' tr' | None => None end
  end.
