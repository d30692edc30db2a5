(** * The concurrent histogram in builds without overflow checks, on targets with a usize of 32 to 64 bits

    [ReleaseSyncModel] and [WidthSyncModel] at once (src/sync/mod.rs, the release profile, say for a 32-bit
    target): [phase] and the number of recorders have [B] bits, and both wrap around. *)
From Verif Require Import Machine HistModel SyncModel WeakModel ReleaseSyncModel WidthSyncModel.

(** One atomic action of src/sync/mod.rs:43-417.  As in [ReleaseSyncModel] an action that counts, 48, 124, 377 and
    64, 193, is that of a checked build with a number that does not overflow, and then the right one. *)
Definition mstep (B : Z) (w : wstate) (a : label * Z) : option wstate :=
  if counts (fst a) =? 0 then nstep B w a
  else match nstep B (at_count w 1) a with
       | Some w' => Some (at_count w' ((s_count (w_st w) + counts (fst a)) mod 2 ^ B))
       | None => None
       end.

(** a whole run; src/sync/mod.rs *)
Fixpoint mexec (B : Z) (w : wstate) (tr : list (label * Z)) : option wstate :=
  match tr with
  | [] => Some w
  | a :: tr' => match mstep B w a with Some w' => mexec B w' tr' | None => None end
  end.
