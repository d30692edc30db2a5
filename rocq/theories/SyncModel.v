(** * The concurrent histogram: [Recorder], [IdleRecorder] and [SyncHistogram] (src/sync/mod.rs)

    A labelled transition system.  [step st l] runs one atomic action; [exec] runs a list of them, so a
    statement about every list of labels is a statement about every interleaving of any number of
    recorders with the reader.

    Granularity: one access to shared memory (the mutex-protected count, the atomic [phase], the
    channel) per step.  Local computation is merged into the neighbouring step of the same thread.  A
    critical section with a single shared access is one step, enabled when the mutex is free; one with
    more accesses acquires the mutex in its first step and releases it in its last.

    Simplified:
    - memory is sequentially consistent (the code uses [Acquire] / [AcqRel] on [phase], a mutex and a
      channel); [WeakModel] is this model without that assumption;
    - the crossbeam unbounded channel is a FIFO queue with atomic [send], [try_recv] and [recv];
    - time is not modelled: a refresh with a time limit may give up at any moment while it waits;
    - a closure that panics inside [with_hist] has no step (the calls that are modelled never panic on
      histograms a program can build). *)
From Verif Require Import Machine HistModel IterModel.

(** What a thread can run on the local histogram through a [Recorder]: [record], [record_n],
    [saturating_record(_n)], [record_(n_)correct], [add], [subtract], [add_correct],
    src/sync/mod.rs:232-287.  [record v] is [record_n v 1], as in src/lib.rs:849-851; [+= v]
    (src/sync/mod.rs:37-41) is [record] followed, if it fails, by a panic. *)
Inductive op : Type :=
| ORecord (v n : Z)
| OSaturating (v n : Z)
| OCorrect (v n interval : Z)
| OAdd (source : hist)
| OSubtract (subtrahend : hist)
| OAddCorrect (source : hist) (interval : Z).

(** the call itself, and whether it returned [Ok]; src/sync/mod.rs:232-287 *)
Definition apply_op (h : hist) (o : op) : res (hist * bool) :=
  match o with
  | ORecord v n => '(h', r) <- record_n h v n ;; Ret (h', match r with ROk _ => true | RErr _ => false end)
  | OSaturating v n => h' <- saturating_record_n h v n ;; Ret (h', true)
  | OCorrect v n i => '(h', r) <- record_n_correct h v n i ;; Ret (h', match r with ROk _ => true | RErr _ => false end)
  | OAdd s => '(h', r) <- add h s ;; Ret (h', match r with ROk _ => true | RErr _ => false end)
  | OSubtract s => '(h', r) <- subtract h s ;; Ret (h', match r with ROk _ => true | RErr _ => false end)
  | OAddCorrect s i => '(h', r) <- add_correct h s i ;; Ret (h', match r with ROk _ => true | RErr _ => false end)
  end.

(** Ghost: one call of a method of [Recorder] that runs a closure on the local histogram
    (src/sync/mod.rs:164-175): its number in the order of execution, the recorder, what was called and
    whether it returned [Ok]. *)
Record call : Type := Call { c_id : nat; c_rec : nat; c_op : op; c_ok : bool }.

(** A histogram that travels from a recorder to the reader.  [b_log] is a ghost: the calls whose
    effect it contains.  No step looks at it.  (Models the [Histogram] in src/sync/mod.rs:31, 89 and
    297.) *)
Record box : Type := Box { b_hist : hist; b_log : list call }.

(** Where the thread that owns a recorder is.  src/sync/mod.rs:60-79, 107-205. *)
Inductive pc : Type :=
| PReady                (* between two calls *)
| PWrote                (* [with_hist], 168: the closure has run *)
| PLoaded (p : Z)       (* [with_hist], 169: it has loaded the phase [p] *)
| PIdling               (* [deactivate], 192-193: holds the mutex, has decremented *)
| PIdlingLoaded (p : Z) (* [deactivate], 196: has loaded the phase [p] *)
| PIdle                 (* wrapped in an [IdleRecorder] *)
| PWaking               (* [reactivate], 123-124: holds the mutex, has incremented *)
| PDropping             (* [drop], 63-64: holds the mutex, has decremented *)
| PGone.                (* dropped *)

(** [Recorder], src/sync/mod.rs:30-34, with the position of its owner *)
Record recorder : Type := Rec { r_local : box; r_phase : Z; r_pc : pc }.

(** Where the owner of the [SyncHistogram] is; [timed]: called through [refresh_timeout].
    src/sync/mod.rs:303-355. *)
Inductive rpc : Type :=
| RReady                              (* not inside [refresh] *)
| RDrain (timed : bool)               (* 309-313 *)
| RCount (timed : bool)               (* 316: about to read [recorders] *)
| RBump (timed : bool) (n : Z)        (* 319: about to move the phase *)
| RWait (timed : bool) (n phased : Z) (* 325-347 *)
| RDrain2                             (* 350-354 *)
| RPanicked                           (* an [expect] at 312, 345 or 353 failed *)
| RGone.                              (* the [SyncHistogram] was dropped *)

(** [Mutex<Critical>], src/sync/mod.rs:82-84, 88: free, held by a recorder, or poisoned by a panic in
    its critical section *)
Inductive mutex : Type := Free | Held (i : nat) | Poisoned.

(** [Shared] and [SyncHistogram], src/sync/mod.rs:87-91, 296-300, and all recorders ever made (a
    recorder is named by its position).  [s_history] is a ghost: all calls so far, oldest first. *)
Record state : Type := State {
  s_merged : box;
  s_chan : list box;
  s_lock : mutex;
  s_count : Z;
  s_phase : Z;
  s_recs : list recorder;
  s_reader : rpc;
  s_history : list call }.

(** The atomic actions of src/sync/mod.rs; [step] says which lines each one stands for. *)
Inductive label : Type :=
| LWrite (i : nat) (o : op)
| LLoad (i : nat)
| LFinish (i : nat)
| LClone (i : nat)
| LIdle (i : nat)
| LIdleLoad (i : nat)
| LIdleEnd (i : nat)
| LWake (i : nat)
| LWakeEnd (i : nat)
| LDrop (i : nat)
| LDropEnd (i : nat)
| LForget (i : nat)
| RStart (timed : bool)
| RRecv
| REmpty
| RRead
| RShift
| RTimeout
| RDone
| RRecorder
| RSet (h : hist)
| RDrop.

(** replace the [i]-th recorder; models assignments through [&mut self], src/sync/mod.rs:164-205 *)
Fixpoint put (l : list recorder) (i : nat) (r : recorder) : list recorder :=
  match l, i with
  | [], _ => []
  | _ :: l', O => r :: l'
  | x :: l', S i' => x :: put l' i' r
  end.
(** the state with recorder [i] replaced; src/sync/mod.rs:164-205 *)
Definition put_rec (st : state) (i : nat) (r : recorder) : state :=
  State (s_merged st) (s_chan st) (s_lock st) (s_count st) (s_phase st) (put (s_recs st) i r)
    (s_reader st) (s_history st).
(** the mutex and the count it protects; src/sync/mod.rs:82-84 *)
Definition put_lock (st : state) (k : mutex) (c : Z) : state :=
  State (s_merged st) (s_chan st) k c (s_phase st) (s_recs st) (s_reader st) (s_history st).
(** the channel; src/sync/mod.rs:89, 299 *)
Definition put_chan (st : state) (q : list box) : state :=
  State (s_merged st) q (s_lock st) (s_count st) (s_phase st) (s_recs st) (s_reader st) (s_history st).
(** the reader's position; src/sync/mod.rs:303-355 *)
Definition put_reader (st : state) (r : rpc) : state :=
  State (s_merged st) (s_chan st) (s_lock st) (s_count st) (s_phase st) (s_recs st) r (s_history st).
(** the merged histogram; src/sync/mod.rs:297 *)
Definition put_merged (st : state) (b : box) : state :=
  State b (s_chan st) (s_lock st) (s_count st) (s_phase st) (s_recs st) (s_reader st) (s_history st).

(** [sender.send], src/sync/mod.rs:74, 185, 201: nothing happens once the receiver is gone *)
Definition send (st : state) (b : box) : state :=
  match s_reader st with
  | RGone => st
  | _ => put_chan st (s_chan st ++ [b])
  end.

(** [shed], src/sync/mod.rs:178-181 (and the same two lines at 72-73 and 199-200): the full histogram
    and the cleared one that takes its place *)
Definition shed (b : box) : res (box * box) :=
  h <- new_from (h_ctr (b_hist b)) (b_hist b) ;;
  Ret (b, Box h []).

(** [merged.add(&h).expect(..)], src/sync/mod.rs:310-312, 343-345, 351-353: [None] is the panic *)
Definition merge (m b : box) : option box :=
  match add (b_hist m) (b_hist b) with
  | Ret (h, ROk _) => Some (Box h (b_log m ++ b_log b))
  | _ => None
  end.

(** receive the first message and merge it, then go on at [next]; src/sync/mod.rs:309-313, 338-346,
    350-354 *)
Definition receive (st : state) (next : rpc) : option state :=
  match s_chan st with
  | [] => None
  | b :: q =>
      let st1 := put_chan st q in
      match merge (s_merged st) b with
      | Some m => Some (put_reader (put_merged st1 m) next)
      | None => Some (put_reader st1 RPanicked)
      end
  end.

(** the end of [Recorder::clone] and [SyncHistogram::recorder], src/sync/mod.rs:52-56, 381-385: a new
    recorder with an empty histogram like [h] *)
Definition push_rec (st : state) (h : hist) (phase : Z) : option state :=
  match new_from (h_ctr h) h with
  | Ret n =>
      Some (State (s_merged st) (s_chan st) (s_lock st) (s_count st) (s_phase st)
              (s_recs st ++ [Rec (Box n []) phase PReady]) (s_reader st) (s_history st))
  | Panic => None
  end.

(** [lock(); recorders += d] / [-= 1] when the mutex is free, with the overflow check of a debug build:
    the new count, or a poisoned mutex; src/sync/mod.rs:47-48, 63-64, 123-124, 192-193, 376-377.
    A thread that would block has no step; one that finds the mutex poisoned panics (no step). *)
Definition count_up (st : state) : res Z := usize_add (s_count st) 1.
(** src/sync/mod.rs:64, 193 *)
Definition count_down (st : state) : res Z := usize_sub (s_count st) 1.

(** One atomic action of src/sync/mod.rs:43-417 (lines at each case), [None] if it cannot happen in [st]. *)
Definition step (st : state) (l : label) : option state :=
  match l with
  (* [with_hist], 168: run the closure on the local histogram *)
  | LWrite i o =>
      match nth_error (s_recs st) i with
      | Some (Rec b p PReady) =>
          match apply_op (b_hist b) o with
          | Ret (h, ok) =>
              let c := Call (length (s_history st)) i o ok in
              let st1 := put_rec st i (Rec (Box h (b_log b ++ [c])) p PWrote) in
              Some (State (s_merged st1) (s_chan st1) (s_lock st1) (s_count st1) (s_phase st1)
                      (s_recs st1) (s_reader st1) (s_history st ++ [c]))
          | Panic => None
          end
      | _ => None
      end
  (* [with_hist], 169: load the phase *)
  | LLoad i =>
      match nth_error (s_recs st) i with
      | Some (Rec b p PWrote) => Some (put_rec st i (Rec b p (PLoaded (s_phase st))))
      | _ => None
      end
  (* [with_hist], 170-175, and [update], 183-186 *)
  | LFinish i =>
      match nth_error (s_recs st) i with
      | Some (Rec b p (PLoaded q)) =>
          if q =? p then Some (put_rec st i (Rec b p PReady))
          else match shed b with
               | Ret (full, empty) => Some (put_rec (send st full) i (Rec empty q PReady))
               | Panic => None
               end
      | _ => None
      end
  (* [Recorder::clone], 44-57, on a recorder, and [IdleRecorder::recorder], 149-151, on an idle one.
     The source is borrowed for the whole call, so nothing can change between the increment and the
     construction of the new recorder. *)
  | LClone i =>
      match nth_error (s_recs st) i, s_lock st with
      | Some (Rec b p PReady), Free | Some (Rec b p PIdle), Free =>
          match count_up st with
          | Ret c => push_rec (put_lock st Free c) (b_hist b) p
          | Panic => Some (put_lock st Poisoned (s_count st))
          end
      | _, _ => None
      end
  (* [idle] and [into_idle], [deactivate], 192-193 *)
  | LIdle i =>
      match nth_error (s_recs st) i, s_lock st with
      | Some (Rec b p PReady), Free =>
          match count_down st with
          | Ret c => Some (put_rec (put_lock st (Held i) c) i (Rec b p PIdling))
          | Panic => Some (put_lock st Poisoned (s_count st))
          end
      | _, _ => None
      end
  (* [deactivate], 196 *)
  | LIdleLoad i =>
      match nth_error (s_recs st) i with
      | Some (Rec b p PIdling) => Some (put_rec st i (Rec b p (PIdlingLoaded (s_phase st))))
      | _ => None
      end
  (* [deactivate], 197-204: send if the phase has moved, release the mutex *)
  | LIdleEnd i =>
      match nth_error (s_recs st) i with
      | Some (Rec b p (PIdlingLoaded q)) =>
          let st1 := put_lock st Free (s_count st) in
          if q =? p then Some (put_rec st1 i (Rec b p PIdle))
          else match shed b with
               | Ret (full, empty) => Some (put_rec (send st1 full) i (Rec empty q PIdle))
               | Panic => None
               end
      | _ => None
      end
  (* [activate] or the end of the guard, [reactivate], 123-124 *)
  | LWake i =>
      match nth_error (s_recs st) i, s_lock st with
      | Some (Rec b p PIdle), Free =>
          match count_up st with
          | Ret c => Some (put_rec (put_lock st (Held i) c) i (Rec b p PWaking))
          | Panic => Some (put_lock st Poisoned (s_count st))
          end
      | _, _ => None
      end
  (* [reactivate], 134-137: adopt the current phase, release the mutex *)
  | LWakeEnd i =>
      match nth_error (s_recs st) i with
      | Some (Rec b p PWaking) =>
          Some (put_rec (put_lock st Free (s_count st)) i (Rec b (s_phase st) PReady))
      | _ => None
      end
  (* [Drop for Recorder], 63-64.  Dropping an [IdleRecorder] that owns its recorder is [reactivate]
     (154-161) followed by this. *)
  | LDrop i =>
      match nth_error (s_recs st) i, s_lock st with
      | Some (Rec b p PReady), Free =>
          match count_down st with
          | Ret c => Some (put_rec (put_lock st (Held i) c) i (Rec b p PDropping))
          | Panic => Some (put_lock st Poisoned (s_count st))
          end
      | _, _ => None
      end
  (* [Drop for Recorder], 72-77: send what is left, release the mutex *)
  | LDropEnd i =>
      match nth_error (s_recs st) i with
      | Some (Rec b p PDropping) =>
          match shed b with
          | Ret (full, empty) =>
              Some (put_rec (send (put_lock st Free (s_count st)) full) i (Rec empty p PGone))
          | Panic => None
          end
      | _ => None
      end
  (* [std::mem::forget] on the guard returned by [idle], 211-217: the borrow ends, [reactivate] never
     runs *)
  | LForget i =>
      match nth_error (s_recs st) i with
      | Some (Rec b p PIdle) => Some (put_rec st i (Rec b p PReady))
      | _ => None
      end
  (* [refresh] / [refresh_timeout], 303-304, 359-367 *)
  | RStart timed =>
      match s_reader st with
      | RReady => Some (put_reader st (RDrain timed))
      | _ => None
      end
  (* a successful [try_recv] or [recv]: 309-313, 326-346, 350-354 *)
  | RRecv =>
      match s_reader st with
      | RDrain t => receive st (RDrain t)
      | RWait t n k => if k <? n then receive st (RWait t n (k + 1)) else None
      | RDrain2 => receive st RDrain2
      | _ => None
      end
  (* [try_recv] finds the channel empty: 309, 350 *)
  | REmpty =>
      match s_reader st, s_chan st with
      | RDrain t, [] => Some (put_reader st (RCount t))
      | RDrain2, [] => Some (put_reader st RReady)
      | _, _ => None
      end
  (* 316: read the number of recorders under the mutex *)
  | RRead =>
      match s_reader st, s_lock st with
      | RCount t, Free => Some (put_reader st (RBump t (s_count st)))
      | _, _ => None
      end
  (* 319, 322: [phase.fetch_add(1)], which wraps around *)
  | RShift =>
      match s_reader st with
      | RBump t n =>
          Some (State (s_merged st) (s_chan st) (s_lock st) (s_count st)
                  ((s_phase st + 1) mod (usize_max + 1)) (s_recs st) (RWait t n 0) (s_history st))
      | _ => None
      end
  (* 328-330 and 334: time is up *)
  | RTimeout =>
      match s_reader st with
      | RWait true n k => if k <? n then Some (put_reader st RDrain2) else None
      | _ => None
      end
  (* 325: everybody has phased *)
  | RDone =>
      match s_reader st with
      | RWait t n k => if k <? n then None else Some (put_reader st RDrain2)
      | _ => None
      end
  (* [SyncHistogram::recorder], 373-386.  It borrows the [SyncHistogram], so no [refresh] can run, and
     only [refresh] moves the phase: the load at 384 may as well happen with the increment. *)
  | RRecorder =>
      match s_reader st, s_lock st with
      | RReady, Free =>
          match count_up st with
          | Ret c => push_rec (put_lock st Free c) (b_hist (s_merged st)) (s_phase st)
          | Panic => Some (put_lock st Poisoned (s_count st))
          end
      | _, _ => None
      end
  (* [DerefMut], 411-415: between two calls the program may put anything in the merged histogram *)
  | RSet h =>
      match s_reader st with
      | RReady => Some (put_merged st (Box h []))
      | _ => None
      end
  (* the [SyncHistogram] is dropped, and the channel with it *)
  | RDrop =>
      match s_reader st with
      | RReady => Some (put_chan (put_reader st RGone) [])
      | _ => None
      end
  end.

(** a whole run; src/sync/mod.rs *)
Fixpoint exec (st : state) (tr : list label) : option state :=
  match tr with
  | [] => Some st
  | l :: tr' => match step st l with Some st' => exec st' tr' | None => None end
  end.

(** [From<Histogram>], src/sync/mod.rs:389-402 *)
Definition init (h : hist) : state := State (Box h []) [] Free 0 0 [] RReady [].
