(** * Vocabulary of the statements about the concurrent histogram with a usize of another width *)
From Verif Require Import Machine HistModel Spec Reach SyncModel SyncSpec LiveSpec EventSpec WeakModel WeakSpec WidthSyncModel.

(** [w] is a state some execution with a usize of [B] bits reaches: [SyncHistogram::from(h0)], then the actions [tr] *)
Definition nrun (B : Z) (h0 : hist) (tr : list (label * Z)) (w : wstate) : Prop :=
  32 <= B <= 64 /\ reachable h0 /\ Forall (label_ok (h_ctr h0)) (acts tr) /\ nexec B (winit h0) tr = Some w.

(** a whole [refresh_timeout] that finds nothing and gives up at once *)
Definition widle_refresh : list (label * Z) := map (fun l => (l, 0)) idle_refresh.
(** one call of [o] on recorder 0 that reads value number [k] of the phase *)
Definition wone_call (k : Z) (o : op) : list (label * Z) := [(LWrite 0 o, 0); (LLoad 0, k); (LFinish 0, 0)].
(** the calls [os] with [n] refreshes after each; the first one reads value number [k] of the phase, and each the
    latest *)
Fixpoint calls_apart (n : nat) (k : Z) (os : list op) : list (label * Z) :=
  match os with
  | [] => []
  | o :: os' => wone_call k o ++ concat (repeat widle_refresh n) ++ calls_apart n (k + Z.of_nat n) os'
  end.
