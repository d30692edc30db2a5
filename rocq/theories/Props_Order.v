(** Property theorems; the proofs are in [PfOrder].  Generated by tools/gen_theorems.py. *)
From Verif Require Import Machine Log2Model HistModel Spec OrderSpec Reach Witness Cases PfOrder.
From Coq Require Import Permutation.


(** ** C60.  The order in which samples are recorded does not matter: any reordering is accepted too and
    leaves exactly the same histogram, even if counters saturate or the histogram grows on the way. *)
Theorem C60_order : forall h l l' h', reachable h -> Permutation l l' -> records h l h' -> records h l' h'.
Proof. exact C60_order_proof. Qed.
Print Assumptions C60_order.

Example ex_C60 : match build U8 1 100 2 true [(5, 200); (100000, 1); (5, 100)], build U8 1 100 2 true [(100000, 1); (5, 100); (5, 200)] with
  | Some a, Some b => reachable a /\ reachable b /\ a = b /\ held a = [(5, 255); (99840, 1)] /\ len a = 301
  | _, _ => False end.
Proof. case_of. Qed.

(** a list of records is accepted or not independently of the order *)
Theorem C60_accepted : forall h l l', reachable h -> Permutation l l' ->
  ((exists h', records h l h') <-> (exists h', records h l' h')).
Proof. exact C60_accepted_proof. Qed.
Print Assumptions C60_accepted.

Example ex_C60_accepted : match build U8 1 100 2 false [] with
  | Some h => reachable h /\ covers h 100 /\ ~ covers h 5000 /\ Permutation [(5, 1); (5000, 1)] [(5000, 1); (5, 1)] /\ Permutation [(5, 1); (100, 1)] [(100, 1); (5, 1)] /\
      match build U8 1 100 2 false [(5, 1); (100, 1)] with Some a => records h [(5, 1); (100, 1)] a /\ records h [(100, 1); (5, 1)] a | None => False end
  | None => False end.
Proof. case_of. all: apply perm_swap. Qed.

(** recording into several histograms of the same configuration and adding them up holds the same samples
    as recording everything into one of them *)
Theorem C60_shards_held : forall T lo hi sf b h0 ls ss h h', is_u64 lo -> is_u64 hi -> is_u8 sf ->
  new_with_bounds T lo hi sf = Ret (ROk h0) ->
  Forall2 (records (auto h0 b)) ls ss -> merges (auto h0 b) ss h' -> records (auto h0 b) (concat ls) h ->
  held h' = held h.
Proof. exact C60_shards_held_proof. Qed.
Print Assumptions C60_shards_held.

Example ex_C60_shards_held : match build U64 1 1000 2 false [(5, 2); (900, 1)], build U64 1 1000 2 false [(7, 3)],
    build U64 1 1000 2 false [], build U64 1 1000 2 false [(5, 2); (900, 1); (7, 3)] with
  | Some a, Some b, Some z, Some h =>
      reachable z /\ records z [(5, 2); (900, 1)] a /\ records z [(7, 3)] b /\ records z [(5, 2); (900, 1); (7, 3)] h /\
      match add z a with Ret (z1, ROk _) => match add z1 b with Ret (z2, ROk _) => held z2 = held h | _ => False end | _ => False end
  | _, _, _, _ => False end.
Proof. case_of. Qed.

(** and reports the same [len], [max] and [min_nz], if nothing saturates and no count is zero *)
Theorem C60_shards_stats : forall T lo hi sf b h0 ls ss h h', is_u64 lo -> is_u64 hi -> is_u8 sf ->
  new_with_bounds T lo hi sf = Ret (ROk h0) ->
  Forall2 (records (auto h0 b)) ls ss -> merges (auto h0 b) ss h' -> records (auto h0 b) (concat ls) h ->
  no_saturation (auto h0 b) (concat ls) -> (forall v n, In (v, n) (concat ls) -> 1 <= n) ->
  stats_agree h' /\ len h' = len h /\ same_max h' h /\ same_min_nz h' h.
Proof. exact C60_shards_stats_proof. Qed.
Print Assumptions C60_shards_stats.

Example ex_C60_shards : match build U64 1 1000 2 false [(5, 2); (900, 1)], build U64 1 1000 2 false [(7, 3)],
    build U64 1 1000 2 false [], build U64 1 1000 2 false [(5, 2); (900, 1); (7, 3)] with
  | Some a, Some b, Some z, Some h =>
      reachable a /\ reachable b /\ reachable z /\ reachable h /\ match add z a with
      | Ret (z1, ROk _) => match add z1 b with
          | Ret (z2, ROk _) => held z2 = held h /\ len z2 = len h /\ max z2 = max h /\ min_nz z2 = min_nz h /\ held h = [(5, 2); (7, 3); (900, 1)]
          | _ => False end
      | _ => False end
  | _, _, _, _ => False end.
Proof. case_of. Qed.
