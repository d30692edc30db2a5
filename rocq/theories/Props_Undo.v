(** Property theorems; the proofs are in [PfUndo].  Generated by tools/gen_theorems.py. *)
From Verif Require Import Machine Log2Model HistModel Spec Reach Witness PfUndo.

(** The statistics of [h] being right, [min_nz] is wrong after a successful [subtract] exactly if: [h] held
    samples equivalent to 0; its total was not saturated; nothing subtracted was equivalent to 0 or in the
    class of the maximum; and the class of the old [min_nz] was emptied.  In that case [min_nz] still is what
    it was. *)
Theorem C52_min_exact_iff : forall h s h', reachable h -> reachable s -> h_ctr h = h_ctr s ->
  stats_agree h -> held s <> [] -> subtract h s = Ret (h', ROk tt) ->
  (~ min_agrees h' <->
   count_at h 0 <> Ret 0 /\ len h <> u64_max /\
   (forall v n mx, In (v, n) (held s) -> max h = Ret mx -> equivalent h v 0 = Ret false /\ equivalent h v mx = Ret false) /\
   (forall mn, min_nz h = Ret mn -> count_at h' mn = Ret 0)) /\
  (~ min_agrees h' -> min_nz h' = min_nz h).
Proof. exact C52_min_exact_iff_proof. Qed.
Print Assumptions C52_min_exact_iff.

(** the class of 5 is emptied while a zero is held: [min_nz] stays 5; without the zero it is right *)
Example ex_C52_min_exact_iff :
  match build U64 1 1000 1 false [(0, 1); (5, 1); (9, 1)], build U64 1 1000 1 false [(5, 1); (9, 1)], build U64 1 1000 1 false [(5, 1)] with
  | Some h, Some g, Some s =>
      match subtract h s, subtract g s with
      | Ret (h', ROk _), Ret (g', ROk _) => count_at h 0 = Ret 1 /\ min_nz h' = Ret 5 /\ count_at h' 5 = Ret 0 /\
          held s = [(5, 1)] /\ max h = Ret 9 /\ held g' = [(9, 1)] /\ min_nz g' = Ret 9
      | _, _ => False end
  | _, _, _ => False end.
Proof. vm_compute. auto 10. Qed.

(** Adding [s] and subtracting it again, without saturation, gives a histogram that compares different from
    [h] exactly if: [h] holds samples equivalent to 0; the total of the sum is not [u64::MAX]; all samples of
    [s] lie above the class of 0 and below the class of the maximum of [h]; and one of them lies below every
    sample of [h] that is not equivalent to 0.  (The maximum of [h] is neither equivalent to 0 nor to
    [u64::MAX].) *)
Theorem C52_undo_iff : forall h s h1 h2 mx, reachable h -> reachable s -> h_ctr h = h_ctr s ->
  stats_agree h -> stats_agree s -> no_saturation h (held s) -> max s <> Ret u64_max -> held s <> [] ->
  max h = Ret mx -> equivalent h mx 0 = Ret false -> equivalent h mx u64_max = Ret false ->
  add h s = Ret (h1, ROk tt) -> subtract h1 s = Ret (h2, ROk tt) ->
  (hist_eq h h2 = Ret false <->
   count_at h 0 <> Ret 0 /\ len h1 <> u64_max /\
   (forall v n, In (v, n) (held s) -> equivalent h v 0 = Ret false /\ v < mx /\ equivalent h v mx = Ret false) /\
   (exists v n, In (v, n) (held s) /\
      forall w k, In (w, k) (held h) -> equivalent h w 0 = Ret false -> v < w /\ equivalent h v w = Ret false)).
Proof. exact C52_undo_iff_proof. Qed.
Print Assumptions C52_undo_iff.

(* 0 and 100, and a second histogram with 5: adding and subtracting it leaves the minimum 5 behind.  With 50
   and 100 instead of 0 and 100, or with 200 in the second histogram, the original comes back. *)
Example ex_C52_undo_iff :
  match build U64 1 1000 2 false [(0, 1); (100, 1)], build U64 1 1000 2 false [(50, 1); (100, 1)],
        build U64 1 1000 2 false [(5, 1)], build U64 1 1000 2 false [(5, 1); (200, 1)] with
  | Some h, Some k, Some s, Some t =>
      let undo a b := match add a b with Ret (x, _) => match subtract x b with Ret (y, _) => hist_eq a y | Panic => Panic end | Panic => Panic end in
      undo h s = Ret false /\ undo k s = Ret true /\ undo h t = Ret true /\ max h = Ret 100 /\
      equivalent h 100 0 = Ret false /\ equivalent h 100 u64_max = Ret false /\ held s = [(5, 1)] /\ held h = [(0, 1); (100, 1)]
  | _, _, _, _ => False
  end.
Proof. vm_compute. intuition congruence. Qed.
