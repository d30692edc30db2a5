(** * Concrete cases for the theorems about other widths of usize, as in [CasesSync] *)
From Verif Require Import Machine HistModel Spec Reach Witness Cases SyncModel SyncSpec WeakModel WeakSpec CasesSync WidthSyncModel WidthSyncSpec.

Lemma nrun_ok B h tr w : (32 <=? B) && (B <=? 64) = true -> reachable h -> forallb (label_fits (h_ctr h)) (acts tr) = true -> nexec B (winit h) tr = Some w -> nrun B h tr w.
Proof. intros W R F E. apply andb_prop in W. destruct W as [W1 W2]. apply Z.leb_le in W1, W2. split; [split; assumption|]. split; [exact R|]. split; [apply label_fits_ok; exact F|exact E]. Qed.

(** a conjunction of concrete facts about the runs *)
Ltac nsync_case :=
  repeat first [case_match | lazymatch goal with |- (let x := _ in _) => cbv zeta end | lazymatch goal with |- _ /\ _ => split end];
  lazymatch goal with
  | |- nrun _ _ _ _ => apply nrun_ok; [reflexivity|assumption|vm_compute; reflexivity|vm_compute; reflexivity]
  | |- _ => sync_leaf
  end.
