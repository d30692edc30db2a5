(** * Concrete cases for the theorems about builds without overflow checks and other widths of usize, as in [CasesSync] *)
From Verif Require Import Machine HistModel Spec Reach Witness Cases SyncModel SyncSpec WeakModel WeakSpec CasesSync ReleaseSyncModel ReleaseSyncSpec CasesReleaseSync
  WidthSyncModel WidthSyncSpec CasesWidthSync WidthReleaseModel WidthReleaseSpec.

Lemma mrun_ok B h tr w : (32 <=? B) && (B <=? 64) = true -> reachable h -> forallb (label_fits (h_ctr h)) (acts tr) = true -> mexec B (winit h) tr = Some w -> mrun B h tr w.
Proof. intros W R F E. apply andb_prop in W. destruct W as [W1 W2]. apply Z.leb_le in W1, W2. split; [split; assumption|]. split; [exact R|]. split; [apply label_fits_ok; exact F|exact E]. Qed.

(** a conjunction of concrete facts about the runs *)
Ltac msync_case :=
  repeat first [case_match | lazymatch goal with |- (let x := _ in _) => cbv zeta end | lazymatch goal with |- _ /\ _ => split end];
  lazymatch goal with
  | |- mrun _ _ _ _ => apply mrun_ok; [reflexivity|assumption|vm_compute; reflexivity|vm_compute; reflexivity]
  | |- nrun _ _ _ _ => apply nrun_ok; [reflexivity|assumption|vm_compute; reflexivity|vm_compute; reflexivity]
  | |- rrun _ _ _ => apply rrun_ok; [assumption|vm_compute; reflexivity|vm_compute; reflexivity]
  | |- _ => sync_leaf
  end.
