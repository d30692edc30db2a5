(** * Concrete cases for the theorems about builds without overflow checks, as in [CasesSync] *)
From Verif Require Import Machine HistModel Spec Reach Witness Cases SyncModel SyncSpec WeakModel WeakSpec CasesSync ReleaseSyncModel ReleaseSyncSpec.

Lemma rrun_ok h tr w : reachable h -> forallb (label_fits (h_ctr h)) (acts tr) = true -> rexec (winit h) tr = Some w -> rrun h tr w.
Proof. intros R F E. split; [exact R|]. split; [apply label_fits_ok; exact F|exact E]. Qed.

(** a conjunction of concrete facts about the runs *)
Ltac rsync_case :=
  repeat first [case_match | lazymatch goal with |- (let x := _ in _) => cbv zeta end | lazymatch goal with |- _ /\ _ => split end];
  lazymatch goal with
  | |- rrun _ _ _ => apply rrun_ok; [assumption|vm_compute; reflexivity|vm_compute; reflexivity]
  | |- _ => sync_leaf
  end.
