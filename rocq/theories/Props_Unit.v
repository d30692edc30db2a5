(** Property theorems; the proofs are in [PfUnit].  Generated by tools/gen_theorems.py. *)
From Verif Require Import Machine Log2Model HistModel Spec Reach Witness Cases FloatModel FloatSpec PfUnit.
From Coq Require Import Reals.
From Flocq Require Import Core.


(** ** C05.  The unit (the width of the class of 0) is 2 to the floor of the binary logarithm of [low],
    conversion and logarithm each rounded to the nearest f64 *)
Theorem C05_unit_exact : forall h, reachable h ->
  equivalent_range h 0 = Ret (2 ^ Zfloor (rne (ln (rne (IZR (low h))) / ln 2))).
Proof. exact C05_unit_exact_proof. Qed.
Print Assumptions C05_unit_exact.

Example ex_C05_unit_exact : match build U64 (2 ^ 49 - 1) (2 ^ 60) 1 false [] with
  | Some h => reachable h /\ low h = 2 ^ 49 - 1 /\ equivalent_range h 0 = Ret (2 ^ 49)
  | None => False end.
Proof. case_of. Qed.

(** so [low] is told apart from 0 exactly when that rounding does not reach the next power of two *)
Theorem C05_discernible_iff : forall h, reachable h ->
  (equivalent h (low h) 0 = Ret false <-> Zfloor (rne (ln (rne (IZR (low h))) / ln 2)) = Z.log2 (low h)).
Proof. exact C05_discernible_iff_proof. Qed.
Print Assumptions C05_discernible_iff.

Example ex_C05_discernible_iff : match build U64 1000 (2 ^ 60) 1 false [] with
  | Some h => reachable h /\ low h = 1000 /\ equivalent h 1000 0 = Ret false /\ equivalent_range h 0 = Ret (2 ^ Z.log2 1000)
  | None => False end.
Proof. case_of. Qed.

(** ** C04.  The condition on the precision in terms of the two logarithms the code takes *)
Theorem C04_precision_fits : forall lo sf, 1 <= lo <= u64_max -> 0 <= sf <= 5 ->
  (precision_fits lo sf <->
   Zfloor (rne (ln (rne (IZR lo)) / ln 2)) + Zceil (rne (ln (IZR (2 * 10 ^ sf)) / ln 2)) <= 63).
Proof. exact C04_precision_fits_proof. Qed.
Print Assumptions C04_precision_fits.

Example ex_C05_unit : match build U64 (2 ^ 49 - 1) (2 ^ 60) 1 false [], build U64 (2 ^ 49 - 10) (2 ^ 60) 1 false [] with
  | Some h, Some k => reachable h /\ reachable k /\ equivalent h (low h) 0 = Ret true /\ equivalent k (low k) 0 = Ret false
  | _, _ => False end.
Proof. case_of. Qed.
