(** Property theorems; the proofs are in [PfLibm].  Generated by tools/gen_theorems.py. *)
From Verif Require Import Machine HistModel Spec Reach Witness Cases FloatModel FloatSpec LibmModel LibmSpec PfLibm.
From Coq Require Import Reals.
From Flocq Require Import Core.
From Verif Require Import LibmFacts.


(** ** C79.  With a correctly rounded logarithm, the constructor as written (binary64 arithmetic, the
    logarithm of the C library) gives what the other theorems are about, for all parameters *)
Theorem C79_rounded : forall log2, rounded_log2 log2 -> forall T lo hi sf, is_u64 lo -> is_u64 hi -> is_u8 sf ->
  new_with_bounds_libm log2 T lo hi sf = new_with_bounds T lo hi sf.
Proof. exact C79_rounded_proof. Qed.
Print Assumptions C79_rounded.

Example ex_C79_rounded : rounded_log2 nearest_log2 /\ exists h, new_with_bounds U64 (2 ^ 49 - 1) (2 ^ 60) 1 = Ret (ROk h) /\ equivalent h (low h) 0 = Ret true.
Proof. split; [exact nearest_rounded|]. eexists. split; [vm_compute; reflexivity|vm_compute; reflexivity]. Qed.

(** ... and so it does with every logarithm that is close to the true one, exact on powers of two and
    monotone, unless [lo] is above 2^40 *)
Theorem C79_any_log2 : forall log2, good_log2 log2 -> forall T lo hi sf, is_u64 lo -> is_u64 hi -> is_u8 sf -> lo <= 2 ^ 40 ->
  new_with_bounds_libm log2 T lo hi sf = new_with_bounds T lo hi sf.
Proof. exact C79_any_log2_proof. Qed.
Print Assumptions C79_any_log2.

Example ex_C79_any_log2 : good_log2 coarse_log2 /\ good_log2 nearest_log2 /\ coarse_log2 (f64_of_u64 (2 ^ 48 - 1)) = f64_of_u64 48 /\
  exists h, new_with_bounds U64 (2 ^ 40 - 1) (2 ^ 60) 1 = Ret (ROk h) /\ equivalent h (low h) 0 = Ret false.
Proof.
  split; [exact coarse_good|]. split; [exact (rounded_is_good _ nearest_rounded)|]. split; [exact coarse_48|].
  eexists. split; [vm_compute; reflexivity|vm_compute; reflexivity].
Qed.

(** the same for [new] and [new_with_max] *)
Theorem C79_default_low : forall log2, good_log2 log2 -> forall T hi sf, is_u64 hi -> is_u8 sf ->
  new_with_max_libm log2 T hi sf = new_with_max T hi sf /\ new_libm log2 T sf = new T sf.
Proof. exact C79_default_low_proof. Qed.
Print Assumptions C79_default_low.

Example ex_C79_default_low : good_log2 coarse_log2 /\ exists h, new U64 2 = Ret (ROk h) /\ sigfig h = 2.
Proof. split; [exact coarse_good|]. eexists. split; [vm_compute; reflexivity|vm_compute; reflexivity]. Qed.

(** for every [lo]: the constructor does not panic, and where its answer depends on the logarithm's last
    bits, [lo] is below a power of two by less than one part in 2^40, and the classes are those of a
    histogram whose [low] is that power of two or half of it *)
Theorem C79_every_low : forall log2, good_log2 log2 -> forall T lo hi sf, is_u64 lo -> is_u64 hi -> is_u8 sf ->
  new_with_bounds_libm log2 T lo hi sf = new_with_bounds T lo hi sf \/
  exists e, 0 <= e /\ lo < 2 ^ e /\ (2 ^ e - lo) * 2 ^ 40 < 2 ^ e /\
    (new_with_bounds_libm log2 T lo hi sf = Ret (RErr CannotRepresentSigFigBeyondLow) \/
     exists h k, new_with_bounds_libm log2 T lo hi sf = Ret (ROk h) /\ low h = lo /\ high h = hi /\ sigfig h = sf /\
       reachable k /\ (low k = 2 ^ e \/ low k = 2 ^ (e - 1)) /\ sigfig k = sf /\ same_classes h k).
Proof. exact C79_every_low_proof. Qed.
Print Assumptions C79_every_low.

Example ex_C79_every_low : good_log2 coarse_log2 /\ 2 ^ 48 - 1 < 2 ^ 48 /\ (2 ^ 48 - (2 ^ 48 - 1)) * 2 ^ 40 < 2 ^ 48 /\
  exists h, new_with_bounds_libm coarse_log2 U64 (2 ^ 48 - 1) (2 ^ 50) 0 = Ret (ROk h) /\ equivalent_range h 0 = Ret (2 ^ 48).
Proof.
  split; [exact coarse_good|]. split; [lia|]. split; [lia|]. eexists. split; [exact coarse_built|vm_compute; reflexivity].
Qed.

(** the bound on [lo] is needed: whether [low] is told apart from 0 can depend on the library.  With one
    admissible logarithm a histogram with [low] = 2^48 - 1 puts [low] into the class of 0, with the correctly
    rounded one it does not *)
Theorem C79_library_matters_refuted : exists log2 h k, good_log2 log2 /\
  new_with_bounds_libm log2 U64 (2 ^ 48 - 1) (2 ^ 50) 0 = Ret (ROk h) /\
  new_with_bounds_libm nearest_log2 U64 (2 ^ 48 - 1) (2 ^ 50) 0 = Ret (ROk k) /\ good_log2 nearest_log2 /\
  equivalent h (2 ^ 48 - 1) 0 = Ret true /\ equivalent k (2 ^ 48 - 1) 0 = Ret false.
Proof. exact C79_library_matters_refuted_proof. Qed.
Print Assumptions C79_library_matters_refuted.
