(** * Proofs of the properties about the unit as a rounded logarithm (C04, C05) *)
(*PROPS-IMPORTS Machine Log2Model HistModel Spec Reach Witness Cases FloatModel FloatSpec *)
(*PROPS-HEADER
From Coq Require Import Reals.
From Flocq Require Import Core.
PROPS-HEADER*)
From Coq Require Import Reals.
From Flocq Require Import Core.
From Verif Require Import Machine Log2Model HistModel Spec Reach Bins ListZ Log2Facts Cfg Wf Ops AddFacts SubFacts Exact MoreFacts Witness HeldFacts PfClasses FloatModel FloatSpec Log2Spec.
From Coq Require Import ZifyBool ZifyNat Lra.
Open Scope Z_scope.

Lemma wf_um h : wf h -> h_um h = Zfloor (rne (ln (rne (IZR (h_low h))) / ln 2)).
Proof.
  intros W. pose proof (w_cfg h W) as C. rewrite (c_um h C). apply log2_floor_spec. pose proof (c_low h C). pose proof (c_high h C). lia.
Qed.
(** ** C05.  The unit (the width of the class of 0) is 2 to the floor of the binary logarithm of [low],
    conversion and logarithm each rounded to the nearest f64 *)
Lemma C05_unit_exact_proof : forall h, reachable h ->
  equivalent_range h 0 = Ret (2 ^ Zfloor (rne (ln (rne (IZR (low h))) / ln 2))).
Proof.
  intros h R. pose proof (reachable_wf h R) as W. pose proof (w_cfg h W) as C. unfold low. rewrite <- wf_um by auto.
  rewrite (equivalent_range_ok h C 0) by (unfold u64, u64_max; lia). f_equal. unfold wid, bkt.
  change (Z.log2 0) with 0. pose proof (um_nonneg h C). pose proof (m_nonneg h C). rewrite Z.max_l by lia. f_equal. lia.
Qed.
(*EX
Example ex_C05_unit_exact : match build U64 (2 ^ 49 - 1) (2 ^ 60) 1 false [] with
  | Some h => reachable h /\ low h = 2 ^ 49 - 1 /\ equivalent_range h 0 = Ret (2 ^ 49)
  | None => False end.
Proof. case_of. Qed.
EX*)
(** so [low] is told apart from 0 exactly when that rounding does not reach the next power of two *)
Lemma C05_discernible_iff_proof : forall h, reachable h ->
  (equivalent h (low h) 0 = Ret false <-> Zfloor (rne (ln (rne (IZR (low h))) / ln 2)) = Z.log2 (low h)).
Proof.
  intros h R. pose proof (reachable_wf h R) as W. pose proof (w_cfg h W) as C. pose proof (c_low h C). pose proof (c_high h C).
  pose proof (C05_unit_exact_proof h R) as EU. pose proof (C05_unit_bounds_proof h R) as UB.
  assert (LU : is_u64 (low h)) by (unfold is_u64, low; lia).
  destruct (C01_class_is_interval_proof h 0 R ltac:(unfold is_u64, u64_max; lia)) as (lo & rg & E1 & E2 & B1 & _ & _ & _ & EQ & _).
  rewrite E2 in EU. injection EU as ->. assert (lo = 0) as -> by lia.
  pose proof (EQ (low h) LU) as E3.
  destruct (C03_binning_proof h 0 (low h) R ltac:(unfold is_u64, u64_max; lia) LU) as (i & j & I & J & _ & _ & _ & EIJ & _).
  destruct (C03_binning_proof h (low h) 0 R LU ltac:(unfold is_u64, u64_max; lia)) as (j' & i' & J' & I' & _ & _ & _ & EJI & _).
  rewrite J' in J. injection J as ->. rewrite I' in I. injection I as ->.
  rewrite EJI, Z.eqb_sym, <- EIJ, E3. set (e := Zfloor _) in *. unfold low in *.
  pose proof (Z.log2_spec (h_low h) ltac:(lia)) as [L1 L2]. pose proof (Z.log2_nonneg (h_low h)) as LN.
  assert (D : e = Z.log2 (h_low h) \/ e = Z.log2 (h_low h) + 1).
  { destruct UB as [X|X]; rewrite E2 in X; injection X as X; apply Z.pow_inj_r in X; auto; try lia.
    - unfold e. rewrite <- wf_um by auto. apply um_nonneg; auto.
    - unfold e. rewrite <- wf_um by auto. apply um_nonneg; auto. }
  destruct (Z.leb_spec 0 (h_low h)); [|lia]. cbn [andb]. destruct D as [-> | ->].
  - destruct (Z.ltb_spec (h_low h) (0 + 2 ^ Z.log2 (h_low h))); [lia|]. tauto.
  - destruct (Z.ltb_spec (h_low h) (0 + 2 ^ (Z.log2 (h_low h) + 1))) as [X|X]; [|unfold Z.succ in *; lia]. split; [discriminate|lia].
Qed.
(*EX
Example ex_C05_discernible_iff : match build U64 1000 (2 ^ 60) 1 false [] with
  | Some h => reachable h /\ low h = 1000 /\ equivalent h 1000 0 = Ret false /\ equivalent_range h 0 = Ret (2 ^ Z.log2 1000)
  | None => False end.
Proof. case_of. Qed.
EX*)
(** ** C04.  The condition on the precision in terms of the two logarithms the code takes *)
Lemma C04_precision_fits_proof : forall lo sf, 1 <= lo <= u64_max -> 0 <= sf <= 5 ->
  (precision_fits lo sf <->
   Zfloor (rne (ln (rne (IZR lo)) / ln 2)) + Zceil (rne (ln (IZR (2 * 10 ^ sf)) / ln 2)) <= 63).
Proof. intros lo sf L S. unfold precision_fits. rewrite (log2_floor_spec lo L), (log2_ceil_spec sf S). reflexivity. Qed.
(*EX
Example ex_C05_unit : match build U64 (2 ^ 49 - 1) (2 ^ 60) 1 false [], build U64 (2 ^ 49 - 10) (2 ^ 60) 1 false [] with
  | Some h, Some k => reachable h /\ reachable k /\ equivalent h (low h) 0 = Ret true /\ equivalent k (low k) 0 = Ret false
  | _, _ => False end.
Proof. case_of. Qed.
EX*)
