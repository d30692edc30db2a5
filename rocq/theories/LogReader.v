(** * A reader of decimal numbers that rounds correctly, to show that what is assumed of [f64::from_str] can be met *)
From Coq Require Import ZArith Reals Lia Lra Bool List String.
From Flocq Require Import Core IEEE754.BinarySingleNaN.
From Verif Require Import Machine ListZ HistModel Spec SerModel SerSpec FloatModel FloatSpec FloatFacts LogModel LogSpec LogFacts.
Open Scope Z_scope.

(** [m] thousandths, rounded (no counterpart in /repo) *)
Definition thousandths_float (m : positive) : f64 :=
  SF2B _ (proj1 (Bdiv_correct_aux 53 1024 prec_gt_0_64 prec_lt_emax_64 mode_NE false m 0 false 1000 0)).
(** a reader for the numbers in a log (no counterpart in /repo: it stands for [f64::from_str]) *)
Definition simple_reader : f64_reader := fun s =>
  Some (match decimal_value (filter (fun c => negb (c =? DOT)) s) with Zpos m => thousandths_float m | _ => f64_zero end).
Lemma simple_reads : reads_numbers simple_reader.
Proof. split; [|split]; [intros; split|..]; discriminate. Qed.
Lemma digits_keep s : all_digits s -> filter (fun c => negb (c =? DOT)) s = s.
Proof.
  induction 1 as [|c s C F IH]; [reflexivity|]. cbn [filter]. destruct (c =? DOT) eqn:E; cbn [negb]; [|rewrite IH; reflexivity].
  apply Z.eqb_eq in E. unfold DOT in E. lia.
Qed.
Lemma thousandths_aux m : (rne (IZR (Zpos m) / 1000) < bpow radix2 1024)%R ->
  let z := (let '(mz, ez, lz) := SpecFloat.SFdiv_core_binary 53 1024 (Zpos m) 0 1000 0 in
            binary_round_aux 53 1024 mode_NE (xorb false false) mz ez lz) in
  is_finite_SF z = true /\ SF2R radix2 z = rne (IZR (Zpos m) / 1000).
Proof.
  intros B z.
  destruct (Bdiv_correct_aux 53 1024 prec_gt_0_64 prec_lt_emax_64 mode_NE false m 0 false 1000 0) as (_ & C). fold z in C. clearbody z.
  assert (E0 : forall k, F2R (beta := radix2) {| Fnum := SpecFloat.cond_Zopp false k; Fexp := 0 |} = IZR k :> R) by (intros k; apply Rmult_1_r).
  rewrite (E0 (Zpos m)), (E0 1000) in C.
  change (round radix2 (SpecFloat.fexp 53 1024) (round_mode mode_NE) (IZR (Zpos m) / IZR 1000)) with (rne (IZR (Zpos m) / 1000)) in C.
  rewrite Rlt_bool_true in C; [intuition|].
  rewrite Rabs_pos_eq; auto. apply rne_nonneg. apply Rmult_le_pos; [apply IZR_le; lia|lra].
Qed.
Lemma simple_rounds : rounds_numbers simple_reader.
Proof.
  intros s n (i & f & -> & _ & I & F & L & V) B. eexists. split; [reflexivity|].
  rewrite filter_app. cbn [filter]. change (DOT =? DOT) with true. cbn [negb].
  rewrite !digits_keep by auto. rewrite decimal_app, L. change (10 ^ 3) with 1000. rewrite V.
  assert (N : 0 <= n) by (pose proof (decimal_bound _ I); pose proof (decimal_bound _ F); lia).
  destruct n as [|m|m]; [| |lia].
  - split; [reflexivity|]. unfold real_of. cbn [f64_zero B2R]. replace (IZR 0 / 1000)%R with 0%R by lra. symmetry. apply rne_0.
  - unfold thousandths_float, finite, real_of.
    rewrite is_finite_SF2B, B2R_SF2B. apply thousandths_aux. auto.
Qed.
