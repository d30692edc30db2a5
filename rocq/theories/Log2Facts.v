(** * Integer facts about [log2_floor_f64] *)
From Verif Require Import Machine Log2Model Bins.
From Coq Require Import ZifyBool.

Lemma f64_round_bounds x : 1 <= x -> 2 ^ Z.log2 x <= f64_round_u64 x <= 2 ^ (Z.log2 x + 1).
Proof.
  intros Hx. pose proof (Z.log2_spec x ltac:(lia)) as [L1 L2]. unfold Z.succ in L2.
  pose proof (Z.log2_nonneg x) as LN.
  unfold f64_round_u64. destruct (Z.leb_spec (Z.log2 x - 52) 0); [lia|].
  set (e := Z.log2 x - 52) in *. assert (E : Z.log2 x = 52 + e) by lia.
  pose proof (pow2_pos e ltac:(lia)) as PE.
  assert (Q1 : 2 ^ 52 <= x / 2 ^ e).
  { apply Z.div_le_lower_bound; [lia|]. rewrite <- Z.pow_add_r by lia. replace (e + 52) with (Z.log2 x) by lia. lia. }
  assert (Q2 : x / 2 ^ e < 2 ^ 53).
  { apply Z.div_lt_upper_bound; [lia|]. rewrite <- Z.pow_add_r by lia. replace (e + 53) with (Z.log2 x + 1) by lia. lia. }
  match goal with |- context [?q * 2 ^ e] => set (q' := q) end.
  assert (Q : 2 ^ 52 <= q' <= 2 ^ 53).
  { unfold q'. destruct (_ <? _); [lia|]. destruct (_ <? _); [lia|]. destruct (Z.even _); lia. }
  clearbody q'. rewrite E. replace (52 + e + 1) with (53 + e) by lia.
  rewrite !Z.pow_add_r by lia. nia.
Qed.

Lemma log2_le_63 x : 1 <= x <= u64_max -> 0 <= Z.log2 x <= 63.
Proof.
  intros. split; [apply Z.log2_nonneg|]. assert (Z.log2 x < 64); [|lia].
  apply Z.log2_lt_pow2; [lia|]. unfold u64_max in *. lia.
Qed.

Lemma log2_log2_le k : 0 <= k <= 64 -> 0 <= Z.log2 k <= 6.
Proof.
  intros. split; [apply Z.log2_nonneg|].
  apply (Z.log2_le_mono k 64). lia.
Qed.

Lemma log2_floor_f64_bounds x : 1 <= x <= u64_max ->
  Z.log2 x <= log2_floor_f64 x <= Z.log2 x + 1.
Proof.
  intros Hx. pose proof (f64_round_bounds x ltac:(lia)) as [B1 B2].
  pose proof (log2_le_63 x Hx) as L. unfold log2_floor_f64.
  set (r := f64_round_u64 x) in *. set (k := Z.log2 x) in *.
  destruct (Z.eq_dec r (2 ^ (k + 1))) as [E|E].
  - rewrite E. rewrite Z.log2_pow2 by lia.
    pose proof (log2_log2_le (k + 1) ltac:(lia)) as LL.
    assert (P : 2 ^ Z.log2 (k + 1) <= 64).
    { change 64 with (2 ^ 6). apply Z.pow_le_mono_r; lia. }
    rewrite (Z.pow_add_r 2 (k + 1) 1), (Z.pow_add_r 2 (k + 1) (Z.log2 (k + 1))) by lia.
    pose proof (pow2_pos (k + 1) ltac:(lia)) as P1.
    destruct (Z.leb_spec 1 (k + 1)); cbn [andb]; [|lia].
    destruct (Z.leb_spec ((2 ^ (k + 1) * 2 ^ 1 - 2 ^ (k + 1)) * 2 ^ 52 * 10 ^ 12)
                (693147180559 * (2 ^ (k + 1) * 2 ^ Z.log2 (k + 1)))); [|lia].
    exfalso. change (2 ^ 1) with 2 in *. change (2 ^ 52) with 4503599627370496 in *.
    change (10 ^ 12) with 1000000000000 in *. nia.
  - assert (Z.log2 r = k) as ->.
    { apply Z.log2_unique; [lia|]. unfold Z.succ. lia. }
    destruct (_ && _); lia.
Qed.

Lemma log2_floor_f64_small x : 1 <= x < 2 ^ 48 -> log2_floor_f64 x = Z.log2 x.
Proof.
  intros Hx. assert (L : 0 <= Z.log2 x <= 47).
  { split; [apply Z.log2_nonneg|]. assert (Z.log2 x < 48); [|lia]. apply Z.log2_lt_pow2; lia. }
  pose proof (Z.log2_spec x ltac:(lia)) as [L1 L2]. unfold Z.succ in L2.
  unfold log2_floor_f64, f64_round_u64.
  destruct (Z.leb_spec (Z.log2 x - 52) 0); [|lia].
  set (k := Z.log2 x) in *.
  destruct (Z.leb_spec 1 k); cbn [andb]; auto.
  destruct (Z.leb_spec ((2 ^ (k + 1) - x) * 2 ^ 52 * 10 ^ 12) (693147180559 * 2 ^ (k + Z.log2 k))) as [C|C]; auto.
  exfalso.
  assert (Z.log2 k <= 5) by (apply (Z.log2_le_mono k 47); lia).
  pose proof (Z.log2_nonneg k).
  assert (2 ^ (k + Z.log2 k) <= 2 ^ 52) by (apply Z.pow_le_mono_r; lia).
  change (2 ^ 52) with 4503599627370496 in *. change (10 ^ 12) with 1000000000000 in *. lia.
Qed.
