(** * Varints, zig-zag and big-endian integers *)
From Verif Require Import Machine Log2Model HistModel ListZ SerModel SerSpec.
From Coq Require Import ZifyBool ZifyNat.

Definition byte (b : Z) : Prop := 0 <= b < 256.

(** ** Lists *)
Lemma length_zlen {A} (l : list A) : Z.to_nat (zlen l) = length l.
Proof. unfold zlen. lia. Qed.

Lemma put_at pre y post x i : i = zlen pre -> put (pre ++ y :: post) i x = Ret (pre ++ x :: post).
Proof.
  intros ->. unfold put. rewrite zlen_app, zlen_cons. pose proof (zlen_nonneg pre). pose proof (zlen_nonneg post).
  replace ((0 <=? zlen pre) && (zlen pre <? zlen pre + (zlen post + 1))) with true by lia.
  f_equal. unfold vset. rewrite length_zlen. clear. induction pre as [|z pre IH]; cbn; [reflexivity|]. f_equal. exact IH.
Qed.

Lemma skipn_app_at {A} (a b : list A) n : n = length a -> skipn n (a ++ b) = b.
Proof. intros ->. rewrite skipn_app, skipn_all, Nat.sub_diag. reflexivity. Qed.
Lemma firstn_app_at {A} (a b : list A) n : n = length a -> firstn n (a ++ b) = a.
Proof. intros ->. rewrite firstn_app, firstn_all, Nat.sub_diag, firstn_O, app_nil_r. reflexivity. Qed.

Lemma read_exact_app a b : read_exact (zlen a) (a ++ b) = Some (a, b).
Proof.
  unfold read_exact. rewrite zlen_app. pose proof (zlen_nonneg b).
  replace (zlen a <=? zlen a + zlen b) with true by lia.
  rewrite length_zlen, firstn_app_at, skipn_app_at by auto. reflexivity.
Qed.

Lemma read_exact_short n rd : zlen rd < n -> read_exact n rd = None.
Proof. intros. unfold read_exact. replace (n <=? zlen rd) with false by lia. reflexivity. Qed.

Lemma read_exact_some n rd bs rd' : 0 <= n -> read_exact n rd = Some (bs, rd') -> rd = bs ++ rd' /\ zlen bs = n.
Proof.
  unfold read_exact. destruct (Z.leb_spec n (zlen rd)); [|discriminate]. intros N E. injection E as <- <-.
  rewrite firstn_skipn. split; auto. apply zlen_firstn. lia.
Qed.

(** ** Big-endian integers *)
Lemma be_write_len n x : length (be_write n x) = n.
Proof. induction n; cbn [be_write length]; auto. Qed.

Lemma be_write_bytes n x : Forall byte (be_write n x).
Proof.
  induction n; cbn [be_write]; constructor; auto.
  unfold byte. pose proof (Z.mod_pos_bound (x / 2 ^ (8 * Z.of_nat n)) (2 ^ 8) ltac:(lia)). change 256 with (2 ^ 8). lia.
Qed.

Lemma be_value_write n x : forall acc, 0 <= x -> 
  be_value (be_write n x) acc = acc * 2 ^ (8 * Z.of_nat n) + x mod 2 ^ (8 * Z.of_nat n).
Proof.
  induction n as [|n IH]; intros acc X.
  - cbn [be_write be_value]. change (2 ^ (8 * Z.of_nat 0)) with 1. rewrite Z.mod_1_r. lia.
  - cbn [be_write be_value]. rewrite IH by auto. set (k := 8 * Z.of_nat n).
    replace (8 * Z.of_nat (S n)) with (k + 8) by lia.
    rewrite !Z.pow_add_r by lia. set (P := 2 ^ k). assert (0 < P) by (apply Z.pow_pos_nonneg; lia).
    rewrite (Z.rem_mul_r x P (2 ^ 8)) by lia. ring.
Qed.

Lemma read_be_write n x rest : 0 <= x < 2 ^ (8 * Z.of_nat n) ->
  read_be (Z.of_nat n) (be_write n x ++ rest) = Some (x, rest).
Proof.
  intros X. unfold read_be. replace (Z.of_nat n) with (zlen (be_write n x)) by (unfold zlen; rewrite be_write_len; reflexivity).
  rewrite read_exact_app. rewrite be_value_write by lia. rewrite Z.mod_small by auto. f_equal. 
Qed.

Lemma read_be_short n rd : zlen rd < n -> read_be n rd = None.
Proof. intros. unfold read_be. rewrite read_exact_short; auto. Qed.

Lemma be_value_range bs : Forall byte bs -> forall acc k, 0 <= acc < 2 ^ k -> 0 <= k ->
  0 <= be_value bs acc < 2 ^ (k + 8 * zlen bs).
Proof.
  induction 1 as [|b bs B F IH]; intros acc k A K; cbn [be_value].
  - change (zlen (@nil Z)) with 0. replace (k + 8 * 0) with k by lia. auto.
  - rewrite zlen_cons. replace (k + 8 * (zlen bs + 1)) with ((k + 8) + 8 * zlen bs) by lia. apply IH; [|lia].
    rewrite Z.pow_add_r by lia. unfold byte in B. change (2 ^ 8) with 256. nia.
Qed.

Lemma read_be_range n rd x rd' : Forall byte rd -> 0 <= n -> read_be n rd = Some (x, rd') ->
  0 <= x < 2 ^ (8 * n) /\ Forall byte rd' /\ exists bs, rd = bs ++ rd' /\ zlen bs = n.
Proof.
  intros F N E. unfold read_be in E. destruct (read_exact n rd) as [[bs r]|] eqn:R; [|discriminate]. injection E as <- <-.
  apply read_exact_some in R; auto. destruct R as [-> L]. apply Forall_app in F as [F1 F2].
  split; [|split; eauto]. rewrite <- L. apply (be_value_range bs F1 0 0); lia.
Qed.

(** ** Zig-zag *)
Lemma zz_encode n : i64_min <= n <= i64_max -> zig_zag_encode n = if n <? 0 then - 2 * n - 1 else 2 * n.
Proof.
  unfold i64_min, i64_max. intros N. unfold zig_zag_encode, wrap_i64.
  rewrite Z.shiftl_mul_pow2, Z.shiftr_div_pow2 by lia. change (2 ^ 1) with 2.
  change (2 ^ 63) with 9223372036854775808. change (2 ^ 64) with 18446744073709551616.
  destruct (Z.ltb_spec n 0).
  - replace (n / 9223372036854775808) with (-1) by (apply (Z.div_unique n 9223372036854775808 (-1) (n + 9223372036854775808)); lia).
    rewrite Z.lxor_m1_r. unfold Z.lnot.
    assert (E : (n * 2 + 9223372036854775808) mod 18446744073709551616 = n * 2 + 9223372036854775808 \/
                (n * 2 + 9223372036854775808) mod 18446744073709551616 = n * 2 + 9223372036854775808 + 18446744073709551616).
    { destruct (Z_lt_le_dec (n * 2 + 9223372036854775808) 0).
      - right. symmetry. apply (Z.mod_unique _ _ (-1)); lia.
      - left. apply Z.mod_small. lia. }
    destruct E as [E|E]; rewrite E.
    + rewrite Z.mod_small; lia.
    + rewrite <- (Z.mod_add _ 1) by lia. rewrite Z.mod_small; lia.
  - rewrite (Z.div_small n) by lia. rewrite Z.lxor_0_r.
    assert (E : (n * 2 + 9223372036854775808) mod 18446744073709551616 = n * 2 + 9223372036854775808 \/
                (n * 2 + 9223372036854775808) mod 18446744073709551616 = n * 2 + 9223372036854775808 - 18446744073709551616).
    { destruct (Z_lt_le_dec (n * 2 + 9223372036854775808) 18446744073709551616).
      - left. apply Z.mod_small. lia.
      - right. symmetry. apply (Z.mod_unique _ _ 1); lia. }
    destruct E as [E|E]; rewrite E.
    + rewrite Z.mod_small; lia.
    + rewrite <- (Z.mod_add _ 1) by lia. rewrite Z.mod_small; lia.
Qed.

Lemma zz_decode e : 0 <= e <= u64_max -> zig_zag_decode e = if Z.even e then e / 2 else - (e / 2) - 1.
Proof.
  unfold u64_max. intros E. unfold zig_zag_decode, wrap_i64.
  rewrite Z.shiftr_div_pow2 by lia. change (2 ^ 1) with 2.
  pose proof (Z.div_mod e 2 ltac:(lia)). pose proof (Z.mod_pos_bound e 2 ltac:(lia)).
  rewrite (Z.mod_small (e / 2 + _)) by (change (2 ^ 63) with 9223372036854775808; change (2 ^ 64) with 18446744073709551616; lia).
  replace (e / 2 + 2 ^ 63 - 2 ^ 63) with (e / 2) by lia.
  change 1 with (Z.ones 1) at 1. rewrite Z.land_ones by lia. change (2 ^ 1) with 2.
  rewrite Zeven_mod. unfold Zeq_bool. 
  destruct (Z.eq_dec (e mod 2) 0) as [M|M].
  - rewrite M. cbn [Z.compare Z.opp]. rewrite Z.lxor_0_r. reflexivity.
  - replace (e mod 2) with 1 by lia. cbn [Z.compare Z.opp]. rewrite Z.lxor_m1_r. unfold Z.lnot. lia.
Qed.

Lemma zz_encode_range n : i64_min <= n <= i64_max -> 0 <= zig_zag_encode n <= u64_max.
Proof. intros N. rewrite zz_encode by auto. unfold i64_min, i64_max, u64_max in *. destruct (n <? 0) eqn:?; lia. Qed.

Lemma zz_decode_range e : 0 <= e <= u64_max -> i64_min <= zig_zag_decode e <= i64_max.
Proof.
  intros N. rewrite zz_decode by auto. unfold i64_min, i64_max, u64_max in *.
  pose proof (Z.div_mod e 2 ltac:(lia)). pose proof (Z.mod_pos_bound e 2 ltac:(lia)).
  destruct (Z.even e) eqn:?; lia.
Qed.

Lemma zz_inv n : i64_min <= n <= i64_max -> zig_zag_decode (zig_zag_encode n) = n.
Proof.
  intros N. rewrite zz_decode by (apply zz_encode_range; auto). rewrite zz_encode by auto.
  destruct (Z.ltb_spec n 0).
  - replace (- 2 * n - 1) with (1 + 2 * (- n - 1)) by lia. rewrite Z.even_add_mul_2. change (Z.even 1) with false.
    rewrite (Z.mul_comm 2), Z.div_add by lia. change (1 / 2) with 0. lia.
  - replace (2 * n) with (0 + 2 * n) by lia. rewrite Z.even_add_mul_2. change (Z.even 0) with true.
    rewrite (Z.mul_comm 2), Z.div_add by lia. change (0 / 2) with 0. lia.
Qed.

Lemma zz_inv2 e : 0 <= e <= u64_max -> zig_zag_encode (zig_zag_decode e) = e.
Proof.
  intros N. rewrite zz_encode by (apply zz_decode_range; auto). rewrite zz_decode by auto.
  pose proof (Z.div_mod e 2 ltac:(lia)). pose proof (Z.mod_pos_bound e 2 ltac:(lia)).
  rewrite Zeven_mod. unfold Zeq_bool. 
  destruct (Z.eq_dec (e mod 2) 0) as [M|M].
  - rewrite M. cbn [Z.compare]. destruct (Z.ltb_spec (e / 2) 0); lia.
  - replace (e mod 2) with 1 by lia. cbn [Z.compare]. destruct (Z.ltb_spec (- (e / 2) - 1) 0); lia.
Qed.

(** ** Varints *)
Lemma leb_len steps : forall x, (1 <= length (leb steps x) <= S steps)%nat.
Proof. induction steps as [|k IH]; intros x; cbn [leb]; [cbn; lia|]. destruct (x <? 128); cbn [length]; [lia|]. specialize (IH (x / 128)). lia. Qed.

Lemma leb_bytes steps : forall x, 0 <= x < 2 ^ (7 * Z.of_nat steps + 8) -> Forall byte (leb steps x).
Proof.
  induction steps as [|k IH]; intros x X; cbn [leb].
  - constructor; [|constructor]. unfold byte. change (2 ^ (7 * Z.of_nat 0 + 8)) with 256 in X. lia.
  - destruct (Z.ltb_spec x 128); [repeat constructor; unfold byte; lia|].
    pose proof (Z.mod_pos_bound x 128 ltac:(lia)). constructor; [unfold byte; lia|]. apply IH.
    split; [apply Z.div_pos; lia|]. apply Z.div_lt_upper_bound; [lia|]. change 128 with (2 ^ 7). rewrite <- Z.pow_add_r by lia.
    replace (7 + (7 * Z.of_nat k + 8)) with (7 * Z.of_nat (S k) + 8) by lia. lia.
Qed.

Lemma split_at {A} (l : list A) n : (n <= length l)%nat -> exists a b, l = a ++ b /\ length a = n.
Proof. intros. exists (firstn n l), (skipn n l). rewrite firstn_skipn, firstn_length. split; auto. lia. Qed.

Lemma lor_128 x : 0 <= x < 128 -> Z.lor 128 x = 128 + x.
Proof.
  intros X. rewrite Z.lor_comm.
  assert (D : Z.land x 128 = 0).
  { apply Z.bits_inj'. intros n Hn. rewrite Z.land_spec, Z.bits_0. change 128 with (2 ^ 7).
    destruct (Z.eq_dec n 7) as [->|].
    - rewrite (Z.bits_above_log2 x 7); auto; [lia|]. destruct (Z.eq_dec x 0) as [->|]; [cbn; lia|]. apply Z.log2_lt_pow2; lia.
    - rewrite Z.pow2_bits_false by auto. apply andb_false_r. }
  rewrite <- Z.lxor_lor by auto. rewrite <- Z.add_nocarry_lxor by auto. lia.
Qed.

Lemma as_u8_lor x : 0 <= x -> Z.lor (as_u8 x) 128 = x mod 128 + 128.
Proof.
  intros X. unfold as_u8. change (2 ^ 8) with (128 * 2).
  rewrite Z.rem_mul_r by lia. pose proof (Z.mod_pos_bound x 128 ltac:(lia)).
  pose proof (Z.mod_pos_bound (x / 128) 2 ltac:(lia)).
  assert (E : (x / 128) mod 2 = 0 \/ (x / 128) mod 2 = 1) by lia. destruct E as [->| ->].
  - rewrite Z.mul_0_r, Z.add_0_r, Z.lor_comm, lor_128 by lia. lia.
  - rewrite Z.mul_1_r. rewrite (Z.add_comm (x mod 128)), <- lor_128 by lia.
    rewrite (Z.lor_comm 128), <- Z.lor_assoc, Z.lor_diag. rewrite Z.lor_comm, lor_128 by lia. lia.
Qed.

Lemma shift7 x n : 0 <= x -> 0 <= n <= 8 -> shift_by_7s x n = Ret (x / 2 ^ (7 * n)).
Proof.
  intros. unfold shift_by_7s, u64_shr. destruct (Z.ltb_spec (7 * n) 64); [|lia].
  rewrite Z.shiftr_div_pow2 by lia. reflexivity.
Qed.

Lemma div_0_iff x d : 0 <= x -> 0 < d -> (x / d =? 0) = (x <? d).
Proof.
  intros. destruct (Z.ltb_spec x d).
  - rewrite Z.div_small by lia. reflexivity.
  - assert (1 <= x / d) by (apply Z.div_le_lower_bound; lia). lia.
Qed.

Lemma varint_write_from_ok steps : forall n input pre post off,
  0 <= input <= u64_max -> 1 <= n -> Z.of_nat steps + n = 8 -> zlen pre = off + n ->
  (length (leb steps (input / 2 ^ (7 * n))) <= length post)%nat ->
  varint_write_from steps n input (pre ++ post) off =
  Ret (pre ++ leb steps (input / 2 ^ (7 * n)) ++ skipn (length (leb steps (input / 2 ^ (7 * n)))) post,
       n + zlen (leb steps (input / 2 ^ (7 * n)))).
Proof.
  induction steps as [|k IH]; intros n input pre post off I N S8 PO LP; cbn [varint_write_from].
  - replace n with 8 in * by lia. cbn [leb] in *. 
    destruct post as [|y post]; [cbn in LP; lia|].
    unfold u64_shr. cbn [Z.ltb]. change (56 <? 64) with true. cbn [bind].
    rewrite put_at by lia. cbn [bind]. rewrite Z.shiftr_div_pow2 by lia. change (7 * 8) with 56.
    cbn [length skipn]. unfold zlen. cbn [length].
    f_equal. f_equal. cbn [app]. f_equal. f_equal. unfold as_u8. apply Z.mod_small.
    split; [apply Z.div_pos; lia|]. apply Z.div_lt_upper_bound; [lia|]. unfold u64_max in I. lia.
  - rewrite !shift7 by lia. cbn [bind].
    assert (P7 : 0 < 2 ^ (7 * n)) by (apply Z.pow_pos_nonneg; lia).
    assert (ED : input / 2 ^ (7 * (n + 1)) = input / 2 ^ (7 * n) / 128).
    { rewrite Z.div_div by lia. f_equal. change 128 with (2 ^ 7). rewrite <- Z.pow_add_r by lia. f_equal. lia. }
    set (x := input / 2 ^ (7 * n)) in *. assert (X0 : 0 <= x) by (apply Z.div_pos; lia).
    rewrite ED, div_0_iff by lia. cbn [leb] in *. 
    destruct post as [|y post]; [destruct (x <? 128); cbn in LP; lia|].
    destruct (Z.ltb_spec x 128).
    + rewrite put_at by lia. cbn [bind length skipn app]. unfold zlen. cbn [length]. f_equal. f_equal.
      f_equal. f_equal. unfold as_u8. apply Z.mod_small. lia.
    + unfold nth_7b_chunk_with_high_bit. rewrite shift7 by lia. cbn [bind]. fold x.
      rewrite put_at by lia. cbn [bind]. rewrite as_u8_lor by auto.
      replace (pre ++ x mod 128 + 128 :: post) with ((pre ++ [x mod 128 + 128]) ++ post) by (rewrite <- app_assoc; reflexivity).
      rewrite IH; [|auto|lia|lia|rewrite zlen_app, zlen_cons, zlen_nil; lia|rewrite ED; cbn [length] in LP; lia].
      rewrite ED. cbn [length skipn app]. rewrite <- app_assoc. cbn [app]. rewrite zlen_cons. f_equal. f_equal. lia.
Qed.

Lemma varint_write_ok x pre post : 0 <= x <= u64_max -> (length (varint x) <= length post)%nat ->
  varint_write x (pre ++ post) (zlen pre) = Ret (pre ++ varint x ++ skipn (length (varint x)) post, zlen (varint x)).
Proof.
  intros X LP. unfold varint_write, varint in *. rewrite shift7 by lia. cbn [bind].
  change (7 * 1) with 7. rewrite div_0_iff by lia. change (2 ^ 7) with 128.
  change (leb 8 x) with (if x <? 128 then [x] else x mod 128 + 128 :: leb 7 (x / 128)) in *.
  destruct post as [|y post]; [destruct (x <? 128); cbn in LP; lia|].
  destruct (Z.ltb_spec x 128).
  - rewrite put_at by auto. cbn [bind length skipn app]. unfold zlen. cbn [length]. f_equal. f_equal.
    f_equal. f_equal. unfold as_u8. apply Z.mod_small. lia.
  - rewrite put_at by auto. cbn [bind].
    replace (Z.lor 128 (as_u8 (Z.land x 127))) with (x mod 128 + 128).
    2:{ change 127 with (Z.ones 7). rewrite Z.land_ones by lia. change (2 ^ 7) with 128.
        pose proof (Z.mod_pos_bound x 128 ltac:(lia)). unfold as_u8. rewrite (Z.mod_small (x mod 128)) by lia.
        rewrite lor_128 by lia. lia. }
    replace (pre ++ x mod 128 + 128 :: post) with ((pre ++ [x mod 128 + 128]) ++ post) by (rewrite <- app_assoc; reflexivity).
    assert (E7 : 2 ^ (7 * 1) = 128) by reflexivity.
    rewrite varint_write_from_ok; [|auto|lia|lia|rewrite zlen_app, zlen_cons, zlen_nil; lia|].
    + rewrite E7. rewrite <- app_assoc. cbn [app length skipn]. rewrite zlen_cons. f_equal. f_equal. lia.
    + rewrite E7. cbn [length] in LP. lia.
Qed.

(** *** Reading *)
Lemma lor_shift v b k : 0 <= k -> 0 <= v < 2 ^ k -> 0 <= b -> Z.lor v (Z.shiftl b k) = v + b * 2 ^ k.
Proof.
  intros K V B. 
  assert (D : Z.land v (Z.shiftl b k) = 0).
  { apply Z.bits_inj'. intros n Hn. rewrite Z.land_spec, Z.bits_0.
    destruct (Z_lt_le_dec n k).
    - rewrite Z.shiftl_spec_low by auto. apply andb_false_r.
    - destruct (Z.eq_dec v 0) as [->|]; [rewrite Z.bits_0; reflexivity|].
      rewrite (Z.bits_above_log2 v n); auto; [lia|]. assert (Z.log2 v < k) by (apply Z.log2_lt_pow2; lia). lia. }
  rewrite <- Z.lxor_lor by auto. rewrite <- Z.add_nocarry_lxor by auto. rewrite Z.shiftl_mul_pow2 by auto. reflexivity.
Qed.

Lemma low7 b : 0 <= b -> low_7_bits b = b mod 128.
Proof. intros. unfold low_7_bits. change 127 with (Z.ones 7). rewrite Z.land_ones by lia. reflexivity. Qed.

Lemma high_bit b : byte b -> is_high_bit_set b = (128 <=? b).
Proof.
  unfold byte, is_high_bit_set. intros B.
  destruct (Z.leb_spec 128 b).
  - replace b with (128 + (b - 128)) by lia. rewrite <- lor_128 by lia. rewrite Z.land_comm, Z.land_lor_distr_r.
    change (Z.land 128 128) with 128. destruct (Z.lor 128 (Z.land 128 (b - 128))) eqn:E; try reflexivity.
    apply Z.lor_eq_0_l in E. discriminate.
  - assert (E : Z.land b 128 = 0); [|rewrite E; reflexivity].
    apply Z.bits_inj'. intros n Hn. rewrite Z.land_spec, Z.bits_0. change 128 with (2 ^ 7).
    destruct (Z.eq_dec n 7) as [->|].
    + destruct (Z.eq_dec b 0) as [->|]; [reflexivity|]. rewrite (Z.bits_above_log2 b 7); auto; [lia|]. apply Z.log2_lt_pow2; lia.
    + rewrite Z.pow2_bits_false by auto. apply andb_false_r.
Qed.

Lemma varint_read_leb steps : forall n v x rest, Z.of_nat steps + n = 8 -> 0 <= n -> 0 <= v < 2 ^ (7 * n) ->
  0 <= x < 2 ^ (7 * Z.of_nat steps + 8) ->
  varint_read_from steps n v (leb steps x ++ rest) = Some (v + x * 2 ^ (7 * n), rest).
Proof.
  induction steps as [|k IH]; intros n v x rest N8 N0 V X; cbn [leb].
  - cbn [app varint_read_from]. replace n with 8 in * by lia. change (7 * 8) with 56 in *.
    rewrite lor_shift by lia. reflexivity.
  - pose proof (Z.mod_pos_bound x 128 ltac:(lia)).
    destruct (Z.ltb_spec x 128); cbn [app varint_read_from].
    + rewrite high_bit by (unfold byte; lia). replace (128 <=? x) with false by lia.
      rewrite low7, Z.mod_small by lia. rewrite lor_shift by lia. reflexivity.
    + rewrite high_bit by (unfold byte; lia). replace (128 <=? x mod 128 + 128) with true by lia.
      rewrite low7 by lia. rewrite <- (Z.mod_add x 1 128) at 1 by lia.
      replace ((x + 1 * 128) mod 128 + 128) with (x mod 128 + 1 * 128) by (rewrite Z.mod_add by lia; lia).
      rewrite Z.mod_add, Z.mod_mod by lia. rewrite lor_shift by lia.
      assert (P7 : 0 < 2 ^ (7 * n)) by (apply Z.pow_pos_nonneg; lia).
      assert (PE : 2 ^ (7 * (n + 1)) = 128 * 2 ^ (7 * n)).
      { replace (7 * (n + 1)) with (7 + 7 * n) by lia. rewrite Z.pow_add_r by lia. reflexivity. }
      rewrite IH; [|lia|lia| |].
      * f_equal. f_equal. rewrite PE. pose proof (Z.div_mod x 128 ltac:(lia)). nia.
      * rewrite PE. nia.
      * split; [apply Z.div_pos; lia|]. apply Z.div_lt_upper_bound; [lia|]. change 128 with (2 ^ 7).
        rewrite <- Z.pow_add_r by lia. replace (7 + (7 * Z.of_nat k + 8)) with (7 * Z.of_nat (S k) + 8) by lia. lia.
Qed.

Lemma varint_read_ok x rest : 0 <= x <= u64_max -> varint_read (varint x ++ rest) = Some (x, rest).
Proof.
  intros X. unfold varint_read, varint. rewrite varint_read_leb; [|reflexivity|lia|cbn; lia|].
  - f_equal. f_equal. change (2 ^ (7 * 0)) with 1. lia.
  - change (2 ^ (7 * Z.of_nat 8 + 8)) with (u64_max + 1). lia.
Qed.

(** what a read consumes, and that its value fits *)
Lemma varint_read_from_some steps : forall n v rd x rd', Forall byte rd -> Z.of_nat steps + n = 8 -> 0 <= n ->
  0 <= v < 2 ^ (7 * n) -> varint_read_from steps n v rd = Some (x, rd') ->
  exists a, rd = a ++ rd' /\ (1 <= length a <= S steps)%nat /\ 0 <= x <= u64_max.
Proof.
  induction steps as [|k IH]; intros n v rd x rd' F N8 N0 V E; cbn [varint_read_from] in E.
  - destruct rd as [|b rd]; [discriminate|]. inversion F; subst. replace n with 8 in * by lia. change (7 * 8) with 56 in *.
    unfold byte in *. rewrite lor_shift in E by lia. assert (x = v + b * 2 ^ 56) as -> by congruence.
    assert (rd' = rd) as -> by congruence. exists [b].
    split; [reflexivity|]. split; [cbn; lia|]. unfold u64_max. lia.
  - destruct rd as [|b rd]; [discriminate|]. inversion F as [|? ? B F']; subst. 
    rewrite high_bit in E by auto. unfold byte in B.
    assert (P7 : 0 < 2 ^ (7 * n)) by (apply Z.pow_pos_nonneg; lia).
    assert (PE : 2 ^ (7 * (n + 1)) = 128 * 2 ^ (7 * n)).
    { replace (7 * (n + 1)) with (7 + 7 * n) by lia. rewrite Z.pow_add_r by lia. reflexivity. }
    pose proof (Z.mod_pos_bound b 128 ltac:(lia)).
    rewrite low7, lor_shift in E by (rewrite ?low7 by lia; lia).
    destruct (128 <=? b).
    + apply IH in E; auto; try lia; [|rewrite PE; nia].
      destruct E as (a & -> & L & X). exists (b :: a). split; [reflexivity|]. split; [cbn [length]; lia|auto].
    + assert (x = v + b mod 128 * 2 ^ (7 * n)) as -> by congruence.
      assert (rd' = rd) as -> by congruence. exists [b]. split; [reflexivity|]. split; [cbn; lia|].
      assert (2 ^ (7 * (n + 1)) <= 2 ^ 56) by (apply Z.pow_le_mono_r; lia).
      change (2 ^ 56) with 72057594037927936 in *. unfold u64_max. nia.
Qed.

Lemma varint_read_some rd x rd' : Forall byte rd -> varint_read rd = Some (x, rd') ->
  exists a, rd = a ++ rd' /\ (1 <= length a <= 9)%nat /\ 0 <= x <= u64_max.
Proof. intros F E. apply (varint_read_from_some 8 0 0) in E; auto; cbn; lia. Qed.

(** a read needs at most nine bytes *)
Lemma varint_read_from_enough steps : forall n v rd, (S steps <= length rd)%nat ->
  exists x rd', varint_read_from steps n v rd = Some (x, rd').
Proof.
  induction steps as [|k IH]; intros n v rd L; destruct rd as [|b rd]; cbn [length] in L; try lia; cbn [varint_read_from].
  - eauto.
  - destruct (is_high_bit_set b); eauto. apply IH. lia.
Qed.

(** the reader over slices agrees with the other *)
Lemma varint_slice_from steps : forall n v pre rd, Forall byte (pre ++ rd) -> Z.of_nat steps + n = 8 -> 0 <= n ->
  zlen pre = n -> 0 <= v < 2 ^ (7 * n) ->
  varint_read_slice_from steps n v (pre ++ rd) =
  match varint_read_from steps n v rd with
  | Some (x, rd') => Ret (x, n + (zlen rd - zlen rd'))
  | None => Panic end.
Proof.
  induction steps as [|k IH]; intros n v pre rd F N8 N0 L V; cbn [varint_read_slice_from varint_read_from].
  - destruct rd as [|b rd].
    + rewrite vget_out by (rewrite zlen_app, zlen_nil; lia). reflexivity.
    + apply Forall_app in F as [_ F]. inversion F as [|? ? B F']; subst.
      rewrite vget_in by (rewrite zlen_app, zlen_cons; pose proof (zlen_nonneg rd); lia).
      unfold zn at 1. rewrite length_zlen, app_nth2, Nat.sub_diag by lia. cbn [nth expect bind].
      unfold u64_shl. change (56 <? 64) with true. cbn [bind].
      replace (Z.shiftl b 56 mod 2 ^ 64) with (Z.shiftl b 56).
      2:{ symmetry. apply Z.mod_small. unfold byte in B. rewrite Z.shiftl_mul_pow2 by lia. lia. }
      f_equal. f_equal. rewrite zlen_cons. lia.
  - destruct rd as [|b rd].
    + rewrite vget_out by (rewrite zlen_app, zlen_nil; lia). reflexivity.
    + pose proof F as F0. apply Forall_app in F as [Fp F]. inversion F as [|? ? B F']; subst.
      rewrite vget_in by (rewrite zlen_app, zlen_cons; pose proof (zlen_nonneg rd); lia).
      unfold zn at 1. rewrite length_zlen, app_nth2, Nat.sub_diag by lia. cbn [nth expect bind].
      set (n := zlen pre) in *. unfold byte in B.
      assert (P7 : 0 < 2 ^ (7 * n)) by (apply Z.pow_pos_nonneg; lia).
      assert (PE : 2 ^ (7 * (n + 1)) = 128 * 2 ^ (7 * n)).
      { replace (7 * (n + 1)) with (7 + 7 * n) by lia. rewrite Z.pow_add_r by lia. reflexivity. }
      pose proof (Z.mod_pos_bound b 128 ltac:(lia)).
      unfold u64_shl. destruct (Z.ltb_spec (7 * n) 64); [|lia]. cbn [bind].
      replace (Z.shiftl (low_7_bits b) (7 * n) mod 2 ^ 64) with (Z.shiftl (low_7_bits b) (7 * n)).
      2:{ symmetry. apply Z.mod_small. rewrite low7, Z.shiftl_mul_pow2 by lia.
          assert (2 ^ (7 * (n + 1)) <= 2 ^ 56) by (apply Z.pow_le_mono_r; lia).
          assert (2 ^ 56 < 2 ^ 64) by reflexivity. nia. }
      destruct (is_high_bit_set b); cbn [negb].
      * replace (pre ++ b :: rd) with ((pre ++ [b]) ++ rd) in * by (rewrite <- app_assoc; reflexivity).
        rewrite IH; auto; try lia.
        -- destruct (varint_read_from k (n + 1) _ rd) as [[x rd']|]; auto. f_equal. f_equal. rewrite zlen_cons. lia.
        -- rewrite zlen_app, zlen_cons, zlen_nil. fold n. lia.
        -- rewrite low7, lor_shift by (rewrite ?low7 by lia; lia). rewrite PE. nia.
      * f_equal. f_equal. rewrite zlen_cons. lia.
Qed.

(** ... and only looks at what it consumes *)
Lemma varint_read_from_prefix steps : forall n v a b, (S steps <= length a)%nat ->
  varint_read_from steps n v (a ++ b) =
  match varint_read_from steps n v a with Some (x, a') => Some (x, a' ++ b) | None => None end.
Proof.
  induction steps as [|k IH]; intros n v a b L; destruct a as [|c a]; cbn [length] in L; try lia; cbn [app varint_read_from]; auto.
  destruct (is_high_bit_set c); auto. apply IH. lia.
Qed.

Lemma varint_slice_ok rd : Forall byte rd -> (9 <= length rd)%nat ->
  exists x rd', varint_read rd = Some (x, rd') /\
    varint_read_slice (firstn 9 rd) = Ret (x, zlen rd - zlen rd').
Proof.
  intros F L. destruct (varint_read_from_enough 8 0 0 (firstn 9 rd)) as (x & a' & E); [rewrite firstn_length; lia|].
  exists x, (a' ++ skipn 9 rd). unfold varint_read, varint_read_slice.
  assert (P : varint_read_from 8 0 0 (firstn 9 rd ++ skipn 9 rd) = Some (x, a' ++ skipn 9 rd)).
  { rewrite varint_read_from_prefix by (rewrite firstn_length; lia). rewrite E. reflexivity. }
  rewrite firstn_skipn in P. split; [exact P|].
  rewrite <- (firstn_skipn 9 rd) at 2.
  pose proof (varint_slice_from 8 0 0 [] (firstn 9 rd) ltac:(apply Forall_firstn; auto) eq_refl ltac:(lia) eq_refl ltac:(cbn; lia)) as Q.
  cbn [app] in Q. rewrite Q, E. f_equal. f_equal. rewrite !zlen_app. lia.
Qed.
