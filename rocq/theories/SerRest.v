(** * More about the deserializer: truncated input, foreign images, compression, reuse *)
From Verif Require Import Machine Log2Model HistModel Bins ListZ Log2Facts Cfg Wf Ops AddFacts SubFacts Exact MoreFacts
  Spec SerModel SerSpec SerFacts SerCode SerDecode.
From Coq Require Import ZifyBool ZifyNat.

(** ** The encodings of the specification are those of the model *)
Lemma big_endian_write n : forall x, 0 <= x -> big_endian n x = be_write n x.
Proof.
  assert (SN : forall n x, 0 <= x -> be_write (S n) x = be_write n (x / 256) ++ [x mod 256]).
  { intros k x X. revert x X. induction k as [|k IH]; intros x X.
    - cbn [be_write app]. change (2 ^ (8 * Z.of_nat 0)) with 1. rewrite Z.div_1_r. reflexivity.
    - change (be_write (S (S k)) x) with ((x / 2 ^ (8 * Z.of_nat (S k))) mod 2 ^ 8 :: be_write (S k) x). rewrite IH by auto.
      cbn [be_write app]. f_equal. f_equal.
      replace (8 * Z.of_nat (S k)) with (8 + 8 * Z.of_nat k) by lia. rewrite Z.pow_add_r by lia. change (2 ^ 8) with 256.
      rewrite Z.div_div by (try lia; apply Z.pow_pos_nonneg; lia). reflexivity. }
  induction n as [|n IH]; intros x X; [reflexivity|]. rewrite SN by auto. cbn [big_endian].
  rewrite IH by (apply Z.div_pos; lia). reflexivity.
Qed.

Lemma zig_zag_eq t : tok_ok t -> zig_zag t = zig_zag_encode t.
Proof. intros T. rewrite zz_encode by exact T. reflexivity. Qed.

Lemma v2_payload_code ts : Forall tok_ok ts -> v2_payload ts = code ts.
Proof.
  unfold v2_payload, code. induction 1 as [|t ts T F IH]; cbn [flat_map]; [reflexivity|]. rewrite IH, zig_zag_eq by auto. reflexivity.
Qed.

Lemma flush_expand zc : 0 <= zc -> expand (flush zc) = repeat 0 (Z.to_nat zc).
Proof.
  intros Z0. unfold flush. destruct (Z.eqb_spec zc 0) as [->|]; [reflexivity|].
  destruct (Z.eqb_spec zc 1) as [->|]; [reflexivity|]. cbn [expand]. destruct (Z.ltb_spec (- zc) 0); [|lia].
  rewrite app_nil_r, Z.opp_involutive. reflexivity.
Qed.

Lemma expand_app a b : expand (a ++ b) = expand a ++ expand b.
Proof. induction a as [|t a IH]; cbn [app expand]; [reflexivity|]. rewrite IH, app_assoc. reflexivity. Qed.

Lemma toks_expand cs : Forall (fun c => 0 <= c) cs -> forall zc, 0 <= zc ->
  expand (toks zc cs) = repeat 0 (Z.to_nat zc) ++ cs.
Proof.
  induction 1 as [|c cs C F IH]; intros zc Z0; cbn [toks].
  - rewrite app_nil_r. apply flush_expand; auto.
  - destruct (Z.eqb_spec c 0) as [->|].
    + rewrite IH by lia. replace (Z.to_nat (zc + 1)) with (Z.to_nat zc + 1)%nat by lia.
      rewrite repeat_app, <- app_assoc. reflexivity.
    + rewrite expand_app, flush_expand by auto. f_equal. cbn [expand]. destruct (Z.ltb_spec c 0); [lia|].
      rewrite IH by lia. reflexivity.
Qed.

Lemma image_format h : wf h -> Forall (fun c => c <= i64_max) (h_counts h) ->
  image h = v2_format (h_low h) (h_high h) (h_sigfig h) (toks 0 (coded h)).
Proof.
  intros W F. destruct (payload_ok h W F) as (_ & TK & _). pose proof (payload_small h W) as (PS & _).
  destruct (self_params h (w_cfg h W)) as (UL & UH & US & _). unfold v2_format.
  rewrite v2_payload_code by auto. change (code (toks 0 (coded h))) with (payload h).
  rewrite !big_endian_write by (unfold u64 in *; lia). reflexivity.
Qed.

Section CHECKS.
Variable oc : bool.
Local Notation on_decoded_num := (SerModel.on_decoded_num oc).
Local Notation decode_payload := (SerModel.decode_payload oc).
Local Notation deser_v2 := (SerModel.deser_v2 oc).
Local Notation deserialize := (SerModel.deserialize oc).

(** ** Any sequence of numbers *)
Lemma zn_app a b i : 0 <= i -> zn (a ++ b) i = if i <? zlen a then zn a i else zn b (i - zlen a).
Proof.
  intros I. unfold zn. destruct (Z.ltb_spec i (zlen a)).
  - apply app_nth1. unfold zlen in *. lia.
  - rewrite app_nth2 by (unfold zlen in *; lia). f_equal. unfold zlen. lia.
Qed.
Lemma zn_repeat n i : zn (repeat 0 n) i = 0.
Proof. unfold zn. apply nth_repeat. Qed.

Lemma run_any h0 ts : Forall (fun t => i64_min < t <= Z.min i64_max (cmax (h_ctr h0))) ts -> forall d rs h,
  dinv h0 d rs h -> d + zlen (expand ts) <= usize_max ->
  (forall i, 0 <= i -> zn (expand ts) i <> 0 -> d + i < zlen (h_counts h0)) ->
  exists rs' h', run_toks oc ts d rs h = Ret (ROk (d + zlen (expand ts), rs', h')) /\ dinv h0 (d + zlen (expand ts)) rs' h' /\
    forall i, 0 <= i -> zn (h_counts h') i = if d <=? i then zn (expand ts) (i - d) else zn (h_counts h) i.
Proof.
  induction 1 as [|t ts T F IH]; intros d rs h DI L P; cbn [run_toks expand].
  - change (zlen (@nil Z)) with 0. rewrite Z.add_0_r. exists rs, h. split; [reflexivity|]. split; [exact DI|].
    intros i Hi. destruct (Z.leb_spec d i); auto. rewrite zn_nil. apply (di_zero _ _ _ _ DI). lia.
  - cbn [expand] in L, P.
    set (x := if t <? 0 then repeat 0 (Z.to_nat (- t)) else [t]) in *.
    pose proof (di_d _ _ _ _ DI) as D0. pose proof (zlen_nonneg x) as X0. pose proof (zlen_nonneg (expand ts)) as E0.
    rewrite zlen_app in *.
    assert (STEP : exists rs1 h1, on_decoded_num d t rs h = Ret (ROk (d + zlen x, rs1, h1)) /\
      forall i, 0 <= i -> i < d + zlen x -> zn (h_counts h1) i = if d <=? i then zn x (i - d) else zn (h_counts h) i).
    { unfold SerModel.on_decoded_num. destruct (Z.ltb_spec t 0) as [N|N].
      - assert (ZX : zlen x = - t) by (unfold x, zlen; rewrite repeat_length; lia).
        replace (if oc then in_range i64_min i64_max (- t) else Ret (wrap_i64 (- t))) with (Ret (- t)).
        2:{ unfold i64_min, i64_max in *. destruct oc; [rewrite in_range_ok by lia; reflexivity|]. unfold wrap_i64. rewrite Z.mod_small by lia. f_equal. lia. }
        cbn [bind]. destruct (Z.ltb_spec (- t) 0); [lia|]. destruct (Z.leb_spec (d + - t) usize_max); [|lia].
        exists rs, h. split; [do 4 f_equal; lia|]. intros i Hi L2. destruct (Z.leb_spec d i); auto.
        unfold x. rewrite zn_repeat. apply (di_zero _ _ _ _ DI). auto.
      - assert (ZX : zlen x = 1) by reflexivity.
        assert (HC : h_ctr h = h_ctr h0) by (rewrite (di_eq _ _ _ _ DI); reflexivity). rewrite HC.
        destruct (Z.ltb_spec (cmax (h_ctr h0)) t); [lia|]. cbn zeta. rewrite ZX in *.
        destruct (Z.leb_spec (d + 1) usize_max); [|lia].
        destruct (Z.ltb_spec 0 t).
        + pose proof (di_len _ _ _ _ DI) as LEN.
          assert (DL : d < zlen (h_counts h)).
          { rewrite LEN. specialize (P 0 ltac:(lia)). rewrite Z.add_0_r in P. apply P. unfold x. cbn. lia. }
          destruct (Z.ltb_spec d (zlen (h_counts h))); [|lia].
          eexists _, _. split; [reflexivity|]. hsimp. intros i Hi L2. rewrite zn_vset by lia.
          destruct (Z.eqb_spec d i) as [<-|].
          * destruct (Z.leb_spec d d); [|lia]. rewrite Z.sub_diag. reflexivity.
          * destruct (Z.leb_spec d i); [lia|]. reflexivity.
        + exists rs, h. split; [reflexivity|]. intros i Hi L2. destruct (Z.leb_spec d i); auto.
          replace (i - d) with 0 by lia. unfold x. replace t with 0 by lia. change (zn [0] 0) with 0. apply (di_zero _ _ _ _ DI). auto. }
    destruct STEP as (rs1 & h1 & E1 & Q1).
    assert (DI1 : dinv h0 (d + zlen x) rs1 h1).
    { destruct (dinv_step oc h0 d rs h t DI ltac:(unfold tok_ok; lia)) as [(_ & X & _)|(r & R & RI)]; [lia|].
      rewrite E1 in R. injection R as <-. exact RI. }
    rewrite E1. cbn [bind].
    destruct (IH (d + zlen x) rs1 h1 DI1 ltac:(lia)) as (rs' & h' & E & DI' & Q).
    { intros i Hi NZ. specialize (P (zlen x + i) ltac:(lia)). rewrite zn_app in P by lia.
      destruct (Z.ltb_spec (zlen x + i) (zlen x)); [lia|]. replace (zlen x + i - zlen x) with i in P by lia. specialize (P NZ). lia. }
    exists rs', h'. rewrite Z.add_assoc. split; [exact E|]. split; [exact DI'|].
    intros i Hi. rewrite Q by auto. destruct (Z.leb_spec (d + zlen x) i).
    + destruct (Z.leb_spec d i); [|lia]. rewrite zn_app by lia. destruct (Z.ltb_spec (i - d) (zlen x)); [lia|]. f_equal. lia.
    + rewrite Q1 by lia. destruct (Z.leb_spec d i); auto. rewrite zn_app by lia. destruct (Z.ltb_spec (i - d) (zlen x)); [reflexivity|lia].
Qed.

(** ** The header *)
Definition header (pl sf lo hi : Z) : list Z :=
  be_write 4 pl ++ be_write 4 0 ++ be_write 4 sf ++ be_write 8 lo ++ be_write 8 hi ++ be_write 8 4607182418800017408.

Lemma deser_v2_header buf T pl sf lo hi p rest : zlen p = pl -> 0 <= pl < 4294967296 -> u64 lo -> u64 hi -> 0 <= sf <= u8_max ->
  creation_check lo hi sf = None ->
  deser_v2 buf T (header pl sf lo hi ++ p ++ rest) =
  (r <- decode_payload p (fresh T lo hi sf) ;; Ret (match r with RErr e => RErr e | ROk h => ROk (h, rest) end)).
Proof.
  intros PL PU UL UH US CC. unfold header. rewrite <- !app_assoc. unfold SerModel.deser_v2.
  rewrite (read_be_write 4) by (change (2 ^ (8 * Z.of_nat 4)) with 4294967296; lia).
  rewrite (read_be_write 4) by (change (2 ^ (8 * Z.of_nat 4)) with 4294967296; lia). cbn [negb Z.eqb].
  rewrite (read_be_write 4) by (change (2 ^ (8 * Z.of_nat 4)) with 4294967296; unfold u8_max in *; lia).
  destruct (Z.ltb_spec u8_max sf); [lia|].
  rewrite (read_be_write 8) by (change (2 ^ (8 * Z.of_nat 8)) with (u64_max + 1); unfold u64 in *; lia).
  rewrite (read_be_write 8) by (change (2 ^ (8 * Z.of_nat 8)) with (u64_max + 1); unfold u64 in *; lia).
  rewrite (read_be_write 8) by (change (2 ^ (8 * Z.of_nat 8)) with (u64_max + 1); unfold u64_max; lia).
  rewrite Z.eqb_refl. cbn [negb].
  rewrite new_with_bounds_ok by auto. rewrite CC. cbn [bind].
  cbn zeta. rewrite payload_slice_len by lia. rewrite <- PL. rewrite read_exact_app.
  destruct (decode_payload p (fresh T lo hi sf)) as [[h|e]|]; reflexivity.
Qed.

Lemma read_be_prefix n x r k : 0 <= x < 2 ^ (8 * Z.of_nat n) ->
  read_be (Z.of_nat n) (firstn k (be_write n x ++ r)) =
  if (k <? n)%nat then None else Some (x, firstn (k - n) r).
Proof.
  intros X. destruct (Nat.ltb_spec k n).
  - apply read_be_short. unfold zlen. rewrite firstn_length, app_length, be_write_len. lia.
  - rewrite firstn_app, be_write_len. rewrite firstn_all2 by (rewrite be_write_len; lia). apply read_be_write. auto.
Qed.

(** a strict prefix of an image *)
Lemma deser_v2_prefix buf T pl sf lo hi p k : zlen p = pl -> 0 <= pl < 4294967296 -> u64 lo -> u64 hi -> 0 <= sf <= u8_max ->
  creation_check lo hi sf = None -> (k < 36 + length p)%nat ->
  deser_v2 buf T (firstn k (header pl sf lo hi ++ p)) = Ret (RErr DeIoError).
Proof.
  intros PL PU UL UH US CC K. unfold header. rewrite <- !app_assoc. unfold SerModel.deser_v2.
  rewrite (read_be_prefix 4) by (change (2 ^ (8 * Z.of_nat 4)) with 4294967296; lia).
  destruct (Nat.ltb_spec k 4); [reflexivity|].
  rewrite (read_be_prefix 4) by (change (2 ^ (8 * Z.of_nat 4)) with 4294967296; lia).
  destruct (Nat.ltb_spec (k - 4) 4); [reflexivity|]. cbn [negb Z.eqb].
  rewrite (read_be_prefix 4) by (change (2 ^ (8 * Z.of_nat 4)) with 4294967296; unfold u8_max in *; lia).
  destruct (Nat.ltb_spec (k - 4 - 4) 4); [reflexivity|].
  destruct (Z.ltb_spec u8_max sf); [lia|].
  rewrite (read_be_prefix 8) by (change (2 ^ (8 * Z.of_nat 8)) with (u64_max + 1); unfold u64 in *; lia).
  destruct (Nat.ltb_spec (k - 4 - 4 - 4) 8); [reflexivity|].
  rewrite (read_be_prefix 8) by (change (2 ^ (8 * Z.of_nat 8)) with (u64_max + 1); unfold u64 in *; lia).
  destruct (Nat.ltb_spec (k - 4 - 4 - 4 - 8) 8); [reflexivity|].
  rewrite (read_be_prefix 8) by (change (2 ^ (8 * Z.of_nat 8)) with (u64_max + 1); unfold u64_max; lia).
  destruct (Nat.ltb_spec (k - 4 - 4 - 4 - 8 - 8) 8); [reflexivity|].
  rewrite Z.eqb_refl. cbn [negb].
  rewrite new_with_bounds_ok by auto. rewrite CC. cbn [bind].
  cbn zeta. rewrite payload_slice_len by lia.
  rewrite read_exact_short; [reflexivity|]. unfold zlen in *. rewrite firstn_length. lia.
Qed.

Lemma image_header h : image h = be_write 4 V2_COOKIE ++ header (zlen (payload h)) (h_sigfig h) (h_low h) (h_high h) ++ payload h.
Proof. unfold image, header. rewrite <- !app_assoc. reflexivity. Qed.

Lemma cookie_small : 0 <= V2_COOKIE < 2 ^ (8 * Z.of_nat 4).
Proof. vm_compute. split; [discriminate|reflexivity]. Qed.
Lemma ccookie_small : 0 <= V2_COMPRESSED_COOKIE < 2 ^ (8 * Z.of_nat 4).
Proof. vm_compute. split; [discriminate|reflexivity]. Qed.

Lemma deserialize_prefix cd buf T h k : wf h -> (k < length (image h))%nat ->
  deserialize cd buf T (firstn k (image h)) = Ret (RErr DeIoError).
Proof.
  intros W K. pose proof (w_cfg h W) as C. pose proof (payload_small h W) as (PS & LS).
  destruct (self_params h C) as (UL & UH & US & CC).
  assert (LI : length (image h) = (40 + length (payload h))%nat) by (pose proof (image_len h); unfold zlen in *; lia).
  rewrite image_header. unfold SerModel.deserialize. rewrite (read_be_prefix 4) by apply cookie_small.
  destruct (Nat.ltb_spec k 4); [reflexivity|]. rewrite Z.eqb_refl.
  apply deser_v2_prefix; auto; lia.
Qed.

(** ** An image written by any implementation *)
Lemma deserialize_format cd buf T lo hi sf ts rest : u64 lo -> u64 hi -> 0 <= sf <= u8_max ->
  creation_check lo hi sf = None -> Forall (fun t => i64_min < t <= Z.min i64_max (cmax T)) ts ->
  zlen (v2_payload ts) <= u32_max -> zlen (expand ts) <= usize_max ->
  (forall i, 0 <= i -> zn (expand ts) i <> 0 -> i < zlen (h_counts (fresh T lo hi sf))) ->
  exists h cs, deserialize cd buf T (v2_format lo hi sf ts ++ rest) = Ret (ROk (h, rest)) /\ decoded T lo hi sf cs h /\
    forall i, 0 <= i -> zn cs i = zn (expand ts) i.
Proof.
  intros UL UH US CC TB PS ES NZ.
  assert (TK : Forall tok_ok ts) by (eapply Forall_impl; [|exact TB]; unfold tok_ok; cbn; lia).
  unfold v2_format. rewrite v2_payload_code in * by auto. pose proof (zlen_nonneg (code ts)) as P0.
  rewrite !big_endian_write by (unfold u64 in *; lia).
  replace ((be_write 4 0x1c849313 ++ be_write 4 (zlen (code ts)) ++ be_write 4 0 ++ be_write 4 sf ++ be_write 8 lo ++
            be_write 8 hi ++ be_write 8 0x3ff0000000000000 ++ code ts) ++ rest)
    with (be_write 4 V2_COOKIE ++ header (zlen (code ts)) sf lo hi ++ code ts ++ rest) by (unfold header; rewrite <- !app_assoc; reflexivity).
  unfold SerModel.deserialize. rewrite (read_be_write 4) by apply cookie_small. rewrite Z.eqb_refl.
  rewrite deser_v2_header by (auto; unfold u32_max in *; lia).
  pose proof (code_bytes ts TK) as CB.
  rewrite decode_payload_eq by (auto; unfold usize_max, u64_max, u32_max in *; lia). rewrite slow_code by auto.
  pose proof (dinv_fresh T lo hi sf UL UH US CC) as DI. set (h0 := fresh T lo hi sf) in *.
  destruct (run_any h0 ts TB 0 restat_new h0 DI ltac:(lia)) as (rs' & h' & E & DI' & Q); [intros; apply NZ; auto|].
  rewrite E. cbn [bind].
  destruct (decoded_ok T lo hi sf (h_counts h') rs' UL UH US CC) as (h3 & E3 & D3).
  - apply (di_len _ _ _ _ DI').
  - apply (di_cnt _ _ _ _ DI').
  - apply (di_desc _ _ _ _ DI').
  - exists h3, (h_counts h'). rewrite (di_eq _ _ _ _ DI'). fold h0 in E3. rewrite E3. cbn [bind]. split; [reflexivity|].
    split; [exact D3|]. intros i Hi. rewrite Q by auto. destruct (Z.leb_spec 0 i); [|lia]. f_equal. lia.
Qed.

(** ** Arbitrary input, both formats *)
Lemma deserialize_total cd buf T rd : codec_ok cd -> Forall byte rd ->
  read_outcome T rd (deserialize cd buf T rd) /\
  (deserialize cd buf T rd = Panic -> oc = true /\ holds_i64_min cd rd).
Proof.
  intros CD F. unfold SerModel.deserialize.
  destruct (read_be 4 rd) as [[ck rd1]|] eqn:E1; [|split; [apply read_outcome_err|discriminate]].
  destruct (read_be_range 4 rd ck rd1 F ltac:(lia) E1) as (R1 & F1 & b1 & B1 & _).
  destruct (ck =? V2_COOKIE).
  - destruct (deser_v2_total oc buf T rd1 F1) as (A & B). split.
    { destruct A as [A|[A|(h & rest & lo & hi & sf & cs & A & D & D1 & D2 & D3 & D4 & u & U)]]; [left; auto|right; left; auto|].
      right. right. exists h, rest, lo, hi, sf, cs. repeat (split; [solve [auto]|]). exists (b1 ++ u). rewrite B1, U, app_assoc. reflexivity. }
    intros P. destruct (B P) as (O & pre & p & post & E & H).
    split; auto. exists (b1 ++ pre), p, post. split; auto. left. rewrite B1, E, <- app_assoc. reflexivity.
  - destruct (ck =? V2_COMPRESSED_COOKIE); [|split; [apply read_outcome_err|discriminate]].
    unfold SerModel.deser_v2_compressed.
    destruct (read_be 4 rd1) as [[pl rd2]|] eqn:E2; [|split; [apply read_outcome_err|discriminate]].
    destruct (read_be_range 4 rd1 pl rd2 F1 ltac:(lia) E2) as (R2 & F2 & b2 & B2 & _).
    cbn zeta. set (taken := firstn (Z.to_nat pl) rd2).
    assert (FT : Forall byte taken) by (apply Forall_firstn; auto).
    destruct (CD taken FT) as (FI & _).
    destruct (read_be 4 (inflate cd taken)) as [[ic drd]|] eqn:E3; [|split; [apply read_outcome_err|discriminate]].
    destruct (read_be_range 4 _ ic drd FI ltac:(lia) E3) as (R3 & F3 & b3 & B3 & _).
    destruct (ic =? V2_COOKIE); cbn [negb]; [|split; [apply read_outcome_err|discriminate]].
    destruct (deser_v2_total oc buf T drd F3) as (A & B).
    destruct A as [A|[(e & A)|(h & rest & lo & hi & sf & cs & A & D & D1 & D2 & D3 & D4 & _)]].
    + rewrite A. cbn [bind]. split; [left; reflexivity|]. intros _. destruct (B A) as (O & pre & p & post & E & H).
      split; auto. exists (b3 ++ pre), p, post. split; auto. right. exists (b1 ++ b2), taken, (skipn (Z.to_nat pl) rd2).
      split; [|rewrite B3, E, <- app_assoc; reflexivity].
      unfold taken. rewrite firstn_skipn. rewrite B1, B2, <- app_assoc. reflexivity.
    + rewrite A. cbn [bind]. split; [apply read_outcome_err|discriminate].
    + rewrite A. cbn [bind]. split; [|discriminate]. right. right. eexists h, _, lo, hi, sf, cs. split; [reflexivity|].
      repeat (split; [solve [auto]|]).
      exists (b1 ++ b2 ++ firstn (Z.to_nat (inflate_used cd taken)) rd2). rewrite B1, B2 at 1. rewrite <- !app_assoc, firstn_skipn. reflexivity.
Qed.

(** a histogram that was read satisfies the invariant *)
Lemma deserialize_some cd buf T rd h rest : codec_ok cd -> Forall byte rd ->
  deserialize cd buf T rd = Ret (ROk (h, rest)) ->
  exists lo hi sf cs, decoded T lo hi sf cs h /\ u64 lo /\ u64 hi /\ 0 <= sf <= u8_max /\ creation_check lo hi sf = None /\
    exists used, rd = used ++ rest.
Proof.
  intros CD F E. destruct (deserialize_total cd buf T rd CD F) as ([A|[(e & A)|(h2 & r2 & lo & hi & sf & cs & A & D)]] & _); try congruence.
  assert (h2 = h) by congruence. assert (r2 = rest) by congruence. subst h2 r2. exists lo, hi, sf, cs. exact D.
Qed.

(** ** The buffer left by earlier calls does not matter *)
Lemma deser_v2_buf buf1 buf2 T rd : Forall byte rd -> deser_v2 buf1 T rd = deser_v2 buf2 T rd.
Proof.
  intros F. unfold SerModel.deser_v2. destruct (read_be 4 rd) as [[pl rd1]|] eqn:E1; auto.
  destruct (read_be_range 4 rd pl rd1 F ltac:(lia) E1) as (R1 & _).
  cbn zeta. rewrite !payload_slice_len by lia. reflexivity.
Qed.

Lemma deserialize_buf cd buf1 buf2 T rd : codec_ok cd -> Forall byte rd ->
  deserialize cd buf1 T rd = deserialize cd buf2 T rd.
Proof.
  intros CD F. unfold SerModel.deserialize. destruct (read_be 4 rd) as [[ck rd1]|] eqn:E1; [|reflexivity].
  destruct (read_be_range 4 rd ck rd1 F ltac:(lia) E1) as (R1 & F1 & _).
  rewrite (deser_v2_buf buf1 buf2) by auto. destruct (ck =? V2_COOKIE); [reflexivity|]. destruct (ck =? V2_COMPRESSED_COOKIE); [|reflexivity].
  unfold SerModel.deser_v2_compressed. destruct (read_be 4 rd1) as [[pl rd2]|] eqn:E2; [|reflexivity].
  destruct (read_be_range 4 rd1 pl rd2 F1 ltac:(lia) E2) as (R2 & F2 & _). cbn zeta.
  destruct (CD (firstn (Z.to_nat pl) rd2) ltac:(apply Forall_firstn; auto)) as (FI & _).
  destruct (read_be 4 (inflate cd (firstn (Z.to_nat pl) rd2))) as [[ic drd]|] eqn:E3; [|reflexivity].
  destruct (read_be_range 4 _ ic drd FI ltac:(lia) E3) as (R3 & F3 & _).
  rewrite (deser_v2_buf buf1 buf2) by auto. reflexivity.
Qed.

(** ** Compression *)
Definition cimage (cd : codec) (h : hist) : list Z :=
  be_write 4 V2_COMPRESSED_COOKIE ++ be_write 4 (zlen (deflate cd (image h))) ++ deflate cd (image h).

Lemma deflate_ok cd junk h : wf h -> Forall (fun c => c <= i64_max) (h_counts h) ->
  zlen (deflate cd (image h)) + 8 <= u32_max ->
  v2_deflate_serialize cd junk h = Ret (ROk (cimage cd h)).
Proof.
  intros W F L. unfold v2_deflate_serialize. destruct (v2_serialize_ok junk h W) as [(_ & ->)|(X & _)]; [|contradiction].
  cbn [bind]. set (z := deflate cd (image h)) in *. pose proof (zlen_nonneg z).
  rewrite !zlen_app, !be_zlen. unfold as_u32, u32_max in *. rewrite Z.mod_small by (change (2 ^ 32) with 4294967296; lia).
  unfold u32_sub. rewrite in_range_ok by (unfold u32_max; lia). cbn [bind]. f_equal. f_equal. unfold cimage. fold z.
  assert (A1 : forall y, firstn 4 (be_write 4 V2_COMPRESSED_COOKIE ++ y) = be_write 4 V2_COMPRESSED_COOKIE) by (intros; apply firstn_app_at; reflexivity).
  assert (A2 : forall y, skipn 8 (be_write 4 V2_COMPRESSED_COOKIE ++ be_write 4 0 ++ y) = y) by (intros; rewrite app_assoc; apply skipn_app_at; reflexivity).
  rewrite A1, A2. f_equal. f_equal. f_equal. lia.
Qed.

Lemma image_bytes h : wf h -> Forall (fun c => c <= i64_max) (h_counts h) -> Forall byte (image h).
Proof.
  intros W F. destruct (payload_ok h W F) as (PB & _). unfold image.
  repeat (apply Forall_app; split; [apply be_write_bytes|]). exact PB.
Qed.

Lemma deserialize_cimage cd buf T h rest : wf h -> Forall (fun c => c <= i64_max) (h_counts h) -> lossless cd -> codec_ok cd ->
  zlen (deflate cd (image h)) + 8 <= u32_max ->
  deserialize cd buf T (cimage cd h ++ rest) =
  (r <- deserialize cd buf T (image h) ;;
   Ret (match r with RErr e => RErr e
        | ROk (h', _) => ROk (h', skipn (Z.to_nat (inflate_used cd (deflate cd (image h)))) (deflate cd (image h)) ++ rest) end)).
Proof.
  intros W F LS CD L. destruct (LS (image h) (image_bytes h W F)) as (ZB & IZ).
  unfold cimage. set (z := deflate cd (image h)) in *. pose proof (zlen_nonneg z) as Z0. unfold u32_max in L.
  destruct (CD z ZB) as (_ & U).
  unfold SerModel.deserialize at 1. rewrite <- !app_assoc. rewrite (read_be_write 4) by apply ccookie_small.
  change (V2_COMPRESSED_COOKIE =? V2_COOKIE) with false. rewrite Z.eqb_refl.
  unfold SerModel.deser_v2_compressed. rewrite (read_be_write 4) by (change (2 ^ (8 * Z.of_nat 4)) with 4294967296; lia).
  cbn zeta. rewrite length_zlen, firstn_app_at by reflexivity. rewrite IZ. rewrite image_header.
  rewrite (read_be_write 4) by apply cookie_small. rewrite Z.eqb_refl. cbn [negb].
  unfold SerModel.deserialize. rewrite (read_be_write 4) by apply cookie_small. rewrite Z.eqb_refl.
  destruct (deser_v2 buf T _) as [[[h' r']|e]|]; cbn [bind]; try reflexivity. do 4 f_equal.
  rewrite skipn_app. f_equal.
  replace (Z.to_nat (inflate_used cd z) - length z)%nat with O by (unfold zlen in *; lia). reflexivity.
Qed.

End CHECKS.
