(** * The serializer writes, and the deserializer reads, a sequence of numbers *)
From Verif Require Import Machine Log2Model HistModel Bins ListZ Log2Facts Cfg Wf Ops AddFacts SubFacts Exact MoreFacts
  SerModel SerSpec SerFacts.
From Coq Require Import ZifyBool ZifyNat.

(** ** The numbers encoding a list of counts: runs of two or more zeros are one negative number *)
Definition flush (zc : Z) : list Z := if zc =? 0 then [] else if zc =? 1 then [0] else [- zc].
Fixpoint toks (zc : Z) (cs : list Z) : list Z :=
  match cs with
  | [] => flush zc
  | c :: cs' => if c =? 0 then toks (zc + 1) cs' else flush zc ++ c :: toks 0 cs'
  end.
Definition code (ts : list Z) : list Z := flat_map (fun t => varint (zig_zag_encode t)) ts.

Lemma toks_zeros k : forall zc cs, toks zc (repeat 0 k ++ cs) = toks (zc + Z.of_nat k) cs.
Proof.
  induction k as [|k IH]; intros zc cs; cbn [repeat app].
  - f_equal. lia.
  - cbn [toks Z.eqb]. rewrite IH. f_equal. lia.
Qed.

Lemma toks_nz zc c cs : c <> 0 -> toks zc (c :: cs) = flush zc ++ toks 0 (c :: cs).
Proof. intros N. cbn [toks]. destruct (Z.eqb_spec c 0); [contradiction|]. reflexivity. Qed.

Lemma flush_len zc : (length (flush zc) <= 1)%nat.
Proof. unfold flush. destruct (zc =? 0), (zc =? 1); cbn; lia. Qed.

Lemma toks_len cs : forall zc, (length (toks zc cs) <= length cs + length (flush zc))%nat.
Proof.
  induction cs as [|c cs IH]; intros zc; cbn [toks length]; [lia|]. destruct (c =? 0).
  - specialize (IH (zc + 1)). pose proof (flush_len (zc + 1)). lia.
  - rewrite app_length. cbn [length]. specialize (IH 0). cbn in IH. lia.
Qed.

Lemma varint_len x : (1 <= length (varint x) <= 9)%nat.
Proof. apply leb_len. Qed.

Lemma code_len ts : (length ts <= length (code ts) <= 9 * length ts)%nat.
Proof.
  unfold code. induction ts as [|t ts IH]; cbn [flat_map length]; [lia|]. rewrite app_length.
  pose proof (varint_len (zig_zag_encode t)). lia.
Qed.

Definition tok_ok (t : Z) : Prop := i64_min <= t <= i64_max.

Lemma code_bytes ts : Forall tok_ok ts -> Forall byte (code ts).
Proof.
  unfold code. induction 1 as [|t ts T F IH]; cbn [flat_map]; [constructor|]. apply Forall_app. split; auto.
  apply leb_bytes. pose proof (zz_encode_range t T). change (2 ^ (7 * Z.of_nat 8 + 8)) with (u64_max + 1). lia.
Qed.

Lemma flush_ok zc : 0 <= zc <= i64_max -> Forall tok_ok (flush zc).
Proof. unfold flush, tok_ok, i64_min, i64_max. intros. destruct (Z.eqb_spec zc 0), (Z.eqb_spec zc 1); repeat constructor; lia. Qed.

Lemma toks_ok cs : Forall (fun c => 0 <= c <= i64_max) cs -> forall zc, 0 <= zc -> zc + zlen cs <= i64_max ->
  Forall tok_ok (toks zc cs).
Proof.
  induction 1 as [|c cs C F IH]; intros zc Z0 L; cbn [toks].
  - change (zlen (@nil Z)) with 0 in L. apply flush_ok. lia.
  - rewrite zlen_cons in L. pose proof (zlen_nonneg cs). destruct (c =? 0); [apply IH; lia|].
    apply Forall_app. split; [apply flush_ok; lia|]. constructor; [unfold tok_ok, i64_min in *; lia|]. apply IH; lia.
Qed.

(** the length of the leading run of zeros *)
Fixpoint lead (cs : list Z) : nat := match cs with c :: cs' => if c =? 0 then S (lead cs') else O | [] => O end.
Lemma lead_split cs : exists r, cs = repeat 0 (lead cs) ++ r /\ (r = [] \/ exists c r', r = c :: r' /\ c <> 0).
Proof.
  induction cs as [|c cs (r & E & R)]; [exists []; auto|]. cbn [lead]. destruct (Z.eqb_spec c 0) as [->|].
  - exists r. split; [|auto]. cbn [repeat app]. f_equal. exact E.
  - exists (c :: cs). split; [reflexivity|]. right. eauto.
Qed.

Lemma zeros_loop_ok k : forall fuel h pre r post limit zc,
  h_counts h = pre ++ (repeat 0 k ++ r) ++ post -> limit = zlen pre + Z.of_nat k + zlen r - 1 ->
  (r = [] \/ exists c r', r = c :: r' /\ c <> 0) -> (k < fuel)%nat ->
  0 <= zc -> zc + Z.of_nat k <= i64_max -> zlen pre + Z.of_nat k <= usize_max ->
  zeros_loop fuel h (zlen pre) limit zc = Ret (zlen pre + Z.of_nat k, zc + Z.of_nat k).
Proof.
  induction k as [|k IH]; intros fuel h pre r post limit zc HC L R F Z0 ZI PU; destruct fuel as [|f]; [lia| |lia|]; cbn [zeros_loop].
  - cbn [repeat app] in HC. pose proof (zlen_nonneg pre). destruct R as [->|(c & r' & -> & NZ)].
    + change (zlen (@nil Z)) with 0 in L. replace (zlen pre <=? limit) with false by lia. f_equal. f_equal; lia.
    + rewrite zlen_cons in L. pose proof (zlen_nonneg r'). pose proof (zlen_nonneg post).
      replace (zlen pre <=? limit) with true by lia.
      rewrite vget_in by (rewrite HC, !zlen_app, zlen_cons; lia). rewrite HC. unfold zn.
      rewrite length_zlen, app_nth2, Nat.sub_diag by lia. cbn [app nth expect bind].
      destruct (Z.eqb_spec c 0); [contradiction|]. f_equal. f_equal; lia.
  - pose proof (zlen_nonneg pre). pose proof (zlen_nonneg r). pose proof (zlen_nonneg post).
    replace (zlen pre <=? limit) with true by lia. cbn [repeat app] in HC.
    rewrite vget_in by (rewrite HC, !zlen_app, zlen_cons; pose proof (zlen_nonneg ((repeat 0 k ++ r) ++ post)); lia).
    rewrite HC. unfold zn. rewrite length_zlen, app_nth2, Nat.sub_diag by lia. cbn [app nth expect bind Z.eqb].
    unfold i64_max in *. rewrite in_range_ok by (unfold i64_min; lia). cbn [bind].
    unfold usize_add. rewrite in_range_ok by lia. cbn [bind].
    replace (zlen pre + 1) with (zlen (pre ++ [0])) by (rewrite zlen_app, zlen_cons; cbn; lia).
    rewrite (IH f h (pre ++ [0]) r post limit (zc + 1)); auto; try lia.
    + rewrite zlen_app, zlen_cons. change (zlen (@nil Z)) with 0. f_equal. f_equal; lia.
    + rewrite <- app_assoc. cbn [app]. exact HC.
    + rewrite zlen_app, zlen_cons. change (zlen (@nil Z)) with 0. lia.
    + rewrite zlen_app, zlen_cons. change (zlen (@nil Z)) with 0. lia.
Qed.

(** the encoder's result on the counts [cs], having already filled [done] *)
Definition enc_res (cs done rest : list Z) (base : Z) (m : res (list Z * result Z ser_error)) : Prop :=
  (Forall (fun c => c <= i64_max) cs /\
   m = Ret (done ++ code (toks 0 cs) ++ skipn (length (code (toks 0 cs))) rest,
        ROk (zlen done - base + zlen (code (toks 0 cs))))) \/
  (~ Forall (fun c => c <= i64_max) cs /\ exists buf, m = Ret (buf, RErr CountNotSerializable)).

Lemma encode_loop_ok n : forall fuel h pre cs post limit done rest base,
  (length cs <= n)%nat -> (length cs < fuel)%nat ->
  h_counts h = pre ++ cs ++ post -> limit = zlen pre + zlen cs - 1 -> Forall (fun c => 0 <= c) cs ->
  0 <= base <= zlen done -> (9 * length cs <= length rest)%nat ->
  zlen (h_counts h) <= i64_max -> zlen done + zlen rest <= usize_max ->
  enc_res cs done rest base (encode_loop fuel h (done ++ rest) base (zlen pre) limit (zlen done - base)).
Proof.
  induction n as [|n IH]; intros fuel h pre cs post limit done rest base LN FU HC LI CP BA RL HL BU;
    (destruct fuel as [|f]; [lia|]); cbn [encode_loop];
    pose proof (zlen_nonneg pre) as P0; pose proof (zlen_nonneg cs) as C0; pose proof (zlen_nonneg post) as PP0;
    pose proof (zlen_nonneg done) as D0; pose proof (zlen_nonneg rest) as R0.
  - destruct cs; [|cbn in LN; lia]. left. split; [constructor|]. change (zlen (@nil Z)) with 0 in LI.
    replace (zlen pre <=? limit) with false by lia. cbn. do 3 f_equal. lia.
  - destruct cs as [|c cs].
    { left. split; [constructor|]. change (zlen (@nil Z)) with 0 in LI.
      replace (zlen pre <=? limit) with false by lia. cbn. do 3 f_equal. lia. }
    rewrite zlen_cons in *. pose proof (zlen_nonneg cs) as C1. inversion CP as [|? ? CP1 CP2]; subst limit. subst.
    assert (HL' : zlen pre + (zlen cs + 1) + zlen post <= i64_max).
    { rewrite HC, !zlen_app, zlen_cons in HL. lia. }
    replace (zlen pre <=? zlen pre + (zlen cs + 1) - 1) with true by lia.
    rewrite vget_in by (rewrite HC, !zlen_app, zlen_cons; lia). rewrite HC at 1. unfold zn at 1.
    rewrite length_zlen, app_nth2, Nat.sub_diag by lia. cbn [app nth expect bind].
    unfold usize_add at 1. rewrite in_range_ok by (unfold usize_max, u64_max, i64_max in *; lia). cbn [bind].
    cbn [length] in *.
    (* one token [t] covering the first [k] counts *)
    assert (STEP : forall t k r, tok_ok t -> toks 0 (c :: cs) = t :: toks 0 r ->
      (length (firstn k (c :: cs)) = k)%nat -> skipn k (c :: cs) = r -> (1 <= k)%nat -> (length r <= n)%nat ->
      (length r < f)%nat -> Forall (fun x => x <= i64_max) (firstn k (c :: cs)) ->
      Forall (fun x => 0 <= x) r -> (9 * S (length r) <= length rest)%nat -> zlen pre + Z.of_nat k <= usize_max ->
      enc_res (c :: cs) done rest base
              (_ <- assert (base + (zlen done - base) <=? zlen (done ++ rest)) ;;
               ' (buf', n0) <- varint_write (zig_zag_encode t) (done ++ rest) (base + (zlen done - base)) ;;
               b <- usize_add (zlen done - base) n0 ;;
               encode_loop f h buf' base (zlen pre + Z.of_nat k) (zlen pre + (zlen cs + 1) - 1) b)).
    { intros t k r TK TE LK SK K1 LR LF FK FR RR KU.
      assert (ZK : zlen (firstn k (c :: cs)) = Z.of_nat k) by (unfold zlen; rewrite LK; reflexivity).
      assert (ZR : zlen r = zlen cs + 1 - Z.of_nat k).
      { rewrite <- SK. unfold zlen. rewrite skipn_length. rewrite firstn_length in LK. cbn [length] in *. lia. }
      pose proof (varint_len (zig_zag_encode t)) as VL.
      replace (base + (zlen done - base)) with (zlen done) by lia.
      rewrite zlen_app. replace (zlen done <=? zlen done + zlen rest) with true by lia. cbn [assert bind].
      rewrite varint_write_ok; [|apply zz_encode_range; exact TK|clear - RR VL; lia]. cbn [bind].
      set (vb := varint (zig_zag_encode t)) in *.
      assert (VZ : zlen vb <= 9) by (unfold zlen; lia). assert (VZ0 : 0 <= zlen vb) by apply zlen_nonneg.
      assert (RZ : 9 <= zlen rest) by (unfold zlen; lia).
      unfold usize_add. rewrite in_range_ok by lia. cbn [bind].
      rewrite app_assoc. replace (zlen done - base + zlen vb) with (zlen (done ++ vb) - base) by (rewrite zlen_app; lia).
      replace (zlen pre + Z.of_nat k) with (zlen (pre ++ firstn k (c :: cs))).
      2:{ rewrite zlen_app, ZK. reflexivity. }
      edestruct (IH f h (pre ++ firstn k (c :: cs)) r post (zlen pre + (zlen cs + 1) - 1) (done ++ vb) (skipn (length vb) rest) base)
        as [[A B]|[A B]]; auto.
      - rewrite HC, <- app_assoc. f_equal. rewrite app_assoc. f_equal. rewrite <- SK. symmetry. apply firstn_skipn.
      - rewrite zlen_app, ZR, ZK. lia.
      - rewrite zlen_app. lia.
      - rewrite skipn_length. lia.
      - rewrite zlen_app. unfold zlen at 3. rewrite skipn_length. clear - BU RR VL. unfold zlen in *. lia.
      - left. split.
        + rewrite <- (firstn_skipn k (c :: cs)). apply Forall_app. rewrite SK. split; auto.
        + rewrite B. rewrite TE. change (code (t :: toks 0 r)) with (vb ++ code (toks 0 r)).
          rewrite <- app_assoc. f_equal. f_equal.
          * f_equal. rewrite <- app_assoc. f_equal. f_equal. rewrite app_length, (Nat.add_comm (length vb)).
            rewrite <- (firstn_skipn (length vb) rest) at 2. rewrite skipn_app. rewrite firstn_length.
            replace (skipn (length (code (toks 0 r)) + length vb) (firstn (length vb) rest)) with (@nil Z).
            2:{ symmetry. apply skipn_all2. rewrite firstn_length. lia. }
            cbn [app]. f_equal. lia.
          * f_equal. rewrite !zlen_app. lia.
      - right. split.
        + intros X. apply A. rewrite <- SK. apply Forall_skipn. auto.
        + exact B. }
    destruct (Z.eqb_spec c 0) as [->|NZ].
    + destruct (lead_split cs) as (r & ES & RS). set (k := lead cs) in *.
      assert (LC : length cs = (k + length r)%nat) by (rewrite ES, app_length, repeat_length; reflexivity).
      assert (ZC : zlen cs = Z.of_nat k + zlen r) by (unfold zlen; rewrite LC; lia).
      replace (zlen pre + 1) with (zlen (pre ++ [0])) by (rewrite zlen_app, zlen_cons; cbn; lia).
      pose proof (zlen_nonneg r).
      rewrite (zeros_loop_ok k f h (pre ++ [0]) r post).
      2:{ rewrite HC, <- app_assoc. cbn [app]. f_equal. f_equal. f_equal. exact ES. }
      2:{ rewrite zlen_app, zlen_cons. change (zlen (@nil Z)) with 0. lia. }
      2:{ auto. } 2:{ lia. } 2:{ lia. } 2:{ lia. }
      2:{ rewrite zlen_app, zlen_cons. change (zlen (@nil Z)) with 0. unfold usize_max, u64_max, i64_max in *. lia. }
      cbn [bind].
      assert (FR : Forall (fun x => 0 <= x) r) by (rewrite ES in CP2; apply Forall_app in CP2; tauto).
      assert (SK : skipn (S k) (0 :: cs) = r).
      { cbn [skipn]. rewrite ES. apply skipn_app_at. rewrite repeat_length. reflexivity. }
      assert (FK : Forall (fun x => x <= i64_max) (firstn (S k) (0 :: cs))).
      { cbn [firstn]. constructor; [unfold i64_max; lia|]. rewrite ES, firstn_app_at by (rewrite repeat_length; auto).
        apply Forall_repeat. unfold i64_max; lia. }
      assert (LK : length (firstn (S k) (0 :: cs)) = S k) by (rewrite firstn_length; cbn [length]; lia).
      assert (TT : toks 0 (0 :: cs) = flush (1 + Z.of_nat k) ++ toks 0 r).
      { cbn [toks Z.eqb]. change (0 + 1) with 1. rewrite ES, toks_zeros.
        destruct RS as [->|(c & r' & -> & NZ)]; [cbn [toks]; change (flush 0) with (@nil Z); rewrite app_nil_r; auto|apply toks_nz; auto]. }
      replace (zlen (pre ++ [0]) + Z.of_nat k) with (zlen pre + Z.of_nat (S k)) by (rewrite zlen_app, zlen_cons; change (zlen (@nil Z)) with 0; lia).
      destruct (Z.ltb_spec 1 (1 + Z.of_nat k)).
      * rewrite in_range_ok by (unfold i64_min, i64_max in *; lia). cbn [bind].
        apply (STEP (- (1 + Z.of_nat k)) (S k) r); auto; try lia.
        -- unfold tok_ok, i64_min, i64_max in *; lia.
        -- rewrite TT. unfold flush. destruct (Z.eqb_spec (1 + Z.of_nat k) 0); [lia|].
           destruct (Z.eqb_spec (1 + Z.of_nat k) 1); [lia|]. reflexivity.
        -- unfold usize_max, u64_max, i64_max in *; lia.
      * replace (0 <=? i64_max) with true by reflexivity. cbn [bind].
        apply (STEP 0 (S k) r); auto; try lia.
        -- unfold tok_ok, i64_min, i64_max in *; lia.
        -- rewrite TT. unfold flush. destruct (Z.eqb_spec (1 + Z.of_nat k) 0); [lia|].
           destruct (Z.eqb_spec (1 + Z.of_nat k) 1); [|lia]. reflexivity.
        -- unfold usize_max, u64_max, i64_max in *; lia.
    + cbn [bind]. change (1 <? 0) with false. cbn iota. cbn [bind].
      destruct (Z.leb_spec c i64_max) as [CM|CM].
      * cbn [bind]. apply (STEP c 1%nat cs); auto; try lia.
        -- unfold tok_ok, i64_min; lia.
        -- cbn [toks]. destruct (Z.eqb_spec c 0); [contradiction|]. reflexivity.
        -- cbn [firstn]. constructor; auto.
        -- unfold usize_max, u64_max, i64_max in *; lia.
      * cbn [bind]. right. split; [intros X; inversion X; lia|]. eauto.
Qed.

(** ** The serializer *)
(** the counts it encodes *)
Definition coded (h : hist) : list Z := firstn (Z.to_nat (bin h (h_max h) + 1)) (h_counts h).
Definition payload (h : hist) : list Z := code (toks 0 (coded h)).
Definition image (h : hist) : list Z :=
  be_write 4 V2_COOKIE ++ be_write 4 (zlen (payload h)) ++ be_write 4 0 ++ be_write 4 (h_sigfig h) ++
  be_write 8 (h_low h) ++ be_write 8 (h_high h) ++ be_write 8 4607182418800017408 ++ payload h.

Lemma coded_facts h : wf h ->
  0 <= bin h (h_max h) < zlen (h_counts h) /\ zlen (coded h) = bin h (h_max h) + 1 /\
  Forall (fun c => 0 <= c <= cmax (h_ctr h)) (coded h) /\
  (forall i, 0 <= i -> zn (coded h) i = zn (h_counts h) i) /\
  (Forall (fun c => c <= i64_max) (coded h) <-> Forall (fun c => c <= i64_max) (h_counts h)).
Proof.
  intros W. pose proof (w_cfg h W) as C. pose proof (w_max_in h W) as MI. fold (bin h (h_max h)) in MI.
  pose proof (bin_nonneg h (h_max h) C ltac:(apply (w_max h W))) as B0. split; [lia|].
  assert (ZC : zlen (coded h) = bin h (h_max h) + 1) by (apply zlen_firstn; lia). split; [auto|].
  split; [apply Forall_firstn; apply (w_cnt h W)|].
  assert (ZN : forall i, 0 <= i -> zn (coded h) i = zn (h_counts h) i).
  { intros i Hi. destruct (Z_lt_le_dec i (bin h (h_max h) + 1)).
    - apply zn_firstn. lia.
    - rewrite zn_out by lia. destruct (Z.eq_dec (zn (h_counts h) i) 0) as [->|NZ]; auto.
      pose proof (w_max_top h W i Hi NZ) as T. fold (bin h (h_max h)) in T. lia. }
  split; [auto|]. split; intros F.
  - apply Forall_zn. intros i Hi. rewrite <- ZN by lia. destruct (Z_lt_le_dec i (zlen (coded h))).
    + apply (zn_Forall (fun c => c <= i64_max)); auto; lia.
    + rewrite zn_out by lia. unfold i64_max; lia.
  - apply Forall_firstn; auto.
Qed.

Lemma payload_small h : wf h -> 0 <= zlen (payload h) <= 9 * zlen (h_counts h) /\ zlen (h_counts h) <= 8519680.
Proof.
  intros W. pose proof (coded_facts h W) as (B & ZC & _). pose proof (w_cfg h W) as C. pose proof (w_size h W) as S.
  split.
  - pose proof (code_len (toks 0 (coded h))) as CL. pose proof (toks_len (coded h) 0) as TL. cbn in TL.
    unfold payload. unfold zlen in *. lia.
  - rewrite (s_len h S). pose proof (bkt_bound h C (h_high h) (high_u64 h C)) as BB. pose proof (m_range h C). pose proof (um_range h C).
    pose proof (half_range h C). nia.
Qed.

Lemma be_zlen n x : zlen (be_write n x) = Z.of_nat n.
Proof. unfold zlen. rewrite be_write_len. reflexivity. Qed.

Lemma image_len h : zlen (image h) = 40 + zlen (payload h).
Proof. unfold image. rewrite !zlen_app, !be_zlen. lia. Qed.

Lemma header_len h : length (v2_header h) = 40%nat.
Proof. unfold v2_header. rewrite !app_length, !be_write_len. reflexivity. Qed.

Definition ser_res (h : hist) (m : res (result (list Z) ser_error)) : Prop :=
  (Forall (fun c => c <= i64_max) (h_counts h) /\ m = Ret (ROk (image h))) \/
  (~ Forall (fun c => c <= i64_max) (h_counts h) /\ m = Ret (RErr CountNotSerializable)).

Lemma v2_serialize_ok junk h : wf h -> ser_res h (v2_serialize junk h).
Proof.
  intros W. pose proof (coded_facts h W) as (B & ZC & CB & ZN & FI). pose proof (w_cfg h W) as C.
  pose proof (payload_small h W) as (PS & LS).
  unfold v2_serialize, max_encoded_size. rewrite max_ok by auto. cbn [bind].
  rewrite index_for_ok by (auto; apply maxp_u64; auto). fold (bin h (maxp h)). rewrite (bin_maxp h W). cbn [bind].
  unfold usize_add at 1. rewrite in_range_ok by (unfold usize_max, u64_max; lia). cbn [bind].
  unfold counts_array_max_encoded_size.
  destruct (Z.leb_spec ((bin h (h_max h) + 1) * 9) usize_max) as [_|X]; [|unfold usize_max, u64_max in X; lia].
  unfold V2_HEADER_SIZE at 1.
  destruct (Z.leb_spec ((bin h (h_max h) + 1) * 9 + 40) usize_max) as [_|X]; [|unfold usize_max, u64_max in X; lia].
  cbn [bind]. unfold V2_HEADER_SIZE.
  replace (40 =? zlen (v2_header h)) with true by (unfold zlen; rewrite header_len; reflexivity). cbn [assert bind].
  set (rest := map _ _).
  assert (RL : length rest = Z.to_nat ((bin h (h_max h) + 1) * 9)).
  { unfold rest. rewrite map_length, seq_length. lia. }
  clearbody rest.
  unfold encode_counts. rewrite max_ok by auto. cbn [bind].
  rewrite index_for_ok by (auto; apply maxp_u64; auto). fold (bin h (maxp h)). rewrite (bin_maxp h W). cbn [expect bind].
  replace (bin h (h_max h) <=? zlen (h_counts h)) with true by lia. cbn [assert bind].
  assert (ZH : zlen (v2_header h) = 40) by (unfold zlen; rewrite header_len; reflexivity).
  assert (ZRE : zlen rest = (bin h (h_max h) + 1) * 9) by (unfold zlen; lia).
  replace (40 <=? zlen (v2_header h ++ rest)) with true by (rewrite zlen_app; lia). cbn [assert bind].
  pose proof (encode_loop_ok (length (coded h)) (Z.to_nat (bin h (h_max h) + 2)) h [] (coded h)
    (skipn (Z.to_nat (bin h (h_max h) + 1)) (h_counts h)) (bin h (h_max h)) (v2_header h) rest 40) as EN.
  change (zlen (@nil Z)) with 0 in EN. rewrite ZH in EN. change (40 - 40) with 0 in EN.
  destruct EN as [(F & E)|(F & buf & E)].
  - auto.
  - unfold zlen in ZC. lia.
  - cbn [app]. symmetry. apply firstn_skipn.
  - lia.
  - eapply Forall_impl; [|exact CB]. cbn; lia.
  - lia.
  - unfold zlen in ZC. lia.
  - unfold i64_max; lia.
  - unfold usize_max, u64_max. lia.
  - left. split; [tauto|]. rewrite E. cbn [bind]. change (code (toks 0 (coded h))) with (payload h). rewrite Z.add_0_l.
    unfold usize_add. rewrite in_range_ok by (unfold usize_max, u64_max; lia). cbn [bind].
    assert (HD : firstn 4 (v2_header h ++ payload h ++ skipn (length (payload h)) rest) ++
                 be_write 4 (as_u32 (zlen (payload h))) ++
                 skipn 8 (v2_header h ++ payload h ++ skipn (length (payload h)) rest) =
                 image h ++ skipn (length (payload h)) rest).
    { unfold as_u32. rewrite Z.mod_small by (change (2 ^ 32) with 4294967296; lia).
      unfold v2_header, image. 
      assert (A1 : forall y, firstn 4 (be_write 4 V2_COOKIE ++ y) = be_write 4 V2_COOKIE) by (intros; apply firstn_app_at; reflexivity).
      assert (A2 : forall y, skipn 8 (be_write 4 V2_COOKIE ++ be_write 4 0 ++ y) = y) by (intros; rewrite app_assoc; apply skipn_app_at; reflexivity).
      rewrite <- !app_assoc. rewrite A1, A2. reflexivity. }
    rewrite HD.
    assert (ZI : zlen (image h) = 40 + zlen (payload h)).
    { apply image_len. }
    replace (40 + zlen (payload h) <=? zlen (image h ++ skipn (length (payload h)) rest)) with true
      by (rewrite zlen_app, ZI; pose proof (zlen_nonneg (skipn (length (payload h)) rest)); lia).
    cbn [assert bind]. f_equal. f_equal. rewrite <- ZI. rewrite length_zlen. apply firstn_app_at. reflexivity.
  - right. split; [tauto|]. rewrite E. reflexivity.
Qed.
