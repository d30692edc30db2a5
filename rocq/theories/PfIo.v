(** * Proofs of the properties about serializing to a [Write] and deserializing from a [Read] (C68) *)
(*PROPS-IMPORTS Machine Log2Model HistModel Spec Reach Witness Cases CasesSer CasesIo SerModel SerSpec IoModel IoSpec *)
From Verif Require Import Machine Log2Model HistModel Spec Reach Bins ListZ Log2Facts Cfg Wf Ops AddFacts SubFacts Exact MoreFacts Witness HeldFacts PfRecord
  SerModel SerSpec SerFacts SerCode SerDecode SerRest PfSer IoModel IoSpec IoFacts.
From Coq Require Import ZifyBool ZifyNat.

(** ** C68.  Every reader delivers certain bytes and then stops, in one way *)
Lemma C68_delivers_proof : forall r, exists bs s, delivers r bs s /\ forall bs' s', delivers r bs' s' -> bs' = bs /\ s' = s.
Proof.
  intros r. destruct (delivers_exists r) as (bs & s & D). exists bs, s. split; auto. intros bs' s' D'.
  eapply delivers_unique; eauto.
Qed.
(*EX
Example ex_C68_delivers : delivers [Data [1; 2]; ReadInterrupted; Data [3]; ReadFailed 4; Data [5]] [1; 2; 3] (Fails 4) /\
  delivers [Data [1; 2]; Data []; Data [5]] [1; 2] End.
Proof. io_case. Qed.
EX*)

(** The outcome of deserialize depends only on the bytes that the reader delivers before it stops, not on the
    pieces in which they come: the same histogram, the same error *)
Lemma C68_outcome_proof : forall checks cd zd buf T r bs s, decodes cd zd -> bytes bs -> delivers r bs s ->
  match deserialize checks cd buf T bs with
  | Panic => io_deserialize checks zd buf T r = Panic
  | Ret x => exists y r', io_deserialize checks zd buf T r = Ret (y, r') /\ same_outcome x y
  end.
Proof. exact io_deserialize_outcome. Qed.
(*EX
(** a compressed image that arrives in two pieces, and one of another counter type *)
Example ex_C68_outcome : match build U16 1 10000 2 false [(3, 7); (500, 256)] with
  | Some h => match v2_deflate_serialize twice (fun _ => 77) h with
      | Ret (ROk zs) => let r := [Data (firstn 20 zs); ReadInterrupted; Data (skipn 20 zs)] in
          decodes twice (over twice) /\ bytes zs /\ delivers r zs End /\
          match deserialize true twice [] U16 zs, io_deserialize true (over twice) [] U16 r with
          | Ret (ROk (h1, _)), Ret (ROk h2, _) => h1 = h2 /\ held h1 = [(3, 7); (500, 256)]
          | _, _ => False end /\
          deserialize true twice [] U8 zs = Ret (RErr UnsuitableCounterType) /\
          match io_deserialize true (over twice) [] U8 r with Ret (RErr e, _) => e = DeOther UnsuitableCounterType | _ => False end
      | _ => False end
  | None => False end.
Proof. io_case. Qed.
EX*)

(** Unless the image is compressed, what follows it is left to the next read; an error of the reader is passed
    on, unless the whole image had been read, and the error is in the image whatever follows it *)
Lemma C68_plain_proof : forall checks cd zd buf T r bs s, delivers r bs s -> bytes bs ->
  (forall rest, bs <> big_endian 4 0x1c849314 ++ rest) ->
  match deserialize checks cd buf T bs with
  | Panic => io_deserialize checks zd buf T r = Panic
  | Ret (ROk (h, rest)) => exists r', io_deserialize checks zd buf T r = Ret (ROk h, r') /\ delivers r' rest s
  | Ret (RErr e) => exists r' e', io_deserialize checks zd buf T r = Ret (RErr e', r') /\
      (e <> DeIoError -> e' = DeOther e) /\
      (e = DeIoError -> e' = DeIo (stop_error s) \/
         e' = DeIo UnexpectedEof /\ forall c, deserialize checks cd buf T (bs ++ c) = Ret (RErr DeIoError))
  end.
Proof.
  intros checks cd zd buf T r bs s D B NC. unfold deserialize at 1, io_deserialize.
  pose proof (io_read_be_spec 4 r bs s ltac:(lia) D) as X.
  destruct (read_be 4 bs) as [[ck bs1]|] eqn:E1.
  2:{ destruct X as (r1 & X). rewrite X. do 2 eexists. split; [reflexivity|]. split; [congruence|auto]. }
  destruct X as (r1 & X & D1). rewrite X. destruct (Z.eqb_spec ck V2_COOKIE) as [->|N1].
  - pose proof (io_deser_v2_spec checks buf T r1 bs1 s D1) as A. unfold agrees in A.
    destruct (deser_v2 checks buf T bs1) as [[[h rest]|e]|]; auto.
    destruct A as (r' & e' & E & A1 & A2). exists r', e'. split; auto. split; auto. intros DE. destruct (A2 DE) as [|(Q & A3)]; auto.
    right. split; auto. intros c. unfold deserialize. rewrite (read_be_more _ _ _ _ c E1). apply A3.
  - destruct (Z.eqb_spec ck V2_COMPRESSED_COOKIE) as [->|N2].
    + exfalso. destruct (read_be_range 4 bs _ bs1 B ltac:(lia) E1) as (_ & _ & b1 & EQ & L).
      apply (NC bs1). rewrite EQ at 1. f_equal.
      assert (V : be_value b1 0 = V2_COMPRESSED_COOKIE).
      { unfold read_be in E1. rewrite EQ in E1. rewrite <- L, read_exact_app in E1. congruence. }
      assert (BB : bytes b1) by (unfold bytes in *; rewrite EQ in B; apply Forall_app in B; tauto).
      clear - V BB L. destruct b1 as [|a [|b [|c [|d [|x b1]]]]]; try (exfalso; unfold zlen in L; cbn [length] in L; lia).
      cbn [be_value] in V. unfold bytes in BB.
      inversion BB as [|? ? Ha B1]; subst. inversion B1 as [|? ? Hb B2]; subst. inversion B2 as [|? ? Hc B3]; subst. inversion B3 as [|? ? Hd B4]; subst.
      change V2_COMPRESSED_COOKIE with 478450452 in V. change (2 ^ 8) with 256 in V.
      change (big_endian 4 478450452) with [28; 132; 147; 20].
      assert (a = 28) by lia. assert (b = 132) by lia. assert (c = 147) by lia. assert (d = 20) by lia. subst. reflexivity.
    + do 2 eexists. split; [reflexivity|]. split; [auto|discriminate].
Qed.

(*EX
(** an image that arrives in pieces of 3, 39 and 3 bytes with interruptions, followed by a byte of something else;
    the same one with a failure before its last byte *)
Example ex_C68_reader : match build U16 1 10000 2 false [(3, 7); (500, 2)] with
  | Some h => match v2_serialize (fun _ => 77) h with
      | Ret (ROk bs) => zlen bs = 45 /\ bytes (bs ++ [9]) /\ decodes plain (over plain) /\
          (let r := [Data (firstn 3 bs); ReadInterrupted; Data (firstn 39 (skipn 3 bs)); ReadInterrupted; Data (skipn 42 bs); Data [9]] in
           delivers r (bs ++ [9]) End /\
           match io_deserialize true (over plain) [] U16 r with
           | Ret (ROk h', r') => held h' = held h /\ r' = [Data [9]] | _ => False end) /\
          (let r := [Data (firstn 44 bs); ReadFailed 5; Data [9]] in
           delivers r (firstn 44 bs) (Fails 5) /\
           io_deserialize true (over plain) [] U16 r = Ret (RErr (DeIo (Foreign 5)), [Data [9]]))
      | _ => False end
  | None => False end.
Proof. io_case. Qed.
EX*)

(** What serialize hands to the writer: everything when it reports success, and then it returns the number of
    bytes; a proper part of the front when the writer fails, and then it returns the writer's error; nothing
    when the histogram cannot be serialized *)
Lemma C68_writer_proof : forall junk h w, reachable h ->
  exists w' x, io_v2_serialize junk h w = Ret (w', x) /\
  match x with
  | ROk n => exists bs, v2_serialize junk h = Ret (ROk bs) /\ n = zlen bs /\ w_out w' = w_out w ++ bs
  | RErr (SerIo e) => exists bs taken rest, v2_serialize junk h = Ret (ROk bs) /\ bs = taken ++ rest /\ rest <> [] /\
      w_out w' = w_out w ++ taken /\ (e = WriteZero \/ exists k, e = Foreign k /\ In (WriteFailed k) (w_script w))
  | RErr (SerOther e) => w' = w /\ e = CountNotSerializable /\ v2_serialize junk h = Ret (RErr e)
  end.
Proof.
  intros junk h w R. pose proof (reachable_wf _ R) as W. unfold io_v2_serialize.
  destruct (C35_bounds_proof junk h R) as (r & E & RO).
  pose proof (C33_serializable_proof junk h R) as (P & Q). rewrite E in *. cbn [bind]. destruct r as [bs|e].
  - destruct (io_write_all (w_script w) (w_out w) bs) as [w' x] eqn:EW. destruct (io_write_spec _ _ _ _ _ EW) as (t & rest & E1 & E2 & X).
    destruct x as [u|e].
    + exists w', (ROk (zlen bs)). split; [reflexivity|]. exists bs. subst rest. rewrite app_nil_r in E1. subst t. auto.
    + exists w', (RErr (SerIo e)). split; [reflexivity|]. exists bs, t, rest. destruct X as (X1 & X2 & X3). auto 10.
  - exists w, (RErr (SerOther e)). split; [reflexivity|]. split; auto. split; auto.
    pose proof (v2_serialize_ok junk h W) as V. rewrite E in V. unfold ser_res in V.
    destruct V as [(F & V)|(F & V)]; congruence.
Qed.

(** a writer that takes at least a byte whenever it is called and does not fail gets everything *)
Lemma C68_willing_proof : forall junk h w bs, v2_serialize junk h = Ret (ROk bs) -> Forall (fun e => ~ refusal e) (w_script w) ->
  exists w', io_v2_serialize junk h w = Ret (w', ROk (zlen bs)) /\ w_out w' = w_out w ++ bs.
Proof.
  intros junk h w bs E F. unfold io_v2_serialize. rewrite E. cbn [bind].
  destruct (io_write_willing _ (w_out w) bs F) as (s & -> & _). eexists. split; reflexivity.
Qed.
(*EX
Example ex_C68_willing : match build U16 1 10000 2 false [(3, 7); (500, 2)] with
  | Some h => match v2_serialize (fun _ => 77) h with
      | Ret (ROk bs) => Forall (fun e => ~ refusal e) [Accept 1; WriteInterrupted; Accept 30] /\
          io_v2_serialize (fun _ => 77) h (mk_writer [8] [Accept 1; WriteInterrupted; Accept 30]) = Ret (mk_writer (8 :: bs) [], ROk 45)
      | _ => False end
  | None => False end.
Proof. io_case. Qed.
EX*)

(** the same for the compressed form; the errors of the writer are told from those of the serialization *)
Lemma C68_deflate_writer_proof : forall cd junk h w w' x, io_v2_deflate_serialize cd junk h w = Ret (w', x) ->
  match x with
  | ROk n => exists bs, v2_deflate_serialize cd junk h = Ret (ROk bs) /\ n = zlen bs /\ w_out w' = w_out w ++ bs
  | RErr (DeflateIo e) => exists bs taken rest, v2_deflate_serialize cd junk h = Ret (ROk bs) /\ bs = taken ++ rest /\ rest <> [] /\
      w_out w' = w_out w ++ taken /\ (e = WriteZero \/ exists k, e = Foreign k /\ In (WriteFailed k) (w_script w))
  | RErr (InternalSerializationError e) => w' = w /\ exists e', e = SerOther e' /\ v2_deflate_serialize cd junk h = Ret (RErr e')
  end.
Proof.
  intros cd junk h w w' x. unfold io_v2_deflate_serialize. destruct (v2_deflate_serialize cd junk h) as [[bs|e]|]; cbn [bind]; [| |discriminate].
  - destruct (io_write_all (w_script w) (w_out w) bs) as [w1 y] eqn:EW. destruct (io_write_spec _ _ _ _ _ EW) as (t & rest & E1 & E2 & X).
    destruct y as [u|e]; intros Q; injection Q as <- <-.
    + exists bs. subst rest. rewrite app_nil_r in E1. subst t. auto.
    + exists bs, t, rest. destruct X as (X1 & X2 & X3). auto 10.
  - intros Q; injection Q as <- <-. eauto.
Qed.
(*EX
Example ex_C68_deflate_writer : match build U16 1 10000 2 false [(3, 7); (500, 2)], build U64 1 10000 2 false [(3, i64_max); (3, 1)] with
  | Some h, Some h2 => match v2_deflate_serialize twice (fun _ => 77) h with
      | Ret (ROk zs) => zlen zs = 99 /\
          io_v2_deflate_serialize twice (fun _ => 1) h (mk_writer [8] [Accept 30; WriteInterrupted]) = Ret (mk_writer (8 :: zs) [], ROk 99) /\
          io_v2_deflate_serialize twice (fun _ => 1) h (mk_writer [8] [Accept 30; WriteFailed 5]) =
            Ret (mk_writer (8 :: firstn 30 zs) [], RErr (DeflateIo (Foreign 5))) /\
          io_v2_deflate_serialize twice (fun _ => 1) h2 (mk_writer [8] []) = Ret (mk_writer [8] [], RErr (InternalSerializationError (SerOther CountNotSerializable)))
      | _ => False end
  | _, _ => False end.
Proof. io_case. Qed.
EX*)

(** a failed write spoils nothing: the same histogram and the same serializer, whatever its buffer holds now, give
    the whole image to the next willing writer *)
Lemma C68_retry_proof : forall junk junk' h w w1 e w2, reachable h ->
  io_v2_serialize junk h w = Ret (w1, RErr (SerIo e)) -> Forall (fun e => ~ refusal e) (w_script w2) ->
  exists bs w', v2_serialize junk h = Ret (ROk bs) /\
    io_v2_serialize junk' h w2 = Ret (w', ROk (zlen bs)) /\ w_out w' = w_out w2 ++ bs.
Proof.
  intros junk junk' h w w1 e w2 R E F. destruct (C68_writer_proof junk h w R) as (w' & x & E' & X).
  rewrite E in E'. assert (x = RErr (SerIo e)) by congruence. subst x. destruct X as (bs & t & rest & S & _).
  exists bs. destruct (C68_willing_proof junk' h w2 bs) as (w3 & Q1 & Q2); auto.
  { rewrite <- S. apply (C39_serializer_reuse_proof (mk_codec (fun x => x) (fun x => x) zlen)). auto. }
  exists w3. auto.
Qed.
(*EX
Example ex_C68_retry : match build U16 1 10000 2 false [(3, 7); (500, 2)] with
  | Some h => reachable h /\ match v2_serialize (fun _ => 77) h with
      | Ret (ROk bs) =>
          io_v2_serialize (fun _ => 77) h (mk_writer [] [Accept 30; WriteFailed 5]) = Ret (mk_writer (firstn 30 bs) [], RErr (SerIo (Foreign 5))) /\
          Forall (fun e => ~ refusal e) [Accept 1] /\ io_v2_serialize (fun _ => 3) h (mk_writer [9] [Accept 1]) = Ret (mk_writer (9 :: bs) [], ROk 45)
      | _ => False end
  | None => False end.
Proof. io_case. Qed.
EX*)

(** what a writer reported as written is read back by whatever delivers it, and what follows is left *)
Lemma C68_round_trip_proof : forall checks zd buf junk h w w' n image r rest s, reachable h ->
  io_v2_serialize junk h w = Ret (w', ROk n) -> w_out w' = w_out w ++ image ->
  delivers r (image ++ rest) s -> bytes rest ->
  exists h' r', io_deserialize checks zd buf (h_ctr h) r = Ret (ROk h', r') /\ delivers r' rest s /\
    held h' = held h /\ h_low h' = h_low h /\ h_high h' = h_high h /\ h_sigfig h' = h_sigfig h.
Proof.
  intros checks zd buf junk h w w' n image r rest s R E O D B.
  destruct (C68_writer_proof junk h w R) as (w1 & x & E' & X). rewrite E in E'. assert (w1 = w') by congruence. assert (x = ROk n) by congruence. subst.
  destruct X as (bs & S & _ & O'). rewrite O in O'. apply app_inv_head in O'. subst bs.
  set (cd := mk_codec (fun x => x) (fun x => x) zlen).
  destruct (C32_round_trip_proof checks cd buf junk h image rest R S) as (h' & DE & _ & _ & H1 & H2 & H3 & H4 & _).
  pose proof (ser_inv junk h image (reachable_wf _ R) S) as (IM & FI).
  assert (BI : bytes image) by (subst image; apply image_bytes; auto using reachable_wf).
  pose proof (C68_plain_proof checks cd zd buf (h_ctr h) r (image ++ rest) s D ltac:(apply Forall_app; auto)) as P.
  rewrite DE in P. destruct P as (r' & P1 & P2).
  - intros rest' Q. subst image. rewrite image_header in Q. rewrite <- !app_assoc in Q.
    apply (f_equal (firstn 4)) in Q. rewrite !firstn_app in Q. rewrite be_write_len in Q.
    change (length (big_endian 4 478450452)) with 4%nat in Q. cbn [Nat.sub firstn] in Q. rewrite !app_nil_r in Q. discriminate Q.
  - exists h', r'. auto 10.
Qed.

(*EX
(** a writer that takes 30 bytes and fails, then one that takes 30, is interrupted, and takes the rest *)
Example ex_C68_writer : match build U16 1 10000 2 false [(3, 7); (500, 2)] with
  | Some h => reachable h /\ match v2_serialize (fun _ => 77) h with
      | Ret (ROk bs) =>
          io_v2_serialize (fun _ => 1) h (mk_writer [] [Accept 30; WriteFailed 5]) = Ret (mk_writer (firstn 30 bs) [], RErr (SerIo (Foreign 5))) /\
          io_v2_serialize (fun _ => 2) h (mk_writer [] [Accept 30; WriteInterrupted]) = Ret (mk_writer bs [], ROk 45) /\
          Forall (fun e => ~ refusal e) [Accept 30; WriteInterrupted] /\
          delivers [Data (firstn 10 bs); Data (skipn 10 bs); Data [4]] (bs ++ [4]) End /\ bytes [4] /\
          match io_deserialize true (over plain) [] (h_ctr h) [Data (firstn 10 bs); Data (skipn 10 bs); Data [4]] with
          | Ret (ROk h', r') => held h' = [(3, 7); (500, 2)] /\ delivers r' [4] End
          | _ => False end
      | _ => False end
  | None => False end.
Proof. io_case. Qed.
EX*)
