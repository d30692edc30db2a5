(** * A [usize] of another width: reading *)
From Verif Require Import Machine Log2Model FloatModel HistModel IterModel SerModel WidthModel WidthSpec WidthFacts WidthWf WidthSer
  ListZ Bins Log2Facts Cfg Wf Ops MoreFacts SerSpec SerFacts SerCode SerDecode SerRest ImageFacts.
From Coq Require Import ZifyBool ZifyNat.

Section WIDE.
Variables (w : Z) (oc : bool).
Hypothesis W32 : 32 <= w <= 64.

Lemma umax_le : usize_max_w w <= usize_max.
Proof using W32. apply (umax_mono w 64); lia. Qed.

(** the same outcome, or the index does not fit *)
Definition tracks {A} (pos : A -> Z) (m mw : res (result A deser_error)) : Prop :=
  (mw = m \/ mw = Ret (RErr DeUsizeTypeTooSmall)) /\ (forall a, m = Ret (ROk a) -> pos a <= usize_max_w w -> mw = m).

Lemma tracks_refl {A} (pos : A -> Z) m : tracks pos m m.
Proof using. split; auto. Qed.

Definition pos3 {A B} (x : Z * A * B) : Z := fst (fst x).
Definition pos4 {A B C} (x : A * Z * B * C) : Z := snd (fst (fst x)).

Lemma odn_tracks d t rs h : 0 <= d -> tracks pos3 (on_decoded_num oc d t rs h) (on_decoded_num_w w oc d t rs h).
Proof using W32.
  intros D. pose proof umax_le as U. unfold on_decoded_num, on_decoded_num_w. destruct (t <? 0).
  - destruct (if oc then _ else _) as [z|]; cbn [bind]; [|apply tracks_refl].
    unfold to_usize_w. destruct (Z.ltb_spec z 0); destruct (Z.leb_spec 0 z); try lia; cbn [andb]; [apply tracks_refl|].
    destruct (Z.leb_spec z (usize_max_w w)).
    + destruct (Z.leb_spec (d + z) (usize_max_w w)).
      * destruct (Z.leb_spec (d + z) usize_max); [apply tracks_refl|lia].
      * destruct (Z.leb_spec (d + z) usize_max); split; auto; intros a E; inversion E; subst; cbn; lia.
    + destruct (Z.leb_spec (d + z) usize_max); split; auto; intros a E; inversion E; subst; cbn; lia.
  - destruct (_ <? _); [apply tracks_refl|]. cbv zeta.
    destruct (Z.leb_spec (d + 1) (usize_max_w w)).
    + destruct (Z.leb_spec (d + 1) usize_max); [apply tracks_refl|lia].
    + destruct (Z.leb_spec (d + 1) usize_max); destruct (0 <? t); try destruct (d <? zlen _); split; auto;
        intros a E; inversion E; subst; cbn; lia.
Qed.

Lemma wrap_le x : wrap_i64 x <= i64_max.
Proof using. unfold wrap_i64, i64_max. pose proof (Z.mod_pos_bound (x + 2 ^ 63) (2 ^ 64) ltac:(lia)). lia. Qed.

Lemma odn_ok d t rs h d' rs' h' : 0 <= d -> narrow h -> on_decoded_num oc d t rs h = Ret (ROk (d', rs', h')) ->
  d <= d' /\ narrow h'.
Proof using W32.
  intros D N. unfold on_decoded_num. destruct (t <? 0).
  - destruct (if oc then _ else _) as [z|]; cbn [bind]; [|discriminate].
    destruct (Z.ltb_spec z 0); [discriminate|]. destruct (_ <=? _); [|discriminate]. intros E; inversion E; subst. split; [lia|auto].
  - destruct (_ <? _); [discriminate|]. cbv zeta. destruct (_ <=? _).
    + destruct (0 <? t); [destruct (d <? zlen _); [|discriminate]|]; intros E; inversion E; subst; (split; [lia|auto]).
      apply (narrow_set h); auto. hsimp. rewrite zlen_vset. lia.
    + destruct (0 <? t); [destruct (d <? zlen _)|]; discriminate.
Qed.

Lemma slow_ok f : forall c d rs h d' rs' h', 0 <= d -> narrow h -> decode_slow oc f c d rs h = Ret (ROk (d', rs', h')) ->
  d <= d' /\ narrow h'.
Proof using W32.
  induction f as [|f IH]; intros c d rs h d' rs' h' D N E; cbn [decode_slow] in E; [discriminate|].
  destruct c as [|b c]; [inversion E; subst; split; [lia|auto]|].
  destruct (varint_read (b :: c)) as [[n c']|]; [|discriminate].
  destruct (on_decoded_num oc d (zig_zag_decode n) rs h) as [[[[d1 rs1] h1]|e]|] eqn:O; cbn [bind] in E; try discriminate.
  apply odn_ok in O; auto. destruct O as (O1 & O2). apply IH in E; auto; [|lia]. split; [lia|tauto].
Qed.

Lemma fast_ok f : forall p i d rs h i' d' rs' h', 0 <= d -> narrow h -> decode_fast oc f p i d rs h = Ret (ROk (i', d', rs', h')) ->
  d <= d' /\ narrow h'.
Proof using W32.
  induction f as [|f IH]; intros p i d rs h i' d' rs' h' D N E; cbn [decode_fast] in E; [discriminate|].
  destruct (i <? _); [|inversion E; subst; split; [lia|auto]].
  destruct (varint_read_slice _) as [[n k]|]; cbn [bind] in E; [|discriminate].
  destruct (usize_add i k); cbn [bind] in E; [|discriminate].
  destruct (on_decoded_num oc d (zig_zag_decode n) rs h) as [[[[d1 rs1] h1]|e]|] eqn:O; cbn [bind] in E; try discriminate.
  apply odn_ok in O; auto. destruct O as (O1 & O2). apply IH in E; auto; [|lia]. split; [lia|tauto].
Qed.

Lemma slow_tracks f : forall c d rs h, 0 <= d -> narrow h ->
  tracks pos3 (decode_slow oc f c d rs h) (decode_slow_w w oc f c d rs h).
Proof using W32.
  induction f as [|f IH]; intros c d rs h D N; cbn [decode_slow_w decode_slow]; [apply tracks_refl|].
  destruct c as [|b c]; [apply tracks_refl|].
  destruct (varint_read (b :: c)) as [[n c']|]; [|apply tracks_refl].
  destruct (odn_tracks d (zig_zag_decode n) rs h D) as (T1 & T2).
  destruct (on_decoded_num oc d (zig_zag_decode n) rs h) as [[[[d1 rs1] h1]|e]|] eqn:O.
  - apply odn_ok in O; auto. destruct O as (O1 & O2). destruct (IH c' d1 rs1 h1 ltac:(lia) O2) as (I1 & I2). cbn [bind].
    split.
    + destruct T1 as [-> | ->]; cbn [bind]; auto.
    + intros [[d' rs'] h'] E P. unfold pos3 in P; cbn [fst] in P. pose proof E as E'. apply slow_ok in E'; auto; [|lia].
      rewrite (T2 _ eq_refl) by (unfold pos3; cbn [fst]; lia). cbn [bind]. apply (I2 _ E). exact P.
  - destruct T1 as [-> | ->]; cbn [bind]; split; auto; intros a Q; discriminate Q.
  - destruct T1 as [-> | ->]; cbn [bind]; split; auto; intros a Q; discriminate Q.
Qed.

Lemma read_slice_len steps : forall n v s x k, Z.of_nat steps + n = 8 -> 0 <= n ->
  varint_read_slice_from steps n v s = Ret (x, k) -> 0 <= k <= 9.
Proof using W32.
  induction steps as [|st IH]; intros n v s x k SN N E; cbn [varint_read_slice_from] in E;
    (destruct (expect (vget s n)); cbn [bind] in E; [|discriminate]).
  - destruct (u64_shl _ _); cbn [bind] in E; [|discriminate]. inversion E; lia.
  - destruct (u64_shl _ _); cbn [bind] in E; [|discriminate]. cbv zeta in E. destruct (negb _); [inversion E; lia|].
    apply IH in E; lia.
Qed.

Lemma fast_tracks f : forall p i d rs h, 0 <= d -> narrow h -> zlen p <= usize_max_w w -> 0 <= i ->
  tracks pos4 (decode_fast oc f p i d rs h) (decode_fast_w w oc f p i d rs h).
Proof using W32.
  pose proof umax_le as U.
  induction f as [|f IH]; intros p i d rs h D N P I; cbn [decode_fast_w decode_fast]; [apply tracks_refl|].
  destruct (Z.ltb_spec i (Z.max 0 (zlen p - 9))); [|apply tracks_refl].
  destruct (varint_read_slice _) as [[n k]|] eqn:R; cbn [bind]; [|apply tracks_refl].
  apply read_slice_len in R; try lia.
  unfold usize_add_w, usize_add. rewrite !in_range_ok by lia. cbn [bind].
  destruct (odn_tracks d (zig_zag_decode n) rs h D) as (T1 & T2).
  destruct (on_decoded_num oc d (zig_zag_decode n) rs h) as [[[[d1 rs1] h1]|e]|] eqn:O.
  - apply odn_ok in O; auto. destruct O as (O1 & O2). destruct (IH p (i + k) d1 rs1 h1 ltac:(lia) O2 P ltac:(lia)) as (I1 & I2). cbn [bind].
    split.
    + destruct T1 as [-> | ->]; cbn [bind]; auto.
    + intros [[[i' d'] rs'] h'] E Q. unfold pos4 in Q; cbn [fst snd] in Q. pose proof E as E'. apply fast_ok in E'; auto; [|lia].
      rewrite (T2 _ eq_refl) by (unfold pos3; cbn [fst]; lia). cbn [bind]. apply (I2 _ E). exact Q.
  - destruct T1 as [-> | ->]; cbn [bind]; split; auto; intros a Q; discriminate Q.
  - destruct T1 as [-> | ->]; cbn [bind]; split; auto; intros a Q; discriminate Q.
Qed.

Lemma payload_tracks p h : narrow h -> zlen p <= usize_max_w w ->
  decode_payload_w w oc p h = decode_payload oc p h \/ decode_payload_w w oc p h = Ret (RErr DeUsizeTypeTooSmall).
Proof using W32.
  intros N P. unfold decode_payload_w, decode_payload.
  destruct (fast_tracks (S (length p)) p 0 0 restat_new h ltac:(lia) N P ltac:(lia)) as ([E|E] & _); rewrite E; cbn [bind]; auto.
  destruct (decode_fast oc (S (length p)) p 0 0 restat_new h) as [[[[[i d] rs] h1]|e]|] eqn:EF; cbn [bind]; auto.
  apply fast_ok in EF; auto; [|lia]. destruct EF as (D & N1).
  destruct (assert _); cbn [bind]; auto. cbv zeta.
  set (l := skipn _ _). destruct (slow_tracks (S (length l)) l d rs h1 D N1) as ([E2|E2] & _); rewrite E2; cbn [bind]; auto.
  destruct (decode_slow _ _ _ _ _ _) as [[[[d2 rs2] h2]|e]|] eqn:ES; cbn [bind]; auto.
  apply slow_ok in ES; auto. rewrite restat_update_same by (try lia; tauto). auto.
Qed.

(** the position reached when the payload is read to the end *)
Lemma payload_same p h d rs h2 : Forall byte p -> zlen p <= usize_max_w w -> narrow h ->
  slow oc p 0 restat_new h = Ret (ROk (d, rs, h2)) -> d <= usize_max_w w ->
  decode_payload_w w oc p h = decode_payload oc p h.
Proof using W32.
  intros F P N E DL. pose proof umax_le as U. unfold decode_payload_w, decode_payload.
  pose proof (fast_slow oc (S (length p)) p 0 0 restat_new h F ltac:(lia) ltac:(unfold zlen; lia) ltac:(unfold zlen; lia)) as FS.
  rewrite skipn_O in FS. rewrite E in FS.
  destruct (fast_tracks (S (length p)) p 0 0 restat_new h ltac:(lia) N P ltac:(lia)) as (_ & T).
  destruct (decode_fast oc (S (length p)) p 0 0 restat_new h) as [[[[[i d1] rs1] h1]|e]|] eqn:EF; cbn [bind] in FS; try discriminate.
  apply fast_ok in EF; auto; [|lia]. destruct EF as (D & N1).
  destruct (assert (i <=? zlen p)) eqn:EA; cbn [bind] in FS; [|discriminate].
  unfold slow in FS. set (l := skipn (Z.to_nat i) p) in *. pose proof FS as FS'. apply slow_ok in FS'; auto. destruct FS' as (D2 & N2).
  rewrite (T _ eq_refl) by (unfold pos4; cbn [fst snd]; lia). cbn [bind]. rewrite EA. cbn [bind]. cbv zeta. fold l.
  destruct (slow_tracks (S (length l)) l d1 rs1 h1 D N1) as (_ & T2).
  rewrite (T2 _ FS) by (unfold pos3; cbn [fst]; lia). rewrite FS. cbn [bind].
  rewrite restat_update_same by (try lia; auto). reflexivity.
Qed.

(** ** Whole inputs *)
Lemma deser_v2_tracks buf T rd : Forall byte rd ->
  deser_v2_w w oc buf T rd = deser_v2 oc buf T rd \/ deser_v2_w w oc buf T rd = Ret (RErr DeUsizeTypeTooSmall) \/
  (deser_v2_w w oc buf T rd = Panic /\ exists n rest, rd = big_endian 4 n ++ rest /\ 2 ^ (w - 1) <= n /\ zlen buf < n).
Proof using W32.
  intros F. unfold deser_v2_w, deser_v2.
  destruct (read_be 4 rd) as [[pl rd1]|] eqn:E1; [|auto].
  destruct (read_be_range 4 rd pl rd1 F ltac:(lia) E1) as (R1 & F1 & b1 & B1 & L1).
  change (2 ^ (8 * 4)) with 4294967296 in R1. destruct (imax_big w ltac:(lia)) as (IB & UB).
  unfold to_usize_w. replace (_ && _) with true by lia.
  destruct (read_be 4 rd1) as [[no rd2]|] eqn:E2; [|auto].
  destruct (read_be_range 4 rd1 no rd2 F1 ltac:(lia) E2) as (R2 & F2 & b2 & B2 & _).
  destruct (no =? 0); cbn [negb]; [|auto].
  destruct (read_be 4 rd2) as [[sf rd3]|] eqn:E3; [|auto].
  destruct (read_be_range 4 rd2 sf rd3 F2 ltac:(lia) E3) as (R3 & F3 & b3 & B3 & _).
  destruct (Z.ltb_spec u8_max sf); [auto|].
  destruct (read_be 8 rd3) as [[lo rd4]|] eqn:E4; [|auto].
  destruct (read_be_range 8 rd3 lo rd4 F3 ltac:(lia) E4) as (R4 & F4 & b4 & B4 & _).
  destruct (read_be 8 rd4) as [[hi rd5]|] eqn:E5; [|auto].
  destruct (read_be_range 8 rd4 hi rd5 F4 ltac:(lia) E5) as (R5 & F5 & b5 & B5 & _).
  destruct (read_be 8 rd5) as [[dr rd6]|] eqn:E6; [|auto].
  destruct (read_be_range 8 rd5 dr rd6 F5 ltac:(lia) E6) as (R6 & F6 & b6 & B6 & _).
  destruct (dr =? 4607182418800017408); cbn [negb]; [|auto].
  change (2 ^ (8 * 8)) with (u64_max + 1) in *.
  assert (UL : u64 lo) by (unfold u64; lia). assert (UH : u64 hi) by (unfold u64; lia).
  assert (US : 0 <= sf <= u8_max) by lia.
  rewrite created_same by (auto; lia).
  rewrite new_with_bounds_ok by auto.
  destruct (creation_check lo hi sf) eqn:CC; cbn [bind]; [auto|].
  pose proof (fresh_wf T lo hi sf UL UH US CC) as W.
  pose proof (wf_narrow _ (w_cfg _ W) (w_size _ W)) as N.
  assert (K : forall m, (match read_exact pl rd6 with
      | Some (bytes, rd7) => r <- decode_payload_w w oc bytes (fresh T lo hi sf) ;;
           match r with RErr e => Ret (RErr e) | ROk h' => Ret (ROk (h', rd7)) end
      | None => Ret (RErr DeIoError) end) = m ->
    m = (match read_exact pl rd6 with
      | Some (bytes, rd7) => r <- decode_payload oc bytes (fresh T lo hi sf) ;;
           match r with RErr e => Ret (RErr e) | ROk h' => Ret (ROk (h', rd7)) end
      | None => Ret (RErr DeIoError) end) \/ m = Ret (RErr DeUsizeTypeTooSmall)).
  { intros m <-. destruct (read_exact pl rd6) as [[p rd7]|] eqn:E7; auto.
    destruct (read_exact_some pl rd6 p rd7 ltac:(lia) E7) as (B7 & LP).
    destruct (payload_tracks p _ N ltac:(lia)) as [-> | ->]; cbn [bind]; auto. }
  cbn zeta. rewrite (payload_slice_len buf pl) by lia.
  destruct (Z.ltb_spec (zlen buf) pl) as [BL|BL].
  - unfold vec_resize_w. destruct (vec_fits_w w 1 pl) eqn:VF; cbn [bind].
    + rewrite zlen_firstn by (rewrite zlen_vresize by lia; lia).
      destruct (K _ eq_refl) as [Q|Q]; rewrite Q; auto.
    + right. right. split; auto. exists pl, rd1. unfold vec_fits_w, isize_max_w in VF.
      destruct (read_be_inv 4 rd pl rd1 F E1) as (B & _). split; [exact B|]. lia.
  - cbn [bind]. rewrite zlen_firstn by lia. destruct (K _ eq_refl) as [Q|Q]; rewrite Q; auto.
Qed.

Lemma deserialize_tracks cd buf T rd : codec_ok cd -> Forall byte rd ->
  deserialize_w w oc cd buf T rd = deserialize oc cd buf T rd \/ deserialize_w w oc cd buf T rd = Ret (RErr DeUsizeTypeTooSmall) \/
  (deserialize_w w oc cd buf T rd = Panic /\ exists n, 2 ^ (w - 1) <= n /\ zlen buf < n /\ declares cd rd n).
Proof using W32.
  intros CD F. unfold deserialize_w, deserialize.
  destruct (read_be 4 rd) as [[c rd1]|] eqn:E1; [|auto].
  destruct (read_be_inv 4 rd c rd1 F E1) as (B1 & R1 & F1).
  destruct (Z.eqb_spec c V2_COOKIE) as [->|].
  { destruct (deser_v2_tracks buf T rd1 F1) as [Q|[Q|(Q & n & rest & E & L & L')]]; auto. right. right. split; auto.
    exists n. split; [auto|]. split; [auto|]. left. exists rest. rewrite B1, E. reflexivity. }
  destruct (Z.eqb_spec c V2_COMPRESSED_COOKIE) as [->|]; [|auto].
  unfold deser_v2_compressed_w, deser_v2_compressed.
  destruct (read_be 4 rd1) as [[pl rd2]|] eqn:E2; [|auto].
  destruct (read_be_inv 4 rd1 pl rd2 F1 E2) as (B2 & R2 & F2). change (2 ^ (8 * Z.of_nat 4)) with 4294967296 in R2.
  destruct (imax_big w ltac:(lia)) as (IB & UB).
  unfold to_usize_w. replace (_ && _) with true by lia. cbv zeta.
  set (z := firstn (Z.to_nat pl) rd2). assert (FZ : Forall byte z) by (apply Forall_firstn; auto).
  destruct (CD z FZ) as (FI & _).
  destruct (read_be 4 (inflate cd z)) as [[ic drd]|] eqn:E3; [|auto].
  destruct (read_be_inv 4 _ ic drd FI E3) as (B3 & R3 & F3).
  destruct (Z.eqb_spec ic V2_COOKIE) as [->|]; cbn [negb]; [|auto].
  destruct (deser_v2_tracks buf T drd F3) as [Q|[Q|(Q & k & rest & E & L & L')]]; rewrite Q; cbn [bind]; auto.
  right. right. split; auto. exists k. split; [auto|]. split; [auto|]. right.
  exists (big_endian 4 pl), z, (skipn (Z.to_nat pl) rd2), rest. split; [rewrite big_endian_write by lia; apply be_write_len|]. split.
  - rewrite B1, B2. f_equal. f_equal. symmetry. apply firstn_skipn.
  - rewrite B3, E. reflexivity.
Qed.

(** ** Images *)
Lemma reread_same T h : wf h -> Forall (fun c => c <= i64_max) (h_counts h) -> Forall (fun c => c <= cmax T) (h_counts h) ->
  decode_payload_w w oc (payload h) (fresh T (h_low h) (h_high h) (h_sigfig h)) =
  decode_payload oc (payload h) (fresh T (h_low h) (h_high h) (h_sigfig h)).
Proof using W32.
  intros W F FT. pose proof (w_cfg h W) as C. pose proof (w_size h W) as S.
  pose proof (coded_facts h W) as (B & ZC & CB & ZN & FI). pose proof (payload_small h W) as (PS & LS).
  destruct (payload_ok h W F) as (PB & TK & FC). destruct (self_params h C) as (UL & UH & US & CC).
  destruct (imax_big w ltac:(lia)) as (IB & UB).
  set (h0 := fresh T (h_low h) (h_high h) (h_sigfig h)).
  assert (DI : dinv h0 0 restat_new h0) by (apply dinv_fresh; auto).
  assert (L0 : zlen (h_counts h0) = zlen (h_counts h)) by (apply fresh_self_len; auto).
  pose proof (fresh_wf T _ _ _ UL UH US CC) as W0. fold h0 in W0.
  pose proof (wf_narrow _ (w_cfg _ W0) (w_size _ W0)) as N.
  destruct (run_toks_ok oc h0 (coded h) FC 0 0 restat_new h0 DI ltac:(lia) ltac:(lia) ltac:(unfold i64_max; lia))
    as [(A & rs' & h' & E & DI' & Q)|(A & E)].
  - apply (payload_same (payload h) h0 (0 + 0 + zlen (coded h)) rs' h'); auto; try lia.
    unfold payload. rewrite slow_code by auto. exact E.
  - exfalso. apply A. apply Forall_firstn. auto.
Qed.

Lemma deser_v2_image_same buf T h rest : wf h -> Forall (fun c => c <= i64_max) (h_counts h) -> Forall (fun c => c <= cmax T) (h_counts h) ->
  exists body, image h ++ rest = be_write 4 V2_COOKIE ++ body /\ deser_v2_w w oc buf T body = deser_v2 oc buf T body.
Proof using W32.
  intros W F FT. pose proof (w_cfg h W) as C. pose proof (payload_small h W) as (PS & LS).
  destruct (self_params h C) as (UL & UH & US & CC). pose proof (c_sf h C) as SF.
  destruct (imax_big w ltac:(lia)) as (IB & UB).
  eexists. split; [unfold image; rewrite <- !app_assoc; reflexivity|].
  unfold deser_v2_w, deser_v2.
  rewrite (read_be_write 4) by (change (2 ^ (8 * Z.of_nat 4)) with 4294967296; lia).
  unfold to_usize_w. replace (_ && _) with true by lia.
  rewrite (read_be_write 4) by (change (2 ^ (8 * Z.of_nat 4)) with 4294967296; lia). cbn [negb Z.eqb].
  rewrite (read_be_write 4) by (change (2 ^ (8 * Z.of_nat 4)) with 4294967296; lia).
  destruct (Z.ltb_spec u8_max (h_sigfig h)); [lia|].
  rewrite (read_be_write 8) by (change (2 ^ (8 * Z.of_nat 8)) with (u64_max + 1); unfold u64 in *; lia).
  rewrite (read_be_write 8) by (change (2 ^ (8 * Z.of_nat 8)) with (u64_max + 1); unfold u64 in *; lia).
  rewrite (read_be_write 8) by (change (2 ^ (8 * Z.of_nat 8)) with (u64_max + 1); unfold u64_max; lia).
  rewrite Z.eqb_refl. cbn [negb].
  rewrite created_same by (auto; lia). rewrite new_with_bounds_ok by auto. rewrite CC. cbn [bind].
  cbn zeta. rewrite (payload_slice_len buf (zlen (payload h))) by lia. rewrite read_exact_app.
  assert (V : (buf0 <- (if zlen buf <? zlen (payload h) then vec_resize_w w 1 buf (zlen (payload h)) 0 else Ret buf) ;; Ret buf0) =
    Ret (if zlen buf <? zlen (payload h) then vresize buf (zlen (payload h)) 0 else buf)).
  { destruct (zlen buf <? zlen (payload h)); [|reflexivity]. unfold vec_resize_w, vec_fits_w.
    destruct (Z.leb_spec (1 * zlen (payload h)) (isize_max_w w)); [reflexivity|lia]. }
  destruct (if zlen buf <? zlen (payload h) then vec_resize_w w 1 buf (zlen (payload h)) 0 else Ret buf) as [bf|]; cbn [bind] in V; [|discriminate].
  injection V as ->. cbn [bind]. rewrite payload_slice_len by lia. rewrite read_exact_app.
  rewrite reread_same by auto. reflexivity.
Qed.

Lemma deserialize_image_same cd buf T h rest : wf h -> Forall (fun c => c <= i64_max) (h_counts h) -> Forall (fun c => c <= cmax T) (h_counts h) ->
  deserialize_w w oc cd buf T (image h ++ rest) = deserialize oc cd buf T (image h ++ rest).
Proof using W32.
  intros W F FT. destruct (deser_v2_image_same buf T h rest W F FT) as (body & -> & R).
  unfold deserialize_w, deserialize. rewrite !(read_be_write 4) by apply cookie_small. rewrite Z.eqb_refl. exact R.
Qed.

Lemma deserialize_cimage_same cd buf T h rest : wf h -> Forall (fun c => c <= i64_max) (h_counts h) -> Forall (fun c => c <= cmax T) (h_counts h) ->
  lossless cd -> zlen (deflate cd (image h)) + 8 <= u32_max ->
  deserialize_w w oc cd buf T (cimage cd h ++ rest) = deserialize oc cd buf T (cimage cd h ++ rest).
Proof using W32.
  intros W F FT LS L. destruct (LS (image h) (image_bytes h W F)) as (ZB & IZ).
  destruct (deser_v2_image_same buf T h [] W F FT) as (body & EB & R). rewrite app_nil_r in EB.
  destruct (imax_big w ltac:(lia)) as (IB & UB).
  unfold cimage. set (z := deflate cd (image h)) in *. pose proof (zlen_nonneg z) as Z0. unfold u32_max in L.
  unfold deserialize_w, deserialize. rewrite <- !app_assoc. rewrite !(read_be_write 4) by apply ccookie_small.
  change (V2_COMPRESSED_COOKIE =? V2_COOKIE) with false. rewrite Z.eqb_refl.
  unfold deser_v2_compressed_w, deser_v2_compressed. rewrite !(read_be_write 4) by (change (2 ^ (8 * Z.of_nat 4)) with 4294967296; lia).
  unfold to_usize_w. replace (_ && _) with true by lia.
  cbn zeta. rewrite length_zlen, firstn_app_at by reflexivity. rewrite IZ. rewrite EB.
  rewrite !(read_be_write 4) by apply cookie_small. rewrite Z.eqb_refl. cbn [negb]. rewrite R. reflexivity.
Qed.
End WIDE.
