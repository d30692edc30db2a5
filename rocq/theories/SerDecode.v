(** * What the deserializer makes of arbitrary bytes, and of what the serializer wrote *)
From Verif Require Import Machine Log2Model HistModel Bins ListZ Log2Facts Cfg Wf Ops AddFacts SubFacts Exact MoreFacts
  SerModel SerSpec SerFacts SerCode.
From Coq Require Import ZifyBool ZifyNat.

Section CHECKS.
(** whether the build checks for overflow *)
Variable oc : bool.
Local Notation on_decoded_num := (SerModel.on_decoded_num oc).
Local Notation decode_fast := (SerModel.decode_fast oc).
Local Notation decode_slow := (SerModel.decode_slow oc).
Local Notation decode_payload := (SerModel.decode_payload oc).
Local Notation deser_v2 := (SerModel.deser_v2 oc).

(** ** The two loops together are one *)
Lemma decode_slow_fuel f : forall f' c d rs h, Forall byte c -> (length c < f)%nat -> (length c < f')%nat ->
  decode_slow f c d rs h = decode_slow f' c d rs h.
Proof.
  induction f as [|f IH]; intros f' c d rs h F L L'; [lia|]. destruct f' as [|f']; [lia|]. cbn [SerModel.decode_slow].
  destruct c as [|b c]; auto.
  destruct (varint_read (b :: c)) as [[x c']|] eqn:E; auto.
  destruct (varint_read_some _ _ _ F E) as (a & EA & LA & _).
  assert (LC : (length c' < length (b :: c))%nat) by (rewrite EA, app_length; lia).
  assert (FC : Forall byte c') by (rewrite EA in F; apply Forall_app in F; tauto).
  destruct (on_decoded_num d (zig_zag_decode x) rs h) as [[[[d' rs'] h']|e]|]; cbn [bind]; auto.
  apply IH; auto; lia.
Qed.

Definition slow (c : list Z) := decode_slow (S (length c)) c.

Lemma slow_step c d rs h : Forall byte c -> slow c d rs h =
  match c with
  | [] => Ret (ROk (d, rs, h))
  | _ => match varint_read c with
         | None => Ret (RErr DeIoError)
         | Some (n, c') =>
             r <- on_decoded_num d (zig_zag_decode n) rs h ;;
             match r with RErr e => Ret (RErr e) | ROk (d', rs', h') => slow c' d' rs' h' end
         end
  end.
Proof.
  intros F. unfold slow at 1. cbn [SerModel.decode_slow]. destruct c as [|b c]; auto.
  destruct (varint_read (b :: c)) as [[x c']|] eqn:E; auto.
  destruct (varint_read_some _ _ _ F E) as (a & EA & LA & _).
  assert (LC : (length c' < length (b :: c))%nat) by (rewrite EA, app_length; lia).
  assert (FC : Forall byte c') by (rewrite EA in F; apply Forall_app in F; tauto).
  destruct (on_decoded_num d (zig_zag_decode x) rs h) as [[[[d' rs'] h']|e]|]; cbn [bind]; auto.
  apply decode_slow_fuel; auto; lia.
Qed.

Lemma fast_slow fuel : forall p i d rs h, Forall byte p -> zlen p <= usize_max -> 0 <= i <= zlen p ->
  (Z.to_nat (zlen p - i) < fuel)%nat ->
  (r <- decode_fast fuel p i d rs h ;;
   match r with
   | RErr e => Ret (RErr e)
   | ROk (i', d', rs', h') =>
       _ <- assert (i' <=? zlen p) ;;
       slow (skipn (Z.to_nat i') p) d' rs' h'
   end) = slow (skipn (Z.to_nat i) p) d rs h.
Proof.
  induction fuel as [|f IH]; intros p i d rs h F PU I FU; [lia|]. cbn [SerModel.decode_fast].
  destruct (Z.ltb_spec i (Z.max 0 (zlen p - 9))) as [L|L].
  - set (c := skipn (Z.to_nat i) p).
    assert (FC : Forall byte c) by (apply Forall_skipn; auto).
    assert (LC : (length c = Z.to_nat (zlen p - i))%nat) by (unfold c; rewrite skipn_length; unfold zlen; lia).
    destruct (varint_slice_ok c FC ltac:(lia)) as (x & c' & E & SL). rewrite SL. cbn [bind].
    destruct (varint_read_some _ _ _ FC E) as (a & EA & LA & _).
    assert (ZA : zlen c = zlen a + zlen c') by (rewrite EA, zlen_app; reflexivity).
    assert (ZC : zlen c = zlen p - i) by (unfold zlen in *; lia).
    assert (1 <= zlen a <= 9) by (unfold zlen; lia). pose proof (zlen_nonneg c').
    unfold usize_add. rewrite in_range_ok by lia. cbn [bind].
    rewrite (slow_step c) by auto. destruct c as [|b c0] eqn:EC; [cbn in LC; lia|]. rewrite <- EC in *. rewrite E.
    destruct (on_decoded_num d (zig_zag_decode x) rs h) as [[[[d' rs'] h']|e]|]; cbn [bind]; auto.
    rewrite IH; auto; try lia. f_equal.
    replace (Z.to_nat (i + (zlen c - zlen c'))) with (length a + Z.to_nat i)%nat by (unfold zlen in *; lia).
    transitivity (skipn (length a) (skipn (Z.to_nat i) p)).
    { clear. revert p. induction (Z.to_nat i) as [|k IHk]; intros p; [rewrite Nat.add_0_r; reflexivity|].
      rewrite Nat.add_succ_r. destruct p; [rewrite !skipn_nil; reflexivity|]. cbn [skipn]. apply IHk. }
    change (skipn (Z.to_nat i) p) with c. rewrite EA. apply skipn_app_at. reflexivity.
  - cbn [bind]. replace (i <=? zlen p) with true by lia. reflexivity.
Qed.

Lemma decode_payload_eq p h : Forall byte p -> zlen p <= usize_max ->
  decode_payload p h =
  (r2 <- slow p 0 restat_new h ;;
   match r2 with RErr e => Ret (RErr e) | ROk (_, rs2, h2) => h3 <- restat_update rs2 h2 ;; Ret (ROk h3) end).
Proof.
  intros F PU. pose proof (zlen_nonneg p).
  pose proof (fast_slow (S (length p)) p 0 0 restat_new h F PU ltac:(lia) ltac:(unfold zlen; lia)) as FS.
  cbn [Z.to_nat skipn] in FS. rewrite <- FS. unfold SerModel.decode_payload.
  destruct (decode_fast (S (length p)) p 0 0 restat_new h) as [[[[[i d] rs] h1]|e]|]; cbn [bind]; auto.
  destruct (assert (i <=? zlen p)); cbn [bind]; reflexivity.
Qed.

(** ** A sequence of numbers *)
Fixpoint run_toks (ts : list Z) (d : Z) (rs : restat_state) (h : hist) : res (result (Z * restat_state * hist) deser_error) :=
  match ts with
  | [] => Ret (ROk (d, rs, h))
  | t :: ts' =>
      r <- on_decoded_num d t rs h ;;
      match r with RErr e => Ret (RErr e) | ROk (d', rs', h') => run_toks ts' d' rs' h' end
  end.

Lemma slow_code ts : Forall tok_ok ts -> forall d rs h, slow (code ts) d rs h = run_toks ts d rs h.
Proof.
  induction 1 as [|t ts T F IH]; intros d rs h; [reflexivity|].
  assert (FB : Forall byte (code (t :: ts))) by (apply code_bytes; constructor; auto).
  rewrite slow_step by auto. change (code (t :: ts)) with (varint (zig_zag_encode t) ++ code ts) in *.
  pose proof (varint_len (zig_zag_encode t)) as VL.
  destruct (varint (zig_zag_encode t) ++ code ts) as [|b l] eqn:E.
  { assert (X : length (varint (zig_zag_encode t) ++ code ts) = O) by (rewrite E; reflexivity). rewrite app_length in X. lia. }
  rewrite <- E. rewrite varint_read_ok by (apply zz_encode_range; auto). rewrite zz_inv by auto. cbn [run_toks].
  destruct (on_decoded_num d t rs h) as [[[[d' rs'] h']|e]|]; cbn [bind]; auto.
Qed.

(** ** The state of the loop *)
Record dinv (h0 : hist) (d : Z) (rs : restat_state) (h : hist) : Prop := {
  di_d : 0 <= d;
  di_eq : h = set_counts h0 (h_counts h);
  di_len : zlen (h_counts h) = zlen (h_counts h0);
  di_cnt : Forall (fun c => 0 <= c <= cmax (h_ctr h0)) (h_counts h);
  di_zero : forall i, d <= i -> zn (h_counts h) i = 0;
  di_desc : describes (h_counts h) rs
}.

Lemma set_counts_set h a b : set_counts (set_counts h a) b = set_counts h b.
Proof. reflexivity. Qed.

Lemma describes_vset l rs d c : Forall (fun x => 0 <= x) l -> describes l rs -> 0 <= d < zlen l -> 0 < c ->
  (forall i, d <= i -> zn l i = 0) -> describes (vset l d c) (on_nonzero_count rs d c).
Proof.
  intros F (T & MX & MN) D C Z0. unfold describes, on_nonzero_count. cbn [rs_total rs_max rs_min].
  rewrite zsum_vset by auto. rewrite Z0 by lia. rewrite zlen_vset. split; [unfold sat_add64; rewrite T; lia|]. split.
  - split; [lia|]. rewrite zn_vset by lia. destruct (Z.eqb_spec d d); [|lia]. split; [lia|].
    intros i Hi. rewrite zn_vset by lia. destruct (Z.eqb_spec d i); [lia|]. apply Z0. lia.
  - destruct (rs_min rs) as [k|].
    + destruct MN as (K & NZ & ZZ). assert (k < d). { destruct (Z_lt_le_dec k d); auto. exfalso. apply NZ, Z0. auto. }
      split; [lia|]. rewrite zn_vset by lia. destruct (Z.eqb_spec d k); [lia|]. split; auto.
      intros i Hi. rewrite zn_vset by lia. destruct (Z.eqb_spec d i); [lia|]. auto.
    + destruct (Z.eqb_spec d 0) as [->|].
      * intros i Hi. rewrite zn_vset by lia. destruct (Z.eqb_spec 0 i); [lia|]. auto.
      * split; [lia|]. rewrite zn_vset by lia. destruct (Z.eqb_spec d d); [|lia]. split; [lia|].
        intros i Hi. rewrite zn_vset by lia. destruct (Z.eqb_spec d i); [lia|]. apply MN. lia.
Qed.

Lemma dinv_step h0 d rs h t : dinv h0 d rs h -> tok_ok t ->
  (oc = true /\ t = i64_min /\ on_decoded_num d t rs h = Panic) \/
  exists r, on_decoded_num d t rs h = Ret r /\
    match r with RErr _ => True | ROk (d', rs', h') => dinv h0 d' rs' h' end.
Proof.
  intros [D EQ LEN CNT Z0 DE] T. unfold SerModel.on_decoded_num. unfold tok_ok, i64_min, i64_max in *.
  destruct (Z.ltb_spec t 0).
  - destruct (Z.eq_dec t (-9223372036854775808)) as [->|N].
    { destruct oc; [left; auto|right]. eexists. split; [reflexivity|]. exact I. }
    right. replace (if oc then in_range (-9223372036854775808) 9223372036854775807 (- t) else Ret (wrap_i64 (- t))) with (Ret (- t)).
    2:{ destruct oc; [rewrite in_range_ok by lia; reflexivity|]. unfold wrap_i64. rewrite Z.mod_small by lia. f_equal. lia. }
    cbn [bind]. destruct (Z.ltb_spec (- t) 0); [lia|].
    destruct (d + - t <=? usize_max); eexists; (split; [reflexivity|]); try exact I. constructor; auto; [lia|]. intros; apply Z0; lia.
  - right. destruct (Z.ltb_spec (cmax (h_ctr h)) t) as [|CM]; [eexists; split; [reflexivity|]; exact I|].
    rewrite EQ in CM; hsimp in CM.
    destruct (Z.ltb_spec 0 t).
    + destruct (Z.ltb_spec d (zlen (h_counts h))); [|eexists; split; [reflexivity|]; exact I].
      cbn zeta. destruct (d + 1 <=? usize_max); eexists; (split; [reflexivity|]); try exact I.
      constructor; hsimp; auto; try lia.
      * rewrite EQ at 1. reflexivity.
      * rewrite zlen_vset. auto.
      * apply Forall_vset; auto.
      * intros i Hi. rewrite zn_vset by lia. destruct (Z.eqb_spec d i); [lia|]. apply Z0. lia.
      * apply describes_vset; auto; try lia. eapply Forall_impl; [|exact CNT]. cbn; lia.
    + cbn zeta. destruct (d + 1 <=? usize_max); eexists; (split; [reflexivity|]); try exact I. constructor; auto; [lia|]. intros; apply Z0; lia.
Qed.

(** what reading the payload gives, whatever the bytes *)
Lemma slow_inv h0 n : forall p d rs h, (length p <= n)%nat -> Forall byte p -> dinv h0 d rs h ->
  (oc = true /\ slow p d rs h = Panic /\ has_i64_min p) \/
  exists r, slow p d rs h = Ret r /\ match r with RErr _ => True | ROk (d', rs', h') => dinv h0 d' rs' h' end.
Proof.
  induction n as [|n IH]; intros p d rs h L F DI; rewrite slow_step by auto.
  - destruct p; [|cbn in L; lia]. right. eexists. split; [reflexivity|]. exact DI.
  - destruct p as [|b p]; [right; eexists; split; [reflexivity|]; exact DI|].
    destruct (varint_read (b :: p)) as [[x c']|] eqn:E; [|right; eexists; split; [reflexivity|]; exact I].
    destruct (varint_read_some _ _ _ F E) as (a & EA & LA & X).
    assert (LC : (length c' < length (b :: p))%nat) by (rewrite EA, app_length; lia).
    assert (FC : Forall byte c') by (rewrite EA in F; apply Forall_app in F; tauto).
    destruct (dinv_step h0 d rs h (zig_zag_decode x) DI (zz_decode_range x X)) as [(OC & M & P)|(r & R & RI)].
    + rewrite P. left. split; auto. split; auto. exists [], (b :: p), x, c'. auto.
    + rewrite R. cbn [bind]. destruct r as [[[d' rs'] h']|e]; [|right; eexists; split; [reflexivity|]; exact I].
      destruct (IH c' d' rs' h') as [(OC & P & H)|Q]; auto; [lia|]. left. split; auto. split; auto.
      destruct H as (pre & rest & y & post & E1 & E2 & E3). exists (a ++ pre), rest, y, post.
      split; [|auto]. rewrite EA, E1, app_assoc. reflexivity.
Qed.

(** ** The statistics recomputed at the end *)
Lemma restated_exact h h' : wf0 h -> restated h h' -> wf h' -> exact_max h' /\ exact_min h'.
Proof.
  intros [C S Cn] [RC RS RH RT RX RN] W'. pose proof (w_cfg h' W') as C'.
  assert (BB : forall v, bin h' v = bin h v) by (intros; apply same_shape_bin; auto).
  split.
  - unfold exact_max. rewrite RC, BB. destruct RX as [(A & B)|(k & K & NZ & ZZ & BK & _)].
    + left. split; auto. rewrite B. apply bin0_zero; auto. pose proof (pow2_pos (h_um h) (um_nonneg h C)). lia.
    + right. rewrite BK. auto.
  - unfold exact_min. rewrite RC, BB. destruct RN as [(A & B)|(k & K & NZ & ZZ & BK)].
    + left. auto.
    + right. rewrite BK. rewrite bin_bval by (auto; lia). auto.
Qed.

(** the histogram the deserializer returns for the counts [cs] *)
Record decoded (T : counter) (lo hi sf : Z) (cs : list Z) (h : hist) : Prop := {
  dc_wf : wf h;
  dc_ctr : h_ctr h = T; dc_low : h_low h = lo; dc_high : h_high h = hi; dc_sf : h_sigfig h = sf; dc_auto : h_auto h = false;
  dc_counts : h_counts h = cs;
  dc_total : h_total h = Z.min u64_max (zsum cs);
  dc_max : exact_max h; dc_min : exact_min h;
  dc_empty : (forall i, 0 <= i -> zn cs i = 0) -> h_max h = 0;
  dc_um : h_um h = log2_floor_f64 lo;
  dc_m : h_half_mag h = Z.log2_up (2 * 10 ^ sf) - 1
}.

Lemma fresh_set_wf0 T lo hi sf cs : u64 lo -> u64 hi -> 0 <= sf <= u8_max -> creation_check lo hi sf = None ->
  zlen cs = zlen (h_counts (fresh T lo hi sf)) -> Forall (fun c => 0 <= c <= cmax T) cs ->
  wf0 (set_counts (fresh T lo hi sf) cs).
Proof.
  intros L Hh S CC LC F. pose proof (fresh_wf T lo hi sf L Hh S CC) as W. destruct W as [C SZ _ _ _ _ _ _ _ _ _].
  constructor.
  - destruct C; constructor; hsimp; auto.
  - destruct SZ; constructor; hsimp; auto. rewrite LC. auto.
  - exact F.
Qed.

Lemma decoded_ok T lo hi sf cs rs : u64 lo -> u64 hi -> 0 <= sf <= u8_max -> creation_check lo hi sf = None ->
  zlen cs = zlen (h_counts (fresh T lo hi sf)) -> Forall (fun c => 0 <= c <= cmax T) cs -> describes cs rs ->
  exists h', restat_update rs (set_counts (fresh T lo hi sf) cs) = Ret h' /\ decoded T lo hi sf cs h'.
Proof.
  intros L Hh S CC LC F D. pose proof (fresh_wf T lo hi sf L Hh S CC) as WF.
  pose proof (fresh_set_wf0 T lo hi sf cs L Hh S CC LC F) as W0.
  set (h := set_counts (fresh T lo hi sf) cs) in *.
  pose proof D as (DT & DX & DN).
  destruct (rs_max rs) as [k|] eqn:EX.
  - destruct DX as (K & NZ & ZZ).
    destruct (restat_ok h W0) as (h' & E & RS & W'). destruct W0 as [C SZ CN].
    assert (F0 : Forall (fun c => 0 <= c) (h_counts h)) by (eapply Forall_impl; [|exact CN]; cbn; lia).
    exists h'. split.
    + rewrite <- E. unfold restat.
      pose proof (restat_loop_describes (h_counts h) F0) as (DT' & DX' & DN').
      assert (RE : restat_loop (h_counts (reset_min (reset_max h ORIGINAL_MAX) ORIGINAL_MIN)) 0 restat_new = rs).
      { change (h_counts (reset_min (reset_max h ORIGINAL_MAX) ORIGINAL_MIN)) with (h_counts h).
        change (h_counts h) with cs in *.
        destruct (restat_loop cs 0 restat_new) as [mx mn tt]. destruct rs as [mx2 mn2 tt2]. cbn [rs_max rs_min rs_total] in *.
        subst mx2. f_equal; [| |congruence].
        - destruct mx as [k'|].
          + destruct DX' as (K' & NZ' & ZZ'). f_equal. destruct (Z.lt_trichotomy k k') as [X|[X|X]]; auto.
            * exfalso. apply NZ', ZZ. auto.
            * exfalso. apply NZ, ZZ'. auto.
          + exfalso. apply NZ, DX'. lia.
        - destruct mn as [k'|], mn2 as [k2|]; auto.
          + destruct DN as (A1 & A2 & A3). destruct DN' as (B1 & B2 & B3). f_equal.
            destruct (Z.lt_trichotomy k' k2) as [X|[X|X]]; auto.
            * exfalso. apply B2, A3. lia.
            * exfalso. apply A2, B3. lia.
          + exfalso. destruct DN' as (B1 & B2 & B3). apply B2, DN. lia.
          + exfalso. destruct DN as (B1 & B2 & B3). apply B2, DN'. lia. }
      rewrite RE. unfold restat_update. rewrite EX.
      pose proof (um_range h C) as UR. pose proof (um_nonneg h C) as U0. pose proof (m_nonneg h C) as M0.
      pose proof (len_le_top h C SZ) as LT. change (h_counts h) with cs in LT.
      set (h1 := reset_min (reset_max h ORIGINAL_MAX) ORIGINAL_MIN).
      assert (E1 : h1 = set_min (set_max h (2 ^ h_um h - 1)) u64_max).
      { unfold h1, reset_min, reset_max, ORIGINAL_MAX, ORIGINAL_MIN. rewrite (c_umm h C), Z.lor_0_l. reflexivity. }
      assert (C1 : cfg_ok h1) by (rewrite E1; destruct C; constructor; hsimp; auto).
      assert (VU : u64 (bval h k)) by (apply bval_u64; auto).
      rewrite (value_for_ok h C) by lia. rewrite (value_for_ok h1 C1) by (change (h_um h1) with (h_um h); change (h_half_mag h1) with (h_half_mag h); lia).
      cbn [bind]. change (val (h_um h1) (h_half_mag h1) k) with (bval h k). fold (bval h k).
      rewrite !highest_equivalent_ok by auto. cbn [bind].
      change (higheq h1 (bval h k)) with (higheq h (bval h k)).
      pose proof (higheq_u64 h C _ VU) as HU.
      rewrite !update_max_ok by (auto; apply HU). change (h_um h1) with (h_um h).
      pose proof (pow2_pos (h_um h) U0) as P2.
      set (mx := higheq h (bval h k) / 2 ^ h_um h * 2 ^ h_um h + (2 ^ h_um h - 1)).
      assert (DN0 : 0 <= higheq h (bval h k) / 2 ^ h_um h) by (apply Z.div_pos; [apply HU|lia]).
      assert (MG : 2 ^ h_um h - 1 <= mx) by (unfold mx; nia).
      replace (Z.max (h_max h) mx) with mx by (change (h_max h) with 0; lia).
      replace (Z.max (h_max h1) mx) with mx by (rewrite E1; hsimp; lia).
      replace (set_max h1 mx) with (set_max h mx) by (rewrite E1; reflexivity). reflexivity.
    + destruct (restated_exact h h' ltac:(constructor; auto) RS W') as [XA XN]. destruct RS as [RC [S1 S2 S3 S4 S5 S6] RH RT RX RN].
      constructor; auto.
      intros A. exfalso. apply NZ, A. lia.
  - assert (EM : rs_min rs = None).
    { destruct (rs_min rs) as [k|]; auto. destruct DN as (K & NZ & _). exfalso. apply NZ, DX. lia. }
    unfold restat_update. rewrite EX, EM. cbn [bind]. eexists. split; [reflexivity|].
    assert (CE : cs = h_counts (fresh T lo hi sf)).
    { apply list_ext; auto. intros i Hi. rewrite fresh_zero, DX by auto. reflexivity. }
    assert (ZS : zsum cs = 0) by (apply zsum_0_iff; auto; eapply Forall_impl; [|exact F]; cbn; lia).
    assert (HE : set_total h (rs_total rs) = fresh T lo hi sf).
    { unfold h. rewrite DT, ZS, CE. change (Z.min u64_max 0) with 0. reflexivity. }
    rewrite HE. destruct (fresh_exact T lo hi sf L Hh S CC) as [XT XX XN]. constructor; auto.
    rewrite ZS. reflexivity.
Qed.

(** ** Reading back what was written *)
Lemma run_toks_app a : forall b d rs h,
  run_toks (a ++ b) d rs h =
  (r <- run_toks a d rs h ;; match r with RErr e => Ret (RErr e) | ROk (d', rs', h') => run_toks b d' rs' h' end).
Proof.
  induction a as [|t a IH]; intros b d rs h; cbn [app run_toks]; [reflexivity|].
  destruct (on_decoded_num d t rs h) as [[[[d' rs'] h']|e]|]; cbn [bind]; auto.
Qed.

Lemma run_flush h0 zc d rs h : dinv h0 d rs h -> 0 <= zc -> d + zc <= i64_max ->
  run_toks (flush zc) d rs h = Ret (ROk (d + zc, rs, h)).
Proof.
  intros [D EQ LEN CNT Z0 DE] ZC L. unfold flush. unfold i64_max in *.
  destruct (Z.eqb_spec zc 0) as [->|N0]; [cbn [run_toks]; do 4 f_equal; lia|].
  destruct (Z.eqb_spec zc 1) as [->|N1]; cbn [run_toks]; unfold SerModel.on_decoded_num.
  - change (0 <? 0) with false. cbn iota. pose proof (cmax_le (h_ctr h)). destruct (Z.ltb_spec (cmax (h_ctr h)) 0); [lia|].
    cbn zeta. destruct (Z.leb_spec (d + 1) usize_max) as [_|X]; [reflexivity|unfold usize_max, u64_max in X; lia].
  - destruct (Z.ltb_spec (- zc) 0); [|lia].
    replace (if oc then in_range i64_min i64_max (- - zc) else Ret (wrap_i64 (- - zc))) with (Ret (- - zc)).
    2:{ destruct oc; [rewrite in_range_ok by (unfold i64_min, i64_max; lia); reflexivity|]. unfold wrap_i64. rewrite Z.mod_small by lia. f_equal. lia. }
    cbn [bind].
    destruct (Z.ltb_spec (- - zc) 0); [lia|].
    destruct (Z.leb_spec (d + - - zc) usize_max) as [_|X]; [|unfold usize_max, u64_max in X; lia]. cbn [bind]. do 4 f_equal. lia.
Qed.

Lemma dinv_skip h0 d rs h d' : dinv h0 d rs h -> d <= d' -> dinv h0 d' rs h.
Proof. intros [D EQ LEN CNT Z0 DE] L. constructor; auto; [lia|]. intros; apply Z0; lia. Qed.

(** the result of reading [cs] at position [p] *)
Definition read_res (h0 : hist) (cs : list Z) (p : Z) (old : list Z) (m : res (result (Z * restat_state * hist) deser_error)) : Prop :=
  (Forall (fun c => c <= cmax (h_ctr h0)) cs /\
   exists rs' h', m = Ret (ROk (p + zlen cs, rs', h')) /\ dinv h0 (p + zlen cs) rs' h' /\
     forall i, 0 <= i -> zn (h_counts h') i = if (p <=? i) && (i <? p + zlen cs) then zn cs (i - p) else zn old i) \/
  (~ Forall (fun c => c <= cmax (h_ctr h0)) cs /\ m = Ret (RErr UnsuitableCounterType)).

Lemma run_toks_ok h0 cs : Forall (fun c => 0 <= c <= i64_max) cs -> forall zc d rs h,
  dinv h0 d rs h -> 0 <= zc -> d + zc + zlen cs <= zlen (h_counts h0) -> zlen (h_counts h0) <= i64_max ->
  read_res h0 cs (d + zc) (h_counts h) (run_toks (toks zc cs) d rs h).
Proof.
  induction 1 as [|c cs C F IH]; intros zc d rs h DI Z0 L LM; cbn [toks].
  - change (zlen (@nil Z)) with 0 in *. left. split; [constructor|]. exists rs, h. rewrite Z.add_0_r.
    split; [apply (run_flush h0); auto; lia|]. split; [eapply dinv_skip; eauto; lia|].
    intros i Hi. replace ((d + zc <=? i) && (i <? d + zc)) with false by lia. reflexivity.
  - rewrite zlen_cons in L. pose proof (zlen_nonneg cs) as C0. pose proof (di_d _ _ _ _ DI) as D0.
    destruct (Z.eqb_spec c 0) as [->|NZ].
    + destruct (IH (zc + 1) d rs h DI ltac:(lia) ltac:(lia) LM) as [(A & rs' & h' & E & DI' & Q)|(A & E)].
      * left. split; [constructor; auto; pose proof (cmax_le (h_ctr h0)); lia|]. exists rs', h'. rewrite zlen_cons.
        replace (d + zc + (zlen cs + 1)) with (d + (zc + 1) + zlen cs) by lia. split; [auto|]. split; [auto|].
        intros i Hi. rewrite Q by auto.
        destruct (Z.eq_dec i (d + zc)) as [->|].
        -- replace ((d + (zc + 1) <=? d + zc) && (d + zc <? d + (zc + 1) + zlen cs)) with false by lia.
           replace ((d + zc <=? d + zc) && (d + zc <? d + (zc + 1) + zlen cs)) with true by lia.
           rewrite Z.sub_diag, zn_cons_0. apply (di_zero _ _ _ _ DI). lia.
        -- destruct (Z_le_gt_dec (d + zc) i).
           ++ destruct (Z_lt_le_dec i (d + (zc + 1) + zlen cs)).
              ** replace ((d + (zc + 1) <=? i) && (i <? d + (zc + 1) + zlen cs)) with true by lia.
                 replace ((d + zc <=? i) && (i <? d + (zc + 1) + zlen cs)) with true by lia.
                 rewrite zn_cons_S by lia. f_equal. lia.
              ** replace ((d + (zc + 1) <=? i) && (i <? d + (zc + 1) + zlen cs)) with false by lia.
                 replace ((d + zc <=? i) && (i <? d + (zc + 1) + zlen cs)) with false by lia. reflexivity.
           ++ replace ((d + (zc + 1) <=? i) && (i <? d + (zc + 1) + zlen cs)) with false by lia.
              replace ((d + zc <=? i) && (i <? d + (zc + 1) + zlen cs)) with false by lia. reflexivity.
      * right. split; auto. intros X. apply A. inversion X; auto.
    + rewrite run_toks_app. rewrite (run_flush h0) by (auto; lia). cbn [bind run_toks].
      unfold SerModel.on_decoded_num. destruct (Z.ltb_spec c 0); [lia|].
      assert (HC : h_ctr h = h_ctr h0) by (rewrite (di_eq _ _ _ _ DI); reflexivity). rewrite HC.
      destruct (Z.ltb_spec (cmax (h_ctr h0)) c) as [BIG|FIT].
      { right. split; [intros X; inversion X; lia|]. reflexivity. }
      pose proof (di_len _ _ _ _ DI) as LEN.
      destruct (Z.ltb_spec 0 c); [|lia]. destruct (Z.ltb_spec (d + zc) (zlen (h_counts h))); [|lia]. cbn zeta.
      destruct (Z.leb_spec (d + zc + 1) usize_max) as [_|X]; [|unfold usize_max, u64_max, i64_max in *; lia]. cbn [bind].
      set (h1 := set_counts h (vset (h_counts h) (d + zc) c)). set (rs1 := on_nonzero_count rs (d + zc) c).
      assert (DI1 : dinv h0 (d + zc + 1) rs1 h1).
      { pose proof (dinv_skip _ _ _ _ (d + zc) DI ltac:(lia)) as DS.
        destruct (dinv_step h0 (d + zc) rs h c DS ltac:(unfold tok_ok, i64_min; lia)) as [(_ & X & _)|(r & R & RI)]; [unfold i64_min in X; lia|].
        unfold SerModel.on_decoded_num in R. destruct (Z.ltb_spec c 0); [lia|]. rewrite HC in R.
        destruct (Z.ltb_spec (cmax (h_ctr h0)) c); [lia|]. destruct (Z.ltb_spec 0 c); [|lia].
        destruct (Z.ltb_spec (d + zc) (zlen (h_counts h))); [|lia]. cbn zeta in R.
        destruct (Z.leb_spec (d + zc + 1) usize_max) as [_|X]; [|unfold usize_max, u64_max, i64_max in *; lia].
        injection R as <-. exact RI. }
      destruct (IH 0 (d + zc + 1) rs1 h1 DI1 ltac:(lia) ltac:(lia) LM) as [(A & rs' & h' & E & DI' & Q)|(A & E)].
      * left. split; [constructor; auto|]. exists rs', h'. rewrite zlen_cons.
        replace (d + zc + (zlen cs + 1)) with (d + zc + 1 + 0 + zlen cs) by lia. split; [auto|]. split; [auto|].
        intros i Hi. rewrite Q by auto. unfold h1; hsimp. rewrite zn_vset by lia.
        destruct (Z.eqb_spec (d + zc) i) as [<-|].
        -- replace ((d + zc + 1 + 0 <=? d + zc) && (d + zc <? d + zc + 1 + 0 + zlen cs)) with false by lia.
           replace ((d + zc <=? d + zc) && (d + zc <? d + zc + 1 + 0 + zlen cs)) with true by lia.
           rewrite Z.sub_diag, zn_cons_0. reflexivity.
        -- destruct (Z_le_gt_dec (d + zc) i).
           ++ destruct (Z_lt_le_dec i (d + zc + 1 + 0 + zlen cs)).
              ** replace ((d + zc + 1 + 0 <=? i) && (i <? d + zc + 1 + 0 + zlen cs)) with true by lia.
                 replace ((d + zc <=? i) && (i <? d + zc + 1 + 0 + zlen cs)) with true by lia.
                 rewrite zn_cons_S by lia. f_equal. lia.
              ** replace ((d + zc + 1 + 0 <=? i) && (i <? d + zc + 1 + 0 + zlen cs)) with false by lia.
                 replace ((d + zc <=? i) && (i <? d + zc + 1 + 0 + zlen cs)) with false by lia. reflexivity.
           ++ replace ((d + zc + 1 + 0 <=? i) && (i <? d + zc + 1 + 0 + zlen cs)) with false by lia.
              replace ((d + zc <=? i) && (i <? d + zc + 1 + 0 + zlen cs)) with false by lia. reflexivity.
      * right. split; auto. intros X. apply A. inversion X; auto.
Qed.

Lemma dinv_fresh T lo hi sf : u64 lo -> u64 hi -> 0 <= sf <= u8_max -> creation_check lo hi sf = None ->
  dinv (fresh T lo hi sf) 0 restat_new (fresh T lo hi sf).
Proof.
  intros L Hh S CC. pose proof (fresh_wf T lo hi sf L Hh S CC) as W. constructor; auto; try lia.
  - apply (w_cnt _ W).
  - apply fresh_zero.
  - split; [|split].
    + cbn [rs_total restat_new]. replace (zsum (h_counts (fresh T lo hi sf))) with 0; [reflexivity|]. symmetry.
      apply zsum_0_iff; [apply wf_nonneg; auto|apply fresh_zero].
    + cbn [rs_max restat_new]. apply fresh_zero.
    + cbn [rs_min restat_new]. intros; apply fresh_zero; lia.
Qed.

(** the payload of a serialized histogram, read into a fresh one *)
Definition reread (T : counter) (h : hist) (m : res (result hist deser_error)) : Prop :=
  (Forall (fun c => c <= cmax T) (h_counts h) /\
   exists h', m = Ret (ROk h') /\ decoded T (h_low h) (h_high h) (h_sigfig h) (h_counts h) h') \/
  (~ Forall (fun c => c <= cmax T) (h_counts h) /\ m = Ret (RErr UnsuitableCounterType)).

Lemma self_params h : cfg_ok h -> u64 (h_low h) /\ u64 (h_high h) /\ 0 <= h_sigfig h <= u8_max /\
  creation_check (h_low h) (h_high h) (h_sigfig h) = None.
Proof.
  intros C. pose proof (c_low h C). pose proof (c_high h C). pose proof (c_sf h C).
  split; [unfold u64; lia|]. split; [apply high_u64; auto|]. split; [unfold u8_max; lia|]. apply accepted_self; auto.
Qed.

Lemma payload_ok h : wf h -> Forall (fun c => c <= i64_max) (h_counts h) ->
  Forall byte (payload h) /\ Forall tok_ok (toks 0 (coded h)) /\ Forall (fun c => 0 <= c <= i64_max) (coded h).
Proof.
  intros W F. pose proof (coded_facts h W) as (B & ZC & CB & ZN & FI). pose proof (payload_small h W) as (PS & LS).
  assert (FC : Forall (fun c => 0 <= c <= i64_max) (coded h)).
  { apply FI in F. apply Forall_forall. intros c I. rewrite Forall_forall in CB, F. specialize (CB c I). specialize (F c I). cbn in *. lia. }
  assert (TK : Forall tok_ok (toks 0 (coded h))) by (apply toks_ok; auto; unfold i64_max; lia).
  split; auto. apply code_bytes; auto.
Qed.

Lemma reread_ok T h : wf h -> Forall (fun c => c <= i64_max) (h_counts h) ->
  reread T h (decode_payload (payload h) (fresh T (h_low h) (h_high h) (h_sigfig h))).
Proof.
  intros W F. pose proof (w_cfg h W) as C. pose proof (w_size h W) as S.
  pose proof (coded_facts h W) as (B & ZC & CB & ZN & FI). pose proof (payload_small h W) as (PS & LS).
  destruct (payload_ok h W F) as (PB & TK & FC). destruct (self_params h C) as (UL & UH & US & CC).
  rewrite decode_payload_eq by (auto; unfold usize_max, u64_max; lia).
  unfold payload. rewrite slow_code by auto.
  set (h0 := fresh T (h_low h) (h_high h) (h_sigfig h)).
  assert (DI : dinv h0 0 restat_new h0) by (apply dinv_fresh; auto).
  assert (L0 : zlen (h_counts h0) = zlen (h_counts h)) by (apply fresh_self_len; auto).
  destruct (run_toks_ok h0 (coded h) FC 0 0 restat_new h0 DI ltac:(lia) ltac:(lia) ltac:(unfold i64_max; lia))
    as [(A & rs' & h' & E & DI' & Q)|(A & E)]; rewrite E; cbn [bind].
  - left. assert (CE : h_counts h' = h_counts h).
    { apply list_ext; [rewrite (di_len _ _ _ _ DI'); auto|]. intros i Hi. rewrite Q by auto. rewrite Z.add_0_l.
      rewrite <- ZN by auto. destruct (Z.leb_spec 0 i); [|lia]. cbn [andb].
      destruct (Z.ltb_spec i (0 + zlen (coded h))); [f_equal; lia|].
      rewrite (zn_out (coded h)) by lia. apply fresh_zero; auto. }
    assert (FT : Forall (fun c => 0 <= c <= cmax T) (h_counts h)).
    { rewrite <- CE. apply (di_cnt _ _ _ _ DI'). }
    split; [eapply Forall_impl; [|exact FT]; cbn; lia|].
    destruct (decoded_ok T (h_low h) (h_high h) (h_sigfig h) (h_counts h) rs' UL UH US CC) as (h3 & E3 & D3); auto.
    + rewrite <- CE. apply (di_desc _ _ _ _ DI').
    + exists h3. split; auto. rewrite (di_eq _ _ _ _ DI'), CE. fold h0 in E3. rewrite E3. reflexivity.
  - right. split; [|reflexivity]. intros X. apply A. apply Forall_firstn. auto.
Qed.

(** the whole image *)
Definition reread_rest (T : counter) (h : hist) (rest : list Z) (m : res (result (hist * list Z) deser_error)) : Prop :=
  (Forall (fun c => c <= cmax T) (h_counts h) /\
   exists h', m = Ret (ROk (h', rest)) /\ decoded T (h_low h) (h_high h) (h_sigfig h) (h_counts h) h') \/
  (~ Forall (fun c => c <= cmax T) (h_counts h) /\ m = Ret (RErr UnsuitableCounterType)).

Lemma payload_slice_len buf n : 0 <= n ->
  zlen (firstn (Z.to_nat n) (if zlen buf <? n then vresize buf n 0 else buf)) = n.
Proof.
  intros N. destruct (Z.ltb_spec (zlen buf) n).
  - apply zlen_firstn. rewrite zlen_vresize by auto. lia.
  - apply zlen_firstn. lia.
Qed.

Lemma deser_v2_image buf T h rest : wf h -> Forall (fun c => c <= i64_max) (h_counts h) ->
  exists body, image h ++ rest = be_write 4 V2_COOKIE ++ body /\ reread_rest T h rest (deser_v2 buf T body).
Proof.
  intros W F. pose proof (w_cfg h W) as C. pose proof (payload_small h W) as (PS & LS).
  destruct (self_params h C) as (UL & UH & US & CC). pose proof (c_sf h C) as SF.
  eexists. split; [unfold image; rewrite <- !app_assoc; reflexivity|].
  unfold SerModel.deser_v2.
  rewrite (read_be_write 4) by (change (2 ^ (8 * Z.of_nat 4)) with 4294967296; lia).
  rewrite (read_be_write 4) by (change (2 ^ (8 * Z.of_nat 4)) with 4294967296; lia). cbn [negb Z.eqb].
  rewrite (read_be_write 4) by (change (2 ^ (8 * Z.of_nat 4)) with 4294967296; lia).
  destruct (Z.ltb_spec u8_max (h_sigfig h)); [lia|].
  rewrite (read_be_write 8) by (change (2 ^ (8 * Z.of_nat 8)) with (u64_max + 1); unfold u64 in *; lia).
  rewrite (read_be_write 8) by (change (2 ^ (8 * Z.of_nat 8)) with (u64_max + 1); unfold u64 in *; lia).
  rewrite (read_be_write 8) by (change (2 ^ (8 * Z.of_nat 8)) with (u64_max + 1); unfold u64_max; lia).
  rewrite Z.eqb_refl. cbn [negb].
  rewrite new_with_bounds_ok by auto. rewrite CC. cbn [bind].
  cbn zeta. rewrite payload_slice_len by lia. rewrite read_exact_app.
  destruct (reread_ok T h W F) as [(A & h' & E & D)|(A & E)]; rewrite E; cbn [bind].
  - left. split; auto. exists h'. auto.
  - right. auto.
Qed.

Lemma deserialize_image cd buf T h rest : wf h -> Forall (fun c => c <= i64_max) (h_counts h) ->
  reread_rest T h rest (deserialize oc cd buf T (image h ++ rest)).
Proof.
  intros W F. destruct (deser_v2_image buf T h rest W F) as (body & -> & R).
  unfold deserialize. rewrite (read_be_write 4) by (vm_compute; split; [discriminate|reflexivity]).
  rewrite Z.eqb_refl. exact R.
Qed.

(** ** Arbitrary input *)
Lemma decode_payload_total T lo hi sf p : Forall byte p -> zlen p <= usize_max ->
  u64 lo -> u64 hi -> 0 <= sf <= u8_max -> creation_check lo hi sf = None ->
  (oc = true /\ decode_payload p (fresh T lo hi sf) = Panic /\ has_i64_min p) \/
  (exists e, decode_payload p (fresh T lo hi sf) = Ret (RErr e)) \/
  (exists h cs, decode_payload p (fresh T lo hi sf) = Ret (ROk h) /\ decoded T lo hi sf cs h).
Proof.
  intros F PU UL UH US CC. rewrite !decode_payload_eq by auto.
  pose proof (dinv_fresh T lo hi sf UL UH US CC) as DI. set (h0 := fresh T lo hi sf) in *.
  destruct (slow_inv h0 (length p) p 0 restat_new h0 (le_n _) F DI) as [(OC & P & H)|(r & E & R)].
  - left. rewrite P. auto.
  - right. rewrite E. cbn [bind]. destruct r as [[[d rs] h]|e]; [|left; eauto]. right.
    destruct (decoded_ok T lo hi sf (h_counts h) rs UL UH US CC) as (h3 & E3 & D3).
    + apply (di_len _ _ _ _ R).
    + apply (di_cnt _ _ _ _ R).
    + apply (di_desc _ _ _ _ R).
    + exists h3, (h_counts h). split; auto. rewrite (di_eq _ _ _ _ R). fold h0 in E3. rewrite E3. reflexivity.
Qed.

(** the outcome of reading [rd] *)
Definition read_outcome (T : counter) (rd : list Z) (m : res (result (hist * list Z) deser_error)) : Prop :=
  m = Panic \/ (exists e, m = Ret (RErr e)) \/
  (exists h rest lo hi sf cs, m = Ret (ROk (h, rest)) /\ decoded T lo hi sf cs h /\
     u64 lo /\ u64 hi /\ 0 <= sf <= u8_max /\ creation_check lo hi sf = None /\ exists used, rd = used ++ rest).

Lemma read_outcome_err T rd e : read_outcome T rd (Ret (RErr e)).
Proof. right. left. eauto. Qed.

Lemma deser_v2_total buf T rd : Forall byte rd ->
  read_outcome T rd (deser_v2 buf T rd) /\
  (deser_v2 buf T rd = Panic -> oc = true /\ exists pre p post, rd = pre ++ p ++ post /\ has_i64_min p).
Proof.
  intros F. unfold SerModel.deser_v2.
  destruct (read_be 4 rd) as [[pl rd1]|] eqn:E1; [|split; [apply read_outcome_err|discriminate]].
  destruct (read_be_range 4 rd pl rd1 F ltac:(lia) E1) as (R1 & F1 & b1 & B1 & _).
  destruct (read_be 4 rd1) as [[no rd2]|] eqn:E2; [|split; [apply read_outcome_err|discriminate]].
  destruct (read_be_range 4 rd1 no rd2 F1 ltac:(lia) E2) as (R2 & F2 & b2 & B2 & _).
  destruct (no =? 0); cbn [negb]; [|split; [apply read_outcome_err|discriminate]].
  destruct (read_be 4 rd2) as [[sf rd3]|] eqn:E3; [|split; [apply read_outcome_err|discriminate]].
  destruct (read_be_range 4 rd2 sf rd3 F2 ltac:(lia) E3) as (R3 & F3 & b3 & B3 & _).
  destruct (Z.ltb_spec u8_max sf); [split; [apply read_outcome_err|discriminate]|].
  destruct (read_be 8 rd3) as [[lo rd4]|] eqn:E4; [|split; [apply read_outcome_err|discriminate]].
  destruct (read_be_range 8 rd3 lo rd4 F3 ltac:(lia) E4) as (R4 & F4 & b4 & B4 & _).
  destruct (read_be 8 rd4) as [[hi rd5]|] eqn:E5; [|split; [apply read_outcome_err|discriminate]].
  destruct (read_be_range 8 rd4 hi rd5 F4 ltac:(lia) E5) as (R5 & F5 & b5 & B5 & _).
  destruct (read_be 8 rd5) as [[dr rd6]|] eqn:E6; [|split; [apply read_outcome_err|discriminate]].
  destruct (read_be_range 8 rd5 dr rd6 F5 ltac:(lia) E6) as (R6 & F6 & b6 & B6 & _).
  destruct (dr =? 4607182418800017408); cbn [negb]; [|split; [apply read_outcome_err|discriminate]].
  change (2 ^ (8 * 8)) with (u64_max + 1) in *.
  assert (UL : u64 lo) by (unfold u64; lia). assert (UH : u64 hi) by (unfold u64; lia).
  assert (US : 0 <= sf <= u8_max) by lia.
  rewrite new_with_bounds_ok by auto.
  destruct (creation_check lo hi sf) eqn:CC; cbn [bind]; [split; [apply read_outcome_err|discriminate]|].
  cbn zeta. rewrite payload_slice_len by lia.
  destruct (read_exact pl rd6) as [[p rd7]|] eqn:E7; [|split; [apply read_outcome_err|discriminate]].
  destruct (read_exact_some pl rd6 p rd7 ltac:(lia) E7) as (B7 & LP).
  assert (FP : Forall byte p) by (rewrite B7 in F6; apply Forall_app in F6; tauto).
  change (2 ^ (8 * 4)) with 4294967296 in R1.
  destruct (decode_payload_total T lo hi sf p FP ltac:(unfold usize_max, u64_max; lia) UL UH US CC)
    as [(OC & P & H7)|[(e & P)|(h & cs & P & D)]]; rewrite P; cbn [bind].
  - split; [left; reflexivity|]. intros _. split; auto. exists (b1 ++ b2 ++ b3 ++ b4 ++ b5 ++ b6), p, rd7. split; auto.
    rewrite B1, B2, B3, B4, B5, B6, B7. rewrite <- !app_assoc. reflexivity.
  - split; [apply read_outcome_err|discriminate].
  - split; [|discriminate]. right. right. exists h, rd7, lo, hi, sf, cs. repeat (split; [solve [auto]|]).
    exists (b1 ++ b2 ++ b3 ++ b4 ++ b5 ++ b6 ++ p). rewrite B1, B2, B3, B4, B5, B6, B7. rewrite <- !app_assoc. reflexivity.
Qed.

End CHECKS.
