(** * Proofs of the properties about serialization (C32-C40, C54, C55) *)
(*PROPS-IMPORTS Machine Log2Model HistModel Spec Reach Witness Cases CasesSer SerModel SerSpec *)
From Verif Require Import Machine Log2Model HistModel Spec Reach Bins ListZ Log2Facts Cfg Wf Ops AddFacts SubFacts Exact MoreFacts Witness HeldFacts PfRecord
  SerModel SerSpec SerFacts SerCode SerDecode SerRest.
From Coq Require Import ZifyBool ZifyNat.

Lemma held_le h K : wf h -> 0 <= K -> ((forall v n, In (v, n) (held h) -> n <= K) <-> Forall (fun c => c <= K) (h_counts h)).
Proof.
  intros W K0. split; intros A.
  - apply Forall_zn. intros i Hi. destruct (Z.eq_dec (zn (h_counts h) i) 0) as [->|NZ]; auto.
    apply (A (bval h i)). rewrite held_contents by auto. apply contents_mem; auto; lia.
  - intros v n I. apply held_in in I; auto. destruct I as (V & E & -> & NZ).
    destruct (Z_lt_le_dec (bin h v) (zlen (h_counts h))).
    + apply (zn_Forall (fun c => c <= K)); auto. pose proof (bin_nonneg h v (w_cfg h W) V). lia.
    + rewrite zn_out in NZ by lia. lia.
Qed.

Lemma fits_iff h : wf h -> (counts_fit_i64 h <-> Forall (fun c => c <= i64_max) (h_counts h)).
Proof. intros W. apply held_le; auto. unfold i64_max; lia. Qed.

Lemma not_fits_iff h K : wf h -> 0 <= K -> (~ Forall (fun c => c <= K) (h_counts h) <-> exists v n, In (v, n) (held h) /\ K < n).
Proof.
  intros W K0. rewrite <- held_le by auto. split.
  - intros N. destruct (existsb (fun p => K <? snd p) (held h)) eqn:E.
    + apply existsb_exists in E. destruct E as ([v n] & I & L). cbn [snd] in L. exists v, n. split; auto. lia.
    + exfalso. apply N. intros v n I. destruct (Z_le_gt_dec n K); auto.
      assert (X : existsb (fun p => K <? snd p) (held h) = true) by (apply existsb_exists; exists (v, n); split; auto; cbn [snd]; lia). congruence.
  - intros (v & n & I & L) A. specialize (A v n I). lia.
Qed.

(** reading an image *)
Lemma image_read oc cd buf T h rest : wf h -> 
  deserialize oc cd buf T (image h ++ rest) =
  (r <- decode_payload oc (payload h) (fresh T (h_low h) (h_high h) (h_sigfig h)) ;;
   Ret (match r with RErr e => RErr e | ROk h' => ROk (h', rest) end)).
Proof.
  intros W. pose proof (w_cfg h W) as C. pose proof (payload_small h W) as (PS & LS).
  destruct (self_params h C) as (UL & UH & US & CC).
  rewrite image_header. rewrite <- !app_assoc. unfold deserialize. rewrite (read_be_write 4) by apply cookie_small. rewrite Z.eqb_refl.
  apply deser_v2_header; auto; lia.
Qed.

Definition no_codec : codec := mk_codec (fun l => l) (fun l => l) (fun l => zlen l).
Lemma no_codec_ok : codec_ok no_codec.
Proof. intros bs B. cbn. pose proof (zlen_nonneg bs). split; auto. lia. Qed.

Lemma image_back oc cd buf T h rest : wf h -> Forall (fun c => c <= i64_max) (h_counts h) ->
  (Forall (fun c => c <= cmax T) (h_counts h) ->
   exists h', deserialize oc cd buf T (image h ++ rest) = Ret (ROk (h', rest)) /\ reachable h' /\
     decoded T (h_low h) (h_high h) (h_sigfig h) (h_counts h) h') /\
  (~ Forall (fun c => c <= cmax T) (h_counts h) ->
   deserialize oc cd buf T (image h ++ rest) = Ret (RErr UnsuitableCounterType)).
Proof.
  intros W F. pose proof (deserialize_image oc cd buf T h rest W F) as R.
  pose proof (image_read oc no_codec [] T h [] W) as I1. pose proof (image_read oc cd buf T h rest W) as I2.
  destruct R as [(A & h' & E & D)|(A & E)].
  - split; [|contradiction]. intros _. exists h'. split; auto. split; auto.
    rewrite E in I2. apply (reach_deserialize oc no_codec [] T (image h) h' []); [apply no_codec_ok|apply image_bytes; auto|].
    rewrite app_nil_r in I1. rewrite I1. destruct (decode_payload oc (payload h) _) as [[h2|e]|]; cbn [bind] in I2 |- *; congruence.
  - split; [contradiction|]. auto.
Qed.

Lemma ser_inv junk h bs : wf h -> v2_serialize junk h = Ret (ROk bs) -> bs = image h /\ Forall (fun c => c <= i64_max) (h_counts h).
Proof. intros W E. destruct (v2_serialize_ok junk h W) as [(F & E2)|(F & E2)]; rewrite E2 in E; [split; [congruence|auto]|discriminate]. Qed.

Lemma decoded_held T h h' : wf h -> decoded T (h_low h) (h_high h) (h_sigfig h) (h_counts h) h' -> held h' = held h.
Proof.
  intros W D. pose proof (w_cfg h W) as C. apply held_ext; auto; [apply (dc_wf _ _ _ _ _ _ D)| | |].
  - rewrite (dc_um _ _ _ _ _ _ D), (c_um h C). reflexivity.
  - rewrite (dc_m _ _ _ _ _ _ D), (c_m h C). reflexivity.
  - intros j Hj. rewrite (dc_counts _ _ _ _ _ _ D). reflexivity.
Qed.

(** C32: reading what was written gives the same samples and parameters, with the length and the extremes computed from the samples; what follows in the input is left unread *)
Lemma C32_round_trip_proof : forall checks cd buf junk h bs rest, reachable h -> v2_serialize junk h = Ret (ROk bs) ->
  exists h', deserialize checks cd buf (h_ctr h) (bs ++ rest) = Ret (ROk (h', rest)) /\ reachable h' /\ h_ctr h' = h_ctr h /\
    held h' = held h /\ h_low h' = h_low h /\ h_high h' = h_high h /\ h_sigfig h' = h_sigfig h /\
    distinct_values h' = distinct_values h /\ h_auto h' = false /\
    len h' = Z.min u64_max (weight (held h)) /\ max_agrees h' /\ min_agrees h'.
Proof.
  intros checks cd buf junk h bs rest. intros R E. pose proof (reachable_wf h R) as W. destruct (ser_inv junk h bs W E) as (-> & F).
  destruct (image_back checks cd buf (h_ctr h) h rest W F) as (A & _).
  destruct A as (h' & E' & R' & D); [eapply Forall_impl; [|apply (w_cnt h W)]; cbn; lia|].
  pose proof (dc_wf _ _ _ _ _ _ D) as W'. exists h'. split; [exact E'|]. split; [exact R'|].
  split; [apply D|]. split; [eapply decoded_held; eauto|]. split; [apply D|]. split; [apply D|]. split; [apply D|].
  split; [unfold distinct_values; rewrite (dc_counts _ _ _ _ _ _ D); reflexivity|]. split; [apply D|].
  split; [unfold len; rewrite (dc_total _ _ _ _ _ _ D), held_total by auto; reflexivity|].
  split; [apply max_agrees_iff; auto; apply D|apply min_agrees_iff; auto; apply D].
Qed.

(*EX
(** a U16 histogram with samples in three classes, followed by two more bytes *)
Example ex_C32 : match build U16 1 10000 2 false [(3, 7); (500, 2); (9999, 40000)] with
  | Some h => match v2_serialize (fun _ => 77) h with
      | Ret (ROk bs) => reachable h /\ match deserialize true plain [1; 2; 3] (h_ctr h) (bs ++ [5; 6]) with
          | Ret (ROk (h', rest)) => rest = [5; 6] /\ held h' = [(3, 7); (500, 2); (9984, 40000)] /\ len h' = 40009 /\ zlen bs = 50
          | _ => False end
      | _ => False end
  | None => False end.
Proof. ser_case. Qed.
EX*)

(** C32: if the histogram's own length and extremes agreed with its samples, the histogram read back reports the same *)
Lemma C32_statistics_proof : forall checks cd buf junk h bs rest h' rest', reachable h -> stats_agree h ->
  v2_serialize junk h = Ret (ROk bs) -> deserialize checks cd buf (h_ctr h) (bs ++ rest) = Ret (ROk (h', rest')) ->
  len h' = len h /\ same_max h h' /\ same_min_nz h h'.
Proof.
  intros checks cd buf junk h bs rest h' rest'. intros R SA E E'. pose proof (reachable_wf h R) as W. destruct (ser_inv junk h bs W E) as (-> & F).
  destruct (image_back checks cd buf (h_ctr h) h rest W F) as (A & _).
  destruct A as (h2 & E2 & R' & D); [eapply Forall_impl; [|apply (w_cnt h W)]; cbn; lia|].
  assert (h2 = h') by congruence. subst h2. pose proof (dc_wf _ _ _ _ _ _ D) as W'. pose proof (w_cfg h W) as C.
  apply stats_agree_iff in SA; auto. destruct SA as [XT XX XN].
  assert (TU : h_total h <= u64_max) by apply (w_total h W).
  destruct (same_stats h h' W W') as (_ & B1 & B2).
  - rewrite (dc_um _ _ _ _ _ _ D), (c_um h C). reflexivity.
  - rewrite (dc_m _ _ _ _ _ _ D), (c_m h C). reflexivity.
  - intros j Hj. rewrite (dc_counts _ _ _ _ _ _ D). reflexivity.
  - split; [|split; [apply B1|apply B2]; auto; apply D].
    unfold len. rewrite (dc_total _ _ _ _ _ _ D), <- XT. lia.
Qed.
(*EX
Example ex_C32_statistics : match build U16 4 10000 2 false [(3, 7); (500, 2)] with
  | Some h => match v2_serialize (fun _ => 77) h with
      | Ret (ROk bs) => reachable h /\ stats_agree h /\ match deserialize true plain [] (h_ctr h) (bs ++ [1]) with
          | Ret (ROk (h', rest)) => rest = [1] /\ len h = 9 /\ len h' = 9 /\ max h = Ret 503 /\ max h' = Ret 503 /\ min_nz h' = min_nz h
          | _ => False end
      | _ => False end
  | None => False end.
Proof. ser_case. Qed.
EX*)

(** C32: and the two compare equal, unless the maximum is in the class of 0 or in that of [u64::MAX] *)
Lemma C32_equal_proof : forall checks cd buf junk h bs rest h' rest' mx, reachable h -> stats_agree h ->
  v2_serialize junk h = Ret (ROk bs) -> deserialize checks cd buf (h_ctr h) (bs ++ rest) = Ret (ROk (h', rest')) ->
  max h = Ret mx -> equivalent h mx 0 = Ret false -> equivalent h mx u64_max = Ret false ->
  hist_eq h h' = Ret true /\ hist_eq h' h = Ret true.
Proof.
  intros checks cd buf junk h bs rest h' rest' mx. intros R SA E E' EM N0 NT. pose proof (C32_statistics_proof checks cd buf junk h bs rest h' rest' R SA E E') as (SL & SX & SN).
  pose proof (reachable_wf h R) as W. destruct (ser_inv junk h bs W E) as (-> & F).
  destruct (image_back checks cd buf (h_ctr h) h rest W F) as (A & _).
  destruct A as (h2 & E2 & R' & D); [eapply Forall_impl; [|apply (w_cnt h W)]; cbn; lia|].
  assert (h2 = h') by congruence. subst h2. pose proof (dc_wf _ _ _ _ _ _ D) as W'. pose proof (w_cfg h W) as C.
  pose proof SA as SA2. apply stats_agree_iff in SA2; auto. destruct SA2 as [XT XX XN].
  destruct SA as (_ & MA & NA).
  assert (EX : maxp h = maxp h').
  { destruct (SX (maxp h) (maxp h')) as (_ & Q); try apply max_ok; auto.
    assert (mx = maxp h) by (rewrite max_ok in EM by auto; congruence). subst mx. auto. }
  assert (EN : minp h = minp h').
  { destruct (SN (minp h) (minp h')) as (_ & Q); try apply min_nz_ok; auto.
    apply Q. destruct (MA mx EM) as (M1 & [(HE & X)|(v & n & I & EV)]); [congruence|].
    pose proof (held_one h v n W I) as (VU & _).
    assert (MU : u64 mx) by (rewrite max_ok in EM by auto; injection EM as <-; apply maxp_u64; auto).
    pose proof (minp_u64 h W) as NU.
    rewrite equivalent_bin in EV, N0, NT by (auto using u64_0, u64_top). rewrite equivalent_bin by auto using u64_top.
    injection EV as EV. injection N0 as N0. injection NT as NT.
    destruct (NA (minp h) (min_nz_ok h W)) as (Q1 & _).
    specialize (Q1 v n I). rewrite !equivalent_bin in Q1 by auto using u64_0.
    assert (V0 : (bin h v =? bin h 0) = false) by lia. rewrite V0 in Q1. specialize (Q1 eq_refl).
    f_equal. destruct (Z.eqb_spec (bin h (minp h)) (bin h u64_max)) as [X|]; auto.
    destruct Q1 as [Q1|Q1].
    - pose proof (bin_mono h (minp h) v C ltac:(unfold u64 in *; lia)).
      pose proof (bin_mono h v u64_max C ltac:(unfold u64 in *; lia)). lia.
    - injection Q1 as Q1. lia. }
  assert (LE : forall i, zn (h_counts h) i = zn (h_counts h') i) by (intros; rewrite (dc_counts _ _ _ _ _ _ D); reflexivity).
  assert (ZE : zlen (h_counts h) = zlen (h_counts h')) by (rewrite (dc_counts _ _ _ _ _ _ D); reflexivity).
  assert (TE : h_total h = h_total h') by (symmetry; exact SL).
  pose proof (dc_low _ _ _ _ _ _ D). pose proof (dc_sf _ _ _ _ _ _ D).
  split.
  - destruct (hist_eq_ok h h' W W') as (r & -> & HR). f_equal. apply HR. repeat (split; [solve [auto|lia]|]). auto.
  - destruct (hist_eq_ok h' h W' W) as (r & -> & HR). f_equal. apply HR. repeat (split; [solve [auto|lia]|]). auto.
Qed.

(*EX
Example ex_C32_equal : match build U64 1 10000 2 false [(3, 7); (500, 2)] with
  | Some h => match v2_serialize (fun _ => 0) h with
      | Ret (ROk bs) => reachable h /\ stats_agree h /\ match deserialize false plain [] (h_ctr h) (bs ++ [1]) with
          | Ret (ROk (h', rest)) => hist_eq h h' = Ret true /\ len h' = 9 /\ max h = Ret 501 /\
              equivalent h 501 0 = Ret false /\ equivalent h 501 u64_max = Ret false
          | _ => False end
      | _ => False end
  | None => False end.
Proof. ser_case. Qed.
EX*)

(** C32: they also compare equal if the maximum is 0 and there are no samples or the unit is one *)
Lemma C32_equal_empty_proof : forall checks cd buf junk h bs rest h' rest', reachable h -> stats_agree h ->
  v2_serialize junk h = Ret (ROk bs) -> deserialize checks cd buf (h_ctr h) (bs ++ rest) = Ret (ROk (h', rest')) ->
  max h = Ret 0 -> held h = [] \/ equivalent h 0 1 = Ret false ->
  hist_eq h h' = Ret true /\ hist_eq h' h = Ret true.
Proof.
  intros checks cd buf junk h bs rest h' rest' R SA E E' EM OR.
  pose proof (C32_statistics_proof checks cd buf junk h bs rest h' rest' R SA E E') as (SL & SX & SN).
  pose proof (reachable_wf h R) as W. destruct (ser_inv junk h bs W E) as (-> & F).
  destruct (image_back checks cd buf (h_ctr h) h rest W F) as (A & _).
  destruct A as (h2 & E2 & R' & D); [eapply Forall_impl; [|apply (w_cnt h W)]; cbn; lia|].
  assert (h2 = h') by congruence. subst h2. pose proof (dc_wf _ _ _ _ _ _ D) as W'. pose proof (w_cfg h W) as C.
  assert (M0 : maxp h = 0) by (rewrite max_ok in EM by auto; congruence).
  assert (U1 : u64 1) by (unfold u64, u64_max; lia).
  assert (BE : forall v, bin h' v = bin h v).
  { intros v. unfold bin. rewrite (dc_um _ _ _ _ _ _ D), (dc_m _ _ _ _ _ _ D), (c_um h C), (c_m h C). reflexivity. }
  assert (EX : maxp h' = 0).
  { destruct OR as [HE|N1].
    - unfold maxp. rewrite (dc_empty _ _ _ _ _ _ D); [reflexivity|]. apply held_nil; auto.
    - destruct (SX (maxp h) (maxp h')) as (Q & _); try apply max_ok; auto.
      pose proof (maxp_u64 h' W') as MU. rewrite M0 in Q.
      rewrite equivalent_bin in Q, N1 by auto using u64_0. injection Q as Q. injection N1 as N1.
      destruct (Z.eq_dec (maxp h') 0); auto. exfalso.
      pose proof (bin_mono h 0 1 C ltac:(unfold u64, u64_max in *; lia)).
      pose proof (bin_mono h 1 (maxp h') C ltac:(unfold u64, u64_max in *; lia)). lia. }
  assert (HH : held h' = held h) by (eapply decoded_held; eauto).
  assert (Z0 : forall v n, In (v, n) (held h) -> equivalent h v 0 = Ret true).
  { intros v n I. destruct SA as (_ & MA & _). destruct (MA 0 EM) as (M1 & _). specialize (M1 v n I).
    pose proof (held_one h v n W I) as (VU & _). replace v with 0 by (unfold u64 in VU; lia).
    rewrite equivalent_bin, Z.eqb_refl by auto using u64_0. reflexivity. }
  assert (MN : forall x, reachable x -> held x = held h -> (forall v, bin x v = bin h v) -> min_agrees x -> minp x = u64_max).
  { intros x RX HX BX MX. pose proof (reachable_wf x RX) as WX. destruct (MX (minp x) (min_nz_ok x WX)) as (_ & [(_ & Q)|(v & n & I & Q)]); auto.
    exfalso. rewrite HX in I. specialize (Z0 v n I). pose proof (held_one h v n W I) as (VU & _). pose proof (minp_u64 x WX).
    rewrite equivalent_bin in Q, Z0 by auto using u64_0. injection Q as Q. injection Z0 as Z0.
    pose proof (h_min_bin_pos x WX) as BP. pose proof (bin_minp x WX) as BM. rewrite !BX in Q. rewrite BX in BP. rewrite !BX in BM. pose proof (bin_0 h C). lia. }
  assert (EN : minp h = minp h').
  { rewrite (MN h), (MN h'); auto; [apply min_agrees_iff; auto; apply D|apply SA]. }
  assert (LE : forall i, zn (h_counts h) i = zn (h_counts h') i) by (intros; rewrite (dc_counts _ _ _ _ _ _ D); reflexivity).
  assert (ZE : zlen (h_counts h) = zlen (h_counts h')) by (rewrite (dc_counts _ _ _ _ _ _ D); reflexivity).
  assert (TE : h_total h = h_total h') by (symmetry; exact SL).
  pose proof (dc_low _ _ _ _ _ _ D). pose proof (dc_sf _ _ _ _ _ _ D).
  split.
  - destruct (hist_eq_ok h h' W W') as (r & -> & HR). f_equal. apply HR. repeat (split; [solve [auto|lia]|]). auto.
  - destruct (hist_eq_ok h' h W' W) as (r & -> & HR). f_equal. apply HR. repeat (split; [solve [auto|lia]|]). auto.
Qed.

(*EX
Example ex_C32_equal_empty : match build U64 4 10000 2 false [], build U64 1 10000 2 false [(0, 3)] with
  | Some h, Some h2 => reachable h /\ stats_agree h /\ max h = Ret 0 /\ held h = [] /\ reachable h2 /\ stats_agree h2 /\ max h2 = Ret 0 /\
      equivalent h2 0 1 = Ret false /\
      match v2_serialize (fun _ => 0) h, v2_serialize (fun _ => 0) h2 with
      | Ret (ROk bs), Ret (ROk bs2) =>
          match deserialize false plain [] U64 bs, deserialize false plain [] U64 bs2 with
          | Ret (ROk (h', _)), Ret (ROk (h2', _)) => hist_eq h h' = Ret true /\ hist_eq h2 h2' = Ret true
          | _, _ => False end
      | _, _ => False end
  | _, _ => False end.
Proof. ser_case. Qed.
EX*)

(** C32: with a sample of [u64::MAX], the histogram read back is not equal to the original: its maximum is one less *)
Lemma C32_equal_top_refuted_proof : exists h bs h', reachable h /\
  v2_serialize (fun _ => 0) h = Ret (ROk bs) /\ deserialize false (mk_codec (fun l => l) (fun l => l) zlen) [] (h_ctr h) bs = Ret (ROk (h', [])) /\
  max h = Ret u64_max /\ max h' = Ret (u64_max - 1) /\ hist_eq h h' = Ret false.
Proof.
  assert (X : match build U8 1 u64_max 1 false [(u64_max, 1)] with
    | Some h => match v2_serialize (fun _ => 0) h with
        | Ret (ROk bs) => match deserialize false (mk_codec (fun l => l) (fun l => l) zlen) [] (h_ctr h) bs with
            | Ret (ROk (h', r)) => r = [] /\ max h = Ret u64_max /\ max h' = Ret (u64_max - 1) /\ hist_eq h h' = Ret false
            | _ => False end
        | _ => False end
    | None => False end) by (vm_compute; auto).
  destruct (build U8 1 u64_max 1 false [(u64_max, 1)]) as [h|] eqn:B; [|destruct X].
  destruct (v2_serialize (fun _ => 0) h) as [[bs|]|] eqn:E; try contradiction.
  destruct (deserialize false _ [] (h_ctr h) bs) as [[[h' r]|]|] eqn:E2; try contradiction.
  destruct X as (-> & X). exists h, bs, h'. split; [exact (build_reachable _ _ _ _ _ _ _ B)|auto].
Qed.

(** C32: with a unit of two or more and only zeros recorded, the histogram read back is not equal to the original either *)
Lemma C32_equal_zero_refuted_proof : exists h bs h', reachable h /\
  v2_serialize (fun _ => 0) h = Ret (ROk bs) /\ deserialize false (mk_codec (fun l => l) (fun l => l) zlen) [] (h_ctr h) bs = Ret (ROk (h', [])) /\
  held h = [(0, 1)] /\ max h = Ret 0 /\ max h' = Ret 3 /\ hist_eq h h' = Ret false.
Proof.
  assert (X : match build U8 4 1000 1 false [(0, 1)] with
    | Some h => match v2_serialize (fun _ => 0) h with
        | Ret (ROk bs) => match deserialize false (mk_codec (fun l => l) (fun l => l) zlen) [] (h_ctr h) bs with
            | Ret (ROk (h', r)) => r = [] /\ held h = [(0, 1)] /\ max h = Ret 0 /\ max h' = Ret 3 /\ hist_eq h h' = Ret false
            | _ => False end
        | _ => False end
    | None => False end) by (vm_compute; auto 10).
  destruct (build U8 4 1000 1 false [(0, 1)]) as [h|] eqn:B; [|destruct X].
  destruct (v2_serialize (fun _ => 0) h) as [[bs|]|] eqn:E; try contradiction.
  destruct (deserialize false _ [] (h_ctr h) bs) as [[[h' r]|]|] eqn:E2; try contradiction.
  destruct X as (-> & X). exists h, bs, h'. split; [exact (build_reachable _ _ _ _ _ _ _ B)|auto].
Qed.

(** C32: whether the histogram resizes automatically is not part of the format: the one read back never does *)
Lemma C32_auto_resize_refuted_proof : exists h bs h', reachable h /\
  v2_serialize (fun _ => 0) h = Ret (ROk bs) /\ deserialize false (mk_codec (fun l => l) (fun l => l) zlen) [] (h_ctr h) bs = Ret (ROk (h', [])) /\
  is_auto_resize h = true /\ is_auto_resize h' = false /\ hist_eq h h' = Ret true.
Proof.
  assert (X : match build U8 1 1000 1 true [(7, 1)] with
    | Some h => match v2_serialize (fun _ => 0) h with
        | Ret (ROk bs) => match deserialize false (mk_codec (fun l => l) (fun l => l) zlen) [] (h_ctr h) bs with
            | Ret (ROk (h', r)) => r = [] /\ is_auto_resize h = true /\ is_auto_resize h' = false /\ hist_eq h h' = Ret true
            | _ => False end
        | _ => False end
    | None => False end) by (vm_compute; auto 10).
  destruct (build U8 1 1000 1 true [(7, 1)]) as [h|] eqn:B; [|destruct X].
  destruct (v2_serialize (fun _ => 0) h) as [[bs|]|] eqn:E; try contradiction.
  destruct (deserialize false _ [] (h_ctr h) bs) as [[[h' r]|]|] eqn:E2; try contradiction.
  destruct X as (-> & X). exists h, bs, h'. split; [exact (build_reachable _ _ _ _ _ _ _ B)|auto].
Qed.

(** C33: serialization fails exactly if some count exceeds [i64::MAX] *)
Lemma C33_serializable_proof : forall junk h, reachable h ->
  (v2_serialize junk h = Ret (RErr CountNotSerializable) <-> exists v n, In (v, n) (held h) /\ i64_max < n) /\
  (counts_fit_i64 h -> exists bs, v2_serialize junk h = Ret (ROk bs) /\ bytes bs).
Proof.
  intros junk h. intros R. pose proof (reachable_wf h R) as W. assert (I0 : 0 <= i64_max) by (unfold i64_max; lia).
  rewrite <- (not_fits_iff h i64_max W I0). rewrite (fits_iff h W).
  destruct (v2_serialize_ok junk h W) as [(F & E)|(F & E)]; rewrite E.
  - split; [split; [discriminate|contradiction]|]. intros _. exists (image h). split; auto. apply image_bytes; auto.
  - split; [split; auto|]. contradiction.
Qed.

(*EX
Example ex_C33 : match build U64 1 10000 2 false [(3, i64_max); (500, 2)], build U64 1 10000 2 false [(3, i64_max); (3, 1)] with
  | Some h, Some h2 => held h = [(3, i64_max); (500, 2)] /\ (exists bs, v2_serialize (fun _ => 9) h = Ret (ROk bs)) /\
      held h2 = [(3, i64_max + 1)] /\ v2_serialize (fun _ => 9) h2 = Ret (RErr CountNotSerializable)
  | _, _ => False end.
Proof. vm_compute. repeat split; eauto. Qed.
EX*)

(** C34: every [u64] is written as its 1 to 9 byte encoding and read back by both readers *)
Lemma C34_varint_proof : forall x pre post rest, is_u64 x -> zlen (varint x) <= zlen post -> bytes rest ->
  1 <= zlen (varint x) <= 9 /\ bytes (varint x) /\
  varint_write x (pre ++ post) (zlen pre) = Ret (pre ++ varint x ++ skipn (length (varint x)) post, zlen (varint x)) /\
  varint_read (varint x ++ rest) = Some (x, rest) /\
  (9 <= zlen (varint x ++ rest) -> varint_read_slice (firstn 9 (varint x ++ rest)) = Ret (x, zlen (varint x))).
Proof.
  intros x pre post rest. intros X L B. pose proof (varint_len x) as VL.
  assert (VB : Forall byte (varint x)).
  { apply leb_bytes. change (2 ^ (7 * Z.of_nat 8 + 8)) with (u64_max + 1). unfold is_u64 in X. lia. }
  split; [unfold zlen; lia|]. split; [exact VB|]. split; [apply varint_write_ok; auto; unfold zlen in L; lia|].
  split; [apply varint_read_ok; exact X|]. intros N.
  destruct (varint_slice_ok (varint x ++ rest)) as (y & r & E & S); [apply Forall_app; split; auto|unfold zlen in N; lia|].
  rewrite varint_read_ok in E by exact X. assert (y = x) by congruence. assert (r = rest) by congruence. subst y r.
  rewrite S. f_equal. f_equal. rewrite zlen_app. lia.
Qed.

(*EX
Example ex_C34_varint : varint 300 = [172; 2] /\ varint u64_max = [255; 255; 255; 255; 255; 255; 255; 255; 255] /\
  is_u64 300 /\ zlen (varint 300) <= zlen [7; 7; 7] /\ bytes [5; 5; 5; 5; 5; 5; 5] /\
  varint_write 300 ([7] ++ [7; 7; 7]) (zlen [7]) = Ret ([7; 172; 2; 7], 2) /\ varint_read (varint 300 ++ [5; 5; 5; 5; 5; 5; 5]) = Some (300, [5; 5; 5; 5; 5; 5; 5]) /\
  9 <= zlen (varint 300 ++ [5; 5; 5; 5; 5; 5; 5]) /\ varint_read_slice [172; 2; 5; 5; 5; 5; 5; 5; 5] = Ret (300, 2).
Proof. ser_case. Qed.
EX*)

(** C34: the encoding is as short as seven bits a byte allow *)
Lemma C34_varint_length_proof : forall x k, is_u64 x -> (1 <= k <= 8)%nat -> (zlen (varint x) <= Z.of_nat k <-> x < 128 ^ Z.of_nat k).
Proof.
  intros x k. intros X K. unfold varint.
  assert (G : forall n k x, 0 <= x -> (1 <= k <= n)%nat -> (zlen (leb n x) <= Z.of_nat k <-> x < 128 ^ Z.of_nat k)).
  { clear. induction n as [|n IH]; intros k x X K; [lia|]. cbn [leb].
    assert (P : 0 < 128 ^ Z.of_nat (k - 1)) by (apply Z.pow_pos_nonneg; lia).
    replace (Z.of_nat k) with (1 + Z.of_nat (k - 1)) by lia. rewrite Z.pow_add_r by lia. change (128 ^ 1) with 128.
    destruct (Z.ltb_spec x 128); [change (zlen [x]) with 1; split; [nia|lia]|]. rewrite zlen_cons.
    destruct (Nat.eq_dec k 1) as [->|].
    - change (Z.of_nat (1 - 1)) with 0. pose proof (leb_len n (x / 128)). unfold zlen. change (128 ^ 0) with 1. lia.
    - specialize (IH (k - 1)%nat (x / 128) ltac:(apply Z.div_pos; lia) ltac:(lia)).
      pose proof (Z.div_mod x 128 ltac:(lia)). pose proof (Z.mod_pos_bound x 128 ltac:(lia)).
      set (q := 128 ^ Z.of_nat (k - 1)) in *. split; intros Q.
      + assert (x / 128 < q) by (apply IH; lia). lia.
      + assert (x / 128 < q) by nia. apply IH in H2. lia. }
  apply G; [apply X|lia].
Qed.
(*EX
Example ex_C34_varint_length : is_u64 16383 /\ zlen (varint 16383) = 2 /\ is_u64 16384 /\ zlen (varint 16384) = 3 /\ 128 ^ 2 = 16384.
Proof. ser_case. Qed.
EX*)

(** C34: on any nine or more bytes the two readers return the same number and consume the same bytes *)
Lemma C34_readers_agree_proof : forall bs, bytes bs -> 9 <= zlen bs ->
  exists x n, is_u64 x /\ 1 <= n <= 9 /\ varint_read bs = Some (x, skipn (Z.to_nat n) bs) /\
    varint_read_slice (firstn 9 bs) = Ret (x, n).
Proof.
  intros bs. intros B L. destruct (varint_slice_ok bs B ltac:(unfold zlen in L; lia)) as (x & r & E & S).
  destruct (varint_read_some bs x r B E) as (a & EA & LA & X).
  assert (ZA : zlen bs - zlen r = zlen a) by (rewrite EA, zlen_app; lia).
  exists x, (zlen a). split; [exact X|]. split; [unfold zlen; lia|]. rewrite <- ZA, S. split; auto. rewrite E. f_equal. f_equal.
  rewrite ZA, length_zlen, EA, skipn_app_at by reflexivity. reflexivity.
Qed.

(*EX
Example ex_C34_readers : bytes [128; 128; 128; 128; 128; 128; 128; 128; 128; 3] /\ 9 <= zlen [128; 128; 128; 128; 128; 128; 128; 128; 128; 3] /\
  varint_read [128; 128; 128; 128; 128; 128; 128; 128; 128; 3] = Some (2 ^ 63, [3]) /\
  varint_read_slice [128; 128; 128; 128; 128; 128; 128; 128; 128] = Ret (2 ^ 63, 9).
Proof. ser_case. Qed.
EX*)

(** C34: zig-zag is a bijection between [i64] and [u64] *)
Lemma C34_zig_zag_proof :
  (forall t, i64_min <= t <= i64_max -> zig_zag_encode t = zig_zag t /\ is_u64 (zig_zag_encode t) /\ zig_zag_decode (zig_zag_encode t) = t) /\
  (forall e, is_u64 e -> i64_min <= zig_zag_decode e <= i64_max /\ zig_zag_encode (zig_zag_decode e) = e).
Proof.
  split.
  - intros t T. split; [apply zz_encode; auto|]. split; [apply zz_encode_range; auto|apply zz_inv; auto].
  - intros e E. split; [apply zz_decode_range; exact E|apply zz_inv2; exact E].
Qed.

(*EX
Example ex_C34_zig_zag : map zig_zag_encode [0; -1; 1; -2; i64_max; i64_min] = [0; 1; 2; 3; u64_max - 1; u64_max] /\
  map zig_zag_decode [0; 1; 2; 3; u64_max - 1; u64_max] = [0; -1; 1; -2; i64_max; i64_min].
Proof. vm_compute. auto. Qed.
EX*)

(** C35: the serializer never panics, never reads or writes outside its arrays (both are panics in the model), and the length in the header is that of the payload, whatever the reserved buffer contained *)
Lemma C35_bounds_proof : forall junk h, reachable h -> exists r, v2_serialize junk h = Ret r /\
  forall bs, r = ROk bs ->
    be_value (firstn 4 (skipn 4 bs)) 0 = zlen bs - 40 /\ 41 <= zlen bs <= 40 + 9 * distinct_values h.
Proof.
  intros junk h. intros R. pose proof (reachable_wf h R) as W. pose proof (payload_small h W) as (PS & LS). pose proof (coded_facts h W) as (B & ZC & CB & ZN & FI).
  destruct (v2_serialize_ok junk h W) as [(F & E)|(F & E)]; rewrite E; eexists; (split; [reflexivity|]); intros bs EB; [|discriminate].
  injection EB as <-. rewrite image_len. split.
  - rewrite image_header. unfold header. rewrite <- !app_assoc. rewrite (skipn_app_at (be_write 4 V2_COOKIE)) by (rewrite be_write_len; reflexivity).
    rewrite (firstn_app_at (be_write 4 _)) by (rewrite be_write_len; reflexivity). rewrite be_value_write by lia.
    change (2 ^ (8 * Z.of_nat 4)) with 4294967296. rewrite Z.mod_small by lia. lia.
  - assert (1 <= zlen (payload h)); [|unfold distinct_values; lia].
    unfold payload. pose proof (code_len (toks 0 (coded h))) as CL.
    assert (TE : (1 <= length (toks 0 (coded h)))%nat); [|unfold zlen; lia].
    destruct (toks 0 (coded h)) as [|t ts] eqn:ET; [|cbn; lia]. exfalso.
    assert (X : expand (toks 0 (coded h)) = coded h) by (apply toks_expand; [eapply Forall_impl; [|exact CB]; cbn; lia|lia]).
    rewrite ET in X. cbn [expand] in X. rewrite <- X in ZC. change (zlen (@nil Z)) with 0 in ZC. lia.
Qed.

(*EX
Example ex_C35 : match build U64 1 10000 2 false [(3, i64_max); (500, 2)] with
  | Some h => match v2_serialize (fun i => i mod 7) h with
      | Ret (ROk bs) => zlen bs = 53 /\ firstn 4 (skipn 4 bs) = [0; 0; 0; 13] /\ v2_serialize (fun _ => 255) h = Ret (ROk bs)
      | _ => False end
  | _ => False end.
Proof. vm_compute. auto. Qed.
EX*)

(** C36: on any bytes, with any decompressor, the deserializer returns a histogram or an error; a histogram it returns is reachable, its length and extremes agree with its samples; it panics only if the build checks for overflow and the input encodes [i64::MIN] *)
Lemma C36_total_proof : forall checks cd buf T rd, codec_ok cd -> bytes rd ->
  (exists h rest, deserialize checks cd buf T rd = Ret (ROk (h, rest)) /\ reachable h /\ h_ctr h = T /\
     len h = Z.min u64_max (weight (held h)) /\ max_agrees h /\ min_agrees h /\ exists used, rd = used ++ rest) \/
  (exists e, deserialize checks cd buf T rd = Ret (RErr e)) \/
  (deserialize checks cd buf T rd = Panic /\ checks = true /\ holds_i64_min cd rd).
Proof.
  intros checks cd buf T rd. intros CD B. destruct (deserialize_total checks cd buf T rd CD B) as (A & P).
  destruct A as [A|[A|(h & rest & lo & hi & sf & cs & A & D & _ & _ & _ & _ & U)]]; auto.
  left. exists h, rest. split; auto. pose proof (dc_wf _ _ _ _ _ _ D) as W.
  split; [eapply reach_deserialize; eauto|]. split; [apply D|].
  split; [unfold len; rewrite (dc_total _ _ _ _ _ _ D), held_total, (dc_counts _ _ _ _ _ _ D) by auto; reflexivity|].
  split; [apply max_agrees_iff; auto; apply D|]. split; [apply min_agrees_iff; auto; apply D|exact U].
Qed.

(*EX
(** an image no serializer of this crate writes: a zero count as 0, then a run of one zero as -1, then 5 *)
Example ex_C36 : codec_ok plain /\ bytes (v2_format 1 1000 1 [0; -1; 5]) /\ bytes (v2_format 1 1000 1 [-10000; 5]) /\
  match deserialize true plain [] U8 (v2_format 1 1000 1 [0; -1; 5]) with
  | Ret (ROk (h, rest)) => held h = [(2, 5)] /\ len h = 5 /\ max h = Ret 2 /\ rest = []
  | _ => False end /\
  deserialize true plain [] U8 (v2_format 1 1000 1 [-10000; 5]) = Ret (RErr EncodedArrayTooLong).
Proof. ser_case. Qed.
EX*)

(** C36: without overflow checks it never panics *)
Lemma C36_release_total_proof : forall cd buf T rd, codec_ok cd -> bytes rd -> deserialize false cd buf T rd <> Panic.
Proof. intros cd buf T rd. intros CD B E. destruct (deserialize_total false cd buf T rd CD B) as (_ & P). destruct (P E) as (X & _). discriminate. Qed.
(*EX
Example ex_C36_release_total : codec_ok twice /\ bytes [28; 132; 147; 19; 0; 1; 2; 255] /\
  deserialize false twice [] U8 [28; 132; 147; 19; 0; 1; 2; 255] = Ret (RErr DeIoError).
Proof. ser_case. Qed.
EX*)

(** C36: with overflow checks, 49 bytes make it panic *)
Lemma C36_debug_panic_refuted_proof : exists rd, bytes rd /\ zlen rd = 49 /\
  forall cd buf T, deserialize true cd buf T rd = Panic.
Proof.
  exists (v2_format 1 2 0 [i64_min]). split; [vm_compute; repeat constructor; try discriminate|]. split; [reflexivity|].
  intros cd buf T.
  replace (v2_format 1 2 0 [i64_min]) with (be_write 4 V2_COOKIE ++ header 9 0 1 2 ++ code [i64_min] ++ []) by reflexivity.
  unfold deserialize. rewrite (read_be_write 4) by apply cookie_small. rewrite Z.eqb_refl.
  rewrite deser_v2_header; try reflexivity; try (unfold u64, u64_max, u8_max; lia).
Qed.

(** C37: every strict prefix of a serialized histogram gives an i/o error *)
Lemma C37_prefix_proof : forall checks cd buf T junk h bs k, reachable h -> v2_serialize junk h = Ret (ROk bs) -> (k < length bs)%nat ->
  deserialize checks cd buf T (firstn k bs) = Ret (RErr DeIoError).
Proof.
  intros checks cd buf T junk h bs k. intros R E K. pose proof (reachable_wf h R) as W. destruct (ser_inv junk h bs W E) as (-> & F). apply deserialize_prefix; auto.
Qed.

(*EX
Example ex_C37_prefix : match build U16 1 10000 2 false [(3, 7); (500, 2)] with
  | Some h => match v2_serialize (fun _ => 77) h with
      | Ret (ROk bs) => reachable h /\ length bs = 45%nat /\ (44 < length bs)%nat /\
          deserialize true plain [] U16 (firstn 44 bs) = Ret (RErr DeIoError)
      | _ => False end
  | None => False end.
Proof. ser_case. Qed.
EX*)

(** C37: input that does not start with one of the two cookies is rejected *)
Lemma C37_cookie_proof : forall checks cd buf T c rest, 0 <= c <= u32_max -> c <> 0x1c849313 -> c <> 0x1c849314 ->
  deserialize checks cd buf T (big_endian 4 c ++ rest) = Ret (RErr InvalidCookie).
Proof.
  intros checks cd buf T c rest. intros C N1 N2. rewrite big_endian_write by lia. unfold deserialize.
  rewrite (read_be_write 4) by (change (2 ^ (8 * Z.of_nat 4)) with 4294967296; unfold u32_max in C; lia).
  change V2_COOKIE with 0x1c849313. change V2_COMPRESSED_COOKIE with 0x1c849314.
  destruct (Z.eqb_spec c 0x1c849313); [contradiction|]. destruct (Z.eqb_spec c 0x1c849314); [contradiction|]. reflexivity.
Qed.
(*EX
(** the cookie of the first version of the format *)
Example ex_C37_cookie : 0 <= 0x1c849301 <= u32_max /\ 0x1c849301 <> 0x1c849313 /\ 0x1c849301 <> 0x1c849314 /\
  deserialize true plain [] U64 (big_endian 4 0x1c849301 ++ [0; 0; 0; 1]) = Ret (RErr InvalidCookie).
Proof. ser_case. Qed.
EX*)

(** C37: histograms written one after the other are read back one after the other *)
Lemma C37_concatenated_proof : forall checks cd T junk hs bss rest,
  Forall (fun h => reachable h /\ h_ctr h = T) hs ->
  Forall2 (fun h bs => v2_serialize junk h = Ret (ROk bs)) hs bss ->
  exists hs', reads checks cd T (concat bss ++ rest) hs' rest /\
    Forall2 (fun h h' => held h' = held h /\ h_low h' = h_low h /\ h_high h' = h_high h /\ h_sigfig h' = h_sigfig h) hs hs'.
Proof.
  intros checks cd T junk hs bss rest. intros F S. revert F. induction S as [|h bs hs bss E S IH]; intros F; cbn [concat app].
  - exists []. split; constructor.
  - inversion F as [|? ? (R & CT) F2]; subst. destruct (IH F2) as (hs' & RD & A).
    destruct (C32_round_trip_proof checks cd [] junk h bs (concat bss ++ rest) R E) as (h' & E' & _ & _ & Q1 & Q2 & Q3 & Q4 & _).
    exists (h' :: hs'). split; [|constructor; auto]. rewrite <- app_assoc. econstructor; eauto.
Qed.
(*EX
Example ex_C37_concatenated : match build U16 1 10000 2 false [(3, 7); (500, 2)], build U16 1 1000 1 false [(40, 9)] with
  | Some h1, Some h2 => reachable h1 /\ h_ctr h1 = U16 /\ reachable h2 /\ h_ctr h2 = U16 /\
      match v2_serialize (fun _ => 7) h1, v2_serialize (fun _ => 7) h2 with
      | Ret (ROk bs1), Ret (ROk bs2) => match deserialize true plain [] U16 (concat [bs1; bs2] ++ [1]) with
          | Ret (ROk (h1', rest)) => held h1' = [(3, 7); (500, 2)] /\ match deserialize true plain bs1 U16 rest with
              | Ret (ROk (h2', rest2)) => held h2' = [(40, 9)] /\ rest2 = [1]
              | _ => False end
          | _ => False end
      | _, _ => False end
  | _, _ => False end.
Proof. ser_case. Qed.
EX*)

(** C38: reading into another counter type fails exactly if some count does not fit, and otherwise gives the same samples *)
Lemma C38_narrowing_proof : forall checks cd buf T junk h bs rest, reachable h -> v2_serialize junk h = Ret (ROk bs) ->
  (deserialize checks cd buf T (bs ++ rest) = Ret (RErr UnsuitableCounterType) <-> exists v n, In (v, n) (held h) /\ cmax T < n) /\
  ((forall v n, In (v, n) (held h) -> n <= cmax T) ->
   exists h', deserialize checks cd buf T (bs ++ rest) = Ret (ROk (h', rest)) /\ h_ctr h' = T /\ held h' = held h).
Proof.
  intros checks cd buf T junk h bs rest. intros R E. pose proof (reachable_wf h R) as W. destruct (ser_inv junk h bs W E) as (-> & F).
  assert (K0 : 0 <= cmax T) by (destruct T; cbn; unfold u64_max, u32_max, u16_max, u8_max; lia).
  rewrite <- (not_fits_iff h (cmax T) W K0). rewrite (held_le h (cmax T) W K0).
  destruct (image_back checks cd buf T h rest W F) as (A & B).
  split; [split|].
  - intros X FT. destruct (A FT) as (h' & E2 & _). congruence.
  - exact B.
  - intros FT. destruct (A FT) as (h' & E2 & _ & D). exists h'. split; auto. split; [apply D|]. eapply decoded_held; eauto.
Qed.

(*EX
Example ex_C38 : match build U16 1 10000 2 false [(3, 7); (500, 256)] with
  | Some h => match v2_serialize (fun _ => 77) h with
      | Ret (ROk bs) => reachable h /\ deserialize true plain [] U8 (bs ++ [1]) = Ret (RErr UnsuitableCounterType) /\
          match deserialize true plain [] U32 (bs ++ [1]) with
          | Ret (ROk (h', rest)) => rest = [1] /\ held h' = [(3, 7); (500, 256)]
          | _ => False end
      | _ => False end
  | None => False end.
Proof. ser_case. Qed.
EX*)

(** C39: what the serializer's buffer held before does not matter *)
Lemma C39_serializer_reuse_proof : forall cd junk1 junk2 h, reachable h ->
  v2_serialize junk1 h = v2_serialize junk2 h /\ v2_deflate_serialize cd junk1 h = v2_deflate_serialize cd junk2 h.
Proof.
  intros cd junk1 junk2 h. intros R. pose proof (reachable_wf h R) as W.
  assert (E : v2_serialize junk1 h = v2_serialize junk2 h).
  { destruct (v2_serialize_ok junk1 h W) as [(F & E)|(F & E)], (v2_serialize_ok junk2 h W) as [(F2 & E2)|(F2 & E2)]; rewrite E, E2; auto; contradiction. }
  split; auto. unfold v2_deflate_serialize. rewrite E. reflexivity.
Qed.
(*EX
Example ex_C39_serializer : match build U16 1 10000 2 false [(3, 7); (500, 2)] with
  | Some h => reachable h /\ v2_serialize (fun _ => 7) h = v2_serialize (fun i => i mod 256) h /\
      v2_deflate_serialize twice (fun _ => 7) h = v2_deflate_serialize twice (fun i => i mod 256) h /\
      match v2_deflate_serialize twice (fun _ => 7) h with Ret (ROk zs) => zlen zs = 99 | _ => False end
  | None => False end.
Proof. ser_case. Qed.
EX*)

(** C39: what the deserializer's buffer held before does not matter, whatever the input *)
Lemma C39_deserializer_reuse_proof : forall checks cd buf1 buf2 T rd, codec_ok cd -> bytes rd ->
  deserialize checks cd buf1 T rd = deserialize checks cd buf2 T rd.
Proof. intros checks cd buf1 buf2 T rd. intros CD B. apply deserialize_buf; auto. Qed.
(*EX
Example ex_C39_deserializer : codec_ok twice /\ bytes (v2_format 1 1000 1 [0; -1; 5]) /\
  match deserialize true twice (repeat 9 100) U8 (v2_format 1 1000 1 [0; -1; 5]), deserialize true twice [] U8 (v2_format 1 1000 1 [0; -1; 5]) with
  | Ret (ROk (h1, _)), Ret (ROk (h2, _)) => h1 = h2 /\ held h1 = [(2, 5)]
  | _, _ => False end.
Proof. ser_case. Qed.
EX*)

(** C40: with a lossless compressor, the compressed form is read back as the plain one is, and what follows it is left unread *)
Lemma C40_compressed_proof : forall checks cd buf junk T h bs rest, reachable h -> lossless cd -> codec_ok cd ->
  v2_serialize junk h = Ret (ROk bs) -> zlen (deflate cd bs) + 8 <= u32_max ->
  exists zs left, v2_deflate_serialize cd junk h = Ret (ROk zs) /\
    zs = big_endian 4 0x1c849314 ++ big_endian 4 (zlen (deflate cd bs)) ++ deflate cd bs /\
    zlen left = zlen (deflate cd bs) - inflate_used cd (deflate cd bs) /\
    (forall e, deserialize checks cd buf T bs = Ret (RErr e) -> deserialize checks cd buf T (zs ++ rest) = Ret (RErr e)) /\
    (forall h', deserialize checks cd buf T bs = Ret (ROk (h', [])) ->
       deserialize checks cd buf T (zs ++ rest) = Ret (ROk (h', left ++ rest))).
Proof.
  intros checks cd buf junk T h bs rest. intros R LS CD E L. pose proof (reachable_wf h R) as W. destruct (ser_inv junk h bs W E) as (-> & F).
  pose proof (deserialize_cimage checks cd buf T h rest W F LS CD L) as DC.
  exists (cimage cd h), (skipn (Z.to_nat (inflate_used cd (deflate cd (image h)))) (deflate cd (image h))).
  destruct (LS (image h) (image_bytes h W F)) as (ZB & _). destruct (CD _ ZB) as (_ & U).
  split; [apply deflate_ok; auto|]. split; [unfold cimage; rewrite !big_endian_write by (try apply zlen_nonneg; lia); reflexivity|].
  split; [unfold zlen; rewrite skipn_length; unfold zlen in U; lia|].
  split; intros x EX; rewrite EX in DC; exact DC.
Qed.

(*EX
(** with a toy compressor, which writes every byte twice and one more that the decompressor does not look at *)
Example ex_C40 : match build U16 1 10000 2 false [(3, 7); (500, 256)] with
  | Some h => match v2_serialize (fun _ => 77) h, v2_deflate_serialize twice (fun _ => 77) h with
      | Ret (ROk bs), Ret (ROk zs) => reachable h /\ lossless twice /\ codec_ok twice /\ zlen (deflate twice bs) + 8 <= u32_max /\
          zlen zs = 2 * zlen bs + 9 /\
          match deserialize true twice [] U16 bs, deserialize true twice [] U16 (zs ++ [1; 2]) with
          | Ret (ROk (h1, r1)), Ret (ROk (h2, r2)) => r1 = [] /\ r2 = [0; 1; 2] /\ held h2 = [(3, 7); (500, 256)] /\ h1 = h2
          | _, _ => False end
      | _, _ => False end
  | None => False end.
Proof. ser_case. Qed.
EX*)

(** C54: the bytes written are the V2 format of the histogram: its parameters, and numbers that stand for its counts up to the class of the maximum, with no two zero runs in a row and a single zero written as a count *)
Lemma C54_format_proof : forall junk h bs mx, reachable h -> v2_serialize junk h = Ret (ROk bs) -> max h = Ret mx ->
  exists ts, bs = v2_format (h_low h) (h_high h) (h_sigfig h) ts /\
    Forall (fun t => (- distinct_values h <= t /\ t <> -1) /\ t <= i64_max) ts /\
    (forall i, index_for h mx = Ret (Some i) -> zlen (expand ts) = i + 1) /\
    (forall v i c, is_u64 v -> covers h v -> index_for h v = Ret (Some i) -> count_at h v = Ret c -> nth (Z.to_nat i) (expand ts) 0 = c).
Proof.
  intros junk h bs mx. intros R E EM. pose proof (reachable_wf h R) as W. pose proof (w_cfg h W) as C. destruct (ser_inv junk h bs W E) as (-> & F).
  pose proof (coded_facts h W) as (B & ZC & CB & ZN & FI). destruct (payload_ok h W F) as (_ & TK & FC).
  assert (XE : expand (toks 0 (coded h)) = coded h) by (apply toks_expand; [eapply Forall_impl; [|exact CB]; cbn; lia|lia]).
  exists (toks 0 (coded h)). split; [apply image_format; auto|]. split; [|split].
  - unfold distinct_values.
    assert (G : forall cs zc, Forall (fun c => 0 <= c <= i64_max) cs -> 0 <= zc ->
      Forall (fun t => (- (zc + zlen cs) <= t /\ t <> -1) /\ t <= i64_max) (toks zc cs)).
    { assert (FL : forall zc k, 0 <= zc -> 0 <= k -> Forall (fun t => (- (zc + k) <= t /\ t <> -1) /\ t <= i64_max) (flush zc)).
      { intros zc k Z0 K0. unfold flush. destruct (Z.eqb_spec zc 0); [constructor|]. destruct (Z.eqb_spec zc 1); repeat constructor; unfold i64_max; lia. }
      induction cs as [|c cs IH]; intros zc FF Z0; cbn [toks].
      - apply FL; auto. change (zlen (@nil Z)) with 0. lia.
      - inversion FF; subst. rewrite zlen_cons. pose proof (zlen_nonneg cs). destruct (Z.eqb_spec c 0).
        + specialize (IH (zc + 1) H2 ltac:(lia)). eapply Forall_impl; [|exact IH]. cbn. lia.
        + apply Forall_app. split; [apply FL; lia|]. constructor; [lia|].
          specialize (IH 0 H2 ltac:(lia)). eapply Forall_impl; [|exact IH]. cbn. lia. }
    specialize (G (coded h) 0 FC ltac:(lia)). eapply Forall_impl; [|exact G]. cbn. rewrite ZC. lia.
  - intros i EI. rewrite XE, ZC. assert (mx = maxp h) by (rewrite max_ok in EM by auto; congruence). subst mx.
    rewrite index_for_ok in EI by (auto; apply maxp_u64; auto). fold (bin h (maxp h)) in EI. rewrite bin_maxp in EI by auto. congruence.
  - intros v i c V CV EI EC. rewrite index_for_ok in EI by auto. fold (bin h v) in EI. injection EI as <-.
    apply covers_bin in CV; auto. rewrite count_at_ok in EC by auto. rewrite cbin_in in EC by lia. injection EC as <-.
    rewrite XE. apply ZN. apply bin_nonneg; auto. apply V.
Qed.

(*EX
Example ex_C54 : match build U16 1 10000 2 false [(0, 300); (3, 7); (500, 2)] with
  | Some h => reachable h /\ v2_serialize (fun _ => 77) h = Ret (ROk (v2_format 1 10000 2 [300; -2; 7; -374; 2])) /\ max h = Ret 501 /\
      index_for h 501 = Ret (Some 378) /\ zlen (expand [300; -2; 7; -374; 2]) = 379 /\ is_u64 3 /\ covers h 3 /\ index_for h 3 = Ret (Some 3) /\ count_at h 3 = Ret 7
  | None => False end.
Proof. ser_case. Qed.
EX*)

(** C55: any image in the V2 format, by whatever implementation and with whatever choice of zero runs, is read back as the counts it stands for, provided its parameters are acceptable, its counts fit the counter type and lie within the range *)
Lemma C55_foreign_images_proof : forall checks cd buf T lo hi sf h0 ts rest, is_u64 lo -> is_u64 hi -> is_u8 sf ->
  new_with_bounds T lo hi sf = Ret (ROk h0) ->
  Forall (fun t => i64_min < t <= i64_max /\ t <= cmax T) ts ->
  zlen (v2_payload ts) <= u32_max -> zlen (expand ts) <= usize_max ->
  (forall i, distinct_values h0 <= i -> nth (Z.to_nat i) (expand ts) 0 = 0) ->
  exists h, deserialize checks cd buf T (v2_format lo hi sf ts ++ rest) = Ret (ROk (h, rest)) /\
    h_ctr h = T /\ h_low h = lo /\ h_high h = hi /\ h_sigfig h = sf /\ distinct_values h = distinct_values h0 /\
    len h = Z.min u64_max (weight (held h)) /\ max_agrees h /\ min_agrees h /\
    forall v i, is_u64 v -> covers h v -> index_for h v = Ret (Some i) -> count_at h v = Ret (nth (Z.to_nat i) (expand ts) 0).
Proof.
  intros checks cd buf T lo hi sf h0 ts rest. intros UL UH US EN FT PS ES NZ. destruct (created_wf T lo hi sf h0 UL UH US EN) as (-> & CC & WF & _).
  destruct (deserialize_format checks cd buf T lo hi sf ts rest UL UH US CC) as (h & cs & E & D & Q); auto.
  - eapply Forall_impl; [|exact FT]. cbn. lia.
  - intros i Hi N. destruct (Z_lt_le_dec i (zlen (h_counts (fresh T lo hi sf)))) as [|L]; auto.
    exfalso. apply N. apply (NZ i L).
  - pose proof (dc_wf _ _ _ _ _ _ D) as W. pose proof (w_cfg h W) as C. exists h. split; [exact E|].
    split; [apply D|]. split; [apply D|]. split; [apply D|]. split; [apply D|].
    split.
    { unfold distinct_values. rewrite (s_len h (w_size h W)), (s_len _ (w_size _ WF)).
      pose proof (w_cfg _ WF) as CF. rewrite (c_um h C), (c_m h C), (c_um _ CF), (c_m _ CF).
      rewrite (dc_low _ _ _ _ _ _ D), (dc_high _ _ _ _ _ _ D), (dc_sf _ _ _ _ _ _ D). reflexivity. }
    split; [unfold len; rewrite (dc_total _ _ _ _ _ _ D), held_total, (dc_counts _ _ _ _ _ _ D) by auto; reflexivity|].
    split; [apply max_agrees_iff; auto; apply D|]. split; [apply min_agrees_iff; auto; apply D|].
    intros v i V CV EI. rewrite index_for_ok in EI by auto. fold (bin h v) in EI. injection EI as <-.
    apply covers_bin in CV; auto. rewrite count_at_ok by auto. rewrite cbin_in by lia. f_equal.
    rewrite (dc_counts _ _ _ _ _ _ D). apply Q. apply bin_nonneg; auto. apply V.
Qed.
(*EX
(** single zeros written as runs and as counts, two runs in a row, and zeros beyond the range at the end *)
Example ex_C55 : let ts := [3; -1; -2; 0; 7; 0; -10000] in
  is_u64 1 /\ is_u64 1000 /\ is_u8 1 /\
  match new_with_bounds U8 1 1000 1 with
  | Ret (ROk h0) => Forall (fun t => i64_min < t <= i64_max /\ t <= cmax U8) ts /\ zlen (v2_payload ts) <= u32_max /\ zlen (expand ts) <= usize_max /\
      (forall i, distinct_values h0 <= i -> nth (Z.to_nat i) (expand ts) 0 = 0) /\
      match deserialize true plain [] U8 (v2_format 1 1000 1 ts ++ [4]) with
      | Ret (ROk (h, rest)) => rest = [4] /\ held h = [(0, 3); (5, 7)] /\ len h = 10
      | _ => False end
  | _ => False end.
Proof. ser_case. Qed.
EX*)
