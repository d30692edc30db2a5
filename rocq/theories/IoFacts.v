(** * Readers and writers: lemmas *)
From Verif Require Import Machine HistModel ListZ Spec SerModel SerSpec SerFacts IoModel IoSpec.
From Coq Require Import ZifyBool ZifyNat.

(** ** Readers *)
Lemma delivers_exists r : exists bs s, delivers r bs s.
Proof.
  induction r as [|[c| |e] r (bs & s & IH)].
  - exists [], End. constructor.
  - destruct c as [|b c]; [exists [], End; constructor|]. exists ((b :: c) ++ bs), s. constructor; [discriminate|auto].
  - exists bs, s. constructor; auto.
  - exists [], (Fails e). constructor.
Qed.

Lemma delivers_unique r bs s : delivers r bs s -> forall bs' s', delivers r bs' s' -> bs' = bs /\ s' = s.
Proof.
  induction 1 as [|r|e r|r bs s D IH|c r bs s C D IH]; intros bs' s' D'; inversion D'; subst; auto; try solve [congruence].
  match goal with X : delivers r ?b s' |- _ => destruct (IH _ _ X) as (-> & ->) end. auto.
Qed.

Lemma zlen0 {A} (l : list A) : zlen l = 0 -> l = [].
Proof. destruct l; [auto|]. rewrite zlen_cons. pose proof (zlen_nonneg l). lia. Qed.

Lemma io_read_zero r : forall n, n <= 0 -> io_read_exact n r = (ROk [], r).
Proof. intros n N. destruct r; cbn [io_read_exact]; replace (n <=? 0) with true by lia; reflexivity. Qed.

Lemma io_read_ok r bs s : delivers r bs s -> forall n, 0 <= n <= zlen bs ->
  exists r', io_read_exact n r = (ROk (firstn (Z.to_nat n) bs), r') /\ delivers r' (skipn (Z.to_nat n) bs) s.
Proof.
  induction 1 as [|r|e r|r bs s D IH|c r bs s C D IH]; intros n N.
  1,2,3: change (zlen []) with 0 in N; replace n with 0 by lia; rewrite io_read_zero by lia; eexists; split; [reflexivity|]; cbn; constructor.
  - destruct (Z.eq_dec n 0) as [->|NZ].
    + rewrite io_read_zero by lia. eexists. split; [reflexivity|]. cbn. constructor. auto.
    + cbn [io_read_exact]. replace (n <=? 0) with false by lia. apply IH. auto.
  - destruct (Z.eq_dec n 0) as [->|NZ].
    + rewrite io_read_zero by lia. eexists. split; [reflexivity|]. change (skipn (Z.to_nat 0) (c ++ bs)) with (c ++ bs). constructor; auto.
    + rewrite zlen_app in N. cbn [io_read_exact]. replace (n <=? 0) with false by lia.
      assert (0 < zlen c). { pose proof (zlen_nonneg c). destruct (Z.eq_dec (zlen c) 0); [|lia]. elim C. apply zlen0. auto. }
      replace (zlen c =? 0) with false by lia. destruct (Z.ltb_spec n (zlen c)).
      * eexists. split; [rewrite firstn_app; replace (Z.to_nat n - length c)%nat with O by (unfold zlen in *; lia); rewrite firstn_O, app_nil_r; reflexivity|].
        rewrite skipn_app; replace (Z.to_nat n - length c)%nat with O by (unfold zlen in *; lia); rewrite skipn_O. constructor; auto.
        intros E. apply (f_equal (@length Z)) in E. rewrite skipn_length in E. cbn in E. unfold zlen in *. lia.
      * destruct (IH (n - zlen c) ltac:(lia)) as (r' & E & D'). rewrite E. exists r'.
        assert (Q : Z.to_nat n = (length c + Z.to_nat (n - zlen c))%nat) by (unfold zlen in *; lia).
        rewrite Q, firstn_app_2, skipn_app. replace (length c + Z.to_nat (n - zlen c) - length c)%nat with (Z.to_nat (n - zlen c)) by lia.
        rewrite skipn_all2 by lia. split; auto.
Qed.

Lemma io_read_short r bs s : delivers r bs s -> forall n, zlen bs < n ->
  exists r', io_read_exact n r = (RErr (stop_error s), r').
Proof.
  intros D. assert (POS : forall n, zlen bs < n -> (n <=? 0) = false) by (intros n N; pose proof (zlen_nonneg bs); lia).
  revert POS. induction D as [|r|e r|r bs s D IH|c r bs s C D IH]; intros POS n N; cbn [io_read_exact]; rewrite (POS n N).
  - eexists; reflexivity.
  - eexists; reflexivity.
  - eexists; reflexivity.
  - apply IH; auto.
  - rewrite zlen_app in N.
    assert (0 < zlen c). { pose proof (zlen_nonneg c). destruct (Z.eq_dec (zlen c) 0); [|lia]. elim C. apply zlen0. auto. }
    pose proof (zlen_nonneg bs).
    replace (zlen c =? 0) with false by lia. replace (n <? zlen c) with false by lia.
    destruct (IH ltac:(intros m M; lia) (n - zlen c) ltac:(lia)) as (r' & E). rewrite E. eexists; reflexivity.
Qed.

Lemma io_read_be_spec n r bs s : 0 <= n -> delivers r bs s ->
  match read_be n bs with
  | Some (x, bs') => exists r', io_read_be n r = (ROk x, r') /\ delivers r' bs' s
  | None => exists r', io_read_be n r = (RErr (stop_error s), r')
  end.
Proof.
  intros N D. unfold read_be, read_exact, io_read_be. destruct (Z.leb_spec n (zlen bs)).
  - destruct (io_read_ok r bs s D n ltac:(lia)) as (r' & E & D'). rewrite E. eauto.
  - destruct (io_read_short r bs s D n ltac:(lia)) as (r' & E). rewrite E. eauto.
Qed.

Lemma read_exact_more n bs x r c : read_exact n bs = Some (x, r) -> read_exact n (bs ++ c) = Some (x, r ++ c).
Proof.
  unfold read_exact. rewrite zlen_app. pose proof (zlen_nonneg c). destruct (Z.leb_spec n (zlen bs)); [|discriminate].
  replace (n <=? zlen bs + zlen c) with true by lia. intros E. injection E as <- <-.
  rewrite firstn_app, skipn_app. replace (Z.to_nat n - length bs)%nat with O by (unfold zlen in *; lia).
  rewrite firstn_O, skipn_O, app_nil_r. reflexivity.
Qed.
Lemma read_be_more n bs x r c : read_be n bs = Some (x, r) -> read_be n (bs ++ c) = Some (x, r ++ c).
Proof.
  unfold read_be. destruct (read_exact n bs) as [[y r']|] eqn:E; [|discriminate]. rewrite (read_exact_more _ _ _ _ c E).
  intros Q. injection Q as <- <-. reflexivity.
Qed.

(** what the stream version returns when the list version returns [a] *)
Definition agrees (s : stop) (again : list Z -> res (result (hist * list Z) deser_error))
  (a : res (result (hist * list Z) deser_error)) (b : res (result hist io_deser_error * reader)) : Prop :=
  match a with
  | Panic => b = Panic
  | Ret (ROk (h, rest)) => exists r', b = Ret (ROk h, r') /\ delivers r' rest s
  | Ret (RErr e) => exists r' e', b = Ret (RErr e', r') /\
      (e <> DeIoError -> e' = DeOther e) /\
      (e = DeIoError -> e' = DeIo (stop_error s) \/ e' = DeIo UnexpectedEof /\ forall c, again c = Ret (RErr DeIoError))
  end.

Lemma io_deser_v2_spec checks buf T r bs s : delivers r bs s ->
  agrees s (fun c => deser_v2 checks buf T (bs ++ c)) (deser_v2 checks buf T bs) (io_deser_v2 checks buf T r).
Proof.
  intros D. unfold deser_v2 at 2, io_deser_v2.
  Ltac rd D n x bs' r' E :=
    match type of D with delivers ?r ?bs ?s =>
      let X := fresh in pose proof (io_read_be_spec n r bs s ltac:(lia) D) as X; 
      destruct (read_be n bs) as [[x bs']|] eqn:E;
      [let D' := fresh "D" in destruct X as (r' & X & D'); rewrite X; clear X
      |destruct X as (r' & X); rewrite X; cbn [agrees]; do 2 eexists; split; [reflexivity|]; split; [congruence|auto]] end.
  rd D 4 pl bs1 r1 E1. rd D0 4 no bs2 r2 E2.
  destruct (no =? 0) eqn:NO; cbn [negb]; [|cbn [agrees]; do 2 eexists; split; [reflexivity|]; split; [auto|discriminate]].
  rd D1 4 nd bs3 r3 E3.
  destruct (u8_max <? nd) eqn:ND; [cbn [agrees]; do 2 eexists; split; [reflexivity|]; split; [auto|discriminate]|].
  rd D2 8 lo bs4 r4 E4. rd D3 8 hi bs5 r5 E5. rd D4 8 ra bs6 r6 E6.
  destruct (ra =? 4607182418800017408) eqn:RA; cbn [negb]; [|cbn [agrees]; do 2 eexists; split; [reflexivity|]; split; [auto|discriminate]].
  destruct (new_with_bounds T lo hi nd) as [[h|e]|] eqn:NW; cbn [bind]; [| |reflexivity].
  2:{ cbn [agrees]; do 2 eexists; split; [reflexivity|]; split; [auto|discriminate]. }
  cbn zeta. set (sl := firstn (Z.to_nat pl) (if zlen buf <? pl then vresize buf pl 0 else buf)).
  destruct (read_exact (zlen sl) bs6) as [[p bs7]|] eqn:E7; unfold read_exact in E7; destruct (Z.leb_spec (zlen sl) (zlen bs6)); try discriminate.
  - destruct (io_read_ok r6 bs6 s D5 (zlen sl) ltac:(split; [apply zlen_nonneg|auto])) as (r7 & X & D7). rewrite X. injection E7 as E7 E7'. rewrite E7. rewrite E7' in D7.
    destruct (decode_payload checks p h) as [[h'|e]|] eqn:DP; cbn [bind]; [| |reflexivity].
    + cbn [agrees]. eauto.
    + cbn [agrees]. do 2 eexists. split; [reflexivity|]. split; [destruct e; cbn; congruence|].
      intros ->. right. split; [reflexivity|]. intros c. unfold deser_v2.
      rewrite (read_be_more _ _ _ _ c E1), (read_be_more _ _ _ _ c E2), NO. cbn [negb].
      rewrite (read_be_more _ _ _ _ c E3), ND, (read_be_more _ _ _ _ c E4), (read_be_more _ _ _ _ c E5), (read_be_more _ _ _ _ c E6), RA. cbn [negb].
      rewrite NW. cbn [bind]. cbn zeta. fold sl.
      assert (E8 : read_exact (zlen sl) bs6 = Some (p, bs7)) by (unfold read_exact; replace (zlen sl <=? zlen bs6) with true by lia; rewrite E7, E7'; reflexivity).
      rewrite (read_exact_more _ _ _ _ c E8), DP. reflexivity.
  - destruct (io_read_short r6 bs6 s D5 (zlen sl) ltac:(lia)) as (r7 & X). rewrite X. cbn [agrees].
    do 2 eexists. split; [reflexivity|]. split; [congruence|auto].
Qed.

(** outcomes agree, whatever the formats and however the stream stops *)
Lemma agrees_outcome s again a b : agrees s again a b ->
  match a with Panic => b = Panic | Ret x => exists y r', b = Ret (y, r') /\ same_outcome x y end.
Proof.
  destruct a as [[[h rest]|e]|]; cbn [agrees]; auto.
  - intros (r' & -> & _). exists (ROk h), r'. split; reflexivity.
  - intros (r' & e' & -> & A & B). exists (RErr e'), r'. split; [reflexivity|]. cbn.
    destruct e; try (rewrite A by discriminate; split; [reflexivity|discriminate]).
    destruct B as [->|(-> & _)]; auto.
Qed.

Ltac rq D n x bs' r' E :=
  match type of D with delivers ?r ?bs ?s =>
    let X := fresh in pose proof (io_read_be_spec n r bs s ltac:(lia) D) as X;
    destruct (read_be n bs) as [[x bs']|] eqn:E;
    [let D' := fresh "D" in destruct X as (r' & X & D'); rewrite X; clear X
    |destruct X as (r' & X); rewrite X; do 2 eexists; split; [reflexivity|exact I]] end.
Lemma io_deserialize_outcome checks cd zd buf T r bs s : decodes cd zd -> bytes bs -> delivers r bs s ->
  match deserialize checks cd buf T bs with
  | Panic => io_deserialize checks zd buf T r = Panic
  | Ret x => exists y r', io_deserialize checks zd buf T r = Ret (y, r') /\ same_outcome x y
  end.
Proof.
  intros ZD B D. unfold deserialize, io_deserialize. rq D 4 ck bs1 r1 E1.
  destruct (ck =? V2_COOKIE).
  { exact (agrees_outcome _ _ _ _ (io_deser_v2_spec checks buf T r1 bs1 s D0)). }
  destruct (ck =? V2_COMPRESSED_COOKIE).
  2:{ do 2 eexists. split; [reflexivity|]. cbn. split; [reflexivity|discriminate]. }
  destruct (read_be_range 4 bs ck bs1 B ltac:(lia) E1) as (_ & B1 & _).
  unfold deser_v2_compressed, io_deser_v2_compressed.
  pose proof (read_be_range 4 bs1) as RR.
  rq D0 4 pl bs2 r2 E2.
  destruct (RR pl bs2 B1 ltac:(lia) eq_refl) as (RP & _). cbn zeta.
  destruct (ZD pl r2 bs2 s ltac:(lia) D1) as (s' & DD). destruct (zd pl r2) as [out left] eqn:ZE. cbn [fst] in DD.
  rq DD 4 ic drd r3 E3.
  destruct (ic =? V2_COOKIE); cbn [negb].
  2:{ do 2 eexists. split; [reflexivity|]. cbn. split; [reflexivity|discriminate]. }
  pose proof (agrees_outcome _ _ _ _ (io_deser_v2_spec checks buf T r3 drd s' D2)) as A.
  destruct (deser_v2 checks buf T drd) as [x|]; cbn [bind].
  - destruct A as (y & r' & -> & A). cbn [bind]. exists y, left. split; [reflexivity|].
    destruct x as [[h rest]|e]; exact A.
  - rewrite A. reflexivity.
Qed.

(** ** Writers *)
Lemma io_write_spec script : forall out bs w x, io_write_all script out bs = (w, x) ->
  exists taken rest, bs = taken ++ rest /\ w_out w = out ++ taken /\
    match x with
    | ROk _ => rest = []
    | RErr e => rest <> [] /\ e <> UnexpectedEof /\
        (e = WriteZero \/ exists k, e = Foreign k /\ In (WriteFailed k) script)
    end.
Proof.
  induction script as [|[n| |k] s IH]; intros out bs w x; cbn [io_write_all].
  - destruct (Z.eqb_spec (zlen bs) 0) as [E|E]; intros Q; injection Q as <- <-.
    + apply zlen0 in E. subst bs. exists [], []. cbn. rewrite app_nil_r. auto.
    + exists bs, []. cbn. rewrite app_nil_r. auto.
  - destruct (Z.eqb_spec (zlen bs) 0) as [E|E].
    { intros Q; injection Q as <- <-. apply zlen0 in E. subst bs. exists [], []. cbn. rewrite app_nil_r. auto. }
    destruct (Z.leb_spec n 0) as [L|L].
    + intros Q; injection Q as <- <-. exists [], bs. cbn. rewrite app_nil_r. repeat split; auto; try discriminate.
      intros ->. apply E. reflexivity.
    + intros Q. apply IH in Q. destruct Q as (t & rest & E1 & E2 & R). exists (firstn (Z.to_nat n) bs ++ t), rest.
      rewrite <- app_assoc, <- E1, firstn_skipn. split; [reflexivity|]. rewrite E2, <- app_assoc. split; [reflexivity|].
      destruct x as [u|e]; auto. destruct R as (R1 & R2 & R3). split; auto. split; auto.
      destruct R3 as [->|(k & -> & I)]; auto. right. exists k. split; auto. right. auto.
  - destruct (Z.eqb_spec (zlen bs) 0) as [E|E].
    { intros Q; injection Q as <- <-. apply zlen0 in E. subst bs. exists [], []. cbn. rewrite app_nil_r. auto. }
    intros Q. apply IH in Q. destruct Q as (t & rest & E1 & E2 & R). exists t, rest. split; auto. split; auto.
    destruct x as [u|e]; auto. destruct R as (R1 & R2 & R3). split; auto. split; auto.
    destruct R3 as [->|(k & -> & I)]; auto. right. exists k. split; auto. right. auto.
  - destruct (Z.eqb_spec (zlen bs) 0) as [E|E]; intros Q; injection Q as <- <-.
    + apply zlen0 in E. subst bs. exists [], []. cbn. rewrite app_nil_r. auto.
    + exists [], bs. cbn. rewrite app_nil_r. repeat split; auto; try discriminate.
      * intros ->. apply E. reflexivity.
      * right. exists k. auto.
Qed.

(** a writer that never refuses takes everything *)
Lemma io_write_willing script : forall out bs, Forall (fun e => ~ refusal e) script ->
  exists s, io_write_all script out bs = (mk_writer (out ++ bs) s, ROk tt) /\ Forall (fun e => ~ refusal e) s.
Proof.
  induction script as [|e s IH]; intros out bs F; cbn [io_write_all];
    (destruct (Z.eqb_spec (zlen bs) 0) as [E|E]; [apply zlen0 in E; subst bs; rewrite app_nil_r; eauto|]); [eauto|].
  inversion F as [|? ? F1 F2]; subst. destruct e as [n| |k]; cbn [refusal] in F1.
  - destruct (Z.leb_spec n 0); [tauto|]. destruct (IH (out ++ firstn (Z.to_nat n) bs) (skipn (Z.to_nat n) bs) F2) as (s' & -> & F').
    rewrite <- app_assoc, firstn_skipn. eauto.
  - apply IH. auto.
  - tauto.
Qed.
