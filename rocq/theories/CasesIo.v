(** * Concrete cases for the theorems about readers and writers, as in [CasesSer] *)
From Verif Require Import Machine Log2Model HistModel Spec Reach Witness Cases SerModel SerSpec ImageSpec CasesSer IoModel IoSpec IoFacts.

(** [delivers] *)
Fixpoint collect (r : reader) : list Z * stop :=
  match r with
  | [] | Data [] :: _ => ([], End)
  | ReadFailed e :: _ => ([], Fails e)
  | ReadInterrupted :: r' => collect r'
  | Data c :: r' => (c ++ fst (collect r'), snd (collect r'))
  end.
Lemma collect_ok r : delivers r (fst (collect r)) (snd (collect r)).
Proof.
  induction r as [|[[|b c]| |e] r IH]; cbn [collect fst snd]; try (constructor; auto; fail).
  apply (delivers_data (b :: c)); [discriminate|exact IH].
Qed.
Lemma delivers_ok r bs s : collect r = (bs, s) -> delivers r bs s.
Proof. intros E. pose proof (collect_ok r) as D. rewrite E in D. exact D. Qed.

(** a decompressor over a reader: it reads all it may, decompresses it, and delivers that at once *)
Definition over (cd : codec) (n : Z) (r : reader) : reader * reader :=
  (match inflate cd (firstn (Z.to_nat n) (fst (collect r))) with [] => [] | l => [Data l] end,
   match skipn (Z.to_nat n) (fst (collect r)) with [] => [] | l => [Data l] end).
Lemma over_decodes cd : decodes cd (over cd).
Proof.
  intros n r bs s N D. destruct (delivers_unique _ _ _ D _ _ (collect_ok r)) as [<- _].
  cbn [over fst]. exists End. destruct (inflate cd (firstn (Z.to_nat n) _)) as [|b l]; [constructor|].
  rewrite <- (app_nil_r (b :: l)) at 2. apply delivers_data; [discriminate|constructor].
Qed.

(** [refusal] *)
Definition takes (e : write_event) : bool := match e with Accept n => 0 <? n | WriteInterrupted => true | WriteFailed _ => false end.
Lemma takes_ok l : forallb takes l = true -> Forall (fun e => ~ refusal e) l.
Proof. rewrite forallb_forall. intros H. apply Forall_forall. intros e I. specialize (H e I). destruct e; cbn in *; try lia; discriminate. Qed.

Ltac io_leaf :=
  lazymatch goal with
  | |- delivers _ _ _ => apply delivers_ok; vm_compute; reflexivity
  | |- decodes _ _ => apply over_decodes
  | |- Forall (fun e => ~ refusal e) _ => apply takes_ok; vm_compute; reflexivity
  | |- _ => ser_leaf
  end.
Ltac io_case :=
  repeat first [case_match | lazymatch goal with |- (let x := _ in _) => cbv zeta end | lazymatch goal with |- _ /\ _ => split end]; io_leaf.
