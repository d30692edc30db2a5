(** Property theorems; the proofs are in [PfIter].  Generated by tools/gen_theorems.py. *)
From Verif Require Import Machine Log2Model HistModel Spec Reach Witness Cases FloatModel IterModel IterSpec PfIter.
From Coq Require Import Sorted.


(** ** C22.  [iter_recorded] yields the classes that hold samples, each once, in increasing order: the
    top value of the class, its count, and nothing skipped since the item before. *)
Theorem C22_recorded : forall h, reachable h ->
  exists it items, iter_recorded h = Ret it /\ drains pk_recorded h it items /\
    StronglySorted Z.lt (map iv_value items) /\
    Forall2 (fun x c => highest_equivalent h (fst c) = Ret (iv_value x) /\ iv_count x = snd c /\ iv_since x = snd c /\
        iv_quantile x = f64_div (f64_of_u64 (Z.min u64_max (weight_between 0 (fst c) (held h)))) (f64_of_u64 (len h)) /\
        iv_qto x = iv_quantile x)
      items (held h).
Proof. exact C22_recorded_proof. Qed.
Print Assumptions C22_recorded.

Example ex_C22 : match build U64 1 10000 1 false [(5000, 8); (5, 2); (333, 1); (900, 4); (7, 0)] with
  | Some h => reachable h /\ match recorded_items h with
      | Ret xs => map (fun x => (iv_value x, iv_count x, iv_since x)) xs = [(5, 2, 2); (335, 1, 1); (927, 4, 4); (5119, 8, 8)] /\
          held h = [(5, 2); (320, 1); (896, 4); (4864, 8)]
      | _ => False end
  | _ => False end.
Proof. float_case. Qed.

(** ** C23.  [iter_all] yields every class once, with its count *)
Theorem C23_all : forall h, reachable h ->
  exists it items, iter_all h = Ret it /\ drains pk_all h it items /\ zlen items = distinct_values h /\ walks_classes h 0 items.
Proof. exact C23_all_proof. Qed.
Print Assumptions C23_all.

Example ex_C23 : match build U64 1 20 0 false [(5, 2); (3, 1)] with
  | Some h => reachable h /\ match iter_all h with
      | Ret it => match iter_collect 10 pk_all h it with
          | Ret xs => map (fun x => (iv_value x, iv_count x, iv_since x)) xs =
              [(0, 0, 0); (1, 0, 0); (3, 1, 1); (7, 2, 2); (15, 0, 0); (31, 0, 0)]
          | _ => False end
      | _ => False end
  | _ => False end.
Proof. float_case. Qed.

Theorem C24_accounts : forall P (pk : picker P) h p it items it', reachable h -> weight (held h) <= u64_max ->
  iter_new h p = Ret it -> takes pk h it items it' -> exists ws, accounts h 0 0 items ws.
Proof. exact C24_accounts_proof. Qed.
Print Assumptions C24_accounts.

Example ex_C24_accounts : match build U64 1 10000 1 false [(5000, 8); (5, 2); (333, 1)] with
  | Some h => reachable h /\ weight (held h) <= u64_max /\
      match iter_linear h 3000 with Ret it => match iter_next pk_linear h it with
      | Ret (it1, Some x) => match iter_next pk_linear h it1 with
          | Ret (it2, Some y) => map (fun x => (iv_value x, iv_count x, iv_since x)) [x; y] = [(2999, 0, 3); (5999, 0, 8)]
          | _ => False end
      | _ => False end | _ => False end
  | _ => False end.
Proof. float_case. Qed.

Theorem C24_total : forall P (pk : picker P) h p it items it', reachable h -> weight (held h) <= u64_max ->
  iter_new h p = Ret it -> takes pk h it items it' -> reported items <= weight (held h).
Proof. exact C24_total_proof. Qed.
Print Assumptions C24_total.

(** [iter_linear] by 100 over 20 samples *)
Example ex_C24_total : match build U64 1 10000 1 false [(5000, 8); (5, 2); (333, 1); (900, 9)] with
  | Some h => reachable h /\ weight (held h) = 20 /\ weight (held h) <= u64_max /\
      match iter_linear h 100 with Ret it => match iter_next pk_linear h it with Ret (it', Some x) => iv_since x = 2 /\ iv_value x = 99 | _ => False end | _ => False end
  | None => False end.
Proof. float_case. Qed.

Theorem C24_fused : forall P (pk : picker P) h it it', iter_next pk h it = Ret (it', None) -> iter_next pk h it' = Ret (it', None).
Proof. exact C24_fused_proof. Qed.
Print Assumptions C24_fused.

Theorem C24_no_panic : forall P (pk : picker P) h p, reachable h ->
  (forall p i t c, pk_pick pk h p i t c <> Panic) -> (forall p i, pk_more pk h p i <> Panic) ->
  exists it, iter_new h p = Ret it /\ forall items it', takes pk h it items it' -> iter_next pk h it' <> Panic.
Proof. exact C24_no_panic_proof. Qed.
Print Assumptions C24_no_panic.

Example ex_C24 : match build U64 1 10000 1 false [(5000, 8); (5, 2); (333, 1); (900, 4)] with
  | Some h => reachable h /\ match iter_linear h 500 with
      | Ret it => match iter_collect 20 pk_linear h it with
          | Ret xs => map (fun x => (iv_value x, iv_count x, iv_since x)) xs =
              [(499, 0, 3); (999, 0, 4); (1499, 0, 0); (1999, 0, 0); (2499, 0, 0); (2999, 0, 0); (3499, 0, 0);
               (3999, 0, 0); (4499, 0, 0); (4999, 8, 8)] /\ reported xs = weight (held h)
          | _ => False end
      | _ => False end
  | _ => False end.
Proof. float_case. Qed.

Theorem C53_add_correct : forall h s i, reachable h -> reachable s -> h_ctr h = h_ctr s -> is_u64 i ->
  (exists h', add_correct h s i = Ret (h', ROk tt) /\ records h (corrected_samples s (held s) i) h') \/
  (exists h' e l1 v n l2 t, add_correct h s i = Ret (h', RErr e) /\ held s = l1 ++ (v, n) :: l2 /\
     records h (corrected_samples s l1 i) h' /\ highest_equivalent s v = Ret t /\ record_n h' t n = Ret (h', RErr e)).
Proof. exact C53_add_correct_proof. Qed.
Print Assumptions C53_add_correct.

Example ex_C53_add_correct : match build U64 1 5000 1 false [(7, 1)] with Some h =>
  match build U64 1 5000 1 false [(5, 1); (1000, 2)] with Some s =>
      reachable h /\ reachable s /\ h_ctr h = h_ctr s /\ is_u64 300 /\ corrected_samples s (held s) 300 = [(5, 1); (1023, 2); (723, 2); (423, 2)] /\
      match add_correct h s 300 with
      | Ret (h', ROk _) => held h' = [(5, 1); (7, 1); (416, 2); (704, 2); (992, 2)]
      | _ => False end
  | _ => False end | _ => False end.
Proof. float_case. Qed.

(** [set_to_corrected] does the same starting from nothing *)
Theorem C53_set_to_corrected : forall h s i, reachable h -> reachable s -> h_ctr h = h_ctr s -> is_u64 i ->
  (exists h', set_to_corrected h s i = Ret (h', ROk tt) /\ records (reset h) (corrected_samples s (held s) i) h') \/
  (exists h' e l1 v n l2 t, set_to_corrected h s i = Ret (h', RErr e) /\ held s = l1 ++ (v, n) :: l2 /\
     records (reset h) (corrected_samples s l1 i) h' /\ highest_equivalent s v = Ret t /\ record_n h' t n = Ret (h', RErr e)).
Proof. exact C53_set_to_corrected_proof. Qed.
Print Assumptions C53_set_to_corrected.

Example ex_C53_set_to_corrected : match build U64 1 500 1 false [(7, 1)] with Some h =>
  match build U64 1 5000 1 false [(5, 1); (1000, 2)] with Some s =>
      reachable h /\ reachable s /\ h_ctr h = h_ctr s /\ is_u64 300 /\
      match set_to_corrected h s 300 with
      | Ret (h', RErr e) => held h' = [(5, 1)] /\ e = ValueOutOfRangeResizeDisabled /\ highest_equivalent s 992 = Ret 1023 /\ record_n h' 1023 2 = Ret (h', RErr e)
      | _ => False end
  | _ => False end | _ => False end.
Proof. float_case. Qed.

(** [clone_correct] always succeeds: everything fits into the copy *)
Theorem C53_clone_correct : forall h i, reachable h -> is_u64 i ->
  exists h0 h', new_from (h_ctr h) h = Ret h0 /\ clone_correct h i = Ret h' /\ records h0 (corrected_samples h (held h) i) h'.
Proof. exact C53_clone_correct_proof. Qed.
Print Assumptions C53_clone_correct.

Example ex_C53_clone_correct : match build U64 1 10000 1 false [(10, 2)] with
  | Some h => reachable h /\ is_u64 3 /\ held h = [(10, 2)] /\ match clone_correct h 3 with Ret h' => held h' = [(4, 2); (7, 2); (10, 2)] | _ => False end
  | None => False end.
Proof. case_of. Qed.

Theorem C53_clone_plain : forall h i, reachable h -> is_u64 i ->
  (i = 0 \/ forall v n t, In (v, n) (held h) -> highest_equivalent h v = Ret t -> t <= i) ->
  exists h', clone_correct h i = Ret h' /\ held h' = held h /\ len h' = Z.min u64_max (weight (held h)).
Proof. exact C53_clone_plain_proof. Qed.
Print Assumptions C53_clone_plain.

Example ex_C53_clone_plain : match build U64 1 5000 1 false [(5, 1); (1000, 2)] with
  | Some h => reachable h /\ is_u64 1023 /\ held h = [(5, 1); (992, 2)] /\ highest_equivalent h 5 = Ret 5 /\ highest_equivalent h 992 = Ret 1023 /\
      match clone_correct h 1023 with Ret h' => held h' = held h /\ len h' = 3 | _ => False end
  | _ => False end.
Proof. float_case. Qed.

(** a failing [add_correct] keeps what it recorded before the value that does not fit *)
Theorem C53_partial_effect_refuted : exists h s h' e, reachable h /\ reachable s /\ h_ctr h = h_ctr s /\
  add_correct h s 100 = Ret (h', RErr e) /\ held h = [] /\ held h' = [(5, 1); (104, 2); (200, 2)].
Proof. exact C53_partial_effect_refuted_proof. Qed.
Print Assumptions C53_partial_effect_refuted.

Example ex_C53 : match build U64 1 5000 1 false [(5, 1); (1000, 2)] with
  | Some h => reachable h /\ match clone_correct h 300, clone_correct h 0 with
      | Ret h', Ret h2 => held h = [(5, 1); (992, 2)] /\ held h' = [(5, 1); (416, 2); (704, 2); (992, 2)] /\ held h2 = held h
      | _, _ => False end
  | _ => False end.
Proof. float_case. Qed.
