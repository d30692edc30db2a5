(** Property theorems; the proofs are in [PfForms].  Generated by tools/gen_theorems.py. *)
From Verif Require Import Machine Log2Model HistModel Spec OrderSpec Reach Witness Cases PfForms.

(** ** C57.  The short forms mean what the long ones mean.  [record] stores one sample, or fails and
    changes nothing. *)
Theorem C57_record : forall h v, reachable h -> is_u64 v ->
  (exists h', record h v = Ret (h', ROk tt) /\ (covers h v \/ is_auto_resize h = true) /\
     records h [(v, 1)] h' /\ len h' = Z.min u64_max (len h + 1)) \/
  (record h v = Ret (h, RErr ValueOutOfRangeResizeDisabled) /\ is_auto_resize h = false /\ ~ covers h v).
Proof. exact C57_record_proof. Qed.
Print Assumptions C57_record.

Example ex_C57_record : match build U8 1 100 2 false [(5, 200)] with
  | Some h => reachable h /\ is_u64 100 /\ is_u64 256 /\ covers h 100 /\ ~ covers h 256 /\ record h 256 = Ret (h, RErr ValueOutOfRangeResizeDisabled) /\
      match record h 100 with Ret (h', ROk _) => records h [(100, 1)] h' /\ len h' = 201 | _ => False end
  | None => False end.
Proof. case_of. Qed.

(** [saturating_record] stores one sample, at [high] if the value has no bin *)
Theorem C57_saturating_record : forall h v, reachable h -> is_u64 v ->
  exists h', saturating_record h v = Ret h' /\ len h' = Z.min u64_max (len h + 1) /\
    (covers h v -> record h v = Ret (h', ROk tt)) /\ (~ covers h v -> record h (high h) = Ret (h', ROk tt)).
Proof. exact C57_saturating_record_proof. Qed.
Print Assumptions C57_saturating_record.

Example ex_C57_saturating_record : match build U8 1 100 2 false [(5, 200)] with
  | Some h => reachable h /\ is_u64 256 /\ ~ covers h 256 /\ match saturating_record h 256 with Ret h' => count_at h' 100 = Ret 1 /\ len h' = 201 | _ => False end
  | None => False end.
Proof. case_of. Qed.

(** [record_correct] stores the value once and every missing value once *)
Theorem C57_record_correct : forall h v i, reachable h -> is_u64 v -> is_u64 i ->
  (exists h', record_correct h v i = Ret (h', ROk tt) /\
     records h (map (fun x => (x, 1)) (v :: missing_values v i)) h') \/
  (record_correct h v i = Ret (h, RErr ValueOutOfRangeResizeDisabled) /\ is_auto_resize h = false /\ ~ covers h v).
Proof. exact C57_record_correct_proof. Qed.
Print Assumptions C57_record_correct.

Example ex_C57_record_correct : match build U8 1 100 2 false [(5, 200)] with
  | Some h => reachable h /\ is_u64 10 /\ is_u64 3 /\ missing_values 10 3 = [7; 4] /\
      match record_correct h 10 3 with Ret (h', ROk _) => records h [(10, 1); (7, 1); (4, 1)] h' /\ len h' = 203 | _ => False end /\
      is_u64 256 /\ ~ covers h 256 /\ record_correct h 256 3 = Ret (h, RErr ValueOutOfRangeResizeDisabled)
  | None => False end.
Proof. case_of. Qed.

(** [+= value] records it, and panics where [record] fails *)
Theorem C57_plus_value : forall h v, reachable h -> is_u64 v ->
  (forall h', add_assign_u64 h v = Ret h' <-> record h v = Ret (h', ROk tt)) /\
  (add_assign_u64 h v = Panic <-> is_auto_resize h = false /\ ~ covers h v).
Proof. exact C57_plus_value_proof. Qed.
Print Assumptions C57_plus_value.

Example ex_C57_plus_value : match build U8 1 100 2 false [(5, 200)] with
  | Some h => reachable h /\ is_u64 100 /\ is_u64 256 /\ covers h 100 /\ ~ covers h 256 /\ add_assign_u64 h 256 = Panic /\
      match add_assign_u64 h 100 with Ret h' => count_at h' 100 = Ret 1 | _ => False end
  | None => False end.
Proof. case_of. Qed.

(** [+] and [+=] of two histograms give what [add] gives, and panic exactly where it fails *)
Theorem C57_plus : forall h s mx, reachable h -> reachable s -> h_ctr h = h_ctr s -> max s = Ret mx ->
  (forall h', add_assign h s = Ret h' <-> add h s = Ret (h', ROk tt)) /\
  (add_assign h s = Panic <-> is_auto_resize h = false /\ is_empty s = false /\ (~ covers h mx \/ mx = u64_max)).
Proof. exact C57_plus_proof. Qed.
Print Assumptions C57_plus.

Example ex_C57_plus : match build U8 1 100 2 false [(5, 200)], build U8 1 1000 2 false [(5, 100); (90, 1)] with
  | Some h, Some s => reachable h /\ reachable s /\ h_ctr h = h_ctr s /\ max s = Ret 90 /\ max h = Ret 5 /\
      match add_assign h s with Ret h' => count_at h' 5 = Ret 255 /\ count_at h' 90 = Ret 1 | _ => False end /\
      match record s 900 with Ret (s2, ROk _) => add_assign h s2 = Panic | _ => False end
  | _, _ => False end.
Proof. case_of. Qed.

(** [-] and [-=] give what [subtract] gives, and panic exactly where it fails *)
Theorem C57_minus : forall h s mx, reachable h -> reachable s -> h_ctr h = h_ctr s -> max s = Ret mx ->
  (forall h', sub_assign h s = Ret h' <-> subtract h s = Ret (h', ROk tt)) /\
  (sub_assign h s = Panic <-> is_empty s = false /\
    ~ (covers h mx /\ mx <> u64_max /\
       (forall w c, is_u64 w -> covers h w -> count_at h w = Ret c -> weight_at h w (held s) <= c))).
Proof. exact C57_minus_proof. Qed.
Print Assumptions C57_minus.

Example ex_C57 : match build U8 1 100 2 false [(5, 200)], build U8 1 1000 2 false [(5, 100); (900, 1)] with
  | Some h, Some s => reachable h /\ reachable s /\ add_assign h s = Panic /\ sub_assign h s = Panic /\ add_assign_u64 h 5000 = Panic /\
      match add_assign s h, add_assign_u64 h 90, record_correct h 30 10 with
      | Ret a, Ret b, Ret (c, ROk _) => count_at a 5 = Ret 255 /\ count_at b 90 = Ret 1 /\ len c = 203 /\ count_at c 10 = Ret 1
      | _, _, _ => False end
  | _, _ => False end.
Proof. case_of. Qed.

(** [Sum] adds the histograms one after the other to the first; of no histograms it is [new(3)] *)
Theorem C57_sum : forall T h hs h', sum_hist T (h :: hs) = Ret h' <-> merges h hs h'.
Proof. exact C57_sum_proof. Qed.
Print Assumptions C57_sum.

Theorem C57_sum_empty : forall T, exists h, sum_hist T [] = Ret h /\ new T 3 = Ret (ROk h) /\ len h = 0 /\
  is_auto_resize h = true /\ sigfig h = 3.
Proof. exact C57_sum_empty_proof. Qed.
Print Assumptions C57_sum_empty.

Example ex_C57_sum_empty : match sum_hist U16 [] with Ret h => match record h 123456 with Ret (h', ROk _) => count_at h' 123456 = Ret 1 | _ => False end | _ => False end.
Proof. vm_compute. auto. Qed.

(** of histograms that share a configuration it never panics, whatever they hold below [u64::MAX]:
    counts add up (and stop at the largest the type holds), and so does [len] *)
Theorem C57_sum_same_config : forall h hs, reachable h ->
  Forall (fun s => reachable s /\ h_ctr h = h_ctr s /\ same_config h s /\ max s <> Ret u64_max) hs ->
  exists h', sum_hist (h_ctr h) (h :: hs) = Ret h' /\ same_config h h' /\
    (forall w cs, is_u64 w -> covers h w -> Forall2 (fun s c => count_at s w = Ret c) (h :: hs) cs ->
       count_at h' w = Ret (Z.min (cmax (h_ctr h)) (fold_right Z.add 0 cs))) /\
    (Forall len_agrees hs -> len h' = Z.min u64_max (fold_right Z.add 0 (map len (h :: hs)))).
Proof. exact C57_sum_same_config_proof. Qed.
Print Assumptions C57_sum_same_config.

Example ex_C57_sum : match build U8 1 100 2 false [(5, 200)], build U8 1 100 2 false [(5, 100); (90, 1)] with
  | Some a, Some b => reachable a /\ reachable b /\ same_config a b /\ match sum_hist U8 [a; b; b] with
      | Ret h => count_at h 5 = Ret 255 /\ count_at h 90 = Ret 2 /\ len h = 402
      | _ => False end
  | _, _ => False end.
Proof. case_of. Qed.

(** switching auto-resize changes only that *)
Theorem C57_auto : forall h b, reachable h ->
  is_auto_resize (auto h b) = b /\ held (auto h b) = held h /\ len (auto h b) = len h /\
  max (auto h b) = max h /\ min (auto h b) = min h /\ min_nz (auto h b) = min_nz h /\
  low (auto h b) = low h /\ high (auto h b) = high h /\ sigfig (auto h b) = sigfig h /\
  (forall v, count_at (auto h b) v = count_at h v) /\
  (forall v, is_u64 v -> (covers (auto h b) v <-> covers h v)).
Proof. exact C57_auto_proof. Qed.
Print Assumptions C57_auto.

Example ex_C57_auto : match build U64 1 1000 1 false [(5, 3)] with
  | Some h => reachable h /\ is_auto_resize (auto h true) = true /\ held (auto h true) = [(5, 3)] /\ ~ covers (auto h true) 5000 /\
      record h 5000 = Ret (h, RErr ValueOutOfRangeResizeDisabled) /\ match record (auto h true) 5000 with Ret (h', ROk _) => len h' = 4 | _ => False end
  | None => False end.
Proof. case_of. Qed.
