(** * Vocabulary of the property statements

    Everything here is phrased with the public operations of the model; the theorems in the
    [Props_*] files use only these definitions and the operations themselves. *)
From Verif Require Import Machine Log2Model HistModel.

(** argument types of the API *)
Definition is_u64 (v : Z) : Prop := 0 <= v <= u64_max.
Definition is_u8 (v : Z) : Prop := 0 <= v <= u8_max.
(** [n] is a value of the counter type [T] *)
Definition is_count (T : counter) (n : Z) : Prop := 0 <= n <= cmax T.

(** the value has a bin without resizing *)
Definition covers (h : hist) (v : Z) : Prop :=
  exists i, index_for h v = Ret (Some i) /\ i < distinct_values h.

(** [h'] is the result of recording the samples [l] = (value, count) one after the other, every one
    accepted *)
Inductive records : hist -> list (Z * Z) -> hist -> Prop :=
| records_nil h : records h [] h
| records_cons h v n l h1 h2 :
    is_u64 v -> is_count (h_ctr h) n ->
    record_n h v n = Ret (h1, ROk tt) -> records h1 l h2 -> records h ((v, n) :: l) h2.

(** the same as a program: [None] if some record fails *)
Fixpoint run_records (h : hist) (l : list (Z * Z)) : option hist :=
  match l with
  | [] => Some h
  | (v, n) :: l' =>
      match record_n h v n with
      | Ret (h', ROk _) => run_records h' l'
      | _ => None
      end
  end.

(** number of samples in [l] that [h] cannot tell apart from [v] *)
Fixpoint weight_at (h : hist) (v : Z) (l : list (Z * Z)) : Z :=
  match l with
  | [] => 0
  | (w, n) :: l' =>
      (match equivalent h w v with Ret true => n | _ => 0 end) + weight_at h v l'
  end.
(** number of samples in [l] *)
Fixpoint weight (l : list (Z * Z)) : Z :=
  match l with [] => 0 | (_, n) :: l' => n + weight l' end.
(** number of samples in [l] whose value lies in [a .. b] *)
Fixpoint weight_between (a b : Z) (l : list (Z * Z)) : Z :=
  match l with
  | [] => 0
  | (w, n) :: l' => (if (a <=? w) && (w <=? b) then n else 0) + weight_between a b l'
  end.

(** no counter of [h] can saturate while [l] is recorded *)
Definition no_saturation (h : hist) (l : list (Z * Z)) : Prop :=
  (forall v c, is_u64 v -> covers h v -> count_at h v = Ret c -> c + weight_at h v l <= cmax (h_ctr h)) /\
  (forall v, is_u64 v -> weight_at h v l <= cmax (h_ctr h)) /\
  len h + weight l <= u64_max.

(** what the histogram holds: for each class with samples, its lowest value and its count, in
    increasing order *)
Fixpoint held_from (h : hist) (cs : list Z) (i : Z) : list (Z * Z) :=
  match cs with
  | [] => []
  | c :: cs' =>
      if c =? 0 then held_from h cs' (i + 1)
      else match value_for h i with
           | Ret v => (v, c) :: held_from h cs' (i + 1)
           | Panic => held_from h cs' (i + 1)
           end
  end.
Definition held (h : hist) : list (Z * Z) := held_from h (h_counts h) 0.

(** same precision: equal [low] and [sigfig], hence the same classes *)
Definition same_precision (a b : hist) : Prop := h_low a = h_low b /\ h_sigfig a = h_sigfig b.

(** the unit (a power of two) and [sigfig] decimal digits above it fit into 63 bits *)
Definition precision_fits (lo sf : Z) : Prop := log2_floor_f64 lo + Z.log2_up (2 * 10 ^ sf) <= 63.

(** the values a sample [v] stands for when one was expected every [i]: [v - i], [v - 2i], ... as long
    as they are at least [i] *)
Definition missing_values (v i : Z) : list Z :=
  if i =? 0 then [] else map (fun k => v - Z.of_nat k * i) (seq 1 (Z.to_nat (v / i - 1))).

(** the statistics a histogram keeps agree with what it holds: [len] is the number of samples held ... *)
Definition len_agrees (h : hist) : Prop := len h = weight (held h).
(** ... [max] is in the class of the largest one (in the class of 0 if there are none) ... *)
Definition max_agrees (h : hist) : Prop :=
  forall mx, max h = Ret mx ->
    (forall v n, In (v, n) (held h) -> v <= mx) /\
    ((held h = [] /\ equivalent h mx 0 = Ret true) \/
     (exists v n, In (v, n) (held h) /\ equivalent h v mx = Ret true)).
(** ... and [min_nz] in the class of the smallest one not equivalent to 0 ([u64::MAX] if there are
    none) *)
Definition min_agrees (h : hist) : Prop :=
  forall mn, min_nz h = Ret mn ->
    (forall v n, In (v, n) (held h) -> equivalent h v 0 = Ret false -> mn <= v \/ equivalent h v mn = Ret true) /\
    (((forall v n, In (v, n) (held h) -> equivalent h v 0 = Ret true) /\ mn = u64_max) \/
     (exists v n, In (v, n) (held h) /\ equivalent h v mn = Ret true)).
Definition stats_agree (h : hist) : Prop := len_agrees h /\ max_agrees h /\ min_agrees h.

(** same precision and same number of bins: what two histograms created with the same parameters
    share *)
Definition same_config (a b : hist) : Prop := same_precision a b /\ distinct_values a = distinct_values b.

(** two histograms report the same maximum; [u64::MAX - 1] and [u64::MAX], and different values in the
    class of 0, are not told apart *)
Definition same_max (a b : hist) : Prop :=
  forall x y, max a = Ret x -> max b = Ret y ->
    equivalent a x y = Ret true /\ (equivalent a x 0 = Ret false -> equivalent a x u64_max = Ret false -> x = y).
(** two histograms report the same non-zero minimum (up to the class of [u64::MAX]) *)
Definition same_min_nz (a b : hist) : Prop :=
  forall x y, min_nz a = Ret x -> min_nz b = Ret y ->
    equivalent a x y = Ret true /\ (equivalent a x u64_max = Ret false -> x = y).
