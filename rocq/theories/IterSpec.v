(** * Vocabulary of the statements about iterators *)
From Verif Require Import Machine HistModel Spec FloatModel IterModel.

(** calling [next] until it returns [None] gives exactly [items] *)
Inductive drains {P} (pk : picker P) (h : hist) : iter P -> list item -> Prop :=
| drains_end it it' : iter_next pk h it = Ret (it', None) -> drains pk h it []
| drains_step it it' x xs :
    iter_next pk h it = Ret (it', Some x) -> drains pk h it' xs -> drains pk h it (x :: xs).

(** calling [next] some number of times gives [items] and leaves the iterator [it'] *)
Inductive takes {P} (pk : picker P) (h : hist) : iter P -> list item -> iter P -> Prop :=
| takes_none it : takes pk h it [] it
| takes_step it it1 it2 x xs :
    iter_next pk h it = Ret (it1, Some x) -> takes pk h it1 xs it2 -> takes pk h it (x :: xs) it2.

(** [items], one after the other, account for the samples of [h]: each item belongs to one class (given
    by its lowest value, in [ws]), carries that class's count, and the counts reported so far,
    including its own, add up to the number of samples in that class and below; the quantile is that
    number over [len].  The classes never go backwards. *)
Fixpoint accounts (h : hist) (so_far prev : Z) (items : list item) (ws : list Z) : Prop :=
  match items, ws with
  | [], [] => True
  | x :: xs, w :: ws' =>
      let reported := so_far + iv_since x in
      is_u64 w /\ covers h w /\ prev <= w /\ lowest_equivalent h w = Ret w /\
      count_at h w = Ret (iv_count x) /\
      reported = weight_between 0 w (held h) /\
      iv_quantile x = f64_div (f64_of_u64 reported) (f64_of_u64 (len h)) /\
      accounts h reported w xs ws'
  | _, _ => False
  end.

(** total of what the items report *)
Fixpoint reported (items : list item) : Z :=
  match items with [] => 0 | x :: xs => iv_since x + reported xs end.

(** the items walk through all classes from [start] on, without a gap, carrying their counts; after the
    last one nothing has a bin *)
Fixpoint walks_classes (h : hist) (start : Z) (items : list item) : Prop :=
  match items with
  | [] => start = u64_max \/ (forall w, is_u64 w -> start <= w -> ~ covers h w)
  | x :: xs =>
      is_u64 start /\ covers h start /\ lowest_equivalent h start = Ret start /\
      highest_equivalent h start = Ret (iv_value x) /\
      count_at h start = Ret (iv_count x) /\ iv_since x = iv_count x /\
      walks_classes h (iv_value x + 1) xs
  end.

(** what post-recording correction adds for samples [l] (lowest value of the class and count): the top of
    the class and the values missing below it *)
Fixpoint corrected_samples (h : hist) (l : list (Z * Z)) (i : Z) : list (Z * Z) :=
  match l with
  | [] => []
  | (v, n) :: l' =>
      (match highest_equivalent h v with
       | Ret t => (t, n) :: map (fun x => (x, n)) (missing_values t i)
       | Panic => [] end) ++ corrected_samples h l' i
  end.

(** the items of an iterator that reports at given levels: one item per level, with the count of the
    class of that level ([count_at]), the samples up to that class not reported at an earlier level (the
    type saturates at [u64::MAX]), and the fraction of the samples reached *)
Fixpoint at_levels (h : hist) (so_far : Z) (items : list item) (levels : list Z) : Prop :=
  match items, levels with
  | [], [] => True
  | x :: xs, l :: ls =>
      let reached := weight_between 0 l (held h) in
      is_u64 l /\ iv_value x = l /\ count_at h l = Ret (iv_count x) /\
      iv_since x = Z.min u64_max (reached - so_far) /\
      iv_quantile x = f64_div (f64_of_u64 (Z.min u64_max reached)) (f64_of_u64 (len h)) /\
      iv_qto x = iv_quantile x /\
      at_levels h reached xs ls
  | _, _ => False
  end.

(** the levels of [iter_linear]: [step - 1], [2 * step - 1], ... *)
Definition linear_level (step : Z) (k : nat) : Z := (Z.of_nat k + 1) * step - 1.
(** [iter_linear] goes on after level [l], to [l'], as long as it has not reached the class of the
    maximum ([lo] is its lowest value) or the next level is in the same class *)
Definition goes_on (h : hist) (lo l l' : Z) : Prop :=
  l < lo \/ (covers h l /\ equivalent h l l' = Ret true).

(** the levels of [iter_log] after the first: the level grows by the factor [base] in f64 arithmetic, is
    truncated to an integer and reduced by one *)
Fixpoint log_levels (x base : f64) (n : nat) : list Z :=
  match n with
  | O => []
  | S n' => let x' := f64_mul x base in (f64_to_u64 x' - 1) :: log_levels x' base n'
  end.
