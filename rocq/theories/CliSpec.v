(** * Vocabulary of the statements about the command line program *)
From Coq Require Import Reals.
From Verif Require Import Machine HistModel Spec FloatModel FloatSpec QuantSpec StatSpec LogModel LogSpec SerModel SerSpec CliModel.
From Flocq Require Import Core.
Open Scope Z_scope.

(** [s] consists of the lines [ls]: each ends with a line feed, or with a carriage return and a line feed;
    the last one may end with the text instead, unless it is empty.  *)
Inductive typed : list Z -> list (list Z) -> Prop :=
| typed_end : typed [] []
| typed_last l : l <> [] -> ~ In LF l -> typed l [l]
| typed_lf l s ls : ~ In LF l -> (forall l', l <> l' ++ [CR]) -> typed s ls -> typed (l ++ LF :: s) (l :: ls)
| typed_crlf l s ls : ~ In LF l -> typed s ls -> typed (l ++ CR :: LF :: s) (l :: ls).

(** [l] is the number [v]: one or more decimal digits, maybe after a plus sign, at most [u64::MAX] *)
Definition number_line (l : list Z) (v : Z) : Prop :=
  exists sign ds, l = sign ++ ds /\ (sign = [] \/ sign = [PLUS]) /\ ds <> [] /\ all_digits ds /\ v = decimal_value ds /\ v <= u64_max.

(** the samples of an input: each number once *)
Definition once (vs : list Z) : list (Z * Z) := map (fun v => (v, 1)) vs.

(** how many of the numbers [vs] are at most [x]; [u64::MAX], which some histograms report as the value
    before, counts there already *)
Definition at_most (x : Z) (vs : list Z) : Z :=
  Z.of_nat (length (filter (fun v => (v <=? x) || ((v =? u64_max) && (x =? u64_max - 1))) vs)).

(** the compressor at most doubles its input, up to a constant *)
Definition at_most_doubles (cd : codec) : Prop := forall bs, bytes bs -> zlen (deflate cd bs) <= 2 * zlen bs + 64.

(** [x] is as close to the number [s] as the precision promises *)
Definition near (unit sf s x : Z) : Prop := Z.abs (x - s) < unit \/ Z.abs (x - s) * 10 ^ sf < s.
(** [m] of [n] as a float *)
Definition fraction (m n : Z) : f64 := f64_div (f64_of_u64 m) (f64_of_u64 n).

(** a row of the report, against the numbers [vs] that were typed *)
Record row_ok (unit sf : Z) (vs : list Z) (r : row) : Prop := {
  ro_total : rw_total r = at_most (rw_value r) vs;
  ro_quantile : rw_quantile r = fraction (rw_total r) (zlen vs);
  (** the fraction reached is not below the quantile the row is for; the row is about a number that was typed *)
  ro_reaches : f64_lt (rw_quantile r) (rw_to r) = false;
  ro_number : exists s, In s vs /\ near unit sf s (rw_value r) /\ (s <= rw_value r \/ s = u64_max) /\ at_most s vs = rw_total r;
  (** no typed number below it, up to the precision, reaches the quantile *)
  ro_first : forall s, In s vs -> f64_lt (fraction (at_most s vs) (zlen vs)) (rw_to r) = false ->
    rw_value r <= s \/ near unit sf s (rw_value r);
  ro_inverse : match rw_inverse r with
    | None => rw_to r = f64_one
    | Some d => (real_of (rw_to r) < 1)%R /\ d = f64_div f64_one (f64_sub f64_one (rw_to r))
    end
}.

(** the rows, one after the other *)
Record rows_ok (ticks unit sf : Z) (vs : list Z) (rows : list row) : Prop := {
  rs_each : Forall (row_ok unit sf vs) rows;
  rs_none : vs = [] -> rows = [];
  rs_from : vs <> [] -> exists r rows', rows = r :: rows' /\ rw_to r = f64_zero;
  (** the last row is for 1.0, and has counted every number (unless there are too many for a float to tell) *)
  rs_to : vs <> [] -> exists rows' r, rows = rows' ++ [r] /\ rw_to r = f64_one /\ (zlen vs <= 2 ^ 53 -> rw_total r = zlen vs);
  (** values do not decrease, quantiles do increase: by the tick that halves as 1.0 comes closer, or at once to 1.0 for the last row *)
  rs_steps : forall a x y b, rows = a ++ x :: y :: b ->
    rw_value x <= rw_value y /\ rw_total x <= rw_total y /\ (real_of (rw_to x) < real_of (rw_to y))%R /\
    (tick ticks (real_of (rw_to x)) (real_of (rw_to y)) \/ (rw_value y = rw_value x /\ rw_to y = f64_one /\ b = []))
}.

(** the whole report, against the numbers [vs] that were typed *)
Record report_ok (ticks unit sf : Z) (vs : list Z) (rep : report) : Prop := {
  rp_ok_rows : rows_ok ticks unit sf vs (rp_rows rep);
  rp_ok_len : rp_len rep = zlen vs;
  (** the bins: [rp_buckets] octaves with [sub / 2] classes each, and as many more below them; all numbers fit *)
  rp_ok_bins : exists sub, 2 * 10 ^ sf <= sub < 4 * 10 ^ sf /\ rp_subbuckets rep = (rp_buckets rep + 1) * (sub / 2) /\
    1 <= rp_buckets rep <= 64 /\ forall v, In v vs -> v < unit * sub * 2 ^ (rp_buckets rep - 1);
  rp_ok_max : (vs = [] -> rp_max rep = 0) /\
    forall s, In s vs -> (forall v, In v vs -> v <= s) -> near unit sf s (rp_max rep);
  (** mean and standard deviation: half the precision away from those of the numbers, and rounding *)
  rp_ok_mean : (vs = [] -> rp_mean rep = f64_zero) /\
    (vs <> [] -> finite (rp_mean rep) /\ exists k a, (k <= length vs)%nat /\ StatSpec.within (k + 6) (real_of (rp_mean rep)) a /\
       (Rabs (a - sample_mean (once vs)) <= IZR (unit / 2) + sample_mean (once vs) / (2 * 10 ^ Z.to_nat sf))%R);
  rp_ok_stdev : (vs = [] -> rp_stdev rep = f64_zero) /\
    (vs <> [] -> let r := (IZR (unit / 2) + sample_rms (once vs) / (2 * 10 ^ Z.to_nat sf))%R in
       finite (rp_stdev rep) /\ exists k a, (k <= length vs)%nat /\ StatSpec.within (k + 9) (real_of (rp_stdev rep)) a /\
       (Rabs (a - sample_stdev (once vs)) <= r + ((1 + bpow radix2 (-53)) ^ (k + 7) - 1) * (sample_rms (once vs) + r))%R)
}.
