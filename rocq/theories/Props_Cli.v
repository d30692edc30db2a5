(** Property theorems; the proofs are in [PfCli].  Generated by tools/gen_theorems.py. *)
From Verif Require Import Machine Log2Model HistModel Spec Reach Witness Cases CasesSer FloatModel FloatSpec IterModel IterSpec QuantSpec StatSpec SerModel SerSpec LogModel LogSpec CliModel CliSpec PfCli.
From Coq Require Import String Reals List Lia.
From Flocq Require Import Core.
Import ListNotations.
Open Scope Z_scope.


(** Every input has exactly one division into lines. *)
Theorem C77_lines : forall s, exists ls, typed s ls /\ forall ls', typed s ls' -> ls' = ls.
Proof. exact C77_lines_proof. Qed.
Print Assumptions C77_lines.

(** a line that ends with a carriage return and a line feed, an empty one, and one without end *)
Example ex_C77_lines : typed (text "12" ++ [CR; LF; LF] ++ text "+7") [text "12"; []; text "+7"] /\ number_line (text "12") 12 /\ number_line (text "+7") 7 /\
  ~ number_line [] 0.
Proof.
  split; [apply (typed_crlf (text "12")); [cbn; intuition discriminate|]; apply (typed_lf []); [auto|intros [|] ?; discriminate|]; apply typed_last; [discriminate|cbn; intuition discriminate]|].
  split; [exists [], (text "12")|split; [exists [PLUS], (text "7")|]].
  1, 2: split; [reflexivity|]; split; [auto|]; split; [discriminate|]; split; [repeat constructor; discriminate|]; split; [reflexivity|discriminate].
  intros (sg & ds & E & _ & N & _). destruct sg; [|discriminate]. cbn in E. congruence.
Qed.

(** [serialize]: if every line of the input is a number the histogram takes, they are recorded, each once, and
    the resulting histogram is written. *)
Theorem C77_serialize : forall cd junk lo hi sf (resize compressed : bool) stdin ls vs h0, is_u64 lo -> is_u64 hi -> is_u8 sf ->
  new_with_bounds U64 lo hi sf = Ret (ROk h0) -> typed stdin ls -> Forall2 number_line ls vs -> (resize = true \/ Forall (covers h0) vs) ->
  exists h, records (auto h0 resize) (once vs) h /\
    forall bs, main_serialize cd junk lo hi sf resize compressed stdin = Ret bs <->
      (if compressed then v2_deflate_serialize cd junk h else v2_serialize junk h) = Ret (ROk bs).
Proof. exact C77_serialize_proof. Qed.
Print Assumptions C77_serialize.

(** three numbers, one of them with a plus sign and a carriage return, for a histogram of 1 to 10000 *)
Definition sample_text : list Z := text "5" ++ [LF] ++ text "+333" ++ [CR; LF] ++ text "5".
Example ex_C77_input : typed sample_text [text "5"; text "+333"; text "5"] /\ Forall2 number_line [text "5"; text "+333"; text "5"] [5; 333; 5].
Proof.
  split.
  - apply (typed_lf (text "5")); [cbn; intuition discriminate|intros [|? [|? ?]] E; discriminate E|]. apply (typed_crlf (text "+333")); [cbn; intuition discriminate|]. apply typed_last; [discriminate|cbn; intuition discriminate].
  - constructor; [exists [], (text "5")|constructor; [exists [PLUS], (text "333")|constructor; [exists [], (text "5")|constructor]]].
    all: split; [reflexivity|]; split; [auto|]; split; [discriminate|]; split; [repeat constructor; discriminate|]; split; [reflexivity|discriminate].
Qed.
Example ex_C77_covers : match new_with_bounds U64 1 10000 1 with
  | Ret (ROk h0) => index_for h0 5 = Ret (Some 5) /\ index_for h0 333 = Ret (Some 84) /\ distinct_values h0 = 176 /\ equivalent_range h0 0 = Ret 1
  | _ => False end.
Proof. vm_compute. repeat split. Qed.
Example ex_C77_serialize : match build U64 1 10000 1 false (once [5; 333; 5]) with
  | Some h => held h = [(5, 2); (320, 1)] /\
      main_serialize plain (fun _ => 7) 1 10000 1 false false sample_text = (r <- v2_serialize (fun _ => 7) h ;; expect r) /\
      match main_serialize plain (fun _ => 7) 1 10000 1 false false sample_text with Ret bs => zlen bs = 45 | Panic => False end
  | None => False end.
Proof. vm_compute. repeat split. Qed.

(** Otherwise it fails without writing anything: a line that is not a number makes it panic, a number that is
    out of range is an error, and so the exit of the program.  The first such line decides. *)
Theorem C77_rejects : forall cd junk lo hi sf (resize compressed : bool) stdin ls vs l rest h0, is_u64 lo -> is_u64 hi -> is_u8 sf ->
  new_with_bounds U64 lo hi sf = Ret (ROk h0) -> typed stdin (ls ++ l :: rest) -> Forall2 number_line ls vs -> (resize = true \/ Forall (covers h0) vs) ->
  ((forall v, ~ number_line l v) -> cli_serialize cd junk stdin (auto h0 resize) compressed = Panic) /\
  (forall v, number_line l v -> resize = false -> ~ covers h0 v ->
     cli_serialize cd junk stdin (auto h0 resize) compressed = Ret (RErr (HistogramRecord ValueOutOfRangeResizeDisabled))) /\
  ((forall v, number_line l v -> resize = false /\ ~ covers h0 v) -> main_serialize cd junk lo hi sf resize compressed stdin = Panic).
Proof. exact C77_rejects_proof. Qed.
Print Assumptions C77_rejects.

(** a line with a space, a number out of range, and the same with [resize] *)
Example ex_C77_rejects : match new_with_bounds U64 1 100 1 with
  | Ret (ROk h0) =>
      cli_serialize plain (fun _ => 7) (text "5" ++ [LF] ++ text "6 " ++ [LF] ++ text "999999") (auto h0 false) false = Panic /\
      cli_serialize plain (fun _ => 7) (text "5" ++ [LF] ++ text "999999" ++ [LF] ++ text "x") (auto h0 false) false = Ret (RErr (HistogramRecord ValueOutOfRangeResizeDisabled)) /\
      main_serialize plain (fun _ => 7) 1 100 1 false false (text "5" ++ [LF] ++ text "999999") = Panic /\
      main_serialize plain (fun _ => 7) 1 100 1 true false (text "5" ++ [LF] ++ text "999999") <> Panic
  | _ => False end.
Proof. vm_compute. repeat split; discriminate. Qed.

(** ** C77.  The pipe [serialize | iter-quantiles]: numbers typed one per line come out as the report that
    describes them, whatever the parameters, with or without compression.  [report_ok] says what the report
    states about the numbers. *)
Theorem C77_report : forall checks cd junk log2 lo hi sf (resize compressed : bool) ticks stdin ls vs h0 unit,
  is_u64 lo -> is_u64 hi -> is_u8 sf -> new_with_bounds U64 lo hi sf = Ret (ROk h0) -> equivalent_range h0 0 = Ret unit ->
  typed stdin ls -> Forall2 number_line ls vs -> (resize = true \/ Forall (covers h0) vs) -> zlen vs <= i64_max ->
  (compressed = true -> lossless cd /\ codec_ok cd /\ at_most_doubles cd) -> log2_ok log2 -> 0 < ticks < 2 ^ 32 ->
  exists out rep, main_serialize cd junk lo hi sf resize compressed stdin = Ret out /\
    cli_quantiles checks cd log2 ticks out (ROk rep) /\ (forall r, cli_quantiles checks cd log2 ticks out r -> r = ROk rep) /\
    report_ok ticks unit sf vs rep /\
    (resize = false -> rp_buckets rep = buckets h0 /\ rp_subbuckets rep = distinct_values h0).
Proof. exact C77_report_proof. Qed.
Print Assumptions C77_report.

(** the three numbers through the pipe, compressed: the rows (value, total so far, thousandths of the quantile
    reached and of the one iterated to, whether the last column is a number), and the numbers at the end *)
Example ex_C77_report : match main_serialize plain (fun _ => 7) 1 10000 1 false true sample_text with
  | Ret out => match deserialize true plain [] U64 out with
      | Ret (ROk (h, rest)) => match iter_quantiles h 1 with
          | Ret it => match iter_collect 20 (pk_quantile floor_log2) h it with
              | Ret xs => match print_report h xs with
                  | Ret rep => map (fun r => (rw_value r, rw_total r, f64_to_u64 (f64_mul (rw_quantile r) (f64_of_u64 1000)), f64_to_u64 (f64_mul (rw_to r) (f64_of_u64 1000)), match rw_inverse r with Some d => f64_to_u64 d | None => 0 end)) (rp_rows rep) =
                        [(5, 2, 666, 0, 1); (5, 2, 666, 500, 2); (335, 3, 1000, 750, 4); (335, 3, 1000, 1000, 0)] /\
                      rp_len rep = 3 /\ rp_max rep = 335 /\ f64_to_u64 (rp_mean rep) = 112 /\ f64_to_u64 (rp_stdev rep) = 152
                  | _ => False end
              | _ => False end
          | _ => False end
      | _ => False end
  | _ => False end.
Proof. float_case. Qed.
Example ex_C77_codec : lossless plain /\ codec_ok plain /\ at_most_doubles plain.
Proof. split; [exact plain_lossless|]. split; [exact plain_ok|]. intros bs B. change (zlen bs <= 2 * zlen bs + 64). unfold zlen. lia. Qed.

(** With 0 ticks per half distance, [iter-quantiles] never prints a report. *)
Theorem C77_no_ticks : forall checks cd log2 stdin rep, ~ cli_quantiles checks cd log2 0 stdin (ROk rep).
Proof. exact C77_no_ticks_proof. Qed.
Print Assumptions C77_no_ticks.

Example ex_C77_no_ticks : match main_serialize plain (fun _ => 7) 1 10000 1 false true sample_text with
  | Ret out => match deserialize true plain [] U64 out with Ret (ROk (h, _)) => iter_quantiles h 0 = Panic | _ => False end
  | _ => False end.
Proof. float_case. Qed.
