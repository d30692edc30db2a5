(** * Proofs of the properties about the size of a histogram (C59) *)
(*PROPS-IMPORTS Machine Log2Model HistModel Spec Reach Witness Cases *)
From Verif Require Import Machine Log2Model HistModel Spec Reach Bins ListZ Log2Facts Cfg Wf Ops AddFacts SubFacts Exact MoreFacts Witness HeldFacts PfClasses PfRecord PfMerge.
From Coq Require Import ZifyBool ZifyNat.

(** ** C59.  The bins form [buckets()] octaves of a power-of-two number of steps that resolves [sigfig]
    digits; there are just enough octaves for [high()], and all of them are usable *)
Lemma C59_layout_proof : forall h unit, reachable h -> equivalent_range h 0 = Ret unit ->
  exists sub, (exists k, sub = 2 ^ k /\ 1 <= k) /\ 2 * 10 ^ sigfig h <= sub < 4 * 10 ^ sigfig h /\
    distinct_values h = (buckets h + 1) * (sub / 2) /\ 1 <= buckets h <= 64 /\
    (forall v, is_u64 v -> (covers h v <-> v < unit * sub * 2 ^ (buckets h - 1))) /\
    high h < unit * sub * 2 ^ (buckets h - 1) /\
    (1 < buckets h -> unit * sub * 2 ^ (buckets h - 2) <= high h).
Proof.
  intros h unit R EU. pose proof (reachable_wf h R) as W. pose proof (w_cfg h W) as C. pose proof (w_size h W) as SZ.
  pose proof (um_nonneg h C) as UN. pose proof (m_nonneg h C) as MN.
  assert (U : unit = 2 ^ h_um h).
  { rewrite (equivalent_range_ok h C 0) in EU by (unfold u64, u64_max; lia). injection EU as <-. unfold wid, bkt.
    change (Z.log2 0) with 0. rewrite Z.max_l by lia. f_equal. lia. }
  set (b := bkt (h_um h) (h_half_mag h) (h_high h)) in *.
  pose proof (bkt_bound h C (h_high h) (high_u64 h C)) as BB. fold b in BB.
  exists (2 ^ (h_half_mag h + 1)). unfold buckets, high, sigfig, distinct_values. rewrite (s_bc h SZ). fold b.
  assert (ST : unit * 2 ^ (h_half_mag h + 1) * 2 ^ (b + 1 - 1) = 2 ^ top_exp h).
  { rewrite U, <- !Z.pow_add_r by lia. f_equal. unfold top_exp. fold b. lia. }
  assert (HP : 0 < h_high h). { pose proof (c_high h C). pose proof (c_low h C). lia. }
  split. { exists (h_half_mag h + 1). split; auto. lia. }
  split.
  { rewrite (c_m h C). replace (Z.log2_up (2 * 10 ^ h_sigfig h) - 1 + 1) with (Z.log2_up (2 * 10 ^ h_sigfig h)) by lia.
    pose proof (c_sf h C). pose proof (Z.pow_pos_nonneg 10 (h_sigfig h) ltac:(lia) ltac:(lia)).
    pose proof (Z.log2_up_spec (2 * 10 ^ h_sigfig h) ltac:(lia)) as [L1 L2].
    pose proof (Z.log2_up_pos (2 * 10 ^ h_sigfig h) ltac:(lia)).
    split; auto. replace (Z.log2_up (2 * 10 ^ h_sigfig h)) with (Z.succ (Z.pred (Z.log2_up (2 * 10 ^ h_sigfig h)))) by lia.
    rewrite Z.pow_succ_r by lia. lia. }
  split. { change (Z.of_nat (length (h_counts h))) with (zlen (h_counts h)). rewrite (s_len h SZ). fold b.
    replace (2 ^ (h_half_mag h + 1)) with (2 ^ h_half_mag h * 2) by (rewrite Z.pow_add_r by lia; lia). rewrite Z.div_mul by lia. lia. }
  split. { lia. }
  split. { intros v V. rewrite covers_bin by auto. unfold bin. rewrite (idx_in_iff_top h C SZ v V), ST. reflexivity. }
  split. { rewrite ST. apply (idx_in_iff_top h C SZ (h_high h) (high_u64 h C)). apply (idx_in_iff h C SZ). apply high_u64; auto. lia. }
  intros B1. rewrite U, <- !Z.pow_add_r by lia.
  replace (h_um h + (h_half_mag h + 1) + (b + 1 - 2)) with (Z.log2 (h_high h)). { apply Z.log2_spec; auto. }
  unfold b, bkt in *. lia.
Qed.
(*EX
Example ex_C59_layout : match build U8 1000 123456789 2 false [(5, 200)] with
  | Some h => reachable h /\ equivalent_range h 0 = Ret 512 /\ buckets h = 11 /\ distinct_values h = 12 * 128 /\ covers h (512 * 256 * 2 ^ 10 - 1) /\
      ~ covers h (512 * 256 * 2 ^ 10) /\ 512 * 256 * 2 ^ 9 <= high h
  | None => False end.
Proof. case_of. Qed.
EX*)
(** so the number of bins is bounded by the precision alone, whatever is recorded *)
Lemma C59_bounded_proof : forall h, reachable h ->
  match sigfig h with
  | 0 => distinct_values h <= 65
  | 1 => distinct_values h <= 976
  | 2 => distinct_values h <= 7424
  | 3 => distinct_values h <= 56320
  | 4 => distinct_values h <= 835584
  | _ => sigfig h = 5 /\ distinct_values h <= 6291456
  end.
Proof.
  intros h R. pose proof (reachable_wf h R) as W. pose proof (w_cfg h W) as C. pose proof (w_size h W) as SZ.
  pose proof (bkt_bound h C (h_high h) (high_u64 h C)) as BB. pose proof (um_nonneg h C) as UN.
  assert (L : distinct_values h <= (65 - h_half_mag h) * 2 ^ h_half_mag h).
  { unfold distinct_values. change (Z.of_nat (length (h_counts h))) with (zlen (h_counts h)). rewrite (s_len h SZ).
    apply Z.mul_le_mono_nonneg_r; [apply Z.pow_nonneg; lia|lia]. }
  pose proof (c_sf h C) as S. rewrite (c_m h C) in L. unfold sigfig.
  assert (D : h_sigfig h = 0 \/ h_sigfig h = 1 \/ h_sigfig h = 2 \/ h_sigfig h = 3 \/ h_sigfig h = 4 \/ h_sigfig h = 5) by lia.
  repeat destruct D as [D|D]; rewrite D in L |- *; vm_compute Z.log2_up in L; try exact L. split; [auto|exact L].
Qed.
(*EX
Example ex_C59 : match build U64 1000 3600000 2 false [] with
  | Some h => reachable h /\ buckets h = 6 /\ distinct_values h = 896 /\ equivalent_range h 0 = Ret 512 /\
      (512 * 256 * 2 ^ 4 <=? high h) = true /\ (high h <? 512 * 256 * 2 ^ 5) = true
  | None => False end.
Proof. case_of. Qed.
EX*)
(** and that bound is reached by the full range *)
Lemma C59_full_range_proof : forall T sf, 0 <= sf <= 5 -> exists h, new_with_bounds T 1 u64_max sf = Ret (ROk h) /\
  distinct_values h = nth (Z.to_nat sf) [65; 976; 7424; 56320; 835584; 6291456] 0.
Proof.
  intros T sf S. assert (D : sf = 0 \/ sf = 1 \/ sf = 2 \/ sf = 3 \/ sf = 4 \/ sf = 5) by lia.
  assert (L1 : is_u64 1) by (vm_compute; split; discriminate). assert (H1 : is_u64 u64_max) by (vm_compute; split; discriminate).
  assert (S1 : is_u8 sf) by (unfold is_u8; change u8_max with 255; lia).
  destruct (C04_construction_proof T 1 u64_max sf L1 H1 S1) as (r & E & [_ OK] & _).
  destruct OK as (h & ->).
  { split; [vm_compute; split; discriminate|]. split; [vm_compute; discriminate|]. split; [lia|].
    unfold precision_fits. repeat destruct D as [D|D]; rewrite D; vm_compute; discriminate. }
  exists h. split; auto. pose proof (reach_new_with_bounds T 1 u64_max sf h L1 H1 S1 E) as R.
  pose proof (reachable_wf h R) as W. pose proof (w_cfg h W) as C. pose proof (w_size h W) as SZ.
  destruct (C04_new_is_empty_proof T 1 u64_max sf h L1 H1 S1 E) as (L & H & F & _).
  unfold low, high, sigfig in *. unfold distinct_values. change (Z.of_nat (length (h_counts h))) with (zlen (h_counts h)).
  rewrite (s_len h SZ), H, (c_um h C), L, (c_m h C), F.
  repeat destruct D as [D|D]; rewrite D; vm_compute; reflexivity.
Qed.
(*EX
Example ex_C59_full_range : match new_with_bounds U8 1 u64_max 1 with Ret (ROk h) => reachable h /\ distinct_values h = 976 /\ covers h u64_max | _ => False end.
Proof. case_of. Qed.
EX*)
