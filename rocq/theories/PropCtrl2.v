(** Property theorems of further control blocks (C38-C49, C101, C104-C109). *)
From Coq Require Import Reals Lra Floats.SpecFloat.
From Flocq Require Import Core.Raux.
From Verif Require Import Prelude Num NumOrd CtrlModel CtrlModel2 CtrlSpec2 CtrlProofs3 CtrlProofs4 CtrlProofs5 CtrlExamples2.
Open Scope Z_scope.

(** C38 *)
Theorem C38_delay : forall (T : Type) (d : signal T) (n : nat) junk is k, (0 < n)%nat -> (k < length is)%nat ->
  nth k (dl_runs (dl_init n junk) is) None = if (k <? n - 1)%nat then None else Some (nth (k - (n - 1)) is d).
Proof. exact @delay_runs. Qed.
Print Assumptions C38_delay.

Theorem C38_buffer_length : forall (delay ts : R) n, (0 < ts)%R -> 1 <= n < 2 ^ 32 ->
  (IZR n * ts <= delay < IZR (n + 1) * ts)%R -> dl_length Rnum delay ts = Ok (Z.to_nat n).
Proof. exact delay_length_real. Qed.
Print Assumptions C38_buffer_length.

(** A delay shorter than the sample time is refused. *)
Theorem C38_too_short : forall (delay ts : R), (0 <= delay < ts)%R -> dl_length Rnum delay ts = Fault.
Proof. exact delay_short_real. Qed.
Print Assumptions C38_too_short.

Example C38_example : dl_runs (dl_init 3 (fun _ => mksig 0%nat 0)) [mksig 1%nat 1; mksig 2%nat 2; mksig 3%nat 3; mksig 4%nat 4]
  = [None; None; Some (mksig 1%nat 1); Some (mksig 2%nat 2)].
Proof. reflexivity. Qed.

(** C39, full statement (false of the code): a delay of n sample times outputs the input of n
    runs earlier. *)
Theorem C39_one_sample_short_refuted : exists n is k, (n <= k)%nat /\
  nth k (dl_runs (dl_init n (fun _ => mksig 0%nat 0)) is) None <> Some (nth (k - n) is (mksig 0%nat 0)) /\
  is = [mksig 1%nat 0; mksig 2%nat 1] /\ n = 1%nat.
Proof. exact delay_refuted. Qed.
Print Assumptions C39_one_sample_short_refuted.

(** A delay of 0.3 s at a sample time of 0.1 s gets a buffer of 2 samples. *)
Theorem C39_rounding_refuted : exists delay ts : Dnum, delay = dlit 3 10 /\ ts = dlit 1 10 /\ dl_length Dnum delay ts = Ok 2%nat.
Proof. exists (dlit 3 10), (dlit 1 10). split; [reflexivity|]. split; [reflexivity|]. exact delay_03_01. Qed.
Print Assumptions C39_rounding_refuted.

(** A negative delay is converted to an unsigned number (undefined). *)
Theorem C39_conversion_refuted : exists delay ts : Dnum, dl_length Dnum delay ts = UB /\
  delay = dlit (-2) 1 /\ ts = dlit 1 1.
Proof. exact delay_conversion. Qed.
Print Assumptions C39_conversion_refuted.

(** What it does: the input of n-1 runs earlier. *)
Theorem C39_delay_partial : forall (n : nat) (is : list (signal nat)) junk k, (0 < n)%nat -> (n <= k < length is)%nat ->
  nth k (dl_runs (dl_init n junk) is) None = Some (nth (k - n + 1) is (mksig 0%nat 0)).
Proof. exact delay_one_short. Qed.
Print Assumptions C39_delay_partial.

Example C39_example : dl_runs (dl_init 1 (fun _ => mksig 0%nat 0)) [mksig 1%nat 1; mksig 2%nat 2]
  = [Some (mksig 1%nat 1); Some (mksig 2%nat 2)].
Proof. reflexivity. Qed.

(** C40, full statement (false of the code): for min < max the output is congruent to the input
    and lies within [min,max]. *)
Theorem C40_congruent_partial : forall mn mx x : R, (mn < mx)%R -> congruent (mx - mn) x (wa_calc Rnum mn mx x).
Proof. exact wa_congruent. Qed.
Print Assumptions C40_congruent_partial.

Theorem C40_inside_partial : forall mn mx x : R, (mn < mx)%R -> ~ congruent (mx - mn) mn x ->
  (mn < wa_calc Rnum mn mx x < mx)%R.
Proof. exact wa_inside. Qed.
Print Assumptions C40_inside_partial.

Theorem C40_identity_inside_partial : forall mn mx x : R, (mn < mx)%R -> (mn <= x <= mx)%R -> wa_calc Rnum mn mx x = x.
Proof. exact wa_identity. Qed.
Print Assumptions C40_identity_inside_partial.

Theorem C40_multiples_not_wrapped_refuted : exists mn mx x : R, (mn < mx)%R /\ wa_calc Rnum mn mx x = x /\ (mx < x)%R.
Proof. exact wa_refuted. Qed.
Print Assumptions C40_multiples_not_wrapped_refuted.

(** In binary64 the branch for negative remainders omits the offset: -122.52 wrapped to
    [-pi,pi] gives 6.28. *)
Theorem C40_double_outside_refuted : exists mn mx x : Dnum, SFltb mn mx = true /\
  SFltb mx (wa_calc Dnum mn mx x) = true /\ neqb Dnum (wa_calc Dnum mn mx x) x = false.
Proof. exact wa_double_ex. Qed.
Print Assumptions C40_double_outside_refuted.

Example C40_example : map (wa_calc Dnum (dlit (-1) 1) (dlit 1 1)) [dlit 5 2; dlit 1 2; dlit (-5) 4; dlit 3 1]
  = [dlit 1 2; dlit 1 2; dlit 3 4; dlit 3 1].
Proof. vm_compute. reflexivity. Qed.

(** C41, full statement (false of the code in its last part): a switch forwards the selected
    input, changes the selection only on request or when armed and triggered, once; combined
    switches change together. *)
Theorem C41_forwards_selected_partial : forall (N : num) n fuel (w : sworld N) k ins lvl w' o ev,
  sw_run N n fuel w k ins lvl = Ok (w', o, ev) -> o = ins (sw_cur (w' k)).
Proof. exact @sw_run_out. Qed.
Print Assumptions C41_forwards_selected_partial.

Theorem C41_request_partial : forall (N : num) n fuel (w : sworld N) k idx w', idx < n ->
  sw_to N n fuel w k idx = Ok w' ->
  only_cur w w' /\ (forall j, below w k j -> sw_cur (w' j) = idx) /\ (forall j, ~ below w k j -> w' j = w j) /\
  (forall j, sw_cur (w' j) = idx \/ w' j = w j).
Proof. exact @sw_to_selected. Qed.
Print Assumptions C41_request_partial.

Theorem C41_invalid_request_partial : forall (N : num) n fuel (w : sworld N) k idx, n <= idx ->
  sw_to N n (S fuel) w k idx = Ok w.
Proof. exact @sw_to_invalid. Qed.
Print Assumptions C41_invalid_request_partial.

Theorem C41_not_armed_partial : forall (N : num) n fuel (w : sworld N) k ins lvl w' o ev,
  sw_armed (w k) = false \/ sw_switched (w k) = true ->
  sw_run N n fuel w k ins lvl = Ok (w', o, ev) -> w' = w /\ ev = false.
Proof. exact @sw_run_idle. Qed.
Print Assumptions C41_not_armed_partial.

Theorem C41_automatic_partial : forall (N : num) n fuel (w : sworld N) k ins lvl w' o ev,
  sw_run N n fuel w k ins lvl = Ok (w', o, ev) ->
  (w' = w /\ ev = false) \/
  (exists level delta next, sw_armed (w k) = true /\ sw_switched (w k) = false /\
     sw_cond (w k) = Some (level, delta, next) /\ lvl = true /\
     nltb N (sv (ins (sw_cur (w k)))) (nadd N level delta) = true /\
     nltb N (nsub N level delta) (sv (ins (sw_cur (w k)))) = true /\
     sw_armed (w' k) = false /\ sw_switched (w' k) = true /\ ev = sw_event (w k) /\
     (next < n -> forall j, below w k j -> sw_cur (w' j) = next) /\
     (forall j, ~ below w k j -> w' j = w j) /\
     (n <= next -> forall j, sw_cur (w' j) = sw_cur (w j))).
Proof. exact @sw_run_cases. Qed.
Print Assumptions C41_automatic_partial.

Theorem C41_not_together_refuted : exists (w w' : sworld Dnum) k c,
  In c (sw_children (w k)) /\ sw_cur (w k) = sw_cur (w c) /\
  (exists idx, sw_to Dnum 2 3 w c idx = Ok w') /\ sw_cur (w' k) <> sw_cur (w' c).
Proof. exact not_together. Qed.
Print Assumptions C41_not_together_refuted.

Example C41_example :
  let w := sw_arm Dnum (sw_condition Dnum pair_world 0 (dlit 5 1) (dlit 1 1) 1) 0 in
  match sw_run Dnum 2 3 w 0 (fun i => mksig (dlit (5 - i) 1) i) true with
  | Ok (w', o, ev) => [sw_cur (w' 0%nat); sw_cur (w' 1%nat); st o]
  | _ => []
  end = [1; 1; 1].
Proof. vm_compute. reflexivity. Qed.

(** C42 *)
Theorem C42_fires_once : forall (V : Type) (inside : V -> V -> V -> bool) lo hi off os k, (k < length os)%nat ->
  (nth k (ch_trig inside (ch_new lo hi off) os) false = true <->
   (exists o, nth_error os k = Some o /\ violates inside off (lo, hi) (firstn k os) o) /\
   forall j, (j < k)%nat -> nth j (ch_trig inside (ch_new lo hi off) os) false = true ->
     existsb resets (skipn (S j) (firstn k os)) = true).
Proof. exact @checker_fires. Qed.
Print Assumptions C42_fires_once.

Example C42_example :
  ch_trig (within Dnum) (ch_new (dlit 0 1) (dlit 2 1) false)
    [ChRun (dlit 3 1) true; ChRegister; ChRun (dlit 1 1) true; ChRun (dlit 3 1) false; ChRun (dlit 3 1) true;
     ChRun (dlit 4 1) true; ChReset; ChRun (dlit (-1) 1) true]
  = [false; false; false; false; true; false; false; true].
Proof. vm_compute. reflexivity. Qed.

(** C43, full statement (false of the code): a signal that contains NaN is out of range. *)
Theorem C43_scalar_nan_partial : forall lo hi : Dnum, within Dnum lo hi dnan = false.
Proof. exact scalar_nan. Qed.
Print Assumptions C43_scalar_nan_partial.

(** For vectors without NaN the check is the element-wise one. *)
Theorem C43_vector_numbers_partial : forall lo hi x : list Dnum, length lo = length x -> length hi = length x ->
  (forall k d, (k < length x)%nat -> nth k x d <> S754_nan /\ nth k lo d <> S754_nan /\ nth k hi d <> S754_nan) ->
  (vec_within Dnum lo hi x = true <->
   forall k d, (k < length x)%nat -> within Dnum (nth k lo d) (nth k hi d) (nth k x d) = true).
Proof. exact vec_numbers. Qed.
Print Assumptions C43_vector_numbers_partial.

Theorem C43_vector_nan_accepted_refuted : exists x : list Dnum, (forall v, In v x -> v = dnan) /\ length x = 2%nat /\
  forall lo hi : list Dnum, length lo = length x -> length hi = length x -> vec_within Dnum lo hi x = true.
Proof. exact vec_nan_two. Qed.
Print Assumptions C43_vector_nan_accepted_refuted.
Theorem C43_vector_nan_accepted_partial : forall lo hi : list Dnum, length lo = length hi ->
  vec_within Dnum lo hi (repeat dnan (length lo)) = true.
Proof. exact vec_nan. Qed.
Print Assumptions C43_vector_nan_accepted_partial.

Example C43_example :
  (vec_within Dnum [dlit 0 1; dlit 0 1] [dlit 1 1; dlit 1 1] [dlit 1 2; dnan],
   vec_within Dnum [dlit 0 1; dlit 0 1] [dlit 1 1; dlit 1 1] [dlit 1 2; dlit 1 1]) = (true, false).
Proof. vm_compute. reflexivity. Qed.

(** C44 *)
Theorem C44_trace : forall (T : Type) (n : nat) junk (os : list (tr_op T)), (0 < n)%nat ->
  exists s, tr_steps (tr_new n junk) os = Ok s /\ tr_get s = lastn n (enabled_samples false os).
Proof. exact @trace_runs. Qed.
Print Assumptions C44_trace.

Example C44_example :
  match tr_steps (tr_new 2 (fun _ => mksig 0%nat 0))
    [TrRun (mksig 9%nat 9); TrEnable true; TrRun (mksig 1%nat 1); TrRun (mksig 2%nat 2); TrRun (mksig 3%nat 3)] with
  | Ok s => tr_get s
  | _ => []
  end = [mksig 2%nat 2; mksig 3%nat 3].
Proof. reflexivity. Qed.

(** C45: t0 :: ts are the clock readings of the runs (first and second reading). *)
Theorem C45_step : forall (N : num) (s : step N) t0 (ts : list (N * N)) k d,
  sp_first s = true -> sp_done s = false -> (k < S (length ts))%nat ->
  nth k (sp_runs N s (t0 :: ts)) d =
  if existsb (fun t => nleb N (nadd N (sp_delay s) (fst t0)) (snd t)) (firstn (S k) (t0 :: ts))
  then nadd N (sp_init s) (sp_height s) else sp_init s.
Proof. exact @step_runs. Qed.
Print Assumptions C45_step.

Example C45_example :
  sp_runs Dnum (sp_new Dnum dnan (dlit 1 1) (dlit 4 1) (dlit 2 1))
    [(dlit 10 1, dlit 10 1); (dlit 11 1, dlit 11 1); (dlit 12 1, dlit 12 1); (dlit 11 1, dlit 11 1)]
  = [dlit 1 1; dlit 1 1; dlit 5 1; dlit 5 1].
Proof. vm_compute. reflexivity. Qed.

(** C46 *)
Theorem C46_written_value : forall safe i,
  (d_isnan (sv i) = true \/ d_isinf (sv i) = true -> po_run safe i = (mksig safe (st i), true)) /\
  (d_isnan (sv i) = false -> d_isinf (sv i) = false -> po_run safe i = (i, false)).
Proof. exact po_spec. Qed.
Print Assumptions C46_written_value.

Example C46_example : map (fun x => po_run (dlit 0 1) (mksig x 3)) [dlit 5 1; dnan; S754_infinity true]
  = [(mksig (dlit 5 1) 3, false); (mksig (dlit 0 1) 3, true); (mksig (dlit 0 1) 3, true)].
Proof. vm_compute. reflexivity. Qed.

(** C109, full statement (false of the code): a value that is NaN or infinite is never written. *)
Theorem C109_finite_partial : forall safe i, d_isnan safe = false -> d_isinf safe = false ->
  d_isnan (sv (fst (po_run safe i))) = false /\ d_isinf (sv (fst (po_run safe i))) = false.
Proof. exact po_finite. Qed.
Print Assumptions C109_finite_partial.

(** A channel without configured safe value writes NaN. *)
Theorem C109_default_safe_value_refuted : exists i, fst (po_run (po_safe None) i) = mksig dnan (st i) /\ d_isnan (sv i) = true.
Proof. exact po_default. Qed.
Print Assumptions C109_default_safe_value_refuted.

Example C109_example : d_isnan (sv (fst (po_run (dlit 0 1) (mksig dnan 3)))) = false.
Proof. reflexivity. Qed.

(** C47 *)
Theorem C47_recurrence : forall nan alpha (i0 : signal R) is,
  lp_runs Rnum (lp_new Rnum nan alpha) (i0 :: is) = mksig (sv i0) (st i0) :: smooth alpha (sv i0) is.
Proof. exact lp_new_smooth. Qed.
Print Assumptions C47_recurrence.

Theorem C47_range : forall nan alpha (a b : R) (i0 : signal R) is, (0 <= alpha <= 1)%R ->
  (forall i, In i (i0 :: is) -> (a <= sv i <= b)%R) ->
  forall o, In o (lp_runs Rnum (lp_new Rnum nan alpha) (i0 :: is)) -> (a <= sv o <= b)%R.
Proof. exact lp_range. Qed.
Print Assumptions C47_range.

Theorem C47_constant : forall nan alpha v (i0 : signal R) is, (forall i, In i (i0 :: is) -> sv i = v) ->
  forall o, In o (lp_runs Rnum (lp_new Rnum nan alpha) (i0 :: is)) -> sv o = v.
Proof. exact lp_constant. Qed.
Print Assumptions C47_constant.

Example C47_example :
  map sv (lp_runs Dnum (lp_new Dnum dnan (dlit 1 2)) [mksig (dlit 4 1) 0; mksig (dlit 8 1) 1; mksig (dlit 0 1) 2])
  = [dlit 4 1; dlit 6 1; dlit 3 1].
Proof. vm_compute. reflexivity. Qed.

(** C48 *)
Theorem C48_moving_average : forall (c : list R) (is : list (signal R)) k d, c <> [] -> (k < length is)%nat ->
  nth k (ma_runs Rnum (ma_new Rnum c) is) d =
  mksig (dot c (window Rnum (length c) (firstn (S k) is))) (st (nth k is d)).
Proof. exact ma_new_runs. Qed.
Print Assumptions C48_moving_average.

Example C48_example :
  map sv (ma_runs Dnum (ma_new Dnum [dlit 1 4; dlit 1 4; dlit 1 2]) [mksig (dlit 4 1) 0; mksig (dlit 8 1) 1; mksig (dlit 0 1) 2])
  = [dlit 2 1; dlit 5 1; dlit 3 1].
Proof. vm_compute. reflexivity. Qed.

(** C49: for every sorting function that meets the contract of std::sort. *)
Theorem C49_median : forall (sort : list Dnum -> list Dnum) (n : nat) (is : list (signal Dnum)) k d,
  sorted_perm Dnum sort -> (0 < n)%nat -> (forall i, In i is -> sv i <> S754_nan) -> (k < length is)%nat ->
  let o := nth k (me_runs sort (me_new Dnum n) is) d in
  rank_elem Dnum (window Dnum n (firstn (S k) is)) (n / 2) (sv o) /\ st o = st (nth k is d).
Proof. exact median_rank_double. Qed.
Print Assumptions C49_median.

Theorem C49_sort_exists : sorted_perm Dnum isort.
Proof. exact D_isort. Qed.
Print Assumptions C49_sort_exists.

Example C49_example :
  map sv (me_runs isort (me_new Dnum 3) [mksig (dlit 4 1) 0; mksig (dlit 8 1) 1; mksig (dlit 1 1) 2; mksig (dlit 9 1) 2])
  = [dlit 0 1; dlit 4 1; dlit 4 1; dlit 8 1].
Proof. vm_compute. reflexivity. Qed.

(** C101, full statement (false of the code): combining switches and switching combined switches
    terminates.  UB: unbounded recursion (for every bound on the depth). *)
Theorem C101_mutual_combine_refuted : exists n, 0 < n /\ forall N : num, exists w : sworld N,
  forall fuel idx, idx < n -> sw_to N n fuel w 0 idx = UB.
Proof. exists 2. split; [lia|]. exact (fun N => mutual_never N 2 ltac:(lia)). Qed.
Print Assumptions C101_mutual_combine_refuted.

Theorem C101_ranked_partial : forall (N : num) n (rank : nat -> nat) fuel (w : sworld N) k idx,
  (forall a c, In c (sw_children (w a)) -> (rank c < rank a)%nat) -> (rank k < fuel)%nat ->
  exists w', sw_to N n fuel w k idx = Ok w' /\ only_cur w w'.
Proof. exact @sw_to_total. Qed.
Print Assumptions C101_ranked_partial.

Theorem C101_combine_each_other_refuted : exists n, 0 < n /\ forall N : num, exists w : sworld N,
  (forall fuel, sw_combine N n (S fuel) w 0 1 = Ok (upd (upd w 0 {| sw_cur := sw_cur (w 0%nat); sw_cond := sw_cond (w 0%nat);
     sw_armed := sw_armed (w 0%nat); sw_switched := sw_switched (w 0%nat); sw_children := [1%nat]; sw_event := sw_event (w 0%nat) |})
     1 (sw_set_cur N (w 1%nat) 0))) /\
  (forall fuel w', sw_combine N n 1 w 0 1 = Ok w' -> sw_combine N n fuel w' 1 0 = UB).
Proof. exists 2. split; [lia|]. exact (fun N => mutual_combine N 2 ltac:(lia)). Qed.
Print Assumptions C101_combine_each_other_refuted.

Example C101_example : match sw_to Dnum 2 2 pair_world 0 1 with Ok w => (sw_cur (w 0%nat), sw_cur (w 1%nat)) | _ => (9, 9) end = (1, 1).
Proof. reflexivity. Qed.

(** C104, full statement (false of the code): after setMinMax the block wraps to the new range. *)
Theorem C104_set_min_max_no_effect_refuted : exists (s : wrap Dnum) mn mx, wa_en s = true /\ nltb Dnum (wa_max s) mx = true /\ nltb Dnum mn (wa_max s) = true /\
  wa_max (wa_set Dnum s mn mx) = wa_max s.
Proof. exists {| wa_en := true; wa_min := dlit 0 1; wa_max := dlit 1 1 |}, (dlit 0 1), (dlit 10 1). repeat split. Qed.
Print Assumptions C104_set_min_max_no_effect_refuted.
Theorem C104_set_min_max_no_effect_partial : forall (N : num) (s : wrap N) mn mx, wa_set N s mn mx = s.
Proof. exact wa_set_same. Qed.
Print Assumptions C104_set_min_max_no_effect_partial.

Example C104_example :
  let s := {| wa_en := true; wa_min := dlit 0 1; wa_max := dlit 1 1 |} in
  wa_run Dnum (wa_set Dnum s (dlit 0 1) (dlit 10 1)) (mksig (dlit 5 2) 0) = mksig (dlit 1 2) 0.
Proof. vm_compute. reflexivity. Qed.

(** C105, full statement (false of the code): every run of the out block of a falling transition
    outputs the newest received signal older than its own time stamp (the oldest if none is). *)
Theorem C105_newest_partial : forall (N : num) (s : transition N) t l1 x l2, tn_steady s = false -> tn_up s = false ->
  tn_buf s = l1 ++ x :: l2 -> (forall y, In y (l1 ++ [x]) -> st y < t) ->
  (forall y, hd_error l2 = Some y -> t <= st y) ->
  exists s', tn_out_run N s t = Ok (s', x) /\ tn_buf s' = [].
Proof. exact @down_newest. Qed.
Print Assumptions C105_newest_partial.

Theorem C105_oldest_partial : forall (N : num) (s : transition N) t x l, tn_steady s = false -> tn_up s = false ->
  tn_buf s = x :: l -> t <= st x -> exists s', tn_out_run N s t = Ok (s', x) /\ tn_buf s' = [].
Proof. exact @down_oldest. Qed.
Print Assumptions C105_oldest_partial.

Theorem C105_received_partial : forall (N : num) (s : transition N) i, tn_steady s = false -> tn_up s = false ->
  tn_buf (tn_in_run N s i) = tn_buf s ++ [i].
Proof. exact @down_in_run. Qed.
Print Assumptions C105_received_partial.

(** The second run without a new signal reads an element of an empty vector. *)
Theorem C105_empty_buffer_refuted : exists (s : transition Dnum) i, tn_up s = false /\ tn_steady s = false /\
  tn_outs (tn_in_run Dnum s i) [10; 20] = UB.
Proof. exact tn_down_twice. Qed.
Print Assumptions C105_empty_buffer_refuted.

Theorem C105_empty_always_partial : forall (N : num) (s : transition N) t, tn_steady s = false -> tn_up s = false ->
  tn_buf s = [] -> tn_out_run N s t = UB.
Proof. exact @down_empty. Qed.
Print Assumptions C105_empty_always_partial.

Example C105_example :
  let s := tn_in_run Dnum (tn_in_run Dnum (tn_new Dnum dnan (mksig (dlit 0 1) 0) (dlit 1 2) false) (mksig (dlit 1 1) 5)) (mksig (dlit 2 1) 10) in
  match tn_out_run Dnum s 8, tn_out_run Dnum s 11 with
  | Ok (_, a), Ok (_, b) => [a; b]
  | _, _ => []
  end = [mksig (dlit 1 1) 5; mksig (dlit 2 1) 10].
Proof. vm_compute. reflexivity. Qed.

(** C106, full statement (false of the code): a switch that reports an automatic switch (event,
    "switched") has changed to its next input. *)
Theorem C106_invalid_next_input_refuted : exists (w w' : sworld Dnum) ins o,
  sw_run Dnum 2 3 w 0 ins true = Ok (w', o, true) /\
  sw_switched (w' 0%nat) = true /\ forall j, sw_cur (w' j) = sw_cur (w j).
Proof. exact bad_next_ex. Qed.
Print Assumptions C106_invalid_next_input_refuted.

Theorem C106_valid_next_input_partial : forall (N : num) n fuel (w : sworld N) k ins lvl w' o level delta next,
  sw_cond (w k) = Some (level, delta, next) -> next < n ->
  sw_run N n fuel w k ins lvl = Ok (w', o, true) -> sw_cur (w' k) = next /\ o = ins next.
Proof. exact @sw_event_valid. Qed.
Print Assumptions C106_valid_next_input_partial.

Example C106_example : match sw_run Dnum 2 3 bad_next 0 (fun _ => mksig (dlit 5 1) 0) true with
  | Ok (w, _, ev) => (ev, sw_switched (w 0%nat), sw_cur (w 0%nat))
  | _ => (false, false, 9)
  end = (true, true, 0).
Proof. exact bad_next_run. Qed.

(** C107, full statement (false of the code): running a constructed switch with connected inputs
    is defined for all arguments and histories. *)
Theorem C107_armed_without_condition_refuted : exists n, 0 < n /\ forall (N : num) fuel ins lvl,
  sw_run N n fuel (sw_arm N (fun _ => sw_new N 0) 0) 0 ins lvl = UB.
Proof. exists 2. split; [lia|]. exact (fun N fuel ins lvl => @armed_uninit N 2 fuel ins lvl ltac:(lia)). Qed.
Print Assumptions C107_armed_without_condition_refuted.
Theorem C107_armed_without_condition_partial : forall (N : num) n fuel ins lvl, 0 < n ->
  sw_run N n fuel (sw_arm N (fun _ => sw_new N 0) 0) 0 ins lvl = UB.
Proof. exact @armed_uninit. Qed.
Print Assumptions C107_armed_without_condition_partial.

Theorem C107_initial_input_unchecked_refuted : exists n init, 0 <= init <= 255 /\ forall (N : num) fuel ins lvl,
  sw_run N n fuel (fun _ => sw_new N init) 0 ins lvl = UB.
Proof. exists 2, 2. split; [lia|]. exact (fun N fuel ins lvl => @init_invalid N 2 fuel ins lvl 2 ltac:(lia) ltac:(lia)). Qed.
Print Assumptions C107_initial_input_unchecked_refuted.
Theorem C107_initial_input_unchecked_partial : forall (N : num) n fuel ins lvl init, 0 <= init <= 255 -> n <= init ->
  sw_run N n fuel (fun _ => sw_new N init) 0 ins lvl = UB.
Proof. exact @init_invalid. Qed.
Print Assumptions C107_initial_input_unchecked_partial.

Theorem C107_not_armed_partial : forall (N : num) n fuel (w : sworld N) k ins lvl, sw_cur (w k) < n -> sw_armed (w k) = false ->
  sw_run N n fuel w k ins lvl = Ok (w, ins (sw_cur (w k)), false).
Proof. exact @sw_run_ok. Qed.
Print Assumptions C107_not_armed_partial.

Example C107_example : match sw_run Dnum 2 3 (fun _ => sw_new Dnum 1) 0 (fun i => mksig (dlit i 1) i) true with
  | Ok (_, o, _) => st o | _ => 9 end = 1.
Proof. reflexivity. Qed.

(** C108, full statement (false of the code): the outputs of a rising transition interpolate
    between the last two signals and stay between them. *)
Theorem C108_interpolates_partial : forall (s : transition Rnum) (ts : list Z) i,
  tn_steady s = false -> tn_up s = true -> (1 <= tn_ratio s)%R ->
  let p := tn_in s in
  0 <= st p <= st i -> st i < 2 ^ 64 ->
  Z.of_nat (length ts) < 2 ^ 32 -> (IZR (Z.of_nat (length ts) - 1) <= tn_ratio s)%R ->
  exists s', tn_outs (tn_in_run Rnum s i) ts =
    Ok (s', map (fun k => interp p i (tn_ratio s) (Z.of_nat k)) (seq 0 (length ts))).
Proof. exact up_interpolates. Qed.
Print Assumptions C108_interpolates_partial.

Theorem C108_between_partial : forall (p i : signal R) ratio c, 0 <= st p <= st i -> (1 <= ratio)%R -> 0 <= c -> (IZR c <= ratio)%R ->
  (Rmin (sv p) (sv i) <= sv (interp p i ratio c) <= Rmax (sv p) (sv i))%R /\
  st p <= st (interp p i ratio c) <= st i.
Proof. exact interp_between. Qed.
Print Assumptions C108_between_partial.

(** More runs than the ratio extrapolate. *)
Theorem C108_extrapolates_refuted : exists (s s' : transition Dnum) (i o1 o2 o3 o4 : signal Dnum),
  tn_up s = true /\ tn_ratio s = dlit 2 1 /\ tn_outs (tn_in_run Dnum s i) [0; 0; 0; 0] = Ok (s', [o1; o2; o3; o4]) /\
  SFltb (sv (tn_in s)) (sv i) = true /\ SFltb (sv i) (sv o4) = true /\ st i < st o4.
Proof. exact tn_extrapolates_ex. Qed.
Print Assumptions C108_extrapolates_refuted.

Example C108_example : match tn_outs tn_start [0; 0; 0; 0] with
  | Ok (_, l) => l
  | _ => []
  end = [mksig (dlit 0 1) 100; mksig (dlit 1 2) 150; mksig (dlit 1 1) 200; mksig (dlit 3 2) 250].
Proof. exact tn_extrapolates. Qed.
