(** Property theorems of the control system base classes and basic blocks
    (C27-C37, C96-C100, C102, C103). *)
From Coq Require Import Reals Lra Floats.SpecFloat.
From Flocq Require Import Core.Raux.
From Verif Require Import Prelude Num NumOrd CtrlModel CtrlSpec CtrlProofs CtrlProofs2 CtrlExamples.
Open Scope Z_scope.

(** C27 *)
Theorem C27_first_connection_kept : forall os i r,
  conn_runs os i = Some r <-> first_since_disconnect i r os.
Proof. exact conn_first. Qed.
Print Assumptions C27_first_connection_kept.

Theorem C27_connect_result : forall c i r o, connects i r o ->
  (is_connected c i = true -> conn_step c o = (c, false)) /\
  (is_connected c i = false -> snd (conn_step c o) = true /\ fst (conn_step c o) i = Some r /\
     forall j, j <> i -> fst (conn_step c o) j = c j).
Proof. exact conn_result. Qed.
Print Assumptions C27_connect_result.

Theorem C27_reconnect : forall c i r, exists c',
  conn_step (fst (conn_step c (CDisconnect i))) (CConnect i r) = (c', true) /\ c' i = Some r.
Proof. exact reconnect. Qed.
Print Assumptions C27_reconnect.

(** Reading follows the chain of subsystem inputs; it faults at the unconnected end. *)
Theorem C27_read_sound : forall c n i r, get_signal n c i = r -> r <> RLoop -> leads_to c i r.
Proof. exact get_signal_leads. Qed.
Print Assumptions C27_read_sound.

Theorem C27_read_complete : forall c i r, leads_to c i r ->
  exists n, forall k, (n <= k)%nat -> get_signal k c i = r.
Proof. exact leads_get_signal. Qed.
Print Assumptions C27_read_complete.

Theorem C27_read_unconnected : forall c i n, is_connected c i = false -> get_signal (S n) c i = RNotConnected i.
Proof. exact reads_unconnected. Qed.
Print Assumptions C27_read_unconnected.

Example C27_example :
  let os := [CConnect 1 (OSig 5); CConnect 0 (OSub 1); CConnect 0 (OSig 7); CDisconnect 1; CConnect 1 (OSig 6)] in
  (get_signal 3 (conn_runs os) 0, get_signal 3 (conn_runs os) 2, get_signal 3 (conn_runs (firstn 4 os)) 0)
  = (RSignal 6, RNotConnected 2, RNotConnected 1).
Proof. reflexivity. Qed.

(** C28 *)
Theorem C28_ports_checked : forall n i, 0 <= i <= 255 ->
  (i < n -> get_port n i = Ok i) /\ (n <= i -> get_port n i = Fault).
Proof. exact get_port_spec. Qed.
Print Assumptions C28_ports_checked.

Example C28_example : (get_port 3 2, get_port 3 3, get_port 0 0) = (Ok 2, Fault, Fault).
Proof. reflexivity. Qed.

(** C29, full statement (false of the code): no two live signals share an id and no signal has
    the id 0. *)
Theorem C29_ids_unique_partial : forall n, Z.of_nat n <= 65535 ->
  NoDup (map get_id (sids (sig_runs (repeat SNew n)))) /\
  ~ In 0 (map get_id (sids (sig_runs (repeat SNew n)))).
Proof. exact sig_ids_unique. Qed.
Print Assumptions C29_ids_unique_partial.

Theorem C29_counter_wraps_refuted : exists n i j, (i < j < n)%nat /\
  nth i (sids (sig_runs (repeat SNew n))) (-1) = nth j (sids (sig_runs (repeat SNew n))) (-1) /\
  length (sids (sig_runs (repeat SNew n))) = n.
Proof. exact sig_wrap. Qed.
Print Assumptions C29_counter_wraps_refuted.

Theorem C29_reserved_id_refuted : exists n, In 0 (sids (sig_runs (repeat SNew n))).
Proof. exact sig_zero. Qed.
Print Assumptions C29_reserved_id_refuted.

Theorem C29_copy_shares_id_refuted : exists os i j, i <> j /\
  nth i (map get_id (sids (sig_runs os))) 0 = nth j (map get_id (sids (sig_runs os))) 0 /\
  (length (sids (sig_runs os)) <= 2)%nat /\ (i < 2)%nat /\ (j < 2)%nat.
Proof. exact copy_shares. Qed.
Print Assumptions C29_copy_shares_id_refuted.

Example C29_example : map get_id (sids (sig_runs [SNew; SNew; SCopy 0])) = [65536; 131072; 65536].
Proof. reflexivity. Qed.

(** C30 *)
Theorem C30_blocks_in_order : forall os, tdblocks (fold_left td_step os td_new) = still_added os.
Proof. exact td_blocks. Qed.
Print Assumptions C30_blocks_in_order.

Theorem C30_all_blocks_run : forall (W : Type) (brun : nat -> W -> W * bres) t w w',
  tdrunning t = true -> all_run brun (tdblocks t) w w' -> td_run brun t w = (w', TDone).
Proof. exact @td_all. Qed.
Print Assumptions C30_all_blocks_run.

Theorem C30_fault_stops_and_triggers : forall (W : Type) (brun : nat -> W -> W * bres) t w l1 b l2 w1 w2 e,
  tdrunning t = true -> tdblocks t = l1 ++ b :: l2 ->
  all_run brun l1 w w1 -> brun b w1 = (w2, e) -> e <> BNormal ->
  td_run brun t w = (w2, match e with BOther => TOther | _ => if tdsafety t then TEvent else TFault end).
Proof. exact @td_fault. Qed.
Print Assumptions C30_fault_stops_and_triggers.

Theorem C30_stopped : forall (W : Type) (brun : nat -> W -> W * bres) t w,
  tdrunning t = false -> td_run brun t w = (w, TDone).
Proof. exact @td_stopped. Qed.
Print Assumptions C30_stopped.

Theorem C30_no_other_case : forall (W : Type) (brun : nat -> W -> W * bres) l w,
  (exists w', all_run brun l w w') \/
  exists l1 b l2 w1 w2 e, l = l1 ++ b :: l2 /\ all_run brun l1 w w1 /\ brun b w1 = (w2, e) /\ e <> BNormal.
Proof. exact @td_cases. Qed.
Print Assumptions C30_no_other_case.

Example C30_example :
  let brun := fun b (w : list nat) => (w ++ [b], if Nat.eqb b 3 then BNaN else BNormal) in
  let t := fold_left td_step [TDAdd 1; TDAdd 2; TDAdd 3; TDAdd 4; TDRemove 2] td_new in
  (td_run brun t [], td_run brun (td_step t TDRegister) [], td_run brun (td_step t TDStop) [])
  = (([1; 3], TFault), ([1; 3], TEvent), ([], TDone))%nat.
Proof. reflexivity. Qed.

(** C31: all doubles; [SFleb] is the IEEE comparison. *)
Theorem C31_saturation : forall (s : sat Dnum) (i : signal Dnum),
  sat_en s = true -> sv i <> S754_nan -> SFleb (sat_lo s) (sat_hi s) = true ->
  let o := sat_run Dnum s i in
  SFleb (sat_lo s) (sv o) = true /\ SFleb (sv o) (sat_hi s) = true /\
  (SFleb (sat_lo s) (sv i) = true -> SFleb (sv i) (sat_hi s) = true -> sv o = sv i) /\
  (SFltb (sat_hi s) (sv i) = true -> sv o = sat_hi s) /\
  (SFltb (sv i) (sat_lo s) = true -> sv o = sat_lo s) /\ st o = st i.
Proof. exact (sat_run_spec Dnum_ord). Qed.
Print Assumptions C31_saturation.

Theorem C31_saturation_vector : forall (lo hi x : list Dnum) k d,
  length lo = length x -> length hi = length x -> (k < length x)%nat ->
  nth k x d <> S754_nan -> SFleb (nth k lo d) (nth k hi d) = true ->
  let o := nth k (sat_calc_vec Dnum lo hi x) d in
  SFleb (nth k lo d) o = true /\ SFleb o (nth k hi d) = true /\
  (SFleb (nth k lo d) (nth k x d) = true -> SFleb (nth k x d) (nth k hi d) = true -> o = nth k x d) /\
  (SFltb (nth k hi d) (nth k x d) = true -> o = nth k hi d) /\
  (SFltb (nth k x d) (nth k lo d) = true -> o = nth k lo d).
Proof. exact sat_vec_spec. Qed.
Print Assumptions C31_saturation_vector.

Example C31_example :
  let s := {| sat_en := true; sat_lo := dlit (-1) 1; sat_hi := dlit 2 1 |} in
  map (fun x => sv (sat_run Dnum s (mksig x 0))) [dlit 5 1; dlit 1 2; S754_infinity true]
  = [dlit 2 1; dlit 1 2; dlit (-1) 1].
Proof. vm_compute. reflexivity. Qed.

(** C32: exact arithmetic, time stamps increasing. *)
Theorem C32_rate_limited : forall (s : rlim Rnum) is1 i j is2,
  rl_en s = true -> (rl_fall s <= rl_rise s)%R -> st i < st j ->
  exists y z ys1 ys2, rl_outs s (is1 ++ i :: j :: is2) = ys1 ++ y :: z :: ys2 /\ length ys1 = length is1 /\
    st y = st i /\ st z = st j /\
    (rl_fall s * seconds (st j - st i) <= sv z - sv y <= rl_rise s * seconds (st j - st i))%R /\
    ((rl_fall s * seconds (st j - st i) <= sv j - sv y <= rl_rise s * seconds (st j - st i))%R -> sv z = sv j).
Proof. exact rl_consecutive. Qed.
Print Assumptions C32_rate_limited.

(** The first run: the previous value is NaN and the input passes. *)
Theorem C32_first_run_double : forall fall rise (x dt : Dnum), rl_calc Dnum fall rise dnan x dt = x.
Proof. exact rl_first_double. Qed.
Print Assumptions C32_first_run_double.

Example C32_example :
  let s := {| rl_prev := mksig (dlit 0 1) 0; rl_fall := dlit (-1) 1; rl_rise := dlit 2 1; rl_en := true |} in
  map sv (rl_outs s [mksig (dlit 10 1) 1000000000; mksig (dlit 5 2) 2000000000; mksig (dlit 0 1) 3000000000])
  = [dlit 2 1; dlit 5 2; dlit 3 2].
Proof. vm_compute. reflexivity. Qed.

(** C33 *)
Theorem C33_integrator_limits : forall (s : integ Dnum) os, i_inside s -> i_hist s os i_allowed ->
  i_hist s os (fun s o => forall y, snd (i_step Dnum s o) = Some y ->
    SFleb (i_lo s) (sv y) = true /\ SFleb (sv y) (i_hi s) = true).
Proof. exact (i_hist_inside Dnum_ord). Qed.
Print Assumptions C33_integrator_limits.

Theorem C33_integrator_value : forall (s : integ Rnum) en0 i0 l, i_first s = true ->
  (forall l1 l2, l = l1 ++ l2 -> (i_lo s < sv (i_prev s) + integral (st i0) l1 < i_hi s)%R) ->
  i_runs s ((en0, i0) :: l) = (sv (i_prev s) + integral (st i0) l)%R.
Proof. exact i_runs_integral. Qed.
Print Assumptions C33_integrator_value.

Example C33_example :
  let s := {| i_first := true; i_en := true; i_prev := mksig (dlit 1 4) 0; i_hi := dlit 2 1; i_lo := dlit 0 1 |} in
  let ops := map (fun p : Dnum * Z => IRun None (mksig (fst p) (snd p)))
    [(dlit 1 1, 5000000000); (dlit 1 1, 6000000000); (dlit 1 1, 7000000000); (dlit (-1) 1, 8000000000)] in
  map (fun n => sv (i_prev (fold_left (fun s o => fst (i_step Dnum s o)) (firstn n ops) s))) [1; 2; 3; 4]%nat
  = [dlit 1 4; dlit 5 4; dlit 5 4; dlit 1 4].
Proof. vm_compute. reflexivity. Qed.

(** C34: exact arithmetic. *)
Theorem C34_difference_quotient : forall nan (i0 : signal Rnum) (l : list (signal Rnum)),
  map sv (snd (d_runs Rnum (d_new Rnum nan) (i0 :: l))) = 0%R :: quotients i0 0%R l.
Proof. exact d_new_quot. Qed.
Print Assumptions C34_difference_quotient.

Theorem C34_time_stamp_in_the_middle : forall (N : num) (s : diff N) i, d_first s = false ->
  neqb N (secs N (st i)) (secs N (st (d_prev s))) = false ->
  0 <= st i < 2 ^ 63 -> 0 <= st (d_prev s) < 2 ^ 63 ->
  st (snd (d_run N s i)) = (st i + st (d_prev s)) / 2.
Proof. exact @d_time_mid. Qed.
Print Assumptions C34_time_stamp_in_the_middle.

Example C34_example :
  snd (d_runs Dnum (d_new Dnum dnan)
    [mksig (dlit 3 1) 1000000000; mksig (dlit 5 1) 3000000000; mksig (dlit 9 1) 3000000000; mksig (dlit 8 1) 5000000000])
  = [mksig (dlit 0 1) 1000000000; mksig (dlit 1 1) 2000000000; mksig (dlit 1 1) 2000000000; mksig (dlit (-1) 2) 4000000000].
Proof. vm_compute. reflexivity. Qed.

(** C35 *)
Theorem C35_sum_value : forall (s : sum Rnum) is,
  sv (snd (sum_run Rnum s is)) = signed_sum (s_neg s) (sum_vals Rnum s is).
Proof. exact sum_run_value. Qed.
Print Assumptions C35_sum_value.

(** The summands are the inputs, in the first run the presets where given. *)
Theorem C35_summands_later : forall (N : num) (s : sum N) is, s_first s = false -> sum_vals N s is = map sv is.
Proof. exact @sum_vals_later. Qed.
Print Assumptions C35_summands_later.

Theorem C35_summands_first : forall (N : num) (s : sum N) is k d,
  s_first s = true -> length (s_init s) = length is -> (k < length is)%nat ->
  nth k (sum_vals N s is) d = match nth k (s_init s) None with Some v => v | None => nth k (map sv is) d end.
Proof. exact @sum_vals_first. Qed.
Print Assumptions C35_summands_first.

Theorem C35_run_keeps_signs : forall (N : num) (s : sum N) is,
  s_first (fst (sum_run N s is)) = false /\ s_neg (fst (sum_run N s is)) = s_neg s.
Proof. exact @sum_first_cleared. Qed.
Print Assumptions C35_run_keeps_signs.

Theorem C35_negate : forall (N : num) (s : sum N) i, 0 <= i <= 255 ->
  (Z.of_nat (length (s_neg s)) <= i -> sum_negate N s i = Fault) /\
  (i < Z.of_nat (length (s_neg s)) -> exists s', sum_negate N s i = Ok s' /\
     length (s_neg s') = length (s_neg s) /\ s_first s' = s_first s /\ s_init s' = s_init s /\
     forall j, nth j (s_neg s') false = if Nat.eqb j (Z.to_nat i) then true else nth j (s_neg s) false).
Proof. exact @sum_negate_spec. Qed.
Print Assumptions C35_negate.

Theorem C35_preset : forall (N : num) (s : sum N) i v, 0 <= i <= 255 -> length (s_init s) = length (s_neg s) ->
  (Z.of_nat (length (s_neg s)) <= i -> sum_init N s i v = Fault) /\
  (i < Z.of_nat (length (s_neg s)) -> exists s', sum_init N s i v = Ok s' /\
     s_neg s' = s_neg s /\ s_first s' = s_first s /\ length (s_init s') = length (s_neg s') /\
     forall j, nth j (s_init s') None = if Nat.eqb j (Z.to_nat i) then Some v else nth j (s_init s) None).
Proof. exact @sum_init_spec. Qed.
Print Assumptions C35_preset.

Theorem C35_product : forall (a b : signal Rnum),
  mul_run Rnum a b = mksig (sv a * sv b)%R (st a).
Proof. exact (fun a b => eq_refl). Qed.
Print Assumptions C35_product.

Example C35_example :
  match sum_negate Dnum (sum_new Dnum 3) 1 with
  | Ok s => (snd (sum_run Dnum s [mksig (dlit 1 1) 7; mksig (dlit 2 1) 8; mksig (dlit 4 1) 9]),
             match sum_negate Dnum s 3 with Fault => true | _ => false end)
  | _ => (mksig dnan 0, false)
  end = (mksig (dlit 3 1) 7, true).
Proof. vm_compute. reflexivity. Qed.

(** C36 *)
Theorem C36_demux_mux : forall (T : Type) (is : list (signal T)), map sv (demux_run (mux_run is)) = map sv is.
Proof. exact @demux_mux. Qed.
Print Assumptions C36_demux_mux.

Theorem C36_mux_demux : forall (T : Type) (v : signal (list T)), sv v <> [] -> mux_run (demux_run v) = v.
Proof. exact @mux_demux. Qed.
Print Assumptions C36_mux_demux.

Example C36_example : demux_run (mux_run [mksig 1%nat 10; mksig 2%nat 20]) = [mksig 1%nat 10; mksig 2%nat 10].
Proof. reflexivity. Qed.

(** C37, full statement (false of the code): every run moves the gain towards the last accepted
    gain by at most the increment and never past it, finitely many runs reach it, and it always
    lies within [min,max]. *)
Theorem C37_run_moves_to_target_partial : forall (s : gain Rnum), g_smooth s = true -> (0 <= g_diff s)%R ->
  (g_min s <= g_target s <= g_max s)%R -> (g_min s <= g_gain s <= g_max s)%R ->
  let g := g_gain s in let g' := g_adapt Rnum s in let t := g_target s in
  (Rabs (g' - g) <= g_diff s)%R /\
  ((g <= t)%R -> g' = Rmin t (g + g_diff s)) /\
  ((t <= g)%R -> g' = Rmax t (g - g_diff s)).
Proof. exact g_adapt_real. Qed.
Print Assumptions C37_run_moves_to_target_partial.

Theorem C37_reaches_target_partial : forall n (s : gain Rnum) i, g_smooth s = true -> (0 < g_diff s)%R ->
  (g_min s <= g_target s <= g_max s)%R -> (g_min s <= g_gain s <= g_max s)%R ->
  (Rabs (g_target s - g_gain s) <= INR n * g_diff s)%R ->
  g_gain (g_iter n s i) = g_target s.
Proof. exact g_reaches. Qed.
Print Assumptions C37_reaches_target_partial.

Theorem C37_within_limits_partial : forall (s : gain Dnum),
  SFleb (g_min s) (g_max s) = true -> g_adapt Dnum s <> S754_nan ->
  SFleb (g_min s) (g_adapt Dnum s) = true /\ SFleb (g_adapt Dnum s) (g_max s) = true.
Proof. exact (g_adapt_limits Dnum_ord). Qed.
Print Assumptions C37_within_limits_partial.

Theorem C37_set_outside_refused_partial : forall (s : gain Dnum) (c : Dnum),
  SFltb (g_max s) c = true \/ SFltb c (g_min s) = true \/ ~ c <> S754_nan -> g_step Dnum s (GSet c) = s.
Proof. exact (g_set_refused Dnum_ord). Qed.
Print Assumptions C37_set_outside_refused_partial.

(** The gain 5 was accepted last, the run moves away from it. *)
Theorem C37_moves_away_refuted : exists (ops : list (g_op Dnum)) i,
  ops = [@GDiff Dnum (dlit 1 1); @GSet Dnum (dlit 5 1); GSmooth true] /\
  let s := g_runs Dnum (g_new Dnum (dlit 1 1) (dlit 10 1) (dlit 0 1)) ops in
  g_gain s = dlit 5 1 /\ g_target s = dlit 1 1 /\ g_gain (fst (g_run Dnum s i)) = dlit 4 1.
Proof. exact (ex_intro _ gain_ops (ex_intro _ (mksig (dlit 1 1) 0) (conj eq_refl gain_target_old))). Qed.
Print Assumptions C37_moves_away_refuted.

Theorem C37_never_reached_refuted : exists s : gain Dnum,
  g_smooth s = true /\ SFltb (dofZ 0) (g_diff s) = true /\ SFltb (g_gain s) (g_target s) = true /\
  forall i n, g_gain (g_runs Dnum s (repeat (GRun i) n)) = g_gain s.
Proof. exact gain_never. Qed.
Print Assumptions C37_never_reached_refuted.

Example C37_example :
  let s := {| g_gain := dlit 1 1; g_max := dlit 10 1; g_min := dlit 0 1; g_target := dlit 5 2; g_diff := dlit 1 1;
              g_en := true; g_smooth := true |} in
  map (fun n => g_gain (g_runs Dnum s (repeat (GRun (mksig (dlit 1 1) 0)) n))) [1; 2; 3]%nat
  = [dlit 2 1; dlit 5 2; dlit 5 2].
Proof. vm_compute. reflexivity. Qed.

(** C96, full statement (false of the code): when connect returns true the input is connected. *)
Theorem C96_connect_null_refuted : exists c i,
  conn_step c (CConnectPtr i None) = (upd c i None, true) /\
  is_connected (fst (conn_step c (CConnectPtr i None))) i = false.
Proof. exact connect_null. Qed.
Print Assumptions C96_connect_null_refuted.

Theorem C96_connect_partial : forall c i r o, connects i r o -> snd (conn_step c o) = true ->
  is_connected (fst (conn_step c o)) i = true.
Proof. exact connect_true. Qed.
Print Assumptions C96_connect_partial.

Example C96_example : conn_step conns_new (CConnect 0 (OSig 1)) = (upd conns_new 0 (Some (OSig 1)), true)%nat.
Proof. reflexivity. Qed.

(** C97, full statement (false of the code): a port number beyond the last port is refused, for
    every value of the caller's index type. *)
Theorem C97_index_truncated_refuted : exists n i, n <= i /\ get_port n i = Ok 0.
Proof. exact port_256. Qed.
Print Assumptions C97_index_truncated_refuted.

Theorem C97_every_index_plus_256_partial : forall n i, 0 <= i <= 255 -> i < n -> get_port n (i + 256) = Ok i.
Proof. exact port_wraps. Qed.
Print Assumptions C97_every_index_plus_256_partial.

Theorem C97_index_refused_partial : forall n i, n <= i mod 256 -> get_port n i = Fault.
Proof. exact port_refused. Qed.
Print Assumptions C97_index_refused_partial.

Example C97_example : (get_port 2 255, get_port 2 256, get_port 2 (-1)) = (Fault, Ok 0, Fault).
Proof. reflexivity. Qed.

(** C98, full statement (false of the code): when the integral passes a limit the output is the
    limit ("saturates"). *)
Theorem C98_no_saturation_refuted : exists (s : integ Dnum) i,
  SFltb (i_hi s) (nadd Dnum (sv (i_prev s)) (nmul Dnum (sv i) (dlit 1 1))) = true /\
  i_en s = true /\ st i - st (i_prev s) = 1000000000 /\
  snd (i_run Dnum s None i) = mksig (sv (i_prev s)) (st i) /\ SFltb (sv (i_prev s)) (i_hi s) = true.
Proof. exact i_unsaturated. Qed.
Print Assumptions C98_no_saturation_refuted.

(** What it does: it keeps the previous value. *)
Theorem C98_keeps_previous_partial : forall (s : integ Dnum) i, i_first s = false -> i_en s = true ->
  let v := nadd Dnum (sv (i_prev s)) (nmul Dnum (sv i) (nsub Dnum (secs Dnum (st i)) (secs Dnum (st (i_prev s))))) in
  (SFltb (i_lo s) v = true -> SFltb v (i_hi s) = true -> sv (snd (i_run Dnum s None i)) = v) /\
  (SFltb v (i_hi s) = false \/ SFltb (i_lo s) v = false -> sv (snd (i_run Dnum s None i)) = sv (i_prev s)).
Proof. exact i_keeps. Qed.
Print Assumptions C98_keeps_previous_partial.

Example C98_example : snd (i_run Dnum i_sat_state None (mksig (dlit 1 2) 1000000000)) = mksig (dlit 3 4) 1000000000.
Proof. exact i_not_saturated. Qed.

(** C99: the parabolic gain characteristic. *)
Theorem C99_parabolic_odd : forall g p x : R, (0 <= p)%R -> parabolic g p (- x) = (- parabolic g p x)%R.
Proof. exact parabolic_odd. Qed.
Print Assumptions C99_parabolic_odd.

Theorem C99_parabolic_linear_part : forall g p x : R, (0 <= p)%R -> (0 <= x <= p)%R -> parabolic g p x = (g * x)%R.
Proof. exact parabolic_low. Qed.
Print Assumptions C99_parabolic_linear_part.

Theorem C99_parabolic_root_part : forall g p x : R, (0 <= p)%R -> (p <= x)%R ->
  parabolic g p x = (g * sqrt (p * (2 * x - p)))%R.
Proof. exact parabolic_high. Qed.
Print Assumptions C99_parabolic_root_part.

Theorem C99_parabolic_below_linear : forall g p x : R, (0 <= g)%R -> (0 <= p)%R -> (0 <= x)%R ->
  (0 <= parabolic g p x <= g * x)%R.
Proof. exact parabolic_below. Qed.
Print Assumptions C99_parabolic_below_linear.

Theorem C99_parabolic_monotone : forall g p x y : R, (0 <= g)%R -> (0 <= p)%R -> (x <= y)%R ->
  (parabolic g p x <= parabolic g p y)%R.
Proof. exact parabolic_mono. Qed.
Print Assumptions C99_parabolic_monotone.

Example C99_example : parabolic 2 2 5 = 8%R.
Proof. exact parabolic_225. Qed.

(** C100, full statement (false of the code): setting or getting an output of a subsystem that
    does not exist or is not set is refused with a fault. *)
Theorem C100_set_out_unchecked_refuted : exists M i, 0 <= i <= 255 /\ forall out o, set_out M out o i = UB.
Proof. exists 2, 2. split; [lia|]. intros out o. apply set_out_beyond; lia. Qed.
Print Assumptions C100_set_out_unchecked_refuted.
Theorem C100_set_out_beyond_partial : forall M out o i, 0 <= i <= 255 -> M <= i -> set_out M out o i = UB.
Proof. exact set_out_beyond. Qed.
Print Assumptions C100_set_out_beyond_partial.

Theorem C100_get_out_unset_refuted : exists M i, 0 <= i < M /\ sub_get_out M (fun _ => None) i = UB.
Proof. exists 2, 1. split; [lia|]. apply sub_out_unset; [lia|lia|reflexivity]. Qed.
Print Assumptions C100_get_out_unset_refuted.
Theorem C100_get_out_unset_partial : forall M out i, 0 <= i <= 255 -> i < M -> out i = None -> sub_get_out M out i = UB.
Proof. exact sub_out_unset. Qed.
Print Assumptions C100_get_out_unset_partial.

Theorem C100_get_out_partial : forall M out i, 0 <= i <= 255 ->
  (M <= i -> sub_get_out M out i = Fault) /\
  (i < M -> forall o, out i = Some o -> sub_get_out M out i = Ok o).
Proof. exact sub_out_spec. Qed.
Print Assumptions C100_get_out_partial.

Example C100_example :
  match set_out 2 (fun _ => None) 7%nat 1 with
  | Ok out => [sub_get_out 2 out 1; sub_get_out 2 out 0; sub_get_out 2 out 2]
  | _ => []
  end = [Ok 7%nat; UB; Fault].
Proof. reflexivity. Qed.

(** C102, full statement (false of the code): signals with different time stamps are different
    in time for the blocks (D, I, RateLimiter convert to double seconds). *)
Theorem C102_time_stamps_collide_refuted : exists t t', t <> t' /\ 0 <= t < 2 ^ 64 /\ 0 <= t' < 2 ^ 64 /\
  secs Dnum t = secs Dnum t'.
Proof. exact secs_collide. Qed.
Print Assumptions C102_time_stamps_collide_refuted.

Theorem C102_quotient_lost_refuted : exists i0 i1 : signal Dnum, st i0 <> st i1 /\
  map sv (snd (d_runs Dnum (d_new Dnum dnan) [i0; i1])) = [dlit 0 1; dlit 0 1] /\
  sv i0 = dlit 0 1 /\ sv i1 = dlit 1 1.
Proof. exact d_collide. Qed.
Print Assumptions C102_quotient_lost_refuted.

Theorem C102_exact_arithmetic_partial : forall a b, neqb Rnum (secs Rnum a) (secs Rnum b) = Z.eqb a b.
Proof. exact secs_eqb. Qed.
Print Assumptions C102_exact_arithmetic_partial.

Example C102_example : neqb Dnum (secs Dnum 1000) (secs Dnum 1001) = false.
Proof. vm_compute. reflexivity. Qed.

(** C103, full statement (false of the code): an integrator outputs a number in every run also
    when no initial condition was set. *)
Theorem C103_integrator_nan_refuted : exists (o : i_op Dnum) y, (forall v, o <> IInit v) /\
  snd (i_step Dnum (i_new Dnum dnan (dlit (-100) 1) (dlit 100 1)) o) = Some y /\ sv y = dnan.
Proof. exact i_nan_run. Qed.
Print Assumptions C103_integrator_nan_refuted.
Theorem C103_integrator_nan_partial : forall lowest greatest (l : list (i_op Dnum)),
  (forall o, In o l -> match o with IInit _ => False | _ => True end) ->
  i_hist (i_new Dnum dnan lowest greatest) l
    (fun s o => forall y, snd (i_step Dnum s o) = Some y -> sv y = dnan).
Proof. exact (fun lo hi l => i_nan l (i_new Dnum dnan lo hi) eq_refl). Qed.
Print Assumptions C103_integrator_nan_partial.

Theorem C103_integrator_number_partial : forall (s : integ Dnum) os, i_inside s -> i_hist s os i_allowed ->
  i_hist s os (fun s o => forall y, snd (i_step Dnum s o) = Some y -> sv y <> S754_nan).
Proof. exact i_hist_number. Qed.
Print Assumptions C103_integrator_number_partial.

Example C103_example :
  snd (i_run Dnum (i_new Dnum dnan (dlit (-100) 1) (dlit 100 1)) (Some true) (mksig (dlit 1 1) 5)) = mksig dnan 5.
Proof. vm_compute. reflexivity. Qed.
