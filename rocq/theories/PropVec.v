(** Properties of blocks whose signals are vectors. *)
From Coq Require Import Reals Floats.SpecFloat List ZArith Bool Lia Lra.
From Flocq Require Import Core.Raux.
From Verif Require Import Prelude Num NumOrd CtrlModel CtrlModel2 VecModel VecSpec VecProofs VecProofs2.
Import ListNotations.
Open Scope Z_scope.

(** ** C281: saturation, rate limiter and wrap around treat each element by itself *)
Theorem C281_saturation_per_element : forall (N : num) n en lo hi (i : signal (list N)) k,
  length lo = n -> length hi = n -> sized n i -> (k < n)%nat ->
  at_ N k (vsat_run N en lo hi i) = sat_run N {| sat_en := en; sat_lo := elt N k lo; sat_hi := elt N k hi |} (at_ N k i).
Proof. exact vsat_elt. Qed.
Print Assumptions C281_saturation_per_element.
Theorem C281_rate_limiter_per_element : forall (N : num) n k, (k < n)%nat ->
  forall is s, sized n (vr_prev s) -> Forall (sized n) is ->
  map (at_ N k) (outs (vrl_run N) s is) = outs (rl_run N) (rlim_at N k s) (map (at_ N k) is).
Proof. exact vrl_outs. Qed.
Print Assumptions C281_rate_limiter_per_element.
Theorem C281_wrap_around_per_element : forall (N : num) n en r (i : signal (list N)) k, sized n i -> (k < n)%nat ->
  at_ N k (vwa_run N en r i) =
  wa_run N {| wa_en := en; wa_min := match r with ROne a _ => a | REach a _ => elt N k a end;
              wa_max := match r with ROne _ b => b | REach _ b => elt N k b end |} (at_ N k i).
Proof. exact vwa_elt. Qed.
Print Assumptions C281_wrap_around_per_element.
Example C281_ex : map sv (outs (vrl_run Dnum)
    {| vr_prev := mksig [dofZ 0; dofZ 0] 0; vr_rates := REach [dofZ (-1); dofZ (-3)] [dofZ 1; dofZ 3]; vr_en := true |}
    [mksig [dofZ 10; dofZ (-10)] 1000000000; mksig [dofZ 10; dofZ (-10)] 2000000000])
  = [[dofZ 1; dofZ (-3)]; [dofZ 2; dofZ (-6)]].
Proof. vm_compute. reflexivity. Qed.

(** ** C282: D, low pass, moving average and sum treat each element by itself *)
Theorem C282_differentiator_per_element : forall (N : num) n k, (k < n)%nat ->
  forall is s, sized n (vd_prev s) -> length (vd_out s) = n -> Forall (sized n) is ->
  map (at_ N k) (outs (vd_run N) s is) = outs (d_run N) (diff_at N k s) (map (at_ N k) is).
Proof. exact vd_outs. Qed.
Print Assumptions C282_differentiator_per_element.
Theorem C282_low_pass_per_element : forall (N : num) n k, (k < n)%nat ->
  forall is s, length (vl_prev s) = n -> Forall (sized n) is ->
  map (at_ N k) (outs (vlp_run N) s is) = outs (lp_run N) (lpf_at N k s) (map (at_ N k) is).
Proof. exact vlp_outs. Qed.
Print Assumptions C282_low_pass_per_element.
Theorem C282_moving_average_per_element : forall (N : num) n k, (k < n)%nat ->
  forall is s, vm_coef s <> [] -> Forall (fun v => length v = n) (vm_prev s) -> Forall (sized n) is ->
  map (at_ N k) (outs (vma_run N) s is) = outs (ma_run N) (maf_at N k s) (map (at_ N k) is).
Proof. exact vma_outs. Qed.
Print Assumptions C282_moving_average_per_element.
Theorem C282_sum_per_element : forall (N : num) n k neg is, (k < n)%nat -> Forall (sized n) is ->
  at_ N k (vsum_run N n neg is) =
  mksig (sum_acc N neg (map (fun i => sv (at_ N k i)) is)) (match is with i :: _ => st i | [] => 0 end).
Proof. exact vsum_elt. Qed.
Print Assumptions C282_sum_per_element.
Example C282_ex_sum : sv (vsum_run Dnum 2 [false; true] [mksig [dofZ 5; dofZ 7] 1; mksig [dofZ 2; dofZ 10] 2]) = [dofZ 3; dofZ (-3)].
Proof. vm_compute. reflexivity. Qed.
Example C282_ex_average : map sv (outs (vma_run Dnum)
    {| vm_coef := [dofZ 1; dofZ 2]; vm_prev := [[dofZ 0; dofZ 0]; [dofZ 0; dofZ 0]]; vm_en := true |}
    [mksig [dofZ 1; dofZ 2] 1; mksig [dofZ 3; dofZ 4] 2]) = [[dofZ 2; dofZ 4]; [dofZ 7; dofZ 10]].
Proof. vm_compute. reflexivity. Qed.

(** ** C283: an integrator of vectors integrates each element by itself *)
(** One element at its limit stops all others, however often the block runs. *)
Theorem C283_integrator_per_element_refuted : exists s u d,
  (sized 2 (vi_prev s) /\ length (vi_hi s) = 2%nat /\ length (vi_lo s) = 2%nat) /\
  (forall m, Forall (fun o : signal (list Rnum) => elt Rnum 1 (sv o) = 0%R) (snd (vi_runs Rnum s (map (steady u d) (seq 0 m))))) /\
  map sv (outs (fun a p => i_run Rnum a (fst p) (snd p)) (integ_at Rnum 1 s)
            (map (fun p => (fst p, at_ Rnum 1 (snd p))) (map (steady u d) (seq 0 2)))) = [1; 2]%R.
Proof. exact freeze_wit. Qed.
Print Assumptions C283_integrator_per_element_refuted.
Theorem C283_integrator_per_element_partial : forall n k (s : vinteg Dnum) is, (k < n)%nat ->
  sized n (vi_prev s) -> length (vi_hi s) = n -> length (vi_lo s) = n -> Forall (fun p => sized n (snd p)) is ->
  (forall j, (j < n)%nat -> unlimited Dnum (integ_at Dnum j s) (map (fun p => (fst p, at_ Dnum j (snd p))) is)) ->
  map (at_ Dnum k) (snd (vi_runs Dnum s is)) =
  outs (fun a p => i_run Dnum a (fst p) (snd p)) (integ_at Dnum k s) (map (fun p => (fst p, at_ Dnum k (snd p))) is).
Proof. exact (vi_elt Dnum Dok Dnum_ord). Qed.
Print Assumptions C283_integrator_per_element_partial.
Example C283_ex : map sv (snd (vi_runs Dnum
    {| vi_first := false; vi_en := true; vi_prev := mksig [dofZ 0; dofZ 5] 0; vi_hi := [dofZ 9; dofZ 9]; vi_lo := [dofZ (-9); dofZ (-9)] |}
    [(None, mksig [dofZ 1; dofZ (-2)] 1000000000); (None, mksig [dofZ 1; dofZ (-2)] 2000000000)]))
  = [[dofZ 1; dofZ 3]; [dofZ 2; dofZ 1]].
Proof. vm_compute. reflexivity. Qed.

(** ** C284: setLimit brings an integrator of vectors inside its limits *)
(** With elements on different sides of a limit nothing happens, and the integrator never comes back. *)
Theorem C284_limits_applied_refuted : exists s hi lo u d,
  (sized 2 (vi_prev s) /\ hi = [1; 1]%R /\ lo = [-1; -1]%R /\ fst u = (-1)%R /\ snd u = (-1)%R /\ d = 1000000) /\
  forall m, Forall (fun o : signal (list Rnum) => elt Rnum 0 (sv o) = 5%R)
    (snd (vi_runs Rnum (vi_limit Rnum s hi lo) (map (steady u d) (seq 0 m)))).
Proof. exact limit_wit. Qed.
Print Assumptions C284_limits_applied_refuted.
Theorem C284_limits_applied_partial : forall n (s : vinteg Dnum) hi lo, (0 < n)%nat ->
  sized n (vi_prev s) -> length hi = n -> length lo = n ->
  Forall Dok (sv (vi_prev s)) -> Forall Dok hi -> Forall Dok lo ->
  (forall k, (k < n)%nat -> nltb Dnum (elt Dnum k hi) (elt Dnum k lo) = false) ->
  let v := sv (vi_prev s) in
  (forall k, (k < n)%nat -> nltb Dnum (elt Dnum k hi) (elt Dnum k v) = true) \/
  (forall k, (k < n)%nat -> nltb Dnum (elt Dnum k v) (elt Dnum k lo) = true) \/
  (forall k, (k < n)%nat -> nltb Dnum (elt Dnum k hi) (elt Dnum k v) = false /\ nltb Dnum (elt Dnum k v) (elt Dnum k lo) = false) ->
  forall k, (k < n)%nat -> elt Dnum k (sv (vi_prev (vi_limit Dnum s hi lo))) = sat_calc Dnum (elt Dnum k lo) (elt Dnum k hi) (elt Dnum k v).
Proof. exact (vi_limit_in Dnum Dok Dnum_ord). Qed.
Print Assumptions C284_limits_applied_partial.
Example C284_ex : sv (vi_prev (vi_limit Dnum
    {| vi_first := false; vi_en := true; vi_prev := mksig [dofZ 5; dofZ 7] 0; vi_hi := [dofZ 9; dofZ 9]; vi_lo := [dofZ (-9); dofZ (-9)] |}
    [dofZ 1; dofZ 2] [dofZ (-1); dofZ (-2)])) = [dofZ 1; dofZ 2].
Proof. vm_compute. reflexivity. Qed.

(** ** C285: an element-wise gain reaches its target and stays inside its limits *)
(** The target is accepted, but one element already there keeps the others from moving. *)
Theorem C285_target_reached_refuted : exists s c, vg_sized 2 s /\ vg_smooth s = true /\ Forall (fun d => d > 0)%R (vg_diff s) /\
  vg_target (vg_set Rnum s c) = c /\
  forall is, vg_gain (fst (vg_runs Rnum (vg_set Rnum s c) is)) = vg_gain s /\ elt Rnum 1 (vg_gain s) <> elt Rnum 1 c.
Proof. exact gain_stuck_wit. Qed.
Print Assumptions C285_target_reached_refuted.
(** A step overshoots the target of one element and the gain stays there. *)
Theorem C285_overshoot_refuted : exists s i, vg_sized 2 s /\ vg_gain s = [0; 0]%R /\ vg_target s = [1; 10]%R /\
  forall is, vg_gain (fst (vg_runs Rnum s (i :: is))) = [2; 1]%R.
Proof. exact gain_over_wit. Qed.
Print Assumptions C285_overshoot_refuted.
(** One element above the maximum stays above it as long as another one is below. *)
Theorem C285_limits_refuted : exists s, vg_sized 2 s /\
  forall is, vg_gain (fst (vg_runs Rnum s is)) = [5; 1/2]%R /\ vg_max s = [1; 1]%R.
Proof. exact gain_limit_wit. Qed.
Print Assumptions C285_limits_refuted.
(** Vectors with equal elements behave as the gain for numbers. *)
Theorem C285_uniform_gain_partial : forall n k, (k < n)%nat -> forall is (s : vgain Rnum) g, uniform n s g -> Forall (sized n) is ->
  map (at_ Rnum k) (outs (vg_run Rnum) s is) = outs (g_run Rnum) g (map (at_ Rnum k) is).
Proof. exact uniform_outs. Qed.
Print Assumptions C285_uniform_gain_partial.
Example C285_ex : uniform 2 (gain2 (0, 0)%R (9, 9)%R (-9, -9)%R (1, 1)%R (2, 2)%R)
  {| g_gain := 0%R; g_max := 9%R; g_min := (-9)%R; g_target := 1%R; g_diff := 2%R; g_en := true; g_smooth := true |}.
Proof. now repeat split. Qed.

(** ** C286: the parabolic gain is defined for vectors *)
Theorem C286_parabolic_matrix_refuted : exists g p x, length p = length x /\ vparabolic g p x = UB.
Proof. exists GMatrix, [1%R], [1%R]. now split. Qed.
Print Assumptions C286_parabolic_matrix_refuted.
Theorem C286_parabolic_one_gain_partial : forall c p x k, (k < length x)%nat -> length p = length x ->
  exists y, vparabolic (GOne c) p x = Ok y /\ length y = length x /\ nth k y 0%R = parabolic c (nth k p 0%R) (nth k x 0%R).
Proof. exact parab_one. Qed.
Print Assumptions C286_parabolic_one_gain_partial.
Theorem C286_parabolic_gains_partial : forall c p x k, (k < length x)%nat -> length p = length x -> length c = length x ->
  exists y, vparabolic (GEach c) p x = Ok y /\ length y = length x /\
    nth k y 0%R = parabolic (nth k c 0%R) (nth k p 0%R) (nth k x 0%R).
Proof. exact parab_each. Qed.
Print Assumptions C286_parabolic_gains_partial.
Example C286_ex : vparabolic (GEach [2%R]) [2%R] [1%R] = Ok [2%R].
Proof. unfold vparabolic. cbn [combine map fst snd]. unfold parabolic. rewrite Rabs_pos_eq, Rlt_bool_false by lra. do 2 f_equal. lra. Qed.

(** ** C287: the median filter of vectors outputs a median *)
(** Two inputs after construction the comparison is not a strict weak order, and std::sort has undefined behaviour. *)
Theorem C287_median_refuted : exists a b, length a = 2%nat /\ length b = 2%nat /\ forall sort,
  let vals := fst (vme_run Dnum sort (repeat [dofZ 0; dofZ 0] 3) (mksig a 1)) in snd (vme_run Dnum sort vals (mksig b 2)) = UB.
Proof. exists [dofZ 1; dofZ (-1)], [dlit 1 2; dlit 1 2]. do 2 (split; [reflexivity|]). intros sort. vm_compute. reflexivity. Qed.
Print Assumptions C287_median_refuted.
Theorem C287_median_partial : forall sort vals (i : signal (list Dnum)), sorts Dnum sort ->
  let l := tl vals ++ [sv i] in weak_order Dnum (vec_lt Dnum) l = true ->
  exists o, vme_run Dnum sort vals i = (l, Ok (mksig o (st i))) /\ ranked Dnum l (length l / 2) o.
Proof. exact (vme_ok Dnum). Qed.
Print Assumptions C287_median_partial.
Theorem C287_one_element_partial : forall l : list (list Dnum), Forall (fun v => exists x, v = [x] /\ Dok x) l ->
  weak_order Dnum (vec_lt Dnum) l = true.
Proof. exact (weak_one Dnum Dok Dnum_ord). Qed.
Print Assumptions C287_one_element_partial.
Example C287_ex : weak_order Dnum (vec_lt Dnum) [[dofZ 3; dofZ 4]; [dofZ 1; dofZ 2]; [dofZ 2; dofZ 3]] = true.
Proof. vm_compute. reflexivity. Qed.

(** ** C288: a switch with vectors switches when all elements are near the level *)
Theorem C288_switch_vector_refuted : exists level delta x : list Dnum, length x = length level /\ length delta = length level /\
  vsw_cond Dnum level delta x = true /\
  ~ (nltb Dnum (elt Dnum 0 x) (nadd Dnum (elt Dnum 0 level) (elt Dnum 0 delta)) = true /\
     nltb Dnum (nsub Dnum (elt Dnum 0 level) (elt Dnum 0 delta)) (elt Dnum 0 x) = true).
Proof.
  exists [dofZ 0; dofZ 0], [dofZ 1; dofZ 1], [dnan; dofZ 0]. do 2 (split; [reflexivity|]). split; [vm_compute; reflexivity|].
  vm_compute. now intros [H _].
Qed.
Print Assumptions C288_switch_vector_refuted.
Theorem C288_switch_vector_partial : forall n (level delta x : list Dnum), length x = n -> length level = n -> length delta = n ->
  Forall Dok x -> Forall Dok (vadd Dnum level delta) -> Forall Dok (vsub Dnum level delta) ->
  vsw_cond Dnum level delta x = true <->
  forall k, (k < n)%nat ->
    nltb Dnum (elt Dnum k x) (nadd Dnum (elt Dnum k level) (elt Dnum k delta)) = true /\
    nltb Dnum (nsub Dnum (elt Dnum k level) (elt Dnum k delta)) (elt Dnum k x) = true.
Proof. exact (vsw_iff Dnum Dok Dnum_ord). Qed.
Print Assumptions C288_switch_vector_partial.
Example C288_ex : vsw_cond Dnum [dofZ 4; dofZ 0] [dofZ 1; dofZ 1] [dlit 9 2; dlit 1 2] = true /\
  vsw_cond Dnum [dofZ 4; dofZ 0] [dofZ 1; dofZ 1] [dlit 9 2; dofZ 1] = false.
Proof. split; vm_compute; reflexivity. Qed.

(** ** C289: with offRange the checker reports a signal that is not below the lower or above the upper limit *)
Theorem C289_off_range_refuted : exists lo hi x : Dnum,
  nltb Dnum lo hi = true /\ (nltb Dnum x lo || nltb Dnum hi x) = false /\ sc_violated Dnum true lo hi x = false.
Proof. exists (dofZ 0), (dofZ 1), dnan. repeat split; vm_compute; reflexivity. Qed.
Print Assumptions C289_off_range_refuted.
Theorem C289_off_range_limit_refuted : exists lo hi x : Dnum, x = lo /\
  nltb Dnum lo hi = true /\ (nltb Dnum x lo || nltb Dnum hi x) = false /\ sc_violated Dnum true lo hi x = false.
Proof. exists (dofZ 0), (dofZ 1), (dofZ 0). repeat split; vm_compute; reflexivity. Qed.
Print Assumptions C289_off_range_limit_refuted.
Theorem C289_off_range_partial : forall lo hi x : Dnum, Dok lo -> Dok hi -> Dok x -> neqb Dnum x lo = false -> neqb Dnum x hi = false ->
  sc_violated Dnum true lo hi x = negb (nltb Dnum x lo || nltb Dnum hi x).
Proof. exact (sc_off Dnum Dok Dnum_ord). Qed.
Print Assumptions C289_off_range_partial.
Example C289_ex : sc_violated Dnum true (dofZ 0) (dofZ 2) (dofZ 1) = true /\ sc_violated Dnum true (dofZ 0) (dofZ 2) (dofZ 3) = false.
Proof. split; vm_compute; reflexivity. Qed.

(** ** C290: the norm check compares the Euclidean norm of the vector *)
(** The square of an element overflows: the norm 2^600 is reported although it is inside the limits. *)
Theorem C290_norm_overflow_refuted : exists lo hi x : Dnum, Dok x /\ nltb Dnum lo x = true /\ nltb Dnum x hi = true /\
  norm_exceeded lo hi [x] = true.
Proof.
  exists (dofZ 0), (S754_finite false 4503599627370496 648), (S754_finite false 4503599627370496 548).
  split; [discriminate|]. repeat split; vm_compute; reflexivity.
Qed.
Print Assumptions C290_norm_overflow_refuted.
(** The square underflows: the norm of a vector other than 0 is 0. *)
Theorem C290_norm_underflow_refuted : exists x : Dnum, nltb Dnum (dofZ 0) x = true /\ dnorm [x] = dofZ 0.
Proof. exists (S754_finite false 4503599627370496 (-652)). split; vm_compute; reflexivity. Qed.
Print Assumptions C290_norm_underflow_refuted.
Theorem C290_nan_reported_partial : forall lo hi v, In S754_nan v -> norm_exceeded lo hi v = true.
Proof. exact nan_norm. Qed.
Print Assumptions C290_nan_reported_partial.
Theorem C290_norm_nonneg_partial : forall v, (0 <= Rnorm v)%R.
Proof. exact Rnorm_nonneg. Qed.
Print Assumptions C290_norm_nonneg_partial.
Theorem C290_norm_square_partial : forall v, (Rnorm v * Rnorm v = sumsq v)%R.
Proof. exact Rnorm_square. Qed.
Print Assumptions C290_norm_square_partial.
Theorem C290_norm_zero_partial : forall v, Rnorm v = 0%R <-> Forall (fun x => x = 0%R) v.
Proof. exact Rnorm_zero. Qed.
Print Assumptions C290_norm_zero_partial.
Theorem C290_norm_scales_partial : forall c v, Rnorm (map (Rmult c) v) = (Rabs c * Rnorm v)%R.
Proof. exact Rnorm_scale. Qed.
Print Assumptions C290_norm_scales_partial.
Theorem C290_norm_bounds_elements_partial : forall v x, In x v -> (Rabs x <= Rnorm v)%R.
Proof. exact Rnorm_elem. Qed.
Print Assumptions C290_norm_bounds_elements_partial.
Example C290_ex : norm_exceeded (dofZ (-1)) (dofZ 6) [dofZ 3; dofZ 4] = false /\ dnorm [dofZ 3; dofZ 4] = dofZ 5.
Proof. split; vm_compute; reflexivity. Qed.
