(** * Concurrent use of the blocks *)
From Coq Require Import List String Bool Arith.
From Verif Require Import RaceModel RaceSpec RaceProofs RaceProofs2 RaceProofs3 RaceProofs4 RaceProofs5 RaceProofs6.
Import ListNotations.
Local Open Scope string_scope.
Local Open Scope list_scope.
Local Open Scope nat_scope.

(** ** Signal checker *)
Theorem C260_signal_checker_race_free :
  forall o src, o <> 0 -> race_free o (sc_methods o src)
    ["lowerLimit"; "upperLimit"; "fired"; "safetySystem"; "safetyEvent"; "activeLevel"; "offRange"].
Proof. exact sc_race_free. Qed.
Print Assumptions C260_signal_checker_race_free.

Theorem C261_signal_checker_calls_atomic :
  forall o src, o <> 0 -> call_atomic o (sc_methods o src)
    ["lowerLimit"; "upperLimit"; "fired"; "safetySystem"; "safetyEvent"; "activeLevel"; "offRange"].
Proof. exact sc_atomic. Qed.
Print Assumptions C261_signal_checker_calls_atomic.

(** Thread 0 has read the lower limit, thread 1 waits to set both. *)
Example race_ex1 : exists s, reachable (two [sc_run 1 (Some 2)] [sc_setLimits 1]) s /\ todo s 0 <> [] /\ todo s 1 <> [].
Proof. apply (busy_sound 50 [sc_run 1 (Some 2)] [false; true] [sc_setLimits 1] [] ([0; 0; 0; 0; 0; 0; 1])). vm_compute. reflexivity. Qed.

(** ** Gain *)
Theorem C262_gain_race_free_refuted :
  exists cs s, uses 1 (g_methods 1 (Some 2)) cs /\ reachable cs s /\ race_on (1, "parabolic") s.
Proof. exact g_race. Qed.
Print Assumptions C262_gain_race_free_refuted.

Theorem C262_gain_race_free_partial :
  forall o src, o <> 0 ->
    race_free o (g_methods o src) ["gain"; "maxGain"; "minGain"; "targetGain"; "gainDiff"; "parabolicSwitchPoint"] /\
    call_atomic o (g_methods o src) ["gain"; "maxGain"; "minGain"; "targetGain"; "gainDiff"; "parabolicSwitchPoint"].
Proof. exact (fun o src N => conj (g_race_free o src N) (g_atomic o src N)). Qed.
Print Assumptions C262_gain_race_free_partial.

Example race_ex2 : exists s, reachable (two [g_run 1 (Some 2)] [g_setGain 1]) s /\ todo s 0 <> [] /\ todo s 1 <> [].
Proof. apply (busy_sound 50 [g_run 1 (Some 2)] [true; true; true; true; true] [g_setGain 1] [true] ([0; 0; 0; 1])). vm_compute. reflexivity. Qed.

(** ** Constant *)
Theorem C263_constant_race_free_refuted :
  exists cs s, uses 1 [ct_run 1; ct_setValue 1; ct_getValue 1] cs /\ reachable cs s /\
    race_on (1, "value") s.
Proof. exact ct_race. Qed.
Print Assumptions C263_constant_race_free_refuted.

Theorem C263_constant_race_free_partial :
  forall o, o <> 0 -> race_free o [ct_run o; ct_setValue o] ["value"].
Proof. exact ct_race_free. Qed.
Print Assumptions C263_constant_race_free_partial.

Example race_ex3 : exists s, reachable (two [ct_run 1] [ct_setValue 1]) s /\ todo s 0 <> [] /\ todo s 1 <> [].
Proof. apply (busy_sound 50 [ct_run 1] [] [ct_setValue 1] [] ([0; 0; 1])). vm_compute. reflexivity. Qed.

(** ** Integrator *)
Theorem C264_integrator_race_free_refuted :
  exists cs s, uses 1 (i_methods 1 (Some 2)) cs /\ reachable cs s /\ race_on (1, "enabled") s.
Proof. exact i_race. Qed.
Print Assumptions C264_integrator_race_free_refuted.

Theorem C264_integrator_race_free_partial :
  forall o src, o <> 0 ->
    race_free o (i_methods o src) ["first"; "prev.timestamp"; "safetySystem"; "activeLevel"].
Proof. exact i_race_free. Qed.
Print Assumptions C264_integrator_race_free_partial.

Theorem C265_limits_set_together_refuted :
  (exists cs s0 h s, uses 1 (i_methods 1 (Some 2)) cs /\ starts cs s0 /\ run s0 h s /\
     torn h (1, "upperLimit") (1, "lowerLimit")) /\
  (exists cs s0 h s, uses 1 (sa_methods 1 (Some 2)) cs /\ starts cs s0 /\ run s0 h s /\
     torn h (1, "upperLimit") (1, "lowerLimit")) /\
  (exists cs s0 h s, uses 1 (sw_methods 1 [2] []) cs /\ starts cs s0 /\ run s0 h s /\
     torn h (1, "switchLevel") (1, "delta")).
Proof. exact (conj i_torn (conj sa_torn sw_torn)). Qed.
Print Assumptions C265_limits_set_together_refuted.

Theorem C265_limits_set_together_partial :
  (forall o src, o <> 0 -> call_atomic o (rl_methods o src) ["fallingRate"; "risingRate"; "outPrev"]) /\
  (forall o src, o <> 0 -> call_atomic o (wa_methods o src) ["minVal"; "maxVal"]).
Proof. exact (conj rl_atomic wa_atomic). Qed.
Print Assumptions C265_limits_set_together_partial.

Example race_ex4 : exists s, reachable (two [i_run 1 (Some 2)] [i_setActiveLevel 1]) s /\ todo s 0 <> [] /\ todo s 1 <> [].
Proof. apply (busy_sound 50 [i_run 1 (Some 2)] [true; false; true; true] [i_setActiveLevel 1] [] (repeat 0 10 ++ [1])). vm_compute. reflexivity. Qed.

Example race_ex5 : exists s, reachable (two [rl_run 1 (Some 2)] [rl_setRate 1]) s /\ todo s 0 <> [] /\ todo s 1 <> [].
Proof. apply (busy_sound 50 [rl_run 1 (Some 2)] [false] [rl_setRate 1] [] (repeat 0 8 ++ [1])). vm_compute. reflexivity. Qed.

(** ** Rate limiter, saturation, wrap around *)
Theorem C266_rate_limiter_race_free_refuted :
  exists cs s, uses 1 (rl_methods 1 (Some 2)) cs /\ reachable cs s /\ race_on (1, "enabled") s.
Proof. exact rl_race. Qed.
Print Assumptions C266_rate_limiter_race_free_refuted.

Theorem C266_rate_limiter_race_free_partial :
  forall o src, o <> 0 ->
    race_free o (rl_methods o src) ["fallingRate"; "risingRate"; "outPrev"].
Proof. exact rl_race_free. Qed.
Print Assumptions C266_rate_limiter_race_free_partial.

Theorem C267_saturation_race_free_refuted :
  exists cs s, uses 1 (sa_methods 1 (Some 2)) cs /\ reachable cs s /\ race_on (1, "upperLimit") s.
Proof. exact sa_race. Qed.
Print Assumptions C267_saturation_race_free_refuted.

Theorem C267_saturation_race_free_partial :
  forall o src,
    race_free o [sa_run o src; sa_enable o; sa_disable o] ["lowerLimit"; "upperLimit"] /\
    race_free o [sa_run o src; sa_setLimit o] ["enabled"].
Proof. exact sa_race_free. Qed.
Print Assumptions C267_saturation_race_free_partial.

Theorem C268_wrap_around_race_free_refuted :
  exists cs s, uses 1 (wa_methods 1 (Some 2)) cs /\ reachable cs s /\ race_on (1, "enabled") s.
Proof. exact wa_race. Qed.
Print Assumptions C268_wrap_around_race_free_refuted.

Theorem C268_wrap_around_race_free_partial :
  forall o src, o <> 0 -> race_free o (wa_methods o src) ["minVal"; "maxVal"].
Proof. exact wa_race_free. Qed.
Print Assumptions C268_wrap_around_race_free_partial.

Example race_ex6 : exists s, reachable (two [sa_run 1 (Some 2)] [sa_enable 1]) s /\ todo s 0 <> [] /\ todo s 1 <> [].
Proof. apply (busy_sound 50 [sa_run 1 (Some 2)] [true] [sa_enable 1] [] ([0; 0; 0; 1])). vm_compute. reflexivity. Qed.

Example race_ex7 : exists s, reachable (two [wa_run 1 (Some 2)] [wa_setMinMax 1]) s /\ todo s 0 <> [] /\ todo s 1 <> [].
Proof. apply (busy_sound 50 [wa_run 1 (Some 2)] [false; true; false] [wa_setMinMax 1] [] ([0; 0; 0; 0; 1])). vm_compute. reflexivity. Qed.

(** ** Switch, step, path planner *)
Theorem C269_switch_race_free_refuted :
  exists cs s, uses 1 (sw_methods 1 [2] []) cs /\ reachable cs s /\ race_on (1, "currentInput") s.
Proof. exact sw_race. Qed.
Print Assumptions C269_switch_race_free_refuted.

Theorem C269_switch_race_free_partial :
  forall o srcs comb, o <> 0 -> race_free o (sw_methods o srcs comb) ["activeLevel"].
Proof. exact sw_race_free. Qed.
Print Assumptions C269_switch_race_free_partial.

Theorem C270_step_race_free_refuted :
  exists cs s, uses 1 (sp_methods 1) cs /\ reachable cs s /\ race_on (1, "first") s.
Proof. exact sp_race. Qed.
Print Assumptions C270_step_race_free_refuted.

Theorem C270_step_race_free_partial :
  forall o t0 cs s x, confined o t0 cs -> reachable cs s -> ~ race_on (o, x) s.
Proof. exact confined_race_free. Qed.
Print Assumptions C270_step_race_free_partial.

Theorem C271_path_planner_race_free_refuted :
  (exists cs s, uses 1 (pp_methods 1) cs /\ reachable cs s /\ race_on (1, "finished") s) /\
  (exists cs s, uses 1 (pp_methods 1) cs /\ reachable cs s /\ race_on (1, "coeff") s).
Proof. exact (conj pp_race pp_race2). Qed.
Print Assumptions C271_path_planner_race_free_refuted.

Theorem C271_path_planner_race_free_partial :
  forall o, o <> 0 -> race_free o (pp_methods o) ["t"; "range"].
Proof. exact pp_race_free. Qed.
Print Assumptions C271_path_planner_race_free_partial.

Example race_ex8 : exists s, reachable (two [sw_run 1 [2] []] [sw_setActiveLevel 1]) s /\ todo s 0 <> [] /\ todo s 1 <> [].
Proof. apply (busy_sound 50 [sw_run 1 [2] []] [true; true; true; true] [sw_setActiveLevel 1] [] ([0; 0; 0; 1])). vm_compute. reflexivity. Qed.

Example race_ex9 : exists s, reachable (two [pp_run 1] [pp_setStart 1]) s /\ todo s 0 <> [] /\ todo s 1 <> [].
Proof. apply (busy_sound 50 [pp_run 1] [false; true; true; true; false] [pp_setStart 1] [] ([0; 0; 0; 1])). vm_compute. reflexivity. Qed.

(** ** Peripheral output, Kalman filter *)
Theorem C272_peripheral_output_race_free :
  forall o hw src, o <> 0 -> race_free o [po_run o hw src; po_getValue o] ["val"] /\
    call_atomic o [po_run o hw src; po_getValue o] ["val"].
Proof. exact (fun o hw src N => conj (po_race_free o hw src N) (po_atomic o hw src N)). Qed.
Print Assumptions C272_peripheral_output_race_free.

Example race_ex10 : exists s, reachable (two [po_run 1 4 (Some 2)] [po_getValue 1]) s /\ todo s 0 <> [] /\ todo s 1 <> [].
Proof. apply (busy_sound 50 [po_run 1 4 (Some 2)] [false; false] [po_getValue 1] [] ([0; 0; 0; 1])). vm_compute. reflexivity. Qed.

Theorem C273_kalman_two_domains_refuted :
  exists cs s,
    uses 3 [kf_prediction 3 [Some 2]; kf_correction 3 [Some 2] []; plain_run 4 [Some 3]] cs /\
    reachable cs s /\ race_on (3, "out.value") s.
Proof. exact kf_race. Qed.
Print Assumptions C273_kalman_two_domains_refuted.

Theorem C273_kalman_two_domains_partial :
  forall o us ys,
    race_free o [kf_prediction o us; kf_correction o us ys]
      ["x"; "P"; "u"; "y"; "K"; "CPCTR"; "dy"; "first"] /\
    call_atomic o [kf_prediction o us; kf_correction o us ys]
      ["x"; "P"; "u"; "y"; "K"; "CPCTR"; "dy"; "first"].
Proof. exact (fun o us ys => conj (kf_race_free o us ys _) (kf_atomic o us ys _)). Qed.
Print Assumptions C273_kalman_two_domains_partial.

Example race_ex11 : exists s, reachable (two [kf_prediction 1 [Some 2]] [kf_correction 1 [Some 2] [Some 3]]) s /\ todo s 0 <> [] /\ todo s 1 <> [].
Proof. apply (busy_sound 50 [kf_prediction 1 [Some 2]] [true; false] [kf_correction 1 [Some 2] [Some 3]] [false; true; false] (repeat 0 6 ++ [1])). vm_compute. reflexivity. Qed.

(** ** Ring buffer, socket server, transition *)
Theorem C274_ring_buffer_race_free_refuted :
  exists cs s, uses 1 [rb_push 1; rb_pop 1; rb_length 1] cs /\ reachable cs s /\
    race_on (1, "len") s.
Proof. exact rb_race. Qed.
Print Assumptions C274_ring_buffer_race_free_refuted.

Theorem C274_ring_buffer_race_free_partial :
  forall o, o <> 0 ->
    race_free o [rb_push o; rb_pop o] ["len"; "tail"; "items"] /\
    call_atomic o [rb_push o; rb_pop o] ["len"; "tail"; "items"].
Proof. exact (fun o N => conj (rb_race_free o N) (rb_atomic o N)). Qed.
Print Assumptions C274_ring_buffer_race_free_partial.

Example race_ex12 : exists s, reachable (two [rb_push 1] [rb_pop 1]) s /\ todo s 0 <> [] /\ todo s 1 <> [].
Proof. apply (busy_sound 50 [rb_push 1] [false] [rb_pop 1] [false] ([0; 0; 0; 1])). vm_compute. reflexivity. Qed.

Theorem C275_socket_buffers_race_free_refuted :
  exists cs s, uses 1 (so_methods 1) cs /\ reachable cs s /\ race_on (1, "rxBuf") s.
Proof. exact so_race. Qed.
Print Assumptions C275_socket_buffers_race_free_refuted.

Theorem C275_socket_buffers_race_free_partial :
  forall o, o <> 0 -> race_free o (so_methods o) ["txBuf"].
Proof. exact so_race_free. Qed.
Print Assumptions C275_socket_buffers_race_free_partial.

Example race_ex13 : exists s, reachable (two [so_cycle 1] [so_setSendBuffer 1]) s /\ todo s 0 <> [] /\ todo s 1 <> [].
Proof. apply (busy_sound 50 [so_cycle 1] [true; false; true; false; false] [so_setSendBuffer 1] [true; false] ([0; 0; 0; 1])). vm_compute. reflexivity. Qed.

Theorem C276_transition_race_free_refuted :
  exists cs s, uses 1 [tr_in_up 1 (Some 2); tr_out_up 1 3] cs /\ reachable cs s /\
    race_on (1, "refresh") s.
Proof. exact tr_race. Qed.
Print Assumptions C276_transition_race_free_refuted.

Theorem C276_transition_race_free_partial :
  (forall o b src, o <> 0 ->
     race_free o [tr_in_steady o (Some src); tr_out_steady o b] ["in"] /\
     call_atomic o [tr_in_steady o (Some src); tr_out_steady o b] ["in"]) /\
  (forall o b src, o <> 0 ->
     race_free o [tr_in_up o (Some src); tr_out_up o b] ["in"; "prevIn"] /\
     call_atomic o [tr_in_up o (Some src); tr_out_up o b] ["in"; "prevIn"]) /\
  (forall o b src src', o <> 0 ->
     race_free o [tr_in_down o (Some src); tr_out_down o b src'] ["buf"]).
Proof. exact (conj (fun o b src N => conj (tr_steady_race_free o b src N) (tr_steady_atomic o b src N))
  (conj (fun o b src N => conj (tr_up_race_free o b src N) (tr_up_atomic o b src N))
     tr_down_race_free)). Qed.
Print Assumptions C276_transition_race_free_partial.

Example race_ex14 : exists s, reachable (two [tr_in_steady 1 (Some 2)] [tr_out_steady 1 3]) s /\ todo s 0 <> [] /\ todo s 1 <> [].
Proof. apply (busy_sound 50 [tr_in_steady 1 (Some 2)] [] [tr_out_steady 1 3] [] ([0; 0; 0; 1])). vm_compute. reflexivity. Qed.

(** ** No thread waits for ever *)
Theorem C277_threads_go_on_refuted :
  (exists s, reachable (two [tr_in_steady 1 None] [tr_out_steady 1 3]) s /\ deadlocked s) /\
  (exists s, reachable (two [tr_in_steady 1 None; tr_in_steady 1 None] []) s /\ misuse s).
Proof. exact (conj tr_deadlock tr_misuse). Qed.
Print Assumptions C277_threads_go_on_refuted.

Theorem C277_threads_go_on_partial :
  forall cs s, (forall t c, In c (cs t) -> lib_call c) -> reachable cs s ->
    ~ misuse s /\ forall t, todo s t <> [] -> can_go_on s t.
Proof. exact (fun cs s F R => conj (lib_no_misuse cs s F R) (fun t => lib_goes_on cs s t F R)). Qed.
Print Assumptions C277_threads_go_on_partial.

(** The signal checker fires while the safety system runs. *)
Example race_ex15 : exists s, reachable (two [sc_run 1 (Some 2)] [ss_run [sc_reset 1]]) s /\ todo s 0 <> [] /\ todo s 1 <> [].
Proof. apply (busy_sound 50 [sc_run 1 (Some 2)] [false; false; false; true; false; false; false; true] [ss_run [sc_reset 1]] [true; true; false] (repeat 0 12 ++ [1; 1])). vm_compute. reflexivity. Qed.

(** ** Signals, safety level, time domain *)
Theorem C278_signal_across_threads_refuted :
  (exists cs s, uses 2 [ct_run 2; plain_run 3 [Some 2]] cs /\ reachable cs s /\
     race_on (2, "out.value") s) /\
  (exists cs s0 h s, uses 2 [ct_run 2; plain_run 3 [Some 2]] cs /\ starts cs s0 /\ run s0 h s /\
     torn h (2, "out.value") (2, "out.timestamp")).
Proof. exact (conj sig_race sig_torn). Qed.
Print Assumptions C278_signal_across_threads_refuted.

Theorem C278_signal_across_threads_partial :
  forall o t0 cs s x, confined o t0 cs -> reachable cs s -> ~ race_on (o, x) s.
Proof. exact confined_race_free. Qed.
Print Assumptions C278_signal_across_threads_partial.

Theorem C279_safety_level_race_free_refuted :
  exists cs s, uses 0 [ss_run []; ss_level; ss_trigger] cs /\ reachable cs s /\
    race_on (0, "currentLevel") s.
Proof. exact ss_race. Qed.
Print Assumptions C279_safety_level_race_free_refuted.

Theorem C279_safety_level_race_free_partial :
  forall x cs s, (forall t c, In c (cs t) -> unwritten x c) -> reachable cs s -> ~ race_on x s.
Proof. exact unwritten_race_free. Qed.
Print Assumptions C279_safety_level_race_free_partial.

Example trigger_does_not_change_the_level :
  unwritten (0, "currentLevel") ss_trigger /\ unwritten (0, "currentLevel") ss_level.
Proof. exact ss_trigger_unwritten. Qed.

Theorem C280_time_domain_race_free_refuted :
  exists cs s,
    uses 1 [td_run 1 [ct_run 2]; td_start 1; td_stop 1; td_addBlock 1; td_removeBlock 1] cs /\
    reachable cs s /\ race_on (1, "blocks") s.
Proof. exact td_race. Qed.
Print Assumptions C280_time_domain_race_free_refuted.

Theorem C280_time_domain_race_free_partial :
  forall o t0 cs s x, confined o t0 cs -> reachable cs s -> ~ race_on (o, x) s.
Proof. exact confined_race_free. Qed.
Print Assumptions C280_time_domain_race_free_partial.

