{
 "claims": [
  {
   "property": "C01",
   "status": "proved",
   "theorems": [
    "C01_safety_transitions",
    "C01_unregistered_event_ignored"
   ],
   "note": "Every log of any finite history of triggers and cycles from an accepted configuration is a run of the specification automaton `allowed`: an executed level is the entry level, the previous level or the registered destination of a triggered event; unregistered events change nothing."
  },
  {
   "property": "C02",
   "status": "proved",
   "theorems": [
    "C02_private_event_from_outside",
    "C02_private_event_from_inside"
   ],
   "note": "Private events are ignored outside the private context and effective inside."
  },
  {
   "property": "C03",
   "status": "partial",
   "theorems": [
    "C03_lowest_destination_wins_partial",
    "C03_trigger_order_irrelevant_partial",
    "C03_lowest_destination_wins_refuted"
   ],
   "note": "REFUTED: a self-transition among the triggers makes a later, higher destination win (events to 7, 5, 9 in level 5 end in 9). Partial: without a self-transition the lowest destination wins and the order of the triggers is irrelevant."
  },
  {
   "property": "C04",
   "status": "proved",
   "theorems": [
    "C04_cycle_effects",
    "C04_level_change_after_cycle"
   ],
   "note": "The non-trigger effects of a cycle are exactly one execution of the pending level: all input checks, the level action, all output actions, in order; the change is adopted at the end."
  },
  {
   "property": "C05",
   "status": "proved",
   "theorems": [
    "C05_accepted_iff_covered",
    "C05_cycle_covers_critical"
   ],
   "note": "verify() accepts exactly the covered configurations; a cycle of a covered level reads/drives every critical signal. (See C77 for levels that were never added.)"
  },
  {
   "property": "C06",
   "status": "proved",
   "theorems": [
    "C06_event_to_level_and_above",
    "C06_event_to_level_and_below",
    "C06_event_to_levels_between"
   ],
   "note": "Exact characterisation of the three range registrations."
  },
  {
   "property": "C07",
   "status": "proved",
   "theorems": [
    "C07_first_registration_wins",
    "C07_single_registration"
   ],
   "note": "First registration wins (std::map::insert)."
  },
  {
   "property": "C08",
   "status": "proved",
   "theorems": [
    "C08_activation_counter",
    "C08_counts_from_start",
    "C08_counts_from_entry"
   ],
   "note": "The counter clause is part of the automaton of C01_safety_transitions (al_act); C08_activation_counter is its explicit reading for phases without triggers. Counts are modulo 2^32. A self-transition fired in the same cycle lets the action observe 0."
  },
  {
   "property": "C09",
   "status": "proved",
   "theorems": [
    "C09_logic_check_fires",
    "C09_range_check_fires_int",
    "C09_range_check_fires_double",
    "C09_events_of_a_cycle"
   ],
   "note": "bool, integer and binary64 (finite) inputs; the events of a cycle are exactly those of the firing actions."
  },
  {
   "property": "C10",
   "status": "partial",
   "theorems": [
    "C10_nan_never_fires_refuted",
    "C10_nan_is_silent_for_every_range",
    "C10_infinite_reading_fires_partial"
   ],
   "note": "REFUTED: NaN readings never fire, for any range. Partial: infinite readings fire."
  },
  {
   "property": "C11",
   "status": "proved",
   "theorems": [
    "C11_levels_numbered_in_order",
    "C11_numbers_never_change"
   ],
   "note": "Numbers are consecutive in the order of addLevel (each level added once); event registrations never change them."
  },
  {
   "property": "C12",
   "status": "partial",
   "theorems": [
    "C12_failed_construction_blocks_refuted",
    "C12_two_live_systems_refuted",
    "C12_at_most_one_partial",
    "C12_reconstruction_partial"
   ],
   "note": "REFUTED: a failed construction leaves instCount incremented and blocks every later construction; and the uint8_t counter wraps, so the 256th construction attempt succeeds while another system is alive. Partial: at most one below 256 attempts; reconstruction works without failures."
  },
  {
   "property": "C13",
   "status": "proved",
   "theorems": [
    "C13_ring_buffer_fifo"
   ],
   "note": "Refinement to a bounded list queue for every capacity and operation sequence."
  },
  {
   "property": "C14",
   "status": "proved",
   "theorems": [
    "C14_harmonic_count",
    "C14_harmonic_exact_runs"
   ],
   "note": "Exact run numbers and counts for every factor and number of runs."
  },
  {
   "property": "C15",
   "status": "proved",
   "theorems": [
    "C15_harmonic_list"
   ],
   "note": "Exact set and order of tasks in every run."
  },
  {
   "property": "C16",
   "status": "partial",
   "theorems": [
    "C16_accepted_factor_partial",
    "C16_exact_multiple_partial",
    "C16_double_multiple_refuted",
    "C16_within_limit_refuted",
    "C16_zero_period_refuted"
   ],
   "note": "REFUTED: (a) in binary64 0.3/0.1 truncates to 2 and the task is rejected; (b) 2.99 with base 1 is rejected although within 1 % of 3; (c) period 0 is accepted with factor 0 (NaN deviation). Partial: accepted factors are >= 1 and within the limit, exact multiples are accepted (exact arithmetic)."
  },
  {
   "property": "C17",
   "status": "proved",
   "theorems": [
    "C17_statistics"
   ],
   "note": "Over the reals; the sums are the code's running sums."
  },
  {
   "property": "C18",
   "status": "proved",
   "theorems": [
    "C18_at_most_once",
    "C18_no_trigger_lost"
   ],
   "note": "Interleaving model of semaphore, worker and callers."
  },
  {
   "property": "C19",
   "status": "proved",
   "theorems": [
    "C19_shorter_period_first",
    "C19_realtime_first",
    "C19_levels",
    "C19_every_task"
   ],
   "note": "For every result of std::sort allowed by its specification."
  },
  {
   "property": "C20",
   "status": "partial",
   "theorems": [
    "C20_stop_lost_refuted",
    "C20_stop_while_looping_partial"
   ],
   "note": "REFUTED: a stop issued between run() and line 276 is overwritten by running = true. Partial: a stop while looping always ends the loop."
  },
  {
   "property": "C21",
   "status": "proved",
   "theorems": [
    "C21_every_run_is_a_life",
    "C21_false_precondition_ends",
    "C21_action_needs_precondition",
    "C21_action_in_run",
    "C21_true_precondition_in_run",
    "C21_false_precondition_in_run",
    "C21_result"
   ],
   "note": "Proved for every step at every nesting level, including exception sequences: the log of any history of runs is a concatenation of runs of the life-cycle automaton (SeqSpec.astep). Concurrently running (non-blocking) sequences are not modelled."
  },
  {
   "property": "C22",
   "status": "proved",
   "theorems": [
    "C22_end_reason"
   ],
   "note": "Each end is justified by a false precondition, a true exit condition or a fired abort/restart monitor of the step or a caller; afterwards all sequences are idle and unlocked (C21_every_run_is_a_life)."
  },
  {
   "property": "C23",
   "status": "proved",
   "theorems": [
    "C23_handled_restarts_happen",
    "C23_restart_checks_precondition",
    "C23_once_per_restart",
    "C23_action_count",
    "C23_restart_in_run"
   ],
   "note": "Exactly one evaluation of the precondition per restart after the start; the action runs exactly when it holds. A restart monitor that is true before the first start restarts without an earlier action (bounds in C23_action_count). See C90 for a permanently true restart condition."
  },
  {
   "property": "C24",
   "status": "proved",
   "theorems": [
    "C24_all_monitors_checked",
    "C24_stack_of_callers"
   ],
   "note": "The evaluated monitors are exactly those of the stack in order (monitors without exception sequence); the effect is C91/C92."
  },
  {
   "property": "C25",
   "status": "proved",
   "theorems": [
    "C25_first_evaluation_starts",
    "C25_reset_restarts",
    "C25_fires_only_after_timeout",
    "C25_fires_within_a_millisecond",
    "C25_stays_true",
    "C25_zero_never_fires"
   ],
   "note": "Over exact reals, nanosecond clock; double instance evaluated in the example."
  },
  {
   "property": "C26",
   "status": "proved",
   "theorems": [
    "C26_ids_and_names",
    "C26_registration_accepted_iff_new"
   ],
   "note": "Proved for all registration histories including clearList()."
  },
  {
   "property": "C27",
   "status": "proved",
   "theorems": [
    "C27_first_connection_kept",
    "C27_connect_result",
    "C27_reconnect",
    "C27_read_sound",
    "C27_read_complete",
    "C27_read_unconnected"
   ],
   "note": ""
  },
  {
   "property": "C28",
   "status": "proved",
   "theorems": [
    "C28_ports_checked"
   ],
   "note": ""
  },
  {
   "property": "C29",
   "status": "partial",
   "theorems": [
    "C29_ids_unique_partial",
    "C29_counter_wraps_refuted",
    "C29_reserved_id_refuted",
    "C29_copy_shares_id_refuted"
   ],
   "note": "REFUTED: ids are a 16 bit counter, so the 65536th new signal gets the reserved id 0 and later ones repeat ids; the implicit copy constructor copies the id. Proved: up to 65535 default-constructed signals have distinct non-zero ids."
  },
  {
   "property": "C30",
   "status": "proved",
   "theorems": [
    "C30_blocks_in_order",
    "C30_all_blocks_run",
    "C30_fault_stops_and_triggers",
    "C30_stopped",
    "C30_no_other_case"
   ],
   "note": ""
  },
  {
   "property": "C31",
   "status": "proved",
   "theorems": [
    "C31_saturation",
    "C31_saturation_vector"
   ],
   "note": "All doubles including infinities, scalar and vector."
  },
  {
   "property": "C32",
   "status": "proved",
   "theorems": [
    "C32_rate_limited",
    "C32_first_run_double"
   ],
   "note": "Exact real arithmetic, increasing time stamps; the first run (previous value NaN) for all doubles."
  },
  {
   "property": "C33",
   "status": "proved",
   "theorems": [
    "C33_integrator_limits",
    "C33_integrator_value"
   ],
   "note": "Limits for all doubles, value of the integral in exact real arithmetic."
  },
  {
   "property": "C34",
   "status": "proved",
   "theorems": [
    "C34_difference_quotient",
    "C34_time_stamp_in_the_middle"
   ],
   "note": "Exact real arithmetic; see C102 for close time stamps in binary64."
  },
  {
   "property": "C35",
   "status": "proved",
   "theorems": [
    "C35_sum_value",
    "C35_summands_later",
    "C35_summands_first",
    "C35_run_keeps_signs",
    "C35_negate",
    "C35_preset",
    "C35_product"
   ],
   "note": "Sum in exact real arithmetic; index checks for all number types."
  },
  {
   "property": "C36",
   "status": "proved",
   "theorems": [
    "C36_demux_mux",
    "C36_mux_demux"
   ],
   "note": ""
  },
  {
   "property": "C37",
   "status": "partial",
   "theorems": [
    "C37_run_moves_to_target_partial",
    "C37_reaches_target_partial",
    "C37_within_limits_partial",
    "C37_set_outside_refused_partial",
    "C37_moves_away_refuted",
    "C37_never_reached_refuted"
   ],
   "note": "REFUTED: setGain while smooth change is off does not update the target, so enabling smooth change moves the gain back to the old target; in binary64 a small increment can be absorbed so that the target is never reached. Proved: step, no overshoot, arrival (reals) and limits, refusal (all doubles)."
  },
  {
   "property": "C38",
   "status": "proved",
   "theorems": [
    "C38_delay",
    "C38_buffer_length",
    "C38_too_short"
   ],
   "note": ""
  },
  {
   "property": "C39",
   "status": "partial",
   "theorems": [
    "C39_one_sample_short_refuted",
    "C39_rounding_refuted",
    "C39_conversion_refuted",
    "C39_delay_partial"
   ],
   "note": "REFUTED: the buffer of n elements delays by n-1 runs; 0.3/0.1 in binary64 gives 2 elements, and a negative delay is an undefined conversion. Proved: the delay is exactly n-1 runs."
  },
  {
   "property": "C40",
   "status": "partial",
   "theorems": [
    "C40_congruent_partial",
    "C40_inside_partial",
    "C40_identity_inside_partial",
    "C40_multiples_not_wrapped_refuted",
    "C40_double_outside_refuted"
   ],
   "note": "REFUTED: an input congruent to the lower bound is not wrapped (3 on [-1,1] stays 3), and in binary64 the negative remainder branch leaves the range. Proved: congruence, identity inside and range for all other inputs."
  },
  {
   "property": "C41",
   "status": "partial",
   "theorems": [
    "C41_forwards_selected_partial",
    "C41_request_partial",
    "C41_invalid_request_partial",
    "C41_not_armed_partial",
    "C41_automatic_partial",
    "C41_not_together_refuted"
   ],
   "note": "REFUTED: a switch request to a combined switch does not change the switch it was combined with. Proved: forwarding, requests, and automatic switching."
  },
  {
   "property": "C42",
   "status": "proved",
   "theorems": [
    "C42_fires_once"
   ],
   "note": ""
  },
  {
   "property": "C43",
   "status": "partial",
   "theorems": [
    "C43_scalar_nan_partial",
    "C43_vector_numbers_partial",
    "C43_vector_nan_accepted_refuted",
    "C43_vector_nan_accepted_partial"
   ],
   "note": "REFUTED: a vector with NaN components passes the vector comparison. Proved: scalars detect NaN; vectors without NaN are checked element by element."
  },
  {
   "property": "C44",
   "status": "proved",
   "theorems": [
    "C44_trace"
   ],
   "note": ""
  },
  {
   "property": "C45",
   "status": "proved",
   "theorems": [
    "C45_step"
   ],
   "note": "Time readings of a run are inputs of the model (the run reads the clock twice)."
  },
  {
   "property": "C46",
   "status": "proved",
   "theorems": [
    "C46_written_value"
   ],
   "note": ""
  },
  {
   "property": "C47",
   "status": "proved",
   "theorems": [
    "C47_recurrence",
    "C47_range",
    "C47_constant"
   ],
   "note": "Exact real arithmetic; binary64 in C224."
  },
  {
   "property": "C48",
   "status": "proved",
   "theorems": [
    "C48_moving_average"
   ],
   "note": "Exact real arithmetic; binary64 in C225."
  },
  {
   "property": "C49",
   "status": "proved",
   "theorems": [
    "C49_median",
    "C49_sort_exists"
   ],
   "note": "For every sort function meeting the contract of std::sort, inputs without NaN."
  },
  {
   "property": "C50",
   "status": "partial",
   "theorems": [
    "C50_history_partial",
    "C50_correction_partial",
    "C50_five_outputs_refuted",
    "C50_default_start_partial"
   ],
   "note": "REFUTED: with five outputs (an order other than 1, 3 or a power of two) the matrix inverse uses uninitialised memory and a correction leaves a covariance that is not symmetric. Proved for 1, 3 and 2^j outputs: over any ordered field all histories stay symmetric and positive semidefinite, if the measurement noise is positive definite."
  },
  {
   "property": "C51",
   "status": "proved",
   "theorems": [
    "C51_exact",
    "C51_prediction_error",
    "C51_correction_error"
   ],
   "note": "Proved for every number of inputs, outputs and states, also where the inverse is wrong: the error is multiplied by A or by 1 - K C."
  },
  {
   "property": "C52",
   "status": "proved",
   "theorems": [
    "C52_reaches_target",
    "C52_profile"
   ],
   "note": ""
  },
  {
   "property": "C53",
   "status": "partial",
   "theorems": [
    "C53_ends_double_partial",
    "C53_jerk_never_ends_refuted",
    "C53_jerk_reaches_partial"
   ],
   "note": "REFUTED: without a constant velocity phase dT2 is 0, and phase 3 is never left because the time is compared with the duration only after it was advanced (exact arithmetic witness: distance 1, velocity 10, jerk 1, dt 1). Proved when the velocity limit binds, with integration and limits in every cycle; in binary64 the end is proved for phases of n cycles with (n+1)^2 dt <= 4096."
  },
  {
   "property": "C54",
   "status": "proved",
   "theorems": [
    "C54_path_integrates",
    "C54_scaled_integrates",
    "C54_holds",
    "C54_previous"
   ],
   "note": ""
  },
  {
   "property": "C55",
   "status": "proved",
   "theorems": [
    "C55_busy",
    "C55_no_distance",
    "C55_refused_unchanged"
   ],
   "note": ""
  },
  {
   "property": "C56",
   "status": "partial",
   "theorems": [
    "C56_write_read",
    "C56_out_of_range",
    "C56_linear_out_of_range",
    "C56_column_major",
    "C56_one_by_one_refuted"
   ],
   "note": "REFUTED for the 1 x 1 specialisation only: its indices are uint8_t, so index 256 wraps to 0 and is accepted. Proved for all other sizes."
  },
  {
   "property": "C57",
   "status": "proved",
   "theorems": [
    "C57_product",
    "C57_sum",
    "C57_scalar",
    "C57_transpose",
    "C57_eye_zero",
    "C57_associative",
    "C57_distributive",
    "C57_identity",
    "C57_transpose_product"
   ],
   "note": "Over every commutative unit ring, equal to the mathcomp operations."
  },
  {
   "property": "C58",
   "status": "proved",
   "theorems": [
    "C58_determinant",
    "C58_non_square",
    "C58_multiplicative"
   ],
   "note": "Over every commutative unit ring, equal to the mathcomp determinant."
  },
  {
   "property": "C59",
   "status": "partial",
   "theorems": [
    "C59_inverse_partial",
    "C59_orthogonal_partial",
    "C59_singular",
    "C59_inverse_refuted",
    "C59_other_orders",
    "C59_one_by_one_refuted"
   ],
   "note": "REFUTED: for every order M >= 4 that is not a power of two operator! returns a matrix that is not an inverse (line 722 computes a & (M-1)), and the 1 x 1 specialisation returns infinity for 0. Proved for orders 2, 3, powers of two, and for orthogonal matrices of every order; singular matrices always raise."
  },
  {
   "property": "C60",
   "status": "partial",
   "theorems": [
    "C60_rank_partial",
    "C60_rank_too_small_refuted",
    "C60_rank_too_large_refuted",
    "C60_one_by_one_refuted"
   ],
   "note": "REFUTED in both directions (a 4 x 4 permuted identity has rank() 3, a 2 x 2 matrix of ones has rank() 2, the 1 x 1 specialisation is inverted). Proved when the leading minors of the sorted matrix are nonzero up to the rank; sorting permutes the rows."
  },
  {
   "property": "C61",
   "status": "proved",
   "theorems": [
    "C61_entries",
    "C61_orthogonal",
    "C61_angles_add",
    "C61_inverse",
    "C61_other_sizes"
   ],
   "note": "Exact real arithmetic."
  },
  {
   "property": "C62",
   "status": "proved",
   "theorems": [
    "C62_cross_product",
    "C62_perpendicular",
    "C62_anticommutative",
    "C62_skew"
   ],
   "note": "Over every commutative unit ring."
  },
  {
   "property": "C63",
   "status": "proved",
   "theorems": [
    "C63_product",
    "C63_sum",
    "C63_scalar",
    "C63_coefficients",
    "C63_fraction_product",
    "C63_fraction_sum",
    "C63_fraction_scalar",
    "C63_quotient",
    "C63_construct"
   ],
   "note": ""
  },
  {
   "property": "C64",
   "status": "partial",
   "theorems": [
    "C64_outside_refuted",
    "C64_always_outside",
    "C64_uninitialised_refuted",
    "C64_not_from_rest_refuted",
    "C64_difference_equation_partial",
    "C64_equation_partial"
   ],
   "note": "REFUTED: every cycle reads index -1 of both arrays and the histories are never initialised. Proved: with harmless accesses the block continues the difference equation from whatever its memory contains."
  },
  {
   "property": "C65",
   "status": "partial",
   "theorems": [
    "C65_unique_partial",
    "C65_copy_refuted",
    "C65_copy_deleted_refuted",
    "C65_lookup_partial",
    "C65_create",
    "C65_existing_pair_partial",
    "C65_product",
    "C65_product_copied_refuted",
    "C65_mismatch",
    "C65_rotation_translation",
    "C65_defined",
    "C65_associative"
   ],
   "note": "REFUTED when frames are copied (two frames per pair; the copy cannot be found), also for a product whose return copy is not elided. Proved for histories without copies; products, mismatch, lookups and associativity (commutative rings) proved."
  },
  {
   "property": "C66",
   "status": "partial",
   "theorems": [
    "C66_lookup_refuted",
    "C66_lost_forever_partial",
    "C66_others_partial",
    "C66_answer"
   ],
   "note": "REFUTED: the lookup inserts a null entry, after which a coordinate system of that id can never be constructed. Proved: it is lost for ever, and nothing else is affected."
  },
  {
   "property": "C67",
   "status": "partial",
   "theorems": [
    "C67_claims_partial",
    "C67_release",
    "C67_claims_refuted"
   ],
   "note": "REFUTED for names that were never registered: getInput/getOutput reserve the null pointer, which all unknown names share. Proved for every registered signal and every history."
  },
  {
   "property": "C68",
   "status": "partial",
   "theorems": [
    "C68_shared_refuted",
    "C68_shared_partial",
    "C68_one_release_frees"
   ],
   "note": "REFUTED: one release frees a signal however many users share it. Proved for histories without a release."
  },
  {
   "property": "C69",
   "status": "partial",
   "theorems": [
    "C69_unknown_partial",
    "C69_no_trace_partial",
    "C69_unknown_refuted",
    "C69_no_trace_refuted"
   ],
   "note": "REFUTED: getInput/getOutput return a null pointer for unknown names, and a failed request inserts a null entry so that a later registration of the name fails. Proved for the typed requests: they raise, and no call other than that registration can see a difference."
  },
  {
   "property": "C70",
   "status": "partial",
   "theorems": [
    "C70_scale_partial",
    "C70_end_points",
    "C70_scale_refuted",
    "C70_unknown_property",
    "C70_missing_range",
    "C70_finite"
   ],
   "note": "REFUTED: wrong whenever the output limits do not enclose zero (0..10 -> 1..11 maps 0 to 3.4). Proved for all chains whose limits enclose zero."
  },
  {
   "property": "C71",
   "status": "partial",
   "theorems": [
    "C71_saved_restored_partial",
    "C71_unknown_ignored",
    "C71_empty_array_refuted"
   ],
   "note": "REFUTED for arrays without elements (loading the saved file throws). Proved for all other property sets, also when only some of the properties are registered on loading."
  },
  {
   "property": "C72",
   "status": "partial",
   "theorems": [
    "C72_no_overrun_refuted",
    "C72_longer_array",
    "C72_no_overrun_partial"
   ],
   "note": "REFUTED: a line with more elements than the array has writes past its end. Proved for files whose lines have at most the declared number of elements."
  },
  {
   "property": "C73",
   "status": "proved",
   "theorems": [
    "C73_messages"
   ],
   "note": "All histories of writers, loggers, level changes and entries; insertions into the stream are taken to be atomic."
  },
  {
   "property": "C74",
   "status": "partial",
   "theorems": [
    "C74_frames",
    "C74_connection_partial",
    "C74_zero_after_loss",
    "C74_torn_frame_refuted",
    "C74_uninitialised_refuted"
   ],
   "note": "REFUTED on connection loss: a mixture of two frames (or uninitialised bytes in the first cycle) is published before the buffer is zeroed. Proved: frames for every chunking; for every behaviour of the network whole frames, one torn frame, zero."
  },
  {
   "property": "C75",
   "status": "partial",
   "theorems": [
    "C75_keys_partial",
    "C75_two_calls_refuted",
    "C75_short_names_refuted"
   ],
   "note": "REFUTED for a second addKeys (nofKeys is restarted) and for too few names (undefined behaviour). Proved for one addKeys with at most 255 differently named keys."
  },
  {
   "property": "C76",
   "status": "partial",
   "theorems": [
    "C76_stale_destination_refuted",
    "C76_interleaved_transitions_partial",
    "C76_concurrent_lowest_partial"
   ],
   "note": "REFUTED: the destination is read outside the mutex, so an event can be applied to a level in which it is not registered. Partial: for every interleaving each executed level is a registered destination from some level that has been current. Also proved: for every interleaving of triggers between two cycles the lowest destination is pending in the end (without self-transitions)."
  },
  {
   "property": "C77",
   "status": "partial",
   "theorems": [
    "C77_unregistered_level_refuted",
    "C77_executed_levels_covered_partial"
   ],
   "note": "REFUTED: verify() does not check that the entry level and the destinations were added. Partial: holds when they were."
  },
  {
   "property": "C78",
   "status": "proved",
   "theorems": [
    "C78_toggle_alternates",
    "C78_set_constant",
    "C78_leave_silent"
   ],
   "note": "Set and toggle output actions write the documented sequences."
  },
  {
   "property": "C79",
   "status": "proved",
   "theorems": [
    "C79_wakeup_no_drift"
   ],
   "note": "Exact arithmetic; the binary64 time point is treated in C223."
  },
  {
   "property": "C80",
   "status": "proved",
   "theorems": [
    "C80_period_measurement"
   ],
   "note": "Over the reals."
  },
  {
   "property": "C81",
   "status": "proved",
   "theorems": [
    "C81_default_monitor"
   ],
   "note": "Over the reals."
  },
  {
   "property": "C82",
   "status": "partial",
   "theorems": [
    "C82_default_counter_refuted",
    "C82_counter_defined_partial"
   ],
   "note": "REFUTED: the default period 0 gives the int conversion of infinity. Partial: defined for periods above 20/(2^31-1) s."
  },
  {
   "property": "C83",
   "status": "partial",
   "theorems": [
    "C83_async_construction_refuted",
    "C83_async_construction_partial"
   ],
   "note": "REFUTED: the thread member is initialised before finished and log. Partial: no problem when the constructor completes first."
  },
  {
   "property": "C84",
   "status": "proved",
   "theorems": [
    "C84_nested_rate"
   ],
   "note": "Under the assumption that a triggered task finishes before its next trigger."
  },
  {
   "property": "C85",
   "status": "proved",
   "theorems": [
    "C85_thread_tree",
    "C85_exact_multiples_accepted"
   ],
   "note": "Over the reals."
  },
  {
   "property": "C86",
   "status": "partial",
   "theorems": [
    "C86_priority_range_refuted",
    "C86_priority_range_partial"
   ],
   "note": "REFUTED: the 49th realtime task gets priority 0. Partial: valid for at most 48 realtime tasks."
  },
  {
   "property": "C87",
   "status": "partial",
   "theorems": [
    "C87_double_variance_refuted",
    "C87_variance_nonneg_partial"
   ],
   "note": "REFUTED: seven equal samples 7/3 give a negative variance in binary64. Partial: non-negative in exact arithmetic."
  },
  {
   "property": "C88",
   "status": "proved",
   "theorems": [
    "C88_clock_order"
   ],
   "note": "Full proof."
  },
  {
   "property": "C89",
   "status": "partial",
   "theorems": [
    "C89_thread_runs_base_refuted",
    "C89_thread_runs_derived_partial"
   ],
   "note": "REFUTED: the thread is started in the base constructor and may call the base run(). Partial: correct when the base constructor has ended."
  },
  {
   "property": "C90",
   "status": "partial",
   "theorems": [
    "C90_restart_livelock_refuted",
    "C90_quiet_step_ends_partial"
   ],
   "note": "REFUTED: a restart monitor whose condition stays true makes the step restart for ever (no fuel suffices), even if the exit condition is always true. Partial: without a true monitor the step ends in the first poll with a true exit condition."
  },
  {
   "property": "C91",
   "status": "partial",
   "theorems": [
    "C91_abort_masked_by_outer_resume_refuted",
    "C91_own_restart_wins_refuted",
    "C91_single_monitor_partial"
   ],
   "note": "REFUTED: only the last true monitor on the stack counts: a simultaneously true resume monitor of an outer sequence masks the abort, and an own restart monitor of the step is served first (action runs again). Partial: a single true monitor has exactly the documented effect."
  },
  {
   "property": "C92",
   "status": "partial",
   "theorems": [
    "C92_abort_not_latched_refuted",
    "C92_start_while_aborting_partial"
   ],
   "note": "REFUTED: the abort request is not latched: if the condition is false again, the next step of the aborted sequence runs its action. Partial: a step started while the condition is true ends with -1 without precondition or action."
  },
  {
   "property": "C93",
   "status": "partial",
   "theorems": [
    "C93_leftover_step_refuted",
    "C93_step_bound_partial",
    "C93_step_command_passes_one_partial"
   ],
   "note": "REFUTED: nextStep left over from restart() (or an earlier step) lets one step pass without command. Partial: at most one more than the commands."
  },
  {
   "property": "C94",
   "status": "partial",
   "theorems": [
    "C94_start_after_abort_refuted",
    "C94_abort_all_partial"
   ],
   "note": "REFUTED: start() resets the own abort condition, so a sequence started after Sequencer::abort() runs. Partial: stays set until the sequence is started."
  },
  {
   "property": "C95",
   "status": "proved",
   "theorems": [
    "C95_outcome_determined",
    "C95_more_fuel"
   ],
   "note": "Determinism and fuel independence of the model."
  },
  {
   "property": "C96",
   "status": "partial",
   "theorems": [
    "C96_connect_null_refuted",
    "C96_connect_partial"
   ],
   "note": "REFUTED: connect(nullptr) returns true and leaves the input unconnected. Proved for non-null arguments."
  },
  {
   "property": "C97",
   "status": "partial",
   "theorems": [
    "C97_index_truncated_refuted",
    "C97_every_index_plus_256_partial",
    "C97_index_refused_partial"
   ],
   "note": "REFUTED: indices are truncated to uint8_t, getIn(256) is getIn(0). Proved: refused when the truncated index is beyond the last port."
  },
  {
   "property": "C98",
   "status": "partial",
   "theorems": [
    "C98_no_saturation_refuted",
    "C98_keeps_previous_partial"
   ],
   "note": "REFUTED: the integrator keeps its previous value instead of going to the limit. Proved: exactly when it integrates and when it keeps the value."
  },
  {
   "property": "C99",
   "status": "proved",
   "theorems": [
    "C99_parabolic_odd",
    "C99_parabolic_linear_part",
    "C99_parabolic_root_part",
    "C99_parabolic_below_linear",
    "C99_parabolic_monotone"
   ],
   "note": ""
  },
  {
   "property": "C100",
   "status": "partial",
   "theorems": [
    "C100_set_out_unchecked_refuted",
    "C100_set_out_beyond_partial",
    "C100_get_out_unset_refuted",
    "C100_get_out_unset_partial",
    "C100_get_out_partial"
   ],
   "note": "REFUTED: setOut does not check its index and getOut returns an uninitialised pointer for an output that was not set. Proved: getOut faults beyond the last output and returns an output that was set."
  },
  {
   "property": "C102",
   "status": "partial",
   "theorems": [
    "C102_time_stamps_collide_refuted",
    "C102_quotient_lost_refuted",
    "C102_exact_arithmetic_partial"
   ],
   "note": "REFUTED: time stamps are converted to double seconds, 2^60 and 2^60+1 ns collide and the differentiator keeps its old value. Proved for exact arithmetic."
  },
  {
   "property": "C103",
   "status": "partial",
   "theorems": [
    "C103_integrator_nan_refuted",
    "C103_integrator_nan_partial",
    "C103_integrator_number_partial"
   ],
   "note": "REFUTED: without setInitCondition the integrator outputs NaN in every run. Proved: with a value inside the limits the output is always a number."
  },
  {
   "property": "C101",
   "status": "partial",
   "theorems": [
    "C101_mutual_combine_refuted",
    "C101_ranked_partial",
    "C101_combine_each_other_refuted"
   ],
   "note": "REFUTED: two switches combined with each other recurse without bound. Proved: termination when combining is acyclic."
  },
  {
   "property": "C104",
   "status": "partial",
   "theorems": [
    "C104_set_min_max_no_effect_refuted",
    "C104_set_min_max_no_effect_partial"
   ],
   "note": "REFUTED: setMinMax assigns the parameters to themselves, the range never changes."
  },
  {
   "property": "C105",
   "status": "partial",
   "theorems": [
    "C105_newest_partial",
    "C105_oldest_partial",
    "C105_received_partial",
    "C105_empty_buffer_refuted",
    "C105_empty_always_partial"
   ],
   "note": "REFUTED: the second run of the out block without a new signal reads an empty vector. Proved: newest older signal, else the oldest, while the buffer is not empty."
  },
  {
   "property": "C106",
   "status": "partial",
   "theorems": [
    "C106_invalid_next_input_refuted",
    "C106_valid_next_input_partial"
   ],
   "note": "REFUTED: with an invalid next input the switch reports switching and triggers its event without changing. Proved for valid next inputs."
  },
  {
   "property": "C107",
   "status": "partial",
   "theorems": [
    "C107_armed_without_condition_refuted",
    "C107_armed_without_condition_partial",
    "C107_initial_input_unchecked_refuted",
    "C107_initial_input_unchecked_partial",
    "C107_not_armed_partial"
   ],
   "note": "REFUTED: arming without condition reads uninitialised members; the constructor does not check the initial input. Proved for unarmed switches with a valid selection."
  },
  {
   "property": "C108",
   "status": "partial",
   "theorems": [
    "C108_interpolates_partial",
    "C108_between_partial",
    "C108_extrapolates_refuted"
   ],
   "note": "REFUTED: more runs than the ratio extrapolate beyond the newest signal. Proved: exact interpolation and range within the ratio (exact real arithmetic)."
  },
  {
   "property": "C109",
   "status": "partial",
   "theorems": [
    "C109_finite_partial",
    "C109_default_safe_value_refuted"
   ],
   "note": "REFUTED: a channel without configured safe value writes NaN. Proved: with a finite safe value only finite values are written."
  },
  {
   "property": "C110",
   "status": "partial",
   "theorems": [
    "C110_ends_double_partial",
    "C110_move_never_ends_refuted",
    "C110_locked_axis_refuted",
    "C110_ends_partial"
   ],
   "note": "REFUTED: in binary64 the accumulated time can miss the end of a phase by more than 1e-12 (dt 0.1, distance 10, velocity 0.1, acceleration 1), after which the planner never ends; also with an axis whose velocity limit and distance are both zero. Proved in exact arithmetic, and in binary64 for phases of n cycles with (n+1)^2 dt <= 4096 and dt >= 1e-9."
  },
  {
   "property": "C111",
   "status": "partial",
   "theorems": [
    "C111_position_stalls_refuted",
    "C111_integral_partial"
   ],
   "note": "REFUTED: without a constant velocity phase the position stalls for one cycle at maximum velocity. Proved with a constant velocity phase."
  },
  {
   "property": "C112",
   "status": "partial",
   "theorems": [
    "C112_misses_target_refuted",
    "C112_target_partial"
   ],
   "note": "REFUTED: the durations are rounded segment by segment but all jerks use one common time scale (duration 4.5 for a path of 1 and 2 seconds ends at 21.168 instead of 19). Proved when no duration is rounded."
  },
  {
   "property": "C113",
   "status": "partial",
   "theorems": [
    "C113_after_reset_refuted",
    "C113_first_move_refuted",
    "C113_begins_partial"
   ],
   "note": "REFUTED: after reset() followed by move() without an idle cycle, and for a move before the first run (t is uninitialised). Proved after an idle cycle."
  },
  {
   "property": "C114",
   "status": "partial",
   "theorems": [
    "C114_get",
    "C114_set",
    "C114_sub_matrix",
    "C114_sub_matrix_out",
    "C114_set_vector_partial",
    "C114_set_vector_refuted"
   ],
   "note": "REFUTED for setCol/setRow from a std::vector that is too short: it is read past its end (UB). Proved otherwise."
  },
  {
   "property": "C115",
   "status": "proved",
   "theorems": [
    "C115_init",
    "C115_too_many"
   ],
   "note": "For every number type, including doubles."
  },
  {
   "property": "C116",
   "status": "partial",
   "theorems": [
    "C116_less_partial",
    "C116_less_equal_partial",
    "C116_less_refuted"
   ],
   "note": "REFUTED for NaN elements: the operators test the negated opposite relation, so NaN < NaN holds. Proved for all ordered elements."
  },
  {
   "property": "C117",
   "status": "partial",
   "theorems": [
    "C117_diagonal",
    "C117_lower_triangular",
    "C117_upper_triangular",
    "C117_trace",
    "C117_predicates",
    "C117_orthogonal_refuted"
   ],
   "note": "REFUTED only for isOrthogonal of the 1 x 1 specialisation (misses -1)."
  },
  {
   "property": "C118",
   "status": "proved",
   "theorems": [
    "C118_typed_access",
    "C118_failed_request_claims_nothing",
    "C118_unique_registration",
    "C118_inputs_and_outputs"
   ],
   "note": "All histories."
  },
  {
   "property": "C119",
   "status": "partial",
   "theorems": [
    "C119_range_partial",
    "C119_range_refuted",
    "C119_no_limit_refuted"
   ],
   "note": "REFUTED for falling scales (empty range) and for noLimit entries (they discard earlier limits). Proved (equivalence) for chains of rising scales with limits."
  },
  {
   "property": "C120",
   "status": "partial",
   "theorems": [
    "C120_state",
    "C120_edges_partial",
    "C120_edges_refuted"
   ],
   "note": "REFUTED for the edge flags: they stay set while events of other buttons arrive. State and axes proved; flags proved right after an event of the button."
  },
  {
   "property": "C121",
   "status": "proved",
   "theorems": [
    "C121_mouse"
   ],
   "note": "Signed overflow of the sum is undefined behaviour and excluded."
  },
  {
   "property": "C122",
   "status": "proved",
   "theorems": [
    "C122_decode"
   ],
   "note": ""
  },
  {
   "property": "C123",
   "status": "partial",
   "theorems": [
    "C123_pin_refuted",
    "C123_always_undefined",
    "C123_first_read_partial"
   ],
   "note": "REFUTED: the member inverted is never initialised and the stream is not rewound, so every read (and even with inverted set, the second one) is undefined."
  },
  {
   "property": "C124",
   "status": "proved",
   "theorems": [
    "C124_duplicate",
    "C124_new",
    "C124_length",
    "C124_invariant"
   ],
   "note": "All registrations."
  },
  {
   "property": "C125",
   "status": "partial",
   "theorems": [
    "C125_double_refuted",
    "C125_element_refuted",
    "C125_double_integers_partial",
    "C125_double_close_partial",
    "C125_element_integers_partial",
    "C125_element_close_partial"
   ],
   "note": "REFUTED: values are printed with six decimals (single values) or six significant digits (arrays). Proved: integers up to 2^53 (single) and below 10^6 (arrays) are exact, and the error is bounded by 10^-6 absolute (single, up to 2^31) and 10^-5 relative (arrays)."
  },
  {
   "property": "C126",
   "status": "partial",
   "theorems": [
    "C126_file_order_refuted",
    "C126_one_thread_partial"
   ],
   "note": "REFUTED for two threads (the order in the file can differ from that on the stream). Proved for histories of one thread."
  },
  {
   "property": "C127",
   "status": "partial",
   "theorems": [
    "C127_no_default_refuted",
    "C127_default_set_partial"
   ],
   "note": "REFUTED before a default stream was set: the logger has a null writer and using it is undefined. Proved once a default was set."
  },
  {
   "property": "C128",
   "status": "partial",
   "theorems": [
    "C128_end_to_end_partial",
    "C128_short_write_refuted"
   ],
   "note": "REFUTED for writes that accept a part of a frame (the rest is dropped and later frames are shifted). Proved when every write accepts the frame."
  },
  {
   "property": "C129",
   "status": "partial",
   "theorems": [
    "C129_silent_peer_refuted",
    "C129_late_read_partial",
    "C129_cleared_partial"
   ],
   "note": "REFUTED: read blocks, so the time out is only seen after the next read returned. Proved for reads that return."
  },
  {
   "property": "C130",
   "status": "partial",
   "theorems": [
    "C130_torn_output_refuted",
    "C130_quiet_partial"
   ],
   "note": "REFUTED: the buffer is read through a reference after the lock was released. Proved without concurrent update."
  },
  {
   "property": "C131",
   "status": "partial",
   "theorems": [
    "C131_outlived_refuted",
    "C131_kept_partial"
   ],
   "note": "REFUTED: a frame outlives its coordinate system and then belongs to whichever is constructed at that address. Proved while the coordinate systems live."
  },
  {
   "property": "C132",
   "status": "partial",
   "theorems": [
    "C132_dropped",
    "C132_construct_partial",
    "C132_truncated_refuted",
    "C132_no_denominator_refuted"
   ],
   "note": "REFUTED: coefficients beyond the order are dropped silently, and the constructor with a numerator only makes a fraction with denominator 0. Proved when the coefficients fit."
  },
  {
   "property": "C133",
   "status": "proved",
   "theorems": [
    "C133_series",
    "C133_parallel",
    "C133_gain",
    "C133_feed_through"
   ],
   "note": ""
  },
  {
   "property": "C134",
   "status": "proved",
   "theorems": [
    "C134_correction_decreases",
    "C134_optimal",
    "C134_first_ignored"
   ],
   "note": "Proved over any ordered field (exact arithmetic)."
  },
  {
   "property": "C135",
   "status": "proved",
   "theorems": [
    "C135_roundtrip",
    "C135_cycle",
    "C135_disabled"
   ],
   "note": ""
  },
  {
   "property": "C136",
   "status": "partial",
   "theorems": [
    "C136_refuted",
    "C136_fitting_partial"
   ],
   "note": "REFUTED: configureRPDO accepts objects with more than 64 bits in total and run overruns buf[8]; proved free of undefined behaviour for PDOs that fit."
  },
  {
   "property": "C137",
   "status": "partial",
   "theorems": [
    "C137_send_refuted",
    "C137_receive_refuted",
    "C137_first_signal_partial",
    "C137_unit_scale_partial"
   ],
   "note": "REFUTED: run uses scale[nodeNr], the factor of the first signal, for all signals, and CANopenReceive never uses its scale; proved for the first signal and for unit scale."
  },
  {
   "property": "C138",
   "status": "partial",
   "theorems": [
    "C138_refuted",
    "C138_nonnegative_partial"
   ],
   "note": "REFUTED: (uint32_t) of a negative double is undefined behaviour; proved for values in 0 .. 2^32-1."
  },
  {
   "property": "C139",
   "status": "partial",
   "theorems": [
    "C139_refuted",
    "C139_in_order_partial"
   ],
   "note": "REFUTED: the identifier of the received frame is ignored; proved when the frames arrive in the order of the nodes."
  },
  {
   "property": "C140",
   "status": "partial",
   "theorems": [
    "C140_frames_partial",
    "C140_refuted"
   ],
   "note": "REFUTED: data[1] of the frame (direction of rotation) is never written; everything else proved."
  },
  {
   "property": "C141",
   "status": "partial",
   "theorems": [
    "C141_unregistered",
    "C141_refuted",
    "C141_long_enough_partial"
   ],
   "note": "REFUTED: the received length is ignored, a short PDO is read beyond its end; proved when the received data is at least as long as configured. Unregistered PDOs are proved to be ignored."
  },
  {
   "property": "C142",
   "status": "partial",
   "theorems": [
    "C142_inputs",
    "C142_outputs_refuted",
    "C142_outputs_partial"
   ],
   "note": "REFUTED: EL2008 reads the uninitialised variable val; proved for any initial value of val. EL1008 is proved."
  },
  {
   "property": "C143",
   "status": "partial",
   "theorems": [
    "C143_refuted",
    "C143_range_partial",
    "C143_monotone",
    "C143_end_points",
    "C143_input_range",
    "C143_loop"
   ],
   "note": "REFUTED: a NaN input passes both limits and its conversion to int16_t is undefined behaviour; proved for all other doubles."
  },
  {
   "property": "C144",
   "status": "proved",
   "theorems": [
    "C144_set_points"
   ],
   "note": ""
  },
  {
   "property": "C145",
   "status": "partial",
   "theorems": [
    "C145_refuted",
    "C145_real_partial"
   ],
   "note": "REFUTED on doubles: with the default scale 0.0001 and minimum -0.03, -2995 counts give -0.030000000000000027. Proved on reals for every state and all four axes."
  },
  {
   "property": "C146",
   "status": "proved",
   "theorems": [
    "C146_movement"
   ],
   "note": "Exact reals; MouseInput run() for all four axes, first run included."
  },
  {
   "property": "C147",
   "status": "partial",
   "theorems": [
    "C147_swapped_refuted",
    "C147_first_run_refuted",
    "C147_equal_counts_partial",
    "C147_z_r_partial",
    "C147_first_zero_partial"
   ],
   "note": "REFUTED: setInitPos and the first run take the count of y for x and of x for y; a position set before the first run is forgotten. Proved when both counts agree, for z and r, and the value of the first output of z and r."
  },
  {
   "property": "C148",
   "status": "partial",
   "theorems": [
    "C148_second_block_refuted",
    "C148_too_many_keys_refuted",
    "C148_every_second_partial",
    "C148_single_partial"
   ],
   "note": "REFUTED: constructing a second keyboard block always throws (it registers the first block's key names again), more keys than outputs write past the output array. Proved for one block with enough outputs, for every history."
  },
  {
   "property": "C149",
   "status": "partial",
   "theorems": [
    "C149_refuted",
    "C149_every_point_partial",
    "C149_outside_partial"
   ],
   "note": "REFUTED: reserve() does not create elements, so every point inside a triangle is undefined behaviour. Proved for points outside all triangles."
  },
  {
   "property": "C150",
   "status": "proved",
   "theorems": [
    "C150_inside",
    "C150_outside",
    "C150_corners"
   ],
   "note": "Buffer with an element per triangle (its size is the matter of C149). Exact reals."
  },
  {
   "property": "C151",
   "status": "proved",
   "theorems": [
    "C151_value"
   ],
   "note": "Exact reals; log10 and pow without rounding. NaN and infinity are undefined behaviour in the code and not covered."
  },
  {
   "property": "C152",
   "status": "partial",
   "theorems": [
    "C152_refuted",
    "C152_partial"
   ],
   "note": "REFUTED: 1/1000 is printed as 1000.000u (ten characters). Proved when the number is no negative power of 1000."
  },
  {
   "property": "C153",
   "status": "partial",
   "theorems": [
    "C153_refuted",
    "C153_overflow_refuted",
    "C153_partial"
   ],
   "note": "REFUTED: 1763333332999999999 ns comes back one second later, and from 2^31 s the conversion is undefined behaviour. Proved for all time stamps below 2^53 ns."
  },
  {
   "property": "C154",
   "status": "proved",
   "theorems": [
    "C154_newest"
   ],
   "note": "Interleaving model of callback and executor thread with atomic steps; the unlocked test queue.empty() is not modelled as a data race."
  },
  {
   "property": "C155",
   "status": "partial",
   "theorems": [
    "C155_lost_refuted",
    "C155_spurious_refuted",
    "C155_waiting_partial"
   ],
   "note": "REFUTED: a message arriving during a cycle does not start another cycle; spurious wake ups start cycles without message. Proved for messages arriving while the executor waits."
  },
  {
   "property": "C156",
   "status": "partial",
   "theorems": [
    "C156_refuted",
    "C156_partial"
   ],
   "note": "REFUTED: stop between the test of running and the wait is lost. Proved for stop at any other moment."
  },
  {
   "property": "C157",
   "status": "partial",
   "theorems": [
    "C157_refuted",
    "C157_uninitialised_refuted",
    "C157_connected_partial",
    "C157_disconnect_partial",
    "C157_silent_client_partial",
    "C157_commands_partial"
   ],
   "note": "REFUTED: when the connection ends the last command is executed again, or an uninitialised character is used. Proved: exact behaviour for every sequence of read results."
  },
  {
   "property": "C158",
   "status": "partial",
   "theorems": [
    "C158_descriptor_refuted",
    "C158_mapping_refuted",
    "C158_mapping_partial"
   ],
   "note": "REFUTED: the descriptor is never closed; initialize() after the constructor leaks a mapping. Proved: the mapping of the constructor is removed."
  },
  {
   "property": "C159",
   "status": "partial",
   "theorems": [
    "C159_failed_connection_refuted",
    "C159_late_start_refuted",
    "C159_uncalibrated_refuted",
    "C159_destroy_partial"
   ],
   "note": "REFUTED: after a failed connection, or when the thread leaves its start loop after running was cleared, the destructor never returns; the ODrive over USB never ends without calibration. Proved: a thread in its measuring loop is ended under every schedule."
  },
  {
   "property": "C160",
   "status": "partial",
   "theorems": [
    "C160_closed_port_refuted",
    "C160_deleted_endpoint_refuted",
    "C160_joining_drivers_partial"
   ],
   "note": "REFUTED: both ODrive drivers close or delete the connection before the thread is joined. Proved for the drivers which join first, under every schedule."
  },
  {
   "property": "C161",
   "status": "partial",
   "theorems": [
    "C161_uninitialised_flag_refuted",
    "C161_initialised_first_partial"
   ],
   "note": "REFUTED: the thread may read the flags before they are initialised and end at once. Proved when the flags are initialised first."
  },
  {
   "property": "C162",
   "status": "partial",
   "theorems": [
    "C162_uart_refuted",
    "C162_usb_refuted",
    "C162_between_rounds_partial"
   ],
   "note": "REFUTED: the thread may send another velocity between the zero of the destructor and the stop. Proved when it is between two rounds."
  },
  {
   "property": "C163",
   "status": "partial",
   "theorems": [
    "C163_fraction_refuted",
    "C163_integer_part_partial"
   ],
   "note": "REFUTED: the fraction is dropped. Proved: the integer part is stored."
  },
  {
   "property": "C164",
   "status": "partial",
   "theorems": [
    "C164_long_reply_refuted",
    "C164_no_byte_refuted",
    "C164_replies_partial"
   ],
   "note": "REFUTED: more than 100 bytes before a point leave the array; a failed first read uses an uninitialised byte. Proved for well formed replies with up to 98 digits."
  },
  {
   "property": "C165",
   "status": "partial",
   "theorems": [
    "C165_nothing_in_range_refuted",
    "C165_scan_partial"
   ],
   "note": "REFUTED: a scan without an echo makes the search leave the array. Proved for every other scan."
  },
  {
   "property": "C166",
   "status": "partial",
   "theorems": [
    "C166_reference_refuted",
    "C166_velocity_refuted",
    "C166_exact_refuted"
   ],
   "note": "REFUTED: the factor 1/6.28 is converted to int 0, so the reference is always 0 and the output infinite or NaN."
  },
  {
   "property": "C167",
   "status": "partial",
   "theorems": [
    "C167_second_endstop_refuted",
    "C167_settings_partial"
   ],
   "note": "REFUTED: the pin of the second end stop is never set, that of the first is set twice. Proved for the other settings."
  },
  {
   "property": "C168",
   "status": "partial",
   "theorems": [
    "C168_currents_refuted",
    "C168_velocity_partial"
   ],
   "note": "REFUTED: the currents are never read. Proved for the velocities."
  },
  {
   "property": "C169",
   "status": "proved",
   "theorems": [
    "C169_watchdog"
   ],
   "note": ""
  },
  {
   "property": "C170",
   "status": "proved",
   "theorems": [
    "C170_rotation"
   ],
   "note": ""
  },
  {
   "property": "C171",
   "status": "proved",
   "theorems": [
    "C171_valid_iff"
   ],
   "note": ""
  },
  {
   "property": "C172",
   "status": "partial",
   "theorems": [
    "C172_no_marker_refuted"
   ],
   "note": "REFUTED: the dots are taken from the block array whatever the number of detected markers."
  },
  {
   "property": "C173",
   "status": "partial",
   "theorems": [
    "C173_infinite_for_ever_refuted",
    "C173_range_partial"
   ],
   "note": "REFUTED: four equal dots give an infinite position, and the filtered position is never finite again. Proved over the reals: the filtered position stays in the range of the raw ones."
  },
  {
   "property": "C174",
   "status": "partial",
   "theorems": [
    "C174_axes_refuted",
    "C174_constant_partial"
   ],
   "note": "REFUTED: x and y are exchanged in the filtered position. Proved: otherwise they agree at rest."
  },
  {
   "property": "C175",
   "status": "partial",
   "theorems": [
    "C175_not_a_number_refuted",
    "C175_wait_partial"
   ],
   "note": "REFUTED: a wait with a waiting time that is not a number never ends. Proved over the reals for every waiting time and all check times."
  },
  {
   "property": "C176",
   "status": "partial",
   "theorems": [
    "C176_other_types_refuted",
    "C176_int32_partial",
    "C176_default_partial"
   ],
   "note": "REFUTED: the default is the minimum of int32 converted to the type. Proved for 32 bit signed integers."
  },
  {
   "property": "C177",
   "status": "partial",
   "theorems": [
    "C177_buffered_refuted",
    "C177_uninitialised_refuted",
    "C177_destroyed_partial",
    "C177_written_partial"
   ],
   "note": "REFUTED: the level stays in the buffer of the stream; inverted is not initialised. Proved: the last level is written when the output is destroyed."
  },
  {
   "property": "C178",
   "status": "partial",
   "theorems": [
    "C178_threads_refuted",
    "C178_one_thread_partial",
    "C178_priorities_partial"
   ],
   "note": "REFUTED: the level of the entry is kept in the writer, which all threads share. Proved for entries which do not overlap."
  },
  {
   "property": "C179",
   "status": "partial",
   "theorems": [
    "C179_wrong_type_refuted",
    "C179_unknown_name_refuted",
    "C179_refused_partial",
    "C179_constructed_partial"
   ],
   "note": "REFUTED: a signal of another type stays claimed, and so does the null pointer for an unknown name. Proved: a claim refused by the HAL changes nothing; a constructed block has claimed a signal of its type."
  },
  {
   "property": "C180",
   "status": "partial",
   "theorems": [
    "C180_claim_stays_refuted"
   ],
   "note": "REFUTED: the claim is never released."
  },
  {
   "property": "C181",
   "status": "partial",
   "theorems": [
    "C181_short_message_refuted",
    "C181_same_size_partial",
    "C181_prefix_partial"
   ],
   "note": "REFUTED: a shorter message is read beyond its end. Proved for messages which are long enough."
  },
  {
   "property": "C182",
   "status": "partial",
   "theorems": [
    "C182_intensities_refuted",
    "C182_stamps_refuted",
    "C182_ranges_partial"
   ],
   "note": "REFUTED: the intensities published are the ranges; the time stamps of ranges and intensities are never set. Proved for the ranges."
  },
  {
   "property": "C183",
   "status": "partial",
   "theorems": [
    "C183_no_safety_system_refuted",
    "C183_level_partial"
   ],
   "note": "REFUTED: the pointer is not initialised. Proved after setSafetySystem."
  },
  {
   "property": "C184",
   "status": "partial",
   "theorems": [
    "C184_start_returns_refuted",
    "C184_start_returns_partial",
    "C184_self_start_never_returns"
   ],
   "note": "REFUTED: when the previous run has not ended, the assignment to fut waits for it; a sequence which starts itself waits for ever (C184_self_start_never_returns). Proved when the previous run has ended or was waited for."
  },
  {
   "property": "C185",
   "status": "proved",
   "theorems": [
    "C185_one_active",
    "C185_runs_count"
   ],
   "note": ""
  },
  {
   "property": "C186",
   "status": "partial",
   "theorems": [
    "C186_result_refuted",
    "C186_result_partial"
   ],
   "note": "REFUTED: retVal is assigned by wait() only, before it is uninitialised. Proved after wait()."
  },
  {
   "property": "C187",
   "status": "partial",
   "theorems": [
    "C187_abort_noticed_refuted",
    "C187_abort_noticed_partial",
    "C187_not_stale_partial"
   ],
   "note": "REFUTED: start() resets the request, also that for the run still in progress. Proved when the sequence is not started in between."
  },
  {
   "property": "C188",
   "status": "partial",
   "theorems": [
    "C188_wait_all_refuted",
    "C188_wait_all_partial"
   ],
   "note": "REFUTED: a sequence started by a sequence later in the list is not waited for. Proved when sequences are started only by the main program (before waiting) and by sequences constructed earlier."
  },
  {
   "property": "C189",
   "status": "partial",
   "theorems": [
    "C189_no_race_refuted",
    "C189_no_race_partial"
   ],
   "note": "REFUTED: two threads may start the same sequence. Proved when each sequence has a single starter which was constructed earlier."
  },
  {
   "property": "C190",
   "status": "partial",
   "theorems": [
    "C190_registry_refuted",
    "C190_registry_partial"
   ],
   "note": "REFUTED: sequences are never removed from the list. Proved when no sequence is destroyed."
  },
  {
   "property": "C191",
   "status": "partial",
   "theorems": [
    "C191_thread_works_refuted",
    "C191_uninitialised_refuted",
    "C191_thread_works_partial"
   ],
   "note": "REFUTED: when the thread starts before the constructor of the derived class begins, Thread::run is called and returns; when it starts before open(), an uninitialised descriptor is read. Proved when the thread starts after open()."
  },
  {
   "property": "C192",
   "status": "partial",
   "theorems": [
    "C192_destructor_returns_refuted",
    "C192_needs_event_refuted",
    "C192_closed_refuted",
    "C192_destructor_returns_partial"
   ],
   "note": "REFUTED: the thread may set running after the destructor has cleared it; blocking devices need one more event; closing a space navigator which could not be opened is undefined. Proved from the loop with one more event."
  },
  {
   "property": "C193",
   "status": "partial",
   "theorems": [
    "C193_speed_refuted",
    "C193_speed_partial"
   ],
   "note": "REFUTED: the factor is stored and never used. Proved for the factor 1."
  },
  {
   "property": "C194",
   "status": "partial",
   "theorems": [
    "C194_defined_refuted",
    "C194_defined_partial",
    "C194_latest_partial"
   ],
   "note": "REFUTED: the rotations are not initialised. Proved for the axes and buttons."
  },
  {
   "property": "C195",
   "status": "partial",
   "theorems": [
    "C195_resync_refuted",
    "C195_aligned_partial"
   ],
   "note": "REFUTED: a stream may be misread for ever when reading starts within a packet. Proved for aligned streams."
  },
  {
   "property": "C196",
   "status": "proved",
   "theorems": [
    "C196_counts",
    "C196_no_lost_wakeup",
    "C196_timeout_means_empty"
   ],
   "note": "Proved for all interleavings of any number of threads, with spurious wake-ups."
  },
  {
   "property": "C197",
   "status": "proved",
   "theorems": [
    "C197_objects_as_configured"
   ],
   "note": "Proved for all configurations with unique keys."
  },
  {
   "property": "C198",
   "status": "partial",
   "theorems": [
    "C198_order_irrelevant_refuted",
    "C198_order_irrelevant_partial"
   ],
   "note": "REFUTED: the library, the device handle and the type must stand before the channels. For ordered keys: loading succeeds exactly if the identifiers are new."
  },
  {
   "property": "C199",
   "status": "partial",
   "theorems": [
    "C199_failure_leaves_nothing_refuted",
    "C199_failure_leaves_prefix_partial"
   ],
   "note": "REFUTED: the channels before the failing one stay, and the corrected file is then rejected. Proved: what stays is a prefix of what was meant."
  },
  {
   "property": "C200",
   "status": "proved",
   "theorems": [
    "C200_ids_unique"
   ],
   "note": "Proved for all configurations with unique keys."
  },
  {
   "property": "C201",
   "status": "partial",
   "theorems": [
    "C201_library_opened_once_refuted",
    "C201_library_opened_once_partial"
   ],
   "note": "REFUTED: the map of libraries is passed by value, a second file opens them again. Proved within one file."
  },
  {
   "property": "C202",
   "status": "partial",
   "theorems": [
    "C202_unknown_key_rejected_refuted",
    "C202_unknown_key_rejected_partial"
   ],
   "note": "REFUTED: unknown keys of a device are ignored. Proved for the keys of subdevices."
  },
  {
   "property": "C203",
   "status": "partial",
   "theorems": [
    "C203_encoder_defined_refuted",
    "C203_encoder_channels_refuted",
    "C203_encoder_defined_partial"
   ],
   "note": "REFUTED: a comedi library with a digit in its name is called with the wrong signature; missing encoder channels become 0. Defined if the names tell the signature."
  },
  {
   "property": "C204",
   "status": "proved",
   "theorems": [
    "C204_types_complete"
   ],
   "note": "Proved for all strings."
  },
  {
   "property": "C205",
   "status": "partial",
   "theorems": [
    "C205_true_means_loaded_refuted",
    "C205_true_means_loaded_partial"
   ],
   "note": "REFUTED: with unsigned char an en dash makes it return -1, which is true. Proved for signed char."
  },
  {
   "property": "C206",
   "status": "partial",
   "theorems": [
    "C206_feature_of_library_refuted",
    "C206_unknown_name_refuted",
    "C206_feature_of_library_partial"
   ],
   "note": "REFUTED: a null handle searches the whole program, an unknown name dereferences a null pointer. Proved for objects with a handle."
  },
  {
   "property": "C207",
   "status": "partial",
   "theorems": [
    "C207_reads_keys_refuted",
    "C207_never_reads_partial",
    "C207_ends_partial",
    "C207_silent_partial"
   ],
   "note": "REFUTED: the key loop runs while state != active, so after dispay() the thread leaves it at once without reading a key, in every interleaving (never_reads, ends). Holds: the terminal is not touched before dispay() or exit()."
  },
  {
   "property": "C208",
   "status": "partial",
   "theorems": [
    "C208_exit_ends_refuted",
    "C208_exit_ends_partial"
   ],
   "note": "REFUTED: exit() before the thread has seen the active state leaves it in the key loop for ever, so the destructor hangs; it ends exactly if it had left the key loop before."
  },
  {
   "property": "C209",
   "status": "partial",
   "theorems": [
    "C209_create_again_refuted",
    "C209_single_refuted",
    "C209_single_partial",
    "C209_no_second_partial"
   ],
   "note": "REFUTED: the counter is never decremented, so after the first interface is destroyed none can be created; after 2^32 attempts it wraps and a second one exists. Below 2^32 attempts there is never a second one."
  },
  {
   "property": "C210",
   "status": "proved",
   "theorems": [
    "C210_last_five"
   ],
   "note": "Full property."
  },
  {
   "property": "C211",
   "status": "partial",
   "theorems": [
    "C211_undefined_refuted",
    "C211_changed_refuted",
    "C211_message_partial",
    "C211_list_partial"
   ],
   "note": "REFUTED: messages are used as printf format; \"%%\" prints one sign, any other '%' is undefined. Shown unchanged exactly if it has no '%'."
  },
  {
   "property": "C212",
   "status": "partial",
   "theorems": [
    "C212_separate_refuted",
    "C212_overlap_partial",
    "C212_separate_partial"
   ],
   "note": "REFUTED: with more than LINES-21 sequences the list runs into the messages (24 lines, 4 sequences). They fit exactly otherwise."
  },
  {
   "property": "C213",
   "status": "partial",
   "theorems": [
    "C213_prompt_refuted",
    "C213_overrun_partial",
    "C213_value_partial",
    "C213_negative_partial",
    "C213_range_partial"
   ],
   "note": "REFUTED: lines of ten characters or more overrun the buffer. Up to nine characters the number is returned."
  },
  {
   "property": "C214",
   "status": "partial",
   "theorems": [
    "C214_rplidar_refuted",
    "C214_odrive_refuted",
    "C214_rplidar_partial",
    "C214_odrive_partial",
    "C214_complete_partial"
   ],
   "note": "REFUTED: RPLidarInput does not stamp the ranges, ODriveUARTInput stamps nothing and never sets two of its three outputs. The other five blocks are complete."
  },
  {
   "property": "C215",
   "status": "partial",
   "theorems": [
    "C215_torn_refuted",
    "C215_elements_partial",
    "C215_whole_partial"
   ],
   "note": "REFUTED: without a lock a copy may mix two samples. Every element is one delivered at its place, and the vector is whole if the copy does not overlap an assignment."
  },
  {
   "property": "C216",
   "status": "partial",
   "theorems": [
    "C216_own_refuted",
    "C216_order_partial",
    "C216_newest_partial",
    "C216_oldest_partial"
   ],
   "note": "REFUTED: all subscribers share the global queue, a run processes the oldest message of any topic. Messages are processed in order of arrival, each by its block."
  },
  {
   "property": "C217",
   "status": "partial",
   "theorems": [
    "C217_short_refuted",
    "C217_intensities_refuted",
    "C217_stamps_refuted",
    "C217_array_partial",
    "C217_short_partial",
    "C217_ranges_partial",
    "C217_intensities_partial",
    "C217_stamps_partial"
   ],
   "note": "REFUTED: shorter arrays are read beyond their end, the laser scan publisher sends the ranges as intensities, ranges and intensities get no time stamp. Arrays of equal size, ranges and scalar stamps are transferred."
  },
  {
   "property": "C218",
   "status": "partial",
   "theorems": [
    "C218_jump_refuted",
    "C218_range_refuted",
    "C218_time_partial"
   ],
   "note": "REFUTED: the seconds pass through a double, times since 1970 may jump by one second; seconds beyond 2^32 are undefined. Exact below 2^53 ns."
  },
  {
   "property": "C219",
   "status": "partial",
   "theorems": [
    "C219_uninitialised_refuted",
    "C219_state_partial"
   ],
   "note": "REFUTED: the result of read is ignored, so a failing first read uses an uninitialised event. With successful reads all button states follow the events."
  },
  {
   "property": "C220",
   "status": "partial",
   "theorems": [
    "C220_once_refuted",
    "C220_again_partial",
    "C220_once_partial"
   ],
   "note": "REFUTED: every failing read processes the last event again. Without failing reads every genuine event is reported once."
  },
  {
   "property": "C221",
   "status": "proved",
   "theorems": [
    "C221_xbox",
    "C221_mouse",
    "C221_spacenav",
    "C221_registered",
    "C221_distinct"
   ],
   "note": "Full property."
  },
  {
   "property": "C222",
   "status": "partial",
   "theorems": [
    "C222_reconnect_refuted",
    "C222_same_partial",
    "C222_unconnected_partial"
   ],
   "note": "REFUTED: the signal is looked up at creation, after reconnecting the input the control input still reads the old output. Without disconnecting both agree."
  },
  {
   "property": "C223",
   "status": "partial",
   "theorems": [
    "C223_whole_nanoseconds_partial",
    "C223_error_bound_partial",
    "C223_drift_refuted"
   ],
   "note": "REFUTED: nextCycle is a double counting nanoseconds, so a period that is no whole number of nanoseconds is rounded to the spacing of doubles at the present uptime, always in the same direction (1/3000 s becomes 333333.375 ns at 11.6 days). Proved: exact for periods of whole nanoseconds up to 2^53 ns, relative error bound otherwise."
  },
  {
   "property": "C224",
   "status": "partial",
   "theorems": [
    "C224_leaves_range_refuted",
    "C224_range_partial",
    "C224_follows_partial"
   ],
   "note": "REFUTED: with alpha = 0.2 and constant input 3 the output is 3.0000000000000004. Proved: it leaves the range by at most 2^-30 of the input bound, for runs of any length, and follows the exact filter as closely (coefficient at least 2^-20)."
  },
  {
   "property": "C225",
   "status": "proved",
   "theorems": [
    "C225_follows"
   ],
   "note": ""
  },
  {
   "property": "C226",
   "status": "proved",
   "theorems": [
    "C226_follows",
    "C226_holds",
    "C226_time_step"
   ],
   "note": "Limits outside the reached range; up to 2^48 cycles."
  },
  {
   "property": "C227",
   "status": "proved",
   "theorems": [
    "C227_error_bound"
   ],
   "note": "For T/h up to 2^43 and inputs up to 2^400."
  },
  {
   "property": "C228",
   "status": "proved",
   "theorems": [
    "C228_solves",
    "C228_unique"
   ],
   "note": "Blocks added once; a block reads all inputs before it writes."
  },
  {
   "property": "C229",
   "status": "proved",
   "theorems": [
    "C229_order"
   ],
   "note": ""
  },
  {
   "property": "C230",
   "status": "proved",
   "theorems": [
    "C230_frame"
   ],
   "note": ""
  },
  {
   "property": "C231",
   "status": "partial",
   "theorems": [
    "C231_reaches_outputs_partial",
    "C231_other_partial",
    "C231_unregistered_partial",
    "C231_other_refuted",
    "C231_private_refuted"
   ],
   "note": "REFUTED: an exception other than NotConnectedFault and NaNOutputFault leaves the time domain and ends its thread without an event; an event which the current level has registered as private is ignored since the time domain triggers it without context. Proved: with NotConnectedFault or NaNOutputFault and a public event of the current level, entry level and destinations added to the configuration, and no trigger leading to the current level itself."
  },
  {
   "property": "C232",
   "status": "proved",
   "theorems": [
    "C232_converges"
   ],
   "note": "Exact reals."
  },
  {
   "property": "C233",
   "status": "proved",
   "theorems": [
    "C233_sum",
    "C233_cycle"
   ],
   "note": "Error bound for every number of inputs; the hypothesis excludes overflow."
  },
  {
   "property": "C234",
   "status": "proved",
   "theorems": [
    "C234_product"
   ],
   "note": ""
  },
  {
   "property": "C235",
   "status": "proved",
   "theorems": [
    "C235_mean_variance",
    "C235_extremes"
   ],
   "note": "Complements C87: the variance may be negative, but only by this bound."
  },
  {
   "property": "C236",
   "status": "partial",
   "theorems": [
    "C236_settles_refuted",
    "C236_converges_partial"
   ],
   "note": "REFUTED: one step before 1 with gain 10 and steps up to 10 ms the integrator never changes again, because the increment is less than half an ulp. Shown instead: the distance is at most q'^n times the initial one plus 2^-52 M/(1-q'), with q' = q + 6 2^-53 K T + 12 2^-53 (T: largest time stamp in seconds)."
  },
  {
   "property": "C237",
   "status": "proved",
   "theorems": [
    "C237_packet",
    "C237_bytes",
    "C237_address"
   ],
   "note": ""
  },
  {
   "property": "C238",
   "status": "proved",
   "theorems": [
    "C238_distinct",
    "C238_range",
    "C238_used"
   ],
   "note": ""
  },
  {
   "property": "C239",
   "status": "partial",
   "theorems": [
    "C239_own_answer_refuted",
    "C239_own_answer_partial",
    "C239_lost_refuted",
    "C239_lost_partial"
   ],
   "note": "REFUTED: a sequence number which does not fit is only logged; after one answer later than 200 ms every later request returns the answer to the request before it. Proved for histories without late answers."
  },
  {
   "property": "C240",
   "status": "partial",
   "theorems": [
    "C240_round_refuted",
    "C240_failure_refuted",
    "C240_empty_refuted",
    "C240_round_partial"
   ],
   "note": "REFUTED: after a late answer, or when a transfer fails, a local variable without value is stored (undefined). Proved when all answers are in time."
  },
  {
   "property": "C241",
   "status": "partial",
   "theorems": [
    "C241_ends_refuted",
    "C241_first_refuted",
    "C241_description_partial"
   ],
   "note": "REFUTED: failing transfers are not noticed: the length is undefined at the first request, later the loop does not end and the text grows. Proved when all answers are in time, for every packet size."
  },
  {
   "property": "C242",
   "status": "partial",
   "theorems": [
    "C242_wrong_drive_refuted",
    "C242_zero_refuted",
    "C242_right_drive_partial"
   ],
   "note": "REFUTED: a device whose serial number is a beginning of the number asked for is taken, a serial number with leading zeros is never found. Proved for serial numbers of twelve digits and wanted numbers without leading zero."
  },
  {
   "property": "C243",
   "status": "proved",
   "theorems": [
    "C243_handles"
   ],
   "note": ""
  },
  {
   "property": "C244",
   "status": "partial",
   "theorems": [
    "C244_released_refuted",
    "C244_released_partial"
   ],
   "note": "REFUTED: interface 2 is claimed, interface 0 released. Proved when no drive is attached."
  },
  {
   "property": "C245",
   "status": "partial",
   "theorems": [
    "C245_reported_refuted",
    "C245_not_used_refuted",
    "C245_reported_partial"
   ],
   "note": "REFUTED: init returns 0 for an empty list of devices; the constructor configures the drive through a null handle when it was not found. Proved: for a list which is not empty the code is 0 exactly if a drive is attached."
  },
  {
   "property": "C246",
   "status": "partial",
   "theorems": [
    "C246_numbers_refuted",
    "C246_numbers_partial"
   ],
   "note": "REFUTED: the end stop state of axis 1 is read from endpoint 513, the lower end stop, while the upper one is configured (520). Proved for all other numbers."
  },
  {
   "property": "C247",
   "status": "partial",
   "theorems": [
    "C247_button_refuted",
    "C247_button_partial"
   ],
   "note": "REFUTED: a button at axis 1 is never seen, as the wrong endpoint is read. Proved for the endpoints which are read."
  },
  {
   "property": "C248",
   "status": "partial",
   "theorems": [
    "C248_asked_refuted",
    "C248_asked_partial"
   ],
   "note": "REFUTED: the end stops are not read during the calibration, whose waiting loop has no bound. Proved: at most 36 + 4 * (passes of that loop) other requests."
  },
  {
   "property": "C249",
   "status": "proved",
   "theorems": [
    "C249_main_task",
    "C249_never_null"
   ],
   "note": ""
  },
  {
   "property": "C250",
   "status": "partial",
   "theorems": [
    "C250_no_loop_refuted",
    "C250_time_ignored_refuted",
    "C250_compiles_refuted",
    "C250_wanted_partial"
   ],
   "note": "REFUTED: with USE_ETHERCAT the loops for ROS and the system clock are not compiled; without a stack run() executes no cycle and returns. With USE_ROS and USE_ROS2 the text is \"else else if\". Proved for the other builds."
  },
  {
   "property": "C251",
   "status": "partial",
   "theorems": [
    "C251_once_refuted",
    "C251_once_partial",
    "C251_reported_partial"
   ],
   "note": "REFUTED: a task added twice is reported in the log and executed twice. Proved: the list is the list of the added tasks."
  },
  {
   "property": "C252",
   "status": "partial",
   "theorems": [
    "C252_late_refuted",
    "C252_early_partial",
    "C252_main_partial"
   ],
   "note": "REFUTED: add() copies the periodic; monitors added to it later are never called. Proved for earlier monitors and for the main task, which is used by reference."
  },
  {
   "property": "C253",
   "status": "partial",
   "theorems": [
    "C253_early_refuted",
    "C253_early_partial",
    "C253_stop_partial"
   ],
   "note": "REFUTED: stop() ends the waiting and one cycle is executed early. Proved for all cycles but the last, which has stop() as its reason."
  },
  {
   "property": "C254",
   "status": "partial",
   "theorems": [
    "C254_set_back_refuted",
    "C254_none_lost_partial"
   ],
   "note": "REFUTED: when the time of ROS is set back no cycle is executed until the old time is reached. Proved for clocks which pass the due time."
  },
  {
   "property": "C255",
   "status": "partial",
   "theorems": [
    "C255_distance_refuted",
    "C255_distance_partial"
   ],
   "note": "REFUTED: the loop catches up, late cycles follow at the same time. Proved with the lateness of the first cycle bounded."
  },
  {
   "property": "C256",
   "status": "partial",
   "theorems": [
    "C256_period_refuted",
    "C256_zero_refuted",
    "C256_period_partial"
   ],
   "note": "REFUTED: the product is truncated: 65 us becomes 64999 ns, periods below 1 ns become 0 and the loop spins. Proved with an error of 1 ns."
  },
  {
   "property": "C257",
   "status": "partial",
   "theorems": [
    "C257_fresh_refuted",
    "C257_fresh_partial",
    "C257_messages_partial"
   ],
   "note": "REFUTED: stop() lets one cycle run with the old time and without a message. Proved for the other cycles; no message is lost in any case."
  },
  {
   "property": "C258",
   "status": "partial",
   "theorems": [
    "C258_no_cycle_refuted",
    "C258_ends_partial"
   ],
   "note": "REFUTED: a waiting loop executes one more cycle after stop(). Proved: at most one, and the loop ends."
  },
  {
   "property": "C259",
   "status": "partial",
   "theorems": [
    "C259_lost_refuted",
    "C259_each_partial"
   ],
   "note": "REFUTED: steps published faster than the executor runs share a cycle. Proved for a simulator which waits."
  },
  {
   "property": "C260",
   "status": "proved",
   "theorems": [
    "C260_signal_checker_race_free"
   ],
   "note": "No data race on any member of the signal checker, for all programs that use its methods."
  },
  {
   "property": "C261",
   "status": "proved",
   "theorems": [
    "C261_signal_checker_calls_atomic"
   ],
   "note": "The calls of the signal checker do not see changes of other threads."
  },
  {
   "property": "C262",
   "status": "partial",
   "theorems": [
    "C262_gain_race_free_refuted",
    "C262_gain_race_free_partial"
   ],
   "note": "REFUTED: enableParabolicGain writes its flag without the mutex, and it is not among the documented exceptions. Proved for all other members."
  },
  {
   "property": "C263",
   "status": "partial",
   "theorems": [
    "C263_constant_race_free_refuted",
    "C263_constant_race_free_partial"
   ],
   "note": "REFUTED: getValue reads the value without the mutex. Proved without getValue."
  },
  {
   "property": "C264",
   "status": "partial",
   "theorems": [
    "C264_integrator_race_free_refuted",
    "C264_integrator_race_free_partial"
   ],
   "note": "REFUTED: enable, disable, setInitCondition and setLimit write without the mutex. Proved for the level, the safety system, the time and the first-cycle flag."
  },
  {
   "property": "C265",
   "status": "partial",
   "theorems": [
    "C265_limits_set_together_refuted",
    "C265_limits_set_together_partial"
   ],
   "note": "REFUTED: for the limits of the integrator and the saturation and the condition of the switch. Proved for the rate limiter and the wrap around block."
  },
  {
   "property": "C266",
   "status": "partial",
   "theorems": [
    "C266_rate_limiter_race_free_refuted",
    "C266_rate_limiter_race_free_partial"
   ],
   "note": "REFUTED: enable and disable write without the mutex. Proved for the rates and the previous output."
  },
  {
   "property": "C267",
   "status": "partial",
   "theorems": [
    "C267_saturation_race_free_refuted",
    "C267_saturation_race_free_partial"
   ],
   "note": "REFUTED: setLimit, enable and disable write without the mutex. Proved for members which are not changed after the start."
  },
  {
   "property": "C268",
   "status": "partial",
   "theorems": [
    "C268_wrap_around_race_free_refuted",
    "C268_wrap_around_race_free_partial"
   ],
   "note": "REFUTED: enable and disable write without the mutex. Proved for the bounds."
  },
  {
   "property": "C269",
   "status": "partial",
   "theorems": [
    "C269_switch_race_free_refuted",
    "C269_switch_race_free_partial"
   ],
   "note": "REFUTED: all methods but setActiveLevel lack the mutex. Proved for the active level."
  },
  {
   "property": "C270",
   "status": "partial",
   "theorems": [
    "C270_step_race_free_refuted",
    "C270_step_race_free_partial"
   ],
   "note": "REFUTED: the step source has no mutex. Proved for use by one thread."
  },
  {
   "property": "C271",
   "status": "partial",
   "theorems": [
    "C271_path_planner_race_free_refuted",
    "C271_path_planner_race_free_partial"
   ],
   "note": "REFUTED: move reads finished and computes the coefficients without the mutex, also in two concurrent calls. Proved for the time and the range."
  },
  {
   "property": "C272",
   "status": "proved",
   "theorems": [
    "C272_peripheral_output_race_free"
   ],
   "note": "No data race on the value, also when the cycle ends with a fault."
  },
  {
   "property": "C273",
   "status": "partial",
   "theorems": [
    "C273_kalman_two_domains_refuted",
    "C273_kalman_two_domains_partial"
   ],
   "note": "REFUTED: consumers of the outputs do not take the mutex of the filter, so the outputs are raced. Proved for all internal members."
  },
  {
   "property": "C274",
   "status": "partial",
   "theorems": [
    "C274_ring_buffer_race_free_refuted",
    "C274_ring_buffer_race_free_partial"
   ],
   "note": "REFUTED: length reads without the mutex. Proved for push and pop."
  },
  {
   "property": "C275",
   "status": "partial",
   "theorems": [
    "C275_socket_buffers_race_free_refuted",
    "C275_socket_buffers_race_free_partial"
   ],
   "note": "REFUTED: getReceiveBuffer returns a reference which is read after the mutex was released. Proved for the send buffer."
  },
  {
   "property": "C276",
   "status": "partial",
   "theorems": [
    "C276_transition_race_free_refuted",
    "C276_transition_race_free_partial"
   ],
   "note": "REFUTED: the output block for rising rates reads the flag refresh before it takes the mutex. Proved for the other members."
  },
  {
   "property": "C277",
   "status": "partial",
   "theorems": [
    "C277_threads_go_on_refuted",
    "C277_threads_go_on_partial"
   ],
   "note": "REFUTED: a transition whose input is not connected raises a fault between lock and unlock; the mutex stays locked and the other time domain waits for ever. Proved for connected transitions."
  },
  {
   "property": "C278",
   "status": "partial",
   "theorems": [
    "C278_signal_across_threads_refuted",
    "C278_signal_across_threads_partial"
   ],
   "note": "REFUTED: signals have no mutex: race, and value and timestamp of different cycles. Proved for signals used by one thread."
  },
  {
   "property": "C279",
   "status": "partial",
   "theorems": [
    "C279_safety_level_race_free_refuted",
    "C279_safety_level_race_free_partial"
   ],
   "note": "REFUTED: currentLevel is written by the safety system and read by the blocks without a mutex. Proved while no thread writes it."
  },
  {
   "property": "C280",
   "status": "partial",
   "theorems": [
    "C280_time_domain_race_free_refuted",
    "C280_time_domain_race_free_partial"
   ],
   "note": "REFUTED: the list of the blocks and the flag have no mutex. Proved for use by one thread."
  },
  {
   "property": "C281",
   "status": "proved",
   "theorems": [
    "C281_saturation_per_element",
    "C281_rate_limiter_per_element",
    "C281_wrap_around_per_element"
   ],
   "note": ""
  },
  {
   "property": "C282",
   "status": "proved",
   "theorems": [
    "C282_differentiator_per_element",
    "C282_low_pass_per_element",
    "C282_moving_average_per_element",
    "C282_sum_per_element"
   ],
   "note": ""
  },
  {
   "property": "C283",
   "status": "partial",
   "theorems": [
    "C283_integrator_per_element_refuted",
    "C283_integrator_per_element_partial"
   ],
   "note": "REFUTED: val < upperLimit && val > lowerLimit compares whole vectors, so one element at its limit stops all others. Proved while no element is at its limit."
  },
  {
   "property": "C284",
   "status": "partial",
   "theorems": [
    "C284_limits_applied_refuted",
    "C284_limits_applied_partial"
   ],
   "note": "REFUTED: the limits are applied only if all elements are outside on the same side; otherwise the value stays outside for ever. Proved for values all above, all below or all inside."
  },
  {
   "property": "C285",
   "status": "partial",
   "theorems": [
    "C285_target_reached_refuted",
    "C285_overshoot_refuted",
    "C285_limits_refuted",
    "C285_uniform_gain_partial"
   ],
   "note": "REFUTED: the comparisons of whole vectors keep the gain from moving, let it overshoot and leave it outside its limits. Proved for vectors with equal elements, which behave as the gain for numbers (C37)."
  },
  {
   "property": "C286",
   "status": "partial",
   "theorems": [
    "C286_parabolic_matrix_refuted",
    "C286_parabolic_one_gain_partial",
    "C286_parabolic_gains_partial"
   ],
   "note": "REFUTED: with a matrix of gains the result is returned uninitialised (Gain.hpp:337-342). Proved for one gain and for element-wise gains."
  },
  {
   "property": "C287",
   "status": "partial",
   "theorems": [
    "C287_median_refuted",
    "C287_median_partial",
    "C287_one_element_partial"
   ],
   "note": "REFUTED: operator< of vectors with two or more elements is no strict weak order, so std::sort has undefined behaviour, here two inputs after construction. Proved for windows it orders, and for vectors of one element without NaN."
  },
  {
   "property": "C288",
   "status": "partial",
   "theorems": [
    "C288_switch_vector_refuted",
    "C288_switch_vector_partial"
   ],
   "note": "REFUTED: operator< and operator> are negations of >= and <=, so NaN passes. Proved for vectors without NaN."
  },
  {
   "property": "C289",
   "status": "partial",
   "theorems": [
    "C289_off_range_refuted",
    "C289_off_range_limit_refuted",
    "C289_off_range_partial"
   ],
   "note": "REFUTED: NaN and the limits themselves are not reported. Proved for all other values."
  },
  {
   "property": "C290",
   "status": "partial",
   "theorems": [
    "C290_norm_overflow_refuted",
    "C290_norm_underflow_refuted",
    "C290_nan_reported_partial",
    "C290_norm_nonneg_partial",
    "C290_norm_square_partial",
    "C290_norm_zero_partial",
    "C290_norm_scales_partial",
    "C290_norm_bounds_elements_partial"
   ],
   "note": "REFUTED: the squares overflow or underflow in doubles. Proved: NaN is reported; the norm over the reals."
  },
  {
   "property": "C291",
   "status": "partial",
   "theorems": [
    "C291_values_refuted",
    "C291_vectors_partial",
    "C291_columns_partial"
   ],
   "note": "REFUTED: the constructor fills the matrix column by column, << row by row. Proved for vectors; the order of the constructor is proved."
  },
  {
   "property": "C292",
   "status": "proved",
   "theorems": [
    "C292_left_add",
    "C292_left_sub",
    "C292_left_div",
    "C292_minus",
    "C292_add_to",
    "C292_subtract_from"
   ],
   "note": ""
  },
  {
   "property": "C293",
   "status": "partial",
   "theorems": [
    "C293_vector2",
    "C293_vector3",
    "C293_diag_refuted",
    "C293_diag_partial",
    "C293_diag_zero_partial"
   ],
   "note": "REFUTED: createDiag multiplies the identity, so that an infinite value gives NaN beside the diagonal. Proved for real numbers, and the zeros for finite doubles."
  },
  {
   "property": "C294",
   "status": "proved",
   "theorems": [
    "C294_column",
    "C294_row",
    "C294_column_out",
    "C294_row_out",
    "C294_set_then_get",
    "C294_get_then_set"
   ],
   "note": ""
  },
  {
   "property": "C295",
   "status": "proved",
   "theorems": [
    "C295_printed"
   ],
   "note": ""
  },
  {
   "property": "C296",
   "status": "proved",
   "theorems": [
    "C296_message",
    "C296_fresh",
    "C296_stamp"
   ],
   "note": ""
  },
  {
   "property": "C297",
   "status": "partial",
   "theorems": [
    "C297_names_refuted",
    "C297_unconnected_partial",
    "C297_covariance_partial",
    "C297_not_running_partial"
   ],
   "note": "REFUTED: the inputs for the covariances have no owner, so that the fault names no block. Proved: nothing is published; the four other inputs are reported with the name."
  },
  {
   "property": "C298",
   "status": "proved",
   "theorems": [
    "C298_homed",
    "C298_total",
    "C298_levels"
   ],
   "note": ""
  },
  {
   "property": "C299",
   "status": "proved",
   "theorems": [
    "C299_selected",
    "C299_moving"
   ],
   "note": ""
  },
  {
   "property": "C300",
   "status": "partial",
   "theorems": [
    "C300_jump_refuted",
    "C300_switch_partial"
   ],
   "note": "REFUTED: the planner starts at 0, so that the output jumps from the homed position to (0, 0). Proved: which input the output shows."
  },
  {
   "property": "C301",
   "status": "proved",
   "theorems": [
    "C301_interrupt",
    "C301_stop"
   ],
   "note": ""
  },
  {
   "property": "C302",
   "status": "proved",
   "theorems": [
    "C302_ends"
   ],
   "note": ""
  },
  {
   "property": "C303",
   "status": "partial",
   "theorems": [
    "C303_abort_refuted",
    "C303_only_partial"
   ],
   "note": "REFUTED: an abort ends wait(2) only, and the next line throws the switch. Proved: no other line throws it."
  },
  {
   "property": "C304",
   "status": "partial",
   "theorems": [
    "C304_still_refuted",
    "C304_setpoint_partial"
   ],
   "note": "REFUTED: when the cycle of the safety system comes late, homing starts a second time and the level changes meanwhile. Proved: the setpoint is zero outside the homing sequence."
  },
  {
   "property": "C305",
   "status": "partial",
   "theorems": [
    "C305_early_refuted",
    "C305_stopped_partial"
   ],
   "note": "REFUTED: the time domain is running from its construction, so that cycles before the first one of the safety system write to the output. Proved: afterwards it is stopped until the last action of the level."
  },
  {
   "property": "C306",
   "status": "partial",
   "theorems": [
    "C306_jump_refuted",
    "C306_first_partial"
   ],
   "note": "REFUTED: after such an early cycle the integrator counts the pause of five seconds as one step and the output jumps from 0 to more than 12. Proved: the first value written is 0."
  },
  {
   "property": "C307",
   "status": "partial",
   "theorems": [
    "C307_race_refuted",
    "C307_late_refuted",
    "C307_limits_partial"
   ],
   "note": "REFUTED: when the restart falls between the read and the write of the integrator its initial condition is lost and the ramp continues above 20.1; a late cycle does the same. Proved: the output stays within -1.5 and 19.9 when cycles are shorter than 80 ms and the restart does not overlap a cycle."
  },
  {
   "property": "C308",
   "status": "partial",
   "theorems": [
    "C308_never_refuted",
    "C308_late_refuted",
    "C308_thrown_partial"
   ],
   "note": "REFUTED: once the ramp has passed the window of 19.9 to 20.1 the switch is never thrown, the level stays running and the output grows for ever. Proved: the switch is thrown under the conditions of C307."
  },
  {
   "property": "C309",
   "status": "proved",
   "theorems": [
    "C309_total",
    "C309_numbers",
    "C309_no_emergency"
   ],
   "note": ""
  },
  {
   "property": "C310",
   "status": "proved",
   "theorems": [
    "C310_emergency",
    "C310_halt"
   ],
   "note": ""
  },
  {
   "property": "C311",
   "status": "proved",
   "theorems": [
    "C311_pauses"
   ],
   "note": ""
  },
  {
   "property": "C312",
   "status": "partial",
   "theorems": [
    "C312_overflow_refuted",
    "C312_frames_partial",
    "C312_only_partial"
   ],
   "note": "REFUTED: the variable is unsigned, so that -1 becomes 4294967295 and its scaled value cannot be converted to uint32_t: undefined behaviour two seconds after the start of the motion. Proved: every frame sent carries 0 or 2, and nothing else is undefined."
  },
  {
   "property": "C313",
   "status": "partial",
   "theorems": [
    "C313_ignored_refuted",
    "C313_overridden_refuted",
    "C313_moving_partial",
    "C313_ready_partial"
   ],
   "note": "REFUTED: at level init the event is not known and the interrupt has no effect; at level ready an event of the sequencer in the same cycle wins, because stop is the highest level. Proved: the interrupt leads to stop from moving, and from ready when nothing else comes in the same cycle."
  },
  {
   "property": "C314",
   "status": "proved",
   "theorems": [
    "C314_ends"
   ],
   "note": ""
  },
  {
   "property": "C315",
   "status": "partial",
   "theorems": [
    "C315_enabled_refuted",
    "C315_states_partial"
   ],
   "note": "REFUTED: the states of the drives are read by SDO transfers after the blocks are enabled. Proved: no others when the safety system is in time."
  },
  {
   "property": "C316",
   "status": "partial",
   "theorems": [
    "C316_twice_refuted",
    "C316_once_partial"
   ],
   "note": "REFUTED: when the cycle of the safety system comes late the initialization runs a second time, with the blocks enabled. Proved: once when it is in time."
  },
  {
   "property": "C317",
   "status": "partial",
   "theorems": [
    "C317_after_refuted",
    "C317_rest_partial"
   ],
   "note": "REFUTED: the time domain is between the test of the flag and the frames. Proved: at most three more frames."
  },
  {
   "property": "C318",
   "status": "partial",
   "theorems": [
    "C318_stop_refuted",
    "C318_rest_partial"
   ],
   "note": "REFUTED: the velocity of 2 is sent at level stop until the sequencer gets to the stopping sequence. Proved: it is zero at levels init and ready."
  },
  {
   "property": "C319",
   "status": "partial",
   "theorems": [
    "C319_mutex_refuted",
    "C319_library_refuted",
    "C319_only_partial",
    "C319_indeed_partial",
    "C319_elsewhere_partial"
   ],
   "note": "REFUTED: the handler locks the mutex its own thread already holds, or builds a log message while its thread is inside malloc. Proved: these are the only cases, and signals that come elsewhere are harmless."
  },
  {
   "property": "C320",
   "status": "partial",
   "theorems": [
    "C320_hangs_refuted",
    "C320_returns_partial"
   ],
   "note": "REFUTED: interrupted between lock and unlock the safety thread never goes on. Proved: elsewhere the handler returns after at most 11 steps of its thread and of the owner of the mutex."
  },
  {
   "property": "C321",
   "status": "partial",
   "theorems": [
    "C321_stale_refuted",
    "C321_taken_partial"
   ],
   "note": "REFUTED: a handler in another thread takes the destination of the level before the cycle, and leads out of a level without any events. Proved: in the thread of the safety system the next cycle is at the destination or below, if that is lower than the level interrupted."
  },
  {
   "property": "C322",
   "status": "partial",
   "theorems": [
    "C322_ramp_from_zero_refuted",
    "C322_ramp_from_zero_partial"
   ],
   "note": "REFUTED: setInitCondition takes no lock; a run of the integrator that read the NaN of the constructor and is resumed after the last cycle of the level start writes NaN back. Proved: 0, if one cycle of the stay finds the time domain idle."
  },
  {
   "property": "C323",
   "status": "partial",
   "theorems": [
    "C323_reset_at_five_refuted",
    "C323_reset_at_five_partial"
   ],
   "note": "REFUTED: with the NaN of C322 the checker reports at once. Proved: at least 10 s and 5, if one cycle of every stay finds the time domain idle."
  },
  {
   "property": "C324",
   "status": "proved",
   "theorems": [
    "C324_armed",
    "C324_caught",
    "C324_reported",
    "C324_back",
    "C324_goes_on"
   ],
   "note": "Proved for all interleavings, with the mutex of the checker as the reason why reset and report cannot mix."
  },
  {
   "property": "C325",
   "status": "partial",
   "theorems": [
    "C325_interrupt_refuted",
    "C325_interrupt_partial"
   ],
   "note": "REFUTED: before the first cycle the level is off, which has no transition for the event; the interrupt is lost and the program goes on. Proved: at all other moments 12 steps of the safety system are enough."
  },
  {
   "property": "C326",
   "status": "partial",
   "theorems": [
    "C326_report_refuted",
    "C326_report_partial",
    "C326_before_partial"
   ],
   "note": "REFUTED: if p1 runs six times before the first cycle of the safety system the event is lost for good. Proved: not, if the sixth run finds the level initializing."
  },
  {
   "property": "C327",
   "status": "proved",
   "theorems": [
    "C327_off",
    "C327_alternates",
    "C327_every_cycle"
   ],
   "note": "Proved for all interleavings."
  },
  {
   "property": "C328",
   "status": "proved",
   "theorems": [
    "C328_seven_cycles"
   ],
   "note": "Proved."
  },
  {
   "property": "C329",
   "status": "partial",
   "theorems": [
    "C329_begins_off_refuted",
    "C329_begins_off_partial"
   ],
   "note": "REFUTED: the toggle action keeps its value from stay to stay. Proved: the first stay begins with off."
  },
  {
   "property": "C330",
   "status": "proved",
   "theorems": [
    "C330_begins",
    "C330_ends",
    "C330_off_ends",
    "C330_on_starts"
   ],
   "note": "Proved for all interleavings."
  },
  {
   "property": "C331",
   "status": "partial",
   "theorems": [
    "C331_defined_refuted",
    "C331_defined_partial"
   ],
   "note": "REFUTED: int count overflows after 2^31 runs. Proved: everything else is defined."
  },
  {
   "property": "C332",
   "status": "partial",
   "theorems": [
    "C332_copy_safe_refuted",
    "C332_write_refuted",
    "C332_wrapped_partial",
    "C332_lines_partial"
   ],
   "note": "REFUTED: the size is set by the second copy, the time stamps are allocated by the first; index is read again after new. Proved: after a wrap around every interleaving is safe and each file has N lines."
  },
  {
   "property": "C333",
   "status": "partial",
   "theorems": [
    "C333_lines_match_refuted",
    "C333_half_refuted",
    "C333_quiet_partial",
    "C333_newest_partial",
    "C333_early_partial"
   ],
   "note": "REFUTED: after a wrap around a run between the two copies shifts the values against the time stamps. Proved: exact file if the time domain does not run during the copy; lines match while fewer than N-1 samples were taken."
  },
  {
   "property": "C334",
   "status": "proved",
   "theorems": [
    "C334_not_lost",
    "C334_served"
   ],
   "note": "Proved for all interleavings."
  },
  {
   "property": "C335",
   "status": "partial",
   "theorems": [
    "C335_base_run_refuted",
    "C335_flag_lost_refuted",
    "C335_join_refuted",
    "C335_lives_partial",
    "C335_stops_partial"
   ],
   "note": "REFUTED: the thread may call Thread::run of the base class; the initializer of running may undo the start; destroyed before the start the join never returns. Proved: started after the construction it lives until the destruction; destroyed while under way it ends."
  },
  {
   "property": "C336",
   "status": "partial",
   "theorems": [
    "C336_after_refuted",
    "C336_before_refuted",
    "C336_idle_partial"
   ],
   "note": "REFUTED: the members are destroyed before the base class joins, and go is read before it is initialized. Proved: destroyed while it waits every interleaving is defined."
  },
  {
   "property": "C337",
   "status": "partial",
   "theorems": [
    "C337_two_traces_refuted",
    "C337_shifted_refuted",
    "C337_full_partial",
    "C337_together_partial"
   ],
   "note": "REFUTED: a run between the two calls of enable gives a read behind the end of buf2 or lines with samples of different runs. Proved: both traces full, or enabled between two runs."
  },
  {
   "property": "C338",
   "status": "partial",
   "theorems": [
    "C338_initialized_refuted",
    "C338_always_partial",
    "C338_written_partial",
    "C338_stays_partial"
   ],
   "note": "REFUTED: dVal and dTime are read before the first signal, in TransitionBlockTest in every one of the first runs. Proved: from the first signal on they are written, for all interleavings."
  },
  {
   "property": "C339",
   "status": "partial",
   "theorems": [
    "C339_not_empty_refuted",
    "C339_not_empty_partial"
   ],
   "note": "REFUTED: a slow thread late by one period runs twice in a row and reads an empty vector. Proved: defined if it is done when the last sample before its next start is recorded."
  },
  {
   "property": "C340",
   "status": "proved",
   "theorems": [
    "C340_slow",
    "C340_fast"
   ],
   "note": "Proved for all ratios and interleavings (exact arithmetic, time stamps truncated to ns)."
  },
  {
   "property": "C341",
   "status": "partial",
   "theorems": [
    "C341_number_refuted",
    "C341_number_partial"
   ],
   "note": "REFUTED: the first outputs are NaN. Proved: from the fourth on every output is a number, for all interleavings."
  },
  {
   "property": "C342",
   "status": "proved",
   "theorems": [
    "C342_delayed"
   ],
   "note": "Proved for all ratios and lengths of periods."
  },
  {
   "property": "C343",
   "status": "proved",
   "theorems": [
    "C343_after"
   ],
   "note": ""
  },
  {
   "property": "C344",
   "status": "partial",
   "theorems": [
    "C344_before_refuted",
    "C344_main_refuted",
    "C344_released_partial"
   ],
   "note": "REFUTED: a task in the before list is only released by its semaphore; the parent goes on at once, and in C344_main_refuted so does the main task. Proved: it has been released."
  },
  {
   "property": "C345",
   "status": "proved",
   "theorems": [
    "C345_not_lost",
    "C345_rate",
    "C345_never_more"
   ],
   "note": ""
  },
  {
   "property": "C346",
   "status": "proved",
   "theorems": [
    "C346_built",
    "C346_rates",
    "C346_order"
   ],
   "note": ""
  },
  {
   "property": "C347",
   "status": "partial",
   "theorems": [
    "C347_overlap_refuted",
    "C347_self_partial"
   ],
   "note": "REFUTED: in PeriodicExample3 task 2, task 1 which it follows and the main task can work at the same time. Proved: a task never overlaps with itself."
  },
  {
   "property": "C348",
   "status": "partial",
   "theorems": [
    "C348_backlog_refuted",
    "C348_backlog_partial"
   ],
   "note": "REFUTED: the semaphore counts without bound when a thread does not get on. Proved: at most one run is waiting when the thread is less than two triggers behind."
  },
  {
   "property": "C349",
   "status": "partial",
   "theorems": [
    "C349_monitors_refuted",
    "C349_example_partial",
    "C349_monitors_partial"
   ],
   "note": "REFUTED: periodics are copied into the list of another one; in PeriodicExample3 the monitors of tasks 3 and 4 are pushed after the copy and are never called. Proved: all are used when they were pushed before the first copy."
  },
  {
   "property": "C350",
   "status": "partial",
   "theorems": [
    "C350_copies_refuted",
    "C350_example_partial"
   ],
   "note": "REFUTED: a task which is pushed into a list after its parent was copied gets no thread. Proved: PeriodicExample3 has the right order."
  },
  {
   "property": "C351",
   "status": "partial",
   "theorems": [
    "C351_ignored_refuted",
    "C351_moving_partial"
   ],
   "note": "REFUTED: an interrupt before the level moving is ignored by the safety system (slInit has no seShutDown) although the sequence is aborted; without a second interrupt the executor runs forever. Proved: at level moving at most 7 steps of the main thread are needed."
  },
  {
   "property": "C352",
   "status": "proved",
   "theorems": [
    "C352_sequence",
    "C352_handler",
    "C352_program"
   ],
   "note": ""
  },
  {
   "property": "C353",
   "status": "partial",
   "theorems": [
    "C353_not_home_refuted",
    "C353_enabled_refuted",
    "C353_end_partial"
   ],
   "note": "REFUTED: the time domain may be joined before the sequence sets the position back, so the last frame carries another position; sending is never disabled. Proved: the constant holds zero at the end."
  },
  {
   "property": "C354",
   "status": "partial",
   "theorems": [
    "C354_goes_on_refuted",
    "C354_ended_partial"
   ],
   "note": "REFUTED: Sequencer::abort ends the waits only; the sequence goes on with the next position, which is sent. Proved: nothing changes after the end of the sequence."
  },
  {
   "property": "C355",
   "status": "proved",
   "theorems": [
    "C355_frames"
   ],
   "note": ""
  },
  {
   "property": "C356",
   "status": "partial",
   "theorems": [
    "C356_shut_refuted",
    "C356_init_partial"
   ],
   "note": "REFUTED: the level is compared once per round; the safety system may have changed to shut down before setValue. Proved: at level init the position is zero."
  },
  {
   "property": "C357",
   "status": "proved",
   "theorems": [
    "C357_not_mixed",
    "C357_no_message"
   ],
   "note": ""
  },
  {
   "property": "C358",
   "status": "partial",
   "theorems": [
    "C358_race_refuted",
    "C358_race_always",
    "C358_gain_partial"
   ],
   "note": "REFUTED: the flag ready is a plain bool which is written by one and read by the other thread without synchronisation, in each run of the program. Proved: the gain is never accessed by both."
  },
  {
   "property": "C359",
   "status": "proved",
   "theorems": [
    "C359_join",
    "C359_no_deadlock"
   ],
   "note": ""
  },
  {
   "property": "C360",
   "status": "proved",
   "theorems": [
    "C360_bound",
    "C360_all_fail",
    "C360_none_fails"
   ],
   "note": ""
  },
  {
   "property": "C361",
   "status": "partial",
   "theorems": [
    "C361_all_at_once_refuted",
    "C361_then_alone_partial",
    "C361_starts_late_partial"
   ],
   "note": "REFUTED: the other thread repeats setGain as long as the flag is set and may do all its rounds in the first round of the main thread. Proved: afterwards no run fails, so the remaining runs test nothing."
  },
  {
   "property": "C362",
   "status": "proved",
   "theorems": [
    "C362_after_run",
    "C362_in_time"
   ],
   "note": ""
  },
  {
   "property": "C363",
   "status": "partial",
   "theorems": [
    "C363_torn_refuted",
    "C363_torn_other_refuted",
    "C363_elements_partial",
    "C363_then_whole_partial"
   ],
   "note": "REFUTED: the monitor reads the signal without a lock while the first run writes it; one element is nan and the other the result. Proved: each element is nan or the result, and all values read after the first run are whole."
  }
 ]
}