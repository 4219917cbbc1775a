{"claims":[
{"property": "C01", "status": "proved", "theorems": ["C01_product_close", "C01_product_exact", "C01_dominant_close"], "note": "Over the reals with the code's 1e-100 flush and skip rules; floating rounding not modelled."},
{"property": "C02", "status": "proved", "theorems": ["C02_solve", "C02_zero_pivot_throws", "C02_decompose_solve"], "note": "Over the reals."},
{"property": "C03", "status": "proved", "theorems": ["C03_dominant_succeeds"], "note": "Over the reals."},
{"property": "C04", "status": "proved", "theorems": ["C04_positive_offdiagonal_refuted"], "note": "The property is false; the theorem exhibits a positive definite 3x3 matrix that decomposes to factors of another matrix."},
{"property": "C05", "status": "proved", "theorems": ["C05_row_list"], "note": "For any number type, with the pointer offsets of the code; needs at least two rows."},
{"property": "C06", "status": "proved", "theorems": ["C06_invert"], "note": "Over the reals; two-sided inverse and symmetric."},
{"property": "C07", "status": "proved", "theorems": ["C07_admittance_sum", "C07_order_irrelevant", "C07_out_of_range_ignored"], "note": "real arithmetic; sums over map slots, any previous content"},
{"property": "C08", "status": "proved", "theorems": ["C08_source_sum", "C08_negative_node_is_undefined"], "note": "real arithmetic; node numbers non-negative (ground is the last index); a negative node number is an out-of-bounds store and modelled as such"},
{"property": "C09", "status": "proved", "theorems": ["C09_conditioning"], "note": "real arithmetic"},
{"property": "C10", "status": "proved", "theorems": ["C10_islands_are_components"], "note": "pattern symmetric"},
{"property": "C11", "status": "proved", "theorems": ["C11_vectors_partition"], "note": "any matrix, any number type"},
{"property": "C12", "status": "proved", "theorems": ["C12_island_solve", "C12_converse", "C12_error_detection_differs"], "note": "real arithmetic, symmetric zero pattern; error detection differs for non-positive single-node islands, shown by witness"},
{"property": "C13", "status": "proved", "theorems": ["C13_budgets", "C13_history"], "note": "Arbitrary links; counts over the ghost call record. Termination: step is a total function."},
{"property": "C14", "status": "proved", "theorems": ["C14_converged", "C14_converged_real"], "note": "Generic number type, then read over the reals."},
{"property": "C15", "status": "proved", "theorems": ["C15_verdict", "C15_order_irrelevant"], "note": ""},
{"property": "C16", "status": "proved", "theorems": ["C16_rollback"], "note": "Records of all minor steps of a major step; the base is mMinorPotentialVector at the start of the step."},
{"property": "C17", "status": "proved", "theorems": ["C17_failed_step", "C17_restores_previous"], "note": ""},
{"property": "C18", "status": "proved", "theorems": ["C18_factorisation_current_refuted", "C18_current_in_normal_mode"], "note": "False as stated (DUMMY step then NORMAL step); proved for NORMAL-only histories with honest links and no earlier exception."},
{"property": "C19", "status": "proved", "theorems": ["C19_ground_zero", "C19_restart"], "note": "Callbacks after the solution are assumed not to write potentials or move ports."},
{"property": "C20", "status": "proved", "theorems": ["C20_pause"], "note": ""},
{"property": "C21", "status": "proved", "theorems": ["C21_nan_not_accepted_refuted"], "note": "False: NaN witness over binary64."},
{"property": "C22", "status": "proved", "theorems": ["C22_potentials_agree", "C22_each_minor_step"], "note": "Same assumption on callbacks as C19."},
{"property": "C23", "status": "proved", "theorems": ["C23_port_map_stays_valid", "C23_set_port_request", "C23_user_command", "C23_initialise"], "note": "GunnsBasicLink port map over every history of requests"},
{"property": "C24", "status": "proved", "theorems": ["C24_restart_restores_map_refuted", "C24_locked_map_refuted", "C24_restart_restores_map_when_free"], "note": "false: a port whose default node is occupied by another port (or a locked map) is not restored; positive condition proved"},
{"property": "C25", "status": "proved", "theorems": ["C25_transport_moves_flux", "C25_transport_conserves"], "note": "exact reals, any list of transports"},
{"property": "C26", "status": "proved", "theorems": ["C26_roles_settle", "C26_roles_settle_from_start", "C26_both_demand_refuted", "C26_forced_pair"], "note": "Settling is proved for every start with at least one side in Supply (any channel content, any delays with positive sum) and for every start from initialisation. The property as stated is false for a start with both sides in Demand that have already seen each other's demand flag: C26_both_demand_refuted; C26_forced_pair shows how forcing both sides and releasing them gets there."},
{"property": "C27", "status": "proved", "theorems": ["C27_demand_limit_bounded"], "note": "Over exact reals."},
{"property": "C28", "status": "proved", "theorems": ["C28_fluid_forced_role_obeyed", "C28_elect_forced_role_obeyed"], "note": "Every number type, doubles included."},
{"property": "C29", "status": "proved", "theorems": ["C29_notifications_fifo_refuted", "C29_notifications_lifo"], "note": "The property is false: the queue is last in, first out. Refuted, with what the code does."},
{"property": "C30", "status": "proved", "theorems": ["C30_fluid_latency_exact", "C30_elect_latency_exact"], "note": "Any starting counts and channel content, counter wrap included; total delay below 2^31 frames."},
{"property": "C31", "status": "proved", "theorems": ["C31_not_both_demand"], "note": "Any window of loop latency + 3 frames after the first echo has a frame where not both are in Demand."},
{"property": "C32", "status": "proved", "theorems": ["C32_trips_latch", "C32_report_is_the_latch", "C32_one_report_per_latch"], "note": "Every number type, floats included."},
{"property": "C33", "status": "proved", "theorems": ["C33_no_trip_without_cause", "C33_disabled_never_trips", "C33_nan_never_trips"], "note": "Every number type; the NaN statement for binary64."},
{"property": "C34", "status": "proved", "theorems": ["C34_check_never_weakens"], "note": ""},
{"property": "C35", "status": "proved", "theorems": ["C35_tripped_switch_stays_open", "C35_overcurrent_opens", "C35_waits_for_priority", "C35_external_trip_opens", "C35_tripped_switch_open_refuted", "C35_setpoint_unlatches_refuted"], "note": "Proved for histories without the fail-closed malfunction and with trip limits of the right sign. As stated the property is false: releasing fail-closed leaves a tripped switch closed, and a wrong-signed set-point malfunction unlatches the trip."},
{"property": "C36", "status": "proved", "theorems": ["C36_limit_range_in_range", "C36_limit_range_values", "C36_limit_range_monotone", "C36_limit_range_idempotent", "C36_limit_range_nan", "C36_limit_range_int"], "note": "For every ordered number type; Ord.v proves the laws for binary64 (all doubles, infinities and signed zeros included) and for the reals."},
{"property": "C37", "status": "proved", "theorems": ["C37_angle_pi", "C37_angle_2pi", "C37_angle_180", "C37_angle_360", "C37_every_angle_refuted"], "note": "Exact reals. Proved for the documented input ranges; false outside them (witness)."},
{"property": "C38", "status": "proved", "theorems": ["C38_protected_div", "C38_protected_div_no_zero", "C38_protected_roots", "C38_protected_trig", "C38_protected_argument", "C38_protected_div_finite_refuted"], "note": "Equality with the plain operation over exact reals; no zero divisor and no argument below DBL_EPSILON in binary64; finiteness is false for the division (overflow witness)."},
{"property": "C39", "status": "proved", "theorems": ["C39_bounded_fifo", "C39_initialize_fresh", "C39_count_overflow", "C39_in_order", "C39_size_bounded", "C39_largest_size", "C39_insert_before_initialize"], "note": "Holds while the count of lost messages fits an int; beyond that the count overflows (undefined), as does the largest size and inserting before a size is set."},
{"property": "C40", "status": "proved", "theorems": ["C40_one_reader", "C40_one_reader_safe", "C40_alone_insert", "C40_alone_remove"], "note": "Interleavings of single reads and writes with sequentially consistent memory; the unlocked reads of isEmpty are a data race in the language."},
{"property": "C41", "status": "proved", "theorems": ["C41_several_readers_refuted"], "note": "The property is false: witness interleaving of two readers."},
{"property": "C42", "status": "proved", "theorems": ["C42_limit", "C42_answer", "C42_filtered_type", "C42_few_keys", "C42_binary64", "C42_setters", "C42_new"], "note": "For the reals and for binary64 time stamps alike. Windows are exact real intervals; the answer is stated with the window start as the code rounds it."},
{"property": "C43", "status": "proved", "theorems": ["C43_history_of_one_refuted", "C43_wrong_victim_refuted", "C43_victim", "C43_two_or_more", "C43_first_stays"], "note": "False as stated: a history of one record is undefined behaviour at the second message, and the first record in key order is never the victim. Proved: the victim is the oldest among the others, and with a history of two or more no call crashes and the size is bounded."},
{"property": "C44", "status": "proved", "theorems": ["C44_history_free", "C44_interpolant", "C44_points", "C44_between", "C44_descending", "C44_monotone", "C44_exact_start", "C44_last_point_refuted"], "note": "History-freedom and storing hold for reals and binary64; the interpolant, points and bounds are over the reals. In binary64 a cell is monotone and exact at its start, and the last point of a table is missed (refuted). No NaN; the cell left by earlier use is inside the table."},
{"property": "C45", "status": "proved", "theorems": ["C45_strict", "C45_nan_refuted"], "note": "Holds in both number types for tables and limits without NaN; with NaN it is false (witnesses)."},
{"property": "C46", "status": "proved", "theorems": ["C46_odd", "C46_order", "C46_even_wrong_row", "C46_refuted"], "note": "True for odd lengths, false for every even length: the two middle rows are swapped twice."},
{"property": "C47", "status": "proved", "theorems": ["C47_bracket", "C47_inside", "C47_width", "C47_zero_near", "C47_count", "C47_not_bracketed", "C47_tolerance_refuted", "C47_binary64_refuted"], "note": "The bracket and the count hold in both number types; membership and distance over the reals with the exact bound tol + 4 eps |x|. Plain 2*tol and, in binary64, membership are false (witnesses)."},
{"property": "C48", "status": "proved", "theorems": ["C48_held", "C48_fired", "C48_stays", "C48_after_first_interval", "C48_real", "C48_binary64_refuted", "C48_nan_for_ever"], "note": "Proved for exact reals; for both number types the output is in the limits or NaN. In binary64 finite inputs can make it NaN by overflow (refuted by a witness), and it then stays NaN for ever. Before the first completed interval the output is the unlimited initial value."},
{"property": "C49", "status": "proved", "theorems": ["C49_range", "C49_off", "C49_perfect", "C49_fail_to", "C49_stuck", "C49_defined", "C49_real", "C49_nan_refuted", "C49_undefined_refuted"], "note": "The range part holds over the reals and, up to NaN, in binary32; in binary32 a finite truth can give NaN, and a resolution that is fine for the range is undefined behaviour (int overflow in MsMath::round): both refuted by witnesses. Off value and perfect-sensor override are proved for both."},
{"property": "C50", "status": "proved", "theorems": ["C50_ring", "C50_auto", "C50_snap"], "note": "Ring refinement against a list that keeps every step, and end to end through RECORD_AUTO and RECORD_SNAP/SNAP to the file contents."},
{"property": "C51", "status": "proved", "theorems": ["C51_triangle", "C51_triangle_point", "C51_triangle_null", "C51_sphere", "C51_sphere_point", "C51_small_triangle_refuted", "C51_degenerate_refuted"], "note": "Exact characterisation in the reals (triangle: when six times the tetrahedron volume is at least 1e-5; sphere: different ends). Refuted outside: millimetre-size triangles are never hit, and a segment with equal ends hits every sphere in binary64."},
{"property": "C52", "status": "proved", "theorems": ["C52_cap_refuted", "C52_cap_below_refuted", "C52_inside_refuted", "C52_complete_partial"], "note": "Refuted: the first end-cap formula has 2t where it needs t, and starts inside the endless cylinder are dropped. What does hold: completeness for segments that begin beside the cylinder and not before its first cap."},
{"property": "C53", "status": "proved", "theorems": ["C53_passive_network_solves"], "note": "real arithmetic"},
{"property": "C54", "status": "proved", "theorems": ["C54_requests_do_not_disturb", "C54_requests_answered"], "note": "At the level of buildAndSolveSystem."},
{"property": "C55", "status": "proved", "theorems": ["C55_requested_capacitance_available_refuted"], "note": "False: the second minor step of the same step resets the value to zero."},
{"property": "C56", "status": "proved", "theorems": ["C56_supply_pressure_sent_refuted", "C56_supply_pressure_sent_unforced"], "note": "False with the Supply role forced; proved otherwise."},
{"property": "C57", "status": "proved", "theorems": ["C57_tripped_switch2_open", "C57_tripped_switch2_open_refuted", "C57_malfunction_release_refuted"], "note": "False in general (two witnesses); proved when fail-closed is never used and the two voltage trips are not both latched."},
{"property": "C58", "status": "proved", "theorems": ["C58_resistance_malfunction_stable_refuted", "C58_resistance_malfunction_stable_to_100"], "note": "False above 100 percent; proved up to 100 percent over exact reals."},
{"property": "C59", "status": "proved", "theorems": ["C59_protection_restored_refuted"], "note": "False: witness history."},
{"property": "C60", "status": "proved", "theorems": ["C60_trip_at_priority", "C60_late_condition_trips_refuted"], "note": "False for a condition first appearing after the priority step; proved for one present at the priority step."},
{"property": "C61", "status": "proved", "theorems": ["C61_round_nearest", "C61_round_defined", "C61_quantize_nearest", "C61_quantize_sign_refuted", "C61_quantize_defined_refuted"], "note": "Nearest proved over exact reals; the sign note and definedness for all inputs are false (witnesses)."},
{"property": "C62", "status": "proved", "theorems": ["C62_asinh_correct", "C62_asinh_odd_refuted"], "note": "Proved for x >= -2^50 over exact reals; false as stated (witness -2^53)."},
{"property": "C63", "status": "proved", "theorems": ["C63_fast_pow_integer"], "note": ""},
{"property": "C64", "status": "proved", "theorems": ["C64_fast_pow_single_precision_refuted"], "note": "False: witness base exp(-124), exponent 1/2."},
{"property": "C65", "status": "proved", "theorems": ["C65_inner_limit_outside", "C65_inner_limit_nearest", "C65_inner_limit_int", "C65_inner_limit_int_defined_refuted"], "note": "Outside-the-band for every ordered number type; nearest over reals; the int overload can overflow (witness)."},
{"property": "C66", "status": "proved", "theorems": ["C66_switch_position", "C66_switch_trip_clears", "C66_switch_conductance", "C66_switch_resistance", "C66_switch_init"], "note": "Every number type."},
{"property": "C67", "status": "proved", "theorems": ["C67_flow_trips", "C67_flow_unprotected", "C67_flow_waits", "C67_flow_outputs"], "note": "Every number type."},
{"property": "C68", "status": "proved", "theorems": ["C68_switch2_state", "C68_switch2_trips", "C68_switch2_auto_reset", "C68_switch2_auto_reset_over", "C68_switch2_no_check", "C68_switch2_limits", "C68_switch2_init"], "note": "Every number type."},
{"property": "C69", "status": "proved", "theorems": ["C69_lock_failures_one_writer", "C69_lock_failures_refuted"], "note": "False with two writers (lost increment, witness); proved for one writer."},
{"property": "C70", "status": "proved", "theorems": ["C70_empty_alone", "C70_empty_means_empty_refuted"], "note": "False under concurrency (witness); proved for one thread."},
{"property": "C71", "status": "proved", "theorems": ["C71_separate_records", "C71_collision_refuted"], "note": "True when file and subsystem contain no bar; false in general, with a witness."},
{"property": "C72", "status": "proved", "theorems": ["C72_counters", "C72_disabled", "C72_busy"], "note": "Counters below INT_MAX; calls from one thread, the mutex held by another thread is a flag."},
{"property": "C73", "status": "proved", "theorems": ["C73_interpolant", "C73_binary64_refuted"], "note": "Over the reals; in binary64 the answer on a cell border depends on the call before (witness)."},
{"property": "C74", "status": "proved", "theorems": ["C74_linear", "C74_bilinear_never", "C74_bilinear_refuted"], "note": "True for the linear class; the bilinear class never reports it."},
{"property": "C75", "status": "proved", "theorems": ["C75_destroy", "C75_failed_refuted"], "note": "True after success and for a new object; false after failed initialisations (witnesses)."},
{"property": "C76", "status": "proved", "theorems": ["C76_reinit", "C76_reinit_refuted"], "note": "True when the old cell is inside the new table; otherwise the look-up reads past it (witness)."},
{"property": "C77", "status": "proved", "theorems": ["C77_range", "C77_refuted"], "note": "The minimum is always right, the maximum when a later value is not below the first; otherwise false (witness). Values within 1e16."},
{"property": "C78", "status": "proved", "theorems": ["C78_inverse"], "note": "Over the reals, ascending abscissas, values within 1e16; for falling rows the first value must not be the only largest one (see C77)."},
{"property": "C79", "status": "proved", "theorems": ["C79_refuted"], "note": "False: witness that needs more than 100 iterations."},
{"property": "C80", "status": "proved", "theorems": ["C80_gaps", "C80_last_gap_refuted"], "note": "True for all gaps but the last; false for the last (witness)."},
{"property": "C81", "status": "proved", "theorems": ["C81_time_and_integral", "C81_control_law"], "note": "Exact reals."},
{"property": "C82", "status": "proved", "theorems": ["C82_refuted"], "note": "False: for every bound there is a saturated run whose integral exceeds it."},
{"property": "C83", "status": "proved", "theorems": ["C83_drift_sum", "C83_drift_cleared", "C83_refuted"], "note": "The sum is proved; the clearing part holds while the sensor works and is false when it is cleared while the sensor is off (witness)."},
{"property": "C84", "status": "proved", "theorems": ["C84_accuracy", "C84_exact", "C84_multiple_refuted"], "note": "Accuracy proved over exact reals for truths that are zero or at least FLT_MIN in size; the multiple-of-resolution part is false at the range limits (witness)."},
{"property": "C85", "status": "proved", "theorems": ["C85_not_degraded", "C85_flag"], "note": "Both float types."},
{"property": "C86", "status": "proved", "theorems": ["C86_safe", "C86_all_links_refuted"], "note": "No out-of-bounds access for any sequence of calls the solver, user and writer make; the public recordAllLinksResult on a log of size zero is out of bounds (refuted for that call)."},
{"property": "C87", "status": "proved", "theorems": ["C87_records_in_recording_states", "C87_resize_refuted"], "note": "Holds while the size is not changed through updateFreeze; refuted when it is changed during a pending write (the file gets the failure text and the log records while paused)."},
{"property": "C88", "status": "proved", "theorems": ["C88_linear_refuted", "C88_stale_refuted"], "note": "Refuted: every successful step of a linear network is dumped, and a row can show an earlier step's potentials."},
{"property": "C89", "status": "proved", "theorems": ["C89_spheroid", "C89_point", "C89_output_refuted"], "note": "Hit and point proved in the reals; the output argument is changed on a miss (refuted)."},
{"property": "C90", "status": "proved", "theorems": ["C90_cylinder_point", "C90_short_refuted"], "note": "Proved for segments exactly parallel to the axis or with squared cross product at least 1e-5; refuted in between (short segments)."},
{"property": "C91", "status": "proved", "theorems": ["C91_net_flux_is_residual", "C91_exact_conservation_refuted"], "note": "Equality up to an explicit slack of the dead band for small drops and exact when no touching conductor is in it. The flux conservation itself is false: with the exact solution of a two-node network a node keeps a net flux of 1, because the dead band compares a drop with 100 epsilon times the potential."},
{"property": "C92", "status": "proved", "theorems": ["C92_power_balance", "C92_conductors_dissipate"], "note": "Real numbers."},
{"property": "C93", "status": "proved", "theorems": ["C93_flux_is_charge_rate", "C93_charge_conserved"], "note": "Real numbers; the step size is replaced by epsilon when it is smaller."},
{"property": "C94", "status": "proved", "theorems": ["C94_admittance_sound", "C94_conductance_follows", "C94_capacitance_follows"], "note": "binary64; a NaN setting freezes the old admittance (Example C94_nan_setting)."},
{"property": "C95", "status": "proved", "theorems": ["C95_controller", "C95_command_exceeded_refuted"], "note": "Holds with unchanged potentials; false once the potentials change after the step: the flux then exceeds the command without limit."},
{"property": "C96", "status": "proved", "theorems": ["C96_network_solves", "C96_capacitance_refuted"], "note": "Proved for non-negative capacitances; false otherwise, since setCapacitance and editCapacitance do not validate."},
{"property": "C97", "status": "proved", "theorems": ["C97_estimate_converges", "C97_minimum", "C97_no_division_by_zero", "C97_nan_latch_refuted"], "note": "Convergence over the reals; no division by zero in binary64 for a non-negative minimum potential change. A negative one is accepted by the (empty) validation and gives a NaN that no later input removes."},
{"property": "C98", "status": "proved", "theorems": ["C98_laws", "C98_controller_minor", "C98_power", "C98_through"], "note": "Real numbers. The flow controller's law is C95, the capacitor's C93."},
{"property": "C99", "status": "proved", "theorems": ["C99_flag_is_sound", "C99_flag_stays", "C99_flag_is_tight"], "note": "Soundness for every number type; with C18 this gives the solver's use of current admittances. A restart clears the flag but also forces a rebuild."},
{"property": "C100", "status": "proved", "theorems": ["C100_plug", "C100_socket"], "note": "Over all reachable plug/socket states, including after exceptions."},
{"property": "C101", "status": "proved", "theorems": ["C101_others"], "note": ""},
{"property": "C102", "status": "proved", "theorems": ["C102_requests", "C102_swap_refuted"], "note": "The swap of two plugs in one step is refuted."},
{"property": "C103", "status": "proved", "theorems": ["C103_direct_join", "C103_direct_leave", "C103_direct_none_refuted", "C103_direct_stay_refuted"], "note": "The documented override holds as proved; refuted for two combinations with pending requests."},
{"property": "C104", "status": "proved", "theorems": ["C104_never_again", "C104_port_refuted"], "note": "The port is refuted to follow the plug when the connection half throws."},
{"property": "C105", "status": "proved", "theorems": ["C105_plug_node", "C105_ports", "C105_restart", "C105_locked_refuted", "C105_moved_refuted"], "note": "Refuted for a locked port map and for a socket moved after the connection."},
{"property": "C106", "status": "proved", "theorems": ["C106_jumper", "C106_socket"], "note": ""},
{"property": "C107", "status": "proved", "theorems": ["C107_terminates", "C107_once"], "note": ""},
{"property": "C108", "status": "proved", "theorems": ["C108_inputs_first", "C108_calm_first", "C108_overflow_waits", "C108_flows_computed_first", "C108_plain", "C108_upstream_first", "C108_early_refuted", "C108_warning_refuted"], "note": "The claim that early transports happen only in loops is refuted; the rest is proved."},
{"property": "C109", "status": "proved", "theorems": ["C109_mass_fractions", "C109_mole_fractions", "C109_keep", "C109_update", "C109_init", "C109_init_refuted"], "note": "Over exact reals. False for fractions that initialize must rescale: witness."},
{"property": "C110", "status": "proved", "theorems": ["C110_temperature", "C110_rising", "C110_enthalpy", "C110_set_temperature", "C110_cancel_refuted", "C110_near_refuted", "C110_range_refuted"], "note": "Over exact reals with the real square root; binary64 witnesses with the fits of FluidProperties.cpp."},
{"property": "C111", "status": "proved", "theorems": ["C111_add", "C111_energy", "C111_own_flow", "C111_trickle_refuted", "C111_throw_refuted"], "note": "Over exact reals; witnesses in binary64. Flows out of a stream (negative override) only by the witness."},
{"property": "C112", "status": "proved", "theorems": ["C112_normalize", "C112_mix"], "note": "Over exact reals."},
{"property": "C113", "status": "proved", "theorems": ["C113_balance", "C113_throw_refuted"], "note": "Over reals. The hypotheses sound and calm say that the compositions are consistent, that the node is not drained and that no flow is below a threshold of the code without being zero. The refutation, in binary64: a node at the threshold mass that is drained in a step of more than a second makes addState throw out of integrateFlows."},
{"property": "C114", "status": "proved", "theorems": ["C114_energy", "C113_balance"], "note": "Over reals, with sqrt and pow as parameters where the code calls them. The new temperature is assumed in the range of the fits, see C110."},
{"property": "C115", "status": "proved", "theorems": ["C115_flows", "C115_conserved", "C115_deadband_refuted", "C115_overdraw_refuted"], "note": "Over reals. Conductors without internal fluid; energy for nodes without damping and expansion. Without the hypothesis on thresholds it is false: a mole flow above DBL_EPSILON whose mass flow is below 100 DBL_EPSILON leaves its node and arrives nowhere; and what is drawn beyond the contents is created, as a comment in the code says."},
{"property": "C116", "status": "proved", "theorems": ["C116_through", "C116_energy"], "note": "Over reals."},
{"property": "C117", "status": "proved", "theorems": ["C117_correction", "C117_none"], "note": "Over reals."},
{"property": "C118", "status": "proved", "theorems": ["C118_init", "C118_resize", "C118_vanish"], "note": "Over reals."},
{"property": "C119", "status": "proved", "theorems": ["C119_get", "C119_exceptional"], "note": "Over the reals, with the real sqrt, exp and log10 and any pow."},
{"property": "C120", "status": "proved", "theorems": ["C120_flag", "C120_constructors", "C120_fresh", "C120_again", "C120_again_refuted"], "note": "The last sentence is refuted for QuadraticRootFit: its check of the range uses the coefficients of the previous init."},
{"property": "C121", "status": "proved", "theorems": ["C121_accepts", "C121_regular", "C121_regular_binary64", "C121_rational_refuted", "C121_rational_refused_refuted", "C121_sutherland_refuted", "C121_quadlininv_refuted", "C121_quadraticroot_refuted"], "note": "Refuted for four classes, with accepted fits whose value within the range is infinite or NaN."},
{"property": "C122", "status": "proved", "theorems": ["C122_ideal_gas", "C122_liquid", "C122_enthalpy", "C122_saturation", "C122_saturation_back", "C122_tsat_positive"], "note": "Over the reals; pow is the real power."},
{"property": "C123", "status": "proved", "theorems": ["C123_constructs", "C123_temperature", "C123_temperature_refuted", "C123_pressure", "C123_pressure_refuted", "C123_saturation", "C123_gas_law"], "note": "Refuted for NTO, MMH (temperature at the end of the range) and liquid oxygen (density independent of the pressure near 55 K)."},
{"property": "C124", "status": "proved", "theorems": ["C124_positive", "C124_adiabatic", "C124_viscosity_refuted", "C124_adiabatic_refuted"], "note": "Refuted for HFE7000 and HYDROGEN (negative viscosity in the valid range) and NH3, CH4 and CH4_REAL_GAS (adiabatic index below 0.8 at 2000 K)."},
{"property": "C125", "status": "proved", "theorems": ["C125_hvap", "C125_refuted"], "note": "Refuted for the three propellants: their fit is of the temperature but is given the temperature over the critical temperature."},
{"property": "C126", "status": "proved", "theorems": ["C126_set_temperature", "C126_initialize", "C126_density", "C126_ideal_mixture", "C126_add_state", "C126_add_pressure_refuted"], "note": "Exact arithmetic; the refutation is in binary64: addState weights the partial pressures with the mole fractions although they are partial already (two equal streams of half helium and half nitrogen at 100 kPa give 50 kPa)."},
{"property": "C127", "status": "proved", "theorems": ["C127_edit", "C127_edit_partial", "C127_set_mass", "C127_initialize", "C127_set_state", "C127_reset"], "note": "Exact arithmetic. edit_partial with a total below FLT_EPSILON keeps the composition."},
{"property": "C128", "status": "proved", "theorems": ["C128_matrix", "C128_compose", "C128_round_trip", "C128_inverse", "C128_normalize", "C128_normalize_vector", "C128_rate", "C128_motion", "C128_round_trip_binary64_refuted", "C128_normalize_zero_refuted"], "note": "Over the reals; two refutations in binary64."},
{"property": "C129", "status": "proved", "theorems": ["C129_quaternion", "C129_throws", "C129_update", "C129_singular", "C129_round_trip"], "note": "Over the reals with the standard library's sin, cos and asin; atan2 is built on atan in Spec_Dyn.v."},
{"property": "C130", "status": "proved", "theorems": ["C130_wellposed", "C130_matrix", "C130_motion", "C130_no_offset", "C130_offset", "C130_offset_refuted", "C130_accepts_refuted", "C130_rejects_refuted", "C130_reinitialize_refuted"], "note": "Over the reals. The linear solver is any function whose answer solves the equations. The refuted parts have witnesses."},
{"property": "C131", "status": "proved", "theorems": ["C131_integ"], "note": "Over the reals, for any integrator."},
{"property": "C132", "status": "proved", "theorems": ["C132_amounts", "C132_node", "C132_expansion"], "note": "Over the reals. The outflow's flow is the sum of the two parts unless the part that passes through is below the threshold flow."},
{"property": "C133", "status": "proved", "theorems": ["C133_elements", "C133_matrix_vector", "C133_matrix_matrix", "C133_cross", "C133_rate", "C133_shifted_refuted", "C133_over_matrix_refuted", "C133_over_quaternion_refuted"], "note": "For any number type, in the order of the code's operations. The refuted theorems are the witnesses for the overlaps that are not allowed."},
{"property": "C134", "status": "proved", "theorems": ["C134_range", "C134_flow_area", "C134_accepted", "C134_same_limits_refuted"], "note": "range for reals and binary64; the flow area in reals; NaN flow area for equal limits proved as a witness"},
{"property": "C135", "status": "proved", "theorems": ["C135_position", "C135_power", "C135_interrupted", "C135_speed_interrupted", "C135_handle", "C135_handle_refuted", "C135_paths", "C135_solenoids", "C135_sensor", "C135_analog"], "note": "the handle is ignored with the end-of-travel interruption (witness)"},
{"property": "C136", "status": "proved", "theorems": ["C136_travel", "C136_initialized", "C136_transit_time", "C136_follow"], "note": "real numbers"},
{"property": "C137", "status": "proved", "theorems": ["C137_count", "C137_ends", "C137_slow_refuted"], "note": "the longer transit time is a witness"},
{"property": "C138", "status": "proved", "theorems": ["C138_heat", "C138_override", "C138_queues", "C138_queue_heat"], "note": "real arithmetic"},
{"property": "C139", "status": "proved", "theorems": ["C139_single_phase", "C139_mixed", "C139_crossing", "C139_leak", "C139_structure_refuted"], "note": "real arithmetic; storing all heat also at the passage is refuted by a witness"},
{"property": "C140", "status": "proved", "theorems": ["C140_averages", "C140_first_law", "C140_first_law_refuted", "C140_equal_refuted", "C140_plates", "C140_ports"], "note": "real arithmetic; refutations by witnesses"},
{"property": "C141", "status": "proved", "theorems": ["C141_source", "C141_override", "C141_panel", "C141_panel_refuted", "C141_multi", "C141_radiation", "C141_radiation_passive", "C141_radiation_refuted"], "note": "real arithmetic; the white panel by computation in binary64, the equal temperatures by a witness"},
{"property": "C142", "status": "proved", "theorems": ["C142_range", "C142_charge", "C142_flow", "C142_no_more", "C142_empty_cell_refuted", "C142_dead", "C142_series", "C142_parallel", "C142_terminals", "C142_init", "C142_power"], "note": "Range for any ordered numbers (binary64 included), the rest over reals; that charging creates no charge is refuted by a battery with one half charged and one empty cell."},
{"property": "C143", "status": "proved", "theorems": ["C143_empties", "C143_exact", "C143_heat", "C143_cascade", "C143_release", "C143_release_refuted"], "note": "Over reals; that turning the malfunction off always ends it is refuted."},
{"property": "C144", "status": "proved", "theorems": ["C144_delivers", "C144_energy", "C144_voltage_energy", "C144_power", "C144_blocked_refuted"], "note": "The positive statements are proved over the reals; energy balance with a blockage is false, see C144_blocked_refuted."},
{"property": "C145", "status": "proved", "theorems": ["C145_settles_alone", "C145_settles", "C145_limits", "C145_order_refuted", "C145_ground_refuted", "C145_stale_refuted"], "note": "Bounds proved for any number type; (a), (b), (c) are false claims about the code with proofs of their failure."},
{"property": "C146", "status": "proved", "theorems": ["C146_draws", "C146_agree", "C146_balance", "C146_overload", "C146_starts", "C146_blocked_refuted"], "note": "Proved over the reals (agreement for any number type); the claim that a full blockage stops the current is false, see C146_blocked_refuted."},
{"property": "C147", "status": "proved", "theorems": ["C147_idle", "C147_resistive", "C147_constant", "C147_override", "C147_laws", "C147_accepted", "C147_off_refuted"], "note": "Proved over the reals; that an off load draws nothing is false, see C147_off_refuted."},
{"property": "C148", "status": "proved", "theorems": ["C148_step", "C148_cycle", "C148_fraction", "C148_exact_refuted", "C148_zero_refuted"], "note": "Proved over the reals by induction on steps; the exact share is false, see the refutations."},
{"property": "C149", "status": "proved", "theorems": ["C149_short", "C149_initial", "C149_negative_refuted"], "note": "Proved over the reals; the initial-power short with a negative value is refuted."},
{"property": "C150", "status": "proved", "theorems": ["C150_voltage", "C150_circuit", "C150_power", "C150_bare", "C150_step"], "note": "Proved over the reals by algebra over the list of loads."},
{"property": "C151", "status": "proved", "theorems": ["C151_fuse", "C151_reset", "C151_stays", "C151_confirm", "C151_verdict", "C151_early_refuted"], "note": "Proved over the reals; a fuse rated above the load's current can blow, see C151_early_refuted."},
{"property": "C152", "status": "proved", "theorems": ["C152_conductor", "C152_override", "C152_release_refuted"], "note": "Proved over the reals; release from override is refuted."},
{"property": "C153", "status": "proved", "theorems": ["C153_connects", "C153_conductance", "C153_flux", "C153_flag", "C153_disconnect_refuted", "C153_moved_refuted"], "note": "Invariant over call sequences; the flag for any number type, the rest over reals; two refutations."},
{"property": "C154", "status": "proved", "theorems": ["C154_admittance", "C154_closed", "C154_scales", "C154_predict", "C154_step", "C154_tune", "C154_tune_refuted", "C154_modes", "C154_direction", "C154_capacitance"], "note": "Proved over the reals with the library's square root and power; the tuned flow is refuted for unequal molecular weights."},
{"property": "C155", "status": "proved", "theorems": ["C155_expansion", "C155_tune", "C155_nan_refuted"], "note": "Proved over the reals; the NaN is shown in binary64."},
{"property": "C156", "status": "proved", "theorems": ["C156_convection", "C156_convection_heat", "C156_conduction"], "note": "Proved over the reals."},
{"property": "C157", "status": "proved", "theorems": ["C157_fick", "C157_balance", "C157_bulk", "C157_carried", "C157_stall_refuted", "C157_coefficient"], "note": "Proved over the reals for all lists; the stall is a refutation."},
{"property": "C158", "status": "proved", "theorems": ["C158_fractions", "C158_round_trip", "C158_pressures", "C158_map", "C158_transform", "C158_transform_total"], "note": "Proved over the reals by induction on the lists; the map for all types."},
{"property": "C159", "status": "proved", "theorems": ["C159_conductivity", "C159_leak", "C159_leak_refuted", "C159_leak_exponent_refuted", "C159_check", "C159_check_settles", "C159_check_curve"], "note": "Proved over the reals by induction on steps; two refutations of the leak."},
{"property": "C160", "status": "proved", "theorems": ["C160_three_way", "C160_check", "C160_check_open", "C160_openb_refuted"], "note": "Proved over the reals; the open pressure of path B is refuted."},
{"property": "C161", "status": "proved", "theorems": ["C161_off", "C161_hole", "C161_rate", "C161_swap_refuted", "C161_memory", "C161_return", "C161_return_refuted"], "note": "Proved over the reals; the interplay of the two malfunctions is refuted."},
{"property": "C162", "status": "proved", "theorems": ["C162_curves", "C162_step", "C162_hysteresis", "C162_settles", "C162_failed", "C162_pressure", "C162_start_refuted"], "note": "Refinement to the play operator by an invariant over histories, over the reals; the regulator by mirroring; the start part open is refuted."},
{"property": "C163", "status": "proved", "theorems": ["C163_pressure", "C163_latch", "C163_exit", "C163_blockage", "C163_inlet", "C163_ledger", "C163_update", "C163_overdraw_refuted", "C163_trickle_refuted", "C163_move_refuted"], "note": "Proved over the reals; three refutations."},
{"property": "C164", "status": "proved", "theorems": ["C164_transfer", "C164_loss", "C164_mix", "C164_drain", "C164_rates", "C164_agree", "C164_empty", "C164_init", "C164_find"], "note": "Proved over the reals for all lists; the loss by the cut-off is bounded."},
{"property": "C165", "status": "proved", "theorems": ["C165_coefficient", "C165_init", "C165_heat", "C165_segment", "C165_idle", "C165_mirror", "C165_override", "C165_update", "C165_delta_refuted", "C165_setters"], "note": "Proved over the reals by induction on the segments; the reported temperature difference is refuted for reverse flow."},
{"property": "C166", "status": "proved", "theorems": ["C166_htc", "C166_monotone", "C166_segment", "C166_init"], "note": "Proved over the reals."},
{"property": "C167", "status": "proved", "theorems": ["C167_dry", "C167_dew", "C167_wet", "C167_books", "C167_transport", "C167_htc", "C167_negative_refuted", "C167_degraded_refuted"], "note": "Proved over the reals with the fluid as an abstract value; two refutations, one in binary64."},
{"property": "C168", "status": "proved", "theorems": ["C168_hatch", "C168_qd"], "note": "Proved over the reals; diffusion itself is C157."},
{"property": "C169", "status": "proved", "theorems": ["C169_mass", "C169_adiabatic", "C169_wall", "C169_energy_refuted"], "note": "Proved over the reals; the energy balance is refuted where the heat is shut off."},
{"property": "C170", "status": "proved", "theorems": ["C170_moved", "C170_met", "C170_schedule", "C170_blocked", "C170_blocked_refuted", "C170_internal_refuted"], "note": "Proved over the reals; two refutations."},
{"property": "C171", "status": "proved", "theorems": ["C171_step", "C171_refused", "C171_gas", "C171_boyle", "C171_boyle_refuted"], "note": "Proved over the reals; Boyle's law is refuted for time steps other than one second."},
{"property": "C172", "status": "proved", "theorems": ["C172_potential", "C172_range", "C172_command", "C172_converges", "C172_converges_refuted", "C172_flow", "C172_exponent_refuted"], "note": "Proved over the reals; two refutations."},
{"property": "C173", "status": "proved", "theorems": ["C173_one_flow"], "note": "Proved over the reals."},
{"property": "C174", "status": "proved", "theorems": ["C174_conductance", "C174_no_overshoot", "C174_average", "C174_change", "C174_estimate"], "note": "Proved over the reals."},
{"property": "C175", "status": "proved", "theorems": ["C175_integral", "C175_total"], "note": "Proved over the reals by induction."},
{"property": "C176", "status": "proved", "theorems": ["C176_extremes", "C176_extremes_refuted", "C176_report", "C176_constituents"], "note": "Proved over the reals by induction."},
{"property": "C177", "status": "proved", "theorems": ["C177_adsorb", "C177_desorb", "C177_idle", "C177_limits", "C177_range", "C177_init", "C177_source_refuted", "C177_malf_refuted", "C177_available_refuted"], "note": "Proved over the reals; three refutations."},
{"property": "C178", "status": "proved", "theorems": ["C178_books", "C178_share", "C178_reverse_refuted", "C178_capacity_refuted"], "note": "Proved over the reals; two refutations."},
{"property": "C179", "status": "proved", "theorems": ["C179_hot", "C179_bounds"], "note": "Proved over the reals."},
{"property": "C180", "status": "proved", "theorems": ["C180_rate", "C180_slowed", "C180_limits", "C180_held", "C180_init", "C180_flowless_refuted"], "note": "Proved over the reals; one refutation."},
{"property": "C181", "status": "proved", "theorems": ["C181_each", "C181_range", "C181_books", "C181_trace", "C181_trace_refuted"], "note": "Proved over the reals by induction; one refutation."},
{"property": "C182", "status": "proved", "theorems": ["C182_books", "C182_range", "C182_reference", "C182_init", "C182_lost_refuted"], "note": "Proved over the reals; one refutation."},
{"property": "C183", "status": "proved", "theorems": ["C183_heater", "C183_flow", "C183_override", "C183_trace", "C183_drop", "C183_volume", "C183_blocked_refuted", "C183_light"], "note": "Proved over the reals; one refutation."},
{"property": "C184", "status": "proved", "theorems": ["C184_reaction", "C184_direction", "C184_trip", "C184_latched", "C184_rest", "C184_mass", "C184_mass_refuted", "C184_standby_refuted"], "note": "Proved over the reals; two refutations."},
{"property": "C185", "status": "proved", "theorems": ["C185_flow", "C185_inlet", "C185_power"], "note": "Proved over the reals."},
{"property": "C186", "status": "proved", "theorems": ["C186_source", "C186_grows", "C186_stalls", "C186_recovers", "C186_noise", "C186_reverse_refuted"], "note": "Proved over the reals by induction on the steps; one refutation."},
{"property": "C187", "status": "proved", "theorems": ["C187_rate", "C187_pool", "C187_balance"], "note": "Proved over the reals."},
{"property": "C188", "status": "proved", "theorems": ["C188_rate", "C188_direction", "C188_balance", "C188_heat", "C188_sign", "C188_warm", "C188_limit_refuted", "C188_sign_refuted"], "note": "Proved over the reals; two refutations."},
{"property": "C189", "status": "proved", "theorems": ["C189_rate", "C189_balance"], "note": "Proved over the reals."},
{"property": "C190", "status": "proved", "theorems": ["C190_stoichiometry", "C190_positive", "C190_mass", "C190_sequence", "C190_efficiency", "C190_cleared"], "note": "Proved over the reals."},
{"property": "C191", "status": "proved", "theorems": ["C191_flows", "C191_rates", "C191_intake", "C191_heat", "C191_reverse_refuted", "C191_source_refuted"], "note": "Proved over the reals; two refutations."},
{"property": "C192", "status": "proved", "theorems": ["C192_elements", "C192_excess", "C192_mass_refuted"], "note": "Proved over the reals and integers; one refutation."},
{"property": "C193", "status": "proved", "theorems": ["C193_rates", "C193_paused", "C193_exchange", "C193_oxygen", "C193_transition", "C193_leave", "C193_accepted", "C193_oxygen_refuted", "C193_heat_refuted", "C193_activities"], "note": "Proved over the reals; two refutations."},
{"property": "C194", "status": "proved", "theorems": ["C194_edit", "C194_arrives", "C194_flow", "C194_off", "C194_set", "C194_cancel", "C194_source", "C194_stale_refuted"], "note": "Proved over the reals, densities proportional to pressure; one refutation."},
{"property": "C195", "status": "proved", "theorems": ["C195_shell", "C195_edit", "C195_once", "C195_accepted", "C195_dpdt", "C195_settles", "C195_endless_refuted"], "note": "Proved over the reals; one refutation."},
{"property": "C196", "status": "proved", "theorems": ["C196_accepted", "C196_volume", "C196_inflation", "C196_edit", "C196_zero_refuted"], "note": "Proved over the reals; one refutation."},
{"property": "C197", "status": "proved", "theorems": ["C197_correction", "C197_rigid", "C197_none", "C197_rate_edit", "C197_capacity", "C197_source", "C197_scale", "C197_separator"], "note": "Proved over the reals."},
{"property": "C198", "status": "proved", "theorems": ["C198_valid", "C198_shape", "C198_ramp", "C198_sound", "C198_place", "C198_full_refuted"], "note": "Proved over the reals; one refutation."},
{"property": "C199", "status": "proved", "theorems": ["C199_open", "C199_closing", "C199_oneway", "C199_opens", "C199_fraction", "C199_conductivity", "C199_spring", "C199_pause_refuted", "C199_decay_refuted", "C199_no_band"], "note": "Proved over the reals; two refutations."},
{"property": "C200", "status": "proved", "theorems": ["C200_flow", "C200_balance", "C200_heat", "C200_steady", "C200_pressure", "C200_drain_refuted", "C200_stick_refuted", "C200_port", "C200_held"], "note": "Proved over the reals; two refutations."},
{"property": "C201", "status": "proved", "theorems": ["C201_stick", "C201_edit", "C201_ends", "C201_hold_refuted", "C201_forced_heat", "C201_temperature", "C201_free"], "note": "Proved over the reals; one refutation."},
{"property": "C202", "status": "proved", "theorems": ["C202_alone", "C202_together", "C202_rupture", "C202_bellows", "C202_stay", "C202_arrives", "C202_update", "C202_capacitance", "C202_valid", "C202_conductivity", "C202_head_refuted", "C202_negative_refuted", "C202_trickle_refuted", "C202_forced", "C202_held", "C202_heat", "C202_no_capacitance"], "note": "Proved over the reals; three refutations."},
{"property": "C203", "status": "proved", "theorems": ["C203_or", "C203_and", "C203_stays_on", "C203_stays_off", "C203_all", "C203_band", "C203_dead_sensors"], "note": "Proved for any number type, the band over the reals."},
{"property": "C204", "status": "proved", "theorems": ["C204_order", "C204_release", "C204_override", "C204_shadow", "C204_bias", "C204_both", "C204_inverted_refuted", "C204_accepts"], "note": "Proved; one refutation."},
{"property": "C205", "status": "proved", "theorems": ["C205_switch", "C205_threshold", "C205_tolerance", "C205_average", "C205_average_off", "C205_ends", "C205_not_both", "C205_stops_short", "C205_full_travel_refuted"], "note": "Proved over the reals; one refutation."},
{"property": "C206", "status": "proved", "theorems": ["C206_commanded", "C206_quiet", "C206_timer", "C206_power", "C206_again_refuted"], "note": "Proved over the reals; one refutation."},
{"property": "C207", "status": "proved", "theorems": ["C207_load", "C207_range", "C207_smoke", "C207_more_smoke", "C207_off", "C207_volts", "C207_slope", "C207_slope_refuted", "C207_largest_refuted", "C207_sensors", "C207_truth"], "note": "Proved over the reals; two refutations."},
{"property": "C208", "status": "proved", "theorems": ["C208_curve", "C208_affinity", "C208_free_flow", "C208_stopped", "C208_pressure", "C208_not_negative", "C208_meets", "C208_unsolved", "C208_solver", "C208_system_positive", "C208_filter", "C208_steady", "C208_check", "C208_speed", "C208_disconnected", "C208_source", "C208_init", "C208_fallback_refuted", "C208_gain_refuted", "C208_pump", "C208_cavitated_check_refuted"], "note": "Proved over the reals for any result of the root finders; three refutations."},
{"property": "C209", "status": "proved", "theorems": ["C209_specific_speed", "C209_best_power", "C209_range", "C209_cube", "C209_plain", "C209_torque", "C209_generated", "C209_configured", "C209_efficiency", "C209_generated_refuted", "C209_takes_power_refuted"], "note": "Proved over the reals; two refutations."},
{"property": "C210", "status": "proved", "theorems": ["C210_head", "C210_lighter", "C210_reverse", "C210_adds", "C210_columns", "C210_transpose", "C210_bound"], "note": "Proved over the reals."},
{"property": "C211", "status": "proved", "theorems": ["C211_maps", "C211_similar", "C211_flow", "C211_empty", "C211_ratio", "C211_range", "C211_realised", "C211_efficiency", "C211_power", "C211_order_refuted", "C211_greatest_refuted", "C211_accepts", "C211_speed", "C211_negative", "C211_throws"], "note": "Proved over the reals; two refutations."},
{"property": "C212", "status": "proved", "theorems": ["C212_load", "C212_order", "C212_energy", "C212_excess", "C212_momentum", "C212_settles", "C212_monotone", "C212_override", "C212_jam_refuted", "C212_backwards_refuted", "C212_accepts"], "note": "Proved over the reals; two refutations."},
{"property": "C213", "status": "proved", "theorems": ["C213_accepts", "C213_current", "C213_degraded", "C213_energy", "C213_resistance", "C213_torque", "C213_speed", "C213_load", "C213_heat", "C213_bias", "C213_settles", "C213_overshoot_refuted", "C213_efficiency_refuted", "C213_jam_refuted", "C213_step"], "note": "Proved over the reals; three refutations."},
{"property": "C214", "status": "proved", "theorems": ["C214_accepts", "C214_stall", "C214_drive", "C214_current", "C214_range", "C214_monotone", "C214_resistance", "C214_generated", "C214_step", "C214_settles", "C214_energy_refuted", "C214_generating_refuted"], "note": "Proved over the reals; two refutations."},
{"property": "C215", "status": "proved", "theorems": ["C215_accepts", "C215_power", "C215_trips", "C215_stopped", "C215_pulse", "C215_running", "C215_steady", "C215_phase", "C215_startup", "C215_total", "C215_unpowered", "C215_starts_refuted", "C215_override_refuted"], "note": "Proved over the reals, fmod by its contract, sin arbitrary; two refutations."},
{"property": "C216", "status": "proved", "theorems": ["C216_accepts", "C216_coefficients", "C216_discharge", "C216_choked_most", "C216_continuous", "C216_still", "C216_gas", "C216_liquid", "C216_conductance", "C216_area", "C216_flux", "C216_inlet", "C216_mass_refuted", "C216_reynolds"], "note": "Proved over the reals with Rpower for pow; one refutation."},
{"property": "C217", "status": "proved", "theorems": ["C217_accepts", "C217_area", "C217_range", "C217_within", "C217_leak", "C217_kept", "C217_cleared", "C217_flux", "C217_late_refuted", "C217_phase_refuted"], "note": "Proved over the reals; two refutations."},
{"property": "C218", "status": "proved", "theorems": ["C218_volume", "C218_fresh", "C218_stalled_refuted", "C218_restart_refuted"], "note": "Generic in the number type; two refutations in binary64."},
{"property": "C219", "status": "proved", "theorems": ["C219_flow", "C219_own_energy", "C219_pressure", "C219_temperature_refuted", "C219_forced_refuted", "C219_chosen"], "note": "Proved over the reals; two refutations in binary64."},
{"property": "C220", "status": "proved", "theorems": ["C220_series", "C220_unknown", "C220_both_demand", "C220_supply", "C220_admittance", "C220_no_overshoot", "C220_capacitance"], "note": "Proved over the reals."},
{"property": "C221", "status": "proved", "theorems": ["C221_supersonic", "C221_subsonic", "C221_mach", "C221_low_refuted", "C221_exit", "C221_choked", "C221_characteristic", "C221_recombined"], "note": "Proved over the reals; the refutation is for all gammas."},
{"property": "C222", "status": "proved", "theorems": ["C222_accepts", "C222_burns", "C222_hypergolic", "C222_count", "C222_gas", "C222_chamber", "C222_thrust", "C222_cstar", "C222_conductance"], "note": "Histories for every number type, by induction; the rest over the reals."},
{"property": "C223", "status": "proved", "theorems": ["C223_one_home", "C223_layout", "C223_kept", "C223_added", "C223_self_refuted"], "note": "Invariant by induction over the calls; a super-network added to itself is excluded and refuted apart."},
{"property": "C224", "status": "proved", "theorems": ["C224_joined", "C224_refused", "C224_brought", "C224_connected", "C224_absorbed_refuted", "C224_late_refuted", "C224_across_refuted", "C224_index"], "note": "Invariant by induction over the calls; three refutations by computed witnesses."},
{"property": "C225", "status": "proved", "theorems": ["C225_burns", "C225_out", "C225_balance", "C225_flux", "C225_balanced_refuted", "C225_blocked", "C225_blocked_refuted", "C225_last_refuted"], "note": "Induction over the passes; the mass balance over the reals; three refutations by witnesses."},
{"property": "C226", "status": "proved", "theorems": ["C226_exits", "C226_defined", "C226_pass", "C226_conserved", "C226_fractions", "C226_source", "C226_flux", "C226_accepts", "C226_ports_refuted", "C226_extra_port_refuted", "C226_shared_refuted"], "note": "Induction over passes over the reals; three refutations by computed float witnesses; trace compounds are not modelled."},
{"property": "C227", "status": "proved", "theorems": ["C227_accepts", "C227_setters", "C227_law", "C227_settles", "C227_unique", "C227_history_refuted", "C227_monotone_refuted"], "note": "Over the reals; the network is its open voltage and conductance at the diode's ports."},
{"property": "C228", "status": "proved", "theorems": ["C228_flag", "C228_power", "C228_sealed", "C228_bounded", "C228_init", "C228_least_refuted", "C228_dead_refuted", "C228_limits"], "note": "Induction over loads and steps over the reals; two refutations by computed float witnesses."},
{"property": "C229", "status": "proved", "theorems": ["C229_active", "C229_exclusive", "C229_pass", "C229_ports", "C229_shows", "C229_stale_refuted", "C229_handover_refuted", "C229_weights", "C229_potential"], "note": "Induction over passes; the mixtures over the reals, with bounds on molecular weights; two refutations by computed float witnesses."},
{"property": "C230", "status": "proved", "theorems": ["C230_bounded", "C230_states", "C230_socket", "C230_rate", "C230_remembers", "C230_starts_refuted", "C230_off_refuted"], "note": "Induction over steps over the reals; two refutations by witnesses, one of them for all continuations."},
{"property": "C231", "status": "proved", "theorems": ["C231_one", "C231_step", "C231_confirm", "C231_once", "C231_forced", "C231_supplies", "C231_request", "C231_supply_refuted", "C231_flows_refuted", "C231_once_refuted", "C231_threshold"], "note": "Invariants and induction over calls and frames for any numbers; three refutations by float witnesses, one by induction."},
{"property": "C232", "status": "proved", "theorems": ["C232_best", "C232_none", "C232_kept", "C232_primary", "C232_usable", "C232_range_refuted", "C232_backup_kept_refuted"], "note": "Induction over the inputs over the reals; two refutations by computed float witnesses."},
{"property": "C233", "status": "proved", "theorems": ["C233_switches", "C233_rejects", "C233_draws", "C233_reports", "C233_power_refuted", "C233_valid_refuted", "C233_load", "C233_flag"], "note": "Induction over confirmations and inputs; two refutations by computed float witnesses. Not stated: that the input in use is given up when no input may be used (a wrong program that keeps it passes these theorems; see seeded/LOG.jsonl)."},
{"property": "C234", "status": "proved", "theorems": ["C234_bypassed", "C234_curve", "C234_most_refuted", "C234_dark_refuted", "C234_light"], "note": "Over the reals, the groups by induction; two refutations by computed float witnesses of validated strings."},
{"property": "C235", "status": "proved", "theorems": ["C235_voltage", "C235_conductance", "C235_unique", "C235_power", "C235_power_none", "C235_most_refuted", "C235_outside"], "note": "Over the reals, the roots of the quadratic are placed by their squares; one refutation by a computed float witness."}
]}
