{
 "claims": [
  {
   "property": "C01",
   "status": "proved",
   "theorems": [
    "C01_word_is_ieee754",
    "C01_number_roundtrip",
    "C01_zero_roundtrip",
    "C01_word_roundtrip"
   ],
   "note": "Proved for every normal double and zero: the stored word is the IEEE 754 bit pattern and reading it gives the number back; every word that is not a special pattern survives unpack and pack."
  },
  {
   "property": "C02",
   "status": "partial",
   "theorems": [
    "C02_large_subnormals_partial",
    "C02_infinity_refuted",
    "C02_nan_refuted",
    "C02_subnormal_lost_refuted",
    "C02_small_subnormals_refuted"
   ],
   "note": "REFUTED by the code: the normalisation loop never ends for infinity, NaN is stored as a finite number, subnormals are changed. Partial: large subnormals' stored word characterised."
  },
  {
   "property": "C03",
   "status": "proved",
   "theorems": [
    "C03_unsigned",
    "C03_signed",
    "C03_real",
    "C03_vec",
    "C03_vec6",
    "C03_mat",
    "C03_mat6",
    "C03_quaternion",
    "C03_xyzquat",
    "C03_list",
    "C03_injective",
    "C03_same_bytes_on_disk"
   ],
   "note": "Proved for every overload, both byte orders, any list length. Numbers restricted to zero and normal doubles (see C02)."
  },
  {
   "property": "C04",
   "status": "partial",
   "theorems": [
    "C04_save_load_partial",
    "C04_any_object_partial",
    "C04_other_byte_order_refuted"
   ],
   "note": "REFUTED by the code across byte orders: the length in the header is written in native order, so every non-empty file is rejected. Proved for equal byte order, whole system and any serialisable object."
  },
  {
   "property": "C05",
   "status": "partial",
   "theorems": [
    "C05_short",
    "C05_magic",
    "C05_old_version",
    "C05_size_partial",
    "C05_success_implies_wellformed",
    "C05_size_wraps_refuted"
   ],
   "note": "REFUTED by the code for a declared length of 2^61 words too many (size computed modulo 2^64). Proved for all other malformed headers; a successful load implies a well-formed file."
  },
  {
   "property": "C06",
   "status": "partial",
   "theorems": [
    "C06_own_files_refuted",
    "C06_own_version_partial",
    "C06_own_version_refuted"
   ],
   "note": "REFUTED by the code for builds with minor version below 2 or major below 2 (3.0 rejects its own files). Proved exact condition; holds for the 2.3 build of this commit. C06_own_files_refuted: every build with a major or minor version outside 2..255 rejects all its own files."
  },
  {
   "property": "C07",
   "status": "partial",
   "theorems": [
    "C07_header_failure_keeps_state_partial",
    "C07_failed_load_changes_state_refuted",
    "C07_out_of_bounds_refuted"
   ],
   "note": "REFUTED by the code: a length mismatch detected after reading leaves the simulation changed, or reads out of bounds. Proved: any file with a bad header leaves the object unchanged."
  },
  {
   "property": "C08",
   "status": "proved",
   "theorems": [
    "C08_point",
    "C08_body",
    "C08_line",
    "C08_rod",
    "C08_integrator",
    "C08_system"
   ],
   "note": "Proved for points, bodies, lines, rods, integrator and whole system; numbers are zero or normal doubles."
  },
  {
   "property": "C09",
   "status": "partial",
   "theorems": [
    "C09_saved_fields_partial",
    "C09_unstretched_length_refuted",
    "C09_failures_refuted",
    "C09_body_acceleration_refuted"
   ],
   "note": "REFUTED by the code: unstretched length, executed failures and body accelerations are not in the file. Proved: all saved fields are restored, all others keep their value before the load."
  },
  {
   "property": "C10",
   "status": "partial",
   "theorems": [
    "C10_error_code_roundtrip_partial",
    "C10_undocumented_code",
    "C10_only_success_is_silent",
    "C10_caught_errors",
    "C10_kinds_distinguished",
    "C10_nonimplemented_escapes_refuted"
   ],
   "note": "REFUTED by the code for MOORDYN_NON_IMPLEMENTED (-7): MOORDYN_THROW turns it into an exception that MOORDYN_CATCHER has no clause for, so it escapes through the C API. Proved for all other documented codes; undocumented codes are reported as -255."
  },
  {
   "property": "C11",
   "status": "partial",
   "theorems": [
    "C11_split_returns_the_words",
    "C11_every_text_is_a_layout",
    "C11_split_line_spaces_partial",
    "C11_split_line_tabs_partial",
    "C11_mixed_blanks_refuted"
   ],
   "note": "Proved for the single separator split. The line splitter used for input files picks tab or space per line: proved for lines with one kind of blank, REFUTED when tabs and spaces are mixed on one line (columns are glued together)."
  },
  {
   "property": "C12",
   "status": "proved",
   "theorems": [
    "C12_rtrim",
    "C12_rtrim_unique",
    "C12_is_space",
    "C12_lines_unix",
    "C12_lines_windows"
   ],
   "note": "rtrim characterised completely and uniquely; fileToLines reads CRLF files as LF files."
  },
  {
   "property": "C13",
   "status": "proved",
   "theorems": [
    "C13_decompose",
    "C13_return_value"
   ],
   "note": "Group decomposition for every name of the documented shape; return value."
  },
  {
   "property": "C14",
   "status": "partial",
   "theorems": [
    "C14_interpolates",
    "C14_spec_determines_value",
    "C14_tabulated_value",
    "C14_between_neighbours",
    "C14_bounded",
    "C14_factor_in_range",
    "C14_factor_designates_segment",
    "C14_hint",
    "C14_batch",
    "C14_batch_unordered_refuted",
    "C14_batch_single_entry_refuted"
   ],
   "note": "Scalar interpolation proved for every strictly increasing table, query and admissible hint. REFUTED by the code only for the vector version with unordered queries or a one-entry table."
  },
  {
   "property": "C15",
   "status": "partial",
   "theorems": [
    "C15_bounded_partial",
    "C15_depth_at_grid_point",
    "C15_bilinear",
    "C15_constant_beyond_grid",
    "C15_shallowest_point",
    "C15_incomplete_refuted"
   ],
   "note": "Proved for files that give every grid point: bounds, bilinear interpolation, exact at grid points, constant outside. REFUTED by the code for incomplete files: missing grid points silently have depth 0."
  },
  {
   "property": "C16",
   "status": "partial",
   "theorems": [
    "C16_average_is_mean_partial",
    "C16_average_refuted"
   ],
   "note": "Proved when no grid point is given twice. REFUTED by the code otherwise: repeated entries are counted twice."
  },
  {
   "property": "C17",
   "status": "proved",
   "theorems": [
    "C17_step_stable_for_attached",
    "C17_factor_largest_of_attached",
    "C17_step_attained",
    "C17_factor_attained",
    "C17_velocity_step_stable_for_attached",
    "C17_velocity_factor_largest_of_attached",
    "C17_line_roundtrip",
    "C17_line_step",
    "C17_init_stable",
    "C17_init_factor",
    "C17_init_factor_not_above_requested",
    "C17_init_requested_step",
    "C17_set_cfl",
    "C17_set_dt",
    "C17_set_roundtrip"
   ],
   "note": "Proved for every tree of objects, over exact reals; the largest double is a constant of the model. SetDt/SetCFL do not pass the factor on to the integrator (see DESIGN)."
  },
  {
   "property": "C18",
   "status": "partial",
   "theorems": [
    "C18_remove_entries_refuted",
    "C18_every_removal_refuted",
    "C18_add_partial",
    "C18_any_additions_partial",
    "C18_adding_twice_is_an_error",
    "C18_removing_unknown_is_an_error",
    "C18_remove_partial",
    "C18_remove_keeps_wrong_entry_refuted",
    "C18_remove_out_of_bounds_refuted"
   ],
   "note": "REFUTED by the code for removals: the inner loop index hides the index of the removed object (source/Time.hpp Remove*), so the wrong entries are erased, and out of bounds when there are fewer objects than states; proved for every sequence of additions and for the error cases C18_remove_entries_refuted: a removal is right only in the array whose number is the position of the removed object; C18_every_removal_refuted: with two arrays or more every successful removal leaves a wrong entry."
  },
  {
   "property": "C19",
   "status": "partial",
   "theorems": [
    "C19_step_advances_time",
    "C19_objects_are_left_at_the_final_time",
    "C19_only_times_of_the_step",
    "C19_step_succeeds",
    "C19_wilson_refuted"
   ],
   "note": "Proved for every scheme except Wilson, for all state types, operators and object behaviours. REFUTED by the code for the Wilson scheme, which adds theta*dt and then adds (theta-1)*dt again (Time.cpp l.776, l.795), so t advances 1.74 dt with theta = 1.37."
  },
  {
   "property": "C20",
   "status": "partial",
   "theorems": [
    "C20_euler_method",
    "C20_rk2_method",
    "C20_rk4_method",
    "C20_euler_exact",
    "C20_rk2_exact",
    "C20_rk4_exact",
    "C20_rk2_constant_acceleration",
    "C20_rk4_quadratic_acceleration",
    "C20_euler_linear",
    "C20_rk2_linear",
    "C20_rk4_linear",
    "C20_heun_method_partial",
    "C20_heun_refuted"
   ],
   "note": "Euler, RK2, RK4 proved to be the textbook methods on any differential equation and exact on polynomials; also exact for constant / quadratic acceleration and Taylor polynomials on the linear test equation. REFUTED by the code for Heun: the new derivative is evaluated at the start time of the step, so its increments lag one step."
  },
  {
   "property": "C21",
   "status": "partial",
   "theorems": [
    "C21_weights_partial",
    "C21_constant_derivative_partial",
    "C21_linear_derivative_refuted",
    "C21_rigid_constant_refuted",
    "C21_after_n_steps"
   ],
   "note": "REFUTED by the code: ABScheme::shift copies upwards, so all kept derivatives equal the previous one, and MoorDynState::operator- adds for rods and bodies. The weights really applied are proved for every history; constant derivatives are exact for lines and points only; linear ones only on the second step."
  },
  {
   "property": "C22",
   "status": "partial",
   "theorems": [
    "C22_sum_of_states",
    "C22_sum_of_mismatched_states_is_an_error",
    "C22_difference_of_mismatched_states_is_an_error",
    "C22_scaling",
    "C22_sum_of_derivatives",
    "C22_difference_of_derivatives",
    "C22_difference_of_states_partial",
    "C22_add_then_subtract_partial",
    "C22_rigid_difference_refuted",
    "C22_difference_entry_by_entry",
    "C22_mix_mismatch_refuted"
   ],
   "note": "Proved for sums, scalings, derivative sums and differences, and for state differences without rods and bodies. REFUTED by the code for state differences of rods and bodies (operator- adds, State.cpp) and for Mix with mismatched sizes (no check)."
  },
  {
   "property": "C23",
   "status": "partial",
   "theorems": [
    "C23_plain_names",
    "C23_numbered_names",
    "C23_other_names_are_errors",
    "C23_missing_number_is_an_error",
    "C23_local_names_refuted",
    "C23_negative_count_refuted",
    "C23_trailing_text_refuted"
   ],
   "note": "REFUTED by the code for lab2-lab4 (created as global schemes) and for malformed counts (negative, trailing text, out of range); proved for all other documented names in any capitalisation and every decimal count below 2^31"
  },
  {
   "property": "C24",
   "status": "proved",
   "theorems": [
    "C24_substeps_add_up_exactly",
    "C24_the_integrator_gets_these_substeps",
    "C24_time_advances_by_dt",
    "C24_no_step_without_time",
    "C24_nonpositive_model_step_hangs"
   ],
   "note": "Exact real arithmetic (doubles: C25). The list of substeps is characterised (sum, bounds, all but the last equal to dtM, number = dt/dtM rounded up) and the integrator is shown to be driven by exactly this list. Finding: SetDt accepts dtM <= 0, for which Step never returns."
  },
  {
   "property": "C25",
   "status": "partial",
   "theorems": [
    "C25_step_terminates_partial",
    "C25_small_model_step_never_ends",
    "C25_step_terminates_refuted"
   ],
   "note": "Proved: for every coupling step dt and model step dtM with dt <= 2^52 dtM the substep loop in IEEE double arithmetic (Flocq FLT, round to nearest even) ends. REFUTED in general: a positive dtM below dt * 2^-54 leaves the loop counter unchanged, so the call never returns (witness dtM = 1, dt = 2^55). The real-number loop is the one used by the other step theorems."
  },
  {
   "property": "C26",
   "status": "partial",
   "theorems": [
    "C26_entries_used_once_in_order",
    "C26_shorter_arrays_are_overrun",
    "C26_as_many_forces",
    "C26_reported_count",
    "C26_reported_count_refuted",
    "C26_count_without_pinned_bodies_partial"
   ],
   "note": "REFUTED by the code for pinned coupled bodies: NCoupledDOF counts them with 6 while Init, Step and GetForces use 3; the exact excess is proved. Layout, order and single use of every entry proved for all systems."
  },
  {
   "property": "C27",
   "status": "proved",
   "theorems": [
    "C27_end_of_step",
    "C27_inside_the_step"
   ],
   "note": "All coupled bodies, rods and points, every scheme (implicit ones with positive dt factor, Wilson with theta > 0), every substepping, both at the end and inside the step. Angles of coupled bodies are the six numbers given to XYZQuat::fromVec6; the conversion to a quaternion is not part of this statement."
  },
  {
   "property": "C28",
   "status": "proved",
   "theorems": [
    "C28_pay_out_over_a_run",
    "C28_even_segments_sum_to_the_length",
    "C28_setting_the_length"
   ],
   "note": "Every scheme, every sequence of coupling steps, all lines at once; exact reals."
  },
  {
   "property": "C29",
   "status": "partial",
   "theorems": [
    "C29_what_is_executed",
    "C29_failure_time_refuted",
    "C29_only_once_partial"
   ],
   "note": "REFUTED by the code: the comparison in Step is inverted (failure->time < t is skipped), so every failure lying in the future is executed at the end of the first step and failures whose time has passed never are. Exact characterisation over runs proved; at-most-once holds."
  },
  {
   "property": "C30",
   "status": "partial",
   "theorems": [
    "C30_read",
    "C30_history",
    "C30_detach",
    "C30_detach_error",
    "C30_kinematics",
    "C30_failed_detach_refuted",
    "C30_detached_point_frozen_refuted"
   ],
   "note": "Proved for attachments read from the file and for every history of motions and failures, errors included (C30_read, C30_history, C30_detach, C30_detach_error, C30_kinematics). REFUTED by the code: a detachment that stops with an error leaves the lines moved before it on a new point at the origin (C30_failed_detach_refuted); the new point is never integrated, so the detached ends stay where they are for ever (C30_detached_point_frozen_refuted)."
  },
  {
   "property": "C31",
   "status": "partial",
   "theorems": [
    "C31_row_iff_interval_ends",
    "C31_step_writes_that_row",
    "C31_each_multiple_in_one_step",
    "C31_long_steps_always_write",
    "C31_initial_row_refuted"
   ],
   "note": "Row gate and coverage proved; REFUTED for the row at t = 0 that Init asks for: AllOutput(0, 0) writes nothing if dtOut > 0."
  },
  {
   "property": "C32",
   "status": "proved",
   "theorems": [
    "C32_move_mass",
    "C32_move_inertia",
    "C32_moves_compose",
    "C32_mass_then_inertia",
    "C32_assembled_body",
    "C32_stays_nonnegative"
   ],
   "note": "Energy, symmetry, composition, zero displacement, non-negativity, and bodies assembled from any number of particles; exact reals."
  },
  {
   "property": "C33",
   "status": "proved",
   "theorems": [
    "C33_rotate_mass",
    "C33_rotate_3x3"
   ],
   "note": "6x6 and 3x3 rotation; orthogonal means both Q^T Q = I and Q Q^T = I; exact reals."
  },
  {
   "property": "C34",
   "status": "proved",
   "theorems": [
    "C34_rigid_motion",
    "C34_reference_point",
    "C34_velocity"
   ],
   "note": "C34_rigid_motion, C34_reference_point and C34_velocity (the velocity of a point is the rate of its position for every differentiable motion)."
  },
  {
   "property": "C35",
   "status": "partial",
   "theorems": [
    "C35_cross_product_matrix_refuted",
    "C35_cross_product_matrix_partial"
   ],
   "note": "REFUTED by the code: the matrix multiplied by a gives a x r, the documentation says r x a. Proved: it is a x r, its transpose is r x a (the callers use it consistently, see C32)."
  },
  {
   "property": "C36",
   "status": "partial",
   "theorems": [
    "C36_whole_matrix_refuted",
    "C36_whole_matrix_partial"
   ],
   "note": "REFUTED by the code: mat62array copies only three rows, so MoorDyn_GetBodyM and MoorDyn_GetRodM leave rows 3 to 5 of the caller's array untouched. Proved: rows 0 to 2 are right, the others keep their previous content."
  },
  {
   "property": "C37",
   "status": "proved",
   "theorems": [
    "C37_internal_forces_cancel",
    "C37_node_masses",
    "C37_total_weight",
    "C37_linear_lines_have_forces"
   ],
   "note": "Line::getStateDeriv node by node over reals, any number of segments; sums of internal forces, node masses and weights. Lines whose curve gives NaN have no forces (line_forces = None)."
  },
  {
   "property": "C38",
   "status": "proved",
   "theorems": [
    "C38_slack_segment",
    "C38_taut_segment"
   ],
   "note": "Linear stiffness: slack segments carry nothing, taut ones EA*strain along the segment, for segments longer than the tolerance 50*2^-52 of unitvector (shorter ones are not normalised)."
  },
  {
   "property": "C39",
   "status": "proved",
   "theorems": [
    "C39_point_drag_dissipates",
    "C39_body_drag_dissipates",
    "C39_line_drag_dissipates",
    "C39_rod_drag_dissipates"
   ],
   "note": "Lines and rods: drag power against the relative velocity is never positive."
  },
  {
   "property": "C40",
   "status": "partial",
   "theorems": [
    "C40_pulls_exactly_partial",
    "C40_leaving_refuted",
    "C40_friction_partial",
    "C40_pushes_up_partial",
    "C40_no_contact_partial",
    "C40_sea_bed_pulls_refuted"
   ],
   "note": "REFUTED by the code: the damping term makes the sea bed pull a node that leaves it fast. Proved: friction bounded by max(1,statDynFricScale)*mu*|Bz|, non-positive power, upward force unless the node moves up, no contact force above the bed. C40_pulls_exactly_partial and C40_leaving_refuted: exactly when the bed pulls; with positive stiffness and damping it pulls every node that leaves it."
  },
  {
   "property": "C41",
   "status": "partial",
   "theorems": [
    "C41_range_partial",
    "C41_below_and_above_partial",
    "C41_thin_line_partial",
    "C41_thick_line_partial",
    "C41_jump_refuted",
    "C41_order_partial",
    "C41_end_on_surface_refuted"
   ],
   "note": "REFUTED by the code: a segment whose first end is exactly on the surface and whose second is above counts as fully submerged when vertical (0 in the other order); and for every positive diameter the fraction jumps from 1 to a value bounded away from 1 when the end of an inclined segment leaves the water. Proved: range, both-below, both-above, thin-line value, the value for every thickness (share of the diagonal between the corners), order independence when no end is on the surface."
  },
  {
   "property": "C42",
   "status": "partial",
   "theorems": [
    "C42_first_column_partial",
    "C42_point_limit_partial",
    "C42_second_column_ignored_refuted",
    "C42_final_newline_refuted",
    "C42_tension_curve_partial",
    "C42_two_sided_damping_partial",
    "C42_one_sided_damping_refuted",
    "C42_damping_curve_at_rest_refuted"
   ],
   "note": "REFUTED by the code: both columns are filled from the first, a file ending in a newline is refused, a one-sided damping curve gives an even force, a damping curve gives NaN when a segment keeps its length. Proved: abscissae, number of points, tension and two-sided damping follow the curve."
  },
  {
   "property": "C43",
   "status": "partial",
   "theorems": [
    "C43_maximum_partial",
    "C43_fairlead_tension_partial",
    "C43_set_stiffness_partial",
    "C43_maximum_omits_fairlead_refuted",
    "C43_constant_stiffness_inverted_refuted",
    "C43_sea_bed_force_refuted"
   ],
   "note": "REFUTED by the code: maximum tension omits the last node, constant-stiffness query inverted, sea bed query adds the bending force. Proved: maximum over the other nodes, fairlead tension, set/get stiffness."
  },
  {
   "property": "C44",
   "status": "partial",
   "theorems": [
    "C44_cylinder_partial",
    "C44_positive_definite_partial",
    "C44_many_segments_refuted"
   ],
   "note": "REFUTED by the code for rods of 65536 or more segments (unsigned 6*N*N wraps to 0); the inertia of a uniform cylinder and positive definiteness are proved for fewer segments (N < 26755)."
  },
  {
   "property": "C45",
   "status": "partial",
   "theorems": [
    "C45_upright_partial",
    "C45_submerged_partial",
    "C45_dry_partial",
    "C45_upside_down_refuted",
    "C45_touching_refuted"
   ],
   "note": "REFUTED by the code: an upside-down rod (end B below end A) in air is reported fully submerged and a rod whose upper end touches the surface is reported dry; proved for rods with end A below end B away from that case."
  },
  {
   "property": "C46",
   "status": "proved",
   "theorems": [
    "C46_net_force_and_mass",
    "C46_order_of_attachment",
    "C46_unknown_end_rejected",
    "C46_acceleration"
   ],
   "note": "Net force and mass of a point are the sums over its attached ends and its own terms, do not depend on the order of attachment, an unknown end is rejected with invalid value, and a free point has exactly one acceleration satisfying Newton's second law."
  },
  {
   "property": "C47",
   "status": "partial",
   "theorems": [
    "C47_closed_partial",
    "C47_options_refuted",
    "C47_refuted"
   ],
   "note": "REFUTED by the code: every section loop reads a line before it checks that the line is in the file, so a file whose options are not followed by a line of dashes makes it read beyond the end (C47_options_refuted in general, C47_refuted for one file). Proved when every section is followed by such a line."
  },
  {
   "property": "C48",
   "status": "partial",
   "theorems": [
    "C48_one_or_two_partial",
    "C48_three_refuted",
    "C48_six_refuted"
   ],
   "note": "REFUTED by the code: of three or six CdA values the first is lost (the fill starts at index 1). Proved for one and two values."
  },
  {
   "property": "C49",
   "status": "partial",
   "theorems": [
    "C49_one_system_partial",
    "C49_active",
    "C49_step",
    "C49_queries",
    "C49_one_live_refuted",
    "C49_invalid_line_refuted"
   ],
   "note": "REFUTED in two places: an initialisation that fails after the system was created leaves it allocated for ever (C49_one_live_refuted; C49_one_system_partial counts the systems exactly), and the tension of a line that does not exist is read from an uninitialised variable (C49_invalid_line_refuted). The rest is proved for every history of MoorDynInit, MoorDynStep and MoorDynClose."
  },
  {
   "property": "C50",
   "status": "proved",
   "theorems": [
    "C50_getter",
    "C50_getter_null",
    "C50_getter_int",
    "C50_nodes",
    "C50_invalid_node",
    "C50_attached",
    "C50_fast_tensions"
   ],
   "note": "Getters of bodies, rods, points and lines, node queries of lines, attachments of points and GetFASTtens. The remaining object queries (rods, bodies, sea floor) start with the same NULL check but their bodies are not modelled; built without VTK the SaveVTK functions return NON_IMPLEMENTED also for NULL."
  },
  {
   "property": "C51",
   "status": "proved",
   "theorems": [
    "C51_terminal",
    "C51_file",
    "C51_other_files",
    "C51_writeLog"
   ],
   "note": "For every history of the log functions of the C interface. A log file that cannot be created makes MoorDyn_SetLogFile throw across the C interface, and leaves the former file closed while its path is still reported."
  },
  {
   "property": "C52",
   "status": "partial",
   "theorems": [
    "C52_wave_samples_partial",
    "C52_current_samples_partial",
    "C52_wave_last_interval_refuted",
    "C52_current_last_interval_refuted",
    "C52_wave_steady",
    "C52_current_steady"
   ],
   "note": "REFUTED by the code in the last interval of every period: the index is wrapped before its lower neighbour is taken, so from the instant of the last sample until the end of the period the first sample is returned (C52_*_last_interval_refuted). Proved everywhere else, and for steady grids at all times. Times above (2^32-1) samples and negative times are not covered (the latter is an undefined conversion)."
  },
  {
   "property": "C53",
   "status": "proved",
   "theorems": [
    "C53_lattice",
    "C53_lattice_increasing",
    "C53_list"
   ],
   "note": "Proved for n >= 2. A lattice of one point yields two coordinates and a lattice of none a 2^32 point one; these lie outside of the claim."
  },
  {
   "property": "C54",
   "status": "partial",
   "theorems": [
    "C54_same_order",
    "C54_with_currents",
    "C54_too_few",
    "C54_different_numbers",
    "C54_too_many_refuted",
    "C54_interface",
    "C54_tables"
   ],
   "note": "C54_same_order (a numbering of all nodes shared by the coordinates query and the set call), C54_with_currents, C54_too_few, C54_different_numbers, C54_interface, C54_tables. REFUTED in part: more entries than nodes are accepted and the rest is ignored, while the documentation promises an error (C54_too_many_refuted)."
  },
  {
   "property": "C55",
   "status": "partial",
   "theorems": [
    "C55_state_partial",
    "C55_unknown_name",
    "C55_time_refuted",
    "C55_shape_refuted",
    "C55_after_failure_refuted",
    "C55_waves_refuted"
   ],
   "note": "Proved: objects, integrated state and CFL factor are kept and shown by the next update (C55_state_partial); an unknown name changes nothing (C55_unknown_name). REFUTED by the code: the time goes back to 0 (C55_time_refuted), the objects show their initial shape until the next step (C55_shape_refuted), after a failure the next step reads beyond the state (C55_after_failure_refuted), and waves and currents keep using the deleted integrator (C55_waves_refuted). The initialize functions of the objects are arbitrary."
  },
  {
   "property": "C56",
   "status": "proved",
   "theorems": [
    "C56_line_recomputed",
    "C56_others_always_recomputed"
   ],
   "note": "the held derivative of a line is never used for a total time of 0.999 times its stable step or more"
  },
  {
   "property": "C57",
   "status": "partial",
   "theorems": [
    "C57_newmark_overshoots_refuted",
    "C57_newmark_range_partial",
    "C57_factor_in_unit_interval_partial",
    "C57_newmark_factor_refuted",
    "C57_fixed_point_preserved",
    "C57_last_iteration_unrelaxed"
   ],
   "note": "Factor in [0,1) proved for all schemes but Newmark, last inner iteration unrelaxed, fixed points preserved by Mix. REFUTED by the code for the Newmark scheme (c0 + c1 = 1.05: the factor exceeds 1 for 40 iterations, i.e. over-relaxation with a negative weight of the new derivative). C57_newmark_overshoots_refuted: the Newmark factor exceeds 1 in the first twentieth of the iterations of every scheme with 40 or more; C57_newmark_range_partial: it stays below 1.05, and below 1 with at most six iterations."
  },
  {
   "property": "C58",
   "status": "partial",
   "theorems": [
    "C58_count_partial",
    "C58_refuted"
   ],
   "note": "REFUTED by the code: a free or pinned body or rod counts as 12 or 6 while the integrated state has a quaternion (13), see C58_refuted. Proved: the count is twice the number of degrees of freedom modulo 2^32. The header of the output file is covered by other properties."
  },
  {
   "property": "C59",
   "status": "partial",
   "theorems": [
    "C59_euler",
    "C59_rk2",
    "C59_rk4",
    "C59_heun",
    "C59_adams_bashforth",
    "C59_implicit_euler",
    "C59_anderson",
    "C59_newmark_refuted",
    "C59_newmark_partial",
    "C59_wilson_partial"
   ],
   "note": "Proved for Euler, RK2, RK4, Heun, Adams-Bashforth, implicit Euler and Anderson. REFUTED by the code for the Newmark scheme with a body of non-identity orientation: Newmark adds the unit quaternion of XYZQuat::fromVec6(0) to the orientation rate (State.cpp). Wilson and the stationary scheme use the same formula but are not covered by a theorem here."
  },
  {
   "property": "C60",
   "status": "proved",
   "theorems": [
    "C60_stored_orientation",
    "C60_reported_angles",
    "C60_reported_ranges",
    "C60_set_then_read",
    "C60_orientation_is_rotation"
   ],
   "note": "Exact reals; atan2 without signed zeros. Set-then-read is proved for pitch strictly inside (-pi/2, pi/2), at +-pi/2 the rotation is still the same (reported_angles)."
  },
  {
   "property": "C61",
   "status": "proved",
   "theorems": [
    "C61_direction_rebuilt",
    "C61_ranges",
    "C61_short_vector_rejected"
   ],
   "note": "Exact reals; heading of directions within 1e-6 of vertical is 0 by definition, there only the inclination part is claimed."
  },
  {
   "property": "C62",
   "status": "partial",
   "theorems": [
    "C62_orientation_rate_partial",
    "C62_orientation_rate_refuted"
   ],
   "note": "Proved for bodies and rods with at least one segment. REFUTED for a free zero-length rod: its orientation rate is the identity quaternion instead of zero, so it drifts."
  },
  {
   "property": "C63",
   "status": "partial",
   "theorems": [
    "C63_clamped_moment",
    "C63_clamped_curve",
    "C63_no_internal_moment_partial",
    "C63_short_segment_refuted"
   ],
   "note": "Proved without exception for force and for pinned ends; C63_clamped_moment and C63_clamped_curve give the moment of the forces of a line with clamped ends, with a bending stiffness and with a bending curve: that of the bends at the clamps. REFUTED for lines with bending stiffness and a segment of positive length below the tolerance of the code (1e-14): its direction is not made a unit vector and the bend has a moment."
  },
  {
   "property": "C64",
   "status": "proved",
   "theorems": [
    "C64_mass_symmetric",
    "C64_mass_positive_definite",
    "C64_second_law"
   ],
   "note": "For N >= 1, positive diameter, density, lengths and non-negative coefficients."
  },
  {
   "property": "C65",
   "status": "partial",
   "theorems": [
    "C65_one_sided_power_partial",
    "C65_shortening_driven_refuted",
    "C65_damping_dissipates_partial",
    "C65_dissipated_power_partial",
    "C65_one_sided_curve_drives_refuted",
    "C65_curve_dissipates",
    "C65_curve_power"
   ],
   "note": "Constant damping and two-sided damping curves proved, with the exact loss of each segment; one-sided damping curves add energy (refuted). C65_one_sided_power_partial and C65_shortening_driven_refuted: the power of the damping for one-sided curves, and that every shortening segment is driven where the curve is positive."
  },
  {
   "property": "C66",
   "status": "partial",
   "theorems": [
    "C66_clamped_partial",
    "C66_bending_partial",
    "C66_energy_balance_partial",
    "C66_curves_partial",
    "C66_curve_stores",
    "C66_linear_stores"
   ],
   "note": "Constants or curves for stiffness, damping and bending, with pinned ends or clamps that do not turn; every stiffness curve which starts without stress stores energy, and the constant modulus gives the spring energy. Segments and bends above the tolerances. Missing: clamps that turn, and bends below the tolerances."
  },
  {
   "property": "C67",
   "status": "partial",
   "theorems": [
    "C67_archimedes_partial",
    "C67_light_immersion_refuted"
   ],
   "note": "REFUTED by the code for small immersions (buoyancy is scaled by the wet fraction of half a segment); Archimedes' force and moment are proved for submerged rods."
  },
  {
   "property": "C68",
   "status": "partial",
   "theorems": [
    "C68_centre_of_mass_refuted",
    "C68_extra_not_zero_refuted",
    "C68_no_rotation_partial"
   ],
   "note": "REFUTED by the code: the centripetal terms are left out, so a spinning rod does not fall with its centre of mass; proved for rods without angular velocity."
  },
  {
   "property": "C69",
   "status": "proved",
   "theorems": [
    "C69_angles",
    "C69_rigid",
    "C69_spacing",
    "C69_far_end"
   ],
   "note": "Equal spacing, total length, rigid velocities and the heading and inclination angles."
  },
  {
   "property": "C70",
   "status": "partial",
   "theorems": [
    "C70_not_negative",
    "C70_at_most_one_partial",
    "C70_above_one_refuted"
   ],
   "note": "REFUTED by the code: an almost vertical rod (|sin| of the inclination under 0.001, not zero) with a node within its own small disc of the surface gets a fraction above one; proved non-negative always and at most one otherwise."
  },
  {
   "property": "C71",
   "status": "proved",
   "theorems": [
    "C71_only_outside_forces"
   ],
   "note": "For arbitrary systems of lines and points (bending-free or not, whatever line_forces computes), under the hypothesis that every line end is attached to exactly one point."
  },
  {
   "property": "C72",
   "status": "partial",
   "theorems": [
    "C72_point_part",
    "C72_rod_part",
    "C72_free_body_partial",
    "C72_coupled_reaction",
    "C72_pinned_reaction",
    "C72_rod_lines",
    "C72_body_in_water",
    "C72_pinned_in_water",
    "C72_water_refuted"
   ],
   "note": "Proved for points, rods, the coupled reaction, and for free and pinned bodies in water or not (C72_body_in_water, C72_pinned_in_water): there the mass of water is given the centripetal acceleration of the centre of gravity. REFUTED by the code in consequence: momentum with the water at the reference point, C72_water_refuted; without water C72_free_body_partial and C72_pinned_reaction."
  },
  {
   "property": "C73",
   "status": "partial",
   "theorems": [
    "C73_angular_momentum_refuted",
    "C73_spinning_body_refuted",
    "C73_no_spin_partial"
   ],
   "note": "REFUTED by the code: the gyroscopic term w x (I w) is missing from Body::doRHS; the theorem gives the exact spurious rate of angular momentum, with a witness; the claim holds for bodies that do not rotate."
  },
  {
   "property": "C74",
   "status": "partial",
   "theorems": [
    "C74_point_wrench_partial",
    "C74_rod_wrench_partial",
    "C74_turning_refuted"
   ],
   "note": "REFUTED by the code for rotating bodies: the centripetal force of attached points (and rods) is subtracted from the force but its moment is not. Proved when the body does not rotate."
  },
  {
   "property": "C75",
   "status": "proved",
   "theorems": [
    "C75_kinetic_energy",
    "C75_positive_definite",
    "C75_unique_acceleration",
    "C75_pinned_acceleration"
   ],
   "note": "Symmetry, positive definiteness, energy, existence and uniqueness of the acceleration for every list of parts with symmetric non-negative masses."
  },
  {
   "property": "C76",
   "status": "partial",
   "theorems": [
    "C76_point_above_water_refuted"
   ],
   "note": "REFUTED by the code: Point::doRHS and Body::doRHS never look at the free surface; a light point above the water is pushed upwards by buoyancy."
  },
  {
   "property": "C77",
   "status": "partial",
   "theorems": [
    "C77_newmark_method",
    "C77_constant_acceleration",
    "C77_converged_energy",
    "C77_one_iteration_lag_refuted"
   ],
   "note": "Method, exactness for uniform acceleration and energy of converged steps proved for any iteration count. REFUTED by the code: the rates kept for the next step are those of the last iterate, not of the new state; the exact difference for one iteration is given."
  },
  {
   "property": "C78",
   "status": "partial",
   "theorems": [
    "C78_wilson_free_fall_refuted"
   ],
   "note": "REFUTED by the code: the position is advanced by theta * a dt^2 / 2 (State.cpp uses the extended step where the actual one is needed); exact value proved for one iteration."
  },
  {
   "property": "C79",
   "status": "proved",
   "theorems": [
    "C79_step_factor"
   ],
   "note": "For every state arithmetic and every behaviour of the objects."
  },
  {
   "property": "C80",
   "status": "proved",
   "theorems": [
    "C80_above",
    "C80_bed"
   ],
   "note": "The theorems speak of the result of wave_kin through wave_at, which the C52 theorems establish for wave_kin."
  },
  {
   "property": "C81",
   "status": "proved",
   "theorems": [
    "C81_wave_node",
    "C81_current_node",
    "C81_wave_bounds",
    "C81_current_affine"
   ],
   "note": "Nodes, bounds, affine exactness and absence of out of range accesses; the velocity of waves at a node depends on the stretched depth, see C80."
  },
  {
   "property": "C82",
   "status": "partial",
   "theorems": [
    "C82_too_early_refuted",
    "C82_never_refuted",
    "C82_when_partial",
    "C82_once"
   ],
   "note": "REFUTED by the code: the test in Step is inverted, so a failure happens in the first step that ends not later than its time (C82_too_early_refuted), and one whose time is over never happens (C82_never_refuted). Proved: what happens exactly, and at most once (C82_when_partial, C82_once). The tension criterion is read but never used."
  },
  {
   "property": "C83",
   "status": "partial",
   "theorems": [
    "C83_both_ends_refuted",
    "C83_other_lines_partial"
   ],
   "note": "REFUTED by the code for a line with both ends at one point or rod: removing one child removes both (C83_both_ends_refuted). Proved for all other lines (C83_other_lines_partial)."
  },
  {
   "property": "C84",
   "status": "proved",
   "theorems": [
    "C84_sum",
    "C84_waves_only",
    "C84_currents_only",
    "C84_none"
   ],
   "note": "C84_sum, C84_waves_only, C84_currents_only (elevation and pressure keep their old values then), C84_none."
  },
  {
   "property": "C85",
   "status": "partial",
   "theorems": [
    "C85_reported_partial",
    "C85_rod_refuted",
    "C85_failure_refuted",
    "C85_channel_refuted",
    "C85_option_refuted"
   ],
   "note": "REFUTED by the code: a rod row with too few fields leaves a null pointer that is dereferenced, a failure row with four fields reads a fifth, the tension of a line that does not exist indexes beyond the list (undefined behaviour), and a wrong value of WaveKin lets a standard exception escape from MoorDyn_Create. Proved for files without rods, failures and outputs and without the options whose values are parsed with exceptions."
  },
  {
   "property": "C86",
   "status": "partial",
   "theorems": [
    "C86_references",
    "C86_tables",
    "C86_numbers_refuted"
   ],
   "note": "References and tables are proved for every accepted file. REFUTED for the numbers in the first column: they are not used nor checked, references go by row (C86_numbers_refuted)."
  },
  {
   "property": "C87",
   "status": "partial",
   "theorems": [
    "C87_rows_only",
    "C87_front_matter_partial",
    "C87_title_refuted",
    "C87_second_section_refuted"
   ],
   "note": "Order and surrounding text are proved irrelevant. REFUTED for titles: a line with dashes and one of the keywords anywhere before is taken for the header (C87_title_refuted), and a second section of the same kind is ignored (C87_second_section_refuted)."
  },
  {
   "property": "C88",
   "status": "partial",
   "theorems": [
    "C88_line",
    "C88_line_node",
    "C88_line_end",
    "C88_fairlead_anchor",
    "C88_point",
    "C88_rod",
    "C88_rod_node",
    "C88_body_partial",
    "C88_body_net_partial",
    "C88_body_net_refuted",
    "C88_missing_refuted",
    "C88_old_names_refuted",
    "C88_fairlead_function_refuted"
   ],
   "note": "Proved for all documented channels of lines, points, rods and bodies except the net force of coupled bodies. REFUTED by the code in four places: BODYnTEN of a coupled body omits the inertial term that BODYnFX/FY/FZ include; a channel of an object or node that does not exist reads out of bounds; the names ConN.. documented for the first format make no channel; FAIRTENn (net force at the last node) differs from MoorDyn_GetLineFairTen (tension of the last segment)."
  },
  {
   "property": "C89",
   "status": "partial",
   "theorems": [
    "C89_circle",
    "C89_clamped_end_partial",
    "C89_uniform_bending",
    "C89_energy_partial",
    "C89_clamped_power_partial",
    "C89_power_partial",
    "C89_energy_refuted"
   ],
   "note": "Exact on circles at inner nodes; at a clamped end the curvature carries the factor 1/cos(theta/4). In every motion the power is that of the moments against the changes of the angles, also with bending curves (C89_power_partial) and at clamps that do not turn (C89_clamped_power_partial); without stretching it is what the bending energy loses (C89_energy_partial). REFUTED with stretching: no energy of the shape has this power, since the moment depends on the stretched lengths but only the angles do work. Missing: clamps that turn, and bends below the tolerances."
  },
  {
   "property": "C90",
   "status": "partial",
   "theorems": [
    "C90_linear_waves",
    "C90_dispersion_partial",
    "C90_acceleration_refuted",
    "C90_pressure_refuted"
   ],
   "note": "Proved over the mean water column (divergence, curl, surface, time derivative, bottom). REFUTED by the code: at a fixed position the acceleration omits the motion of the stretched column, and the dynamic pressure is always 0. Dispersion: proved for omega^2 h > 4.8 g only."
  },
  {
   "property": "C91",
   "status": "partial",
   "theorems": [
    "C91_resample_partial",
    "C91_descending_rejected",
    "C91_even_kept",
    "C91_last_lost_refuted"
   ],
   "note": "Proved: even resampling, evenly spaced spectra kept, descending rejected. REFUTED by the code: the last component is lost when its frequency is not a multiple of the smallest spacing."
  },
  {
   "property": "C92",
   "status": "proved",
   "theorems": [
    "C92_transform",
    "C92_factors_fit",
    "C92_forward_real",
    "C92_inverse_real",
    "C92_round_trip",
    "C92_odd_refused"
   ],
   "note": "kiss_fft.cpp and kiss_fftr.cpp modelled statement by statement over the reals, by induction over the list of factors; rounding errors and the OpenMP variant are not modelled; n = 0 is outside of the domain (the callers never use it with well-formed files)."
  },
  {
   "property": "C93",
   "status": "partial",
   "theorems": [
    "C93_spectrum_grid_partial",
    "C93_spectrum_grid",
    "C93_first_frequency",
    "C93_mean_halved_refuted",
    "C93_modes_disagree_refuted",
    "C93_elevation_grid_partial",
    "C93_fast_waves_refuted"
   ],
   "note": "REFUTED by the code in three respects: the mean and the highest component of a spectrum come with half amplitude (C93_mean_halved_refuted), the grid shows the real part where the sum of components shows the imaginary part, so the same file means waves a quarter period apart (C93_modes_disagree_refuted), and components of a record above 0.5 Hz are dropped (C93_fast_waves_refuted). Proved: everything else, for all spectra and records (C93_spectrum_grid_partial, C93_spectrum_grid, C93_elevation_grid_partial): the tables are samples of one field satisfying the linear wave equations, with bounded error of dispersion in deep water as in C90. Reading of the files (text) and rounding are not part of the model."
  },
  {
   "property": "C94",
   "status": "partial",
   "theorems": [
    "C94_steady_partial",
    "C94_descending_refuted",
    "C94_short_files",
    "C94_columns",
    "C94_dynamic_samples",
    "C94_dynamic_flow_partial",
    "C94_dynamic_end_refuted",
    "C94_4d_table",
    "C94_4d_partial",
    "C94_4d_first_line_refuted",
    "C94_unify",
    "C94_dynamic_acceleration_refuted",
    "C94_4d_unknown_word_refuted"
   ],
   "note": "REFUTED in parts by the code: depths in descending order are accepted and only the first row is used (C94_descending_refuted); from the last time of a dynamic profile on the velocities of the first time come back (C94_dynamic_end_refuted) and no acceleration is derived (C94_dynamic_acceleration_refuted); the first data line of a 4D file in the documented layout is skipped (C94_4d_first_line_refuted) and words not spelt as in the axis, like -0 in the documentation's own example, are taken for the first node (C94_4d_unknown_word_refuted). Proved: increasing depths (C94_steady_partial), samples and flow of dynamic profiles with even times (C94_dynamic_samples, C94_dynamic_flow_partial), the table of 4D files (C94_4d_table, C94_4d_partial), short files, and the sum of waves and currents on one grid (C94_unify)."
  },
  {
   "property": "C95",
   "status": "proved",
   "theorems": [
    "C95_static",
    "C95_closes",
    "C95_hangs",
    "C95_step",
    "C95_slack",
    "C95_line",
    "C95_anchor"
   ],
   "note": "Catenary of QSlines.hpp and Line::initialize modelled over the reals. C95_static: whatever is returned is a sampled static line (hanging, grounded with friction, loose), also when turned round. C95_closes: what acceptance of the Newton iteration means for the end point (to first order, and only if accepted before the last iteration: there the damping factor 1 - Tol*I is zero and everything is accepted). C95_hangs: the routine never reports a failure without a sea bed; C95_step: the determinant is positive. C95_line, C95_anchor: the positions after initialization. Findings in DESIGN.md."
  },
  {
   "property": "C96",
   "status": "proved",
   "theorems": [
    "C96_damping",
    "C96_given"
   ],
   "note": "Damping ratio of the mode in which neighbouring nodes move against each other, as in docs/troubleshooting.rst."
  },
  {
   "property": "C97",
   "status": "partial",
   "theorems": [
    "C97_ends",
    "C97_time",
    "C97_converged_partial",
    "C97_period_refuted",
    "C97_report_refuted",
    "C97_drag",
    "C97_init",
    "C97_static_ends",
    "C97_static_partial",
    "C97_static_refuted"
   ],
   "note": "REFUTED by the code in three points. dtIC is divided by ten twice, so convergence is checked over 9/100 of dtIC and can be accepted after dtIC/10 of simulation (C97_period_refuted, with a line whose tension changes by ten times threshIC in dtIC); the message says converged although nothing was compared when TmaxIC is not positive (C97_report_refuted); the static solver accepts any residual that does not change (C97_static_refuted). Proved: both loops end, time bounds, what converged means over the shorter period, drag restored (CdScaleIC not zero), clock zero. The mooring system and its time scheme are a parameter."
  },
  {
   "property": "C98",
   "status": "partial",
   "theorems": [
    "C98_line",
    "C98_rod",
    "C98_rod_flags_refuted",
    "C98_body_partial",
    "C98_body_refuted",
    "C98_main",
    "C98_torn"
   ],
   "note": "REFUTED by the code in two places: bodies of type COUPLED and FIXED get a file of rows without names and units (C98_body_refuted; C98_body_partial says exactly what the files hold), and the flags U, D, t, c, s, d of rods, listed in the documents, give a file with the time column only (C98_rod_flags_refuted). The rest is proved: lines, rods, the main file, and what is left behind by a failing channel. The formatting of a number is a parameter, of which only that it gives a word without blanks is used; that every FIXED rod has exactly one host is a hypothesis (what the reading of the input provides)."
  },
  {
   "property": "C99",
   "status": "partial",
   "theorems": [
    "C99_documented",
    "C99_nodes",
    "C99_external",
    "C99_files",
    "C99_others",
    "C99_not_implemented_refuted",
    "C99_depth_refuted",
    "C99_height_partial"
   ],
   "note": "REFUTED by the code in part: options documented as not implemented (WaveKin 5 and 6, Currents 3 and 4) are accepted by a build without assertions and give still water (a build with assertions ends the program); after an unreadable file the water depth of the environment stays that of the sea floor file; the elevation asked for without waves reads a null pointer. Proved: C99_documented and C99_nodes and C99_external give the flow of the documented options for all files; C99_files that the files are needed; C99_others decides all other integers. The contents of grids are oracles here (modelled for C52, C67, C89-C95)."
  },
  {
   "property": "C100",
   "status": "partial",
   "theorems": [
    "C100_attached",
    "C100_attached_total",
    "C100_joint_direction",
    "C100_joint_moment",
    "C100_joint_balance_partial",
    "C100_joint_balance_refuted",
    "C100_handed_moment_refuted",
    "C100_curve_joint_refuted"
   ],
   "note": "REFUTED by the code in part: the moment at a clamped end is applied to the line and to nothing else (the end moments handed to rods are zero from initialization on); the direction of a rod without length balances moments proportional to the sine of the angle, not those of the code (2 sin(angle/2)), so unlike lines leave a moment on the joint; lines with a curve of bending moments give such a rod no direction (0/0). Proved: kinematics, clamps and directions of all attached ends; the balance in the sine law; the factor between the two laws; the balance for one line, two equal lines, equal angles."
  },
  {
   "property": "C101",
   "status": "partial",
   "theorems": [
    "C101_line",
    "C101_acceleration",
    "C101_point",
    "C101_rod_partial",
    "C101_body_partial",
    "C101_simulation",
    "C101_anderson_refuted"
   ],
   "note": "Proved for lines, points, rods (except those less than a millionth off the vertical, which lose their heading), bodies (turns and shifts), and whole simulations of lines and points with any scheme that updates all objects. REFUTED by the code for the stopping test of the Anderson scheme, which averages absolute components. Simulations with rods and bodies: only the forces of each object are proved, not the whole run."
  },
  {
   "property": "C102",
   "status": "partial",
   "theorems": [
    "C102_reversed_partial",
    "C102_tension",
    "C102_reversed_refuted"
   ],
   "note": "REFUTED by the code when a node lies exactly at the level of the water over its segment: a line standing on the surface is wholly submerged from one end and dry from the other. Proved in all other positions; the tensions always agree."
  },
  {
   "property": "C103",
   "status": "partial",
   "theorems": [
    "C103_part",
    "C103_beside",
    "C103_stationary_refuted"
   ],
   "note": "Proved for systems of lines and points and the time schemes that treat objects one by one. C103_stationary_refuted: the stationary scheme takes one step for all objects from the sum of their errors (also the Anderson scheme, and the masks of the local schemes, are outside C103_part)."
  },
  {
   "property": "C104",
   "status": "proved",
   "theorems": [
    "C104_numbers"
   ],
   "note": "Renumbered systems are parts of each other; same schemes as C103. Failed runs are not compared by their error."
  },
  {
   "property": "C105",
   "status": "partial",
   "theorems": [
    "C105_horizontal",
    "C105_vertical_refuted",
    "C105_weight_twice",
    "C105_axes_refuted"
   ],
   "note": "The horizontal parts are proved (C105_horizontal). REFUTED by the code for the vertical parts: an entry of the mass matrix, with the added mass, times gravity is subtracted from a force that has the weight already (C105_vertical_refuted for every line, C105_weight_twice exact in air), and that entry changes when the system is turned about the vertical (C105_axes_refuted)."
  },
  {
   "property": "C106",
   "status": "partial",
   "theorems": [
    "C106_line",
    "C106_line_mass",
    "C106_line_drifts",
    "C106_rod",
    "C106_rod_mass",
    "C106_rod_drifts",
    "C106_body_drag",
    "C106_point_drifts_refuted",
    "C106_body_drifts_refuted"
   ],
   "note": "Proved for straight lines and for rods in uniform flow (forces, moments and masses) and for the drag of bodies. That neutral objects move with accelerating water is proved for slack lines of any shape and for rods, and refuted for points and bodies: Point::doRHS and Body::doRHS read the acceleration of the water and do not use it."
  },
  {
   "property": "C107",
   "status": "partial",
   "theorems": [
    "C107_vessel_turns_partial",
    "C107_solvable",
    "C107_spin_refuted",
    "C107_vessel_force_refuted",
    "C107_vessel_force_partial",
    "C107_clamped_refuted",
    "C107_body_moment_refuted",
    "C107_falling_refuted"
   ],
   "note": "C107_vessel_turns_partial: a coupled-pinned rod in vacuum turning across its axis gets the angular acceleration of a hinged uniform cylinder whose hinge has the acceleration of the vessel (through updateFairlead and setState); C107_solvable: such an acceleration exists. C107_spin_refuted: with spin about its axis the gyroscopic moment is missing (exact difference). C107_vessel_force_refuted: force at the hinge lacks the centripetal part, moment is zero as it should be; right if the rod does not turn (C107_vessel_force_partial). C107_clamped_refuted: the same for coupled rods. C107_body_moment_refuted: rods pinned to bodies hand over the wrench of a clamped rod. C107_falling_refuted: over every history of a pinned rod its pin counts as unaccelerated. Missing: the same with water."
  },
  {
   "property": "C108",
   "status": "partial",
   "theorems": [
    "C108_free_start_refuted",
    "C108_first_update_partial",
    "C108_vessel_pin_refuted",
    "C108_fixed",
    "C108_pinned_refuted"
   ],
   "note": "C108_fixed: rods fixed to bodies lie where the body carries both ends, at every update. C108_free_start_refuted, C108_vessel_pin_refuted: after Init the rod points along the vector from the origin to B, with the exact condition when this is right, and the attached lines with it; C108_first_update_partial: from the first update on it lies from A to B. C108_pinned_refuted: a rod pinned to a turned body starts in the direction of the global frame."
  },
  {
   "property": "C109",
   "status": "partial",
   "theorems": [
    "C109_attached_point_refuted",
    "C109_attached_point_partial",
    "C109_rod_refuted"
   ],
   "note": "C109_attached_point_refuted and C109_rod_refuted give the true derivative, the velocity given, and exactly when they agree; C109_attached_point_partial: they agree for a level body and for pure roll rates."
  },
  {
   "property": "C110",
   "status": "proved",
   "theorems": [
    "C110_update",
    "C110_total",
    "C110_boundary",
    "C110_step",
    "C110_coupling",
    "C110_run"
   ],
   "note": "Model of whole systems (MFull) with every kind of body, rod and point and all eleven time schemes. In place means: points and ends of rods at the place of their carrier with its rigid velocity, fixed rods turned with it (unless turned round by a half turn, C108), rods straight and along their orientation, ends of lines at their holders, free or clamped; follows means: coupled objects extrapolated from the caller's values, free ones at the state. C110_update: one Update from any moment; C110_total: it succeeds when the state has an entry for each object and rods have segments; C110_boundary: the caller's values reach the right object and disturb nothing; C110_step, C110_coupling, C110_run: every scheme, every number of steps. Forces and derivatives are an arbitrary function (deriv), so are the time step limit (lim) and the convergence test (conv). Assumed: the input is well formed (every line end has one holder, each fixed object one carrier), and bodies of type FIXED were in place at the start (they are placed by Init only and never updated again)."
  },
  {
   "property": "C111",
   "status": "partial",
   "theorems": [
    "C111_step",
    "C111_init",
    "C111_wave_set",
    "C111_pint",
    "C111_simple",
    "C111_safe_partial",
    "C111_waves_getkin_partial",
    "C111_waves_getkin_refuted",
    "C111_deserialize_refuted",
    "C111_pbend_refuted"
   ],
   "note": "Answers proved for every value passed to step, init, ext_wave_set, line_set_pint and the 73 functions with plain arguments; absence of crashes for every argument and malloc, except for deserialize and for waves_getkin with four arguments, for which it is refuted (SystemError, read past the bytes, uninitialised pointer). line_set_pbend(False) may switch pressure bending on (format b into an int). The library and the interpreter's conversions are parameters."
  },
  {
   "property": "C112",
   "status": "partial",
   "theorems": [
    "C112_clean_partial",
    "C112_step_partial",
    "C112_init_partial",
    "C112_wave_set_partial",
    "C112_leak_refuted",
    "C112_fast_refuted",
    "C112_none_refuted"
   ],
   "note": "Exact count of what step, init and ext_wave_set leave; the other functions leave nothing. Refuted: each wrong-length call of step leaves a reference, so n calls leave n; get_fast_tens leaves four blocks on error; functions returning None give away a reference to None they do not hold (harmless from Python 3.12 on, where None is immortal). Missing: what line_set_pint and deserialize leave is not counted."
  },
  {
   "property": "C113",
   "status": "partial",
   "theorems": [
    "C113_wrong_kind",
    "C113_close",
    "C113_close_twice_refuted",
    "C113_dangling_refuted"
   ],
   "note": "Wrong handles and close proved for all functions that take a handle; refuted for handles that outlive their system: undefined behaviour instead of an exception."
  },
  {
   "property": "C114",
   "status": "partial",
   "theorems": [
    "C114_documented_partial",
    "C114_objects",
    "C114_step",
    "C114_init",
    "C114_wave_points",
    "C114_log",
    "C114_waves_kin_refuted",
    "C114_wave_n_refuted",
    "C114_wave_init_refuted",
    "C114_seabed_refuted",
    "C114_press_bend_refuted",
    "C114_use_vtk_refuted"
   ],
   "note": "61 of the 66 functions with one handle and plain arguments proved, and the getters of objects, Step, Init, Init_NoIC, GetWaveKinCoordinates, SetWaveKin, Log. Refuted: GetWavesKin (always TypeError: six arguments for five), ExternalWaveKinGetN (calls the initialisation, returns 0), GetLineNodeSeabedForce (returns the Froude-Krylov force), IsLinePressBend (NameError), UseBodyVTK (AttributeError), ExternalWaveKinInit (raises instead of returning the code). Keyword arguments are not modelled."
  },
  {
   "property": "C115",
   "status": "partial",
   "theorems": [
    "C115_fortran_partial",
    "C115_fortran_refuted",
    "C115_sections_refuted",
    "C115_rust_partial",
    "C115_rust_refuted"
   ],
   "note": "Every procedure of the Fortran module and of the Rust crate passes what the caller gives to the C function it stands for, and returns its answer, for every library and memory, with these exceptions, which are refuted: eight Fortran procedures that do not link, pass addresses for numbers, doubles for floats or an argument too many; sections of arrays with gaps; GetWavesKin of the Rust crate, which lacks a parameter."
  },
  {
   "property": "C116",
   "status": "partial",
   "theorems": [
    "C116_documented_partial",
    "C116_create",
    "C116_coordinates",
    "C116_counts",
    "C116_files_refuted",
    "C116_lengths_refuted",
    "C116_matrix_refuted",
    "C116_handles_refuted"
   ],
   "note": "For every function of the wrapper whose inputs are as documented, the C function of the same name gets what is given and its answer is returned or its failure raised, for every library; wrong numbers of inputs and outputs are errors. Refuted for the eight functions that read the name of a file from the place of the handle, for vectors that are too short, for matrices (rows and columns are exchanged, which shows when they are not symmetric), and for numbers that are no handles."
  },
  {
   "property": "C117",
   "status": "partial",
   "theorems": [
    "C117_line_partial",
    "C117_line_refuted",
    "C117_segments_refuted",
    "C117_rod",
    "C117_point",
    "C117_body",
    "C117_axes",
    "C117_system",
    "C117_save",
    "C117_model_partial",
    "C117_model_refuted"
   ],
   "note": "Rods, points, bodies, systems and the codes of errors as stated. Refuted for lines: the field F, one value per node, is attached to the cells, one per segment, so the polydata is never well formed; a line without segments reads an empty vector. Refuted for the model of a body: a name without a character other than dots reads an empty vector, and a missing file is reported as an output file."
  },
  {
   "property": "C118",
   "status": "partial",
   "theorems": [
    "C118_settings",
    "C118_stiffness",
    "C118_length_partial",
    "C118_length_refuted",
    "C118_time_step_partial",
    "C118_time_step_refuted",
    "C118_null"
   ],
   "note": "Proved: what is set is read back, any sequence of settings; a changed stiffness gives the forces and masses of the line described with it; the exact difference for a changed length (C118_length_partial). REFUTED by the code: the volumes of the segments are computed by initialize only, so after a change of length the added mass and the force of accelerating water are those of the old length (C118_length_refuted), and the limit of the time step is that of the line before the change (C118_time_step_refuted). The damping of a line given as a fraction of critical is not recomputed either, as the header warns."
  },
  {
   "property": "C119",
   "status": "partial",
   "theorems": [
    "C119_names",
    "C119_default",
    "C119_outputs",
    "C119_distinct",
    "C119_companions_partial",
    "C119_waves_refuted",
    "C119_full_path_refuted",
    "C119_input_kept_refuted"
   ],
   "note": "Proved: the split of any path into directory and name, places of all output files, distinct files of distinct objects, companions beside the input file whenever its path has a directory. Refuted: without a directory the files of waves and currents are looked for in the root; a full path of a curve file is prefixed by the directory; an input file with extension out is overwritten by the main output."
  },
  {
   "property": "C120",
   "status": "partial",
   "theorems": [
    "C120_name",
    "C120_name_short",
    "C120_bytes",
    "C120_null",
    "C120_name_tells",
    "C120_set_back_refuted"
   ],
   "note": "Proved: both protocols of two calls, with exactly the cells written and the outcome for arrays that are too small, restoring from the array, null arguments, and that the reported name determines the scheme. Refuted: the reported name is never accepted by MoorDyn_SetTimeScheme."
  },
  {
   "property": "C121",
   "status": "partial",
   "theorems": [
    "C121_peak_value_partial",
    "C121_peak_refuted",
    "C121_height_refuted",
    "C121_frequencies",
    "C121_amplitudes_refuted"
   ],
   "note": "Proved: the value at the peak frequency, the frequencies of the components. Refuted: the code divides the frequency by itself where the standard has the peak frequency, so the spectrum does not depend on the peak, falls everywhere and has unbounded energy; the components of any spectrum have 2 pi times its energy. The classes are in the header but nothing in the library calls them yet."
  },
  {
   "property": "C122",
   "status": "partial",
   "theorems": [
    "C122_components",
    "C122_total",
    "C122_errors_partial",
    "C122_fifth_word_refuted"
   ],
   "note": "Proved for lines separated by spaces, with either kind of line ends: the components, all outcomes, and the errors for short lines, words that are no numbers and directions beyond a turn. Refuted: lines of five words or more are read without an error, with direction 0 whatever the fourth word is."
  },
  {
   "property": "C123",
   "status": "partial",
   "theorems": [
    "C123_max_partial",
    "C123_max_refuted",
    "C123_no_line",
    "C123_seabed_refuted",
    "C123_net"
   ],
   "note": "Carries the findings of C43 to the C functions and to every state. The largest tension is that of the nodes 0..N-1 (C123_max_partial). C123_max_refuted: end B is left out, so for every line tensest at its last segment, the usual case of a hanging line, the answer is below the tension at end B (C43 has one witness). C123_seabed_refuted: the seabed force answered is the reaction plus the bending force answered for the node, and is the reaction only where that is 0. C123_net: the net force is the sum of the answers. C123_no_line: queries without a line. Missing: NaN values."
  }
 ]
}
