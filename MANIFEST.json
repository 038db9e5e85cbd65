{
 "claims": [
  {
   "property": "C01",
   "status": "proved",
   "theorems": [
    "base91_round_trip",
    "base91_injective",
    "base91_length"
   ],
   "note": "Byte-exact model of the base91 state machines; shifts/queues on unbounded Z with the masks of the code."
  },
  {
   "property": "C02",
   "status": "proved",
   "theorems": [
    "base91_alphabet",
    "base91_double_quote_free_refuted"
   ],
   "note": "The double quote IS in the alphabet (second theorem): the text needs escaping inside JSON."
  },
  {
   "property": "C03",
   "status": "proved",
   "theorems": [
    "base91_ignores_foreign_characters"
   ],
   "note": ""
  },
  {
   "property": "C04",
   "status": "proved",
   "theorems": [
    "base64_round_trip"
   ],
   "note": ""
  },
  {
   "property": "C05",
   "status": "proved",
   "theorems": [
    "stl_reader_follows_format",
    "stl_round_trip",
    "stl_writer_short_facet_ub"
   ],
   "note": "Byte-level model of writer and stream reader. Conversion double->float is an arbitrary function into 32-bit words; facets of fewer than 3 vertices make the writer read out of bounds (third theorem)."
  },
  {
   "property": "C06",
   "status": "partial",
   "theorems": [
    "stl_truncation_reported_refuted",
    "stl_facet_count_ignores_file_size",
    "stl_truncated_file",
    "stl_truncation_duplicates_facet_refuted"
   ],
   "note": "The property is violated by the code: the binary reader never throws; proved what it returns instead."
  },
  {
   "property": "C07",
   "status": "proved",
   "theorems": [
    "history_strictly_increasing",
    "history_latest_is_recorded"
   ],
   "note": "Order-generic arithmetic: any rounding; NaN excluded."
  },
  {
   "property": "C08",
   "status": "proved",
   "theorems": [
    "history_refuses_exactly_the_past"
   ],
   "note": "Order-generic arithmetic."
  },
  {
   "property": "C09",
   "status": "proved",
   "theorems": [
    "history_search_terminates",
    "history_search_correct"
   ],
   "note": "Order-generic arithmetic; the model has explicit loop counters as Z."
  },
  {
   "property": "C10",
   "status": "proved",
   "theorems": [
    "history_value_interpolates",
    "history_value_within_bounds",
    "history_value_outside",
    "history_returns_recorded_values",
    "history_value_close_points_refuted"
   ],
   "note": "Over exact reals. The last theorem shows the exactness fails when two points are closer than the absolute tolerance of the code."
  },
  {
   "property": "C11",
   "status": "proved",
   "theorems": [
    "history_never_exceeds_Tmax",
    "history_window_contents"
   ],
   "note": ""
  },
  {
   "property": "C12",
   "status": "partial",
   "theorems": [
    "history_window_start_partial",
    "history_window_start_refuted",
    "history_window_start_out_of_range_refuted"
   ],
   "note": "Violated by the code: when the window start falls between two points, the value written is not the interpolation."
  },
  {
   "property": "C13",
   "status": "proved",
   "theorems": [
    "history_average_is_the_mean",
    "history_average_within_bounds",
    "history_average_degenerate"
   ],
   "note": "Over exact reals, Riemann integral of Coquelicot (proof only uses standard-library axioms)."
  },
  {
   "property": "C62",
   "status": "proved",
   "theorems": [
    "stl_format_detection",
    "stl_format_detection_blank_throws"
   ],
   "note": ""
  },
  {
   "property": "C14",
   "status": "proved",
   "theorems": [
    "forced_states_touch_only_what_is_blocked",
    "forced_derivatives_touch_only_what_is_blocked",
    "forcing_succeeds"
   ],
   "note": "Any comparison that is a strict weak order; SSC interpolators are parameters."
  },
  {
   "property": "C15",
   "status": "partial",
   "theorems": [
    "csv_forces_the_declared_state_refuted",
    "csv_forces_u_partial",
    "csv_last_one_wins_refuted"
   ],
   "note": "Violated by the code: the state of a CSV entry is never copied, every CSV table forces u."
  },
  {
   "property": "C16",
   "status": "proved",
   "theorems": [
    "state_forced_twice_is_refused",
    "distinct_forced_states_are_accepted",
    "empty_forced_table_is_undefined"
   ],
   "note": ""
  },
  {
   "property": "C17",
   "status": "proved",
   "theorems": [
    "blocking_effort_closes_the_balance"
   ],
   "note": "Over the reals."
  },
  {
   "property": "C18",
   "status": "proved",
   "theorems": [
    "quaternions_are_normalised",
    "normalisation_succeeds"
   ],
   "note": "Over the reals; the tolerance almost_equal is an arbitrary predicate; a null quaternion (division by zero in the code) is excluded from the unit-norm conclusion."
  },
  {
   "property": "C19",
   "status": "proved",
   "theorems": [
    "quaternion_kinematics",
    "quaternion_kinematics_linear",
    "quaternion_derivatives_turn_the_body"
   ],
   "note": ""
  },
  {
   "property": "C20",
   "status": "partial",
   "theorems": [
    "observers_report_forced_states_partial",
    "observers_report_forced_states_refuted"
   ],
   "note": "Violated with several bodies: only the forced states of the last body are reported."
  },
  {
   "property": "C21",
   "status": "proved",
   "theorems": [
    "state_slots_are_distinct",
    "bodies_do_not_interfere",
    "equations_of_motion"
   ],
   "note": ""
  },
  {
   "property": "C22",
   "status": "partial",
   "theorems": [
    "current_state_values_first_body_partial",
    "current_state_values_other_bodies_refuted"
   ],
   "note": "Out-of-bounds write for every body but the first."
  },
  {
   "property": "C23",
   "status": "partial",
   "theorems": [
    "blocking_effort_on_blocked_states_only_partial",
    "blocking_effort_on_blocked_states_only_refuted"
   ],
   "note": "Violated when the inertia couples blocked and free states."
  },
  {
   "property": "C24",
   "status": "proved",
   "theorems": [
    "observation_instants",
    "simulate_returns_the_observations"
   ],
   "note": "Stepper and scheduler of SSC are parameters; the contract of the scheduler (its current date is the last event appended) is a hypothesis of the theorem."
  },
  {
   "property": "C25",
   "status": "partial",
   "theorems": [
    "forced_at_the_previous_instant",
    "forced_at_the_observed_instant_refuted",
    "forced_at_the_observed_instant_partial"
   ],
   "note": "Violated: the forced value is that of the beginning of the step."
  },
  {
   "property": "C26",
   "status": "partial",
   "theorems": [
    "csv_file_layout",
    "tsv_file_layout_partial",
    "tsv_titles_match_fields_refuted",
    "tsv_empty_request_throws"
   ],
   "note": "CSV: proved. TSV: proved for titles without blanks; refuted for the titles with blanks that the simulator itself produces."
  },
  {
   "property": "C27",
   "status": "proved",
   "theorems": [
    "unknown_output_is_reported",
    "unknown_output_no_data_line",
    "later_observations_succeed"
   ],
   "note": ""
  },
  {
   "property": "C28",
   "status": "partial",
   "theorems": [
    "json_records_partial",
    "json_records_refuted"
   ],
   "note": "Violated by the code in three ways (second theorem); the partial theorem gives sufficient conditions. The specification is a JSON parser written from the RFC."
  },
  {
   "property": "C29",
   "status": "partial",
   "theorems": [
    "names_are_split",
    "usual_names_do_not_collide",
    "names_are_lossless_refuted"
   ],
   "note": "Proved for usual names, refuted for arbitrary strings."
  },
  {
   "property": "C63",
   "status": "partial",
   "theorems": [
    "map_observer_series",
    "map_observer_duplicate_request_refuted",
    "everything_observer_partial",
    "everything_observer_refuted"
   ],
   "note": "Requires distinct requests (map) and the same variables at each instant (API observer); the other cases are refuted."
  },
  {
   "property": "C30",
   "status": "proved",
   "theorems": [
    "server_current_state_is_last_received",
    "server_histories_are_the_received_states",
    "server_accepts_ordered_requests",
    "server_refuses_unordered_requests",
    "server_request_round_trip",
    "server_histories_are_consistent",
    "server_inconsistent_histories_are_refused",
    "cs_step_starts_from_last_received",
    "cs_step_without_state_reuses_the_previous_one"
   ],
   "note": "Order-generic arithmetic (any rounding, no NaN). The last theorem records that a request without any state starts from what the previous request left."
  },
  {
   "property": "C31",
   "status": "partial",
   "theorems": [
    "ws_url_accepted",
    "ws_url_port_out_of_range",
    "wss_refused",
    "ws_url_accepts_only_partial",
    "ws_url_accepts_only_refuted",
    "ws_url_huge_port_undefined"
   ],
   "note": "The regular expression is data interpreted by a backtracking matcher. Everything that should be accepted is; what is accepted is a URL whose port part only starts with the number (refuted: trailing characters are ignored)."
  },
  {
   "property": "C32",
   "status": "partial",
   "theorems": [
    "format_of_extension",
    "format_only_from_extension",
    "command_line_file_partial",
    "command_line_file_refuted",
    "default_output_has_all_states"
   ],
   "note": "Violated for base names starting with ws, for empty base names, and for one-letter names with extension .H5."
  },
  {
   "property": "C33",
   "status": "proved",
   "theorems": [
    "frequency_grid",
    "frequency_grid_single",
    "frequency_grid_rejected",
    "frequency_grid_sum",
    "frequencies_positive"
   ],
   "note": "Over exact reals (infinite and NaN bounds are not modelled); composite spectra merge the grids of their parts."
  },
  {
   "property": "C34",
   "status": "proved",
   "theorems": [
    "flatten_components",
    "flatten_energy"
   ],
   "note": "Over exact reals; a negative density gives a NaN amplitude (None in the model)."
  },
  {
   "property": "C35",
   "status": "partial",
   "theorems": [
    "constant_phase_partial",
    "constant_phase_refuted",
    "monochromatic_spread_sea_refuted",
    "random_phase"
   ],
   "note": "Violated: add_constant_phases sizes each row of phases with the number of frequencies; a spread sea with more directions than frequencies is refused with an out-of-range error."
  },
  {
   "property": "C36",
   "status": "partial",
   "theorems": [
    "filter_keeps_most_energetic_partial",
    "filter_phase_refuted"
   ],
   "note": "The rays kept are the right ones; their phases are dropped, so the filtered spectrum cannot be evaluated (refuted)."
  },
  {
   "property": "C37",
   "status": "proved",
   "theorems": [
    "no_pressure_above_surface",
    "no_pressure_below_sea_bed",
    "pressure_returned"
   ],
   "note": "For the finite-depth model for what concerns the sea bed."
  },
  {
   "property": "C38",
   "status": "proved",
   "theorems": [
    "elevation_bounded",
    "elevation_additive",
    "elevation_periodic",
    "elevation_sizes"
   ],
   "note": "Over exact reals."
  },
  {
   "property": "C39",
   "status": "proved",
   "theorems": [
    "stretching_identity",
    "stretching_bounds",
    "stretching_monotonic"
   ],
   "note": "Over exact reals."
  },
  {
   "property": "C40",
   "status": "partial",
   "theorems": [
    "mesh_size",
    "mesh_accepted",
    "mesh_points",
    "mesh_corners",
    "mesh_flat",
    "grid_values",
    "grid_values_refuted",
    "relative_wave_heights"
   ],
   "note": "Proved for frames that are translations of NED; refuted when the frame of the mesh is rotated (the grid format cannot represent it)."
  },
  {
   "property": "C52",
   "status": "proved",
   "theorems": [
    "linear_damping_dissipates",
    "quadratic_damping_dissipates",
    "quadratic_damping_full_matrix_refuted"
   ],
   "note": "Over exact reals. The last theorem shows the diagonal hypothesis is needed: a full symmetric positive matrix may produce power."
  },
  {
   "property": "C53",
   "status": "proved",
   "theorems": [
    "controlled_force_power",
    "controlled_force_reported",
    "controlled_force_reported_in_ned"
   ],
   "note": "Over exact reals; frames are rotations and translations."
  },
  {
   "property": "C54",
   "status": "partial",
   "theorems": [
    "constant_force_partial",
    "constant_force_torque_iff",
    "constant_force_refuted"
   ],
   "note": "Right for forces given in the body frame; the torque is wrong in other frames (refuted, with an exact criterion)."
  },
  {
   "property": "C55",
   "status": "partial",
   "theorems": [
    "heading_controller_partial",
    "heading_controller_refuted",
    "heading_command_modulo_refuted",
    "station_keeping_heading"
   ],
   "note": "Violated: the heave inertia is used instead of the yaw inertia, and the heading error is not reduced modulo 2 pi."
  },
  {
   "property": "C56",
   "status": "proved",
   "theorems": [
    "rudder_areas_share",
    "rudder_wake_area_bounds",
    "rudder_reduction_factor"
   ],
   "note": "Over exact reals."
  },
  {
   "property": "C57",
   "status": "partial",
   "theorems": [
    "saturate_range",
    "saturate_inside",
    "advance_ratio_number",
    "propeller_domain_partial",
    "coefficients_are_taken_in_the_domain",
    "thrust_does_not_depend_on_the_sign_of_the_rotation",
    "propeller_domain_refuted",
    "series_in_bounds",
    "wageningen_parameters",
    "wageningen_parameters_converse"
   ],
   "note": "IEEE 754 doubles (Flocq). Violated when the propeller and the water are both stopped (0/0): NaN passes through the saturation. A NaN area ratio is not refused."
  },
  {
   "property": "C64",
   "status": "partial",
   "theorems": [
    "gravity_force",
    "gravity_is_conservative_partial",
    "gravity_is_conservative_refuted"
   ],
   "note": "The force is right; the potential energy is that of the origin of the body frame, so the balance holds only if G is that origin."
  },
  {
   "property": "C65",
   "status": "partial",
   "theorems": [
    "station_keeping_position_partial",
    "station_keeping_sway_partial",
    "station_keeping_planar",
    "station_keeping_position_refuted"
   ],
   "note": "Right at zero heading; at heading pi every parameter set gives diverging motions (refuted for all parameters)."
  },
  {
   "property": "C66",
   "status": "partial",
   "theorems": [
    "linear_hydrostatics_calm",
    "linear_hydrostatics_rise",
    "linear_hydrostatics_mean",
    "inclined_sea_partial",
    "inclined_sea_pitch_partial",
    "inclined_sea_refuted"
   ],
   "note": "Violated: atan(z2-z1)/d instead of atan((z2-z1)/d); right when the probes are 1 m apart."
  },
  {
   "property": "C67",
   "status": "partial",
   "theorems": [
    "sum_of_forces_partial",
    "sum_of_forces_refuted",
    "sum_of_forces_order",
    "reported_torques_add_up_refuted",
    "reported_forces_add_up"
   ],
   "note": "Right when every wrench is given at G; the lever arm of the hydrodynamic calculation point is lost (refuted), and NED torques of controlled forces are about another point than the total (refuted)."
  },
  {
   "property": "C68",
   "status": "partial",
   "theorems": [
    "rudder_dissipates",
    "rudder_alone_dissipates",
    "rudder_without_thrust",
    "rudder_without_thrust_astern_refuted"
   ],
   "note": "Energy: proved. The single-foil limit holds going ahead and fails astern."
  },
  {
   "property": "C69",
   "status": "proved",
   "theorems": [
    "rudder_symmetry",
    "rudder_amidships"
   ],
   "note": "For a rudder in the longitudinal plane of its propeller."
  },
  {
   "property": "C70",
   "status": "partial",
   "theorems": [
    "rudder_sees_the_thrust_partial",
    "rudder_sees_the_thrust_refuted"
   ],
   "note": "Violated: the norm of the 6-vector of forces and torques is used as the thrust."
  },
  {
   "property": "C71",
   "status": "partial",
   "theorems": [
    "rudder_drag_bounded_refuted"
   ],
   "note": "Violated for every rudder with drag: the ITTC friction line has a pole at Rn=100."
  },
  {
   "property": "C72",
   "status": "partial",
   "theorems": [
    "thrust_sign_partial",
    "reverse_rotation_refuted"
   ],
   "note": "Violated: a reversed propeller gives the bollard thrust ahead."
  },
  {
   "property": "C45",
   "status": "partial",
   "theorems": [
    "facet_area_rotation",
    "facet_area_reversal",
    "facet_area_is_integral",
    "facet_normal_unit_orthogonal",
    "facet_normal_convex",
    "facet_normal_reversal",
    "facet_normal_reversal_triangle",
    "facet_normal_needs_three_points",
    "facet_centroid_in_hull",
    "facet_centroid_is_integral",
    "facet_centroid_rotation",
    "facet_centroid_reversal",
    "facet_area_rotation_concave_refuted",
    "facet_normal_aligned_refuted"
   ],
   "note": "Proved for convex facets (area, centroid) and facets whose first three vertices are not aligned (normal); violated for concave facets (area depends on the first vertex) and for aligned first vertices (null normal)."
  },
  {
   "property": "C58",
   "status": "proved",
   "theorems": [
    "surface_force_is_resultant",
    "surface_force_order_independent",
    "surface_force_linear",
    "fast_hydrostatic_force_is_pressure_integral",
    "archimedes_force",
    "archimedes_fully_immersed",
    "enclosed_volume_translation",
    "hydrostatic_is_pressure_integral",
    "hydrostatic_models_agree",
    "hydrostatic_flat_hull_refuted"
   ],
   "note": "The claim of the properties file is proved; Archimedes holds for meshes closed by lids on the free surface. Extra finding: the complete model gives no force for nearly flat hulls (flag all_facets_are_in_same_plane)."
  },
  {
   "property": "C73",
   "status": "proved",
   "theorems": [
    "orientation_outward",
    "orientation_inward",
    "orientation_majority",
    "orientation_reversed",
    "force_independent_of_winding",
    "orientation_single_facet_refuted"
   ],
   "note": "For meshes of at least two facets, none of which is seen edge-on from the mean of the vertices; a mesh of a single facet is always considered clockwise."
  },
  {
   "property": "C74",
   "status": "partial",
   "theorems": [
    "hydrostatic_energy_is_not_a_potential_refuted"
   ],
   "note": "Violated: the energy ignores the position of the body."
  },
  {
   "property": "C75",
   "status": "partial",
   "theorems": [
    "exact_application_point_horizontal_partial",
    "exact_application_point_refuted",
    "exact_application_point_simulator_refuted",
    "down_direction_not_unit_refuted"
   ],
   "note": "Violated: the wrong element of the inertia is used along the steepest direction, and the simulator passes a down direction of norm g."
  },
  {
   "property": "C61",
   "status": "partial",
   "theorems": [
    "regular_grid_partial",
    "exponential_grid_partial",
    "exponential_grid_reversed_partial",
    "regular_grid_one_point_refuted",
    "exponential_grid_one_point_refuted"
   ],
   "note": "For at least two points and first < last; a single point gives NaN (refuted)."
  },
  {
   "property": "C76",
   "status": "partial",
   "theorems": [
    "radiation_force_is_defined_partial",
    "radiation_force_reads_the_recorded_past",
    "radiation_force_starts_at_tau_min",
    "radiation_force_value",
    "radiation_force_bad_formula_refuted",
    "radiation_calculation_point_refuted"
   ],
   "note": "The value and its domain are proved, for every (even adaptive) integration formula; the calculation point of the input is ignored, and two accepted formulas make the simulation fail (refuted)."
  },
  {
   "property": "C77",
   "status": "partial",
   "theorems": [
    "retardation_function_is_the_cosine_transform",
    "integration_bound_within",
    "integration_bound_cuts_the_negligible_partial",
    "integration_bound_loses_everything_refuted",
    "retardation_function_vanishes_refuted",
    "radiation_frequency_bounds_refuted"
   ],
   "note": "Right for decreasing dampings; a damping that vanishes at both ends of the table is lost entirely, and the bounds of the input are ignored (refuted). Assumes the documented contract of boost toms748."
  },
  {
   "property": "C59",
   "status": "partial",
   "theorems": [
    "equilibrium_bisection",
    "equilibrium_bisection_terminates",
    "equilibrium_without_sign_change",
    "bracket_is_the_extent_of_the_mesh",
    "equilibrium_draught_partial",
    "equilibrium_draught_refuted"
   ],
   "note": "The bisection itself is proved (bracket, sign change, number of steps). The initial bracket is the extent of the mesh and not its opposite, so the equilibrium is only found for hulls symmetric about the origin (refuted otherwise)."
  },
  {
   "property": "C60",
   "status": "partial",
   "theorems": [
    "equilibrium_trim_refuted",
    "equilibrium_trim_lost_refuted"
   ],
   "note": "Violated: the result of the iterations is discarded, the trim is always 0."
  },
  {
   "property": "C78",
   "status": "partial",
   "theorems": [
    "gz_without_trim",
    "gz_is_the_lever_partial",
    "gz_with_trim_refuted"
   ],
   "note": "Right without trim; otherwise the lever is multiplied by the cosine of the trim."
  },
  {
   "property": "C79",
   "status": "proved",
   "theorems": [
    "heel_angles",
    "heel_angles_refused"
   ],
   "note": ""
  },
  {
   "property": "C80",
   "status": "partial",
   "theorems": [
    "newton_keeps_the_heel",
    "newton_solves_affine_systems",
    "newton_unconverged_refuted"
   ],
   "note": "Violated: the last iterate is returned without error when the iterations are exhausted."
  },
  {
   "property": "C46",
   "status": "proved",
   "theorems": [
    "aquaplus_conversion_is_a_half_turn",
    "aquaplus_conversion_involutive",
    "aquaplus_conversion_preserves"
   ],
   "note": ""
  },
  {
   "property": "C47",
   "status": "partial",
   "theorems": [
    "rao_table_partial",
    "rao_table_unsorted_refuted",
    "rao_table_two_lists_refuted"
   ],
   "note": "Violated when the incidences of the file are not increasing, and when the sections are in two lists of the same name. Proved for one list, increasing incidences and periods, same periods in every section."
  },
  {
   "property": "C48",
   "status": "partial",
   "theorems": [
    "rao_periodic",
    "rao_mirror_half_table",
    "rao_table_value",
    "rao_mirror_partial",
    "rao_mirror_head_seas_refuted",
    "rao_arrays_partial",
    "rao_arrays_refuted"
   ],
   "note": "Proved when the table has no sway, roll, yaw in head and following seas; violated otherwise. Violated by the arrays of get_modules_cartesian (no change of sign)."
  },
  {
   "property": "C81",
   "status": "partial",
   "theorems": [
    "hdb_matrix_values",
    "hdb_matrix_missing_line",
    "hdb_periods_partial",
    "hdb_mixed_periods_refuted",
    "radiation_damping_pairs",
    "radiation_damping_frequencies_increase"
   ],
   "note": "Violated for the periods when the six lines do not have the same ones."
  },
  {
   "property": "C82",
   "status": "proved",
   "theorems": [
    "diffraction_mirror",
    "diffraction_transport",
    "diffraction_turned",
    "diffraction_linear",
    "diffraction_regular_wave",
    "diffraction_periods"
   ],
   "note": "The interpolated tables are a parameter; the mirror needs a table without sway, roll, yaw in head and following seas."
  },
  {
   "property": "C49",
   "status": "partial",
   "theorems": [
    "maneuvering_value_partial",
    "maneuvering_powers_refuted",
    "maneuvering_print_refuted"
   ],
   "note": "Violated: powers of powers associate to the left, a sign binds more than a power, a sign before a variable gives a NaN. Proved for all texts of the usual grammar without those."
  },
  {
   "property": "C50",
   "status": "partial",
   "theorems": [
    "maneuvering_malformed_refuted",
    "maneuvering_well_formed_partial"
   ],
   "note": "Violated: no text is ever refused. Well-formed texts are read to their end."
  },
  {
   "property": "C51",
   "status": "partial",
   "theorems": [
    "maneuvering_history_partial",
    "maneuvering_history_refuted",
    "maneuvering_history_variable_refuted",
    "maneuvering_history_product_refuted",
    "maneuvering_history_nested_refuted"
   ],
   "note": "Violated in general (four witnesses). Proved when the dates are t plus a number, or for x t plus something bounded."
  },
  {
   "property": "C41",
   "status": "proved",
   "theorems": [
    "mesh_tables_are_faithful"
   ],
   "note": "For every list of polygons that the builder accepts (the points are compared exactly, as in the code)."
  },
  {
   "property": "C42",
   "status": "partial",
   "theorems": [
    "mesh_builder_overflows_iff",
    "mesh_builder_within_buffer_partial",
    "mesh_builder_within_buffer_refuted",
    "free_surface_cut_partial"
   ],
   "note": "Violated when a polygon has more points than the first one; exact condition proved. The cut stays within its arrays for all meshes of triangles."
  },
  {
   "property": "C43",
   "status": "partial",
   "theorems": [
    "free_surface_cut_partial",
    "immersed_and_emerged_add_up_partial",
    "surface_facets_counted_twice_refuted",
    "free_surface_cut_refuted",
    "saddle_areas_refuted"
   ],
   "note": "Proved for all meshes of triangles with distinct corners (the only ones an STL file gives), after any history of updates. Violated for polygons with four vertices (out of bounds, overlapping parts) and for facets entirely on the surface (in both lists)."
  },
  {
   "property": "C44",
   "status": "proved",
   "theorems": [
    "split_point_on_free_surface"
   ],
   "note": "For all edges of meshes of triangles."
  },
  {
   "property": "C83",
   "status": "proved",
   "theorems": [
    "waves_are_a_potential_flow"
   ],
   "note": "The momentum equation is for the pressure without stretching (or evaluated with eta = 0); a stretched pressure is not a solution by design."
  },
  {
   "property": "C84",
   "status": "partial",
   "theorems": [
    "free_surface_conditions_partial",
    "free_surface_conditions_refuted"
   ],
   "note": "Proved when the gravity is 9.81, the literal the wave numbers are computed with; refuted for every other gravity."
  },
  {
   "property": "C85",
   "status": "proved",
   "theorems": [
    "dispersion_relation",
    "dispersion_derivatives",
    "shallow_water_refused"
   ],
   "note": "The root finder of Boost is a parameter: it stays in its bracket and finds a root when there is one (witness: a_solver)."
  },
  {
   "property": "C86",
   "status": "partial",
   "theorems": [
    "depth_selection_refuted",
    "infinite_depth_refused_refuted"
   ],
   "note": "Violated: the test is inverted, a positive depth is ignored and the depth 0 is refused."
  },
  {
   "property": "C87",
   "status": "partial",
   "theorems": [
    "density_nonneg_partial",
    "density_nonneg_refuted",
    "pierson_moskowitz_is_bretschneider",
    "peak_period",
    "spectrum_energy"
   ],
   "note": "Violated for Jonswap with gamma > exp(1/0.287): accepted and negative. The area is for Bretschneider and Pierson-Moskowitz; Jonswap only has an approximate normalisation."
  },
  {
   "property": "C88",
   "status": "partial",
   "theorems": [
    "spreading_nonneg_partial",
    "spreading_nonneg_refuted",
    "spreading_even_periodic",
    "direction_grid",
    "directional_energy_refuted"
   ],
   "note": "Violated: non integer exponents give negative or NaN densities on half of the directions; the grid of directions loses the energy of its last sector."
  },
  {
   "property": "C89",
   "status": "proved",
   "theorems": [
    "rao_unit",
    "rao_phase",
    "rao_linear",
    "rao_sizes"
   ],
   "note": "For models built by the constructors."
  },
  {
   "property": "C90",
   "status": "proved",
   "theorems": [
    "grpc_inconsistent_sizes_are_refused",
    "grpc_consistent_sizes_are_accepted"
   ],
   "note": ""
  },
  {
   "property": "C91",
   "status": "partial",
   "theorems": [
    "grpc_states_are_those_of_the_request_partial",
    "grpc_euler_states_are_those_of_the_request_partial",
    "grpc_step_starts_from_the_last_values_partial",
    "grpc_dates_refuted",
    "grpc_history_is_lost_refuted"
   ],
   "note": "Violated: the dates of the request are never read, so every step is at the date 0 and the history given to the force models has at most one point. Proved for the values. The conversion of Euler angles to quaternions (ssc, Eigen) is a parameter."
  },
  {
   "property": "C92",
   "status": "proved",
   "theorems": [
    "grpc_answers_hold_every_computed_state"
   ],
   "note": ""
  },
  {
   "property": "C93",
   "status": "partial",
   "theorems": [
    "grpc_euler_derivatives_partial",
    "euler_rates_are_the_derivatives",
    "grpc_empty_request_refuted",
    "grpc_quaternion_derivatives_refuted"
   ],
   "note": "Violated: the quaternion service reads outside of an empty array on every well formed request (an implicit conversion makes a request out of a date); the date of the answer is always 0; an empty Euler request is answered for a null quaternion."
  },
  {
   "property": "C94",
   "status": "partial",
   "theorems": [
    "grpc_errors_are_reported",
    "grpc_success_is_accepted",
    "grpc_unknown_errors_refuted",
    "grpc_failed_calls_give_nothing",
    "grpc_force_request"
   ],
   "note": "Proved for the sixteen standard error codes; any other code is taken for a success."
  },
  {
   "property": "C95",
   "status": "proved",
   "theorems": [
    "grpc_force_request_contents",
    "grpc_force_request",
    "grpc_server_states_have_the_same_dates",
    "grpc_force_is_the_answer"
   ],
   "note": "For a nonzero history length; the value for length 0 is covered by the properties of histories. The conversion to Euler angles is a parameter."
  },
  {
   "property": "C96",
   "status": "partial",
   "theorems": [
    "grpc_wave_information_partial",
    "grpc_waves_needed_but_absent",
    "grpc_pressures_refuted",
    "grpc_elevation_dates_refuted",
    "grpc_rao_grids_refuted"
   ],
   "note": "Violated: pressures can never be obtained (the depths of the points are dropped), elevations at another date are sent as current ones, RAO grids are never sent."
  },
  {
   "property": "C97",
   "status": "partial",
   "theorems": [
    "grpc_remote_spectra_partial",
    "grpc_remote_phases_refuted",
    "grpc_remote_velocities_partial",
    "grpc_remote_velocities_refuted",
    "grpc_waves_and_force_refuted"
   ],
   "note": "Violated: spectra with phases are read outside of the answer (shadowed loop index), and velocities are refused unless there is exactly one point."
  },
  {
   "property": "C98",
   "status": "proved",
   "theorems": [
    "groups_are_connected_components",
    "groups_of_no_edges_refuted"
   ],
   "note": "For non-empty lists of edges; an empty list of numbers is taken by the code as \"all the edges\" (refutation), which the caller avoids."
  },
  {
   "property": "C99",
   "status": "proved",
   "theorems": [
    "contour_of_closed_line"
   ],
   "note": ""
  },
  {
   "property": "C100",
   "status": "partial",
   "theorems": [
    "contour_of_convex_line_oriented_partial",
    "contour_orientation_refuted"
   ],
   "note": "Proved for lines that are convex seen from above (and resolved up to 1e-10); violated for others: only the first turn is looked at, a U-shaped waterline is run the wrong way."
  },
  {
   "property": "C101",
   "status": "partial",
   "theorems": [
    "contour_is_a_path_partial",
    "contour_is_closed_refuted"
   ],
   "note": "No out-of-range access, and the edges follow each other; but the contour of a line with an end is not closed although it is used as a facet."
  },
  {
   "property": "C102",
   "status": "partial",
   "theorems": [
    "floating_hull_is_closed_partial"
   ],
   "note": "For waterlines that are disjoint and convex seen from above (the code only closes those correctly, see C100), and wet faces that are not horizontal up to 1e-8 (a lid is dropped when such a face touches it)."
  },
  {
   "property": "C103",
   "status": "partial",
   "theorems": [
    "floating_hull_archimedes_partial"
   ],
   "note": "Same hypotheses as C102, and two wet faces at least 2.8e-3 rad apart (otherwise the code declares the hull flat, see C58). Exact reals."
  },
  {
   "property": "C104",
   "status": "partial",
   "theorems": [
    "inertia_test_is_exact",
    "body_accepted_iff_inertia_is_positive",
    "incomplete_inertia_is_refused",
    "accepted_inertia_is_positive_refuted",
    "inertia_test_does_not_depend_on_units_refuted"
   ],
   "note": "Exact for symmetric matrices (Sylvester proved for all sizes). The absolute tolerance 1e-10 on the symmetry lets a non-positive matrix with tiny coefficients through and makes the test depend on the units (refuted)."
  },
  {
   "property": "C105",
   "status": "proved",
   "theorems": [
    "accepted_inertia_is_inverted",
    "newton_law",
    "kinetic_energy_is_positive",
    "kinetic_energy_changes_by_the_power"
   ],
   "note": "Eigen determinant() and inverse() at their mathematical meaning; positivity for symmetric matrices."
  },
  {
   "property": "C106",
   "status": "partial",
   "theorems": [
    "rudder_lift_scales_with_the_square_of_the_speed",
    "propeller_scales_with_the_square_of_the_speed"
   ],
   "note": "Lift of the rudder (its drag depends on the Reynolds number), speeds above the numerical safeguard of 1e-10 m/s."
  },
  {
   "property": "C107",
   "status": "partial",
   "theorems": [
    "every_model_of_the_file_acts_once",
    "unknown_model_is_refused",
    "misplaced_model_is_refused",
    "known_models_are_told_apart",
    "bodies_are_built_in_order",
    "correct_input_is_accepted",
    "bodies_with_the_same_name_refuted",
    "registering_twice_refuted"
   ],
   "note": "When the names of the bodies and of the registered models are distinct (those of xdyn are: known_models_are_told_apart). Two bodies with the same name are accepted and lose forces and meshes silently (refuted). YAML parsing and the constructors are parameters."
  },
  {
   "property": "C108",
   "status": "proved",
   "theorems": [
    "history_is_long_enough",
    "history_is_not_too_long"
   ],
   "note": "The second one for distinct names of bodies."
  },
  {
   "property": "C109",
   "status": "proved",
   "theorems": [
    "initial_states_are_those_of_the_file"
   ],
   "note": "For the documented rotation convention (others are refused, C110); the conversion of Eigen from matrix to quaternion is modelled with its four branches."
  },
  {
   "property": "C110",
   "status": "partial",
   "theorems": [
    "rotation_conventions",
    "simulations_use_the_documented_convention",
    "check_accepts_three_axes",
    "accepted_conventions_are_usable_refuted"
   ],
   "note": "The check accepts conventions that are refused later, when a simulation is built (refuted)."
  },
  {
   "property": "C111",
   "status": "proved",
   "theorems": [
    "one_wave_model_at_most"
   ],
   "note": "The parsers of wave models are parameters."
  },
  {
   "property": "C112",
   "status": "partial",
   "theorems": [
    "forces_do_not_depend_on_the_order_partial",
    "gm_leaves_the_ship_heeled",
    "order_of_the_models_refuted"
   ],
   "note": "Proved for lists without GM; violated with GM, which leaves the heeled ship in the frames and intersector shared by the models: gravity listed after GM pushes sideways."
  },
  {
   "property": "C113",
   "status": "partial",
   "theorems": [
    "position_follows_the_velocity_partial",
    "position_rate_after_gm",
    "position_rate_after_gm_is_wrong",
    "gm_listed_last_keeps_the_forces_partial",
    "computing_gm_changes_the_motion_refuted"
   ],
   "note": "Violated: with GM the position is derived with the attitude heeled by the roll step, for every ship with a sway or heave velocity."
  },
  {
   "property": "C114",
   "status": "partial",
   "theorems": [
    "gm_is_a_slope_of_gz_partial",
    "gm_of_a_linear_curve",
    "gz_reported_with_gm",
    "gm_with_a_null_roll_step",
    "gz_reported_with_gm_refuted"
   ],
   "note": "GM by the mean value theorem, for smooth curves and positive roll steps; a null roll step is accepted and gives no number. GZ is averaged with the one a roll step away (refuted)."
  },
  {
   "property": "C115",
   "status": "partial",
   "theorems": [
    "commands_reach_their_model_partial",
    "own_commands_prevail",
    "names_of_commands_refuted",
    "command_without_value_refuted",
    "extra_values_are_ignored_refuted"
   ],
   "note": "For names of models without parenthesis (names can be confused otherwise: refuted) and commands given once. DataSource and the interpolation of ssc are external. A constant command with no value is undefined behaviour, extra values are ignored (refuted)."
  },
  {
   "property": "C116",
   "status": "partial",
   "theorems": [
    "observed_force_is_right_partial",
    "observed_torque",
    "observed_torque_is_right_iff",
    "observed_torque_refuted",
    "observed_torque_in_ned"
   ],
   "note": "Forces are right. Torques are not: Sim::output gives the position of the ship in NED as the position of G in the ship (exact error and condition proved)."
  },
  {
   "property": "C117",
   "status": "partial",
   "theorems": [
    "cs_answer_is_json_partial",
    "cs_answer_fields",
    "cs_answer_is_json_refuted",
    "me_answer_is_json_partial",
    "me_answer_of_a_short_vector",
    "me_answer_is_json_refuted"
   ],
   "note": "For states that are finite and names without quotation marks, backslashes or control characters; violated otherwise (nan and inf are sent as such). Printing of doubles is a parameter; JSON is read by a reader written from RFC 8259."
  },
  {
   "property": "C118",
   "status": "proved",
   "theorems": [
    "request_contents",
    "request_accepted",
    "request_never_undefined",
    "answer_can_be_sent_back"
   ],
   "note": "rapidjson is replaced by the reader of the specification (escape sequences in names are not decoded); reading and printing doubles are parameters, inverse of each other for the last theorem."
  },
  {
   "property": "C119",
   "status": "partial",
   "theorems": [
    "failed_step_is_answered_partial",
    "failed_step_is_answered_refuted",
    "error_answers_are_json_partial",
    "error_answers_are_json_refuted"
   ],
   "note": "Violated: errors of meshes and websockets are not sent to the client, and messages are not escaped (the error for a malformed request quotes it)."
  },
  {
   "property": "C120",
   "status": "partial",
   "theorems": [
    "bad_command_line_is_refused",
    "success_gives_status_zero",
    "exit_status_refuted",
    "failure_is_displayed_partial",
    "failure_is_displayed_refuted"
   ],
   "note": "Violated: every simulation that fails gives the status 0, and nothing is displayed when a websocket cannot be opened. boost::program_options is a parameter."
  },
  {
   "property": "C121",
   "status": "partial",
   "theorems": [
    "simulations_have_valid_arguments_partial",
    "step_that_is_not_a_number_refuted",
    "help_starts_no_server",
    "help_starts_nothing_partial",
    "help_starts_nothing_refuted",
    "servers_have_valid_arguments_partial",
    "servers_refuse_bad_command_lines_refuted"
   ],
   "note": "Violated: a NaN step is accepted, xdyn --help with a file runs the simulation, the model-exchange server starts after a command line that was not understood."
  },
  {
   "property": "C122",
   "status": "partial",
   "theorems": [
    "solver_selection_partial",
    "unknown_solvers_of_the_server",
    "unknown_solvers_refuted"
   ],
   "note": "Right for the servers; the simulator silently uses the Euler scheme for all other names."
  },
  {
   "property": "C123",
   "status": "partial",
   "theorems": [
    "outputs_of_the_file_partial",
    "outputs_of_the_file_refuted"
   ],
   "note": "Violated: all the entries after an incomplete one are lost without message, and unknown formats are ignored. yaml-cpp (operator>> of vectors) at its documented meaning."
  },
  {
   "property": "C124",
   "status": "proved",
   "theorems": [
    "outputs_of_the_command_line",
    "outputs_without_main_output"
   ],
   "note": "Names of files are understood by the functions of C31-C32."
  },
  {
   "property": "C125",
   "status": "proved",
   "theorems": [
    "body_frame",
    "body_mesh_is_the_moved_mesh"
   ],
   "note": "Over exact reals. Also says when the mesh is refused. The unused columns of the table of nodes are not compared."
  },
  {
   "property": "C126",
   "status": "proved",
   "theorems": [
    "cut_is_memoryless",
    "body_cut_is_the_cut_of_the_moved_mesh"
   ],
   "note": "For meshes of triangles (as STL files give)."
  },
  {
   "property": "C127",
   "status": "proved",
   "theorems": [
    "froude_krylov_is_the_pressure_resultant",
    "froude_krylov_without_waves",
    "froude_krylov_in_the_air"
   ],
   "note": "Over exact reals. The parts of the triangles that are wet are those of C42-C44 (surface_cut). At the points added on the surface the elevation is interpolated between the nodes, as in the code."
  },
  {
   "property": "C128",
   "status": "proved",
   "theorems": [
    "froude_krylov_is_memoryless",
    "froude_krylov_is_periodic",
    "froude_krylov_unaffected_by_queries"
   ],
   "note": "Same hypotheses as C127."
  },
  {
   "property": "C129",
   "status": "partial",
   "theorems": [
    "froude_krylov_of_degenerate_triangle",
    "froude_krylov_is_a_number_refuted",
    "froude_krylov_is_the_pressure_resultant"
   ],
   "note": "True without degenerate triangle (C127). Violated otherwise: any degenerate triangle under the surface, which the mesh reader accepts, makes the torque NaN even in calm water; the hydrostatic model has a guard and this one has not."
  },
  {
   "property": "C130",
   "status": "partial",
   "theorems": [
    "one_body_model_exchange_partial",
    "no_body_model_exchange",
    "several_bodies_model_exchange_refuted",
    "several_bodies_cosimulation_refuted"
   ],
   "note": "Holds with one body (without forced states) and none. Violated with two bodies or more: the state vector of a request has 13 values and the second body is read beyond its end (undefined behaviour), for every request and both servers."
  },
  {
   "property": "C131",
   "status": "proved",
   "theorems": [
    "hdf5_series"
   ],
   "note": "First three clauses of the conclusion (numbers, preservation, only what is requested). The addresses must not clash (C132)."
  },
  {
   "property": "C132",
   "status": "partial",
   "theorems": [
    "hdf5_clash_throws",
    "plain_addresses_are_apart",
    "hdf5_stores_plain_variables",
    "hdf5_GM_and_GZ_refuted",
    "same_name_refuted",
    "slash_in_a_name_refuted"
   ],
   "note": "Proved for the date, states, efforts and GZ of bodies without slash or comma in their names. Violated otherwise: the GM and the GZ of the GM force model share an address, so that requesting both stops the run; several variables share one name; a slash in a name can make two addresses clash. A clash always throws, it never overwrites."
  },
  {
   "property": "C133",
   "status": "proved",
   "theorems": [
    "hdf5_series"
   ],
   "note": "Grids clause of the conclusion."
  },
  {
   "property": "C134",
   "status": "proved",
   "theorems": [
    "hdf5_spectra_give_the_elevation"
   ],
   "note": "The stored formula is read as text; its value is the elevation of the model."
  },
  {
   "property": "C135",
   "status": "proved",
   "theorems": [
    "hdf5_mesh_round_trip",
    "hdf5_polygons_round_trip",
    "hdf5_triangles_round_trip",
    "hdf5_degenerate_facet_throws",
    "fan_keeps_the_volume"
   ],
   "note": ""
  },
  {
   "property": "C136",
   "status": "partial",
   "theorems": [
    "stored_command_can_be_replayed_partial",
    "stored_blank_refuted",
    "stored_debug_refuted",
    "stored_digits_refuted"
   ],
   "note": "Holds when the names have no blank and the numbers survive six digits. Violated otherwise; the flag -d is never stored."
  },
  {
   "property": "C137",
   "status": "proved",
   "theorems": [
    "input_file_reading",
    "input_file_refusal",
    "mandatory_sections"
   ],
   "note": "The YAML library (tokens to nodes) and the conversions of words to numbers and units to factors are parameters; section `output` is in Main_Model."
  },
  {
   "property": "C138",
   "status": "proved",
   "theorems": [
    "usable_conventions"
   ],
   "note": ""
  },
  {
   "property": "C139",
   "status": "partial",
   "theorems": [
    "other_sections_ignored_partial",
    "other_body_keys_ignored_partial",
    "misspelt_section_refuted"
   ],
   "note": "Violated for the optional sections: a misspelt name makes its whole content disappear silently; exactly the documented names are looked at. A misspelt mandatory section is refused (mandatory_sections of C137)."
  },
  {
   "property": "C140",
   "status": "partial",
   "theorems": [
    "word_is_an_empty_list",
    "lists_are_read_completely_partial",
    "word_for_a_list_refuted"
   ],
   "note": "Lists are read completely; a word instead of a list is an empty list, without error."
  },
  {
   "property": "C141",
   "status": "partial",
   "theorems": [
    "matrix_given_twice_partial",
    "second_inertia_matrix_refuted"
   ],
   "note": "Rows and `from hdb` together are refused in the added mass; a second rigid body matrix at another point is ignored."
  },
  {
   "property": "C142",
   "status": "proved",
   "theorems": [
    "commands_section"
   ],
   "note": ""
  },
  {
   "property": "C143",
   "status": "proved",
   "theorems": [
    "seed_reading"
   ],
   "note": ""
  },
  {
   "property": "C144",
   "status": "proved",
   "theorems": [
    "waves_section_reading",
    "density_of_the_file",
    "spreading_of_the_file",
    "sea_of_the_file"
   ],
   "note": "The last theorem: the sea is made of what the section says, spectrum by spectrum."
  },
  {
   "property": "C145",
   "status": "partial",
   "theorems": [
    "correct_wave_output_is_used_partial",
    "wave_output_errors_refuted",
    "wave_output_errors_are_reported_partial"
   ],
   "note": "Reported with the airy model; with no waves or with a distant model, the errors are swallowed and the section is used up to the error."
  },
  {
   "property": "C146",
   "status": "partial",
   "theorems": [
    "energy_fraction_refuted"
   ],
   "note": "Violated: the fraction is read and never used."
  },
  {
   "property": "C147",
   "status": "partial",
   "theorems": [
    "regular_wave_of_the_file_partial",
    "unknown_wave_models_are_refused"
   ],
   "note": "Proved with the dispersion relation of infinite depth; the depth of the file is not used for positive depths (C-properties of Wave_Depth_Props), which is the missing part."
  },
  {
   "property": "C148",
   "status": "partial",
   "theorems": [
    "nan_is_reported_at_the_next_step_partial",
    "nan_alarms_are_justified",
    "nan_in_the_output_refuted"
   ],
   "note": "A NaN is reported at the next evaluation of the forces: the row with the NaN is always output before the error, and a NaN at the last instant is not reported."
  },
  {
   "property": "C149",
   "status": "proved",
   "theorems": [
    "maneuvering_system",
    "maneuvering_order",
    "maneuvering_section_read"
   ],
   "note": "The value of a name both given and defined is excluded (ssc DataSource, external, modelled as evaluation by need). Arithmetic of reals."
  },
  {
   "property": "C150",
   "status": "partial",
   "theorems": [
    "maneuvering_foreign_command_partial",
    "maneuvering_foreign_command_refuted"
   ],
   "note": "Holds when the names of the model and of the command are plain identifiers and the model is not called like a function; the pitch command P/D of the propellers cannot be used, nor the commands of a model whose name has blanks."
  },
  {
   "property": "C151",
   "status": "proved",
   "theorems": [
    "constant_force_section",
    "heading_controller_section",
    "station_keeping_section",
    "linear_hydrostatic_section",
    "gm_section",
    "diffraction_section",
    "radiation_section",
    "resistance_section",
    "propeller_section",
    "wageningen_section_domain",
    "ktkq_section",
    "rudder_section"
   ],
   "note": "Each theorem says that the reading gives what the section says and throws otherwise. yaml-cpp and the units of ssc are external. Additional elements of the rows of linear hydrostatics are ignored."
  },
  {
   "property": "C152",
   "status": "partial",
   "theorems": [
    "sense_of_rotation_partial",
    "sense_of_rotation_refuted"
   ],
   "note": "Any word but clockwise is silently read as anti-clockwise, Clockwise for instance."
  },
  {
   "property": "C153",
   "status": "partial",
   "theorems": [
    "damping_section_partial",
    "damping_of_the_section",
    "damping_section_undefined",
    "damping_section_refuted"
   ],
   "note": "A row of fewer than six numbers, or a matrix given with from hdb, is read beyond its end; additional numbers are ignored."
  },
  {
   "property": "C154",
   "status": "partial",
   "theorems": [
    "resistance_force",
    "resistance_undefined"
   ],
   "note": "The interpolator is external. An empty table is read beyond its end unless the interpolator refuses it first."
  },
  {
   "property": "C155",
   "status": "proved",
   "theorems": [
    "tabulated_propeller"
   ],
   "note": "The interpolator is external. Arithmetic of reals."
  },
  {
   "property": "C156",
   "status": "proved",
   "theorems": [
    "constant_force_of_the_section",
    "constant_force_unknown_frame"
   ],
   "note": "The other frames are the subject of the property on constant forces."
  },
  {
   "property": "C157",
   "status": "proved",
   "theorems": [
    "ascii_stl_reading",
    "ascii_stl_file",
    "ascii_unnamed_solid_is_binary"
   ],
   "note": "The conversion %lf is a parameter. The file must begin with solid and a space to be recognised as a text: with solid alone it is read as binary."
  },
  {
   "property": "C158",
   "status": "partial",
   "theorems": [
    "ascii_truncation_reported",
    "ascii_malformed_refused_partial",
    "ascii_long_line_ends_reading",
    "ascii_long_line_refuted",
    "ascii_missing_coordinate_refuted",
    "ascii_carriage_return_refuted",
    "ascii_undefined_refuted"
   ],
   "note": "Missing coordinates are indeterminate; what follows a line of more than 255 characters is ignored; a facet line without a second word, words of 20 characters or more and blank lines with a carriage return are undefined or refused."
  },
  {
   "property": "C159",
   "status": "partial",
   "theorems": [
    "ascii_locale_partial",
    "ascii_locale_refuted"
   ],
   "note": "The locale remains C when a vertex is malformed or endsolid is missing."
  },
  {
   "property": "C160",
   "status": "proved",
   "theorems": [
    "gz_table",
    "gz_table_stops"
   ],
   "note": "Arithmetic of reals; the formatting of numbers and the curve itself are parameters (the curve is the subject of other properties, and so are the angles)."
  },
  {
   "property": "C161",
   "status": "partial",
   "theorems": [
    "gz_options_refused",
    "gz_exit_status_refuted",
    "gz_table_lost_refuted"
   ],
   "note": "The exit status is always zero, and a table whose file cannot be opened is lost without a message."
  },
  {
   "property": "C162",
   "status": "partial",
   "theorems": [
    "quaternion_tool_partial",
    "quaternion_tool_refuted"
   ],
   "note": "With fewer than four arguments the program displays a message, then reads beyond its arguments; a quaternion that is not a unit one is not normalised."
  },
  {
   "property": "C163",
   "status": "partial",
   "theorems": [
    "embedded_mesh_partial",
    "embedded_mesh_refuted"
   ],
   "note": "The alphabet of base 91 has the double quote, which is not escaped. Trigraphs are not modelled."
  },
  {
   "property": "C164",
   "status": "proved",
   "theorems": [
    "written_stl_read_back",
    "written_stl_read_iff",
    "written_stl_identity_refuted"
   ],
   "note": "The text of a number and the conversion %lf are parameters related by the hypothesis number_format; the stream keeps six digits only, so the coordinates themselves change."
  },
  {
   "property": "C165",
   "status": "proved",
   "theorems": [
    "written_polygons_refused"
   ],
   "note": "Such a mesh is written without complaint, but the file is refused when it is read."
  },
  {
   "property": "C166",
   "status": "partial",
   "theorems": [
    "first_report_has_no_efforts",
    "euler_reports_are_late_partial",
    "rk4_reports_predictions_partial",
    "rk4_prediction_error",
    "reported_efforts_refuted",
    "reported_efforts_rk4_refuted"
   ],
   "note": "The efforts are those of the last evaluation of the stepper: one step late with Euler, at the predicted state with RK4. The steppers are external and modelled."
  },
  {
   "property": "C167",
   "status": "partial",
   "theorems": [
    "forced_values_seen_partial",
    "forced_values_seen_when_up_to_date_partial",
    "main_program_integrates_forced_velocities_partial",
    "library_forces_velocities_late_partial",
    "forced_ship_does_not_move_refuted",
    "library_ship_moves_late_refuted"
   ],
   "note": "The force models see the forced velocities; the Coriolis efforts and the derivatives of the position and attitude use those of the state vector, which the main program never forces. Explicit Euler steps, one body."
  },
  {
   "property": "C168",
   "status": "partial",
   "theorems": [
    "tool_works_on_the_body_of_the_file",
    "tool_ignores_the_rest_of_the_file",
    "tool_refuses_another_body",
    "tool_accepts",
    "tool_without_bodies_refuted",
    "tool_with_two_bodies_refuted"
   ],
   "note": "A file without bodies is undefined behaviour; with two bodies of the same name the forces of the last one are taken for gravity and the hydrostatic force."
  },
  {
   "property": "C169",
   "status": "proved",
   "theorems": [
    "resultant_is_weight_minus_displacement",
    "resultant_moments",
    "resultant_out_of_the_water",
    "draught_balances_weight_and_displacement"
   ],
   "note": "Over exact reals, when the immersed facets and lids on the water plane form a closed surface."
  },
  {
   "property": "C170",
   "status": "partial",
   "theorems": [
    "volume_of_a_part_partial",
    "volume_of_a_heeled_hull_refuted",
    "volumes_in_any_order",
    "body_that_would_sink_is_refused_partial"
   ],
   "note": "The lids are recorded with the normal (0,0,-1) of the body frame, so the volume of a heeled hull is wrong; a part of fewer than three facets counts for nothing. The check made at the origin, upright, is right."
  },
  {
   "property": "C171",
   "status": "partial",
   "theorems": [
    "forward_solvers_run",
    "euler_and_runge_kutta_run",
    "cash_karp_never_completes_a_step",
    "cash_karp_is_an_error_refuted",
    "solvers_by_name",
    "unknown_solver"
   ],
   "note": "Euler and Runge-Kutta 4 run to the end; Runge-Kutta-Cash-Karp evaluates its last stage before the date of the previous one, which the histories refuse: it fails at the first step (tables of the steppers: those of the literature, the steppers being external); an unknown name gives Euler with the main program and is an error with the server."
  },
  {
   "property": "C172",
   "status": "proved",
   "theorems": [
    "forces_see_the_state_of_the_evaluation"
   ],
   "note": "For dates equal or at least 1e-12 s apart (the tolerance of the interpolation of the histories), in the statement."
  },
  {
   "property": "C173",
   "status": "partial",
   "theorems": [
    "rudder_position",
    "rudder_acts_at_its_position_partial",
    "rudder_acts_at_its_position_refuted"
   ],
   "note": "Right when the axes of the propeller leave the vector from the rudder to the propeller unchanged; the positions being in the axes of the body and the force in those of the propeller, the moment is wrong otherwise, by the amount given in rudder_position."
  },
  {
   "property": "C174",
   "status": "partial",
   "theorems": [
    "derivatives_depend_on_the_request_partial",
    "step_depends_on_the_request_partial",
    "first_efforts_of_a_step",
    "command_in_force",
    "omitted_command_refuted",
    "first_efforts_refuted",
    "forces_of_a_request_see_its_history"
   ],
   "note": "Holds for the derivatives, the dates and the states when the request gives every command used (and at least one state, for a step). A command left out keeps the value of the latest request that gave it; the efforts of the first instant of a step are those of the previous request. For one body, and force models without memory of their own."
  },
  {
   "property": "C175",
   "status": "partial",
   "theorems": [
    "euler_drift_bounded_partial",
    "euler_step_stretches_the_quaternion",
    "euler_drift_is_the_product_of_the_stretchings",
    "euler_drift_grows",
    "euler_drift_unbounded",
    "runge_kutta_step_at_a_constant_rate",
    "matrix_is_a_rotation_iff_unit",
    "speed_with_a_drifted_quaternion",
    "forced_states_keep_quaternions",
    "attitude_stays_a_rotation_refuted"
   ],
   "note": "Refuted: the integrated quaternion is never normalised (only the reported one is). With Euler each step multiplies the square of its norm by exactly 1 + (dt w)^2/4, without bound as long as the body turns; with Runge-Kutta 4 at a constant rate by 1 - h^6/72 + h^8/576. What holds: bounds in terms of the duration, the step and the rate. Relies on the external steppers integrating a vector of their own (boost takes the system by value)."
  },
  {
   "property": "C176",
   "status": "partial",
   "theorems": [
    "no_origin",
    "no_direction_partial",
    "calm_water_is_blind",
    "calm_water_has_no_origin",
    "calm_water_has_no_direction_partial",
    "speed_is_turned_partial",
    "track_is_turned_refuted",
    "down_direction_refuted",
    "down_direction_partial",
    "down_direction_mirrored"
   ],
   "note": "The part on displacements is proved. The part on headings is refuted twice: (1) the drifting quaternion (C175) makes the speed over ground, hence the track, depend on the heading (depth, velocities in the body frame and attitude are turned exactly; the speed too while the quaternion has norm 1); (2) the vertical given to the exact hydrostatic model is the third column of the rotation matrix instead of its third row: it depends on the heading, and for a body that rolls it is on the wrong side. The theorems on runs use gravity, the fast hydrostatic model and any blind models, free bodies."
  },
  {
   "property": "C177",
   "status": "partial",
   "theorems": [
    "refused_without_waves",
    "accepted_with_waves",
    "no_waves_partial",
    "linear_hydrostatics_without_waves_refuted",
    "hydrostatic_without_waves_refuted",
    "linear_hydrostatics_in_calm_water",
    "refusal_names_the_model_refuted",
    "refusal_names_the_model_partial"
   ],
   "note": "Refuted: linear hydrostatics is accepted and dereferences the null wave model at the first evaluation; the model \"hydrostatic\" is accepted and gives a null force for ever (the intersection is never computed); the message of four of the five models that are refused writes the address of a function (\"1\") instead of the name. Holds for the other models, at any number of evaluations."
  },
  {
   "property": "C178",
   "status": "partial",
   "theorems": [
    "rudder_feels_the_waves_refuted",
    "ship_speed_refuted"
   ],
   "note": "Refuted, whatever the inputs: the efforts do not use the wave model, contrary to the guide; get_ship_speed (public, not used by the simulator, its test is disabled) reads the variable it is defining."
  },
  {
   "property": "C179",
   "status": "partial",
   "theorems": [
    "step_in_two_requests_partial",
    "step_in_two_requests_refuted"
   ],
   "note": "Holds when the last states of the first answer are those of the integrator. Refuted as soon as the ship turns: the answer has the normalised quaternion while the integration goes on with the one that drifts (C175), so the trajectory depends on the cut (1.5 m to starboard against 0.96 m after two steps of one second at 1.5 rad/s). The number of steps made by the scheduler of ssc (external) is a parameter, with its documented value."
  },
  {
   "property": "C180",
   "status": "proved",
   "theorems": [
    "runge_kutta_is_exact_under_a_constant_push",
    "euler_is_late_under_a_constant_push",
    "rest_is_kept",
    "free_fall"
   ],
   "note": "Arithmetic over the reals; the Runge-Kutta and Euler schemes are those of ssc and odeint (external) in Solver_Model. The lag of Euler is stated exactly. free_fall needs a unit quaternion and a block-diagonal inverse of the inertia (centre of gravity at the origin)."
  },
  {
   "property": "C181",
   "status": "partial",
   "theorems": [
    "constants_of_the_file_partial",
    "negative_constants_are_refused_refuted"
   ],
   "note": "The values reach the models. Refuted for the refusal: the constructor tests the members it has just set to zero, the values of the file are assigned afterwards without test (a negative gravity gives a weight upwards for every mass and attitude). A file without the section runs with density, viscosity and gravity equal to zero."
  },
  {
   "property": "C182",
   "status": "proved",
   "theorems": [
    "wave_field_goes_with_the_states",
    "unknown_frame_is_refused",
    "no_field_without_waves_or_mesh",
    "frames_of_the_field_are_rigid"
   ],
   "note": "The elevations; the abscissae and ordinates of the grid are wrong when the frame is turned (C40, grid_values_refuted). The frames of the meshes are left out (hypothesis: no other known frame); with several bodies of the same name the theorem says one of them."
  },
  {
   "property": "C183",
   "status": "proved",
   "theorems": [
    "trajectories_converge_at_first_order",
    "trajectories_converge",
    "written_states_converge",
    "usual_efforts_are_regular"
   ],
   "note": "Exact arithmetic (no rounding). First order for both solvers: the fourth order of Runge-Kutta is not proved. The equations of motion are those of Sim_Spec.free_derivative (Newton-Euler with quaternions); the efforts depend on the states and the date only (not radiation damping with memory), no forced states. The steppers are those of boost (external) in Solver_Model. The existence of the solution is a hypothesis; converge_witness gives one (a turning ship)."
  },
  {
   "property": "C184",
   "status": "proved",
   "theorems": [
    "trajectories_are_robust",
    "close_simulations",
    "motion_is_determined"
   ],
   "note": "Same model and hypotheses as C183 (exact arithmetic, no forced states, steppers of boost external). The perturbed efforts need not be regular, may depend on the histories kept by the bodies, and must agree with the unperturbed ones only within 2 of the solution; they must not throw. The constant grows exponentially with the duration (it must: chaotic cases exist)."
  },
  {
   "property": "C185",
   "status": "proved",
   "theorems": [
    "energy_rate",
    "energy_never_grows",
    "energy_is_conserved",
    "simulated_energy_is_conserved",
    "simulated_energy_never_grows",
    "damped_efforts_take_energy"
   ],
   "note": "Same model as C183 (exact arithmetic, no forced states, efforts without memory, steppers of boost external). The Coriolis effort (ssc, external) is one of the other efforts: it is not proved to be without power. The error is of first order in the step; at a given step, energy is not conserved exactly."
  },
  {
   "property": "C186",
   "status": "partial",
   "theorems": [
    "yml2test_partial",
    "yml2test_empty_line_refuted",
    "yml2test_quotes_refuted",
    "yml2test_backslash_refuted"
   ],
   "note": "Holds for lines that are not empty, without quotation marks and backslashes. Violated by the code otherwise: an empty line reads the character before the beginning of an empty string (undefined behaviour), a quotation mark ends the literal (the function does not compile), a backslash is read as an escape sequence (another text). The C++ needed to read the function (words, literals with simple escape sequences, stream insertions) is specified in Embed_Props; trigraphs are not."
  },
  {
   "property": "C187",
   "status": "proved",
   "theorems": [
    "mirrored_simulations",
    "symmetrical_ships_go_straight",
    "port_and_starboard",
    "twin_screws_go_straight",
    "weight_in_the_mirror",
    "damping_in_the_mirror",
    "propeller_and_rudder_in_the_mirror",
    "controlled_efforts_in_the_mirror",
    "constant_efforts_in_the_mirror",
    "controllers_in_the_mirror",
    "linear_hydrostatics_in_the_mirror"
   ],
   "note": "Exact reals, bodies without forced states. The efforts may depend on the histories as long as they are mirrored. The Coriolis efforts (ssc, external) are one of the efforts. single_screw_heels shows that the hand of the propeller matters."
  },
  {
   "property": "C188",
   "status": "partial",
   "theorems": [
    "mesh_as_code_partial",
    "mesh_as_code_refuted"
   ],
   "note": "The characters always decode to the mesh, and the definition is read by the compiler if and only if no double quote is among them; the alphabet of base 91 has the double quote, so the code of some meshes (the triangle (0,0,0), (1,0,0), (0,1,0)) does not compile. The part of C++ needed to read the definition is specified in Embed_Props; trigraphs and the limit on the length of literals are not."
  },
  {
   "property": "C189",
   "status": "proved",
   "theorems": [
    "facets_in_the_mirror",
    "pressures_in_the_mirror",
    "hydrostatics_in_the_mirror",
    "buoyancy_in_the_mirror",
    "volumes_in_the_mirror",
    "symmetrical_hulls_are_not_pushed_sideways"
   ],
   "note": "Exact reals. The last theorem is on the triangles given to the force model (all of them immersed, or the immersed ones when they are symmetrical): the polygons made by cutting facets at the free surface are covered by the theorems on facets already built only. one_plate_is_pushed shows that the symmetry is needed."
  }
 ]
}