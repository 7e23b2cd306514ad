{
 "claims": [
  {
   "property": "C01",
   "status": "proved",
   "theorems": [
    "C01_simpson_quadratic_exact",
    "C01_simpson_cubic_exact_at_even_nodes",
    "C01_simpson_final_is_composite_rule",
    "C01_simpson_matrix_invertible"
   ],
   "note": ""
  },
  {
   "property": "C02",
   "status": "partial",
   "theorems": [
    "C02_bdf3_quadratic_exact",
    "C02_bdf3_output_is_the_scheme_solution",
    "C02_bdf3_matrix_invertible",
    "C02_accepts_exactly_odd_node_counts",
    "C02_every_documented_size_works_refuted"
   ],
   "note": "Exactness, unique solvability and the scheme characterisation are proved for every accepted size; C02_every_documented_size_works_refuted: the default method raises ValueError for num_nodes=3 although the documentation allows 2N+1."
  },
  {
   "property": "C03",
   "status": "proved",
   "theorems": [
    "C03_time_modes_interchangeable"
   ],
   "note": ""
  },
  {
   "property": "C04",
   "status": "proved",
   "theorems": [
    "C04_integrator_affine",
    "C04_shift_and_step_scaling",
    "C04_first_entry_is_start_value",
    "C04_final_is_last_entry_and_single_node"
   ],
   "note": ""
  },
  {
   "property": "C05",
   "status": "partial",
   "theorems": [
    "C05_jacobian_rate_and_start",
    "C05_jacobian_dt",
    "C05_jacobian_duration",
    "C05_jacobian_bounds_partial",
    "C05_jacobian_bounds_final_value",
    "C05_jacobian_bounds_wrong_refuted",
    "C05_jacobian_bounds_raises_refuted"
   ],
   "note": "dt, duration, rate, start value and all final-value partials proved; for time_setup='bounds' the state column is wrong (or raises) when the integral vanishes at some but not all nodes (two _refuted witnesses)."
  },
  {
   "property": "C06",
   "status": "partial",
   "theorems": [
    "C06_segments_chain",
    "C06_segment_starts_where_previous_ended",
    "C06_segment_step_partials_partial",
    "C06_segment_step_partials_refuted",
    "C06_only_dt_with_segments"
   ],
   "note": "Chaining proved in full; the |dt partials are proved when no node integral of the segment vanishes and refuted for zero rates (ValueError)."
  },
  {
   "property": "C07",
   "status": "proved",
   "theorems": [
    "C07_skipped_segments_hold_their_value",
    "C07_counted_segments_as_if_others_had_zero_rate"
   ],
   "note": ""
  },
  {
   "property": "C08",
   "status": "proved",
   "theorems": [
    "C08_fourth_order_exact_to_degree_four",
    "C08_second_order_exact_to_degree_two",
    "C08_segments_independent",
    "C08_argument_checks",
    "C08_accepted_order_is_the_requested_one"
   ],
   "note": ""
  },
  {
   "property": "C09",
   "status": "proved",
   "theorems": [
    "C09_partials_wrt_values",
    "C09_partials_wrt_steps"
   ],
   "note": ""
  },
  {
   "property": "C10",
   "status": "partial",
   "theorems": [
    "C10_output_is_the_scaled_sum",
    "C10_accepted_calls",
    "C10_jacobian_partial",
    "C10_jacobian_of_one_row_input_refuted",
    "C10_constructor_arguments"
   ],
   "note": "Value and acceptance proved in full. The declared Jacobian is proved exact except for one-row inputs of multi-column equations, where it is proved wrong (column 0 is declared for every row)."
  },
  {
   "property": "C11",
   "status": "partial",
   "theorems": [
    "C11_names_shapes_jacobian_survive_partial",
    "C11_units_survive_refuted"
   ],
   "note": "Repeated setup keeps names, shapes and Jacobian structure but loses all units (stored kwargs are popped): proved as _refuted."
  },
  {
   "property": "C12",
   "status": "partial",
   "theorems": [
    "C12_output_is_the_product",
    "C12_accepted_calls",
    "C12_jacobian_partial",
    "C12_jacobian_of_one_row_input_refuted"
   ],
   "note": "Value and acceptance proved in full. Jacobian exact except one-row inputs of multi-column equations (witness in _refuted)."
  },
  {
   "property": "C13",
   "status": "partial",
   "theorems": [
    "C13_output_units_partial",
    "C13_unitless_iff_all_inputs_unitless",
    "C13_output_units_first_unitless_refuted",
    "C13_library"
   ],
   "note": "Unit text denotes the product when the first input has units or none has; when only the first is unitless the text starts with an operator and denotes nothing (_refuted)."
  },
  {
   "property": "C14",
   "status": "proved",
   "theorems": [
    "C14_split_undoes_concatenate",
    "C14_concatenate_undoes_split",
    "C14_pieces_in_order",
    "C14_concatenate_jacobian",
    "C14_split_jacobian",
    "C14_accepted_calls"
   ],
   "note": ""
  },
  {
   "property": "C15",
   "status": "proved",
   "theorems": [
    "C15_max_is_the_largest_element",
    "C15_min_is_the_smallest_element",
    "C15_max_partials",
    "C15_min_partials",
    "C15_partials_at_ties"
   ],
   "note": ""
  },
  {
   "property": "C16",
   "status": "proved",
   "theorems": [
    "C16_selected_input",
    "C16_rounding",
    "C16_out_of_range_rejected",
    "C16_partials_wrt_inputs",
    "C16_partials_wrt_selector",
    "C16_setup_accepts"
   ],
   "note": ""
  },
  {
   "property": "C17",
   "status": "proved",
   "theorems": [
    "C17_linear",
    "C17_end_points",
    "C17_between_the_ends",
    "C17_equal_spacing",
    "C17_partials"
   ],
   "note": ""
  },
  {
   "property": "C18",
   "status": "partial",
   "theorems": [
    "C18_publishes_the_stored_value",
    "C18_publishes_nothing_else",
    "C18_missing_key",
    "C18_missing_value",
    "C18_errors_add_nothing",
    "C18_missing_path_raises_KeyError_refuted"
   ],
   "note": "Everything proved; the KeyError claim fails when the path runs through a stored number/array/text (TypeError or IndexError), see _refuted."
  },
  {
   "property": "C19",
   "status": "partial",
   "theorems": [
    "C19_reusable",
    "C19_identity_with_identity_jacobian",
    "C19_reusable_with_new_value_refuted"
   ],
   "note": "Identity, Jacobian and reuse of the unchanged list proved; reuse after changing the value's size is refuted because the constructor appended the old size to the caller's list."
  },
  {
   "property": "C20",
   "status": "partial",
   "theorems": [
    "C20_temperature_partials",
    "C20_pressure_partials",
    "C20_temperature_slope_continuous",
    "C20_pressure_slope_continuous",
    "C20_layers",
    "C20_pressure_every_altitude_refuted"
   ],
   "note": "Temperature: every altitude. Pressure: every altitude below 288.16/0.0065 m (44.3 km); above it the output is NaN (C20_pressure_every_altitude_refuted)."
  },
  {
   "property": "C21",
   "status": "partial",
   "theorems": [
    "C21_temperature_partial",
    "C21_pressure_partial",
    "C21_stale_masks_refuted",
    "C21_partials_first_refuted"
   ],
   "note": "Proved when the last compute had the same layers; the unrestricted statement is refuted (stale masks; AttributeError before the first compute)."
  },
  {
   "property": "C22",
   "status": "proved",
   "theorems": [
    "C22_temperature",
    "C22_pressure",
    "C22_density"
   ],
   "note": ""
  },
  {
   "property": "C23",
   "status": "proved",
   "theorems": [
    "C23_inverse",
    "C23_group",
    "C23_partials"
   ],
   "note": ""
  },
  {
   "property": "C24",
   "status": "partial",
   "theorems": [
    "C24_decomposition",
    "C24_partials",
    "C24_clipped_refuted"
   ],
   "note": "Decomposition proved for |vs| <= TAS, partials off |vs| = TAS; for steeper descents groundspeed is 0.1 and singamma +1 (_refuted)."
  },
  {
   "property": "C25",
   "status": "proved",
   "theorems": [
    "C25_lift_balances_weight",
    "C25_trim",
    "C25_partials"
   ],
   "note": ""
  },
  {
   "property": "C26",
   "status": "partial",
   "theorems": [
    "C26_horizontal",
    "C26_horizontal_partials",
    "C26_vertical",
    "C26_vertical_partials_partial",
    "C26_vertical_partials_refuted"
   ],
   "note": "Values proved everywhere. Horizontal partials off the kink. Vertical partials only inside the clip range; in the clipped range they are proved wrong (_refuted)."
  },
  {
   "property": "C27",
   "status": "partial",
   "theorems": [
    "C27_zero_iff",
    "C27_balanced_partial",
    "C27_documented_zero_refuted",
    "C27_linearize"
   ],
   "note": "Exact zero set proved; every zero is a documented one, but within 0.1 m/s of Vr a balanced field has nonzero residual (_refuted)."
  },
  {
   "property": "C28",
   "status": "proved",
   "theorems": [
    "C28_transition",
    "C28_continuous",
    "C28_transition_partials",
    "C28_climb_reaches_obstacle",
    "C28_climb_partials",
    "C28_climb_angle",
    "C28_climb_angle_partials"
   ],
   "note": ""
  },
  {
   "property": "C29",
   "status": "partial",
   "theorems": [
    "C29_common_states_handed_over_partial",
    "C29_start_name_refuted",
    "C29_final_only_state_refuted",
    "C29_arguments"
   ],
   "note": "Proved for every pair of phases (any model trees) that give common states the same start name; the code uses the first phase's start name for the second phase (C29_start_name_refuted) and raises AttributeError for a final_only state."
  },
  {
   "property": "C30",
   "status": "proved",
   "theorems": [
    "C30_duration_reaches_every_integrator_once",
    "C30_states_of_a_phase"
   ],
   "note": ""
  },
  {
   "property": "C31",
   "status": "partial",
   "theorems": [
    "C31_names_never_collide",
    "C31_adder_computes_the_sum",
    "C31_multiplier_computes_the_product",
    "C31_input_units_argument_refuted"
   ],
   "note": "Names, connections and computed values proved for any sequence of calls; promote_mult's input_units argument is ignored (_refuted)."
  },
  {
   "property": "C32",
   "status": "partial",
   "theorems": [
    "C32_tagged_rates_are_integrated_partial",
    "C32_accepted_groups",
    "C32_state_name_required",
    "C32_same_rate_name_refuted",
    "C32_nested_group_refuted"
   ],
   "note": "Proved for the group's own components; tagged outputs of nested groups are not integrated and equal rate names are rejected (_refuted)."
  },
  {
   "property": "C33",
   "status": "partial",
   "theorems": [
    "C33_profiles_form_one_trajectory",
    "C33_flight_order_is_a_tree",
    "C33_altitude_sources",
    "C33_takeoff_altitude_refuted",
    "C33_invalid_transition"
   ],
   "note": "Proved for all 24 profile configurations and any aircraft model; MissionWithReserve leaves the climb altitude unconnected, and any reserve leaves the reserve climb's altitude unconnected (C33_takeoff_altitude_refuted)."
  },
  {
   "property": "C34",
   "status": "proved",
   "theorems": [
    "C34_reverses",
    "C34_twice_is_identity",
    "C34_jacobian"
   ],
   "note": ""
  },
  {
   "property": "C35",
   "status": "proved",
   "theorems": [
    "C35_rules",
    "C35_power_is_conserved",
    "C35_fraction_rule",
    "C35_fixed_rule",
    "C35_partials",
    "C35_no_derivative_at_the_switch"
   ],
   "note": "Proved for every accepted rule; the fixed rule has no derivative at power_in = amount (C35_no_derivative_at_the_switch), so partials exclude exactly that point."
  },
  {
   "property": "C36",
   "status": "proved",
   "theorems": [
    "C36_motor",
    "C36_generator",
    "C36_turboshaft",
    "C36_partials"
   ],
   "note": ""
  },
  {
   "property": "C37",
   "status": "partial",
   "theorems": [
    "C37_thrust_continuous",
    "C37_thrust_of_the_group",
    "C37_thrust_partials",
    "C37_coefficient_partials_partial",
    "C37_zero_airspeed_refuted",
    "C37_zero_efficiency_refuted",
    "C37_weight"
   ],
   "note": "Continuity, the group's relations and partials proved; false at zero airspeed (dJ/dU evaluated as J/U = 0/0) and at zero map efficiency (two _refuted theorems)."
  },
  {
   "property": "C38",
   "status": "partial",
   "theorems": [
    "C38_blade_counts_partial",
    "C38_three_blades_refuted"
   ],
   "note": "C38_three_blades_refuted: 3 blades raise NotImplementedError although a 3-blade map is selected first (missing elif); 4 accepted and every other count rejected."
  },
  {
   "property": "C39",
   "status": "proved",
   "theorems": [
    "C39_scaling",
    "C39_hydrogen"
   ],
   "note": "Proved for any deck; the deck surrogate itself is a parameter."
  },
  {
   "property": "C40",
   "status": "proved",
   "theorems": [
    "C40_battery",
    "C40_partials",
    "C40_state_of_charge",
    "C40_final_charge"
   ],
   "note": ""
  },
  {
   "property": "C41",
   "status": "proved",
   "theorems": [
    "C41_mass_accounting",
    "C41_tank_drains",
    "C41_end_of_phase",
    "C41_partials"
   ],
   "note": ""
  },
  {
   "property": "C42",
   "status": "proved",
   "theorems": [
    "C42_inner_wall_stress",
    "C42_outer_wall_buckling",
    "C42_spherical_tank",
    "C42_tank_weight",
    "C42_weight_is_positive",
    "C42_partials"
   ],
   "note": ""
  },
  {
   "property": "C43",
   "status": "proved",
   "theorems": [
    "C43_drag_polar",
    "C43_drag_partials",
    "C43_least_drag",
    "C43_stall_lift_is_weight",
    "C43_stall_partials"
   ],
   "note": ""
  },
  {
   "property": "C44",
   "status": "proved",
   "theorems": [
    "C44_planform_integrals",
    "C44_whole_wing_range",
    "C44_partial_wing_range",
    "C44_extra_section_is_neutral",
    "C44_two_sections_agree_with_trapezoid"
   ],
   "note": ""
  },
  {
   "property": "C45",
   "status": "proved",
   "theorems": [
    "C45_volume_coefficients",
    "C45_partials"
   ],
   "note": ""
  },
  {
   "property": "C46",
   "status": "proved",
   "theorems": [
    "C46_totals",
    "C46_constant_partials"
   ],
   "note": ""
  },
  {
   "property": "C47",
   "status": "proved",
   "theorems": [
    "C47_perfect_heat_transfer",
    "C47_thermal_mass",
    "C47_cold_plate",
    "C47_motor_jacket",
    "C47_battery",
    "C47_cooled_component_energy",
    "C47_motor_energy",
    "C47_battery_energy",
    "C47_reservoir_energy",
    "C47_quasi_steady_component",
    "C47_quasi_steady_motor",
    "C47_partials"
   ],
   "note": ""
  },
  {
   "property": "C48",
   "status": "proved",
   "theorems": [
    "C48_split_rejects",
    "C48_split_conserves",
    "C48_combine",
    "C48_split_then_combine",
    "C48_partials"
   ],
   "note": ""
  },
  {
   "property": "C49",
   "status": "partial",
   "theorems": [
    "C49_first_law",
    "C49_bypass",
    "C49_bypass_schedule",
    "C49_cop_bounded",
    "C49_cop_ceiling",
    "C49_cop_below_carnot",
    "C49_cop_at_equal_temperatures_refuted",
    "C49_idle_heat_pump_refuted",
    "C49_weight",
    "C49_partials"
   ],
   "note": "Everything except that the coefficient of performance is defined for all temperature pairs: at T_hot = T_cold the code divides by zero (nan), shown by two _refuted theorems."
  },
  {
   "property": "C50",
   "status": "partial",
   "theorems": [
    "C50_isentropic_inverse",
    "C50_total_above_static",
    "C50_gas",
    "C50_exit_mach",
    "C50_exit_mach_continuous",
    "C50_rejects",
    "C50_inlet",
    "C50_station",
    "C50_station_unique",
    "C50_nozzle",
    "C50_partials",
    "C50_sound_partial_refuted"
   ],
   "note": "C50_sound_partial_refuted: below 0 K the speed of sound is held constant but its partial is not zero. DuctExitMachNumber yields nan (model: 0) for exit pressures above the total pressure; the theorems assume a ratio of at most 1. Everything else is proved."
  },
  {
   "property": "C51",
   "status": "proved",
   "theorems": [
    "C51_pointwise",
    "C51_correlations",
    "C51_fin_trends",
    "C51_solvable",
    "C51_heat_balance",
    "C51_second_law",
    "C51_effectiveness",
    "C51_conductance",
    "C51_pressure_drop",
    "C51_geometry",
    "C51_rejects",
    "C51_partials"
   ],
   "note": "All parts proved on solutions of the modelled group; a solution is shown to exist for every positive input (C51_solvable), and what it delivers at a point depends only on the inputs at that point (C51_pointwise). NTUMethod's partials are claimed away from equal heat capacity flows, where min and max have a kink."
  },
  {
   "property": "C52",
   "status": "partial",
   "theorems": [
    "C52_series_partial",
    "C52_no_fouling",
    "C52_cold_fouling_ignored",
    "C52_series_refuted",
    "C52_partials_no_fouling",
    "C52_partials_refuted"
   ],
   "note": "False as stated for the code: C52_series_refuted (Rfc is assigned twice, so the cold fouling factor is ignored and the hot one counted twice) and C52_partials_refuted; C52_series_partial characterises exactly when the series law holds; C52_no_fouling and C52_partials_no_fouling cover the default options."
  },
  {
   "property": "C53",
   "status": "partial",
   "theorems": [
    "C53_setup",
    "C53_condenser_temperature_partial",
    "C53_profiles_exist",
    "C53_wick_refuted",
    "C53_wick_conduct_ignored",
    "C53_condenser_colder",
    "C53_vapor_drop",
    "C53_walls",
    "C53_q_max",
    "C53_bundles",
    "C53_warnings",
    "C53_partials",
    "C53_converges"
   ],
   "note": "Ammonia property curves are parameters (cubic interpolation not modelled). Condenser temperature proved when there is no wick or the wick conducts like the wall; otherwise refuted: wick_conduct is ignored, so T_cond is too high for every less conductive wick (C53_wick_refuted). The wall's hoop stress is half of yield/safety factor, i.e. twice the stated margin. Requires q > 0: at q = 0 the code divides 0 by 0."
  },
  {
   "property": "C54",
   "status": "partial",
   "theorems": [
    "C54_reaches_default_obstacle_partial",
    "C54_option_ignored_refuted"
   ],
   "note": "Refuted: the option is ignored, geometry always uses 10.66 m and the reported height is 35 ft = 10.668 m. The partial theorem states what the phase does."
  },
  {
   "property": "C55",
   "status": "proved",
   "theorems": [
    "C55_sweep_is_a_mean",
    "C55_panel_sweep"
   ],
   "note": ""
  },
  {
   "property": "C56",
   "status": "proved",
   "theorems": [
    "C56_span_and_aspect_ratio",
    "C56_mean_chord",
    "C56_partials"
   ],
   "note": ""
  },
  {
   "property": "C57",
   "status": "proved",
   "theorems": [
    "C57_partials",
    "C57_increments",
    "C57_clean"
   ],
   "note": ""
  },
  {
   "property": "C58",
   "status": "proved",
   "theorems": [
    "C58_hose_pressure_drop",
    "C58_hose_scaling",
    "C58_hose_weight",
    "C58_pump",
    "C58_partials"
   ],
   "note": ""
  },
  {
   "property": "C59",
   "status": "proved",
   "theorems": [
    "C59_design",
    "C59_hx_design",
    "C59_setup",
    "C59_conservation",
    "C59_heat_exchanger",
    "C59_cooling",
    "C59_no_thrust_without_heat",
    "C59_lossless"
   ],
   "note": "Proved on converged states; existence of such states by C59_design and C59_hx_design. The no-thrust theorem for the duct with its own exchanger has the extra hypotheses met only by states with recovery factor at most 1, whose existence is shown for the external-exchanger duct (C59_met)."
  },
  {
   "property": "C60",
   "status": "proved",
   "theorems": [
    "C60_bernoulli",
    "C60_stalled",
    "C60_partials"
   ],
   "note": ""
  },
  {
   "property": "C61",
   "status": "proved",
   "theorems": [
    "C61_targets",
    "C61_distances",
    "C61_states_accumulate",
    "C61_names_exist"
   ],
   "note": "Over Model_Mission's connection list plus the phases' inner connections and balances (Model_Targets). A converged BalanceComp is taken to have equal sides; duration bounds are not modelled."
  },
  {
   "property": "C62",
   "status": "proved",
   "theorems": [
    "C62_declarations",
    "C62_residuals",
    "C62_determined",
    "C62_hose"
   ],
   "note": "The components are listed in Spec_Declared.shipped; AmmoniaProperties' partials are not modelled."
  },
  {
   "property": "C63",
   "status": "proved",
   "theorems": [
    "C63_turboprop_runs",
    "C63_twin_turboprop_runs",
    "C63_single_hybrid_runs",
    "C63_twin_hybrid_runs",
    "C63_turboprop",
    "C63_twin_turboprop",
    "C63_twin_hybrid",
    "C63_twin_hybrid_weights",
    "C63_twin_hybrid_charge",
    "C63_single_hybrid",
    "C63_all_electric",
    "C63_all_electric_charge"
   ],
   "note": "Each system's converged equations are proved from its subsystems and connections. The _runs theorems show that the acyclic systems and the twin series hybrid have a converged state for all inputs (engine rating nonzero for the hybrid). Thrust needs nonzero density, rpm and diameter (propeller_runs). Propeller maps are arbitrary functions. The docstring of the twin series hybrid says the generator supplies hybrid_split.power_out_A; the code balances it against power_out_B."
  },
  {
   "property": "C64",
   "status": "proved",
   "theorems": [
    "C64_one_motor",
    "C64_turboprop_one_engine",
    "C64_hybrid_one_motor",
    "C64_energy_sources"
   ],
   "note": "C64_hybrid_one_motor and C64_energy_sources speak about hybrid_flows, which C63_twin_hybrid proves for all three twin hybrids; C64_one_motor states the engine-out case directly on the converged twin hybrid, C63_twin_hybrid_runs gives such a state."
  },
  {
   "property": "C65",
   "status": "proved",
   "theorems": [
    "C65_compressible_steady",
    "C65_all_electric",
    "C65_all_electric_compressible",
    "C65_twin_thermal",
    "C65_twin_refrigerated",
    "C65_all_electric_steady",
    "C65_twin_thermal_steady",
    "C65_twin_refrigerated_steady"
   ],
   "note": "Hypotheses: all sizes and flows of the heat exchanger positive, nonzero masses, and hx.cp_hot = 3801: heat sinks and heat pump use the coolant's specific heat from an option (3801), the heat exchanger reads an input with the same default; setting only one breaks the balance. Batteries of the all-electric systems produce heat nobody cools. Converged states meeting the hypotheses exist for all four systems and families of inputs (C65_..._steady: the steady states, whose throttle balances the exchanger's heat)."
  },
  {
   "property": "C66",
   "status": "partial",
   "theorems": [
    "C66_setup",
    "C66_series_hybrid_setup_refuted",
    "C66_refrigerated_nozzle_area_refuted",
    "C66_design_variables_read",
    "C66_nozzle_area"
   ],
   "note": "Two claims are false of the code and refuted: SeriesHybridElectricPropulsionSystem promotes fltcond_*, which matches no variable, so setup raises; in the refrigerated twin hybrid ac|propulsion|thermal|duct|area_nozzle is relabelled but never connected to the duct, so that any value leaves every other variable of a converged state as it is (examples/HybridTwin_active_thermal.py uses it as a design variable); coolant_mass is unread there too."
  },
  {
   "property": "C67",
   "status": "proved",
   "theorems": [
    "C67_turboprop",
    "C67_hybrid",
    "C67_jet",
    "C67_bwb",
    "C67_breakdown",
    "C67_turboprop_runs",
    "C67_hybrid_runs",
    "C67_jet_runs",
    "C67_bwb_runs",
    "C67_inputs",
    "C67_sets_up"
   ],
   "note": "OEW as an explicit function of the inputs for the four groups, the documented breakdown, existence of a result for every input, and the list of unconnected inputs."
  },
  {
   "property": "C68",
   "status": "proved",
   "theorems": [
    "C68_weight_partials"
   ],
   "note": "All 24 components; inputs physically meaningful (sweeps within 90 degrees, positive sizes)."
  },
  {
   "property": "C69",
   "status": "proved",
   "theorems": [
    "C69_turboprop",
    "C69_hybrid",
    "C69_jet",
    "C69_bwb",
    "C69_too_heavy"
   ],
   "note": "Existence and uniqueness of the closing takeoff weight and growth with the load for all four groups; C69_too_heavy shows that for the jets the condition is needed."
  },
  {
   "property": "C70",
   "status": "partial",
   "theorems": [
    "C70_turboprop_parts",
    "C70_jet_parts",
    "C70_bwb_parts",
    "C70_gear_length_refuted",
    "C70_pressurized_volume_refuted"
   ],
   "note": "Proved for all parts but two. C70_gear_length_refuted: the small aircraft gear lengths are declared in ft while the cited equation takes inches. C70_pressurized_volume_refuted: the fuselage's pressurized volume is a lateral area, so that wide cabins are underestimated."
  },
  {
   "property": "C71",
   "status": "proved",
   "theorems": [
    "C71_jet",
    "C71_bwb",
    "C71_jet_documented_inputs",
    "C71_bwb_documented_inputs",
    "C71_jet_runs",
    "C71_bwb_runs",
    "C71_takeoff_increment",
    "C71_bwb_takeoff_increment"
   ],
   "note": "Proved for all options."
  },
  {
   "property": "C72",
   "status": "partial",
   "theorems": [
    "C72_form_and_flap_partials",
    "C72_skin_friction_partial",
    "C72_skin_friction_refuted"
   ],
   "note": "Form factors and flap drag: proved exact. C72_skin_friction_refuted: the skin friction partials are never exact, because the code writes ln(Re) - 2.81341 for ln(0.06 Re) and ln 0.06 is not -2.81341. C72_skin_friction_partial: they are within 3 parts per million of the turbulent terms' derivatives."
  },
  {
   "property": "C73",
   "status": "partial",
   "theorems": [
    "C73_reynolds_similarity",
    "C73_clean_positive",
    "C73_faster_smaller_coefficient",
    "C73_takeoff_configuration_adds",
    "C73_more_flap_more_drag",
    "C73_engine_count",
    "C73_laminar_flow_helps",
    "C73_laminar_flow_helps_refuted"
   ],
   "note": "All parts proved; laminar flow reduces the estimate once each laminar run has a Reynolds number of at least 20000 (C73_laminar_flow_helps). C73_laminar_flow_helps_refuted: below, it can raise it."
  },
  {
   "property": "C74",
   "status": "partial",
   "theorems": [
    "C74_average_thickness",
    "C74_average_between_sections",
    "C74_onset",
    "C74_smooth_rise",
    "C74_divergence",
    "C74_monotone",
    "C74_normalisation_partial",
    "C74_normalisation_refuted"
   ],
   "note": "Onset, smoothness, slope at drag divergence, monotonicity and the mean thickness (with the exact error of the 500 point quadrature) proved. Normalisation: C74_normalisation_partial for equal areas; C74_normalisation_refuted for every other area, since the code multiplies by S_ref / area where it should multiply by area / S_ref."
  },
  {
   "property": "C75",
   "status": "proved",
   "theorems": [
    "C75_area",
    "C75_shape",
    "C75_even_spacing",
    "C75_partials"
   ],
   "note": "Proved for every resolution with at least one panel each way."
  },
  {
   "property": "C76",
   "status": "proved",
   "theorems": [
    "C76_setup",
    "C76_sections",
    "C76_straight",
    "C76_spacing",
    "C76_flat_columns",
    "C76_area",
    "C76_ordered",
    "C76_scalable"
   ],
   "note": "Proved for every list of panel counts >= 1 and every list of sections; scaling needs a positive area of the unscaled wing, which C76_scalable shows for sections ordered inboard with positive chords."
  },
  {
   "property": "C77",
   "status": "proved",
   "theorems": [
    "C77_area_partials",
    "C77_mesh_partials",
    "C77_sparsity",
    "C77_any_history"
   ],
   "note": "Proved for every history (induction over the calls, invariant: the stored mesh is the mesh of the stored inputs). Scaled meshes need a positive area."
  },
  {
   "property": "C78",
   "status": "proved",
   "theorems": [
    "C78_linear_on_sections",
    "C78_linear_on_trapezoid",
    "C78_at_sections",
    "C78_panel_average",
    "C78_bounds",
    "C78_property_partials",
    "C78_panel_partials",
    "C78_sparsity"
   ],
   "note": "Proved for both spacings."
  },
  {
   "property": "C79",
   "status": "partial",
   "theorems": [
    "C79_history_partial",
    "C79_history_derivatives_partial",
    "C79_new_inputs",
    "C79_answers",
    "C79_unchanged",
    "C79_after_interruption",
    "C79_interrupted_refuted",
    "C79_placeholder"
   ],
   "note": "History theorems proved for both components with the analysis an arbitrary function that may fail; the excluded cases are refuted by C79_interrupted_refuted and described by C79_after_interruption and C79_placeholder."
  },
  {
   "property": "C80",
   "status": "partial",
   "theorems": [
    "C80_surface_options",
    "C80_refused",
    "C80_lists_refuted",
    "C80_next_model_refused",
    "C80_vlm_panels_rejected",
    "C80_panels_refuted",
    "C80_training_points_refuted"
   ],
   "note": "Exact characterisation of accepted set-ups proved; three documented behaviours are false of the code: C80_lists_refuted, C80_panels_refuted, C80_training_points_refuted."
  },
  {
   "property": "C81",
   "status": "proved",
   "theorems": [
    "C81_row_major",
    "C81_vlm_setup",
    "C81_vlm_connected",
    "C81_vlm_drag",
    "C81_vlm_at_training_points",
    "C81_vlm_angle",
    "C81_trapezoid",
    "C81_sections",
    "C81_aerostruct_setup",
    "C81_aerostruct_connected",
    "C81_aerostruct_drag",
    "C81_aerostruct_nonwing"
   ],
   "note": "OpenAeroStruct, OpenMDAO's b-spline and structured surrogate are arbitrary functions; where a theorem needs the surrogate to interpolate or to commute with constants it says so."
  },
  {
   "property": "C82",
   "status": "partial",
   "theorems": [
    "C82_sections",
    "C82_trapezoid",
    "C82_trapezoid_partial",
    "C82_trapezoid_tip_strip",
    "C82_trapezoid_refuted"
   ],
   "note": "Proved for sections and, as C82_trapezoid_partial, for trapezoidal wings with up to two strips or equal ratios; C82_trapezoid says what the code computes instead, C82_trapezoid_tip_strip that it is never the documented value for three or more strips, C82_trapezoid_refuted has a converged witness."
  },
  {
   "property": "C83",
   "status": "proved",
   "theorems": [
    "C83_limits",
    "C83_one_strip",
    "C83_conservative",
    "C83_unique",
    "C83_exists",
    "C83_connected"
   ],
   "note": "The lift of the vortex lattice method is an arbitrary function of the angle and of the listed inputs."
  },
  {
   "property": "C84",
   "status": "proved",
   "theorems": [
    "C84_connected",
    "C84_analysis",
    "C84_one_mesh",
    "C84_options",
    "C84_options_order",
    "C84_partials"
   ],
   "note": "Below 288.16/0.0065 m, the ceiling of the pressure model; OpenAeroStruct is an arbitrary function."
  },
  {
   "property": "C85",
   "status": "proved",
   "theorems": [
    "C85_nodes",
    "C85_connected",
    "C85_collects",
    "C85_agrees",
    "C85_drag_partials"
   ],
   "note": "The per-node aerostructural group is an arbitrary partial function of the wing, the day and the flight condition."
  },
  {
   "property": "C86",
   "status": "proved",
   "theorems": [
    "C86_air",
    "C86_forces",
    "C86_power",
    "C86_path"
   ],
   "note": "For any aircraft model as an arbitrary group; the aircraft's duration connections must not target the phase's own names (own_durations). Ceiling 288.16 K / 6.5 K/km. C86_met flies a climb of the minimal aircraft to 3000 m at every odd node count."
  },
  {
   "property": "C87",
   "status": "proved",
   "theorems": [
    "C87_roll_forces",
    "C87_rotation_forces",
    "C87_roll_speed",
    "C87_abort_speed",
    "C87_roll_distance",
    "C87_rotation_speed",
    "C87_rotation_path",
    "C87_arc",
    "C87_engine_out"
   ],
   "note": "The arc's heights are 10.66 m, not the phase's h_obstacle (C54). The rotation's equation across the path holds while the acceleration is within the clip of -1 g and 2.5 g. Instances: three rolls at constant acceleration, an arc, a level rotation and an engine-out climb of the minimal aircraft."
  },
  {
   "property": "C88",
   "status": "proved",
   "theorems": [
    "C88_one_flight",
    "C88_distance",
    "C88_sets_up"
   ],
   "note": "One theorem (C88_one_flight) turns any solution of the mission group into values of the phases that follow one another; C88_distance sums the speeds. C88_sets_up shows that every valid profile sets up with the two minimal aircraft; C88_met constructs a converged BasicMission for any odd node count. The altitude of the reserve climb and, without a takeoff, of the first climb is not connected (see C33)."
  },
  {
   "property": "C89",
   "status": "proved",
   "theorems": [
    "C89_flies",
    "C89_phase",
    "C89_mission",
    "C89_lighter",
    "C89_heavier_within_a_parabola",
    "C89_charge",
    "C89_mission_charge",
    "C89_hybrid_battery"
   ],
   "note": "Propeller maps, engine deck and the trained drag polars are arbitrary functions. C89_heavier_within_a_parabola shows why the weight falls only over pairs of intervals: inside one parabola of the Simpson rule a node may be heavier than the one before. C89_mission_charge assumes the same battery in every phase: true of the hybrids (C89_hybrid_battery); the electric TBM's specific energy is an input of each phase. C89_met flies a mission of the fuel-burning minimal aircraft."
  },
  {
   "property": "C90",
   "status": "proved",
   "theorems": [
    "C90_drag",
    "C90_turboprops",
    "C90_hybrids",
    "C90_others",
    "C90_engine_out",
    "C90_empty_weight",
    "C90_margin"
   ],
   "note": "Propeller thrust where density, speed of rotation and diameter are not zero. Empty weights where rated power and fuel capacity are positive. The electric TBM's drag leaves out its cooling duct's; the refrigerated twin compares the exchanger's frontal area with propmodel.area_nozzle, the duct's control for which no connection exists (the duct's own is propmodel.duct.area_nozzle)."
  },
  {
   "property": "C91",
   "status": "proved",
   "theorems": [
    "C91_drag",
    "C91_power",
    "C91_closes",
    "C91_geometry",
    "C91_converges"
   ],
   "note": "Proved for every profile with a reserve (the code's own is the full mission with takeoff and reserve). The engine deck is an arbitrary function of throttle, altitude and Mach number; initial guesses, bounds and solvers are not modelled; the empty weight formula for positive sizes and weights. C91_converges gives a solution for every choice of design variables and takeoff weight with a deck of constant thrust and fuel flow, for the mission without takeoff; that the payload it leaves is positive is not claimed."
  },
  {
   "property": "C92",
   "status": "proved",
   "theorems": [
    "C92_flies",
    "C92_phase",
    "C92_heat",
    "C92_mission"
   ],
   "note": "Proved for every engine deck as a function of throttle, altitude, Mach number and shaft power (the deck itself is an input of the model). C92_heat assumes heat exchangers with positive sizes and flows whose coolant has the specific heat the other components use, a motor rating that is not zero and a battery with weight. C92_flies shows that the aircraft sets up in every phase and every mission; a converged state of the whole aircraft is not exhibited (its cooling ducts are compressible; C65 has a solution of one duct). The heat of the pumps and 5 % of the refrigerator's power do not enter a coolant loop in the code, and the accounts say so. The thermal parameter bypass_heat_pump is connected to nothing. The analysis group and the optimisation scripts around the aircraft are not modelled."
  },
  {
   "property": "C93",
   "status": "proved",
   "theorems": [
    "C93_connected",
    "C93_analysis",
    "C93_planform",
    "C93_weight",
    "C93_airfoil",
    "C93_options",
    "C93_solvable"
   ],
   "note": "OpenAeroStruct's wing box, beam and coupled point, its Rotate and OpenMDAO's splines are parameters. C93_weight assumes of Rotate only that it reads the points of the mesh (turns_points, met in C93_turns_case). Initial values and solver settings are not modelled."
  },
  {
   "property": "C94",
   "status": "proved",
   "theorems": [
    "C94_flies",
    "C94_vlm_phase",
    "C94_vlm_wing",
    "C94_struct_phase",
    "C94_vlm_mission",
    "C94_struct_mission",
    "C94_maneuver"
   ],
   "note": "Proved for every engine deck, training grid, surface option, spline, surrogate and OpenAeroStruct analysis as parameters (C81, C93). The drag clause assumes that the process has not met other options or a failed analysis near the same inputs (usable, as in C81; C79 shows what happens otherwise). The temperature increment of the mission is not promoted to the polar in the code: the polar has its own (drag.fltcond|TempIncrement), and the theorems say so; likewise the thickness ratio of the vortex lattice polar and the original wing weight of the maneuver (kg_to_N.orig_W_wing) are inputs of their own. The wing weight comes from a table cached within a tolerance, so that phases may differ in it within that tolerance: the continuity of the weight is stated without the wing. The variant with use_surrogate=False is not modelled as an aircraft (C85 has its polar). No converged state of a whole such aircraft is exhibited: C81 and C93 have one of the polar and of the analysis, C90 one of the flight."
  }
 ]
}