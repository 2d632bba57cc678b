{
 "claims": [
  {
   "property": "C01",
   "status": "proved",
   "theorems": [
    "c01_c06_every_step_closes"
   ],
   "note": "All three simultaneous solvers, any process laws, any number of steps, storages declared in flow order."
  },
  {
   "property": "C02",
   "status": "partial",
   "theorems": [
    "c02_limiter_capacity",
    "c02_euler_capacity_partial",
    "c02_oscillation_refuted",
    "c02_hidden_inflow_refuted"
   ],
   "note": "The single-limiter claim holds; a whole Euler step respects capacities when every capped storage has an overflow and all inflow is visible to the limiter. The general claim is false of the code: two witnesses."
  },
  {
   "property": "C03",
   "status": "partial",
   "theorems": [
    "c03_balance_closes",
    "c03_static_handoff_refuted"
   ],
   "note": "Closes over runs of any length for plain connections in flow order; false for hand-offs through static connections (witness)."
  },
  {
   "property": "C04",
   "status": "partial",
   "theorems": [
    "c04_limiter_bounds",
    "c04_limiter_leaves_feasible_steps",
    "c04_limiter_proportional",
    "c04_empty_store_frozen_refuted"
   ],
   "note": "Bounds, no-op and proportionality proved for a store holding water; an empty store is frozen instead (witness)."
  },
  {
   "property": "C06",
   "status": "partial",
   "theorems": [
    "c01_c06_every_step_closes",
    "c06_backward_connection_refuted"
   ],
   "note": "Proved for forward connections; false for backward ones with Heun (witness)."
  },
  {
   "property": "C07",
   "status": "partial",
   "theorems": [
    "c07_euler_books_every_kind_once",
    "c07_heun_deposits_twice_refuted"
   ],
   "note": "Proved for Euler; false for Heun (witness)."
  },
  {
   "property": "C08",
   "status": "proved",
   "theorems": [
    "c08_heun_no_trace",
    "c08_rk4_no_trace"
   ],
   "note": ""
  },
  {
   "property": "C13",
   "status": "proved",
   "theorems": [
    "c13_linear",
    "c13_threshold",
    "c13_cemaneige",
    "c13_precipitation_conserved"
   ],
   "note": ""
  },
  {
   "property": "C14",
   "status": "proved",
   "theorems": [
    "c14_infiltration",
    "c14_evaporation",
    "c14_percolation",
    "c14_production_store_bounded"
   ],
   "note": ""
  },
  {
   "property": "C15",
   "status": "partial",
   "theorems": [
    "c15_socont",
    "c15_power_law",
    "c15_linear",
    "c15_exponential",
    "c15_hbv",
    "c15_open_water",
    "c15_gr4j_evaporation_within_demand",
    "c15_hbv_correction_refuted"
   ],
   "note": "Proved for every ET process; for HBV only with a correction factor at most one (witness otherwise)."
  },
  {
   "property": "C16",
   "status": "proved",
   "theorems": [
    "c16_degree_day",
    "c16_temperature_index",
    "c16_cemaneige",
    "c16_cemaneige_cold_content",
    "c16_refreeze",
    "c16_melt_xor_refreeze"
   ],
   "note": ""
  },
  {
   "property": "C21",
   "status": "partial",
   "theorems": [
    "c21_outflow",
    "c21_accuracy",
    "c21_monotone_refuted"
   ],
   "note": "Positive and within X6*exp(-14) of the law; strict monotonicity fails at the branch boundary (witness)."
  },
  {
   "property": "C49",
   "status": "proved",
   "theorems": [
    "c49_infiltration_socont",
    "c49_infiltration_hbv",
    "c49_infiltration_decreases",
    "c49_runoff_socont",
    "c49_runoff_hbv",
    "c49_capillary",
    "c49_infiltration_fits_refuted"
   ],
   "note": "The refutation shows the infiltration is not limited to the free capacity, which the property does not claim."
  },
  {
   "property": "C50",
   "status": "proved",
   "theorems": [
    "c50_threshold",
    "c50_snow_holding"
   ],
   "note": ""
  },
  {
   "property": "C51",
   "status": "proved",
   "theorems": [
    "c51_rest",
    "c51_swat_bounds"
   ],
   "note": ""
  },
  {
   "property": "C05",
   "status": "partial",
   "theorems": [
    "c05_books",
    "c05_conserved_partial",
    "c05_not_overdrawn_partial",
    "c05_forced_water_refuted",
    "c05_refrozen_snow_refuted"
   ],
   "note": "Books kept in every case and conservation when no input is counted twice or requests stay within the content; two real counterexamples (static input counted twice by the limiter, refrozen snow of the previous day counted again in the HBV snowpack)."
  },
  {
   "property": "C17",
   "status": "proved",
   "theorems": [
    "c17_shares",
    "c17_shape"
   ],
   "note": ""
  },
  {
   "property": "C18",
   "status": "proved",
   "theorems": [
    "c18_convolution",
    "c18_balance",
    "c18_empties",
    "c18_nonneg"
   ],
   "note": ""
  },
  {
   "property": "C19",
   "status": "partial",
   "theorems": [
    "c19_weights",
    "c19_schedule_is_content",
    "c19_convolution",
    "c19_all_due_partial"
   ],
   "note": "Weights and schedule = content proved for all histories; exact timing and complete delivery proved for a unit covering the whole catchment. With several units the timing claim is false, see C53."
  },
  {
   "property": "C20",
   "status": "partial",
   "theorems": [
    "c20_mirror_partial",
    "c20_gain_refuted",
    "c20_internal_storage_refuted",
    "c20_gr6j_mirror_partial",
    "c20_gr6j_exchange_refuted"
   ],
   "note": "Proved for X2 <= 0 (GR4J) and X2 = 0 (GR6J) over runs of any length; false with a gain, witnesses given."
  },
  {
   "property": "C52",
   "status": "partial",
   "theorems": [
    "c52_refresh_partial",
    "c52_stale_refuted",
    "c52_truncated_refuted"
   ],
   "note": "Holds after SetParameters/Reset; the per-step test misses changes, witnesses given."
  },
  {
   "property": "C53",
   "status": "partial",
   "theorems": [
    "c53_share_refuted",
    "c19_convolution"
   ],
   "note": "Only true for share 1 (c19_convolution); refuted otherwise: the process reads the area-weighted outlet flux as the delivered water."
  },
  {
   "property": "C09",
   "status": "partial",
   "theorems": [
    "c09_analytic_exact",
    "c09_solution_exists",
    "c09_half_steps",
    "c09_hidden_inflow_refuted"
   ],
   "note": "Exact (up to the 1e-8 mm/d thresholds) for any storage whose inflow the limiter sees; the unrestricted claim is refuted: inflow from a directly computed cover through a plain connection is not seen by the limiter."
  },
  {
   "property": "C10",
   "status": "proved",
   "theorems": [
    "c10_implicit_bisection",
    "c10_trapezoidal_bisection",
    "c10_root_is_the_content",
    "c10_implicit_step",
    "c10_trapezoidal_step"
   ],
   "note": "Bracket and accuracy for every outflow law including jumps; step-level theorem for Lipschitz laws and visible inflow."
  },
  {
   "property": "C11",
   "status": "proved",
   "theorems": [
    "c11_sequential_balance"
   ],
   "note": "All four schemes, any process laws, storages declared in flow order with plain connections. Network-level consequences: c01_c06_every_step_closes and c03_balance_closes include these solvers."
  },
  {
   "property": "C12",
   "status": "proved",
   "theorems": [
    "c12_names"
   ],
   "note": ""
  },
  {
   "property": "C54",
   "status": "proved",
   "theorems": [
    "c54_exponential_exact"
   ],
   "note": ""
  },
  {
   "property": "C23",
   "status": "partial",
   "theorems": [
    "c23_accepted",
    "c23_accepted_all",
    "c23_refused_partial",
    "c23_refused_refuted",
    "c23_validated",
    "c23_reset_refuted",
    "c23_applied",
    "c23_room_accepted",
    "c23_dated_area"
   ],
   "note": "Accepted changes (and sequences of them) keep a partition of the area. \"A refused change leaves the unit unchanged\" needs a generic cover and is refuted without one (the fraction is written before the check). The repair of small deviations made at validation is lost at the next reset."
  },
  {
   "property": "C24",
   "status": "proved",
   "theorems": [
    "c24_water",
    "c24_snow",
    "c24_exact",
    "c24_nonneg"
   ],
   "note": "Volumes kept up to 3*2^-52 times the depths (the code compares fractions with that tolerance), exactly otherwise. Ice of a shrinking glacier is not transferred (documented in the code) and is not part of the property."
  },
  {
   "property": "C25",
   "status": "partial",
   "theorems": [
    "c25_cover",
    "c25_unit",
    "c25_restored",
    "c25_component_partial",
    "c25_component_refuted",
    "c25_component_stale_refuted"
   ],
   "note": "Proved for land covers. Surface components: right with one weighted output only; with two the parent fraction is applied twice; not refreshed when the parent changes. (SetAreaFraction of a component is only reached from C++ basin settings listing surface components.)"
  },
  {
   "property": "C22",
   "status": "proved",
   "theorems": [
    "c22_volume_conserved",
    "c22_released_within",
    "c22_slide_keeps_holding_depth",
    "c22_slide_receives",
    "c22_frey_receives",
    "c22_frey_within_snow"
   ],
   "note": "Any redistribution law, any number of targets; plus what is kept, removed and received exactly for the two laws of the code (steps of at most one day)."
  },
  {
   "property": "C55",
   "status": "proved",
   "theorems": [
    "c55_density_bounded",
    "c55_density_settles",
    "c55_consecutive_steps"
   ],
   "note": ""
  },
  {
   "property": "C26",
   "status": "proved",
   "theorems": [
    "c26_ice_conserved",
    "c26_ice_conserved_exactly",
    "c26_extents",
    "c26_safe",
    "c26_initialised"
   ],
   "note": "For tables that suit the basin (rows without ice only at the end, no extent inside the rounding tolerance of 0 or 1)."
  },
  {
   "property": "C27",
   "status": "partial",
   "theorems": [
    "c27_ice_conserved_partial",
    "c27_zero_area_refuted"
   ],
   "note": "Proved when rows without area are reached only once the ice is gone; otherwise the ice depth is a division by zero (witness). The tables the library makes meet the condition (C75)."
  },
  {
   "property": "C28",
   "status": "proved",
   "theorems": [
    "c28_snow_to_ice",
    "c28_volume",
    "c28_safe"
   ],
   "note": ""
  },
  {
   "property": "C29",
   "status": "partial",
   "theorems": [
    "c29_dated_actions",
    "c29_reset_reapplies",
    "c29_first_row_without_actions_refuted"
   ],
   "note": "In a run the manager is first told the date of the second step, so a change dated the first day (or before) is applied after the first row. For every registration and every increasing sequence of dates passed to the manager. AddAction after a run has started is not covered."
  },
  {
   "property": "C30",
   "status": "partial",
   "theorems": [
    "c30_same_date_reversed_refuted",
    "c30_same_date_actions_reversed_refuted"
   ],
   "note": "The property is false of the code: equal dates are applied in reverse order of registration; the theorems prove it for every date."
  },
  {
   "property": "C31",
   "status": "partial",
   "theorems": [
    "c31_registered_days_fire",
    "c31_valid_day_kept",
    "c31_no_other_day_partial",
    "c31_cross_product_refuted",
    "c31_several_times_a_day_refuted",
    "c31_leap_day_refuted"
   ],
   "note": "Holds for registrations sharing their month or their day; refuted in general (months x days cross product), for steps below one day, and for February 29."
  },
  {
   "property": "C32",
   "status": "partial",
   "theorems": [
    "c32_steps",
    "c32_every_row_filled",
    "c32_step_length",
    "c32_binary64_daily",
    "c32_binary64_binary_fractions",
    "c32_binary64_away_from_the_dates",
    "c32_binary64_hourly_refuted"
   ],
   "note": "Exact arithmetic: one row per time step for every period and step. In binary64 (Flocq) proved for whole-day steps and steps that are binary fractions of a day, and for any step when the period does not end on a step date; refuted for hourly and 10-minute steps (8784 steps against 8783 rows, and 144 against 145)."
  },
  {
   "property": "C33",
   "status": "partial",
   "theorems": [
    "c33_daily",
    "c33_subdaily_whole_days_partial",
    "c33_hours_of_the_day_refuted",
    "c33_step_ignored_refuted"
   ],
   "note": "Daily data: the value of the date. Sub-daily: only periods starting at midnight of the data; multi-day steps are ignored by the cursor."
  },
  {
   "property": "C34",
   "status": "partial",
   "theorems": [
    "c34_forcing_of_the_dates",
    "c34_time_step_not_checked_refuted"
   ],
   "note": "Each step uses the forcing of its own date when the data has the step of the model; the code does not check that it has."
  },
  {
   "property": "C35",
   "status": "proved",
   "theorems": [
    "c35_spin_up",
    "c35_never_longer_than_the_period"
   ],
   "note": ""
  },
  {
   "property": "C45",
   "status": "partial",
   "theorems": [
    "c45_accepted_iff_covering",
    "c45_valid_series",
    "c45_first_unit_only_refuted"
   ],
   "note": "Exact criterion for one series; for several units only the first is checked (witness)."
  },
  {
   "property": "C46",
   "status": "partial",
   "theorems": [
    "c46_days_and_hours",
    "c46_created_series_keep_their_dates",
    "c46_other_spacings_refuted"
   ],
   "note": "Whole-day and hourly axes; other spacings are misread (witness)."
  },
  {
   "property": "C36",
   "status": "partial",
   "theorems": [
    "c36_rerun_partial",
    "c36_rerun_with_snow_partial",
    "c36_cold_content_refuted"
   ],
   "note": "Proved for any computation over basins without snowpacks, and with snowpacks whose processes keep nothing that a step reads; refuted for the CemaNeige cold content (Snowpack::Reset does not reset its processes)."
  },
  {
   "property": "C37",
   "status": "partial",
   "theorems": [
    "c37_value_of_the_last_date",
    "c37_in_a_run",
    "c37_first_step_refuted",
    "c37_unsorted_dates_refuted"
   ],
   "note": "Proved: after any dates each parameter has the value scheduled for the last of them that has one; in a run the row of step k shows the values for dates 1..k. Refuted: the first step uses the initial value; dated values given out of order are accepted and ignored. Nothing in the library registers modifiers with the updater (only tests do), stated in DESIGN.md."
  },
  {
   "property": "C38",
   "status": "proved",
   "theorems": [
    "c38_search",
    "c38_found_is_right"
   ],
   "note": ""
  },
  {
   "property": "C39",
   "status": "partial",
   "theorems": [
    "c39_round_trip",
    "c39_binary64_round_trip",
    "c39_consecutive_days",
    "c39_refused",
    "c39_any_date",
    "c39_leap_second_refuted",
    "c39_day_of_year",
    "c39_day_of_year_before_refuted"
   ],
   "note": "Proved for the whole proleptic Gregorian calendar, also in binary64. Refuted: second 60 is accepted and does not come back; the day of the year is 1 for every date up to MJD 0. Parsing of strings is not modelled."
  },
  {
   "property": "C40",
   "status": "partial",
   "theorems": [
    "c40_outlet",
    "c40_evapotranspiration",
    "c40_storage",
    "c40_water_snow_ice",
    "c40_weights",
    "c40_fractions_not_recorded_refuted",
    "c40_outlet_name_refuted",
    "c40_contents_ignore_fractions_refuted"
   ],
   "note": "Proved when the fractions are recorded, cover names are unambiguous and no other sub-basin label contains \"outlet\". Refuted otherwise (fractions are not recorded by default; substring match on labels), and for GetTotalHydroUnits on contents, whose fraction weighting looks for a label suffix that no label has."
  },
  {
   "property": "C41",
   "status": "proved",
   "theorems": [
    "c41_variant"
   ],
   "note": "The variant of a unit is exactly as stated; ties go to the first variant, sizes count distinct names. Witnesses: c41_superset, c41_fallback."
  },
  {
   "property": "C42",
   "status": "partial",
   "theorems": [
    "c42_by_name",
    "c42_result",
    "c42_list",
    "c42_by_type_partial",
    "c42_unknown_type_refuted",
    "c42_type_of_sub_basin_refuted",
    "c42_every_process_refuted",
    "c42_failed_list_refuted"
   ],
   "note": "By name and by list: full characterisation, including failures and exceptions. By type: proved when no sub-basin brick matches and the matching bricks have the parameter. Refuted parts of the English claim: an unknown type reports success; a type matching a sub-basin brick raises an exception after changing the unit bricks; only the first of several processes with the parameter is changed; a failing list keeps its first changes."
  },
  {
   "property": "C43",
   "status": "partial",
   "theorems": [
    "c43_labels",
    "c43_unit_columns",
    "c43_basin_columns_partial",
    "c43_distinct",
    "c43_later_variant_refuted",
    "c43_twice_refuted"
   ],
   "note": "Labels: unique, complete, in order, for all settings. Columns of the units: right for distinct declarations (given by well-formed names, c43_distinct). Columns of the sub-basin: right only if later variants add no label and the first variant declares none twice; otherwise refuted (null pointer read, write past the end)."
  },
  {
   "property": "C44",
   "status": "partial",
   "theorems": [
    "c44_rejected",
    "c44_through_a_splitter_refuted",
    "c44_sub_basin_refuted"
   ],
   "note": "A direct flux from a solved brick to a brick of a kind that is computed directly is rejected, and only such fluxes are. Refuted: a path through a splitter is accepted; a sub-basin brick of a cover type is always solved, yet a flux to it is rejected."
  },
  {
   "property": "C47",
   "status": "partial",
   "theorems": [
    "c47_last_amount_again",
    "c47_nothing_left_partial",
    "c47_stops_refuted"
   ],
   "note": "Refuted: a cover that loses its area is skipped, and its fluxes keep delivering their last amount in every later step (c47_last_amount_again). Holds only if that amount was 0."
  },
  {
   "property": "C48",
   "status": "partial",
   "theorems": [
    "c48_volume_partial",
    "c48_outlet",
    "c48_rain",
    "c48_between_covers_refuted",
    "c48_to_a_splitter_refuted",
    "c03_balance_closes"
   ],
   "note": "Volumes are kept by fluxes to the outlet, to sub-basin stores and to stores of the unit; refuted for fluxes to splitters (no weighting) and between covers of different areas."
  },
  {
   "property": "C56",
   "status": "partial",
   "theorems": [
    "c56_unit_splitter",
    "c56_sub_basin_never",
    "c56_sub_basin_refuted",
    "c56_copies_refuted"
   ],
   "note": "Splitters of units pass their first input on to every output; refuted: splitters of the sub-basin are never computed, and several outputs get a copy each."
  },
  {
   "property": "C57",
   "status": "proved",
   "theorems": [
    "c57_euler",
    "c57_heun",
    "c57_rk4"
   ],
   "note": "Contents and reported fluxes of the textbook method, for storages in flow order with plain connections."
  },
  {
   "property": "C58",
   "status": "proved",
   "theorems": [
    "c58_order"
   ],
   "note": "Exact polynomial decay and the error bound over any number of steps."
  },
  {
   "property": "C59",
   "status": "proved",
   "theorems": [
    "c59_catchment_balance",
    "c59_precipitation_balance",
    "c59_nonnegative",
    "c59_solver_receives"
   ],
   "note": "Conditions of the statement are [sound], [guarded] (CatchmentSpec.v). Outside them the balance fails: c05_*_refuted (water counted twice), c48_*_refuted (weights), c47_stops_refuted (area lost), c03_static_handoff_refuted (static hand-off between solved storages of different weight). Processes only read the containers: the groundwater exchange of routing:gr4j is not part of this balance."
  },
  {
   "property": "C60",
   "status": "partial",
   "theorems": [
    "c60_rain_and_snow",
    "c60_receivers",
    "c60_covers_first_refuted"
   ],
   "note": "Proved for every declaration made by the Python model classes. Refuted for the settings interface in general: land covers added before the precipitation splitters get no rain, without error."
  },
  {
   "property": "C61",
   "status": "proved",
   "theorems": [
    "c61_declared_structure",
    "c61_bricks",
    "c61_cover_types"
   ],
   "note": "Closed form [add_parts parts (base o covers)] (StructureSpec.v). Declarations: [good_model] (DeclareSpec.v)."
  },
  {
   "property": "C62",
   "status": "proved",
   "theorems": [
    "c62_built",
    "c62_flags",
    "c62_balance"
   ],
   "note": "Structures in flow order: [in_flow_order] (BuildSpec.v)."
  },
  {
   "property": "C63",
   "status": "proved",
   "theorems": [
    "c63_model_built",
    "c63_model_balance",
    "c63_model_nonnegative"
   ],
   "note": "[good_units] (DeclareSpec.v); witness: Socont with a glacier, two variants, two units (DeclareWitness.v, RunWitness.v)."
  },
  {
   "property": "C64",
   "status": "partial",
   "theorems": [
    "c64_run_completes",
    "c64_overflow_step",
    "c64_overflow_aborts_refuted"
   ],
   "note": "Runs of any length without capacities; Euler steps with capacities. Refuted: a storage 100 mm above its capacity with an overflow cannot be computed with a step of 10 minutes."
  },
  {
   "property": "C65",
   "status": "proved",
   "theorems": [
    "c65_formulas_balance",
    "c65_formulas_nonnegative",
    "c65_weekly_refuted"
   ],
   "note": "Discharges the condition [guarded] of C63 from the formulas (Processes.v, LawSpec.v). Refuted for steps longer than a day: 10 mm of rain give 20 mm of runoff in a weekly step."
  },
  {
   "property": "C66",
   "status": "partial",
   "theorems": [
    "c66_aliases_equivalent",
    "c66_overflow_refuted"
   ],
   "note": "Percolation and snow to ice transformations: equality of the built catchments. Refuted for the overflow (ModelBuilder.cpp compares the raw type with \"overflow\")."
  },
  {
   "property": "C67",
   "status": "partial",
   "theorems": [
    "c67_right_quantity",
    "c67_convertible",
    "c67_first_declared",
    "c67_text",
    "c67_needed",
    "c67_degree_refuted",
    "c67_synonyms_refuted",
    "c67_elevation_refuted",
    "c67_cemaneige_refuted",
    "c67_file_units_refuted"
   ],
   "note": "Proved for every stored unit except \"degree\" and the degree sign, for which the value is returned unconverted in any unit (refuted). Refuted: units that mean the same are not recognised; the elevation declared for a unit is not one of its properties, so no model with the CemaNeige splitter can be created from the Python classes; properties read from a basin file have no unit and are NaN when asked in one."
  },
  {
   "property": "C68",
   "status": "partial",
   "theorems": [
    "c68_declared",
    "c68_built",
    "c68_connections",
    "c68_refused",
    "c68_connectivity",
    "c68_zero_ratio_refuted",
    "c68_twice_refuted",
    "c68_duplicate_ids_refuted",
    "c68_second_file_refuted"
   ],
   "note": "Proved for distinct ids and a connectivity table set once. Refuted: setting the connectivity again adds up (Clear keeps the connections); duplicate ids are accepted and the first unit loses its connections; a ratio of 0 is accepted by Python and refused later by the core; a file read into settings that have units mixes them up."
  },
  {
   "property": "C69",
   "status": "partial",
   "theorems": [
    "c69_file_to_units",
    "c69_nothing_else",
    "c69_missing_units",
    "c69_array_to_units",
    "c69_array_attached",
    "c69_daily_file",
    "c69_hourly_file_refuted",
    "c69_total",
    "c69_names"
   ],
   "note": "Proved for every layout and size. Refuted: hourly files, whose dates are read as 32-bit floats, are never accepted."
  },
  {
   "property": "C70",
   "status": "partial",
   "theorems": [
    "c70_written",
    "c70_too_long",
    "c70_second_run",
    "c70_early_stop_refuted",
    "c70_read",
    "c70_run_to_user"
   ],
   "note": "Proved for every run. Refuted in one case: a second run that fails early leaves the rows of the first run in the file (only the cursor is reset). The selection of a period when reading is not modelled."
  },
  {
   "property": "C71",
   "status": "partial",
   "theorems": [
    "c71_mean_swe",
    "c71_total_swe",
    "c71_single_cover_refuted",
    "c71_mean_component_refuted",
    "c71_suffix_refuted"
   ],
   "note": "Proved for at least two land covers whose names are not confused. Refuted: a single land cover (always an exception), the mean of a component (one value per unit, averaged over time), covers without snowpack whose name ends another."
  },
  {
   "property": "C72",
   "status": "proved",
   "theorems": [
    "c72_infiltration",
    "c72_evaporation",
    "c72_percolation",
    "c72_exponential_store",
    "c72_unique"
   ],
   "note": "Infiltration and evaporation up to 13 X1 of rain or demand per step (beyond, the code uses the value at 13 X1); c72_unique: the equation determines the level."
  },
  {
   "property": "C73",
   "status": "proved",
   "theorems": [
    "c73_linear",
    "c73_hbv",
    "c73_power",
    "c73_socont",
    "c73_exponential",
    "c73_ice_under_snow",
    "c73_seasons",
    "c73_sublimation"
   ],
   "note": ""
  },
  {
   "property": "C74",
   "status": "proved",
   "theorems": [
    "c74_rows",
    "c74_first_row",
    "c74_shrinks",
    "c74_thinning"
   ],
   "note": "Rasters are modelled as the lists of thicknesses of the ice-covered pixels of each unit."
  },
  {
   "property": "C75",
   "status": "proved",
   "theorems": [
    "c75_ice_conserved",
    "c75_extent",
    "c75_accepted"
   ],
   "note": "The table hypotheses of C26 are discharged for the tables the library makes; no hypothesis on the table is left. Units are made of fewer than 1e8 pixels of more than 1e-8 m2."
  },
  {
   "property": "C76",
   "status": "partial",
   "theorems": [
    "c76_rows",
    "c76_never_fails",
    "c76_made",
    "c76_volumes",
    "c76_medium",
    "c76_small_refuted",
    "c76_one_level_refuted",
    "c76_large_refuted"
   ],
   "note": "Refuted for the default curves below 5 km2 (zero at the top: division by zero, proved for every glacier on two elevations with 2/n of the ice in the upper one), for a single elevation, and above 20 km2 (negative at the top: too much ice is taken). Proved for all other changes of thickness; parts are given in increasing order of elevation."
  },
  {
   "property": "C77",
   "status": "proved",
   "theorems": [
    "c77_ice_conserved",
    "c77_row",
    "c77_accepted",
    "c77_initialised"
   ],
   "note": "For tables made on pixels whose change of thickness is nowhere negative; the table hypotheses of C26 are discharged. Units are made of fewer than 1e8 pixels of more than 1e-8 m2."
  },
  {
   "property": "C78",
   "status": "partial",
   "theorems": [
    "c78_rows",
    "c78_made",
    "c78_volumes",
    "c78_medium",
    "c78_downwards_refuted",
    "c78_extent_grows_refuted"
   ],
   "note": "Refuted for profiles from the highest to the lowest line (the changes of thickness go to the wrong lines) and for the claim that extents never grow under the default width option. Proved for every change of thickness that is nowhere negative and every profile in increasing order."
  },
  {
   "property": "C79",
   "status": "partial",
   "theorems": [
    "c79_found",
    "c79_reached",
    "c79_defined",
    "c79_defined_data",
    "c79_set",
    "c79_accepted",
    "c79_adapt",
    "c79_transformed",
    "c79_ready",
    "c79_add_aliases_refuted",
    "c79_text_alias_refuted",
    "c79_defined_twice_refuted",
    "c79_midway_refuted",
    "c79_adapt_refuted",
    "c79_default_refuted",
    "c79_length_refuted"
   ],
   "note": "Refuted for aliases added later (not checked), an alias given as a text (read letter by letter), a component:name defined twice (the second is never reached and the set never valid), a call that fails midway (values before are kept), adaptation after change_range made the range empty, defaults outside the range, and lists of another length. Proved for all other histories. Texts are ASCII; units and prior laws are not modelled."
  },
  {
   "property": "C80",
   "status": "partial",
   "theorems": [
    "c80_constraints",
    "c80_ranges",
    "c80_random",
    "c80_given_up",
    "c80_no_limits",
    "c80_removed",
    "c80_operator_refuted",
    "c80_undefined_refuted"
   ],
   "note": "Refuted for unknown operators (such as ==), which are accepted and never checked, and for constraints on parameters without value, which raise. Proved for all sets whose values are of the kind of their range."
  },
  {
   "property": "C81",
   "status": "partial",
   "theorems": [
    "c81_search_box",
    "c81_transforms",
    "c81_run",
    "c81_sample",
    "c81_best",
    "c81_best_values",
    "c81_sample_refuted",
    "c81_all_rejected_refuted",
    "c81_mean_error_refuted",
    "c81_unlisted_metric_refuted"
   ],
   "note": "Refuted: after 1000 unsuited samples the last one is returned (the announced exception cannot be reached); when all runs were rejected a rejected set is reported as the best with score -1e12; the signed mean error is minimised; error metrics that are not listed (msle) are maximised. Proved for one model without auxiliary observations and finite scores; spotpy is the environment."
  },
  {
   "property": "C82",
   "status": "partial",
   "theorems": [
    "c82_computed",
    "c82_flows",
    "c82_multiple",
    "c82_forced",
    "c82_single",
    "c82_single_forced",
    "c82_accepted",
    "c82_zero_share_refuted",
    "c82_crowd_refuted",
    "c82_edge_refuted"
   ],
   "note": "Refuted: with one decimal digit a receiver may get a share of 0, which the hydro units accept and the model refuses; a unit with more than a hundred equal receivers loses all of them; water that leaves over the edge of the grid is not counted as leaving the catchment. Exact arithmetic; the flow directions and accumulations of pysheds are inputs, assumed positive in the cells of the units."
  },
  {
   "property": "C83",
   "status": "partial",
   "theorems": [
    "c83_names",
    "c83_values",
    "c83_reference",
    "c83_threshold_continuous",
    "c83_threshold_refuted",
    "c83_integer_refuted",
    "c83_correction",
    "c83_phases",
    "c83_order",
    "c83_pet",
    "c83_pet_options_refuted",
    "c83_variables_refuted",
    "c83_total"
   ],
   "note": "Station data only (gridded data are not modelled). Refuted: with a station above the threshold the method with two gradients jumps at the threshold; a gradient given as an integer raises; the additional options of compute_pet are documented as passed to pyet but ignored; variables loaded for PET only (humidity, wind, net radiation, pressure) are passed to the model, which refuses them."
  },
  {
   "property": "C84",
   "status": "partial",
   "theorems": [
    "c84_samples_partial",
    "c84_run_once",
    "c84_correction_refuted",
    "c84_ignored_refuted",
    "c84_pet_refuted",
    "c84_repeated_refuted"
   ],
   "note": "Proved for operations whose corrections and PET do not depend on calibrated parameters, with at most one operation per variable of the units. Refuted otherwise: calibrated correction factors multiply from sample to sample, or have no effect on the units if the spatialisation has no calibrated parameter; PET keeps the values of the first temperature; the calibration corrects again a forcing that was already used for a run."
  },
  {
   "property": "C85",
   "status": "partial",
   "theorems": [
    "c85_periods",
    "c85_raises",
    "c85_spinup_years",
    "c85_spinup_within",
    "c85_pairs_partial",
    "c85_pairs_array",
    "c85_pairs_refuted",
    "c85_aligned",
    "c85_compared",
    "c85_rows"
   ],
   "note": "Everything proved except the evaluation of observations whose dates are not increasing: only their number is compared, and a day given twice hides a missing one (refuted). Dates are whole numbers of nanoseconds as in pandas; parsing of texts is not modelled."
  },
  {
   "property": "C86",
   "status": "partial",
   "theorems": [
    "c86_accepted",
    "c86_assigned",
    "c86_whole",
    "c86_areas",
    "c86_quantiles",
    "c86_highest_refuted",
    "c86_flat_refuted",
    "c86_limits_refuted",
    "c86_unknown_refuted",
    "c86_many_refuted"
   ],
   "note": "Proved for bands of equal height without limits, and in general for the numbering. Refuted: with quantiles the highest cells of the catchment are in no unit (and there is one band fewer than asked for); flat cells and cells on the border of the raster are in no aspect class; cells below the given minimum are dropped in silence; unknown criteria are ignored; the 65536th unit gets the id 0. Exact real arithmetic; slope, aspect, radiation and coverage by polygons are inputs."
  },
  {
   "property": "C87",
   "status": "partial",
   "theorems": [
    "c87_balance",
    "c87_between",
    "c87_seasons",
    "c87_bands",
    "c87_surface",
    "c87_icemelt",
    "c87_icemelt_above",
    "c87_icemelt_refuted",
    "c87_covers_refuted",
    "c87_first_day_refuted"
   ],
   "note": "Proved for models with one glacier cover: the value is the documented formula on the recorded series. Refuted: the engine records the ice melt in mm over the whole catchment, so the value is not accumulation minus ablation and is always too high (c87_icemelt gives the amount); with two glacier covers the contents are added, although they are mm over different areas; the first day of the period is not counted. Exact real arithmetic."
  },
  {
   "property": "C88",
   "status": "partial",
   "theorems": [
    "c88_csv",
    "c88_glamos",
    "c88_years",
    "c88_month_refuted",
    "c88_band_refuted"
   ],
   "note": "Rows are modelled after parsing. Refuted: a month number that does not exist is not refused and gives no observation; a row without limits of its band becomes a target that no run can answer."
  },
  {
   "property": "C89",
   "status": "partial",
   "theorems": [
    "c89_cover",
    "c89_refuses",
    "c89_nothing_recorded",
    "c89_request",
    "c89_between",
    "c89_monotone",
    "c89_extremes",
    "c89_linear",
    "c89_typo_refuted"
   ],
   "note": "The value is proved for every recording. Refuted: a land cover that is asked for but was not recorded (a typing error) is left out without a message when another one is there. Infinite numbers are not modelled. Exact real arithmetic."
  },
  {
   "property": "C90",
   "status": "partial",
   "theorems": [
    "c90_stack",
    "c90_modis",
    "c90_refuses",
    "c90_between",
    "c90_cache_partial",
    "c90_cache_units_refuted",
    "c90_cache_dates_refuted"
   ],
   "note": "Images are on the grid of the units (the reprojection is not modelled). The cache is transparent if loads with the same key ask for the same units and read the dates in the same way, for every history; without that it is refuted: the key of the cache contains neither hydro_units nor date_regex, date_format, date_parser."
  },
  {
   "property": "C91",
   "status": "partial",
   "theorems": [
    "c91_run",
    "c91_unit",
    "c91_elevation",
    "c91_ids",
    "c91_surfaces",
    "c91_between",
    "c91_interp",
    "c91_glaciers_run",
    "c91_masks",
    "c91_unsorted_refuted",
    "c91_same_elevation_refuted",
    "c91_id_refuted",
    "c91_final_refuted",
    "c91_same_year_refuted"
   ],
   "note": "Proved for tables with columns in the order of their dates and one row for each unit. Refuted: with columns in another order a repeated value is lost; two units with the same whole metres of elevation: the second one gets nothing; an id that is not a unit is accepted between the smallest and the largest; with the yearly interpolation the last mask is never reached, and two masks in a year register nothing. The polygons and the rasterization of the shapes are not modelled; exact real arithmetic."
  },
  {
   "property": "C92",
   "status": "partial",
   "theorems": [
    "c92_convert",
    "c92_round_trip",
    "c92_ways",
    "c92_brackets",
    "c92_names",
    "c92_documented",
    "c92_member",
    "c92_steps_refuted",
    "c92_documented_refuted",
    "c92_member_refuted",
    "c92_column_refuted"
   ],
   "note": "Exact real arithmetic. Refuted: millimetres cannot be converted to kilometres; the documented names with spaces (square meter) are refused; so are the members of the enumeration whose text is not a name (degrees Celsius, percent, ...); and the columns named (name, unit) that the documentation of convert_unit_df shows."
  },
  {
   "property": "C93",
   "status": "partial",
   "theorems": [
    "c93_mapping",
    "c93_classes",
    "c93_shapes",
    "c93_glacier",
    "c93_again_refuted",
    "c93_no_generic_refuted",
    "c93_text_refuted",
    "c93_class_zero_refuted"
   ],
   "note": "Exact real arithmetic, on the grid of the units (projection and rasterization are given); each class has one entry in the mapping. Refuted: initialising a cover that has already an area loses that area (the fractions do not add up to one); without a generic cover the first cover gets 0 instead of its area; class codes given as texts do not override the preset, and the cells count for both covers; a mapping with the class 0 takes the cells without polygon."
  },
  {
   "property": "C94",
   "status": "partial",
   "theorems": [
    "c94_combinations",
    "c94_random",
    "c94_aligned",
    "c94_days",
    "c94_mean",
    "c94_skill",
    "c94_rmse",
    "c94_length_refuted",
    "c94_start_refuted",
    "c94_bias_refuted",
    "c94_constant_refuted"
   ],
   "note": "Exact real arithmetic; daily series; the metrics of HydroErr are any functions (RMSE and mean error by their formulas). Refuted: periods that do not consist of whole years compare series of different lengths; a start date without end date is ignored; the mean error counts as an error although it has a sign, so a biased simulation gets a better skill than a perfect one; for constant observations a perfect simulation has the skill 0."
  },
  {
   "property": "C95",
   "status": "partial",
   "theorems": [
    "c95_variant",
    "c95_nodes",
    "c95_components",
    "c95_edges",
    "c95_summary",
    "c95_counts",
    "c95_processes_refuted",
    "c95_bricks_refuted",
    "c95_forcing_refuted",
    "c95_same_name_refuted"
   ],
   "note": "The summary as blocks of data, not its layout; the drawing (to_dot, plot) is not modelled. Refuted: the number of processes counts a process with several outputs several times; that of bricks also counts undeclared targets; the forcing line of a component leaves out the forcing of its processes; a unit brick and a sub-basin brick of the same name share one node."
  },
  {
   "property": "C96",
   "status": "partial",
   "theorems": [
    "c96_nodes",
    "c96_edges",
    "c96_legend",
    "c96_quoted",
    "c96_quote_refuted",
    "c96_flux_color_refuted",
    "c96_storage_row_refuted"
   ],
   "note": "The DOT text as its statements; header, font attributes and the HTML of the legend are left out, plot() is not modelled. Refuted: a name with a quote is not escaped; ordinary fluxes are drawn dark grey but black in the legend; the legend has a storage row even if no storage is drawn."
  }
 ]
}