{
 "claims": [
  {
   "property": "C01",
   "status": "proved",
   "theorems": [
    "C01_nodes_and_zones",
    "C01_ids_distinct"
   ],
   "note": ""
  },
  {
   "property": "C02",
   "status": "proved",
   "theorems": [
    "C02_arcs_exact",
    "C02_docstring_6n_refuted"
   ],
   "note": "The exact arc set is proved; the docstring's 6n count is refuted for n = 1, 2."
  },
  {
   "property": "C03",
   "status": "proved",
   "theorems": [
    "C03_arcs_symmetric",
    "C03_no_periphery_shortcuts",
    "C03_distances"
   ],
   "note": "Distances under two visible laws of the sqrt oracle (respects ==, non-negative)."
  },
  {
   "property": "C04",
   "status": "proved",
   "theorems": [
    "C04_positions",
    "C04_neutral_ratios"
   ],
   "note": "Positions relative to the cos/sin oracle; radii and angles exact."
  },
  {
   "property": "C05",
   "status": "proved",
   "theorems": [
    "C05_validator_accepts_iff_documented",
    "C05_validator_true_or_raises",
    "C05_build_succeeds_iff_documented",
    "C05_first_error"
   ],
   "note": ""
  },
  {
   "property": "C06",
   "status": "proved",
   "theorems": [
    "C06_strongly_connected"
   ],
   "note": ""
  },
  {
   "property": "C07",
   "status": "proved",
   "theorems": [
    "C07_angle_round_trip",
    "C07_full_turn",
    "C07_point_round_trip",
    "C07_same_angle",
    "C07_same_point"
   ],
   "note": ""
  },
  {
   "property": "C08",
   "status": "proved",
   "theorems": [
    "C08_round_trip",
    "C08_parametric",
    "C08_plain_city",
    "C08_stable",
    "C08_every_city_refuted"
   ],
   "note": "Number texts are an explicit oracle (format_ok); the polar conversion is an oracle and 'recovers' is a visible hypothesis of C08_parametric and C08_plain_city only."
  },
  {
   "property": "C09",
   "status": "proved",
   "theorems": [
    "C09_accepted_iff",
    "C09_accepted_text",
    "C09_documented_format",
    "C09_well_formed",
    "C09_distinct_ids_refuted",
    "C09_cbd_required_refuted",
    "C09_announced_count_refuted"
   ],
   "note": "Texts that float() reads as inf or nan are outside the number oracle. Three stronger readings are refuted."
  },
  {
   "property": "C10",
   "status": "proved",
   "theorems": [
    "C10_total_is_sum",
    "C10_total_is_sum_built"
   ],
   "note": ""
  },
  {
   "property": "C11",
   "status": "proved",
   "theorems": [
    "C11_change_vij_rule",
    "C11_failure_is_atomic",
    "C11_success_touches_one_cell",
    "C11_cells_nonnegative"
   ],
   "note": ""
  },
  {
   "property": "C12",
   "status": "proved",
   "theorems": [
    "C12_parametric_demand",
    "C12_rows",
    "C12_accepts_iff",
    "C12_parametric_city",
    "C12_single_zone_ignores_beta",
    "C12_no_zones",
    "C12_first_error",
    "C12_no_zones_loses_trips_refuted"
   ],
   "note": ""
  },
  {
   "property": "C13",
   "status": "proved",
   "theorems": [
    "C13_accepts_iff",
    "C13_cells"
   ],
   "note": ""
  },
  {
   "property": "C14",
   "status": "proved",
   "theorems": [
    "C14_csv_round_trip",
    "C14_stray_read_breaks_round_trip_refuted"
   ],
   "note": ""
  },
  {
   "property": "C15",
   "status": "proved",
   "theorems": [
    "C15_unknown_ids_rejected",
    "C15_read_then_accept_refuted"
   ],
   "note": ""
  },
  {
   "property": "C16",
   "status": "proved",
   "theorems": [
    "C16_assignment_rule",
    "C16_attributes_stay_in_range",
    "C16_constructor_accepts_iff",
    "C16_constructor_values",
    "C16_nan_passes_checks_refuted",
    "C16_frequencies_per_line",
    "C16_infinite_lines_refuted",
    "C16_default_modes"
   ],
   "note": ""
  },
  {
   "property": "C17",
   "status": "proved",
   "theorems": [
    "C17_manager_is_a_dictionary",
    "C17_failures_atomic",
    "C17_names_agree_without_rename",
    "C17_rename_goes_stale_refuted"
   ],
   "note": ""
  },
  {
   "property": "C18",
   "status": "proved",
   "theorems": [
    "C18_validity_rule"
   ],
   "note": ""
  },
  {
   "property": "C19",
   "status": "proved",
   "theorems": [
    "C19_per_line_values",
    "C19_reassigning_d_does_not_rescale_refuted"
   ],
   "note": ""
  },
  {
   "property": "C20",
   "status": "proved",
   "theorems": [
    "C20_assignment_rule",
    "C20_attributes_stay_in_range",
    "C20_constructor",
    "C20_nan_passes_checks_refuted"
   ],
   "note": ""
  },
  {
   "property": "C21",
   "status": "proved",
   "theorems": [
    "C21_text_round_trip",
    "C21_parse_rule"
   ],
   "note": ""
  },
  {
   "property": "C22",
   "status": "proved",
   "theorems": [
    "C22_custom_route_accepts_iff",
    "C22_id_and_mode_required",
    "C22_stops_in_travel_order_refuted"
   ],
   "note": ""
  },
  {
   "property": "C23",
   "status": "proved",
   "theorems": [
    "C23_routes_addressable",
    "C23_insertion_order"
   ],
   "note": ""
  },
  {
   "property": "C24",
   "status": "proved",
   "theorems": [
    "C24_unknown_stop_refuted",
    "C24_forward_on_arcs",
    "C24_add_route_accepts_iff",
    "C24_return_direction_unchecked_refuted"
   ],
   "note": ""
  },
  {
   "property": "C25",
   "status": "proved",
   "theorems": [
    "C25_failures_change_nothing"
   ],
   "note": ""
  },
  {
   "property": "C26",
   "status": "proved",
   "theorems": [
    "C26_modes_rule",
    "C26_route_modes_registered",
    "C26_remove_mode_effect",
    "C26_remove_mode_keeps_others",
    "C26_remove_mode_removes_separated_routes",
    "C26_remove_mode_skips_routes_refuted"
   ],
   "note": ""
  },
  {
   "property": "C27",
   "status": "proved",
   "theorems": [
    "C27_predefined_routes_valid",
    "C27_accepted_by_networks"
   ],
   "note": ""
  },
  {
   "property": "C28",
   "status": "proved",
   "theorems": [
    "C28_families",
    "C28_each_pair_once"
   ],
   "note": ""
  },
  {
   "property": "C29",
   "status": "proved",
   "theorems": [
    "C29_equal_ids_equal_lines",
    "C29_ids_distinct_within_family"
   ],
   "note": ""
  },
  {
   "property": "C30",
   "status": "proved",
   "theorems": [
    "C30_build_succeeds",
    "C30_one_stop_per_node_and_mode",
    "C30_nodes_exact",
    "C30_route_node_numbers_distinct_refuted",
    "C30_unknown_stop"
   ],
   "note": ""
  },
  {
   "property": "C31",
   "status": "proved",
   "theorems": [
    "C31_edges_exact",
    "C31_edge_values",
    "C31_times_nonnegative",
    "C31_route_edges_consecutive"
   ],
   "note": ""
  },
  {
   "property": "C32",
   "status": "proved",
   "theorems": [
    "C32_boarding_and_alighting_offered"
   ],
   "note": ""
  },
  {
   "property": "C33",
   "status": "proved",
   "theorems": [
    "C33_ride_time_through_stopped_nodes",
    "C33_ride_time",
    "C33_circular_ride_time",
    "C33_unserved_intermediate_refuted"
   ],
   "note": ""
  },
  {
   "property": "C34",
   "status": "proved",
   "theorems": [
    "C34_search_terminates"
   ],
   "note": ""
  },
  {
   "property": "C35",
   "status": "proved",
   "theorems": [
    "C35_labels_minimal"
   ],
   "note": ""
  },
  {
   "property": "C36",
   "status": "proved",
   "theorems": [
    "C36_strategy_realises_labels",
    "C36_frequency_of_walking_stop_refuted"
   ],
   "note": ""
  },
  {
   "property": "C37",
   "status": "proved",
   "theorems": [
    "C37_elementary_paths"
   ],
   "note": ""
  },
  {
   "property": "C38",
   "status": "proved",
   "theorems": [
    "C38_validator",
    "C38_intrazonal_trips_rejected"
   ],
   "note": ""
  },
  {
   "property": "C39",
   "status": "proved",
   "theorems": [
    "C39_search_never_fails",
    "C39_free_travel_time_refuted"
   ],
   "note": ""
  },
  {
   "property": "C40",
   "status": "proved",
   "theorems": [
    "C40_shares",
    "C40_indifference",
    "C40_equal_labels_lose_all_trips_refuted",
    "C40_odd_lines_misplaced_refuted",
    "C40_no_line_refuted",
    "C40_better_stop"
   ],
   "note": ""
  },
  {
   "property": "C41",
   "status": "proved",
   "theorems": [
    "C41_terminates",
    "C41_tables_are_the_flow",
    "C41_route_balance",
    "C41_stop_balance",
    "C41_city_balance",
    "C41_all_trips",
    "C41_zero_frequency_refuted"
   ],
   "note": ""
  },
  {
   "property": "C42",
   "status": "proved",
   "theorems": [
    "C42_most_loaded_section"
   ],
   "note": ""
  },
  {
   "property": "C43",
   "status": "proved",
   "theorems": [
    "C43_travel_time",
    "C43_missing_arcs_free_refuted",
    "C43_any_line"
   ],
   "note": ""
  },
  {
   "property": "C44",
   "status": "proved",
   "theorems": [
    "C44_cycle_time",
    "C44_not_less_than_travel",
    "C44_simultaneous_faster"
   ],
   "note": ""
  },
  {
   "property": "C45",
   "status": "proved",
   "theorems": [
    "C45_operators_cost",
    "C45_additive",
    "C45_order_irrelevant",
    "C45_nonneg"
   ],
   "note": ""
  },
  {
   "property": "C46",
   "status": "proved",
   "theorems": [
    "C46_street_length",
    "C46_same_streets",
    "C46_infrastructure_cost"
   ],
   "note": ""
  },
  {
   "property": "C47",
   "status": "proved",
   "theorems": [
    "C47_feasible",
    "C47_zero_lines_refuted"
   ],
   "note": ""
  },
  {
   "property": "C48",
   "status": "proved",
   "theorems": [
    "C48_resources",
    "C48_one_mode",
    "C48_nonneg",
    "C48_scales",
    "C48_users_cost",
    "C48_access_does_not_scale_refuted",
    "C48_circular_direction_refuted"
   ],
   "note": ""
  },
  {
   "property": "C49",
   "status": "proved",
   "theorems": [
    "C49_vector_to_dict",
    "C49_start",
    "C49_given_start_ignored_refuted"
   ],
   "note": ""
  },
  {
   "property": "C50",
   "status": "proved",
   "theorems": [
    "C50_distance",
    "C50_metric",
    "C50_tolerance"
   ],
   "note": ""
  },
  {
   "property": "C51",
   "status": "proved",
   "theorems": [
    "C51_best",
    "C51_none"
   ],
   "note": ""
  },
  {
   "property": "C52",
   "status": "proved",
   "theorems": [
    "C52_runs",
    "C52_bounded",
    "C52_converges",
    "C52_unbounded_refuted"
   ],
   "note": ""
  },
  {
   "property": "C53",
   "status": "proved",
   "theorems": [
    "C53_returned",
    "C53_only_no_optimal",
    "C53_exceptions",
    "C53_network"
   ],
   "note": ""
  },
  {
   "property": "C54",
   "status": "proved",
   "theorems": [
    "C54_cost",
    "C54_line_without_passengers_refuted",
    "C54_rows"
   ],
   "note": ""
  },
  {
   "property": "C55",
   "status": "proved",
   "theorems": [
    "C55_overall",
    "C55_defined",
    "C55_no_trips_refuted"
   ],
   "note": ""
  },
  {
   "property": "C56",
   "status": "proved",
   "theorems": [
    "C56_carried",
    "C56_ring",
    "C56_sequential_refuted",
    "C56_ring_empty_section_refuted",
    "C56_ring_without_passengers_refuted",
    "C56_least_loaded"
   ],
   "note": ""
  },
  {
   "property": "C57",
   "status": "proved",
   "theorems": [
    "C57_constraint_length",
    "C57_feasible"
   ],
   "note": ""
  },
  {
   "property": "C58",
   "status": "proved",
   "theorems": [
    "C58_objective",
    "C58_value"
   ],
   "note": ""
  },
  {
   "property": "C59",
   "status": "proved",
   "theorems": [
    "C59_connected_by_lines",
    "C59_validator",
    "C59_more_lines"
   ],
   "note": ""
  },
  {
   "property": "C60",
   "status": "proved",
   "theorems": [
    "C60_line",
    "C60_hub",
    "C60_whole_city",
    "C60_ring"
   ],
   "note": ""
  },
  {
   "property": "C61",
   "status": "proved",
   "theorems": [
    "C61_construction",
    "C61_evaluation"
   ],
   "note": ""
  },
  {
   "property": "C62",
   "status": "proved",
   "theorems": [
    "C62_well_posed",
    "C62_evaluates"
   ],
   "note": ""
  },
  {
   "property": "C63",
   "status": "proved",
   "theorems": [
    "C63_results_file",
    "C63_any_id_refuted"
   ],
   "note": ""
  },
  {
   "property": "C64",
   "status": "proved",
   "theorems": [
    "C64_overall_text",
    "C64_summary_text"
   ],
   "note": ""
  },
  {
   "property": "C65",
   "status": "proved",
   "theorems": [
    "C65_runs_through",
    "C65_positive",
    "C65_idle_line_refuted"
   ],
   "note": ""
  },
  {
   "property": "C66",
   "status": "proved",
   "theorems": [
    "C66_report",
    "C66_small_frequency_refuted"
   ],
   "note": ""
  },
  {
   "property": "C67",
   "status": "proved",
   "theorems": [
    "C67_table",
    "C67_table_with_rings"
   ],
   "note": ""
  },
  {
   "property": "C68",
   "status": "proved",
   "theorems": [
    "C68_boarding_text",
    "C68_assignment_text"
   ],
   "note": ""
  },
  {
   "property": "C69",
   "status": "proved",
   "theorems": [
    "C69_extended_graph_text",
    "C69_access_time_in_minutes_refuted"
   ],
   "note": ""
  },
  {
   "property": "C70",
   "status": "proved",
   "theorems": [
    "C70_hyperpaths_text"
   ],
   "note": ""
  },
  {
   "property": "C71",
   "status": "proved",
   "theorems": [
    "C71_saved_routes_reload",
    "C71_predefined_lines_reload",
    "C71_circular_lines_refuted"
   ],
   "note": ""
  },
  {
   "property": "C72",
   "status": "proved",
   "theorems": [
    "C72_search_text",
    "C72_paths_text",
    "C72_origin_shown_unreachable"
   ],
   "note": ""
  },
  {
   "property": "C73",
   "status": "proved",
   "theorems": [
    "C73_city_picture",
    "C73_no_zones_refuted",
    "C73_network_picture",
    "C73_paths_picture",
    "C73_unknown_stop_refuted"
   ],
   "note": ""
  },
  {
   "property": "C74",
   "status": "proved",
   "theorems": [
    "C74_node",
    "C74_zone",
    "C74_edge",
    "C74_edge_of_anything_refuted",
    "C74_city",
    "C74_city_typed",
    "C74_node_typed",
    "C74_city_nan_refuted",
    "C74_demand",
    "C74_demand_typed",
    "C74_demand_nan_refuted",
    "C74_jump",
    "C74_jump_typed",
    "C74_mode",
    "C74_passenger",
    "C74_mode_typed",
    "C74_passenger_typed",
    "C74_mode_nan_refuted"
   ],
   "note": ""
  },
  {
   "property": "C75",
   "status": "proved",
   "theorems": [
    "C75_better_service",
    "C75_still_connected",
    "C75_more_frequent",
    "C75_more_lines_refuted"
   ],
   "note": ""
  },
  {
   "property": "C76",
   "status": "proved",
   "theorems": [
    "C76_trip_cost",
    "C76_users_hours",
    "C76_one_mode",
    "C76_other_frequencies_refuted"
   ],
   "note": ""
  },
  {
   "property": "C77",
   "status": "proved",
   "theorems": [
    "C77_vehicles",
    "C77_ray",
    "C77_best",
    "C77_constraints",
    "C77_feasible"
   ],
   "note": ""
  },
  {
   "property": "C78",
   "status": "proved",
   "theorems": [
    "C78_order_of_lines",
    "C78_who_can_travel"
   ],
   "note": ""
  },
  {
   "property": "C79",
   "status": "proved",
   "theorems": [
    "C79_same_strategies",
    "C79_demand",
    "C79_returns",
    "C79_average",
    "C79_no_walks",
    "C79_from_parameters"
   ],
   "note": ""
  },
  {
   "property": "C80",
   "status": "proved",
   "theorems": [
    "C80_tables",
    "C80_loads",
    "C80_constraints",
    "C80_cost"
   ],
   "note": ""
  },
  {
   "property": "C81",
   "status": "proved",
   "theorems": [
    "C81_idle_lines",
    "C81_who_can_travel",
    "C81_idle_stop_refuted"
   ],
   "note": ""
  },
  {
   "property": "C82",
   "status": "proved",
   "theorems": [
    "C82_search",
    "C82_same_strategies",
    "C82_cost",
    "C82_units"
   ],
   "note": ""
  },
  {
   "property": "C83",
   "status": "proved",
   "theorems": [
    "C83_lines_boarded",
    "C83_balance",
    "C83_walk",
    "C83_unique"
   ],
   "note": ""
  },
  {
   "property": "C84",
   "status": "proved",
   "theorems": [
    "C84_exact",
    "C84_added_up",
    "C84_as_exact",
    "C84_rounded_refuted",
    "C84_lost_trip_refuted",
    "C84_infinity_refuted",
    "C84_nan_stays"
   ],
   "note": ""
  },
  {
   "property": "C85",
   "status": "proved",
   "theorems": [
    "C85_table",
    "C85_faithful",
    "C85_reload",
    "C85_carriage_return_refuted"
   ],
   "note": ""
  },
  {
   "property": "C86",
   "status": "proved",
   "theorems": [
    "C86_defined",
    "C86_symmetric",
    "C86_zero",
    "C86_tolerance",
    "C86_nan",
    "C86_triangle_refuted"
   ],
   "note": ""
  },
  {
   "property": "C87",
   "status": "proved",
   "theorems": [
    "C87_accepts",
    "C87_accepted",
    "C87_builds",
    "C87_accurate",
    "C87_one_zone",
    "C87_refuted",
    "C87_subcentres_refuted"
   ],
   "note": ""
  }
 ]
}