{
 "claims": [
  {
   "property": "C01",
   "status": "proved",
   "theorems": [
    "C01_near_zero_exact",
    "C01_near_zero_is_the_call"
   ],
   "note": ""
  },
  {
   "property": "C02",
   "status": "proved",
   "theorems": [
    "C02_is_close_symmetric",
    "C02_is_close_reflexive",
    "C02_is_close_raises_iff",
    "C02_strong_implies_weak",
    "C02_is_close_distance"
   ],
   "note": ""
  },
  {
   "property": "C03",
   "status": "proved",
   "theorems": [
    "C03_clusters",
    "C03_clusters_order_irrelevant"
   ],
   "note": ""
  },
  {
   "property": "C04",
   "status": "proved",
   "theorems": [
    "C04_absolute_tolerance_refuted",
    "C04_zero_never_merges"
   ],
   "note": "The theorems ending in _refuted prove, with a witness, the parts that the statement calls false or refuted; the others prove, for all inputs, what the statement says does hold."
  },
  {
   "property": "C05",
   "status": "proved",
   "theorems": [
    "C05_unique_times_none_refuted",
    "C05_unique_times_otherwise"
   ],
   "note": "The theorems ending in _refuted prove, with a witness, the parts that the statement calls false or refuted; the others prove, for all inputs, what the statement says does hold."
  },
  {
   "property": "C06",
   "status": "proved",
   "theorems": [
    "C06_groupby_cluster"
   ],
   "note": ""
  },
  {
   "property": "C07",
   "status": "proved",
   "theorems": [
    "C07_get_box_tight",
    "C07_get_box_fails_iff_empty"
   ],
   "note": ""
  },
  {
   "property": "C08",
   "status": "proved",
   "theorems": [
    "C08_round_trip",
    "C08_forward_fails_iff"
   ],
   "note": ""
  },
  {
   "property": "C09",
   "status": "proved",
   "theorems": [
    "C09_into_unit_square",
    "C09_similarity",
    "C09_touches_both_sides"
   ],
   "note": ""
  },
  {
   "property": "C10",
   "status": "proved",
   "theorems": [
    "C10_unshrunk",
    "C10_shrunk"
   ],
   "note": ""
  },
  {
   "property": "C11",
   "status": "proved",
   "theorems": [
    "C11_from_points",
    "C11_left_positive"
   ],
   "note": ""
  },
  {
   "property": "C12",
   "status": "proved",
   "theorems": [
    "C12_from_points_raises_iff"
   ],
   "note": ""
  },
  {
   "property": "C13",
   "status": "proved",
   "theorems": [
    "C13_at_time_unit_speed",
    "C13_at_time_zero",
    "C13_at_time_additive",
    "C13_translated"
   ],
   "note": ""
  },
  {
   "property": "C14",
   "status": "proved",
   "theorems": [
    "C14_perpendicular",
    "C14_through_is_nearest",
    "C14_ends",
    "C14_y_at_x"
   ],
   "note": ""
  },
  {
   "property": "C15",
   "status": "proved",
   "theorems": [
    "C15_bisector_equidistant",
    "C15_bisector_sides"
   ],
   "note": ""
  },
  {
   "property": "C16",
   "status": "proved",
   "theorems": [
    "C16_point_iff",
    "C16_only_common_point",
    "C16_classification",
    "C16_identical_lines",
    "C16_symmetric"
   ],
   "note": ""
  },
  {
   "property": "C17",
   "status": "proved",
   "theorems": [
    "C17_velocity",
    "C17_stays_on_both",
    "C17_identical",
    "C17_opposite",
    "C17_parallel_same_direction"
   ],
   "note": ""
  },
  {
   "property": "C18",
   "status": "proved",
   "theorems": [
    "C18_bisector_speed",
    "C18_agrees_with_lines"
   ],
   "note": ""
  },
  {
   "property": "C19",
   "status": "proved",
   "theorems": [
    "C19_intersection_at_t",
    "C19_raises_iff_parallel"
   ],
   "note": ""
  },
  {
   "property": "C20",
   "status": "proved",
   "theorems": [
    "C20_bevel_never_returns_refuted",
    "C20_bevel_type_error"
   ],
   "note": "The theorems ending in _refuted prove, with a witness, the parts that the statement calls false or refuted; the others prove, for all inputs, what the statement says does hold."
  },
  {
   "property": "C21",
   "status": "proved",
   "theorems": [
    "C21_find_gte",
    "C21_find_gt",
    "C21_find_gt_any",
    "C21_order_irrelevant"
   ],
   "note": ""
  },
  {
   "property": "C22",
   "status": "proved",
   "theorems": [
    "C22_crash_time_is_contact_time",
    "C22_no_crash_iff_constant_distance",
    "C22_asserts_common_line"
   ],
   "note": ""
  },
  {
   "property": "C23",
   "status": "proved",
   "theorems": [
    "C23_time_of_closest_approach",
    "C23_parallel_gives_minus_one",
    "C23_symmetric_and_total"
   ],
   "note": ""
  },
  {
   "property": "C24",
   "status": "proved",
   "theorems": [
    "C24_area_polynomial",
    "C24_rotation_and_swap"
   ],
   "note": ""
  },
  {
   "property": "C25",
   "status": "proved",
   "theorems": [
    "C25_never_raises",
    "C25_sound",
    "C25_complete_quadratic",
    "C25_complete_linear"
   ],
   "note": ""
  },
  {
   "property": "C26",
   "status": "proved",
   "theorems": [
    "C26_never_in_the_past",
    "C26_initial_gap"
   ],
   "note": ""
  },
  {
   "property": "C27",
   "status": "proved",
   "theorems": [
    "C27_well_formed"
   ],
   "note": ""
  },
  {
   "property": "C28",
   "status": "proved",
   "theorems": [
    "C28_frame"
   ],
   "note": ""
  },
  {
   "property": "C29",
   "status": "proved",
   "theorems": [
    "C29_event_order"
   ],
   "note": ""
  },
  {
   "property": "C30",
   "status": "proved",
   "theorems": [
    "C30_pending_events",
    "C30_no_equal_keys"
   ],
   "note": ""
  },
  {
   "property": "C31",
   "status": "proved",
   "theorems": [
    "C31_clock"
   ],
   "note": ""
  },
  {
   "property": "C32",
   "status": "proved",
   "theorems": [
    "C32_event_loop_ends",
    "C32_fan_walk_ends",
    "C32_get_fan_ends",
    "C32_get_fan_refuted"
   ],
   "note": "The theorems ending in _refuted prove, with a witness, the parts that the statement calls false or refuted; the others prove, for all inputs, what the statement says does hold."
  },
  {
   "property": "C33",
   "status": "proved",
   "theorems": [
    "C33_normal_return"
   ],
   "note": ""
  },
  {
   "property": "C34",
   "status": "proved",
   "theorems": [
    "C34_stopped_triangles"
   ],
   "note": ""
  },
  {
   "property": "C35",
   "status": "proved",
   "theorems": [
    "C35_stop_kvertices",
    "C35_mean",
    "C35_empty"
   ],
   "note": ""
  },
  {
   "property": "C36",
   "status": "proved",
   "theorems": [
    "C36_life_spans"
   ],
   "note": ""
  },
  {
   "property": "C37",
   "status": "proved",
   "theorems": [
    "C37_nodes_registered",
    "C37_initially"
   ],
   "note": ""
  },
  {
   "property": "C38",
   "status": "proved",
   "theorems": [
    "C38_motion_fixed"
   ],
   "note": ""
  },
  {
   "property": "C39",
   "status": "proved",
   "theorems": [
    "C39_tracks",
    "C39_new_vertex"
   ],
   "note": ""
  },
  {
   "property": "C40",
   "status": "proved",
   "theorems": [
    "C40_node",
    "C40_joined"
   ],
   "note": ""
  },
  {
   "property": "C41",
   "status": "proved",
   "theorems": [
    "C41_history",
    "C41_past_kept"
   ],
   "note": ""
  },
  {
   "property": "C42",
   "status": "proved",
   "theorems": [
    "C42_update_circ",
    "C42_open",
    "C42_one_side"
   ],
   "note": ""
  },
  {
   "property": "C43",
   "status": "proved",
   "theorems": [
    "C43_replace_kvertex",
    "C43_distinct_refuted"
   ],
   "note": "The theorems ending in _refuted prove, with a witness, the parts that the statement calls false or refuted; the others prove, for all inputs, what the statement says does hold."
  },
  {
   "property": "C44",
   "status": "proved",
   "theorems": [
    "C44_flip",
    "C44_flip_area"
   ],
   "note": ""
  },
  {
   "property": "C45",
   "status": "proved",
   "theorems": [
    "C45_event",
    "C45_run",
    "C45_idle_refuted"
   ],
   "note": "The theorems ending in _refuted prove, with a witness, the parts that the statement calls false or refuted; the others prove, for all inputs, what the statement says does hold."
  },
  {
   "property": "C46",
   "status": "proved",
   "theorems": [
    "C46_segments",
    "C46_count",
    "C46_total"
   ],
   "note": ""
  },
  {
   "property": "C47",
   "status": "proved",
   "theorems": [
    "C47_segments_refuted",
    "C47_segments_stopped"
   ],
   "note": "The theorems ending in _refuted prove, with a witness, the parts that the statement calls false or refuted; the others prove, for all inputs, what the statement says does hold."
  },
  {
   "property": "C48",
   "status": "proved",
   "theorems": [
    "C48_calc_offsets",
    "C48_no_samples"
   ],
   "note": ""
  },
  {
   "property": "C49",
   "status": "proved",
   "theorems": [
    "C49_split_star",
    "C49_one_group"
   ],
   "note": ""
  },
  {
   "property": "C50",
   "status": "proved",
   "theorems": [
    "C50_rejected",
    "C50_vertices"
   ],
   "note": ""
  },
  {
   "property": "C51",
   "status": "proved",
   "theorems": [
    "C51_internal_only"
   ],
   "note": ""
  },
  {
   "property": "C52",
   "status": "proved",
   "theorems": [
    "C52_check_ktriangles",
    "C52_raises"
   ],
   "note": ""
  },
  {
   "property": "C53",
   "status": "proved",
   "theorems": [
    "C53_eig_2x2",
    "C53_symmetric",
    "C53_order_refuted"
   ],
   "note": "The theorems ending in _refuted prove, with a witness, the parts that the statement calls false or refuted; the others prove, for all inputs, what the statement says does hold."
  },
  {
   "property": "C54",
   "status": "proved",
   "theorems": [
    "C54_always_raises",
    "C54_residuals_refuted"
   ],
   "note": "The theorems ending in _refuted prove, with a witness, the parts that the statement calls false or refuted; the others prove, for all inputs, what the statement says does hold."
  },
  {
   "property": "C55",
   "status": "proved",
   "theorems": [
    "C55_raises",
    "C55_all_stopped",
    "C55_output_offsets_refuted"
   ],
   "note": "The theorems ending in _refuted prove, with a witness, the parts that the statement calls false or refuted; the others prove, for all inputs, what the statement says does hold."
  },
  {
   "property": "C56",
   "status": "proved",
   "theorems": [
    "C56_nonzero_times",
    "C56_time_zero_refuted"
   ],
   "note": "The theorems ending in _refuted prove, with a witness, the parts that the statement calls false or refuted; the others prove, for all inputs, what the statement says does hold."
  },
  {
   "property": "C57",
   "status": "proved",
   "theorems": [
    "C57_two_and_three_never_flip",
    "C57_one_triangles_refuted",
    "C57_only_ties"
   ],
   "note": "The theorems ending in _refuted prove, with a witness, the parts that the statement calls false or refuted; the others prove, for all inputs, what the statement says does hold."
  },
  {
   "property": "C58",
   "status": "proved",
   "theorems": [
    "C58_immediate_refuted",
    "C58_accepted_unless_two"
   ],
   "note": "The theorems ending in _refuted prove, with a witness, the parts that the statement calls false or refuted; the others prove, for all inputs, what the statement says does hold."
  },
  {
   "property": "C59",
   "status": "proved",
   "theorems": [
    "C59_r_squared_range",
    "C59_r_squared_one_collinear",
    "C59_collinear_gives_one_refuted"
   ],
   "note": "The theorems ending in _refuted prove, with a witness, the parts that the statement calls false or refuted; the others prove, for all inputs, what the statement says does hold."
  },
  {
   "property": "C60",
   "status": "proved",
   "theorems": [
    "C60_dimensions",
    "C60_cross",
    "C60_elementwise",
    "C60_dot_symmetric",
    "C60_unit",
    "C60_rotations",
    "C60_pairs_are_vectors"
   ],
   "note": ""
  },
  {
   "property": "C61",
   "status": "proved",
   "theorems": [
    "C61_mean",
    "C61_variance",
    "C61_variance_zero",
    "C61_cov_refuted"
   ],
   "note": "The theorems ending in _refuted prove, with a witness, the parts that the statement calls false or refuted; the others prove, for all inputs, what the statement says does hold."
  },
  {
   "property": "C62",
   "status": "proved",
   "theorems": [
    "C62_initial_state",
    "C62_calc_skel",
    "C62_tracks",
    "C62_tracks_initially"
   ],
   "note": ""
  },
  {
   "property": "C63",
   "status": "proved",
   "theorems": [
    "C63_circular_lists"
   ],
   "note": ""
  },
  {
   "property": "C64",
   "status": "proved",
   "theorems": [
    "C64_start",
    "C64_runs"
   ],
   "note": ""
  },
  {
   "property": "C65",
   "status": "proved",
   "theorems": [
    "C65_times",
    "C65_three",
    "C65_one",
    "C65_edge",
    "C65_edge_fast",
    "C65_split",
    "C65_flip"
   ],
   "note": ""
  },
  {
   "property": "C66",
   "status": "proved",
   "theorems": [
    "C66_in_place_refuted",
    "C66_segment_empty"
   ],
   "note": "The theorems ending in _refuted prove, with a witness, the parts that the statement calls false or refuted; the others prove, for all inputs, what the statement says does hold."
  },
  {
   "property": "C67",
   "status": "proved",
   "theorems": [
    "C67_no_front",
    "C67_one_front",
    "C67_two_fronts",
    "C67_three_fronts"
   ],
   "note": ""
  },
  {
   "property": "C68",
   "status": "proved",
   "theorems": [
    "C68_no_front",
    "C68_one_front",
    "C68_two_fronts",
    "C68_three_fronts"
   ],
   "note": ""
  },
  {
   "property": "C69",
   "status": "proved",
   "theorems": [
    "C69_start",
    "C69_event",
    "C69_run"
   ],
   "note": ""
  },
  {
   "property": "C70",
   "status": "proved",
   "theorems": [
    "C70_no_front",
    "C70_one_front",
    "C70_two_fronts",
    "C70_three_fronts"
   ],
   "note": ""
  },
  {
   "property": "C71",
   "status": "proved",
   "theorems": [
    "C71_event",
    "C71_run"
   ],
   "note": ""
  },
  {
   "property": "C72",
   "status": "proved",
   "theorems": [
    "C72_active",
    "C72_kinetic",
    "C72_links",
    "C72_run",
    "C72_left"
   ],
   "note": ""
  },
  {
   "property": "C73",
   "status": "proved",
   "theorems": [
    "C73_start",
    "C73_checks",
    "C73_runs",
    "C73_runs_checked"
   ],
   "note": ""
  },
  {
   "property": "C74",
   "status": "proved",
   "theorems": [
    "C74_even",
    "C74_three",
    "C74_shorter",
    "C74_fan",
    "C74_event",
    "C74_run",
    "C74_choice",
    "C74_two",
    "C74_three_where",
    "C74_shorter_where"
   ],
   "note": ""
  },
  {
   "property": "C75",
   "status": "proved",
   "theorems": [
    "C75_fan",
    "C75_event",
    "C75_run",
    "C75_runs"
   ],
   "note": ""
  },
  {
   "property": "C76",
   "status": "proved",
   "theorems": [
    "C76_side",
    "C76_next",
    "C76_upright",
    "C76_end",
    "C76_start"
   ],
   "note": ""
  },
  {
   "property": "C77",
   "status": "proved",
   "theorems": [
    "C77_bisectors_meaning",
    "C77_orientation_meaning",
    "C77_bisectors",
    "C77_orientation"
   ],
   "note": ""
  },
  {
   "property": "C78",
   "status": "proved",
   "theorems": [
    "C78_neighbours",
    "C78_calc_skel",
    "C78_offsets",
    "C78_sets_out",
    "C78_calc_skel_offsets"
   ],
   "note": ""
  },
  {
   "property": "C79",
   "status": "proved",
   "theorems": [
    "C79_happens",
    "C79_immediate",
    "C79_shortest"
   ],
   "note": ""
  },
  {
   "property": "C80",
   "status": "proved",
   "theorems": [
    "C80_start",
    "C80_listed",
    "C80_visualize",
    "C80_skel",
    "C80_on_front",
    "C80_output_stage",
    "C80_calc_skel",
    "C80_same_result_refuted"
   ],
   "note": "The theorems ending in _refuted prove, with a witness, the parts that the statement calls false or refuted; the others prove, for all inputs, what the statement says does hold."
  },
  {
   "property": "C81",
   "status": "proved",
   "theorems": [
    "C81_never_inside",
    "C81_same_result",
    "C81_never_returns",
    "C81_name_error"
   ],
   "note": ""
  },
  {
   "property": "C82",
   "status": "proved",
   "theorems": [
    "C82_search",
    "C82_choice",
    "C82_same_side",
    "C82_in_runs"
   ],
   "note": ""
  },
  {
   "property": "C83",
   "status": "proved",
   "theorems": [
    "C83_unit_vector",
    "C83_unit_vectors",
    "C83_signed_turn",
    "C83_corner_bisector",
    "C83_crossing_bisector",
    "C83_overlap",
    "C83_is_quad",
    "C83_is_quad_convex_refuted"
   ],
   "note": "The theorems ending in _refuted prove, with a witness, the parts that the statement calls false or refuted; the others prove, for all inputs, what the statement says does hold."
  },
  {
   "property": "C84",
   "status": "proved",
   "theorems": [
    "C84_event",
    "C84_run",
    "C84_runs"
   ],
   "note": ""
  },
  {
   "property": "C85",
   "status": "proved",
   "theorems": [
    "C85_no_front",
    "C85_one_front",
    "C85_two_fronts",
    "C85_three_fronts"
   ],
   "note": ""
  },
  {
   "property": "C86",
   "status": "proved",
   "theorems": [
    "C86_incircle_unique",
    "C86_triangle",
    "C86_offsets",
    "C86_shrunk"
   ],
   "note": ""
  },
  {
   "property": "C87",
   "status": "proved",
   "theorems": [
    "C87_fronts",
    "C87_edge",
    "C87_split",
    "C87_three",
    "C87_start"
   ],
   "note": ""
  },
  {
   "property": "C88",
   "status": "proved",
   "theorems": [
    "C88_start",
    "C88_degree",
    "C88_count",
    "C88_end",
    "C88_corners_start",
    "C88_corners",
    "C88_all_ended",
    "C88_degree_refuted"
   ],
   "note": "The theorems ending in _refuted prove, with a witness, the parts that the statement calls false or refuted; the others prove, for all inputs, what the statement says does hold."
  },
  {
   "property": "C89",
   "status": "proved",
   "theorems": [
    "C89_fast",
    "C89_log",
    "C89_log_refuted",
    "C89_frames",
    "C89_collapse",
    "C89_collapse_run"
   ],
   "note": "The theorems ending in _refuted prove, with a witness, the parts that the statement calls false or refuted; the others prove, for all inputs, what the statement says does hold."
  },
  {
   "property": "C90",
   "status": "proved",
   "theorems": [
    "C90_waiting",
    "C90_runs",
    "C90_regular",
    "C90_links",
    "C90_open_refuted"
   ],
   "note": "The theorems ending in _refuted prove, with a witness, the parts that the statement calls false or refuted; the others prove, for all inputs, what the statement says does hold."
  },
  {
   "property": "C91",
   "status": "proved",
   "theorems": [
    "C91_order",
    "C91_clock",
    "C91_nan",
    "C91_infinite",
    "C91_only_themselves_refuted",
    "C91_near_zero",
    "C91_find_gt",
    "C91_find_gte_refuted"
   ],
   "note": "The theorems ending in _refuted prove, with a witness, the parts that the statement calls false or refuted; the others prove, for all inputs, what the statement says does hold."
  },
  {
   "property": "C92",
   "status": "proved",
   "theorems": [
    "C92_forward_monotone",
    "C92_distinct_refuted",
    "C92_unit_box_refuted",
    "C92_back_refuted",
    "C92_wavefront_refuted",
    "C92_assertion"
   ],
   "note": "The theorems ending in _refuted prove, with a witness, the parts that the statement calls false or refuted; the others prove, for all inputs, what the statement says does hold."
  },
  {
   "property": "C93",
   "status": "proved",
   "theorems": [
    "C93_order",
    "C93_unique"
   ],
   "note": ""
  },
  {
   "property": "C94",
   "status": "proved",
   "theorems": [
    "C94_quadratic",
    "C94_linear"
   ],
   "note": ""
  },
  {
   "property": "C95",
   "status": "proved",
   "theorems": [
    "C95_ridge_unique",
    "C95_long",
    "C95_short",
    "C95_offsets",
    "C95_shrunk"
   ],
   "note": ""
  },
  {
   "property": "C96",
   "status": "proved",
   "theorems": [
    "C96_event",
    "C96_run",
    "C96_loop"
   ],
   "note": ""
  },
  {
   "property": "C97",
   "status": "proved",
   "theorems": [
    "C97_middle",
    "C97_square",
    "C97_offsets",
    "C97_shrunk"
   ],
   "note": ""
  },
  {
   "property": "C98",
   "status": "proved",
   "theorems": [
    "C98_meaning",
    "C98_pairwise_refuted",
    "C98_run",
    "C98_on_lines",
    "C98_calc_skel"
   ],
   "note": "The theorems ending in _refuted prove, with a witness, the parts that the statement calls false or refuted; the others prove, for all inputs, what the statement says does hold."
  },
  {
   "property": "C99",
   "status": "proved",
   "theorems": [
    "C99_meet",
    "C99_few",
    "C99_given",
    "C99_three_sides",
    "C99_four_refuted"
   ],
   "note": "The theorems ending in _refuted prove, with a witness, the parts that the statement calls false or refuted; the others prove, for all inputs, what the statement says does hold."
  },
  {
   "property": "C100",
   "status": "proved",
   "theorems": [
    "C100_triangle",
    "C100_triangle_shrunk",
    "C100_rectangle",
    "C100_rectangle_shrunk",
    "C100_square",
    "C100_square_shrunk"
   ],
   "note": ""
  },
  {
   "property": "C101",
   "status": "proved",
   "theorems": [
    "C101_triangle",
    "C101_triangle_shrunk",
    "C101_rectangle",
    "C101_rectangle_shrunk",
    "C101_square",
    "C101_square_shrunk"
   ],
   "note": ""
  }
 ]
}