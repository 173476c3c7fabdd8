{
 "claims": [
  {
   "property": "C01",
   "status": "proved",
   "theorems": [
    "C01_invertible_is_injective",
    "C01_untransform_undoes_transform",
    "C01_without_rotate_about",
    "C01_stale_inverse",
    "C01_unrestricted_refuted"
   ],
   "note": ""
  },
  {
   "property": "C02",
   "status": "proved",
   "theorems": [
    "C02_push_pop_restores",
    "C02_with_restores",
    "C02_with_chain_raises",
    "C02_with_always_restores_refuted",
    "C02_empty_stack"
   ],
   "note": ""
  },
  {
   "property": "C03",
   "status": "proved",
   "theorems": [
    "C03_call_order",
    "C03_description_total",
    "C03_stays_affine",
    "C03_affine_combinations",
    "C03_midpoint"
   ],
   "note": ""
  },
  {
   "property": "C04",
   "status": "proved",
   "theorems": [
    "C04_directions",
    "C04_ccw_means_ccw",
    "C04_undo_each_other",
    "C04_rotate_docstring_iff",
    "C04_rotate_docstring_refuted",
    "C04_angles_add",
    "C04_distances",
    "C04_rotate_about"
   ],
   "note": ""
  },
  {
   "property": "C05",
   "status": "proved",
   "theorems": [
    "C05_scale_bbox",
    "C05_keep_aspect",
    "C05_zero_size"
   ],
   "note": ""
  },
  {
   "property": "C06",
   "status": "proved",
   "theorems": [
    "C06_simplify_product",
    "C06_simplify_close",
    "C06_is_simple"
   ],
   "note": ""
  },
  {
   "property": "C07",
   "status": "proved",
   "theorems": [
    "C07_width_is_mean_length",
    "C07_width_linear",
    "C07_width_rigid",
    "C07_width_uniform_scale",
    "C07_any_similarity",
    "C07_any_affine",
    "C07_methods_agree",
    "C07_methods_agree_refuted",
    "C07_any_affine_vanishes"
   ],
   "note": ""
  },
  {
   "property": "C08",
   "status": "proved",
   "theorems": [
    "C08_six",
    "C08_six_moves",
    "C08_program_stores",
    "C08_copy_independent",
    "C08_calls_are_local",
    "C08_compose_with_object",
    "C08_copy_equal",
    "C08_transform_pts"
   ],
   "note": ""
  },
  {
   "property": "C09",
   "status": "proved",
   "theorems": [
    "C09_construction_normalises",
    "C09_edges_are_arguments",
    "C09_accepted_shapes",
    "C09_boxes_stay_ordered",
    "C09_corners",
    "C09_center"
   ],
   "note": "Every ordered number type (exact numbers and non-NaN doubles)."
  },
  {
   "property": "C10",
   "status": "proved",
   "theorems": [
    "C10_union_upper_bound",
    "C10_union_least",
    "C10_union_laws",
    "C10_union_order_irrelevant",
    "C10_same_is_equality_exact"
   ],
   "note": ""
  },
  {
   "property": "C11",
   "status": "proved",
   "theorems": [
    "C11_intersection_common_points",
    "C11_intersection_none_iff",
    "C11_intersection_laws"
   ],
   "note": ""
  },
  {
   "property": "C12",
   "status": "proved",
   "theorems": [
    "C12_contains_all_points",
    "C12_touch_or_overlap",
    "C12_touches_zero_area",
    "C12_touches_area_is_zero",
    "C12_symmetry",
    "C12_overlaps_common_part",
    "C12_overlaps_positive_area",
    "C12_touches_side_is_a_proper_edge"
   ],
   "note": ""
  },
  {
   "property": "C13",
   "status": "proved",
   "theorems": [
    "C13_contains_pt_is_strict",
    "C13_touches_pt_is_open_edge",
    "C13_contains_corners_refuted",
    "C13_contains_corners_condition",
    "C13_touches_corner_refuted",
    "C13_touches_shares_border",
    "C13_touches_excludes_contains_refuted",
    "C13_touches_contains_degenerate",
    "C13_overlaps_area_refuted",
    "C13_overlap_corner_refuted",
    "C13_none_operands"
   ],
   "note": "Refutations are on doubles; the conditions that do hold are proved for every ordered number type."
  },
  {
   "property": "C14",
   "status": "proved",
   "theorems": [
    "C14_grow_bounding_box",
    "C14_grow_set_only",
    "C14_grow_monotone_least",
    "C14_grow_is_union"
   ],
   "note": ""
  },
  {
   "property": "C15",
   "status": "proved",
   "theorems": [
    "C15_expand",
    "C15_expand_default_y",
    "C15_expand_and_back"
   ],
   "note": ""
  },
  {
   "property": "C16",
   "status": "proved",
   "theorems": [
    "C16_transformed_encloses",
    "C16_transformed_tight",
    "C16_transformed_none",
    "C16_bbox_by_transform"
   ],
   "note": ""
  },
  {
   "property": "C17",
   "status": "proved",
   "theorems": [
    "C17_conversions",
    "C17_add_kinds",
    "C17_sub_kinds",
    "C17_mul_kinds",
    "C17_div_kinds",
    "C17_vector_times_vector",
    "C17_vector_minus_point_refuted",
    "C17_operator_values",
    "C17_operator_laws",
    "C17_affine_space",
    "C17_scalar_laws",
    "C17_add_commutes",
    "C17_mid"
   ],
   "note": ""
  },
  {
   "property": "C18",
   "status": "proved",
   "theorems": [
    "C18_length",
    "C18_triangle_inequality",
    "C18_unit",
    "C18_normal",
    "C18_dot_cross",
    "C18_cross_zero",
    "C18_rotate",
    "C18_polar",
    "C18_rotate_adds_angle",
    "C18_angle_docstring_refuted"
   ],
   "note": ""
  },
  {
   "property": "C19",
   "status": "proved",
   "theorems": [
    "C19_position",
    "C19_position_fails",
    "C19_rests",
    "C19_move_others",
    "C19_move_dependents",
    "C19_create_disturbs_nothing",
    "C19_set_offset",
    "C19_gain_total",
    "C19_fromxy_exact",
    "C19_fromxy_float_refuted",
    "C19_vector_relative",
    "C19_vector_relative_value",
    "C19_vector_relative_p_refuted"
   ],
   "note": ""
  },
  {
   "property": "C20",
   "status": "proved",
   "theorems": [
    "C20_parse_exact",
    "C20_parse_flattens_back",
    "C20_parse_errors",
    "C20_thruples"
   ],
   "note": ""
  },
  {
   "property": "C21",
   "status": "proved",
   "theorems": [
    "C21_area_rotation",
    "C21_area_reversal",
    "C21_area_translation",
    "C21_area_linear",
    "C21_area_chord",
    "C21_area_rectangle",
    "C21_area_triangle",
    "C21_area_degenerate",
    "C21_area_fan"
   ],
   "note": ""
  },
  {
   "property": "C22",
   "status": "proved",
   "theorems": [
    "C22_closest",
    "C22_closest_zero",
    "C22_closest_idempotent"
   ],
   "note": ""
  },
  {
   "property": "C23",
   "status": "proved",
   "theorems": [
    "C23_intersection",
    "C23_intersection_symmetric",
    "C23_coincident",
    "C23_parallel"
   ],
   "note": ""
  },
  {
   "property": "C24",
   "status": "proved",
   "theorems": [
    "C24_segment_intersection",
    "C24_no_assertion",
    "C24_symmetric",
    "C24_completeness_refuted",
    "C24_tee_refuted",
    "C24_ends"
   ],
   "note": ""
  },
  {
   "property": "C25",
   "status": "proved",
   "theorems": [
    "C25_fixed",
    "C25_copy",
    "C25_point_equality",
    "C25_point_equality_laws",
    "C25_copy_of_named_point_refuted",
    "C25_copy_equal",
    "C25_lines",
    "C25_lines_set_refuted",
    "C25_close",
    "C25_close_transitive_refuted",
    "C25_vector_equality"
   ],
   "note": ""
  },
  {
   "property": "C26",
   "status": "proved",
   "theorems": [
    "C26_min_rotation",
    "C26_min_rotation_periodic",
    "C26_min_rotation_reaches",
    "C26_opposites"
   ],
   "note": ""
  },
  {
   "property": "C27",
   "status": "proved",
   "theorems": [
    "C27_arc",
    "C27_arc_no_steps",
    "C27_arc_full_turn_degenerate",
    "C27_arc_is_circle_refuted",
    "C27_circle"
   ],
   "note": ""
  },
  {
   "property": "C28",
   "status": "proved",
   "theorems": [
    "C28_arc2p_errors",
    "C28_arc2p_no_steps",
    "C28_arc2p"
   ],
   "note": ""
  },
  {
   "property": "C29",
   "status": "proved",
   "theorems": [
    "C29_rigid",
    "C29_distances",
    "C29_xy_roundtrip",
    "C29_cross_plus"
   ],
   "note": ""
  },
  {
   "property": "C30",
   "status": "proved",
   "theorems": [
    "C30_bez_count_and_ends",
    "C30_bez_flat",
    "C30_bez_samples",
    "C30_bez_halfplane",
    "C30_bez_in_box",
    "C30_bez_affine",
    "C30_transforms_are_affine"
   ],
   "note": ""
  },
  {
   "property": "C31",
   "status": "proved",
   "theorems": [
    "C31_split_traces",
    "C31_split_same_points",
    "C31_split_shape",
    "C31_split_kinds",
    "C31_split_keeps_kind_refuted"
   ],
   "note": ""
  },
  {
   "property": "C32",
   "status": "proved",
   "theorems": [
    "C32_reversed",
    "C32_reverse_list_involutive",
    "C32_segment_backwards",
    "C32_open_path_backwards",
    "C32_closed_path_backwards",
    "C32_same_curve"
   ],
   "note": ""
  },
  {
   "property": "C33",
   "status": "proved",
   "theorems": [
    "C33_linear",
    "C33_linear_draws_image",
    "C33_linear_path",
    "C33_very_smooth",
    "C33_smooth",
    "C33_smooth_raises",
    "C33_other_kinds"
   ],
   "note": ""
  },
  {
   "property": "C34",
   "status": "proved",
   "theorems": [
    "C34_bez_path",
    "C34_visits_control_points",
    "C34_closed_path_closes",
    "C34_no_segment",
    "C34_points_on_curve"
   ],
   "note": ""
  },
  {
   "property": "C35",
   "status": "proved",
   "theorems": [
    "C35_bbox_int",
    "C35_bbox_empty",
    "C35_bbox_total",
    "C35_curve_in_bbox",
    "C35_drawn_in_bbox"
   ],
   "note": ""
  },
  {
   "property": "C36",
   "status": "proved",
   "theorems": [
    "C36_transform_result",
    "C36_transform_draws",
    "C36_transform_identity"
   ],
   "note": ""
  },
  {
   "property": "C37",
   "status": "proved",
   "theorems": [
    "C37_transform_draws",
    "C37_singular",
    "C37_radius",
    "C37_uneven_refuted"
   ],
   "note": ""
  },
  {
   "property": "C38",
   "status": "proved",
   "theorems": [
    "C38_splits_longest",
    "C38_same_curve",
    "C38_repeated",
    "C38_kinds",
    "C38_kinds_kept_refuted",
    "C38_empty",
    "C38_open_refuted",
    "C38_one_point_refuted"
   ],
   "note": ""
  },
  {
   "property": "C39",
   "status": "proved",
   "theorems": [
    "C39_copy_changes_nothing",
    "C39_copy",
    "C39_undo",
    "C39_copy_independent",
    "C39_count",
    "C39_xform_refuted",
    "C39_names_refuted",
    "C39_relative_refuted"
   ],
   "note": ""
  },
  {
   "property": "C40",
   "status": "proved",
   "theorems": [
    "C40_bbox_int",
    "C40_update",
    "C40_update_raises",
    "C40_rect_path",
    "C40_drawn_in_box"
   ],
   "note": ""
  },
  {
   "property": "C41",
   "status": "proved",
   "theorems": [
    "C41_control_points",
    "C41_curve_level",
    "C41_close_to_ellipse",
    "C41_in_box"
   ],
   "note": ""
  },
  {
   "property": "C42",
   "status": "proved",
   "theorems": [
    "C42_points",
    "C42_square",
    "C42_clipped",
    "C42_in_rect",
    "C42_outline",
    "C42_no_width_refuted"
   ],
   "note": ""
  },
  {
   "property": "C43",
   "status": "proved",
   "theorems": [
    "C43_raises",
    "C43_appends",
    "C43_chosen_name",
    "C43_add_keeps_table",
    "C43_any_adds"
   ],
   "note": ""
  },
  {
   "property": "C44",
   "status": "proved",
   "theorems": [
    "C44_lookup_iff",
    "C44_key_error",
    "C44_value_error",
    "C44_any_tag",
    "C44_holes",
    "C44_points",
    "C44_points_raise"
   ],
   "note": ""
  },
  {
   "property": "C45",
   "status": "proved",
   "theorems": [
    "C45_yields",
    "C45_names",
    "C45_lookup",
    "C45_collected",
    "C45_abandoned",
    "C45_hole_names_refuted",
    "C45_transformed",
    "C45_transformed_draws"
   ],
   "note": ""
  },
  {
   "property": "C46",
   "status": "proved",
   "theorems": [
    "C46_replaces",
    "C46_only_then",
    "C46_gone",
    "C46_nothing",
    "C46_clash",
    "C46_holes",
    "C46_equal",
    "C46_method"
   ],
   "note": ""
  },
  {
   "property": "C47",
   "status": "proved",
   "theorems": [
    "C47_matrix_kept",
    "C47_draws_leaves",
    "C47_hidden",
    "C47_group_box",
    "C47_empty",
    "C47_box_order",
    "C47_drawn_in_box"
   ],
   "note": ""
  },
  {
   "property": "C48",
   "status": "proved",
   "theorems": [
    "C48_transform_changes_nothing",
    "C48_copy_shares",
    "C48_transform_shares",
    "C48_undo",
    "C48_undo_twice_refuted",
    "C48_member_refuted",
    "C48_add_keeps",
    "C48_copy_iff",
    "C48_group_copy",
    "C48_copy_draws",
    "C48_transform",
    "C48_restore"
   ],
   "note": ""
  },
  {
   "property": "C49",
   "status": "proved",
   "theorems": [
    "C49_copy_deep",
    "C49_new_pens",
    "C49_restore_objects",
    "C49_transform_objects",
    "C49_unfilled",
    "C49_filled",
    "C49_simple_holes",
    "C49_outside_one_path",
    "C49_restore",
    "C49_restore_holes_refuted",
    "C49_box_refuted",
    "C49_box",
    "C49_box_needs"
   ],
   "note": ""
  },
  {
   "property": "C50",
   "status": "proved",
   "theorems": [
    "C50_pt_total",
    "C50_pt_zero_handle",
    "C50_pt_straight",
    "C50_pt_angled",
    "C50_pt_limited",
    "C50_pt_bounded",
    "C50_limit_side_refuted",
    "C50_offset_result",
    "C50_zero_offset",
    "C50_polygon_refuted",
    "C50_offset_handles"
   ],
   "note": ""
  },
  {
   "property": "C51",
   "status": "proved",
   "theorems": [
    "C51_names_follow_reprs",
    "C51_name_of_prefix",
    "C51_off_gives_repr",
    "C51_output_lists_once",
    "C51_output_again_refuted",
    "C51_output_of_nothing",
    "C51_imports"
   ],
   "note": ""
  },
  {
   "property": "C52",
   "status": "proved",
   "theorems": [
    "C52_layout",
    "C52_balanced"
   ],
   "note": ""
  },
  {
   "property": "C53",
   "status": "proved",
   "theorems": [
    "C53_stroke_width",
    "C53_filled_stroked",
    "C53_pen_from_color",
    "C53_pair_color_refuted",
    "C53_replace_width",
    "C53_replace_raises",
    "C53_replace_keeps",
    "C53_pen_replace"
   ],
   "note": ""
  },
  {
   "property": "C54",
   "status": "proved",
   "theorems": [
    "C54_index",
    "C54_draft",
    "C54_production",
    "C54_pens_default",
    "C54_colors_production",
    "C54_colors_draft",
    "C54_replace_width"
   ],
   "note": ""
  },
  {
   "property": "C55",
   "status": "proved",
   "theorems": [
    "C55_last_time",
    "C55_others",
    "C55_constructor",
    "C55_positions",
    "C55_shows_one",
    "C55_linear",
    "C55_sinusoidal",
    "C55_sinusoidal_ends",
    "C55_circular",
    "C55_circular_offset",
    "C55_animated_target_refuted"
   ],
   "note": ""
  },
  {
   "property": "C56",
   "status": "proved",
   "theorems": [
    "C56_identity",
    "C56_interpolate",
    "C56_interpolate_empty",
    "C56_knots",
    "C56_outside",
    "C56_between",
    "C56_range",
    "C56_slopes",
    "C56_monotone",
    "C56_ramps",
    "C56_ramp_monotone",
    "C56_hide_if",
    "C56_hide_if_pair",
    "C56_xy",
    "C56_xy_asserts",
    "C56_sin_cos",
    "C56_offset_at_zero",
    "C56_offset_refuted",
    "C56_offset_is_frequency",
    "C56_sin_cos_circle"
   ],
   "note": ""
  },
  {
   "property": "C57",
   "status": "proved",
   "theorems": [
    "C57_construct",
    "C57_mismatch",
    "C57_absent",
    "C57_update",
    "C57_ends",
    "C57_hidden",
    "C57_pair",
    "C57_restore",
    "C57_restore_refuted"
   ],
   "note": ""
  },
  {
   "property": "C58",
   "status": "proved",
   "theorems": [
    "C58_first",
    "C58_construct",
    "C58_absent",
    "C58_update",
    "C58_keys",
    "C58_coordinate",
    "C58_continuous",
    "C58_range",
    "C58_hidden",
    "C58_pair",
    "C58_restore",
    "C58_open_refuted"
   ],
   "note": ""
  },
  {
   "property": "C59",
   "status": "proved",
   "theorems": [
    "C59_frames",
    "C59_alone",
    "C59_no_steps",
    "C59_error",
    "C59_simple_range",
    "C59_simple",
    "C59_simple_ends",
    "C59_one_frame_each_refuted",
    "C59_simple_failure",
    "C59_simple_none",
    "C59_last_time_refuted"
   ],
   "note": ""
  },
  {
   "property": "C60",
   "status": "proved",
   "theorems": [
    "C60_canvas_fit",
    "C60_step_matrix",
    "C60_onto",
    "C60_corners",
    "C60_flat"
   ],
   "note": ""
  },
  {
   "property": "C61",
   "status": "proved",
   "theorems": [
    "C61_getbbox",
    "C61_max_bbox",
    "C61_blank",
    "C61_blank_refuted",
    "C61_box",
    "C61_frames",
    "C61_order",
    "C61_bbox_max",
    "C61_crop_to_pixels",
    "C61_duration",
    "C61_scaled",
    "C61_scaled_raises"
   ],
   "note": ""
  },
  {
   "property": "C62",
   "status": "proved",
   "theorems": [
    "C62_normalized",
    "C62_normalized_stretched",
    "C62_idempotent",
    "C62_empty",
    "C62_zero_refuted",
    "C62_scaled",
    "C62_uniform",
    "C62_uniform_any",
    "C62_mean",
    "C62_zero_smoothed_refuted",
    "C62_smoothed",
    "C62_mean_between",
    "C62_mean_length",
    "C62_local",
    "C62_constant",
    "C62_smoothed_stretched",
    "C62_mirror_refuted",
    "C62_equal",
    "C62_mesh",
    "C62_mesh_edge",
    "C62_uniform_field",
    "C62_copy_field",
    "C62_scaled_field",
    "C62_normalized_field",
    "C62_smoothed_field"
   ],
   "note": ""
  },
  {
   "property": "C63",
   "status": "proved",
   "theorems": [
    "C63_node",
    "C63_blend",
    "C63_reach",
    "C63_between",
    "C63_linear",
    "C63_flat",
    "C63_transform",
    "C63_transform_pts",
    "C63_first",
    "C63_valid",
    "C63_history",
    "C63_stale",
    "C63_derived",
    "C63_over",
    "C63_copy_equal",
    "C63_copy_refuted",
    "C63_plot",
    "C63_plot_refuted",
    "C63_width",
    "C63_width_constant"
   ],
   "note": ""
  },
  {
   "property": "C64",
   "status": "proved",
   "theorems": [
    "C64_rotate_center",
    "C64_rotate_center_refuted",
    "C64_shape_call",
    "C64_point_call",
    "C64_group_call",
    "C64_rotate_call",
    "C64_failed_call",
    "C64_history",
    "C64_lookup"
   ],
   "note": ""
  },
  {
   "property": "C65",
   "status": "proved",
   "theorems": [
    "C65_graph",
    "C65_verdict",
    "C65_arcs_used_once",
    "C65_errors",
    "C65_never_stuck",
    "C65_succeeds",
    "C65_same_points",
    "C65_no_crossings",
    "C65_inputs",
    "C65_element",
    "C65_element_points",
    "C65_missed_crossing_refuted",
    "C65_inputs_untouched_refuted"
   ],
   "note": ""
  },
  {
   "property": "C66",
   "status": "proved",
   "theorems": [
    "C66_only_target",
    "C66_calls",
    "C66_no_paths",
    "C66_shadow_restores",
    "C66_fill",
    "C66_shadow",
    "C66_shadow_twice",
    "C66_width",
    "C66_group",
    "C66_group_scaled_refuted",
    "C66_control_points",
    "C66_places",
    "C66_marks"
   ],
   "note": ""
  },
  {
   "property": "C67",
   "status": "proved",
   "theorems": [
    "C67_curves",
    "C67_succeeds",
    "C67_draws",
    "C67_hidden_refuted",
    "C67_rectangle"
   ],
   "note": ""
  },
  {
   "property": "C68",
   "status": "proved",
   "theorems": [
    "C68_load_dump",
    "C68_members_kept",
    "C68_round_trip",
    "C68_ints_read_back",
    "C68_hidden_lost_refuted",
    "C68_order_lost_refuted",
    "C68_holes_refuted",
    "C68_doubles_read_back",
    "C68_doubles"
   ],
   "note": ""
  },
  {
   "property": "C69",
   "status": "proved",
   "theorems": [
    "C69_text_reads_back",
    "C69_prefix_indents",
    "C69_none_iff"
   ],
   "note": ""
  },
  {
   "property": "C70",
   "status": "proved",
   "theorems": [
    "C70_line",
    "C70_polygon",
    "C70_grid",
    "C70_unscale",
    "C70_set_matrix",
    "C70_stroke_width"
   ],
   "note": ""
  },
  {
   "property": "C71",
   "status": "proved",
   "theorems": [
    "C71_palette_image",
    "C71_make_palette",
    "C71_palette_order",
    "C71_binary_alpha",
    "C71_gif_frames",
    "C71_gif_total",
    "C71_fix_palette",
    "C71_fix_palette_again",
    "C71_fix_palette_short",
    "C71_transparent",
    "C71_alpha_ignored",
    "C71_transparent_raises",
    "C71_keeps_transparency_refuted",
    "C71_reserved_unused"
   ],
   "note": ""
  },
  {
   "property": "C72",
   "status": "proved",
   "theorems": [
    "C72_equal",
    "C72_equivalence",
    "C72_order",
    "C72_close",
    "C72_close_metric",
    "C72_close_not_transitive"
   ],
   "note": ""
  },
  {
   "property": "C73",
   "status": "proved",
   "theorems": [
    "C73_common_points",
    "C73_answers",
    "C73_all_found",
    "C73_gives_up",
    "C73_forms",
    "C73_swap",
    "C73_self_intersect",
    "C73_endpoints_refuted"
   ],
   "note": ""
  },
  {
   "property": "C74",
   "status": "proved",
   "theorems": [
    "C74_subclasses",
    "C74_points_equal",
    "C74_points_message",
    "C74_places_refuted",
    "C74_control_points",
    "C74_control_points_refuted",
    "C74_plot_settings",
    "C74_plot_settings_refuted",
    "C74_point_explain"
   ],
   "note": ""
  },
  {
   "property": "C75",
   "status": "proved",
   "theorems": [
    "C75_prefix",
    "C75_lines",
    "C75_builder",
    "C75_shows_all",
    "C75_order",
    "C75_dump_order",
    "C75_holes",
    "C75_dump_order_refuted"
   ],
   "note": ""
  },
  {
   "property": "C76",
   "status": "proved",
   "theorems": [
    "C76_nearest",
    "C76_unique",
    "C76_fixed_points",
    "C76_idempotent",
    "C76_monotone",
    "C76_odd",
    "C76_shift_refuted",
    "C76_point",
    "C76_vector",
    "C76_relative_vector",
    "C76_relative_vector_refuted",
    "C76_box",
    "C76_box_fails",
    "C76_control_point",
    "C76_control_point_mirror"
   ],
   "note": ""
  },
  {
   "property": "C77",
   "status": "proved",
   "theorems": [
    "C77_pointwise",
    "C77_round_trip",
    "C77_center",
    "C77_copy",
    "C77_center_follows"
   ],
   "note": ""
  },
  {
   "property": "C78",
   "status": "proved",
   "theorems": [
    "C78_simple",
    "C78_simple_fails",
    "C78_simple_length_refuted",
    "C78_builder",
    "C78_builder_writes_refuted",
    "C78_builder_fails",
    "C78_builder_shows_refuted",
    "C78_run"
   ],
   "note": ""
  },
  {
   "property": "C79",
   "status": "proved",
   "theorems": [
    "C79_points_vectors",
    "C79_dot_cross",
    "C79_transform",
    "C79_compose",
    "C79_bez",
    "C79_samples",
    "C79_morph",
    "C79_linear",
    "C79_relative",
    "C79_area",
    "C79_split",
    "C79_split_at",
    "C79_history",
    "C79_history_point",
    "C79_history_linear",
    "C79_scale_bbox",
    "C79_scale_bbox_corners",
    "C79_handles",
    "C79_unit",
    "C79_closest",
    "C79_best_hypot",
    "C79_best_hypot_finite",
    "C79_rotations",
    "C79_rotations_keep_length",
    "C79_vector_rotate",
    "C79_best_trig",
    "C79_rotations_finite",
    "C79_best_trig_total",
    "C79_vector_rotate_finite",
    "C79_rigid_points",
    "C79_rigid_distances",
    "C79_path_rotate",
    "C79_arc",
    "C79_circle",
    "C79_circle_finite",
    "C79_rigid_points_finite"
   ],
   "note": ""
  },
  {
   "property": "C80",
   "status": "proved",
   "theorems": [
    "C80_points_vectors",
    "C80_dot_cross",
    "C80_transform",
    "C80_history",
    "C80_mid",
    "C80_box",
    "C80_area",
    "C80_boxes",
    "C80_handles"
   ],
   "note": ""
  },
  {
   "property": "C81",
   "status": "proved",
   "theorems": [
    "C81_linear_ends",
    "C81_morph_start",
    "C81_morph_same",
    "C81_keys",
    "C81_centre_inside",
    "C81_mid_between",
    "C81_centre_overflow_refuted",
    "C81_identity",
    "C81_translate",
    "C81_scale",
    "C81_samples_in_box",
    "C81_samples_exact_refuted",
    "C81_morph_end_refuted",
    "C81_morph_overflow_refuted",
    "C81_handles_identity_refuted"
   ],
   "note": ""
  },
  {
   "property": "C82",
   "status": "proved",
   "theorems": [
    "C82_read",
    "C82_write",
    "C82_history",
    "C82_ordered_refuted",
    "C82_sort",
    "C82_sort_ordered",
    "C82_none",
    "C82_size",
    "C82_equal"
   ],
   "note": ""
  },
  {
   "property": "C83",
   "status": "proved",
   "theorems": [
    "C83_point",
    "C83_same_place",
    "C83_distinct",
    "C83_same_text",
    "C83_equal",
    "C83_vector",
    "C83_line",
    "C83_control",
    "C83_transform",
    "C83_box",
    "C83_str_box",
    "C83_str_point",
    "C83_str_vector",
    "C83_str_between",
    "C83_str_line",
    "C83_str_line_between",
    "C83_str_matrix",
    "C83_matrix_refuted",
    "C83_penbrush",
    "C83_penbrush_distinct",
    "C83_pens",
    "C83_empty_name_refuted",
    "C83_box_equal",
    "C83_elements_refuted",
    "C83_rectangle_refuted",
    "C83_colors_refuted",
    "C83_colors_text",
    "C83_str_pens_refuted",
    "C83_str_pen_refuted",
    "C83_doubles",
    "C83_infinite_refuted",
    "C83_str_group",
    "C83_str_holes",
    "C83_str_shapes",
    "C83_str_curve"
   ],
   "note": ""
  },
  {
   "property": "C84",
   "status": "proved",
   "theorems": [
    "C84_row",
    "C84_pixels",
    "C84_palette",
    "C84_alpha_palette_refuted",
    "C84_interleaved_refuted",
    "C84_rows"
   ],
   "note": ""
  },
  {
   "property": "C85",
   "status": "proved",
   "theorems": [
    "C85_parallel",
    "C85_intersection",
    "C85_segments",
    "C85_naive_hypot",
    "C85_close_hypot",
    "C85_line_pts",
    "C85_assertion_refuted",
    "C85_parallel_refuted"
   ],
   "note": ""
  },
  {
   "property": "C86",
   "status": "proved",
   "theorems": [
    "C86_circular",
    "C86_sinusoidal",
    "C86_multi",
    "C86_animations_finite",
    "C86_interpolate_exact",
    "C86_ramps",
    "C86_ramps_monotone",
    "C86_periodic",
    "C86_periodic_range",
    "C86_best_trig_range"
   ],
   "note": ""
  },
  {
   "property": "C87",
   "status": "proved",
   "theorems": [
    "C87_coordinates",
    "C87_node",
    "C87_blend",
    "C87_between",
    "C87_fine_refuted",
    "C87_normalized",
    "C87_smoothed",
    "C87_uniform",
    "C87_normalized_field",
    "C87_uniform_field",
    "C87_smoothed_field"
   ],
   "note": ""
  },
  {
   "property": "C88",
   "status": "proved",
   "theorems": [
    "C88_same_function",
    "C88_range",
    "C88_reaches",
    "C88_whole",
    "C88_tiny_refuted",
    "C88_half_open_refuted",
    "C88_exact_fmod"
   ],
   "note": ""
  },
  {
   "property": "C89",
   "status": "proved",
   "theorems": [
    "C89_curve",
    "C89_rectangle",
    "C89_tree",
    "C89_bounded",
    "C89_on_curve"
   ],
   "note": ""
  },
  {
   "property": "C90",
   "status": "proved",
   "theorems": [
    "C90_check",
    "C90_columns",
    "C90_plot",
    "C90_plot_none",
    "C90_round_ends",
    "C90_viewer",
    "C90_viewer_stops",
    "C90_viewer_fails",
    "C90_default_refuted",
    "C90_delay",
    "C90_sine",
    "C90_angles",
    "C90_arcs",
    "C90_arcs_run"
   ],
   "note": ""
  },
  {
   "property": "C91",
   "status": "proved",
   "theorems": [
    "C91_print",
    "C91_validate",
    "C91_complaints",
    "C91_debug",
    "C91_new_edge_fails",
    "C91_unfinished",
    "C91_verdict"
   ],
   "note": ""
  },
  {
   "property": "C92",
   "status": "proved",
   "theorems": [
    "C92_box",
    "C92_fails_alike",
    "C92_exact_inside",
    "C92_drawn_inside",
    "C92_holes",
    "C92_holes_refuted",
    "C92_group_exact"
   ],
   "note": ""
  },
  {
   "property": "C93",
   "status": "proved",
   "theorems": [
    "C93_finite",
    "C93_close",
    "C93_unbounded_refuted",
    "C93_box",
    "C93_drawn",
    "C93_inside"
   ],
   "note": ""
  },
  {
   "property": "C94",
   "status": "proved",
   "theorems": [
    "C94_rounded_rect_doubles",
    "C94_drawn",
    "C94_best_axis"
   ],
   "note": "For any math.hypot exact along the axes and any constant of the quarter circle within eight half-units; drawn points are compared with the rectangle, not with the exact outline, since equal points are merged."
  }
 ]
}