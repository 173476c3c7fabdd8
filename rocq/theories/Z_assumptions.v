(* Generated list: the assumptions of every property theorem. *)
Require Import Verif.P_addone Verif.P_bbox Verif.P_bezier Verif.P_brotate Verif.P_builder Verif.P_bziprint Verif.P_colors Verif.P_ctx Verif.P_curves Verif.P_display Verif.P_draw Verif.P_dump Verif.P_eheap Verif.P_elems Verif.P_ellipse Verif.P_equal Verif.P_float Verif.P_float10 Verif.P_float11 Verif.P_float12 Verif.P_float13 Verif.P_float14 Verif.P_float15 Verif.P_float16 Verif.P_float17 Verif.P_float18 Verif.P_float19 Verif.P_float2 Verif.P_float20 Verif.P_float21 Verif.P_float22 Verif.P_float3 Verif.P_float4 Verif.P_float5 Verif.P_float6 Verif.P_float7 Verif.P_float8 Verif.P_float9 Verif.P_frames Verif.P_gcopy Verif.P_gdraw Verif.P_giter Verif.P_gnames Verif.P_graph Verif.P_greplace Verif.P_imginfo Verif.P_intersect Verif.P_iterx Verif.P_line Verif.P_lookup Verif.P_marks Verif.P_matchers Verif.P_more Verif.P_morph Verif.P_multi Verif.P_offset Verif.P_p1p2 Verif.P_palette Verif.P_panim Verif.P_pickle Verif.P_plot Verif.P_points Verif.P_ptrans Verif.P_repr Verif.P_reprfloat Verif.P_round Verif.P_rrect Verif.P_save Verif.P_selfix Verif.P_slots Verif.P_small Verif.P_strelem Verif.P_time Verif.P_transform Verif.P_transp Verif.P_utils Verif.P_vecfield Verif.P_vector Verif.P_width.
Print Assumptions C38_splits_longest.
Print Assumptions C38_same_curve.
Print Assumptions C38_repeated.
Print Assumptions C38_kinds.
Print Assumptions C38_kinds_kept_refuted.
Print Assumptions C38_empty.
Print Assumptions C38_open_refuted.
Print Assumptions C38_one_point_refuted.
Print Assumptions C09_construction_normalises.
Print Assumptions C09_edges_are_arguments.
Print Assumptions C09_accepted_shapes.
Print Assumptions C09_boxes_stay_ordered.
Print Assumptions C10_union_upper_bound.
Print Assumptions C10_union_least.
Print Assumptions C10_union_laws.
Print Assumptions C10_union_order_irrelevant.
Print Assumptions C11_intersection_common_points.
Print Assumptions C11_intersection_none_iff.
Print Assumptions C11_intersection_laws.
Print Assumptions C12_contains_all_points.
Print Assumptions C12_touch_or_overlap.
Print Assumptions C12_touches_zero_area.
Print Assumptions C12_touches_area_is_zero.
Print Assumptions C12_symmetry.
Print Assumptions C12_overlaps_common_part.
Print Assumptions C12_overlaps_positive_area.
Print Assumptions C12_touches_side_is_a_proper_edge.
Print Assumptions C13_contains_pt_is_strict.
Print Assumptions C13_touches_pt_is_open_edge.
Print Assumptions C13_contains_corners_refuted.
Print Assumptions C13_contains_corners_condition.
Print Assumptions C13_touches_corner_refuted.
Print Assumptions C13_touches_shares_border.
Print Assumptions C13_touches_excludes_contains_refuted.
Print Assumptions C13_touches_contains_degenerate.
Print Assumptions C13_overlaps_area_refuted.
Print Assumptions C13_overlap_corner_refuted.
Print Assumptions C13_none_operands.
Print Assumptions C14_grow_bounding_box.
Print Assumptions C14_grow_set_only.
Print Assumptions C14_grow_monotone_least.
Print Assumptions C14_grow_is_union.
Print Assumptions C15_expand.
Print Assumptions C15_expand_default_y.
Print Assumptions C15_expand_and_back.
Print Assumptions C16_transformed_encloses.
Print Assumptions C16_transformed_tight.
Print Assumptions C16_transformed_none.
Print Assumptions C10_same_is_equality_exact.
Print Assumptions C30_bez_count_and_ends.
Print Assumptions C30_bez_flat.
Print Assumptions C30_bez_samples.
Print Assumptions C30_bez_halfplane.
Print Assumptions C30_bez_in_box.
Print Assumptions C30_bez_affine.
Print Assumptions C30_transforms_are_affine.
Print Assumptions C31_split_traces.
Print Assumptions C31_split_same_points.
Print Assumptions C31_split_shape.
Print Assumptions C31_split_kinds.
Print Assumptions C31_split_keeps_kind_refuted.
Print Assumptions C32_reversed.
Print Assumptions C32_reverse_list_involutive.
Print Assumptions C32_segment_backwards.
Print Assumptions C32_open_path_backwards.
Print Assumptions C32_closed_path_backwards.
Print Assumptions C32_same_curve.
Print Assumptions C33_linear.
Print Assumptions C33_linear_draws_image.
Print Assumptions C33_linear_path.
Print Assumptions C33_very_smooth.
Print Assumptions C33_smooth.
Print Assumptions C33_smooth_raises.
Print Assumptions C33_other_kinds.
Print Assumptions C34_bez_path.
Print Assumptions C34_visits_control_points.
Print Assumptions C34_closed_path_closes.
Print Assumptions C34_no_segment.
Print Assumptions C34_points_on_curve.
Print Assumptions C64_rotate_center.
Print Assumptions C64_rotate_center_refuted.
Print Assumptions C64_shape_call.
Print Assumptions C64_point_call.
Print Assumptions C64_group_call.
Print Assumptions C64_rotate_call.
Print Assumptions C64_failed_call.
Print Assumptions C64_history.
Print Assumptions C64_lookup.
Print Assumptions C91_print.
Print Assumptions C91_validate.
Print Assumptions C91_complaints.
Print Assumptions C91_debug.
Print Assumptions C91_new_edge_fails.
Print Assumptions C91_unfinished.
Print Assumptions C91_verdict.
Print Assumptions C53_stroke_width.
Print Assumptions C53_filled_stroked.
Print Assumptions C53_pen_from_color.
Print Assumptions C53_pair_color_refuted.
Print Assumptions C53_replace_width.
Print Assumptions C53_replace_raises.
Print Assumptions C53_replace_keeps.
Print Assumptions C53_pen_replace.
Print Assumptions C54_index.
Print Assumptions C54_draft.
Print Assumptions C54_production.
Print Assumptions C54_pens_default.
Print Assumptions C54_colors_production.
Print Assumptions C54_colors_draft.
Print Assumptions C54_replace_width.
Print Assumptions C70_line.
Print Assumptions C70_polygon.
Print Assumptions C70_grid.
Print Assumptions C70_unscale.
Print Assumptions C70_set_matrix.
Print Assumptions C70_stroke_width.
Print Assumptions C67_curves.
Print Assumptions C67_succeeds.
Print Assumptions C67_draws.
Print Assumptions C67_hidden_refuted.
Print Assumptions C67_rectangle.
Print Assumptions C75_prefix.
Print Assumptions C75_lines.
Print Assumptions C75_builder.
Print Assumptions C75_shows_all.
Print Assumptions C75_order.
Print Assumptions C75_dump_order.
Print Assumptions C75_holes.
Print Assumptions C75_dump_order_refuted.
Print Assumptions C66_only_target.
Print Assumptions C66_calls.
Print Assumptions C66_no_paths.
Print Assumptions C66_shadow_restores.
Print Assumptions C66_fill.
Print Assumptions C66_shadow.
Print Assumptions C66_shadow_twice.
Print Assumptions C66_width.
Print Assumptions C66_group.
Print Assumptions C66_group_scaled_refuted.
Print Assumptions C66_control_points.
Print Assumptions C66_places.
Print Assumptions C51_names_follow_reprs.
Print Assumptions C51_name_of_prefix.
Print Assumptions C51_off_gives_repr.
Print Assumptions C51_output_lists_once.
Print Assumptions C51_output_again_refuted.
Print Assumptions C51_output_of_nothing.
Print Assumptions C52_layout.
Print Assumptions C52_balanced.
Print Assumptions C68_load_dump.
Print Assumptions C68_members_kept.
Print Assumptions C68_round_trip.
Print Assumptions C68_ints_read_back.
Print Assumptions C68_hidden_lost_refuted.
Print Assumptions C68_order_lost_refuted.
Print Assumptions C68_holes_refuted.
Print Assumptions C51_imports.
Print Assumptions C39_copy_changes_nothing.
Print Assumptions C48_transform_changes_nothing.
Print Assumptions C39_copy.
Print Assumptions C39_undo.
Print Assumptions C39_copy_independent.
Print Assumptions C39_count.
Print Assumptions C48_copy_shares.
Print Assumptions C48_transform_shares.
Print Assumptions C48_undo.
Print Assumptions C49_copy_deep.
Print Assumptions C39_xform_refuted.
Print Assumptions C39_names_refuted.
Print Assumptions C39_relative_refuted.
Print Assumptions C48_undo_twice_refuted.
Print Assumptions C48_member_refuted.
Print Assumptions C48_add_keeps.
Print Assumptions C49_new_pens.
Print Assumptions C49_restore_objects.
Print Assumptions C49_transform_objects.
Print Assumptions C35_bbox_int.
Print Assumptions C35_bbox_empty.
Print Assumptions C35_bbox_total.
Print Assumptions C35_curve_in_bbox.
Print Assumptions C35_drawn_in_bbox.
Print Assumptions C36_transform_result.
Print Assumptions C36_transform_draws.
Print Assumptions C36_transform_identity.
Print Assumptions C41_control_points.
Print Assumptions C41_curve_level.
Print Assumptions C41_close_to_ellipse.
Print Assumptions C41_in_box.
Print Assumptions C72_equal.
Print Assumptions C72_equivalence.
Print Assumptions C72_order.
Print Assumptions C72_close.
Print Assumptions C72_close_metric.
Print Assumptions C72_close_not_transitive.
Print Assumptions C79_points_vectors.
Print Assumptions C79_dot_cross.
Print Assumptions C79_transform.
Print Assumptions C79_compose.
Print Assumptions C79_bez.
Print Assumptions C79_samples.
Print Assumptions C86_circular.
Print Assumptions C86_sinusoidal.
Print Assumptions C86_multi.
Print Assumptions C86_animations_finite.
Print Assumptions C86_interpolate_exact.
Print Assumptions C86_ramps.
Print Assumptions C86_ramps_monotone.
Print Assumptions C86_periodic.
Print Assumptions C86_periodic_range.
Print Assumptions C86_best_trig_range.
Print Assumptions C87_coordinates.
Print Assumptions C87_node.
Print Assumptions C87_blend.
Print Assumptions C87_between.
Print Assumptions C87_fine_refuted.
Print Assumptions C87_normalized.
Print Assumptions C87_smoothed.
Print Assumptions C87_uniform.
Print Assumptions C87_normalized_field.
Print Assumptions C87_uniform_field.
Print Assumptions C87_smoothed_field.
Print Assumptions C88_same_function.
Print Assumptions C88_range.
Print Assumptions C88_reaches.
Print Assumptions C88_whole.
Print Assumptions C88_tiny_refuted.
Print Assumptions C88_half_open_refuted.
Print Assumptions C88_exact_fmod.
Print Assumptions C89_curve.
Print Assumptions C89_rectangle.
Print Assumptions C89_tree.
Print Assumptions C89_bounded.
Print Assumptions C89_on_curve.
Print Assumptions C92_box.
Print Assumptions C92_fails_alike.
Print Assumptions C92_exact_inside.
Print Assumptions C92_drawn_inside.
Print Assumptions C92_holes.
Print Assumptions C92_holes_refuted.
Print Assumptions C93_finite.
Print Assumptions C93_close.
Print Assumptions C93_unbounded_refuted.
Print Assumptions C92_group_exact.
Print Assumptions C79_morph.
Print Assumptions C79_linear.
Print Assumptions C79_relative.
Print Assumptions C79_area.
Print Assumptions C79_split.
Print Assumptions C93_box.
Print Assumptions C93_drawn.
Print Assumptions C93_inside.
Print Assumptions C79_split_at.
Print Assumptions C94_rounded_rect_doubles.
Print Assumptions C94_drawn.
Print Assumptions C94_best_axis.
Print Assumptions C80_points_vectors.
Print Assumptions C80_dot_cross.
Print Assumptions C80_transform.
Print Assumptions C80_history.
Print Assumptions C80_mid.
Print Assumptions C80_box.
Print Assumptions C80_area.
Print Assumptions C80_boxes.
Print Assumptions C81_linear_ends.
Print Assumptions C81_morph_start.
Print Assumptions C81_morph_same.
Print Assumptions C81_keys.
Print Assumptions C81_centre_inside.
Print Assumptions C81_mid_between.
Print Assumptions C81_centre_overflow_refuted.
Print Assumptions C81_identity.
Print Assumptions C81_translate.
Print Assumptions C81_scale.
Print Assumptions C81_samples_in_box.
Print Assumptions C81_samples_exact_refuted.
Print Assumptions C81_morph_end_refuted.
Print Assumptions C81_morph_overflow_refuted.
Print Assumptions C79_history.
Print Assumptions C79_history_point.
Print Assumptions C79_history_linear.
Print Assumptions C79_scale_bbox.
Print Assumptions C79_scale_bbox_corners.
Print Assumptions C79_handles.
Print Assumptions C81_handles_identity_refuted.
Print Assumptions C80_handles.
Print Assumptions C85_parallel.
Print Assumptions C85_intersection.
Print Assumptions C85_segments.
Print Assumptions C85_naive_hypot.
Print Assumptions C85_close_hypot.
Print Assumptions C85_line_pts.
Print Assumptions C85_assertion_refuted.
Print Assumptions C85_parallel_refuted.
Print Assumptions C79_unit.
Print Assumptions C79_closest.
Print Assumptions C79_best_hypot.
Print Assumptions C79_best_hypot_finite.
Print Assumptions C79_rotations.
Print Assumptions C79_rotations_keep_length.
Print Assumptions C79_vector_rotate.
Print Assumptions C79_best_trig.
Print Assumptions C79_rotations_finite.
Print Assumptions C79_best_trig_total.
Print Assumptions C79_vector_rotate_finite.
Print Assumptions C79_rigid_points.
Print Assumptions C79_rigid_distances.
Print Assumptions C79_path_rotate.
Print Assumptions C79_arc.
Print Assumptions C79_circle.
Print Assumptions C79_circle_finite.
Print Assumptions C79_rigid_points_finite.
Print Assumptions C59_frames.
Print Assumptions C59_alone.
Print Assumptions C59_no_steps.
Print Assumptions C59_error.
Print Assumptions C59_simple_range.
Print Assumptions C59_simple.
Print Assumptions C59_simple_ends.
Print Assumptions C59_one_frame_each_refuted.
Print Assumptions C59_simple_failure.
Print Assumptions C59_simple_none.
Print Assumptions C59_last_time_refuted.
Print Assumptions C60_canvas_fit.
Print Assumptions C60_step_matrix.
Print Assumptions C60_onto.
Print Assumptions C60_corners.
Print Assumptions C60_flat.
Print Assumptions C61_getbbox.
Print Assumptions C61_max_bbox.
Print Assumptions C61_blank.
Print Assumptions C61_blank_refuted.
Print Assumptions C61_box.
Print Assumptions C61_frames.
Print Assumptions C61_order.
Print Assumptions C61_bbox_max.
Print Assumptions C61_crop_to_pixels.
Print Assumptions C61_duration.
Print Assumptions C48_copy_iff.
Print Assumptions C48_group_copy.
Print Assumptions C48_copy_draws.
Print Assumptions C48_transform.
Print Assumptions C48_restore.
Print Assumptions C49_unfilled.
Print Assumptions C49_filled.
Print Assumptions C49_simple_holes.
Print Assumptions C49_outside_one_path.
Print Assumptions C49_restore.
Print Assumptions C49_restore_holes_refuted.
Print Assumptions C49_box_refuted.
Print Assumptions C47_matrix_kept.
Print Assumptions C47_draws_leaves.
Print Assumptions C47_hidden.
Print Assumptions C47_group_box.
Print Assumptions C47_empty.
Print Assumptions C47_box_order.
Print Assumptions C49_box.
Print Assumptions C49_box_needs.
Print Assumptions C47_drawn_in_box.
Print Assumptions C45_yields.
Print Assumptions C45_names.
Print Assumptions C45_lookup.
Print Assumptions C45_collected.
Print Assumptions C45_abandoned.
Print Assumptions C45_hole_names_refuted.
Print Assumptions C43_raises.
Print Assumptions C43_appends.
Print Assumptions C43_chosen_name.
Print Assumptions C43_add_keeps_table.
Print Assumptions C43_any_adds.
Print Assumptions C44_lookup_iff.
Print Assumptions C44_key_error.
Print Assumptions C44_value_error.
Print Assumptions C44_any_tag.
Print Assumptions C44_holes.
Print Assumptions C65_graph.
Print Assumptions C65_verdict.
Print Assumptions C46_replaces.
Print Assumptions C46_only_then.
Print Assumptions C46_gone.
Print Assumptions C46_nothing.
Print Assumptions C46_clash.
Print Assumptions C46_holes.
Print Assumptions C46_equal.
Print Assumptions C46_method.
Print Assumptions C84_row.
Print Assumptions C84_pixels.
Print Assumptions C84_palette.
Print Assumptions C84_alpha_palette_refuted.
Print Assumptions C84_interleaved_refuted.
Print Assumptions C84_rows.
Print Assumptions C73_common_points.
Print Assumptions C73_answers.
Print Assumptions C73_all_found.
Print Assumptions C73_gives_up.
Print Assumptions C73_forms.
Print Assumptions C73_swap.
Print Assumptions C73_self_intersect.
Print Assumptions C73_endpoints_refuted.
Print Assumptions C45_transformed.
Print Assumptions C45_transformed_draws.
Print Assumptions C22_closest.
Print Assumptions C22_closest_zero.
Print Assumptions C22_closest_idempotent.
Print Assumptions C23_intersection.
Print Assumptions C23_intersection_symmetric.
Print Assumptions C23_coincident.
Print Assumptions C23_parallel.
Print Assumptions C24_segment_intersection.
Print Assumptions C24_no_assertion.
Print Assumptions C24_symmetric.
Print Assumptions C24_completeness_refuted.
Print Assumptions C24_tee_refuted.
Print Assumptions C24_ends.
Print Assumptions C63_node.
Print Assumptions C63_blend.
Print Assumptions C63_reach.
Print Assumptions C63_between.
Print Assumptions C63_linear.
Print Assumptions C63_flat.
Print Assumptions C63_transform.
Print Assumptions C63_transform_pts.
Print Assumptions C63_first.
Print Assumptions C63_valid.
Print Assumptions C63_history.
Print Assumptions C63_stale.
Print Assumptions C63_derived.
Print Assumptions C63_over.
Print Assumptions C63_copy_equal.
Print Assumptions C63_copy_refuted.
Print Assumptions C63_plot.
Print Assumptions C63_plot_refuted.
Print Assumptions C09_corners.
Print Assumptions C09_center.
Print Assumptions C66_marks.
Print Assumptions C74_subclasses.
Print Assumptions C74_points_equal.
Print Assumptions C74_points_message.
Print Assumptions C74_places_refuted.
Print Assumptions C74_control_points.
Print Assumptions C74_control_points_refuted.
Print Assumptions C74_plot_settings.
Print Assumptions C74_plot_settings_refuted.
Print Assumptions C77_pointwise.
Print Assumptions C77_round_trip.
Print Assumptions C77_center.
Print Assumptions C77_copy.
Print Assumptions C77_center_follows.
Print Assumptions C57_construct.
Print Assumptions C57_mismatch.
Print Assumptions C57_absent.
Print Assumptions C57_update.
Print Assumptions C57_ends.
Print Assumptions C57_hidden.
Print Assumptions C57_pair.
Print Assumptions C57_restore.
Print Assumptions C57_restore_refuted.
Print Assumptions C58_first.
Print Assumptions C58_construct.
Print Assumptions C58_absent.
Print Assumptions C58_update.
Print Assumptions C58_keys.
Print Assumptions C58_coordinate.
Print Assumptions C58_continuous.
Print Assumptions C58_range.
Print Assumptions C58_hidden.
Print Assumptions C58_pair.
Print Assumptions C58_restore.
Print Assumptions C58_open_refuted.
Print Assumptions C50_pt_total.
Print Assumptions C50_pt_zero_handle.
Print Assumptions C50_pt_straight.
Print Assumptions C50_pt_angled.
Print Assumptions C50_pt_limited.
Print Assumptions C50_pt_bounded.
Print Assumptions C50_limit_side_refuted.
Print Assumptions C50_offset_result.
Print Assumptions C50_zero_offset.
Print Assumptions C50_polygon_refuted.
Print Assumptions C50_offset_handles.
Print Assumptions C40_bbox_int.
Print Assumptions C40_update.
Print Assumptions C40_update_raises.
Print Assumptions C40_rect_path.
Print Assumptions C40_drawn_in_box.
Print Assumptions C71_palette_image.
Print Assumptions C71_make_palette.
Print Assumptions C71_palette_order.
Print Assumptions C71_binary_alpha.
Print Assumptions C71_gif_frames.
Print Assumptions C71_gif_total.
Print Assumptions C71_fix_palette.
Print Assumptions C71_fix_palette_again.
Print Assumptions C71_fix_palette_short.
Print Assumptions C55_last_time.
Print Assumptions C55_others.
Print Assumptions C55_constructor.
Print Assumptions C55_positions.
Print Assumptions C55_shows_one.
Print Assumptions C55_linear.
Print Assumptions C55_sinusoidal.
Print Assumptions C55_sinusoidal_ends.
Print Assumptions C55_circular.
Print Assumptions C55_circular_offset.
Print Assumptions C55_animated_target_refuted.
Print Assumptions C69_text_reads_back.
Print Assumptions C69_prefix_indents.
Print Assumptions C69_none_iff.
Print Assumptions C90_check.
Print Assumptions C90_columns.
Print Assumptions C90_plot.
Print Assumptions C90_plot_none.
Print Assumptions C90_round_ends.
Print Assumptions C90_viewer.
Print Assumptions C90_viewer_stops.
Print Assumptions C90_viewer_fails.
Print Assumptions C90_default_refuted.
Print Assumptions C90_delay.
Print Assumptions C90_sine.
Print Assumptions C90_angles.
Print Assumptions C90_arcs.
Print Assumptions C90_arcs_run.
Print Assumptions C19_position.
Print Assumptions C19_position_fails.
Print Assumptions C19_rests.
Print Assumptions C19_move_others.
Print Assumptions C19_move_dependents.
Print Assumptions C19_create_disturbs_nothing.
Print Assumptions C19_set_offset.
Print Assumptions C19_gain_total.
Print Assumptions C19_fromxy_exact.
Print Assumptions C19_fromxy_float_refuted.
Print Assumptions C19_vector_relative.
Print Assumptions C19_vector_relative_value.
Print Assumptions C19_vector_relative_p_refuted.
Print Assumptions C25_fixed.
Print Assumptions C25_copy.
Print Assumptions C25_point_equality.
Print Assumptions C25_point_equality_laws.
Print Assumptions C25_copy_of_named_point_refuted.
Print Assumptions C25_copy_equal.
Print Assumptions C37_transform_draws.
Print Assumptions C37_singular.
Print Assumptions C37_radius.
Print Assumptions C37_uneven_refuted.
Print Assumptions C83_point.
Print Assumptions C83_same_place.
Print Assumptions C83_distinct.
Print Assumptions C83_same_text.
Print Assumptions C83_equal.
Print Assumptions C83_vector.
Print Assumptions C83_line.
Print Assumptions C83_control.
Print Assumptions C83_transform.
Print Assumptions C83_box.
Print Assumptions C83_str_box.
Print Assumptions C83_str_point.
Print Assumptions C83_str_vector.
Print Assumptions C83_str_between.
Print Assumptions C83_str_line.
Print Assumptions C83_str_line_between.
Print Assumptions C83_str_matrix.
Print Assumptions C83_matrix_refuted.
Print Assumptions C83_penbrush.
Print Assumptions C83_penbrush_distinct.
Print Assumptions C83_pens.
Print Assumptions C83_empty_name_refuted.
Print Assumptions C83_box_equal.
Print Assumptions C83_elements_refuted.
Print Assumptions C83_rectangle_refuted.
Print Assumptions C83_colors_refuted.
Print Assumptions C83_colors_text.
Print Assumptions C83_str_pens_refuted.
Print Assumptions C83_str_pen_refuted.
Print Assumptions C68_doubles_read_back.
Print Assumptions C68_doubles.
Print Assumptions C83_doubles.
Print Assumptions C83_infinite_refuted.
Print Assumptions C76_nearest.
Print Assumptions C76_unique.
Print Assumptions C76_fixed_points.
Print Assumptions C76_idempotent.
Print Assumptions C76_monotone.
Print Assumptions C76_odd.
Print Assumptions C76_shift_refuted.
Print Assumptions C76_point.
Print Assumptions C76_vector.
Print Assumptions C76_relative_vector.
Print Assumptions C76_relative_vector_refuted.
Print Assumptions C76_box.
Print Assumptions C76_box_fails.
Print Assumptions C76_control_point.
Print Assumptions C76_control_point_mirror.
Print Assumptions C42_points.
Print Assumptions C42_square.
Print Assumptions C42_clipped.
Print Assumptions C42_in_rect.
Print Assumptions C42_outline.
Print Assumptions C42_no_width_refuted.
Print Assumptions C78_simple.
Print Assumptions C78_simple_fails.
Print Assumptions C78_simple_length_refuted.
Print Assumptions C78_builder.
Print Assumptions C78_builder_writes_refuted.
Print Assumptions C78_builder_fails.
Print Assumptions C78_builder_shows_refuted.
Print Assumptions C78_run.
Print Assumptions C65_arcs_used_once.
Print Assumptions C65_errors.
Print Assumptions C65_never_stuck.
Print Assumptions C65_succeeds.
Print Assumptions C65_same_points.
Print Assumptions C65_no_crossings.
Print Assumptions C65_inputs.
Print Assumptions C65_element.
Print Assumptions C65_element_points.
Print Assumptions C65_missed_crossing_refuted.
Print Assumptions C65_inputs_untouched_refuted.
Print Assumptions C82_read.
Print Assumptions C82_write.
Print Assumptions C82_history.
Print Assumptions C82_ordered_refuted.
Print Assumptions C82_sort.
Print Assumptions C82_sort_ordered.
Print Assumptions C82_none.
Print Assumptions C82_size.
Print Assumptions C82_equal.
Print Assumptions C44_points.
Print Assumptions C44_points_raise.
Print Assumptions C61_scaled.
Print Assumptions C61_scaled_raises.
Print Assumptions C25_lines.
Print Assumptions C25_lines_set_refuted.
Print Assumptions C08_six.
Print Assumptions C08_six_moves.
Print Assumptions C17_conversions.
Print Assumptions C56_identity.
Print Assumptions C74_point_explain.
Print Assumptions C83_str_group.
Print Assumptions C83_str_holes.
Print Assumptions C83_str_shapes.
Print Assumptions C83_str_curve.
Print Assumptions C56_interpolate.
Print Assumptions C56_interpolate_empty.
Print Assumptions C56_knots.
Print Assumptions C56_outside.
Print Assumptions C56_between.
Print Assumptions C56_range.
Print Assumptions C56_slopes.
Print Assumptions C56_monotone.
Print Assumptions C56_ramps.
Print Assumptions C56_ramp_monotone.
Print Assumptions C56_hide_if.
Print Assumptions C56_hide_if_pair.
Print Assumptions C56_xy.
Print Assumptions C56_xy_asserts.
Print Assumptions C56_sin_cos.
Print Assumptions C56_offset_at_zero.
Print Assumptions C56_offset_refuted.
Print Assumptions C56_offset_is_frequency.
Print Assumptions C56_sin_cos_circle.
Print Assumptions C01_invertible_is_injective.
Print Assumptions C01_untransform_undoes_transform.
Print Assumptions C01_without_rotate_about.
Print Assumptions C01_stale_inverse.
Print Assumptions C01_unrestricted_refuted.
Print Assumptions C02_push_pop_restores.
Print Assumptions C02_with_restores.
Print Assumptions C02_with_chain_raises.
Print Assumptions C02_with_always_restores_refuted.
Print Assumptions C02_empty_stack.
Print Assumptions C03_call_order.
Print Assumptions C03_description_total.
Print Assumptions C03_stays_affine.
Print Assumptions C03_affine_combinations.
Print Assumptions C03_midpoint.
Print Assumptions C04_directions.
Print Assumptions C04_ccw_means_ccw.
Print Assumptions C04_undo_each_other.
Print Assumptions C04_rotate_docstring_iff.
Print Assumptions C04_rotate_docstring_refuted.
Print Assumptions C04_angles_add.
Print Assumptions C04_distances.
Print Assumptions C04_rotate_about.
Print Assumptions C05_scale_bbox.
Print Assumptions C05_keep_aspect.
Print Assumptions C05_zero_size.
Print Assumptions C06_simplify_product.
Print Assumptions C06_simplify_close.
Print Assumptions C06_is_simple.
Print Assumptions C07_width_is_mean_length.
Print Assumptions C07_width_linear.
Print Assumptions C07_width_rigid.
Print Assumptions C07_width_uniform_scale.
Print Assumptions C08_program_stores.
Print Assumptions C08_copy_independent.
Print Assumptions C08_calls_are_local.
Print Assumptions C08_compose_with_object.
Print Assumptions C08_copy_equal.
Print Assumptions C08_transform_pts.
Print Assumptions C16_bbox_by_transform.
Print Assumptions C71_transparent.
Print Assumptions C71_alpha_ignored.
Print Assumptions C71_transparent_raises.
Print Assumptions C71_keeps_transparency_refuted.
Print Assumptions C71_reserved_unused.
Print Assumptions C26_min_rotation.
Print Assumptions C26_min_rotation_periodic.
Print Assumptions C26_min_rotation_reaches.
Print Assumptions C26_opposites.
Print Assumptions C27_arc.
Print Assumptions C27_arc_no_steps.
Print Assumptions C27_arc_full_turn_degenerate.
Print Assumptions C27_arc_is_circle_refuted.
Print Assumptions C27_circle.
Print Assumptions C28_arc2p_errors.
Print Assumptions C28_arc2p_no_steps.
Print Assumptions C28_arc2p.
Print Assumptions C29_rigid.
Print Assumptions C29_distances.
Print Assumptions C29_xy_roundtrip.
Print Assumptions C29_cross_plus.
Print Assumptions C62_normalized.
Print Assumptions C62_normalized_stretched.
Print Assumptions C62_idempotent.
Print Assumptions C62_empty.
Print Assumptions C62_zero_refuted.
Print Assumptions C62_scaled.
Print Assumptions C62_uniform.
Print Assumptions C62_uniform_any.
Print Assumptions C62_mean.
Print Assumptions C62_zero_smoothed_refuted.
Print Assumptions C62_smoothed.
Print Assumptions C62_mean_between.
Print Assumptions C62_mean_length.
Print Assumptions C62_local.
Print Assumptions C62_constant.
Print Assumptions C62_smoothed_stretched.
Print Assumptions C62_mirror_refuted.
Print Assumptions C62_equal.
Print Assumptions C17_add_kinds.
Print Assumptions C17_sub_kinds.
Print Assumptions C17_mul_kinds.
Print Assumptions C17_div_kinds.
Print Assumptions C17_vector_times_vector.
Print Assumptions C17_vector_minus_point_refuted.
Print Assumptions C17_operator_values.
Print Assumptions C17_operator_laws.
Print Assumptions C17_affine_space.
Print Assumptions C17_scalar_laws.
Print Assumptions C17_add_commutes.
Print Assumptions C17_mid.
Print Assumptions C18_length.
Print Assumptions C18_triangle_inequality.
Print Assumptions C18_unit.
Print Assumptions C18_normal.
Print Assumptions C18_dot_cross.
Print Assumptions C18_cross_zero.
Print Assumptions C18_rotate.
Print Assumptions C18_polar.
Print Assumptions C18_rotate_adds_angle.
Print Assumptions C18_angle_docstring_refuted.
Print Assumptions C20_parse_exact.
Print Assumptions C20_parse_flattens_back.
Print Assumptions C20_parse_errors.
Print Assumptions C20_thruples.
Print Assumptions C21_area_rotation.
Print Assumptions C21_area_reversal.
Print Assumptions C21_area_translation.
Print Assumptions C21_area_linear.
Print Assumptions C21_area_chord.
Print Assumptions C21_area_rectangle.
Print Assumptions C21_area_triangle.
Print Assumptions C21_area_degenerate.
Print Assumptions C21_area_fan.
Print Assumptions C25_close.
Print Assumptions C25_close_transitive_refuted.
Print Assumptions C25_vector_equality.
Print Assumptions C07_any_similarity.
Print Assumptions C07_any_affine.
Print Assumptions C07_methods_agree.
Print Assumptions C07_methods_agree_refuted.
Print Assumptions C07_any_affine_vanishes.
Print Assumptions C63_width.
Print Assumptions C63_width_constant.
Print Assumptions C62_mesh.
Print Assumptions C62_mesh_edge.
Print Assumptions C62_uniform_field.
Print Assumptions C62_copy_field.
Print Assumptions C62_scaled_field.
Print Assumptions C62_normalized_field.
Print Assumptions C62_smoothed_field.
