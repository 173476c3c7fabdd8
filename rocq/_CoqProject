-Q theories Verif
theories/Base.v
theories/NumR.v
theories/NumFloat.v
theories/M_vector.v
theories/M_bbox.v
theories/L_ord.v
theories/L_real.v
theories/S_bbox.v
theories/L_bbox.v
theories/L_bboxR.v
theories/P_bbox.v
theories/M_transform.v
theories/S_transform.v
theories/L_transform.v
theories/L_transform2.v
theories/M_theap.v
theories/L_theap.v
theories/P_transform.v
theories/M_points.v
theories/M_line.v
theories/M_utils.v
theories/L_vector.v
theories/P_vector.v
theories/S_points.v
theories/L_points.v
theories/P_points.v
theories/P_line.v
theories/P_utils.v
theories/M_bezier.v
theories/S_bezier.v
theories/L_bezier.v
theories/P_bezier.v
theories/M_colors.v
theories/P_colors.v
theories/M_elems.v
theories/S_elems.v
theories/L_elems.v
theories/P_elems.v
theories/P_addone.v
theories/P_ellipse.v
theories/L_rrect.v
theories/P_rrect.v
theories/P_p1p2.v
theories/L_ptrans.v
theories/P_ptrans.v
theories/P_offset.v
theories/M_group.v
theories/S_group.v
theories/L_group.v
theories/P_gnames.v
theories/P_giter.v
theories/P_greplace.v
theories/P_equal.v
theories/M_intersect.v
theories/P_intersect.v
theories/M_matchers.v
theories/P_matchers.v
theories/M_display.v
theories/M_repr.v
theories/M_imginfo.v
theories/S_imginfo.v
theories/P_display.v
theories/S_gdraw.v
theories/L_gdraw.v
theories/P_gdraw.v
theories/P_gcopy.v
theories/M_builder.v
theories/S_builder.v
theories/P_builder.v
theories/P_brotate.v
theories/M_anim.v
theories/S_anim.v
theories/P_time.v
theories/P_panim.v
theories/P_morph.v
theories/P_multi.v
theories/M_frames.v
theories/P_frames.v
theories/M_draw.v
theories/S_draw.v
theories/P_draw.v
theories/P_marks.v
theories/M_ctx.v
theories/S_ctx.v
theories/P_ctx.v
theories/M_palette.v
theories/S_palette.v
theories/L_palette.v
theories/P_palette.v
theories/M_transp.v
theories/M_fmod.v
theories/P_transp.v
theories/S_curves.v
theories/P_curves.v
theories/M_vecfield.v
theories/S_vecfield.v
theories/P_vecfield.v
theories/P_lookup.v
theories/M_eheap.v
theories/S_eheap.v
theories/L_eheap.v
theories/L_eheap2.v
theories/P_eheap.v
theories/M_dump.v
theories/S_dump.v
theories/L_dump.v
theories/L_dump2.v
theories/L_dump3.v
theories/L_dump4.v
theories/L_dump5.v
theories/L_dump6.v
theories/P_dump.v
theories/M_pickle.v
theories/S_pickle.v
theories/L_pickle.v
theories/L_pickle2.v
theories/P_pickle.v
theories/S_repr.v
theories/L_repr.v
theories/P_repr.v
theories/P_reprfloat.v
theories/P_imginfo.v
theories/M_selfix.v
theories/S_selfix.v
theories/L_selfix.v
theories/L_selfix2.v
theories/L_selfix3.v
theories/L_selfix4.v
theories/L_selfix5.v
theories/L_selfix6.v
theories/L_selfix7.v
theories/L_selfix8.v
theories/L_selfix9.v
theories/L_selfix10.v
theories/L_selfix11.v
theories/L_selfix12.v
theories/L_selfix13.v
theories/P_selfix.v
theories/M_round.v
theories/S_round.v
theories/P_round.v
theories/M_more.v
theories/P_more.v
theories/M_save.v
theories/P_save.v
theories/S_float.v
theories/L_float.v
theories/L_float2.v
theories/P_float.v
theories/P_float2.v
theories/P_float3.v
theories/P_float4.v
theories/P_float5.v
theories/P_float6.v
theories/P_float7.v
theories/P_float8.v
theories/P_float9.v
theories/P_float10.v
theories/P_float11.v
theories/P_strelem.v
theories/P_slots.v
theories/P_iterx.v
theories/P_graph.v
theories/P_width.v
theories/P_float12.v
theories/P_float13.v
theories/P_float14.v
theories/P_float15.v
theories/P_float16.v
theories/M_plot.v
theories/P_plot.v
theories/M_bziprint.v
theories/P_bziprint.v
theories/P_float17.v
theories/P_float18.v
theories/P_float19.v
theories/P_float20.v
theories/P_float21.v
theories/P_float22.v
theories/P_small.v
theories/Conformance.v
theories/Conformance_units.v
theories/Z_assumptions.v
