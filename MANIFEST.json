{
 "claims": [
  {
   "property": "C01",
   "status": "proved",
   "theorems": [
    "C01_columns_sorted"
   ],
   "note": ""
  },
  {
   "property": "C02",
   "status": "proved",
   "theorems": [
    "C02_storage_tight"
   ],
   "note": ""
  },
  {
   "property": "C03",
   "status": "proved",
   "theorems": [
    "C03_insertion_exact"
   ],
   "note": ""
  },
  {
   "property": "C04",
   "status": "proved",
   "theorems": [
    "C04_insertion_order_irrelevant",
    "C04_repeats_irrelevant",
    "C04_same_triangles",
    "C04_same_triangles_populate"
   ],
   "note": ""
  },
  {
   "property": "C05",
   "status": "proved",
   "theorems": [
    "C05_merged_area",
    "C05_documented_maximum_refuted"
   ],
   "note": "The documented unconditional maximum is refuted."
  },
  {
   "property": "C06",
   "status": "proved",
   "theorems": [
    "C06_insertion_total",
    "C06_span_at_total",
    "C06_span_at_outside_none_refuted"
   ],
   "note": "The documented None outside the field is refuted."
  },
  {
   "property": "C07",
   "status": "proved",
   "theorems": [
    "C07_low_hanging_exact"
   ],
   "note": ""
  },
  {
   "property": "C08",
   "status": "proved",
   "theorems": [
    "C08_ledge_exact"
   ],
   "note": ""
  },
  {
   "property": "C09",
   "status": "proved",
   "theorems": [
    "C09_low_height_exact",
    "C09_low_height_idempotent"
   ],
   "note": ""
  },
  {
   "property": "C10",
   "status": "proved",
   "theorems": [
    "C10_filters_depend_on_columns",
    "C10_pipeline"
   ],
   "note": ""
  },
  {
   "property": "C11",
   "status": "proved",
   "theorems": [
    "C11_packing",
    "C11_unrepresentable_refuted"
   ],
   "note": ""
  },
  {
   "property": "C12",
   "status": "proved",
   "theorems": [
    "C12_lists_walkable_spans"
   ],
   "note": ""
  },
  {
   "property": "C13",
   "status": "proved",
   "theorems": [
    "C13_connections_exact"
   ],
   "note": ""
  },
  {
   "property": "C14",
   "status": "proved",
   "theorems": [
    "C14_symmetric",
    "C14_symmetric_thick",
    "C14_one_way_refuted"
   ],
   "note": "Equal climb and height needs spans of positive thickness; both one-way situations are exhibited."
  },
  {
   "property": "C15",
   "status": "proved",
   "theorems": [
    "C15_error_iff",
    "C15_silent_drop_refuted"
   ],
   "note": "Documented completeness of the error is refuted."
  },
  {
   "property": "C16",
   "status": "proved",
   "theorems": [
    "C16_total",
    "C16_counter_overflow"
   ],
   "note": ""
  },
  {
   "property": "C17",
   "status": "proved",
   "theorems": [
    "C17_compaction_well_formed",
    "C17_following_a_connection"
   ],
   "note": ""
  },
  {
   "property": "C18",
   "status": "proved",
   "theorems": [
    "C18_erosion_exact",
    "C18_erosion_exact_all_radii",
    "C18_rim_removed"
   ],
   "note": ""
  },
  {
   "property": "C19",
   "status": "proved",
   "theorems": [
    "C19_only_removes",
    "C19_radius_zero",
    "C19_monotone"
   ],
   "note": ""
  },
  {
   "property": "C20",
   "status": "proved",
   "theorems": [
    "C20_radius_128_removes_nothing",
    "C20_monotonicity_refuted",
    "C20_large_radius_panics"
   ],
   "note": "Monotonicity beyond radius 127 is refuted."
  },
  {
   "property": "C21",
   "status": "proved",
   "theorems": [
    "C21_distance_field_exact"
   ],
   "note": "Includes the exact smoothing formula and preservation of well-formedness."
  },
  {
   "property": "C22",
   "status": "proved",
   "theorems": [
    "C22_bounds"
   ],
   "note": ""
  },
  {
   "property": "C23",
   "status": "proved",
   "theorems": [
    "C23_empty_field_panics",
    "C23_total_refuted"
   ],
   "note": "Totality is refuted: every field without spans panics."
  },
  {
   "property": "C24",
   "status": "proved",
   "theorems": [
    "C24_marks_exactly",
    "C24_unwalkable_stays",
    "C24_vertical_range_refuted"
   ],
   "note": "Exact in f32; the vertical range is refuted below the field minimum (truncation toward zero)."
  },
  {
   "property": "C25",
   "status": "proved",
   "theorems": [
    "C25_regions_are_walkable",
    "C25_nothing_else_changes",
    "C25_reassigned_refuted"
   ],
   "note": "The documented re-assignment of small regions to NOT_WALKABLE is refuted."
  },
  {
   "property": "C26",
   "status": "proved",
   "theorems": [
    "C26_one_area_per_region"
   ],
   "note": ""
  },
  {
   "property": "C27",
   "status": "proved",
   "theorems": [
    "C27_bounded",
    "C27_never_attained",
    "C27_maximum_refuted"
   ],
   "note": "max_region is an upper bound that no span attains; the documented maximum is refuted."
  },
  {
   "property": "C28",
   "status": "proved",
   "theorems": [
    "C28_border_painted",
    "C28_border_exact_below_32764",
    "C28_border_exact_refuted"
   ],
   "note": "Painting for all fields, exactness below 32764 spans; C28_border_exact_refuted shows that the limit is exact."
  },
  {
   "property": "C29",
   "status": "proved",
   "theorems": [
    "C29_terminates",
    "C29_succeeds_below_32768",
    "C29_max_distance_refuted",
    "C29_large_fields_refuted"
   ],
   "note": "Termination for all well-formed fields, success below 32768 spans; the refuted theorems show that limits are needed."
  },
  {
   "property": "C30",
   "status": "proved",
   "theorems": [
    "C30_regions_connected",
    "C30_single_contour_refuted",
    "C30_non_overlapping_refuted"
   ],
   "note": "Connected; the documented single contour and non-overlap are refuted."
  },
  {
   "property": "C31",
   "status": "proved",
   "theorems": [
    "C31_closed_loops",
    "C31_after_build_regions"
   ],
   "note": "For regions of at most 10000 spans (the walk stops after 40000 rounds); build_regions establishes the other hypotheses."
  },
  {
   "property": "C32",
   "status": "proved",
   "theorems": [
    "C32_terminates",
    "C32_simplification",
    "C32_contour_sets",
    "C32_tolerance",
    "C32_contours_follow_walls",
    "C32_area_changes_refuted",
    "C32_tolerance_after_splitting_refuted",
    "C32_degenerate_segments_refuted"
   ],
   "note": "Area-border changes are kept only if some neighbouring region is non-zero, and the tolerance holds only without edge splitting (both exceptions refuted by witness). Deviations are compared in f32, as computed; C32_tolerance and C32_contours_follow_walls bound the distance in the plane in real numbers, up to one part in a million."
  },
  {
   "property": "C33",
   "status": "proved",
   "theorems": [
    "C33_at_most_max_region",
    "C33_panics_only_if_full",
    "C33_any_number_refuted"
   ],
   "note": "Success for any number is refuted by a field with ten contours."
  },
  {
   "property": "C34",
   "status": "proved",
   "theorems": [
    "C34_narrow_field_panics",
    "C34_long_edges_panic",
    "C34_succeeds",
    "C34_max_edge_len_refuted"
   ],
   "note": ""
  },
  {
   "property": "C35",
   "status": "proved",
   "theorems": [
    "C35_triangulation",
    "C35_total",
    "C35_convex_polygons_succeed",
    "C35_large_coordinates_refuted"
   ],
   "note": "No panic for coordinates up to 32767; larger ones overflow (witness)."
  },
  {
   "property": "C36",
   "status": "proved",
   "theorems": [
    "C36_linear_search",
    "C36_welded",
    "C36_stable",
    "C36_order_matters_refuted"
   ],
   "note": "Order independence is refuted."
  },
  {
   "property": "C37",
   "status": "proved",
   "theorems": [
    "C37_merge",
    "C37_total",
    "C37_merge_all",
    "C37_same_direction_refuted"
   ],
   "note": "For polygons without an edge in the same direction; with one, vertices are lost (witness)."
  },
  {
   "property": "C38",
   "status": "proved",
   "theorems": [
    "C38_symmetric"
   ],
   "note": "Symmetric always; complete when no directed edge is duplicated."
  },
  {
   "property": "C39",
   "status": "proved",
   "theorems": [
    "C39_lengths",
    "C39_regions_refuted"
   ],
   "note": "One region per polygon is refuted; all other tables have equal lengths."
  },
  {
   "property": "C40",
   "status": "proved",
   "theorems": [
    "C40_ends_without_border_vertices",
    "C40_terminates_refuted"
   ],
   "note": "Termination is refuted by a pentagon with one border vertex."
  },
  {
   "property": "C51",
   "status": "proved",
   "theorems": [
    "C51_mesh",
    "C51_convex",
    "C51_area"
   ],
   "note": "For contours without border vertices."
  },
  {
   "property": "C42",
   "status": "proved",
   "theorems": [
    "C42_extend",
    "C42_gather",
    "C42_invalid_index_refuted"
   ],
   "note": "For up to 2^32-1 vertices; a dangling index of the first mesh is captured by the second (witness)."
  },
  {
   "property": "C43",
   "status": "proved",
   "theorems": [
    "C43_actual_placement",
    "C43_single_part",
    "C43_own_placement_refuted",
    "C43_unmoved_parts"
   ],
   "note": "Placement by the own isometry is refuted; what the code computes is characterised for every compound."
  },
  {
   "property": "C44",
   "status": "proved",
   "theorems": [
    "C44_marks_exactly",
    "C44_one_side",
    "C44_faces_up"
   ],
   "note": "cos(threshold) is an f32 parameter of the model."
  },
  {
   "property": "C45",
   "status": "proved",
   "theorems": [
    "C45_table_inverse",
    "C45_opposite",
    "C45_unit_steps",
    "C45_next_prev",
    "C45_empty_ring_panics",
    "C45_diagonal_refuted"
   ],
   "note": "Diagonal offsets are not rejected (witness)."
  },
  {
   "property": "C52",
   "status": "proved",
   "theorems": [
    "C52_from_mesh",
    "C52_accepts"
   ],
   "note": ""
  },
  {
   "property": "C53",
   "status": "proved",
   "theorems": [
    "C53_contains",
    "C53_tight",
    "C53_none_iff_empty",
    "C53_nan_refuted"
   ],
   "note": "Containment fails with NaN coordinates (witness)."
  },
  {
   "property": "C46",
   "status": "proved",
   "theorems": [
    "C46_dimensions",
    "C46_saturation_refuted",
    "C46_too_large_is_error_refuted"
   ],
   "note": "Above 65535 cells width and table disagree (witness); an infinite count panics (witness)."
  },
  {
   "property": "C47",
   "status": "proved",
   "theorems": [
    "C47_division",
    "C47_triangle_convex",
    "C47_buffers_suffice",
    "C47_buffers_f32_refuted"
   ],
   "note": "Exact arithmetic; with f32 a concrete in-range triangle overruns the 7-slot buffer and panics (witness)."
  },
  {
   "property": "C48",
   "status": "proved",
   "theorems": [
    "C48_exact",
    "C48_cells",
    "C48_untouched_cells_refuted",
    "C48_untouched_cells_f32_refuted",
    "C48_heights_refuted",
    "C48_far_row_f32_refuted",
    "C48_far_column_f32_refuted"
   ],
   "note": "Exact arithmetic; the first row and column are excluded for triangles hanging over the low sides, where the claim is refuted by witnesses. With f32 rounding it is also refuted on the far side, for triangles that end on a grid line."
  },
  {
   "property": "C54",
   "status": "proved",
   "theorems": [
    "C54_wide_field_stays_empty",
    "C54_tall_field_panics"
   ],
   "note": ""
  },
  {
   "property": "C55",
   "status": "proved",
   "theorems": [
    "C55_rasterize_triangle",
    "C55_rasterize_triangles",
    "C55_populate"
   ],
   "note": ""
  },
  {
   "property": "C49",
   "status": "proved",
   "theorems": [
    "C49_export",
    "C49_indices",
    "C49_images_used_refuted"
   ],
   "note": "Images of a material that fails to serialize stay in the response unused (witness)."
  },
  {
   "property": "C50",
   "status": "proved",
   "theorems": [
    "C50_queue",
    "C50_never_generated"
   ],
   "note": ""
  },
  {
   "property": "C56",
   "status": "proved",
   "theorems": [
    "C56_roundtrip",
    "C56_mesh_trip",
    "C56_loaded_in_both_worlds",
    "C56_custom_attributes_refuted",
    "C56_reused_id_refuted"
   ],
   "note": "Custom attributes are lost, and an attribute that reuses a standard id with another format makes the import panic (witnesses)."
  },
  {
   "property": "C57",
   "status": "proved",
   "theorems": [
    "C57_export_errors",
    "C57_params_and_affectors"
   ],
   "note": ""
  },
  {
   "property": "C41",
   "status": "proved",
   "theorems": [
    "C41_hull"
   ],
   "note": ""
  },
  {
   "property": "C58",
   "status": "proved",
   "theorems": [
    "C58_sample_distance",
    "C58_no_sampling_refuted"
   ],
   "note": "The documented value 0 panics on every nonempty mesh."
  },
  {
   "property": "C59",
   "status": "proved",
   "theorems": [
    "C59_submeshes"
   ],
   "note": "Partial correctness: whenever building returns."
  },
  {
   "property": "C60",
   "status": "proved",
   "theorems": [
    "C60_detail_error",
    "C60_shared_edge",
    "C60_edges_in_space",
    "C60_interior_in_space",
    "C60_thin_triangle_refuted"
   ],
   "note": "Partial correctness; in C60_detail_error distances are the f32 values the code computes, C60_edges_in_space bounds the true distance along edges and the spacing of samples in real numbers for samples whose heights are within the bound (a missing height reads as 65535 cells). In the interior a sample over a triangle that is not thin is found to be, and the f32 distance is close to the true one (C60_interior_in_space); it can be far off for thin ones (C60_thin_triangle_refuted)."
  },
  {
   "property": "C61",
   "status": "proved",
   "theorems": [
    "C61_several_regions_refuted"
   ],
   "note": "Refuted: for the first polygon, away from the left side, building never returns."
  },
  {
   "property": "C62",
   "status": "proved",
   "theorems": [
    "C62_storing_fits",
    "C62_vectors_grow",
    "C62_growth_refuted"
   ],
   "note": "Growth beyond the first extension can panic (witness)."
  },
  {
   "property": "C63",
   "status": "proved",
   "theorems": [
    "C63_height_query"
   ],
   "note": ""
  },
  {
   "property": "C64",
   "status": "proved",
   "theorems": [
    "C64_mesh_shape",
    "C64_live"
   ],
   "note": "No assumption on the contours. C64_live supplies the hypotheses of C59 and C60."
  },
  {
   "property": "C65",
   "status": "proved",
   "theorems": [
    "C65_flags_without_effect",
    "C65_mesh",
    "C65_removed_refuted"
   ],
   "note": "Refuted: a flagged vertex is never removed, because the pairs of corners reach into the padding of the row."
  },
  {
   "property": "C66",
   "status": "proved",
   "theorems": [
    "C66_no_small_islands",
    "C66_large_regions_kept",
    "C66_no_minimum",
    "C66_isolated_islands_refuted"
   ],
   "note": ""
  },
  {
   "property": "C67",
   "status": "proved",
   "theorems": [
    "C67_merging_never_stacks"
   ],
   "note": "Stacking that the watershed itself produces is C30_non_overlapping_refuted."
  },
  {
   "property": "C68",
   "status": "proved",
   "theorems": [
    "C68_frame"
   ],
   "note": "The horizontal bounds are computed in f32."
  },
  {
   "property": "C69",
   "status": "proved",
   "theorems": [
    "C69_agent_in_voxels",
    "C69_no_panic",
    "C69_large_radius_panics",
    "C69_default",
    "C69_default_sizes",
    "C69_default_agent",
    "C69_exact_fit_refuted",
    "C69_climb_rounded_up_refuted",
    "C69_sample_limit_refuted"
   ],
   "note": "Up to one f32 rounding; an exact fit is refuted, and so are the documented rounding of the climb and the documented limit of the sampling distance. The builder has private fields and no setters, so outside the crate only the default can be built. Uses the standard library axioms of real numbers listed in DESIGN.md."
  },
  {
   "property": "C70",
   "status": "proved",
   "theorems": [
    "C70_vertices_are_standable"
   ],
   "note": "In voxels; C69 relates the voxel measures to the configured ones."
  },
  {
   "property": "C71",
   "status": "proved",
   "theorems": [
    "C71_navmesh"
   ],
   "note": ""
  },
  {
   "property": "C72",
   "status": "proved",
   "theorems": [
    "C72_hole_fails",
    "C72_no_mesh_around_obstacles",
    "C72_error",
    "C72_no_build",
    "C72_box_on_a_floor_refuted",
    "C72_triangular_hole_refuted"
   ],
   "note": "Refuted: the claim fails for every convex hole, and concretely for a box on a floor."
  },
  {
   "property": "C83",
   "status": "proved",
   "theorems": [
    "C83_height_patch"
   ],
   "note": "For polygons of one region; polygons of several regions are C61."
  },
  {
   "property": "C84",
   "status": "proved",
   "theorems": [
    "C84_detail_returns"
   ],
   "note": "The panic that remains is the one of C62."
  },
  {
   "property": "C85",
   "status": "proved",
   "theorems": [
    "C85_regions_are_found",
    "C85_build_returns"
   ],
   "note": "From the rasterized field on; rasterization itself may panic (C55); C89 gives scenes for which it does not."
  },
  {
   "property": "C86",
   "status": "proved",
   "theorems": [
    "C86_cursor_is_freed",
    "C86_cursor_is_caught",
    "C86_needs_grab",
    "C86_no_time",
    "C86_comes_to_rest",
    "C86_pitch",
    "C86_keys",
    "C86_keys_cancel",
    "C86_run_speed_ignored",
    "C86_scrolling_adjusts_speed_refuted",
    "C86_forward_is_forward_refuted",
    "C86_grab_hides_cursor_refuted"
   ],
   "note": "For the settings the editor spawns its camera with."
  },
  {
   "property": "C87",
   "status": "proved",
   "theorems": [
    "C87_standing_exact",
    "C87_better_climber",
    "C87_smaller_agent",
    "C87_better_climber_refuted",
    "C87_smaller_agent_refuted"
   ],
   "note": "The plain monotonicity claims are refuted; the exceptions are characterised."
  },
  {
   "property": "C88",
   "status": "proved",
   "theorems": [
    "C88_area_of_a_span",
    "C88_order_mostly_irrelevant",
    "C88_order_irrelevant_refuted",
    "C88_triangle_order",
    "C88_triangle_order_one_area",
    "C88_populate_one_area",
    "C88_triangle_order_refuted"
   ],
   "note": "The plain claim is refuted, for insertions and for the triangles of meshes in f32; the order matters only for walkable spans deep within others."
  },
  {
   "property": "C89",
   "status": "proved",
   "theorems": [
    "C89_right_angled",
    "C89_mesh",
    "C89_field",
    "C89_scene",
    "C89_rectangles_refuted",
    "C89_any_triangle_refuted"
   ],
   "note": "The plain claim is refuted for the default configuration; proved for right-angled triangles along the axes whose far end is clear of the rows."
  },
  {
   "property": "C90",
   "status": "proved",
   "theorems": [
    "C90_dialog",
    "C90_loads_once",
    "C90_two_dialogs_stay",
    "C90_dialog_refuted"
   ],
   "note": "With at most one click per frame; two in one frame are the refutation."
  },
  {
   "property": "C91",
   "status": "proved",
   "theorems": [
    "C91_inside",
    "C91_half_distance_refuted"
   ],
   "note": "Inside the polygon, or within a 32nd of a cell of a side; the distance from the sides that the code means to keep is refuted."
  },
  {
   "property": "C82",
   "status": "proved",
   "theorems": [
    "C82_contours_match",
    "C82_regions_joined",
    "C82_pinched_refuted"
   ],
   "note": "For even common boundaries (one floor at each corner, nothing wedged in); false without, as the refutation shows."
  },
  {
   "property": "C81",
   "status": "proved",
   "theorems": [
    "C81_backends",
    "C81_no_panic",
    "C81_last_backend",
    "C81_editor_build",
    "C81_mesh_build",
    "C81_areas_refuted"
   ],
   "note": "Entities come in the order of a list; parry tessellation and the effect of a transform on points are arbitrary functions."
  },
  {
   "property": "C80",
   "status": "proved",
   "theorems": [
    "C80_chain",
    "C80_regions_hang_together",
    "C80_across",
    "C80_stacked_refuted"
   ],
   "note": "Contours as in C51; that no directed edge occurs twice is a hypothesis on the mesh, and the refutation shows that it is needed."
  },
  {
   "property": "C79",
   "status": "proved",
   "theorems": [
    "C79_no_panic",
    "C79_follows",
    "C79_after_load",
    "C79_load_refuted"
   ],
   "note": "Change detection is modelled by flags: whether a run condition sees a change. Builds and scenes are those that can be drawn (C78)."
  },
  {
   "property": "C78",
   "status": "proved",
   "theorems": [
    "C78_polygon_mesh",
    "C78_detail_mesh",
    "C78_built",
    "C78_affectors"
   ],
   "note": "Meshes need fewer than 2^32 surface vertices. Built meshes: sizes as in C71, fewer than 65535 corners, at most 32767 vertices per polygon."
  },
  {
   "property": "C77",
   "status": "proved",
   "theorems": [
    "C77_room_is_covered",
    "C77_room_has_polygons",
    "C77_tall_agents_get_nothing",
    "C77_tall_agents_refuted",
    "C77_capped_clearance_refuted"
   ],
   "note": "For builds that succeed within the sizes of `moderate` and fewer than 32764 spans."
  },
  {
   "property": "C76",
   "status": "proved",
   "theorems": [
    "C76_boundaries_enclose",
    "C76_every_span_enclosed",
    "C76_every_region_refuted"
   ],
   "note": "For runs that do not panic; when they may is C34."
  },
  {
   "property": "C75",
   "status": "proved",
   "theorems": [
    "C75_portals"
   ],
   "note": "Neighbours are polygon indices as C38, C51 and C64 say."
  },
  {
   "property": "C74",
   "status": "proved",
   "theorems": [
    "C74_only_small_patches_lost",
    "C74_all_walkable_covered",
    "C74_zero_distance_no_regions",
    "C74_from_distances",
    "C74_thin_floors_vanish",
    "C74_every_floor_covered_refuted"
   ],
   "note": "Statement for fields of fewer than 32764 spans; above that region ids are ambiguous (C28)."
  },
  {
   "property": "C73",
   "status": "proved",
   "theorems": [
    "C73_scene",
    "C73_unreadable",
    "C73_empty",
    "C73_nothing_walkable_panics",
    "C73_ceiling_without_floor_refuted"
   ],
   "note": "The last sentence is refuted: without walkable triangles the build always panics."
  }
 ]
}