{
 "claims": [
  {
   "property": "C01",
   "status": "proved",
   "theorems": [
    "C01_notifications",
    "C01_each_notification",
    "C01_terminates",
    "C01_start_rejected"
   ],
   "note": "All runs of the storyboard state machine for every well-formed tree, trigger and action behaviour; termination of the recursion also proved. Ghost restart (Event::Reset(STANDBY) from ScenarioEngine) not modelled."
  },
  {
   "property": "C02",
   "status": "proved",
   "theorems": [
    "C02_stop",
    "C02_stop_trigger"
   ],
   "note": "From arbitrary (also unreachable) state combinations; includes termination of Stop."
  },
  {
   "property": "C03",
   "status": "proved",
   "theorems": [
    "C03_counter",
    "C03_bound",
    "C03_complete_iff",
    "C03_unlimited",
    "C03_fresh_count_refuted"
   ],
   "note": "Bound per period between re-armings from outside, completion exactly at the limit, unlimited never completes by ending. Counter is not reset by an enclosing maneuver group (C03_fresh_count_refuted)."
  },
  {
   "property": "C04",
   "status": "proved",
   "theorems": [
    "C04_reachable",
    "C04_skip_blocked",
    "C04_skip_starts",
    "C04_overwrite",
    "C04_parallel",
    "C04_others_unaffected",
    "C04_terminates"
   ],
   "note": "Stated for all worlds satisfying the invariant Inv, which every run satisfies (C04_reachable). 'Unaffected' for parallel means: running actions that do not share a control domain on the same object, and their events, keep running."
  },
  {
   "property": "C05",
   "status": "proved",
   "theorems": [
    "C05_event",
    "C05_run",
    "C05_lamps",
    "C05_init_actions_refuted"
   ],
   "note": "For every started event, and for every run when the init actions do not conflict among themselves; without that assumption refuted (init actions are started unchecked)."
  },
  {
   "property": "C06",
   "status": "partial",
   "theorems": [
    "C06_double_complements",
    "C06_double_meaning",
    "C06_double_trichotomy_partial",
    "C06_double_exclusive",
    "C06_double_trichotomy_refuted",
    "C06_float_complements",
    "C06_float_nan",
    "C06_int",
    "C06_string",
    "C06_bool",
    "C06_int_meaning",
    "C06_string_meaning",
    "C06_bool_meaning"
   ],
   "note": "laws of total order for int/string/bool proved in full; double rules: complements, meaning, exclusiveness proved, completeness of the three-way split fails exactly at |a-b|=tolerance (refuted with witness)"
  },
  {
   "property": "C07",
   "status": "proved",
   "theorems": [
    "C07_edge",
    "C07_callback"
   ],
   "note": "all histories of evaluations, firings and resets, delay 0, evaluation times at least 1e-6 apart"
  },
  {
   "property": "C08",
   "status": "proved",
   "theorems": [
    "C08_delay",
    "C08_delay_fixed_step",
    "C08_delay_exact_refuted",
    "C08_same_time_oob_refuted",
    "C08_restart_sorted_refuted"
   ],
   "note": "exact for fixed time steps; for variable steps the exact law (value at t-d or rise that became due) is proved and the naive law refuted; same-time evaluation and ghost restart defects refuted"
  },
  {
   "property": "C09",
   "status": "proved",
   "theorems": [
    "C09_trigger_value",
    "C09_trigger_run",
    "C09_delayed_always_evaluated",
    "C09_edge_order_refuted"
   ],
   "note": "single evaluation for all conditions; whole runs for conditions without edge, any delays; order dependence with edges refuted"
  },
  {
   "property": "C10",
   "status": "partial",
   "theorems": [
    "C10_simple_any",
    "C10_simple_all",
    "C10_headway_ttc_any",
    "C10_collision_endofroad_any",
    "C10_reach_any",
    "C10_standstill_offroad_any",
    "C10_clearance_all",
    "C10_clearance_any_partial",
    "C10_clearance_any_refuted",
    "C10_sticky_all_partial",
    "C10_sticky_all_refuted",
    "C10_reach_all_refuted",
    "C10_duration_all_refuted",
    "C10_headway_ttc_all_partial",
    "C10_headway_ttc_order_refuted"
   ],
   "note": "any: proved for all entity conditions (relative clearance needs at least one compared object per entity, else refuted); all: proved for distance/speed/acceleration/angle/traveled distance/relative clearance, refuted with witnesses for reach position, collision, end of road, stand still, off road and order dependence of headway/TTC"
  },
  {
   "property": "C11",
   "status": "partial",
   "theorems": [
    "C11_restore",
    "C11_restore_with_sets",
    "C11_only_declarations_fail",
    "C11_shadow",
    "C11_outer_visible",
    "C11_story_partial",
    "C11_story_keeps_outer_partial",
    "C11_story_refuted",
    "C11_story_route_refuted",
    "C11_shadow_modified_refuted"
   ],
   "note": "API level: any balanced nesting restores exactly. Scenario reader: proved for stories without inner declarations and that outer declarations are never lost; refuted in general (maneuver/route declarations make story declarations leak), and shadowing refuted for modified outer parameters."
  },
  {
   "property": "C12",
   "status": "proved",
   "theorems": [
    "C12_set_get",
    "C12_set_get_text",
    "C12_text_of_typed",
    "C12_success",
    "C12_reject",
    "C12_frame",
    "C12_refines_map",
    "C12_by_string",
    "C12_by_string_frame",
    "C12_by_string_unknown"
   ],
   "note": "Refinement to a partial map for every history of sets; doubles idealised as rationals, text conversions arbitrary functions."
  },
  {
   "property": "C13",
   "status": "proved",
   "theorems": [
    "C13_enumeration",
    "C13_application_runs_all",
    "C13_application_single",
    "C13_overflow_refuted"
   ],
   "note": "Under: each distribution non-empty, number of combinations < 2^31; beyond that refuted (wrap-around)."
  },
  {
   "property": "C14",
   "status": "proved",
   "theorems": [
    "C14_index_in_range",
    "C14_set_rejected",
    "C14_request_rejected",
    "C14_increment",
    "C14_empty_distribution_refuted"
   ],
   "note": "Under: everything loaded non-empty and below 2^31 combinations; refuted for an empty distribution loaded on top (division by zero)."
  },
  {
   "property": "C15",
   "status": "proved",
   "theorems": [
    "C15_packets",
    "C15_file",
    "C15_scalars",
    "C15_string",
    "C15_vector",
    "C15_arguments",
    "C15_vector_not_last_refuted"
   ],
   "note": "Byte level model; C15_vector_not_last_refuted documents a limit of the variadic writer that no caller hits."
  },
  {
   "property": "C16",
   "status": "partial",
   "theorems": [
    "C16_unknown_packets",
    "C16_unknown_delimited",
    "C16_longer_payload",
    "C16_shorter_payload",
    "C16_cut_field",
    "C16_header_extension",
    "C16_major_refused",
    "C16_short_tail",
    "C16_truncated_value",
    "C16_truncated_refuted",
    "C16_short_string_refuted",
    "C16_unknown_first_refuted"
   ],
   "note": "Byte level and packet level: unknown packets anywhere after the first time stamp, longer and shorter payloads, header extensions. Refuted: truncated last packet is zero filled, short string packet read outside the buffer, unknown packet before the first time stamp is undefined behaviour."
  },
  {
   "property": "C17",
   "status": "partial",
   "theorems": [
    "C17_replay",
    "C17_file",
    "C17_queries",
    "C17_active_iff_alive",
    "C17_tracked_plain",
    "C17_sim_int",
    "C17_sim_string",
    "C17_sim_near",
    "C17_colour_change_refuted",
    "C17_stale_value_refuted",
    "C17_empty_name_refuted",
    "C17_no_dt_refuted",
    "C17_empty_refuted"
   ],
   "note": "Proved from recorder calls through file bytes to reader time lines and their queries, for every history of distinct ids and increasing times, for every tracked field; exactly the alive objects are active. Refuted: colour and outline changes, sentinel values after re-adding, empty names, recordings without a non-zero step, empty recordings. Ghost restarts are not modelled."
  },
  {
   "property": "C18",
   "status": "proved",
   "theorems": [
    "C18_context",
    "C18_blocks",
    "C18_only_changes"
   ],
   "note": "All sequences of recorder steps; C18_only_changes also states that a field packet is emitted exactly when the field differs from the cache."
  },
  {
   "property": "C19",
   "status": "partial",
   "theorems": [
    "C19_history_independent",
    "C19_value_unique",
    "C19_empty",
    "C19_close_times_refuted",
    "C19_binary_partial",
    "C19_binary_past_end",
    "C19_binary_refuted"
   ],
   "note": "Incremental lookup proved for time lines with entries at least two tolerances apart; refuted without. Binary search proved except at/after the last entry, where it returns the last but one value."
  },
  {
   "property": "C20",
   "status": "partial",
   "theorems": [
    "C20_index_valid",
    "C20_time_in_window",
    "C20_window_change",
    "C20_next_previous",
    "C20_play_visits_frames",
    "C20_play_after_jump_refuted",
    "C20_nearest_refuted"
   ],
   "note": "Index validity, window, next/previous and playing proved. Refuted: playing after a jump between frames skips a frame, nearest-frame request leaves the window."
  },
  {
   "property": "C21",
   "status": "proved",
   "theorems": [
    "C21_total",
    "C21_same_place",
    "C21_canonical",
    "C21_idempotent",
    "C21_fixed",
    "C21_complete"
   ],
   "note": "All strings; meaning preserved in every directory tree, canonical form, idempotent, complete (equal meaning implies equal normal form)."
  },
  {
   "property": "C22",
   "status": "proved",
   "theorems": [
    "C22_join",
    "C22_unique",
    "C22_quoted",
    "C22_quoted_terminates",
    "C22_csv",
    "C22_quoted_refuted",
    "C22_csv_refuted"
   ],
   "note": "SplitString proved. SplitQuotedString drops unquoted text before a quoted word and a CSV row drops a trailing empty field (refuted variants)."
  },
  {
   "property": "C23",
   "status": "proved",
   "theorems": [
    "C23_interval_2pi",
    "C23_interval_pm_pi",
    "C23_unique",
    "C23_sum",
    "C23_difference",
    "C23_abs_difference",
    "C23_forward",
    "C23_vector_angle",
    "C23_vector_angle_refuted"
   ],
   "note": "Exact reals. Proved: ranges, congruence, minimality and symmetry of differences, uniqueness of normal forms, forward test, vector angle. GetAngleOfVector of a (nearly) vertical vector is tilted by its guard against x=0 (refuted theorem)."
  },
  {
   "property": "C24",
   "status": "partial",
   "theorems": [
    "C24_plane_compose",
    "C24_plane_inverse",
    "C24_plane_length",
    "C24_axes",
    "C24_inverse",
    "C24_inverse_bound",
    "C24_inverse_refuted",
    "C24_length",
    "C24_local_global",
    "C24_global_local",
    "C24_same_heading_refuted"
   ],
   "note": "Exact cancellation holds for orientations outside the gimbal guard (C24_inverse) and fails inside it (C24_inverse_refuted); for all angles the error is bounded (C24_inverse_bound). Length preservation of RotateVec3d likewise outside the guard. 2D statements hold without restriction."
  },
  {
   "property": "C25",
   "status": "partial",
   "theorems": [
    "C25_inverse",
    "C25_success",
    "C25_complete_refuted",
    "C25_product"
   ],
   "note": "Soundness proved; success characterised exactly (leading minors non-zero); completeness is false: an invertible matrix is refused (C25_complete_refuted)."
  },
  {
   "property": "C26",
   "status": "partial",
   "theorems": [
    "C26_reading",
    "C26_parse",
    "C26_own_values",
    "C26_flag",
    "C26_single",
    "C26_multi",
    "C26_write",
    "C26_defaults",
    "C26_no_default_option",
    "C26_swallowed_refuted",
    "C26_repeated_refuted",
    "C26_unknown_value_refuted",
    "C26_undeclared_refuted",
    "C26_extra_refuted"
   ],
   "note": "Proved: unique reading of every argument vector, exact effect on every option, closed forms for flags, single and multiple values, write/read, defaults. False parts: a positional argument after an option value replaces the value, repeating an option without value unsets it, the value of an unknown option becomes the default argument, undeclared known names and extra positional arguments are not reported."
  },
  {
   "property": "C27",
   "status": "proved",
   "theorems": [
    "C27_move",
    "C27_distance",
    "C27_rank",
    "C27_inverse",
    "C27_antisymmetric",
    "C27_additive",
    "C27_range",
    "C27_centre_refuted"
   ],
   "note": "All integers. From the centre lane itself the two operations are not inverse (C27_centre_refuted), which the property does not claim."
  },
  {
   "property": "C28",
   "status": "partial",
   "theorems": [
    "C28_width",
    "C28_records",
    "C28_order",
    "C28_road_type",
    "C28_material",
    "C28_material_refuted",
    "C28_lane_offset",
    "C28_no_lane_offset",
    "C28_lane_offset_ahead_refuted",
    "C28_lane_offset_order_refuted",
    "C28_elevation",
    "C28_elevation_near",
    "C28_roll",
    "C28_roll_near",
    "C28_roll_refuted",
    "C28_elevation_refuted",
    "C28_elevation_order_refuted"
   ],
   "note": "Widths, heights, road marks, road types, speeds: all insertion orders. Materials: starts at least 1e-6 apart. Lane offset, elevation and roll: records declared in ascending order (other orders refuted); within 1e-6 before a start (elevation) or at a start (roll) the result depends on the previous lookup (refuted); before the first lane offset record the value is not that of the spec (refuted)."
  },
  {
   "property": "C29",
   "status": "proved",
   "theorems": [
    "C29_width",
    "C29_missing",
    "C29_lanes",
    "C29_outer",
    "C29_next",
    "C29_first",
    "C29_breadth",
    "C29_centre",
    "C29_disjoint",
    "C29_ordered",
    "C29_inside",
    "C29_offset",
    "C29_adjacent",
    "C29_width_between",
    "C29_width_between_refuted"
   ],
   "note": "Missing lanes count as width 0. Exact rationals."
  },
  {
   "property": "C30",
   "status": "partial",
   "theorems": [
    "C30_stored",
    "C30_first_hint",
    "C30_any_hint",
    "C30_unique",
    "C30_none",
    "C30_at_start",
    "C30_boundary_refuted"
   ],
   "note": "Proved for every s that is not the start of a section, and for every s from hint 0; at a section start the exact dependence on the hint is proved (C30_at_start) and independence refuted."
  },
  {
   "property": "C31",
   "status": "partial",
   "theorems": [
    "C31_to_end",
    "C31_to_start",
    "C31_further",
    "C31_back",
    "C31_intermediate_refuted"
   ],
   "note": "Proved for traversals to either end of the road; for targets in between the links actually followed are characterised exactly (C31_further, C31_back) and the property is refuted."
  },
  {
   "property": "C32",
   "status": "partial",
   "theorems": [
    "C32_number",
    "C32_distinct",
    "C32_room",
    "C32_strings",
    "C32_kept",
    "C32_conflict",
    "C32_lookup",
    "C32_lookup_junction",
    "C32_roundtrip",
    "C32_index",
    "C32_generate",
    "C32_max_refuted",
    "C32_repeated_refuted",
    "C32_on_top_refuted",
    "C32_digits"
   ],
   "note": "Distinct, kept and found again for all id lists that leave room for the new ids (C32_room) or whose result does not contain the reserved id; refuted for the maximal id, for a repeated numeric id string and for loading a file on top of another."
  },
  {
   "property": "C33",
   "status": "partial",
   "theorems": [
    "C33_start",
    "C33_same",
    "C33_unknown",
    "C33_total",
    "C33_route",
    "C33_shortest_partial",
    "C33_none_partial",
    "C33_shortest_refuted",
    "C33_null_refuted",
    "C33_rounds_refuted",
    "C33_twice_refuted",
    "C33_sign_refuted",
    "C33_lane_refuted"
   ],
   "note": "Proved: on consistent networks (links and junction connections refer to existing roads and tell the end) the search ends without null access; a distance found is the length of a route over connected roads and lanes, with the stated sign; no route gets to the target road earlier (if lanes reaching a road end continue alike), so the distance is at most the shortest plus the target road's length and is the shortest among routes entering at the same end; if nothing is found, no route exists within maxDist or 100 rounds were used. Refuted with witnesses: shortest when the other end of the target road is closer; null dereference on a dangling link; chain of 102 roads; target reached by two connections (rest added twice); sign differs between own road and other roads; a lane hidden by an earlier visit in another lane."
  },
  {
   "property": "C34",
   "status": "partial",
   "theorems": [
    "C34_place_partial",
    "C34_outside_partial",
    "C34_equal",
    "C34_nearest",
    "C34_lookup",
    "C34_roundtrip_partial",
    "C34_moves_partial",
    "C34_kept",
    "C34_direction",
    "C34_replace_partial",
    "C34_added_partial",
    "C34_moves_refuted",
    "C34_forward_refuted",
    "C34_last_refuted",
    "C34_past_refuted",
    "C34_twice_refuted",
    "C34_replace_length_refuted",
    "C34_replace_same_refuted",
    "C34_removed_refuted",
    "C34_lost",
    "C34_empty",
    "C34_in_range",
    "C34_nowhere",
    "C34_replace_few",
    "C34_second",
    "C34_same_road",
    "C34_other_road",
    "C34_invalid",
    "C34_no_way",
    "C34_valid"
   ],
   "note": "Proved: the place for a path length within a chained route, codes outside, lookup of a place on a road with one waypoint, round trip, sum of moves with a lookup in between for routes along the road directions, waypoint directions, replaced and added waypoints. Missing: moves on roads driven against their direction, roads with several waypoints, routes ending at s=0 of a reversed road and waypoints taken away again, where witnesses show the property fails."
  },
  {
   "property": "C35",
   "status": "partial",
   "theorems": [
    "C35_total",
    "C35_empty",
    "C35_end",
    "C35_segment",
    "C35_hint_partial",
    "C35_vertex",
    "C35_before",
    "C35_ahead",
    "C35_build",
    "C35_add",
    "C35_reset",
    "C35_time_total_partial",
    "C35_time_few",
    "C35_time_prior",
    "C35_time_past",
    "C35_time_segment",
    "C35_time_vertex",
    "C35_time_range",
    "C35_time_monotone_partial",
    "C35_time_point",
    "C35_time_relative",
    "C35_angle_segment",
    "C35_angle_none",
    "C35_angle_corner",
    "C35_angle_last",
    "C35_angle_straight",
    "C35_hint_refuted",
    "C35_clamp_refuted",
    "C35_time_total_refuted",
    "C35_time_monotone_refuted",
    "C35_time_start_refuted",
    "C35_time_relative_refuted",
    "C35_reset_refuted"
   ],
   "note": "Interpolation on the segment containing s, vertices, both ends, lookup ahead, building, angle modes, time lookup exact at vertices and in range. Index independence fails exactly SMALL past a vertex, monotonicity just before a vertex, the time lookup leaves the array exactly SMALL before the last vertex, s is not clamped before the start: refuted with witnesses, proved outside these values."
  },
  {
   "property": "C36",
   "status": "proved",
   "theorems": [
    "C36_closest",
    "C36_filter",
    "C36_distance",
    "C36_round_trip",
    "C36_lane_to_track",
    "C36_force_lane"
   ],
   "note": "Exact rationals; the round trip needs non-negative widths and the section index of the position to be the one found for its s."
  },
  {
   "property": "C37",
   "status": "partial",
   "theorems": [
    "C37_terminates",
    "C37_substitution",
    "C37_terminates_refuted"
   ],
   "note": "Holds when no parameter value contains '$'; otherwise may not terminate (refuted)."
  },
  {
   "property": "C38",
   "status": "partial",
   "theorems": [
    "C38_range_terminates",
    "C38_range_values",
    "C38_range_terminates_refuted",
    "C38_load_partial",
    "C38_load_refuted"
   ],
   "note": "Ranges: proved for positive step (exact arithmetic), non-termination for step <= 0. Load: contents are those of the file only after reset; refuted otherwise."
  },
  {
   "property": "C39",
   "status": "proved",
   "theorems": [
    "C39_replace",
    "C39_clean_subset",
    "C39_clean_last",
    "C39_clean_separates"
   ],
   "note": ""
  },
  {
   "property": "C40",
   "status": "partial",
   "theorems": [
    "C40_dir_file",
    "C40_file",
    "C40_plain",
    "C40_extension",
    "C40_extension_refuted"
   ],
   "note": "Proved except that the extension functions look for the last dot in the whole path, so with a dot in the directory part only the extension is wrong (refuted)."
  },
  {
   "property": "C41",
   "status": "proved",
   "theorems": [
    "C41_found",
    "C41_not_found",
    "C41_total",
    "C41_paths",
    "C41_absolute",
    "C41_relative",
    "C41_empty_directory"
   ],
   "note": "File existence is an arbitrary predicate."
  },
  {
   "property": "C42",
   "status": "partial",
   "theorems": [
    "C42_compose",
    "C42_range",
    "C42_zyz",
    "C42_relative",
    "C42_relative_refuted"
   ],
   "note": "Proved away from the guard around singularities; at an exact quarter turn of the road the statement is false in exact arithmetic (C42_relative_refuted)."
  },
  {
   "property": "C43",
   "status": "partial",
   "theorems": [
    "C43_intersection",
    "C43_parallel",
    "C43_segments_refuted",
    "C43_circle",
    "C43_circle_undefined",
    "C43_tangent_refuted",
    "C43_between",
    "C43_projection",
    "C43_edge",
    "C43_edge_any",
    "C43_line",
    "C43_signed",
    "C43_signed_defined",
    "C43_with_angle",
    "C43_line3",
    "C43_vector_projection",
    "C43_signed_length",
    "C43_signed_angle",
    "C43_angle",
    "C43_angle3",
    "C43_cross",
    "C43_normalize",
    "C43_normalize3",
    "C43_offset",
    "C43_sector"
   ],
   "note": "Exact reals. Proved for non-degenerate inputs (end points apart by the tolerance; the segment distance for all inputs up to twice the tolerance). False parts: segment intersection ignores the extent of the segments, near-tangent lines count as one hit, undefined results of the circle intersection are characterised exactly."
  },
  {
   "property": "C44",
   "status": "proved",
   "theorems": [
    "C44_get",
    "C44_value",
    "C44_set",
    "C44_set_flag",
    "C44_latest",
    "C44_early",
    "C44_unset",
    "C44_clear",
    "C44_change",
    "C44_reset",
    "C44_reset_lists"
   ],
   "note": ""
  },
  {
   "property": "C45",
   "status": "partial",
   "theorems": [
    "C45_inside",
    "C45_ahead",
    "C45_behind",
    "C45_replacement",
    "C45_offset_refuted"
   ],
   "note": "Sections passed (with the tolerance of 1e-6 going forward), links followed and the report are exact. The replacement lane is the closest one when there is no lane offset; refuted with a lane offset."
  },
  {
   "property": "C46",
   "status": "partial",
   "theorems": [
    "C46_none",
    "C46_between",
    "C46_last",
    "C46_across",
    "C46_bounds",
    "C46_ahead_refuted",
    "C46_no_width",
    "C46_zero_width"
   ],
   "note": "Proved from the first entry on; refuted ahead of the first entry (extrapolation); undefined without width entries or at zero width."
  },
  {
   "property": "C47",
   "status": "proved",
   "theorems": [
    "C47_left",
    "C47_right",
    "C47_both",
    "C47_outmost",
    "C47_driving_lanes",
    "C47_driving",
    "C47_driving_sum",
    "C47_empty"
   ],
   "note": "For sections with a centre lane; a road without sections is undefined behaviour (C47_empty)."
  },
  {
   "property": "C48",
   "status": "partial",
   "theorems": [
    "C48_polynomial",
    "C48_scale_refuted",
    "C48_total",
    "C48_boundary"
   ],
   "note": "Proved for polynomials with scale 1 (all that a road file declares); the scale factor is missing in the slope otherwise (refuted). The boundary theorem assumes every lane up to the one asked for to exist."
  },
  {
   "property": "C49",
   "status": "proved",
   "theorems": [
    "C49_enumerate",
    "C49_links",
    "C49_beyond",
    "C49_roads",
    "C49_connected",
    "C49_connected_lane",
    "C49_lane",
    "C49_lane_first",
    "C49_across",
    "C49_across_found",
    "C49_contact_refuted",
    "C49_lane_ignored_refuted",
    "C49_ends"
   ],
   "note": "All enumeration and lookup laws; C49_contact_refuted shows that the contact point is written even when no connection for the lane is found, C49_lane_ignored_refuted that the lane is not checked on a direct road link."
  },
  {
   "property": "C50",
   "status": "partial",
   "theorems": [
    "C50_polyline",
    "C50_defined",
    "C50_follow",
    "C50_position_partial",
    "C50_past",
    "C50_follow_place",
    "C50_position_place_partial",
    "C50_by_distance",
    "C50_by_distance_past",
    "C50_by_distance_between",
    "C50_no_vertices",
    "C50_direction",
    "C50_mode",
    "C50_stop_refuted",
    "C50_single_refuted",
    "C50_equal_times_refuted",
    "C50_last_speed_refuted",
    "C50_negative_speed_refuted",
    "C50_stale_acceleration_refuted",
    "C50_standstill",
    "C50_by_distance_index"
   ],
   "note": "Proved for vertices apart in time and place; stops in mode follow, single vertices, equal times, negative initial speeds and recalculation in the other mode refuted with witnesses."
  },
  {
   "property": "C51",
   "status": "partial",
   "theorems": [
    "C51_off",
    "C51_filter",
    "C51_ends",
    "C51_times",
    "C51_vertices",
    "C51_spaced",
    "C51_stop",
    "C51_apart",
    "C51_turn_refuted",
    "C51_last_refuted",
    "C51_drift_refuted",
    "C51_same"
   ],
   "note": "Proved against a functional specification of the in-place loop for all lists; headings are compared with sign, so a turn to one side is left out (refuted)."
  },
  {
   "property": "C52",
   "status": "partial",
   "theorems": [
    "C52_moved",
    "C52_one_link",
    "C52_one_link_reversed",
    "C52_total",
    "C52_unique",
    "C52_add_partial",
    "C52_back_partial",
    "C52_dead_end",
    "C52_enter_road",
    "C52_enter_junction",
    "C52_direction",
    "C52_distance",
    "C52_distance_refuted",
    "C52_angle",
    "C52_angle_near_partial",
    "C52_angle_tolerance_refuted",
    "C52_route",
    "C52_limit_refuted",
    "C52_offset_repeated_refuted",
    "C52_offset_sign_refuted",
    "C52_gap_refuted",
    "C52_bad_link_refuted",
    "C52_error_moves_refuted",
    "C52_centre_refuted",
    "C52_end_status",
    "C52_lane_index",
    "C52_off_road_refuted"
   ],
   "note": "Where every move ends, for all networks and choices (C52_moved); no null pointer if every lane section has a centre lane; determinism, sums and ways back where there is one way on and fewer than 8 links; exact lane, side and heading when entering a road. Refuted: silent stop after 8 links, repeated and wrongly signed lane offset changes, missing or wrong lane links, position after errors."
  },
  {
   "property": "C53",
   "status": "partial",
   "theorems": [
    "C53_curve",
    "C53_endpoints",
    "C53_between",
    "C53_monotone",
    "C53_not_early",
    "C53_derivative",
    "C53_peak",
    "C53_by_peak",
    "C53_rate",
    "C53_max_rate",
    "C53_step_add",
    "C53_step_range",
    "C53_step_shape",
    "C53_speed_start",
    "C53_speed_follow",
    "C53_speed_arrive",
    "C53_speed_ends",
    "C53_speed_limits",
    "C53_speed_overridden",
    "C53_speed_distance",
    "C53_speed_turn",
    "C53_speed_restart",
    "C53_speed_restart_refuted",
    "C53_speed_distance_refuted",
    "C53_speed_divzero_refuted",
    "C53_speed_zero_rate_refuted",
    "C53_speed_step_shape_refuted",
    "C53_speed_zero_step_refuted",
    "C53_relative",
    "C53_relative_none",
    "C53_offset_start",
    "C53_offset_acc",
    "C53_offset_step",
    "C53_offset_run",
    "C53_change_way",
    "C53_change_distance",
    "C53_change_between",
    "C53_change_linear_partial",
    "C53_change_jump_refuted",
    "C53_scaled",
    "C53_linear_extent",
    "C53_speed_same"
   ],
   "note": "Shapes, derivative, peak, extent by rate and by peak, scaling to a maximal rate; speed action: start, exact following for all step sequences, arrival, end, acceleration limits per step, distance, restart; lane offset: lateral acceleration, heading, end; lane change: way of the step. Over real numbers. Refuted: restart and limited target with a distance, division by zero for tiny opposite speeds, rate 0 never ends, step shape and zero steps ignore the limits, the lane change jumps when it falls back to the linear shape. Missing: the fall back of the lane change with other shapes (it jumps), LatLaneChangeAction::Start."
  },
  {
   "property": "C54",
   "status": "partial",
   "theorems": [
    "C54_activation_per_domain",
    "C54_activation_keeps_identity",
    "C54_activation_alignment",
    "C54_activation_null_object",
    "C54_activation_defined",
    "C54_deactivation_per_domain",
    "C54_deactivation_alignment",
    "C54_deactivation_keeps_identity",
    "C54_deactivation_null_object",
    "C54_deactivation_all",
    "C54_domain_masks",
    "C54_query_on_domains",
    "C54_query_on_any",
    "C54_query_on_none",
    "C54_query_on_only",
    "C54_query_active",
    "C54_active_within_operating",
    "C54_assigned_once",
    "C54_identity_kept",
    "C54_object_active_on_domains",
    "C54_object_active_on_any",
    "C54_object_mode_on_domains",
    "C54_object_mode_on_any",
    "C54_object_controller_of_type",
    "C54_object_controller_on_domain",
    "C54_object_query_by_type_refuted",
    "C54_object_active_jointly_refuted",
    "C54_assignment",
    "C54_assignment_order",
    "C54_removal",
    "C54_removal_fails",
    "C54_removal_follow_route_refuted",
    "C54_removal_of_all",
    "C54_removal_of_all_fails",
    "C54_removal_of_all_unlinks_refuted",
    "C54_assignment_to_one_object_refuted",
    "C54_delete_object_with_controllers_refuted",
    "C54_delete_object_without_controllers",
    "C54_activate_action_starts",
    "C54_activate_action_new",
    "C54_activate_action_old",
    "C54_activate_action_exclusive_new",
    "C54_activate_action_exclusive_old",
    "C54_activate_action_exclusive_new_refuted",
    "C54_activate_action_exclusive_old_refuted",
    "C54_activate_action_again_refuted",
    "C54_assign_action",
    "C54_assign_action_requested_partial",
    "C54_assign_action_requested_refuted",
    "C54_assign_action_longitudinal_refuted",
    "C54_assign_action_exclusive_refuted",
    "C54_assign_action_fails"
   ],
   "note": "Activation, queries, assignment, removal and the two actions are characterised for all states and all sequences. One controller per domain fails: the exact condition under which the activation action keeps it is proved for both version ranges, with witnesses against it; the assignment action swaps lateral and longitudinal requests (partial when they agree); deleting an object with controllers is always undefined. Not covered: the own state of the derived controllers, the Sumo and R157SM controllers."
  },
  {
   "property": "C55",
   "status": "partial",
   "theorems": [
    "C55_step",
    "C55_run",
    "C55_once",
    "C55_active",
    "C55_ids",
    "C55_trailer_listed",
    "C55_no_dangling",
    "C55_ids_grow",
    "C55_activate",
    "C55_deactivate",
    "C55_activate_any",
    "C55_deactivate_any",
    "C55_activate_again",
    "C55_deactivate_again",
    "C55_convoy_parted_refuted",
    "C55_convoy_stays_parted_refuted",
    "C55_add",
    "C55_add_hooked",
    "C55_add_too_many",
    "C55_add_limit",
    "C55_added_twice_refuted",
    "C55_remove",
    "C55_remove_one",
    "C55_remove_by",
    "C55_remove_circle",
    "C55_removed_trailer_dangles_refuted",
    "C55_removed_tow_dangles_refuted",
    "C55_removed_from_pool_refuted",
    "C55_by_id",
    "C55_by_none",
    "C55_by_some",
    "C55_by_active_first",
    "C55_index",
    "C55_name_exists",
    "C55_index_exists_refuted",
    "C55_connect",
    "C55_disconnect",
    "C55_disconnect_none",
    "C55_connect_none",
    "C55_connect_same",
    "C55_connect_others",
    "C55_two_tows_refuted",
    "C55_half_connected_refuted",
    "C55_copy",
    "C55_copy_shares_hitch_refuted"
   ],
   "note": "Proved for all runs of operations under stated conditions of the caller (adding unlisted chains, removing whole active chains nobody tows); the unconditional statement is refuted with witnesses: dangling pointers after removal of trailers, tows or pooled objects, trailer circles, two tows, half connections, shared hitches of copies, convoys parted, inverted indexExists."
  },
  {
   "property": "C56",
   "status": "partial",
   "theorems": [
    "C56_distance",
    "C56_distance_thin",
    "C56_overlap",
    "C56_symmetric",
    "C56_lateral",
    "C56_longitudinal",
    "C56_inside",
    "C56_nobody",
    "C56_collides",
    "C56_compact",
    "C56_collision_only",
    "C56_collision_symmetric",
    "C56_collision_distance",
    "C56_point",
    "C56_point_distance",
    "C56_point_components",
    "C56_rough_refuted",
    "C56_bridge_refuted"
   ],
   "note": "Collision as specified holds for boxes that reach no further from the position than their length; the rough check fails for others (C56_rough_refuted) and the distance ignores height (C56_bridge_refuted)."
  },
  {
   "property": "C57",
   "status": "partial",
   "theorems": [
    "C57_pairs",
    "C57_gap",
    "C57_sign",
    "C57_alone",
    "C57_towed_target_refuted",
    "C57_point",
    "C57_road",
    "C57_road_kinds",
    "C57_no_system",
    "C57_road_object",
    "C57_road_point",
    "C57_positions",
    "C57_trajectory",
    "C57_trajectory_lateral_refuted",
    "C57_point_trajectory_refuted",
    "C57_unset_refuted",
    "C57_headway",
    "C57_headway_none",
    "C57_ttc",
    "C57_ttc_line",
    "C57_ttc_meets",
    "C57_ttc_standing_refuted",
    "C57_ttc_nobody",
    "C57_road_trailers_refuted",
    "C57_road_inside_refuted",
    "C57_point_road_refuted"
   ],
   "note": "Road trains, signs, points, positions, headway and time to collision on a line as specified, with at most 100 pairs of parts. Refuted: asking for the distance to a trailer never returns (C57_towed_target_refuted), along the road trailers of the target are ignored (C57_road_trailers_refuted), vehicles beside each other may be at a distance along the road (C57_road_inside_refuted, C57_point_road_refuted), success without a result (C57_unset_refuted), trajectory coordinates (C57_trajectory_lateral_refuted, C57_point_trajectory_refuted), a standing vehicle (C57_ttc_standing_refuted)."
  },
  {
   "property": "C58",
   "status": "partial",
   "theorems": [
    "C58_key",
    "C58_answer",
    "C58_measured",
    "C58_measured_near",
    "C58_squared_refuted",
    "C58_second_refuted",
    "C58_starved_refuted",
    "C58_far"
   ],
   "note": "Keys, when an answer is measured now, and that every other value was measured by an earlier query are proved for all runs; refuted: the absolute distance of far objects is its square, at time 0 the second of two objects asking gets 10000, and a second kind of distance asked for at every step is never measured."
  },
  {
   "property": "C59",
   "status": "partial",
   "theorems": [
    "C59_closest",
    "C59_seen",
    "C59_freespace",
    "C59_freespace_behind",
    "C59_freespace_behind_refuted",
    "C59_gap",
    "C59_free",
    "C59_follow",
    "C59_closer",
    "C59_speed",
    "C59_rates",
    "C59_max",
    "C59_max_refuted",
    "C59_separate",
    "C59_target",
    "C59_abort",
    "C59_deaf_refuted",
    "C59_standing_refuted",
    "C59_route_refuted",
    "C59_start_refuted",
    "C59_late_refuted",
    "C59_lanes_sound",
    "C59_lanes_right",
    "C59_lanes_left",
    "C59_lanes_refuted",
    "C59_over"
   ],
   "note": "Vehicles of interest, free space ahead, acceleration, speed over all runs, separation and targets of lane changes, abort and lanes on offer are proved; refuted: free space behind for boxes centred differently, speed above the maximum of the vehicle, no braking while changing lanes, a standing driver changing to lane 0, lane -1 wanted without a route, vehicles unseen at time 0 or for three seconds, the outermost lane of a one-way road never left."
  },
  {
   "property": "C60",
   "status": "proved",
   "theorems": [
    "C60_path",
    "C60_no_path",
    "C60_valid",
    "C60_ends",
    "C60_ends_refuted",
    "C60_any_queue",
    "C60_intersections",
    "C60_speed",
    "C60_type_speed",
    "C60_type_speed_refuted",
    "C60_metres",
    "C60_metres_refuted",
    "C60_beside_refuted",
    "C60_other_end_refuted",
    "C60_other_end",
    "C60_waypoints",
    "C60_waypoints_empty"
   ],
   "note": "Path valid, optimal over all ways of the node graph, complete, terminating, for any priority queue behaviour consistent with WeightCompare. Refuted: weight is the length when the target road is entered by a junction link, targets beside the start, leaving a road at its other end after junctions, speed of some road types, missing junctions."
  },
  {
   "property": "C61",
   "status": "proved",
   "theorems": [
    "C61_position",
    "C61_on_time",
    "C61_at_once",
    "C61_follow_one",
    "C61_follow_any",
    "C61_follow_many",
    "C61_follow_now",
    "C61_step",
    "C61_ends",
    "C61_endless",
    "C61_ends_refuted",
    "C61_line_refuted",
    "C61_no_times_refuted",
    "C61_three_refuted",
    "C61_empty_refuted",
    "C61_no_solution_refuted",
    "C61_equal_refuted",
    "C61_fallback_refuted",
    "C61_relative_refuted",
    "C61_copy_refuted",
    "C61_back"
   ],
   "note": "Entries with times, corners with a bend where the code compares slopes; other cases are refuted: four entries on a line never end, three on a line run past the target, entries without times jump or read outside the vector, no entries read outside the vector, an initial acceleration beyond the slope may leave no solution and stop the object, equal first slopes miss the last speed, a fallback jumps, a relative first entry is late, a copy loses the limits."
  },
  {
   "property": "C62",
   "status": "proved",
   "theorems": [
    "C62_parse",
    "C62_side",
    "C62_requested",
    "C62_rigid",
    "C62_limits",
    "C62_change",
    "C62_jerk",
    "C62_jerk_refuted",
    "C62_settles",
    "C62_arrives",
    "C62_stays",
    "C62_overridden",
    "C62_collides_refuted",
    "C62_swings_refuted",
    "C62_restart_refuted",
    "C62_speed_refuted",
    "C62_no_route_refuted",
    "C62_time_gap_refuted"
   ],
   "note": "proved for parsing, the distance asked for, rigid moves, limits over any sequence of steps, approach to a target of constant speed and its end, staying there, override; refuted: the rate limit when the acceleration changes sign, swinging with long steps, running into the target from far away, leftover acceleration on a restart, speed limit alone ignored, missing route, time gap to a standing target"
  },
  {
   "property": "C63",
   "status": "proved",
   "theorems": [
    "C63_side",
    "C63_bounds",
    "C63_way",
    "C63_fast",
    "C63_glides",
    "C63_init",
    "C63_rigid",
    "C63_instant",
    "C63_turn",
    "C63_entity_ends_refuted",
    "C63_other_refuted",
    "C63_standing_refuted",
    "C63_no_path_refuted",
    "C63_restart_refuted",
    "C63_leftover_refuted",
    "C63_override_refuted",
    "C63_heading_refuted"
   ],
   "note": "proved for the side and distance, limits, way of a dynamic step, arrival with and without acceleration limit, first step, rigid step, steps relative to the entity; refuted: entity coordinates never end, lane and trajectory coordinates do nothing, standing or reversing takes the root of a negative number, no path uses an uninitialised distance, restart aims elsewhere and keeps the old motion, override mask is that of the other domain, heading 0 when standing"
  },
  {
   "property": "C64",
   "status": "proved",
   "theorems": [
    "C64_box",
    "C64_collide",
    "C64_divide",
    "C64_build",
    "C64_intersect",
    "C64_finds",
    "C64_rebuild_refuted",
    "C64_twice_refuted",
    "C64_axis",
    "C64_nothing"
   ],
   "note": "boxes smallest; partition, tree and counts of a build; candidates exactly the colliding pairs; refuted: building again from nothing keeps the old tree, and a triangle meeting two others is listed twice"
  },
  {
   "property": "C65",
   "status": "partial",
   "theorems": [
    "C65_orientation",
    "C65_separated",
    "C65_exact_partial",
    "C65_yes",
    "C65_corner",
    "C65_order",
    "C65_collide",
    "C65_missed_refuted",
    "C65_false_refuted",
    "C65_flat_refuted"
   ],
   "note": "exact for all proper triangles except when the first corner of the first is beyond the side a2-b2 and within the other two, where the code names the wrong side: there overlaps are missed (refuted with a witness), a yes is still right off the line of b2-c2 (on it refuted), flat triangles refuted"
  },
  {
   "property": "C66",
   "status": "partial",
   "theorems": [
    "C66_ellipse",
    "C66_param",
    "C66_tangent",
    "C66_meet",
    "C66_near",
    "C66_arc",
    "C66_arc_refuted",
    "C66_segments",
    "C66_line",
    "C66_line_refuted",
    "C66_flat",
    "C66_flat_refuted",
    "C66_curve",
    "C66_cover",
    "C66_none",
    "C66_root_partial",
    "C66_divisions",
    "C66_lost_refuted",
    "C66_root_refuted",
    "C66_range",
    "C66_solution_partial",
    "C66_guess"
   ],
   "note": "Ellipse, parameter, tangents, range, division of curves: proved. Arcs within their triangle: proved if the tangents are more than a degree apart, refuted otherwise. Lines: covered from GetS() to the length, refuted that this is the whole line. Root search: if it ends and the larger value is at the first end the result is within SMALL_NUMBER of a root (that it ends is not proved); refuted otherwise."
  },
  {
   "property": "C67",
   "status": "proved",
   "theorems": [
    "C67_fewer",
    "C67_one_refuted",
    "C67_negative_refuted",
    "C67_despawn",
    "C67_sample",
    "C67_junction",
    "C67_junction_refuted",
    "C67_new",
    "C67_spawn",
    "C67_one_lane",
    "C67_direction",
    "C67_direction_refuted",
    "C67_interval",
    "C67_check",
    "C67_controllers_refuted"
   ],
   "note": "For vehicles with at most one controller and points on a road. Refuted: that the number asked for is reached, that negative numbers ask for none, that no vehicle appears in a junction, the direction for copies of a vehicle against its road."
  },
  {
   "property": "C68",
   "status": "proved",
   "theorems": [
    "C68_gap",
    "C68_real",
    "C68_nobody",
    "C68_nearest",
    "C68_seen",
    "C68_own",
    "C68_nearest_refuted",
    "C68_look",
    "C68_activate",
    "C68_defaults",
    "C68_set",
    "C68_slow_refuted",
    "C68_behind",
    "C68_range",
    "C68_cruise",
    "C68_reach",
    "C68_swing_refuted",
    "C68_passed_refuted",
    "C68_rate",
    "C68_limit_refuted",
    "C68_balance",
    "C68_brake",
    "C68_safe",
    "C68_hit_refuted",
    "C68_forgotten",
    "C68_effect"
   ],
   "note": "Choice of the vehicle followed, set speed, range, limits, convergence, balance, safety and effects of a step proved for all runs; where the choice, limits and step sizes fail is shown with witnesses."
  },
  {
   "property": "C69",
   "status": "proved",
   "theorems": [
    "C69_linear",
    "C69_line",
    "C69_together",
    "C69_free",
    "C69_early_refuted",
    "C69_plan",
    "C69_plan_equal",
    "C69_first",
    "C69_apex",
    "C69_stop",
    "C69_stop_now",
    "C69_brake",
    "C69_restart",
    "C69_master",
    "C69_step",
    "C69_end",
    "C69_closer",
    "C69_over",
    "C69_wait",
    "C69_steady",
    "C69_start",
    "C69_steady_position_refuted",
    "C69_copy_refuted",
    "C69_copy",
    "C69_far",
    "C69_near_refuted",
    "C69_negative_refuted"
   ],
   "note": "Closed form of runs, profile, stop and restart, end, waiting and steady state proved for all inputs; where copies, steady states by position and speeds near the target fail is shown with witnesses."
  },
  {
   "property": "C70",
   "status": "proved",
   "theorems": [
    "C70_somewhere",
    "C70_view",
    "C70_right_view",
    "C70_mirror_refuted",
    "C70_right_refuted",
    "C70_here_refuted",
    "C70_domain",
    "C70_local",
    "C70_yaw",
    "C70_rate",
    "C70_rate_refuted",
    "C70_list",
    "C70_overflow_refuted",
    "C70_vertical_refuted",
    "C70_fetch",
    "C70_fetch_bad"
   ],
   "note": "View, list, fetched list and coordinates proved for all inputs; sides, overflow of the list, vertical components and high rates are shown to fail."
  },
  {
   "property": "C71",
   "status": "proved",
   "theorems": [
    "C71_lights",
    "C71_starts",
    "C71_type_refuted",
    "C71_linear",
    "C71_reached",
    "C71_late",
    "C71_off_refuted",
    "C71_instant",
    "C71_tiny_refuted",
    "C71_unknown_refuted",
    "C71_flash_forever",
    "C71_flash_first",
    "C71_flash_dark",
    "C71_flash_phase",
    "C71_flash_off",
    "C71_flash_on",
    "C71_flash_lit",
    "C71_conflict",
    "C71_isolated",
    "C71_types",
    "C71_stale_refuted",
    "C71_emission",
    "C71_full",
    "C71_emits",
    "C71_clamped",
    "C71_any_refuted",
    "C71_min",
    "C71_max",
    "C71_cmyk",
    "C71_colour",
    "C71_bright_refuted",
    "C71_resets",
    "C71_state",
    "C71_init",
    "C71_type_colour"
   ],
   "note": "All of LightStateAction's execution over real numbers; the refuted parts are in the findings of DESIGN.md (missed end of a transition, bright colours, stale emitting flag, unknown modes, missing type)."
  },
  {
   "property": "C72",
   "status": "partial",
   "theorems": [
    "C72_forward",
    "C72_back",
    "C72_last",
    "C72_back_lost_refuted",
    "C72_back_forth_refuted",
    "C72_closed",
    "C72_closed_round_refuted",
    "C72_relative",
    "C72_absolute",
    "C72_speed",
    "C72_speed_absolute",
    "C72_timed_last",
    "C72_scale_refuted",
    "C72_offset_speed_refuted",
    "C72_long",
    "C72_long_end_refuted",
    "C72_lateral",
    "C72_before",
    "C72_takeover_refuted",
    "C72_start",
    "C72_start_forward",
    "C72_start_explicit",
    "C72_copy",
    "C72_copy_offset_refuted",
    "C72_copy_closed_refuted",
    "C72_clothoid",
    "C72_clothoid_start_refuted",
    "C72_spline",
    "C72_too_early_refuted",
    "C72_standing",
    "C72_heading",
    "C72_interpolation"
   ],
   "note": "Proved for all runs: distance, time, end, speed, heading and start; the parts of the statement which are false are refuted with witnesses (see DESIGN.md)."
  },
  {
   "property": "C73",
   "status": "partial",
   "theorems": [
    "C73_read_in_range",
    "C73_range_nearest",
    "C73_range_keeps",
    "C73_range_idempotent",
    "C73_range_rounds",
    "C73_rates",
    "C73_rates_kept",
    "C73_force",
    "C73_gears_injective",
    "C73_gear_kind",
    "C73_read_all",
    "C73_read_list",
    "C73_domains",
    "C73_domains_all_active",
    "C73_domain_of_active_refuted",
    "C73_order_refuted",
    "C73_off_claims_nothing",
    "C73_unknown_quits",
    "C73_copy_overrides",
    "C73_copy_domains_refuted",
    "C73_copy_never_conflicts",
    "C73_start_safe",
    "C73_start_bad",
    "C73_start_sets",
    "C73_latest",
    "C73_own_place",
    "C73_ghost",
    "C73_restart_once",
    "C73_one_step",
    "C73_reported",
    "C73_read_exact",
    "C73_read_rejects"
   ],
   "note": "Proved: ranges, reading, latest status over all runs, ghost restarts, domains as the last status of each says, report by the library. Refuted: a domain with an active override is claimed; independence of the order of elements; a copy keeps the domains."
  },
  {
   "property": "C74",
   "status": "partial",
   "theorems": [
    "C74_speed_limit",
    "C74_wheel_limit",
    "C74_wheel_at_speed",
    "C74_wheel_at_speed_analog",
    "C74_angles",
    "C74_setup_kept",
    "C74_no_jump_to_reverse",
    "C74_stops",
    "C74_stands",
    "C74_drives_off_refuted",
    "C74_pedal_lets_go",
    "C74_brake_held_refuted",
    "C74_brakes",
    "C74_acceleration",
    "C74_coasts",
    "C74_coast_time_refuted",
    "C74_target_approached",
    "C74_target_reached_refuted",
    "C74_disabled",
    "C74_target_disabled_refuted",
    "C74_throttle_query_refuted",
    "C74_steering_query",
    "C74_aligns",
    "C74_aligns_refuted",
    "C74_distance",
    "C74_velocity",
    "C74_straight",
    "C74_turns",
    "C74_turns_side",
    "C74_turn_limit",
    "C74_heading_adds",
    "C74_wheels_roll",
    "C74_circle",
    "C74_moved",
    "C74_keys",
    "C74_keys_only",
    "C74_key_held_refuted",
    "C74_driven_within_limits",
    "C74_limit_drop_refuted",
    "C74_lateral_only",
    "C74_longitudinal_only",
    "C74_activated",
    "C74_limit",
    "C74_acc_and_steer",
    "C74_key_steers",
    "C74_wheel_steers",
    "C74_target_steers",
    "C74_both_domains"
   ],
   "note": "Proved: limits, braking, coasting, approach of target speeds, alignment in short steps, kinematics, circle, independence of the start, keys and limits of the object. Refuted: brake held stands still, coasting by time, target reached, alignment and limits of deceleration in general, disabling for targets, query of the disabled throttle, key held acts."
  },
  {
   "property": "C75",
   "status": "partial",
   "theorems": [
    "C75_init_undefined",
    "C75_init_groups",
    "C75_default_categories",
    "C75_init_keys",
    "C75_init_weight",
    "C75_init_total",
    "C75_category_names",
    "C75_delete_order",
    "C75_no_leak",
    "C75_add_no_leak",
    "C75_get_vehicle",
    "C75_get_vehicle_first",
    "C75_random_named",
    "C75_random_defined",
    "C75_random_interval",
    "C75_zero_weight",
    "C75_random_undefined",
    "C75_add",
    "C75_add_null",
    "C75_added_drawn_refuted",
    "C75_swarm_draws",
    "C75_no_single_trailer_partial",
    "C75_no_single_trailer_refuted",
    "C75_unknown_category_refuted",
    "C75_default_wanted",
    "C75_swarm_wanted",
    "C75_sumo_wanted",
    "C75_traffic_weights"
   ],
   "note": "All functions of VehiclePool; no single trailer is proved for catalogs with a car, bus or motorbike and refuted otherwise; unknown and added categories refuted. Not covered: parsing of the entries, trailers by entityRef owned elsewhere."
  },
  {
   "property": "C76",
   "status": "partial",
   "theorems": [
    "C76_defined",
    "C76_speed_band",
    "C76_not_sloppy",
    "C76_smooth",
    "C76_period_end",
    "C76_set_speed_refuted",
    "C76_not_negative",
    "C76_reverse_refuted",
    "C76_distance",
    "C76_domains",
    "C76_lateral_account",
    "C76_lateral_step",
    "C76_fuzz_range",
    "C76_half_lane_refuted",
    "C76_heading_refuted",
    "C76_heading_added",
    "C76_in_period",
    "C76_turn",
    "C76_fuzz_draw",
    "C76_activate"
   ],
   "note": "Proved of the controller for all draws; four expected statements are refuted with witnesses. Positions on the road after MoveAlongS and SetTrackPos are not modelled; doubles are reals."
  },
  {
   "property": "C77",
   "status": "partial",
   "theorems": [
    "C77_latest",
    "C77_sync",
    "C77_buffer",
    "C77_short",
    "C77_short_refuted",
    "C77_state",
    "C77_state_h",
    "C77_reckon",
    "C77_reckon_full_refuted",
    "C77_quiet",
    "C77_ignored",
    "C77_ignored_refuted",
    "C77_other_refuted",
    "C77_driver",
    "C77_driver_message",
    "C77_speed_after_state_refuted",
    "C77_ports",
    "C77_socket_kept",
    "C77_port_beyond_refuted",
    "C77_port_given_refuted",
    "C77_port_range",
    "C77_unknown_mode",
    "C77_header",
    "C77_fields",
    "C77_activate",
    "C77_empty",
    "C77_empty_after"
   ],
   "note": "Proved for all datagrams and decodings; several expected statements are refuted. z, pitch, roll and position modes are not modelled, nor datagrams that arrive while the queue is drained; doubles are reals."
  },
  {
   "property": "C78",
   "status": "partial",
   "theorems": [
    "C78_direction",
    "C78_mirrored",
    "C78_direction_refuted",
    "C78_quarter",
    "C78_side",
    "C78_domain",
    "C78_at_target",
    "C78_target",
    "C78_no_target",
    "C78_no_ghost",
    "C78_step",
    "C78_params",
    "C78_speed",
    "C78_lost",
    "C78_behind_refuted",
    "C78_domains",
    "C78_lateral_refuted",
    "C78_activate",
    "C78_together",
    "C78_limit",
    "C78_teleport_refuted",
    "C78_defaults",
    "C78_mirrored_right",
    "C78_rotate",
    "C78_activate_fresh",
    "C78_straight_step"
   ],
   "note": "Proved for the direction, the target, a step and whole runs; lookups on the trail are universally quantified, not modelled. Refuted: targets behind, the domains, positions set from elsewhere."
  },
  {
   "property": "C79",
   "status": "partial",
   "theorems": [
    "C79_steering",
    "C79_steering_range",
    "C79_throttle",
    "C79_throttle_range",
    "C79_throttle_monotone",
    "C79_no_lead",
    "C79_step",
    "C79_factor_ignored",
    "C79_keeps_refuted",
    "C79_no_jump_to_reverse",
    "C79_activate",
    "C79_defaults",
    "C79_together",
    "C79_speed_limit"
   ],
   "note": "Proved for steering, throttle, a step and whole runs; steering for leaders not almost exactly on the same x. Refuted: keeping the speed at the distance set. The speed factor is proved to be without effect."
  }
 ]
}