{
 "claims": [
  {
   "property": "C01",
   "status": "proved",
   "theorems": [
    "C01_make_contains_exactly"
   ],
   "note": "ids below 2^32-64; the last block of the id space contains INVALID_OFFSET"
  },
  {
   "property": "C02",
   "status": "proved",
   "theorems": [
    "C02_union"
   ],
   "note": ""
  },
  {
   "property": "C03",
   "status": "proved",
   "theorems": [
    "C03_difference"
   ],
   "note": ""
  },
  {
   "property": "C04",
   "status": "partial",
   "theorems": [
    "C04_set_adds_exactly_partial",
    "C04_set_on_empty_refuted"
   ],
   "note": "set() on an empty set always trips the ok() assertion: the full claim is refuted; proved for every non-empty reachable set"
  },
  {
   "property": "C05",
   "status": "partial",
   "theorems": [
    "C05_compare_partial",
    "C05_compare_aliased_partial",
    "C05_contains",
    "C05_compare_empty_refuted"
   ],
   "note": "compare() of two empty sets is 'greater' instead of 'equivalent'; everything else, and contains() for all pairs, is proved"
  },
  {
   "property": "C06",
   "status": "proved",
   "theorems": [
    "C06_invariant",
    "C06_check_sound",
    "C06_canonical",
    "C06_history"
   ],
   "note": ""
  },
  {
   "property": "C07",
   "status": "proved",
   "theorems": [
    "C07_iteration"
   ],
   "note": ""
  },
  {
   "property": "C08",
   "status": "proved",
   "theorems": [
    "C08_make_bitfield"
   ],
   "note": ""
  },
  {
   "property": "C09",
   "status": "proved",
   "theorems": [
    "C09_set_changes_one_day",
    "C09_set_beyond_capacity"
   ],
   "note": ""
  },
  {
   "property": "C10",
   "status": "proved",
   "theorems": [
    "C10_union"
   ],
   "note": ""
  },
  {
   "property": "C11",
   "status": "proved",
   "theorems": [
    "C11_window",
    "C11_iterate_all"
   ],
   "note": ""
  },
  {
   "property": "C12",
   "status": "proved",
   "theorems": [
    "C12_count_first_last"
   ],
   "note": ""
  },
  {
   "property": "C13",
   "status": "partial",
   "theorems": [
    "C13_equivalent_partial",
    "C13_equivalent_refuted"
   ],
   "note": "the shifted copy is discarded in equivalent(): calendars with equal days but different ranges are reported different (refuted); soundness and exactness on equal ranges proved"
  },
  {
   "property": "C14",
   "status": "partial",
   "theorems": [
    "C14_departures_partial",
    "C14_departures_same_day",
    "C14_departures_overnight_refuted",
    "C14_end_not_advanced"
   ],
   "note": "trips that started on a day before the interval's first day are never reported (refuted); exact characterisation and the full claim for same-day trains proved"
  },
  {
   "property": "C15",
   "status": "proved",
   "theorems": [
    "C15_trips",
    "C15_first_departure_last_arrival",
    "C15_invalid_refused"
   ],
   "note": ""
  },
  {
   "property": "C16",
   "status": "proved",
   "theorems": [
    "C16_has_cycle"
   ],
   "note": ""
  },
  {
   "property": "C17",
   "status": "proved",
   "theorems": [
    "C17_traversal_visits_reachable",
    "C17_any_callbacks"
   ],
   "note": ""
  },
  {
   "property": "C18",
   "status": "partial",
   "theorems": [
    "C18_edge_calls_partial",
    "C18_edge_once_refuted"
   ],
   "note": "edges of the start node are handed out twice when it lies on a cycle (refuted); exact call counts proved"
  },
  {
   "property": "C19",
   "status": "proved",
   "theorems": [
    "C19_reachable_nodes",
    "C19_path_exists",
    "C19_path_exists_self"
   ],
   "note": ""
  },
  {
   "property": "C20",
   "status": "proved",
   "theorems": [
    "C20_get_cycle",
    "C20_shortest_cycle_from_node"
   ],
   "note": ""
  },
  {
   "property": "C21",
   "status": "partial",
   "theorems": [
    "C21_transitive_reduction_partial",
    "C21_cycle_refuted"
   ],
   "note": "proved for acyclic graphs; on cycles connections are lost (refuted)"
  },
  {
   "property": "C22",
   "status": "partial",
   "theorems": [
    "C22_conflicts_ordered_partial",
    "C22_conflicts_ordered_stable_partial",
    "C22_ties_refuted"
   ],
   "note": "proved for tie-free times with any sort, and for all non-decreasing times with a stable sort; with ties and an unstable sort (std::sort) refuted"
  },
  {
   "property": "C23",
   "status": "proved",
   "theorems": [
    "C23_acyclic_tie_free",
    "C23_acyclic_stable"
   ],
   "note": ""
  },
  {
   "property": "C24",
   "status": "partial",
   "theorems": [
    "C24_next_partial",
    "C24_end_refused",
    "C24_next_refuted",
    "C24_between_refuted",
    "C24_wrong_trip_refuted"
   ],
   "note": "next() fails when another train conflicts later and has a smaller node id, or goes in between, and returns a node of the next day's trip for a train under way for more than a day (refuted); proved in all other cases: every later conflicting usage belongs to the same trip, or has a larger id and does not come before the following node of the trip"
  },
  {
   "property": "C25",
   "status": "proved",
   "theorems": [
    "C25_has_exclusion_paths"
   ],
   "note": ""
  },
  {
   "property": "C52",
   "status": "proved",
   "theorems": [
    "C52_trip_nodes"
   ],
   "note": ""
  },
  {
   "property": "C26",
   "status": "proved",
   "theorems": [
    "C26_merge_unique",
    "C26_merge_unique_unsorted",
    "C26_multi_set_merge",
    "C26_multi_set_merge_repetitions"
   ],
   "note": ""
  },
  {
   "property": "C27",
   "status": "proved",
   "theorems": [
    "C27_overlap",
    "C27_overlap_non_sorted",
    "C27_get_overlap",
    "C27_sort_and_intersect",
    "C27_get_overlap_non_sorted"
   ],
   "note": ""
  },
  {
   "property": "C28",
   "status": "partial",
   "theorems": [
    "C28_slice",
    "C28_slice_clasp_partial",
    "C28_slice_clasp_refuted",
    "C28_remove_after",
    "C28_remove_until"
   ],
   "note": "the clamping slice still has undefined behaviour when the clamped range is inverted (refuted)"
  },
  {
   "property": "C29",
   "status": "partial",
   "theorems": [
    "C29_optional",
    "C29_sentinel_refuted"
   ],
   "note": "proved over all operation histories with non-sentinel values; an optional built from the sentinel is empty (refuted)"
  },
  {
   "property": "C30",
   "status": "partial",
   "theorems": [
    "C30_parse_int",
    "C30_round_trip",
    "C30_release_build_refuted"
   ],
   "note": "proved for builds with assertions; in a release build rejected strings silently become numbers (refuted)"
  },
  {
   "property": "C31",
   "status": "partial",
   "theorems": [
    "C31_split",
    "C31_empty_string",
    "C31_empty_token_refuted"
   ],
   "note": "proved for every non-empty token; with an empty token the loop never ends (refuted)"
  },
  {
   "property": "C32",
   "status": "partial",
   "theorems": [
    "C32_known_names",
    "C32_hash_injective",
    "C32_unknown_name_partial",
    "C32_unknown_name_refuted",
    "C32_display_names",
    "C32_round_trip_refuted"
   ],
   "note": "a string outside the format with a colliding hash is accepted (refuted)"
  },
  {
   "property": "C53",
   "status": "proved",
   "theorems": [
    "C53_classes",
    "C53_all_types"
   ],
   "note": ""
  },
  {
   "property": "C36",
   "status": "partial",
   "theorems": [
    "C36_nodes",
    "C36_wrong_range",
    "C36_extra_spl_partial",
    "C36_extra_spl_refuted",
    "C36_limit_on_omitted_node_refuted"
   ],
   "note": "nodes and omitted flags proved exactly; the extra speed limit of a node is never reset, so later nodes carry a stale one (refuted), exact characterisation proved"
  },
  {
   "property": "C37",
   "status": "partial",
   "theorems": [
    "C37_iterate",
    "C37_size",
    "C37_contains",
    "C37_split",
    "C37_sub_paths",
    "C37_first_last",
    "C37_loop_refuted"
   ],
   "note": "proved unless the route's first and last station route coincide; such a route can be generated and iterating it fails (refuted)"
  },
  {
   "property": "C38",
   "status": "proved",
   "theorems": [
    "C38_starting_at",
    "C38_ending_at",
    "C38_participating",
    "C38_station",
    "C38_halting_at",
    "C38_halting_at_repetition_refuted",
    "C38_predecessors"
   ],
   "note": "the halting table may list a route twice (recorded as C38_halting_at_repetition_refuted)"
  },
  {
   "property": "C54",
   "status": "partial",
   "theorems": [
    "C54_routes",
    "C54_terminates",
    "C54_routes_proper",
    "C54_no_signal_inside",
    "C54_cycle_refuted"
   ],
   "note": "proved for every terminating search; the search does not end on a reachable cycle of signal free station routes (refuted)"
  },
  {
   "property": "C33",
   "status": "partial",
   "theorems": [
    "C33_used_by",
    "C33_deterministic",
    "C33_zero_threads_refuted",
    "C33_out_of_range_refuted"
   ],
   "note": "proved for every thread count >= 1 and every interleaving; when the number of hardware threads is unknown (0) the index is empty (refuted)"
  },
  {
   "property": "C34",
   "status": "proved",
   "theorems": [
    "C34_route_to_sets",
    "C34_out_of_range"
   ],
   "note": ""
  },
  {
   "property": "C35",
   "status": "proved",
   "theorems": [
    "C35_exclusion_graph",
    "C35_symmetric"
   ],
   "note": ""
  },
  {
   "property": "C55",
   "status": "partial",
   "theorems": [
    "C55_closed_elements",
    "C55_covers_route",
    "C55_falling_between_ends_refuted",
    "C55_open_elements"
   ],
   "note": "proved except for routes inside one section whose both ends are no track elements: those are taken to be rising (refuted)"
  },
  {
   "property": "C56",
   "status": "proved",
   "theorems": [
    "C56_read_cliques",
    "C56_bad_token",
    "C56_tokens_total",
    "C56_round_trip"
   ],
   "note": ""
  },
  {
   "property": "C39",
   "status": "partial",
   "theorems": [
    "C39_connected",
    "C39_points",
    "C39_cover_partial",
    "C39_all_points_partial",
    "C39_lost_stop_refuted",
    "C39_boundary_point_refuted",
    "C39_wrong_branch_refuted",
    "C39_stops_early_refuted",
    "C39_endless_refuted",
    "C39_overhang_refuted",
    "C39_to_the_end",
    "C39_direct_partial"
   ],
   "note": "Connectedness of the path and the origin and number of the sequence points hold for every success. That the path runs along the whole sequence is proved for paths that do not branch off and do not end exactly at the end of an inner station route; both cases are not checked by the code and are refuted with witnesses, as are termination (ring), a sequence starting inside a route (out-of-bounds read) and points measured at a signal shared by two routes (counted twice). Every halt and timed run through is handed out exactly once if none is measured where two routes of the path meet; otherwise one can be lost while another is handed out twice (C39_lost_stop_refuted). Every path that is found ends behind the last point of the sequence or leads beyond it (C39_to_the_end). A train whose station routes are exactly those of one route is found (C39_direct_partial; first station route without halt)."
  },
  {
   "property": "C40",
   "status": "partial",
   "theorems": [
    "C40_days",
    "C40_union_minus_partial",
    "C40_accepted",
    "C40_exclusion_overruled_refuted",
    "C40_overlap_refuted"
   ],
   "note": "The calendar is exactly characterised (last service speaking about a day wins) and so is which lists are accepted. The order-free statement holds when no service adds a day excluded earlier; without that an excluded day can come back (refuted). Overlapping masks are rejected in debug builds (refuted)."
  },
  {
   "property": "C41",
   "status": "partial",
   "theorems": [
    "C41_date",
    "C41_day_numbers",
    "C41_time_offset",
    "C41_rejects",
    "C41_duration",
    "C41_time_unchecked_refuted",
    "C41_duration_truncated_refuted",
    "C41_unit_ignored_refuted"
   ],
   "note": "Values proved exact for every accepted string. Range and separators of times are unchecked, unknown duration units are skipped, and a duration without its last unit is read out of bounds (all refuted)."
  },
  {
   "property": "C42",
   "status": "partial",
   "theorems": [
    "C42_ids",
    "C42_interval_partial",
    "C42_empty_calendar_refuted",
    "C42_points_partial"
   ],
   "note": "Ids proved; interval proved when every train has a service day and its times are representable. A train without a service day is accepted and then makes the interval computation fail (refuted)."
  },
  {
   "property": "C43",
   "status": "proved",
   "theorems": [
    "C43_schedule_independent",
    "C43_counts"
   ],
   "note": "for every interleaving of the workers' steps; a worker that throws is not modelled"
  },
  {
   "property": "C57",
   "status": "partial",
   "theorems": [
    "C57_supported",
    "C57_accepted",
    "C57_unreadable",
    "C57_all_or_nothing",
    "C57_missing_checkpoint_refuted"
   ],
   "note": "Exactly which construction trains are taken over, with which numbers, days, path and points, and under which error every other one is counted (the first thing that is wrong); text that cannot be read ends the import with an exception. The error for a missing runtime checkpoint is unreachable, the import throws instead (refuted)"
  },
  {
   "property": "C44",
   "status": "partial",
   "theorems": [
    "C44_start",
    "C44_halts",
    "C44_stands_only_at_halts",
    "C44_order_partial",
    "C44_order_refuted",
    "C44_short_move_refuted"
   ],
   "note": "for every successful calculation of a train whose first and last element are borders. Two elements within a centimetre at one halt share both times, so the second is reached before the first is left (refuted); moves shorter than the first half second of acceleration fail (refuted). Quantities are exact rationals, not doubles."
  },
  {
   "property": "C45",
   "status": "partial",
   "theorems": [
    "C45_coast",
    "C45_coast_standing_refuted",
    "C45_brake_partial",
    "C45_brake_backwards_refuted",
    "C45_accelerate_partial",
    "C45_accelerate_ascending",
    "C45_accelerate_terminates",
    "C45_accelerate_jump_refuted",
    "C45_accelerate_short_refuted",
    "C45_accelerate_endless_refuted"
   ],
   "note": "phases end exactly at the required distance or speed; recorded distances never decrease except at the last sample of a braking phase (refuted); the last sample of a cut acceleration phase keeps a stale time (refuted), standing coasting and too weak traction have no result (refuted)"
  },
  {
   "property": "C50",
   "status": "partial",
   "theorems": [
    "C50_polynomial",
    "C50_piecewise",
    "C50_domain",
    "C50_make_piecewise",
    "C50_outside_domain_refuted",
    "C50_train_forces"
   ],
   "note": "proved over exact rationals; arguments outside the domain are evaluated as well (refuted)"
  },
  {
   "property": "C58",
   "status": "proved",
   "theorems": [
    "C58_every_element",
    "C58_halt_indices"
   ],
   "note": "for every successful calculation of a train whose first and last element are borders"
  },
  {
   "property": "C59",
   "status": "partial",
   "theorems": [
    "C59_phases",
    "C59_speed_limits_partial",
    "C59_meeting_limits_partial",
    "C59_last_signal_refuted",
    "C59_room_to_brake",
    "C59_lowered_least_partial"
   ],
   "note": "per stretch for every train; for whole trains exactly when no limit is valid from the last signal on; with such limits, for borders a centimetre apart, relative to the limits of the interval list. A limit from the last signal on is lost when that signal is within a centimetre of the border before (refuted). Limits in force are lowered no further than braking takes, in steps of 1 m/s (C59_lowered_least_partial, without limits valid from the last signal on)."
  },
  {
   "property": "C60",
   "status": "proved",
   "theorems": [
    "C60_times",
    "C60_no_element_missed"
   ],
   "note": "quantities are exact rationals, not doubles; the lookup of the time of an element on a stretch always succeeds (C60_no_element_missed)"
  },
  {
   "property": "C46",
   "status": "partial",
   "theorems": [
    "C46_rounding",
    "C46_rounding_negative_refuted",
    "C46_mass_defined",
    "C46_history_partial",
    "C46_pairs_partial",
    "C46_below_first_refuted",
    "C46_below_first_exact_refuted",
    "C46_pairs_below_first_refuted",
    "C46_total",
    "C46_total_pairs"
   ],
   "note": "the sums over a distribution are the sums of all that was inserted, for every successful history; each bucket: proved for all insertion sequences of non-negative times below 2^57 in which nothing rounds to less than the value inserted first; inserting anything smaller fails (refuted), and negative values are rounded towards zero (refuted)"
  },
  {
   "property": "C61",
   "status": "partial",
   "theorems": [
    "C61_iterate",
    "C61_speeds_shifted_refuted",
    "C61_halt_distribution",
    "C61_halt_probability_refuted",
    "C61_runtime_distribution",
    "C61_runtime_probability_refuted"
   ],
   "note": "iterating drops buckets below one per cent; over pairs it reports every speed one too high (refuted); the delay distributions are characterised exactly, their probabilities exceed one (refuted); speed 0 divides by zero and is not modelled"
  },
  {
   "property": "C47",
   "status": "proved",
   "theorems": [
    "C47_segment",
    "C47_attributes",
    "C47_gap_refuted",
    "C47_unsorted_refuted"
   ],
   "note": "the bisection of the standard library is modelled; between adjoining segments the later one is served. Outside the property: a kilometrage in a gap fails, and the import does not sort (refuted theorems)"
  },
  {
   "property": "C48",
   "status": "proved",
   "theorems": [
    "C48_bounding_box",
    "C48_invalid_refuted",
    "C48_empty_refuted"
   ],
   "note": "for every nonempty list of valid positions; one invalid position or an empty list gives a wrong box (refuted theorems)"
  },
  {
   "property": "C51",
   "status": "proved",
   "theorems": [
    "C51_dimension",
    "C51_value",
    "C51_assignable",
    "C51_unitless",
    "C51_unreduced_refuted"
   ],
   "note": "the template metaprogram is modelled as a program on lists of tags; for calculations whose given quantities have a reduced type, as all types of units.h have"
  },
  {
   "property": "C62",
   "status": "proved",
   "theorems": [
    "C62_lines",
    "C62_accepted",
    "C62_second_dropped_refuted"
   ],
   "note": "XML as already parsed values; a second line of the same number is dropped without notice (refuted theorem)"
  },
  {
   "property": "C49",
   "status": "partial",
   "theorems": [
    "C49_comparator_partial",
    "C49_comparator_refuted"
   ],
   "note": "for elements at the same kilometrage or at least a centimetre apart; closer elements are ordered in circles (refuted)"
  },
  {
   "property": "C63",
   "status": "partial",
   "theorems": [
    "C63_network_drives_as_drawn_partial",
    "C63_jump_refuted",
    "C63_switch_refuted",
    "C63_lone_border_refuted",
    "C63_high_borders_refuted"
   ],
   "note": "for every plan that is well drawn: unique ids, complete devices, elements a centimetre apart, lines that keep their direction through switches and crossings, kilometrage jumps and borders with the right orientation. The refuted theorems show plans outside where trains turn round, are caught, or the import reads a null pointer. XML is modelled as parsed values, kilometrages as rationals."
  },
  {
   "property": "C64",
   "status": "proved",
   "theorems": [
    "C64_sections_as_drawn",
    "C64_no_name_is_meta",
    "C64_sections_as_read"
   ],
   "note": "for every plan that is well drawn in the sense of C63 and has its types from the names in the input; none of them is the internal type META (C64_no_name_is_meta). The runs of C63 are the same ones."
  },
  {
   "property": "C65",
   "status": "partial",
   "theorems": [
    "C65_path_search",
    "C65_one_drive",
    "C65_routes_follow_their_course",
    "C65_same_network",
    "C65_short_course_refuted",
    "C65_endless_search_refuted"
   ],
   "note": "every imported route is the drive, and the outcome of the search is characterised exactly: it throws at a dead end. A course with too few entries is read behind its end, and a route that runs in circles is searched for without end, instead of being rejected (refuted)."
  },
  {
   "property": "C66",
   "status": "proved",
   "theorems": [
    "C66_shared_paths"
   ],
   "note": "for every successful import"
  },
  {
   "property": "C67",
   "status": "proved",
   "theorems": [
    "C67_route_contents",
    "C67_names_are_unique"
   ],
   "note": "for every successful import. The station before the first node is determined if all nodes leading to it are in one station (otherwise the first of them decides); an element named by a speed limit is the one known when the station was read."
  },
  {
   "property": "C68",
   "status": "proved",
   "theorems": [
    "C68_successors",
    "C68_predecessors"
   ],
   "note": "for every successful import"
  },
  {
   "property": "C69",
   "status": "proved",
   "theorems": [
    "C69_reverse_edges",
    "C69_reverse_ahead"
   ],
   "note": "for every connected network"
  },
  {
   "property": "C70",
   "status": "proved",
   "theorems": [
    "C70_routes_run_as_drawn",
    "C70_drawn_ways_are_found",
    "C70_other_ends"
   ],
   "note": "for plans that are well drawn in the sense of C63 (outside, C63 itself is refuted). Ways over any number of sections, also back onto the section they started on. Routes from or to a switch, crossing, line switch, kilometrage jump or undirected element are never imported (C70_other_ends)."
  },
  {
   "property": "C71",
   "status": "proved",
   "theorems": [
    "C71_route_length"
   ],
   "note": "for plans that are well drawn in the sense of C63 and ways in the sense of C70 over sections whose elements lie between their ends; kilometrages are rationals"
  },
  {
   "property": "C72",
   "status": "partial",
   "theorems": [
    "C72_journey",
    "C72_points",
    "C72_passed_over",
    "C72_laps_refuted",
    "C72_same_node_refuted"
   ],
   "note": "for paths of connected routes each of which visits a station route at most once; a route that runs in a lap is silently left out, and two consecutive sequence points at one node hide all later ones (refuted)"
  },
  {
   "property": "C73",
   "status": "partial",
   "theorems": [
    "C73_routes_between_signals",
    "C73_unbroken_partial",
    "C73_starting_and_ending_routes",
    "C73_halting_routes",
    "C73_routes_of_station_route",
    "C73_routes_of_station",
    "C73_iteration_partial",
    "C73_loads_partial",
    "C73_no_routes_refuted",
    "C73_foreign_end_refuted",
    "C73_single_node_refuted"
   ],
   "note": "The routes are exactly the ways between signals, for every infrastructure that loads. That a route is an unbroken drive needs a well drawn plan whose routes start and end in their own station (C73_foreign_end_refuted shows a route turning round otherwise). Loading an infrastructure without any interlocking route divides by zero (C73_no_routes_refuted); loading does not end if station routes without signals form a circle (C54_cycle_refuted), hence the rank in C73_loads_partial."
  },
  {
   "property": "C74",
   "status": "proved",
   "theorems": [
    "C74_parse_fp",
    "C74_one_value"
   ],
   "note": "Exact characterisation of the accepted texts. The spellings inf and nan and values beyond the range of double are outside the model; quantities are exact rationals."
  },
  {
   "property": "C75",
   "status": "partial",
   "theorems": [
    "C75_lookup",
    "C75_right_series_partial",
    "C75_import",
    "C75_defaults",
    "C75_right_series_refuted",
    "C75_variant_number_refuted",
    "C75_views_refuted"
   ],
   "note": "Lookup by key, import and default values are proved for all files. That the key identifies series and owner is refuted (series and owner are joined by a dash, which both may contain) and proved for company numbers without dash. Variant numbers are cut to 32 bits (refuted), and views without terminator are read beyond their end (refuted)."
  },
  {
   "property": "C76",
   "status": "partial",
   "theorems": [
    "C76_train",
    "C76_accepted",
    "C76_no_units_refuted"
   ],
   "note": "Proved for all core data and trains; the units are identified by their key as in C75. A train without units is accepted although it has neither top speed nor braking rate (refuted)."
  },
  {
   "property": "C77",
   "status": "partial",
   "theorems": [
    "C77_layout",
    "C77_corner",
    "C77_loads",
    "C77_apart_refuted",
    "C77_every_element_refuted"
   ],
   "note": "Proved for all plans (exact rationals instead of doubles). Even spreading is refuted at the start: the first element of a section always lies on the section's start. An element the plan does not draw is placed at the largest double."
  },
  {
   "property": "C78",
   "status": "partial",
   "theorems": [
    "C78_coordinates",
    "C78_accepted",
    "C78_missing_file_refuted"
   ],
   "note": "Proved for all files. A missing file is only warned about but makes the layout throw afterwards (refuted)."
  },
  {
   "property": "C79",
   "status": "partial",
   "theorems": [
    "C79_interpolated",
    "C79_between",
    "C79_order_free",
    "C79_everywhere_partial",
    "C79_everywhere_refuted"
   ],
   "note": "Proved for all networks over exact rationals. That every station gets a valid place holds away from the left edge of the map (partial) and is refuted at it."
  },
  {
   "property": "C80",
   "status": "partial",
   "theorems": [
    "C80_great_circle",
    "C80_metric",
    "C80_in_space",
    "C80_there_and_back",
    "C80_true_distance_partial",
    "C80_true_distance_refuted"
   ],
   "note": "Proved over the real numbers for the code's degree of 3.1415/180. With true degrees the distance is off by at most 2 km (partial); that 180 degrees east and west are the same place is refuted."
  },
  {
   "property": "C81",
   "status": "proved",
   "theorems": [
    "C81_move",
    "C81_distance",
    "C81_bearing",
    "C81_reach",
    "C81_turn",
    "C81_distance_refuted"
   ],
   "note": "Proved over the real numbers for latitudes between the poles. Beyond them, where coordinates are still valid for the code, it is refuted."
  },
  {
   "property": "C82",
   "status": "partial",
   "theorems": [
    "C82_elements",
    "C82_best_turn",
    "C82_loads",
    "C82_rigid_refuted"
   ],
   "note": "Proved over the real numbers up to a slip of less than 0.0002 (0.011 degrees) between the upper and the lower half of the drawing, which comes from PI = 3.1415; that the picture is not bent at all is refuted."
  },
  {
   "property": "C83",
   "status": "proved",
   "theorems": [
    "C83_nodes",
    "C83_numbers",
    "C83_threads",
    "C83_always_refuted"
   ],
   "note": "Proved for infrastructures in which every element is in exactly one station. A machine that reports zero threads and an infrastructure without stations are undefined behaviour (refuted)."
  },
  {
   "property": "C84",
   "status": "proved",
   "theorems": [
    "C84_connections"
   ],
   "note": "Neighbours may be noted on one side only."
  },
  {
   "property": "C85",
   "status": "partial",
   "theorems": [
    "C85_curves_partial",
    "C85_straight_refuted"
   ],
   "note": "The curve and the rectangle are proved over the real numbers. The control point continues the track only if it comes from at least a hundredth of a degree to the east or west; otherwise it lies due north or south of the element, and a line along the equator leaves the equator (refuted)."
  },
  {
   "property": "C86",
   "status": "partial",
   "theorems": [
    "C86_infrastructures_partial",
    "C86_regenerate",
    "C86_complete_files",
    "C86_in_place_refuted",
    "C86_cut_refuted",
    "C86_unreadable_refuted"
   ],
   "note": "Proved for all histories in which source directories are replaced as a whole and no start is cut short, and for every history when the server is asked to regenerate. Refuted for files edited in place (the time of the directory does not change) and for a start cut short while saving (the incomplete file is newer than the source and is loaded without checks)."
  },
  {
   "property": "C87",
   "status": "partial",
   "theorems": [
    "C87_timetables_partial",
    "C87_restart_refuted"
   ],
   "note": "Proved: exactly the timetables that are read from their source in this start are served, and they are never outdated. Refuted: a timetable kept by an earlier run is handed to the KSS parser, which rejects a file, so a restarted server without changes loses all its timetables."
  },
  {
   "property": "C88",
   "status": "partial",
   "theorems": [
    "C88_map_partial",
    "C88_regenerate",
    "C88_redrawn",
    "C88_changed_refuted",
    "C88_names_refuted",
    "C88_cut_refuted"
   ],
   "note": "Proved as long as the sources do not change after the maps were drawn, and always with regeneration or with the OSM files removed. Refuted for changed sources (the map is only drawn if there is none), for two names that differ only behind the last dot, and for a start cut short."
  },
  {
   "property": "C89",
   "status": "partial",
   "theorems": [
    "C89_results_partial",
    "C89_nameless_refuted",
    "C89_type_refuted"
   ],
   "note": "Proved for all infrastructures in good order (numbered in the order of storage, data matching the types) and all guessers. Refuted: a halt with only one identifier has a result without a name (the two emptiness tests are swapped), and the result by operational identifier has no element type."
  },
  {
   "property": "C90",
   "status": "partial",
   "theorems": [
    "C90_found_partial",
    "C90_numbers",
    "C90_every_number",
    "C90_halt_refuted",
    "C90_short_refuted"
   ],
   "note": "Proved except for halts with only one of the two identifiers (not found under it) and names of less than three characters, which the server refuses to search although many DS100 codes have two."
  },
  {
   "property": "C91",
   "status": "partial",
   "theorems": [
    "C91_requests_partial",
    "C91_results_resolve",
    "C91_element_refuted",
    "C91_set_refuted",
    "C91_big_refuted"
   ],
   "note": "Proved for stations and routes with any number below 2^32, and for elements and exclusion sets that exist. Refuted: the number of an element or exclusion set is not checked, so a number too large is undefined behaviour; numbers of 2^32 and more fail an assertion instead of not found."
  },
  {
   "property": "C92",
   "status": "partial",
   "theorems": [
    "C92_graph_partial",
    "C92_edges_once_partial",
    "C92_turned_down",
    "C92_address_refuted",
    "C92_signalless_refuted",
    "C92_overnight_refuted"
   ],
   "note": "Proved for timetables with numbered trains and times in range in which no two usages that exclude each other start at the same time; when a request is turned down is proved without such conditions. Refuted: a trip under way since the day before and a train without main signals on its path are missing, and the list of trains \",1\", which the address pattern admits, is rejected."
  },
  {
   "property": "C93",
   "status": "partial",
   "theorems": [
    "C93_iteration_partial",
    "C93_every_program",
    "C93_swallowed_refuted"
   ],
   "note": "Proved for programs in which no yielded generator fails before its first value; what happens for every program is proved as well: the exception of a yielded generator without any value is lost (C93_swallowed_refuted). Programs that yield for ever are not covered."
  },
  {
   "property": "C94",
   "status": "partial",
   "theorems": [
    "C94_collected_partial",
    "C94_all_of_it_partial",
    "C94_forgotten_refuted"
   ],
   "note": "Proved for generators that do not fail. Refuted for those that do: the exception is forgotten and the results so far are returned."
  },
  {
   "property": "C95",
   "status": "partial",
   "theorems": [
    "C95_elements_counted",
    "C95_sections_partial",
    "C95_sections_excess",
    "C95_sections_refuted"
   ],
   "note": "Elements and stations are proved for every well-drawn plan. The number of sections is proved for plans without borders to stations outside the plan; with k such borders it is too large by k/2, which is proved as well (C95_sections_refuted is a witness)."
  },
  {
   "property": "C96",
   "status": "partial",
   "theorems": [
    "C96_rows",
    "C96_readable",
    "C96_once_partial",
    "C96_determines_partial",
    "C96_once_refuted"
   ],
   "note": "The lines are characterised exactly for every network (C96_rows). The claim itself holds if no route ends at the signal at which it starts; the line of such a route names all its conflicts, so they are written twice (C96_once_refuted)."
  },
  {
   "property": "C97",
   "status": "proved",
   "theorems": [
    "C97_cleaned",
    "C97_distinct",
    "C97_again",
    "C97_kept_refuted",
    "C97_search_refuted"
   ],
   "note": "Full for ids that are 64-bit numbers. Ids that are no numbers all count as 0, so different entries are lost (refuted); the search is no binary search (refuted), which does no harm to sorted data."
  },
  {
   "property": "C98",
   "status": "proved",
   "theorems": [
    "C98_inserted",
    "C98_ways_intact",
    "C98_next_to"
   ],
   "note": ""
  },
  {
   "property": "C99",
   "status": "partial",
   "theorems": [
    "C99_removed_partial",
    "C99_output_partial",
    "C99_panics",
    "C99_removed_refuted",
    "C99_marked_refuted"
   ],
   "note": "Holds if no two stops follow each other in the list and a stop stands at the end only if it is the only one. Otherwise a stop is left over, unmarked, or the program crashes; C99_panics is the exact condition of the crash."
  },
  {
   "property": "C100",
   "status": "partial",
   "theorems": [
    "C100_stations",
    "C100_once",
    "C100_nodes",
    "C100_lines",
    "C100_all_lines_partial",
    "C100_lines_refuted",
    "C100_combined"
   ],
   "note": "Stations and combination in full. Signed numbers such as -123 pass as lines, and behind a four-character ref that is no number the rest of a relation is not read (refuted)."
  },
  {
   "property": "C101",
   "status": "partial",
   "theorems": [
    "C101_partial",
    "C101_tags",
    "C101_total",
    "C101_name",
    "C101_name_refuted",
    "C101_refuted"
   ],
   "note": "The ways of the output do not pass the new nodes, and the check of the file name compares the wrong part of it, so that every ordinary name is rejected (refuted)."
  },
  {
   "property": "C102",
   "status": "partial",
   "theorems": [
    "C102_walk",
    "C102_direction",
    "C102_safe",
    "C102_ends",
    "C102_ends_refuted"
   ],
   "note": "Full for networks whose neighbouring nodes are a minimal distance apart; on a ring of nodes at the same place the walk never ends (refuted)."
  },
  {
   "property": "C103",
   "status": "partial",
   "theorems": [
    "C103_both_directions",
    "C103_usable_partial",
    "C103_usable_refuted",
    "C103_new_node_partial",
    "C103_new_node_refuted",
    "C103_failure"
   ],
   "note": "Where two ways both begin or both end the track goes on, but the search is refused (refuted). For one of the four pairs of ends a node of the wrong search is returned (refuted); otherwise in full."
  },
  {
   "property": "C104",
   "status": "proved",
   "theorems": [
    "C104_best_node",
    "C104_no_anchors",
    "C104_safe",
    "C104_ends"
   ],
   "note": ""
  },
  {
   "property": "C105",
   "status": "proved",
   "theorems": [
    "C105_lines"
   ],
   "note": ""
  },
  {
   "property": "C106",
   "status": "partial",
   "theorems": [
    "C106_elements",
    "C106_network",
    "C106_few_anchors_refuted"
   ],
   "note": "Full for lines with two kilometrages anchored at least; with one nothing is placed and nothing reported, with none not even the file is written (refuted)."
  },
  {
   "property": "C107",
   "status": "partial",
   "theorems": [
    "C107_fit_partial",
    "C107_disjoint_partial",
    "C107_joint_refuted"
   ],
   "note": "Holds if new nodes are put next to nodes of one way; where two ways join the new node breaks the network (refuted)."
  },
  {
   "property": "C108",
   "status": "partial",
   "theorems": [
    "C108_count",
    "C108_anchors_partial",
    "C108_accounted_partial",
    "C108_identified_partial",
    "C108_listed_partial",
    "C108_second_signal_refuted",
    "C108_direction_refuted",
    "C108_crash_refuted",
    "C108_tags_refuted",
    "C108_consistent_refuted"
   ],
   "note": "The count in full; the rest for lines without switches and, for completeness, with at most one signal per node and direction. The remaining cases are refuted: the second signal is lost, a dropped signal changes its direction, anchored switches lead to a crash or lose their tags, one node gets two kilometrages."
  },
  {
   "property": "C109",
   "status": "partial",
   "theorems": [
    "C109_switches",
    "C109_line_partial",
    "C109_missing_refuted"
   ],
   "note": "Full but for the report of switches that follow one that was found (refuted)."
  },
  {
   "property": "C110",
   "status": "proved",
   "theorems": [
    "C110_later",
    "C110_exists",
    "C110_later_partial",
    "C110_nothing"
   ],
   "note": "For all distributions there are: those whose first insertion is the earliest, every other one cannot be made (C110_exists, see C46). Probabilities are exact numbers."
  },
  {
   "property": "C111",
   "status": "partial",
   "theorems": [
    "C111_nodes_partial",
    "C111_path_exists",
    "C111_paths",
    "C111_first_work",
    "C111_next_work",
    "C111_debug_refuted",
    "C111_simulate_refuted"
   ],
   "note": "The graph as far as it is built: no nodes for the routes of a train and no order edges (both are commented out). Paths and first work list for every graph. The simulation itself is unfinished: it fails an assertion, or reads results never allocated (refuted)."
  },
  {
   "property": "C112",
   "status": "proved",
   "theorems": [
    "C112_checked",
    "C112_unchecked"
   ],
   "note": ""
  },
  {
   "property": "C113",
   "status": "partial",
   "theorems": [
    "C113_directory",
    "C113_refused",
    "C113_index_refuted"
   ],
   "note": "Full for directories; the path of the index itself is never accepted (refuted)."
  },
  {
   "property": "C114",
   "status": "partial",
   "theorems": [
    "C114_resources_partial",
    "C114_options",
    "C114_sources_refuted"
   ],
   "note": "Missing resources are noticed, missing source directories are not (refuted)."
  },
  {
   "property": "C115",
   "status": "partial",
   "theorems": [
    "C115_journey_partial",
    "C115_points",
    "C115_late_refuted"
   ],
   "note": "End to end over the models of C63-C73 (plan, station routes, interlocking), C39 (path of a train) and C72 (iteration). Missing for the full property: a route that visits a station route twice (false: C72_laps_refuted) and a train whose first or last point does not lie on its first or last route (false: C115_late_refuted, such trains are imported and cannot be shown). The points (C115_points) need no such hypothesis."
  },
  {
   "property": "C116",
   "status": "partial",
   "theorems": [
    "C116_chosen",
    "C116_timetable",
    "C116_timetables_partial",
    "C116_range_partial",
    "C116_by_hand",
    "C116_overtaken_refuted",
    "C116_cleared_refuted"
   ],
   "note": "Holds if no answer is lost or overtaken by a later one. Refuted otherwise: an overtaken answer leaves the timetables of the old infrastructure; without any race the timetables remain when the selection is cleared, and the time range of the old infrastructure stays for the new one."
  },
  {
   "property": "C117",
   "status": "partial",
   "theorems": [
    "C117_drawn",
    "C117_drawn_interlocking",
    "C117_accounted",
    "C117_accounted_interlocking",
    "C117_asked",
    "C117_hidden_partial",
    "C117_hidden_interlocking_partial",
    "C117_points",
    "C117_points_interlocking",
    "C117_late_refuted",
    "C117_foreign_refuted"
   ],
   "note": "How often a route is drawn is characterised exactly for every history (C117_drawn): once per answer since it was last removed. A route removed before its answer arrives is drawn for good, and routes of one infrastructure stay on the map of another (refuted)."
  },
  {
   "property": "C118",
   "status": "partial",
   "theorems": [
    "C118_results_partial",
    "C118_in_full",
    "C118_emphasis_partial",
    "C118_late_refuted",
    "C118_overtaken_refuted",
    "C118_emphasis_refuted"
   ],
   "note": "Results: holds if no search is pending when the text changes; refuted otherwise: results of an earlier text appear, even below an empty field. Names are always shown in full; the emphasised part is right if the text stands in the name, otherwise the first letters are emphasised (refuted)."
  },
  {
   "property": "C119",
   "status": "partial",
   "theorems": [
    "C119_typed",
    "C119_emitted",
    "C119_request",
    "C119_range",
    "C119_comma_refuted",
    "C119_cleared_refuted"
   ],
   "note": "From the field to the parameters the server understands (C92), for every list of ids below 2^32. Refuted: a comma in front passes the check of the field and is sent as NaN, which the server rejects; emptying the field does not remove the filter."
  },
  {
   "property": "C120",
   "status": "partial",
   "theorems": [
    "C120_shown_partial",
    "C120_origin",
    "C120_overlap_refuted",
    "C120_stale_refuted"
   ],
   "note": "Holds if no other request is under way; what is shown always comes from answers since the last request. Refuted: overlapping requests are imported into one graph or leave the outdated one; with the timetable deselected the old graph stays."
  },
  {
   "property": "C121",
   "status": "partial",
   "theorems": [
    "C121_theme",
    "C121_mode",
    "C121_colour",
    "C121_kept",
    "C121_windows_partial",
    "C121_windows_refuted",
    "C121_cleared",
    "C121_cleared_refuted"
   ],
   "note": "In full for one page after the other (colours not empty), and for what each open page shows. Refuted: with two pages open a choice on one undoes the choices made on the other; an open page stores again what was cleared."
  },
  {
   "property": "C122",
   "status": "partial",
   "theorems": [
    "C122_boxes_partial",
    "C122_kinds_partial",
    "C122_shared_refuted",
    "C122_drawn_partial",
    "C122_theme_refuted",
    "C122_reset_partial",
    "C122_reset_refuted",
    "C122_reload_partial",
    "C122_routes_partial"
   ],
   "note": "Boxes and kinds for all histories in which at most one tab is reset; directions also without a change of theme; the first reset of a page. Refuted: tabs that were reset share one array, ticking changes what a reset restores; a change of theme forgets directions and routes."
  },
  {
   "property": "C123",
   "status": "proved",
   "theorems": [
    "C123_distinct",
    "C123_new",
    "C123_closed",
    "C123_again",
    "C123_reused"
   ],
   "note": "For every history of a window. C123_reused notes that the index of a closed tab goes to the next new one, with what is stored for it."
  },
  {
   "property": "C124",
   "status": "partial",
   "theorems": [
    "C124_exact",
    "C124_total",
    "C124_served_partial",
    "C124_lost_refuted",
    "C124_reached",
    "C124_timetable",
    "C124_timetables_partial",
    "C124_timetables_refuted"
   ],
   "note": "The table of routes in full. The client's requests in full for names and texts of letters, digits, underscore and hyphen, except the list of stations. Refuted: the client's address for the list of stations lacks the slash the server insists on; directories and search texts with any other character are offered but never reached; the timetables of an unknown infrastructure throw instead of not found."
  },
  {
   "property": "C125",
   "status": "partial",
   "theorems": [
    "C125_buttons",
    "C125_click",
    "C125_shown_partial",
    "C125_gone",
    "C125_overtaken_refuted",
    "C125_same_number_refuted",
    "C125_listed",
    "C125_toggled",
    "C125_switches_partial",
    "C125_switches_refuted",
    "C125_infrastructure_refuted"
   ],
   "note": "Overlays, the list of switches and what a toggle turns: for all histories. The station: for all histories in which no answer about a station overtakes another and the infrastructure stays. Switches: for all histories in which a switch rests until its route arrived. Refuted: late answers, the same number in another infrastructure, switches turned, failed or redrawn before the route arrived."
  },
  {
   "property": "C126",
   "status": "partial",
   "theorems": [
    "C126_answered_partial",
    "C126_fatal_refuted",
    "C126_crash_refuted",
    "C126_things",
    "C126_lists",
    "C126_unknown",
    "C126_found_partial",
    "C126_unsearchable_refuted",
    "C126_timetables_partial",
    "C126_graph_partial",
    "C126_turned_down",
    "C126_started"
   ],
   "note": "Every address that is not fatal and does not ask for an ordering is answered; things, unknown infrastructures and timetables: for all questions; search and ordering graph: under the conditions of C90 and C92. Refuted: numbers of elements and exclusion sets that do not exist and numbers of 2^32 and more end the server, as does the list of timetables of an unknown infrastructure; names with other characters are never searched."
  },
  {
   "property": "C127",
   "status": "partial",
   "theorems": [
    "C127_shown_partial",
    "C127_opened_again_partial",
    "C127_opened_again_refuted",
    "C127_emptied_refuted",
    "C127_picked",
    "C127_there",
    "C127_tabs"
   ],
   "note": "Holds from the loading of the page on as long as no other overlay is opened and the field is not emptied. After another overlay all boxes are empty until something is chosen again, whatever is in use (C127_opened_again_refuted, for every history); emptying the field changes nothing but the field (refuted). What is picked is in use and shown, and the tabs: for all histories."
  },
  {
   "property": "C128",
   "status": "partial",
   "theorems": [
    "C128_button_partial",
    "C128_list_partial",
    "C128_one_result_refuted",
    "C128_again_refuted",
    "C128_other_infrastructure_refuted",
    "C128_overlay_refuted"
   ],
   "note": "Holds after every history if no other search is under way when the text is typed and two results or more are found (the button: one or more). Refuted: one single result is not listed; the same result a second time does not move the map; results stay when the infrastructure is changed, and below the empty field of another overlay."
  },
  {
   "property": "C129",
   "status": "partial",
   "theorems": [
    "C129_read",
    "C129_rejected",
    "C129_search",
    "C129_box",
    "C129_element_partial",
    "C129_element_names",
    "C129_element_refuted",
    "C129_once",
    "C129_nothing",
    "C129_status"
   ],
   "note": "For all nested values the client reads exactly what was added, or its request is rejected, and that exactly if a number is NaN. That happens: the end of a special speed limit has no limit, and the answer about it cannot be read (C129_element_refuted), so the claim about elements is for those whose numbers are numbers. cereal's archive is modelled from its published behaviour."
  },
  {
   "property": "C130",
   "status": "partial",
   "theorems": [
    "C130_loop",
    "C130_loop_ends",
    "C130_moves",
    "C130_star",
    "C130_index",
    "C130_outside",
    "C130_values",
    "C130_distance",
    "C130_arrow_refuted"
   ],
   "note": "Loops, moves, reading, indexing and distances hold for all lists and containers. `->` does not check the identifier, so that an identifier out of range is an access outside of the container there (C130_arrow_refuted)."
  },
  {
   "property": "C131",
   "status": "partial",
   "theorems": [
    "C131_contents",
    "C131_names",
    "C131_timetable",
    "C131_interlocking_route",
    "C131_box",
    "C131_station_partial",
    "C131_station_refuted",
    "C131_station_route_refuted",
    "C131_stations_refuted",
    "C131_element_partial",
    "C131_halt_refuted",
    "C131_limit_refuted",
    "C131_search_partial",
    "C131_search_refuted"
   ],
   "note": "Holds for the lists of infrastructures and timetables, timetables, interlocking routes, boxes, detectors, slopes and switches. False for stations with station routes and for station routes (fromElement, toElement), the list of stations (objects, not texts), halts (idExtern, idOp), speed limits (pointOfActivation) and the declared type of search results (the box is wrapped once more); what is read of them without these members has its type."
  },
  {
   "property": "C132",
   "status": "proved",
   "theorems": [
    "C132_report",
    "C132_same",
    "C132_alone",
    "C132_ends",
    "C132_reached",
    "C132_total",
    "C132_texts"
   ],
   "note": "The timetable model counts an error in one step; here the lock and the single accesses of the map are steps of their own. Memory is sequentially consistent; counts are modulo 2^64 as std::size_t is."
  }
 ]
}