{"claims": [
 {"property": "C01", "status": "proved", "theorems": ["C01_one_output_per_accepted", "C01_in_order", "C01_accepted_spec"], "note": "Every number type, sorter, configuration and client state."},
 {"property": "C02", "status": "proved", "theorems": ["C02_empty_batch"], "note": "Every number type and client state."},
 {"property": "C03", "status": "proved", "theorems": ["C03_split_batch", "C03_chunking"], "note": "Every number type and client state."},
 {"property": "C04", "status": "proved", "theorems": ["C04_ordered_batch", "C04_single_measurements", "C04_time_monotone_refuted"], "note": "C04_time_monotone_refuted refutes that time never goes back inside the client."},
 {"property": "C05", "status": "proved", "theorems": ["C05_ok_iff_position", "C05_reports_client_position"], "note": "For every number type with the order laws (reals and binary64)."},
 {"property": "C06", "status": "proved", "theorems": ["C06_level_is_known"], "note": "For every number type with the order laws."},
 {"property": "C07", "status": "proved", "theorems": ["C07_never_throws", "C07_duplicate_ids_throw_refuted"], "note": "Duplicate level ids make the exception reachable (C07_duplicate_ids_throw_refuted). State after an escaped exception is not modelled."},
 {"property": "C08", "status": "proved", "theorems": ["C08_no_signal_drops_level"], "note": "The time of the last signal is the one after the measurement was taken in."},
 {"property": "C09", "status": "proved", "theorems": ["C09_stays_ok", "C09_frozen", "C09_never_cleared_refuted"], "note": "The unconditional expectation is refuted by C09_never_cleared_refuted."},
 {"property": "C10", "status": "proved", "theorems": ["C10_noaction_ineffective"], "note": "Every number type, history and client state."},
 {"property": "C11", "status": "proved", "theorems": ["C11_rejected_measurements"], "note": "Every number type, history and client state."},
 {"property": "C12", "status": "proved", "theorems": ["C12_uninitialised_members", "C12_deterministic_refuted"], "note": "Uninitialised members are an arbitrary garbage record; C12_deterministic_refuted shows two memories with different outputs."},
 {"property": "C13", "status": "proved", "theorems": ["C13_no_gyro_heading", "C13_constant_azimuth"], "note": "C13_constant_azimuth is over the reals; the other part holds for every number type with the order laws, including binary64."},
 {"property": "C14", "status": "proved", "theorems": ["C14_terminates", "C14_range", "C14_unchanged", "C14_outputs"], "note": "Real arithmetic."},
 {"property": "C15", "status": "proved", "theorems": ["C15_large_doubles_loop", "C15_infinity_loops", "C15_call_hangs"], "note": "binary64 (SpecFloat), for every libm."},
 {"property": "C16", "status": "proved", "theorems": ["C16_radio_averaging", "C16_real_mean", "C16_real_mean_bounds", "C16_real_order_independent"], "note": "Grouping and means for every number type and every valid sort; exact real means, bounds and order independence over the reals."},
 {"property": "C17", "status": "proved", "theorems": ["C17_gated_extraction", "C17_open_extraction", "C17_hand_over_spacing"], "note": "Closed gate leaves the buffer alone, open gate hands on; spacing over every history with positive timestamps."},
 {"property": "C18", "status": "proved", "theorems": ["C18_window_content", "C18_keep_period"], "note": "Refinement of the buffer to an abstract window over every time-ordered history, including stand-still mode; the keep period is non-negative for every settings."},
 {"property": "C19", "status": "proved", "theorems": ["C19_stand_still_keeps", "C19_unbounded"], "note": "Stand-still histories keep every measurement; buffer size exceeds every bound."},
 {"property": "C20", "status": "proved", "theorems": ["C20_validity_filter", "C20_collector_wf", "C20_radio_update", "C20_other_update"], "note": "valid_signal decides the stated condition for every well-formed collector; collectors built with distinct level ids are well-formed."},
 {"property": "C21", "status": "proved", "theorems": ["C21_closest", "C21_closest_defined", "C21_extraction"], "note": "Holds for every valid std::sort and N; defined for all non-NaN rssi."},
 {"property": "C22", "status": "proved", "theorems": ["C22_level_history"], "note": "Level history refined to counting rules over every detection sequence."},
 {"property": "C23", "status": "proved", "theorems": ["C23_barometer_decision", "C23_barometer_bounded", "C23_barometer_level_known", "C23_barometer_height", "C23_estimator"], "note": "Decision function over the whole call history, buffer bounds, real height formula."},
 {"property": "C24", "status": "proved", "theorems": ["C24_level_by_transmitters"], "note": "For every ordered number type (reals and binary64)."},
 {"property": "C25", "status": "proved", "theorems": ["C25_level_by_radiomap"], "note": "For every ordered number type (reals and binary64)."},
 {"property": "C26", "status": "proved", "theorems": ["C26_sigma_filter", "C26_buffer_bound", "C26_window_zero_ub"], "note": "Filter decisions over the reals; buffer bound and the window-0 undefined behaviour for every number type and every reachable client."},
 {"property": "C27", "status": "proved", "theorems": ["C27_provenance", "C27_min_deviation", "C27_client_calls"], "note": "Trace theorem over every sequence of calls, plus the link from client histories to such sequences; every number type (minimum deviation: every ordered number type)."},
 {"property": "C28", "status": "proved", "theorems": ["C28_maximum_unused", "C28_maximum_enforced_refuted"], "note": "Whole-history independence of the maximum with the sigma filter off, and a witness of acceptance above it."},
 {"property": "C29", "status": "proved", "theorems": ["C29_gnss_reported", "C29_use_gps_ignored", "C29_non_interference"], "note": "Reporting without a level and independence of Use_gps; non-interference over all pairs of histories differing only in GNSS/NMEA content, for runs without exception or undefined behaviour."},
 {"property": "C30", "status": "proved", "theorems": ["C30_pedometer_replay", "C30_fix_restamped", "C30_fix_reported_forever"], "note": "Replay of the last sensor sample into the pedometer; re-stamping of a LOCATION sample after any number of radio measurements (sigma filter off, satellite check passed)."},
 {"property": "C31", "status": "proved", "theorems": ["C31_fusion", "C31_initial", "C31_time_back_refuted"], "note": "over the reals, for every post-processor with positive deviations and inputs not older than the stored ones; the refuted theorem shows the extrapolation when time goes back"},
 {"property": "C32", "status": "proved", "theorems": ["C32_expiry", "C32_reachable", "C32_unready_refuted"], "note": "for every number type; smoother readiness (needed for the AB smoother) is proved for every reachable client"},
 {"property": "C33", "status": "proved", "theorems": ["C33_inside", "C33_rounding", "C33_geolevel", "C33_unaligned_refuted", "C33_wide_box_refuted"], "note": "over the reals; box of a GeoLevel with longitudes at most 180 degrees apart proved to start at (0,0); unaligned lower corner and wide boxes refuted"},
 {"property": "C34", "status": "proved", "theorems": ["C34_round_idempotent", "C34_creep_refuted"], "note": "idempotence over the reals; creep of a held position computed on binary64"},
 {"property": "C35", "status": "proved", "theorems": ["C35_standing", "C35_moving", "C35_far_ignored", "C35_early_ignored", "C35_never_reported"], "note": "rule for every number type and setting; unbounded sequences over the reals without graph projection"},
 {"property": "C36", "status": "proved", "theorems": ["C36_gain", "C36_gain_formula", "C36_step", "C36_history", "C36_displacement_refuted"], "note": "gain bounds for every ordered number type incl. doubles; step and history over the reals; displacement claim refuted on binary64"},
 {"property": "C37", "status": "proved", "theorems": ["C37_interpolates", "C37_last_two", "C37_time_back_refuted"], "note": "over the reals, every time-ordered history; extrapolation with times going back computed on binary64"},
 {"property": "C38", "status": "proved", "theorems": ["C38_best_line", "C38_collinear", "C38_single", "C38_output", "C38_reset", "C38_no_sample", "C38_window", "C38_negative_window", "C38_repeated_ignored"], "note": "over the reals, power 1 as used by the smoother; unique least-squares line, smoother output formula, window span for non-decreasing times, undefined behaviour for a negative averaging time"},
 {"property": "C39", "status": "proved", "theorems": ["C39_nearest", "C39_applied_if_near", "C39_built", "C39_short_edge_refuted"], "note": "over the reals; edges of squared length at most 1e-8 are represented by their first vertex, so the minimum is within 0.1 mm there (refuted as exact)"},
 {"property": "C40", "status": "proved", "theorems": ["C40_segment_distance", "C40_intersection", "C40_check", "C40_check_symmetric", "C40_axis_parallel_refuted"], "note": "over the reals, exact characterisations; CheckIntersection never reports segments parallel to an axis (refuted as complete)"},
 {"property": "C41", "status": "proved", "theorems": ["C41_gps_round_trip", "C41_local_round_trip", "C41_normalize", "C41_not_pole"], "note": "over the reals"},
 {"property": "C42", "status": "proved", "theorems": ["C42_collector", "C42_never_throws", "C42_transmitters", "C42_reference_points", "C42_graph_preserved", "C42_edges"], "note": "every number type, every sequence of additions"},
 {"property": "C43", "status": "proved", "theorems": ["C43_barriers", "C43_point_sets"], "note": "Boost predicates are parameters, assumed only to be consistent with the envelope"},
 {"property": "C44", "status": "proved", "theorems": ["C44_unit", "C44_euler", "C44_gravity", "C44_gains", "C44_gyro", "C44_magnetic_azimuth"], "note": "Over the reals. Unit norm for every history of real samples, Euler angles are those of the rotation matrix, accelerometer updates never turn the vertical away from the measured one, gyroscope integration about the vertical is 2 atan(rate dt / 2) per sample, magnetic azimuth is the tilt-compensated one."},
 {"property": "C45", "status": "proved", "theorems": ["C45_safe", "C45_steps", "C45_windows", "C45_signal", "C45_detection", "C45_at_rest"], "note": "Safety, spacing and windows for every number type (doubles with NaN included); signal, detection and rest over the reals. Window bounds over all elements need non-decreasing timestamps."},
 {"property": "C46", "status": "proved", "theorems": ["C46_length"], "note": "Over the reals."},
 {"property": "C47", "status": "proved", "theorems": ["C47_motion", "C47_defined", "C47_azimuth", "C47_monotone_counter_refuted"], "note": "Counter, times and turn angle for every number type; definedness and azimuth validity over the reals; the monotone-counter reading is refuted on doubles."},
 {"property": "C48", "status": "proved", "theorems": ["C48_distribution", "C48_repeated", "C48_stronger"], "note": "Over the reals, measurements of any number; with repeated transmitters the sum is below one."},
 {"property": "C49", "status": "proved", "theorems": ["C49_weight", "C49_best", "C49_plain_refuted"], "note": "Over the reals. Plain (non-difference) mode is refuted as a similarity measure."},
 {"property": "C50", "status": "proved", "theorems": ["C50_position", "C50_estimator"], "note": "Over the reals, triangle lists and radiomaps of any size; the estimator theorem covers the whole calculatePosition."},
 {"property": "C51", "status": "proved", "theorems": ["C51_zero", "C51_estimator", "C51_average_refuted"], "note": "Every number type in which 0 < epsilon, shown for reals and doubles."},
 {"property": "C52", "status": "proved", "theorems": ["C52_output", "C52_few", "C52_edges", "C52_safe", "C52_repeated_name_refuted"], "note": "Output for every number type; Euclidean lengths and absence of undefined behaviour over the reals for distinct names and places; a repeated name is undefined behaviour (std::sort with an inconsistent comparator)."},
 {"property": "C53", "status": "proved", "theorems": ["C53_exact", "C53_independent_refuted"], "note": "Every number type, any number of levels."},
 {"property": "C54", "status": "proved", "theorems": ["C54_weights", "C54_sum", "C54_far_refuted"], "note": "Over the reals; the normalisation threshold makes the sum-to-one reading false for particles about 1e8 m away (witness on doubles)."},
 {"property": "C55", "status": "proved", "theorems": ["C55_zone"], "note": "Over the reals."},
 {"property": "C56", "status": "proved", "theorems": ["C56_kept", "C56_exact", "C56_few"], "note": "Over the reals, any valid std::sort; maximality needs distinct transmitters and non-negative distances."},
 {"property": "C57", "status": "proved", "theorems": ["C57_system", "C57_formula", "C57_altitude_refuted"], "note": "Negative result: the linear system is right, the final formula is not; the witness holds for every solver of the system and every valid std::sort."},
 {"property": "C58", "status": "proved", "theorems": ["C58_delaunay", "C58_empty", "C58_repeated_places", "C58_inputs_alone_refuted"], "note": "Over the reals. Bowyer-Watson invariant: after each insertion the triangle list is exactly the set of Delaunay triangles; pencil-of-circles argument for the cavity boundary. General position is assumed, including the auxiliary corners; witness that the auxiliary corners can suppress every triangle."},
 {"property": "C59", "status": "proved", "theorems": ["C59_disjoint", "C59_cover"], "note": "Disjointness by radical lines, coverage by the lifting argument; stated for the output and the Delaunay triangles of inputs plus auxiliary corners."},
 {"property": "C60", "status": "proved", "theorems": ["C60_codes", "C60_total", "C60_kept", "C60_mean", "C60_distance_mean_refuted"], "note": "C60_distance_mean_refuted: the averaged distance is dropped by the code."},
 {"property": "C61", "status": "proved", "theorems": ["C61_position", "C61_hull", "C61_order", "C61_exact_refuted"], "note": "C61_exact_refuted: exact distances do not give the true point."},
 {"property": "C62", "status": "proved", "theorems": ["C62_accumulates", "C62_repeat_refuted", "C62_again_refuted", "C62_nan_refuted"], "note": "C62_repeat_refuted, C62_again_refuted, C62_nan_refuted: witnesses in doubles that calls are not independent."},
 {"property": "C63", "status": "proved", "theorems": ["C63_exact", "C63_minimum", "C63_singular"], "note": "The solver returns nothing in the code; the model returns its local vector xy."},
 {"property": "C64", "status": "proved", "theorems": ["C64_tracks", "C64_settles", "C64_limit", "C64_rate", "C64_overshoot_refuted", "C64_irregular_refuted"], "note": "Refuted parts are stated exactly: results may overshoot, and irregular intervals without the speed constraint amplify the error."},
 {"property": "C65", "status": "proved", "theorems": ["C65_window", "C65_recent", "C65_first_ignored", "C65_late_ignored", "C65_spacing", "C65_same_scan_refuted"], "note": "Times are assumed non-negative because -1 marks an unused buffer."},
 {"property": "C66", "status": "proved", "theorems": ["C66_strongest", "C66_packets"], "note": "Totality and ranges over the reals with undefined values; the selection over any number type."},
 {"property": "C67", "status": "proved", "theorems": ["C67_nearest", "C67_empty_iff", "C67_precision", "C67_stale_refuted"], "note": "Levels must be comparable (no NaN), which C66 guarantees for packets."},
 {"property": "C68", "status": "proved", "theorems": ["C68_refines", "C68_stale", "C68_converges", "C68_gain", "C68_gain_real", "C68_irregular_refuted"], "note": "The core version ignores non-finite results, the stand-alone one stores them; hence the finiteness hypothesis."},
 {"property": "C69", "status": "proved", "theorems": ["C69_refines", "C69_batching", "C69_main", "C69_core", "C69_warm_up_refuted", "C69_gap_refuted"], "note": "C69_warm_up_refuted and C69_gap_refuted show that both hypotheses are needed. Samples carry the unused type tag of the core's record."},
 {"property": "C70", "status": "proved", "theorems": ["C70_safe", "C70_idle", "C70_cadence", "C70_lost_refuted"], "note": "C70_lost_refuted: a step is lost when update is called twice without calculateSteps."},
 {"property": "C71", "status": "proved", "theorems": ["C71_refines", "C71_safe", "C71_inertial", "C71_drift"], "note": "A gyroscope time of -1 would restart the start-up phase; it is excluded."},
 {"property": "C72", "status": "proved", "theorems": ["C72_converges", "C72_tilt", "C72_stuck", "C72_gain_refuted", "C72_flip_refuted"], "note": "C72_stuck and C72_gain_refuted: gains above 2; C72_flip_refuted: upside down, in doubles, any number of samples."},
 {"property": "C73", "status": "proved", "theorems": ["C73_turn", "C73_north", "C73_level_refuted"], "note": "C73_level_refuted: the tilt does change."},
 {"property": "C74", "status": "proved", "theorems": ["C74_great_circle", "C74_metric"], "note": "Real arithmetic; rounding is not modelled."},
 {"property": "C75", "status": "proved", "theorems": ["C75_vertices", "C75_terminates", "C75_never_ends", "C75_found", "C75_real", "C75_order_irrelevant", "C75_order_refuted", "C75_overflow_hang_refuted"], "note": "C75_order_refuted (three points 8 cm apart) and C75_overflow_hang_refuted (doubles, libm functions returning NaN on NaN) are the negative parts."},
 {"property": "C76", "status": "proved", "theorems": ["C76_graph", "C76_copies", "C76_repeated", "C76_short_line", "C76_one_vertex_per_point_refuted", "C76_third_point_refuted"], "note": "C76_one_vertex_per_point_refuted, C76_third_point_refuted. The assertion on the number of points is taken as compiled out."},
 {"property": "C77", "status": "proved", "theorems": ["C77_entries", "C77_undefined_iff", "C77_mean", "C77_no_measurement", "C77_variance_refuted", "C77_overflow_refuted", "C77_repeated_refuted"], "note": "C77_variance_refuted, C77_overflow_refuted, C77_repeated_refuted."},
 {"property": "C78", "status": "proved", "theorems": ["C78_levels", "C78_collector_accepts", "C78_unlisted_level_refuted"], "note": "JSON text is not modelled: a file is a list of features. The geometry is any function here; C94 and C95 are about the one the code computes. C78_unlisted_level_refuted."},
 {"property": "C79", "status": "proved", "theorems": ["C79_batches", "C79_other_sizes", "C79_prints_outputs", "C79_times", "C79_size_irrelevant", "C79_time_zero_refuted", "C79_late_time_refuted"], "note": "C79_time_zero_refuted, C79_late_time_refuted."},
 {"property": "C80", "status": "proved", "theorems": ["C80_moves_once", "C80_heading_zero", "C80_dropped_steps"], "note": "The heading is an uninitialised member: one unspecified value per run."},
 {"property": "C81", "status": "proved", "theorems": ["C81_sensor", "C81_radio", "C81_eddystone_refuted", "C81_throws_iff", "C81_unknown_type", "C81_log"], "note": "C81_eddystone_refuted. A message is the record of its fields; JSON text and type errors inside a field are not modelled."},
 {"property": "C82", "status": "proved", "theorems": ["C82_read", "C82_first_error", "C82_outcomes", "C82_unknown_keys", "C82_documented_names", "C82_documented_names_refuted", "C82_no_altitude", "C82_one_bad_value_refuted"], "note": "A file is a JSON value; the text parser is not modelled. C82_one_bad_value_refuted, C82_documented_names_refuted."},
 {"property": "C83", "status": "proved", "theorems": ["C83_level", "C83_bad_A_refuted", "C83_file", "C83_failures", "C83_client"], "note": "C83_bad_A_refuted. A client of the KNN algorithm also triangulates the map (C21)."},
 {"property": "C84", "status": "proved", "theorems": ["C84_map", "C84_shows_one", "C84_log", "C84_fields", "C84_fraction_refuted", "C84_empty_polygon"], "note": "The text parser is not modelled; for polygon geometry see C94 and C95. C84_fraction_refuted."},
 {"property": "C85", "status": "proved", "theorems": ["C85_outputs", "C85_never_throws", "C85_missing_level"], "note": "Undefined behaviour (e.g. durations that do not fit, C83) and the number of loop rounds are not excluded by C85_never_throws."},
 {"property": "C86", "status": "proved", "theorems": ["C86_no_ub", "C86_doubles", "C86_total", "C86_negative_memory_refuted", "C86_nan_rssi_refuted", "C86_program", "C86_program_total", "C86_files", "C86_knn_built"], "note": "Only the undefined behaviour the model represents (DESIGN.md section 1); for overflow of time stamps see C96. For KNN, C86_knn_built (reals) says when the client exists; the program theorem takes a client that could be built. C86_negative_memory_refuted, C86_nan_rssi_refuted."},
 {"property": "C87", "status": "proved", "theorems": ["C87_heard", "C87_one_transmitter", "C87_fix", "C87_smoothing_refuted"], "note": "Over the reals. Level detection by transmitters and zone estimation only; GNSS, KNN and graph projection excluded by hypothesis. C87_smoothing_refuted (binary64) shows the single-point condition on smoothers is needed."},
 {"property": "C88", "status": "proved", "theorems": ["C88_numbers", "C88_time_back_refuted"], "note": "Over the reals with an undefined value for 0/0, negative roots and the like. C88_time_back_refuted (binary64) shows that the condition on time is needed when fusion is on."},
 {"property": "C89", "status": "proved", "theorems": ["C89_radius", "C89_knn", "C89_gnss_refuted"], "note": "For any arithmetic; stops are excluded because a held fix keeps an older radius. C89_gnss_refuted (binary64) is the GNSS fix of radius 0."},
 {"property": "C90", "status": "proved", "theorems": ["C90_on_map", "C90_frames_refuted", "C90_levels_refuted"], "note": "Over the reals. C90_frames_refuted and C90_levels_refuted (binary64) show that the common box is needed."},
 {"property": "C91", "status": "proved", "theorems": ["C91_weights", "C91_offset", "C91_order", "C91_plain_refuted", "C91_zone", "C91_level_refuted"], "note": "Over the reals for C91_weights, C91_offset, C91_order, C91_zone. C91_plain_refuted (reals) and C91_level_refuted (binary64) show that plain mode and the level estimator are not invariant."},
 {"property": "C92", "status": "proved", "theorems": ["C92_time_origin", "C92_generic", "C92_zero_refuted", "C92_early_refuted"], "note": "C92_time_origin holds for every number type; C92_generic shows that a sort meeting its hypothesis exists. C92_zero_refuted and C92_early_refuted (binary64) show that times near zero must be excluded."},
 {"property": "C93", "status": "proved", "theorems": ["C93_fresh", "C93_silence_refuted"], "note": "C93_fresh holds for every number type. C93_silence_refuted (binary64): a buffer that is averaged before its old contents are dropped makes the first fix after a pause show the transmitter heard before the pause."},
 {"property": "C94", "status": "proved", "theorems": ["C94_box", "C94_file", "C94_local", "C94_antimeridian_refuted", "C94_empty_refuted"], "note": "C94_box, C94_file and C94_local over the reals. C94_antimeridian_refuted and C94_empty_refuted show the two excluded cases."},
 {"property": "C95", "status": "proved", "theorems": ["C95_ring", "C95_any_ray", "C95_some_ray", "C95_drawing", "C95_level", "C95_move", "C95_rectangle", "C95_smoother", "C95_holes_refuted"], "note": "Over the reals; Boost's winding strategy is written down with exact comparisons. C95_holes_refuted shows what overlapping holes do."},
 {"property": "C96", "status": "proved", "theorems": ["C96_no_overflow", "C96_listed", "C96_uninitialised", "C96_uninitialised_refuted", "C96_span_refuted", "C96_config", "C96_config_refuted"], "note": "About the list of integer operations a run evaluates (Overflow.v). C96_uninitialised_refuted, C96_span_refuted and C96_config_refuted show the excluded cases."},
 {"property": "C97", "status": "proved", "theorems": ["C97_point_on_line", "C97_on_line_refuted", "C97_ray", "C97_ray_symmetric", "C97_ray_even", "C97_ray_right_refuted", "C97_line_distance", "C97_line_undefined", "C97_distance", "C97_area", "C97_area_levels", "C97_determinant"], "note": "Real numbers. C97_on_line_refuted and C97_ray_right_refuted show what the tolerances let through."},
 {"property": "C98", "status": "proved", "theorems": ["C98_sufficient", "C98_last", "C98_centers", "C98_fresh", "C98_weights", "C98_nearer", "C98_area", "C98_area_convex", "C98_stale_refuted"], "note": "C98_stale_refuted: the sampling centre given for a level can be the point of another level."},
 {"property": "C99", "status": "proved", "theorems": ["C99_bounded", "C99_noise", "C99_attained", "C99_turns_over", "C99_static_tilt"], "note": "Real numbers. Magnetometer samples only after the gyroscope has started, integral gain at most 1e-8 (the default is 0)."},
 {"property": "C100", "status": "proved", "theorems": ["C100_map", "C100_corner"], "note": "Real numbers. With triangles the numbers of the map and of the signals must be numbers. A single point instead of a rectangle needs no condition on the smoothers."},
 {"property": "C101", "status": "proved", "theorems": ["C101_settles_core", "C101_settles", "C101_residual"], "note": "Real numbers; integral gain at most 1e-8 (the stand-alone and core gains), integral error zero at the start; the initial error at most 90 degrees."},
 {"property": "C102", "status": "proved", "theorems": ["C102_pendulum"], "note": "Real numbers; normal draws are replaced by arbitrary bounded draws. An Example runs the first 1000 ticks in doubles and finds the same times."},
 {"property": "C103", "status": "proved", "theorems": ["C103_positions", "C103_one_place", "C103_cut"], "note": "Lines are modelled as readable records or None; the text of a line is not modelled. Coordinates must be numbers, which operator>> guarantees."},
 {"property": "C104", "status": "proved", "theorems": ["C104_vacuous", "C104_verdict_refuted", "C104_report"], "note": "Includes a refutation of what the test claims to check."},
 {"property": "C105", "status": "proved", "theorems": ["C105_tilted", "C105_passes"], "note": "Real numbers; normal draws are replaced by arbitrary bounded draws. An Example checks the times in doubles."},
 {"property": "C106", "status": "proved", "theorems": ["C106_standalone", "C106_client", "C106_negative_refuted"], "note": "Real numbers. Includes a refutation for negative shifts."},
 {"property": "C107", "status": "proved", "theorems": ["C107_unread", "C107_unread_filter", "C107_smoothed", "C107_range", "C107_forgets"], "note": "First part for every number type, second part over the reals."},
 {"property": "C108", "status": "proved", "theorems": ["C108_radio_map", "C108_transmitters", "C108_agree", "C108_same_name_refuted"], "note": "Every number type. Includes a refutation for repeated level names."},
 {"property": "C109", "status": "proved", "theorems": ["C109_read", "C109_report", "C109_number", "C109_length", "C109_missing"], "note": "Real numbers except the reading (any number type) and C109_missing (doubles). BOOST_CHECK_CLOSE is modelled from its documentation: Boost is not part of the repository."},
 {"property": "C110", "status": "proved", "theorems": ["C110_solves", "C110_singular", "C110_regular_refuted"], "note": "Real numbers; not-a-number stands for 0/0, x/0 and everything computed from it."},
 {"property": "C111", "status": "proved", "theorems": ["C111_best", "C111_exact", "C111_output", "C111_interpolates", "C111_degenerate", "C111_off"], "note": "Real numbers; the loss of smoothing is also shown in doubles by the Example C111_example_off."},
 {"property": "C112", "status": "proved", "theorems": ["C112_equal", "C112_core", "C112_symmetric", "C112_transitive_refuted", "C112_reflexive_refuted", "C112_normalize", "C112_unit", "C112_cross", "C112_product", "C112_turn", "C112_times", "C112_self", "C112_scale", "C112_scale_self"], "note": "Real numbers for the algebra; the operators are modelled as assignments in order, with an argument that may be the object itself."},
 {"property": "C113", "status": "proved", "theorems": ["C113_nearest_first", "C113_negative", "C113_none", "C113_object"], "note": "Failure states and order in any arithmetic; the sum over a life in real numbers."},
 {"property": "C114", "status": "proved", "theorems": ["C114_carried", "C114_law", "C114_nearer", "C114_zero"], "note": "What is handed on in any arithmetic; the law of the distance in real numbers."},
 {"property": "C115", "status": "proved", "theorems": ["C115_last", "C115_equal", "C115_equivalence", "C115_names", "C115_location_refuted", "C115_major_refuted"], "note": "The conversion of unsigned int to int is modulo 2^32, as on all supported compilers."},
 {"property": "C116", "status": "proved", "theorems": ["C116_lines", "C116_word", "C116_integer", "C116_number", "C116_transmitters", "C116_measurements", "C116_samples", "C116_crlf", "C116_blank", "C116_fraction", "C116_truth"], "note": "getline and operator>> as libstdc++ does them in the C locale; the conversion of a spelled decimal to a double (strtod) is a parameter."},
 {"property": "C117", "status": "proved", "theorems": ["C117_multiple", "C117_compare", "C117_sum", "C117_nearest", "C117_between", "C117_order", "C117_history", "C117_standalone", "C117_any_double_refuted"], "note": "Binary64 as SpecFloat of the standard library specifies it; nearest is stated with real numbers over all finite doubles."},
 {"property": "C118", "status": "proved", "theorems": ["C118_states", "C118_points", "C118_life", "C118_flag", "C118_window"], "note": "Any arithmetic. NavigationState of the indoor estimators is always the default one."},
 {"property": "C119", "status": "proved", "theorems": ["C119_few", "C119_otherwise", "C119_last_message", "C119_no_new_fix"], "note": "Any arithmetic, from any client state."},
 {"property": "C120", "status": "proved", "theorems": ["C120_durations_ignored", "C120_cadence_refuted"], "note": "Any ordered arithmetic in which 0 < 1 * 300; the refutation is a run from the initial state in doubles."},
 {"property": "C121", "status": "proved", "theorems": ["C121_settings", "C121_positions"], "note": "Any arithmetic; both runs are assumed to return (C07 and the undefined-behaviour properties say when they do)."}
]}
