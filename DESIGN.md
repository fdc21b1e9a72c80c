# Formal model of the Navigine indoor positioning core

## 1. How the code is modelled

The C++ library in `/repo/src` and `/repo/include`, and the four stand-alone
algorithms in `/repo/standalone_algorithms`, are transcribed function by
function into total, computable Gallina functions (Coq 8.16.1).  Every
definition carries a comment with the file and lines it transcribes.  The code
is never run here: the tie between model and code is the transcription.

**Numbers.**  The code computes in `double`.  The model is polymorphic in the
number type through the class `Num F` (`Num.v`), a bag of operations with *no
laws*.  Two instances are used:

* `RX` (`NumReal.v`): `option R`; `None` is produced by every operation whose
  real value is undefined (division by zero, square root of a negative, log of
  a non-positive, asin out of range).  Comparisons with `None` are false, as
  with NaN.  Theorems over `RX` state that results are `Some r`, so they also
  prove the absence of division by zero and domain errors.  Rounding is not
  modelled by this instance.
* `SF` (`NumFloat.v`): IEEE-754 binary64 from the standard library's
  `SpecFloat` (bit-exact add, sub, mul, div, sqrt, compare, floor, truncation);
  the transcendental functions are a parameter.

Theorems about control flow, selection, bookkeeping and histories are proved
for every `F` and every `Num F`, hence also for binary64 with any libm.
Theorems that only need the comparison to be a strict order with
incomparable elements (NaN) are proved for every `NumOrd F` (`NumOrd.v`); both
`RX` and `SF` are instances (`ord_real`, `ord_float`).  The few laws about
finite values needed to exclude NaN sort keys are `NumFin F` (`NumFin.v`), with
the same two instances.

**Outcomes.**  Functions that can fail return `res A` = `Ok a | Throw | UB |
OutOfFuel`: a C++ exception, undefined behaviour and an exhausted loop bound
are distinct from normal values.  A call that throws leaves the object in the
state before the call in the model; no theorem speaks about the state of a
client after an exception.

**Library.**  `std::sort` is an oracle (`Sorter`): any function that returns a
sorted permutation whenever the comparator is a strict weak order on the
elements; `sort_res` is `UB` when it is not (for example NaN keys).
`std::max_element`/`min_element` are left folds with the code's comparator, so
NaN behaves as in C++.  The covered-by predicate of a level's polygons is a Boolean function stored
in the level, and all properties but C94 and C95 hold for any such function.
`Outline.v` defines the one the code computes: Boost's `correct`, `envelope` and
`covered_by` (non-zero winding) are written down from their documentation with
exact comparisons, without Boost's tolerance of one unit in the last place.  Eigen's SVD solve is a parameter.  `std::map`/`unordered_map`
are association lists (`mset` keeps them sorted by key where the code iterates
over the map; `Tools.v` iterates an unordered map in an arbitrary order; no other
unordered container is iterated in a way the result depends on), `std::deque`/`vector` are lists,
identifiers are `string`.

**Uninitialised memory.**  `mLastSignalTs`, `mSensor`, `mNmea` are never
initialised by the C++ constructor.  The model's initial state takes them as an
arbitrary argument (`garbage`); theorems quantify over it.  Uninitialised
fields of error outputs are `None`.

## 2. Which code is modelled

| model file | code |
|---|---|
| `Types.v` | `include/navigine/navigation-core/*.h`, `src/position.h`, `src/measurement_types.h`, `src/navigation_error_codes.h` |
| `Geo.v` | `src/geometry.{h,cpp}`, `src/point.cpp` |
| `LevelModel.v` | `src/level.cpp`, `level_collector.cpp`, `level_geometry.cpp`, `barriers_geometry_builder.cpp`, `radiomap.cpp`, `graph.h` |
| `Preproc.v` | `src/measurements/*` |
| `Knn.v`, `Triangulation.v` | `src/knn/*`, `src/triangulation.{h,cpp}` |
| `LevelEst.v` | `src/level_estimator/*` |
| `Estimators.v` | `src/position_estimator/*` |
| `SaBeacon.v` | `trilateteration/src/beacon.{h,cpp}`: the classes with all members |
| `Vec.v` | `src/vector3d.cpp`, `vector3d.h`, `src/sensor_fusion/quaternion.cpp`: the operators other files do not use |
| `SaText.v` | the text read by the stand-alone programs: getline, operator>> of libstdc++ in the "C" locale; strtod a parameter |
| `Sensors.v` | `src/sensor_fusion/*`, `src/vector3d.cpp` |
| `Smooth.v`, `Postproc.v` | `src/position_postprocessor/*` |
| `Likelihood.v` | `src/likelihood/*` |
| `Trilat.v` | `src/trilateration.cpp` |
| `Client.v` | `src/navigation_client_impl.{h,cpp}` |
| `SaTrilat.v` | `standalone_algorithms/trilateteration/src/{beacon,trilateration}.*` |
| `SaPos.v` | `standalone_algorithms/position_estimation/{src,include}/*`, `splitToPackets` of its example |
| `SaDemo.v` | the example programs of the stand-alone algorithms and `test_trilateration.cpp`, from parsed lines and drawn noise to the lines written |
| `SaTest.v` | `tests/complementary_filter_test.cpp` of the stand-alone complementary filter, from drawn noise to the two checks |
| `SaPedTest.v` | `tests/pedometer_test.cpp`, from parsed lines to the two checks (BOOST_CHECK_CLOSE after its documentation) |
| `SaPed.v` | `standalone_algorithms/pedometer/src/pedometer.cpp` and the loop of its example |
| `Tools.v` | `tools/verification/helpers.cpp:17-44, 66-109, 316-696` (file readers, on the fields of the JSON objects) |
| `Json.v` | `tools/verification/helpers.cpp:46-64, 111-314, 698-723` (settings files, on JSON values) |
| `Outline.v` | `src/barriers_geometry_builder.cpp:13-24`, `src/level_collector.cpp:47-92, 154-161` and the Boost.Geometry algorithms they call |
| `Ray.v` | `src/geometry.cpp:54-61` |
| `Like.v` | `src/likelihood/likelihood_radiomap.cpp:14-29`, sequences of calls |
| `Overflow.v` | the integer operations of the files above, in the order of evaluation |
| `JsonDoc.v` | `tools/verification/helpers.cpp:21-44, 66-109, 316-331, 382-403, 460-539, 568-696` (map and log files, on JSON values); `tests/navigation_test.cpp:42-133` |
| `Driver.v` | `tests/navigation_test.cpp:30-40, 71-133` |
| `SaCf.v` | `standalone_algorithms/complementary_filter/src/*` (shared helpers from `Sensors.v`) |

Times and counts are `Z`; C96 tells when the `long long` and `int` arithmetic
of a run agrees with that.  Not modelled: memory
exhaustion, aliasing (except in `Vec.v`) and threads, logging, debug output,
`NAVIGATION_VISUALIZATION`, the JSON text itself (a file is a JSON value whose
objects are sorted by key, as nlohmann::json keeps them; a log is one value per
line), the unused polygon reader (`helpers.cpp:489-512`),
the console output of the example programs (and strtod, a parameter of `SaText.v`), the particle states (always default in this code base).
Tools: the assertion that a line has two points is taken as compiled out, the
`std::unordered_map` of vertices is iterated in an arbitrary order (`ord`), int
overflow of the fingerprint sums is undefined behaviour, ints elsewhere are
`Z`.  Driver: the never-written `NavigationState::mHeading` is one arbitrary
value per run; `std::size_t` arithmetic of the batch loop wraps.  Stand-alone trilateration: identifiers contain no NUL
character, `printf` output and `mErrorMessage` texts are left out.  Stand-alone
position estimation: the `frequency` field is dropped and only the types the
code produces (WIFI, BEACON) exist.  Stand-alone pedometer: the sample type is
the core's record, its tag is ignored.

## 3. Properties and how each is treated

Statements are in `properties.jsonl`, theorem names in `MANIFEST.json`.
Specifications (`Spec_*.v`) are written without the model's helpers; `Pf_*.v`
hold the proofs, `P_*.v` the theorems with an `Example` beside each.  A claim
one would expect but which is false of the code has a theorem `..._refuted`
with a concrete witness, next to the exact statement that does hold.

| id | files | proof |
|----|-------|-------|
| C01-C13 | `P_History`, `P_Client` | induction over the batch with an independent left-to-right-maxima spec; state invariant preserved by each step, lifted to all batches; relational induction, witnesses |
| C14-C15 | `P_Angle` | real: induction on distance; double: fixpoint of the loop body |
| C16-C21 | `P_Preproc` | grouping lemmas on sorted lists, refinement to an abstract window |
| C22-C25 | `P_Level` | invariants over detection sequences, argmax lemmas |
| C26-C30 | `P_Outdoor` | invariants, relational lemmas, witnesses |
| C31-C39 | `P_Post`, `P_Smooth` | real algebra, invariants, normal equations |
| C40-C43 | `P_Geo` | real algebra, induction over construction |
| C44-C47 | `P_Sensors` | invariants over sensor histories |
| C48-C53 | `P_Knn`, `P_Tri` | real algebra, list induction |
| C54-C57 | `P_Radio` | argmax, filtering lemmas, witness |
| C58-C59 | `P_Del` | Delaunay invariant of the incremental construction, plane covering |
| C60-C63 | `P_SaTrilat` | error codes, closed form of the position, Gauss elimination |
| C64 | `P_Track` | linear recurrence, convergence of the smoother |
| C65-C68 | `P_SaPos` | window refinement, argmax, refinement to the core smoother |
| C69-C70 | `P_SaPed` | refinement of the trimmed deques to an unbounded signal; call-order invariant |
| C71-C73 | `P_SaCf` | projection refinement, non-interference, geometric and cotangent convergence |
| C74-C78, C81 | `P_Tools` | spherical trigonometry, invariants of the graph construction, folds over features |
| C82-C83 | `P_Json` | induction over the sorted keys, one row per setting |
| C84-C85 | `P_Doc` | equivalence of the readers with a relational specification, composition of C07, C78, C79, C83 |
| C86 | `P_UB` | state invariant carried through every stage for any outcome modality (result, or result from some loop bound on) |
| C87 | `P_Place` | invariant "every stored position lies in the rectangle" carried through the whole client; for the fix itself an invariant on buffered signal strengths and the buffer's clock |
| C88, C90 | `P_Num` | invariant "every stored number is defined, every stored place is on the map" carried through the whole client, with the deviations kept positive by the order of time |
| C89 | `P_Radius` | invariant on where each stored deviation comes from |
| C91 | `P_Offset` | the estimates of two runs related by an offset or a permutation |
| C92 | `P_Shift` | a relation between the states of two runs whose times differ by a constant, kept by every step |
| C93 | `P_Fresh` | invariant: the age of the buffer, of the stored estimate and the level that is never lost |
| C99 | `P_Tilt` | induction over samples; angles between unit vectors (Gram determinant), monotone turn |
| C100 | `P_PlaceK` | invariant of the client state over histories (position stores, smoothers, level history) |
| C101, C102 | `P_Settle` | isometry of the prediction, contraction of the correction, geometric invariant; the pendulum as an instance |
| C103, C104 | `P_SaDemo` | invariant of the estimator over packets; strings by induction; the weighted mean by permutation |
| C105 | `P_SaTest` | the settling bound of C101 along the run of the test |
| C106, C107, C108 | `P_Conf` | truncation bounds; a relation between two runs; folds over levels and points |
| C109 | `P_SaPedTest` | induction over lines; bounded-signal invariant of the pedometer |
| C110, C111 | `P_Poly` | invariant of the rotations: row r is a combination of the first r rows with a non-zero last weight; roots of polynomials |
| C112 | `P_Vec` | algebra; in-place operators as sequences of assignments |
| C113 | `P_SaObj` | induction over entries; induction over calls |
| C114 | `P_Dist` | case analysis; logarithm |
| C115 | `P_SaBeacon` | induction over calls from the end |
| C116 | `P_SaText` | scanners shown equal to the grammar in both directions; induction over characters and lines |
| C117 | `P_Mean` | exactness of SpecFloat sums, comparisons and quotients on a grid (`NumExact.v`); induction over lists and histories |
| C118 | `P_States` | induction over measurements and calls |
| C119 | `P_Sats` | case analysis of one sample; induction over measurements |
| C120 | `P_Sats` | simulation between two runs; a run evaluated in doubles |
| C121 | `P_Compass` | simulation between two clients; induction over measurements and calls |
| C97 | `P_Ray` | real arithmetic; parity of crossings by induction over the vertices |
| C98 | `P_Like` | induction over sequences of calls; convexity of discs |
| C96 | `P_Overflow` | list of the values of all integer operations of a run; invariant that every stored time was given or is 0 or -1 |
| C94-C95 | `P_Outline` | winding number as a sum of half-turns, compared between directions by a reflective check of all sign cases; invariance under reversal, rotation, axis exchange and moves |
| C79-C80 | `P_Driver` | equality of executions for all cuts, frozen-state invariant |

`seeded/LOG.jsonl` records wrong programs the theorems were tested against:
each line is one edit of a model definition, the claim it breaks and the
theorems that no longer prove.

## 4. Trusted base

* Coq's kernel (8.16.1).
* The transcription of the C++ code, with the simplifications above.
* Axioms of the standard library, and no other library's.  `Print Assumptions`
  follows each property theorem; it lists:

* **none (`Closed under the global context`)** - 275 theorems: C01_accepted_spec, C01_in_order, C01_one_output_per_accepted, C02_empty_batch, C03_chunking, C03_split_batch, C04_ordered_batch, C04_single_measurements, C04_time_monotone_refuted, C05_ok_iff_position, C05_reports_client_position, C06_level_is_known, C07_duplicate_ids_throw_refuted, C07_never_throws, C08_no_signal_drops_level, C09_frozen, C09_never_cleared_refuted, C09_stays_ok, C103_cut, C104_vacuous, C104_verdict_refuted, C107_unread, C107_unread_filter, C108_agree, C108_radio_map, C108_same_name_refuted, C108_transmitters, C109_missing, C109_read, C10_noaction_ineffective, C112_normalize, C112_reflexive_refuted, C112_scale, C112_times, C113_nearest_first, C113_negative, C113_none, C114_carried, C115_equal, C115_equivalence, C115_last, C115_location_refuted, C115_major_refuted, C115_names, C116_blank, C116_crlf, C116_fraction, C116_integer, C116_lines, C116_measurements, C116_number, C116_samples, C116_transmitters, C116_truth, C116_word, C117_any_double_refuted, C117_between, C117_compare, C117_order, C117_sum, C118_flag, C118_life, C118_points, C118_states, C118_window, C119_few, C119_last_message, C119_no_new_fix, C119_otherwise, C11_rejected_measurements, C120_cadence_refuted, C120_durations_ignored, C121_positions, C121_settings, C12_deterministic_refuted, C12_uninitialised_members, C13_no_gyro_heading, C15_call_hangs, C15_infinity_loops, C15_large_doubles_loop, C16_radio_averaging, C17_gated_extraction, C17_hand_over_spacing, C17_open_extraction, C18_keep_period, C18_window_content, C19_stand_still_keeps, C19_unbounded, C20_collector_wf, C20_other_update, C20_radio_update, C20_validity_filter, C21_closest, C21_closest_defined, C21_extraction, C22_level_history, C23_barometer_bounded, C23_barometer_decision, C23_barometer_level_known, C23_estimator, C24_level_by_transmitters, C25_level_by_radiomap, C26_buffer_bound, C26_window_zero_ub, C27_client_calls, C27_min_deviation, C27_provenance, C28_maximum_enforced_refuted, C28_maximum_unused, C29_gnss_reported, C29_non_interference, C29_use_gps_ignored, C30_fix_reported_forever, C30_fix_restamped, C30_pedometer_replay, C31_time_back_refuted, C32_expiry, C32_reachable, C32_unready_refuted, C33_wide_box_refuted, C34_creep_refuted, C35_moving, C35_standing, C36_displacement_refuted, C36_gain, C37_time_back_refuted, C38_no_sample, C38_repeated_ignored, C39_built, C42_collector, C42_edges, C42_graph_preserved, C42_never_throws, C42_reference_points, C42_transmitters, C43_barriers, C45_safe, C45_steps, C45_windows, C47_monotone_counter_refuted, C47_motion, C51_average_refuted, C51_estimator, C51_zero, C52_few, C52_output, C52_repeated_name_refuted, C53_exact, C53_independent_refuted, C54_far_refuted, C56_few, C60_codes, C60_distance_mean_refuted, C60_kept, C62_again_refuted, C62_nan_refuted, C62_repeat_refuted, C64_irregular_refuted, C64_overshoot_refuted, C65_first_ignored, C65_late_ignored, C65_recent, C65_same_scan_refuted, C65_spacing, C65_window, C66_strongest, C67_empty_iff, C67_nearest, C67_stale_refuted, C68_gain, C68_irregular_refuted, C68_refines, C68_stale, C69_batching, C69_core, C69_gap_refuted, C69_main, C69_refines, C69_warm_up_refuted, C70_cadence, C70_idle, C70_lost_refuted, C70_safe, C71_inertial, C71_refines, C72_flip_refuted, C75_found, C75_never_ends, C75_overflow_hang_refuted, C75_terminates, C75_vertices, C76_copies, C76_graph, C76_one_vertex_per_point_refuted, C76_repeated, C76_short_line, C76_third_point_refuted, C77_entries, C77_overflow_refuted, C77_undefined_iff, C78_collector_accepts, C78_levels, C78_unlisted_level_refuted, C79_batches, C79_late_time_refuted, C79_other_sizes, C79_prints_outputs, C79_size_irrelevant, C79_time_zero_refuted, C79_times, C80_dropped_steps, C80_heading_zero, C80_moves_once, C81_eddystone_refuted, C81_log, C81_radio, C81_sensor, C81_throws_iff, C81_unknown_type, C82_documented_names, C82_documented_names_refuted, C82_first_error, C82_no_altitude, C82_one_bad_value_refuted, C82_outcomes, C82_read, C82_unknown_keys, C83_bad_A_refuted, C83_client, C83_failures, C83_file, C83_level, C84_empty_polygon, C84_fields, C84_fraction_refuted, C84_log, C84_map, C84_shows_one, C85_missing_level, C85_never_throws, C85_outputs, C86_doubles, C86_files, C86_nan_rssi_refuted, C86_negative_memory_refuted, C86_no_ub, C86_program, C87_smoothing_refuted, C88_time_back_refuted, C89_gnss_refuted, C89_knn, C89_radius, C90_frames_refuted, C90_levels_refuted, C91_level_refuted, C92_early_refuted, C92_generic, C92_time_origin, C92_zero_refuted, C93_fresh, C93_silence_refuted, C94_empty_refuted, C96_config, C96_config_refuted, C96_listed, C96_no_overflow, C96_span_refuted, C96_uninitialised, C96_uninitialised_refuted, C98_centers, C98_last, C98_stale_refuted, C98_sufficient, C98_weights, order_laws_binary64.

* **`ClassicalDedekindReals.sig_forall_dec`, `ClassicalDedekindReals.sig_not_dec`, `Classical_Prop.classic`, `FunctionalExtensionality.functional_extensionality_dep`** - 197 theorems: C100_corner, C100_map, C101_settles, C101_settles_core, C102_pendulum, C103_one_place, C103_positions, C104_report, C105_passes, C105_tilted, C106_client, C106_negative_refuted, C106_standalone, C107_smoothed, C109_length, C109_number, C109_report, C110_regular_refuted, C110_singular, C110_solves, C111_best, C111_degenerate, C111_exact, C111_interpolates, C111_off, C111_output, C112_core, C112_cross, C112_equal, C112_product, C112_scale_self, C112_self, C112_symmetric, C112_transitive_refuted, C112_turn, C112_unit, C113_object, C114_law, C114_nearer, C114_zero, C13_constant_azimuth, C14_outputs, C14_range, C14_terminates, C14_unchanged, C16_real_mean, C16_real_mean_bounds, C16_real_order_independent, C23_barometer_height, C26_sigma_filter, C31_fusion, C31_initial, C33_geolevel, C33_inside, C33_rounding, C33_unaligned_refuted, C34_round_idempotent, C35_early_ignored, C35_far_ignored, C35_never_reported, C36_gain_formula, C36_history, C36_step, C37_interpolates, C37_last_two, C38_best_line, C38_collinear, C38_negative_window, C38_output, C38_reset, C38_single, C38_window, C39_applied_if_near, C39_nearest, C39_short_edge_refuted, C40_axis_parallel_refuted, C40_check, C40_check_symmetric, C40_intersection, C40_segment_distance, C41_gps_round_trip, C41_local_round_trip, C41_normalize, C44_euler, C44_gains, C44_gravity, C44_gyro, C44_magnetic_azimuth, C44_unit, C45_at_rest, C45_detection, C45_signal, C46_length, C47_azimuth, C47_defined, C48_distribution, C48_repeated, C48_stronger, C49_best, C49_plain_refuted, C49_weight, C50_estimator, C50_position, C52_edges, C52_safe, C54_sum, C54_weights, C55_zone, C56_exact, C56_kept, C57_altitude_refuted, C57_formula, C58_delaunay, C58_empty, C58_inputs_alone_refuted, C58_repeated_places, C59_cover, C59_disjoint, C60_mean, C60_total, C61_exact_refuted, C61_hull, C61_order, C61_position, C62_accumulates, C63_exact, C63_minimum, C63_singular, C64_limit, C64_settles, C64_tracks, C66_packets, C67_precision, C68_converges, C68_gain_real, C71_drift, C71_safe, C72_converges, C72_gain_refuted, C72_stuck, C72_tilt, C73_level_refuted, C73_north, C73_turn, C74_great_circle, C74_metric, C75_order_irrelevant, C75_order_refuted, C75_real, C77_mean, C77_no_measurement, C77_repeated_refuted, C77_variance_refuted, C86_knn_built, C86_program_total, C86_total, C87_fix, C87_heard, C87_one_transmitter, C88_numbers, C90_on_map, C91_offset, C91_order, C91_plain_refuted, C91_weights, C91_zone, C94_antimeridian_refuted, C94_box, C94_file, C94_local, C95_drawing, C95_holes_refuted, C95_level, C95_move, C95_ring, C95_smoother, C97_area, C97_area_levels, C97_determinant, C97_distance, C97_line_distance, C97_line_undefined, C97_on_line_refuted, C97_point_on_line, C97_ray, C97_ray_even, C97_ray_right_refuted, C97_ray_symmetric, C98_area, C98_area_convex, C98_fresh, C98_nearer, C99_attained, C99_bounded, C99_noise, C99_static_tilt, C99_turns_over.

* **`ClassicalDedekindReals.sig_forall_dec`, `FunctionalExtensionality.functional_extensionality_dep`** - 10 theorems: C107_forgets, C107_range, C117_history, C117_multiple, C117_nearest, C117_standalone, C64_rate, C95_any_ray, C95_rectangle, C95_some_ray.

* **`ClassicalDedekindReals.sig_forall_dec`, `ClassicalDedekindReals.sig_not_dec`, `FunctionalExtensionality.functional_extensionality_dep`** - 3 theorems: C101_residual, C41_not_pole, C57_system.

* **`ClassicalDedekindReals.sig_forall_dec`** - 1 theorems: C43_point_sets.

There is no axiom, `Parameter`, section-less `Variable`, `Admitted` or module
type in the development, and no kernel check is switched off.
