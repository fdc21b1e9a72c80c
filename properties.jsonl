{"id": "C01", "title": "One output and one state per accepted measurement", "statement": "For a non-empty batch, navigate() returns exactly one NavigationOutput and getStates() holds exactly one NavigationState per accepted measurement, in order; a measurement is accepted exactly when its timestamp is not smaller than that of every measurement before it in the same batch (so the accepted timestamps are the weak left-to-right maxima of the batch).", "quantifier": "every settings record, level set, client state (any history, any uninitialised memory) and every batch of any length", "why_tests_cant": "needs every possible interleaving of in-order and out-of-order timestamps and every prior state", "anchors": ["src/navigation_client_impl.cpp: NavigationClientImpl::navigate, getStates"]}
{"id": "C02", "title": "Empty batch is a complete no-op", "statement": "navigate({}) returns no output and changes nothing observable: getStates() still returns the previous batch's states and every later call behaves as if the empty call had not happened.", "quantifier": "every client state and every later sequence of batches", "why_tests_cant": "the claim is about all continuations", "anchors": ["src/navigation_client_impl.cpp: navigate (early return)"]}
{"id": "C03", "title": "Batch boundaries are transparent for in-order data", "statement": "Feeding b1 and then b2 in two calls gives the concatenation of the outputs of one call with b1++b2 and leaves the client in the same state (getStates() after the second call holding b2's states only), provided the first timestamp of b2 is not smaller than the last accepted timestamp of b1.", "quantifier": "every client state, every pair of non-empty batches satisfying the ordering condition", "why_tests_cant": "quantifies over all splits of all streams", "anchors": ["src/navigation_client_impl.cpp: navigate"]}
{"id": "C04", "title": "Order check does not cross batches", "statement": "The timestamp check is local to one call: a batch whose first timestamp is older than anything seen before is still accepted in full when it is itself ordered; in particular a stream delivered in single-measurement batches is never filtered, so 'time never goes backwards inside the client' is false.", "quantifier": "every client state and every ordered batch; the negative part is an existential witness", "why_tests_cant": "the absence of filtering must hold for all states", "anchors": ["src/navigation_client_impl.cpp: navigate (prevTs is a local variable)"]}
{"id": "C05", "title": "Status OK iff a position is reported", "statement": "Every output has status OK exactly when it carries a position: OK outputs have posR, posOrientation and provider set and a valid posLevel; non-OK outputs carry no level, zero coordinates, and posR, posOrientation, provider are left uninitialised.", "quantifier": "every output of every batch from every reachable state", "why_tests_cant": "covers all histories and all exits of the per-measurement loop", "anchors": ["src/navigation_client_impl.cpp: navigate lines 131-171", "include/navigine/navigation-core/navigation_output.h: NavigationOutput"]}
{"id": "C06", "title": "Reported level is always a known level", "statement": "The posLevel of every OK output is the id of a level held by the LevelCollector the client was created with.", "quantifier": "every reachable client state and every batch, level collectors whose ids are non-empty strings", "why_tests_cant": "invariant over unbounded histories through level history, barometer, estimators and smoother", "anchors": ["src/navigation_client_impl.cpp: navigate", "src/level_estimator/level_history.cpp", "src/level_estimator/barometer.cpp", "src/position_estimator/*.cpp"]}
{"id": "C07", "title": "navigate never throws a lookup exception", "statement": "With pairwise distinct, non-empty level ids, no sequence of navigate() calls ever throws out_of_range from the level, transmitter, radiomap or reference-transmitter lookups. With duplicated level ids and Use_unknown_beacons the exception is reachable.", "quantifier": "every settings record, level set with distinct ids, every history of batches", "why_tests_cant": "requires all histories; the exception depends on earlier detections", "anchors": ["src/navigation_client_impl.cpp", "src/measurements/measurement_preprocessor.cpp: extractRadioMeasurements", "src/position_estimator/position_estimator_knn.cpp: calculatePosition", "src/level_collector.cpp: level"]}
{"id": "C08", "title": "No-signal timeout drops the level", "statement": "When at least No_signal_time_threshold seconds have passed since the last valid radio signal, the indoor position is neither recomputed nor post-processed for that measurement: the client's position becomes the GNSS position if there is one and stays unchanged otherwise.", "quantifier": "every client state and measurement", "why_tests_cant": "all states, including those after long silent periods", "anchors": ["src/navigation_client_impl.cpp: navigate lines 67-71, 111-118"]}
{"id": "C09", "title": "A lost level does not clear the reported position", "statement": "Losing both radio and GNSS is never reported once the silence has passed No_signal_time_threshold: a position that is still there at that point is frozen and repeated with status OK for every later measurement without a signal, for an unbounded time, and an empty one stays NO_LEVEL for ever. What happens earlier differs: a measurement between the dead-reckoning limit and the threshold clears the position (status NO_SOLUTION), so 'once reported, a position is never lost' is false.", "quantifier": "every client state and every continuation of any length and time span without a valid signal after the threshold; the negative part is an existential witness", "why_tests_cant": "unbounded continuation", "anchors": ["src/navigation_client_impl.cpp: navigate lines 111-148"]}
{"id": "C10", "title": "No-action threshold is ineffective", "statement": "No_action_time_threshold has no effect: for any two positive thresholds all outputs and states of all histories are identical, because the 'last motion' time handed to the check is always either the current time or zero.", "quantifier": "every history, every pair of positive thresholds", "why_tests_cant": "two-run (relational) property over all histories", "anchors": ["src/navigation_client_impl.cpp: navigate lines 73-77", "src/sensor_fusion/sensor_fusion.cpp: calculateDisplacement"]}
{"id": "C11", "title": "Rejected radio measurements are non-interfering", "statement": "Replacing any radio measurement that fails the validity filter by any other failing radio measurement with the same timestamp changes no output and no state of this and all later calls.", "quantifier": "every state, every pair of batches that differ only in rejected radio measurements", "why_tests_cant": "relational property over all histories", "anchors": ["src/measurements/measurement_preprocessor.cpp: getValidSignalEntry, operator()"]}
{"id": "C12", "title": "Uninitialised memory is read by the first call", "statement": "The first non-empty navigate() call of every client always consults at least two members that were never initialised (last-signal time, last sensor sample, last NMEA sentence); consequently outputs are not a function of settings, levels and measurements: there are inputs for which two initial memory contents give different outputs.", "quantifier": "every settings record, level set and first measurement; the negative part is an existential witness", "why_tests_cant": "undefined initial memory cannot be enumerated by tests", "anchors": ["src/measurements/measurement_preprocessor.h: mLastSignalTs, mSensor, mNmea", "src/measurements/measurement_preprocessor.cpp: constructor"]}
{"id": "C13", "title": "Gyro heading never reaches the output", "statement": "The branch that derives the azimuth from the gyroscope heading is unreachable: in every reachable state no gyro heading has been stored, because all positions carry heading 0; the reported orientation of an indoor fix without a valid azimuth is the constant pi/2 (0 with Use_enu_azimuth).", "quantifier": "every reachable state of every history", "why_tests_cant": "reachability over unbounded histories", "anchors": ["src/navigation_client_impl.cpp: navigate lines 88-109", "src/position.h"]}
{"id": "C14", "title": "Reported orientation is in [-pi, pi)", "statement": "posOrientation of every OK output is congruent to the internal azimuth modulo 2*pi and lies in [-pi, pi) (real arithmetic); the normalisation loop terminates for every real azimuth and leaves values already in range unchanged.", "quantifier": "every real azimuth of any magnitude", "why_tests_cant": "unbounded magnitude", "anchors": ["src/sensor_fusion/complementary_filter.cpp: to_minus_Pi_Pi"]}
{"id": "C15", "title": "Angle normalisation does not terminate on large doubles", "statement": "On IEEE doubles to_minus_Pi_Pi loops forever for arguments whose spacing exceeds 2*pi (for instance 2^60): no number of iterations leaves the loop. Such a value is reachable through an ORIENTATION measurement and hangs navigate().", "quantifier": "every iteration count", "why_tests_cant": "a test can only time out; non-termination is a for-all statement", "anchors": ["src/sensor_fusion/complementary_filter.cpp: to_minus_Pi_Pi", "src/navigation_client_impl.cpp line 170"]}
{"id": "C16", "title": "Radio averaging: one entry per transmitter with the exact mean", "statement": "Whenever the radio buffer is extracted, the result lists every buffered transmitter exactly once, in strictly increasing id order, and its rssi and distance are the arithmetic means of the buffered values of that transmitter (hence between their minimum and maximum), independent of arrival order.", "quantifier": "every buffer content of any size and every valid std::sort implementation", "why_tests_cant": "all multisets of measurements", "anchors": ["src/measurements/measurement_preprocessor.cpp: RadioMeasurementBuffer::extractMeasurements"]}
{"id": "C17", "title": "Extraction gate", "statement": "Radio measurements are handed on only when at least the window shift has elapsed (in measurement time) since the previous extraction; otherwise the extraction returns nothing and leaves the buffer untouched.", "quantifier": "every buffer state, every add/extract history", "why_tests_cant": "all histories", "anchors": ["src/measurements/measurement_preprocessor.cpp: extractMeasurements lines 259-265"]}
{"id": "C18", "title": "Sliding-window retention", "statement": "After every effective extraction while not standing still the buffer holds exactly the measurements not older than the keep period (none when window shift equals averaging time); over a whole time-ordered history the buffer equals the multiset of accepted measurements at or after (time of last extraction - keep period) plus everything newer, i.e. no measurement inside the window is lost or duplicated.", "quantifier": "every time-ordered add/extract history without stand-still mode", "why_tests_cant": "refinement to an abstract window over unbounded histories", "anchors": ["src/measurements/measurement_preprocessor.cpp: RadioMeasurementBuffer"]}
{"id": "C19", "title": "Stand-still mode keeps everything", "statement": "With Use_stops and no recent step the buffer never forgets: after any number of adds and extracts it contains every measurement added, so memory and averaging cost are unbounded.", "quantifier": "every history in which no step is reported recently", "why_tests_cant": "unbounded growth", "anchors": ["src/measurements/measurement_preprocessor.cpp: extractMeasurements lines 308-310"]}
{"id": "C20", "title": "Radio validity filter", "statement": "A radio measurement is accepted exactly when its signal type is enabled, its transmitter is acceptable (known, on its first containing level, locator iff tracking; or unknown transmitters allowed), and in RSSI mode its rssi is strictly between the cut-off and 0 while in distance modes it is a WIFI_RTT measurement. Only accepted measurements refresh the last-signal time.", "quantifier": "every measurement, settings and level set", "why_tests_cant": "full decision table over unbounded data", "anchors": ["src/measurements/measurement_preprocessor.cpp: getValidSignalEntry, isTransmitterSupported, isSignalTypeSupported, isRssiValid"]}
{"id": "C21", "title": "Closest access points", "statement": "With Use_closest_aps the extraction returns min(N, available) measurements, in non-increasing rssi order, and every dropped measurement is not stronger than any kept one.", "quantifier": "every buffer content, every N, every valid std::sort", "why_tests_cant": "all sizes and ties", "anchors": ["src/measurements/measurement_preprocessor.cpp: extractRadioMeasurements lines 127-137"]}
{"id": "C22", "title": "Level history hysteresis", "statement": "The smoothed level is empty until the first detection, then always one of the detected levels; in steady state the current level is replaced by a challenger exactly when the challenger has been detected five times since the current level was last detected, before any other challenger reaches five; empty detections never change it.", "quantifier": "every detection sequence of any length", "why_tests_cant": "temporal rule over unbounded sequences", "anchors": ["src/level_estimator/level_history.cpp: detectLevelUsingHistory"]}
{"id": "C23", "title": "Barometer gate", "statement": "The barometer buffers never exceed 101 samples each; the returned level is always one of the levels passed in so far; and once both buffers are filled the level changes only when the mean-pressure height difference exceeds 2 m.", "quantifier": "every sequence of (level, sensor sample) calls", "why_tests_cant": "invariant over unbounded sequences", "anchors": ["src/level_estimator/barometer.cpp"]}
{"id": "C24", "title": "Level by transmitters picks a best-scoring visible level", "statement": "The transmitter-based detector returns either no level or a level of the collector on which at least one measured transmitter is installed and whose weighted average cost is maximal among all such levels; it returns no level exactly when no visible level scores above -1000.", "quantifier": "every level set and radio measurement vector", "why_tests_cant": "argmax over unbounded sets", "anchors": ["src/level_estimator/level_estimator_transmitters.cpp: detectCurrentLevel"]}
{"id": "C25", "title": "Level by radiomap needs evidence and maximises weight", "statement": "The radiomap-based detector returns either no level or a level whose radiomap contains a fingerprint of a measured transmitter and whose weight is maximal and positive.", "quantifier": "every level set and radio measurement vector", "why_tests_cant": "argmax over unbounded sets", "anchors": ["src/level_estimator/level_estimator_radiomap.cpp: detectCurrentLevel, calcWeight, calcWeightBestRp"]}
{"id": "C26", "title": "Sigma filter bounds and decision", "statement": "With a window of n>=1 the GNSS buffer never exceeds n points, the first n points after a clear are rejected, and later points are accepted exactly when each coordinate is within 3 population standard deviations plus delta of the mean of the last n points. With window 0 the first point triggers undefined behaviour.", "quantifier": "every point sequence, every window size", "why_tests_cant": "all sequence lengths and window sizes", "anchors": ["src/position_estimator/position_estimator_outdoor.cpp: SigmaFilter::add"]}
{"id": "C27", "title": "Outdoor position provenance", "statement": "A non-empty outdoor position lies (unless Use_gps_outside_map) inside the bounding box of the first level whose box covers the GNSS point and carries that level's id, provider GNSS and a deviation not below the configured minimum; otherwise it is the previously accepted position not older than the validity window.", "quantifier": "every history of calls", "why_tests_cant": "all histories, all level sets", "anchors": ["src/position_estimator/position_estimator_outdoor.cpp: calculatePosition"]}
{"id": "C28", "title": "Maximum GNSS deviation is not enforced", "statement": "Maximum_to_accept_gps_measurement never rejects a fix when the sigma filter is off: acceptance is independent of the setting, so a fix with an arbitrarily large deviation is accepted.", "quantifier": "every state and pair of maxima; witness for acceptance above the maximum", "why_tests_cant": "relational property", "anchors": ["src/position_estimator/position_estimator_outdoor.cpp: calculatePosition lines 99-102"]}
{"id": "C29", "title": "GNSS positions are reported with Use_gps off", "statement": "When no level is known the client reports the GNSS position whatever Use_gps says; with Use_gps and Use_instant_gps_position off the fused indoor result never depends on GNSS input.", "quantifier": "every state, every outdoor position", "why_tests_cant": "non-interference plus witness", "anchors": ["src/navigation_client_impl.cpp line 111", "src/position_postprocessor/position_postprocessor.cpp: fusePositions"]}
{"id": "C30", "title": "A stale sensor sample is replayed on every measurement", "statement": "Every accepted measurement that is not a sensor measurement re-processes the last sensor sample: the pedometer stores it again, and a LOCATION sample is reported again as a GNSS fix stamped with the current time, so GNSS validity and age limits never expire while other measurements arrive.", "quantifier": "every state and every non-sensor measurement; unbounded replay", "why_tests_cant": "history property", "anchors": ["src/navigation_client_impl.cpp lines 55-64", "src/position_estimator/position_estimator_outdoor.cpp: extractGpsPosition"]}
{"id": "C31", "title": "Fusion is a convex combination", "statement": "When positions are fused the result lies on the segment between the stored indoor and outdoor positions, closer to the one with the smaller deviation, with deviation the minimum of the two, time the maximum, provider FUSED, and only if neither is older than the fusing age limit.", "quantifier": "every post-processor state with positive deviations, all real coordinates", "why_tests_cant": "continuous input space", "anchors": ["src/position_postprocessor/position_postprocessor.cpp: fusePositions"]}
{"id": "C32", "title": "Dead-reckoning expiry", "statement": "getProcessedPosition returns an empty position exactly when the fused position is empty, outside the map (unless allowed), or at least Dead_reckon_time old, or when stand-still mode has never output a position; in the first three cases smoother and last output are untouched.", "quantifier": "every post-processor state and input", "why_tests_cant": "all states", "anchors": ["src/position_postprocessor/position_postprocessor.cpp: getProcessedPosition"]}
{"id": "C33", "title": "Output stays inside the map", "statement": "Every indoor-processed position lies inside the level's bounding box after clamping and rounding when the box's lower corner is a multiple of 0.01 - in particular for every level created from a GeoLevel, whose local box starts at (0,0); the rounding moves each coordinate by less than 0.01.", "quantifier": "every state and input over the reals; every GeoLevel", "why_tests_cant": "continuous input space", "anchors": ["src/position_postprocessor/position_postprocessor.cpp lines 230-238", "src/level_collector.cpp: getBinding, getBBoxInLocalCoordinates"]}
{"id": "C34", "title": "Rounding drifts on doubles", "statement": "Rounding to 0.01 is idempotent over the reals but not on IEEE doubles: a frozen (stand-still) position can creep downwards by 0.01 m per measurement.", "quantifier": "all reals; witness on doubles", "why_tests_cant": "for-all over reals; bit-exact witness", "anchors": ["src/position_postprocessor/position_postprocessor.cpp lines 236-238"]}
{"id": "C35", "title": "Stand-still mode", "statement": "In stand-still mode the reported position changes only when the update interval has elapsed and the new position is closer than the threshold; farther positions are ignored (the opposite of the settings comment), so a first fix farther than the threshold from (0,0) is never reported until a step is detected.", "quantifier": "every state, every sequence of fixes without steps", "why_tests_cant": "unbounded sequences", "anchors": ["src/position_postprocessor/position_postprocessor.cpp lines 188-213", "include/navigine/navigation-core/navigation_settings.h: useStopsDistanceThresholdM"]}
{"id": "C36", "title": "Alpha-beta smoother", "statement": "The gain is always within [0.1, 0.9]; an accepted smoothed point lies on the segment between the prediction and the measured point; the stored speed never exceeds 4 m/s with the speed constraint; measurements not newer than the stored position leave the smoother unchanged. The output displacement itself is not speed-limited (a fast fix is passed through unchanged).", "quantifier": "every smoother history over the reals", "why_tests_cant": "continuous input space and unbounded histories", "anchors": ["src/position_postprocessor/position_smoother_ab.cpp"]}
{"id": "C37", "title": "Time smoother interpolates", "statement": "With time-ordered inputs the time-smoothed position lies on the segment between the last two known positions and is never extrapolated.", "quantifier": "every history of time-ordered calls", "why_tests_cant": "unbounded histories, continuous data", "anchors": ["src/position_postprocessor/navigation_time_smoother.cpp: getTimeSmoothedPosition"]}
{"id": "C38", "title": "Least-squares smoother fits lines", "statement": "The linear fit solves the normal equations exactly: with at least two distinct times in the window its coefficients minimise the sum of squared residuals, so collinear tracks are reproduced exactly; the window never spans more than the averaging time; a negative averaging time is undefined behaviour; a change of level forgets the track, and no prediction is made without samples.", "quantifier": "every point sequence over the reals", "why_tests_cant": "continuous data, optimality over all lines", "anchors": ["src/position_postprocessor/polynomial_fit.cpp"]}
{"id": "C39", "title": "Graph projection is nearest", "statement": "Projection to the graph returns a point on some edge at minimal distance among all points of all edges (edges longer than the degeneracy threshold), or the point itself when the graph has no edges; it is applied only if closer than the configured distance.", "quantifier": "every graph and point over the reals", "why_tests_cant": "minimality over a continuum", "anchors": ["src/position_postprocessor/position_postprocessor.cpp: getProjection", "src/geometry.cpp: GetProjection"]}
{"id": "C40", "title": "Segment distance and intersection predicates", "statement": "SegmentPointDist is the minimum distance to the segment; GetIntersection returns a point common to both segments whenever it reports one and reports one whenever non-parallel segments meet; CheckIntersection implies a common interior point and is symmetric.", "quantifier": "all real coordinates", "why_tests_cant": "continuous input space", "anchors": ["src/geometry.cpp"]}
{"id": "C41", "title": "GPS/local conversion round trip", "statement": "localToGps(gpsToLocal(p,b),b)=p and gpsToLocal(localToGps(q,b),b)=q whenever the binding point is not at a pole and longitudes are in range; normalizeLongitude returns a congruent value in (-180,180] for inputs in (-540,540].", "quantifier": "all real coordinates in range", "why_tests_cant": "continuous input space", "anchors": ["src/point.cpp"]}
{"id": "C42", "title": "Level collector and graph construction", "statement": "After any sequence of addGeoLevel calls hasLevel(id) holds iff some added level has that id, level(id) returns the first one added, findLevelByTransmitterId returns the first level containing it; converting a graph preserves vertex ids and edges exactly and never throws; edges are stored once with ordered end points.", "quantifier": "every sequence of additions", "why_tests_cant": "unbounded construction histories", "anchors": ["src/level_collector.cpp", "include/navigine/navigation-core/graph.h"]}
{"id": "C43", "title": "Barrier test", "statement": "isPathTouchesBarriers is true iff no allowed outer ring covers the path or the path intersects some inner barrier: the R-tree prefilter loses nothing.", "quantifier": "every geometry, any sound intersection predicate", "why_tests_cant": "all geometries", "anchors": ["src/level_geometry.cpp: isPathTouchesBarriers"]}
{"id": "C44", "title": "Orientation quaternion stays a unit quaternion", "statement": "For every sequence of sensor measurements with arbitrary timestamps the orientation quaternion of the complementary filter has norm exactly 1 over the reals, so no normalisation is ever skipped or divides by zero, and roll, pitch, yaw are defined.", "quantifier": "every sensor history over the reals", "why_tests_cant": "invariant over unbounded histories", "anchors": ["src/sensor_fusion/complementary_filter.cpp", "src/sensor_fusion/quaternion.cpp"]}
{"id": "C45", "title": "Pedometer safety and step spacing", "statement": "For every sequence of sensor measurements with arbitrary (even decreasing) timestamps the pedometer never reads outside its buffers; each update yields at most one step, two successive steps are more than 300 ms apart, and the stored windows are bounded in time span.", "quantifier": "every sensor history", "why_tests_cant": "memory safety and spacing over unbounded histories", "anchors": ["src/sensor_fusion/pedometer.cpp"]}
{"id": "C46", "title": "Step length", "statement": "Every reported step length is 0.52 times the fourth root of a non-negative amplitude over a non-empty window, hence defined and non-negative (real arithmetic).", "quantifier": "every reachable pedometer state", "why_tests_cant": "domain safety over all histories", "anchors": ["src/sensor_fusion/pedometer.cpp: calculateStepLength"]}
{"id": "C47", "title": "Step counter in motion info", "statement": "Each motion info carries a last-motion time that is either zero (no step) or the current time, and when a step is detected the counter equals the total number of steps detected so far; without a step it reads zero, so the reported counter is not monotone.", "quantifier": "every sensor history", "why_tests_cant": "history property", "anchors": ["src/sensor_fusion/sensor_fusion.cpp: calculateDisplacement"]}
{"id": "C48", "title": "Transmitter weights are a distribution", "statement": "For measurements with distinct transmitters the normalised trust weights are positive and sum to one.", "quantifier": "every non-empty measurement vector over the reals", "why_tests_cant": "continuous data, all sizes", "anchors": ["src/knn/knn_utils.cpp: calcTransmittersWeights"]}
{"id": "C49", "title": "Reference-point weights need three transmitters", "statement": "A reference point receives a weight exactly when at least three (transmitter, fingerprint) matches exist for it, and every weight is positive (real arithmetic). In difference mode a fingerprint equal to the measurements up to a constant is heaviest; in plain mode it is not, because strengths are added instead of subtracted.", "quantifier": "every radiomap and measurement vector", "why_tests_cant": "all sizes", "anchors": ["src/knn/knn_utils.cpp: calcRpWeightsKnn"]}
{"id": "C50", "title": "KNN position lies in a triangle of reference points", "statement": "The triangle-based KNN position is a convex combination of the vertices of a triangle of maximal total weight (ties to the first), or (0,0) when that triangle has no weight or an unknown vertex.", "quantifier": "every triangle list, radiomap and weight map over the reals", "why_tests_cant": "continuous data, all sizes", "anchors": ["src/knn/knn_utils.cpp: calcPositionInTriangle"]}
{"id": "C51", "title": "KNN averaging without triangles always yields (0,0)", "statement": "With Use_triangles off the weighted K-nearest average is always (0,0), whatever the radiomap, weights and K (the destination vector is reserved, not sized).", "quantifier": "every radiomap, weight map and k", "why_tests_cant": "for-all over inputs", "anchors": ["src/knn/knn_utils.cpp: calcKHeaviestRefPointsAverage"]}
{"id": "C52", "title": "Triangulation output", "statement": "Every triangle returned by TriangulateVertices has its three vertices among the input vertices (never the artificial super-triangle), with all edges not longer than maxedge; fewer than three vertices give none.", "quantifier": "every vertex list, any valid std::sort", "why_tests_cant": "all inputs", "anchors": ["src/triangulation.cpp: TriangulateVertices"]}
{"id": "C53", "title": "Triangulation of levels", "statement": "A level gets triangles exactly when it has more than three reference points, its own triangulation is not empty and no earlier such level has an empty one: the first level whose triangulation fails suppresses the triangles of all later levels.", "quantifier": "every level list", "why_tests_cant": "all level lists", "anchors": ["src/knn/knn_utils.cpp: triangulate"]}
{"id": "C54", "title": "Particle weights are a distribution", "statement": "LikelihoodRadiomap::calculateWeights returns one non-negative weight per particle. They are uniform when measurements are insufficient, all zero when no likelihood point can be computed, and otherwise inversely proportional to 0.1 m plus the distance to the point and sum to one, except when the raw weights add up to at most 1e-8 (every particle about 100000 km away), which are left unnormalised.", "quantifier": "every particle set of any size over the reals", "why_tests_cant": "all sizes, continuous data", "anchors": ["src/likelihood/likelihood_radiomap.cpp: calculateWeights"]}
{"id": "C55", "title": "Zone estimator returns the strongest visible transmitter", "statement": "A zone position is exactly the location of a transmitter of the level whose averaged rssi is maximal among measured transmitters of that level, with precision greater than one; with no such transmitter it is empty, and with no radio data an empty position is returned.", "quantifier": "every level and measurement vector", "why_tests_cant": "argmax over unbounded inputs", "anchors": ["src/position_estimator/position_estimator_zone.cpp: calculatePosition"]}
{"id": "C56", "title": "Trilateration pre-filter keeps pairwise intersecting spheres", "statement": "The measurements kept for altitude estimation are a sub-multiset sorted by distance in which every two spheres intersect; fewer than four give no altitude.", "quantifier": "every measurement vector and level", "why_tests_cant": "all sizes", "anchors": ["src/trilateration.cpp: getIntersectedMeasurements, calculateAltitude"]}
{"id": "C57", "title": "Altitude formula is wrong", "statement": "The altitude estimate does not recover the true altitude even for exact distances and an exact horizontal solution: a misplaced parenthesis turns the squared distance into a power with a data-dependent exponent and the weighted sum is not normalised.", "quantifier": "existential witness with exact geometry", "why_tests_cant": "shows failure of a for-all specification", "anchors": ["src/trilateration.cpp: calculateAltitude lines 104-119"]}
{"id": "C58", "title": "Triangulation returns exactly the Delaunay triangles", "statement": "For inputs in general position (with the code's 1e-8 tolerance) the returned triangles are, without repetition, exactly the triples of inputs whose circumcircle contains no other input and none of the three auxiliary corners and whose edges are not longer than the limit. It is not the Delaunay triangulation of the inputs alone: a non-degenerate triangle may be lost to the auxiliary corners. Of several reference points at one place only the first takes part, whatever the names of the others are.", "quantifier": "every list of at least three distinct real points in general position, every edge limit, every conforming std::sort", "why_tests_cant": "the incremental algorithm is correct only by an invariant over all insertion orders and sizes", "anchors": ["src/triangulation.cpp: TriangulateVertices", "src/triangulation.h: circumcircle_contains"]}
{"id": "C59", "title": "Triangles neither overlap nor leave gaps", "statement": "No point is strictly inside two returned triangles. Every point of the bounding box off the lines through two points is strictly inside exactly one Delaunay triangle, and inside a returned triangle exactly when that one is made of inputs and has no edge above the limit.", "quantifier": "every list of at least three distinct real points in general position and every query point", "why_tests_cant": "uncountably many query points and unbounded inputs", "anchors": ["src/triangulation.cpp: TriangulateVertices"]}
{"id": "C60", "title": "Stand-alone trilateration: error codes and duplicates", "statement": "A call of calculateCoordinates returns 28 exactly when some measured distance is negative; otherwise 4 exactly when fewer than three different beacons were measured or none of the measured ones is on the map; otherwise 0. On any error the stored coordinates are unchanged. On success exactly one measurement per measured and mapped beacon is kept, with the mean RSSI of all its measurements and the distance of one of them. (The intended averaging of the distance does not happen: refuted.)", "quantifier": "All states, all measurement lists of any length and order, all beacon maps, every behaviour of std::sort on equal keys; codes and kept entries for every number type incl. IEEE doubles, the mean over the reals", "why_tests_cant": "The averaged distance is computed and then dropped, and which distance survives depends on the unstable std::sort; a test sees one sort implementation and one list", "anchors": ["standalone_algorithms/trilateteration/src/trilateration.cpp:55-101", "standalone_algorithms/trilateteration/src/trilateration.cpp:118-144", "standalone_algorithms/trilateteration/src/trilateration.cpp:209-278"]}
{"id": "C61", "title": "Stand-alone trilateration reports an inverse-distance weighted mean", "statement": "For positive distances a successful call adds to the stored coordinates the mean of the measured mapped beacons weighted by the inverse of the distance, one entry per beacon; the first report of an object therefore lies in the bounding box of those beacons, and depends neither on the order of the measurements nor on any RSSI. It is not a trilateration: exact distances do not give the true point (refuted).", "quantifier": "All beacon maps, all measurement lists with positive distances, every std::sort behaviour, over the reals", "why_tests_cant": "The shipped test accepts any result when one of three conditions holds; the formula can only be separated from true trilateration by reasoning about all geometries", "anchors": ["standalone_algorithms/trilateteration/src/trilateration.cpp:174-204", "standalone_algorithms/trilateteration/src/test_trilateration.cpp:93-112"]}
{"id": "C62", "title": "Stand-alone trilateration accumulates its coordinates", "statement": "After any sequence of update/calculate calls the coordinates are the start value plus the sum of what fresh objects would have reported for each call: mXY is never reset. Hence the same data reported twice gives another position, a repeated call without new data can fail with code 4, and one zero distance makes all later coordinates NaN (refuted expectations).", "quantifier": "All sequences of calls of any length, all measurements with positive distances, over the reals; witnesses in IEEE doubles", "why_tests_cant": "The shipped test calls the object once; the defect needs a history of calls", "anchors": ["standalone_algorithms/trilateteration/src/trilateration.cpp:20-24", "standalone_algorithms/trilateteration/src/trilateration.cpp:55-101", "standalone_algorithms/trilateteration/src/trilateration.cpp:174-204"]}
{"id": "C63", "title": "Stand-alone least-squares trilateration is exact and optimal", "statement": "The (switched off, result discarded) least-squares solver returns the true point when the distances are exact and the beacons are not collinear; in general it returns the unique point minimising the squared mismatch of the linearised range equations; for collinear beacons its result is undefined (division by zero determinant).", "quantifier": "Any number of beacons at any real coordinates, any real distances", "why_tests_cant": "The branch is dead code (UseOls = 0) and its result is a local variable, so no test can observe it", "anchors": ["standalone_algorithms/trilateteration/src/trilateration.cpp:281-314", "standalone_algorithms/trilateteration/src/trilateration.cpp:319-336", "standalone_algorithms/trilateteration/src/trilateration.cpp:342-401"]}
{"id": "C64", "title": "The alpha-beta smoother converges geometrically", "statement": "Fed with the positions of a point in uniform motion at equal intervals, the smoother (gain fixed by the smoothing parameter, between 0.1 and 0.9) follows it with an error whose square is below an explicit bound that shrinks by the factor 1 - gain with every result, and its speed estimate converges to the true speed; for a resting point this holds also with the speed constraint and the barriers on. It is false that results stay between the old and the new position (overshoot), and with irregular intervals and no speed constraint the error can grow a hundredfold.", "quantifier": "Any starting state, any smoothing parameter, any interval and motion, any number of positions; real arithmetic", "why_tests_cant": "A limit over infinitely many steps for every gain, start and motion; a test sees a few steps of a few runs", "anchors": ["src/position_postprocessor/position_smoother_ab.cpp:14-23", "src/position_postprocessor/position_smoother_ab.cpp:25-85"]}
{"id": "C65", "title": "Stand-alone measurement window", "statement": "Each due packet holds the per-transmitter averages of exactly the measurements in the window: those that were newer than the last packet when they arrived and not older than the previous packet minus the keep period. The first measurement ever is never used, late measurements change nothing, packets are at least the window shift apart. It is false that every measurement of a scan is used: those sharing the time of the one that completed a window are dropped, even the strongest.", "quantifier": "Every history of additions and extractions with non-negative times, every configuration, every sort order among equal keys", "why_tests_cant": "Quantifies over all interleavings of additions and extractions and all orders in which std::sort leaves equal elements", "anchors": ["standalone_algorithms/position_estimation/src/measurement_preprocessor.cpp:83-102", "standalone_algorithms/position_estimation/src/measurement_preprocessor.cpp:104-181", "standalone_algorithms/position_estimation/include/measurement_preprocessor.h:22-26"]}
{"id": "C66", "title": "Stand-alone packets hold the strongest five valid signals", "statement": "Any stream of measurements, valid or not and in any order, is split without undefined behaviour into non-empty packets of at most five distinct transmitters in falling order of level, every level strictly between -100 and 0 and every entry stemming from an accepted measurement; no dropped transmitter is stronger than a kept one.", "quantifier": "Every list of measurements including undefined values, every configuration; real arithmetic for the ranges, any number type for the selection", "why_tests_cant": "Needs the claim for every stream, including NaN levels that would make std::sort undefined", "anchors": ["standalone_algorithms/position_estimation/src/measurement_preprocessor.cpp:28-57", "standalone_algorithms/position_estimation/src/measurement_preprocessor.cpp:64-73", "standalone_algorithms/position_estimation/examples/main.cpp:91-104"]}
{"id": "C67", "title": "Stand-alone nearest-transmitter estimate", "statement": "The estimate lies at the registered transmitter with the highest level (the last entry of the map file for its id), with precision sqrt(exp((-82 - level)/3)) + 1 > 1, and is passed through the smoother with the time of the last registered measurement of the packet; the result is empty exactly when no measured transmitter is registered. It is false that a newer packet always updates the position: the time is that of the weakest measurement, and a packet with another nearest transmitter can be answered with the old position.", "quantifier": "Every transmitter list, every sequence of packets with non-negative times, every comparable levels", "why_tests_cant": "Quantifies over all maps with duplicates, all packets and all earlier calls that shaped the smoother", "anchors": ["standalone_algorithms/position_estimation/src/nearest_transmitter_estimator.cpp:8-26", "standalone_algorithms/position_estimation/src/nearest_transmitter_estimator.cpp:28-53", "standalone_algorithms/position_estimation/examples/main.cpp:119-128"]}
{"id": "C68", "title": "Stand-alone smoother refines the core smoother and converges", "statement": "Each call agrees with the smoother of the navigation core with accuracy weighting, speed constraint and barriers off (as long as results are finite); a call that is not newer returns the stored position unchanged; uniform motion sampled at equal intervals of at most 10 s is tracked from the first call on with a geometrically vanishing error. Estimates at irregular times can throw the result far beyond all transmitters.", "quantifier": "Every state, position and setting for the agreement; every motion, gain and run length for the convergence", "why_tests_cant": "Equality of two programs over all states, and a limit over unbounded runs", "anchors": ["standalone_algorithms/position_estimation/src/position_smoother.cpp:10-17", "standalone_algorithms/position_estimation/src/position_smoother.cpp:19-56", "src/position_postprocessor/position_smoother_ab.cpp:25-85"]}
{"id": "C69", "title": "Stand-alone pedometer: batches do not change the steps of a regular signal", "statement": "For samples in time order at most 700 ms apart, however they are cut into batches of update+calculateSteps, the reported steps (times and lengths) are those an unwindowed detector finds on the complete filtered signal, from the first examined value on; so two cuttings that skip the same first values give the same steps, and the example program prints the number of steps from the fourth sample on. One sample per call behaves exactly as the pedometer of the navigation core. Different warm-up, or a 701 ms gap, does change the steps.", "quantifier": "Every sample sequence, every partition into batches, every number type with an ordered comparison; witnesses in doubles for the limits", "why_tests_cant": "The partition and the length are unbounded; deque trimming happens at data-dependent times", "anchors": ["standalone_algorithms/pedometer/src/pedometer.cpp:24-41", "standalone_algorithms/pedometer/src/pedometer.cpp:48-82", "standalone_algorithms/pedometer/src/pedometer.cpp:84-134", "standalone_algorithms/pedometer/src/pedometer.cpp:136-153", "standalone_algorithms/pedometer/examples/main.cpp:14-57"]}
{"id": "C70", "title": "Stand-alone pedometer: any call order is safe", "statement": "Any sequence of update (any batch, also empty) and calculateSteps calls runs without reading outside the deques and reports steps more than 300 ms apart; a repeated calculateSteps reports nothing; over samples with times in [lo,hi] at most 1+(hi-lo)/301 steps are counted. Two updates in a row lose the steps of the first.", "quantifier": "Every call sequence, all sample values (also NaN) and all timestamps", "why_tests_cant": "Call orders and values are unbounded; undefined behaviour need not show in a run", "anchors": ["standalone_algorithms/pedometer/src/pedometer.cpp:24-41", "standalone_algorithms/pedometer/src/pedometer.cpp:84-134", "standalone_algorithms/pedometer/include/pedometer.h:1-60"]}
{"id": "C71", "title": "Stand-alone complementary filter refines the core filter; the magnetometer is ignored after the first gyroscope sample", "statement": "On every history the stand-alone filter computes the state of the core's filter without its two extra members. With real samples and gains no call fails, roll, pitch and yaw are defined and in range, and the reported time is that of the last sample. Once a gyroscope sample has been processed, all samples other than gyroscope and accelerometer can be removed without changing the orientation, so a gyroscope bias accumulates in the heading whatever the magnetometer shows.", "quantifier": "All states, gains and sample histories; any number type for the refinement and the removal", "why_tests_cant": "Equality of two programs and a non-interference property over unbounded histories", "anchors": ["standalone_algorithms/complementary_filter/src/complementary_filter.cpp:66-98", "standalone_algorithms/complementary_filter/src/complementary_filter.cpp:100-107", "standalone_algorithms/complementary_filter/src/complementary_filter.cpp:120-135", "standalone_algorithms/complementary_filter/src/complementary_filter.cpp:36-43", "src/sensor_fusion/complementary_filter.cpp:79-159"]}
{"id": "C72", "title": "A device at rest: estimated tilt converges to the measured one", "statement": "At rest (constant accelerometer direction, zero gyroscope, gain between 0 and 2, no integral gain) the misalignment 1-cos between estimated and measured vertical never grows and is at most r^n times the initial one after n accelerometer samples, with an explicit r<1; hence from the initial state pitch and roll come arbitrarily close to the shown ones, interleaved magnetometer and other samples notwithstanding. Gains of 2 or more can leave a tilt uncorrected for ever, and a device exactly upside down is never noticed (in doubles).", "quantifier": "All directions, gains in range, histories of any length and interleaving; the limit by epsilon and N", "why_tests_cant": "Limits over unbounded histories; the repository's test tries one tilt for ten seconds with noise", "anchors": ["standalone_algorithms/complementary_filter/src/complementary_filter.cpp:109-118", "standalone_algorithms/complementary_filter/src/complementary_filter.cpp:17-22", "standalone_algorithms/complementary_filter/src/complementary_filter.cpp:66-98", "standalone_algorithms/complementary_filter/tests/complementary_filter_test.cpp:82-110"]}
{"id": "C73", "title": "Magnetometer start-up turns the horizontal field to north but disturbs the tilt", "statement": "Before the gyroscope runs, one magnetometer sample moves the measured field from global coordinates (b1,b2,b3) to (al b1, al b2 + be h, (al+be) b3) with explicit al, be. With a constant reading and gain at most 1/2 the cotangent of its angle to north grows by at least km/(1+km) per sample, so the heading error tends to zero. The rotation is not about the vertical: with an inclined field a level device is estimated tilted after one sample.", "quantifier": "All unit orientations, field directions, gains, and numbers of samples", "why_tests_cant": "Continuous inputs and an unbounded number of samples", "anchors": ["standalone_algorithms/complementary_filter/src/complementary_filter.cpp:120-135", "standalone_algorithms/complementary_filter/src/complementary_filter.cpp:66-98", "src/sensor_fusion/complementary_filter.cpp:143-159"]}
{"id": "C74", "title": "The tools' geographic distance is the great-circle distance, a metric", "statement": "Over the reals getGeoDist of any two points is the one number d in [0, R pi] with cos(d/R) equal to the scalar product of the two directions on the sphere of radius R = 6378 km. It is non-negative, symmetric, zero exactly for equal directions, and satisfies the triangle inequality.", "quantifier": "All pairs and triples of real latitudes and longitudes", "why_tests_cant": "Identities and inequalities over a continuum, including antipodal and coinciding points", "anchors": ["tools/verification/helpers.cpp:333-347"]}
{"id": "C75", "title": "Reading a graph: vertices 10 cm apart, every drawn point snapped to one", "statement": "The vertices extracted from the drawn points are numbered 1, 2, ... , are drawn points, and are pairwise not the same point (over the reals at least 0.1 m apart); every drawn point is the same as some vertex (less than 0.1 m away), so getVertex never throws, in whichever order the unordered map is iterated. The extraction ends whenever each point is the same as itself, and never ends when a point is the same as no point, which happens for a finite coordinate such as 1e308. The graph does not depend on the iteration order when no two points are between 0.1 m and 0.2 m apart; in general it does.", "quantifier": "All lists of lines and all iteration orders; any number type, reals where distances are named", "why_tests_cant": "All inputs and all hash orders; non-termination cannot be observed by a test", "anchors": ["tools/verification/helpers.cpp:349-380", "tools/verification/helpers.cpp:382-412"]}
{"id": "C76", "title": "Reading a graph: its edges are the drawn lines, its vertices are repeated", "statement": "For lines of at least two points the graph is built without exception; two places are joined by an edge exactly when a line's first two points are snapped to them, every vertex is an end of a line, and two vertices are connected in the graph exactly when their places are connected in the drawing. Each place has one vertex when no line joins it to a vertex numbered before it and two vertices otherwise, so one line between two points gives three vertices and two edges. Points of a line after the second are dropped; a line of fewer than two points is undefined behaviour in a release build.", "quantifier": "All lists of lines, all iteration orders, any number type", "why_tests_cant": "A statement on reachability in all graphs", "anchors": ["tools/verification/helpers.cpp:382-458", "include/navigine/navigation-core/graph.h:1-93"]}
{"id": "C77", "title": "Fingerprint statistics read from a file", "statement": "A reference point gets one entry per transmitter name, the first one in the file, sorted by name. Its mean is the mean of the negated rssi weighted by the counts, the first count for each rssi being used, and lies between the smallest and the largest value; the number of measurements is the sum of these counts; the variance is always zero. Reading is undefined exactly when one of the int products formed (including those of the unused sum of squares) overflows, and the mean is undefined when no measurement is counted.", "quantifier": "All lists of entries and (rssi, count) pairs, negative and repeated ones included", "why_tests_cant": "All multisets of integers, overflow included", "anchors": ["tools/verification/helpers.cpp:513-566"]}
{"id": "C78", "title": "Assembling levels from a map file", "statement": "ParseGeojson returns the levels of the level features, sorted by id, each with altitude 100, the area and graph of the first feature of its level (an empty graph when there is none), and its transmitters and reference points in file order, latitude and longitude taken in GeoJSON order, with A = -80, B = 3, altitude 0 by default. A file whose graphs and fingerprints are readable is read without exception and the level collector accepts all its levels. Features of levels without a level feature are silently dropped.", "quantifier": "All lists of features, all geometries and iteration orders", "why_tests_cant": "All files and orders of features", "anchors": ["tools/verification/helpers.cpp:460-512", "tools/verification/helpers.cpp:568-696"]}
{"id": "C79", "title": "The command-line driver: batches, lines and times", "statement": "A positive batch size cuts the log into consecutive pieces of that size, the last one shorter; a negative size gives one batch; size zero never ends. The printed lines are exactly the outputs of navigate, no index being out of range, and the driver fails exactly when navigate does. Line i of a batch carries the time of input i, so after a dropped measurement the times are wrong. For a log in time order that does not start at time zero the lines do not depend on the batch size; a log starting at zero refutes this.", "quantifier": "All logs, batch sizes, configurations and client states", "why_tests_cant": "All logs and a comparison of two executions", "anchors": ["tests/navigation_test.cpp:71-81", "tests/navigation_test.cpp:83-132"]}
{"id": "C80", "title": "The driver's dead-reckoning track moves at most once", "statement": "NavigationState's heading is never written, so BuildPdrTrack always sees one heading h; the printed track is (0,0), and from the first OK output with a non-zero step length on it is d(cos h, sin h) for ever, or (0,0) throughout when h is zero. In general a step is drawn exactly when both its length and its heading differ from those of the step drawn last.", "quantifier": "All logs, configurations, batch sizes and headings that equal themselves", "why_tests_cant": "All executions", "anchors": ["tests/navigation_test.cpp:30-40", "tests/navigation_test.cpp:92-99", "include/navigine/navigation-core/navigation_state.h:1-72"]}
{"id": "C81", "title": "Reading log messages", "statement": "Each sensor code 101-106 with three values and each radio code except Eddystone gives the measurement of that type, defaults zero; a sensor message with another number of values gives zeros. Eddystone (204) messages are read as Wi-Fi, so no message is ever read as Eddystone and a Bluetooth-only client ignores them. A message throws exactly when a field its type needs is missing; any other type becomes a measurement that no client, whatever its settings and map, accepts. The log has one measurement per line, in order.", "quantifier": "All messages", "why_tests_cant": "All codes, missing fields and settings", "anchors": ["tools/verification/helpers.cpp:21-44", "tools/verification/helpers.cpp:66-109", "tools/verification/helpers.cpp:316-331"]}
{"id": "C82", "title": "Reading the common settings of a file", "statement": "If every value of the file's common settings has the type its key expects, then every setting has the value given in the file (a boolean counts as a number, a fraction is truncated for an integer, a misspelt enumeration name gives the first entry) and every setting not in the file has its default. The first value of a wrong type silently hides every alphabetically later key, so one bad value can replace the algorithm asked for; reading never throws, and is undefined exactly when a number out of its integer type's range comes before any value of a wrong type. Keys that are not read make no difference; of the names documented in navigation_settings.h exactly K_neighbors, Use_altitude and Fuse_gps_border are not read, so no file can turn altitudes on.", "quantifier": "All JSON values, any number type", "why_tests_cant": "All files: any subset of 72 keys with values of any type", "anchors": ["tools/verification/helpers.cpp:111-287", "tools/verification/helpers.cpp:698-723", "include/navigine/navigation-core/navigation_settings.h:14-117"]}
{"id": "C83", "title": "Level settings, whole settings files and the clients they give", "statement": "A level's A and B are those of the last entry for that level, -82 and 3 by default; an A of a wrong type loses B as well. A file with well-formed entries gives exactly the levels listed. A file without level_settings or common_settings, or with common_settings given as an object, throws; an empty array of common settings gives the defaults; an empty array of level settings is undefined behaviour. A client other than KNN is created exactly when every level of the map has an entry and the five durations fit in a long long of milliseconds; a missing level throws, and otherwise the conversion is undefined.", "quantifier": "All settings files and all maps", "why_tests_cant": "All files and all maps", "anchors": ["tools/verification/helpers.cpp:289-314", "tools/verification/helpers.cpp:698-723", "src/position_estimator/position_estimator_zone.cpp:13-23", "src/navigation_client_impl.cpp:14-60"]}
{"id": "C84", "title": "Map and log files as JSON values", "statement": "A map file is read exactly when it has features and each of them shows something: a level with its rings (the first one outer, longitude before latitude), a graph, a transmitter (altitude only from exactly three coordinates, a misspelt type read as WIFI), a reference point, or something of another type; the levels are then those of C78 on what is shown, and a feature shows one thing only. A polygon without rings shows nothing, so it stops the program. A log is read exactly when each of its lines says a measurement, in order; a fractional type is truncated to choose the kind of message but not to choose the sensor, so 102.5 is read as an accelerometer.", "quantifier": "All JSON values whose objects have increasing keys, any number type", "why_tests_cant": "All files, with missing fields, other types and odd nesting", "anchors": ["tools/verification/helpers.cpp:21-44", "tools/verification/helpers.cpp:66-109", "tools/verification/helpers.cpp:316-331", "tools/verification/helpers.cpp:382-403", "tools/verification/helpers.cpp:460-539", "tools/verification/helpers.cpp:568-696"]}
{"id": "C85", "title": "The navigation program from its three files", "statement": "For a readable map file, a well-formed settings file and a well-formed log, the lines printed for a positive batch size are exactly the outputs of the client built from the map's levels and the file's settings, fed with the log cut into batches. If no level has the empty id, and either the algorithm is KNN or every level of the map has an entry in the settings file, the program throws no exception; for another algorithm a level without entry makes it throw before printing anything.", "quantifier": "All maps, settings files, logs, batch sizes, iteration orders and unspecified initial values", "why_tests_cant": "All triples of files", "anchors": ["tests/navigation_test.cpp:42-133", "tools/verification/helpers.cpp:316-331", "tools/verification/helpers.cpp:600-723"]}
{"id": "C86", "title": "No undefined behaviour in the client and the program", "statement": "Take a client built from levels with distinct non-empty ids whose altitude estimation is off, whose sigma filter, if on, has a window of at least one, and whose least-squares smoother, if on, has no negative averaging time; if the closest transmitters are selected, let the log have fewer than 2^64 measurements and, outside RSSI mode, finite signal strengths. Then every sequence of batches gives a result or stays in an angle loop: no exception and none of the modelled undefined behaviour (reading an empty container, sorting with an inconsistent comparison, an index out of range, a conversion that does not fit). Over the reals the angle loops end, so there is always a result. The same holds for the program from its three files; in doubles, conditions on the files alone suffice. A negative averaging time, or one signal strength that is not a number, does lead to undefined behaviour.", "quantifier": "All levels, settings, logs, batchings, unspecified initial values, sorting functions and mathematical functions; reals and binary64", "why_tests_cant": "Undefined behaviour has no visible result, and all inputs and all histories are meant", "anchors": ["src/navigation_client_impl.cpp", "src/measurements/measurement_preprocessor.cpp lines 124-158", "src/position_postprocessor/polynomial_fit.cpp", "tests/navigation_test.cpp:42-133"]}
{"id": "C87", "title": "Without GNSS, fixes lie among the transmitters heard, and they come", "statement": "Take a client that does not use KNN, radio-map levels or graph projection, and any history without GNSS positions in which all received transmitters the map knows stand on one level, inside one rectangle of its map. Then every OK output is on that level and its local coordinates lie in the rectangle, with corners rounded down to centimetres, if the smoothers are off; with any smoother on, the same holds when the rectangle is one point, so a client that hears one transmitter reports exactly its place, to the centimetre below. With plain settings (no stops, closest transmitters, barometer or transmitter power, RSSI mode, known transmitters only, cutoff not below -1000, positive time limits) a fix does come: a batch that starts with a signal, not older than anything before it, and ends with a signal at least the signal window later contains an OK output there. With the alpha-beta smoother a fix can lie outside the transmitters heard.", "quantifier": "All maps, settings as stated, rectangles, histories, batchings, unspecified initial values and sorting functions; exact real arithmetic", "why_tests_cant": "The whole pipeline over all histories; tests look at sample logs", "anchors": ["src/navigation_client_impl.cpp lines 33-174", "src/position_estimator/position_estimator_zone.cpp lines 26-76", "src/position_postprocessor/position_postprocessor.cpp lines 71-242", "src/measurements/measurement_preprocessor.cpp lines 237-330"]}
{"id": "C88", "title": "The coordinates and radius of every fix are numbers", "statement": "Take a map whose corners, transmitters and reference points are numbers away from the poles, settings whose fusion numbers are positive and whose log-model slopes are not zero, and a log whose numbers are numbers. Then every OK output has a latitude, a longitude and a radius that are numbers, and the radius is not negative, whatever estimator, smoother, projection or fusion is on, provided fusion of GNSS is off or time never goes back in the log. With fusion on and a call that starts earlier than the last one ended, a log of finite numbers yields a fix whose latitude is not a number.", "quantifier": "All such maps, settings and histories, batchings, unspecified initial values and sorting functions; exact real arithmetic with undefined results tracked", "why_tests_cant": "A division by zero needs a particular history, such as deviations of opposite sign; tests try a few logs", "anchors": ["src/navigation_client_impl.cpp lines 33-174", "src/position_postprocessor/position_postprocessor.cpp lines 45-242", "src/position_postprocessor/position_smoother_ab.cpp lines 20-92", "src/position_postprocessor/position_smoother_lstsq.cpp lines 18-56", "src/position_postprocessor/navigation_time_smoother.cpp lines 23-66", "src/position_estimator/position_estimator_outdoor.cpp lines 60-140"]}
{"id": "C89", "title": "What radius a fix is reported with", "statement": "With stops off, the radius of every OK output is that of an indoor estimate, or, for a fix that is GNSS's alone, zero or the receiver's own accuracy raised to the minimum. A radio-map (KNN) client therefore reports one metre with every indoor and every fused fix, whatever the accuracy of either source. A zone client reports a function of one signal level and its level's log model. A GNSS fix of 200 m accuracy is reported with radius 0 if no indoor estimate has been made.", "quantifier": "All maps, settings with stops off, histories, batchings, unspecified initial values and sorting functions; any arithmetic", "why_tests_cant": "Provenance of a number over all histories; a test compares values of a few logs", "anchors": ["src/position_postprocessor/position_postprocessor.cpp lines 45-213", "src/position_estimator/position_estimator_zone.cpp lines 26-76", "src/position_estimator/position_estimator_knn.cpp lines 30-102", "src/position_estimator/position_estimator_outdoor.cpp lines 60-140", "src/navigation_client_impl.cpp lines 100-174"]}
{"id": "C90", "title": "Fixes lie on the map", "statement": "Under the conditions of C88, if all levels have the same bounding box, which excludes the poles and is at most half the globe wide, and GNSS outside the map is not allowed, then the latitude and longitude of every OK output lie in that box. With boxes of different corners the coordinates of two levels are averaged: a transmitter and a receiver position that agree on a place give a fused fix five metres off along each axis. With boxes of a common corner but different size a fix can lie outside the box of the level it is shown on.", "quantifier": "All such maps, settings and histories, batchings, unspecified initial values and sorting functions; exact real arithmetic", "why_tests_cant": "Concerns every reported place of every history; the counterexamples need two overlapping levels", "anchors": ["src/position_postprocessor/position_postprocessor.cpp lines 71-242", "src/position_estimator/position_estimator_outdoor.cpp lines 100-140", "src/navigation_client_impl.cpp lines 100-174"]}
{"id": "C91", "title": "A receiver that hears everything stronger, and measurements in another order", "statement": "In difference mode the KNN estimate does not change if the receiver hears every signal k dB stronger, nor if the survey was made with a receiver that heard j dB more. In either mode it does not change with the order of the measurements, if no transmitter appears twice. In plain mode the weights of the points shift against each other. The zone estimate keeps its place and changes only its radius. The level told by the transmitters can change.", "quantifier": "All radio maps, levels, measurements and offsets; all sorting functions; exact real arithmetic (the change of level is a binary64 example)", "why_tests_cant": "A relation between two runs over all offsets and all permutations; tests compare a few recorded pairs", "anchors": ["src/knn/knn_utils.cpp lines 158-297", "src/position_estimator/position_estimator_knn.cpp lines 36-100", "src/position_estimator/position_estimator_zone.cpp lines 26-76", "src/level_estimator/level_estimator_transmitters.cpp lines 21-73"]}
{"id": "C92", "title": "The origin of time does not matter, except near zero", "statement": "If every time in a log, and in the unspecified initial contents of the client, is moved by the same number of milliseconds, the client gives the same outputs and the same states and ends the same way, as long as all the times, before and after, are at least two seconds (and more than the stop-update time where stops are used). Near zero it fails: time zero stands for 'nothing heard yet', so a log that starts at zero loses its first fix, and a step in the first 0.3 s is not counted.", "quantifier": "All environments, settings, maps, unspecified initial contents, logs, divisions into batches and offsets; all sorting functions that look at elements only through the comparison; every number type", "why_tests_cant": "A relation between two whole runs for all logs and all offsets; tests replay logs at the times at which they were recorded", "anchors": ["src/navigation_client_impl.cpp lines 33-174", "src/measurements/measurement_preprocessor.cpp lines 221-338", "src/sensor_fusion/pedometer.cpp lines 41-165", "src/sensor_fusion/complementary_filter.cpp lines 79-121", "src/position_postprocessor/position_postprocessor.cpp lines 52-241", "src/position_estimator/position_estimator_outdoor.cpp lines 90-147"]}
{"id": "C93", "title": "How old the signals behind a fix can be", "statement": "With the zone estimator and without GNSS positions, smoothing, stops, graph projection and barometer, on a log in order of time whose signals never pause for longer than a gap shorter than both timeouts, every fix shows the place (moved onto the map and rounded to centimetres) of a transmitter that was heard less than the averaging time plus the dead-reckoning time plus the gap before. Without the bound on silence it fails: the first fix after an hour's silence can still show a transmitter heard only an hour ago.", "quantifier": "All environments, settings of that kind, maps, logs, divisions into batches and gaps; every number type and sorting function", "why_tests_cant": "A bound over all logs and all timings of signals; the refutation needs a pause that recorded logs do not contain", "anchors": ["src/measurements/measurement_preprocessor.cpp lines 237-338", "src/position_estimator/position_estimator_zone.cpp lines 26-76", "src/position_postprocessor/position_postprocessor.cpp lines 159-241", "src/navigation_client_impl.cpp lines 53-171"]}
{"id": "C94", "title": "The box of a level, and its place on the globe", "statement": "The bounding box of a level is the smallest box around the outer rings of its polygons (holes do not count). A level read from a map file has the polygons of the first feature that describes it. If the box excludes the poles and neither it nor a hole reaches more than half round the globe, the origin of the level's coordinates is the corner of least latitude and longitude, and the level's local box holds the local coordinates of every place of the geographic box, of the whole outline and of all allowed places. Across the antimeridian it fails: a corner of the outline can fall outside the local box. A level without polygons is accepted, and its transmitters are placed at infinity.", "quantifier": "All lists of polygons with any number of points and holes, all map files; exact real arithmetic (the level without polygons in binary64)", "why_tests_cant": "Concerns outlines with any number of points; the recorded maps lie far from the antimeridian and all have polygons", "anchors": ["src/barriers_geometry_builder.cpp lines 13-24", "src/level_collector.cpp lines 47-92, 154-173", "tools/verification/helpers.cpp lines 568-598"]}
{"id": "C95", "title": "Allowed places are the places inside the drawn polygons", "statement": "The point-in-ring test tells inside, border and outside apart for every closed ring, where inside means that a ray from the point crosses the ring a non-zero number of times, opposite crossings cancelling, whichever ray that passes no corner is taken. Neither the direction in which a ring is drawn, nor its first point, nor whether it was closed in the file matters. After correction, conversion to local coordinates and a second correction, a level's allowed predicate holds at the local coordinates of a place exactly when the place lies in one of the polygons of the map file and not inside one of its holes, if holes of a polygon lie apart. A straight way that touches no ring does not change whether one is allowed. With barriers on, the smoother leaves a position where it is, repeats a stored one that is not older, or moves it to a place in one of the polygons. With overlapping holes it fails: a point inside one hole and on the border of another is allowed.", "quantifier": "All rings and polygons with any number of points and holes, all places, all smoother states; exact real arithmetic", "why_tests_cant": "A statement of plane geometry over all polygons and points; tests try a few points of a few maps", "anchors": ["src/barriers_geometry_builder.cpp lines 13-24", "src/level_collector.cpp lines 47-92, 154-173", "src/position_postprocessor/position_smoother_ab.cpp lines 25-85", "src/position_postprocessor/position_smoother_lstsq.cpp lines 18-49"]}
{"id": "C96", "title": "Integer arithmetic does not overflow", "statement": "If all time stamps a client is given, and those its uninitialised members happen to hold, lie in a span of less than 2^63 ms that contains -1 and 0, then no integer operation on times, step durations or step counts overflows in any sequence of navigate calls with fewer than 2^31 measurements; this includes the int in which the pedometer sums up step durations. In the constructor, timeouts below 2^53 seconds and durations that are not negative do not overflow. It fails for clients as constructed: the time of the last signal is not initialised, and there is a content for which the first measurement overflows. It also fails for a span of 2^63 ms and for a timeout of 2^54 seconds.", "quantifier": "All configurations, all sequences of navigate calls, all time stamps in the span, all contents of uninitialised members in the span; every number type", "why_tests_cant": "Concerns all time stamps and sequences of any length, and memory contents a test does not control", "anchors": ["src/sensor_fusion/pedometer.cpp lines 41-185", "src/sensor_fusion/complementary_filter.cpp lines 32-41, 79-130", "src/sensor_fusion/sensor_fusion.cpp lines 17-53", "src/measurements/measurement_preprocessor.cpp lines 55-71, 252-338", "src/navigation_client_impl.cpp lines 14-31, 41-172", "src/position_postprocessor/position_postprocessor.cpp lines 52-119, 159-215", "src/position_postprocessor/navigation_time_smoother.cpp lines 23-66"]}
{"id": "C97", "title": "Points on segments, rays, lines and areas", "statement": "Over the reals: PointOnLine accepts every point of a segment and only points within 0.11 mm of it. XRayIntersectsLine tells whether the horizontal ray to the right meets the segment, after end points at the height of the ray are lifted by 0.1 mm, with a tolerance of 1e-8 divided by the height of the segment; it does not depend on the direction of the segment, and from a point to the left of any polygon it accepts an even number of sides, also when the ray passes through vertices. The distance to a line is the least distance to its points; it and the area are undefined for points of different levels, and half of base times distance is the area. The tolerance of the ray has no bound: a ray that starts 40 cm to the right of a segment is said to meet it.", "quantifier": "All points, segments and polygons with any number of vertices, over the reals", "why_tests_cant": "Geometric statements about all points, with tolerances and degenerate segments", "anchors": ["src/geometry.cpp lines 7-17, 43-90, 156-186"]}
{"id": "C98", "title": "The interface of the radio-map likelihood", "statement": "hasSufficientMeasurements counts the measurements from transmitters of the fingerprints of the level. After any sequence of calls the remembered likelihood point is that of the last call with enough measurements, for whatever level that call was; calculateSamplingCenters returns it or nothing. The point of a call with enough measurements lies in a triangle of reference points of its level or is the origin, but the centre returned for a level of which nothing is heard can be the point of another level. getWeight is larger nearer to the point, and calculateWeights is getWeight divided by the sum. isParticleInIntersectionArea accepts exactly the particles within all measured distances up to 1e-7, a convex area, and throws for an unknown transmitter it comes to.", "quantifier": "All levels, tables, measurements, particles and sequences of calls; geometric parts over the reals, the others for every number type", "why_tests_cant": "Depends on the whole history of calls and on all particles", "anchors": ["src/likelihood/likelihood.cpp lines 12-29", "src/likelihood/likelihood_radiomap.cpp lines 14-182", "src/likelihood/likelihood.h lines 14-73"]}
{"id": "C99", "title": "The tilt error of the complementary filter is bounded", "statement": "Over the reals, for a device that does not turn and gains of at most 1: if every gyroscope sample is wrong by at most ka*sin(E) radians in any direction and an accelerometer sample comes between two of them, the angle between the estimated and the true vertical never exceeds E, however long the run. With an accelerometer that is off by up to A it never exceeds E when cos(E-g) <= cos E + ka/(1+ka^2/4)*(cos A - cos E), g the turn of one gyroscope sample. The first bound is attained: a constant bias of ka*sin(E) per sample keeps the error at exactly E for ever. A bias of more than ka per sample turns the estimate of a level device past the horizontal. The checks of the unit test staticTilt hold for any noise up to 0.01 rad and 0.02 rad/s and runs of any length.", "quantifier": "All sequences of samples of any length and order, all gains up to 1, all true verticals, all error directions, over the reals", "why_tests_cant": "A bound for all time against every bounded disturbance; the unit test draws one random run of ten seconds", "anchors": ["standalone_algorithms/complementary_filter/src/complementary_filter.cpp lines 66-135", "standalone_algorithms/complementary_filter/tests/complementary_filter_test.cpp lines 17-117"]}
{"id": "C100", "title": "Fingerprint fixes lie among the reference points and the origin; without triangles they are one corner of the map", "statement": "Over the reals, for a KNN client without graph projection that receives no GNSS position: (1) If the transmitters it hears occur in the radio map of one level only, and the smoothers are off, every fix is on that level and within any rectangle of its map that contains the local origin and all reference points of the level, corners rounded down to centimetres. (2) With Use_triangles off every fix, for all other settings, maps and signals, is the south-western corner of the bounding box of its level.", "quantifier": "All maps, settings as stated, sequences of batches of measurements of any length, contents of uninitialised members; over the reals", "why_tests_cant": "Quantifies over all maps and histories; that the position without triangles never depends on the signals cannot be seen from runs that only check for a fix", "anchors": ["src/position_estimator/position_estimator_knn.cpp lines 36-100", "src/knn/knn_utils.cpp lines 310-391", "src/level_estimator/level_estimator_radiomap.cpp", "src/position_postprocessor/position_postprocessor.cpp lines 71-241", "src/navigation_client_impl.cpp lines 53-171"]}
{"id": "C101", "title": "The tilt estimate of a moving device settles geometrically to a residual set by the sample errors", "statement": "Over the reals, for both complementary filters with accelerometer gain ka in (0,1] and negligible integral gain: if every accelerometer sample points within a of the true vertical, and between two gyroscope samples the true vertical moves as the midpoint rule with that sample predicts up to b, then after n corrected gyroscope steps the distance between the true and the estimated vertical is at most r + sqrt(1-k)^n (d0 - r), where k = ka/(1+ka^2/4), d0 is the initial distance (at most 90 degrees) and r is the fixed point of the worst case, with a+b <= r <= a + 2b/k.", "quantifier": "All initial attitudes within 90 degrees, all motions, all sample sequences of any length with errors within the bounds, any shape of error; over the reals", "why_tests_cant": "A bound over every noise sequence and every motion, with the exact rate and residual; tests see single runs", "anchors": ["src/sensor_fusion/complementary_filter.cpp lines 16-116", "standalone_algorithms/complementary_filter/src/complementary_filter.cpp lines 14-135"]}
{"id": "C102", "title": "The pendulum program reports pitch and roll within one degree", "statement": "examples/main.cpp of the complementary filter, over the reals: for any 2000 noise draws of at most 0.05 m/s^2 per accelerometer axis and 0.01 rad/s per gyroscope axis (bias included) the program writes 2000 lines, line i has time 1583315232492 + 10 i, and from line 100 on pitch is within one degree of the simulated pendulum angle and roll within one degree of zero.", "quantifier": "All sequences of 2000 draws within the stated limits; over the reals", "why_tests_cant": "The program draws from normal distributions with a random seed, so no run covers the adversarial sequences of draws", "anchors": ["standalone_algorithms/complementary_filter/examples/main.cpp lines 14-178", "standalone_algorithms/complementary_filter/src/complementary_filter.cpp"]}
{"id": "C103", "title": "The position program copes with damaged files and reports ordered, bounded, attributable positions", "statement": "position_estimation/examples/main.cpp, over the reals and for any two input files: it terminates without error; only the lines before the first unreadable line of each file count; it writes fewer lines than there are measurements; their times do not decrease; each has coordinates, a precision strictly between 1 m and 1+e^3 m and the time of an accepted measurement of a known transmitter. If all accepted measurements of known transmitters name transmitters at one place, every line has exactly that place. The pedometer program also ignores its first line whatever it is and everything after the first unreadable line.", "quantifier": "All input files of any length, any configuration with a positive shift, times non-negative; the positions over the reals, the reading for every number type", "why_tests_cant": "Quantifies over all files and all places of damage", "anchors": ["standalone_algorithms/position_estimation/examples/main.cpp lines 29-133", "standalone_algorithms/pedometer/examples/main.cpp lines 8-54", "standalone_algorithms/position_estimation/src/*"]}
{"id": "C104", "title": "The trilateration test accepts any coordinates", "statement": "test_trilateration.cpp prints 'test passed!' whenever calculateCoordinates returns no error, whatever the coordinates, and can only print 'test not passed' with error code 4 or 28. With its own data it computes x in (53.6928, 53.6929) and y in (29.9775, 29.9776), neither being the expected 53.692 and 29.977, and prints 'test passed!'. That a passed test shows correct coordinates is refuted.", "quantifier": "All beacons and measurements (verdict); the program's data, every std::sort (values, over the reals), doubles (refutation)", "why_tests_cant": "It is the test itself that is wrong; running it always shows success", "anchors": ["standalone_algorithms/trilateteration/src/test_trilateration.cpp lines 21-115", "standalone_algorithms/trilateteration/src/trilateration.cpp lines 55-204"]}
{"id": "C105", "title": "The unit test of the stand-alone complementary filter passes for every bounded noise", "statement": "tests/complementary_filter_test.cpp, over the reals: for any 1000 noise draws of at most 0.05 m/s^2 per accelerometer axis and 0.01 rad/s per gyroscope axis (bias included), ten seconds at 100 Hz at rest with any tilt of at most 45 degrees end with pitch within one degree of the tilt and roll within one degree of zero; so both checks of staticTilt hold.", "quantifier": "All tilts up to 45 degrees, all sequences of 1000 draws within the limits; over the reals", "why_tests_cant": "The test draws its noise from a normal distribution, so one run says nothing about the other sequences or other tilts", "anchors": ["standalone_algorithms/complementary_filter/tests/complementary_filter_test.cpp lines 17-113", "standalone_algorithms/complementary_filter/src/complementary_filter.cpp lines 14-135"]}
{"id": "C106", "title": "Every period in use is the setting of its name in whole milliseconds", "statement": "Over the reals: a configured client holds the averaging window, window shift, stop detection, stop update and dead reckoning times of its settings, rounded towards zero to milliseconds; a shift of zero or longer than the window is replaced by the window, and kept time plus shift is the window. The stand-alone preprocessor follows the same rule and its configuration is undefined exactly if one of the times does not fit into 64 bits. A negative shift is used as it is, so more than the window is kept (refuted bound).", "quantifier": "All settings and level collections with real parameters; all window and shift times", "why_tests_cant": "Quantifies over all settings, including fractions of a millisecond and out-of-range values", "anchors": ["src/measurements/measurement_preprocessor.cpp lines 55-71", "src/position_postprocessor/position_postprocessor.cpp lines 10-44", "standalone_algorithms/position_estimation/src/measurement_preprocessor.cpp lines 19-25"]}
{"id": "C107", "title": "The low-passed sensor values follow their samples and reach nothing", "statement": "The low-passed accelerometer and magnetometer values never influence anything the sensor fusion returns: two runs that differ only in them return the same displacements and orientations, or fail alike. Over the reals every axis is the exponential smoothing of that axis of the samples of its type with weight 1/(1+max(dt,0.02 s)) for the old value, whatever other samples arrive between; it stays in the range of the samples and under a constant input the old value is forgotten by exactly the product of the weights.", "quantifier": "All sample sequences and settings, any number type (first part); all real samples and times (second part)", "why_tests_cant": "A value that is never read cannot be seen by any test of the outputs; the rest quantifies over all sequences", "anchors": ["src/sensor_fusion/complementary_filter.cpp lines 32-41, 79-112", "src/sensor_fusion/sensor_fusion.cpp lines 17-53"]}
{"id": "C108", "title": "The tables of the fingerprints hold exactly the radio maps", "statement": "The radio-map table returns for a level name and a transmitter exactly the entries of the reference points of the last level of that name, in storage order and with their points; the transmitter table lists exactly the transmitters mentioned by any level of that name. If level names differ, a transmitter is listed exactly if the map has an entry for it; with two levels of one name this is refuted.", "quantifier": "All level collections with any number of levels, points and entries", "why_tests_cant": "Quantifies over all collections, including repeated names", "anchors": ["src/knn/knn_utils.cpp lines 88-140"]}
{"id": "C109", "title": "What the unit test of the stand-alone pedometer reads, reports and accepts", "statement": "tests/pedometer_test.cpp: the ground truth is the first line with a number other than zero and the samples are the lines after it up to the first unreadable one. Over the reals the reported number is that of the example program for the same samples, the reported mean length is not a number exactly if there is no step and otherwise at most 0.52 (2g)^(1/4) when no magnitude exceeds g. The number check passes exactly if 20 times the difference is at most either number, so below 20 true steps it demands equality; the length check needs a number. A log without a number of steps, as the logs missing from the repository, passes the number check and fails the length check in doubles.", "quantifier": "All logs of any length with damage anywhere; all real samples in any order of times", "why_tests_cant": "It is about the test program itself, for all logs; its own logs are not part of the repository", "anchors": ["standalone_algorithms/pedometer/tests/pedometer_test.cpp lines 21-82", "standalone_algorithms/pedometer/src/pedometer.cpp lines 23-151"]}
{"id": "C110", "title": "The linear solver of the fit is right for definite systems of any size", "statement": "solveLinearSystem over the reals: if the quadratic form of the matrix vanishes only at zero, every component is a number and together they are the only solution; if the matrix is symmetric with a non-negative form that vanishes elsewhere, no component is a number. That the system have exactly one solution is not enough (refuted): zeros in the first two entries of the first column make the rotation divide by zero.", "quantifier": "All sizes n, all real matrices and right-hand sides", "why_tests_cant": "The solver is only ever called for two unknowns by the program; sizes and matrices are unbounded", "anchors": ["src/position_postprocessor/polynomial_fit.cpp lines 146-187"]}
{"id": "C111", "title": "The polynomial fit of any power is the least-squares polynomial, and positions of one time switch the smoothing off", "statement": "Over the reals, with more different times in the window than the power, the coefficients are the only ones minimising the sum of squared residuals and reproduce any polynomial of that power; the prediction blends its value at the shifted time with the last output. With one sample or not more samples than the power, the prediction is the value of the only polynomial through all samples. With enough samples but too few different times no coefficient is a number; in the smoother such a window of one time passes the position on unsmoothed, and so does every later call as long as the window keeps two samples, because the last output is never a number again.", "quantifier": "All powers, all reachable fits, all windows of real samples of any length", "why_tests_cant": "Optimality over all polynomials; the program only ever asks for power one", "anchors": ["src/position_postprocessor/polynomial_fit.cpp lines 22-187", "src/position_postprocessor/position_smoother_lstsq.cpp lines 18-49"]}
{"id": "C112", "title": "Vector and quaternion operators keep the laws of algebra, and tolerance and aliasing break others", "statement": "Over the reals, the comparison of vectors holds exactly when no axis differs by the tolerance or more; it is symmetric but chains of equal vectors lead anywhere (refuted: transitivity), and in doubles a vector with an infinite component differs from itself (refuted). The two normalisations agree in any arithmetic; the result has length one, or is the vector itself when it is too short. The cross product is orthogonal to its factors, the quaternion product is associative, multiplies norms, and turning by unit quaternions keeps lengths and composes. Multiplying a quaternion by itself in place, or by a reference to one of its own components, reads components already replaced: exactly when the result is wrong is stated.", "quantifier": "All real vectors, quaternions and tolerances; aliasing laws in any arithmetic", "why_tests_cant": "Algebraic laws over all values; aliasing is invisible to tests that pass separate objects", "anchors": ["src/vector3d.cpp", "include/navigine/navigation-core/vector3d.h", "src/sensor_fusion/quaternion.cpp"]}
{"id": "C113", "title": "What the stand-alone trilateration keeps between calls", "statement": "After a success the kept measurements are ordered nearest first. After a failure because of a negative distance all negative measurements and one of each identifier that has one that is not negative remain, nothing new appears, and the next call without new measurements fails the same way; with fewer than three identifiers one averaged measurement of each remains and the next call fails the same way; without known beacons nothing remains. Over any sequence of the public calls on a new object the beacons are those given last and the coordinates are the sum of what a new object would have reported at each calculation.", "quantifier": "All objects and sorting algorithms; all sequences of calls of any length with real coordinates and positive distances", "why_tests_cant": "The state left behind by failing calls and by call sequences is unbounded and depends on the unspecified order of equal keys", "anchors": ["standalone_algorithms/trilateteration/src/trilateration.cpp lines 20-101, 209-278", "standalone_algorithms/trilateteration/src/beacon.cpp lines 234-237"]}
{"id": "C114", "title": "The distance a radio measurement carries follows from its strength and the transmitter of the first level", "statement": "Every measurement handed on by the preprocessor is an averaged one whose distance alone was changed: a measured distance loses the configured offset; otherwise it is exp((A - rssi)/B) of the transmitter with that name on the first level that has one, or the given distance if there is none. Over the reals it is positive, one metre at strength A and grows by the factor e whenever the strength falls by B; for B > 0 stronger means nearer and conversely; for B = 0 it is no number.", "quantifier": "All settings, collectors with different level names, buffers and times", "why_tests_cant": "All strengths, constants and level lists", "anchors": ["src/measurements/measurement_preprocessor.cpp lines 124-158", "src/level_collector.cpp lines 126-152"]}
{"id": "C115", "title": "Beacons of the stand-alone trilateration report what was set last", "statement": "After any calls on a new beacon each coordinate, identifier, location number, UUID, major and minor number read is the one given last, texts up to their first NUL and numbers modulo 2^32 (so that majors from 2^31 on are read negative: refuted). Equality of beacons means that the identifiers agree up to their first NUL and is an equivalence. Names never influence anything that can be read, and setting a location name appends to the one before (refuted).", "quantifier": "All sequences of calls of any length, all strings, all coordinates in any arithmetic", "why_tests_cant": "Call sequences are unbounded; names cannot be read back", "anchors": ["standalone_algorithms/trilateteration/src/beacon.cpp lines 14-179", "standalone_algorithms/trilateteration/src/beacon.h lines 20-86"]}
{"id": "C116", "title": "The stand-alone programs read exactly what their input files spell", "statement": "A file is cut at its line feeds. A word, an integer or a number is read from the start of a text exactly when the text spells one there (blanks, sign, digits, point, exponent, as far as they go, integers within 64 bits), and the rest is left for the next field; the transmitter, measurement and sample files give exactly the lines up to the first that does not spell its fields. Windows line ends change nothing in any of the three programs; a blank line hides everything after it; a time with a fraction shifts the three accelerations by one place without an error; the first line of a recorded walk is read as a number and a length, with the stated values when one is missing or out of range.", "quantifier": "All texts of any length, all conversions from decimal to floating point, all arithmetics", "why_tests_cant": "Input texts are unbounded; tests use a handful of well-formed files", "anchors": ["standalone_algorithms/position_estimation/examples/main.cpp lines 29-89", "standalone_algorithms/pedometer/examples/main.cpp lines 8-30", "standalone_algorithms/pedometer/tests/pedometer_test.cpp lines 20-48"]}
{"id": "C117", "title": "In binary64, averages of signals in fixed units are the nearest double to the exact mean, in any order", "statement": "When the signals of a window are whole multiples of one power of two (whole dBm, quarter dBm, ...) whose absolute values sum to less than 2^53 units, sums in doubles are exact and the same in every order, comparisons are those of the integers, each average of the radio buffer is a double to which no other double is nearer to the exact mean, it lies between the weakest and the strongest signal averaged, and the packet does not depend on the order of arrival nor on the sorting algorithm - over any history of the buffer and in the stand-alone estimator too. For other doubles this fails (refuted): three signals of -50.2 average to less than -50.2, and the average of -50.1, -50.2, -50.3 depends on their order.", "quantifier": "All windows, histories and orders of arrival; all units 2^g with |g| <= 900; all sums below 2^53 units; binary64 arithmetic with any libm", "why_tests_cant": "Rounding and order independence over all signal values and permutations", "anchors": ["src/measurements/measurement_preprocessor.cpp lines 252-338", "standalone_algorithms/position_estimation/src/measurement_preprocessor.cpp"]}
{"id": "C118", "title": "getStates reports the sensor fusion of the accepted measurements, and an indoor fix restarts the filter of satellite fixes", "statement": "After a call with a batch that is not empty there is one state per accepted measurement; its step counter and step length are those the sensor fusion reports when it is fed, once per accepted measurement, the latest sensor sample - again and again until the next sample - over the whole life of the client and independently of everything else; the newest state holds the latest indoor and outdoor points. The flag kept between measurements is set exactly when the measurement brought a new indoor position of some level, otherwise the stored indoor position is unchanged, and while it is set the window of the filter of satellite fixes restarts with at most the fix of this measurement.", "quantifier": "All clients, settings, histories of calls and batches, in any arithmetic", "why_tests_cant": "Histories are unbounded and the states mix four modules", "anchors": ["src/navigation_client_impl.cpp lines 33-128", "src/position_estimator/position_estimator_outdoor.cpp"]}
{"id": "C119", "title": "A satellite fix is refused exactly while the last message tells too few satellites", "statement": "The message a client goes by is the last satellite message of its whole history, however old. While it is the first sentence of its group and tells a number of satellites other than zero below the configured minimum, a location sample gives no position and the last fix stays as it is, so no measurements of any kind bring a new fix until another message arrives. In every other case (a later sentence, a count of zero, any sufficient count) the content of the message makes no difference at all.", "quantifier": "All settings, levels, client states, messages and histories, in any arithmetic", "why_tests_cant": "The message acts on all later samples of unbounded histories", "anchors": ["src/position_estimator/position_estimator_outdoor.cpp lines 81-147", "src/navigation_client_impl.cpp lines 33-128"]}
{"id": "C120", "title": "The pedometer learns no cadence: remembered step durations never change a step", "statement": "Two pedometers that differ only in the remembered durations of earlier steps report the same steps, with the same times and lengths, for every sequence of samples from then on: the average that is formed of the durations is compared with zero only. That two steps are at least 0.6 of the average duration apart, as the code forms it, is refuted by a walk.", "quantifier": "All pedometer states and sequences of samples, in any ordered arithmetic (reals and binary64)", "why_tests_cant": "Needs two runs over all continuations; a walk of even cadence shows no difference", "anchors": ["src/sensor_fusion/pedometer.cpp lines 111-165"]}
{"id": "C121", "title": "Compass, gyroscope and orientation samples change nothing but the reported orientation", "statement": "Take two histories of navigate calls with the same times and kinds of measurements, in which the values of gyroscope, magnetometer and orientation samples - and of barometer samples when the barometer is not used - differ in any way (also in the uninitialised members the clients start from). If both run to the end, every output agrees in status, level, latitude, longitude, altitude, radius and provider, has an orientation in one exactly when it has one in the other, and getStates() is the same. The same holds between two clients built from the same levels whose settings differ in useEnuAzimuth, useCalculatedAzimuth and deviceAzimuthLifetimeSeconds.", "quantifier": "All settings, levels, pairs of histories of any length, in any arithmetic", "why_tests_cant": "Non-interference relates all pairs of executions", "anchors": ["src/navigation_client_impl.cpp lines 33-174", "src/sensor_fusion/sensor_fusion.cpp lines 17-53"]}
