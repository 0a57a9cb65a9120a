{"id": "C01", "title": "near_zero is exactly the absolute test |v| <= 1e-10", "statement": "near_zero(v) returns True exactly when -1e-10 <= v <= 1e-10 (the relative tolerance 1e-12 never contributes), and it never raises.", "quantifier": "every real number v", "why_tests_cant": "the set of numbers is infinite and the relevant inputs sit on a boundary; tests only sample it", "anchors": ["src/grassfire/calc.py: near_zero", "src/grassfire/calc.py: is_close"]}
{"id": "C02", "title": "is_close is reflexive, symmetric for the symmetric methods, and rejects bad arguments", "statement": "With method strong, weak or average and non-negative tolerances is_close(a,b)==is_close(b,a); is_close(a,a) is True; is_close raises ValueError exactly when a tolerance is negative or the method name is unknown; strong implies weak, and whenever it answers True the distance |a-b| is at most max(abs_tol, rel_tol*max(|a|,|b|)).", "quantifier": "all values a, b, all tolerances, all methods", "why_tests_cant": "symmetry relates two calls for all pairs of values", "anchors": ["src/grassfire/calc.py: is_close"]}
{"id": "C03", "title": "all_close_clusters returns an increasing, separated, covering selection", "statement": "The result of all_close_clusters(L) on a non-empty list is a strictly increasing sub-selection of L, its first element is the minimum of L, consecutive results are not close to each other under the test used, and every input is either returned or close to the returned value that precedes it; the answer does not depend on the order of L.", "quantifier": "all non-empty lists of values of any length, all non-negative tolerances", "why_tests_cant": "covers lists of any length and every ordering of them", "anchors": ["src/grassfire/calc.py: all_close_clusters", "src/grassfire/calc.py: get_unique_times"]}
{"id": "C04", "title": "all_close_clusters does not merge values that are within its advertised absolute tolerance", "statement": "Claimed by the signature: values that differ by at most abs_tol (default 1e-7) are merged. This is FALSE: the two tolerances are passed to is_close in swapped position, so the default call merges by relative tolerance only; e.g. 0 and 1e-9 are both kept.", "quantifier": "the claim is about all lists; one list refutes it", "why_tests_cant": "test inputs far from zero cannot distinguish the two tolerances", "anchors": ["src/grassfire/calc.py: all_close_clusters", "src/grassfire/calc.py: is_close"]}
{"id": "C05", "title": "get_unique_times of a list without any time", "statement": "Claimed by the code (the else branch returning []): a list that is empty or holds only None gives []. This is FALSE: the filter object is always truthy and the call raises StopIteration for every such list; for every list with at least one number it returns normally.", "quantifier": "all lists of optional numbers", "why_tests_cant": "the exception only appears for None-only inputs and the claim ranges over all lists", "anchors": ["src/grassfire/calc.py: get_unique_times", "src/grassfire/calc.py: all_close_clusters"]}
{"id": "C06", "title": "groupby_cluster partitions the indices into consecutive runs", "statement": "groupby_cluster(L) returns non-empty groups whose concatenation is exactly 0..len(L)-1 in order; a group consists of its leading element and the following elements that are near it in both coordinates, and the first element of a group is not near the leader of the previous group; the empty list raises StopIteration.", "quantifier": "all lists of coordinate pairs of any length", "why_tests_cant": "ranges over lists of arbitrary length", "anchors": ["src/grassfire/calc.py: groupby_cluster"]}
{"id": "C07", "title": "get_box is the tight bounding box", "statement": "get_box(pts) returns lower-left and upper-right corners such that every point is inside, and each of the four bounds is attained by some point of the input; it raises AssertionError exactly for the empty list.", "quantifier": "all non-empty finite lists of points", "why_tests_cant": "unbounded number of points", "anchors": ["src/grassfire/transform.py: get_box"]}
{"id": "C08", "title": "Transform round trip", "statement": "For the transform built by get_transform from the bounding box of points that do not all coincide, backward(forward(p)) = p and forward(backward(q)) = q for every point; forward raises ZeroDivisionError exactly when all points coincide.", "quantifier": "all point sets and all points p, q (exact arithmetic)", "why_tests_cant": "algebraic identity over all real inputs", "anchors": ["src/grassfire/transform.py: get_transform", "src/grassfire/transform.py: Transform.forward", "src/grassfire/transform.py: Transform.backward", "src/grassfire/transform.py: get_box"]}
{"id": "C09", "title": "Shrinking maps the input into [-1,1]^2, keeps shape, and fills it in one direction", "statement": "forward maps every input point into the square [-1,1]x[-1,1], multiplies all distances by one common positive factor (same factor on both axes), preserves orientation of point triples, and in at least one axis the image touches both -1 and +1.", "quantifier": "all point sets that do not all coincide (exact arithmetic)", "why_tests_cant": "statement over all point sets of any size", "anchors": ["src/grassfire/transform.py: get_transform", "src/grassfire/transform.py: get_box", "src/grassfire/transform.py: Transform.forward"]}
{"id": "C10", "title": "The coordinate assertion of calc_skel never fails for shrunk input", "statement": "With shrink=True every start node coordinate of the initial kinetic vertices lies in [-2,2], so the assertion in calc_skel cannot fire, and with shrink=False it raises AssertionError exactly when an input point used by a kinetic vertex has a coordinate outside [-2,2].", "quantifier": "all inputs and all triangulations whose vertices are the transformed input points (exact arithmetic)", "why_tests_cant": "quantifies over all inputs and all triangulations", "anchors": ["src/grassfire/__init__.py: calc_skel", "src/grassfire/initialize.py: init_skeleton", "src/grassfire/transform.py: get_transform"]}
{"id": "C11", "title": "Line2.from_points passes through both points with a unit left normal", "statement": "For distinct points start and end, Line2.from_points(start,end) has a normal of length one, signed_distance is zero at both points, and signed_distance(p) is the cross product of end-start and p-start divided by the length: positive exactly for points left of the directed line.", "quantifier": "all pairs of distinct points and all points p (exact arithmetic)", "why_tests_cant": "algebraic statement over all real inputs with horizontal, vertical and general branches", "anchors": ["src/grassfire/line2d.py: coefficients_from_points", "src/grassfire/line2d.py: Line2.from_points", "src/grassfire/line2d.py: Line2.signed_distance"]}
{"id": "C12", "title": "Line2.from_points fails exactly for coinciding points", "statement": "Line2.from_points(p,q) raises if and only if p equals q, and the exception is ZeroDivisionError (raised while normalising), never the AssertionError written after it.", "quantifier": "all pairs of points", "why_tests_cant": "an if-and-only-if over all inputs; dead assertion", "anchors": ["src/grassfire/line2d.py: Line2.from_points", "src/grassfire/line2d.py: coefficients_from_points", "src/grassfire/line2d.py: Line2._normalize"]}
{"id": "C13", "title": "A wavefront line moves at unit speed", "statement": "For a unit-normal line, signed_distance of at_time(t) at any point equals the original signed distance minus t; at_time(0) is the line itself, at_time(s).at_time(t) = at_time(s+t), and the direction of the line never changes.", "quantifier": "all unit lines, all points, all times (exact arithmetic)", "why_tests_cant": "holds for all times, not sampled ones", "anchors": ["src/grassfire/line2d.py: Line2.at_time", "src/grassfire/line2d.py: Line2.translated", "src/grassfire/line2d.py: Line2.signed_distance"]}
{"id": "C14", "title": "Perpendicular, through and ends of a line", "statement": "For a unit line, perpendicular(p) passes through p, its normal is the line's normal rotated by +90 degrees; the point through lies on the line and is its point nearest to the origin; ends() returns two points of the line, 2000 apart, with end-start in the direction of the line (normal rotated by -90 degrees). For any line, y_at_x(x) is the one y with (x, y) on the line, and raises ZeroDivisionError for vertical lines.", "quantifier": "all unit lines and points (exact arithmetic)", "why_tests_cant": "algebraic identities over all inputs", "anchors": ["src/grassfire/line2d.py: Line2.perpendicular", "src/grassfire/line2d.py: Line2.through", "src/grassfire/line2d.py: Line2.ends", "src/grassfire/line2d.py: coefficients_perpendicular_through_point"]}
{"id": "C15", "title": "The bisector line is equidistant from both lines", "statement": "For unit lines that are not the same line or opposite copies, every point on one.bisector(other) has signed distances to the two lines of equal absolute value (opposite sign in the general branch, equal sign in the degenerate branch); it raises ZeroDivisionError only when the bisector would have no direction.", "quantifier": "all pairs of unit lines and all points on the bisector (exact arithmetic)", "why_tests_cant": "all pairs of lines, all points", "anchors": ["src/grassfire/line2d.py: Line2.bisector", "src/grassfire/line2d.py: coefficients_bisector_of_lines"]}
{"id": "C16", "title": "Line intersection returns the common point and classifies all cases", "statement": "The intersection type is POINT exactly when |det| > 1e-10; then the result lies on both lines and is the only common point. LINE and NO_INTERSECTION split the remaining cases; identical lines are always LINE; the type and the POINT result do not depend on the order of the two lines.", "quantifier": "all pairs of lines (exact arithmetic)", "why_tests_cant": "exhaustive classification and uniqueness over all lines", "anchors": ["src/grassfire/line2d.py: LineLineIntersector.intersection_type"]}
{"id": "C17", "title": "get_bisector gives the velocity that keeps a vertex on both moving wavefronts", "statement": "If the two wavefront lines are not nearly parallel, the vector returned by get_bisector has inner product 1 with both unit normals, so a point on both lines at time 0 that moves with it is on both translated lines at every time t; for identical lines it returns the common normal, for opposite directions the zero vector, for distinct parallel lines with the same direction twice the normal.", "quantifier": "all pairs of unit lines and all times (exact arithmetic)", "why_tests_cant": "for all times and all lines", "anchors": ["src/grassfire/line2d.py: WaveFrontIntersector.get_bisector", "src/grassfire/line2d.py: Line2.translated"]}
{"id": "C18", "title": "vectorops.bisector agrees with the line based bisector", "statement": "For unit normals that are not nearly opposite, vectorops.bisector(u1,u2) has inner product 1 with u1 and with u2; hence it equals WaveFrontIntersector.get_bisector for any lines with those normals that are not nearly parallel; nearly opposite normals give (0,0).", "quantifier": "all pairs of unit vectors (exact arithmetic)", "why_tests_cant": "relates a trigonometric and an algebraic computation for all inputs", "anchors": ["src/grassfire/vectorops.py: bisector", "src/grassfire/vectorops.py: angle_unit", "src/grassfire/line2d.py: WaveFrontIntersector.get_bisector"]}
{"id": "C19", "title": "get_intersection_at_t is the meeting point of the moved lines", "statement": "get_intersection_at_t(t) returns the unique point that has signed distance exactly t to both original unit lines; it raises ValueError exactly when the lines are nearly parallel, whatever t.", "quantifier": "all pairs of unit lines, all times (exact arithmetic)", "why_tests_cant": "all times, all lines", "anchors": ["src/grassfire/line2d.py: WaveFrontIntersector.get_intersection_at_t", "src/grassfire/line2d.py: Line2.at_time"]}
{"id": "C20", "title": "get_intersection and create_bevel_wavefront", "statement": "Claimed: WaveFrontIntersector.get_intersection() returns the intersection of two crossing wavefronts and create_bevel_wavefront returns a bevel wavefront. This is FALSE: get_intersection raises TypeError for every pair of wavefronts (missing time argument), hence create_bevel_wavefront never returns normally.", "quantifier": "all wavefronts", "why_tests_cant": "'never returns normally' quantifies over all inputs", "anchors": ["src/grassfire/line2d.py: WaveFrontIntersector.get_intersection", "src/grassfire/line2d.py: create_bevel_wavefront"]}
{"id": "C21", "title": "find_gt and find_gte return the least admissible candidate", "statement": "find_gte(a,x) returns the least number in a that is >= x, find_gt(a,x) the least number in a that is greater than x by more than 1e-10; None is returned exactly when there is no such number; None entries and the order of a are irrelevant.", "quantifier": "all lists of optional numbers of any length and all x", "why_tests_cant": "lists of arbitrary length, all permutations", "anchors": ["src/grassfire/collapse.py: find_gt", "src/grassfire/collapse.py: find_gte"]}
{"id": "C22", "title": "vertex_crash_time is the moment the vertex reaches the moving wavefront", "statement": "If org.ur is a unit line through org.origin, the returned time t is the unique time at which the apex has distance zero to the wavefront line moved by t; None is returned exactly when the apex keeps (within 1e-10) constant distance to the wavefront; it raises AssertionError if the two vertices do not share that line.", "quantifier": "all origins, velocities and lines (exact arithmetic)", "why_tests_cant": "uniqueness over all real times", "anchors": ["src/grassfire/collapse.py: vertex_crash_time"]}
{"id": "C23", "title": "collapse_time_edge is the time of closest approach", "statement": "Unless the two vertices move with (nearly) equal velocity, the returned time minimises the squared distance between the two moving vertices over all times, it is the only minimiser, and it is a meeting time if they ever meet; for (nearly) equal velocities -1 is returned. Swapping the vertices does not change the result.", "quantifier": "all pairs of moving vertices, all times (exact arithmetic)", "why_tests_cant": "minimality over all real times", "anchors": ["src/grassfire/collapse.py: collapse_time_edge"]}
{"id": "C24", "title": "The area polynomial equals twice the signed area at every time", "statement": "area_collapse_time_coeff(a,b,c)=(A,B,C) satisfies A*t*t+B*t+C = twice the signed area of the triangle formed by the positions of a, b, c at time t; cyclic rotation of the vertices does not change it and swapping two negates it.", "quantifier": "all moving vertices and all times t (exact arithmetic)", "why_tests_cant": "polynomial identity in 13 real variables", "anchors": ["src/grassfire/collapse.py: area_collapse_time_coeff", "src/grassfire/primitives.py: KineticVertex.position_at"]}
{"id": "C25", "title": "solve_quadratic is sound and complete up to its tolerances", "statement": "Every returned x satisfies |A x^2+B x+C| <= 1e-10*max(x^2,|A|), exactly 0 in the two-root branch; results are ascending; if |A|>1e-10 every real root is within 1e-5 of a returned value, and if A=0 and |B|>1e-10 the only root is returned; solve_quadratic never raises.", "quantifier": "all real coefficients A, B, C (exact arithmetic)", "why_tests_cant": "soundness and completeness over all coefficients", "anchors": ["src/grassfire/collapse.py: solve_quadratic", "src/grassfire/collapse.py: area_collapse_times"]}
{"id": "C26", "title": "Computed events never lie in the past", "statement": "Every event returned by compute_collapse_time(tri, now, sieve) has time >= now, for both sieves; with sieve=find_gt (initial event list) the time is now itself or later than now by more than 1e-10.", "quantifier": "all triangles of every type, finite or infinite, all vertex positions and velocities, all values of now", "why_tests_cant": "every branch of five event classifiers for all geometric inputs", "anchors": ["src/grassfire/collapse.py: compute_collapse_time", "src/grassfire/collapse.py: compute_event_0triangle", "src/grassfire/collapse.py: compute_event_1triangle", "src/grassfire/collapse.py: compute_event_2triangle", "src/grassfire/collapse.py: compute_event_3triangle", "src/grassfire/collapse.py: compute_event_inftriangle"]}
{"id": "C27", "title": "Computed events are well formed", "statement": "Every event returned by compute_collapse_time refers to the given triangle, carries its current type, has kind edge, flip or split, names exactly one or exactly three distinct sides (never two, never none), three sides only for kind edge, and kind split only for a finite 1-triangle.", "quantifier": "all triangles and geometric inputs", "why_tests_cant": "every branch of all classifiers", "anchors": ["src/grassfire/collapse.py: compute_collapse_time", "src/grassfire/primitives.py: Event"]}
{"id": "C28", "title": "compute_collapse_time updates only the event of that triangle", "statement": "For a stopped triangle compute_collapse_time returns None; if it returns an event that event becomes tri.event, if it returns None tri.event is left as it was; nothing else in the data structure changes.", "quantifier": "all triangles and states", "why_tests_cant": "frame condition over all states", "anchors": ["src/grassfire/collapse.py: compute_collapse_time"]}
{"id": "C29", "title": "compare_event_by_time is a strict total order", "statement": "compare_event_by_time is antisymmetric and transitive, returns 0 exactly for events with equal time, equal recorded triangle type and the same triangle, orders by time first and at equal times higher triangle types first.", "quantifier": "all events and all assignments of distinct addresses to triangles", "why_tests_cant": "order laws quantify over triples of events and over memory addresses", "anchors": ["src/grassfire/events/loop.py: compare_event_by_time"]}
{"id": "C30", "title": "At most one pending event per triangle", "statement": "At every moment of the event loop, each triangle has at most one pending event in the queue and the immediate list together, and that event is the triangle's current event; the queue is strictly sorted; the code never adds an event that compares equal to one in the queue.", "quantifier": "all states reachable by any sequence of handled events from any initial skeleton", "why_tests_cant": "invariant over unboundedly many event sequences", "anchors": ["src/grassfire/events/lib.py: replace_in_queue", "src/grassfire/events/lib.py: schedule_immediately", "src/grassfire/events/lib.py: replace_kvertex", "src/grassfire/events/loop.py: init_event_list", "src/grassfire/events/loop.py: event_loop"]}
{"id": "C31", "title": "The event clock never runs backwards", "statement": "The times of the events handled by event_loop form a non-decreasing sequence starting at or after 0; pending queue events are never earlier than the current time and immediate events have exactly the current time.", "quantifier": "all runs of the event loop", "why_tests_cant": "temporal invariant over all executions", "anchors": ["src/grassfire/events/loop.py: event_loop", "src/grassfire/events/loop.py: choose_next_event", "src/grassfire/events/lib.py: schedule_immediately"]}
{"id": "C32", "title": "The event loop always ends", "statement": "event_loop processes at most 50000 events and then raises ValueError; each handler it calls terminates: the triangle fan walk of replace_kvertex visits each triangle corner at most once, whatever the (possibly inconsistent) links between the triangles are. get_fan (called nowhere) ends when no triangle is entered from two others; its assertion against infinite loops does not prevent all of them (refuted).", "quantifier": "all queues, skeletons and neighbour structures, including inconsistent ones", "why_tests_cant": "termination for all inputs", "anchors": ["src/grassfire/events/loop.py: event_loop", "src/grassfire/events/lib.py: replace_kvertex", "src/grassfire/events/lib.py: get_fan"]}
{"id": "C33", "title": "A normal return means every internal triangle has collapsed", "statement": "If event_loop returns, both queues are empty and every triangle of the skeleton whose three vertices are internal is stopped; the returned time is the time of the last event taken from the queue (0 if none).", "quantifier": "all runs that return normally", "why_tests_cant": "all runs", "anchors": ["src/grassfire/events/loop.py: event_loop"]}
{"id": "C34", "title": "Stopped triangles stay stopped and are never handled again", "statement": "Once a triangle has a stop time it keeps having one, no new event is computed for it by compute_collapse_time, and event_loop skips pending events of stopped triangles without changing anything else.", "quantifier": "all runs", "why_tests_cant": "temporal property over all executions", "anchors": ["src/grassfire/events/loop.py: event_loop", "src/grassfire/collapse.py: compute_collapse_time"]}
{"id": "C35", "title": "stop_kvertices stops all given vertices at one node", "statement": "After stop_kvertices(V, step, now, pos) every vertex of V has the same stop node, returned as first result, and stop time now; the node is new exactly when no vertex of V was stopped before or started (within 1e-10) at now; a new node is placed at pos or, if pos is None, at the mean of the vertex positions at now; no other vertex changes. An empty V raises ZeroDivisionError when pos is None.", "quantifier": "all lists of vertices and all states", "why_tests_cant": "ranges over lists of any length and all states", "anchors": ["src/grassfire/events/lib.py: stop_kvertices"]}
{"id": "C36", "title": "Life spans are consistent", "statement": "Throughout every run each kinetic vertex has starts_at <= stops_at when stopped, stops_at is set exactly when stop_node is set, no stop time exceeds the current event time, and a stopped vertex is never revived.", "quantifier": "all reachable states of the event loop", "why_tests_cant": "invariant over all executions", "anchors": ["src/grassfire/events/lib.py: stop_kvertices", "src/grassfire/events/lib.py: compute_new_kvertex", "src/grassfire/events/edge.py", "src/grassfire/events/split.py", "src/grassfire/events/parallel.py", "src/grassfire/events/loop.py: event_loop"]}
{"id": "C37", "title": "Every skeleton edge ends in registered nodes", "statement": "Throughout every run the start node of each kinetic vertex and the stop node of each stopped kinetic vertex are members of skel.sk_nodes; nodes are never removed or moved, and skel.vertices only grows.", "quantifier": "all reachable states", "why_tests_cant": "invariant over all executions", "anchors": ["src/grassfire/events/edge.py", "src/grassfire/events/split.py", "src/grassfire/events/parallel.py", "src/grassfire/events/lib.py: stop_kvertices", "src/grassfire/primitives.py: Skeleton"]}
{"id": "C38", "title": "The motion of a kinetic vertex is fixed at birth", "statement": "origin, velocity, start time, start node, support lines and infinite-speed flag of an existing kinetic vertex never change during the event loop, so position_at(t) of a vertex gives the same answer at any later moment of the run.", "quantifier": "all vertices, all runs", "why_tests_cant": "frame property over all executions", "anchors": ["src/grassfire/events/lib.py", "src/grassfire/events/edge.py", "src/grassfire/events/split.py", "src/grassfire/events/parallel.py", "src/grassfire/primitives.py: KineticVertex"]}
{"id": "C39", "title": "Every vertex traces the bisector of its two wavefronts", "statement": "Throughout every run, each kinetic vertex of finite speed whose two support lines are not nearly parallel lies, at every time t, on both support lines moved by t (so it is equidistant from the two input edges).", "quantifier": "all reachable states, all vertices, all times t (exact arithmetic)", "why_tests_cant": "invariant over all executions and all times", "anchors": ["src/grassfire/events/lib.py: compute_new_kvertex", "src/grassfire/initialize.py: init_skeleton", "src/grassfire/primitives.py: KineticVertex.position_at"]}
{"id": "C40", "title": "Skeleton edges join at the node created by an edge event", "statement": "When an edge event makes a new skeleton node out of two running vertices whose support lines are those of their wavefronts, the node lies exactly where the new vertex is at that time (also when the outer wavefronts are parallel or nearly so); if the two collapsing vertices are at one place at that time, both end exactly at the node.", "quantifier": "all edge events (exact arithmetic)", "why_tests_cant": "geometric statement over all configurations", "anchors": ["src/grassfire/events/edge.py: handle_edge_event", "src/grassfire/events/lib.py: stop_kvertices", "src/grassfire/events/lib.py: compute_new_kvertex"]}
{"id": "C41", "title": "Wavefront neighbour history answers queries for every time", "statement": "After any sequence of neighbour assignments with non-decreasing times, left_at(t) / right_at(t) return the last value assigned at a time <= t (None before the first), the current value is the last one assigned, and later assignments never change the answer for earlier times.", "quantifier": "all assignment sequences of any length, all query times", "why_tests_cant": "unbounded sequences", "anchors": ["src/grassfire/primitives.py: KineticVertex.left", "src/grassfire/primitives.py: KineticVertex.right", "src/grassfire/primitives.py: KineticVertex.left_at", "src/grassfire/primitives.py: KineticVertex.right_at"]}
{"id": "C42", "title": "update_circ links two vertices mutually and touches nothing else", "statement": "After update_circ(l, r, now) with both vertices given, l.right is r and r.left is l; l's left, r's right (if l is not r) and all other vertices are unchanged, and answers of right_at/left_at for earlier times are kept.", "quantifier": "all states and vertices", "why_tests_cant": "frame condition over all states", "anchors": ["src/grassfire/events/lib.py: update_circ"]}
{"id": "C43", "title": "replace_kvertex substitutes the vertex in exactly the fan it walks", "statement": "If replace_kvertex returns and no triangle has v at two corners (else a triangle can be visited twice: refuted), the returned triangles are pairwise distinct, consecutive ones are neighbours across the chosen side, the last one ends at a wavefront side, each of them had v at some corner and now has newv there, and no other triangle changes its vertices; neighbours of all triangles are unchanged.", "quantifier": "all triangulations and start triangles", "why_tests_cant": "walks of any length", "anchors": ["src/grassfire/events/lib.py: replace_kvertex"]}
{"id": "C44", "title": "A flip keeps the triangulation consistent", "statement": "In a consistently linked triangulation (neighbour links mutual and sharing the edge vertices), flip succeeds, replaces the shared edge by the other diagonal of the quadrilateral, keeps the four outer edges with the same neighbours, leaves all triangles outside unchanged except for their link to the pair, and the result is consistently linked; twice the signed area of the pair is preserved.", "quantifier": "all consistent triangulations and all shared edges", "why_tests_cant": "all triangulations of any size", "anchors": ["src/grassfire/events/flip.py: flip", "src/grassfire/events/flip.py: handle_flip_event", "src/grassfire/events/parallel.py: flip"]}
{"id": "C45", "title": "Edge and split events keep the triangulation consistent", "statement": "Removing a triangle by an edge, split or three-sided collapse event leaves the remaining active triangles consistently linked: neighbour links between active triangles are mutual and share the same two vertices. Exception (refuted with a witness): a neighbour that has no pending event keeps its link to a triangle that collapsed to a point.", "quantifier": "all consistent states and, by induction, all runs of any length whose events are regular: the event's triangle is in the skeleton, unstopped triangles have three different corners, the triangle has no neighbour with the same opposite corner, for a collapse to a point the neighbours have pending events, and no infinitely fast vertex is made", "why_tests_cant": "invariant over all event sequences", "anchors": ["src/grassfire/events/edge.py: handle_edge_event", "src/grassfire/events/edge.py: handle_edge_event_3sides", "src/grassfire/events/edge.py: handle_edge_event_1side", "src/grassfire/events/split.py: handle_split_event"]}
{"id": "C46", "title": "segments() reports each skeleton edge once, in input coordinates for stopped vertices", "statement": "Skeleton.segments() has exactly one entry per vertex except those stopped at their own start node, in vertex order; for a stopped vertex the end points are the positions of its start and stop node mapped back by the stored transform (or as they are without transform), together with the info of both nodes.", "quantifier": "all skeletons", "why_tests_cant": "lists of any length", "anchors": ["src/grassfire/primitives.py: Skeleton.segments"]}
{"id": "C47", "title": "segments() in input coordinates for unstopped vertices", "statement": "Claimed: with a stored transform all segments are in the original coordinate system. This is FALSE: segments of vertices that never stop are returned in the shrunk coordinate system.", "quantifier": "all skeletons; one refutes it", "why_tests_cant": "only visible when a vertex is unstopped and the transform is not the identity", "anchors": ["src/grassfire/primitives.py: Skeleton.segments", "src/grassfire/__init__.py: calc_skel"]}
{"id": "C48", "title": "calc_offsets yields exactly the live wavefront at each sample time", "statement": "calc_offsets(skel, now, ct) yields for k=0..ct-1, at t=k*now/ct, exactly one item per vertex that is alive at t (starts_at <= t < stops_at, or never stopped) and has a left neighbour at t: its position, that neighbour's position and t, in vertex order.", "quantifier": "all skeletons, all sample counts", "why_tests_cant": "unbounded", "anchors": ["src/grassfire/__init__.py: calc_offsets", "src/grassfire/primitives.py: KineticVertex.left_at"]}
{"id": "C49", "title": "split_star partitions the star of a vertex at its constrained edges", "statement": "For a vertex with at least two constrained edges, split_star returns groups that together contain every triangle of the star exactly once, in rotation order; each group starts and ends at a constrained edge and has no constrained edge inside; the assertions in split_star never fail.", "quantifier": "all stars of any size with any placement of constrained edges and any starting edge", "why_tests_cant": "unbounded star size and starting position", "anchors": ["src/grassfire/initialize.py: split_star"]}
{"id": "C50", "title": "init_skeleton rejects vertices with fewer than two constrained edges", "statement": "If some vertex has fewer than two constrained edges init_skeleton raises NotImplementedError (or fails before); so on normal return every input vertex has at least two constrained edges and produces exactly one kinetic vertex per group.", "quantifier": "all triangulations", "why_tests_cant": "all inputs", "anchors": ["src/grassfire/initialize.py: init_skeleton", "src/grassfire/initialize.py: split_star"]}
{"id": "C51", "title": "internal_only_skeleton keeps exactly the internal elements", "statement": "internal_only_skeleton keeps all nodes, keeps exactly the triangles and vertices flagged internal in their order, is idempotent and leaves the transform unset.", "quantifier": "all skeletons", "why_tests_cant": "lists of any length", "anchors": ["src/grassfire/initialize.py: internal_only_skeleton"]}
{"id": "C52", "title": "check_ktriangles accepts exactly properly linked triangles", "statement": "check_ktriangles(L, now) is True exactly when every unstopped triangle of L is a neighbour of each of its neighbours and, if finite, has only vertices alive at now.", "quantifier": "all triangle lists", "why_tests_cant": "lists of any length", "anchors": ["src/grassfire/initialize.py: check_ktriangles"]}
{"id": "C53", "title": "eig_2x2 returns eigenvectors of symmetric matrices", "statement": "For a symmetric matrix each returned vector v_i is non-zero and satisfies A v_i = L_i v_i for the i-th eigenvalue computed (exactly when the off-diagonal entry is larger than 1e-10 in size, or 0 with a >= d). For a diagonal matrix with a < d this is FALSE: the two vectors come in the wrong order. Moreover, and the eigenvalues returned are the absolute values of L_1 >= L_2, whose sum is the trace and whose product is the determinant.", "quantifier": "all symmetric 2x2 matrices (exact arithmetic)", "why_tests_cant": "algebraic statement over all matrices", "anchors": ["src/grassfire/regression.py: eig_2x2"]}
{"id": "C54", "title": "are_residuals_near_zero", "statement": "Claimed: are_residuals_near_zero(pts) tells whether points are on a straight line. This is FALSE under Python 3: regress raises for every input (TypeError for non-empty input because adjust returns an iterator whose length is taken, ValueError for no points).", "quantifier": "all point lists", "why_tests_cant": "'raises for every input' is universal", "anchors": ["src/grassfire/regression.py: regress", "src/grassfire/regression.py: adjust", "src/grassfire/regression.py: variance", "src/grassfire/regression.py: are_residuals_near_zero"]}
{"id": "C55", "title": "output_offsets on skeletons with unstopped vertices", "statement": "Claimed: output_offsets writes the offsets for any skeleton. This is FALSE under Python 3: as soon as a sampled time reaches the start of a vertex that never stops, None > t is evaluated and TypeError is raised.", "quantifier": "all skeletons with an unstopped vertex started at or before the first sampled time", "why_tests_cant": "universal over skeletons", "anchors": ["src/grassfire/inout.py: output_offsets"]}
{"id": "C56", "title": "A 3-triangle collapsing exactly at time zero", "statement": "Claimed: a triangle with three wavefront sides whose earliest collapse time >= now is t gets an edge event at t. This is FALSE for t = 0: the truth value of the number 0.0 is used as 'no time' and another or no event is computed.", "quantifier": "all triangles; one refutes it; for every non-zero time the claim is proved", "why_tests_cant": "needs an exact zero", "anchors": ["src/grassfire/collapse.py: compute_event_3triangle", "src/grassfire/collapse.py: compute_event_inftriangle"]}
{"id": "C57", "title": "Flip events are always executable", "statement": "Claimed: an event of kind flip computed for a triangle names a side that has a neighbour, so that handle_flip_event does not fail its assertion. This is FALSE for 1-triangles with only a vertex crash time when the wavefront side ties for longest. Proved (exact arithmetic): for finite triangles it fails in no other way, that is, a flip naming a side without neighbour implies that another side has the same length up to 1e-10 at the event's time; it never fails for triangles with no side on the wavefront, and triangles with two or three such sides never flip.", "quantifier": "all triangles; one refutes it", "why_tests_cant": "needs exact ties of side lengths", "anchors": ["src/grassfire/collapse.py: compute_event_1triangle", "src/grassfire/events/flip.py: handle_flip_event"]}
{"id": "C58", "title": "Immediately scheduled triangles can always be processed", "statement": "Claimed: the event made by schedule_immediately is accepted by event_loop. This is FALSE: for a triangle with two equal shortest sides the event names two sides and event_loop raises ValueError.", "quantifier": "all triangles; one refutes it", "why_tests_cant": "needs exact ties", "anchors": ["src/grassfire/events/lib.py: schedule_immediately", "src/grassfire/collapse.py: compute_new_edge_collapse_event", "src/grassfire/events/loop.py: event_loop"]}
{"id": "C59", "title": "r_squared is the correlation coefficient, not its square", "statement": "r_squared(pts) lies in [-1,1] and when it returns 1 the points are collinear (as documented). The converse is FALSE: collinear points on a descending line give -1, on a horizontal or vertical line 0.", "quantifier": "all point lists (exact arithmetic)", "why_tests_cant": "Cauchy-Schwarz over lists of any length", "anchors": ["src/grassfire/calc.py: r_squared"]}
{"id": "C60", "title": "Vector operations check dimensions and obey vector algebra", "statement": "add, sub, mul, div, dot of two vectors raise ValueError exactly when the lengths differ; dot is symmetric; unit(v) has length 1 for every non-zero v and raises ZeroDivisionError for the zero vector; rotate90ccw and rotate90cw are inverse to each other, preserve length and are perpendicular to their argument.", "quantifier": "all vectors of any dimension (exact arithmetic)", "why_tests_cant": "all dimensions, all values", "anchors": ["src/grassfire/vectorops.py: add", "src/grassfire/vectorops.py: sub", "src/grassfire/vectorops.py: mul", "src/grassfire/vectorops.py: div", "src/grassfire/vectorops.py: dot", "src/grassfire/vectorops.py: unit", "src/grassfire/vectorops.py: cross", "src/grassfire/vectorops.py: rotate90ccw", "src/grassfire/vectorops.py: rotate90cw"]}
{"id": "C61", "title": "mean and variance, and the covariance functions that never work", "statement": "mean(l) is the arithmetic mean and variance(l) the sum of the squared deviations divided by len(l)-1 of any list with at least two elements; variance is zero exactly when all elements are equal. Claimed: cov and pcov compute the covariance of two lists. This is FALSE under Python 3: neither ever returns (TypeError from taking the length of a zip iterator, unless the mean of an empty list has raised ValueError before).", "quantifier": "all lists (exact arithmetic)", "why_tests_cant": "lists of any length; 'raises for every input' is universal", "anchors": ["src/grassfire/regression.py: mean", "src/grassfire/regression.py: variance", "src/grassfire/regression.py: cov", "src/grassfire/regression.py: pcov"]}
{"id": "C62", "title": "calc_skel as a whole: from the initial skeleton to the result", "statement": "On normal return init_skeleton gives a skeleton with unstopped triangles that are mutual neighbours, with corners alive at time 0, whose nodes are the vertices of the triangulation; it meets the assumptions of all properties about runs. So whenever calc_skel returns, the queue is empty, every triangle whose corners are internal is stopped, no life span is negative, every skeleton edge joins nodes of the skeleton, the first nodes are the (shrunk) input points, and every vertex of finite speed between non-parallel wavefronts is at every time on both of them.", "quantifier": "all triangulations, all inputs, both values of shrink and internal_only (the last statement in exact arithmetic)", "why_tests_cant": "all inputs and executions of any length", "anchors": ["src/grassfire/__init__.py: calc_skel", "src/grassfire/initialize.py: init_skeleton", "src/grassfire/events/loop.py: event_loop"]}
{"id": "C63", "title": "The wavefronts are circular lists at the start", "statement": "After init_skeleton every kinetic vertex has a left and a right neighbour, valid from time 0; being left neighbour is the converse of being right neighbour, and a vertex shares its left wavefront with its left neighbour and its right wavefront with its right neighbour.", "quantifier": "all triangulations in whose stars each corner occurs once, at its vertex", "why_tests_cant": "all inputs", "anchors": ["src/grassfire/initialize.py: init_skeleton", "src/grassfire/primitives.py: KineticVertex"]}
{"id": "C64", "title": "The initial triangles are consistently linked", "statement": "After init_skeleton, for a triangulation whose triangles have three different finite corners or one infinite one, whose neighbours are mutual and share the side, and whose vertex stars list each corner once in turning order: the unstopped triangles of the skeleton are mutual neighbours which share their side's two corners, and no two corners of such a triangle are the same. If inside/outside changes only across constrained edges, neighbours are on the same side. Hence in every run from there (whole or internal_only) in which no infinitely fast vertex is made and every event is regular (see C45), the triangulation stays consistently linked.", "quantifier": "all triangulations as described, all runs of any length", "why_tests_cant": "all inputs; the removal and relinking of unwanted triangles depends on the whole star", "anchors": ["src/grassfire/initialize.py: init_skeleton", "src/grassfire/events/loop.py: event_loop"]}
{"id": "C65", "title": "What each event ends, begins and removes", "statement": "Whatever an event changes, it changes at its own time: every triangle and vertex it stops and every vertex it starts gets that time. A three-sided edge event ends exactly the three vertices of its triangle, in one node. A one-sided edge event of a triangle with neighbours ends exactly the two vertices of its side in one node, where exactly one new vertex begins, between the left wavefront of the one and the right wavefront of the other; if it is infinitely fast, the same holds before the parallel handler runs and nothing of it is undone. A one-sided edge event of a triangle without neighbours ends its three vertices and a new one in one node. A split event ends exactly its vertex, in a node where exactly two new vertices begin, each between one of its wavefronts and the split one. Each of these removes exactly its triangle and adds at most that node. A flip event ends, begins and removes nothing.", "quantifier": "all states whose skeleton nodes are registered, all events, every arithmetic", "why_tests_cant": "all states; the events run the whole neighbourhood of the triangle", "anchors": ["src/grassfire/events/loop.py: event_loop", "src/grassfire/events/edge.py: handle_edge_event", "src/grassfire/events/edge.py: handle_edge_event_3sides", "src/grassfire/events/edge.py: handle_edge_event_1side", "src/grassfire/events/split.py: handle_split_event", "src/grassfire/events/flip.py: handle_flip_event"]}
{"id": "C66", "title": "The one-sided collapse of a triangle bounded by three wavefronts", "statement": "Claimed: a vertex that an event ends, ends in a node that lies where the vertex is at that time. This is FALSE for handle_edge_event_1side: its second stop_kvertices call contains a vertex that starts at the event's time, so always the first node is used. The segment to which the triangle collapses is reported with equal start and stop node, and the edge of the third vertex ends in the node of the two others, however far away.", "quantifier": "all such events; one refutes the claim", "why_tests_cant": "universal over states; such triangles are rare", "anchors": ["src/grassfire/events/edge.py: handle_edge_event_1side", "src/grassfire/events/lib.py: stop_kvertices"]}
{"id": "C67", "title": "Computed events tell the truth about their triangle", "statement": "For a finite triangle whose vertices move at finite speed, in exact arithmetic. No side on the wavefront: an edge event names only sides of squared length at most 2e-10 at its time; a flip event names the longest side at its time, and within 1e-10 of that time the area is zero up to 1e-10*max(time^2, growth). One such side, with both ends staying on its wavefront: an edge event names sides shorter than 1e-10; a split event names that side, a flip event a side, which is longest, and the opposite vertex is exactly on the wavefront, both within 1e-5 of the event's time. Two such sides: only edge events, naming the shortest sides up to 1e-10, at a time when one of the two sides has length zero (or half-way between their collapse times if these differ by at most 2e-5). Three such sides, not parallel: all corners meet in one point at one time T, and the computed event is exactly the edge event at T naming all three sides if T is not past and not 0, otherwise none. Assumed: speeds and area coefficients that the code takes for zero (below 1e-10) are zero.", "quantifier": "all states, all finite triangles, all times now >= 0, both search modes (exact arithmetic)", "why_tests_cant": "all real motions", "anchors": ["src/grassfire/collapse.py: compute_event_0triangle", "src/grassfire/collapse.py: compute_event_1triangle", "src/grassfire/collapse.py: compute_event_2triangle", "src/grassfire/collapse.py: compute_event_3triangle"]}
{"id": "C68", "title": "No triangle collapses before its event", "statement": "Under the same assumptions and if the triangle is not degenerate all the time: when its area is zero at a time x later than now (by 1e-10 for one or three wavefront sides, by 2e-5 otherwise), an event is computed, with a time not later than x (for zero or two wavefront sides: than x + 2e-5). Computing the event of a triangle with one wavefront side never raises an exception.", "quantifier": "all states, all finite triangles, all times now >= 0, both search modes (exact arithmetic)", "why_tests_cant": "a missed collapse is the absence of an event; all real motions", "anchors": ["src/grassfire/collapse.py: compute_event_0triangle", "src/grassfire/collapse.py: compute_event_1triangle", "src/grassfire/collapse.py: compute_event_2triangle", "src/grassfire/collapse.py: compute_event_3triangle", "src/grassfire/calc.py: get_unique_times", "src/grassfire/collapse.py: solve_quadratic"]}
{"id": "C69", "title": "The events that wait are those which the present state shows", "statement": "At the start of the event loop and after every event: each triangle of the skeleton has stopped; or an event of it waits, and this is the event which compute_collapse_time (or, for a triangle scheduled immediately, compute_new_edge_collapse_event) yields for the triangle as it is now, its corners, neighbours and their motions in the present state, at some moment from the start up to now; or no event of it waits and compute_collapse_time yields none. So an event never outlives a change of its triangle. Assumed of the run: its events are regular (see C45), no infinitely fast vertex is made, and the triangle across the one collapsing side of an edge event has stopped or has an event (the code re-evaluates it only then).", "quantifier": "all skeletons, all runs of any length, every arithmetic with a total order, any injective object addresses", "why_tests_cant": "executions of any length; a stale event looks like any other event", "anchors": ["src/grassfire/events/loop.py: event_loop", "src/grassfire/events/lib.py: replace_kvertex", "src/grassfire/events/lib.py: replace_in_queue", "src/grassfire/events/lib.py: schedule_immediately", "src/grassfire/events/flip.py: handle_flip_event", "src/grassfire/events/edge.py: handle_edge_event", "src/grassfire/events/split.py: handle_split_event"]}
{"id": "C70", "title": "The clock never passes the collapse of a triangle", "statement": "In exact arithmetic, in every state that a run as in C69 reaches: if a triangle that has not stopped will have area zero at a time x later than now (by the margins of C68), with its corners moving as they do now, the loop takes a next event, and its time is at most x (for triangles with zero or two sides on the wavefront: x + 2e-5). Assumptions on the triangle as in C68.", "quantifier": "all skeletons, all runs of any length, all triangles, all times (exact arithmetic)", "why_tests_cant": "executions of any length and all real motions", "anchors": ["src/grassfire/events/loop.py: event_loop", "src/grassfire/collapse.py: compute_collapse_time"]}
{"id": "C71", "title": "The rings of kinetic vertices fit the triangles", "statement": "After every event: a side of an unstopped triangle without neighbour joins two consecutive vertices of a ring: the one's right vertex is the other, the other's left vertex is the one, and both follow the same wavefront at that side. The only exceptions are left-over sides, whose two ends have both stopped (what remains of a side that has collapsed in the triangle next to it). The unstopped triangles with a given kinetic corner form one fan, in turning order from a side without neighbour to a side without neighbour. A kinetic corner of an unstopped triangle has stopped only if it is the end of a left-over side. Assumed of the start: the same; of the run: events are regular (see C45), no infinitely fast vertex is made, the corners of a triangle stay different, and left-over sides are dealt with one by one (tidy): no other left-over side touches the ends of a collapsing side, none touches the vertex that splits a side nor is the split side, and a triangle that collapses to a point has at most one neighbour.", "quantifier": "all states and events; all runs of any length; every arithmetic", "why_tests_cant": "the ring of a vertex is global; executions of any length", "anchors": ["src/grassfire/events/loop.py: event_loop", "src/grassfire/events/lib.py: update_circ", "src/grassfire/events/lib.py: replace_kvertex", "src/grassfire/events/edge.py: handle_edge_event", "src/grassfire/events/edge.py: handle_edge_event_3sides", "src/grassfire/events/split.py: handle_split_event", "src/grassfire/events/flip.py: handle_flip_event"]}
{"id": "C72", "title": "The consistency checks succeed whenever no immediate event waits", "statement": "In a state as described in C71, check_active_triangles succeeds; if the wavefront sides end in kinetic vertices, check_kinetic_vertices succeeds exactly if no side is left over, and then check_wavefront_links succeeds too. In a run as in C71 from a state without left-over sides, in which spokes collapse one at a time (calm: a left-over side is the collapsing one, no other triangle has a wavefront side between two corners of the collapsing one, and the triangle across the collapsing side has an event): after every event the triangles with left-over sides have their event in the list of immediate events, and whenever this list is empty all three checks succeed. (This is the condition under which the checks, now switched off, stand in event_loop: if we have immediate events, the linked list will not be ok for a while.)", "quantifier": "all states; all runs of any length; for runs every arithmetic with a total order, any injective object addresses", "why_tests_cant": "executions of any length; the checks are switched off in the code", "anchors": ["src/grassfire/events/check.py: check_active_triangles", "src/grassfire/events/check.py: check_kinetic_vertices", "src/grassfire/events/check.py: check_wavefront_links", "src/grassfire/events/loop.py: event_loop", "src/grassfire/events/lib.py: schedule_immediately"]}
{"id": "C73", "title": "The rings fit the triangles in the initial skeleton", "statement": "For a triangulation with consistent links and stars: if init_skeleton returns, the rings of kinetic vertices fit the triangles as described in C71, also where the triangles with two infinite corners have been taken out; the wavefront sides end in kinetic vertices, no side is left over, and check_active_triangles, check_kinetic_vertices and check_wavefront_links succeed. With internal_only the same holds for the inner part, if unconstrained sides do not separate inside and outside. Hence in the runs of calc_skel the rings keep fitting under the assumptions of C71 on the events, and the checks succeed whenever no immediate event waits under those of C72, without an assumption on the start.", "quantifier": "all triangulations (any number of vertices), all runs of any length, every arithmetic (for runs: with a total order)", "why_tests_cant": "unbounded input size, executions of any length", "anchors": ["src/grassfire/initialize.py: init_skeleton", "src/grassfire/initialize.py: split_star", "src/grassfire/initialize.py: rotate_until_not_in_candidates", "src/grassfire/initialize.py: internal_only_skeleton", "src/grassfire/events/check.py: check_active_triangles", "src/grassfire/events/check.py: check_kinetic_vertices", "src/grassfire/events/check.py: check_wavefront_links", "src/grassfire/__init__.py: calc_skel"]}
{"id": "C74", "title": "What handling an infinitely fast vertex does", "statement": "Triangles with an infinitely fast corner (parallel.py). Even legs, or three wavefronts: if the handler returns, the corners of the triangle end in one node, nothing else begins or ends, the triangle is removed and no triangle changes its corners. A shorter leg: one end of the leg is the infinitely fast vertex; the other end, and the infinitely fast one if it has not ended yet, end in one node; a new vertex begins there with the outer line of either end, takes its place between the outer neighbours in the ring with their wavefronts, and replaces only the two ends as corner; the triangle is removed; if the new vertex is infinitely fast and a corner of a triangle, it ends at once. A fan of any size: the infinitely fast vertex ends, and any infinitely fast vertex made meanwhile that is a corner of a triangle has ended. So after every event, in runs of any length, no infinitely fast vertex that has not ended is a corner of a triangle, if no split makes two of them at once. In exact arithmetic: of the two outer legs of the fan the shorter one collapses; if they are equal up to 1e-10 no vertex is made and only triangles of the fan (at most two) are removed: of two such triangles both vanish as they are if the two legs are equal (up to 1e-10) in either; otherwise the two are flipped first, and those that have an infinitely fast corner then vanish. The node of a collapsing leg lies where its other end is (if that did not just begin, within the code's tolerance: in the node where it began); with three wavefronts it lies where the slower corner of the two is.", "quantifier": "all states, fans of any size, recursion of any depth; all runs of any length; every arithmetic (the choice of the leg and the place of the node: exact arithmetic)", "why_tests_cant": "recursion of any depth, executions of any length, all real motions", "anchors": ["src/grassfire/events/parallel.py: handle_parallel_fan", "src/grassfire/events/parallel.py: handle_parallel_edge_event_shorter_leg", "src/grassfire/events/parallel.py: handle_parallel_edge_event_even_legs", "src/grassfire/events/parallel.py: handle_parallel_edge_event_3tri", "src/grassfire/events/edge.py: handle_edge_event", "src/grassfire/events/split.py: handle_split_event"]}
{"id": "C75", "title": "Handling infinitely fast vertices keeps the triangulation consistent", "statement": "The triangles around an infinitely fast vertex, from one wavefront side to the other, are handled: legs collapse one after the other, each making a new vertex in the corners of the neighbouring triangles, triangles with even legs vanish, the diagonal of two triangles is flipped first if only the outer legs are even, or a triangle with three wavefronts collapses. If the handler returns, the remaining active triangles are consistently linked (mutual links across sides with the same two vertices), and every triangle that stopped was active and stops now. The same holds for every event and, by induction, for every run, so that the claim of C45 and C64 extends to runs in which infinitely fast vertices are made, also one after the other.", "quantifier": "all consistent states, fans of any size, recursion of any depth, all runs of any length, every arithmetic; assumed: unstopped triangles have three different corners and no two neighbours have the same corners when an event is handled and after every leg that collapses within it, a split makes at most one infinitely fast vertex, and for a collapse to a point the neighbours have pending events", "why_tests_cant": "recursion of any depth, executions of any length", "anchors": ["src/grassfire/events/parallel.py: handle_parallel_fan", "src/grassfire/events/parallel.py: handle_parallel_edge_event_shorter_leg", "src/grassfire/events/parallel.py: handle_parallel_edge_event_even_legs", "src/grassfire/events/parallel.py: handle_parallel_edge_event_3tri", "src/grassfire/events/edge.py: handle_edge_event", "src/grassfire/events/split.py: handle_split_event", "src/grassfire/events/lib.py: replace_kvertex"]}
{"id": "C76", "title": "Wavefront sides stay on their wavefront, and between two events no triangle turns over", "statement": "In exact arithmetic, for the runs of calc_skel. A side without neighbour of a triangle that has not stopped, unless it is left over from a collapse: its two ends refer to one and the same wavefront and are on it at every time. If such a triangle, with its corners moving as they do now, will have no area at a time x later than now + 2e-5, the loop takes its next event at x + 2e-5 at the latest; so between now and the next event (up to 2e-5 at both ends) its area keeps its sign, whatever its number of wavefront sides; and if no event is left, it never collapses. The initial skeleton of any consistent triangulation is a start to which this applies.", "quantifier": "all triangulations, all runs of any length, all triangles and times (exact arithmetic); assumed: the events of the run as in C69 and C71, corners of finite speed between wavefronts that are clearly not parallel, and numbers of the triangle that are zero or clearly not zero (the tolerances of collapse.py)", "why_tests_cant": "executions of any length and all real motions", "anchors": ["src/grassfire/events/loop.py: event_loop", "src/grassfire/collapse.py: compute_collapse_time", "src/grassfire/initialize.py: init_skeleton", "src/grassfire/events/lib.py: compute_new_kvertex", "src/grassfire/__init__.py: calc_skel"]}
{"id": "C77", "title": "The checks with which event_loop begins: what they mean, and that they succeed", "statement": "check_bisectors(skel, t) returns normally exactly if, for every wavefront side of a triangle that has not stopped, the point to which the end of the side moves in one unit of time is not on the right of the side, and check_active_triangles_orientation exactly if no triangle that has not stopped goes around clockwise (counterclockwise, with the infinite vertex), both up to the tolerance of near_zero. In exact arithmetic, with an orient2d that has the right sign, the first check succeeds on the initial skeleton of every consistent triangulation, before and after init_event_list: the velocity of a vertex never points outwards of its wavefronts, not even with parallel ones, where get_bisector gives other speeds. The second one succeeds if the triangles go around counterclockwise and those with an infinite corner lie outside of the convex hull, because the infinite vertex is put in the centroid.", "quantifier": "all skeletons and times (meaning, any arithmetic); all consistent triangulations, with or without internal_only (success, exact arithmetic)", "why_tests_cant": "all triangulations", "anchors": ["src/grassfire/events/check.py: check_bisectors", "src/grassfire/events/check.py: check_bisector_direction", "src/grassfire/events/check.py: check_active_triangles_orientation", "src/grassfire/events/loop.py: event_loop", "src/grassfire/initialize.py: init_skeleton", "src/grassfire/line2d.py: get_bisector"]}
{"id": "C78", "title": "Neighbours on the wavefront share an input line, and offsets run along it", "statement": "Every vertex that is not the infinite vertex lies between two wavefronts, each the line through the ends of a constrained segment of the input triangulation, and whichever vertex was at some time its left neighbour has the wavefront on its left as its own wavefront on the right (and the other way around for right neighbours). This is so in the initial skeleton and after any events, infinitely fast vertices included, when calc_skel returns, with any rounding. In exact arithmetic it follows that every segment that calc_offsets yields, and every line that output_offsets writes (left and right), at any number of samples, has its two ends on one line of the input, both at the distance that is the time of the sample, on the inner side, if its two vertices are not infinitely fast and their wavefronts clearly not parallel.", "quantifier": "all triangulations, all runs of any length, all histories, all samples (neighbours: every arithmetic; distances: exact arithmetic)", "why_tests_cant": "executions of any length, all real motions, all inputs", "anchors": ["src/grassfire/__init__.py: calc_offsets", "src/grassfire/inout.py: output_offsets", "src/grassfire/initialize.py: init_skeleton", "src/grassfire/events/lib.py: update_circ", "src/grassfire/events/lib.py: compute_new_kvertex", "src/grassfire/events/edge.py: handle_edge_event", "src/grassfire/events/split.py: handle_split_event", "src/grassfire/events/parallel.py: handle_parallel_edge_event_shorter_leg", "src/grassfire/__init__.py: calc_skel"]}
{"id": "C79", "title": "Events are taken when what they announce happens", "statement": "In runs of any length, in exact arithmetic: when the loop takes an event from the queue, then at the time of the event, which becomes the current time, the triangle of the event, with its corners moving as they do in that state, is as the event says. No wavefront side: the sides of an edge event have no length (squared: at most 2e-10), or for a flip event the triangle is flat (within 1e-10 in time and area) and the named side is its longest. One wavefront side: the sides of an edge event have no length (1e-10), or the corner opposite to the wavefront reaches the wavefront (within 1e-5 in time) and the named side is the longest one, the event being a split exactly if it is the wavefront side. Two: an edge event; one of the wavefront sides has no length, or they vanish within 2e-5 of each other and the time is midway; the named sides are the shortest (1e-10). Three: an edge event of all sides, and the corners meet in one point. An event that the loop takes because it is to be handled immediately has the current time, is an edge event, and names exactly the sides that are the shortest now (1e-10), or all three for a triangle with three wavefront sides (these hold in every arithmetic with an order).", "quantifier": "all runs of any length, all states in them, all triangles (exact arithmetic for the geometry); assumed: the events of the run as in C69 and C71, and for events from the queue a triangle with corners of finite speed between wavefronts that are clearly not parallel, no side of it left over from a collapse, and numbers of the triangle that are zero or clearly not zero (the tolerances of collapse.py)", "why_tests_cant": "executions of any length and all real motions", "anchors": ["src/grassfire/events/loop.py: event_loop", "src/grassfire/collapse.py: compute_collapse_time", "src/grassfire/collapse.py: compute_new_edge_collapse_event", "src/grassfire/events/lib.py: schedule_immediately", "src/grassfire/events/lib.py: replace_in_queue"]}
{"id": "C80", "title": "What calc_skel(output=True) writes, and when it raises", "statement": "After any events every vertex that the skeleton lists is a kinetic vertex with a start node and a start time, and every corner of a triangle is such a vertex or the infinite one (every arithmetic). Hence visualize and output_skel never raise, whenever and for whatever time they are called: output_skel writes one line per vertex, in order, from the start node to the stop node if it is stopped and otherwise from where it started to where it is at the given time, with the distance of the two points as length, and one point per node; visualize writes one line per event of the queue, triangle that has not stopped (with its corners at the given time), node, vertex that has not stopped (with a line of length 0.01 along its velocity, its position and neighbours) and arc of the skeleton, and exactly the sides without neighbour of triangles that have not stopped; under the conditions of C76 both ends of such a side are at the given time as distance from one line of the input. With output=True calc_skel raises whatever it raises without; it raises TypeError if some vertex of the result started at or before one of the five sampled times and never stops (the outside of a polygon, so that output=True needs internal_only=True already for a triangle); otherwise it returns the same skeleton and the first offset file contains what calc_offsets yields.", "quantifier": "all inputs, all runs of any length, all states in them, all times (exact arithmetic for the writers)", "why_tests_cant": "all inputs and executions of any length", "anchors": ["src/grassfire/__init__.py: calc_skel", "src/grassfire/inout.py: output_skel", "src/grassfire/inout.py: visualize", "src/grassfire/inout.py: output_triangles_at_T", "src/grassfire/inout.py: output_edges_at_T", "src/grassfire/inout.py: output_offsets", "src/grassfire/primitives.py: KineticVertex.visualize_at"]}
{"id": "C81", "title": "pause=True: where calc_skel waits for the user, and when it can return", "statement": "calc_skel(pause=True) asks the user for input before the first and after the last event and never in between: the loop never reaches the step number from which on it would stop at every event, because it gives up after 50000 events, so with pause=True the loop does what it does without (every arithmetic). If the builtin raw_input answers, whatever it answers, the result is that of pause=False, exceptions included (exact arithmetic). If it raises, as it does on Python 3, which has no raw_input, calc_skel(pause=True) never returns; where pause=False returns a result it raises what raw_input raises.", "quantifier": "all inputs, all answers, all runs of any length", "why_tests_cant": "all inputs and all behaviours of the user", "anchors": ["src/grassfire/events/loop.py: event_loop", "src/grassfire/inout.py: interactive_visualize", "src/grassfire/inout.py: visualize", "src/grassfire/__init__.py: calc_skel"]}
{"id": "C82", "title": "check_direct: the events that happen near an event at the same time, and the one chosen", "statement": "The search of check_direct ends and gives, without repetition, exactly the triangles other than that of the event that are reached from it over neighbours each of which has an event at the same time (near_zero). It returns the given event if one of the events concerned is not a flip event. Otherwise it returns the flip with the longest side, but raises TypeError as soon as two different flips have sides of equal length, because then it compares events, which have no order; this is always the case when two neighbouring triangles are to flip their common side at the same time. The search is right in every state of a run.", "quantifier": "all states with neighbours that exist, in particular all states in all runs of any length; every arithmetic (the search), every ordered arithmetic (the choice)", "why_tests_cant": "meshes and groups of any size", "anchors": ["src/grassfire/events/loop.py: choose_next_event", "src/grassfire/events/loop.py: event_loop"]}
{"id": "C83", "title": "The functions that nothing calls", "statement": "In exact arithmetic: make_unit_vector gives the unit normal to the left of a constrained side, the one of the line that make_support_line makes for the side, None for other sides, and raises ZeroDivisionError if the ends of the side coincide; make_unit_vectors gives these for all triangles. signed_turn gives the angle in (-pi, pi] by which the direction changes at the middle point: positive for left turns, negative for right turns, 0 exactly for going straight on. get_bisector of edge.py gives a vector that makes equal angles with the directions to the two other points, on the side of the smaller angle, zero exactly if these are opposite. compute_crossing_bisector gives the bisector of get_bisector of line2d times the time. find_overlapping_triangle gives the position of the first triangle of the list whose last corner is not on the right of the line, AssertionError if there is none. is_quad of a closed ring of four points tells whether the turns at the second, third and fourth point are all to the left or straight, or all to the right; it does not look at the first point and so accepts quadrilaterals that are not convex.", "quantifier": "all arguments (exact arithmetic; find_overlapping_triangle: every arithmetic)", "why_tests_cant": "all real arguments", "anchors": ["src/grassfire/initialize.py: find_overlapping_triangle", "src/grassfire/initialize.py: is_quad", "src/grassfire/initialize.py: make_unit_vector", "src/grassfire/initialize.py: make_unit_vectors", "src/grassfire/events/edge.py: signed_turn", "src/grassfire/events/edge.py: get_bisector", "src/grassfire/events/split.py: compute_crossing_bisector"]}
{"id": "C84", "title": "Events stay up to date while infinitely fast vertices are handled", "statement": "C69 without its restriction to events that make no infinitely fast vertex. In runs of any length, also through events at which such vertices are made, one after the other (a leg collapses, the next vertex is infinitely fast again), and at which triangles vanish or the diagonal of the last two is flipped: after every event each triangle of the skeleton has stopped, or an event of it waits that is what compute_collapse_time (queue) or compute_new_edge_collapse_event (immediate) yields for it in the present state at a moment from the start up to now, or none waits and compute_collapse_time yields none. So for one event, for a run of events from any start, and for runs from the triangulation on.", "quantifier": "all runs of any length, all triangles, every arithmetic with an order; assumed: the events of the run as in C75, and the triangle across a collapsing side and the neighbours of triangles at an infinitely fast vertex that is about to be handled have stopped or have an event", "why_tests_cant": "executions of any length, fans of any size", "anchors": ["src/grassfire/events/parallel.py: handle_parallel_fan", "src/grassfire/events/parallel.py: handle_parallel_edge_event_shorter_leg", "src/grassfire/events/parallel.py: handle_parallel_edge_event_even_legs", "src/grassfire/events/parallel.py: handle_parallel_edge_event_3tri", "src/grassfire/events/lib.py: replace_kvertex", "src/grassfire/events/lib.py: replace_in_queue", "src/grassfire/events/lib.py: schedule_immediately", "src/grassfire/events/edge.py: handle_edge_event", "src/grassfire/events/split.py: handle_split_event"]}
{"id": "C85", "title": "The clock does not pass a collapse, infinitely fast vertices or not", "statement": "C70 for all runs of C84: in exact arithmetic, if a triangle that is still there, with corners of finite speed moving as they do now, is going to have no area at some later time, the loop takes its next event no later than that time (up to the tolerances of collapse.py), whatever events there were before, with or without infinitely fast vertices.", "quantifier": "all runs of any length as in C84, all triangles, all times; assumed as in C70: the fronts of the triangle are clearly not parallel and its area numbers are zero or clearly not zero", "why_tests_cant": "executions of any length and all real motions", "anchors": ["src/grassfire/events/loop.py: event_loop", "src/grassfire/collapse.py: compute_collapse_time", "src/grassfire/events/parallel.py: handle_parallel_fan", "src/grassfire/events/lib.py: replace_in_queue"]}
{"id": "C86", "title": "The skeleton of every triangle", "statement": "In exact arithmetic, for every triangle that is not extremely thin or small: calc_skel(internal_only=True) returns, without exception and with shrink=True as well as with shrink=False, and the segments of the skeleton are exactly three, from the corners, in order, to the center of the inscribed circle. All vertices and the only triangle end at the time that equals the radius of that circle (shrink=False). calc_offsets yields, at each of its times t before the radius r, exactly the three sides of the triangle shrunk towards the center by t/r, so at distance t from the sides of the input, and nothing at later times.", "quantifier": "all triangles with corners given counterclockwise (exact arithmetic, exact orientation predicate); twice the area more than 1e-8 and coordinates from -2 to 2 (shrink=False), or more than 1e-8 times the square of the larger extent (shrink=True); all numbers and distances of offsets. The triangulation is the one of package tri for three points (one triangle inside, six outside)", "why_tests_cant": "all real inputs", "anchors": ["src/grassfire/__init__.py: calc_skel", "src/grassfire/__init__.py: calc_offsets", "src/grassfire/initialize.py: init_skeleton", "src/grassfire/initialize.py: internal_only_skeleton", "src/grassfire/events/loop.py: event_loop", "src/grassfire/events/edge.py: handle_edge_event_3sides", "src/grassfire/events/lib.py: stop_kvertices", "src/grassfire/collapse.py: compute_event_3triangle", "src/grassfire/transform.py: get_transform", "src/grassfire/primitives.py: Skeleton.segments"]}
{"id": "C87", "title": "The arcs of the skeleton end where their vertices are", "statement": "In a run without infinitely fast new vertices (exact arithmetic): when the loop takes from the queue the collapse of a side, both vertices of the side end in one node, from which the new vertex leaves. Where the two outer fronts cross, the node is exactly the point at the distance from both that the fronts have come, and the ends of the two paths are no farther from it than the length of the side (at most 2e-5, or 1e-10 where a front of the triangle has vanished) divided by the sine of the angle of those fronts; where they do not cross, it is the middle of the two ends. When a split is taken, the vertex ends exactly in its node, which has the right distance from both its fronts and, up to the tolerance of the roots, from the wavefront that is split; the two new vertices leave from there. When a triangle with three wavefronts is taken, its vertices end in one node exactly where all three are, at the right distance from all fronts. Throughout, the wavefronts that the handlers use to place nodes (wfl, wfr) are the ones the vertex moves between (ul, ur), as init_skeleton makes them.", "quantifier": "all runs of any length from a start as in C76, all times and positions; the vertices that end have not begun at that very time, the fronts of the triangle are clearly not parallel and its numbers are zero or clearly not zero (as C79); new vertices have finite speed", "why_tests_cant": "executions of any length and all real motions", "anchors": ["src/grassfire/events/edge.py: handle_edge_event", "src/grassfire/events/edge.py: handle_edge_event_3sides", "src/grassfire/events/split.py: handle_split_event", "src/grassfire/events/lib.py: stop_kvertices", "src/grassfire/events/lib.py: compute_new_kvertex", "src/grassfire/initialize.py: init_skeleton"]}
{"id": "C88", "title": "Every inner node of the skeleton joins three arcs", "statement": "In a run in which the vertices that events end run and began before that moment, and new vertices have finite speed: every node that the run adds to the skeleton is the end of exactly three arcs (vertices of the skeleton that start or stop in it), nodes of the input keep the arcs they had. As many nodes are added as triangles are removed, and the number of arcs plus the number of arcs that have ended is the number of arcs at the start plus three times the number of removed triangles. So when all m triangles are gone and all arcs have ended, the skeleton has m more nodes than at the start and (n + 3 m) / 2 arcs, where n is the number of vertices at the start: for a polygon without holes (m = n - 2) 2 n - 3 arcs, one less than its nodes. Also, if the triangles of edge events are linked across a side that does not collapse, every vertex that has not ended is, at any time, a corner of a triangle that is there; so when the last triangle is gone all arcs have ended. The skeleton that init_skeleton makes of a triangulation, with or without internal_only, meets the conditions on the start: it lists every vertex once, among them all finite corners of its triangles, and nothing has ended. Where vertices meet at the same moment and place a node may have more arcs (refuted: the node of the square has four).", "quantifier": "all runs of any length from a skeleton as init_skeleton makes it, every arithmetic with an order; new vertices have finite speed, the events are regular (as C45) and end vertices that run", "why_tests_cant": "executions of any length, polygons of any size", "anchors": ["src/grassfire/events/edge.py: handle_edge_event", "src/grassfire/events/edge.py: handle_edge_event_3sides", "src/grassfire/events/split.py: handle_split_event", "src/grassfire/events/flip.py: handle_flip_event", "src/grassfire/events/lib.py: stop_kvertices", "src/grassfire/events/lib.py: compute_new_kvertex", "src/grassfire/initialize.py: init_skeleton", "src/grassfire/initialize.py: internal_only_skeleton"]}
{"id": "C89", "title": "Diagnostic output of the event loop", "statement": "is_infinitely_fast says True exactly if the fan is not empty and every triangle of it has an event within 1e-10 of now (a triangle without event counts as due at -1, which never is now). make_frames draws, if no immediate event waits, at exactly the multiples of 10^-digits strictly between the rounded time now and the rounded time of the next event (0.2 later without one), and nothing if one waits. visualize_collapse writes for a triangle, at any time: from each of its three corners the line to the position plus velocity, the triangle exactly if it has not stopped, the three corners with positions and present neighbours, exactly the sides without neighbour, and the rays of 10000 times the velocity to both sides of the origins; it raises AttributeError exactly if a corner is infinitely fast and has no start node, which in runs of calc_skel never happens. log_queue_content lists all immediate events and the first 21 of the queue; that the number of skipped events it reports is the number of events not listed is refuted: from 21 events on it is one too many.", "quantifier": "all states, times, fans, queues and numbers of digits (at least one); rounding to a multiple of 10^-digits and truncation are any functions that do that", "why_tests_cant": "all real times and states; log lines are not tested", "anchors": ["src/grassfire/events/lib.py: is_infinitely_fast", "src/grassfire/events/loop.py: make_frames", "src/grassfire/events/loop.py: log_queue_content", "src/grassfire/inout.py: output_vertices_at_T", "src/grassfire/collapse.py: visualize_collapse"]}
{"id": "C90", "title": "Events are about triangles of the skeleton", "statement": "In every run, from a skeleton whose triangles are linked only among each other, every event in the queue and every immediate event is about a triangle of the skeleton, and the triangles stay linked only among each other, through edge events, splits, flips and the handling of infinitely fast vertices. The skeletons that calc_skel starts from are such, with internal_only too, so no event is ever about a triangle that was taken out. It follows that the first condition of the regular events of C45 always holds, and that C64 holds without it. Without the condition on the links the claim is refuted.", "quantifier": "all runs of any length from any triangulation, with and without internal_only, with and without infinitely fast vertices; the claim about single runs in every arithmetic", "why_tests_cant": "executions of any length, fans of any size", "anchors": ["src/grassfire/events/loop.py: event_loop", "src/grassfire/events/loop.py: init_event_list", "src/grassfire/events/lib.py: replace_kvertex", "src/grassfire/events/lib.py: replace_in_queue", "src/grassfire/events/lib.py: schedule_immediately", "src/grassfire/events/flip.py: handle_flip_event", "src/grassfire/events/parallel.py: handle_parallel_fan", "src/grassfire/initialize.py: internal_only_skeleton"]}
{"id": "C91", "title": "Tolerances and order in IEEE doubles", "statement": "In IEEE double precision (rounding to nearest even): the comparisons of all doubles that are not NaN form a total order that agrees with the order of their values, so the theorems for every ordered arithmetic hold for doubles, for example that event_loop handles events in order of time (C31), if NaN is placed above all numbers. is_close says False if one of the values is NaN, whatever the tolerances and the method. near_zero of a finite double is True exactly if its absolute value is at most the double next to 1e-10. The documentation of is_close says that inf and -inf are only close to themselves. This is FALSE (the test is commented out): by the default method inf is close to every number that is not NaN, also to -inf, and near_zero(inf) is True. find_gt never returns NaN; that find_gte never does is refuted.", "quantifier": "all doubles, tolerances and methods; all runs for the clock", "why_tests_cant": "all 2^64 doubles", "anchors": ["src/grassfire/calc.py: is_close", "src/grassfire/calc.py: near_zero", "src/grassfire/collapse.py: find_gt", "src/grassfire/collapse.py: find_gte", "src/grassfire/events/loop.py: event_loop"]}
{"id": "C92", "title": "Coordinates in IEEE doubles", "statement": "In IEEE double precision Transform.forward keeps the order of the coordinates (weakly): of two points of which one has coordinates at most those of the other, the shrunk points are so too. With shrink=True all shrunk coordinates are finite and lie in [-2, 2], whatever is rounded, so the assertions of calc_skel about the start coordinates (__init__.py 72-75) never fail: calc_skel is the same as without them; this is for points with finite coordinates of at most 2^1000 in size, two of which differ by at least 2^-1000 in x or in y, and a triangulation whose vertices are the given points. What holds in exact arithmetic (C09, C10) does not hold in doubles, refuted with witnesses: different points of the input can become the same point; shrunk coordinates can be less than -1; backward(forward(p)) need not be p; and WaveFront of two different points can raise ZeroDivisionError (the squared distance rounds to 0) or have the zero vector as normal (it overflows).", "quantifier": "all doubles for which the results are finite, positive scale", "why_tests_cant": "all pairs of doubles; rounding", "anchors": ["src/grassfire/transform.py: Transform.forward", "src/grassfire/transform.py: get_transform", "src/grassfire/line2d.py: WaveFront"]}
{"id": "C93", "title": "The triangles of the skeleton at the start are in reading order", "statement": "skel.triangles as init_skeleton leaves it is ordered by the position of the first corner: by y, then by x, and triangles whose first corners are at the same place are in the order of the triangulation; no triangle is listed twice. So the list is determined by the triangles that are in it, the object identities or hashes of the run do not matter.", "quantifier": "all triangulations; any arithmetic with a total preorder", "why_tests_cant": "all inputs", "anchors": ["src/grassfire/initialize.py: init_skeleton"]}
{"id": "C94", "title": "The other quadratic solver", "statement": "solve_quadratic_whatevery(A, B, C), for |A| > 1e-10: returns [] if there is no real root; otherwise, unless B = C = 0, a list of two values that are exactly the roots (a double root twice), the larger first if A > 0 and the smaller first if A < 0; if B = C = 0 it raises ZeroDivisionError although 0 is a root. For |A| <= 1e-10 it returns the root of B x + C = 0 if |B| > 1e-10, and [] otherwise.", "quantifier": "all real A, B, C (exact arithmetic)", "why_tests_cant": "all reals", "anchors": ["src/grassfire/collapse.py: solve_quadratic_whatevery"]}
{"id": "C95", "title": "The skeleton of every rectangle", "statement": "In exact arithmetic, for every rectangle, in any position, that is not a square and not extremely small: calc_skel(internal_only=True) returns, without exception and with shrink=True as well as with shrink=False, and the segments of the skeleton are exactly five, those of a hip roof: from the corners, in order, to the ends of the ridge, and the ridge itself (in one of the two directions). The ends of the ridge are the two points that are at the same distance r from one of the shorter sides and from both longer sides. All vertices and both triangles end at the time r (shrink=False). calc_offsets yields, at each of its times t before r, exactly the four sides of the rectangle whose corners have gone t/r of their way, and nothing at later times.", "quantifier": "all rectangles with corners given counterclockwise (exact arithmetic, exact orientation predicate); coordinates from -2 to 2, the sides differing by more than 1e-10 and the shorter one more than 2e-10 (shrink=False), or the same times half of the larger extent (shrink=True); all numbers and distances of offsets. The triangulation is one with a diagonal from the first to the third corner, two triangles inside", "why_tests_cant": "all real inputs", "anchors": ["src/grassfire/__init__.py: calc_skel", "src/grassfire/__init__.py: calc_offsets", "src/grassfire/initialize.py: init_skeleton", "src/grassfire/initialize.py: internal_only_skeleton", "src/grassfire/events/loop.py: event_loop", "src/grassfire/events/edge.py: handle_edge_event", "src/grassfire/events/parallel.py: handle_parallel_fan", "src/grassfire/events/parallel.py: handle_parallel_edge_event_even_legs", "src/grassfire/events/lib.py: compute_new_kvertex", "src/grassfire/collapse.py: compute_event_2triangle", "src/grassfire/transform.py: get_transform", "src/grassfire/primitives.py: Skeleton.segments"]}
{"id": "C96", "title": "With and without the assertions the handlers do the same", "statement": "The comments in the handlers ask why some of their assertions do not hold (edge.py 78, split.py 219 and 232: 'FIXME: why do these assertions not hold?'). They hold in every state whose rings of kinetic vertices fit the triangles (C71), for every event that is regular and tidy (C64, C71) and of the kind that the handler is for: there the event loop that Python runs and the one that `python -O` runs, in which the assertions of stop_kvertices, schedule_immediately, handle_flip_event, handle_edge_event, handle_edge_event_3sides, handle_edge_event_1side, handle_split_event and the loop are left out, do the same, event by event: the same state, or the same exception. So with a run of such events from the initial skeleton of a triangulation the loop gives the same result with and without the assertions. Where the ring is broken they differ (example).", "quantifier": "all states, events and runs of any length whose events are regular, tidy and of the kind that the handler is for and make no infinitely fast vertex; any arithmetic in which x - x is near zero, with a total preorder for the runs", "why_tests_cant": "all executions, and tests run the code with its assertions", "anchors": ["src/grassfire/events/edge.py: handle_edge_event", "src/grassfire/events/edge.py: handle_edge_event_3sides", "src/grassfire/events/edge.py: handle_edge_event_1side", "src/grassfire/events/split.py: handle_split_event", "src/grassfire/events/flip.py: handle_flip_event", "src/grassfire/events/lib.py: stop_kvertices", "src/grassfire/events/lib.py: schedule_immediately", "src/grassfire/events/loop.py: event_loop"]}
{"id": "C97", "title": "The skeleton of every square", "statement": "In exact arithmetic, for every square in any position: calc_skel(internal_only=True) returns, without exception, and the segments of the skeleton are exactly four: from the corners, in order, to the middle, the one point that is at the same distance r from all sides. The four arcs end in one and the same node; the skeleton has five nodes. All vertices and both triangles end at the time r, half of the side (shrink=False). calc_offsets yields, at each of its times t before r, exactly the four sides of the square whose corners have gone t/r of their way to the middle, and nothing at later times. Here both triangles vanish in a point at the same time; the one handled first stops its three corners in a new node and schedules the other immediately, which stops the fourth corner in that node. With shrink=True this holds for every square, of any size and anywhere.", "quantifier": "all squares with corners given counterclockwise (exact arithmetic, exact orientation predicate); shrink=True: no further condition; shrink=False: coordinates from -2 to 2 and sides longer than 2e-10; all numbers and distances of offsets. The triangulation is one with a diagonal from the first to the third corner, two triangles inside", "why_tests_cant": "all real inputs", "anchors": ["src/grassfire/__init__.py: calc_skel", "src/grassfire/__init__.py: calc_offsets", "src/grassfire/initialize.py: init_skeleton", "src/grassfire/initialize.py: internal_only_skeleton", "src/grassfire/events/loop.py: event_loop", "src/grassfire/events/edge.py: handle_edge_event_3sides", "src/grassfire/events/lib.py: schedule_immediately", "src/grassfire/events/lib.py: stop_kvertices", "src/grassfire/collapse.py: compute_event_2triangle", "src/grassfire/collapse.py: compute_new_edge_collapse_event", "src/grassfire/transform.py: get_transform", "src/grassfire/primitives.py: Skeleton.segments"]}
{"id": "C98", "title": "Every vertex begins in its start node", "statement": "The tests check for every vertex v of the skeleton at_same_location((v.start_node, v), v.starts_at). at_same_location says True exactly if every item but the first is within 1e-10 of the first in x and in y; that then any two are so is FALSE (the first is compared with the others only); for no items it raises IndexError. In every skeleton that calc_skel returns, and in every state of the event loop that is run on the initial skeleton, every vertex has a start node and a start time, so that the check can be made, and: vertices of the initial skeleton, infinitely fast vertices and vertices whose two support lines are nearly parallel are exactly in their start node at that time; any other vertex is in its start node or where its two support lines cross at that time, so the check says True exactly if that point is close to the start node, and it does if the start node is on both lines.", "quantifier": "all lists of items; all inputs for which calc_skel returns, all runs of any length, from any start in which the vertices begin in their nodes (exact arithmetic)", "why_tests_cant": "all executions; the tests make this check for a few dozen inputs", "anchors": ["src/grassfire/events/check.py: at_same_location", "src/grassfire/events/lib.py: compute_new_kvertex", "src/grassfire/primitives.py: SkeletonNode.position_at", "src/grassfire/primitives.py: KineticVertex.position_at", "src/grassfire/initialize.py: init_skeleton", "src/grassfire/__init__.py: calc_skel"]}
{"id": "C99", "title": "The node in which vertices end is close to each of them", "statement": "The tests check for every vertex v that has ended at_same_location((v.stop_node, v), v.stops_at). stop_kvertices puts the new node in the mean of the positions of the vertices. If any two of the vertices are close (within 1e-10 in x and in y) at the time, the check says True for each of them afterwards. For at most three vertices it is enough that at_same_location of the vertices says True, which compares with the first only; for four that is not enough (FALSE: example). So the event in which all three sides of a triangle collapse in corners that at_same_location accepts, none of them with a node at that time, makes vertices that pass the check. If the caller gives the position of the node, the check says True exactly for the vertices that are close to it.", "quantifier": "all states, lists of distinct vertices and times; all events of three sides (exact arithmetic)", "why_tests_cant": "all states; the tests make this check for a few dozen inputs", "anchors": ["src/grassfire/events/lib.py: stop_kvertices", "src/grassfire/events/check.py: at_same_location", "src/grassfire/events/edge.py: handle_edge_event_3sides"]}
{"id": "C100", "title": "The checks of the tests pass for every triangle, rectangle and square", "statement": "The tests check on the skeleton that calc_skel returns how many vertices have not stopped, for every vertex v that at_same_location((v.start_node, v), v.starts_at), and for every v that has stopped and is not infinitely fast that at_same_location((v.stop_node, v), v.stops_at). In exact arithmetic, for every triangle, every rectangle and every square that C86, C95 and C97 speak of, with shrink=False and with shrink=True: calc_skel(internal_only=True) returns a skeleton that passes these checks, and in which every vertex has stopped.", "quantifier": "all triangles, rectangles and squares with corners given counterclockwise (exact arithmetic, exact orientation predicate); the same bounds on the size as in C86, C95 and C97 (none for a square with shrink=True); the triangulation as there", "why_tests_cant": "all real inputs; the tests make these checks for a few dozen inputs", "anchors": ["src/grassfire/__init__.py: calc_skel", "src/grassfire/events/check.py: at_same_location", "src/grassfire/primitives.py: KineticVertex.position_at", "src/grassfire/events/lib.py: stop_kvertices", "src/grassfire/events/edge.py: handle_edge_event", "src/grassfire/events/parallel.py: handle_parallel_fan"]}
{"id": "C101", "title": "The pieces of the skeleton of a triangle, rectangle or square meet in their ends only", "statement": "The tests check that no two segments of the skeleton intersect but in their ends. In exact arithmetic, for every triangle, every rectangle and every square that C86, C95 and C97 speak of, with shrink=False and with shrink=True: calc_skel(internal_only=True) returns a skeleton whose segments() are line pieces of which any two have no point in common that is not an end of both.", "quantifier": "all triangles, rectangles and squares with corners given counterclockwise (exact arithmetic, exact orientation predicate); the same bounds on the size as in C86, C95 and C97 (none for a square with shrink=True); the triangulation as there", "why_tests_cant": "all real inputs; the tests make this check for a few dozen inputs", "anchors": ["src/grassfire/__init__.py: calc_skel", "src/grassfire/primitives.py: Skeleton.segments", "src/grassfire/transform.py: get_transform", "src/grassfire/events/lib.py: stop_kvertices"]}
