# Formal model of grassfire (straight skeleton by kinetic triangulation)

Source: `/repo` (bmmeijers/grassfire, Python 3), read as text.  Model and proofs: `rocq/theories/`
(logical prefix `Verif`, Coq 8.16.1).  Build: `cd rocq && coq_makefile -f _CoqProject -o Makefile && make -j4`.

## 1. How the code is modelled

* One Gallina function per Python function, branch by branch; each definition carries a comment with file
  and lines.  Exceptions are values: `res A := Ok a | Err e` (`Base.v`).  Functions that mutate the skeleton
  are in the state-exception monad `M X := state -> res (X * state)`.  Python's partial operations
  (`/`, `math.sqrt`, indexing, `next`, attribute access on the wrong class, `None` arithmetic) return the
  exception Python raises; nothing is totalised silently.
* Numbers: a record `Arith` (`Arith.v`) of the operations the code uses (literals, `+ - * / abs sqrt < <= ==`,
  `fsum`, `acos/cos/sin/pi`).  The model is a function of an `Arith`.
  - Discrete theorems (who is linked to whom, who is stopped, which event is pending, which exception is
    raised) are proved for *every* `Arith`, hence also for IEEE doubles.
  - Order theorems are proved for every `Arith` whose comparisons are a total order (`OrdArith`; doubles
    without NaN).
  - Geometric theorems are proved for `RA`, exact real arithmetic (Coq's `Reals`).
  - `QA`, exact rational arithmetic with an approximate square root, is executable; it carries the concrete
    examples and the counterexamples (`…_refuted`), evaluated by `vm_compute`.
  - `FA` (`ArithF.v`) is IEEE 754 double precision, executable (binary64 of the Flocq library, rounding to nearest even;
    `acos`, `cos`, `sin` are parameters): Python's own arithmetic.  `FT` is the same with NaN placed above all numbers in
    comparisons; it satisfies `OrdArith`, and agrees with `FA` on all pairs without NaN (C91).  C91 and C92 are about
    doubles, and runs of `calc_skel` in doubles are among their examples.
* Object identity (`is`, `id`) is modelled by natural-number references into heaps with allocation counters
  (`nt` triangles, `nv` vertices, `nn` nodes, `ne` events).  A heap is a total function; slots at or above
  the counter are *unallocated* and no theorem speaks about their content, except that the fresh-state
  predicates fix it to the default value so that allocation is deterministic.
  `id(triangle)` in the event comparison is an arbitrary function `addr`, assumed injective where needed.
* Loops are structural recursion or fold; `while` loops use fuel and the fuel is either the code's own guard
  (50000 in `event_loop`), the interpreter's recursion limit (→ `RecursionError`), or proved sufficient.
* Two exceptions are artificial.  `OutOfFuel`: a walk over triangles outran its fuel, i.e. the Python loop
  would not have ended within that many steps (C32 shows it does not happen for `replace_kvertex`, and exactly
  when it does for `get_fan`).  `DuplicateKey`: two events with equal keys in the `OrderedSequence` (C30
  shows that no run meets this, so what `oseq` does with equal keys is irrelevant).

## 2. Trusted base

* Coq's kernel (8.16.1) and its `vm_compute`.
* Axioms: only those of the standard library — `ClassicalDedekindReals.sig_forall_dec`,
  `ClassicalDedekindReals.sig_not_dec`, `FunctionalExtensionality.functional_extensionality_dep` and
  `Classical_Prop.classic` (the last through `lra`/`nra`/`Rtrigo` of `Reals`).  Section 6 lists, for every
  property theorem, what `Print Assumptions` prints (the command also follows each theorem in the sources).
  Theorems about discrete behaviour are closed under the global context.
* The faithfulness of the model to the Python text (comments cite lines).
* Assumptions about other packages, which appear as inputs or hypotheses, never as axioms:
  - `tri.delaunay`: the triangulation is an input `dtriang` of `init_skeleton` (vertices, triangles with
    corners, neighbours and constraint flags, the star of every vertex as the iterator gives it, the
    inside/outside depth of the regionating iterator).  Hypotheses about it used by single theorems are
    `ring`/`stars_right` (C63), `triangulation`/`regions` (C64), and "the vertices are the given points" (C10).
    C50–C52, C62 need no such hypothesis: where `tri` would hand over rubbish the model raises or carries on
    as the code does.
  - `geompreds.orient2d`: an arbitrary function (`orient2d` of `Env`); it only decides assertions.
  - `oseq.OrderedSequence`: a sequence kept sorted under its comparison function.
* Floating point rounding is not modelled by `RA`; theorems over `RA` are about the algorithm in exact
  arithmetic.  What `FA` simplifies (`x ** 2`, `math.fsum` of infinities) is said at its definition; in lists that contain NaN,
  `sorted` and `bisect` are modelled by what they find in sorted lists.  Flocq is used for definitions and theorems; it has no axioms of its own.

### 2.1 Modelled

| Python | model |
|--------|-------|
| `calc.py` (all functions) | `Calc.v` |
| `transform.py` | `Transform.v` |
| `vectorops.py` | `VectorOps.v` |
| `line2d.py`: `Line2`, `LineLineIntersector`, `WaveFront`, `WaveFrontIntersector`, bevel code | `Line2d.v` |
| `primitives.py`: `Event`, `Skeleton.segments`, `SkeletonNode`, `KineticVertex` (neighbour histories, `position_at`, …), `KineticTriangle` (types, `str`-free parts), `InfiniteVertex` | `Primitives.v` |
| `collapse.py`: all event computation | `Collapse.v` |
| `events/lib.py` | `EventsLib.v` |
| `events/flip.py`, `parallel.py`, `edge.py`, `split.py`, `loop.py` | `FlipEvent.v`, `ParallelEvent.v`, `EdgeEvent.v`, `SplitEvent.v`, `EventLoop.v`; `get_fan` in `Fan.v` |
| `events/check.py`: `check_bisectors`, `check_bisector_direction`, `check_active_triangles_orientation` | `EventLoop.v` |
| `events/check.py`: `point_to_each_other`, `check_wavefront_links`, `check_active_triangles`, `check_kinetic_vertices`, `at_same_location` (not called by the loop) | `Check.v` |
| `initialize.py`: `init_skeleton`, `split_star`, `rotate_until_not_in_candidates`, `internal_only_skeleton`, `check_ktriangles` | `Initialize.v` |
| `regression.py` | `Regression.v` |
| `__init__.py`: `calc_skel`, `calc_offsets`; `inout.py`: `output_offsets` | `Main.v` |
| `inout.py`: `output_skel`, `visualize`, `output_triangles_at_T`, `output_edges_at_T`, `output_kdt` (the data of the lines, not their text); `__init__.py`: `calc_skel` with `output=True` | `Output.v` |
| `inout.py`: `interactive_visualize` (what the user answers is a parameter); `loop.py`, `__init__.py`: `event_loop`, `calc_skel` with `pause=True`; the two functions `check_direct` inside `loop.py` | `Pause.v` |
| functions without callers: `initialize.find_overlapping_triangle`, `is_quad`, `make_unit_vector(s)`; `edge.signed_turn`, `edge.get_bisector`; `split.compute_crossing_bisector` | `Unused.v` |
| diagnostics: `lib.is_infinitely_fast`, `loop.make_frames` (rounding and truncation are parameters), `loop.log_queue_content`, `inout.output_vertices_at_T`, `collapse.visualize_collapse` (the data of the lines) | `Diagnostics.v` |
| the handlers and the loop as `python -O` runs them, without the assertions of `lib.py`, `flip.py`, `edge.py`, `split.py`, `loop.py` (those of `parallel.py` and `line2d.py` stay) | `NoAssert.v` |

### 2.2 Not modelled

* Logging and the files themselves (opening and writing, the text of the lines): of
  `inout.py` the functions `output_dt` and `notify_qgis`; `primitives` `__str__`, `__repr__`.
  `calc_skel` is modelled with `output = pause = False` (`Main.v`), `output = True` (`Output.v`) and
  `pause = True` (`Pause.v`), not with both; what the handlers do with `pause=True` is a parameter of
  `Pause.v`, which C81 shows never to be used.
* `choose_next_event` is modelled as taking the first element: the rest of its body is under `if False`.
* Test modules and `main` functions.
* Wall-clock, memory, and the interpreter's recursion limit except where stated.

## 3. Plan per property

| id | model | how |
|----|-------|-----|
| C01 C02 | Calc: `near_zero`, `is_close` | case analysis, `lra` over RA; reflexivity and errors for ordered Arith |
| C03 C04 C05 | Calc: `all_close_clusters`, `get_unique_times` | induction over the sorted list; witnesses for the refuted claims |
| C06 | Calc: `groupby_cluster` | induction |
| C07 C08 C09 | Transform | induction for the box, `field` for the round trip |
| C10 | Main: `calc_skel` asserts | from C09 and the model of `init_skeleton` |
| C11–C16 | Line2d | algebra over RA (`field`, `nra`) |
| C17 C19 C20 | Line2d: `WaveFrontIntersector` | algebra over RA; C20 case analysis |
| C18 | VectorOps: `bisector` | half-angle identity, `acos`/`sin` of `Reals` |
| C21 | Collapse: `find_gt`, `find_gte` | induction, any ordered Arith |
| C22–C25 | Collapse: times | algebra over RA |
| C26 C27 C28 | Collapse: event classifiers | case analysis over all branches, any (ordered) Arith |
| C29 | Loop: `compare_event_by_time` | order laws |
| C30 C31 C34 | all handlers | invariant over the state monad, preserved by every function the loop calls (`RunBase`, `RunTimed`, `RunLoop`) |
| C32 C33 | Loop | fuel argument; final assertion loop (`Decent`, `Total`, `TotalRun`, `Fan*`) |
| C35 | EventsLib: `stop_kvertices` | induction over the list |
| C36 C37 C38 C39 | all handlers | invariants / preorders closed under `bind` (`OpSpec`, `StopSpec`, `HistProofs`, `Bisect`) |
| C40 | Edge | algebra over RA (`EdgeHead`, `Bisect`) |
| C41 | Primitives: history | induction over assignment sequences |
| C42 C43 | EventsLib | frame reasoning; induction over the walk |
| C44 C45 | Flip, Edge, Split | mesh invariant (`Mesh*`) |
| C46–C48 | Primitives, Main | list induction; witness |
| C49 C50 | Initialize | list induction (`StarProofs`, `InitProofs`) |
| C51 C52 | Initialize | list induction |
| C53 C54 | Regression | algebra; case analysis |
| C55–C58 | Inout, Collapse, EventsLib, Loop | witnesses by `vm_compute` plus universal statements |
| C59 | Calc: `r_squared` | Cauchy–Schwarz by induction; witnesses |
| C60 | VectorOps | induction, algebra |
| C61 | Regression | list induction, algebra; case analysis |
| C62 | Main, Initialize, Loop | `init_skeleton` meets the run invariants (`InitState`, `InitBisect`), then the run theorems |
| C63 | Initialize | stars turn, groups are linked left/right (`InitCirc`) |
| C64 | Initialize, all handlers | relinking around each vertex (`InitMesh`), then C45 |
| C65 | all handlers | exact effect of each handler on vertices, nodes and triangles (`Effects`) |
| C66 | EdgeEvent | consequence of C65; refuted claim with a run as witness |
| C67 | Collapse | over R: with both ends on the front the signed side length and the apex's height are linear in time and the area is their product; roots of the product; three different unit normals are never collinear, so three fronts meet once |
| C68 | Collapse | over R: every zero of the area is within 1e-5 of a computed root; exact for one and three fronts |
| C69 | event loop, all handlers | invariant `settled`: what compute_collapse_time reads of a triangle (`view`) is unchanged unless the handler gives it a new event; per operation, then per handler, then per run |
| C70 | event loop, Collapse | C68 for every moment up to now, with C69 and the order of the queue |
| C71 | event loop, all handlers, rings (`kleft`/`kright`), fans | invariant `fitting` (Rings.v); effect of each handler on corners, links and stops (Mesh*) and on rings (RingSpec, RingGone), then per event shape (RingEdge, RingSplit, RingFlip, RingGone), per event and per run (RingRun) |
| C72 | `events/check.py`, event loop | single states: from `fitting`; runs: what is left over after an event is a side of a neighbour that the handler schedules immediately (RingLeft) |
| C73 | Initialize: `init_skeleton`; Main: `internal_only_skeleton` | the triangles of a vertex are its group of `split_star` without the removed ones; a side without link is a constrained side, first of one group and last of the next (InitRing) |
| C74 | ParallelEvent: fan, shorter leg, even legs, 3tri; edge and split events | exact effect lists of each handler (Fast), recursion by induction on the fuel with the invariant that only the pivot may be infinitely fast (FastRun); the run of the exact-arithmetic examples is computed with ExecR |
| C75 | ParallelEvent, EdgeEvent, SplitEvent (`handle_edge_event_with`, `handle_split_event_with`: the event up to the handling of infinitely fast vertices, which is a parameter) | the fan is followed through each merge: the two half fans of the new vertex join to a fan from wavefront to wavefront (MeshFast `merged_full`), so the next outer leg has no neighbour; triangles that vanish without a merge are pruned; induction on the recursion depth |
| C76 | Initialize, event loop, Collapse | the ends of a side refer to the same wavefront by the rings (C71, C73), and a vertex is on both of its wavefronts (C62); this gives C70 without its assumption on the fronts; the sign of the area by the intermediate value theorem |
| C77 | EventLoop (checks), Initialize, Line2d | both checks characterised for every arithmetic by induction over the triangles; on the initial skeleton the two ends of a side refer to the same wavefront (C73), which was made from their positions, and a bisector of unit normals has a nonnegative product with both (Cauchy-Schwarz in the parallel cases); the centroid is a mean of the vertices, so it is on the side of a hull edge on which they all are |
| C78 | event handlers, Initialize, Main (offsets) | an invariant of every event for all histories: neighbours set by update_circ share the wavefront between them, and events make no wavefronts; initially by init_skeleton's circular links; with C62 (vertices are on both of their wavefronts) both ends of an offset segment are at the same distance of the shared line |
| C79 | event loop, Collapse | C67 for the state in which the event is taken: by C69 the event is what compute_collapse_time (queue) or compute_new_edge_collapse_event (immediate) gives in that state, and by C76 its wavefront sides move along their fronts |
| C80 | writers of inout.py, calc_skel(output=True) | Listed.v: an invariant of every handler by rules for sequencing (the new vertices of a handler are kept as a list of known ones), then induction on the run; the writers row by row; C55 and C33 for the output stage |
| C81 | Pause: event_loop, calc_skel with pause=True | induction over the guard of the loop, with the step number bounded by what the guard has left (C81_never_inside); C80 (visualize never raises) for the waits before and after the loop |
| C82 | Pause: check_direct | depth-first search: invariant (seen, stack, found) and a measure for the fuel; the insertion sort raises exactly on equal lengths of different events |
| C83 | Unused | algebra over RA, induction over the list (find_overlapping_triangle), case analysis (is_quad) |
| C84 | ParallelEvent (fan, shorter leg, even legs, 3tri), EdgeEvent, SplitEvent, event loop | the invariant of C69 with a set of triangles that are not up to date: after an event up to its fans (`handle_edge_event_with no_fans`) only the triangles at the new infinitely fast vertex; a leg passes the set on to the triangles at the next vertex, as the fan seen from its two ends has the same triangles (`fan_ends`); triangles that vanish or are flipped leave it (CurrentFast) |
| C85 | event loop, Collapse | as C70, from C84 |
| C86 | Main (calc_skel, offsets), Initialize, event loop | the start state is computed symbolically (`tri_start`), its only event is C67 with three fronts, the loop is run symbolically (`only_step`); the bisectors lead to the incenter as the fronts are met at the radius (`corner_R`); C09 for the scaled input. `tri_of` (TriExample.v) stands for what package tri gives for three points, which is not modelled |
| C87 | edge.py, split.py, stop_kvertices, compute_new_kvertex | vertices that run are stopped in a new node (`stop_place`, PlacedNode.v); wfl = ul and wfr = ur is kept by all events of a run without infinitely fast vertices (`run_own`, Placed.v); the place of the node then follows from C39 (vertices stay on their fronts) and C79 (events happen). With infinitely fast vertices the shorter-leg handler copies the wavefronts of other vertices, so that part is left out |
| C88 | the handlers of edge, split and flip events, stop_kvertices, compute_new_kvertex, init_skeleton | each event that removes a triangle ends `V` and begins `W` in one new node with `length V + length W = 3` (`edge_joins`, `split_joins`, `three_joins`, Graph.v); corners of triangles stay listed (`event_corners`); degrees and counts by induction over the run (`run_tally`, GraphRun.v). Events that end vertices that began or ended at the same moment are left out: there a node may join more arcs (`C88_degree_refuted`). That every arc has ended when all triangles are gone is an assumption of `C88_end`; it is proved (`C88_all_ended`) for runs whose edge events have a neighbour across another side: running vertices stay corners of triangles (`event_busy`, `run_busy`, Corners.v) |
| C89 | is_infinitely_fast, make_frames, log_queue_content, output_vertices_at_T, visualize_collapse (Diagnostics.v) | case analysis; frames by arithmetic on multiples of 10^-digits; placed corners from C80; the number of skipped events refuted |
| C90 | event queue, links of triangles (Within.v) | pass over all handlers with the invariant that links of skeleton triangles and waiting events stay in the skeleton; start from C64; refuted without the condition on links |
| C91 | is_close, near_zero, find_gt, find_gte, comparisons, over IEEE doubles (ArithF.v) | lexicographic key of a double for the order; case analysis on NaN and infinities; Flocq's rounding theorems for near_zero |
| C92 | Transform.forward/backward, get_transform, WaveFront over IEEE doubles | monotonicity of rounding (Flocq), also for the assertions of calc_skel (ShrinkF.v: centre between the ends of the box, halving exact, quotient at most 2); witnesses by computation; runs of calc_skel in doubles as examples |
| C93 | init_skeleton: the sort of 692 (Initialize.v key_le, Base.isort) | stable insertion sort of an increasing list is strictly sorted by (y, x, number); strictly sorted lists with the same members are equal |
| C94 | solve_quadratic_whatevery (not used by the code) | factorisation of the quadratic; the second value is the conjugate form of the other root |
| C95 | Main (calc_skel, offsets), Initialize, event loop, ParallelEvent | as C86, with two triangles: the start is computed symbolically (`rect_start`), both triangles have an edge event at half of the shorter side (`two_event`); the event handled first makes an infinitely fast vertex between two opposite fronts, whose fan is the other triangle, handled by `handle_parallel_fan` (both legs are as long) (`first_long`, `second_long`, `first_short`, `second_short` for every arithmetic that meets a list of equations, met by the reals in RectReal.v). Which of the triangles is first depends on the addresses, so both orders are proved. `quad_of` (QuadExample.v) stands for what package tri gives for the four points. A square is left out here (its ridge is a point): C97 |
| C96 | events, NoAssert | function by function: where the condition of an assertion holds, `bind` of the assertion is dropped (`bind_assert`); what makes the conditions hold is read off `fitting` (ends of wavefront sides are neighbours and share the front: `joint`), `lined` and the lives of the vertices (`li_both`); the walks of `replace_kvertex` keep those (`replace_links`). The loop by induction on the guard, along `reach`, with `run_fitting`. The condition `sited` (which sides of the triangle have neighbours) says which handler the event is for. |
| C97 | Main (calc_skel, offsets), Initialize, event loop, EdgeEvent (3 sides), EventsLib | as C95; both triangles have an edge event of all three sides at half of the side (`point_event`); the one handled first stops three corners in a new node and makes the other's event immediate (`schedule_immediately` replaces it), which stops the fourth corner in the same node (`first_square`, `second_square`, for every arithmetic that meets a list of equations; `loop_twice`). With shrinking no side is shorter than 1, because the box touches both -1 and 1 (`forward_touches`) |
| C98 | Check (at_same_location for nodes and vertices), EventsLib (compute_new_kvertex), event loop, Main | `begun` (Location.v) is an invariant of every elementary step of the handlers (`begun_sound`, an instance of the general `Sound`): a vertex, once made, keeps its origin, velocity, start node and start time, and nodes do not move (`follows`); the one new vertex is looked at by cases of compute_new_kvertex. The initial skeleton from `init_starts` |
| C99 | EventsLib (stop_kvertices), Check (at_same_location), EdgeEvent (handle_edge_event_3sides) | the mean (C35_mean) is within the bounds that all values obey (`mean_close`, `mean_of_few`), and positions of the vertices do not change when they are stopped (`stop_positions`); at_same_location by C98_meaning; the rest of the event changes no position (`quiet`) |
| C100 | as C86, C95, C97, with Check (at_same_location) | the runs of C86, C95 and C97 give for every vertex its nodes, its times and its position at all times (`ended_at_center`, `arrives`); the one infinitely fast vertex, the ridge of a rectangle, is where its start node is. at_same_location by C98_meaning |
| C101 | as C86, C95, C97 | C86, C95 and C97 say which the line pieces are; two that end in one point not on a line with their beginnings meet there only (`meet_corner`), the others are kept apart by their distance to a side (`apart`, `meet_next`) |

The run theorems (C30–C34, C36–C39, C45, C62, C64) speak of `reach s0 now tr s`: the states of `event_loop`
before each event, from `s0`, of any length; `started s s0` is the state after `init_event_list`.

## 4. What the proofs found

Claims a user would expect and that the code does not meet; each has a witness (`…_refuted`) and a theorem
that says what holds instead:

* C04 `all_close_clusters` passes its two tolerances to `is_close` in swapped position and so merges by relative
  tolerance only.
* C05 `get_unique_times` of an empty list or a list of `None`s raises StopIteration.
* C20 `create_bevel_wavefront`/`get_intersection` cannot return: `Line2.translated`/`get_intersection` are
  called with a missing argument (`TypeError`).
* C32 `get_fan` on a closed fan (vertex completely surrounded) does not end.
* C43 replacing a vertex by one already in the triangle makes two corners equal.
* C45 a neighbour without pending event keeps its link to a triangle that collapsed to a point.
* C47 `segments()` mixes coordinate systems for unstopped vertices.
* C53 `eig_2x2` does not order its eigenvalues as documented; C54 `are_residuals_near_zero` always raises.
* C55 `output_offsets` raises on skeletons with unstopped vertices.
* C56 a 3-triangle collapsing exactly at time 0 gets no event.
* C57 a 1-triangle whose wavefront side ties for longest gets a flip across a side without neighbour.
* C58 `schedule_immediately` on a triangle with two equal shortest sides gives an event the loop rejects.
* C59 `r_squared` is the correlation coefficient (may be -1 or 0 for collinear points).
* C61 `cov` and `pcov` never return under Python 3.
* C66 `handle_edge_event_1side` ends the third vertex in the node of the other two, wherever it is; the segment it
  means to add always has equal start and stop node. (With three non-parallel fronts the computed event names
  all three sides, C67, so over exact numbers this handler only runs for parallel fronts.)
* C80 `calc_skel(output=True)` raises TypeError after all the work is done unless every vertex stops, so already for the
  outside of a triangle.
* C81 `calc_skel(pause=True)` cannot return on Python 3 (`raw_input`), and on Python 2 never pauses at an event, as
  `STOP_AFTER` is 104700 and the loop gives up after 50000 events.
* C82 `check_direct` raises TypeError when two flips have equally long sides, in particular for the two triangles at a
  common side that both are to flip.
* C83 `is_quad` does not look at the first corner and accepts quadrilaterals that are not convex.
* C89 `log_queue_content` lists 21 events of the queue and reports `len(queue) - 20` as skipped.
* C91 the documentation of `is_close` says that infinities are only close to themselves; the test is commented out, so `near_zero(inf)` is
  True.  `find_gte` returns NaN if there is only NaN to choose from.
* C94 `solve_quadratic_whatevery(A, 0, 0)` raises ZeroDivisionError instead of returning the root 0 (the function is not used).
* C92 in doubles `shrink=True` can merge different points, can give coordinates below -1, and is not undone exactly; `WaveFront` of different points
  that are very close raises ZeroDivisionError, of points very far from each other it has a zero normal.

Smaller observations, visible in the model: `stop_kvertices([])` divides by zero (C35_empty); stopping a
vertex twice overwrites `stops_at` and `stop_node`; `handle_edge_event` may call `queue.discard(None)`, which
raises AttributeError exactly when the queue is not empty; `replace_in_queue` leaves `tri.event` stale;
`WaveFrontIntersector.get_bisector` of equal parallel wavefronts gives `2w` unless they are identical (C17);
the assertion in `Line2.from_points` is dead (the division fails first, C12); `edge.py` 328 never sets
`wfl`/`wfr`; a triangulation vertex with an empty star yields no kinetic vertex and no error; a triangle whose
second or third corner is `None` passes `check_ktriangles` (C52); `calc_skel` without `shrink` fails on
coordinates outside [-2,2] (C10); the origin of a new vertex comes from the intersection of its wavefronts,
not from its start node; a triangle without event is not re-evaluated when it loses its neighbour across a collapsing
side (`if n.event is not None and …`, edge.py), hence `watched` in C69; in parallel.py a shorter leg
both of whose ends are infinitely fast makes `stop_kvertices([])`, which divides by zero; with three wavefronts the
faster of the two finite corners ends in a node at the slower one's position (example `C74_three_case`); a split that
makes two infinitely fast vertices handles the second fan with the triangles it had before the first was handled
(excluded in `C74_run`); `output_kdt` reads `t.finite`, an attribute that triangles do not have, and so raises for
every skeleton with a triangle.

## 5. Mutation tests

`seeded/LOG.jsonl` has one line per edit of the model in a scratch copy: the definition, the edit, the claim it
breaks, the theorems that failed to build, and what was tightened if none did.

## 6. Axioms per theorem

`Print Assumptions`, grouped by its answer.

<!-- axioms:begin -->

**No axioms** ("Closed under the global context") — 147 theorems:

C02: `C02_is_close_raises_iff`, `C02_is_close_reflexive`, `C02_strong_implies_weak`; C05:
`C05_unique_times_none_refuted`; C06: `C06_groupby_cluster`; C07: `C07_get_box_fails_iff_empty`,
`C07_get_box_tight`; C10: `C10_unshrunk`; C20: `C20_bevel_never_returns_refuted`; C21: `C21_find_gt_any`,
`C21_find_gte`; C26: `C26_never_in_the_past`; C27: `C27_well_formed`; C28: `C28_frame`; C29:
`C29_event_order`; C30: `C30_no_equal_keys`, `C30_pending_events`; C31: `C31_clock`; C32:
`C32_event_loop_ends`, `C32_fan_walk_ends`, `C32_get_fan_ends`, `C32_get_fan_refuted`; C33:
`C33_normal_return`; C34: `C34_stopped_triangles`; C35: `C35_empty`, `C35_stop_kvertices`; C36:
`C36_life_spans`; C37: `C37_initially`, `C37_nodes_registered`; C38: `C38_motion_fixed`; C41: `C41_history`,
`C41_past_kept`; C42: `C42_one_side`, `C42_open`, `C42_update_circ`; C43: `C43_distinct_refuted`,
`C43_replace_kvertex`; C44: `C44_flip`; C45: `C45_event`, `C45_idle_refuted`, `C45_run`; C46: `C46_count`,
`C46_segments`, `C46_total`; C47: `C47_segments_refuted`, `C47_segments_stopped`; C48: `C48_calc_offsets`,
`C48_no_samples`; C49: `C49_one_group`, `C49_split_star`; C50: `C50_rejected`, `C50_vertices`; C51:
`C51_internal_only`; C52: `C52_check_ktriangles`, `C52_raises`; C54: `C54_always_raises`; C55:
`C55_all_stopped`, `C55_output_offsets_refuted`, `C55_raises`; C56: `C56_nonzero_times`,
`C56_time_zero_refuted`; C57: `C57_one_triangles_refuted`, `C57_two_and_three_never_flip`; C58:
`C58_accepted_unless_two`, `C58_immediate_refuted`; C59: `C59_collinear_gives_one_refuted`; C60:
`C60_dimensions`, `C60_pairs_are_vectors`; C61: `C61_cov_refuted`; C62: `C62_calc_skel`, `C62_initial_state`;
C63: `C63_circular_lists`; C64: `C64_runs`, `C64_start`; C65: `C65_edge`, `C65_edge_fast`, `C65_flip`,
`C65_one`, `C65_split`, `C65_three`, `C65_times`; C66: `C66_in_place_refuted`, `C66_segment_empty`; C69:
`C69_event`, `C69_run`, `C69_start`; C71: `C71_event`, `C71_run`; C72: `C72_active`, `C72_kinetic`,
`C72_left`, `C72_links`, `C72_run`; C73: `C73_checks`, `C73_runs`, `C73_runs_checked`, `C73_start`; C74:
`C74_even`, `C74_event`, `C74_fan`, `C74_run`, `C74_shorter`, `C74_three`; C75: `C75_event`, `C75_fan`,
`C75_run`, `C75_runs`; C77: `C77_bisectors_meaning`, `C77_orientation_meaning`; C78: `C78_calc_skel`,
`C78_neighbours`; C79: `C79_immediate`; C80: `C80_listed`, `C80_same_result_refuted`, `C80_start`; C81:
`C81_never_inside`, `C81_never_returns`; C82: `C82_choice`, `C82_in_runs`, `C82_search`; C83: `C83_overlap`;
C84: `C84_event`, `C84_run`, `C84_runs`; C87: `C87_fronts`, `C87_start`; C88: `C88_all_ended`, `C88_corners`,
`C88_corners_start`, `C88_count`, `C88_degree`, `C88_degree_refuted`, `C88_end`, `C88_start`; C89: `C89_log`,
`C89_log_refuted`; C90: `C90_links`, `C90_open_refuted`, `C90_regular`, `C90_runs`, `C90_waiting`; C93:
`C93_order`, `C93_unique`; C96: `C96_event`, `C96_loop`, `C96_run`; C99:
`C99_four_refuted`.

**`ClassicalDedekindReals.sig_forall_dec`, `FunctionalExtensionality.functional_extensionality_dep`** — 1
theorems:

C44: `C44_flip_area`.

**`ClassicalDedekindReals.sig_forall_dec`, `ClassicalDedekindReals.sig_not_dec`,
`FunctionalExtensionality.functional_extensionality_dep`** — 3 theorems:

C86: `C86_incircle_unique`; C95: `C95_ridge_unique`; C97: `C97_middle`.

**`ClassicalDedekindReals.sig_forall_dec`, `ClassicalDedekindReals.sig_not_dec`, `Classical_Prop.classic`,
`FunctionalExtensionality.functional_extensionality_dep`** — 181 theorems:

C01: `C01_near_zero_exact`, `C01_near_zero_is_the_call`; C02: `C02_is_close_distance`,
`C02_is_close_symmetric`; C03: `C03_clusters`, `C03_clusters_order_irrelevant`; C04:
`C04_absolute_tolerance_refuted`, `C04_zero_never_merges`; C05: `C05_unique_times_otherwise`; C08:
`C08_forward_fails_iff`, `C08_round_trip`; C09: `C09_into_unit_square`, `C09_similarity`,
`C09_touches_both_sides`; C10: `C10_shrunk`; C11: `C11_from_points`, `C11_left_positive`; C12:
`C12_from_points_raises_iff`; C13: `C13_at_time_additive`, `C13_at_time_unit_speed`, `C13_at_time_zero`,
`C13_translated`; C14: `C14_ends`, `C14_perpendicular`, `C14_through_is_nearest`, `C14_y_at_x`; C15:
`C15_bisector_equidistant`, `C15_bisector_sides`; C16: `C16_classification`, `C16_identical_lines`,
`C16_only_common_point`, `C16_point_iff`, `C16_symmetric`; C17: `C17_identical`, `C17_opposite`,
`C17_parallel_same_direction`, `C17_stays_on_both`, `C17_velocity`; C18: `C18_agrees_with_lines`,
`C18_bisector_speed`; C19: `C19_intersection_at_t`, `C19_raises_iff_parallel`; C20: `C20_bevel_type_error`;
C21: `C21_find_gt`, `C21_order_irrelevant`; C22: `C22_asserts_common_line`, `C22_crash_time_is_contact_time`,
`C22_no_crash_iff_constant_distance`; C23: `C23_parallel_gives_minus_one`, `C23_symmetric_and_total`,
`C23_time_of_closest_approach`; C24: `C24_area_polynomial`, `C24_rotation_and_swap`; C25:
`C25_complete_linear`, `C25_complete_quadratic`, `C25_never_raises`, `C25_sound`; C26: `C26_initial_gap`; C35:
`C35_mean`; C39: `C39_new_vertex`, `C39_tracks`; C40: `C40_joined`, `C40_node`; C53: `C53_eig_2x2`,
`C53_order_refuted`, `C53_symmetric`; C54: `C54_residuals_refuted`; C57: `C57_only_ties`; C59:
`C59_r_squared_one_collinear`, `C59_r_squared_range`; C60: `C60_cross`, `C60_dot_symmetric`,
`C60_elementwise`, `C60_rotations`, `C60_unit`; C61: `C61_mean`, `C61_variance`, `C61_variance_zero`; C62:
`C62_tracks`, `C62_tracks_initially`; C67: `C67_no_front`, `C67_one_front`, `C67_three_fronts`,
`C67_two_fronts`; C68: `C68_no_front`, `C68_one_front`, `C68_three_fronts`, `C68_two_fronts`; C70:
`C70_no_front`, `C70_one_front`, `C70_three_fronts`, `C70_two_fronts`; C74: `C74_choice`, `C74_shorter_where`,
`C74_three_where`, `C74_two`; C76: `C76_end`, `C76_next`, `C76_side`, `C76_start`, `C76_upright`; C77:
`C77_bisectors`, `C77_orientation`; C78: `C78_calc_skel_offsets`, `C78_offsets`, `C78_sets_out`; C79:
`C79_happens`, `C79_shortest`; C80: `C80_calc_skel`, `C80_on_front`, `C80_output_stage`, `C80_skel`,
`C80_visualize`; C81: `C81_name_error`, `C81_same_result`; C82: `C82_same_side`; C83: `C83_corner_bisector`,
`C83_crossing_bisector`, `C83_is_quad`, `C83_is_quad_convex_refuted`, `C83_signed_turn`, `C83_unit_vector`,
`C83_unit_vectors`; C85: `C85_no_front`, `C85_one_front`, `C85_three_fronts`, `C85_two_fronts`; C86:
`C86_offsets`, `C86_shrunk`, `C86_triangle`; C87: `C87_edge`, `C87_split`, `C87_three`; C89: `C89_collapse`,
`C89_collapse_run`, `C89_fast`, `C89_frames`; C91: `C91_clock`, `C91_find_gt`, `C91_find_gte_refuted`,
`C91_infinite`, `C91_nan`, `C91_near_zero`, `C91_only_themselves_refuted`, `C91_order`; C92: `C92_assertion`,
`C92_back_refuted`, `C92_distinct_refuted`, `C92_forward_monotone`, `C92_unit_box_refuted`,
`C92_wavefront_refuted`; C94: `C94_linear`, `C94_quadratic`; C95: `C95_long`, `C95_offsets`, `C95_short`,
`C95_shrunk`; C97: `C97_offsets`, `C97_shrunk`, `C97_square`;
C98: `C98_calc_skel`, `C98_meaning`, `C98_on_lines`, `C98_pairwise_refuted`, `C98_run`.
C99: `C99_few`, `C99_given`, `C99_meet`, `C99_three_sides`; C100: `C100_rectangle`,
`C100_rectangle_shrunk`, `C100_square`, `C100_square_shrunk`, `C100_triangle`, `C100_triangle_shrunk`; C101: `C101_rectangle`,
`C101_rectangle_shrunk`, `C101_square`, `C101_square_shrunk`, `C101_triangle`, `C101_triangle_shrunk`.

<!-- axioms:end -->
