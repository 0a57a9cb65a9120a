-Q theories Verif

theories/Base.v
theories/Arith.v
theories/ArithR.v
theories/ArithQ.v
theories/Calc.v
theories/VectorOps.v
theories/Transform.v
theories/Line2d.v
theories/CalcProofs.v
theories/RSquared.v
theories/TransformProofs.v
theories/Line2dProofs.v
theories/VectorOpsProofs.v
theories/Properties_basic.v
theories/Properties_line.v
theories/Primitives.v
theories/Collapse.v
theories/CollapseProofs.v
theories/CollapseR.v
theories/Scenario.v
theories/Properties_collapse.v
theories/EventsLib.v
theories/ExecR.v
theories/FlipEvent.v
theories/ParallelEvent.v
theories/EdgeEvent.v
theories/SplitEvent.v
theories/EventLoop.v
theories/Check.v
theories/Pass.v
theories/OpSpec.v
theories/Order.v
theories/StopSpec.v
theories/RunBase.v
theories/RunTimed.v
theories/RunLoop.v
theories/ScenarioRun.v
theories/Properties_loop.v
theories/HistProofs.v
theories/Properties_events.v
theories/Decent.v
theories/Total.v
theories/Fan.v
theories/FanProofs.v
theories/TotalRun.v
theories/Properties_total.v
theories/Mesh.v
theories/MeshEvents.v
theories/MeshEdge.v
theories/MeshRun.v
theories/MeshFast.v
theories/Rings.v
theories/RingEdge.v
theories/RingSplit.v
theories/RingFlip.v
theories/Properties_mesh.v
theories/EdgeHead.v
theories/RingSpec.v
theories/RingGone.v
theories/RingRun.v
theories/Bisect.v
theories/Location.v
theories/Effects.v
theories/Properties_bisect.v
theories/Properties_effects.v
theories/Fast.v
theories/FastRun.v
theories/Properties_fast.v
theories/Regression.v
theories/Properties_regression.v
theories/Initialize.v
theories/StarProofs.v
theories/InitProofs.v
theories/InitState.v
theories/InitCirc.v
theories/InitBisect.v
theories/InitMesh.v
theories/Main.v
theories/Properties_init.v
theories/TriExample.v
theories/Properties_main.v
theories/Properties_start.v
theories/Properties_meshfast.v
theories/EventGeom.v
theories/EventFirst.v
theories/Properties_geometry.v
theories/Current.v
theories/Properties_current.v
theories/RingLeft.v
theories/Properties_rings.v
theories/InitRing.v
theories/Properties_ringstart.v
theories/Properties_fronts.v
theories/InitChecks.v
theories/Properties_checks.v
theories/Shared.v
theories/InitShared.v
theories/Properties_offsets.v
theories/Properties_happen.v
theories/Output.v
theories/Listed.v
theories/Properties_output.v
theories/Pause.v
theories/Properties_pause.v
theories/Unused.v
theories/Properties_unused.v
theories/CurrentFast.v
theories/Properties_currentfast.v
theories/TriStart.v
theories/TriRun.v
theories/TriGeom.v
theories/TriReal.v
theories/Properties_triangle.v
theories/Placed.v
theories/PlacedNode.v
theories/Properties_places.v
theories/Graph.v
theories/GraphRun.v
theories/Corners.v
theories/Properties_graph.v
theories/Diagnostics.v
theories/Properties_diagnostics.v
theories/Within.v
theories/Properties_within.v
theories/ArithF.v
theories/QuadExample.v
theories/ShrinkF.v
theories/Properties_double.v
theories/Properties_order.v
theories/RectStart.v
theories/RectRun.v
theories/RectLoop.v
theories/RectReal.v
theories/Properties_rect.v
theories/NoAssert.v
theories/NoAssertProofs.v
theories/NoAssertEvents.v
theories/Properties_noassert.v
theories/SquareRun.v
theories/SquareReal.v
theories/Properties_square.v
theories/Properties_location.v
theories/Properties_meet.v
theories/Properties_tests.v
theories/Properties_planar.v
