-Q theories Verif

theories/Base/Num.v
theories/Base/Py.v
theories/Base/Str.v
theories/Model/Address.v
theories/Model/Command.v
theories/Model/Contour.v
theories/Model/Drill.v
theories/Model/DrillFloat.v
theories/Model/Edges.v
theories/Model/Float.v
theories/Model/FloatSteps.v
theories/Model/Geometry.v
theories/Model/Grid.v
theories/Model/Groups.v
theories/Model/Interp.v
theories/Model/Job.v
theories/Model/LayersFloat.v
theories/Model/Leftovers.v
theories/Model/Linked.v
theories/Model/Mesh.v
theories/Model/Plane.v
theories/Model/Pocket.v
theories/Model/PocketOp.v
theories/Model/PrintFloat.v
theories/Model/Profile.v
theories/Model/Routers.v
theories/Model/SegmentFloat.v
theories/Model/Strategy.v
theories/Model/Surface.v
theories/Model/Tabs.v
theories/Model/Tree.v
theories/Model/Visual.v
theories/Proofs/AlikeP.v
theories/Proofs/AppendedEx.v
theories/Proofs/AppendedP.v
theories/Proofs/ArangeP.v
theories/Proofs/AxesEx.v
theories/Proofs/AxesP.v
theories/Proofs/ChordEx.v
theories/Proofs/ClipperEx.v
theories/Proofs/ClipperP.v
theories/Proofs/ClosingP.v
theories/Proofs/CodesP.v
theories/Proofs/CommandP.v
theories/Proofs/CommentsEx.v
theories/Proofs/CommentsP.v
theories/Proofs/ContourP.v
theories/Proofs/CornerMadeEx.v
theories/Proofs/CornersP.v
theories/Proofs/CqMadeEx.v
theories/Proofs/CqMadeP.v
theories/Proofs/CqStraysEx.v
theories/Proofs/DeeperEx.v
theories/Proofs/DeeperP.v
theories/Proofs/DeeperProfileP.v
theories/Proofs/DefaultsP.v
theories/Proofs/DigitsEx.v
theories/Proofs/DigitsP.v
theories/Proofs/DrillEx.v
theories/Proofs/DrillP.v
theories/Proofs/DrillPlanesP.v
theories/Proofs/EdgeP.v
theories/Proofs/EndsP.v
theories/Proofs/FeedEx.v
theories/Proofs/FeedMovesEx.v
theories/Proofs/FeedMovesP.v
theories/Proofs/FeedP.v
theories/Proofs/FillP.v
theories/Proofs/FillWireP.v
theories/Proofs/FinerEx.v
theories/Proofs/FinerP.v
theories/Proofs/FlattenP.v
theories/Proofs/FloatStepsP.v
theories/Proofs/FloorPassP.v
theories/Proofs/FollowP.v
theories/Proofs/GeomP.v
theories/Proofs/GougeEx.v
theories/Proofs/GougeP.v
theories/Proofs/GridEx.v
theories/Proofs/GridFloatP.v
theories/Proofs/GridP.v
theories/Proofs/HeightMovesEx.v
theories/Proofs/HeightMovesP.v
theories/Proofs/HeightP.v
theories/Proofs/HeightsEx.v
theories/Proofs/HeightsP.v
theories/Proofs/HistoryP.v
theories/Proofs/HoleDepthP.v
theories/Proofs/HoleOrderEx.v
theories/Proofs/HoleOrderP.v
theories/Proofs/HomeEx.v
theories/Proofs/HomeP.v
theories/Proofs/InterpP.v
theories/Proofs/JobP.v
theories/Proofs/LayersEx.v
theories/Proofs/LayersFloatP.v
theories/Proofs/LayersP.v
theories/Proofs/LeftoversEx.v
theories/Proofs/LeftoversP.v
theories/Proofs/LinkedP.v
theories/Proofs/LinksMadeEx.v
theories/Proofs/LinksMadeP.v
theories/Proofs/MachineP.v
theories/Proofs/MadeEx.v
theories/Proofs/MeshEx.v
theories/Proofs/MeshExactP.v
theories/Proofs/MeshP.v
theories/Proofs/MoreEx.v
theories/Proofs/MotionP.v
theories/Proofs/NoTabsP.v
theories/Proofs/OnMachineEx.v
theories/Proofs/OnMachineP.v
theories/Proofs/OpenSortP.v
theories/Proofs/OpenWireP.v
theories/Proofs/OrderP.v
theories/Proofs/ParityP.v
theories/Proofs/PartsEx.v
theories/Proofs/PartsP.v
theories/Proofs/PlainWordsP.v
theories/Proofs/PlaneXyP.v
theories/Proofs/PocketCqP.v
theories/Proofs/PocketEx.v
theories/Proofs/PocketOpEx.v
theories/Proofs/PocketOpP.v
theories/Proofs/PocketP.v
theories/Proofs/PrintFloatP.v
theories/Proofs/ProfileEx.v
theories/Proofs/ProfileP.v
theories/Proofs/ProfileTabsP.v
theories/Proofs/ProfileThmP.v
theories/Proofs/ProgramEx.v
theories/Proofs/ProgramP.v
theories/Proofs/ProgramThmP.v
theories/Proofs/RapidsEx.v
theories/Proofs/RapidsP.v
theories/Proofs/RatesEx.v
theories/Proofs/RatesP.v
theories/Proofs/ReceiverP.v
theories/Proofs/RelationalEx.v
theories/Proofs/RestartEx.v
theories/Proofs/RestartP.v
theories/Proofs/RoundEx.v
theories/Proofs/RoundP.v
theories/Proofs/RouteEx.v
theories/Proofs/RouteP.v
theories/Proofs/RouteThmP.v
theories/Proofs/RunsP.v
theories/Proofs/SafeP.v
theories/Proofs/SavedP.v
theories/Proofs/ScaleEx.v
theories/Proofs/ScaleP.v
theories/Proofs/SegmentFloatP.v
theories/Proofs/SelectedP.v
theories/Proofs/ShiftFaceEx.v
theories/Proofs/ShiftFaceP.v
theories/Proofs/ShiftKernelEx.v
theories/Proofs/ShiftKernelP.v
theories/Proofs/ShiftMovesEx.v
theories/Proofs/ShiftMovesP.v
theories/Proofs/ShiftP.v
theories/Proofs/SidesEx.v
theories/Proofs/SidesP.v
theories/Proofs/SpacedP.v
theories/Proofs/SpinMovesEx.v
theories/Proofs/SpinMovesP.v
theories/Proofs/StepdownP.v
theories/Proofs/StraysEx.v
theories/Proofs/StraysP.v
theories/Proofs/SubrangeP.v
theories/Proofs/SurfaceEx.v
theories/Proofs/SurfaceP.v
theories/Proofs/SurfaceThmP.v
theories/Proofs/TabPiecesP.v
theories/Proofs/TabsEx.v
theories/Proofs/TabsMadeEx.v
theories/Proofs/TabsMadeP.v
theories/Proofs/TabsP.v
theories/Proofs/TextP.v
theories/Proofs/TextThmP.v
theories/Proofs/TracedArcsEx.v
theories/Proofs/TracedArcsP.v
theories/Proofs/TracedEx.v
theories/Proofs/TracedP.v
theories/Proofs/TracedPocketEx.v
theories/Proofs/TracedPocketP.v
theories/Proofs/TracedSurfaceEx.v
theories/Proofs/TracedSurfaceP.v
theories/Proofs/TreeP.v
theories/Proofs/TurnEx.v
theories/Proofs/TurnFaceP.v
theories/Proofs/TurnGensP.v
theories/Proofs/TurnMovesEx.v
theories/Proofs/TurnMovesP.v
theories/Proofs/TurnP.v
theories/Proofs/TurnWireEx.v
theories/Proofs/TurnWireP.v
theories/Proofs/TwiceP.v
theories/Proofs/TwoRunsP.v
theories/Proofs/UntracedEx.v
theories/Proofs/VerticalP.v
theories/Proofs/VisitP.v
theories/Proofs/VisualEx.v
theories/Proofs/VisualP.v
theories/Proofs/WireP.v
theories/Proofs/WireTabsMeetP.v
theories/Proofs/WireTabsP.v
theories/Proofs/ZigzagErrP.v
theories/Proofs/ZigzagEx.v
theories/Proofs/ZigzagMultiP.v
theories/Proofs/ZigzagP.v
theories/Proofs/ZigzagThmP.v
theories/Props/Appended.v
theories/Props/Axes.v
theories/Props/Clipper.v
theories/Props/Comments.v
theories/Props/Curves.v
theories/Props/Deeper.v
theories/Props/Digits.v
theories/Props/Drill.v
theories/Props/FeedSessions.v
theories/Props/Finer.v
theories/Props/FloorPass.v
theories/Props/Grid.v
theories/Props/HeightSessions.v
theories/Props/Heights.v
theories/Props/HoleDepth.v
theories/Props/Leftovers.v
theories/Props/LinksMade.v
theories/Props/Mesh.v
theories/Props/Mirrored.v
theories/Props/Moves.v
theories/Props/NoTabs.v
theories/Props/OnMachine.v
theories/Props/Parts.v
theories/Props/Pocket.v
theories/Props/PocketOp.v
theories/Props/PrintFloat.v
theories/Props/Profile.v
theories/Props/Program.v
theories/Props/Rapids.v
theories/Props/Rates.v
theories/Props/Relational.v
theories/Props/Restart.v
theories/Props/RoundedHoles.v
theories/Props/RoundedLayers.v
theories/Props/Rounding.v
theories/Props/Routing.v
theories/Props/Scaled.v
theories/Props/Selected.v
theories/Props/ShiftSessions.v
theories/Props/SpinSessions.v
theories/Props/Strays.v
theories/Props/Surface.v
theories/Props/Tabs.v
theories/Props/TabsMade.v
theories/Props/Text.v
theories/Props/Traced.v
theories/Props/TracedArcs.v
theories/Props/TracedPocket.v
theories/Props/TracedSurface.v
theories/Props/TurnSessions.v
theories/Props/Turned.v
theories/Props/Twice.v
theories/Props/Visual.v
theories/Props/Zigzag.v
theories/Spec/Alike.v
theories/Spec/Appended.v
theories/Spec/Arcs.v
theories/Spec/Axes.v
theories/Spec/Blocks.v
theories/Spec/Clippers.v
theories/Spec/Codes.v
theories/Spec/Comments.v
theories/Spec/Contours.v
theories/Spec/Corners.v
theories/Spec/Curves.v
theories/Spec/Decimals.v
theories/Spec/Deeper.v
theories/Spec/Digits.v
theories/Spec/Doubles.v
theories/Spec/Drills.v
theories/Spec/Ends.v
theories/Spec/FeedMoves.v
theories/Spec/Feeds.v
theories/Spec/Finer.v
theories/Spec/FloorPass.v
theories/Spec/Gcode.v
theories/Spec/Gouge.v
theories/Spec/Grids.v
theories/Spec/HeightMoves.v
theories/Spec/Heights.v
theories/Spec/HoleDepth.v
theories/Spec/HoleOrder.v
theories/Spec/Home.v
theories/Spec/Jobs.v
theories/Spec/LayerDoubles.v
theories/Spec/Layers.v
theories/Spec/Leftovers.v
theories/Spec/LinksMade.v
theories/Spec/Machine.v
theories/Spec/Meshes.v
theories/Spec/Moves.v
theories/Spec/OnMachine.v
theories/Spec/Order.v
theories/Spec/Parts.v
theories/Spec/Paths.v
theories/Spec/PocketCq.v
theories/Spec/Pockets.v
theories/Spec/Profiles.v
theories/Spec/Program.v
theories/Spec/Rapids.v
theories/Spec/Rates.v
theories/Spec/Restart.v
theories/Spec/Runs.v
theories/Spec/Scale.v
theories/Spec/Selected.v
theories/Spec/Shift.v
theories/Spec/ShiftFace.v
theories/Spec/ShiftKernel.v
theories/Spec/ShiftMoves.v
theories/Spec/Sides.v
theories/Spec/Spaced.v
theories/Spec/SpinMoves.v
theories/Spec/Strays.v
theories/Spec/Surfaces.v
theories/Spec/Tabs.v
theories/Spec/TabsMade.v
theories/Spec/Traced.v
theories/Spec/TracedArcs.v
theories/Spec/TracedPocket.v
theories/Spec/TracedSurface.v
theories/Spec/Trees.v
theories/Spec/Turn.v
theories/Spec/TurnFace.v
theories/Spec/TurnMoves.v
theories/Spec/TurnWire.v
theories/Spec/Visits.v
theories/Spec/Visuals.v
theories/Spec/Wires.v
theories/Spec/Zigzag.v
theories/Tests/RepoTests.v
