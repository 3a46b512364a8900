{"id": "C01", "title": "Printed coordinates are accurate", "statement": "The number printed after X/Y/Z/I/J/K, read back as a decimal, differs from the coordinate that was given by at most half a unit of the last printed place (0.0005 at the default precision), and ties go to the even neighbour as Python's round does.", "quantifier": "every rational (hence every finite double) coordinate and every precision", "why_tests_cant": "the coordinate space is unbounded; a test samples a few decimals and never the ties or signs around zero", "anchors": ["src/cq_cam/address.py:GCodeWordPrecision.__str__", "src/cq_cam/utils/utils.py:optimize_float"]}
{"id": "C02", "title": "Printed coordinates are plain canonical decimals", "statement": "At precision up to 4 the printed address matches -?digits(.digits)? with no exponent, no '-0', no trailing zeros and no dangling point, so any RS274 reader accepts it; equal rounded values print equal text and different ones print different text. (At precision 5 or more this fails: small values print in exponent form.)", "quantifier": "every coordinate and every precision", "why_tests_cant": "a single unlucky value that prints as 1e-05 or -0.0 is enough to break the machine program; tests cannot enumerate values", "anchors": ["src/cq_cam/address.py:GCodeWordPrecision.__str__", "src/cq_cam/utils/utils.py:optimize_float"]}
{"id": "C03", "title": "An axis group prints exactly the axes that are set", "statement": "str(XYZ(v)) and str(IJK(v)) contain one word for each coordinate of v that is not None, in X,Y,Z (I,J,K) order, separated by exactly one space with no leading or trailing space, and nothing else; parsing the text gives back those axes with the rounded values.", "quantifier": "every combination of None / number in three axes", "why_tests_cant": "tests look at two fixed vectors; the claim is over all values and all None patterns", "anchors": ["src/cq_cam/address.py:GCodeAxisGroup.__str__", "src/cq_cam/address.py:XYZ", "src/cq_cam/address.py:IJK"]}
{"id": "C04", "title": "A motion command's text says what the command object says", "statement": "For every motion command, parsing str(command) as a G-code block gives: G0/G1/G2/G3 according to the command class, the rounded end coordinates, for arcs the rounded offset centre minus start as I,J,K, and an F word iff a feed was given; nothing else is on the line.", "quantifier": "every motion command (class, start, end, centre, feed)", "why_tests_cant": "a round trip over all commands cannot be enumerated", "anchors": ["src/cq_cam/command.py:RapidCommand.__str__", "src/cq_cam/command.py:Cut.__str__", "src/cq_cam/command.py:Circular.__str__"]}
{"id": "C05", "title": "Printed arcs stay geometrically valid after rounding", "statement": "If start and end of an arc command lie at the same distance from its centre, then the radii the machine computes from the printed numbers (start to centre, centre to end) differ by less than 0.003 in the XY plane, i.e. stay within the tolerance of common controllers.", "quantifier": "every circular command with consistent geometry, every radius", "why_tests_cant": "rounding of four independent numbers interacts; only a proof bounds the worst case", "anchors": ["src/cq_cam/command.py:Circular.__str__", "src/cq_cam/address.py:AddressVector.to_vector", "src/cq_cam/address.py:IJK"]}
{"id": "C06", "title": "Rounding never accumulates along a program", "statement": "Executing the printed motion lines in absolute mode, after every line each machine axis named by the command is within 0.0005 of the coordinate the command object carries, however many lines came before.", "quantifier": "every list of motion commands of any length", "why_tests_cant": "drift appears only over long programs; tests check short ones", "anchors": ["src/cq_cam/command.py:MotionCommand", "src/cq_cam/fluent.py:Operation.to_gcode"]}
{"id": "C07", "title": "Omitted axes keep the start coordinate, and plunge/retract move only Z", "statement": "A motion command built with a start fills each omitted end axis with the start's value and never alters a given axis; PlungeCut, PlungeRapid and Retract raise RuntimeError if X or Y is given, and otherwise leave X and Y equal to the start.", "quantifier": "every start/end combination of present and missing coordinates", "why_tests_cant": "2^6 patterns times all values", "anchors": ["src/cq_cam/command.py:MotionCommand.__init__", "src/cq_cam/command.py:PlungeRapid.__init__", "src/cq_cam/command.py:Retract.__init__", "src/cq_cam/command.py:PlungeCut.__init__"]}
{"id": "C08", "title": "Every program is complete and leaves the machine stopped", "statement": "Job.to_gcode() of any job starts with a comment and the safety block, then starts the spindle, contains every operation in order, and ends with safety block, spindle stop, coolant stop if the job uses coolant, and M30; interpreted on a machine it ends with spindle off, coolant off (when the job configured it or it was off) and the program ended, nothing being executed after M30.", "quantifier": "every job: any name, feed, speed, coolant, and any sequence of operations", "why_tests_cant": "the envelope must hold for all operation histories", "anchors": ["src/cq_cam/fluent.py:Job.to_gcode", "src/cq_cam/command.py:SafetyBlock", "src/cq_cam/command.py:StartSequence", "src/cq_cam/command.py:StopSequence"]}
{"id": "C09", "title": "The spindle turns during every cutting move", "statement": "Interpreting the program of any job, every G1/G2/G3 motion happens with the spindle on clockwise, in absolute distance mode, in the XY plane, units-per-minute feed mode, including across tool changes and speed changes.", "quantifier": "every job and every sequence of operations and tool changes", "why_tests_cant": "depends on all interleavings of tool changes, speed changes and operations", "anchors": ["src/cq_cam/fluent.py:Job.to_gcode", "src/cq_cam/fluent.py:Job.update_tool", "src/cq_cam/command.py:ToolChange", "src/cq_cam/command.py:StartSequence"]}
{"id": "C10", "title": "Every emitted line is a legal RS274 block", "statement": "Every non-comment line of any job program consists of words letter+number, has no letter repeated other than G and M, no two G words or two M words of the same modal group, at most four M words, and every motion line has at least one axis word.", "quantifier": "every job program", "why_tests_cant": "legality is a universally quantified claim over all lines of all programs", "anchors": ["src/cq_cam/fluent.py:Job.to_gcode", "src/cq_cam/command.py:SafetyBlock", "src/cq_cam/groups.py"]}
{"id": "C11", "title": "The unit of the job is the unit of the program", "statement": "A job created with unit=IMPERIAL (metric) emits a program that selects inches (millimetres) before any motion.", "quantifier": "every job, both units", "why_tests_cant": "needs the whole program for every job; the suite only builds metric jobs", "anchors": ["src/cq_cam/fluent.py:Job.__init__", "src/cq_cam/fluent.py:Job.to_gcode", "src/cq_cam/command.py:SafetyBlock"]}
{"id": "C12", "title": "Job modal settings are honoured", "statement": "The work offset, work plane, distance mode, arc distance mode and path control mode passed to Job are the ones the program selects.", "quantifier": "every combination of job settings", "why_tests_cant": "product of six enumerations with all programs", "anchors": ["src/cq_cam/fluent.py:Job.__init__", "src/cq_cam/command.py:SafetyBlock"]}
{"id": "C13", "title": "The right tool is loaded for every operation", "statement": "When the program runs, the tool loaded in the spindle during each operation added with a Tool is the tool number the job had when the operation was added (assuming the operator starts with the job's initial tool), a tool change is emitted exactly when the number changes, with the matching length offset H.", "quantifier": "every sequence of operations with arbitrary Tool arguments", "why_tests_cant": "the property is about histories; tests use two-step histories", "anchors": ["src/cq_cam/fluent.py:Job.update_tool", "src/cq_cam/command.py:ToolChange"]}
{"id": "C14", "title": "Each operation runs at the spindle speed it was programmed with", "statement": "When the program runs, the spindle speed in force during each operation equals the job speed at the time the operation was added.", "quantifier": "every history of operations with speed changes", "why_tests_cant": "only visible for histories in which the speed changes after an operation", "anchors": ["src/cq_cam/fluent.py:Job.update_tool", "src/cq_cam/fluent.py:Job.to_gcode", "src/cq_cam/command.py:StartSequence"]}
{"id": "C15", "title": "Fluent calls do not change the job they are called on", "statement": "Calling profile/pocket/drill/... on a job returns a new job and leaves the old job (and every other job) exactly as it was: settings, operations and the program it prints.", "quantifier": "every job, every tool argument, every other live job in the heap", "why_tests_cant": "aliasing bugs show only if the caller keeps using the old value", "anchors": ["src/cq_cam/fluent.py:Job.update_tool", "src/cq_cam/fluent.py:Job._add_operation"]}
{"id": "C16", "title": "The operation history is append-only", "statement": "The operations of the job returned by any fluent call are the operations of the receiver, in order, followed by at most one tool-change or speed-change entry and then the new operation; program text of earlier operations is unchanged.", "quantifier": "every sequence of fluent calls", "why_tests_cant": "history property over unbounded call sequences", "anchors": ["src/cq_cam/fluent.py:Job._add_operation", "src/cq_cam/fluent.py:Job.update_tool", "src/cq_cam/fluent.py:Operation.to_gcode"]}
{"id": "C17", "title": "profile() validates its arguments before acting", "statement": "Job.profile raises ValueError exactly when the job has no tool diameter or both offsets are None, before anything else happens; a tool diameter given through the tool argument should be enough.", "quantifier": "every job, shape and argument combination", "why_tests_cant": "combination of argument states; the tool= case is not exercised with a job without diameter", "anchors": ["src/cq_cam/fluent.py:Job.profile"]}
{"id": "C18", "title": "save_gcode writes the program", "statement": "The file written by Job.save_gcode contains the text returned by Job.to_gcode.", "quantifier": "every job and file name", "why_tests_cant": "no test calls it; claim is for all jobs", "anchors": ["src/cq_cam/fluent.py:Job.save_gcode"]}
{"id": "C19", "title": "Offsets are multiples of the tool radius plus a distance", "statement": "An offset given as a number m means m*radius, as a pair (m,d) means m*radius+d, and None means the documented default; for all inputs and nothing else.", "quantifier": "every radius, offset form and default", "why_tests_cant": "numeric function over an infinite domain", "anchors": ["src/cq_cam/utils/geometry_op.py:calculate_offset", "src/cq_cam/operations/pocket.py:pocket"]}
{"id": "C20", "title": "Approach moves are safe", "statement": "The approach to a cut start first retracts vertically to the rapid height, then moves horizontally only at the rapid height, then descends vertically; rapid descent stops at the safe plunge height, the rest is a feed plunge at the plunge feed; it ends at the requested point whenever that lies below the safe height; no horizontal move is emitted if already there.", "quantifier": "every start (including unknown coordinates), target and heights", "why_tests_cant": "a violated case is a crash of tool and stock; must hold for every position", "anchors": ["src/cq_cam/routers.py:rapid_to"]}
{"id": "C21", "title": "Nearest point on a segment is nearest", "statement": "dist_to_segment_squared returns a point of the segment and its squared distance, and no point of the segment is closer; it raises only for a zero-length segment.", "quantifier": "every point and every segment", "why_tests_cant": "continuum of alternatives for each input", "anchors": ["src/cq_cam/utils/utils.py:dist_to_segment_squared", "src/cq_cam/utils/utils.py:dist2"]}
{"id": "C22", "title": "Nearest point on a path is nearest", "statement": "distance_to_path returns the minimal squared distance from the point to the whole path, a point of the path attaining it, and the index of the first segment attaining it.", "quantifier": "every point and every path of any length without zero-length segments", "why_tests_cant": "quantifies over all paths and all points on them", "anchors": ["src/cq_cam/utils/geometry_op.py:distance_to_path"]}
{"id": "C23", "title": "Re-starting a closed polygon keeps its shape", "statement": "shift_polygon of a closed polygon at any vertex index gives a closed polygon with the same directed edges, starting at that vertex.", "quantifier": "every closed polygon and every index", "why_tests_cant": "all lengths and indices", "anchors": ["src/cq_cam/routers.py:shift_polygon"]}
{"id": "C24", "title": "Pocket routing moves are safe and continuous", "statement": "In the commands routed for any list of polygon faces: each command starts where the previous one ended; every rapid that moves in XY is at the rapid height; every move below the safe height is a feed move; all feed moves are at the job feed except vertical plunges, which use the plunge feed; horizontal cutting happens exactly at the face depth.", "quantifier": "every list of faces, heights, stepover and previous position", "why_tests_cant": "routing histories of any length with data dependent branches", "anchors": ["src/cq_cam/routers.py:route_polyface_outers", "src/cq_cam/routers.py:rapid_to"]}
{"id": "C25", "title": "Each pocket contour is traced completely", "statement": "For every face handed to the pocket router the emitted cuts traverse every edge of its outer contour, in order and in the contour direction, exactly once, ending on the point where cutting of that contour began.", "quantifier": "every list of closed contours", "why_tests_cant": "depends on the relative position of all previous contours", "anchors": ["src/cq_cam/routers.py:route_polyface_outers", "src/cq_cam/routers.py:shift_polygon"]}
{"id": "C26", "title": "Linking moves between contours are no longer than the stepover", "statement": "The router moves from one contour to the next without retracting only if the gap is at most the stepover distance.", "quantifier": "every pair of contours and every stepover", "why_tests_cant": "needs all geometries; unit tests only use stepover in millimetres close to one", "anchors": ["src/cq_cam/routers.py:route_polyface_outers", "src/cq_cam/utils/geometry_op.py:distance_to_path"]}
{"id": "C27", "title": "Every horizontal cut of a pocket follows a contour or is a short link", "statement": "No feed move emitted by the pocket router leaves the contours except links of at most the stepover.", "quantifier": "every list of contours", "why_tests_cant": "a chord across the part appears only for particular contour sequences", "anchors": ["src/cq_cam/routers.py:route_polyface_outers"]}
{"id": "C28", "title": "Routing an edge starts and ends at the edge ends", "statement": "The commands for one edge form a continuous chain from the edge start to the edge end (respecting reversed orientation), lines give one straight cut, a closed circle gives two arcs covering the whole circle, open arcs one arc with the edge's centre, and unsupported curve types raise RuntimeError.", "quantifier": "every edge (type, orientation, parameters, precision)", "why_tests_cant": "all edges and sub-parameter ranges", "anchors": ["src/cq_cam/routers.py:route_edge", "src/cq_cam/utils/utils.py:edge_start_point", "src/cq_cam/utils/utils.py:edge_end_point"]}
{"id": "C29", "title": "Arc direction is right", "statement": "An arc is emitted as G2 exactly when travelling along the oriented edge turns clockwise seen from +Z, also for tilted/flipped normals and reversed edges; arcs whose plane contains Z raise RuntimeError.", "quantifier": "every circle axis, orientation and point on the arc", "why_tests_cant": "continuum of arcs", "anchors": ["src/cq_cam/utils/utils.py:is_arc_clockwise2", "src/cq_cam/utils/utils.py:is_arc_clockwise", "src/cq_cam/routers.py:route_edge"]}
{"id": "C30", "title": "Wire routing keeps rapids safe and the path continuous", "statement": "For any list of wires every XY rapid is at the rapid height, every wire is approached by the safe approach, and all edges of each wire are routed in order; the emitted text describes the path the machine actually follows (each command starts where the machine is).", "quantifier": "every list of wires and every nearest-point answer of the CAD kernel", "why_tests_cant": "depends on kernel answers (vertex/edge support) that tests see only a few of", "anchors": ["src/cq_cam/routers.py:route_wires", "src/cq_cam/routers.py:rapid_to"]}
{"id": "C31", "title": "No toolpath is silently dropped", "statement": "route_wires emits cutting moves for every non-empty wire it is given.", "quantifier": "every list of wires", "why_tests_cant": "only lists containing a degenerate wire expose it", "anchors": ["src/cq_cam/routers.py:route_wires"]}
{"id": "C32", "title": "Contour tree sequences partition the contours", "statement": "For any tree grown by branch and lock calls, the sequences contain every node's object exactly once, none is empty, and each sequence is a chain from a node to consecutive parents.", "quantifier": "every tree shape and growth order", "why_tests_cant": "unbounded tree shapes", "anchors": ["src/cq_cam/utils/tree.py:Tree.sequences", "src/cq_cam/utils/tree.py:Tree.leaves", "src/cq_cam/utils/tree.py:Node.traverse"]}
{"id": "C33", "title": "Contour fill visits every contour, inside out", "statement": "Filling a pocket produces every successive inward offset of the outline exactly once, each sequence going from an inner contour to the contour it was offset from; the fill loop ends exactly when no unlocked leaf remains.", "quantifier": "every offsetting behaviour of the geometry kernel", "why_tests_cant": "depends on arbitrary branching of offsets", "anchors": ["src/cq_cam/operations/pocket.py:fill_pocket_contour_shrink", "src/cq_cam/utils/tree.py:Tree.next_unlocked"]}
{"id": "C34", "title": "Depth grouping is exact", "statement": "Faces are grouped by depth: depths are strictly descending, every face is in the group of its depth in input order, none is lost or duplicated, and a face above the job plane raises ValueError.", "quantifier": "every list of faces", "why_tests_cant": "all multisets of depths", "anchors": ["src/cq_cam/operations/pocket.py:generate_depth_map", "src/cq_cam/operations/pocket_cq.py:generate_depth_map"]}
{"id": "C35", "title": "Each pocket level removes exactly what it should", "statement": "At each depth the machined region is the union of the outlines of the faces at that depth or deeper, minus the islands of those faces and minus the avoid areas at that depth or above; independent of list aliasing inside the implementation.", "quantifier": "every set of op and avoid faces, for any boolean engine that is correct", "why_tests_cant": "all face configurations", "anchors": ["src/cq_cam/operations/pocket.py:build_pocket_ops", "src/cq_cam/operations/pocket.py:combine_outers"]}
{"id": "C36", "title": "Pocket stepdown passes", "statement": "With a stepdown s > 0 every contour is cut at depths start-s, start-2s, ... and finally at its depth: each pass is at most s below the previous one, all intermediate passes are strictly above the final depth, passes go downwards, and no other depths are cut.", "quantifier": "every start depth, final depth and stepdown", "why_tests_cant": "arithmetic over all values, including exact multiples", "anchors": ["src/cq_cam/operations/pocket.py:apply_stepdown", "src/cq_cam/operations/pocket.py:pocket_clipper"]}
{"id": "C37", "title": "Stepdown passes computed in floating point", "statement": "The intermediate depths computed with double precision are strictly above the final depth.", "quantifier": "every double start, end and step", "why_tests_cant": "the failing cases are isolated doubles", "anchors": ["src/cq_cam/operations/pocket.py:apply_stepdown"]}
{"id": "C38", "title": "Stepdown starts from material that is already removed", "statement": "The start depth for stepping is the deepest level among previously cut pockets that fully contain the new one, or the surface if there is none.", "quantifier": "every list of previous pockets", "why_tests_cant": "all containment patterns", "anchors": ["src/cq_cam/operations/pocket.py:determine_stepdown_start_depth"]}
{"id": "C39", "title": "A pocket never cuts below its floor", "statement": "Every commanded Z of a pocket operation is at or above the deepest pocket face, and every cut at a level stays on contours of that level.", "quantifier": "every pocket input", "why_tests_cant": "all geometries and stepdown values", "anchors": ["src/cq_cam/operations/pocket.py:pocket_clipper", "src/cq_cam/operations/pocket.py:apply_stepdown", "src/cq_cam/routers.py:route_polyface_outers"]}
{"id": "C40", "title": "Profile stepdown layers", "statement": "With a stepdown s > 0 a flat profile at depth z<0 is cut at layers z+ns, ..., z+s, z from shallow to deep: consecutive layers differ by s, the first layer is at most s+0.001 below the surface, the last is the profile itself, and layers at or above -0.001 are not cut.", "quantifier": "every depth and stepdown", "why_tests_cant": "arithmetic over all values", "anchors": ["src/cq_cam/operations/profile.py:profile"]}
{"id": "C41", "title": "Profile stepdown is bounded", "statement": "profile raises RuntimeError exactly when more than max_stepdown_count layers above the profile itself would be needed, and otherwise terminates with at most that many extra layers.", "quantifier": "every depth, stepdown and limit", "why_tests_cant": "termination claim for all inputs", "anchors": ["src/cq_cam/operations/profile.py:profile", "src/cq_cam/fluent.py:Job.__init__"]}
{"id": "C42", "title": "EdgeTabs places the promised tabs", "statement": "On an edge of length L, EdgeTabs places floor(L/spacing) tabs, evenly spaced, each exactly `width` wide, all strictly inside the edge, with alternating cut/tab transitions.", "quantifier": "every edge length, spacing and width with spacing > width", "why_tests_cant": "all real parameters", "anchors": ["src/cq_cam/operations/tabs.py:EdgeTabs"]}
{"id": "C43", "title": "EdgeTabs tabs never overlap", "statement": "Because the constructor demands spacing > width, tabs on an edge do not overlap and transitions are in increasing order.", "quantifier": "every admissible spacing/width and edge length", "why_tests_cant": "the failing region is a wedge of the parameter space", "anchors": ["src/cq_cam/operations/tabs.py:EdgeTabs.__init__", "src/cq_cam/operations/tabs.py:EdgeTabs.load_ordered_edges"]}
{"id": "C44", "title": "WireTabs transitions are ordered", "statement": "For each edge, the transitions returned by WireTabs are in non-decreasing position order starting at 0 and ending at 1, so that the edge is cut once from start to end.", "quantifier": "every wire, tab count and width", "why_tests_cant": "depends on how tabs fall on edges", "anchors": ["src/cq_cam/operations/tabs.py:WireTabs.edge_tab_transitions", "src/cq_cam/operations/tabs.py:WireTabs.load_wire"]}
{"id": "C45", "title": "Tabs leave material and keep the path connected", "statement": "A wire with tabs applied follows the same XY path; pieces inside a tab are at tab height, other pieces at the original height, and height changes are vertical moves between consecutive pieces of the edge.", "quantifier": "every edge, orientation and ordered transition list", "why_tests_cant": "all transition lists", "anchors": ["src/cq_cam/operations/profile.py:apply_tabs", "src/cq_cam/utils/utils.py:edge_oriented_param"]}
{"id": "C46", "title": "Every hole is drilled exactly once", "statement": "The drilled positions are a permutation of the requested positions (counting repetitions), starting at the first one.", "quantifier": "every list of hole positions", "why_tests_cant": "all lists of any length", "anchors": ["src/cq_cam/operations/drill.py:Drill.__post_init__", "src/cq_cam/operations/strategy.py:Strategy._pick_nearest"]}
{"id": "C47", "title": "Holes are visited nearest first", "statement": "After each hole the next one drilled is a remaining hole of minimal distance, the earliest of the input list among equals.", "quantifier": "every list of hole positions", "why_tests_cant": "all configurations", "anchors": ["src/cq_cam/operations/strategy.py:Strategy._pick_nearest", "src/cq_cam/operations/drill.py:Drill.__post_init__"]}
{"id": "C48", "title": "Drilling is vertical and safe", "statement": "All horizontal travel of a drill operation is at the safe height, rapid descent stops at the surface, the tool only goes below the surface vertically with the job feed, each hole goes to exactly minus the absolute depth and the tool is raised before moving on.", "quantifier": "every depth (either sign), holes and safe height", "why_tests_cant": "all parameters and list lengths", "anchors": ["src/cq_cam/operations/drill.py:Drill.__post_init__"]}
{"id": "C49", "title": "Holes are drilled where they are", "statement": "The drilled XY position of a hole is its position in the job coordinate system (the same one profile and pocket use).", "quantifier": "every job plane and hole position", "why_tests_cant": "wrong only for job planes away from the world origin, none of which the suite uses", "anchors": ["src/cq_cam/operations/drill.py:Drill.__post_init__", "src/cq_cam/operations/profile.py:profile", "src/cq_cam/operations/pocket.py:pocket"]}
{"id": "C50", "title": "Zig-zag routing covers every scanline once", "statement": "For a single boundary, zig-zag routing terminates without error and produces one cut sequence in which every scanline is traversed exactly once and consecutive scanlines are joined along the boundary.", "quantifier": "every set of scanlines whose ends are distinct points of one boundary", "why_tests_cant": "all routing histories", "anchors": ["src/cq_cam/operations/strategy.py:ZigZagStrategy._route_zig_zag", "src/cq_cam/utils/linked_polygon.py:LinkedPolygon.nearest_linked"]}
{"id": "C51", "title": "Zig-zag routing works for several boundaries", "statement": "With several boundaries routing completes and covers every scanline once.", "quantifier": "every set of boundaries and scanlines", "why_tests_cant": "fails only when one boundary is exhausted before the others", "anchors": ["src/cq_cam/operations/strategy.py:ZigZagStrategy._route_zig_zag"]}
{"id": "C52", "title": "Scanline ends are linked to a closed boundary wherever they hit it", "statement": "For any closed outline, every scanline end lying on the outline is linked to it.", "quantifier": "every closed outline including its closing edge", "why_tests_cant": "depends on which edge the kernel lists first", "anchors": ["src/cq_cam/operations/strategy.py:ZigZagStrategy._link_scanpoints_to_boundaries", "src/cq_cam/utils/utils.py:WireClipper._add_wire"]}
{"id": "C53", "title": "Linking a point keeps the boundary", "statement": "LinkedPolygon.link_point keeps all previous boundary points in order and inserts the new point on the named segment, between its neighbours by distance from the segment start.", "quantifier": "every polygon with distinct vertices, segment and point", "why_tests_cant": "all polygons and insertion orders", "anchors": ["src/cq_cam/utils/linked_polygon.py:LinkedPolygon.link_point"]}
{"id": "C54", "title": "nearest_linked takes the shorter way round", "statement": "nearest_linked returns a walk along the boundary to the next free linked point, consuming it, in the direction whose walk is shorter.", "quantifier": "every polygon and set of free points", "why_tests_cant": "all boundaries", "anchors": ["src/cq_cam/utils/linked_polygon.py:LinkedPolygon.nearest_linked"]}
{"id": "C55", "title": "Contour output sorting keeps the paths", "statement": "_sort_clipper_output keeps the number and the shape of all paths, only rotating each so that it starts near the previous path end.", "quantifier": "every list of paths", "why_tests_cant": "all lists, open and closed", "anchors": ["src/cq_cam/operations/strategy.py:Strategy._sort_clipper_output"]}
{"id": "C56", "title": "A 3D surface is never gouged", "statement": "Every cutting move of a surface operation is at or above the drop-cutter height of its point and at or above the current depth limit; all XY rapids are at rapid height.", "quantifier": "every scan, drop-cutter answer and depth list", "why_tests_cant": "all surfaces", "anchors": ["src/cq_cam/operations/op3d.py:Surface3D.__post_init__"]}
{"id": "C57", "title": "Depth chopping keeps exactly the reachable points", "statement": "_chop_sequences_by_depth keeps exactly the points not above the limit, in order, cut into maximal consecutive runs, with no empty run.", "quantifier": "every list of sequences and limit", "why_tests_cant": "all sequences", "anchors": ["src/cq_cam/operations/op3d.py:Surface3D._chop_sequences_by_depth"]}
{"id": "C58", "title": "Surface stepdown works", "statement": "With a positive stepdown (documented as maximum distance per pass) the surface operation produces descending passes at most that far apart, ending at the bottom.", "quantifier": "every stepdown, top and bottom height", "why_tests_cant": "no test passes a stepdown; claim over all values", "anchors": ["src/cq_cam/operations/op3d.py:Surface3D.__post_init__"]}
{"id": "C59", "title": "Every cutting move has a feed rate", "statement": "When the program runs, a feed rate is in force at every cutting move.", "quantifier": "every job and operation sequence", "why_tests_cant": "depends on whether another operation happened to set F before", "anchors": ["src/cq_cam/operations/op3d.py:Surface3D.__post_init__", "src/cq_cam/routers.py:route_wires", "src/cq_cam/operations/drill.py:Drill.__post_init__"]}
{"id": "C60", "title": "Curve interpolation is as fine as the precision asks", "statement": "A curve of length L is sampled with at least two points, including both ends, at equal arc-length spacing, with spacing bounded in terms of 10^-precision.", "quantifier": "every length and precision", "why_tests_cant": "numeric claim over all lengths", "anchors": ["src/cq_cam/utils/interpolation.py:edge_interpolation_count", "src/cq_cam/utils/interpolation.py:interpolate_edge_to_vectors", "src/cq_cam/routers.py:route_edge"]}
{"id": "C61", "title": "Wires become closed vertex lists", "statement": "wire_to_vectors returns the concatenation of the edge samples with shared end points written once, closed iff requested.", "quantifier": "every wire", "why_tests_cant": "all edge lists", "anchors": ["src/cq_cam/utils/interpolation.py:wire_to_vectors", "src/cq_cam/utils/geometry_op.py:wire_to_path", "src/cq_cam/utils/geometry_op.py:close_path"]}
{"id": "C62", "title": "Profiles cut inner contours before outer ones", "statement": "In a profile operation all moves for inner wires precede all moves for outer wires, each wire with its own offset, and wires whose offset is None are skipped.", "quantifier": "every shape and offsets", "why_tests_cant": "all shapes", "anchors": ["src/cq_cam/fluent.py:Job.profile", "src/cq_cam/utils/utils.py:extract_wires"]}
{"id": "C63", "title": "Visualisation shows every move", "statement": "to_shapes(as_edges=True) yields, per operation, one edge for each command after the first that has a non-zero displacement, in order, from the command's start to its end.", "quantifier": "every job", "why_tests_cant": "all programs", "anchors": ["src/cq_cam/visualize.py:visualize_job_as_edges", "src/cq_cam/command.py:RapidCommand.to_ais_shape", "src/cq_cam/fluent.py:Job.to_shapes"]}
{"id": "C64", "title": "Interpolated 3D sequences are fine enough", "statement": "interpolate_cut_sequence keeps all original points in order, adds only points on the segments, and consecutive points are at most interpolation_step apart. The distances computed in double precision differ from the exact ones only by rounding.", "quantifier": "every sequence and positive step", "why_tests_cant": "all sequences and lengths", "anchors": ["src/cq_cam/operations/op3d.py:Surface3D.__post_init__.interpolate_cut_sequence"]}
{"id": "C65", "title": "Only codes of the documented modal groups are emitted", "statement": "Every G word of a program is one of the codes listed for the modal groups (groups.py module docstring, RS274/NGC).", "quantifier": "every job program", "why_tests_cant": "a claim about every word of every program; the suite compares the safety block with itself", "anchors": ["src/cq_cam/command.py:SafetyBlock", "src/cq_cam/groups.py:SpindleControlMode"]}
{"id": "C66", "title": "Every code enumeration prints the word it stands for", "statement": "str() of every member of every G/M code enumeration is exactly one word, with the letter and number of the documented code.", "quantifier": "every member of every enumeration", "why_tests_cant": "no test prints the members that the program generator does not use", "anchors": ["src/cq_cam/groups.py:GCodeGroup.__str__", "src/cq_cam/groups.py:ProbeMode"]}
{"id": "C67", "title": "Offset circles are corrected with their own location", "statement": "When a wire is offset, the result is the wires of the kernel (retried once with a slightly larger offset, nothing if that fails too) whose area exceeds 0.1; if the wire that was offset is a circle, they are corrected with the location of that circle, otherwise left alone.", "quantifier": "every wire, offset and answer of the CAD kernel", "why_tests_cant": "depends on what the kernel returns; tests see one OCCT version and circles at the origin", "anchors": ["src/cq_cam/utils/geometry_op.py:offset_wire", "src/cq_cam/utils/circle_bug_workaround.py:circle_bug_workaround"]}
{"id": "C68", "title": "Profile moves are safe", "statement": "In a profile every rapid move goes up to the rapid height, sideways at the rapid height, or down to the operation's safe height; every other move has a feed: plunges from the safe height the plunge feed, the rest the cutting feed.", "quantifier": "every wire, offset, stepdown, tabs and job", "why_tests_cant": "all wires and kernels; one unsafe move is a crash", "anchors": ["src/cq_cam/operations/profile.py:profile", "src/cq_cam/routers.py:route_wires"]}
{"id": "C71", "title": "Every scanned point is cut", "statement": "Every point of the scan whose drop-cutter height is between the bottom and the top is the end of a cutting move.", "quantifier": "every scan and drop-cutter answer", "why_tests_cant": "the first point of every run is missing, which no test looks at", "anchors": ["src/cq_cam/operations/op3d.py:Surface3D.__post_init__"]}
{"id": "C72", "title": "Surface rapids never end below the surface", "statement": "Every rapid descent of a surface operation ends at a scanned point, at or above the drop-cutter height of that point.", "quantifier": "every scan, stepdown, top height and safe height", "why_tests_cant": "depends on the limit two passes before against the safe height", "anchors": ["src/cq_cam/operations/op3d.py:Surface3D.__post_init__"]}
{"id": "C73", "title": "The surface is finished", "statement": "A scanned point at or below zero whose predecessor on the scan is at or below zero and not more than a stepdown higher is cut to exactly its drop-cutter height.", "quantifier": "every scan, drop-cutter answer and non-positive stepdown", "why_tests_cant": "all surfaces and depth lists", "anchors": ["src/cq_cam/operations/op3d.py:Surface3D.__post_init__", "src/cq_cam/operations/op3d.py:Surface3D._chop_sequences_by_depth"]}
{"id": "C74", "title": "The tool stays above the surface between scanned points", "statement": "At every point of every cutting move the tool is at or above the drop-cutter height there.", "quantifier": "every surface, interpolation step", "why_tests_cant": "a claim about the points between the samples", "anchors": ["src/cq_cam/operations/op3d.py:Surface3D.__post_init__"]}
{"id": "C69", "title": "The tool is retracted before it is sent home", "statement": "Whenever the program sends the machine home (G30), after the first motion, the tool is at the rapid height.", "quantifier": "every job, operation and machine state", "why_tests_cant": "a claim about the state at the end of every program", "anchors": ["src/cq_cam/command.py:SafetyBlock.__str__", "src/cq_cam/fluent.py:Job.to_gcode", "src/cq_cam/operations/drill.py:Drill.__post_init__"]}
{"id": "C75", "title": "The program makes exactly the job's moves", "statement": "Run on a machine, the text of a job makes one move for each motion command of its operations, in order, of the same kind, ending within 0.0005 mm of the commanded position, at the commanded feed, and no other moves.", "quantifier": "every reachable job and machine state", "why_tests_cant": "needs the text read back by an independent reader, for all jobs", "anchors": ["src/cq_cam/fluent.py:Job.to_gcode", "src/cq_cam/command.py:MotionCommand"]}
{"id": "C76", "title": "Every operation starts with a straight lift", "statement": "The first motion of every operation moves only in Z: to the rapid height, or for drilling to the operation's safe height. The second is a rapid at that height to a known place.", "quantifier": "every profile, wire profile, pocket, surface and drill operation", "why_tests_cant": "all arguments and kernels; a sideways first move drags the tool through the work", "anchors": ["src/cq_cam/routers.py:route_wires", "src/cq_cam/operations/drill.py:Drill.__post_init__", "src/cq_cam/operations/op3d.py:Surface3D.__post_init__"]}
{"id": "C77", "title": "Rapids and cuts are told apart by colour", "statement": "In the picture of a job no rapid has the colour of a cut.", "quantifier": "every sequence of moves", "why_tests_cant": "tests do not look at colours", "anchors": ["src/cq_cam/visualize.py:visualize_job", "src/cq_cam/command.py:Rapid"]}
{"id": "C78", "title": "What is shown is what was made", "statement": "Job.show passes one object per operation, in order, with the name of the job, the index and the name of the operation; the objects are those returned by to_shapes; without a display module it is a ValueError.", "quantifier": "every job, display module and kernel", "why_tests_cant": "display modules are not installed where tests run", "anchors": ["src/cq_cam/fluent.py:Job.show", "src/cq_cam/fluent.py:Job.to_shapes", "src/cq_cam/visualize.py:visualize_job", "src/cq_cam/visualize.py:visualize_job_as_edges"]}
{"id": "C79", "title": "Pocket arguments are checked and mean what they say", "statement": "A pocket without a tool diameter is a TypeError and an unknown engine a ValueError; with the default engine only level areas are accepted. The engines get the areas in the coordinates of the job, and distances of multiplier times radius, plus the extra distance if given; the defaults are the radius inwards for outlines (zero if there are areas to avoid), outwards for islands and for areas to avoid, and half the radius for the stepover.", "quantifier": "every job, area, argument and answer of the kernel", "why_tests_cant": "all combinations of arguments and engines", "anchors": ["src/cq_cam/operations/pocket.py:pocket", "src/cq_cam/utils/geometry_op.py:calculate_offset", "src/cq_cam/utils/geometry_op.py:PathFace.from_cq_face"]}
{"id": "C80", "title": "The pocket operation stays above its floor", "statement": "No move of a pocket goes below the deepest of its areas (as transformed to the plane of the job), the moves are joined end to end, rapids are safe and cuts have the right feed.", "quantifier": "every pocket with the default engine, every answer of clipper and of the kernel", "why_tests_cant": "a claim about all moves of all pockets", "anchors": ["src/cq_cam/operations/pocket.py:pocket", "src/cq_cam/operations/pocket.py:pocket_clipper"]}
{"id": "C81", "title": "Pockets of CAD faces are levelled, filled and routed completely", "statement": "With the cq engine, areas and areas to avoid are offset; for every depth the areas at or below it are raised and combined and the areas to avoid at or above it cut off; every face is filled with all its inward offsets, each once, from the inside out; every wire is cut completely; rapids are safe and cuts have a feed.", "quantifier": "every set of faces and every answer of the CAD kernel", "why_tests_cant": "all nestings of offsets; the tree of wires is built by a loop", "anchors": ["src/cq_cam/operations/pocket_cq.py:pocket_cq", "src/cq_cam/operations/pocket_cq.py:build_pocket_ops", "src/cq_cam/operations/pocket_cq.py:fill_pocket_contour_shrink", "src/cq_cam/operations/pocket_cq.py:generate_depth_map", "src/cq_cam/utils/geometry_op.py:offset_face"]}
{"id": "C82", "title": "Faces of deeper levels are raised to the level above", "statement": "When a level is built with the cq engine, every face of a deeper level (and every area to avoid above) ends up at the depth of that level, over its own place.", "quantifier": "every plane of the job, face and depth", "why_tests_cant": "tests use the XY plane only", "anchors": ["src/cq_cam/operations/pocket_cq.py:build_pocket_ops"]}
{"id": "C83", "title": "Every pocket engine steps down", "statement": "With a stepdown, no pass of a pocket is more than the stepdown below the surface or the pass before.", "quantifier": "every engine, area and stepdown", "why_tests_cant": "tests of the cq engine do not pass a stepdown", "anchors": ["src/cq_cam/operations/pocket.py:pocket", "src/cq_cam/operations/pocket_cq.py:pocket_cq"]}
{"id": "C84", "title": "By default the cutter stays within the outline of the pocket", "statement": "With the default offsets the edge of the cutter does not leave the outlines of the areas.", "quantifier": "every area and areas to avoid", "why_tests_cant": "depends on an unrelated argument being present", "anchors": ["src/cq_cam/operations/pocket.py:pocket"]}
{"id": "C70", "title": "Flattened wires follow the wire", "statement": "Flattening a wire of lines, arcs, circles and offset curves gives points on the wire in its direction of travel, at most 0.1 of arc length apart on curves, with the end of every edge among them; every other type of edge is refused with a ValueError.", "quantifier": "every list of edges, orientation and length", "why_tests_cant": "orientation and length of curves vary without bound; tests flatten a few shapes", "anchors": ["src/cq_cam/utils/utils.py:flatten_edges", "src/cq_cam/utils/utils.py:WireClipper._add_wire", "src/cq_cam/utils/interpolation.py:vectors_to_2d_tuples"]}
{"id": "C85", "title": "The clipper holds what was added since the last reset", "statement": "After any sequence of additions and resets the engine holds exactly the clips cached before the last reset followed by everything added after it, in order; a reset never fails; open clips are never accepted.", "quantifier": "every sequence of calls and every engine", "why_tests_cant": "a claim about all histories", "anchors": ["src/cq_cam/utils/utils.py:WireClipper.reset", "src/cq_cam/utils/utils.py:WireClipper.add_clip_wire", "src/cq_cam/utils/utils.py:WireClipper.add_clip_polygon", "src/cq_cam/utils/utils.py:WireClipper.add_subject_wire", "src/cq_cam/utils/utils.py:WireClipper.add_subject_polygon"]}
{"id": "C86", "title": "Results of the clipper are closed loops and open paths", "statement": "The result is every closed loop of the engine with its first point repeated at the end, followed by every open path, in order, in the units of the part; scaling to integers and back moves a coordinate by less than one unit of the grid.", "quantifier": "every engine answer and every path", "why_tests_cant": "all coordinates and all answers", "anchors": ["src/cq_cam/utils/utils.py:WireClipper.execute", "src/cq_cam/utils/utils.py:WireClipper.execute_difference"]}
{"id": "C87", "title": "The scanning square contains the part turned by any angle", "statement": "max_bounds is a square with integer sides that contains every path of the clipper turned by any angle about the middle of the bounds, and is less than one unit larger on every side than half the diagonal.", "quantifier": "every set of paths and every angle", "why_tests_cant": "all angles cannot be tried", "anchors": ["src/cq_cam/utils/utils.py:WireClipper.max_bounds", "src/cq_cam/utils/utils.py:WireClipper.bounds"]}
{"id": "C88", "title": "The contour strategy cuts the whole region by repeated shrinking", "statement": "The contour strategy hands the engine every outer and inner boundary as a clip and every repeated shrinking of every outer boundary as a subject, once each, and returns the engine's paths sorted; it ends whenever the shrinking does; every point of the boundary is within reach of the tool.", "quantifier": "every kernel, engine, tool and stepover", "why_tests_cant": "the loop follows unbounded trees of offsets", "anchors": ["src/cq_cam/operations/strategy.py:ContourStrategy.process", "src/cq_cam/operations/strategy.py:Strategy._sort_clipper_output"]}
{"id": "C89", "title": "The zig-zag strategy scans every boundary through its own clipper", "statement": "With WireClipper, the zig-zag strategy is the routing of C50-C53 applied to the engine's intersection of the boundaries (all of them closed) with horizontal lines; every point of a boundary is at most one stepover above such a line and between its ends; every scanline the engine returns is cut exactly once.", "quantifier": "every list of boundaries, tool, stepover and engine with correct bounds", "why_tests_cant": "composition of several loops over unbounded inputs", "anchors": ["src/cq_cam/operations/strategy.py:ZigZagStrategy.process", "src/cq_cam/utils/utils.py:WireClipper"]}
{"id": "C90", "title": "Islands stay islands when a boundary is offset", "statement": "When the boundary of a surface operation is offset, every offset hole is a hole of exactly one of the offset outlines, one it is inside of.", "quantifier": "every boundary, offsets and kernel answers", "why_tests_cant": "depends on the arrangement of holes; a silent loss is not an error", "anchors": ["src/cq_cam/operations/base_operation.py:FaceBaseOperation.offset_boundary"]}
{"id": "C91", "title": "The mesh for the drop cutter is the mesh of the shape", "statement": "The triangles given to the drop cutter are the triangles of all faces of the shape, each once, in order, where the faces are.", "quantifier": "every shape and triangulation", "why_tests_cant": "faces with their own location do not occur in tests", "anchors": ["src/cq_cam/operations/op3d.py:Surface3D.shape_to_triangles", "src/cq_cam/operations/op3d.py:shape_to_triangles", "src/cq_cam/operations/op3d.py:point_to_tuple"]}
{"id": "C92", "title": "A projected face is bounded by its largest wire", "statement": "The projection of a face uses every projected wire once: the one with the largest area as outline, the others as holes; without any wire it is an IndexError.", "quantifier": "every list of wires and areas", "why_tests_cant": "all orders of wires", "anchors": ["src/cq_cam/utils/utils.py:project_face"]}
{"id": "C93", "title": "Cut direction is the parity of three choices", "statement": "With a positive offset, a clockwise spindle and climb milling the cut is clockwise, and changing any one of the three turns the direction round.", "quantifier": "all combinations", "why_tests_cant": "the function is not called and has no test", "anchors": ["src/cq_cam/utils/utils.py:cut_clockwise"]}
{"id": "C94", "title": "Nearest points survive rounding", "statement": "Computed in double precision, the nearest point of a segment is within 2^-46 M of the true nearest point and its squared distance within 2^-43 M^2 of the true one, M bounding the coordinates; the search over a path returns a segment and distance such that no point of the path is nearer than that distance by more than 2^-43 M^2.", "quantifier": "every point, segment and path of doubles with coordinates up to 2^99 and segments of length at least 2^-100", "why_tests_cant": "rounding errors are input dependent; tests check a handful of small integers", "anchors": ["src/cq_cam/utils/utils.py:dist2", "src/cq_cam/utils/utils.py:dist_to_segment_squared", "src/cq_cam/utils/geometry_op.py:distance_to_path"]}
{"id": "C95", "title": "Scan points are attached to the boundary they lie on in spite of rounding", "statement": "The test d < 1e-7 in the zig-zag strategy, computed in double precision, holds for every point within 1e-4 of the segment (coordinates up to 2^33) and fails for every point whose squared distance exceeds 1e-7 by more than 2^-43 M^2.", "quantifier": "every point and segment of doubles", "why_tests_cant": "the source itself says the number was picked from observed values", "anchors": ["src/cq_cam/operations/strategy.py:ZigZagStrategy._link_scanpoints_to_boundaries", "src/cq_cam/utils/utils.py:dist_to_segment_squared"]}
{"id": "C96", "title": "Scanlines computed in double precision leave no gap", "statement": "The heights np.arange(bottom, top, diameter*stepover) in doubles lie between bottom and top and every height between them is at most one stepover above one of them, up to a rounding error linear in the number of lines.", "quantifier": "every double bounds, diameter and stepover", "why_tests_cant": "accumulated rounding over many lines", "anchors": ["src/cq_cam/operations/strategy.py:ZigZagStrategy.process"]}
{"id": "C97", "title": "The number of curve samples is right up to one and rounding", "statement": "int(length * 10**precision), computed in doubles, is at least 2 and otherwise differs from the exact quantity by less than one, up to a relative error of 2^-50.", "quantifier": "every double length and precision", "why_tests_cant": "truncation next to integers depends on rounding", "anchors": ["src/cq_cam/utils/interpolation.py:edge_interpolation_count"]}
{"id": "C98", "title": "Tabs computed in double precision stay apart", "statement": "The tab ranges of an edge are within 2^-48 of (i+1)/(count+1) -+ width/(2 length); tabs that do not touch in exact arithmetic (margin 2^-46) lie strictly inside the edge, in order and apart. The tab ranges of a wire are within 2^-47 of i/count -+ width/(2 length), up to whole turns, and together they contain every place of the wire inside such a tab (margin 2^-46), also across the ends of the wire.", "quantifier": "every double length and width and every count", "why_tests_cant": "rounding of positions and half widths", "anchors": ["src/cq_cam/operations/tabs.py:EdgeTabs.load_ordered_edges", "src/cq_cam/operations/tabs.py:WireTabs.load_wire"]}
{"id": "C99", "title": "All passes of a profile leave the same tabs", "statement": "A profile with stepdown and tabs leaves every tab with its top at the bottom of the profile plus the height of the tabs: passes at or above that height are not interrupted, every lower pass climbs to exactly that height inside the tabs and follows the layer outside them, staying connected.", "quantifier": "every base wire, stepdown, tab spacing, width and height; tabs of a wire under the conditions of C45", "why_tests_cant": "tests with tabs do not combine them with several passes and do not look at the heights", "anchors": ["src/cq_cam/operations/profile.py:profile", "src/cq_cam/operations/profile.py:apply_tabs"]}
{"id": "C100", "title": "Doubles are printed as their exact values are rounded", "statement": "The text of a coordinate, computed as Python does with doubles (round to p decimals and read back, drop the fraction of integers, shortest decimal that reads back), is the half-even rounding of the exact value of the double, with at most 15 digits; read by the machine it is at most half a unit of the last decimal away.", "quantifier": "every finite double whose rounded value has at most 15 digits, every number of decimals up to 200 (4 for the reading)", "why_tests_cant": "decimal rounding of binary fractions goes wrong only for particular values; tests print a few short decimals", "anchors": ["src/cq_cam/address.py:GCodeWordPrecision.__str__", "src/cq_cam/utils/utils.py:optimize_float"]}
{"id": "C101", "title": "The integer grid moves the input of a pocket once and never again", "statement": "Paths and distances given to the polygon library in a pocket are cut back towards zero to multiples of 2^-31 and its answers are multiples of 2^-31; every contour that is cut lies on that grid and is handed back unchanged, so the program is the one for the input cut back to the grid. Computed in doubles the scaling is exact up to four kilometres.", "quantifier": "every library, area, area to avoid, distance, precision, stepdown", "why_tests_cant": "drift over many offsets is below what tests compare", "anchors": ["src/cq_cam/utils/geometry_op.py:offset_path", "src/cq_cam/utils/geometry_op.py:prepare_path_boolean_op", "src/cq_cam/utils/geometry_op.py:poly_tree_to_poly_faces", "src/cq_cam/operations/pocket.py:pocket_clipper"]}
{"id": "C102", "title": "Tolerance and inward offset are positive on the grid", "statement": "Whatever the precision of the job and the positive stepover, the polygon library is asked for a positive tolerance and a positive inward offset.", "quantifier": "every precision and stepover", "why_tests_cant": "only extreme values fail", "anchors": ["src/cq_cam/utils/geometry_op.py:offset_path", "src/cq_cam/operations/pocket.py:fill_pocket_contour_shrink"]}
{"id": "C103", "title": "Programs always exist, and no cut starts from an unknown place", "statement": "For every job made by the methods of Job, whatever the geometry kernels answer, to_gcode succeeds. Every command names X, Y and Z, except the first rapid of a group to the rapid (safe) height. On the machine no feed move starts from an unknown position and no move from an unknown height goes sideways, although every home move (tool changes, start) loses the position.", "quantifier": "every sequence of calls, every kernel answer and every machine state", "why_tests_cant": "the start position is None at the start of every operation; to_vector raises TypeError when an arc starts there", "anchors": ["src/cq_cam/fluent.py:Job.to_gcode", "src/cq_cam/address.py:AddressVector.to_vector", "src/cq_cam/command.py:MotionCommand.__init__", "src/cq_cam/routers.py:rapid_to"]}
{"id": "C104", "title": "A surface operation works on the selection, offset as asked", "statement": "A surface operation scans the selected faces (and faces made of selected wires), projected, with the outline and the holes offset by a multiple of the tool diameter plus a distance. An empty selection and other objects are OperationErrors. As annotated, None is accepted as the offset of the holes.", "quantifier": "every selection, offset, kernel answer and job", "why_tests_cant": "tests offset by -1 and 1 only and never pass wires, other objects or None", "anchors": ["src/cq_cam/operations/base_operation.py:FaceBaseOperation._wp_to_faces", "src/cq_cam/operations/base_operation.py:FaceBaseOperation.offset_boundary", "src/cq_cam/operations/op3d.py:Surface3D.__post_init__"]}
{"id": "C105", "title": "Rapids of the program never go sideways low down", "statement": "On the machine, for every program of a job made by the methods of Job: each rapid goes straight to the rapid height, sideways at that height, or straight down from it to the safe height (drilling: the safe height and the surface). With heights not below the surface no rapid ends below it.", "quantifier": "every sequence of calls, every kernel answer and every machine state", "why_tests_cant": "cuts of one operation may be discontinuous and every operation starts from an unknown place; tests compare texts of a few programs", "anchors": ["src/cq_cam/routers.py:rapid_to", "src/cq_cam/routers.py:route_wires", "src/cq_cam/fluent.py:Job.to_gcode", "src/cq_cam/operations/drill.py:Drill.__post_init__"]}
{"id": "C106", "title": "Pictures show the axes of the plane of the job", "statement": "Every picture of an operation has, next to the moves, the axes of the plane of the job: three edges of length one from its origin to the local points (1,0,0), (0,1,0), (0,0,1), red, green and blue in that order.", "quantifier": "every orthonormal plane, every length and every job", "why_tests_cant": "pictures are never looked at by tests", "anchors": ["src/cq_cam/visualize.py:visualize_job_plane", "src/cq_cam/visualize.py:visualize_job", "src/cq_cam/fluent.py:Job.to_shapes"]}
{"id": "C107", "title": "A path made into a wire and back is the same path", "statement": "path_to_wire makes, from a path of at least two points without repeated neighbours, a wire at the given height, whose path is the given one, closed if it was open. Shorter paths ask the kernel for a wire without edges.", "quantifier": "every path, height, precision and kernel making lines", "why_tests_cant": "no test calls path_to_wire", "anchors": ["src/cq_cam/utils/geometry_op.py:path_to_wire", "src/cq_cam/utils/geometry_op.py:wire_to_path"]}
{"id": "C108", "title": "The ranges of the edges of a wire tile it", "statement": "wire_edge_d_ranges gives ranges from 0 to 1 without gaps, each in proportion to the length of its edge, if the length of the wire is the sum of those of its edges; a wire of length 0 is a ZeroDivisionError. A position in a range is mapped to the same fraction of the edge.", "quantifier": "every wire", "why_tests_cant": "no test calls wire_edge_d_ranges", "anchors": ["src/cq_cam/operations/tabs.py:WireTabs.wire_edge_d_ranges", "src/cq_cam/operations/tabs.py:WireTabs.wire_d_to_edge_d"]}
{"id": "C109", "title": "Combined faces are taken apart into lists of faces", "statement": "combine_faces_and_break gives the faces of the compounds and faces the kernel combines to, in order, without other shapes, as a list of lists of faces. (It leaves faces outside lists.) Operation.to_gcode of the base class works only without commands.", "quantifier": "every list of faces and every answer of the kernel", "why_tests_cant": "no test calls them", "anchors": ["src/cq_cam/operations/base_operation.py:Operation.combine_faces", "src/cq_cam/operations/base_operation.py:Operation.combine_faces_and_break", "src/cq_cam/operations/base_operation.py:Operation.to_gcode"]}
{"id": "C110", "title": "Feed rates and heights are those asked for", "statement": "On the machine, for a job created by Job(...) and extended by method calls: every feed move of a call runs at the feed rate of the call (that of its tool, or the last one given); moves straight down run at the plunge feed rate given, or else the feed rate. Rapids go sideways at the heights given, or else at the defaults of the unit.", "quantifier": "all arguments of Job, every sequence of calls, every kernel answer and machine state", "why_tests_cant": "tests pass no tools with feed rates and compare few programs; nobody compares the rates of several calls on one job", "anchors": ["src/cq_cam/fluent.py:Job.__init__", "src/cq_cam/fluent.py:Job.update_tool", "src/cq_cam/routers.py:rapid_to", "src/cq_cam/operations/drill.py:Drill.__post_init__"]}
{"id": "C111", "title": "Holes on the machine", "statement": "The program of the job answered by drill ends with the moves of that call. Its feed moves are exactly one per hole asked for, in the order of nearest neighbours, each straight down from the surface to minus the depth at the feed rate of the job, at the place of the hole (moved as C49 says) as printed. The moves before them are those of the program of the job the method was called on, but for the spindle speed.", "quantifier": "all user-made jobs, objects, depths, tools, kernel answers and machine states, for printable numbers", "why_tests_cant": "tests compare one printed program; nobody runs programs", "anchors": ["src/cq_cam/operations/drill.py:Drill", "src/cq_cam/fluent.py:Job.drill", "src/cq_cam/fluent.py:Job.to_gcode"]}
{"id": "C112", "title": "Pockets on the machine stay above their floor", "statement": "The moves the program makes for a pocket end at known heights that are not below the floor of its areas, as printed. The moves before them are those of the program of the job the method was called on, but for the spindle speed.", "quantifier": "all user-made jobs, areas, arguments, kernel and engine answers and machine states, for a floor below the surface and the heights of the job", "why_tests_cant": "needs the whole chain from the areas to the printed digits; rounding could go below", "anchors": ["src/cq_cam/operations/pocket.py:pocket", "src/cq_cam/fluent.py:Job.pocket", "src/cq_cam/fluent.py:Job.to_gcode"]}
{"id": "C113", "title": "Passes of profiles on the machine", "statement": "For a profile without tabs the program makes one group of moves for each offset wire, holes first. Each group has one pass for each layer that fits below the surface, from the highest to the wire itself (only the wire itself without a stepdown), and all feed moves of a pass end at its height, as printed. The moves before them are those of the program of the job the method was called on, but for the spindle speed.", "quantifier": "all user-made jobs, shapes, offsets, stepdowns, tools, kernel answers and machine states", "why_tests_cant": "the number of passes depends on the depth and the stepdown; tests try one", "anchors": ["src/cq_cam/operations/profile.py:profile", "src/cq_cam/fluent.py:Job.profile", "src/cq_cam/fluent.py:Job.to_gcode"]}
{"id": "C114", "title": "Comments name the job and its operations", "statement": "Whatever calls made the job, the comments of its program are: the name of the job with its feed rate and unit, then for each operation, in order, the name of the job and the name of the operation. There are no others.", "quantifier": "all user-made jobs whose names and numbers can be printed", "why_tests_cant": "tests compare few programs; a comment may swallow code after it", "anchors": ["src/cq_cam/fluent.py:Job.to_gcode", "src/cq_cam/fluent.py:Operation.to_gcode"]}
{"id": "C115", "title": "vertical_edge tells edges that are cut straight up or down", "statement": "vertical_edge is true of an edge exactly if the moves made for it go straight up or down.", "quantifier": "every edge", "why_tests_cant": "no test calls vertical_edge; closed edges also end above where they start", "anchors": ["src/cq_cam/routers.py:vertical_edge"]}
{"id": "C116", "title": "The machine follows the wires of a profile", "statement": "The program of a job answered by profile or wire_profile ends with one group of moves for each tool path (offset wire, layer, tabs), holes first. In each group the tool is lowered once, straight down from the safe height at the plunge feed rate, and then goes from the start to the end of every edge, in order, at the feed rate of the job. A straight edge is one straight move; a circle is two arcs and an arc one, in the plane XY, about the centre of the edge (within a thousandth) and in its direction; other curves are straight moves to points spaced evenly along the curve. Coordinates as printed. The moves before them are those of the program of the job the method was called on, but for the spindle speed.", "quantifier": "all user-made jobs, shapes, offsets, stepdowns, tabs, tools, kernel answers and machine states", "why_tests_cant": "needs the chain from the kernel's edges to the printed digits; tests compare a few texts", "anchors": ["src/cq_cam/operations/profile.py:profile", "src/cq_cam/routers.py:route_wires", "src/cq_cam/fluent.py:Job.profile", "src/cq_cam/fluent.py:Job.to_gcode"]}
{"id": "C117", "title": "The machine follows the contours of a pocket", "statement": "The program of a job answered by pocket ends with one group of moves for each contour of the pocket: the areas in the coordinates of the job, offset, cut into levels, filled inwards and stepped down, in that order. In each group the tool comes straight down from the safe height at the plunge feed rate, or is fed over from the contour before, and then goes once round the contour at its depth, at the feed rate of the job. Coordinates as printed. The moves before them are those of the program of the job the method was called on, but for the spindle speed.", "quantifier": "all user-made jobs, areas, arguments, kernel and engine answers and machine states, for a safe height above the surface", "why_tests_cant": "needs the chain from the areas to the printed digits; tests compare a few texts", "anchors": ["src/cq_cam/operations/pocket.py:pocket", "src/cq_cam/routers.py:route_polyface_outers", "src/cq_cam/fluent.py:Job.pocket", "src/cq_cam/fluent.py:Job.to_gcode"]}
{"id": "C118", "title": "The machine scans the surface", "statement": "The program of a job answered by surface3d ends with the moves for each boundary of the selection (projected, offset). They are made pass by pass; each pass consists of the runs of scanned points that are not above its limit. For each run the tool goes straight up to the rapid height, across to the first point, down to the safe height, and then with a straight cut to every other point in order, at the height the drop cutter answered or the depth of the pass, whichever is higher. Coordinates as printed. The moves before them are those of the program of the job the method was called on, but for the spindle speed.", "quantifier": "all user-made jobs, selections, arguments, kernel and drop cutter answers and machine states; the depths are claimed for stepdowns that are not positive", "why_tests_cant": "needs the chain from the scan lines to the printed digits; no test calls surface3d through a job", "anchors": ["src/cq_cam/operations/op3d.py:Surface3D.__post_init__", "src/cq_cam/operations/op3d.py:Surface3D._chop_sequences_by_depth", "src/cq_cam/fluent.py:Job.surface3d", "src/cq_cam/fluent.py:Job.to_gcode"]}
{"id": "C119", "title": "The arcs of a profile can be made by a machine", "statement": "In the program of a job answered by profile or wire_profile, every arc of the moves made for the tool paths runs in the plane XY, stays level and ends as far from its centre as it starts (within 0.003), if the circular edges of the tool paths are level circles. False for circles that are not level: a tilted circle whose normal has a vertical part is printed as an arc in the plane XY whose radii differ. Also false: the centre of an arc in the plane XY is given by I and J only (a K word is always printed). The moves before them are those of the program of the job the method was called on, but for the spindle speed.", "quantifier": "all user-made jobs, shapes, offsets, stepdowns, tabs, tools, kernel answers and machine states", "why_tests_cant": "tests print single arcs with exact coordinates; controllers reject arcs whose radii differ", "anchors": ["src/cq_cam/routers.py:route_edge", "src/cq_cam/command.py:Circular.__str__", "src/cq_cam/utils/utils.py:is_arc_clockwise2", "src/cq_cam/operations/profile.py:profile", "src/cq_cam/fluent.py:Job.to_gcode"]}
{"id": "C120", "title": "Later calls keep the moves made before", "statement": "If a job comes from another by calls of the methods (each on the job answered by the one before), its program starts with the moves of the program of that other job: same targets, feeds, planes and tools, only the spindle speed may differ (C14).", "quantifier": "all user-made jobs, sequences of calls with all arguments and machine states, for printable jobs", "why_tests_cant": "a program that shows a later call does not disturb earlier ones needs all sequences of calls; no test compares programs before and after a call", "anchors": ["src/cq_cam/fluent.py:Job._add_operation", "src/cq_cam/fluent.py:Job.update_tool", "src/cq_cam/fluent.py:Job.to_gcode"]}
{"id": "C121", "title": "Holding tabs on the machine", "statement": "For a profile with tabs the program makes one group of moves for each offset wire, holes first. The wire is cut in passes a stepdown apart, highest first. The tool follows the edges of the path of a pass: a pass that is not below the tops of the tabs follows the wire, a lower one follows the wire with tabs (C43, C44: where they were asked for, as wide as asked for), and their tops are at the height of the wire plus the height of the tabs in every pass. Coordinates as printed. The moves before them are those of the program of the job the method was called on, but for the spindle speed.", "quantifier": "all user-made jobs, shapes, offsets, stepdowns, tabs of both kinds, tools, kernel answers and machine states", "why_tests_cant": "needs the chain from the tabs to the printed digits; tests look at the tab transitions of a few edges", "anchors": ["src/cq_cam/operations/profile.py:profile", "src/cq_cam/operations/tabs.py:Tabs", "src/cq_cam/operations/tabs.py:EdgeTabs", "src/cq_cam/operations/tabs.py:WireTabs", "src/cq_cam/fluent.py:Job.profile", "src/cq_cam/fluent.py:Job.to_gcode"]}
{"id": "C122", "title": "Nothing is cut besides the tool paths", "statement": "The program of a profile cuts along its tool paths and nothing else: after the last edge of a path the tool is retracted, or the next path is entered. What the code does: the parameter of the place nearest to the end of the path before, on whichever edge that place is, is taken as a parameter of the first edge; a path that starts with a straight edge is traced in full and one straight cut to that parameter of its first edge follows. Coordinates as printed.", "quantifier": "all user-made jobs, shapes, wires, offsets, stepdowns, tabs, kernel answers and machine states", "why_tests_cant": "needs an offset that leaves several wires and a place inside an edge nearest to the end of the one before", "anchors": ["src/cq_cam/routers.py:route_wires", "src/cq_cam/routers.py:route_edge", "src/cq_cam/operations/profile.py:profile", "src/cq_cam/fluent.py:Job.profile", "src/cq_cam/fluent.py:Job.wire_profile", "src/cq_cam/fluent.py:Job.to_gcode"]}
{"id": "C123", "title": "Linked wires are cut once each, without lifting", "statement": "route_wires with a stepover feeds the tool straight over to a wire that is no further than the stepover from the end of the one before, to the place the kernel answered, and then along the whole wire once from there: from a corner along all edges in order, or from inside an edge along the rest of it, all others and its first part. Other wires are entered from the safe height. What the code does: an answer with parameter 0 links to the start of the edge, while the first cut is written from parameter 0. Coordinates as printed.", "quantifier": "all jobs, lists of wires, stepovers, kernel answers and machine states", "why_tests_cant": "needs two wires closer than the stepover and a nearest place inside an edge, or an edge of which the parameter range holds 0", "anchors": ["src/cq_cam/routers.py:route_wires", "src/cq_cam/routers.py:route_edge", "src/cq_cam/routers.py:shift_edges", "src/cq_cam/operations/pocket_cq.py:pocket_cq"]}
{"id": "C124", "title": "The machine follows the filling of a pocket of CAD faces", "statement": "The commands of pocket_cq, run on a ready machine, cut the wires that fill the pockets of every level, each once and in the order of the filling: entered from the safe height, or by a straight feed move no longer than the stepover from where the last wire ended. What the code does: see C123 for answers of the kernel with parameter 0. Coordinates as printed.", "quantifier": "all jobs, faces, offsets, stepovers, kernels and machine states", "why_tests_cant": "combines offsetting, levelling, filling and linking; tests only look at single results", "anchors": ["src/cq_cam/operations/pocket_cq.py:pocket_cq", "src/cq_cam/operations/pocket_cq.py:fill_pocket_contour_shrink", "src/cq_cam/routers.py:route_wires", "src/cq_cam/routers.py:route_edge"]}
{"id": "C125", "title": "What an operation makes does not depend on what was done before", "statement": "Calling a method of two jobs with the same arguments gives operations with the same commands, or the same error, if the jobs have the same plane, tool diameter, rapid and safe heights, feeds, precision and layer limit. The operations made before, the name, the speed, the coolant and the tool numbers (also of a tool named in the call) do not matter. Of surfaces not even the feeds matter.", "quantifier": "all jobs, arguments, tools, kernel and engine answers", "why_tests_cant": "a comparison of two runs on all pairs of jobs; tests start from fresh jobs", "anchors": ["src/cq_cam/fluent.py:Job.profile", "src/cq_cam/fluent.py:Job.wire_profile", "src/cq_cam/fluent.py:Job.pocket", "src/cq_cam/fluent.py:Job.drill", "src/cq_cam/fluent.py:Job.surface3d", "src/cq_cam/fluent.py:Job._add_operation", "src/cq_cam/fluent.py:Job.update_tool"]}
{"id": "C126", "title": "Feed rates do not change the path", "statement": "Calling a method of two jobs which differ in feed and plunge feed (of the job or of the tool named in the call), gives operations of which the commands differ in feed rates only, or the same error.", "quantifier": "all jobs, arguments, tools, kernel and engine answers", "why_tests_cant": "a comparison of two runs on all pairs of jobs; tests look at single programs", "anchors": ["src/cq_cam/fluent.py:Job.profile", "src/cq_cam/fluent.py:Job.wire_profile", "src/cq_cam/fluent.py:Job.pocket", "src/cq_cam/fluent.py:Job.drill", "src/cq_cam/fluent.py:Job.update_tool", "src/cq_cam/routers.py:route_wires", "src/cq_cam/routers.py:route_polyface_outers"]}
{"id": "C127", "title": "Moving the work moves the tool path and changes nothing else", "statement": "If the holes, contours, wires, polygons of a pocket, wires of a profile (with layers and tabs) or scanned faces are moved in the plane, the commands are the same commands moved alike, in the same order and with the same kinds, heights, parameters and feeds, or the same error. The answers of the CAD kernel, polygon library and drop cutter about moved things are assumed to be moved.", "quantifier": "all jobs, lists of holes, contours, wires, faces, offsets, stepdowns, stepovers, tabs, kernels and displacements", "why_tests_cant": "a comparison of two runs for all displacements; distances and ties decide the order", "anchors": ["src/cq_cam/operations/drill.py:Drill", "src/cq_cam/routers.py:route_polyface_outers", "src/cq_cam/routers.py:route_wires", "src/cq_cam/operations/pocket.py:pocket_clipper", "src/cq_cam/operations/profile.py:profile", "src/cq_cam/operations/tabs.py:EdgeTabs", "src/cq_cam/operations/tabs.py:WireTabs", "src/cq_cam/operations/strategy.py:ZigZagStrategy", "src/cq_cam/operations/op3d.py:Surface3D"]}
{"id": "C128", "title": "Holes selected in another order are drilled alike unless the first hole or a tie decides", "statement": "If two selections name the same holes, with the same first hole, and no hole is as far from one hole as from another, then drilling either gives the same operation, whatever kinds of objects the holes come from. Without one of the two conditions it is false: witnesses for a tie and for another first hole.", "quantifier": "all jobs, heaps, selections of vectors, wires and faces, depths and tools", "why_tests_cant": "compares two runs for all permutations of a selection; the order found depends on all distances", "anchors": ["src/cq_cam/operations/drill.py:Drill", "src/cq_cam/fluent.py:Job.drill"]}
{"id": "C129", "title": "Wires profiled in one call or in two make the machine do the same", "statement": "Profiling some wires (or shapes with one offset) in one call, or in two calls one after the other, fails with the same error or gives jobs with the same settings and the same commands in the same order, and their programs make the machine do the same from any state. With both offsets it is false: in one call the inner wires of all shapes come first.", "quantifier": "all jobs, heaps, lists of wires and shapes, offsets, stepdowns, tabs, tools, kernels and machine states", "why_tests_cant": "compares the text of two programs, executed, for all ways to divide the work", "anchors": ["src/cq_cam/fluent.py:Job.wire_profile", "src/cq_cam/fluent.py:Job.profile", "src/cq_cam/fluent.py:Job.to_gcode"]}
{"id": "C130", "title": "Turned or mirrored work gives turned or mirrored tool paths", "statement": "If holes, contours or the polygons of a pocket are turned about any point, mirrored and moved in the plane, then the commands are the same commands turned, mirrored and moved alike: the same order, starting points of contours, links, kinds, heights and feeds, or the same error. No direction of the plane is preferred.", "quantifier": "all jobs, lists of holes, contours, polygons, offsets, stepovers, stepdowns, engines that answer alike, and rigid motions of the plane", "why_tests_cant": "compares two runs for all angles; ties and nearest points decide the order", "anchors": ["src/cq_cam/operations/drill.py:Drill", "src/cq_cam/routers.py:route_polyface_outers", "src/cq_cam/operations/pocket.py:pocket_clipper", "src/cq_cam/utils/utils.py:dist_to_segment_squared"]}
{"id": "C131", "title": "Holes selected in the order they are drilled in are drilled in that order", "statement": "If an operation drills holes in some order, then selecting them in that order gives the same commands: sorting the holes again changes nothing.", "quantifier": "all jobs, selections and depths", "why_tests_cant": "for all lists of points; repetitions and ties matter", "anchors": ["src/cq_cam/operations/drill.py:Drill"]}
{"id": "C132", "title": "Sorting the holes never makes the way longer", "statement": "The way between the holes in the order they are drilled in is never longer than in the order they were selected in. (False: the nearest hole may lead away from the far side. From every hole the next one is no farther than any hole drilled later.)", "quantifier": "all jobs, selections and depths", "why_tests_cant": "for all lists of points; the common belief is wrong for some", "anchors": ["src/cq_cam/operations/drill.py:Drill"]}
{"id": "C133", "title": "The height of rapid moves changes no cut", "statement": "Jobs that differ only in the height of rapid moves (and in settings of no influence, C125) fail alike or give operations with the same cuts, between the same points, in the same order, and rapid moves along the same lines of the plane. Drilling does not use that height at all.", "quantifier": "all jobs, shapes, wires, faces, holes, offsets, stepdowns, tabs, kernels and heights", "why_tests_cant": "a comparison of two runs for all heights; the height enters at every retract and at every decision whether to retract", "anchors": ["src/cq_cam/routers.py:rapid_to", "src/cq_cam/fluent.py:Job", "src/cq_cam/operations/profile.py:profile", "src/cq_cam/operations/pocket.py:pocket_clipper", "src/cq_cam/operations/op3d.py:Surface3D", "src/cq_cam/operations/drill.py:Drill"]}
{"id": "C134", "title": "The safe height changes nothing but the descents", "statement": "Jobs that differ only in the safe height of operations and the height of rapid moves fail alike or give operations that differ in the plunge cuts only: all other cuts end at the same points, in the same order, and rapid moves go along the same lines of the plane. When drilling all descents end at the same points.", "quantifier": "all jobs, shapes, wires, faces, holes, offsets, stepdowns, tabs, kernels and heights", "why_tests_cant": "a comparison of two runs for all pairs of heights, also those below the work, where the number of commands differs", "anchors": ["src/cq_cam/routers.py:rapid_to", "src/cq_cam/fluent.py:Job", "src/cq_cam/operations/profile.py:profile", "src/cq_cam/operations/pocket.py:pocket_clipper", "src/cq_cam/operations/op3d.py:Surface3D", "src/cq_cam/operations/drill.py:Drill"]}
{"id": "C135", "title": "The same work in another unit gives the same tool path in that unit", "statement": "If all lengths (places, depths, heights, stepovers) are multiplied by a positive number, the commands are the same commands with all coordinates multiplied by it. (False of the contours of pockets: the square of a distance is compared with the stepover, so whether contours are linked depends on the unit. It holds of drilling, and of contours if the stepover is multiplied by the square.)", "quantifier": "all jobs, holes, contours, stepovers and positive factors", "why_tests_cant": "compares two runs for all factors; tests use one unit", "anchors": ["src/cq_cam/routers.py:route_polyface_outers", "src/cq_cam/operations/drill.py:Drill", "src/cq_cam/utils/utils.py:dist_to_segment_squared"]}
{"id": "C136", "title": "Holes are visited nearest first in spite of rounding", "statement": "With IEEE double arithmetic (any ** 2 that is accurate to 2^-52), for finite holes up to 2^100 from the origin, Drill visits every hole once, starts with the first, and goes on to a hole such that none of those left over is nearer by more than a 2^49th part of the squared distance (plus 2^-800). If any two holes are at distances from each third that differ by more than that, the order is that of exact arithmetic. Without it the order can differ: 1 + 2^-60 is rounded to 1.", "quantifier": "all finite doubles in the box, all accurate squares", "why_tests_cant": "all doubles; tests try round numbers for which no error occurs", "anchors": ["src/cq_cam/operations/drill.py:Drill", "src/cq_cam/operations/strategy.py:Strategy._pick_nearest", "src/cq_cam/utils/utils.py:dist2"]}
{"id": "C137", "title": "A stepdown that divides the depth makes that many layers of a profile, in spite of rounding", "statement": "With IEEE double arithmetic and bounding boxes exact to 10^-4: profiling a flat wire at a depth of up to 2^20 with a stepdown of at least 0.002 that goes n times into the depth up to half a thousandth makes exactly n layers, each within 2^-30 of its place. More than max_stepdown_count + 1 layers raise RuntimeError.", "quantifier": "all doubles for depth and stepdown, all kernels whose boxes are that exact", "why_tests_cant": "all doubles; tests try round numbers for which no error occurs", "anchors": ["src/cq_cam/operations/profile.py:profile"]}
{"id": "C138", "title": "Programs that differ in feed rates alone make the same moves", "statement": "Two users who make the same jobs and call the same operations on them, except that the feed rates of jobs and tools differ, get the same jobs or errors, and their printed programs make the machine do the same moves in the same states from any state, apart from the feed rate.", "quantifier": "all sessions of any length with any operations, all feed rates, all states of the machine", "why_tests_cant": "pairs of programs over all sessions and feed rates; a test compares the text of one program", "anchors": ["src/cq_cam/fluent.py:Job.to_gcode", "src/cq_cam/fluent.py:Job.update_tool", "src/cq_cam/command.py:MotionCommand"]}
{"id": "C139", "title": "A program makes the same moves whatever state the machine was left in", "statement": "Run on two machines in any two states, a program makes the same moves on both: of the same kind, in the same units, plane, coordinate system and modes; every axis that is moved ends at the same place and every feed move starts from the same place. Without surface operations the feed rates are the same, too.", "quantifier": "all jobs made by the methods of Job, all pairs of states of the machine", "why_tests_cant": "pairs of runs over all states of the machine; the tests only look at text", "anchors": ["src/cq_cam/fluent.py:Job.to_gcode", "src/cq_cam/command.py:SafetyBlock", "src/cq_cam/command.py:ToolChange"]}
{"id": "C140", "title": "Spindle speeds, coolant and names change no move", "statement": "Two users make a job and call operations one after the other, each on the job answered by the last call; their jobs and calls differ in spindle speeds (of jobs and tools), coolant and names alone. Every call answers both or fails both with the same error, and the programs make a machine do the same moves, with the same tools and feed rates, from any state; only spindle and coolant differ. It does not hold when a job is called on again after a call with a tool: the first call changes the job itself if the speed stays and leaves it alone otherwise.", "quantifier": "all jobs, sequences of calls, generators that read only the settings that C125 names (all operations of the code), states of the machine", "why_tests_cant": "Two programs are compared as the machine runs them, for all sequences of calls and all states; the jobs of the two users are stored in different places because a change of speed makes a job of its own.", "anchors": ["src/cq_cam/fluent.py:Job.update_tool", "src/cq_cam/fluent.py:Job._add_operation", "src/cq_cam/fluent.py:Job.to_gcode", "src/cq_cam/command.py:StartSequence", "src/cq_cam/command.py:StopSequence", "src/cq_cam/command.py:ToolChange"]}
{"id": "C141", "title": "The height of rapid moves changes no feed move of the program", "statement": "Two users make the same jobs and the same calls of operations in the same order, with the same tools, and differ only in the rapid_height given to Job. Then the program of each job makes the machine, from any state it can start in, do exactly the same feed moves: each from the same state of the machine (position, feed rate, spindle, tool) to the same state. Seen from above all moves are the same, and the machine is left in the same state. Calls are answered alike.", "quantifier": "for all such pairs of sequences of constructor and method calls, kernels, arguments, tools and start states of the machine", "why_tests_cant": "C133 compares what one operation generates; that the comparison survives in the text of whole programs, with tool changes and safety blocks between operations, for arbitrary histories cannot be enumerated.", "anchors": ["src/cq_cam/fluent.py:Job.to_gcode", "src/cq_cam/fluent.py:Job.update_tool", "src/cq_cam/routers.py:rapid_to", "src/cq_cam/command.py:Rapid"]}
{"id": "C142", "title": "Moving the work moves the program", "statement": "If two users make the same jobs and the same calls, but the work of the second lies d away in the plane of the jobs, their printed programs make the same moves on the machine: same kinds, same heights, feed, spindle and modes, same arc centre words, and positions that differ by d to within 0.001; exactly by d if both components of d are even multiples of 0.001.", "quantifier": "For every displacement d, every pair of such sessions with any operations and tool changes, every job of them that prints, and every starting state of the machine.", "why_tests_cant": "Tests compare programs with stored ones for one position of the work; they cannot try all positions, and the tie cases of rounding never occur in them.", "anchors": ["src/cq_cam/fluent.py:Job.to_gcode", "src/cq_cam/command.py:Command", "src/cq_cam/address.py:AddressVector", "src/cq_cam/fluent.py:Job.drill", "src/cq_cam/fluent.py:Job.pocket"]}
{"id": "C143", "title": "Profiles of turned and mirrored work are the turned and mirrored profiles", "statement": "If the wires handed to a profile or wire profile are turned about in the plane, mirrored and moved, and the CAD kernel answers about turned things with turned answers, then the commands are the same commands turned, mirrored and moved, in the same order and with the same heights and feeds, and arcs run clockwise exactly where the originals do, or exactly where they do not if the work is mirrored.", "quantifier": "For every rigid motion of the plane, every kernel whose answers turn with the wires, every job, outline, inner outline, offset, stepdown and tab arrangement, errors included.", "why_tests_cant": "Tests cut a few axis-aligned shapes; the direction of arcs, links and the choice of the nearest corner after arbitrary turns and reflections cannot be enumerated.", "anchors": ["src/cq_cam/routers.py:route_wires", "src/cq_cam/routers.py:route_edge", "src/cq_cam/operations/profile.py:profile", "src/cq_cam/utils/utils.py:is_arc_clockwise2", "src/cq_cam/operations/tabs.py:EdgeTabs", "src/cq_cam/fluent.py:Job.profile", "src/cq_cam/fluent.py:Job.wire_profile"]}
{"id": "C144", "title": "Turning or mirroring the work turns or mirrors the program", "statement": "If two users make the same jobs and the same calls, but the work of the second is turned about, mirrored and moved in the plane of the jobs, their printed programs make the same moves on the machine: same heights, feed, spindle and modes, same kinds except that mirrored arcs go the other way round, and positions and arc centre words that are turned, to within 0.0015 along each axis; exactly for quarter turns and mirror images moved by even multiples of 0.001.", "quantifier": "For every rigid motion of the plane, every pair of such sessions with any drilling, profiles, wire profiles, pockets and tool changes, every job of them that prints, and every starting state of the machine.", "why_tests_cant": "Tests compare programs with stored ones for one position of the work; they cannot try all turns and reflections, and a wrong sign in one arc centre word or one arc direction shows only after some of them.", "anchors": ["src/cq_cam/fluent.py:Job.to_gcode", "src/cq_cam/command.py:Circular", "src/cq_cam/address.py:AddressVector", "src/cq_cam/routers.py:route_edge", "src/cq_cam/utils/utils.py:is_arc_clockwise2", "src/cq_cam/fluent.py:Job.drill", "src/cq_cam/fluent.py:Job.pocket", "src/cq_cam/fluent.py:Job.profile"]}
{"id": "C145", "title": "Dividing the stepdown keeps all passes", "statement": "If the stepdown of a profile or pocket is divided by a whole number, all tool paths made before are made, in the same order, with further ones between them. A smaller stepdown of a profile never makes fewer passes.", "quantifier": "For every stepdown, divisor, wires, offset and tabs of a profile (wires clear of the plane of the job), and all areas, offsets and stepovers of a pocket, with any engine.", "why_tests_cant": "Tests compare the passes of single stepdowns with expected depths; they do not relate runs with different stepdowns.", "anchors": ["src/cq_cam/operations/profile.py:profile", "src/cq_cam/operations/pocket.py:apply_stepdown", "src/cq_cam/operations/pocket.py:pocket"]}
{"id": "C146", "title": "Areas given more than once", "statement": "Giving an area of a pocket, or an area to avoid, more than once makes no difference to the points that are machined.", "quantifier": "For every list of areas and areas to avoid, any number of repetitions of any of them, every level and every point at which the engine is right.", "why_tests_cant": "Tests select every face once; nothing in them relates two pockets that differ only in repeated faces.", "anchors": ["src/cq_cam/operations/pocket.py:build_pocket_ops", "src/cq_cam/operations/pocket.py:combine_outers", "src/cq_cam/utils/geometry_op.py:prepare_path_boolean_op"]}
{"id": "C147", "title": "The order in which areas are selected", "statement": "The order in which the areas of a pocket and the areas to avoid are given makes no difference to the program.", "quantifier": "For every permutation of the areas and of the areas to avoid, all offsets, stepovers and stepdowns, and every engine whose unions and differences do not depend on the order of the polygons.", "why_tests_cant": "Tests give the faces in one order only.", "anchors": ["src/cq_cam/operations/pocket.py:build_pocket_ops", "src/cq_cam/operations/pocket.py:generate_depth_map", "src/cq_cam/operations/pocket.py:pocket"]}
{"id": "C148", "title": "The precision of a job is the precision of its program", "statement": "Positions that differ by more than the precision of the job are told apart by its program.", "quantifier": "For every job, precision and pair of positions.", "why_tests_cant": "Tests leave the precision at its default of 3, which happens to be the number of decimals printed.", "anchors": ["src/cq_cam/fluent.py:Job.__init__", "src/cq_cam/address.py:GCodeWordPrecision", "src/cq_cam/command.py:MotionCommand", "src/cq_cam/routers.py:route_edge"]}
{"id": "C149", "title": "Tabs change only the passes below their top", "statement": "A profile with tabs makes as many passes as without; those at or above the top of the tabs are the same. Tabs of no height change nothing.", "quantifier": "For every profile, offset, stepdown (not negative), kernel that lifts wires as asked, and kind of tabs.", "why_tests_cant": "Tests look at profiles with tabs and without tabs separately.", "anchors": ["src/cq_cam/operations/profile.py:profile", "src/cq_cam/operations/profile.py:apply_tabs"]}
{"id": "C150", "title": "A deeper pocket repeats the passes of a shallower one", "statement": "If the same areas are pocketed with the same stepdown to a depth d and to a deeper d', no avoid area lying below d, the contours above d are the same in both programs and in the same order, and everything else of the shallower program is at its floor d. (For profiles, whose passes are counted from the floor upwards, this is false; so it is with an avoid area between the floors.)", "quantifier": "All areas, avoid areas at or above d, depths d' <= d <= 0, stepdowns, stepovers, offsets and answers of the polygon library", "why_tests_cant": "A test compares two depths; where passes lie relative to two floors depends on rounding a quotient, and on which pieces the library finds inside others.", "anchors": ["src/cq_cam/operations/pocket.py:apply_stepdown", "src/cq_cam/operations/pocket.py:fill_pocket_contour_shrink", "src/cq_cam/operations/profile.py:profile"]}
{"id": "C151", "title": "The depth of holes changes nothing but the plunges", "statement": "Drilling the same objects to two depths either fails alike or gives programs of equally many commands in which corresponding rapids go to the same places (and print the same line) and corresponding plunges start at the same places and end at minus the absolute value of the two depths. The sign of the depth does not matter.", "quantifier": "All selections of objects, all depths, all jobs, all errors", "why_tests_cant": "Tests drill one plate to one depth; that nothing else depends on the depth is about pairs of runs.", "anchors": ["src/cq_cam/operations/drill.py:Drill"]}
{"id": "C152", "title": "A stepdown only adds passes above the floor", "statement": "A pocket with a positive stepdown has every contour of the same pocket without stepdown, in the same order, and each of its other contours is one of these raised to a height above it. The tool path of a profile without stepdown is the last tool path of the profile with any stepdown, with or without tabs.", "quantifier": "All areas, avoid areas, offsets, stepdowns, tabs and answers of the polygon library and the kernel for which both runs succeed", "why_tests_cant": "Tests look at one stepdown; that the floor does not depend on it concerns pairs of runs.", "anchors": ["src/cq_cam/operations/pocket.py:apply_stepdown", "src/cq_cam/operations/pocket.py:pocket_clipper", "src/cq_cam/operations/profile.py:profile"]}
