# DESIGN: a Rocq model of cq-cam

## 1. Layout

* `rocq/theories/Base`   numbers, strings, exceptions, IEEE printing.
* `rocq/theories/Model`  the code, one file per Python module or function family; every definition
  cites file and lines in `/repo` and states its simplifications.
* `rocq/theories/Spec`   vocabulary of the properties, written independently of the model's helpers: a
  reader for G-code text, a machine, directed edges of paths, crossing-parity regions, tours, traces.
* `rocq/theories/Proofs` lemmas (`*P.v`) and concrete instances (`*Ex.v`).
* `rocq/theories/Props`  the theorems `Cnn_…`; each is `exact lemma.` followed by
  `Print Assumptions`, with a concrete `Example` that meets its hypotheses.
* `rocq/theories/Tests`  the repository's own tests, replayed against the model: whole programs expected
  by `tests/test_profile.py`, `test_pocket.py`, `test_drill.py`, `test_op3d.py` and others come out of
  the model letter by letter, given a kernel for the boxes of `conftest.py`.  Evidence that the source
  was read correctly; nothing else depends on it.
* `properties.jsonl` the properties, `MANIFEST.json` their status, `seeded/LOG.jsonl` the wrong
  programs the theorems were tried against.

## 2. Trusted base

* The kernel of Coq 8.16.1 (including its `vm_compute`).  No plugins, no native compilation.
* No axioms: `Print Assumptions` under every theorem in `Props` answers "Closed under the global
  context".  A census of the loaded environment also lists seven constants
  `Coq.ssr.ssrunder.Under_rel.*`; these are the opaque module-type fields of the standard library's
  ssreflect (loaded by `Lia`/`Lqa`), and no theorem here uses them.
* The reading of the Python source.  Nothing was run; `/repo` was read as text.
* The reading of the libraries where their answers matter: Python `str`, `round`, `int`, `list.index`,
  `dict` order, IEEE doubles, `numpy.arange`/`linspace`; these are modelled.  The other libraries
  (section 5) are arguments of the model.

## 3. Modelling decisions

* **Numbers.**  Finite doubles are rationals, and Python compares them exactly, so coordinates are
  canonical rationals (`Qc`: equality is Leibniz equality, and executable).  Code that copies,
  compares or prints coordinates is thus modelled exactly.  Code that computes (stepping down, tabs,
  distances, interpolation) is modelled with exact arithmetic, i.e. without IEEE rounding.  Where rounding
  decides the answer there is a second model with doubles (binary64, executable, by `SpecFloat`):
  printing of words (`PrintFloat.v`; C100 shows that it agrees with the printing of exact values used in C01–C05), `np.arange` in stepping down, surface depths and scanlines,
  sample counts and tab ranges (`Model/Float.v`, `FloatSteps.v`), nearest points of segments and
  paths (`SegmentFloat.v`), the order of holes (`DrillFloat.v`), layers of a profile (`LayersFloat.v`), scaling to pyclipper's integers (`Grid.v`).  C37, C58, C94–C98, C101, C136 and C137 bound how far these are from the exact ones.
  They rest on `Proofs/RoundP.v`: every operation of `SpecFloat` is within 2^-53 (relative) or 2^-1075 (absolute)
  of the exact result, below 2^971.  NaN and infinities are outside the model.
* **Square roots** (lengths, angles) are never computed: they are kernel answers, or statements are
  made about squares.
* **Exceptions** are values: `result A = Ok a | Err exn`, `exn` being the Python class.  Loops without a
  syntactic bound take fuel and return `Err OutOfFuel`; theorems say when that cannot happen.
* **Objects.**  `Job` objects are shared and mutated by `update_tool`, so they live in an explicit heap
  (`Model/Job.v`).  `reachable` heaps are those made by any sequence of constructor calls and fluent
  calls, successful or failing.  There the commands of a call are arbitrary motions; `user_heap` (C103) has the
  modelled methods themselves instead, and C103 shows that it is a special case.
* **Oracles.**  Every answer of the CAD kernel, pyclipper, shapely and opencamlib is a field of a record
  passed as an argument; theorems quantify over all such records.  A hypothesis on an oracle is stated
  in the theorem (e.g. `right_at`: the boolean engine is right at a point; `faithful`: edges have the ends asked for).
* **Identity.**  Where Python compares objects by identity (contours in the tree) the model numbers them.

## 4. What is modelled

| Python | model | left out |
|---|---|---|
| `address.py` all | `Model/Address.v`, `PrintFloat.v` (doubles) | `GCodeLetter.__repr__` |
| `command.py` all | `Model/Command.v`, `Model/Visual.v` | Qt/AIS objects behind `to_ais_shape` (colour and ends are kept) |
| `groups.py` all | `Model/Groups.v` | |
| `tool.py`, `fluent.py` all | `Model/Job.v`, `Profile.v`, `PocketOp.v`, `Drill.v`, `Surface.v`, `Visual.v` | import probing in `show` (its outcome is an argument) |
| `routers.py` all live code | `Model/Routers.v` | `vertical_plunge`, `vertical_ramp` are inside a string literal |
| `visualize.py` | `Model/Visual.v` | colour objects, placement of the group of moves |
| `operations/profile.py`, `tabs.py` | `Model/Profile.v`, `Tabs.v`, `Leftovers.v` | script at the end of tabs.py |
| `operations/pocket.py` | `Model/Pocket.v`, `PocketOp.v`, `Float.v` (doubles) | |
| `operations/pocket_cq.py` | `Model/PocketOp.v` | logging |
| `operations/drill.py` | `Model/Drill.v` | |
| `operations/op3d.py` | `Model/Surface.v`, `Mesh.v` | the mesher and drop cutter themselves |
| `operations/strategy.py` | `Model/Strategy.v`, `Contour.v` | logging |
| `operations/base_operation.py` | `Model/Surface.v`, `Mesh.v`, `Leftovers.v` | `Operation.__post_init__` (appends to `job.tasks`, which no job has; both subclasses replace it) |
| `utils/tree.py`, `linked_polygon.py`, `circle_bug_workaround.py` | `Model/Tree.v`, `Linked.v`, `Profile.v` | `__repr__` |
| `utils/geometry_op.py` | `Model/Geometry.v`, `Pocket.v`, `Profile.v`, `PocketOp.v`, `Grid.v` (pyclipper's integers), `Leftovers.v` | theorems on pockets are for any engine on rationals, `Grid.v` builds one from any library on integers (unbounded ones: pyclipper raises beyond 2^62) |
| `utils/interpolation.py` | `Model/Interp.v`, `Edges.v` | `get_edge_basis_curve` (its answer is an argument) |
| `utils/utils.py` | `Model/Edges.v`, `Geometry.v`, `Strategy.v`, `Contour.v`, `Mesh.v`, `Address.v`, `Profile.v` | the HLR projection in `project_face`, `compound_to_edges`, `break_compound_to*` (kernel answers) |

cadquery's `Plane` (used as `job.top`) is modelled in `Model/Plane.v` by its origin and directions.

## 5. What is not modelled

OCCT (wires, faces, offsets, meshes, HLR projection), pyclipper's boolean operations and offsets, shapely
`contains`, opencamlib, the Qt viewer, file system errors in `save_gcode`, logging, performance, IEEE
rounding outside the places named in section 3.  The machine of `Spec/Machine.v` is a reading of RS274
as described in the docstrings of `command.py` and `groups.py`; it has no acceleration, work offsets or
probing.

## 6. Where the code disagrees with its properties

Each item is a theorem `…_refuted` with a concrete witness.

* **Units**: `G21` is always printed (C11); planner, work offset and other settings are never read (C12);
  every program contains `G50` (C65); precision 5 and more prints exponents (C02); the precision of a job is not used for printing, three decimals always are (C148).
* **Spindle**: operations before the first tool or speed change run at the *last* speed set (C14).
* **Fluent calls**: a tool argument that changes neither number nor speed mutates the receiver (C15);
  `save_gcode` never writes the program (C18); a tool diameter given through `tool=` is checked too late (C17);
  a tool given to one call changes the feed rate of later calls on the same job (C110).
* **Home moves**: `G30` is issued from wherever the last cut ended, e.g. from inside a drilled hole (C69).
* **Routing**: squared distances are compared with the plain stepover (C26; above 1, contours a stepover
  apart are never linked, C26_never_linked), re-entered contours get an
  extra chord (C25, C27), which in a pocket with two arms goes through the wall between them (C117_wall_refuted), the nearest-point parameter is used for wires entered at their start (C30): such a wire is followed by a
  cut to that parameter of its first edge, whichever edge it belongs to, far off the paths (C122), with the engine "cq" out of a pocket whose island is near its wall (C124_refuted),
  a link to parameter 0 of an edge goes to its start instead (C123), an empty wire drops all wires (C31).
* **Flattening**: an open wire loses its start point (C70_open_refuted).
* **Pockets**: overlapping outlines are XORed and rings are filled (C35; C35_parity_partial says what decides), so an area selected twice is left standing and an area to avoid given twice is machined (C146); in double precision a pass can
  fall below the floor (C37); the cq engine ignores the stepdown (C83) and lifts faces along the global
  normal in local coordinates (C82); with any area to avoid the outline is overrun by the tool radius (C84; otherwise C84_reach_partial);
  a precision of 10 or more asks pyclipper for tolerance 0 and a stepover below 2^-31 is an offset of 0, so that filling never ends (C102).
* **Profiles**: the cutting plane is in world coordinates, layers are local, and the layer that lies in it ends the layers (C40, exactly: C40_to_the_plane); offsets keep the location
  of the last wire (C67).
* **Tabs**: overlaps (C43), unordered transitions on closed edges (C44), tabs that end at a corner tear the wire apart (C45, exactly then: C45_wire_tabs_connected), so that they are left by a slanted cut along the whole next side (C121_corner_refuted), tabs beside located edges (C45).
* **Drilling**: holes are displaced unless the job plane is its own inverse seen from above (C49, exactly); drills plunge at the feed
  rate, not at the plunge feed rate (C110).
* **Zig-zag**: the start of a later sequence is visited twice, so that three separate boundaries always
  end in a ValueError (C51), closed wires lack a closing segment
  (C52, C53), the "shorter way" is chosen by a sum of squares (C54), sorting breaks open paths and
  measures from the first path only (C55).
* **Clipper and contours**: reversed curves are flattened backwards, short ones vanish and points are up to
  0.2 apart (C70); the contour strategy never cuts the outline itself, fails with an IndexError on small
  regions and loops for ever with stepover 0 (C88).  Not refutations but worth knowing: `add_clip_polygon`
  with its default argument always fails (C85), and a refused path stays in the cache.
* **Surfaces**: islands crossing the offset outline are forgotten (C90), locations of faces are ignored by
  the mesher (C91), solids are a TypeError (C91), positive stepdowns always fail (C58), cuts have no feed rate (C59), the first point of every
  run is not cut (C71), rapids may end below the surface (C72), the tool may gouge between samples (C74; C74_depth_partial bounds by how much),
  `inner_boundary_offset=None` is a TypeError although annotated (C104).
* **Unused helpers**: `combine_faces_and_break` leaves faces outside its lists (C109); `vertical_edge` is true of circles (C115).
* **Arcs**: tilted circles become arcs with unequal radii; arcs in the plane XY have a K word (C119).
* **Pictures**: arcs are never drawn (C63), rapids and cuts share a colour (C77).

Statements forced by a hypothesis are marked "partial" in `MANIFEST.json` with a note.

## 7. How properties are proved

| id | how |
|----|-----|
| C01–C04 | the printed text is read back by an independent reader; induction on digits |
| C05 | triangle inequality over squares |
| C06, C08–C10, C13, C14, C59, C69, C75 | printed programs of reachable jobs are read back and run on the machine; induction over commands, operations and calls |
| C07, C17–C19, C29, C65, C66 | case analysis |
| C11, C12 | witnesses, and a universal "settings are ignored" theorem |
| C15, C16 | frame lemmas on the heap |
| C20–C31 | induction over faces, wires and edges; `nra` for distances |
| C32, C33 | invariant over tree growth |
| C34–C39 | list induction; crossing-parity regions for any correct boolean engine |
| C40, C41, C62, C67, C68, C99 | induction over layers and wires |
| C42–C45 | arithmetic over Q, induction over transitions |
| C46–C49 | permutation induction |
| C50–C55 | invariant over the routing loop |
| C56–C58, C64, C71–C74, C104 | list induction over scans and passes |
| C60, C61 | arithmetic on sample parameters |
| C63, C77, C78 | list induction |
| C76 | inversion of each generator |
| C70, C85–C89, C93 | list induction; queue order against level order for shrinking; squares instead of roots for the rotated bounds |
| C79–C84 | inversion of the operation; levels and fillings as relations, the queue as in C32 |
| C90–C92 | list induction, permutations |
| C37, C58, C94–C98 (doubles) | standard error analysis over Q from the error of one operation |
| C100 | decimals with 15 digits lie further apart than two rounding errors; integers are exact |
| C101, C102 | truncation to the grid is idempotent and every engine call truncates its arguments, so the operation commutes with it; scaling by a power of two is exact in doubles |
| C103 | inversion of each generator; invariant of the heap over calls; run on the machine from unknown positions |
| C105 | rapids start where the command before ended (also where cuts do not); invariant of the heap with the heights of the job; run on the machine |
| C106 | coordinates in an orthonormal plane; pictures of a job by induction over its operations |
| C107 | edges made for the steps of the path; wire_to_path on straight edges |
| C108 | the ranges are those of WireTabs (`shares` in Spec/Tabs.v); tiling by induction |
| C109 | filter and flat_map; a kernel that answers one face is the witness |
| C110 | invariant over successive calls: one group of operations per call, each cut fed at the rate of the call or a plunge from where the tool is; run on the machine |
| C111, C112, C113 | the last operation of a program as a run from a ready state; moves and events correspond one to one; rounding is monotone |
| C114 | scanning the printed text: words of numbers and codes have no parentheses |
| C115 | the single move of a straight edge |
| C116 | every command starts where the machine is (C30), so moves and events correspond one to one; regrouping by wires and edges |
| C117 | the groups of routed contours (C25) as moves of the machine; depths of levels and passes are not above the surface |
| C118 | runs and passes (C56, C57) as moves of the machine, one to one |
| C119 | rounding of ends and centre words (C05); a quarter circle of radius 1 in a plane with slope 3 : 4 is the witness |
| C120 | the moves are compared state by state, without the spindle speed (C14); C111-C113 and C116-C119 say the same of the moves before theirs |
| C121 | C40, C42-C45 for the path of every pass, C116 for the moves along it; EdgeTabs and WireTabs whose tops are below the safe height |
| C122 | straight cuts print only their end, so the commands are compared with continuous ones that print alike; C116 for those |
| C123 | C116's edges, and parts of edges between two parameters; the commands are continuous (C30), so the machine stands where each is written from |
| C124 | C81's filling and C123 for each sequence; the position is carried from sequence to sequence |
| C125, C126 | each generator reads six settings and the feeds of the job; calls compared as pairs of runs |
| C127 | every step of the generators commutes with the displacement: differences of points do not change, lists, dictionaries and trees are mapped; example kernels answer exactly |
| C128 | the nearest hole not drilled yet is the same in any arrangement when there are no ties (induction on the nearest-first order, C24) |
| C129 | generators over lists of wires are concatenations and do not look at the operations already made (C125); empty blocks do nothing on the machine |
| C130 | scalar products, and with them feet of perpendiculars and distances, are kept by rigid motions; the rest as C127 |
| C131 | an order that is nearest first is its own nearest-first order; that order is unique (C47) |
| C132 | counterexample on a line; the bound on each leg from the nearest-first order |
| C133 | induction over each router with a map that drops the heights of rapid moves; it commutes with appending and with the position a list ends at |
| C134 | the same with a map that drops descents too; lists without other moves are told from empty ones by the point of the plane they end at |
| C135 | counterexample with 1 inch = 25.4 mm; distances and comparisons multiplied through (similar triangles for the foot of the nearest point) |
| C136 | error bound of a computed squared distance (7 u d + 4 tau); the one chosen is a minimum of the computed ones; the exact order is unique |
| C137 | error of z + s (i + 1) below 2^-30; -0.001 lies between the values for n - 1 and n |
| C138 | induction over sessions with a map that drops feed rates of jobs and commands; the machine runs two lists of commands alike when they differ in feed rates |
| C139 | a run from a state of which less is known shows the same moves with less known (monotone in every modal field); run from the state of which nothing is known, C103 and C59 say that places and rates of feed moves are known |
| C140 | words S, M3-M5, M7-M9 taken out of a program take spindle and coolant out of its run and nothing else; what is left of a program depends on its moves and tool changes only, and calls of two such users add the same of them (update_spec, settled) |
| C141 | each cut is entered from the same end of the command before it in both jobs (marks, entries), so the machine is at the same height when a cut starts; rapid moves change nothing but Z; simulation of both runs up to Z, operation by operation |
| C142 | the motions of the second session are those of the first moved (C127), rounding commutes with even steps and is off by at most a thousandth otherwise; simulation of both runs up to the place in the plane; headers and tool changes forget the place |
| C143 | routing and profiles commute with rigid motions as in C130; the direction of an arc is the sign of the axis, which a mirror changes |
| C144 | every operation's commands are whole (X and Y together or neither) and turn with the work (C130, C143 and the same for the clipper pocket); rounding is within 0.0015 of commuting with a turn and commutes exactly with quarter turns; simulation of both runs as in C142 |
| C145 | C36, C40 for two stepdowns; whole tool paths, with tabs; exact arithmetic (C37 for doubles) |
| C146 | C35 for repeated areas: parity of the number of times; if nothing remains of the outlines pyclipper raises an exception (an answer of the engine) |
| C147 | C34 for permuted areas: whole programs are equal; `order_blind` is a condition on pyclipper, not proved of it |
| C148 | two jobs that differ in precision; C60 for curves, C01 for the three printed digits |
| C149 | C99 and C45 relate tabs to single layers; here the runs with and without tabs are compared |
| C150 | `C150_pocket`, `C150_program`, `C150_plain`, `C150_avoid_refuted`, `C150_profile_multiple`, `C150_profile_refuted` (Props/Deeper.v): avoid areas at or above the shallower floor; the passes of pockets are counted from the top, those of profiles from the floor. |
| C151 | `C151_depth`, `C151_lines`, `C151_sign` (Props/HoleDepth.v). |
| C152 | `C152_pocket`, `C152_profile` (Props/FloorPass.v). |
