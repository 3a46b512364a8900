(** * The integer grid of pyclipper in pockets
    (/repo/src/cq_cam/utils/geometry_op.py:102-135, 180-191, 213-241)

    [Model/Pocket] takes polygon operations on rational coordinates as an oracle.  Here they are
    built from operations on integers: paths are scaled and truncated on the way in and scaled back
    on the way out.  Integers are unbounded (pyclipper: 64 bits, and an exception beyond 2^62). *)
From Coq Require Import SpecFloat.
From Verif Require Import Base.Py Model.Geometry Model.Edges Model.Contour Model.Float Model.FloatSteps.
From Verif Require Export Model.Pocket Model.FloatSteps.
Local Open Scope Qc_scope.
Local Open Scope list_scope.

(** Nodes of a PolyTree as pyclipper returns them. *)
Inductive znode := ZNode (contour : zpath) (children : list znode).
Inductive tree_op := TreeUnion | TreeDifference.

(** The library on integers.
    [pl_offset path delta tolerance]: PyclipperOffset with this arc tolerance, JT_ROUND and
    ET_CLOSEDPOLYGON (geometry_op.py:124-131; the miter limit is not used by round joins);
    [pl_clean paths distance]: CleanPolygons; [pl_execute]: Execute2 on subjects and clips
    (geometry_op.py:213-241), the children of the root. *)
Record polygon_library := PL {
  pl_offset : zpath -> Z -> Z -> result (list zpath);
  pl_clean : list zpath -> Z -> list zpath;
  pl_execute : tree_op -> list zpath -> list zpath -> result (list znode)
}.

(** pyclipper.scale_to_clipper of a number. *)
Definition scale_number (x : Qc) : Z := qtrunc (x * clipper_scale).
(** geometry_op.py:121: [10 ** -precision / 2] (exactly; Python computes the nearest double). *)
Definition half_unit (precision : nat) : Qc := 1 / qz (10 ^ Z.of_nat precision) / qz 2.

(** geometry_op.py:102-134, the part before [close_path] and the filter. *)
Definition grid_offset (L : polygon_library) (p : path) (offset : Qc) (precision : nat) : result (list path) :=
  let scaled_precision := scale_number (half_unit precision) in
  do raw <- pl_offset L (to_clipper p) (scale_number offset) scaled_precision;
  Ok (map from_clipper (pl_clean L raw scaled_precision)).

(** [scale_from_clipper(node.Contour)] in the whole tree (geometry_op.py:185-189). *)
Fixpoint from_node (n : znode) : polynode :=
  let '(ZNode c l) := n in PNode (from_clipper c) (map from_node l).
(** geometry_op.py:213-241 *)
Definition grid_execute (L : polygon_library) (op : tree_op) (subjects clips : list path) : result (list polynode) :=
  do t <- pl_execute L op (map to_clipper subjects) (map to_clipper clips);
  Ok (map from_node t).

(** shapely works on the coordinates themselves. *)
Definition grid_engine (L : polygon_library) (contains : pathface -> pathface -> result bool) : engine :=
  Engine (grid_offset L) (grid_execute L TreeUnion) (grid_execute L TreeDifference) contains.

(** ** In doubles: [<cInt>(<double>value * 2 ** 31)] and [<double>value / <double>2 ** 31] in
    pyclipper; 2^31 is the double 2^52 * 2^-21. *)
Definition two31 : f64 := S754_finite false (2 ^ 52)%positive (-21).
(** A conversion to an integer truncates ([f64_trunc]; None, for infinities and NaN, is undefined in C). *)
Definition scale64 (x : f64) : option Z := f64_trunc (f64_mul x two31).
Definition unscale64 (k : Z) : f64 := f64_div (f64_of_Z k) two31.
