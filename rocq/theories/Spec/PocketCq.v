(** * Specification: pockets of faces (engine "cq") *)
From Verif Require Import Base.Py Model.Geometry Model.Plane Model.Edges Model.Routers Model.PocketOp Spec.Paths Spec.Moves Spec.Wires Spec.Pockets.
From Coq Require Import Permutation.
Local Open Scope Qc_scope.
Local Open Scope list_scope.

(** The face moved along the job's normal until it should lie at [d]; faces at [d] are left alone. *)
Definition moved_to (F : face_kernel) (top : plane) (d : Qc) (f : fk_face F) : fk_face F :=
  fk_translate F f (vscale (d - fk_zmax F f) (p_zdir top)).
Definition raised_to (F : face_kernel) (top : plane) (d : Qc) (f : fk_face F) : fk_face F :=
  if qeqb (fk_zmax F f) d then f else moved_to F top d f.

(** The faces for the level at depth [d]: those at that depth or deeper, raised and combined, without
    the avoided ones at that depth or above, lowered. *)
Definition cq_level (F : face_kernel) (top : plane) (ops avoids : list (fk_face F)) (d : Qc) (fs : list (fk_face F)) : Prop :=
  exists here cutters whole,
    Permutation here (map (raised_to F top d) (filter (fun f => qleb (fk_zmax F f) d) ops)) /\
    Permutation cutters (map (moved_to F top d) (filter (fun f => qleb d (fk_zmax F f)) avoids)) /\
    fk_combine F here = Ok whole /\
    (avoids = [] /\ fs = whole \/
     avoids <> [] /\ exists parts, Forall2 (fun f l => fk_cut F f cutters = Ok l) whole parts /\ fs = concat parts).

(** A kernel that moves faces by the vector it is given. *)
Definition moves_faces (F : face_kernel) : Prop :=
  forall f v, fk_zmax F (fk_translate F f v) = fk_zmax F f + vz v /\ fk_zmin F (fk_translate F f v) = fk_zmin F f + vz v.

(** [ss] is a complete filling with wires: as [filling], the contours being wires. *)
Definition wire_filling (next : list edge -> list (list edge) -> Prop) (outline : list edge) (ss : list (list (list edge))) : Prop :=
  exists addrs : list (list (list nat)),
    Forall2 (Forall2 (reached next outline)) addrs ss /\
    NoDup (concat addrs) /\
    (forall a c, reached next outline a c -> In a (concat addrs)) /\
    Forall (fun s => outward s /\ exists a rest, s = a :: rest /\ forall c, reached next outline a c -> next c []) addrs.

(** The wires made from the wire [w] of a pocket with islands [islands]: its inward offsets; if there
    are islands, the outer wires of what is left of them outside of the islands, those that bound no
    face being left out. *)
Definition cq_inward (K : kernel) (WK : wire_kernel) (F : face_kernel) (step : Qc) (islands : list (fk_face F))
  (w : list edge) (l : list (list edge)) : Prop :=
  exists cand, offset_wire K WK w (- step) = Ok cand /\
    (islands = [] /\ l = cand \/
     islands <> [] /\ exists parts,
       Forall2 (fun c ws => fk_make F c [] = Err KernelError /\ ws = [] \/
                  exists f fs, fk_make F c [] = Ok f /\ fk_cut F f islands = Ok fs /\ ws = map (fk_outer F) fs) cand parts /\
       l = concat parts).

(** The faces of [f] with its outline offset by [oo] and its islands by [io]: one face for each offset
    outline, with all offset islands. *)
Definition cq_offset (K : kernel) (WK : wire_kernel) (F : face_kernel) (oo io : Qc) (f : fk_face F) (fs : list (fk_face F)) : Prop :=
  exists outers ins, offset_wire K WK (fk_outer F f) oo = Ok outers /\
    Forall2 (fun w l => offset_wire K WK w io = Ok l) (fk_inners F f) ins /\
    Forall2 (fun o g => fk_make F o (concat ins) = Ok g) outers fs.

(** The levels, deepest last. *)
Definition cq_levels (F : face_kernel) (top : plane) (ops avoids pockets : list (fk_face F)) : Prop :=
  exists ds rs, pockets = concat rs /\ Forall2 (cq_level F top ops avoids) ds rs /\ strictly_down ds /\
    (forall d, In d ds <-> exists f, In f ops /\ fk_zmax F f = d) /\
    Forall (fun f => fk_zmax F f <= 0) (ops ++ avoids).

(** ** Routing: the wires of a sequence are cut one after the other; a sequence with an empty wire
    gives no commands at all. *)
Definition cq_routed (K : kernel) (j : job) (s : list (list edge)) (g : list motion) : Prop :=
  ((forall w, In w s -> w <> []) -> exists hs, g = concat hs /\ Forall2 (covers (j_feed j)) (map WWire s) hs) /\
  ((exists w, In w s /\ w = []) -> g = []).

(** ** Arguments *)
(** The distance meant by an argument. *)
Definition distance (r : Qc) (o : option offset_input) (default : Qc) : Qc :=
  match o with
  | None => r * default
  | Some (OMul m) => r * m
  | Some (OPair m d) => r * m + d
  end.
Definition listed {A} (o : option (list A)) : list A := match o with None => [] | Some l => l end.
(** The outline is cut by the tool's edge; if there are areas to avoid, by its centre. *)
Definition outer_distance {A} (r : Qc) (avoids : option (list A)) (a : pocket_args) : Qc :=
  distance r (pa_outer a) (match listed avoids with [] => - (1) | _ => 0 end).
