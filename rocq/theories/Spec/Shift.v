(** * The same work somewhere else in the plane *)
From Verif Require Import Base.Py Model.Geometry Model.Plane Model.Edges Model.Command Model.Job Model.Tree Model.Routers Model.Pocket Model.Drill.
Local Open Scope Qc_scope.
Local Open Scope list_scope.

(** Everything is moved by [fst d] along X and [snd d] along Y. *)
Definition move_pt (d p : pt) : pt := (fst p + fst d, snd p + snd d).
Definition move_path (d : pt) (p : path) : path := map (move_pt d) p.
Definition move_face (d : pt) (f : pathface) : pathface := PF (move_path d (pf_outer f)) (map (move_path d) (pf_inners f)) (pf_depth f).
Definition move_vec (d : pt) (v : vec) : vec := V3 (vx v + fst d) (vy v + snd d) (vz v).
Definition move_edge (d : pt) (e : edge) : edge :=
  Edge (e_id e) (e_geom e) (e_reversed e) (move_vec d (e_startPoint e)) (move_vec d (e_endPoint e))
    (fun p => move_vec d (e_param e p)) (fun q => move_vec d (e_pos e q)) (e_param0 e) (e_param1 e) (e_length e)
    (move_vec d (e_center e)) (e_normal e) (e_closed e).
Definition move_wire (d : pt) (w : wire) : wire :=
  match w with WEdge e => WEdge (move_edge d e) | WWire es => WWire (map (move_edge d) es) end.

(** Unknown coordinates stay unknown. *)
Definition move_avec (d : pt) (v : avec) : avec :=
  AV (option_map (fun x => x + fst d) (ax v)) (option_map (fun y => y + snd d) (ay v)) (az v).
Definition move_motion (d : pt) (m : motion) : motion :=
  match m with
  | MRapid k s e a => MRapid k (move_avec d s) (move_avec d e) a
  | MCut k s e a f => MCut k (move_avec d s) (move_avec d e) a f
  | MArc cw s e c mid a f => MArc cw (move_avec d s) (move_avec d e) (move_avec d c) (move_avec d mid) a f
  end.
Definition move_command (d : pt) (c : command) : command := match c with Motion m => Motion (move_motion d m) | Config c => Config c end.

(** Kernel and engine answer about moved things with moved answers. *)
Definition move_target (d : pt) (t : target) : target := match t with TVertex v => TVertex (move_vec d v) | TEdge i p => TEdge i p end.
Definition kernel_moves (K : kernel) (d : pt) : Prop :=
  (forall a b, k_veq K (move_vec d a) (move_vec d b) = k_veq K a b) /\
  (forall v w, k_nearest K (move_vec d v) (move_wire d w) = option_map (fun a => (fst a, move_target d (snd a))) (k_nearest K v w)).
Fixpoint move_node (d : pt) (n : polynode) : polynode :=
  match n with PNode c l => PNode (move_path d c) (map (move_node d) l) end.
Definition engine_moves (E : engine) (d : pt) : Prop :=
  (forall p o n, en_offset E (move_path d p) o n = rmap (map (move_path d)) (en_offset E p o n)) /\
  (forall s c, en_union E (map (move_path d) s) (map (move_path d) c) = rmap (map (move_node d)) (en_union E s c)) /\
  (forall s c, en_difference E (map (move_path d) s) (map (move_path d) c) = rmap (map (move_node d)) (en_difference E s c)) /\
  (forall f g, en_contains E (move_face d f) (move_face d g) = en_contains E f g).

(** Objects to drill, moved by a vector; and where that takes the holes, which are placed in the
    coordinates of the plane. *)
Definition move_object (v : vec) (o : drill_object) : drill_object :=
  let m := rmap (fun c => vadd c v) in
  match o with
  | DVector c => DVector (vadd c v)
  | DWire c => DWire (m c)
  | DFace c cs => DFace (m c) (map m cs)
  | DOther => DOther
  end.
Definition hole_shift (top : plane) (v : vec) : pt :=
  (vx v * vx (p_xdir top) + vy v * vx (p_ydir top) + vz v * vx (p_zdir top),
   vx v * vy (p_xdir top) + vy v * vy (p_ydir top) + vz v * vy (p_zdir top)).
