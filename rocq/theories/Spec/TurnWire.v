(** * Wires turned about or mirrored in the plane *)
From Verif Require Import Base.Py Model.Geometry Model.Plane Model.Edges Model.Command Model.Job Model.Routers Model.Tabs Model.Profile Spec.Turn.
Local Open Scope Qc_scope.
Local Open Scope list_scope.

(** [o] is 1 for turned work and -1 for mirrored work. *)
Definition turns (T : pt -> pt) (o : Qc) : Prop :=
  exists c s d, c * c + s * s = 1 /\ (o = 1 \/ o = -(1)) /\ forall p, T p = turned c s o d p.

Section Turn.
Context (T : pt -> pt) (o : Qc).
(** Axes are turned but not moved; in a mirror the way round them is the other one. *)
Definition turn_axis (n : vec) : vec :=
  V3 (o * (fst (T (vx n, vy n)) - fst (T (0, 0)))) (o * (snd (T (vx n, vy n)) - snd (T (0, 0)))) (o * vz n).
Definition turn_edge (e : edge) : edge :=
  Edge (e_id e) (e_geom e) (e_reversed e) (turn_vec T (e_startPoint e)) (turn_vec T (e_endPoint e))
    (fun p => turn_vec T (e_param e p)) (fun q => turn_vec T (e_pos e q)) (e_param0 e) (e_param1 e) (e_length e)
    (turn_vec T (e_center e)) (turn_axis (e_normal e)) (e_closed e).
Definition turn_wire (w : wire) : wire := match w with WEdge e => WEdge (turn_edge e) | WWire es => WWire (map turn_edge es) end.
(** Clockwise arcs are counterclockwise in a mirror. *)
Definition mirrored : bool := qltb o 0.
Definition turn_move (m : motion) : motion :=
  match m with
  | MRapid k s e a => MRapid k (turn_avec T s) (turn_avec T e) a
  | MCut k s e a f => MCut k (turn_avec T s) (turn_avec T e) a f
  | MArc cw s e c mid a f => MArc (xorb mirrored cw) (turn_avec T s) (turn_avec T e) (turn_avec T c) (turn_avec T mid) a f
  end.
Definition turn_order (c : command) : command := match c with Motion m => Motion (turn_move m) | Config c => Config c end.

(** Kernels whose answers about turned things are turned. *)
Definition turn_target (t : target) : target := match t with TVertex v => TVertex (turn_vec T v) | TEdge i p => TEdge i p end.
Definition kernel_turns (K : kernel) : Prop :=
  (forall a b, k_veq K (turn_vec T a) (turn_vec T b) = k_veq K a b) /\
  (forall v w, k_nearest K (turn_vec T v) (turn_wire w) = option_map (fun a => (fst a, turn_target (snd a))) (k_nearest K v w)).
(** [given] is how the wires handed in are turned: in the coordinates of the job they are turned by [T]. *)
Definition wire_kernel_turns (WK : wire_kernel) (top : plane) (given : list edge -> list edge) : Prop :=
  (forall w, wk_transform WK top (given w) = map turn_edge (wk_transform WK top w)) /\
  (forall w r, wk_offset WK (map turn_edge w) r = rmap (map (map turn_edge)) (wk_offset WK w r)) /\
  (forall w, wk_area WK (map turn_edge w) = wk_area WK w) /\
  (forall s t, wk_relocate WK (map turn_edge s) (map turn_edge t) = map turn_edge (wk_relocate WK s t)) /\
  (forall w z, wk_moved WK (map turn_edge w) z = map turn_edge (wk_moved WK w z)) /\
  (forall w, wk_below WK top (map turn_edge w) = wk_below WK top w).
Definition tab_kernel_turns (TK : tab_kernel) : Prop :=
  (forall e q, tk_param_at TK (turn_edge e) q = tk_param_at TK e q) /\
  (forall e, tk_curve TK (turn_edge e) = fun p => turn_vec T (tk_curve TK e p)) /\
  (forall e (c : Qc -> vec), (fun p => tk_location TK (turn_edge e) (turn_vec T (c p))) = fun p => turn_vec T (tk_location TK e (c p))) /\
  (forall c p q r, tk_make TK (fun x => turn_vec T (c x)) p q r = rmap turn_edge (tk_make TK c p q r)) /\
  (forall a b, tk_line TK (turn_vec T a) (turn_vec T b) = rmap turn_edge (tk_line TK a b)) /\
  (forall es, tk_assemble TK (map turn_edge es) = option_map (map turn_edge) (tk_assemble TK es)) /\
  (forall es, tk_zmin TK (map turn_edge es) = tk_zmin TK es) /\
  (forall es, tk_length TK (map turn_edge es) = tk_length TK es).
End Turn.
