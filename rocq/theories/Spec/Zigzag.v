(** * Specification: walks along boundaries and zig-zag routes *)
From Verif Require Import Base.Py Spec.Paths Model.Geometry Model.Edges.
From Coq Require Import Permutation.
Local Open Scope Qc_scope.
Local Open Scope list_scope.

(** Starting at the point [p] of the polygon, the walk [w] visits the following points of the
    polygon, all forwards or all backwards, at most once round. *)
Definition walk_from (polygon : path) (p : pt) (w : path) : Prop :=
  exists x y rest, polygon = x ++ p :: y /\ (w ++ rest = y ++ x \/ w ++ rest = rev (y ++ x)).

(** The walk to the next of the points [free], in either direction. *)
Definition walk_to_free (polygon free : path) (p : pt) (w : path) (q : pt) : Prop :=
  walk_from polygon p (w ++ [q]) /\ In q free /\ forall u, In u w -> ~ In u free.

(** Length of a path of horizontal and vertical segments. *)
Fixpoint taxi_length (p : path) : Qc :=
  match p with
  | a :: (b :: _) as rest => qabs (fst b - fst a) + qabs (snd b - snd a) + taxi_length rest
  | _ => 0
  end.
Definition rectilinear (p : path) : Prop := forall a b, In (a, b) (steps p) -> fst a = fst b \/ snd a = snd b.

(** What the search compares: the squared distances of the points of the walk from its start. *)
Definition sum_sqd (a : pt) (w : path) : Qc := fold_right (fun b s => sqd a b + s) 0 w.

(** ** Linking *)
(** Points in the order of their distance from [s]. *)
Fixpoint by_distance (s : pt) (l : path) : Prop :=
  match l with
  | a :: (b :: _) as rest => sqd s a <= sqd s b /\ by_distance s rest
  | _ => True
  end.
(** [big] is [small] with points of [new] inserted. *)
Inductive inserted (new : path) : path -> path -> Prop :=
| ins_nil : inserted new [] []
| ins_keep a small big : inserted new small big -> inserted new (a :: small) (a :: big)
| ins_new a small big : In a new -> inserted new small big -> inserted new small (a :: big).
(** [big] is [small] with points inserted between its vertices, on each segment in the order of
    their distance from its start. *)
Inductive refined : path -> path -> Prop :=
| refined_nil : refined [] []
| refined_one a : refined [a] [a]
| refined_step a b small mid big : by_distance a mid -> refined (b :: small) big -> refined (a :: b :: small) (a :: mid ++ big).

(** Within a tolerance (squared) of a segment. *)
Definition near_segment (tol : Qc) (q a b : pt) : Prop := exists c, on_segment c a b /\ sqd q c < tol.
Definition near_path (tol : Qc) (q : pt) (p : path) : Prop := exists a b, In (a, b) (steps p) /\ near_segment tol q a b.

(** Edges joined end to start, and closed. *)
Fixpoint joined (first : vec) (es : list edge) : Prop :=
  match es with
  | [] => True
  | [e] => edge_end_point e = first
  | e :: (e' :: _) as rest => edge_end_point e = edge_start_point e' /\ joined first rest
  end.
Definition closed_wire (es : list edge) : Prop :=
  match es with [] => False | e :: _ => joined (edge_start_point e) es end.
(** On a straight edge of the wire, seen from above. *)
Definition on_edge_line (es : list edge) (q : pt) : Prop := exists e, In e es /\ e_geom e = GLINE /\
  on_segment q (vx (e_startPoint e), vy (e_startPoint e)) (vx (e_endPoint e), vy (e_endPoint e)).

(** ** Routes *)
(** A route over scanlines: along the first one from its one end to the other, then along the
    boundary to an end of the next one, and so on.  The legs are the scanlines as traversed. *)
Inductive zigzag (polygons : list path) : list (pt * pt) -> path -> Prop :=
| zigzag_first a b : zigzag polygons [(a, b)] [a; b]
| zigzag_next legs a0 b0 seq polygon w a b :
    zigzag polygons (legs ++ [(a0, b0)]) seq -> In polygon polygons -> walk_from polygon b0 (w ++ [a]) ->
    zigzag polygons (legs ++ [(a0, b0); (a, b)]) (seq ++ w ++ [a; b]).

Definition either_way (s : path) (leg : pt * pt) : Prop := s = [fst leg; snd leg] \/ s = [snd leg; fst leg].
(** The routes together traverse each scanline exactly once. *)
Definition cover_once (polygons : list path) (scanlines : list path) (seqs : list path) : Prop :=
  exists legss order, Forall2 (zigzag polygons) legss seqs /\
    Permutation order (concat legss) /\ Forall2 either_way scanlines order.

(** The left end of a scanline, and the other one. *)
Definition from_left (s : path) (start cut : pt) : Prop :=
  fst start <= fst cut /\ (s = [start; cut] \/ s = [cut; start]).

(** One way round: the walk to the first free point along the list [l]. *)
Definition first_way (l free : path) (w : path) (q : pt) : Prop :=
  (exists rest, l = w ++ q :: rest) /\ In q free /\ forall u, In u w -> ~ In u free.

(** ** Sorting of contours *)
(** The same closed path, started at another point. *)
Definition restarted (p q : path) : Prop :=
  closed_path q /\ exists before after, steps p = before ++ after /\ steps q = after ++ before.
(** It starts at a point of [p] nearest to [target]. *)
Definition starts_nearest (target : pt) (p q : path) : Prop :=
  exists a l, q = a :: l /\ In a p /\ forall b, In b p -> sqd target a <= sqd target b.
