(** * The same work turned about or mirrored in the plane *)
From Verif Require Import Base.Py Model.Geometry Model.Plane Model.Command Model.Job Model.Pocket Model.Drill.
Local Open Scope Qc_scope.
Local Open Scope list_scope.

(** Turned by the angle with cosine [c] and sine [s], mirrored if [m] is -1, moved by [d]. *)
Definition turned (c s m : Qc) (d p : pt) : pt := (c * fst p - s * snd p + fst d, m * (s * fst p + c * snd p) + snd d).
Definition rigid (T : pt -> pt) : Prop :=
  exists c s m d, c * c + s * s = 1 /\ m * m = 1 /\ forall p, T p = turned c s m d p.

Section Turn.
Context (T : pt -> pt).
Definition turn_path (p : path) : path := map T p.
Definition turn_face (f : pathface) : pathface := PF (turn_path (pf_outer f)) (map turn_path (pf_inners f)) (pf_depth f).
Definition turn_vec (v : vec) : vec := V3 (fst (T (vx v, vy v))) (snd (T (vx v, vy v))) (vz v).
(** Unknown places stay unknown. *)
Definition turn_avec (v : avec) : avec :=
  match ax v, ay v with
  | Some x, Some y => AV (Some (fst (T (x, y)))) (Some (snd (T (x, y)))) (az v)
  | _, _ => v
  end.
(** Drilling and pockets of polygons make no arcs; a mirrored arc would have the other direction. *)
Definition turn_motion (m : motion) : motion :=
  match m with
  | MRapid k s e a => MRapid k (turn_avec s) (turn_avec e) a
  | MCut k s e a f => MCut k (turn_avec s) (turn_avec e) a f
  | MArc cw s e c mid a f => MArc cw (turn_avec s) (turn_avec e) (turn_avec c) (turn_avec mid) a f
  end.
Definition turn_command (c : command) : command := match c with Motion m => Motion (turn_motion m) | Config c => Config c end.
Fixpoint turn_node (n : polynode) : polynode := match n with PNode c l => PNode (turn_path c) (map turn_node l) end.
(** The engine answers about turned polygons with turned answers. *)
Definition engine_turns (E : engine) : Prop :=
  (forall p o n, en_offset E (turn_path p) o n = rmap (map turn_path) (en_offset E p o n)) /\
  (forall s c, en_union E (map turn_path s) (map turn_path c) = rmap (map turn_node) (en_union E s c)) /\
  (forall s c, en_difference E (map turn_path s) (map turn_path c) = rmap (map turn_node) (en_difference E s c)) /\
  (forall f g, en_contains E (turn_face f) (turn_face g) = en_contains E f g).
End Turn.
