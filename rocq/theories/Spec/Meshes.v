(** * Specification: triangles of shapes, holes of boundaries *)
From Verif Require Import Base.Py Model.Plane Model.Mesh.
Local Open Scope Qc_scope.
Local Open Scope list_scope.

(** The corner with number [k] (from 1). *)
Definition corner (f : mesh_face) (k : nat) (v : vec) : Prop := exists before after, mf_nodes f = before ++ v :: after /\ k = S (length before).
(** A triangle of a face, with corners as the triangulation stores them. *)
Definition stored (f : mesh_face) (t : nat * nat * nat) (tri : triangle) : Prop :=
  let '(a, b, c) := t in let '(u, v, w) := tri in corner f a u /\ corner f b v /\ corner f c w.
(** The same where the face really is. *)
Definition placed (f : mesh_face) (t : nat * nat * nat) (tri : triangle) : Prop :=
  exists u v w, stored f t (u, v, w) /\ tri = (mf_place f u, mf_place f v, mf_place f w).
Definition mesh_of (ok : mesh_face -> nat * nat * nat -> triangle -> Prop) (f : mesh_face) (ts : list triangle) : Prop :=
  exists ns, mf_triangles f = Some ns /\ Forall2 (ok f) ns ts.

(** Each hole goes to the first outline it is inside of. *)
Fixpoint sorted_into {F} (inside : F -> F -> bool) (outers holes : list F) : list (list F) :=
  match outers with
  | [] => []
  | o :: outers => filter (fun h => inside h o) holes :: sorted_into inside outers (filter (fun h => negb (inside h o)) holes)
  end.
