(** * Specification: contours on one side of a line *)
From Verif Require Import Base.Py Model.Geometry Model.Pocket Model.Edges Spec.Wires.
Local Open Scope Qc_scope.
Local Open Scope list_scope.

(** How far the point [a] is in the direction [n] (of length 1). *)
Definition reach (n a : pt) : Qc := fst n * fst a + snd n * snd a.
Definition unit_length (n : pt) : Prop := fst n * fst n + snd n * snd n = 1.
(** The path reaches no farther than [lim]. *)
Definition within (n : pt) (lim : Qc) (p : path) : Prop := forall a, In a p -> reach n a <= lim.

(** Polygons offset inwards by [- o] reach that much less far, and boolean operations do not make
    polygons reach farther. *)
Definition stays_within (E : engine) (n : pt) : Prop :=
  (forall p o precision raw lim, o <= 0 -> en_offset E p o precision = Ok raw -> within n lim p -> Forall (within n (lim + o)) raw) /\
  (forall ss t lim, en_union E ss [] = Ok t -> Forall (within n lim) ss -> Forall (fun node => within n lim (contour node)) t) /\
  (forall ss cs t lim, en_difference E ss cs = Ok t -> Forall (within n lim) ss -> Forall (fun node => within n lim (contour node)) t).

(** The ends of an edge and its points in between. *)
Definition of_edge (e : edge) (v : vec) : Prop :=
  v = travel_start e \/ v = travel_end e \/ exists t, 0 <= t /\ t <= 1 /\ v = travel_pos e t.
