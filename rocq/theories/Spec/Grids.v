(** * Specification: coordinates on a grid *)
From Verif Require Import Base.Py Model.Geometry Model.Pocket Model.Grid Spec.Paths.
Local Open Scope Qc_scope.
Local Open Scope list_scope.

(** A multiple of 2^-31. *)
Definition on_grid (x : Qc) : Prop := exists k : Z, x = qz k / qz (2 ^ 31)%Z.
Definition path_on_grid (p : path) : Prop := Forall (fun a => on_grid (fst a) /\ on_grid (snd a)) p.
Definition face_on_grid (f : pathface) : Prop := path_on_grid (pf_outer f) /\ Forall path_on_grid (pf_inners f).

(** [y] is the last grid value met on the way from 0 to [x]. *)
Definition snaps (x y : Qc) : Prop :=
  on_grid y /\ (0 <= x -> 0 <= y /\ y <= x) /\ (x <= 0 -> x <= y /\ y <= 0) /\ qabs (x - y) < 1 / qz (2 ^ 31)%Z.
Definition path_snaps : path -> path -> Prop := Forall2 (fun a b => snaps (fst a) (fst b) /\ snaps (snd a) (snd b)).
Definition face_snaps (f g : pathface) : Prop :=
  path_snaps (pf_outer f) (pf_outer g) /\ Forall2 path_snaps (pf_inners f) (pf_inners g) /\ pf_depth f = pf_depth g.

(** Integer points in units of 2^-31, as numbers. *)
Definition units : list (Z * Z) -> path -> Prop :=
  Forall2 (fun k a => fst a = qz (fst k) / qz (2 ^ 31)%Z /\ snd a = qz (snd k) / qz (2 ^ 31)%Z).
(** The same for the nodes of a tree. *)
Fixpoint node_units (n : znode) (m : polynode) : Prop :=
  let '(ZNode z ns) := n in let '(PNode c ms) := m in
  units z c /\ (fix all ns ms := match ns, ms with [], [] => True | n :: ns, m :: ms => node_units n m /\ all ns ms | _, _ => False end) ns ms.
