(** Engines whose answers do not depend on the order of the polygons they are given (C147). *)
From Verif Require Import Base.Py Model.Geometry Model.Pocket.
From Coq Require Import Permutation.
Local Open Scope list_scope.

Definition order_blind (E : engine) : Prop :=
  (forall ss ss' cs, Permutation ss ss' -> en_union E ss cs = en_union E ss' cs) /\
  (forall ss cs cs', Permutation cs cs' -> en_difference E ss cs = en_difference E ss cs').

(** The faces of a pocket at the depth [d]. *)
Definition at_depth (d : Qc) (fs : list pathface) : list pathface := filter (fun f => qeqb (pf_depth f) d) fs.
