(** * Specification: the layers of a profile *)
From Verif Require Import Base.Str Base.Py Model.Profile Spec.Moves Spec.Wires Spec.Profiles.
Local Open Scope Qc_scope.
Local Open Scope list_scope.

(** ** Layers, whatever the plane does *)
(** The code cuts a layer: it is below the surface and the plane leaves something of it. *)
Definition layer_cut (TK : tab_kernel) (WK : wire_kernel) (top : plane) (w : list edge) : Prop :=
  tk_zmin TK w < qq (-1) 1000 /\ wk_below WK top w = Ok true.
Definition layer_dropped (TK : tab_kernel) (WK : wire_kernel) (top : plane) (w : list edge) : Prop :=
  qq (-1) 1000 <= tk_zmin TK w \/ wk_below WK top w = Ok false.
(** The plane removes the copies of the wire that are at the height [h], and keeps the others. *)
Definition removes_at (TK : tab_kernel) (WK : wire_kernel) (top : plane) (base : list edge) (h : Qc) : Prop :=
  forall dz, let w := wk_moved WK base dz in tk_zmin TK w < qq (-1) 1000 ->
    (tk_zmin TK w = h -> wk_below WK top w = Ok false) /\ (tk_zmin TK w <> h -> wk_below WK top w = Ok true).
(** The number of layers above a wire at [z], [s] apart, when one at [h] ends them: all that are
    needed, or those under the one at [h]. *)
Definition layers_under (h z s : Qc) (n : nat) : Prop :=
  (layers_needed z s n /\ forall k, (0 < k <= n)%nat -> z + qz (Z.of_nat k) * s <> h) \/
  (z + qz (Z.of_nat (S n)) * s = h /\ h < qq (-1) 1000).
