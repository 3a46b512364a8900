(** * Specification: profiles *)
From Verif Require Import Base.Str Base.Py Model.Profile Spec.Moves Spec.Wires.
Local Open Scope Qc_scope.
Local Open Scope list_scope.

(** ** What is assumed of the kernel *)
(** Moving a wire up moves its lowest point up. *)
Definition lifts (TK : tab_kernel) (WK : wire_kernel) (base : list edge) : Prop :=
  forall dz, tk_zmin TK (wk_moved WK base dz) = tk_zmin TK base + dz.
(** The wire, moved anywhere below the surface, is clear of the plane the code cuts it with. *)
Definition clear_of_top (TK : tab_kernel) (WK : wire_kernel) (top : plane) (base : list edge) : Prop :=
  forall dz, tk_zmin TK (wk_moved WK base dz) < qq (-1) 1000 -> wk_below WK top (wk_moved WK base dz) = Ok true.

(** ** Offsets *)
(** A wire that is one edge, with ends the kernel takes for the same point. *)
Definition lone_circle (K : kernel) (w : list edge) : Prop := exists e, w = [e] /\ k_veq K (e_startPoint e) (e_endPoint e) = true.
Definition large_wire (WK : wire_kernel) (w : list edge) : Prop := exists a, wk_area WK w = Ok a /\ qq 1 10 < a.
(** The members with [P], in order. *)
Inductive picked {A} (P : A -> Prop) : list A -> list A -> Prop :=
  | picked_nil : picked P [] []
  | picked_yes a l l' : P a -> picked P l l' -> picked P (a :: l) (a :: l')
  | picked_no a l l' : ~ P a -> picked P l l' -> picked P (a :: l) l'.

(** ** Layers *)
(** [n] layers, a stepdown [s] apart, fit between a profile at [z] and the surface (up to a
    thousandth). *)
Definition layers_needed (z s : Qc) (n : nat) : Prop :=
  (n = O \/ z + qz (Z.of_nat n) * s < qq (-1) 1000) /\ qq (-1) 1000 <= z + qz (Z.of_nat n + 1) * s.

(** A stepdown of 0 is none. *)
Definition stepped (sd : option Qc) : Prop := exists s, sd = Some s /\ s <> 0.
(** [n] passes before the last, [s] apart: none without a stepdown. *)
Definition passes_needed (sd : option Qc) (z s : Qc) (n : nat) : Prop :=
  (sd = Some s /\ 0 < s /\ layers_needed z s n) \/ (~ stepped sd /\ n = O).

(** ** Wires of shapes *)
Definition outer_of (s : shape) : list (list edge) :=
  match s with SWire w => [w] | SFace o _ => [o] | SOther => [] end.
Definition inners_of (s : shape) : list (list edge) :=
  match s with SFace _ is_ => is_ | _ => [] end.
Definition supported (s : shape) : Prop := s <> SOther.

(** The commands for a list of wires: those of each wire, profiled with the same offset, in order;
    nothing if there is no offset. *)
Definition profiled_with (prof : list edge -> Qc -> result (list motion)) (wires : list (list edge))
  (offset : option Qc) (cmds : list motion) : Prop :=
  match offset with
  | None => cmds = []
  | Some o => exists gs, cmds = concat gs /\ Forall2 (fun w g => prof w o = Ok g) wires gs
  end.

(** ** Heights *)
Definition edge_heights (P : Qc -> Prop) (e : edge) : Prop :=
  P (vz (e_startPoint e)) /\ P (vz (e_endPoint e)) /\ (forall p, P (vz (e_param e p))) /\ (forall d, P (vz (e_pos e d))).
(** A wire in a horizontal plane. *)
Definition flat (z : Qc) (w : list edge) : Prop := w <> [] /\ forall e, In e w -> edge_heights (fun h => h = z) e.
(** The cutting moves end at heights satisfying [P]. *)
Definition cuts_at (P : Qc -> Prop) (g : list motion) : Prop :=
  Forall (fun m => ~ rapid m -> exists z, az (m_end m) = Some z /\ P z) g.
(** Moving a flat wire up gives a flat wire; its bounding box is at its height. *)
Definition rigid (TK : tab_kernel) (WK : wire_kernel) : Prop :=
  (forall w z, flat z w -> tk_zmin TK w = z) /\ (forall w z dz, flat z w -> flat (z + dz) (wk_moved WK w dz)).
