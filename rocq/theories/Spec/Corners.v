(** * Specification: tabs of a wire that end at a corner *)
From Verif Require Import Base.Py Model.Tabs Spec.Wires Spec.Tabs.
Local Open Scope Qc_scope.
Local Open Scope list_scope.

(** [takes_wire_tabs] without its condition on corners. *)
Definition takes_wire_tabs_anywhere (TK : tab_kernel) (c : nat) (width : Qc) (es : list edge) : Prop :=
  let L := qsum (map e_length es) in
  connected es /\ es <> [] /\ tk_length TK es = L /\ width * qz (Z.of_nat c) <= L /\
  (forall e, In e es -> edge_sound e /\ edge_on_curve TK e /\ moved_vertically TK e /\ 0 < e_length e) /\
  forall r, In r (shares L 0 (map e_length es)) -> ~ wraps_behind c width L (fst r) (snd r).

(** A tab ends where two edges meet: the corners are the starts of all edges but the first. *)
Definition tab_ends_at_corner (c : nat) (width : Qc) (es : list edge) : Prop :=
  let L := qsum (map e_length es) in
  exists r k, In r (tl (shares L 0 (map e_length es))) /\ qabs (fst r - qz k / qz (Z.of_nat c)) * L = width / qz 2.
