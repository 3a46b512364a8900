(** * Specification: lists of motion commands as tool movements *)
From Verif Require Import Base.Str Base.Py Spec.Paths Model.Geometry Model.Command.
Local Open Scope Qc_scope.

Definition rapid (m : motion) : Prop := match m with MRapid _ _ _ _ => True | _ => False end.
Definition straight_cut (m : motion) : Prop := match m with MCut _ _ _ _ _ => True | _ => False end.

(** Every command starts where the one before ended, the first one at [p]. *)
Fixpoint continuous (p : avec) (ms : list motion) : Prop :=
  match ms with [] => True | m :: ms => m_start m = p /\ continuous (m_end m) ms end.
(** Where the tool is after [ms]. *)
Fixpoint after (p : avec) (ms : list motion) : avec :=
  match ms with [] => p | m :: ms => after (m_end m) ms end.

(** No sideways movement; no movement along Z. *)
Definition vertical (m : motion) : Prop := ax (m_end m) = ax (m_start m) /\ ay (m_end m) = ay (m_start m).
Definition at_height (m : motion) (z : Qc) : Prop := az (m_start m) = Some z /\ az (m_end m) = Some z.

(** Rapids: up to the rapid height, sideways at the rapid height, or down from it to the safe height. *)
Definition safe_rapid (R S : Qc) (m : motion) : Prop :=
  (vertical m /\ az (m_end m) = Some R) \/
  at_height m R \/
  (vertical m /\ az (m_start m) = Some R /\ az (m_end m) = Some S).

(** A feed plunge from height [S] down to [d]. *)
Definition plunge (S d : Qc) (f : pynum) (m : motion) : Prop :=
  straight_cut m /\ vertical m /\ az (m_start m) = Some S /\ az (m_end m) = Some d /\ d < S /\
  m_feed m = Some f.

(** The XY segment of a command, if its ends are known. *)
Definition xy (v : avec) : option pt :=
  match ax v, ay v with Some x, Some y => Some (x, y) | _, _ => None end.
Definition segment_of (m : motion) (a b : pt) : Prop := xy (m_start m) = Some a /\ xy (m_end m) = Some b.

(** Both ends known in XYZ. *)
Definition at_point (v : avec) (p : vec) : Prop := v = from_vector p.

(** The XY segments moved along. *)
Definition segs (ms : list motion) : list (pt * pt) :=
  flat_map (fun m => match xy (m_start m), xy (m_end m) with Some a, Some b => [(a, b)] | _, _ => [] end) ms.

(** Both ends on one edge of the path. *)
Definition along (p : path) (a b : pt) : Prop :=
  exists u v, In (u, v) (steps p) /\ on_segment a u v /\ on_segment b u v.

(** The commands move along the listed XY segments, one each. *)
Definition moves_along (ms : list motion) (es : list (pt * pt)) : Prop :=
  Forall2 (fun m e => segment_of m (fst e) (snd e)) ms es.

Definition is_retract (m : motion) : bool := match m with MRapid KRetract _ _ _ => true | _ => false end.
(** How often the tool is lifted out. *)
Definition retracts (ms : list motion) : nat := List.length (filter is_retract ms).
