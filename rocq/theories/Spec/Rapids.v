(** * Specification: rapids on the machine *)
From Verif Require Import Base.Str Base.Py Spec.Gcode Spec.Blocks Spec.Machine Model.Groups Model.Job.
Local Open Scope Qc_scope.
Local Open Scope list_scope.

(** The height at which an operation travels sideways, and how far down it may rapid from there:
    the rapid height and the safe height; drilling: the safe height and the surface. *)
Definition travel_height (j : job) (o : operation) : Qc :=
  if String.eqb (op_name o) "Drill" then j_op_safe_height j else j_rapid_height j.
Definition approach_height (j : job) (o : operation) : Qc :=
  if String.eqb (op_name o) "Drill" then 0 else j_op_safe_height j.

(** A rapid of the machine: straight to height [H], sideways at height [H], or straight from [H] to
    height [L]; heights as printed. *)
Definition same_xy (e : event) : Prop := ms_x (ev_to e) = ms_x (ev_from e) /\ ms_y (ev_to e) = ms_y (ev_from e).
Definition clear_rapid (H L : Qc) (e : event) : Prop :=
  (same_xy e /\ ms_z (ev_to e) = Some (rounded 3 H)) \/
  (ms_z (ev_from e) = Some (rounded 3 H) /\ ms_z (ev_to e) = Some (rounded 3 H)) \/
  (same_xy e /\ ms_z (ev_from e) = Some (rounded 3 H) /\ ms_z (ev_to e) = Some (rounded 3 L)).
