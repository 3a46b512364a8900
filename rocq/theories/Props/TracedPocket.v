(** * Property C117: the machine follows the contours of a pocket *)
From Verif Require Import Base.Str Base.Py Spec.Gcode Spec.Blocks Spec.Machine Spec.Program Spec.Jobs Spec.Axes Spec.Paths Spec.OnMachine Spec.Sides Spec.Traced Spec.TracedPocket
  Model.Groups Model.Geometry Model.Plane Model.Edges Model.Job Model.Routers Model.PocketOp
  Proofs.RouteEx Proofs.PocketEx Proofs.PocketOpEx Proofs.ProfileEx Proofs.OnMachineEx Proofs.TracedPocketP Proofs.TracedPocketEx Proofs.ChordEx.
Local Open Scope Qc_scope.
Local Open Scope list_scope.

(** ** C117 *)
(** The program of a pocket ends with one group of moves for each contour, in order: the tool comes
    down on it (or is fed over to it) and goes once round it, at its depth.
    Full statement: and makes no other cut, for every safe height and stepdown.  Missing (false in the
    code, C117_wall_refuted): after coming down the tool may go on along one chord; safe heights not
    above the surface; negative stepdowns. *)
Theorem C117_pocket_partial : forall K WK F E fuel h r areas avoids a tl h' r' j' st, user_heap h ->
  job_pocket K WK F E fuel h r areas avoids a tl = (h', Ok r') -> hget h' r' = Some j' -> job_printable h' j' -> ms_ended st = false ->
  0 < j_op_safe_height j' -> (forall s, pa_stepdown a = Some s -> 0 <= s) ->
  exists sequences p bs before groups, pocket_contours K F E j' areas avoids a sequences /\
    to_gcode h' r' = Ok p /\ parse_program p = Some bs /\ snd (run st bs) = before ++ concat groups /\ continues h r st before /\
    Forall2 (contour_traced (j_op_safe_height j') (j_plunge_feed j') (j_feed j')) (concat sequences) groups.
Proof. exact pocket_traced. Qed.
Print Assumptions C117_pocket_partial.
Example C117_example : user_heap [ex_job] /\
  job_pocket K0 flat_wk rect_fk box_engine 20 [ex_job] 0%nat [rface 0 0 10 8 (-2)] None (down_args 1) None = (pocket_heap, Ok 1%nat) /\
  (exists j, hget pocket_heap 1%nat = Some j /\ job_printable pocket_heap j /\ 0 < j_op_safe_height j) /\
  (forall s, pa_stepdown (down_args 1) = Some s -> 0 <= s) /\
  firstn 7 (cut_ends pocket_heap 1%nat) = [(Some 3, Some 3, Some (-1)); (Some 6, Some 3, Some (-1)); (Some 6, Some 4, Some (-1)); (Some 3, Some 4, Some (-1)); (Some 3, Some 3, Some (-1)); (Some 3, Some 3, Some (-1)); (Some 7, Some 3, Some (-1))]%Z.
Proof. exact (conj start_user ex_pocket_traced). Qed.

(** A pocket with two arms.  Neither the outline of the area nor the contours have a point in the strip
    between the arms, which goes on upwards for ever and so is outside; but the program cuts across it. *)
Theorem C117_wall_refuted : exists K WK F E fuel h r areas a h' r' j' st sequences p bs ev x0 y0 x1 y1 z c, user_heap h /\
  job_pocket K WK F E fuel h r areas None a None = (h', Ok r') /\ hget h' r' = Some j' /\ job_printable h' j' /\ ms_ended st = false /\
  pocket_contours K F E j' areas None a sequences /\
  (forall f e v, In f areas -> In e (fk_outer F (fk_transform F (j_top j') f)) -> of_edge e v -> ~ between_arms (vx v, vy v)) /\
  (forall f u v q, In f (concat sequences) -> In (u, v) (steps (pf_outer f)) -> on_segment q u v -> ~ between_arms q) /\
  to_gcode h' r' = Ok p /\ parse_program p = Some bs /\ In ev (snd (run st bs)) /\ ev_kind ev = GLinear /\
  ms_x (ev_from ev) = Some x0 /\ ms_y (ev_from ev) = Some y0 /\ ms_z (ev_from ev) = Some z /\ ms_x (ev_to ev) = Some x1 /\ ms_y (ev_to ev) = Some y1 /\ ms_z (ev_to ev) = Some z /\ z < 0 /\
  on_segment c (x0, y0) (x1, y1) /\ between_arms c.
Proof. exact wall_cut. Qed.
Print Assumptions C117_wall_refuted.
