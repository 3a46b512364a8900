(** * Programs for work that is turned about or mirrored *)
From Verif Require Import Base.Str Base.Py Spec.Gcode Spec.Machine Spec.Alike Spec.Turn Spec.TurnWire Model.Groups Model.Geometry Model.Plane Model.Command Model.Job.
Local Open Scope Qc_scope.
Local Open Scope list_scope.

(** ** Two users, the second of whom has turned the work *)
(** A command that names X and Y together or neither; arcs know where they start and their centre. *)
Definition both (v : avec) : Prop := exists x y, ax v = Some x /\ ay v = Some y.
Definition neither (v : avec) : Prop := ax v = None /\ ay v = None.
Definition whole_motion (m : motion) : Prop :=
  (both (m_end m) \/ neither (m_end m)) /\ match m with MArc _ s _ c _ _ _ => both s /\ both c | _ => True end.
Definition whole_command (c : command) : Prop := match c with Motion m => whole_motion m | Config _ => True end.
(** An operation on the turned work: for every job on the plane [top] it makes the commands of the other,
    turned, or the same error. *)
Definition turned_gen (top : plane) (T : pt -> pt) (o : Qc) (gen gen' : job -> result (list command)) : Prop :=
  forall j, j_top j = top -> gen' j = rmap (map (turn_order T o)) (gen j) /\ (forall cs, gen j = Ok cs -> Forall whole_command cs).
(** Both make the same jobs, and the same calls but for the turned work. *)
Inductive turned_sessions (top : plane) (T : pt -> pt) (o : Qc) : heap -> heap -> Prop :=
| turned_start : turned_sessions top T o [] []
| turned_made h h' j : turned_sessions top T o h h' -> j_top j = top -> j_operations j = [] -> turned_sessions top T o (h ++ [j]) (h' ++ [j])
| turned_call h h' r t name gen gen' : turned_sessions top T o h h' -> settled gen -> turned_gen top T o gen gen' ->
    turned_sessions top T o (fst (fluent_op h r t name gen)) (fst (fluent_op h' r t name gen')).

(** ** On the machine *)
Definition close (e : Qc) (a b : pt) : Prop := qabs (fst b - fst a) <= e /\ qabs (snd b - snd a) <= e.
(** Two pairs of numbers of which the second is the first turned by [F], up to [e] along both axes; or
    all unknown. *)
Definition turned_pair (e : Qc) (F : pt -> pt) (a b a' b' : option Qc) : Prop :=
  match a, b, a', b' with
  | Some x, Some y, Some x', Some y' => close e (F (x, y)) (x', y')
  | None, None, None, None => True
  | _, _, _, _ => False
  end.
(** Directions are turned but not moved. *)
Definition direction (T : pt -> pt) (v : pt) : pt := (fst (T v) - fst (T (0, 0)), snd (T v) - snd (T (0, 0))).
Definition turn_kind (o : Qc) (k : gmotion) : gmotion :=
  if mirrored o then match k with GArcCW => GArcCCW | GArcCCW => GArcCW | _ => k end else k.
(** All but the place in the plane and the kind of the last move. *)
Definition no_place (st : mstate) : mstate :=
  MS None None (ms_z st) (ms_spindle st) (ms_speed st) (ms_mist st) (ms_flood st)
     (ms_selected st) (ms_tool st) (ms_length st) (ms_plane st) (ms_units st) (ms_radius st)
     (ms_wcs st) (ms_path st) (ms_dist st) (ms_feedmode st) (ms_feed st) None (ms_ended st).
Definition turned_state (e : Qc) (T : pt -> pt) (o : Qc) (s s' : mstate) : Prop :=
  no_place s = no_place s' /\ ms_motion s' = option_map (turn_kind o) (ms_motion s) /\ turned_pair e T (ms_x s) (ms_y s) (ms_x s') (ms_y s').
(** The same move, turned: mirrored arcs go the other way round, and their centre words are turned. *)
Definition turned_event (e : Qc) (T : pt -> pt) (o : Qc) (m m' : event) : Prop :=
  ev_kind m' = turn_kind o (ev_kind m) /\ turned_state e T o (ev_from m) (ev_from m') /\ turned_state e T o (ev_to m) (ev_to m') /\
  turned_pair e (direction T) (ev_i m) (ev_j m) (ev_i m') (ev_j m') /\ ev_k m = ev_k m'.
(** Quarter turns, mirrored or not, and moved by even numbers of thousandths. *)
Definition quarters (T : pt -> pt) (o : Qc) : Prop :=
  exists c s d, ((c = 0 /\ (s = 1 \/ s = -(1))) \/ ((c = 1 \/ c = -(1)) /\ s = 0)) /\ (o = 1 \/ o = -(1)) /\
    (exists n, fst d = qz n * qq 1 500) /\ (exists n, snd d = qz n * qq 1 500) /\ forall p, T p = turned c s o d p.
