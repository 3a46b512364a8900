(** * Specification: the feed rates and heights asked for *)
From Verif Require Import Base.Str Base.Py Spec.Gcode Spec.Blocks Spec.Machine Spec.Feeds Spec.Rapids
  Model.Groups Model.Geometry Model.Plane Model.Edges Model.Job Model.Routers Model.Profile Model.Drill Model.Pocket Model.PocketOp
  Model.Strategy Model.Surface.
Local Open Scope Qc_scope.
Local Open Scope list_scope.

(** A successful call of a method of Job on the job at [r], with its name and its tool argument, and
    the job it answers. *)
Inductive user_step : heap -> ref -> string * option tool -> heap -> ref -> Prop :=
| step_profile h r h' r' K TK WK shapes oo io sd t tl :
    job_profile K TK WK h r shapes oo io sd t tl = (h', Ok r') -> user_step h r ("Profile"%string, tl) h' r'
| step_wire_profile h r h' r' K TK WK ws o sd t tl :
    job_wire_profile K TK WK h r ws o sd t tl = (h', Ok r') -> user_step h r ("Wire Profile"%string, tl) h' r'
| step_pocket h r h' r' K WK F E fuel areas avoids a tl :
    job_pocket K WK F E fuel h r areas avoids a tl = (h', Ok r') -> user_step h r ("Pocket"%string, tl) h' r'
| step_drill h r h' r' o d tl :
    job_drill h r o d tl = (h', Ok r') -> user_step h r ("Drill"%string, tl) h' r'
| step_surface h r h' r' K C a objects :
    job_surface3d h r K C a objects = (h', Ok r') -> user_step h r ("Surface 3D"%string, None) h' r'.

(** [user_line h r j0 cs]: the job at [r] was created as [j0], then each call of [cs] was made on the
    job the one before answered.  Whatever is done in between leaves that job alone. *)
Inductive user_line : heap -> ref -> job -> list (string * option tool) -> Prop :=
| line_new h j0 : j_operations j0 = [] -> user_line (h ++ [j0]) (List.length h) j0 []
| line_call h r j0 cs c h' r' : user_line h r j0 cs -> user_step h r c h' r' -> user_line h' r' j0 (cs ++ [c])
| line_other h r j0 cs h' : user_line h r j0 cs -> hget h' r = hget h r -> user_line h' r j0 cs.

(** The feed rate of each call: that of its tool, or else the one before. *)
Definition feed_asked (f : pynum) (c : string * option tool) : pynum :=
  match snd c with Some t => match t_feed t with Some f' => f' | None => f end | None => f end.
Fixpoint calls_fed (f : pynum) (cs : list (string * option tool)) : list (string * pynum) :=
  match cs with [] => [] | c :: cs => (fst c, feed_asked f c) :: calls_fed (feed_asked f c) cs end.

(** Cuts at feed rate [F], or straight down from the safe height [S] at the plunge feed [P] (never when
    drilling).  Cuts of surface operations have no feed rate of their own (C59). *)
Definition fed_event (S : Qc) (P : pynum) (call : string * pynum) (e : event) : Prop :=
  is_feed_move (ev_kind e) = true -> fst call <> "Surface 3D"%string ->
  ms_feed (ev_from e) = Some (pyval (snd call)) \/
  (fst call <> "Drill"%string /\ same_xy e /\ ms_z (ev_from e) = Some (rounded 3 S) /\ ms_feed (ev_from e) = Some (pyval P)).

(** What the arguments of Job ask for. *)
Definition height_asked (given : option Qc) (unit : unit_code) (mm inch : Qc) : Qc :=
  match given with Some h => h | None => match unit with METRIC => mm | IMPERIAL => inch end end.
