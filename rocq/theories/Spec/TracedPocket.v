(** * Specification: contours of pockets traced by the machine *)
From Verif Require Import Base.Str Base.Py Spec.Gcode Spec.Blocks Spec.Machine Spec.Paths Spec.Program Spec.Rapids Spec.OnMachine Spec.Contours Spec.Pockets Spec.PocketCq Spec.Traced
  Model.Geometry Model.Plane Model.Edges Model.Job Model.Routers Model.Interp Model.PocketOp.
Import Model.Pocket.
Local Open Scope Qc_scope.
Local Open Scope list_scope.

(** A straight feed move between two points of one level, coordinates as printed. *)
Definition at_level (d : Qc) (p : pt) : vec := V3 (fst p) (snd p) d.
Definition segment_made (feed : pynum) (d : Qc) (ab : pt * pt) (e : event) : Prop :=
  ev_kind e = GLinear /\ feeds_at feed e /\ stands_at (at_level d (fst ab)) (ev_from e) /\ stands_at (at_level d (snd ab)) (ev_to e).
(** The tool comes straight down from the safe height, or is fed over from where it is; then it goes
    once round the contour.  After coming down it may go on along one chord (C25_chord_refuted). *)
Definition contour_traced (safe : Qc) (plunge_feed feed : pynum) (f : pathface) (es : list event) : Prop :=
  exists entry down cuts round chord, es = entry ++ cuts /\ feed_moves entry = [down] /\ ev_kind down = GLinear /\
    ms_z (ev_to down) = Some (rounded 3 (pf_depth f)) /\
    (same_xy down /\ ms_z (ev_from down) = Some (rounded 3 safe) /\ ms_feed (ev_from down) = Some (pyval plunge_feed) \/
     entry = [down] /\ ms_feed (ev_from down) = Some (pyval feed) /\ chord = []) /\
    tour (pf_outer f) round /\ chord_of (pf_outer f) chord /\
    Forall2 (segment_made feed (pf_depth f)) (round ++ chord) cuts.

(** The contours cut for a pocket: the areas in the coordinates of the job, offset by the distances
    meant by the arguments, made into levels, filled and stepped down. *)
Definition pocket_contours (K : kernel) (F : face_kernel) (E : engine) (j : job) (areas : list (fk_face F)) (avoids : option (list (fk_face F)))
  (a : pocket_args) (sequences : list (list pathface)) : Prop :=
  exists r ps qs opss avss pockets, tool_radius j = Some r /\
    Forall2 (fun f p => from_cq_face K F (j_precision j) (fk_transform F (j_top j) f) = Ok p) areas ps /\
    Forall2 (fun f p => from_cq_face K F (j_precision j) (fk_transform F (j_top j) f) = Ok p) (listed avoids) qs /\
    Forall2 (offset_face E (outer_distance r avoids a) (distance r (pa_inner a) 1) (j_precision j)) ps opss /\
    Forall2 (offset_face E (distance r (pa_avoid_outer a) 1) (distance r (pa_avoid_inner a) (- (1))) (j_precision j)) qs avss /\
    levels E (concat opss) (concat avss) pockets /\
    pocketed E (distance r (pa_stepover a) (qq 1 2)) (pa_stepdown a) (j_precision j) [] pockets sequences.
