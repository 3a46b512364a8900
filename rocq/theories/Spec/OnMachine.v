(** * Specification: holes and floors on the machine *)
From Verif Require Import Base.Str Base.Py Spec.Gcode Spec.Blocks Spec.Machine Spec.Paths Spec.Program Spec.Profiles Model.Geometry Model.Edges Model.Plane Model.Job Model.Routers Model.Tabs Model.Profile.
Local Open Scope Qc_scope.
Local Open Scope list_scope.

(** The same machine but for the spindle speed. *)
Definition but_speed (a b : mstate) : Prop := exists v,
  b = MS (ms_x a) (ms_y a) (ms_z a) (ms_spindle a) v (ms_mist a) (ms_flood a) (ms_selected a) (ms_tool a) (ms_length a)
        (ms_plane a) (ms_units a) (ms_radius a) (ms_wcs a) (ms_path a) (ms_dist a) (ms_feedmode a) (ms_feed a) (ms_motion a) (ms_ended a).
(** The same move, but for the spindle speed. *)
Definition same_move (a b : event) : Prop :=
  ev_kind a = ev_kind b /\ but_speed (ev_from a) (ev_from b) /\ but_speed (ev_to a) (ev_to b) /\
  ev_i a = ev_i b /\ ev_j a = ev_j b /\ ev_k a = ev_k b.
(** [before] are the moves of the program the job at [r] would have printed. *)
Definition continues (h : heap) (r : ref) (st : mstate) (before : list event) : Prop :=
  forall j, hget h r = Some j -> job_printable h j ->
  exists s bs, to_gcode h r = Ok s /\ parse_program s = Some bs /\ Forall2 same_move (snd (run st bs)) before.

(** The machine cuts straight down at [p] from the surface to [bottom]; coordinates as printed. *)
Definition hole_made (bottom : Qc) (feed : pynum) (p : pt) (e : event) : Prop :=
  ev_kind e = GLinear /\ ms_feed (ev_from e) = Some (pyval feed) /\
  ms_x (ev_from e) = Some (rounded 3 (fst p)) /\ ms_y (ev_from e) = Some (rounded 3 (snd p)) /\ ms_z (ev_from e) = Some 0 /\
  ms_x (ev_to e) = Some (rounded 3 (fst p)) /\ ms_y (ev_to e) = Some (rounded 3 (snd p)) /\ ms_z (ev_to e) = Some (rounded 3 bottom).
Definition feed_moves (es : list event) : list event := filter (fun e => is_feed_move (ev_kind e)) es.

(** A move ends at a known height, not below [floor] as printed. *)
Definition not_below (floor : Qc) (e : event) : Prop := exists z, ms_z (ev_to e) = Some z /\ rounded 3 floor <= z.

(** A profile at [z] cut in [n + 1] passes, a stepdown apart (one without a stepdown); every pass cuts,
    and all its feed moves end at the height of the pass, as printed. *)
Definition pass_made (height : Qc) (es : list event) : Prop :=
  feed_moves es <> [] /\ Forall (fun e => ms_z (ev_to e) = Some (rounded 3 height)) (feed_moves es).
Definition profile_made (sd : option Qc) (b : list edge) (es : list event) : Prop :=
  exists z s n passes, flat z b /\ passes_needed sd z s n /\ es = concat passes /\ length passes = S n /\
    forall k p, nth_error passes k = Some p -> pass_made (z + qz (Z.of_nat (n - k)) * s) p.
(** The offset wires of the wires of a shape, in the job plane; none if no offset is given. *)
Definition offsets_of (K : kernel) (WK : wire_kernel) (top : plane) (radius : Qc) (ws : list (list edge)) (o : option Qc) (bases : list (list edge)) : Prop :=
  match o with
  | None => bases = []
  | Some o => exists bss, Forall2 (fun w bs => offset_wire K WK (wk_transform WK top w) (o * radius) = Ok bs) ws bss /\ bases = concat bss
  end.
