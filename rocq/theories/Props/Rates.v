(** * Property C110: feed rates and heights on the machine are those asked for *)
From Verif Require Import Base.Str Base.Py Spec.Gcode Spec.Blocks Spec.Machine Spec.Program Spec.Jobs Spec.Feeds Spec.Axes Spec.Rapids Spec.Rates
  Model.Groups Model.Plane Model.Job Model.Drill Proofs.RouteEx Proofs.AxesEx Proofs.RatesP Proofs.RatesEx.
From Verif Require Proofs.ProgramEx.
Local Open Scope Qc_scope.
Local Open Scope list_scope.

(** A job is created with some arguments, then methods are called, each on the job answered by the one
    before.  The program makes one group of moves for each call.  Each feed move runs at the feed rate
    of the call (that of its tool, or the last one given), or goes straight down from the safe height
    at the plunge feed rate given (or else the feed rate given to Job).
    Full statement: also for several calls on one job, and all moves straight down from the safe height
    or into a hole at the plunge feed rate; both are false, see below. *)
Theorem C110_feeds_partial : forall top feed speed d n name pf rh sh prec u wp wo dm am pm co h r cs j st,
  let j0 := new_job top feed speed d n name pf rh sh prec u wp wo dm am pm co in
  user_heap h -> user_line h r j0 cs -> hget h r = Some j -> job_printable h j -> ms_ended st = false ->
  exists s bs groups, to_gcode h r = Ok s /\ parse_program s = Some bs /\ snd (run st bs) = concat groups /\
    Forall2 (fun c es => Forall (fed_event (height_asked sh u (qz 1) (qq 4 100)) (match pf with Some f => f | None => feed end) c) es) (calls_fed feed cs) groups.
Proof. exact asked_feeds. Qed.
Print Assumptions C110_feeds_partial.
(** Rapids go sideways at the heights given, or else at 10 and 1 mm, 0.4 and 0.04 inches. *)
Theorem C110_heights : forall top feed speed d n name pf rh sh prec u wp wo dm am pm co h r cs j st,
  let j0 := new_job top feed speed d n name pf rh sh prec u wp wo dm am pm co in
  user_heap h -> user_line h r j0 cs -> hget h r = Some j -> job_printable h j -> ms_ended st = false ->
  exists s bs, to_gcode h r = Ok s /\ parse_program s = Some bs /\
    forall e, In e (snd (run st bs)) -> ev_kind e = GRapid -> ~ same_xy e ->
      exists z, In z [height_asked rh u (qz 10) (qq 4 10); height_asked sh u (qz 1) (qq 4 100)] /\ ms_z (ev_from e) = Some (rounded 3 z) /\ ms_z (ev_to e) = Some (rounded 3 z).
Proof. exact asked_heights. Qed.
Print Assumptions C110_heights.
Example C110_example : user_heap two_heap /\ user_line two_heap 3%nat ex_job two_calls /\
  (exists j, hget two_heap 3%nat = Some j /\ job_printable two_heap j /\ map op_name (j_operations j) = ["Profile"; "Tool Change"; "Drill"]%string) /\
  runs (flat_map feeds (snd (run ProgramEx.st_off two_blocks))) =
    [(Some 100, 1); (Some 300, 4); (Some 100, 1); (Some 300, 4); (Some 100, 1); (Some 300, 4); (Some 80, 5)]%Z.
Proof. exact (conj two_user (conj two_line (conj two_printable two_feeds))). Qed.
(** Drilling goes straight down at the feed rate, not at the plunge feed rate. *)
Theorem C110_plunge_feed_refuted : exists h r j0 cs j s bs st e a b, user_heap h /\ user_line h r j0 cs /\ hget h r = Some j /\ to_gcode h r = Ok s /\ parse_program s = Some bs /\
  In e (snd (run st bs)) /\ is_feed_move (ev_kind e) = true /\ same_xy e /\ ms_z (ev_from e) = Some a /\ ms_z (ev_to e) = Some b /\ b < a /\
  ms_feed (ev_from e) <> Some (pyval (j_plunge_feed j0)).
Proof. exact drill_not_plunged. Qed.
Print Assumptions C110_plunge_feed_refuted.
(** A call with a tool changes the feed rate of later calls on the same job, which ask for none. *)
Theorem C110_several_calls_refuted : exists h h1 h2 r r1 r2 j0 o d t j2 m, user_line h r j0 [] /\ user_step h r ("Drill"%string, Some t) h1 r1 /\ user_step h1 r ("Drill"%string, None) h2 r2 /\
  job_drill h1 r o d None = (h2, Ok r2) /\ hget h2 r2 = Some j2 /\ In m (job_moves j2) /\ m_feed m <> None /\ m_feed m <> Some (j_feed j0) /\ m_feed m <> Some (j_plunge_feed j0).
Proof. exact feed_leaks. Qed.
Print Assumptions C110_several_calls_refuted.
