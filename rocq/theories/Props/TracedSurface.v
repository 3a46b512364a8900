(** * Property C118: the machine scans the surface *)
From Verif Require Import Base.Str Base.Py Spec.Gcode Spec.Blocks Spec.Machine Spec.Program Spec.Jobs Spec.Axes Spec.OnMachine Spec.TracedSurface
  Model.Groups Model.Geometry Model.Plane Model.Edges Model.Job Model.Strategy Model.Surface
  Proofs.RouteEx Proofs.ZigzagEx Proofs.SurfaceEx Proofs.OnMachineEx Proofs.TracedSurfaceP Proofs.TracedSurfaceEx.
Local Open Scope Qc_scope.
Local Open Scope list_scope.

(** ** C118 *)
(** The program of a surface operation ends with the moves for each boundary, pass by pass and run by
    run; every cut ends at a scanned point, at the height answered for it or at the depth of the pass. *)
Theorem C118_surface : forall K C a objects h r h' r' j' st, user_heap h ->
  job_surface3d h r K C a objects = (h', Ok r') -> hget h' r' = Some j' -> job_printable h' j' -> ms_ended st = false ->
  exists faces zmin bs p blocks before areas, boundaries K a (j_top j') objects faces bs /\ sk_zmin K (j_top j') faces = Ok zmin /\
    to_gcode h' r' = Ok p /\ parse_program p = Some blocks /\ snd (run st blocks) = before ++ concat areas /\ continues h r st before /\
    Forall2 (surface_made K C a j' faces zmin) bs areas.
Proof. exact surface_traced. Qed.
Print Assumptions C118_surface.
Example C118_example : user_heap [ex_job] /\
  job_surface3d [ex_job] 0%nat (slope_kernel stairs (qz (-3))) (scan_answer ex_lines) (ex_args (Some (qz (-2))) 0) (slope_objects stairs (qz (-3))) = (stairs_heap, Ok 1%nat) /\
  (exists j, hget stairs_heap 1%nat = Some j /\ job_printable stairs_heap j) /\
  cut_ends stairs_heap 1%nat =
   [(Some 10, Some 2, Some (-2)); (Some 10, Some 2, Some (-2)); (Some 10, Some 5, Some (-2)); (Some 10, Some 5, Some (-2)); (Some 5, Some 5, Some (-1)); (Some 10, Some 8, Some (-2));
    (Some 10, Some 2, Some (-3)); (Some 10, Some 2, Some (-3)); (Some 10, Some 5, Some (-3)); (Some 10, Some 5, Some (-3)); (Some 5, Some 5, Some (-1)); (Some 10, Some 8, Some (-3))]%Z.
Proof. exact (conj start_user ex_surface_traced). Qed.
