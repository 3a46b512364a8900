(** * Model of /repo/src/cq_cam/visualize.py, [to_ais_shape] of command.py, [show] and [to_shapes] of fluent.py *)
From Verif Require Import Base.Str Model.Plane Model.Job.
Local Open Scope string_scope.
Local Open Scope list_scope.

(** What is passed as a point to the CAD kernel: a cq.Vector, or (command.py:351,354) the
    AddressVector of a command. *)
Inductive point_arg := PVector (v : vec) | PAddress (a : avec).

(** The CAD kernel, answering [cq.Edge.makeLine], [cq.Edge.makeThreePointArc], [==] of cq.Vectors
    (which has a tolerance) and [Shape.transformShape(plane.rG)]. *)
Record visual_kernel := VK {
  vk_edge : Type;
  vk_line : point_arg -> point_arg -> result vk_edge;
  vk_arc : point_arg -> point_arg -> point_arg -> result vk_edge;
  vk_same : vec -> vec -> bool;
  vk_place : plane -> vk_edge -> result vk_edge }.

(** What is displayed: an edge, or an AIS_Line between two points (command.py:185-187, 283-285). *)
Inductive ais (K : visual_kernel) := AisLine (a b : vec) (arrow : bool) | AisEdge (e : vk_edge K).
Arguments AisLine {K}. Arguments AisEdge {K}.

(** command.py:172-176, 270-274: missing start coordinates are shown as 0. *)
Definition shown_start (a : avec) : vec :=
  let z (c : option Qc) := match c with Some c => c | None => 0%Qc end in V3 (z (ax a)) (z (ay a)) (z (az a)).

(** command.py:134-135, 208, 212, 227, 297: the colours.  Only [ais_color] is overridden. *)
Definition ais_color (m : motion) : string :=
  match m with
  | MRapid KRapid _ _ _ => "green" | MRapid KPlungeRapid _ _ _ => "yellow" | MRapid KRetract _ _ _ => "blue"
  | MCut KCut _ _ _ _ => "red" | MCut KPlungeCut _ _ _ _ => "yellow"
  | MArc _ _ _ _ _ _ _ => "red"
  end.
Definition ais_alt_color (m : motion) : string := "darkred".

Section Kernel.
Variable K : visual_kernel.

(** command.py:338-357: the edge of an arc.  [to_vector] is outside the [try]. *)
Definition arc_edge (st en mid : avec) : result (option (vk_edge K)) :=
  do e <- to_vector en st false;
  do m <- to_vector mid st false;
  match vk_arc K (PAddress st) (PVector m) (PVector e) with
  | Ok s => Ok (Some s)
  | Err _ => match vk_line K (PAddress st) (PVector e) with Ok s => Ok (Some s) | Err _ => Ok None end
  end.
(** command.py:171-183, 269-281 and 337-359 with [as_edges=True]. *)
Definition motion_edge (m : motion) : result (option (vk_edge K)) :=
  match m with
  | MRapid _ st en _ | MCut _ st en _ _ =>
      let start := shown_start st in
      do e <- to_vector en (from_vector start) false;
      if vk_same K start e then Ok None else do s <- vk_line K (PVector start) (PVector e); Ok (Some s)
  | MArc _ st en _ mid _ _ => arc_edge st en mid
  end.
(** command.py:171-195, 269-293 and 337-364 with [as_edges=False]: the object and its colour. *)
Definition motion_ais (m : motion) (alt : bool) : result (option (ais K * string)) :=
  let color := if alt then ais_alt_color m else ais_color m in
  match m with
  | MRapid _ st en arrow | MCut _ st en arrow _ =>
      let start := shown_start st in
      do e <- to_vector en (from_vector start) false;
      if vk_same K start e then Ok None else Ok (Some (AisLine start e arrow, color))
  | MArc _ st en _ mid _ _ => do s <- arc_edge st en mid; Ok (option_map (fun s => (AisEdge s, color)) s)
  end.

(** visualize.py:71-88 [visualize_job_as_edges].  Configuration commands have no [to_ais_shape]. *)
Fixpoint visualize_job_as_edges (top : plane) (cs : list command) : result (list (vk_edge K)) :=
  match cs with
  | [] => Ok []
  | c :: cs =>
      do shape <- match c with Motion m => motion_edge m | Config _ => Err AttributeError end;
      do edge <- match shape with None => Ok [] | Some s => do e <- vk_place K top s; Ok [e] end;
      do rest <- visualize_job_as_edges top cs;
      Ok (edge ++ rest)
  end.
(** visualize.py:22-46 [visualize_job_plane]: three edges with their colours. *)
Definition visualize_job_plane (top : plane) (length : Qc) : result (list (vk_edge K * string)) :=
  mapM (fun dc => do e <- vk_line K (PVector (p_origin top)) (PVector (vadd (p_origin top) (vscale length (fst dc)))); Ok (e, snd dc))
    [(p_xdir top, "red"); (p_ydir top, "green"); (p_zdir top, "blue")].
(** visualize.py:57-62: the objects of the command group with their colours; [alt] is [i % 2]. *)
Fixpoint visualize_job (cs : list command) (alt : bool) : result (list (ais K * string)) :=
  match cs with
  | [] => Ok []
  | c :: cs =>
      do shape <- match c with Motion m => motion_ais m alt | Config _ => Err AttributeError end;
      do rest <- visualize_job cs (negb alt);
      Ok (match shape with None => [] | Some s => [s] end ++ rest)
  end.
(** visualize.py:48-68 [visualize_job]: the command group, which is displayed with the placement of the
    plane, and the axes of the plane. *)
Definition picture : Type := list (ais K * string) * list (vk_edge K * string).
Definition visualize_job_group (top : plane) (cs : list command) : result picture :=
  do g <- visualize_job cs false; do axes <- visualize_job_plane top 1%Qc; Ok (g, axes).

(** fluent.py:317-324 [Job.to_shapes(as_edges=True)] *)
Definition to_edges (j : job) : result (list (vk_edge K)) :=
  do ess <- mapM (fun o => visualize_job_as_edges (j_top j) (skipn 1 (op_commands o))) (j_operations j);
  Ok (List.concat ess).
(** fluent.py:325-328 [Job.to_shapes()] *)
Definition to_groups (j : job) : result (list picture) :=
  mapM (fun o => visualize_job_group (j_top j) (skipn 1 (op_commands o))) (j_operations j).

(** fluent.py:290-315 [Job.show]: the objects passed to [show_object] with their names.  [module] is
    the first part of the module of the given [show_object], or of the one of [__main__]; None if there is none. *)
Inductive shown := ShownGroup (g : picture) | ShownEdges (es : list (vk_edge K)).
Definition show (module : option string) (j : job) : result (list (shown * string)) :=
  match module with
  | None => Err ValueError
  | Some module =>
      (fix go (i : Z) (os : list operation) :=
         match os with
         | [] => Ok []
         | o :: os =>
             let cs := skipn 1 (op_commands o) in
             do s <- (if String.eqb module "cq_editor" then do g <- visualize_job_group (j_top j) cs; Ok (ShownGroup g)
                      else do es <- visualize_job_as_edges (j_top j) cs; Ok (ShownEdges es));
             do rest <- go (i + 1)%Z os;
             Ok ((s, j_name j ++ " #" ++ print_Z i ++ " " ++ op_name o)%string :: rest)
         end) 0%Z (j_operations j)
  end.
End Kernel.
