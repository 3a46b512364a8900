(** * Specification: how jobs come about, and what a program should do *)
From Verif Require Import Base.Str Spec.Gcode Spec.Blocks Spec.Machine Spec.Program
  Model.Groups Model.Job.
Local Open Scope list_scope.
Local Open Scope Z_scope.

(** A generator of motion commands (what profile, pocket, drill and surface3d are; proved for the
    modelled operations). *)
Definition motion_gen (gen : job -> result (list command)) : Prop :=
  forall j cmds, gen j = Ok cmds -> exists ms, cmds = map Motion ms.

(** Heaps a user can produce: jobs are created, and fluent operations are called on any job, in
    any order; a call may also fail. *)
Inductive reachable : heap -> Prop :=
| reach_empty : reachable []
| reach_new h j : reachable h -> j_operations j = [] -> reachable (h ++ [j])
| reach_call h r t name gen : reachable h -> motion_gen gen ->
    reachable (fst (fluent_op h r t name gen)).

(** One fluent call: the tool argument, the operation name and the motions it generated. *)
Record call := Call { c_tool : option tool; c_name : string; c_motions : list motion }.

(** [built h r j0 cs]: in heap [h], the job at [r] was created as [j0] and then extended by the
    calls [cs]; other jobs were created and extended in between (also from jobs on the way). *)
Inductive built : heap -> ref -> job -> list call -> Prop :=
| built_new h j0 : j_operations j0 = [] -> built (h ++ [j0]) (List.length h) j0 []
| built_call h r j0 cs t name gen h' r' j' pre ms :
    built h r j0 cs -> fluent_op h r t name gen = (h', Ok r') ->
    hget h' r' = Some j' -> j_operations j' = pre ++ [Op r' name (map Motion ms)] ->
    built h' r' j0 (cs ++ [Call t name ms])
| built_other h r j0 cs r2 t name gen :
    built h r j0 cs -> built (fst (fluent_op h r2 t name gen)) r j0 cs
| built_alloc h r j0 cs j : built h r j0 cs -> built (h ++ [j]) r j0 cs.

(** The tool and the speed asked for: the last ones given. *)
Definition want_tool (cur : option Z) (c : call) : option Z :=
  match c_tool c with Some t => match t_number t with Some n => Some n | None => cur end | None => cur end.
Definition want_speed (cur : option Qc) (c : call) : option Qc :=
  match c_tool c with Some t => match t_speed t with Some s => Some (pyval s) | None => cur end | None => cur end.
Definition tool_after (j0 : job) (cs : list call) : option Z := fold_left want_tool cs (j_tool_number j0).
Definition speed_after (j0 : job) (cs : list call) : option Qc :=
  fold_left want_speed cs (option_map pyval (j_speed j0)).

(** Something changes at some call of [cs], so that a start or tool change sequence is due. *)
Definition changes (j0 : job) (cs : list call) (k : nat) : Prop :=
  tool_after j0 (firstn (S k) cs) <> tool_after j0 (firstn k cs) \/
  speed_after j0 (firstn (S k) cs) <> speed_after j0 (firstn k cs).

(** The states in which cutting is fine. *)
Definition ready (st : mstate) : Prop :=
  ms_ended st = false /\ ms_spindle st = SpCW /\ ms_dist st = Some 900 /\ ms_plane st = Some 170 /\
  ms_feedmode st = Some 940 /\ ms_units st = Some 210 /\ ms_wcs st = Some 540 /\
  ms_path st = Some 640 /\ ms_radius st = Some 400.

Definition changes_tool (b : block) : bool := member 60 (codes "M" b).

(** Blocks of the operation of a call: its comment line and its motions. *)
Definition call_blocks (c : call) : list block := [] :: map motion_block (c_motions c).

(** Tool and speed in the machine when the program asks for [t] and [s]; without a request the
    machine keeps what it had. *)
Definition tool_is (T0 : option Qc) (t : option Z) : option Qc := match t with Some n => Some (qz n) | None => T0 end.
Definition speed_is (base : option Qc) (e : bool) (s : option Qc) : option Qc :=
  if e then first_some s base else base.

(** A program part: preparation and operation. *)
Definition seg_blocks (pb : list block * list block) : list block := fst pb ++ snd pb.

(** Settings a tool argument leads to: given by the tool, or else kept. *)
Definition kept {A} (given old : option A) : option A := match given with Some a => Some a | None => old end.
Definition tool_settings (j : job) (t : option tool) : option Z * option Qc * pynum * option pynum :=
  match t with
  | None => (j_tool_number j, j_tool_diameter j, j_feed j, j_speed j)
  | Some t => (kept (t_number t) (j_tool_number j), kept (t_diameter t) (j_tool_diameter j),
               match t_feed t with Some f => f | None => j_feed j end, kept (t_speed t) (j_speed j))
  end.
Definition settings_of (j : job) : option Z * option Qc * pynum * option pynum :=
  (j_tool_number j, j_tool_diameter j, j_feed j, j_speed j).

(** The tool argument asks for another tool or speed than the job has. *)
Definition other_tool (j : job) (t : option tool) : Prop :=
  exists t' n, t = Some t' /\ t_number t' = Some n /\ j_tool_number j <> Some n.
Definition other_speed (j : job) (t : option tool) : Prop :=
  exists t' s, t = Some t' /\ t_speed t' = Some s /\ option_map pyval (j_speed j) <> Some (pyval s).

(** Everything but tool number, diameter, feed, speed and operations. *)
Definition same_frame (j j' : job) : Prop :=
  j' = with_operations (with_tool j (j_tool_number j') (j_tool_diameter j') (j_feed j') (j_speed j')) (j_operations j').

(** The words a setting selects. *)
Definition unit_word (u : unit_code) : Z := match u with IMPERIAL => 200 | METRIC => 210 end.
Definition plane_word (p : work_plane) : Z := match p with PLANE_XY => 170 | PLANE_XZ => 180 | PLANE_YZ => 190 end.
Definition offset_word (o : work_offset) : Z :=
  match o with OFFSET_1 => 540 | OFFSET_2 => 550 | OFFSET_3 => 560 | OFFSET_4 => 570 | OFFSET_5 => 580 | OFFSET_6 => 590 end.
Definition distance_word (d : distance_mode) : Z := match d with ABSOLUTE => 900 | INCREMENTAL => 910 end.
Definition path_word (p : planner_mode) : Z := match p with EXACT_PATH => 610 | EXACT_STOP => 611 | CONTINUOUS => 640 end.
Definition arc_word (p : arc_distance_mode) : Z := match p with ARC_ABSOLUTE => 901 | ARC_INCREMENTAL => 911 end.

(** A motion has at least one end coordinate. *)
Definition has_some_axis (v : avec) : bool := is_some (ax v) || is_some (ay v) || is_some (az v).
Definition command_has_axis (c : command) : Prop :=
  match c with Motion m => has_some_axis (m_end m) = true | Config _ => True end.

(** The text of one operation. *)
Definition op_text (h : heap) (o : operation) : result string := do n <- name_of h (op_job o); op_to_gcode n o.
