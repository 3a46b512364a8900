(** * Model of the Job bookkeeping of /repo/src/cq_cam/fluent.py

    Job objects are mutable and shared, so they live in a heap (a list; references are
    positions).  [copy(self)] allocates a new cell. *)
From Verif Require Import Base.Str Model.Groups Model.Plane.
From Verif Require Export Model.Command.
Local Open Scope string_scope.
Local Open Scope Z_scope.

Definition ref := nat.

(** fluent.py:31-35 *)
Record operation := Op { op_job : ref; op_name : string; op_commands : list command }.

(** fluent.py:53-101 *)
Record job := Job {
  j_top : plane;
  j_feed : pynum;
  j_speed : option pynum;
  j_tool_diameter : option Qc;
  j_tool_number : option Z;
  j_name : string;
  j_plunge_feed : pynum;
  j_rapid_height : Qc;
  j_op_safe_height : Qc;
  j_precision : nat;
  j_unit : unit_code;
  j_plane : work_plane;
  j_coordinate : work_offset;
  j_distance : distance_mode;
  j_arc_distance : arc_distance_mode;
  j_controller_motion : planner_mode;
  j_coolant : option coolant_state;
  j_max_stepdown_count : Z;
  j_operations : list operation
}.

(** fluent.py:261-271.  The imperial heights are the decimals themselves, not their floats. *)
Definition default_rapid_height (u : unit_code) : Qc :=
  match u with METRIC => qz 10 | IMPERIAL => qq 4 10 end.
Definition default_op_safe_height (u : unit_code) : Qc :=
  match u with METRIC => qz 1 | IMPERIAL => qq 4 100 end.

(** fluent.py:54-101 [Job.__init__] *)
Definition new_job (top : plane) (feed : pynum) (speed : option pynum) (tool_diameter : option Qc)
  (tool_number : option Z) (name : string) (plunge_feed : option pynum)
  (rapid_height op_safe_height : option Qc) (precision : nat) (unit : unit_code)
  (plane : work_plane) (coordinate : work_offset) (distance : distance_mode)
  (arc_distance : arc_distance_mode) (controller_motion : planner_mode)
  (coolant : option coolant_state) : job :=
  {| j_top := top; j_feed := feed; j_speed := speed; j_tool_diameter := tool_diameter;
     j_tool_number := tool_number; j_name := name;
     j_plunge_feed := match plunge_feed with Some f => f | None => feed end;
     j_rapid_height := match rapid_height with Some h => h | None => default_rapid_height unit end;
     j_op_safe_height := match op_safe_height with Some h => h | None => default_op_safe_height unit end;
     j_precision := precision; j_unit := unit; j_plane := plane; j_coordinate := coordinate;
     j_distance := distance; j_arc_distance := arc_distance;
     j_controller_motion := controller_motion; j_coolant := coolant;
     j_max_stepdown_count := 100; j_operations := [] |}.

(** The other default arguments of fluent.py:54-73: a job from plane, feed and speed alone. *)
Definition default_job (top : plane) (feed : pynum) (speed : option pynum) : job :=
  new_job top feed speed None None "Job" None None None 3 METRIC PLANE_XY OFFSET_1 ABSOLUTE
          ARC_ABSOLUTE CONTINUOUS None.

(** tool.py:1-12 *)
Record tool := Tool {
  t_diameter : option Qc; t_number : option Z; t_feed : option pynum; t_speed : option pynum }.

Definition heap := list job.
Definition hget (h : heap) (r : ref) : option job := nth_error h r.
Fixpoint hset (h : heap) (r : ref) (j : job) : heap :=
  match h, r with
  | [], _ => []
  | _ :: h, O => j :: h
  | x :: h, S r => x :: hset h r j
  end.
Definition halloc (h : heap) (j : job) : heap * ref := ((h ++ [j])%list, List.length h).

Definition with_operations (j : job) (ops : list operation) : job :=
  {| j_top := j_top j; j_feed := j_feed j; j_speed := j_speed j;
     j_tool_diameter := j_tool_diameter j; j_tool_number := j_tool_number j; j_name := j_name j;
     j_plunge_feed := j_plunge_feed j; j_rapid_height := j_rapid_height j;
     j_op_safe_height := j_op_safe_height j; j_precision := j_precision j; j_unit := j_unit j;
     j_plane := j_plane j; j_coordinate := j_coordinate j; j_distance := j_distance j;
     j_arc_distance := j_arc_distance j; j_controller_motion := j_controller_motion j;
     j_coolant := j_coolant j; j_max_stepdown_count := j_max_stepdown_count j;
     j_operations := ops |}.
Definition with_tool (j : job) (number : option Z) (diameter : option Qc) (feed : pynum)
  (speed : option pynum) : job :=
  {| j_top := j_top j; j_feed := feed; j_speed := speed;
     j_tool_diameter := diameter; j_tool_number := number; j_name := j_name j;
     j_plunge_feed := j_plunge_feed j; j_rapid_height := j_rapid_height j;
     j_op_safe_height := j_op_safe_height j; j_precision := j_precision j; j_unit := j_unit j;
     j_plane := j_plane j; j_coordinate := j_coordinate j; j_distance := j_distance j;
     j_arc_distance := j_arc_distance j; j_controller_motion := j_controller_motion j;
     j_coolant := j_coolant j; j_max_stepdown_count := j_max_stepdown_count j;
     j_operations := j_operations j |}.

(** fluent.py:330-333 [_add_operation] on a job object whose contents are [j]. *)
Definition add_operation (h : heap) (j : job) (name : string) (commands : list command) : heap * ref :=
  let r := List.length h in
  halloc h (with_operations j (j_operations j ++ [Op r name commands])%list).

Definition dflt {A} (o : option A) (d : A) : A := match o with Some a => a | None => d end.

(** Python's [!=] on optional ints / numbers. *)
Definition oz_neqb (a b : option Z) : bool :=
  match a, b with Some x, Some y => negb (x =? y) | None, None => false | _, _ => true end.
Definition opy_neqb (a b : option pynum) : bool :=
  match a, b with
  | Some x, Some y => negb (qeqb (pyval x) (pyval y))
  | None, None => false
  | _, _ => true
  end.

(** fluent.py:117-143 [update_tool]: returns the job to continue with; the attribute updates are
    written into that object, which is the receiver itself unless an operation was added. *)
Definition update_tool (h : heap) (r : ref) (j : job) (t : option tool) : heap * ref :=
  match t with
  | None => (h, r)
  | Some t =>
      let tool_diameter := match t_diameter t with None => j_tool_diameter j | d => d end in
      let tool_number := match t_number t with None => j_tool_number j | n => n end in
      let feed := match t_feed t with None => j_feed j | Some f => f end in
      let speed := match t_speed t with None => j_speed j | s => s end in
      let '(h, r, j) :=
        match tool_number with
        | Some n =>
            if oz_neqb (Some n) (j_tool_number j) then
              let '(h', r') := add_operation h j "Tool Change"
                                 [Config (CToolChange n speed (j_coolant j))] in
              (h', r', nth r' h' j)
            else if is_some speed && opy_neqb speed (j_speed j) then
              let '(h', r') := add_operation h j "Speed Change" [Config (CStart speed (j_coolant j))] in
              (h', r', nth r' h' j)
            else (h, r, j)
        | None =>
            if is_some speed && opy_neqb speed (j_speed j) then
              let '(h', r') := add_operation h j "Speed Change" [Config (CStart speed (j_coolant j))] in
              (h', r', nth r' h' j)
            else (h, r, j)
        end in
      (hset h r (with_tool j tool_number tool_diameter feed speed), r)
  end.

(** The common shape of the fluent operations (fluent.py:197-210, 224-246, 251-253, and 164-187
    after the checks): update the tool, compute the commands from the updated job, add the
    operation.  An exception leaves the heap as it is at that point. *)
Definition fluent_op (h : heap) (r : ref) (t : option tool) (name : string)
  (gen : job -> result (list command)) : heap * result ref :=
  match hget h r with
  | None => (h, Err AttributeError)
  | Some j =>
      let '(h, r) := update_tool h r j t in
      match hget h r with
      | None => (h, Err AttributeError)
      | Some j =>
          match gen j with
          | Err e => (h, Err e)
          | Ok cmds => let '(h, r) := add_operation h j name cmds in (h, Ok r)
          end
      end
  end.

(** fluent.py:37-50 [Operation.to_gcode]; [job_name] is [self.job.name]. *)
Definition op_to_gcode (job_name : string) (o : operation) : result string :=
  do strs <- mapM str_command (op_commands o);
  let gcodes := ("(" ++ job_name ++ " - " ++ op_name o ++ ")")
                :: filter (fun s => negb (String.eqb s "")) strs in
  Ok (String.concat nl gcodes).

(** The name of the job an operation belongs to. *)
Definition name_of (h : heap) (r : ref) : result string :=
  match hget h r with Some j => Ok (j_name j) | None => Err AttributeError end.

(** fluent.py:273-283 [Job.to_gcode]; the initial StartSequence uses the job's current speed. *)
Definition job_to_gcode (h : heap) (j : job) : result string :=
  do ops <- mapM (fun o => do n <- name_of h (op_job o); op_to_gcode n o) (j_operations j);
  Ok ("(" ++ j_name j ++ " - Feedrate: " ++ print_pynum (j_feed j) ++ " - Unit: " ++ repr_unit (j_unit j) ++ ")" ++ nl
      ++ str_safety ++ nl
      ++ str_start (j_speed j) (j_coolant j) ++ nl
      ++ String.concat (nl ++ nl ++ nl) ops ++ nl
      ++ str_safety ++ nl
      ++ str_stop (j_coolant j) ++ nl
      ++ str_program_control END_RESET).

Definition to_gcode (h : heap) (r : ref) : result string :=
  match hget h r with Some j => job_to_gcode h j | None => Err AttributeError end.

(** fluent.py:285-288 [save_gcode]: writes [str(self)].  Job defines no [__str__], so that is
    Python's default representation, with the object's address [addr] in hexadecimal. *)
Definition default_object_str (addr : string) : string := "<cq_cam.fluent.Job object at 0x" ++ addr ++ ">".
Definition save_gcode (addr : string) (h : heap) (r : ref) : string := default_object_str addr.

(** fluent.py:335-337 *)
Definition tool_radius (j : job) : option Qc :=
  match j_tool_diameter j with
  | Some d => if qeqb d 0%Qc then None else Some (d / qz 2)%Qc
  | None => None
  end.
