(** * Model of /repo/src/cq_cam/groups.py: the code enumerations and their [str]/[repr] *)
From Verif Require Import Base.Str.

Local Open Scope string_scope.

(** groups.py:70-74 (class Position) *)
Inductive position := DWELL | POS_ABSOLUTE | PRIMARY_HOME | SECONDARY_HOME.
Definition str_position p : string :=
  match p with DWELL => "G4" | POS_ABSOLUTE => "G53" | PRIMARY_HOME => "G28" | SECONDARY_HOME => "G30" end.

(** groups.py:82-89 (class Path) *)
Inductive path_code := RAPID | LINEAR | ARC_CW | ARC_CCW | CUBIC | QUADRATIC_SPLINE | NURBS.
Definition str_path p : string :=
  match p with
  | RAPID => "G0" | LINEAR => "G1" | ARC_CW => "G2" | ARC_CCW => "G3"
  | CUBIC => "G5" | QUADRATIC_SPLINE => "G5.1" | NURBS => "G5.2"
  end.

(** groups.py:92-96 (class ProbeMode) *)
Inductive probe_mode := ON_CONTACT_ERROR | ON_CONTACT | LOSE_CONTACT_ERROR | LOSE_CONTACT.
Definition str_probe p : string :=
  match p with
  | ON_CONTACT_ERROR => "38.2" | ON_CONTACT => "G38.3"
  | LOSE_CONTACT_ERROR => "G38.4" | LOSE_CONTACT => "G38.5"
  end.

(** groups.py:99-109 (class CannedCycle) *)
Inductive canned_cycle :=
| CANCEL | DRILL_SIMPLE | DRILL_DWELL | DRILL_PECK | DRILL_RIGHT_TAP | BORE | BORE_DWELL_STOP
| BORE_BACK | BORE_DWELL_STOP_MANUAL | BORE_DWELL.
Definition str_canned c : string :=
  match c with
  | CANCEL => "G80" | DRILL_SIMPLE => "G81" | DRILL_DWELL => "G82" | DRILL_PECK => "G83"
  | DRILL_RIGHT_TAP => "G84" | BORE => "G85" | BORE_DWELL_STOP => "G86" | BORE_BACK => "G87"
  | BORE_DWELL_STOP_MANUAL => "G88" | BORE_DWELL => "G89"
  end.

(** groups.py:113-116 *)
Inductive work_plane := PLANE_XY | PLANE_XZ | PLANE_YZ.
Definition str_plane p : string := match p with PLANE_XY => "G17" | PLANE_XZ => "G18" | PLANE_YZ => "G19" end.

(** groups.py:120-122; [repr] from groups.py:30-31 *)
Inductive unit_code := IMPERIAL | METRIC.
Definition str_unit u : string := match u with IMPERIAL => "G20" | METRIC => "G21" end.
Definition repr_unit u : string := match u with IMPERIAL => "Unit.IMPERIAL" | METRIC => "Unit.METRIC" end.

(** groups.py:125-128 *)
Inductive radius_comp := RC_OFF | RC_LEFT | RC_RIGHT.
Definition str_radius_comp r : string := match r with RC_OFF => "G40" | RC_LEFT => "G41" | RC_RIGHT => "G42" end.

(** groups.py:131-133 *)
Inductive length_comp := LC_ON | LC_OFF.
Definition str_length_comp r : string := match r with LC_ON => "G43" | LC_OFF => "G49" end.

(** groups.py:136-142 *)
Inductive work_offset := OFFSET_1 | OFFSET_2 | OFFSET_3 | OFFSET_4 | OFFSET_5 | OFFSET_6.
Definition str_work_offset o : string :=
  match o with
  | OFFSET_1 => "G54" | OFFSET_2 => "G55" | OFFSET_3 => "G56" | OFFSET_4 => "G57"
  | OFFSET_5 => "G58" | OFFSET_6 => "G59"
  end.

(** groups.py:145-148 *)
Inductive planner_mode := EXACT_PATH | EXACT_STOP | CONTINUOUS.
Definition str_planner p : string := match p with EXACT_PATH => "G61" | EXACT_STOP => "G61.1" | CONTINUOUS => "G64" end.

(** groups.py:151-153 *)
Inductive distance_mode := ABSOLUTE | INCREMENTAL.
Definition str_distance d : string := match d with ABSOLUTE => "G90" | INCREMENTAL => "G91" end.

(** groups.py:156-158 *)
Inductive arc_distance_mode := ARC_ABSOLUTE | ARC_INCREMENTAL.
Definition str_arc_distance d : string := match d with ARC_ABSOLUTE => "G90.1" | ARC_INCREMENTAL => "G91.1" end.

(** groups.py:161-164 *)
Inductive feed_rate_mode := INVERSE_TIME | UNITS_PER_MINUTE | UNITS_PER_REVOLUTION.
Definition str_feed_rate_mode d : string :=
  match d with INVERSE_TIME => "G93" | UNITS_PER_MINUTE => "G94" | UNITS_PER_REVOLUTION => "G95" end.

(** groups.py:167-170 *)
Inductive spindle_mode := MAX_SPINDLE_SPEED | SURFACE_SPEED | RPM.
Definition str_spindle_mode d : string :=
  match d with MAX_SPINDLE_SPEED => "G50" | SURFACE_SPEED => "G96" | RPM => "G97" end.

(** groups.py:173-175 *)
Inductive canned_return := RETRACT_HEIGHT | LAST_HEIGHT.
Definition str_canned_return d : string := match d with RETRACT_HEIGHT => "G98" | LAST_HEIGHT => "G99" end.

(** groups.py:188-192 *)
Inductive program_control := PAUSE | PAUSE_OPTIONAL | END | END_RESET.
Definition str_program_control p : string :=
  match p with PAUSE => "M0" | PAUSE_OPTIONAL => "M1" | END => "M2" | END_RESET => "M30" end.

(** groups.py:195-198 *)
Inductive cutter_state := ON_CW | ON_CCW | CUTTER_OFF.
Definition str_cutter c : string := match c with ON_CW => "M3" | ON_CCW => "M4" | CUTTER_OFF => "M5" end.

(** groups.py:201-203 *)
Inductive changer_mode := TOOL_CHANGE | PALLET_CHANGE.
Definition str_changer c : string := match c with TOOL_CHANGE => "M6" | PALLET_CHANGE => "M60" end.

(** groups.py:206-209 *)
Inductive coolant_state := MIST | FLOOD | COOLANT_OFF.
Definition str_coolant c : string := match c with MIST => "M7" | FLOOD => "M8" | COOLANT_OFF => "M9" end.

(** groups.py:212-214 *)
Inductive vacuum_state := VACUUM_ON | VACUUM_OFF.
Definition str_vacuum c : string := match c with VACUUM_ON => "M10" | VACUUM_OFF => "M11" end.
