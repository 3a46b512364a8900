(** * Specification: the words the code enumerations stand for *)
From Verif Require Import Base.Str Spec.Gcode Spec.Machine Model.Groups.
Local Open Scope Z_scope.

(** Any value of any enumeration of groups.py. *)
Inductive any_code :=
| EPosition (p : position) | EPath (p : path_code) | EProbe (p : probe_mode) | ECanned (c : canned_cycle)
| EPlane (p : work_plane) | EUnit (u : unit_code) | ERadius (r : radius_comp) | ELength (l : length_comp)
| EOffset (o : work_offset) | EPlanner (p : planner_mode) | EDistance (d : distance_mode)
| EArcDistance (d : arc_distance_mode) | EFeedMode (f : feed_rate_mode) | ESpindleMode (s : spindle_mode)
| EReturn (c : canned_return) | EControl (p : program_control) | ECutter (c : cutter_state)
| EChanger (c : changer_mode) | ECoolant (c : coolant_state) | EVacuum (v : vacuum_state).

Definition str_code (c : any_code) : string :=
  match c with
  | EPosition p => str_position p | EPath p => str_path p | EProbe p => str_probe p | ECanned c => str_canned c
  | EPlane p => str_plane p | EUnit u => str_unit u | ERadius r => str_radius_comp r | ELength l => str_length_comp l
  | EOffset o => str_work_offset o | EPlanner p => str_planner p | EDistance d => str_distance d
  | EArcDistance d => str_arc_distance d | EFeedMode f => str_feed_rate_mode f | ESpindleMode s => str_spindle_mode s
  | EReturn c => str_canned_return c | EControl p => str_program_control p | ECutter c => str_cutter c
  | EChanger c => str_changer c | ECoolant c => str_coolant c | EVacuum v => str_vacuum v
  end.

(** Codes in tenths, by meaning (groups.py:38-63 and RS274/NGC). *)
Definition g (tenths : Z) : word := W "G" (qq tenths 10).
Definition m (n : Z) : word := W "M" (qz n).
Definition code_word (c : any_code) : word :=
  match c with
  | EPosition DWELL => g 40 | EPosition POS_ABSOLUTE => g 530
  | EPosition PRIMARY_HOME => g 280 | EPosition SECONDARY_HOME => g 300
  | EPath RAPID => g 0 | EPath LINEAR => g 10 | EPath ARC_CW => g 20 | EPath ARC_CCW => g 30
  | EPath CUBIC => g 50 | EPath QUADRATIC_SPLINE => g 51 | EPath NURBS => g 52
  | EProbe ON_CONTACT_ERROR => g 382 | EProbe ON_CONTACT => g 383
  | EProbe LOSE_CONTACT_ERROR => g 384 | EProbe LOSE_CONTACT => g 385
  | ECanned CANCEL => g 800 | ECanned DRILL_SIMPLE => g 810 | ECanned DRILL_DWELL => g 820
  | ECanned DRILL_PECK => g 830 | ECanned DRILL_RIGHT_TAP => g 840 | ECanned BORE => g 850
  | ECanned BORE_DWELL_STOP => g 860 | ECanned BORE_BACK => g 870
  | ECanned BORE_DWELL_STOP_MANUAL => g 880 | ECanned BORE_DWELL => g 890
  | EPlane PLANE_XY => g 170 | EPlane PLANE_XZ => g 180 | EPlane PLANE_YZ => g 190
  | EUnit IMPERIAL => g 200 | EUnit METRIC => g 210
  | ERadius RC_OFF => g 400 | ERadius RC_LEFT => g 410 | ERadius RC_RIGHT => g 420
  | ELength LC_ON => g 430 | ELength LC_OFF => g 490
  | EOffset OFFSET_1 => g 540 | EOffset OFFSET_2 => g 550 | EOffset OFFSET_3 => g 560
  | EOffset OFFSET_4 => g 570 | EOffset OFFSET_5 => g 580 | EOffset OFFSET_6 => g 590
  | EPlanner EXACT_PATH => g 610 | EPlanner EXACT_STOP => g 611 | EPlanner CONTINUOUS => g 640
  | EDistance ABSOLUTE => g 900 | EDistance INCREMENTAL => g 910
  | EArcDistance ARC_ABSOLUTE => g 901 | EArcDistance ARC_INCREMENTAL => g 911
  | EFeedMode INVERSE_TIME => g 930 | EFeedMode UNITS_PER_MINUTE => g 940
  | EFeedMode UNITS_PER_REVOLUTION => g 950
  | ESpindleMode MAX_SPINDLE_SPEED => g 500 | ESpindleMode SURFACE_SPEED => g 960 | ESpindleMode RPM => g 970
  | EReturn RETRACT_HEIGHT => g 980 | EReturn LAST_HEIGHT => g 990
  | EControl PAUSE => m 0 | EControl PAUSE_OPTIONAL => m 1 | EControl END => m 2 | EControl END_RESET => m 30
  | ECutter ON_CW => m 3 | ECutter ON_CCW => m 4 | ECutter CUTTER_OFF => m 5
  | EChanger TOOL_CHANGE => m 6 | EChanger PALLET_CHANGE => m 60
  | ECoolant MIST => m 7 | ECoolant FLOOD => m 8 | ECoolant COOLANT_OFF => m 9
  | EVacuum VACUUM_ON => m 10 | EVacuum VACUUM_OFF => m 11
  end.

(** G codes listed in groups.py:5-20 (which has no G50). *)
Definition listed_g_code (c : Z) : bool :=
  match g_group c with Some _ => negb (c =? 500) | None => false end.
