(** * Model of /repo/src/cq_cam/command.py *)
From Verif Require Import Base.Str Model.Groups.
From Verif Require Export Model.Address.

Local Open Scope string_scope.
Local Open Scope Z_scope.

(** command.py:207-236: the rapid classes; command.py:254,296: the cut classes. *)
Inductive rapid_kind := KRapid | KPlungeRapid | KRetract.
Inductive cut_kind := KCut | KPlungeCut.

(** A motion command object.  [MArc true] is CircularCW, [MArc false] is CircularCCW. *)
Inductive motion :=
| MRapid (k : rapid_kind) (st en : avec) (arrow : bool)
| MCut (k : cut_kind) (st en : avec) (arrow : bool) (feed : option pynum)
| MArc (cw : bool) (st en center mid : avec) (arrow : bool) (feed : option pynum).

Definition m_start (m : motion) : avec :=
  match m with MRapid _ s _ _ => s | MCut _ s _ _ _ => s | MArc _ s _ _ _ _ _ => s end.
Definition m_end (m : motion) : avec :=
  match m with MRapid _ _ e _ => e | MCut _ _ e _ _ => e | MArc _ _ e _ _ _ _ => e end.
Definition m_arrow (m : motion) : bool :=
  match m with MRapid _ _ _ a => a | MCut _ _ _ a _ => a | MArc _ _ _ _ _ a _ => a end.
Definition m_feed (m : motion) : option pynum :=
  match m with MRapid _ _ _ _ => None | MCut _ _ _ _ f => f | MArc _ _ _ _ _ _ f => f end.

(** command.py:137-157 [MotionCommand.__init__]: fill missing end coordinates from the start;
    a missing start becomes an empty AddressVector.  (The Python code writes into the [end]
    object; every caller passes a fresh object, so the write is not shared.) *)
Definition or_else (a b : option Qc) : option Qc := match a with Some _ => a | None => b end.
Definition init_motion (en : avec) (st : option avec) : avec * avec :=
  match st with
  | Some s => (s, AV (or_else (ax en) (ax s)) (or_else (ay en) (ay s)) (or_else (az en) (az s)))
  | None => (av_none, en)
  end.

Definition is_some {A} (o : option A) : bool := match o with Some _ => true | None => false end.

(** command.py:168-205 Rapid; 211-217 PlungeRapid; 224-232 Retract (z axis only). *)
Definition mk_rapid (en : avec) (st : option avec) (arrow : bool) : motion :=
  let '(s, e) := init_motion en st in MRapid KRapid s e arrow.
Definition mk_zrapid (k : rapid_kind) (en : avec) (st : option avec) (arrow : bool) : result motion :=
  if is_some (ax en) || is_some (ay en) then Err RuntimeError
  else let '(s, e) := init_motion en st in Ok (MRapid k s e arrow).
Definition mk_plunge_rapid := mk_zrapid KPlungeRapid.
Definition mk_retract := mk_zrapid KRetract.

(** command.py:239-267 Cut; 296-302 PlungeCut (z axis only). *)
Definition mk_cut (en : avec) (st : option avec) (arrow : bool) (feed : option pynum) : motion :=
  let '(s, e) := init_motion en st in MCut KCut s e arrow feed.
Definition mk_plunge_cut (en : avec) (st : option avec) (arrow : bool) (feed : option pynum) : result motion :=
  if is_some (ax en) || is_some (ay en) then Err RuntimeError
  else let '(s, e) := init_motion en st in Ok (MCut KPlungeCut s e arrow feed).

(** command.py:310-322 Circular. *)
Definition mk_arc (cw : bool) (en : avec) (st : option avec) (center mid : avec) (arrow : bool)
  (feed : option pynum) : motion :=
  let '(s, e) := init_motion en st in MArc cw s e center mid arrow feed.

(** command.py:159-161 [abs] and the z-only versions 219-221, 234-236, 304-306. *)
Definition rapid_abs (x y z : option Qc) (st : option avec) (arrow : bool) : motion :=
  mk_rapid (AV x y z) st arrow.
Definition cut_abs (x y z : option Qc) (st : option avec) (arrow : bool) (feed : option pynum) : motion :=
  mk_cut (AV x y z) st arrow feed.
(** The z-only constructors build their end with x = y = None, so they cannot raise. *)
Definition plunge_rapid_abs (z : option Qc) (st : option avec) (arrow : bool) : motion :=
  let '(s, e) := init_motion (AV None None z) st in MRapid KPlungeRapid s e arrow.
Definition retract_abs (z : option Qc) (st : option avec) (arrow : bool) : motion :=
  let '(s, e) := init_motion (AV None None z) st in MRapid KRetract s e arrow.
Definition plunge_cut_abs (z : option Qc) (st : option avec) (arrow : bool) (feed : option pynum) : motion :=
  let '(s, e) := init_motion (AV None None z) st in MCut KPlungeCut s e arrow feed.

(** The precision XYZ/IJK are printed with: the default of address.py:226,235, which
    command.py:199,259,326,328 never override. *)
Definition text_precision : nat := 3.

(** command.py:197-204 [RapidCommand.__str__], 257-267 [Cut.__str__], 324-335 [Circular.__str__]. *)
Definition str_motion (m : motion) : result string :=
  match m with
  | MRapid _ _ en _ => Ok (String.concat " " [str_path RAPID; str_xyz en text_precision])
  | MCut _ _ en _ feed =>
      let words := [str_path LINEAR; str_xyz en text_precision] in
      let feed := str_feed feed in
      let words := if String.eqb feed "" then words else (words ++ [feed])%list in
      Ok (String.concat " " words)
  | MArc cw st en center _ _ feed =>
      do c <- to_vector center st true;
      let words := [str_path (if cw then ARC_CW else ARC_CCW); str_xyz en text_precision;
                    str_ijk (from_vector c) text_precision] in
      let feed := str_feed feed in
      let words := if String.eqb feed "" then words else (words ++ [feed])%list in
      Ok (String.concat " " words)
  end.

(** command.py:375-479: configuration commands. *)
Inductive config :=
| CStart (speed : option pynum) (coolant : option coolant_state)
| CStop (coolant : option coolant_state)
| CSafety
| CToolChange (tool_number : Z) (speed : option pynum) (coolant : option coolant_state).

(** command.py:390-399 *)
Definition str_start (speed : option pynum) (coolant : option coolant_state) : string :=
  let words := [str_cutter ON_CW] in
  let words := match speed with Some s => (words ++ [str_speed (Some s)])%list | None => words end in
  let words := match coolant with Some c => (words ++ [str_coolant c])%list | None => words end in
  String.concat " " words.

(** command.py:409-414 *)
Definition str_stop (coolant : option coolant_state) : string :=
  let words := [str_cutter CUTTER_OFF] in
  let words := match coolant with Some _ => (words ++ [str_coolant COOLANT_OFF])%list | None => words end in
  String.concat " " words.

(** command.py:417-442 *)
Definition str_safety : string :=
  String.concat nl
    [ String.concat " "
        [ str_distance ABSOLUTE; str_work_offset OFFSET_1; str_planner CONTINUOUS;
          str_spindle_mode MAX_SPINDLE_SPEED; str_plane PLANE_XY; str_feed_rate_mode UNITS_PER_MINUTE ];
      String.concat " " [ str_length_comp LC_OFF; str_radius_comp RC_OFF; str_canned CANCEL ];
      str_unit METRIC;
      str_position SECONDARY_HOME ].

(** command.py:462-479 *)
Definition str_tool_change (tn : Z) (speed : option pynum) (coolant : option coolant_state) : string :=
  String.concat nl
    [ str_stop coolant;
      str_position SECONDARY_HOME;
      str_program_control PAUSE_OPTIONAL;
      String.concat " "
        [ str_tool_number (Some tn); str_length_comp LC_ON; str_tool_length_offset (Some tn);
          str_changer TOOL_CHANGE ];
      str_start speed coolant ].

Definition str_config (c : config) : string :=
  match c with
  | CStart s co => str_start s co
  | CStop co => str_stop co
  | CSafety => str_safety
  | CToolChange t s co => str_tool_change t s co
  end.

Inductive command := Motion (m : motion) | Config (c : config).
Definition str_command (c : command) : result string :=
  match c with Motion m => str_motion m | Config c => Ok (str_config c) end.

(** The repository's own expectations (tests/test_gcode.py, tests/test_address.py). *)
Definition ai (x y z : Z) : avec := AV (Some (qz x)) (Some (qz y)) (Some (qz z)).
Example test_linear :
  str_motion (cut_abs (Some (qz 10)) (Some (qz 5)) (Some (qz 1)) (Some (ai 0 0 0)) false (Some (PInt 200)))
  = Ok "G1 X10 Y5 Z1 F200".
Proof. reflexivity. Qed.
Example test_cw_arc :
  str_motion (mk_arc true (AV (Some (qz 1)) (Some (qz 0)) None) (Some (ai (-1) 0 0))
                (AV (Some (qz 0)) (Some (qz 0)) None) (AV (Some (qz 0)) (Some (qz 1)) None) false
                (Some (PInt 200)))
  = Ok "G2 X1 Y0 Z0 I1 J0 K0 F200".
Proof. reflexivity. Qed.
Example test_stop : map str_stop [None; Some FLOOD] = ["M5"; "M5 M9"].
Proof. reflexivity. Qed.
Example test_start :
  [str_start None None; str_start (Some (PInt 1000)) None; str_start None (Some FLOOD);
   str_start None (Some MIST); str_start (Some (PInt 1000)) (Some FLOOD)]
  = ["M3"; "M3 S1000"; "M3 M8"; "M3 M7"; "M3 S1000 M8"].
Proof. reflexivity. Qed.
Example test_safety_block :
  str_safety = "G90 G54 G64 G50 G17 G94" ++ nl ++ "G49 G40 G80" ++ nl ++ "G21" ++ nl ++ "G30".
Proof. reflexivity. Qed.
Example test_tool_change :
  str_tool_change 2 (Some (PInt 1000)) (Some FLOOD)
  = "M5 M9" ++ nl ++ "G30" ++ nl ++ "M1" ++ nl ++ "T2 G43 H2 M6" ++ nl ++ "M3 S1000 M8".
Proof. reflexivity. Qed.
Example test_words :
  [str_word_precision "X" (Some (qz 10)) 3; str_feed (Some (PFloat 10 0)); str_speed (Some (PInt 10));
   str_word_precision "X" (Some (qq 1 3)) 3; str_word_precision "X" (Some (qq (-1) 3000)) 3;
   str_word_precision "X" (Some (qq 5 10000)) 3; str_word_precision "X" (Some (qq 1 100000)) 5]
  = ["X10"; "F10.0"; "S10"; "X0.333"; "X0"; "X0"; "X1e-05"].
Proof. reflexivity. Qed.
