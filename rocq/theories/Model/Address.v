(** * Model of /repo/src/cq_cam/address.py *)
From Verif Require Import Base.Str.

Local Open Scope string_scope.
Local Open Scope Z_scope.

(** cq.Vector: three numbers. *)
Record vec := V3 { vx : Qc; vy : Qc; vz : Qc }.

(** address.py:54-60 (class AddressVector): each coordinate may be None. *)
Record avec := AV { ax : option Qc; ay : option Qc; az : option Qc }.
Definition av_none : avec := AV None None None.

(** address.py:71-73 *)
Definition from_vector (v : vec) : avec := AV (Some (vx v)) (Some (vy v)) (Some (vz v)).

(** address.py:62-66 ([__eq__] between AddressVectors) *)
Definition oeqb (a b : option Qc) : bool :=
  match a, b with Some x, Some y => qeqb x y | None, None => true | _, _ => false end.
Definition avec_eqb (a b : avec) : bool := oeqb (ax a) (ax b) && oeqb (ay a) (ay b) && oeqb (az a) (az b).

(** address.py:75-84 [to_vector].  The origin may be an AddressVector (command.py:327 passes
    [self.start]); arithmetic with None, or building a cq.Vector from None, raises TypeError. *)
Definition to_vector (v origin : avec) (relative : bool) : result vec :=
  let comp (c o : option Qc) : result Qc :=
    if relative then
      match c with
      | None => Ok 0%Qc
      | Some c => match o with Some o => Ok (c - o)%Qc | None => Err TypeError end
      end
    else
      match c with
      | Some c => Ok c
      | None => match o with Some o => Ok o | None => Err TypeError end
      end in
  do x <- comp (ax v) (ax origin);
  do y <- comp (ay v) (ay origin);
  do z <- comp (az v) (az origin);
  Ok (V3 x y z).

(** address.py:118-121 [GCodeWord.__str__] with address.py:105-106 for the letter;
    a missing address prints as the empty string. *)
Definition str_word (letter : string) (address : option pynum) : string :=
  match address with Some a => letter ++ print_pynum a | None => "" end.

(** address.py:168-196: the plain words. *)
Definition str_feed (a : option pynum) : string := str_word "F" a.
Definition str_speed (a : option pynum) : string := str_word "S" a.
Definition str_dwell (a : option pynum) : string := str_word "P" a.
Definition str_tool_number (a : option Z) : string := str_word "T" (option_map PInt a).
Definition str_tool_length_offset (a : option Z) : string := str_word "H" (option_map PInt a).
Definition str_tool_radius_offset (a : option Z) : string := str_word "D" (option_map PInt a).

(** Python's [round(x, p)] as the integer number of units 10^-p (round half even on the exact
    value; the double returned by Python is the one whose shortest repr is that decimal as long as
    the integer has fewer than 16 digits, see DESIGN.md). *)
Definition round_units (x : Qc) (p : nat) : Z := round_he (x * qz (pow10 p))%Qc.

(** utils/utils.py:392-395 [optimize_float] applied to [round(x, p)], then [str]: an int if the
    rounded value is an integer, else the float's repr. *)
Definition print_rounded (x : Qc) (p : nat) : string :=
  let k := round_units x p in
  if k mod pow10 p =? 0 then print_Z (k / pow10 p) else repr_float k p.

(** address.py:131-135 [GCodeWordPrecision.__str__] *)
Definition str_word_precision (letter : string) (address : option Qc) (p : nat) : string :=
  match address with Some a => letter ++ print_rounded a p | None => "" end.

(** address.py:209-222 [GCodeAxisGroup.__str__] *)
Definition str_axis_group (a1 a2 a3 : string) : string :=
  let coords := (if String.eqb a1 "" then [] else [a1]) in
  let coords := (coords ++ (if String.eqb a2 "" then [] else [a2]))%list in
  let coords := (coords ++ (if String.eqb a3 "" then [] else [a3]))%list in
  String.concat " " coords.

(** address.py:225-231 [XYZ], address.py:234-240 [IJK]; default precision 3. *)
Definition str_xyz (v : avec) (p : nat) : string :=
  str_axis_group (str_word_precision "X" (ax v) p) (str_word_precision "Y" (ay v) p)
                 (str_word_precision "Z" (az v) p).
Definition str_ijk (v : avec) (p : nat) : string :=
  str_axis_group (str_word_precision "I" (ax v) p) (str_word_precision "J" (ay v) p)
                 (str_word_precision "K" (az v) p).
