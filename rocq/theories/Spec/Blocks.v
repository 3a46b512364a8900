(** * Specification: what a command object means as G-code blocks

    Blocks are sequences of (letter, value) words, as read by Spec.Gcode. *)
From Verif Require Import Base.Str Spec.Gcode Model.Groups Model.Command.
Local Open Scope Z_scope.

(** Rounding to [p] decimals: the multiple of 10^-p nearest to [x], even on ties
    ([round_he] is characterised by Base.Num.round_he_spec). *)
Definition rounded (p : nat) (x : Qc) : Qc := (qz (round_he (x * qz (pow10 p))) / qz (pow10 p))%Qc.

Definition opt_word (l : ascii) (v : option Qc) : block :=
  match v with Some v => [W l v] | None => [] end.

Definition gword (n : Z) : word := W "G" (qz n).
Definition mword (n : Z) : word := W "M" (qz n).

(** The words for a motion towards [en]; [None] axes give no word. *)
Definition axes_block (v : avec) : block :=
  opt_word "X" (option_map (rounded 3) (ax v)) ++
  opt_word "Y" (option_map (rounded 3) (ay v)) ++
  opt_word "Z" (option_map (rounded 3) (az v)).

Definition feed_block (f : option pynum) : block := opt_word "F" (option_map pyval f).

(** Offset of an arc centre coordinate from the start (0 if the centre leaves it open). *)
Definition centre_offset (c s : option Qc) : Qc :=
  match c, s with Some c, Some s => (c - s)%Qc | _, _ => 0%Qc end.

Definition motion_block (m : motion) : block :=
  match m with
  | MRapid _ _ en _ => gword 0 :: axes_block en
  | MCut _ _ en _ f => gword 1 :: axes_block en ++ feed_block f
  | MArc cw st en c _ _ f =>
      gword (if cw then 2 else 3) :: axes_block en
        ++ [W "I" (rounded 3 (centre_offset (ax c) (ax st)));
            W "J" (rounded 3 (centre_offset (ay c) (ay st)));
            W "K" (rounded 3 (centre_offset (az c) (az st)))]
        ++ feed_block f
  end.

(** Numbers that Python prints without exponent. *)
Definition plain_num (n : pynum) : Prop :=
  match n with
  | PInt _ => True
  | PFloat k p => k = 0 \/ (qq 1 10000 <= qabs (pyval n) /\ qabs (pyval n) < qz (10 ^ 16))%Qc
  end.
Definition plain_opt (n : option pynum) : Prop := match n with Some n => plain_num n | None => True end.

(** Coordinates small enough for exact decimal printing (see DESIGN.md). *)
Definition coord_ok (x : Qc) : Prop := (qabs x <= qz (10 ^ 12))%Qc.
Definition ocoord_ok (x : option Qc) : Prop := match x with Some x => coord_ok x | None => True end.
Definition avec_ok (v : avec) : Prop := ocoord_ok (ax v) /\ ocoord_ok (ay v) /\ ocoord_ok (az v).
Definition motion_ok (m : motion) : Prop :=
  plain_opt (m_feed m) /\ avec_ok (m_end m) /\
  match m with
  | MArc _ st _ c _ _ _ =>
      coord_ok (centre_offset (ax c) (ax st)) /\ coord_ok (centre_offset (ay c) (ay st)) /\
      coord_ok (centre_offset (az c) (az st))
  | _ => True
  end.

(** The same range for any number of decimals. *)
Definition coord_in_range (x : Qc) (p : nat) : Prop := (qabs x * qz (pow10 p) <= qz (10 ^ 15))%Qc.
Definition avec_in_range (v : avec) (p : nat) : Prop :=
  (match ax v with Some x => coord_in_range x p | None => True end) /\
  (match ay v with Some x => coord_in_range x p | None => True end) /\
  (match az v with Some x => coord_in_range x p | None => True end).

(** An arc can be printed: wherever the centre is given, the start is given too. *)
Definition printable (m : motion) : bool :=
  match m with
  | MArc _ st _ c _ _ _ =>
      (negb (is_some (ax c)) || is_some (ax st)) && (negb (is_some (ay c)) || is_some (ay st))
      && (negb (is_some (az c)) || is_some (az st))
  | _ => true
  end.

Definition coolant_code (c : coolant_state) : Z :=
  match c with MIST => 7 | FLOOD => 8 | COOLANT_OFF => 9 end.

Definition start_block (speed : option pynum) (co : option coolant_state) : block :=
  mword 3 :: opt_word "S" (option_map pyval speed)
    ++ match co with Some c => [mword (coolant_code c)] | None => [] end.
Definition stop_block (co : option coolant_state) : block :=
  mword 5 :: match co with Some _ => [mword 9] | None => [] end.
Definition safety_blocks : list block :=
  [ [gword 90; gword 54; gword 64; gword 50; gword 17; gword 94];
    [gword 49; gword 40; gword 80];
    [gword 21];
    [gword 30] ].
Definition config_blocks (c : config) : list block :=
  match c with
  | CStart s co => [start_block s co]
  | CStop co => [stop_block co]
  | CSafety => safety_blocks
  | CToolChange t s co =>
      [ stop_block co;
        [gword 30];
        [mword 1];
        [W "T" (qz t); gword 43; W "H" (qz t); mword 6];
        start_block s co ]
  end.
Definition config_ok (c : config) : Prop :=
  match c with CStart s _ => plain_opt s | CToolChange _ s _ => plain_opt s | _ => True end.

Definition command_blocks (c : command) : list block :=
  match c with Motion m => [motion_block m] | Config c => config_blocks c end.
Definition command_ok (c : command) : Prop :=
  match c with Motion m => motion_ok m /\ printable m = true | Config c => config_ok c end.

(** Text that can stand inside a comment. *)
Fixpoint comment_safe (s : string) : bool :=
  match s with
  | EmptyString => true
  | String c r => negb (Ascii.eqb c "(") && negb (Ascii.eqb c ")") && negb (Ascii.eqb c newline) && comment_safe r
  end.

(** The words of an axis group with given letters. *)
Definition group_block (l1 l2 l3 : ascii) (v : avec) (p : nat) : block :=
  opt_word l1 (option_map (rounded p) (ax v)) ++ opt_word l2 (option_map (rounded p) (ay v)) ++
  opt_word l3 (option_map (rounded p) (az v)).

(** [s] is the text of the words [b], one space between words and no other blanks. *)
Fixpoint no_blank (s : string) : bool :=
  match s with EmptyString => true | String c r => negb (is_blank c) && no_blank r end.
Definition spaced_words (s : string) (b : block) : Prop :=
  exists ws, s = String.concat " " ws /\
    Forall2 (fun t w => t <> EmptyString /\ no_blank t = true /\ parse_line t = Some [w]) ws b.
