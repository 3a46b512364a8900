(** * Specification: reading RS274/NGC text

    Written from the rules of the language (see the rules quoted in
    /repo/src/cq_cam/command.py:1-88 and address.py:1-43), independently of the printing code:
    a program is a sequence of lines; spaces and tabs do not matter; text in parentheses is a
    comment (no nesting, must be closed on the line); what remains is a sequence of words, each a
    letter followed by a decimal number without exponent. *)
From Verif Require Import Base.Str.
From Coq Require Import NArith.

Local Open Scope string_scope.
Local Open Scope Z_scope.

Record word := W { w_letter : ascii; w_val : Qc }.
Definition block := list word.

Definition digit_val (c : ascii) : option N :=
  let n := N_of_ascii c in
  if ((48 <=? n) && (n <=? 57))%N then Some (n - 48)%N else None.

(** The longest run of digits: its value (starting from [acc]), its length and the rest. *)
Fixpoint read_digits (s : string) (acc : N) (cnt : nat) : N * nat * string :=
  match s with
  | EmptyString => (acc, cnt, s)
  | String c r =>
      match digit_val c with
      | Some d => read_digits r (acc * 10 + d)%N (S cnt)
      | None => (acc, cnt, s)
      end
  end.

(** Optional sign, digits, optional point and digits; at least one digit. *)
Definition read_unsigned (s : string) : option (Qc * string) :=
  let '(a, na, r) := read_digits s 0%N O in
  match r with
  | String "."%char r2 =>
      let '(b, nb, r3) := read_digits r2 0%N O in
      if (Nat.add na nb =? 0)%nat then None
      else Some ((qz (Z.of_N a) + qz (Z.of_N b) / qz (pow10 nb))%Qc, r3)
  | _ => if (na =? 0)%nat then None else Some (qz (Z.of_N a), r)
  end.

Definition read_number (s : string) : option (Qc * string) :=
  match s with
  | String "-"%char r =>
      match read_unsigned r with Some (v, r) => Some ((- v)%Qc, r) | None => None end
  | String "+"%char r => read_unsigned r
  | _ => read_unsigned s
  end.

(** A whole string that is one decimal number. *)
Definition parse_number (s : string) : option Qc :=
  match read_number s with Some (v, EmptyString) => Some v | _ => None end.

(** Letters are case insensitive. *)
Definition letter_of (c : ascii) : option ascii :=
  let n := N_of_ascii c in
  if ((65 <=? n) && (n <=? 90))%N then Some c
  else if ((97 <=? n) && (n <=? 122))%N then Some (ascii_of_N (n - 32))
  else None.

Fixpoint read_words (fuel : nat) (s : string) : option block :=
  match s with
  | EmptyString => Some []
  | String c r =>
      match fuel with
      | O => None
      | S fuel =>
          match letter_of c with
          | None => None
          | Some l =>
              match read_number r with
              | None => None
              | Some (v, r) =>
                  match read_words fuel r with
                  | None => None
                  | Some ws => Some (W l v :: ws)
                  end
              end
          end
      end
  end.

Definition is_blank (c : ascii) : bool := (Ascii.eqb c " " || Ascii.eqb c "009")%char.

(** Remove comments and blanks. *)
Fixpoint clean (in_comment : bool) (s : string) : option string :=
  match s with
  | EmptyString => if in_comment then None else Some EmptyString
  | String c r =>
      if in_comment then
        if Ascii.eqb c ")" then clean false r
        else if Ascii.eqb c "(" then None
        else clean true r
      else
        if Ascii.eqb c "(" then clean true r
        else if is_blank c then clean false r
        else match clean false r with Some t => Some (String c t) | None => None end
  end.

Definition parse_line (s : string) : option block :=
  match clean false s with
  | Some t => read_words (String.length t) t
  | None => None
  end.

Fixpoint lines_aux (s : string) : string * list string :=
  match s with
  | EmptyString => (EmptyString, [])
  | String c r =>
      let '(l, ls) := lines_aux r in
      if Ascii.eqb c newline then (EmptyString, l :: ls) else (String c l, ls)
  end.
Definition lines (s : string) : list string := let '(l, ls) := lines_aux s in l :: ls.

Fixpoint all_some {A} (l : list (option A)) : option (list A) :=
  match l with
  | [] => Some []
  | Some a :: l => match all_some l with Some r => Some (a :: r) | None => None end
  | None :: _ => None
  end.

(** A whole program: [None] if some line is not a legal sequence of words. *)
Definition parse_program (s : string) : option (list block) := all_some (map parse_line (lines s)).

(** Canonical decimals: an optional minus sign, an integer part without superfluous leading
    zeros, and optionally a point and digits not ending in zero; and not [-0]. *)
Fixpoint all_digits (s : string) : bool :=
  match s with
  | EmptyString => true
  | String c r => match digit_val c with Some _ => all_digits r | None => false end
  end.
Definition is_int_part (s : string) : bool :=
  match s with
  | EmptyString => false
  | String "0"%char EmptyString => true
  | String "0"%char _ => false
  | _ => all_digits s
  end.
Fixpoint last_char (s : string) : option ascii :=
  match s with
  | EmptyString => None
  | String c EmptyString => Some c
  | String _ r => last_char r
  end.
Definition is_frac_part (s : string) : bool :=
  all_digits s &&
  match last_char s with Some c => negb (Ascii.eqb c "0") | None => false end.
Fixpoint split_point (s : string) : string * option string :=
  match s with
  | EmptyString => (EmptyString, None)
  | String c r =>
      if Ascii.eqb c "." then (EmptyString, Some r)
      else let '(a, b) := split_point r in (String c a, b)
  end.
Definition is_canonical_unsigned (s : string) : bool :=
  match split_point s with
  | (a, None) => is_int_part a
  | (a, Some b) => is_int_part a && is_frac_part b
  end.
Definition is_canonical (s : string) : bool :=
  match s with
  | String "-"%char r => is_canonical_unsigned r && negb (String.eqb r "0")
  | _ => is_canonical_unsigned s
  end.

(** Axis word of a block. *)
Fixpoint lookup (l : ascii) (b : block) : option Qc :=
  match b with
  | [] => None
  | W l' v :: b => if Ascii.eqb l l' then Some v else lookup l b
  end.
