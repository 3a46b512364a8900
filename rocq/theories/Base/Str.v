(** * Strings and Python's decimal printing *)
From Verif Require Export Base.Py.
From Coq Require Export Ascii String.
From Coq Require Import NArith.

Local Open Scope string_scope.
Local Open Scope Z_scope.

Definition newline : ascii := "010"%char.
Definition nl : string := String newline EmptyString.

Definition digit_char (d : N) : ascii := ascii_of_N (48 + d).

(** Decimal digits of a natural number, least significant last. *)
Fixpoint print_N_fuel (fuel : nat) (n : N) (acc : string) : string :=
  match fuel with
  | O => acc
  | S f =>
      let acc' := String (digit_char (N.modulo n 10)) acc in
      if N.eqb (N.div n 10) 0 then acc' else print_N_fuel f (N.div n 10) acc'
  end.
Definition print_N (n : N) : string := print_N_fuel (S (N.size_nat n)) n "".

(** Python's [str] of an [int]. *)
Definition print_Z (z : Z) : string :=
  if z <? 0 then "-" ++ print_N (Z.to_N (- z)) else print_N (Z.to_N z).

Fixpoint zeros (n : nat) : string :=
  match n with O => "" | S n => String "0"%char (zeros n) end.

Fixpoint strip_zeros (s : string) : string :=
  match s with
  | EmptyString => EmptyString
  | String c r =>
      match strip_zeros r with
      | EmptyString => if Ascii.eqb c "0"%char then EmptyString else String c EmptyString
      | r' => String c r'
      end
  end.

(** Python's [repr] of the finite float whose shortest decimal representation is
    [k / 10^p] (CPython [float_repr_style = 'short', format 'r']): positional notation when
    the decimal point position is in [-3 .. 16], otherwise scientific. *)
Definition repr_float_pos (n : N) (p : nat) : string :=
  let d0 := print_N n in
  let decpt := Z.of_nat (String.length d0) - Z.of_nat p in
  let d := strip_zeros d0 in
  let len := Z.of_nat (String.length d) in
  if (16 <? decpt) || (decpt <? -3) then
    let e := decpt - 1 in
    let mant :=
      match d with
      | String c (String c2 r) => String c (String "."%char (String c2 r))
      | _ => d
      end in
    let ae := print_N (Z.to_N (Z.abs e)) in
    mant ++ "e" ++ (if e <? 0 then "-" else "+")
         ++ (if (String.length ae <? 2)%nat then "0" else "") ++ ae
  else if decpt <=? 0 then "0." ++ zeros (Z.to_nat (- decpt)) ++ d
  else if len <=? decpt then d ++ zeros (Z.to_nat (decpt - len)) ++ ".0"
  else String.substring 0 (Z.to_nat decpt) d ++ "."
       ++ String.substring (Z.to_nat decpt) (Z.to_nat (len - decpt)) d.

Definition repr_float (k : Z) (p : nat) : string :=
  if k =? 0 then "0.0"
  else if k <? 0 then "-" ++ repr_float_pos (Z.to_N (- k)) p
  else repr_float_pos (Z.to_N k) p.

(** A Python number that is printed with [str]: an [int], or a [float] given by its shortest
    decimal representation [k / 10^p]. *)
Inductive pynum := PInt (z : Z) | PFloat (k : Z) (p : nat).
Definition pow10 (p : nat) : Z := 10 ^ Z.of_nat p.
Definition pyval (n : pynum) : Qc :=
  match n with PInt z => qz z | PFloat k p => (qz k / qz (pow10 p))%Qc end.
Definition print_pynum (n : pynum) : string :=
  match n with PInt z => print_Z z | PFloat k p => repr_float k p end.

Example repr_ex1 : map (fun '(k, p) => repr_float k p)
   [(1, 5%nat); (15, 6%nat); (10, 0%nat); (-125, 2%nat); (1, 4%nat); (5, 1%nat); (2500, 1%nat);
    (12345678901234567890, 0%nat); (-3, 20%nat)]
   = ["1e-05"; "1.5e-05"; "10.0"; "-1.25"; "0.0001"; "0.5"; "250.0"; "1.234567890123456789e+19"; "-3e-20"].
Proof. reflexivity. Qed.
