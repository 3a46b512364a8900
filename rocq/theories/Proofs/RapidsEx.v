(** Example for Props/Rapids.v: the rapids of the program of Proofs/AxesEx.v. *)
From Verif Require Import Base.Str Base.Py Spec.Gcode Spec.Machine Spec.Program Spec.Rapids Model.Groups Model.Job Proofs.AxesEx.
From Verif Require Proofs.ProgramEx.
Local Open Scope list_scope.

Definition same_axis (a b : option Qc) : bool :=
  match a, b with Some x, Some y => qeqb x y | None, None => true | _, _ => false end.
(** Heights before and after, and whether it goes sideways. *)
Definition rapid_heights (e : event) : list (option Z * option Z * bool) :=
  match ev_kind e with
  | GRapid => [(option_map qfloor (ms_z (ev_from e)), option_map qfloor (ms_z (ev_to e)),
                negb (same_axis (ms_x (ev_from e)) (ms_x (ev_to e)) && same_axis (ms_y (ev_from e)) (ms_y (ev_to e))))]
  | _ => []
  end.
Definition up (z : option Z) (h : Z) := (z, Some h, false).
Definition across (h : Z) (b : bool) := (Some h, Some h, b).
Definition down (h l : Z) := (Some h, Some l, false).
Definition wanted : list (option Z * option Z * bool) :=
  [up None 10; across 10 true; down 10 1; up (Some (-2)%Z) 10; across 10 true; down 10 1; up (Some (-2)%Z) 10; across 10 true; down 10 1;
   up None 1; across 1 true; down 1 0; up (Some (-2)%Z) 1; across 1 true; down 1 0; up (Some (-2)%Z) 1; across 1 false; down 1 0;
   up (Some (-2)%Z) 1; across 1 true; down 1 0; up (Some (-2)%Z) 1; across 1 true; down 1 0]%Z.
Lemma two_rapids : flat_map rapid_heights (snd (run ProgramEx.st_off two_blocks)) = wanted.
Proof. vm_compute. reflexivity. Qed.
