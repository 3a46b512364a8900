(** * The places drilled, and the way between them *)
From Verif Require Import Base.Py Model.Geometry Model.Command Model.Job.
Local Open Scope Qc_scope.
Local Open Scope list_scope.

(** Where the cuts of a list of commands end, in their order. *)
Definition cut_places (cs : list command) : path :=
  flat_map (fun c => match c with
    | Motion (MCut _ _ e _ _) => match ax e, ay e with Some x, Some y => [(x, y)] | _, _ => [] end
    | _ => [] end) cs.
(** The length of the way through points on the X axis. *)
Definition on_x_axis (ps : path) : Prop := forall p, In p ps -> snd p = 0.
Fixpoint way (ps : path) : Qc :=
  match ps with
  | a :: (b :: _) as rest => qabs (fst b - fst a) + way rest
  | _ => 0
  end.
