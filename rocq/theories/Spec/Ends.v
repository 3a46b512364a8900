(** * Specification: how operations end *)
From Verif Require Import Base.Str Base.Py Spec.Moves Model.Geometry Model.Plane Model.Command Model.Job.
Local Open Scope list_scope.

(** The last move, if there is any, is not a rapid. *)
Definition ends_in_cut (ms : list motion) : Prop := ms = [] \/ exists l m, ms = l ++ [m] /\ ~ rapid m.
Definition cut_gen (gen : job -> result (list command)) : Prop :=
  forall j cmds, gen j = Ok cmds -> exists ms, cmds = map Motion ms /\ ends_in_cut ms.
