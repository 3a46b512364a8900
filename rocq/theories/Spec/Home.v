(** * Specification: where the tool is when it is sent home, and how operations begin *)
From Verif Require Import Base.Str Spec.Gcode Spec.Machine Spec.Moves Model.Job.
Local Open Scope list_scope.

(** The states in which a home move (G28, G30) starts. *)
Fixpoint homes (st : mstate) (bs : list block) : list mstate :=
  match bs with
  | [] => []
  | b :: bs => (if negb (ms_ended st) && is_home (codes "G" b) then [st] else []) ++ homes (fst (exec_block st b)) bs
  end.

(** If there is any motion: the first is a rapid straight up (or down) to height [R], whatever the
    position, and the second a rapid at that height to a place known in X and Y. *)
Definition starts_straight (R : Qc) (ms : list motion) : Prop :=
  match ms with
  | [] => True
  | m :: rest =>
      (rapid m /\ m_start m = av_none /\ m_end m = AV None None (Some R)) /\
      match rest with
      | [] => False
      | m :: _ => rapid m /\ m_start m = AV None None (Some R) /\ exists x y, m_end m = AV (Some x) (Some y) (Some R)
      end
  end.
Definition straight_gen (height : job -> Qc) (gen : job -> result (list command)) : Prop :=
  forall j cmds, gen j = Ok cmds -> exists ms, cmds = map Motion ms /\ starts_straight (height j) ms.
