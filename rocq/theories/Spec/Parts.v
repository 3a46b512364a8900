(** * Work done at once and in parts, and holes selected in another order *)
From Verif Require Import Base.Str Base.Py Spec.Paths Model.Geometry Model.Job.
Local Open Scope list_scope.

(** Jobs that differ in how their commands are divided into operations. *)
Definition same_work (j j' : job) : Prop :=
  with_operations j [] = with_operations j' [] /\ flat_map op_commands (j_operations j) = flat_map op_commands (j_operations j').

(** One call, and two calls on parts of its arguments, the second on the job the first one returned:
    the same error, or the same work. *)
Definition in_parts (once first : heap * result ref) (second : heap -> ref -> heap * result ref) : Prop :=
  match snd first with
  | Err x => snd once = Err x
  | Ok r1 =>
      let s := second (fst first) r1 in
      match snd s with
      | Err x => snd once = Err x
      | Ok r2 => exists r j j', snd once = Ok r /\ hget (fst once) r = Some j /\ hget (fst s) r2 = Some j' /\ same_work j j'
      end
  end.

(** No point is as far from one as from another. *)
Definition no_ties (ps : path) : Prop := forall a b c, In a ps -> In b ps -> In c ps -> sqd a b = sqd a c -> b = c.
