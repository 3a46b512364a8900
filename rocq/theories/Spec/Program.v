(** * Specification: the blocks of a whole program *)
From Verif Require Import Base.Str Spec.Gcode Spec.Blocks Model.Groups Model.Job.
Local Open Scope list_scope.
Local Open Scope Z_scope.

(** An operation: its comment (an empty block) and its commands. *)
Definition op_blocks (o : operation) : list block := [] :: flat_map command_blocks (op_commands o).

(** Operations are separated by two blank lines; without operations there is one blank line. *)
Fixpoint ops_blocks (os : list operation) : list block :=
  match os with
  | [] => [[]]
  | [o] => op_blocks o
  | o :: os => op_blocks o ++ [[]; []] ++ ops_blocks os
  end.

Definition header_blocks (j : job) : list block :=
  [[]] ++ safety_blocks ++ [start_block (j_speed j) (j_coolant j)].
Definition footer_blocks (j : job) : list block :=
  safety_blocks ++ [stop_block (j_coolant j)] ++ [[mword 30]].
Definition program_blocks (j : job) : list block :=
  header_blocks j ++ ops_blocks (j_operations j) ++ footer_blocks j.

(** Everything in the job can be printed as plain G-code: names without parentheses or line
    breaks, numbers in plain decimal range, arcs with a known start. *)
Definition op_printable (h : heap) (o : operation) : Prop :=
  (exists owner, hget h (op_job o) = Some owner /\ comment_safe (j_name owner) = true) /\
  comment_safe (op_name o) = true /\ Forall command_ok (op_commands o).
Definition job_printable (h : heap) (j : job) : Prop :=
  comment_safe (j_name j) = true /\ plain_num (j_feed j) /\ plain_opt (j_speed j) /\
  Forall (op_printable h) (j_operations j).
