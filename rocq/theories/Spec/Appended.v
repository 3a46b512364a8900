(** * Specification: jobs made from a job by further calls *)
From Verif Require Import Base.Str Base.Py Spec.Rates Model.Job.
Local Open Scope list_scope.

(** [later h r h' r']: the job at [r'] comes from the one at [r] by calls, each on the job answered by
    the one before.  Whatever is done in between leaves that job alone. *)
Inductive later (h : heap) (r : ref) : heap -> ref -> Prop :=
| later_now : later h r h r
| later_call h1 r1 c h2 r2 : later h r h1 r1 -> user_step h1 r1 c h2 r2 -> later h r h2 r2
| later_other h1 r1 h2 : later h r h1 r1 -> hget h2 r1 = hget h1 r1 -> later h r h2 r1.
