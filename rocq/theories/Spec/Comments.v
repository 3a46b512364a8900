(** * Specification: comments of a program *)
From Verif Require Import Base.Str Base.Py Spec.Gcode Model.Groups Model.Job.
Local Open Scope string_scope.
Local Open Scope list_scope.

(** The texts in parentheses, in order. *)
Fixpoint comments_from (inside : option string) (s : string) : list string :=
  match s with
  | EmptyString => []
  | String c r =>
      match inside with
      | None => comments_from (if Ascii.eqb c "(" then Some ""%string else None) r
      | Some t => if Ascii.eqb c ")" then t :: comments_from None r else comments_from (Some (t ++ String c "")%string) r
      end
  end.
Definition comments (s : string) : list string := comments_from None s.

Definition unit_name (u : unit_code) : string := match u with METRIC => "Unit.METRIC" | IMPERIAL => "Unit.IMPERIAL" end.
