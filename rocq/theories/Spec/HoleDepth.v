(** * Specification: the same holes to another depth *)
From Verif Require Import Base.Py Model.Command.
Local Open Scope Qc_scope.

(** The same place, or the bottoms [z] and [z'] of the same hole. *)
Definition same_hole (z z' : Qc) (a b : avec) : Prop := a = b \/ (ax a = ax b /\ ay a = ay b /\ az a = Some z /\ az b = Some z').
(** The same move, if it is a rapid: to the same place; if it is a plunge: from the same place to the
    bottoms [z] and [z'] of the same hole. *)
Inductive other_depth (z z' : Qc) : command -> command -> Prop :=
  | od_rapid k st st' en arrow : same_hole z z' st st' -> other_depth z z' (Motion (MRapid k st en arrow)) (Motion (MRapid k st' en arrow))
  | od_plunge st en en' arrow f : ax en = ax en' -> ay en = ay en' -> az en = Some z -> az en' = Some z' ->
      other_depth z z' (Motion (MCut KPlungeCut st en arrow f)) (Motion (MCut KPlungeCut st en' arrow f)).
Definition a_plunge (c : command) : Prop := match c with Motion (MCut KPlungeCut _ _ _ _) => True | _ => False end.
