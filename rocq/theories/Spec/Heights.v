(** * Jobs that travel at different heights *)
From Verif Require Import Base.Str Base.Py Model.Command Model.Job Spec.Alike.
Local Open Scope list_scope.

(** Everything a tool path may depend on is the same, but for the height of rapid moves. *)
Definition alike_but_rapid (j j' : job) : Prop :=
  j_top j = j_top j' /\ j_tool_diameter j = j_tool_diameter j' /\ j_op_safe_height j = j_op_safe_height j' /\
  j_precision j = j_precision j' /\ j_max_stepdown_count j = j_max_stepdown_count j' /\ same_feeds j j'.
(** A command; of rapid moves only where they start and end in the plane. *)
Definition flat_avec (v : avec) : avec := AV (ax v) (ay v) None.
Definition flat_rapid (m : motion) : motion :=
  match m with MRapid k s e a => MRapid k (flat_avec s) (flat_avec e) a | _ => m end.
Definition flat_rapids (c : command) : command := match c with Motion m => Motion (flat_rapid m) | Config c => Config c end.
(** The same cuts, rapid moves along the same lines of the plane, or the same error. *)
Definition same_but_rapid_heights (r r' : result (list command)) : Prop :=
  match r, r' with
  | Ok a, Ok b => map flat_rapids a = map flat_rapids b
  | Err x, Err y => x = y
  | _, _ => False
  end.

(** ** The safe height of operations *)
(** The height of rapid moves and the height to which the tool may come down fast may both differ. *)
Definition alike_but_heights (j j' : job) : Prop :=
  j_top j = j_top j' /\ j_tool_diameter j = j_tool_diameter j' /\
  j_precision j = j_precision j' /\ j_max_stepdown_count j = j_max_stepdown_count j' /\ same_feeds j j'.
(** A command: of rapid moves only the line in the plane, of straight cuts not the height they start
    at. *)
Definition flat_start (m : motion) : motion :=
  match m with
  | MRapid k s e a => MRapid k (flat_avec s) (flat_avec e) a
  | MCut k s e a f => MCut k (flat_avec s) e a f
  | MArc _ _ _ _ _ _ _ => m
  end.
Definition flat_starts (c : command) : command := match c with Motion m => Motion (flat_start m) | Config c => Config c end.
(** Cuts made with [PlungeCut]. *)
Definition is_descent (m : motion) : bool := match m with MCut KPlungeCut _ _ _ _ => true | _ => false end.
Definition not_descents (cs : list command) : list command :=
  filter (fun c => match c with Motion m => negb (is_descent m) | Config _ => true end) cs.
(** Everything but the descents is the same. *)
Definition same_but_descents (r r' : result (list command)) : Prop :=
  match r, r' with
  | Ok a, Ok b => map flat_starts (not_descents a) = map flat_starts (not_descents b)
  | Err x, Err y => x = y
  | _, _ => False
  end.
