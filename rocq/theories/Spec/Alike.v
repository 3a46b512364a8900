(** * Jobs that differ only in what should not matter *)
From Verif Require Import Base.Str Base.Py Model.Job.
Local Open Scope list_scope.

(** The settings the shape of a tool path may depend on: where the work is, how wide the tool is, how
    high it travels, how finely curves are followed and how many layers there may be.  Not the name,
    the speed, the coolant, the tool number and the operations made before. *)
Definition alike (j j' : job) : Prop :=
  j_top j = j_top j' /\ j_tool_diameter j = j_tool_diameter j' /\ j_rapid_height j = j_rapid_height j' /\
  j_op_safe_height j = j_op_safe_height j' /\ j_precision j = j_precision j' /\ j_max_stepdown_count j = j_max_stepdown_count j'.
Definition same_feeds (j j' : job) : Prop := j_feed j = j_feed j' /\ j_plunge_feed j = j_plunge_feed j'.

(** A command without its feed rate. *)
Definition unfed_motion (m : motion) : motion :=
  match m with
  | MRapid _ _ _ _ => m
  | MCut k s e a _ => MCut k s e a None
  | MArc cw s e c mid a _ => MArc cw s e c mid a None
  end.
Definition unfed (c : command) : command := match c with Motion m => Motion (unfed_motion m) | Config c => Config c end.

(** What an operation makes: the same commands, or the same but for the feed rates, or the same
    error. *)
Definition same_but_feeds (r r' : result (list command)) : Prop :=
  match r, r' with
  | Ok a, Ok b => map unfed a = map unfed b
  | Err x, Err y => x = y
  | _, _ => False
  end.
Definition settled (gen : job -> result (list command)) : Prop :=
  forall j j', alike j j' -> same_feeds j j' -> gen j = gen j'.
Definition path_settled (gen : job -> result (list command)) : Prop :=
  forall j j', alike j j' -> same_but_feeds (gen j) (gen j').

(** ** Calls *)
(** The diameter and the feed rate named in a call. *)
Definition width_named (t : option tool) : option Qc := match t with Some t => t_diameter t | None => None end.
Definition feed_named (t : option tool) : option pynum := match t with Some t => t_feed t | None => None end.
(** Two calls, of which both fail with the same error, or both add an operation, with related
    commands. *)
Definition calls_alike (R : list command -> list command -> Prop) (c c' : heap * result ref) : Prop :=
  match snd c, snd c' with
  | Ok r, Ok r' =>
      exists j j' before before' name cs cs', hget (fst c) r = Some j /\ hget (fst c') r' = Some j' /\
        j_operations j = before ++ [Op r name cs] /\ j_operations j' = before' ++ [Op r' name cs'] /\ R cs cs'
  | Err x, Err x' => x = x'
  | _, _ => False
  end.
Definition same_commands (a b : list command) : Prop := a = b.
Definition same_path (a b : list command) : Prop := map unfed a = map unfed b.
