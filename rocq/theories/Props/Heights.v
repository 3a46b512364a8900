(** * The height of rapid moves (C133) and the height operations are safe at (C134) *)
From Verif Require Import Base.Str Base.Py Model.Groups Model.Geometry Model.Plane Model.Edges Model.Command Model.Job Model.Routers Model.Pocket Model.Profile Model.Drill Model.Strategy Model.Surface Model.PocketOp Model.Tabs
  Spec.Alike Spec.Heights Proofs.HeightsP Proofs.SafeP Proofs.RouteEx Proofs.HeightsEx.
Local Open Scope list_scope.

(** ** C133 *)
(** Jobs that differ in the height of rapid moves (and in what C125 leaves out) fail alike or make
    the same cuts, from and to the same places, and rapid moves along the same lines of the plane. *)
Theorem C133_profile : forall K TK WK outers inners oo io sd t j j', alike_but_rapid j j' ->
  same_but_rapid_heights (profile_gen K TK WK outers inners oo io sd t j) (profile_gen K TK WK outers inners oo io sd t j').
Proof. exact profile_gen_heights. Qed.
Print Assumptions C133_profile.
Theorem C133_wire_profile : forall K TK WK ws o sd t j j', alike_but_rapid j j' ->
  same_but_rapid_heights (wire_profile_gen K TK WK ws o sd t j) (wire_profile_gen K TK WK ws o sd t j').
Proof. exact wire_profile_gen_heights. Qed.
Print Assumptions C133_wire_profile.
Theorem C133_pocket : forall K WK F E fuel areas avoids a j j', alike_but_rapid j j' ->
  same_but_rapid_heights (pocket_gen K WK F E fuel areas avoids a j) (pocket_gen K WK F E fuel areas avoids a j').
Proof. exact pocket_gen_heights. Qed.
Print Assumptions C133_pocket.
Theorem C133_surface : forall K C a objects j j', alike_but_rapid j j' -> same_but_rapid_heights (surface_gen K C a objects j) (surface_gen K C a objects j').
Proof. exact surface_gen_heights. Qed.
Print Assumptions C133_surface.
(** Drilling does not use that height at all: it travels at the safe height. *)
Theorem C133_drill : forall objects z j j', alike_but_rapid j j' -> drill_gen objects z j = drill_gen objects z j'.
Proof. exact drill_gen_heights. Qed.
Print Assumptions C133_drill.
Example C133_example : alike_but_rapid ex_job high_job /\ j_rapid_height ex_job <> j_rapid_height high_job /\
  tops (plate_gen ex_job) = [10; 10; 1; 10; 10; 1]%Z /\ tops (plate_gen high_job) = [50; 50; 1; 50; 50; 1]%Z.
Proof. exact ex_heights. Qed.

(** ** C134 *)
(** Jobs that differ in the height the tool comes down to fast, and in the height of rapid moves, fail
    alike or make the same moves, but for the descents ([PlungeCut]s): the same rapid moves in the
    plane, and cuts that start at the same places of the plane and end at the same points. *)
Theorem C134_profile : forall K TK WK outers inners oo io sd t j j', alike_but_heights j j' ->
  same_but_descents (profile_gen K TK WK outers inners oo io sd t j) (profile_gen K TK WK outers inners oo io sd t j').
Proof. exact profile_gen_safe. Qed.
Print Assumptions C134_profile.
Theorem C134_wire_profile : forall K TK WK ws o sd t j j', alike_but_heights j j' ->
  same_but_descents (wire_profile_gen K TK WK ws o sd t j) (wire_profile_gen K TK WK ws o sd t j').
Proof. exact wire_profile_gen_safe. Qed.
Print Assumptions C134_wire_profile.
Theorem C134_pocket : forall K WK F E fuel areas avoids a j j', alike_but_heights j j' ->
  same_but_descents (pocket_gen K WK F E fuel areas avoids a j) (pocket_gen K WK F E fuel areas avoids a j').
Proof. exact pocket_gen_safe. Qed.
Print Assumptions C134_pocket.
Theorem C134_surface : forall K C a objects j j', alike_but_heights j j' -> same_but_descents (surface_gen K C a objects j) (surface_gen K C a objects j').
Proof. exact surface_gen_safe. Qed.
Print Assumptions C134_surface.
(** The cuts of drilling are descents: all of them end at the same points. *)
Theorem C134_drill : forall objects z j j', alike_but_heights j j' ->
  match drill_gen objects z j, drill_gen objects z j' with
  | Ok a, Ok b => map flat_starts a = map flat_starts b
  | Err x, Err y => x = y
  | _, _ => False
  end.
Proof. exact drill_gen_same. Qed.
Print Assumptions C134_drill.
(** Descents from 1 or from 4 above the work, and none at all when the safe height
    is below the cut: then the tool comes down fast to that height. *)
Example C134_example : alike_but_heights ex_job careful_job /\
  descents_from (plate_gen ex_job) = [1; 1]%Z /\ descents_from (plate_gen careful_job) = [4; 4]%Z /\
  tops (plate_gen careful_job) = [50; 50; 4; 50; 50; 4]%Z /\ cuts_in (plate_gen ex_job) = 8%nat.
Proof. exact ex_safe. Qed.
Example C134_sunk_example : alike_but_heights ex_job sunk_job /\ descents_from (plate_gen sunk_job) = [] /\
  tops (plate_gen sunk_job) = [50; 50; -3; 50; 50; -3]%Z.
Proof. exact ex_sunk. Qed.
