(** * Property C152: a stepdown only adds passes above the floor *)
From Verif Require Import Base.Str Base.Py Model.Geometry Model.Edges Model.Routers Model.Tabs Model.Profile Model.Pocket Spec.Finer Spec.Deeper Spec.FloorPass
  Proofs.RouteEx Proofs.TabsEx Proofs.ProfileEx Proofs.PocketEx Proofs.TabsMadeEx Proofs.FinerEx Proofs.FloorPassP.
Local Open Scope Qc_scope.
Local Open Scope list_scope.

(** ** C152 *)
(** A pocket with a stepdown has all contours of the pocket without one, in the same order, and every other
    contour is one of these raised. *)
Theorem C152_pocket : forall E fuel j areas avoids oo io ao ai so s cmds cmds0, 0 < s ->
  pocket_clipper E fuel j areas avoids oo io ao ai so (Some s) = Ok cmds -> pocket_clipper E fuel j areas avoids oo io ao ai so None = Ok cmds0 ->
  exists ss ss0, route_sequences j so false av_none ss = Ok cmds /\ route_sequences j so false av_none ss0 = Ok cmds0 /\ among ss0 ss /\ forall q, In q ss -> In q ss0 \/ raised ss0 q.
Proof. exact pocket_floors. Qed.
Print Assumptions C152_pocket.
(** The tool path of a profile without a stepdown is the last one with a stepdown, with tabs or without. *)
Theorem C152_profile : forall TK WK j s t base ps ps0, profile_toolpaths TK WK j (Some s) t base = Ok ps -> profile_toolpaths TK WK j None t base = Ok ps0 ->
  exists upper w, ps = upper ++ [w] /\ ps0 = [w].
Proof. exact profile_floor. Qed.
Print Assumptions C152_profile.

(** A box with stepdown 1 and without, and a square with tabs. *)
Example C152_example :
  run_heights (pocket_clipper box_engine 10 ex_job (map (with_depth (qz (-3))) [box_pocket]) [] 0 0 0 0 1 (Some 1)) = [-1; -2; -3]%Z /\
  run_heights (pocket_clipper box_engine 10 ex_job (map (with_depth (qz (-3))) [box_pocket]) [] 0 0 0 0 1 None) = [-3]%Z /\
  floors (profile_toolpaths flat_tk follow_wk ex_job (Some (qz 2)) edge_tabs tab_square) = [-1; -3; -5]%Z /\
  floors (profile_toolpaths flat_tk follow_wk ex_job None edge_tabs tab_square) = [-5]%Z.
Proof. repeat split; vm_compute; reflexivity. Qed.
