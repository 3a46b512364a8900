(** * Property C145: dividing the stepdown keeps all passes *)
From Verif Require Import Base.Str Base.Py Model.Geometry Model.Plane Model.Edges Model.Job Model.Routers Model.Tabs Model.Profile Model.Pocket Model.PocketOp
  Spec.Paths Spec.Moves Spec.Wires Spec.Profiles Spec.Layers Spec.OnMachine Spec.Traced Spec.Finer
  Proofs.RouteEx Proofs.TabsEx Proofs.ProfileEx Proofs.PocketEx Proofs.PocketOpEx Proofs.TabsMadeEx Proofs.FinerP Proofs.FinerEx.
Local Open Scope Qc_scope.
Local Open Scope list_scope.

(** ** C145 *)
(** If the stepdown is divided by [m], all tool paths of a profile, with or without tabs, are still
    there, in the same order.
    Full statement: for all wires.  Missing (false in the code, C145_plane_refuted): wires met by the
    plane [clear_of_top] speaks about. *)
Theorem C145_profile_partial : forall m s s', (1 <= m)%nat -> 0 < s' -> s = qz (Z.of_nat m) * s' ->
  forall K TK WK j radius ws o t paths paths',
  (forall bases b, offsets_of K WK (j_top j) radius ws o bases -> In b bases -> lifts TK WK b /\ clear_of_top TK WK (j_top j) b) ->
  toolpaths_of K TK WK j radius ws o (Some s) t paths -> toolpaths_of K TK WK j radius ws o (Some s') t paths' -> among paths paths'.
Proof. exact (fun m s s' M P SM K TK WK j radius ws o t paths paths' => finer_toolpaths m M s s' P SM K TK WK j radius ws o t paths paths'). Qed.
Print Assumptions C145_profile_partial.
(** A smaller stepdown never makes fewer passes. *)
Theorem C145_more_passes_partial : forall TK WK j base s s' ls ls', 0 < s' -> s' <= s -> lifts TK WK base -> clear_of_top TK WK (j_top j) base ->
  profile_layers TK WK j base (Some s) = Ok ls -> profile_layers TK WK j base (Some s') = Ok ls' -> (length ls <= length ls')%nat.
Proof. exact more_layers. Qed.
Print Assumptions C145_more_passes_partial.
(** The contours of a pocket are all still there, in the same order. *)
Theorem C145_pocket : forall m s s' E fuel j areas avoids oo io ao ai so cmds cmds', (1 <= m)%nat -> 0 < s' -> s = qz (Z.of_nat m) * s' ->
  pocket_clipper E fuel j areas avoids oo io ao ai so (Some s) = Ok cmds -> pocket_clipper E fuel j areas avoids oo io ao ai so (Some s') = Ok cmds' ->
  exists ss ss', route_sequences j so false av_none ss = Ok cmds /\ route_sequences j so false av_none ss' = Ok cmds' /\ among ss ss'.
Proof. exact finer_pocket. Qed.
Print Assumptions C145_pocket.
(** A top plane below the origin: the first pass with stepdown 5 is at -1, with stepdown 1 the first is
    at -3. *)
Theorem C145_plane_refuted : exists TK WK j base m s s' ls ls' w, lifts TK WK base /\ (1 <= m)%nat /\ 0 < s' /\ s = qz (Z.of_nat m) * s' /\
  profile_layers TK WK j base (Some s) = Ok ls /\ profile_layers TK WK j base (Some s') = Ok ls' /\ In w ls /\
  forall v, In v ls' -> tk_zmin TK v + (s' + s') <= tk_zmin TK w.
Proof. exact finer_plane_refuted. Qed.
Print Assumptions C145_plane_refuted.

(** A square at -5 with tabs: stepdowns 2 and 1. *)
Example C145_example :
  lifts flat_tk follow_wk tab_square /\ clear_of_top flat_tk follow_wk (j_top ex_job) tab_square /\ qz 2 = qz (Z.of_nat 2) * 1 /\
  offsets_of K0 follow_wk (j_top ex_job) (qq 3 2) [tab_square] (Some 0) [tab_square] /\
  floors (profile_toolpaths flat_tk follow_wk ex_job (Some (qz 2)) edge_tabs tab_square) = [-1; -3; -5]%Z /\
  floors (profile_toolpaths flat_tk follow_wk ex_job (Some 1) edge_tabs tab_square) = [-1; -2; -3; -4; -5]%Z.
Proof. exact ex_finer. Qed.
(** A pocket of depth 4: stepdowns 2 and 1. *)
Example C145_pocket_example :
  run_heights (pocket K0 flat_wk rect_fk box_engine 20 EngClipper ex_job [rface 0 0 10 8 (-4)] None (down_args (qz 2))) = [-2; -4]%Z /\
  run_heights (pocket K0 flat_wk rect_fk box_engine 20 EngClipper ex_job [rface 0 0 10 8 (-4)] None (down_args 1)) = [-1; -2; -3; -4]%Z.
Proof. exact ex_finer_pocket. Qed.
