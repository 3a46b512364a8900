(** * Property C150: a deeper pocket repeats the passes of a shallower one *)
From Verif Require Import Base.Str Base.Py Model.Geometry Model.Plane Model.Edges Model.Job Model.Routers Model.Tabs Model.Profile Model.Pocket
  Spec.Paths Spec.Profiles Spec.Layers Spec.Deeper Proofs.RouteEx Proofs.TabsEx Proofs.ProfileEx Proofs.LayersEx Proofs.PocketEx Proofs.FinerEx Proofs.DeeperP Proofs.DeeperProfileP Proofs.DeeperEx.
Local Open Scope Qc_scope.
Local Open Scope list_scope.

(** ** C150 *)
(** The same areas as a pocket of depth [d] and as a deeper one, all avoid areas at or above [d]: the contours above [d] are the same, in
    the same order, and everything else of the shallower pocket is at its floor [d]. *)
Theorem C150_pocket : forall E fuel j areas avoids oo io ao ai so s d d' cmds cmds', contains_flat E -> 0 < s -> d' <= d -> d <= 0 -> (forall f, In f avoids -> d <= pf_depth f) ->
  pocket_clipper E fuel j (map (with_depth d) areas) avoids oo io ao ai so (Some s) = Ok cmds -> pocket_clipper E fuel j (map (with_depth d') areas) avoids oo io ao ai so (Some s) = Ok cmds' ->
  exists ss ss', route_sequences j so false av_none ss = Ok cmds /\ route_sequences j so false av_none ss' = Ok cmds' /\
    filter (over d) ss' = filter (over d) ss /\ forall q f, In q ss -> over d q = false -> In f q -> pf_depth f = d.
Proof. exact deeper_pocket. Qed.
Print Assumptions C150_pocket.
(** If the area stays one piece, the deeper program begins with the very commands of the shallower one
    down to the last pass before its floor. *)
Theorem C150_program : forall E fuel j areas avoids oo io ao ai so s d d' cmds cmds', contains_flat E -> 0 < s -> d' <= d -> d <= 0 -> (forall f, In f avoids -> d <= pf_depth f) ->
  (forall os vs r, mapM (fun f => offset_polyface E f oo io (j_precision j)) (map (with_depth d) areas) = Ok os ->
    mapM (fun f => offset_polyface E f ao ai (j_precision j)) avoids = Ok vs -> build_pocket_ops E (concat os) (concat vs) = Ok r -> exists g, r = [g]) ->
  pocket_clipper E fuel j (map (with_depth d) areas) avoids oo io ao ai so (Some s) = Ok cmds -> pocket_clipper E fuel j (map (with_depth d') areas) avoids oo io ao ai so (Some s) = Ok cmds' ->
  exists pre fin c t t', route_sequences j so false av_none (pre ++ fin) = Ok cmds /\ route_sequences j so false av_none pre = Ok c /\ cmds = c ++ t /\ cmds' = c ++ t' /\
    (forall q f, In q pre -> In f q -> d < pf_depth f) /\ (forall q f, In q fin -> In f q -> pf_depth f = d).
Proof. exact deeper_start. Qed.
Print Assumptions C150_program.
(** Without a stepdown the two pockets are the same contours at the two depths, or fail alike before they
    are routed. *)
Theorem C150_plain : forall E fuel j areas avoids oo io ao ai so d d', d' <= d -> d <= 0 -> (forall f, In f avoids -> d <= pf_depth f) ->
  (exists ss, (forall q f, In q ss -> In f q -> pf_depth f = d) /\
    pocket_clipper E fuel j (map (with_depth d) areas) avoids oo io ao ai so None = route_sequences j so false av_none ss /\
    pocket_clipper E fuel j (map (with_depth d') areas) avoids oo io ao ai so None = route_sequences j so false av_none (map (map (with_depth d')) ss)) \/
  (exists e, pocket_clipper E fuel j (map (with_depth d) areas) avoids oo io ao ai so None = Err e /\ pocket_clipper E fuel j (map (with_depth d') areas) avoids oo io ao ai so None = Err e).
Proof. exact plain_pocket. Qed.
Print Assumptions C150_plain.
(** An avoid area between the two floors does not matter to the shallower pocket, but keeps the deeper one
    away from the material above it: here the deeper pocket is left out altogether. *)
Theorem C150_avoid_refuted : exists E fuel j areas avoids so s d d' cmds, contains_flat E /\ 0 < s /\ d' <= d /\ d <= 0 /\ (forall f, In f avoids -> d' < pf_depth f) /\
  pocket_clipper E fuel j (map (with_depth d) areas) avoids 0 0 0 0 so (Some s) = Ok cmds /\ (4 < length cmds)%nat /\
  pocket_clipper E fuel j (map (with_depth d') areas) avoids 0 0 0 0 so (Some s) = Ok [].
Proof. exact avoid_between. Qed.
Print Assumptions C150_avoid_refuted.
(** Not so for profiles, whose passes are counted from the floor upwards: here a profile one deeper has no
    pass at any height of the other. *)
Theorem C150_profile_refuted : exists TK WK j base base' s d ls ls', lifts TK WK base /\ lifts TK WK base' /\ 0 < d /\ 0 < s /\ base = wk_moved WK base' d /\
  profile_layers TK WK j base (Some s) = Ok ls /\ profile_layers TK WK j base' (Some s) = Ok ls' /\ (2 <= length ls)%nat /\
  forall w w', In w ls -> In w' ls' -> tk_zmin TK w <> tk_zmin TK w'.
Proof. exact deeper_profile. Qed.
Print Assumptions C150_profile_refuted.

(** It is so for profiles if the floors are a multiple of the stepdown apart: the deeper profile has the
    layers of the shallower one first, and then [m] more. *)
Theorem C150_profile_multiple : forall TK WK j base base' s m ls ls', 0 < s -> (1 <= m)%nat -> (forall a b, wk_moved WK (wk_moved WK base' a) b = wk_moved WK base' (a + b)) ->
  lifts TK WK base' -> clear_of_top TK WK (j_top j) base' -> base = wk_moved WK base' (s * qz (Z.of_nat m)) -> tk_zmin TK base < qq (-1) 1000 ->
  profile_layers TK WK j base (Some s) = Ok ls -> profile_layers TK WK j base' (Some s) = Ok ls' ->
  exists more, ls' = ls ++ more /\ length more = m.
Proof. exact deeper_layers. Qed.
Print Assumptions C150_profile_multiple.

(** A box at -3 and at -7 with stepdown 2. *)
Example C150_example : contains_flat box_engine /\
  run_heights (pocket_clipper box_engine 10 ex_job (map (with_depth (qz (-3))) [box_pocket]) [] 0 0 0 0 1 (Some (qz 2))) = [-2; -3]%Z /\
  run_heights (pocket_clipper box_engine 10 ex_job (map (with_depth (qz (-7))) [box_pocket]) [] 0 0 0 0 1 (Some (qz 2))) = [-2; -4; -6; -7]%Z.
Proof. exact ex_deeper. Qed.
Example C150_example_piece : forall os vs r, mapM (fun f => offset_polyface box_engine f 0 0 (j_precision ex_job)) (map (with_depth (qz (-3))) [box_pocket]) = Ok os ->
  mapM (fun f => offset_polyface box_engine f 0 0 (j_precision ex_job)) [] = Ok vs -> build_pocket_ops box_engine (concat os) (concat vs) = Ok r -> exists g, r = [g].
Proof. exact box_one_piece. Qed.
Example C150_example_avoid : contains_flat beside_engine /\ qz (-3) <= pf_depth high_avoid /\
  run_heights (pocket_clipper beside_engine 10 ex_job (map (with_depth (qz (-3))) [box_pocket]) [high_avoid] 0 0 0 0 1 (Some (qz 2))) = [-2; -3]%Z /\
  run_heights (pocket_clipper beside_engine 10 ex_job (map (with_depth (qz (-7))) [box_pocket]) [high_avoid] 0 0 0 0 1 (Some (qz 2))) = [-2; -4; -6; -7]%Z.
Proof. exact ex_beside. Qed.
(** A rectangle at -3 and at -7 with stepdown 2. *)
Example C150_example_profile : let base' := zrect 0 0 20 10 (-7) in let base := wk_moved anew_wk base' (qz 2 * qz (Z.of_nat 2)) in
  (forall a b, wk_moved anew_wk (wk_moved anew_wk base' a) b = wk_moved anew_wk base' (a + b)) /\ lifts flat_tk anew_wk base' /\ clear_of_top flat_tk anew_wk (j_top ex_job) base' /\
  tk_zmin flat_tk base < qq (-1) 1000 /\
  floors (profile_layers flat_tk anew_wk ex_job base (Some (qz 2))) = [-1; -3]%Z /\ floors (profile_layers flat_tk anew_wk ex_job base' (Some (qz 2))) = [-1; -3; -5; -7]%Z.
Proof. exact ex_deeper_profile. Qed.
Example C150_example_plain :
  run_heights (pocket_clipper beside_engine 10 ex_job (map (with_depth (qz (-3))) [box_pocket]) [high_avoid] 0 0 0 0 1 None) = [-3]%Z /\
  run_heights (pocket_clipper beside_engine 10 ex_job (map (with_depth (qz (-7))) [box_pocket]) [high_avoid] 0 0 0 0 1 None) = [-7]%Z.
Proof. split; vm_compute; reflexivity. Qed.
