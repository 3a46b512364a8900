(** * Theorems about pictures of jobs (C63, C77, C78, C106) *)
From Verif Require Import Base.Str Base.Py Model.Groups Model.Plane Model.Geometry Model.Edges Model.Job Model.Visual
  Spec.Jobs Spec.Feeds Spec.Moves Spec.Visuals Proofs.VisualP Proofs.VisualEx Proofs.RouteEx Proofs.SurfaceEx.
Local Open Scope list_scope.

(** ** C63: an edge for each command after the first that goes somewhere.
    Full statement: also for arcs.  With a kernel that takes cq.Vectors only (as cadquery does),
    exactly the straight moves are drawn. *)
Theorem C63_straight_moves_drawn_partial : forall K ends h r j, faithful K ends -> vectors_only K -> reachable h -> hget h r = Some j ->
  Forall arc_known (shown_moves j) ->
  exists es, to_edges K j = Ok es /\
    map ends es = map (drawn_ends (j_top j)) (filter (fun m => negb (is_arc m) && negb (vk_same K (from_point m) (to_point m))) (shown_moves j)).
Proof. exact straight_drawn. Qed.
Print Assumptions C63_straight_moves_drawn_partial.
(** With one that also takes AddressVectors, arcs are drawn too. *)
Theorem C63_all_moves_drawn_partial : forall K ends h r j, faithful K ends -> addresses_too K ends -> reachable h -> hget h r = Some j ->
  Forall arc_known (shown_moves j) ->
  exists es, to_edges K j = Ok es /\
    map ends es = map (drawn_ends (j_top j)) (filter (fun m => is_arc m || negb (vk_same K (from_point m) (to_point m))) (shown_moves j)).
Proof. exact all_drawn. Qed.
Print Assumptions C63_all_moves_drawn_partial.
Example C63_example :
  (faithful ends_kernel (fun e => e) /\ vectors_only ends_kernel) /\ (faithful liberal_kernel (fun e => e) /\ addresses_too liberal_kernel (fun e => e)) /\
  reachable picture_heap /\ Forall arc_known (shown_moves picture_job) /\
  show_ends (to_edges ends_kernel picture_job) =
    [[(0, 1); (0, 2); (10, 10)]; [(1, 1); (2, 2); (10, -1)]; [(3, 3); (2, 2); (-1, 10)]]%Z /\
  show_ends (to_edges liberal_kernel picture_job) =
    [[(0, 1); (0, 2); (10, 10)]; [(1, 1); (2, 2); (10, -1)]; [(1, 3); (2, 2); (-1, -1)]; [(3, 3); (2, 2); (-1, 10)]]%Z.
Proof. exact (conj ends_faithful (conj liberal_faithful (conj picture_reachable (conj picture_known picture_drawn)))). Qed.
Theorem C63_every_move_drawn_refuted : exists K ends h r j m es, faithful K ends /\ vectors_only K /\ reachable h /\ hget h r = Some j /\
  In m (shown_moves j) /\ vk_same K (from_point m) (to_point m) = false /\ to_edges K j = Ok es /\ ~ In (drawn_ends (j_top j) m) (map ends es).
Proof. exact arc_missing. Qed.
Print Assumptions C63_every_move_drawn_refuted.

(** ** C77: rapids and cuts have different colours.
    False: the moves with an odd index are dark red, whatever they are. *)
Theorem C77_colours : forall K ms, Forall (fun m => is_arc m = false) ms -> forall alt,
  visualize_job K (map Motion ms) alt = Ok (map (fun ma => (AisLine (from_point (fst ma)) (to_point (fst ma)) (m_arrow (fst ma)),
      if snd ma : bool then "darkred"%string else class_colour (fst ma)))
    (filter (fun ma => negb (vk_same K (from_point (fst ma)) (to_point (fst ma)))) (alternate alt ms))).
Proof. exact group_of. Qed.
Print Assumptions C77_colours.
Theorem C77_colours_differ_refuted : exists K ms l a b colour,
  In a ms /\ rapid a /\ In b ms /\ ~ rapid b /\ visualize_job K (map Motion ms) false = Ok l /\
  In (AisLine (from_point a) (to_point a) (m_arrow a), colour) l /\ In (AisLine (from_point b) (to_point b) (m_arrow b), colour) l.
Proof. exact rapid_looks_like_cut. Qed.
Print Assumptions C77_colours_differ_refuted.
Example C77_example : Forall (fun m => is_arc m = false) dark_moves /\ List.length dark_moves = 4%nat.
Proof. repeat constructor. Qed.

(** ** C78 *)
(** [show] passes one object per operation, in order, named by job, index and operation; the objects
    are those of [to_shapes]. *)
Theorem C78_show_names : forall K j l module, show K module j = Ok l -> map snd l = shown_names (j_name j) 0 (j_operations j).
Proof. exact show_names. Qed.
Print Assumptions C78_show_names.
Theorem C78_show_edges : forall K j l md, md <> "cq_editor"%string -> show K (Some md) j = Ok l ->
  exists ess, map fst l = map (ShownEdges K) ess /\ to_edges K j = Ok (List.concat ess).
Proof. exact show_edges. Qed.
Print Assumptions C78_show_edges.
Theorem C78_show_groups : forall K j l, show K (Some "cq_editor"%string) j = Ok l ->
  exists gs, map fst l = map (ShownGroup K) gs /\ to_groups K j = Ok gs.
Proof. exact show_groups. Qed.
Print Assumptions C78_show_groups.
Theorem C78_nothing_to_show_with : forall K j, show K None j = Err ValueError.
Proof. reflexivity. Qed.
Print Assumptions C78_nothing_to_show_with.
Example C78_example : match show ends_kernel (Some "ocp_vscode"%string) picture_job with Ok l => map snd l | Err _ => [] end = ["part #0 Profile"%string].
Proof. vm_compute. reflexivity. Qed.

(** ** C106: the axes of the plane of the job are drawn with the moves *)
(** From the origin along each local axis, red, green and blue in that order. *)
Theorem C106_axes : forall K ends top L, faithful K ends -> orthonormal top ->
  (forall d, In d [p_xdir top; p_ydir top; p_zdir top] -> vk_same K (p_origin top) (vadd (p_origin top) (vscale L d)) = false) ->
  exists ex ey ez, visualize_job_plane K top L = Ok [(ex, "red"); (ey, "green"); (ez, "blue")]%string /\
    axis_to ends top (V3 L 0 0) ex /\ axis_to ends top (V3 0 L 0) ey /\ axis_to ends top (V3 0 0 L) ez.
Proof. exact axes_drawn. Qed.
Print Assumptions C106_axes.
Theorem C106_in_every_picture : forall K j gs, to_groups K j = Ok gs ->
  Forall2 (fun o (g : picture K) => visualize_job K (skipn 1 (op_commands o)) false = Ok (fst g) /\ visualize_job_plane K (j_top j) 1%Qc = Ok (snd g)) (j_operations j) gs.
Proof. exact groups_axes. Qed.
Print Assumptions C106_in_every_picture.
Example C106_example : faithful ends_kernel (fun e => e) /\ orthonormal tilted /\
  (forall d, In d [p_xdir tilted; p_ydir tilted; p_zdir tilted] -> vk_same ends_kernel (p_origin tilted) (vadd (p_origin tilted) (vscale (qz 5) d)) = false) /\
  show_axes (visualize_job_plane ends_kernel tilted (qz 5)) =
    [([1; 2; 3], [4; 6; 3], "red"); ([1; 2; 3], [-3; 5; 3], "green"); ([1; 2; 3], [1; 2; 8], "blue")]%Z%string /\
  match to_groups ends_kernel picture_job with Ok gs => map (fun g => (List.length (fst g), List.length (snd g))) gs | Err _ => [] end = [(3, 3)]%nat.
Proof. exact axes_example. Qed.
