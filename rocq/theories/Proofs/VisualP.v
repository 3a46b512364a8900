(** Proofs about pictures. *)
From Verif Require Import Base.Str Spec.Jobs Spec.Feeds Spec.Visuals Model.Plane Model.Job Model.Visual Proofs.JobP Proofs.ProgramThmP.
Local Open Scope list_scope.

Definition displaced (K : visual_kernel) (m : motion) : bool := negb (vk_same K (from_point m) (to_point m)).
Lemma from_point_start m : shown_start (m_start m) = from_point m.
Proof. reflexivity. Qed.
Lemma to_point_end m : to_vector (m_end m) (from_vector (from_point m)) false = Ok (to_point m).
Proof. unfold to_vector, to_point. destruct m as [k s [[] [] []] a|k s [[] [] []] a f|cw s [[] [] []] c md a f]; reflexivity. Qed.
Lemma straight_edge K ends m : faithful K ends -> is_arc m = false ->
  (displaced K m = false /\ motion_edge K m = Ok None) \/
  (displaced K m = true /\ exists e, motion_edge K m = Ok (Some e) /\ ends e = (from_point m, to_point m)).
Proof.
  intros HF HA. assert (E : motion_edge K m = (if vk_same K (from_point m) (to_point m) then Ok None
    else do s <- vk_line K (PVector (from_point m)) (PVector (to_point m)); Ok (Some s))).
  { pose proof (to_point_end m) as HT. destruct m as [k s e a|k s e a f|]; try discriminate HA; cbn [motion_edge m_start m_end] in *;
      change (shown_start s) with (from_point (MRapid KRapid s e a)) || idtac; unfold from_point in *; cbn [m_start] in *; rewrite HT; reflexivity. }
  rewrite E. unfold displaced. destruct (vk_same K (from_point m) (to_point m)) eqn:S; [left; auto|right].
  split; [reflexivity|]. destruct (line_ends _ _ HF _ _ S) as (e & -> & H). exists e. split; [reflexivity|exact H].
Qed.
Lemma arc_points m : is_arc m = true -> arc_known m ->
  exists x y z, m_start m = AV (Some x) (Some y) (Some z) /\ from_point m = V3 x y z /\
    exists cw s e c md a f mv, m = MArc cw s e c md a f /\ to_vector e s false = Ok (to_point m) /\ to_vector md s false = Ok mv.
Proof.
  intros H A. destruct m as [| |cw [[x|] [y|] [z|]] e c md a f]; try discriminate H; specialize (A H); cbn in A; destruct A as (A1 & A2 & A3); try congruence.
  exists x, y, z. split; [reflexivity|]. split; [reflexivity|].
  assert (V : exists v, to_vector md (AV (Some x) (Some y) (Some z)) false = Ok v) by (destruct md as [[] [] []]; eexists; reflexivity).
  destruct V as (v & V). do 8 eexists. split; [reflexivity|]. split; [destruct e as [[] [] []]; reflexivity|exact V].
Qed.
Lemma arc_hidden K m : vectors_only K -> is_arc m = true -> arc_known m -> motion_edge K m = Ok None.
Proof.
  intros HV H A. destruct (arc_points m H A) as (x & y & z & _ & _ & cw & s & e & c & md & a & f & mv & -> & E1 & E2).
  cbn [motion_edge]. unfold arc_edge. rewrite E1. cbn [rbind]. rewrite E2. cbn [rbind]. destruct (HV s) as [V1 V2].
  destruct (V1 (PVector mv) (PVector (to_point (MArc cw s e c md a f)))) as (x1 & ->). destruct (V2 (PVector (to_point (MArc cw s e c md a f)))) as (x2 & ->). reflexivity.
Qed.
Lemma arc_shown K ends m : addresses_too K ends -> is_arc m = true -> arc_known m ->
  exists e, motion_edge K m = Ok (Some e) /\ ends e = (from_point m, to_point m).
Proof.
  intros HV H A. destruct (arc_points m H A) as (x & y & z & S & FP & cw & s & e & c & md & a & f & mv & -> & E1 & E2).
  cbn [motion_edge m_start] in *. unfold arc_edge. rewrite E1. cbn [rbind]. rewrite E2. cbn [rbind]. rewrite FP, S.
  destruct (HV x y z mv (to_point (MArc cw s e c md a f))) as (ed & E & En). rewrite S in *. rewrite E. exists ed. auto.
Qed.

(** A picture of commands, given which motions are drawn. *)
Lemma edges_of K ends top (p : motion -> bool) cs : faithful K ends ->
  Forall (fun c => exists m, c = Motion m) cs ->
  (forall m, In m (flat_map command_moves cs) ->
     (p m = false /\ motion_edge K m = Ok None) \/ (p m = true /\ exists e, motion_edge K m = Ok (Some e) /\ ends e = (from_point m, to_point m))) ->
  exists es, visualize_job_as_edges K top cs = Ok es /\ map ends es = map (drawn_ends top) (filter p (flat_map command_moves cs)).
Proof.
  intros HF. induction cs as [|c cs IH]; intros HM HP; [exists []; auto|].
  inversion HM as [|? ? (m & ->) HM']; subst.
  destruct IH as (es & E & EE); [assumption|intros m' Hm'; apply HP; cbn; right; exact Hm'|].
  cbn [visualize_job_as_edges flat_map command_moves app filter].
  destruct (HP m) as [[P ->]|[P (e & -> & En)]]; [left; reflexivity| |]; rewrite P; cbn [rbind].
  - rewrite E. cbn [rbind app]. exists es. auto.
  - destruct (place_ends _ _ HF top e) as (e' & -> & En'). cbn [rbind]. rewrite E. cbn [rbind app]. exists (e' :: es). split; [reflexivity|].
    cbn [map]. rewrite EE. f_equal. rewrite En', En. reflexivity.
Qed.

(** Operations are motions only, or a single configuration command. *)
Definition plain_op (o : operation) : Prop := Forall (fun c => exists m, c = Motion m) (skipn 1 (op_commands o)).
Definition plain_job (j : job) : Prop := Forall plain_op (j_operations j).
Lemma motions_plain ms n : Forall (fun c => exists m, c = Motion m) (skipn n (map Motion ms)).
Proof. rewrite <- map_skipn || idtac. revert n. induction ms as [|m ms IH]; intros [|n]; cbn [map skipn]; try constructor; eauto. apply (IH O). Qed.
Lemma reachable_plain h : reachable h -> Forall plain_job h.
Proof.
  induction 1 as [|h j H IH Hj|h r t name gen H IH Hg].
  - constructor.
  - apply Forall_app. split; [exact IH|]. constructor; [|constructor]. unfold plain_job. rewrite Hj. constructor.
  - assert (U : forall j, plain_job j -> Forall plain_job (fst (update_tool h r j t))).
    { intros j Hj. destruct (update_tool_spec h r j t); simpl.
      - exact IH.
      - apply Forall_app. split; [exact IH|]. constructor; [|constructor]. unfold plain_job in *. simpl.
        apply Forall_app. split; [exact Hj|]. repeat constructor.
      - apply Forall_app. split; [exact IH|]. constructor; [|constructor]. unfold plain_job in *. simpl.
        apply Forall_app. split; [exact Hj|]. repeat constructor.
      - apply Forall_hset; [exact IH|]. exact Hj. }
    unfold fluent_op. destruct (hget h r) as [j|] eqn:Ej; [|exact IH].
    specialize (U j (Forall_hget _ _ _ _ IH Ej)).
    destruct (update_tool h r j t) as [h1 r1] eqn:Eu. simpl in U.
    destruct (hget h1 r1) as [j1|] eqn:Ej1; [|exact U].
    destruct (gen j1) as [cmds|e] eqn:Eg; [|exact U].
    simpl. apply Forall_app. split; [exact U|]. constructor; [|constructor].
    unfold plain_job. simpl. apply Forall_app. split; [exact (Forall_hget _ _ _ _ U Ej1)|].
    constructor; [|constructor]. unfold plain_op. cbn [op_commands]. destruct (Hg _ _ Eg) as (ms & ->). apply motions_plain.
Qed.
Lemma to_edges_of K ends h r j (p : motion -> bool) : faithful K ends -> reachable h -> hget h r = Some j ->
  (forall m, In m (shown_moves j) ->
     (p m = false /\ motion_edge K m = Ok None) \/ (p m = true /\ exists e, motion_edge K m = Ok (Some e) /\ ends e = (from_point m, to_point m))) ->
  exists es, to_edges K j = Ok es /\ map ends es = map (drawn_ends (j_top j)) (filter p (shown_moves j)).
Proof.
  intros HF HR HJ HP. pose proof (Forall_hget _ _ _ _ (reachable_plain h HR) HJ) as W. unfold plain_job in W. unfold to_edges, shown_moves in *. generalize (j_top j). intros top.
  induction W as [|o os W1 W IH]; [exists []; auto|]. cbn [mapM flat_map] in *.
  destruct (edges_of K ends top p (skipn 1 (op_commands o)) HF W1) as (es1 & E1 & M1); [intros m Hm; apply HP, in_or_app; left; exact Hm|].
  destruct IH as (es & E & M); [intros m Hm; apply HP, in_or_app; right; exact Hm|].
  rewrite E1. cbn [rbind]. apply rbind_ok in E as (ess & E & E'). injection E' as <-. rewrite E. cbn [rbind]. eexists. split; [reflexivity|].
  change (List.concat (es1 :: ess)) with (es1 ++ List.concat ess). rewrite filter_app, !map_app, M1, M. reflexivity.
Qed.

(** With vectors only, exactly the straight moves that go somewhere are drawn. *)
Lemma straight_drawn K ends h r j : faithful K ends -> vectors_only K -> reachable h -> hget h r = Some j ->
  Forall arc_known (shown_moves j) ->
  exists es, to_edges K j = Ok es /\
    map ends es = map (drawn_ends (j_top j)) (filter (fun m => negb (is_arc m) && negb (vk_same K (from_point m) (to_point m))) (shown_moves j)).
Proof.
  intros HF HV HR HJ HA. apply (to_edges_of K ends h r j _ HF HR HJ). rewrite Forall_forall in HA. intros m Hm.
  destruct (is_arc m) eqn:A; cbn [negb andb].
  - left. split; [reflexivity|]. apply arc_hidden; auto.
  - apply straight_edge; auto.
Qed.
(** If it took addresses too, all moves would be drawn. *)
Lemma all_drawn K ends h r j : faithful K ends -> addresses_too K ends -> reachable h -> hget h r = Some j ->
  Forall arc_known (shown_moves j) ->
  exists es, to_edges K j = Ok es /\
    map ends es = map (drawn_ends (j_top j)) (filter (fun m => is_arc m || negb (vk_same K (from_point m) (to_point m))) (shown_moves j)).
Proof.
  intros HF HV HR HJ HA. apply (to_edges_of K ends h r j _ HF HR HJ). rewrite Forall_forall in HA. intros m Hm.
  destruct (is_arc m) eqn:A; cbn [orb].
  - right. split; [reflexivity|]. apply arc_shown; auto.
  - apply straight_edge; auto.
Qed.

(** ** Colours *)
(** What is shown of one operation: the straight moves that go somewhere, from start to end, in order,
    coloured by the class of the command if the index is even, dark red if it is odd. *)
Lemma group_of K ms : Forall (fun m => is_arc m = false) ms -> forall alt,
  visualize_job K (map Motion ms) alt = Ok (map (fun ma => (AisLine (from_point (fst ma)) (to_point (fst ma)) (m_arrow (fst ma)),
      if snd ma : bool then "darkred"%string else class_colour (fst ma)))
    (filter (fun ma => negb (vk_same K (from_point (fst ma)) (to_point (fst ma)))) (alternate alt ms))).
Proof.
  induction 1 as [|m ms A _ IH]; intros alt; [reflexivity|]. cbn [map visualize_job alternate filter fst].
  assert (E : motion_ais K m alt = (if vk_same K (from_point m) (to_point m) then Ok None
     else Ok (Some (AisLine (from_point m) (to_point m) (m_arrow m), if alt then "darkred"%string else class_colour m)))).
  { pose proof (to_point_end m) as HT. destruct m as [k s e a|k s e a f|]; try discriminate A; cbn [motion_ais m_start m_end m_arrow] in *;
      unfold from_point in *; cbn [m_start] in *; unfold shown_start; fold (coord (ax s) 0%Qc); fold (coord (ay s) 0%Qc); fold (coord (az s) 0%Qc);
      rewrite HT; destruct k; reflexivity. }
  rewrite E. destruct (vk_same K (from_point m) (to_point m)); cbn [rbind negb]; rewrite IH; reflexivity.
Qed.

(** ** [show] *)
Lemma show_names K j l module : show K module j = Ok l -> map snd l = shown_names (j_name j) 0 (j_operations j).
Proof.
  unfold show. destruct module as [md|]; [|discriminate]. generalize 0%Z. revert l. induction (j_operations j) as [|o os IH]; intros l i H.
  - injection H as <-. reflexivity.
  - apply rbind_ok in H as (s & _ & H). apply rbind_ok in H as (rest & H1 & H2). injection H2 as <-. cbn [map snd shown_names]. rewrite (IH _ _ H1). reflexivity.
Qed.
Lemma show_edges K j l md : md <> "cq_editor"%string -> show K (Some md) j = Ok l ->
  exists ess, map fst l = map (ShownEdges K) ess /\ to_edges K j = Ok (List.concat ess).
Proof.
  intros N. apply String.eqb_neq in N. unfold show, to_edges. rewrite N. generalize 0%Z. revert l. generalize (j_top j). intros top.
  induction (j_operations j) as [|o os IH]; intros l i H.
  - injection H as <-. exists []. auto.
  - apply rbind_ok in H as (s & H0 & H). apply rbind_ok in H0 as (es & H0 & E). injection E as <-.
    apply rbind_ok in H as (rest & H1 & H2). injection H2 as <-. destruct (IH _ _ H1) as (ess & M & T).
    apply rbind_ok in T as (ess' & T & T'). injection T' as T'. exists (es :: ess). cbn [map fst mapM]. rewrite M. split; [reflexivity|].
    rewrite H0. cbn [rbind]. rewrite T. cbn [rbind]. change (List.concat (es :: ess')) with (es ++ List.concat ess'). rewrite T'. reflexivity.
Qed.
Lemma show_groups K j l : show K (Some "cq_editor"%string) j = Ok l ->
  exists gs, map fst l = map (ShownGroup K) gs /\ to_groups K j = Ok gs.
Proof.
  unfold show, to_groups. cbn [String.eqb Ascii.eqb Bool.eqb]. generalize 0%Z. revert l.
  induction (j_operations j) as [|o os IH]; intros l i H.
  - injection H as <-. exists []. auto.
  - apply rbind_ok in H as (s & H0 & H). apply rbind_ok in H0 as (es & H0 & E). injection E as <-.
    apply rbind_ok in H as (rest & H1 & H2). injection H2 as <-. destruct (IH _ _ H1) as (gs & M & T).
    exists (es :: gs). cbn [map fst mapM]. rewrite M. split; [reflexivity|]. rewrite H0. cbn [rbind]. rewrite T. reflexivity.
Qed.

(** ** Axes of the plane *)
Lemma axes_drawn K ends top L : faithful K ends -> orthonormal top ->
  (forall d, In d [p_xdir top; p_ydir top; p_zdir top] -> vk_same K (p_origin top) (vadd (p_origin top) (vscale L d)) = false) ->
  exists ex ey ez, visualize_job_plane K top L = Ok [(ex, "red"); (ey, "green"); (ez, "blue")]%string /\
    axis_to ends top (V3 L 0 0) ex /\ axis_to ends top (V3 0 L 0) ey /\ axis_to ends top (V3 0 0 L) ez.
Proof.
  intros F (XX & YY & ZZ & XY & XZ & YZ) HD.
  destruct (line_ends K ends F _ _ (HD (p_xdir top) (or_introl eq_refl))) as (ex & Ex & Nx).
  destruct (line_ends K ends F _ _ (HD (p_ydir top) (or_intror (or_introl eq_refl)))) as (ey & Ey & Ny).
  destruct (line_ends K ends F _ _ (HD (p_zdir top) (or_intror (or_intror (or_introl eq_refl))))) as (ez & Ez & Nz).
  exists ex, ey, ez. unfold visualize_job_plane. cbn [mapM fst snd]. rewrite Ex, Ey, Ez. split; [reflexivity|].
  destruct top as [[ox oy oz] [x1 x2 x3] [y1 y2 y3] [z1 z2 z3]]. unfold dot in *. cbn [p_origin p_xdir p_ydir p_zdir vx vy vz] in *.
  unfold axis_to. rewrite Nx, Ny, Nz. unfold to_local, dot, vsub, vadd, vscale. cbn [fst snd p_origin p_xdir p_ydir p_zdir vx vy vz].
  repeat split; f_equal.
  - transitivity (L * (x1 * x1 + x2 * x2 + x3 * x3))%Qc; [ring|rewrite XX; ring].
  - transitivity (L * (x1 * y1 + x2 * y2 + x3 * y3))%Qc; [ring|rewrite XY; ring].
  - transitivity (L * (x1 * z1 + x2 * z2 + x3 * z3))%Qc; [ring|rewrite XZ; ring].
  - transitivity (L * (x1 * y1 + x2 * y2 + x3 * y3))%Qc; [ring|rewrite XY; ring].
  - transitivity (L * (y1 * y1 + y2 * y2 + y3 * y3))%Qc; [ring|rewrite YY; ring].
  - transitivity (L * (y1 * z1 + y2 * z2 + y3 * z3))%Qc; [ring|rewrite YZ; ring].
  - transitivity (L * (x1 * z1 + x2 * z2 + x3 * z3))%Qc; [ring|rewrite XZ; ring].
  - transitivity (L * (y1 * z1 + y2 * z2 + y3 * z3))%Qc; [ring|rewrite YZ; ring].
  - transitivity (L * (z1 * z1 + z2 * z2 + z3 * z3))%Qc; [ring|rewrite ZZ; ring].
Qed.
(** Every picture of an operation has them, of length one, next to the moves. *)
Lemma groups_axes K j gs : to_groups K j = Ok gs ->
  Forall2 (fun o (g : picture K) => visualize_job K (skipn 1 (op_commands o)) false = Ok (fst g) /\ visualize_job_plane K (j_top j) 1%Qc = Ok (snd g)) (j_operations j) gs.
Proof.
  intros H. unfold to_groups in H. apply mapM_ok in H. induction H as [|o g os gs H _ IH]; constructor; [|exact IH].
  unfold visualize_job_group in H. apply rbind_ok in H as (a & H1 & H). apply rbind_ok in H as (b & H2 & H). injection H as <-. auto.
Qed.
