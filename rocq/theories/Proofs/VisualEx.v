(** Examples and witnesses for Props/Visual.v. *)
From Verif Require Import Base.Str Spec.Jobs Spec.Feeds Spec.Moves Spec.Visuals Model.Groups Model.Plane Model.Geometry Model.Edges Model.Job Model.Visual
  Proofs.JobP Proofs.GeomP Proofs.RouteEx Proofs.SurfaceEx Proofs.VisualP.
Local Open Scope Qc_scope.
Local Open Scope list_scope.

(** Edges given by their ends; cq.Vectors only. *)
Definition ends_kernel : visual_kernel :=
  VK (vec * vec) (fun a b => match a, b with PVector a, PVector b => Ok (a, b) | _, _ => Err TypeError end)
     (fun a _ b => match a, b with PVector a, PVector b => Ok (a, b) | _, _ => Err TypeError end)
     (fun a b => vec_eqb a b) (fun p e => Ok (to_world p (fst e), to_world p (snd e))).
(** The same, also taking addresses. *)
Definition liberal_kernel : visual_kernel :=
  VK (vec * vec) (fun a b => match a, b with PVector a, PVector b => Ok (a, b) | _, _ => Err TypeError end)
     (fun a _ b => match a, b with PAddress a, PVector b => Ok (shown_start a, b) | _, _ => Err TypeError end)
     (fun a b => vec_eqb a b) (fun p e => Ok (to_world p (fst e), to_world p (snd e))).
Lemma ends_faithful : faithful ends_kernel (fun e => e) /\ vectors_only ends_kernel.
Proof. split; [split|]; cbn; intros; eauto. split; intros; eexists; reflexivity. Qed.
Lemma liberal_faithful : faithful liberal_kernel (fun e => e) /\ addresses_too liberal_kernel (fun e => e).
Proof. split; [split|]; cbn; intros; eauto. intros x y z m b. eexists. split; reflexivity. Qed.

Definition full (x y z : Z) : avec := AV (Some (qz x)) (Some (qz y)) (Some (qz z)).
Definition picture_moves : list motion :=
  [ mk_rapid (AV None None (Some (qz 10))) None false;
    mk_rapid (AV (Some (qz 1)) (Some (qz 2)) None) (Some (AV None None (Some (qz 10)))) false;
    mk_cut (full 1 2 (-1)) (Some (full 1 2 10)) false (Some (PInt 300));
    mk_arc true (full 3 2 (-1)) (Some (full 1 2 (-1))) (full 2 2 (-1)) (full 2 3 (-1)) false (Some (PInt 300));
    mk_cut (full 3 2 (-1)) (Some (full 3 2 (-1))) false (Some (PInt 300));
    mk_rapid (full 3 2 10) (Some (full 3 2 (-1))) false ].
Definition picture_gen (j : job) : result (list command) := Ok (map Motion picture_moves).
Definition picture_heap : heap := fst (fluent_op [ex_job] 0%nat None "Profile" picture_gen).
Definition picture_job : job := nth 1 picture_heap ex_job.
Lemma picture_reachable : reachable picture_heap.
Proof.
  apply reach_call; [apply (reach_new []); [constructor|reflexivity]|]. intros j cmds [= <-]. exists picture_moves. reflexivity.
Qed.
Lemma picture_known : Forall arc_known (shown_moves picture_job).
Proof. repeat constructor; discriminate || (intros _; cbn; repeat split; discriminate). Qed.
Definition show_ends (r : result (list (vec * vec))) : list (list (Z * Z)) :=
  match r with
  | Ok es => map (fun e => [(qfloor (vx (fst e)), qfloor (vx (snd e))); (qfloor (vy (fst e)), qfloor (vy (snd e))); (qfloor (vz (fst e)), qfloor (vz (snd e)))]) es
  | Err _ => []
  end.
Lemma picture_drawn : show_ends (to_edges ends_kernel picture_job) =
    [[(0, 1); (0, 2); (10, 10)]; [(1, 1); (2, 2); (10, -1)]; [(3, 3); (2, 2); (-1, 10)]]%Z /\
  show_ends (to_edges liberal_kernel picture_job) =
    [[(0, 1); (0, 2); (10, 10)]; [(1, 1); (2, 2); (10, -1)]; [(1, 3); (2, 2); (-1, -1)]; [(3, 3); (2, 2); (-1, 10)]]%Z.
Proof. split; vm_compute; reflexivity. Qed.

(** The arc goes somewhere and is not drawn. *)
Lemma arc_missing : exists K ends h r j m es, faithful K ends /\ vectors_only K /\ reachable h /\ hget h r = Some j /\
  In m (shown_moves j) /\ vk_same K (from_point m) (to_point m) = false /\ to_edges K j = Ok es /\ ~ In (drawn_ends (j_top j) m) (map ends es).
Proof.
  exists ends_kernel, (fun e => e), picture_heap, 1%nat, picture_job, (nth 3 picture_moves (mk_rapid av_none None false)).
  destruct (to_edges ends_kernel picture_job) as [es|e] eqn:E.
  - exists es. split; [apply ends_faithful|]. split; [apply ends_faithful|]. split; [apply picture_reachable|]. split; [reflexivity|].
    split; [cbn; tauto|]. split; [vm_compute; reflexivity|]. split; [reflexivity|].
    destruct (straight_drawn ends_kernel (fun e => e) picture_heap 1%nat picture_job (proj1 ends_faithful) (proj2 ends_faithful) picture_reachable eq_refl picture_known)
      as (es' & E' & M). rewrite E in E'. injection E' as <-. rewrite M. clear E M.
    set (d := drawn_ends _ _). set (l := map _ _).
    assert (X : existsb (fun e => vec_eqb (fst d) (fst e) && vec_eqb (snd d) (snd e)) l = false) by (vm_compute; reflexivity).
    intros HI. assert (Y : existsb (fun e => vec_eqb (fst d) (fst e) && vec_eqb (snd d) (snd e)) l = true); [|congruence].
    apply existsb_exists. exists d. split; [exact HI|]. assert (R : forall v, vec_eqb v v = true) by (intros v; unfold vec_eqb; rewrite !(proj2 (qeqb_eq _ _) eq_refl); reflexivity).
    rewrite !R. reflexivity.
  - exfalso. destruct (straight_drawn ends_kernel (fun e => e) picture_heap 1%nat picture_job (proj1 ends_faithful) (proj2 ends_faithful) picture_reachable eq_refl picture_known)
      as (es' & E' & _). congruence.
Qed.
(** A rapid and a cut in the same colour. *)
Definition dark_moves : list motion :=
  [ mk_cut (full 1 0 0) (Some (full 0 0 0)) false (Some (PInt 300)); mk_rapid (full 2 0 0) (Some (full 1 0 0)) false;
    mk_rapid (full 3 0 0) (Some (full 2 0 0)) false; mk_cut (full 4 0 0) (Some (full 3 0 0)) false (Some (PInt 300)) ].
Lemma same_colour : forall K, (forall a b, vk_same K a b = vec_eqb a b) ->
  exists l, visualize_job K (map Motion dark_moves) false = Ok l /\ map snd l = ["red"; "darkred"; "green"; "darkred"]%string.
Proof.
  intros K HK. rewrite group_of by (repeat constructor). eexists. split; [reflexivity|].
  assert (F : forall l : list (motion * bool), filter (fun ma => negb (vk_same K (from_point (fst ma)) (to_point (fst ma)))) l
                        = filter (fun ma => negb (vec_eqb (from_point (fst ma)) (to_point (fst ma)))) l).
  { induction l as [|x l IH]; [reflexivity|]. cbn [filter]. rewrite HK, IH. reflexivity. }
  rewrite F, map_map. cbn [snd]. vm_compute. reflexivity.
Qed.
(** The second and the fourth of these moves, as displayed. *)
Lemma rapid_looks_like_cut : exists K ms l a b colour,
  In a ms /\ rapid a /\ In b ms /\ ~ rapid b /\ visualize_job K (map Motion ms) false = Ok l /\
  In (AisLine (from_point a) (to_point a) (m_arrow a), colour) l /\ In (AisLine (from_point b) (to_point b) (m_arrow b), colour) l.
Proof.
  exists ends_kernel, dark_moves. rewrite group_of by (repeat constructor).
  eexists. exists (nth 1 dark_moves (MRapid KRapid av_none av_none false)), (nth 3 dark_moves (MRapid KRapid av_none av_none false)), "darkred"%string.
  split; [right; left; reflexivity|]. split; [exact I|]. split; [right; right; right; left; reflexivity|]. split; [intros []|].
  split; [reflexivity|].
  split; apply in_map_iff;
    [exists (nth 1 dark_moves (MRapid KRapid av_none av_none false), true) | exists (nth 3 dark_moves (MRapid KRapid av_none av_none false), true)];
    (split; [reflexivity|]); apply filter_In; (split; [|vm_compute; reflexivity]).
  - right; left; reflexivity.
  - right; right; right; left; reflexivity.
Qed.

(** Axes of a plane turned about z by the angle of a 3-4-5 triangle. *)
Definition tilted : plane := PL (V3 (qz 1) (qz 2) (qz 3)) (V3 (qq 3 5) (qq 4 5) 0) (V3 (qq (-4) 5) (qq 3 5) 0) (V3 0 0 1).
Definition show_axes (r : result (list ((vec * vec) * string))) : list (list Z * list Z * string) :=
  let floors v := [qfloor (vx v); qfloor (vy v); qfloor (vz v)] in
  match r with Ok l => map (fun x => (floors (fst (fst x)), floors (snd (fst x)), snd x)) l | Err _ => [] end.
Lemma axes_example : faithful ends_kernel (fun e => e) /\ orthonormal tilted /\
  (forall d, In d [p_xdir tilted; p_ydir tilted; p_zdir tilted] -> vk_same ends_kernel (p_origin tilted) (vadd (p_origin tilted) (vscale (qz 5) d)) = false) /\
  show_axes (visualize_job_plane ends_kernel tilted (qz 5)) =
    [([1; 2; 3], [4; 6; 3], "red"); ([1; 2; 3], [-3; 5; 3], "green"); ([1; 2; 3], [1; 2; 8], "blue")]%Z%string /\
  match to_groups ends_kernel picture_job with Ok gs => map (fun g => (List.length (fst g), List.length (snd g))) gs | Err _ => [] end = [(3, 3)]%nat.
Proof.
  split; [exact (proj1 ends_faithful)|]. split; [repeat split; apply Qc_is_canon; vm_compute; reflexivity|].
  split; [|split; vm_compute; reflexivity].
  intros d Hd. cbn in Hd. repeat (destruct Hd as [<-|Hd]; [vm_compute; reflexivity|]). destruct Hd.
Qed.
