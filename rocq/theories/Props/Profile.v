(** * Theorems about profiles (C17, C40, C41, C62, C67, C68, C99) *)
From Verif Require Import Base.Str Base.Py Model.Geometry Model.Profile Spec.Paths Spec.Moves Spec.Wires Spec.Profiles
  Spec.Jobs Proofs.RouteEx Proofs.ProfileP Proofs.ProfileThmP Proofs.ProfileEx.
From Verif Require Import Spec.Layers Proofs.LayersP Proofs.LayersEx.
From Verif Require Import Spec.Tabs Proofs.TabsEx Proofs.ProfileTabsP.
Local Open Scope Qc_scope.
Local Open Scope list_scope.

(** ** C17 *)
(** Without a diameter, without offsets or with an unsupported shape: ValueError and nothing has
    happened.  Otherwise the operation runs, with the outer and inner wires of the shapes. *)
Theorem C17_checks : forall K TK WK h r j shapes oo io sd t tl, hget h r = Some j ->
  (j_tool_diameter j = None \/ (oo = None /\ io = None) \/ In SOther shapes ->
   job_profile K TK WK h r shapes oo io sd t tl = (h, Err ValueError)) /\
  (~ (j_tool_diameter j = None \/ (oo = None /\ io = None) \/ In SOther shapes) ->
   job_profile K TK WK h r shapes oo io sd t tl =
     fluent_op h r tl "Profile" (profile_gen K TK WK (flat_map outer_of shapes) (flat_map inners_of shapes) oo io sd t)).
Proof. exact job_profile_rejects. Qed.
Print Assumptions C17_checks.

(** The diameter of the tool argument does not help. *)
Theorem C17_tool_argument_refuted : exists K TK WK j shapes oo tl h' r',
  tool_settings j (Some tl) = (None, Some (qz 3), j_feed j, None) /\
  job_profile K TK WK [j] 0%nat shapes (Some oo) None None None (Some tl) = ([j], Err ValueError) /\
  job_profile K TK WK [with_tool j None (Some (qz 3)) (j_feed j) None] 0%nat shapes (Some oo) None None None (Some tl) = (h', Ok r').
Proof. exact tool_argument_rejected. Qed.
Print Assumptions C17_tool_argument_refuted.

(** A diameter of zero passes the check and fails later, with another error. *)
Theorem C17_zero_diameter : forall K TK WK h r j w o sd t,
  hget h r = Some j -> j_tool_diameter j = Some 0 ->
  job_profile K TK WK h r [SWire w] (Some o) None sd t None = (h, Err TypeError).
Proof. exact zero_diameter_accepted. Qed.
Print Assumptions C17_zero_diameter.

(** wire_profile has no check: TypeError, and a tool argument is kept. *)
Theorem C17_wire_profile_unchecked : forall K TK WK h r j w ws o sd t, hget h r = Some j -> tool_radius j = None ->
  job_wire_profile K TK WK h r (w :: ws) o sd t None = (h, Err TypeError).
Proof. exact wire_profile_no_radius. Qed.
Print Assumptions C17_wire_profile_unchecked.
Theorem C17_wire_profile_refuted : exists K TK WK j w o tl h',
  job_wire_profile K TK WK [j] 0%nat [w] o None None (Some tl) = (h', Err TypeError) /\
  exists j', hget h' 0%nat = Some j' /\ j_feed j' <> j_feed j.
Proof. exact failed_call_keeps_tool. Qed.
Print Assumptions C17_wire_profile_refuted.

Example C17_example : exists w, job_profile K0 flat_tk flat_wk [bare_job] 0%nat [SWire w] (Some 1) None None None None = ([bare_job], Err ValueError) /\
  job_profile K0 flat_tk flat_wk [ex_job] 0%nat [SWire w] None None None None None = ([ex_job], Err ValueError) /\
  job_profile K0 flat_tk flat_wk [ex_job] 0%nat [SWire w; SOther] (Some 1) None None None None = ([ex_job], Err ValueError) /\
  refs (job_profile K0 flat_tk flat_wk [ex_job] 0%nat [SWire w] (Some 1) None None None None) = Some 1%nat.
Proof. exists (zrect 0 0 20 10 (-5)). split; [reflexivity|]. split; [reflexivity|]. split; [reflexivity|]. vm_compute. reflexivity. Qed.

(** ** C40 *)
(** The layers of a profile: [n] copies above it, a stepdown apart, from the highest to the profile
    itself; [n] is the number that fits below the surface.  Full statement: for every wire below the
    surface.  Missing (false in the code): wires met by the plane [clear_of_top] speaks about. *)
Theorem C40_layers_partial : forall TK WK j base s ls, 0 < s -> lifts TK WK base -> clear_of_top TK WK (j_top j) base ->
  profile_layers TK WK j base (Some s) = Ok ls ->
  exists n, layers_needed (tk_zmin TK base) s n /\ length ls = S n /\
    forall k, (k <= n)%nat -> exists w, nth_error ls k = Some w /\
      tk_zmin TK w = tk_zmin TK base + qz (Z.of_nat (n - k)) * s /\
      w = if (k =? n)%nat then base else wk_moved WK base (s * qz (Z.of_nat (n - k))).
Proof. exact profile_layers_ok. Qed.
Print Assumptions C40_layers_partial.

(** The moves: for every offset wire, one group of cuts per layer, at its height, in that order; one
    layer without a stepdown. *)
Theorem C40_depths_partial : forall K TK WK j w o sd cmds r bases, (forall s, sd = Some s -> 0 <= s) -> rigid TK WK ->
  tool_radius j = Some r -> offset_wire K WK (wk_transform WK (j_top j) w) (o * r) = Ok bases ->
  (forall b, In b bases -> (exists z, flat z b) /\ (stepped sd -> clear_of_top TK WK (j_top j) b)) ->
  profile K TK WK j w o sd None = Ok cmds ->
  exists gss, cmds = concat (map (@concat motion) gss) /\
    Forall2 (fun b gs => exists z s n, flat z b /\ passes_needed sd z s n /\ length gs = S n /\
      forall k g, nth_error gs k = Some g ->
        let h := z + qz (Z.of_nat (n - k)) * s in
        cuts_at (fun x => x = h) g /\ exists layer, flat h layer /\ covers (j_feed j) (WWire layer) g) bases gss.
Proof. exact profile_depths. Qed.
Print Assumptions C40_depths_partial.

(** Whatever the plane does: the layers end under the first that the code drops.  The lowest point of
    each is a stepdown below the one before. *)
Theorem C40_which_layers : forall TK WK j base s ls, s <> 0 ->
  (profile_layers TK WK j base (Some s) = Ok ls <->
   exists n, (Z.of_nat n <= j_max_stepdown_count j)%Z /\
     (forall k, (0 < k <= n)%nat -> layer_cut TK WK (j_top j) (wk_moved WK base (s * qz (Z.of_nat k)))) /\
     layer_dropped TK WK (j_top j) (wk_moved WK base (s * qz (Z.of_nat (S n)))) /\
     ls = map (fun k => wk_moved WK base (s * qz (Z.of_nat k))) (rev (seq 1 n)) ++ [base]).
Proof. exact which_layers. Qed.
Print Assumptions C40_which_layers.
Theorem C40_spacing : forall TK WK j base s ls, s <> 0 -> lifts TK WK base ->
  profile_layers TK WK j base (Some s) = Ok ls ->
  exists n, length ls = S n /\
    forall k w, nth_error ls k = Some w -> tk_zmin TK w = tk_zmin TK base + qz (Z.of_nat (n - k)) * s.
Proof. exact layer_heights. Qed.
Print Assumptions C40_spacing.
(** A plane that removes what lies in it, at the height [h], and nothing else. *)
Theorem C40_to_the_plane : forall TK WK j base s ls h, 0 < s -> lifts TK WK base -> removes_at TK WK (j_top j) base h ->
  (profile_layers TK WK j base (Some s) = Ok ls <->
   exists n, (Z.of_nat n <= j_max_stepdown_count j)%Z /\ layers_under h (tk_zmin TK base) s n /\
     ls = map (fun k => wk_moved WK base (s * qz (Z.of_nat k))) (rev (seq 1 n)) ++ [base]).
Proof. exact layers_to_plane. Qed.
Print Assumptions C40_to_the_plane.
Example C40_to_the_plane_example :
  let base := zrect 0 0 20 10 (-6) in
  lifts flat_tk flat_wk base /\ removes_at flat_tk flat_wk (j_top low_job) base (qz (-2)) /\
  layers_under (qz (-2)) (qz (-6)) (qz 2) 1 /\
  (match profile_layers flat_tk flat_wk low_job base (Some (qz 2)) with Ok ls => length ls | Err _ => O end) = 2%nat /\
  (match profile_layers flat_tk flat_wk low_job base (Some (qq 3 2)) with Ok ls => length ls | Err _ => O end) = 4%nat.
Proof.
  split; [apply rectangle_lifts|]. split; [apply rectangle_removed|].
  split; [right; split; [apply Qc_is_canon|]; reflexivity|]. split; vm_compute; reflexivity.
Qed.

(** A job whose top plane lies below the origin: the first cut goes two stepdowns deep. *)
Theorem C40_plane_refuted : exists K TK WK j w o r s base cmds, 0 < s /\ rigid TK WK /\
  offset_wire K WK (wk_transform WK (j_top j) w) (o * r) = Ok [base] /\ tool_radius j = Some r /\ flat (qz (-6)) base /\
  layers_needed (qz (-6)) s 2 /\ profile K TK WK j w o (Some s) None = Ok cmds /\
  (exists m, In m cmds /\ ~ rapid m) /\
  (forall m, In m cmds -> ~ rapid m -> exists z, az (m_end m) = Some z /\ z <= - (s + s)).
Proof. exact ex_below_origin. Qed.
Print Assumptions C40_plane_refuted.

Example C40_example : exists cmds bases,
  offset_wire K0 flat_wk (wk_transform flat_wk (j_top ex_job) (zrect 0 0 20 10 (-5))) (- (1) * qq 3 2) = Ok bases /\
  tool_radius ex_job = Some (qq 3 2) /\
  (forall b, In b bases -> (exists z, flat z b) /\ clear_of_top flat_tk flat_wk (j_top ex_job) b) /\
  bases <> [] /\ rigid flat_tk flat_wk /\
  ex_profile ex_job (-5) = Ok cmds /\ cut_heights cmds = [-1; -3; -5]%Z.
Proof. exact ex_depths. Qed.

(** ** C41 *)
(** The error is raised exactly when more layers than the limit are needed. *)
Theorem C41_limit : forall TK WK j base s x, 0 < s -> lifts TK WK base -> clear_of_top TK WK (j_top j) base ->
  (profile_layers TK WK j base (Some s) = Err x <->
   x = RuntimeError /\ exists n, layers_needed (tk_zmin TK base) s n /\ (j_max_stepdown_count j < Z.of_nat n)%Z).
Proof. exact profile_layers_err. Qed.
Print Assumptions C41_limit.
(** Whatever the kernel answers: the loop ends, with at most the limit of extra layers and the
    profile itself as the last one, or with an error. *)
Theorem C41_bounded : forall TK WK j base sd, (0 <= j_max_stepdown_count j)%Z ->
  match profile_layers TK WK j base sd with
  | Ok ls => last ls [] = base /\ (Z.of_nat (length ls) <= j_max_stepdown_count j + 1)%Z
  | Err x => x = RuntimeError \/ exists dz, wk_below WK (j_top j) (wk_moved WK base dz) = Err x
  end.
Proof. exact profile_layers_bounded. Qed.
Print Assumptions C41_bounded.
(** Whatever the kernel answers: the limit error when all layers up to one beyond the limit are cut,
    another error when the kernel fails for the first layer that is not. *)
Theorem C41_which_errors : forall TK WK j base s x, s <> 0 ->
  (profile_layers TK WK j base (Some s) = Err x <->
   (x = RuntimeError /\ forall k, (0 < k)%nat -> (Z.of_nat k <= j_max_stepdown_count j + 1)%Z ->
      layer_cut TK WK (j_top j) (wk_moved WK base (s * qz (Z.of_nat k)))) \/
   (exists k, (0 < k)%nat /\ (Z.of_nat k <= j_max_stepdown_count j + 1)%Z /\
      (forall i, (0 < i < k)%nat -> layer_cut TK WK (j_top j) (wk_moved WK base (s * qz (Z.of_nat i)))) /\
      tk_zmin TK (wk_moved WK base (s * qz (Z.of_nat k))) < qq (-1) 1000 /\
      wk_below WK (j_top j) (wk_moved WK base (s * qz (Z.of_nat k))) = Err x)).
Proof. exact which_error. Qed.
Print Assumptions C41_which_errors.
Theorem C41_negative : forall TK WK j base s, s < 0 -> lifts TK WK base -> clear_of_top TK WK (j_top j) base ->
  tk_zmin TK base < qq (-1) 1000 -> profile_layers TK WK j base (Some s) = Err RuntimeError.
Proof. exact profile_layers_negative. Qed.
Print Assumptions C41_negative.
(** There is exactly one such number of layers. *)
Theorem C41_layers_determined : forall z s, 0 < s ->
  exists n, layers_needed z s n /\ forall m, layers_needed z s m -> n = m.
Proof. exact layers_determined. Qed.
Print Assumptions C41_layers_determined.

Example C41_example :
  let base := zrect 0 0 20 10 (-101) in
  lifts flat_tk flat_wk base /\ clear_of_top flat_tk flat_wk (j_top ex_job) base /\
  j_max_stepdown_count ex_job = 100%Z /\
  (match profile_layers flat_tk flat_wk ex_job base (Some 1) with Ok ls => length ls | Err _ => O end) = 101%nat /\
  (match profile_layers flat_tk flat_wk ex_job base (Some (qq 99 100)) with Ok _ => false | Err x => match x with RuntimeError => true | _ => false end end) = true.
Proof.
  intros base. split; [|split; [apply rectangle_clear|split; [reflexivity|split; vm_compute; reflexivity]]].
  intros dz. destruct flat_tk_rigid as [R1 R2]. assert (F : flat (qz (-101)) base) by apply rectangle_flat.
  rewrite (R1 _ _ F). apply R1. apply R2. exact F.
Qed.

(** ** C62 *)
Theorem C62_inner_first : forall K TK WK h r shapes oo io sd t tl h' r',
  job_profile K TK WK h r shapes oo io sd t tl = (h', Ok r') ->
  Forall supported shapes /\
  exists j ju j' pre ci co, hget h r = Some j /\ settings_of ju = tool_settings j tl /\ same_frame j ju /\
    hget h' r' = Some j' /\ j_operations j' = pre ++ [Op r' "Profile" (map Motion (ci ++ co))] /\
    profiled_with (fun w o => profile K TK WK ju w o sd t) (flat_map inners_of shapes) io ci /\
    profiled_with (fun w o => profile K TK WK ju w o sd t) (flat_map outer_of shapes) oo co.
Proof. exact job_profile_inner_first. Qed.
Print Assumptions C62_inner_first.

Example C62_example :
  result_motions (job_profile K0 flat_tk flat_wk [ex_job] 0%nat [plate; SWire (zrect 50 0 60 10 (-2))] (Some 1) (Some (- (1))) None None None)
  = [("Profile"%string, [(6, 6); (21, 21); (-2, -2); (48, -2)]%Z)].
Proof. exact ex_plate. Qed.

(** ** C67 *)
(** What offsetting a wire gives: the wires of the first attempt that works, without the tiny ones;
    if the last offset wire is a circle they are corrected with its location. *)
Theorem C67_offset_wire : forall K WK w o out, offset_wire K WK w o = Ok out ->
  (out = [] /\ wk_offset WK w o = Err ValueError /\ wk_offset WK w (o + qq 1 1000000) = Err ValueError) \/
  exists ws o' kept, (o' = o \/ (o' = o + qq 1 1000000 /\ wk_offset WK w o = Err ValueError)) /\ wk_offset WK w o' = Ok ws /\ picked (large_wire WK) ws kept /\
    ((~ lone_circle K (last ws w) /\ out = kept) \/ (lone_circle K (last ws w) /\ out = map (wk_relocate WK (last ws w)) kept)).
Proof. exact offset_wire_spec. Qed.
Print Assumptions C67_offset_wire.
(** Errors of the kernel other than the retried one go to the caller. *)
Theorem C67_errors : forall K WK w o x, offset_wire K WK w o = Err x <->
  x <> ValueError /\ (wk_offset WK w o = Err x \/ (wk_offset WK w o = Err ValueError /\ wk_offset WK w (o + qq 1 1000000) = Err x)).
Proof. exact offset_wire_error. Qed.
Print Assumptions C67_errors.
(** Full statement: the location used is the one of the circle that was offset. *)
Theorem C67_wrong_location_refuted : exists K WK w o out ws,
  wk_offset WK w o = Ok ws /\ (forall v, In v ws -> wk_area WK v = Ok 1) /\
  lone_circle K w /\
  offset_wire K WK w o = Ok out /\ out <> map (wk_relocate WK w) ws.
Proof. exact workaround_wrong_wire. Qed.
Print Assumptions C67_wrong_location_refuted.
Theorem C67_not_applied_refuted : exists K WK w o out ws,
  wk_offset WK w o = Ok ws /\ (forall v, In v ws -> wk_area WK v = Ok 1) /\
  lone_circle K w /\
  offset_wire K WK w o = Ok out /\ out = ws /\ map (wk_relocate WK w) ws <> ws.
Proof. exact workaround_missing. Qed.
Print Assumptions C67_not_applied_refuted.

Example C67_example : exists x0 y0 x1 y1,
  offset_wire K0 flat_wk (zrect 0 0 20 10 (-5)) (- (1)) = Ok [rectangle x0 y0 x1 y1 (qz (-5))] /\
  (match offset_wire K0 flat_wk (zrect 0 0 20 10 (-5)) (- qz 6) with Ok [] => true | _ => false end) = true.
Proof.
  destruct (rect_offset_wire (zrect 0 0 20 10 (-5)) (- (1)) (qz (-5))) as (x0 & y0 & x1 & y1 & E); [vm_compute; reflexivity|vm_compute; reflexivity|].
  exists x0, y0, x1, y1. split; [exact E|vm_compute; reflexivity].
Qed.

(** ** C68 *)
Theorem C68_safe_moves : forall K TK WK j w o sd t cmds, profile K TK WK j w o sd t = Ok cmds ->
  Forall (fun m => (rapid m -> safe_rapid (j_rapid_height j) (j_op_safe_height j) m) /\
                   (~ rapid m -> feed_ok (j_op_safe_height j) (j_plunge_feed j) (j_feed j) m)) cmds.
Proof. exact profile_safe. Qed.
Print Assumptions C68_safe_moves.

Example C68_example : exists cmds, ex_profile ex_job (-5) = Ok cmds /\ length cmds = 22%nat.
Proof. exists (motions (ex_profile ex_job (-5))). split; [apply motions_ok; vm_compute; reflexivity|vm_compute; reflexivity]. Qed.

(** ** C99 *)
(** Tabs on edges: their tops are at one height, [height] above the bottom of the profile.  Passes
    at or above it are not interrupted; every lower pass climbs to exactly that height in the tabs. *)
Theorem C99_edge_tabs : forall TK WK j base s spacing width height only ps,
  makes_edges TK -> (forall l, tk_assemble TK l = Some l) ->
  0 < s -> lifts TK WK base -> clear_of_top TK WK (j_top j) base -> 0 < width -> width < spacing ->
  takes_tabs TK spacing width base -> (forall dz, takes_tabs TK spacing width (wk_moved WK base dz)) ->
  profile_toolpaths TK WK j (Some s) (Some (EdgeTabs spacing width height only)) base = Ok ps ->
  exists n, layers_needed (tk_zmin TK base) s n /\ length ps = S n /\
    forall k p, nth_error ps k = Some p ->
      let layer := if (k =? n)%nat then base else wk_moved WK base (s * qz (Z.of_nat (n - k))) in
      let up := qz (Z.of_nat (n - k)) * s in
      tk_zmin TK layer = tk_zmin TK base + up /\
      (height <= up -> p = layer) /\
      (up < height -> tabbed TK (tk_zmin TK base + height) spacing width only layer p).
Proof. exact profile_edge_tabs. Qed.
Print Assumptions C99_edge_tabs.

(** Without a stepdown the only pass has the tabs. *)
Theorem C99_single_pass : forall TK WK j base sd spacing width height only ps,
  makes_edges TK -> (forall l, tk_assemble TK l = Some l) -> (sd = None \/ sd = Some 0) ->
  0 < width -> width < spacing -> 0 < height -> takes_tabs TK spacing width base ->
  profile_toolpaths TK WK j sd (Some (EdgeTabs spacing width height only)) base = Ok ps ->
  exists p, ps = [p] /\ tabbed TK (tk_zmin TK base + height) spacing width only base p.
Proof. exact profile_edge_tabs_once. Qed.
Print Assumptions C99_single_pass.

(** Any tabs: the same, for the transitions that the tabs give. *)
Theorem C99_any_tabs : forall TK WK j base s t ps,
  makes_edges TK -> 0 < s -> lifts TK WK base -> clear_of_top TK WK (j_top j) base ->
  (forall e, In e base -> edge_sound e /\ edge_on_curve TK e /\ moved_vertically TK e) ->
  (forall dz e, In e (wk_moved WK base dz) -> edge_sound e /\ edge_on_curve TK e /\ moved_vertically TK e) ->
  profile_toolpaths TK WK j (Some s) (Some t) base = Ok ps ->
  exists n, layers_needed (tk_zmin TK base) s n /\ length ps = S n /\
    forall k p, nth_error ps k = Some p ->
      let layer := if (k =? n)%nat then base else wk_moved WK base (s * qz (Z.of_nat (n - k))) in
      let up := qz (Z.of_nat (n - k)) * s in
      (tabs_height t <= up -> p = layer) /\
      (up < tabs_height t ->
       exists ms, wire_marks t (tk_length TK layer) layer = Ok ms /\
         (length ms = length layer -> (forall m, In m ms -> usable m) ->
          exists outs,
            Forall2 (fun em out => replaced TK (tk_zmin TK base + tabs_height t) (fst em) (snd em) out) (combine layer ms) outs /\
            match tk_assemble TK (concat outs) with Some w' => p = w' | None => p = layer end)).
Proof. exact profile_any_tabs. Qed.
Print Assumptions C99_any_tabs.

(** A square at -5 in five passes with tabs of height 2: the last two climb to -3. *)
Example C99_example :
  (forall dz, takes_tabs flat_tk (qz 3) 1 (wk_moved flat_wk tab_square dz)) /\ takes_tabs flat_tk (qz 3) 1 tab_square /\
  lifts flat_tk flat_wk tab_square /\ clear_of_top flat_tk flat_wk (j_top ex_job) tab_square /\ makes_edges flat_tk /\
  match profile_toolpaths flat_tk flat_wk ex_job (Some 1) (Some (EdgeTabs (qz 3) 1 (qz 2) None)) tab_square with
  | Ok ps => map heights ps = [[-1]; [-2]; [-3]; [-3; -4]; [-3; -5]]%Z
  | Err _ => False
  end.
Proof. exact ex_tabbed. Qed.
