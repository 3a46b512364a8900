(** Examples and witnesses for Props/Profile.v. *)
From Verif Require Import Base.Str Base.Py Model.Groups Model.Geometry Model.Profile Spec.Paths Spec.Moves Spec.Wires Spec.Profiles
  Spec.Jobs Proofs.GeomP Proofs.RouteThmP Proofs.RouteEx Proofs.TabsEx Proofs.ProfileP Proofs.HeightP Proofs.ProfileThmP.
Local Open Scope Qc_scope.
Local Open Scope list_scope.

(** ** A kernel for flat wires *)
Definition map_edge (f : vec -> vec) (e : edge) : edge :=
  Edge (e_id e) (e_geom e) (e_reversed e) (f (e_startPoint e)) (f (e_endPoint e)) (fun p => f (e_param e p))
    (fun d => f (e_pos e d)) (e_param0 e) (e_param1 e) (e_length e) (f (e_center e)) (e_normal e) (e_closed e).
Definition lift (dz : Qc) (v : vec) : vec := V3 (vx v) (vy v) (vz v + dz).
Definition low (e : edge) : Qc := qmin (vz (e_startPoint e)) (vz (e_endPoint e)).
Definition flat_zmin (es : list edge) : Qc :=
  match es with [] => 0 | e :: es => fold_right (fun e m => qmin (low e) m) (low e) es end.
Definition flat_tk : tab_kernel :=
  let S := straight_kernel (fun v => v) in
  {| tk_param_at := tk_param_at S; tk_curve := tk_curve S; tk_location := tk_location S; tk_make := tk_make S;
     tk_line := tk_line S; tk_assemble := tk_assemble S; tk_zmin := flat_zmin; tk_length := tk_length S |}.

(** Bounding box in XY; rectangles are offset by moving their sides. *)
Definition corners (es : list edge) : list vec := flat_map (fun e => [e_startPoint e; e_endPoint e]) es.
Definition lo (f : vec -> Qc) (l : list vec) : Qc := fold_right (fun v m => qmin (f v) m) (f (hd (V3 0 0 0) l)) l.
Definition hi (f : vec -> Qc) (l : list vec) : Qc := fold_right (fun v m => qmax (f v) m) (f (hd (V3 0 0 0) l)) l.
Definition rectangle (x0 y0 x1 y1 z : Qc) : list edge :=
  [line 1 false (V3 x0 y0 z) (V3 x1 y0 z); line 2 false (V3 x1 y0 z) (V3 x1 y1 z);
   line 3 false (V3 x1 y1 z) (V3 x0 y1 z); line 4 false (V3 x0 y1 z) (V3 x0 y0 z)].
Definition rect_offset (w : list edge) (o : Qc) : result (list (list edge)) :=
  let c := corners w in
  let x0 := lo vx c - o in let x1 := hi vx c + o in let y0 := lo vy c - o in let y1 := hi vy c + o in
  if qltb x0 x1 && qltb y0 y1 then Ok [rectangle x0 y0 x1 y1 (lo vz c)] else Err ValueError.
Definition rect_area (w : list edge) : result Qc :=
  let c := corners w in Ok ((hi vx c - lo vx c) * (hi vy c - lo vy c)).
(** A straight edge in the plane is removed by the cut; the others stay. *)
Definition off_plane (p : plane) (v : vec) : bool := negb (qeqb (dot (vsub v (p_origin p)) (p_zdir p)) 0).
Definition rect_below (top : plane) (w : list edge) : result bool :=
  Ok (existsb (fun e => (off_plane top (e_startPoint e) || off_plane top (e_endPoint e)) && qltb (low e) 0) w).
Definition flat_wk : wire_kernel := {|
  wk_transform := fun top => map (map_edge (to_local top));
  wk_offset := rect_offset; wk_area := rect_area; wk_relocate := fun _ w => w;
  wk_moved := fun w dz => map (map_edge (lift dz)) w; wk_below := rect_below |}.

Lemma qmin_same x : qmin x x = x.
Proof. unfold qmin. destruct (qltb x x); reflexivity. Qed.
Lemma flat_tk_rigid : rigid flat_tk flat_wk.
Proof.
  split.
  - intros w z [NE H]. destruct w as [|e es]; [contradiction|]. cbn [flat_tk tk_zmin flat_zmin].
    assert (L : forall e', In e' (e :: es) -> low e' = z).
    { intros e' He. destruct (H e' He) as (H1 & H2 & _). unfold low. rewrite H1, H2. apply qmin_same. }
    clear H NE. rewrite (L e (or_introl eq_refl)). assert (L' := fun e' He => L e' (or_intror He)). clear L.
    induction es as [|e' es IH]; [reflexivity|]. cbn [fold_right]. rewrite IH by (intros; apply L'; right; assumption).
    rewrite L' by (left; reflexivity). apply qmin_same.
  - intros w z dz [NE H]. split; [destruct w; [contradiction|discriminate]|].
    cbn [flat_wk wk_moved]. intros e He. apply in_map_iff in He as (e0 & <- & He). destruct (H e0 He) as (H1 & H2 & H3 & H4).
    unfold edge_heights. cbn [map_edge e_startPoint e_endPoint e_param e_pos lift vz]. rewrite H1, H2.
    split; [reflexivity|]. split; [reflexivity|]. split; intros; [rewrite H3|rewrite H4]; reflexivity.
Qed.
Lemma rectangle_flat x0 y0 x1 y1 z : flat z (rectangle x0 y0 x1 y1 z).
Proof.
  split; [discriminate|]. intros e [<-|[<-|[<-|[<-|[]]]]]; (split; [reflexivity|]); (split; [reflexivity|]);
    (split; intros; cbn; ring).
Qed.
Lemma rectangle_clear x0 y0 x1 y1 z : clear_of_top flat_tk flat_wk plane_xy (rectangle x0 y0 x1 y1 z).
Proof.
  intros dz H. destruct flat_tk_rigid as [R1 R2]. rewrite (R1 _ (z + dz) (R2 _ _ _ (rectangle_flat _ _ _ _ _))) in H.
  unfold flat_wk. cbn [wk_below wk_moved]. unfold rect_below, rectangle. cbn [map existsb wk_moved map_edge line e_startPoint e_endPoint].
  assert (OP : off_plane plane_xy (lift dz (V3 x0 y0 z)) = true).
  { unfold off_plane, plane_xy, dot, vsub, lift. cbn [p_origin p_zdir vx vy vz]. apply negb_true_iff. apply qeqb_neq. intros C.
    assert (C' : z + dz = 0) by (rewrite <- C; ring). rewrite C' in H. discriminate H. }
  rewrite OP. cbn [orb andb]. unfold low. cbn [line map_edge e_startPoint e_endPoint lift vz]. rewrite qmin_same.
  assert (LT : qltb (z + dz) 0 = true). { apply qltb_lt. eapply Qclt_trans; [exact H|reflexivity]. }
  rewrite LT. reflexivity.
Qed.

(** ** Stepping down *)
Definition zrect (x0 y0 x1 y1 z : Z) : list edge := rectangle (qz x0) (qz y0) (qz x1) (qz y1) (qz z).
(** The heights at which cuts end, without repetitions of the same height in a row. *)
Fixpoint compress (l : list Z) : list Z :=
  match l with
  | a :: (b :: _) as r => if (a =? b)%Z then compress r else a :: compress r
  | _ => l
  end.
Definition cut_heights (ms : list motion) : list Z :=
  compress (flat_map (fun m => match m with MRapid _ _ _ _ => [] | _ => match az (m_end m) with Some z => [qfloor z] | None => [] end end) ms).
Definition ex_profile (j : job) (z : Z) : result (list motion) :=
  profile K0 flat_tk flat_wk j (zrect 0 0 20 10 z) (- (1)) (Some (qz 2)) None.

Definition is_ok {A} (r : result A) : bool := match r with Ok _ => true | Err _ => false end.
Lemma motions_ok r : is_ok r = true -> r = Ok (motions r).
Proof. destruct r; [reflexivity|discriminate]. Qed.
(** Offsetting a rectangle by moving its sides. *)
Lemma rect_offset_shape w o ws : rect_offset w o = Ok ws ->
  exists x0 y0 x1 y1, ws = [rectangle x0 y0 x1 y1 (lo vz (corners w))].
Proof.
  unfold rect_offset. generalize (lo vx (corners w) - o), (hi vx (corners w) + o), (lo vy (corners w) - o), (hi vy (corners w) + o), (lo vz (corners w)).
  intros x0 x1 y0 y1 z H. destruct (qltb x0 x1 && qltb y0 y1); [|discriminate H]. injection H as <-. eauto.
Qed.
Lemma offset_wire_ok WK w o ws : wk_offset WK w o = Ok ws -> forallb (big_enough WK) ws = true ->
  is_circle_wire K0 (last ws w) = false -> offset_wire K0 WK w o = Ok ws.
Proof.
  intros H B C. unfold offset_wire, retry_offset, circle_bug_workaround. rewrite H, C. f_equal.
  clear H C. induction ws as [|v ws IH]; [reflexivity|]. cbn [forallb] in B. apply andb_true_iff in B as [B1 B2]. cbn [filter]. rewrite B1, IH by exact B2. reflexivity.
Qed.
Lemma rect_offset_wire w o z : lo vz (corners w) = z ->
  match rect_offset w o with Ok ws => forallb (big_enough flat_wk) ws | Err _ => false end = true ->
  exists x0 y0 x1 y1, offset_wire K0 flat_wk w o = Ok [rectangle x0 y0 x1 y1 z].
Proof.
  intros HZ B. destruct (rect_offset w o) as [ws|] eqn:E; [|discriminate B].
  destruct (rect_offset_shape _ _ _ E) as (x0 & y0 & x1 & y1 & EW). exists x0, y0, x1, y1. rewrite HZ in EW.
  rewrite <- EW. apply offset_wire_ok; [exact E|exact B|rewrite EW; reflexivity].
Qed.

Lemma ex_depths : exists cmds bases,
  offset_wire K0 flat_wk (wk_transform flat_wk (j_top ex_job) (zrect 0 0 20 10 (-5))) (- (1) * qq 3 2) = Ok bases /\
  tool_radius ex_job = Some (qq 3 2) /\
  (forall b, In b bases -> (exists z, flat z b) /\ clear_of_top flat_tk flat_wk (j_top ex_job) b) /\
  bases <> [] /\ rigid flat_tk flat_wk /\
  ex_profile ex_job (-5) = Ok cmds /\ cut_heights cmds = [-1; -3; -5]%Z.
Proof.
  exists (motions (ex_profile ex_job (-5))).
  destruct (rect_offset_wire (wk_transform flat_wk (j_top ex_job) (zrect 0 0 20 10 (-5))) (- (1) * qq 3 2) (qz (-5))) as (x0 & y0 & x1 & y1 & E);
    [vm_compute; reflexivity|vm_compute; reflexivity|].
  exists [rectangle x0 y0 x1 y1 (qz (-5))].
  split; [exact E|]. split; [vm_compute; reflexivity|].
  split. { intros b [<-|[]]. split; [exists (qz (-5)); apply rectangle_flat|apply rectangle_clear]. }
  split; [discriminate|]. split; [exact flat_tk_rigid|]. split; [apply motions_ok; vm_compute; reflexivity|vm_compute; reflexivity].
Qed.

(** A top plane below the origin: the same part, the layer in the world's z = -2 is missing. *)
Definition low_plane : plane := PL (V3 0 0 (qz (-2))) (V3 1 0 0) (V3 0 1 0) (V3 0 0 1).
Definition low_job : job :=
  new_job low_plane (PInt 300) None (Some (qz 2)) None "part" (Some (PInt 100)) None None 3 METRIC
          PLANE_XY OFFSET_1 ABSOLUTE ARC_ABSOLUTE CONTINUOUS None.
Definition deep_cut (b : Qc) (m : motion) : bool :=
  match m with MRapid _ _ _ _ => true | _ => match az (m_end m) with Some z => qleb z b | None => false end end.
Lemma ex_below_origin : exists K TK WK j w o r s base cmds, 0 < s /\ rigid TK WK /\
  offset_wire K WK (wk_transform WK (j_top j) w) (o * r) = Ok [base] /\ tool_radius j = Some r /\ flat (qz (-6)) base /\
  layers_needed (qz (-6)) s 2 /\ profile K TK WK j w o (Some s) None = Ok cmds /\
  (exists m, In m cmds /\ ~ rapid m) /\
  (forall m, In m cmds -> ~ rapid m -> exists z, az (m_end m) = Some z /\ z <= - (s + s)).
Proof.
  exists K0, flat_tk, flat_wk, low_job, (zrect 0 0 20 10 (-8)), (- (1)), (qz 2 / qz 2), (qz 2).
  destruct (rect_offset_wire (wk_transform flat_wk (j_top low_job) (zrect 0 0 20 10 (-8))) (- (1) * (qz 2 / qz 2)) (qz (-6))) as (x0 & y0 & x1 & y1 & E);
    [vm_compute; reflexivity|vm_compute; reflexivity|].
  exists (rectangle x0 y0 x1 y1 (qz (-6))), (motions (ex_profile low_job (-8))).
  split; [reflexivity|]. split; [exact flat_tk_rigid|]. split; [exact E|]. split; [reflexivity|].
  split; [apply rectangle_flat|]. split. { split; [right; vm_compute; reflexivity|vm_compute; discriminate]. }
  split; [apply motions_ok; vm_compute; reflexivity|]. split.
  { exists (nth 3 (motions (ex_profile low_job (-8))) (mk_rapid av_none None false)). split; [apply nth_In; vm_compute; lia|vm_compute; intros C; exact C]. }
  assert (F : forallb (deep_cut (- (qz 2 + qz 2))) (motions (ex_profile low_job (-8))) = true) by (vm_compute; reflexivity).
  intros m Hm NR. rewrite forallb_forall in F. specialize (F m Hm). clear Hm E. destruct m; cbn [deep_cut rapid] in F, NR; [destruct NR; exact I| |];
    match goal with |- exists z, az ?e = _ /\ _ => destruct (az e) as [z|]; [exists z; split; [reflexivity|apply qleb_le; exact F]|discriminate] end.
Qed.

(** ** Arguments *)
Definition bare_job : job :=
  new_job plane_xy (PInt 300) None None None "part" None None None 3 METRIC
          PLANE_XY OFFSET_1 ABSOLUTE ARC_ABSOLUTE CONTINUOUS None.
Definition mill : tool := Tool (Some (qz 3)) None None None.
Definition refs (r : heap * result ref) : option ref := match snd r with Ok r => Some r | Err _ => None end.

Lemma tool_argument_rejected : exists K TK WK j shapes oo tl h' r',
  tool_settings j (Some tl) = (None, Some (qz 3), j_feed j, None) /\
  job_profile K TK WK [j] 0%nat shapes (Some oo) None None None (Some tl) = ([j], Err ValueError) /\
  job_profile K TK WK [with_tool j None (Some (qz 3)) (j_feed j) None] 0%nat shapes (Some oo) None None None (Some tl) = (h', Ok r').
Proof.
  exists K0, flat_tk, flat_wk, bare_job, [SWire (zrect 0 0 20 10 (-5))], 1, mill.
  destruct (job_profile K0 flat_tk flat_wk [with_tool bare_job None (Some (qz 3)) (j_feed bare_job) None] 0%nat
     [SWire (zrect 0 0 20 10 (-5))] (Some 1) None None None (Some mill)) as [h' res] eqn:E.
  assert (R : refs (job_profile K0 flat_tk flat_wk [with_tool bare_job None (Some (qz 3)) (j_feed bare_job) None] 0%nat
     [SWire (zrect 0 0 20 10 (-5))] (Some 1) None None None (Some mill)) = Some 1%nat) by (vm_compute; reflexivity).
  rewrite E in R. destruct res as [r'|]; [|discriminate R]. exists h', r'. split; [reflexivity|]. split; reflexivity.
Qed.

(** The tool argument of [wire_profile] is taken into the job although the call fails. *)
Lemma failed_call_keeps_tool : exists K TK WK j w o tl h',
  job_wire_profile K TK WK [j] 0%nat [w] o None None (Some tl) = (h', Err TypeError) /\
  exists j', hget h' 0%nat = Some j' /\ j_feed j' <> j_feed j.
Proof.
  exists K0, flat_tk, flat_wk, bare_job, (zrect 0 0 20 10 (-5)), 1, (Tool None None (Some (PInt 700)) None). eexists.
  split; [vm_compute; reflexivity|]. eexists. split; [reflexivity|]. discriminate.
Qed.

(** ** Inner and outer wires *)
Definition plate : shape := SFace (zrect 0 0 40 40 (-2)) [zrect 5 5 15 15 (-2); zrect 20 20 30 30 (-2)].
(** The corner each group starts at: where the rapid sideways moves end. *)
Definition rapid_targets (ms : list motion) : list (Z * Z) :=
  flat_map (fun m => match m with
    | MRapid _ e _ _ => match ax e, ay e with Some x, Some y => [(qfloor x, qfloor y)] | _, _ => [] end
    | _ => [] end) ms.
Definition op_motions (o : operation) : list motion :=
  flat_map (fun c => match c with Motion m => [m] | Config _ => [] end) (op_commands o).
Definition result_motions (r : heap * result ref) : list (string * list (Z * Z)) :=
  match snd r with
  | Ok i => match hget (fst r) i with
            | Some j => map (fun o => (op_name o, rapid_targets (op_motions o))) (j_operations j)
            | None => [] end
  | Err _ => [] end.
Lemma ex_plate :
  result_motions (job_profile K0 flat_tk flat_wk [ex_job] 0%nat [plate; SWire (zrect 50 0 60 10 (-2))] (Some 1) (Some (- (1))) None None None)
  = [("Profile"%string, [(6, 6); (21, 21); (-2, -2); (48, -2)]%Z)].
Proof. vm_compute. reflexivity. Qed.

(** ** The workaround for circles *)
(** [relocate] marks the targets with the source's start point. *)
Definition marking_wk (offset : list edge -> Qc -> result (list (list edge))) : wire_kernel := {|
  wk_transform := fun _ w => w; wk_offset := offset; wk_area := fun _ => Ok 1;
  wk_relocate := fun s w => map (map_edge (fun v => vadd v (match s with e :: _ => e_startPoint e | [] => V3 0 0 0 end))) w;
  wk_moved := fun w _ => w; wk_below := fun _ _ => Ok true |}.
Lemma offset_wire_marks w v o : offset_wire K0 (marking_wk (fun _ _ => Ok [v])) w o =
  Ok (if is_circle_wire K0 v then [wk_relocate (marking_wk (fun _ _ => Ok [v])) v v] else [v]).
Proof.
  assert (B : big_enough (marking_wk (fun _ _ => Ok [v])) v = true) by reflexivity.
  unfold offset_wire, retry_offset. cbn [marking_wk wk_offset last]. fold (marking_wk (fun _ _ => Ok [v])). cbn [filter]. rewrite B.
  unfold circle_bug_workaround. destruct (is_circle_wire K0 v); reflexivity.
Qed.
Definition first_x (l : list (list edge)) : Z := match l with (e :: _) :: _ => qfloor (vx (e_startPoint e)) | _ => 0%Z end.
Lemma workaround_wrong_wire : exists K WK w o out ws,
  wk_offset WK w o = Ok ws /\ (forall v, In v ws -> wk_area WK v = Ok 1) /\
  lone_circle K w /\
  offset_wire K WK w o = Ok out /\ out <> map (wk_relocate WK w) ws.
Proof.
  exists K0, (marking_wk (fun _ _ => Ok [[circle 2 false 3 4 (-1)]])), [circle 1 false 7 7 (-1)], 1.
  eexists _, _. split; [reflexivity|]. split; [intros; reflexivity|]. split; [eexists; split; [reflexivity|vm_compute; reflexivity]|]. split; [apply offset_wire_marks|].
  intros C. apply (f_equal first_x) in C. vm_compute in C. discriminate C.
Qed.
Lemma workaround_missing : exists K WK w o out ws,
  wk_offset WK w o = Ok ws /\ (forall v, In v ws -> wk_area WK v = Ok 1) /\
  lone_circle K w /\
  offset_wire K WK w o = Ok out /\ out = ws /\ map (wk_relocate WK w) ws <> ws.
Proof.
  exists K0, (marking_wk (fun _ _ => Ok [zrect 0 0 1 1 (-1)])), [circle 1 false 7 7 (-1)], 1.
  eexists _, _. split; [reflexivity|]. split; [intros; reflexivity|]. split; [eexists; split; [reflexivity|vm_compute; reflexivity]|]. split; [apply offset_wire_marks|].
  split; [reflexivity|].
  intros C. apply (f_equal first_x) in C. vm_compute in C. discriminate C.
Qed.
