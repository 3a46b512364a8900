(** Examples and witnesses for Props/Routing.v. *)
From Verif Require Import Base.Str Base.Py Model.Groups Model.Geometry Model.Edges Model.Routers
  Spec.Paths Spec.Moves Spec.Contours Spec.Wires Proofs.GeomP Proofs.RouteP Proofs.EdgeP Proofs.WireP Proofs.RouteThmP.
Local Open Scope Qc_scope.
Local Open Scope list_scope.

Definition ex_job : job :=
  new_job plane_xy (PInt 300) None (Some (qz 3)) None "part" (Some (PInt 100)) None None 3 METRIC
          PLANE_XY OFFSET_1 ABSOLUTE ARC_ABSOLUTE CONTINUOUS None.
Definition zp (x y : Z) : pt := (qz x, qz y).
(** A square with corner (x,y) and side s. *)
Definition square (x y s : Z) : path :=
  [zp x y; zp (x + s) y; zp (x + s) (y + s); zp x (y + s); zp x y].

Definition text_of (r : result (list motion)) : list string :=
  match r with Ok ms => map (fun m => match str_motion m with Ok s => s | Err _ => "?"%string end) ms | Err _ => ["!"%string] end.
Definition motions (r : result (list motion)) : list motion := match r with Ok ms => ms | Err _ => [] end.

(** Two nested squares, one millimetre apart, with a stepover of 3/2. *)
Definition nested : list pathface := [PF (square 1 1 3) [] (qz (-2)); PF (square 0 0 5) [] (qz (-2))].

Lemma square_closed x y s : closed_path (square x y s).
Proof. exists (zp x y). eexists. split; reflexivity. Qed.
Definition properb (p : path) : bool := forallb (fun e => negb (pt_eqb (fst e) (snd e))) (steps p).
Lemma properb_ok p : properb p = true -> proper p.
Proof.
  intros H a b HI ->. unfold properb in H. rewrite forallb_forall in H. specialize (H _ HI). cbn [fst snd] in H.
  unfold pt_eqb in H. assert (E : forall q, qeqb q q = true) by (intros; apply qeqb_eq; reflexivity). rewrite !E in H. discriminate.
Qed.

Lemma ex_nested : exists cmds,
  route_polyface_outers ex_job nested (Some (qq 3 2)) None = Ok cmds /\
  (forall f, In f nested -> closed_path (pf_outer f) /\ proper (pf_outer f) /\ pf_depth f = qz (-2)) /\
  (retracts cmds <= 1)%nat /\ List.length cmds = 14%nat /\ qz (-2) < j_op_safe_height ex_job.
Proof.
  eexists. split; [vm_compute; reflexivity|]. split; [|split; [vm_compute; lia|split; [reflexivity|vm_compute; reflexivity]]].
  intros f [<-|[<-|[]]]; (split; [apply square_closed|split; [|reflexivity]]); apply properb_ok; vm_compute; reflexivity.
Qed.

(** A square far away whose first corner is not the closest one. *)
Definition far_square : path := [zp 11 1; zp 10 1; zp 10 0; zp 11 0; zp 11 1].
Definition apart : list pathface := [PF (square 0 0 1) [] (qz (-2)); PF far_square [] (qz (-2))].

(** The bounding box of a segment contains it. *)
Definition between (x a b : Qc) : bool := (qleb a x && qleb x b) || (qleb b x && qleb x a).
Definition in_box (c a b : pt) : bool := between (fst c) (fst a) (fst b) && between (snd c) (snd a) (snd b).
Lemma between_mix a b t : 0 <= t -> t <= 1 -> between ((1 - t) * a + t * b) a b = true.
Proof.
  intros H0 H1. unfold between. apply orb_true_iff. rewrite !andb_true_iff, !qleb_le.
  destruct (Qclt_le_dec a b) as [L|L]; [left|right].
  - split; qc2q; nra.
  - split; qc2q; nra.
Qed.
Lemma on_segment_box c a b : on_segment c a b -> in_box c a b = true.
Proof. intros (t & H0 & H1 & ->). unfold in_box. cbn [fst snd]. rewrite !between_mix by assumption. reflexivity. Qed.
Definition alongb (p : path) (a b : pt) : bool :=
  existsb (fun e => in_box a (fst e) (snd e) && in_box b (fst e) (snd e)) (steps p).
Lemma along_box p a b : alongb p a b = false -> ~ along p a b.
Proof.
  intros H (u & v & HI & H1 & H2). apply on_segment_box in H1. apply on_segment_box in H2.
  assert (C : alongb p a b = true).
  { apply existsb_exists. exists (u, v). split; [exact HI|]. cbn [fst snd]. rewrite H1, H2. reflexivity. }
  congruence.
Qed.

Lemma chord_refuted : exists j f1 f2 s g1 g2 access cuts m,
  closed_path (pf_outer f1) /\ closed_path (pf_outer f2) /\ proper (pf_outer f1) /\ proper (pf_outer f2) /\ 1 <= s /\
  route_polyface_outers j [f1] (Some s) None = Ok g1 /\
  route_polyface_outers j [f1; f2] (Some s) None = Ok (g1 ++ g2) /\
  g2 = access ++ cuts ++ [m] /\
  moves_along cuts (steps (pf_outer f2)) /\
  straight_cut m /\ at_height m (pf_depth f2) /\
  exists a b, segment_of m a b /\ a <> b /\
    ~ along (pf_outer f1) a b /\ ~ along (pf_outer f2) a b /\ s * s < sqd a b.
Proof.
  exists ex_job, (PF (square 0 0 1) [] (qz (-2))), (PF far_square [] (qz (-2))), 1.
  exists (motions (route_polyface_outers ex_job [PF (square 0 0 1) [] (qz (-2))] (Some 1) None)).
  pose (g2 := skipn 8 (motions (route_polyface_outers ex_job apart (Some 1) None))).
  exists g2, (firstn 4 g2), (firstn 4 (skipn 4 g2)).
  eexists. split; [apply square_closed|]. split; [exists (zp 11 1); eexists; split; reflexivity|].
  split; [apply properb_ok; vm_compute; reflexivity|].
  split; [apply properb_ok; vm_compute; reflexivity|].
  split; [apply Qcle_refl|]. split; [vm_compute; reflexivity|]. split; [vm_compute; reflexivity|].
  split; [vm_compute; reflexivity|]. split.
  { vm_compute. repeat (apply Forall2_cons; [split; reflexivity|]). apply Forall2_nil. }
  split; [exact I|]. split; [split; reflexivity|].
  exists (zp 11 1), (zp 10 0). split; [split; vm_compute; reflexivity|]. split; [discriminate|].
  split; [apply along_box; vm_compute; reflexivity|]. split; [apply along_box; vm_compute; reflexivity|]. vm_compute. reflexivity.
Qed.

Lemma xy_is v a : match xy v with Some p => pt_eqb p a | None => false end = true -> xy v = Some a.
Proof.
  destruct (xy v) as [[x y]|]; [|discriminate]. unfold pt_eqb. rewrite andb_true_iff, !qeqb_eq. destruct a. cbn. intros [-> ->]. reflexivity.
Qed.

(** A gap of 2/5 is linked although the stepover is 1/4. *)
Definition gap_faces : list pathface :=
  [PF (square 0 0 1) [] (qz (-2));
   PF [(qq (-2) 5, qq (-1) 2); (qq (-2) 5, qz 1); (qz (-3), qz 1); (qq (-2) 5, qq (-1) 2)] [] (qz (-2))].
Lemma gap_refuted : exists j fs s cmds m a b,
  (forall f, In f fs -> closed_path (pf_outer f) /\ proper (pf_outer f)) /\ 0 < s /\
  route_polyface_outers j fs (Some s) None = Ok cmds /\ retracts cmds = 1%nat /\
  In m cmds /\ straight_cut m /\ segment_of m a b /\ s * s < sqd a b /\
  (forall f, In f fs -> ~ along (pf_outer f) a b).
Proof.
  exists ex_job, gap_faces, (qq 1 4), (motions (route_polyface_outers ex_job gap_faces (Some (qq 1 4)) None)).
  exists (nth 8 (motions (route_polyface_outers ex_job gap_faces (Some (qq 1 4)) None)) (mk_rapid av_none None false)).
  exists (qz 0, qz 0), (qq (-2) 5, qz 0).
  split.
  { intros f [<-|[<-|[]]]; (split; [|apply properb_ok; vm_compute; reflexivity]); [apply square_closed|eexists _, _; split; reflexivity]. }
  split; [vm_compute; reflexivity|]. split; [vm_compute; reflexivity|]. split; [vm_compute; reflexivity|].
  split; [apply nth_In; vm_compute; lia|]. split; [exact I|]. split; [split; apply xy_is; vm_compute; reflexivity|].
  split; [vm_compute; reflexivity|].
  intros f [<-|[<-|[]]]; apply along_box; vm_compute; reflexivity.
Qed.

(** ** Edges *)
Definition zv (x y z : Z) : vec := V3 (qz x) (qz y) (qz z).
Definition mix (a b : vec) (t : Qc) : vec :=
  V3 ((1 - t) * vx a + t * vx b) ((1 - t) * vy a + t * vy b) ((1 - t) * vz a + t * vz b).
Definition line (id : nat) (rev : bool) (a b : vec) : edge :=
  Edge id GLINE rev a b (mix a b) (mix a b) 0 1 (qz 1) (zv 0 0 0) (zv 0 0 1) false.
(** The right half of the unit circle around (cx,cy), counterclockwise: p in [-1,1] is mapped to
    ((1-p^2)/(1+p^2), 2p/(1+p^2)).  Normalised lengths are not needed for arcs. *)
Definition half_point (cx cy cz : Z) (p : Qc) : vec :=
  V3 (qz cx + (1 - p * p) / (1 + p * p)) (qz cy + (qz 2 * p) / (1 + p * p)) (qz cz).
Definition half (id : nat) (rev : bool) (cx cy cz : Z) : edge :=
  Edge id GCIRCLE rev (half_point cx cy cz (- (1))) (half_point cx cy cz 1) (half_point cx cy cz)
    (fun d => half_point cx cy cz (qz 2 * d - 1)) (- (1)) 1 (qz 3) (zv cx cy cz) (zv 0 0 1) false.
(** A closed circle: left and right half glued, p in [0,4]. *)
Definition circ_point (cx cy cz : Z) (p : Qc) : vec :=
  if qleb p (qz 2) then half_point cx cy cz (p - 1)
  else let v := half_point 0 0 cz (p - qz 3) in V3 (qz cx - vx v) (qz cy - vy v) (qz cz).
Definition circle (id : nat) (rev : bool) (cx cy cz : Z) : edge :=
  Edge id GCIRCLE rev (circ_point cx cy cz 0) (circ_point cx cy cz (qz 4)) (circ_point cx cy cz)
    (fun d => circ_point cx cy cz (qz 4 * d)) 0 (qz 4) (qz 6) (zv cx cy cz) (zv 0 0 1) true.
(** A curve sent through interpolation: the parabola (t, t^2). *)
Definition parabola (id : nat) (rev : bool) : edge :=
  let f := fun t : Qc => V3 t (t * t) (qz (-1)) in
  Edge id GBSPLINE rev (f 0) (f 1) f f 0 1 (qz 1) (zv 0 0 0) (zv 0 0 1) false.

Lemma vec_eq a b : qeqb (vx a) (vx b) && qeqb (vy a) (vy b) && qeqb (vz a) (vz b) = true -> a = b.
Proof. rewrite !andb_true_iff, !qeqb_eq. destruct a, b. cbn. intros [[-> ->] ->]. reflexivity. Qed.
Ltac sound := split; [|split; [|split; [|split]]]; try (apply vec_eq; vm_compute; reflexivity); try discriminate;
  try (intros _; apply vec_eq; vm_compute; reflexivity).

Definition vec_eqb (a b : vec) : bool := qeqb (vx a) (vx b) && qeqb (vy a) (vy b) && qeqb (vz a) (vz b).
Definition exact_kernel (near : vec -> wire -> option (Qc * target)) : kernel := Kernel vec_eqb near.
Definition K0 : kernel := exact_kernel (fun _ _ => None).

Lemma circle_sound : edge_sound (circle 1 true 3 4 (-1)).
Proof. sound. Qed.
Lemma ex_circle : exists cmds v, edge_sound (circle 1 true 3 4 (-1)) /\
  route_edge K0 (circle 1 true 3 4 (-1)) 3 None None true (Some (PInt 300)) = Ok (cmds, v) /\
  text_of (Ok cmds) = ["G2 X3 Y5 Z-1 I0 J1 K0 F300"; "G2 X3 Y3 Z-1 I0 J-1 K0 F300"]%string.
Proof. eexists _, _. split; [exact circle_sound|]. split; [vm_compute; reflexivity|]. vm_compute. reflexivity. Qed.

Lemma ex_spline : exists cmds v, edge_sound (parabola 1 true) /\
  route_edge K0 (parabola 1 true) 1 None None true (Some (PInt 300)) = Ok (cmds, v) /\ List.length cmds = 10%nat.
Proof. eexists _, _. split; [sound|]. split; [vm_compute; reflexivity|]. reflexivity. Qed.

(** A spline cut from its middle is cut from its start all the same. *)
Lemma subrange_refuted : exists e p cmds m rest, edge_sound e /\ 0 < p /\ p < 1 /\
  route_edge K0 e 1 (Some p) None true (Some (PInt 300)) = Ok (cmds, travel_end e) /\
  cmds = m :: rest /\ m_start m = from_vector (e_param e p) /\ m_end m = from_vector (travel_start e) /\
  travel_start e <> e_param e p.
Proof.
  exists (parabola 1 false), (qq 1 2). eexists _, _, _. split; [sound|]. split; [vm_compute; reflexivity|]. split; [vm_compute; reflexivity|].
  split; [vm_compute; reflexivity|]. split; [reflexivity|]. split; [vm_compute; reflexivity|]. split; [vm_compute; reflexivity|].
  intros C. apply (f_equal vx) in C. apply qeqb_eq in C. vm_compute in C. discriminate.
Qed.

(** An arc and a point on it. *)
Lemma ex_arc_dir : exists b, is_arc_clockwise2 (half 1 false 3 4 (-1)) = Ok b /\
  dot (e_normal (half 1 false 3 4 (-1))) (vsub (half_point 3 4 (-1) (qq 1 3)) (e_center (half 1 false 3 4 (-1)))) = 0 /\
  vsub (half_point 3 4 (-1) (qq 1 3)) (e_center (half 1 false 3 4 (-1))) <> V3 0 0 0.
Proof.
  eexists. split; [reflexivity|]. split; [apply Qc_is_canon; vm_compute; reflexivity|].
  intros C. apply (f_equal vx) in C. apply qeqb_eq in C. vm_compute in C. discriminate.
Qed.

(** ** Wires *)
Definition seg_wire (x : Z) : wire := WWire [line 1 false (zv x 0 (-1)) (zv (x + 1) 0 (-1)); line 2 true (zv (x + 1) 1 (-1)) (zv (x + 1) 0 (-1))].
Definition mid_kernel : kernel := exact_kernel (fun _ _ => Some (qz 9, TEdge 7 (qq 1 2))).
Definition param_wires : list wire := [seg_wire 0; WEdge (half 7 false 10 0 (-1))].

Lemma param_refuted : exists K j ws cmds pre m post,
  (forall w e, In w ws -> In e (wire_edges w) -> edge_sound e) /\
  (forall w, In w ws -> connected (wire_edges w)) /\
  (forall w e rest, In w ws -> wire_edges w = e :: rest -> vz (travel_start e) < j_op_safe_height j) /\
  route_wires K j ws None None = Ok cmds /\
  cmds = pre ++ m :: post /\ ~ rapid m /\ ~ straight_cut m /\ m_start m <> after av_none pre /\
  ~ continuous av_none cmds.
Proof.
  exists mid_kernel, ex_job, param_wires.
  pose (cmds := motions (route_wires mid_kernel ex_job param_wires None None)).
  exists cmds, (firstn 10 cmds). eexists _, (skipn 11 cmds).
  split. { intros w e [<-|[<-|[]]]; cbn [wire_edges seg_wire]; intros [<-|[<-|[]]] || intros [<-|[]]; sound. }
  split. { intros w [<-|[<-|[]]]; cbn; auto. }
  split. { intros w e rest [<-|[<-|[]]] [= <- <-]; vm_compute; reflexivity. }
  split; [vm_compute; reflexivity|]. split; [vm_compute; reflexivity|]. split; [intros C; exact C|]. split; [intros C; exact C|].
  match goal with |- ?a /\ _ => assert (HA : a) end.
  { intros C. apply (f_equal (fun v => oeqb (ax v) (Some (qz 10)))) in C. vm_compute in C. discriminate. }
  split; [exact HA|]. intros C. apply HA. 
  assert (E : cmds = firstn 10 cmds ++ (nth 10 cmds (mk_rapid av_none None false)) :: skipn 11 cmds) by (vm_compute; reflexivity).
  rewrite E in C. apply continuous_app in C. destruct C as [_ [C _]]. exact C.
Qed.

Lemma ex_wires : exists cmds,
  route_wires K0 ex_job [seg_wire 0; seg_wire 5; WEdge (circle 7 false 10 0 (-1))] None None = Ok cmds /\
  (forall w, In w [seg_wire 0; seg_wire 5; WEdge (circle 7 false 10 0 (-1))] -> wire_edges w <> [] /\ connected (wire_edges w)) /\
  (forall w e, In w [seg_wire 0; seg_wire 5; WEdge (circle 7 false 10 0 (-1))] -> In e (wire_edges w) -> edge_sound e) /\
  (forall w u, good_answer None w (k_nearest K0 u w)) /\
  List.length cmds = 18%nat.
Proof.
  eexists. split; [vm_compute; reflexivity|]. split; [|split; [|split; [exact (fun _ _ => I)|reflexivity]]].
  - intros w [<-|[<-|[<-|[]]]]; (split; [discriminate|]); cbn; auto; (split; [apply vec_eq; vm_compute; reflexivity|exact I]).
  - intros w e [<-|[<-|[<-|[]]]]; cbn [wire_edges seg_wire]; intros [<-|[<-|[]]] || intros [<-|[]]; sound.
Qed.

(** Two concentric loops linked half way along an edge of the second. *)
Definition loop_wire (x s : Z) (id : nat) : wire :=
  WWire [line id false (zv x x (-1)) (zv (x + s) x (-1)); line (id + 1) false (zv (x + s) x (-1)) (zv (x + s) (x + s) (-1));
         line (id + 2) false (zv (x + s) (x + s) (-1)) (zv x (x + s) (-1)); line (id + 3) false (zv x (x + s) (-1)) (zv x x (-1))].
Definition link_kernel : kernel := exact_kernel (fun _ _ => Some (qz 1, TEdge 13 (qq 1 5))).
Lemma ex_linked : exists cmds,
  route_wires link_kernel ex_job [loop_wire 1 3 20; loop_wire 0 5 10] (Some (qz 1)) None = Ok cmds /\
  (forall w, In w [loop_wire 1 3 20; loop_wire 0 5 10] -> loop (wire_edges w)) /\
  (forall w e, In w [loop_wire 1 3 20; loop_wire 0 5 10] -> In e (wire_edges w) -> edge_sound e) /\
  (forall w u, In w [loop_wire 1 3 20; loop_wire 0 5 10] -> good_answer (Some (qz 1)) w (k_nearest link_kernel u w)) /\
  retracts cmds = 1%nat.
Proof.
  eexists. split; [vm_compute; reflexivity|]. split; [|split; [|split; [|reflexivity]]].
  - intros w [<-|[<-|[]]]; cbn; repeat split; apply vec_eq; vm_compute; reflexivity.
  - intros w e [<-|[<-|[]]]; cbn [wire_edges loop_wire]; intros [<-|[<-|[<-|[<-|[]]]]]; sound.
  - intros w u [<-|[<-|[]]]; cbn [link_kernel exact_kernel k_nearest good_answer];
      (split; [exists (qz 1); repeat split; discriminate|split; [discriminate|]]);
      intros e He _; cbn in He; repeat destruct He as [<-|He]; try reflexivity; contradiction.
Qed.

Lemma drop_refuted : exists K j ws cmds w,
  In w ws /\ wire_edges w <> [] /\ (forall e, In e (wire_edges w) -> edge_sound e) /\
  route_wires K j ws None None = Ok cmds /\ cmds = [].
Proof.
  exists K0, ex_job, [seg_wire 0; WWire []]. eexists _, (seg_wire 0). split; [left; reflexivity|]. split; [discriminate|].
  split; [|split; [vm_compute; reflexivity|reflexivity]].
  cbn [wire_edges seg_wire]. intros e [<-|[<-|[]]]; sound.
Qed.

Lemma chord_refuted_27 : exists j fs s cmds m a b,
  (forall f, In f fs -> closed_path (pf_outer f) /\ proper (pf_outer f)) /\ 1 <= s /\
  route_polyface_outers j fs (Some s) None = Ok cmds /\ In m cmds /\ straight_cut m /\
  segment_of m a b /\ a <> b /\ s * s < sqd a b /\ (forall f, In f fs -> ~ along (pf_outer f) a b).
Proof.
  destruct chord_refuted as (j & f1 & f2 & s & g1 & g2 & ac & cu & m & C1 & C2 & P1 & P2 & Hs & _ & H & -> & _ & Hm & _ & a & b & S1 & NE & N1 & N2 & L).
  exists j, [f1; f2], s. eexists. exists m, a, b. split; [intros f [<-|[<-|[]]]; auto|]. split; [exact Hs|]. split; [exact H|].
  split; [apply in_or_app; right; apply in_or_app; right; apply in_or_app; right; left; reflexivity|].
  split; [exact Hm|]. split; [exact S1|]. split; [exact NE|]. split; [exact L|]. intros f [<-|[<-|[]]]; assumption.
Qed.
