(** Examples for profiles and surfaces moved in the plane (C127). *)
From Verif Require Import Base.Str Base.Py Model.Groups Model.Geometry Model.Plane Model.Edges Model.Command Model.Job Model.Routers Model.Tabs Model.Profile Model.Pocket Model.Strategy Model.Surface
  Spec.Shift Spec.ShiftKernel Proofs.ShiftP Proofs.ShiftKernelP Proofs.RouteEx Proofs.TabsEx Proofs.ProfileEx Proofs.SurfaceEx Proofs.RelationalEx.
Local Open Scope Qc_scope.
Local Open Scope list_scope.

(** Pieces are parts of their curve, and are linked by straight lines up or down. *)
Definition piece (c : Qc -> vec) (p q : Qc) (rev : bool) : result edge :=
  Ok (Edge 0 GLINE rev (c p) (c q) c (fun d => c ((1 - d) * p + d * q)) p q 1 (c p) (V3 0 0 1) false).
Definition upright (a b : vec) : result edge := piece (fun p => V3 (vx a) (vy a) (vz a + p * (vz b - vz a))) 0 1 false.
Definition piece_kernel : tab_kernel := {|
  tk_param_at := fun e d => (1 - d) * e_param0 e + d * e_param1 e; tk_curve := e_param; tk_location := fun _ v => v;
  tk_make := piece; tk_line := upright; tk_assemble := Some; tk_zmin := flat_zmin; tk_length := fun es => sum_lengths (map e_length es) |}.
Lemma piece_kernel_moves d : tab_kernel_moves piece_kernel d.
Proof.
  repeat (split; [reflexivity|]). split.
  - intros es. destruct es as [|e es]; [reflexivity|]. cbn [piece_kernel tk_zmin flat_zmin map]. change (low (move_edge d e)) with (low e). generalize (low e). intros q.
    induction es as [|x es IH]; [reflexivity|]. cbn [map fold_right]. rewrite IH. reflexivity.
  - intros es. cbn. rewrite map_map. reflexivity.
Qed.
(** Wires are cut where they are. *)
Definition stay_wk : wire_kernel := {|
  wk_transform := fun _ w => w; wk_offset := fun w _ => Ok [w]; wk_area := fun _ => Ok 1; wk_relocate := fun _ w => w;
  wk_moved := fun w dz => map (map_edge (lift dz)) w; wk_below := fun _ w => Ok (existsb (fun e => qltb (low e) 0) w) |}.
Lemma stay_wk_moves top d : wire_kernel_moves stay_wk top (map (move_edge d)) d.
Proof.
  repeat (split; [reflexivity|]). split.
  - intros w z. cbn. rewrite !map_map. reflexivity.
  - intros w. cbn. f_equal. induction w as [|e w IH]; [reflexivity|]. cbn [map existsb]. rewrite IH. reflexivity.
Qed.
Definition long_sides : list edge :=
  map (fun e => Edge (e_id e) (e_geom e) (e_reversed e) (e_startPoint e) (e_endPoint e) (e_param e) (e_pos e) (e_param0 e) (e_param1 e) (qz 9) (e_center e) (e_normal e) (e_closed e))
    (zrect 0 0 9 9 (-5)).
Definition moved_profile : result (list command) :=
  profile_gen corner_kernel piece_kernel stay_wk [long_sides] [zrect 2 2 4 4 (-5)] (Some 1) (Some 1) (Some (qz 2)) (Some (EdgeTabs (qz 3) 1 (qz 2) None)) ex_job.

(** Faces are their outlines; the first and the second corner bound the scanned area; the heights
    are stairs from the first corner on. *)
Definition outline_kernel : surface_kernel :=
  SK (list edge) (list edge) (fun w => Ok w) (fun _ _ => Ok (qz (-3))) (fun _ fs => Ok fs) (fun _ => true) (fun b _ _ => Ok [b]) (fun b => (b, true)) taxi
    (fun _ fs pts => match fs with (e :: _) :: _ => Ok (map (fun p => stairs (vx p - vx (e_startPoint e))) pts) | _ => Err KernelError end).
Lemma outline_kernel_moves top d : surface_kernel_moves outline_kernel top (map (move_edge d)) (map (move_edge d)) (map (move_edge d)) d.
Proof.
  repeat (split; [reflexivity|]). split.
  - intros [a b] [x y]. cbn. unfold taxi, move_pt. cbn [fst snd]. rewrite !qsub_shift. reflexivity.
  - intros fs ps. destruct fs as [|[|e f] fs]; [reflexivity|reflexivity|]. cbn. f_equal. rewrite map_map. apply map_ext. intros p. cbn. rewrite qsub_shift. reflexivity.
Qed.
Definition corner_clipper : zig_clipper := ZC
  (fun ps => match ps with (a :: b :: c :: _) :: _ => Ok (fst c, snd a, fst a, snd b) | _ => Err IndexError end)
  (fun _ ls => Ok (tl ls)).
Lemma corner_clipper_moves d : clipper_moves corner_clipper d.
Proof. split; [intros [|[|a [|b [|c p]]] ps]; reflexivity|]. intros ps [|l ls]; reflexivity. Qed.
Definition moved_surface : result (list command) :=
  surface_gen outline_kernel corner_clipper (ex_args None 0) [@OFace outline_kernel (zrect 0 0 10 10 0)] ex_job.
Definition count_of (r : result (list command)) : option nat := match r with Ok cs => Some (length cs) | Err _ => None end.
Lemma ex_moved : (forall d, tab_kernel_moves piece_kernel d) /\ (forall top d, wire_kernel_moves stay_wk top (map (move_edge d)) d) /\
  (forall d, clipper_moves corner_clipper d) /\
  (forall top d, surface_kernel_moves outline_kernel top (map (move_edge d)) (map (move_edge d)) (map (move_edge d)) d) /\
  count_of moved_profile = Some 92%nat /\ count_of moved_surface = Some 12%nat.
Proof.
  split; [exact piece_kernel_moves|]. split; [exact stay_wk_moves|]. split; [exact corner_clipper_moves|]. split; [exact outline_kernel_moves|].
  split; vm_compute; reflexivity.
Qed.
