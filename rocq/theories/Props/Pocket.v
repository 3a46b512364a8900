(** * Properties C32-C39: contour trees, pocket levels, stepping down, pocket operations *)
From Verif Require Import Base.Str Base.Py Model.Geometry Model.Tree Model.Pocket Model.Float
  Spec.Paths Spec.Moves Spec.Contours Spec.Trees Spec.Pockets
  Proofs.TreeP Proofs.FillP Proofs.PocketP Proofs.StepdownP Proofs.RouteEx Proofs.PocketEx Proofs.ParityP.
Import Model.Pocket.
From Coq Require Import Permutation QArith SpecFloat.
Local Open Scope Qc_scope.
Local Open Scope list_scope.

(** ** C32 *)
Theorem C32_sequences_split : forall A (eqb : A -> A -> bool) (t : tree A), grown t ->
  (forall a b, In a (map n_obj t) -> In b (map n_obj t) -> (eqb a b = true <-> a = b)) -> NoDup (map n_obj t) ->
  exists ss, sequences eqb t = Ok ss /\ splits t ss.
Proof. exact @sequences_split. Qed.
Print Assumptions C32_sequences_split.

Example C32_example :
  let t := branch (branch (branch (new_tree 0%nat) 0 [1%nat; 2%nat]) 1 [3%nat; 4%nat]) 4 [5%nat] in
  grown t /\ NoDup (map n_obj t) /\ sequences Nat.eqb t = Ok [[5; 4; 1; 0]; [3]; [2]]%nat.
Proof.
  split; [repeat constructor|]. split; [|vm_compute; reflexivity].
  cbn. repeat constructor; cbn; intuition discriminate.
Qed.

(** ** C33 *)
Theorem C33_fill_visits_all : forall E fuel P step precision ss,
  fill_pocket_contour_shrink E fuel P step precision = Ok ss -> filling (inward E P step precision) P ss.
Proof. exact fill_pocket_spec. Qed.
Print Assumptions C33_fill_visits_all.

Theorem C33_fill_ends : forall E fuel P step precision (contour_addresses : list (list nat)),
  (forall a c, reached (inward E P step precision) (pf_outer P) a c -> In a contour_addresses) ->
  (forall a c, reached (inward E P step precision) (pf_outer P) a c -> exists l, next_contours E P step precision c = Ok l) ->
  (length contour_addresses < fuel)%nat -> exists ss, fill_pocket_contour_shrink E fuel P step precision = Ok ss.
Proof. exact fill_pocket_ends. Qed.
Print Assumptions C33_fill_ends.

Theorem C33_fill_errors : forall E fuel P step precision e,
  fill_pocket_contour_shrink E fuel P step precision = Err e ->
  e = OutOfFuel \/
  exists a c, reached (inward E P step precision) (pf_outer P) a c /\ next_contours E P step precision c = Err e.
Proof. exact fill_pocket_err. Qed.
Print Assumptions C33_fill_errors.

Example C33_example :
  shape_of (fill_pocket_contour_shrink box_engine 10 box_pocket 1 3) =
  [[(-2, [(2, 2); (3, 2); (3, 3); (2, 3); (2, 2)]);
    (-2, [(1, 1); (4, 1); (4, 4); (1, 4); (1, 1)]);
    (-2, [(0, 0); (5, 0); (5, 5); (0, 5); (0, 0)])]]%Z.
Proof. vm_compute. reflexivity. Qed.

(** ** C34 *)
Theorem C34_depth_groups : forall fs m ds, generate_depth_map fs = Ok (m, ds) ->
  Forall (fun f => pf_depth f <= 0) fs /\ strictly_down ds /\
  (forall d, In d ds <-> exists f, In f fs /\ pf_depth f = d) /\
  (forall d, dict_get m d = filter (fun f => qeqb (pf_depth f) d) fs).
Proof. exact depth_map_spec. Qed.
Print Assumptions C34_depth_groups.

Theorem C34_no_face_lost : forall fs m ds, generate_depth_map fs = Ok (m, ds) ->
  Permutation (flat_map (dict_get m) ds) fs.
Proof. exact depth_map_perm. Qed.
Print Assumptions C34_no_face_lost.

Theorem C34_faces_above_the_plane : forall fs e,
  generate_depth_map fs = Err e <-> e = ValueError /\ exists f, In f fs /\ 0 < pf_depth f.
Proof. exact depth_map_error. Qed.
Print Assumptions C34_faces_above_the_plane.

Example C34_example :
  match generate_depth_map [PF (square 0 0 1) [] (qz (-2)); PF (square 2 0 1) [] 0; PF (square 4 0 1) [] (qz (-2))] with
  | Ok (m, ds) => map qfloor ds = [0; -2]%Z /\ map (fun d => length (dict_get m d)) ds = [1; 2]%nat
  | Err _ => False
  end.
Proof. vm_compute. split; reflexivity. Qed.

(** ** C35 *)
Theorem C35_levels : forall E ops avoids r, build_pocket_ops E ops avoids = Ok r ->
  exists ds rs, r = concat rs /\ Forall2 (level E ops avoids) ds rs /\ strictly_down ds /\
    (forall d, In d ds <-> exists f, In f ops /\ pf_depth f = d) /\
    Forall (fun f => pf_depth f <= 0) (ops ++ avoids).
Proof. exact build_pocket_spec. Qed.
Print Assumptions C35_levels.

(** The full property would need no condition on [q] beyond [right_at]; it is false, see the two
    refutations below.  Proved: at points covered by at most one outline and at most one clip, if
    the outlines are united without holes around [q]. *)
Theorem C35_level_region_partial : forall E q ops avoids d fs, right_at E q -> level E ops avoids d fs ->
  (forall ss t, en_union E ss [] = Ok t ->
     tree_at q t /\ forall n m, In n t -> In m (children n) -> inside q (contour m) = false) ->
  (forall ss cs t, en_difference E ss cs = Ok t -> tree_at q t /\ two_levels t) ->
  (count (inside q) (map pf_outer (filter (fun f => qleb (pf_depth f) d) ops)) <= 1)%nat ->
  (count (inside q) (flat_map pf_inners (filter (fun f => qleb (pf_depth f) d) ops) ++
                     map pf_outer (filter (fun f => qleb d (pf_depth f)) avoids)) <= 1)%nat ->
  (machined q fs <-> wanted q ops avoids d).
Proof. exact level_region. Qed.
Print Assumptions C35_level_region_partial.

(** At any point: what decides is whether the outlines and the clips (islands, areas to avoid)
    around it are odd or even in number. *)
Theorem C35_parity_partial : forall E q ops avoids d fs, right_at E q -> level E ops avoids d fs ->
  (forall ss t, en_union E ss [] = Ok t -> tree_at q t) ->
  (forall ss cs t, en_difference E ss cs = Ok t -> tree_at q t /\ two_levels t) ->
  forall outlines clips,
  outlines = count (inside q) (map pf_outer (filter (fun f => qleb (pf_depth f) d) ops)) ->
  clips = count (inside q) (flat_map pf_inners (filter (fun f => qleb (pf_depth f) d) ops) ++
                            map pf_outer (filter (fun f => qleb d (pf_depth f)) avoids)) ->
  (machined q fs -> Nat.Even clips) /\
  (Nat.Odd outlines -> Nat.Even clips -> machined q fs) /\
  ((forall ss t n m, en_union E ss [] = Ok t -> In n t -> In m (children n) -> inside q (contour m) = false) ->
   machined q fs -> Nat.Odd outlines).
Proof. exact level_parity. Qed.
Print Assumptions C35_parity_partial.
Example C35_parity_example : exists r, build_pocket_ops overlap_engine overlap_ops [] = Ok r /\
  right_at overlap_engine overlap_point /\ level overlap_engine overlap_ops [] (qz (-1)) r /\
  (forall ss t, en_union overlap_engine ss [] = Ok t -> tree_at overlap_point t) /\
  (forall ss cs t, en_difference overlap_engine ss cs = Ok t -> tree_at overlap_point t /\ two_levels t) /\
  (forall ss t n m, en_union overlap_engine ss [] = Ok t -> In n t -> In m (children n) -> inside overlap_point (contour m) = false) /\
  count (inside overlap_point) (map pf_outer (filter (fun f => qleb (pf_depth f) (qz (-1))) overlap_ops)) = 2%nat.
Proof. exact overlap_parity. Qed.

Example C35_example : forall q, right_at island_engine q /\
  (forall ss t, en_union island_engine ss [] = Ok t -> tree_at q t /\ forall n m, In n t -> In m (children n) -> inside q (contour m) = false) /\
  (forall ss cs t, en_difference island_engine ss cs = Ok t -> tree_at q t /\ two_levels t) /\
  (count (inside q) (map pf_outer (filter (fun f => qleb (pf_depth f) (qz (-2))) island_ops)) <= 1)%nat /\
  (count (inside q) (flat_map pf_inners (filter (fun f => qleb (pf_depth f) (qz (-2))) island_ops) ++
                     map pf_outer (filter (fun f => qleb (qz (-2)) (pf_depth f)) island_avoids)) <= 1)%nat.
Proof. intros q. split; [apply island_right|apply island_hyps]. Qed.
Example C35_example_runs : exists r, build_pocket_ops island_engine island_ops island_avoids = Ok r /\
  machinedb (zp 4 4) r = true /\ machinedb (zp 2 2) r = false /\ machinedb (zp 6 6) r = false /\ machinedb (zp 9 4) r = false.
Proof. exact island_builds. Qed.

(** Overlapping outlines: the overlap is left standing (pyclipper's default even-odd rule). *)
Theorem C35_overlap_refuted : exists E ops q r, (forall q', right_at E q') /\ build_pocket_ops E ops [] = Ok r /\
  Forall (fun f => pf_depth f = qz (-1)) ops /\ wanted q ops [] (qz (-1)) /\ ~ machined q r.
Proof. exact overlap_missed. Qed.
Print Assumptions C35_overlap_refuted.

(** Outlines in a ring: the area they enclose is machined although no outline covers it. *)
Theorem C35_ring_refuted : exists E ops q r, (forall q', right_at E q') /\ build_pocket_ops E ops [] = Ok r /\
  Forall (fun f => pf_depth f = qz (-1)) ops /\
  ~ wanted q ops [] (qz (-1)) /\ (forall f, In f ops -> inside q (pf_outer f) = false) /\ machined q r.
Proof. exact ring_gouged. Qed.
Print Assumptions C35_ring_refuted.

(** ** C36 *)
Theorem C36_stepdown_passes : forall ss start s out, 0 < s -> apply_stepdown ss start s = Ok out ->
  exists d, (concat ss <> [] /\ forall f, In f (concat ss) -> pf_depth f = d) /\
    exists ds css, steps_by s (dflt start 0) d ds /\ out = concat css /\
      Forall2 (fun z cs => Forall2 (Forall2 (at_depth z)) ss cs) ds css.
Proof. exact stepdown_spec. Qed.
Print Assumptions C36_stepdown_passes.

Theorem C36_stepdown_errors : forall ss start s e, apply_stepdown ss start s = Err e <->
  e = RuntimeError /\ ~ exists d, concat ss <> [] /\ forall f, In f (concat ss) -> pf_depth f = d.
Proof. exact stepdown_err. Qed.
Print Assumptions C36_stepdown_errors.

Theorem C36_pocket_passes : forall E fuel precision stepover stepdown ops before ss,
  fill_ops E fuel precision stepover stepdown before ops = Ok ss ->
  pocketed E stepover stepdown precision before ops ss.
Proof. exact fill_ops_spec. Qed.
Print Assumptions C36_pocket_passes.

Example C36_example :
  shape_of (apply_stepdown [[PF (square 0 0 1) [] (qz (-5))]] (Some (qz (-1))) (qz 2)) =
  [[(-3, [(0, 0); (1, 0); (1, 1); (0, 1); (0, 0)])]]%Z.
Proof. vm_compute. reflexivity. Qed.

(** ** C37 *)
(** In exact arithmetic all intermediate depths are above the final one (C36); with doubles they
    need not be: 0.405 and -2.43 give a pass at -2.4300000000000006. *)
Theorem C37_float_passes_refuted : exists stepdown depth s z x,
  f64_value stepdown = Some s /\ f64_value depth = Some z /\ (0 < s)%Q /\ (z < 0)%Q /\
  In x (step_depths64 None stepdown depth) /\ exists v, f64_value x = Some v /\ (v < z)%Q.
Proof. exact float_overshoot. Qed.
Print Assumptions C37_float_passes_refuted.

Theorem C37_exact_passes_partial : forall s start z x, 0 < s -> In x (arange (start - s) z (- s)) -> z < x.
Proof. exact exact_passes. Qed.
Print Assumptions C37_exact_passes_partial.

Example C37_example : In (qq (-3) 2) (arange (0 - qq 1 2) (qz (-2)) (- qq 1 2)).
Proof. exact exact_passes_ex. Qed.

(** ** C38 *)
Theorem C38_start_depth : forall E op before o,
  determine_stepdown_start_depth E op before = Ok o -> start_depth E before op (dflt o 0).
Proof. exact start_spec. Qed.
Print Assumptions C38_start_depth.

Example C38_example :
  match determine_stepdown_start_depth box_engine (PF (square 1 1 1) [] (qz (-9)))
    [PF (square 0 0 4) [] (qz (-1)); PF (square 0 0 3) [] (qz (-4)); PF (square 5 5 3) [] (qz (-6))] with
  | Ok (Some d) => qfloor d = (-4)%Z
  | _ => False
  end.
Proof. vm_compute. reflexivity. Qed.

(** ** C39 *)
Theorem C39_pocket_never_below_floor : forall E fuel j areas avoids oo io ao ai stepover stepdown cmds floor,
  pocket_clipper E fuel j areas avoids oo io ao ai stepover stepdown = Ok cmds ->
  floor <= 0 -> (forall f, In f areas -> floor <= pf_depth f) ->
  floor <= j_op_safe_height j -> floor <= j_rapid_height j ->
  continuous av_none cmds /\ Forall (above floor) cmds /\
  Forall (fun m => rapid m -> safe_rapid (j_rapid_height j) (j_op_safe_height j) m) cmds /\
  Forall (fun m => ~ rapid m ->
            exists d, floor <= d /\ ok_feed (j_op_safe_height j) (j_plunge_feed j) (j_feed j) d m) cmds.
Proof. exact pocket_floor. Qed.
Print Assumptions C39_pocket_never_below_floor.

Theorem C39_pocket_on_contours : forall E fuel j areas avoids oo io ao ai stepover stepdown cmds,
  pocket_clipper E fuel j areas avoids oo io ao ai stepover stepdown = Ok cmds ->
  exists opss avss pockets sequences gs,
    Forall2 (offset_face E oo io (j_precision j)) areas opss /\
    Forall2 (offset_face E ao ai (j_precision j)) avoids avss /\
    levels E (concat opss) (concat avss) pockets /\
    pocketed E stepover stepdown (j_precision j) [] pockets sequences /\
    cmds = concat gs /\
    Forall2 (fun s g => exists ks, g = concat ks /\ Forall2 group_ok s ks) sequences gs.
Proof. exact pocket_spec. Qed.
Print Assumptions C39_pocket_on_contours.

Example C39_example : pocket_clipper box_engine 10 ex_job [box_pocket] [] 0 0 0 0 1 (Some 1) = Ok box_cmds /\
  length box_cmds = 40%nat /\ qz (-2) <= j_op_safe_height ex_job /\ qz (-2) <= j_rapid_height ex_job.
Proof. split; [exact box_runs|]. split; [reflexivity|]. split; discriminate. Qed.
