(** * Properties C101, C102: the integer grid of the polygon library *)
From Verif Require Import Base.Py Model.Geometry Model.Float Model.Pocket Model.Grid
  Spec.Paths Spec.Contours Spec.Pockets Spec.Doubles Spec.Grids
  Proofs.RouteEx Proofs.PocketEx Proofs.GridP Proofs.GridFloatP Proofs.GridEx.
From Coq Require Import SpecFloat QArith Qabs.
Local Open Scope Qc_scope.
Local Open Scope list_scope.

(** ** C101 *)
(** What the library is asked for: the path, the distance and the tolerance, each coordinate cut
    back to the grid, and its answer in units of the grid. *)
Theorem C101_offset_asked : forall L contains p o precision, exists z q k t,
  units z q /\ path_snaps p q /\ snaps o (qz k / qz (2 ^ 31)%Z) /\
  snaps (1 / qz (2 * 10 ^ Z.of_nat precision)) (qz t / qz (2 ^ 31)%Z) /\
  match pl_offset L z k t with
  | Ok raw => exists ps, en_offset (grid_engine L contains) p o precision = Ok ps /\ Forall2 units (pl_clean L raw t) ps
  | Err e => en_offset (grid_engine L contains) p o precision = Err e
  end.
Proof. exact offset_asked. Qed.
Print Assumptions C101_offset_asked.
Theorem C101_union_asked : forall L contains ss cs, exists zs qs zc qc,
  Forall2 units zs qs /\ Forall2 path_snaps ss qs /\ Forall2 units zc qc /\ Forall2 path_snaps cs qc /\
  match pl_execute L TreeUnion zs zc with
  | Ok t => exists ns, en_union (grid_engine L contains) ss cs = Ok ns /\ Forall2 node_units t ns
  | Err e => en_union (grid_engine L contains) ss cs = Err e
  end.
Proof. exact (fun L _ => execute_asked L TreeUnion). Qed.
Print Assumptions C101_union_asked.
Theorem C101_difference_asked : forall L contains ss cs, exists zs qs zc qc,
  Forall2 units zs qs /\ Forall2 path_snaps ss qs /\ Forall2 units zc qc /\ Forall2 path_snaps cs qc /\
  match pl_execute L TreeDifference zs zc with
  | Ok t => exists ns, en_difference (grid_engine L contains) ss cs = Ok ns /\ Forall2 node_units t ns
  | Err e => en_difference (grid_engine L contains) ss cs = Err e
  end.
Proof. exact (fun L _ => execute_asked L TreeDifference). Qed.
Print Assumptions C101_difference_asked.

(** Every contour of a pocket operation lies on the grid, and such contours are not moved when they
    are given to the library again: no drift, however many offsets. *)
Theorem C101_contours_on_grid : forall L contains fuel j areas avoids oo io ao ai stepover stepdown cmds,
  pocket_clipper (grid_engine L contains) fuel j areas avoids oo io ao ai stepover stepdown = Ok cmds ->
  exists sequences gs, cmds = concat gs /\
    Forall2 (fun s g => exists ks, g = concat ks /\ Forall2 group_ok s ks) sequences gs /\
    (forall s f, In s sequences -> In f s -> face_on_grid f).
Proof. exact pocket_on_grid. Qed.
Print Assumptions C101_contours_on_grid.
Theorem C101_no_drift : forall p q, path_on_grid p -> path_snaps p q -> q = p.
Proof. exact path_snaps_grid. Qed.
Print Assumptions C101_no_drift.

(** The grid matters only once, for the input: areas and distances cut back to the grid give the
    same program. *)
Theorem C101_snapped_input : forall L contains fuel j areas areas' avoids avoids' oo oo' io io' ao ao' ai ai' stepover stepdown,
  Forall2 face_snaps areas areas' -> Forall2 face_snaps avoids avoids' ->
  snaps oo oo' -> snaps io io' -> snaps ao ao' -> snaps ai ai' ->
  pocket_clipper (grid_engine L contains) fuel j areas' avoids' oo' io' ao' ai' stepover stepdown =
  pocket_clipper (grid_engine L contains) fuel j areas avoids oo io ao ai stepover stepdown.
Proof. exact snapped_input. Qed.
Print Assumptions C101_snapped_input.

(** In doubles the scaling itself is exact: the product with 2^31 is not rounded before it is
    truncated, and the way back is exact up to 2^53 units (four kilometres). *)
Theorem C101_doubles_in : forall x X, valid_binary 53 1024 x = true -> stands x X -> (Qabs X < pw 900)%Q ->
  exists k, scale64 x = Some k /\
    ((0 <= X)%Q -> (0 <= k)%Z /\ (inject_Z k <= X * pw 31)%Q /\ (X * pw 31 < inject_Z (k + 1))%Q) /\
    ((X <= 0)%Q -> (k <= 0)%Z /\ (X * pw 31 <= inject_Z k)%Q /\ (inject_Z (k - 1) < X * pw 31)%Q).
Proof. exact scale_double. Qed.
Print Assumptions C101_doubles_in.
Theorem C101_doubles_out : forall k, (Z.abs k < 2 ^ 53)%Z -> stands (unscale64 k) (inject_Z k * pw (-31)).
Proof. exact unscale_double. Qed.
Print Assumptions C101_doubles_out.

Example C101_example :
  pocket_clipper (grid_engine box_library box_contains) 10 ex_job [third_square] [] (qq (-1) 7) 0 0 0 1 (Some 1) = Ok grid_cmds /\
  length grid_cmds = 40%nat /\ face_snaps third_square third_snapped /\
  map (fun a => (qfloor (fst a * qz (2 ^ 31)), qfloor (snd a * qz (2 ^ 31)))) (firstn 2 (pf_outer third_snapped)) =
    [(715827882, -715827882); (11453246122, -715827882)]%Z /\
  scale64 (S754_finite true 6004799503160661 (-54)) = Some (-715827882)%Z.
Proof. split; [exact grid_runs|]. split; [exact grid_length|]. split; [exact third_snaps|]. split; vm_compute; reflexivity. Qed.

(** ** C102 *)
(** Full statement: whatever the job's precision and the stepover, the polygon library is asked for
    a positive tolerance and a positive inward offset.  Missing (false in the code): precisions of
    10 and more, and stepovers below one unit of the grid. *)
Theorem C102_tolerance_partial : forall precision t,
  snaps (1 / qz (2 * 10 ^ Z.of_nat precision)) (qz t / qz (2 ^ 31)%Z) -> ((0 < t)%Z <-> (precision <= 9)%nat).
Proof. exact tolerance_positive. Qed.
Print Assumptions C102_tolerance_partial.
Theorem C102_tolerance_refuted : exists precision t,
  0 < 1 / qz (2 * 10 ^ Z.of_nat precision) /\ snaps (1 / qz (2 * 10 ^ Z.of_nat precision)) (qz t / qz (2 ^ 31)%Z) /\ t = 0%Z.
Proof. exact tolerance_lost. Qed.
Print Assumptions C102_tolerance_refuted.

Theorem C102_offset_partial : forall step k, 0 < step -> snaps (- step) (qz k / qz (2 ^ 31)%Z) ->
  ((k < 0)%Z <-> 1 / qz (2 ^ 31)%Z <= step).
Proof. exact offset_negative. Qed.
Print Assumptions C102_offset_partial.
(** A positive stepover below one unit: the contours do not shrink and the filling never ends. *)
Theorem C102_endless_stepovers : forall L contains fuel P step precision,
  pf_inners P = [] -> pf_outer P <> [] -> 0 < step -> step < 1 / qz (2 ^ 31)%Z ->
  (forall z t, z <> [] -> exists raw z', pl_offset L z 0 t = Ok raw /\ pl_clean L raw t = [z'] /\ z' <> []) ->
  fill_pocket_contour_shrink (grid_engine L contains) fuel P step precision = Err OutOfFuel.
Proof. exact endless_fill. Qed.
Print Assumptions C102_endless_stepovers.

Theorem C102_endless_refuted : exists L contains P step, 0 < step /\ closed_path (pf_outer P) /\
  forall fuel precision, fill_pocket_contour_shrink (grid_engine L contains) fuel P step precision = Err OutOfFuel.
Proof. exact endless_witness. Qed.
Print Assumptions C102_endless_refuted.

Example C102_example : scale_number (half_unit 3) = 1073741%Z /\ scale_number (half_unit 9) = 1%Z /\ scale_number (half_unit 10) = 0%Z /\
  forall z t, z <> [] -> exists raw z', pl_offset copy_library z 0 t = Ok raw /\ pl_clean copy_library raw t = [z'] /\ z' <> [].
Proof. split; [vm_compute; reflexivity|]. split; [vm_compute; reflexivity|]. split; [vm_compute; reflexivity|]. exact copy_zero. Qed.
