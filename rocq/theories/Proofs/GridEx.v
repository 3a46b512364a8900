(** * A library for boxes with integer corners *)
From Verif Require Import Base.Py Model.Geometry Model.Contour Model.Pocket Model.Grid Spec.Paths Spec.Grids Proofs.RouteEx Proofs.PocketEx Proofs.GridP.
Local Open Scope Qc_scope.
Local Open Scope list_scope.

Definition zbox (p : zpath) : Z * Z * Z * Z :=
  match p with
  | [] => (0, 0, 0, 0)%Z
  | (x, y) :: l => fold_left (fun '(a, b, c, d) '(x, y) => (Z.min a x, Z.min b y, Z.max c x, Z.max d y)) l (x, y, x, y)
  end.
Definition box_library : polygon_library := PL
  (fun p o _ => let '(a, b, c, d) := zbox p in
     if ((a - o <? c + o) && (b - o <? d + o))%Z
     then Ok [[(a - o, b - o); (c + o, b - o); (c + o, d + o); (a - o, d + o)]]%Z else Ok [])
  (fun l _ => l)
  (fun op ss cs => match cs with [] => Ok (map (fun s => ZNode s []) ss) | _ => Err RuntimeError end).
Definition box_contains (f g : pathface) : result bool := en_contains box_engine f g.

(** A square with corners at thirds. *)
Definition third_square : pathface :=
  PF [(qq 1 3, qq (-1) 3); (qq 16 3, qq (-1) 3); (qq 16 3, qq 14 3); (qq 1 3, qq 14 3); (qq 1 3, qq (-1) 3)] [] (qz (-2)).
Definition snap_path (p : path) : path := from_clipper (to_clipper p).
Definition third_snapped : pathface := PF (snap_path (pf_outer third_square)) [] (qz (-2)).
Lemma third_snaps : face_snaps third_square third_snapped.
Proof. split; [apply path_snaps_self|]. split; [constructor|reflexivity]. Qed.
Definition grid_cmds : list motion :=
  motions (pocket_clipper (grid_engine box_library box_contains) 10 ex_job [third_square] [] (qq (-1) 7) 0 0 0 1 (Some 1)).
Lemma grid_runs : pocket_clipper (grid_engine box_library box_contains) 10 ex_job [third_square] [] (qq (-1) 7) 0 0 0 1 (Some 1) = Ok grid_cmds.
Proof. vm_compute. reflexivity. Qed.
Lemma grid_length : length grid_cmds = 40%nat.
Proof. vm_compute. reflexivity. Qed.
(** An offset by nothing leaves the contour. *)
Definition copy_library : polygon_library := PL
  (fun p o t => if (o =? 0)%Z then Ok [p] else pl_offset box_library p o t)
  (pl_clean box_library) (pl_execute box_library).
Lemma copy_zero z t : z <> [] ->
  exists raw z', pl_offset copy_library z 0 t = Ok raw /\ pl_clean copy_library raw t = [z'] /\ z' <> [].
Proof. intros H. exists [z], z. split; [reflexivity|]. split; [reflexivity|exact H]. Qed.
Lemma endless_witness : exists L contains P step, 0 < step /\ closed_path (pf_outer P) /\
  forall fuel precision, fill_pocket_contour_shrink (grid_engine L contains) fuel P step precision = Err OutOfFuel.
Proof.
  exists copy_library, box_contains, box_pocket, (qq 1 4294967296). split; [reflexivity|]. split; [eexists _, _; split; reflexivity|].
  intros fuel precision. apply endless_fill; [reflexivity|discriminate|reflexivity|reflexivity|exact copy_zero].
Qed.
