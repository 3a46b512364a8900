(** A roof whose ridge is between two rows of scanned points. *)
From Verif Require Import Base.Str Base.Py Spec.Paths Spec.Moves Spec.Zigzag Spec.Surfaces Spec.Jobs Spec.Gouge Model.Groups Model.Geometry Model.Plane
  Model.Edges Model.Strategy Model.Surface Proofs.GeomP Proofs.RouteEx Proofs.ZigzagEx Proofs.SurfaceP Proofs.SurfaceEx Proofs.GougeP.
Local Open Scope Qc_scope.
Local Open Scope list_scope.

Definition roof (x : Qc) : Qc := - (qq 1 2 * qabs (x - qq 15 2)).
Definition roof_kernel : surface_kernel := slope_kernel roof (qz (-4)).
Definition roof_boundary : result (list motion) :=
  surface_boundary roof_kernel (scan_answer ex_lines) (ex_args None 0) ex_job [tt] (qz (-4)) tt.

Lemma taxi_true : true_length roof_kernel.
Proof.
  intros [a b] [c d]. cbn [sk_length roof_kernel slope_kernel]. unfold taxi, sqd. cbn [fst snd].
  destruct (qabs_spec (c - a)) as [[-> X]|[-> X]], (qabs_spec (d - b)) as [[-> Y]|[-> Y]]; (split; [qlra|]).
  - pose proof (qmul_pos _ _ X Y). qlra.
  - pose proof (qmul_pos _ (- (d - b)) X ltac:(qlra)). qlra.
  - pose proof (qmul_pos (- (c - a)) _ ltac:(qlra) Y). qlra.
  - pose proof (qmul_pos (- (c - a)) (- (d - b)) ltac:(qlra) ltac:(qlra)). qlra.
Qed.
Lemma roof_drops : drops_to roof_kernel (j_top ex_job) [tt] (fun x _ => roof x).
Proof. intros pts hs [= <-]. reflexivity. Qed.
Lemma roof_slope : no_steeper (qq 1 2) (fun x _ => roof x).
Proof.
  intros x y x' y'. unfold roof. set (r := qq 15 2). clearbody r.
  assert (T : qabs (x' - r) <= qabs (x - r) + (qabs (x - x') + qabs (y - y'))).
  { destruct (qabs_spec (x' - r)) as [[-> ?]|[-> ?]], (qabs_spec (x - r)) as [[-> ?]|[-> ?]], (qabs_spec (x - x')) as [[-> ?]|[-> ?]], (qabs_spec (y - y')) as [[-> ?]|[-> ?]]; qlra. }
  assert (P : 0 <= qq 1 2) by (apply qleb_le; reflexivity). set (h := qq 1 2) in *. clearbody h.
  pose proof (Qcmult_le_compat_r _ _ _ T P) as M. set (A := qabs (x' - r)) in *. set (B := qabs (x - r)) in *. set (C := qabs (x - x') + qabs (y - y')) in *.
  clearbody A B C. qlra.
Qed.

Lemma cutsb_ok m : cutsb m = true -> straight_cut m.
Proof. destruct m; cbn; congruence || (intros _; exact I). Qed.
(** The bound is attained: the ridge is cut off by L * 5 / 2. *)
Lemma ex_gouge : exists ms m, roof_boundary = Ok ms /\
  (0 <= j_op_safe_height ex_job /\ qz (-4) <= j_op_safe_height ex_job /\ true_length roof_kernel /\ 0 < sa_interpolation_step (ex_args None 0)) /\
  drops_to roof_kernel (j_top ex_job) [tt] (fun x _ => roof x) /\ no_steeper (qq 1 2) (fun x _ => roof x) /\
  In m ms /\ straight_cut m /\
  m_start m = AV (Some (qz 10)) (Some (qz 5)) (Some (qq (-5) 4)) /\ m_end m = AV (Some (qz 5)) (Some (qz 5)) (Some (qq (-5) 4)) /\
  roof (qz 10 + qq 1 2 * (qz 5 - qz 10)) = qq (-5) 4 + qq 1 2 * (qabs (qz 5 - qz 10) + qabs (qz 5 - qz 5)) / qz 2.
Proof.
  destruct (okb_ok roof_boundary) as (ms & E); [vm_compute; reflexivity|].
  assert (X : existsb (fun m => cutsb m && (av_eqb (m_start m) (AV (Some (qz 10)) (Some (qz 5)) (Some (qq (-5) 4)))
     && av_eqb (m_end m) (AV (Some (qz 5)) (Some (qz 5)) (Some (qq (-5) 4))))) (values roof_boundary) = true) by (vm_compute; reflexivity).
  rewrite (values_ok _ _ E) in X. apply existsb_exists in X as (m & HI & X). apply andb_prop in X as [X1 X]. apply andb_prop in X as [X2 X3].
  exists ms, m. split; [exact E|]. split.
  { split; [apply qleb_le; reflexivity|]. split; [apply qleb_le; reflexivity|]. split; [exact taxi_true|]. apply qltb_lt. reflexivity. }
  split; [exact roof_drops|]. split; [exact roof_slope|]. split; [exact HI|].
  split; [apply cutsb_ok, X1|]. split; [apply av_eqb_ok, X2|]. split; [apply av_eqb_ok, X3|].
  apply qeqb_eq. vm_compute. reflexivity.
Qed.
