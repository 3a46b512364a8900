(** Examples and witnesses for Props/Surface.v. *)
From Verif Require Import Base.Str Base.Py Spec.Paths Spec.Moves Spec.Zigzag Spec.Pockets Spec.Surfaces Spec.Jobs Model.Groups Model.Geometry Model.Plane
  Model.Edges Model.Pocket Model.Strategy Model.Surface Proofs.GeomP Proofs.RouteEx Proofs.ZigzagEx Proofs.SurfaceP Proofs.SurfaceThmP.
Local Open Scope Qc_scope.
Local Open Scope list_scope.

(** A square whose height depends on x only. *)
Definition taxi (p q : pt) : Qc := qabs (fst q - fst p) + qabs (snd q - snd p).
Definition slope_kernel (height : Qc -> Qc) (zmin : Qc) : surface_kernel :=
  SK unit unit (fun w => Ok w) (fun _ _ => Ok zmin) (fun _ fs => Ok fs) (fun _ => true) (fun b _ _ => Ok [b])
     (fun _ => (wire_square, true)) taxi (fun _ _ pts => Ok (map (fun p => height (vx p)) pts)).
Definition stairs (x : Qc) : Qc := if qltb x (qz 3) then qz 2 else if qltb x (qz 7) then qz (-1) else qz (-3).
Definition ex_args (sd : option Qc) (top : Qc) : surface_args :=
  SA (qz 4) (qz 5) (qq 3 4) (Some (OffNum (qz (-1)))) (Some (OffNum 1)) sd top.
Definition surface_texts (r : result (list command)) : list string :=
  match r with
  | Ok cs => map (fun c => match str_command c with Ok s => s | Err _ => "?"%string end) cs
  | Err _ => ["!"%string]
  end.
Definition ex_lines : list path := [[zp 10 2; zp 0 2]; [zp 0 5; zp 10 5]; [zp 0 8; zp 10 8]].
Definition slope_objects (height : Qc -> Qc) (zmin : Qc) : list (face_object (slope_kernel height zmin)) :=
  [@OFace (slope_kernel height zmin) tt].
Definition stairs_gen (sd : option Qc) (top : Qc) (j : job) : result (list command) :=
  surface_gen (slope_kernel stairs (qz (-3))) (scan_answer ex_lines) (ex_args sd top) (slope_objects stairs (qz (-3))) j.
Lemma stairs_text : surface_texts (stairs_gen None 0 ex_job) =
  ["G0 Z10"; "G0 X5 Y2 Z10"; "G0 X5 Y2 Z1"; "G1 X10 Y2 Z-3"; "G1 X10 Y2 Z-3"; "G1 X10 Y5 Z-3"; "G1 X10 Y5 Z-3"; "G1 X5 Y5 Z-1";
   "G0 X5 Y5 Z10"; "G0 X5 Y8 Z10"; "G0 X5 Y8 Z1"; "G1 X10 Y8 Z-3"]%string.
Proof. vm_compute. reflexivity. Qed.
Lemma stairs_text_down : firstn 16 (surface_texts (stairs_gen (Some (qz (-1))) 0 ex_job)) =
  ["G0 Z10"; "G0 X5 Y2 Z10"; "G0 X5 Y2 Z1"; "G1 X10 Y2 Z-1"; "G1 X10 Y2 Z-1"; "G1 X10 Y5 Z-1"; "G1 X10 Y5 Z-1"; "G1 X5 Y5 Z-1";
   "G0 X5 Y5 Z10"; "G0 X5 Y8 Z10"; "G0 X5 Y8 Z1"; "G1 X10 Y8 Z-1"; "G0 X10 Y8 Z10"; "G0 X5 Y2 Z10"; "G0 X5 Y2 Z1"; "G1 X10 Y2 Z-2"]%string.
Proof. vm_compute. reflexivity. Qed.

Definition stairs_boundary (sd : option Qc) (top : Qc) (j : job) : result (list motion) :=
  surface_boundary (slope_kernel stairs (qz (-3))) (scan_answer ex_lines) (ex_args sd top) j [tt] (qz (-3)) tt.
Definition stairs_sequences (sd : option Qc) (top : Qc) : result (list (list vec)) :=
  surface_sequences (slope_kernel stairs (qz (-3))) (scan_answer ex_lines) (ex_args sd top) plane_xy [tt] (qz (-3)) tt.
Definition ov_eqb (a b : option Qc) : bool := match a, b with Some x, Some y => qeqb x y | None, None => true | _, _ => false end.
Definition av_eqb (a b : avec) : bool := ov_eqb (ax a) (ax b) && ov_eqb (ay a) (ay b) && ov_eqb (az a) (az b).
Lemma ov_eqb_ok a b : ov_eqb a b = true -> a = b.
Proof. destruct a, b; cbn; try discriminate; auto. intros H. apply qeqb_eq in H. congruence. Qed.
Lemma av_eqb_ok a b : av_eqb a b = true -> a = b.
Proof.
  unfold av_eqb. intros H. apply andb_prop in H as [H H3]. apply andb_prop in H as [H1 H2]. destruct a, b. cbn in *.
  f_equal; apply ov_eqb_ok; assumption.
Qed.
Definition cutsb (m : motion) : bool := match m with MCut _ _ _ _ _ => true | _ => false end.
Lemma vec_eqb_ok a b : vec_eqb a b = true -> a = b.
Proof.
  unfold vec_eqb. intros H. apply andb_prop in H as [H H3]. apply andb_prop in H as [H1 H2]. destruct a, b. cbn in *.
  f_equal; apply qeqb_eq; assumption.
Qed.
Lemma in_ok {A} (eqb : A -> A -> bool) (H : forall a b, eqb a b = true -> a = b) x l : existsb (eqb x) l = true -> In x l.
Proof. intros E. apply existsb_exists in E as (y & HI & HE). apply H in HE. subst. exact HI. Qed.
Definition values {A} (r : result (list A)) : list A := match r with Ok l => l | Err _ => [] end.
Lemma values_ok {A} (r : result (list A)) l : r = Ok l -> values r = l.
Proof. intros ->. reflexivity. Qed.
Definition okb {A} (r : result A) : bool := match r with Ok _ => true | Err _ => false end.
Lemma okb_ok {A} (r : result A) : okb r = true -> exists a, r = Ok a.
Proof. destruct r; [eauto|discriminate]. Qed.

(** The point at x = 5, y = 2 (height -1) is only the start of its run. *)
Lemma first_point_left : exists K C a j faces zmin b ms seqs p,
  surface_boundary K C a j faces zmin b = Ok ms /\ scanned K C a (j_top j) faces zmin b seqs /\
  In p (concat seqs) /\ vz p <= 0 /\ zmin <= vz p /\ sa_stepdown a = None /\
  forall m, In m ms -> straight_cut m -> xy (m_end m) <> Some (vx p, vy p).
Proof.
  destruct (okb_ok (stairs_boundary None 0 ex_job)) as (ms & E); [vm_compute; reflexivity|].
  destruct (okb_ok (stairs_sequences None 0)) as (seqs & E2); [vm_compute; reflexivity|].
  exists (slope_kernel stairs (qz (-3))), (scan_answer ex_lines), (ex_args None 0), ex_job, [tt], (qz (-3)), tt, ms, seqs, (zv 5 2 (-1)).
  split; [exact E|]. split; [apply surface_sequences_scanned, E2|]. split.
  { apply (in_ok vec_eqb vec_eqb_ok). rewrite <- (values_ok _ _ E2). vm_compute. reflexivity. }
  split; [apply qleb_le; reflexivity|]. split; [apply qleb_le; reflexivity|]. split; [reflexivity|].
  assert (F : forallb (fun m => negb (cutsb m && match xy (m_end m) with Some q => pt_eqb q (zp 5 2) | None => false end)) ms = true).
  { rewrite <- (values_ok _ _ E). vm_compute. reflexivity. }
  intros m HI HS HX. rewrite forallb_forall in F. specialize (F m HI). destruct m; cbn in HS; try contradiction. cbn [cutsb andb negb] in F.
  rewrite HX in F. vm_compute in F. discriminate.
Qed.

(** With a top height of 5 and passes 1 apart, the third pass rapids down to height 1 at x = 0, where
    the part is 2 high. *)
Lemma rapid_into_part : exists K C a j faces zmin b ms seqs m p z,
  surface_boundary K C a j faces zmin b = Ok ms /\ scanned K C a (j_top j) faces zmin b seqs /\
  0 <= j_op_safe_height j /\ zmin <= j_op_safe_height j /\ (exists s, sa_stepdown a = Some s /\ s < 0) /\
  In m ms /\ rapid m /\ az (m_end m) = Some z /\ In p (concat seqs) /\ xy (m_end m) = Some (vx p, vy p) /\
  z < vz p /\ forall q, In q (concat seqs) -> xy (m_end m) = Some (vx q, vy q) -> z < vz q.
Proof.
  destruct (okb_ok (stairs_boundary (Some (qz (-1))) (qz 5) ex_job)) as (ms & E); [vm_compute; reflexivity|].
  destruct (okb_ok (stairs_sequences (Some (qz (-1))) (qz 5))) as (seqs & E2); [vm_compute; reflexivity|].
  set (t := AV (Some (qz 0)) (Some (qz 2)) (Some (qz 1))).
  assert (X : existsb (fun m => negb (cutsb m) && av_eqb (m_end m) t && match m with MRapid _ _ _ _ => true | _ => false end) ms = true).
  { rewrite <- (values_ok _ _ E). vm_compute. reflexivity. }
  apply existsb_exists in X as (m & HI & HM). apply andb_prop in HM as [HM HR]. apply andb_prop in HM as [_ HM]. apply av_eqb_ok in HM.
  exists (slope_kernel stairs (qz (-3))), (scan_answer ex_lines), (ex_args (Some (qz (-1))) (qz 5)), ex_job, [tt], (qz (-3)), tt, ms, seqs, m, (zv 0 2 2), (qz 1).
  split; [exact E|]. split; [apply surface_sequences_scanned, E2|]. split; [apply qleb_le; reflexivity|]. split; [apply qleb_le; reflexivity|].
  split; [exists (qz (-1)); split; [reflexivity|apply qltb_lt; reflexivity]|]. split; [exact HI|]. split; [clear - HR; destruct m; try discriminate HR; exact I|].
  split; [rewrite HM; reflexivity|]. split.
  { apply (in_ok vec_eqb vec_eqb_ok). rewrite <- (values_ok _ _ E2). vm_compute. reflexivity. }
  split; [rewrite HM; reflexivity|]. split; [apply qltb_lt; reflexivity|].
  assert (F : forallb (fun q => negb (qeqb (vx q) (qz 0)) || qltb (qz 1) (vz q)) (concat seqs) = true).
  { rewrite <- (values_ok _ _ E2). vm_compute. reflexivity. }
  intros q HQ HX. rewrite HM in HX. cbn in HX. injection HX as EX EY. rewrite forallb_forall in F. specialize (F q HQ).
  rewrite <- EX in F. assert (B : qeqb (qz 0) (qz 0) = true) by (apply qeqb_eq; reflexivity). rewrite B in F. cbn in F. apply qltb_lt. exact F.
Qed.

(** Between two points of the scan the cut goes straight through the step at x = 7. *)
Lemma cut_through_step : exists K C a j faces zmin b ms m t x0 y0 z0 x1 y1 z1 h,
  surface_boundary K C a j faces zmin b = Ok ms /\ In m ms /\ straight_cut m /\
  m_start m = AV (Some x0) (Some y0) (Some z0) /\ m_end m = AV (Some x1) (Some y1) (Some z1) /\
  0 <= t /\ t <= 1 /\
  sk_drop K (j_top j) faces [V3 (x0 + t * (x1 - x0)) (y0 + t * (y1 - y0)) zmin] = Ok [h] /\ z0 + t * (z1 - z0) < h.
Proof.
  destruct (okb_ok (stairs_boundary None 0 ex_job)) as (ms & E); [vm_compute; reflexivity|].
  set (s := AV (Some (qz 10)) (Some (qz 5)) (Some (qz (-3)))). set (t := AV (Some (qz 5)) (Some (qz 5)) (Some (qz (-1)))).
  assert (X : existsb (fun m => cutsb m && av_eqb (m_start m) s && av_eqb (m_end m) t) ms = true).
  { rewrite <- (values_ok _ _ E). vm_compute. reflexivity. }
  apply existsb_exists in X as (m & HI & HM). apply andb_prop in HM as [HM H2]. apply andb_prop in HM as [HM H1].
  apply av_eqb_ok in H1. apply av_eqb_ok in H2.
  exists (slope_kernel stairs (qz (-3))), (scan_answer ex_lines), (ex_args None 0), ex_job, [tt], (qz (-3)), tt, ms, m, (qq 7 10),
    (qz 10), (qz 5), (qz (-3)), (qz 5), (qz 5), (qz (-1)), (qz (-1)).
  split; [exact E|]. split; [exact HI|]. split; [clear - HM; destruct m; try discriminate HM; exact I|]. split; [exact H1|]. split; [exact H2|].
  split; [apply qleb_le; reflexivity|]. split; [apply qleb_le; reflexivity|]. split; [vm_compute; reflexivity|]. apply qltb_lt. vm_compute. reflexivity.
Qed.

(** ** Hypotheses met *)
Lemma ex_interpolate : (0 < qz 5 /\ [zp 0 2; zp 10 2; zp 10 5] <> [] /\
  forall a b, In (a, b) (steps [zp 0 2; zp 10 2; zp 10 5]) -> 0 < taxi a b /\ sqd a b <= taxi a b * taxi a b) /\
  interpolate_cut_sequence taxi (qz 4) [zp 0 2; zp 10 2; zp 10 5] = Ok [zp 0 2; zp 0 2; zp 4 2; zp 8 2; zp 10 2; zp 10 2; zp 10 5].
Proof.
  split; [|apply is_path_ok; vm_compute; reflexivity]. split; [apply qltb_lt; reflexivity|]. split; [discriminate|].
  intros a b [H|[H|[]]]; injection H as <- <-; split; (apply qltb_lt || apply qleb_le); vm_compute; reflexivity.
Qed.
Lemma ex_chop : chop_sequences_by_depth [[zv 0 0 (-1); zv 1 0 2; zv 2 0 0; zv 3 0 (-3); zv 4 0 5]; [zv 5 0 7]; [zv 6 0 (-2)]] 0 =
  [[zv 0 0 (-1)]; [zv 2 0 0; zv 3 0 (-3)]; [zv 6 0 (-2)]].
Proof. vm_compute. reflexivity. Qed.
Lemma ex_descents : exists ms, stairs_boundary (Some (qz (-1))) 0 ex_job = Ok ms /\ 0 <= j_op_safe_height ex_job /\ qz (-3) <= j_op_safe_height ex_job /\
  (forall s, sa_stepdown (ex_args (Some (qz (-1))) 0) = Some s -> s < 0 /\ sa_top_height (ex_args (Some (qz (-1))) 0) + s <= j_op_safe_height ex_job).
Proof.
  destruct (okb_ok (stairs_boundary (Some (qz (-1))) 0 ex_job)) as (ms & E); [vm_compute; reflexivity|]. exists ms. split; [exact E|].
  split; [apply qleb_le; reflexivity|]. split; [apply qleb_le; reflexivity|]. intros s [= <-]. split; [apply qltb_lt|apply qleb_le]; vm_compute; reflexivity.
Qed.
Lemma ex_finish : exists seqs, stairs_sequences (Some (qz (-3))) 0 = Ok seqs /\
  exists p q, neighbours seqs p q /\ vz p <= 0 /\ vz q <= 0 /\ qz (-3) <= vz q /\ vz p <= vz q - qz (-3) /\ q = zv 5 5 (-1).
Proof.
  destruct (okb_ok (stairs_sequences (Some (qz (-3))) 0)) as (seqs & E); [vm_compute; reflexivity|]. exists seqs. split; [exact E|].
  exists (zv 10 5 (-3)), (zv 5 5 (-1)). split; [|repeat split; try (apply qleb_le; vm_compute; reflexivity)].
  destruct seqs as [|l [|? ?]]; [apply values_ok in E; vm_compute in E; discriminate| |apply values_ok in E; vm_compute in E; discriminate].
  exists (firstn 6 l), (skipn 8 l). left. apply values_ok in E.
  assert (N6 : exists a b c d e f, firstn 8 l = [a; b; c; d; e; f; zv 10 5 (-3); zv 5 5 (-1)]).
  { assert (L : l = nth 0 (values (stairs_sequences (Some (qz (-3))) 0)) []) by (rewrite E; reflexivity). rewrite L.
    assert (Q : forallb (fun ab => vec_eqb (fst ab) (snd ab)) (combine (skipn 6 (firstn 8 (nth 0 (values (stairs_sequences (Some (qz (-3))) 0)) []))) [zv 10 5 (-3); zv 5 5 (-1)]) = true
              /\ length (firstn 8 (nth 0 (values (stairs_sequences (Some (qz (-3))) 0)) [])) = 8%nat) by (split; vm_compute; reflexivity).
    destruct Q as [Q1 Q2]. set (k := firstn 8 _) in *. clearbody k. clear - Q1 Q2.
    do 8 (destruct k as [|? k]; [discriminate|]). destruct k; [|discriminate]. cbn [skipn combine forallb fst snd] in Q1.
    apply andb_prop in Q1 as [Q3 Q1]. apply andb_prop in Q1 as [Q4 _]. apply vec_eqb_ok in Q3. apply vec_eqb_ok in Q4. subst.
    do 6 eexists. reflexivity. }
  destruct N6 as (a & b & c & d & e & f & N6). pose proof (firstn_skipn 8 l) as FS. rewrite N6 in FS.
  replace (firstn 6 l) with (firstn 6 (firstn 8 l)) by (rewrite firstn_firstn; reflexivity). rewrite N6. symmetry. exact FS.
Qed.

(** ** The area (C104) *)
Definition no_inner : surface_args := SA (qz 4) (qz 5) (qq 3 4) (Some (OffNum (qz (-1)))) None None 0.
Lemma no_inner_fails : surface_gen (slope_kernel stairs (qz (-3))) (scan_answer ex_lines) no_inner (slope_objects stairs (qz (-3))) ex_job = Err TypeError.
Proof. reflexivity. Qed.
Lemma inner_none : exists K C a objects faces base zmin j, sa_inner a = None /\ objects <> [] /\ selected objects faces /\
  sk_zmin K (j_top j) faces = Ok zmin /\ sk_project K (j_top j) faces = Ok base /\ base <> [] /\ Forall (fun b => sk_planar K b = true) base /\
  surface_gen K C a objects j = Err TypeError.
Proof.
  exists (slope_kernel stairs (qz (-3))), (scan_answer ex_lines), no_inner, (slope_objects stairs (qz (-3))), [tt], [tt], (qz (-3)), ex_job.
  split; [reflexivity|]. split; [discriminate|]. split; [constructor; [left; reflexivity|constructor]|]. split; [reflexivity|]. split; [reflexivity|].
  split; [discriminate|]. split; [repeat constructor|exact no_inner_fails].
Qed.
Lemma area_example : offset_distance (qz 4) (Some (OffNum (qz (-1)))) (qz (-4)) /\ offset_distance (qz 4) (Some (OffPair (qz (-1)) (qq 1 2))) (qq (-7) 2) /\
  @selected (slope_kernel stairs 0) [@OFace (slope_kernel stairs 0) tt; @OWire (slope_kernel stairs 0) tt] [tt; tt].
Proof.
  split; [left; exists (qz (-1)); split; [reflexivity|apply qeqb_eq; vm_compute; reflexivity]|].
  split; [right; exists (qz (-1)), (qq 1 2); split; [reflexivity|apply qeqb_eq; vm_compute; reflexivity]|].
  constructor; [left; reflexivity|]. constructor; [right; exists tt; split; reflexivity|constructor].
Qed.
