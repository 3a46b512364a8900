(** * The clipper and the contour strategy: concrete cases *)
From Verif Require Import Base.Py Spec.Paths Spec.Zigzag Spec.Wires Spec.Clippers Model.Geometry Model.Edges Model.Strategy Model.Contour.
From Verif Require Import Proofs.GeomP Proofs.FillP Proofs.DrillP Proofs.RouteEx Proofs.ProfileEx Proofs.ZigzagEx Proofs.FlattenP Proofs.ClipperP Proofs.ContourP.
From Coq Require Import Lia.
Local Open Scope Qc_scope.
Local Open Scope list_scope.

(** ** Flattening *)
(** A plate with a round end, the arc reversed or not. *)
Definition plate (rev : bool) : list edge :=
  if rev then [half 1 true 0 0 0; line 2 false (zv 0 (-1) 0) (zv (-2) (-1) 0); line 3 false (zv (-2) (-1) 0) (zv (-2) 1 0); line 4 false (zv (-2) 1 0) (zv 0 1 0)]
  else [half 1 false 0 0 0; line 2 false (zv 0 1 0) (zv (-2) 1 0); line 3 false (zv (-2) 1 0) (zv (-2) (-1) 0); line 4 false (zv (-2) (-1) 0) (zv 0 (-1) 0)].
Lemma plate_sound rev : Forall edge_sound (plate rev).
Proof. destruct rev; repeat constructor; cbn; try (apply vec_eq; vm_compute; reflexivity); try discriminate. Qed.
Lemma plate_closed rev : closed_wire (plate rev).
Proof. destruct rev; cbn [closed_wire plate joined]; repeat split; apply vec_eq; vm_compute; reflexivity. Qed.
Lemma plate_plain : Forall plain (plate false).
Proof.
  constructor; [right|repeat constructor]. split; [right; left; reflexivity|]. split; [reflexivity|]. vm_compute. reflexivity.
Qed.
Definition get {A} (d : A) (r : result A) : A := match r with Ok a => a | Err _ => d end.
Definition is_ok {A} (r : result A) : bool := match r with Ok _ => true | Err _ => false end.
Lemma get_ok {A} (d : A) r : is_ok r = true -> r = Ok (get d r).
Proof. destruct r; [reflexivity|discriminate]. Qed.
Lemma plate_forward : exists p, add_wire (plate false) true = Ok p /\ length p = 32%nat /\ In (zp 0 1) p /\ In (zp 0 (-1)) p.
Proof.
  exists (get [] (add_wire (plate false) true)). split; [apply get_ok; vm_compute; reflexivity|].
  split; [vm_compute; reflexivity|]. split; apply mem_pt_iff; vm_compute; reflexivity.
Qed.
Definition step_mem (s : pt * pt) (l : list (pt * pt)) : bool := existsb (fun x => pt_eqb (fst x) (fst s) && pt_eqb (snd x) (snd s)) l.
Lemma step_mem_in s l : step_mem s l = true -> In s l.
Proof.
  unfold step_mem. rewrite existsb_exists. intros ([a b] & I & H). apply andb_prop in H. destruct H as [H1 H2]. cbn [fst snd] in *.
  apply pt_eqb_iff in H1, H2. destruct s as [c d]. cbn [fst snd] in *. subst. exact I.
Qed.
Lemma plate_reversed : exists es p, closed_wire es /\ Forall edge_sound es /\ Forall flat_type es /\ Forall (fun e => qq 1 10 < e_length e) es /\
  add_wire es true = Ok p /\ (exists e, In e es /\ ~ In (vx (travel_end e), vy (travel_end e)) p) /\ In (zp 0 1, zp (-2) (-1)) (steps p).
Proof.
  exists (plate true), (get [] (add_wire (plate true) true)). split; [apply plate_closed|]. split; [apply plate_sound|].
  split. { constructor; [right; right; left; reflexivity|]. repeat constructor. }
  split; [repeat constructor; vm_compute; reflexivity|]. split; [apply get_ok; vm_compute; reflexivity|]. split.
  - exists (half 1 true 0 0 0). split; [left; reflexivity|]. intros C. apply mem_pt_iff in C.
    assert (E : mem_pt (vx (travel_end (half 1 true 0 0 0)), vy (travel_end (half 1 true 0 0 0))) (get [] (add_wire (plate true) true)) = false) by (vm_compute; reflexivity).
    rewrite E in C. discriminate C.
  - apply step_mem_in. vm_compute. reflexivity.
Qed.
(** A curve 0.2 long gives one point. *)
Definition bent (l : Qc) : edge := Edge 1 GOFFSET false (zv 0 0 0) (zv 1 0 0) (mix (zv 0 0 0) (zv 1 0 0)) (mix (zv 0 0 0) (zv 1 0 0)) 0 1 l (zv 0 0 0) (zv 0 0 1) false.
Lemma coarse_curve : exists e n vs, edge_sound e /\ curved e /\ e_reversed e = false /\ flatten_edge e = Ok vs /\ evenly e (S n) vs /\
  qq 1 10 < e_length e / qz (Z.of_nat (S n)).
Proof.
  exists (bent (qq 1 5)), 0%nat, (get [] (flatten_edge (bent (qq 1 5)))). split. { repeat split; cbn; try (apply vec_eq; vm_compute; reflexivity); discriminate. }
  split; [right; right; reflexivity|]. split; [reflexivity|]. split; [apply get_ok; vm_compute; reflexivity|].
  split; [|vm_compute; reflexivity].
  assert (C : curved (bent (qq 1 5))) by (right; right; reflexivity).
  destruct (curved_geom _ C) as [_ E]. rewrite E. cbn [get]. destruct (position_space_points (bent (qq 1 5))) as (n & H1 & H2); [vm_compute; reflexivity|].
  assert (N : qceil (e_length (bent (qq 1 5)) / qq 1 10) = 2%Z) by (vm_compute; reflexivity). rewrite N in H1. assert (n = 1%nat) by lia. subst n.
  rewrite H2, map_map. reflexivity.
Qed.
Lemma tiny_curve : exists e, edge_sound e /\ curved e /\ travel_start e <> travel_end e /\ flatten_edge e = Ok [].
Proof.
  exists (bent (qq 1 20)). split. { repeat split; cbn; try (apply vec_eq; vm_compute; reflexivity); discriminate. }
  split; [right; right; reflexivity|]. split.
  - cbn. intros H. apply (f_equal vx) in H. cbn in H. apply qz_inj in H. discriminate H.
  - apply flatten_short; [right; right; reflexivity| |]; vm_compute; [reflexivity|discriminate].
Qed.

(** ** An engine that keeps the subjects as they are *)
Definition all_points (ps : list cpath) : zpath := concat (map cp_points ps).
Definition lowest (f : Z * Z -> Z) (l : zpath) : Z := fold_right (fun p m => Z.min (f p) m) (f (hd (0, 0)%Z l)) l.
Definition highest (f : Z * Z -> Z) (l : zpath) : Z := fold_right (fun p m => Z.max (f p) m) (f (hd (0, 0)%Z l)) l.
Definition is_subject (c : bool) (p : cpath) : bool := match cp_type p with PT_SUBJECT => Bool.eqb (cp_closed p) c | PT_CLIP => false end.
Definition keeping : clip_engine := CE
  (fun p => Nat.leb 2 (length (cp_points p)))
  (fun ps => let l := all_points ps in (lowest fst l, lowest snd l, highest fst l, highest snd l))
  (fun _ ps => Ok (map cp_points (filter (is_subject false) ps), map cp_points (filter (is_subject true) ps))).
Lemma lowest_le f l p : In p l -> (lowest f l <= f p)%Z.
Proof.
  unfold lowest. generalize (f (hd (0, 0)%Z l)) as s. intros s. induction l as [|q l IH]; intros I; [destruct I|]. cbn [fold_right].
  destruct I as [<-|I]; [lia|]. specialize (IH I). lia.
Qed.
Lemma highest_ge f l p : In p l -> (f p <= highest f l)%Z.
Proof.
  unfold highest. generalize (f (hd (0, 0)%Z l)) as s. intros s. induction l as [|q l IH]; intros I; [destruct I|]. cbn [fold_right].
  destruct I as [<-|I]; [lia|]. specialize (IH I). lia.
Qed.
Lemma keeping_bounds : bounds_contain keeping.
Proof.
  intros ps l t r b H p q Ip Iq. injection H as <- <- <- <-. assert (I : In q (all_points ps)) by (apply in_concat; exists (cp_points p); split; [apply in_map; exact Ip|exact Iq]).
  pose proof (lowest_le fst _ _ I). pose proof (lowest_le snd _ _ I). pose proof (highest_ge fst _ _ I). pose proof (highest_ge snd _ _ I). lia.
Qed.
Definition taxi (x y : Qc) : Qc := qabs x + qabs y.
Lemma taxi_long : long_enough taxi.
Proof.
  intros x y. unfold taxi. assert (H : forall z, 0 <= qabs z /\ qabs z * qabs z = z * z).
  { intros z. destruct (qabs_spec z) as [[-> H]|[-> H]]; split; try exact H; try reflexivity; [qlra|ring]. }
  destruct (H x) as [H1 H2]. destruct (H y) as [H3 H4]. split; [qlra|].
  assert (0 <= qabs x * qabs y) by (apply qmul_pos; assumption). rewrite <- H2, <- H4. qlra.
Qed.

(** History: a cached clip, a subject, a clip that is not cached, a reset, a subject. *)
Definition z_tri (k : Z) : zpath := [(k, 0); (k + 1, 0); (k, 1)]%Z.
Lemma history_example : exists c, run_ops keeping new_clipper
  ([OAdd (CP (z_tri 0) PT_CLIP true) true; OAdd (CP (z_tri 1) PT_SUBJECT true) true; OAdd (CP (z_tri 2) PT_CLIP true) false] ++ OReset :: [OAdd (CP (z_tri 3) PT_SUBJECT false) false]) = Ok c /\
  wc_paths c = [CP (z_tri 0) PT_CLIP true; CP (z_tri 3) PT_SUBJECT false].
Proof. eexists. split; vm_compute; reflexivity. Qed.
Lemma execute_example : exists paths, execute keeping (WC [CP (z_tri 0) PT_CLIP true; CP (z_tri 3) PT_SUBJECT false; CP (z_tri 5) PT_SUBJECT true] []) CT_INTERSECTION = Ok paths /\
  map (@length pt) paths = [4; 3]%nat.
Proof. eexists. split; [apply (get_ok []); vm_compute; reflexivity|]. vm_compute. reflexivity. Qed.

Definition square_path (h : Z) : path := [zp (- h) (- h); zp h (- h); zp h h; zp (- h) h].
Lemma bounds_example : max_bounds keeping taxi (WC [CP (to_clipper (square_path 5)) PT_CLIP true] []) = (qz (-10), qz (-10), qz 10, qz 10).
Proof.
  assert (E : (let '(a, b, c, d) := max_bounds keeping taxi (WC [CP (to_clipper (square_path 5)) PT_CLIP true] []) in
    qeqb a (qz (-10)) && qeqb b (qz (-10)) && qeqb c (qz 10) && qeqb d (qz 10)) = true) by (vm_compute; reflexivity).
  destruct (max_bounds _ _ _) as [[[a b] c] d]. rewrite !andb_true_iff, !qeqb_eq in E. destruct E as [[[-> ->] ->] ->]. reflexivity.
Qed.

(** ** Squares around the origin *)
Definition square_edges (h : Qc) : list edge := rectangle (- h) (- h) h h 0.
Definition squares : contour_kernel := CK Qc square_edges (fun _ => true)
  (fun h s => if qltb 0 (h + s) then Ok [h + s] else Err ValueError).
Definition square_at (h : Z) : path := [zp h (- h); zp h h; zp (- h) h; zp (- h) (- h)].
Lemma contour_example : contour keeping squares 10 (qz 5) (qq 4 5) [qz 10] [] =
  Ok [[zp 6 (-6); zp 6 6; zp (-6) 6; zp (-6) (-6); zp 6 (-6)]; [zp 2 (-2); zp 2 2; zp (-2) 2; zp (-2) (-2); zp 2 (-2)]].
Proof. apply is_paths_ok. vm_compute. reflexivity. Qed.
Lemma contour_stops : shrinks (offset_once squares (- qabs (qz 5 * qq 4 5))) [qz 10] [qz 6; qz 2].
Proof.
  assert (E1 : ck_offset2D squares (qz 10) (- qabs (qz 5 * qq 4 5)) = Ok [qz 6]).
  { cbn [ck_offset2D squares]. assert (E : qz 10 + - qabs (qz 5 * qq 4 5) = qz 6) by (apply qeqb_eq; vm_compute; reflexivity). rewrite E. reflexivity. }
  assert (E2 : ck_offset2D squares (qz 6) (- qabs (qz 5 * qq 4 5)) = Ok [qz 2]).
  { cbn [ck_offset2D squares]. assert (E : qz 6 + - qabs (qz 5 * qq 4 5) = qz 2) by (apply qeqb_eq; vm_compute; reflexivity). rewrite E. reflexivity. }
  assert (E3 : ck_offset2D squares (qz 2) (- qabs (qz 5 * qq 4 5)) = Err ValueError).
  { cbn [ck_offset2D squares]. assert (E : qz 2 + - qabs (qz 5 * qq 4 5) = qz (-2)) by (apply qeqb_eq; vm_compute; reflexivity). rewrite E. reflexivity. }
  change [qz 6; qz 2] with (concat [[qz 6]] ++ (concat [[qz 2]] ++ (concat [[]] ++ []))).
  apply shrinks_on; [constructor; [left; exact E1|constructor]|]. cbn [concat app].
  apply (shrinks_on _ [qz 6] [[qz 2]] []); [constructor; [left; exact E2|constructor]|]. cbn [concat app].
  apply (shrinks_on _ [qz 2] [[]] []); [constructor; [right; split; [exact E3|reflexivity]|constructor]|]. constructor.
Qed.

(** No path comes near the outline. *)
Definition within (l : Qc) (p : path) : bool := forallb (fun q => qleb (fst q) l) p.
Lemma within_on l p c : within l p = true -> on_path c p -> fst c <= l.
Proof.
  unfold within. rewrite forallb_forall. intros H (a & b & I & t & T0 & T1 & ->). cbn [fst].
  assert (J : In a p /\ In b p). { clear - I. induction p as [|x [|y p] IH]; cbn [steps] in I; [destruct I|destruct I|]. destruct I as [[= <- <-]|I]; [split; [left|right; left]; reflexivity|]. destruct (IH I). split; right; assumption. }
  destruct J as [Ia Ib]. apply H in Ia, Ib. apply qleb_le in Ia, Ib.
  assert (0 <= (1 - t) * (l - fst a)) by (apply qmul_pos; qlra). assert (0 <= t * (l - fst b)) by (apply qmul_pos; qlra). qlra.
Qed.
Lemma outline_left : exists X K fuel d st (w : ck_wire K) paths o q, 0 < d /\ 0 < st /\ st <= 1 /\ contour X K fuel d st [w] [] = Ok paths /\
  add_wire (ck_edges K w) (ck_closed K w) = Ok o /\ In q o /\
  forall p c, In p paths -> on_path c p -> (d / qz 2) * (d / qz 2) < sqd q c.
Proof.
  exists keeping, squares, 10%nat, (qz 5), (qq 4 5), (qz 10). eexists. exists (get [] (add_wire (square_edges (qz 10)) true)), (zp 10 10).
  split; [reflexivity|]. split; [reflexivity|]. split; [vm_compute; discriminate|]. split; [exact contour_example|].
  split; [apply get_ok; vm_compute; reflexivity|]. split; [apply mem_pt_iff; vm_compute; reflexivity|].
  intros p c I O. assert (L : fst c <= qz 6).
  { apply (within_on _ p); [|exact O]. destruct I as [<-|[<-|[]]]; vm_compute; reflexivity. }
  unfold sqd, zp. cbn [fst snd]. assert (S1 : 0 <= (snd c - qz 10) * (snd c - qz 10)).
  { destruct (Qclt_le_dec (snd c) (qz 10)) as [D|D]; [|apply qmul_pos; qlra]. replace ((snd c - qz 10) * (snd c - qz 10)) with ((qz 10 - snd c) * (qz 10 - snd c)) by ring. apply qmul_pos; qlra. }
  assert (S2 : 0 <= (qz 6 - fst c) * (qz 14 - fst c)).
  { apply qmul_pos; [qlra|]. assert (qz 6 <= qz 14) by (vm_compute; discriminate). qlra. }
  assert (E : (fst c - qz 10) * (fst c - qz 10) = (qz 6 - fst c) * (qz 14 - fst c) + qz 16) by (apply Qc_is_canon; qc2q; unfold inject_Z; ring).
  rewrite E. assert (B : qz 5 / qz 2 * (qz 5 / qz 2) < qz 16) by (vm_compute; reflexivity). qlra.
Qed.

(** Nothing to shrink to: IndexError. *)
Lemma too_small : contour keeping squares 10 (qz 5) (qq 4 5) [qz 3] [] = Err IndexError.
Proof. vm_compute. reflexivity. Qed.

(** An engine for scanlines in the square from -5 to 5. *)
Definition five : Z := (5 * 2 ^ 31)%Z.
Definition clip_five (p : cpath) : list zpath :=
  match cp_points p with
  | [(xa, ya); (xb, yb)] => if (Z.abs ya <? five)%Z then [[(Z.max xa (- five), ya); (Z.min xb five, yb)]] else []
  | _ => []
  end.
Definition box_five : clip_engine := CE (ce_valid keeping) (ce_bounds keeping)
  (fun _ ps => Ok (flat_map clip_five (filter (is_subject false) ps), [])).
Lemma box_five_bounds : bounds_contain box_five.
Proof. exact keeping_bounds. Qed.
Definition five_square : path := square (-5) (-5) 10.
Lemma zig_zag_clipper_example : zig_zag_clipper box_five taxi (qz 4) (qq 3 4) [BPolygon five_square] [] =
  Ok [[zp (-5) (-4); zp 5 (-4); zp 5 (-1); zp (-5) (-1); zp (-5) 2; zp 5 2]].
Proof. apply is_paths_ok. vm_compute. reflexivity. Qed.
Lemma five_square_open : exists p1 p2 z1 z2, In p1 [five_square] /\ In p2 [five_square] /\ In z1 (to_clipper p1) /\ In z2 (to_clipper p2) /\ z1 <> z2.
Proof.
  exists five_square, five_square. eexists _, _. split; [left; reflexivity|]. split; [left; reflexivity|]. split; [left; reflexivity|].
  split; [right; left; reflexivity|]. intros H. apply (f_equal fst) in H. vm_compute in H. discriminate H.
Qed.

(** An offset by nothing goes on for ever. *)
Theorem contour_endless X K fuel d w clips : ck_offset2D K w (- qabs (d * 0)) = Ok [w] ->
  Forall2 (wire_path K PT_CLIP) [w] clips -> Forall (fun p => cp_closed p = true /\ ce_valid X p = true) clips ->
  (forall p, wire_path K PT_SUBJECT w p -> ce_valid X p = true) ->
  contour X K fuel d 0 [w] [] = Err OutOfFuel.
Proof.
  intros O F V VS. unfold contour. cbv zeta.
  assert (E1 : clip_wires X K new_clipper [w] = Ok (WC clips clips)).
  { apply clip_wires_iff. exists clips. split; [exact F|]. split; [|reflexivity]. apply Forall_forall. intros p I. rewrite Forall_forall in V. destruct (V p I) as [V1 V2]. split; [intros _; exact V1|exact V2]. }
  rewrite E1. cbn [rbind clip_wires shrink_all].
  assert (E2 : forall fuel c, shrink X K fuel (- qabs (d * 0)) [w] c = Err OutOfFuel).
  { clear fuel E1. intros fuel. induction fuel as [|fuel IH]; intros c; [reflexivity|]. cbn [shrink]. rewrite O.
    inversion F as [|? p ? ? (polygon & A & _) _]; subst.
    assert (E : subject_wires X K c [w] = Ok (WC (wc_paths c ++ [CP (to_clipper polygon) PT_SUBJECT (ck_closed K w)]) (wc_cache c))).
    { apply subject_wires_iff. exists [CP (to_clipper polygon) PT_SUBJECT (ck_closed K w)].
      assert (WP : wire_path K PT_SUBJECT w (CP (to_clipper polygon) PT_SUBJECT (ck_closed K w))) by (exists polygon; split; [exact A|reflexivity]).
      split; [constructor; [exact WP|constructor]|]. split; [|reflexivity]. constructor; [|constructor]. split; [discriminate|apply VS; exact WP]. }
    rewrite E. cbn [rbind app]. apply IH. }
  rewrite E2. reflexivity.
Qed.
Lemma endless_example : exists clips, ck_offset2D squares (qz 10) (- qabs (qz 5 * 0)) = Ok [qz 10] /\
  Forall2 (wire_path squares PT_CLIP) [qz 10] clips /\ Forall (fun p => cp_closed p = true /\ ce_valid keeping p = true) clips /\
  (forall p, wire_path squares PT_SUBJECT (qz 10) p -> ce_valid keeping p = true).
Proof.
  exists [CP (to_clipper (get [] (add_wire (square_edges (qz 10)) true))) PT_CLIP true]. split.
  { cbn [ck_offset2D squares]. assert (E : qz 10 + - qabs (qz 5 * 0) = qz 10) by (apply qeqb_eq; vm_compute; reflexivity). rewrite E. reflexivity. }
  split. { constructor; [|constructor]. exists (get [] (add_wire (square_edges (qz 10)) true)). split; [apply get_ok; vm_compute; reflexivity|reflexivity]. }
  split. { constructor; [|constructor]. split; [reflexivity|vm_compute; reflexivity]. }
  intros p (polygon & H & ->). cbn [ck_edges ck_closed squares] in H.
  assert (E : polygon = get [] (add_wire (square_edges (qz 10)) true)) by (rewrite H; reflexivity). rewrite E. vm_compute. reflexivity.
Qed.
