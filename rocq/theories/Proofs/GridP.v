(** * Proofs: the integer grid of pyclipper *)
From Verif Require Import Base.Py Model.Geometry Model.Edges Model.Contour Model.Pocket Model.Grid Spec.Paths Spec.Moves Spec.Contours Spec.Pockets Spec.Grids
  Proofs.GeomP Proofs.FillP Proofs.PocketP Proofs.StepdownP Proofs.ClipperP.
From Coq Require Import Permutation Lia.
Local Open Scope Qc_scope.
Local Open Scope list_scope.

Definition unscale (k : Z) : Qc := qz k / clipper_scale.
Lemma grid_unscale k : on_grid (unscale k).
Proof. exists k. reflexivity. Qed.
Lemma scale_ne : clipper_scale <> 0. Proof. intros H. discriminate (f_equal (fun q => Qccompare q 0) H). Qed.

(** Truncating an integer. *)
Lemma trunc_integer k : qtrunc (qz k) = k.
Proof.
  unfold qtrunc. destruct (qltb (qz k) 0) eqn:E.
  - destruct (qceil_bounds (qz k)) as [C1 C2]. rewrite qz_le in C1. rewrite <- qz_1, <- qz_plus, qz_lt in C2. lia.
  - destruct (qfloor_spec (qz k)) as [C1 C2]. rewrite qz_le in C1. rewrite qz_lt in C2. lia.
Qed.
Lemma scale_unscale k : scale_number (unscale k) = k.
Proof. unfold scale_number, unscale. rewrite (qdiv_mul _ _ scale_ne). apply trunc_integer. Qed.
Lemma unscale_scale x : on_grid x -> unscale (scale_number x) = x.
Proof. intros [k ->]. change (qz k / qz (2 ^ 31)%Z) with (unscale k). rewrite scale_unscale. reflexivity. Qed.
Lemma from_to p : path_on_grid p -> from_clipper (to_clipper p) = p.
Proof.
  unfold from_clipper, to_clipper. rewrite map_map. induction 1 as [|[x y] p [Hx Hy] _ IH]; [reflexivity|]. cbn [map fst snd] in *.
  rewrite IH. f_equal. f_equal; apply unscale_scale; assumption.
Qed.
Lemma to_from p : to_clipper (from_clipper p) = p.
Proof.
  unfold from_clipper, to_clipper. rewrite map_map. rewrite <- (map_id p) at 2. apply map_ext. intros [x y]. cbn [fst snd].
  f_equal; apply scale_unscale.
Qed.

(** ** Snapping *)
Lemma trunc_sign x : (0 <= x -> 0 <= qz (qtrunc x) /\ qz (qtrunc x) <= x) /\ (x <= 0 -> x <= qz (qtrunc x) /\ qz (qtrunc x) <= 0).
Proof.
  destruct (trunc_near x) as (_ & _ & T). unfold qtrunc in *. destruct (qltb x 0) eqn:E.
  - apply qltb_lt in E. destruct (qceil_bounds x) as [C1 C2].
    assert (C3 : qz (qceil x) <= 0). { rewrite <- qz_0. apply qz_le. assert (qceil x < 1)%Z; [|lia]. apply (qz_lt _ 1). rewrite qz_1. qlra. }
    split; intros H; [exfalso; qlra|split; assumption].
  - apply qltb_nlt in E. destruct (qfloor_spec x) as [C1 C2]. rewrite qz_plus, qz_1 in C2.
    assert (C3 : 0 <= qz (qfloor x)). { rewrite <- qz_0. apply qz_le. assert (-1 < qfloor x)%Z; [|lia]. apply (qz_lt (-1)). change (qz (-1)) with (qz (Z.opp 1)). rewrite qz_opp, qz_1. qlra. }
    split; intros H; [split; assumption|]. split; qlra.
Qed.
Lemma scale_mul a b : a <= b <-> a * clipper_scale <= b * clipper_scale.
Proof.
  pose proof scale_pos as P. set (s := clipper_scale) in *. clearbody s. split; intros H.
  - qnra.
  - apply Qcnot_lt_le. intros G. apply (Qcle_not_lt _ _ H). qnra.
Qed.
Lemma scale_inv : 1 / clipper_scale * clipper_scale = 1.
Proof. apply (qdiv_mul _ _ scale_ne). Qed.
Lemma snaps_scale x : snaps x (unscale (scale_number x)).
Proof.
  split; [apply grid_unscale|]. destruct (trunc_sign (x * clipper_scale)) as [S1 S2].
  pose proof (qdiv_mul (qz (scale_number x)) _ scale_ne) as E. fold (unscale (scale_number x)) in E. fold (scale_number x) in S1, S2. rewrite <- E in S1, S2.
  assert (Z0 : 0 * clipper_scale = 0) by ring.
  assert (HP : 0 <= x -> 0 <= unscale (scale_number x) /\ unscale (scale_number x) <= x).
  { intros H. apply scale_mul in H. rewrite Z0 in H. destruct (S1 H) as [A B]. split; apply scale_mul; [rewrite Z0|]; assumption. }
  assert (HN : x <= 0 -> x <= unscale (scale_number x) /\ unscale (scale_number x) <= 0).
  { intros H. apply scale_mul in H. rewrite Z0 in H. destruct (S2 H) as [A B]. split; apply scale_mul; [|rewrite Z0]; assumption. }
  split; [exact HP|]. split; [exact HN|].
  apply Qcnot_le_lt. intros C. apply scale_mul in C. change (qz (2 ^ 31)%Z) with clipper_scale in C. rewrite scale_inv in C.
  exact (Qcle_not_lt _ _ C (trunc_scaled x)).
Qed.
Lemma snaps_fun x y : snaps x y -> y = unscale (scale_number x).
Proof.
  intros ((k & Hy) & P & N & D). destruct (snaps_scale x) as (_ & P' & N' & D'). set (z := scale_number x) in *. clearbody z.
  change (qz (2 ^ 31)%Z) with clipper_scale in *. fold (unscale k) in Hy. subst y. f_equal.
  assert (EK := qdiv_mul (qz k) _ scale_ne). fold (unscale k) in EK.
  assert (EZ := qdiv_mul (qz z) _ scale_ne). fold (unscale z) in EZ.
  assert (G : qabs (unscale k - unscale z) < 1 / clipper_scale).
  { destruct (Qclt_le_dec x 0) as [X|X].
    - destruct (N (Qclt_le_weak _ _ X)) as [A1 A2]. destruct (N' (Qclt_le_weak _ _ X)) as [B1 B2].
      destruct (qabs_spec (x - unscale k)) as [[E1 H1]|[E1 H1]]; rewrite E1 in D; destruct (qabs_spec (x - unscale z)) as [[E2 H2]|[E2 H2]]; rewrite E2 in D';
      destruct (qabs_spec (unscale k - unscale z)) as [[E3 H3]|[E3 H3]]; rewrite E3; qlra.
    - destruct (P X) as [A1 A2]. destruct (P' X) as [B1 B2].
      destruct (qabs_spec (x - unscale k)) as [[E1 H1]|[E1 H1]]; rewrite E1 in D; destruct (qabs_spec (x - unscale z)) as [[E2 H2]|[E2 H2]]; rewrite E2 in D';
      destruct (qabs_spec (unscale k - unscale z)) as [[E3 H3]|[E3 H3]]; rewrite E3; qlra. }
  assert (G' : qabs (qz k - qz z) < 1).
  { rewrite <- EK, <- EZ. pose proof scale_pos as SP. pose proof scale_inv as SI. set (i := 1 / clipper_scale) in *. clearbody i. set (s := clipper_scale) in *. clearbody s.
    set (a := unscale k) in *. set (b := unscale z) in *. clearbody a b.
    assert (G1 : a - b < i /\ b - a < i) by (destruct (qabs_spec (a - b)) as [[E3 H3]|[E3 H3]]; rewrite E3 in G; split; qlra). destruct G1 as [G1 G2].
    assert (M1 : (a - b) * s < i * s) by (apply Qcmult_lt_compat_r; assumption). assert (M2 : (b - a) * s < i * s) by (apply Qcmult_lt_compat_r; assumption).
    destruct (qabs_spec (a * s - b * s)) as [[E4 H4]|[E4 H4]]; rewrite E4; qlra. }
  assert (k < z + 1 /\ z < k + 1)%Z; [|lia].
  split; apply qz_lt; rewrite qz_plus, qz_1; destruct (qabs_spec (qz k - qz z)) as [[E5 H5]|[E5 H5]]; rewrite E5 in G'; qlra.
Qed.
Lemma snaps_grid x : on_grid x -> snaps x x.
Proof. intros H. pose proof (snaps_scale x) as S. rewrite (unscale_scale x H) in S. exact S. Qed.
Lemma path_snaps_fun p q : path_snaps p q -> q = from_clipper (to_clipper p).
Proof.
  unfold from_clipper, to_clipper. rewrite map_map. induction 1 as [|[x y] [u v] p q [H1 H2] _ IH]; [reflexivity|]. cbn [map fst snd] in *.
  rewrite <- IH. f_equal. apply snaps_fun in H1, H2. subst. reflexivity.
Qed.
Lemma path_snaps_self p : path_snaps p (from_clipper (to_clipper p)).
Proof.
  unfold from_clipper, to_clipper. rewrite map_map. induction p as [|[x y] p IH]; constructor; [|exact IH]. cbn [fst snd].
  split; apply snaps_scale.
Qed.
Lemma path_snaps_grid p q : path_on_grid p -> path_snaps p q -> q = p.
Proof. intros H S. rewrite (path_snaps_fun _ _ S). apply from_to, H. Qed.
Lemma snapped_to p q : path_snaps p q -> to_clipper q = to_clipper p.
Proof. intros S. rewrite (path_snaps_fun _ _ S). apply to_from. Qed.
Lemma snapped_number x y : snaps x y -> scale_number y = scale_number x.
Proof. intros S. rewrite (snaps_fun _ _ S). apply scale_unscale. Qed.

(** ** What the engine returns lies on the grid *)
Lemma from_on_grid z : path_on_grid (from_clipper z).
Proof. unfold from_clipper. induction z as [|a z IH]; constructor; [|exact IH]. split; apply grid_unscale. Qed.
Lemma closes_grid p q : closes p q -> path_on_grid p -> path_on_grid q.
Proof. intros [_ [->|(_ & a & l & E & ->)]] H; [exact H|]. apply Forall_app. split; [exact H|]. subst p. inversion H; subst. constructor; [assumption|constructor]. Qed.
Fixpoint node_grid (n : polynode) : Prop :=
  let '(PNode c l) := n in path_on_grid c /\ (fix all l := match l with [] => True | m :: l => node_grid m /\ all l end) l.
Lemma from_node_grid : forall n, path_on_grid (contour (from_node n)) /\ Forall (fun m => path_on_grid (contour m)) (children (from_node n)).
Proof.
  intros [c l]. cbn [from_node contour children]. split; [apply from_on_grid|]. apply Forall_forall. intros m H.
  apply in_map_iff in H. destruct H as ([c' l'] & <- & _). cbn. apply from_on_grid.
Qed.

Section Engine.
Variable L : polygon_library.
Variable contains : pathface -> pathface -> result bool.
Let E := grid_engine L contains.

Lemma offset_grid p o pr raw : en_offset E p o pr = Ok raw -> Forall path_on_grid raw.
Proof.
  cbn. unfold grid_offset. intros H. apply rbind_ok in H. destruct H as (r & _ & H). injection H as <-.
  apply Forall_forall. intros q Hq. apply in_map_iff in Hq. destruct Hq as (z & <- & _). apply from_on_grid.
Qed.
Lemma execute_grid op ss cs t : grid_execute L op ss cs = Ok t ->
  Forall (fun n => path_on_grid (contour n) /\ Forall (fun m => path_on_grid (contour m)) (children n)) t.
Proof.
  unfold grid_execute. intros H. apply rbind_ok in H. destruct H as (r & _ & H). injection H as <-.
  apply Forall_forall. intros q Hq. apply in_map_iff in Hq. destruct Hq as (z & <- & _). apply from_node_grid.
Qed.
Lemma filter_grid f raw : Forall path_on_grid raw -> Forall path_on_grid (filter f raw).
Proof. intros H. apply Forall_forall. intros p Hp. apply filter_In in Hp. exact (proj1 (Forall_forall _ _) H p (proj1 Hp)). Qed.
Lemma closed_grid ps qs : Forall2 closes ps qs -> Forall path_on_grid ps -> Forall path_on_grid qs.
Proof. induction 1; intros H1; inversion H1; subst; constructor; [eapply closes_grid; eassumption|auto]. Qed.
Lemma node_faces_grid d t fs : Forall2 (node_face d) t fs ->
  Forall (fun n => path_on_grid (contour n) /\ Forall (fun m => path_on_grid (contour m)) (children n)) t -> Forall face_on_grid fs.
Proof.
  induction 1 as [|n f t fs (_ & HO & HI) _ IH]; intros H1; inversion H1 as [|? ? [N1 N2] N3]; subst; constructor; [|auto].
  split; [eapply closes_grid; eassumption|]. revert N2. clear - HI. induction HI; intros N2; inversion N2; subst; constructor; [eapply closes_grid; eassumption|auto].
Qed.
Lemma inward_grid P s pr c l : inward E P s pr c l -> Forall path_on_grid l.
Proof.
  intros (raw & cut & E1 & C & D). pose proof (closed_grid _ _ C (filter_grid _ _ (offset_grid _ _ _ _ E1))) as G.
  destruct D as [[_ ->]|(_ & _ & t & E2 & F)]; [exact G|]. apply execute_grid in E2. clear - F E2.
  induction F; inversion E2 as [|? ? [N1 N2] N3]; subst; constructor; [eapply closes_grid; eassumption|auto].
Qed.
Lemma reached_grid P s pr a c : path_on_grid (pf_outer P) -> reached (inward E P s pr) (pf_outer P) a c -> path_on_grid c.
Proof.
  intros HP. induction 1 as [|a c l k c' _ _ HN Hk]; [exact HP|]. apply inward_grid in HN. exact (proj1 (Forall_forall _ _) HN c' (nth_error_In _ _ Hk)).
Qed.
Lemma filling_grid P s pr ss : path_on_grid (pf_outer P) -> filling (inward E P s pr) P ss -> forall q f, In q ss -> In f q -> face_on_grid f.
Proof.
  intros HP (addrs & F & _) q f Hq Hf. destruct (Forall2_in_r _ _ _ _ F Hq) as (as_ & _ & F2). destruct (Forall2_in_r _ _ _ _ F2 Hf) as (a & _ & Hr & Hi & _).
  split; [eapply reached_grid; eassumption|]. rewrite Hi. constructor.
Qed.
Lemma at_depth_grid d f g : at_depth d f g -> face_on_grid f -> face_on_grid g.
Proof. intros (H1 & H2 & _) [G1 G2]. unfold face_on_grid. rewrite H1, H2. split; assumption. Qed.
Lemma stepdown_faces fill start s out : apply_stepdown fill start s = Ok out ->
  forall q g, In q out -> In g q -> exists q0 f d, In q0 fill /\ In f q0 /\ at_depth d f g.
Proof.
  unfold apply_stepdown. intros H q g Hq Hg. destruct (map pf_depth (concat fill)) as [|d ds]; [discriminate|]. destruct (forallb (qeqb d) ds); [|discriminate].
  injection H as <-. apply in_flat_map in Hq. destruct Hq as (z & _ & Hq). apply in_map_iff in Hq. destruct Hq as (q0 & <- & H0).
  apply in_map_iff in Hg. destruct Hg as (f & <- & Hf). exists q0, f, z. split; [exact H0|]. split; [exact Hf|]. repeat split; reflexivity.
Qed.
Lemma fill_ops_grid fuel pr so sd : forall ops before ss, Forall face_on_grid ops -> fill_ops E fuel pr so sd before ops = Ok ss ->
  forall q f, In q ss -> In f q -> face_on_grid f.
Proof.
  induction ops as [|op ops IH]; intros before ss HG H q f Hq Hf; [injection H as <-; destruct Hq|]. cbn [fill_ops] in H. inversion HG as [|? ? G1 G2]; subst.
  apply rbind_ok in H. destruct H as (fill & E1 & H). apply rbind_ok in H. destruct H as (stepped & E2 & H).
  apply rbind_ok in H. destruct H as (rest & E3 & H). injection H as <-.
  pose proof (filling_grid _ _ _ _ (proj1 G1) (fill_pocket_spec _ _ _ _ _ _ E1)) as GF.
  apply in_app_iff in Hq. destruct Hq as [Hq|Hq].
  - assert (S : exists q0 g d, In q0 fill /\ In g q0 /\ at_depth d g f).
    { destruct sd as [s|]; [|injection E2 as <-; destruct Hq]. destruct (qeqb s 0); [injection E2 as <-; destruct Hq|].
      apply rbind_ok in E2. destruct E2 as (st & _ & E2). eapply stepdown_faces; eassumption. }
    destruct S as (q0 & g & d & H0 & Hg & HA). eapply at_depth_grid; [exact HA|]. eapply GF; eassumption.
  - apply in_app_iff in Hq. destruct Hq as [Hq|Hq]; [eapply GF; eassumption|]. eapply IH; eassumption.
Qed.

(** ** Only the snapped input matters *)
Lemma offset_same p q o o' pr : path_snaps p q -> snaps o o' -> en_offset E q o' pr = en_offset E p o pr.
Proof. intros H1 H2. cbn. unfold grid_offset. rewrite (snapped_to _ _ H1), (snapped_number _ _ H2). reflexivity. Qed.
Lemma offset_path_same p q o o' pr : path_snaps p q -> snaps o o' -> offset_path E q o' pr = offset_path E p o pr.
Proof. intros H1 H2. unfold offset_path. rewrite (offset_same _ _ _ _ _ H1 H2). reflexivity. Qed.
Lemma offset_polyface_same f g oo oo' io io' pr : face_snaps f g -> snaps oo oo' -> snaps io io' ->
  offset_polyface E g oo' io' pr = offset_polyface E f oo io pr.
Proof.
  intros (H1 & H2 & H3) HO HI. unfold offset_polyface. rewrite (offset_path_same _ _ _ _ _ H1 HO). destruct (offset_path E (pf_outer f) oo pr) as [outers|x]; [|reflexivity].
  cbn [rbind]. rewrite H3. destruct H2 as [|a b l k HA HL]; [reflexivity|].
  assert (M : mapM (fun i => offset_path E i io' pr) (b :: k) = mapM (fun i => offset_path E i io pr) (a :: l)).
  { assert (HA' : Forall2 path_snaps (a :: l) (b :: k)) by (constructor; assumption). revert HA'. generalize (a :: l) (b :: k). clear - HI. intros l k HA'. induction HA' as [|a b l k HA _ IH]; [reflexivity|]. cbn [mapM].
    rewrite (offset_path_same _ _ _ _ _ HA HI), IH. reflexivity. }
  rewrite M. reflexivity.
Qed.
Lemma areas_same fs gs oo oo' io io' pr : Forall2 face_snaps fs gs -> snaps oo oo' -> snaps io io' ->
  mapM (fun f => offset_polyface E f oo' io' pr) gs = mapM (fun f => offset_polyface E f oo io pr) fs.
Proof.
  intros H HO HI. induction H as [|f g fs gs H _ IH]; [reflexivity|]. cbn [mapM]. rewrite (offset_polyface_same _ _ _ _ _ _ _ H HO HI), IH. reflexivity.
Qed.
End Engine.

Theorem snapped_input L contains fuel j areas areas' avoids avoids' oo oo' io io' ao ao' ai ai' so sd :
  Forall2 face_snaps areas areas' -> Forall2 face_snaps avoids avoids' ->
  snaps oo oo' -> snaps io io' -> snaps ao ao' -> snaps ai ai' ->
  pocket_clipper (grid_engine L contains) fuel j areas' avoids' oo' io' ao' ai' so sd =
  pocket_clipper (grid_engine L contains) fuel j areas avoids oo io ao ai so sd.
Proof.
  intros H1 H2 O I O' I'. unfold pocket_clipper. rewrite (areas_same _ _ _ _ _ _ _ _ _ H1 O I), (areas_same _ _ _ _ _ _ _ _ _ H2 O' I'). reflexivity.
Qed.
Theorem pocket_on_grid L contains fuel j areas avoids oo io ao ai so sd cmds :
  pocket_clipper (grid_engine L contains) fuel j areas avoids oo io ao ai so sd = Ok cmds ->
  exists sequences gs, cmds = concat gs /\
    Forall2 (fun s g => exists ks, g = concat ks /\ Forall2 group_ok s ks) sequences gs /\
    (forall s f, In s sequences -> In f s -> face_on_grid f).
Proof.
  intros H0. destruct (pocket_parts _ _ _ _ _ _ _ _ _ _ _ _ H0) as (opss & avss & pockets & ss & gs & _ & _ & HL & HP & -> & HG).
  exists ss, gs. split; [reflexivity|]. split; [exact HG|].
  assert (GP : Forall face_on_grid pockets).
  { destruct HL as (ds & rs & -> & F & _). apply Forall_forall. intros f Hf. apply in_concat in Hf. destruct Hf as (r & Hr & Hf).
    destruct (Forall2_in_r _ _ _ _ F Hr) as (d & _ & (here & ab & u & subj & t & _ & _ & _ & _ & E5 & E6)).
    cbn in E5. apply execute_grid in E5. eapply Forall_forall; [eapply node_faces_grid; eassumption|exact Hf]. }
  intros s f Hs Hf. eapply fill_ops_grid; eassumption.
Qed.

(** ** The tolerance *)
Lemma half_unit_scaled p : scale_number (half_unit p) = (2 ^ 30 / 10 ^ Z.of_nat p)%Z.
Proof.
  set (T := (10 ^ Z.of_nat p)%Z). assert (HT : (0 < T)%Z) by (apply Z.pow_pos_nonneg; lia).
  assert (QT : 0 < qz T) by (rewrite <- qz_0; apply qz_lt; exact HT).
  assert (NT : qz T <> 0) by (intros C; rewrite C in QT; exact (Qclt_not_le _ _ QT (Qcle_refl _))).
  assert (EX : half_unit p * clipper_scale * qz T = qz (2 ^ 30)).
  { unfold half_unit. fold T. unfold clipper_scale. change (2 ^ 31)%Z with (2 ^ 30 * 2)%Z. rewrite qz_mult. field. split; [exact NT|intros C; discriminate (f_equal (fun q => Qccompare q 0) C)]. }
  unfold scale_number. set (x := half_unit p * clipper_scale) in *. clearbody x.
  assert (P30 : 0 < qz (2 ^ 30)) by reflexivity.
  assert (HX : 0 <= x). { apply Qcnot_lt_le. intros C. assert (x * qz T < 0 * qz T) by (apply Qcmult_lt_compat_r; assumption). rewrite EX in H. qlra. }
  unfold qtrunc. destruct (qltb x 0) eqn:E; [apply qltb_lt in E; exfalso; exact (Qcle_not_lt _ _ HX E)|].
  pose proof (Z.div_mod (2 ^ 30) T ltac:(lia)) as DM. pose proof (Z.mod_pos_bound (2 ^ 30) T HT) as MB.
  set (q := (2 ^ 30 / T)%Z) in *. set (r := (2 ^ 30 mod T)%Z) in *. clearbody q r.
  apply qfloor_unique.
  - apply Qcnot_lt_le. intros C. assert (C2 : x * qz T < qz q * qz T) by (apply Qcmult_lt_compat_r; assumption).
    rewrite EX, <- qz_mult, qz_lt in C2. lia.
  - apply Qcnot_le_lt. intros C. assert (C2 : qz (q + 1) * qz T <= x * qz T) by (apply Qcmult_le_compat_r; [assumption|apply Qclt_le_weak; assumption]).
    rewrite EX, <- qz_mult, qz_le in C2. lia.
Qed.
Theorem tolerance_zero p : scale_number (half_unit p) = 0%Z <-> (10 <= p)%nat.
Proof.
  rewrite half_unit_scaled. split; intros H.
  - destruct (Nat.le_gt_cases 10 p) as [L|L]; [exact L|exfalso].
    do 10 (destruct p as [|p]; [revert H; vm_compute; discriminate|]). lia.
  - apply Z.div_small. split; [lia|]. apply Z.lt_le_trans with (10 ^ 10)%Z; [reflexivity|]. apply Z.pow_le_mono_r; lia.
Qed.
Lemma half_unit_pos p : 0 < half_unit p.
Proof.
  pose proof (Z.pow_pos_nonneg 10 (Z.of_nat p) ltac:(lia) ltac:(lia)) as HT. unfold half_unit. set (T := (10 ^ Z.of_nat p)%Z) in *. clearbody T.
  assert (QT : 0 < qz T) by (rewrite <- qz_0; apply qz_lt; exact HT).
  assert (NT : qz T <> 0) by (intros C; rewrite C in QT; exact (Qclt_not_le _ _ QT (Qcle_refl _))).
  assert (E : 1 / qz T / qz 2 * (qz T * qz 2) = 1) by (field; split; [exact NT|intros C; discriminate (f_equal (fun q => Qccompare q 0) C)]).
  set (h := 1 / qz T / qz 2) in *. clearbody h. assert (P : 0 < qz T * qz 2). { apply qmul_lt; [exact QT|reflexivity]. }
  set (u := qz T * qz 2) in *. clearbody u. apply Qcnot_le_lt. intros C. assert (C2 : h * u <= 0 * u) by (apply Qcmult_le_compat_r; [exact C|apply Qclt_le_weak, P]). qlra.
Qed.

(** ** A stepover of less than one unit *)
Lemma scale_small x : - (1 / clipper_scale) < x -> x < 1 / clipper_scale -> scale_number x = 0%Z.
Proof.
  intros H1 H2. unfold scale_number. pose proof scale_inv as SI. pose proof scale_pos as SP.
  assert (M1 : x * clipper_scale < 1 / clipper_scale * clipper_scale) by (apply Qcmult_lt_compat_r; assumption).
  assert (M2 : - (1 / clipper_scale) * clipper_scale < x * clipper_scale) by (apply Qcmult_lt_compat_r; assumption).
  set (s := clipper_scale) in *. set (i := 1 / s) in *. clearbody i s. set (y := x * s) in *. clearbody y.
  assert (M3 : y < 1) by qlra. assert (M4 : - (1) < y) by qlra. clear - M3 M4.
  destruct (trunc_sign y) as [S1 S2]. destruct (trunc_near y) as (T1 & T2 & _). destruct (Qclt_le_dec y 0) as [C|C].
  - destruct (S2 (Qclt_le_weak _ _ C)) as [A B]. assert (G : - (1) < qz (qtrunc y)) by qlra. rewrite <- qz_0, qz_le in B.
    rewrite <- qz_1, <- qz_opp, qz_lt in G. lia.
  - destruct (S1 C) as [A B]. assert (G : qz (qtrunc y) < 1) by qlra. rewrite <- qz_0, qz_le in A. rewrite <- qz_1, qz_lt in G. lia.
Qed.
Theorem endless_fill L contains fuel P step pr : pf_inners P = [] -> pf_outer P <> [] -> 0 < step -> step < 1 / qz (2 ^ 31)%Z ->
  (forall z t, z <> [] -> exists raw z', pl_offset L z 0 t = Ok raw /\ pl_clean L raw t = [z'] /\ z' <> []) ->
  fill_pocket_contour_shrink (grid_engine L contains) fuel P step pr = Err OutOfFuel.
Proof.
  intros HI HO H1 H2 HL. set (E := grid_engine L contains). change (qz (2 ^ 31)%Z) with clipper_scale in H2.
  assert (NX : forall c, c <> [] -> exists c', next_contours E P step pr c = Ok [c'] /\ c' <> []).
  { intros c Hc. unfold next_contours, offset_path. cbn [en_offset E grid_engine]. unfold E. cbn [grid_engine en_offset]. unfold grid_offset.
    rewrite (scale_small (- step)) by qlra.
    destruct (HL (to_clipper c) (scale_number (half_unit pr))) as (raw & z' & -> & EC & NE); [destruct c; [contradiction|discriminate]|].
    cbn [rbind]. rewrite EC. cbn [map filter]. destruct z' as [|a z']; [contradiction|]. cbn [from_clipper map filter mapM].
    set (b := (qz (fst a) / clipper_scale, qz (snd a) / clipper_scale)). set (l := map _ z').
    assert (CP : exists q, close_path (b :: l) = Ok q /\ q <> []).
    { unfold close_path. match goal with |- context [negb ?x] => destruct (negb x) end; eexists; (split; [reflexivity|discriminate]). }
    destruct CP as (q & -> & NQ). cbn [rbind]. rewrite HI. exists q. split; [reflexivity|exact NQ]. }
  assert (RR : forall n, exists c, reached (inward E P step pr) (pf_outer P) (repeat O n) c /\ c <> []).
  { induction n as [|n (c & Hr & Hc)]; [exists (pf_outer P); split; [constructor|exact HO]|].
    destruct (NX c Hc) as (c' & Ec & Hc'). exists c'. split; [|exact Hc']. cbn [repeat]. eapply reached_next; [exact Hr|apply next_contours_inward, Ec|reflexivity]. }
  assert (RN : forall a c, reached (inward E P step pr) (pf_outer P) a c -> c <> []).
  { induction 1 as [|a c l k c' _ IH HN Hk]; [exact HO|]. destruct (NX c IH) as (c0 & Ec & Hc0). apply next_contours_inward in Ec.
    rewrite (inward_fun _ _ _ _ _ _ _ HN Ec) in Hk. destruct k as [|[|k]]; cbn in Hk; try discriminate. injection Hk as <-. exact Hc0. }
  destruct (fill_pocket_contour_shrink E fuel P step pr) as [ss|e] eqn:EF.
  - exfalso. destruct (fill_pocket_spec _ _ _ _ _ _ EF) as (addrs & _ & _ & HA & _).
    assert (B : forall n, In (repeat O n) (concat addrs)). { intros n. destruct (RR n) as (c & Hr & _). eapply HA, Hr. }
    assert (M : exists m, forall a, In a (concat addrs) -> (length a <= m)%nat).
    { clear. induction (concat addrs) as [|a l (m & IH)]; [exists O; intros a []|]. exists (Nat.max (length a) m). intros b [<-|Hb]; [lia|]. specialize (IH b Hb). lia. }
    destruct M as (m & M). specialize (M _ (B (S m))). rewrite repeat_length in M. lia.
  - destruct (fill_pocket_err _ _ _ _ _ _ EF) as [->|(a & c & Hr & HE)]; [reflexivity|]. destruct (NX c (RN a c Hr)) as (c' & E' & _). congruence.
Qed.

(** ** What the library is asked for *)
Lemma units_from z : units z (from_clipper z).
Proof. unfold from_clipper. induction z as [|a z IH]; constructor; [split; reflexivity|exact IH]. Qed.
Lemma all_units l : Forall2 units l (map from_clipper l).
Proof. induction l; constructor; [apply units_from|assumption]. Qed.
Lemma half_unit_eq p : half_unit p = 1 / qz (2 * 10 ^ Z.of_nat p).
Proof.
  unfold half_unit. rewrite qz_mult. pose proof (Z.pow_pos_nonneg 10 (Z.of_nat p) ltac:(lia) ltac:(lia)) as HT. set (T := (10 ^ Z.of_nat p)%Z) in *. clearbody T.
  assert (QT : 0 < qz T) by (rewrite <- qz_0; apply qz_lt; exact HT).
  assert (NT : qz T <> 0) by (intros C; rewrite C in QT; exact (Qclt_not_le _ _ QT (Qcle_refl _))).
  field. split; [exact NT|intros C; discriminate (f_equal (fun q => Qccompare q 0) C)].
Qed.
Theorem offset_asked L contains p o pr : exists z q k t,
  units z q /\ path_snaps p q /\ snaps o (qz k / qz (2 ^ 31)%Z) /\ snaps (1 / qz (2 * 10 ^ Z.of_nat pr)) (qz t / qz (2 ^ 31)%Z) /\
  match pl_offset L z k t with
  | Ok raw => exists ps, en_offset (grid_engine L contains) p o pr = Ok ps /\ Forall2 units (pl_clean L raw t) ps
  | Err e => en_offset (grid_engine L contains) p o pr = Err e
  end.
Proof.
  exists (to_clipper p), (from_clipper (to_clipper p)), (scale_number o), (scale_number (half_unit pr)).
  split; [apply units_from|]. split; [apply path_snaps_self|]. split; [apply (snaps_scale o)|]. rewrite <- half_unit_eq. split; [apply (snaps_scale (half_unit pr))|].
  cbn [grid_engine en_offset]. unfold grid_offset. destruct (pl_offset L (to_clipper p) (scale_number o) (scale_number (half_unit pr))) as [raw|e]; [|reflexivity].
  cbn [rbind]. eexists. split; [reflexivity|apply all_units].
Qed.
Lemma node_units_from : forall n, node_units n (from_node n).
Proof.
  fix F 1. intros [z ns]. cbn [from_node node_units]. split; [apply units_from|]. induction ns as [|n ns IH]; [exact I|]. split; [apply F|exact IH].
Qed.
Theorem execute_asked L op ss cs : exists zs qs zc qc,
  Forall2 units zs qs /\ Forall2 path_snaps ss qs /\ Forall2 units zc qc /\ Forall2 path_snaps cs qc /\
  match pl_execute L op zs zc with
  | Ok t => exists ns, grid_execute L op ss cs = Ok ns /\ Forall2 node_units t ns
  | Err e => grid_execute L op ss cs = Err e
  end.
Proof.
  assert (SN : forall ps, Forall2 path_snaps ps (map from_clipper (map to_clipper ps))) by (induction ps; constructor; [apply path_snaps_self|assumption]).
  exists (map to_clipper ss), (map from_clipper (map to_clipper ss)), (map to_clipper cs), (map from_clipper (map to_clipper cs)).
  split; [apply all_units|]. split; [apply SN|]. split; [apply all_units|]. split; [apply SN|].
  unfold grid_execute. destruct (pl_execute L op (map to_clipper ss) (map to_clipper cs)) as [t|e]; [|reflexivity]. cbn [rbind]. eexists. split; [reflexivity|].
  induction t; constructor; [apply node_units_from|assumption].
Qed.

(** ** Positive tolerances and offsets *)
Lemma unscale_inj a b : unscale a = unscale b -> a = b.
Proof. intros H. rewrite <- (scale_unscale a), <- (scale_unscale b), H. reflexivity. Qed.
Theorem tolerance_positive pr t : snaps (1 / qz (2 * 10 ^ Z.of_nat pr)) (qz t / qz (2 ^ 31)%Z) -> ((0 < t)%Z <-> (pr <= 9)%nat).
Proof.
  intros S. rewrite <- half_unit_eq in S. apply snaps_fun in S. change (qz t / qz (2 ^ 31)%Z) with (unscale t) in S. apply unscale_inj in S.
  pose proof (tolerance_zero pr) as Z0. rewrite <- S in Z0. assert (0 <= t)%Z. { rewrite S, half_unit_scaled. apply Z.div_pos; [lia|apply Z.pow_pos_nonneg; lia]. }
  split; intros H1; [destruct (Nat.le_gt_cases pr 9) as [C|C]; [exact C|]; assert (t = 0)%Z by (apply Z0; lia); lia|].
  assert (t <> 0)%Z by (intros C; apply Z0 in C; lia). lia.
Qed.
Theorem tolerance_lost : exists pr t, 0 < 1 / qz (2 * 10 ^ Z.of_nat pr) /\
  snaps (1 / qz (2 * 10 ^ Z.of_nat pr)) (qz t / qz (2 ^ 31)%Z) /\ t = 0%Z.
Proof.
  exists 10%nat, 0%Z. rewrite <- half_unit_eq. split; [apply half_unit_pos|]. split; [|reflexivity].
  pose proof (snaps_scale (half_unit 10)) as S. rewrite (proj2 (tolerance_zero 10) (le_n _)) in S. exact S.
Qed.
Theorem offset_negative step k : 0 < step -> snaps (- step) (qz k / qz (2 ^ 31)%Z) -> ((k < 0)%Z <-> 1 / qz (2 ^ 31)%Z <= step).
Proof.
  change (qz (2 ^ 31)%Z) with clipper_scale. fold (unscale k). intros H S. split; intros K.
  - apply Qcnot_lt_le. intros C. apply snaps_fun in S. apply unscale_inj in S. rewrite (scale_small (- step)) in S by qlra. lia.
  - destruct S as (_ & _ & N & D). change (qz (2 ^ 31)%Z) with clipper_scale in D. destruct (N ltac:(qlra)) as [A B].
    assert (L : unscale k < 0). { destruct (qabs_spec (- step - unscale k)) as [[E1 H1]|[E1 H1]]; rewrite E1 in D; qlra. }
    apply Z.nle_gt. intros C. apply qz_le in C. assert (0 <= unscale k); [|qlra]. apply scale_mul. unfold unscale. rewrite (qdiv_mul _ _ scale_ne).
    rewrite qz_0 in C. assert (E : 0 * clipper_scale = 0) by ring. rewrite E. exact C.
Qed.
