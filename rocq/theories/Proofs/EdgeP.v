(** * Proofs about routing edges and wires *)
From Verif Require Import Base.Str Base.Py Model.Geometry Model.Edges Model.Routers
  Spec.Paths Spec.Moves Spec.Wires Proofs.GeomP Proofs.RouteP.
Local Open Scope Qc_scope.
Local Open Scope list_scope.

Lemma qz_neq0 z : (z <> 0)%Z -> qz z <> 0.
Proof. intros H C. apply H. rewrite <- qz_0 in C. apply qz_inj in C. exact C. Qed.

Lemma linspace_length a b n : length (linspace a b n) = n.
Proof. unfold linspace. rewrite map_length, seq_length. reflexivity. Qed.
Lemma linspace_nth a b n k : (k < n)%nat ->
  nth_error (linspace a b n) k = Some (a + (b - a) * qz (Z.of_nat k) / qz (Z.of_nat n - 1)).
Proof.
  intros H. unfold linspace. rewrite nth_error_map.
  rewrite (nth_error_nth' (seq 0 n) 0%nat) by (rewrite seq_length; exact H).
  rewrite seq_nth by exact H. reflexivity.
Qed.
Lemma nth_error_nth_d {A} (l : list A) k x d : nth_error l k = Some x -> nth k l d = x.
Proof. revert k. induction l; intros [|k] H; try discriminate; [injection H as ->; reflexivity|apply IHl, H]. Qed.
Lemma linspace_nth_d a b n k d : (k < n)%nat ->
  nth k (linspace a b n) d = a + (b - a) * qz (Z.of_nat k) / qz (Z.of_nat n - 1).
Proof. intros H. apply nth_error_nth_d, linspace_nth, H. Qed.
Lemma linspace_cons a b n : (2 <= n)%nat ->
  exists l, linspace a b n = a :: l /\ last (linspace a b n) a = b.
Proof.
  intros H. destruct n as [|[|n]]; try lia.
  pose proof (linspace_nth a b (S (S n)) 0 ltac:(lia)) as H0.
  pose proof (linspace_nth a b (S (S n)) (S n) ltac:(lia)) as H1.
  pose proof (linspace_length a b (S (S n))) as HL.
  destruct (linspace a b (S (S n))) as [|x l] eqn:E; [discriminate|].
  assert (x = a).
  { injection H0 as ->. unfold Qcdiv. change (qz (Z.of_nat 0)) with (qz 0). rewrite qz_0. ring. }
  subst x. exists l. split; [reflexivity|].
  destruct l as [|y l] using rev_ind; [discriminate|].
  change (a :: l ++ [y]) with ((a :: l) ++ [y]) in *. rewrite last_last.
  rewrite app_length in HL. cbn [length] in HL.
  rewrite nth_error_app2 in H1 by (cbn [length]; lia).
  replace (S n - length (a :: l))%nat with 0%nat in H1 by (cbn [length]; lia). cbn [nth_error] in H1.
  replace (Z.of_nat (S (S n)) - 1)%Z with (Z.of_nat (S n)) in H1 by lia.
  assert (Hy : y = a + (b - a) * qz (Z.of_nat (S n)) / qz (Z.of_nat (S n))) by congruence. rewrite Hy.
  unfold Qcdiv. rewrite <- Qcmult_assoc, Qcmult_inv_r by (apply qz_neq0; lia). ring.
Qed.

Lemma count_ge2 e p : (2 <= edge_interpolation_count e p)%nat.
Proof. unfold edge_interpolation_count. lia. Qed.

Lemma from_vector_inj a b : from_vector a = from_vector b -> a = b.
Proof. destruct a, b. unfold from_vector. simpl. intros [= -> -> ->]. reflexivity. Qed.

Lemma init_full (v : vec) st : init_motion (from_vector v) (Some st) = (st, from_vector v).
Proof. reflexivity. Qed.
Lemma mk_cut_full v st a f : mk_cut (from_vector v) (Some st) a f = MCut KCut st (from_vector v) a f.
Proof. reflexivity. Qed.
Lemma mk_arc_full cw v st c m a f : mk_arc cw (from_vector v) (Some st) c m a f = MArc cw st (from_vector v) c m a f.
Proof. reflexivity. Qed.

Lemma cuts_through_spec arrow feed pts : forall st,
  let ms := cuts_through st pts arrow feed in
  continuous st ms /\ length ms = length pts /\
  Forall (fun m => straight_cut m /\ m_feed m = feed) ms /\
  map m_end ms = map from_vector pts /\
  (pts <> [] -> forall d, after st ms = from_vector (last pts d)).
Proof.
  induction pts as [|p pts IH]; intros st; cbv zeta.
  - cbn. repeat split; auto; congruence.
  - cbn [cuts_through]. rewrite mk_cut_full. destruct (IH (from_vector p)) as (H1 & H2 & H3 & H4 & H5). cbv zeta in *.
    split; [cbn; auto|]. split; [cbn [length]; rewrite H2; reflexivity|].
    split; [constructor; [cbn; auto|exact H3]|]. split; [cbn [map m_end]; rewrite H4; reflexivity|].
    intros _ d. cbn [after m_end]. destruct pts as [|q pts]; [reflexivity|]. rewrite H5 with (d := d) by discriminate. reflexivity.
Qed.

Lemma sp_travel e : edge_start_point e = travel_start e. Proof. reflexivity. Qed.
Lemma ep_travel e : edge_end_point e = travel_end e. Proof. reflexivity. Qed.

Lemma param_start e : edge_sound e -> e_param e (edge_start_param e) = travel_start e.
Proof. intros (H1 & H2 & _). unfold edge_start_param, travel_start. destruct (e_reversed e); assumption. Qed.
Lemma param_end e : edge_sound e -> e_param e (edge_end_param e) = travel_end e.
Proof. intros (H1 & H2 & _). unfold edge_end_param, travel_end. destruct (e_reversed e); assumption. Qed.
Lemma travel_param_lin e t :
  e_param e (edge_start_param e + (edge_end_param e - edge_start_param e) * t) = travel_param e t.
Proof. unfold travel_param, edge_start_param, edge_end_param. destruct (e_reversed e); f_equal; ring. Qed.

(** ** Routing one edge *)
Lemma route_edge_chain K e prec sp ep arrow feed cmds v :
  edge_sound e ->
  (is_spline_geom (e_geom e) = true -> sp = None /\ ep = None) ->
  route_edge K e prec sp ep arrow feed = Ok (cmds, v) ->
  let a := match sp with None => travel_start e | Some p => e_param e p end in
  let b := match ep with None => travel_end e | Some p => e_param e p end in
  v = b /\ cmds <> [] /\ Forall (fun m => ~ rapid m /\ m_feed m = feed) cmds /\
  continuous (from_vector a) cmds /\ after (from_vector a) cmds = from_vector b.
Proof.
  intros HS HSP H a b. unfold route_edge in H.
  replace (match sp with None => edge_start_point e | Some p => e_param e p end) with a in H by (destruct sp; reflexivity).
  replace (match ep with None => edge_end_point e | Some p => e_param e p end) with b in H by (destruct ep; reflexivity).
  apply rbind_ok in H. destruct H as (c & H & HE). injection HE as <- <-. split; [reflexivity|].
  assert (Line : forall x, x = [mk_cut (from_vector b) (Some (from_vector a)) arrow feed] ->
            x <> [] /\ Forall (fun m => ~ rapid m /\ m_feed m = feed) x /\
            continuous (from_vector a) x /\ after (from_vector a) x = from_vector b).
  { intros x ->. rewrite mk_cut_full. split; [discriminate|]. split; [fall; cbn; tauto|]. cbn. auto. }
  assert (Arc : is_arc_geom (e_geom e) = true -> c <> [] /\ Forall (fun m => ~ rapid m /\ m_feed m = feed) c /\
            continuous (from_vector a) c /\ after (from_vector a) c = from_vector b).
  { intros HG. assert (H' : rbind (is_arc_clockwise2 e) (fun cw =>
        if e_closed e then
          Ok [mk_arc cw (from_vector (e_param e (nth 2 (linspace (dflt sp (edge_start_param e)) (dflt ep (edge_end_param e)) 5) 0)))
                (Some (from_vector (e_param e (dflt sp (edge_start_param e))))) (from_vector (e_center e))
                (from_vector (e_param e (nth 1 (linspace (dflt sp (edge_start_param e)) (dflt ep (edge_end_param e)) 5) 0))) arrow feed;
              mk_arc cw (from_vector b) (Some (from_vector (e_param e (nth 2 (linspace (dflt sp (edge_start_param e)) (dflt ep (edge_end_param e)) 5) 0)))) (from_vector (e_center e))
                (from_vector (e_param e (nth 3 (linspace (dflt sp (edge_start_param e)) (dflt ep (edge_end_param e)) 5) 0))) arrow feed]
        else if k_veq K a b then Ok [mk_cut (from_vector b) (Some (from_vector a)) arrow feed]
        else Ok [mk_arc cw (from_vector b) (Some (from_vector a)) (from_vector (e_center e))
           (from_vector (e_param e (nth 1 (linspace (dflt sp (edge_start_param e)) (dflt ep (edge_end_param e)) 3) 0))) arrow feed]) = Ok c).
    { destruct (e_geom e); try discriminate; exact H. }
    clear H. apply rbind_ok in H'. destruct H' as (cw & _ & H). destruct (e_closed e).
    - injection H as <-. rewrite !mk_arc_full. split; [discriminate|]. split; [fall; cbn; tauto|].
      cbn [continuous m_start m_end after]. split; [|reflexivity]. split; [|auto].
      f_equal. unfold a. destruct sp as [p|]; cbn [dflt]; [reflexivity|apply param_start, HS].
    - destruct (k_veq K a b); injection H as <-; [apply Line; reflexivity|].
      rewrite mk_arc_full. split; [discriminate|]. split; [fall; cbn; tauto|]. cbn. auto. }
  assert (Spl : is_spline_geom (e_geom e) = true -> c <> [] /\ Forall (fun m => ~ rapid m /\ m_feed m = feed) c /\
            continuous (from_vector a) c /\ after (from_vector a) c = from_vector b).
  { intros HG. destruct (HSP HG) as [-> ->].
    assert (H' : Ok (cuts_through (from_vector a) (map (e_pos e)
       (if e_reversed e then linspace 1 0 (edge_interpolation_count e prec) else linspace 0 1 (edge_interpolation_count e prec))) arrow feed) = Ok c).
    { destruct (e_geom e); try discriminate HG; destruct (e_reversed e); exact H. }
    injection H' as <-. set (ls := if e_reversed e then _ else _).
    destruct (cuts_through_spec arrow feed (map (e_pos e) ls) (from_vector a)) as (K1 & K2 & K3 & _ & K5). cbv zeta in *.
    assert (HN : map (e_pos e) ls <> [] /\ e_pos e (last ls 0) = travel_end e).
    { destruct HS as (_ & _ & P0 & P1 & _).
      unfold ls, travel_end. destruct (e_reversed e);
      [destruct (linspace_cons 1 0 _ (count_ge2 e prec)) as (l & El & LL)|destruct (linspace_cons 0 1 _ (count_ge2 e prec)) as (l & El & LL)];
      (split; [rewrite El; discriminate|]).
      - rewrite (last_any _ 0 1), LL by (rewrite El; discriminate). exact P0.
      - rewrite LL. exact P1. }
    destruct HN as [HN HL].
    split. { intros C. rewrite C in K2. destruct ls; [exact (HN eq_refl)|discriminate]. }
    split. { eapply Forall_impl; [|exact K3]. intros m [M1 M2]. split; [destruct m; cbn in *; tauto|exact M2]. }
    split; [exact K1|].
    rewrite (K5 HN (e_pos e 0)). f_equal. unfold b. rewrite <- HL.
    destruct ls as [|x ls0] using rev_ind; [exfalso; apply HN; reflexivity|]. rewrite map_app. cbn [map]. rewrite !last_last. reflexivity. }
  destruct (e_geom e) eqn:EG; try (apply Arc; reflexivity); try (apply Spl; reflexivity).
  - injection H as <-. apply Line. reflexivity.
  - discriminate.
Qed.

Lemma route_edge_error K e prec sp ep arrow feed x :
  route_edge K e prec sp ep arrow feed = Err x <->
  x = RuntimeError /\ (e_geom e = GOTHER \/ (is_arc_geom (e_geom e) = true /\ vz (e_normal e) = 0)).
Proof.
  unfold route_edge, is_arc_clockwise2.
  assert (N : forall (P : Prop) y, (Err y = Err x :> result (list motion * vec)) <-> x = y) by (intros; split; congruence).
  destruct (e_geom e); cbn [rbind is_arc_geom].
  - split; [discriminate|]. intros (_ & [C|[C _]]); discriminate.
  - destruct (qeqb_spec (vz (e_normal e)) 0) as [E|E]; cbn [rbind].
    + split; [intros [= <-]; auto|intros [-> _]; reflexivity].
    + split; [|intros (_ & [C|[_ C]]); [discriminate|contradiction]].
      destruct (e_reversed e); cbn [rbind]; destruct (e_closed e); try discriminate; destruct (k_veq K _ _); discriminate.
  - destruct (qeqb_spec (vz (e_normal e)) 0) as [E|E]; cbn [rbind].
    + split; [intros [= <-]; auto|intros [-> _]; reflexivity].
    + split; [|intros (_ & [C|[_ C]]); [discriminate|contradiction]].
      destruct (e_reversed e); cbn [rbind]; destruct (e_closed e); try discriminate; destruct (k_veq K _ _); discriminate.
  - split; [destruct (e_reversed e); discriminate|]. intros (_ & [C|[C _]]); discriminate.
  - split; [destruct (e_reversed e); discriminate|]. intros (_ & [C|[C _]]); discriminate.
  - split; [destruct (e_reversed e); discriminate|]. intros (_ & [C|[C _]]); discriminate.
  - split; [intros [= <-]; auto|]. intros [-> _]. reflexivity.
Qed.

(** The shape of the commands for a whole edge. *)
Lemma route_edge_shape K e prec arrow feed cmds v :
  edge_sound e -> route_edge K e prec None None arrow feed = Ok (cmds, v) ->
  match e_geom e with
  | GLINE => exists m, cmds = [m] /\ line_command (travel_start e) (travel_end e) feed m
  | GARC | GCIRCLE =>
      exists cw, is_arc_clockwise2 e = Ok cw /\
      if e_closed e then
        exists m1 m2, cmds = [m1; m2] /\
          arc_command cw (e_center e) (travel_start e) (travel_param e (qq 1 4)) (travel_param e (qq 1 2)) feed m1 /\
          arc_command cw (e_center e) (travel_param e (qq 1 2)) (travel_param e (qq 3 4)) (travel_end e) feed m2
      else if k_veq K (travel_start e) (travel_end e) then
        exists m, cmds = [m] /\ line_command (travel_start e) (travel_end e) feed m
      else exists m, cmds = [m] /\
          arc_command cw (e_center e) (travel_start e) (travel_param e (qq 1 2)) (travel_end e) feed m
  | GBSPLINE | GSPLINE | GOFFSET =>
      let n := edge_interpolation_count e prec in
      length cmds = n /\ Forall straight_cut cmds /\
      (forall k m, nth_error cmds k = Some m ->
         m_end m = from_vector (travel_pos e (qz (Z.of_nat k) / qz (Z.of_nat n - 1))))
  | GOTHER => False
  end.
Proof.
  intros HS H. unfold route_edge in H. apply rbind_ok in H. destruct H as (c & H & HE). injection HE as <- <-.
  assert (Arc : is_arc_geom (e_geom e) = true -> exists cw, is_arc_clockwise2 e = Ok cw /\
      if e_closed e then
        exists m1 m2, c = [m1; m2] /\
          arc_command cw (e_center e) (travel_start e) (travel_param e (qq 1 4)) (travel_param e (qq 1 2)) feed m1 /\
          arc_command cw (e_center e) (travel_param e (qq 1 2)) (travel_param e (qq 3 4)) (travel_end e) feed m2
      else if k_veq K (travel_start e) (travel_end e) then
        exists m, c = [m] /\ line_command (travel_start e) (travel_end e) feed m
      else exists m, c = [m] /\
          arc_command cw (e_center e) (travel_start e) (travel_param e (qq 1 2)) (travel_end e) feed m).
  { intros HG. assert (H' : rbind (is_arc_clockwise2 e) (fun cw =>
        if e_closed e then
          Ok [mk_arc cw (from_vector (e_param e (nth 2 (linspace (edge_start_param e) (edge_end_param e) 5) 0)))
                (Some (from_vector (e_param e (edge_start_param e)))) (from_vector (e_center e))
                (from_vector (e_param e (nth 1 (linspace (edge_start_param e) (edge_end_param e) 5) 0))) arrow feed;
              mk_arc cw (from_vector (travel_end e)) (Some (from_vector (e_param e (nth 2 (linspace (edge_start_param e) (edge_end_param e) 5) 0)))) (from_vector (e_center e))
                (from_vector (e_param e (nth 3 (linspace (edge_start_param e) (edge_end_param e) 5) 0))) arrow feed]
        else if k_veq K (travel_start e) (travel_end e) then Ok [mk_cut (from_vector (travel_end e)) (Some (from_vector (travel_start e))) arrow feed]
        else Ok [mk_arc cw (from_vector (travel_end e)) (Some (from_vector (travel_start e))) (from_vector (e_center e))
           (from_vector (e_param e (nth 1 (linspace (edge_start_param e) (edge_end_param e) 3) 0))) arrow feed]) = Ok c).
    { destruct (e_geom e); try discriminate; exact H. }
    clear H. apply rbind_ok in H'. destruct H' as (cw & HW & H). exists cw. split; [exact HW|].
    rewrite !linspace_nth_d in H by lia.
    assert (L : forall (k n : nat) q, qz (Z.of_nat k) / qz (Z.of_nat n - 1) = q ->
        e_param e (edge_start_param e + (edge_end_param e - edge_start_param e) * qz (Z.of_nat k) / qz (Z.of_nat n - 1)) = travel_param e q).
    { intros k n q <-. rewrite <- travel_param_lin. f_equal. unfold Qcdiv. ring. }
    rewrite (L 1%nat 5%nat (qq 1 4)), (L 2%nat 5%nat (qq 1 2)), (L 3%nat 5%nat (qq 3 4)), (L 1%nat 3%nat (qq 1 2)) in H
      by (apply Qc_is_canon; reflexivity).
    rewrite (param_start e HS) in H. rewrite !mk_arc_full, ?mk_cut_full in H.
    destruct (e_closed e).
    - injection H as <-. eexists _, _. split; [reflexivity|]. split; eexists; reflexivity.
    - destruct (k_veq K _ _); injection H as <-; eexists; (split; [reflexivity|]); eexists; reflexivity. }
  assert (Spl : is_spline_geom (e_geom e) = true ->
      let n := edge_interpolation_count e prec in
      length c = n /\ Forall straight_cut c /\
      (forall k m, nth_error c k = Some m ->
         m_end m = from_vector (travel_pos e (qz (Z.of_nat k) / qz (Z.of_nat n - 1))))).
  { intros HG n.
    assert (H' : Ok (cuts_through (from_vector (travel_start e)) (map (e_pos e)
       (if e_reversed e then linspace 1 0 n else linspace 0 1 n)) arrow feed) = Ok c).
    { unfold n. destruct (e_geom e); try discriminate HG; destruct (e_reversed e); exact H. }
    injection H' as <-. set (ls := if e_reversed e then _ else _).
    destruct (cuts_through_spec arrow feed (map (e_pos e) ls) (from_vector (travel_start e))) as (K1 & K2 & K3 & K4 & _). cbv zeta in *.
    assert (HLen : length ls = n) by (unfold ls; destruct (e_reversed e); apply linspace_length).
    split; [rewrite K2, map_length; exact HLen|]. split; [eapply Forall_impl; [|exact K3]; cbv beta; tauto|].
    intros k m Hk.
    assert (Hlt : (k < n)%nat). { rewrite <- HLen, <- (map_length (e_pos e)), <- K2. apply nth_error_Some. congruence. }
    apply (map_nth_error m_end) in Hk. rewrite K4, map_map in Hk. rewrite nth_error_map in Hk.
    unfold ls, travel_pos in *. destruct (e_reversed e); rewrite linspace_nth in Hk by exact Hlt; cbn [option_map] in Hk;
      injection Hk as <-; f_equal; f_equal; unfold Qcdiv; ring. }
  destruct (e_geom e) eqn:EG; try (apply Arc; reflexivity); try (apply Spl; reflexivity).
  - injection H as <-. rewrite mk_cut_full. eexists. split; [reflexivity|]. eexists; reflexivity.
  - discriminate.
Qed.

(** ** Arc direction *)
Lemma Qpos_mul_iff (x r : Q) : (0 < r)%Q -> (x * r < 0 <-> x < 0)%Q.
Proof.
  intros Hr. split; intros H.
  - apply Qnot_le_lt. intros C. apply (Qlt_not_le _ _ H). apply Qmult_le_0_compat; [exact C|]. apply Qlt_le_weak, Hr.
  - assert (0 < - x)%Q by lra. assert (0 < - x * r)%Q by (apply Qmult_lt_0_compat; assumption). lra.
Qed.

Lemma turn_sign n c p rev : dot n (vsub p c) = 0 ->
  vz (cross (vsub p c) (direction n c p rev)) =
  (if rev then - vz n else vz n) * dot (vsub p c) (vsub p c).
Proof.
  unfold direction, cross, dot. set (d := vsub p c). destruct d as [dx dy dz], n as [nx ny nz]. cbn [vx vy vz].
  intros H.
  assert (E : nz * dz = - (nx * dx + ny * dy)) by (qc2q; lra).
  assert (E2 : dz * (nx * dx + ny * dy) = - (nz * dz * dz)).
  { replace (nx * dx + ny * dy) with (- (nz * dz)) by (rewrite E; ring). ring. }
  destruct rev; cbn [vscale vx vy vz].
  - replace (dx * (- 1%Qc * (nz * dx - nx * dz)) - dy * (- 1%Qc * (ny * dz - nz * dy)))
      with (- (nz * (dx * dx + dy * dy)) + dz * (nx * dx + ny * dy)) by ring.
    rewrite E2. ring.
  - replace (dx * (nz * dx - nx * dz) - dy * (ny * dz - nz * dy))
      with (nz * (dx * dx + dy * dy) - dz * (nx * dx + ny * dy)) by ring.
    rewrite E2. ring.
Qed.

Lemma dot_pos (v : vec) : v <> V3 0 0 0 -> 0 < dot v v.
Proof.
  intros H. assert (HN : 0 <= dot v v).
  { unfold dot. qc2q. pose proof (Qsq_nn (this (vx v))). pose proof (Qsq_nn (this (vy v))). pose proof (Qsq_nn (this (vz v))). lra. }
  apply Qcnot_le_lt. intros C. assert (E : dot v v = 0) by (apply Qcle_antisym; assumption).
  apply H. unfold dot in E. destruct v as [x y z]; cbn [vx vy vz] in *.
  assert (E' : (this x * this x + this y * this y + this z * this z == 0)%Q) by (clear - E; qc2q; exact E).
  pose proof (Qsq_nn (this x)) as Qx. pose proof (Qsq_nn (this y)) as Qy. pose proof (Qsq_nn (this z)) as Qz.
  assert (X0 : (this x * this x == 0)%Q) by lra. assert (Y0 : (this y * this y == 0)%Q) by lra. assert (Z0 : (this z * this z == 0)%Q) by lra.
  f_equal; apply qc_eq_iff; rewrite this_0;
    [destruct (Qmult_integral _ _ X0)|destruct (Qmult_integral _ _ Y0)|destruct (Qmult_integral _ _ Z0)]; assumption.
Qed.

Lemma arc_direction e p :
  dot (e_normal e) (vsub p (e_center e)) = 0 -> vsub p (e_center e) <> V3 0 0 0 ->
  (forall b, is_arc_clockwise2 e = Ok b -> (b = true <-> turns_clockwise (e_normal e) (e_center e) p (e_reversed e))) /\
  (is_arc_clockwise2 e = Err RuntimeError <-> vz (e_normal e) = 0) /\
  (forall x, is_arc_clockwise2 e = Err x -> x = RuntimeError).
Proof.
  intros HO HP. pose proof (dot_pos _ HP) as Hr. unfold turns_clockwise. rewrite turn_sign by exact HO.
  unfold is_arc_clockwise2. destruct (qeqb_spec (vz (e_normal e)) 0) as [E|E].
  - split; [discriminate|]. split; [tauto|congruence].
  - split; [|split; [split; [destruct (e_reversed e); discriminate|contradiction]|destruct (e_reversed e); discriminate]].
    assert (Hr' : (0 < this (dot (vsub p (e_center e)) (vsub p (e_center e))))%Q) by exact Hr.
    intros b Hb. destruct (e_reversed e); injection Hb as <-; rewrite qltb_lt; unfold Qclt; rewrite this_mult, ?this_opp, ?this_0;
      rewrite Qpos_mul_iff by exact Hr'; [split; intros; lra|reflexivity].
Qed.
