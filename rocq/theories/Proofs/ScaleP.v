From Verif Require Import Base.Str Base.Py Model.Groups Model.Geometry Model.Plane Model.Edges Model.Command Model.Job Model.Interp Model.Tree Model.Routers Model.Linked Model.Strategy Model.Drill Model.Pocket
  Spec.Paths Spec.Drills Spec.Alike Spec.Scale Proofs.AlikeP Proofs.ShiftP Proofs.FillP Proofs.DrillP Proofs.PartsP.
Local Open Scope Qc_scope.
Local Open Scope list_scope.

Section Scale.
Context (k : Qc) (KP : 0 < k).
Notation sp := (scale_pt k). Notation ma := (scale_avec k). Notation mm := (scale_motion k). Notation mv := (scale_vec k).
Lemma k_nz : k <> 0. Proof. intros E. rewrite E in KP. qlra. Qed.
Lemma kk : 0 < k * k. Proof. qnra. Qed.
Lemma kk_nz : k * k <> 0. Proof. intros E. pose proof kk as H. rewrite E in H. qlra. Qed.
Lemma kmul_inj a b : k * a = k * b -> a = b.
Proof. intros E. assert (H : k * (a - b) = 0) by (replace (k * (a - b)) with (k * a - k * b) by ring; rewrite E; ring). apply Qcmult_integral in H as [H|H]; [elim (k_nz H)|]. qlra. Qed.
Lemma qltb_scale c a b : 0 < c -> qltb (c * a) (c * b) = qltb a b.
Proof.
  intros C. destruct (qltb a b) eqn:E.
  - apply qltb_lt in E. apply qltb_lt. qnra.
  - apply qltb_nlt in E. destruct (qltb (c * a) (c * b)) eqn:F; [|reflexivity]. apply qltb_lt in F. exfalso. qnra.
Qed.
Lemma qleb_scale c a b : 0 < c -> qleb (c * a) (c * b) = qleb a b.
Proof.
  intros C. destruct (qleb a b) eqn:E.
  - apply qleb_le in E. apply qleb_le. qnra.
  - apply qleb_nle in E. destruct (qleb (c * a) (c * b)) eqn:F; [|reflexivity]. apply qleb_le in F. exfalso. qnra.
Qed.
Lemma qeqb_scale c a b : 0 < c -> qeqb (c * a) (c * b) = qeqb a b.
Proof.
  intros C. destruct (qeqb a b) eqn:E; [apply qeqb_eq in E; subst; apply qeqb_eq; reflexivity|].
  destruct (qeqb (c * a) (c * b)) eqn:F; [|reflexivity]. apply qeqb_eq in F. apply qeqb_neq in E. elim E.
  assert (H : c * (a - b) = 0) by (replace (c * (a - b)) with (c * a - c * b) by ring; rewrite F; ring).
  apply Qcmult_integral in H as [H|H]; [rewrite H in C; exfalso; qlra|qlra].
Qed.
Lemma ratio_scale c a b : 0 < c -> (c * a) / (c * b) = a / b.
Proof.
  intros C. assert (c <> 0) by (intros E; rewrite E in C; qlra). destruct (Qc_eq_dec b 0) as [->|B]; [|field; split; assumption].
  replace (c * 0) with 0 by ring. unfold Qcdiv. assert (Z : / 0 = 0) by (apply Qc_is_canon; reflexivity). rewrite Z. ring.
Qed.
Lemma dist2_scale a b : dist2 (sp a) (sp b) = k * k * dist2 a b.
Proof. unfold dist2, scale_pt. cbn [fst snd]. ring. Qed.
Lemma seg_scale a b : segment_length_squared (sp a) (sp b) = k * k * segment_length_squared a b.
Proof. unfold segment_length_squared, scale_pt. cbn [fst snd]. ring. Qed.
Lemma sp_inj a b : sp a = sp b -> a = b.
Proof. intros E. pose proof (f_equal fst E) as A. pose proof (f_equal snd E) as B. cbn in A, B. apply kmul_inj in A, B. destruct a, b. cbn in A, B. subst. reflexivity. Qed.
Lemma pt_eqb_scale a b : pt_eqb (sp a) (sp b) = pt_eqb a b.
Proof. unfold pt_eqb, scale_pt. cbn [fst snd]. rewrite !(qeqb_scale k) by exact KP. reflexivity. Qed.
Lemma foot_scale p v w : foot (sp p) (sp v) (sp w) = foot p v w.
Proof.
  unfold foot. rewrite dist2_scale. etransitivity; [|apply (ratio_scale (k * k) _ _ kk)]. f_equal. unfold scale_pt. cbn [fst snd]. ring.
Qed.
Lemma at_foot_scale v w t : at_foot (sp v) (sp w) t = sp (at_foot v w t).
Proof. unfold at_foot, scale_pt. cbn [fst snd]. f_equal; ring. Qed.
Lemma nearest_scale p v w : dist_to_segment_squared (sp p) (sp v) (sp w) = rmap (fun x => (k * k * fst x, sp (snd x))) (dist_to_segment_squared p v w).
Proof.
  rewrite !nearest_form, foot_scale, at_foot_scale, !dist2_scale. replace (qeqb (k * k * dist2 v w) 0) with (qeqb (dist2 v w) 0); [destruct (qeqb (dist2 v w) 0); reflexivity|].
  pose proof (qeqb_scale (k * k) (dist2 v w) 0 kk) as H. replace (k * k * 0) with 0 in H by ring. exact (eq_sym H).
Qed.
Lemma nearest_step i p a b path best : distance_to_path_from i p (a :: b :: path) best =
  rbind (dist_to_segment_squared p a b) (fun x => distance_to_path_from (S i) p (b :: path)
    (if match best with None => true | Some (dd, _, _) => qltb (fst x) dd end
     then Some (fst x, snd x, (i, segment_length_squared a (snd x) / segment_length_squared a b)) else best)).
Proof. cbn [distance_to_path_from]. destruct (dist_to_segment_squared p a b) as [[? ?]|]; reflexivity. Qed.
Definition mn (x : Qc * pt * (nat * Qc)) := (k * k * fst (fst x), sp (snd (fst x)), snd x).
Lemma nearest_from_scale p path : forall i best,
  distance_to_path_from i (sp p) (scale_path k path) (option_map mn best) = rmap (option_map mn) (distance_to_path_from i p path best).
Proof.
  induction path as [|a [|b path] IH]; intros i best; [reflexivity|reflexivity|]. cbn [scale_path map]. rewrite !nearest_step, nearest_scale.
  apply (bind_map (fun x => (k * k * fst x, sp (snd x)))); [reflexivity|]. intros [sd sc]. cbn [fst snd]. change (sp b :: map sp path) with (scale_path k (b :: path)).
  rewrite <- IH. f_equal. rewrite !seg_scale, (ratio_scale _ _ _ kk). unfold mn. destruct best as [[[x c] n]|]; cbn [option_map fst snd]; [rewrite (qltb_scale _ _ _ kk); destruct (qltb sd x); reflexivity|reflexivity].
Qed.
Lemma distance_scale p path : distance_to_path (sp p) (scale_path k path) = rmap (option_map mn) (distance_to_path p path).
Proof. exact (nearest_from_scale p path 0%nat None). Qed.

(** ** Moves *)
Lemma init_scale en st : init_motion (ma en) (Some (ma st)) = (ma (fst (init_motion en (Some st))), ma (snd (init_motion en (Some st)))).
Proof. destruct en as [[x|] [y|] [z|]], st as [[a|] [b|] [c|]]; reflexivity. Qed.
Lemma end_scale m : m_end (mm m) = ma (m_end m). Proof. destruct m; reflexivity. Qed.
Lemma last_end_scale ms p : last_end (map mm ms) (ma p) = ma (last_end ms p).
Proof. unfold last_end. rewrite <- map_rev. destruct (rev ms); [reflexivity|apply end_scale]. Qed.
Lemma cut_scale en st a f : mk_cut (ma en) (Some (ma st)) a f = mm (mk_cut en (Some st) a f).
Proof. unfold mk_cut. rewrite init_scale. reflexivity. Qed.
Lemma rapid_scale en st a : mk_rapid (ma en) (Some (ma st)) a = mm (mk_rapid en (Some st) a).
Proof. unfold mk_rapid. rewrite init_scale. reflexivity. Qed.
Lemma cut_abs_scale x y z st a f : cut_abs (Some (k * x)) (Some (k * y)) (Some (k * z)) (Some (ma st)) a f = mm (cut_abs (Some x) (Some y) (Some z) (Some st) a f).
Proof. exact (cut_scale (AV (Some x) (Some y) (Some z)) st a f). Qed.
Lemma retract_scale z st a : retract_abs (Some (k * z)) (Some (ma st)) a = mm (retract_abs (Some z) (Some st) a).
Proof. unfold retract_abs. change (AV None None (Some (k * z))) with (ma (AV None None (Some z))) at 1. rewrite init_scale. reflexivity. Qed.
Lemma plunge_rapid_scale z st a : plunge_rapid_abs (Some (k * z)) (Some (ma st)) a = mm (plunge_rapid_abs (Some z) (Some st) a).
Proof. unfold plunge_rapid_abs. change (AV None None (Some (k * z))) with (ma (AV None None (Some z))) at 1. rewrite init_scale. reflexivity. Qed.
Lemma plunge_cut_scale z st a f : plunge_cut_abs (Some (k * z)) (Some (ma st)) a f = mm (plunge_cut_abs (Some z) (Some st) a f).
Proof. unfold plunge_cut_abs. change (AV None None (Some (k * z))) with (ma (AV None None (Some z))) at 1. rewrite init_scale. reflexivity. Qed.
Lemma differs_scale a b : differs (option_map (Qcmult k) a) (k * b) = differs a b.
Proof. destruct a as [a|]; [|reflexivity]. unfold differs. cbn [option_map oeqb]. rewrite (qeqb_scale _ _ _ KP). reflexivity. Qed.
Lemma rapid_to_scale s e r sa f : rapid_to (ma s) (mv e) (k * r) (Some (k * sa)) f = map mm (rapid_to s e r (Some sa) f).
Proof.
  unfold rapid_to. rewrite retract_scale, end_scale. set (R := retract_abs _ _ _). set (p := m_end R). clearbody p R.
  change (ax (ma p)) with (option_map (Qcmult k) (ax p)). change (ay (ma p)) with (option_map (Qcmult k) (ay p)).
  change (vx (mv e)) with (k * vx e). change (vy (mv e)) with (k * vy e). rewrite !differs_scale.
  set (W := if (differs (ax p) (vx e) || differs (ay p) (vy e))%bool then [rapid_abs (Some (vx e)) (Some (vy e)) None (Some p) true] else []).
  assert (ET : (if (differs (ax p) (vx e) || differs (ay p) (vy e))%bool then [rapid_abs (Some (k * vx e)) (Some (k * vy e)) None (Some (ma p)) true] else []) = map mm W).
  { unfold W. destruct (differs (ax p) (vx e) || differs (ay p) (vy e))%bool; [|reflexivity]. apply (f_equal (fun m => [m])). exact (rapid_scale (AV (Some (vx e)) (Some (vy e)) None) p true). }
  rewrite ET. clearbody W. clear ET. rewrite last_end_scale. set (q := last_end W p). clearbody q. cbn [map]. f_equal. rewrite map_app. f_equal.
  cbn [map]. rewrite plunge_rapid_scale, end_scale. f_equal.
  change (vz (mv e)) with (k * vz e). rewrite (qltb_scale _ _ _ KP). destruct (qltb _ _); [|reflexivity]. cbn [map]. rewrite plunge_cut_scale. reflexivity.
Qed.

(** ** Contours *)
Lemma cut_poly_scale z f ps : forall st, cut_poly (k * z) f (ma st) (map sp ps) = map mm (cut_poly z f st ps).
Proof.
  induction ps as [|[x y] ps IH]; intros st; [reflexivity|]. cbn [map cut_poly]. change (sp (x, y)) with (k * x, k * y). cbn iota. rewrite cut_abs_scale, end_scale, IH. reflexivity.
Qed.
Lemma shift_polygon_scale p i : shift_polygon (scale_path k p) i = scale_path k (shift_polygon p i).
Proof.
  unfold shift_polygon, scale_path. assert (R : forall l, removelast (map sp l) = map sp (removelast l)).
  { induction l as [|a [|b l] IH]; [reflexivity|reflexivity|]. cbn [map] in *. cbn [removelast]. cbn [removelast] in IH. rewrite IH. reflexivity. }
  rewrite R, map_app, skipn_map, firstn_map. reflexivity.
Qed.
Definition m3 (x : list motion * avec * pt) := (map mm (fst (fst x)), ma (snd (fst x)), sp (snd x)).
Lemma truthy_scale o : truthy (option_map (Qcmult (k * k)) o) = truthy o.
Proof.
  destruct o as [s|]; [|reflexivity]. unfold truthy. cbn [option_map]. f_equal. pose proof (qeqb_scale (k * k) s 0 kk) as H. replace (k * k * 0) with 0 in H by ring. exact H.
Qed.
Context (j j' : job) (SJ : scaled_job k j j').
Lemma route_polyface_scale so pe pp f :
  route_polyface j' (option_map (Qcmult (k * k)) so) (option_map sp pe) (ma pp) (scale_face k f) = rmap m3 (route_polyface j so pe pp f).
Proof.
  destruct SJ as (_ & (Ef & Eg) & Es & Er).
  unfold route_polyface. rewrite <- Ef, <- Eg, Es, Er. cbn [scale_face pf_outer pf_depth]. destruct (pf_outer f) as [|p0 ps] eqn:Eo; [reflexivity|]. cbn [scale_path map].
  change (sp p0 :: map sp ps) with (scale_path k (p0 :: ps)).
  apply (bind_map (option_map mn)).
  { destruct pe as [e|]; [apply distance_scale|reflexivity]. }
  intros near.
  set (lk := match near with Some (x, c, (i, _)) => match so with Some s => if (truthy so && truthy (Some x) && qleb x s)%bool then Some (c, i) else None | None => None end | None => None end).
  match goal with |- (let '(_, _) := match ?l with _ => _ end in _) = _ => set (lk' := l) end.
  assert (EL : lk' = option_map (fun x => (sp (fst x), snd x)) lk).
  { unfold lk', lk. destruct near as [[[x c] [i q]]|]; [|reflexivity]. unfold mn. cbn [option_map fst snd]. destruct so as [s|]; [|reflexivity]. cbn [option_map].
    pose proof (truthy_scale (Some s)) as T1. pose proof (truthy_scale (Some x)) as T2. cbn [option_map] in T1, T2. rewrite T1, T2, (qleb_scale _ _ _ kk). destruct (_ && _)%bool; reflexivity. }
  clearbody lk lk'. subst lk'.
  match goal with |- _ = rmap m3 (let '(_, _) := ?l in _) => set (AP := l) end.
  match goal with |- (let '(_, _) := ?l in _) = _ => set (AP' := l) end.
  assert (EA : AP' = (map mm (fst AP), scale_path k (snd AP))).
  { unfold AP', AP. destruct lk as [[c i]|]; cbn [option_map fst snd].
    - change (fst (sp c)) with (k * fst c). change (snd (sp c)) with (k * snd c). rewrite cut_abs_scale, shift_polygon_scale. reflexivity.
    - rewrite <- rapid_to_scale. reflexivity. }
  clearbody AP AP'. subst AP'. destruct AP as [a poly]. cbn [fst snd]. rewrite last_end_scale.
  assert (TL : tl (scale_path k poly) = map sp (tl poly)) by (destruct poly; reflexivity). rewrite TL, cut_poly_scale, last_end_scale.
  set (b := cut_poly _ _ _ _). set (q := last_end b _). clearbody q. clearbody b.
  destruct near as [[[x c] n]|]; unfold mn; cbn [option_map fst snd].
  - change (fst (sp c)) with (k * fst c). change (snd (sp c)) with (k * snd c). rewrite cut_abs_scale. set (t := cut_abs _ _ _ _ _ _). clearbody t. unfold rmap. cbn [rbind]. unfold m3. cbn [fst snd].
    rewrite <- last_end_scale. rewrite !map_app. cbn [map]. reflexivity.
  - unfold rmap. cbn [rbind]. unfold m3. cbn [fst snd]. rewrite <- last_end_scale, !map_app. unfold scale_path. rewrite last_map. reflexivity.
Qed.
Lemma route_polyfaces_scale so fs : forall pe pp,
  route_polyfaces_from j' (option_map (Qcmult (k * k)) so) (option_map sp pe) (ma pp) (map (scale_face k) fs) = rmap (map mm) (route_polyfaces_from j so pe pp fs).
Proof.
  induction fs as [|f fs IH]; intros pe pp; [reflexivity|]. cbn [map route_polyfaces_from]. apply (bind_map m3); [apply route_polyface_scale|].
  intros [[c p] w]. unfold m3. cbn [fst snd]. apply (bind_map (map mm)); [exact (IH (Some w) p)|]. intros r. cbn. rewrite map_app. reflexivity.
Qed.
Lemma contours_scale fs so pp : route_polyface_outers j' (map (scale_face k) fs) (option_map (Qcmult (k * k)) so) (option_map ma pp) = rmap (map mm) (route_polyface_outers j fs so pp).
Proof.
  unfold route_polyface_outers. replace (dflt (option_map ma pp) av_none) with (ma (dflt pp av_none)) by (destruct pp; reflexivity).
  exact (route_polyfaces_scale so fs None _).
Qed.

(** ** Holes *)
Lemma pick_from_scale p os : forall best, pick_from (sp p) (k * k * fst best, sp (snd best)) (map sp os) = sp (pick_from p best os).
Proof.
  induction os as [|o os IH]; intros best; [reflexivity|]. cbn [map pick_from fst snd]. rewrite dist2_scale, (qltb_scale _ _ _ kk).
  rewrite <- IH. destruct (qltb (dist2 p o) (fst best)); reflexivity.
Qed.
Lemma pick_nearest_scale p os : pick_nearest (sp p) (map sp os) = rmap sp (pick_nearest p os).
Proof. destruct os as [|o os]; [reflexivity|]. cbn [map pick_nearest]. rewrite dist2_scale. unfold rmap. cbn [rbind]. rewrite <- pick_from_scale. reflexivity. Qed.
Lemma find_scale p l : find_pt (sp p) (map sp l) = find_pt p l.
Proof. induction l as [|a l IH]; [reflexivity|]. cbn [map find_pt]. rewrite pt_eqb_scale, IH. reflexivity. Qed.
Lemma remove_scale p l : py_remove (sp p) (map sp l) = rmap (map sp) (py_remove p l).
Proof. unfold py_remove. rewrite find_scale. destruct (find_pt p l); [|reflexivity]. unfold rmap. cbn [rbind]. rewrite map_app, firstn_map, skipn_map. reflexivity. Qed.
Lemma order_scale fuel : forall l ps, order_points fuel (option_map sp l) (map sp ps) = rmap (map sp) (order_points fuel l ps).
Proof.
  induction fuel as [|fuel IH]; intros l ps; (destruct ps as [|p0 ps]; [reflexivity|]); [reflexivity|]. cbn [map order_points].
  change (sp p0 :: map sp ps) with (map sp (p0 :: ps)). apply (bind_map sp).
  { destruct l as [l|]; [apply pick_nearest_scale|reflexivity]. }
  intros p. apply (bind_map (map sp)); [apply remove_scale|]. intros r. apply (bind_map (map sp)); [exact (IH (Some p) r)|]. reflexivity.
Qed.
Lemma qabs_scale z : qabs (k * z) = k * qabs z.
Proof.
  unfold qabs. replace (qltb (k * z) 0) with (qltb z 0).
  - destruct (qltb z 0); ring.
  - pose proof (qltb_scale k z 0 KP) as H. replace (k * 0) with 0 in H by ring. exact (eq_sym H).
Qed.
Lemma hole_scale z pp p : hole j' (k * z) (ma pp) (sp p) = map mm (hole j z pp p).
Proof.
  destruct SJ as (_ & (Ef & Eg) & Es & Er). unfold hole. cbn zeta. rewrite <- Ef, Es.
  assert (R : forall st z, rapid_abs None None (Some (k * z)) (Some (ma st)) false = mm (rapid_abs None None (Some z) (Some st) false)) by (intros st z0; exact (rapid_scale (AV None None (Some z0)) st false)).
  rewrite R, end_scale. set (c1 := rapid_abs None None (Some (j_op_safe_height j)) (Some pp) false). set (e1 := m_end c1). clearbody c1 e1.
  assert (A : rapid_abs (Some (fst (sp p))) (Some (snd (sp p))) None (Some (ma e1)) false = mm (rapid_abs (Some (fst p)) (Some (snd p)) None (Some e1) false)) by exact (rapid_scale (AV (Some (fst p)) (Some (snd p)) None) e1 false).
  rewrite A, end_scale. set (c2 := rapid_abs _ _ None _ _). set (e2 := m_end c2). clearbody c2 e2. pose proof (R e2 0) as R0. replace (k * 0) with 0 in R0 by ring. rewrite R0, end_scale.
  set (c3 := rapid_abs _ _ _ _ _). set (e3 := m_end c3). clearbody c3 e3. rewrite qabs_scale. replace (- (k * qabs z)) with (k * - qabs z) by ring. rewrite plunge_cut_scale. reflexivity.
Qed.
Lemma holes_scale z ps : forall pp, holes j' (k * z) (ma pp) (map sp ps) = map mm (holes j z pp ps).
Proof.
  induction ps as [|p ps IH]; intros pp; [reflexivity|]. cbn [map holes]. cbn zeta. rewrite map_app, hole_scale, <- IH. reflexivity.
Qed.
Lemma drill_scale os os' z ps : wanted_holes (to_world (j_top j)) os ps -> wanted_holes (to_world (j_top j)) os' (map sp ps) ->
  drill_gen (Some os') (option_map (Qcmult k) z) j' = rmap (map (scale_command k)) (drill_gen (Some os) z j).
Proof.
  intros W W'. destruct (wanted_known _ _ _ W) as (vs & E & M), (wanted_known _ _ _ W') as (vs' & E' & M'). unfold drill_gen. destruct z as [z|]; [|reflexivity].
  assert (Et : j_top j' = j_top j) by apply SJ. cbn [option_map]. rewrite Et, E, E'. cbn [rbind]. destruct (concat vs) as [|v l] eqn:C, (concat vs') as [|v' l'] eqn:C'; cbn [map] in M, M'; subst ps; try discriminate M'; [reflexivity|].
  cbn zeta. change (map plan (v' :: l')) with (plan v' :: map plan l'). rewrite M'. change (plan v :: map plan l) with (map plan (v :: l)). rewrite map_length.
  apply (bind_map (map sp)); [exact (order_scale _ None _)|]. intros o. unfold rmap. cbn [rbind]. f_equal. change av_none with (ma av_none) at 1.
  rewrite holes_scale, !map_map. reflexivity.
Qed.
End Scale.
