From Verif Require Import Base.Str Base.Py Model.Groups Model.Geometry Model.Plane Model.Edges Model.Command Model.Job Model.Interp Model.Tree Model.Routers Model.Linked Model.Strategy Model.Drill Model.Pocket
  Spec.Shift Proofs.AlikeP.
Local Open Scope Qc_scope.
Local Open Scope list_scope.

Lemma qsub_shift a b d : a + d - (b + d) = a - b. Proof. ring. Qed.
Lemma qeqb_shift a b d : qeqb (a + d) (b + d) = qeqb a b.
Proof.
  destruct (qeqb a b) eqn:E; [apply qeqb_eq in E; subst; apply qeqb_eq; reflexivity|]. apply qeqb_neq. apply qeqb_neq in E.
  intros C. apply E. rewrite <- (Qcplus_0_r a), <- (Qcplus_0_r b). replace 0 with (d + - d) by ring. rewrite !Qcplus_assoc, C. reflexivity.
Qed.
Lemma rmap_rmap {A B C} (f : A -> B) (g : B -> C) r : rmap g (rmap f r) = rmap (fun a => g (f a)) r.
Proof. destruct r; reflexivity. Qed.
Lemma bind_map {A B C D} (f : A -> B) (g : C -> D) r r' k k' : r' = rmap f r -> (forall a, k' (f a) = rmap g (k a)) -> rbind r' k' = rmap g (rbind r k).
Proof. intros -> H. destruct r; cbn; [apply H|reflexivity]. Qed.
Lemma mapM_map {A B A' B'} (f : A -> A') (g : B -> B') (h : A -> result B) (h' : A' -> result B') l :
  (forall a, h' (f a) = rmap g (h a)) -> mapM h' (map f l) = rmap (map g) (mapM h l).
Proof.
  intros H. induction l as [|a l IH]; [reflexivity|]. cbn [map mapM]. apply (bind_map g); [apply H|]. intros b. apply (bind_map (map g)); [exact IH|]. reflexivity.
Qed.

Section Shift.
Context (d : pt).
Notation mp := (move_pt d). Notation ma := (move_avec d). Notation mm := (move_motion d). Notation mv := (move_vec d). Notation me := (move_edge d).

(** ** Points *)
Lemma dist2_shift a b : dist2 (mp a) (mp b) = dist2 a b.
Proof. unfold dist2, move_pt. cbn [fst snd]. rewrite !qsub_shift. reflexivity. Qed.
Lemma seg_shift a b : segment_length_squared (mp a) (mp b) = segment_length_squared a b.
Proof. unfold segment_length_squared, move_pt. cbn [fst snd]. rewrite !qsub_shift. reflexivity. Qed.
Lemma pt_eqb_shift a b : pt_eqb (mp a) (mp b) = pt_eqb a b.
Proof. unfold pt_eqb, move_pt. cbn [fst snd]. rewrite !qeqb_shift. reflexivity. Qed.
Lemma last_map {A B} (f : A -> B) l a : last (map f l) (f a) = f (last l a).
Proof. induction l as [|x [|y l] IH]; [reflexivity|reflexivity|exact IH]. Qed.
Definition foot (p v w : pt) : Qc := ((fst p - fst v) * (fst w - fst v) + (snd p - snd v) * (snd w - snd v)) / dist2 v w.
Definition at_foot (v w : pt) (t : Qc) : pt := (fst v + t * (fst w - fst v), snd v + t * (snd w - snd v)).
Lemma nearest_form p v w : dist_to_segment_squared p v w =
  if qeqb (dist2 v w) 0 then Err ZeroDivisionError
  else Ok (dist2 p (at_foot v w (qmax 0 (qmin 1 (foot p v w)))), at_foot v w (qmax 0 (qmin 1 (foot p v w)))).
Proof. reflexivity. Qed.
Lemma foot_shift p v w : foot (mp p) (mp v) (mp w) = foot p v w.
Proof. unfold foot. rewrite dist2_shift. unfold move_pt. cbn [fst snd]. rewrite !qsub_shift. reflexivity. Qed.
Lemma at_foot_shift v w t : at_foot (mp v) (mp w) t = mp (at_foot v w t).
Proof. unfold at_foot, move_pt. cbn [fst snd]. rewrite !qsub_shift. f_equal; ring. Qed.
Lemma nearest_shift p v w : dist_to_segment_squared (mp p) (mp v) (mp w) = rmap (fun x => (fst x, mp (snd x))) (dist_to_segment_squared p v w).
Proof.
  rewrite !nearest_form, foot_shift, at_foot_shift, !dist2_shift. destruct (qeqb (dist2 v w) 0); reflexivity.
Qed.
Lemma nearest_step i p a b path best : distance_to_path_from i p (a :: b :: path) best =
  rbind (dist_to_segment_squared p a b) (fun x => distance_to_path_from (S i) p (b :: path)
    (if match best with None => true | Some (dd, _, _) => qltb (fst x) dd end
     then Some (fst x, snd x, (i, segment_length_squared a (snd x) / segment_length_squared a b)) else best)).
Proof. cbn [distance_to_path_from]. destruct (dist_to_segment_squared p a b) as [[? ?]|]; reflexivity. Qed.
Lemma nearest_from_shift p path : forall i best,
  distance_to_path_from i (mp p) (move_path d path) (option_map (fun x => (fst (fst x), mp (snd (fst x)), snd x)) best) =
  rmap (option_map (fun x => (fst (fst x), mp (snd (fst x)), snd x))) (distance_to_path_from i p path best).
Proof.
  induction path as [|a [|b path] IH]; intros i best; [reflexivity|reflexivity|]. cbn [move_path map]. rewrite !nearest_step, nearest_shift.
  apply (bind_map (fun x => (fst x, mp (snd x)))); [reflexivity|]. intros [sd sc]. cbn [fst snd]. change (mp b :: map mp path) with (move_path d (b :: path)).
  rewrite <- IH. f_equal. rewrite !seg_shift. destruct best as [[[x c] n]|]; cbn [option_map fst snd]; [destruct (qltb sd x); reflexivity|reflexivity].
Qed.
Lemma distance_shift p path : distance_to_path (mp p) (move_path d path) = rmap (option_map (fun x => (fst (fst x), mp (snd (fst x)), snd x))) (distance_to_path p path).
Proof. exact (nearest_from_shift p path 0%nat None). Qed.

(** ** Moves *)
Lemma init_shift en st : init_motion (ma en) (Some (ma st)) = (ma (fst (init_motion en (Some st))), ma (snd (init_motion en (Some st)))).
Proof. destruct en as [[x|] [y|] [z|]], st as [[a|] [b|] [c|]]; reflexivity. Qed.
Lemma end_shift m : m_end (mm m) = ma (m_end m). Proof. destruct m; reflexivity. Qed.
Lemma last_end_shift ms p : last_end (map mm ms) (ma p) = ma (last_end ms p).
Proof. unfold last_end. rewrite <- map_rev. destruct (rev ms); [reflexivity|apply end_shift]. Qed.
Lemma cut_shift en st a f : mk_cut (ma en) (Some (ma st)) a f = mm (mk_cut en (Some st) a f).
Proof. unfold mk_cut. rewrite init_shift. reflexivity. Qed.
Lemma rapid_shift en st a : mk_rapid (ma en) (Some (ma st)) a = mm (mk_rapid en (Some st) a).
Proof. unfold mk_rapid. rewrite init_shift. reflexivity. Qed.
Lemma arc_shift cw en st c mid a f : mk_arc cw (ma en) (Some (ma st)) (ma c) (ma mid) a f = mm (mk_arc cw en (Some st) c mid a f).
Proof. unfold mk_arc. rewrite init_shift. reflexivity. Qed.
Lemma cut_abs_shift p z st a f : cut_abs (Some (fst (mp p))) (Some (snd (mp p))) z (Some (ma st)) a f = mm (cut_abs (Some (fst p)) (Some (snd p)) z (Some st) a f).
Proof. exact (cut_shift (AV (Some (fst p)) (Some (snd p)) z) st a f). Qed.
Lemma retract_shift z st a : retract_abs z (Some (ma st)) a = mm (retract_abs z (Some st) a).
Proof. unfold retract_abs. change (AV None None z) with (ma (AV None None z)) at 1. rewrite init_shift. reflexivity. Qed.
Lemma plunge_rapid_shift z st a : plunge_rapid_abs z (Some (ma st)) a = mm (plunge_rapid_abs z (Some st) a).
Proof. unfold plunge_rapid_abs. change (AV None None z) with (ma (AV None None z)) at 1. rewrite init_shift. reflexivity. Qed.
Lemma plunge_cut_shift z st a f : plunge_cut_abs z (Some (ma st)) a f = mm (plunge_cut_abs z (Some st) a f).
Proof. unfold plunge_cut_abs. change (AV None None z) with (ma (AV None None z)) at 1. rewrite init_shift. reflexivity. Qed.
Lemma differs_shift o b x : differs (option_map (fun y => y + x) o) (b + x) = differs o b.
Proof. destruct o as [a|]; [|reflexivity]. unfold differs. cbn. rewrite qeqb_shift. reflexivity. Qed.
Lemma rapid_to_shift s e r sa f : rapid_to (ma s) (mv e) r sa f = map mm (rapid_to s e r sa f).
Proof.
  unfold rapid_to. rewrite retract_shift, end_shift. set (R := retract_abs _ _ _). set (p := m_end R). clearbody p R.
  assert (D : (differs (ax (ma p)) (vx (mv e)) || differs (ay (ma p)) (vy (mv e)))%bool = (differs (ax p) (vx e) || differs (ay p) (vy e))%bool)
    by (cbn; rewrite !differs_shift; reflexivity). rewrite D. clear D.
  set (T := if (differs (ax p) (vx e) || differs (ay p) (vy e))%bool then [rapid_abs (Some (vx e)) (Some (vy e)) None (Some p) true] else []).
  assert (ET : (if (differs (ax p) (vx e) || differs (ay p) (vy e))%bool then [rapid_abs (Some (vx (mv e))) (Some (vy (mv e))) None (Some (ma p)) true] else []) = map mm T).
  { unfold T. destruct (differs (ax p) (vx e) || differs (ay p) (vy e))%bool; [|reflexivity]. cbn [map]. f_equal. }
  rewrite ET. clearbody T. clear ET. rewrite last_end_shift. set (q := last_end T p). clearbody q. cbn [map]. f_equal. rewrite map_app. f_equal.
  destruct sa as [sa|]; [|cbn [map]; rewrite plunge_cut_shift; reflexivity]. cbn [map]. rewrite plunge_rapid_shift, end_shift. f_equal.
  change (vz (mv e)) with (vz e). destruct (qltb _ _); [|reflexivity]. cbn [map]. rewrite plunge_cut_shift. reflexivity.
Qed.

(** ** Contours *)
Lemma cut_poly_shift z f ps : forall st, cut_poly z f (ma st) (map mp ps) = map mm (cut_poly z f st ps).
Proof.
  induction ps as [|[x y] ps IH]; intros st; [reflexivity|]. cbn [map cut_poly]. unfold move_pt at 1. cbn [fst snd].
  pose proof (cut_abs_shift (x, y) (Some z) st false (Some f)) as C. unfold move_pt in C. cbn [fst snd] in C. rewrite C, end_shift, IH. reflexivity.
Qed.
Lemma shift_polygon_shift p i : shift_polygon (move_path d p) i = move_path d (shift_polygon p i).
Proof.
  unfold shift_polygon, move_path. assert (R : forall l, removelast (map mp l) = map mp (removelast l)).
  { induction l as [|a [|b l] IH]; [reflexivity|reflexivity|]. cbn [map] in *. cbn [removelast]. cbn [removelast] in IH. rewrite IH. reflexivity. }
  rewrite R, map_app, skipn_map, firstn_map. reflexivity.
Qed.
Definition m3 (x : list motion * avec * pt) := (map mm (fst (fst x)), ma (snd (fst x)), mp (snd x)).
Lemma route_polyface_shift j so pe pp f : route_polyface j so (option_map mp pe) (ma pp) (move_face d f) = rmap m3 (route_polyface j so pe pp f).
Proof.
  unfold route_polyface. cbn [move_face pf_outer pf_depth]. destruct (pf_outer f) as [|p0 ps] eqn:Ef; [reflexivity|]. cbn [move_path map].
  change (mp p0 :: map mp ps) with (move_path d (p0 :: ps)).
  apply (bind_map (option_map (fun x => (fst (fst x), mp (snd (fst x)), snd x)))).
  { destruct pe as [e|]; [apply distance_shift|reflexivity]. }
  intros near.
  set (lk := match near with Some (x, c, (i, _)) => match so with Some s => if (truthy so && truthy (Some x) && qleb x s)%bool then Some (c, i) else None | None => None end | None => None end).
  match goal with |- (let '(_, _) := match ?l with _ => _ end in _) = _ => set (lk' := l) end.
  assert (EL : lk' = option_map (fun x => (mp (fst x), snd x)) lk).
  { unfold lk', lk. destruct near as [[[x c] [i q]]|]; [|reflexivity]. cbn [option_map fst snd]. destruct so as [s|]; [|reflexivity]. destruct (_ && _)%bool; reflexivity. }
  clearbody lk lk'. subst lk'.
  match goal with |- _ = rmap m3 (let '(_, _) := ?l in _) => set (AP := l) end.
  match goal with |- (let '(_, _) := ?l in _) = _ => set (AP' := l) end.
  assert (EA : AP' = (map mm (fst AP), move_path d (snd AP))).
  { unfold AP', AP. destruct lk as [[c i]|]; cbn [option_map fst snd].
    - rewrite cut_abs_shift, shift_polygon_shift. reflexivity.
    - rewrite <- rapid_to_shift. reflexivity. }
  clearbody AP AP'. subst AP'. destruct AP as [a poly]. cbn [fst snd]. rewrite last_end_shift.
  assert (T : tl (move_path d poly) = map mp (tl poly)) by (destruct poly; reflexivity). rewrite T, cut_poly_shift, last_end_shift.
  set (b := cut_poly _ _ _ _). set (q := last_end b _). clearbody q. clearbody b.
  destruct near as [[[x c] n]|]; cbn [option_map fst snd].
  - rewrite cut_abs_shift. set (k := cut_abs _ _ _ _ _ _). clearbody k. unfold rmap. cbn [rbind]. unfold m3. cbn [fst snd].
    rewrite <- last_end_shift. rewrite !map_app. cbn [map]. reflexivity.
  - unfold rmap. cbn [rbind]. unfold m3. cbn [fst snd]. rewrite <- last_end_shift, !map_app. unfold move_path. rewrite last_map. reflexivity.
Qed.
Lemma route_polyfaces_shift j so fs : forall pe pp,
  route_polyfaces_from j so (option_map mp pe) (ma pp) (map (move_face d) fs) = rmap (map mm) (route_polyfaces_from j so pe pp fs).
Proof.
  induction fs as [|f fs IH]; intros pe pp; [reflexivity|]. cbn [map route_polyfaces_from]. apply (bind_map m3); [apply route_polyface_shift|].
  intros [[c p] w]. unfold m3. cbn [fst snd]. apply (bind_map (map mm)); [exact (IH (Some w) p)|]. intros r. cbn. rewrite map_app. reflexivity.
Qed.
Lemma contours_shift j fs so pp : route_polyface_outers j (map (move_face d) fs) so (option_map ma pp) = rmap (map mm) (route_polyface_outers j fs so pp).
Proof.
  unfold route_polyface_outers. replace (dflt (option_map ma pp) av_none) with (ma (dflt pp av_none)) by (destruct pp; reflexivity).
  exact (route_polyfaces_shift j so fs None _).
Qed.
Lemma route_sequences_shift j so ss : forall done pp,
  route_sequences j so done (ma pp) (map (map (move_face d)) ss) = rmap (map mm) (route_sequences j so done pp ss).
Proof.
  induction ss as [|s ss IH]; intros done pp; [reflexivity|]. cbn [map route_sequences]. apply (bind_map (map mm)); [exact (contours_shift j s (Some so) (Some pp))|].
  intros c. rewrite last_end_shift. destruct c as [|m c]; cbn [map].
  - destruct done; [|reflexivity]. apply (bind_map (map mm)); [apply IH|]. reflexivity.
  - apply (bind_map (map mm)); [apply IH|]. intros r. cbn. rewrite map_app. reflexivity.
Qed.

(** ** Wires *)
Section Kernel.
Context (K : kernel) (KM : kernel_moves K d).
Lemma start_shift e : edge_start_point (me e) = mv (edge_start_point e).
Proof. unfold edge_start_point. cbn. destruct (e_reversed e); reflexivity. Qed.
Lemma end_pt_shift e : edge_end_point (me e) = mv (edge_end_point e).
Proof. unfold edge_end_point. cbn. destruct (e_reversed e); reflexivity. Qed.
Lemma cuts_through_shift pts a f : forall st, cuts_through (ma st) (map mv pts) a f = map mm (cuts_through st pts a f).
Proof.
  induction pts as [|p pts IH]; intros st; [reflexivity|]. cbn [map cuts_through]. change (from_vector (mv p)) with (ma (from_vector p)).
  rewrite cut_shift, IH. reflexivity.
Qed.
Definition mpair (x : list motion * vec) := (map mm (fst x), mv (snd x)).
Lemma route_edge_shift e p sp ep a f : route_edge K (me e) p sp ep a f = rmap mpair (route_edge K e p sp ep a f).
Proof.
  unfold route_edge.
  assert (E1 : match sp with None => edge_start_point (me e) | Some q => e_param (me e) q end = mv (match sp with None => edge_start_point e | Some q => e_param e q end))
    by (destruct sp; [reflexivity|apply start_shift]).
  assert (E2 : match ep with None => edge_end_point (me e) | Some q => e_param (me e) q end = mv (match ep with None => edge_end_point e | Some q => e_param e q end))
    by (destruct ep; [reflexivity|apply end_pt_shift]).
  rewrite E1, E2. set (s := match sp with None => edge_start_point e | Some q => e_param e q end). set (t := match ep with None => edge_end_point e | Some q => e_param e q end).
  clearbody s t. clear E1 E2. apply (bind_map (map mm)); [|reflexivity].
  change (e_geom (me e)) with (e_geom e). change (e_closed (me e)) with (e_closed e). change (e_reversed (me e)) with (e_reversed e).
  change (edge_start_param (me e)) with (edge_start_param e). change (edge_end_param (me e)) with (edge_end_param e).
  change (is_arc_clockwise2 (me e)) with (is_arc_clockwise2 e). change (edge_interpolation_count (me e) p) with (edge_interpolation_count e p).
  assert (L : Ok [mk_cut (from_vector (mv t)) (Some (from_vector (mv s))) a f] = rmap (map mm) (Ok [mk_cut (from_vector t) (Some (from_vector s)) a f])).
  { change (from_vector (mv s)) with (ma (from_vector s)). change (from_vector (mv t)) with (ma (from_vector t)). rewrite cut_shift. reflexivity. }
  destruct KM as [V _].
  destruct (e_geom e); try exact L; try reflexivity.
  1, 2: apply (bind_map (fun b : bool => b)); [symmetry; apply rmap_id|]; intros cw; destruct (e_closed e); [|rewrite V; destruct (k_veq K s t); [exact L|]].
  1, 3: unfold rmap; cbn [rbind map]; rewrite <- !arc_shift; reflexivity.
  1, 2: unfold rmap; cbn [rbind map]; rewrite <- !arc_shift; reflexivity.
  all: destruct (e_reversed e); unfold rmap; cbn [rbind]; rewrite <- cuts_through_shift, map_map; reflexivity.
Qed.
Lemma route_edges_shift j param es : forall first, route_edges K j first param (map me es) = rmap (map mm) (route_edges K j first param es).
Proof.
  induction es as [|e es IH]; intros first; [reflexivity|]. cbn [map route_edges]. apply (bind_map mpair); [apply route_edge_shift|].
  intros [c v]. apply (bind_map (map mm)); [apply IH|]. intros cs. cbn. rewrite map_app. reflexivity.
Qed.
Lemma index_map {A B} (g : A -> B) (f : A -> bool) (f' : B -> bool) l : (forall a, f' (g a) = f a) -> index_of f' (map g l) = index_of f l.
Proof. intros H. induction l as [|a l IH]; [reflexivity|]. cbn [map index_of]. rewrite H, IH. reflexivity. Qed.
Lemma shift_edges_shift es t : shift_edges K (map me es) (move_target d t) = rmap (map me) (shift_edges K es t).
Proof.
  unfold shift_edges.
  assert (E : match move_target d t with TEdge id _ => index_of (fun e => Nat.eqb (e_id e) id) (map me es) | TVertex v => index_of (fun e => k_veq K (edge_start_point e) v) (map me es) end =
    match t with TEdge id _ => index_of (fun e => Nat.eqb (e_id e) id) es | TVertex v => index_of (fun e => k_veq K (edge_start_point e) v) es end).
  { destruct t as [v|id q]; cbn [move_target]; apply index_map; intros e; [|reflexivity]. rewrite start_shift. apply KM. }
  rewrite E. destruct (match t with TEdge id _ => _ | TVertex v => _ end); [|reflexivity]. cbn. rewrite map_app, skipn_map, firstn_map. reflexivity.
Qed.
Lemma hd_map {A B} (g : A -> B) a l : hd (g a) (map g l) = g (hd a l). Proof. destruct l; reflexivity. Qed.
Lemma wire_edges_shift w : wire_edges (move_wire d w) = map me (wire_edges w). Proof. destruct w; reflexivity. Qed.
Definition mw (x : option (list motion * avec * vec)) := option_map (fun y => (map mm (fst (fst y)), ma (snd (fst y)), mv (snd y))) x.
Lemma route_wire_shift j so pe pp w : route_wire K j so (option_map mv pe) (ma pp) (move_wire d w) = rmap mw (route_wire K j so pe pp w).
Proof.
  unfold route_wire. rewrite wire_edges_shift. destruct (wire_edges w) as [|e0 es] eqn:Ew; [reflexivity|]. cbn [map]. change (me e0 :: map me es) with (map me (e0 :: es)).
  assert (EN : match option_map mv pe with Some v => k_nearest K v (move_wire d w) | None => None end =
               option_map (fun a => (fst a, move_target d (snd a))) (match pe with Some v => k_nearest K v w | None => None end)).
  { destruct pe as [v|]; [apply KM|reflexivity]. }
  rewrite EN. set (near := match pe with Some v => k_nearest K v w | None => None end). clearbody near. clear EN.
  assert (EP : match option_map (fun a => (fst a, move_target d (snd a))) near with Some (_, TEdge _ p) => Some p | _ => None end =
               match near with Some (_, TEdge _ p) => Some p | _ => None end) by (destruct near as [[x [v|id p]]|]; reflexivity).
  rewrite EP. set (param := match near with Some (_, TEdge _ p) => Some p | _ => None end). clearbody param. clear EP.
  match goal with |- _ = rmap mw (rbind (match ?l with _ => _ end) _) => set (lk := l) end.
  match goal with |- rbind (match ?l with _ => _ end) _ = _ => set (lk' := l) end.
  assert (EL : lk' = option_map (move_target d) lk).
  { unfold lk, lk'. destruct near as [[x t]|]; [|reflexivity]. cbn [option_map fst snd]. destruct so as [s|]; [|reflexivity]. destruct (_ && _)%bool; reflexivity. }
  clearbody lk lk'. subst lk'.
  apply (bind_map (fun x => (map mm (fst x), map me (snd x)))).
  - destruct lk as [t|]; cbn [option_map].
    + apply (bind_map (map me)); [apply shift_edges_shift|]. intros l. cbn [rmap rbind fst snd map]. rewrite hd_map. rewrite <- cut_shift.
      destruct (truthy param); [reflexivity|]. rewrite start_shift. reflexivity.
    + unfold rmap. cbn [rbind fst snd]. rewrite start_shift, rapid_to_shift. reflexivity.
  - intros [a l]. cbn [fst snd]. apply (bind_map (map mm)); [apply route_edges_shift|]. intros b. rewrite hd_map.
    apply (bind_map mpair).
    + destruct (truthy param); [apply route_edge_shift|]. rewrite last_map, end_pt_shift. reflexivity.
    + intros [c v]. unfold mpair. cbn [fst snd]. rewrite <- !map_app, last_end_shift. reflexivity.
Qed.
Lemma route_wires_from_shift j so ws : forall pe pp,
  route_wires_from K j so (option_map mv pe) (ma pp) (map (move_wire d) ws) = rmap (option_map (map mm)) (route_wires_from K j so pe pp ws).
Proof.
  induction ws as [|w ws IH]; intros pe pp; [reflexivity|]. cbn [map route_wires_from]. apply (bind_map mw); [apply route_wire_shift|].
  intros [[[c p] v]|]; [|reflexivity]. cbn [mw option_map fst snd]. apply (bind_map (option_map (map mm))); [exact (IH (Some v) p)|].
  intros [r|]; [cbn; rewrite map_app; reflexivity|reflexivity].
Qed.
Lemma wires_shift j ws so pp : route_wires K j (map (move_wire d) ws) so (option_map ma pp) = rmap (map mm) (route_wires K j ws so pp).
Proof.
  unfold route_wires. replace (dflt (option_map ma pp) av_none) with (ma (dflt pp av_none)) by (destruct pp; reflexivity).
  apply (bind_map (option_map (map mm))); [exact (route_wires_from_shift j so ws None _)|]. intros [r|]; reflexivity.
Qed.
End Kernel.

(** ** Holes *)
Lemma pick_from_shift p os : forall best, pick_from (mp p) (fst best, mp (snd best)) (map mp os) = mp (pick_from p best os).
Proof.
  induction os as [|o os IH]; intros best; [reflexivity|]. cbn [map pick_from fst snd]. rewrite dist2_shift.
  rewrite <- IH. destruct (qltb (dist2 p o) (fst best)); reflexivity.
Qed.
Lemma pick_nearest_shift p os : pick_nearest (mp p) (map mp os) = rmap mp (pick_nearest p os).
Proof. destruct os as [|o os]; [reflexivity|]. cbn [map pick_nearest]. rewrite dist2_shift. unfold rmap. cbn [rbind]. rewrite <- pick_from_shift. reflexivity. Qed.
Lemma find_shift p l : find_pt (mp p) (map mp l) = find_pt p l.
Proof. induction l as [|a l IH]; [reflexivity|]. cbn [map find_pt]. rewrite pt_eqb_shift, IH. reflexivity. Qed.
Lemma remove_shift p l : py_remove (mp p) (map mp l) = rmap (map mp) (py_remove p l).
Proof. unfold py_remove. rewrite find_shift. destruct (find_pt p l); [|reflexivity]. unfold rmap. cbn [rbind]. rewrite map_app, firstn_map, skipn_map. reflexivity. Qed.
Lemma order_shift fuel : forall l ps, order_points fuel (option_map mp l) (map mp ps) = rmap (map mp) (order_points fuel l ps).
Proof.
  induction fuel as [|fuel IH]; intros l ps; (destruct ps as [|p0 ps]; [reflexivity|]); [reflexivity|]. cbn [map order_points].
  change (mp p0 :: map mp ps) with (map mp (p0 :: ps)). apply (bind_map mp).
  { destruct l as [l|]; [apply pick_nearest_shift|reflexivity]. }
  intros p. apply (bind_map (map mp)); [apply remove_shift|]. intros r. apply (bind_map (map mp)); [exact (IH (Some p) r)|]. reflexivity.
Qed.
Lemma hole_shift_m j z pp p : hole j z (ma pp) (mp p) = map mm (hole j z pp p).
Proof. destruct pp as [[a|] [b|] [c|]]; reflexivity. Qed.
Lemma holes_shift j z ps : forall pp, holes j z (ma pp) (map mp ps) = map mm (holes j z pp ps).
Proof.
  induction ps as [|p ps IH]; intros pp; [reflexivity|]. cbn [map holes]. rewrite map_app, hole_shift_m, <- IH. reflexivity.
Qed.
End Shift.

Lemma to_world_shift top v c : plan (to_world top (vadd c v)) = move_pt (hole_shift top v) (plan (to_world top c)).
Proof. unfold plan, to_world, move_pt, hole_shift, vadd, vscale. cbn. f_equal; ring. Qed.
Definition plans (r : result (list vec)) : result path := rmap (map plan) r.
Lemma object_shift top v o : plans (object_vectors top (move_object v o)) = rmap (map (move_pt (hole_shift top v))) (plans (object_vectors top o)).
Proof.
  destruct o as [c|[c|]|outer inners|]; cbn [move_object object_vectors]; try reflexivity.
  1, 2: unfold plans, rmap; cbn [rbind map]; rewrite to_world_shift; reflexivity.
  destruct inners as [|i is_].
  - destruct outer as [c|]; [|reflexivity]. unfold plans, rmap. cbn [rbind map]. rewrite to_world_shift. reflexivity.
  - change (plans (mapM (fun c => do c <- c; Ok (to_world top c)) (map (rmap (fun c => vadd c v)) (i :: is_))) =
      rmap (map (move_pt (hole_shift top v))) (plans (mapM (fun c => do c <- c; Ok (to_world top c)) (i :: is_)))).
    unfold plans. generalize (i :: is_). intros l. induction l as [|[c|] l IH]; [reflexivity| |reflexivity].
    cbn [map mapM rmap rbind]. cbn [map] in IH. fold (@rmap vec vec (fun c => vadd c v)) in *.
    destruct (mapM (fun c0 => do c1 <- c0; Ok (to_world top c1)) (map (rmap (fun c0 => vadd c0 v)) l)) as [x|], (mapM (fun c0 => do c1 <- c0; Ok (to_world top c1)) l) as [y|];
      cbn in IH |- *; try discriminate IH; [|exact IH]. injection IH as IH. rewrite IH, to_world_shift. reflexivity.
Qed.
Lemma concat_plans top v os : rmap (fun vs => map plan (concat vs)) (mapM (object_vectors top) (map (move_object v) os)) =
  rmap (fun vs => map (move_pt (hole_shift top v)) (map plan (concat vs))) (mapM (object_vectors top) os).
Proof.
  induction os as [|o os IH]; [reflexivity|]. cbn [map mapM]. pose proof (object_shift top v o) as H. unfold plans in H.
  destruct (object_vectors top (move_object v o)) as [a|], (object_vectors top o) as [b|]; cbn in H; try discriminate H; [|exact H]. injection H as H. cbn [rbind].
  destruct (mapM (object_vectors top) (map (move_object v) os)) as [x|], (mapM (object_vectors top) os) as [y|]; cbn in IH |- *; try discriminate IH; [|exact IH].
  injection IH as IH. rewrite !map_app, H, IH. reflexivity.
Qed.
Lemma drill_shift v os z j : drill_gen (option_map (map (move_object v)) os) z j = rmap (map (move_command (hole_shift (j_top j) v))) (drill_gen os z j).
Proof.
  destruct os as [os|]; [|reflexivity]. cbn [option_map]. unfold drill_gen. destruct z as [z|]; [|reflexivity].
  pose proof (concat_plans (j_top j) v os) as H. destruct (mapM (object_vectors (j_top j)) (map (move_object v) os)) as [a|], (mapM (object_vectors (j_top j)) os) as [b|];
    cbn in H; try discriminate H; [|injection H as <-; reflexivity]. injection H as H. cbn [rbind]. set (dd := hole_shift (j_top j) v) in *.
  destruct (concat a) as [|p ps], (concat b) as [|q qs]; try discriminate H; [reflexivity|]. cbn zeta. rewrite H. rewrite map_length.
  apply (bind_map (map (move_pt dd))); [exact (order_shift dd _ None _)|]. intros o. unfold rmap. cbn [rbind]. f_equal. change av_none with (move_avec dd av_none) at 1.
  rewrite holes_shift, !map_map. reflexivity.
Qed.

(** ** Trees *)
Section Tree.
Context {A B : Type} (g : A -> B).
Definition map_node (n : node A) : node B := Node (g (n_obj n)) (n_parent n) (n_locked n).
Definition map_tree (t : tree A) : tree B := map map_node t.
Lemma lock_map t : forall i, lock (map_tree t) i = map_tree (lock t i).
Proof. induction t as [|n t IH]; intros [|i]; try reflexivity. cbn. f_equal. apply IH. Qed.
Lemma branch_map t i bs : branch (map_tree t) i (map g bs) = map_tree (branch t i bs).
Proof. unfold branch, map_tree. rewrite map_app, !map_map. reflexivity. Qed.
Lemma nth_map_tree t i : nth_error (map_tree t) i = option_map map_node (nth_error t i).
Proof. apply nth_error_map. Qed.
Lemma traverse_map fuel t : forall i, traverse fuel (map_tree t) i = traverse fuel t i.
Proof.
  induction fuel as [|fuel IH]; intros i; [reflexivity|]. cbn [traverse]. rewrite nth_map_tree. destruct (nth_error t i) as [n|]; [|reflexivity].
  cbn [option_map map_node n_parent]. destruct (n_parent n); [rewrite IH|]; reflexivity.
Qed.
Lemma leaves_map t : leaves (map_tree t) = leaves t.
Proof.
  unfold leaves, map_tree. rewrite map_length. assert (E : tree_parents (map map_node t) = tree_parents t); [|rewrite E; reflexivity].
  unfold tree_parents. induction t as [|n t IH]; [reflexivity|]. cbn [map flat_map]. rewrite IH. reflexivity.
Qed.
Lemma next_unlocked_map t : next_unlocked (map_tree t) = next_unlocked t.
Proof.
  unfold next_unlocked. rewrite leaves_map. induction (leaves t) as [|i l IH]; [reflexivity|]. cbn [find]. rewrite nth_map_tree, IH.
  destruct (nth_error t i); reflexivity.
Qed.
Lemma obj_at_map t i : obj_at (map_tree t) i = rmap g (obj_at t i).
Proof. unfold obj_at. rewrite nth_map_tree. destruct (nth_error t i); reflexivity. Qed.
Lemma sort_desc_map (l : list (list A)) : sort_desc (map (map g) l) = map (map g) (sort_desc l).
Proof.
  assert (I : forall x (l : list (list A)), insert_desc (map g x) (map (map g) l) = map (map g) (insert_desc x l)).
  { intros x k. induction k as [|y k IH]; [reflexivity|]. cbn [map insert_desc]. rewrite !map_length. destruct (_ <=? _)%nat; [reflexivity|]. cbn [map]. rewrite IH. reflexivity. }
  unfold sort_desc. induction l as [|x l IH]; [reflexivity|]. cbn [map fold_right]. rewrite IH. apply I.
Qed.
Context (eqa : A -> A -> bool) (eqb' : B -> B -> bool) (EQ : forall x y, eqb' (g x) (g y) = eqa x y).
Lemma existsb_map x l : existsb (eqb' (g x)) (map g l) = existsb (eqa x) l.
Proof. induction l as [|y l IH]; [reflexivity|]. cbn. rewrite EQ, IH. reflexivity. Qed.
Lemma filter_map_g used l : filter (fun x => negb (existsb (eqb' x) (map g used))) (map g l) = map g (filter (fun x => negb (existsb (eqa x) used)) l).
Proof. induction l as [|x l IH]; [reflexivity|]. cbn [map filter]. rewrite existsb_map, IH. destruct (existsb (eqa x) used); reflexivity. Qed.
Lemma sequences_loop_map fuel : forall cs used, sequences_loop eqb' fuel (map (map g) cs) (map g used) = map (map g) (sequences_loop eqa fuel cs used).
Proof.
  induction fuel as [|fuel IH]; intros cs used; [reflexivity|]. cbn [sequences_loop]. rewrite sort_desc_map. destruct (sort_desc cs) as [|l r]; [reflexivity|].
  cbn [map]. f_equal. rewrite <- map_app, <- IH. f_equal. rewrite !map_map. apply map_ext. intros x. apply filter_map_g.
Qed.
Lemma sequences_map t : sequences eqb' (map_tree t) = rmap (map (map g)) (sequences eqa t).
Proof.
  unfold sequences. apply (bind_map (map (map g))).
  - rewrite leaves_map. rewrite <- (map_id (leaves t)) at 1. apply mapM_map. intros i. unfold traverse_and_unwrap. rewrite traverse_map. unfold map_tree at 1. rewrite map_length.
    destruct (traverse _ t i) as [l|]; [|reflexivity]. cbn [rbind]. rewrite <- (map_id l) at 1. apply mapM_map. intros k. apply obj_at_map.
  - intros c. unfold rmap. cbn [rbind]. rewrite map_length. f_equal. exact (sequences_loop_map _ c []).
Qed.
End Tree.

(** ** Pockets *)
Section Pocket.
Context (d : pt) (E : engine) (EM : engine_moves E d).
Notation mp := (move_pt d). Notation mpa := (move_path d). Notation mf := (move_face d).
Lemma close_shift p : close_path (mpa p) = rmap mpa (close_path p).
Proof.
  destruct p as [|a p]; [reflexivity|]. unfold close_path. cbn [move_path map]. change (mp a :: map mp p) with (map mp (a :: p)).
  rewrite last_map, pt_eqb_shift. destruct (negb _); [|reflexivity]. unfold rmap. cbn [rbind]. unfold move_path. rewrite map_app. reflexivity.
Qed.
Lemma offset_path_shift p o n : offset_path E (mpa p) o n = rmap (map mpa) (offset_path E p o n).
Proof.
  unfold offset_path. apply (bind_map (map mpa)); [apply EM|]. intros raw.
  assert (Fi : filter (fun p => match p with [] => false | _ => true end) (map mpa raw) = map mpa (filter (fun p => match p with [] => false | _ => true end) raw)).
  { induction raw as [|[|x q] raw IH]; [reflexivity|exact IH|]. cbn. rewrite IH. reflexivity. }
  rewrite Fi. apply mapM_map. apply close_shift.
Qed.
Lemma faces_of_shift t z : poly_tree_to_poly_faces (map (move_node d) t) z = rmap (map mf) (poly_tree_to_poly_faces t z).
Proof.
  unfold poly_tree_to_poly_faces. apply mapM_map. intros [c l]. cbn [move_node contour children]. apply (bind_map mpa); [apply close_shift|]. intros o.
  apply (bind_map (map mpa)); [|reflexivity]. apply mapM_map. intros [c' l']. apply close_shift.
Qed.
Lemma union_shift s c z : union_poly_tree E (map mpa s) (map mpa c) z = rmap (map mf) (union_poly_tree E s c z).
Proof. unfold union_poly_tree. apply (bind_map (map (move_node d))); [apply EM|]. intros t. apply faces_of_shift. Qed.
Lemma difference_shift s c z : difference_poly_tree E (map mpa s) (map mpa c) z = rmap (map mf) (difference_poly_tree E s c z).
Proof. unfold difference_poly_tree. apply (bind_map (map (move_node d))); [apply EM|]. intros t. apply faces_of_shift. Qed.
Lemma flatten_shift (l : list (list path)) : flatten_list (map (map mpa) l) = map mpa (flatten_list l).
Proof. symmetry. apply concat_map. Qed.
Lemma offset_polyface_shift f o i n : offset_polyface E (mf f) o i n = rmap (map mf) (offset_polyface E f o i n).
Proof.
  unfold offset_polyface. apply (bind_map (map mpa)); [apply offset_path_shift|]. intros os. cbn [move_face pf_inners pf_depth].
  destruct (pf_inners f) as [|x xs]; [unfold rmap; cbn [rbind map]; rewrite !map_map; reflexivity|]. cbn [map]. change (mpa x :: map mpa xs) with (map mpa (x :: xs)).
  apply (bind_map (map (map mpa))); [apply mapM_map; intros; apply offset_path_shift|]. intros ins. rewrite flatten_shift. apply difference_shift.
Qed.
Definition mdict (m : depth_dict) : depth_dict := map (fun kv => (fst kv, map mf (snd kv))) m.
Lemma dict_get_shift m z : dict_get (mdict m) z = map mf (dict_get m z).
Proof. induction m as [|[k fs] m IH]; [reflexivity|]. cbn. destruct (qeqb k z); [reflexivity|exact IH]. Qed.
Lemma dict_append_shift m z fs : dict_append (mdict m) z (map mf fs) = mdict (dict_append m z fs).
Proof. induction m as [|[k gs] m IH]; [reflexivity|]. cbn. destruct (qeqb k z); cbn; [rewrite map_app; reflexivity|]. f_equal. exact IH. Qed.
Lemma group_shift fs : forall m, group_by_depth (map mf fs) (mdict m) = rmap mdict (group_by_depth fs m).
Proof.
  induction fs as [|f fs IH]; intros m; [reflexivity|]. cbn [map group_by_depth move_face pf_depth]. destruct (qltb 0 (pf_depth f)); [reflexivity|].
  rewrite <- IH, <- dict_append_shift. reflexivity.
Qed.
Lemma depth_map_shift fs : generate_depth_map (map mf fs) = rmap (fun x => (mdict (fst x), snd x)) (generate_depth_map fs).
Proof.
  unfold generate_depth_map. apply (bind_map mdict); [exact (group_shift fs [])|]. intros m. unfold rmap. cbn [rbind fst snd]. unfold mdict at 2. rewrite map_map. reflexivity.
Qed.
Lemma outers_shift fs : map pf_outer (map mf fs) = map mpa (map pf_outer fs). Proof. rewrite !map_map. reflexivity. Qed.
Lemma inners_shift fs : flatten_list (map pf_inners (map mf fs)) = map mpa (flatten_list (map pf_inners fs)).
Proof. rewrite <- flatten_shift, !map_map. reflexivity. Qed.
Lemma combine_shift fs z : combine_outers E (map mf fs) z = rmap (map mpa) (combine_outers E fs z).
Proof. unfold combine_outers. rewrite outers_shift. apply (bind_map (map mf)); [exact (union_shift _ [] z)|]. intros u. rewrite outers_shift. reflexivity. Qed.
Lemma add_deeper_shift z subs : forall m, add_deeper (mdict m) z subs = mdict (add_deeper m z subs).
Proof. induction subs as [|s subs IH]; intros m; [reflexivity|]. cbn [add_deeper]. rewrite dict_get_shift, dict_append_shift. apply IH. Qed.
Lemma levels_shift am ads ds : forall m, build_levels E (mdict m) (mdict am) ads ds = rmap (map mf) (build_levels E m am ads ds).
Proof.
  induction ds as [|z ds IH]; intros m; [reflexivity|]. cbn [build_levels]. rewrite add_deeper_shift, dict_get_shift. set (m' := add_deeper m z ds).
  apply (bind_map (map mpa)); [apply combine_shift|]. intros ops. rewrite inners_shift.
  apply (bind_map (map mf)).
  - rewrite <- difference_shift. f_equal. destruct ads as [|a ads]; [reflexivity|]. rewrite map_app. f_equal.
    rewrite <- outers_shift. f_equal. induction (filter (fun a0 => qleb z a0) (a :: ads)) as [|b l IHl]; [reflexivity|]. cbn [flat_map]. rewrite dict_get_shift, map_app, IHl. reflexivity.
  - intros o. apply (bind_map (map mf)); [apply IH|]. intros r. cbn. rewrite map_app. reflexivity.
Qed.
Lemma pocket_ops_shift ops avs : build_pocket_ops E (map mf ops) (map mf avs) = rmap (map mf) (build_pocket_ops E ops avs).
Proof.
  unfold build_pocket_ops. apply (bind_map (fun x => (mdict (fst x), snd x))); [apply depth_map_shift|]. intros [m ds].
  apply (bind_map (fun x => (mdict (fst x), snd x))); [apply depth_map_shift|]. intros [am ads]. apply levels_shift.
Qed.
Lemma next_shift pk st n p : next_contours E (mf pk) st n (mpa p) = rmap (map mpa) (next_contours E pk st n p).
Proof.
  unfold next_contours. apply (bind_map (map mpa)); [apply offset_path_shift|]. intros c. cbn [move_face pf_inners].
  destruct c as [|c cs]; [reflexivity|]. destruct (pf_inners pk) as [|i is_]; [reflexivity|]. cbn [map].
  apply (bind_map (map mf)); [exact (difference_shift (c :: cs) (i :: is_) 0)|]. intros fs. rewrite outers_shift. reflexivity.
Qed.
Notation mo := (fun o : nat * pathface => (fst o, mf (snd o))).
Lemma new_contours_shift z n os : new_contours z n (map mpa os) = map mo (new_contours z n os).
Proof.
  unfold new_contours. rewrite map_length, !map_map. generalize (seq n (length os)). induction os as [|o os IH]; intros [|k l]; try reflexivity.
  cbn [map combine]. f_equal. apply IH.
Qed.
Lemma fill_loop_shift next next' z fuel : (forall p, next' (mpa p) = rmap (map mpa) (next p)) -> forall t,
  fill_loop next' z fuel (map_tree mo t) = rmap (map_tree mo) (fill_loop next z fuel t).
Proof.
  intros H. induction fuel as [|fuel IH]; intros t; [reflexivity|]. cbn [fill_loop]. rewrite next_unlocked_map. destruct (next_unlocked t) as [i|]; [|reflexivity].
  apply (bind_map mo); [apply obj_at_map|]. intros o. apply (bind_map (map mpa)); [apply H|]. intros os. rewrite <- IH. f_equal.
  destruct os as [|x os]; cbn [map]; [apply lock_map|]. change (mpa x :: map mpa os) with (map mpa (x :: os)).
  rewrite <- branch_map, <- new_contours_shift. unfold map_tree at 2. rewrite map_length. reflexivity.
Qed.
Lemma fill_shift fuel pk st n : fill_pocket_contour_shrink E fuel (mf pk) st n = rmap (map (map mf)) (fill_pocket_contour_shrink E fuel pk st n).
Proof.
  unfold fill_pocket_contour_shrink. apply (bind_map (map_tree mo)).
  - exact (fill_loop_shift _ _ _ fuel (next_shift pk st n) (new_tree (O, PF (pf_outer pk) [] (pf_depth pk)))).
  - intros t. apply (bind_map (map (map mo))); [apply sequences_map; reflexivity|]. intros ss. unfold rmap. cbn [rbind]. rewrite !map_map. f_equal.
    apply map_ext. intros l. rewrite !map_map. reflexivity.
Qed.
Lemma filterM_shift (h h' : pathface -> result bool) l : (forall f, h' (mf f) = h f) -> filterM h' (map mf l) = rmap (map mf) (filterM h l).
Proof.
  intros H. induction l as [|a l IH]; [reflexivity|]. cbn [map filterM]. rewrite H. destruct (h a) as [b|]; [|reflexivity]. cbn [rbind].
  apply (bind_map (map mf)); [exact IH|]. intros r. destruct b; reflexivity.
Qed.
Lemma depths_shift l : map pf_depth (map mf l) = map pf_depth l. Proof. rewrite map_map. reflexivity. Qed.
Lemma start_depth_shift op sh : determine_stepdown_start_depth E (mf op) (map mf sh) = determine_stepdown_start_depth E op sh.
Proof.
  unfold determine_stepdown_start_depth. rewrite (filterM_shift (fun s => en_contains E s op) (fun s => en_contains E s (mf op))) by (intros; apply EM).
  destruct (filterM _ sh); [|reflexivity]. cbn. rewrite depths_shift. reflexivity.
Qed.
Lemma stepdown_shift ss st s : apply_stepdown (map (map mf) ss) st s = rmap (map (map mf)) (apply_stepdown ss st s).
Proof.
  unfold apply_stepdown. rewrite <- concat_map, depths_shift. destruct (map pf_depth (concat ss)) as [|z zs]; [reflexivity|]. destruct (forallb _ _); [|reflexivity].
  unfold rmap. cbn [rbind]. f_equal. induction (arange _ _ _) as [|x l IH]; [reflexivity|]. cbn [flat_map]. rewrite IH, map_app. f_equal. rewrite !map_map. apply map_ext. intros k. rewrite !map_map. reflexivity.
Qed.
Lemma fill_ops_shift fuel n so sd ops : forall sh, fill_ops E fuel n so sd (map mf sh) (map mf ops) = rmap (map (map mf)) (fill_ops E fuel n so sd sh ops).
Proof.
  induction ops as [|op ops IH]; intros sh; [reflexivity|]. cbn [map fill_ops]. apply (bind_map (map (map mf))); [apply fill_shift|]. intros fill.
  apply (bind_map (map (map mf))).
  - destruct sd as [s|]; [|reflexivity]. destruct (qeqb s 0); [reflexivity|]. rewrite start_depth_shift. destruct (determine_stepdown_start_depth E op sh); [|reflexivity].
    apply stepdown_shift.
  - intros st. apply (bind_map (map (map mf))); [change [mf op] with (map mf [op]); rewrite <- map_app; apply IH|]. intros r. cbn. rewrite !map_app. reflexivity.
Qed.
Lemma pocket_shift fuel j ops avs a b c e so sd :
  pocket_clipper E fuel j (map mf ops) (map mf avs) a b c e so sd = rmap (map (move_motion d)) (pocket_clipper E fuel j ops avs a b c e so sd).
Proof.
  unfold pocket_clipper. apply (bind_map (map (map mf))); [apply mapM_map; intros; apply offset_polyface_shift|]. intros os.
  apply (bind_map (map (map mf))); [apply mapM_map; intros; apply offset_polyface_shift|]. intros vs. rewrite <- !concat_map.
  apply (bind_map (map mf)); [apply pocket_ops_shift|]. intros po. apply (bind_map (map (map mf))); [exact (fill_ops_shift fuel _ so sd po [])|]. intros ss.
  exact (route_sequences_shift d j so ss false av_none).
Qed.
End Pocket.
