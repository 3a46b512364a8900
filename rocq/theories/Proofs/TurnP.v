From Verif Require Import Base.Str Base.Py Model.Groups Model.Geometry Model.Plane Model.Edges Model.Command Model.Job Model.Interp Model.Tree Model.Routers Model.Linked Model.Strategy Model.Drill Model.Pocket
  Spec.Paths Spec.Drills Spec.Turn Proofs.AlikeP Proofs.ShiftP Proofs.FillP Proofs.DrillP Proofs.PartsP.
Local Open Scope Qc_scope.
Local Open Scope list_scope.

Section Turn.
Context (T : pt -> pt) (RT : rigid T).
Notation ma := (turn_avec T). Notation mm := (turn_motion T). Notation mv := (turn_vec T).

(** ** Points *)
Definition dotv (p v w : pt) : Qc := (fst p - fst v) * (fst w - fst v) + (snd p - snd v) * (snd w - snd v).
Lemma dot_turn p v w : dotv (T p) (T v) (T w) = dotv p v w.
Proof.
  destruct RT as (c & s & m & d & C & M & E). rewrite !E. unfold dotv, turned. cbn [fst snd].
  destruct p as [p1 p2], v as [v1 v2], w as [w1 w2]. cbn [fst snd].
  transitivity ((c * (p1 - v1) - s * (p2 - v2)) * (c * (w1 - v1) - s * (w2 - v2)) + (m * m) * ((s * (p1 - v1) + c * (p2 - v2)) * (s * (w1 - v1) + c * (w2 - v2)))); [ring|].
  rewrite M. transitivity ((c * c + s * s) * ((p1 - v1) * (w1 - v1) + (p2 - v2) * (w2 - v2))); [ring|]. rewrite C. ring.
Qed.
Lemma dist2_turn a b : dist2 (T a) (T b) = dist2 a b.
Proof. exact (dot_turn a b a). Qed.
Lemma seg_turn a b : segment_length_squared (T a) (T b) = segment_length_squared a b.
Proof. exact (dot_turn b a b). Qed.
Lemma sqd_turn a b : sqd (T a) (T b) = sqd a b.
Proof.
  assert (H : forall a b, sqd a b = dotv a b a) by (intros; unfold sqd, dotv; ring). rewrite !H. exact (dot_turn a b a).
Qed.
Lemma turn_inj a b : T a = T b -> a = b.
Proof.
  intros H. assert (Z : dist2 a b = 0) by (rewrite <- dist2_turn, H; unfold dist2; ring). unfold dist2 in Z.
  destruct a as [x y], b as [x' y']. cbn [fst snd] in Z.
  assert (S : forall u v : Qc, u * u + v * v = 0 -> u = 0).
  { intros u v Q. assert (U : u * u = 0) by (apply Qcle_antisym; qnra). apply Qcmult_integral in U as [U|U]; exact U. }
  assert (A : x - x' = 0) by exact (S _ _ Z). assert (B : y - y' = 0) by (apply (S _ (x - x')); rewrite <- Z; ring).
  f_equal; [replace x with (x' + (x - x')) by ring; rewrite A|replace y with (y' + (y - y')) by ring; rewrite B]; ring.
Qed.
Lemma pt_eqb_turn a b : pt_eqb (T a) (T b) = pt_eqb a b.
Proof.
  destruct (pt_eqb a b) eqn:Q; [apply pt_eqb_iff in Q; subst; apply pt_eqb_iff; reflexivity|].
  destruct (pt_eqb (T a) (T b)) eqn:Q2; [|reflexivity]. apply pt_eqb_iff, turn_inj in Q2. subst. rewrite (proj2 (pt_eqb_iff b b) eq_refl) in Q. discriminate.
Qed.
Lemma foot_turn p v w : foot (T p) (T v) (T w) = foot p v w.
Proof. unfold foot. rewrite dist2_turn. f_equal. exact (dot_turn p v w). Qed.
Lemma at_foot_turn v w t : at_foot (T v) (T w) t = T (at_foot v w t).
Proof. destruct RT as (c & s & m & d & C & M & E). rewrite !E. unfold at_foot, turned. cbn [fst snd]. f_equal; ring. Qed.
Lemma nearest_turn p v w : dist_to_segment_squared (T p) (T v) (T w) = rmap (fun x => (fst x, T (snd x))) (dist_to_segment_squared p v w).
Proof.
  rewrite !nearest_form, foot_turn, at_foot_turn, !dist2_turn. destruct (qeqb (dist2 v w) 0); reflexivity.
Qed.
Lemma nearest_step i p a b path best : distance_to_path_from i p (a :: b :: path) best =
  rbind (dist_to_segment_squared p a b) (fun x => distance_to_path_from (S i) p (b :: path)
    (if match best with None => true | Some (dd, _, _) => qltb (fst x) dd end
     then Some (fst x, snd x, (i, segment_length_squared a (snd x) / segment_length_squared a b)) else best)).
Proof. cbn [distance_to_path_from]. destruct (dist_to_segment_squared p a b) as [[? ?]|]; reflexivity. Qed.
Lemma nearest_from_turn p path : forall i best,
  distance_to_path_from i (T p) (turn_path T path) (option_map (fun x => (fst (fst x), T (snd (fst x)), snd x)) best) =
  rmap (option_map (fun x => (fst (fst x), T (snd (fst x)), snd x))) (distance_to_path_from i p path best).
Proof.
  induction path as [|a [|b path] IH]; intros i best; [reflexivity|reflexivity|]. cbn [turn_path map]. rewrite !nearest_step, nearest_turn.
  apply (bind_map (fun x => (fst x, T (snd x)))); [reflexivity|]. intros [sd sc]. cbn [fst snd]. change (T b :: map T path) with (turn_path T (b :: path)).
  rewrite <- IH. f_equal. rewrite !seg_turn. destruct best as [[[x c] n]|]; cbn [option_map fst snd]; [destruct (qltb sd x); reflexivity|reflexivity].
Qed.
Lemma distance_turn p path : distance_to_path (T p) (turn_path T path) = rmap (option_map (fun x => (fst (fst x), T (snd (fst x)), snd x))) (distance_to_path p path).
Proof. exact (nearest_from_turn p path 0%nat None). Qed.

(** ** Moves *)
Definition whole (v : avec) : Prop := match ax v, ay v with Some _, Some _ | None, None => True | _, _ => False end.
Lemma init_turn en st : whole en -> init_motion (ma en) (Some (ma st)) = (ma (fst (init_motion en (Some st))), ma (snd (init_motion en (Some st)))).
Proof. destruct en as [[x|] [y|] [z|]], st as [[a|] [b|] [c|]]; intros W; try contradiction W; reflexivity. Qed.
Lemma end_turn m : m_end (mm m) = ma (m_end m). Proof. destruct m; reflexivity. Qed.
Lemma last_end_turn ms p : last_end (map mm ms) (ma p) = ma (last_end ms p).
Proof. unfold last_end. rewrite <- map_rev. destruct (rev ms); [reflexivity|apply end_turn]. Qed.
Lemma cut_turn en st a f : whole en -> mk_cut (ma en) (Some (ma st)) a f = mm (mk_cut en (Some st) a f).
Proof. intros W. unfold mk_cut. rewrite init_turn by exact W. reflexivity. Qed.
Lemma rapid_turn en st a : whole en -> mk_rapid (ma en) (Some (ma st)) a = mm (mk_rapid en (Some st) a).
Proof. intros W. unfold mk_rapid. rewrite init_turn by exact W. reflexivity. Qed.
Lemma pair_turn p : T (fst p, snd p) = T p. Proof. destruct p; reflexivity. Qed.
Lemma cut_abs_turn p z st a f : cut_abs (Some (fst (T p))) (Some (snd (T p))) z (Some (ma st)) a f = mm (cut_abs (Some (fst p)) (Some (snd p)) z (Some st) a f).
Proof. pose proof (cut_turn (AV (Some (fst p)) (Some (snd p)) z) st a f I) as H. unfold turn_avec at 1 in H. cbn [ax ay az] in H. rewrite pair_turn in H. exact H. Qed.
Lemma retract_turn z st a : retract_abs z (Some (ma st)) a = mm (retract_abs z (Some st) a).
Proof. unfold retract_abs. change (AV None None z) with (ma (AV None None z)) at 1. rewrite init_turn by exact I. reflexivity. Qed.
Lemma plunge_rapid_turn z st a : plunge_rapid_abs z (Some (ma st)) a = mm (plunge_rapid_abs z (Some st) a).
Proof. unfold plunge_rapid_abs. change (AV None None z) with (ma (AV None None z)) at 1. rewrite init_turn by exact I. reflexivity. Qed.
Lemma plunge_cut_turn z st a f : plunge_cut_abs z (Some (ma st)) a f = mm (plunge_cut_abs z (Some st) a f).
Proof. unfold plunge_cut_abs. change (AV None None z) with (ma (AV None None z)) at 1. rewrite init_turn by exact I. reflexivity. Qed.
Lemma differs_turn p e : (differs (ax (ma p)) (vx (mv e)) || differs (ay (ma p)) (vy (mv e)))%bool = (differs (ax p) (vx e) || differs (ay p) (vy e))%bool.
Proof.
  destruct p as [[x|] [y|] z]; unfold turn_avec; cbn [ax ay]; try (rewrite ?orb_true_r; reflexivity).
  pose proof (pt_eqb_turn (x, y) (vx e, vy e)) as H. unfold pt_eqb in H. cbn [fst snd] in H. unfold differs, turn_vec. cbn [vx vy].
  apply (f_equal negb) in H. rewrite !negb_andb in H. exact H.
Qed.
Lemma rapid_to_turn s e r sa f : rapid_to (ma s) (mv e) r sa f = map mm (rapid_to s e r sa f).
Proof.
  unfold rapid_to. rewrite retract_turn, end_turn. set (R := retract_abs _ _ _). set (p := m_end R). clearbody p R.
  rewrite differs_turn.
  set (W := if (differs (ax p) (vx e) || differs (ay p) (vy e))%bool then [rapid_abs (Some (vx e)) (Some (vy e)) None (Some p) true] else []).
  assert (ET : (if (differs (ax p) (vx e) || differs (ay p) (vy e))%bool then [rapid_abs (Some (vx (mv e))) (Some (vy (mv e))) None (Some (ma p)) true] else []) = map mm W).
  { unfold W. destruct (differs (ax p) (vx e) || differs (ay p) (vy e))%bool; [|reflexivity]. cbn [map]. f_equal. exact (rapid_turn (AV (Some (vx e)) (Some (vy e)) None) p true I). }
  rewrite ET. clearbody W. clear ET. rewrite last_end_turn. set (q := last_end W p). clearbody q. cbn [map]. f_equal. rewrite map_app. f_equal.
  destruct sa as [sa|]; [|cbn [map]; rewrite plunge_cut_turn; reflexivity]. cbn [map]. rewrite plunge_rapid_turn, end_turn. f_equal.
  change (vz (mv e)) with (vz e). destruct (qltb _ _); [|reflexivity]. cbn [map]. rewrite plunge_cut_turn. reflexivity.
Qed.

(** ** Contours *)
Lemma cut_poly_turn z f ps : forall st, cut_poly z f (ma st) (map T ps) = map mm (cut_poly z f st ps).
Proof.
  induction ps as [|[x y] ps IH]; intros st; [reflexivity|]. cbn [map cut_poly]. destruct (T (x, y)) as [x' y'] eqn:Q.
  pose proof (cut_abs_turn (x, y) (Some z) st false (Some f)) as C. rewrite Q in C. cbn [fst snd] in C. rewrite C, end_turn, IH. reflexivity.
Qed.
Lemma shift_polygon_turn p i : shift_polygon (turn_path T p) i = turn_path T (shift_polygon p i).
Proof.
  unfold shift_polygon, turn_path. assert (R : forall l, removelast (map T l) = map T (removelast l)).
  { induction l as [|a [|b l] IH]; [reflexivity|reflexivity|]. cbn [map] in *. cbn [removelast]. cbn [removelast] in IH. rewrite IH. reflexivity. }
  rewrite R, map_app, skipn_map, firstn_map. reflexivity.
Qed.
Definition m3 (x : list motion * avec * pt) := (map mm (fst (fst x)), ma (snd (fst x)), T (snd x)).
Lemma route_polyface_turn j so pe pp f : route_polyface j so (option_map T pe) (ma pp) (turn_face T f) = rmap m3 (route_polyface j so pe pp f).
Proof.
  unfold route_polyface. cbn [turn_face pf_outer pf_depth]. destruct (pf_outer f) as [|p0 ps] eqn:Ef; [reflexivity|]. cbn [turn_path map].
  change (T p0 :: map T ps) with (turn_path T (p0 :: ps)).
  apply (bind_map (option_map (fun x => (fst (fst x), T (snd (fst x)), snd x)))).
  { destruct pe as [e|]; [apply distance_turn|reflexivity]. }
  intros near.
  set (lk := match near with Some (x, c, (i, _)) => match so with Some s => if (truthy so && truthy (Some x) && qleb x s)%bool then Some (c, i) else None | None => None end | None => None end).
  match goal with |- (let '(_, _) := match ?l with _ => _ end in _) = _ => set (lk' := l) end.
  assert (EL : lk' = option_map (fun x => (T (fst x), snd x)) lk).
  { unfold lk', lk. destruct near as [[[x c] [i q]]|]; [|reflexivity]. cbn [option_map fst snd]. destruct so as [s|]; [|reflexivity]. destruct (_ && _)%bool; reflexivity. }
  clearbody lk lk'. subst lk'.
  match goal with |- _ = rmap m3 (let '(_, _) := ?l in _) => set (AP := l) end.
  match goal with |- (let '(_, _) := ?l in _) = _ => set (AP' := l) end.
  assert (EA : AP' = (map mm (fst AP), turn_path T (snd AP))).
  { unfold AP', AP. destruct lk as [[c i]|]; cbn [option_map fst snd].
    - rewrite cut_abs_turn, shift_polygon_turn. reflexivity.
    - rewrite <- rapid_to_turn. unfold turn_vec. cbn [vx vy vz]. rewrite pair_turn. reflexivity. }
  clearbody AP AP'. subst AP'. destruct AP as [a poly]. cbn [fst snd]. rewrite last_end_turn.
  assert (TL : tl (turn_path T poly) = map T (tl poly)) by (destruct poly; reflexivity). rewrite TL, cut_poly_turn, last_end_turn.
  set (b := cut_poly _ _ _ _). set (q := last_end b _). clearbody q. clearbody b.
  destruct near as [[[x c] n]|]; cbn [option_map fst snd].
  - rewrite cut_abs_turn. set (k := cut_abs _ _ _ _ _ _). clearbody k. unfold rmap. cbn [rbind]. unfold m3. cbn [fst snd].
    rewrite <- last_end_turn. rewrite !map_app. cbn [map]. reflexivity.
  - unfold rmap. cbn [rbind]. unfold m3. cbn [fst snd]. rewrite <- last_end_turn, !map_app. unfold turn_path. rewrite last_map. reflexivity.
Qed.
Lemma route_polyfaces_turn j so fs : forall pe pp,
  route_polyfaces_from j so (option_map T pe) (ma pp) (map (turn_face T) fs) = rmap (map mm) (route_polyfaces_from j so pe pp fs).
Proof.
  induction fs as [|f fs IH]; intros pe pp; [reflexivity|]. cbn [map route_polyfaces_from]. apply (bind_map m3); [apply route_polyface_turn|].
  intros [[c p] w]. unfold m3. cbn [fst snd]. apply (bind_map (map mm)); [exact (IH (Some w) p)|]. intros r. cbn. rewrite map_app. reflexivity.
Qed.
Lemma contours_turn j fs so pp : route_polyface_outers j (map (turn_face T) fs) so (option_map ma pp) = rmap (map mm) (route_polyface_outers j fs so pp).
Proof.
  unfold route_polyface_outers. replace (dflt (option_map ma pp) av_none) with (ma (dflt pp av_none)) by (destruct pp; reflexivity).
  exact (route_polyfaces_turn j so fs None _).
Qed.
Lemma route_sequences_turn j so ss : forall done pp,
  route_sequences j so done (ma pp) (map (map (turn_face T)) ss) = rmap (map mm) (route_sequences j so done pp ss).
Proof.
  induction ss as [|s ss IH]; intros done pp; [reflexivity|]. cbn [map route_sequences]. apply (bind_map (map mm)); [exact (contours_turn j s (Some so) (Some pp))|].
  intros c. rewrite last_end_turn. destruct c as [|m c]; cbn [map].
  - destruct done; [|reflexivity]. apply (bind_map (map mm)); [apply IH|]. reflexivity.
  - apply (bind_map (map mm)); [apply IH|]. intros r. cbn. rewrite map_app. reflexivity.
Qed.

(** ** Holes *)
Lemma pick_from_turn p os : forall best, pick_from (T p) (fst best, T (snd best)) (map T os) = T (pick_from p best os).
Proof.
  induction os as [|o os IH]; intros best; [reflexivity|]. cbn [map pick_from fst snd]. rewrite dist2_turn.
  rewrite <- IH. destruct (qltb (dist2 p o) (fst best)); reflexivity.
Qed.
Lemma pick_nearest_turn p os : pick_nearest (T p) (map T os) = rmap T (pick_nearest p os).
Proof. destruct os as [|o os]; [reflexivity|]. cbn [map pick_nearest]. rewrite dist2_turn. unfold rmap. cbn [rbind]. rewrite <- pick_from_turn. reflexivity. Qed.
Lemma find_turn p l : find_pt (T p) (map T l) = find_pt p l.
Proof. induction l as [|a l IH]; [reflexivity|]. cbn [map find_pt]. rewrite pt_eqb_turn, IH. reflexivity. Qed.
Lemma remove_turn p l : py_remove (T p) (map T l) = rmap (map T) (py_remove p l).
Proof. unfold py_remove. rewrite find_turn. destruct (find_pt p l); [|reflexivity]. unfold rmap. cbn [rbind]. rewrite map_app, firstn_map, skipn_map. reflexivity. Qed.
Lemma order_turn fuel : forall l ps, order_points fuel (option_map T l) (map T ps) = rmap (map T) (order_points fuel l ps).
Proof.
  induction fuel as [|fuel IH]; intros l ps; (destruct ps as [|p0 ps]; [reflexivity|]); [reflexivity|]. cbn [map order_points].
  change (T p0 :: map T ps) with (map T (p0 :: ps)). apply (bind_map T).
  { destruct l as [l|]; [apply pick_nearest_turn|reflexivity]. }
  intros p. apply (bind_map (map T)); [apply remove_turn|]. intros r. apply (bind_map (map T)); [exact (IH (Some p) r)|]. reflexivity.
Qed.
Lemma hole_turn_m j z pp p : hole j z (ma pp) (T p) = map mm (hole j z pp p).
Proof.
  unfold hole. cbn zeta.
  assert (R : forall st z, rapid_abs None None z (Some (ma st)) false = mm (rapid_abs None None z (Some st) false)) by (intros st z0; exact (rapid_turn (AV None None z0) st false I)).
  rewrite R, end_turn. set (c1 := rapid_abs None None (Some (j_op_safe_height j)) (Some pp) false). set (e1 := m_end c1). clearbody c1 e1.
  assert (A : rapid_abs (Some (fst (T p))) (Some (snd (T p))) None (Some (ma e1)) false = mm (rapid_abs (Some (fst p)) (Some (snd p)) None (Some e1) false)).
  { pose proof (rapid_turn (AV (Some (fst p)) (Some (snd p)) None) e1 false I) as H. unfold turn_avec at 1 in H. cbn [ax ay az] in H. rewrite pair_turn in H. exact H. }
  rewrite A, end_turn, R, end_turn, plunge_cut_turn. reflexivity.
Qed.
Lemma holes_turn j z ps : forall pp, holes j z (ma pp) (map T ps) = map mm (holes j z pp ps).
Proof.
  induction ps as [|p ps IH]; intros pp; [reflexivity|]. cbn [map holes]. rewrite map_app, hole_turn_m, <- IH. reflexivity.
Qed.
End Turn.

(** ** Pockets *)
Section Pocket.
Context (T : pt -> pt) (RT : rigid T) (E : engine) (EM : engine_turns T E).
 Notation mpa := (turn_path T). Notation mf := (turn_face T).
Lemma close_turn p : close_path (mpa p) = rmap mpa (close_path p).
Proof.
  destruct p as [|a p]; [reflexivity|]. unfold close_path. cbn [turn_path map]. change (T a :: map T p) with (map T (a :: p)).
  rewrite last_map, (pt_eqb_turn T RT). destruct (negb _); [|reflexivity]. unfold rmap. cbn [rbind]. unfold turn_path. rewrite map_app. reflexivity.
Qed.
Lemma offset_path_turn p o n : offset_path E (mpa p) o n = rmap (map mpa) (offset_path E p o n).
Proof.
  unfold offset_path. apply (bind_map (map mpa)); [apply EM|]. intros raw.
  assert (Fi : filter (fun p => match p with [] => false | _ => true end) (map mpa raw) = map mpa (filter (fun p => match p with [] => false | _ => true end) raw)).
  { induction raw as [|[|x q] raw IH]; [reflexivity|exact IH|]. cbn. rewrite IH. reflexivity. }
  rewrite Fi. apply mapM_map. apply close_turn.
Qed.
Lemma faces_of_turn t z : poly_tree_to_poly_faces (map (turn_node T) t) z = rmap (map mf) (poly_tree_to_poly_faces t z).
Proof.
  unfold poly_tree_to_poly_faces. apply mapM_map. intros [c l]. cbn [turn_node contour children]. apply (bind_map mpa); [apply close_turn|]. intros o.
  apply (bind_map (map mpa)); [|reflexivity]. apply mapM_map. intros [c' l']. apply close_turn.
Qed.
Lemma union_turn s c z : union_poly_tree E (map mpa s) (map mpa c) z = rmap (map mf) (union_poly_tree E s c z).
Proof. unfold union_poly_tree. apply (bind_map (map (turn_node T))); [apply EM|]. intros t. apply faces_of_turn. Qed.
Lemma difference_turn s c z : difference_poly_tree E (map mpa s) (map mpa c) z = rmap (map mf) (difference_poly_tree E s c z).
Proof. unfold difference_poly_tree. apply (bind_map (map (turn_node T))); [apply EM|]. intros t. apply faces_of_turn. Qed.
Lemma flatten_turn (l : list (list path)) : flatten_list (map (map mpa) l) = map mpa (flatten_list l).
Proof. symmetry. apply concat_map. Qed.
Lemma offset_polyface_turn f o i n : offset_polyface E (mf f) o i n = rmap (map mf) (offset_polyface E f o i n).
Proof.
  unfold offset_polyface. apply (bind_map (map mpa)); [apply offset_path_turn|]. intros os. cbn [turn_face pf_inners pf_depth].
  destruct (pf_inners f) as [|x xs]; [unfold rmap; cbn [rbind map]; rewrite !map_map; reflexivity|]. cbn [map]. change (mpa x :: map mpa xs) with (map mpa (x :: xs)).
  apply (bind_map (map (map mpa))); [apply mapM_map; intros; apply offset_path_turn|]. intros ins. rewrite flatten_turn. apply difference_turn.
Qed.
Definition mdict (m : depth_dict) : depth_dict := map (fun kv => (fst kv, map mf (snd kv))) m.
Lemma dict_get_turn m z : dict_get (mdict m) z = map mf (dict_get m z).
Proof. induction m as [|[k fs] m IH]; [reflexivity|]. cbn. destruct (qeqb k z); [reflexivity|exact IH]. Qed.
Lemma dict_append_turn m z fs : dict_append (mdict m) z (map mf fs) = mdict (dict_append m z fs).
Proof. induction m as [|[k gs] m IH]; [reflexivity|]. cbn. destruct (qeqb k z); cbn; [rewrite map_app; reflexivity|]. f_equal. exact IH. Qed.
Lemma group_turn fs : forall m, group_by_depth (map mf fs) (mdict m) = rmap mdict (group_by_depth fs m).
Proof.
  induction fs as [|f fs IH]; intros m; [reflexivity|]. cbn [map group_by_depth turn_face pf_depth]. destruct (qltb 0 (pf_depth f)); [reflexivity|].
  rewrite <- IH, <- dict_append_turn. reflexivity.
Qed.
Lemma depth_map_turn fs : generate_depth_map (map mf fs) = rmap (fun x => (mdict (fst x), snd x)) (generate_depth_map fs).
Proof.
  unfold generate_depth_map. apply (bind_map mdict); [exact (group_turn fs [])|]. intros m. unfold rmap. cbn [rbind fst snd]. unfold mdict at 2. rewrite map_map. reflexivity.
Qed.
Lemma outers_turn fs : map pf_outer (map mf fs) = map mpa (map pf_outer fs). Proof. rewrite !map_map. reflexivity. Qed.
Lemma inners_turn fs : flatten_list (map pf_inners (map mf fs)) = map mpa (flatten_list (map pf_inners fs)).
Proof. rewrite <- flatten_turn, !map_map. reflexivity. Qed.
Lemma combine_turn fs z : combine_outers E (map mf fs) z = rmap (map mpa) (combine_outers E fs z).
Proof. unfold combine_outers. rewrite outers_turn. apply (bind_map (map mf)); [exact (union_turn _ [] z)|]. intros u. rewrite outers_turn. reflexivity. Qed.
Lemma add_deeper_turn z subs : forall m, add_deeper (mdict m) z subs = mdict (add_deeper m z subs).
Proof. induction subs as [|s subs IH]; intros m; [reflexivity|]. cbn [add_deeper]. rewrite dict_get_turn, dict_append_turn. apply IH. Qed.
Lemma levels_turn am ads ds : forall m, build_levels E (mdict m) (mdict am) ads ds = rmap (map mf) (build_levels E m am ads ds).
Proof.
  induction ds as [|z ds IH]; intros m; [reflexivity|]. cbn [build_levels]. rewrite add_deeper_turn, dict_get_turn. set (m' := add_deeper m z ds).
  apply (bind_map (map mpa)); [apply combine_turn|]. intros ops. rewrite inners_turn.
  apply (bind_map (map mf)).
  - rewrite <- difference_turn. f_equal. destruct ads as [|a ads]; [reflexivity|]. rewrite map_app. f_equal.
    rewrite <- outers_turn. f_equal. induction (filter (fun a0 => qleb z a0) (a :: ads)) as [|b l IHl]; [reflexivity|]. cbn [flat_map]. rewrite dict_get_turn, map_app, IHl. reflexivity.
  - intros o. apply (bind_map (map mf)); [apply IH|]. intros r. cbn. rewrite map_app. reflexivity.
Qed.
Lemma pocket_ops_turn ops avs : build_pocket_ops E (map mf ops) (map mf avs) = rmap (map mf) (build_pocket_ops E ops avs).
Proof.
  unfold build_pocket_ops. apply (bind_map (fun x => (mdict (fst x), snd x))); [apply depth_map_turn|]. intros [m ds].
  apply (bind_map (fun x => (mdict (fst x), snd x))); [apply depth_map_turn|]. intros [am ads]. apply levels_turn.
Qed.
Lemma next_turn pk st n p : next_contours E (mf pk) st n (mpa p) = rmap (map mpa) (next_contours E pk st n p).
Proof.
  unfold next_contours. apply (bind_map (map mpa)); [apply offset_path_turn|]. intros c. cbn [turn_face pf_inners].
  destruct c as [|c cs]; [reflexivity|]. destruct (pf_inners pk) as [|i is_]; [reflexivity|]. cbn [map].
  apply (bind_map (map mf)); [exact (difference_turn (c :: cs) (i :: is_) 0)|]. intros fs. rewrite outers_turn. reflexivity.
Qed.
Notation mo := (fun o : nat * pathface => (fst o, mf (snd o))).
Lemma new_contours_turn z n os : new_contours z n (map mpa os) = map mo (new_contours z n os).
Proof.
  unfold new_contours. rewrite map_length, !map_map. generalize (seq n (length os)). induction os as [|o os IH]; intros [|k l]; try reflexivity.
  cbn [map combine]. f_equal. apply IH.
Qed.
Lemma fill_loop_turn next next' z fuel : (forall p, next' (mpa p) = rmap (map mpa) (next p)) -> forall t,
  fill_loop next' z fuel (map_tree mo t) = rmap (map_tree mo) (fill_loop next z fuel t).
Proof.
  intros H. induction fuel as [|fuel IH]; intros t; [reflexivity|]. cbn [fill_loop]. rewrite next_unlocked_map. destruct (next_unlocked t) as [i|]; [|reflexivity].
  apply (bind_map mo); [apply obj_at_map|]. intros o. apply (bind_map (map mpa)); [apply H|]. intros os. rewrite <- IH. f_equal.
  destruct os as [|x os]; cbn [map]; [apply lock_map|]. change (mpa x :: map mpa os) with (map mpa (x :: os)).
  rewrite <- branch_map, <- new_contours_turn. unfold map_tree at 2. rewrite map_length. reflexivity.
Qed.
Lemma fill_turn fuel pk st n : fill_pocket_contour_shrink E fuel (mf pk) st n = rmap (map (map mf)) (fill_pocket_contour_shrink E fuel pk st n).
Proof.
  unfold fill_pocket_contour_shrink. apply (bind_map (map_tree mo)).
  - exact (fill_loop_turn _ _ _ fuel (next_turn pk st n) (new_tree (O, PF (pf_outer pk) [] (pf_depth pk)))).
  - intros t. apply (bind_map (map (map mo))); [apply sequences_map; reflexivity|]. intros ss. unfold rmap. cbn [rbind]. rewrite !map_map. f_equal.
    apply map_ext. intros l. rewrite !map_map. reflexivity.
Qed.
Lemma filterM_turn (h h' : pathface -> result bool) l : (forall f, h' (mf f) = h f) -> filterM h' (map mf l) = rmap (map mf) (filterM h l).
Proof.
  intros H. induction l as [|a l IH]; [reflexivity|]. cbn [map filterM]. rewrite H. destruct (h a) as [b|]; [|reflexivity]. cbn [rbind].
  apply (bind_map (map mf)); [exact IH|]. intros r. destruct b; reflexivity.
Qed.
Lemma depths_turn l : map pf_depth (map mf l) = map pf_depth l. Proof. rewrite map_map. reflexivity. Qed.
Lemma start_depth_turn op sh : determine_stepdown_start_depth E (mf op) (map mf sh) = determine_stepdown_start_depth E op sh.
Proof.
  unfold determine_stepdown_start_depth. rewrite (filterM_turn (fun s => en_contains E s op) (fun s => en_contains E s (mf op))) by (intros; apply EM).
  destruct (filterM _ sh); [|reflexivity]. cbn. rewrite depths_turn. reflexivity.
Qed.
Lemma stepdown_turn ss st s : apply_stepdown (map (map mf) ss) st s = rmap (map (map mf)) (apply_stepdown ss st s).
Proof.
  unfold apply_stepdown. rewrite <- concat_map, depths_turn. destruct (map pf_depth (concat ss)) as [|z zs]; [reflexivity|]. destruct (forallb _ _); [|reflexivity].
  unfold rmap. cbn [rbind]. f_equal. induction (arange _ _ _) as [|x l IH]; [reflexivity|]. cbn [flat_map]. rewrite IH, map_app. f_equal. rewrite !map_map. apply map_ext. intros k. rewrite !map_map. reflexivity.
Qed.
Lemma fill_ops_turn fuel n so sd ops : forall sh, fill_ops E fuel n so sd (map mf sh) (map mf ops) = rmap (map (map mf)) (fill_ops E fuel n so sd sh ops).
Proof.
  induction ops as [|op ops IH]; intros sh; [reflexivity|]. cbn [map fill_ops]. apply (bind_map (map (map mf))); [apply fill_turn|]. intros fill.
  apply (bind_map (map (map mf))).
  - destruct sd as [s|]; [|reflexivity]. destruct (qeqb s 0); [reflexivity|]. rewrite start_depth_turn. destruct (determine_stepdown_start_depth E op sh); [|reflexivity].
    apply stepdown_turn.
  - intros st. apply (bind_map (map (map mf))); [change [mf op] with (map mf [op]); rewrite <- map_app; apply IH|]. intros r. cbn. rewrite !map_app. reflexivity.
Qed.
Lemma pocket_turn fuel j ops avs a b c e so sd :
  pocket_clipper E fuel j (map mf ops) (map mf avs) a b c e so sd = rmap (map (turn_motion T)) (pocket_clipper E fuel j ops avs a b c e so sd).
Proof.
  unfold pocket_clipper. apply (bind_map (map (map mf))); [apply mapM_map; intros; apply offset_polyface_turn|]. intros os.
  apply (bind_map (map (map mf))); [apply mapM_map; intros; apply offset_polyface_turn|]. intros vs. rewrite <- !concat_map.
  apply (bind_map (map mf)); [apply pocket_ops_turn|]. intros po. apply (bind_map (map (map mf))); [exact (fill_ops_turn fuel _ so sd po [])|]. intros ss.
  exact (route_sequences_turn T RT j so ss false av_none).
Qed.
End Pocket.

(** ** Drilling *)
Lemma drill_turn T os os' z j ps : rigid T -> wanted_holes (to_world (j_top j)) os ps -> wanted_holes (to_world (j_top j)) os' (map T ps) ->
  drill_gen (Some os') z j = rmap (map (turn_command T)) (drill_gen (Some os) z j).
Proof.
  intros RT W W'. destruct (wanted_known _ _ _ W) as (vs & E & M), (wanted_known _ _ _ W') as (vs' & E' & M'). unfold drill_gen. destruct z as [z|]; [|reflexivity].
  rewrite E, E'. cbn [rbind]. destruct (concat vs) as [|v l] eqn:C, (concat vs') as [|v' l'] eqn:C'; cbn [map] in M, M'; subst ps; try discriminate M'; [reflexivity|].
  cbn zeta. change (map plan (v' :: l')) with (plan v' :: map plan l'). rewrite M'. change (plan v :: map plan l) with (map plan (v :: l)). rewrite map_length.
  apply (bind_map (map T)); [exact (order_turn T RT _ None _)|]. intros o. unfold rmap. cbn [rbind]. f_equal. change av_none with (turn_avec T av_none) at 1.
  rewrite (holes_turn T), !map_map. reflexivity.
Qed.
