From Verif Require Import Base.Str Base.Py Model.Groups Model.Geometry Model.Plane Model.Edges Model.Command Model.Job Model.Interp Model.Tree Model.Routers Model.Linked Model.Tabs Model.Profile Model.Pocket Model.Strategy Model.Surface
  Spec.Shift Spec.ShiftKernel Proofs.AlikeP Proofs.ShiftP.
Local Open Scope Qc_scope.
Local Open Scope list_scope.

Section Profile.
Context (d : pt) (K : kernel) (TK : tab_kernel) (WK : wire_kernel) (j : job) (given : list edge -> list edge).
Context (KM : kernel_moves K d) (TM : tab_kernel_moves TK d) (WM : wire_kernel_moves WK (j_top j) given d).
Notation mm := (move_motion d). Notation mv := (move_vec d). Notation me := (move_edge d). Notation ms := (map (move_edge d)).

Lemma wire_marks_shift t len es : wire_marks t len (ms es) = wire_marks t len es.
Proof.
  destruct t; cbn [wire_marks].
  - rewrite map_map. reflexivity.
  - induction es as [|e es IH]; [reflexivity|]. cbn [map mapM]. rewrite IH. reflexivity.
  - assert (L : load_edge_ranges (ms es) = load_edge_ranges es).
    { unfold load_edge_ranges. rewrite map_map. destruct es; reflexivity. }
    rewrite L. reflexivity.
Qed.
Lemma tab_pieces_step z e prev d1 t d2 t2 ts : tab_pieces TK z e prev ((d1, t) :: (d2, t2) :: ts) =
  let '(q1, q2, rev) := edge_oriented_param e d1 d2 in
  do piece <- match t with
              | TTAB => tk_make TK (project_z z (tk_curve TK e)) (tk_param_at TK e q1) (tk_param_at TK e q2) rev
              | _ => tk_make TK (fun p => tk_location TK e (tk_curve TK e p)) (tk_param_at TK e q1) (tk_param_at TK e q2) rev
              end;
  do link <- match prev with Some q => do l <- tk_line TK (edge_end_point q) (edge_start_point piece); Ok [l] | None => Ok [] end;
  do more <- tab_pieces TK z e (Some piece) ((d2, t2) :: ts);
  Ok (link ++ piece :: more).
Proof. reflexivity. Qed.
Lemma tab_pieces_shift z e ts : forall prev, tab_pieces TK z (me e) (option_map me prev) ts = rmap ms (tab_pieces TK z e prev ts).
Proof.
  destruct TM as (P & C & Lo & Mk & Li & _).
  induction ts as [|[d1 t] [|[d2 t2] ts] IH]; intros prev; [reflexivity|reflexivity|]. rewrite !tab_pieces_step.
  assert (Or : edge_oriented_param (me e) d1 d2 = edge_oriented_param e d1 d2) by reflexivity. rewrite Or.
  destruct (edge_oriented_param e d1 d2) as [[q1 q2] r]. cbn zeta. rewrite !P, C.
  apply (bind_map me).
  { destruct t; [rewrite Lo; apply Mk| |rewrite Lo; apply Mk]. apply (Mk (project_z z (tk_curve TK e))). }
  intros piece. apply (bind_map ms).
  { destruct prev as [q|]; [|reflexivity]. cbn [option_map]. apply (bind_map me); [rewrite end_pt_shift, start_shift; apply Li|reflexivity]. }
  intros link. apply (bind_map ms); [exact (IH (Some piece))|]. intros more. unfold rmap. cbn [rbind]. rewrite map_app. reflexivity.
Qed.
Lemma apply_tabs_shift es z t : apply_tabs TK (ms es) z t = rmap ms (apply_tabs TK es z t).
Proof.
  pose proof TM as (_ & _ & _ & _ & _ & As & Z & L). unfold apply_tabs. rewrite Z, L, wire_marks_shift. destruct (qleb _ _); [reflexivity|].
  apply (bind_map (fun x : list marks => x)); [symmetry; apply rmap_id|]. intros mk.
  apply (bind_map (map ms)).
  - revert mk. induction es as [|e es IH]; intros [|m mk]; try reflexivity. cbn [map combine mapM fst snd]. apply (bind_map ms).
    { unfold tab_edge. destruct (forallb _ _); [reflexivity|]. exact (tab_pieces_shift z e m None). }
    intros b. apply (bind_map (map ms)); [apply IH|]. reflexivity.
  - intros b. unfold rmap. cbn [rbind]. rewrite <- concat_map, As. destruct (tk_assemble TK (concat b)); reflexivity.
Qed.
Lemma layers_above_shift m base s fuel : forall i, layers_above TK WK (j_top j) m (ms base) s fuel i = rmap (map ms) (layers_above TK WK (j_top j) m base s fuel i).
Proof.
  pose proof TM as (_ & _ & _ & _ & _ & _ & Z & _). destruct WM as (_ & _ & _ & _ & Mo & Be).
  induction fuel as [|fuel IH]; intros i; [reflexivity|]. cbn [layers_above]. destruct (m <? i)%Z; [reflexivity|]. cbn zeta. rewrite Mo, Z, Be.
  destruct (qleb _ _); [reflexivity|]. destruct (wk_below WK (j_top j) _) as [b|]; [|reflexivity]. cbn [rbind]. destruct b; [|reflexivity].
  apply (bind_map (map ms)); [apply IH|]. reflexivity.
Qed.
Lemma toolpaths_shift sd t base : profile_toolpaths TK WK j sd t (ms base) = rmap (map ms) (profile_toolpaths TK WK j sd t base).
Proof.
  unfold profile_toolpaths. apply (bind_map (map ms)).
  { unfold profile_layers. destruct sd as [s|]; [|reflexivity]. destruct (qeqb s 0); [reflexivity|]. apply (bind_map (map ms)); [apply layers_above_shift|].
    intros l. unfold rmap. cbn [rbind]. rewrite map_rev. reflexivity. }
  intros ls. destruct t as [t|]; [|reflexivity]. pose proof TM as (_ & _ & _ & _ & _ & _ & Z & _). rewrite Z. apply mapM_map. intros w. apply apply_tabs_shift.
Qed.
Lemma offset_wire_shift w o : offset_wire K WK (ms w) o = rmap (map ms) (offset_wire K WK w o).
Proof.
  destruct WM as (_ & Of & Ar & Re & _ & _). unfold offset_wire.
  assert (R : retry_offset WK (ms w) o = rmap (map ms) (retry_offset WK w o)).
  { unfold retry_offset. rewrite !Of. destruct (wk_offset WK w o) as [l|[]]; reflexivity. }
  rewrite R. destruct (retry_offset WK w o) as [l|[]]; try reflexivity. unfold rmap. cbn [rbind]. f_equal. rewrite last_map. set (x := last l w).
  assert (F : filter (big_enough WK) (map ms l) = map ms (filter (big_enough WK) l)).
  { assert (B : forall a, big_enough WK (ms a) = big_enough WK a) by (intros a; unfold big_enough; rewrite Ar; reflexivity).
    clear x R. induction l as [|a l IH]; [reflexivity|]. cbn [map filter]. rewrite B, IH. destruct (big_enough WK a); reflexivity. }
  rewrite F. unfold circle_bug_workaround. replace (is_circle_wire K (ms x)) with (is_circle_wire K x).
  - destruct (is_circle_wire K x); [|reflexivity]. rewrite !map_map. apply map_ext. intros t. apply Re.
  - destruct x as [|e [|e' x]]; try reflexivity. cbn. symmetry. apply KM.
Qed.
Lemma profile_shift w o sd t : profile K TK WK j (given w) o sd t = rmap (map mm) (profile K TK WK j w o sd t).
Proof.
  unfold profile. pose proof WM as (T & _). rewrite T. cbn zeta. destruct (tool_radius j) as [r|]; [|reflexivity].
  apply (bind_map (map ms)); [apply offset_wire_shift|]. intros bs. apply (bind_map (map (map ms))); [apply mapM_map; intros b; apply toolpaths_shift|].
  intros ps. rewrite <- (wires_shift d K KM j _ None None). cbn [option_map]. f_equal. rewrite <- concat_map, !map_map. reflexivity.
Qed.
Lemma group_shift ws o sd t : profile_group K TK WK j sd t (map given ws) o = rmap (map mm) (profile_group K TK WK j sd t ws o).
Proof.
  destruct o as [o|]; [|reflexivity]. cbn [profile_group]. apply (bind_map (map (map mm))); [apply mapM_map; intros w; apply profile_shift|].
  intros cs. unfold rmap. cbn [rbind]. rewrite concat_map. reflexivity.
Qed.
Lemma profile_gen_shift os is_ oo io sd t : profile_gen K TK WK (map given os) (map given is_) oo io sd t j = rmap (map (move_command d)) (profile_gen K TK WK os is_ oo io sd t j).
Proof.
  unfold profile_gen. apply (bind_map (map mm)); [apply group_shift|]. intros a. apply (bind_map (map mm)); [apply group_shift|]. intros b.
  unfold rmap. cbn [rbind]. rewrite <- map_app, !map_map. reflexivity.
Qed.
Lemma wire_profile_shift ws o sd t : wire_profile_gen K TK WK (map given ws) o sd t j = rmap (map (move_command d)) (wire_profile_gen K TK WK ws o sd t j).
Proof. unfold wire_profile_gen. apply (bind_map (map mm)); [apply group_shift|]. intros a. unfold rmap. cbn [rbind]. rewrite !map_map. reflexivity. Qed.
End Profile.

(** ** Zig-zag *)
Section Zigzag.
Context (d : pt).
Notation mp := (move_pt d). Notation mpath := (move_path d). Notation mm := (move_motion d). Notation mv := (move_vec d). Notation me := (move_edge d). Notation ma := (move_avec d).

Definition mlp (l : linked) : linked := LP (mpath (lp_polygon l)) (mpath (lp_linked l)) (mpath (lp_free l)).
Definition mkey {A B} (g : A -> B) (x : pt * A) : pt * B := (mp (fst x), g (snd x)).
Lemma dict_get_shift {A B} (g : A -> B) k l : dict_get (mp k) (map (mkey g) l) = rmap g (dict_get k l).
Proof. induction l as [|[k' a] l IH]; [reflexivity|]. cbn [map mkey dict_get fst snd]. rewrite pt_eqb_shift, IH. destruct (pt_eqb k' k); reflexivity. Qed.
Lemma mem_shift p l : mem_pt (mp p) (mpath l) = mem_pt p l.
Proof. unfold mem_pt. induction l as [|a l IH]; [reflexivity|]. cbn [move_path map existsb]. rewrite pt_eqb_shift. f_equal. exact IH. Qed.
Lemma index_shift p l : py_index (mp p) (mpath l) = py_index p l.
Proof. unfold py_index, move_path. rewrite find_shift. reflexivity. Qed.
Lemma remove_shift' p l : py_remove (mp p) (mpath l) = rmap mpath (py_remove p l).
Proof. exact (remove_shift d p l). Qed.
Lemma sort_shift s l : sort_by (fun p => dist2 p (mp s)) (mpath l) = mpath (sort_by (fun p => dist2 p s) l).
Proof.
  assert (I : forall a l, insert_by (fun p => dist2 p (mp s)) (mp a) (mpath l) = mpath (insert_by (fun p => dist2 p s) a l)).
  { intros a. induction l0 as [|b l0 IH]; [reflexivity|]. cbn [move_path map insert_by]. rewrite !dist2_shift. destruct (qleb _ _); [reflexivity|].
    cbn [map]. f_equal. exact IH. }
  induction l as [|a l IH]; [reflexivity|]. cbn [move_path map sort_by fold_right]. fold (sort_by (fun p => dist2 p (mp s)) (map mp l)). unfold move_path in IH at 1. rewrite IH. apply I.
Qed.
Lemma skip_path n l : skipn n (mpath l) = mpath (skipn n l). Proof. unfold move_path. apply skipn_map. Qed.
Lemma first_path n l : firstn n (mpath l) = mpath (firstn n l). Proof. unfold move_path. apply firstn_map. Qed.
Lemma app_path a b : mpath a ++ mpath b = mpath (a ++ b). Proof. unfold move_path. symmetry. apply map_app. Qed.
Lemma last_path l a : last (mpath l) (mp a) = mp (last l a). Proof. apply last_map. Qed.
Lemma link_point_shift lp p a b : link_point (mlp lp) (mp p) (mp a) (mp b) = rmap mlp (link_point lp p a b).
Proof.
  unfold link_point. cbn [mlp lp_polygon lp_linked lp_free]. rewrite mem_shift, !index_shift. destruct (mem_pt p (lp_linked lp)); [reflexivity|].
  destruct (py_index a (lp_polygon lp)) as [i|]; [|reflexivity]. cbn [rbind]. destruct (py_index b (lp_polygon lp)) as [k|]; [|reflexivity]. cbn [rbind].
  apply (bind_map (fun n : nat => n)).
  - destruct (Nat.eqb (S i) k); [reflexivity|]. cbn zeta. rewrite skip_path, first_path. change [mp p] with (mpath [p]). rewrite app_path, sort_shift, index_shift.
    destruct (py_index p _); reflexivity.
  - intros n. unfold rmap. cbn [rbind]. unfold mlp. cbn [lp_polygon lp_linked lp_free]. unfold insert_at. rewrite first_path, skip_path.
    change (mp p :: mpath (skipn n (lp_polygon lp))) with (mpath (p :: skipn n (lp_polygon lp))). change [mp p] with (mpath [p]). rewrite !app_path. reflexivity.
Qed.
Lemma search_shift free p l : search (mpath free) (mp p) (mpath l) = (fst (search free p l), mpath (snd (search free p l))).
Proof.
  induction l as [|a l IH]; [reflexivity|]. cbn [move_path map search]. rewrite mem_shift, dist2_shift. destruct (mem_pt a free); [reflexivity|].
  unfold move_path in IH at 2. rewrite IH. destruct (search free p l) as [x s]. reflexivity.
Qed.
Lemma rev_path l : rev (mpath l) = mpath (rev l). Proof. unfold move_path. symmetry. apply map_rev. Qed.
Definition mwalk (x : option path * linked) := (option_map mpath (fst x), mlp (snd x)).
Lemma nearest_linked_shift lp p : nearest_linked (mlp lp) (mp p) = rmap mwalk (nearest_linked lp p).
Proof.
  unfold nearest_linked. cbn [mlp lp_polygon lp_linked lp_free]. apply (bind_map mpath); [apply remove_shift'|]. intros free.
  destruct free as [|f0 free]; [reflexivity|]. cbn [move_path map]. change (mp f0 :: map mp free) with (mpath (f0 :: free)). set (fr := f0 :: free). clearbody fr.
  rewrite index_shift. destruct (py_index p (lp_polygon lp)) as [i|]; [|reflexivity]. cbn [rbind]. cbn zeta. rewrite skip_path, first_path, app_path, rev_path, !search_shift.
  destruct (search fr p _) as [fd fs]. destruct (search fr p _) as [rd rs]. cbn [fst snd].
  set (tk := if qltb fd rd then fs else rs). replace (if qltb fd rd then mpath fs else mpath rs) with (mpath tk) by (unfold tk; destruct (qltb fd rd); reflexivity).
  clearbody tk. destruct tk as [|t0 tk]; [reflexivity|]. cbn [move_path map]. change (mp t0 :: map mp tk) with (mpath (t0 :: tk)). rewrite last_path.
  apply (bind_map mpath); [apply remove_shift'|]. reflexivity.
Qed.
Definition mls (s : link_state) : link_state := LS (mpath (ls_remaining s)) (mlp (ls_poly s)) (map (mkey (fun n : nat => n)) (ls_map s)).
Lemma link_segment_shift k a b ps : forall s, link_segment k (mp a) (mp b) (mpath ps) (mls s) = rmap mls (link_segment k a b ps s).
Proof.
  induction ps as [|q ps IH]; intros s; [reflexivity|]. cbn [move_path map link_segment]. rewrite nearest_shift.
  destruct (dist_to_segment_squared q a b) as [[x c]|]; [|reflexivity]. cbn [rmap rbind fst snd]. apply (bind_map mls); [|apply IH].
  destruct (qltb x link_tolerance); [|reflexivity]. apply (bind_map mpath); [apply remove_shift'|]. intros r. apply (bind_map mlp); [apply link_point_shift|]. reflexivity.
Qed.
Lemma link_segments_step k a b l s : link_segments k (a :: b :: l) s = rbind (link_segment k a b (ls_remaining s) s) (fun s => link_segments k (b :: l) s).
Proof. reflexivity. Qed.
Lemma link_segments_shift k ps : forall s, link_segments k (mpath ps) (mls s) = rmap mls (link_segments k ps s).
Proof.
  induction ps as [|a [|b ps] IH]; intros s; [reflexivity|reflexivity|]. cbn [move_path map]. rewrite !link_segments_step. apply (bind_map mls); [apply link_segment_shift|].
  intros s'. exact (IH s').
Qed.
Definition mlinks (x : list linked * list (pt * nat)) := (map mlp (fst x), map (mkey (fun n : nat => n)) (snd x)).
Lemma link_boundaries_shift bs : forall k r m, link_boundaries k (map mpath bs) (mpath r) (map (mkey (fun n : nat => n)) m) = rmap mlinks (link_boundaries k bs r m).
Proof.
  induction bs as [|b bs IH]; intros k r m; [destruct r; reflexivity|]. cbn [map link_boundaries]. apply (bind_map mls); [exact (link_segments_shift k b (LS r (LP b [] []) m))|].
  intros s. apply (bind_map mlinks); [apply IH|]. intros [l q]. reflexivity.
Qed.
Definition mends (x : list (pt * path) * path) := (map (mkey mpath) (fst x), mpath (snd x)).
Lemma end_map_shift ss : forall m ps, scanline_end_map (map mpath ss) (map (mkey mpath) m) (mpath ps) = rmap mends (scanline_end_map ss m ps).
Proof.
  induction ss as [|[|a s] ss IH]; intros m ps; [reflexivity|reflexivity|]. cbn [map move_path scanline_end_map]. cbn zeta.
  change (mp a :: map mp s) with (mpath (a :: s)). rewrite last_path. rewrite <- IH. f_equal. rewrite <- app_path. reflexivity.
Qed.
Lemma path_eqb_shift p q : path_eqb (mpath p) (mpath q) = path_eqb p q.
Proof.
  unfold path_eqb, move_path. rewrite !map_length. f_equal. revert q. induction p as [|a p IH]; intros [|b q]; try reflexivity. cbn [map combine forallb fst snd].
  rewrite pt_eqb_shift, IH. reflexivity.
Qed.
Lemma remove_scanline_shift s l : remove_scanline (mpath s) (map mpath l) = rmap (map mpath) (remove_scanline s l).
Proof.
  induction l as [|a l IH]; [reflexivity|]. cbn [map remove_scanline]. rewrite path_eqb_shift. destruct (path_eqb a s); [reflexivity|].
  apply (bind_map (map mpath)); [exact IH|]. reflexivity.
Qed.
Lemma lps_get_shift l k : lps_get (map mlp l) k = rmap mlp (lps_get l k).
Proof. unfold lps_get. rewrite nth_error_map. destruct (nth_error l k); reflexivity. Qed.
Lemma lps_set_shift l k x : lps_set (map mlp l) k (mlp x) = map mlp (lps_set l k x).
Proof. unfold lps_set. rewrite map_app, firstn_map. cbn [map]. rewrite skipn_map. reflexivity. Qed.
Definition m2 (x : pt * pt) := (mp (fst x), mp (snd x)).
Lemma unpack_shift s : unpack2 (mpath s) = rmap m2 (unpack2 s). Proof. destruct s as [|a [|b [|c s]]]; reflexivity. Qed.
Notation mpoints := (map (mkey (fun n : nat => n))). Notation mendm := (map (mkey mpath)).
Lemma loop_shift fuel : forall lps pts ends ss cut sq dn,
  zig_zag_loop fuel (map mlp lps) (mpoints pts) (mendm ends) (map mpath ss) (mp cut) (mpath sq) (map mpath dn) = rmap (map mpath) (zig_zag_loop fuel lps pts ends ss cut sq dn).
Proof.
  induction fuel as [|fuel IH]; intros lps pts ends ss cut sq dn; (destruct ss as [|n ss]; [cbn; rewrite map_app; reflexivity|]); [reflexivity|]. cbn [map zig_zag_loop].
  change (mpath n :: map mpath ss) with (map mpath (n :: ss)).
  apply (bind_map (fun n : nat => n)); [apply dict_get_shift|]. intros k. apply (bind_map mlp); [apply lps_get_shift|]. intros lp.
  apply (bind_map mwalk); [apply nearest_linked_shift|]. intros [w lp']. cbn [mwalk fst snd]. cbn zeta. rewrite lps_set_shift. destruct w as [[|w0 w]|]; cbn [option_map].
  - reflexivity.
  - cbn [move_path map]. change (mp w0 :: map mp w) with (mpath (w0 :: w)). rewrite last_path. set (en := last (w0 :: w) w0).
    apply (bind_map mpath); [apply dict_get_shift|]. intros sl. apply (bind_map mp).
    { destruct sl as [|a [|b sl]]; [reflexivity| |]; cbn [move_path map]; rewrite pt_eqb_shift; destruct (pt_eqb a en); reflexivity. }
    intros c. apply (bind_map (map mpath)); [exact (remove_scanline_shift sl (n :: ss))|]. intros ss'. rewrite <- IH. f_equal. rewrite <- !app_path. reflexivity.
  - apply (bind_map m2); [apply unpack_shift|]. intros [a b]. cbn [m2 fst snd]. rewrite <- IH. f_equal. rewrite map_app. reflexivity.
Qed.
Lemma qltb_shift a b x : qltb (a + x) (b + x) = qltb a b.
Proof.
  destruct (qltb a b) eqn:E.
  - apply qltb_lt in E. apply qltb_lt. qlra.
  - apply qltb_nlt in E. apply qltb_nlt. qlra.
Qed.
Lemma route_zig_zag_shift lps ss pts ends : route_zig_zag (map mlp lps) (map mpath ss) (mpoints pts) (mendm ends) = rmap (map mpath) (route_zig_zag lps ss pts ends).
Proof.
  unfold route_zig_zag. cbn zeta. assert (R : map reset (map mlp lps) = map mlp (map reset lps)) by (rewrite !map_map; reflexivity). rewrite R.
  destruct ss as [|f ss]; [reflexivity|]. cbn [map]. apply (bind_map m2); [apply unpack_shift|]. intros [a b]. cbn [m2 fst snd].
  assert (Lt : qltb (fst (mp b)) (fst (mp a)) = qltb (fst b) (fst a)) by apply qltb_shift. rewrite Lt.
  assert (S2 : (if qltb (fst b) (fst a) then (mp b, mp a) else (mp a, mp b)) = m2 (if qltb (fst b) (fst a) then (b, a) else (a, b))) by (destruct (qltb (fst b) (fst a)); reflexivity).
  rewrite S2. destruct (if qltb (fst b) (fst a) then (b, a) else (a, b)) as [st cut]. cbn [m2 fst snd].
  apply (bind_map (fun n : nat => n)); [apply dict_get_shift|]. intros k. apply (bind_map mlp); [apply lps_get_shift|]. intros lp.
  apply (bind_map mlp).
  { unfold drop. cbn [mlp lp_free lp_polygon lp_linked]. apply (bind_map mpath); [apply remove_shift'|]. reflexivity. }
  intros lp'. rewrite lps_set_shift, map_length. exact (loop_shift _ _ _ _ ss cut [st; cut] []).
Qed.
Lemma flatten_shift es : flatten_edges (map me es) = rmap (map mv) (flatten_edges es).
Proof.
  unfold flatten_edges. apply (bind_map (map (map mv))).
  - apply mapM_map. intros e. unfold flatten_edge. rewrite end_pt_shift. change (e_geom (me e)) with (e_geom e). change (position_space (me e)) with (position_space e).
    destruct (e_geom e); try reflexivity; unfold rmap; cbn [rbind]; rewrite map_map; reflexivity.
  - intros vs. unfold rmap. cbn [rbind]. rewrite concat_map. reflexivity.
Qed.
Lemma boundary_shift b : boundary_polygon (move_boundary d b) = rmap mpath (boundary_polygon b).
Proof.
  destruct b as [es c|p]; [|reflexivity]. cbn [move_boundary boundary_polygon]. unfold add_wire. apply (bind_map (map mv)); [apply flatten_shift|]. intros vs. cbn zeta.
  assert (V : vectors_to_2d_tuples (map mv vs) = mpath (vectors_to_2d_tuples vs)) by (unfold vectors_to_2d_tuples, move_path; rewrite !map_map; reflexivity).
  rewrite V. destruct c; [reflexivity|]. destruct (vectors_to_2d_tuples vs) as [|a l]; [reflexivity|]. cbn [move_path map rmap rbind]. unfold rmap. cbn [rbind]. f_equal.
  change (mp a :: map mp l) with (mpath (a :: l)). change [mp a] with (mpath [a]). apply app_path.
Qed.
Lemma arange_shift a b s x : arange (a + x) (b + x) s = map (fun y => y + x) (arange a b s).
Proof. unfold arange. rewrite qsub_shift, map_map. apply map_ext. intros k. ring. Qed.
Context (C : zig_clipper) (CM : clipper_moves C d).
Lemma zig_zag_shift td so os is_ : zig_zag C td so (map (move_boundary d) os) (map (move_boundary d) is_) = rmap (map mpath) (zig_zag C td so os is_).
Proof.
  destruct CM as [B X]. unfold zig_zag. apply (bind_map (map mpath)); [apply mapM_map; intros b; apply boundary_shift|]. intros o.
  apply (bind_map (map mpath)); [apply mapM_map; intros b; apply boundary_shift|]. intros i. rewrite <- map_app.
  apply (bind_map (move_bounds d)); [apply B|]. intros [[[x0 y0] x1] y1]. cbn [move_bounds]. destruct (qeqb _ _); [reflexivity|].
  apply (bind_map (map mpath)).
  { rewrite <- X. f_equal. unfold templates. rewrite arange_shift, !map_map. reflexivity. }
  intros ss. apply (bind_map mends); [exact (end_map_shift ss [] [])|]. intros [en sp]. cbn [mends fst snd].
  apply (bind_map mlinks); [exact (link_boundaries_shift (o ++ i) 0%nat sp [])|]. intros [lps pts]. cbn [mlinks fst snd]. apply route_zig_zag_shift.
Qed.

(** ** Surfaces *)
Lemma interpolate_shift len step ps : (forall p q, len (mp p) (mp q) = len p q) -> forall p, interpolate_from len step (mp p) (mpath ps) = rmap mpath (interpolate_from len step p ps).
Proof.
  intros L. induction ps as [|q ps IH]; intros p; [reflexivity|]. cbn [move_path map interpolate_from]. apply (bind_map mpath).
  - unfold interpolate_segment. rewrite L. destruct (qeqb _ _); [reflexivity|]. destruct (qeqb step 0); [reflexivity|]. unfold rmap. cbn [rbind]. f_equal.
    rewrite <- app_path. f_equal. unfold move_path. rewrite map_map. apply map_ext. intros s. unfold move_pt. cbn [fst snd]. rewrite !qsub_shift. f_equal; ring.
  - intros h. apply (bind_map mpath); [apply IH|]. intros r. unfold rmap. cbn [rbind]. rewrite app_path. reflexivity.
Qed.
Lemma merge_shift s : forall hs, merge_sequence (mpath s) hs = rmap (fun x => (map mv (fst x), snd x)) (merge_sequence s hs).
Proof.
  induction s as [|p s IH]; intros hs; [reflexivity|]. cbn [move_path map merge_sequence]. destruct hs as [|z hs]; [reflexivity|].
  apply (bind_map (fun x => (map mv (fst x), snd x))); [apply IH|]. intros [vs r]. reflexivity.
Qed.
Lemma merges_shift ss : forall hs, merge_sequences (map mpath ss) hs = rmap (map (map mv)) (merge_sequences ss hs).
Proof.
  induction ss as [|s ss IH]; intros hs; [reflexivity|]. cbn [map merge_sequences]. apply (bind_map (fun x => (map mv (fst x), snd x))); [apply merge_shift|].
  intros [vs r]. cbn [fst snd]. apply (bind_map (map (map mv))); [apply IH|]. reflexivity.
Qed.
Lemma chop_shift l s : forall r, chop_sequence l (map mv s) (map mv r) = map (map mv) (chop_sequence l s r).
Proof.
  induction s as [|p s IH]; intros r; [destruct r; reflexivity|]. cbn [map chop_sequence]. change (vz (mv p)) with (vz p). destruct (qltb l (vz p)).
  - pose proof (IH []) as I. cbn [map] in I. destruct r; cbn [map]; rewrite I; reflexivity.
  - rewrite <- IH, map_app. reflexivity.
Qed.
Lemma chops_shift ss l : chop_sequences_by_depth (map (map mv) ss) l = map (map mv) (chop_sequences_by_depth ss l).
Proof.
  unfold chop_sequences_by_depth. induction ss as [|s ss IH]; [reflexivity|]. cbn [map flat_map]. rewrite IH, map_app. f_equal. exact (chop_shift l s []).
Qed.
Lemma surface_cuts_shift z ps : forall pp, surface_cuts z (ma pp) (map mv ps) = map mm (surface_cuts z pp ps).
Proof.
  induction ps as [|p ps IH]; intros pp; [reflexivity|]. cbn [map surface_cuts]. cbn zeta. pose proof (cut_abs_shift d (vx p, vy p) (Some (qmax z (vz p))) pp false None) as E.
  cbn [fst snd move_pt] in E. change (vz (mv p)) with (vz p). change (vx (mv p)) with (vx p + fst d). change (vy (mv p)) with (vy p + snd d). rewrite E, end_shift, IH. reflexivity.
Qed.
Lemma rapid_abs_shift x y z pp : rapid_abs (option_map (fun a => a + fst d) x) (option_map (fun a => a + snd d) y) z (Some (ma pp)) false = mm (rapid_abs x y z (Some pp) false).
Proof. exact (rapid_shift d (AV x y z) pp false). Qed.
Lemma surface_run_shift j z pp r : surface_run j z (ma pp) (map mv r) = map mm (surface_run j z pp r).
Proof.
  destruct r as [|p r]; [reflexivity|]. cbn [map surface_run]. cbn zeta.
  pose proof (rapid_abs_shift None None (Some (j_rapid_height j)) pp) as E1. cbn [option_map] in E1. rewrite E1, end_shift.
  set (q := m_end (rapid_abs None None (Some (j_rapid_height j)) (Some pp) false)). clearbody q.
  pose proof (rapid_abs_shift (Some (vx p)) (Some (vy p)) None q) as E2. cbn [option_map] in E2. change (vx (mv p)) with (vx p + fst d). change (vy (mv p)) with (vy p + snd d). rewrite E2, end_shift.
  set (q2 := m_end (rapid_abs (Some (vx p)) (Some (vy p)) None (Some q) false)). clearbody q2.
  pose proof (rapid_abs_shift None None (Some (j_op_safe_height j)) q2) as E3. cbn [option_map] in E3. rewrite E3, end_shift, surface_cuts_shift. reflexivity.
Qed.
Lemma end_pos_shift pp ms : end_pos (ma pp) (map mm ms) = ma (end_pos pp ms).
Proof. unfold end_pos. rewrite <- end_shift. f_equal. exact (last_map mm ms (MRapid KRapid pp pp false)). Qed.
Lemma surface_runs_shift j z rs : forall pp, surface_runs j z (ma pp) (map (map mv) rs) = map mm (surface_runs j z pp rs).
Proof.
  induction rs as [|r rs IH]; intros pp; [reflexivity|]. cbn [map surface_runs]. cbn zeta. rewrite surface_run_shift, end_pos_shift, IH, map_app. reflexivity.
Qed.
Lemma surface_passes_shift j ss all ds : forall i pp, surface_passes j (map (map mv) ss) all i ds (ma pp) = map mm (surface_passes j ss all i ds pp).
Proof.
  induction ds as [|z ds IH]; intros i pp; [reflexivity|]. cbn [surface_passes]. cbn zeta. rewrite chops_shift, surface_runs_shift, end_pos_shift, IH, map_app. reflexivity.
Qed.
Context (K : surface_kernel) (j : job) (given : sk_face K -> sk_face K) (given_w : sk_wire K -> sk_wire K) (shadow : sk_face K -> sk_face K).
Context (KM : surface_kernel_moves K (j_top j) given given_w shadow d).
Lemma surface_shift a os : surface_gen K C a (map (move_selected given given_w) os) j = rmap (map (move_command d)) (surface_gen K C a os j).
Proof.
  destruct KM as (Mk & Zm & Pr & Pl & Of & Ou & Le & Dr). unfold surface_gen. apply (bind_map (map given)).
  { unfold wp_to_faces. apply (bind_map (map given)).
    - apply mapM_map. intros [f|w|]; [reflexivity|apply Mk|reflexivity].
    - intros [|f fs]; reflexivity. }
  intros fs. rewrite Zm. destruct (sk_zmin K (j_top j) fs) as [zm|]; [|reflexivity]. cbn [rbind]. apply (bind_map (map shadow)); [apply Pr|]. intros base.
  apply (bind_map (map (map shadow))).
  { apply mapM_map. intros b. unfold offset_boundary. rewrite Pl. destruct (sk_planar K b); [|reflexivity].
    destruct (face_offset _ (sa_outer a)) as [o|]; [|reflexivity]. cbn [rbind]. destruct (face_offset _ (sa_inner a)) as [i|]; [|reflexivity]. cbn [rbind]. apply Of. }
  intros bs. rewrite <- concat_map. apply (bind_map (map (map mm))).
  - apply mapM_map. intros b. unfold surface_boundary. apply (bind_map (map (map mv))).
    + unfold surface_sequences. rewrite Ou. destruct (sk_outer K b) as [es c]. cbn [fst snd]. apply (bind_map (map mpath)).
      { exact (zig_zag_shift (sa_tool_diameter a) (sa_stepover a) [BWire es c] []). }
      intros s1. apply (bind_map (map mpath)).
      { apply mapM_map. intros s. destruct s as [|p s]; [reflexivity|]. cbn [move_path map interpolate_cut_sequence]. apply (bind_map mpath); [apply interpolate_shift; exact Le|]. reflexivity. }
      intros s2. apply (bind_map (fun h : list Qc => h)).
      { rewrite rmap_id, <- (Dr fs). f_equal.
        replace (concat (map mpath s2)) with (map mp (concat s2)) by (symmetry; exact (eq_sym (concat_map mp s2))). rewrite !map_map. reflexivity. }
      intros hs. apply merges_shift.
    + intros ss. destruct (surface_depths _ _ _) as [ds|]; [|reflexivity]. unfold rmap. cbn [rbind]. f_equal. exact (surface_passes_shift j ss ds ds 0%nat av_none).
  - intros mss. unfold rmap. cbn [rbind]. rewrite <- concat_map, !map_map. reflexivity.
Qed.
End Zigzag.
