From Verif Require Import Base.Str Base.Py Model.Groups Model.Geometry Model.Plane Model.Edges Model.Command Model.Job Model.Interp Model.Tree Model.Routers Model.Linked Model.Tabs Model.Profile
  Spec.Turn Spec.TurnWire Proofs.AlikeP Proofs.ShiftP Proofs.TurnP.
Local Open Scope Qc_scope.
Local Open Scope list_scope.

Section Turn.
Context (T : pt -> pt) (o : Qc) (TO : turns T o).
Notation ma := (turn_avec T). Notation mm := (turn_move T o). Notation mv := (turn_vec T). Notation me := (turn_edge T o).
Lemma turns_rigid : rigid T.
Proof.
  destruct TO as (c & s & d & C & M & E). exists c, s, o, d. split; [exact C|]. split; [destruct M as [->| ->]; ring|exact E].
Qed.
Lemma end_turned m : m_end (mm m) = ma (m_end m). Proof. destruct m; reflexivity. Qed.
Lemma last_end_turned ms p : last_end (map mm ms) (ma p) = ma (last_end ms p).
Proof. unfold last_end. rewrite <- map_rev. destruct (rev ms); [reflexivity|apply end_turned]. Qed.
Lemma cut_turned en st a f : whole en -> mk_cut (ma en) (Some (ma st)) a f = mm (mk_cut en (Some st) a f).
Proof. intros W. unfold mk_cut. rewrite init_turn by exact W. reflexivity. Qed.
Lemma arc_turned cw en st c mid a f : whole en -> mk_arc (xorb (mirrored o) cw) (ma en) (Some (ma st)) (ma c) (ma mid) a f = mm (mk_arc cw en (Some st) c mid a f).
Proof. intros W. unfold mk_arc. rewrite init_turn by exact W. reflexivity. Qed.
Lemma rapid_to_turned s e r sa f : rapid_to (ma s) (mv e) r sa f = map mm (rapid_to s e r sa f).
Proof.
  rewrite (rapid_to_turn T turns_rigid). unfold rapid_to. cbn [map]. rewrite !map_app. f_equal. f_equal.
  - destruct (_ || _)%bool; reflexivity.
  - destruct sa as [sa|]; [|reflexivity]. cbn [map]. f_equal. destruct (qltb _ _); reflexivity.
Qed.
Lemma clockwise_turned e : is_arc_clockwise2 (me e) = rmap (xorb (mirrored o)) (is_arc_clockwise2 e).
Proof.
  unfold is_arc_clockwise2, mirrored. cbn [turn_edge turn_axis e_normal e_reversed vz]. destruct TO as (_ & _ & _ & _ & [-> | ->] & _).
  - replace (1 * vz (e_normal e)) with (vz (e_normal e)) by ring. change (qltb 1 0) with false.
    destruct (qeqb _ _); [reflexivity|]. unfold rmap. destruct (e_reversed e); cbn [rbind]; [destruct (qltb 0 _)|destruct (qltb _ 0)]; reflexivity.
  - set (n := vz (e_normal e)). clearbody n. replace (-(1) * n) with (- n) by ring. change (qltb (-(1)) 0) with true.
    assert (Z : qeqb (- n) 0 = qeqb n 0).
    { destruct (qeqb n 0) eqn:Q; [apply qeqb_eq in Q; subst; reflexivity|]. apply qeqb_neq. apply qeqb_neq in Q. intros C. apply Q. replace n with (- - n) by ring. rewrite C. reflexivity. }
    rewrite Z. destruct (qeqb n 0) eqn:Q; [reflexivity|]. apply qeqb_neq in Q.
    assert (X : qltb 0 (- n) = negb (qltb 0 n)).
    { destruct (qltb 0 n) eqn:P; [apply qltb_lt in P; apply qltb_nlt; qlra|]. apply qltb_nlt in P. apply qltb_lt.
      destruct (Qc_dec n 0) as [[C|C]|C]; [qlra|exfalso; qlra|contradiction (Q C)]. }
    assert (Y : qltb (- n) 0 = negb (qltb n 0)).
    { destruct (qltb n 0) eqn:P; [apply qltb_lt in P; apply qltb_nlt; qlra|]. apply qltb_nlt in P. apply qltb_lt.
      destruct (Qc_dec n 0) as [[C|C]|C]; [exfalso; qlra|qlra|contradiction (Q C)]. }
    rewrite X, Y. unfold rmap. destruct (e_reversed e); reflexivity.
Qed.

(** ** Wires *)
Section Kernel.
Context (K : kernel) (KM : kernel_turns T o K).
Lemma start_turned e : edge_start_point (me e) = mv (edge_start_point e).
Proof. unfold edge_start_point. cbn. destruct (e_reversed e); reflexivity. Qed.
Lemma end_pt_turned e : edge_end_point (me e) = mv (edge_end_point e).
Proof. unfold edge_end_point. cbn. destruct (e_reversed e); reflexivity. Qed.
Lemma cuts_through_turned pts a f : forall st, cuts_through (ma st) (map mv pts) a f = map mm (cuts_through st pts a f).
Proof.
  induction pts as [|p pts IH]; intros st; [reflexivity|]. cbn [map cuts_through]. change (from_vector (mv p)) with (ma (from_vector p)).
  rewrite cut_turned by exact I. rewrite IH. reflexivity.
Qed.
Definition mpair (x : list motion * vec) := (map mm (fst x), mv (snd x)).
Lemma route_edge_turned e p sp ep a f : route_edge K (me e) p sp ep a f = rmap mpair (route_edge K e p sp ep a f).
Proof.
  unfold route_edge.
  assert (E1 : match sp with None => edge_start_point (me e) | Some q => e_param (me e) q end = mv (match sp with None => edge_start_point e | Some q => e_param e q end))
    by (destruct sp; [reflexivity|apply start_turned]).
  assert (E2 : match ep with None => edge_end_point (me e) | Some q => e_param (me e) q end = mv (match ep with None => edge_end_point e | Some q => e_param e q end))
    by (destruct ep; [reflexivity|apply end_pt_turned]).
  rewrite E1, E2. set (s := match sp with None => edge_start_point e | Some q => e_param e q end). set (t := match ep with None => edge_end_point e | Some q => e_param e q end).
  clearbody s t. clear E1 E2. apply (bind_map (map mm)); [|reflexivity].
  change (e_geom (me e)) with (e_geom e). change (e_closed (me e)) with (e_closed e). change (e_reversed (me e)) with (e_reversed e).
  change (edge_start_param (me e)) with (edge_start_param e). change (edge_end_param (me e)) with (edge_end_param e).
  rewrite clockwise_turned. change (edge_interpolation_count (me e) p) with (edge_interpolation_count e p).
  assert (L : Ok [mk_cut (from_vector (mv t)) (Some (from_vector (mv s))) a f] = rmap (map mm) (Ok [mk_cut (from_vector t) (Some (from_vector s)) a f])).
  { change (from_vector (mv s)) with (ma (from_vector s)). change (from_vector (mv t)) with (ma (from_vector t)). rewrite cut_turned by exact I. reflexivity. }
  destruct KM as [V _].
  destruct (e_geom e); try exact L; try reflexivity.
  1, 2: apply (bind_map (xorb (mirrored o))); [reflexivity|]; intros cw; destruct (e_closed e); [|rewrite V; destruct (k_veq K s t); [exact L|]].
  1, 3: unfold rmap; cbn [rbind map]; rewrite <- !arc_turned by exact I; reflexivity.
  1, 2: unfold rmap; cbn [rbind map]; rewrite <- !arc_turned by exact I; reflexivity.
  all: destruct (e_reversed e); unfold rmap; cbn [rbind]; rewrite <- cuts_through_turned, map_map; reflexivity.
Qed.
Lemma route_edges_turned j param es : forall first, route_edges K j first param (map me es) = rmap (map mm) (route_edges K j first param es).
Proof.
  induction es as [|e es IH]; intros first; [reflexivity|]. cbn [map route_edges]. apply (bind_map mpair); [apply route_edge_turned|].
  intros [c v]. apply (bind_map (map mm)); [apply IH|]. intros cs. cbn. rewrite map_app. reflexivity.
Qed.
Lemma index_map {A B} (g : A -> B) (f : A -> bool) (f' : B -> bool) l : (forall a, f' (g a) = f a) -> index_of f' (map g l) = index_of f l.
Proof. intros H. induction l as [|a l IH]; [reflexivity|]. cbn [map index_of]. rewrite H, IH. reflexivity. Qed.
Lemma shift_edges_turned es t : shift_edges K (map me es) (turn_target T t) = rmap (map me) (shift_edges K es t).
Proof.
  unfold shift_edges.
  assert (E : match turn_target T t with TEdge id _ => index_of (fun e => Nat.eqb (e_id e) id) (map me es) | TVertex v => index_of (fun e => k_veq K (edge_start_point e) v) (map me es) end =
    match t with TEdge id _ => index_of (fun e => Nat.eqb (e_id e) id) es | TVertex v => index_of (fun e => k_veq K (edge_start_point e) v) es end).
  { destruct t as [v|id q]; cbn [turn_target]; apply index_map; intros e; [|reflexivity]. rewrite start_turned. apply KM. }
  rewrite E. destruct (match t with TEdge id _ => _ | TVertex v => _ end); [|reflexivity]. cbn. rewrite map_app, skipn_map, firstn_map. reflexivity.
Qed.
Lemma hd_map {A B} (g : A -> B) a l : hd (g a) (map g l) = g (hd a l). Proof. destruct l; reflexivity. Qed.
Lemma wire_edges_turned w : wire_edges (turn_wire T o w) = map me (wire_edges w). Proof. destruct w; reflexivity. Qed.
Definition mw (x : option (list motion * avec * vec)) := option_map (fun y => (map mm (fst (fst y)), ma (snd (fst y)), mv (snd y))) x.
Lemma route_wire_turned j so pe pp w : route_wire K j so (option_map mv pe) (ma pp) (turn_wire T o w) = rmap mw (route_wire K j so pe pp w).
Proof.
  unfold route_wire. rewrite wire_edges_turned. destruct (wire_edges w) as [|e0 es] eqn:Ew; [reflexivity|]. cbn [map]. change (me e0 :: map me es) with (map me (e0 :: es)).
  assert (EN : match option_map mv pe with Some v => k_nearest K v (turn_wire T o w) | None => None end =
               option_map (fun a => (fst a, turn_target T (snd a))) (match pe with Some v => k_nearest K v w | None => None end)).
  { destruct pe as [v|]; [apply KM|reflexivity]. }
  rewrite EN. set (near := match pe with Some v => k_nearest K v w | None => None end). clearbody near. clear EN.
  assert (EP : match option_map (fun a => (fst a, turn_target T (snd a))) near with Some (_, TEdge _ p) => Some p | _ => None end =
               match near with Some (_, TEdge _ p) => Some p | _ => None end) by (destruct near as [[x [v|id p]]|]; reflexivity).
  rewrite EP. set (param := match near with Some (_, TEdge _ p) => Some p | _ => None end). clearbody param. clear EP.
  match goal with |- _ = rmap mw (rbind (match ?l with _ => _ end) _) => set (lk := l) end.
  match goal with |- rbind (match ?l with _ => _ end) _ = _ => set (lk' := l) end.
  assert (EL : lk' = option_map (turn_target T) lk).
  { unfold lk, lk'. destruct near as [[x t]|]; [|reflexivity]. cbn [option_map fst snd]. destruct so as [s|]; [|reflexivity]. destruct (_ && _)%bool; reflexivity. }
  clearbody lk lk'. subst lk'.
  apply (bind_map (fun x => (map mm (fst x), map me (snd x)))).
  - destruct lk as [t|]; cbn [option_map].
    + apply (bind_map (map me)); [apply shift_edges_turned|]. intros l. cbn [rmap rbind fst snd map]. rewrite hd_map. rewrite <- cut_turned by exact I.
      destruct (truthy param); [reflexivity|]. rewrite start_turned. reflexivity.
    + unfold rmap. cbn [rbind fst snd]. rewrite start_turned, rapid_to_turned. reflexivity.
  - intros [a l]. cbn [fst snd]. apply (bind_map (map mm)); [apply route_edges_turned|]. intros b. rewrite hd_map.
    apply (bind_map mpair).
    + destruct (truthy param); [apply route_edge_turned|]. rewrite last_map, end_pt_turned. reflexivity.
    + intros [c v]. unfold mpair. cbn [fst snd]. rewrite <- !map_app, last_end_turned. reflexivity.
Qed.
Lemma route_wires_from_turned j so ws : forall pe pp,
  route_wires_from K j so (option_map mv pe) (ma pp) (map (turn_wire T o) ws) = rmap (option_map (map mm)) (route_wires_from K j so pe pp ws).
Proof.
  induction ws as [|w ws IH]; intros pe pp; [reflexivity|]. cbn [map route_wires_from]. apply (bind_map mw); [apply route_wire_turned|].
  intros [[[c p] v]|]; [|reflexivity]. cbn [mw option_map fst snd]. apply (bind_map (option_map (map mm))); [exact (IH (Some v) p)|].
  intros [r|]; [cbn; rewrite map_app; reflexivity|reflexivity].
Qed.
Lemma wires_turned j ws so pp : route_wires K j (map (turn_wire T o) ws) so (option_map ma pp) = rmap (map mm) (route_wires K j ws so pp).
Proof.
  unfold route_wires. replace (dflt (option_map ma pp) av_none) with (ma (dflt pp av_none)) by (destruct pp; reflexivity).
  apply (bind_map (option_map (map mm))); [exact (route_wires_from_turned j so ws None _)|]. intros [r|]; reflexivity.
Qed.
End Kernel.
End Turn.

(** ** Profiles *)
Section Profile.
Context (T : pt -> pt) (om : Qc) (TO : turns T om) (K : kernel) (TK : tab_kernel) (WK : wire_kernel) (j : job) (given : list edge -> list edge).
Context (KM : kernel_turns T om K) (TM : tab_kernel_turns T om TK) (WM : wire_kernel_turns T om WK (j_top j) given).
Notation mm := (turn_move T om). Notation mv := (turn_vec T). Notation me := (turn_edge T om). Notation ms := (map (turn_edge T om)).

Lemma wire_marks_turned t len es : wire_marks t len (ms es) = wire_marks t len es.
Proof.
  destruct t; cbn [wire_marks].
  - rewrite map_map. reflexivity.
  - induction es as [|e es IH]; [reflexivity|]. cbn [map mapM]. rewrite IH. reflexivity.
  - assert (L : load_edge_ranges (ms es) = load_edge_ranges es).
    { unfold load_edge_ranges. rewrite map_map. destruct es; reflexivity. }
    rewrite L. reflexivity.
Qed.
Lemma tab_pieces_step z e prev d1 t d2 t2 ts : tab_pieces TK z e prev ((d1, t) :: (d2, t2) :: ts) =
  let '(q1, q2, rev) := edge_oriented_param e d1 d2 in
  do piece <- match t with
              | TTAB => tk_make TK (project_z z (tk_curve TK e)) (tk_param_at TK e q1) (tk_param_at TK e q2) rev
              | _ => tk_make TK (fun p => tk_location TK e (tk_curve TK e p)) (tk_param_at TK e q1) (tk_param_at TK e q2) rev
              end;
  do link <- match prev with Some q => do l <- tk_line TK (edge_end_point q) (edge_start_point piece); Ok [l] | None => Ok [] end;
  do more <- tab_pieces TK z e (Some piece) ((d2, t2) :: ts);
  Ok (link ++ piece :: more).
Proof. reflexivity. Qed.
Lemma tab_pieces_turned z e ts : forall prev, tab_pieces TK z (me e) (option_map me prev) ts = rmap ms (tab_pieces TK z e prev ts).
Proof.
  destruct TM as (P & C & Lo & Mk & Li & _).
  induction ts as [|[d1 t] [|[d2 t2] ts] IH]; intros prev; [reflexivity|reflexivity|]. rewrite !tab_pieces_step.
  assert (Or : edge_oriented_param (me e) d1 d2 = edge_oriented_param e d1 d2) by reflexivity. rewrite Or.
  destruct (edge_oriented_param e d1 d2) as [[q1 q2] r]. cbn zeta. rewrite !P, C.
  apply (bind_map me).
  { destruct t; [rewrite Lo; apply Mk| |rewrite Lo; apply Mk]. apply (Mk (project_z z (tk_curve TK e))). }
  intros piece. apply (bind_map ms).
  { destruct prev as [q|]; [|reflexivity]. cbn [option_map]. apply (bind_map me); [rewrite end_pt_turned, start_turned; apply Li|reflexivity]. }
  intros link. apply (bind_map ms); [exact (IH (Some piece))|]. intros more. unfold rmap. cbn [rbind]. rewrite map_app. reflexivity.
Qed.
Lemma apply_tabs_turned es z t : apply_tabs TK (ms es) z t = rmap ms (apply_tabs TK es z t).
Proof.
  pose proof TM as (_ & _ & _ & _ & _ & As & Z & L). unfold apply_tabs. rewrite Z, L, wire_marks_turned. destruct (qleb _ _); [reflexivity|].
  apply (bind_map (fun x : list marks => x)); [symmetry; apply rmap_id|]. intros mk.
  apply (bind_map (map ms)).
  - revert mk. induction es as [|e es IH]; intros [|m mk]; try reflexivity. cbn [map combine mapM fst snd]. apply (bind_map ms).
    { unfold tab_edge. destruct (forallb _ _); [reflexivity|]. exact (tab_pieces_turned z e m None). }
    intros b. apply (bind_map (map ms)); [apply IH|]. reflexivity.
  - intros b. unfold rmap. cbn [rbind]. rewrite <- concat_map, As. destruct (tk_assemble TK (concat b)); reflexivity.
Qed.
Lemma layers_above_turned m base s fuel : forall i, layers_above TK WK (j_top j) m (ms base) s fuel i = rmap (map ms) (layers_above TK WK (j_top j) m base s fuel i).
Proof.
  pose proof TM as (_ & _ & _ & _ & _ & _ & Z & _). destruct WM as (_ & _ & _ & _ & Mo & Be).
  induction fuel as [|fuel IH]; intros i; [reflexivity|]. cbn [layers_above]. destruct (m <? i)%Z; [reflexivity|]. cbn zeta. rewrite Mo, Z, Be.
  destruct (qleb _ _); [reflexivity|]. destruct (wk_below WK (j_top j) _) as [b|]; [|reflexivity]. cbn [rbind]. destruct b; [|reflexivity].
  apply (bind_map (map ms)); [apply IH|]. reflexivity.
Qed.
Lemma toolpaths_turned sd t base : profile_toolpaths TK WK j sd t (ms base) = rmap (map ms) (profile_toolpaths TK WK j sd t base).
Proof.
  unfold profile_toolpaths. apply (bind_map (map ms)).
  { unfold profile_layers. destruct sd as [s|]; [|reflexivity]. destruct (qeqb s 0); [reflexivity|]. apply (bind_map (map ms)); [apply layers_above_turned|].
    intros l. unfold rmap. cbn [rbind]. rewrite map_rev. reflexivity. }
  intros ls. destruct t as [t|]; [|reflexivity]. pose proof TM as (_ & _ & _ & _ & _ & _ & Z & _). rewrite Z. apply mapM_map. intros w. apply apply_tabs_turned.
Qed.
Lemma offset_wire_turned w o : offset_wire K WK (ms w) o = rmap (map ms) (offset_wire K WK w o).
Proof.
  destruct WM as (_ & Of & Ar & Re & _ & _). unfold offset_wire.
  assert (R : retry_offset WK (ms w) o = rmap (map ms) (retry_offset WK w o)).
  { unfold retry_offset. rewrite !Of. destruct (wk_offset WK w o) as [l|[]]; reflexivity. }
  rewrite R. destruct (retry_offset WK w o) as [l|[]]; try reflexivity. unfold rmap. cbn [rbind]. f_equal. rewrite last_map. set (x := last l w).
  assert (F : filter (big_enough WK) (map ms l) = map ms (filter (big_enough WK) l)).
  { assert (B : forall a, big_enough WK (ms a) = big_enough WK a) by (intros a; unfold big_enough; rewrite Ar; reflexivity).
    clear x R. induction l as [|a l IH]; [reflexivity|]. cbn [map filter]. rewrite B, IH. destruct (big_enough WK a); reflexivity. }
  rewrite F. unfold circle_bug_workaround. replace (is_circle_wire K (ms x)) with (is_circle_wire K x).
  - destruct (is_circle_wire K x); [|reflexivity]. rewrite !map_map. apply map_ext. intros t. apply Re.
  - destruct x as [|e [|e' x]]; try reflexivity. cbn. symmetry. apply KM.
Qed.
Lemma profile_turned w o sd t : profile K TK WK j (given w) o sd t = rmap (map mm) (profile K TK WK j w o sd t).
Proof.
  unfold profile. pose proof WM as (Tr & _). rewrite Tr. cbn zeta. destruct (tool_radius j) as [r|]; [|reflexivity].
  apply (bind_map (map ms)); [apply offset_wire_turned|]. intros bs. apply (bind_map (map (map ms))); [apply mapM_map; intros b; apply toolpaths_turned|].
  intros ps. rewrite <- (wires_turned T om TO K KM j _ None None). cbn [option_map]. f_equal. rewrite <- concat_map, !map_map. reflexivity.
Qed.
Lemma group_turned ws o sd t : profile_group K TK WK j sd t (map given ws) o = rmap (map mm) (profile_group K TK WK j sd t ws o).
Proof.
  destruct o as [o|]; [|reflexivity]. cbn [profile_group]. apply (bind_map (map (map mm))); [apply mapM_map; intros w; apply profile_turned|].
  intros cs. unfold rmap. cbn [rbind]. rewrite concat_map. reflexivity.
Qed.
Lemma profile_gen_turned os is_ oo io sd t : profile_gen K TK WK (map given os) (map given is_) oo io sd t j = rmap (map (turn_order T om)) (profile_gen K TK WK os is_ oo io sd t j).
Proof.
  unfold profile_gen. apply (bind_map (map mm)); [apply group_turned|]. intros a. apply (bind_map (map mm)); [apply group_turned|]. intros b.
  unfold rmap. cbn [rbind]. rewrite <- map_app, !map_map. reflexivity.
Qed.
Lemma wire_profile_turned ws o sd t : wire_profile_gen K TK WK (map given ws) o sd t j = rmap (map (turn_order T om)) (wire_profile_gen K TK WK ws o sd t j).
Proof. unfold wire_profile_gen. apply (bind_map (map mm)); [apply group_turned|]. intros a. unfold rmap. cbn [rbind]. rewrite !map_map. reflexivity. Qed.
End Profile.
