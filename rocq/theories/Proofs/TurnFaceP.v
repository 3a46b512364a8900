From Verif Require Import Base.Str Base.Py Model.Groups Model.Geometry Model.Plane Model.Edges Model.Command Model.Job Model.Interp Model.Tree Model.Routers Model.Profile Model.Pocket Model.PocketOp
  Spec.Turn Spec.TurnWire Spec.TurnFace Proofs.AlikeP Proofs.ShiftP Proofs.TurnP Proofs.TurnWireP.
Local Open Scope Qc_scope.
Local Open Scope list_scope.

(** ** Pockets of polygons make no arcs *)
Definition straight (m : motion) : Prop := match m with MArc _ _ _ _ _ _ _ => False | _ => True end.
Lemma straight_turned T om ms : Forall straight ms -> map (turn_motion T) ms = map (turn_move T om) ms.
Proof. induction 1 as [|m ms S _ IH]; [reflexivity|]. cbn [map]. rewrite IH. destruct m; [reflexivity|reflexivity|contradiction S]. Qed.
Lemma rapid_to_straight s e r sa f : Forall straight (rapid_to s e r sa f).
Proof.
  unfold rapid_to. constructor; [exact I|]. apply Forall_app. split; [destruct (_ || _)%bool; repeat constructor|].
  destruct sa as [sa|]; [|repeat constructor]. constructor; [exact I|]. destruct (qltb _ _); repeat constructor.
Qed.
Lemma cut_poly_straight z f ps : forall st, Forall straight (cut_poly z f st ps).
Proof. induction ps as [|[x y] ps IH]; intros st; [constructor|]. cbn [cut_poly]. constructor; [exact I|apply IH]. Qed.
Lemma polyface_straight j so pe pp f c p w : route_polyface j so pe pp f = Ok (c, p, w) -> Forall straight c.
Proof.
  unfold route_polyface. destruct (pf_outer f) as [|p0 ps]; [discriminate|]. intros H. apply rbind_ok in H as (near & _ & H).
  match type of H with (let '(_, _) := ?l in _) = _ => assert (A : Forall straight (fst l)); [|destruct l as [acc poly]] end.
  { match goal with |- Forall straight (fst (match ?l with _ => _ end)) => destruct l as [[cc i]|] end; cbn [fst]; [repeat constructor|apply rapid_to_straight]. }
  cbn [fst] in A. cbv zeta in H. match type of H with context [cut_poly ?z ?f ?s ?l] => pose proof (cut_poly_straight z f l s) as B; set (body := cut_poly z f s l) in * end. clearbody body.
  destruct near as [[[x c'] n]|]; assert (C := f_equal (fun r => match r with Ok y => fst (fst y) | Err _ => c end) H); cbn [fst] in C; rewrite <- C;
    (apply Forall_app; split; [exact A|]; apply Forall_app; split; [exact B|]; repeat constructor).
Qed.
Lemma polyfaces_straight j so fs : forall pe pp cs, route_polyfaces_from j so pe pp fs = Ok cs -> Forall straight cs.
Proof.
  induction fs as [|f fs IH]; intros pe pp cs H; cbn [route_polyfaces_from] in H; [injection H as <-; constructor|].
  apply rbind_ok in H as ([[c p] w] & H1 & H). apply rbind_ok in H as (r & H2 & H). injection H as <-. apply Forall_app. split; [exact (polyface_straight _ _ _ _ _ _ _ _ H1)|exact (IH _ _ _ H2)].
Qed.
Lemma sequences_straight j so ss : forall dn pp cs, route_sequences j so dn pp ss = Ok cs -> Forall straight cs.
Proof.
  induction ss as [|s ss IH]; intros dn pp cs H; cbn [route_sequences] in H; [injection H as <-; constructor|].
  apply rbind_ok in H as (c & H1 & H). assert (C : Forall straight c) by exact (polyfaces_straight _ _ _ _ _ _ H1).
  destruct c as [|m c]; [destruct dn; [|discriminate H]|]; apply rbind_ok in H as (r & H2 & H); injection H as <-; [exact (IH _ _ _ H2)|].
  change (m :: c ++ r) with ((m :: c) ++ r). apply Forall_app. split; [exact C|exact (IH _ _ _ H2)].
Qed.
Lemma pocket_straight E fuel j ops avs a b c e so sd cs : pocket_clipper E fuel j ops avs a b c e so sd = Ok cs -> Forall straight cs.
Proof.
  unfold pocket_clipper. intros H. apply rbind_ok in H as (os & _ & H). apply rbind_ok in H as (vs & _ & H). apply rbind_ok in H as (po & _ & H). apply rbind_ok in H as (ss & _ & H).
  exact (sequences_straight _ _ _ _ _ _ H).
Qed.

Section Face.
Context (T : pt -> pt) (om : Qc) (TO : turns T om) (K : kernel) (WK : wire_kernel) (F : face_kernel) (j : job) (gw : list edge -> list edge) (given shadow : fk_face F -> fk_face F).
Context (KM : kernel_turns T om K) (WM : wire_kernel_turns T om WK (j_top j) gw) (FM : face_kernel_turns F (j_top j) given shadow T om).
Notation mm := (turn_move T om). Notation mv := (turn_vec T). Notation me := (turn_edge T om). Notation ms := (map (turn_edge T om)).
Lemma pocket_poly_turned E fuel ops avs a b c e so sd : engine_turns T E ->
  pocket_clipper E fuel j (map (turn_face T) ops) (map (turn_face T) avs) a b c e so sd = rmap (map mm) (pocket_clipper E fuel j ops avs a b c e so sd).
Proof.
  intros EM. rewrite (pocket_turn T (turns_rigid T om TO) E EM). destruct (pocket_clipper E fuel j ops avs a b c e so sd) as [cs|] eqn:P; [|reflexivity].
  unfold rmap. cbn [rbind]. rewrite (straight_turned T om cs (pocket_straight _ _ _ _ _ _ _ _ _ _ _ _ P)). reflexivity.
Qed.

(** ** Polygons from faces *)
Lemma edge_vectors_turned n e : edge_to_vectors (fk_basis F) (me e) n = rmap (map mv) (edge_to_vectors (fk_basis F) e n).
Proof.
  destruct FM as (_ & _ & _ & _ & _ & Ba & _). unfold edge_to_vectors. apply (bind_map (fun g : geom => g)).
  - rewrite rmap_id. change (e_geom (me e)) with (e_geom e). destruct (e_geom e); try reflexivity. apply Ba.
  - intros g. assert (I : Ok (interpolate_edge_to_vectors (me e) n) = rmap (map mv) (Ok (interpolate_edge_to_vectors e n))).
    { unfold rmap. cbn [rbind]. f_equal. unfold interpolate_edge_to_vectors. change (e_reversed (me e)) with (e_reversed e). change (edge_interpolation_count (me e) n) with (edge_interpolation_count e n).
      destruct (e_reversed e); rewrite map_map; reflexivity. }
    destruct g; try exact I. unfold edge_start_end. change (e_reversed (me e)) with (e_reversed e). destruct (e_reversed e); reflexivity.
Qed.
Lemma wire_to_path_turned n w : wire_to_path (k_veq K) (fk_basis F) (ms w) n = rmap (turn_path T) (wire_to_path (k_veq K) (fk_basis F) w n).
Proof.
  unfold wire_to_path. apply (bind_map (map mv)).
  - unfold wire_to_vectors. destruct w as [|e es]; [reflexivity|]. cbn [map]. apply (bind_map (map mv)); [apply edge_vectors_turned|]. intros f.
    apply (bind_map (map (map mv))); [apply mapM_map; intros x; apply edge_vectors_turned|]. intros r. cbn zeta.
    assert (C : map mv f ++ concat (map (tl (A:=vec)) (map (map mv) r)) = map mv (f ++ concat (map (tl (A:=vec)) r))).
    { rewrite map_app, concat_map, !map_map. f_equal. f_equal. apply map_ext. intros [|x l]; reflexivity. }
    rewrite C. set (vs := f ++ concat (map (tl (A:=vec)) r)). clearbody vs. rewrite map_length. destruct (Nat.eqb (length vs) 1); [reflexivity|].
    destruct vs as [|v0 vs]; [reflexivity|]. cbn [map]. change (mv v0 :: map mv vs) with (map mv (v0 :: vs)). rewrite last_map. destruct KM as [V _]. rewrite V.
    destruct (true && negb _)%bool; [unfold rmap; cbn [rbind]; rewrite map_app; reflexivity|]. destruct (negb true && _)%bool eqn:N; [discriminate N|]. reflexivity.
  - intros vs. unfold rmap. cbn [rbind]. unfold vectors_to_2d_tuples, turn_path. rewrite !map_map. f_equal. apply map_ext. intros v. unfold turn_vec. cbn [vx vy]. destruct (T (vx v, vy v)); reflexivity.
Qed.
Lemma from_face_turned n f : from_cq_face K F n (shadow f) = rmap (turn_face T) (from_cq_face K F n f).
Proof.
  pose proof FM as (_ & Z0 & Z1 & Ou & In_ & _). unfold from_cq_face. rewrite Z0, Z1, Ou, In_. destruct (negb _); [reflexivity|].
  apply (bind_map (turn_path T)); [apply wire_to_path_turned|]. intros o. apply (bind_map (map (turn_path T))); [apply mapM_map; intros w; apply wire_to_path_turned|]. reflexivity.
Qed.

(** ** Engine "cq" *)
Notation sh := (map shadow).
Definition mfd (m : face_dict F) : face_dict F := map (fun kv => (fst kv, sh (snd kv))) m.
Lemma fdict_get_turned m z : fdict_get F (mfd m) z = sh (fdict_get F m z).
Proof. induction m as [|[k fs] m IH]; [reflexivity|]. cbn. destruct (qeqb k z); [reflexivity|exact IH]. Qed.
Lemma fdict_append_turned m z fs : fdict_append F (mfd m) z (sh fs) = mfd (fdict_append F m z fs).
Proof. induction m as [|[k gs] m IH]; [reflexivity|]. cbn. destruct (qeqb k z); cbn; [rewrite map_app; reflexivity|]. f_equal. exact IH. Qed.
Lemma group_faces_turned fs : forall m, group_faces F (sh fs) (mfd m) = rmap mfd (group_faces F fs m).
Proof.
  pose proof FM as (_ & _ & Z1 & _). induction fs as [|f fs IH]; intros m; [reflexivity|]. cbn [map group_faces]. rewrite Z1. destruct (qltb 0 _); [reflexivity|].
  rewrite <- IH, <- fdict_append_turned. reflexivity.
Qed.
Lemma face_map_turned fs : face_depth_map F (sh fs) = rmap (fun x => (mfd (fst x), snd x)) (face_depth_map F fs).
Proof.
  unfold face_depth_map. apply (bind_map mfd); [exact (group_faces_turned fs [])|]. intros m. unfold rmap. cbn [rbind fst snd]. unfold mfd at 2. rewrite map_map. reflexivity.
Qed.
Lemma moved_turned z fs : moved_faces F (j_top j) z (sh fs) = sh (moved_faces F (j_top j) z fs).
Proof. destruct FM as (_ & _ & _ & _ & _ & _ & _ & Tr & _). unfold moved_faces. rewrite !map_map. apply map_ext. intros f. apply Tr. Qed.
Lemma lift_turned z subs : forall m, lift_deeper F (j_top j) (mfd m) z subs = mfd (lift_deeper F (j_top j) m z subs).
Proof. induction subs as [|s subs IH]; intros m; [reflexivity|]. cbn [lift_deeper]. rewrite fdict_get_turned, moved_turned, fdict_append_turned. apply IH. Qed.
Lemma face_levels_turned am ads ds : forall m, face_levels F (j_top j) (mfd m) (mfd am) ads ds = rmap sh (face_levels F (j_top j) m am ads ds).
Proof.
  pose proof FM as (_ & _ & _ & _ & _ & _ & _ & _ & Co & Cu).
  induction ds as [|z ds IH]; intros m; [reflexivity|]. cbn [face_levels]. cbn zeta. rewrite lift_turned, fdict_get_turned. set (m' := lift_deeper F (j_top j) m z ds).
  apply (bind_map sh); [apply Co|]. intros ops. apply (bind_map sh).
  - destruct ads as [|a ads]; [reflexivity|]. generalize (filter (fun a0 => qleb z a0) (a :: ads)). intros l. 
    assert (E : flat_map (fun a0 => moved_faces F (j_top j) (z - a0) (fdict_get F (mfd am) a0)) l = sh (flat_map (fun a0 => moved_faces F (j_top j) (z - a0) (fdict_get F am a0)) l)).
    { induction l as [|b l IHl]; [reflexivity|]. cbn [flat_map]. rewrite fdict_get_turned, moved_turned, map_app, IHl. reflexivity. }
    rewrite E. apply (bind_map (map sh)); [apply mapM_map; intros f; apply Cu|]. intros cs. unfold rmap. cbn [rbind]. rewrite concat_map. reflexivity.
  - intros o. apply (bind_map sh); [apply IH|]. intros r. cbn. rewrite map_app. reflexivity.
Qed.
Lemma face_ops_turned ops avs : build_face_ops F (j_top j) (sh ops) (sh avs) = rmap sh (build_face_ops F (j_top j) ops avs).
Proof.
  unfold build_face_ops. apply (bind_map (fun x => (mfd (fst x), snd x))); [apply face_map_turned|]. intros [m ds].
  apply (bind_map (fun x => (mfd (fst x), snd x))); [apply face_map_turned|]. intros [am ads]. apply face_levels_turned.
Qed.
Lemma offset_face_turned f o i : offset_cq_face K WK F (shadow f) o i = rmap sh (offset_cq_face K WK F f o i).
Proof.
  pose proof FM as (_ & _ & _ & Ou & In_ & _ & Mk & _). unfold offset_cq_face. rewrite Ou, In_.
  apply (bind_map (map ms)); [exact (offset_wire_turned T om K WK j gw KM WM _ o)|]. intros os.
  apply (bind_map (map (map ms))); [apply mapM_map; intros w; exact (offset_wire_turned T om K WK j gw KM WM w i)|]. intros is_. rewrite <- concat_map. apply mapM_map. intros x. apply Mk.
Qed.
Lemma cut_outers_turned ifs ws : cut_outers F (sh ifs) (map ms ws) = rmap (map ms) (cut_outers F ifs ws).
Proof.
  pose proof FM as (_ & _ & _ & Ou & _ & _ & Mk & _ & _ & Cu).
  induction ws as [|w ws IH]; [reflexivity|]. cbn [map cut_outers]. pose proof (Mk w []) as M. cbn [map] in M. rewrite M.
  destruct (fk_make F w []) as [f|[]]; try reflexivity; [|exact IH]. unfold rmap at 1. cbn [rbind]. apply (bind_map sh); [apply Cu|]. intros fs. apply (bind_map (map ms)); [exact IH|].
  intros r. unfold rmap. cbn [rbind]. f_equal. rewrite map_app. f_equal. rewrite !map_map. apply map_ext. exact Ou.
Qed.
Lemma next_wires_turned ifs st w : next_wires K WK F (sh ifs) st (ms w) = rmap (map ms) (next_wires K WK F ifs st w).
Proof.
  unfold next_wires. apply (bind_map (map ms)); [exact (offset_wire_turned T om K WK j gw KM WM w (- st))|]. intros cs.
  destruct ifs as [|f ifs]; [reflexivity|]. exact (cut_outers_turned (f :: ifs) cs).
Qed.
Notation mo := (fun o : nat * list edge => (fst o, ms (snd o))).
Lemma fill_wires_turned next next' fuel : (forall p, next' (ms p) = rmap (map ms) (next p)) -> forall t, fill_wires next' fuel (map_tree mo t) = rmap (map_tree mo) (fill_wires next fuel t).
Proof.
  intros H. induction fuel as [|fuel IH]; intros t; [reflexivity|]. cbn [fill_wires]. rewrite next_unlocked_map. destruct (next_unlocked t) as [i|]; [|reflexivity].
  apply (bind_map mo); [apply obj_at_map|]. intros o. apply (bind_map (map ms)); [apply H|]. intros os. rewrite <- IH. f_equal.
  destruct os as [|x os]; cbn [map]; [apply lock_map|]. change (ms x :: map ms os) with (map ms (x :: os)). rewrite <- branch_map. f_equal.
  unfold map_tree at 1. rewrite !map_length. generalize (seq (length t) (length (x :: os))). induction (x :: os) as [|y l IHl]; intros [|k ks]; try reflexivity.
  cbn [map combine]. f_equal. apply IHl.
Qed.
Lemma fill_face_turned fuel p st : fill_face K WK F fuel (shadow p) st = rmap (map (map ms)) (fill_face K WK F fuel p st).
Proof.
  pose proof FM as (_ & _ & _ & Ou & In_ & _ & Mk & _). unfold fill_face. rewrite Ou, In_. apply (bind_map sh).
  { apply mapM_map. intros w. exact (Mk w []). }
  intros ifs. apply (bind_map (map_tree mo)); [exact (fill_wires_turned _ _ fuel (next_wires_turned ifs st) (new_tree (O, fk_outer F p)))|].
  intros t. apply (bind_map (map (map mo))); [apply sequences_map; reflexivity|]. intros ss. unfold rmap. cbn [rbind]. rewrite !map_map. f_equal.
  apply map_ext. intros l. rewrite !map_map. reflexivity.
Qed.
Lemma wire_sequences_turned so ss : forall dn pp, route_wire_sequences K j so dn (turn_avec T pp) (map (map ms) ss) = rmap (map mm) (route_wire_sequences K j so dn pp ss).
Proof.
  induction ss as [|s ss IH]; intros dn pp; [reflexivity|]. cbn [map route_wire_sequences]. apply (bind_map (map mm)).
  { rewrite <- (wires_turned T om TO K KM j _ (Some so) (Some pp)). cbn [option_map]. f_equal. rewrite !map_map. reflexivity. }
  intros c. rewrite (last_end_turned T om). destruct c as [|m c]; cbn [map].
  - destruct dn; [|reflexivity]. apply (bind_map (map mm)); [apply IH|]. reflexivity.
  - apply (bind_map (map mm)); [apply IH|]. intros r. cbn. rewrite map_app. reflexivity.
Qed.
Lemma pocket_cq_turned fuel ops avs a b c e so : pocket_cq K WK F fuel j (sh ops) (sh avs) a b c e so = rmap (map mm) (pocket_cq K WK F fuel j ops avs a b c e so).
Proof.
  unfold pocket_cq. apply (bind_map (map sh)); [apply mapM_map; intros; apply offset_face_turned|]. intros os.
  apply (bind_map (map sh)); [apply mapM_map; intros; apply offset_face_turned|]. intros vs. rewrite <- !concat_map. apply (bind_map sh); [apply face_ops_turned|]. intros po.
  apply (bind_map (map (map (map ms)))); [apply mapM_map; intros; apply fill_face_turned|]. intros fs. rewrite <- concat_map. exact (wire_sequences_turned so (concat fs) false av_none).
Qed.

(** ** The operation *)
Context (E : engine) (EM : engine_turns T E).
Lemma pocket_op_turned fuel eng ops avs a : pocket K WK F E fuel eng j (map given ops) (option_map (map given) avs) a = rmap (map mm) (pocket K WK F E fuel eng j ops avs a).
Proof.
  pose proof FM as (Tr & _). unfold pocket. cbn zeta.
  assert (A : match option_map (map given) avs with None => [] | Some l => l end = map given (match avs with None => [] | Some l => l end)) by (destruct avs; reflexivity).
  rewrite A. set (av := match avs with None => [] | Some l => l end). clearbody av. clear A avs.
  assert (Tl : forall l, map (fk_transform F (j_top j)) (map given l) = sh (map (fk_transform F (j_top j)) l)) by (intros l; rewrite !map_map; apply map_ext; exact Tr).
  rewrite !Tl.
  match goal with |- rbind (calculate_offset _ ?x _) _ = rmap _ (rbind (calculate_offset _ ?y _) _) => replace x with y by (destruct av; reflexivity); generalize y end. intros outer.
  do 5 (match goal with |- rbind (calculate_offset ?r ?x ?y) _ = _ => destruct (calculate_offset r x y) end; [cbn [rbind]|reflexivity]).
  destruct eng; [|apply pocket_cq_turned|reflexivity].
  apply (bind_map (map (turn_face T))); [apply mapM_map; intros f; apply from_face_turned|]. intros op.
  apply (bind_map (map (turn_face T))); [apply mapM_map; intros f; apply from_face_turned|]. intros ap. exact (pocket_poly_turned E _ _ _ _ _ _ _ _ _ EM).
Qed.
Lemma pocket_gen_turned fuel ops avs a : pocket_gen K WK F E fuel (map given ops) (option_map (map given) avs) a j = rmap (map (turn_order T om)) (pocket_gen K WK F E fuel ops avs a j).
Proof. unfold pocket_gen. apply (bind_map (map mm)); [apply pocket_op_turned|]. intros m. unfold rmap. cbn [rbind]. rewrite !map_map. reflexivity. Qed.
End Face.
