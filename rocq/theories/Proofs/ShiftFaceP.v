From Verif Require Import Base.Str Base.Py Model.Groups Model.Geometry Model.Plane Model.Edges Model.Command Model.Job Model.Interp Model.Tree Model.Routers Model.Profile Model.Pocket Model.PocketOp
  Spec.Shift Spec.ShiftKernel Spec.ShiftFace Proofs.AlikeP Proofs.ShiftP Proofs.ShiftKernelP.
Local Open Scope Qc_scope.
Local Open Scope list_scope.

Section Face.
Context (d : pt) (K : kernel) (WK : wire_kernel) (F : face_kernel) (j : job) (gw : list edge -> list edge) (given shadow : fk_face F -> fk_face F).
Context (KM : kernel_moves K d) (WM : wire_kernel_moves WK (j_top j) gw d) (FM : face_kernel_moves F (j_top j) given shadow d).
Notation mm := (move_motion d). Notation mv := (move_vec d). Notation me := (move_edge d). Notation ms := (map (move_edge d)). Notation mp := (move_pt d).

(** ** Polygons from faces *)
Lemma edge_vectors_shift n e : edge_to_vectors (fk_basis F) (me e) n = rmap (map mv) (edge_to_vectors (fk_basis F) e n).
Proof.
  destruct FM as (_ & _ & _ & _ & _ & Ba & _). unfold edge_to_vectors. apply (bind_map (fun g : geom => g)).
  - rewrite rmap_id. change (e_geom (me e)) with (e_geom e). destruct (e_geom e); try reflexivity. apply Ba.
  - intros g. assert (I : Ok (interpolate_edge_to_vectors (me e) n) = rmap (map mv) (Ok (interpolate_edge_to_vectors e n))).
    { unfold rmap. cbn [rbind]. f_equal. unfold interpolate_edge_to_vectors. change (e_reversed (me e)) with (e_reversed e). change (edge_interpolation_count (me e) n) with (edge_interpolation_count e n).
      destruct (e_reversed e); rewrite map_map; reflexivity. }
    destruct g; try exact I. unfold edge_start_end. change (e_reversed (me e)) with (e_reversed e). destruct (e_reversed e); reflexivity.
Qed.
Lemma wire_to_path_shift n w : wire_to_path (k_veq K) (fk_basis F) (ms w) n = rmap (move_path d) (wire_to_path (k_veq K) (fk_basis F) w n).
Proof.
  unfold wire_to_path. apply (bind_map (map mv)).
  - unfold wire_to_vectors. destruct w as [|e es]; [reflexivity|]. cbn [map]. apply (bind_map (map mv)); [apply edge_vectors_shift|]. intros f.
    apply (bind_map (map (map mv))); [apply mapM_map; intros x; apply edge_vectors_shift|]. intros r. cbn zeta.
    assert (C : map mv f ++ concat (map (tl (A:=vec)) (map (map mv) r)) = map mv (f ++ concat (map (tl (A:=vec)) r))).
    { rewrite map_app, concat_map, !map_map. f_equal. f_equal. apply map_ext. intros [|x l]; reflexivity. }
    rewrite C. set (vs := f ++ concat (map (tl (A:=vec)) r)). clearbody vs. rewrite map_length. destruct (Nat.eqb (length vs) 1); [reflexivity|].
    destruct vs as [|v0 vs]; [reflexivity|]. cbn [map]. change (mv v0 :: map mv vs) with (map mv (v0 :: vs)). rewrite last_map. destruct KM as [V _]. rewrite V.
    destruct (true && negb _)%bool; [unfold rmap; cbn [rbind]; rewrite map_app; reflexivity|]. destruct (negb true && _)%bool eqn:N; [discriminate N|]. reflexivity.
  - intros vs. unfold rmap. cbn [rbind]. unfold vectors_to_2d_tuples, move_path. rewrite !map_map. reflexivity.
Qed.
Lemma from_face_shift n f : from_cq_face K F n (shadow f) = rmap (move_face d) (from_cq_face K F n f).
Proof.
  pose proof FM as (_ & Z0 & Z1 & Ou & In_ & _). unfold from_cq_face. rewrite Z0, Z1, Ou, In_. destruct (negb _); [reflexivity|].
  apply (bind_map (move_path d)); [apply wire_to_path_shift|]. intros o. apply (bind_map (map (move_path d))); [apply mapM_map; intros w; apply wire_to_path_shift|]. reflexivity.
Qed.

(** ** Engine "cq" *)
Notation sh := (map shadow).
Definition mfd (m : face_dict F) : face_dict F := map (fun kv => (fst kv, sh (snd kv))) m.
Lemma fdict_get_shift m z : fdict_get F (mfd m) z = sh (fdict_get F m z).
Proof. induction m as [|[k fs] m IH]; [reflexivity|]. cbn. destruct (qeqb k z); [reflexivity|exact IH]. Qed.
Lemma fdict_append_shift m z fs : fdict_append F (mfd m) z (sh fs) = mfd (fdict_append F m z fs).
Proof. induction m as [|[k gs] m IH]; [reflexivity|]. cbn. destruct (qeqb k z); cbn; [rewrite map_app; reflexivity|]. f_equal. exact IH. Qed.
Lemma group_faces_shift fs : forall m, group_faces F (sh fs) (mfd m) = rmap mfd (group_faces F fs m).
Proof.
  pose proof FM as (_ & _ & Z1 & _). induction fs as [|f fs IH]; intros m; [reflexivity|]. cbn [map group_faces]. rewrite Z1. destruct (qltb 0 _); [reflexivity|].
  rewrite <- IH, <- fdict_append_shift. reflexivity.
Qed.
Lemma face_map_shift fs : face_depth_map F (sh fs) = rmap (fun x => (mfd (fst x), snd x)) (face_depth_map F fs).
Proof.
  unfold face_depth_map. apply (bind_map mfd); [exact (group_faces_shift fs [])|]. intros m. unfold rmap. cbn [rbind fst snd]. unfold mfd at 2. rewrite map_map. reflexivity.
Qed.
Lemma moved_shift z fs : moved_faces F (j_top j) z (sh fs) = sh (moved_faces F (j_top j) z fs).
Proof. destruct FM as (_ & _ & _ & _ & _ & _ & _ & Tr & _). unfold moved_faces. rewrite !map_map. apply map_ext. intros f. apply Tr. Qed.
Lemma lift_shift z subs : forall m, lift_deeper F (j_top j) (mfd m) z subs = mfd (lift_deeper F (j_top j) m z subs).
Proof. induction subs as [|s subs IH]; intros m; [reflexivity|]. cbn [lift_deeper]. rewrite fdict_get_shift, moved_shift, fdict_append_shift. apply IH. Qed.
Lemma face_levels_shift am ads ds : forall m, face_levels F (j_top j) (mfd m) (mfd am) ads ds = rmap sh (face_levels F (j_top j) m am ads ds).
Proof.
  pose proof FM as (_ & _ & _ & _ & _ & _ & _ & _ & Co & Cu).
  induction ds as [|z ds IH]; intros m; [reflexivity|]. cbn [face_levels]. cbn zeta. rewrite lift_shift, fdict_get_shift. set (m' := lift_deeper F (j_top j) m z ds).
  apply (bind_map sh); [apply Co|]. intros ops. apply (bind_map sh).
  - destruct ads as [|a ads]; [reflexivity|]. generalize (filter (fun a0 => qleb z a0) (a :: ads)). intros l. 
    assert (E : flat_map (fun a0 => moved_faces F (j_top j) (z - a0) (fdict_get F (mfd am) a0)) l = sh (flat_map (fun a0 => moved_faces F (j_top j) (z - a0) (fdict_get F am a0)) l)).
    { induction l as [|b l IHl]; [reflexivity|]. cbn [flat_map]. rewrite fdict_get_shift, moved_shift, map_app, IHl. reflexivity. }
    rewrite E. apply (bind_map (map sh)); [apply mapM_map; intros f; apply Cu|]. intros cs. unfold rmap. cbn [rbind]. rewrite concat_map. reflexivity.
  - intros o. apply (bind_map sh); [apply IH|]. intros r. cbn. rewrite map_app. reflexivity.
Qed.
Lemma face_ops_shift ops avs : build_face_ops F (j_top j) (sh ops) (sh avs) = rmap sh (build_face_ops F (j_top j) ops avs).
Proof.
  unfold build_face_ops. apply (bind_map (fun x => (mfd (fst x), snd x))); [apply face_map_shift|]. intros [m ds].
  apply (bind_map (fun x => (mfd (fst x), snd x))); [apply face_map_shift|]. intros [am ads]. apply face_levels_shift.
Qed.
Lemma offset_face_shift f o i : offset_cq_face K WK F (shadow f) o i = rmap sh (offset_cq_face K WK F f o i).
Proof.
  pose proof FM as (_ & _ & _ & Ou & In_ & _ & Mk & _). unfold offset_cq_face. rewrite Ou, In_.
  apply (bind_map (map ms)); [exact (offset_wire_shift d K WK j gw KM WM _ o)|]. intros os.
  apply (bind_map (map (map ms))); [apply mapM_map; intros w; exact (offset_wire_shift d K WK j gw KM WM w i)|]. intros is_. rewrite <- concat_map. apply mapM_map. intros x. apply Mk.
Qed.
Lemma cut_outers_shift ifs ws : cut_outers F (sh ifs) (map ms ws) = rmap (map ms) (cut_outers F ifs ws).
Proof.
  pose proof FM as (_ & _ & _ & Ou & _ & _ & Mk & _ & _ & Cu).
  induction ws as [|w ws IH]; [reflexivity|]. cbn [map cut_outers]. pose proof (Mk w []) as M. cbn [map] in M. rewrite M.
  destruct (fk_make F w []) as [f|[]]; try reflexivity; [|exact IH]. unfold rmap at 1. cbn [rbind]. apply (bind_map sh); [apply Cu|]. intros fs. apply (bind_map (map ms)); [exact IH|].
  intros r. unfold rmap. cbn [rbind]. f_equal. rewrite map_app. f_equal. rewrite !map_map. apply map_ext. exact Ou.
Qed.
Lemma next_wires_shift ifs st w : next_wires K WK F (sh ifs) st (ms w) = rmap (map ms) (next_wires K WK F ifs st w).
Proof.
  unfold next_wires. apply (bind_map (map ms)); [exact (offset_wire_shift d K WK j gw KM WM w (- st))|]. intros cs.
  destruct ifs as [|f ifs]; [reflexivity|]. exact (cut_outers_shift (f :: ifs) cs).
Qed.
Notation mo := (fun o : nat * list edge => (fst o, ms (snd o))).
Lemma fill_wires_shift next next' fuel : (forall p, next' (ms p) = rmap (map ms) (next p)) -> forall t, fill_wires next' fuel (map_tree mo t) = rmap (map_tree mo) (fill_wires next fuel t).
Proof.
  intros H. induction fuel as [|fuel IH]; intros t; [reflexivity|]. cbn [fill_wires]. rewrite next_unlocked_map. destruct (next_unlocked t) as [i|]; [|reflexivity].
  apply (bind_map mo); [apply obj_at_map|]. intros o. apply (bind_map (map ms)); [apply H|]. intros os. rewrite <- IH. f_equal.
  destruct os as [|x os]; cbn [map]; [apply lock_map|]. change (ms x :: map ms os) with (map ms (x :: os)). rewrite <- branch_map. f_equal.
  unfold map_tree at 1. rewrite !map_length. generalize (seq (length t) (length (x :: os))). induction (x :: os) as [|y l IHl]; intros [|k ks]; try reflexivity.
  cbn [map combine]. f_equal. apply IHl.
Qed.
Lemma fill_face_shift fuel p st : fill_face K WK F fuel (shadow p) st = rmap (map (map ms)) (fill_face K WK F fuel p st).
Proof.
  pose proof FM as (_ & _ & _ & Ou & In_ & _ & Mk & _). unfold fill_face. rewrite Ou, In_. apply (bind_map sh).
  { apply mapM_map. intros w. exact (Mk w []). }
  intros ifs. apply (bind_map (map_tree mo)); [exact (fill_wires_shift _ _ fuel (next_wires_shift ifs st) (new_tree (O, fk_outer F p)))|].
  intros t. apply (bind_map (map (map mo))); [apply sequences_map; reflexivity|]. intros ss. unfold rmap. cbn [rbind]. rewrite !map_map. f_equal.
  apply map_ext. intros l. rewrite !map_map. reflexivity.
Qed.
Lemma wire_sequences_shift so ss : forall dn pp, route_wire_sequences K j so dn (move_avec d pp) (map (map ms) ss) = rmap (map mm) (route_wire_sequences K j so dn pp ss).
Proof.
  induction ss as [|s ss IH]; intros dn pp; [reflexivity|]. cbn [map route_wire_sequences]. apply (bind_map (map mm)).
  { rewrite <- (wires_shift d K KM j _ (Some so) (Some pp)). cbn [option_map]. f_equal. rewrite !map_map. reflexivity. }
  intros c. rewrite last_end_shift. destruct c as [|m c]; cbn [map].
  - destruct dn; [|reflexivity]. apply (bind_map (map mm)); [apply IH|]. reflexivity.
  - apply (bind_map (map mm)); [apply IH|]. intros r. cbn. rewrite map_app. reflexivity.
Qed.
Lemma pocket_cq_shift fuel ops avs a b c e so : pocket_cq K WK F fuel j (sh ops) (sh avs) a b c e so = rmap (map mm) (pocket_cq K WK F fuel j ops avs a b c e so).
Proof.
  unfold pocket_cq. apply (bind_map (map sh)); [apply mapM_map; intros; apply offset_face_shift|]. intros os.
  apply (bind_map (map sh)); [apply mapM_map; intros; apply offset_face_shift|]. intros vs. rewrite <- !concat_map. apply (bind_map sh); [apply face_ops_shift|]. intros po.
  apply (bind_map (map (map (map ms)))); [apply mapM_map; intros; apply fill_face_shift|]. intros fs. rewrite <- concat_map. exact (wire_sequences_shift so (concat fs) false av_none).
Qed.

(** ** The operation *)
Context (E : engine) (EM : engine_moves E d).
Lemma pocket_op_shift fuel eng ops avs a : pocket K WK F E fuel eng j (map given ops) (option_map (map given) avs) a = rmap (map mm) (pocket K WK F E fuel eng j ops avs a).
Proof.
  pose proof FM as (Tr & _). unfold pocket. cbn zeta.
  assert (A : match option_map (map given) avs with None => [] | Some l => l end = map given (match avs with None => [] | Some l => l end)) by (destruct avs; reflexivity).
  rewrite A. set (av := match avs with None => [] | Some l => l end). clearbody av. clear A avs.
  assert (T : forall l, map (fk_transform F (j_top j)) (map given l) = sh (map (fk_transform F (j_top j)) l)) by (intros l; rewrite !map_map; apply map_ext; exact Tr).
  rewrite !T.
  match goal with |- rbind (calculate_offset _ ?x _) _ = rmap _ (rbind (calculate_offset _ ?y _) _) => replace x with y by (destruct av; reflexivity); generalize y end. intros outer.
  do 5 (match goal with |- rbind (calculate_offset ?r ?x ?y) _ = _ => destruct (calculate_offset r x y) end; [cbn [rbind]|reflexivity]).
  destruct eng; [|apply pocket_cq_shift|reflexivity].
  apply (bind_map (map (move_face d))); [apply mapM_map; intros f; apply from_face_shift|]. intros op.
  apply (bind_map (map (move_face d))); [apply mapM_map; intros f; apply from_face_shift|]. intros ap. apply (pocket_shift d E EM).
Qed.
Lemma pocket_gen_shift fuel ops avs a : pocket_gen K WK F E fuel (map given ops) (option_map (map given) avs) a j = rmap (map (move_command d)) (pocket_gen K WK F E fuel ops avs a j).
Proof. unfold pocket_gen. apply (bind_map (map mm)); [apply pocket_op_shift|]. intros m. unfold rmap. cbn [rbind]. rewrite !map_map. reflexivity. Qed.
End Face.
