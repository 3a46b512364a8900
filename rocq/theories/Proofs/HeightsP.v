From Verif Require Import Base.Str Base.Py Model.Groups Model.Geometry Model.Plane Model.Edges Model.Command Model.Job Model.Interp Model.Tree Model.Routers Model.Pocket Model.Profile Model.Drill Model.Strategy Model.Surface Model.PocketOp
  Spec.Jobs Spec.Alike Spec.Heights Spec.HeightMoves Proofs.AlikeP.
Local Open Scope Qc_scope.
Local Open Scope list_scope.

(** The commands with flat rapids, and with each cut the end of the command before it. *)
Fixpoint marks (p : option avec) (ms : list motion) : list (motion * option avec) :=
  match ms with
  | [] => []
  | m :: ms => (flat_rapid m, match m with MRapid _ _ _ _ => None | _ => p end) :: marks (Some (m_end m)) ms
  end.
(** Lists with the same flat rapids and entries, after which the tool is at the same place. *)
Definition fl (ms : list motion) : list (motion * option avec) * option avec := (marks None ms, option_map m_end (hd_error (rev ms))).
Lemma marks_flat p ms : map fst (marks p ms) = map flat_rapid ms.
Proof. revert p. induction ms as [|m ms IH]; intros p; [reflexivity|]. cbn [marks map fst]. rewrite IH. reflexivity. Qed.
Lemma marks_from ms ms' q : marks None ms = marks None ms' -> marks q ms = marks q ms'.
Proof.
  destruct ms as [|m ms], ms' as [|m' ms']; cbn [marks]; intros E; try discriminate E; [reflexivity|].
  assert (E1 := f_equal (fun l => match l with x :: _ => fst x | [] => m end) E). assert (E2 := f_equal (@tl _) E). cbn [tl fst] in E1, E2. cbv beta iota in E1. cbn [fst] in E1.
  rewrite E1, E2. destruct m, m'; try discriminate E1; reflexivity.
Qed.
Lemma marks_app a : forall p b, marks p (a ++ b) = marks p a ++ marks (match hd_error (rev a) with Some m => Some (m_end m) | None => p end) b.
Proof.
  induction a as [|m a IH]; intros p b; [reflexivity|]. cbn [app marks]. rewrite IH. cbn [rev]. destruct (rev a); reflexivity.
Qed.
Lemma fl_last ms ms' d : fl ms = fl ms' -> last_end ms d = last_end ms' d.
Proof. intros E. apply (f_equal snd) in E. cbn in E. unfold last_end. destruct (rev ms), (rev ms'); try discriminate E; [reflexivity|]. injection E as E. exact E. Qed.
Lemma fl_app a a' b b' : fl a = fl a' -> fl b = fl b' -> fl (a ++ b) = fl (a' ++ b').
Proof.
  intros A B. pose proof (f_equal fst A) as A1. pose proof (f_equal fst B) as B1. pose proof (f_equal snd A) as A2. pose proof (f_equal snd B) as B2. cbn in A1, B1, A2, B2.
  unfold fl. rewrite !marks_app, A1, !rev_app_distr. f_equal.
  - f_equal. replace (match hd_error (rev a) with Some m => Some (m_end m) | None => None end) with (match hd_error (rev a') with Some m => Some (m_end m) | None => None end).
    apply marks_from, B1.
  - destruct (rev b), (rev b'); try discriminate B2; [exact A2|exact B2].
Qed.
Lemma fl_map a a' : fl a = fl a' -> map flat_rapid a = map flat_rapid a'.
Proof. intros E. rewrite <- (marks_flat None a), <- (marks_flat None a'). exact (f_equal (fun x => map fst (fst x)) E). Qed.
Lemma fl_nil a : fl a = fl [] -> a = [].
Proof. intros E. apply fl_map in E. destruct a; [reflexivity|discriminate]. Qed.

Lemma rapid_to_heights s e r r' sa f : fl (rapid_to s e r (Some sa) f) = fl (rapid_to s e r' (Some sa) f).
Proof.
  destruct s as [[x|] [y|] z]; unfold rapid_to, differs; cbn [retract_abs init_motion m_end ax ay az oeqb negb or_else];
    (try destruct (qeqb x (vx e))); (try destruct (qeqb y (vy e))); cbn [negb orb]; destruct (qltb (vz e) sa); reflexivity.
Qed.

Section Heights.
Context (j j' : job) (A : alike_but_rapid j j').
Let Et : j_top j = j_top j'. Proof. apply A. Qed.
Let Ed : j_tool_diameter j = j_tool_diameter j'. Proof. apply A. Qed.
Let Es : j_op_safe_height j = j_op_safe_height j'. Proof. apply A. Qed.
Let Ep : j_precision j = j_precision j'. Proof. apply A. Qed.
Let Em : j_max_stepdown_count j = j_max_stepdown_count j'. Proof. apply A. Qed.
Let Ef : j_feed j = j_feed j'. Proof. apply A. Qed.
Let Eg : j_plunge_feed j = j_plunge_feed j'. Proof. apply A. Qed.
Let Erad : tool_radius j = tool_radius j'. Proof. unfold tool_radius. rewrite Ed. reflexivity. Qed.

Lemma route_edges_heights K param es : forall first, route_edges K j first param es = route_edges K j' first param es.
Proof. induction es as [|e es IH]; intros first; [reflexivity|]. cbn [route_edges]. rewrite Ep, Ef. destruct (route_edge _ _ _ _ _ _ _) as [[c v]|]; [|reflexivity]. cbn [rbind]. rewrite IH. reflexivity. Qed.
Definition fw (x : option (list motion * avec * vec)) := option_map (fun y => (fl (fst (fst y)), snd (fst y), snd y)) x.
Lemma route_wire_heights K so pe pp w : rmap fw (route_wire K j so pe pp w) = rmap fw (route_wire K j' so pe pp w).
Proof.
  unfold route_wire. destruct (wire_edges w) as [|e0 es]; [reflexivity|].
  apply (rmap_bind (fun x => (fl (fst x), snd x))).
  - match goal with |- context [match ?l with Some _ => rbind _ _ | None => _ end] => destruct l as [t|] end.
    + rewrite Ef. reflexivity.
    + unfold rmap. cbn [rbind fst snd]. rewrite Es, Eg. rewrite (rapid_to_heights _ _ (j_rapid_height j) (j_rapid_height j')). reflexivity.
  - intros [a edges] [a' edges'] E. assert (E1 := f_equal fst E). assert (E2 := f_equal snd E). cbn [fst snd] in E1, E2. subst edges'. clear E.
    rewrite route_edges_heights, Ep, Ef. destruct (route_edges K j' true _ edges) as [b|]; [|reflexivity]. cbn [rbind].
    match goal with |- rmap _ (rbind ?x _) = _ => destruct x as [[c v]|]; [|reflexivity] end. unfold rmap. cbn [rbind]. unfold fw. cbn [option_map fst snd].
    assert (Ea : fl (a ++ b ++ c) = fl (a' ++ b ++ c)) by (apply fl_app; [exact E1|reflexivity]). rewrite Ea, (fl_last _ _ pp Ea). reflexivity.
Qed.
Lemma route_wires_from_heights K so ws : forall pe pp,
  rmap (option_map fl) (route_wires_from K j so pe pp ws) = rmap (option_map fl) (route_wires_from K j' so pe pp ws).
Proof.
  induction ws as [|w ws IH]; intros pe pp; [reflexivity|]. cbn [route_wires_from]. apply (rmap_bind fw); [apply route_wire_heights|].
  intros [[[c p] v]|] [[[c' p'] v']|] E; cbn in E; try discriminate E; [|reflexivity].
  assert (E1 := f_equal (fun x => match x with Some y => fst (fst y) | None => ([], None) end) E).
  assert (E2 := f_equal (fun x => match x with Some y => snd (fst y) | None => p end) E).
  assert (E3 := f_equal (fun x => match x with Some y => snd y | None => v end) E). cbn in E2, E3. cbv beta iota in E1. cbn [fst snd] in E1. subst p' v'.
  apply (rmap_bind (option_map fl)); [apply IH|]. intros [d|] [d'|] Ed'; cbn [option_map] in Ed'; try discriminate Ed'; [|reflexivity].
  assert (E4 := f_equal (fun x => match x with Some y => y | None => ([], None) end) Ed'). cbv beta iota in E4. unfold rmap. cbn [rbind option_map]. rewrite (fl_app c c' d d' E1 E4). reflexivity.
Qed.
Lemma route_wires_heights K ws so pp : rmap fl (route_wires K j ws so pp) = rmap fl (route_wires K j' ws so pp).
Proof.
  unfold route_wires. apply (rmap_bind (option_map fl)); [apply route_wires_from_heights|].
  intros [d|] [d'|] E; cbn [option_map] in E; try discriminate E; [|reflexivity].
  assert (E4 := f_equal (fun x => match x with Some y => y | None => ([], None) end) E). cbv beta iota in E4. unfold rmap. cbn [rbind]. rewrite E4. reflexivity.
Qed.

(** ** Profiles *)
Lemma profile_heights K TK WK w o sd t : rmap fl (profile K TK WK j w o sd t) = rmap fl (profile K TK WK j' w o sd t).
Proof.
  unfold profile. rewrite Et, Erad. destruct (tool_radius j'); [|reflexivity].
  apply (rmap_bind (fun x => x)); [reflexivity|]. intros bs bs' ->.
  rewrite (mapM_ext (profile_toolpaths TK WK j sd t) (profile_toolpaths TK WK j' sd t)).
  - apply (rmap_bind (fun x => x)); [reflexivity|]. intros ps ps' ->. apply route_wires_heights.
  - intros x. unfold profile_toolpaths, profile_layers. rewrite Et, Em. reflexivity.
Qed.
Lemma fl_concat l : forall l', map fl l = map fl l' -> fl (concat l) = fl (concat l').
Proof.
  induction l as [|a l IH]; intros [|a' l'] E; try discriminate E; [reflexivity|].
  cbn [concat]. apply fl_app; [exact (f_equal (hd ([], None)) E)|]. apply IH. exact (f_equal (@tl _) E).
Qed.
Lemma profile_group_heights K TK WK sd t ws o : rmap fl (profile_group K TK WK j sd t ws o) = rmap fl (profile_group K TK WK j' sd t ws o).
Proof.
  unfold profile_group. destruct o as [o|]; [|reflexivity]. apply (rmap_bind (map fl)).
  - apply rmap_mapM. intros w. apply profile_heights.
  - intros c c' E. unfold rmap. cbn [rbind]. rewrite (fl_concat _ _ E). reflexivity.
Qed.

(** ** Pockets *)
Definition fp (x : list motion * avec * pt) := (fl (fst (fst x)), snd (fst x), snd x).
Lemma route_polyface_heights so pe pp f : rmap fp (route_polyface j so pe pp f) = rmap fp (route_polyface j' so pe pp f).
Proof.
  unfold route_polyface. destruct (pf_outer f) as [|p0 ps]; [reflexivity|]. apply (rmap_bind (fun x => x)); [reflexivity|]. intros near near' ->.
  match goal with |- rmap fp (let '(_, _) := match ?l with _ => _ end in _) = _ => destruct l as [[c i]|] end; [rewrite Ef; reflexivity|].
  rewrite Es, Eg, Ef. set (a := rapid_to _ _ (j_rapid_height j) _ _). set (a' := rapid_to _ _ (j_rapid_height j') _ _).
  assert (Ea : fl a = fl a') by apply rapid_to_heights. rewrite (fl_last _ _ pp Ea). cbn iota zeta beta. clearbody a a'.
  match goal with |- context [let '(_, _) := match near' with _ => _ end in _] => destruct near' as [[[d q] n]|] end; unfold rmap; cbn [rbind]; unfold fp; cbn [fst snd];
    (match goal with |- Ok (fl (a ++ ?x), _, _) = _ => assert (E : fl (a ++ x) = fl (a' ++ x)) by (apply fl_app; [exact Ea|reflexivity]) end);
    rewrite E, (fl_last _ _ pp E); reflexivity.
Qed.
Lemma route_polyfaces_heights so fs : forall pe pp, rmap fl (route_polyfaces_from j so pe pp fs) = rmap fl (route_polyfaces_from j' so pe pp fs).
Proof.
  induction fs as [|f fs IH]; intros pe pp; [reflexivity|]. cbn [route_polyfaces_from]. apply (rmap_bind fp); [apply route_polyface_heights|].
  intros [[c p] v] [[c' p'] v'] E. assert (E1 := f_equal (fun x => fst (fst x)) E). assert (E2 := f_equal (fun x => snd (fst x)) E).
  assert (E3 := f_equal snd E). unfold fp in E1, E2, E3. cbn [fst snd] in E1, E2, E3. subst p' v'. apply (rmap_bind fl); [apply IH|]. intros d d' E'. unfold rmap. cbn [rbind]. rewrite (fl_app _ _ _ _ E1 E'). reflexivity.
Qed.
Lemma route_sequences_heights so ss : forall done pp, rmap fl (route_sequences j so done pp ss) = rmap fl (route_sequences j' so done pp ss).
Proof.
  induction ss as [|s ss IH]; intros done pp; [reflexivity|]. cbn [route_sequences]. apply (rmap_bind fl); [apply route_polyfaces_heights|].
  intros c c' E. destruct c as [|m c].
  - symmetry in E. apply fl_nil in E. subst c'. destruct done; [|reflexivity]. apply (rmap_bind fl); [apply IH|]. intros d d' E'. exact (f_equal Ok E').
  - destruct c' as [|m' c']; [apply fl_nil in E; discriminate E|]. rewrite (fl_last _ _ pp E). apply (rmap_bind fl); [apply IH|].
    intros d d' E'. unfold rmap. cbn [rbind]. rewrite (fl_app _ _ _ _ E E'). reflexivity.
Qed.
Lemma route_wire_sequences_heights K so ss : forall done pp,
  rmap fl (route_wire_sequences K j so done pp ss) = rmap fl (route_wire_sequences K j' so done pp ss).
Proof.
  induction ss as [|s ss IH]; intros done pp; [reflexivity|]. cbn [route_wire_sequences]. apply (rmap_bind fl); [apply route_wires_heights|].
  intros c c' E. destruct c as [|m c].
  - symmetry in E. apply fl_nil in E. subst c'. destruct done; [|reflexivity]. apply (rmap_bind fl); [apply IH|]. intros d d' E'. exact (f_equal Ok E').
  - destruct c' as [|m' c']; [apply fl_nil in E; discriminate E|]. rewrite (fl_last _ _ pp E). apply (rmap_bind fl); [apply IH|].
    intros d d' E'. unfold rmap. cbn [rbind]. rewrite (fl_app _ _ _ _ E E'). reflexivity.
Qed.
Ltac same_step := apply (rmap_bind (fun x => x)); [reflexivity|]; let a := fresh in let b := fresh in intros a b ->.
Lemma pocket_heights K WK F E fuel eng ops avoids a : rmap fl (pocket K WK F E fuel eng j ops avoids a) = rmap fl (pocket K WK F E fuel eng j' ops avoids a).
Proof.
  unfold pocket. rewrite Erad, Et, Ep. do 5 same_step. destruct eng; [| |reflexivity].
  - do 2 same_step. unfold pocket_clipper. rewrite Ep. do 4 same_step. apply route_sequences_heights.
  - unfold pocket_cq. rewrite Et. do 4 same_step. apply route_wire_sequences_heights.
Qed.

(** ** Drilling does not use the height of rapid moves at all *)
Lemma holes_heights d ps : forall pp, holes j d pp ps = holes j' d pp ps.
Proof. induction ps as [|p ps IH]; intros pp; [reflexivity|]. cbn [holes]. unfold hole. rewrite Es, Ef, IH. reflexivity. Qed.

(** ** Surfaces *)
Lemma surface_run_heights d pp r : fl (surface_run j d pp r) = fl (surface_run j' d pp r).
Proof.
  destruct r as [|p r]; [reflexivity|]. unfold surface_run. rewrite Es.
  change (fl ([rapid_abs None None (Some (j_rapid_height j)) (Some pp) false; rapid_abs (Some (vx p)) (Some (vy p)) None (Some (m_end (rapid_abs None None (Some (j_rapid_height j)) (Some pp) false))) false;
     rapid_abs None None (Some (j_op_safe_height j')) (Some (m_end (rapid_abs (Some (vx p)) (Some (vy p)) None (Some (m_end (rapid_abs None None (Some (j_rapid_height j)) (Some pp) false))) false))) false] ++
     surface_cuts d (AV (Some (vx p)) (Some (vy p)) (Some (j_op_safe_height j'))) r) =
   fl ([rapid_abs None None (Some (j_rapid_height j')) (Some pp) false; rapid_abs (Some (vx p)) (Some (vy p)) None (Some (m_end (rapid_abs None None (Some (j_rapid_height j')) (Some pp) false))) false;
     rapid_abs None None (Some (j_op_safe_height j')) (Some (m_end (rapid_abs (Some (vx p)) (Some (vy p)) None (Some (m_end (rapid_abs None None (Some (j_rapid_height j')) (Some pp) false))) false))) false] ++
     surface_cuts d (AV (Some (vx p)) (Some (vy p)) (Some (j_op_safe_height j'))) r)).
  apply fl_app; [|reflexivity]. destruct pp as [[x|] [y|] [z|]]; reflexivity.
Qed.
Lemma end_pos_last pp ms : end_pos pp ms = last_end ms pp.
Proof.
  unfold end_pos, last_end. induction ms as [|m ms IH] using rev_ind; [reflexivity|]. rewrite last_last, rev_app_distr. reflexivity.
Qed.
Lemma surface_runs_heights d rs : forall pp, fl (surface_runs j d pp rs) = fl (surface_runs j' d pp rs).
Proof.
  induction rs as [|r rs IH]; intros pp; [reflexivity|]. cbn [surface_runs]. cbn zeta. rewrite !end_pos_last, (fl_last _ _ pp (surface_run_heights d pp r)). apply fl_app; [apply surface_run_heights|apply IH].
Qed.
Lemma surface_passes_heights seqs all ds : forall i pp, fl (surface_passes j seqs all i ds pp) = fl (surface_passes j' seqs all i ds pp).
Proof.
  induction ds as [|d ds IH]; intros i pp; [reflexivity|]. cbn [surface_passes]. cbn zeta. rewrite !end_pos_last, (fl_last _ _ pp (surface_runs_heights d _ pp)).
  apply fl_app; [apply surface_runs_heights|apply IH].
Qed.
End Heights.

Lemma marks_entries ms : forall ms' p p', marks p ms = marks p' ms' -> entries p (map Motion ms) = entries p' (map Motion ms').
Proof.
  induction ms as [|m ms IH]; intros [|m' ms'] p p'; cbn [marks]; intros E; try discriminate E; [reflexivity|].
  assert (E1 := f_equal (fun l => match l with x :: _ => fst x | [] => m end) E). assert (E2 := f_equal (@tl _) E).
  assert (E3 := f_equal (fun l => match l with x :: _ => snd x | [] => None end) E). cbv beta iota in E1, E3. cbn [fst snd tl] in E1, E2, E3.
  apply IH in E2. destruct m, m'; try discriminate E1; cbn [map entries]; cbn [m_end] in *; [exact E2|rewrite E2, E3; reflexivity|rewrite E2, E3; reflexivity].
Qed.
Lemma travel_of (r r' : result (list motion)) : rmap fl r = rmap fl r' -> same_but_travel (rmap (map Motion) r) (rmap (map Motion) r').
Proof.
  destruct r as [a|], r' as [b|]; unfold rmap; cbn [rbind]; intros E; try discriminate E; [|injection E as E; exact E].
  assert (E1 : fl a = fl b) by congruence. assert (E2 := f_equal fst E1). cbn [fl fst] in E2. apply fl_map in E1. cbn [same_but_travel]. split; [|apply marks_entries, E2].
  rewrite !map_map. cbn [flat_rapids]. rewrite <- !(map_map flat_rapid Motion), E1. reflexivity.
Qed.
Lemma travel_heights r r' : same_but_travel r r' -> same_but_rapid_heights r r'.
Proof. destruct r, r'; cbn; intuition. Qed.
Lemma profile_gen_travel K TK WK os is_ oo io sd t j j' : alike_but_rapid j j' ->
  same_but_travel (profile_gen K TK WK os is_ oo io sd t j) (profile_gen K TK WK os is_ oo io sd t j').
Proof.
  intros A. rewrite !profile_gen_of. apply travel_of. apply (rmap_bind fl); [apply profile_group_heights; exact A|]. intros a a' E.
  apply (rmap_bind fl); [apply profile_group_heights; exact A|]. intros b b' E'. unfold rmap. cbn [rbind]. rewrite (fl_app _ _ _ _ E E'). reflexivity.
Qed.
Lemma wire_profile_gen_travel K TK WK ws o sd t j j' : alike_but_rapid j j' ->
  same_but_travel (wire_profile_gen K TK WK ws o sd t j) (wire_profile_gen K TK WK ws o sd t j').
Proof. intros A. apply (travel_of (profile_group K TK WK j sd t ws (Some o))). apply profile_group_heights. exact A. Qed.
Lemma pocket_gen_travel K WK F E fuel ops avoids a j j' : alike_but_rapid j j' ->
  same_but_travel (pocket_gen K WK F E fuel ops avoids a j) (pocket_gen K WK F E fuel ops avoids a j').
Proof. intros A. apply (travel_of (pocket K WK F E fuel EngClipper j ops avoids a)). apply pocket_heights. exact A. Qed.
Lemma drill_gen_heights os z j j' : alike_but_rapid j j' -> drill_gen os z j = drill_gen os z j'.
Proof.
  intros A. unfold drill_gen. destruct os as [os|]; [|reflexivity]. destruct z as [z|]; [|reflexivity]. pose proof A as (-> & _). destruct (mapM _ os) as [vs|]; [|reflexivity]. cbn [rbind].
  destruct (concat vs); [reflexivity|]. cbn zeta. destruct (order_points _ _ _) as [o|]; [|reflexivity]. cbn [rbind]. rewrite (holes_heights j j' A). reflexivity.
Qed.
Lemma surface_gen_travel K C a os j j' : alike_but_rapid j j' -> same_but_travel (surface_gen K C a os j) (surface_gen K C a os j').
Proof.
  intros A. assert (Et : j_top j = j_top j') by apply A. unfold surface_gen. rewrite Et.
  destruct (wp_to_faces os) as [fs|]; [|reflexivity]. cbn [rbind]. destruct (sk_zmin K _ fs) as [z|]; [|reflexivity]. cbn [rbind].
  destruct (sk_project K _ fs) as [b|]; [|reflexivity]. cbn [rbind]. destruct (mapM _ b) as [bs|]; [|reflexivity]. cbn [rbind].
  assert (X : forall k, (do mss <- mapM (surface_boundary K C a k fs z) (concat bs); Ok (map Motion (concat mss))) = rmap (map Motion) (rmap (@concat _) (mapM (surface_boundary K C a k fs z) (concat bs))))
          by (intros k; destruct (mapM _ (concat bs)); reflexivity).
  rewrite !X.
  apply travel_of. apply (rmap_bind (map fl)).
  - apply rmap_mapM. intros x. unfold surface_boundary. rewrite Et. destruct (surface_sequences _ _ _ _ _ _ _); [|reflexivity]. cbn [rbind]. destruct (surface_depths _ _ _); [|reflexivity].
    unfold rmap. cbn [rbind]. rewrite (surface_passes_heights j j' A). reflexivity.
  - intros c c' E. unfold rmap. cbn [rbind]. rewrite (fl_concat _ _ E). reflexivity.
Qed.

Lemma profile_gen_heights K TK WK os is_ oo io sd t j j' : alike_but_rapid j j' ->
  same_but_rapid_heights (profile_gen K TK WK os is_ oo io sd t j) (profile_gen K TK WK os is_ oo io sd t j').
Proof. intros A. apply travel_heights, profile_gen_travel, A. Qed.
Lemma wire_profile_gen_heights K TK WK ws o sd t j j' : alike_but_rapid j j' ->
  same_but_rapid_heights (wire_profile_gen K TK WK ws o sd t j) (wire_profile_gen K TK WK ws o sd t j').
Proof. intros A. apply travel_heights, wire_profile_gen_travel, A. Qed.
Lemma pocket_gen_heights K WK F E fuel ops avoids a j j' : alike_but_rapid j j' ->
  same_but_rapid_heights (pocket_gen K WK F E fuel ops avoids a j) (pocket_gen K WK F E fuel ops avoids a j').
Proof. intros A. apply travel_heights, pocket_gen_travel, A. Qed.
Lemma surface_gen_heights K C a os j j' : alike_but_rapid j j' -> same_but_rapid_heights (surface_gen K C a os j) (surface_gen K C a os j').
Proof. intros A. apply travel_heights, surface_gen_travel, A. Qed.
