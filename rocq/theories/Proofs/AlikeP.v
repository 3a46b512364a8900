From Verif Require Import Base.Str Base.Py Model.Groups Model.Geometry Model.Plane Model.Edges Model.Command Model.Job Model.Interp Model.Tree Model.Routers Model.Pocket Model.Profile Model.Drill Model.Strategy Model.Surface Model.PocketOp
  Spec.Jobs Spec.Alike Proofs.JobP Proofs.HistoryP.
Local Open Scope Qc_scope.
Local Open Scope list_scope.

Lemma rmap_bind {A B C D} (f : A -> B) (g : C -> D) r r' k k' : rmap f r = rmap f r' ->
  (forall a a', f a = f a' -> rmap g (k a) = rmap g (k' a')) -> rmap g (rbind r k) = rmap g (rbind r' k').
Proof. destruct r, r'; cbn; intros [= E] H; [apply H; exact E|subst; reflexivity]. Qed.
Lemma rmap_mapM {A B C} (g : B -> C) (f f' : A -> result B) l : (forall x, rmap g (f x) = rmap g (f' x)) ->
  rmap (map g) (mapM f l) = rmap (map g) (mapM f' l).
Proof.
  intros H. induction l as [|a l IH]; [reflexivity|]. cbn [mapM]. eapply rmap_bind; [apply H|]. intros b b' E.
  eapply rmap_bind; [exact IH|]. intros bs bs' E'. cbn. rewrite E, E'. reflexivity.
Qed.
Lemma rmap_id {A} (r : result A) : rmap (fun a => a) r = r.
Proof. destruct r; reflexivity. Qed.
Lemma mapM_ext {A B} (f f' : A -> result B) l : (forall x, f x = f' x) -> mapM f l = mapM f' l.
Proof. intros H. induction l as [|a l IH]; [reflexivity|]. cbn [mapM]. rewrite H, IH. reflexivity. Qed.

Section Alike.
Context (u : motion -> motion) (j j' : job) (U : forall m, m_end (u m) = m_end m) (A : alike j j')
  (FC : forall k s e a, u (MCut k s e a (Some (j_feed j))) = u (MCut k s e a (Some (j_feed j'))))
  (FP : forall k s e a, u (MCut k s e a (Some (j_plunge_feed j))) = u (MCut k s e a (Some (j_plunge_feed j'))))
  (FA : forall cw s e c m a, u (MArc cw s e c m a (Some (j_feed j))) = u (MArc cw s e c m a (Some (j_feed j')))).

Let Et : j_top j = j_top j'. Proof. apply A. Qed.
Let Ed : j_tool_diameter j = j_tool_diameter j'. Proof. apply A. Qed.
Let Er : j_rapid_height j = j_rapid_height j'. Proof. apply A. Qed.
Let Es : j_op_safe_height j = j_op_safe_height j'. Proof. apply A. Qed.
Let Ep : j_precision j = j_precision j'. Proof. apply A. Qed.
Let Em : j_max_stepdown_count j = j_max_stepdown_count j'. Proof. apply A. Qed.
Let Erad : tool_radius j = tool_radius j'. Proof. unfold tool_radius. rewrite Ed. reflexivity. Qed.

Lemma last_end_u ms d : last_end (map u ms) d = last_end ms d.
Proof. unfold last_end. rewrite <- map_rev. destruct (rev ms); [reflexivity|apply U]. Qed.
Lemma last_end_same ms ms' d : map u ms = map u ms' -> last_end ms d = last_end ms' d.
Proof. intros E. rewrite <- (last_end_u ms), E. apply last_end_u. Qed.

Lemma cuts_through_same s pts a : map u (cuts_through s pts a (Some (j_feed j))) = map u (cuts_through s pts a (Some (j_feed j'))).
Proof. revert s. induction pts as [|p pts IH]; intros s; [reflexivity|]. cbn [cuts_through map mk_cut init_motion]. rewrite IH, FC. reflexivity. Qed.
Lemma rapid_to_same s e r sa : map u (rapid_to s e r sa (Some (j_plunge_feed j))) = map u (rapid_to s e r sa (Some (j_plunge_feed j'))).
Proof.
  unfold rapid_to. cbn [map]. f_equal. rewrite !map_app. f_equal. destruct sa as [sa|]; [|cbn; rewrite FP; reflexivity].
  cbn [map]. f_equal. destruct (qltb _ _); [|reflexivity]. cbn. rewrite FP. reflexivity.
Qed.

Definition ue (x : list motion * vec) := (map u (fst x), snd x).
Lemma route_edge_same K e p sp ep a : rmap ue (route_edge K e p sp ep a (Some (j_feed j))) = rmap ue (route_edge K e p sp ep a (Some (j_feed j'))).
Proof.
  unfold route_edge. apply (rmap_bind (map u)); [|intros c c' E; cbn; unfold ue; cbn; rewrite E; reflexivity].
  assert (L : forall s en a, rmap (map u) (Ok [mk_cut en (Some s) a (Some (j_feed j))]) = rmap (map u) (Ok [mk_cut en (Some s) a (Some (j_feed j'))]))
    by (intros; cbn; rewrite FC; reflexivity).
  destruct (e_geom e); try apply L; try reflexivity.
  1, 2: apply (rmap_bind (fun b : bool => b)); [reflexivity|]; intros cw cw' ->; destruct (e_closed e); [cbn; rewrite !FA; reflexivity|];
    destruct (k_veq _ _ _); [apply L|cbn; rewrite FA; reflexivity].
  all: destruct (e_reversed e); cbn; rewrite cuts_through_same; reflexivity.
Qed.
Lemma route_edges_same K param es : forall first, rmap (map u) (route_edges K j first param es) = rmap (map u) (route_edges K j' first param es).
Proof.
  induction es as [|e es IH]; intros first; [reflexivity|]. cbn [route_edges]. rewrite Ep. apply (rmap_bind ue); [apply route_edge_same|].
  intros [c v] [c' v'] E. unfold ue in E. cbn in E. assert (E1 := f_equal fst E). cbn in E1.
  apply (rmap_bind (map u)); [apply IH|]. intros d d' E2. cbn. rewrite !map_app, E1, E2. reflexivity.
Qed.

Definition uw (x : option (list motion * avec * vec)) := option_map (fun y => (map u (fst (fst y)), snd (fst y), snd y)) x.
Lemma route_wire_same K so pe pp w : rmap uw (route_wire K j so pe pp w) = rmap uw (route_wire K j' so pe pp w).
Proof.
  unfold route_wire. destruct (wire_edges w) as [|e0 es]; [reflexivity|].
  apply (rmap_bind (fun x => (map u (fst x), snd x))).
  - match goal with |- context [match ?l with Some _ => rbind _ _ | None => _ end] => destruct l as [t|] end.
    + apply (rmap_bind (fun x => x)); [reflexivity|]. intros x x' ->. cbn. rewrite FC. reflexivity.
    + unfold rmap. cbn [rbind fst snd]. rewrite Er, Es. rewrite rapid_to_same. reflexivity.
  - intros [a edges] [a' edges'] E. cbn in E. assert (E1 := f_equal fst E). assert (E2 := f_equal snd E). cbn in E1, E2. subst edges'. clear E.
    apply (rmap_bind (map u)); [apply route_edges_same|]. intros b b' Eb.
    apply (rmap_bind ue).
    + rewrite Ep. destruct (truthy _); [apply route_edge_same|reflexivity].
    + intros [c v] [c' v'] E. unfold ue in E. cbn in E. assert (E3 := f_equal fst E). assert (E4 := f_equal snd E). cbn in E3, E4. subst v'.
      assert (Em' : map u (a ++ b ++ c) = map u (a' ++ b' ++ c')) by (rewrite !map_app, E1, Eb, E3; reflexivity).
      cbn. rewrite Em', (last_end_same _ _ pp Em'). reflexivity.
Qed.
Lemma route_wires_from_same K so ws : forall pe pp,
  rmap (option_map (map u)) (route_wires_from K j so pe pp ws) = rmap (option_map (map u)) (route_wires_from K j' so pe pp ws).
Proof.
  induction ws as [|w ws IH]; intros pe pp; [reflexivity|]. cbn [route_wires_from]. apply (rmap_bind uw); [apply route_wire_same|].
  intros [[[c p] v]|] [[[c' p'] v']|] E; cbn in E; try discriminate E; [|reflexivity].
  assert (E1 := f_equal (fun x => match x with Some y => fst (fst y) | None => [] end) E).
  assert (E2 := f_equal (fun x => match x with Some y => snd (fst y) | None => p end) E).
  assert (E3 := f_equal (fun x => match x with Some y => snd y | None => v end) E). cbn in E1, E2, E3. subst p' v'.
  apply (rmap_bind (option_map (map u))); [apply IH|]. intros [d|] [d'|] Ed'; cbn in Ed'; try discriminate Ed'; [|reflexivity].
  injection Ed' as Ed'. cbn. rewrite !map_app, E1, Ed'. reflexivity.
Qed.
Lemma route_wires_same K ws so pp : rmap (map u) (route_wires K j ws so pp) = rmap (map u) (route_wires K j' ws so pp).
Proof.
  unfold route_wires. apply (rmap_bind (option_map (map u))); [apply route_wires_from_same|].
  intros [d|] [d'|] E; cbn in E; try discriminate E; [injection E as E; cbn; rewrite E; reflexivity|reflexivity].
Qed.

(** ** Profiles *)
Lemma profile_same K TK WK w o sd t : rmap (map u) (profile K TK WK j w o sd t) = rmap (map u) (profile K TK WK j' w o sd t).
Proof.
  unfold profile. rewrite Et, Erad. destruct (tool_radius j'); [|reflexivity].
  apply (rmap_bind (fun x => x)); [reflexivity|]. intros bs bs' ->.
  rewrite (mapM_ext (profile_toolpaths TK WK j sd t) (profile_toolpaths TK WK j' sd t)).
  - apply (rmap_bind (fun x => x)); [reflexivity|]. intros ps ps' ->. apply route_wires_same.
  - intros x. unfold profile_toolpaths, profile_layers. rewrite Et, Em. reflexivity.
Qed.
Lemma concat_u (l : list (list motion)) : map u (concat l) = concat (map (map u) l).
Proof. apply concat_map. Qed.
Lemma profile_group_same K TK WK sd t ws o : rmap (map u) (profile_group K TK WK j sd t ws o) = rmap (map u) (profile_group K TK WK j' sd t ws o).
Proof.
  unfold profile_group. destruct o as [o|]; [|reflexivity]. apply (rmap_bind (map (map u))).
  - apply rmap_mapM. intros w. apply profile_same.
  - intros c c' E. cbn. rewrite !concat_u, E. reflexivity.
Qed.

(** ** Drilling *)
Lemma holes_same d ps : forall pp, map u (holes j d pp ps) = map u (holes j' d pp ps).
Proof.
  induction ps as [|p ps IH]; intros pp; [reflexivity|]. cbn [holes]. assert (H : map u (hole j d pp p) = map u (hole j' d pp p)) by (unfold hole; cbn; rewrite Es, FC; reflexivity).
  rewrite !map_app, H, IH. reflexivity.
Qed.

(** ** Pockets *)
Lemma cut_poly_same d ps : forall pp, map u (cut_poly d (j_feed j) pp ps) = map u (cut_poly d (j_feed j') pp ps).
Proof. induction ps as [|[x y] ps IH]; intros pp; [reflexivity|]. cbn [cut_poly map cut_abs mk_cut init_motion m_end]. rewrite IH, FC. reflexivity. Qed.
Definition up (x : list motion * avec * pt) := (map u (fst (fst x)), snd (fst x), snd x).
Lemma route_polyface_same so pe pp f : rmap up (route_polyface j so pe pp f) = rmap up (route_polyface j' so pe pp f).
Proof.
  unfold route_polyface. destruct (pf_outer f) as [|p0 ps]; [reflexivity|]. apply (rmap_bind (fun x => x)); [reflexivity|]. intros near near' ->.
  match goal with |- rmap up (let '(_, _) := match ?l with _ => _ end in _) = _ => destruct l as [[c i]|] end.
  - set (a := [cut_abs _ _ _ _ _ (Some (j_feed j))]). set (a' := [cut_abs _ _ _ _ _ (Some (j_feed j'))]).
    assert (Ea : map u a = map u a') by (cbn; rewrite FC; reflexivity). rewrite (last_end_same _ _ pp Ea). cbn iota zeta beta.
    set (b := cut_poly _ (j_feed j) _ _). set (b' := cut_poly _ (j_feed j') _ _). assert (Eb : map u b = map u b') by apply cut_poly_same.
    rewrite (last_end_same _ _ _ Eb). clearbody a a' b b'.
    destruct near' as [[[d q] n]|]; cbn.
    + unfold up. cbn. match goal with |- Ok (?x, ?y, _) = Ok (?x', ?y', _) => assert (E : x = x') by (rewrite !map_app, Ea, Eb; cbn; rewrite FC; reflexivity) end.
      rewrite E. f_equal. f_equal. f_equal. apply last_end_same. exact E.
    + unfold up. cbn. match goal with |- Ok (?x, ?y, _) = Ok (?x', ?y', _) => assert (E : x = x') by (rewrite !map_app, Ea, Eb; reflexivity) end.
      rewrite E. f_equal. f_equal. f_equal. apply last_end_same. exact E.
  - rewrite Er, Es. set (a := rapid_to _ _ _ _ (Some (j_plunge_feed j))). set (a' := rapid_to _ _ _ _ (Some (j_plunge_feed j'))).
    assert (Ea : map u a = map u a') by apply rapid_to_same. rewrite (last_end_same _ _ pp Ea). cbn iota zeta beta.
    set (b := cut_poly _ (j_feed j) _ _). set (b' := cut_poly _ (j_feed j') _ _). assert (Eb : map u b = map u b') by apply cut_poly_same.
    rewrite (last_end_same _ _ _ Eb). clearbody a a' b b'.
    destruct near' as [[[d q] n]|]; cbn.
    + unfold up. cbn. match goal with |- Ok (?x, ?y, _) = Ok (?x', ?y', _) => assert (E : x = x') by (rewrite !map_app, Ea, Eb; cbn; rewrite FC; reflexivity) end.
      rewrite E. f_equal. f_equal. f_equal. apply last_end_same. exact E.
    + unfold up. cbn. match goal with |- Ok (?x, ?y, _) = Ok (?x', ?y', _) => assert (E : x = x') by (rewrite !map_app, Ea, Eb; reflexivity) end.
      rewrite E. f_equal. f_equal. f_equal. apply last_end_same. exact E.
Qed.
Lemma route_polyfaces_same so fs : forall pe pp, rmap (map u) (route_polyfaces_from j so pe pp fs) = rmap (map u) (route_polyfaces_from j' so pe pp fs).
Proof.
  induction fs as [|f fs IH]; intros pe pp; [reflexivity|]. cbn [route_polyfaces_from]. apply (rmap_bind up); [apply route_polyface_same|].
  intros [[c p] v] [[c' p'] v'] E. unfold up in E. cbn in E. assert (E1 := f_equal (fun x => fst (fst x)) E). assert (E2 := f_equal (fun x => snd (fst x)) E).
  assert (E3 := f_equal snd E). cbn in E1, E2, E3. subst p' v'. apply (rmap_bind (map u)); [apply IH|]. intros d d' E'. cbn. rewrite !map_app, E1, E'. reflexivity.
Qed.
Lemma route_sequences_same so ss : forall done pp, rmap (map u) (route_sequences j so done pp ss) = rmap (map u) (route_sequences j' so done pp ss).
Proof.
  induction ss as [|s ss IH]; intros done pp; [reflexivity|]. cbn [route_sequences]. apply (rmap_bind (map u)); [apply route_polyfaces_same|].
  intros c c' E. destruct c as [|m c], c' as [|m' c']; cbn in E; try discriminate E.
  - destruct done; [|reflexivity]. apply (rmap_bind (map u)); [apply IH|]. intros d d' E'. cbn. exact (f_equal Ok E').
  - change (map u (m :: c) = map u (m' :: c')) in E. rewrite (last_end_same _ _ pp E). apply (rmap_bind (map u)); [apply IH|].
    intros d d' E'. unfold rmap. cbn [rbind]. f_equal. rewrite !map_app, E, E'. reflexivity.
Qed.
Lemma route_wire_sequences_same K so ss : forall done pp,
  rmap (map u) (route_wire_sequences K j so done pp ss) = rmap (map u) (route_wire_sequences K j' so done pp ss).
Proof.
  induction ss as [|s ss IH]; intros done pp; [reflexivity|]. cbn [route_wire_sequences]. apply (rmap_bind (map u)); [apply route_wires_same|].
  intros c c' E. destruct c as [|m c], c' as [|m' c']; cbn in E; try discriminate E.
  - destruct done; [|reflexivity]. apply (rmap_bind (map u)); [apply IH|]. intros d d' E'. cbn. exact (f_equal Ok E').
  - change (map u (m :: c) = map u (m' :: c')) in E. rewrite (last_end_same _ _ pp E). apply (rmap_bind (map u)); [apply IH|].
    intros d d' E'. unfold rmap. cbn [rbind]. f_equal. rewrite !map_app, E, E'. reflexivity.
Qed.
Ltac same_step := apply (rmap_bind (fun x => x)); [reflexivity|]; let a := fresh in let b := fresh in intros a b ->.
Lemma pocket_same K WK F E fuel eng ops avoids a : rmap (map u) (pocket K WK F E fuel eng j ops avoids a) = rmap (map u) (pocket K WK F E fuel eng j' ops avoids a).
Proof.
  unfold pocket. rewrite Erad, Et, Ep. do 5 same_step. destruct eng; [| |reflexivity].
  - do 2 same_step. unfold pocket_clipper. rewrite Ep. do 4 same_step. apply route_sequences_same.
  - unfold pocket_cq. rewrite Et. do 4 same_step. apply route_wire_sequences_same.
Qed.

(** ** Surfaces *)
Lemma surface_runs_same d rs : forall pp, surface_runs j d pp rs = surface_runs j' d pp rs.
Proof. induction rs as [|r rs IH]; intros pp; [reflexivity|]. cbn [surface_runs]. unfold surface_run. rewrite Er, Es. rewrite IH. reflexivity. Qed.
Lemma surface_passes_same seqs all ds : forall i pp, surface_passes j seqs all i ds pp = surface_passes j' seqs all i ds pp.
Proof. induction ds as [|d ds IH]; intros i pp; [reflexivity|]. cbn [surface_passes]. rewrite surface_runs_same, IH. reflexivity. Qed.
Lemma surface_same K C a os : surface_gen K C a os j = surface_gen K C a os j'.
Proof.
  unfold surface_gen. rewrite Et. destruct (wp_to_faces os) as [fs|]; [|reflexivity]. cbn [rbind]. destruct (sk_zmin K _ fs) as [z|]; [|reflexivity]. cbn [rbind].
  destruct (sk_project K _ fs) as [b|]; [|reflexivity]. cbn [rbind]. destruct (mapM _ b) as [bs|]; [|reflexivity]. cbn [rbind].
  rewrite (mapM_ext _ (surface_boundary K C a j' fs z)); [reflexivity|]. intros x. unfold surface_boundary. rewrite Et.
  destruct (surface_sequences _ _ _ _ _ _ _); [|reflexivity]. cbn [rbind]. destruct (surface_depths _ _ _); [|reflexivity]. cbn [rbind].
  rewrite surface_passes_same. reflexivity.
Qed.
End Alike.

Lemma alike_sym j j' : alike j j' -> alike j' j. Proof. unfold alike. intuition. Qed.
Lemma unfed_end m : m_end (unfed_motion m) = m_end m. Proof. destruct m; reflexivity. Qed.
Lemma same_but_of (r r' : result (list motion)) : rmap (map unfed_motion) r = rmap (map unfed_motion) r' ->
  same_but_feeds (rmap (map Motion) r) (rmap (map Motion) r').
Proof.
  destruct r as [a|], r' as [b|]; cbn; intros [= E]; [|exact E]. rewrite !map_map. rewrite <- !(map_map unfed_motion Motion), E. reflexivity.
Qed.
Lemma equal_of (r r' : result (list motion)) : rmap (map (fun m => m)) r = rmap (map (fun m => m)) r' -> rmap (map Motion) r = rmap (map Motion) r'.
Proof. destruct r as [a|], r' as [b|]; cbn; intros [= E]; [rewrite !map_id in E|]; subst; reflexivity. Qed.

Definition gen_of (f : job -> result (list motion)) (j : job) : result (list command) := rmap (map Motion) (f j).
Lemma profile_gen_of K TK WK os is_ oo io sd t j : profile_gen K TK WK os is_ oo io sd t j =
  gen_of (fun j => do ci <- profile_group K TK WK j sd t is_ io; do co <- profile_group K TK WK j sd t os oo; Ok (ci ++ co)) j.
Proof. unfold profile_gen, gen_of. destruct (profile_group _ _ _ _ _ _ is_ io); [|reflexivity]. cbn. destruct (profile_group _ _ _ _ _ _ os oo); reflexivity. Qed.

Lemma both_settled gen (f : job -> result (list motion)) : (forall j, gen j = gen_of f j) ->
  (forall u j j', (forall m, m_end (u m) = m_end m) -> alike j j' ->
     (forall k s e a, u (MCut k s e a (Some (j_feed j))) = u (MCut k s e a (Some (j_feed j')))) ->
     (forall k s e a, u (MCut k s e a (Some (j_plunge_feed j))) = u (MCut k s e a (Some (j_plunge_feed j')))) ->
     (forall cw s e c m a, u (MArc cw s e c m a (Some (j_feed j))) = u (MArc cw s e c m a (Some (j_feed j')))) ->
     rmap (map u) (f j) = rmap (map u) (f j')) -> settled gen /\ path_settled gen.
Proof.
  intros G H. split.
  - intros j j' A [F P]. rewrite !G. apply equal_of. apply H; [reflexivity|exact A|intros; rewrite F; reflexivity|intros; rewrite P; reflexivity|intros; rewrite F; reflexivity].
  - intros j j' A. rewrite !G. apply same_but_of. apply H; [apply unfed_end|exact A|reflexivity|reflexivity|reflexivity].
Qed.
Lemma profile_settled K TK WK os is_ oo io sd t : settled (profile_gen K TK WK os is_ oo io sd t) /\ path_settled (profile_gen K TK WK os is_ oo io sd t).
Proof.
  eapply both_settled; [apply profile_gen_of|]. intros u j j' U A FC FP FA. cbv beta.
  apply (rmap_bind (map u)); [apply profile_group_same; assumption|]. intros a a' E. apply (rmap_bind (map u)); [apply profile_group_same; assumption|].
  intros b b' E'. cbn. rewrite !map_app, E, E'. reflexivity.
Qed.
Lemma wire_profile_settled K TK WK ws o sd t : settled (wire_profile_gen K TK WK ws o sd t) /\ path_settled (wire_profile_gen K TK WK ws o sd t).
Proof.
  apply (both_settled _ (fun j => profile_group K TK WK j sd t ws (Some o))); [reflexivity|]. intros. apply profile_group_same; assumption.
Qed.
Lemma pocket_settled K WK F E fuel ops avoids a : settled (pocket_gen K WK F E fuel ops avoids a) /\ path_settled (pocket_gen K WK F E fuel ops avoids a).
Proof.
  apply (both_settled _ (fun j => pocket K WK F E fuel EngClipper j ops avoids a)); [reflexivity|]. intros. apply pocket_same; assumption.
Qed.
Lemma drill_settled os d : settled (drill_gen os d) /\ path_settled (drill_gen os d).
Proof.
  apply (both_settled _ (fun j => match os with None => Err OperationError | Some objects => match d with None => Err OperationError | Some depth =>
          do vs <- mapM (object_vectors (j_top j)) objects;
          match concat vs with [] => Err OperationError | _ => do order <- order_points (length (map plan (concat vs))) None (map plan (concat vs)); Ok (holes j depth av_none order) end end end)).
  - intros j. unfold drill_gen, gen_of. destruct os as [os|]; [|reflexivity]. destruct d as [d|]; [|reflexivity].
    destruct (mapM _ os) as [vs|]; [|reflexivity]. cbn [rbind]. destruct (concat vs); [reflexivity|]. cbn zeta. destruct (order_points _ _ _); reflexivity.
  - intros u j j' U A FC FP FA. destruct os as [os|]; [|reflexivity]. destruct d as [d|]; [|reflexivity]. pose proof A as A'. destruct A' as [-> _].
    destruct (mapM _ os) as [vs|]; [|reflexivity]. cbn [rbind]. destruct (concat vs); [reflexivity|]. destruct (order_points _ _ _); [|reflexivity]. cbn.
    f_equal. apply holes_same; assumption.
Qed.
Lemma surface_settled K C a os j j' : alike j j' -> surface_gen K C a os j = surface_gen K C a os j'.
Proof. intros A. exact (surface_same j j' A K C a os). Qed.

(** ** Calls *)
Lemma updated_alike h r j t h1 r1 : hget h r = Some j -> update_spec h r j t (h1, r1) ->
  exists j1, hget h1 r1 = Some j1 /\ j_top j1 = j_top j /\ j_rapid_height j1 = j_rapid_height j /\ j_op_safe_height j1 = j_op_safe_height j /\
    j_precision j1 = j_precision j /\ j_max_stepdown_count j1 = j_max_stepdown_count j /\ j_plunge_feed j1 = j_plunge_feed j /\
    j_tool_diameter j1 = match width_named t with None => j_tool_diameter j | d => d end /\
    j_feed j1 = match feed_named t with None => j_feed j | Some f => f end.
Proof.
  intros Hj H. inversion H; subst; (eexists; split; [first [exact Hj|apply hget_new|eapply hget_hset_same; exact Hj]|]); repeat split.
Qed.
Lemma fluent_alike R gen gen' h r j h' r' j' t t' name : hget h r = Some j -> hget h' r' = Some j' -> alike j j' -> width_named t = width_named t' ->
  (forall a b, alike a b -> (same_feeds j j' -> feed_named t = feed_named t' -> same_feeds a b) ->
     match gen a, gen' b with Ok x, Ok y => R x y | Err x, Err y => x = y | _, _ => False end) ->
  calls_alike R (fluent_op h r t name gen) (fluent_op h' r' t' name gen').
Proof.
  intros Hj Hj' A W G. pose proof (fluent_op_spec h r j t name gen Hj) as S. pose proof (fluent_op_spec h' r' j' t' name gen' Hj') as S'.
  assert (X : forall h1 r1 j1 h2 r2 j2, update_spec h r j t (h1, r1) -> hget h1 r1 = Some j1 -> update_spec h' r' j' t' (h2, r2) -> hget h2 r2 = Some j2 ->
    match gen j1, gen' j2 with Ok x, Ok y => R x y | Err x, Err y => x = y | _, _ => False end).
  { intros h1 r1 j1 h2 r2 j2 U1 E1 U2 E2. destruct (updated_alike _ _ _ _ _ _ Hj U1) as (k1 & K1 & A1 & A2 & A3 & A4 & A5 & A6 & A7 & A8).
    destruct (updated_alike _ _ _ _ _ _ Hj' U2) as (k2 & K2 & B1 & B2 & B3 & B4 & B5 & B6 & B7 & B8).
    rewrite E1 in K1. injection K1 as <-. rewrite E2 in K2. injection K2 as <-. destruct A as (C1 & C2 & C3 & C4 & C5 & C6). apply G.
    - unfold alike. rewrite A1, A2, A3, A4, A5, A7, B1, B2, B3, B4, B5, B7, W, C1, C2, C3, C4, C5, C6. repeat split.
    - intros [D1 D2] E. unfold same_feeds. rewrite A6, A8, B6, B8, E, D1, D2. split; reflexivity. }
  inversion S as [h1 r1 j1 e U E1 G1 Q|h1 r1 j1 c U E1 G1 Q]; inversion S' as [h2 r2 j2 e' U' E2 G2 Q'|h2 r2 j2 c' U' E2 G2 Q'];
    specialize (X _ _ _ _ _ _ U E1 U' E2); rewrite G1, G2 in X; unfold calls_alike; cbn [fst snd]; try contradiction; [exact X|].
  eexists _, _, _, _, name, c, c'. split; [apply hget_new|]. split; [apply hget_new|]. split; [reflexivity|]. split; [reflexivity|exact X].
Qed.
Lemma fluent_settled gen h r j h' r' j' t t' name : settled gen -> hget h r = Some j -> hget h' r' = Some j' -> alike j j' -> same_feeds j j' ->
  width_named t = width_named t' -> feed_named t = feed_named t' -> calls_alike same_commands (fluent_op h r t name gen) (fluent_op h' r' t' name gen).
Proof.
  intros S Hj Hj' A F W N. apply (fluent_alike _ _ _ _ _ j _ _ j'); try assumption. intros a b Aa Sf. rewrite (S a b Aa (Sf F N)). destruct (gen b); reflexivity.
Qed.
Lemma fluent_path gen h r j h' r' j' t t' name : path_settled gen -> hget h r = Some j -> hget h' r' = Some j' -> alike j j' ->
  width_named t = width_named t' -> calls_alike same_path (fluent_op h r t name gen) (fluent_op h' r' t' name gen).
Proof. intros S Hj Hj' A W. apply (fluent_alike _ _ _ _ _ j _ _ j'); try assumption. intros a b Aa _. exact (S a b Aa). Qed.

Lemma profile_call K TK WK h r j h' r' j' ss oo io sd t tl tl' : hget h r = Some j -> hget h' r' = Some j' -> alike j j' -> width_named tl = width_named tl' ->
  calls_alike same_path (job_profile K TK WK h r ss oo io sd t tl) (job_profile K TK WK h' r' ss oo io sd t tl') /\
  (same_feeds j j' -> feed_named tl = feed_named tl' ->
   calls_alike same_commands (job_profile K TK WK h r ss oo io sd t tl) (job_profile K TK WK h' r' ss oo io sd t tl')).
Proof.
  intros Hj Hj' A W. unfold job_profile. rewrite Hj, Hj'. assert (D : j_tool_diameter j = j_tool_diameter j') by apply A. rewrite D.
  destruct (negb (is_some (j_tool_diameter j'))); [split; reflexivity|]. destruct (_ && _)%bool; [split; reflexivity|].
  destruct (extract_wires ss) as [[os is_]|x]; [|split; reflexivity]. destruct (profile_settled K TK WK os is_ oo io sd t) as [S P]. split.
  - apply (fluent_path _ _ _ j _ _ j'); assumption.
  - intros F N. apply (fluent_settled _ _ _ j _ _ j'); assumption.
Qed.
Lemma profile_call_same K TK WK h r j h' r' j' ss oo io sd t tl tl' : hget h r = Some j -> hget h' r' = Some j' -> alike j j' -> same_feeds j j' ->
  width_named tl = width_named tl' -> feed_named tl = feed_named tl' ->
  calls_alike same_commands (job_profile K TK WK h r ss oo io sd t tl) (job_profile K TK WK h' r' ss oo io sd t tl').
Proof. intros Hj Hj' A F W N. exact (proj2 (profile_call K TK WK h r j h' r' j' ss oo io sd t tl tl' Hj Hj' A W) F N). Qed.
Lemma profile_call_path K TK WK h r j h' r' j' ss oo io sd t tl tl' : hget h r = Some j -> hget h' r' = Some j' -> alike j j' ->
  width_named tl = width_named tl' -> calls_alike same_path (job_profile K TK WK h r ss oo io sd t tl) (job_profile K TK WK h' r' ss oo io sd t tl').
Proof. intros Hj Hj' A W. exact (proj1 (profile_call K TK WK h r j h' r' j' ss oo io sd t tl tl' Hj Hj' A W)). Qed.
Lemma wire_profile_call_same K TK WK h r j h' r' j' ws o sd t tl tl' : hget h r = Some j -> hget h' r' = Some j' -> alike j j' -> same_feeds j j' ->
  width_named tl = width_named tl' -> feed_named tl = feed_named tl' ->
  calls_alike same_commands (job_wire_profile K TK WK h r ws o sd t tl) (job_wire_profile K TK WK h' r' ws o sd t tl').
Proof. intros Hj Hj' A F W N. apply (fluent_settled _ _ _ j _ _ j'); try assumption. apply wire_profile_settled. Qed.
Lemma wire_profile_call_path K TK WK h r j h' r' j' ws o sd t tl tl' : hget h r = Some j -> hget h' r' = Some j' -> alike j j' ->
  width_named tl = width_named tl' -> calls_alike same_path (job_wire_profile K TK WK h r ws o sd t tl) (job_wire_profile K TK WK h' r' ws o sd t tl').
Proof. intros Hj Hj' A W. apply (fluent_path _ _ _ j _ _ j'); try assumption. apply wire_profile_settled. Qed.
Lemma pocket_call_same K WK F E fuel h r j h' r' j' ops avoids a tl tl' : hget h r = Some j -> hget h' r' = Some j' -> alike j j' -> same_feeds j j' ->
  width_named tl = width_named tl' -> feed_named tl = feed_named tl' ->
  calls_alike same_commands (job_pocket K WK F E fuel h r ops avoids a tl) (job_pocket K WK F E fuel h' r' ops avoids a tl').
Proof. intros Hj Hj' A Fe W N. apply (fluent_settled _ _ _ j _ _ j'); try assumption. apply pocket_settled. Qed.
Lemma pocket_call_path K WK F E fuel h r j h' r' j' ops avoids a tl tl' : hget h r = Some j -> hget h' r' = Some j' -> alike j j' ->
  width_named tl = width_named tl' -> calls_alike same_path (job_pocket K WK F E fuel h r ops avoids a tl) (job_pocket K WK F E fuel h' r' ops avoids a tl').
Proof. intros Hj Hj' A W. apply (fluent_path _ _ _ j _ _ j'); try assumption. apply pocket_settled. Qed.
Lemma drill_call_same h r j h' r' j' os z tl tl' : hget h r = Some j -> hget h' r' = Some j' -> alike j j' -> same_feeds j j' ->
  width_named tl = width_named tl' -> feed_named tl = feed_named tl' -> calls_alike same_commands (job_drill h r os z tl) (job_drill h' r' os z tl').
Proof. intros Hj Hj' A F W N. apply (fluent_settled _ _ _ j _ _ j'); try assumption. apply drill_settled. Qed.
Lemma drill_call_path h r j h' r' j' os z tl tl' : hget h r = Some j -> hget h' r' = Some j' -> alike j j' ->
  width_named tl = width_named tl' -> calls_alike same_path (job_drill h r os z tl) (job_drill h' r' os z tl').
Proof. intros Hj Hj' A W. apply (fluent_path _ _ _ j _ _ j'); try assumption. apply drill_settled. Qed.
Lemma surface_call_same h r j h' r' j' K C a os : hget h r = Some j -> hget h' r' = Some j' -> alike j j' ->
  calls_alike same_commands (job_surface3d h r K C a os) (job_surface3d h' r' K C a os).
Proof.
  intros Hj Hj' A. apply (fluent_alike _ _ _ _ _ j _ _ j'); try assumption; [reflexivity|]. intros x y Axy _. rewrite (surface_settled K C a os x y Axy).
  destruct (surface_gen K C a os y); reflexivity.
Qed.
