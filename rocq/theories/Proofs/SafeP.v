From Verif Require Import Base.Str Base.Py Model.Groups Model.Geometry Model.Plane Model.Edges Model.Command Model.Job Model.Interp Model.Tree Model.Routers Model.Pocket Model.Profile Model.Drill Model.Strategy Model.Surface Model.PocketOp
  Spec.Jobs Spec.Alike Spec.Heights Proofs.AlikeP Proofs.HeightsP.
Local Open Scope Qc_scope.
Local Open Scope list_scope.

Definition norm (ms : list motion) : list motion := map flat_start (filter (fun m => negb (is_descent m)) ms).
Definition gl (ms : list motion) : list motion * option avec := (norm ms, option_map (fun m => flat_avec (m_end m)) (hd_error (rev ms))).
Lemma norm_app a b : norm (a ++ b) = norm a ++ norm b.
Proof. unfold norm. rewrite filter_app, map_app. reflexivity. Qed.
Lemma gl_last ms ms' d d' : gl ms = gl ms' -> flat_avec d = flat_avec d' -> flat_avec (last_end ms d) = flat_avec (last_end ms' d').
Proof. intros E D. apply (f_equal snd) in E. cbn in E. unfold last_end. destruct (rev ms), (rev ms'); try discriminate E; [exact D|]. injection E as E. unfold flat_avec. congruence. Qed.
Lemma gl_app a a' b b' : gl a = gl a' -> gl b = gl b' -> gl (a ++ b) = gl (a' ++ b').
Proof.
  intros A B. pose proof (f_equal fst A) as A1. pose proof (f_equal fst B) as B1. pose proof (f_equal snd A) as A2. pose proof (f_equal snd B) as B2. cbn in A1, B1, A2, B2.
  unfold gl. rewrite !norm_app, A1, B1, !rev_app_distr. f_equal.
  destruct (rev b), (rev b'); try discriminate B2; [exact A2|exact B2].
Qed.
Lemma gl_nil a a' : gl a = gl a' -> a = [] -> a' = [].
Proof.
  intros E ->. apply (f_equal snd) in E. cbn in E. destruct a' as [|m a'] using rev_ind; [reflexivity|]. rewrite rev_app_distr in E. discriminate.
Qed.
Lemma rapid_to_safe s s' e r r' sa sa' f : flat_avec s = flat_avec s' -> gl (rapid_to s e r (Some sa) f) = gl (rapid_to s' e r' (Some sa') f).
Proof.
  destruct s as [x y z], s' as [x' y' z']. unfold flat_avec. cbn [ax ay]. intros [= -> ->]. destruct x' as [x|], y' as [y|]; unfold rapid_to, differs;
    cbn [retract_abs init_motion m_end ax ay az oeqb negb or_else];
    (try destruct (qeqb x (vx e))); (try destruct (qeqb y (vy e))); cbn [negb orb]; destruct (qltb (vz e) sa), (qltb (vz e) sa'); reflexivity.
Qed.
Lemma cut_all_safe x y z s s' a f : flat_avec s = flat_avec s' -> gl [cut_abs (Some x) (Some y) (Some z) (Some s) a f] = gl [cut_abs (Some x) (Some y) (Some z) (Some s') a f].
Proof. destruct s as [b c d], s' as [b' c' d']. unfold flat_avec. cbn [ax ay]. intros [= -> ->]. reflexivity. Qed.
Lemma cut_poly_safe z f ps : forall s s', flat_avec s = flat_avec s' -> gl (cut_poly z f s ps) = gl (cut_poly z f s' ps).
Proof.
  induction ps as [|[x y] ps IH]; intros s s' E; [reflexivity|]. cbn [cut_poly]. cbn zeta.
  apply (gl_app [_] [_]); [apply cut_all_safe; exact E|]. apply IH. destruct s, s'. reflexivity.
Qed.

Section Safe.
Context (j j' : job) (A : alike_but_heights j j').
Let Et : j_top j = j_top j'. Proof. apply A. Qed.
Let Ed : j_tool_diameter j = j_tool_diameter j'. Proof. apply A. Qed.
Let Ep : j_precision j = j_precision j'. Proof. apply A. Qed.
Let Em : j_max_stepdown_count j = j_max_stepdown_count j'. Proof. apply A. Qed.
Let Ef : j_feed j = j_feed j'. Proof. apply A. Qed.
Let Eg : j_plunge_feed j = j_plunge_feed j'. Proof. apply A. Qed.
Let Erad : tool_radius j = tool_radius j'. Proof. unfold tool_radius. rewrite Ed. reflexivity. Qed.

Lemma route_edges_safe K param es : forall first, route_edges K j first param es = route_edges K j' first param es.
Proof. induction es as [|e es IH]; intros first; [reflexivity|]. cbn [route_edges]. rewrite Ep, Ef. destruct (route_edge _ _ _ _ _ _ _) as [[c v]|]; [|reflexivity]. cbn [rbind]. rewrite IH. reflexivity. Qed.
Definition gw (x : option (list motion * avec * vec)) := option_map (fun y => (gl (fst (fst y)), flat_avec (snd (fst y)), snd y)) x.
Lemma route_wire_safe K so pe pp pp' w : flat_avec pp = flat_avec pp' -> rmap gw (route_wire K j so pe pp w) = rmap gw (route_wire K j' so pe pp' w).
Proof.
  intros P. unfold route_wire. destruct (wire_edges w) as [|e0 es]; [reflexivity|].
  apply (rmap_bind (fun x => (gl (fst x), snd x))).
  - match goal with |- context [match ?l with Some _ => rbind _ _ | None => _ end] => destruct l as [t|] end.
    + rewrite Ef. destruct (shift_edges K (e0 :: es) t); [|reflexivity]. unfold rmap. cbn [rbind fst snd]. f_equal. f_equal. apply cut_all_safe. exact P.
    + unfold rmap. cbn [rbind fst snd]. rewrite Eg. rewrite (rapid_to_safe pp pp' _ (j_rapid_height j) (j_rapid_height j') (j_op_safe_height j) (j_op_safe_height j') _ P). reflexivity.
  - intros [a edges] [a' edges'] E. assert (E1 := f_equal fst E). assert (E2 := f_equal snd E). cbn [fst snd] in E1, E2. subst edges'. clear E.
    rewrite route_edges_safe, Ep, Ef. destruct (route_edges K j' true _ edges) as [b|]; [|reflexivity]. cbn [rbind].
    match goal with |- rmap _ (rbind ?x _) = _ => destruct x as [[c v]|]; [|reflexivity] end. unfold rmap. cbn [rbind]. unfold gw. cbn [option_map fst snd].
    assert (Ea : gl (a ++ b ++ c) = gl (a' ++ b ++ c)) by (apply gl_app; [exact E1|reflexivity]). rewrite Ea, (gl_last _ _ _ _ Ea P). reflexivity.
Qed.
Lemma route_wires_from_safe K so ws : forall pe pp pp', flat_avec pp = flat_avec pp' ->
  rmap (option_map gl) (route_wires_from K j so pe pp ws) = rmap (option_map gl) (route_wires_from K j' so pe pp' ws).
Proof.
  induction ws as [|w ws IH]; intros pe pp pp' P; [reflexivity|]. cbn [route_wires_from]. apply (rmap_bind gw); [apply route_wire_safe; exact P|].
  intros [[[c p] v]|] [[[c' p'] v']|] E; cbn in E; try discriminate E; [|reflexivity].
  assert (E1 := f_equal (fun x => match x with Some y => fst (fst y) | None => ([], None) end) E).
  assert (E2 := f_equal (fun x => match x with Some y => snd (fst y) | None => p end) E).
  assert (E3 := f_equal (fun x => match x with Some y => snd y | None => v end) E). cbv beta iota in E1, E2, E3. cbn [fst snd] in E1, E2, E3. subst v'.
  apply (rmap_bind (option_map gl)); [apply IH; exact E2|]. intros [d|] [d'|] Ed'; cbn [option_map] in Ed'; try discriminate Ed'; [|reflexivity].
  assert (E4 := f_equal (fun x => match x with Some y => y | None => ([], None) end) Ed'). cbv beta iota in E4. unfold rmap. cbn [rbind option_map]. rewrite (gl_app c c' d d' E1 E4). reflexivity.
Qed.
Lemma route_wires_safe K ws so pp pp' : flat_avec pp = flat_avec pp' -> rmap gl (route_wires K j ws so (Some pp)) = rmap gl (route_wires K j' ws so (Some pp')).
Proof.
  intros P. unfold route_wires. apply (rmap_bind (option_map gl)); [apply route_wires_from_safe; exact P|].
  intros [d|] [d'|] E; cbn [option_map] in E; try discriminate E; [|reflexivity].
  assert (E4 := f_equal (fun x => match x with Some y => y | None => ([], None) end) E). cbv beta iota in E4. unfold rmap. cbn [rbind]. rewrite E4. reflexivity.
Qed.

(** ** Profiles *)
Lemma profile_safe K TK WK w o sd t : rmap gl (profile K TK WK j w o sd t) = rmap gl (profile K TK WK j' w o sd t).
Proof.
  unfold profile. rewrite Et, Erad. destruct (tool_radius j'); [|reflexivity].
  apply (rmap_bind (fun x => x)); [reflexivity|]. intros bs bs' ->.
  rewrite (mapM_ext (profile_toolpaths TK WK j sd t) (profile_toolpaths TK WK j' sd t)).
  - apply (rmap_bind (fun x => x)); [reflexivity|]. intros ps ps' ->. apply (route_wires_safe K _ _ av_none av_none eq_refl).
  - intros x. unfold profile_toolpaths, profile_layers. rewrite Et, Em. reflexivity.
Qed.
Lemma gl_concat l : forall l', map gl l = map gl l' -> gl (concat l) = gl (concat l').
Proof.
  induction l as [|a l IH]; intros [|a' l'] E; try discriminate E; [reflexivity|].
  cbn [concat]. apply gl_app; [exact (f_equal (hd ([], None)) E)|]. apply IH. exact (f_equal (@tl _) E).
Qed.
Lemma profile_group_safe K TK WK sd t ws o : rmap gl (profile_group K TK WK j sd t ws o) = rmap gl (profile_group K TK WK j' sd t ws o).
Proof.
  unfold profile_group. destruct o as [o|]; [|reflexivity]. apply (rmap_bind (map gl)).
  - apply rmap_mapM. intros w. apply profile_safe.
  - intros c c' E. unfold rmap. cbn [rbind]. rewrite (gl_concat _ _ E). reflexivity.
Qed.

(** ** Pockets *)
Definition gp (x : list motion * avec * pt) := (gl (fst (fst x)), flat_avec (snd (fst x)), snd x).
Lemma route_polyface_safe so pe pp pp' f : flat_avec pp = flat_avec pp' -> rmap gp (route_polyface j so pe pp f) = rmap gp (route_polyface j' so pe pp' f).
Proof.
  intros P. unfold route_polyface. destruct (pf_outer f) as [|p0 ps]; [reflexivity|]. apply (rmap_bind (fun x => x)); [reflexivity|]. intros near near' ->.
  match goal with |- rmap gp (let '(_, _) := match ?l with _ => _ end in _) = _ => set (lk := l) end. rewrite Ef, Eg.
  match goal with |- rmap gp (let '(_, _) := ?l in _) = rmap gp (let '(_, _) := ?l' in _) => set (AP := l); set (AP' := l') end.
  assert (E : gl (fst AP) = gl (fst AP') /\ snd AP = snd AP').
  { unfold AP, AP'. destruct lk as [[c i]|]; cbn [fst snd]; (split; [|reflexivity]); [apply cut_all_safe; exact P|apply rapid_to_safe; exact P]. }
  clearbody AP AP'. destruct AP as [a poly], AP' as [a' poly']. cbn [fst snd] in E. destruct E as [Ea <-]. cbn iota zeta beta.
  pose proof (gl_last _ _ _ _ Ea P) as Q. set (q := last_end a pp) in *. set (q' := last_end a' pp') in *. clearbody q q'.
  pose proof (cut_poly_safe (pf_depth f) (j_feed j') (tl poly) _ _ Q) as Eb. set (b := cut_poly _ _ q _) in *. set (b' := cut_poly _ _ q' _) in *. clearbody b b'.
  pose proof (gl_last _ _ _ _ Eb Q) as R. set (s := last_end b q) in *. set (s' := last_end b' q') in *. clearbody s s'.
  assert (F : forall c c', gl c = gl c' -> gl (a ++ b ++ c) = gl (a' ++ b' ++ c')) by (intros c c' Ec; apply gl_app; [exact Ea|apply gl_app; [exact Eb|exact Ec]]).
  destruct near' as [[[d r] n]|]; unfold rmap; cbn [rbind]; unfold gp; cbn [fst snd].
  - pose proof (F _ _ (cut_all_safe (fst r) (snd r) (pf_depth f) s s' false (Some (j_feed j')) R)) as G. rewrite (gl_last _ _ _ _ G P), G. reflexivity.
  - pose proof (F [] [] eq_refl) as G. rewrite (gl_last _ _ _ _ G P), G. reflexivity.
Qed.
Lemma route_polyfaces_safe so fs : forall pe pp pp', flat_avec pp = flat_avec pp' -> rmap gl (route_polyfaces_from j so pe pp fs) = rmap gl (route_polyfaces_from j' so pe pp' fs).
Proof.
  induction fs as [|f fs IH]; intros pe pp pp' P; [reflexivity|]. cbn [route_polyfaces_from]. apply (rmap_bind gp); [apply route_polyface_safe; exact P|].
  intros [[c p] v] [[c' p'] v'] E. assert (E1 := f_equal (fun x => fst (fst x)) E). assert (E2 := f_equal (fun x => snd (fst x)) E).
  assert (E3 := f_equal snd E). unfold gp in E1, E2, E3. cbn [fst snd] in E1, E2, E3. subst v'. apply (rmap_bind gl); [apply IH; exact E2|]. intros d d' E'. unfold rmap. cbn [rbind]. rewrite (gl_app _ _ _ _ E1 E'). reflexivity.
Qed.
Lemma seq_case (c c' : list motion) (done : bool) (R R' : avec -> result (list motion)) pp pp' : gl c = gl c' -> flat_avec pp = flat_avec pp' ->
  (forall p p', flat_avec p = flat_avec p' -> rmap gl (R p) = rmap gl (R' p')) ->
  rmap gl (match c, done with [], false => Err IndexError | _, _ => do rest <- R (last_end c pp); Ok (c ++ rest) end) =
  rmap gl (match c', done with [], false => Err IndexError | _, _ => do rest <- R' (last_end c' pp'); Ok (c' ++ rest) end).
Proof.
  intros E P H. assert (N : rmap gl (do rest <- R (last_end c pp); Ok (c ++ rest)) = rmap gl (do rest <- R' (last_end c' pp'); Ok (c' ++ rest))).
  { apply (rmap_bind gl); [apply H, gl_last; assumption|]. intros d d' E'. unfold rmap. cbn [rbind]. rewrite (gl_app _ _ _ _ E E'). reflexivity. }
  destruct c as [|m c]; [rewrite (gl_nil _ _ E eq_refl) in *|destruct c' as [|m' c']; [discriminate (gl_nil _ _ (eq_sym E) eq_refl)|]]; destruct done; try exact N; reflexivity.
Qed.
Lemma route_sequences_safe so ss : forall done pp pp', flat_avec pp = flat_avec pp' -> rmap gl (route_sequences j so done pp ss) = rmap gl (route_sequences j' so done pp' ss).
Proof.
  induction ss as [|s ss IH]; intros done pp pp' P; [reflexivity|]. cbn [route_sequences]. apply (rmap_bind gl); [apply route_polyfaces_safe; exact P|].
  intros c c' E. apply (seq_case c c' done (fun p => route_sequences j so true p ss) (fun p => route_sequences j' so true p ss)); [exact E|exact P|]. intros p p' Q. apply IH. exact Q.
Qed.
Lemma route_wire_sequences_safe K so ss : forall done pp pp', flat_avec pp = flat_avec pp' ->
  rmap gl (route_wire_sequences K j so done pp ss) = rmap gl (route_wire_sequences K j' so done pp' ss).
Proof.
  induction ss as [|s ss IH]; intros done pp pp' P; [reflexivity|]. cbn [route_wire_sequences]. apply (rmap_bind gl); [apply route_wires_safe; exact P|].
  intros c c' E. apply (seq_case c c' done (fun p => route_wire_sequences K j so true p ss) (fun p => route_wire_sequences K j' so true p ss)); [exact E|exact P|]. intros p p' Q. apply IH. exact Q.
Qed.
Ltac same_step := apply (rmap_bind (fun x => x)); [reflexivity|]; let a := fresh in let b := fresh in intros a b ->.
Lemma pocket_safe K WK F E fuel eng ops avoids a : rmap gl (pocket K WK F E fuel eng j ops avoids a) = rmap gl (pocket K WK F E fuel eng j' ops avoids a).
Proof.
  unfold pocket. rewrite Erad, Et, Ep. do 5 same_step. destruct eng; [| |reflexivity].
  - do 2 same_step. unfold pocket_clipper. rewrite Ep. do 4 same_step. apply route_sequences_safe. reflexivity.
  - unfold pocket_cq. rewrite Et. do 4 same_step. apply route_wire_sequences_safe. reflexivity.
Qed.

(** ** Surfaces *)
Lemma surface_cuts_safe d ps : forall s s', flat_avec s = flat_avec s' -> gl (surface_cuts d s ps) = gl (surface_cuts d s' ps).
Proof.
  induction ps as [|p ps IH]; intros s s' E; [reflexivity|]. cbn [surface_cuts]. cbn zeta. apply (gl_app [_] [_]); [apply cut_all_safe; exact E|]. apply IH. destruct s, s'. reflexivity.
Qed.
Lemma surface_run_safe d pp pp' r : flat_avec pp = flat_avec pp' -> gl (surface_run j d pp r) = gl (surface_run j' d pp' r).
Proof.
  intros P. destruct r as [|p r]; [reflexivity|]. unfold surface_run. cbn zeta. apply (gl_app [_; _; _] [_; _; _]).
  - destruct pp as [x y z], pp' as [x' y' z']. unfold flat_avec in P. cbn [ax ay] in P. injection P as -> ->. destruct x' as [x|], y' as [y|]; reflexivity.
  - apply surface_cuts_safe. destruct pp as [x y z], pp' as [x' y' z']. reflexivity.
Qed.
Lemma surface_runs_safe d rs : forall pp pp', flat_avec pp = flat_avec pp' -> gl (surface_runs j d pp rs) = gl (surface_runs j' d pp' rs).
Proof.
  induction rs as [|r rs IH]; intros pp pp' P; [reflexivity|]. cbn [surface_runs]. cbn zeta. rewrite !end_pos_last. pose proof (surface_run_safe d _ _ r P) as E.
  apply gl_app; [exact E|]. apply IH. apply gl_last; assumption.
Qed.
Lemma surface_passes_safe seqs all ds : forall i pp pp', flat_avec pp = flat_avec pp' -> gl (surface_passes j seqs all i ds pp) = gl (surface_passes j' seqs all i ds pp').
Proof.
  induction ds as [|d ds IH]; intros i pp pp' P; [reflexivity|]. cbn [surface_passes]. cbn zeta. rewrite !end_pos_last.
  pose proof (surface_runs_safe d (chop_sequences_by_depth seqs (depth_limit all i)) _ _ P) as E. apply gl_app; [exact E|]. apply IH. apply gl_last; assumption.
Qed.
Lemma holes_safe d ps : forall pp pp', flat_avec pp = flat_avec pp' -> map flat_start (holes j d pp ps) = map flat_start (holes j' d pp' ps).
Proof.
  induction ps as [|p ps IH]; intros pp pp' P; [reflexivity|]. cbn [holes]. cbn zeta. rewrite !map_app. f_equal.
  - unfold hole. rewrite Ef. destruct pp as [x y z], pp' as [x' y' z']. unfold flat_avec in P. cbn [ax ay] in P. injection P as -> ->. destruct x' as [x|], y' as [y|]; reflexivity.
  - apply IH. destruct pp as [x y z], pp' as [x' y' z']. unfold flat_avec in P. cbn [ax ay] in P. injection P as -> ->. destruct x' as [x|], y' as [y|]; reflexivity.
Qed.
End Safe.

Lemma not_descents_motions ms : map flat_starts (not_descents (map Motion ms)) = map Motion (norm ms).
Proof.
  unfold not_descents, norm. induction ms as [|m ms IH]; [reflexivity|]. cbn [map filter]. destruct (negb (is_descent m)); [cbn [map flat_starts]; f_equal|]; exact IH.
Qed.
Lemma same_descents_of (r r' : result (list motion)) : rmap gl r = rmap gl r' -> same_but_descents (rmap (map Motion) r) (rmap (map Motion) r').
Proof.
  destruct r as [a|], r' as [b|]; unfold rmap; cbn [rbind]; intros E; try discriminate E; [|injection E as E; exact E].
  assert (E1 : gl a = gl b) by congruence. apply (f_equal fst) in E1. cbn [gl fst] in E1. cbn [same_but_descents]. rewrite !not_descents_motions, E1. reflexivity.
Qed.
Lemma profile_gen_safe K TK WK os is_ oo io sd t j j' : alike_but_heights j j' ->
  same_but_descents (profile_gen K TK WK os is_ oo io sd t j) (profile_gen K TK WK os is_ oo io sd t j').
Proof.
  intros A. rewrite !profile_gen_of. apply same_descents_of. apply (rmap_bind gl); [apply profile_group_safe; exact A|]. intros a a' E.
  apply (rmap_bind gl); [apply profile_group_safe; exact A|]. intros b b' E'. unfold rmap. cbn [rbind]. rewrite (gl_app _ _ _ _ E E'). reflexivity.
Qed.
Lemma wire_profile_gen_safe K TK WK ws o sd t j j' : alike_but_heights j j' ->
  same_but_descents (wire_profile_gen K TK WK ws o sd t j) (wire_profile_gen K TK WK ws o sd t j').
Proof. intros A. apply (same_descents_of (profile_group K TK WK j sd t ws (Some o))). apply profile_group_safe. exact A. Qed.
Lemma pocket_gen_safe K WK F E fuel ops avoids a j j' : alike_but_heights j j' ->
  same_but_descents (pocket_gen K WK F E fuel ops avoids a j) (pocket_gen K WK F E fuel ops avoids a j').
Proof. intros A. apply (same_descents_of (pocket K WK F E fuel EngClipper j ops avoids a)). apply pocket_safe. exact A. Qed.
Lemma surface_gen_safe K C a os j j' : alike_but_heights j j' -> same_but_descents (surface_gen K C a os j) (surface_gen K C a os j').
Proof.
  intros A. assert (Et : j_top j = j_top j') by apply A. unfold surface_gen. rewrite Et.
  destruct (wp_to_faces os) as [fs|]; [|reflexivity]. cbn [rbind]. destruct (sk_zmin K _ fs) as [z|]; [|reflexivity]. cbn [rbind].
  destruct (sk_project K _ fs) as [b|]; [|reflexivity]. cbn [rbind]. destruct (mapM _ b) as [bs|]; [|reflexivity]. cbn [rbind].
  assert (X : forall k, (do mss <- mapM (surface_boundary K C a k fs z) (concat bs); Ok (map Motion (concat mss))) = rmap (map Motion) (rmap (@concat _) (mapM (surface_boundary K C a k fs z) (concat bs))))
    by (intros k; destruct (mapM _ (concat bs)); reflexivity).
  rewrite !X. apply same_descents_of. apply (rmap_bind (map gl)).
  - apply rmap_mapM. intros x. unfold surface_boundary. rewrite Et. destruct (surface_sequences _ _ _ _ _ _ _); [|reflexivity]. cbn [rbind]. destruct (surface_depths _ _ _); [|reflexivity].
    unfold rmap. cbn [rbind]. rewrite (surface_passes_safe j j' _ _ _ _ av_none av_none eq_refl). reflexivity.
  - intros c c' E. unfold rmap. cbn [rbind]. rewrite (gl_concat _ _ E). reflexivity.
Qed.
(** Drilling: the cuts are descents, and end at the same places. *)
Lemma drill_gen_safe os z j j' : alike_but_heights j j' -> rmap (map flat_starts) (drill_gen os z j) = rmap (map flat_starts) (drill_gen os z j').
Proof.
  intros A. unfold drill_gen. destruct os as [os|]; [|reflexivity]. destruct z as [z|]; [|reflexivity]. pose proof A as (-> & _). destruct (mapM _ os) as [vs|]; [|reflexivity]. cbn [rbind].
  destruct (concat vs); [reflexivity|]. cbn zeta. destruct (order_points _ _ _) as [o|]; [|reflexivity]. unfold rmap. cbn [rbind].
  rewrite !map_map. cbn [flat_starts]. rewrite <- !(map_map flat_start Motion). rewrite (holes_safe j j' A z o av_none av_none eq_refl). reflexivity.
Qed.
Lemma drill_gen_same os z j j' : alike_but_heights j j' ->
  match drill_gen os z j, drill_gen os z j' with
  | Ok a, Ok b => map flat_starts a = map flat_starts b
  | Err x, Err y => x = y
  | _, _ => False
  end.
Proof.
  intros A. pose proof (drill_gen_safe os z _ _ A) as E. destruct (drill_gen os z j), (drill_gen os z j'); unfold rmap in E; cbn [rbind] in E; try discriminate E; congruence.
Qed.
