From Verif Require Import Base.Str Base.Py Model.Geometry Model.Edges Model.Routers
  Spec.Paths Spec.Moves Spec.Contours Spec.Wires Spec.Visits Proofs.GeomP Proofs.RouteP Proofs.EdgeP Proofs.WireP Proofs.RouteThmP Proofs.RouteEx.
Local Open Scope Qc_scope.
Local Open Scope list_scope.

Lemma round_link p i a b c : closed_path p -> nth_error (steps p) i = Some (a, b) -> on_segment c a b ->
  round_from p c (steps (c :: tl (shift_polygon p i) ++ [c])).
Proof.
  intros HC HN HO. assert (Hi : (S i < length p)%nat).
  { assert (i < length (steps p))%nat by (apply nth_error_Some; congruence). rewrite steps_length in H. lia. }
  destruct (shift_polygon_spec p i HC Hi) as (_ & (x & l & E & HL) & HS & _).
  destruct (skipn_nth _ _ _ HN) as [E1 E2]. rewrite E2 in HS. rewrite E in *. cbn [tl].
  destruct l as [|y l]; [discriminate|].
  change (steps (x :: y :: l)) with ((x, y) :: steps (y :: l)) in HS.
  injection HS as -> -> HS. exists (firstn i (steps p)), a, b, (skipn (S i) (steps p)).
  split; [exact E1|]. split; [exact HO|].
  change (steps (c :: (b :: l) ++ [c])) with ((c, b) :: steps ((b :: l) ++ [c])). f_equal.
  destruct (exists_last (l := b :: l)) as (l' & z & El); [discriminate|].
  assert (Ez : z = a).
  { rewrite last_cons in HL. rewrite El in HL. rewrite last_last in HL. exact HL. }
  subst z. assert (HS' : skipn (S i) (steps p) ++ firstn i (steps p) = steps (b :: l)) by (symmetry; exact HS).
  rewrite app_assoc, HS', El, <- app_assoc. apply steps_snoc.
Qed.

Lemma lifted_here j pp f p0 es pts : steps (p0 :: pts) = es ->
  lifted_over p0 es (entry_rapid j pp f p0 ++ cut_poly (pf_depth f) (j_feed j) (after pp (entry_rapid j pp f p0)) pts).
Proof.
  intros <-. pose proof (entry_rapid_xy j pp f p0) as HX.
  assert (RT : exists m rest, entry_rapid j pp f p0 = m :: rest /\ is_retract m = true).
  { unfold entry_rapid, rapid_to. eexists _, _. split; reflexivity. }
  destruct RT as (m & rest & E & HM). rewrite E in *. cbn [after] in *.
  exists m, rest, (cut_poly (pf_depth f) (j_feed j) (after (m_end m) rest) pts).
  split; [reflexivity|]. split; [exact HM|]. split; [exact HX|]. apply cut_poly_moves, HX.
Qed.

Lemma route_polyface_visit j so pe pp f cmds pos we : closed_path (pf_outer f) -> steps (pf_outer f) <> [] ->
  (forall e, pe = Some e -> xy pp = Some e) ->
  route_polyface j so pe pp f = Ok (cmds, pos, we) -> visit so pe (pf_outer f) cmds we /\ xy pos = Some we.
Proof.
  intros HCL HS HP H. split.
  2: { destruct (route_polyface_inv _ _ _ _ _ _ _ _ H) as (access & pts & HC & -> & ->). exact (contour_end _ _ _ _ _ _ _ _ HC). }
  unfold route_polyface in H. destruct (pf_outer f) as [|p0 rest] eqn:EO; [discriminate|].
  apply rbind_ok in H. destruct H as (near & HN & H). exists p0. split; [reflexivity|].
  change (rapid_to pp _ _ _ _) with (entry_rapid j pp f p0) in H.
  remember (entry_rapid j pp f p0) as RT eqn:ERT in H.
  destruct HCL as (a0 & l0 & [= <- <-] & HL).
  destruct near as [[[d c] [i r]]|].
  - destruct pe as [e|]; [|discriminate].
    destruct (distance_to_path_spec _ _ _ _ _ _ HN) as (a & b & N1 & N2 & N3 & _ & N5 & _).
    assert (HOP : on_path c (p0 :: rest)) by (exists a, b; split; [eapply nth_error_In; exact N1|exact N2]).
    set (linked := match so with Some s => if truthy so && truthy (Some d) && qleb d s then Some (c, i) else None | None => None end) in H.
    destruct linked as [[c' i']|] eqn:EL.
    + unfold linked in EL. destruct so as [s|]; [|discriminate].
      destruct (truthy (Some s)) eqn:E1; [|discriminate]. destruct (truthy (Some d)) eqn:E2; [|discriminate].
      destruct (qleb d s) eqn:E3; [|discriminate]. injection EL as <- <-.
      apply truthy_some in E1. apply truthy_some in E2. apply qleb_le in E3.
      assert (0 <= d) by (rewrite N3; apply sqd_nn).
      assert (Hd : 0 < d). { apply Qcnot_le_lt. intro C. apply E2. apply Qcle_antisym; assumption. }
      injection H as <- <- <-. rewrite !last_end_after.
      split; [split; [exact HOP|]; intros q Hq; rewrite <- N3; apply N5, Hq|]. left.
      split; [exists s; rewrite <- N3; auto|].
      exists (steps (c :: tl (shift_polygon (p0 :: rest) i) ++ [c])). split.
      * exists (cut_abs (Some (fst c)) (Some (snd c)) (Some (pf_depth f)) (Some pp) false (Some (j_feed j))),
          (cut_poly (pf_depth f) (j_feed j) (after pp (entry_link j pp f c)) (tl (shift_polygon (p0 :: rest) i) ++ [c])).
        split; [|split; [exact I|split]].
        -- rewrite cut_poly_app, !last_end_after. destruct c. reflexivity.
        -- split; [apply HP; reflexivity|destruct c; reflexivity].
        -- apply cut_poly_moves. destruct c; reflexivity.
      * eapply round_link; [exists p0, rest; auto|exact N1|exact N2].
    + injection H as <- <- <-. rewrite !last_end_after. subst RT.
      split; [split; [exact HOP|]; intros q Hq; rewrite <- N3; apply N5, Hq|]. right. split.
      * intros (s & -> & L1 & L2). unfold linked in EL. rewrite <- N3 in L1, L2.
        assert (Hs : 0 < s) by (eapply Qclt_le_trans; eassumption).
        rewrite (proj2 (truthy_some s)), (proj2 (truthy_some d)), (proj2 (qleb_le d s) L2) in EL; [discriminate| |];
          intros ->; eapply Qclt_not_eq; [exact L1|reflexivity|exact Hs|reflexivity].
      * replace (entry_rapid j pp f p0 ++ _) with (entry_rapid j pp f p0 ++ cut_poly (pf_depth f) (j_feed j) (after pp (entry_rapid j pp f p0)) (rest ++ [c])).
        -- apply lifted_here. destruct rest as [|q rest] using rev_ind; [destruct HS; reflexivity|].
           rewrite last_cons, last_last in HL. subst q.
           change (p0 :: (rest ++ [p0]) ++ [c]) with ((p0 :: (rest ++ [p0])) ++ [c]).
           change (p0 :: rest ++ [p0]) with ((p0 :: rest) ++ [p0]). rewrite <- app_assoc. apply steps_snoc.
        -- rewrite cut_poly_app, !last_end_after. destruct c. reflexivity.
  - injection H as <- <- <-. rewrite !last_end_after. subst RT. destruct pe as [e|].
    + exfalso. destruct rest as [|q rest]; [apply HS; reflexivity|].
      pose proof (distance_to_path_from_spec e (p0 :: q :: rest) [] None _ eq_refl HN) as HB. discriminate HB.
    + split; [|exact HL]. rewrite app_nil_r. apply lifted_here. reflexivity.
Qed.

Lemma visits_from j so fs : forall pe pp cmds, (forall e, pe = Some e -> xy pp = Some e) ->
  (forall f, In f fs -> closed_path (pf_outer f) /\ steps (pf_outer f) <> []) ->
  route_polyfaces_from j so pe pp fs = Ok cmds -> exists gs, cmds = concat gs /\ visits so pe (map pf_outer fs) gs.
Proof.
  induction fs as [|f fs IH]; intros pe pp cmds HP HF H.
  - injection H as <-. exists []. split; [reflexivity|constructor].
  - cbn [route_polyfaces_from] in H. apply rbind_ok in H. destruct H as ([[c pos] we] & H1 & H).
    apply rbind_ok in H. destruct H as (rest & H2 & H). injection H as <-.
    destruct (HF f (or_introl eq_refl)) as (C1 & C2).
    destruct (route_polyface_visit _ _ _ _ _ _ _ _ C1 C2 HP H1) as (V & X).
    destruct (IH (Some we) pos rest) as (gs & -> & VS); [intros e [= <-]; exact X|intros g G; apply HF; right; exact G|exact H2|].
    exists (c :: gs). split; [reflexivity|]. exact (visits_cons so pe (pf_outer f) (map pf_outer fs) c gs we V VS).
Qed.
Lemma outers_visits j fs so pp cmds : route_polyface_outers j fs so pp = Ok cmds ->
  (forall f, In f fs -> closed_path (pf_outer f) /\ steps (pf_outer f) <> []) ->
  exists gs, cmds = concat gs /\ visits so None (map pf_outer fs) gs.
Proof. intros H HF. apply (visits_from j so fs None (dflt pp av_none) cmds); [intros e C; discriminate C|exact HF|exact H]. Qed.

Lemma nested_visits : exists c1 c2, route_polyface_outers ex_job nested (Some (qq 3 2)) None = Ok c1 /\
  route_polyface_outers ex_job nested (Some (qq 1 2)) None = Ok c2 /\ retracts c1 = 1%nat /\ retracts c2 = 2%nat /\
  forall f, In f nested -> closed_path (pf_outer f) /\ steps (pf_outer f) <> [].
Proof.
  exists (motions (route_polyface_outers ex_job nested (Some (qq 3 2)) None)), (motions (route_polyface_outers ex_job nested (Some (qq 1 2)) None)).
  split; [vm_compute; reflexivity|]. split; [vm_compute; reflexivity|]. split; [vm_compute; reflexivity|]. split; [vm_compute; reflexivity|].
  intros f [<-|[<-|[]]]; (split; [apply square_closed|discriminate]).
Qed.

(** ** Wires *)
Lemma after_any c : c <> [] -> forall x y, after x c = after y c.
Proof. destruct c; [congruence|reflexivity]. Qed.
Lemma edges_end K j es : forall first param body e0 rest x, es = e0 :: rest -> (forall e, In e es -> edge_sound e) ->
  (param <> None -> forall e, In e es -> is_spline_geom (e_geom e) = false) -> route_edges K j first param es = Ok body ->
  body <> [] /\ after x body = from_vector (travel_end (last es e0)).
Proof.
  induction es as [|e es IH]; intros first param body e0 rest x E HS HP H; [discriminate|]. injection E as -> ->.
  cbn [route_edges] in H. apply rbind_ok in H. destruct H as ([c v] & H1 & H). apply rbind_ok in H.
  destruct H as (cs & H2 & H). injection H as <-.
  assert (HQ : is_spline_geom (e_geom e0) = true -> (if first then param else None) = None /\ @None Qc = None).
  { intros Hsp. destruct first; [|auto]. destruct param; [|auto]. rewrite HP in Hsp; [discriminate|congruence|left; reflexivity]. }
  destruct (route_edge_chain _ _ _ _ _ _ _ _ _ (HS e0 (or_introl eq_refl)) HQ H1) as (_ & NE & _ & _ & D). cbv zeta in D.
  split; [intros C; apply app_eq_nil in C; apply NE, C|]. rewrite after_app.
  destruct rest as [|e1 rest].
  - cbn [route_edges] in H2. injection H2 as <-. cbn [after last]. rewrite <- D. apply after_any, NE.
  - destruct (IH false param cs e1 rest (after x c) eq_refl (fun e He => HS e (or_intror He)) (fun N e He => HP N e (or_intror He)) H2) as (_ & C2).
    rewrite C2. f_equal. f_equal. change (last (e0 :: e1 :: rest) e0) with (last (e1 :: rest) e0). apply last_any. discriminate.
Qed.

Lemma wire_end K j so pe pp w es param access body closing v x : wire_routed K j so pe pp w es param access body closing v ->
  (forall e, In e (wire_edges w) -> edge_sound e) ->
  (forall u d id p e, k_nearest K u w = Some (d, TEdge id p) -> In e (wire_edges w) -> is_spline_geom (e_geom e) = false) ->
  after x (body ++ closing) = from_vector v.
Proof.
  intros HW HS HK.
  assert (G : exists e0 rest, es = e0 :: rest /\ (forall e, In e es -> In e (wire_edges w)) /\ route_edges K j true param es = Ok body /\
    (param <> None -> forall e, In e es -> is_spline_geom (e_geom e) = false) /\
    (if truthy param then route_edge K e0 (j_precision j) None param false (Some (j_feed j)) = Ok (closing, v)
     else closing = [] /\ v = travel_end (last es e0))).
  { destruct HW as [e0 es0 body0 closing0 param0 v0 EW EP NL HB HCl|u d t s e0 es0 body0 closing0 param0 v0 EPe HN Es S1 S2 S3 HSh EP HB HCl].
    - exists e0, es0. split; [reflexivity|]. split; [intros e He; rewrite EW; exact He|]. split; [exact HB|]. split; [|exact HCl].
      intros N e He. rewrite <- EW in He. destruct pe as [u|]; [|congruence]. destruct (k_nearest K u w) as [[d [tv|id p]]|] eqn:E; try congruence.
      exact (HK u d id p e E He).
    - destruct (shift_edges_spec _ _ _ _ HSh) as (HR & _).
      exists e0, es0. split; [reflexivity|]. split; [intros e He; exact (rotation_in _ _ _ HR He)|]. split; [exact HB|]. split; [|exact HCl].
      intros N e He. destruct t as [tv|id p]; [congruence|]. exact (HK u d id p e HN (rotation_in _ _ _ HR He)). }
  clear HW. destruct G as (e0 & rest & -> & HI & HB & HP & HC).
  destruct (edges_end K j (e0 :: rest) true param body e0 rest x eq_refl (fun e He => HS e (HI e He)) HP HB) as (_ & D).
  rewrite after_app, D. destruct (truthy param) eqn:T.
  - assert (N : param <> None) by (intros ->; discriminate T).
    assert (HQ : is_spline_geom (e_geom e0) = true -> @None Qc = None /\ param = None).
    { intros C. rewrite (HP N e0 (or_introl eq_refl)) in C. discriminate C. }
    destruct (route_edge_chain _ _ _ _ _ _ _ _ _ (HS e0 (HI e0 (or_introl eq_refl))) HQ HC) as (-> & NE & _ & _ & D2). cbv zeta in D2.
    rewrite <- D2. apply after_any, NE.
  - destruct HC as (-> & ->). reflexivity.
Qed.

Lemma wires_joined K j so ws : forall pe pp gs, wires_routed K j so pe pp ws gs ->
  (forall w e, In w ws -> In e (wire_edges w) -> edge_sound e) ->
  (forall w u d id p e, In w ws -> k_nearest K u w = Some (d, TEdge id p) -> In e (wire_edges w) -> is_spline_geom (e_geom e) = false) ->
  joined K so pe ws gs.
Proof.
  induction ws as [|w ws IH]; intros pe pp gs H HS HK; inversion H; subst; [constructor|].
  match goal with HW : wire_routed _ _ _ _ _ _ _ _ _ _ _ _, HR : wires_routed _ _ _ _ _ ws _ |- _ => rename HW into W; rename HR into WS end.
  assert (J := IH _ _ _ WS (fun x e Hx => HS x e (or_intror Hx)) (fun x u d id p e Hx => HK x u d id p e (or_intror Hx))).
  assert (E : forall x, after x (body ++ closing) = from_vector v)
    by (intros x; exact (wire_end K j so pe pp w es param access body closing v x W (fun e => HS w e (or_introl eq_refl)) (fun u d id p e => HK w u d id p e (or_introl eq_refl)))).
  unfold g. destruct W as [e0 es0 body0 closing0 param0 v0 EW EP NL HB HCl|u d t s e0 es0 body0 closing0 param0 v0 EPe HN Es S1 S2 S3 HSh EP HB HCl].
  - assert (RT : exists m rest, rapid_to pp (travel_start e0) (j_rapid_height j) (Some (j_op_safe_height j)) (Some (j_plunge_feed j)) = m :: rest /\ is_retract m = true).
    { unfold rapid_to. eexists _, _. split; reflexivity. }
    destruct RT as (m & rest & -> & RM). cbn [app].
    apply joined_cons with (u := v0); [|intros _; exact RM|rewrite after_app; apply E|exact J].
    intros (q & s & d & t & -> & Hs & S1 & HN & D1 & D2). exfalso. exact (NL q d t eq_refl HN (ex_intro _ s (conj Hs (conj S1 (conj D1 D2))))).
  - cbn [app]. apply joined_cons with (u := v0); [intros _; exact I| |apply E|exact J].
    intros C. exfalso. apply C. exists u, s, d, t. auto 8.
Qed.
Lemma routed_joined K j ws so pp cmds : route_wires K j ws so pp = Ok cmds -> (forall w, In w ws -> wire_edges w <> []) ->
  (forall w e, In w ws -> In e (wire_edges w) -> edge_sound e) ->
  (forall w u d id p e, In w ws -> k_nearest K u w = Some (d, TEdge id p) -> In e (wire_edges w) -> is_spline_geom (e_geom e) = false) ->
  exists gs, cmds = concat gs /\ joined K so None ws gs.
Proof.
  intros H NE HS HK. destruct (wires_split _ _ _ _ _ _ H NE) as (gs & -> & HG). exists gs. split; [reflexivity|].
  exact (wires_joined K j so ws _ _ _ HG HS HK).
Qed.

Lemma loops_joined : (forall w e, In w [loop_wire 1 3 20; loop_wire 0 5 10] -> In e (wire_edges w) -> is_spline_geom (e_geom e) = false) /\
  exists c1 c2, route_wires link_kernel ex_job [loop_wire 1 3 20; loop_wire 0 5 10] (Some (qz 1)) None = Ok c1 /\ retracts c1 = 1%nat /\
    route_wires link_kernel ex_job [loop_wire 1 3 20; loop_wire 0 5 10] (Some (qq 1 2)) None = Ok c2 /\ retracts c2 = 2%nat.
Proof.
  split.
  - intros w e [<-|[<-|[]]]; cbn [wire_edges loop_wire]; intros [<-|[<-|[<-|[<-|[]]]]]; reflexivity.
  - eexists _, _. split; [vm_compute; reflexivity|]. split; [reflexivity|]. split; [vm_compute; reflexivity|reflexivity].
Qed.

(** ** Errors *)
Lemma not_routable e : e_geom e = GOTHER \/ (is_arc_geom (e_geom e) = true /\ vz (e_normal e) = 0) <-> ~ routable e.
Proof.
  unfold routable. split.
  - intros [->|(A & N)] (C1 & C2); [congruence|exact (C2 A N)].
  - intros C. destruct (e_geom e) eqn:E; cbn [is_arc_geom] in *; auto;
      try (exfalso; apply C; split; congruence).
    + right. split; [reflexivity|]. destruct (qeqb_spec (vz (e_normal e)) 0) as [Z|Z]; [exact Z|]. exfalso. apply C. split; congruence.
    + right. split; [reflexivity|]. destruct (qeqb_spec (vz (e_normal e)) 0) as [Z|Z]; [exact Z|]. exfalso. apply C. split; congruence.
Qed.
Lemma edges_error K j es : forall first param x, route_edges K j first param es = Err x -> x = RuntimeError /\ exists e, In e es /\ ~ routable e.
Proof.
  induction es as [|e es IH]; intros first param x H; [discriminate|]. cbn [route_edges] in H.
  destruct (route_edge K e (j_precision j) (if first then param else None) None first (Some (j_feed j))) as [[c v]|y] eqn:E.
  - cbn [rbind] in H. destruct (route_edges K j false param es) as [cs|y] eqn:E2; [discriminate|]. cbn [rbind] in H. injection H as ->.
    destruct (IH _ _ _ E2) as (-> & e1 & I1 & B). split; [reflexivity|]. exists e1. split; [right; exact I1|exact B].
  - cbn [rbind] in H. injection H as ->. apply route_edge_error in E. destruct E as (-> & B). split; [reflexivity|].
    exists e. split; [left; reflexivity|]. apply not_routable, B.
Qed.
Lemma edges_routable K j es : forall first param cs, route_edges K j first param es = Ok cs -> forall e, In e es -> routable e.
Proof.
  induction es as [|e es IH]; intros first param cs H e1 I1; [destruct I1|]. cbn [route_edges] in H.
  apply rbind_ok in H. destruct H as ([c v] & H1 & H). apply rbind_ok in H. destruct H as (cs' & H2 & _).
  destruct I1 as [<-|I1]; [|exact (IH _ _ _ H2 _ I1)].
  assert (D : routable e \/ ~ routable e).
  { unfold routable. destruct (e_geom e); cbn [is_arc_geom]; try (left; split; congruence); [..|right; intros (C & _); congruence];
      destruct (qeqb_spec (vz (e_normal e)) 0) as [Z|Z]; (right; intros (_ & C); exact (C eq_refl Z)) || (left; split; congruence). }
  destruct D as [D|D]; [exact D|]. apply not_routable in D.
  pose proof (proj2 (route_edge_error K e (j_precision j) (if first then param else None) None first (Some (j_feed j)) RuntimeError) (conj eq_refl D)) as C.
  rewrite C in H1. discriminate H1.
Qed.
Lemma shift_error K w t x : shift_edges K (wire_edges w) t = Err x -> x = ValueError /\ ~ part_of K w t.
Proof.
  unfold shift_edges, part_of.
  assert (G : forall (f : edge -> bool) l, index_of f l = None -> forall e, In e l -> f e = false).
  { intros f l. induction l as [|a l IH]; intros H e He; [destruct He|]. cbn [index_of] in H. destruct (f a) eqn:E; [discriminate|].
    destruct (index_of f l); [discriminate|]. destruct He as [<-|He]; [exact E|exact (IH eq_refl e He)]. }
  intros H. destruct t as [v|id p].
  - destruct (index_of (fun e => k_veq K (edge_start_point e) v) (wire_edges w)) eqn:E; [discriminate|]. injection H as <-. split; [reflexivity|].
    intros (e & He & C). pose proof (G _ _ E e He) as F. cbv beta in F. change (edge_start_point e) with (travel_start e) in F. congruence.
  - destruct (index_of (fun e => Nat.eqb (e_id e) id) (wire_edges w)) eqn:E; [discriminate|]. injection H as <-. split; [reflexivity|].
    intros (e & He & C). pose proof (G _ _ E e He) as F. cbv beta in F. apply Nat.eqb_neq in F. congruence.
Qed.
Definition wire_fails (K : kernel) (w : wire) (x : exn) : Prop :=
  (x = RuntimeError /\ exists e, In e (wire_edges w) /\ ~ routable e) \/
  (x = ValueError /\ exists u d t, k_nearest K u w = Some (d, t) /\ ~ part_of K w t).
Lemma wire_error K j so pe pp w x : route_wire K j so pe pp w = Err x -> wire_fails K w x.
Proof.
  unfold route_wire. destruct (wire_edges w) as [|e0 es] eqn:EW; [discriminate|]. intros H.
  set (near := match pe with Some v => k_nearest K v w | None => None end) in *.
  set (param := match near with Some (_, TEdge _ p) => Some p | _ => None end) in *.
  set (linked := match near with Some (d, t) => match so with Some s => if truthy so && truthy (Some d) && qleb d s then Some t else None | None => None end | None => None end) in *.
  assert (Main : forall access edges, (forall e, In e edges -> In e (wire_edges w)) -> (exists e r, edges = e :: r) ->
    (do body <- route_edges K j true param edges;
     do (closing, end_) <- (if truthy param then route_edge K (hd e0 edges) (j_precision j) None param false (Some (j_feed j))
                            else Ok ([], edge_end_point (last edges (hd e0 edges))));
     Ok (Some (access ++ body ++ closing, last_end (access ++ body ++ closing) pp, end_))) = Err x -> wire_fails K w x).
  { intros access edges HI (e1 & r1 & ->) G. destruct (route_edges K j true param (e1 :: r1)) as [body|y] eqn:EB.
    - cbn [rbind hd] in G. destruct (truthy param); [|discriminate G].
      destruct (route_edge K e1 (j_precision j) None param false (Some (j_feed j))) as [[c v]|y] eqn:EC; [discriminate G|].
      cbn [rbind] in G. injection G as ->. apply route_edge_error in EC. destruct EC as (-> & B). left. split; [reflexivity|].
      exists e1. split; [apply HI; left; reflexivity|apply not_routable, B].
    - cbn [rbind] in G. injection G as ->. destruct (edges_error _ _ _ _ _ _ EB) as (-> & e2 & I2 & B). left. split; [reflexivity|].
      exists e2. split; [apply HI, I2|exact B]. }
  destruct linked as [t|] eqn:EL.
  - destruct (shift_edges K (e0 :: es) t) as [edges|y] eqn:ES.
    + cbn [rbind] in H. rewrite <- EW in ES. destruct (shift_edges_spec _ _ _ _ ES) as (HR & e1 & r1 & E1 & _).
      eapply Main; [|exists e1, r1; exact E1|exact H]. intros e He. exact (rotation_in _ _ _ HR He).
    + cbn [rbind] in H. injection H as ->. rewrite <- EW in ES. destruct (shift_error _ _ _ _ ES) as (-> & N). right. split; [reflexivity|].
      unfold linked in EL. destruct near as [[d t']|] eqn:EN; [|discriminate]. destruct so as [s|]; [|discriminate].
      destruct (truthy (Some s) && truthy (Some d) && qleb d s); [|discriminate]. injection EL as ->.
      unfold near in EN. destruct pe as [u|]; [|discriminate]. exists u, d, t. split; [exact EN|exact N].
  - cbn [rbind] in H. eapply Main; [|exists e0, es; reflexivity|exact H]. intros e He. rewrite EW. exact He.
Qed.
Lemma wires_error K j ws so pp x : route_wires K j ws so pp = Err x ->
  exists w, In w ws /\ ((x = RuntimeError /\ exists e, In e (wire_edges w) /\ ~ routable e) \/
    (x = ValueError /\ exists u d t, k_nearest K u w = Some (d, t) /\ ~ part_of K w t)).
Proof.
  intros H. unfold route_wires in H.
  destruct (route_wires_from K j so None (dflt pp av_none) ws) as [r|y] eqn:E; [discriminate|]. cbn [rbind] in H. injection H as ->.
  revert E. generalize (@None vec) (dflt pp av_none). induction ws as [|w ws IH]; intros pe p E; [discriminate|].
  cbn [route_wires_from] in E. destruct (route_wire K j so pe p w) as [o|y] eqn:EW.
  - cbn [rbind] in E. destruct o as [[[cmds pos] v]|]; [|discriminate].
    destruct (route_wires_from K j so (Some v) pos ws) as [[rest|]|y] eqn:E2; cbn [rbind] in E; try discriminate. injection E as ->.
    destruct (IH _ _ E2) as (w1 & I1 & B). exists w1. split; [right; exact I1|exact B].
  - cbn [rbind] in E. injection E as ->. exists w. split; [left; reflexivity|]. exact (wire_error _ _ _ _ _ _ _ EW).
Qed.
Lemma wires_total K j ws so pp : (forall w e, In w ws -> In e (wire_edges w) -> routable e) ->
  (forall w u d t, In w ws -> k_nearest K u w = Some (d, t) -> part_of K w t) -> exists cmds, route_wires K j ws so pp = Ok cmds.
Proof.
  intros HE HK. destruct (route_wires K j ws so pp) as [cmds|x] eqn:E; [exists cmds; reflexivity|]. exfalso.
  destruct (wires_error _ _ _ _ _ _ E) as (w & Iw & [(_ & e & Ie & N)|(_ & u & d & t & A & N)]); [exact (N (HE w e Iw Ie))|exact (N (HK w u d t Iw A))].
Qed.
Lemma wires_routable K j ws so pp cmds : route_wires K j ws so pp = Ok cmds -> (forall w, In w ws -> wire_edges w <> []) ->
  forall w e, In w ws -> In e (wire_edges w) -> routable e.
Proof.
  intros H NE. destruct (wires_split _ _ _ _ _ _ H NE) as (gs & _ & HG). clear H NE.
  revert HG. generalize (@None vec) (dflt pp av_none) gs. induction ws as [|w ws IH]; intros pe p gs' HG w1 e I1 Ie; [destruct I1|].
  inversion HG; subst. destruct I1 as [<-|I1]; [|eapply IH; eassumption].
  match goal with HW : wire_routed _ _ _ _ _ _ _ _ _ _ _ _ |- _ =>
    destruct HW as [e0 es0 body0 closing0 param0 v0 EW EP NL HB HCl|u d t s e0 es0 body0 closing0 param0 v0 EPe HN Es S1 S2 S3 HSh EP HB HCl] end.
  - rewrite EW in Ie. exact (edges_routable _ _ _ _ _ _ HB e Ie).
  - destruct (shift_edges_spec _ _ _ _ HSh) as ((a & b & E1 & E2) & _). apply (edges_routable _ _ _ _ _ _ HB e).
    rewrite E2. rewrite E1 in Ie. apply in_app_or in Ie. apply in_or_app. tauto.
Qed.

Definition own_kernel : kernel := exact_kernel (fun _ w => match wire_edges w with e :: _ => Some (1, TEdge (e_id e) (qq 1 5)) | [] => None end).
(** An ellipse, say. *)
Definition odd_edge : edge := Edge 30 GOTHER false (zv 0 0 (-1)) (zv 1 0 (-1)) (mix (zv 0 0 (-1)) (zv 1 0 (-1))) (mix (zv 0 0 (-1)) (zv 1 0 (-1))) 0 1 1 (zv 0 0 0) (zv 0 0 1) false.
Lemma wires_total_example : (forall w e, In w [loop_wire 1 3 20; loop_wire 0 5 10] -> In e (wire_edges w) -> routable e) /\
  (forall w u d t, In w [loop_wire 1 3 20; loop_wire 0 5 10] -> k_nearest own_kernel u w = Some (d, t) -> part_of own_kernel w t) /\
  route_wires own_kernel ex_job [loop_wire 1 3 20; WEdge odd_edge] (Some 1) None = Err RuntimeError /\
  route_wires link_kernel ex_job [loop_wire 0 5 10; loop_wire 1 3 20] (Some 1) None = Err ValueError.
Proof.
  split; [|split; [|split; vm_compute; reflexivity]].
  - intros w e [<-|[<-|[]]]; cbn [wire_edges loop_wire]; intros [<-|[<-|[<-|[<-|[]]]]]; (split; [discriminate|intros C; discriminate C]).
  - intros w u d t [<-|[<-|[]]] H; cbn [own_kernel exact_kernel k_nearest wire_edges loop_wire] in H; injection H as _ <-;
      (eexists; split; [left; reflexivity|reflexivity]).
Qed.
