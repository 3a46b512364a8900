(** * Proofs about routing wires *)
From Verif Require Import Base.Str Base.Py Model.Geometry Model.Edges Model.Routers
  Spec.Paths Spec.Moves Spec.Wires Proofs.GeomP Proofs.RouteP Proofs.EdgeP.
Local Open Scope Qc_scope.
Local Open Scope list_scope.

Lemma route_edge_cuts K e prec sp ep arrow feed cmds v :
  route_edge K e prec sp ep arrow feed = Ok (cmds, v) ->
  cmds <> [] /\ Forall (fun m => ~ rapid m /\ m_feed m = feed) cmds /\
  v = match ep with None => travel_end e | Some p => e_param e p end.
Proof.
  unfold route_edge. intros H. apply rbind_ok in H. destruct H as (c & H & HE). injection HE as <- <-.
  assert (Arc : forall cw a b, 
     (if e_closed e then
          Ok [mk_arc cw (from_vector (e_param e (nth 2 (linspace (dflt sp (edge_start_param e)) (dflt ep (edge_end_param e)) 5) 0)))
                (Some (from_vector (e_param e (dflt sp (edge_start_param e))))) (from_vector (e_center e))
                (from_vector (e_param e (nth 1 (linspace (dflt sp (edge_start_param e)) (dflt ep (edge_end_param e)) 5) 0))) arrow feed;
              mk_arc cw (from_vector b) (Some (from_vector (e_param e (nth 2 (linspace (dflt sp (edge_start_param e)) (dflt ep (edge_end_param e)) 5) 0)))) (from_vector (e_center e))
                (from_vector (e_param e (nth 3 (linspace (dflt sp (edge_start_param e)) (dflt ep (edge_end_param e)) 5) 0))) arrow feed]
        else if k_veq K a b then Ok [mk_cut (from_vector b) (Some (from_vector a)) arrow feed]
        else Ok [mk_arc cw (from_vector b) (Some (from_vector a)) (from_vector (e_center e))
           (from_vector (e_param e (nth 1 (linspace (dflt sp (edge_start_param e)) (dflt ep (edge_end_param e)) 3) 0))) arrow feed]) = Ok c ->
     c <> [] /\ Forall (fun m => ~ rapid m /\ m_feed m = feed) c).
  { intros cw a b HH. destruct (e_closed e); [|destruct (k_veq K a b)]; injection HH as <-;
      rewrite ?mk_arc_full, ?mk_cut_full; (split; [discriminate|fall; cbn; tauto]). }
  assert (Spl : forall st i k, Ok (cuts_through st (map (e_pos e) (linspace i k (edge_interpolation_count e prec))) arrow feed) = Ok c ->
     c <> [] /\ Forall (fun m => ~ rapid m /\ m_feed m = feed) c).
  { intros st i k HH. injection HH as <-.
    destruct (cuts_through_spec arrow feed (map (e_pos e) (linspace i k (edge_interpolation_count e prec))) st) as (_ & K2 & K3 & _). cbv zeta in *.
    split.
    - intros C. rewrite C, map_length, linspace_length in K2. pose proof (count_ge2 e prec) as HC.
      rewrite <- K2 in HC. simpl in HC. lia.
    - eapply Forall_impl; [|exact K3]. intros m [M1 M2]. split; [destruct m; cbn in *; tauto|exact M2]. }
  cut (c <> [] /\ Forall (fun m => ~ rapid m /\ m_feed m = feed) c).
  { intros [A B]. split; [exact A|]. split; [exact B|]. destruct ep; reflexivity. }
  destruct (e_geom e).
  - injection H as <-. rewrite mk_cut_full. split; [discriminate|fall; cbn; tauto].
  - apply rbind_ok in H. destruct H as (cw & _ & H). eapply Arc. exact H.
  - apply rbind_ok in H. destruct H as (cw & _ & H). eapply Arc. exact H.
  - destruct (e_reversed e); eapply Spl; exact H.
  - destruct (e_reversed e); eapply Spl; exact H.
  - destruct (e_reversed e); eapply Spl; exact H.
  - discriminate.
Qed.

Lemma route_edges_cuts K j param es : forall first body, route_edges K j first param es = Ok body ->
  exists gs, body = concat gs /\
    Forall2 (fun (e : edge) c => c <> [] /\ Forall (fun m => ~ rapid m /\ m_feed m = Some (j_feed j)) c) es gs.
Proof.
  induction es as [|e es IH]; intros first body H.
  - simpl in H. ok_inv. exists []. split; [reflexivity|constructor].
  - cbn [route_edges] in H. apply rbind_ok in H. destruct H as ([c v] & H1 & H). apply rbind_ok in H.
    destruct H as (cs & H2 & H). injection H as <-. destruct (IH _ _ H2) as (gs & -> & HF).
    exists (c :: gs). split; [reflexivity|]. constructor; [|exact HF].
    destruct (route_edge_cuts _ _ _ _ _ _ _ _ _ H1) as (A & B & _). auto.
Qed.

Lemma route_edges_travel K j es : forall first body, (forall e, In e es -> edge_sound e) ->
  route_edges K j first None es = Ok body ->
  exists gs, body = concat gs /\ Forall2 travels es gs.
Proof.
  induction es as [|e es IH]; intros first body HS H.
  - simpl in H. ok_inv. exists []. split; [reflexivity|constructor].
  - cbn [route_edges] in H. apply rbind_ok in H. destruct H as ([c v] & H1 & H). apply rbind_ok in H.
    destruct H as (cs & H2 & H). injection H as <-.
    destruct (IH _ _ (fun e' I => HS e' (or_intror I)) H2) as (gs & -> & HF).
    exists (c :: gs). split; [reflexivity|]. constructor; [|exact HF].
    assert (H1' : route_edge K e (j_precision j) None None first (Some (j_feed j)) = Ok (c, v)) by (destruct first; exact H1).
    destruct (route_edge_chain _ _ _ _ _ _ _ _ _ (HS e (or_introl eq_refl)) ltac:(auto) H1') as (_ & A & B & C & D).
    split; [exact A|]. split; [eapply Forall_impl; [|exact B]; cbv beta; tauto|]. split; [exact C|exact D].
Qed.

Lemma connected_cons e es : connected (e :: es) <-> match es with [] => True | e' :: _ => travel_end e = travel_start e' end /\ connected es.
Proof. destruct es; simpl; tauto. Qed.

Lemma connected_app l r : connected (l ++ r) <->
  connected l /\ connected r /\ (forall a b, hd_error (rev l) = Some a -> hd_error r = Some b -> travel_end a = travel_start b).
Proof.
  induction l as [|e l IH]; [simpl; split; [intros H; repeat split; [exact H|discriminate]|tauto]|].
  cbn [app]. rewrite !connected_cons, IH. cbn [rev].
  destruct l as [|e' l].
  - cbn [app rev]. destruct r as [|b r]; simpl.
    + split; [intros (_ & _ & H & _); repeat split; auto; discriminate|tauto].
    + split.
      * intros (A & _ & B & C). split; [auto|]. split; [exact B|]. intros a b' [= <-] [= <-]. exact A.
      * intros (_ & B & C). split; [apply C; reflexivity|]. split; [exact I|]. split; [exact B|]. discriminate.
  - assert (E : forall a, hd_error ((rev (e' :: l)) ++ [e]) = Some a <-> hd_error (rev (e' :: l)) = Some a).
    { intros a. destruct (rev (e' :: l)) as [|x y] eqn:ER; [|reflexivity]. apply (f_equal (@length _)) in ER. rewrite rev_length in ER. discriminate. }
    cbn [app]. split.
    + intros (A & B & C & D). split; [auto|]. split; [exact C|]. intros a b Ha Hb. apply D; [apply E, Ha|exact Hb].
    + intros ((A & B) & C & D). split; [exact A|]. split; [exact B|]. split; [exact C|]. intros a b Ha Hb. apply D; [apply E, Ha|exact Hb].
Qed.

Lemma hd_rev_last {A} (l : list A) a d : hd_error (rev l) = Some a <-> l <> [] /\ last l d = a.
Proof.
  destruct l as [|x l] using rev_ind; [simpl; split; [discriminate|tauto]|].
  rewrite rev_app_distr, last_last. simpl. split; [intros [= ->]; split; [destruct l; discriminate|reflexivity]|intros [_ ->]; reflexivity].
Qed.

Lemma loop_rotation es es' : loop es -> rotation es es' -> loop es'.
Proof.
  intros [HC HL] (l & r & -> & ->).
  destruct l as [|a l]; [rewrite app_nil_r; split; assumption|].
  destruct r as [|b r]; [rewrite app_nil_r in *; split; assumption|].
  apply connected_app in HC. destruct HC as (C1 & C2 & C3).
  cbn [app] in HL.
  assert (EL : last (a :: l ++ b :: r) a = last (b :: r) a).
  { change (a :: l ++ b :: r) with ((a :: l) ++ b :: r). clear. generalize (a :: l) as m. intros m. induction m as [|x m IH]; [reflexivity|].
    cbn [app]. rewrite <- IH. destruct (m ++ b :: r) eqn:E; [destruct m; discriminate|reflexivity]. }
  rewrite EL in HL.
  split.
  - apply connected_app. split; [exact C2|]. split; [exact C1|]. intros x y Hx [= <-].
    rewrite (hd_rev_last _ _ a) in Hx. destruct Hx as [_ <-]. exact HL.
  - cbn [app]. assert (EL2 : last (b :: r ++ a :: l) b = last (a :: l) b).
    { change (b :: r ++ a :: l) with ((b :: r) ++ a :: l). clear. generalize (b :: r) as m. intros m. induction m as [|x m IH]; [reflexivity|].
      cbn [app]. rewrite <- IH. destruct (m ++ a :: l) eqn:E; [destruct m; discriminate|reflexivity]. }
    rewrite EL2. apply C3; [apply (hd_rev_last _ _ b); split; [discriminate|reflexivity]|reflexivity].
Qed.

Lemma index_of_spec {A} (f : A -> bool) l i : index_of f l = Some i -> exists x, nth_error l i = Some x /\ f x = true.
Proof.
  revert i. induction l as [|a l IH]; intros i H; [discriminate|]. cbn [index_of] in H. destruct (f a) eqn:E.
  - injection H as <-. exists a. auto.
  - destruct (index_of f l) as [k|] eqn:EI; [|discriminate]. injection H as <-. destruct (IH k eq_refl) as (x & H1 & H2). exists x. auto.
Qed.

Lemma shift_edges_spec K es t es' : shift_edges K es t = Ok es' ->
  rotation es es' /\ exists e rest, es' = e :: rest /\ In e es /\
    match t with TEdge id _ => e_id e = id | TVertex v => k_veq K (travel_start e) v = true end.
Proof.
  unfold shift_edges. intros H.
  assert (G : forall (f : edge -> bool), match index_of f es with Some i => Ok (skipn i es ++ firstn i es) | None => Err ValueError end = Ok es' ->
     rotation es es' /\ exists e rest, es' = e :: rest /\ In e es /\ f e = true).
  { intros f HF. destruct (index_of f es) as [i|] eqn:E; [|discriminate]. injection HF as <-.
    destruct (index_of_spec _ _ _ E) as (x & H1 & H2). destruct (skipn_nth _ _ _ H1) as [E1 E2].
    split; [exists (firstn i es), (skipn i es); split; [symmetry; apply firstn_skipn|reflexivity]|].
    rewrite E2. eexists x, _. split; [reflexivity|]. split; [eapply nth_error_In; exact H1|exact H2]. }
  destruct t as [v|id p]; apply G in H; destruct H as (HR & e & rest & H1 & H2 & H3); (split; [exact HR|]);
    exists e, rest; (split; [exact H1|]); (split; [exact H2|]).
  - exact H3.
  - apply Nat.eqb_eq. exact H3.
Qed.

(** ** One wire *)
Inductive wire_routed (K : kernel) (j : job) (so : option Qc) (pe : option vec) (pp : avec) (w : wire) :
  list edge -> option Qc -> list motion -> list motion -> list motion -> vec -> Prop :=
| wire_rapid e0 es body closing param v :
    wire_edges w = e0 :: es ->
    param = match pe with
            | Some u => match k_nearest K u w with Some (_, TEdge _ p) => Some p | _ => None end
            | None => None end ->
    (forall u d t, pe = Some u -> k_nearest K u w = Some (d, t) ->
        ~ (exists s, so = Some s /\ s <> 0 /\ d <> 0 /\ d <= s)) ->
    route_edges K j true param (e0 :: es) = Ok body ->
    (if truthy param then route_edge K e0 (j_precision j) None param false (Some (j_feed j)) = Ok (closing, v)
     else closing = [] /\ v = travel_end (last (e0 :: es) e0)) ->
    wire_routed K j so pe pp w (e0 :: es) param
      (rapid_to pp (travel_start e0) (j_rapid_height j) (Some (j_op_safe_height j)) (Some (j_plunge_feed j)))
      body closing v
| wire_link u d t s e0 es body closing param v :
    pe = Some u -> k_nearest K u w = Some (d, t) -> so = Some s -> s <> 0 -> d <> 0 -> d <= s ->
    shift_edges K (wire_edges w) t = Ok (e0 :: es) ->
    param = match t with TEdge _ p => Some p | TVertex _ => None end ->
    route_edges K j true param (e0 :: es) = Ok body ->
    (if truthy param then route_edge K e0 (j_precision j) None param false (Some (j_feed j)) = Ok (closing, v)
     else closing = [] /\ v = travel_end (last (e0 :: es) e0)) ->
    wire_routed K j so pe pp w (e0 :: es) param
      [MCut KCut pp (from_vector (if truthy param then e_param e0 (dflt param 0) else travel_start e0)) false (Some (j_feed j))]
      body closing v.

Lemma route_wire_inv K j so pe pp w cmds pos v :
  route_wire K j so pe pp w = Ok (Some (cmds, pos, v)) ->
  exists es param access body closing,
    wire_routed K j so pe pp w es param access body closing v /\
    cmds = access ++ body ++ closing /\ pos = after pp cmds.
Proof.
  unfold route_wire. destruct (wire_edges w) as [|e0 es] eqn:EW; [discriminate|].
  set (near := match pe with Some v0 => k_nearest K v0 w | None => None end).
  set (param := match near with Some (_, TEdge _ p) => Some p | _ => None end).
  set (linked := match near with Some (d, t) => match so with Some s => if truthy so && truthy (Some d) && qleb d s then Some t else None | None => None end | None => None end).
  assert (EP : param = match pe with
            | Some u => match k_nearest K u w with Some (_, TEdge _ p) => Some p | _ => None end
            | None => None end).
  { unfold param, near. destruct pe; reflexivity. }
  intros H. apply rbind_ok in H. destruct H as ([access es'] & HA & H).
  apply rbind_ok in H. destruct H as (body & HB & H). apply rbind_ok in H. destruct H as ([closing e] & HC & H).
  rewrite last_end_after in H. injection H as <- <- <-.
  destruct linked as [t|] eqn:EL.
  - apply rbind_ok in HA. destruct HA as (es2 & HS & HA). injection HA as <- <-.
    destruct (shift_edges_spec _ _ _ _ HS) as (_ & e1 & r1 & -> & _). cbn [hd] in *.
    unfold linked in EL. destruct near as [[d t']|] eqn:EN; [|discriminate]. destruct so as [s|]; [|discriminate].
    destruct (truthy (Some s)) eqn:E1; [|discriminate]. destruct (truthy (Some d)) eqn:E2; [|discriminate].
    destruct (qleb d s) eqn:E3; [|discriminate]. injection EL as ->.
    apply truthy_some in E1. apply truthy_some in E2. apply qleb_le in E3.
    unfold near in EN. destruct pe as [u|]; [|discriminate].
    rewrite mk_cut_full.
    eexists (e1 :: r1), param, _, body, closing. split; [|split; reflexivity].
    eapply (wire_link K j (Some s) (Some u) pp w u d t s e1 r1 body closing param e); try eassumption; try reflexivity.
    + rewrite EW. exact HS.
    + destruct (truthy param); [exact HC|]. injection HC as <- <-. auto.
  - injection HA as <- <-. eexists (e0 :: es), param, _, body, closing. split; [|split; reflexivity].
    apply wire_rapid; [exact EW|exact EP| |exact HB|].
    + intros u d t -> HK (s & -> & S1 & S2 & S3). unfold linked, near in EL. rewrite HK in EL.
      assert (T1 : truthy (Some s) = true) by (apply truthy_some; exact S1).
      assert (T2 : truthy (Some d) = true) by (apply truthy_some; exact S2).
      apply qleb_le in S3. rewrite T1, T2, S3 in EL. discriminate.
    + cbn [hd] in HC. destruct (truthy param); [exact HC|]. injection HC as <- <-. auto.
Qed.

Inductive wires_routed (K : kernel) (j : job) (so : option Qc) : option vec -> avec -> list wire -> list (list motion) -> Prop :=
| wires_nil pe pp : wires_routed K j so pe pp [] []
| wires_cons pe pp w ws es param access body closing v gs :
    wire_routed K j so pe pp w es param access body closing v ->
    let g := access ++ body ++ closing in
    wires_routed K j so (Some v) (after pp g) ws gs ->
    wires_routed K j so pe pp (w :: ws) (g :: gs).

Lemma route_wires_routed K j so ws : forall pe pp r,
  route_wires_from K j so pe pp ws = Ok r ->
  match r with
  | Some cmds => exists gs, wires_routed K j so pe pp ws gs /\ cmds = concat gs
  | None => exists w, In w ws /\ wire_edges w = []
  end.
Proof.
  induction ws as [|w ws IH]; intros pe pp r H.
  - simpl in H. injection H as <-. exists []. split; [constructor|reflexivity].
  - cbn [route_wires_from] in H. apply rbind_ok in H. destruct H as (o & H1 & H).
    destruct o as [[[cmds pos] v]|].
    + apply rbind_ok in H. destruct H as (rest & H2 & H). specialize (IH _ _ _ H2).
      destruct (route_wire_inv _ _ _ _ _ _ _ _ _ H1) as (es & param & access & body & closing & HW & -> & ->).
      destruct rest as [rest|]; injection H as <-.
      * destruct IH as (gs & HG & ->). eexists (_ :: gs). split; [|reflexivity]. econstructor; eassumption.
      * destruct IH as (x & Hx & E). exists x. split; [right; exact Hx|exact E].
    + injection H as <-. exists w. split; [left; reflexivity|].
      unfold route_wire in H1. destruct (wire_edges w) as [|e0 es]; [reflexivity|].
      apply rbind_ok in H1. destruct H1 as ([a b] & _ & H1). apply rbind_ok in H1. destruct H1 as (c & _ & H1).
      apply rbind_ok in H1. destruct H1 as ([d e] & _ & H1). discriminate.
Qed.

(** Facts about the wires of a routing. *)
Section Facts.
Context (K : kernel) (j : job) (so : option Qc).
Notation R := (j_rapid_height j).
Notation S := (j_op_safe_height j).

Notation feed_ok := (feed_ok S (j_plunge_feed j) (j_feed j)).
Notation covers := (covers (j_feed j)).
Notation travelled := (travelled so).

Lemma wire_routed_safe pe pp w es param access body closing v :
  wire_routed K j so pe pp w es param access body closing v ->
  Forall (fun m => (rapid m -> safe_rapid R S m) /\ (~ rapid m -> feed_ok m)) (access ++ body ++ closing).
Proof.
  assert (Cut : forall l, Forall (fun m => ~ rapid m /\ m_feed m = Some (j_feed j)) l ->
     Forall (fun m => (rapid m -> safe_rapid R S m) /\ (~ rapid m -> feed_ok m)) l).
  { intros l Hl. eapply Forall_impl; [|exact Hl]. intros m [M1 M2]. split; [tauto|]. intros _. left. exact M2. }
  assert (Body : forall es' p b, route_edges K j true p es' = Ok b -> Forall (fun m => ~ rapid m /\ m_feed m = Some (j_feed j)) b).
  { intros es' p b Hb. destruct (route_edges_cuts _ _ _ _ _ _ Hb) as (gs & -> & HF).
    clear - HF. induction HF as [|? ? ? ? H _ IH]; [constructor|]. cbn [concat]. rewrite Forall_app. split; [apply H|exact IH]. }
  assert (Close : forall e p, (if truthy p then route_edge K e (j_precision j) None p false (Some (j_feed j)) = Ok (closing, v)
     else closing = [] /\ v = travel_end (last es e)) -> Forall (fun m => ~ rapid m /\ m_feed m = Some (j_feed j)) closing).
  { intros e p Hc. destruct (truthy p); [|destruct Hc as [-> _]; constructor].
    destruct (route_edge_cuts _ _ _ _ _ _ _ _ _ Hc) as (_ & A & _). exact A. }
  intros HW. rewrite !Forall_app. destruct HW as [e0 es body closing param v _ _ _ HB HC|u d t s e0 es body closing param v _ _ _ _ _ _ _ _ HB HC].
  - split; [|split; apply Cut; [eapply Body; exact HB|eapply Close; exact HC]].
    destruct (rapid_to_safe pp (travel_start e0) R S (j_plunge_feed j)) as (_ & _ & H3 & H4 & _).
    rewrite Forall_forall in *. intros m Hm. split; [apply H3, Hm|]. intros NR. right. eexists. apply H4; assumption.
  - split; [|split; apply Cut; [eapply Body; exact HB|eapply Close; exact HC]].
    apply Cut. fall. cbn. tauto.
Qed.

Lemma wires_routed_safe ws : forall pe pp gs, wires_routed K j so pe pp ws gs ->
  Forall (fun m => (rapid m -> safe_rapid R S m) /\ (~ rapid m -> feed_ok m)) (concat gs).
Proof.
  induction ws as [|w ws IH]; intros pe pp gs H; inversion H; subst; [constructor|].
  cbn [concat]. rewrite Forall_app. split; [eapply wire_routed_safe; eassumption|eapply IH; eassumption].
Qed.

Lemma wires_routed_covers ws : forall pe pp gs, wires_routed K j so pe pp ws gs -> Forall2 covers ws gs.
Proof.
  induction ws as [|w ws IH]; intros pe pp gs H; inversion H; subst; [constructor|].
  constructor; [|eapply IH; eassumption].
  match goal with HW : wire_routed _ _ _ _ _ _ _ _ _ _ _ _ |- _ =>
    destruct HW as [e0 es0 body0 closing0 param0 v0 EW _ _ HB HC|u d t s e0 es0 body0 closing0 param0 v0 _ _ _ _ _ _ HSh _ HB HC] end;
    destruct (route_edges_cuts _ _ _ _ _ _ HB) as (bs & -> & HF).
  - eexists _, (e0 :: es0), bs, closing0. split; [reflexivity|]. split; [exists [], (e0 :: es0); rewrite app_nil_r; auto|exact HF].
  - eexists _, (e0 :: es0), bs, closing0. split; [reflexivity|]. split; [|exact HF]. destruct (shift_edges_spec _ _ _ _ HSh) as (HR & _). exact HR.
Qed.

Lemma rotation_in {A} (l l' : list A) x : rotation l l' -> In x l' -> In x l.
Proof. intros (a & b & -> & ->) H. apply in_app_or in H. apply in_or_app. tauto. Qed.

Lemma wires_routed_travelled ws : forall pe pp gs,
  (forall w e, In w ws -> In e (wire_edges w) -> edge_sound e) ->
  (forall w u d id p, In w ws -> k_nearest K u w <> Some (d, TEdge id p)) ->
  wires_routed K j so pe pp ws gs -> Forall2 travelled ws gs.
Proof.
  induction ws as [|w ws IH]; intros pe pp gs HS HK H; inversion H; subst; [constructor|].
  constructor; [|eapply IH; try eassumption; intros; [eapply HS|eapply HK]; try (right; eassumption); eassumption].
  match goal with HW : wire_routed _ _ _ _ _ _ _ _ _ _ _ _ |- _ =>
    destruct HW as [e0 es0 body0 closing0 param0 v0 EW EP _ HB HC|u d t s e0 es0 body0 closing0 param0 v0 EPe HN Es _ _ _ HSh EP HB HC] end.
  - assert (param0 = None).
    { rewrite EP. destruct pe as [u|]; [|reflexivity]. destruct (k_nearest K u w) as [[d [?|id p]]|] eqn:E; try reflexivity.
      exfalso. eapply (HK w u d id p); [left; reflexivity|exact E]. }
    clear EP. subst param0. cbn [truthy] in HC. destruct HC as [-> _].
    destruct (route_edges_travel _ _ _ _ _ (fun e He => HS w e (or_introl eq_refl) ltac:(rewrite EW; exact He)) HB) as (bs & -> & HF).
    unfold g. rewrite app_nil_r. eexists _, (e0 :: es0), bs. split; [reflexivity|]. split; [rewrite EW; exists [], (e0 :: es0); rewrite app_nil_r; auto|].
    split; [exact HF|]. intros _. symmetry. exact EW.
  - destruct t as [tv|id p]; [|exfalso; eapply (HK w u d id p); [left; reflexivity|exact HN]].
    subst param0. cbn [truthy] in HC. destruct HC as [-> _].
    destruct (shift_edges_spec _ _ _ _ HSh) as (HR & _).
    destruct (route_edges_travel _ _ _ _ _ (fun e He => HS w e (or_introl eq_refl) (rotation_in _ _ _ HR He)) HB) as (bs & -> & HF).
    unfold g. rewrite app_nil_r. eexists _, (e0 :: es0), bs. split; [reflexivity|]. split; [exact HR|].
    split; [exact HF|]. congruence.
Qed.

(** Continuity. *)
Lemma route_edges_chain es : forall first param body e0 rest, es = e0 :: rest ->
  (forall e, In e es -> edge_sound e) -> connected es ->
  (first = true -> param <> None -> is_spline_geom (e_geom e0) = false) ->
  route_edges K j first param es = Ok body ->
  let a := if first then match param with Some p => e_param e0 p | None => travel_start e0 end else travel_start e0 in
  continuous (from_vector a) body /\ after (from_vector a) body = from_vector (travel_end (last es e0)).
Proof.
  induction es as [|e es IH]; intros first param body e0 rest E HS HC HP H; [discriminate|]. injection E as -> ->.
  cbn [route_edges] in H. apply rbind_ok in H. destruct H as ([c v] & H1 & H). apply rbind_ok in H.
  destruct H as (cs & H2 & H). injection H as <-.
  assert (HQ : is_spline_geom (e_geom e0) = true -> (if first then param else None) = None /\ @None Qc = None).
  { intros Hsp. destruct first; [|auto]. destruct param; [|auto]. rewrite HP in Hsp by congruence. discriminate. }
  destruct (route_edge_chain _ _ _ _ _ _ _ _ _ (HS e0 (or_introl eq_refl)) HQ H1) as (_ & _ & _ & B & D).
  cbv zeta.
  replace (match (if first then param else None) with Some p => e_param e0 p | None => travel_start e0 end)
    with (if first then match param with Some p => e_param e0 p | None => travel_start e0 end else travel_start e0) in B, D
    by (destruct first; reflexivity).
  rewrite continuous_app, after_app.
  destruct rest as [|e1 rest].
  - cbn [route_edges] in H2. injection H2 as <-. rewrite D. split; [split; [exact B|exact I]|reflexivity].
  - rewrite D. destruct HC as [HE HC].
    destruct (IH false param cs e1 rest eq_refl (fun e He => HS e (or_intror He)) HC ltac:(discriminate) H2) as [C1 C2].
    cbv zeta iota in C1, C2. rewrite HE. split; [split; [exact B|exact C1]|]. rewrite C2. f_equal. f_equal.
    change (last (e0 :: e1 :: rest) e0) with (last (e1 :: rest) e0). apply last_any. discriminate.
Qed.

Lemma wires_routed_continuous ws : forall pe pp gs,
  (forall w e, In w ws -> In e (wire_edges w) -> edge_sound e) ->
  (forall w, In w ws -> connected (wire_edges w)) ->
  (so <> None -> forall w, In w ws -> loop (wire_edges w)) ->
  (forall w e rest, In w ws -> wire_edges w = e :: rest -> vz (travel_start e) < S) ->
  (forall w u, In w ws -> good_answer so w (k_nearest K u w)) ->
  wires_routed K j so pe pp ws gs -> continuous pp (concat gs).
Proof.
  induction ws as [|w ws IH]; intros pe pp gs HS HC HL HZ HG H; inversion H; subst; [exact I|].
  cbn [concat]. rewrite continuous_app. split.
  2:{ match goal with HR : wires_routed _ _ _ _ _ ws _ |- _ => eapply IH; [..|exact HR] end; intros.
      - eapply HS; [right|]; eassumption.
      - apply HC; right; assumption.
      - apply HL; [assumption|right; assumption].
      - eapply HZ; [right|]; eassumption.
      - apply HG; right; assumption. }
  match goal with HW : wire_routed _ _ _ _ _ _ _ _ _ _ _ _ |- _ =>
    destruct HW as [e0 es0 body0 closing0 param0 v0 EW EP NL HB HCl|u d t s e0 es0 body0 closing0 param0 v0 EPe HN Es S1 S2 S3 HSh EP HB HCl] end.
  - assert (param0 = None).
    { rewrite EP. destruct pe as [u|]; [|reflexivity]. destruct (k_nearest K u w) as [[d [?|id p]]|] eqn:E; try reflexivity.
      exfalso. pose proof (HG w u (or_introl eq_refl)) as HA. rewrite E in HA. destruct HA as (HA & _).
      eapply NL; [reflexivity|exact E|exact HA]. }
    clear EP. subst param0. cbn [truthy] in HCl. destruct HCl as [-> _]. unfold g; rewrite app_nil_r, continuous_app.
    destruct (rapid_to_safe pp (travel_start e0) R S (j_plunge_feed j)) as (A1 & _ & _ & _ & _ & A6 & _).
    split; [exact A1|]. rewrite A6.
    assert (HZ0 := HZ w e0 es0 (or_introl eq_refl) EW). apply qltb_lt in HZ0. rewrite HZ0.
    replace (V3 (vx (travel_start e0)) (vy (travel_start e0)) (vz (travel_start e0))) with (travel_start e0) by (destruct (travel_start e0); reflexivity).
    refine (proj1 (route_edges_chain (e0 :: es0) true None body0 e0 es0 eq_refl _ _ _ HB)).
    + intros e He. apply (HS w e (or_introl eq_refl)). rewrite EW. exact He.
    + rewrite <- EW. apply HC. left; reflexivity.
    + congruence.
  - destruct (shift_edges_spec _ _ _ _ HSh) as (HR & e1 & r1 & [= <- <-] & HI & HT).
    assert (HLo : loop (e0 :: es0)) by (eapply loop_rotation; [apply HL; [congruence|left; reflexivity]|exact HR]).
    assert (HS' : forall e, In e (e0 :: es0) -> edge_sound e).
    { intros e He. apply (HS w e (or_introl eq_refl)). eapply rotation_in; eassumption. }
    pose proof (HG w u (or_introl eq_refl)) as HA. rewrite HN in HA. 
    unfold g. rewrite !continuous_app. split; [cbn; auto|]. cbn [after m_end].
    destruct t as [tv|id p].
    + subst param0. cbn [truthy] in *. destruct HCl as [-> _]. split; [|exact I].
      refine (proj1 (route_edges_chain (e0 :: es0) true None body0 e0 es0 eq_refl HS' (proj1 HLo) _ HB)). congruence.
    + cbn [good_answer] in HA. destruct HA as (_ & Hp & Hspl). subst param0.
      assert (T : truthy (Some p) = true) by (apply truthy_some; exact Hp). rewrite T in *. cbn [dflt] in *.
      assert (Hsp : is_spline_geom (e_geom e0) = false) by (apply Hspl; assumption).
      destruct (route_edges_chain (e0 :: es0) true (Some p) body0 e0 es0 eq_refl HS' (proj1 HLo) (fun _ _ => Hsp) HB) as [B1 B2].
      cbv zeta iota in B1, B2. split; [exact B1|]. rewrite B2.
      destruct HLo as [_ HLo]. rewrite HLo.
      assert (HQ : is_spline_geom (e_geom e0) = true -> @None Qc = None /\ Some p = None) by congruence.
      destruct (route_edge_chain _ _ _ _ _ _ _ _ _ (HS' e0 (or_introl eq_refl)) HQ HCl) as (_ & _ & _ & C1 & _).
      exact C1.
Qed.
End Facts.
