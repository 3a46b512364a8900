(** Proofs for Spec/TabsMade.v. *)
From Verif Require Import Base.Str Base.Py Spec.Gcode Spec.Blocks Spec.Machine Spec.Program Spec.Jobs Spec.Axes Spec.Wires Spec.Tabs Spec.Profiles Spec.OnMachine Spec.Traced Spec.TabsMade
  Model.Geometry Model.Plane Model.Edges Model.Job Model.Routers Model.Tabs Model.Profile
  Proofs.GeomP Proofs.PocketP Proofs.TabsP Proofs.WireTabsP Proofs.TabPiecesP Proofs.TabsEx Proofs.WireTabsMeetP Proofs.ProfileP Proofs.ProfileThmP Proofs.ProfileTabsP
  Proofs.JobP Proofs.HistoryP Proofs.AxesP Proofs.OnMachineP Proofs.TracedP Proofs.TracedEx.
From Coq Require Import Lia.
Local Open Scope string_scope.
Local Open Scope Qc_scope.
Local Open Scope list_scope.

(** ** Layers *)
Lemma layers_of TK WK j b z sd ls : (forall s, sd = Some s -> 0 <= s) -> rigid TK WK -> flat z b -> (stepped sd -> clear_of_top TK WK (j_top j) b) ->
  profile_layers TK WK j b sd = Ok ls ->
  exists s n, passes_needed sd z s n /\ length ls = S n /\
    forall k l, nth_error ls k = Some l -> (k <= n)%nat /\ flat (z + qz (Z.of_nat (n - k)) * s) l /\ l = if (k =? n)%nat then b else wk_moved WK b (s * qz (Z.of_nat (n - k))).
Proof.
  intros HS (RG1 & RG2) FZ HC H. destruct (passes_cases sd HS) as [(s & -> & S0)|NS].
  - assert (LI : lifts TK WK b) by (intros dz; rewrite (RG1 _ _ FZ); apply RG1, RG2, FZ).
    specialize (HC (ex_intro _ s (conj eq_refl (fun E => Qclt_not_eq _ _ S0 (eq_sym E))))).
    destruct (profile_layers_ok _ _ _ _ _ _ S0 LI HC H) as (n & HN & HL & HK). rewrite (RG1 _ _ FZ) in HN. exists s, n. split; [left; auto|]. split; [exact HL|].
    intros k l E. assert (Hk : (k <= n)%nat) by (assert (k < length ls)%nat by (apply nth_error_Some; congruence); lia). split; [exact Hk|].
    destruct (HK k Hk) as (w & Ew & _ & Hw). rewrite E in Ew. injection Ew as <-. split; [|exact Hw]. subst l. destruct (Nat.eqb_spec k n) as [EQ|_]; [rewrite EQ|].
    + rewrite Nat.sub_diag. cbn [Z.of_nat]. rewrite qz_0. replace (z + 0 * s) with z by ring. exact FZ.
    + replace (z + qz (Z.of_nat (n - k)) * s) with (z + s * qz (Z.of_nat (n - k))) by ring. apply RG2. exact FZ.
  - rewrite (unstepped_layers _ _ _ _ _ NS) in H. assert (E : ls = [b]) by congruence. rewrite E. exists 0, O. split; [right; auto|]. split; [reflexivity|].
    intros [|[|k]] l El; [|discriminate|discriminate]. injection El as <-. split; [lia|]. split; [|reflexivity]. cbn [Nat.sub Z.of_nat]. rewrite qz_0. replace (z + 0 * 0) with z by ring. exact FZ.
Qed.
Lemma mapM_nth_l {A B} (f : A -> result B) l l' : mapM f l = Ok l' -> length l' = length l /\ forall k b, nth_error l' k = Some b -> exists a, nth_error l k = Some a /\ f a = Ok b.
Proof.
  intros H. apply mapM_ok in H. induction H as [|a b l l' E _ [IH1 IH2]]; [split; [reflexivity|intros [|k] b; discriminate]|].
  split; [cbn; congruence|]. intros [|k] c E'; [injection E' as <-; exists a; auto|]. exact (IH2 k c E').
Qed.

(** ** Paths with tabs *)
Lemma pieces_sound TK tab_z e : forall ts out, pieces_of TK tab_z e ts out -> forall q, In q out -> edge_sound q.
Proof.
  induction ts as [|[d1 t] ts IH]; intros out H q Hq; [cbn in H; subst; contradiction|]. cbn in H. destruct ts as [|[d2 t2] rest]; [subst; contradiction|].
  destruct H as (x & PX & H). destruct rest as [|m rest].
  - subst. destruct Hq as [<-|[]]. exact (proj1 PX).
  - destruct H as (l & next & more & -> & VL & H). destruct Hq as [<-|[<-|Hq]]; [exact (proj1 PX)|exact (proj1 (proj2 VL))|]. eapply IH; [exact H|exact Hq].
Qed.
Lemma replaced_sound TK tab_z e m out : edge_sound e -> replaced TK tab_z e m out -> forall q, In q out -> edge_sound q.
Proof. intros S [[_ ->]|[_ H]] q Hq; [destruct Hq as [<-|[]]; exact S|eapply pieces_sound; eassumption]. Qed.
(** The first point is at the height of the layer or of the tabs. *)
Lemma replaced_first TK tab_z z e m out safe : usable m -> edge_heights (fun h => h = z) e -> z < safe -> tab_z < safe -> replaced TK tab_z e m out ->
  exists q rest, out = q :: rest /\ vz (travel_start q) < safe.
Proof.
  intros (U & _) (E1 & E2 & E3 & _) LZ LT [[_ ->]|[_ H]].
  - exists e, []. split; [reflexivity|]. unfold travel_start. destruct (e_reversed e); congruence.
  - destruct m as [|[d1 t] [|[d2 t2] rest]]; [cbn in U; lia|cbn in U; lia|]. cbn in H. destruct H as (x & (_ & _ & TS & _) & H).
    assert (V : vz (travel_start x) < safe). { rewrite TS. destruct t; cbn [at_height_of]; [|exact LT|]; unfold travel_at; rewrite E3; exact LZ. }
    destruct rest as [|m rest]; [subst; exists x, []; auto|]. destruct H as (l & next & more & -> & _ & _). exists x, (l :: next :: more). auto.
Qed.
Lemma pieces_traceable K TK safe z tab_z layer ms outs p : only_ends K -> flat z layer -> z < safe -> tab_z < safe -> (forall e, In e layer -> edge_sound e) ->
  length ms = length layer -> (forall m, In m ms -> usable m) -> Forall2 (fun em out => replaced TK tab_z (fst em) (snd em) out) (combine layer ms) outs -> p = concat outs -> connected p ->
  traceable K safe p.
Proof.
  intros OE [NE FL] LZ LT SO LEN US F -> CO. split; [|split; [exact CO|split]].
  - destruct layer as [|e layer]; [contradiction NE; reflexivity|]. destruct ms as [|m ms]; [discriminate|]. cbn [combine] in F. inversion F as [|? out ? outs' R1 _]; subst.
    destruct (replaced_first TK tab_z z e m out safe) as (q & rest & -> & V); [apply US; left; reflexivity|apply FL; left; reflexivity|exact LZ|exact LT|exact R1|].
    exists q, (rest ++ concat outs'). split; [reflexivity|exact V].
  - intros q Hq. apply in_concat in Hq as (out & Ho & Hq). clear - F Ho Hq SO. revert ms F. revert SO. induction outs as [|o outs IH] in layer, Ho |- *; intros SO ms F; [contradiction|].
    destruct layer as [|e layer]; [inversion F|]. destruct ms as [|m ms]; [inversion F|]. cbn [combine] in F. inversion F as [|? ? ? ? R1 R2]; subst.
    destruct Ho as [<-|Ho]; [eapply replaced_sound; [apply SO; left; reflexivity|exact R1|exact Hq]|]. eapply (IH layer Ho); [intros x Hx; apply SO; right; exact Hx|exact R2].
  - intros u d id x. apply OE.
Qed.
Lemma layer_traceable K safe z layer : only_ends K -> flat z layer -> z < safe -> sound_wire layer -> traceable K safe layer.
Proof.
  intros OE [NE FL] LZ [CO SO]. split; [|split; [exact CO|split; [exact SO|intros u d id x; apply OE]]]. destruct layer as [|e layer]; [contradiction NE; reflexivity|].
  exists e, layer. split; [reflexivity|]. destruct (FL e (or_introl eq_refl)) as (E1 & E2 & _). unfold travel_start. destruct (e_reversed e); congruence.
Qed.
Lemma describes_all {A} (D : A -> Qc -> Prop) (es : list A) ms : Forall2 (fun e m => describes (D e) m) es ms -> length ms = length es /\ forall m, In m ms -> usable m.
Proof.
  induction 1 as [|e m es ms D1 _ [IH1 IH2]]; [split; [reflexivity|contradiction]|]. split; [cbn; congruence|]. intros x [<-|Hx]; [apply (describes_usable _ _ D1), (describes_two _ _ D1)|apply IH2, Hx].
Qed.

(** One layer: the path that is cut, and that the router can follow it. *)
Lemma pass_spec K TK t safe z up layer p : only_ends K -> makes_edges TK -> (forall l, tk_assemble TK l = Some l) ->
  tk_zmin TK layer = z + up -> 0 <= up -> flat (z + up) layer -> z + up < safe -> sound_wire layer -> tabs_fit TK safe z t layer ->
  match t with None => p = layer | Some t => apply_tabs TK layer (z + tabs_height t) t = Ok p end ->
  pass_path TK t z up layer p /\ traceable K safe p.
Proof.
  intros OE ME AS HZ UP FL LZ SW TF H. assert (LT := layer_traceable K safe _ layer OE FL LZ SW).
  destruct t as [[|spacing width height only|c width height]|].
  - cbn [tabs_height] in H. rewrite apply_tabs_above in H by (rewrite HZ; qlra). injection H as <-. split; [reflexivity|exact LT].
  - cbn [tabs_height tabs_fit pass_path] in *. destruct TF as (W1 & W2 & HS & CT & TT). destruct (Qclt_le_dec up height) as [L|L].
    + assert (TB : tabbed TK (z + height) spacing width only layer p).
      { eapply edge_tabs_applied; [exact ME| |exact W1|exact W2| | |exact CT|exact AS|exact H].
        + intros e He. destruct (TT e He) as (T1 & T2 & T3 & _). auto.
        + intros e He. destruct (TT e He) as (_ & _ & _ & T1 & T2). auto.
        + rewrite HZ. qlra. }
      split; [split; [intros C; exfalso; qlra|intros _; exact TB]|]. destruct TB as (ms & outs & D & R & E & CO). destruct (describes_all _ _ _ D) as (LEN & US).
      eapply pieces_traceable; try eassumption. exact (proj2 SW).
    + rewrite apply_tabs_above in H by (rewrite HZ; qlra). injection H as <-. split; [split; [reflexivity|intros C; exfalso; qlra]|exact LT].
  - cbn [tabs_height tabs_fit pass_path] in *. destruct TF as (C1 & W1 & HS & TT). destruct (Qclt_le_dec up height) as [L|L].
    + assert (TB : tabbed_wire TK (z + height) c width layer p) by (eapply wire_tabs_applied; try eassumption; rewrite HZ; qlra).
      split; [split; [intros C; exfalso; qlra|intros _; exact TB]|]. destruct TB as (ms & outs & D & R & E & CO). destruct (describes_all _ _ _ D) as (LEN & US). rewrite shares_length, map_length in LEN.
      eapply pieces_traceable; try eassumption. exact (proj2 SW).
    + rewrite apply_tabs_above in H by (rewrite HZ; qlra). injection H as <-. split; [split; [reflexivity|intros C; exfalso; qlra]|exact LT].
  - subst p. split; [reflexivity|exact LT].
Qed.

(** All passes of a wire. *)
Definition passes_spec (TK : tab_kernel) (WK : wire_kernel) (sd : option Qc) (t : option tabs) (b : list edge) (ps : list (list edge)) : Prop :=
  exists z s n, flat z b /\ passes_needed sd z s n /\ length ps = S n /\
    forall k p, nth_error ps k = Some p -> pass_path TK t z (qz (Z.of_nat (n - k)) * s) (if (k =? n)%nat then b else wk_moved WK b (s * qz (Z.of_nat (n - k)))) p.
Lemma toolpaths_spec K TK WK j sd t b ps : only_ends K -> makes_edges TK -> (forall l, tk_assemble TK l = Some l) -> rigid TK WK -> (forall s, sd = Some s -> 0 <= s) ->
  qq (-1) 1000 <= j_op_safe_height j -> cut_ready TK WK (j_top j) sd t (j_op_safe_height j) b -> profile_toolpaths TK WK j sd t b = Ok ps ->
  passes_spec TK WK sd t b ps /\ forall p, In p ps -> traceable K (j_op_safe_height j) p.
Proof.
  intros OE ME AS RG HS SF (z & FZ & LZ & SW & TF & ST) H. unfold profile_toolpaths in H. apply rbind_ok in H as (ls & HL & H).
  destruct (layers_of TK WK j b z sd ls HS RG FZ (fun X => proj1 (ST X)) HL) as (s & n & PN & LEN & HK).
  assert (ZB : tk_zmin TK b = z) by (apply RG, FZ).
  assert (X : length ps = length ls /\ forall k p, nth_error ps k = Some p -> exists l, nth_error ls k = Some l /\ match t with None => p = l | Some t => apply_tabs TK l (z + tabs_height t) t = Ok p end).
  { destruct t as [t|]; [|injection H as <-; split; [reflexivity|intros k p E; exists p; auto]]. rewrite ZB in H. exact (mapM_nth_l _ _ _ H). }
  destruct X as (LP & HP).
  assert (G : forall k p, nth_error ps k = Some p ->
     pass_path TK t z (qz (Z.of_nat (n - k)) * s) (if (k =? n)%nat then b else wk_moved WK b (s * qz (Z.of_nat (n - k)))) p /\ traceable K (j_op_safe_height j) p).
  { intros k p E. destruct (HP k p E) as (l & El & Hp). destruct (HK k l El) as (Kn & FL & EL). rewrite <- EL. set (up := qz (Z.of_nat (n - k)) * s) in *.
    assert (UP : 0 <= up).
    { destruct PN as [(_ & S0 & _)|[_ N0]].
      - unfold up. apply qmul_pos; [rewrite <- qz_0; apply qz_le; lia|apply Qclt_le_weak, S0].
      - assert (Z0 : (n - k = 0)%nat) by lia. unfold up. rewrite Z0. cbn [Z.of_nat]. rewrite qz_0. replace (0 * s) with 0 by ring. apply Qcle_refl. }
    assert (LS : z + up < j_op_safe_height j).
    { destruct PN as [(_ & S0 & LN)|[_ N0]].
      - destruct (Nat.eq_dec k n) as [->|NK].
        + unfold up. rewrite Nat.sub_diag. cbn [Z.of_nat]. rewrite qz_0. replace (z + 0 * s) with z by ring. exact LZ.
        + destruct LN as [[N0|LN] _]; [lia|]. assert (LE : up <= qz (Z.of_nat n) * s).
          { unfold up. assert (M : 0 <= (qz (Z.of_nat n) - qz (Z.of_nat (n - k))) * s). { apply qmul_pos; [|apply Qclt_le_weak, S0]. assert (qz (Z.of_nat (n - k)) <= qz (Z.of_nat n)) by (apply qz_le; lia). qlra. } qlra. }
          qlra.
      - assert (Z0 : (n - k = 0)%nat) by lia. unfold up. rewrite Z0. cbn [Z.of_nat]. rewrite qz_0. replace (z + 0 * s) with z by ring. exact LZ. }
    assert (SL : sound_wire l /\ tabs_fit TK (j_op_safe_height j) z t l).
    { rewrite EL. destruct (Nat.eqb_spec k n) as [_|NK]; [split; assumption|]. apply ST. destruct PN as [(-> & S0 & _)|[_ N0]]; [|lia].
      exists s. split; [reflexivity|]. intros ->. discriminate S0. }
    apply (pass_spec K TK t (j_op_safe_height j) z up l p OE ME AS); try assumption; try apply SL. apply RG, FL. }
  split.
  - exists z, s, n. split; [exact FZ|]. split; [exact PN|]. split; [congruence|]. intros k p E. apply G, E.
  - intros p Hp. apply In_nth_error in Hp as (k & E). apply (G k p E).
Qed.

(** ** Jobs *)
Lemma all_paths K TK WK j sd t bases pss : only_ends K -> makes_edges TK -> (forall l, tk_assemble TK l = Some l) -> rigid TK WK -> (forall s, sd = Some s -> 0 <= s) ->
  qq (-1) 1000 <= j_op_safe_height j -> (forall b, In b bases -> cut_ready TK WK (j_top j) sd t (j_op_safe_height j) b) ->
  Forall2 (fun b ps => profile_toolpaths TK WK j sd t b = Ok ps) bases pss ->
  Forall2 (passes_spec TK WK sd t) bases pss /\ forall p, In p (concat pss) -> traceable K (j_op_safe_height j) p.
Proof.
  intros OE ME AS RG HS SF HB F. induction F as [|b ps bases pss H _ IH]; [split; [constructor|contradiction]|].
  destruct (toolpaths_spec K TK WK j sd t b ps OE ME AS RG HS SF (HB b (or_introl eq_refl)) H) as (P1 & P2).
  destruct IH as (I1 & I2); [intros x Hx; apply HB; right; exact Hx|]. split; [constructor; assumption|].
  intros p Hp. cbn [concat] in Hp. apply in_app_or in Hp as [Hp|Hp]; auto.
Qed.
Lemma followed K TK WK S pf feed sd t bases pss : Forall2 (passes_spec TK WK sd t) bases pss -> forall groups, Forall2 (wire_traced K S pf feed) (concat pss) groups ->
  exists gs, concat groups = concat gs /\ Forall2 (profile_followed K TK WK S pf feed sd t) bases gs.
Proof.
  induction 1 as [|b ps bases pss (z & s & n & FZ & PN & LE & HK) _ IH]; intros groups F; [inversion F; subst; exists []; split; [reflexivity|constructor]|].
  cbn [concat] in F. apply Forall2_app_inv_l in F as (passes & more & F1 & F2 & ->). destruct (IH _ F2) as (gs & E & G).
  exists (concat passes :: gs). split; [cbn [concat]; rewrite concat_app, E; reflexivity|]. constructor; [|exact G].
  exists z, s, n, passes. split; [exact FZ|]. split; [exact PN|]. split; [reflexivity|].
  split; [rewrite <- LE; clear - F1; induction F1; cbn; congruence|]. intros k pass E'.
  assert (X : exists p, nth_error ps k = Some p /\ wire_traced K S pf feed p pass).
  { clear - F1 E'. revert k E'. induction F1 as [|p q ps passes X _ IH]; intros [|k] E'; try discriminate; [injection E' as <-; exists p; auto|exact (IH k E')]. }
  destruct X as (p & Ep & W). exists p. split; [exact (HK k p Ep)|exact W].
Qed.
Lemma wire_profile_paths K TK WK h r ws o sd t tl h' r' j : job_wire_profile K TK WK h r ws o sd t tl = (h', Ok r') -> hget h' r' = Some j ->
  exists j1 os cs, j = with_operations j1 os /\ profile_group K TK WK j1 sd t ws (Some o) = Ok cs.
Proof.
  intros HD HJ. unfold job_wire_profile in HD. destruct (hget h r) as [j0|] eqn:Ej; [|rewrite fluent_op_none in HD by exact Ej; discriminate].
  pose proof (HistoryP.fluent_op_spec h r j0 tl "Wire Profile" (wire_profile_gen K TK WK ws o sd t) Ej) as F. rewrite HD in F. inversion F as [|h1 r1 j1 cmds U E1 Eg]; subst.
  rewrite hget_new in HJ. injection HJ as <-. unfold wire_profile_gen in Eg. apply rbind_ok in Eg as (cs & Eg & _). exists j1. eexists. exists cs. split; [reflexivity|exact Eg].
Qed.
Lemma wire_profile_followed K TK WK h r ws o sd t tl h' r' j' st radius bases : user_heap h ->
  job_wire_profile K TK WK h r ws o sd t tl = (h', Ok r') -> hget h' r' = Some j' -> job_printable h' j' -> ms_ended st = false ->
  only_ends K -> makes_edges TK -> (forall l, tk_assemble TK l = Some l) -> rigid TK WK -> (forall s, sd = Some s -> 0 <= s) -> qq (-1) 1000 <= j_op_safe_height j' ->
  tool_radius j' = Some radius -> offsets_of K WK (j_top j') radius ws (Some o) bases ->
  (forall b, In b bases -> cut_ready TK WK (j_top j') sd t (j_op_safe_height j') b) ->
  exists p bs before groups, to_gcode h' r' = Ok p /\ parse_program p = Some bs /\ snd (run st bs) = before ++ concat groups /\ continues h r st before /\
    Forall2 (profile_followed K TK WK (j_op_safe_height j') (j_plunge_feed j') (j_feed j') sd t) bases groups.
Proof.
  intros HU HD HJ HP HE OE ME AS RG HS SF HR HO HB.
  assert (X : exists pss, Forall2 (fun b ps => profile_toolpaths TK WK j' sd t b = Ok ps) bases pss).
  { destruct (wire_profile_paths _ _ _ _ _ _ _ _ _ _ _ _ _ HD HJ) as (j1 & os & cs & -> & E). exact (group_paths K TK WK j1 sd t ws (Some o) cs radius bases HR E HO). }
  destruct X as (pss & F). destruct (all_paths K TK WK j' sd t bases pss OE ME AS RG HS SF HB F) as (PS & TR).
  destruct (wire_profile_traced K TK WK h r ws o sd t tl h' r' j' st radius (concat pss) HU HD HJ HP HE HR (ex_intro _ bases (ex_intro _ pss (conj HO (conj F eq_refl)))) TR) as (p & bs & before & groups & A & B & E & CT & W).
  destruct (followed _ _ _ _ _ _ _ _ _ _ PS _ W) as (gs & EG & G). exists p, bs, before, gs. rewrite <- EG. auto.
Qed.
Lemma profile_followed_ok K TK WK h r shapes oo io sd t tl h' r' j' st radius inners outers : user_heap h ->
  job_profile K TK WK h r shapes oo io sd t tl = (h', Ok r') -> hget h' r' = Some j' -> job_printable h' j' -> ms_ended st = false ->
  only_ends K -> makes_edges TK -> (forall l, tk_assemble TK l = Some l) -> rigid TK WK -> (forall s, sd = Some s -> 0 <= s) -> qq (-1) 1000 <= j_op_safe_height j' ->
  tool_radius j' = Some radius -> offsets_of K WK (j_top j') radius (flat_map inners_of shapes) io inners -> offsets_of K WK (j_top j') radius (flat_map outer_of shapes) oo outers ->
  (forall b, In b (inners ++ outers) -> cut_ready TK WK (j_top j') sd t (j_op_safe_height j') b) ->
  exists p bs before groups, to_gcode h' r' = Ok p /\ parse_program p = Some bs /\ snd (run st bs) = before ++ concat groups /\ continues h r st before /\
    Forall2 (profile_followed K TK WK (j_op_safe_height j') (j_plunge_feed j') (j_feed j') sd t) (inners ++ outers) groups.
Proof.
  intros HU HD HJ HP HE OE ME AS RG HS SF HR HI HO HB.
  assert (X : exists pi po, Forall2 (fun b ps => profile_toolpaths TK WK j' sd t b = Ok ps) inners pi /\ Forall2 (fun b ps => profile_toolpaths TK WK j' sd t b = Ok ps) outers po).
  { destruct (profile_groups _ _ _ _ _ _ _ _ _ _ _ _ _ _ HD HJ) as (j1 & os & ci & co & -> & Ei & Eo).
    destruct (group_paths _ _ _ j1 _ _ _ _ _ _ _ HR Ei HI) as (pi & Fi). destruct (group_paths _ _ _ j1 _ _ _ _ _ _ _ HR Eo HO) as (po & Fo). exists pi, po. split; [exact Fi|exact Fo]. }
  destruct X as (pi & po & Fi & Fo). destruct (all_paths K TK WK j' sd t _ _ OE ME AS RG HS SF HB (Forall2_app Fi Fo)) as (PS & TR). rewrite concat_app in TR.
  destruct (profile_traced K TK WK h r shapes oo io sd t tl h' r' j' st radius (concat pi) (concat po) HU HD HJ HP HE HR (ex_intro _ inners (ex_intro _ pi (conj HI (conj Fi eq_refl)))) (ex_intro _ outers (ex_intro _ po (conj HO (conj Fo eq_refl)))) TR) as (p & bs & before & groups & A & B & E & CT & W).
  rewrite <- concat_app in W. destruct (followed _ _ _ _ _ _ _ _ _ _ PS _ W) as (gs & EG & G). exists p, bs, before, gs. rewrite <- EG. auto.
Qed.
