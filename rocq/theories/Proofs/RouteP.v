(** * Proofs about approach moves and the pocket router *)
From Verif Require Import Base.Str Base.Py Model.Geometry Model.Routers Spec.Paths Spec.Moves Spec.Contours Proofs.GeomP.
Local Open Scope Qc_scope.
Local Open Scope list_scope.

Lemma after_app p a b : after p (a ++ b) = after (after p a) b.
Proof. revert p. induction a as [|m a IH]; intros p; [reflexivity|]. simpl. apply IH. Qed.
Lemma continuous_app p a b : continuous p (a ++ b) <-> continuous p a /\ continuous (after p a) b.
Proof.
  revert p. induction a as [|m a IH]; intros p; simpl; [tauto|]. rewrite IH. tauto.
Qed.
Lemma last_end_after ms p : last_end ms p = after p ms.
Proof.
  unfold last_end. destruct ms as [|m ms] using rev_ind; [reflexivity|].
  rewrite rev_app_distr, after_app. reflexivity.
Qed.

Lemma oeqb_true a b : oeqb a b = true <-> a = b.
Proof.
  destruct a, b; simpl; try (split; congruence). rewrite qeqb_eq. split; congruence.
Qed.
Lemma differs_false a b : differs a b = false <-> a = Some b.
Proof. unfold differs. rewrite negb_false_iff. apply oeqb_true. Qed.

(** ** rapid_to *)
Lemma rapid_to_shape start e R S pf :
  exists travel descent,
    rapid_to start e R S pf = MRapid KRetract start (AV (ax start) (ay start) (Some R)) false :: travel ++ descent /\
    ((travel = [] /\ ax start = Some (vx e) /\ ay start = Some (vy e)) \/
     (travel = [MRapid KRapid (AV (ax start) (ay start) (Some R)) (AV (Some (vx e)) (Some (vy e)) (Some R)) true] /\
      ~ (ax start = Some (vx e) /\ ay start = Some (vy e)))) /\
    descent = match S with
              | None => [MCut KPlungeCut (AV (Some (vx e)) (Some (vy e)) (Some R)) (AV (Some (vx e)) (Some (vy e)) (Some (vz e))) true pf]
              | Some s =>
                  MRapid KPlungeRapid (AV (Some (vx e)) (Some (vy e)) (Some R)) (AV (Some (vx e)) (Some (vy e)) (Some s)) true
                  :: (if qltb (vz e) s
                      then [MCut KPlungeCut (AV (Some (vx e)) (Some (vy e)) (Some s)) (AV (Some (vx e)) (Some (vy e)) (Some (vz e))) true pf]
                      else [])
              end.
Proof.
  unfold rapid_to, retract_abs, init_motion. cbn [m_end ax ay az or_else].
  destruct (differs (ax start) (vx e)) eqn:Ex; cbn [orb].
  - eexists _, _. split; [reflexivity|]. split.
    + right. split; [reflexivity|]. intros [C _]. apply differs_false in C. congruence.
    + destruct S; reflexivity.
  - destruct (differs (ay start) (vy e)) eqn:Ey.
    + eexists _, _. split; [reflexivity|]. split.
      * right. split; [reflexivity|]. intros [_ C]. apply differs_false in C. congruence.
      * destruct S; reflexivity.
    + apply differs_false in Ex. apply differs_false in Ey. eexists _, _. split; [reflexivity|]. split.
      * left. auto.
      * cbn [last_end rev]. rewrite Ex, Ey. destruct S; reflexivity.
Qed.

Ltac fall := repeat (apply Forall_cons; [|]); try apply Forall_nil.
Lemma rapid_to_safe start e R S pf :
  let ms := rapid_to start e R (Some S) (Some pf) in
  continuous start ms /\
  (exists m rest, ms = m :: rest /\ rapid m /\ vertical m /\ az (m_end m) = Some R) /\
  Forall (fun m => rapid m -> safe_rapid R S m) ms /\
  Forall (fun m => ~ rapid m -> plunge S (vz e) pf m) ms /\
  Forall (fun m => vertical m \/ (rapid m /\ at_height m R)) ms /\
  after start ms = from_vector (V3 (vx e) (vy e) (if qltb (vz e) S then vz e else S)) /\
  (Forall vertical ms <-> ax start = Some (vx e) /\ ay start = Some (vy e)).
Proof.
  cbv zeta. destruct (rapid_to_shape start e R (Some S) (Some pf)) as (tr & de & -> & HT & ->).
  assert (V1 : forall k s z a, vertical (MRapid k s (AV (ax s) (ay s) z) a)) by (split; reflexivity).
  destruct HT as [(-> & Ex & Ey)|(-> & NE)].
  - destruct start as [sx sy sz]. simpl in Ex, Ey. subst sx sy.
    destruct (qltb_spec (vz e) S) as [L|L]; cbn [app];
    (split; [cbn; auto 10|]; split; [eexists _, _; cbn; repeat split; reflexivity|];
     split; [fall; intros HR; try (exfalso; exact HR); unfold safe_rapid, vertical, at_height; cbn; auto 10|];
     split; [fall; cbn; try tauto; intros _; unfold plunge, vertical; cbn; auto 10|];
     split; [fall; left; split; reflexivity|];
     split; [reflexivity|];
     split; [cbn; auto|]; intros _; fall; split; reflexivity).
  - assert (NV : ~ vertical (MRapid KRapid (AV (ax start) (ay start) (Some R)) (AV (Some (vx e)) (Some (vy e)) (Some R)) true)).
    { intros [C1 C2]. cbn in C1, C2. apply NE. split; congruence. }
    destruct (qltb_spec (vz e) S) as [L|L]; cbn [app];
    (split; [cbn; auto 10|]; split; [eexists _, _; cbn; repeat split; reflexivity|];
     split; [fall; intros HR; try (exfalso; exact HR); unfold safe_rapid, vertical, at_height; cbn; auto 10|];
     split; [fall; cbn; try tauto; intros _; unfold plunge, vertical; cbn; auto 10|];
     split; [fall; first [left; split; reflexivity | right; unfold at_height; cbn; auto]|];
     split; [reflexivity|];
     split; [|intros C; contradiction]; intros C; exfalso; apply NV; inversion C as [|? ? _ C2]; inversion C2; assumption).
Qed.

(** ** Cuts along points *)
Lemma cut_poly_spec d f pts : forall pos,
  let ms := cut_poly d f pos pts in
  continuous pos ms /\
  Forall (fun m => straight_cut m /\ m_feed m = Some f /\ az (m_end m) = Some d) ms /\
  after pos ms = match rev pts with [] => pos | p :: _ => AV (Some (fst p)) (Some (snd p)) (Some d) end /\
  (az pos = Some d -> Forall (fun m => at_height m d) ms) /\
  (forall p, xy pos = Some p -> segs ms = steps (p :: pts)).
Proof.
  induction pts as [|[x y] pts IH]; intros pos; cbv zeta.
  - simpl. repeat split; auto. 
  - cbn [cut_poly]. set (m := cut_abs _ _ _ _ _ _).
    assert (Em : m = MCut KCut pos (AV (Some x) (Some y) (Some d)) false (Some f)) by reflexivity.
    clearbody m. subst m. cbn [m_end].
    destruct (IH (AV (Some x) (Some y) (Some d))) as (H1 & H2 & H3 & H4 & H5). cbv zeta in *.
    split; [split; [reflexivity|exact H1]|].
    split; [constructor; [cbn; auto|exact H2]|].
    split.
    { cbn [after m_end rev]. rewrite H3. destruct (rev pts) as [|q l]; reflexivity. }
    split.
    { intros Hz. constructor; [split; [exact Hz|reflexivity]|]. apply H4. reflexivity. }
    intros p Hp. cbn [segs flat_map m_start m_end]. rewrite Hp. cbn [xy ax ay app].
    change (steps (p :: (x, y) :: pts)) with ((p, (x, y)) :: steps ((x, y) :: pts)). f_equal.
    apply (H5 (x, y)). reflexivity.
Qed.

Lemma segs_app a b : segs (a ++ b) = segs a ++ segs b.
Proof. unfold segs. apply flat_map_app. Qed.

Lemma cut_poly_app d f pts1 : forall pos pts2,
  cut_poly d f pos (pts1 ++ pts2) = cut_poly d f pos pts1 ++ cut_poly d f (last_end (cut_poly d f pos pts1) pos) pts2.
Proof.
  induction pts1 as [|[x y] l IH]; intros pos pts2; [reflexivity|].
  cbn [cut_poly app]. rewrite IH. rewrite !last_end_after. reflexivity.
Qed.

(** ** One contour *)
(** How a contour is entered and walked. *)
Definition entry_rapid (j : job) (pp : avec) (f : pathface) (p0 : pt) : list motion :=
  rapid_to pp (V3 (fst p0) (snd p0) (pf_depth f)) (j_rapid_height j) (Some (j_op_safe_height j)) (Some (j_plunge_feed j)).
Definition entry_link (j : job) (pp : avec) (f : pathface) (c : pt) : list motion :=
  [cut_abs (Some (fst c)) (Some (snd c)) (Some (pf_depth f)) (Some pp) false (Some (j_feed j))].

Inductive contour (j : job) (so : option Qc) (pe : option pt) (pp : avec) (f : pathface) :
  list motion -> path -> pt -> Prop :=
| contour_first p0 rest : pf_outer f = p0 :: rest -> (pe = None \/ rest = []) ->
    contour j so pe pp f (entry_rapid j pp f p0) rest (last (p0 :: rest) p0)
| contour_rapid p0 rest e c : pf_outer f = p0 :: rest -> pe = Some e -> on_path c (pf_outer f) ->
    contour j so pe pp f (entry_rapid j pp f p0) (rest ++ [c]) c
| contour_link e c s i a b : pe = Some e -> so = Some s -> nth_error (steps (pf_outer f)) i = Some (a, b) ->
    on_segment c a b -> 0 < s -> 0 < sqd e c -> sqd e c <= s ->
    (forall q, on_path q (pf_outer f) -> sqd e c <= sqd e q) ->
    contour j so pe pp f (entry_link j pp f c) (tl (shift_polygon (pf_outer f) i) ++ [c]) c.

Lemma truthy_some x : truthy (Some x) = true <-> x <> 0.
Proof. unfold truthy. rewrite negb_true_iff. apply qeqb_neq. Qed.

Lemma route_polyface_inv j so pe pp f cmds pos we :
  route_polyface j so pe pp f = Ok (cmds, pos, we) ->
  exists access pts, contour j so pe pp f access pts we /\
    cmds = access ++ cut_poly (pf_depth f) (j_feed j) (after pp access) pts /\ pos = after pp cmds.
Proof.
  unfold route_polyface. destruct (pf_outer f) as [|p0 rest] eqn:EO; [discriminate|].
  intros H. apply rbind_ok in H. destruct H as (near & HN & H).
  change (rapid_to pp _ _ _ _) with (entry_rapid j pp f p0) in H.
  remember (entry_rapid j pp f p0) as RT eqn:ERT in H.
  destruct near as [[[d c] [i r]]|].
  - destruct pe as [e|]; [|discriminate].
    destruct (distance_to_path_spec _ _ _ _ _ _ HN) as (a & b & N1 & N2 & N3 & _ & N5 & _).
    assert (HOP : on_path c (p0 :: rest)) by (exists a, b; split; [eapply nth_error_In; exact N1|exact N2]).
    set (linked := match so with Some s => if truthy so && truthy (Some d) && qleb d s then Some (c, i) else None | None => None end) in H.
    destruct linked as [[c' i']|] eqn:EL.
    + unfold linked in EL. destruct so as [s|]; [|discriminate].
      destruct (truthy (Some s)) eqn:E1; [|discriminate]. destruct (truthy (Some d)) eqn:E2; [|discriminate].
      destruct (qleb d s) eqn:E3; [|discriminate]. injection EL as <- <-.
      apply truthy_some in E1. apply truthy_some in E2. apply qleb_le in E3.
      assert (0 <= d) by (rewrite N3; apply sqd_nn).
      assert (Hd : 0 < d). { apply Qcnot_le_lt. intro C. apply E2. apply Qcle_antisym; assumption. }
      injection H as <- <- <-. rewrite !last_end_after.
      eexists (entry_link j pp f c), (tl (shift_polygon (pf_outer f) i) ++ [c]).
      split; [|split].
      * eapply contour_link with (e := e) (s := s) (a := a) (b := b).
        -- reflexivity.
        -- reflexivity.
        -- rewrite EO. exact N1.
        -- exact N2.
        -- eapply Qclt_le_trans; eassumption.
        -- rewrite <- N3. exact Hd.
        -- rewrite <- N3. exact E3.
        -- rewrite EO. intros q Hq. rewrite <- N3. apply N5, Hq.
      * rewrite cut_poly_app, EO, !last_end_after. destruct c. reflexivity.
      * reflexivity.
    + injection H as <- <- <-. rewrite !last_end_after. subst RT.
      eexists (entry_rapid j pp f p0), (rest ++ [c]). split; [|split].
      * eapply contour_rapid; [exact EO|reflexivity|]. rewrite EO. exact HOP.
      * rewrite cut_poly_app, !last_end_after. destruct c. reflexivity.
      * reflexivity.
  - injection H as <- <- <-. rewrite !last_end_after. subst RT.
    eexists (entry_rapid j pp f p0), rest. split; [|split].
    + apply contour_first; [exact EO|]. destruct pe as [e|]; [|auto]. right.
      destruct rest as [|q rest]; [reflexivity|]. exfalso.
      pose proof (distance_to_path_from_spec e (p0 :: q :: rest) [] None _ eq_refl HN) as HB. discriminate HB.
    + rewrite app_nil_r. reflexivity.
    + rewrite app_nil_r. reflexivity.
Qed.

(** The whole list: groups of commands, each contour entered with the end of the one before. *)
Inductive routed (j : job) (so : option Qc) : option pt -> avec -> list pathface -> list (list motion) -> Prop :=
| routed_nil pe pp : routed j so pe pp [] []
| routed_cons pe pp f fs access pts we gs :
    contour j so pe pp f access pts we ->
    let g := access ++ cut_poly (pf_depth f) (j_feed j) (after pp access) pts in
    routed j so (Some we) (after pp g) fs gs ->
    routed j so pe pp (f :: fs) (g :: gs).

Lemma route_polyfaces_routed j so fs : forall pe pp cmds,
  route_polyfaces_from j so pe pp fs = Ok cmds ->
  exists gs, routed j so pe pp fs gs /\ cmds = concat gs.
Proof.
  induction fs as [|f fs IH]; intros pe pp cmds H.
  - simpl in H. ok_inv. exists []. split; [constructor|reflexivity].
  - cbn [route_polyfaces_from] in H. apply rbind_ok in H. destruct H as ([[c pos] we] & H1 & H).
    apply rbind_ok in H. destruct H as (rest & H2 & H). ok_inv.
    destruct (route_polyface_inv _ _ _ _ _ _ _ _ H1) as (access & pts & HC & -> & ->).
    destruct (IH _ _ _ H2) as (gs & HG & ->).
    eexists (_ :: gs). split; [|reflexivity]. econstructor; eassumption.
Qed.

Section Contour.
Context (j : job) (so : option Qc).
Notation R := (j_rapid_height j).
Notation S := (j_op_safe_height j).
Notation pf := (j_plunge_feed j).
Notation feed := (j_feed j).

Notation ok_feed := (ok_feed S pf feed).

Lemma xy_av x y z : xy (AV (Some x) (Some y) z) = Some (x, y).
Proof. reflexivity. Qed.

Lemma contour_access pe pp f access pts we :
  contour j so pe pp f access pts we ->
  continuous pp access /\
  Forall (fun m => rapid m -> safe_rapid R S m) access /\
  Forall (fun m => ~ rapid m -> ok_feed (pf_depth f) m) access /\
  (exists p, xy (after pp access) = Some p) /\
  (pf_depth f < S -> az (after pp access) = Some (pf_depth f)) /\
  (pf_depth f < S -> (pe <> None -> az pp = Some (pf_depth f)) ->
     Forall (fun m => ~ rapid m -> plunge S (pf_depth f) pf m \/ (at_height m (pf_depth f) /\ m_feed m = Some feed)) access).
Proof.
  assert (HRap : forall p0, 
    continuous pp (entry_rapid j pp f p0) /\
    Forall (fun m => rapid m -> safe_rapid R S m) (entry_rapid j pp f p0) /\
    Forall (fun m => ~ rapid m -> ok_feed (pf_depth f) m) (entry_rapid j pp f p0) /\
    (exists p, xy (after pp (entry_rapid j pp f p0)) = Some p) /\
    (pf_depth f < S -> az (after pp (entry_rapid j pp f p0)) = Some (pf_depth f)) /\
    (pf_depth f < S -> (pe <> None -> az pp = Some (pf_depth f)) ->
       Forall (fun m => ~ rapid m -> plunge S (pf_depth f) pf m \/ (at_height m (pf_depth f) /\ m_feed m = Some feed)) (entry_rapid j pp f p0))).
  { intros p0. unfold entry_rapid.
    destruct (rapid_to_safe pp (V3 (fst p0) (snd p0) (pf_depth f)) R S pf) as (H1 & _ & H3 & H4 & _ & H6 & _).
    cbn [vx vy vz] in *. split; [exact H1|]. split; [exact H3|]. split.
    { eapply Forall_impl; [|exact H4]. intros m Hm NR. left. apply Hm, NR. }
    split; [rewrite H6; eexists; reflexivity|]. split.
    { intros L. rewrite H6. destruct (qltb_spec (pf_depth f) S); [reflexivity|contradiction]. }
    intros L _. eapply Forall_impl; [|exact H4]. intros m Hm NR. left. apply Hm, NR. }
  intros HC. destruct HC as [p0 rest EO _|p0 rest e c EO _ _|e c s i a b -> _ _ _ _ _ _ _]; [apply HRap..|].
  unfold entry_link, cut_abs, mk_cut, init_motion. cbn [ax ay az or_else].
  split; [cbn; auto|]. split; [fall; intros C; destruct C|].
  split; [fall; intros _; right; cbn; auto|].
  split; [eexists; reflexivity|]. split; [reflexivity|].
  intros L Hz. fall. intros _. right. split; [|reflexivity]. split; [|reflexivity]. cbn. apply Hz. congruence.
Qed.

Lemma last_rev {A} (l : list A) d : match rev l with [] => d | x :: _ => x end = last l d.
Proof.
  destruct l as [|x l] using rev_ind; [reflexivity|]. rewrite rev_app_distr, last_last. reflexivity.
Qed.

Lemma after_cut_poly d f pos pts p : xy pos = Some p ->
  xy (after pos (cut_poly d f pos pts)) = Some (last pts p).
Proof.
  intros H. destruct (cut_poly_spec d f pts pos) as (_ & _ & H3 & _). cbv zeta in H3. rewrite H3.
  rewrite <- last_rev. destruct (rev pts) as [|q l]; [exact H|]. destruct q; reflexivity.
Qed.
Lemma az_cut_poly d f pos pts : az pos = Some d -> az (after pos (cut_poly d f pos pts)) = Some d.
Proof.
  intros H. destruct (cut_poly_spec d f pts pos) as (_ & _ & H3 & _). cbv zeta in H3. rewrite H3.
  destruct (rev pts) as [|q l]; [exact H|]. reflexivity.
Qed.

Lemma last_any {A} (l : list A) d d' : l <> [] -> last l d = last l d'.
Proof.
  intros H. destruct l as [|x l] using rev_ind; [congruence|]. rewrite !last_last. reflexivity.
Qed.
Lemma last_cons {A} (a : A) l d : last (a :: l) d = last l a.
Proof. destruct l as [|b l]; [reflexivity|]. change (last (a :: b :: l) d) with (last (b :: l) d). apply last_any. discriminate. Qed.

Lemma entry_rapid_xy pp f p0 : xy (after pp (entry_rapid j pp f p0)) = Some p0.
Proof.
  unfold entry_rapid. destruct (rapid_to_safe pp (V3 (fst p0) (snd p0) (pf_depth f)) R S pf) as (_ & _ & _ & _ & _ & H6 & _).
  rewrite H6. destruct p0; reflexivity.
Qed.

(** The contour ends at the point that is remembered. *)
Lemma contour_end pe pp f access pts we :
  contour j so pe pp f access pts we ->
  xy (after pp (access ++ cut_poly (pf_depth f) feed (after pp access) pts)) = Some we.
Proof.
  intros HC. rewrite after_app.
  destruct HC as [p0 rest EO _|p0 rest e c EO _ _|e c s i a b _ _ _ _ _ _ _ _].
  - erewrite after_cut_poly by apply entry_rapid_xy. f_equal. rewrite last_cons. reflexivity.
  - erewrite after_cut_poly by apply entry_rapid_xy. rewrite last_last. reflexivity.
  - erewrite after_cut_poly by (cbn; reflexivity). rewrite last_last. reflexivity.
Qed.

Lemma routed_safe fs : forall pe pp gs, routed j so pe pp fs gs ->
  continuous pp (concat gs) /\
  Forall (fun m => rapid m -> safe_rapid R S m) (concat gs) /\
  Forall (fun m => ~ rapid m -> exists f, In f fs /\ ok_feed (pf_depth f) m) (concat gs).
Proof.
  induction fs as [|f fs IH]; intros pe pp gs H; inversion H; subst.
  - cbn. repeat split; constructor.
  - match goal with HC : contour _ _ _ _ _ _ _ _ |- _ => pose proof (contour_access _ _ _ _ _ _ HC) as (A1 & A2 & A3 & _) end.
    match goal with HR : routed _ _ _ _ fs _ |- _ => destruct (IH _ _ _ HR) as (B1 & B2 & B3) end.
    destruct (cut_poly_spec (pf_depth f) feed pts (after pp access)) as (P1 & P2 & _). cbv zeta in *.
    unfold g in *. cbn [concat]. split; [|split].
    + rewrite !continuous_app. auto.
    + rewrite !Forall_app. split; [split; [exact A2|]|exact B2].
      eapply Forall_impl; [|exact P2]. intros m (C & _) Rm. destruct m; cbn in *; tauto.
    + rewrite !Forall_app. split; [split|].
      * eapply Forall_impl; [|exact A3]. intros m Hm NR. exists f. split; [left; reflexivity|auto].
      * eapply Forall_impl; [|exact P2]. intros m Hm NR. exists f. split; [left; reflexivity|right; exact Hm].
      * eapply Forall_impl; [|exact B3]. intros m Hm NR. destruct (Hm NR) as (f' & I & K). exists f'. split; [right; exact I|exact K].
Qed.

Lemma routed_level d fs : d < S -> forall pe pp gs, (forall f, In f fs -> pf_depth f = d) ->
  (pe <> None -> az pp = Some d) -> routed j so pe pp fs gs ->
  Forall (fun m => ~ rapid m -> plunge S d pf m \/ (at_height m d /\ m_feed m = Some feed)) (concat gs).
Proof.
  intros L. induction fs as [|f fs IH]; intros pe pp gs HD HZ H; inversion H; subst.
  - constructor.
  - match goal with HC : contour _ _ _ _ _ _ _ _ |- _ => pose proof (contour_access _ _ _ _ _ _ HC) as (A1 & A2 & A3 & _ & A5 & A6) end.
    assert (Ef : pf_depth f = d) by (apply HD; left; reflexivity). rewrite Ef in *.
    destruct (cut_poly_spec d feed pts (after pp access)) as (P1 & P2 & _ & P4 & _). cbv zeta in *.
    unfold g in *. rewrite Ef in *. cbn [concat]. rewrite !Forall_app. split; [split|].
    + apply A6; assumption.
    + assert (PP := P4 (A5 L)). rewrite Forall_forall in *. intros m Hm _. right. split; [apply PP, Hm|apply P2, Hm].
    + match goal with HR : routed _ _ _ _ fs _ |- _ => eapply IH; [|  | exact HR] end.
      * intros f' Hf'. apply HD. right. exact Hf'.
      * intros _. rewrite after_app. apply az_cut_poly. apply A5, L.
Qed.
End Contour.

(** ** Each contour is toured *)
Lemma steps_snoc l x c : steps (l ++ [x; c]) = steps (l ++ [x]) ++ [(x, c)].
Proof. apply (steps_app l x [c]). Qed.

Lemma skipn_nth {A} (l : list A) i x : nth_error l i = Some x -> l = firstn i l ++ x :: skipn (S i) l /\ skipn i l = x :: skipn (S i) l.
Proof.
  revert i. induction l as [|y l IH]; intros [|i] H; try discriminate.
  - injection H as ->. auto.
  - destruct (IH i H) as [E1 E2]. split; [simpl; f_equal; exact E1|exact E2].
Qed.

Lemma tour_link p i a b c : closed_path p -> nth_error (steps p) i = Some (a, b) -> on_segment c a b ->
  tour p (steps (c :: tl (shift_polygon p i) ++ [c])).
Proof.
  intros HC HN HO. assert (Hi : (S i < length p)%nat).
  { assert (i < length (steps p))%nat by (apply nth_error_Some; congruence). rewrite steps_length in H. lia. }
  destruct (shift_polygon_spec p i HC Hi) as (_ & (x & l & E & HL) & HS & _).
  destruct (skipn_nth _ _ _ HN) as [E1 E2]. rewrite E2 in HS. rewrite E in *. cbn [tl].
  destruct l as [|y l]; [discriminate|].
  change (steps (x :: y :: l)) with ((x, y) :: steps (y :: l)) in HS.
  injection HS as -> -> HS. right. exists (firstn i (steps p)), a, b, (skipn (S i) (steps p)), c.
  split; [exact E1|]. split; [exact HO|].
  change (steps (c :: (b :: l) ++ [c])) with ((c, b) :: steps ((b :: l) ++ [c])). f_equal.
  destruct (exists_last (l := b :: l)) as (l' & z & El); [discriminate|].
  assert (Ez : z = a).
  { rewrite last_cons in HL. rewrite El in HL. rewrite last_last in HL. exact HL. }
  subst z. assert (HS' : skipn (S i) (steps p) ++ firstn i (steps p) = steps (b :: l)) by (symmetry; exact HS).
  rewrite app_assoc, HS', El, <- app_assoc. apply steps_snoc.
Qed.

Lemma cut_poly_moves d f pts : forall pos p, xy pos = Some p -> moves_along (cut_poly d f pos pts) (steps (p :: pts)).
Proof.
  induction pts as [|[x y] pts IH]; intros pos p Hp; [constructor|].
  cbn [cut_poly]. change (steps (p :: (x, y) :: pts)) with ((p, (x, y)) :: steps ((x, y) :: pts)).
  constructor; [split; [exact Hp|reflexivity]|]. apply IH. reflexivity.
Qed.

Lemma contour_group j so pe pp f access pts we :
  closed_path (pf_outer f) -> contour j so pe pp f access pts we ->
  exists es ch,
    moves_along (cut_poly (pf_depth f) (j_feed j) (after pp access) pts) (es ++ ch) /\
    tour (pf_outer f) es /\ chord_of (pf_outer f) ch /\
    (exists m rest, access = m :: rest /\ (~ rapid m -> rest = [] /\ ch = [])) /\
    (pe = None -> ch = []) /\
    (ch <> [] -> exists m rest, access = m :: rest /\ is_retract m = true).
Proof.
  intros HCL HC.
  assert (RT : forall p0, exists m rest, entry_rapid j pp f p0 = m :: rest /\ is_retract m = true).
  { intros p0. unfold entry_rapid, rapid_to. eexists _, _. split; reflexivity. }
  assert (RT2 : forall p0 (ch : list (pt * pt)), exists m rest, entry_rapid j pp f p0 = m :: rest /\ (~ rapid m -> rest = [] /\ ch = [])).
  { intros p0 ch. unfold entry_rapid, rapid_to. eexists _, _. split; [reflexivity|]. intros C. exfalso. apply C. exact I. }
  destruct HC as [p0 rest EO HP|p0 rest e c EO -> HP|e c s i a b -> Hs HN HO _ _ _ _].
  - exists (steps (p0 :: rest)), []. rewrite app_nil_r. split; [|split; [|split; [|split; [|split]]]].
    + apply cut_poly_moves, entry_rapid_xy.
    + left. rewrite EO. reflexivity.
    + left. reflexivity.
    + apply RT2.
    + reflexivity.
    + congruence.
  - exists (steps (p0 :: rest)), [(last rest p0, c)]. split; [|split; [|split; [|split; [|split]]]].
    + assert (E : steps (p0 :: rest ++ [c]) = steps (p0 :: rest) ++ [(last rest p0, c)]).
      { destruct rest as [|q rest] using rev_ind; [reflexivity|]. rewrite last_last.
        change (p0 :: (rest ++ [q]) ++ [c]) with ((p0 :: (rest ++ [q])) ++ [c]).
        change (p0 :: rest ++ [q]) with ((p0 :: rest) ++ [q]). rewrite <- app_assoc. apply steps_snoc. }
      rewrite <- E. apply cut_poly_moves, entry_rapid_xy.
    + left. rewrite EO. reflexivity.
    + right. exists p0, c. rewrite EO in *. destruct HCL as (a & l & [= <- <-] & HL). rewrite last_cons in HL.
      split; [rewrite HL; reflexivity|]. split; [reflexivity|exact HP].
    + apply RT2.
    + discriminate.
    + intros _. apply RT.
  - exists (steps (c :: tl (shift_polygon (pf_outer f) i) ++ [c])), []. rewrite app_nil_r.
    split; [|split; [|split; [|split; [|split]]]].
    + apply cut_poly_moves. destruct c; reflexivity.
    + eapply tour_link; eassumption.
    + left; reflexivity.
    + eexists _, _. split; [reflexivity|]. auto.
    + reflexivity.
    + congruence.
Qed.

Lemma routed_groups j so fs : forall pe pp gs,
  Forall (fun f => closed_path (pf_outer f)) fs -> routed j so pe pp fs gs -> Forall2 group_ok fs gs.
Proof.
  induction fs as [|f fs IH]; intros pe pp gs HF H; inversion H; subst; [constructor|].
  inversion HF as [|? ? HF1 HF2]; subst. constructor; [|eapply IH; eassumption].
  match goal with HC : contour _ _ _ _ _ _ _ _ |- _ => destruct (contour_group _ _ _ _ _ _ _ _ HF1 HC) as (es & ch & G1 & G2 & G3 & G4 & _) end.
  destruct (cut_poly_spec (pf_depth f) (j_feed j) pts (after pp access)) as (_ & P2 & _). cbv zeta in *.
  eexists access, _, es, ch. split; [reflexivity|]. split; [exact G1|]. split; [exact G2|]. split; [exact G3|].
  split; [|exact G4]. eapply Forall_impl; [|exact P2]. cbv beta. tauto.
Qed.

(** ** Links *)
Lemma sq_le (x s : Qc) : x <= s -> 1 <= s -> x <= s * s.
Proof. intros. qc2q. nra. Qed.

Lemma routed_links j so fs : forall pe pp gs,
  (forall e, pe = Some e -> xy pp = Some e) -> routed j so pe pp fs gs -> Forall2 (link_ok so) fs gs.
Proof.
  induction fs as [|f fs IH]; intros pe pp gs HP H; inversion H; subst; [constructor|].
  constructor.
  - match goal with HC : contour _ _ _ _ _ _ _ _ |- _ => destruct HC as [p0 rest EO _|p0 rest e c EO _ _|e c s i a b -> -> HN HO Hs _ Hle _] end.
    + eexists _, _. split; [reflexivity|]. intros C. exfalso. apply C. exact I.
    + eexists _, _. split; [reflexivity|]. intros C. exfalso. apply C. exact I.
    + eexists _, _. split; [reflexivity|]. intros _. exists s, e, c. split; [reflexivity|]. split; [exact Hs|].
      split; [split; [apply HP; reflexivity|destruct c; reflexivity]|].
      split; [exists a, b; split; [eapply nth_error_In; exact HN|exact HO]|].
      split; [exact Hle|]. intros H1. apply sq_le; assumption.
  - match goal with HR : routed _ _ _ _ fs _ |- _ => eapply IH; [|exact HR] end.
    intros e [= <-]. match goal with HC : contour _ _ _ _ _ _ _ _ |- _ => apply (contour_end _ _ _ _ _ _ _ _ HC) end.
Qed.

(** ** Following contours *)
Lemma on_segment_ends c a b : on_segment c a b -> forall es, In (a, b) es ->
  (exists u v, In (u, v) es /\ on_segment c u v /\ on_segment b u v) /\
  (exists u v, In (u, v) es /\ on_segment a u v /\ on_segment c u v).
Proof.
  intros H es HI. split; exists a, b; (split; [exact HI|split; auto using on_segment_start, on_segment_end]).
Qed.
Lemma tour_along p es a b : tour p es -> In (a, b) es -> along p a b.
Proof.
  intros [->|(be & u & v & af & c & E & HO & ->)] HI.
  - exists a, b. split; [exact HI|]. split; [apply on_segment_start|apply on_segment_end].
  - destruct (on_segment_ends _ _ _ HO (steps p)) as [K1 K2]; [rewrite E; apply in_or_app; right; left; reflexivity|].
    destruct HI as [[= <- <-]|HI]; [exact K1|].
    apply in_app_or in HI. destruct HI as [HI|HI].
    + exists a, b. split; [rewrite E; apply in_or_app; right; right; exact HI|]. split; [apply on_segment_start|apply on_segment_end].
    + apply in_app_or in HI. destruct HI as [HI|[[= <- <-]|[]]]; [|exact K2].
      exists a, b. split; [rewrite E; apply in_or_app; left; exact HI|]. split; [apply on_segment_start|apply on_segment_end].
Qed.

Lemma retracts_app a b : retracts (a ++ b) = (retracts a + retracts b)%nat.
Proof. unfold retracts. rewrite filter_app, app_length. reflexivity. Qed.

Lemma Forall2_in_l {A B} (P : A -> B -> Prop) la lb x : Forall2 P la lb -> In x la -> exists y, In y lb /\ P x y.
Proof.
  induction 1 as [|a b la lb H HF IH]; intros [].
  - subst. exists b. split; [left; reflexivity|exact H].
  - destruct (IH H0) as (y & H1 & H2). exists y. split; [right; exact H1|exact H2].
Qed.

Lemma follows_weaken so f fs m : follows so fs m -> follows so (f :: fs) m.
Proof.
  intros (a & b & H & K). exists a, b. split; [exact H|]. destruct K as [(g & I & K)|K]; [left; exists g; split; [right; exact I|exact K]|right; exact K].
Qed.

Lemma routed_follows j so fs : (forall s, so = Some s -> 0 < s -> 1 <= s) -> forall pe pp gs,
  Forall (fun f => closed_path (pf_outer f)) fs ->
  (forall e, pe = Some e -> xy pp = Some e) -> routed j so pe pp fs gs ->
  (retracts (concat gs) + (if pe then 1 else 0) <= 1)%nat ->
  Forall (fun m => ~ rapid m -> vertical m \/ follows so fs m) (concat gs).
Proof.
  intros Hs1. induction fs as [|f fs IH]; intros pe pp gs HF HP H HR; inversion H; subst; [constructor|].
  inversion HF as [|? ? HF1 HF2]; subst. cbn [concat] in *. rewrite retracts_app in HR.
  match goal with HC : contour _ _ _ _ _ _ _ _ |- _ =>
    pose proof (contour_group _ _ _ _ _ _ _ _ HF1 HC) as (es & ch & G1 & G2 & G3 & G4 & G5 & G6);
    pose proof (contour_end _ _ _ _ _ _ _ _ HC) as GE;
    rename HC into HC0 end.
  assert (Hch : ch = []).
  { destruct ch as [|x ch]; [reflexivity|]. exfalso. destruct pe as [e|]; [|specialize (G5 eq_refl); discriminate].
    destruct G6 as (m & rest & -> & Hm); [discriminate|].
    unfold g in HR. cbn [app retracts filter] in HR. unfold retracts in HR. cbn [app filter] in HR. rewrite Hm in HR. cbn [length] in HR. lia. }
  subst ch. rewrite app_nil_r in G1.
  rewrite Forall_app. split.
  - unfold g. rewrite Forall_app. split.
    + destruct HC0 as [p0 rest EO _|p0 rest e c EO _ _|e c s i a b -> -> HN HO Hs _ Hle _].
      * unfold entry_rapid. destruct (rapid_to_safe pp (V3 (fst p0) (snd p0) (pf_depth f)) (j_rapid_height j) (j_op_safe_height j) (j_plunge_feed j)) as (_ & _ & _ & H4 & _).
        eapply Forall_impl; [|exact H4]. intros m Hm NR. left. apply Hm in NR. apply NR.
      * unfold entry_rapid. destruct (rapid_to_safe pp (V3 (fst p0) (snd p0) (pf_depth f)) (j_rapid_height j) (j_op_safe_height j) (j_plunge_feed j)) as (_ & _ & _ & H4 & _).
        eapply Forall_impl; [|exact H4]. intros m Hm NR. left. apply Hm in NR. apply NR.
      * fall. intros _. right. exists e, c. split; [split; [apply HP; reflexivity|destruct c; reflexivity]|].
        right. exists s. split; [reflexivity|]. apply sq_le; [exact Hle|]. apply (Hs1 s); [reflexivity|exact Hs].
    + rewrite Forall_forall. intros m Hm _. right.
      destruct (Forall2_in_l _ _ _ _ G1 Hm) as ([a b] & HI & HSeg). exists a, b. split; [exact HSeg|].
      left. exists f. split; [left; reflexivity|]. eapply tour_along; eassumption.
  - match goal with HR' : routed _ _ _ _ fs _ |- _ => specialize (IH _ _ _ HF2 ltac:(intros e [= <-]; exact GE) HR') end.
    destruct fs as [|f2 fs].
    { match goal with HR' : routed _ _ _ _ [] _ |- _ => inversion HR'; subst end. constructor. }
    eapply Forall_impl; [|apply IH].
    + intros m Hm NR. destruct (Hm NR) as [V|F]; [left; exact V|right; apply follows_weaken, F].
    + assert (K : (1 <= retracts g + (if pe then 1 else 0))%nat); [|lia].
      destruct pe as [e|]; [lia|]. unfold g. rewrite retracts_app.
      inversion HC0; subst; try discriminate.
      unfold entry_rapid, rapid_to. cbn [app]. unfold retracts at 1. cbn [filter is_retract retract_abs]. 
      unfold retract_abs, init_motion. cbn [is_retract length]. lia.
Qed.
