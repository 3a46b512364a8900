(** The statements of Props/Surface.v. *)
From Verif Require Import Base.Str Base.Py Spec.Paths Spec.Moves Spec.Zigzag Spec.Pockets Spec.Surfaces Spec.Jobs Model.Groups Model.Geometry Model.Plane
  Model.Edges Model.Pocket Model.Strategy Model.Surface Proofs.GeomP Proofs.PocketP Proofs.RouteP Proofs.SurfaceP Proofs.ProgramThmP Proofs.StepdownP.
Local Open Scope Qc_scope.
Local Open Scope list_scope.

Lemma merge_sequence_ok s : forall hs vs rest, merge_sequence s hs = Ok (vs, rest) ->
  s = map (fun v => (vx v, vy v)) vs /\ hs = map vz vs ++ rest.
Proof.
  induction s as [|[x y] s IH]; intros hs vs rest H; cbn [merge_sequence] in H.
  - injection H as <- <-. split; reflexivity.
  - destruct hs as [|z hs]; [discriminate|]. apply rbind_ok in H as ([vs' rest'] & H1 & H). injection H as <- <-.
    destruct (IH _ _ _ H1) as [-> ->]. split; reflexivity.
Qed.
Lemma merge_sequences_ok ss : forall hs seqs, merge_sequences ss hs = Ok seqs -> lifted ss hs seqs.
Proof.
  induction ss as [|s ss IH]; intros hs seqs H; cbn [merge_sequences] in H.
  - injection H as <-. split; [constructor|]. exists hs. reflexivity.
  - apply rbind_ok in H as ([vs rest] & H1 & H). apply rbind_ok in H as (more & H2 & H). injection H as <-.
    destruct (merge_sequence_ok _ _ _ _ H1) as [E1 E2]. destruct (IH _ _ H2) as [F (m & E3)]. split; [constructor; [exact E1|exact F]|].
    exists m. cbn [concat]. rewrite map_app, <- app_assoc, <- E3. exact E2.
Qed.
Lemma surface_sequences_scanned K C a top faces zmin b seqs : surface_sequences K C a top faces zmin b = Ok seqs ->
  scanned K C a top faces zmin b seqs.
Proof.
  unfold surface_sequences. intros H1. remember (sk_outer K b) as o eqn:HO. destruct o as [es closed]. apply rbind_ok in H1 as (coarse & Z & H1).
  apply rbind_ok in H1 as (fine & F & H1). apply rbind_ok in H1 as (heights & D & H1). apply mapM_ok in F.
  exists coarse, fine, heights. rewrite <- HO. cbn [fst snd]. split; [exact Z|]. split; [exact F|]. split; [exact D|]. apply merge_sequences_ok, H1.
Qed.
Lemma surface_boundary_spec K C a j faces zmin b ms : surface_boundary K C a j faces zmin b = Ok ms ->
  exists seqs depths, scanned K C a (j_top j) faces zmin b seqs /\
    surface_depths (sa_top_height a) zmin (sa_stepdown a) = Ok depths /\
    surfaced (j_rapid_height j) (j_op_safe_height j) seqs depths ms /\ continuous av_none ms.
Proof.
  unfold surface_boundary. intros H. apply rbind_ok in H as (seqs & H1 & H). apply rbind_ok in H as (depths & H2 & H).
  injection H as <-. exists seqs, depths. split; [apply surface_sequences_scanned, H1|]. split; [exact H2|].
  split; [apply surface_passes_surfaced|apply surface_passes_continuous].
Qed.

Lemma chopped_all_in limit seqs runs run p : chopped_all limit seqs runs -> In run runs -> In p run -> In p (concat seqs) /\ vz p <= limit.
Proof.
  intros (parts & F & ->) HR HP. assert (G : In p (concat (concat parts))) by (apply in_concat; eauto).
  clear HR HP. revert G. induction F as [|s part seqs parts H F IH]; cbn [concat]; [intros []|].
  rewrite concat_app. intros G. apply in_app_or in G as [G|G].
  - rewrite (chopped_points _ _ _ H) in G. apply filter_In in G as [G1 G2]. apply qleb_le in G2. split; [apply in_or_app; left; exact G1|exact G2].
  - destruct (IH G) as [G1 G2]. split; [apply in_or_app; right; exact G1|exact G2].
Qed.

Lemma Forall2_in_r {A B} (P : A -> B -> Prop) l k b : Forall2 P l k -> In b k -> exists a, In a l /\ P a b.
Proof. induction 1 as [|x y l k H _ IH]; intros HI; [destruct HI|]. destruct HI as [<-|HI]; [exists x; split; [left; reflexivity|exact H]|]. destruct (IH HI) as (a & ? & ?). exists a. split; [right|]; assumption. Qed.
Lemma Forall2_in_l {A B} (P : A -> B -> Prop) l k a : Forall2 P l k -> In a l -> exists b, In b k /\ P a b.
Proof. induction 1 as [|x y l k H _ IH]; intros HI; [destruct HI|]. destruct HI as [<-|HI]; [exists y; split; [left; reflexivity|exact H]|]. destruct (IH HI) as (b & ? & ?). exists b. split; [right|]; assumption. Qed.

(** Every move of a boundary: which pass, which run. *)
Lemma surfaced_moves R S seqs depths ms m : surfaced R S seqs depths ms -> In m ms ->
  exists limit depth, In (limit, depth) (combine (pass_limits depths) depths) /\
    ((rapid m /\ safe_rapid R S m /\
      (az (m_end m) = Some R \/ az (m_end m) = Some S /\ exists p, In p (concat seqs) /\ vz p <= limit /\ xy (m_end m) = Some (vx p, vy p))) \/
     exists p, In p (concat seqs) /\ vz p <= limit /\ surface_cut depth p m).
Proof.
  intros (passes & -> & F) HI. apply in_concat in HI as (ps & HP & HI). destruct (Forall2_in_r _ _ _ _ F HP) as ([limit depth] & HL & runs & groups & CH & -> & FM).
  exists limit, depth. split; [exact HL|]. cbn [fst snd] in *. apply in_concat in HI as (g & HG & HI).
  destruct (Forall2_in_r _ _ _ _ FM HG) as (run & HR & up & across & down & cuts & p & points & -> & -> & U & A & D & FC).
  assert (W : forall q, In q (p :: points) -> In q (concat seqs) /\ vz q <= limit) by (intros q HQ; eapply chopped_all_in; eauto).
  destruct HI as [<-|[<-|[<-|HI]]].
  - left. destruct U as (U1 & U2 & U3). split; [exact U1|]. split; [left; auto|left; exact U3].
  - left. destruct A as (U1 & U2 & U3). split; [exact U1|]. split; [right; left; auto|]. left. apply U2.
  - left. destruct D as (D1 & D2 & D3 & D4 & D5). split; [exact D1|]. split; [right; right; auto|]. right. split; [exact D4|].
    exists p. destruct (W p) as [W1 W2]; [left; reflexivity|]. split; [exact W1|]. split; [exact W2|].
    exact D5.
  - right. destruct (Forall2_in_r _ _ _ _ FC HI) as (q & HQ & HS). exists q. destruct (W q) as [W1 W2]; [right; exact HQ|]. auto.
Qed.

(** ** C56 *)
Lemma surface_gen_inv K C a objects j cmds : surface_gen K C a objects j = Ok cmds ->
  exists faces zmin base bs mss, wp_to_faces objects = Ok faces /\ sk_zmin K (j_top j) faces = Ok zmin /\
    sk_project K (j_top j) faces = Ok base /\ Forall2 (fun b fs => offset_boundary K a b = Ok fs) base bs /\
    Forall2 (fun b ms => surface_boundary K C a j faces zmin b = Ok ms) (concat bs) mss /\ cmds = map Motion (concat mss).
Proof.
  unfold surface_gen. intros H. apply rbind_ok in H as (faces & H1 & H). apply rbind_ok in H as (zmin & H2 & H).
  apply rbind_ok in H as (base & H3 & H). apply rbind_ok in H as (bs & H4 & H). apply rbind_ok in H as (mss & H5 & H). injection H as <-.
  apply mapM_ok in H4. apply mapM_ok in H5. exists faces, zmin, base, bs, mss. auto 10.
Qed.
(** ** Descents (C72) *)
Lemma pass_limits_in depths l d : In (l, d) (combine (pass_limits depths) depths) -> l = 0 \/ In l depths.
Proof.
  intros H. apply in_combine_l in H. unfold pass_limits in H.
  assert (G : forall n (k : list Qc), In l (firstn n k) -> In l k).
  { induction n as [|n IH]; intros [|x k]; cbn; try tauto. intros [<-|HH]; auto. }
  apply G in H. destruct H as [<-|[<-|H]]; auto.
Qed.
Lemma steps_by_between s st z ds d : 0 < s -> steps_by s st z ds -> In d ds -> z < d /\ d <= st - s.
Proof.
  intros Hs. revert st. induction ds as [|x ds IH]; intros st H HI; [destruct HI|]. destruct H as (-> & H1 & H2). destruct HI as [<-|HI].
  - split; [exact H1|apply Qcle_refl].
  - destruct (IH _ H2 HI) as [A B]. split; [exact A|qlra].
Qed.
Lemma surface_depths_cases top bottom sd depths : surface_depths top bottom sd = Ok depths ->
  ((sd = None \/ sd = Some 0) /\ depths = [bottom]) \/
  (exists s ds, sd = Some s /\ s < 0 /\ depths = ds ++ [bottom] /\ ds <> [] /\ steps_by (- s) top bottom ds) \/
  (exists s, sd = Some s /\ 0 < s /\ top + s < bottom).
Proof.
  destruct sd as [s|]; cbn [surface_depths]; [|intros [= <-]; left; auto].
  destruct (Qclt_le_dec 0 s) as [P|N].
  - intros H. right. right. exists s. split; [reflexivity|]. split; [exact P|]. apply Qcnot_le_lt. intros C.
    pose proof (surface_depths_fails top bottom s (or_introl (conj P C))) as E. unfold surface_depths in E. congruence.
  - destruct (Qcle_lt_or_eq _ _ N) as [N'| ->].
    + intros H. right. left. destruct (Qclt_le_dec bottom (top + s)) as [B|B].
      * destruct (surface_depths_down top bottom s N' B) as (ds & E & NE & S). unfold surface_depths in E. rewrite H in E. injection E as ->.
        exists s, ds. auto.
      * pose proof (surface_depths_fails top bottom s (or_intror (conj N' B))) as E. unfold surface_depths in E. congruence.
    + intros H. left. split; [auto|]. destruct (qeqb 0 0) eqn:E; [congruence|]. exfalso. assert (qeqb 0 0 = true) by (apply qeqb_eq; reflexivity). congruence.
Qed.
Lemma depths_descent top bottom sd depths : surface_depths top bottom sd = Ok depths -> descent top bottom sd depths.
Proof.
  intros H. destruct (surface_depths_cases _ _ _ _ H) as [([->| ->] & ->)|[(s & ds & -> & L & -> & NE & ST)|(s & -> & L & _)]]; cbn [descent].
  - reflexivity.
  - split; [reflexivity|]. intros C. destruct (Qclt_not_le _ _ C). apply Qcle_refl.
  - split; [intros ->; destruct (Qclt_not_le _ _ L); apply Qcle_refl|]. intros _. exists ds. auto.
  - split; [intros ->; destruct (Qclt_not_le _ _ L); apply Qcle_refl|]. intros C. destruct (Qclt_not_le _ _ (Qclt_trans _ _ _ L C)). apply Qcle_refl.
Qed.
Lemma surface_boundary_steps K C a j faces zmin b ms : surface_boundary K C a j faces zmin b = Ok ms ->
  exists seqs depths, scanned K C a (j_top j) faces zmin b seqs /\ descent (sa_top_height a) zmin (sa_stepdown a) depths /\
    surfaced (j_rapid_height j) (j_op_safe_height j) seqs depths ms /\ continuous av_none ms.
Proof.
  intros H. destruct (surface_boundary_spec _ _ _ _ _ _ _ _ H) as (seqs & depths & A1 & A2 & A3). exists seqs, depths. split; [exact A1|]. split; [apply depths_descent, A2|exact A3].
Qed.
Lemma surface_descents K C a j faces zmin b ms : surface_boundary K C a j faces zmin b = Ok ms ->
  0 <= j_op_safe_height j -> zmin <= j_op_safe_height j ->
  (forall s, sa_stepdown a = Some s -> s < 0 /\ sa_top_height a + s <= j_op_safe_height j) ->
  exists seqs, scanned K C a (j_top j) faces zmin b seqs /\
    forall m z, In m ms -> rapid m -> az (m_end m) = Some z -> z <> j_rapid_height j ->
      exists p, In p (concat seqs) /\ xy (m_end m) = Some (vx p, vy p) /\ vz p <= z.
Proof.
  intros H S0 SZ SD. destruct (surface_boundary_spec _ _ _ _ _ _ _ _ H) as (seqs & depths & HSc & HDe & HS & _).
  exists seqs. split; [exact HSc|]. intros m z HM HR HZ HN.
  assert (B : forall d, In d depths -> d <= j_op_safe_height j).
  { destruct (surface_depths_cases _ _ _ _ HDe) as [[_ ->]|[(s & ds & E & Hs & -> & NE & ST)|(s & E & Hs & _)]]; intros d HI.
    - destruct HI as [<-|[]]. exact SZ.
    - destruct (SD _ E) as [_ T]. apply in_app_or in HI as [HI|[<-|[]]]; [|exact SZ].
      destruct (steps_by_between (- s) _ _ _ d ltac:(qlra) ST HI) as [_ Q]. qlra.
    - destruct (SD _ E) as [CC _]. exfalso. qlra. }
  destruct (surfaced_moves _ _ _ _ _ m HS HM) as (limit & depth & HI & [(_ & _ & [E|(E & p & P1 & P2 & P3)])|(p & _ & _ & (CC & _))]).
  - exfalso. congruence.
  - rewrite E in HZ. injection HZ as <-. exists p. split; [exact P1|].
    split; [exact P3|]. destruct (pass_limits_in _ _ _ HI) as [->|HB]; [qlra|]. specialize (B _ HB). qlra.
  - exfalso. destruct m; cbn in HR, CC; contradiction.
Qed.

(** ** Finish (C73) *)
Lemma chopped_pair limit seq runs : chopped limit seq runs -> forall l1 a b l2, seq = l1 ++ a :: b :: l2 -> vz a <= limit -> vz b <= limit ->
  exists run r1 r2, In run runs /\ run = r1 ++ a :: b :: r2.
Proof.
  assert (N : forall p, above limit p -> vz p <= limit -> False) by (intros p H1 H2; unfold above in *; qlra).
  induction 1 as [gap HG|gap run rest runs HG NE HR HB HC IH]; intros l1 a b l2 E Ha Hb.
  - exfalso. subst gap. apply Forall_app in HG as [_ HG]. inversion HG; subst. eauto.
  - clear HC NE. revert l1 E. induction gap as [|g gap IHg]; intros l1 E.
    + cbn [app] in E. clear HG.
      assert (D : (exists r1 r2, run = r1 ++ a :: b :: r2) \/ (exists q, rest = q ++ a :: b :: l2)).
      { revert l1 E. induction run as [|r run IHr]; intros l1 E; cbn [app] in E; [right; exists l1; exact E|]. inversion HR as [|? ? HR1 HR2]; subst.
        destruct l1 as [|x l1]; cbn [app] in E.
        - injection E as -> E. destruct run as [|r' run]; cbn [app] in E.
          + subst rest. exfalso. eauto.
          + injection E as -> E. left. exists [], run. reflexivity.
        - injection E as -> E. destruct (IHr HR2 l1 E) as [(r1 & r2 & ->)|D]; [left; exists (x :: r1), r2; reflexivity|right; exact D]. }
      destruct D as [(r1 & r2 & D)|(q & D)].
      * exists run, r1, r2. split; [left; reflexivity|exact D].
      * destruct (IH q a b l2 D Ha Hb) as (run' & r1 & r2 & I1 & I2). exists run', r1, r2. split; [right; exact I1|exact I2].
    + inversion HG as [|? ? G1 G2]; subst. destruct l1 as [|x l1]; cbn [app] in E.
      * injection E as -> E. exfalso. eauto.
      * injection E as -> E. apply (IHg G2 l1 E).
Qed.
Lemma first_below (depths : list Qc) z : (exists d, In d depths /\ d <= z) ->
  exists before d after, depths = before ++ d :: after /\ d <= z /\ Forall (fun x => z < x) before.
Proof.
  induction depths as [|x depths IH]; intros (d & HI & HD); [destruct HI|]. destruct (Qclt_le_dec z x) as [L|L].
  - destruct HI as [<-|HI]; [exfalso; qlra|]. destruct IH as (b & d' & aft & -> & H1 & H2); [eauto|].
    exists (x :: b), d', aft. split; [reflexivity|]. split; [exact H1|constructor; assumption].
  - exists [], x, depths. repeat split; auto.
Qed.
Lemma pass_limit_at before d after : exists l, In (l, d) (combine (pass_limits (before ++ d :: after)) (before ++ d :: after)) /\
  ((length before <= 1)%nat /\ l = 0 \/ exists pre y, before = pre ++ [l; y]).
Proof.
  assert (G : forall (lims b : list Qc) l rl a, length lims = length b -> forall n, (length b < n)%nat ->
     In (l, d) (combine (firstn n (lims ++ l :: rl)) (b ++ d :: a))).
  { induction lims as [|x lims IH]; intros [|y b] l rl a E n Hn; try discriminate; cbn [app] in *.
    - destruct n; [cbn in Hn; lia|]. left. reflexivity.
    - destruct n; [cbn in Hn; lia|]. cbn [firstn combine]. right. apply IH; [cbn in E; lia|cbn in Hn; lia]. }
  assert (LN : (length before < length (before ++ d :: after))%nat) by (rewrite app_length; cbn [length]; lia).
  destruct before as [|y0 before'] using rev_ind; [|clear IHbefore'].
  - exists 0. split; [left; reflexivity|]. left. cbn. auto.
  - destruct before' as [|l before''] using rev_ind; [|clear IHbefore''].
    + exists 0. split; [|left; cbn; auto]. right. left. reflexivity.
    + exists l. split; [|right; exists before'', y0; rewrite <- app_assoc; reflexivity].
      unfold pass_limits. replace (0 :: 0 :: ((before'' ++ [l]) ++ [y0]) ++ d :: after) with ((0 :: 0 :: before'') ++ l :: y0 :: d :: after)
        by (cbn [app]; rewrite <- !app_assoc; reflexivity).
      apply (G (0 :: 0 :: before'') ((before'' ++ [l]) ++ [y0])); [cbn [length]; rewrite !app_length; cbn [length]; lia|exact LN].
Qed.
Lemma steps_by_two s st z ds pre l y post : steps_by s st z ds -> ds = pre ++ l :: y :: post -> y = l - s.
Proof.
  revert st ds. induction pre as [|x pre IH]; intros st ds H ->; cbn [app steps_by] in H.
  - destruct H as (-> & _ & -> & _). reflexivity.
  - destruct H as (_ & _ & H). eapply IH; [exact H|reflexivity].
Qed.
Lemma surface_finish K C a j faces zmin b ms : surface_boundary K C a j faces zmin b = Ok ms ->
  (forall s, sa_stepdown a = Some s -> s <= 0) ->
  exists seqs, scanned K C a (j_top j) faces zmin b seqs /\
    forall p q, neighbours seqs p q -> vz p <= 0 -> vz q <= 0 -> zmin <= vz q ->
      (forall s, sa_stepdown a = Some s -> s < 0 -> vz p <= vz q - s) ->
      exists m, In m ms /\ straight_cut m /\ m_end m = AV (Some (vx q)) (Some (vy q)) (Some (vz q)).
Proof.
  intros H SD. destruct (surface_boundary_spec _ _ _ _ _ _ _ _ H) as (seqs & depths & HSc & HDe & HS & _).
  exists seqs. split; [exact HSc|]. intros p q (l1 & l2 & HN) Hp Hq Hz Hs.
  destruct (first_below depths (vz q)) as (before & d & after & E & H1 & H2).
  { exists zmin. split; [|exact Hz]. destruct (surface_depths_cases _ _ _ _ HDe) as [[_ ->]|[(s & ds & _ & _ & -> & _)|(s & E & P & _)]].
    - left. reflexivity.
    - apply in_or_app. right. left. reflexivity.
    - specialize (SD _ E). exfalso. qlra. }
  destruct (pass_limit_at before d after) as (l & HI & HLim). rewrite <- E in HI.
  assert (LP : vz p <= l /\ vz q <= l).
  { destruct HLim as [[_ ->]|(pre & y & EB)]; [auto|].
    subst before. apply Forall_app in H2 as [_ H2]. inversion H2 as [|? ? L1 L2]; subst. inversion L2 as [|? ? L3 _]; subst.
    split; [|qlra]. destruct (surface_depths_cases _ _ _ _ HDe) as [[_ ED]|[(s & ds & Es & Hs0 & ED & _ & ST)|(s & Es & P & _)]].
    - exfalso. apply (f_equal (@length Qc)) in ED. rewrite !app_length in ED. cbn [length] in ED. lia.
    - assert (Y : y = l - (- s)).
      { destruct after as [|x after] using rev_ind.
        - apply app_inj_tail in ED as [ED _]. eapply steps_by_two; [exact ST|symmetry; exact ED].
        - clear IHafter. rewrite app_comm_cons, app_assoc in ED. apply app_inj_tail in ED as [ED _].
          eapply (steps_by_two _ _ _ _ pre l y); [exact ST|]. rewrite <- ED, <- app_assoc. reflexivity. }
      specialize (Hs _ Es Hs0). qlra.
    - specialize (SD _ Es). exfalso. qlra. }
  destruct HS as (passes & -> & F). destruct (Forall2_in_l _ _ _ _ F HI) as (ps & HP & runs & groups & (parts & CH & ->) & -> & FM).
  cbn [fst snd] in *. destruct (Forall2_in_l _ _ _ _ CH HN) as (part & HPa & HC).
  destruct (chopped_pair _ _ _ HC l1 p q l2 eq_refl (proj1 LP) (proj2 LP)) as (run & r1 & r2 & HR & ER).
  destruct (Forall2_in_l _ _ _ run FM) as (g & HG & up & across & down & cuts & p0 & points & Eg & Er & _ & _ & _ & FC); [apply in_concat; eauto|].
  assert (HQ : In q points).
  { rewrite ER in Er. destruct r1 as [|x r1]; injection Er as <- <-; [left; reflexivity|]. apply in_or_app. right. right. left. reflexivity. }
  destruct (Forall2_in_l _ _ _ _ FC HQ) as (m & HM & S1 & S2 & z & Z1 & Z2 & Z3 & Z4).
  exists m. split; [|split; [exact S1|]].
  - apply in_concat. exists (concat groups). split; [exact HP|]. apply in_concat. exists g. split; [exact HG|]. rewrite Eg. right. right. right. exact HM.
  - assert (z = vz q) by (destruct Z4 as [-> | ->]; [apply Qcle_antisym; assumption|reflexivity]). subst z.
    destruct (m_end m) as [mx my mz]. unfold xy in S2. cbn [ax ay az] in *. destruct mx; [|discriminate]. destruct my; [|discriminate].
    injection S2 as -> ->. rewrite Z1. reflexivity.
Qed.

(** ** The area (C104) *)
Lemma wp_selected K (objects : list (face_object K)) faces : wp_to_faces objects = Ok faces <-> objects <> [] /\ selected objects faces.
Proof.
  unfold wp_to_faces, selected. split.
  - intros H. apply rbind_ok in H as (fs & H1 & H). apply mapM_ok in H1. destruct fs as [|f fs]; [discriminate|]. injection H as <-.
    split; [inversion H1; discriminate|]. eapply Forall2_impl; [|exact H1]. intros [g|w|] f'; cbn; intros E; try discriminate.
    + injection E as <-. auto.
    + right. eauto.
  - intros [N H]. assert (E : mapM face_of objects = Ok faces).
    { clear N. induction H as [|o f os fs HO _ IH]; [reflexivity|]. cbn [mapM]. destruct HO as [->|(w & -> & E)]; cbn [face_of].
      - cbn [rbind]. rewrite IH. reflexivity.
      - rewrite E. cbn [rbind]. rewrite IH. reflexivity. }
    rewrite E. cbn [rbind]. destruct H; [contradiction|reflexivity].
Qed.
Lemma surface_moves K C a objects j cmds : surface_gen K C a objects j = Ok cmds ->
  exists faces zmin groups, objects <> [] /\ selected objects faces /\ sk_zmin K (j_top j) faces = Ok zmin /\
    cmds = map Motion (concat groups) /\
    Forall (fun ms => exists b seqs depths, scanned K C a (j_top j) faces zmin b seqs /\ descent (sa_top_height a) zmin (sa_stepdown a) depths /\
      continuous av_none ms /\
      Forall (fun m => (rapid m /\ safe_rapid (j_rapid_height j) (j_op_safe_height j) m) \/
        exists p depth, In p (concat seqs) /\ In depth depths /\ surface_cut depth p m) ms) groups.
Proof.
  intros H. destruct (surface_gen_inv _ _ _ _ _ _ H) as (faces & zmin & base & bs & mss & H1 & H2 & _ & _ & F & ->).
  apply wp_selected in H1 as [N H1]. exists faces, zmin, mss. split; [exact N|]. split; [exact H1|]. split; [exact H2|]. split; [reflexivity|]. apply Forall_forall. intros ms HM.
  destruct (Forall2_in_r _ _ _ _ F HM) as (b & _ & HB).
  destruct (surface_boundary_steps _ _ _ _ _ _ _ _ HB) as (seqs & depths & HSc & HDe & HS & HC).
  exists b, seqs, depths. split; [exact HSc|]. split; [exact HDe|]. split; [exact HC|].
  apply Forall_forall. intros m Hm. destruct (surfaced_moves _ _ _ _ _ m HS Hm) as (limit & depth & HI & [(R1 & R2 & _)|(p & P1 & P2 & P3)]).
  - left. auto.
  - right. exists p, depth. split; [exact P1|]. split; [apply in_combine_r in HI; exact HI|exact P3].
Qed.

Lemma offset_value d a v : face_offset d a = Ok v <-> offset_distance d a v.
Proof.
  unfold offset_distance. destruct a as [[q|q e]|]; cbn [face_offset]; split.
  - intros [= <-]. left. exists q. split; [reflexivity|ring].
  - intros [(n & [= ->] & ->)|(n & e & [=] & _)]. f_equal. ring.
  - intros [= <-]. right. exists q, e. split; [reflexivity|ring].
  - intros [(n & [=] & _)|(n & e' & [= -> ->] & ->)]. f_equal. ring.
  - discriminate.
  - intros [(n & [=] & _)|(n & e' & [=] & _)].
Qed.
Lemma surface_area K C a objects j cmds : surface_gen K C a objects j = Ok cmds ->
  exists faces zmin base bs groups, objects <> [] /\ selected objects faces /\
    sk_zmin K (j_top j) faces = Ok zmin /\ sk_project K (j_top j) faces = Ok base /\
    Forall2 (fun b fs => sk_planar K b = true /\ exists outer inner,
      offset_distance (sa_tool_diameter a) (sa_outer a) outer /\ offset_distance (sa_tool_diameter a) (sa_inner a) inner /\
      sk_offset K b outer inner = Ok fs) base bs /\
    Forall2 (fun b ms => surface_boundary K C a j faces zmin b = Ok ms) (concat bs) groups /\ cmds = map Motion (concat groups).
Proof.
  intros H. destruct (surface_gen_inv _ _ _ _ _ _ H) as (faces & zmin & base & bs & mss & H1 & H2 & H3 & H4 & F & ->).
  apply wp_selected in H1 as [N H1]. exists faces, zmin, base, bs, mss. split; [exact N|]. split; [exact H1|]. split; [exact H2|]. split; [exact H3|].
  split; [|auto]. eapply Forall2_impl; [|exact H4]. intros b fs. cbn beta. unfold offset_boundary. destruct (sk_planar K b); [|discriminate].
  intros E. apply rbind_ok in E as (oo & E1 & E). apply rbind_ok in E as (io & E2 & E). split; [reflexivity|]. exists oo, io.
  split; [apply offset_value, E1|]. split; [apply offset_value, E2|exact E].
Qed.
Lemma surface_rejects K C a objects j : (objects = [] -> surface_gen K C a objects j = Err OperationError) /\
  (forall l1 l2, objects = l1 ++ OOther :: l2 -> (forall w, In (OWire w) l1 -> exists f, sk_make K w = Ok f) -> Forall (fun o => o <> OOther) l1 ->
     surface_gen K C a objects j = Err OperationError).
Proof.
  split; [intros ->; reflexivity|]. intros l1 l2 -> HW HN. unfold surface_gen, wp_to_faces.
  assert (E : mapM face_of (l1 ++ OOther :: l2) = Err OperationError).
  { induction l1 as [|o l1 IH]; [reflexivity|]. cbn [mapM app]. inversion HN as [|? ? HO HN']. subst.
    destruct (face_of o) as [f|] eqn:EO.
    - cbn [rbind]. rewrite IH; [reflexivity| |exact HN']. intros w HI. apply HW. right. exact HI.
    - exfalso. destruct o as [f|w|]; cbn in EO; try discriminate; [|contradiction]. destruct (HW w) as (f & HF); [left; reflexivity|]. congruence. }
  rewrite E. reflexivity.
Qed.
Lemma surface_no_inner K C a objects j cmds : sa_inner a = None -> surface_gen K C a objects j = Ok cmds -> cmds = [].
Proof.
  intros HA H. destruct (surface_area _ _ _ _ _ _ H) as (faces & zmin & base & bs & groups & _ & _ & _ & _ & F & G & ->).
  destruct F as [|b fs base bs (_ & oo & io & _ & [(n & E & _)|(n & e & E & _)] & _) F]; [|rewrite HA in E; discriminate|rewrite HA in E; discriminate].
  inversion G. reflexivity.
Qed.
