(** Tabs on wires: the wire falls apart exactly at the corners where a tab ends (C45). *)
From Verif Require Import Base.Py Model.Tabs Spec.Wires Spec.Tabs Spec.Corners Proofs.GeomP Proofs.PocketP Proofs.InterpP Proofs.TabsP Proofs.WireTabsP
  Proofs.TabPiecesP Proofs.TabsEx Proofs.WireTabsMeetP.
From Coq Require Import Lia.
Local Open Scope Qc_scope.
Local Open Scope list_scope.

(** ** The transitions at a corner *)
Lemma transitions_snoc ds r M u : flat_map (tab_marks r) ds = M ++ [(1, u)] ->
  exists pre, wire_transitions ds r = pre ++ M ++ [(1, u)] /\ (pre = [] \/ pre = [(0, TNORMAL)]) /\ (M = [] -> pre = [(0, TNORMAL)]).
Proof.
  intros E. unfold wire_transitions. rewrite E.
  assert (X : exists pre, match M ++ [(1, u)] with [] => [(0, TNORMAL)] | (p, _) :: _ => if negb (qeqb p 0) then (0, TNORMAL) :: M ++ [(1, u)] else M ++ [(1, u)] end
    = pre ++ M ++ [(1, u)] /\ (pre = [] \/ pre = [(0, TNORMAL)]) /\ (M = [] -> pre = [(0, TNORMAL)])).
  { destruct M as [|[p t] M].
    - exists [(0, TNORMAL)]. split; [reflexivity|]. split; [right; reflexivity|reflexivity].
    - cbn [app]. destruct (negb (qeqb p 0)); [exists [(0, TNORMAL)]|exists []]; (split; [reflexivity|]); (split; [auto|discriminate]). }
  destruct X as (pre & -> & X1 & X2). exists pre. split; [|split; [exact X1|exact X2]].
  rewrite app_assoc, last_last. cbn [fst]. reflexivity.
Qed.

Section Edge.
Variables s e : Qc.
Hypothesis HSE : s < e.

Lemma starts_exactly ds : forwards (wire_transitions ds (s, e)) ->
  (starts_in_tab (wire_transitions ds (s, e)) <-> exists t, In t ds /\ fst t <= s /\ s < snd t).
Proof.
  intros F.
  assert (X0 : (exists t, In t ds /\ fst t <= s /\ s < snd t) -> In (0, TTAB) (flat_map (tab_marks (s, e)) ds)).
  { intros ([a b] & Hu & U1 & U2). apply in_flat_map. exists (a, b). split; [exact Hu|]. cbn [fst snd] in *. unfold tab_marks.
    rewrite (proj2 (qleb_le a s)) by exact U1. rewrite (proj2 (qltb_lt s b)) by exact U2. left. reflexivity. }
  rewrite wire_transitions_eq in *. destruct (flat_map (tab_marks (s, e)) ds) as [|[p t] ts] eqn:EM.
  - split; [intros []|]. intros K. destruct (X0 K).
  - destruct (qeqb p 0) eqn:EP; cbn [negb] in *.
    + apply qeqb_eq in EP. subst p. destruct (marks_start s e HSE ds (0, t)) as (T & u & Hu & U1 & U2); [rewrite EM; left; reflexivity|reflexivity|]. cbn [snd] in T. subst t.
      split; [|intros _; exact I]. intros _. exists u. auto.
    + apply qeqb_neq in EP. split; [intros []|]. intros K. exfalso. destruct (X0 K) as [X|X]; [injection X as -> _; contradiction|].
      destruct F as [F1 F2]. assert (F3 := forwards_ge _ _ F2 (0, TTAB)). cbn [fst] in F3. apply EP, Qcle_antisym; [apply F3|exact F1].
      unfold endmark. destruct (negb _); [apply in_or_app; left|]; exact X.
Qed.

Lemma in_order_snoc : forall ds lo a b, in_order lo (ds ++ [(a, b)]) -> forall t, In t ds -> snd t <= a.
Proof.
  induction ds as [|[a' b'] ds IH]; intros lo a b H t Ht; [destruct Ht|]. destruct H as (_ & _ & H). destruct Ht as [<-|Ht]; [|exact (IH b' a b H t Ht)].
  cbn [snd]. apply (in_order_ge _ _ H (a, b)). apply in_or_app. right. left. reflexivity.
Qed.

(** All tabs touching the edge are over by its end: the last mark is the end of a tab. *)
Lemma marks_over ds : (forall t, In t ds -> fst t < snd t /\ s < snd t /\ snd t <= e) -> ds <> [] ->
  exists M q x, flat_map (tab_marks (s, e)) ds = M ++ [(q, TTAB); (x, TNORMAL)] /\ x = (snd (last ds (0, 0)) - s) / (e - s).
Proof.
  intros H NE. destruct (exists_last NE) as (l & [a b] & ->). destruct (H (a, b)) as (H1 & H2 & H3); [apply in_or_app; right; left; reflexivity|]. cbn [fst snd] in *.
  rewrite flat_map_app. cbn [flat_map]. rewrite app_nil_r, last_last. cbn [snd]. exists (flat_map (tab_marks (s, e)) l).
  destruct (Qclt_le_dec s a) as [L|L].
  - rewrite (marks_within s e HSE) by qlra. eexists _, _. split; reflexivity.
  - rewrite (marks_entering s e HSE) by qlra. eexists _, _. split; reflexivity.
Qed.

Lemma end_at_1 : (e - s) / (e - s) = 1.
Proof. apply Qcmult_inv_r, qne0. qlra. Qed.
(** If a tab ends or begins at the end of the edge, the state before is not that behind. *)
Lemma corner_differs ds lo : (forall t, In t ds -> fst t < snd t) -> in_order lo (filter (touches s e) ds) ->
  (exists t, In t ds /\ (fst t = e \/ snd t = e)) ->
  ~ (ends_in_tab (wire_transitions ds (s, e)) <-> exists t, In t ds /\ fst t <= e /\ e < snd t).
Proof.
  intros HP HO (t0 & Ht0 & Et0).
  assert (HI : forall t, In t ds -> s < snd t -> fst t <= e -> In t (filter (touches s e) ds)).
  { intros t Ht A B. apply filter_In. split; [exact Ht|]. unfold touches. rewrite (proj2 (qltb_lt s (snd t)) A). apply qleb_le. exact B. }
  assert (HT : forall t, In t (filter (touches s e) ds) -> In t ds /\ fst t < snd t /\ s < snd t /\ fst t <= e).
  { intros t Ht. apply filter_In in Ht. destruct Ht as (Ht & K). unfold touches in K. apply andb_true_iff in K. destruct K as (K1 & K2).
    apply qltb_lt in K1. apply qleb_le in K2. pose proof (HP t Ht). auto. }
  assert (I0 : In t0 (filter (touches s e) ds)) by (pose proof (HP t0 Ht0); apply HI; [exact Ht0| |]; destruct Et0 as [E|E]; qlra).
  assert (FM := marks_filter s e HSE ds (fun t Ht => Qclt_le_weak _ _ (HP t Ht))).
  set (fs := filter (touches s e) ds) in *. clearbody fs.
  assert (NE : fs <> []) by (intros ->; destruct I0).
  destruct (exists_last NE) as (l & [a b] & ->). pose proof (in_order_snoc l lo a b HO) as BL.
  destruct (HT (a, b)) as (Hab & P1 & P2 & P3); [apply in_or_app; right; left; reflexivity|]. cbn [fst snd] in *.
  assert (OL : forall t, In t l -> fst t < snd t /\ s < snd t /\ snd t <= e).
  { intros t Ht. destruct (HT t) as (_ & Q1 & Q2 & _); [apply in_or_app; left; exact Ht|]. pose proof (BL t Ht). repeat split; [exact Q1|exact Q2|qlra]. }
  destruct (Qc_dec a e) as [[LA|LA]|EA]; [|exfalso; qlra|].
  - assert (EB : b = e).
    { apply in_app_or in I0. destruct I0 as [I0|[<-|[]]].
      - exfalso. pose proof (BL _ I0). pose proof (HP _ Ht0). destruct Et0; qlra.
      - cbn [fst snd] in Et0. destruct Et0 as [Et0|Et0]; [exfalso; qlra|exact Et0]. }
    subst b. intros C.
    assert (EN : ends_in_tab (wire_transitions ds (s, e))).
    { destruct (marks_over (l ++ [(a, e)])) as (M & q & x & EM & EX).
      - intros t Ht. apply in_app_or in Ht. destruct Ht as [Ht|[<-|[]]]; [exact (OL t Ht)|]. cbn [fst snd]. repeat split; qlra.
      - intros K. apply app_eq_nil in K. destruct K as [_ K]. discriminate K.
      - rewrite last_last in EX. cbn [snd] in EX. rewrite end_at_1 in EX. subst x. rewrite FM in EM.
        replace (M ++ [(q, TTAB); (1, TNORMAL)]) with ((M ++ [(q, TTAB)]) ++ [(1, TNORMAL)]) in EM by (rewrite <- app_assoc; reflexivity).
        destruct (transitions_snoc ds (s, e) _ _ EM) as (pre & -> & _). rewrite <- !app_assoc, app_assoc. cbn [app]. apply ends_in_tab_snoc. reflexivity. }
    apply C in EN. destruct EN as (t & Ht & T1 & T2). assert (K : In t (l ++ [(a, e)])) by (apply HI; [exact Ht|qlra|exact T1]).
    apply in_app_or in K. destruct K as [K|[<-|[]]]; [pose proof (BL t K); qlra|cbn [snd] in T2; exact (Qclt_not_le _ _ T2 (Qcle_refl _))].
  - subst a. intros C.
    assert (ST : exists t, In t ds /\ fst t <= e /\ e < snd t) by (exists (e, b); cbn [fst snd]; split; [exact Hab|split; [exact P3|exact P1]]).
    apply C in ST. revert ST. rewrite flat_map_app in FM. cbn [flat_map] in FM. rewrite app_nil_r in FM.
    rewrite (marks_leaving s e HSE) in FM by qlra. rewrite end_at_1 in FM. symmetry in FM.
    destruct (transitions_snoc ds (s, e) _ _ FM) as (pre & -> & _ & PE).
    destruct l as [|t l].
    + cbn [flat_map app] in *. rewrite (PE eq_refl). cbn. discriminate.
    + destruct (marks_over (t :: l) OL ltac:(discriminate)) as (M & q & x & -> & _).
      replace (pre ++ (M ++ [(q, TTAB); (x, TNORMAL)]) ++ [(1, TTAB)]) with ((pre ++ M ++ [(q, TTAB)]) ++ [(x, TNORMAL); (1, TTAB)]) by (rewrite <- !app_assoc; reflexivity).
      rewrite ends_in_tab_snoc. discriminate.
Qed.
End Edge.

(** ** Whole wires *)
Lemma shares_meet_back ds total lo : (forall t, In t ds -> fst t < snd t) -> forall ls before,
  (forall r, In r (shares total before ls) -> fst r < snd r /\ in_order lo (filter (touches (fst r) (snd r)) ds) /\ forwards (wire_transitions ds r)) ->
  tabs_meet (map (wire_transitions ds) (shares total before ls)) ->
  forall r t, In r (tl (shares total before ls)) -> In t ds -> fst t <> fst r /\ snd t <> fst r.
Proof.
  intros HP. induction ls as [|l ls IH]; intros before H HM r t Hr Ht; [destruct Hr|]. cbn [shares map tl] in *.
  destruct ls as [|l2 ls]; [destruct Hr|]. cbn [shares map] in HM. destruct HM as [M1 M2].
  specialize (IH (before + l) (fun r Hr => H r (or_intror Hr)) M2). cbn [shares tl] in *.
  destruct Hr as [<-|Hr]; [|exact (IH r t Hr Ht)]. cbn [fst].
  destruct (H _ (or_introl eq_refl)) as (L1 & O1 & _). destruct (H _ (or_intror (or_introl eq_refl))) as (L2 & _ & F2). cbn [fst snd] in *.
  rewrite (starts_exactly _ _ L2 ds F2) in M1.
  split; intros E; apply (corner_differs _ _ L1 ds lo HP O1); try exact M1; exists t; auto.
Qed.

Lemma connected_app_back a b : a <> [] -> b <> [] -> connected (a ++ b) -> connected b /\ forall x, travel_end (last a x) = travel_start (hd x b).
Proof.
  intros NA NB. induction a as [|e a IH]; [contradiction NA; reflexivity|]. destruct a as [|e2 a].
  - destruct b as [|f b]; [contradiction NB; reflexivity|]. intros [C1 C2]. split; [exact C2|]. intros x. exact C1.
  - intros [C1 C2]. destruct (IH ltac:(discriminate) C2) as (K1 & K2). split; [exact K1|]. exact K2.
Qed.
Lemma heights_differ t t2 z v : vz v <> z -> at_height_of t z v = at_height_of t2 z v -> (t = TTAB <-> t2 = TTAB).
Proof.
  intros N E. destruct v as [x y w]. cbn in N.
  destruct t, t2; cbn [at_height_of] in E; try (split; intros; (reflexivity || discriminate)); exfalso; injection E; cbn; congruence.
Qed.
Lemma tabs_connected_back TK z : forall es ms outs,
  Forall2 (fun em out => edge_sound (fst em) /\ edge_on_curve TK (fst em) /\ usable (snd em) /\ replaced TK z (fst em) (snd em) out) (combine es ms) outs ->
  length es = length ms -> connected es -> (forall e, In e es -> vz (travel_end e) <> z) -> connected (concat outs) -> tabs_meet ms.
Proof.
  induction es as [|e es IH]; intros ms outs H HL HC HV HM.
  - destruct ms; [exact I|discriminate].
  - destruct ms as [|m ms]; [discriminate|]. cbn [combine] in H. inversion H as [|? out ? outs' (S & EC & U & R) H']; subst. cbn [fst snd] in *. injection HL as HL.
    destruct (replaced_ends TK z e EC m out S U R) as (N & C & _ & _ & E). cbn [concat] in HM.
    destruct es as [|e2 es]; destruct ms as [|m2 ms]; try discriminate; [exact I|].
    cbn [combine] in H'. inversion H' as [|? out2 ? outs2 (S2 & EC2 & U2 & R2) H2]; subst. cbn [fst snd] in *.
    destruct (replaced_ends TK z e2 EC2 m2 out2 S2 U2 R2) as (N2 & _ & _ & B2 & _).
    assert (NN : concat (out2 :: outs2) <> []) by (cbn [concat]; intros K; apply app_eq_nil in K; destruct K as [K _]; exact (N2 K)).
    destruct (connected_app_back _ _ N NN HM) as (CB & J). destruct HC as [HC1 HC2].
    split; [|exact (IH (m2 :: ms) (out2 :: outs2) H' HL HC2 (fun e' He' => HV e' (or_intror He')) CB)].
    destruct (E e) as (t & T1 & E1). destruct (B2 e) as (t2 & T2 & E2). specialize (J e). rewrite E1 in J.
    assert (HH : hd e (concat (out2 :: outs2)) = hd e out2) by (cbn [concat]; destruct out2; [contradiction N2; reflexivity|reflexivity]). rewrite HH, E2, <- HC1 in J.
    rewrite <- T1, <- T2. exact (heights_differ _ _ _ _ (HV e (or_introl eq_refl)) J).
Qed.

Lemma half_eq s k c L width : 0 < L -> 0 < width -> qabs (s - qz k / qz (Z.of_nat c)) * L = width / qz 2 ->
  s = qz k / qz (Z.of_nat c) - width / qz 2 / L \/ s = qz k / qz (Z.of_nat c) + width / qz 2 / L.
Proof.
  intros LP HW H. assert (H2 : width / qz 2 / L * L = width / qz 2) by (apply qdiv_mul, qne0, LP). rewrite <- H2 in H.
  assert (E : qabs (s - qz k / qz (Z.of_nat c)) = width / qz 2 / L).
  { apply (f_equal (fun x => x / L)) in H. unfold Qcdiv in H. rewrite <- !Qcmult_assoc, !Qcmult_inv_r, !Qcmult_1_r in H by (apply qne0, LP). unfold Qcdiv. rewrite H. ring. }
  destruct (Qclt_le_dec (s - qz k / qz (Z.of_nat c)) 0) as [N|N].
  - rewrite qabs_neg in E by qlra. left. rewrite <- E. ring.
  - rewrite qabs_pos in E by exact N. right. rewrite <- E. ring.
Qed.

Lemma wire_tabs_corners TK es tab_z c width height w : makes_edges TK -> (1 <= c)%nat -> 0 < width -> takes_wire_tabs_anywhere TK c width es ->
  tk_zmin TK es < tab_z -> (forall l, tk_assemble TK l = Some l) -> (forall e, In e es -> vz (travel_end e) <> tab_z) ->
  apply_tabs TK es tab_z (WireTabs c width height) = Ok w -> (connected w <-> ~ tab_ends_at_corner c width es).
Proof.
  intros ME HC HW (CO & NE & TL & HF & HT & NW) HZ HA HV H. unfold tab_ends_at_corner. cbv zeta in *. set (L := qsum (map e_length es)) in *.
  assert (HE : forall e, In e es -> edge_sound e /\ edge_on_curve TK e /\ moved_vertically TK e) by (intros e He; destruct (HT e He) as (A & B & C & _); auto).
  assert (HL : forall e, In e es -> 0 < e_length e) by (intros e He; destruct (HT e He) as (_ & _ & _ & A); exact A).
  assert (HE' : Forall (fun e => 0 < e_length e) es) by (apply Forall_forall; exact HL).
  destruct (load_edge_ranges_ok es NE HE') as (LP & LR & SR). fold L in LP, LR, SR.
  assert (H2 : width / qz 2 / L * L = width / qz 2) by (apply qdiv_mul, qne0, LP).
  assert (HP : 0 < width / qz 2 / L). { apply lt_qdiv; [exact LP|]. replace (0 * L) with 0 by ring. apply lt_qdiv; [reflexivity|]. replace (0 * qz 2) with 0 by ring. exact HW. }
  assert (OR : forall r, In r (shares L 0 (map e_length es)) -> in_order (- (width / qz 2 / L)) (filter (touches (fst r) (snd r)) (wire_tabs c width L))).
  { intros [s e] Hr. apply touching_in_order; try assumption. exact (NW _ Hr). }
  assert (G : forall r, In r (shares L 0 (map e_length es)) -> describes (fun d => in_wire_tab c width L (on_wire r d)) (wire_transitions (wire_tabs c width L) r)).
  { intros [s e] Hr. rewrite Forall_forall in SR. destruct (SR _ Hr) as (R1 & R2 & R3). apply wire_transitions_good; try assumption. exact (NW _ Hr). }
  assert (G' : forall r, In r (shares L 0 (map e_length es)) -> describes (fun d => in_some (wire_tabs c width L) (on_wire r d)) (wire_transitions (wire_tabs c width L) r)).
  { intros [s e] Hr. rewrite Forall_forall in SR. destruct (SR _ Hr) as (R1 & R2 & R3). cbn [fst snd] in *.
    apply (wire_describes s e R2 _ (- (width / qz 2 / L)) (wire_tabs_proper c width L HW LP HC HF)). exact (OR _ Hr). }
  assert (PR : forall t, In t (wire_tabs c width L) -> fst t < snd t).
  { intros t Ht. apply (wire_tabs_in c width L HC) in Ht as (k & _ & ->). apply tab_proper; assumption. }
  unfold apply_tabs in H. rewrite (proj2 (qleb_nle tab_z (tk_zmin TK es))) in H by exact HZ.
  apply rbind_ok in H. destruct H as (ms & Hms & H). rewrite TL in Hms. cbn [wire_marks] in Hms.
  rewrite (wire_tab_ds_eq c width L HW LP HC HF) in Hms. cbn [rbind] in Hms. rewrite LR in Hms. cbn [rbind] in Hms. fold (wire_tabs c width L) in Hms. injection Hms as <-.
  apply rbind_ok in H. destruct H as (outs & Ho & H). apply mapM_ok in Ho. rewrite HA in H. injection H as <-.
  assert (L' : length es = length (map (wire_transitions (wire_tabs c width L)) (shares L 0 (map e_length es)))) by (rewrite map_length, shares_length, map_length; reflexivity).
  assert (F : Forall2 (fun em out => edge_sound (fst em) /\ edge_on_curve TK (fst em) /\ usable (snd em) /\ replaced TK tab_z (fst em) (snd em) out)
    (combine es (map (wire_transitions (wire_tabs c width L)) (shares L 0 (map e_length es)))) outs).
  { set (ms := map (wire_transitions (wire_tabs c width L)) (shares L 0 (map e_length es))) in *.
    assert (HU : forall m, In m ms -> usable m).
    { intros m Hm. apply in_map_iff in Hm as (r & <- & Hr). assert (D := G r Hr). apply (describes_usable _ _ D), (describes_two _ _ D). }
    assert (IN : forall em, In em (combine es ms) -> In (fst em) es /\ In (snd em) ms) by (intros [e m] Hem; split; [eapply in_combine_l|eapply in_combine_r]; exact Hem).
    clear - Ho IN HE HU ME. induction Ho as [|em out l outs Hem Ho IH]; constructor.
    - destruct (IN em (or_introl eq_refl)) as [I1 I2]. destruct (HE _ I1) as (S & EC & MV). pose proof (HU _ I2) as U.
      split; [exact S|]. split; [exact EC|]. split; [exact U|]. apply tab_edge_pieces; assumption.
    - apply IH. intros x Hx. apply IN. right. exact Hx. }
  split.
  - intros CW (r & k & Hr & E). pose proof (tabs_connected_back TK tab_z es _ outs F L' CO HV CW) as TM.
    assert (Hr' : In r (shares L 0 (map e_length es))) by (destruct (shares L 0 (map e_length es)); [destruct Hr|right; exact Hr]).
    pose proof (shares_meet_back (wire_tabs c width L) L _ PR (map e_length es) 0
      (fun r Hr => conj (proj1 (proj2 (proj1 (Forall_forall _ _) SR r Hr))) (conj (OR r Hr) (describes_forwards _ _ (G r Hr)))) TM) as NT.
    assert (B : 0 < fst r /\ fst r < 1).
    { rewrite Forall_forall in SR. destruct (SR r Hr') as (R1 & R2 & R3). split; [|qlra].
      clear - Hr HE' LP. destruct es as [|e es]; [destruct Hr|]. cbn [map shares tl] in Hr. inversion HE' as [|? ? He HE2]; subst.
      assert (X : forall ls b, 0 < b -> Forall (fun l => 0 < l) ls -> forall r, In r (shares L b ls) -> 0 < fst r).
      { induction ls as [|l ls IH]; intros b Hb HF r' Hr'; [destruct Hr'|]. cbn [shares] in Hr'. inversion HF as [|? ? F1 F2]; subst.
        destruct Hr' as [<-|Hr']; [cbn [fst]; apply lt_qdiv; [exact LP|]; replace (0 * L) with 0 by ring; exact Hb|]. apply (IH (b + l)); [qlra|exact F2|exact Hr']. }
      apply (X (map e_length es) (0 + e_length e)); [qlra| |exact Hr]. apply Forall_map. exact HE2. }
    assert (KB : (0 <= k <= Z.of_nat c)%Z).
    { pose proof (half_eq _ _ _ _ _ LP HW E) as D. split; apply Z.le_ngt; intros C.
      - pose proof (tabs_apart c width L HW LP HC HF k 0 C) as A. rewrite center_0 in A. unfold center in A. destruct D; qlra.
      - pose proof (tabs_apart c width L HW LP HC HF (Z.of_nat c) k C) as A. rewrite center_c in A by assumption. unfold center in A. destruct D; qlra. }
    destruct (NT r (tab_at c width L k) Hr) as (N1 & N2); [apply (wire_tabs_in c width L HC); exists k; auto|]. unfold tab_at, center in N1, N2. cbn [fst snd] in N1, N2.
    destruct (half_eq _ _ _ _ _ LP HW E) as [D|D]; [apply N1|apply N2]; symmetry; exact D.
  - intros NC. apply (tabs_connected TK tab_z es _ outs F L' CO).
    assert (SM : forall ls before, (forall r, In r (shares L before ls) -> fst r < snd r /\ describes (fun d => in_some (wire_tabs c width L) (on_wire r d)) (wire_transitions (wire_tabs c width L) r)) ->
      (forall r t, In r (tl (shares L before ls)) -> In t (wire_tabs c width L) -> fst t <> fst r /\ snd t <> fst r) ->
      tabs_meet (map (wire_transitions (wire_tabs c width L)) (shares L before ls))).
    { induction ls as [|l ls IH]; intros before HS HN; [exact I|]. cbn [shares map tl] in *. destruct ls as [|l2 ls]; [exact I|].
      assert (IH' := IH (before + l) (fun r Hr => HS r (or_intror Hr))). cbn [shares map tl] in *. split; [|apply IH'; intros r t Hr Ht; apply HN; [right; exact Hr|exact Ht]].
      destruct (HS _ (or_introl eq_refl)) as (L1 & D1). destruct (HS _ (or_intror (or_introl eq_refl))) as (L2 & D2). cbn [fst snd] in *.
      assert (N2 := fun t Ht => HN _ t (or_introl eq_refl) Ht). cbn [fst] in N2.
      rewrite (ends_tab _ _ L1 _ N2 D1). rewrite (starts_tab _ _ L2 _ N2 (describes_forwards _ _ D2)). reflexivity. }
    apply SM.
    + intros r Hr. rewrite Forall_forall in SR. destruct (SR r Hr) as (R1 & R2 & R3). split; [exact R2|exact (G' r Hr)].
    + intros r t Hr Ht. apply (wire_tabs_in c width L HC) in Ht as (k & _ & ->). unfold tab_at, center. cbn [fst snd].
      split; intros E; apply NC; exists r, k; (split; [exact Hr|]).
      * assert (E' : fst r - qz k / qz (Z.of_nat c) = - (width / qz 2 / L)) by (rewrite <- E; ring). rewrite E', (qabs_neg (- _)); [|qlra]. replace (- - (width / qz 2 / L)) with (width / qz 2 / L) by ring. exact H2.
      * assert (E' : fst r - qz k / qz (Z.of_nat c) = width / qz 2 / L) by (rewrite <- E; ring). rewrite E', qabs_pos; [exact H2|qlra].
Qed.

(** A tab of half the length of a square, ending at two corners. *)
Lemma corner_fits : takes_wire_tabs_anywhere (straight_kernel (fun v => v)) 1 (qz 8) tab_square /\ tab_ends_at_corner 1 (qz 8) tab_square /\
  (forall e, In e tab_square -> vz (travel_end e) <> qz (-4)).
Proof.
  destruct tab_square_ok as (C & H1 & H2). assert (L : qsum (map e_length tab_square) = qz 16) by (apply Qc_is_canon; vm_compute; reflexivity).
  split; [|split].
  - unfold takes_wire_tabs_anywhere. rewrite L. split; [exact C|]. split; [discriminate|]. split; [exact L|]. split; [discriminate|].
    split; [intros e He; destruct (H1 e He) as (A & B & D); auto|]. intros r _ (_ & _ & k & Hk & _). lia.
  - unfold tab_ends_at_corner. rewrite L, square_shares. exists (qq 1 4, qq 1 2), 0%Z. split; [left; reflexivity|]. apply Qc_is_canon. vm_compute. reflexivity.
  - intros e He. destruct He as [<-|[<-|[<-|[<-|[]]]]]; vm_compute; discriminate.
Qed.
