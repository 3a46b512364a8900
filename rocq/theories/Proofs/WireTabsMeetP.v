(** Tabs on wires: edges meet at the same height unless a tab ends at a corner. *)
From Verif Require Import Base.Py Model.Tabs Spec.Wires Spec.Tabs Proofs.GeomP Proofs.PocketP Proofs.InterpP Proofs.TabsP Proofs.WireTabsP Proofs.TabPiecesP Proofs.TabsEx.
From Coq Require Import Lia.
Local Open Scope Qc_scope.
Local Open Scope list_scope.

Lemma both_below a b : 0 < a -> 0 < b -> exists m, 0 < m /\ m <= a /\ m <= b.
Proof. intros A B. destruct (Qclt_le_dec a b); [exists a|exists b]; repeat split; qlra. Qed.
Lemma both_above a b : a < 1 -> b < 1 -> exists m, m < 1 /\ a <= m /\ b <= m.
Proof. intros A B. destruct (Qclt_le_dec a b); [exists b|exists a]; repeat split; qlra. Qed.
(** Around a position that is not the end of a tab nothing changes. *)
Lemma steady ds x : (forall t, In t ds -> fst t <> x /\ snd t <> x) ->
  exists eps, 0 < eps /\ forall y, x - eps < y -> y < x + eps -> (in_some ds y <-> in_some ds x).
Proof.
  induction ds as [|[a b] ds IH]; intros H.
  - exists 1. split; [reflexivity|]. intros y _ _. split; intros (t & [] & _).
  - destruct (IH (fun t Ht => H t (or_intror Ht))) as (e0 & E0 & HE). destruct (H _ (or_introl eq_refl)) as [NA NB]. cbn [fst snd] in NA, NB.
    assert (S1 : forall u v, u <> v -> exists eps, 0 < eps /\ forall y, v - eps < y -> y < v + eps -> (u < y <-> u < v) /\ (y < u <-> v < u)).
    { intros u v N. destruct (Qc_dec u v) as [[L|L]|E]; [| |contradiction].
      - exists (v - u). split; [qlra|]. intros y Y1 Y2. split; split; intros; qlra.
      - exists (u - v). split; [qlra|]. intros y Y1 Y2. split; split; intros; qlra. }
    destruct (S1 _ _ NA) as (e1 & E1 & H1). destruct (S1 _ _ NB) as (e2 & E2 & H2).
    assert (M : exists eps, 0 < eps /\ eps <= e0 /\ eps <= e1 /\ eps <= e2).
    { destruct (both_below e1 e2 E1 E2) as (m & M0 & M1 & M2). destruct (both_below e0 m E0 M0) as (m' & N0 & N1 & N2). exists m'. repeat split; qlra. }
    destruct M as (eps & EP & L0 & L1 & L2). exists eps. split; [exact EP|]. intros y Y1 Y2.
    destruct (H1 y ltac:(qlra) ltac:(qlra)) as [HA _]. destruct (H2 y ltac:(qlra) ltac:(qlra)) as [_ HB]. specialize (HE y ltac:(qlra) ltac:(qlra)).
    split; intros (t & [<-|HI] & K1 & K2).
    + exists (a, b). split; [left; reflexivity|]. cbn [fst snd] in *. tauto.
    + destruct (proj1 HE) as (t' & I' & K'); [exists t; auto|]. exists t'. split; [right; exact I'|exact K'].
    + exists (a, b). split; [left; reflexivity|]. cbn [fst snd] in *. tauto.
    + destruct (proj2 HE) as (t' & I' & K'); [exists t; auto|]. exists t'. split; [right; exact I'|exact K'].
Qed.

Lemma describes_from_last P : forall l p t q u v, describes_from P p t (l ++ [(q, u); (1, v)]) -> forall d, q < d -> d < 1 -> (u = TTAB <-> P d).
Proof.
  induction l as [|[q' u'] l IH]; intros p t q u v H; [|destruct H as (_ & _ & H); eapply IH; exact H].
  cbn in H. destruct H as (_ & _ & _ & H & _). exact H.
Qed.
Lemma describes_last P l q u v : describes P (l ++ [(q, u); (1, v)]) -> forall d, q < d -> d < 1 -> (u = TTAB <-> P d).
Proof.
  destruct l as [|[p t] l]; intros [_ H]; [destruct H as (_ & H & _); exact H|]. eapply describes_from_last. exact H.
Qed.

Section Edge.
Variables s e : Qc.
Hypothesis HSE : s < e.
Let range := (s, e).

(** The mark before the end is before the end. *)
Lemma marks_end ds m : In m (flat_map (tab_marks range) ds) -> fst m = 1 -> exists t, In t ds /\ (fst t = e \/ snd t = e).
Proof.
  intros H E. apply in_flat_map in H as ([a b] & Ht & H). exists (a, b). split; [exact Ht|]. cbn [fst snd].
  unfold tab_marks, range in H. apply in_app_iff in H. destruct H as [H|H].
  { destruct (_ && _) in H; [|contradiction]. destruct H as [<-|[]]. discriminate E. }
  assert (X : forall x, s < x -> x <= e -> clamp01 (wire_d_to_edge_d x (s, e)) = 1 -> x = e).
  { intros x X1 X2 X3. rewrite (clamp_ed s e HSE) in X3 by qlra. exact (ed_eq1 s e HSE x X3). }
  apply in_app_iff in H. destruct H as [H|H].
  - destruct (qltb s a) eqn:E1; [|contradiction]. destruct (qleb a e) eqn:E2; [|contradiction]. destruct H as [<-|[]]. left. apply X; [apply qltb_lt, E1|apply qleb_le, E2|exact E].
  - destruct (qltb s b) eqn:E1; [|contradiction]. destruct (qleb b e) eqn:E2; [|contradiction]. destruct H as [<-|[]]. right. apply X; [apply qltb_lt, E1|apply qleb_le, E2|exact E].
Qed.
Lemma transitions_end ds : (forall t, In t ds -> fst t <> e /\ snd t <> e) ->
  exists l q u, wire_transitions ds range = l ++ [(q, u); (1, TIGNORE)] /\ q < 1.
Proof.
  intros H. unfold wire_transitions.
  set (ts := match flat_map (tab_marks range) ds with [] => [(0, TNORMAL)] | (p, _) :: _ => _ end).
  assert (B : forall m, In m ts -> fst m < 1).
  { assert (B' : forall m, In m (flat_map (tab_marks range) ds) -> fst m < 1).
    { intros m Hm. assert (L : fst m <= 1) by (apply in_flat_map in Hm as (t & _ & Hm); eapply tab_marks_bound; exact Hm).
      apply Qcle_lt_or_eq in L as [L|L]; [exact L|]. exfalso. destruct (marks_end ds m Hm L) as (t & Ht & [E|E]); destruct (H t Ht); contradiction. }
    intros m Hm. unfold ts in Hm. destruct (flat_map (tab_marks range) ds) as [|[p t] l]; [destruct Hm as [<-|[]]; reflexivity|].
    destruct (negb (qeqb p 0)); [destruct Hm as [<-|Hm]; [reflexivity|]|]; apply B', Hm. }
  assert (NE : ts <> []). { unfold ts. destruct (flat_map (tab_marks range) ds) as [|[p t] l]; [discriminate|]. destruct (negb (qeqb p 0)); discriminate. }
  clearbody ts. destruct ts as [|[q u] l _] using rev_ind; [contradiction NE; reflexivity|]. clear NE.
  rewrite last_last. assert (LQ := B (q, u) ltac:(apply in_or_app; right; left; reflexivity)). cbn [fst] in *.
  rewrite (proj2 (qeqb_neq q 1)) by (intros ->; exact (Qclt_not_le _ _ LQ (Qcle_refl _))). cbn [negb]. exists l, q, u. split; [|exact LQ]. rewrite <- app_assoc. reflexivity.
Qed.
Lemma ends_tab ds : (forall t, In t ds -> fst t <> e /\ snd t <> e) ->
  describes (fun d => in_some ds (on_wire range d)) (wire_transitions ds range) ->
  (ends_in_tab (wire_transitions ds range) <-> in_some ds e).
Proof.
  intros H D. destruct (transitions_end ds H) as (l & q & u & E & Q). rewrite E in *. rewrite ends_in_tab_snoc. cbn [snd].
  destruct (steady ds e H) as (eps & EP & HE).
  assert (X : exists d, q < d /\ 0 < d /\ d < 1 /\ e - eps < on_wire range d /\ on_wire range d < e).
  { assert (DD : exists d, q < d /\ 0 < d /\ (e - eps - s) / (e - s) < d /\ d < 1).
    { assert (L3 : (e - eps - s) / (e - s) < 1). { apply qdiv_lt; [qlra|]. qlra. }
      destruct (both_above q 0 Q eq_refl) as (m' & M1' & M2' & M3'). destruct (both_above m' _ M1' L3) as (m & M4 & M5 & M3). exists ((m + 1) / qz 2).
      assert (A1 : m < (m + 1) / qz 2) by (apply lt_qdiv; [reflexivity|]; replace (m * qz 2) with (m + m) by (change (qz 2) with (1 + 1); ring); qlra).
      assert (A2 : (m + 1) / qz 2 < 1) by (apply qdiv_lt; [reflexivity|]; replace (1 * qz 2) with (1 + 1) by (change (qz 2) with (1 + 1); ring); qlra).
      repeat split; qlra. }
    destruct DD as (d & D1 & D2 & D3 & D4). exists d. split; [exact D1|]. split; [exact D2|]. split; [exact D4|].
    split; [apply (proj2 (on_wire_ed s e HSE d (e - eps))); exact D3|]. apply (on_wire_range s e HSE d D2 D4). }
  destruct X as (d & D1 & D2 & D3 & D4 & D5). rewrite (describes_last _ _ _ _ _ D d D1 D3). apply HE; qlra.
Qed.
(** A mark at the start is that of a tab across it. *)
Lemma marks_start ds m : In m (flat_map (tab_marks range) ds) -> fst m = 0 -> snd m = TTAB /\ exists t, In t ds /\ fst t <= s /\ s < snd t.
Proof.
  intros H E. apply in_flat_map in H as ([a b] & Ht & H). unfold tab_marks, range in H. apply in_app_iff in H. destruct H as [H|H].
  { destruct (qleb a s) eqn:E1; [|contradiction]. destruct (qltb s b) eqn:E2; [|contradiction]. destruct H as [<-|[]]. split; [reflexivity|].
    exists (a, b). split; [exact Ht|]. split; [apply qleb_le, E1|apply qltb_lt, E2]. }
  exfalso. assert (X : forall x, s < x -> x <= e -> clamp01 (wire_d_to_edge_d x (s, e)) <> 0).
  { intros x X1 X2 X3. rewrite (clamp_ed s e HSE) in X3 by qlra. assert (P : 0 < (x - s) / (e - s)) by (apply lt_qdiv; qlra). rewrite X3 in P. discriminate P. }
  apply in_app_iff in H. destruct H as [H|H].
  - destruct (qltb s a) eqn:E1; [|contradiction]. destruct (qleb a e) eqn:E2; [|contradiction]. destruct H as [<-|[]]. exact (X a (proj1 (qltb_lt _ _) E1) (proj1 (qleb_le _ _) E2) E).
  - destruct (qltb s b) eqn:E1; [|contradiction]. destruct (qleb b e) eqn:E2; [|contradiction]. destruct H as [<-|[]]. exact (X b (proj1 (qltb_lt _ _) E1) (proj1 (qleb_le _ _) E2) E).
Qed.
Lemma forwards_ge (a : Qc * transition) l : forwards (a :: l) -> forall z, In z l -> fst a <= fst z.
Proof.
  intros H z HZ. apply in_split in HZ as (l1 & l2 & ->). apply (forwards_app [] a l1 z l2). exact H.
Qed.
Lemma starts_tab ds : (forall t, In t ds -> fst t <> s /\ snd t <> s) -> forwards (wire_transitions ds range) ->
  (starts_in_tab (wire_transitions ds range) <-> in_some ds s).
Proof.
  intros H F. rewrite wire_transitions_eq in *. destruct (flat_map (tab_marks range) ds) as [|[p t] ts] eqn:EM.
  - split; [intros []|]. intros (u & Hu & U1 & U2).
    assert (X : In (0, TTAB) (flat_map (tab_marks range) ds)).
    { apply in_flat_map. exists u. split; [exact Hu|]. destruct u as [a b]. cbn [fst snd] in *. unfold tab_marks, range. rewrite (proj2 (qleb_le a s)) by qlra. rewrite (proj2 (qltb_lt s b)) by exact U2. left. reflexivity. }
    rewrite EM in X. contradiction.
  - destruct (qeqb p 0) eqn:EP; cbn [negb] in *.
    + apply qeqb_eq in EP. subst p. destruct (marks_start ds (0, t)) as (T & u & Hu & U1 & U2); [rewrite EM; left; reflexivity|reflexivity|]. cbn [snd] in T. subst t.
      split; [|intros _; exact I]. intros _. exists u. split; [exact Hu|]. split; [|exact U2]. destruct (H u Hu) as [N _]. apply Qcle_lt_or_eq in U1 as [U1|U1]; [exact U1|contradiction].
    + apply qeqb_neq in EP. split; [intros []|]. intros (u & Hu & U1 & U2). exfalso.
      assert (X : In (0, TTAB) (flat_map (tab_marks range) ds)).
      { apply in_flat_map. exists u. split; [exact Hu|]. destruct u as [a b]. cbn [fst snd] in *. unfold tab_marks, range. rewrite (proj2 (qleb_le a s)) by qlra. rewrite (proj2 (qltb_lt s b)) by exact U2. left. reflexivity. }
      rewrite EM in X. destruct X as [X|X]; [injection X as -> _; contradiction|].
      destruct F as [F1 F2]. assert (F3 := forwards_ge _ _ F2 (0, TTAB)). cbn [fst] in F3. apply EP, Qcle_antisym; [apply F3|exact F1].
      unfold endmark. destruct (negb _); [apply in_or_app; left|]; exact X.
Qed.
End Edge.

(** ** Whole wires *)
Lemma shares_meet ds total : forall ls before, (forall r, In r (shares total before ls) -> fst r < snd r /\
    (forall t, In t ds -> fst t <> fst r /\ snd t <> fst r) /\ describes (fun d => in_some ds (on_wire r d)) (wire_transitions ds r)) ->
  tabs_meet (map (wire_transitions ds) (shares total before ls)).
Proof.
  induction ls as [|l ls IH]; intros before H; [exact I|]. cbn [shares map]. destruct ls as [|l2 ls]; [exact I|].
  assert (IH' := IH (before + l) (fun r Hr => H r (or_intror Hr))). cbn [shares map] in *. split; [|exact IH'].
  destruct (H _ (or_introl eq_refl)) as (L1 & _ & D1). destruct (H _ (or_intror (or_introl eq_refl))) as (L2 & N2 & D2). cbn [fst snd] in *.
  rewrite (ends_tab _ _ L1 ds N2 D1). rewrite (starts_tab _ _ L2 ds N2 (describes_forwards _ _ D2)). reflexivity.
Qed.
Lemma shares_length total : forall ls before, length (shares total before ls) = length ls.
Proof. induction ls; intros; cbn; [reflexivity|rewrite IHls; reflexivity]. Qed.

Lemma wire_tabs_applied TK es tab_z c width height w : makes_edges TK -> (1 <= c)%nat -> 0 < width -> takes_wire_tabs TK c width es ->
  tk_zmin TK es < tab_z -> (forall l, tk_assemble TK l = Some l) ->
  apply_tabs TK es tab_z (WireTabs c width height) = Ok w -> tabbed_wire TK tab_z c width es w.
Proof.
  intros ME HC HW (CO & NE & TL & HF & HT & HR) HZ HA H. unfold tabbed_wire. cbv zeta in *. set (L := qsum (map e_length es)) in *.
  assert (HE : forall e, In e es -> edge_sound e /\ edge_on_curve TK e /\ moved_vertically TK e) by (intros e He; destruct (HT e He) as (A & B & C & _); auto).
  assert (HL : forall e, In e es -> 0 < e_length e) by (intros e He; destruct (HT e He) as (_ & _ & _ & A); exact A).
  assert (NW : forall r, In r (shares L 0 (map e_length es)) -> ~ wraps_behind c width L (fst r) (snd r)) by (intros r Hr; exact (proj1 (HR r Hr))).
  assert (NC : forall r k, In r (shares L 0 (map e_length es)) -> qabs (fst r - qz k / qz (Z.of_nat c)) * L <> width / qz 2) by (intros r k Hr; exact (proj2 (HR r Hr) k)).
  assert (HE' : Forall (fun e => 0 < e_length e) es) by (apply Forall_forall; exact HL).
  destruct (load_edge_ranges_ok es NE HE') as (LP & LR & SR). fold L in LP, LR, SR.
  destruct (apply_tabs_spec TK es tab_z _ w ME HE HZ H) as (ms & Hms & K). rewrite TL in Hms. cbn [wire_marks] in Hms.
  rewrite (wire_tab_ds_eq c width L HW LP HC HF) in Hms. cbn [rbind] in Hms. rewrite LR in Hms. cbn [rbind] in Hms. fold (wire_tabs c width L) in Hms. injection Hms as <-.
  assert (G : forall r, In r (shares L 0 (map e_length es)) -> describes (fun d => in_wire_tab c width L (on_wire r d)) (wire_transitions (wire_tabs c width L) r)).
  { intros [s e] Hr. rewrite Forall_forall in SR. destruct (SR _ Hr) as (R1 & R2 & R3). apply wire_transitions_good; try assumption. exact (NW _ Hr). }
  assert (L' : length (map (wire_transitions (wire_tabs c width L)) (shares L 0 (map e_length es))) = length es) by (rewrite map_length, shares_length, map_length; reflexivity).
  destruct (K L') as (outs & F & C & A).
  { intros m Hm. apply in_map_iff in Hm as (r & <- & Hr). assert (D := G r Hr). apply (describes_usable _ _ D), (describes_two _ _ D). }
  exists (map (wire_transitions (wire_tabs c width L)) (shares L 0 (map e_length es))), outs. split; [|split; [exact F|]].
  { clear - G. induction (shares L 0 (map e_length es)) as [|r rs IH]; [constructor|]. cbn [map]. constructor; [apply G; left; reflexivity|apply IH; intros x Hx; apply G; right; exact Hx]. }
  rewrite HA in A. subst w. split; [reflexivity|]. apply C; [exact CO|]. apply shares_meet. intros [s e] Hr. rewrite Forall_forall in SR. destruct (SR _ Hr) as (R1 & R2 & R3). cbn [fst snd] in *.
  split; [exact R2|]. split.
  - intros t Ht. apply (wire_tabs_in c width L HC) in Ht as (k & _ & ->). assert (N := NC _ k Hr). cbn [fst] in N.
    assert (HH := half_width width L LP). unfold tab_at, center. cbn [fst snd].
    assert (H2 : width / qz 2 / L * L = width / qz 2) by (apply qdiv_mul, qne0, LP).
    assert (HP : 0 < width / qz 2 / L). { apply lt_qdiv; [exact LP|]. replace (0 * L) with 0 by ring. apply lt_qdiv; [reflexivity|]. replace (0 * qz 2) with 0 by ring. exact HW. }
    split; intros E; apply N.
    + assert (E' : s - qz k / qz (Z.of_nat c) = - (width / qz 2 / L)) by (rewrite <- E; ring). rewrite E', (qabs_neg (- _)); [|qlra]. replace (- - (width / qz 2 / L)) with (width / qz 2 / L) by ring. exact H2.
    + assert (E' : s - qz k / qz (Z.of_nat c) = width / qz 2 / L) by (rewrite <- E; ring). rewrite E', qabs_pos; [exact H2|qlra].
  - apply (wire_describes s e R2 _ (- (width / qz 2 / L)) (wire_tabs_proper c width L HW LP HC HF)). apply touching_in_order; try assumption. exact (NW _ Hr).
Qed.

(** Two tabs on a square, around the first and the third corner. *)
Lemma quarter_tabs s i k : s * qz 4 = qz i -> qabs (s - qz k / qz (Z.of_nat 2)) * qz 16 <> qz 2 / qz 2.
Proof.
  intros S C. assert (E : (s - qz k / qz 2) * qz 16 = qz (4 * i - 8 * k)).
  { replace (4 * i - 8 * k)%Z with (4 * i + - (8 * k))%Z by ring. rewrite qz_plus, qz_opp, !qz_mult, <- S.
    change (qz 16) with (qz 2 * qz 8). assert (X : qz k / qz 2 * qz 2 = qz k) by (apply qdiv_mul; discriminate).
    transitivity (s * (qz 2 * qz 8) - (qz k / qz 2 * qz 2) * qz 8); [ring|]. rewrite X. change (qz 2 * qz 8) with (qz 4 * qz 4). ring. }
  change (qz (Z.of_nat 2)) with (qz 2) in C.
  assert (N : qz (4 * i - 8 * k) <> 1 /\ qz (4 * i - 8 * k) <> - (1)).
  { split; intros D; rewrite <- qz_1 in D; [|rewrite <- qz_opp in D]; apply qz_inj in D; lia. }
  replace (qz 2 / qz 2) with 1 in C by (apply Qc_is_canon; reflexivity).
  destruct (qabs_spec (s - qz k / qz 2)) as [[A _]|[A _]]; rewrite A in C.
  - rewrite E in C. exact (proj1 N C).
  - apply (proj2 N). rewrite <- E, <- C. ring.
Qed.
Lemma square_shares : shares (qz 16) 0 (map e_length tab_square) = [(0, qq 1 4); (qq 1 4, qq 1 2); (qq 1 2, qq 3 4); (qq 3 4, 1)].
Proof. cbn [map tab_square shares]. repeat (f_equal; try (apply Qc_is_canon; vm_compute; reflexivity)). Qed.
Lemma square_wire_tabs : takes_wire_tabs (straight_kernel (fun v => v)) 2 (qz 2) tab_square.
Proof.
  destruct tab_square_ok as (C & H1 & H2). assert (L : qsum (map e_length tab_square) = qz 16) by (apply Qc_is_canon; vm_compute; reflexivity).
  unfold takes_wire_tabs. rewrite L. split; [exact C|]. split; [discriminate|]. split; [exact L|]. split; [discriminate|].
  split; [intros e He; destruct (H1 e He) as (A & B & D); auto|]. rewrite square_shares. intros r Hr.
  split.
  - intros (W1 & W2 & k & Hk & W3). assert (k = 1%Z) as -> by lia. destruct Hr as [<-|[<-|[<-|[<-|[]]]]]; (apply W2; reflexivity) || (revert W3; apply Qcle_not_lt; discriminate).
  - intros k. destruct Hr as [<-|[<-|[<-|[<-|[]]]]]; cbn [fst].
    + apply (quarter_tabs _ 0); reflexivity.
    + apply (quarter_tabs _ 1). apply Qc_is_canon; reflexivity.
    + apply (quarter_tabs _ 2). apply Qc_is_canon; reflexivity.
    + apply (quarter_tabs _ 3). apply Qc_is_canon; reflexivity.
Qed.
Definition wire_tabbed : result (list edge) := apply_tabs (straight_kernel (fun v => v)) tab_square (qz (-4)) (WireTabs 2 (qz 2) 1).
Lemma ex_wire_tabbed : makes_edges (straight_kernel (fun v => v)) /\ takes_wire_tabs (straight_kernel (fun v => v)) 2 (qz 2) tab_square /\
  tk_zmin (straight_kernel (fun v => v)) tab_square < qz (-4) /\
  zs wire_tabbed =
  [((0, 0, -4), (1, 0, -4)); ((1, 0, -4), (1, 0, -5)); ((1, 0, -5), (4, 0, -5)); ((4, 0, -5), (4, 3, -5)); ((4, 3, -5), (4, 3, -4)); ((4, 3, -4), (4, 4, -4));
   ((4, 4, -4), (3, 4, -4)); ((3, 4, -4), (3, 4, -5)); ((3, 4, -5), (0, 4, -5)); ((0, 4, -5), (0, 1, -5)); ((0, 1, -5), (0, 1, -4)); ((0, 1, -4), (0, 0, -4))]%Z.
Proof. split; [apply straight_makes|]. split; [exact square_wire_tabs|]. split; [reflexivity|]. vm_compute. reflexivity. Qed.
