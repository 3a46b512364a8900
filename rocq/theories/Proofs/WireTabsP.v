(** * Proofs: tabs on wires *)
From Verif Require Import Base.Py Model.Tabs Spec.Wires Spec.Tabs Proofs.GeomP Proofs.PocketP Proofs.InterpP Proofs.TabsP.
From Coq Require Import Lia.
Local Open Scope Qc_scope.
Local Open Scope list_scope.

Lemma last_cons {A} (x : A) l d : last (x :: l) d = last l x.
Proof.
  revert x d. induction l as [|y l IH]; intros x d; [reflexivity|]. change (last (y :: l) d = last (y :: l) x). rewrite !IH. reflexivity.
Qed.

(** Closing a list of transitions (tabs.py:140-141). *)
Definition endmark (p : Qc) (t : transition) (ts : marks) : marks :=
  if negb (qeqb (fst (last ts (p, t))) 1) then ts ++ [(1, TIGNORE)] else ts.
Lemma endmark_cons p t q t' ts : endmark p t ((q, t') :: ts) = (q, t') :: endmark q t' ts.
Proof. unfold endmark. rewrite last_cons. destruct (negb _); reflexivity. Qed.

Lemma wire_transitions_eq ds r :
  wire_transitions ds r =
  match flat_map (tab_marks r) ds with
  | (p, t) :: ts => if negb (qeqb p 0) then (0, TNORMAL) :: (p, t) :: endmark p t ts else (p, t) :: endmark p t ts
  | [] => (0, TNORMAL) :: [(1, TIGNORE)]
  end.
Proof.
  unfold wire_transitions. destruct (flat_map (tab_marks r) ds) as [|[p t] ts].
  - reflexivity.
  - destruct (negb (qeqb p 0)); rewrite !last_cons; unfold endmark; destruct (negb _); reflexivity.
Qed.

Section Edge.
Variables s e : Qc.
Hypothesis HSE : s < e.
Let range := (s, e).
Let ed (x : Qc) : Qc := (x - s) / (e - s).
Let W : 0 < e - s. Proof. qlra. Qed.

Lemma ed_le x y : x <= y -> ed x <= ed y.
Proof. intros H. apply qdiv_mono; [exact W|qlra]. Qed.
Lemma ed_s : ed s = 0.
Proof. unfold ed. replace (s - s) with 0 by ring. unfold Qcdiv. ring. Qed.
Lemma ed_e : ed e = 1.
Proof. unfold ed, Qcdiv. apply Qcmult_inv_r, qne0, W. Qed.
Lemma on_wire_ed d x : (d < ed x <-> on_wire range d < x) /\ (ed x < d <-> x < on_wire range d).
Proof.
  unfold on_wire, range, ed. cbn [fst snd]. split.
  - rewrite lt_qdiv by exact W. split; intros; qlra.
  - rewrite qdiv_lt by exact W. split; intros; qlra.
Qed.
Lemma ed_eq1 x : ed x = 1 -> x = e.
Proof. unfold ed. intros H. assert (K : (x - s) / (e - s) * (e - s) = x - s) by (apply qdiv_mul, qne0, W). rewrite H in K. transitivity ((1 * (e - s)) + s); [rewrite K; ring|ring]. Qed.
Lemma clamp_ed x : s <= x -> x <= e -> clamp01 (wire_d_to_edge_d x range) = ed x.
Proof.
  intros H1 H2. unfold wire_d_to_edge_d, range. cbn [fst snd]. change ((x - s) / (e - s)) with (ed x).
  apply ed_le in H1. apply ed_le in H2. rewrite ed_s in H1. rewrite ed_e in H2.
  unfold clamp01, qmax, qmin. destruct (qltb_spec (ed x) 0) as [L|L]; [exfalso; exact (Qclt_not_le _ _ L H1)|].
  destruct (qltb_spec 1 (ed x)) as [L'|L']; [exfalso; exact (Qclt_not_le _ _ L' H2)|reflexivity].
Qed.

(** The marks of a tab, case by case. *)
Lemma marks_beyond a b : a <= b -> e < a -> tab_marks range (a, b) = [].
Proof.
  intros H1 H2. unfold tab_marks, range. rewrite (proj2 (qleb_nle a s)) by qlra. cbn [andb app].
  rewrite (proj2 (qleb_nle a e)) by exact H2. rewrite (proj2 (qleb_nle b e)) by qlra. rewrite !andb_false_r. reflexivity.
Qed.
Lemma marks_before a b : a <= b -> b <= s -> tab_marks range (a, b) = [].
Proof.
  intros H1 H2. unfold tab_marks, range. rewrite (proj2 (qltb_nlt s b)) by exact H2. rewrite (proj2 (qltb_nlt s a)) by qlra. rewrite andb_false_r. reflexivity.
Qed.
Lemma marks_within a b : a <= b -> s < a -> b <= e -> tab_marks range (a, b) = [(ed a, TTAB); (ed b, TNORMAL)].
Proof.
  intros H1 H2 H3. unfold tab_marks, range. rewrite (proj2 (qleb_nle a s)) by exact H2. cbn [andb app].
  rewrite (proj2 (qltb_lt s a)) by exact H2. rewrite (proj2 (qleb_le a e)) by qlra. rewrite (proj2 (qltb_lt s b)) by qlra. rewrite (proj2 (qleb_le b e)) by exact H3.
  cbn [andb app]. change (s, e) with range. rewrite !clamp_ed by qlra. reflexivity.
Qed.
Lemma marks_leaving a b : a <= b -> s < a -> a <= e -> e < b -> tab_marks range (a, b) = [(ed a, TTAB)].
Proof.
  intros H1 H2 H3 H4. unfold tab_marks, range. rewrite (proj2 (qleb_nle a s)) by exact H2. cbn [andb app].
  rewrite (proj2 (qltb_lt s a)) by exact H2. rewrite (proj2 (qleb_le a e)) by exact H3. rewrite (proj2 (qleb_nle b e)) by exact H4. rewrite andb_false_r.
  cbn [andb app]. change (s, e) with range. rewrite !clamp_ed by qlra. reflexivity.
Qed.
Lemma marks_entering a b : a <= s -> s < b -> b <= e -> tab_marks range (a, b) = [(0, TTAB); (ed b, TNORMAL)].
Proof.
  intros H1 H2 H3. unfold tab_marks, range. rewrite (proj2 (qleb_le a s)) by exact H1. rewrite (proj2 (qltb_lt s b)) by exact H2.
  rewrite (proj2 (qltb_nlt s a)) by exact H1. rewrite (proj2 (qleb_le b e)) by exact H3. cbn [andb app]. change (s, e) with range. rewrite clamp_ed by qlra. reflexivity.
Qed.
Lemma marks_covering a b : a <= s -> e < b -> tab_marks range (a, b) = [(0, TTAB)].
Proof.
  intros H1 H3. unfold tab_marks, range. rewrite (proj2 (qleb_le a s)) by exact H1. rewrite (proj2 (qltb_lt s b)) by qlra.
  rewrite (proj2 (qltb_nlt s a)) by exact H1. rewrite (proj2 (qleb_nle b e)) by exact H3. reflexivity.
Qed.

Lemma all_beyond ds : (forall t, In t ds -> fst t <= snd t /\ e < fst t) -> flat_map (tab_marks range) ds = [].
Proof.
  induction ds as [|[a b] ds IH]; intros H; [reflexivity|]. cbn [flat_map]. destruct (H _ (or_introl eq_refl)) as [H1 H2].
  rewrite marks_beyond by assumption. apply IH. intros t Ht. apply H. right. exact Ht.
Qed.

Lemma close_normal lo (P : Qc -> Prop) t : ed lo <= 1 -> (forall d, ed lo < d -> d < 1 -> (t = TTAB <-> P d)) -> describes_from P (ed lo) t (endmark (ed lo) t []).
Proof.
  intros HB HP. unfold endmark. cbn [last fst]. destruct (qeqb (ed lo) 1) eqn:E1; cbn [negb app].
  - apply qeqb_eq in E1. exact E1.
  - cbn. split; [exact HB|]. split; [exact HP|reflexivity].
Qed.

(** From a point behind all earlier tabs onwards. *)
Lemma wire_from ds : forall lo P, s <= lo -> lo <= e -> in_order lo ds -> (forall t, In t ds -> s < fst t) ->
  (forall d, ed lo < d -> d < 1 -> (P d <-> in_some ds (on_wire range d))) ->
  describes_from P (ed lo) TNORMAL (endmark (ed lo) TNORMAL (flat_map (tab_marks range) ds)).
Proof.
  induction ds as [|[a b] ds IH]; intros lo P L1 L2 HO HS HP.
  - cbn [flat_map]. apply close_normal; [rewrite <- ed_e; apply ed_le, L2|]. intros d D1 D2. split; [discriminate|]. intros C. apply HP in C; [|assumption|assumption]. destruct C as (t & [] & _).
  - destruct HO as (O1 & O2 & O3). cbn [flat_map]. pose proof (HS _ (or_introl eq_refl)) as SA. cbn [fst] in SA.
    assert (NOT : forall d, ed lo < d -> on_wire range d < a -> d < 1 -> ~ P d).
    { intros d D1 D2 D3 C. apply HP in C; [|assumption|assumption]. destruct C as (t & [<-|HI] & C1 & C2); [cbn in C1; qlra|].
      destruct (in_order_ge _ _ O3 t HI) as [K _]. qlra. }
    destruct (Qclt_le_dec e a) as [EA|EA].
    { rewrite marks_beyond by assumption. cbn [app]. rewrite all_beyond by (intros t Ht; destruct (in_order_ge _ _ O3 t Ht) as [K1 K2]; split; [exact K2|qlra]).
      apply close_normal; [rewrite <- ed_e; apply ed_le, L2|]. intros d D1 D2. split; [discriminate|]. intros C. exfalso. apply (NOT d D1); [|exact D2|exact C].
      rewrite <- ed_e in D2. apply on_wire_ed in D2. qlra. }
    assert (A1 : ed lo <= ed a) by (apply ed_le, O1). assert (A2 : ed a <= 1) by (rewrite <- ed_e; apply ed_le, EA).
    assert (FIRST : forall d, ed lo < d -> d < ed a -> (TNORMAL = TTAB <-> P d)).
    { intros d D1 D2. split; [discriminate|]. intros C. exfalso. apply (NOT d D1); [apply on_wire_ed, D2|qlra|exact C]. }
    destruct (Qclt_le_dec e b) as [EB|EB].
    + rewrite marks_leaving by assumption. cbn [app]. rewrite endmark_cons. split; [exact A1|]. split; [exact FIRST|].
      rewrite all_beyond by (intros t Ht; destruct (in_order_ge _ _ O3 t Ht) as [K1 K2]; split; [exact K2|qlra]).
      apply close_normal; [exact A2|]. intros d D1 D2. split; [|reflexivity]. intros _. apply HP; [qlra|exact D2|].
      exists (a, b). split; [left; reflexivity|]. cbn [fst snd]. apply on_wire_ed in D1. rewrite <- ed_e in D2. apply on_wire_ed in D2. split; qlra.
    + rewrite marks_within by assumption. cbn [app]. rewrite !endmark_cons. split; [exact A1|]. split; [exact FIRST|].
      split; [apply ed_le, O2|]. assert (B1 : ed b <= 1) by (rewrite <- ed_e; apply ed_le, EB). split.
      * intros d D1 D2. split; [|reflexivity]. intros _. apply HP; [qlra|qlra|]. exists (a, b). split; [left; reflexivity|]. split; apply on_wire_ed; assumption.
      * apply IH; [qlra|exact EB|exact O3|intros t Ht; apply HS; right; exact Ht|]. intros d D1 D2. rewrite HP; [|pose proof (ed_le _ _ O2); qlra|exact D2]. split.
        -- intros (t & [<-|HI] & C1 & C2); [exfalso; cbn [snd] in C2; apply on_wire_ed in D1; exact (Qclt_not_le _ _ C2 (Qclt_le_weak _ _ D1))|]. exists t. split; [exact HI|]. split; assumption.
        -- intros (t & HI & C). exists t. split; [right; exact HI|exact C].
Qed.

(** Tabs in order give transitions in order, describing the tabs. *)
Lemma wire_describes_sorted ds lo : in_order lo ds ->
  describes (fun d => in_some ds (on_wire range d)) (wire_transitions ds range).
Proof.
  intros HO. rewrite wire_transitions_eq. revert lo HO.
  assert (G : forall ds lo (P : Qc -> Prop), in_order lo ds -> (forall d, 0 < d -> d < 1 -> (P d <-> in_some ds (on_wire range d))) ->
    describes P match flat_map (tab_marks range) ds with
      | (p, t) :: ts => if negb (qeqb p 0) then (0, TNORMAL) :: (p, t) :: endmark p t ts else (p, t) :: endmark p t ts
      | [] => [(0, TNORMAL); (1, TIGNORE)]
      end).
  2: { intros lo HO. apply (G ds lo); [exact HO|]. intros d _ _. reflexivity. }
  clear ds. induction ds as [|[a b] ds IH]; intros lo P HO HP.
  { cbn. split; [reflexivity|]. split; [discriminate|]. split; [|reflexivity]. intros d D1 D2. split; [discriminate|]. intros C. apply HP in C; [|assumption|assumption]. destruct C as (t & [] & _). }
  destruct HO as (O1 & O2 & O3). destruct (Qclt_le_dec s b) as [SB|SB].
  2: { cbn [flat_map]. rewrite marks_before by assumption. cbn [app]. apply (IH b); [exact O3|]. intros d D1 D2. rewrite HP by assumption. split.
       - intros (t & [<-|HI] & C1 & C2); [exfalso; cbn [snd] in C2|exists t; split; [exact HI|split; assumption]].
         rewrite <- ed_s in D1. apply on_wire_ed in D1. qlra.
       - intros (t & HI & C). exists t. split; [right; exact HI|exact C]. }
  assert (LATER : forall t, In t ds -> s < fst t) by (intros t Ht; destruct (in_order_ge _ _ O3 t Ht) as [K _]; qlra).
  destruct (Qclt_le_dec s a) as [SA|SA].
  - (* nothing at the start *)
    assert (HF : forall p t ts, flat_map (tab_marks range) ((a, b) :: ds) = (p, t) :: ts -> p <> 0).
    { intros p t ts E. cbn [flat_map] in E. intros ->.
      assert (Q : forall x, s < x -> ed x <> 0). { intros x Hx C. assert (0 < ed x); [|rewrite C in H; exact (Qclt_not_le _ _ H (Qcle_refl _))]. unfold ed. apply lt_qdiv; [exact W|]. qlra. }
      destruct (Qclt_le_dec e a) as [EA|EA].
      - rewrite marks_beyond, all_beyond in E; [discriminate|intros u Hu; destruct (in_order_ge _ _ O3 u Hu) as [K1 K2]; split; [exact K2|qlra]|exact O2|exact EA].
      - destruct (Qclt_le_dec e b) as [EB|EB]; [rewrite marks_leaving in E by assumption|rewrite marks_within in E by assumption]; exact (Q a SA (f_equal (fun l => fst (hd (0, TNORMAL) l)) E)). }
    pose proof (wire_from ((a, b) :: ds) s P (Qcle_refl s) (Qclt_le_weak _ _ HSE)) as WF. rewrite ed_s in WF.
    assert (WF' : describes_from P 0 TNORMAL (endmark 0 TNORMAL (flat_map (tab_marks range) ((a, b) :: ds)))).
    { apply WF; [split; [apply Qclt_le_weak, SA|split; assumption]|intros t [<-|Ht]; [exact SA|apply LATER, Ht]|exact HP]. }
    clear WF. destruct (flat_map (tab_marks range) ((a, b) :: ds)) as [|[p t] ts] eqn:EF.
    + unfold endmark in WF'. cbn in WF'. split; [reflexivity|]. exact WF'.
    + specialize (HF p t ts eq_refl). apply qeqb_neq in HF. rewrite HF. cbn [negb]. rewrite endmark_cons in WF'. split; [reflexivity|]. exact WF'.
  - (* a tab across the start *)
    cbn [flat_map]. destruct (Qclt_le_dec e b) as [EB|EB].
    + rewrite marks_covering by assumption. cbn [app]. rewrite all_beyond by (intros t Ht; destruct (in_order_ge _ _ O3 t Ht) as [K1 K2]; split; [exact K2|qlra]).
      rewrite (qeqb_refl 0). cbn [negb]. split; [reflexivity|]. rewrite <- ed_s. apply close_normal; [rewrite ed_s; discriminate|].
      intros d D1 D2. split; [|reflexivity]. intros _. rewrite ed_s in D1. apply HP; [exact D1|exact D2|]. exists (a, b). split; [left; reflexivity|].
      rewrite <- ed_s in D1. rewrite <- ed_e in D2. apply on_wire_ed in D1. apply on_wire_ed in D2. cbn [fst snd]. split; qlra.
    + rewrite marks_entering by assumption. cbn [app]. rewrite (qeqb_refl 0). cbn [negb]. rewrite endmark_cons. split; [reflexivity|].
      assert (B0 : 0 <= ed b) by (rewrite <- ed_s; apply ed_le, Qclt_le_weak, SB). assert (B1 : ed b <= 1) by (rewrite <- ed_e; apply ed_le, EB). split; [exact B0|]. split.
      * intros d D1 D2. split; [|reflexivity]. intros _. apply HP; [exact D1|qlra|]. exists (a, b). split; [left; reflexivity|].
        rewrite <- ed_s in D1. apply on_wire_ed in D1. apply on_wire_ed in D2. cbn [fst snd]. split; qlra.
      * apply wire_from; [qlra|exact EB|exact O3|exact LATER|]. intros d D1 D2. rewrite HP by (qlra || assumption). split.
        -- intros (t & [<-|HI] & C1 & C2); [exfalso; cbn [snd] in C2; apply on_wire_ed in D1; exact (Qclt_not_le _ _ C2 (Qclt_le_weak _ _ D1))|]. exists t. split; [exact HI|]. split; assumption.
        -- intros (t & HI & C). exists t. split; [right; exact HI|exact C].
Qed.

(** Only the tabs that touch the edge matter. *)
Definition touches (t : Qc * Qc) : bool := qltb s (snd t) && qleb (fst t) e.
Lemma marks_filter ds : (forall t, In t ds -> fst t <= snd t) -> flat_map (tab_marks range) (filter touches ds) = flat_map (tab_marks range) ds.
Proof.
  induction ds as [|[a b] ds IH]; intros H; [reflexivity|]. cbn [filter flat_map]. pose proof (H _ (or_introl eq_refl)) as AB. cbn [fst snd] in AB.
  rewrite <- IH by (intros t Ht; apply H; right; exact Ht). unfold touches at 1. cbn [fst snd].
  destruct (qltb s b) eqn:E1; cbn [andb]; [|apply qltb_nlt in E1; rewrite marks_before by assumption; reflexivity].
  destruct (qleb a e) eqn:E2; [reflexivity|apply qleb_nle in E2; rewrite marks_beyond by assumption; reflexivity].
Qed.
Lemma on_wire_range d : 0 < d -> d < 1 -> s < on_wire range d /\ on_wire range d < e.
Proof. intros D1 D2. rewrite <- ed_s in D1. rewrite <- ed_e in D2. apply on_wire_ed in D1. apply on_wire_ed in D2. split; assumption. Qed.
Lemma touching_in_some ds x : s < x -> x < e -> (in_some ds x <-> in_some (filter touches ds) x).
Proof.
  intros X1 X2. split; intros (t & HI & C1 & C2); exists t; (split; [|split; assumption]).
  - apply filter_In. split; [exact HI|]. unfold touches. rewrite (proj2 (qltb_lt s (snd t))) by qlra. apply qleb_le. qlra.
  - apply filter_In in HI. apply HI.
Qed.

Lemma tab_marks_bound t m : In m (tab_marks range t) -> fst m <= 1.
Proof.
  destruct t as [a b]. unfold tab_marks, range. intros H.
  assert (CL : forall x, clamp01 x <= 1). { intros x. unfold clamp01, qmin. destruct (qltb_spec 1 (qmax x 0)); [apply Qcle_refl|]. apply Qcnot_lt_le. assumption. }
  apply in_app_iff in H. destruct H as [H|H]; [|apply in_app_iff in H; destruct H as [H|H]];
    (destruct (_ && _) in H; [|contradiction]); destruct H as [<-|[]]; cbn [fst]; try apply CL. discriminate.
Qed.
Lemma wire_transitions_bound ds m : In m (wire_transitions ds range) -> fst m <= 1.
Proof.
  assert (B : forall m, In m (flat_map (tab_marks range) ds) -> fst m <= 1) by (intros x Hx; apply in_flat_map in Hx; destruct Hx as (t & _ & Hx); exact (tab_marks_bound t x Hx)).
  unfold wire_transitions. intros H.
  set (ts := match flat_map (tab_marks range) ds with [] => [(0, TNORMAL)] | (p, _) :: _ => _ end) in H.
  assert (B' : forall m, In m ts -> fst m <= 1).
  { intros x Hx. unfold ts in Hx. destruct (flat_map (tab_marks range) ds) as [|[p t] l]; [destruct Hx as [<-|[]]; discriminate|].
    destruct (negb (qeqb p 0)); [destruct Hx as [<-|Hx]; [discriminate|]|]; apply B, Hx. }
  destruct (negb _) in H; [apply in_app_iff in H; destruct H as [H|[<-|[]]]; [apply B', H|apply Qcle_refl]|apply B', H].
Qed.

Lemma describes_ext' P P' ts : (forall d, 0 < d -> d < 1 -> (P d <-> P' d)) -> (forall q, In q ts -> fst q <= 1) -> describes P ts -> describes P' ts.
Proof.
  intros HE HB. destruct ts as [|[p t] ts]; [intros []|]. intros [-> H]. split; [reflexivity|].
  apply (describes_ext P); [exact HE|intros q Hq; apply HB; right; exact Hq|exact H].
Qed.

Lemma wire_describes ds lo : (forall t, In t ds -> fst t <= snd t) -> in_order lo (filter touches ds) ->
  describes (fun d => in_some ds (on_wire range d)) (wire_transitions ds range).
Proof.
  intros HA HO. pose proof (wire_describes_sorted _ _ HO) as H.
  assert (E : wire_transitions (filter touches ds) range = wire_transitions ds range) by (rewrite !wire_transitions_eq, marks_filter by exact HA; reflexivity).
  rewrite E in H. revert H. apply describes_ext'; [|apply wire_transitions_bound].
  intros d D1 D2. destruct (on_wire_range d D1 D2) as [X1 X2]. symmetry. apply touching_in_some; assumption.
Qed.

(** Transitions that run backwards. *)
Lemma forwards_app l1 x l2 y l3 : forwards (l1 ++ x :: l2 ++ y :: l3) -> fst x <= fst y.
Proof.
  assert (T : forall (a : Qc * transition) l, forwards (a :: l) -> forall z, In z l -> fst a <= fst z).
  { intros [p t] l. revert p t. induction l as [|[q u] l IH]; intros p t H z HZ; [contradiction|]. cbn in H. destruct H as [H1 H2]. destruct HZ as [<-|HZ]; [exact H1|].
    cbn [fst]. apply (Qcle_trans _ q); [exact H1|]. exact (IH q u H2 z HZ). }
  induction l1 as [|a l1 IH]; intros H.
  - apply (T x (l2 ++ y :: l3)); [exact H|]. apply in_app_iff. right. left. reflexivity.
  - apply IH. clear - H. destruct a as [p t]. cbn [app] in H. destruct (l1 ++ x :: l2 ++ y :: l3) as [|[q u] l] eqn:E; [destruct l1; discriminate|]. cbn in H. apply H.
Qed.
Lemma describes_forwards P ts : describes P ts -> forwards ts.
Proof.
  destruct ts as [|[p t] ts]; [intros []|]. intros [_ H]. revert p t H. induction ts as [|[q u] ts IH]; intros p t H; [exact I|].
  destruct H as (H1 & _ & H3). split; [exact H1|]. apply (IH q u H3).
Qed.
Lemma flat_map_two {A B} (f : A -> list B) l1 x l2 y l3 p q : In p (f x) -> In q (f y) ->
  exists m1 m2 m3, flat_map f (l1 ++ x :: l2 ++ y :: l3) = m1 ++ p :: m2 ++ q :: m3.
Proof.
  intros HP HQ. apply in_split in HP. apply in_split in HQ. destruct HP as (a & b & HP). destruct HQ as (c & d & HQ).
  exists (flat_map f l1 ++ a), (b ++ flat_map f l2 ++ c), (d ++ flat_map f l3).
  rewrite flat_map_app. cbn [flat_map]. rewrite flat_map_app. cbn [flat_map]. rewrite HP, HQ. repeat (rewrite <- !app_assoc; cbn [app]). reflexivity.
Qed.
Lemma backwards ds l1 a b l2 a' b' l3 : ds = l1 ++ (a, b) :: l2 ++ (a', b') :: l3 ->
  s < a -> a <= e -> a' < a -> s < b' -> a' <= b' -> ~ forwards (wire_transitions ds range).
Proof.
  intros -> H1 H2 H3 H4 H5 C.
  assert (P1 : In (ed a, TTAB) (tab_marks range (a, b))).
  { unfold tab_marks, range. apply in_app_iff. right. apply in_app_iff. left. rewrite (proj2 (qltb_lt s a)) by exact H1. rewrite (proj2 (qleb_le a e)) by exact H2. cbn [andb].
    change (s, e) with range. rewrite clamp_ed by qlra. left. reflexivity. }
  assert (P2 : exists p, In (p, TTAB) (tab_marks range (a', b')) /\ p < ed a).
  { destruct (Qclt_le_dec s a') as [SA|SA].
    - exists (ed a'). split.
      + unfold tab_marks, range. apply in_app_iff. right. apply in_app_iff. left. rewrite (proj2 (qltb_lt s a')) by exact SA. rewrite (proj2 (qleb_le a' e)) by qlra. cbn [andb].
        change (s, e) with range. rewrite clamp_ed by qlra. left. reflexivity.
      + apply qdiv_mono_lt; [exact W|qlra].
    - exists 0. split.
      + unfold tab_marks, range. apply in_app_iff. left. rewrite (proj2 (qleb_le a' s)) by exact SA. rewrite (proj2 (qltb_lt s b')) by exact H4. left. reflexivity.
      + rewrite <- ed_s. apply qdiv_mono_lt; [exact W|qlra]. }
  destruct P2 as (p & P2 & LT). destruct (flat_map_two (tab_marks range) l1 (a, b) l2 (a', b') l3 _ _ P1 P2) as (m1 & m2 & m3 & E).
  assert (X : exists n1 n3, wire_transitions (l1 ++ (a, b) :: l2 ++ (a', b') :: l3) range = n1 ++ (ed a, TTAB) :: m2 ++ (p, TTAB) :: n3).
  { unfold wire_transitions. rewrite E. set (M := m1 ++ (ed a, TTAB) :: m2 ++ (p, TTAB) :: m3).
    assert (Y : exists n1, match M with [] => [(0, TNORMAL)] | (p0, _) :: _ => if negb (qeqb p0 0) then (0, TNORMAL) :: M else M end = n1 ++ (ed a, TTAB) :: m2 ++ (p, TTAB) :: m3).
    { destruct M as [|[p0 t0] M'] eqn:EM; [destruct m1; discriminate|]. destruct (negb (qeqb p0 0)); [exists ((0, TNORMAL) :: m1)|exists m1]; rewrite <- EM; reflexivity. }
    destruct Y as (n1 & Y). rewrite Y. destruct (negb _); exists n1; [exists (m3 ++ [(1, TIGNORE)])|exists m3; reflexivity].
    rewrite <- app_assoc. cbn [app]. rewrite <- app_assoc. reflexivity. }
  destruct X as (n1 & n3 & X). rewrite X in C. apply forwards_app in C. cbn [fst] in C. exact (Qclt_not_le _ _ LT C).
Qed.
End Edge.

(** ** The tabs of a wire *)
Section Wire.
Variables (c : nat) (width length : Qc).
Hypotheses (HW : 0 < width) (HL : 0 < length) (HC : (1 <= c)%nat) (HF : width * qz (Z.of_nat c) <= length).
Let h := width / qz 2 / length.
Let C := qz (Z.of_nat c).
Let CP : 0 < C. Proof. apply qz_pos. lia. Qed.
Let HP : 0 < h.
Proof. unfold h. apply lt_qdiv; [exact HL|]. replace (0 * length) with 0 by ring. apply lt_qdiv; [apply qz_pos; lia|]. replace (0 * qz 2) with 0 by ring. exact HW. Qed.
Let H2 : (h + h) * C <= 1.
Proof.
  pose proof (half_width width length HL) as HH. fold h in HH. apply Qcnot_lt_le. intros K.
  assert (0 < ((h + h) * C - 1) * length) by (apply qmul_lt; [qlra|exact HL]).
  replace (((h + h) * C - 1) * length) with ((h + h) * length * C - length) in H by ring. rewrite HH in H. fold C in HF. qlra.
Qed.
Definition center (k : Z) : Qc := qz k / C.
Definition tab_at (k : Z) : Qc * Qc := (center k - h, center k + h).

Lemma center_0 : center 0 = 0.
Proof. unfold center. rewrite qz_0. unfold Qcdiv. ring. Qed.
Lemma center_c : center (Z.of_nat c) = 1.
Proof. unfold center, Qcdiv. apply Qcmult_inv_r, qne0, CP. Qed.
Lemma tabs_apart k k' : (k < k')%Z -> center k + h <= center k' - h.
Proof.
  intros H. assert (E : center k' - center k = qz (k' - k) / C) by (unfold center, Z.sub; rewrite (qz_plus k'), qz_opp; unfold Qcdiv; ring).
  assert (h + h <= qz (k' - k) / C); [|qlra]. apply le_qdiv; [exact CP|]. assert (1 <= qz (k' - k)) by (rewrite <- qz_1; apply qz_le; lia). qlra.
Qed.
Lemma tab_proper k : center k - h < center k + h.
Proof. qlra. Qed.

Lemma wire_tab_ds_eq : wire_tab_ds c width length =
  Ok (tab_at 0 :: tab_at (Z.of_nat c) :: map (fun k => tab_at (Z.of_nat k)) (seq 1 (c - 1))).
Proof.
  unfold wire_tab_ds. rewrite (proj2 (qeqb_neq length 0)) by (apply qne0, HL). f_equal.
  replace (1 / length * (width / qz 2)) with h by (unfold h, Qcdiv; ring). fold C.
  assert (SQ : forall n, (1 <= n)%nat -> seq 0 n = 0%nat :: seq 1 (n - 1)) by (intros [|n] Hn; [lia|]; cbn [seq]; rewrite Nat.sub_succ, Nat.sub_0_r; reflexivity).
  rewrite (SQ c HC). cbn [flat_map app].
  pose proof center_0 as E0. pose proof center_c as E1. unfold center in E0. change (Z.of_nat 0) with 0%Z. rewrite E0. cbn [fst snd].
  rewrite (proj2 (qltb_lt (0 - h) 0)) by qlra.
  assert (S1 : qltb 1 (0 + h) = false).
  { apply qltb_nlt. assert (h + h <= 1). { assert (0 <= (h + h) * (C - 1)); [|qlra]. apply qmul_pos; [qlra|]. assert (1 <= C); [|qlra]. unfold C. rewrite <- qz_1. apply qz_le. lia. } qlra. }
  rewrite S1. cbn [app]. assert (T0 : (0 - h, 0 + h) = tab_at 0) by (unfold tab_at; rewrite center_0; reflexivity). rewrite T0.
  assert (T1 : (0 - h + 1, 0 + h + 1) = tab_at (Z.of_nat c)) by (unfold tab_at; rewrite E1; f_equal; ring). rewrite T1. do 2 (apply f_equal).
  assert (A : forall k, (1 <= k < c)%nat -> qltb (center (Z.of_nat k) - h) 0 = false /\ qltb 1 (center (Z.of_nat k) + h) = false).
    { intros k Hk. pose proof (tabs_apart 0 (Z.of_nat k) ltac:(lia)) as K1. pose proof (tabs_apart (Z.of_nat k) (Z.of_nat c) ltac:(lia)) as K2.
      rewrite center_0 in K1. rewrite E1 in K2. split; apply qltb_nlt; qlra. }
    assert (G : forall m a, (1 <= a)%nat -> (a + m <= c)%nat ->
      flat_map (fun k => let d := qz (Z.of_nat k) / C in (d - h, d + h) :: (if qltb (d - h) 0 then [(d - h + 1, d + h + 1)] else []) ++ (if qltb 1 (d + h) then [(d - h - 1, d + h - 1)] else [])) (seq a m)
      = map (fun k => tab_at (Z.of_nat k)) (seq a m)).
    { induction m as [|m IH]; intros a A1 A2; [reflexivity|]. cbn [seq flat_map map]. cbv zeta. destruct (A a ltac:(lia)) as [K1 K2]. unfold center in K1, K2. rewrite K1, K2. cbn [app].
      f_equal. apply IH; lia. }
    apply G; lia.
Qed.

Definition wire_tabs : list (Qc * Qc) := tab_at 0 :: tab_at (Z.of_nat c) :: map (fun k => tab_at (Z.of_nat k)) (seq 1 (c - 1)).
Lemma wire_tabs_in t : In t wire_tabs <-> exists k, (0 <= k <= Z.of_nat c)%Z /\ t = tab_at k.
Proof.
  unfold wire_tabs. split.
  - intros [<-|[<-|H]]; [exists 0%Z; split; [lia|reflexivity]|exists (Z.of_nat c); split; [lia|reflexivity]|].
    apply in_map_iff in H. destruct H as (k & <- & HK). apply in_seq in HK. exists (Z.of_nat k). split; [lia|reflexivity].
  - intros (k & Hk & ->). destruct (Z.eq_dec k 0) as [->|N0]; [left; reflexivity|]. destruct (Z.eq_dec k (Z.of_nat c)) as [->|N1]; [right; left; reflexivity|].
    right. right. apply in_map_iff. exists (Z.to_nat k). rewrite Z2Nat.id by lia. split; [reflexivity|]. apply in_seq. lia.
Qed.
Lemma wire_tabs_proper t : In t wire_tabs -> fst t <= snd t.
Proof. intros H. apply wire_tabs_in in H. destruct H as (k & _ & ->). cbn. apply Qclt_le_weak, tab_proper. Qed.

(** On the wire, the list of tabs is what was asked for. *)
Lemma wire_tabs_meaning x : 0 < x -> x < 1 -> (in_some wire_tabs x <-> in_wire_tab c width length x).
Proof.
  intros X0 X1. unfold in_some, in_wire_tab.
  assert (E : forall y, qabs y * length < width / qz 2 <-> qabs y < h) by (intros y; unfold h; symmetry; apply lt_qdiv, HL). split.
  - intros (t & HI & K1 & K2). apply wire_tabs_in in HI. destruct HI as (k & Hk & ->). cbn [tab_at fst snd] in K1, K2. exists k. apply E, qabs_lt. fold C. fold (center k). split; qlra.
  - intros (k & HK). apply E, qabs_lt in HK. fold C in HK. fold (center k) in HK. destruct HK as [K1 K2]. exists (tab_at k). split; [|cbn; split; qlra].
    apply wire_tabs_in. exists k. split; [|reflexivity].
    destruct (Z.ltb_spec k 0) as [L|L]. { exfalso. pose proof (tabs_apart k 0 L) as T. rewrite center_0 in T. qlra. }
    destruct (Z.ltb_spec (Z.of_nat c) k) as [L'|L']. { exfalso. pose proof (tabs_apart (Z.of_nat c) k L') as T. rewrite center_c in T. qlra. }
    lia.
Qed.

Lemma middle_in_order : forall m a lo, lo <= center (Z.of_nat a) - h -> in_order lo (map (fun k => tab_at (Z.of_nat k)) (seq a m)).
Proof.
  induction m as [|m IH]; intros a lo H; [exact I|]. cbn [seq map in_order tab_at]. split; [exact H|]. split; [apply Qclt_le_weak, tab_proper|].
  apply IH. apply tabs_apart. lia.
Qed.
Lemma in_order_filter f lo ds : in_order lo ds -> in_order lo (filter f ds).
Proof.
  revert lo. induction ds as [|[a b] ds IH]; intros lo H; [exact I|]. destruct H as (H1 & H3 & H4). cbn [filter]. destruct (f (a, b)).
  - split; [exact H1|]. split; [exact H3|]. apply IH, H4.
  - apply (in_order_weaken b); [qlra|]. apply IH, H4.
Qed.

Lemma touching_in_order s e : ~ wraps_behind c width length s e -> in_order (- h) (filter (touches s e) wire_tabs).
Proof.
  intros NW.
  destruct (qltb_spec e (1 - h)) as [L|L].
  - (* the wrapped tab does not touch *)
    unfold wire_tabs. cbn [filter]. replace (touches s e (tab_at (Z.of_nat c))) with false.
    2: { symmetry. unfold touches, tab_at. rewrite center_c. cbn [fst snd]. rewrite (proj2 (qleb_nle (1 - h) e)) by exact L. apply andb_false_r. }
    change (in_order (- h) (filter (touches s e) (tab_at 0 :: map (fun k => tab_at (Z.of_nat k)) (seq 1 (c - 1))))).
    apply in_order_filter. cbn [in_order]. unfold tab_at at 1. rewrite center_0. split; [qlra|]. split; [qlra|].
    apply middle_in_order. pose proof (tabs_apart 0 (Z.of_nat 1) ltac:(lia)) as T. rewrite center_0 in T. exact T.
  - apply Qcnot_lt_le in L.
    (* no other tab touches, except possibly the first when it is the only other one *)
    assert (MID : filter (touches s e) (map (fun k => tab_at (Z.of_nat k)) (seq 1 (c - 1))) = []).
    { assert (ALL : forall k, (1 <= k < c)%nat -> touches s e (tab_at (Z.of_nat k)) = false).
      { intros k Hk. unfold touches, tab_at. cbn [fst snd]. destruct (qltb_spec s (center (Z.of_nat k) + h)) as [T|T]; [|reflexivity]. exfalso. apply NW. unfold wraps_behind. fold h. cbv zeta. split; [|split; [exact L|]].
        - pose proof (tabs_apart (Z.of_nat k) (Z.of_nat c) ltac:(lia)) as A. rewrite center_c in A. qlra.
        - exists (Z.of_nat k). split; [lia|exact T]. }
      assert (AUX : forall m a, (1 <= a)%nat -> (a + m <= c)%nat -> filter (touches s e) (map (fun k => tab_at (Z.of_nat k)) (seq a m)) = []).
      { induction m as [|m IH]; intros a A1 A2; [reflexivity|]. cbn [seq map filter]. rewrite ALL by lia. apply IH; lia. }
      apply AUX; lia. }
    unfold wire_tabs. change (tab_at 0 :: tab_at (Z.of_nat c) :: map (fun k => tab_at (Z.of_nat k)) (seq 1 (c - 1))) with ([tab_at 0; tab_at (Z.of_nat c)] ++ map (fun k => tab_at (Z.of_nat k)) (seq 1 (c - 1))).
    rewrite filter_app, MID, app_nil_r. apply in_order_filter. pose proof (tabs_apart 0 (Z.of_nat c) ltac:(lia)) as T. cbn [in_order tab_at].
    unfold tab_at. cbn [in_order]. rewrite center_0, center_c in *. split; [qlra|]. split; [qlra|]. split; [exact T|]. split; [qlra|exact I].
Qed.
Lemma wire_transitions_good s e : 0 <= s -> s < e -> e <= 1 -> ~ wraps_behind c width length s e ->
  describes (fun d => in_wire_tab c width length (on_wire (s, e) d)) (wire_transitions wire_tabs (s, e)).
Proof.
  intros S0 SE E1 NW. assert (HO := touching_in_order s e NW).
  pose proof (wire_describes s e SE wire_tabs (- h) wire_tabs_proper HO) as D. revert D.
  apply describes_ext'; [|apply wire_transitions_bound].
  intros d D1 D2. destruct (on_wire_range s e SE d D1 D2) as [X1 X2]. apply wire_tabs_meaning; qlra.
Qed.

Lemma wire_transitions_bad s e : 0 <= s -> s < e -> e <= 1 -> wraps_behind c width length s e -> ~ forwards (wire_transitions wire_tabs (s, e)).
Proof.
  intros S0 SE E1 (W1 & W2 & k & Hk & W3). fold h in W1, W2, W3. fold C in W3. fold (center k) in W3.
  assert (HI : In (tab_at k) (map (fun k => tab_at (Z.of_nat k)) (seq 1 (c - 1)))).
  { apply in_map_iff. exists (Z.to_nat k). rewrite Z2Nat.id by lia. split; [reflexivity|]. apply in_seq. lia. }
  apply in_split in HI. destruct HI as (l2 & l3 & HI). pose proof (tabs_apart k (Z.of_nat c) ltac:(lia)) as T. rewrite center_c in T.
  apply (backwards s e SE wire_tabs [tab_at 0] (1 - h) (1 + h) l2 (center k - h) (center k + h) l3).
  - unfold wire_tabs. rewrite HI. unfold tab_at at 2. rewrite center_c. reflexivity.
  - exact W1.
  - exact W2.
  - qlra.
  - exact W3.
  - apply Qclt_le_weak, tab_proper.
Qed.
End Wire.
