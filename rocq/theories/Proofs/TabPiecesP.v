(** * Proofs: applying tabs *)
From Verif Require Import Base.Py Model.Tabs Spec.Wires Spec.Tabs Proofs.GeomP Proofs.PocketP Proofs.InterpP Proofs.TabsP Proofs.WireTabsP.
From Coq Require Import Lia.
Local Open Scope Qc_scope.
Local Open Scope list_scope.

(** ** Shares of the edges *)
Lemma sum_lengths_eq ls : sum_lengths ls = qsum ls.
Proof.
  unfold sum_lengths. assert (G : forall ls a, fold_left Qcplus ls a = a + qsum ls).
  { induction ls0 as [|l ls0 IH]; intros a; cbn [fold_left qsum]; [ring|]. rewrite IH. ring. }
  rewrite G. ring.
Qed.
Lemma qsum_nonneg ls : Forall (fun l => 0 < l) ls -> 0 <= qsum ls.
Proof. induction 1; cbn [qsum]; [discriminate|]. qlra. Qed.

Lemma edge_ranges_shares total before ls : 0 < total -> Forall (fun l => 0 < l) ls -> before + qsum ls <= total ->
  edge_ranges total (before / total) ls = shares total before ls.
Proof.
  intros HT. revert before. induction ls as [|l ls IH]; intros before HF HB; [reflexivity|]. inversion HF as [|? ? HL HF']; subst. cbn [qsum edge_ranges shares] in *.
  assert (E : before / total + l / total = (before + l) / total) by (unfold Qcdiv; ring). rewrite E. pose proof (qsum_nonneg ls HF') as HN.
  rewrite IH by (assumption || qlra). unfold qmin. destruct (qltb_spec 1 ((before + l) / total)) as [C|C]; [|reflexivity].
  exfalso. apply lt_qdiv in C; [|exact HT]. qlra.
Qed.
Lemma shares_range total before ls : 0 < total -> 0 <= before -> Forall (fun l => 0 < l) ls -> before + qsum ls <= total ->
  Forall (fun r => 0 <= fst r /\ fst r < snd r /\ snd r <= 1) (shares total before ls).
Proof.
  intros HT. revert before. induction ls as [|l ls IH]; intros before H0 HF HB; [constructor|]. inversion HF as [|? ? HL HF']; subst. cbn [qsum shares] in *.
  pose proof (qsum_nonneg ls HF') as HN. constructor; [|apply IH; [qlra|assumption|qlra]]. cbn [fst snd].
  split; [apply le_qdiv; [exact HT|]; qlra|]. split; [apply qdiv_mono_lt; [exact HT|qlra]|]. apply qdiv_le; [exact HT|]. qlra.
Qed.
Lemma load_edge_ranges_ok es : es <> [] -> Forall (fun e => 0 < e_length e) es ->
  let total := qsum (map e_length es) in
  0 < total /\ load_edge_ranges es = Ok (shares total 0 (map e_length es)) /\
  Forall (fun r => 0 <= fst r /\ fst r < snd r /\ snd r <= 1) (shares total 0 (map e_length es)).
Proof.
  intros NE HF total. assert (HF' : Forall (fun l => 0 < l) (map e_length es)) by (apply Forall_forall; intros l Hl; apply in_map_iff in Hl; destruct Hl as (e & <- & He); rewrite Forall_forall in HF; apply HF, He).
  assert (HT : 0 < total). { unfold total. destruct es as [|e es]; [contradiction NE; reflexivity|]. cbn [map qsum]. inversion HF' as [|? ? H1 H2]; subst. pose proof (qsum_nonneg _ H2). qlra. }
  split; [exact HT|]. split.
  - unfold load_edge_ranges. rewrite sum_lengths_eq. fold total. destruct es as [|e es]; [contradiction NE; reflexivity|].
    rewrite (proj2 (qeqb_neq total 0)) by (apply qne0, HT). f_equal. rewrite <- edge_ranges_shares; [f_equal; unfold Qcdiv; ring|exact HT|exact HF'|fold total; qlra].
  - apply shares_range; [exact HT|discriminate|exact HF'|fold total; qlra].
Qed.

(** ** Pieces of an edge *)
Section Pieces.
Variables (TK : tab_kernel) (z : Qc) (e : edge).
Hypotheses (ME : makes_edges TK) (EC : edge_on_curve TK e) (MV : moved_vertically TK e).

Lemma param_at_mono a b : 0 <= a -> a <= b -> b <= 1 -> tk_param_at TK e a <= tk_param_at TK e b.
Proof. apply EC. Qed.

Lemma vec_same_xy v w : vx v = vx w -> vy v = vy w -> V3 (vx v) (vy v) z = V3 (vx w) (vy w) z.
Proof. intros -> ->. reflexivity. Qed.

Lemma make_piece d1 d2 t q : 0 <= d1 -> d1 <= d2 -> d2 <= 1 ->
  (let '(q1, q2, rev) := edge_oriented_param e d1 d2 in
   match t with
   | TTAB => tk_make TK (project_z z (tk_curve TK e)) (tk_param_at TK e q1) (tk_param_at TK e q2) rev
   | _ => tk_make TK (fun p => tk_location TK e (tk_curve TK e p)) (tk_param_at TK e q1) (tk_param_at TK e q2) rev
   end) = Ok q -> piece_of TK z e d1 d2 t q.
Proof.
  intros H0 H12 H1. set (a := if e_reversed e then 1 - d2 else d1). set (b := if e_reversed e then 1 - d1 else d2).
  assert (EO : edge_oriented_param e d1 d2 = (a, b, e_reversed e)) by (unfold edge_oriented_param, a, b; destruct (e_reversed e); reflexivity).
  rewrite EO. assert (LE : tk_param_at TK e a <= tk_param_at TK e b) by (unfold a, b; destruct (e_reversed e); apply param_at_mono; qlra).
  destruct EC as (E1 & _ & _ & _). destruct ME as [MK _].
  set (cv := match t with TTAB => project_z z (tk_curve TK e) | _ => fun p => tk_location TK e (tk_curve TK e p) end).
  intros H. assert (H' : tk_make TK cv (tk_param_at TK e a) (tk_param_at TK e b) (e_reversed e) = Ok q) by (unfold cv; destruct t; exact H). clear H.
  assert (CV : forall p, cv p = at_height_of t z (e_param e p)).
  { intros p. unfold cv, at_height_of. rewrite E1. destruct t; try reflexivity. unfold project_z. destruct (MV (tk_curve TK e p)) as [X Y]. rewrite X, Y. reflexivity. }
  destruct (MK _ _ _ _ _ LE H') as (S & R & P0 & P1 & PC). unfold piece_of. fold a b.
  split; [exact S|]. split; [exact R|]. destruct S as (S0 & S1 & _). rewrite P0 in S0. rewrite P1 in S1. rewrite PC in S0, S1. rewrite CV in S0, S1.
  unfold travel_start, travel_end, travel_at. rewrite R. unfold a, b in S0, S1. split; [|split; [|split; [exact P0|split; [exact P1|]]]].
  - destruct (e_reversed e); symmetry; assumption.
  - destruct (e_reversed e); symmetry; assumption.
  - intros p. rewrite PC. apply CV.
Qed.

Lemma tab_pieces_spec : forall ts previous out, forwards ts -> (forall m, In m ts -> 0 <= fst m /\ fst m <= 1) ->
  (2 <= length ts)%nat ->
  match previous with Some q => vx (travel_end q) = vx (travel_at TK e (fst (hd (0, TNORMAL) ts))) /\ vy (travel_end q) = vy (travel_at TK e (fst (hd (0, TNORMAL) ts))) | None => True end ->
  tab_pieces TK z e previous ts = Ok out ->
  match previous with
  | None => pieces_of TK z e ts out
  | Some q => exists l next more, out = l :: next :: more /\ vertical_link (travel_end q) (travel_start next) l /\ pieces_of TK z e ts (next :: more)
  end.
Proof.
  induction ts as [|[d1 t1] ts IH]; intros previous out HF HB HL HP H; [cbn in HL; lia|].
  destruct ts as [|[d2 t2] ts]; [cbn in HL; lia|]. cbn [tab_pieces] in H.
  destruct HF as [F1 F2]. pose proof (HB _ (or_introl eq_refl)) as [B1 _]. pose proof (HB _ (or_intror (or_introl eq_refl))) as [_ B2]. cbn [fst] in B1, B2.
  destruct (edge_oriented_param e d1 d2) as [[q1 q2] rev] eqn:EO. apply rbind_ok in H. destruct H as (q & Hq & H).
  assert (PQ : piece_of TK z e d1 d2 t1 q).
  { apply make_piece; [exact B1|exact F1|exact B2|]. rewrite EO. destruct t1; exact Hq. }
  apply rbind_ok in H. destruct H as (link & Hlink & H). apply rbind_ok in H. destruct H as (more & Hmore & H). injection H as <-.
  destruct PQ as (Q1 & Q2 & Q3 & Q4 & Q5). assert (PQ : piece_of TK z e d1 d2 t1 q) by (split; [exact Q1|split; [exact Q2|split; [exact Q3|split; [exact Q4|exact Q5]]]]).
  assert (REST : pieces_of TK z e ((d1, t1) :: (d2, t2) :: ts) (q :: more)).
  { cbn [pieces_of]. exists q. split; [exact PQ|]. destruct ts as [|m3 ts].
    - cbn [tab_pieces] in Hmore. injection Hmore as <-. reflexivity.
    - specialize (IH (Some q) more F2 (fun m Hm => HB m (or_intror Hm))). cbn [length hd fst] in IH. 
      assert (XY : vx (travel_end q) = vx (travel_at TK e d2) /\ vy (travel_end q) = vy (travel_at TK e d2)) by (rewrite Q4; destruct t1; split; reflexivity).
      destruct (IH ltac:(lia) XY Hmore) as (l & next & more' & -> & VL & PO). exists l, next, more'. split; [reflexivity|]. split; [exact VL|exact PO]. }
  destruct previous as [pq|].
  - apply rbind_ok in Hlink. destruct Hlink as (l & Hl & Hlink). injection Hlink as <-. exists l, q, more. split; [reflexivity|]. split; [|exact REST].
    destruct ME as [_ ML]. destruct (ML _ _ _ Hl) as (L1 & L2 & L3 & L4). cbn [hd fst] in HP. destruct HP as [P1 P2].
    assert (ET : edge_end_point pq = travel_end pq) by reflexivity. assert (ES : edge_start_point q = travel_start q) by reflexivity. rewrite ET in L2. rewrite ES in L3.
    split; [exact L4|]. split; [exact L1|]. split; [exact L2|]. split; [exact L3|]. rewrite P1, P2, Q3. destruct t1; split; reflexivity.
  - injection Hlink as <-. exact REST.
Qed.

Lemma usable_bounds ts : usable ts -> forall m, In m ts -> 0 <= fst m /\ fst m <= 1.
Proof.
  intros (_ & HF & H0 & H1) m HM. destruct ts as [|a ts]; [contradiction|]. cbn [hd] in H0.
  assert (UP : forall ts (a : Qc * transition), forwards (a :: ts) -> forall m, In m (a :: ts) -> fst a <= fst m /\ fst m <= fst (last (a :: ts) (0, TNORMAL))).
  { clear. induction ts as [|b ts IH]; intros a HF m HM.
    - destruct HM as [<-|[]]. cbn. split; apply Qcle_refl.
    - destruct a as [p u], b as [q v]. destruct HF as [F1 F2]. change (last ((p, u) :: (q, v) :: ts) (0, TNORMAL)) with (last ((q, v) :: ts) (0, TNORMAL)).
      pose proof (IH (q, v) F2 (q, v) (or_introl eq_refl)) as [_ K]. destruct HM as [<-|HM].
      + split; [apply Qcle_refl|]. cbn [fst] in *. qlra.
      + destruct (IH (q, v) F2 m HM) as [K1 K2]. cbn [fst] in *. split; [qlra|exact K2]. }
  destruct (UP ts a HF m HM) as [K1 K2]. rewrite H0 in K1. rewrite H1 in K2. split; assumption.
Qed.

Lemma tab_edge_spec ts out : usable ts -> tab_edge TK z e ts = Ok out -> replaced TK z e ts out.
Proof.
  intros U H. unfold tab_edge in H. unfold replaced.
  assert (N : forallb (fun m => is_normal (snd m)) ts = true <-> Forall (fun m : Qc * transition => snd m = TNORMAL) ts).
  { rewrite forallb_forall, Forall_forall. split; intros K m Hm; specialize (K m Hm); destruct (snd m); try discriminate; reflexivity. }
  destruct (forallb (fun m => is_normal (snd m)) ts).
  - left. split; [apply N; reflexivity|]. injection H as <-. reflexivity.
  - right. split; [intros C; apply N in C; discriminate|].
    exact (tab_pieces_spec ts None out (proj1 (proj2 U)) (usable_bounds ts U) (proj1 U) I H).
Qed.

(** Both ends of what replaces the edge, and its connectedness. *)
Lemma travel_at_0 : edge_sound e -> travel_at TK e 0 = travel_start e.
Proof.
  intros (S0 & S1 & _). destruct EC as (_ & P0 & P1 & _). unfold travel_at, travel_start. destruct (e_reversed e).
  - replace (1 - 0) with 1 by ring. rewrite P1. exact S1.
  - rewrite P0. exact S0.
Qed.
Lemma travel_at_1 : edge_sound e -> travel_at TK e 1 = travel_end e.
Proof.
  intros (S0 & S1 & _). destruct EC as (_ & P0 & P1 & _). unfold travel_at, travel_end. destruct (e_reversed e).
  - replace (1 - 1) with 0 by ring. rewrite P0. exact S0.
  - rewrite P1. exact S1.
Qed.

Lemma pieces_ends : forall ts out, (2 <= length ts)%nat -> pieces_of TK z e ts out ->
  out <> [] /\ connected out /\ Forall edge_sound out /\
  (forall x, travel_start (hd x out) = at_height_of (snd (hd (0, TNORMAL) ts)) z (travel_at TK e (fst (hd (0, TNORMAL) ts)))) /\
  (forall x, exists t, (t = TTAB <-> ends_in_tab ts) /\ travel_end (last out x) = at_height_of t z (travel_at TK e (fst (last ts (0, TNORMAL))))).
Proof.
  induction ts as [|[d1 t1] ts IH]; intros out HL H; [cbn in HL; lia|]. destruct ts as [|[d2 t2] ts]; [cbn in HL; lia|].
  cbn [pieces_of] in H. destruct H as (q & PQ & H). destruct PQ as (Q1 & Q2 & Q3 & Q4 & _). destruct ts as [|m3 ts].
  - subst out. split; [discriminate|]. split; [exact I|]. split; [constructor; [exact Q1|constructor]|]. split; [intros x; exact Q3|].
    intros x. exists t1. cbn [last ends_in_tab fst]. split; [reflexivity|exact Q4].
  - destruct H as (l & next & more & -> & VL & PO). specialize (IH (next :: more)). cbn [length] in IH.
    destruct (IH ltac:(lia) PO) as (_ & C & S & _ & E). destruct VL as (V1 & V2 & V3 & V4 & _).
    split; [discriminate|]. split; [|split; [|split]].
    + split; [symmetry; exact V3|]. split; [exact V4|exact C].
    + constructor; [exact Q1|]. constructor; [exact V2|exact S].
    + intros x. exact Q3.
    + intros x. destruct (E x) as (t & T1 & T2). exists t. split; [exact T1|]. exact T2.
Qed.

(** The replacement starts and ends where the edge does, at the heights of its states. *)
Lemma replaced_ends ts out : edge_sound e -> usable ts -> replaced TK z e ts out ->
  out <> [] /\ connected out /\ Forall edge_sound out /\
  (forall x, exists t, (t = TTAB <-> starts_in_tab ts) /\ travel_start (hd x out) = at_height_of t z (travel_start e)) /\
  (forall x, exists t, (t = TTAB <-> ends_in_tab ts) /\ travel_end (last out x) = at_height_of t z (travel_end e)).
Proof.
  intros S U [[N ->]|[_ P]].
  - split; [discriminate|]. split; [exact I|]. split; [constructor; [exact S|constructor]|]. split; intros x; exists TNORMAL; cbn [hd last at_height_of]; (split; [|reflexivity]); (split; [discriminate|]).
    + destruct ts as [|[p t] ts]; [intros []|]. inversion N as [|? ? N1 N2]; subst. cbn in N1. subst t. intros [].
    + clear U. induction ts as [|[p t] ts IH]; [intros []|]. inversion N as [|? ? N1 N2]; subst. cbn in N1. subst t.
      cbn [ends_in_tab]. destruct ts as [|m [|m2 ts]]; [intros []|discriminate|exact (IH N2)].
  - destruct U as (L & F & H0 & H1). destruct (pieces_ends ts out L P) as (K1 & K2 & K3 & K4 & K5). rewrite H0 in K4. rewrite travel_at_0 in K4 by exact S.
    split; [exact K1|]. split; [exact K2|]. split; [exact K3|]. split.
    + intros x. exists (snd (hd (0, TNORMAL) ts)). split; [|apply K4]. destruct ts as [|[p t] ts]; [cbn in L; lia|]. cbn. destruct t; split; intros; try discriminate; try contradiction; exact I || reflexivity.
    + intros x. destruct (K5 x) as (t & T1 & T2). exists t. split; [exact T1|]. rewrite T2, H1, travel_at_1 by exact S. reflexivity.
Qed.
End Pieces.

(** ** Whole wires *)
Lemma connected_app a b : a <> [] -> b <> [] -> connected a -> connected b -> (forall x, travel_end (last a x) = travel_start (hd x b)) -> connected (a ++ b).
Proof.
  intros NA NB CA CB H. induction a as [|e a IH]; [contradiction NA; reflexivity|]. destruct a as [|e2 a].
  - destruct b as [|f b]; [contradiction NB; reflexivity|]. split; [exact (H e)|exact CB].
  - destruct CA as [C1 C2]. split; [exact C1|]. apply IH; [discriminate|exact C2|exact H].
Qed.

Lemma hd_ne {A} (l : list A) x y : l <> [] -> hd x l = hd y l.
Proof. destruct l; [intros H; contradiction H; reflexivity|reflexivity]. Qed.
Lemma last_ne {A} (l : list A) x y : l <> [] -> last l x = last l y.
Proof. intros H. destruct (exists_last H) as (l' & z & ->). rewrite !last_last. reflexivity. Qed.


Lemma tabs_connected TK z : forall es ms outs,
  Forall2 (fun em out => edge_sound (fst em) /\ edge_on_curve TK (fst em) /\ usable (snd em) /\ replaced TK z (fst em) (snd em) out) (combine es ms) outs ->
  length es = length ms -> connected es -> tabs_meet ms -> connected (concat outs).
Proof.
  induction es as [|e es IH]; intros ms outs H HL HC HM.
  - cbn [combine] in H. inversion H; subst. exact I.
  - destruct ms as [|m ms]; [discriminate|]. cbn [combine] in H. inversion H as [|? out ? outs' (S & EC & U & R) H']; subst. cbn [fst snd] in *. injection HL as HL.
    destruct (replaced_ends TK z e EC m out S U R) as (N & C & _ & _ & E). cbn [concat].
    destruct es as [|e2 es]; destruct ms as [|m2 ms]; try discriminate.
    { cbn [combine] in H'. inversion H'; subst. cbn. rewrite app_nil_r. exact C. }
    cbn [combine] in H'. inversion H' as [|? out2 ? outs2 (S2 & EC2 & U2 & R2) H2]; subst. cbn [fst snd] in *.
    destruct (replaced_ends TK z e2 EC2 m2 out2 S2 U2 R2) as (N2 & _ & _ & B2 & _).
    destruct HC as [HC1 HC2]. destruct HM as [HM1 HM2].
    assert (NN : concat (out2 :: outs2) <> []) by (cbn [concat]; intros K; apply app_eq_nil in K; destruct K as [K _]; exact (N2 K)).
    apply connected_app; [exact N|exact NN|exact C|exact (IH (m2 :: ms) (out2 :: outs2) H' HL HC2 HM2)|].
    intros x. destruct (E x) as (t & T1 & ->). destruct (B2 x) as (t2 & T2 & B). 
    assert (HH : hd x (concat (out2 :: outs2)) = hd x out2) by (cbn [concat]; destruct out2; [contradiction N2; reflexivity|reflexivity]). rewrite HH, B, HC1.
    destruct t, t2; cbn [at_height_of]; try reflexivity; exfalso; assert (X : TTAB = TTAB) by reflexivity.
    all: try (apply T1 in X; apply HM1, T2 in X; discriminate). all: apply T2 in X; apply HM1, T1 in X; discriminate.
Qed.

Lemma Forall2_combine {A B} (R : A -> B -> Prop) la lb : Forall2 R la lb -> Forall (fun p => R (fst p) (snd p)) (combine la lb).
Proof. induction 1; cbn; constructor; assumption. Qed.

(** [apply_tabs] as a whole. *)
Lemma apply_tabs_spec TK es tab_z t w : makes_edges TK ->
  (forall e, In e es -> edge_sound e /\ edge_on_curve TK e /\ moved_vertically TK e) ->
  tk_zmin TK es < tab_z ->
  apply_tabs TK es tab_z t = Ok w ->
  exists ms, wire_marks t (tk_length TK es) es = Ok ms /\
    (length ms = length es -> (forall m, In m ms -> usable m) ->
     exists outs, Forall2 (fun em out => replaced TK tab_z (fst em) (snd em) out) (combine es ms) outs /\
       (connected es -> tabs_meet ms -> connected (concat outs)) /\
       match tk_assemble TK (concat outs) with Some w' => w = w' | None => w = es end).
Proof.
  intros ME HE HZ H. unfold apply_tabs in H. rewrite (proj2 (qleb_nle tab_z (tk_zmin TK es))) in H by exact HZ.
  apply rbind_ok in H. destruct H as (ms & Hms & H). exists ms. split; [exact Hms|]. intros HL HU.
  apply rbind_ok in H. destruct H as (outs & Ho & H). apply mapM_ok in Ho. exists outs.
  assert (F : Forall2 (fun em out => edge_sound (fst em) /\ edge_on_curve TK (fst em) /\ usable (snd em) /\ replaced TK tab_z (fst em) (snd em) out) (combine es ms) outs).
  { assert (IN : forall em, In em (combine es ms) -> In (fst em) es /\ In (snd em) ms) by (intros [e m] Hem; split; [eapply in_combine_l|eapply in_combine_r]; exact Hem).
    clear - Ho IN HE HU ME. induction Ho as [|em out l outs Hem Ho IH]; constructor.
    - destruct (IN em (or_introl eq_refl)) as [I1 I2]. destruct (HE _ I1) as (S & EC & MV). pose proof (HU _ I2) as U.
      split; [exact S|]. split; [exact EC|]. split; [exact U|]. apply tab_edge_spec; assumption.
    - apply IH. intros x Hx. apply IN. right. exact Hx. }
  split; [|split].
  - clear - F. induction F as [|? ? ? ? (_ & _ & _ & R) F IH]; constructor; assumption.
  - intros HC HM. apply (tabs_connected TK tab_z es ms outs F); [symmetry; exact HL|exact HC|exact HM].
  - injection H as <-. destruct (tk_assemble TK (concat outs)); reflexivity.
Qed.

Lemma apply_tabs_above TK es tab_z t : tab_z <= tk_zmin TK es -> apply_tabs TK es tab_z t = Ok es.
Proof. intros H. unfold apply_tabs. rewrite (proj2 (qleb_le tab_z (tk_zmin TK es))) by exact H. reflexivity. Qed.

(** Transitions that describe tabs are usable. *)
Lemma describes_usable P ts : describes P ts -> (2 <= length ts)%nat -> usable ts.
Proof.
  intros D L. split; [exact L|]. split; [apply (describes_forwards P), D|]. destruct ts as [|[p t] ts]; [contradiction|]. destruct D as [-> D]. split; [reflexivity|].
  rewrite last_cons. assert (G : forall ts p t, describes_from P p t ts -> fst (last ts (p, t)) = 1).
  { clear. induction ts as [|[q u] ts IH]; intros p t D; [exact D|]. rewrite last_cons. apply IH, D. }
  apply (G ts 0 t D).
Qed.
Lemma describes_two P ts : describes P ts -> (2 <= length ts)%nat.
Proof. destruct ts as [|[p t] [|m ts]]; [intros []|intros [-> D]; cbn in D; discriminate|cbn; lia]. Qed.
