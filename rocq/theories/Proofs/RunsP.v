From Verif Require Import Base.Str Base.Py Spec.Paths Spec.Moves Spec.Pockets Spec.Zigzag Spec.Surfaces Spec.Runs Model.Geometry Model.Plane Model.Command Model.Edges Model.Strategy Model.Surface
  Proofs.SurfaceP Proofs.SurfaceThmP Model.Job Proofs.RouteEx Proofs.SurfaceEx.
Local Open Scope Qc_scope.
Local Open Scope list_scope.

Lemma chopped_run_in limit seq runs : chopped limit seq runs -> forall run, In run runs -> Forall (within limit) run /\
  exists l1 l2, seq = l1 ++ run ++ l2 /\ (l1 = [] \/ exists l0 q, l1 = l0 ++ [q] /\ limit < vz q).
Proof.
  induction 1 as [gap HG|gap run rest runs HG NE HR HB HC IH]; intros r HI; [destruct HI|]. destruct HI as [<-|HI].
  - split; [exact HR|]. exists gap, rest. split; [reflexivity|]. destruct gap as [|g gap] using rev_ind; [left; reflexivity|clear IHgap].
    right. exists gap, g. split; [reflexivity|]. apply Forall_app in HG as [_ HG]. inversion HG; assumption.
  - destruct (IH r HI) as (W & l1 & l2 & -> & D). split; [exact W|]. exists (gap ++ run ++ l1), l2. split; [rewrite <- !app_assoc; reflexivity|].
    right. destruct D as [->|(l0 & q & -> & Q)].
    + exfalso. cbn [app] in HB. inversion HC as [? G|]; subst; [destruct HI|].
      assert (N : r <> []) by (pose proof (chopped_nonempty _ _ _ HC) as N; rewrite Forall_forall in N; apply N; exact HI).
      destruct r as [|p r]; [contradiction|]. cbn [app] in HB. inversion W as [|? ? W1 _]. unfold above, within in *. qlra.
    + exists (gap ++ run ++ l0), q. split; [rewrite <- !app_assoc; reflexivity|exact Q].
Qed.

Lemma chopped_starts limit seq runs : chopped limit seq runs -> forall l1 p l2, seq = l1 ++ p :: l2 -> vz p <= limit ->
  (l1 = [] \/ exists l0 q, l1 = l0 ++ [q] /\ limit < vz q) -> exists r, In (p :: r) runs.
Proof.
  assert (N : forall p, above limit p -> vz p <= limit -> False) by (intros p H1 H2; unfold above in *; qlra).
  induction 1 as [gap HG|gap run rest runs HG NE HR HB HC IH]; intros l1 p l2 E Hp D.
  - exfalso. subst gap. apply Forall_app in HG as [_ HG]. inversion HG; subst. eauto.
  - clear HC. revert l1 E D. induction gap as [|g gap IHg]; intros l1 E D.
    + cbn [app] in E. clear HG. destruct run as [|r run]; [contradiction|]. inversion HR as [|? ? HR1 HR2]; subst. destruct l1 as [|x l1].
      * cbn [app] in E. injection E as -> E. exists run. left. reflexivity.
      * cbn [app] in E. injection E as -> E. destruct D as [D|(l0 & q & D & Q)]; [discriminate D|].
        assert (G : exists l3, rest = l3 ++ p :: l2 /\ (l3 = [] \/ exists l4 q, l3 = l4 ++ [q] /\ limit < vz q)).
        { clear IH NE HR HB. revert x l1 l0 E D HR1. induction run as [|r run IHr]; intros x l1 l0 E D HR1.
          - exists l1. cbn [app] in E. split; [exact E|]. destruct l1 as [|y l1] using rev_ind; [left; reflexivity|clear IHl1]. right.
            exists l1, y. split; [reflexivity|]. rewrite app_comm_cons in D. apply app_inj_tail in D as [_ ->]. exact Q.
          - cbn [app] in E. inversion HR2 as [|? ? HR3 HR4]; subst. destruct l1 as [|y l1].
            + destruct l0 as [|y0 l0]; [|destruct l0; discriminate D]. cbn in D. injection D as ->. exfalso. unfold within in HR1. qlra.
            + cbn [app] in E. injection E as -> E. destruct l0 as [|x0 l0]; [discriminate D|]. cbn [app] in D. injection D as -> D.
              exact (IHr HR4 y l1 l0 E D HR3). }
        destruct G as (l3 & -> & D3). destruct (IH l3 p l2 eq_refl Hp D3) as (r' & R). exists r'. right. exact R.
    + inversion HG as [|? ? G1 G2]; subst. destruct l1 as [|x l1]; cbn [app] in E.
      * injection E as -> E. exfalso. eauto.
      * injection E as -> E. apply (IHg G2 l1 E). destruct D as [D|(l0 & q & D & Q)]; [discriminate D|].
        destruct l1 as [|y l1] using rev_ind; [left; reflexivity|clear IHl1]. right. exists l1, y. split; [reflexivity|].
        rewrite app_comm_cons in D. apply app_inj_tail in D as [_ ->]. exact Q.
Qed.

Lemma all_runs limit seqs runs : chopped_all limit seqs runs ->
  (forall p, (exists r, In (p :: r) runs) <-> starts_run limit seqs p) /\
  (forall a b, (exists r1 r2, In (r1 ++ a :: b :: r2) runs) <-> neighbours seqs a b /\ vz a <= limit /\ vz b <= limit).
Proof.
  intros (parts & F & ->). split; intros.
  - split.
    + intros (r & HI). apply in_concat in HI as (part & HP & HI). destruct (Forall2_in_r _ _ _ _ F HP) as (seq & HS & C).
      destruct (chopped_run_in _ _ _ C _ HI) as (W & l1 & l2 & -> & D). inversion W as [|? ? W1 _]; subst. split; [exact W1|].
      exists l1, (r ++ l2). split; [exact HS|exact D].
    + intros (W & l1 & l2 & HS & D). destruct (Forall2_in_l _ _ _ _ F HS) as (part & HP & C).
      destruct (chopped_starts _ _ _ C _ _ _ eq_refl W D) as (r & R). exists r. apply in_concat. eauto.
  - split.
    + intros (r1 & r2 & HI). apply in_concat in HI as (part & HP & HI). destruct (Forall2_in_r _ _ _ _ F HP) as (seq & HS & C).
      destruct (chopped_run_in _ _ _ C _ HI) as (W & l1 & l2 & -> & D). apply Forall_app in W as [_ W]. inversion W as [|? ? W1 W2]; subst. inversion W2 as [|? ? W3 _]; subst.
      split; [|split; assumption]. exists (l1 ++ r1), (r2 ++ l2). rewrite <- !app_assoc in *. cbn [app] in *. exact HS.
    + intros ((l1 & l2 & HS) & Ha & Hb). destruct (Forall2_in_l _ _ _ _ F HS) as (part & HP & C).
      destruct (chopped_pair _ _ _ C _ _ _ _ eq_refl Ha Hb) as (run & r1 & r2 & R & ->). exists r1, r2. apply in_concat. eauto.
Qed.

Lemma surface_cut_end depth q m : surface_cut depth q m -> straight_cut m /\ m_end m = AV (Some (vx q)) (Some (vy q)) (Some (qmax depth (vz q))).
Proof.
  intros (S & X & z & Z & L1 & L2 & D). split; [exact S|]. destruct (m_end m) as [[x|] [y|] z']; try discriminate X. cbn in X, Z. subst z'.
  injection X as -> ->. do 3 f_equal. unfold qmax. destruct (qltb depth (vz q)) eqn:E; [apply qltb_lt in E|apply qltb_nlt in E]; destruct D as [->| ->]; qlra.
Qed.

Lemma surfaced_exactly R S seqs depths ms : surfaced R S seqs depths ms ->
  (forall e, (exists m, In m ms /\ straight_cut m /\ m_end m = e) <->
     exists limit depth p q, In (limit, depth) (combine (pass_limits depths) depths) /\ neighbours seqs p q /\ vz p <= limit /\ vz q <= limit /\
       e = AV (Some (vx q)) (Some (vy q)) (Some (qmax depth (vz q)))) /\
  (R <> S -> forall x y, (exists m, In m ms /\ rapid m /\ az (m_end m) = Some S /\ xy (m_end m) = Some (x, y)) <->
     exists limit depth p, In (limit, depth) (combine (pass_limits depths) depths) /\ starts_run limit seqs p /\ x = vx p /\ y = vy p).
Proof.
  intros (passes & -> & F). split; [intros e|intros NRS x y]; split.
  - intros (m & HI & SC & <-). apply in_concat in HI as (ps & HP & HI).
    destruct (Forall2_in_r _ _ _ _ F HP) as ([limit depth] & HL & runs & groups & CH & -> & FM). cbn [fst snd] in *.
    apply in_concat in HI as (g & HG & HI).
    destruct (Forall2_in_r _ _ _ _ FM HG) as (run & HR & up & across & down & cuts & p & points & -> & -> & U & A & D & FC).
    assert (X : forall r, rapid r -> straight_cut r -> False) by (intros r R1 R2; destruct r; cbn in *; contradiction).
    destruct HI as [<-|[<-|[<-|HI]]]; [exact (False_ind _ (X _ (proj1 U) SC))|exact (False_ind _ (X _ (proj1 A) SC))|exact (False_ind _ (X _ (proj1 D) SC))|].
    destruct (Forall2_in_r _ _ _ _ FC HI) as (q & HQ & HS). destruct (surface_cut_end _ _ _ HS) as [_ E].
    apply in_split in HQ as (q1 & q2 & ->).
    assert (T : exists a r1 r2, p :: q1 ++ q :: q2 = r1 ++ a :: q :: r2).
    { destruct q1 as [|b q1] using rev_ind; [exists p, [], q2; reflexivity|clear IHq1]. exists b, (p :: q1), q2. cbn [app]. rewrite <- app_assoc. reflexivity. }
    destruct T as (a & r1 & r2 & T). rewrite T in HR. destruct (proj1 (proj2 (all_runs _ _ _ CH) a q)) as (N & Wa & Wq); [eauto|].
    exists limit, depth, a, q. auto.
  - intros (limit & depth & p & q & HL & N & Wp & Wq & ->). destruct (Forall2_in_l _ _ _ _ F HL) as (ps & HP & runs & groups & CH & -> & FM). cbn [fst snd] in *.
    destruct (proj2 (proj2 (all_runs _ _ _ CH) p q) (conj N (conj Wp Wq))) as (r1 & r2 & HR).
    destruct (Forall2_in_l _ _ _ _ FM HR) as (g & HG & up & across & down & cuts & p0 & points & -> & E & U & A & D & FC).
    assert (HQ : In q points).
    { destruct r1 as [|x r1]; cbn [app] in E; injection E as _ <-; [left; reflexivity|]. apply in_or_app. right. right. left. reflexivity. }
    destruct (Forall2_in_l _ _ _ _ FC HQ) as (m & HM & SC). destruct (surface_cut_end _ _ _ SC) as [C E2].
    exists m. split; [|split; assumption]. apply in_concat. eexists. split; [exact HP|]. apply in_concat. eexists. split; [exact HG|]. right. right. right. exact HM.
  - intros (m & HI & RA & Z & XY). apply in_concat in HI as (ps & HP & HI).
    destruct (Forall2_in_r _ _ _ _ F HP) as ([limit depth] & HL & runs & groups & CH & -> & FM). cbn [fst snd] in *.
    apply in_concat in HI as (g & HG & HI).
    destruct (Forall2_in_r _ _ _ _ FM HG) as (run & HR & up & across & down & cuts & p & points & -> & -> & U & A & D & FC).
    destruct HI as [<-|[<-|[<-|HI]]].
    + exfalso. destruct U as (_ & _ & U). congruence.
    + exfalso. destruct A as (_ & (_ & A) & _). congruence.
    + destruct D as (_ & _ & _ & _ & D). rewrite D in XY. exists limit, depth, p. split; [exact HL|]. split; [|split; congruence].
      apply (proj1 (all_runs _ _ _ CH)). eauto.
    + exfalso. destruct (Forall2_in_r _ _ _ _ FC HI) as (q & _ & (SC & _)). destruct m; cbn in *; contradiction.
  - intros (limit & depth & p & HL & ST & -> & ->). destruct (Forall2_in_l _ _ _ _ F HL) as (ps & HP & runs & groups & CH & -> & FM). cbn [fst snd] in *.
    destruct (proj2 (proj1 (all_runs _ _ _ CH) p) ST) as (r & HR).
    destruct (Forall2_in_l _ _ _ _ FM HR) as (g & HG & up & across & down & cuts & p0 & points & -> & E & U & A & D & FC).
    injection E as <- <-. destruct D as (D1 & _ & _ & D2 & D3). exists down. split; [|repeat split; assumption].
    apply in_concat. eexists. split; [exact HP|]. apply in_concat. eexists. split; [exact HG|]. right. right. left. reflexivity.
Qed.

Lemma boundary_exactly K C a j faces zmin b ms : surface_boundary K C a j faces zmin b = Ok ms ->
  exists seqs depths, scanned K C a (j_top j) faces zmin b seqs /\ surface_depths (sa_top_height a) zmin (sa_stepdown a) = Ok depths /\
    descent (sa_top_height a) zmin (sa_stepdown a) depths /\
    (forall e, (exists m, In m ms /\ straight_cut m /\ m_end m = e) <->
       exists limit depth p q, In (limit, depth) (combine (pass_limits depths) depths) /\ neighbours seqs p q /\ vz p <= limit /\ vz q <= limit /\
         e = AV (Some (vx q)) (Some (vy q)) (Some (qmax depth (vz q)))) /\
    (j_rapid_height j <> j_op_safe_height j -> forall x y,
       (exists m, In m ms /\ rapid m /\ az (m_end m) = Some (j_op_safe_height j) /\ xy (m_end m) = Some (x, y)) <->
       exists limit depth p, In (limit, depth) (combine (pass_limits depths) depths) /\ starts_run limit seqs p /\ x = vx p /\ y = vy p).
Proof.
  intros H. destruct (surface_boundary_spec _ _ _ _ _ _ _ _ H) as (seqs & depths & A1 & A2 & A3 & _). exists seqs, depths.
  split; [exact A1|]. split; [exact A2|]. split; [apply depths_descent, A2|]. exact (surfaced_exactly _ _ _ _ _ A3).
Qed.
Lemma cuts_exactly K C a j faces zmin b ms : surface_boundary K C a j faces zmin b = Ok ms ->
  exists seqs depths, scanned K C a (j_top j) faces zmin b seqs /\ descent (sa_top_height a) zmin (sa_stepdown a) depths /\
    forall e, (exists m, In m ms /\ straight_cut m /\ m_end m = e) <->
      exists limit depth p q, In (limit, depth) (combine (pass_limits depths) depths) /\ neighbours seqs p q /\ vz p <= limit /\ vz q <= limit /\
        e = AV (Some (vx q)) (Some (vy q)) (Some (qmax depth (vz q))).
Proof. intros H. destruct (boundary_exactly _ _ _ _ _ _ _ _ H) as (seqs & depths & A & _ & B & D & _). exists seqs, depths. auto. Qed.
Lemma descents_exactly K C a j faces zmin b ms : surface_boundary K C a j faces zmin b = Ok ms -> j_rapid_height j <> j_op_safe_height j ->
  exists seqs depths, scanned K C a (j_top j) faces zmin b seqs /\ descent (sa_top_height a) zmin (sa_stepdown a) depths /\
    forall x y, (exists m, In m ms /\ rapid m /\ az (m_end m) = Some (j_op_safe_height j) /\ xy (m_end m) = Some (x, y)) <->
      exists limit depth p, In (limit, depth) (combine (pass_limits depths) depths) /\ starts_run limit seqs p /\ x = vx p /\ y = vy p.
Proof. intros H N. destruct (boundary_exactly _ _ _ _ _ _ _ _ H) as (seqs & depths & A & _ & B & _ & D). exists seqs, depths. auto. Qed.
Lemma ex_runs : (exists ms, stairs_boundary (Some (qz (-1))) (qz 5) ex_job = Ok ms) /\ j_rapid_height ex_job <> j_op_safe_height ex_job /\
  starts_run 0 [[zv 0 0 2; zv 5 0 (-1); zv 10 0 (-3)]] (zv 5 0 (-1)) /\ ~ starts_run 0 [[zv 0 0 2; zv 5 0 (-1); zv 10 0 (-3)]] (zv 10 0 (-3)).
Proof.
  split; [apply okb_ok; vm_compute; reflexivity|]. split; [apply qeqb_neq; vm_compute; reflexivity|]. split.
  - split; [apply qleb_le; reflexivity|]. exists [zv 0 0 2], [zv 10 0 (-3)]. split; [left; reflexivity|]. right. exists [], (zv 0 0 2).
    split; [reflexivity|apply qltb_lt; reflexivity].
  - intros (_ & l1 & l2 & [E|[]] & D).
    destruct l1 as [|a [|b [|c [|d l1]]]]; cbn [app] in E.
    + apply (f_equal (fun l => vx (hd (zv 0 0 0) l))) in E. apply (f_equal this) in E. discriminate E.
    + apply (f_equal (fun l => vx (nth 1 l (zv 0 0 0)))) in E. apply (f_equal this) in E. discriminate E.
    + assert (EB : b = zv 5 0 (-1)) by (apply (f_equal (fun l => nth 1 l (zv 0 0 0))) in E; symmetry; exact E).
      destruct D as [D|(l0 & q & D & Q)]; [discriminate D|]. change [a; b] with ([a] ++ [b]) in D. apply app_inj_tail in D as [_ <-].
      rewrite EB in Q. apply qltb_lt in Q. discriminate Q.
    + apply (f_equal (@List.length vec)) in E. discriminate E.
    + apply (f_equal (@List.length vec)) in E. cbn in E. rewrite app_length in E. cbn in E. discriminate E || lia.
Qed.
