(** * Between the scanned points *)
From Verif Require Import Base.Str Base.Py Spec.Paths Spec.Moves Spec.Zigzag Spec.Pockets Spec.Surfaces Spec.Jobs Spec.Gouge Model.Groups Model.Geometry Model.Plane
  Model.Edges Model.Pocket Model.Strategy Model.Surface Proofs.GeomP Proofs.PocketP Proofs.RouteP Proofs.SurfaceP Proofs.SurfaceThmP.
Local Open Scope Qc_scope.
Local Open Scope list_scope.

(** ** Interpolated sequences *)
Lemma interpolate_from_nonzero len step : forall seq p out, interpolate_from len step p seq = Ok out ->
  forall a b, In (a, b) (steps (p :: seq)) -> len a b <> 0.
Proof.
  induction seq as [|q seq IH]; intros p out H a b HI; [destruct HI|].
  cbn [interpolate_from] in H. apply rbind_ok in H as (here & H1 & H). apply rbind_ok in H as (rest & H2 & _).
  change (In (a, b) ((p, q) :: steps (q :: seq))) in HI. destruct HI as [E|HI].
  - injection E as <- <-. unfold interpolate_segment in H1. cbv zeta in H1. destruct (qeqb (len p q) 0) eqn:E; [discriminate|]. apply qeqb_neq, E.
  - exact (IH _ _ H2 a b HI).
Qed.
Lemma steps_cat a l b l' x y : In (x, y) (steps ((a :: l ++ [b]) ++ l')) -> In (x, y) (steps (a :: l ++ [b])) \/ In (x, y) (steps (b :: l')).
Proof.
  revert a. induction l as [|c l IH]; intros a H.
  - cbn [app] in *. change (In (x, y) ((a, b) :: steps (b :: l'))) in H. destruct H as [H|H]; [left; left; exact H|right; exact H].
  - cbn [app] in *. change (In (x, y) ((a, c) :: steps (c :: (l ++ [b]) ++ l'))) in H. destruct H as [H|H].
    + left. left. exact H.
    + destruct (IH c H) as [G|G]; [left; right; exact G|right; exact G].
Qed.
Lemma fine_steps step : forall rest p parts, Forall2 (fun s part => fine_segment step (fst s) (snd s) part) (steps (p :: rest)) parts ->
  forall a b, In (a, b) (steps (p :: concat parts)) -> sqd a b <= step * step.
Proof.
  induction rest as [|q rest IH]; intros p parts F a b HI.
  - inversion F; subst. destruct HI.
  - change (steps (p :: q :: rest)) with ((p, q) :: steps (q :: rest)) in F. inversion F as [|? part ? parts' H F' E1 E2]; subst. clear F. cbn [fst snd] in H.
    destruct H as (added & -> & _ & _ & HS). cbn [concat] in HI.
    change (p :: (added ++ [q]) ++ concat parts') with ((p :: added ++ [q]) ++ concat parts') in HI.
    apply steps_cat in HI as [HI|HI]; [exact (HS a b HI)|exact (IH _ _ F' a b HI)].
Qed.
Lemma scanned_fine len step coarse fine : 0 < step -> (forall a b, 0 <= len a b /\ sqd a b <= len a b * len a b) ->
  interpolate_cut_sequence len step coarse = Ok fine -> forall a b, In (a, b) (steps fine) -> sqd a b <= step * step.
Proof.
  intros Hs HL H a b HI. destruct coarse as [|p rest]; [discriminate|].
  assert (N : forall a b, In (a, b) (steps (p :: rest)) -> 0 < len a b /\ sqd a b <= len a b * len a b).
  { cbn [interpolate_cut_sequence] in H. apply rbind_ok in H as (out & H & _). intros x y HX. destruct (HL x y) as [H1 H2]. split; [|exact H2].
    apply Qcle_lt_or_eq in H1 as [H1|H1]; [exact H1|]. exfalso. apply (interpolate_from_nonzero _ _ _ _ _ H x y HX). symmetry. exact H1. }
  destruct (interpolate_ok len step (p :: rest) Hs ltac:(discriminate) N) as (fine' & E & p0 & r0 & parts & EC & EF & F).
  rewrite H in E. injection E as <-. rewrite EF in HI. rewrite EC in F. exact (fine_steps _ _ _ _ F a b HI).
Qed.

(** ** Neighbours in the scanned sequences *)
Lemma steps_map_in (seq : list vec) l1 a b l2 : seq = l1 ++ a :: b :: l2 ->
  In ((vx a, vy a), (vx b, vy b)) (steps (map (fun v => (vx v, vy v)) seq)).
Proof.
  intros ->. induction l1 as [|x l1 IH]; [left; reflexivity|]. destruct l1 as [|y l1]; [right; left; reflexivity|].
  right. exact IH.
Qed.
Lemma scanned_neighbours K C a top faces zmin b seqs u v : true_length K -> 0 < sa_interpolation_step a ->
  scanned K C a top faces zmin b seqs -> neighbours seqs u v ->
  sqd (vx u, vy u) (vx v, vy v) <= sa_interpolation_step a * sa_interpolation_step a.
Proof.
  intros HL Hs (coarse & fine & heights & _ & F & _ & L & _) (l1 & l2 & HN).
  destruct (Forall2_in_r _ _ _ _ L HN) as (p & HP & E). destruct (Forall2_in_r _ _ _ _ F HP) as (c & _ & HI).
  apply (scanned_fine _ _ _ _ Hs HL HI). rewrite E. eapply steps_map_in. reflexivity.
Qed.
Lemma scanned_height K C a top faces zmin b seqs f p : drops_to K top faces f ->
  scanned K C a top faces zmin b seqs -> In p (concat seqs) -> vz p = f (vx p) (vy p).
Proof.
  intros HD (coarse & fine & heights & _ & _ & D & L & more & E) HI. apply HD in D. rewrite D in E. clear D HD heights.
  rewrite map_map in E. cbn [vx vy] in E.
  assert (G : forall fine seqs more, Forall2 (fun p vs => p = map (fun v => (vx v, vy v)) vs) fine seqs ->
     map (fun q => f (fst q) (snd q)) (concat fine) = map vz (concat seqs) ++ more -> forall p, In p (concat seqs) -> vz p = f (vx p) (vy p)).
  { clear. intros fine seqs more F. revert more. induction F as [|x vs fine seqs E F IH]; intros more H p HI; [destruct HI|].
    cbn [concat] in *. subst x. rewrite map_app, map_map, map_app, <- app_assoc in H. cbn [fst snd] in H.
    assert (S : map (fun v => f (vx v) (vy v)) vs = map vz vs /\ map (fun q => f (fst q) (snd q)) (concat fine) = map vz (concat seqs) ++ more).
    { clear HI IH F. revert H. induction vs as [|v vs IH]; cbn [map app]; intros H; [auto|]. injection H as H1 H2. destruct (IH H2) as [A B]. split; [congruence|exact B]. }
    destruct S as [S1 S2]. apply in_app_or in HI as [HI|HI]; [|exact (IH _ S2 _ HI)].
    clear - S1 HI. induction vs as [|v vs IH]; [destruct HI|]. cbn [map] in S1. injection S1 as H1 H2. destruct HI as [<-|HI]; [congruence|auto]. }
  exact (G _ _ _ L E p HI).
Qed.

(** ** The cuts *)
Lemma chopped_infix limit seq runs run : chopped limit seq runs -> In run runs -> exists l1 l2, seq = l1 ++ run ++ l2.
Proof.
  induction 1 as [gap _|gap r rest runs _ _ _ _ _ IH]; [intros []|]. intros [<-|HI]; [eauto|].
  destruct (IH HI) as (l1 & l2 & ->). exists (gap ++ r ++ l1), l2. rewrite <- !app_assoc. reflexivity.
Qed.
Lemma full_end m p z : xy (m_end m) = Some (vx p, vy p) -> az (m_end m) = Some z -> m_end m = AV (Some (vx p)) (Some (vy p)) (Some z).
Proof.
  destruct (m_end m) as [x y zz]. unfold xy. cbn [ax ay az]. destruct x, y; try discriminate. intros E ->. injection E as -> ->. reflexivity.
Qed.
Lemma cuts_between depth : forall points cuts prev z0 pos, continuous pos cuts -> pos = AV (Some (vx prev)) (Some (vy prev)) (Some z0) -> vz prev <= z0 ->
  Forall2 (surface_cut depth) points cuts -> forall m, In m cuts ->
  exists l1 u v l2 zu zv, prev :: points = l1 ++ u :: v :: l2 /\
    m_start m = AV (Some (vx u)) (Some (vy u)) (Some zu) /\ m_end m = AV (Some (vx v)) (Some (vy v)) (Some zv) /\ vz u <= zu /\ vz v <= zv.
Proof.
  induction points as [|p points IH]; intros cuts prev z0 pos HC HP HZ F m HI; inversion F as [|? c ? cs H F' E1 E2]; subst; [destruct HI|].
  destruct HC as [HC1 HC2]. destruct H as (_ & S2 & z & Z1 & _ & Z3 & _). pose proof (full_end _ _ _ S2 Z1) as EE.
  destruct HI as [<-|HI].
  - exists [], prev, p, points, z0, z. cbn [app]. auto 10.
  - destruct (IH cs p z _ HC2 EE Z3 F' m HI) as (l1 & u & v & l2 & zu & zv & E & HH). exists (prev :: l1), u, v, l2, zu, zv.
    split; [rewrite E; reflexivity|exact HH].
Qed.
Lemma continuous_part pos ms part l1 l2 : continuous pos ms -> ms = l1 ++ part ++ l2 -> continuous (after pos l1) part.
Proof. intros H ->. apply continuous_app in H as [_ H]. apply continuous_app in H as [H _]. exact H. Qed.
Lemma concat_part {A} (l : list (list A)) x : In x l -> exists l1 l2, concat l = l1 ++ x ++ l2.
Proof. intros H. apply in_split in H as (a & b & ->). exists (concat a), (concat b). rewrite concat_app. reflexivity. Qed.

Lemma surface_between K C a j faces zmin b ms : surface_boundary K C a j faces zmin b = Ok ms ->
  0 <= j_op_safe_height j -> zmin <= j_op_safe_height j ->
  (forall s, sa_stepdown a = Some s -> s < 0 /\ sa_top_height a + s <= j_op_safe_height j) ->
  exists seqs, scanned K C a (j_top j) faces zmin b seqs /\
    forall m, In m ms -> straight_cut m -> exists u v zu zv, neighbours seqs u v /\
      m_start m = AV (Some (vx u)) (Some (vy u)) (Some zu) /\ m_end m = AV (Some (vx v)) (Some (vy v)) (Some zv) /\ vz u <= zu /\ vz v <= zv.
Proof.
  intros H S0 SZ SD. destruct (surface_boundary_spec _ _ _ _ _ _ _ _ H) as (seqs & depths & HSc & HDe & HS & HC).
  exists seqs. split; [exact HSc|]. intros m HM HR.
  assert (B : forall d, In d depths -> d <= j_op_safe_height j).
  { destruct (surface_depths_cases _ _ _ _ HDe) as [[_ ->]|[(s & ds & E & Hs & -> & NE & ST)|(s & E & Hs & _)]]; intros d HI.
    - destruct HI as [<-|[]]. exact SZ.
    - destruct (SD _ E) as [_ T]. apply in_app_or in HI as [HI|[<-|[]]]; [|exact SZ].
      destruct (steps_by_between (- s) _ _ _ d ltac:(qlra) ST HI) as [_ Q]. qlra.
    - destruct (SD _ E) as [CC _]. exfalso. qlra. }
  destruct HS as (passes & -> & F). apply in_concat in HM as (ps & HP & HM).
  destruct (Forall2_in_r _ _ _ _ F HP) as ([limit depth] & HL & runs & groups & (parts & CH & ->) & -> & FM). cbn [fst snd] in *.
  apply in_concat in HM as (g & HG & HM).
  destruct (Forall2_in_r _ _ _ _ FM HG) as (run & HRn & up & across & down & cuts & p & points & Eg & Er & U & A & D & FC).
  destruct (concat_part _ _ HP) as (q1 & q2 & E1). destruct (concat_part _ _ HG) as (q3 & q4 & E2).
  assert (CG : continuous (after (after av_none q1) q3) g).
  { eapply continuous_part; [|exact E2]. eapply continuous_part; [exact HC|exact E1]. }
  rewrite Eg in CG. destruct CG as (_ & _ & _ & CC).
  apply in_concat in HRn as (part & HPa & HRn). destruct (Forall2_in_r _ _ _ _ CH HPa) as (seq & HSq & HCh).
  destruct (chopped_infix _ _ _ _ HCh HRn) as (l1 & l2 & ES).
  assert (W : vz p <= limit).
  { apply (chopped_all_in limit seqs (concat parts) run p); [exists parts; auto|apply in_concat; eauto|rewrite Er; left; reflexivity]. }
  assert (LS : limit <= j_op_safe_height j) by (destruct (pass_limits_in _ _ _ HL) as [->|HB]; [exact S0|exact (B _ HB)]).
  destruct D as (D1 & D2 & D3 & D4 & D5).
  rewrite Eg in HM. destruct HM as [<-|[<-|[<-|HM]]].
  - exfalso. destruct U as (U1 & _). destruct up; cbn in *; contradiction.
  - exfalso. destruct A as (U1 & _). destruct across; cbn in *; contradiction.
  - exfalso. destruct down; cbn in *; contradiction.
  - destruct (cuts_between depth points cuts p (j_op_safe_height j) _ CC (full_end _ _ _ D5 D4) (Qcle_trans _ _ _ W LS) FC m HM)
      as (k1 & u & v & k2 & zu & zv & EP & Q1 & Q2 & Q3 & Q4).
    exists u, v, zu, zv. split; [|auto]. exists (l1 ++ k1), (k2 ++ l2). rewrite ES, Er, EP in HSq. rewrite <- app_assoc.
    rewrite <- app_assoc in HSq. exact HSq.
Qed.

(** A chord of a surface of bounded slope. *)
Lemma chord_bound L f x0 y0 z0 x1 y1 z1 t : no_steeper L f -> f x0 y0 <= z0 -> f x1 y1 <= z1 -> 0 <= t -> t <= 1 ->
  f (x0 + t * (x1 - x0)) (y0 + t * (y1 - y0)) <= z0 + t * (z1 - z0) + L * (qabs (x1 - x0) + qabs (y1 - y0)) / qz 2.
Proof.
  intros HL H0 H1 T0 T1. set (x := x0 + t * (x1 - x0)). set (y := y0 + t * (y1 - y0)). set (D := qabs (x1 - x0) + qabs (y1 - y0)).
  assert (A : qabs (x - x0) + qabs (y - y0) = t * D).
  { unfold x, y, D. replace (x0 + t * (x1 - x0) - x0) with ((x1 - x0) * t) by ring. replace (y0 + t * (y1 - y0) - y0) with ((y1 - y0) * t) by ring.
    destruct (qabs_spec (x1 - x0)) as [[-> X]|[-> X]], (qabs_spec (y1 - y0)) as [[-> Y]|[-> Y]];
      rewrite ?(qabs_pos ((x1 - x0) * t)) by (apply qmul_pos; assumption); rewrite ?(qabs_pos ((y1 - y0) * t)) by (apply qmul_pos; assumption);
      rewrite ?(qabs_neg ((x1 - x0) * t)) by (apply qmul_neg; [qlra|assumption]); rewrite ?(qabs_neg ((y1 - y0) * t)) by (apply qmul_neg; [qlra|assumption]); ring. }
  assert (B : qabs (x - x1) + qabs (y - y1) = (1 - t) * D).
  { assert (T : 0 <= 1 - t) by qlra. unfold x, y, D. replace (x0 + t * (x1 - x0) - x1) with (- (x1 - x0) * (1 - t)) by ring. replace (y0 + t * (y1 - y0) - y1) with (- (y1 - y0) * (1 - t)) by ring.
    destruct (qabs_spec (x1 - x0)) as [[-> X]|[-> X]], (qabs_spec (y1 - y0)) as [[-> Y]|[-> Y]];
      rewrite ?(qabs_pos (- (x1 - x0) * (1 - t))) by (apply qmul_pos; [qlra|assumption]); rewrite ?(qabs_pos (- (y1 - y0) * (1 - t))) by (apply qmul_pos; [qlra|assumption]);
      rewrite ?(qabs_neg (- (x1 - x0) * (1 - t))) by (apply qmul_neg; [qlra|assumption]); rewrite ?(qabs_neg (- (y1 - y0) * (1 - t))) by (apply qmul_neg; [qlra|assumption]); ring. }
  pose proof (HL x y x0 y0) as P. pose proof (HL x y x1 y1) as Q. rewrite A in P. rewrite B in Q.
  assert (LD : 0 <= L * D).
  { pose proof (HL x0 y0 x1 y1) as R1. pose proof (HL x1 y1 x0 y0) as R2. fold D in R2.
    replace (qabs (x0 - x1) + qabs (y0 - y1)) with D in R1.
    - set (LD := L * D) in *. clearbody LD. qlra.
    - unfold D. assert (S : forall u v, qabs (u - v) = qabs (v - u)) by (intros u v; destruct (qabs_spec (u - v)) as [[-> ?]|[-> ?]], (qabs_spec (v - u)) as [[-> ?]|[-> ?]]; qlra).
      rewrite (S x1), (S y1). reflexivity. }
  set (E := L * D) in *. replace (L * (t * D)) with (t * E) in P by (unfold E; ring). replace (L * ((1 - t) * D)) with ((1 - t) * E) in Q by (unfold E; ring).
  assert (EH : E = E / qz 2 + E / qz 2).
  { unfold Qcdiv. rewrite <- Qcmult_plus_distr_r. replace (/ qz 2 + / qz 2) with 1 by (apply Qc_is_canon; reflexivity). ring. }
  set (h := E / qz 2) in *. set (F := f x y) in *. clearbody h E F. subst E. clear A B.
  assert (P' : F <= z0 + t * (h + h)) by qlra. assert (Q' : F <= z1 + (1 - t) * (h + h)) by qlra.
  assert (P2 : (1 - t) * F <= (1 - t) * (z0 + t * (h + h))) by (rewrite !(Qcmult_comm (1 - t)); apply Qcmult_le_compat_r; [exact P'|qlra]).
  assert (Q2 : t * F <= t * (z1 + (1 - t) * (h + h))) by (rewrite !(Qcmult_comm t); apply Qcmult_le_compat_r; [exact Q'|exact T0]).
  assert (G : 0 <= (1 - t - t) * (1 - t - t) * h).
  { apply qmul_pos; [|qlra]. destruct (Qclt_le_dec (1 - t - t) 0) as [N|N]; [|apply qmul_pos; exact N].
    replace ((1 - t - t) * (1 - t - t)) with ((- (1 - t - t)) * (- (1 - t - t))) by ring. apply qmul_pos; qlra. }
  qlra.
Qed.

Lemma gouge_bound K C a j faces zmin b ms f L : surface_boundary K C a j faces zmin b = Ok ms ->
  0 <= j_op_safe_height j -> zmin <= j_op_safe_height j ->
  (forall s, sa_stepdown a = Some s -> s < 0 /\ sa_top_height a + s <= j_op_safe_height j) ->
  true_length K -> 0 < sa_interpolation_step a -> drops_to K (j_top j) faces f -> no_steeper L f ->
  forall m, In m ms -> straight_cut m ->
  exists x0 y0 z0 x1 y1 z1, m_start m = AV (Some x0) (Some y0) (Some z0) /\ m_end m = AV (Some x1) (Some y1) (Some z1) /\
    sqd (x0, y0) (x1, y1) <= sa_interpolation_step a * sa_interpolation_step a /\
    forall t, 0 <= t -> t <= 1 ->
      f (x0 + t * (x1 - x0)) (y0 + t * (y1 - y0)) <= z0 + t * (z1 - z0) + L * (qabs (x1 - x0) + qabs (y1 - y0)) / qz 2.
Proof.
  intros H S0 SZ SD TL ST DT NS m HM HC. destruct (surface_between _ _ _ _ _ _ _ _ H S0 SZ SD) as (seqs & HSc & HB).
  destruct (HB m HM HC) as (u & v & zu & zv & HN & E1 & E2 & U & V). exists (vx u), (vy u), zu, (vx v), (vy v), zv.
  split; [exact E1|]. split; [exact E2|]. split; [exact (scanned_neighbours _ _ _ _ _ _ _ _ _ _ TL ST HSc HN)|].
  assert (IU : In u (concat seqs) /\ In v (concat seqs)).
  { destruct HN as (l1 & l2 & HN). split; apply in_concat; eexists; (split; [exact HN|]); apply in_or_app; right; [left|right; left]; reflexivity. }
  rewrite (scanned_height _ _ _ _ _ _ _ _ f u DT HSc (proj1 IU)) in U. rewrite (scanned_height _ _ _ _ _ _ _ _ f v DT HSc (proj2 IU)) in V.
  intros t T0 T1. apply chord_bound; assumption.
Qed.
