(** * Proofs about drilling *)
From Verif Require Import Base.Str Base.Py Spec.Paths Spec.Moves Spec.Drills Spec.Jobs Model.Geometry Model.Plane Model.Drill Model.Strategy
  Proofs.GeomP Proofs.FillP Proofs.ProgramThmP Proofs.ProfileThmP.
From Coq Require Import Permutation.
Local Open Scope Qc_scope.
Local Open Scope list_scope.

(** ** list.index and list.remove *)
Lemma pt_eqb_refl p : pt_eqb p p = true.
Proof. apply pt_eqb_iff. reflexivity. Qed.
Lemma find_pt_split p l i : find_pt p l = Some i -> exists l1 l2, l = l1 ++ p :: l2 /\ i = length l1 /\ ~ In p l1.
Proof.
  revert i. induction l as [|a l IH]; intros i; cbn [find_pt]; [discriminate|].
  destruct (pt_eqb a p) eqn:E.
  - intros [= <-]. apply pt_eqb_iff in E. subst a. exists [], l. split; [reflexivity|split; [reflexivity|intros []]].
  - destruct (find_pt p l) as [k|]; [|discriminate]. intros [= <-]. destruct (IH k eq_refl) as (l1 & l2 & -> & -> & N).
    exists (a :: l1), l2. split; [reflexivity|]. split; [reflexivity|]. intros [->|H]; [rewrite pt_eqb_refl in E; discriminate|auto].
Qed.
Lemma find_pt_app p l1 l2 : ~ In p l1 -> find_pt p (l1 ++ p :: l2) = Some (length l1).
Proof.
  induction l1 as [|a l1 IH]; intros N; cbn [app find_pt length].
  - rewrite pt_eqb_refl. reflexivity.
  - destruct (pt_eqb a p) eqn:E; [apply pt_eqb_iff in E; destruct N; left; exact E|]. rewrite IH by (intros C; apply N; right; exact C). reflexivity.
Qed.
Lemma find_pt_none p l : find_pt p l = None <-> ~ In p l.
Proof.
  induction l as [|a l IH]; cbn [find_pt]; [split; [intros _ []|reflexivity]|].
  destruct (pt_eqb a p) eqn:E.
  - apply pt_eqb_iff in E. subst. split; [discriminate|intros C; destruct C; left; reflexivity].
  - destruct (find_pt p l) as [k|]; cbn [option_map].
    + split; [discriminate|]. intros C. exfalso. assert (N : ~ In p l) by (intros H; apply C; right; exact H). apply IH in N. discriminate.
    + split; [|reflexivity]. intros _ [->|H]; [rewrite pt_eqb_refl in E; discriminate|]. apply (proj1 IH eq_refl H).
Qed.
Lemma py_remove_app p l1 l2 : ~ In p l1 -> py_remove p (l1 ++ p :: l2) = Ok (l1 ++ l2).
Proof.
  intros N. unfold py_remove. rewrite find_pt_app by exact N. f_equal.
  rewrite firstn_app, firstn_all, Nat.sub_diag. cbn [firstn]. rewrite app_nil_r. f_equal.
  replace (S (length l1)) with (length l1 + 1)%nat by lia. rewrite skipn_app, skipn_all2 by lia.
  replace (length l1 + 1 - length l1)%nat with 1%nat by lia. reflexivity.
Qed.
Lemma py_remove_split p l r : py_remove p l = Ok r -> exists l1 l2, l = l1 ++ p :: l2 /\ r = l1 ++ l2 /\ ~ In p l1.
Proof.
  intros H. destruct (find_pt p l) as [i|] eqn:E; [|unfold py_remove in H; rewrite E in H; discriminate].
  destruct (find_pt_split _ _ _ E) as (l1 & l2 & -> & _ & N). rewrite py_remove_app in H by exact N. injection H as <-.
  exists l1, l2. auto.
Qed.
Lemma py_index_app p l1 l2 : ~ In p l1 -> py_index p (l1 ++ p :: l2) = Ok (length l1).
Proof. intros N. unfold py_index. rewrite find_pt_app by exact N. reflexivity. Qed.
Lemma mem_pt_iff p l : mem_pt p l = true <-> In p l.
Proof.
  unfold mem_pt. rewrite existsb_exists. split.
  - intros (a & H & E). apply pt_eqb_iff in E. subst. exact H.
  - intros H. exists p. split; [exact H|apply pt_eqb_refl].
Qed.
Lemma in_split_first p (l : path) : In p l -> exists l1 l2, l = l1 ++ p :: l2 /\ ~ In p l1.
Proof.
  intros H. destruct (find_pt p l) as [i|] eqn:E; [|apply find_pt_none in E; contradiction].
  destruct (find_pt_split _ _ _ E) as (l1 & l2 & -> & _ & N). exists l1, l2. auto.
Qed.

(** ** Picking the nearest point *)
Lemma pick_from_spec here opts : forall b seen, fst b = sqd here (snd b) ->
  (exists s1 s2, seen = s1 ++ snd b :: s2 /\ (forall q, In q s1 -> sqd here (snd b) < sqd here q) /\ (forall q, In q s2 -> sqd here (snd b) <= sqd here q)) ->
  exists l1 l2, seen ++ opts = l1 ++ pick_from here b opts :: l2 /\
    (forall q, In q l1 -> sqd here (pick_from here b opts) < sqd here q) /\
    (forall q, In q l2 -> sqd here (pick_from here b opts) <= sqd here q).
Proof.
  induction opts as [|o opts IH]; intros b seen Hb (s1 & s2 & -> & H1 & H2); cbn [pick_from].
  - exists s1, s2. rewrite app_nil_r. auto.
  - set (b' := if qltb (dist2 here o) (fst b) then (dist2 here o, o) else b).
    destruct (IH b' ((s1 ++ snd b :: s2) ++ [o])) as (l1 & l2 & E & K1 & K2).
    + subst b'. destruct (qltb (dist2 here o) (fst b)); [cbn; apply dist2_sqd|exact Hb].
    + subst b'. rewrite dist2_sqd, Hb. destruct (qltb_spec (sqd here o) (sqd here (snd b))) as [L|L]; cbn [snd].
      * exists (s1 ++ snd b :: s2), []. split; [reflexivity|]. split; [|intros q []].
        intros q Hq. apply in_app_or in Hq. destruct Hq as [Hq|[<-|Hq]]; [specialize (H1 _ Hq)| |specialize (H2 _ Hq)]; [qlra|exact L|qlra].
      * exists s1, (s2 ++ [o]). split; [rewrite <- app_assoc; reflexivity|]. split; [exact H1|].
        intros q Hq. apply in_app_or in Hq. destruct Hq as [Hq|[<-|[]]]; [apply H2; exact Hq|]. apply Qcnot_lt_le. exact L.
    + exists l1, l2. split; [rewrite <- app_assoc in E; exact E|split; assumption].
Qed.
Lemma pick_nearest_spec here opts : opts <> [] -> exists p l1 l2, pick_nearest here opts = Ok p /\ opts = l1 ++ p :: l2 /\
  (forall q, In q l1 -> sqd here p < sqd here q) /\ (forall q, In q l2 -> sqd here p <= sqd here q).
Proof.
  destruct opts as [|o opts]; [congruence|]. intros _. cbn [pick_nearest].
  destruct (pick_from_spec here opts (dist2 here o, o) [o]) as (l1 & l2 & E & H1 & H2).
  - cbn. apply dist2_sqd.
  - exists [], []. split; [reflexivity|]. split; intros q [].
  - exists (pick_from here (dist2 here o, o) opts), l1, l2. auto.
Qed.
Lemma nearest_not_before here p l1 : (forall q, In q l1 -> sqd here p < sqd here q) -> ~ In p l1.
Proof. intros H C. specialize (H _ C). qlra. Qed.

Lemma order_spec n : forall here pts, length pts = n -> exists order,
  order_points n (Some here) pts = Ok order /\ nearest_first here pts order.
Proof.
  induction n as [|n IH]; intros here pts L; destruct pts as [|p0 pts]; try discriminate L.
  - exists []. split; [reflexivity|constructor].
  - cbn [order_points]. destruct (pick_nearest_spec here (p0 :: pts)) as (p & l1 & l2 & -> & E & H1 & H2); [discriminate|].
    cbn [rbind]. rewrite E. rewrite py_remove_app by (apply (nearest_not_before here); exact H1). cbn [rbind].
    destruct (IH p (l1 ++ l2)) as (order & -> & K).
    { rewrite E in L. rewrite app_length in L |- *. cbn [length] in L. lia. }
    exists (p :: order). split; [reflexivity|]. constructor; assumption.
Qed.
Lemma order_first p pts : exists order, order_points (length (p :: pts)) None (p :: pts) = Ok (p :: order) /\ nearest_first p pts order.
Proof.
  cbn [length order_points rbind]. change (p :: pts) with ([] ++ p :: pts) at 1. rewrite py_remove_app by (intros []). cbn [rbind app].
  destruct (order_spec (length pts) p pts eq_refl) as (order & -> & H). exists order. split; [reflexivity|exact H].
Qed.
Lemma nearest_first_perm here pts order : nearest_first here pts order -> Permutation order pts.
Proof.
  induction 1 as [|here l1 p l2 order H1 H2 H IH]; [constructor|]. apply Permutation_cons_app. exact IH.
Qed.
Lemma nearest_inv here l o : nearest_first here l o -> (l = [] /\ o = []) \/
  exists l1 p l2 o', l = l1 ++ p :: l2 /\ o = p :: o' /\ (forall q, In q l1 -> sqd here p < sqd here q) /\
    (forall q, In q l2 -> sqd here p <= sqd here q) /\ nearest_first p (l1 ++ l2) o'.
Proof. intros [|]; [left; auto|right]. do 4 eexists. repeat (split; [first [reflexivity|eassumption]|]). assumption. Qed.
(** There is only one such order. *)
Lemma nearest_first_unique here pts o1 : nearest_first here pts o1 -> forall o2, nearest_first here pts o2 -> o1 = o2.
Proof.
  induction 1 as [here|here l1 p l2 o1 H1 H2 H IH]; intros o2 K.
  - destruct (nearest_inv _ _ _ K) as [[_ ->]|(b & p & a & o & E & _)]; [reflexivity|]. destruct b; discriminate.
  - destruct (nearest_inv _ _ _ K) as [[C _]|(m1 & q & m2 & o & E & -> & K1 & K2 & K3)]; [destruct l1; discriminate|]. symmetry in E.
    assert (P : m1 = l1 /\ q = p /\ m2 = l2).
    { clear - H1 H2 K1 K2 E. revert m1 K1 E. induction l1 as [|a l1 IH]; intros m1 K1 E.
      - destruct m1 as [|b m1]; [injection E as -> ->; auto|]. injection E as -> <-. exfalso.
        assert (X : sqd here q < sqd here p) by (apply K1; left; reflexivity).
        assert (Y : sqd here p <= sqd here q) by (apply H2; apply in_or_app; right; left; reflexivity). qlra.
      - destruct m1 as [|b m1].
        + injection E as -> ->. exfalso.
          assert (X : sqd here p < sqd here a) by (apply H1; left; reflexivity).
          assert (Y : sqd here a <= sqd here p) by (apply K2; apply in_or_app; right; left; reflexivity). qlra.
        + injection E as -> E. destruct (IH (fun q' Hq => H1 q' (or_intror Hq)) m1 (fun q' Hq => K1 q' (or_intror Hq)) E) as (-> & -> & ->). auto. }
    destruct P as (-> & -> & ->). f_equal. apply IH. exact K3.
Qed.

(** ** The commands *)
Lemma holes_spec j d : forall order pos, exists groups, holes j d pos order = concat groups /\
  Forall2 (drilled (j_op_safe_height j) (- qabs d) (j_feed j)) order groups /\ continuous pos (concat groups).
Proof.
  induction order as [|p order IH]; intros pos.
  - exists []. split; [reflexivity|]. split; constructor.
  - cbn [holes]. set (g := hole j d pos p). set (pos' := m_end (last g _)).
    destruct (IH pos') as (groups & -> & H & C). exists (g :: groups). split; [reflexivity|]. split.
    + constructor; [|exact H]. subst g. unfold hole. do 4 eexists. split; [reflexivity|].
      destruct pos as [px py pz], p as [x y]. cbn. repeat (split; [easy|]). easy.
    + cbn [concat]. subst pos' g. unfold hole. cbn [last app]. cbn [continuous]. repeat (split; [reflexivity|]). exact C.
Qed.

(** ** The objects *)
Lemma object_vectors_ok top o vs : object_vectors top o = Ok vs <-> hole_centers (to_world top) o vs.
Proof.
  destruct o as [v|c|outer inners|]; cbn [object_vectors hole_centers].
  - split; [intros [= <-]; reflexivity|intros ->; reflexivity].
  - destruct c as [c|e]; cbn [rbind].
    + split; [intros [= <-]; eauto|intros (v & [= <-] & ->); reflexivity].
    + split; [discriminate|intros (v & H & _); discriminate].
  - destruct inners as [|c inners].
    + destruct outer as [w|e]; cbn [rbind].
      * split; [intros [= <-]; left; eauto|intros [(_ & v & [= <-] & ->)|[C _]]; [reflexivity|congruence]].
      * split; [discriminate|intros [(_ & v & H & _)|[C _]]; [discriminate|congruence]].
    + rewrite mapM_ok. split.
      * intros H. right. split; [discriminate|]. induction H as [|a b la lb H HF IH]; constructor; auto.
        destruct a as [v|e]; [injection H as <-; eauto|discriminate].
      * intros [[C _]|[_ H]]; [discriminate|]. induction H as [|a b la lb H HF IH]; constructor; auto.
        destruct H as (v & -> & ->). reflexivity.
  - split; [discriminate|intros []].
Qed.
Lemma objects_ok top os vss : mapM (object_vectors top) os = Ok vss <-> Forall2 (hole_centers (to_world top)) os vss.
Proof.
  rewrite mapM_ok. split; intros H; induction H; constructor; auto; apply object_vectors_ok; assumption.
Qed.

(** ** The whole operation *)
Lemma drill_gen_spec os d j cmds : drill_gen (Some os) (Some d) j = Ok cmds ->
  exists p pts order groups, wanted_holes (to_world (j_top j)) os (p :: pts) /\ nearest_first p pts order /\
    cmds = map Motion (concat groups) /\
    Forall2 (drilled (j_op_safe_height j) (- qabs d) (j_feed j)) (p :: order) groups /\ continuous av_none (concat groups).
Proof.
  unfold drill_gen. intros H. apply rbind_ok in H as (vss & HV & H). destruct (concat vss) as [|v vs] eqn:E; [discriminate|].
  cbv zeta in H. cbn [map] in H. destruct (order_first (plan v) (map plan vs)) as (order & HO & HN).
  rewrite HO in H. cbn [rbind] in H.
  assert (HX : map Motion (holes j d av_none (plan v :: order)) = cmds) by congruence.
  destruct (holes_spec j d (plan v :: order) av_none) as (groups & HG & HF & HC).
  exists (plan v), (map plan vs), order, groups.
  split; [exists vss; split; [apply objects_ok; exact HV|rewrite E; reflexivity]|]. split; [exact HN|]. split; [rewrite <- HX; f_equal; exact HG|]. split; assumption.
Qed.
Lemma drill_gen_total os d j p pts : wanted_holes (to_world (j_top j)) os (p :: pts) -> exists cmds, drill_gen (Some os) (Some d) j = Ok cmds.
Proof.
  intros (vss & HV & E). unfold drill_gen. apply objects_ok in HV. rewrite HV. cbn [rbind].
  destruct (concat vss) as [|v vs]; [discriminate|]. cbv zeta. cbn [map].
  destruct (order_first (plan v) (map plan vs)) as (order & HO & _). rewrite HO. eexists. reflexivity.
Qed.

Lemma centers_total tr o : kernel_fine o -> o <> DOther -> exists v vs, hole_centers tr o (v :: vs).
Proof.
  destruct o as [v|c|outer inners|]; cbn [kernel_fine hole_centers]; intros H N.
  - exists (tr v), []. reflexivity.
  - destruct H as (v & ->). exists (tr v), []. eauto.
  - destruct inners as [|c inners].
    + destruct H as (v & ->). exists (tr v), []. left. eauto.
    + inversion H as [|? ? (v & ->) HF]; subst. assert (X : exists vs, Forall2 (fun c w => exists v, c = Ok v /\ w = tr v) inners vs).
      { clear H N. induction HF as [|c l (u & ->) HF (vs & IH)]; [exists []; constructor|]. exists (tr u :: vs). constructor; eauto. }
      destruct X as (vs & X). exists (tr v), vs. right. split; [discriminate|]. constructor; eauto.
  - congruence.
Qed.
Lemma drill_gen_errors o d j :
  (o = None -> drill_gen o d j = Err OperationError) /\
  (d = None -> drill_gen o d j = Err OperationError) /\
  (o = Some [] -> drill_gen o d j = Err OperationError) /\
  (forall os, o = Some os -> Forall kernel_fine os -> In DOther os -> drill_gen o d j = Err OperationError) /\
  (forall os, o = Some os -> d <> None -> os <> [] -> Forall kernel_fine os -> ~ In DOther os -> exists cmds, drill_gen o d j = Ok cmds).
Proof.
  split; [intros ->; reflexivity|]. split; [intros ->; destruct o; reflexivity|]. split; [intros ->; destruct d; reflexivity|]. split.
  - intros os -> HF HI. destruct d as [d|]; [|reflexivity]. unfold drill_gen.
    assert (X : mapM (object_vectors (j_top j)) os = Err OperationError); [|rewrite X; reflexivity].
    induction HF as [|a l Ha HF IH]; [destruct HI|]. cbn [mapM].
    destruct (object_vectors (j_top j) a) as [vs|e] eqn:E.
    + cbn [rbind]. rewrite IH; [reflexivity|]. destruct HI as [->|HI]; [discriminate|exact HI].
    + destruct a as [v|c|outer inners|]; cbn [object_vectors] in E.
      * discriminate.
      * destruct Ha as (v & ->). discriminate.
      * exfalso. destruct (centers_total (to_world (j_top j)) (DFace outer inners) Ha) as (v & vs & K); [discriminate|].
        apply object_vectors_ok in K. cbn [object_vectors] in K. congruence.
      * injection E as <-. reflexivity.
  - intros os -> HD HN HF HI. destruct d as [d|]; [|congruence]. destruct os as [|o os]; [congruence|].
    assert (X : exists vss, Forall2 (hole_centers (to_world (j_top j))) os vss).
    { inversion HF as [|? ? _ HF']; subst. assert (HI' : ~ In DOther os) by (intros C; apply HI; right; exact C). clear HF HI HN.
      induction HF' as [|a l Ha HF' IH]; [exists []; constructor|]. destruct IH as (vss & IH); [intros C; apply HI'; right; exact C|].
      destruct (centers_total (to_world (j_top j)) a Ha) as (v & vs & K); [intros ->; apply HI'; left; reflexivity|]. exists ((v :: vs) :: vss). constructor; assumption. }
    destruct X as (vss & X). inversion HF as [|? ? Ha _]; subst. destruct (centers_total (to_world (j_top j)) o Ha) as (v & vs & K); [intros ->; apply HI; left; reflexivity|].
    eapply drill_gen_total. exists ((v :: vs) :: vss). split; [constructor; assumption|]. reflexivity.
Qed.

Lemma drill_motion_gen o d : motion_gen (drill_gen o d).
Proof.
  intros j cmds H. destruct o as [os|]; [|discriminate]. destruct d as [d|]; [|discriminate].
  destruct (drill_gen_spec _ _ _ _ H) as (p & pts & order & groups & _ & _ & -> & _). eexists. reflexivity.
Qed.

Lemma job_drill_spec h r o d t h' r' : job_drill h r o d t = (h', Ok r') ->
  exists os depth j ju j' pre p pts order groups, o = Some os /\ d = Some depth /\
    hget h r = Some j /\ settings_of ju = tool_settings j t /\ same_frame j ju /\
    hget h' r' = Some j' /\ j_operations j' = pre ++ [Op r' "Drill" (map Motion (concat groups))] /\
    wanted_holes (to_world (j_top j)) os (p :: pts) /\ nearest_first p pts order /\
    Forall2 (drilled (j_op_safe_height j) (- qabs depth) (j_feed ju)) (p :: order) groups /\ continuous av_none (concat groups).
Proof.
  unfold job_drill. intros E. destruct (hget h r) as [j|] eqn:Hj; [|unfold fluent_op in E; rewrite Hj in E; discriminate].
  destruct (history_append _ _ _ _ _ _ _ _ Hj E) as (_ & j' & mid & ju & cmds & H1 & H2 & H3 & H4 & H5 & _).
  destruct o as [os|]; [|discriminate]. destruct d as [d|]; [|discriminate].
  destruct (drill_gen_spec _ _ _ _ H3) as (p & pts & order & groups & W & N & -> & D & C).
  assert (F : j_top ju = j_top j /\ j_op_safe_height ju = j_op_safe_height j) by (rewrite H5; split; reflexivity). destruct F as [F1 F2].
  rewrite F1 in W. rewrite F2 in D.
  exists os, d, j, ju, j', (j_operations j ++ mid), p, pts, order, groups.
  repeat (split; [first [reflexivity|assumption]|]). split; [rewrite H2, app_assoc; reflexivity|].
  repeat (split; [assumption|]). exact C.
Qed.

(** No sideways movement away from the safe height. *)
Lemma drilled_sideways S b f p g m : drilled S b f p g -> In m g -> vertical m \/ at_height m S.
Proof.
  intros (u & a & d & c & -> & (_ & U & _) & (_ & A & _) & (_ & D & _) & (_ & C & _)) [<-|[<-|[<-|[<-|[]]]]]; auto.
Qed.

(** ** Where the holes are *)
Lemma shifted_world o v : let top := PL o (V3 1 0 0) (V3 0 1 0) (V3 0 0 1) in
  vx (to_world top v) = vx (to_local top v) + qz 2 * vx o /\ vy (to_world top v) = vy (to_local top v) + qz 2 * vy o.
Proof.
  destruct o as [ox oy oz], v as [x y z]. unfold to_world, to_local, vadd, vscale, vsub, dot. cbn [p_origin p_xdir p_ydir p_zdir vx vy vz].
  replace (qz 2) with (1 + 1) by (apply Qc_is_canon; reflexivity). split; ring.
Qed.

Lemma drill_nearest os d j cmds : drill_gen (Some os) (Some d) j = Ok cmds ->
  exists p pts order groups, wanted_holes (to_world (j_top j)) os (p :: pts) /\ nearest_first p pts order /\
    cmds = map Motion (concat groups) /\
    Forall2 (drilled (j_op_safe_height j) (- qabs d) (j_feed j)) (p :: order) groups.
Proof.
  intros H. destruct (drill_gen_spec _ _ _ _ H) as (p & pts & order & groups & W & N & E & D & _).
  exists p, pts, order, groups. auto.
Qed.
Lemma drill_every_hole os d j cmds : drill_gen (Some os) (Some d) j = Ok cmds ->
  exists p pts order groups, wanted_holes (to_world (j_top j)) os (p :: pts) /\ Permutation order pts /\
    cmds = map Motion (concat groups) /\
    Forall2 (drilled (j_op_safe_height j) (- qabs d) (j_feed j)) (p :: order) groups.
Proof.
  intros H. destruct (drill_nearest _ _ _ _ H) as (p & pts & order & groups & W & N & E & D).
  exists p, pts, order, groups. split; [exact W|]. split; [eapply nearest_first_perm; exact N|auto].
Qed.
Lemma drill_safe os d j cmds : drill_gen (Some os) (Some d) j = Ok cmds ->
  exists order groups, cmds = map Motion (concat groups) /\ continuous av_none (concat groups) /\
    Forall2 (drilled (j_op_safe_height j) (- qabs d) (j_feed j)) order groups /\
    forall m, In m (concat groups) -> vertical m \/ at_height m (j_op_safe_height j).
Proof.
  intros H. destruct (drill_gen_spec _ _ _ _ H) as (p & pts & order & groups & W & N & E & D & C).
  exists (p :: order), groups. split; [exact E|]. split; [exact C|]. split; [exact D|].
  intros m Hm. apply in_concat in Hm as (g & Hg & Hm). clear - D Hg Hm. induction D as [|q g' l l' D1 D2 IH]; [destruct Hg|].
  destruct Hg as [->|Hg]; [eapply drilled_sideways; eassumption|auto].
Qed.
Lemma wanted_ext f g os ps : (forall v, vx (f v) = vx (g v) /\ vy (f v) = vy (g v)) -> wanted_holes f os ps -> wanted_holes g os ps.
Proof.
  intros HE (vss & H & ->).
  assert (X : exists wss, Forall2 (hole_centers g) os wss /\ map plan (concat vss) = map plan (concat wss)).
  2:{ destruct X as (wss & X1 & X2). exists wss. split; [exact X1|exact X2]. }
  assert (HP : forall v, plan (f v) = plan (g v)) by (intros v; destruct (HE v) as [A B]; unfold plan; rewrite A, B; reflexivity).
  induction H as [|o vs os vss H HF (wss & IH1 & IH2)]; [exists []; split; [constructor|reflexivity]|].
  assert (Y : exists ws, hole_centers g o ws /\ map plan vs = map plan ws).
  { destruct o as [v|c|outer inners|]; cbn [hole_centers] in H |- *.
    - subst vs. exists [g v]. split; [reflexivity|]. cbn. rewrite HP. reflexivity.
    - destruct H as (v & -> & ->). exists [g v]. split; [eauto|]. cbn. rewrite HP. reflexivity.
    - destruct H as [(-> & v & -> & ->)|(N & H)]; [exists [g v]; split; [left; eauto|cbn; rewrite HP; reflexivity]|].
      assert (Z : exists ws, Forall2 (fun c w => exists v, c = Ok v /\ w = g v) inners ws /\ map plan vs = map plan ws).
      { clear N. induction H as [|c w l l' (v & -> & ->) HF' (ws & Z1 & Z2)]; [exists []; split; [constructor|reflexivity]|].
        exists (g v :: ws). split; [constructor; eauto|]. cbn [map]. rewrite HP, Z2. reflexivity. }
      destruct Z as (ws & Z1 & Z2). exists ws. split; [right; auto|exact Z2].
    - destruct H. }
  destruct Y as (ws & Y1 & Y2). exists (ws :: wss). split; [constructor; assumption|]. cbn [concat]. rewrite !map_app, Y2, IH2. reflexivity.
Qed.
Lemma drill_in_place os d j cmds z : j_top j = PL (V3 0 0 z) (V3 1 0 0) (V3 0 1 0) (V3 0 0 1) ->
  drill_gen (Some os) (Some d) j = Ok cmds ->
  exists p pts order groups, wanted_holes (to_local (j_top j)) os (p :: pts) /\ nearest_first p pts order /\
    cmds = map Motion (concat groups) /\
    Forall2 (drilled (j_op_safe_height j) (- qabs d) (j_feed j)) (p :: order) groups.
Proof.
  intros HT H. destruct (drill_nearest _ _ _ _ H) as (p & pts & order & groups & W & N).
  exists p, pts, order, groups. split; [|exact N]. revert W. apply wanted_ext. intros v. rewrite HT.
  destruct (shifted_world (V3 0 0 z) v) as [A B]. rewrite A, B. cbn [vx vy]. split; ring.
Qed.
