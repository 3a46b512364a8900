(** Lemmas about tabs on the layers of a profile. *)
From Verif Require Import Base.Py Model.Geometry Model.Profile Spec.Wires Spec.Profiles Spec.Tabs
  Proofs.TabsEx Proofs.RouteEx Proofs.ProfileP Proofs.ProfileEx.
From Verif Require Import Proofs.TabPiecesP.
From Coq Require Import Lia.
Local Open Scope Qc_scope.
Local Open Scope list_scope.

Lemma mapM_nth {A B} (f : A -> result B) : forall l l' k, mapM f l = Ok l' ->
  match nth_error l k, nth_error l' k with
  | Some a, Some b => f a = Ok b
  | None, None => True
  | _, _ => False
  end.
Proof.
  induction l as [|a l IH]; intros l' k H.
  - injection H as <-. destruct k; exact I.
  - cbn [mapM rbind] in H. destruct (f a) as [b|x] eqn:E; [|discriminate]. cbn [rbind] in H.
    destruct (mapM f l) as [l''|x] eqn:E'; [|discriminate]. injection H as <-.
    destruct k as [|k]; [exact E|]. cbn [nth_error]. apply IH. reflexivity.
Qed.

(** The wire of layer [k] of [n + 1] and its height. *)
Lemma toolpath_layer TK WK j base s t ps : 0 < s -> lifts TK WK base -> clear_of_top TK WK (j_top j) base ->
  profile_toolpaths TK WK j (Some s) (Some t) base = Ok ps ->
  exists n, layers_needed (tk_zmin TK base) s n /\ length ps = S n /\
    forall k p, nth_error ps k = Some p ->
      let layer := if (k =? n)%nat then base else wk_moved WK base (s * qz (Z.of_nat (n - k))) in
      (k <= n)%nat /\ tk_zmin TK layer = tk_zmin TK base + qz (Z.of_nat (n - k)) * s /\
      apply_tabs TK layer (tk_zmin TK base + tabs_height t) t = Ok p.
Proof.
  intros HS LI CL H. unfold profile_toolpaths in H.
  destruct (profile_layers TK WK j base (Some s)) as [ls|x] eqn:E; [|discriminate]. cbn [rbind] in H.
  destruct (profile_layers_ok TK WK j base s ls HS LI CL E) as (n & HN & HL & HK).
  exists n. split; [exact HN|].
  assert (LL : length ps = length ls).
  { clear - H. revert ps H. induction ls as [|a l IH]; intros ps H; [injection H as <-; reflexivity|]. cbn [mapM] in H.
    destruct (apply_tabs TK a _ t) as [b|x]; [|discriminate]. cbn [rbind] in H. destruct (mapM _ l) as [l'|x]; [|discriminate].
    injection H as <-. cbn. f_equal. apply IH. reflexivity. }
  split; [congruence|]. intros k p Hp.
  assert (K : (k <= n)%nat). { assert (k < length ps)%nat by (apply nth_error_Some; rewrite Hp; discriminate). lia. }
  destruct (HK k K) as (w & Hw & HZ & HW). assert (M := mapM_nth _ _ _ k H). rewrite Hw, Hp in M.
  split; [exact K|]. rewrite <- HW. split; assumption.
Qed.

Lemma profile_edge_tabs TK WK j base s spacing width height only ps :
  makes_edges TK -> (forall l, tk_assemble TK l = Some l) ->
  0 < s -> lifts TK WK base -> clear_of_top TK WK (j_top j) base -> 0 < width -> width < spacing ->
  takes_tabs TK spacing width base -> (forall dz, takes_tabs TK spacing width (wk_moved WK base dz)) ->
  profile_toolpaths TK WK j (Some s) (Some (EdgeTabs spacing width height only)) base = Ok ps ->
  exists n, layers_needed (tk_zmin TK base) s n /\ length ps = S n /\
    forall k p, nth_error ps k = Some p ->
      let layer := if (k =? n)%nat then base else wk_moved WK base (s * qz (Z.of_nat (n - k))) in
      let up := qz (Z.of_nat (n - k)) * s in
      tk_zmin TK layer = tk_zmin TK base + up /\
      (height <= up -> p = layer) /\
      (up < height -> tabbed TK (tk_zmin TK base + height) spacing width only layer p).
Proof.
  intros ME HA HS LI CL HW HSP TB TM H.
  destruct (toolpath_layer TK WK j base s _ ps HS LI CL H) as (n & HN & HL & HK).
  exists n. split; [exact HN|]. split; [exact HL|]. intros k p Hp. destruct (HK k p Hp) as (K & HZ & HT).
  cbv zeta. set (layer := if (k =? n)%nat then base else wk_moved WK base (s * qz (Z.of_nat (n - k)))) in *.
  assert (T : takes_tabs TK spacing width layer). { unfold layer. destruct (k =? n)%nat; [exact TB|apply TM]. }
  cbn [tabs_height] in HT. split; [exact HZ|]. split; intros HH.
  - rewrite apply_tabs_above in HT; [injection HT as <-; reflexivity|]. rewrite HZ. qlra.
  - destruct T as [C T]. eapply edge_tabs_applied; [exact ME| |exact HW|exact HSP| | |exact C|exact HA|exact HT].
    + intros e He. destruct (T e He) as (T1 & T2 & T3 & _). auto.
    + intros e He. destruct (T e He) as (_ & _ & _ & T1 & T2). auto.
    + rewrite HZ. qlra.
Qed.

(** Without a stepdown the profile itself is the only layer. *)
Lemma profile_edge_tabs_once TK WK j base sd spacing width height only ps :
  makes_edges TK -> (forall l, tk_assemble TK l = Some l) -> (sd = None \/ sd = Some 0) ->
  0 < width -> width < spacing -> 0 < height -> takes_tabs TK spacing width base ->
  profile_toolpaths TK WK j sd (Some (EdgeTabs spacing width height only)) base = Ok ps ->
  exists p, ps = [p] /\ tabbed TK (tk_zmin TK base + height) spacing width only base p.
Proof.
  intros ME HA HD HW HSP HH [C T] H. unfold profile_toolpaths in H.
  assert (E : profile_layers TK WK j base sd = Ok [base]) by (destruct HD as [->| ->]; reflexivity).
  rewrite E in H. cbn [rbind mapM tabs_height] in H.
  destruct (apply_tabs TK base _ _) as [p|x] eqn:EA; [|discriminate]. cbn [rbind] in H. injection H as <-.
  exists p. split; [reflexivity|]. eapply edge_tabs_applied; [exact ME| |exact HW|exact HSP| | |exact C|exact HA|exact EA].
  - intros e He. destruct (T e He) as (T1 & T2 & T3 & _). auto.
  - intros e He. destruct (T e He) as (_ & _ & _ & T1 & T2). auto.
  - qlra.
Qed.

(** Whatever the tabs: a pass at or above their top is not interrupted; below it the pieces in tabs
    are at that one height. *)
Lemma profile_any_tabs TK WK j base s t ps :
  makes_edges TK -> 0 < s -> lifts TK WK base -> clear_of_top TK WK (j_top j) base ->
  (forall e, In e base -> edge_sound e /\ edge_on_curve TK e /\ moved_vertically TK e) ->
  (forall dz e, In e (wk_moved WK base dz) -> edge_sound e /\ edge_on_curve TK e /\ moved_vertically TK e) ->
  profile_toolpaths TK WK j (Some s) (Some t) base = Ok ps ->
  exists n, layers_needed (tk_zmin TK base) s n /\ length ps = S n /\
    forall k p, nth_error ps k = Some p ->
      let layer := if (k =? n)%nat then base else wk_moved WK base (s * qz (Z.of_nat (n - k))) in
      let up := qz (Z.of_nat (n - k)) * s in
      (tabs_height t <= up -> p = layer) /\
      (up < tabs_height t ->
       exists ms, wire_marks t (tk_length TK layer) layer = Ok ms /\
         (length ms = length layer -> (forall m, In m ms -> usable m) ->
          exists outs,
            Forall2 (fun em out => replaced TK (tk_zmin TK base + tabs_height t) (fst em) (snd em) out) (combine layer ms) outs /\
            match tk_assemble TK (concat outs) with Some w' => p = w' | None => p = layer end)).
Proof.
  intros ME HS LI CL TB TM H.
  destruct (toolpath_layer TK WK j base s _ ps HS LI CL H) as (n & HN & HL & HK).
  exists n. split; [exact HN|]. split; [exact HL|]. intros k p Hp. destruct (HK k p Hp) as (K & HZ & HT).
  cbv zeta. set (layer := if (k =? n)%nat then base else wk_moved WK base (s * qz (Z.of_nat (n - k)))) in *.
  split; intros HH.
  - rewrite apply_tabs_above in HT; [injection HT as <-; reflexivity|]. rewrite HZ. qlra.
  - destruct (apply_tabs_spec TK layer (tk_zmin TK base + tabs_height t) t p ME) as (ms & M1 & M2).
    + unfold layer. destruct (k =? n)%nat; [exact TB|apply TM].
    + rewrite HZ. qlra.
    + exact HT.
    + exists ms. split; [exact M1|]. intros HL1 HU. destruct (M2 HL1 HU) as (outs & F & _ & A). exists outs. split; assumption.
Qed.

(** ** Example: a square of side 4 at -5, tabs of height 2, a millimetre per pass *)
Definition lowered (dz : Qc) : list edge := map (map_edge (lift dz)) tab_square.
Definition tabbed_square : result (list (list edge)) :=
  profile_toolpaths flat_tk flat_wk ex_job (Some 1) (Some (EdgeTabs (qz 3) 1 (qz 2) None)) tab_square.
(** The different heights at which the pieces of a pass end. *)
Definition heights (p : list edge) : list Z := nodup Z.eq_dec (map (fun e => qfloor (vz (travel_end e))) p).

Lemma ex_makes : makes_edges flat_tk.
Proof. exact (straight_makes (fun v => v)). Qed.
Lemma ex_takes dz : takes_tabs flat_tk (qz 3) 1 (lowered dz).
Proof.
  split; [repeat split|]. intros e [<-|[<-|[<-|[<-|[]]]]];
    (split; [repeat split; cbn; try discriminate; unfold mix, lift; cbn; f_equal; ring|]);
    (split; [split; [intros; reflexivity|split; [cbn; ring|split; [cbn; ring|intros a b _ Hab _; cbn; qlra]]]|]);
    (split; [intros v; split; reflexivity|]); (split; [reflexivity|]); left; vm_compute; repeat constructor.
Qed.
Lemma tab_square_flat : flat (qz (-5)) tab_square.
Proof.
  split; [discriminate|]. intros e [<-|[<-|[<-|[<-|[]]]]]; (split; [reflexivity|]); (split; [reflexivity|]); (split; intros; cbn; ring).
Qed.
Lemma tab_square_lifts : lifts flat_tk flat_wk tab_square.
Proof.
  intros dz. destruct flat_tk_rigid as [R1 R2]. rewrite (R1 _ _ tab_square_flat), (R1 _ _ (R2 _ _ dz tab_square_flat)). reflexivity.
Qed.
Lemma tab_square_clear : clear_of_top flat_tk flat_wk plane_xy tab_square.
Proof.
  intros dz H. rewrite tab_square_lifts in H. destruct flat_tk_rigid as [R1 _]. rewrite (R1 _ _ tab_square_flat) in H.
  cbn [flat_wk wk_below wk_moved]. unfold rect_below, tab_square. cbn [map existsb map_edge side e_startPoint e_endPoint].
  assert (OP : off_plane plane_xy (lift dz (zv 0 0 (-5))) = true).
  { unfold off_plane, plane_xy, dot, vsub, lift, zv. cbn [p_origin p_zdir vx vy vz]. apply negb_true_iff. apply qeqb_neq. intros C.
    assert (C' : qz (-5) + dz = 0) by (rewrite <- C; ring). rewrite C' in H. discriminate H. }
  rewrite OP. cbn [orb andb]. unfold low. cbn [side map_edge e_startPoint e_endPoint lift zv vz]. rewrite qmin_same.
  assert (LT : qltb (qz (-5) + dz) 0 = true). { apply qltb_lt. eapply Qclt_trans; [exact H|reflexivity]. }
  rewrite LT. reflexivity.
Qed.
Lemma lowered_0 : takes_tabs flat_tk (qz 3) 1 tab_square.
Proof.
  split; [repeat split|]. intros e [<-|[<-|[<-|[<-|[]]]]];
    (split; [apply side_sound|]);
    (split; [split; [intros; reflexivity|split; [cbn; ring|split; [cbn; ring|intros a b _ Hab _; cbn; qlra]]]|]);
    (split; [intros v; split; reflexivity|]); (split; [reflexivity|]); left; vm_compute; repeat constructor.
Qed.
Lemma ex_tabbed : 
  (forall dz, takes_tabs flat_tk (qz 3) 1 (wk_moved flat_wk tab_square dz)) /\ takes_tabs flat_tk (qz 3) 1 tab_square /\
  lifts flat_tk flat_wk tab_square /\ clear_of_top flat_tk flat_wk (j_top ex_job) tab_square /\ makes_edges flat_tk /\
  match tabbed_square with
  | Ok ps => map heights ps = [[-1]; [-2]; [-3]; [-3; -4]; [-3; -5]]%Z
  | Err _ => False
  end.
Proof.
  split; [exact ex_takes|]. split; [exact lowered_0|]. split; [exact tab_square_lifts|]. split; [exact tab_square_clear|].
  split; [exact ex_makes|]. vm_compute. reflexivity.
Qed.
