(** Corollaries, examples and witnesses for Props/Tabs.v. *)
From Verif Require Import Base.Py Model.Tabs Spec.Wires Spec.Tabs Proofs.GeomP Proofs.PocketP Proofs.InterpP Proofs.TabsP Proofs.WireTabsP Proofs.TabPiecesP Proofs.RouteEx.
From Coq Require Import Lia.
Local Open Scope Qc_scope.
Local Open Scope list_scope.

(** ** EdgeTabs with enough room *)
Lemma in_edge_tab_none length width d : ~ in_edge_tab length width 0 d.
Proof. intros (k & Hk & _). lia. Qed.

Lemma ends_normal : forall l t, t <> TTAB -> ~ ends_in_tab (l ++ [(1, t); (1, TNORMAL)]).
Proof.
  induction l as [|[p u] l IH]; intros t N; cbn [app ends_in_tab]; [exact N|]. destruct l as [|m l]; [|].
  - cbn [app]. apply (IH t N).
  - destruct l; cbn [app] in *; apply (IH t N).
Qed.
Lemma ends_in_tab_snoc l m1 m2 : ends_in_tab (l ++ [m1; m2]) <-> snd m1 = TTAB.
Proof.
  induction l as [|[p u] l IH]; [destruct m1; cbn; reflexivity|]. cbn [app ends_in_tab]. destruct (l ++ [m1; m2]) as [|a [|b r]] eqn:E.
  - destruct l; discriminate.
  - destruct l as [|? [|? ?]]; discriminate.
  - exact IH.
Qed.
Lemma edge_transitions_ends ds : ~ starts_in_tab (edge_transitions ds) /\ ~ ends_in_tab (edge_transitions ds).
Proof.
  split; [intros []|]. unfold edge_transitions. destruct ds as [|d ds] using rev_ind.
  - cbn. discriminate.
  - rewrite flat_map_app. cbn [flat_map app]. rewrite <- app_assoc. cbn [app].
    intros C. change ((0, TNORMAL) :: flat_map (fun d0 : Qc * Qc => [(fst d0, TTAB); (snd d0, TNORMAL)]) ds ++ [(fst d, TTAB); (snd d, TNORMAL); (1, TNORMAL)])
      with (((0, TNORMAL) :: flat_map (fun d0 : Qc * Qc => [(fst d0, TTAB); (snd d0, TNORMAL)]) ds) ++ [(fst d, TTAB)] ++ [(snd d, TNORMAL); (1, TNORMAL)]) in C.
    rewrite app_assoc in C. apply ends_in_tab_snoc in C. discriminate C.
Qed.

Lemma edge_wire_marks spacing width height only es L :
  0 < width -> width < spacing -> (forall e, In e es -> 0 < e_length e /\ roomy spacing width e) ->
  exists ms, wire_marks (EdgeTabs spacing width height only) L es = Ok ms /\
    Forall2 (fun e m => describes (edge_tab_set spacing width only e) m) es ms /\ tabs_meet ms.
Proof.
  intros HW HS HE. cbn [wire_marks].
  assert (G : exists ms, mapM (fun e => do ds <- edge_ds spacing width only e; Ok (edge_transitions ds)) es = Ok ms /\
     Forall2 (fun e m => describes (edge_tab_set spacing width only e) m) es ms /\ Forall (fun m => ~ starts_in_tab m /\ ~ ends_in_tab m) ms).
  { induction es as [|e es IH]; [exists []; repeat split; constructor|]. destruct (IH (fun x Hx => HE x (or_intror Hx))) as (ms & E & F & N).
    destruct (HE e (or_introl eq_refl)) as [HL HR]. destruct (edge_ds_total spacing width only e HW HS (Qclt_le_weak _ _ HL)) as (ds & Hds).
    exists (edge_transitions ds :: ms). cbn [mapM]. rewrite Hds. cbn [rbind]. rewrite E. cbn [rbind]. split; [reflexivity|]. split; [|constructor; [apply edge_transitions_ends|exact N]].
    constructor; [|exact F].
    destruct (edge_ds_spec spacing width only e ds HW HS (Qclt_le_weak _ _ HL) Hds) as [[NW ->]|[WT _]].
    - cbn. split; [reflexivity|]. split; [discriminate|]. split; [|reflexivity]. intros d _ _. split; [discriminate|]. intros [C _]. contradiction.
    - pose proof (edge_tabs_describe spacing width only e ds HW HS HL Hds WT HR) as D. revert D. apply describes_ext'.
      + intros d _ _. unfold edge_tab_set. split; [intros K; split; assumption|intros [_ K]; exact K].
      + destruct (edge_ds_spec spacing width only e ds HW HS (Qclt_le_weak _ _ HL) Hds) as [[NW _]|[_ ->]]; [contradiction|].
        intros q Hq. unfold edge_transitions in Hq. destruct Hq as [<-|Hq]; [discriminate|]. apply in_app_iff in Hq. destruct Hq as [Hq|[<-|[]]]; [|apply Qcle_refl].
        apply in_flat_map in Hq. destruct Hq as (t & Ht & Hq). apply in_map_iff in Ht. destruct Ht as (k & <- & Hk). apply in_seq in Hk.
        destruct (tabs_inside spacing width (e_length e) _ k HW HS (Qclt_le_weak _ _ HL) eq_refl ltac:(lia)) as [K1 K2].
        assert (HH : 0 < width / qz 2 / e_length e). { apply lt_qdiv; [exact HL|]. replace (0 * e_length e) with 0 by ring. apply lt_qdiv; [apply qz_pos; lia|]. replace (0 * qz 2) with 0 by ring. exact HW. }
        destruct Hq as [<-|[<-|[]]]; cbn [fst snd]; qlra. }
  destruct G as (ms & E & F & N). exists ms. split; [exact E|]. split; [exact F|]. clear - N. induction N as [|m ms [A B] N IH]; [exact I|].
  destruct ms as [|m2 ms]; [exact I|]. inversion N as [|? ? [A2 B2] _]; subst. split; [|exact IH]. split; intros; contradiction.
Qed.

Lemma edge_tabs_applied TK es tab_z spacing width height only w : makes_edges TK ->
  (forall e, In e es -> edge_sound e /\ edge_on_curve TK e /\ moved_vertically TK e) ->
  0 < width -> width < spacing -> (forall e, In e es -> 0 < e_length e /\ roomy spacing width e) ->
  tk_zmin TK es < tab_z -> connected es ->
  (forall l, tk_assemble TK l = Some l) ->
  apply_tabs TK es tab_z (EdgeTabs spacing width height only) = Ok w ->
  exists ms outs,
    Forall2 (fun e m => describes (edge_tab_set spacing width only e) m) es ms /\
    Forall2 (fun em out => replaced TK tab_z (fst em) (snd em) out) (combine es ms) outs /\
    w = concat outs /\ connected w.
Proof.
  intros ME HE HW HS HR HZ HC HA H. destruct (apply_tabs_spec TK es tab_z _ w ME HE HZ H) as (ms & Hms & K).
  destruct (edge_wire_marks spacing width height only es (tk_length TK es) HW HS HR) as (ms' & Hms' & HD & HM). rewrite Hms in Hms'. injection Hms' as <-.
  assert (L : length ms = length es) by (clear - HD; induction HD; cbn; congruence).
  assert (U : forall m, In m ms -> usable m).
  { clear - HD. induction HD as [|e m es ms D HD IH]; intros x Hx; [contradiction|]. destruct Hx as [<-|Hx]; [|apply IH, Hx]. apply (describes_usable _ _ D), (describes_two _ _ D). }
  destruct (K L U) as (outs & F & C & A). rewrite HA in A. exists ms, outs. split; [exact HD|]. split; [exact F|]. split; [exact A|]. rewrite A. apply C; assumption.
Qed.

(** ** WireTabs *)
Lemma wire_tabs_marks c width height es : (1 <= c)%nat -> 0 < width -> es <> [] -> (forall e, In e es -> 0 < e_length e) ->
  let L := qsum (map e_length es) in
  width * qz (Z.of_nat c) <= L ->
  exists ds ms, wire_marks (WireTabs c width height) L es = Ok ms /\ ms = map (wire_transitions ds) (shares L 0 (map e_length es)) /\
    forall r, In r (shares L 0 (map e_length es)) ->
      (~ wraps_behind c width L (fst r) (snd r) -> describes (fun d => in_wire_tab c width L (on_wire r d)) (wire_transitions ds r)) /\
      (wraps_behind c width L (fst r) (snd r) -> ~ forwards (wire_transitions ds r)).
Proof.
  intros HC HW NE HE L HF. assert (HE' : Forall (fun e => 0 < e_length e) es) by (apply Forall_forall; exact HE).
  destruct (load_edge_ranges_ok es NE HE') as (HL & LR & SR). fold L in HL, LR, SR.
  exists (wire_tabs c width L). eexists. cbn [wire_marks]. rewrite (wire_tab_ds_eq c width L HW HL HC HF). cbn [rbind]. rewrite LR. cbn [rbind].
  split; [reflexivity|]. split; [reflexivity|]. intros [s e] Hr. rewrite Forall_forall in SR. destruct (SR _ Hr) as (R1 & R2 & R3). cbn [fst snd] in *.
  split; [apply wire_transitions_good|apply wire_transitions_bad]; assumption.
Qed.

(** ** A kernel of straight edges *)
Definition straight_make (c : Qc -> vec) (p q : Qc) (rev : bool) : result edge :=
  Ok (Edge 0 GLINE rev (c p) (c q) c (fun d => c ((1 - d) * p + d * q)) p q 1 (V3 0 0 0) (V3 0 0 1) false).
Definition straight_line (a b : vec) : result edge := straight_make (mix a b) 0 1 false.
Definition straight_kernel (loc : vec -> vec) : tab_kernel := {|
  tk_param_at := fun e d => (1 - d) * e_param0 e + d * e_param1 e;
  tk_curve := fun e p => e_param e p;
  tk_location := fun _ => loc;
  tk_make := straight_make; tk_line := straight_line; tk_assemble := Some;
  tk_zmin := fun es => fold_right (fun e m => qmin m (qmin (vz (e_startPoint e)) (vz (e_endPoint e)))) (qz 1000) es;
  tk_length := fun es => qsum (map e_length es) |}.

Lemma straight_makes loc : makes_edges (straight_kernel loc).
Proof.
  assert (M : forall c p q rev e, straight_make c p q rev = Ok e ->
     edge_sound e /\ e_reversed e = rev /\ e_param0 e = p /\ e_param1 e = q /\ (forall x, e_param e x = c x)).
  { intros c p q rev e H. injection H as <-. split; [|repeat split]. repeat split; cbn; try discriminate; f_equal; ring. }
  split.
  - intros c p q rev e _. apply M.
  - intros a b l H. destruct (M _ _ _ _ _ H) as (S & _). split; [exact S|]. injection H as <-. unfold travel_start, travel_end, mix. cbn.
    split; [|split; [|reflexivity]]; [destruct a|destruct b]; cbn; f_equal; ring.
Qed.

(** ** Statements for Props/Tabs.v *)
Lemma tab_count_exact spacing length : 0 < spacing -> 0 <= length ->
  let n := tab_count spacing length in qz (Z.of_nat n) * spacing <= length /\ length < qz (Z.of_nat n + 1) * spacing.
Proof.
  intros HS HL n. split; [apply tab_count_le; assumption|]. unfold n, tab_count. destruct (qfloor_spec (length / spacing)) as [_ F2].
  apply qdiv_lt in F2; [|exact HS]. assert (N : (0 <= qfloor (length / spacing))%Z).
  { destruct (Z.leb_spec 0 (qfloor (length / spacing))) as [L|L]; [exact L|]. exfalso. assert (Q : qz (qfloor (length / spacing) + 1) <= qz 0) by (apply qz_le; lia). rewrite qz_0 in Q.
    assert (0 <= - qz (qfloor (length / spacing) + 1) * spacing) by (apply qmul_pos; [qlra|apply Qclt_le_weak, HS]). qlra. }
  rewrite Z2Nat.id by exact N. exact F2.
Qed.

Lemma edge_tabs_list spacing width only e ds : 0 < width -> width < spacing -> 0 < e_length e ->
  edge_ds spacing width only e = Ok ds -> wants_tabs only e ->
  exists n, length ds = n /\
    qz (Z.of_nat n) * spacing <= e_length e /\ e_length e < qz (Z.of_nat n + 1) * spacing /\
    forall k, (1 <= k <= n)%nat -> exists a b, nth_error ds (k - 1) = Some (a, b) /\
      (b - a) * e_length e = width /\ (a + b) / qz 2 = qz (Z.of_nat k) / qz (Z.of_nat n + 1) /\ 0 < a /\ b < 1.
Proof.
  intros HW HS HL H WT. exists (tab_count spacing (e_length e)). set (n := tab_count spacing (e_length e)).
  destruct (edge_ds_spec spacing width only e ds HW HS (Qclt_le_weak _ _ HL) H) as [[C _]|[_ ->]]; [contradiction|]. fold n.
  split; [rewrite map_length, seq_length; reflexivity|]. destruct (tab_count_exact spacing (e_length e)) as [T1 T2]; [qlra|apply Qclt_le_weak, HL|]. fold n in T1, T2.
  split; [exact T1|]. split; [exact T2|]. intros k Hk. eexists _, _. split.
  - rewrite nth_error_map. rewrite (nth_error_nth' _ 0%nat) by (rewrite seq_length; lia). rewrite seq_nth by lia. cbn [option_map]. replace (1 + (k - 1))%nat with k by lia. reflexivity.
  - destruct (tabs_inside spacing width (e_length e) n k HW HS (Qclt_le_weak _ _ HL) eq_refl Hk) as [I1 I2]. pose proof (half_width width (e_length e) HL) as HH.
    set (h := width / qz 2 / e_length e) in *. split; [|split; [|split; assumption]].
    + replace (tab_center n k + h - (tab_center n k - h)) with (h + h) by ring. exact HH.
    + unfold tab_center. set (x := qz (Z.of_nat k) / qz (Z.of_nat n + 1)). rewrite qz2. unfold Qcdiv. replace ((x - h + (x + h)) * / (1 + 1)) with (x * ((1 + 1) * / (1 + 1))) by ring.
      rewrite Qcmult_inv_r by discriminate. ring.
Qed.

Lemma edge_tabs_overlap spacing width only e ds : 0 < width -> width < spacing -> 0 < e_length e ->
  edge_ds spacing width only e = Ok ds -> wants_tabs only e ->
  (2 <= length ds)%nat -> (forwards (edge_transitions ds) <-> width * qz (Z.of_nat (length ds) + 1) <= e_length e).
Proof.
  intros HW HS HL H WT L2. split.
  - intros F. destruct (edge_ds_spec spacing width only e ds HW HS (Qclt_le_weak _ _ HL) H) as [[C _]|[_ E]]; [contradiction|].
    set (n := tab_count spacing (e_length e)) in *. assert (EL : length ds = n) by (rewrite E, map_length, seq_length; reflexivity). rewrite EL in *.
    destruct n as [|[|n']]; [lia|lia|]. set (n := S (S n')) in *. rewrite E in F. unfold edge_transitions in F. cbn [seq map flat_map app fst snd] in F.
    destruct F as (_ & _ & F & _). set (h := width / qz 2 / e_length e) in *. pose proof (half_width width (e_length e) HL) as HH. fold h in HH.
    pose proof (center_lt n 1 2 ltac:(lia)) as CC. change (Z.of_nat 2 - Z.of_nat 1)%Z with 1%Z in CC. rewrite qz_1 in CC.
    set (D := qz (Z.of_nat n + 1)) in *. assert (HD : 0 < D) by (apply qz_pos; lia).
    cbn [fst snd] in F. assert (K : h + h <= 1 / D) by qlra. apply le_qdiv in K; [|exact HD]. rewrite <- HH.
    assert (0 <= (1 - (h + h) * D) * e_length e) by (apply qmul_pos; [qlra|apply Qclt_le_weak, HL]).
    replace ((1 - (h + h) * D) * e_length e) with (e_length e - (h + h) * e_length e * D) in H0 by ring. qlra.
  - intros R. apply (describes_forwards (in_edge_tab (e_length e) width (tab_count spacing (e_length e)))).
    apply (edge_tabs_describe spacing width only e ds HW HS HL H WT). right.
    destruct (edge_ds_spec spacing width only e ds HW HS (Qclt_le_weak _ _ HL) H) as [[C _]|[_ E]]; [contradiction|].
    assert (EL : length ds = tab_count spacing (e_length e)) by (rewrite E, map_length, seq_length; reflexivity). rewrite <- EL. exact R.
Qed.

(** Edges with a length. *)
Definition side (id : nat) (rev : bool) (a b : vec) (len : Qc) : edge :=
  Edge id GLINE rev a b (mix a b) (mix a b) 0 1 len (zv 0 0 0) (zv 0 0 1) false.
Lemma side_sound id rev a b len : edge_sound (side id rev a b len).
Proof. repeat split; cbn; try discriminate; unfold mix; destruct a, b; cbn; f_equal; ring. Qed.
Lemma side_on_curve loc id rev a b len : (forall v, loc v = v) -> edge_on_curve (straight_kernel loc) (side id rev a b len).
Proof.
  intros HL. split; [intros p; cbn; rewrite HL; reflexivity|]. split; [cbn; ring|]. split; [cbn; ring|]. intros x y _ H _. cbn. qlra.
Qed.

Definition positions (ts : marks) : list (Z * transition) := map (fun m => (qfloor (qz 1000 * fst m), snd m)) ts.

(** The square (0,0)-(4,4) at height -5, second side reversed. *)
Definition tab_square : list edge :=
  [side 1 false (zv 0 0 (-5)) (zv 4 0 (-5)) (qz 4); side 2 true (zv 4 4 (-5)) (zv 4 0 (-5)) (qz 4);
   side 3 false (zv 4 4 (-5)) (zv 0 4 (-5)) (qz 4); side 4 false (zv 0 4 (-5)) (zv 0 0 (-5)) (qz 4)].
Lemma tab_square_ok : connected tab_square /\
  (forall e, In e tab_square -> edge_sound e /\ edge_on_curve (straight_kernel (fun v => v)) e /\ moved_vertically (straight_kernel (fun v => v)) e) /\
  (forall e, In e tab_square -> 0 < e_length e).
Proof.
  split; [repeat split|]. split.
  - intros e [<-|[<-|[<-|[<-|[]]]]]; (split; [apply side_sound|]); (split; [apply side_on_curve; reflexivity|]); intros v; split; reflexivity.
  - intros e [<-|[<-|[<-|[<-|[]]]]]; reflexivity.
Qed.

(** A wire tab that ends exactly at a corner. *)
Definition corner_tabs : tabs := WireTabs 1 (qz 8) 1.
Definition zs (r : result (list edge)) : list (Z * Z * Z * (Z * Z * Z)) :=
  match r with
  | Ok es => map (fun e => let a := travel_start e in let b := travel_end e in
                   ((qfloor (vx a), qfloor (vy a), qfloor (vz a)), (qfloor (vx b), qfloor (vy b), qfloor (vz b)))) es
  | Err _ => []
  end.
Lemma corner_pieces :
  zs (apply_tabs (straight_kernel (fun v => v)) tab_square (qz (-4)) corner_tabs) =
  [((0, 0, -4), (4, 0, -4)); ((4, 0, -5), (4, 4, -5)); ((4, 4, -5), (0, 4, -5)); ((0, 4, -4), (0, 0, -4))]%Z.
Proof. vm_compute. reflexivity. Qed.
Lemma corner_disconnected : exists w, apply_tabs (straight_kernel (fun v => v)) tab_square (qz (-4)) corner_tabs = Ok w /\ ~ connected w.
Proof.
  pose proof corner_pieces as P.
  destruct (apply_tabs (straight_kernel (fun v => v)) tab_square (qz (-4)) corner_tabs) as [w|x]; [|discriminate P].
  exists w. split; [reflexivity|]. intros C.
  destruct w as [|a [|b r]]; [discriminate P|discriminate P|].
  assert (D : vz (travel_end a) = vz (travel_start b)) by (destruct C as [E _]; rewrite E; reflexivity).
  apply (f_equal qfloor) in D. unfold zs in P. cbn [map] in P.
  assert (P1 := f_equal (fun l => snd (snd (nth 0 l ((0, 0, 0), (0, 0, 0))%Z))) P).
  assert (P2 := f_equal (fun l => snd (fst (nth 1 l ((0, 0, 0), (0, 0, 0))%Z))) P).
  cbn [nth fst snd] in P1, P2. rewrite P1, P2 in D. discriminate D.
Qed.

(** An edge whose location moves it by 100. *)
Definition shifted (v : vec) : vec := V3 (vx v + qz 100) (vy v) (vz v).
Definition shifted_side : edge :=
  let f := fun t => shifted (mix (zv 0 0 (-5)) (zv 9 0 (-5)) t) in
  Edge 1 GLINE false (f 0) (f 1) f f 0 1 (qz 9) (zv 0 0 0) (zv 0 0 1) false.
Definition shifted_kernel : tab_kernel := {|
  tk_param_at := tk_param_at (straight_kernel shifted); tk_curve := fun _ => mix (zv 0 0 (-5)) (zv 9 0 (-5));
  tk_location := fun _ => shifted; tk_make := straight_make; tk_line := straight_line; tk_assemble := Some;
  tk_zmin := fun _ => qz (-5); tk_length := fun _ => qz 9 |}.
Definition one_tab : marks := [(0, TNORMAL); (qq 1 3, TTAB); (qq 2 3, TNORMAL); (1, TNORMAL)].

Lemma spacing_overlap : exists spacing width height e t ds,
  edge_tabs spacing width height None = Ok t /\ 0 < width /\ 0 < e_length e /\
  edge_ds spacing width None e = Ok ds /\ ~ forwards (edge_transitions ds) /\
  exists a b a' b', nth_error ds 0 = Some (a, b) /\ nth_error ds 1 = Some (a', b') /\ a' < b.
Proof.
  exists (qz 3), (qq 5 2), 1, (side 1 false (zv 0 0 0) (zv 6 0 0) (qz 6)). eexists _, _.
  split; [reflexivity|]. split; [reflexivity|]. split; [reflexivity|]. split; [vm_compute; reflexivity|]. split.
  - intros (_ & _ & F & _). vm_compute in F. apply F. reflexivity.
  - eexists _, _, _, _. split; [reflexivity|]. split; [reflexivity|]. reflexivity.
Qed.

Lemma circle_two_tabs : exists count width e ms,
  0 < width /\ 0 < e_length e /\ width * qz (Z.of_nat count) <= e_length e /\
  wire_marks (WireTabs count width 1) (e_length e) [e] = Ok [ms] /\ ~ forwards ms /\
  positions ms = [(0, TTAB); (83, TNORMAL); (916, TTAB); (416, TTAB); (583, TNORMAL); (1000, TIGNORE)]%Z.
Proof.
  exists 2%nat, 1, (circle 1 false 0 0 0). eexists. split; [reflexivity|]. split; [reflexivity|]. split; [discriminate|]. split; [vm_compute; reflexivity|]. split.
  - intros (_ & _ & F & _). vm_compute in F. apply F. reflexivity.
  - vm_compute. reflexivity.
Qed.

Lemma tab_beside_edge :
  makes_edges shifted_kernel /\ edge_sound shifted_side /\ edge_on_curve shifted_kernel shifted_side /\
  zs (tab_edge shifted_kernel (qz (-4)) shifted_side one_tab) =
    [((100, 0, -5), (103, 0, -5)); ((103, 0, -5), (3, 0, -4)); ((3, 0, -4), (6, 0, -4));
     ((6, 0, -4), (106, 0, -5)); ((106, 0, -5), (109, 0, -5))]%Z.
Proof.
  split; [exact (straight_makes shifted)|]. split; [repeat split; cbn; discriminate|]. split.
  - split; [intros p; reflexivity|]. split; [cbn; ring|]. split; [cbn; ring|]. intros x y _ H _. cbn. qlra.
  - vm_compute. reflexivity.
Qed.

Lemma tabs_dropped : forall TK es tab_z t ms outs, tk_zmin TK es < tab_z ->
  wire_marks t (tk_length TK es) es = Ok ms ->
  mapM (fun em => tab_edge TK tab_z (fst em) (snd em)) (combine es ms) = Ok outs ->
  tk_assemble TK (concat outs) = None -> apply_tabs TK es tab_z t = Ok es.
Proof.
  intros TK es tab_z t ms outs HZ HM HO HA. unfold apply_tabs. rewrite (proj2 (qleb_nle tab_z (tk_zmin TK es))) by exact HZ.
  rewrite HM. cbn [rbind]. rewrite HO. cbn [rbind]. rewrite HA. reflexivity.
Qed.

Lemma corner_tab_jump : exists w,
  apply_tabs (straight_kernel (fun v => v)) tab_square (qz (-4)) corner_tabs = Ok w /\
  connected tab_square /\ ~ connected w.
Proof. destruct corner_disconnected as (w & H1 & H2). exists w. split; [exact H1|]. split; [apply tab_square_ok|exact H2]. Qed.

Lemma edge_alternate ds i t : nth_error (map snd (edge_transitions ds)) i = Some t ->
  (i < 2 * length ds + 2)%nat /\ (t = TTAB <-> Nat.odd i = true /\ (i < 2 * length ds)%nat) /\ (t = TTAB \/ t = TNORMAL).
Proof.
  assert (G : forall l, map snd (edge_transitions l) = TNORMAL :: flat_map (fun _ => [TTAB; TNORMAL]) l ++ [TNORMAL]).
  { intros l. unfold edge_transitions. cbn [map snd]. rewrite map_app. f_equal. f_equal. induction l; [reflexivity|]. cbn. rewrite IHl. reflexivity. }
  rewrite G. clear G. revert i. induction ds as [|d ds IH]; intros i.
  - destruct i as [|[|i]]; cbn; [intros [= <-]|intros [= <-]|destruct i; discriminate].
    + split; [lia|]. split; [|tauto]. split; [discriminate|intros [? ?]; lia].
    + split; [lia|]. split; [|tauto]. split; [discriminate|intros [? ?]; lia].
  - destruct i as [|[|i]]; cbn [nth_error flat_map app].
    + intros [= <-]. cbn [length]. split; [lia|]. split; [|tauto]. split; [discriminate|intros [? ?]; discriminate].
    + intros [= <-]. cbn [length]. split; [lia|]. split; [|tauto]. split; [|reflexivity]. intros _. split; [reflexivity|lia].
    + intros H. apply IH in H as (H1 & H2 & H3). cbn [length]. split; [lia|]. split; [|exact H3].
      rewrite H2. change (Nat.odd (S (S i))) with (Nat.odd i). split; intros [? ?]; (split; [assumption|lia]).
Qed.
Lemma tab_edge_pieces TK z e ts out :
  makes_edges TK -> edge_on_curve TK e -> moved_vertically TK e -> usable ts ->
  tab_edge TK z e ts = Ok out -> replaced TK z e ts out.
Proof. intros ME EC MV. exact (tab_edge_spec TK z e ME EC MV ts out). Qed.
