(** * Proofs: tabs on edges and wires *)
From Verif Require Import Base.Py Model.Tabs Spec.Wires Spec.Tabs Proofs.GeomP Proofs.PocketP Proofs.InterpP.
From Coq Require Import Lia.
Local Open Scope Qc_scope.
Local Open Scope list_scope.

Lemma qz_pos z : (0 < z)%Z -> 0 < qz z.
Proof. intros H. rewrite <- qz_0. apply qz_lt, H. Qed.
Lemma qne0 x : 0 < x -> x <> 0.
Proof. intros H ->. exact (Qclt_not_le _ _ H (Qcle_refl _)). Qed.
Lemma qz2 : qz 2 = 1 + 1.
Proof. apply Qc_is_canon. reflexivity. Qed.
Lemma qdiv_mono a b c : 0 < c -> a <= b -> a / c <= b / c.
Proof. intros H L. apply qdiv_le; [exact H|]. rewrite qdiv_mul by (apply qne0, H). exact L. Qed.
Lemma qdiv_mono_lt a b c : 0 < c -> a < b -> a / c < b / c.
Proof. intros H L. apply qdiv_lt; [exact H|]. rewrite qdiv_mul by (apply qne0, H). exact L. Qed.
Lemma le_qdiv a b c : 0 < c -> (a <= b / c <-> a * c <= b).
Proof.
  intros H. split; intros L; apply Qcnot_lt_le; intros C.
  - apply (qdiv_lt b c a H) in C. exact (Qclt_not_le _ _ C L).
  - apply (qdiv_lt b c a H) in C. exact (Qclt_not_le _ _ C L).
Qed.
Lemma lt_qdiv a b c : 0 < c -> (a < b / c <-> a * c < b).
Proof.
  intros H. split; intros L; apply Qcnot_le_lt; intros C.
  - apply (qdiv_le b c a H) in C. exact (Qclt_not_le _ _ L C).
  - apply (qdiv_le b c a H) in C. exact (Qclt_not_le _ _ L C).
Qed.

Lemma qabs_lt x r : qabs x < r <-> - r < x /\ x < r.
Proof.
  unfold qabs. destruct (qltb_spec x 0) as [H|H].
  - split; [intros L; split; qlra|intros [L1 L2]; qlra].
  - apply Qcnot_lt_le in H. split; [intros L; split; qlra|intros [L1 L2]; qlra].
Qed.

(** ** Tabs on an edge *)
Lemma removelast_map {A B} (f : A -> B) l : removelast (map f l) = map f (removelast l).
Proof. induction l as [|a [|b l] IH]; [reflexivity|reflexivity|]. cbn [map removelast] in *. rewrite IH. reflexivity. Qed.
Lemma removelast_seq a n : removelast (seq a (S n)) = seq a n.
Proof. rewrite seq_S. apply removelast_last. Qed.

Lemma inner_points_eq n : inner_points n = map (tab_center n) (seq 1 n).
Proof.
  unfold inner_points, linspace. replace (n + 2)%nat with (S (S n)) by lia. change (seq 0 (S (S n))) with (0%nat :: seq 1 (S n)).
  cbn [map tl]. rewrite removelast_map, removelast_seq. apply map_ext. intros k. unfold tab_center.
  replace (Z.of_nat (S (S n)) - 1)%Z with (Z.of_nat n + 1)%Z by lia. unfold Qcdiv. ring.
Qed.

Lemma edge_ds_spec spacing width only e ds : 0 < width -> width < spacing -> 0 <= e_length e ->
  edge_ds spacing width only e = Ok ds ->
  (~ wants_tabs only e /\ ds = []) \/
  (wants_tabs only e /\
   ds = map (fun k => (tab_center (tab_count spacing (e_length e)) k - width / qz 2 / e_length e,
                       tab_center (tab_count spacing (e_length e)) k + width / qz 2 / e_length e))
            (seq 1 (tab_count spacing (e_length e)))).
Proof.
  intros HW HS HL. unfold edge_ds, wants_tabs. set (skip := match only with Some g => _ | None => false end).
  assert (SK : skip = false <-> only = None \/ only = Some (e_geom e)).
  { unfold skip. destruct only as [g|]; [|split; auto]. rewrite negb_false_iff. split.
    - intros G. right. f_equal. destruct (e_geom e), g; try discriminate G; reflexivity.
    - intros [K|K]; [discriminate|]. injection K as ->. destruct (e_geom e); reflexivity. }
  destruct skip eqn:ES.
  { intros H. injection H as <-. left. split; [|reflexivity]. intros C. apply SK in C. discriminate. }
  assert (W : only = None \/ only = Some (e_geom e)) by (apply SK; reflexivity).
  assert (HS0 : 0 < spacing) by qlra. destruct (qeqb spacing 0) eqn:E0; [apply qeqb_eq in E0; subst; exfalso; exact (Qclt_not_le _ _ HS0 (Qcle_refl _))|].
  intros H. right. split; [exact W|]. unfold tab_count. set (c := qfloor (e_length e / spacing)) in *.
  destruct (Z.leb_spec c 0) as [C|C].
  { injection H as <-. replace (Z.to_nat c) with 0%nat by lia. reflexivity. }
  destruct (qeqb (e_length e) 0); [discriminate|]. injection H as <-. rewrite inner_points_eq, map_map.
  apply map_ext. intros k. replace (1 / e_length e * (width / qz 2)) with (width / qz 2 / e_length e) by (unfold Qcdiv; ring). reflexivity.
Qed.

Lemma edge_ds_total spacing width only e : 0 < width -> width < spacing -> 0 <= e_length e -> exists ds, edge_ds spacing width only e = Ok ds.
Proof.
  intros HW HS HL. unfold edge_ds. destruct (match only with Some g => _ | None => false end); [eexists; reflexivity|].
  assert (HS0 : 0 < spacing) by qlra. destruct (qeqb spacing 0) eqn:E0; [apply qeqb_eq in E0; subst; exfalso; exact (Qclt_not_le _ _ HS0 (Qcle_refl _))|].
  destruct (Z.leb_spec (qfloor (e_length e / spacing)) 0) as [C|C]; [eexists; reflexivity|].
  destruct (qeqb (e_length e) 0) eqn:EL; [|eexists; reflexivity]. exfalso. apply qeqb_eq in EL. rewrite EL in C.
  destruct (qfloor_spec (0 / spacing)) as [F1 F2]. assert (Z0 : 0 / spacing = 0) by (unfold Qcdiv; ring). rewrite Z0 in *.
  assert (qz 1 <= qz (qfloor 0)) by (apply qz_le; lia). rewrite qz_1 in H. qlra.
Qed.

(** Counts and lengths. *)
Lemma tab_count_le spacing length : 0 < spacing -> 0 <= length -> qz (Z.of_nat (tab_count spacing length)) * spacing <= length.
Proof.
  intros HS HL. unfold tab_count. destruct (qfloor_spec (length / spacing)) as [F1 _].
  destruct (Z.leb_spec 0 (qfloor (length / spacing))) as [C|C].
  - rewrite Z2Nat.id by exact C. apply le_qdiv in F1; assumption.
  - replace (Z.to_nat (qfloor (length / spacing))) with 0%nat by lia. change (Z.of_nat 0) with 0%Z. rewrite qz_0. replace (0 * spacing) with 0 by ring. exact HL.
Qed.

(** The ends of tab k, in units of length times n+1. *)
Lemma center_lt n a b : (a < b)%nat -> tab_center n b - tab_center n a = qz (Z.of_nat b - Z.of_nat a) / qz (Z.of_nat n + 1).
Proof. intros H. unfold tab_center, Z.sub. rewrite (qz_plus (Z.of_nat b)), qz_opp. unfold Qcdiv. ring. Qed.
Lemma half_width width length : 0 < length -> (width / qz 2 / length + width / qz 2 / length) * length = width.
Proof.
  intros HL. rewrite Qcmult_plus_distr_l, qdiv_mul by (apply qne0, HL). rewrite qz2. unfold Qcdiv.
  replace (width * / (1 + 1) + width * / (1 + 1)) with (width * ((1 + 1) * / (1 + 1))) by ring.
  rewrite Qcmult_inv_r by (intros C; discriminate C). ring.
Qed.

Lemma tabs_inside spacing width length n k : 0 < width -> width < spacing -> 0 <= length -> n = tab_count spacing length ->
  (1 <= k <= n)%nat ->
  0 < tab_center n k - width / qz 2 / length /\ tab_center n k + width / qz 2 / length < 1.
Proof.
  intros HW HS HL -> Hk. set (n := tab_count spacing length) in *.
  assert (HS0 : 0 < spacing) by qlra. pose proof (tab_count_le spacing length HS0 HL) as HC. fold n in HC.
  assert (N1 : 1 <= qz (Z.of_nat n)) by (rewrite <- qz_1; apply qz_le; lia).
  assert (HL0 : 0 < length). { assert (0 <= (qz (Z.of_nat n) - 1) * spacing) by (apply qmul_pos; [qlra|apply Qclt_le_weak, HS0]). qlra. }
  set (h := width / qz 2 / length). pose proof (half_width width length HL0) as HH. fold h in HH.
  set (D := qz (Z.of_nat n + 1)). assert (HD : 0 < D) by (apply qz_pos; lia).
  assert (ED : D = qz (Z.of_nat n) + 1) by (unfold D; rewrite qz_plus, qz_1; reflexivity).
  assert (KEY : h * D < 1).
  { (* 2 h D length = width (n+1) < 2 length *)
    assert (K1 : (h * D) * (1 + 1) * length = width * D) by (replace (h * D * (1 + 1) * length) with ((h + h) * length * D) by ring; rewrite HH; reflexivity).
    assert (K2 : width * D < (1 + 1) * length).
    { rewrite ED. assert (A1 : 0 <= (spacing - width) * qz (Z.of_nat n)) by (apply qmul_pos; qlra).
      assert (A2 : spacing <= length). { assert (0 <= (qz (Z.of_nat n) - 1) * spacing) by (apply qmul_pos; [qlra|apply Qclt_le_weak, HS0]). qlra. }
      qlra. }
    apply Qcnot_le_lt. intros C. assert (0 <= (h * D - 1) * ((1 + 1) * length)) by (apply qmul_pos; qlra). qlra. }
  unfold tab_center. fold D. split.
  - assert (h < qz (Z.of_nat k) / D); [|qlra]. apply lt_qdiv; [exact HD|]. assert (1 <= qz (Z.of_nat k)) by (rewrite <- qz_1; apply qz_le; lia). qlra.
  - assert (qz (Z.of_nat k) / D < 1 - h); [|qlra]. apply qdiv_lt; [exact HD|]. assert (qz (Z.of_nat k) <= qz (Z.of_nat n)) by (apply qz_le; lia).
    replace ((1 - h) * D) with (D - h * D) by ring. qlra.
Qed.

(** ** Tabs in order *)
Fixpoint in_order (lo : Qc) (ds : list (Qc * Qc)) : Prop :=
  match ds with [] => True | (a, b) :: r => lo <= a /\ a <= b /\ in_order b r end.
Definition in_some (ds : list (Qc * Qc)) (x : Qc) : Prop := exists t, In t ds /\ fst t < x /\ x < snd t.
Lemma in_order_ge lo ds : in_order lo ds -> forall t, In t ds -> lo <= fst t /\ fst t <= snd t.
Proof.
  revert lo. induction ds as [|[a b] ds IH]; intros lo H t HI; [contradiction|]. destruct H as (H1 & H2 & H3). destruct HI as [<-|HI].
  - split; assumption.
  - destruct (IH b H3 t HI) as [K1 K2]. split; [|exact K2]. qlra.
Qed.
Lemma in_order_weaken lo lo' ds : lo' <= lo -> in_order lo ds -> in_order lo' ds.
Proof. destruct ds as [|[a b] ds]; intros L H; [exact I|]. destruct H as (H1 & H2 & H3). split; [qlra|]. split; assumption. Qed.

Lemma describes_ext P P' p t ts : (forall d, p < d -> d < 1 -> (P d <-> P' d)) -> (forall q, In q ts -> fst q <= 1) ->
  describes_from P p t ts -> describes_from P' p t ts.
Proof.
  revert p t. induction ts as [|[q t'] ts IH]; intros p t HE HB H; [exact H|]. destruct H as (H1 & H2 & H3). split; [exact H1|]. split.
  - intros d D1 D2. rewrite <- HE; [apply H2; assumption|exact D1|]. pose proof (HB _ (or_introl eq_refl)) as B. cbn in B. qlra.
  - apply IH; [|intros x Hx; apply HB; right; exact Hx|exact H3]. intros d D1 D2. apply HE; [qlra|exact D2].
Qed.

Lemma edge_describes lo ds P : in_order lo ds -> (forall t, In t ds -> snd t <= 1) -> lo <= 1 ->
  (forall d, lo < d -> d < 1 -> (P d <-> in_some ds d)) ->
  describes_from P lo TNORMAL (flat_map (fun d => [(fst d, TTAB); (snd d, TNORMAL)]) ds ++ [(1, TNORMAL)]).
Proof.
  revert lo. induction ds as [|[a b] ds IH]; intros lo HO H1 HL HP.
  - cbn. split; [exact HL|]. split; [|reflexivity]. intros d D1 D2. split; [discriminate|]. intros C. apply HP in C; [|assumption|assumption]. destruct C as (t & [] & _).
  - destruct HO as (O1 & O2 & O3). cbn [flat_map app fst snd describes_from]. pose proof (H1 _ (or_introl eq_refl)) as B1. cbn in B1.
    split; [exact O1|]. split; [|split; [exact O2|split]].
    + intros d D1 D2. split; [discriminate|]. intros C. exfalso. apply HP in C; [|assumption|qlra]. destruct C as (t & [<-|HI] & C1 & C2).
      * cbn in C1. qlra.
      * destruct (in_order_ge _ _ O3 t HI) as [K _]. qlra.
    + intros d D1 D2. split; [|reflexivity]. intros _. apply HP; [qlra|qlra|]. exists (a, b). split; [left; reflexivity|]. split; assumption.
    + apply IH; [exact O3|intros t Ht; apply H1; right; exact Ht|exact B1|]. intros d D1 D2. rewrite HP by (qlra || assumption). split.
      * intros (t & [<-|HI] & C1 & C2); [cbn in C2; exfalso; qlra|]. exists t. split; [exact HI|]. split; assumption.
      * intros (t & HI & C). exists t. split; [right; exact HI|exact C].
Qed.

Lemma edge_tabs_in_order width length n : 0 < width -> 0 < length -> width * qz (Z.of_nat n + 1) <= length ->
  forall m a lo, (forall k, k = a -> (1 <= m)%nat -> lo <= tab_center n k - width / qz 2 / length) ->
  in_order lo (map (fun k => (tab_center n k - width / qz 2 / length, tab_center n k + width / qz 2 / length)) (seq a m)).
Proof.
  intros HW HL HF. set (h := width / qz 2 / length). pose proof (half_width width length HL) as HH. fold h in HH.
  set (D := qz (Z.of_nat n + 1)). assert (HD : 0 < D) by (apply qz_pos; lia).
  assert (H0 : 0 < h). { unfold h. apply lt_qdiv; [exact HL|]. replace (0 * length) with 0 by ring. apply lt_qdiv; [apply qz_pos; lia|]. replace (0 * qz 2) with 0 by ring. exact HW. }
  assert (GAP : forall k, tab_center n k + h <= tab_center n (S k) - h).
  { intros k. pose proof (center_lt n k (S k) (Nat.lt_succ_diag_r k)) as E. replace (Z.of_nat (S k) - Z.of_nat k)%Z with 1%Z in E by lia. rewrite qz_1 in E. fold D in E.
    assert (h + h <= 1 / D); [|qlra]. apply le_qdiv; [exact HD|]. apply Qcnot_lt_le. intros C.
    assert (0 < ((h + h) * D - 1) * length) by (apply qmul_lt; [qlra|exact HL]).
    replace (((h + h) * D - 1) * length) with ((h + h) * length * D - length) in H by ring. rewrite HH in H. fold D in HF. qlra. }
  induction m as [|m IH]; intros a lo H; [exact I|]. cbn [seq map in_order]. split; [apply H; [reflexivity|lia]|]. split; [qlra|].
  apply IH. intros k -> _. apply GAP.
Qed.
Lemma in_edge_tab_some width length n d : 0 < length ->
  (in_some (map (fun k => (tab_center n k - width / qz 2 / length, tab_center n k + width / qz 2 / length)) (seq 1 n)) d
   <-> in_edge_tab length width n d).
Proof.
  intros HL. unfold in_some, in_edge_tab. set (h := width / qz 2 / length).
  assert (E : forall x, qabs x * length < width / qz 2 <-> qabs x < h) by (intros x; unfold h; symmetry; apply lt_qdiv, HL).
  split.
  - intros (t & HI & H1 & H2). apply in_map_iff in HI. destruct HI as (k & <- & HK). apply in_seq in HK. exists k. split; [lia|]. apply E, qabs_lt. cbn in H1, H2. split; qlra.
  - intros (k & HK & H). apply E, qabs_lt in H. destruct H as [H1 H2]. eexists. split; [apply in_map_iff; exists k; split; [reflexivity|apply in_seq; lia]|]. cbn. split; qlra.
Qed.

(** With room for the tabs, the transitions of an edge describe its tabs. *)
Lemma edge_tabs_describe spacing width only e ds : 0 < width -> width < spacing -> 0 < e_length e ->
  edge_ds spacing width only e = Ok ds -> wants_tabs only e ->
  let n := tab_count spacing (e_length e) in
  (n <= 1)%nat \/ width * qz (Z.of_nat n + 1) <= e_length e ->
  describes (in_edge_tab (e_length e) width n) (edge_transitions ds).
Proof.
  intros HW HS HL H WT n HN. destruct (edge_ds_spec spacing width only e ds HW HS (Qclt_le_weak _ _ HL) H) as [[C _]|[_ ->]]; [contradiction|]. fold n.
  assert (HI : forall k, (1 <= k <= n)%nat -> 0 < tab_center n k - width / qz 2 / e_length e /\ tab_center n k + width / qz 2 / e_length e < 1).
  { intros k Hk. apply (tabs_inside spacing); [exact HW|exact HS|apply Qclt_le_weak, HL|reflexivity|exact Hk]. }
  assert (OR : in_order 0 (map (fun k => (tab_center n k - width / qz 2 / e_length e, tab_center n k + width / qz 2 / e_length e)) (seq 1 n))).
  { destruct HN as [HN|HN].
    - destruct n as [|[|m]]; [exact I| |lia]. cbn [seq map in_order]. destruct (HI 1%nat ltac:(lia)) as [K1 K2]. split; [apply Qclt_le_weak, K1|]. split; [|exact I].
      assert (0 < width / qz 2 / e_length e). { apply lt_qdiv; [exact HL|]. replace (0 * e_length e) with 0 by ring. apply lt_qdiv; [apply qz_pos; lia|]. replace (0 * qz 2) with 0 by ring. exact HW. }
      qlra.
    - apply edge_tabs_in_order; [exact HW|exact HL|exact HN|]. intros k -> Hn. apply Qclt_le_weak, HI. lia. }
  unfold edge_transitions, describes. split; [reflexivity|]. apply edge_describes.
  - exact OR.
  - intros t Ht. apply in_map_iff in Ht. destruct Ht as (k & <- & HK). apply in_seq in HK. cbn [snd]. apply Qclt_le_weak, HI. lia.
  - discriminate.
  - intros d _ _. symmetry. apply in_edge_tab_some, HL.
Qed.
Lemma room_for_tabs spacing width length : 0 < width -> width < spacing -> 0 < length -> qz 3 * width <= qz 2 * spacing ->
  let n := tab_count spacing length in (n <= 1)%nat \/ width * qz (Z.of_nat n + 1) <= length.
Proof.
  intros HW HS HL H n. destruct (Nat.leb_spec n 1) as [L|L]; [left; exact L|right].
  assert (HS0 : 0 < spacing) by qlra. pose proof (tab_count_le spacing length HS0 (Qclt_le_weak _ _ HL)) as HC. fold n in HC.
  rewrite qz_plus, qz_1. assert (N2 : 1 + 1 <= qz (Z.of_nat n)) by (rewrite <- qz2; apply qz_le; lia).
  rewrite qz2 in H. assert (E3 : qz 3 = 1 + 1 + 1) by (apply Qc_is_canon; reflexivity). rewrite E3 in H.
  (* 3 w (n+1) <= 2 s (n+1) <= 3 s n *)
  set (N := qz (Z.of_nat n)) in *.
  assert (A : 0 <= ((1 + 1) * spacing - (1 + 1 + 1) * width) * (N + 1)) by (apply qmul_pos; qlra).
  assert (B : 0 <= spacing * (N - (1 + 1))) by (apply qmul_pos; qlra).
  replace (((1 + 1) * spacing - (1 + 1 + 1) * width) * (N + 1)) with ((1 + 1) * (N * spacing) + (1 + 1) * spacing - (1 + 1 + 1) * (width * (N + 1))) in A by ring.
  replace (spacing * (N - (1 + 1))) with (N * spacing - (1 + 1) * spacing) in B by ring.
  set (NS := N * spacing) in *. set (WN := width * (N + 1)) in *. qlra.
Qed.

Lemma edge_tabs_check spacing width height only :
  (width < spacing -> edge_tabs spacing width height only = Ok (EdgeTabs spacing width height only)) /\
  (spacing <= width -> edge_tabs spacing width height only = Err ValueError).
Proof.
  unfold edge_tabs. destruct (qleb spacing width) eqn:E.
  - apply qleb_le in E. split; [intros H; exfalso; exact (Qclt_not_le _ _ H E)|reflexivity].
  - apply qleb_nle in E. split; [reflexivity|intros H; exfalso; exact (Qclt_not_le _ _ E H)].
Qed.
