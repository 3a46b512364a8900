(** * Proofs: sampling curves and wires *)
From Verif Require Import Base.Py Model.Geometry Model.Interp Spec.Paths Spec.Wires Spec.Curves Proofs.GeomP Proofs.EdgeP Proofs.FillP Proofs.PocketP.
From Coq Require Import Lia.
Local Open Scope Qc_scope.
Local Open Scope list_scope.

Lemma pow10_pos p : 0 < qz (10 ^ Z.of_nat p).
Proof. rewrite <- qz_0. apply qz_lt. apply Z.pow_pos_nonneg; lia. Qed.
Lemma qinv_l x : 0 < x -> / x * x = 1.
Proof. intros H. rewrite Qcmult_comm. apply Qcmult_inv_r. intros ->. exact (Qclt_not_le _ _ H (Qcle_refl _)). Qed.

Lemma qdiv_lt a b c : 0 < b -> (a / b < c <-> a < c * b).
Proof.
  intros H. assert (N : b <> 0) by (intros ->; exact (Qclt_not_le _ _ H (Qcle_refl _))). pose proof (qdiv_mul a b N) as K. split; intros L.
  - assert (P : 0 < (c - a / b) * b) by (apply qmul_lt; [qlra|exact H]). qlra.
  - apply Qcnot_le_lt. intros C. assert (P : 0 <= (a / b - c) * b) by (apply qmul_pos; [qlra|apply Qclt_le_weak, H]). qlra.
Qed.
Lemma qdiv_le a b c : 0 < b -> (a / b <= c <-> a <= c * b).
Proof.
  intros H. assert (N : b <> 0) by (intros ->; exact (Qclt_not_le _ _ H (Qcle_refl _))). pose proof (qdiv_mul a b N) as K. split; intros L.
  - assert (P : 0 <= (c - a / b) * b) by (apply qmul_pos; [qlra|apply Qclt_le_weak, H]). qlra.
  - apply Qcnot_lt_le. intros C. assert (P : 0 < (a / b - c) * b) by (apply qmul_lt; [qlra|exact H]). qlra.
Qed.

Lemma qtrunc_nonneg x : 0 <= x -> qtrunc x = qfloor x.
Proof. intros H. unfold qtrunc. destruct (qltb_spec x 0) as [L|L]; [exfalso; exact (Qclt_not_le _ _ L H)|reflexivity]. Qed.

(** The number of intervals of a sampled curve. *)
Lemma spacing_bound e p : 0 <= e_length e ->
  let n := (edge_interpolation_count e p - 1)%nat in
  (1 <= n)%nat /\ e_length e / qz (Z.of_nat n) < qz 3 * resolution p /\
  (e_length e / qz (Z.of_nat n) <= resolution p <-> e_length e <= resolution p).
Proof.
  intros HL n. set (L := e_length e) in *. set (T := qz (10 ^ Z.of_nat p)) in *.
  assert (HT : 0 < T) by apply pow10_pos. assert (HR : resolution p * T = 1) by (apply qinv_l, HT).
  assert (HX : 0 <= L * T) by (apply qmul_pos; [exact HL|apply Qclt_le_weak, HT]).
  assert (EN : edge_interpolation_count e p = Z.to_nat (Z.max (qfloor (L * T)) 2)).
  { unfold edge_interpolation_count. fold L T. rewrite qtrunc_nonneg by exact HX. reflexivity. }
  destruct (qfloor_spec (L * T)) as [F1 F2]. rewrite qz_plus, qz_1 in F2.
  assert (Hn : (Z.of_nat n = Z.max (qfloor (L * T)) 2 - 1)%Z) by (unfold n; rewrite EN; lia).
  assert (H1 : (1 <= n)%nat) by lia. split; [exact H1|].
  assert (HP : 0 < qz (Z.of_nat n)) by (rewrite <- qz_0; apply qz_lt; lia).
  assert (RP : 0 < resolution p).
  { apply Qcnot_le_lt. intros C. assert (0 <= (- resolution p) * T) by (apply qmul_pos; [qlra|apply Qclt_le_weak, HT]). qlra. }
  set (N := qz (Z.of_nat n)) in *. set (R := resolution p) in *.
  assert (ER : forall c, (L < c * R * N <-> L * T < c * N)).
  { intros c. assert (E1 : c * R * N * T = c * N) by (replace (c * R * N * T) with (c * N * (R * T)) by ring; rewrite HR; ring).
    split; intros K.
    - rewrite <- E1. assert (0 < (c * R * N - L) * T) by (apply qmul_lt; [qlra|exact HT]). qlra.
    - apply Qcnot_le_lt. intros C. assert (0 <= (L - c * R * N) * T) by (apply qmul_pos; [qlra|apply Qclt_le_weak, HT]). qlra. }
  assert (N1 : N = qz (Z.max (qfloor (L * T)) 2) - 1).
  { unfold N. rewrite Hn. unfold Z.sub. rewrite qz_plus. change (-1)%Z with (Z.opp 1). rewrite qz_opp, qz_1. reflexivity. }
  split.
  - apply qdiv_lt; [exact HP|]. apply ER. rewrite N1. destruct (Z.max_spec (qfloor (L * T)) 2) as [[K1 K2]|[K1 K2]]; rewrite K2.
    + assert (qz (qfloor (L * T)) <= qz 1) by (apply qz_le; lia). rewrite qz_1 in H.
      assert (qz 3 * (qz 2 - 1) = qz 3) by (apply Qc_is_canon; reflexivity). rewrite H0.
      assert (1 + 1 < qz 3) by reflexivity. qlra.
    + assert (qz 2 <= qz (qfloor (L * T))) by (apply qz_le; exact K1). assert (E3 : qz 3 = 1 + 1 + 1) by (apply Qc_is_canon; reflexivity).
      assert (E2 : qz 2 = 1 + 1) by (apply Qc_is_canon; reflexivity). rewrite E3. rewrite E2 in H. qlra.
  - rewrite qdiv_le by exact HP. split; intros K.
    + apply Qcnot_lt_le. intros C. apply (proj2 (Qclt_not_le _ _ : _ -> _)) || idtac.
      assert (HLT : 1 < L * T). { assert (0 < (L - R) * T) by (apply qmul_lt; [qlra|exact HT]). qlra. }
      assert (K2 : L * T <= N). { assert (0 <= (R * N - L) * T) by (apply qmul_pos; [qlra|apply Qclt_le_weak, HT]). assert (R * N * T = N) by (replace (R * N * T) with (N * (R * T)) by ring; rewrite HR; ring). qlra. }
      rewrite N1 in K2. destruct (Z.max_spec (qfloor (L * T)) 2) as [[Q1 Q2]|[Q1 Q2]]; rewrite Q2 in K2.
      * assert (E2 : qz 2 = 1 + 1) by (apply Qc_is_canon; reflexivity). rewrite E2 in K2. qlra.
      * qlra.
    + assert (1 <= N) by (rewrite <- qz_1; apply qz_le; lia). assert (0 <= R * (N - 1)) by (apply qmul_pos; [apply Qclt_le_weak, RP|qlra]). qlra.
Qed.

Lemma interpolate_sampled e p : sampled_in e (edge_interpolation_count e p - 1) (interpolate_edge_to_vectors e p).
Proof.
  pose proof (count_ge2 e p) as H2. unfold interpolate_edge_to_vectors, sampled_in, travel_pos. set (n := edge_interpolation_count e p) in *.
  assert (EZ : (Z.of_nat n - 1 = Z.of_nat (n - 1))%Z) by lia.
  assert (HP : qz (Z.of_nat (n - 1)) <> 0) by (rewrite <- qz_0; intros C; apply qz_inj in C; lia).
  split; [lia|]. destruct (e_reversed e); (split; [rewrite map_length, linspace_length; lia|]); intros k Hk; rewrite nth_error_map, linspace_nth by lia;
    rewrite EZ; cbn [option_map]; do 2 f_equal; set (D := qz (Z.of_nat (n - 1))) in *; set (Kk := qz (Z.of_nat k)).
  - field. exact HP.
  - field. exact HP.
Qed.

Lemma edge_vectors_spec basis e p vs : edge_to_vectors basis e p = Ok vs -> edge_points basis p e vs.
Proof.
  unfold edge_to_vectors, edge_points. intros H. apply rbind_ok in H. destruct H as (g & Hg & H).
  assert (HS : straight basis e <-> g = GLINE).
  { unfold straight. destruct (e_geom e) eqn:EG; try (injection Hg as <-); split; intros K;
      try (destruct K as [K|[K1 K2]]; congruence); try discriminate K; auto.
    - right. split; [reflexivity|congruence]. }
  assert (D : g = GLINE \/ g <> GLINE) by (destruct g; (left; reflexivity) || (right; discriminate)).
  destruct D as [->|D].
  - left. split; [apply HS; reflexivity|]. unfold edge_start_end in H. unfold travel_start, travel_end. destruct (e_reversed e); injection H as <-; reflexivity.
  - right. split; [intros C; apply D, HS, C|]. exists (edge_interpolation_count e p - 1)%nat.
    assert (vs = interpolate_edge_to_vectors e p) as -> by (destruct g; congruence). split; [apply interpolate_sampled|].
    intros HL. apply (spacing_bound e p HL).
Qed.

Lemma edge_vectors_err basis e p x : edge_to_vectors basis e p = Err x <-> e_geom e = GOFFSET /\ basis e = Err x.
Proof.
  unfold edge_to_vectors. split.
  - intros H. destruct (e_geom e) eqn:EG; try (cbn in H; try (destruct (edge_start_end e)); discriminate H).
    split; [reflexivity|]. destruct (basis e) as [g|y]; cbn [rbind] in H; [destruct g; try destruct (edge_start_end e); discriminate H|congruence].
  - intros [-> ->]. reflexivity.
Qed.

(** The samples have at least two points, the ends of the edge. *)
Lemma edge_points_ends basis p e vs : edge_sound e -> edge_points basis p e vs ->
  exists l, vs = travel_start e :: l ++ [travel_end e].
Proof.
  intros (_ & _ & S1 & S2 & _) [(_ & ->)|(_ & n & (N1 & N2 & N3) & _)]; [exists []; reflexivity|].
  pose proof (N3 0%nat ltac:(lia)) as H0. pose proof (N3 n (Nat.le_refl n)) as Hn.
  assert (Z0 : qz (Z.of_nat 0) / qz (Z.of_nat n) = 0). { change (Z.of_nat 0) with 0%Z. rewrite qz_0. unfold Qcdiv. ring. }
  assert (ZN : qz (Z.of_nat n) / qz (Z.of_nat n) = 1). { unfold Qcdiv. apply Qcmult_inv_r. rewrite <- qz_0. intros C. apply qz_inj in C. lia. }
  rewrite Z0 in H0. rewrite ZN in Hn.
  assert (T0 : travel_pos e 0 = travel_start e) by (unfold travel_pos, travel_start; destruct (e_reversed e); [replace (1 - 0) with 1 by ring|]; congruence).
  assert (T1 : travel_pos e 1 = travel_end e) by (unfold travel_pos, travel_end; destruct (e_reversed e); [replace (1 - 1) with 0 by ring|]; congruence).
  rewrite T0 in H0. rewrite T1 in Hn. clear - N1 N2 H0 Hn.
  destruct vs as [|v vs]; [discriminate|]. injection H0 as ->. destruct n as [|n]; [lia|]. cbn [nth_error length] in *. injection N2 as N2.
  destruct (exists_last (l := vs)) as (l & x & ->); [intros ->; discriminate|]. exists l. rewrite app_length in N2. cbn in N2.
  rewrite nth_error_app2 in Hn by lia. replace (n - length l)%nat with 0%nat in Hn by lia. injection Hn as ->. reflexivity.
Qed.

Lemma pairs_app l v r : pairs (l ++ v :: r) = pairs (l ++ [v]) ++ pairs (v :: r).
Proof.
  induction l as [|a l IH]; [reflexivity|]. destruct l as [|b l]; [reflexivity|].
  change (pairs ((a :: b :: l) ++ v :: r)) with ((a, b) :: pairs ((b :: l) ++ v :: r)). rewrite IH. reflexivity.
Qed.
Lemma join_pairs : forall ss, Forall (fun s => s <> []) ss -> chained ss ->
  match ss with [] => True | s :: rest => pairs (s ++ concat (map (@tl vec) rest)) = concat (map pairs ss) end.
Proof.
  induction ss as [|s ss IH]; intros NE HC; [exact I|]. destruct ss as [|s' ss]; [cbn; rewrite !app_nil_r; reflexivity|].
  destruct HC as ((v & l & l' & -> & ->) & HC). inversion NE as [|? ? _ NE']; subst. specialize (IH NE' HC).
  cbn [map concat tl] in *. rewrite <- IH. rewrite <- app_assoc. cbn [app].
  rewrite pairs_app. reflexivity.
Qed.

Lemma chained_samples basis p es ss : Forall2 (edge_points basis p) es ss -> (forall e, In e es -> edge_sound e) -> connected es -> chained ss.
Proof.
  intros H. induction H as [|e s es ss He H IH]; intros HS HC; [exact I|].
  destruct H as [|e' s' es ss He' H]; [exact I|]. split.
  - destruct (edge_points_ends _ _ _ _ (HS e (or_introl eq_refl)) He) as (l & ->).
    destruct (edge_points_ends _ _ _ _ (HS e' (or_intror (or_introl eq_refl))) He') as (l' & ->).
    destruct HC as [HC _]. rewrite HC. eexists _, (_ :: _), _. split; reflexivity.
  - apply IH; [intros x Hx; apply HS; right; exact Hx|apply HC].
Qed.

Lemma pairs_snoc l v x : l <> [] -> pairs (l ++ [v]) = pairs l ++ [(last l x, v)].
Proof. intros Hl. destruct (exists_last Hl) as (l' & z & ->). rewrite last_last, <- app_assoc. cbn [app]. rewrite pairs_app. reflexivity. Qed.

Lemma last_app_ne {A} (a b : list A) x y : b <> [] -> last (a ++ b) x = last b y.
Proof. intros Hb. destruct (exists_last Hb) as (b' & z & ->). rewrite app_assoc, !last_last. reflexivity. Qed.

Lemma ends_of_joined basis p es s rest : Forall2 (edge_points basis p) es (s :: rest) -> (forall e, In e es -> edge_sound e) ->
  (forall e, hd_error (s ++ concat (map (@tl vec) rest)) = Some (travel_start (hd e es))) /\
  (forall e x, last (s ++ concat (map (@tl vec) rest)) x = travel_end (last es e)).
Proof.
  intros HF HS. split; intros e.
  - inversion HF as [|e1 ? es1 ? He1 HF1]; subst. cbn [hd]. destruct (edge_points_ends _ _ _ _ (HS e1 (or_introl eq_refl)) He1) as (l & ->). reflexivity.
  - intros x. revert s rest HF HS. induction es as [|e1 es IH]; intros s rest HF HS; inversion HF as [|? ? ? ? He1 HF1]; subst.
    destruct (edge_points_ends _ _ _ _ (HS e1 (or_introl eq_refl)) He1) as (l & ->).
    destruct HF1 as [|e2 s2 es2 ss2 He2 HF2].
    + cbn [map concat]. rewrite app_nil_r. change (last [e1] e) with e1. change (last ((travel_start e1 :: l) ++ [travel_end e1]) x = travel_end e1). apply last_last.
    + destruct (edge_points_ends _ _ _ _ (HS e2 (or_intror (or_introl eq_refl))) He2) as (l2 & ->). cbn [map concat tl].
      specialize (IH _ _ (Forall2_cons _ _ He2 HF2) (fun x Hx => HS x (or_intror Hx))).
      change (last (e1 :: e2 :: es2) e) with (last (e2 :: es2) e). rewrite <- IH.
      generalize (concat (map (@tl vec) ss2)) as r. intros r.
      assert (NB : (l2 ++ [travel_end e2]) ++ r <> []) by (destruct l2; discriminate).
      etransitivity; [exact (last_app_ne (travel_start e1 :: l ++ [travel_end e1]) _ x x NB)|symmetry; exact (last_app_ne [travel_start e2] _ x x NB)].
Qed.

Lemma wire_vectors_spec veq basis es p close vs : wire_to_vectors veq basis es p close = Ok vs -> es <> [] ->
  exists samples joined v0 last_,
    Forall2 (edge_points basis p) es samples /\
    (forall s rest, samples = s :: rest -> joined = s ++ concat (map (@tl vec) rest)) /\
    hd_error joined = Some v0 /\ last joined v0 = last_ /\ (2 <= length joined)%nat /\
    vs = (if close then if veq v0 last_ then joined else joined ++ [v0]
          else if veq v0 last_ then removelast joined else joined).
Proof.
  intros H NE. destruct es as [|e es]; [contradiction NE; reflexivity|]. cbn [wire_to_vectors] in H.
  apply rbind_ok in H. destruct H as (s & Hs & H). apply rbind_ok in H. destruct H as (rest & Hr & H).
  set (J := s ++ concat (map (@tl vec) rest)) in *.
  assert (HL : (2 <= length J)%nat).
  { unfold J. rewrite app_length. apply edge_vectors_spec in Hs. destruct Hs as [(_ & ->)|(_ & n & (N1 & N2 & _) & _)]; [cbn; lia|]. rewrite N2. lia. }
  destruct (Nat.eqb_spec (length J) 1) as [K|_]; [lia|]. destruct J as [|v0 J'] eqn:EJ; [cbn in HL; lia|].
  exists (s :: rest), J, v0, (last J v0). split.
  - constructor; [apply edge_vectors_spec, Hs|]. apply mapM_iff in Hr. clear - Hr. induction Hr; constructor; [apply edge_vectors_spec; assumption|assumption].
  - split; [intros s1 r1 K; injection K as <- <-; reflexivity|]. rewrite EJ. split; [reflexivity|]. split; [reflexivity|]. split; [exact HL|].
    destruct close, (veq v0 (last (v0 :: J') v0)); cbn [andb negb] in H; congruence.
Qed.

(** Closed outlines of connected wires: exactly the samples of the edges one after the other, and
    a closing segment if the ends do not meet. *)
Lemma wire_closed veq basis es p vs : wire_to_vectors veq basis es p true = Ok vs -> es <> [] ->
  (forall e, In e es -> edge_sound e) -> connected es ->
  exists samples closing, Forall2 (edge_points basis p) es samples /\
    pairs vs = concat (map pairs samples) ++ closing /\
    (forall e, veq (travel_start (hd e es)) (travel_end (last es e)) = true -> closing = []) /\
    (forall e, veq (travel_start (hd e es)) (travel_end (last es e)) = false ->
       closing = [(travel_end (last es e), travel_start (hd e es))]).
Proof.
  intros H NE HS HC. destruct (wire_vectors_spec _ _ _ _ _ _ H NE) as (samples & J & v0 & w & HF & HJ & H0 & HW & HL & ->). cbn iota.
  pose proof (chained_samples _ _ _ _ HF HS HC) as CH.
  assert (NEs : Forall (fun s => s <> []) samples).
  { clear - HF HS. induction HF as [|e s es ss He HF IH]; constructor; [|apply IH; intros x Hx; apply HS; right; exact Hx].
    destruct (edge_points_ends _ _ _ _ (HS e (or_introl eq_refl)) He) as (l & ->). discriminate. }
  destruct samples as [|s rest]; [inversion HF; subst; contradiction NE; reflexivity|].
  pose proof (join_pairs _ NEs CH) as JP. cbn iota in JP. rewrite <- (HJ _ _ eq_refl) in JP.
  destruct (ends_of_joined _ _ _ _ _ HF HS) as [HD' HE']. rewrite <- (HJ _ _ eq_refl) in HD', HE'.
  assert (HD : forall e, v0 = travel_start (hd e es)) by (intros e; specialize (HD' e); congruence).
  assert (HE : forall e, w = travel_end (last es e)) by (intros e; rewrite <- HW; apply HE').
  assert (NJ : J <> []) by (intros ->; discriminate).
  destruct (veq v0 w) eqn:EV.
  - exists (s :: rest), []. split; [exact HF|]. rewrite app_nil_r. split; [exact JP|]. split; [reflexivity|]. intros e. rewrite <- HD, <- HE. congruence.
  - exists (s :: rest), [(w, v0)]. split; [exact HF|]. split; [rewrite (pairs_snoc _ _ v0 NJ), JP, HW; reflexivity|]. split; intros e; rewrite <- (HD e), <- (HE e); congruence.
Qed.

Lemma wire_vectors_err veq basis es p close x : wire_to_vectors veq basis es p close = Err x ->
  exists e, In e es /\ e_geom e = GOFFSET /\ basis e = Err x.
Proof.
  intros H. destruct es as [|e es]; [discriminate|]. cbn [wire_to_vectors] in H.
  destruct (edge_to_vectors basis e p) as [s|y] eqn:Es; cbn [rbind] in H.
  2: { injection H as <-. apply edge_vectors_err in Es. exists e. split; [left; reflexivity|exact Es]. }
  destruct (mapM (fun e => edge_to_vectors basis e p) es) as [rest|y] eqn:Er; cbn [rbind] in H.
  2: { injection H as <-. clear - Er. revert Er. induction es as [|e1 es IH]; [discriminate|]. cbn [mapM]. destruct (edge_to_vectors basis e1 p) as [s|z] eqn:E1; cbn [rbind].
       - destruct (mapM (fun e => edge_to_vectors basis e p) es) as [r|z] eqn:Er; cbn [rbind]; [discriminate|]. intros H; injection H as <-.
         destruct (IH eq_refl) as (e2 & H2 & K). exists e2. split; [|exact K]. destruct H2 as [<-|H2]; [left; reflexivity|right; right; exact H2].
       - intros H; injection H as <-. apply edge_vectors_err in E1. exists e1. split; [right; left; reflexivity|exact E1]. }
  exfalso. set (J := s ++ concat (map (@tl vec) rest)) in *.
  assert (HL : (2 <= length J)%nat).
  { unfold J. rewrite app_length. apply edge_vectors_spec in Es. destruct Es as [(_ & ->)|(_ & n & (N1 & N2 & _) & _)]; [cbn; lia|]. rewrite N2. lia. }
  destruct (Nat.eqb_spec (length J) 1) as [K|_]; [lia|]. destruct J as [|v0 J'] eqn:EJ; [cbn in HL; lia|].
  destruct (close && negb (veq v0 (last (v0 :: J') v0))); [discriminate|]. destruct (negb close && veq v0 (last (v0 :: J') v0)); discriminate.
Qed.

Lemma wire_open veq basis es p vs : wire_to_vectors veq basis es p false = Ok vs -> es <> [] ->
  (forall e, In e es -> edge_sound e) -> connected es ->
  exists samples closing, Forall2 (edge_points basis p) es samples /\
    pairs vs ++ closing = concat (map pairs samples) /\
    (forall e, veq (travel_start (hd e es)) (travel_end (last es e)) = false -> closing = []) /\
    (forall e, veq (travel_start (hd e es)) (travel_end (last es e)) = true ->
       closing = [(last vs (travel_start (hd e es)), travel_end (last es e))]).
Proof.
  intros H NE HS HC.
  assert (C : exists vs', wire_to_vectors veq basis es p true = Ok vs').
  { destruct (wire_to_vectors veq basis es p true) as [vs'|x] eqn:E; [exists vs'; reflexivity|]. exfalso.
    destruct es as [|e es]; [discriminate|]. cbn [wire_to_vectors] in H, E. destruct (edge_to_vectors basis e p) as [s|y]; [|discriminate].
    cbn [rbind] in H, E. destruct (mapM _ es) as [r|y]; [|discriminate]. cbn [rbind] in H, E. destruct (Nat.eqb _ _); [discriminate|].
    destruct (s ++ concat (map (@tl vec) r)) as [|v0 J]; [discriminate|]. destruct (veq v0 (last (v0 :: J) v0)); discriminate. }
  destruct C as (vs' & H'). destruct (wire_vectors_spec _ _ _ _ _ _ H NE) as (samples & J & v0 & w & HF & HJ & H0 & HW & HL & ->). cbn iota.
  destruct (wire_vectors_spec _ _ _ _ _ _ H' NE) as (samples' & J' & v0' & w' & HF' & HJ' & H0' & HW' & HL' & EV'). cbn iota in EV'.
  pose proof (chained_samples _ _ _ _ HF HS HC) as CH.
  assert (NEs : Forall (fun s => s <> []) samples).
  { clear - HF HS. induction HF as [|e s es ss He HF IH]; constructor; [|apply IH; intros x Hx; apply HS; right; exact Hx].
    destruct (edge_points_ends _ _ _ _ (HS e (or_introl eq_refl)) He) as (l & ->). discriminate. }
  destruct samples as [|s rest]; [inversion HF; subst; contradiction NE; reflexivity|].
  pose proof (join_pairs _ NEs CH) as JP. cbn iota in JP. rewrite <- (HJ _ _ eq_refl) in JP.
  destruct (ends_of_joined _ _ _ _ _ HF HS) as [HD HE]. rewrite <- (HJ _ _ eq_refl) in HD, HE.
  assert (D0 : forall e, v0 = travel_start (hd e es)) by (intros e; specialize (HD e); congruence).
  assert (DW : forall e, w = travel_end (last es e)) by (intros e; rewrite <- HW; apply HE).
  assert (NJ : J <> []) by (intros ->; discriminate). destruct (exists_last NJ) as (l & z & EJ).
  assert (EZ : z = w) by (rewrite <- HW, EJ, last_last; reflexivity). subst z.
  destruct (veq v0 w) eqn:EV.
  - exists (s :: rest), [(last l v0, w)]. split; [exact HF|]. rewrite EJ in *. rewrite removelast_last.
    split; [rewrite <- JP; symmetry; apply pairs_snoc; intros ->; cbn in HL; lia|].
    split; intros e; rewrite <- (D0 e), <- (DW e); [congruence|reflexivity].
  - exists (s :: rest), []. split; [exact HF|]. rewrite app_nil_r. split; [exact JP|]. split; [reflexivity|]. intros e. rewrite <- (D0 e), <- (DW e). congruence.
Qed.

Lemma wire_is_closed veq basis es p vs v : (forall x, veq x x = true) ->
  wire_to_vectors veq basis es p true = Ok vs -> es <> [] -> exists v0, hd_error vs = Some v0 /\ veq v0 (last vs v) = true.
Proof.
  intros R H NE. destruct (wire_vectors_spec _ _ _ _ _ _ H NE) as (samples & J & v0 & w & HF & HJ & H0 & HW & HL & ->). cbn iota.
  exists v0. destruct J as [|j J]; [discriminate|]. injection H0 as ->. destruct (veq v0 w) eqn:EV.
  - split; [reflexivity|]. rewrite <- HW in EV. destruct (exists_last (l := v0 :: J)) as (l & z & E); [discriminate|]. rewrite E in *. rewrite last_last in *. exact EV.
  - split; [reflexivity|]. rewrite last_last. apply R.
Qed.

Lemma wire_path_spec veq basis es p q : wire_to_path veq basis es p = Ok q <->
  exists vs, wire_to_vectors veq basis es p true = Ok vs /\ q = map (fun v => (vx v, vy v)) vs.
Proof.
  unfold wire_to_path. destruct (wire_to_vectors veq basis es p true) as [vs|x]; cbn [rbind]; split.
  - intros H; injection H as <-. exists vs. split; reflexivity.
  - intros (vs' & E & ->). injection E as <-. reflexivity.
  - discriminate.
  - intros (vs' & E & _). discriminate.
Qed.
