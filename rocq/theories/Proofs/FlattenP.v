(** * Flattened wires (utils.py:70-97) *)
From Verif Require Import Base.Py Spec.Paths Spec.Wires Spec.Clippers Model.Geometry Model.Edges Model.Strategy.
From Verif Require Import Proofs.GeomP Proofs.PocketP.
From Coq Require Import Lia.
Local Open Scope Qc_scope.
Local Open Scope list_scope.

Lemma curved_geom e : curved e -> e_geom e <> GLINE /\ flatten_edge e = Ok (map (e_pos e) (tl (position_space e))).
Proof. unfold flatten_edge. intros [H|[H|H]]; rewrite H; split; try reflexivity; discriminate. Qed.

(** The count of points on a curve. *)
Lemma position_space_points e : 0 < e_length e -> exists n, Z.of_nat (S n) = qceil (e_length e / qq 1 10) /\
  tl (position_space e) = map (fun k => qz (Z.of_nat k) / qz (Z.of_nat n)) (seq 1 n).
Proof.
  intros L. unfold position_space. set (x := e_length e / qq 1 10).
  assert (Hx : 0 < x). { unfold x. assert (E : e_length e / qq 1 10 = e_length e * qq 10 1) by (apply Qc_is_canon; qc2q; field). rewrite E. qlra. }
  destruct (qceil_bounds x) as [C1 C2].
  assert (P : (0 < qceil x)%Z). { apply (qz_lt 0). rewrite qz_0. qlra. }
  exists (Z.to_nat (qceil x) - 1)%nat. split; [lia|].
  replace (Z.to_nat (qceil x)) with (S (Z.to_nat (qceil x) - 1)) by lia. set (n := (Z.to_nat (qceil x) - 1)%nat).
  replace (S n - 1)%nat with n by lia.
  unfold linspace. cbn [seq map tl]. apply map_ext. intros k. rewrite Nat2Z.inj_succ. unfold Z.succ.
  replace (Z.of_nat n + 1 - 1)%Z with (Z.of_nat n) by lia. unfold Qcdiv. ring.
Qed.

Lemma last_seq_map {A} (f : nat -> A) n d : last (map f (seq 1 (S n))) d = f (S n).
Proof. rewrite seq_S, map_app. cbn [map]. rewrite last_last. reflexivity. Qed.

Lemma long_ceil l : qq 1 10 < l -> (2 <= qceil (l / qq 1 10))%Z.
Proof.
  intros L. assert (E : l / qq 1 10 = l * qq 10 1) by (apply Qc_is_canon; qc2q; field).
  destruct (qceil_bounds (l / qq 1 10)) as [C1 C2]. assert (1 < qceil (l / qq 1 10))%Z; [|lia].
  apply (qz_lt 1). rewrite E in *. rewrite qz_1. qlra.
Qed.
Lemma short_ceil l : 0 < l -> l <= qq 1 10 -> qceil (l / qq 1 10) = 1%Z.
Proof.
  intros L0 L. assert (E : l / qq 1 10 = l * qq 10 1) by (apply Qc_is_canon; qc2q; field).
  destruct (qceil_bounds (l / qq 1 10)) as [C1 C2].
  assert (0 < qceil (l / qq 1 10))%Z by (apply (qz_lt 0); rewrite qz_0, E in *; qlra).
  assert (qceil (l / qq 1 10) < 2)%Z; [|lia]. apply (qz_lt _ 2). replace (qz 2) with (qq 2 1) by reflexivity. rewrite E in *. qlra.
Qed.

Lemma flatten_curve e : curved e -> e_reversed e = false -> qq 1 10 < e_length e ->
  exists vs, flatten_edge e = Ok vs /\ flattened (qq 1 5) e vs.
Proof.
  intros C R L. destruct (curved_geom e C) as [NG E]. destruct (position_space_points e) as (n & H1 & H2); [qlra|].
  pose proof (long_ceil _ L) as H3. rewrite <- H1 in H3. destruct n as [|n]; [lia|].
  exists (map (e_pos e) (tl (position_space e))). split; [exact E|]. right. split; [exact NG|]. exists n. split.
  - unfold evenly. rewrite H2, map_map. apply map_ext. intros k. unfold travel_pos. rewrite R. reflexivity.
  - destruct (qceil_bounds (e_length e / qq 1 10)) as [C1 _]. rewrite <- H1 in C1.
    replace (Z.of_nat (S (S n))) with (Z.of_nat (S n) + 1)%Z in C1 by lia. rewrite qz_plus, qz_1 in C1.
    assert (Hm : 1 <= qz (Z.of_nat (S n))) by (rewrite <- qz_1; apply qz_le; lia).
    set (m := qz (Z.of_nat (S n))) in *. clearbody m.
    assert (E2 : e_length e / qq 1 10 = e_length e * qq 10 1) by (apply Qc_is_canon; qc2q; field). rewrite E2 in C1.
    assert (N : m <> 0) by (intros Z0; rewrite Z0 in Hm; qlra).
    pose proof (qdiv_mul (e_length e) m N) as K. set (y := e_length e / m) in *. clearbody y.
    destruct (Qclt_le_dec (qq 1 5) y) as [D|D]; [|exact D]. exfalso.
    assert (0 < (y - qq 1 5) * m) by (apply qmul_lt; qlra). qlra.
Qed.

Lemma travel_end_point e : travel_end e = edge_end_point e.
Proof. reflexivity. Qed.

Lemma flattened_ends d e vs : edge_sound e -> flattened d e vs -> last vs (V3 0 0 0) = travel_end e /\ vs <> [].
Proof.
  intros (_ & _ & S0 & S1 & _) [[_ ->]|(_ & n & -> & _)]; [split; [reflexivity|discriminate]|].
  split; [|cbn [seq map]; discriminate]. rewrite last_seq_map.
  replace (qz (Z.of_nat (S n)) / qz (Z.of_nat (S n))) with 1.
  - unfold travel_pos, travel_end. destruct (e_reversed e); [replace (1 - 1) with 0 by ring|]; assumption.
  - assert (N : qz (Z.of_nat (S n)) <> 0) by (rewrite <- qz_0; intros E; apply qz_inj in E; lia). field. exact N.
Qed.

Theorem flatten_plain es : Forall edge_sound es -> Forall plain es ->
  exists pieces, flatten_edges es = Ok (concat pieces) /\ Forall2 (flattened (qq 1 5)) es pieces /\
    Forall2 (fun e vs => last vs (V3 0 0 0) = travel_end e /\ vs <> []) es pieces.
Proof.
  intros S P. assert (H : exists pieces, mapM flatten_edge es = Ok pieces /\ Forall2 (flattened (qq 1 5)) es pieces).
  { clear S. induction P as [|e es H P IH]; [exists []; split; [reflexivity|constructor]|].
    destruct IH as (ps & E & F). cbn [mapM]. destruct H as [G|(C & R & L)].
    - exists ([travel_end e] :: ps). unfold flatten_edge at 1. rewrite G, E. split; [reflexivity|].
      constructor; [left; split; [exact G|reflexivity]|exact F].
    - destruct (flatten_curve e C R L) as (vs & E1 & E2). exists (vs :: ps). rewrite E1, E. split; [reflexivity|]. constructor; assumption. }
  destruct H as (ps & E & F). exists ps. unfold flatten_edges. rewrite E. split; [reflexivity|]. split; [exact F|].
  clear E P. revert S. induction F as [|e vs es ps H F IH]; intros S; [constructor|].
  inversion S as [|? ? S1 S2]; subst. constructor; [exact (flattened_ends _ _ _ S1 H)|apply IH; exact S2].
Qed.

(** Curves no longer than 0.1 disappear. *)
Theorem flatten_short e : curved e -> 0 < e_length e -> e_length e <= qq 1 10 -> flatten_edge e = Ok [].
Proof.
  intros C L0 L. destruct (curved_geom e C) as [_ E]. rewrite E. destruct (position_space_points e L0) as (n & H1 & H2).
  rewrite short_ceil in H1 by assumption. destruct n; [|lia]. rewrite H2. reflexivity.
Qed.

(** Reversed curves are run backwards. *)
Theorem flatten_reversed e vs : curved e -> e_reversed e = true -> edge_sound e -> qq 1 10 < e_length e ->
  flatten_edge e = Ok vs -> last vs (V3 0 0 0) = travel_start e.
Proof.
  intros C R (_ & _ & S0 & S1 & _) L H. destruct (curved_geom e C) as [_ E]. rewrite E in H. injection H as <-.
  destruct (position_space_points e) as (n & H1 & ->); [qlra|].
  pose proof (long_ceil _ L) as H3. rewrite <- H1 in H3. destruct n as [|n]; [lia|].
  rewrite map_map, last_seq_map. unfold travel_start. rewrite R.
  assert (N : qz (Z.of_nat (S n)) <> 0) by (rewrite <- qz_0; intros E0; apply qz_inj in E0; lia).
  replace (qz (Z.of_nat (S n)) / qz (Z.of_nat (S n))) with 1 by (field; exact N). exact S1.
Qed.

(** Other types are refused, and only those. *)
Theorem flatten_types es : (exists vs, flatten_edges es = Ok vs) <-> Forall flat_type es.
Proof.
  unfold flatten_edges. split.
  - intros (vs & H). destruct (mapM flatten_edge es) as [ps|] eqn:E; [|discriminate H]. clear H.
    apply mapM_ok in E. induction E as [|e p es ps H E IH]; constructor; [|exact IH].
    unfold flat_type. unfold flatten_edge in H. destruct (e_geom e); auto; discriminate H.
  - intros F. assert (H : exists ps, mapM flatten_edge es = Ok ps).
    { induction F as [|e es H F IH]; [exists []; reflexivity|]. destruct IH as (ps & E). cbn [mapM]. rewrite E.
      unfold flatten_edge. destruct H as [H|[H|[H|H]]]; rewrite H; cbn [rbind]; eexists; reflexivity. }
    destruct H as (ps & ->). cbn [rbind]. eexists. reflexivity.
Qed.
Theorem flatten_value_error es e : flatten_edges es = Err e -> e = ValueError.
Proof.
  unfold flatten_edges. destruct (mapM flatten_edge es) as [ps|x] eqn:E; [discriminate|]. cbn [rbind]. intros [= <-].
  induction es as [|a es IH]; [discriminate E|]. cbn [mapM] in E.
  destruct (flatten_edge a) as [p|y] eqn:Ea.
  - cbn [rbind] in E. destruct (mapM flatten_edge es); [discriminate E|]. apply IH. cbn [rbind] in E. congruence.
  - cbn [rbind] in E. injection E as <-. unfold flatten_edge in Ea. destruct (e_geom a); congruence.
Qed.
