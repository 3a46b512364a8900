(** * Lemmas about profiles of different depths *)
From Verif Require Import Base.Str Base.Py Model.Geometry Model.Edges Model.Routers Model.Tabs Model.Profile
  Spec.Wires Spec.Profiles Spec.Layers Spec.Deeper Proofs.GeomP Proofs.ProfileP Proofs.LayersP.
From Coq Require Import Lia.
Local Open Scope Qc_scope.
Local Open Scope list_scope.

Lemma deeper_layers TK WK j base base' s m ls ls' : 0 < s -> (1 <= m)%nat -> (forall a b, wk_moved WK (wk_moved WK base' a) b = wk_moved WK base' (a + b)) ->
  lifts TK WK base' -> clear_of_top TK WK (j_top j) base' -> base = wk_moved WK base' (s * qz (Z.of_nat m)) -> tk_zmin TK base < qq (-1) 1000 ->
  profile_layers TK WK j base (Some s) = Ok ls -> profile_layers TK WK j base' (Some s) = Ok ls' ->
  exists more, ls' = ls ++ more /\ length more = m.
Proof.
  intros S0 M ADD L C B Z H H'. assert (N : s <> 0) by (intros E; rewrite E in S0; discriminate S0).
  apply (which_layers TK WK j base s ls N) in H as (n & _ & A & D & ->). apply (which_layers TK WK j base' s ls' N) in H' as (n' & _ & A' & D' & ->).
  assert (U : forall k, wk_moved WK base (s * qz (Z.of_nat k)) = wk_moved WK base' (s * qz (Z.of_nat (k + m)))).
  { intros k. rewrite B, ADD. f_equal. rewrite Nat2Z.inj_add, qz_plus. ring. }
  assert (UP : forall a b, (a <= b)%nat -> s * qz (Z.of_nat a) <= s * qz (Z.of_nat b)).
  { intros a b LE. assert (Q : qz (Z.of_nat a) <= qz (Z.of_nat b)) by (apply qz_le; lia). revert Q S0. generalize (qz (Z.of_nat a)) (qz (Z.of_nat b)). intros x y Q P. qc2q. nra. }
  assert (E : n' = (n + m)%nat).
  { destruct (Nat.lt_trichotomy n' (n + m)) as [G|[G|G]]; [exfalso|exact G|exfalso].
    - assert (T : tk_zmin TK (wk_moved WK base' (s * qz (Z.of_nat (n + m)))) < qq (-1) 1000).
      { destruct n as [|n]; [cbn [Nat.add]; rewrite <- B; exact Z|]. rewrite <- U. apply (A (S n)). lia. }
      rewrite L in T. pose proof (UP (S n') (n + m)%nat ltac:(lia)) as Q.
      assert (T' : tk_zmin TK (wk_moved WK base' (s * qz (Z.of_nat (S n')))) < qq (-1) 1000) by (rewrite L; revert T Q; generalize (s * qz (Z.of_nat (S n'))) (s * qz (Z.of_nat (n + m))); intros; qlra).
      destruct D' as [D'|D']; [qlra|]. rewrite (C _ T') in D'. discriminate.
    - destruct (A' (S n + m)%nat ltac:(lia)) as (T & T'). rewrite <- U in T, T'. destruct D as [D|D]; [qlra|]. rewrite T' in D. discriminate. }
  subst n'. exists (map (fun k => wk_moved WK base' (s * qz (Z.of_nat k))) (rev (seq 1 (m - 1))) ++ [base']).
  split; [|rewrite app_length, map_length, rev_length, seq_length; cbn; lia].
  rewrite (Nat.add_comm n m), seq_app, rev_app_distr, map_app, <- !app_assoc. f_equal.
  - replace (seq (1 + m) n) with (map (fun k => k + m)%nat (seq 1 n)).
    + rewrite <- map_rev, map_map. apply map_ext. intros k. symmetry. apply U.
    + clear. generalize 1%nat. induction n as [|n IH]; intros i; [reflexivity|]. cbn [seq map]. rewrite IH. reflexivity.
  - destruct m as [|m]; [lia|]. rewrite seq_S, rev_app_distr. cbn [rev app map]. replace (S m - 1)%nat with m by lia. change (1 + m)%nat with (S m). rewrite <- B. reflexivity.
Qed.
