(** * Lemmas about the layers of a profile, whatever the plane of the job removes *)
From Verif Require Import Base.Str Base.Py Model.Geometry Model.Profile Spec.Paths Spec.Moves Spec.Wires Spec.Profiles Spec.Layers
  Proofs.GeomP Proofs.PocketP Proofs.RouteThmP Proofs.InterpP Proofs.TabsP Proofs.ProfileP.
Local Open Scope Qc_scope.
Local Open Scope list_scope.

Section Which.
Variables (TK : tab_kernel) (WK : wire_kernel) (j : job) (base : list edge) (s : Qc).
Notation up k := (wk_moved WK base (s * qz (Z.of_nat k))).

Lemma cut_dropped w : layer_cut TK WK (j_top j) w -> layer_dropped TK WK (j_top j) w -> False.
Proof. intros [A B] [C|C]; [qlra|congruence]. Qed.

Lemma layers_unique n m :
  (forall k, (0 < k <= n)%nat -> layer_cut TK WK (j_top j) (up k)) -> layer_dropped TK WK (j_top j) (up (S n)) ->
  (forall k, (0 < k <= m)%nat -> layer_cut TK WK (j_top j) (up k)) -> layer_dropped TK WK (j_top j) (up (S m)) -> n = m.
Proof.
  intros A B C D. destruct (Nat.lt_trichotomy n m) as [L|[L|L]]; [exfalso|exact L|exfalso].
  - exact (cut_dropped _ (C (S n) ltac:(lia)) B).
  - exact (cut_dropped _ (A (S m) ltac:(lia)) D).
Qed.

Lemma which_layers ls : s <> 0 ->
  (profile_layers TK WK j base (Some s) = Ok ls <->
   exists n, (Z.of_nat n <= j_max_stepdown_count j)%Z /\
     (forall k, (0 < k <= n)%nat -> layer_cut TK WK (j_top j) (up k)) /\ layer_dropped TK WK (j_top j) (up (S n)) /\
     ls = map (fun k => up k) (rev (seq 1 n)) ++ [base]).
Proof.
  intros HS. unfold profile_layers. destruct (qeqb s 0) eqn:E0; [apply qeqb_eq in E0; contradiction|].
  pose proof (layers_above_spec TK WK (j_top j) (j_max_stepdown_count j) base s (layer_fuel (j_max_stepdown_count j)) 0) as P.
  unfold layer_fuel in P at 1 2. specialize (P ltac:(lia) ltac:(lia)). cbn [Z.of_nat] in P.
  destruct (layers_above TK WK (j_top j) (j_max_stepdown_count j) base s (layer_fuel (j_max_stepdown_count j)) 0) as [above|x]; cbn [rbind].
  - destruct P as (n & -> & G & ST & M). cbn [Nat.add] in *.
    assert (D : layer_dropped TK WK (j_top j) (up (S n))) by (destruct ST as [ST|[_ ST]]; [left|right]; exact ST).
    assert (F : rev (base :: map (layer WK base s) (seq 1 n)) = map (fun k => up k) (rev (seq 1 n)) ++ [base]).
    { cbn [rev]. rewrite <- map_rev. reflexivity. }
    rewrite F. split.
    + intros [= <-]. exists n. split; [exact M|]. split; [exact G|]. split; [exact D|reflexivity].
    + intros (m & _ & A & B & ->). rewrite (layers_unique n m G D A B). reflexivity.
  - split; [discriminate|]. intros (n & M & A & B & _). exfalso. cbn [Nat.add] in P.
    destruct P as [(_ & m & [M1 M2] & G)|(k & K1 & _ & K3 & K4 & G)].
    + assert (L : (n < m)%nat) by lia. exact (cut_dropped _ (G (S n) ltac:(lia)) B).
    + destruct (Nat.le_gt_cases k n) as [L|L]; [destruct (A k ltac:(lia)) as [_ C]; unfold layer in K3; congruence|].
      destruct (Nat.eq_dec k (S n)) as [->|]; [|exact (cut_dropped _ (G (S n) ltac:(lia)) B)].
      unfold layer in K3, K4. destruct B as [B|B]; [qlra|congruence].
Qed.

Lemma which_error x : s <> 0 ->
  (profile_layers TK WK j base (Some s) = Err x <->
   (x = RuntimeError /\ forall k, (0 < k)%nat -> (Z.of_nat k <= j_max_stepdown_count j + 1)%Z -> layer_cut TK WK (j_top j) (up k)) \/
   (exists k, (0 < k)%nat /\ (Z.of_nat k <= j_max_stepdown_count j + 1)%Z /\
      (forall i, (0 < i < k)%nat -> layer_cut TK WK (j_top j) (up i)) /\
      tk_zmin TK (up k) < qq (-1) 1000 /\ wk_below WK (j_top j) (up k) = Err x)).
Proof.
  intros HS. destruct (profile_layers TK WK j base (Some s)) as [ls|y] eqn:E.
  - split; [discriminate|]. apply which_layers in E as (n & M & A & B & _); [|exact HS]. intros [(_ & H)|(k & K1 & K2 & K3 & K4 & K5)]; exfalso.
    + exact (cut_dropped _ (H (S n) ltac:(lia) ltac:(lia)) B).
    + destruct (Nat.le_gt_cases k n) as [L|L]; [destruct (A k ltac:(lia)) as [_ C]; congruence|].
      destruct (Nat.eq_dec k (S n)) as [->|]; [|exact (cut_dropped _ (K3 (S n) ltac:(lia)) B)].
      destruct B as [B|B]; [qlra|congruence].
  - unfold profile_layers in E. destruct (qeqb s 0) eqn:E0; [apply qeqb_eq in E0; contradiction|].
    pose proof (layers_above_spec TK WK (j_top j) (j_max_stepdown_count j) base s (layer_fuel (j_max_stepdown_count j)) 0) as P.
    unfold layer_fuel in P at 1 2. specialize (P ltac:(lia) ltac:(lia)). cbn [Z.of_nat] in P.
    destruct (layers_above TK WK (j_top j) (j_max_stepdown_count j) base s (layer_fuel (j_max_stepdown_count j)) 0) as [above|z]; [discriminate|].
    cbn [rbind] in E. injection E as ->. cbn [Nat.add] in P. split.
    + intros [= <-]. destruct P as [(-> & m & [M1 M2] & G)|(k & K1 & K2 & K3 & K4 & G)].
      * left. split; [reflexivity|]. intros k A B. apply G. lia.
      * right. exists k. split; [exact K1|]. split; [exact K2|]. split; [exact G|]. split; [exact K4|exact K3].
    + intros H. f_equal. destruct H as [(-> & H)|(k & A1 & A2 & A3 & A4 & A5)];
        destruct P as [(-> & m & [M1 M2] & G)|(k' & K1 & K2 & K3 & K4 & G)]; try reflexivity.
      * destruct (H k' K1 K2) as [_ C]. unfold layer in K3. congruence.
      * destruct (G k ltac:(lia)) as [_ C]. unfold layer in C. congruence.
      * destruct (Nat.lt_trichotomy k k') as [L|[->|L]].
        -- destruct (G k ltac:(lia)) as [_ C]. unfold layer in C. congruence.
        -- unfold layer in K3. congruence.
        -- destruct (A3 k' ltac:(lia)) as [_ C]. unfold layer in K3. congruence.
Qed.

(** A plane that removes the layer at [h] ends the layers there. *)
Lemma layers_to_plane ls h : 0 < s -> lifts TK WK base -> removes_at TK WK (j_top j) base h ->
  (profile_layers TK WK j base (Some s) = Ok ls <->
   exists n, (Z.of_nat n <= j_max_stepdown_count j)%Z /\ layers_under h (tk_zmin TK base) s n /\
     ls = map (fun k => up k) (rev (seq 1 n)) ++ [base]).
Proof.
  intros HS LI RA. assert (N : s <> 0) by (intros ->; discriminate HS).
  assert (Z : forall k, tk_zmin TK (up k) = tk_zmin TK base + qz (Z.of_nat k) * s) by (intros k; rewrite LI; ring).
  assert (MONO : forall a b, (a <= b)%nat -> tk_zmin TK (up a) <= tk_zmin TK (up b)).
  { intros a b L. rewrite !Z. assert (K : qz (Z.of_nat a) * s <= qz (Z.of_nat b) * s) by (apply Qcmult_le_compat_r; [apply qz_le; lia|apply Qclt_le_weak; exact HS]). qlra. }
  assert (STRICT : forall a b, (a < b)%nat -> tk_zmin TK (up a) < tk_zmin TK (up b)).
  { intros a b L. rewrite !Z. assert (K : qz (Z.of_nat a) * s < qz (Z.of_nat b) * s) by (apply Qcmult_lt_compat_r; [exact HS|apply qz_lt; lia]). qlra. }
  assert (KEY : forall n, ((forall k, (0 < k <= n)%nat -> layer_cut TK WK (j_top j) (up k)) /\ layer_dropped TK WK (j_top j) (up (S n))) <->
                          layers_under h (tk_zmin TK base) s n).
  { intros n. unfold layers_under, layers_needed. replace (Z.of_nat n + 1)%Z with (Z.of_nat (S n)) by lia. rewrite <- !Z. split.
    - intros [A B].
      assert (NH : forall k, (0 < k <= n)%nat -> tk_zmin TK (up k) <> h).
      { intros k Hk E. destruct (A k Hk) as [A1 A2]. destruct (RA _ A1) as [R _]. rewrite (R E) in A2. discriminate. }
      destruct (Qclt_le_dec (tk_zmin TK (up (S n))) (qq (-1) 1000)) as [L|L].
      + right. destruct (Qc_eq_dec (tk_zmin TK (up (S n))) h) as [E|E]; [split; [exact E|rewrite <- E; exact L]|exfalso].
        destruct (RA _ L) as [_ R]. specialize (R E). destruct B as [B|B]; [qlra|]. rewrite R in B. discriminate.
      + left. split; [|intros k Hk; rewrite <- Z; exact (NH k Hk)]. split; [|exact L].
        destruct n as [|n]; [left; reflexivity|right; exact (proj1 (A (S n) ltac:(lia)))].
    - intros [[[H1 H2] H3]|[H1 H2]].
      + split; [|left; exact H2]. intros k Hk. assert (L : tk_zmin TK (up k) < qq (-1) 1000).
        { destruct H1 as [->|H1]; [lia|]. eapply Qcle_lt_trans; [apply (MONO k n); lia|exact H1]. }
        split; [exact L|]. apply (proj2 (RA _ L)). rewrite Z. apply H3. exact Hk.
      + rewrite <- H1 in H2. split; [|right; exact (proj1 (RA _ H2) H1)]. intros k Hk.
        pose proof (STRICT k (S n) ltac:(lia)) as L. assert (L' : tk_zmin TK (up k) < qq (-1) 1000) by (eapply Qclt_trans; eassumption).
        split; [exact L'|]. apply (proj2 (RA _ L')). intros E. rewrite <- H1 in E. rewrite E in L. exact (Qclt_not_eq _ _ L eq_refl). }
  rewrite which_layers by exact N. split; intros (n & M & R).
  - destruct R as (A & B & C). exists n. split; [exact M|]. split; [apply KEY; split; assumption|exact C].
  - destruct R as (A & C). apply KEY in A as [A B]. exists n. auto.
Qed.

(** The heights of the layers: from the highest, a stepdown lower each. *)
Lemma layer_heights ls : s <> 0 -> lifts TK WK base -> profile_layers TK WK j base (Some s) = Ok ls ->
  exists n, length ls = S n /\ forall k w, nth_error ls k = Some w -> tk_zmin TK w = tk_zmin TK base + qz (Z.of_nat (n - k)) * s.
Proof.
  intros HS LI E. apply which_layers in E as (n & _ & _ & _ & ->); [|exact HS]. exists n. split; [rewrite app_length, map_length, rev_length, seq_length; cbn; lia|].
  intros k w H. destruct (Nat.lt_ge_cases k n) as [L|L].
  - rewrite nth_error_app1 in H by (rewrite map_length, rev_length, seq_length; exact L). rewrite nth_error_map in H.
    rewrite (nth_error_nth' _ 0%nat) in H by (rewrite rev_length, seq_length; exact L).
    rewrite rev_nth in H by (rewrite seq_length; lia). rewrite seq_length, seq_nth in H by lia.
    replace (1 + (n - S k))%nat with (n - k)%nat in H by lia. injection H as <-. rewrite LI, Qcmult_comm. reflexivity.
  - rewrite nth_error_app2 in H by (rewrite map_length, rev_length, seq_length; exact L). rewrite map_length, rev_length, seq_length in H.
    replace (n - k)%nat with 0%nat by lia. destruct (k - n)%nat as [|m] eqn:D; [injection H as <-; cbn [Z.of_nat]; rewrite qz_0; ring|].
    destruct m; discriminate H.
Qed.
End Which.
