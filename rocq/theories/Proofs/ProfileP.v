(** * Lemmas about profiles *)
From Verif Require Import Base.Str Base.Py Model.Geometry Model.Profile Spec.Paths Spec.Moves Spec.Wires Spec.Profiles
  Proofs.GeomP Proofs.PocketP Proofs.RouteThmP Proofs.InterpP Proofs.TabsP.
Local Open Scope Qc_scope.
Local Open Scope list_scope.

Lemma layers_needed_ex z s : 0 < s -> exists n, layers_needed z s n.
Proof.
  intros HS. set (x := (qq (-1) 1000 - z) / s).
  assert (HX : x * s = qq (-1) 1000 - z) by (unfold x; apply qdiv_mul; intros ->; discriminate HS).
  clearbody x.
  destruct (Qclt_le_dec 1 x) as [H|H].
  - (* n = ceil x - 1 *)
    pose proof (qfloor_spec (- x)) as [F1 F2]. set (f := qfloor (- x)) in *. clearbody f.
    assert (FZ : (f < -1)%Z).
    { destruct (Z_lt_ge_dec f (-1)) as [|G]; [assumption|exfalso].
      assert (qz (-1) <= qz f) by (apply qz_le; lia).
      change (-1)%Z with (Z.opp 1) in H0. rewrite qz_opp, qz_1 in H0. qlra. }
    exists (Z.to_nat (- f - 1)). unfold layers_needed. rewrite Z2Nat.id by lia.
    replace (- f - 1 + 1)%Z with (Z.opp f) by lia. split.
    + right. rewrite qz_plus, qz_1 in F2.
      replace (- f - 1)%Z with (Z.opp (f + 1)) by lia. rewrite qz_opp, qz_plus, qz_1.
      assert (K : (- (qz f + 1)) * s < x * s) by (apply Qcmult_lt_compat_r; [exact HS|clear HX; qlra]). rewrite HX in K. qlra.
    + rewrite qz_opp. assert (K : x * s <= - qz f * s) by (apply Qcmult_le_compat_r; [qlra|apply Qclt_le_weak; exact HS]).
      rewrite HX in K. qlra.
  - exists O. split; [left; reflexivity|]. cbn [Z.of_nat]. change (0 + 1)%Z with 1%Z. rewrite qz_1.
    assert (K : x * s <= 1 * s) by (apply Qcmult_le_compat_r; [exact H|apply Qclt_le_weak; exact HS]). rewrite HX in K. qlra.
Qed.

Lemma layers_needed_unique z s n m : 0 < s -> layers_needed z s n -> layers_needed z s m -> n = m.
Proof.
  intros HS. assert (G : forall n m, layers_needed z s n -> layers_needed z s m -> (n < m)%nat -> False).
  { clear n m. intros n m [_ H1] [[H2|H2] _] L; [lia|].
    assert (K : qz (Z.of_nat n + 1) <= qz (Z.of_nat m)) by (apply qz_le; lia).
    assert (K2 : qz (Z.of_nat n + 1) * s <= qz (Z.of_nat m) * s) by (apply Qcmult_le_compat_r; [exact K|apply Qclt_le_weak; exact HS]).
    qlra. }
  intros H1 H2. destruct (Nat.lt_trichotomy n m) as [L|[L|L]]; [exfalso; eauto|exact L|exfalso; eauto].
Qed.

Section Layers.
Variables (TK : tab_kernel) (WK : wire_kernel) (top : plane) (mx : Z) (base : list edge) (s : Qc).
Definition layer (i : nat) : list edge := wk_moved WK base (s * qz (Z.of_nat i)).

Definition stops (i : nat) : Prop :=
  qq (-1) 1000 <= tk_zmin TK (layer i) \/
  (tk_zmin TK (layer i) < qq (-1) 1000 /\ wk_below WK top (layer i) = Ok false).
Definition goes_on (i : nat) : Prop := tk_zmin TK (layer i) < qq (-1) 1000 /\ wk_below WK top (layer i) = Ok true.

Lemma layers_above_spec fuel : forall i, (1 <= fuel)%nat -> (Z.of_nat i + Z.of_nat fuel > mx + 1)%Z ->
  match layers_above TK WK top mx base s fuel (Z.of_nat i) with
  | Ok ls => exists n, ls = map layer (seq (S i) n) /\ (forall k, (i < k <= i + n)%nat -> goes_on k) /\ stops (S (i + n)) /\
               (Z.of_nat (i + n) <= mx)%Z
  | Err x => (x = RuntimeError /\ exists n, (mx < Z.of_nat (i + n) /\ (n = O \/ Z.of_nat (i + n) <= mx + 1))%Z /\
                forall k, (i < k <= i + n)%nat -> goes_on k) \/
             (exists k, (i < k)%nat /\ (Z.of_nat k <= mx + 1)%Z /\ wk_below WK top (layer k) = Err x /\
                tk_zmin TK (layer k) < qq (-1) 1000 /\ forall k', (i < k' < k)%nat -> goes_on k')
  end.
Proof.
  induction fuel as [|fuel IH]; intros i HF HI; [lia|]. cbn [layers_above].
  destruct (Z.ltb_spec mx (Z.of_nat i)) as [L|L].
  { left. split; [reflexivity|]. exists O. split; [rewrite Nat.add_0_r; split; [lia|left; reflexivity]|]. intros k Hk. lia. }
  replace (wk_moved WK base (s * qz (Z.of_nat i + 1))) with (layer (S i)) by (unfold layer; do 3 f_equal; lia).
  destruct (qleb (qq (-1) 1000) (tk_zmin TK (layer (S i)))) eqn:Z1.
  { exists O. split; [reflexivity|]. split; [intros k Hk; lia|]. rewrite Nat.add_0_r. split; [|lia].
    left. apply qleb_le. exact Z1. }
  apply qleb_nle in Z1.
  destruct (wk_below WK top (layer (S i))) as [[]|x] eqn:B; cbn [rbind].
  - specialize (IH (S i)). replace (Z.of_nat (S i)) with (Z.of_nat i + 1)%Z in IH by lia.
    specialize (IH ltac:(lia) ltac:(lia)).
    destruct (layers_above TK WK top mx base s fuel (Z.of_nat i + 1)) as [ls|x]; cbn [rbind].
    + destruct IH as (n & -> & G & ST & M). exists (S n). split; [reflexivity|]. split.
      * intros k Hk. destruct (Nat.eq_dec k (S i)) as [->|]; [split; assumption|]. apply G. lia.
      * replace (i + S n)%nat with (S i + n)%nat by lia. split; assumption.
    + destruct IH as [(-> & n & M & G)|(k & K1 & K2 & K3 & K4 & G)].
      * left. split; [reflexivity|]. exists (S n). replace (i + S n)%nat with (S i + n)%nat by lia.
        split; [split; [lia|right; destruct M as [M [->|]]; lia]|].
        intros k Hk. destruct (Nat.eq_dec k (S i)) as [->|]; [split; assumption|]. apply G. lia.
      * right. exists k. split; [lia|]. split; [exact K2|]. split; [exact K3|]. split; [exact K4|].
        intros k' Hk. destruct (Nat.eq_dec k' (S i)) as [->|]; [split; assumption|]. apply G. lia.
  - exists O. split; [reflexivity|]. split; [intros k Hk; lia|]. rewrite Nat.add_0_r. split; [|lia]. right. split; assumption.
  - right. exists (S i). split; [lia|]. split; [lia|]. split; [exact B|]. split; [exact Z1|]. intros k' Hk. lia.
Qed.

Hypothesis LI : lifts TK WK base.
Hypothesis CL : clear_of_top TK WK top base.
Let z := tk_zmin TK base.

Lemma layer_z i : tk_zmin TK (layer i) = z + qz (Z.of_nat i) * s.
Proof. unfold layer. rewrite LI. fold z. ring. Qed.
Lemma no_kernel_error i x : tk_zmin TK (layer i) < qq (-1) 1000 -> wk_below WK top (layer i) = Err x -> False.
Proof. intros H E. unfold layer in H, E. rewrite CL in E by exact H. discriminate. Qed.
Lemma stops_high i : stops i -> qq (-1) 1000 <= tk_zmin TK (layer i).
Proof. intros [H|[H E]]; [exact H|]. unfold layer in H, E. rewrite CL in E by exact H. discriminate. Qed.

Lemma layers_above_ok ls : 0 < s ->
  layers_above TK WK top mx base s (layer_fuel mx) 0 = Ok ls <->
  exists n, layers_needed z s n /\ (Z.of_nat n <= mx)%Z /\ ls = map layer (seq 1 n).
Proof.
  intros HS. pose proof (layers_above_spec (layer_fuel mx) 0) as P. unfold layer_fuel in P. specialize (P ltac:(lia) ltac:(lia)).
  fold (layer_fuel mx) in P. cbn [Z.of_nat] in P.
  assert (N : forall n, (forall k, (0 < k <= n)%nat -> goes_on k) -> stops (S n) -> layers_needed z s n).
  { intros n G ST. apply stops_high in ST. rewrite layer_z in ST. split.
    - destruct n as [|n]; [left; reflexivity|]. right. destruct (G (S n) ltac:(lia)) as [L _]. rewrite layer_z in L. exact L.
    - replace (Z.of_nat n + 1)%Z with (Z.of_nat (S n)) by lia. exact ST. }
  split.
  - intros E. rewrite E in P. destruct P as (n & -> & G & ST & M). exists n. split; [apply N; assumption|]. split; [exact M|reflexivity].
  - intros (n & HN & M & ->). destruct (layers_above TK WK top mx base s (layer_fuel mx) 0) as [ls|x].
    + destruct P as (n' & -> & G & ST & M'). rewrite (layers_needed_unique z s n n' HS HN (N _ G ST)). reflexivity.
    + exfalso. destruct P as [(-> & n' & [M' _] & G)|(k & _ & _ & E & L & _)]; [|exact (no_kernel_error k x L E)].
      (* n' > mx >= n layers go on, but layer n + 1 stops *)
      destruct (G (S n) ltac:(lia)) as [L _]. rewrite layer_z in L. destruct HN as [_ HN].
      replace (Z.of_nat (S n)) with (Z.of_nat n + 1)%Z in L by lia. qlra.
Qed.

Lemma layers_above_err x : 0 < s ->
  layers_above TK WK top mx base s (layer_fuel mx) 0 = Err x <->
  x = RuntimeError /\ exists n, layers_needed z s n /\ (mx < Z.of_nat n)%Z.
Proof.
  intros HS. pose proof (layers_above_spec (layer_fuel mx) 0) as P. unfold layer_fuel in P. specialize (P ltac:(lia) ltac:(lia)).
  fold (layer_fuel mx) in P. cbn [Z.of_nat] in P.
  destruct (layers_needed_ex z s HS) as [n HN]. split.
  - intros E. rewrite E in P. destruct P as [(-> & n' & [M' _] & G)|(k & _ & _ & E' & L & _)]; [|destruct (no_kernel_error k x L E')].
    split; [reflexivity|]. exists n. split; [exact HN|].
    destruct (Z_lt_ge_dec mx (Z.of_nat n)) as [|L]; [assumption|exfalso].
    destruct (G (S n) ltac:(lia)) as [L' _]. rewrite layer_z in L'. destruct HN as [_ HN].
    replace (Z.of_nat (S n)) with (Z.of_nat n + 1)%Z in L' by lia. qlra.
  - intros (-> & n' & HN' & M).
    destruct (layers_above TK WK top mx base s (layer_fuel mx) 0) as [ls|x] eqn:E.
    + apply layers_above_ok in E as (m & HM & L & _); [|exact HS].
      rewrite (layers_needed_unique z s n' m HS HN' HM) in M. lia.
    + destruct P as [(-> & _)|(k & _ & _ & E' & L & _)]; [reflexivity|destruct (no_kernel_error k x L E')].
Qed.

(** Stepping "down" by a negative amount never gets to the surface. *)
Lemma layers_negative : s < 0 -> z < qq (-1) 1000 ->
  layers_above TK WK top mx base s (layer_fuel mx) 0 = Err RuntimeError.
Proof.
  intros HS HZ. pose proof (layers_above_spec (layer_fuel mx) 0) as P. unfold layer_fuel in P. specialize (P ltac:(lia) ltac:(lia)).
  fold (layer_fuel mx) in P. cbn [Z.of_nat] in P.
  destruct (layers_above TK WK top mx base s (layer_fuel mx) 0) as [ls|x].
  - exfalso. destruct P as (n & _ & _ & ST & _). apply stops_high in ST. rewrite layer_z in ST.
    assert (K : 0 <= qz (Z.of_nat (S n))) by (rewrite <- qz_0; apply qz_le; lia).
    assert (K2 : 0 * (- s) <= qz (Z.of_nat (S n)) * (- s)) by (apply Qcmult_le_compat_r; [exact K|clear - HS; qlra]).
    cbn [Nat.add] in ST. qlra.
  - destruct P as [(-> & _)|(k & _ & _ & E' & L & _)]; [reflexivity|destruct (no_kernel_error k x L E')].
Qed.
End Layers.

(** ** The layers of a profile *)
Lemma profile_layers_ok TK WK j base s ls : 0 < s -> lifts TK WK base -> clear_of_top TK WK (j_top j) base ->
  profile_layers TK WK j base (Some s) = Ok ls ->
  exists n, layers_needed (tk_zmin TK base) s n /\ length ls = S n /\
    forall k, (k <= n)%nat -> exists w, nth_error ls k = Some w /\
      tk_zmin TK w = tk_zmin TK base + qz (Z.of_nat (n - k)) * s /\
      w = if (k =? n)%nat then base else wk_moved WK base (s * qz (Z.of_nat (n - k))).
Proof.
  intros HS LI CL. unfold profile_layers. destruct (qeqb s 0) eqn:E0; [apply qeqb_eq in E0; subst; discriminate HS|].
  destruct (layers_above TK WK (j_top j) (j_max_stepdown_count j) base s (layer_fuel (j_max_stepdown_count j)) 0) as [above|x] eqn:E; [|discriminate].
  cbn [rbind]. intros [= <-]. apply layers_above_ok in E as (n & HN & _ & ->); [|exact LI|exact CL|exact HS].
  exists n. split; [exact HN|]. cbn [rev]. rewrite <- map_rev. split; [rewrite app_length, map_length, rev_length, seq_length; cbn; lia|].
  intros k Hk. destruct (Nat.eqb_spec k n) as [->|NE].
  - exists base. rewrite nth_error_app2 by (rewrite map_length, rev_length, seq_length; lia).
    rewrite map_length, rev_length, seq_length, Nat.sub_diag. split; [reflexivity|]. split; [cbn [Z.of_nat]; rewrite qz_0; ring|reflexivity].
  - exists (layer WK base s (n - k)). rewrite nth_error_app1 by (rewrite map_length, rev_length, seq_length; lia).
    split.
    + rewrite nth_error_map. replace (nth_error (rev (seq 1 n)) k) with (Some (n - k)%nat); [reflexivity|].
      symmetry. rewrite (nth_error_nth' _ 0%nat) by (rewrite rev_length, seq_length; lia).
      rewrite rev_nth by (rewrite seq_length; lia). rewrite seq_length, seq_nth by lia. f_equal. lia.
    + split; [|reflexivity]. unfold layer. rewrite LI. ring.
Qed.

Lemma profile_layers_err TK WK j base s x : 0 < s -> lifts TK WK base -> clear_of_top TK WK (j_top j) base ->
  (profile_layers TK WK j base (Some s) = Err x <->
   x = RuntimeError /\ exists n, layers_needed (tk_zmin TK base) s n /\ (j_max_stepdown_count j < Z.of_nat n)%Z).
Proof.
  intros HS LI CL. unfold profile_layers. destruct (qeqb s 0) eqn:E0; [apply qeqb_eq in E0; subst; discriminate HS|].
  rewrite <- (layers_above_err TK WK (j_top j) (j_max_stepdown_count j) base s LI CL x HS).
  destruct (layers_above _ _ _ _ _ _ _ _); cbn [rbind]; split; congruence.
Qed.

(** With any kernel and any stepdown. *)
Lemma profile_layers_bounded TK WK j base sd : (0 <= j_max_stepdown_count j)%Z ->
  match profile_layers TK WK j base sd with
  | Ok ls => last ls [] = base /\ (Z.of_nat (length ls) <= j_max_stepdown_count j + 1)%Z
  | Err x => x = RuntimeError \/ exists dz, wk_below WK (j_top j) (wk_moved WK base dz) = Err x
  end.
Proof.
  intros HM. unfold profile_layers. destruct sd as [s|]; [|cbn; split; [reflexivity|lia]].
  destruct (qeqb s 0); [cbn; split; [reflexivity|lia]|].
  set (mx := j_max_stepdown_count j) in *.
  pose proof (layers_above_spec TK WK (j_top j) mx base s (layer_fuel mx) 0) as P. unfold layer_fuel in P. specialize (P ltac:(lia) ltac:(lia)).
  fold (layer_fuel mx) in P. cbn [Z.of_nat] in P.
  destruct (layers_above TK WK (j_top j) mx base s (layer_fuel mx) 0) as [ls|x]; cbn [rbind].
  - destruct P as (n & -> & _ & _ & M). cbn [rev]. rewrite last_last. split; [reflexivity|].
    rewrite app_length, rev_length, map_length, seq_length. cbn [length]. lia.
  - destruct P as [(-> & _)|(k & _ & _ & E & _)]; [left; reflexivity|]. right. eexists. exact E.
Qed.

Lemma profile_layers_negative TK WK j base s : s < 0 -> lifts TK WK base -> clear_of_top TK WK (j_top j) base ->
  tk_zmin TK base < qq (-1) 1000 -> profile_layers TK WK j base (Some s) = Err RuntimeError.
Proof.
  intros HS LI CL HZ. unfold profile_layers. destruct (qeqb s 0) eqn:E0; [apply qeqb_eq in E0; subst; discriminate HS|].
  rewrite layers_negative; [reflexivity|exact LI|exact CL|exact HS|exact HZ].
Qed.
