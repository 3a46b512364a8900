(** * Proofs: scaling to the grid of pyclipper in doubles is exact *)
From Coq Require Import ZArith QArith Qabs Qround SpecFloat Lia Lqa.
From Verif Require Import Model.Float Model.Grid Spec.Doubles Proofs.RoundP Proofs.PrintFloatP.
Local Open Scope Q_scope.

Lemma valid_mantissa s m e : valid_binary 53 1024 (S754_finite s m e) = true -> (Zpos m < 2 ^ 53)%Z /\ (-1074 <= e)%Z.
Proof.
  intros H. cbn [valid_binary] in H. unfold bounded in H. apply andb_prop in H. destruct H as [H _].
  unfold canonical_mantissa in H. apply Zeq_bool_eq in H. change (Zpos (digits2_pos m)) with (Zdigits2 (Zpos m)) in H.
  destruct (fexp_ge (Zdigits2 (Zpos m) + e)) as [F1 F2]. rewrite H in F1, F2. split; [|exact F2].
  destruct (Zdigits2_upper (Zpos m) ltac:(lia)) as [D _]. eapply Z.lt_le_trans; [exact D|]. apply Z.pow_le_mono_r; lia.
Qed.

Theorem scale_double x X : valid_binary 53 1024 x = true -> stands x X -> Qabs X < pw 900 ->
  exists k, scale64 x = Some k /\
    (0 <= X -> (0 <= k)%Z /\ inject_Z k <= X * pw 31 /\ X * pw 31 < inject_Z (k + 1)) /\
    (X <= 0 -> (k <= 0)%Z /\ X * pw 31 <= inject_Z k /\ inject_Z (k - 1) < X * pw 31).
Proof.
  intros HV HX HB.
  assert (ST : stands (f64_mul x two31) (X * pw 31)).
  { destruct x as [s|s| |s m e]; try (destruct HX as (q & C & _); discriminate).
    - pose proof (stands_unique _ _ _ HX (stands_zero s)) as EX. cbn. apply (stands_compat _ 0); [rewrite EX; ring|apply stands_zero].
    - pose proof (stands_unique _ _ _ HX (stands_finite s m e)) as EX. destruct (valid_mantissa _ _ _ HV) as [M1 M2].
      unfold two31, f64_mul. cbn [SFmul]. rewrite Bool.xorb_false_r.
      assert (EM : inject_Z (Zpos (m * 2 ^ 52)) * pw (e + -21) == inject_Z (Zpos m) * pw (e + 31)).
      { rewrite Pos2Z.inj_mul, inject_Z_mult. change (Zpos (2 ^ 52)) with (2 ^ 52)%Z. rewrite <- (pw_nat 52) by lia.
        rewrite <- Qmult_assoc, <- pw_add. replace (52 + (e + -21))%Z with (e + 31)%Z by lia. reflexivity. }
      eapply stands_compat; [|apply (round_exact s (Zpos (m * 2 ^ 52)) (e + -21) (Zpos m) (e + 31))].
      + rewrite EX. destruct s; cbn [signed]; rewrite pw_add; ring.
      + lia.
      + exact EM.
      + lia.
      + lia.
      + rewrite pw_add. rewrite EX in HB. assert (HB' : inject_Z (Zpos m) * pw e < pw 900).
        { destruct s; cbn [signed] in HB; rewrite ?Qabs_opp in HB; rewrite Qabs_pos in HB; try exact HB;
          (pose proof (pw_pos e); assert (0 < inject_Z (Zpos m)) by reflexivity; nra). }
        rewrite Qmult_assoc. apply Qlt_le_trans with (pw 900 * pw 31); [apply Qmult_lt_compat_r; [apply pw_pos|exact HB']|].
        rewrite <- pw_add. apply pw_le. lia. }
  destruct ST as (q & E1 & E2). unfold scale64, f64_trunc. rewrite E1. eexists. split; [reflexivity|].
  pose proof (pw_pos 31) as P. set (Y := X * pw 31) in *.
  assert (S1 : 0 <= X -> 0 <= Y) by (unfold Y; nra). assert (S2 : X <= 0 -> Y <= 0) by (unfold Y; nra). clearbody Y.
  destruct (Qle_bool 0 q) eqn:EQ.
  - apply Qle_bool_iff in EQ. pose proof (Qfloor_le q) as F1. pose proof (Qlt_floor q) as F2.
    assert (F0 : (0 <= Qfloor q)%Z) by (change 0%Z with (Qfloor 0); apply Qfloor_resp_le; exact EQ).
    split; intros H.
    + split; [exact F0|]. rewrite <- E2. split; assumption.
    + assert (q == 0) by (specialize (S2 H); rewrite <- E2 in S2; apply Qle_antisym; assumption).
      assert (FZ : Qfloor q = 0%Z) by (rewrite H0; reflexivity). rewrite FZ, <- E2, H0. split; [lia|]. split; [apply Qle_refl|reflexivity].
  - assert (EQ' : ~ 0 <= q) by (intros C; apply Qle_bool_iff in C; congruence). apply Qnot_le_lt in EQ'.
    pose proof (Qle_ceiling q) as F1. pose proof (Qceiling_lt q) as F2.
    assert (F0 : (Qceiling q <= 0)%Z) by (change 0%Z with (Qceiling 0); apply Qceiling_resp_le; apply Qlt_le_weak, EQ').
    split; intros H.
    + exfalso. specialize (S1 H). rewrite <- E2 in S1. apply (Qle_not_lt _ _ S1 EQ').
    + split; [exact F0|]. rewrite <- E2. split; assumption.
Qed.

Lemma round_exact_normal s m e : (Zpos m < 2 ^ 53)%Z -> (-1074 <= e)%Z -> inject_Z (Zpos m) * pw e < big ->
  stands (binary_round 53 1024 s m e) (signed s (inject_Z (Zpos m) * pw e)).
Proof.
  intros H1 H2 H3. unfold binary_round.
  set (e' := fexp 53 1024 (Zpos (digits2_pos m) + e)).
  destruct (shl_align m e e') as [mz ez] eqn:Ea.
  assert (Ev : inject_Z (Zpos mz) * pw ez == inject_Z (Zpos m) * pw e).
  { destruct (Z_le_gt_dec e' e) as [L|L].
    - pose proof (Q_of_shl m e e' L) as Q. rewrite Ea in Q. cbn [fst] in Q.
      unfold shl_align in Ea. destruct (e' - e)%Z eqn:Ed; injection Ea as <- <-; [reflexivity|lia|exact Q].
    - unfold shl_align in Ea. destruct (e' - e)%Z eqn:Ed; try lia. injection Ea as <- <-. reflexivity. }
  apply (round_exact s (Zpos mz) ez (Zpos m) e); [lia|exact Ev|lia|exact H2|exact H3].
Qed.

Lemma of_Z_exact k : (Z.abs k < 2 ^ 53)%Z -> stands (f64_of_Z k) (inject_Z k).
Proof.
  intros H. destruct k as [|p|p]; cbn [f64_of_Z]; [apply stands_zero| |].
  - cbn [binary_normalize]. eapply stands_compat; [|apply (round_exact_normal false p 0)]; [cbn [signed]; rewrite pw_0; ring|lia|lia|].
    rewrite pw_0, Qmult_1_r. apply Qlt_le_trans with (pw 53); [rewrite (pw_nat 53) by lia; rewrite <- Zlt_Qlt; lia|]. apply pw_le. lia.
  - cbn [binary_normalize]. eapply stands_compat; [|apply (round_exact_normal true p 0)]; [cbn [signed]; rewrite pw_0; change (Zneg p) with (- Zpos p)%Z; rewrite inject_Z_opp; ring|lia|lia|].
    rewrite pw_0, Qmult_1_r. apply Qlt_le_trans with (pw 53); [rewrite (pw_nat 53) by lia; rewrite <- Zlt_Qlt; lia|]. apply pw_le. lia.
Qed.

Lemma div31 s m e n : inject_Z (Zpos m) * pw e == inject_Z n -> (0 < n < 2 ^ 53)%Z ->
  stands (f64_div (S754_finite s m e) two31) (signed s (inject_Z n * pw (-31))).
Proof.
  intros HX Hn. unfold two31, f64_div. cbn [SFdiv]. rewrite Bool.xorb_false_r. unfold SFdiv_core_binary. cbv zeta.
  change (Zdigits2 (Zpos (2 ^ 52))) with 53%Z.
  set (e' := Z.min (fexp 53 1024 (Zdigits2 (Zpos m) + e - (53 + -21))) (e - -21)).
  set (sh := (e - -21 - e')%Z). assert (Hsh : (0 <= sh)%Z) by (unfold sh, e'; lia).
  assert (Em : match sh with Z0 => Zpos m | Zpos _ => Z.shiftl (Zpos m) sh | Zneg _ => 0%Z end = (Zpos m * 2 ^ sh)%Z).
  { destruct sh as [|p|p]; [lia| |lia]. apply Z.shiftl_mul_pow2. lia. }
  rewrite Em. clear Em. change (Zpos (2 ^ 52)) with (2 ^ 52)%Z.
  assert (XL : pw (Zdigits2 (Zpos m) - 1 + e) <= inject_Z n).
  { destruct (Zdigits2_lower (Zpos m) ltac:(lia)) as [D1 D2]. rewrite <- HX, pw_add. apply Qmult_le_compat_r; [|apply Qlt_le_weak, pw_pos]. rewrite (pw_nat (Zdigits2 (Zpos m) - 1)) by lia. rewrite <- Zle_Qle. exact D1. }
  assert (XU : inject_Z n < pw 53) by (rewrite (pw_nat 53) by lia; rewrite <- Zlt_Qlt; lia).
  assert (LE : (e' <= -31)%Z).
  { assert (L := Qle_lt_trans _ _ _ XL XU). apply pw_lt_inv in L. destruct (fexp_or (Zdigits2 (Zpos m) + e - (53 + -21))) as [F|F]; unfold e'; rewrite F; lia. }
  assert (EZ : (Zpos m * 2 ^ sh = 2 ^ 52 * (n * 2 ^ (-31 - e')))%Z).
  { apply (proj1 (inject_Z_injective _ _)). rewrite !inject_Z_mult, <- !pw_nat by lia. unfold sh.
    assert (inject_Z (Zpos m) == inject_Z n * pw (- e)) by (rewrite <- HX, <- Qmult_assoc, (Qmult_comm (pw e)), pw_opp; ring).
    rewrite H. rewrite <- Qmult_assoc, <- pw_add. setoid_replace (pw 52 * (inject_Z n * pw (-31 - e'))) with (inject_Z n * (pw 52 * pw (-31 - e'))) by ring.
    rewrite <- pw_add. replace (- e + (e - -21 - e'))%Z with (52 + (-31 - e'))%Z by lia. reflexivity. }
  pose proof (Z_div_mod (Zpos m * 2 ^ sh) (2 ^ 52) ltac:(lia)) as Hdiv.
  destruct (Z.div_eucl (Zpos m * 2 ^ sh) (2 ^ 52)) as [q r]. destruct Hdiv as [Hqr Hr].
  assert (QR : q = (n * 2 ^ (-31 - e'))%Z /\ r = 0%Z).
  { rewrite EZ in Hqr. set (a := (n * 2 ^ (-31 - e'))%Z) in *. clearbody a. split; lia. }
  destruct QR as [-> ->]. change (new_location (2 ^ 52) 0) with loc_Exact.
  pose proof (Z.pow_pos_nonneg 2 (-31 - e') ltac:(lia) ltac:(lia)) as P2.
  apply (round_exact s (n * 2 ^ (-31 - e')) e' n (-31)); [nia| |lia|lia|].
  - rewrite inject_Z_mult, <- pw_nat by lia. rewrite <- Qmult_assoc, <- pw_add. replace (-31 - e' + e')%Z with (-31)%Z by lia. reflexivity.
  - apply Qlt_le_trans with (pw 53 * pw (-31)); [apply Qmult_lt_compat_r; [apply pw_pos|exact XU]|]. rewrite <- pw_add. apply pw_le. lia.
Qed.

Theorem unscale_double k : (Z.abs k < 2 ^ 53)%Z -> stands (unscale64 k) (inject_Z k * pw (-31)).
Proof.
  intros H. pose proof (of_Z_exact k H) as HK. unfold unscale64. destruct (f64_of_Z k) as [s|s| |s m e]; try (destruct HK as (q & C & _); discriminate).
  - pose proof (stands_unique _ _ _ HK (stands_zero s)) as EX. cbn. apply (stands_compat _ 0); [rewrite EX; ring|apply stands_zero].
  - pose proof (stands_unique _ _ _ HK (stands_finite s m e)) as EX. pose proof (pw_pos e) as P. assert (MP : 0 < inject_Z (Zpos m)) by reflexivity.
    destruct s; cbn [signed] in EX.
    + eapply stands_compat; [|apply (div31 true m e (- k))].
      * cbn [signed]. rewrite inject_Z_opp. ring.
      * rewrite inject_Z_opp, EX. ring.
      * assert (k < 0)%Z by (rewrite Zlt_Qlt; change (inject_Z 0) with 0; nra). lia.
    + eapply stands_compat; [|apply (div31 false m e k)].
      * reflexivity.
      * rewrite EX. reflexivity.
      * assert (0 < k)%Z by (rewrite Zlt_Qlt; change (inject_Z 0) with 0; nra). lia.
Qed.
