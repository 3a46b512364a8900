From Verif Require Import Base.Py Model.Float Model.SegmentFloat Model.FloatSteps Model.LayersFloat Spec.Doubles Spec.LayerDoubles Proofs.RoundP Proofs.ArangeP Proofs.SegmentFloatP.
From Coq Require Import ZArith QArith Qabs SpecFloat List Lia Lqa.
Import ListNotations.
Local Open Scope Q_scope.
Local Open Scope list_scope.

Lemma m0001_near : exists L, stands f64_m0001 L /\ ab (L + (1 # 1000)) (1 # 1000000).
Proof. eexists. split; [eexists; split; [vm_compute; reflexivity|reflexivity]|]. unfold ab. split; vm_compute; discriminate. Qed.
Lemma pw_consts : pw 20 == 1048576 /\ pw 21 == 2097152 /\ pw (-30) == 1 # 1073741824 /\ u == 1 # 9007199254740992.
Proof. repeat split; vm_compute; reflexivity. Qed.
Lemma eta_tiny : 0 < eta /\ eta <= 1 # 1000000000000000000000000000000.
Proof. split; vm_compute; [reflexivity|discriminate]. Qed.

Section Layers.
Context (zmin : f64 -> f64) (GB : good_box zmin) (max : Z) (z s : f64) (Z0 S0 : Q) (n : nat)
  (Hz : stands z Z0) (Hs : stands s S0) (HS : 1 # 500 <= S0) (HZ : Qabs Z0 <= pw 20) (Hn : Qabs (Z0 + kq n * S0) <= 1 # 2000).

Lemma kq_le i j : (i <= j)%nat -> kq i <= kq j.
Proof. intros H. unfold kq. rewrite <- Zle_Qle. lia. Qed.
Lemma layer_near i : (S i <= n)%nat -> exists X, stands (layer_z64 z s i) X /\ ab (X - (Z0 + kq (S i) * S0)) (pw (-30)) /\ ab X (pw 21).
Proof.
  intros L. destruct pw_consts as (P20 & P21 & P30 & PU). destruct eta_tiny as [E0 E1].
  rewrite ab_abs in HZ, Hn. unfold ab in HZ, Hn. rewrite P20 in HZ.
  pose proof (kq_le _ _ L) as KL. pose proof (kq_nonneg (S i)) as K0. set (k := kq (S i)) in *. set (N := kq n) in *.
  assert (NS : N * S0 <= 1048577) by lra. assert (N0 : 0 <= N) by (unfold N; apply kq_nonneg).
  assert (KN : k * S0 <= N * S0) by (apply Qmult_le_compat_r; lra).
  assert (KS : 0 <= k * S0 /\ k * S0 <= 1048577) by (split; [apply Qmult_le_0_compat; lra|assert (k * S0 <= N * S0) by (apply Qmult_le_compat_r; lra); lra]).
  assert (S1 : k * (1 # 500) <= 1048577) by (assert (k * (1 # 500) <= k * S0) by (rewrite !(Qmult_comm k); apply Qmult_le_compat_r; lra); lra). assert (KB : k <= 524288500) by lra.
  assert (BIG : 1000000000000 <= pw 900) by (vm_compute; discriminate).
  destruct (of_nat_near (S i)) as (I & HI & NI); [fold k; lra|]. fold k in NI. unfold ab in NI. rewrite PU in NI.
  assert (K1 : 1 <= k) by (unfold k, kq; change 1 with (inject_Z 1); rewrite <- Zle_Qle; lia).
  assert (SB : S0 <= 1048577) by nra.
  assert (IS : ab (I * S0 - k * S0) (1 # 4294967296)).
  { unfold ab. assert (A : ab (I - k) ((1 # 9007199254740992) * k + eta)) by exact NI. unfold ab in A.
    assert (B : eta * S0 <= (1 # 100000000000000000000000)) by (assert (eta * S0 <= (1 # 1000000000000000000000000000000) * S0) by (apply Qmult_le_compat_r; lra); lra).
    assert (C1 : (I - k) * S0 <= ((1 # 9007199254740992) * k + eta) * S0) by (apply Qmult_le_compat_r; lra).
    assert (C2 : - (((1 # 9007199254740992) * k + eta) * S0) <= (I - k) * S0) by (setoid_replace (- (((1 # 9007199254740992) * k + eta) * S0)) with ((- ((1 # 9007199254740992) * k + eta)) * S0) by ring; apply Qmult_le_compat_r; lra). split; lra. }
  unfold ab in IS.
  destruct (mul_close s (f64_of_nat (S i)) S0 I Hs HI) as (M & HM & NM).
  { apply (ab_big _ 2000000); [unfold ab; lra|lra]. }
  apply (ab_close _ _ 2000000) in NM; [|unfold ab; lra]. unfold ab in NM. rewrite PU in NM.
  destruct (add_close z (f64_mul s (f64_of_nat (S i))) Z0 M Hz HM) as (X & HX & NX).
  { apply (ab_big _ 4000000); [unfold ab; lra|lra]. }
  apply (ab_close _ _ 4000000) in NX; [|unfold ab; lra]. unfold ab in NX. rewrite PU in NX.
  exists X. split; [exact HX|]. unfold ab. rewrite P30, P21. repeat split; lra.
Qed.

Lemma go_on i : (S i < n)%nat -> f64_ltb (zmin (layer_z64 z s i)) f64_m0001 = true.
Proof.
  intros L. destruct (layer_near i) as (X & HX & NX & BX); [lia|]. apply ab_abs in BX. destruct (GB _ _ HX BX) as (Y & HY & NY). apply ab_abs in NY.
  destruct m0001_near as (M & HM & NM). apply (ltb_stands _ _ _ _ HY HM). destruct pw_consts as (_ & _ & P30 & _).
  unfold ab in *. rewrite P30 in NX. apply ab_abs in Hn. unfold ab in Hn. assert (K : kq (S (S i)) <= kq n) by (apply kq_le; lia). rewrite kq_S in K. nra.
Qed.
Lemma stop : (1 <= n)%nat -> f64_ltb (zmin (layer_z64 z s (pred n))) f64_m0001 = false.
Proof.
  intros N1. destruct (f64_ltb _ _) eqn:E; [|reflexivity]. exfalso. destruct m0001_near as (M & HM & NM). destruct pw_consts as (P20 & P21 & P30 & PU).
  destruct (layer_near (pred n)) as (X & HX & NX & BX); [lia|]. apply ab_abs in BX. destruct (GB _ _ HX BX) as (Y & HY & NY). apply ab_abs in NY.
  apply (ltb_stands _ _ _ _ HY HM) in E. replace (S (pred n)) with n in NX by lia. unfold ab in *. rewrite P30 in NX. apply ab_abs in Hn. unfold ab in Hn. lra.
Qed.
Lemma layers64_from : (1 <= n)%nat -> (Z.of_nat n <= max + 1)%Z -> forall k i, (i + k = pred n)%nat -> forall fuel, (k < fuel)%nat ->
  layers64 zmin max z s fuel i = Ok (map (layer_z64 z s) (seq i k)).
Proof.
  intros N1 NM. induction k as [|k IH]; intros i E [|fuel] F; try lia; cbn [layers64 seq map].
  - replace (max <? Z.of_nat i)%Z with false by (symmetry; apply Z.ltb_ge; lia). replace i with (pred n) by lia. rewrite stop by exact N1. reflexivity.
  - replace (max <? Z.of_nat i)%Z with false by (symmetry; apply Z.ltb_ge; lia). rewrite go_on by lia. cbn [negb]. rewrite (IH (S i)) by lia. reflexivity.
Qed.
Lemma layers64_many : (max + 1 < Z.of_nat n)%Z -> forall fuel i, (Z.of_nat i <= Z.max 0 (max + 1))%Z -> (Z.max 0 (max + 1) - Z.of_nat i < Z.of_nat fuel)%Z ->
  layers64 zmin max z s fuel i = Err RuntimeError.
Proof.
  intros NM. induction fuel as [|fuel IH]; intros i L F; [lia|]. cbn [layers64]. destruct (Z.ltb_spec max (Z.of_nat i)); [reflexivity|].
  rewrite go_on by lia. cbn [negb]. rewrite IH by lia. reflexivity.
Qed.
End Layers.

Lemma layers_divide zmin max z s Z0 S0 n : good_box zmin -> stands z Z0 -> stands s S0 -> 1 # 500 <= S0 -> Qabs Z0 <= pw 20 ->
  (1 <= n)%nat -> Qabs (Z0 + kq n * S0) <= 1 # 2000 ->
  ((Z.of_nat n <= max + 1)%Z -> exists l, profile_layers64 zmin max z s = Ok l /\ S (length l) = n /\
     forall i x, nth_error l i = Some x -> exists X, stands x X /\ Qabs (X - (Z0 + kq (S i) * S0)) <= pw (-30)) /\
  ((max + 1 < Z.of_nat n)%Z -> profile_layers64 zmin max z s = Err RuntimeError).
Proof.
  intros GB Hz Hs HS HZ N1 Hn. split.
  - intros NM. exists (map (layer_z64 z s) (seq 0 (pred n))). split; [|split].
    + apply (layers64_from zmin GB max z s Z0 S0 n Hz Hs HS HZ Hn N1 NM); lia.
    + rewrite map_length, seq_length. lia.
    + intros i x E. apply nth_map_seq in E. destruct E as [L ->]. cbn [plus]. destruct (layer_near z s Z0 S0 n Hz Hs HS HZ Hn i) as (X & A & B & _); [lia|].
      exists X. split; [exact A|apply ab_abs; exact B].
  - intros NM. apply (layers64_many zmin GB max z s Z0 S0 n Hz Hs HS HZ Hn NM); lia.
Qed.

(** A box that adds about 10^-7, as the kernel's do. *)
Definition gap64 : f64 := f64_1e_7.
Lemma gap_box : good_box (fun x => f64_sub x gap64).
Proof.
  intros x X H B. apply ab_abs in B. unfold ab in B. destruct pw_consts as (_ & P21 & _ & PU). destruct eta_tiny as [E0 E1]. rewrite P21 in B.
  assert (G : exists G, stands gap64 G /\ ab (G - (1 # 10000000)) (1 # 100000000)).
  { eexists. split; [eexists; split; [vm_compute; reflexivity|reflexivity]|]. unfold ab; split; vm_compute; discriminate. }
  destruct G as (G & HG & NG). unfold ab in NG. assert (BIG : 1000000000000 <= pw 900) by (vm_compute; discriminate).
  destruct (sub_close x gap64 X G H HG) as (Y & HY & NY); [apply (ab_big _ 4000000); [unfold ab; lra|lra]|].
  apply (ab_close _ _ 4000000) in NY; [|unfold ab; lra]. unfold ab in NY. rewrite PU in NY. exists Y. split; [exact HY|]. apply ab_abs. unfold ab. lra.
Qed.
