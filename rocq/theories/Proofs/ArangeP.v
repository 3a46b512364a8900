(** * numpy.arange in double precision is near the arithmetic progression *)
From Verif Require Import Model.Float.
From Verif Require Export Proofs.RoundP.
From Coq Require Import ZArith QArith Qabs Qround SpecFloat List Lia Lqa Morphisms.
Import ListNotations.
Local Open Scope Q_scope.

(** [x] is at most [B] away from zero. *)
Definition ab (x B : Q) : Prop := - B <= x /\ x <= B.
Lemma ab_abs x B : Qabs x <= B <-> ab x B.
Proof. apply Qabs_Qle_condition. Qed.
Global Instance ab_proper : Proper (Qeq ==> Qeq ==> iff) ab.
Proof. intros x x' Ex y y' Ey. unfold ab. rewrite Ex, Ey. reflexivity. Qed.
Lemma ab_mul x A y B : ab x A -> ab y B -> ab (x * y) (A * B).
Proof.
  intros Hx Hy. apply ab_abs in Hx. apply ab_abs in Hy. apply ab_abs. rewrite Qabs_Qmult.
  pose proof (Qabs_nonneg x). pose proof (Qabs_nonneg y).
  apply Qle_trans with (Qabs x * B); [rewrite Qmult_comm, (Qmult_comm (Qabs x)); apply Qmult_le_compat_r; assumption|].
  apply Qmult_le_compat_r; [assumption|]. lra.
Qed.
Lemma ab_close x v B : close x v -> ab x B -> ab (v - x) (u * B + eta).
Proof.
  unfold close. intros H Hx. apply ab_abs. apply ab_abs in Hx. apply (Qle_trans _ _ _ H).
  pose proof (pw_pos (-53)). unfold u. nra.
Qed.
Lemma ab_big x B : ab x B -> B <= pw 900 -> Qabs x < big.
Proof. intros H HB. apply ab_abs in H. apply Qle_lt_trans with (1 := H). apply Qle_lt_trans with (1 := HB). reflexivity. Qed.
Lemma u_small : 0 < u /\ u <= 1#1000000.
Proof. split; [reflexivity|vm_compute; discriminate]. Qed.


Lemma kq_nonneg i : 0 <= kq i.
Proof. unfold kq. change 0 with (inject_Z 0). rewrite <- Zle_Qle. lia. Qed.
Lemma kq_S i : kq (S i) == kq i + 1.
Proof. unfold kq. rewrite Nat2Z.inj_succ. unfold Z.succ. rewrite inject_Z_plus. reflexivity. Qed.
Lemma of_nat_near i : kq i < pw 900 -> exists I, stands (f64_of_nat i) I /\ ab (I - kq i) (u * kq i + eta).
Proof.
  intros H. unfold f64_of_nat. unfold kq in *.
  assert (Hz : (0 <= Z.of_nat i)%Z) by lia. destruct (Z.of_nat i) as [|p|p]; [| |lia].
  - exists 0. split; [apply stands_zero|]. change (inject_Z 0) with 0. pose proof (pw_pos (-1075)). unfold ab, eta. lra.
  - assert (Hp : 0 < inject_Z (Zpos p)) by reflexivity.
    assert (Ep : inject_Z (Zpos p) * pw 0 == inject_Z (Zpos p)) by (rewrite pw_0; ring).
    destruct (normalize (Zpos p) 0 false) as (v & V1 & V2).
    { rewrite Ep. apply (ab_big _ (inject_Z (Zpos p))); [unfold ab; lra|lra]. }
    exists v. split; [exact V1|]. apply (ab_close (inject_Z (Zpos p))); [exact (close_compat _ _ _ Ep V2)|]. unfold ab; lra.
Qed.

(** One value of [arange64]. *)
Definition elem64 (start step : f64) (i : nat) : f64 :=
  match i with
  | O => start
  | 1%nat => f64_add start step
  | _ => f64_add start (f64_mul (f64_of_nat i) (f64_sub (f64_add start step) start))
  end.
Lemma arange64_elems start stop step : exists n, arange64 start stop step = map (elem64 start step) (seq 0 n).
Proof.
  unfold arange64. destruct (f64_value _) as [q|].
  - exists (Z.to_nat (Qceiling q)). apply map_ext. intros [|[|i]]; reflexivity.
  - exists 0%nat. reflexivity.
Qed.

Lemma elem64_near start step A T i w t :
  stands start A -> stands step T -> ab A (w - t) -> ab T t -> 0 <= w - t -> pw (-400) <= t -> w <= pw 400 -> kq i <= pw 400 ->
  exists X, stands (elem64 start step i) X /\ ab (X - (A + kq i * T)) (16 * u * (kq i + 1) * w).
Proof.
  intros HA HT BA BT Hw0 Ht Hw Hk.
  destruct u_small as [U0 U1]. pose proof (pw_pos (-1075)) as H0. fold eta in H0.
  pose proof (pw_pos (-400)) as H400. pose proof (kq_nonneg i) as Hk0.
  assert (Hwt : 0 < t) by lra. assert (Hww : 0 < w) by lra. assert (Heta : eta <= u * t * (1#1000000)).
  { apply Qle_trans with (u * pw (-400) * (1#1000000)); [vm_compute; discriminate|]. nra. }
  assert (Hbig1 : 100 * pw 400 <= pw 900) by (vm_compute; discriminate).
  assert (Hbig2 : 100 * (pw 400 * pw 400) <= pw 900) by (vm_compute; discriminate).
  assert (Huw : 0 < u * w) by nra.
  assert (Hut : u * t <= u * w) by nra.
  assert (Huw1 : u * w <= (1#1000000) * w) by nra.
  assert (Huuw : u * (u * w) <= (1#1000000) * (u * w)) by nra.
  assert (Hnext : exists N, stands (f64_add start step) N /\ ab (N - (A + T)) (u * w + eta)).
  { destruct (add_close _ _ _ _ HA HT) as (N & N1 & N2).
    - apply (ab_big _ w); [unfold ab in *; lra|lra].
    - exists N. split; [exact N1|]. apply (ab_close _ _ _ N2). unfold ab in *; lra. }
  destruct Hnext as (N & N1 & N2).
  destruct i as [|[|i]].
  - exists A. split; [exact HA|]. change (kq 0) with 0. unfold ab. split; nra.
  - exists N. split; [exact N1|]. change (kq 1) with 1. unfold ab in *. split; lra.
  - set (k := kq (S (S i))) in *.
    assert (Hk2 : 2 <= k) by (unfold k; rewrite !kq_S; pose proof (kq_nonneg i); lra).
    set (kw := k * w). assert (Hkw : 2 * w <= kw) by (unfold kw; nra).
    assert (Hukw : 2 * (u * w) <= u * kw) by nra.
    assert (Hukw1 : u * kw <= (1#1000000) * kw) by nra.
    assert (Huukw : u * (u * kw) <= (1#1000000) * (u * kw)) by nra.
    assert (Hkt : k * t <= kw) by (unfold kw; nra). assert (Hkt0 : 0 <= k * t) by nra.
    assert (Hkwbig : kw <= pw 400 * pw 400) by (unfold kw; nra).
    (* delta *)
    destruct (sub_close _ _ _ _ N1 HA) as (d & D1 & D2).
    { apply (ab_big _ (2 * w)); [unfold ab in *; lra|lra]. }
    assert (D3 : ab (d - T) (3 * (u * w))).
    { assert (BN : ab (N - A) (t + (u * w + eta))) by (unfold ab in *; lra).
      pose proof (ab_close _ _ _ D2 BN) as D3.
      assert (u * (t + (u * w + eta)) + eta <= u * w + (u * w) * (1#100)).
      { assert (u * eta <= eta) by nra. nra. }
      unfold ab in *; lra. }
    assert (Bd : ab d (t + 3 * (u * w))) by (unfold ab in *; lra).
    (* the counter *)
    destruct (of_nat_near (S (S i))) as (I & I1 & I2).
    { fold k. assert (pw 400 < pw 900) by reflexivity. lra. }
    fold k in I2.
    assert (I3 : ab (I - k) (2 * (u * k))).
    { assert (eta <= u * k) by (assert (eta <= u) by (vm_compute; discriminate); nra). unfold ab in *; lra. }
    (* the product *)
    assert (P0 : ab (I * d - k * T) (6 * (u * kw))).
    { pose proof (ab_mul _ _ _ _ I3 Bd) as P1.
      assert (Bk : ab k k) by (unfold ab; lra). pose proof (ab_mul _ _ _ _ Bk D3) as P2.
      assert (E : I * d - k * T == (I - k) * d + k * (d - T)) by ring.
      assert (E1 : 2 * (u * k) * (t + 3 * (u * w)) <= 2 * (u * kw) + (1#1000) * (u * kw)).
      { assert (F1 : 2 * (u * k) * (t + 3 * (u * w)) == 2 * (u * (k * t)) + 6 * (u * (u * kw))) by (unfold kw; ring).
        rewrite F1. nra. }
      assert (E2 : k * (3 * (u * w)) == 3 * (u * kw)) by (unfold kw; ring).
      unfold ab in *. rewrite E. lra. }
    assert (BkT : ab (k * T) (k * t)) by (apply ab_mul; [unfold ab; lra|exact BT]).
    destruct (mul_close _ _ _ _ I1 D1) as (p & P1 & P2).
    { apply (ab_big _ (k * t + 6 * (u * kw))); [unfold ab in *; lra|]. nra. }
    assert (P3 : ab (p - k * T) (8 * (u * kw))).
    { assert (Bx : ab (I * d) (kw + 6 * (u * kw))) by (unfold ab in *; lra).
      pose proof (ab_close _ _ _ P2 Bx) as P4.
      assert (u * (kw + 6 * (u * kw)) + eta <= 2 * (u * kw)) by nra.
      unfold ab in *; lra. }
    (* the sum *)
    assert (Bs : ab (A + p) (w + kw + 8 * (u * kw))) by (unfold ab in *; lra).
    destruct (add_close _ _ _ _ HA P1) as (X & X1 & X2).
    { apply (ab_big _ _ Bs). nra. }
    exists X. split; [exact X1|].
    pose proof (ab_close _ _ _ X2 Bs) as X3.
    assert (E1 : u * (w + kw + 8 * (u * kw)) + eta <= 3 * (u * kw)) by nra.
    assert (E2 : 16 * u * (k + 1) * w == 16 * (u * kw) + 16 * (u * w)) by (unfold kw; ring).
    unfold ab in *. rewrite E2. lra.
Qed.

Lemma arange64_count start stop step q : stands (f64_div (f64_sub stop start) step) q ->
  exists n, arange64 start stop step = map (elem64 start step) (seq 0 n) /\ (forall i, (i < n)%nat -> kq i < q) /\ q <= kq n.
Proof.
  intros [q' [H E]]. exists (Z.to_nat (Qceiling q')). split; [|split].
  - unfold arange64. rewrite H. apply map_ext. intros [|[|i]]; reflexivity.
  - intros i Hi. rewrite <- E. apply Qle_lt_trans with (inject_Z (Qceiling q' - 1)); [|apply Qceiling_lt].
    unfold kq. rewrite <- Zle_Qle. lia.
  - rewrite <- E. apply Qle_trans with (inject_Z (Qceiling q')); [apply Qle_ceiling|]. unfold kq. rewrite <- Zle_Qle. lia.
Qed.

Lemma nth_map_seq {A} (f : nat -> A) n : forall b i x, nth_error (map f (seq b n)) i = Some x -> (i < n)%nat /\ x = f (b + i)%nat.
Proof.
  induction n as [|n IH]; intros b [|i] x H; cbn in H; try discriminate.
  - injection H as <-. split; [lia|]. f_equal. lia.
  - destruct (IH _ _ _ H) as [L ->]. split; [lia|]. f_equal. lia.
Qed.

(** A descending progression: from [A] in steps of [s] down to [z]. *)
Lemma arange64_down start stop step A s z a :
  stands start A -> stands step (- s) -> stands stop z -> ab A a -> 0 <= a -> pw (-100) <= s -> a + s + Qabs z <= pw 100 ->
  (forall i x, nth_error (arange64 start stop step) i = Some x ->
     exists X, stands x X /\ ab (X - (A - kq i * s)) (16 * u * (kq i + 1) * (a + s)) /\ z - 8 * u * (a + s + Qabs z) < A - kq i * s) /\
  A - kq (length (arange64 start stop step)) * s - z <= 8 * u * (a + s + Qabs z).
Proof.
  intros HA HT Hz BA Ha0 Hs Hm.
  destruct u_small as [U0 U1]. pose proof (pw_pos (-1075)) as H0. fold eta in H0.
  pose proof (pw_pos (-100)) as H100. set (zz := Qabs z) in *.
  assert (Bz : ab z zz) by (apply ab_abs; unfold zz; lra).
  assert (Hzz : 0 <= zz) by (unfold zz; apply Qabs_nonneg).
  set (G := a + s + zz) in *.
  assert (Hs0 : 0 < s) by lra. assert (HsG : s <= G) by (unfold G; lra). assert (HG : 0 < G) by lra.
  assert (Heta : eta <= u * s * (1#1000000)).
  { apply Qle_trans with (u * pw (-100) * (1#1000000)); [vm_compute; discriminate|]. nra. }
  assert (HusG : u * s <= u * G) by nra.
  assert (HuG : 0 < u * G) by nra. assert (HuuG : u * (u * G) <= (1#1000000) * (u * G)) by nra.
  assert (HuG1 : u * G <= (1#1000000) * G) by nra.
  assert (Hbig : 100 * pw 100 <= pw 900) by (vm_compute; discriminate).
  (* the length over the step *)
  assert (Bn : ab (z - A) G) by (unfold ab, G in *; lra).
  destruct (sub_close _ _ _ _ Hz HA) as (N & N1 & N2).
  { apply (ab_big _ _ Bn). lra. }
  pose proof (ab_close _ _ _ N2 Bn) as N3.
  assert (BN : ab N (2 * G)) by (unfold ab in *; nra).
  assert (Hne : ~ - s == 0) by lra.
  assert (BQ : ab (N / - s) (2 * G * pw 100)).
  { assert (E : N / - s == - N * / s) by (field; lra). rewrite E. apply ab_mul; [unfold ab in *; lra|].
    assert (Hi : 0 < / s) by (apply Qinv_lt_0_compat; exact Hs0).
    assert (/ s <= pw 100).
    { assert (Eo : pw 100 * pw (-100) == 1) by reflexivity. assert (s * / s == 1) by (field; lra). nra. }
    unfold ab. lra. }
  destruct (div_close _ _ _ _ N1 HT Hne) as (q & Q1 & Q2).
  { apply (ab_big _ _ BQ). assert (2 * pw 100 * pw 100 <= pw 900) by (vm_compute; discriminate). pose proof (pw_pos 100). nra. }
  assert (Q3 : ab (q * s - (A - z)) (8 * (u * G))).
  { unfold close in Q2. apply ab_abs in Q2.
    assert (E1 : Qabs (N / - s) == Qabs N * / s).
    { assert (E : N / - s == - N * / s) by (field; lra). rewrite E, Qabs_Qmult, Qabs_opp, (Qabs_pos (/ s)); [reflexivity|].
      apply Qlt_le_weak, Qinv_lt_0_compat, Hs0. }
    rewrite E1 in Q2.
    assert (BN' : Qabs N <= 2 * G) by (apply ab_abs; exact BN).
    assert (Q4 : ab (q * s + N) (u * (2 * G) + eta * s)).
    { assert (E2 : q * s + N == (q - N / - s) * s) by (field; lra). rewrite E2.
      assert (E3 : (u * (Qabs N * / s) + eta) * s == u * Qabs N + eta * s) by (field; lra).
      assert (B3 : ab ((q - N / - s) * s) ((u * (Qabs N * / s) + eta) * s)) by (apply ab_mul; [exact Q2|unfold ab; lra]).
      rewrite E3 in B3. assert (u * Qabs N <= u * (2 * G)) by nra. unfold ab in *; lra. }
    assert (eta * s <= u * G * (1#1000)).
    { assert (eta * s <= eta * G) by nra. assert (eta <= u * (1#1000)) by (vm_compute; discriminate). nra. }
    unfold ab in *. lra. }
  destruct (arange64_count start stop step q Q1) as (n & En & Hlt & Hge).
  rewrite En. rewrite map_length, seq_length. split.
  - intros i x Hx. apply nth_map_seq in Hx. destruct Hx as [Hi ->]. cbn [Nat.add].
    specialize (Hlt i Hi). pose proof (kq_nonneg i) as Hk0.
    assert (Hks : kq i * s < q * s) by nra.
    assert (HkG : kq i * s <= 2 * G) by (unfold ab, G in *; nra).
    destruct (elem64_near start step A (- s) i (a + s) s) as (X & X1 & X2).
    + exact HA.
    + exact HT.
    + unfold ab in *; lra.
    + unfold ab; lra.
    + lra.
    + assert (pw (-400) <= pw (-100)) by (apply pw_le; lia). lra.
    + assert (pw 100 <= pw 400) by (apply pw_le; lia). unfold G in *; lra.
    + assert (Hk1 : kq i * pw (-100) <= 2 * pw 100) by nra.
      assert (2 * pw 100 <= pw 400 * pw (-100)) by (vm_compute; discriminate). nra.
    + exists X. split; [exact X1|]. split.
      * assert (E : A + kq i * - s == A - kq i * s) by ring. rewrite E in X2. exact X2.
      * unfold ab in *. lra.
  - unfold ab in *. nra.
Qed.

(** An ascending one. *)
Lemma arange64_up start stop step A s z a :
  stands start A -> stands step s -> stands stop z -> ab A a -> 0 <= a -> pw (-100) <= s -> a + s + Qabs z <= pw 100 ->
  (forall i x, nth_error (arange64 start stop step) i = Some x ->
     exists X, stands x X /\ ab (X - (A + kq i * s)) (16 * u * (kq i + 1) * (a + s)) /\ A + kq i * s < z + 8 * u * (a + s + Qabs z)) /\
  z - (A + kq (length (arange64 start stop step)) * s) <= 8 * u * (a + s + Qabs z).
Proof.
  intros HA HT Hz BA Ha0 Hs Hm.
  destruct u_small as [U0 U1]. pose proof (pw_pos (-1075)) as H0. fold eta in H0.
  pose proof (pw_pos (-100)) as H100. set (zz := Qabs z) in *.
  assert (Bz : ab z zz) by (apply ab_abs; unfold zz; lra).
  assert (Hzz : 0 <= zz) by (unfold zz; apply Qabs_nonneg).
  set (G := a + s + zz) in *.
  assert (Hs0 : 0 < s) by lra. assert (HsG : s <= G) by (unfold G; lra). assert (HG : 0 < G) by lra.
  assert (Heta : eta <= u * s * (1#1000000)).
  { apply Qle_trans with (u * pw (-100) * (1#1000000)); [vm_compute; discriminate|]. nra. }
  assert (HusG : u * s <= u * G) by nra.
  assert (HuG : 0 < u * G) by nra. assert (HuuG : u * (u * G) <= (1#1000000) * (u * G)) by nra.
  assert (HuG1 : u * G <= (1#1000000) * G) by nra.
  assert (Hbig : 100 * pw 100 <= pw 900) by (vm_compute; discriminate).
  (* the length over the step *)
  assert (Bn : ab (z - A) G) by (unfold ab, G in *; lra).
  destruct (sub_close _ _ _ _ Hz HA) as (N & N1 & N2).
  { apply (ab_big _ _ Bn). lra. }
  pose proof (ab_close _ _ _ N2 Bn) as N3.
  assert (BN : ab N (2 * G)) by (unfold ab in *; nra).
  assert (Hne : ~ s == 0) by lra.
  assert (BQ : ab (N / s) (2 * G * pw 100)).
  { assert (E : N / s == N * / s) by (field; lra). rewrite E. apply ab_mul; [unfold ab in *; lra|].
    assert (Hi : 0 < / s) by (apply Qinv_lt_0_compat; exact Hs0).
    assert (/ s <= pw 100).
    { assert (Eo : pw 100 * pw (-100) == 1) by reflexivity. assert (s * / s == 1) by (field; lra). nra. }
    unfold ab. lra. }
  destruct (div_close _ _ _ _ N1 HT Hne) as (q & Q1 & Q2).
  { apply (ab_big _ _ BQ). assert (2 * pw 100 * pw 100 <= pw 900) by (vm_compute; discriminate). pose proof (pw_pos 100). nra. }
  assert (Q3 : ab (q * s - (z - A)) (8 * (u * G))).
  { unfold close in Q2. apply ab_abs in Q2.
    assert (E1 : Qabs (N / s) == Qabs N * / s).
    { assert (E : N / s == N * / s) by (field; lra). rewrite E, Qabs_Qmult, (Qabs_pos (/ s)); [reflexivity|].
      apply Qlt_le_weak, Qinv_lt_0_compat, Hs0. }
    rewrite E1 in Q2.
    assert (BN' : Qabs N <= 2 * G) by (apply ab_abs; exact BN).
    assert (Q4 : ab (q * s - N) (u * (2 * G) + eta * s)).
    { assert (E2 : q * s - N == (q - N / s) * s) by (field; lra). rewrite E2.
      assert (E3 : (u * (Qabs N * / s) + eta) * s == u * Qabs N + eta * s) by (field; lra).
      assert (B3 : ab ((q - N / s) * s) ((u * (Qabs N * / s) + eta) * s)) by (apply ab_mul; [exact Q2|unfold ab; lra]).
      rewrite E3 in B3. assert (u * Qabs N <= u * (2 * G)) by nra. unfold ab in *; lra. }
    assert (eta * s <= u * G * (1#1000)).
    { assert (eta * s <= eta * G) by nra. assert (eta <= u * (1#1000)) by (vm_compute; discriminate). nra. }
    unfold ab in *. lra. }
  destruct (arange64_count start stop step q Q1) as (n & En & Hlt & Hge).
  rewrite En. rewrite map_length, seq_length. split.
  - intros i x Hx. apply nth_map_seq in Hx. destruct Hx as [Hi ->]. cbn [Nat.add].
    specialize (Hlt i Hi). pose proof (kq_nonneg i) as Hk0.
    assert (Hks : kq i * s < q * s) by nra.
    assert (HkG : kq i * s <= 2 * G) by (unfold ab, G in *; nra).
    destruct (elem64_near start step A s i (a + s) s) as (X & X1 & X2).
    + exact HA.
    + exact HT.
    + unfold ab in *; lra.
    + unfold ab; lra.
    + lra.
    + assert (pw (-400) <= pw (-100)) by (apply pw_le; lia). lra.
    + assert (pw 100 <= pw 400) by (apply pw_le; lia). unfold G in *; lra.
    + assert (Hk1 : kq i * pw (-100) <= 2 * pw 100) by nra.
      assert (2 * pw 100 <= pw 400 * pw (-100)) by (vm_compute; discriminate). nra.
    + exists X. split; [exact X1|]. split.
      * exact X2.
      * unfold ab in *. lra.
  - unfold ab in *. nra.
Qed.

(** Steps below a start [D], the first one being rounded. *)
Lemma descending64_near st step depth A D s z :
  stands st A -> ab (A - (D - s)) (2 * (u * (Qabs D + s))) -> stands step (- s) -> stands depth z ->
  pw (-100) <= s -> Qabs D + s + Qabs z <= pw 98 ->
  (forall i x, nth_error (arange64 st depth step) i = Some x ->
     exists X, stands x X /\ ab (X - (D - kq (S i) * s)) (pw (-47) * kq (S i) * (Qabs D + s)) /\
       z - pw (-47) * (Qabs D + s + Qabs z) < D - kq (S i) * s) /\
  D - kq (length (arange64 st depth step)) * s - z <= s + pw (-47) * (Qabs D + s + Qabs z).
Proof.
  intros A1 A2 Hs Hz Ls Lm.
  destruct u_small as [U0 U1]. pose proof (pw_pos (-1075)) as H0. fold eta in H0.
  pose proof (pw_pos (-100)) as H100. set (dd := Qabs D) in *. set (zz := Qabs z) in *.
  assert (Bd : ab D dd) by (apply ab_abs; unfold dd; lra).
  assert (Hdd : 0 <= dd) by (unfold dd; apply Qabs_nonneg). assert (Hzz : 0 <= zz) by (unfold zz; apply Qabs_nonneg).
  assert (Heta : eta <= u * s * (1#1000000)).
  { apply Qle_trans with (u * pw (-100) * (1#1000000)); [vm_compute; discriminate|]. nra. }
  set (w := dd + s). assert (Hw : 0 < w) by (unfold w; lra). assert (Hsw : s <= w) by (unfold w; lra).
  assert (Husw : u * s <= u * w) by nra. assert (Huw : 0 < u * w) by nra. assert (Huuw : u * (u * w) <= (1#1000000) * (u * w)) by nra.
  assert (Huw1 : u * w <= (1#1000000) * w) by nra.
  change (dd + s) with w in A2.
  assert (E47 : pw (-47) == 64 * u) by reflexivity.
  assert (E99 : pw 100 == 4 * pw 98) by reflexivity.
  destruct (arange64_down st depth step A s z (w + 2 * (u * w))) as [P1 P2].
  - exact A1.
  - exact Hs.
  - exact Hz.
  - unfold ab, w in *; lra.
  - lra.
  - exact Ls.
  - fold zz. rewrite E99. unfold w in *; lra.
  - fold zz in P1, P2.
    assert (HG : 8 * u * (w + 2 * (u * w) + s + zz) <= 17 * (u * w) + 8 * (u * zz)).
    { assert (E : 8 * u * (w + 2 * (u * w) + s + zz) == 8 * (u * w) + 16 * (u * (u * w)) + 8 * (u * s) + 8 * (u * zz)) by ring.
      rewrite E. lra. }
    assert (Huz : 0 <= u * zz) by nra.
    assert (EG : pw (-47) * (w + zz) == 64 * (u * w) + 64 * (u * zz)) by (rewrite E47; ring).
    split.
    + intros i x Hx. destruct (P1 i x Hx) as (X & X1 & X2 & X3). exists X. split; [exact X1|].
      pose proof (kq_nonneg i) as Hk. pose proof (kq_S i) as Ek. rewrite Ek.
      assert (EX : D - (kq i + 1) * s == D - s - kq i * s) by ring.
      split.
      * assert (E1 : pw (-47) * (kq i + 1) * w == 64 * (kq i * (u * w)) + 64 * (u * w)) by (rewrite E47; ring).
        assert (E2 : 16 * u * (kq i + 1) * (w + 2 * (u * w) + s) <= 40 * (kq i * (u * w)) + 40 * (u * w)).
        { assert (E : 16 * u * (kq i + 1) * (w + 2 * (u * w) + s) ==
            (kq i + 1) * (16 * (u * w) + 32 * (u * (u * w)) + 16 * (u * s))) by ring.
          rewrite E. nra. }
        assert (0 <= kq i * (u * w)) by nra. unfold ab in *. rewrite E1, EX. lra.
      * rewrite EG, EX. unfold ab in *. lra.
    + rewrite EG. unfold ab in *. lra.
Qed.

(** pocket.py:130-139 *)
Theorem step_depths64_near start_depth stepdown depth D s z :
  start_is start_depth D -> stands stepdown s -> stands depth z ->
  pw (-100) <= s -> Qabs D + s + Qabs z <= pw 98 ->
  (forall i x, nth_error (step_depths64 start_depth stepdown depth) i = Some x ->
     exists X, stands x X /\ ab (X - (D - kq (S i) * s)) (pw (-47) * kq (S i) * (Qabs D + s)) /\
       z - pw (-47) * (Qabs D + s + Qabs z) < D - kq (S i) * s) /\
  D - kq (length (step_depths64 start_depth stepdown depth)) * s - z <= s + pw (-47) * (Qabs D + s + Qabs z).
Proof.
  intros HD Hs Hz Ls Lm. unfold step_depths64.
  assert (H0 : 0 <= Qabs D) by apply Qabs_nonneg. assert (Bd : ab D (Qabs D)) by (apply ab_abs; apply Qle_refl).
  pose proof (Qabs_nonneg z) as Hzz. pose proof (pw_pos (-100)) as H100. destruct u_small as [U0 U1].
  assert (He : eta <= u * s).
  { apply Qle_trans with (u * pw (-100)); [vm_compute; discriminate|]. apply Qmult_le_l; assumption. }
  set (st := match start_depth with None => f64_opp stepdown | Some d => f64_sub d stepdown end).
  assert (HA : exists A, stands st A /\ ab (A - (D - s)) (2 * (u * (Qabs D + s)))).
  { assert (H1 : 0 <= u * (Qabs D + s)) by (apply Qmult_le_0_compat; lra).
    assert (H2 : u * s <= u * (Qabs D + s)) by nra.
    unfold st. destruct start_depth as [d|]; cbn [start_is] in HD.
    - assert (B : ab (D - s) (Qabs D + s)) by (unfold ab in *; lra).
      destruct (sub_close _ _ _ _ HD Hs) as (A & A1 & A2).
      { apply (ab_big _ _ B). assert (pw 98 <= pw 900) by (apply pw_le; lia). lra. }
      exists A. split; [exact A1|]. pose proof (ab_close _ _ _ A2 B) as A3. unfold ab in *; lra.
    - exists (- s). split; [apply stands_opp; exact Hs|]. unfold ab. lra. }
  destruct HA as (A & A1 & A2).
  apply (descending64_near st (f64_opp stepdown) depth A); try assumption. apply stands_opp. exact Hs.
Qed.
