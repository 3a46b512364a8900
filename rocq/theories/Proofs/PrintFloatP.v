(** Printing of doubles. *)
From Verif Require Import Base.Str Spec.Gcode Spec.Blocks Model.Address Model.Float Model.FloatSteps Model.PrintFloat Spec.Doubles Spec.Decimals
  Proofs.RoundP Proofs.TextP Proofs.CommandP Proofs.TextThmP Proofs.MotionP.
From Coq Require Import ZArith NArith QArith Qabs Qround SpecFloat Lia Lqa.
Local Open Scope Z_scope.

(** ** Trailing zeros do not show *)
Lemma print_N_fuel_acc f : forall n acc, print_N_fuel f n acc = (print_N_fuel f n "" ++ acc)%string.
Proof.
  induction f as [|f IH]; intros n acc; [reflexivity|]. cbn [print_N_fuel]. destruct (N.div n 10 =? 0)%N; [reflexivity|].
  rewrite IH, (IH _ (String _ "")). rewrite app_assoc_s. reflexivity.
Qed.
Lemma print_N_fuel_enough f : forall f' n acc, (n < p10 (S f))%N -> (n < p10 (S f'))%N ->
  print_N_fuel (S f) n acc = print_N_fuel (S f') n acc.
Proof.
  induction f as [|f IH]; intros f' n acc H H'.
  - assert (n < 10)%N by (unfold p10 in H; simpl in H; lia). cbn [print_N_fuel]. rewrite N.div_small by assumption. reflexivity.
  - change (print_N_fuel (S (S f)) n acc) with (let acc' := String (digit_char (N.modulo n 10)) acc in
      if N.eqb (N.div n 10) 0 then acc' else print_N_fuel (S f) (N.div n 10) acc').
    destruct f' as [|f'].
    + assert (n < 10)%N by (unfold p10 in H'; simpl in H'; lia). cbv zeta. cbn [print_N_fuel]. rewrite N.div_small by assumption. reflexivity.
    + change (print_N_fuel (S (S f')) n acc) with (let acc' := String (digit_char (N.modulo n 10)) acc in
        if N.eqb (N.div n 10) 0 then acc' else print_N_fuel (S f') (N.div n 10) acc').
      cbv zeta. destruct (N.div n 10 =? 0)%N; [reflexivity|].
      apply IH; (apply N.div_lt_upper_bound; [lia|]); [rewrite p10_S in H; exact H|rewrite p10_S in H'; exact H'].
Qed.
Lemma print_N_10 n : (0 < n)%N -> print_N (10 * n) = (print_N n ++ "0")%string.
Proof.
  intros H. unfold print_N at 1.
  rewrite (print_N_fuel_enough (N.size_nat (10 * n)) (S (N.size_nat n)));
    [|apply size_nat_bound|rewrite p10_S; pose proof (size_nat_bound n); lia].
  change (print_N_fuel (S (S (N.size_nat n))) (10 * n) "") with
    (if N.eqb (N.div (10 * n) 10) 0 then String (digit_char (N.modulo (10 * n) 10)) ""
     else print_N_fuel (S (N.size_nat n)) (N.div (10 * n) 10) (String (digit_char (N.modulo (10 * n) 10)) "")).
  rewrite (N.mul_comm 10 n), N.div_mul, N.mod_mul by lia.
  destruct (N.eqb_spec n 0) as [->|_]; [lia|]. rewrite print_N_fuel_acc. reflexivity.
Qed.
Lemma strip_zeros_0 s : strip_zeros (s ++ "0") = strip_zeros s.
Proof.
  induction s as [|c s IH]; [reflexivity|]. cbn [append strip_zeros]. rewrite IH. reflexivity.
Qed.
Lemma repr_float_10 k p : k <> 0 -> repr_float (10 * k) (S p) = repr_float k p.
Proof.
  intros H. assert (P : forall n, (0 < n)%N -> repr_float_pos (10 * n) (S p) = repr_float_pos n p).
  { intros n Hn. unfold repr_float_pos. rewrite (print_N_10 n Hn), strip_zeros_0, length_app_s. cbn [String.length].
    replace (Z.of_nat (String.length (print_N n) + 1) - Z.of_nat (S p)) with (Z.of_nat (String.length (print_N n)) - Z.of_nat p) by lia.
    reflexivity. }
  unfold repr_float. destruct (Z.eqb_spec (10 * k) 0); [lia|]. destruct (Z.eqb_spec k 0); [lia|].
  destruct (Z.ltb_spec (10 * k) 0), (Z.ltb_spec k 0); try lia.
  - replace (Z.to_N (- (10 * k))) with (10 * Z.to_N (- k))%N by lia. rewrite P by lia. reflexivity.
  - replace (Z.to_N (10 * k)) with (10 * Z.to_N k)%N by lia. apply P. lia.
Qed.
Lemma repr_float_zeros k p j : k <> 0 -> repr_float (k * pow10 j) (j + p) = repr_float k p.
Proof.
  intros H. induction j as [|j IH]; [cbn [Nat.add]; f_equal; unfold pow10; cbn; lia|].
  rewrite pow10_S. replace (k * (10 * pow10 j)) with (10 * (k * pow10 j)) by ring.
  cbn [Nat.add]. rewrite repr_float_10; [exact IH|]. pose proof (pow10_pos j). nia.
Qed.
Lemma repr_float_same k p k' p' : k <> 0 -> k * pow10 p' = k' * pow10 p -> repr_float k p = repr_float k' p'.
Proof.
  intros H E. pose proof (pow10_pos p). pose proof (pow10_pos p').
  assert (H' : k' <> 0). { intros ->. nia. }
  rewrite <- (repr_float_zeros k p p' H), <- (repr_float_zeros k' p' p H'). rewrite E. f_equal. lia.
Qed.

(** ** Decimals *)
Local Open Scope Q_scope.
Lemma ten_pos p : 0 < inject_Z (10 ^ Z.of_nat p).
Proof. change (inject_Z 0 < inject_Z (pow10 p)). rewrite <- Zlt_Qlt. apply pow10_pos. Qed.
Lemma decimal_cross k p k' p' : decimal k p == decimal k' p' <-> (k * pow10 p' = k' * pow10 p)%Z.
Proof.
  unfold decimal. pose proof (ten_pos p) as P. pose proof (ten_pos p') as P'.
  fold (pow10 p) (pow10 p') in *.
  assert (E : inject_Z k / inject_Z (pow10 p) == inject_Z k' / inject_Z (pow10 p') <->
              inject_Z k * inject_Z (pow10 p') == inject_Z k' * inject_Z (pow10 p)).
  { split; intros H.
    - setoid_replace (inject_Z k * inject_Z (pow10 p')) with (inject_Z k / inject_Z (pow10 p) * (inject_Z (pow10 p) * inject_Z (pow10 p'))) by (field; lra).
      rewrite H. field. lra.
    - setoid_replace (inject_Z k / inject_Z (pow10 p)) with (inject_Z k * inject_Z (pow10 p') / (inject_Z (pow10 p) * inject_Z (pow10 p'))) by (field; split; lra).
      rewrite H. field. split; lra. }
  rewrite E. rewrite <- !inject_Z_mult. split; [intros H; apply inject_Z_injective, H|intros ->; reflexivity].
Qed.
Lemma decimal64_close s k p : Qabs (decimal k p) < big ->
  exists Y, stands (decimal64 s k p) Y /\ close (decimal k p) Y.
Proof.
  intros H.
  assert (T : stands (S754_finite false (Z.to_pos (pow10 p)) 0) (inject_Z (pow10 p))).
  { eapply stands_compat; [|apply stands_finite]. cbn [signed]. rewrite Z2Pos.id by apply pow10_pos. rewrite pw_0. ring. }
  assert (TN : ~ inject_Z (pow10 p) == 0) by (pose proof (ten_pos p) as P; unfold pow10; lra).
  destruct k as [|m|m]; cbn [decimal64].
  - exists 0. split; [apply stands_zero|]. apply close_refl. unfold decimal. field. pose proof (ten_pos p). lra.
  - assert (S1 : stands (S754_finite false m 0) (inject_Z (Zpos m))).
    { eapply stands_compat; [|apply stands_finite]. cbn [signed]. rewrite pw_0. ring. }
    exact (div_close _ _ _ _ S1 T TN H).
  - assert (S1 : stands (S754_finite true m 0) (inject_Z (Zneg m))).
    { eapply stands_compat; [|apply stands_finite]. cbn [signed]. rewrite pw_0. change (Zneg m) with (- Zpos m)%Z. rewrite inject_Z_opp. ring. }
    exact (div_close _ _ _ _ S1 T TN H).
Qed.

(** Decimals with few digits lie apart. *)
Lemma gap_Z m b : (Z.abs m < 10 ^ 15)%Z -> m <> b -> (Z.max (Z.abs m) (Z.abs b) <= 2 ^ 51 * Z.abs (m - b))%Z.
Proof. change (10 ^ 15)%Z with 1000000000000000%Z. change (2 ^ 51)%Z with 2251799813685248%Z. lia. Qed.
Lemma Qabs_inject z : Qabs (inject_Z z) == inject_Z (Z.abs z).
Proof. reflexivity. Qed.
(** Two integers over the same power of ten, the first with at most 15 digits and finer zeros. *)
Lemma gap_scaled m b (c : Q) : (Z.abs m < 10 ^ 15)%Z -> m <> b -> 0 < c ->
  let X := inject_Z m * c in let Y := inject_Z b * c in
  Qabs X <= pw 51 * Qabs (X - Y) /\ Qabs Y <= pw 51 * Qabs (X - Y).
Proof.
  intros Hm Hb Hc X Y. pose proof (gap_Z m b Hm Hb) as G.
  assert (AX : Qabs X == inject_Z (Z.abs m) * c). { unfold X. rewrite Qabs_Qmult, Qabs_inject, (Qabs_pos c) by lra. reflexivity. }
  assert (AY : Qabs Y == inject_Z (Z.abs b) * c). { unfold Y. rewrite Qabs_Qmult, Qabs_inject, (Qabs_pos c) by lra. reflexivity. }
  assert (AD : Qabs (X - Y) == inject_Z (Z.abs (m - b)) * c).
  { assert (E : X - Y == inject_Z (m - b) * c) by (unfold X, Y, Zminus; rewrite inject_Z_plus, inject_Z_opp; ring).
    rewrite E, Qabs_Qmult, Qabs_inject, (Qabs_pos c) by lra. reflexivity. }
  rewrite AX, AY, AD. rewrite (pw_nat 51) by lia.
  rewrite Qmult_assoc, <- inject_Z_mult. split; (apply Qmult_le_compat_r; [|lra]); rewrite <- Zle_Qle; lia.
Qed.
Lemma ten_split a b : inject_Z (10 ^ Z.of_nat (a + b)) == inject_Z (10 ^ Z.of_nat a) * inject_Z (10 ^ Z.of_nat b).
Proof. rewrite <- inject_Z_mult, Nat2Z.inj_add, Z.pow_add_r by lia. reflexivity. Qed.
(** [m * 10^j / 10^p] and [m' * 10^j' / 10^p']. *)
Lemma gap_decimals k p k' p' : fits k 15 -> fits k' 15 -> ~ decimal k p == decimal k' p' ->
  Qabs (decimal k p) <= pw 51 * Qabs (decimal k p - decimal k' p') /\
  Qabs (decimal k' p') <= pw 51 * Qabs (decimal k p - decimal k' p').
Proof.
  intros (m & j & -> & Hm) (m' & j' & -> & Hm') NE. change (Z.of_nat 15) with 15%Z in *.
  assert (D : forall m j p q, decimal (m * 10 ^ Z.of_nat j) p == inject_Z (m * 10 ^ Z.of_nat (j + q)) / inject_Z (10 ^ Z.of_nat (p + q))).
  { intros. unfold decimal. rewrite !inject_Z_mult, !ten_split. pose proof (ten_pos p0). pose proof (ten_pos q). field. split; lra. }
  (* common denominator p + p' *)
  assert (D1 := D m j p p'). assert (D2 : decimal (m' * 10 ^ Z.of_nat j') p' == inject_Z (m' * 10 ^ Z.of_nat (j' + p)) / inject_Z (10 ^ Z.of_nat (p + p'))).
  { rewrite (D m' j' p' p). rewrite (Nat.add_comm p' p). reflexivity. }
  set (A := (j + p')%nat) in *. set (B := (j' + p)%nat) in *. pose proof (ten_pos (p + p')) as TP.
  set (T := inject_Z (10 ^ Z.of_nat (p + p'))) in *.
  assert (S : forall a b m m', (a <= b)%nat -> (Z.abs m < 10 ^ 15)%Z -> ~ inject_Z (m * 10 ^ Z.of_nat a) / T == inject_Z (m' * 10 ^ Z.of_nat b) / T ->
    let X := inject_Z (m * 10 ^ Z.of_nat a) / T in let Y := inject_Z (m' * 10 ^ Z.of_nat b) / T in
    Qabs X <= pw 51 * Qabs (X - Y) /\ Qabs Y <= pw 51 * Qabs (X - Y)).
  { intros a b n n' L Hn N X Y.
    pose proof (ten_pos a) as TA. set (c := inject_Z (10 ^ Z.of_nat a) / T).
    assert (Hc : 0 < c). { unfold c. apply Qlt_shift_div_l; [exact TP|]. lra. }
    assert (EX : X == inject_Z n * c). { unfold X, c. rewrite inject_Z_mult. field. lra. }
    assert (EY : Y == inject_Z (n' * 10 ^ Z.of_nat (b - a)) * c).
    { unfold Y, c. replace b with (a + (b - a))%nat at 1 by lia. rewrite !inject_Z_mult, ten_split. field. lra. }
    rewrite EX, EY. apply gap_scaled; [exact Hn| |exact Hc]. intros E. apply N. fold X Y. rewrite EX, EY, E. reflexivity. }
  rewrite D1, D2 in *. destruct (Nat.le_ge_cases A B) as [L|L].
  - apply S; assumption.
  - destruct (S B A m' m L Hm') as [S1 S2]; [intros E; apply NE; symmetry; exact E|].
    assert (E : Qabs (inject_Z (m * 10 ^ Z.of_nat A) / T - inject_Z (m' * 10 ^ Z.of_nat B) / T) ==
                Qabs (inject_Z (m' * 10 ^ Z.of_nat B) / T - inject_Z (m * 10 ^ Z.of_nat A) / T)) by (rewrite Qabs_Qminus; reflexivity).
    rewrite E. split; assumption.
Qed.

(** Different decimals with few digits are different doubles. *)
Lemma ten_200 p : (p <= 200)%nat -> inject_Z (10 ^ Z.of_nat p) <= pw 700.
Proof.
  intros H. rewrite (pw_nat 700) by lia. rewrite <- Zle_Qle. transitivity (10 ^ 200)%Z; [apply Z.pow_le_mono_r; lia|].
  vm_compute. discriminate.
Qed.
Lemma decimal_low k p : k <> 0%Z -> (p <= 200)%nat -> pw (-700) <= Qabs (decimal k p).
Proof.
  intros H HP. unfold decimal. pose proof (ten_pos p) as T. pose proof (ten_200 p HP) as T2.
  assert (E : Qabs (inject_Z k / inject_Z (10 ^ Z.of_nat p)) == inject_Z (Z.abs k) / inject_Z (10 ^ Z.of_nat p)).
  { unfold Qdiv. rewrite Qabs_Qmult, Qabs_inject. rewrite (Qabs_pos (/ _)); [reflexivity|]. apply Qinv_le_0_compat. lra. }
  rewrite E. apply Qle_shift_div_l; [exact T|].
  assert (K : 1 <= inject_Z (Z.abs k)). { change 1 with (inject_Z 1). rewrite <- Zle_Qle. lia. }
  pose proof (pw_opp 700) as O. change (- (700))%Z with (-700)%Z in O. pose proof (pw_pos (-700)) as P.
  assert (M : pw (-700) * inject_Z (10 ^ Z.of_nat p) <= pw (-700) * pw 700).
  { rewrite !(Qmult_comm (pw (-700))). apply Qmult_le_compat_r; lra. }
  lra.
Qed.
Lemma decimals_differ k p k' p' y : k <> 0%Z -> (p <= 200)%nat -> fits k 15 -> fits k' 15 ->
  reads_as k p y -> reads_as k' p' y -> decimal k p == decimal k' p'.
Proof.
  intros NZ HP F F' (B & s & Y & H1 & H2) (B' & s' & Y' & H1' & H2').
  pose proof (stands_unique _ _ _ H2 H2') as EY.
  destruct (decimal64_close s k p B) as (V & V1 & V2). destruct (decimal64_close s' k' p' B') as (V' & V1' & V2').
  pose proof (stands_unique _ _ _ H1 V1) as E1. pose proof (stands_unique _ _ _ H1' V1') as E1'.
  destruct (Qeq_dec (decimal k p) (decimal k' p')) as [E|NE]; [exact E|exfalso].
  destruct (gap_decimals k p k' p' F F' NE) as [G1 G2].
  pose proof (decimal_low k p NZ HP) as LO.
  set (a := decimal k p) in *. set (b := decimal k' p') in *.
  assert (VV : V == V') by (rewrite <- E1, <- E1'; exact EY).
  unfold close in V2, V2'. rewrite <- VV in V2'.
  assert (TR : Qabs (a - b) <= Qabs (V - a) + Qabs (V - b)).
  { setoid_replace (a - b) with ((V - b) - (V - a)) by ring. unfold Qminus at 1.
    eapply Qle_trans; [apply Qabs_triangle|]. rewrite Qabs_opp. lra. }
  set (d := Qabs (a - b)) in *. set (ka := Qabs a) in *. set (kb := Qabs b) in *.
  assert (U : u == (1#4) * pw (-51)). { unfold u. change (-53)%Z with (-51 - 1 - 1)%Z. rewrite !pw_half. ring. }
  pose proof (pw_opp 51) as O51. change (- (51))%Z with (-51)%Z in O51.
  assert (UA : u * ka <= (1#4) * d).
  { rewrite U. assert (pw (-51) * ka <= pw (-51) * (pw 51 * d)). { rewrite !(Qmult_comm (pw (-51))). apply Qmult_le_compat_r; [exact G1|apply Qlt_le_weak, pw_pos]. }
    setoid_replace (pw (-51) * (pw 51 * d)) with d in H by (rewrite Qmult_assoc, O51; ring). lra. }
  assert (UB : u * kb <= (1#4) * d).
  { rewrite U. assert (pw (-51) * kb <= pw (-51) * (pw 51 * d)). { rewrite !(Qmult_comm (pw (-51))). apply Qmult_le_compat_r; [exact G2|apply Qlt_le_weak, pw_pos]. }
    setoid_replace (pw (-51) * (pw 51 * d)) with d in H by (rewrite Qmult_assoc, O51; ring). lra. }
  assert (DD : d <= 4 * eta) by lra.
  assert (K1 : ka <= pw 51 * (4 * eta)). { eapply Qle_trans; [exact G1|]. rewrite !(Qmult_comm (pw 51)). apply Qmult_le_compat_r; [exact DD|apply Qlt_le_weak, pw_pos]. }
  assert (K2 : pw 51 * (4 * eta) < pw (-700)).
  { unfold eta. setoid_replace (pw 51 * (4 * pw (-1075))) with (pw (-1022)).
    - assert (pw (-1022) < pw (-1021)). { change (-1022)%Z with (-1021 - 1)%Z. rewrite pw_half. pose proof (pw_pos (-1021)). lra. }
      eapply Qlt_le_trans; [exact H|]. apply pw_le. lia.
    - change (-1022)%Z with (51 + (2 + -1075))%Z. rewrite !pw_add. setoid_replace (pw 2) with 4 by reflexivity. reflexivity. }
  lra.
Qed.

(** ** Integers are exact *)
Lemma round_exact s m e n0 e0 : (0 < m)%Z -> inject_Z m * pw e == inject_Z n0 * pw e0 -> (0 <= n0 < 2 ^ 53)%Z -> (-1074 <= e0)%Z ->
  inject_Z n0 * pw e0 < big ->
  stands (binary_round_aux 53 1024 s m e loc_Exact) (signed s (inject_Z n0 * pw e0)).
Proof.
  intros Hm HX Hn0 He0 Hbig. set (X := inject_Z n0 * pw e0) in *.
  assert (HX0 : 0 < X). { rewrite <- HX. pose proof (pw_pos e). assert (0 < inject_Z m) by (change 0 with (inject_Z 0); rewrite <- Zlt_Qlt; lia). nra. }
  assert (Hl : located (shr_record_of_loc m loc_Exact) (X * pw (- e))).
  { split; [cbn; lia|]. cbn. rewrite <- HX. pose proof (pw_opp e) as O. rewrite <- Qmult_assoc, (Qmult_comm (pw e)), O. ring. }
  unfold binary_round_aux. unfold shr_fexp at 1.
  set (k := (fexp 53 1024 (Zdigits2 m + e) - e)%Z).
  destruct (located_shr _ e k X Hl) as [He' Hl'].
  destruct (shr (shr_record_of_loc m loc_Exact) e k) as [r' e'] eqn:Es. cbn [fst snd] in *.
  pose proof (pw_pos e') as Hp'. pose proof (pw_opp e') as Ho'.
  destruct (Zdigits2_lower m Hm) as [D1 D2]. destruct (Zdigits2_upper m ltac:(lia)) as [D3 _].
  assert (XL : pw (Zdigits2 m - 1 + e) <= X).
  { rewrite <- HX, pw_add. apply Qmult_le_compat_r; [|apply Qlt_le_weak, pw_pos]. rewrite (pw_nat (Zdigits2 m - 1)) by lia. rewrite <- Zle_Qle. exact D1. }
  assert (XU : X < pw (Zdigits2 m + e)).
  { rewrite <- HX, pw_add, (pw_nat (Zdigits2 m)) by lia. apply Qmult_lt_compat_r; [apply pw_pos|]. rewrite <- Zlt_Qlt. exact D3. }
  (* the shifted value is an integer *)
  assert (INT : exists z, X * pw (- e') == inject_Z z).
  { destruct (Z_le_gt_dec k 0) as [Hk|Hk].
    - assert (Ee : e' = e) by lia. exists m. rewrite Ee, <- HX. pose proof (pw_opp e) as O. rewrite <- Qmult_assoc, (Qmult_comm (pw e)), O. ring.
    - assert (Ef : e' = fexp 53 1024 (Zdigits2 m + e)) by lia.
      assert (LE : (e' <= e0)%Z).
      { destruct (fexp_or (Zdigits2 m + e)) as [Ef'|Ef']; rewrite Ef' in Ef; [|lia].
        assert (X < pw (53 + e0)).
        { unfold X. rewrite pw_add. apply Qmult_lt_compat_r; [apply pw_pos|]. rewrite (pw_nat 53) by lia. rewrite <- Zlt_Qlt. lia. }
        assert (L := Qle_lt_trans _ _ _ XL H). apply pw_lt_inv in L. lia. }
      exists (n0 * 2 ^ (e0 - e'))%Z. unfold X. rewrite inject_Z_mult, <- (pw_nat (e0 - e')) by lia.
      unfold Zminus. rewrite pw_add. ring. }
  destruct INT as [z Hz].
  assert (R : r' = Build_shr_record z false false).
  { destruct r' as [m' a b]. destruct Hl' as [M0 L]. cbn [shr_m shr_r shr_s] in *.
    destruct a, b; cbv zeta in L; rewrite ?Hz in L.
    - destruct L as [L1 L2]. exfalso.
      assert (A1 : (m' < z)%Z) by (rewrite Zlt_Qlt; lra).
      assert (A2 : (z < m' + 1)%Z) by (rewrite Zlt_Qlt, inject_Z_plus; change (inject_Z 1) with 1; lra). lia.
    - exfalso.
      assert (A1 : (m' < z)%Z) by (rewrite Zlt_Qlt; lra).
      assert (A2 : (z < m' + 1)%Z) by (rewrite Zlt_Qlt, inject_Z_plus; change (inject_Z 1) with 1; lra). lia.
    - destruct L as [L1 L2]. exfalso.
      assert (A1 : (m' < z)%Z) by (rewrite Zlt_Qlt; lra).
      assert (A2 : (z < m' + 1)%Z) by (rewrite Zlt_Qlt, inject_Z_plus; change (inject_Z 1) with 1; lra). lia.
    - apply (proj1 (inject_Z_injective _ _)) in L. subst. reflexivity. }
  subst r'. cbn [shr_m loc_of_shr_record round_nearest_even].
  assert (Hmin : (-1074 <= e')%Z) by (pose proof (fexp_ge (Zdigits2 m + e)); lia).
  assert (XZ : X == inject_Z z * pw e'). { rewrite <- Hz, <- Qmult_assoc, Ho'. ring. }
  assert (Hz0 : (0 < z)%Z).
  { rewrite Zlt_Qlt. change (inject_Z 0) with 0. rewrite <- Hz. pose proof (pw_pos (- e')). nra. }
  assert (Hz1 : (z < 2 ^ 53)%Z).
  { rewrite Zlt_Qlt, <- (pw_nat 53) by lia. rewrite <- Hz. apply Qlt_le_trans with (pw (Zdigits2 m + e) * pw (- e')).
    - apply Qmult_lt_compat_r; [apply pw_pos|exact XU].
    - rewrite <- pw_add. apply pw_le. pose proof (fexp_ge (Zdigits2 m + e)). lia. }
  rewrite (shr_fexp_small z e') by lia. cbn [shr_m]. destruct z as [|zp|zp]; [lia| |lia].
  assert (Le : (e' <= 1024 - 53)%Z).
  { assert (e' < 971)%Z; [|lia]. apply pw_lt_inv.
    assert (1 <= inject_Z (Zpos zp)) by (change 1 with (inject_Z 1); rewrite <- Zle_Qle; lia). unfold big in Hbig. nra. }
  apply Z.leb_le in Le. rewrite Le. eapply stands_compat; [|apply stands_finite]. destruct s; cbn [signed]; rewrite XZ; reflexivity.
Qed.

Lemma div_integer s m1 m2 N : Zpos m1 = (N * Zpos m2)%Z -> (N < 2 ^ 53)%Z ->
  stands (f64_div (S754_finite s m1 0) (S754_finite false m2 0)) (signed s (inject_Z N)).
Proof.
  intros E HN. assert (HN0 : (0 < N)%Z) by nia. unfold f64_div. cbn [SFdiv]. unfold SFdiv_core_binary. cbv zeta. rewrite xorb_false_r.
  set (e' := Z.min (fexp 53 1024 (Zdigits2 (Zpos m1) + 0 - (Zdigits2 (Zpos m2) + 0))) (0 - 0)).
  set (sh := (0 - 0 - e')%Z). assert (Hsh : (0 <= sh)%Z) by (unfold sh, e'; lia).
  assert (Em : match sh with Z0 => Zpos m1 | Zpos _ => Z.shiftl (Zpos m1) sh | Zneg _ => 0%Z end = (Zpos m1 * 2 ^ sh)%Z).
  { destruct sh as [|p|p]; [lia| |lia]. apply Z.shiftl_mul_pow2. lia. }
  rewrite Em. clear Em.
  pose proof (Z_div_mod (Zpos m1 * 2 ^ sh) (Zpos m2) ltac:(lia)) as Hdiv.
  destruct (Z.div_eucl (Zpos m1 * 2 ^ sh) (Zpos m2)) as [q r]. destruct Hdiv as [Hqr Hr].
  assert (QR : q = (N * 2 ^ sh)%Z /\ r = 0%Z).
  { rewrite E in Hqr. assert (Zpos m2 * (N * 2 ^ sh) = Zpos m2 * q + r)%Z by (rewrite <- Hqr; ring).
    assert (r = Zpos m2 * (N * 2 ^ sh - q))%Z by (rewrite Z.mul_sub_distr_l; lia).
    assert (N * 2 ^ sh - q = 0)%Z by nia. split; [lia|nia]. }
  destruct QR as [-> ->].
  assert (NL : new_location (Zpos m2) 0 = loc_Exact) by (unfold new_location, new_location_even, new_location_odd; destruct (Z.even (Zpos m2)); reflexivity).
  rewrite NL. pose proof (Z.pow_pos_nonneg 2 sh ltac:(lia) Hsh).
  eapply stands_compat; [|apply (round_exact s (N * 2 ^ sh) e' N 0)].
  - destruct s; cbn [signed]; rewrite pw_0; ring.
  - nia.
  - rewrite inject_Z_mult, <- (pw_nat sh) by exact Hsh. rewrite <- Qmult_assoc, <- pw_add. unfold sh. replace (0 - 0 - e' + e')%Z with 0%Z by lia. reflexivity.
  - lia.
  - lia.
  - rewrite pw_0, Qmult_1_r. apply Qlt_le_trans with (pw 53); [rewrite (pw_nat 53) by lia; rewrite <- Zlt_Qlt; exact HN|]. apply pw_le. lia.
Qed.
Lemma decimal64_integer s N p : (Z.abs N < 2 ^ 53)%Z -> stands (decimal64 s (N * pow10 p) p) (inject_Z N).
Proof.
  intros H. pose proof (pow10_pos p) as P. destruct (Z.eq_dec N 0) as [->|NZ]; [apply stands_zero|].
  destruct (N * pow10 p)%Z as [|m|m] eqn:E; [nia| |]; cbn [decimal64].
  - eapply stands_compat; [|apply (div_integer false m (Z.to_pos (pow10 p)) N)]; [reflexivity|rewrite Z2Pos.id by exact P; lia|lia].
  - eapply stands_compat; [|apply (div_integer true m (Z.to_pos (pow10 p)) (- N))]; [cbn [signed]; rewrite inject_Z_opp; ring| |lia].
    rewrite Z2Pos.id by exact P. rewrite Z.mul_opp_l, E. reflexivity.
Qed.

(** ** The text of a coordinate *)
Lemma fits_small k : (Z.abs k <= 10 ^ 15)%Z -> fits k 15.
Proof.
  intros H. destruct (Z.eq_dec (Z.abs k) (10 ^ 15)) as [E|E].
  - exists (Z.sgn k), 15%nat. split; [|change (10 ^ Z.of_nat 15)%Z with 1000000000000000%Z; lia].
    change (Z.of_nat 15) with 15%Z. rewrite <- E. pose proof (Z.sgn_abs k). lia.
  - exists k, 0%nat. split; [cbn; lia|]. change (Z.of_nat 15) with 15%Z. lia.
Qed.
Lemma ten_1 p : 1 <= inject_Z (10 ^ Z.of_nat p).
Proof. change 1 with (inject_Z 1). rewrite <- Zle_Qle. pose proof (pow10_pos p). unfold pow10 in *. lia. Qed.
Lemma decimal_small k p : (Z.abs k <= 10 ^ 15)%Z -> Qabs (decimal k p) < pw 971.
Proof.
  intros H. unfold decimal. pose proof (ten_1 p) as T.
  assert (E : Qabs (inject_Z k / inject_Z (10 ^ Z.of_nat p)) == inject_Z (Z.abs k) / inject_Z (10 ^ Z.of_nat p)).
  { unfold Qdiv. rewrite Qabs_Qmult, Qabs_inject. rewrite (Qabs_pos (/ _)); [reflexivity|]. apply Qinv_le_0_compat. lra. }
  rewrite E. apply Qlt_shift_div_r; [lra|].
  assert (K : inject_Z (Z.abs k) <= pw 50). { rewrite (pw_nat 50) by lia. rewrite <- Zle_Qle. eapply Z.le_trans; [exact H|]. vm_compute. discriminate. }
  assert (L : pw 50 < pw 971). { assert (pw 50 < pw 51). { change 50%Z with (51 - 1)%Z. rewrite pw_half. pose proof (pw_pos 51). lra. } eapply Qlt_le_trans; [exact H0|]. apply pw_le. lia. }
  assert (M : pw 971 * 1 <= pw 971 * inject_Z (10 ^ Z.of_nat p)). { rewrite !(Qmult_comm (pw 971)). apply Qmult_le_compat_r; [exact T|apply Qlt_le_weak, pw_pos]. }
  lra.
Qed.

Lemma optimize_spec y Y : stands y Y ->
  match optimize64 y with Some iv => Y == inject_Z iv | None => forall z, ~ Y == inject_Z z end.
Proof.
  intros (q & Hq & Eq). unfold optimize64, f64_trunc. rewrite Hq.
  destruct (Qeq_bool q (inject_Z (if Qle_bool 0 q then Qfloor q else Qceiling q))) eqn:E.
  - apply Qeq_bool_iff in E. rewrite <- Eq. exact E.
  - intros z Hz. rewrite <- Eq in Hz. assert (NE : ~ q == inject_Z (if Qle_bool 0 q then Qfloor q else Qceiling q)).
    { intros C. apply Qeq_bool_iff in C. congruence. }
    apply NE. destruct (Qle_bool 0 q); rewrite Hz; [rewrite Qfloor_Z|rewrite Qceiling_Z]; reflexivity.
Qed.

Lemma coordinate_text_ok x X p s : stands x X -> (p <= 200)%nat -> (Z.abs (round_units (Q2Qc X) p) <= 10 ^ 15)%Z ->
  (coordinate_text x p s <-> s = print_rounded (Q2Qc X) p).
Proof.
  intros (q & Hq & Eq) HP HK. assert (EQ : Q2Qc q = Q2Qc X) by (apply Qc_is_canon; cbn; rewrite !Qred_correct; exact Eq).
  unfold coordinate_text, round64. rewrite Hq, EQ. unfold print_rounded.
  set (k := round_units (Q2Qc X) p) in *. set (y := decimal64 (f64_sign x) k p).
  destruct (decimal64_close (f64_sign x) k p (decimal_small k p HK)) as (Y & HY & _). fold y in HY.
  pose proof (optimize_spec y Y HY) as O. pose proof (pow10_pos p) as PP.
  assert (RD : reads_as k p y). { split; [apply decimal_small, HK|]. exists (f64_sign x), Y. split; assumption. }
  pose proof (fits_small k HK) as FK.
  destruct (Z.eqb_spec (k mod pow10 p) 0) as [M|M].
  - (* an integer *)
    set (N := (k / pow10 p)%Z). assert (EK : k = (N * pow10 p)%Z). { unfold N. pose proof (Z.div_mod k (pow10 p) ltac:(lia)). lia. }
    assert (HN : (Z.abs N < 2 ^ 53)%Z). { change (2 ^ 53)%Z with 9007199254740992%Z. change (10 ^ 15)%Z with 1000000000000000%Z in HK. nia. }
    pose proof (decimal64_integer (f64_sign x) N p HN) as SN. rewrite <- EK in SN. fold y in SN.
    pose proof (stands_unique _ _ _ HY SN) as EY.
    assert (OY : optimize64 y = Some N).
    { destruct (optimize64 y) as [iv|]; [|elim (O N EY)]. rewrite O in EY. apply (proj1 (inject_Z_injective _ _)) in EY. congruence. }
    split.
    + intros (y' & [= <-] & H). fold y in H. rewrite OY in H. exact H.
    + intros ->. exists y. split; [reflexivity|]. rewrite OY. reflexivity.
  - (* not an integer *)
    assert (KZ : k <> 0%Z). { intros ->. apply M. apply Zmod_0_l. }
    assert (OY : optimize64 y = None).
    { destruct (optimize64 y) as [iv|] eqn:OE; [|reflexivity]. exfalso. apply M.
      assert (IB : (Z.abs iv <= 10 ^ 15)%Z).
      { (* the double is close to k / 10^p *)
        destruct (decimal64_close (f64_sign x) k p (decimal_small k p HK)) as (V & V1 & V2). fold y in V1.
        pose proof (stands_unique _ _ _ HY V1) as EV. unfold close in V2. rewrite <- EV, O in V2.
        assert (KB : Qabs (decimal k p) <= inject_Z (10 ^ 15)).
        { unfold decimal, Qdiv. rewrite Qabs_Qmult, Qabs_inject. rewrite (Qabs_pos (/ _)) by (apply Qinv_le_0_compat, Qlt_le_weak, ten_pos).
          change (inject_Z (Z.abs k) * / inject_Z (10 ^ Z.of_nat p)) with (inject_Z (Z.abs k) / inject_Z (10 ^ Z.of_nat p)).
          apply Qle_shift_div_r; [apply ten_pos|]. pose proof (ten_1 p). assert (inject_Z (Z.abs k) <= inject_Z (10 ^ 15)) by (rewrite <- Zle_Qle; exact HK).
          assert (0 <= inject_Z (10 ^ 15)) by (vm_compute; discriminate).
          assert (inject_Z (10 ^ 15) * 1 <= inject_Z (10 ^ 15) * inject_Z (10 ^ Z.of_nat p)). { rewrite !(Qmult_comm (inject_Z (10 ^ 15))). apply Qmult_le_compat_r; assumption. }
          lra. }
        assert (AB : Qabs (inject_Z iv) <= Qabs (decimal k p) + (u * Qabs (decimal k p) + eta)).
        { setoid_replace (inject_Z iv) with (decimal k p + (inject_Z iv - decimal k p)) by ring.
          eapply Qle_trans; [apply Qabs_triangle|]. lra. }
        assert (UE : u * Qabs (decimal k p) + eta < 1).
        { assert (u * Qabs (decimal k p) <= u * inject_Z (10 ^ 15)). { rewrite !(Qmult_comm u). apply Qmult_le_compat_r; [exact KB|apply Qlt_le_weak, pw_pos]. }
          assert (u * inject_Z (10 ^ 15) <= 1#2) by (vm_compute; discriminate). assert (eta <= 1#4) by (vm_compute; discriminate). lra. }
        rewrite Qabs_inject in AB. assert (LT : inject_Z (Z.abs iv) < inject_Z (10 ^ 15 + 1)). { rewrite inject_Z_plus. change (inject_Z 1) with 1. lra. }
        rewrite <- Zlt_Qlt in LT. lia. }
      assert (RI : reads_as iv 0 y).
      { split; [apply decimal_small, IB|]. exists false, Y. split; [|exact HY].
        assert (IV : (Z.abs iv < 2 ^ 53)%Z) by (change (2 ^ 53)%Z with 9007199254740992%Z; change (10 ^ 15)%Z with 1000000000000000%Z in IB; lia).
        pose proof (decimal64_integer false iv 0 IV) as SI. replace (iv * pow10 0)%Z with iv in SI by (unfold pow10; cbn; lia).
        eapply stands_compat; [symmetry; exact O|exact SI]. }
      pose proof (decimals_differ k p iv 0 y KZ HP FK (fits_small iv IB) RD RI) as E. apply decimal_cross in E.
      change (pow10 0) with 1%Z in E. rewrite Z.mul_1_r in E. rewrite E. apply Z_mod_mult. }
    assert (SH : shortest k p y).
    { split; [exact RD|]. intros k' p' n R' (m & j & Em & Hm).
      destruct (le_lt_dec 15 n) as [L|L].
      - destruct FK as (a & b & E & H). exists a, b. split; [exact E|]. eapply Z.lt_le_trans; [exact H|]. apply Z.pow_le_mono_r; lia.
      - assert (F' : fits k' 15). { exists m, j. split; [exact Em|]. eapply Z.lt_le_trans; [exact Hm|]. apply Z.pow_le_mono_r; lia. }
        pose proof (decimals_differ k p k' p' y KZ HP FK F' RD R') as E. apply decimal_cross in E. subst k'. unfold pow10 in E.
        (* k * 10^p' = m * 10^(j + p) *)
        assert (E2 : (k * 10 ^ Z.of_nat p' = m * 10 ^ Z.of_nat (j + p))%Z) by (rewrite E, Nat2Z.inj_add, Z.pow_add_r by lia; ring).
        destruct (le_lt_dec p' (j + p)) as [LE|LE].
        + exists m, (j + p - p')%nat. split; [|exact Hm].
          apply (Z.mul_cancel_r _ _ (10 ^ Z.of_nat p')); [pose proof (pow10_pos p'); unfold pow10 in *; lia|].
          rewrite E2. rewrite <- Z.mul_assoc, <- Z.pow_add_r by lia. do 2 f_equal. lia.
        + (* m is divisible *)
          assert (E3 : m = (k * 10 ^ Z.of_nat (p' - (j + p)))%Z).
          { apply (Z.mul_cancel_r _ _ (10 ^ Z.of_nat (j + p))); [pose proof (pow10_pos (j + p)); unfold pow10 in *; lia|].
            rewrite <- E2, <- Z.mul_assoc, <- Z.pow_add_r by lia. do 2 f_equal. lia. }
          exists k, 0%nat. split; [cbn; lia|]. pose proof (pow10_pos (p' - (j + p))) as PQ. unfold pow10 in PQ. nia. }
    split.
    + intros (y' & [= <-] & H). fold y in H. rewrite OY in H. destruct H as (k' & p' & (R' & S') & ->).
      assert (F' : fits k' 15) by (apply (S' k p 15%nat RD FK)).
      pose proof (decimals_differ k p k' p' y KZ HP FK F' RD R') as E. apply decimal_cross in E.
      symmetry. apply repr_float_same; assumption.
    + intros ->. exists y. split; [reflexivity|]. fold y. rewrite OY. exists k, p. split; [exact SH|reflexivity].
Qed.

Lemma double_accurate c x X p s : letter_of c = Some c -> (p <= 4)%nat -> stands x X -> coord_in_range (Q2Qc X) p ->
  coordinate_text x p s ->
  exists v k, parse_line (String c s) = Some [W c v] /\
    (this v == decimal k p /\ Qabs (X - decimal k p) * inject_Z (10 ^ Z.of_nat p) <= 1#2)%Q.
Proof.
  intros LC HP HX HR HT. apply (coordinate_text_ok x X p s HX ltac:(lia) (coord_range_units _ _ HR)) in HT. subst s.
  destruct (printed_accurate c (Q2Qc X) p LC HP HR) as (v & k & P1 & P2 & P3 & _).
  exists v, k. split; [exact P1|].
  assert (EV : this v == decimal k p). { rewrite P2, this_div, !this_qz. reflexivity. }
  split; [exact EV|].
  unfold Qcle in P3. rewrite this_mult, this_qz, this_qq in P3.
  assert (ED : this (Q2Qc X - v)%Qc == X - decimal k p) by (rewrite this_minus, this_q2qc, EV; reflexivity).
  assert (EA : this (qabs (Q2Qc X - v)%Qc) == Qabs (X - decimal k p)).
  { rewrite <- ED. destruct (qabs_spec (Q2Qc X - v)%Qc) as [[-> H]|[-> H]].
    - symmetry. apply Qabs_pos. exact H.
    - rewrite this_opp. symmetry. apply Qabs_neg. apply Qlt_le_weak. exact H. }
  rewrite <- EA. exact P3.
Qed.

(** ** Examples *)
(** 2.675 is below 2.675, 0.1 + 0.2 is above 0.3. *)
Definition x2675 : f64 := S754_finite false 6023564501608038 (-51).
Definition x03 : f64 := f64_add (S754_finite false 7205759403792794 (-56)) (S754_finite false 7205759403792794 (-55)).
Lemma print_examples : exists X Y,
  stands x2675 X /\ X < 2675 # 1000 /\ coordinate_text x2675 2 "2.67" /\ (Z.abs (round_units (Q2Qc X) 2) <= 10 ^ 15)%Z /\
  stands x03 Y /\ ~ stands (decimal64 false 3 1) Y /\ coordinate_text x03 3 "0.3" /\ (Z.abs (round_units (Q2Qc Y) 3) <= 10 ^ 15)%Z.
Proof.
  assert (SX : stands x2675 (6023564501608038 # 2251799813685248)) by (eexists; split; [vm_compute; reflexivity|reflexivity]).
  assert (SY : stands x03 (1351079888211149 # 4503599627370496)) by (eexists; split; [vm_compute; reflexivity|vm_compute; reflexivity]).
  exists (6023564501608038 # 2251799813685248), (1351079888211149 # 4503599627370496).
  split; [exact SX|]. split; [reflexivity|].
  assert (KX : (Z.abs (round_units (Q2Qc (6023564501608038 # 2251799813685248)) 2) <= 10 ^ 15)%Z) by (vm_compute; discriminate).
  assert (KY : (Z.abs (round_units (Q2Qc (1351079888211149 # 4503599627370496)) 3) <= 10 ^ 15)%Z) by (vm_compute; discriminate).
  split; [apply (coordinate_text_ok _ _ 2%nat _ SX ltac:(lia) KX); vm_compute; reflexivity|]. split; [exact KX|].
  split; [exact SY|]. split.
  - intros H. assert (S3 : stands (decimal64 false 3 1) (5404319552844595 # 18014398509481984)) by (eexists; split; [vm_compute; reflexivity|vm_compute; reflexivity]).
    pose proof (stands_unique _ _ _ H S3) as E. vm_compute in E. discriminate E.
  - split; [apply (coordinate_text_ok _ _ 3%nat _ SY ltac:(lia) KY); vm_compute; reflexivity|exact KY].
Qed.
