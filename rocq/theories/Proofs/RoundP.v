(** * Double precision arithmetic rounds to within half a unit in the last place

    Everything about [SpecFloat] that the proofs about double precision need: each operation
    returns a number within 2^-53, relatively, of the exact result (2^-1075 absolutely, near zero). *)
From Verif Require Import Model.Float.
From Verif Require Export Spec.Doubles.
From Coq Require Import ZArith QArith Qabs Qpower SpecFloat List Lia Lqa.
Import ListNotations.
Local Open Scope Q_scope.

(** ** Powers of two *)
Lemma pw_pos e : 0 < pw e.
Proof. apply Qpower_0_lt. reflexivity. Qed.
Lemma pw_add a b : pw (a + b) == pw a * pw b.
Proof. apply Qpower_plus. discriminate. Qed.
Lemma pw_0 : pw 0 == 1.
Proof. reflexivity. Qed.
Lemma pw_1 : pw 1 == 2.
Proof. reflexivity. Qed.
Lemma pw_nat e : (0 <= e)%Z -> pw e == inject_Z (2 ^ e).
Proof. intros H. unfold pw. rewrite Zpower_Qpower by assumption. reflexivity. Qed.
Lemma pw_opp e : pw (- e) * pw e == 1.
Proof. rewrite <- pw_add. replace (- e + e)%Z with 0%Z by lia. reflexivity. Qed.
Lemma pw_ge1 e : (0 <= e)%Z -> 1 <= pw e.
Proof.
  intros H. rewrite pw_nat by assumption. change 1 with (inject_Z 1). rewrite <- Zle_Qle.
  pose proof (Z.pow_pos_nonneg 2 e). lia.
Qed.
Lemma pw_le a b : (a <= b)%Z -> pw a <= pw b.
Proof.
  intros H. replace b with (a + (b - a))%Z by lia. rewrite pw_add.
  pose proof (pw_pos a). pose proof (pw_ge1 (b - a) ltac:(lia)). nra.
Qed.
Lemma pw_lt_inv a b : pw a < pw b -> (a < b)%Z.
Proof. intros H. destruct (Z_lt_le_dec a b) as [|L]; [assumption|]. pose proof (pw_le b a L). lra. Qed.
Lemma pw_half e : pw (e - 1) == pw e * (1#2).
Proof. replace (e - 1)%Z with (e + -1)%Z by lia. rewrite pw_add. reflexivity. Qed.

(** ** Bits *)
Lemma digits2_spec p : (2 ^ (Zpos (digits2_pos p) - 1) <= Zpos p < 2 ^ Zpos (digits2_pos p))%Z.
Proof.
  induction p as [p IH|p IH|]; cbn [digits2_pos]; rewrite ?Pos2Z.inj_succ.
  - replace (Z.succ (Zpos (digits2_pos p)) - 1)%Z with (Z.succ (Zpos (digits2_pos p) - 1)) by lia.
    rewrite !Z.pow_succ_r by lia. lia.
  - replace (Z.succ (Zpos (digits2_pos p)) - 1)%Z with (Z.succ (Zpos (digits2_pos p) - 1)) by lia.
    rewrite !Z.pow_succ_r by lia. lia.
  - cbn. lia.
Qed.
Lemma Zdigits2_upper m : (0 <= m)%Z -> (m < 2 ^ Zdigits2 m)%Z /\ (0 <= Zdigits2 m)%Z.
Proof. intros H. destruct m as [|p|p]; cbn [Zdigits2]; [lia| |lia]. pose proof (digits2_spec p). lia. Qed.
Lemma Zdigits2_lower m : (0 < m)%Z -> (2 ^ (Zdigits2 m - 1) <= m)%Z /\ (1 <= Zdigits2 m)%Z.
Proof. intros H. destruct m as [|p|p]; cbn [Zdigits2]; [lia| |lia]. pose proof (digits2_spec p). lia. Qed.
Lemma Zdigits2_le m k : (0 <= m < 2 ^ k)%Z -> (0 <= k)%Z -> (Zdigits2 m <= k)%Z.
Proof.
  intros H Hk. destruct (Z.eq_dec m 0) as [->|Hm]; [exact Hk|].
  destruct (Zdigits2_lower m ltac:(lia)) as [L _].
  destruct (Z_lt_le_dec k (Zdigits2 m)) as [C|]; [|assumption].
  pose proof (Z.pow_le_mono_r 2 k (Zdigits2 m - 1) ltac:(lia) ltac:(lia)). lia.
Qed.

(** ** Shifting keeps the position of the exact value *)
(** [x] lies at [m], between, at, or above the middle of [m] and [m + 1]. *)
Definition located (r : shr_record) (x : Q) : Prop :=
  (0 <= shr_m r)%Z /\
  let m := inject_Z (shr_m r) in
  match shr_r r, shr_s r with
  | false, false => x == m
  | false, true => m < x /\ x < m + (1#2)
  | true, false => x == m + (1#2)
  | true, true => m + (1#2) < x /\ x < m + 1
  end.
Lemma located_shr_1 r x : located r x -> located (shr_1 r) (x * (1#2)).
Proof.
  destruct r as [m r s]. unfold located. cbn [shr_m shr_r shr_s]. intros [Hm H].
  destruct m as [|p|p]; [| |lia].
  - cbn [shr_1 shr_m shr_r shr_s]. split; [lia|]. change (inject_Z 0) with 0 in *.
    destruct r, s; cbn [orb] in *; lra.
  - destruct p as [p|p|]; cbn [shr_1 shr_m shr_r shr_s]; (split; [lia|]).
    + assert (E : inject_Z (Zpos p~1) == 2 * inject_Z (Zpos p) + 1).
      { rewrite Pos2Z.inj_xI, inject_Z_plus, inject_Z_mult. reflexivity. }
      destruct r, s; cbn [orb] in *; lra.
    + assert (E : inject_Z (Zpos p~0) == 2 * inject_Z (Zpos p)).
      { rewrite Pos2Z.inj_xO, inject_Z_mult. reflexivity. }
      destruct r, s; cbn [orb] in *; lra.
    + change (inject_Z 1) with 1 in *. change (inject_Z 0) with 0 in *. destruct r, s; cbn [orb] in *; lra.
Qed.
Lemma located_compat r x y : x == y -> located r x -> located r y.
Proof. intros E [Hm H]. split; [exact Hm|]. cbv zeta in *. destruct (shr_r r), (shr_s r); rewrite <- E; exact H. Qed.
Lemma located_iter p : forall r x, located r x -> located (iter_pos shr_1 p r) (x * pw (- Zpos p)).
Proof.
  induction p as [p IH|p IH|]; intros r x H; cbn [iter_pos].
  - apply (located_compat _ (x * (1#2) * pw (- Zpos p) * pw (- Zpos p))).
    + replace (- Zpos p~1)%Z with (-1 + - Zpos p + - Zpos p)%Z by lia. rewrite !pw_add.
      change (pw (-1)) with (1#2). ring.
    + apply IH, IH, located_shr_1, H.
  - apply (located_compat _ (x * pw (- Zpos p) * pw (- Zpos p))).
    + replace (- Zpos p~0)%Z with (- Zpos p + - Zpos p)%Z by lia. rewrite !pw_add. ring.
    + apply IH, IH, H.
  - apply (located_compat _ (x * (1#2))); [|apply located_shr_1, H]. reflexivity.
Qed.
Lemma located_shr r e n x : located r (x * pw (- e)) ->
  snd (shr r e n) = Z.max e (e + n) /\ located (fst (shr r e n)) (x * pw (- snd (shr r e n))).
Proof.
  intros H. destruct n as [|p|p]; cbn [shr fst snd].
  - split; [lia|]. exact H.
  - split; [lia|]. apply (located_compat _ (x * pw (- e) * pw (- Zpos p))).
    + replace (- (e + Zpos p))%Z with (- e + - Zpos p)%Z by lia. rewrite pw_add. ring.
    + apply located_iter, H.
  - split; [lia|]. exact H.
Qed.
Lemma located_floor r x : located r x -> inject_Z (shr_m r) <= x /\ x < inject_Z (shr_m r) + 1.
Proof. intros [Hm H]. cbv zeta in *. destruct (shr_r r), (shr_s r); lra. Qed.
Lemma located_round r x : located r x ->
  let n := round_nearest_even (shr_m r) (loc_of_shr_record r) in
  (shr_m r <= n <= shr_m r + 1)%Z /\ Qabs (inject_Z n - x) <= 1#2.
Proof.
  destruct r as [m r s]. intros [Hm H]. cbn [shr_m shr_r shr_s] in *. cbv zeta.
  destruct r, s; cbn [loc_of_shr_record round_nearest_even].
  - split; [lia|]. rewrite inject_Z_plus. change (inject_Z 1) with 1. apply Qabs_Qle_condition. lra.
  - destruct (Z.even m).
    + split; [lia|]. apply Qabs_Qle_condition. lra.
    + split; [lia|]. rewrite inject_Z_plus. change (inject_Z 1) with 1. apply Qabs_Qle_condition. lra.
  - split; [lia|]. apply Qabs_Qle_condition. lra.
  - split; [lia|]. apply Qabs_Qle_condition. lra.
Qed.

(** ** Values *)
Definition signed (s : bool) (q : Q) : Q := if s then - q else q.
Lemma stands_compat x X Y : X == Y -> stands x X -> stands x Y.
Proof. intros E [q [H HX]]. exists q. split; [exact H|]. rewrite HX. exact E. Qed.
Lemma stands_unique x X Y : stands x X -> stands x Y -> X == Y.
Proof. intros [q [H HX]] [q' [H' HY]]. rewrite H in H'. injection H' as <-. rewrite <- HX. exact HY. Qed.
Lemma stands_finite s m e : stands (S754_finite s m e) (signed s (inject_Z (Zpos m) * pw e)).
Proof.
  unfold stands. cbn [f64_value]. eexists. split; [reflexivity|].
  assert (E : (if (0 <=? e)%Z then inject_Z (Z.pos m * 2 ^ e) else Z.pos m # Z.to_pos (2 ^ (- e))) == inject_Z (Zpos m) * pw e).
  { destruct (Z.leb_spec 0 e) as [L|L].
    - rewrite inject_Z_mult, pw_nat by assumption. reflexivity.
    - pose proof (pw_opp e) as Ho. rewrite (pw_nat (- e)) in Ho by lia.
      pose proof (Z.pow_pos_nonneg 2 (- e) ltac:(lia) ltac:(lia)) as Hp.
      destruct (2 ^ (- e))%Z as [|p|p]; try lia. cbn [Z.to_pos].
      rewrite (Qmake_Qdiv (Zpos m) p). apply (Qmult_inj_r _ _ (inject_Z (Zpos p))); [discriminate|].
      rewrite <- Qmult_assoc, (Qmult_comm (pw e)), Ho. field. discriminate. }
  destruct s; cbn [signed]; rewrite E; reflexivity.
Qed.
Lemma stands_zero s : stands (S754_zero s) 0.
Proof. exists 0. split; reflexivity. Qed.
Lemma signed_abs s q : Qabs (signed s q) == Qabs q.
Proof. destruct s; cbn [signed]; [apply Qabs_opp|reflexivity]. Qed.
Lemma signed_sub s a b : signed s a - signed s b == signed s (a - b).
Proof. destruct s; cbn [signed]; ring. Qed.
Lemma stands_opp x X : stands x X -> stands (f64_opp x) (- X).
Proof.
  intros [q [H E]]. destruct x as [s|s| |s m e]; try discriminate.
  - injection H as <-. exists 0. split; [reflexivity|]. rewrite <- E. reflexivity.
  - pose proof (stands_finite (negb s) m e) as A. pose proof (stands_finite s m e) as B.
    apply (stands_compat _ _ _ ) with (2 := A).
    assert (X == signed s (inject_Z (Zpos m) * pw e)) as -> by (apply (stands_unique (S754_finite s m e)); [exists q; auto|exact B]).
    destruct s; cbn [negb signed]; ring.
Qed.

(** ** Rounding *)
Definition u : Q := pw (-53).
Definition eta : Q := pw (-1075).
(** [v] is within half a unit in the last place of [x]. *)
Definition close (x v : Q) : Prop := Qabs (v - x) <= u * Qabs x + eta.
Definition big : Q := pw 971.

Lemma fexp_ge e : (e - 53 <= fexp 53 1024 e)%Z /\ (-1074 <= fexp 53 1024 e)%Z.
Proof. unfold fexp, emin. lia. Qed.
Lemma fexp_or e : fexp 53 1024 e = (e - 53)%Z \/ fexp 53 1024 e = (-1074)%Z.
Proof. unfold fexp, emin. lia. Qed.

(** A small enough mantissa is not shifted. *)
Lemma shr_fexp_small n e : (0 <= n < 2 ^ 53)%Z -> (-1074 <= e)%Z ->
  shr_fexp 53 1024 n e loc_Exact = (Build_shr_record n false false, e).
Proof.
  intros Hn He. unfold shr_fexp. cbn [shr_record_of_loc].
  pose proof (Zdigits2_le n 53 Hn ltac:(lia)) as Hd.
  assert (L : (fexp 53 1024 (Zdigits2 n + e) - e <= 0)%Z) by (unfold fexp, emin; lia).
  destruct (fexp 53 1024 (Zdigits2 n + e) - e)%Z; try lia; reflexivity.
Qed.
Lemma shr_fexp_full e : (-1074 <= e)%Z ->
  shr_fexp 53 1024 (2 ^ 53) e loc_Exact = (Build_shr_record (2 ^ 52) false false, (e + 1)%Z).
Proof.
  intros He. unfold shr_fexp.
  assert (E : (fexp 53 1024 (Zdigits2 (2 ^ 53) + e) - e)%Z = 1%Z).
  { change (Zdigits2 (2 ^ 53)) with 54%Z. unfold fexp, emin. lia. }
  rewrite E. reflexivity.
Qed.

Lemma round_aux s m e l X : (0 <= m)%Z -> 0 < X -> X < big ->
  located (shr_record_of_loc m l) (X * pw (- e)) ->
  (l = loc_Exact \/ pw (e - 1) <= u * X + eta) ->
  exists v, stands (binary_round_aux 53 1024 s m e l) (signed s v) /\ close X v /\ 0 <= v.
Proof.
  intros Hm HX Hbig Hl Hprec. unfold binary_round_aux. unfold shr_fexp at 1.
  set (k := (fexp 53 1024 (Zdigits2 m + e) - e)%Z).
  destruct (located_shr _ e k X Hl) as [He' Hl'].
  destruct (shr (shr_record_of_loc m l) e k) as [r' e'] eqn:Es. cbn [fst snd] in *.
  assert (Hee : (e <= e')%Z) by lia.
  assert (Hmin : (-1074 <= e')%Z) by (pose proof (fexp_ge (Zdigits2 m + e)); lia).
  assert (Hdig : (Zdigits2 m + e - 53 <= e')%Z) by (pose proof (fexp_ge (Zdigits2 m + e)); lia).
  pose proof (pw_pos e') as Hp'. pose proof (pw_opp e') as Ho'. pose proof (pw_pos (- e')) as Hm'.
  destruct (located_floor _ _ Hl') as [F1 F2].
  destruct (located_floor _ _ Hl) as [G1 G2].
  assert (Em : shr_m (shr_record_of_loc m l) = m) by (destruct l as [|[]]; reflexivity). rewrite Em in G1, G2.
  (* the shifted mantissa has at most 53 bits *)
  assert (Hr : (0 <= shr_m r' < 2 ^ 53)%Z).
  { destruct Hl' as [Hr0 _]. split; [exact Hr0|].
    destruct (Zdigits2_upper m Hm) as [Hd Hd0].
    rewrite Zlt_Qlt. apply Qle_lt_trans with (X * pw (- e')); [exact F1|].
    assert (Hx : X < pw (Zdigits2 m + e)).
    { rewrite pw_add, (pw_nat (Zdigits2 m)) by lia.
      assert (G3 : X * pw (- e) < inject_Z (2 ^ Zdigits2 m)).
      { apply Qlt_le_trans with (inject_Z m + 1); [exact G2|]. change 1 with (inject_Z 1). rewrite <- inject_Z_plus, <- Zle_Qle. lia. }
      pose proof (pw_pos e). pose proof (pw_opp e). nra. }
    apply Qlt_le_trans with (pw (Zdigits2 m + e) * pw (- e')); [nra|].
    rewrite <- pw_add. rewrite <- (pw_nat 53) by lia. apply pw_le. lia. }
  pose proof (located_round _ _ Hl') as Hn. cbv zeta in Hn.
  set (n := round_nearest_even (shr_m r') (loc_of_shr_record r')) in *. destruct Hn as [Hn1 Hn2].
  (* the value after rounding *)
  assert (Hclose : close X (inject_Z n * pw e')).
  { unfold close. rewrite (Qabs_pos X) by lra.
    assert (Hhalf : Qabs (inject_Z n * pw e' - X) <= pw (e' - 1)).
    { rewrite pw_half. apply Qabs_Qle_condition in Hn2. apply Qabs_Qle_condition.
      assert (X == X * pw (- e') * pw e') by (rewrite <- Qmult_assoc, Ho'; ring). nra. }
    pose proof (pw_pos (-53)) as Hu. pose proof (pw_pos (-1075)) as Heta. fold u in Hu. fold eta in Heta.
    destruct (Z_le_gt_dec k 0) as [Hk|Hk].
    - (* no shift *)
      assert (Ee : e' = e) by lia.
      destruct Hprec as [->|Hprec]; [|rewrite Ee in Hhalf |- *; exact (Qle_trans _ _ _ Hhalf Hprec)].
      assert (Er : r' = Build_shr_record m false false) by (destruct k; try lia; cbn in Es; congruence).
      assert (En : n = m) by (unfold n; rewrite Er; reflexivity).
      destruct Hl as [_ Hl]. cbn in Hl. rewrite Ee, En, <- Hl.
      assert (E0 : X * pw (- e) * pw e - X == 0).
      { pose proof (pw_opp e) as Ho. rewrite <- Qmult_assoc, Ho. ring. }
      rewrite E0. change (Qabs 0) with 0. nra.
    - apply (Qle_trans _ _ _ Hhalf).
      assert (Ef : e' = fexp 53 1024 (Zdigits2 m + e)) by lia.
      destruct (fexp_or (Zdigits2 m + e)) as [Ef'|Ef']; rewrite Ef' in Ef.
      + (* normal *)
        assert (Hm0 : (0 < m)%Z).
        { destruct (Z.eq_dec m 0) as [E0|]; [|lia]. subst m. cbn [Zdigits2] in Ef. lia. }
        destruct (Zdigits2_lower m Hm0) as [Hd Hd1].
        assert (HXl : pw (Zdigits2 m - 1 + e) <= X).
        { rewrite pw_add, (pw_nat (Zdigits2 m - 1)) by lia.
          assert (G3 : inject_Z (2 ^ (Zdigits2 m - 1)) <= X * pw (- e)).
          { apply Qle_trans with (inject_Z m); [rewrite <- Zle_Qle; exact Hd|exact G1]. }
          pose proof (pw_pos e). pose proof (pw_opp e). nra. }
        assert (E1 : pw (e' - 1) == u * pw (Zdigits2 m - 1 + e)).
        { unfold u. rewrite <- pw_add. replace (-53 + (Zdigits2 m - 1 + e))%Z with (e' - 1)%Z by lia. reflexivity. }
        rewrite E1. nra.
      + rewrite Ef. change (pw (-1074 - 1)) with eta. nra. }
  assert (Hn0 : 0 <= inject_Z n) by (change 0 with (inject_Z 0); rewrite <- Zle_Qle; lia).
  assert (Hv0 : 0 <= inject_Z n * pw e') by nra.
  (* no overflow *)
  assert (Hv : inject_Z n * pw e' < pw 972).
  { unfold close in Hclose. rewrite (Qabs_pos X) in Hclose by lra. apply Qabs_Qle_condition in Hclose.
    change (pw 972) with (pw (971 + 1)). rewrite pw_add, pw_1. fold big.
    assert (u <= 1#4) by (vm_compute; discriminate). assert (eta <= (1#4) * big) by (vm_compute; discriminate). nra. }
  exists (inject_Z n * pw e'). split; [|split; [exact Hclose|exact Hv0]].
  destruct (Z_lt_le_dec n (2 ^ 53)) as [Hlt|Hge].
  - rewrite (shr_fexp_small n e') by lia. cbn [shr_m].
    destruct n as [|p|p] eqn:En; [|clear En|lia].
    + apply (stands_compat _ 0); [|apply stands_zero]. change (inject_Z 0) with 0. destruct s; cbn [signed]; ring.
    + assert (Le : (e' <= 1024 - 53)%Z).
      { assert (e' < 972)%Z; [|lia]. apply pw_lt_inv.
        assert (1 <= inject_Z (Zpos p)) by (change 1 with (inject_Z 1); rewrite <- Zle_Qle; lia). nra. }
      apply Z.leb_le in Le. rewrite Le. apply stands_finite.
  - assert (En : n = (2 ^ 53)%Z) by lia. rewrite En in *. rewrite (shr_fexp_full e') by lia. cbn [shr_m].
    assert (Le : (e' + 1 <= 1024 - 53)%Z).
    { assert (e' + 53 < 972)%Z; [|lia]. apply pw_lt_inv. rewrite pw_add, (pw_nat 53) by lia. rewrite Qmult_comm. exact Hv. }
    apply Z.leb_le in Le. change (2 ^ 52)%Z with (Zpos 4503599627370496). rewrite Le.
    apply (stands_compat _ (signed s (inject_Z 4503599627370496 * pw (e' + 1)))); [|apply stands_finite].
    assert (E : inject_Z 4503599627370496 * pw (e' + 1) == inject_Z (2 ^ 53) * pw e').
    { rewrite pw_add, pw_1. change (inject_Z (2 ^ 53)) with (inject_Z 4503599627370496 * 2). ring. }
    destruct s; cbn [signed]; rewrite E; reflexivity.
Qed.

(** ** The operations *)
Lemma Q_of_shl m e e' : (e' <= e)%Z -> inject_Z (Zpos (fst (shl_align m e e'))) * pw e' == inject_Z (Zpos m) * pw e.
Proof.
  intros H. unfold shl_align. destruct (e' - e)%Z as [|p|p] eqn:E; cbn [fst].
  - replace e' with e by lia. reflexivity.
  - lia.
  - rewrite shift_pos_correct, inject_Z_mult. change (Z.pow_pos 2 p) with (2 ^ Zpos p)%Z.
    rewrite <- (pw_nat (Zpos p)) by lia. replace e with (Zpos p + e')%Z by lia. rewrite pw_add. ring.
Qed.

Lemma round_normal s m e : inject_Z (Zpos m) * pw e < big ->
  exists v, stands (binary_round 53 1024 s m e) (signed s v) /\ close (inject_Z (Zpos m) * pw e) v /\ 0 <= v.
Proof.
  intros H. unfold binary_round.
  set (e' := fexp 53 1024 (Zpos (digits2_pos m) + e)).
  destruct (shl_align m e e') as [mz ez] eqn:Ea.
  assert (Ev : inject_Z (Zpos mz) * pw ez == inject_Z (Zpos m) * pw e).
  { destruct (Z_le_gt_dec e' e) as [L|L].
    - pose proof (Q_of_shl m e e' L) as Q. rewrite Ea in Q. cbn [fst] in Q.
      unfold shl_align in Ea. destruct (e' - e)%Z eqn:Ed; injection Ea as <- <-; [reflexivity|lia|exact Q].
    - unfold shl_align in Ea. destruct (e' - e)%Z eqn:Ed; try lia. injection Ea as <- <-. reflexivity. }
  assert (Hpos : 0 < inject_Z (Zpos mz) * pw ez) by (pose proof (pw_pos ez); assert (0 < inject_Z (Zpos mz)) by reflexivity; nra).
  destruct (round_aux s (Zpos mz) ez loc_Exact (inject_Z (Zpos mz) * pw ez)) as (v & V1 & V2 & V3).
  - lia.
  - exact Hpos.
  - rewrite Ev. exact H.
  - split; [cbn; lia|]. cbn. pose proof (pw_opp ez) as Ho. rewrite <- Qmult_assoc, (Qmult_comm (pw ez)), Ho. ring.
  - left. reflexivity.
  - exists v. split; [exact V1|]. split; [|exact V3]. unfold close in *. rewrite <- Ev. exact V2.
Qed.

Lemma normalize m e sz : Qabs (inject_Z m * pw e) < big ->
  exists v, stands (binary_normalize 53 1024 m e sz) v /\ close (inject_Z m * pw e) v.
Proof.
  intros H. destruct m as [|p|p]; cbn [binary_normalize].
  - exists 0. split; [apply stands_zero|]. unfold close. change (inject_Z 0) with 0.
    assert (E : 0 - 0 * pw e == 0) by ring. rewrite E. assert (E' : 0 * pw e == 0) by ring. rewrite E'.
    change (Qabs 0) with 0. pose proof (pw_pos (-1075)). unfold eta. lra.
  - pose proof (pw_pos e). assert (0 < inject_Z (Zpos p)) by reflexivity.
    rewrite Qabs_pos in H by nra. destruct (round_normal false p e H) as (v & V1 & V2 & _). exists v. split; assumption.
  - pose proof (pw_pos e). assert (0 < inject_Z (Zpos p)) by reflexivity.
    assert (E : inject_Z (Zneg p) * pw e == - (inject_Z (Zpos p) * pw e)).
    { change (Zneg p) with (- Zpos p)%Z. rewrite inject_Z_opp. ring. }
    rewrite E, Qabs_opp, Qabs_pos in H by nra.
    destruct (round_normal true p e H) as (v & V1 & V2 & _). exists (- v). split; [exact V1|].
    unfold close in *. rewrite E, Qabs_opp. assert (E2 : - v - - (inject_Z (Zpos p) * pw e) == - (v - inject_Z (Zpos p) * pw e)) by ring.
    rewrite E2, Qabs_opp. exact V2.
Qed.

Lemma close_refl x v : x == v -> close x v.
Proof.
  intros E. unfold close. assert (E' : v - x == 0) by (rewrite E; ring). rewrite E'. change (Qabs 0) with 0.
  pose proof (pw_pos (-53)). pose proof (pw_pos (-1075)). pose proof (Qabs_nonneg x). unfold u, eta. nra.
Qed.
Lemma close_compat x y v : x == y -> close x v -> close y v.
Proof. unfold close. intros E. rewrite E. trivial. Qed.

Lemma signed_shl s m e e' : (e' <= e)%Z ->
  inject_Z (cond_Zopp s (Zpos (fst (shl_align m e e')))) * pw e' == signed s (inject_Z (Zpos m) * pw e).
Proof.
  intros H. pose proof (Q_of_shl m e e' H) as Q. destruct s; cbn [cond_Zopp signed].
  - rewrite inject_Z_opp. rewrite <- Q. ring.
  - exact Q.
Qed.

Theorem add_close x y X Y : stands x X -> stands y Y -> Qabs (X + Y) < big ->
  exists Z, stands (f64_add x y) Z /\ close (X + Y) Z.
Proof.
  intros Hx Hy Hb. unfold f64_add.
  destruct x as [s|s| |s m e]; [|destruct Hx as [q [Hx _]]; discriminate Hx|destruct Hx as [q [Hx _]]; discriminate Hx|].
  - pose proof (stands_unique _ _ _ Hx (stands_zero s)) as EX.
    destruct y as [s'|s'| |s' m' e']; [|destruct Hy as [q [Hy _]]; discriminate Hy|destruct Hy as [q [Hy _]]; discriminate Hy|].
    + pose proof (stands_unique _ _ _ Hy (stands_zero s')) as EY. exists 0.
      split; [cbn [SFadd]; destruct (Bool.eqb s s'); apply stands_zero|]. apply close_refl. rewrite EX, EY. ring.
    + exists Y. split; [exact Hy|]. apply close_refl. rewrite EX. ring.
  - destruct y as [s'|s'| |s' m' e']; [|destruct Hy as [q [Hy _]]; discriminate Hy|destruct Hy as [q [Hy _]]; discriminate Hy|].
    + pose proof (stands_unique _ _ _ Hy (stands_zero s')) as EY. exists X. split; [exact Hx|]. apply close_refl. rewrite EY. ring.
    + pose proof (stands_unique _ _ _ Hx (stands_finite s m e)) as EX.
      pose proof (stands_unique _ _ _ Hy (stands_finite s' m' e')) as EY.
      cbn [SFadd]. cbv zeta. set (ez := Z.min e e').
      assert (E : inject_Z (cond_Zopp s (Zpos (fst (shl_align m e ez))) + cond_Zopp s' (Zpos (fst (shl_align m' e' ez)))) * pw ez == X + Y).
      { rewrite inject_Z_plus, Qmult_plus_distr_l, !signed_shl by (unfold ez; lia). rewrite EX, EY. reflexivity. }
      destruct (normalize _ ez false ltac:(rewrite E; exact Hb)) as (v & V1 & V2).
      exists v. split; [exact V1|]. exact (close_compat _ _ _ E V2).
Qed.

Theorem sub_close x y X Y : stands x X -> stands y Y -> Qabs (X - Y) < big ->
  exists Z, stands (f64_sub x y) Z /\ close (X - Y) Z.
Proof.
  intros Hx Hy Hb. unfold f64_sub.
  destruct x as [s|s| |s m e]; [|destruct Hx as [q [Hx _]]; discriminate Hx|destruct Hx as [q [Hx _]]; discriminate Hx|].
  - pose proof (stands_unique _ _ _ Hx (stands_zero s)) as EX.
    destruct y as [s'|s'| |s' m' e']; [|destruct Hy as [q [Hy _]]; discriminate Hy|destruct Hy as [q [Hy _]]; discriminate Hy|].
    + pose proof (stands_unique _ _ _ Hy (stands_zero s')) as EY. exists 0.
      split; [cbn [SFsub]; destruct (Bool.eqb s (negb s')); apply stands_zero|]. apply close_refl. rewrite EX, EY. ring.
    + exists (- Y). split; [exact (stands_opp _ _ Hy)|]. apply close_refl. rewrite EX. ring.
  - destruct y as [s'|s'| |s' m' e']; [|destruct Hy as [q [Hy _]]; discriminate Hy|destruct Hy as [q [Hy _]]; discriminate Hy|].
    + pose proof (stands_unique _ _ _ Hy (stands_zero s')) as EY. exists X. split; [exact Hx|]. apply close_refl. rewrite EY. ring.
    + pose proof (stands_unique _ _ _ Hx (stands_finite s m e)) as EX.
      pose proof (stands_unique _ _ _ Hy (stands_finite s' m' e')) as EY.
      cbn [SFsub]. cbv zeta. set (ez := Z.min e e').
      assert (E : inject_Z (cond_Zopp s (Zpos (fst (shl_align m e ez))) - cond_Zopp s' (Zpos (fst (shl_align m' e' ez)))) * pw ez == X - Y).
      { unfold Z.sub. rewrite inject_Z_plus, inject_Z_opp, Qmult_plus_distr_l.
        assert (E1 : - inject_Z (cond_Zopp s' (Z.pos (fst (shl_align m' e' ez)))) * pw ez
          == - (inject_Z (cond_Zopp s' (Z.pos (fst (shl_align m' e' ez)))) * pw ez)) by ring.
        rewrite E1, !signed_shl by (unfold ez; lia). rewrite EX, EY. reflexivity. }
      destruct (normalize _ ez false ltac:(rewrite E; exact Hb)) as (v & V1 & V2).
      exists v. split; [exact V1|]. exact (close_compat _ _ _ E V2).
Qed.

Lemma signed_mul s s' a b : signed s a * signed s' b == signed (xorb s s') (a * b).
Proof. destruct s, s'; cbn [signed xorb]; ring. Qed.
Lemma close_signed s x v : close x v -> close (signed s x) (signed s v).
Proof. unfold close. intros H. rewrite signed_sub, !signed_abs. exact H. Qed.
Lemma stands_nonzero m e : 0 < inject_Z (Zpos m) * pw e.
Proof. pose proof (pw_pos e). assert (0 < inject_Z (Zpos m)) by reflexivity. nra. Qed.

Theorem mul_close x y X Y : stands x X -> stands y Y -> Qabs (X * Y) < big ->
  exists Z, stands (f64_mul x y) Z /\ close (X * Y) Z.
Proof.
  intros Hx Hy Hb. unfold f64_mul.
  destruct x as [s|s| |s m e]; [|destruct Hx as [q [Hx _]]; discriminate Hx|destruct Hx as [q [Hx _]]; discriminate Hx|].
  - pose proof (stands_unique _ _ _ Hx (stands_zero s)) as EX.
    destruct y as [s'|s'| |s' m' e']; [|destruct Hy as [q [Hy _]]; discriminate Hy|destruct Hy as [q [Hy _]]; discriminate Hy|];
      exists 0; (split; [apply stands_zero|]); apply close_refl; rewrite EX; ring.
  - destruct y as [s'|s'| |s' m' e']; [|destruct Hy as [q [Hy _]]; discriminate Hy|destruct Hy as [q [Hy _]]; discriminate Hy|].
    + pose proof (stands_unique _ _ _ Hy (stands_zero s')) as EY. exists 0. split; [apply stands_zero|]. apply close_refl. rewrite EY. ring.
    + pose proof (stands_unique _ _ _ Hx (stands_finite s m e)) as EX.
      pose proof (stands_unique _ _ _ Hy (stands_finite s' m' e')) as EY.
      cbn [SFmul].
      assert (E : inject_Z (Zpos (m * m')) * pw (e + e') == inject_Z (Zpos m) * pw e * (inject_Z (Zpos m') * pw e')).
      { rewrite Pos2Z.inj_mul, inject_Z_mult, pw_add. ring. }
      assert (E2 : X * Y == signed (xorb s s') (inject_Z (Zpos (m * m')) * pw (e + e'))).
      { rewrite EX, EY, signed_mul. destruct (xorb s s'); cbn [signed]; rewrite E; reflexivity. }
      rewrite E2, signed_abs in Hb. pose proof (stands_nonzero (m * m') (e + e')) as Hp.
      rewrite Qabs_pos in Hb by lra.
      destruct (round_aux (xorb s s') (Zpos (m * m')) (e + e') loc_Exact _ ltac:(lia) Hp Hb) as (v & V1 & V2 & _).
      * split; [cbn; lia|]. cbn. pose proof (pw_opp (e + e')) as Ho. rewrite <- Qmult_assoc, (Qmult_comm (pw (e + e'))), Ho. ring.
      * left. reflexivity.
      * exists (signed (xorb s s') v). split; [exact V1|]. apply (close_compat _ _ _ (Qeq_sym _ _ E2)). apply close_signed, V2.
Qed.

Lemma new_location_spec q r m2 x : (0 <= q)%Z -> (0 <= r < m2)%Z -> x * inject_Z m2 == inject_Z (q * m2 + r) ->
  located (shr_record_of_loc q (new_location m2 r)) x.
Proof.
  intros Hq Hr Hx.
  assert (Hm : 0 < inject_Z m2) by (change 0 with (inject_Z 0); rewrite <- Zlt_Qlt; lia).
  rewrite inject_Z_plus, inject_Z_mult in Hx.
  assert (Lt_ : (r <> 0)%Z -> (2 * r < m2)%Z -> inject_Z q < x /\ x < inject_Z q + (1#2)).
  { intros H0 H. rewrite Zlt_Qlt, inject_Z_mult in H. change (inject_Z 2) with 2 in H.
    assert (0 < inject_Z r) by (change 0 with (inject_Z 0); rewrite <- Zlt_Qlt; lia). split; nra. }
  assert (Gt_ : (m2 < 2 * r)%Z -> inject_Z q + (1#2) < x /\ x < inject_Z q + 1).
  { intros H. rewrite Zlt_Qlt, inject_Z_mult in H. change (inject_Z 2) with 2 in H.
    assert (inject_Z r < inject_Z m2) by (rewrite <- Zlt_Qlt; lia). split; nra. }
  assert (Eq_ : (2 * r = m2)%Z -> x == inject_Z q + (1#2)).
  { intros H. apply (Qmult_inj_r _ _ (inject_Z m2)); [lra|]. rewrite Hx, <- H, !inject_Z_mult. change (inject_Z 2) with 2. ring. }
  unfold new_location. destruct (Z.even m2) eqn:Ev.
  - unfold new_location_even. destruct (Zeq_bool r 0) eqn:E0.
    + apply Zeq_bool_eq in E0. subst r. split; [exact Hq|]. cbn. apply (Qmult_inj_r _ _ (inject_Z m2)); [lra|].
      rewrite Hx. change (inject_Z 0) with 0. ring.
    + apply Zeq_bool_neq in E0. split; [destruct (2 * r ?= m2)%Z; exact Hq|].
      destruct (Z.compare_spec (2 * r) m2) as [C|C|C]; cbn [shr_record_of_loc shr_m shr_r shr_s]; cbv zeta; auto.
  - unfold new_location_odd. destruct (Zeq_bool r 0) eqn:E0.
    + apply Zeq_bool_eq in E0. subst r. split; [exact Hq|]. cbn. apply (Qmult_inj_r _ _ (inject_Z m2)); [lra|].
      rewrite Hx. change (inject_Z 0) with 0. ring.
    + apply Zeq_bool_neq in E0. split; [destruct (2 * r + 1 ?= m2)%Z; exact Hq|].
      assert (Hodd : (2 * r <> m2)%Z).
      { intros C. rewrite <- C, Z.even_mul in Ev. discriminate. }
      destruct (Z.compare_spec (2 * r + 1) m2) as [C|C|C]; cbn [shr_record_of_loc shr_m shr_r shr_s]; cbv zeta.
      * apply Lt_; [exact E0|lia].
      * apply Lt_; [exact E0|lia].
      * apply Gt_. lia.
Qed.

Theorem div_close x y X Y : stands x X -> stands y Y -> ~ Y == 0 -> Qabs (X / Y) < big ->
  exists Z, stands (f64_div x y) Z /\ close (X / Y) Z.
Proof.
  intros Hx Hy HY Hb. unfold f64_div.
  destruct y as [s'|s'| |s' m2 e2];
    [elim HY; exact (stands_unique _ _ _ Hy (stands_zero s'))|destruct Hy as [q [Hy _]]; discriminate Hy|destruct Hy as [q [Hy _]]; discriminate Hy|].
  destruct x as [s|s| |s m1 e1]; [|destruct Hx as [q [Hx _]]; discriminate Hx|destruct Hx as [q [Hx _]]; discriminate Hx|].
  { pose proof (stands_unique _ _ _ Hx (stands_zero s)) as EX. exists 0. split; [apply stands_zero|].
    apply close_refl. rewrite EX. field. exact HY. }
  pose proof (stands_unique _ _ _ Hx (stands_finite s m1 e1)) as EX.
  pose proof (stands_unique _ _ _ Hy (stands_finite s' m2 e2)) as EY.
  pose proof (stands_nonzero m1 e1) as P1. pose proof (stands_nonzero m2 e2) as P2.
  set (A := inject_Z (Zpos m1) * pw e1) in *. set (B := inject_Z (Zpos m2) * pw e2) in *.
  assert (Exy : X / Y == signed (xorb s s') (A / B)).
  { rewrite EX, EY. destruct s, s'; cbn [signed xorb]; field; lra. }
  assert (PQ : 0 < A / B) by (apply Qlt_shift_div_l; lra).
  rewrite Exy, signed_abs, Qabs_pos in Hb by lra.
  cbn [SFdiv]. unfold SFdiv_core_binary. cbv zeta.
  set (d1 := Zdigits2 (Zpos m1)). set (d2 := Zdigits2 (Zpos m2)).
  set (e' := Z.min (fexp 53 1024 (d1 + e1 - (d2 + e2))) (e1 - e2)).
  set (sh := (e1 - e2 - e')%Z). assert (Hsh : (0 <= sh)%Z) by (unfold sh, e'; lia).
  assert (Em : match sh with Z0 => Zpos m1 | Zpos _ => Z.shiftl (Zpos m1) sh | Zneg _ => 0%Z end = (Zpos m1 * 2 ^ sh)%Z).
  { destruct sh as [|p|p]; [lia| |lia]. apply Z.shiftl_mul_pow2. lia. }
  rewrite Em. clear Em. set (m' := (Zpos m1 * 2 ^ sh)%Z).
  assert (Hm' : (0 <= m')%Z) by (unfold m'; pose proof (Z.pow_pos_nonneg 2 sh); lia).
  pose proof (Z_div_mod m' (Zpos m2) ltac:(lia)) as Hdiv.
  destruct (Z.div_eucl m' (Zpos m2)) as [q r]. destruct Hdiv as [Hqr Hr].
  assert (Hq : (0 <= q)%Z) by nia.
  assert (Hscale : A / B * pw (- e') * inject_Z (Zpos m2) == inject_Z m').
  { unfold A, B, m'. rewrite inject_Z_mult, <- (pw_nat sh) by exact Hsh.
    unfold sh. replace (e1 - e2 - e')%Z with (e1 + (- e2 + - e'))%Z by lia. rewrite !pw_add.
    pose proof (pw_pos e2). pose proof (pw_opp e2) as Ho.
    assert (Eo : pw (- e2) == 1 / pw e2) by (rewrite <- Ho; field; lra). rewrite Eo. field. split; [lra|discriminate]. }
  assert (Hloc : located (shr_record_of_loc q (new_location (Zpos m2) r)) (A / B * pw (- e'))).
  { apply new_location_spec; [exact Hq|lia|]. rewrite Hscale. rewrite Hqr. rewrite Z.mul_comm. reflexivity. }
  assert (Hprec : pw (e' - 1) <= u * (A / B) + eta).
  { assert (HAB : pw (d1 - 1 + e1 - (d2 + e2)) <= A / B).
    { apply Qle_shift_div_l; [exact P2|].
      destruct (Zdigits2_lower (Zpos m1) ltac:(lia)) as [L1 _]. destruct (Zdigits2_upper (Zpos m2) ltac:(lia)) as [L2 L3].
      fold d1 in L1. fold d2 in L2, L3.
      assert (LA : pw (d1 - 1 + e1) <= A).
      { unfold A. rewrite pw_add. assert (pw (d1 - 1) <= inject_Z (Zpos m1)).
        { rewrite (pw_nat (d1 - 1)) by (pose proof (Pos2Z.is_pos (digits2_pos m1)); unfold d1; cbn [Zdigits2]; lia). rewrite <- Zle_Qle. exact L1. } pose proof (pw_pos e1). nra. }
      assert (LB : B <= pw (d2 + e2)).
      { unfold B. rewrite pw_add. assert (inject_Z (Zpos m2) <= pw d2).
        { rewrite (pw_nat d2 L3), <- Zle_Qle. lia. } pose proof (pw_pos e2). nra. }
      apply Qle_trans with (pw (d1 - 1 + e1 - (d2 + e2)) * pw (d2 + e2)).
      - pose proof (pw_pos (d1 - 1 + e1 - (d2 + e2))). nra.
      - rewrite <- pw_add. replace (d1 - 1 + e1 - (d2 + e2) + (d2 + e2))%Z with (d1 - 1 + e1)%Z by lia. exact LA. }
    pose proof (pw_pos (-53)). pose proof (pw_pos (-1075)).
    destruct (fexp_or (d1 + e1 - (d2 + e2))) as [Ef|Ef].
    - apply Qle_trans with (u * pw (d1 - 1 + e1 - (d2 + e2))); [|unfold u, eta; nra].
      unfold u. rewrite <- pw_add. apply pw_le. unfold e'. lia.
    - apply Qle_trans with eta; [|unfold u, eta; nra]. unfold eta. apply pw_le. unfold e'. lia. }
  destruct (round_aux (xorb s s') q e' (new_location (Zpos m2) r) (A / B) Hq PQ Hb Hloc (or_intror Hprec)) as (v & V1 & V2 & _).
  exists (signed (xorb s s') v). split; [exact V1|]. apply (close_compat _ _ _ (Qeq_sym _ _ Exy)). apply close_signed, V2.
Qed.
