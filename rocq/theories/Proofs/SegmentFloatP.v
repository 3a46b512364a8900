(** * Nearest points in double precision are near the exact ones *)
From Verif Require Import Base.Py Model.Float Model.Geometry Model.SegmentFloat.
From Verif Require Export Proofs.ArangeP.
From Coq Require Import ZArith QArith Qabs SpecFloat List Lia Lqa.
Import ListNotations.
Local Open Scope Q_scope.

Definition tau : Q := pw (-860).
Lemma tau_facts : 0 < tau /\ eta * pw 170 <= tau /\ eta <= tau * pw (-170) /\ tau <= u * pw (-210) * pw (-300).
Proof. repeat split; vm_compute; discriminate || reflexivity. Qed.

Lemma sq_mono a b : 0 <= a -> a <= b -> a * a <= b * b.
Proof. intros; nra. Qed.

(** A product of two differences, each with its rounding error. *)
Lemma prod_near dx ex dx' ex' r p a :
  ab dx p -> ab ex a -> 0 <= p -> 0 <= a -> p <= pw 101 -> a <= pw 101 ->
  ab (dx' - dx) (u * p + eta) -> ab (ex' - ex) (u * a + eta) -> close (dx' * ex') r ->
  ab (r - dx * ex) (4 * (u * (p * a)) + tau).
Proof.
  intros Bd Be Hp Ha Lp La Ed Ee Hr.
  destruct u_small as [U0 U1]. destruct tau_facts as (T0 & T1 & T2 & T3).
  assert (Ht : eta * (4 * pw 101 + 4) <= tau * (1#8)).
  { apply Qle_trans with (eta * pw 170 * (1#8)); [vm_compute; discriminate|]. nra. }
  pose proof (pw_pos (-1075)) as H0. fold eta in H0.
  assert (Hpa : 0 <= p * a) by nra. assert (Hupa : u * (p * a) <= (1#1000000) * (p * a)) by nra.
  assert (Hupa0 : 0 <= u * (p * a)) by nra.
  assert (Huu : u * (u * (p * a)) <= (1#1000000) * (u * (p * a))) by nra.
  assert (Hep : 0 <= eta * p) by nra. assert (Hea : 0 <= eta * a) by nra.
  assert (Hep1 : eta * p <= eta * pw 101) by nra. assert (Hea1 : eta * a <= eta * pw 101) by nra.
  assert (Huep : u * (eta * p) <= (1#1000000) * (eta * p)) by nra. assert (Huea : u * (eta * a) <= (1#1000000) * (eta * a)) by nra.
  assert (Hee : eta * eta <= eta * (1#1000000)) by (vm_compute; discriminate).
  assert (P1 : ab (dx' * ex' - dx * ex) (2 * (u * (p * a)) + (1#1000) * (u * (p * a)) + 2 * (eta * p) + 2 * (eta * a) + eta)).
  { pose proof (ab_mul _ _ _ _ Ed Ee) as M1. pose proof (ab_mul _ _ _ _ Bd Ee) as M2. pose proof (ab_mul _ _ _ _ Ed Be) as M3.
    assert (E : dx' * ex' - dx * ex == (dx' - dx) * (ex' - ex) + dx * (ex' - ex) + (dx' - dx) * ex) by ring.
    assert (F1 : (u * p + eta) * (u * a + eta) == u * (u * (p * a)) + u * (eta * p) + u * (eta * a) + eta * eta) by ring.
    assert (F2 : p * (u * a + eta) == u * (p * a) + eta * p) by ring.
    assert (F3 : (u * p + eta) * a == u * (p * a) + eta * a) by ring.
    rewrite F1 in M1. rewrite F2 in M2. rewrite F3 in M3. unfold ab in *. rewrite E. lra. }
  assert (Bx : ab (dx * ex) (p * a)) by (apply ab_mul; assumption).
  assert (Bp : ab (dx' * ex') (p * a + 3 * (u * (p * a)) + 2 * (eta * p) + 2 * (eta * a) + eta)) by (unfold ab in *; lra).
  pose proof (ab_close _ _ _ Hr Bp) as R.
  assert (G : u * (p * a + 3 * (u * (p * a)) + 2 * (eta * p) + 2 * (eta * a) + eta) + eta
    <= u * (p * a) + (1#1000) * (u * (p * a)) + (1#1000) * (eta * p) + (1#1000) * (eta * a) + 2 * eta).
  { assert (u * eta <= eta) by nra.
    assert (F : u * (p * a + 3 * (u * (p * a)) + 2 * (eta * p) + 2 * (eta * a) + eta) + eta ==
      u * (p * a) + 3 * (u * (u * (p * a))) + 2 * (u * (eta * p)) + 2 * (u * (eta * a)) + u * eta + eta) by ring.
    rewrite F. lra. }
  assert (E4 : eta * (4 * pw 101 + 4) == 4 * (eta * pw 101) + 4 * eta) by ring. rewrite E4 in Ht.
  unfold ab in *. lra.
Qed.

(** The square of a difference. *)
Lemma square_near ex ex' r a : ab ex a -> 0 <= a -> a <= pw 101 -> ab (ex' - ex) (u * a + eta) ->
  Qabs (r - ex' * ex') <= pw (-52) * (ex' * ex') + pw (-1075) -> a * a == ex * ex ->
  ab (r - ex * ex) (5 * (u * (a * a)) + tau).
Proof.
  intros Be Ha La Ee Hr Haa.
  destruct u_small as [U0 U1]. destruct tau_facts as (T0 & T1 & T2 & T3).
  assert (Ht : eta * (4 * pw 101 + 4) <= tau * (1#8)).
  { apply Qle_trans with (eta * pw 170 * (1#8)); [vm_compute; discriminate|]. nra. }
  pose proof (pw_pos (-1075)) as H0. fold eta in H0.
  assert (Hpa : 0 <= a * a) by nra. assert (Hupa : u * (a * a) <= (1#1000000) * (a * a)) by nra.
  assert (Hupa0 : 0 <= u * (a * a)) by nra.
  assert (Huu : u * (u * (a * a)) <= (1#1000000) * (u * (a * a))) by nra.
  assert (Hea : 0 <= eta * a) by nra. assert (Hea1 : eta * a <= eta * pw 101) by nra.
  assert (Huea : u * (eta * a) <= (1#1000000) * (eta * a)) by nra.
  assert (Hee : eta * eta <= eta * (1#1000000)) by (vm_compute; discriminate).
  assert (P1 : ab (ex' * ex' - ex * ex) (2 * (u * (a * a)) + (1#1000) * (u * (a * a)) + 4 * (eta * a) + eta)).
  { pose proof (ab_mul _ _ _ _ Ee Ee) as M1. pose proof (ab_mul _ _ _ _ Be Ee) as M2.
    assert (E : ex' * ex' - ex * ex == (ex' - ex) * (ex' - ex) + 2 * (ex * (ex' - ex))) by ring.
    assert (F1 : (u * a + eta) * (u * a + eta) == u * (u * (a * a)) + 2 * (u * (eta * a)) + eta * eta) by ring.
    assert (F2 : a * (u * a + eta) == u * (a * a) + eta * a) by ring.
    rewrite F1 in M1. rewrite F2 in M2. unfold ab in *. rewrite E. lra. }
  fold eta in Hr. assert (E52 : pw (-52) == 2 * u) by (vm_compute; reflexivity). rewrite E52 in Hr. apply ab_abs in Hr.
  assert (Bq : ex' * ex' <= a * a + 3 * (u * (a * a)) + 4 * (eta * a) + eta) by (unfold ab in *; lra).
  assert (G : 2 * u * (ex' * ex') + eta <= 2 * (u * (a * a)) + (1#1000) * (u * (a * a)) + (1#1000) * (eta * a) + 2 * eta).
  { assert (u * eta <= (1#1000000) * eta) by nra.
    apply Qle_trans with (2 * u * (a * a + 3 * (u * (a * a)) + 4 * (eta * a) + eta) + eta); [nra|].
    assert (F : 2 * u * (a * a + 3 * (u * (a * a)) + 4 * (eta * a) + eta) + eta ==
      2 * (u * (a * a)) + 6 * (u * (u * (a * a))) + 8 * (u * (eta * a)) + 2 * (u * eta) + eta) by ring.
    rewrite F. lra. }
  assert (E4 : eta * (4 * pw 101 + 4) == 4 * (eta * pw 101) + 4 * eta) by ring. rewrite E4 in Ht.
  unfold ab in *. lra.
Qed.

(** ** Comparisons *)
Lemma ltb_stands x y X Y : stands x X -> stands y Y -> f64_ltb x y = true <-> X < Y.
Proof.
  intros [q [H E]] [q' [H' E']]. unfold f64_ltb. rewrite H, H'. rewrite Bool.negb_true_iff, <- E, <- E'.
  destruct (Qle_bool q' q) eqn:C.
  - apply Qle_bool_iff in C. split; [discriminate|lra].
  - split; [|reflexivity]. intros _. apply Qnot_le_lt. intros D. apply Qle_bool_iff in D. congruence.
Qed.
Lemma stands_one : stands f64_one 1.
Proof. eexists. split; [reflexivity|]. reflexivity. Qed.
Definition clampQ (t : Q) : Q := if Qlt_le_dec 0 t then (if Qlt_le_dec t 1 then t else 1) else 0.
Lemma clamp_stands x X : stands x X -> stands (f64_max f64_zero (f64_min f64_one x)) (clampQ X).
Proof.
  intros H. unfold f64_min, f64_max, clampQ.
  destruct (f64_ltb x f64_one) eqn:E1.
  - apply (ltb_stands _ _ _ _ H stands_one) in E1.
    destruct (f64_ltb f64_zero x) eqn:E2.
    + apply (ltb_stands _ _ _ _ (stands_zero false) H) in E2. destruct (Qlt_le_dec 0 X); [|lra]. destruct (Qlt_le_dec X 1); [exact H|lra].
    + destruct (Qlt_le_dec 0 X) as [L|L]; [|apply stands_zero].
      apply (ltb_stands _ _ _ _ (stands_zero false) H) in L. unfold f64_zero in E2. congruence.
  - assert (L1 : 1 <= X).
    { apply Qnot_lt_le. intros C. apply (ltb_stands _ _ _ _ H stands_one) in C. congruence. }
    assert (E2 : f64_ltb f64_zero f64_one = true) by reflexivity. rewrite E2.
    destruct (Qlt_le_dec 0 X); [|lra]. destruct (Qlt_le_dec X 1); [lra|exact stands_one].
Qed.
Lemma clamp_lip s t B : ab (s - t) B -> ab (clampQ s - clampQ t) B.
Proof.
  unfold ab, clampQ. intros H.
  destruct (Qlt_le_dec 0 s), (Qlt_le_dec 0 t); try destruct (Qlt_le_dec s 1); try destruct (Qlt_le_dec t 1); lra.
Qed.
Lemma clamp_range t : 0 <= clampQ t /\ clampQ t <= 1.
Proof. unfold clampQ. destruct (Qlt_le_dec 0 t); try destruct (Qlt_le_dec t 1); lra. Qed.
Lemma clamp_compat s t : s == t -> clampQ s == clampQ t.
Proof.
  intros E. assert (H : ab (s - t) 0) by (unfold ab; lra). apply clamp_lip in H. unfold ab in H. lra.
Qed.

(** ** The parameter on the segment *)
(** [t * l - n] measures how far [t] is from [n / l]. *)
Lemma param_near n n' l l' t S :
  ab n S -> 0 <= S -> S <= pw 204 -> ab (n' - n) (6 * (u * S) + 4 * tau) ->
  pw (-200) <= l -> l <= pw 204 -> ab (l' - l) (8 * (u * l)) -> close (n' / l') t ->
  ab (t * l - n) (20 * (u * S) + 20 * tau).
Proof.
  intros Bn HS LS Hn Hl Ll Hl' Ht.
  destruct u_small as [U0 U1]. destruct tau_facts as (T0 & T1 & T2 & T3).
  pose proof (pw_pos (-200)) as P200. pose proof (pw_pos (-1075)) as H0. fold eta in H0.
  assert (Hul : u * l <= (1#1000000) * l) by nra. assert (Hul0 : 0 < u * l) by nra.
  assert (Hl0 : 0 < l') by (unfold ab in *; lra). assert (Hl1 : l <= (101#100) * l') by (unfold ab in *; lra).
  assert (Hl2 : l' <= (101#100) * l) by (unfold ab in *; lra).
  assert (HuS : u * S <= (1#1000000) * S) by nra. assert (HuS0 : 0 <= u * S) by nra.
  assert (Bn' : ab n' (S + 6 * (u * S) + 4 * tau)) by (unfold ab in *; lra).
  unfold close in Ht. apply ab_abs in Ht.
  assert (Ea : Qabs (n' / l') == Qabs n' * / l').
  { unfold Qdiv. rewrite Qabs_Qmult, (Qabs_pos (/ l')); [reflexivity|]. apply Qlt_le_weak, Qinv_lt_0_compat, Hl0. }
  assert (Bn'' : Qabs n' <= S + 6 * (u * S) + 4 * tau) by (apply ab_abs; exact Bn').
  assert (H1 : ab (t * l' - n') (u * (S + 6 * (u * S) + 4 * tau) + eta * l')).
  { assert (E2 : t * l' - n' == (t - n' / l') * l') by (field; lra). rewrite E2.
    assert (B3 : ab ((t - n' / l') * l') ((u * Qabs (n' / l') + eta) * l')) by (apply ab_mul; [exact Ht|unfold ab; lra]).
    assert (E3 : (u * Qabs (n' / l') + eta) * l' == u * Qabs n' + eta * l') by (rewrite Ea; field; lra).
    rewrite E3 in B3. assert (u * Qabs n' <= u * (S + 6 * (u * S) + 4 * tau)) by nra. unfold ab in *; lra. }
  assert (Hel : eta * l' <= tau).
  { assert (eta * l' <= eta * (2 * pw 204)) by nra.
    assert (eta * (2 * pw 204) <= tau) by (vm_compute; discriminate). lra. }
  assert (Hel0 : 0 <= eta * l') by nra.
  assert (HuuS : u * (u * S) <= (1#1000000) * (u * S)) by nra. assert (Hut : u * tau <= (1#1000000) * tau) by nra. assert (Hut0 : 0 <= u * tau) by nra.
  assert (G : u * (S + 6 * (u * S) + 4 * tau) + eta * l' <= (1001#1000) * (u * S) + 2 * tau).
  { assert (F : u * (S + 6 * (u * S) + 4 * tau) == u * S + 6 * (u * (u * S)) + 4 * (u * tau)) by ring. rewrite F. lra. }
  assert (Btl : ab (t * l') (S + 8 * (u * S) + 8 * tau)) by (unfold ab in *; lra).
  (* t * (l - l') *)
  assert (H2 : ab (t * (l' - l)) (9 * (u * S) + 9 * tau)).
  { assert (Btabs : Qabs t * l' <= S + 8 * (u * S) + 8 * tau).
    { apply ab_abs in Btl. rewrite Qabs_Qmult, (Qabs_pos l') in Btl by lra. exact Btl. }
    apply ab_abs. apply ab_abs in Hl'. rewrite Qabs_Qmult. pose proof (Qabs_nonneg t) as Ht0.
    apply Qle_trans with (Qabs t * (8 * (u * l))); [nra|].
    apply Qle_trans with (8 * (u * ((101#100) * (Qabs t * l')))).
    { assert (E : Qabs t * (8 * (u * l)) == 8 * (u * (Qabs t * l))) by ring. rewrite E.
      assert (Qabs t * l <= (101#100) * (Qabs t * l')) by nra. nra. }
    apply Qle_trans with (8 * (u * ((101#100) * (S + 8 * (u * S) + 8 * tau)))); [nra|].
    assert (F : 8 * (u * ((101#100) * (S + 8 * (u * S) + 8 * tau))) ==
      (808#100) * (u * S) + (6464#100) * (u * (u * S)) + (6464#100) * (u * tau)) by ring. rewrite F. lra. }
  assert (E : t * l - n == (t * l' - n') - t * (l' - l) + (n' - n)) by ring.
  unfold ab in *. rewrite E. lra.
Qed.

(** ** Differences and squared distances *)
Lemma sub_near x y X Y B : stands x X -> stands y Y -> ab X B -> ab Y B -> B <= pw 100 ->
  exists Z, stands (f64_sub x y) Z /\ ab (X - Y) (Qabs (X - Y)) /\ Qabs (X - Y) <= 2 * B /\ 2 * B <= pw 101 /\
    ab (Z - (X - Y)) (u * Qabs (X - Y) + eta).
Proof.
  intros Hx Hy Bx By HB.
  assert (P : 2 * B <= pw 101) by (assert (pw 101 == 2 * pw 100) by (vm_compute; reflexivity); lra).
  assert (L : ab (X - Y) (2 * B)) by (unfold ab in *; lra).
  destruct (sub_close x y X Y Hx Hy) as (Z & HZ & CZ).
  { apply (ab_big _ _ L). apply Qle_trans with (1 := P). vm_compute. discriminate. }
  exists Z. assert (L2 : ab (X - Y) (Qabs (X - Y))) by (apply ab_abs; apply Qle_refl).
  split; [exact HZ|]. split; [exact L2|]. split; [apply ab_abs; exact L|]. split; [exact P|]. apply (ab_close _ _ _ CZ L2).
Qed.
Lemma abs_sq x : Qabs x * Qabs x == x * x.
Proof. rewrite <- Qabs_Qmult. apply Qabs_pos. nra. Qed.
Lemma big_204 : pw 204 <= pw 900. Proof. vm_compute. discriminate. Qed.


Definition d2 (X Y X' Y' : Q) : Q := (X - X') * (X - X') + (Y - Y') * (Y - Y').

Lemma square64_near sq x y X Y B : good_square sq -> stands x X -> stands y Y -> ab X B -> ab Y B -> B <= pw 100 ->
  exists R, stands (sq (f64_sub x y)) R /\ ab (R - (X - Y) * (X - Y)) (5 * (u * ((X - Y) * (X - Y))) + tau).
Proof.
  intros HS Hx Hy Bx By HB.
  destruct (sub_near x y X Y B Hx Hy Bx By HB) as (Z & HZ & La & Lb & Lc & EZ).
  pose proof (Qabs_nonneg (X - Y)) as Hn. destruct u_small as [U0 U1].
  assert (He : eta <= pw 101) by (vm_compute; discriminate). assert (H4 : 4 * pw 101 <= pw 400) by (vm_compute; discriminate).
  destruct (HS _ _ HZ) as (R & HR & ER).
  { apply ab_abs. assert (u * Qabs (X - Y) <= (1#1000000) * Qabs (X - Y)) by nra. unfold ab in *. lra. }
  exists R. split; [exact HR|]. rewrite <- (abs_sq (X - Y)) at 2.
  apply (square_near (X - Y) Z R (Qabs (X - Y))); try assumption; try lra.
  rewrite (abs_sq (X - Y)). reflexivity.
Qed.
Lemma mul_mono a b c : 0 <= a -> b <= c -> a * b <= a * c.
Proof. intros. nra. Qed.
Lemma sq_nonneg x : 0 <= x * x.
Proof. nra. Qed.
Lemma d2_small X Y X' Y' B : ab X B -> ab Y B -> ab X' B -> ab Y' B -> 0 <= d2 X Y X' Y' /\ d2 X Y X' Y' <= 8 * (B * B).
Proof.
  unfold ab, d2. intros.
  assert (G : forall a b, - B <= a <= B -> - B <= b <= B -> (a - b) * (a - b) <= 4 * (B * B)).
  { intros a b Ha Hb. assert (0 <= (2 * B - (a - b)) * (2 * B + (a - b))) by (apply Qmult_le_0_compat; lra). lra. }
  split; [pose proof (sq_nonneg (X - X')); pose proof (sq_nonneg (Y - Y')); lra|]. assert (G1 : (X - X') * (X - X') <= 4 * (B * B)) by (apply G; split; lra).
  assert (G2 : (Y - Y') * (Y - Y') <= 4 * (B * B)) by (apply G; split; lra). lra.
Qed.
Lemma dist2_near sq p c X Y X' Y' B : good_square sq -> pstands p (X, Y) -> pstands c (X', Y') ->
  ab X B -> ab Y B -> ab X' B -> ab Y' B -> B <= pw 100 ->
  exists L, stands (dist2_64 sq p c) L /\ ab (L - d2 X Y X' Y') (7 * (u * d2 X Y X' Y') + 4 * tau).
Proof.
  intros HS [Hx Hy] [Hx' Hy'] BX BY BX' BY' HB. cbn [fst snd] in Hx, Hy, Hx', Hy'.
  destruct (square64_near sq _ _ _ _ B HS Hx Hx' BX BX' HB) as (R1 & H1 & E1).
  destruct (square64_near sq _ _ _ _ B HS Hy Hy' BY BY' HB) as (R2 & H2 & E2).
  destruct (d2_small X Y X' Y' B BX BY BX' BY') as [D0 D1].
  destruct u_small as [U0 U1]. destruct tau_facts as (T0 & T1 & T2 & T3).
  set (l := d2 X Y X' Y') in *.
  assert (Hul : u * l <= (1#1000000) * l) by nra. assert (Hul0 : 0 <= u * l) by nra.
  assert (Huul : u * (u * l) <= (1#1000000) * (u * l)) by nra.
  assert (Hut : u * tau <= (1#1000000) * tau) by nra. assert (Hut0 : 0 <= u * tau) by nra.
  assert (Het : eta <= tau) by (vm_compute; discriminate). pose proof (pw_pos (-1075)) as H0. fold eta in H0.
  assert (E : ab (R1 + R2 - l) (5 * (u * l) + 2 * tau)).
  { assert (F : u * l == u * ((X - X') * (X - X')) + u * ((Y - Y') * (Y - Y'))) by (unfold l, d2; ring).
    assert (G : R1 + R2 - l == (R1 - (X - X') * (X - X')) + (R2 - (Y - Y') * (Y - Y'))) by (unfold l, d2; ring).
    rewrite G. unfold ab in *. lra. }
  assert (BB : B * B <= pw 100 * pw 100) by (unfold ab in *; nra).
  assert (P : pw 100 * pw 100 == pw 200) by (vm_compute; reflexivity). rewrite P in BB.
  assert (P2 : 16 * pw 200 <= pw 900) by (vm_compute; discriminate).
  assert (T4 : tau <= pw 200) by (vm_compute; discriminate).
  assert (BR : ab (R1 + R2) (l + 5 * (u * l) + 2 * tau)) by (unfold ab in *; lra).
  destruct (add_close _ _ _ _ H1 H2) as (L & HL & CL); [apply (ab_big _ _ BR); lra|].
  exists L. split; [exact HL|]. pose proof (ab_close _ _ _ CL BR) as R.
  assert (F : u * (l + 5 * (u * l) + 2 * tau) + eta == u * l + 5 * (u * (u * l)) + 2 * (u * tau) + eta) by ring.
  rewrite F in R. unfold ab in *. lra.
Qed.

(** ** The numerator *)
Lemma numerator_near p v w PX PY VX VY WX WY B : pstands p (PX, PY) -> pstands v (VX, VY) -> pstands w (WX, WY) ->
  ab PX B -> ab PY B -> ab VX B -> ab VY B -> ab WX B -> ab WY B -> B <= pw 100 ->
  let S := Qabs (PX - VX) * Qabs (WX - VX) + Qabs (PY - VY) * Qabs (WY - VY) in
  exists N, stands (f64_add (f64_mul (f64_sub (fst p) (fst v)) (f64_sub (fst w) (fst v)))
                            (f64_mul (f64_sub (snd p) (snd v)) (f64_sub (snd w) (snd v)))) N /\
    ab (N - ((PX - VX) * (WX - VX) + (PY - VY) * (WY - VY))) (6 * (u * S) + 4 * tau).
Proof.
  intros [Hpx Hpy] [Hvx Hvy] [Hwx Hwy] BPX BPY BVX BVY BWX BWY HB S.  cbn [fst snd] in Hpx, Hpy, Hvx, Hvy, Hwx, Hwy.
  assert (Hprod : forall x v w X V W, stands x X -> stands v V -> stands w W -> ab X B -> ab V B -> ab W B ->
    exists R, stands (f64_mul (f64_sub x v) (f64_sub w v)) R /\
      ab (R - (X - V) * (W - V)) (4 * (u * (Qabs (X - V) * Qabs (W - V))) + tau) /\
      0 <= Qabs (X - V) * Qabs (W - V) /\ Qabs (X - V) * Qabs (W - V) <= 4 * (B * B) /\ ab ((X - V) * (W - V)) (Qabs (X - V) * Qabs (W - V))).
  { intros x v0 w0 X V W Hx Hv Hw BX BV BW.
    destruct (sub_near x v0 X V B Hx Hv BX BV HB) as (D' & HD & A1 & A2 & A3 & A4).
    destruct (sub_near w0 v0 W V B Hw Hv BW BV HB) as (E' & HE & C1 & C2 & C3 & C4).
    pose proof (Qabs_nonneg (X - V)) as N1. pose proof (Qabs_nonneg (W - V)) as N2.
    destruct u_small as [U0 U1].
    assert (He : eta <= pw 101) by (vm_compute; discriminate).
    assert (BD : ab D' (4 * pw 101)).
    { assert (u * Qabs (X - V) <= (1#1000000) * Qabs (X - V)) by nra. unfold ab in *. lra. }
    assert (BE : ab E' (4 * pw 101)).
    { assert (u * Qabs (W - V) <= (1#1000000) * Qabs (W - V)) by nra. unfold ab in *. lra. }
    destruct (mul_close _ _ _ _ HD HE) as (R & HR & CR).
    { apply (ab_big _ _ (ab_mul _ _ _ _ BD BE)). vm_compute. discriminate. }
    exists R. split; [exact HR|]. split; [|split; [nra|split; [nra|apply ab_mul; assumption]]].
    apply (prod_near _ _ D' E'); assumption || lra. }
  destruct (Hprod _ _ _ _ _ _ Hpx Hvx Hwx BPX BVX BWX) as (R1 & H1 & E1 & S1 & L1 & M1).
  destruct (Hprod _ _ _ _ _ _ Hpy Hvy Hwy BPY BVY BWY) as (R2 & H2 & E2 & S2 & L2 & M2).
  destruct u_small as [U0 U1]. destruct tau_facts as (T0 & T1 & T2 & T3).
  set (n := (PX - VX) * (WX - VX) + (PY - VY) * (WY - VY)).
  assert (HS0 : 0 <= S) by (unfold S; lra). assert (HS1 : S <= 8 * (B * B)) by (unfold S; lra).
  assert (Bn : ab n S) by (unfold ab, n, S in *; lra).
  assert (Hul : u * S <= (1#1000000) * S) by nra. assert (Hul0 : 0 <= u * S) by nra.
  assert (Huul : u * (u * S) <= (1#1000000) * (u * S)) by nra.
  assert (Hut : u * tau <= (1#1000000) * tau) by nra. assert (Hut0 : 0 <= u * tau) by nra.
  assert (Het : eta <= tau) by (vm_compute; discriminate). pose proof (pw_pos (-1075)) as H0. fold eta in H0.
  assert (E : ab (R1 + R2 - n) (4 * (u * S) + 2 * tau)).
  { assert (F : u * S == u * (Qabs (PX - VX) * Qabs (WX - VX)) + u * (Qabs (PY - VY) * Qabs (WY - VY))) by (unfold S; ring).
    rewrite F. unfold ab, n in *. lra. }
  assert (BB : B * B <= pw 100 * pw 100) by (unfold ab in *; nra).
  assert (P : pw 100 * pw 100 == pw 200) by (vm_compute; reflexivity). rewrite P in BB.
  assert (P2 : 16 * pw 200 <= pw 900) by (vm_compute; discriminate).
  assert (T4 : tau <= pw 200) by (vm_compute; discriminate).
  assert (BR : ab (R1 + R2) (S + 4 * (u * S) + 2 * tau)) by (unfold ab in *; lra).
  destruct (add_close _ _ _ _ H1 H2) as (N & HN & CN); [apply (ab_big _ _ BR); lra|].
  exists N. split; [exact HN|]. pose proof (ab_close _ _ _ CN BR) as R.
  assert (F : u * (S + 4 * (u * S) + 2 * tau) + eta == u * S + 4 * (u * (u * S)) + 2 * (u * tau) + eta) by ring.
  rewrite F in R. unfold ab in *. lra.
Qed.

(** ** The nearest point of the segment *)
Lemma weight_small a b p q M : 0 <= a -> 0 <= b -> 0 <= p -> 0 <= q -> p <= 2 * M -> q <= 2 * M ->
  (p * a + q * b) * a <= 4 * M * (a * a + b * b).
Proof.
  intros. assert (H5 : a * b <= a * a + b * b) by nra.
  assert (H6 : p * (a * a) <= 2 * M * (a * a)) by (apply Qmult_le_compat_r; [assumption|nra]).
  assert (H7 : 0 <= a * b) by nra.
  assert (H8 : q * (a * b) <= 2 * M * (a * b)) by (apply Qmult_le_compat_r; assumption).
  assert (H9 : 2 * M * (a * b) <= 2 * M * (a * a + b * b)) by nra.
  assert (H10 : 0 <= M * (b * b)) by nra.
  assert (E : (p * a + q * b) * a == p * (a * a) + q * (a * b)) by ring. rewrite E. lra.
Qed.
Lemma shift_small t s n l S a M : 0 < l -> pw (-200) <= l -> 0 <= a -> a <= 2 * M -> S * a <= 4 * M * l ->
  ab (t * l - n) (20 * (u * S) + 20 * tau) -> s == n / l ->
  ab ((clampQ t - clampQ s) * a) (81 * (u * M)).
Proof.
  intros Hl Hl2 Ha HaM HS Ht Hs. destruct u_small as [U0 U1]. destruct tau_facts as (T0 & T1 & T2 & T3).
  assert (E : ab (t - s) ((20 * (u * S) + 20 * tau) / l)).
  { assert (E : t - s == (t * l - n) / l) by (rewrite Hs; field; lra). rewrite E.
    unfold ab in *. split.
    - assert (F : - ((20 * (u * S) + 20 * tau) / l) == (- (20 * (u * S) + 20 * tau)) / l) by (field; lra). rewrite F.
      apply Qmult_le_compat_r; [lra|]. apply Qlt_le_weak, Qinv_lt_0_compat, Hl.
    - apply Qmult_le_compat_r; [lra|]. apply Qlt_le_weak, Qinv_lt_0_compat, Hl. }
  apply clamp_lip in E.
  pose proof (ab_mul _ _ a a E) as G. assert (Haa : ab a a) by (unfold ab; lra). specialize (G Haa).
  assert (K : (20 * (u * S) + 20 * tau) / l * a <= 81 * (u * M)).
  { assert (F : (20 * (u * S) + 20 * tau) / l * a == (20 * (u * (S * a)) + 20 * (tau * a)) / l) by (field; lra). rewrite F.
    apply Qle_shift_div_r; [exact Hl|].
    assert (K1 : u * (S * a) <= u * (4 * M * l)) by nra.
    assert (K2 : tau * a <= tau * (2 * M)) by nra.
    assert (HM : 0 <= M) by lra.
    assert (K3 : 40 * tau <= u * l).
    { apply Qle_trans with (u * pw (-200)); [vm_compute; discriminate|nra]. }
    assert (K4 : 40 * tau * M <= u * l * M) by (apply Qmult_le_compat_r; assumption).
    lra. }
  unfold ab in *. lra.
Qed.

Lemma coord_near v d t V D D' T T' M : stands v V -> stands d D' -> stands t T' -> ab V M -> 0 <= T <= 1 -> 0 <= T' <= 1 ->
  ab D (Qabs D) -> Qabs D <= 2 * M -> ab (V + D) M -> ab (D' - D) (u * Qabs D + eta) -> ab ((T' - T) * Qabs D) (81 * (u * M)) ->
  pw (-100) <= M -> M <= pw 100 ->
  exists C, stands (f64_add v (f64_mul t d)) C /\ ab (V + T * D) M /\ ab (C - (V + T * D)) (96 * (u * M)).
Proof.
  intros Hv Hd Ht BV HT HT' BD LD BW ED ET M0 M1. destruct u_small as [U0 U1].
  pose proof (pw_pos (-1075)) as H0. fold eta in H0. pose proof (pw_pos (-100)) as P0.
  assert (He : eta <= (1#1000000) * (u * M)).
  { apply Qle_trans with ((1#1000000) * (u * pw (-100))); [vm_compute; discriminate|nra]. }
  assert (HuM : u * M <= (1#1000000) * M) by nra. assert (HuM0 : 0 < u * M) by nra.
  assert (HuuM : u * (u * M) <= (1#1000000) * (u * M)) by nra. assert (Hue : u * eta <= eta) by nra.
  assert (Hua : u * Qabs D <= 2 * (u * M)) by nra.
  assert (BC : ab (V + T * D) M).
  { unfold ab in *. destruct HT as [Ta Tb].
    assert (E : V + T * D == (1 - T) * V + T * (V + D)) by ring. rewrite E. split; nra. }
  assert (E1 : ab ((T' - T) * D) (81 * (u * M))).
  { apply ab_abs. apply ab_abs in ET. rewrite Qabs_Qmult in ET |- *.
    rewrite (Qabs_pos (Qabs D)) in ET by apply Qabs_nonneg. exact ET. }
  assert (E2 : ab (T' * (D' - D)) (3 * (u * M))).
  { assert (B1 : ab T' 1) by (unfold ab; lra). pose proof (ab_mul _ _ _ _ B1 ED) as B2. unfold ab in *. lra. }
  assert (E3 : ab (T' * D' - T * D) (84 * (u * M))).
  { assert (F : T' * D' - T * D == (T' - T) * D + T' * (D' - D)) by ring. rewrite F. unfold ab in *. lra. }
  assert (B3 : ab (T * D) (2 * M)).
  { assert (B1 : ab T 1) by (unfold ab; lra). pose proof (ab_mul _ _ _ _ B1 BD) as B2. unfold ab in *. lra. }
  assert (B4 : ab (T' * D') (3 * M)) by (unfold ab in *; lra).
  assert (P9 : 16 * pw 100 <= pw 900) by (vm_compute; discriminate).
  destruct (mul_close _ _ _ _ Ht Hd) as (R & HR & CR); [apply (ab_big _ _ B4); lra|].
  pose proof (ab_close _ _ _ CR B4) as ER.
  assert (E4 : ab (R - T * D) (88 * (u * M))) by (unfold ab in *; lra).
  assert (B5 : ab (V + R) (2 * M)) by (unfold ab in *; lra).
  destruct (add_close _ _ _ _ Hv HR) as (C & HC & CC); [apply (ab_big _ _ B5); lra|].
  pose proof (ab_close _ _ _ CC B5) as EC.
  exists C. split; [exact HC|]. split; [exact BC|]. unfold ab in *. lra.
Qed.

(** The nearest point of a segment: the clamped projection. *)
Lemma clamp_best n l s t : 0 < l -> s == n / l -> 0 <= t <= 1 ->
  l * (clampQ s * clampQ s) - 2 * n * clampQ s <= l * (t * t) - 2 * n * t.
Proof.
  intros Hl Hs Ht. assert (En : n == s * l) by (rewrite Hs; field; lra). unfold clampQ.
  destruct (Qlt_le_dec 0 s); [destruct (Qlt_le_dec s 1)|].
  - assert (E : l * (t * t) - 2 * n * t - (l * (s * s) - 2 * n * s) == l * ((t - s) * (t - s))) by (rewrite En; ring).
    assert (0 <= l * ((t - s) * (t - s))) by (apply Qmult_le_0_compat; [lra|apply sq_nonneg]). lra.
  - assert (E : l * (t * t) - 2 * n * t - (l * (1 * 1) - 2 * n * 1) == l * ((1 - t) * ((1 - t) + 2 * (s - 1)))) by (rewrite En; ring).
    assert (0 <= l * ((1 - t) * ((1 - t) + 2 * (s - 1)))).
    { apply Qmult_le_0_compat; [lra|]. apply Qmult_le_0_compat; lra. } lra.
  - assert (E : l * (t * t) - 2 * n * t - (l * (0 * 0) - 2 * n * 0) == l * (t * (t + 2 * - s))) by (rewrite En; ring).
    assert (0 <= l * (t * (t + 2 * - s))).
    { apply Qmult_le_0_compat; [lra|]. apply Qmult_le_0_compat; lra. } lra.
Qed.

Lemma along_dist P V W t :
  sqdist P (along V W t) == sqdist P V + (sqdist V W * (t * t)
    - 2 * ((fst P - fst V) * (fst W - fst V) + (snd P - snd V) * (snd W - snd V)) * t).
Proof. unfold sqdist, along. cbn [fst snd]. ring. Qed.
Lemma d2_shift a b e M : ab a (2 * M) -> ab e (96 * (u * M)) -> 0 <= M -> b == a - e ->
  ab (b * b - a * a) (385 * (u * (M * M))) /\ b * b <= 2 * (a * a) + 2 * (9216 * (u * M * (u * M))).
Proof.
  intros Ha He HM E. destruct u_small as [U0 U1]. split.
  - assert (F : b * b - a * a == e * (e - 2 * a)) by (rewrite E; ring). rewrite F.
    assert (B1 : ab (e - 2 * a) ((4 + (1#1000)) * M)).
    { assert (u * M <= (1#1000000) * M) by nra. unfold ab in *. lra. }
    pose proof (ab_mul _ _ _ _ He B1) as B2.
    assert (G : 96 * (u * M) * ((4 + (1#1000)) * M) == (384 + (96#1000)) * (u * (M * M))) by ring. rewrite G in B2.
    assert (0 <= u * (M * M)) by nra. unfold ab in *. lra.
  - pose proof (sq_nonneg (a + e)) as S1. pose proof (ab_mul _ _ _ _ He He) as S2. unfold ab in S2.
    assert (F : b * b == 2 * (a * a) + 2 * (e * e) - (a + e) * (a + e)) by (rewrite E; ring). rewrite F.
    assert (G : 96 * (u * M) * (96 * (u * M)) == 9216 * (u * M * (u * M))) by ring. rewrite G in S2. lra.
Qed.

Theorem segment64_near sq p v w P V W M :
  good_square sq -> pstands p P -> pstands v V -> pstands w W -> box M P -> box M V -> box M W ->
  pw (-100) <= M -> M <= pw 99 -> pw (-200) <= sqdist V W ->
  exists d c D C t, dist_to_segment64 sq p v w = Ok (d, c) /\ stands d D /\ pstands c C /\ 0 <= t <= 1 /\
    (forall s, 0 <= s <= 1 -> sqdist P (along V W t) <= sqdist P (along V W s)) /\
    Qabs (fst C - fst (along V W t)) <= pw (-46) * M /\ Qabs (snd C - snd (along V W t)) <= pw (-46) * M /\
    Qabs (D - sqdist P (along V W t)) <= pw (-43) * (M * M) /\
    D <= 3 * sqdist P (along V W t) + pw (-90) * (M * M).
Proof.
  destruct P as [PX PY], V as [VX VY], W as [WX WY]. unfold box. cbn [fst snd].
  intros HS Hp Hv Hw [BPX BPY] [BVX BVY] [BWX BWY] M0 M1 Hl.
  apply ab_abs in BPX, BPY, BVX, BVY, BWX, BWY.
  destruct u_small as [U0 U1]. destruct tau_facts as (T0 & T1 & T2 & T3).
  pose proof (pw_pos (-100)) as P0. pose proof (pw_pos (-200)) as P1.
  assert (M2 : M <= pw 100) by (apply Qle_trans with (1 := M1); vm_compute; discriminate).
  assert (HM : 0 <= M) by lra.
  set (l := sqdist (VX, VY) (WX, WY)) in *.
  assert (El : l == d2 VX VY WX WY) by (unfold l, sqdist, d2; cbn [fst snd]; ring).
  destruct (dist2_near sq v w VX VY WX WY M HS Hv Hw BVX BVY BWX BWY M2) as (L & HL & EL).
  rewrite <- El in EL.
  set (n := (PX - VX) * (WX - VX) + (PY - VY) * (WY - VY)).
  destruct (numerator_near p v w PX PY VX VY WX WY M Hp Hv Hw BPX BPY BVX BVY BWX BWY M2) as (N & HN & EN). fold n in EN.
  set (S := Qabs (PX - VX) * Qabs (WX - VX) + Qabs (PY - VY) * Qabs (WY - VY)) in *.
  destruct Hp as [Hpx Hpy]. pose proof Hv as [Hvx Hvy]. destruct Hw as [Hwx Hwy]. cbn [fst snd] in *.
  destruct (sub_near _ _ _ _ M Hpx Hvx BPX BVX M2) as (_ & _ & A1 & A2 & _ & _).
  destruct (sub_near _ _ _ _ M Hpy Hvy BPY BVY M2) as (_ & _ & A3 & A4 & _ & _).
  destruct (sub_near _ _ _ _ M Hwx Hvx BWX BVX M2) as (EX & HEX & A5 & A6 & A7 & A8).
  destruct (sub_near _ _ _ _ M Hwy Hvy BWY BVY M2) as (EY & HEY & A9 & A10 & A11 & A12).
  pose proof (Qabs_nonneg (PX - VX)) as N1. pose proof (Qabs_nonneg (PY - VY)) as N2.
  pose proof (Qabs_nonneg (WX - VX)) as N3. pose proof (Qabs_nonneg (WY - VY)) as N4.
  assert (Eab : Qabs (WX - VX) * Qabs (WX - VX) + Qabs (WY - VY) * Qabs (WY - VY) == l).
  { rewrite !abs_sq. unfold l, sqdist. cbn [fst snd]. ring. }
  assert (HM2 : M * M <= pw 200).
  { apply Qle_trans with (pw 100 * pw 100); [nra|]. vm_compute. discriminate. }
  assert (Bl : l <= pw 204).
  { destruct (d2_small VX VY WX WY M BVX BVY BWX BWY) as [_ G]. rewrite El.
    assert (8 * pw 200 <= pw 204) by (vm_compute; discriminate). lra. }
  assert (HS0 : 0 <= S) by (unfold S; nra).
  assert (HS1 : S <= pw 204).
  { assert (Qabs (PX - VX) * Qabs (WX - VX) <= 2 * M * (2 * M)) by nra.
    assert (Qabs (PY - VY) * Qabs (WY - VY) <= 2 * M * (2 * M)) by nra.
    assert (8 * pw 200 <= pw 204) by (vm_compute; discriminate). unfold S. lra. }
  assert (Bn : ab n S).
  { pose proof (ab_mul _ _ _ _ A1 A5). pose proof (ab_mul _ _ _ _ A3 A9). unfold ab, n, S in *. lra. }
  assert (Hl0 : 0 < l) by lra.
  assert (EL' : ab (L - l) (8 * (u * l))).
  { assert (4 * tau <= u * l) by (apply Qle_trans with (u * pw (-200)); [vm_compute; discriminate|nra]). unfold ab in *. lra. }
  assert (Hul : u * l <= (1#1000000) * l) by nra.
  assert (HL0 : (1#2) * l < L) by (unfold ab in *; lra).
  (* the quotient *)
  assert (BN : ab N (2 * pw 204)).
  { assert (u * S <= (1#1000000) * S) by nra. assert (4 * tau <= (1#2) * pw 204) by (vm_compute; discriminate). unfold ab in *. lra. }
  assert (HLn : ~ L == 0) by lra.
  destruct (div_close _ _ _ _ HN HL HLn) as (T & HT & CT).
  { assert (BQ : ab (N / L) (pw 900)); [|apply (ab_big _ _ BQ); apply Qle_refl].
    assert (K : 2 * pw 204 <= pw 900 * ((1#2) * pw (-200))) by (vm_compute; discriminate).
    assert (P9 : 0 < pw 900) by apply pw_pos.
    assert (K2 : pw 900 * ((1#2) * pw (-200)) <= pw 900 * L) by nra.
    unfold ab in *. split.
    - apply Qle_shift_div_l; lra.
    - apply Qle_shift_div_r; lra. }
  pose proof (param_near n N l L T S Bn HS0 HS1 EN Hl Bl EL' CT) as ET.
  set (s := n / l). assert (Es : s == n / l) by reflexivity.
  pose proof (clamp_range T) as RT'. pose proof (clamp_range s) as RT.
  assert (WX4 : S * Qabs (WX - VX) <= 4 * M * l).
  { rewrite <- Eab. apply weight_small; assumption. }
  assert (WY4 : S * Qabs (WY - VY) <= 4 * M * l).
  { assert (ES : S == Qabs (PY - VY) * Qabs (WY - VY) + Qabs (PX - VX) * Qabs (WX - VX)) by (unfold S; ring). rewrite ES.
    assert (El2 : l == Qabs (WY - VY) * Qabs (WY - VY) + Qabs (WX - VX) * Qabs (WX - VX)) by (rewrite <- Eab; ring). rewrite El2.
    apply weight_small; assumption. }
  pose proof (shift_small T s n l S _ M Hl0 Hl N3 A6 WX4 ET Es) as SX.
  pose proof (shift_small T s n l S _ M Hl0 Hl N4 A10 WY4 ET Es) as SY.
  pose proof (clamp_stands _ _ HT) as HT'.
  assert (BVWX : ab (VX + (WX - VX)) M) by (unfold ab in *; lra). assert (BVWY : ab (VY + (WY - VY)) M) by (unfold ab in *; lra).
  destruct (coord_near _ _ _ VX (WX - VX) EX (clampQ s) (clampQ T) M Hvx HEX HT' BVX RT RT' A5 A6 BVWX A8 SX M0 M2) as (CX & HCX & BCX & ECX).
  destruct (coord_near _ _ _ VY (WY - VY) EY (clampQ s) (clampQ T) M Hvy HEY HT' BVY RT RT' A9 A10 BVWY A12 SY M0 M2) as (CY & HCY & BCY & ECY).
  set (QX := VX + clampQ s * (WX - VX)) in *. set (QY := VY + clampQ s * (WY - VY)) in *.
  assert (HuM : u * M <= (1#1000000) * M) by nra. assert (HuM0 : 0 <= u * M) by nra.
  assert (M3 : 2 * M <= pw 100).
  { assert (2 * pw 99 <= pw 100) by (vm_compute; discriminate). lra. }
  assert (BX2 : ab CX (2 * M)) by (unfold ab in *; lra). assert (BY2 : ab CY (2 * M)) by (unfold ab in *; lra).
  assert (BP2 : ab PX (2 * M)) by (unfold ab in *; lra). assert (BP3 : ab PY (2 * M)) by (unfold ab in *; lra).
  match type of HCX with stands ?x _ => set (cx := x) in * end.
  match type of HCY with stands ?x _ => set (cy := x) in * end.
  destruct (dist2_near sq p (cx, cy) PX PY CX CY (2 * M) HS (conj Hpx Hpy) (conj HCX HCY) BP2 BP3 BX2 BY2 M3) as (D & HD & ED).
  exists (dist2_64 sq p (cx, cy)), (cx, cy), D, (CX, CY), (clampQ s).
  split; [|split; [exact HD|split; [exact (conj HCX HCY)|split; [exact RT|split; [|]]]]].
  - unfold dist_to_segment64. fold (dist2_64 sq v w).
    assert (Z : f64_is_zero (dist2_64 sq v w) = false).
    { destruct HL as [q [Hq Eq]]. destruct (dist2_64 sq v w); try reflexivity. cbn in Hq. injection Hq as <-. lra. }
    rewrite Z. reflexivity.
  - intros t Ht. rewrite !along_dist. fold l. cbn [fst snd]. fold n.
    pose proof (clamp_best n l s t Hl0 Es Ht). lra.
  - assert (Ea : along (VX, VY) (WX, WY) (clampQ s) = (QX, QY)) by reflexivity. rewrite Ea. cbn [fst snd].
    assert (E46 : pw (-46) * M == 128 * (u * M)).
    { assert (F : pw (-46) == 128 * u) by (vm_compute; reflexivity). rewrite F. ring. }
    split; [apply ab_abs; rewrite E46; unfold ab in *; lra|]. split; [apply ab_abs; rewrite E46; unfold ab in *; lra|].
    assert (BdX : ab (PX - QX) (2 * M)) by (unfold ab in *; lra). assert (BdY : ab (PY - QY) (2 * M)) by (unfold ab in *; lra).
    destruct (d2_shift (PX - QX) (PX - CX) (CX - QX) M BdX ECX HM) as [G1 G2]; [ring|].
    destruct (d2_shift (PY - QY) (PY - CY) (CY - QY) M BdY ECY HM) as [G3 G4]; [ring|].
    set (dd := d2 PX PY CX CY) in *.
    assert (Edd : dd == (PX - CX) * (PX - CX) + (PY - CY) * (PY - CY)) by reflexivity.
    set (qq := sqdist (PX, PY) (QX, QY)).
    assert (Eqq : qq == (PX - QX) * (PX - QX) + (PY - QY) * (PY - QY)) by reflexivity.
    assert (Bdd : 0 <= dd /\ dd <= 8 * ((2 * M) * (2 * M))) by (apply d2_small; assumption).
    assert (Bqq : 0 <= qq).
    { rewrite Eqq. pose proof (sq_nonneg (PX - QX)). pose proof (sq_nonneg (PY - QY)). lra. }
    assert (HMM : pw (-200) <= M * M).
    { apply Qle_trans with (pw (-100) * pw (-100)); [vm_compute; discriminate|]. apply sq_mono; [apply Qlt_le_weak; exact P0|exact M0]. }
    assert (HuMM : u * dd <= 32 * (u * (M * M))).
    { apply Qle_trans with (u * (8 * ((2 * M) * (2 * M)))); [apply mul_mono; [lra|apply Bdd]|].
      assert (F : u * (8 * ((2 * M) * (2 * M))) == 32 * (u * (M * M))) by ring. rewrite F. apply Qle_refl. }
    assert (Ht : tau <= pw (-120) * pw (-200)) by (vm_compute; discriminate).
    assert (Ht2 : tau <= pw (-120) * (M * M)).
    { apply Qle_trans with (1 := Ht). apply mul_mono; [apply Qlt_le_weak, pw_pos|exact HMM]. }
    assert (Ht3 : pw (-120) <= (1#1000) * u) by (vm_compute; discriminate).
    assert (Ht4 : tau <= (1#1000) * (u * (M * M))).
    { apply Qle_trans with (1 := Ht2). apply Qle_trans with ((1#1000) * u * (M * M)); [apply Qmult_le_compat_r; [exact Ht3|apply sq_nonneg]|].
      rewrite <- Qmult_assoc. apply Qle_refl. }
    split.
    + apply ab_abs. assert (E43 : pw (-43) * (M * M) == 1024 * (u * (M * M))).
      { assert (F : pw (-43) == 1024 * u) by (vm_compute; reflexivity). rewrite F. ring. }
      rewrite E43. unfold ab in *. lra.
    + assert (Hud : u * dd <= (1#1000000) * dd) by (apply Qmult_le_compat_r; [exact U1|apply Bdd]).
      assert (K1 : D <= (1001#1000) * dd + 4 * tau) by (unfold ab in *; lra).
      assert (K2 : dd <= 2 * qq + 4 * (9216 * (u * M * (u * M)))) by lra.
      assert (K3 : (1001#1000) * (4 * (9216 * (u * u))) + 4 * pw (-120) <= pw (-90)) by (vm_compute; discriminate).
      assert (K4 : ((1001#1000) * (4 * (9216 * (u * u))) + 4 * pw (-120)) * (M * M) <= pw (-90) * (M * M)).
      { apply Qmult_le_compat_r; [exact K3|apply sq_nonneg]. }
      assert (K5 : ((1001#1000) * (4 * (9216 * (u * u))) + 4 * pw (-120)) * (M * M) ==
        (1001#1000) * (4 * (9216 * (u * M * (u * M)))) + 4 * (pw (-120) * (M * M))) by ring.
      lra.
Qed.

(** ** The nearest segment of a path *)
Section Path.
Variables (sq : f64 -> f64) (p : pt64) (P : Q * Q) (M : Q).
Hypotheses (HS : good_square sq) (Hp : pstands p P) (BP : box M P) (M0 : pw (-100) <= M) (M1 : M <= pw 99).

Definition hit (L : list (Q * Q)) (h : f64 * pt64 * nat) : Prop :=
  let '(d, c, i) := h in
  exists D C t V W, stands d D /\ pstands c C /\ segment_of L i V W /\ 0 <= t <= 1 /\
    (forall s, 0 <= s <= 1 -> sqdist P (along V W t) <= sqdist P (along V W s)) /\
    Qabs (fst C - fst (along V W t)) <= pw (-46) * M /\ Qabs (snd C - snd (along V W t)) <= pw (-46) * M /\
    Qabs (D - sqdist P (along V W t)) <= pw (-43) * (M * M).
Definition below (d : f64) (B : Q) : Prop := exists D, stands d D /\ D <= B.

Lemma path64_loop L : forall rest i l best,
  Forall2 pstands l rest -> Forall (box M) rest ->
  (forall k V W, segment_of rest k V W -> pw (-200) <= sqdist V W) ->
  (forall k, nth_error rest k = nth_error L (i + k)) ->
  match best with None => (2 <= length rest)%nat | Some h => hit L h end ->
  exists h, distance_to_path64_from sq i p l best = Ok (Some h) /\ hit L h /\
    (forall d c j B, best = Some (d, c, j) -> below d B -> below (fst (fst h)) B) /\
    (forall k V W s, segment_of rest k V W -> 0 <= s <= 1 ->
       below (fst (fst h)) (sqdist P (along V W s) + pw (-43) * (M * M))).
Proof.
  induction rest as [|V rest IH]; intros i l best F BR HR HN Hb.
  - inversion F; subst. destruct best as [[[d c] j]|]; [|cbn in Hb; lia].
    exists (d, c, j). split; [reflexivity|]. split; [exact Hb|]. split.
    + intros d' c' j' B E H. injection E as <- <- <-. exact H.
    + intros k V W s [E _]. destruct k; discriminate E.
  - inversion F as [|v V' l' rest' Hv F']; subst. inversion BR as [|V' rest' BV BR']; subst.
    destruct rest as [|W rest].
    { inversion F'; subst. destruct best as [[[d c] j]|]; [|cbn in Hb; lia].
      exists (d, c, j). split; [reflexivity|]. split; [exact Hb|]. split.
      + intros d' c' j' B E H. injection E as <- <- <-. exact H.
      + intros k V' W s [_ E]. destruct k; discriminate E. }
    inversion F' as [|w W' l'' rest' Hw F'']; subst. inversion BR' as [|W' rest' BW BR'']; subst.
    assert (Hl : pw (-200) <= sqdist V W) by (apply (HR 0%nat); split; reflexivity).
    destruct (segment64_near sq p v w P V W M HS Hp Hv Hw BP BV BW M0 M1 Hl)
      as (d & c & D & C & t & Ed & HD & HC & Ht & Hmin & H1 & H2 & H3 & _).
    change (distance_to_path64_from sq i p (v :: w :: l'') best) with
      (rbind (dist_to_segment64 sq p v w) (fun '(sd, sc) =>
        distance_to_path64_from sq (S i) p (w :: l'')
          (if match best with None => true | Some (d, _, _) => f64_ltb sd d end then Some (sd, sc, i) else best))).
    rewrite Ed. cbn [rbind].
    assert (Hhit : hit L (d, c, i)).
    { exists D, C, t, V, W. repeat (split; [eassumption|]). split.
      - split; [rewrite <- (Nat.add_0_r i), <- HN; reflexivity|].
        assert (E : S i = (i + 1)%nat) by lia. rewrite E, <- HN. reflexivity.
      - repeat (split; [eassumption|]). exact H3. }
    assert (Hnew : forall s, 0 <= s <= 1 -> below d (sqdist P (along V W s) + pw (-43) * (M * M))).
    { intros s Hs. exists D. split; [exact HD|]. apply ab_abs in H3. pose proof (Hmin s Hs). unfold ab in H3. lra. }
    set (better := match best with None => true | Some (d, _, _) => _ end).
    set (best' := if better then Some (d, c, i) else best).
    assert (Hb' : match best' with None => (2 <= length (W :: rest))%nat | Some h => hit L h end).
    { unfold best', better. destruct best as [[[d0 c0] j0]|]; [|exact Hhit]. destruct (f64_ltb d d0); [exact Hhit|exact Hb]. }
    assert (HR' : forall k V0 W0, segment_of (W :: rest) k V0 W0 -> pw (-200) <= sqdist V0 W0).
    { intros k V0 W0 [E1 E2]. apply (HR (S k)). split; assumption. }
    assert (HN' : forall k, nth_error (W :: rest) k = nth_error L (S i + k)).
    { intros k. pose proof (HN (S k)) as E. cbn [nth_error] in E. rewrite E. f_equal. lia. }
    destruct (IH (S i) (w :: l'') best' F' BR' HR' HN' Hb') as (h & Eh & Hh & HB & HA).
    exists h. split; [exact Eh|]. split; [exact Hh|].
    (* the new best is no worse than the two candidates *)
    assert (Kbest : forall d0 c0 j0 B, best = Some (d0, c0, j0) -> below d0 B -> below (fst (fst h)) B).
    { intros d0 c0 j0 B E HB0. unfold best', better in HB. rewrite E in HB, Hb.
      destruct (f64_ltb d d0) eqn:El.
      - apply (HB d c i); [reflexivity|]. destruct HB0 as (D0 & S0 & L0). apply (ltb_stands _ _ _ _ HD S0) in El.
        exists D. split; [exact HD|lra].
      - apply (HB d0 c0 j0); [reflexivity|exact HB0]. }
    split; [exact Kbest|].
    intros [|k] V0 W0 s [E1 E2] Hs.
    + cbn in E1, E2. injection E1 as <-. injection E2 as <-. pose proof (Hnew s Hs) as Hn. unfold best', better in HB.
      destruct best as [[[d0 c0] j0]|]; [|apply (HB d c i); [reflexivity|exact Hn]].
      destruct (f64_ltb d d0) eqn:El; [apply (HB d c i); [reflexivity|exact Hn]|].
      apply (HB d0 c0 j0); [reflexivity|]. destruct Hb as (D0 & C0 & t0 & V0 & W0 & S0 & _).
      assert (L0 : D0 <= D).
      { apply Qnot_lt_le. intros Cc. apply (ltb_stands _ _ _ _ HD S0) in Cc. congruence. }
      destruct Hn as (D' & S' & L'). exists D0. split; [exact S0|]. pose proof (stands_unique _ _ _ HD S'). lra.
    + apply (HA k); [split; assumption|exact Hs].
Qed.
End Path.

Theorem path64_near sq p l P L M :
  good_square sq -> pstands p P -> Forall2 pstands l L -> box M P -> Forall (box M) L ->
  pw (-100) <= M -> M <= pw 99 -> (2 <= length L)%nat ->
  (forall k V W, segment_of L k V W -> pw (-200) <= sqdist V W) ->
  exists d c i D C t V W, distance_to_path64 sq p l = Ok (Some (d, c, i)) /\ stands d D /\ pstands c C /\
    segment_of L i V W /\ 0 <= t <= 1 /\
    Qabs (fst C - fst (along V W t)) <= pw (-46) * M /\ Qabs (snd C - snd (along V W t)) <= pw (-46) * M /\
    Qabs (D - sqdist P (along V W t)) <= pw (-43) * (M * M) /\
    (forall k V' W' s, segment_of L k V' W' -> 0 <= s <= 1 -> D <= sqdist P (along V' W' s) + pw (-43) * (M * M)).
Proof.
  intros HS Hp F BP BL M0 M1 H2 HL.
  destruct (path64_loop sq p P M HS Hp BP M0 M1 L L 0 l None F BL HL (fun k => eq_refl) H2)
    as ([[d c] i] & E & (D & C & t & V & W & HD & HC & Hseg & Ht & _ & E1 & E2 & E3) & _ & HA).
  exists d, c, i, D, C, t, V, W. repeat (split; [eassumption|]).
  intros k V' W' s Hk Hs. destruct (HA k V' W' s Hk Hs) as (D' & S' & L').
  pose proof (stands_unique _ _ _ HD S'). lra.
Qed.
