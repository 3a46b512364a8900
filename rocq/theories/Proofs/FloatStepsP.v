(** * Progressions, counts and tolerances in double precision *)
From Verif Require Import Base.Py Model.Float Model.SegmentFloat Model.FloatSteps.
From Verif Require Export Proofs.SegmentFloatP.
From Coq Require Import ZArith QArith Qabs Qround SpecFloat List Lia Lqa.
Import ListNotations.
Local Open Scope Q_scope.
Local Open Scope list_scope.

Lemma square_by_mul : good_square (fun x => f64_mul x x).
Proof.
  intros x X Hx HX.
  assert (B : ab (X * X) (pw 400 * pw 400)) by (apply ab_mul; apply ab_abs; exact HX).
  destruct (mul_close x x X X Hx Hx) as (Y & HY & CY); [apply (ab_big _ _ B); vm_compute; discriminate|].
  exists Y. split; [exact HY|]. unfold close in CY. apply (Qle_trans _ _ _ CY).
  rewrite (Qabs_pos (X * X)) by apply sq_nonneg. fold eta.
  assert (E : pw (-52) == 2 * u) by (vm_compute; reflexivity). rewrite E.
  assert (0 <= u * (X * X)) by (apply Qmult_le_0_compat; [apply Qlt_le_weak; reflexivity|apply sq_nonneg]). lra.
Qed.

(** ** Stepping down from the surface *)
Lemma passes64_floor stepdown depth s z x :
  stands stepdown s -> stands depth z -> pw (-100) <= s -> s + Qabs z <= pw 98 ->
  In x (step_depths64 None stepdown depth) ->
  exists X, stands x X /\ z - pw (-45) * (s + Qabs z) < X.
Proof.
  intros Hs Hz Ls Lm Hin. apply In_nth_error in Hin. destruct Hin as [i Hi].
  assert (E0 : Qabs 0 + s + Qabs z <= pw 98) by (change (Qabs 0) with 0; lra).
  destruct (step_depths64_near None stepdown depth 0 s z (Qeq_refl 0) Hs Hz Ls E0) as [P _].
  destruct (P i x Hi) as (X & HX & B & L). exists X. split; [exact HX|].
  change (Qabs 0) with 0 in B, L. pose proof (kq_nonneg (S i)) as Hk. set (k := kq (S i)) in *.
  pose proof (Qabs_nonneg z) as Hz0. assert (Bz : - z <= Qabs z) by (pose proof (Qle_Qabs (- z)) as Q; rewrite Qabs_opp in Q; exact Q).
  pose proof (pw_pos (-100)) as H100.
  assert (E47 : pw (-47) == 64 * u) by reflexivity. assert (E45 : pw (-45) == 256 * u) by reflexivity.
  destruct u_small as [U0 U1]. rewrite E47 in B, L. rewrite E45.
  assert (U2 : 0 <= u * s) by nra. assert (U3 : 0 <= u * Qabs z) by nra.
  assert (U4 : u * (u * s) <= (1#1000000) * (u * s)) by nra. assert (U5 : u * (u * Qabs z) <= (1#1000000) * (u * Qabs z)) by nra.
  assert (K : k * s <= Qabs z + 64 * (u * s) + 64 * (u * Qabs z)) by lra.
  assert (K2 : u * (k * s) <= u * (Qabs z + 64 * (u * s) + 64 * (u * Qabs z))) by (apply mul_mono; lra).
  assert (E : 64 * u * k * (0 + s) == 64 * (u * (k * s))) by ring. rewrite E in B. unfold ab in B.
  assert (E2 : u * (Qabs z + 64 * (u * s) + 64 * (u * Qabs z)) == u * Qabs z + 64 * (u * (u * s)) + 64 * (u * (u * Qabs z))) by ring.
  rewrite E2 in K2. lra.
Qed.

(** ** Depths of a surface operation *)
Lemma last_snoc_or {A} (l : list A) d x : last (l ++ [x]) d = x.
Proof. induction l as [|a l IH]; [reflexivity|]. cbn. destruct (l ++ [x]) eqn:E; [destruct l; discriminate|exact IH]. Qed.
Lemma last_any {A} (l : list A) (a d d' : A) : last (a :: l) d = last (a :: l) d'.
Proof. revert a. induction l as [|b l IH]; intros a; [reflexivity|]. exact (IH b). Qed.
Lemma last_in {A} (l : list A) d : l <> [] -> exists l', l = l' ++ [last l d].
Proof. intros H. exists (removelast l). apply app_removelast_last. exact H. Qed.

Lemma eqb_stands x y X Y : stands x X -> stands y Y -> SFeqb x y = true -> X == Y.
Proof.
  intros [q [H E]] [q' [H' E']] HE. rewrite <- E, <- E'.
  unfold SFeqb in HE. destruct x as [s|s| |s m e], y as [s'|s'| |s' m' e']; try discriminate.
  - cbn in H, H'. congruence.
  - cbn in HE. destruct s'; discriminate HE.
  - cbn in HE. destruct s; discriminate HE.
  - cbn in HE. destruct s, s'; try discriminate HE.
    + destruct (e ?= e')%Z eqn:Ce; [|discriminate HE|discriminate HE]. apply Z.compare_eq in Ce. subst e'.
      destruct (Pos.compare_cont Eq m m') eqn:Cm; try discriminate HE. change (Pos.compare_cont Eq m m') with (Pos.compare m m') in Cm.
      apply Pos.compare_eq in Cm. subst m'. congruence.
    + destruct (e ?= e')%Z eqn:Ce; [|discriminate HE|discriminate HE]. apply Z.compare_eq in Ce. subst e'.
      destruct (Pos.compare_cont Eq m m') eqn:Cm; try discriminate HE. change (Pos.compare_cont Eq m m') with (Pos.compare m m') in Cm.
      apply Pos.compare_eq in Cm. subst m'. congruence.
Qed.

Theorem surface_depths64_near top bottom step D s z :
  stands top D -> stands step (- s) -> stands bottom z -> pw (-100) <= s -> Qabs D + s + Qabs z <= pw 98 ->
  pw (-46) * (Qabs D + s + Qabs z) < D - s - z ->
  exists ds, surface_depths64 top bottom step = Ok ds /\
    (forall i x, nth_error ds i = Some x -> exists X, stands x X /\ z - pw (-47) * (kq (S i) + 1) * (Qabs D + s + Qabs z) < X /\
      (S i = length ds -> X == z) /\ (S i <> length ds -> Qabs (X - (D - kq (S i) * s)) <= pw (-47) * kq (S i) * (Qabs D + s))) /\
    D - kq (pred (length ds)) * s - z <= s + pw (-47) * (kq (length ds) + 1) * (Qabs D + s + Qabs z).
Proof.
  intros HD Hs Hz Ls Lm Hroom.
  assert (H0 : 0 <= Qabs D) by apply Qabs_nonneg. assert (Bd : ab D (Qabs D)) by (apply ab_abs; apply Qle_refl).
  pose proof (Qabs_nonneg z) as Hzz. pose proof (pw_pos (-100)) as H100. destruct u_small as [U0 U1].
  set (w := Qabs D + s) in *. set (G := w + Qabs z) in *. assert (Hw : 0 < w) by (unfold w; lra). assert (HwG : w <= G) by (unfold G; lra).
  assert (He : eta <= u * s).
  { apply Qle_trans with (u * pw (-100)); [vm_compute; discriminate|]. apply mul_mono; lra. }
  assert (Huw : u * s <= u * w) by (apply mul_mono; unfold w; lra). assert (Huw0 : 0 <= u * w) by nra. assert (HuwG : u * w <= u * G) by (apply mul_mono; lra).
  assert (B : ab (D + - s) w) by (unfold ab, w in *; lra).
  assert (P98 : pw 98 <= pw 900) by (apply pw_le; lia).
  destruct (add_close _ _ _ _ HD Hs) as (A & A1 & A2); [apply (ab_big _ _ B); unfold w, G in *; lra|].
  pose proof (ab_close _ _ _ A2 B) as A3.
  assert (A4 : ab (A - (D - s)) (2 * (u * (Qabs D + s)))) by (fold w; unfold ab in *; lra).
  destruct (descending64_near _ step bottom A D s z A1 A4 Hs Hz Ls Lm) as [P1 P2]. fold w in P1, P2. fold G in P1, P2.
  assert (E47 : pw (-47) == 64 * u) by reflexivity. assert (E46 : pw (-46) == 128 * u) by reflexivity. rewrite E46 in Hroom. rewrite E47 in P2.
  unfold surface_depths64.
  set (l := arange64 (f64_add top step) bottom step) in *.
  assert (Hlen : l <> []).
  { intros El. rewrite El in P2. cbn [length] in P2. change (kq 0) with 0 in P2. lra. }
  assert (P3 : forall i x, nth_error l i = Some x -> exists X, stands x X /\ z - pw (-47) * (kq (S i) + 1) * G < X /\
    Qabs (X - (D - kq (S i) * s)) <= pw (-47) * kq (S i) * w).
  { intros i x Hx. destruct (P1 i x Hx) as (X & X1 & X2 & X3). exists X. split; [exact X1|]. split; [|apply ab_abs; exact X2].
    rewrite E47 in X2, X3 |- *. pose proof (kq_nonneg (S i)) as Hk. set (k := kq (S i)) in *.
    assert (K : k * (u * w) <= k * (u * G)) by (apply mul_mono; assumption).
    assert (F1 : 64 * u * k * w == 64 * (k * (u * w))) by ring. assert (F2 : 64 * u * (k + 1) * G == 64 * (k * (u * G)) + 64 * u * G) by ring.
    rewrite F1 in X2. rewrite F2. unfold ab in *. lra. }
  destruct (last_in l bottom Hlen) as [l' El].
  assert (Nl : nth_error l (length l') = Some (last l bottom)).
  { rewrite El at 1. rewrite nth_error_app2 by lia. rewrite Nat.sub_diag. reflexivity. }
  assert (Ll : length l = S (length l')) by (rewrite El, app_length; cbn; lia).
  assert (Elast : exists d ds, l = d :: ds /\ last ds d = last l bottom).
  { destruct l as [|d ds]; [congruence|]. exists d, ds. split; [reflexivity|]. destruct ds; [reflexivity|].
    exact (last_any ds f d bottom). }
  destruct Elast as (d & ds & Ed & Edl).
  assert (HG : 0 < G) by lra. assert (HuG : 0 < u * G) by nra.
  destruct (SFeqb (last ds d) bottom) eqn:Eb.
  - exists l. split; [rewrite Ed in *; rewrite Eb; reflexivity|]. rewrite Edl in Eb.
    destruct (P3 _ _ Nl) as (Xl & Xl1 & Xl2 & Xl3). pose proof (eqb_stands _ _ _ _ Xl1 Hz Eb) as Ez. split.
    + intros i x Hx. destruct (P3 i x Hx) as (X & X1 & X2 & X3). exists X. split; [exact X1|]. split; [exact X2|]. split; [|intros _; exact X3].
      intros Ei. assert (Ei' : i = length l') by lia. subst i. rewrite Nl in Hx. injection Hx as <-.
      rewrite (stands_unique _ _ _ X1 Xl1). exact Ez.
    + rewrite Ll. cbn [pred]. apply ab_abs in Xl3. rewrite Ez, E47 in Xl3. rewrite E47. pose proof (kq_S (length l')) as Ek.
      set (k := kq (S (length l'))) in *. set (k' := kq (length l')) in *.
      assert (Hk : 0 <= k) by (unfold k; apply kq_nonneg).
      assert (K : k * (u * w) <= k * (u * G)) by (apply mul_mono; assumption).
      assert (F1 : 64 * u * k * w == 64 * (k * (u * w))) by ring. assert (F2 : 64 * u * (k + 1) * G == 64 * (k * (u * G)) + 64 * (u * G)) by ring.
      rewrite F1 in Xl3. rewrite F2. assert (F3 : k * s == k' * s + s) by (rewrite Ek; ring). unfold ab in *. lra.
  - exists (l ++ [bottom]). split; [rewrite Ed in *; rewrite Eb; reflexivity|]. rewrite app_length. cbn [length].
    replace (length l + 1)%nat with (S (length l)) by lia. cbn [pred]. split.
    + intros i x Hx. destruct (Nat.lt_ge_cases i (length l)) as [Hi|Hi].
      * rewrite nth_error_app1 in Hx by exact Hi. destruct (P3 i x Hx) as (X & X1 & X2 & X3). exists X.
        split; [exact X1|]. split; [exact X2|]. split; [intros Ei; lia|intros _; exact X3].
      * assert (Ei : i = length l).
        { assert (i < length (l ++ [bottom]))%nat by (apply nth_error_Some; congruence). rewrite app_length in H. cbn in H. lia. }
        subst i. rewrite nth_error_app2, Nat.sub_diag in Hx by lia. injection Hx as <-. exists z. split; [exact Hz|].
        split; [|split; [intros _; reflexivity|intros C; lia]].
        rewrite E47. pose proof (kq_nonneg (S (length l))) as Hk. set (k := kq (S (length l))) in *.
        assert (F2 : 64 * u * (k + 1) * G == 64 * (k * (u * G)) + 64 * (u * G)) by ring. rewrite F2.
        assert (0 <= k * (u * G)) by (apply Qmult_le_0_compat; lra). lra.
    + rewrite E47. pose proof (kq_nonneg (S (length l))) as Hk. set (k := kq (S (length l))) in *.
      assert (F2 : 64 * u * (k + 1) * G == 64 * (k * (u * G)) + 64 * (u * G)) by ring. rewrite F2.
      assert (0 <= k * (u * G)) by (apply Qmult_le_0_compat; lra). lra.
Qed.

(** ** Scanlines *)
Lemma interval_of B S e Y : forall n, (1 <= n)%nat -> B <= Y -> Y <= B + kq n * S + e -> 0 <= e ->
  exists i, (i < n)%nat /\ B + kq i * S <= Y /\ Y <= B + kq (Datatypes.S i) * S + e.
Proof.
  induction n as [|n IH]; intros Hn H1 H2 He; [lia|]. destruct n as [|n].
  - exists 0%nat. split; [lia|]. split; [change (kq 0) with 0; lra|exact H2].
  - destruct (Qlt_le_dec Y (B + kq (Datatypes.S n) * S)) as [L|L].
    + destruct IH as (i & Hi & I1 & I2); [lia|exact H1|lra|exact He|]. exists i. split; [lia|]. split; assumption.
    + exists (Datatypes.S n). split; [lia|]. split; assumption.
Qed.
Lemma nth_error_lt {A} (l : list A) i : (i < length l)%nat -> exists x, nth_error l i = Some x.
Proof. intros H. destruct (nth_error l i) eqn:E; [eexists; reflexivity|]. apply nth_error_None in E. lia. Qed.
Lemma kq_mono i j : (i <= j)%nat -> kq i <= kq j.
Proof. intros H. unfold kq. rewrite <- Zle_Qle. lia. Qed.

Theorem scan_heights64_near bottom top diameter stepover B T d r :
  stands bottom B -> stands top T -> stands diameter d -> stands stepover r ->
  pw (-99) <= d * r -> Qabs B + d * r + Qabs T <= pw 98 -> pw (-46) * (Qabs B + d * r + Qabs T) < T - B ->
  let l := scan_heights64 bottom top diameter stepover in
  let e := pw (-47) * kq (S (length l)) * (Qabs B + d * r + Qabs T) in
  (forall x, In x l -> exists X, stands x X /\ B - e <= X /\ X <= T + e) /\
  (forall Y, B <= Y -> Y <= T -> exists x X, In x l /\ stands x X /\ X - e <= Y /\ Y <= X + d * r + e).
Proof.
  intros HB HT Hd Hr Ls Lm Hroom l e. unfold scan_heights64 in l.
  set (s := d * r) in *. pose proof (Qabs_nonneg B) as B0. pose proof (Qabs_nonneg T) as T0.
  assert (BB : ab B (Qabs B)) by (apply ab_abs; apply Qle_refl).
  pose proof (pw_pos (-99)) as H99. destruct u_small as [U0 U1].
  set (G := Qabs B + s + Qabs T) in *.
  assert (He : eta <= (1#1000000) * (u * s)).
  { apply Qle_trans with ((1#1000000) * (u * pw (-99))); [vm_compute; discriminate|].
    apply mul_mono; [lra|]. apply mul_mono; lra. }
  assert (Hus : u * s <= (1#1000000) * s) by (apply Qmult_le_compat_r; lra). assert (Hus0 : 0 < u * s) by nra.
  assert (P98 : pw 98 <= pw 900) by (apply pw_le; lia).
  assert (Bs : ab (d * r) s) by (fold s; unfold ab; lra).
  destruct (mul_close _ _ _ _ Hd Hr) as (S' & S1 & S2); [apply (ab_big _ _ Bs); unfold G in *; lra|].
  pose proof (ab_close _ _ _ S2 Bs) as S3. fold s in S3.
  assert (E99 : pw (-99) == 2 * pw (-100)) by (vm_compute; reflexivity).
  assert (E100 : pw 100 == 4 * pw 98) by (vm_compute; reflexivity).
  destruct (arange64_up bottom top _ B S' T (Qabs B) HB S1 HT BB B0) as [P1 P2]; [unfold ab in *; lra|unfold ab, G in *; lra|].
  fold l in P1, P2.
  assert (E47 : pw (-47) == 64 * u) by reflexivity. assert (E46 : pw (-46) == 128 * u) by reflexivity. rewrite E46 in Hroom.
  assert (HG : 0 < G) by (unfold G; lra). assert (HuG : 0 < u * G) by nra.
  assert (HS' : Qabs B + S' + Qabs T <= 2 * G) by (unfold ab, G in *; lra).
  assert (HuS' : 8 * u * (Qabs B + S' + Qabs T) <= 16 * (u * G)).
  { assert (F : 16 * (u * G) == 8 * u * (2 * G)) by ring. rewrite F. apply mul_mono; lra. }
  assert (Hlen : (1 <= length l)%nat).
  { destruct (length l) eqn:El; [|lia]. change (kq 0) with 0 in P2. lra. }
  assert (HN : forall i x, nth_error l i = Some x -> exists X, stands x X /\ B + kq i * S' < T + 16 * (u * G) /\
     ab (X - (B + kq i * S')) (32 * (kq (length l) * (u * G)))).
  { intros i x Hx. destruct (P1 i x Hx) as (X & X1 & X2 & X3). exists X. split; [exact X1|]. split; [lra|].
    assert (Hi : (i < length l)%nat) by (apply nth_error_Some; congruence).
    pose proof (kq_mono (S i) (length l) Hi) as Hk. rewrite kq_S in Hk. pose proof (kq_nonneg i) as Hk0.
    assert (K : 16 * u * (kq i + 1) * (Qabs B + S') <= 32 * (kq (length l) * (u * G))).
    { assert (F1 : 16 * u * (kq i + 1) * (Qabs B + S') == (kq i + 1) * (16 * u * (Qabs B + S'))) by ring. rewrite F1.
      assert (F2 : 32 * (kq (length l) * (u * G)) == kq (length l) * (16 * u * (2 * G))) by ring. rewrite F2.
      assert (K0 : 0 <= 16 * u * (Qabs B + S')) by (apply Qmult_le_0_compat; unfold ab in *; lra).
      assert (K1 : 16 * u * (Qabs B + S') <= 16 * u * (2 * G)) by (apply mul_mono; lra).
      apply Qle_trans with (kq (length l) * (16 * u * (Qabs B + S'))); [apply Qmult_le_compat_r; assumption|].
      apply mul_mono; [apply kq_nonneg|exact K1]. }
    unfold ab in *. lra. }
  assert (Ee : e == 64 * (kq (length l) * (u * G)) + 64 * (u * G)).
  { unfold e. rewrite E47, kq_S. ring. }
  assert (Hn0 : 0 <= kq (length l) * (u * G)) by (apply Qmult_le_0_compat; [apply kq_nonneg|lra]).
  split.
  - intros x Hin. apply In_nth_error in Hin. destruct Hin as [i Hi]. destruct (HN i x Hi) as (X & X1 & X2 & X3).
    exists X. split; [exact X1|]. assert (0 <= kq i * S') by (apply Qmult_le_0_compat; [apply kq_nonneg|unfold ab in *; lra]).
    unfold ab in X3. lra.
  - intros Y Y1 Y2.
    destruct (interval_of B S' (16 * (u * G)) Y (length l) Hlen Y1) as (i & Hi & I1 & I2); [lra|lra|].
    destruct (nth_error_lt l i Hi) as [x Hx]. destruct (HN i x Hx) as (X & X1 & X2 & X3).
    exists x, X. split; [apply (nth_error_In _ _ Hx)|]. split; [exact X1|]. rewrite kq_S in I2.
    assert (F : (kq i + 1) * S' == kq i * S' + S') by ring. rewrite F in I2.
    assert (u * s <= u * G) by (apply mul_mono; unfold G; lra). unfold ab in *. lra.
Qed.

(** ** Recognising scan points *)
Lemma tolerance_value : stands f64_1e_7 (7555786372591432 # (2 ^ 76)) .
Proof. eexists. split; [reflexivity|]. reflexivity. Qed.
Theorem near_point_found sq p v w P V W M t :
  good_square sq -> pstands p P -> pstands v V -> pstands w W -> box M P -> box M V -> box M W ->
  pw (-100) <= M -> M <= pw 33 -> pw (-200) <= sqdist V W ->
  0 <= t <= 1 -> sqdist P (along V W t) <= 1 # 100000000 -> on_boundary64 sq p v w = Ok true.
Proof.
  intros HS Hp Hv Hw BP BV BW M0 M1 Hl Ht Hd.
  assert (M2 : M <= pw 99) by (apply Qle_trans with (1 := M1); vm_compute; discriminate).
  destruct (segment64_near sq p v w P V W M HS Hp Hv Hw BP BV BW M0 M2 Hl)
    as (d & c & D & C & t0 & Ed & HD & _ & _ & Hmin & _ & _ & _ & HD3).
  unfold on_boundary64. rewrite Ed. cbn [rbind]. f_equal. apply (ltb_stands _ _ _ _ HD tolerance_value).
  pose proof (Hmin t Ht) as Hm. pose proof (pw_pos (-100)) as P0.
  assert (HMM : M * M <= pw 33 * pw 33) by (apply sq_mono; lra).
  assert (HMM2 : pw (-90) * (M * M) <= pw (-90) * (pw 33 * pw 33)) by (apply mul_mono; [apply Qlt_le_weak, pw_pos|exact HMM]).
  assert (K : pw (-90) * (pw 33 * pw 33) + (3 # 100000000) < 7555786372591432 # (2 ^ 76)) by reflexivity. lra.
Qed.
Theorem far_point_rejected sq p v w P V W M :
  good_square sq -> pstands p P -> pstands v V -> pstands w W -> box M P -> box M V -> box M W ->
  pw (-100) <= M -> M <= pw 99 -> pw (-200) <= sqdist V W ->
  (forall t, 0 <= t <= 1 -> (1 # 9999999) + pw (-43) * (M * M) <= sqdist P (along V W t)) -> on_boundary64 sq p v w = Ok false.
Proof.
  intros HS Hp Hv Hw BP BV BW M0 M2 Hl Hd.
  destruct (segment64_near sq p v w P V W M HS Hp Hv Hw BP BV BW M0 M2 Hl)
    as (d & c & D & C & t0 & Ed & HD & _ & Ht0 & _ & _ & _ & HD3 & _).
  unfold on_boundary64. rewrite Ed. cbn [rbind]. f_equal.
  destruct (f64_ltb d f64_1e_7) eqn:E; [|reflexivity]. exfalso.
  apply (ltb_stands _ _ _ _ HD tolerance_value) in E. apply ab_abs in HD3. pose proof (Hd t0 Ht0) as H. unfold ab in HD3.
  assert (K : (7555786372591432 # (2 ^ 76)) < 1 # 9999999) by reflexivity. lra.
Qed.

(** ** Number of samples of a curve *)
Lemma trunc_stands x X : stands x X -> 0 <= X -> exists n, f64_trunc x = Some n /\ inject_Z n <= X /\ X < inject_Z n + 1.
Proof.
  intros [q [H E]] HX. unfold f64_trunc. rewrite H. assert (Hq : 0 <= q) by lra.
  apply Qle_bool_iff in Hq. rewrite Hq. exists (Qfloor q). split; [reflexivity|]. rewrite <- E. split; [apply Qfloor_le|].
  pose proof (Qlt_floor q) as L. rewrite inject_Z_plus in L. exact L.
Qed.
Theorem count64_near length L precision :
  stands length L -> 0 <= L -> L <= pw 400 -> inject_Z (10 ^ Z.of_nat precision) <= pw 400 ->
  let X := L * inject_Z (10 ^ Z.of_nat precision) in
  exists n, interpolation_count64 length precision = Some n /\ (2 <= n)%Z /\
    (n = 2%Z \/ inject_Z n <= X + pw (-50) * (X + 1)) /\ X - pw (-50) * (X + 1) < inject_Z n + 1.
Proof.
  intros HL L0 L1 HT X. set (t := inject_Z (10 ^ Z.of_nat precision)) in *. destruct u_small as [U0 U1].
  assert (Ht : 1 <= t). { unfold t. change 1 with (inject_Z 1). rewrite <- Zle_Qle. pose proof (Z.pow_pos_nonneg 10 (Z.of_nat precision)). lia. }
  pose proof (pw_pos (-1075)) as H0. fold eta in H0.
  assert (Ep : t * pw 0 == t) by (rewrite pw_0; ring).
  assert (Bt : ab t t) by (unfold ab; lra). assert (P4 : 100 * (pw 400 * pw 400) <= pw 900) by (vm_compute; discriminate).
  assert (P5 : pw 400 <= pw 900) by (apply pw_le; lia).
  destruct (normalize (10 ^ Z.of_nat precision) 0 false) as (T & T1 & T2).
  { fold t. rewrite Ep. apply (ab_big _ _ Bt). lra. }
  fold t in T2. pose proof (ab_close _ _ _ (close_compat _ _ _ Ep T2) Bt) as T3. fold (f64_of_Z (10 ^ Z.of_nat precision)) in T1.
  assert (HX : X == L * t) by reflexivity. assert (X0 : 0 <= X) by (rewrite HX; apply Qmult_le_0_compat; lra).
  assert (BX : X <= pw 400 * pw 400).
  { rewrite HX. apply Qle_trans with (L * pw 400); [apply mul_mono; lra|]. apply Qmult_le_compat_r; lra. }
  assert (He1 : eta * pw 400 <= (1#1000000) * u) by (vm_compute; discriminate).
  assert (HLe : L * eta <= (1#1000000) * u).
  { apply Qle_trans with (pw 400 * eta); [apply Qmult_le_compat_r; lra|]. rewrite Qmult_comm. exact He1. }
  assert (HLe0 : 0 <= L * eta) by (apply Qmult_le_0_compat; lra).
  assert (HuX : 0 <= u * X) by (apply Qmult_le_0_compat; lra). assert (HuX1 : u * X <= (1#1000000) * X) by (apply Qmult_le_compat_r; lra).
  assert (E1 : ab (L * T - X) (u * X + L * eta)).
  { assert (F : L * T - X == L * (T - t)) by (unfold X; ring). rewrite F.
    assert (BL : ab L L) by (unfold ab; lra). pose proof (ab_mul _ _ _ _ BL T3) as M.
    assert (F2 : L * (u * t + eta) == u * X + L * eta) by (unfold X; ring). rewrite F2 in M. exact M. }
  assert (BLT : ab (L * T) (X + u * X + L * eta)) by (unfold ab in *; lra).
  destruct (mul_close _ _ _ _ HL T1) as (R & R1 & R2).
  { apply (ab_big _ _ BLT). assert (1 <= pw 400 * pw 400) by (vm_compute; discriminate). lra. }
  pose proof (ab_close _ _ _ R2 BLT) as R3.
  assert (He : eta <= (1#1000000) * u) by (vm_compute; discriminate).
  assert (HuuX : u * (u * X) <= (1#1000000) * (u * X)) by (apply Qmult_le_compat_r; lra).
  assert (HuLe : u * (L * eta) <= (1#1000000) * (L * eta)) by (apply Qmult_le_compat_r; lra).
  assert (E2 : ab (R - X) (3 * (u * X) + u)).
  { assert (F : u * (X + u * X + L * eta) + eta == u * X + u * (u * X) + u * (L * eta) + eta) by ring. rewrite F in R3.
    unfold ab in *. lra. }
  assert (E50 : pw (-50) * (X + 1) == 8 * (u * X) + 8 * u).
  { assert (F : pw (-50) == 8 * u) by (vm_compute; reflexivity). rewrite F. ring. }
  unfold interpolation_count64.
  assert (HR0 : exists n, f64_trunc (f64_mul length (f64_of_Z (10 ^ Z.of_nat precision))) = Some n /\
     (inject_Z n <= X + pw (-50) * (X + 1) \/ (n <= 0)%Z) /\ X - pw (-50) * (X + 1) < inject_Z n + 1).
  { destruct (Qlt_le_dec R 0) as [Lr|Lr].
    - destruct R1 as [q [Hq Eq]]. unfold f64_trunc. rewrite Hq.
      assert (Hn : Qle_bool 0 q = false).
      { destruct (Qle_bool 0 q) eqn:C; [|reflexivity]. apply Qle_bool_iff in C. lra. }
      rewrite Hn. exists (Qceiling q). split; [reflexivity|]. split.
      + right. pose proof (Qceiling_lt q) as C. assert (inject_Z (Qceiling q - 1) < inject_Z 0) by (change (inject_Z 0) with 0; lra).
        rewrite <- Zlt_Qlt in H. lia.
      + pose proof (Qle_ceiling q) as C. rewrite E50. unfold ab in E2. lra.
    - destruct (trunc_stands _ _ R1 Lr) as (n & N1 & N2 & N3). exists n. split; [exact N1|].
      split; [left; rewrite E50; unfold ab in E2; lra|]. rewrite E50. unfold ab in E2. lra. }
  destruct HR0 as (n & N1 & N2 & N3). rewrite N1. cbn [option_map]. exists (Z.max n 2). split; [reflexivity|]. split; [lia|].
  destruct (Z.max_spec n 2) as [[C Em]|[C Em]]; rewrite Em.
  - split; [left; reflexivity|]. assert (inject_Z n <= inject_Z 2) by (rewrite <- Zle_Qle; lia). lra.
  - split; [right; destruct N2; [assumption|lia]|exact N3].
Qed.

(** ** Positions of tabs *)
Lemma linspace64_near n i : (1 <= n)%nat -> (i <= n)%nat -> kq n <= pw 400 ->
  exists X, stands (linspace64_at n i) X /\ ab (X - kq i / kq n) (8 * u).
Proof.
  intros Hn Hi HN. destruct u_small as [U0 U1]. pose proof (pw_pos (-1075)) as H0. fold eta in H0.
  pose proof (kq_mono 1 n Hn) as N1. change (kq 1) with 1 in N1. pose proof (kq_mono i n Hi) as In. pose proof (kq_nonneg i) as I0.
  assert (P5 : pw 400 < pw 900) by reflexivity.
  destruct (of_nat_near n) as (N & HNs & EN); [lra|]. destruct (of_nat_near i) as (I & HI & EI); [lra|].
  set (k := kq n) in *. set (j := kq i) in *.
  assert (He : eta <= (1#1000000) * u) by (vm_compute; discriminate).
  assert (Huk : u * k <= (1#1000000) * k) by (apply Qmult_le_compat_r; lra). assert (Huk1 : u <= u * k) by nra.
  assert (Huj : u * j <= u * k) by (apply mul_mono; lra). assert (Huj0 : 0 <= u * j) by (apply Qmult_le_0_compat; lra).
  assert (HN0 : (1#2) * k < N) by (unfold ab in EN; lra). assert (HN2 : N <= 2 * k) by (unfold ab in EN; lra).
  assert (HNn : ~ N == 0) by lra.
  assert (Bi : 0 < / N /\ / N <= 2).
  { split; [apply Qinv_lt_0_compat; lra|]. assert (N * / N == 1) by (field; lra). assert (0 < / N) by (apply Qinv_lt_0_compat; lra).
    apply Qnot_lt_le. intros C. assert (N * 2 < N * / N) by (apply Qmult_lt_l; lra). lra. }
  assert (B1 : ab (1 / N) (/ N)) by (unfold ab, Qdiv; lra).
  destruct (div_close _ _ _ _ stands_one HNs HNn) as (S & HS & CS).
  { apply (ab_big _ _ B1). assert (2 <= pw 900) by (vm_compute; discriminate). lra. }
  pose proof (ab_close _ _ _ CS B1) as ES.
  assert (He4 : eta * (2 * pw 400) <= (1#1000000) * u) by (vm_compute; discriminate).
  assert (HeN : eta * N <= (1#1000000) * u) by (apply Qle_trans with (eta * (2 * pw 400)); [apply mul_mono; lra|exact He4]).
  assert (HeN0 : 0 <= eta * N) by (apply Qmult_le_0_compat; lra).
  assert (E1 : ab (S * N - 1) (u + eta * N)).
  { assert (F : S * N - 1 == (S - 1 / N) * N) by (field; lra). rewrite F.
    assert (BN : ab N N) by (unfold ab; lra). pose proof (ab_mul _ _ _ _ ES BN) as M.
    assert (F2 : (u * / N + eta) * N == u + eta * N) by (field; lra). rewrite F2 in M. exact M. }
  (* S * k is near 1 *)
  assert (HS0 : 0 < S * N) by (unfold ab in E1; lra). assert (S0 : 0 < S) by (destruct (Qlt_le_dec 0 S); [assumption|nra]).
  assert (HSN : S * N <= 1001#1000) by (unfold ab in E1; lra).
  assert (HSk2 : S * k <= 2 * (S * N)) by nra. assert (HSk0 : 0 < S * k) by nra.
  assert (BS : ab S S) by (unfold ab; lra).
  assert (HuSk : u * (S * k) <= (1#1000000) * (S * k)) by (apply Qmult_le_compat_r; lra).
  assert (HSe : S * eta <= (3#1000000) * u).
  { assert (S <= S * k) by nra. assert (S <= 3) by lra. assert (S * eta <= 3 * eta) by (apply Qmult_le_compat_r; lra). lra. }
  assert (HSe0 : 0 <= S * eta) by (apply Qmult_le_0_compat; lra).
  assert (E2 : ab (S * (N - k)) (u * (S * k) + S * eta)).
  { pose proof (ab_mul _ _ _ _ BS EN) as M. assert (F : S * (u * k + eta) == u * (S * k) + S * eta) by ring. rewrite F in M. exact M. }
  assert (HSk3 : S * k <= 1002#1000).
  { assert (F : S * k == S * N - S * (N - k)) by ring. unfold ab in E2. lra. }
  assert (HuSk3 : u * (S * k) <= (1002#1000) * u).
  { assert (F : (1002#1000) * u == u * (1002#1000)) by ring. rewrite F. apply mul_mono; lra. }
  assert (HuSk4 : 0 <= u * (S * k)) by (apply Qmult_le_0_compat; lra).
  assert (E3 : ab (S * k - 1) ((21#10) * u)).
  { assert (F : S * k - 1 == (S * N - 1) - S * (N - k)) by ring. rewrite F. unfold ab in *. lra. }
  (* I * S is near j / k *)
  set (q := j / k). assert (Eq : j == q * k) by (unfold q; field; lra).
  assert (Q0 : 0 <= q) by (unfold q; apply Qle_shift_div_l; lra). assert (Q1 : q <= 1) by (unfold q; apply Qle_shift_div_r; lra).
  assert (E4 : ab (I * S - q) ((32#10) * u)).
  { assert (F : I * S - q == q * (S * k - 1) + S * (I - j)) by (rewrite Eq; ring). rewrite F.
    assert (Bq : ab q 1) by (unfold ab; lra). pose proof (ab_mul _ _ _ _ Bq E3) as M1.
    pose proof (ab_mul _ _ _ _ BS EI) as M2.
    assert (F2 : S * (u * j + eta) <= u * (S * k) + S * eta).
    { assert (F3 : S * (u * j + eta) == S * (u * j) + S * eta) by ring. rewrite F3.
      assert (S * (u * j) <= S * (u * k)) by (apply mul_mono; lra). assert (S * (u * k) == u * (S * k)) by ring. lra. }
    unfold ab in *. lra. }
  assert (B5 : ab (I * S) (1001#1000)) by (unfold ab in *; lra).
  assert (P9 : 10 <= pw 900) by (vm_compute; discriminate).
  destruct (mul_close _ _ _ _ HI HS) as (R & HR & CR); [apply (ab_big _ _ B5); lra|].
  pose proof (ab_close _ _ _ CR B5) as ER.
  assert (B6 : ab (R + 0) (1002#1000)) by (unfold ab in *; lra).
  destruct (add_close _ _ _ _ HR (stands_zero false)) as (Y & HY & CY); [apply (ab_big _ _ B6); lra|].
  pose proof (ab_close _ _ _ CY B6) as EY.
  exists Y. split; [exact HY|]. fold q. unfold ab in *. lra.
Qed.
Lemma stands_two : stands f64_two 2.
Proof. eexists. split; [reflexivity|]. reflexivity. Qed.
Lemma half_d64_near length width L w : stands length L -> stands width w -> pw (-100) <= L -> L <= pw 100 -> 0 <= w -> w <= 2 * L ->
  exists H, stands (half_d64 length width) H /\ ab (H - w / (2 * L)) (8 * u).
Proof.
  intros HL Hw L0 L1 W0 W1. destruct u_small as [U0 U1]. pose proof (pw_pos (-1075)) as H0. fold eta in H0. pose proof (pw_pos (-100)) as P0.
  assert (HLn : ~ L == 0) by lra. assert (Li : 0 < / L) by (apply Qinv_lt_0_compat; lra).
  assert (Li2 : / L <= pw 100).
  { assert (Eo : pw 100 * pw (-100) == 1) by (vm_compute; reflexivity). assert (L * / L == 1) by (field; lra).
    apply Qnot_lt_le. intros C. assert (L * pw 100 < L * / L) by (apply Qmult_lt_l; lra).
    assert (pw (-100) * pw 100 <= L * pw 100) by (apply Qmult_le_compat_r; [lra|apply Qlt_le_weak, pw_pos]). lra. }
  assert (B1 : ab (1 / L) (/ L)) by (unfold ab, Qdiv; lra).
  assert (P9 : 16 * pw 100 <= pw 900) by (vm_compute; discriminate).
  destruct (div_close _ _ _ _ stands_one HL HLn) as (A & HA & CA); [apply (ab_big _ _ B1); lra|].
  pose proof (ab_close _ _ _ CA B1) as EA.
  assert (B2 : ab (w / 2) (w / 2)) by (assert (0 <= w / 2) by (apply Qle_shift_div_l; lra); unfold ab; lra).
  assert (Hw2 : w / 2 == w * (1#2)) by (field). assert (H2n : ~ 2 == 0) by lra.
  destruct (div_close _ _ _ _ Hw stands_two H2n) as (C & HC & CC); [apply (ab_big _ _ B2); lra|].
  pose proof (ab_close _ _ _ CC B2) as EC. rewrite Hw2 in EC, B2.
  set (h := w / (2 * L)). assert (Eh : h == / L * (w * (1#2))) by (unfold h; field; lra).
  assert (H1 : 0 <= h) by (unfold h; apply Qle_shift_div_l; lra). assert (H2 : h <= 1) by (unfold h; apply Qle_shift_div_r; lra).
  assert (Hee : eta * pw 100 <= (1#1000000) * u) by (vm_compute; discriminate).
  assert (He1 : eta * / L <= (1#1000000) * u) by (apply Qle_trans with (2 := Hee); apply mul_mono; lra).
  assert (He2 : eta * (w * (1#2)) <= (1#1000000) * u) by (apply Qle_trans with (2 := Hee); apply mul_mono; lra).
  assert (He3 : 0 <= eta * / L) by (apply Qmult_le_0_compat; lra). assert (He4 : 0 <= eta * (w * (1#2))) by (apply Qmult_le_0_compat; lra).
  assert (He5 : eta * eta <= (1#1000000) * u) by (vm_compute; discriminate). assert (He6 : eta <= (1#1000000) * u) by (vm_compute; discriminate).
  assert (E1 : ab (1 / L * (C - w * (1#2))) (u * h + eta * / L)).
  { pose proof (ab_mul _ _ _ _ B1 EC) as M. assert (F : / L * (u * (w * (1#2)) + eta) == u * h + eta * / L) by (rewrite Eh; ring).
    rewrite F in M. exact M. }
  assert (E2 : ab ((A - 1 / L) * (w * (1#2))) (u * h + eta * (w * (1#2)))).
  { pose proof (ab_mul _ _ _ _ EA B2) as M. assert (F : (u * / L + eta) * (w * (1#2)) == u * h + eta * (w * (1#2))) by (rewrite Eh; ring).
    rewrite F in M. exact M. }
  assert (Hu2 : u * eta <= (1#1000000) * u) by (vm_compute; discriminate).
  assert (Huh : u * h <= u) by nra. assert (Huh0 : 0 <= u * h) by (apply Qmult_le_0_compat; lra).
  assert (E3 : ab ((A - 1 / L) * (C - w * (1#2))) ((1#1000) * u)).
  { pose proof (ab_mul _ _ _ _ EA EC) as M.
    assert (F : (u * / L + eta) * (u * (w * (1#2)) + eta) == u * (u * h) + u * (eta * / L) + u * (eta * (w * (1#2))) + eta * eta) by (rewrite Eh; ring).
    rewrite F in M.
    assert (u * (u * h) <= (1#1000000) * u) by (apply Qle_trans with (u * (1#1000000)); [apply mul_mono; lra|lra]).
    assert (u * (eta * / L) <= (1#1000000) * u) by (apply Qle_trans with (u * (1#1000000)); [apply mul_mono; lra|lra]).
    assert (u * (eta * (w * (1#2))) <= (1#1000000) * u) by (apply Qle_trans with (u * (1#1000000)); [apply mul_mono; lra|lra]).
    unfold ab in *. lra. }
  assert (E4 : ab (A * C - h) ((21#10) * u)).
  { assert (F : A * C - h == 1 / L * (C - w * (1#2)) + (A - 1 / L) * (w * (1#2)) + (A - 1 / L) * (C - w * (1#2))) by (rewrite Eh; field; lra).
    rewrite F. unfold ab in *. lra. }
  assert (B5 : ab (A * C) (1001#1000)) by (unfold ab in *; lra).
  assert (P10 : 10 <= pw 900) by (vm_compute; discriminate).
  destruct (mul_close _ _ _ _ HA HC) as (R & HR & CR); [apply (ab_big _ _ B5); lra|].
  pose proof (ab_close _ _ _ CR B5) as ER. exists R. split; [exact HR|]. fold h. unfold ab in *. lra.
Qed.

Theorem tab_ranges64_near length width L w count :
  stands length L -> stands width w -> pw (-100) <= L -> L <= pw 100 -> 0 <= w -> w <= 2 * L -> kq (S count) <= pw 400 ->
  List.length (edge_tab_ranges64 length width count) = count /\
  forall i a b, nth_error (edge_tab_ranges64 length width count) i = Some (a, b) ->
    exists A B, stands a A /\ stands b B /\
      Qabs (A - (kq (S i) / kq (S count) - w / (2 * L))) <= pw (-48) /\ Qabs (B - (kq (S i) / kq (S count) + w / (2 * L))) <= pw (-48).
Proof.
  intros HL Hw L0 L1 W0 W1 Hc. split; [unfold edge_tab_ranges64; rewrite map_length, seq_length; reflexivity|].
  intros i a b Hi. unfold edge_tab_ranges64 in Hi. apply nth_map_seq in Hi. destruct Hi as [Hi E]. injection E as -> ->.
  replace (count + 1)%nat with (S count) by lia. cbn [Nat.add].
  destruct (linspace64_near (S count) (S i)) as (D & HD & ED); [lia|lia|exact Hc|].
  destruct (half_d64_near length width L w HL Hw L0 L1 W0 W1) as (H & HH & EH).
  set (d := kq (S i) / kq (S count)) in *. set (h := w / (2 * L)) in *. pose proof (pw_pos (-100)) as P0. destruct u_small as [U0 U1].
  assert (D0 : 0 <= d).
  { unfold d. pose proof (kq_mono 1 (S count)). change (kq 1) with 1 in H0. apply Qle_shift_div_l; [specialize (H0 ltac:(lia)); lra|]. pose proof (kq_nonneg (S i)). lra. }
  assert (D1 : d <= 1).
  { unfold d. pose proof (kq_mono 1 (S count) ltac:(lia)) as K. change (kq 1) with 1 in K. apply Qle_shift_div_r; [lra|].
    pose proof (kq_mono (S i) (S count) ltac:(lia)). lra. }
  assert (H1 : 0 <= h) by (unfold h; apply Qle_shift_div_l; lra). assert (H2 : h <= 1) by (unfold h; apply Qle_shift_div_r; lra).
  assert (P10 : 10 <= pw 900) by (vm_compute; discriminate). assert (He6 : eta <= (1#1000000) * u) by (vm_compute; discriminate).
  assert (E48 : pw (-48) == 32 * u) by (vm_compute; reflexivity).
  assert (BA : ab (D - H) 3) by (unfold ab in *; lra). assert (BB : ab (D + H) 3) by (unfold ab in *; lra).
  destruct (sub_close _ _ _ _ HD HH) as (A & HA & CA); [apply (ab_big _ _ BA); lra|].
  destruct (add_close _ _ _ _ HD HH) as (B & HB & CB); [apply (ab_big _ _ BB); lra|].
  pose proof (ab_close _ _ _ CA BA) as EA. pose proof (ab_close _ _ _ CB BB) as EB.
  exists A, B. split; [exact HA|]. split; [exact HB|]. rewrite E48. split; apply ab_abs; unfold ab in *; lra.
Qed.

(** Tabs that are apart stay apart. *)
Theorem tab_ranges64_ordered length width L w count :
  stands length L -> stands width w -> pw (-100) <= L -> L <= pw 100 -> 0 <= w -> kq (S count) <= pw 400 ->
  w / L + pw (-46) <= 1 / kq (S count) ->
  forall i a b, nth_error (edge_tab_ranges64 length width count) i = Some (a, b) ->
    exists A B, stands a A /\ stands b B /\ 0 < A /\ A <= B + pw (-46) /\ B < 1 /\
      forall a' b', nth_error (edge_tab_ranges64 length width count) (S i) = Some (a', b') -> exists A', stands a' A' /\ B < A'.
Proof.
  intros HL Hw L0 L1 W0 Hc Happart. pose proof (pw_pos (-100)) as P0.
  pose proof (kq_mono 1 (S count) ltac:(lia)) as K1. change (kq 1) with 1 in K1.
  set (k := kq (S count)) in *.
  assert (Hik : 0 < 1 / k /\ 1 / k <= 1).
  { split; [apply Qlt_shift_div_l; lra|apply Qle_shift_div_r; lra]. }
  assert (P46 : 0 < pw (-46)) by apply pw_pos. assert (E46 : pw (-46) == 4 * pw (-48)) by (vm_compute; reflexivity).
  assert (W1 : w <= L).
  { apply Qnot_lt_le. intros C. assert (1 <= w / L) by (apply Qle_shift_div_l; lra). lra. }
  destruct (tab_ranges64_near length width L w count HL Hw L0 L1 W0 ltac:(lra) Hc) as [Hlen HR]. fold k in HR.
  assert (Eh : w / (2 * L) == (1#2) * (w / L)) by (field; lra).
  assert (H0 : 0 <= w / L) by (apply Qle_shift_div_l; lra).
  set (h := w / (2 * L)) in *. set (r := w / L) in *.
  intros i a b Hi. destruct (HR i a b Hi) as (A & B & HA & HB & EA & EB).
  assert (Li : (i < count)%nat).
  { rewrite <- Hlen. apply nth_error_Some. congruence. }
  apply ab_abs in EA, EB. unfold ab in EA, EB.
  assert (Ek1 : kq (S i) / k == kq i * (1 / k) + 1 / k) by (rewrite kq_S; field; lra).
  assert (J0 : 0 <= kq i * (1 / k)) by (apply Qmult_le_0_compat; [apply kq_nonneg|lra]).
  assert (J1 : kq (S i) / k <= 1 - 1 / k).
  { assert (E : 1 - 1 / k == kq count * (1 / k)).
    { assert (F : k == kq count + 1) by (unfold k; apply kq_S). rewrite F. field. lra. }
    rewrite E. unfold Qdiv at 1. rewrite <- (Qmult_1_l (/ k)). change (1 * / k) with (1 / k).
    apply Qmult_le_compat_r; [apply kq_mono; lia|lra]. }
  assert (E48 : 0 < pw (-48)) by apply pw_pos.
  exists A, B. split; [exact HA|]. split; [exact HB|]. split; [lra|]. split; [lra|]. split; [lra|].
  intros a' b' Hi'. destruct (HR (S i) a' b' Hi') as (A' & B' & HA' & _ & EA' & _). exists A'. split; [exact HA'|].
  apply ab_abs in EA'. unfold ab in EA'.
  assert (Ek2 : kq (S (S i)) / k == kq (S i) / k + 1 / k) by (rewrite (kq_S (S i)); field; lra). lra.
Qed.

Lemma passes64_near start_depth stepdown depth D s z :
  start_is start_depth D -> stands stepdown s -> stands depth z -> pw (-100) <= s -> Qabs D + s + Qabs z <= pw 98 ->
  (forall i x, nth_error (step_depths64 start_depth stepdown depth) i = Some x ->
     exists X, stands x X /\ Qabs (X - (D - kq (S i) * s)) <= pw (-47) * kq (S i) * (Qabs D + s) /\
       z - pw (-47) * (Qabs D + s + Qabs z) < D - kq (S i) * s) /\
  D - kq (length (step_depths64 start_depth stepdown depth)) * s - z <= s + pw (-47) * (Qabs D + s + Qabs z).
Proof.
  intros H1 H2 H3 H4 H5. destruct (step_depths64_near start_depth stepdown depth D s z H1 H2 H3 H4 H5) as [P Q].
  split; [|exact Q]. intros i x Hx. destruct (P i x Hx) as (X & X1 & X2 & X3). exists X.
  split; [exact X1|]. split; [apply ab_abs; exact X2|exact X3].
Qed.

(** ** Tabs of a wire *)
Lemma range64_near length width L w count i : stands length L -> stands width w -> pw (-100) <= L -> L <= pw 100 -> 0 <= w -> w <= 2 * L -> kq count <= pw 400 ->
  (i < count)%nat ->
  exists A B, stands (f64_sub (linspace64_at count i) (half_d64 length width)) A /\ stands (f64_add (linspace64_at count i) (half_d64 length width)) B /\
    ab (A - (kq i / kq count - w / (2 * L))) (32 * u) /\ ab (B - (kq i / kq count + w / (2 * L))) (32 * u) /\ 0 <= kq i / kq count /\ kq i / kq count <= 1 /\ 0 <= w / (2 * L) /\ w / (2 * L) <= 1.
Proof.
  intros HL Hw L0 L1 W0 W1 Hc Hi.
  destruct (linspace64_near count i) as (D & HD & ED); [lia|lia|exact Hc|].
  destruct (half_d64_near length width L w HL Hw L0 L1 W0 W1) as (H & HH & EH).
  set (d := kq i / kq count) in *. set (h := w / (2 * L)) in *. pose proof (pw_pos (-100)) as P0. destruct u_small as [U0 U1].
  pose proof (kq_mono 1 count ltac:(lia)) as K. change (kq 1) with 1 in K. pose proof (kq_nonneg i) as I0. pose proof (kq_mono i count ltac:(lia)) as I1.
  assert (D0 : 0 <= d) by (unfold d; apply Qle_shift_div_l; lra). assert (D1 : d <= 1) by (unfold d; apply Qle_shift_div_r; lra).
  assert (H1 : 0 <= h) by (unfold h; apply Qle_shift_div_l; lra). assert (H2 : h <= 1) by (unfold h; apply Qle_shift_div_r; lra).
  assert (P10 : 10 <= pw 900) by (vm_compute; discriminate). assert (He6 : eta <= (1#1000000) * u) by (vm_compute; discriminate).
  assert (BA : ab (D - H) 3) by (unfold ab in *; lra). assert (BB : ab (D + H) 3) by (unfold ab in *; lra).
  destruct (sub_close _ _ _ _ HD HH) as (A & HA & CA); [apply (ab_big _ _ BA); lra|].
  destruct (add_close _ _ _ _ HD HH) as (B & HB & CB); [apply (ab_big _ _ BB); lra|].
  pose proof (ab_close _ _ _ CA BA) as EA. pose proof (ab_close _ _ _ CB BB) as EB.
  exists A, B. split; [exact HA|]. split; [exact HB|]. unfold ab in *. lra.
Qed.
Lemma shift64_near x X : stands x X -> ab X 3 -> (exists Y, stands (f64_add x f64_one) Y /\ ab (Y - (X + 1)) (8 * u)) /\ (exists Y, stands (f64_sub x f64_one) Y /\ ab (Y - (X - 1)) (8 * u)).
Proof.
  intros HX BX. destruct u_small as [U0 U1]. assert (P10 : 10 <= pw 900) by (vm_compute; discriminate). assert (He6 : eta <= (1#1000000) * u) by (vm_compute; discriminate).
  assert (BA : ab (X + 1) 4) by (unfold ab in *; lra). assert (BB : ab (X - 1) 4) by (unfold ab in *; lra). split.
  - destruct (add_close _ _ _ _ HX stands_one) as (A & HA & CA); [apply (ab_big _ _ BA); lra|]. pose proof (ab_close _ _ _ CA BA) as EA. exists A. split; [exact HA|]. unfold ab in *. lra.
  - destruct (sub_close _ _ _ _ HX stands_one) as (A & HA & CA); [apply (ab_big _ _ BB); lra|]. pose proof (ab_close _ _ _ CA BB) as EA. exists A. split; [exact HA|]. unfold ab in *. lra.
Qed.
Lemma zero_stands : stands f64_zero 0.
Proof. exists 0. split; reflexivity. Qed.

Theorem wire_tab_ranges64_near length width L w count : stands length L -> stands width w -> pw (-100) <= L -> L <= pw 100 -> 0 <= w -> w <= 2 * L -> kq count <= pw 400 ->
  (forall a b, In (a, b) (wire_tab_ranges64 length width count) -> exists A B i m, stands a A /\ stands b B /\ (i < count)%nat /\
     Qabs (A - (kq i / kq count + inject_Z m - w / (2 * L))) <= pw (-47) /\ Qabs (B - (kq i / kq count + inject_Z m + w / (2 * L))) <= pw (-47)) /\
  (forall i m T, (i < count)%nat -> 0 <= T -> T <= 1 -> Qabs (T - (kq i / kq count + inject_Z m)) <= w / (2 * L) - pw (-46) ->
     exists a b A B, In (a, b) (wire_tab_ranges64 length width count) /\ stands a A /\ stands b B /\ A <= T /\ T <= B).
Proof.
  intros HL Hw L0 L1 W0 W1 Hc. assert (E47 : pw (-47) == 64 * u) by (vm_compute; reflexivity). assert (E46 : pw (-46) == 128 * u) by (vm_compute; reflexivity).
  destruct u_small as [U0 U1]. split.
  - intros a b Hin. unfold wire_tab_ranges64 in Hin. apply in_flat_map in Hin as (i & Hi & Hin). apply in_seq in Hi. assert (Hic : (i < count)%nat) by lia.
    destruct (range64_near length width L w count i HL Hw L0 L1 W0 W1 Hc Hic) as (A & B & HA & HB & EA & EB & D0 & D1 & H0 & H1). cbn zeta in Hin.
    set (lo := f64_sub _ _) in *. set (hi := f64_add _ (half_d64 _ _)) in *. set (d := kq i / kq count) in *. set (h := w / (2 * L)) in *.
    assert (BA : ab A 3) by (unfold ab in *; lra). assert (BB : ab B 3) by (unfold ab in *; lra).
    destruct (shift64_near lo A HA BA) as ((A1 & HA1 & EA1) & (A2 & HA2 & EA2)). destruct (shift64_near hi B HB BB) as ((B1 & HB1 & EB1) & (B2 & HB2 & EB2)).
    destruct Hin as [E|Hin].
    { injection E as <- <-. exists A, B, i, 0%Z. change (inject_Z 0) with 0. rewrite E47. fold d. repeat split; try assumption; apply ab_abs; unfold ab in *; lra. }
    apply in_app_or in Hin as [Hin|Hin].
    { destruct (f64_ltb lo f64_zero); [|contradiction]. destruct Hin as [E|[]]. injection E as <- <-. exists A1, B1, i, 1%Z. change (inject_Z 1) with 1. rewrite E47. fold d. repeat split; try assumption; apply ab_abs; unfold ab in *; lra. }
    destruct (f64_ltb f64_one hi); [|contradiction]. destruct Hin as [E|[]]. injection E as <- <-. exists A2, B2, i, (-1)%Z. change (inject_Z (-1)) with (-1#1). rewrite E47. fold d. repeat split; try assumption; apply ab_abs; unfold ab in *; lra.
  - intros i m T Hic T0 T1 HT. destruct (range64_near length width L w count i HL Hw L0 L1 W0 W1 Hc Hic) as (A & B & HA & HB & EA & EB & D0 & D1 & H0 & H1).
    assert (SUB : forall x, In x (let lo := f64_sub (linspace64_at count i) (half_d64 length width) in let hi := f64_add (linspace64_at count i) (half_d64 length width) in
                     (lo, hi) :: (if f64_ltb lo f64_zero then [(f64_add lo f64_one, f64_add hi f64_one)] else []) ++ (if f64_ltb f64_one hi then [(f64_sub lo f64_one, f64_sub hi f64_one)] else [])) ->
                     In x (wire_tab_ranges64 length width count)).
    { intros x Hx. unfold wire_tab_ranges64. apply in_flat_map. exists i. split; [apply in_seq; lia|exact Hx]. }
    cbn zeta in SUB. set (lo := f64_sub _ _) in *. set (hi := f64_add _ (half_d64 _ _)) in *. set (d := kq i / kq count) in *. set (h := w / (2 * L)) in *.
    assert (BA : ab A 3) by (unfold ab in *; lra). assert (BB : ab B 3) by (unfold ab in *; lra).
    destruct (shift64_near lo A HA BA) as ((A1 & HA1 & EA1) & (A2 & HA2 & EA2)). destruct (shift64_near hi B HB BB) as ((B1 & HB1 & EB1) & (B2 & HB2 & EB2)).
    rewrite E46 in HT. apply ab_abs in HT. unfold ab in *.
    assert (M : (m = 0 \/ m = 1 \/ m = -1)%Z).
    { destruct (Z_le_gt_dec m 1) as [M1|M1]; [destruct (Z_le_gt_dec (-1) m) as [M2|M2]; [lia|]|].
      - assert (X : inject_Z m <= inject_Z (-2)) by (rewrite <- Zle_Qle; lia). change (inject_Z (-2)) with (-2#1) in X. lra.
      - assert (X : inject_Z 2 <= inject_Z m) by (rewrite <- Zle_Qle; lia). change (inject_Z 2) with (2#1) in X. lra. }
    destruct M as [M|[M|M]]; subst m.
    + change (inject_Z 0) with 0 in HT. exists lo, hi, A, B. split; [apply SUB; left; reflexivity|]. split; [exact HA|]. split; [exact HB|]. lra.
    + change (inject_Z 1) with 1 in HT. exists (f64_add lo f64_one), (f64_add hi f64_one), A1, B1.
      assert (LT : f64_ltb lo f64_zero = true) by (apply (ltb_stands _ _ _ _ HA zero_stands); lra).
      split; [apply SUB; right; apply in_or_app; left; rewrite LT; left; reflexivity|]. split; [exact HA1|]. split; [exact HB1|]. lra.
    + change (inject_Z (-1)) with (-1#1) in HT. exists (f64_sub lo f64_one), (f64_sub hi f64_one), A2, B2.
      assert (LT : f64_ltb f64_one hi = true) by (apply (ltb_stands _ _ _ _ stands_one HB); lra).
      split; [apply SUB; right; apply in_or_app; right; rewrite LT; left; reflexivity|]. split; [exact HA2|]. split; [exact HB2|]. lra.
Qed.

(** ** Points on a segment *)
Theorem interpolation_steps64_near l step L s : stands l L -> stands step s -> pw (-100) <= s -> 0 <= L -> s + L <= pw 98 ->
  (forall i x, nth_error (interpolation_steps64 l step) i = Some x -> exists X, stands x X /\ Qabs (X - kq i * s) <= pw (-49) * kq (S i) * s /\ kq i * s < L + pw (-50) * (s + L)) /\
  L <= kq (length (interpolation_steps64 l step)) * s + pw (-50) * (s + L).
Proof.
  intros HL HS S0 L0 LM. assert (P98 : pw 98 <= pw 100) by (apply pw_le; lia). assert (E50 : pw (-50) == 8 * u) by (vm_compute; reflexivity). assert (E49 : pw (-49) == 16 * u) by (vm_compute; reflexivity).
  destruct (arange64_up f64_zero l step 0 s L 0 zero_stands HS HL) as (P1 & P2); [unfold ab; lra|lra|exact S0|rewrite (Qabs_pos L L0); lra|].
  assert (EL := Qabs_pos L L0). rewrite EL in P2. split.
  - intros i x Hx. destruct (P1 i x Hx) as (X & HX & E1 & E2). rewrite EL in E2. exists X. split; [exact HX|]. rewrite E50, E49. split.
    + apply ab_abs. rewrite kq_S. unfold ab in *. lra.
    + lra.
  - rewrite E50. change (interpolation_steps64 l step) with (arange64 f64_zero l step). lra.
Qed.
