(** * Numbers.

    Coordinates are canonical rationals [Qc]: every finite IEEE double is a
    rational, Python compares floats exactly, and on [Qc] numeric equality is
    Leibniz equality.  See DESIGN.md ("Numbers") for what this leaves out. *)
From Coq Require Export ZArith QArith Qcanon Qround Qabs List Bool Lia Lqa.
Export ListNotations.
Local Open Scope Z_scope.

Definition num := Qc.
Delimit Scope Qc_scope with Qc.
Bind Scope Qc_scope with num.

Definition qz (z : Z) : Qc := Q2Qc (inject_Z z).
Definition qq (n : Z) (d : positive) : Qc := Q2Qc (n # d).

(** Python's [==], [<], [<=] on finite numbers. *)
Definition qeqb (x y : Qc) : bool := Qeq_bool (this x) (this y).
Definition qleb (x y : Qc) : bool := Qle_bool (this x) (this y).
Definition qltb (x y : Qc) : bool := negb (Qle_bool (this y) (this x)).

Definition qmin (x y : Qc) : Qc := if qltb y x then y else x.   (* Python min(x, y) *)
Definition qmax (x y : Qc) : Qc := if qltb x y then y else x.   (* Python max(x, y) *)
Definition qabs (x : Qc) : Qc := if qltb x 0%Qc then (- x)%Qc else x.
Definition qfloor (x : Qc) : Z := Qfloor (this x).
Definition qceil (x : Qc) : Z := Qceiling (this x).

(** Python's [int(x)]: truncation toward zero. *)
Definition qtrunc (x : Qc) : Z := if qltb x 0%Qc then qceil x else qfloor x.

(** Round half to even, the rounding of Python's [round]. *)
Definition round_he (x : Qc) : Z :=
  let f := qfloor x in
  let d := (x - qz f)%Qc in
  match Qccompare d (qq 1 2) with
  | Lt => f
  | Gt => f + 1
  | Eq => if Z.even f then f else f + 1
  end.

(** ** Reflection *)
Lemma qc_eq_iff (x y : Qc) : x = y <-> (this x == this y)%Q.
Proof. split; [intros ->; reflexivity | apply Qc_is_canon]. Qed.

Lemma this_q2qc q : (this (Q2Qc q) == q)%Q.
Proof. apply Qred_correct. Qed.
Lemma this_qz z : (this (qz z) == inject_Z z)%Q.
Proof. apply Qred_correct. Qed.
Lemma this_qq n d : (this (qq n d) == n # d)%Q.
Proof. apply Qred_correct. Qed.
Lemma this_plus x y : (this (x + y)%Qc == this x + this y)%Q.
Proof. apply Qred_correct. Qed.
Lemma this_mult x y : (this (x * y)%Qc == this x * this y)%Q.
Proof. apply Qred_correct. Qed.
Lemma this_opp x : (this (- x)%Qc == - this x)%Q.
Proof. apply Qred_correct. Qed.
Lemma this_minus x y : (this (x - y)%Qc == this x - this y)%Q.
Proof. unfold Qcminus, Qminus. rewrite this_plus, this_opp. reflexivity. Qed.
Lemma this_inv x : (this (/ x)%Qc == / this x)%Q.
Proof. apply Qred_correct. Qed.
Lemma this_div x y : (this (x / y)%Qc == this x / this y)%Q.
Proof. unfold Qcdiv, Qdiv. rewrite this_mult, this_inv. reflexivity. Qed.
Lemma this_0 : this 0%Qc = 0%Q. Proof. reflexivity. Qed.
Lemma this_1 : this 1%Qc = 1%Q. Proof. reflexivity. Qed.

Global Hint Rewrite this_q2qc this_qz this_qq this_plus this_mult this_opp this_minus
     this_inv this_div this_0 this_1 : qc.

Lemma qeqb_eq x y : qeqb x y = true <-> x = y.
Proof. unfold qeqb. rewrite Qeq_bool_iff. symmetry. apply qc_eq_iff. Qed.
Lemma qeqb_neq x y : qeqb x y = false <-> x <> y.
Proof.
  destruct (qeqb x y) eqn:E; split; intro H; try discriminate; try reflexivity.
  - apply qeqb_eq in E. contradiction.
  - intros ->. assert (qeqb y y = true) by (apply qeqb_eq; reflexivity). congruence.
Qed.
Lemma qeqb_refl x : qeqb x x = true.
Proof. apply qeqb_eq; reflexivity. Qed.
Lemma qleb_le x y : qleb x y = true <-> (x <= y)%Qc.
Proof. unfold qleb, Qcle. apply Qle_bool_iff. Qed.
Lemma qltb_lt x y : qltb x y = true <-> (x < y)%Qc.
Proof.
  unfold qltb, Qclt. rewrite negb_true_iff. split; intro H.
  - apply Qnot_le_lt. intro C. apply Qle_bool_iff in C. congruence.
  - destruct (Qle_bool (this y) (this x)) eqn:E; [|reflexivity].
    apply Qle_bool_iff in E. exfalso. eapply Qlt_not_le; eauto.
Qed.
Lemma qleb_nle x y : qleb x y = false <-> (y < x)%Qc.
Proof.
  rewrite <- qltb_lt. unfold qleb, qltb. destruct (Qle_bool (this x) (this y)); simpl; split; congruence.
Qed.
Lemma qltb_nlt x y : qltb x y = false <-> (y <= x)%Qc.
Proof.
  rewrite <- qleb_le. unfold qleb, qltb. destruct (Qle_bool (this y) (this x)); simpl; split; congruence.
Qed.

Lemma qeqb_spec x y : reflect (x = y) (qeqb x y).
Proof. apply iff_reflect. symmetry. apply qeqb_eq. Qed.
Lemma qleb_spec x y : reflect (x <= y)%Qc (qleb x y).
Proof. apply iff_reflect. symmetry. apply qleb_le. Qed.
Lemma qltb_spec x y : reflect (x < y)%Qc (qltb x y).
Proof. apply iff_reflect. symmetry. apply qltb_lt. Qed.

(** ** Arithmetic tactics: transport [Qc] facts to [Q] and call [lra]/[nra]. *)
Lemma qc_neq_iff (x y : Qc) : x <> y <-> ~ (this x == this y)%Q.
Proof. rewrite qc_eq_iff. reflexivity. Qed.

Ltac qc_reflect :=
  repeat match goal with
  | H : qeqb _ _ = true |- _ => apply qeqb_eq in H
  | H : qeqb _ _ = false |- _ => apply qeqb_neq in H
  | H : qleb _ _ = true |- _ => apply qleb_le in H
  | H : qleb _ _ = false |- _ => apply qleb_nle in H
  | H : qltb _ _ = true |- _ => apply qltb_lt in H
  | H : qltb _ _ = false |- _ => apply qltb_nlt in H
  | |- qeqb _ _ = true => apply qeqb_eq
  | |- qeqb _ _ = false => apply qeqb_neq
  | |- qleb _ _ = true => apply qleb_le
  | |- qleb _ _ = false => apply qleb_nle
  | |- qltb _ _ = true => apply qltb_lt
  | |- qltb _ _ = false => apply qltb_nlt
  end.

Ltac qc2q :=
  qc_reflect;
  repeat match goal with
  | H : @eq Qc _ _ |- _ => apply qc_eq_iff in H
  | H : @eq num _ _ |- _ => apply qc_eq_iff in H
  | |- @eq Qc _ _ => apply qc_eq_iff
  | |- @eq num _ _ => apply qc_eq_iff
  end;
  unfold Qcle, Qclt in *;
  autorewrite with qc in *.

Ltac qlra := qc2q; lra.
Ltac qnra := qc2q; nra.

Lemma qmin_spec x y : (qmin x y = x /\ (x <= y)%Qc) \/ (qmin x y = y /\ (y < x)%Qc).
Proof. unfold qmin. destruct (qltb_spec y x); [right|left]; split; auto. qlra. Qed.
Lemma qmax_spec x y : (qmax x y = x /\ (y <= x)%Qc) \/ (qmax x y = y /\ (x < y)%Qc).
Proof. unfold qmax. destruct (qltb_spec x y); [right|left]; split; auto. qlra. Qed.

Lemma qabs_spec x : (qabs x = x /\ (0 <= x)%Qc) \/ (qabs x = (- x)%Qc /\ (x < 0)%Qc).
Proof. unfold qabs. destruct (qltb_spec x 0%Qc); [right|left]; split; auto. qlra. Qed.

Lemma qfloor_spec x : (qz (qfloor x) <= x)%Qc /\ (x < qz (qfloor x + 1))%Qc.
Proof.
  unfold qfloor, Qcle, Qclt. rewrite !this_qz. split; [apply Qfloor_le | apply Qlt_floor].
Qed.

Lemma qz_le a b : (qz a <= qz b)%Qc <-> a <= b.
Proof. unfold Qcle. rewrite !this_qz, <- Zle_Qle. reflexivity. Qed.
Lemma qz_lt a b : (qz a < qz b)%Qc <-> a < b.
Proof. unfold Qclt. rewrite !this_qz, <- Zlt_Qlt. reflexivity. Qed.
Lemma qz_inj a b : qz a = qz b -> a = b.
Proof.
  intros H. apply Z.le_antisymm; apply qz_le; rewrite H; apply Qcle_refl.
Qed.
Lemma qz_plus a b : qz (a + b) = (qz a + qz b)%Qc.
Proof. apply qc_eq_iff. autorewrite with qc. rewrite inject_Z_plus. reflexivity. Qed.
Lemma qz_mult a b : qz (a * b) = (qz a * qz b)%Qc.
Proof. apply qc_eq_iff. autorewrite with qc. rewrite inject_Z_mult. reflexivity. Qed.
Lemma qz_opp a : qz (- a) = (- qz a)%Qc.
Proof. apply qc_eq_iff. autorewrite with qc. rewrite inject_Z_opp. reflexivity. Qed.
Lemma qz_0 : qz 0 = 0%Qc. Proof. apply Qc_is_canon. reflexivity. Qed.
Lemma qz_1 : qz 1 = 1%Qc. Proof. apply Qc_is_canon. reflexivity. Qed.

Lemma qfloor_unique x z : (qz z <= x)%Qc -> (x < qz (z + 1))%Qc -> qfloor x = z.
Proof.
  intros H1 H2. destruct (qfloor_spec x) as [H3 H4].
  assert (qz z < qz (qfloor x + 1))%Qc by (eapply Qcle_lt_trans; eauto).
  assert (qz (qfloor x) < qz (z + 1))%Qc by (eapply Qcle_lt_trans; eauto).
  rewrite qz_lt in *. lia.
Qed.
Lemma qfloor_qz z : qfloor (qz z) = z.
Proof. apply qfloor_unique; [apply Qcle_refl | apply qz_lt; lia]. Qed.

Lemma qccompare_spec x y :
  match Qccompare x y with Lt => (x < y)%Qc | Eq => x = y | Gt => (y < x)%Qc end.
Proof.
  destruct (Qccompare x y) eqn:E.
  - apply Qceq_alt. exact E.
  - apply Qclt_alt. exact E.
  - apply Qcgt_alt in E. exact E.
Qed.

(** [round_he x] is an integer nearest to [x]; the even one on ties. *)
Lemma round_he_spec x :
  (qabs (x - qz (round_he x)) <= qq 1 2)%Qc /\
  (qabs (x - qz (round_he x)) = qq 1 2 -> Z.even (round_he x) = true).
Proof.
  unfold round_he. destruct (qfloor_spec x) as [H1 H2]. rewrite qz_plus, qz_1 in H2.
  set (f := qfloor x) in *.
  pose proof (qccompare_spec (x - qz f)%Qc (qq 1 2)) as H.
  destruct (Qccompare (x - qz f)%Qc (qq 1 2)).
  - destruct (Z.even f) eqn:Ev.
    + split; [|auto]. destruct (qabs_spec (x - qz f)%Qc) as [[-> _]|[-> _]]; qlra.
    + rewrite qz_plus, qz_1. split.
      * destruct (qabs_spec (x - (qz f + 1))%Qc) as [[-> _]|[-> _]]; qlra.
      * intros _. rewrite Z.even_add, Ev. reflexivity.
  - split.
    + destruct (qabs_spec (x - qz f)%Qc) as [[-> _]|[-> _]]; qlra.
    + intros E. destruct (qabs_spec (x - qz f)%Qc) as [[E2 _]|[E2 _]]; rewrite E2 in E; exfalso; qlra.
  - rewrite qz_plus, qz_1. split.
    + destruct (qabs_spec (x - (qz f + 1))%Qc) as [[-> _]|[-> _]]; qlra.
    + intros E. destruct (qabs_spec (x - (qz f + 1))%Qc) as [[E2 _]|[E2 _]]; rewrite E2 in E; exfalso; qlra.
Qed.

Lemma round_he_qz z : round_he (qz z) = z.
Proof.
  unfold round_he. rewrite qfloor_qz.
  pose proof (qccompare_spec (qz z - qz z)%Qc (qq 1 2)) as H.
  destruct (Qccompare (qz z - qz z)%Qc (qq 1 2)); try reflexivity; exfalso; qlra.
Qed.

Lemma qabs_pos x : (0 <= x)%Qc -> qabs x = x.
Proof. intros H. destruct (qabs_spec x) as [[-> _]|[_ H2]]; [reflexivity|exfalso; qlra]. Qed.
Lemma qabs_neg x : (x <= 0)%Qc -> qabs x = (- x)%Qc.
Proof. intros H. destruct (qabs_spec x) as [[-> H2]|[-> _]]; [|reflexivity]. qlra. Qed.
Lemma qmul_pos x y : (0 <= x)%Qc -> (0 <= y)%Qc -> (0 <= x * y)%Qc.
Proof. intros. qnra. Qed.
Lemma qmul_neg x y : (x <= 0)%Qc -> (0 <= y)%Qc -> (x * y <= 0)%Qc.
Proof. intros. qnra. Qed.
Lemma qabs_mult_pos x y : (0 < y)%Qc -> qabs (x * y)%Qc = (qabs x * y)%Qc.
Proof.
  intros H. assert (Hy : (0 <= y)%Qc) by qlra.
  destruct (qabs_spec x) as [[E Hx]|[E Hx]]; rewrite E.
  - rewrite qabs_pos by (apply qmul_pos; assumption). reflexivity.
  - rewrite qabs_neg by (apply qmul_neg; [qlra|assumption]). ring.
Qed.

(** Case split on every [qabs], [qmin], [qmax] in sight. *)
Ltac qabs_cases :=
  repeat match goal with
  | |- context [qabs ?x] =>
      let E := fresh in destruct (qabs_spec x) as [[E ?]|[E ?]]; rewrite E in *; clear E
  | H : context [qabs ?x] |- _ =>
      let E := fresh in destruct (qabs_spec x) as [[E ?]|[E ?]]; rewrite E in *; clear E
  | |- context [qmin ?x ?y] =>
      let E := fresh in destruct (qmin_spec x y) as [[E ?]|[E ?]]; rewrite E in *; clear E
  | H : context [qmin ?x ?y] |- _ =>
      let E := fresh in destruct (qmin_spec x y) as [[E ?]|[E ?]]; rewrite E in *; clear E
  | |- context [qmax ?x ?y] =>
      let E := fresh in destruct (qmax_spec x y) as [[E ?]|[E ?]]; rewrite E in *; clear E
  | H : context [qmax ?x ?y] |- _ =>
      let E := fresh in destruct (qmax_spec x y) as [[E ?]|[E ?]]; rewrite E in *; clear E
  end.
