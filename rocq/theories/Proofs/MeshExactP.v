From Verif Require Import Base.Py Spec.Meshes Model.Plane Model.Mesh Proofs.MeshP.
Local Open Scope Qc_scope.
Local Open Scope list_scope.

Lemma corner_fun f k u v : corner f k u -> corner f k v -> u = v.
Proof.
  intros (b1 & a1 & E1 & ->) (b2 & a2 & E2 & L). injection L as L. rewrite E1 in E2. clear E1. revert b2 L E2.
  induction b1 as [|x b1 IH]; intros [|y b2] L E2; try discriminate L; cbn [app] in E2; injection E2; intros; [assumption|].
  apply (IH b2); [cbn in L; lia|assumption].
Qed.
Lemma F2_length {A B} (R : A -> B -> Prop) l k : Forall2 R l k -> length l = length k.
Proof. induction 1; cbn; congruence. Qed.
Lemma concat_same {A B} (P Q : A -> list B -> Prop) fs : forall xs ys,
  Forall2 P fs xs -> Forall2 Q fs ys -> (forall f x y, P f x -> Q f y -> length x = length y) -> concat xs = concat ys -> xs = ys.
Proof.
  induction fs as [|f fs IH]; intros xs ys F G L E; inversion F; inversion G; subst; [reflexivity|]. cbn [concat] in E.
  match goal with HP : P f ?x, HQ : Q f ?y |- _ => pose proof (L f x y HP HQ) as EL; assert (x = y /\ concat l' = concat l'0) as [-> E2] end.
  { clear - E EL. revert y0 EL E. induction y as [|a y IH]; intros [|b y0] EL E; try discriminate EL; cbn [app] in E; [split; [reflexivity|exact E]|].
    injection E as -> E. injection EL as EL. destruct (IH y0 EL E) as [-> E2]. split; [reflexivity|exact E2]. }
  f_equal. eapply IH; eassumption.
Qed.

Lemma in_place_exactly fs ts : shape_to_triangles (SCompound fs) = Ok ts ->
  ((exists tss, Forall2 (mesh_of placed) fs tss /\ ts = concat tss) <->
   forall f ns a b c k v, In f fs -> mf_triangles f = Some ns -> In (a, b, c) ns -> k = a \/ k = b \/ k = c -> corner f k v -> mf_place f v = v).
Proof.
  intros H. apply compound_triangles in H. destruct H as (tss & H & ->). split.
  - intros (tss' & H' & E).
    assert (EQ : tss = tss').
    { refine (concat_same (mesh_of stored) (mesh_of placed) fs tss tss' H H' _ E).
      intros f x y (ns & N1 & F1) (ns' & N2 & F2). assert (ns' = ns) by congruence. subst. rewrite <- (F2_length _ _ _ F1), <- (F2_length _ _ _ F2). reflexivity. }
    subst tss'. clear E. intros f ns a b c k v HI HN HT HK HC.
    assert (G : exists x, mesh_of stored f x /\ mesh_of placed f x).
    { clear - H H' HI. revert H'. induction H as [|g x fs tss P F IH]; intros H'; [destruct HI|]. inversion H'; subst. destruct HI as [->|HI]; eauto. }
    destruct G as (x & (n1 & N1 & F1) & (n2 & N2 & F2)). assert (n1 = ns) by congruence. assert (n2 = ns) by congruence. subst n1 n2.
    clear - F1 F2 HT HK HC. revert F2. induction F1 as [|t tri ns x S F IH]; intros F2; [destruct HT|]. inversion F2 as [|? ? ? ? Q F2']; subst. destruct HT as [->|HT]; [|apply IH; assumption].
    destruct Q as (u1 & v1 & w1 & S1 & ->). cbn in S, S1. destruct S as (A & B & C), S1 as (A1 & B1 & C1).
    destruct HK as [HK|[HK|HK]]; subst k.
    + rewrite (corner_fun _ _ _ _ HC A1). exact (corner_fun _ _ _ _ A A1).
    + rewrite (corner_fun _ _ _ _ HC B1). exact (corner_fun _ _ _ _ B B1).
    + rewrite (corner_fun _ _ _ _ HC C1). exact (corner_fun _ _ _ _ C C1).
  - intros P. exists tss. split; [|reflexivity]. induction H as [|f x fs tss (ns & N & F) H IH]; constructor.
    + exists ns. split; [exact N|]. assert (P1 : forall a b c k v, In (a, b, c) ns -> k = a \/ k = b \/ k = c -> corner f k v -> mf_place f v = v).
      { intros a b c k v I K C. eapply P; [left; reflexivity|exact N|exact I|exact K|exact C]. }
      clear - F P1. induction F as [|[[a b] c] [[u v] w] ns x S F IH]; constructor.
      * cbn in S. destruct S as (A & B & C). exists u, v, w. split; [cbn; auto|].
        rewrite (P1 a b c a u), (P1 a b c b v), (P1 a b c c w); try (left; reflexivity); auto.
      * apply IH. intros a' b' c' k v' I. apply (P1 a' b' c'). right. exact I.
    + apply IH. intros. eapply P; try eassumption. right. assumption.
Qed.
