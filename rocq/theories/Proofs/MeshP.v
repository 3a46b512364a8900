(** * Triangles of shapes, holes of boundaries *)
From Verif Require Import Base.Py Spec.Meshes Model.Plane Model.Linked Model.Mesh.
From Verif Require Import Proofs.LinkedP.
From Coq Require Import Permutation Lia.
Local Open Scope Qc_scope.
Local Open Scope list_scope.

Lemma node_iff f k v : node f k = Ok v <-> corner f k v.
Proof.
  unfold node, corner. destruct k as [|k]; split.
  - discriminate.
  - intros (b & a & _ & H). discriminate H.
  - destruct (nth_error (mf_nodes f) k) as [u|] eqn:E; [|discriminate]. intros [= <-].
    apply nth_error_split in E. destruct E as (l1 & l2 & E & L). exists l1, l2. split; [exact E|f_equal; symmetry; exact L].
  - intros (b & a & E & [= ->]). rewrite E, nth_error_app2, Nat.sub_diag by lia. reflexivity.
Qed.
Lemma one_triangle_iff f a b c t : (do a <- node f a; do b <- node f b; do c <- node f c; Ok (a, b, c)) = Ok t <-> stored f (a, b, c) t.
Proof.
  destruct t as [[u v] w]. unfold stored. split.
  - intros H. apply rbind_ok in H. destruct H as (u' & H1 & H). apply rbind_ok in H. destruct H as (v' & H2 & H).
    apply rbind_ok in H. destruct H as (w' & H3 & [= <- <- <-]). repeat split; apply node_iff; assumption.
  - intros (H1 & H2 & H3). apply node_iff in H1, H2, H3. rewrite H1. cbn [rbind]. rewrite H2. cbn [rbind]. rewrite H3. reflexivity.
Qed.
Lemma face_triangles_iff f ts : face_triangles f = Ok ts <-> mesh_of stored f ts.
Proof.
  unfold face_triangles, mesh_of. destruct (mf_triangles f) as [ns|].
  - rewrite mapM_ok. split.
    + intros H. exists ns. split; [reflexivity|]. induction H as [|[[a b] c] t ns ts H1 H2 IH]; constructor; [apply one_triangle_iff; exact H1|exact IH].
    + intros (ns' & [= <-] & H). induction H as [|[[a b] c] t ns ts H1 H2 IH]; constructor; [apply one_triangle_iff; exact H1|exact IH].
  - split; [discriminate|]. intros (ns & H & _). discriminate H.
Qed.

Theorem compound_triangles fs ts : shape_to_triangles (SCompound fs) = Ok ts <->
  exists tss, Forall2 (mesh_of stored) fs tss /\ ts = concat tss.
Proof.
  cbn [shape_to_triangles module_triangles]. split.
  - intros H. apply rbind_ok in H. destruct H as (tss & H & [= <-]). exists tss. split; [|reflexivity]. apply mapM_ok in H.
    induction H as [|f t fs tss H1 H2 IH]; constructor; [apply face_triangles_iff; exact H1|exact IH].
  - intros (tss & H & ->). assert (E : mapM (fun f => face_triangles f) fs = Ok tss).
    { apply mapM_ok. induction H as [|f t fs tss H1 H2 IH]; constructor; [apply face_triangles_iff; exact H1|exact IH]. }
    rewrite E. reflexivity.
Qed.
Theorem face_alone f ts : shape_to_triangles (SFace f) = Ok ts <-> mesh_of stored f ts.
Proof. apply face_triangles_iff. Qed.
Theorem solid_fails f fs : shape_to_triangles (SOther (f :: fs)) = Err TypeError /\ module_triangles (SOther (f :: fs)) = Err TypeError /\
  module_triangles (SCompound (f :: fs)) = Err TypeError.
Proof. repeat split. Qed.

Lemma stored_placed f t tri : (forall v, mf_place f v = v) -> stored f t tri -> placed f t tri.
Proof. intros P H. destruct tri as [[u v] w]. exists u, v, w. split; [exact H|]. rewrite !P. reflexivity. Qed.
Theorem compound_placed fs ts : Forall (fun f => forall v, mf_place f v = v) fs -> shape_to_triangles (SCompound fs) = Ok ts ->
  exists tss, Forall2 (mesh_of placed) fs tss /\ ts = concat tss.
Proof.
  intros P H. apply compound_triangles in H. destruct H as (tss & H & ->). exists tss. split; [|reflexivity].
  induction H as [|f t fs tss (ns & E & F) H IH]; constructor; inversion P as [|? ? P1 P2]; subst; [|apply IH; exact P2].
  exists ns. split; [exact E|]. clear - P1 F. induction F as [|n t ns ts H F IH]; constructor; [apply stored_placed; assumption|exact IH].
Qed.

(** ** Boundaries *)
Section Boundary.
  Context (K : boundary_kernel).
  Hypothesis same_eq : forall f g : bk_face K, bk_same K f g = true <-> f = g.

  Lemma remove_face_split f l1 l2 : ~ In f l1 -> remove_face K f (l1 ++ f :: l2) = Ok (l1 ++ l2).
  Proof.
    induction l1 as [|g l1 IH]; intros N; cbn [app remove_face].
    - rewrite (proj2 (same_eq f f) eq_refl). reflexivity.
    - destruct (bk_same K g f) eqn:E; [apply same_eq in E; subst g; destruct (N (or_introl eq_refl))|].
      rewrite IH by (intros C; apply N; right; exact C). reflexivity.
  Qed.
  Lemma take_inside_spec o copy : forall kept, NoDup (kept ++ copy) ->
    take_inside K o copy (kept ++ copy) =
      Ok (map (bk_outer K) (filter (fun h => bk_inside K h o) copy), kept ++ filter (fun h => negb (bk_inside K h o)) copy).
  Proof.
    induction copy as [|f copy IH]; intros kept N; cbn [take_inside filter map].
    - reflexivity.
    - destruct (bk_inside K f o) eqn:E; cbn [negb].
      + rewrite remove_face_split.
        * cbn [rbind]. rewrite IH; [reflexivity|]. exact (NoDup_remove_1 _ _ _ N).
        * intros C. apply NoDup_remove_2 in N. apply N. apply in_or_app. left. exact C.
      + replace (kept ++ f :: copy) with ((kept ++ [f]) ++ copy) by (rewrite <- app_assoc; reflexivity).
        rewrite IH by (rewrite <- app_assoc; exact N). rewrite <- app_assoc. reflexivity.
  Qed.
  Lemma boundary_faces_iff outer : forall inner bs, NoDup inner -> boundary_faces K outer inner = Ok bs <->
    Forall2 (fun og b => bk_make K (bk_outer K (fst og)) (map (bk_outer K) (snd og)) = Ok b)
      (combine outer (sorted_into (bk_inside K) outer inner)) bs.
  Proof.
    induction outer as [|o outer IH]; intros inner bs N; cbn [boundary_faces sorted_into combine].
    - split; [intros [= <-]; constructor|intros H; inversion H; reflexivity].
    - pose proof (take_inside_spec o inner [] N) as E. cbn [app] in E. rewrite E. cbn [rbind].
      pose proof (NoDup_filter (fun h => negb (bk_inside K h o)) N) as N2. split.
      + intros H. apply rbind_ok in H. destruct H as (b & H1 & H). apply rbind_ok in H. destruct H as (bs' & H2 & [= <-]).
        constructor; [exact H1|]. apply IH; assumption.
      + intros H. inversion H as [|? b ? bs' H1 H2]; subst. cbn [fst snd] in H1. rewrite H1. cbn [rbind].
        apply (IH _ _ N2) in H2. rewrite H2. reflexivity.
  Qed.
  Theorem offset_wires_spec b oo io bs : offset_wires K b oo io = Ok bs ->
    exists ows iwss outers holes, bk_offset2D K (bk_outer K b) oo = Ok ows /\
      Forall2 (fun w ws => bk_offset2D K w io = Ok ws) (bk_inners K b) iwss /\
      Forall2 (fun w f => bk_make K w [] = Ok f) ows outers /\ Forall2 (fun w f => bk_make K w [] = Ok f) (concat iwss) holes /\
      (NoDup holes -> Forall2 (fun og f => bk_make K (bk_outer K (fst og)) (map (bk_outer K) (snd og)) = Ok f)
        (combine outers (sorted_into (bk_inside K) outers holes)) bs).
  Proof.
    unfold offset_wires. intros H. apply rbind_ok in H. destruct H as (ows & H1 & H). apply rbind_ok in H. destruct H as (iwss & H2 & H).
    apply rbind_ok in H. destruct H as (outers & H3 & H). apply rbind_ok in H. destruct H as (holes & H4 & H).
    apply mapM_ok in H2, H3, H4. exists ows, iwss, outers, holes. split; [exact H1|]. split; [exact H2|]. split; [exact H3|]. split; [exact H4|].
    intros N. apply boundary_faces_iff; assumption.
  Qed.
End Boundary.

(** What becomes of the holes. *)
Lemma filter_split {A} (p : A -> bool) l : Permutation l (filter p l ++ filter (fun a => negb (p a)) l).
Proof.
  induction l as [|a l IH]; [reflexivity|]. cbn [filter]. destruct (p a); cbn [negb app]; [apply perm_skip; exact IH|].
  apply Permutation_cons_app. exact IH.
Qed.
Lemma filter_filter {A} (p q : A -> bool) l : filter p (filter q l) = filter (fun a => q a && p a) l.
Proof. induction l as [|a l IH]; [reflexivity|]. cbn [filter]. destruct (q a); cbn [filter andb]; [destruct (p a); rewrite IH; reflexivity|exact IH]. Qed.
Theorem holes_kept {F} (inside : F -> F -> bool) outers : forall holes, length (sorted_into inside outers holes) = length outers /\
  Permutation holes (concat (sorted_into inside outers holes) ++ filter (fun h => negb (existsb (inside h) outers)) holes).
Proof.
  induction outers as [|o outers IH]; intros holes; cbn [sorted_into length concat existsb].
  - split; [reflexivity|]. cbn [negb app]. assert (E : filter (fun _ : F => true) holes = holes) by (induction holes as [|h l IH]; [reflexivity|cbn [filter]; rewrite IH; reflexivity]).
    rewrite E. reflexivity.
  - destruct (IH (filter (fun h => negb (inside h o)) holes)) as [L P]. split; [rewrite L; reflexivity|].
    transitivity (filter (fun h => inside h o) holes ++ filter (fun h => negb (inside h o)) holes); [apply filter_split|].
    rewrite <- app_assoc. apply Permutation_app_head. etransitivity; [exact P|]. apply Permutation_app_head.
    rewrite filter_filter. erewrite filter_ext; [reflexivity|]. intros h. cbn beta. rewrite negb_orb. reflexivity.
Qed.
Theorem holes_inside {F} (inside : F -> F -> bool) outers : forall holes,
  Forall2 (fun o g => Forall (fun h => inside h o = true) g) outers (sorted_into inside outers holes).
Proof.
  induction outers as [|o outers IH]; intros holes; cbn [sorted_into]; constructor; [|apply IH].
  apply Forall_forall. intros h H. apply filter_In in H. apply H.
Qed.

(** ** Projections *)
Lemma sort_by_head {A} (key : A -> Qc) l a rest : sort_by key l = a :: rest -> forall b, In b l -> key a <= key b.
Proof.
  revert a rest. induction l as [|c l IH]; intros a rest H b I; [destruct I|]. cbn [sort_by fold_right] in H. fold (sort_by key l) in H.
  destruct (sort_by key l) as [|d s] eqn:E; cbn [insert_by] in H.
  - injection H as <- <-. destruct I as [<-|I]; [apply Qcle_refl|]. pose proof (sort_by_perm key l) as P. rewrite E in P. apply Permutation_nil in P. subst l. destruct I.
  - destruct (qleb (key c) (key d)) eqn:L.
    + injection H as <- <-. apply qleb_le in L. destruct I as [<-|I]; [apply Qcle_refl|]. apply Qcle_trans with (1 := L). exact (IH _ _ eq_refl _ I).
    + injection H as <- <-. apply qleb_nle in L. destruct I as [<-|I]; [apply Qclt_le_weak; exact L|]. exact (IH _ _ eq_refl _ I).
Qed.
Theorem project_wires_spec K area wires f : project_wires K area wires = Ok f <->
  exists areas sorted w ws, Forall2 (fun w a => area w = Ok a) wires areas /\ sorted = sort_by (fun v => - fst v) (combine areas wires) /\
    map snd sorted = w :: ws /\ bk_make K w ws = Ok f.
Proof.
  unfold project_wires. split.
  - intros H. apply rbind_ok in H. destruct H as (areas & H1 & H). apply mapM_ok in H1.
    destruct (map snd _) as [|w ws] eqn:E in H; [discriminate H|]. exists areas, (sort_by (fun v => - fst v) (combine areas wires)), w, ws. auto.
  - intros (areas & s & w & ws & H1 & -> & E & H). apply mapM_ok in H1. rewrite H1. cbn [rbind]. rewrite E. exact H.
Qed.
Theorem project_largest K area wires f : project_wires K area wires = Ok f ->
  exists w ws a, bk_make K w ws = Ok f /\ Permutation (w :: ws) wires /\ area w = Ok a /\
    forall w' a', In w' wires -> area w' = Ok a' -> a' <= a.
Proof.
  intros H. apply project_wires_spec in H. destruct H as (areas & s & w & ws & F & -> & E & H).
  assert (C : map snd (combine areas wires) = wires).
  { clear - F. induction F as [|x y l l' H F IH]; [reflexivity|]. cbn [combine map snd]. rewrite IH. reflexivity. }
  assert (IA : forall a w, In (a, w) (combine areas wires) -> area w = Ok a).
  { clear - F. induction F as [|x y l l' H F IH]; intros a w; cbn [combine]; [intros []|]. intros [[= <- <-]|I]; [exact H|exact (IH _ _ I)]. }
  assert (IW : forall w a, In w wires -> area w = Ok a -> In (a, w) (combine areas wires)).
  { clear - F. induction F as [|x y l l' H F IH]; intros w a; [intros []|]. cbn [combine]. intros [<-|I] A; [left; f_equal; congruence|right; exact (IH _ _ I A)]. }
  pose proof (sort_by_perm (fun v : Qc * bk_wire K => - fst v) (combine areas wires)) as P.
  destruct (sort_by _ (combine areas wires)) as [|[a w0] s] eqn:ES; [discriminate E|]. cbn [map snd] in E. injection E as -> <-.
  exists w, (map snd s), a. split; [exact H|]. split.
  - rewrite <- C. rewrite <- P. reflexivity.
  - split; [apply IA; rewrite <- P; left; reflexivity|]. intros w' a' I A.
    pose proof (sort_by_head _ _ _ _ ES _ (IW _ _ I A)) as L. cbn [fst] in L. 
    destruct (Qclt_le_dec a a') as [D|D]; [|exact D]. exfalso. apply (Qclt_not_le (- a') (- a)); [|exact L].
    unfold Qclt. rewrite !this_opp. unfold Qclt in D. apply Qopp_lt_compat. exact D.
Qed.
Theorem project_nothing K area : project_wires K area [] = Err IndexError.
Proof. reflexivity. Qed.
