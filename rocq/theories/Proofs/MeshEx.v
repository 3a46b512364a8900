(** * Shapes of a surface operation: concrete cases *)
From Verif Require Import Base.Py Spec.Meshes Model.Plane Model.Linked Model.Mesh Proofs.RouteEx Proofs.MeshP.
From Coq Require Import Permutation Lia.
Local Open Scope Qc_scope.
Local Open Scope list_scope.

(** A unit square of two triangles. *)
Definition tile (place : vec -> vec) : mesh_face :=
  MF [zv 0 0 0; zv 1 0 0; zv 1 1 0; zv 0 1 0] (Some [(1, 2, 3); (1, 3, 4)]%nat) place.
Lemma tiles_example : shape_to_triangles (SCompound [tile (fun v => v); tile (fun v => v)]) =
  Ok [(zv 0 0 0, zv 1 0 0, zv 1 1 0); (zv 0 0 0, zv 1 1 0, zv 0 1 0); (zv 0 0 0, zv 1 0 0, zv 1 1 0); (zv 0 0 0, zv 1 1 0, zv 0 1 0)].
Proof. reflexivity. Qed.
Definition raised (v : vec) : vec := V3 (vx v) (vy v) (vz v + qz 5).
Lemma misplaced : exists fs ts, shape_to_triangles (SCompound fs) = Ok ts /\ ~ exists tss, Forall2 (mesh_of placed) fs tss /\ ts = concat tss.
Proof.
  exists [tile raised], [(zv 0 0 0, zv 1 0 0, zv 1 1 0); (zv 0 0 0, zv 1 1 0, zv 0 1 0)]. split; [reflexivity|].
  intros (tss & F & E). inversion F as [|? ts ? l (ns & N & M) F2]; subst. inversion F2; subst. cbn [concat] in E. rewrite app_nil_r in E. subst ts.
  injection N as <-. inversion M as [|? ? ? ? P _]; subst. destruct P as (u & v & w & S & P). destruct S as ((b1 & a1 & S1 & _) & _).
  assert (Z0 : vz u = 0).
  { assert (I : In u (mf_nodes (tile raised))) by (rewrite S1; apply in_or_app; right; left; reflexivity).
    cbn in I. destruct I as [<-|[<-|[<-|[<-|[]]]]]; apply qeqb_eq; vm_compute; reflexivity. }
  assert (P1 := f_equal (fun t : triangle => vz (fst (fst t))) P). cbn [vz zv raised mf_place tile fst] in P1. rewrite Z0 in P1.
  assert (E0 : qeqb (qz 0) (0 + qz 5) = false) by (vm_compute; reflexivity). apply qeqb_neq in E0. exact (E0 P1).
Qed.

(** Discs on the line, given by their ends; a face is an outline with its holes. *)
Definition iv := (Z * Z)%type.
Definition iv_face := (iv * list iv)%type.
Definition grow (s : Qc) (w : iv) : iv := ((fst w - qfloor s)%Z, (snd w + qfloor s)%Z).
Definition iv_eqb (a b : iv) : bool := Z.eqb (fst a) (fst b) && Z.eqb (snd a) (snd b).
Definition iv_kernel : boundary_kernel := BK iv_face iv fst snd
  (fun w s => let w := grow s w in if Z.ltb (fst w) (snd w) then Ok [w] else Ok [])
  (fun w ws => Ok (w, ws))
  (fun f g => Z.leb (fst (fst g)) (fst (fst f)) && Z.leb (snd (fst f)) (snd (fst g)))
  (fun f g => iv_eqb (fst f) (fst g) && (fix same a b := match a, b with [], [] => true | x :: a, y :: b => iv_eqb x y && same a b | _, _ => false end) (snd f) (snd g)).
Lemma iv_eqb_eq a b : iv_eqb a b = true <-> a = b.
Proof. unfold iv_eqb. destruct a, b. cbn [fst snd]. rewrite andb_true_iff, !Z.eqb_eq. split; [intros [-> ->]; reflexivity|intros [= -> ->]; auto]. Qed.
Lemma iv_same f g : bk_same iv_kernel f g = true <-> f = g.
Proof.
  destruct f as [a l], g as [b k]. cbn [bk_same iv_kernel fst snd]. rewrite andb_true_iff, iv_eqb_eq.
  assert (H : forall l k, (fix same (a b : list iv) := match a, b with [], [] => true | x :: a, y :: b => iv_eqb x y && same a b | _, _ => false end) l k = true <-> l = k).
  { clear. induction l as [|x l IH]; intros [|y k]; split; try discriminate; try reflexivity.
    - intros H. apply andb_prop in H. destruct H as [H1 H2]. apply iv_eqb_eq in H1. apply IH in H2. subst. reflexivity.
    - intros [= -> ->]. apply andb_true_intro. split; [apply iv_eqb_eq; reflexivity|apply IH; reflexivity]. }
  rewrite H. split; [intros [-> ->]; reflexivity|intros [= -> ->]; auto].
Qed.
(** Shrunk by 2; islands grown by 2: one of the two stays inside. *)
Lemma islands_example : offset_wires iv_kernel ((0, 100), [(10, 20); (90, 95)])%Z (qz (-2)) (qz 2) = Ok [((2, 98), [(8, 22); (88, 97)])%Z].
Proof. vm_compute. reflexivity. Qed.
Lemma island_lost : exists K b oo io (bs : list (bk_face K)) ows iwss, (forall f g, bk_same K f g = true <-> f = g) /\ offset_wires K b oo io = Ok bs /\
  bk_offset2D K (bk_outer K b) oo = Ok ows /\ Forall2 (fun w ws => bk_offset2D K w io = Ok ws) (bk_inners K b) iwss /\ ows <> [] /\
  exists w, In w (concat iwss) /\ forall f, In f bs -> ~ In w (bk_inners K f).
Proof.
  exists iv_kernel, ((0, 100), [(10, 20); (90, 99)])%Z, (qz (-2)), (qz 2), [((2, 98), [(8, 22)])%Z], [(2, 98)%Z], [[(8, 22)%Z]; [(88, 101)%Z]].
  split; [exact iv_same|]. split; [vm_compute; reflexivity|]. split; [vm_compute; reflexivity|].
  split; [repeat constructor; vm_compute; reflexivity|]. split; [discriminate|].
  exists (88, 101)%Z. split; [right; left; reflexivity|]. intros f [<-|[]] [H|[]]. discriminate H.
Qed.
Lemma islands_distinct : NoDup ([((8, 22), []); ((88, 97), [])]%Z : list iv_face).
Proof. constructor; [intros [H|[]]; discriminate H|]. constructor; [intros []|constructor]. Qed.
Lemma project_example : project_wires iv_kernel (fun w => Ok (qz (snd w - fst w))) [(3, 5); (0, 10); (6, 7)]%Z = Ok ((0, 10), [(3, 5); (6, 7)])%Z.
Proof. vm_compute. reflexivity. Qed.
