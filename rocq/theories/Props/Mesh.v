(** * Properties C90-C92: boundaries with holes, triangles of shapes, projections *)
From Verif Require Import Base.Py Spec.Meshes Model.Plane Model.Mesh Proofs.RouteEx Proofs.MeshP Proofs.MeshEx Proofs.MeshExactP.
From Coq Require Import Permutation.
Local Open Scope Qc_scope.
Local Open Scope list_scope.

(** ** C90 *)
(** Full statement: each offset hole is a hole of one of the offset outlines.  Missing (false in the
    code): holes that are inside none of them. *)
Theorem C90_holes_partial : forall K, (forall f g : bk_face K, bk_same K f g = true <-> f = g) ->
  forall b oo io bs, offset_wires K b oo io = Ok bs ->
    exists ows iwss outers holes, bk_offset2D K (bk_outer K b) oo = Ok ows /\
      Forall2 (fun w ws => bk_offset2D K w io = Ok ws) (bk_inners K b) iwss /\
      Forall2 (fun w f => bk_make K w [] = Ok f) ows outers /\ Forall2 (fun w f => bk_make K w [] = Ok f) (concat iwss) holes /\
      (NoDup holes -> Forall2 (fun og f => bk_make K (bk_outer K (fst og)) (map (bk_outer K) (snd og)) = Ok f)
        (combine outers (sorted_into (bk_inside K) outers holes)) bs).
Proof. exact offset_wires_spec. Qed.
Print Assumptions C90_holes_partial.
Theorem C90_none_twice : forall F (inside : F -> F -> bool) outers holes, length (sorted_into inside outers holes) = length outers /\
  Permutation holes (concat (sorted_into inside outers holes) ++ filter (fun h => negb (existsb (inside h) outers)) holes).
Proof. exact (@holes_kept). Qed.
Print Assumptions C90_none_twice.
Theorem C90_inside : forall F (inside : F -> F -> bool) outers holes,
  Forall2 (fun o g => Forall (fun h => inside h o = true) g) outers (sorted_into inside outers holes).
Proof. exact (@holes_inside). Qed.
Print Assumptions C90_inside.
(** An island that crosses the shrunk outline is forgotten. *)
Theorem C90_island_refuted : exists K b oo io (bs : list (bk_face K)) ows iwss, (forall f g, bk_same K f g = true <-> f = g) /\ offset_wires K b oo io = Ok bs /\
  bk_offset2D K (bk_outer K b) oo = Ok ows /\ Forall2 (fun w ws => bk_offset2D K w io = Ok ws) (bk_inners K b) iwss /\ ows <> [] /\
  exists w, In w (concat iwss) /\ forall f, In f bs -> ~ In w (bk_inners K f).
Proof. exact island_lost. Qed.
Print Assumptions C90_island_refuted.

Example C90_example : (forall f g, bk_same iv_kernel f g = true <-> f = g) /\
  offset_wires iv_kernel ((0, 100), [(10, 20); (90, 95)])%Z (qz (-2)) (qz 2) = Ok [((2, 98), [(8, 22); (88, 97)])%Z] /\
  NoDup ([((8, 22), []); ((88, 97), [])]%Z : list iv_face).
Proof. split; [exact iv_same|]. split; [exact islands_example|exact islands_distinct]. Qed.

(** ** C91 *)
Theorem C91_triangles : forall fs ts, shape_to_triangles (SCompound fs) = Ok ts <->
  exists tss, Forall2 (mesh_of stored) fs tss /\ ts = concat tss.
Proof. exact compound_triangles. Qed.
Print Assumptions C91_triangles.
(** Full statement: without the first hypothesis.  Missing (false in the code): faces with a location. *)
Theorem C91_in_place_partial : forall fs ts, Forall (fun f => forall v, mf_place f v = v) fs -> shape_to_triangles (SCompound fs) = Ok ts ->
  exists tss, Forall2 (mesh_of placed) fs tss /\ ts = concat tss.
Proof. exact compound_placed. Qed.
Print Assumptions C91_in_place_partial.
Theorem C91_face : forall f ts, shape_to_triangles (SFace f) = Ok ts <-> mesh_of stored f ts.
Proof. exact face_alone. Qed.
Print Assumptions C91_face.
Theorem C91_solids : forall f fs, shape_to_triangles (SOther (f :: fs)) = Err TypeError /\ module_triangles (SOther (f :: fs)) = Err TypeError /\
  module_triangles (SCompound (f :: fs)) = Err TypeError.
Proof. exact solid_fails. Qed.
Print Assumptions C91_solids.
Theorem C91_location_refuted : exists fs ts, shape_to_triangles (SCompound fs) = Ok ts /\ ~ exists tss, Forall2 (mesh_of placed) fs tss /\ ts = concat tss.
Proof. exact misplaced. Qed.
Print Assumptions C91_location_refuted.
(** Exactly: the triangles are in place if and only if the locations leave all their corners where they are. *)
Theorem C91_in_place_exactly : forall fs ts, shape_to_triangles (SCompound fs) = Ok ts ->
  ((exists tss, Forall2 (mesh_of placed) fs tss /\ ts = concat tss) <->
   forall f ns a b c k v, In f fs -> mf_triangles f = Some ns -> In (a, b, c) ns -> k = a \/ k = b \/ k = c -> corner f k v -> mf_place f v = v).
Proof. exact in_place_exactly. Qed.
Print Assumptions C91_in_place_exactly.

Example C91_example : shape_to_triangles (SCompound [tile (fun v => v); tile (fun v => v)]) =
  Ok [(zv 0 0 0, zv 1 0 0, zv 1 1 0); (zv 0 0 0, zv 1 1 0, zv 0 1 0); (zv 0 0 0, zv 1 0 0, zv 1 1 0); (zv 0 0 0, zv 1 1 0, zv 0 1 0)] /\
  Forall (fun f => forall v, mf_place f v = v) [tile (fun v => v); tile (fun v => v)].
Proof. split; [exact tiles_example|]. repeat constructor. Qed.

(** ** C92 *)
Theorem C92_projection : forall K area wires f, project_wires K area wires = Ok f ->
  exists w ws a, bk_make K w ws = Ok f /\ Permutation (w :: ws) wires /\ area w = Ok a /\
    forall w' a', In w' wires -> area w' = Ok a' -> a' <= a.
Proof. exact project_largest. Qed.
Print Assumptions C92_projection.
Theorem C92_nothing : forall K area, project_wires K area [] = Err IndexError.
Proof. exact project_nothing. Qed.
Print Assumptions C92_nothing.
Example C92_example : project_wires iv_kernel (fun w => Ok (qz (snd w - fst w))) [(3, 5); (0, 10); (6, 7)]%Z = Ok ((0, 10), [(3, 5); (6, 7)])%Z.
Proof. exact project_example. Qed.
