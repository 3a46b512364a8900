(** * Theorems about functions that nothing calls (C107, C108, C109) *)
From Verif Require Import Base.Str Base.Py Model.Geometry Model.Interp Model.Tabs Model.Edges Model.Command Model.Leftovers Spec.Paths Spec.Wires Spec.Tabs Spec.Leftovers
  Proofs.GeomP Proofs.RouteEx Proofs.SurfaceEx Proofs.LeftoversP Proofs.LeftoversEx.
Local Open Scope Qc_scope.
Local Open Scope list_scope.

(** ** C107: a path made into a wire and back is the path, closed if it was open *)
Theorem C107_round_trip : forall veq basis mk asm p z prec a, makes_lines mk -> keeps_order asm -> proper p -> (2 <= List.length p)%nat -> hd_error p = Some a ->
  exists es, path_to_wire mk asm p z = Ok es /\ Forall (fun e => vz (travel_start e) = z /\ vz (travel_end e) = z) es /\
    wire_to_path veq basis es prec = Ok (p ++ if veq (lift z a) (lift z (last p a)) then [] else [a]).
Proof. exact round_trip. Qed.
Print Assumptions C107_round_trip.
(** A path of one point or none asks the kernel for a wire without edges. *)
Theorem C107_too_short : forall mk asm p z, (List.length p < 2)%nat -> path_to_wire mk asm p z = asm [].
Proof. exact too_short. Qed.
Print Assumptions C107_too_short.
Example C107_example : makes_lines ex_make_line /\ keeps_order ex_assemble /\ (proper corner /\ proper round_corner) /\
  there_and_back corner = [(0, 0); (3, 0); (3, 2); (0, 0)]%Z /\ there_and_back round_corner = [(0, 0); (3, 0); (3, 2); (0, 0)]%Z.
Proof. exact (conj ex_makes (conj ex_keeps (conj corner_proper corner_back))). Qed.

(** ** C108: the ranges of the edges of a wire *)
Theorem C108_tiles : forall total es rs, wire_edge_d_ranges total es = Ok rs -> es <> [] -> Forall (fun e => 0 < e_length e) es -> total = qsum (map e_length es) ->
  fst rs = es /\ tiles total (map e_length es) (snd rs).
Proof. exact ranges_tile. Qed.
Print Assumptions C108_tiles.
Theorem C108_fails : forall total es x, wire_edge_d_ranges total es = Err x <-> es <> [] /\ total = 0 /\ x = ZeroDivisionError.
Proof. exact ranges_fail. Qed.
Print Assumptions C108_fails.
Theorem C108_share_of_edge : forall r t, fst r <> snd r -> wire_d_to_edge_d (fst r + t * (snd r - fst r)) r = t.
Proof. exact share_of_edge. Qed.
Print Assumptions C108_share_of_edge.
Example C108_example : Forall (fun e => 0 < e_length e) two_edges /\ qz 4 = qsum (map e_length two_edges) /\
  match wire_edge_d_ranges (qz 4) two_edges with Ok rs => map (fun r => (this (fst r), this (snd r))) (snd rs) | Err _ => [] end =
    map (fun r => (this (fst r), this (snd r))) [(0, qq 3 4); (qq 3 4, 1)].
Proof. exact two_edges_ok. Qed.
(** The length of the wire has to be that of its edges: the ranges of a wire measured shorter are
    not ordered. *)
Theorem C108_any_length_refuted : exists es total rs, Forall (fun e => 0 < e_length e) es /\ 0 < total /\
  wire_edge_d_ranges total es = Ok rs /\ exists r, In r (snd rs) /\ snd r < fst r.
Proof. exact short_wire. Qed.
Print Assumptions C108_any_length_refuted.

(** ** C109: combined faces taken apart again *)
Theorem C109_faces_kept : forall F combine (faces : list F) objects, combine faces = Ok objects ->
  exists l, combine_faces_and_break combine faces = Ok l /\ faces_out l = faces_in objects.
Proof. exact @faces_kept. Qed.
Print Assumptions C109_faces_kept.
Theorem C109_combine : forall F (combine : list F -> result (list (combined F))) faces, match combine faces with
  | Ok objects => exists l, combine_faces combine faces = Ok l /\ faces_only objects l
  | Err x => combine_faces combine faces = Err x
  end.
Proof. exact @combine_faces_ok. Qed.
Print Assumptions C109_combine.
(** What was combined comes back as a list, what was not as it is; in order. *)
Theorem C109_order : forall F combine (faces : list F) objects, combine faces = Ok objects ->
  exists l, combine_faces_and_break combine faces = Ok l /\ broken objects l.
Proof. exact @faces_broken. Qed.
Print Assumptions C109_order.
(** The annotated result, a list of lists of faces, is not what comes out. *)
Theorem C109_lists_of_faces_refuted : exists combine faces l (f : nat), combine_faces_and_break combine faces = Ok l /\ In (inr f) l.
Proof. exact face_not_listed. Qed.
Print Assumptions C109_lists_of_faces_refuted.
Theorem C109_base_to_gcode : forall cs, (exists s, base_to_gcode cs = Ok s) <-> cs = [].
Proof. exact base_gcode_empty. Qed.
Print Assumptions C109_base_to_gcode.
Example C109_example : combine_faces_and_break gather [3; 4]%nat = Ok [inl [3; 4]]%nat /\ combine_faces_and_break gather [7]%nat = Ok [inr 7%nat].
Proof. split; reflexivity. Qed.
