(** Examples and witnesses for Props/Leftovers.v. *)
From Verif Require Import Base.Str Base.Py Model.Geometry Model.Interp Model.Tabs Model.Edges Model.Leftovers Spec.Paths Spec.Wires Spec.Tabs Spec.Leftovers
  Proofs.GeomP Proofs.RouteEx Proofs.SurfaceEx Proofs.LeftoversP.
Local Open Scope Qc_scope.
Local Open Scope list_scope.

Definition ex_make_line (a b : vec) : result edge := if vec_eqb a b then Err ValueError else Ok (line 1 false a b).
Definition ex_assemble (es : list edge) : result (list edge) := match es with [] => Err ValueError | _ => Ok es end.
Lemma ex_makes : makes_lines ex_make_line.
Proof.
  intros a b N. exists (line 1 false a b). unfold ex_make_line. destruct (vec_eqb a b) eqn:E; [exfalso; apply N, vec_eqb_ok, E|].
  repeat split.
Qed.
Lemma ex_keeps : keeps_order ex_assemble.
Proof. intros [|e es] H N; [contradiction N; reflexivity|reflexivity]. Qed.
Definition corner : path := [(qz 0, qz 0); (qz 3, qz 0); (qz 3, qz 2)].
Definition round_corner : path := corner ++ [(qz 0, qz 0)].
Lemma corner_proper : proper corner /\ proper round_corner.
Proof. split; intros a b H; cbn in H; repeat (destruct H as [[= <- <-]|H]; [discriminate|]); destruct H. Qed.
Definition there_and_back (p : path) : list (Z * Z) :=
  match path_to_wire ex_make_line ex_assemble p (qz (-2)) with
  | Ok es => match wire_to_path vec_eqb (fun _ => Err KeyError) es 100 with Ok q => map (fun a => (qfloor (fst a), qfloor (snd a))) q | Err _ => [] end
  | Err _ => []
  end.
Lemma corner_back : there_and_back corner = [(0, 0); (3, 0); (3, 2); (0, 0)]%Z /\ there_and_back round_corner = [(0, 0); (3, 0); (3, 2); (0, 0)]%Z.
Proof. split; vm_compute; reflexivity. Qed.

Definition with_length (l : Qc) (e : edge) : edge :=
  Edge (e_id e) (e_geom e) (e_reversed e) (e_startPoint e) (e_endPoint e) (e_param e) (e_pos e) (e_param0 e) (e_param1 e) l (e_center e) (e_normal e) (e_closed e).
Definition two_edges : list edge :=
  [with_length (qz 3) (line 1 false (zv 0 0 0) (zv 3 0 0)); with_length (qz 1) (line 2 false (zv 3 0 0) (zv 3 1 0))].
Lemma two_edges_ok : Forall (fun e => 0 < e_length e) two_edges /\ qz 4 = qsum (map e_length two_edges) /\
  match wire_edge_d_ranges (qz 4) two_edges with Ok rs => map (fun r => (this (fst r), this (snd r))) (snd rs) | Err _ => [] end =
    map (fun r => (this (fst r), this (snd r))) [(0, qq 3 4); (qq 3 4, 1)].
Proof. split; [repeat constructor|split; [apply Qc_is_canon|]; vm_compute; reflexivity]. Qed.
(** A kernel that measures the wire shorter than its edges: the ranges still end at 1, but the second
    is upside down. *)
Lemma short_wire : exists es total rs, Forall (fun e => 0 < e_length e) es /\ 0 < total /\
  wire_edge_d_ranges total es = Ok rs /\ exists r, In r (snd rs) /\ snd r < fst r.
Proof.
  exists two_edges, (qz 2). eexists. split; [exact (proj1 two_edges_ok)|]. split; [reflexivity|]. split; [reflexivity|].
  eexists. split; [right; left; reflexivity|]. vm_compute. reflexivity.
Qed.

(** A combined face stays outside a list. *)
Definition gather (faces : list nat) : result (list (combined nat)) :=
  match faces with [] => Err IndexError | [f] => Ok [SingleFace f; OtherShape] | f :: fs => Ok [Compound (f :: fs)] end.
Lemma face_not_listed : exists combine faces l (f : nat), combine_faces_and_break combine faces = Ok l /\ In (inr f) l.
Proof. exists gather, [7%nat]. do 2 eexists. split; [reflexivity|left; reflexivity]. Qed.
