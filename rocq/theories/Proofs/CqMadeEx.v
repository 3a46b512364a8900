(** Example for C124. *)
From Verif Require Import Base.Str Base.Py Spec.Gcode Spec.Blocks Spec.Machine Spec.Program Spec.Jobs Spec.Wires Spec.Curves Spec.OnMachine Spec.Arcs Spec.Traced Spec.LinksMade Spec.PocketCq
  Model.Groups Model.Geometry Model.Edges Model.Plane Model.Job Model.Routers Model.PocketOp
  Proofs.RouteEx Proofs.ProfileEx Proofs.PocketEx Proofs.PocketOpEx Proofs.LinksMadeEx.
Local Open Scope Qc_scope.
Local Open Scope list_scope.

(** The kernel answers with the first corner of the wire, one away. *)
Definition first_corner : kernel := exact_kernel (fun _ w => match wire_edges w with e :: _ => Some (1, TVertex (edge_start_point e)) | [] => None end).
Definition cq_result (so : Qc) := pocket_cq first_corner flat_wk rect_fk 20 ex_job [rface 0 0 10 8 (-5)] [] (-(1)) 1 1 (-(1)) so.
Definition cq_moves (so : Qc) : list event := match cq_result so with Ok cmds => snd (run st_on (flat_map command_blocks (map Motion cmds))) | Err _ => [] end.
(** Checks of [linkable] for kernels that answer with vertices only. *)
Definition sound_b (e : edge) : bool :=
  vec_eqb (e_param e (e_param0 e)) (e_startPoint e) && vec_eqb (e_param e (e_param1 e)) (e_endPoint e) && vec_eqb (e_pos e 0) (e_startPoint e) && vec_eqb (e_pos e 1) (e_endPoint e) && negb (e_closed e).
Fixpoint connected_b (es : list edge) : bool :=
  match es with e :: ((f :: _) as rest) => vec_eqb (travel_end e) (travel_start f) && connected_b rest | _ => true end.
Definition linkable_b (safe : Qc) (w : list edge) : bool :=
  match w with e :: _ => forallb sound_b w && connected_b w && vec_eqb (travel_end (last w e)) (travel_start e) && qltb (vz (travel_start e)) safe | [] => false end.
Lemma sound_b_ok e : sound_b e = true -> edge_sound e.
Proof.
  unfold sound_b. intros H. do 4 (apply andb_true_iff in H as (H & ?)). split; [apply vec_eq; assumption|]. split; [apply vec_eq; assumption|]. split; [apply vec_eq; assumption|]. split; [apply vec_eq; assumption|]. intros C. rewrite C in *. discriminate.
Qed.
Lemma connected_b_ok es : connected_b es = true -> connected es.
Proof.
  induction es as [|e [|f rest] IH]; intros H; [exact I|exact I|]. cbn [connected_b] in H. apply andb_true_iff in H as (H1 & H2). split; [apply vec_eq, H1|apply IH, H2].
Qed.
Lemma linkable_b_ok so safe w : linkable_b safe w = true -> linkable first_corner so safe (WWire w).
Proof.
  destruct w as [|e w]; [discriminate|]. unfold linkable_b. intros H. apply andb_true_iff in H as (H & H4). apply andb_true_iff in H as (H & H3). apply andb_true_iff in H as (H1 & H2).
  rewrite forallb_forall in H1. split; [discriminate|]. split; [intros f Hf; apply sound_b_ok, H1, Hf|]. split; [split; [apply connected_b_ok, H2|apply vec_eq, H3]|].
  split; [intros f rest [= <- _]; apply qltb_lt, H4|]. split; [intros u; exact I|]. intros u d id p f A. discriminate A.
Qed.
Lemma ex_cq_made : exists cmds fills, cq_result 1 = Ok cmds /\ ready st_on /\
  fill_face first_corner flat_wk rect_fk 20 (rface 1 1 9 7 (-5)) 1 = Ok fills /\ List.length (concat fills) = 3%nat /\
  (forall w, In w (concat fills) -> linkable first_corner (Some 1) (j_op_safe_height ex_job) (WWire w)) /\
  move_ends (cq_moves 1) =
    [(GLinear, Some 300, Some 300); (GLinear, Some 700, Some 300); (GLinear, Some 700, Some 500); (GLinear, Some 300, Some 500); (GLinear, Some 300, Some 300);
     (GLinear, Some 200, Some 200); (GLinear, Some 800, Some 200); (GLinear, Some 800, Some 600); (GLinear, Some 200, Some 600); (GLinear, Some 200, Some 200);
     (GLinear, Some 100, Some 100); (GLinear, Some 900, Some 100); (GLinear, Some 900, Some 700); (GLinear, Some 100, Some 700); (GLinear, Some 100, Some 100)]%Z.
Proof.
  destruct (cq_result 1) as [cmds|x] eqn:E; [|exfalso; assert (X : match cq_result 1 with Ok _ => true | Err _ => false end = true) by (vm_compute; reflexivity); rewrite E in X; discriminate].
  assert (X : match fill_face first_corner flat_wk rect_fk 20 (rface 1 1 9 7 (-5)) 1 with Ok ss => Nat.eqb (List.length (concat ss)) 3 && forallb (linkable_b (j_op_safe_height ex_job)) (concat ss) | Err _ => false end = true) by (vm_compute; reflexivity).
  destruct (fill_face first_corner flat_wk rect_fk 20 (rface 1 1 9 7 (-5)) 1) as [ss|x]; [|discriminate]. apply andb_true_iff in X as (X1 & X2). apply Nat.eqb_eq in X1. rewrite forallb_forall in X2.
  exists cmds, ss. split; [reflexivity|]. split; [repeat split|]. split; [reflexivity|]. split; [exact X1|]. split; [|vm_compute; reflexivity]. intros w Hw. apply linkable_b_ok, X2, Hw.
Qed.
