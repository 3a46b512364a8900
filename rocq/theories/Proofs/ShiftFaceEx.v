(** Example of a pocket of CAD faces moved in the plane (C127). *)
From Verif Require Import Base.Str Base.Py Model.Groups Model.Geometry Model.Plane Model.Edges Model.Job Model.Routers Model.Tree Model.Profile Model.Pocket Model.PocketOp
  Spec.Shift Spec.ShiftKernel Spec.ShiftFace Proofs.RouteEx Proofs.ProfileEx Proofs.RelationalEx Proofs.ShiftKernelEx.
Local Open Scope Qc_scope.
Local Open Scope list_scope.

(** Faces are their wires; nothing is taken off them.  Wires vanish when shrunk. *)
Definition height_of (f : list edge * list (list edge)) : Qc := match fst f with e :: _ => vz (e_startPoint e) | [] => 0 end.
Definition plain_fk : face_kernel := FK (list edge * list (list edge)) (fun _ f => f) height_of height_of fst snd (fun _ => Ok GLINE) (fun o i => Ok (o, i))
  (fun f v => (map (map_edge (lift (vz v))) (fst f), map (map (map_edge (lift (vz v)))) (snd f))) (fun fs => Ok fs) (fun f _ => Ok [f]).
Definition move_plain (d : pt) (f : list edge * list (list edge)) : list edge * list (list edge) := (map (move_edge d) (fst f), map (map (move_edge d)) (snd f)).
Lemma plain_fk_moves top d : face_kernel_moves plain_fk top (move_plain d) (move_plain d) d.
Proof.
  assert (H : forall f, height_of (move_plain d f) = height_of f) by (intros [[|e es] is_]; reflexivity).
  split; [reflexivity|]. split; [exact H|]. split; [exact H|]. do 4 (split; [reflexivity|]). split; [|split; reflexivity].
  intros [o is_] v. cbn. unfold move_plain. cbn [fst snd]. f_equal; [rewrite !map_map; reflexivity|]. rewrite !map_map. apply map_ext. intros w. rewrite !map_map. reflexivity.
Qed.
Definition shrink_wk : wire_kernel := {|
  wk_transform := fun _ w => w; wk_offset := fun w o => if qltb o (- qq 1 2) then Ok [] else Ok [w]; wk_area := fun _ => Ok 1; wk_relocate := fun _ w => w;
  wk_moved := wk_moved stay_wk; wk_below := wk_below stay_wk |}.
Lemma shrink_wk_moves top d : wire_kernel_moves shrink_wk top (map (move_edge d)) d.
Proof.
  destruct (stay_wk_moves top d) as (_ & _ & _ & _ & M & B). split; [reflexivity|]. split; [|split; [reflexivity|split; [reflexivity|split; [exact M|exact B]]]].
  intros w o. cbn. destruct (qltb o (- qq 1 2)); reflexivity.
Qed.
Definition moved_pocket (eng : engine_name) : result (list motion) :=
  pocket corner_kernel shrink_wk plain_fk copy_engine 20 eng ex_job [(zrect 0 0 10 8 (-2), [zrect 4 4 6 6 (-2)]); (zrect 20 0 30 8 (-1), [])] None
    (PA (Some (OMul 0)) None None None (Some (OMul 1)) None).
Lemma ex_moved_pocket : (forall top d, face_kernel_moves plain_fk top (move_plain d) (move_plain d) d) /\ (forall top d, wire_kernel_moves shrink_wk top (map (move_edge d)) d) /\
  (forall d, engine_moves copy_engine d) /\ length (motions (moved_pocket EngClipper)) = 23%nat /\ length (motions (moved_pocket EngCq)) = 23%nat.
Proof.
  split; [exact plain_fk_moves|]. split; [exact shrink_wk_moves|]. split; [exact copy_engine_moves|]. split; vm_compute; reflexivity.
Qed.
