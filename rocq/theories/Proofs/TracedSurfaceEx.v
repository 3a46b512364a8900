(** Examples for Props/TracedSurface.v. *)
From Verif Require Import Base.Str Base.Py Spec.Gcode Spec.Blocks Spec.Machine Spec.Program Spec.Jobs Spec.Axes Spec.OnMachine
  Model.Groups Model.Geometry Model.Plane Model.Edges Model.Job Model.Strategy Model.Surface
  Proofs.RouteEx Proofs.ZigzagEx Proofs.SurfaceEx Proofs.OnMachineEx.
Local Open Scope Qc_scope.
Local Open Scope list_scope.

Definition stairs_heap : heap :=
  fst (job_surface3d [ex_job] 0%nat (slope_kernel stairs (qz (-3))) (scan_answer ex_lines) (ex_args (Some (qz (-2))) 0) (slope_objects stairs (qz (-3)))).
Lemma ex_surface_traced :
  job_surface3d [ex_job] 0%nat (slope_kernel stairs (qz (-3))) (scan_answer ex_lines) (ex_args (Some (qz (-2))) 0) (slope_objects stairs (qz (-3))) = (stairs_heap, Ok 1%nat) /\
  (exists j, hget stairs_heap 1%nat = Some j /\ job_printable stairs_heap j) /\
  cut_ends stairs_heap 1%nat =
   [(Some 10, Some 2, Some (-2)); (Some 10, Some 2, Some (-2)); (Some 10, Some 5, Some (-2)); (Some 10, Some 5, Some (-2)); (Some 5, Some 5, Some (-1)); (Some 10, Some 8, Some (-2));
    (Some 10, Some 2, Some (-3)); (Some 10, Some 2, Some (-3)); (Some 10, Some 5, Some (-3)); (Some 10, Some 5, Some (-3)); (Some 5, Some 5, Some (-1)); (Some 10, Some 8, Some (-3))]%Z.
Proof.
  split; [rewrite (surjective_pairing (job_surface3d _ _ _ _ _ _)); unfold stairs_heap; f_equal; vm_compute; reflexivity|]. split.
  - apply job_b_ok; [apply user_surface, start_user|vm_compute; reflexivity].
  - vm_compute. reflexivity.
Qed.
