(** Examples for Props/TracedPocket.v. *)
From Verif Require Import Base.Str Base.Py Spec.Gcode Spec.Blocks Spec.Machine Spec.Program Spec.Jobs Spec.OnMachine
  Model.Groups Model.Geometry Model.Plane Model.Edges Model.Job Model.Routers Model.PocketOp
  Proofs.RouteEx Proofs.PocketEx Proofs.PocketOpEx Proofs.ProfileEx Proofs.OnMachineEx Proofs.TracedEx.
Local Open Scope Qc_scope.
Local Open Scope list_scope.

Lemma ex_pocket_traced : job_pocket K0 flat_wk rect_fk box_engine 20 [ex_job] 0%nat [rface 0 0 10 8 (-2)] None (down_args 1) None = (pocket_heap, Ok 1%nat) /\
  (exists j, hget pocket_heap 1%nat = Some j /\ job_printable pocket_heap j /\ 0 < j_op_safe_height j) /\
  (forall s, pa_stepdown (down_args 1) = Some s -> 0 <= s) /\
  firstn 7 (cut_ends pocket_heap 1%nat) = [(Some 3, Some 3, Some (-1)); (Some 6, Some 3, Some (-1)); (Some 6, Some 4, Some (-1)); (Some 3, Some 4, Some (-1)); (Some 3, Some 3, Some (-1)); (Some 3, Some 3, Some (-1)); (Some 7, Some 3, Some (-1))]%Z.
Proof.
  destruct ex_pocketed as (A & (j & HJ & HP & _) & _). split; [exact A|]. split; [exists j; split; [exact HJ|]; split; [exact HP|]|].
  - assert (X : match hget pocket_heap 1%nat with Some j => qltb 0 (j_op_safe_height j) | None => false end = true) by (vm_compute; reflexivity).
    rewrite HJ in X. apply qltb_lt, X.
  - split; [intros s [= <-]; discriminate|]. vm_compute. reflexivity.
Qed.
