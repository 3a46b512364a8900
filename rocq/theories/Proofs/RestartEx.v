(** Examples for Props/Restart.v. *)
From Verif Require Import Base.Str Base.Py Spec.Gcode Spec.Blocks Spec.Machine Spec.Program Spec.Jobs Spec.Axes Spec.Feeds Spec.OnMachine Spec.Restart
  Model.Groups Model.Plane Model.Job Proofs.AxesP Proofs.AxesEx Proofs.OnMachineEx Proofs.FeedEx Proofs.RestartP.
From Verif Require Proofs.ProgramEx.
Local Open Scope Qc_scope.
Local Open Scope list_scope.

(** Left by another program: over the work, in inches, increments and another plane, with another tool. *)
Definition st_left : mstate :=
  MS (Some (qz 7)) (Some (qz 8)) (Some (qz 9)) SpCCW (Some (qz 500)) true false (Some (qz 3)) (Some (qz 3)) (Some (qz 3))
     (Some 180%Z) (Some 200%Z) (Some 410%Z) (Some 550%Z) (Some 610%Z) (Some 910%Z) (Some 930%Z) (Some (qz 40)) (Some GArcCW) false.
Definition ends_of (st : mstate) (bs : list block) : list (gmotion * option Z * option Z * option Z) :=
  map (fun e => (ev_kind e, option_map qfloor (ms_x (ev_to e)), option_map qfloor (ms_y (ev_to e)), option_map qfloor (ms_z (ev_to e)))) (snd (run st bs)).
Lemma ex_restart : user_heap two_heap /\ (exists j, hget two_heap 3%nat = Some j /\ job_printable two_heap j) /\
  firstn 3 (ends_of ProgramEx.st_off two_blocks) = [(GRapid, None, None, Some 10); (GRapid, Some 6, Some 6, Some 10); (GRapid, Some 6, Some 6, Some 1)]%Z /\
  firstn 3 (ends_of st_left two_blocks) = [(GRapid, None, None, Some 10); (GRapid, Some 6, Some 6, Some 10); (GRapid, Some 6, Some 6, Some 1)]%Z /\
  ends_of ProgramEx.st_off two_blocks = ends_of st_left two_blocks.
Proof.
  split; [exact two_user|]. split. { destruct two_printable as (j & H1 & H2 & _). exists j. split; assumption. }
  split; [|split]; vm_compute; reflexivity.
Qed.
Lemma rates_refuted : exists h r j s bs st st', user_heap h /\ hget h r = Some j /\ job_printable h j /\ to_gcode h r = Ok s /\ parse_program s = Some bs /\
  ms_ended st = false /\ ms_ended st' = false /\ ~ Forall2 same_rate (snd (run st bs)) (snd (run st' bs)).
Proof.
  assert (U : user_heap surface_heap) by (apply user_surface, (user_new []); [constructor|reflexivity]).
  destruct (job_b_ok surface_heap 1%nat U) as (j & HJ & HP); [vm_compute; reflexivity|].
  exists surface_heap, 1%nat, j. eexists. exists (ProgramEx.blocks_of surface_heap 1%nat), ProgramEx.st_off, st_left.
  split; [exact U|]. split; [exact HJ|]. split; [exact HP|]. split; [vm_compute; reflexivity|]. split; [vm_compute; reflexivity|]. split; [reflexivity|]. split; [reflexivity|].
  assert (X : forall l l', Forall2 same_rate l l' -> forallb (fun p => negb (is_feed_move (ev_kind (fst p))) || match ms_feed (ev_from (fst p)), ms_feed (ev_from (snd p)) with None, Some _ => false | _, _ => true end) (combine l l') = true).
  { intros l l' F. induction F as [|e e' l l' H F IH]; [reflexivity|]. cbn [combine forallb fst snd]. rewrite IH, andb_true_r. destruct (is_feed_move (ev_kind e)) eqn:K; [|reflexivity]. rewrite (H K). destruct (ms_feed (ev_from e')); reflexivity. }
  intros F. apply X in F. vm_compute in F. discriminate.
Qed.
