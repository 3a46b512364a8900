(** Examples for Props/SpinSessions.v. *)
From Verif Require Import Base.Str Base.Py Spec.Gcode Spec.Blocks Spec.Machine Spec.Program Spec.Axes Spec.OnMachine Spec.Alike Spec.SpinMoves
  Model.Groups Model.Geometry Model.Plane Model.Job Model.Drill Proofs.RouteEx Proofs.DrillEx Proofs.AxesP Proofs.AxesEx Proofs.OnMachineEx Proofs.AlikeP Proofs.FeedMovesEx.
From Verif Require Proofs.ProgramEx.
Local Open Scope string_scope.
Local Open Scope Qc_scope.
Local Open Scope list_scope.

(** A job that turns at 9000 under coolant, and [ex_job] that does neither; both drilled with a tool at
    9000, and again with another tool at another speed. *)
Definition wet_job : job :=
  new_job plane_xy (PInt 300) (Some (PInt 9000)) (Some (qz 3)) None "wet part" (Some (PInt 100)) None None 3 METRIC
          PLANE_XY OFFSET_1 ABSOLUTE ARC_ABSOLUTE CONTINUOUS (Some FLOOD).
Definition spun (f : option pynum) : tool := Tool None None f (Some (PInt 9000)).
Definition drilled (h : heap) (r : ref) (t : option tool) : heap := fst (job_drill h r (Some ex_holes) (Some (qz 2)) t).
Definition wet1 : heap := drilled [wet_job] 0%nat (Some (spun None)).
Definition dry1 : heap := drilled [ex_job] 0%nat (Some (spun None)).
Definition wet2 : heap := drilled wet1 1%nat (Some (Tool (Some (qz 2)) (Some 4%Z) None (Some (PInt 50)))).
Definition dry2 : heap := drilled dry1 2%nat (Some (Tool (Some (qz 2)) (Some 4%Z) None None)).
Definition speeds (h : heap) (r : ref) : list (option Z * bool) :=
  map (fun e => (option_map qfloor (ms_speed (ev_from e)), ms_flood (ev_from e))) (feed_moves (snd (run ProgramEx.st_off (ProgramEx.blocks_of h r)))).
Lemma wet_user : user_heap [wet_job].
Proof. apply (user_new []); [constructor|reflexivity]. Qed.
Lemma drill_answer h r t r' : snd (job_drill h r (Some ex_holes) (Some (qz 2)) t) = Ok r' ->
  fluent_op h r t "Drill" (drill_gen (Some ex_holes) (Some (qz 2))) = (drilled h r t, Ok r').
Proof. intros <-. apply surjective_pairing. Qed.
Lemma ex_chains : chains wet2 3%nat dry2 4%nat.
Proof.
  apply (chains_call wet1 1%nat dry1 2%nat (Some (Tool (Some (qz 2)) (Some 4%Z) None (Some (PInt 50)))) (Some (Tool (Some (qz 2)) (Some 4%Z) None None)) "Drill" "Drill"
           (drill_gen (Some ex_holes) (Some (qz 2)))); [|apply drill_settled|reflexivity|apply drill_answer; vm_compute; reflexivity|apply drill_answer; vm_compute; reflexivity].
  apply (chains_call [wet_job] 0%nat [ex_job] 0%nat (Some (spun None)) (Some (spun None)) "Drill" "Drill"
           (drill_gen (Some ex_holes) (Some (qz 2)))); [|apply drill_settled|reflexivity|apply drill_answer; vm_compute; reflexivity|apply drill_answer; vm_compute; reflexivity].
  apply (chains_job [] []); [repeat split|reflexivity|reflexivity].
Qed.
Lemma ex_speeds : (exists j, hget wet2 3%nat = Some j /\ job_printable wet2 j) /\ (exists j, hget dry2 4%nat = Some j /\ job_printable dry2 j) /\
  speeds wet2 3%nat = repeat (Some 50, true)%Z 10 /\ speeds dry2 4%nat = repeat (Some 9000, false)%Z 10 /\
  cut_ends wet2 3%nat = cut_ends dry2 4%nat /\ rates wet2 3%nat = rates dry2 4%nat.
Proof.
  split; [apply job_b_ok; [apply user_drill, user_drill, wet_user|vm_compute; reflexivity]|]. split; [apply job_b_ok; [apply user_drill, user_drill, start_user|vm_compute; reflexivity]|].
  split; [|split; [|split]]; vm_compute; reflexivity.
Qed.

(** Both call on the first job again: one of them has changed it by the first call, the other has not. *)
Definition wet3 : heap := drilled (drilled [wet_job] 0%nat (Some (spun (Some (PInt 50))))) 0%nat None.
Definition dry3 : heap := drilled (drilled [ex_job] 0%nat (Some (spun (Some (PInt 50))))) 0%nat None.
Lemma ex_reused : exists j j' t gen h r h' r' h1 r1 h1' r1', same_setup j j' /\ j_operations j = [] /\ j_operations j' = [] /\ settled gen /\
  fluent_op [j] 0%nat (Some t) "Drill" gen = (h, Ok r) /\ fluent_op [j'] 0%nat (Some t) "Drill" gen = (h', Ok r') /\
  fluent_op h 0%nat None "Drill" gen = (h1, Ok r1) /\ fluent_op h' 0%nat None "Drill" gen = (h1', Ok r1') /\
  exists s bs s' bs', to_gcode h1 r1 = Ok s /\ parse_program s = Some bs /\ to_gcode h1' r1' = Ok s' /\ parse_program s' = Some bs' /\
    ~ same_cuts (run ProgramEx.st_off bs) (run ProgramEx.st_off bs').
Proof.
  exists wet_job, ex_job, (spun (Some (PInt 50))), (drill_gen (Some ex_holes) (Some (qz 2))), (drilled [wet_job] 0%nat (Some (spun (Some (PInt 50))))), 1%nat,
    (drilled [ex_job] 0%nat (Some (spun (Some (PInt 50))))), 2%nat, wet3, 2%nat, dry3, 3%nat.
  split; [repeat split|]. split; [reflexivity|]. split; [reflexivity|]. split; [apply drill_settled|].
  split; [apply drill_answer; vm_compute; reflexivity|]. split; [apply drill_answer; vm_compute; reflexivity|].
  split; [apply drill_answer; vm_compute; reflexivity|]. split; [apply drill_answer; vm_compute; reflexivity|].
  assert (X : forall h r, job_b h r = true -> user_heap h -> exists s, to_gcode h r = Ok s /\ parse_program s = Some (ProgramEx.blocks_of h r)).
  { intros h r B U. destruct (job_b_ok h r U B) as (j & G & P). destruct (Proofs.ProgramP.text_job _ _ P) as (s & E & Q). exists s.
    assert (T : to_gcode h r = Ok s) by (unfold to_gcode; rewrite G; exact E). split; [exact T|]. unfold ProgramEx.blocks_of. rewrite T, Q. reflexivity. }
  destruct (X wet3 2%nat) as (s & E & Q); [vm_compute; reflexivity|apply user_drill, user_drill, wet_user|].
  destruct (X dry3 3%nat) as (s' & E' & Q'); [vm_compute; reflexivity|apply user_drill, user_drill, start_user|].
  exists s, (ProgramEx.blocks_of wet3 2%nat), s', (ProgramEx.blocks_of dry3 3%nat). split; [exact E|]. split; [exact Q|]. split; [exact E'|]. split; [exact Q'|].
  intros [_ C]. apply (f_equal (fun es => map (fun e => option_map qfloor (ms_feed (ev_to e))) es)) in C. vm_compute in C. discriminate C.
Qed.
