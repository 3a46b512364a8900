(** Proofs for Spec/Appended.v. *)
From Verif Require Import Base.Str Base.Py Spec.Gcode Spec.Blocks Spec.Machine Spec.Program Spec.Jobs Spec.Axes Spec.Rates Spec.OnMachine Spec.Appended
  Model.Groups Model.Plane Model.Job Proofs.JobP Proofs.ProgramThmP Proofs.RatesP Proofs.OnMachineP.
Local Open Scope list_scope.

Lemma later_grown h r h' r' j' : later h r h' r' -> hget h' r' = Some j' -> exists j more, hget h r = Some j /\ grown j j' more.
Proof.
  intros L. revert j'. induction L as [|h1 r1 c h2 r2 L IH S|h1 r1 h2 L IH E]; intros j' HJ.
  - exists j', []. split; [exact HJ|]. split; [rewrite app_nil_r; reflexivity|reflexivity].
  - destruct (step_fluent _ _ _ _ _ S) as (gen & HD & _). destruct (hget h1 r1) as [j1|] eqn:E1; [|unfold fluent_op in HD; rewrite E1 in HD; discriminate].
    destruct (IH j1 eq_refl) as (j & more & HG & EO & EC).
    destruct (history_append h1 r1 j1 _ _ gen h2 r2 E1 HD) as (_ & j2 & mid & ju & cmds & E & EO2 & _ & _ & _ & _ & SF & _).
    rewrite HJ in E. injection E as <-. exists j, (more ++ mid ++ [Op r2 (fst c) cmds]). split; [exact HG|]. split; [rewrite EO2, EO, <- app_assoc; reflexivity|rewrite SF; exact EC].
  - apply IH. rewrite <- E. exact HJ.
Qed.
Lemma later_moves h r h' r' j' st : user_heap h -> user_heap h' -> later h r h' r' -> hget h' r' = Some j' -> job_printable h' j' -> ms_ended st = false ->
  exists s bs before more, to_gcode h' r' = Ok s /\ parse_program s = Some bs /\ snd (run st bs) = before ++ more /\ continues h r st before.
Proof.
  intros HU HU' L HJ HP HE. destruct (later_grown _ _ _ _ _ L HJ) as (j & more & HG & G).
  destruct (moves_kept h r h' r' j j' more st HU HU' HG HJ G HP HE) as (s & bs & before & A & B & C & D). eauto 10.
Qed.
