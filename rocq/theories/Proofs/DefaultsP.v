From Verif Require Import Base.Str Base.Py Spec.Gcode Spec.Blocks Spec.Machine Spec.Program Spec.Jobs Model.Groups Model.Plane Model.Job Proofs.JobP Proofs.HistoryP Proofs.ProgramThmP Proofs.ProgramEx.
Local Open Scope list_scope.

Lemma frame_refl j : same_frame j j.
Proof. destruct j; reflexivity. Qed.
Lemma frame_trans j k l : same_frame j k -> same_frame k l -> same_frame j l.
Proof. unfold same_frame. intros E F. rewrite F, E. reflexivity. Qed.
Lemma frame_updated j os t : same_frame j (updated (with_operations j os) t).
Proof. reflexivity. Qed.
Lemma frame_fluent_self h r j t name gen : hget h r = Some j -> exists j', hget (fst (fluent_op h r t name gen)) r = Some j' /\ same_frame j j'.
Proof.
  intros E. destruct (fluent_self h r j t name gen E) as (j' & E' & d & f & s & _ & ->). exists (with_tool j (j_tool_number j) d f s). split; [exact E'|]. destruct j; reflexivity.
Qed.
Lemma built_frame h r j0 cs : built h r j0 cs -> exists j, hget h r = Some j /\ same_frame j0 j.
Proof.
  induction 1 as [h j0 H0|h r j0 cs t name gen h' r' j' pre ms _ (j & E & F) Hf Hg _|h r j0 cs r2 t name gen _ (j & E & F)|h r j0 cs j1 _ (j & E & F)].
  - exists j0. split; [apply hget_new|apply frame_refl].
  - exists j'. split; [exact Hg|]. pose proof (fluent_op_spec h r j t name gen E) as S. rewrite Hf in S. inversion S as [|h1 r1 j1 cmds U E1 Eg]; subst. rewrite hget_new in Hg. injection Hg as <-.
    assert (F1 : same_frame j j1).
    { inversion U; subst.
      - rewrite E in E1. injection E1 as <-. apply frame_refl.
      - rewrite hget_new in E1. injection E1 as <-. apply frame_updated.
      - rewrite hget_new in E1. injection E1 as <-. apply frame_updated.
      - erewrite hget_hset_same in E1 by exact E. injection E1 as <-. destruct j; reflexivity. }
    apply (frame_trans _ j1); [exact (frame_trans _ _ _ F F1)|]. destruct j1; reflexivity.
  - destruct (Nat.eq_dec r r2) as [<-|N].
    + destruct (frame_fluent_self h r j t name gen E) as (j' & E' & F'). exists j'. split; [exact E'|exact (frame_trans _ _ _ F F')].
    + exists j. split; [apply fluent_others; assumption|exact F].
  - exists j. split; [apply hget_app_some; exact E|exact F].
Qed.
Lemma default_jobs h r top feed speed cs j st : built h r (default_job top feed speed) cs -> reachable h -> hget h r = Some j -> job_printable h j -> ms_ended st = false ->
  (j_top j = top /\ j_plunge_feed j = feed /\ j_rapid_height j = qz 10 /\ j_op_safe_height j = qz 1 /\ j_precision j = 3%nat /\ j_name j = "Job"%string /\ j_coolant j = None) /\
  exists s bs, to_gcode h r = Ok s /\ parse_program s = Some bs /\
    Forall (fun e => ms_units (ev_from e) = Some (unit_word (j_unit j)) /\ ms_wcs (ev_from e) = Some (offset_word (j_coordinate j)) /\
                     ms_plane (ev_from e) = Some (plane_word (j_plane j)) /\
                     ms_dist (ev_from e) = Some (distance_word (j_distance j)) /\
                     ms_path (ev_from e) = Some (path_word (j_controller_motion j))) (snd (run st bs)).
Proof.
  intros B Hr Hj Hp He. destruct (built_frame _ _ _ _ B) as (j1 & E & F). assert (j1 = j) by congruence. subst j1. unfold same_frame in F.
  split; [rewrite F; repeat split|]. destruct (modes_fixed h r j st Hr Hj Hp He) as (s & bs & Es & Eb & M1 & M2). exists s, bs. split; [exact Es|]. split; [exact Eb|].
  assert (D : j_unit j = METRIC /\ j_coordinate j = OFFSET_1 /\ j_plane j = PLANE_XY /\ j_distance j = ABSOLUTE /\ j_controller_motion j = CONTINUOUS) by (rewrite F; repeat split).
  destruct D as (-> & -> & -> & -> & ->). rewrite Forall_forall in *. intros e I. split; [exact (M1 e I)|exact (M2 e I)].
Qed.
(** A default job that is cut once. *)
Definition plain_heap : heap := fst (fluent_op [default_job plane_xy (PInt 200) None] 0%nat None "Profile" ex_gen).
Lemma ex_default : exists j ms, built plain_heap 1%nat (default_job plane_xy (PInt 200) None) [Call None "Profile" ms] /\ reachable plain_heap /\ hget plain_heap 1%nat = Some j /\ job_printable plain_heap j /\
  List.length (snd (run st_off (blocks_of plain_heap 1%nat))) = 2%nat.
Proof.
  exists (nth 1 plain_heap (default_job plane_xy (PInt 200) None)), ex_motions.
  split; [|split; [|split; [|split]]].
  - apply (built_call [default_job plane_xy (PInt 200) None] 0%nat _ [] None "Profile" ex_gen plain_heap 1%nat (nth 1 plain_heap (default_job plane_xy (PInt 200) None)) []); try reflexivity. apply (built_new []). reflexivity.
  - apply reach_call; [apply (reach_new []); [constructor|reflexivity]|apply ex_gen_motion].
  - reflexivity.
  - assert (C : Forall command_ok (map Motion ex_motions)) by (apply Forall_map; exact ex_motions_ok).
    split; [reflexivity|]. split; [vm_compute; auto|]. split; [vm_compute; auto|]. apply Forall_cons; [|apply Forall_nil].
    split; [eexists; split; reflexivity|]. split; [reflexivity|exact C].
  - vm_compute. reflexivity.
Qed.
