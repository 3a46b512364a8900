From Verif Require Import Base.Str Spec.Gcode Spec.Program Spec.Jobs Model.Groups Model.Plane Model.Job Proofs.JobP Proofs.HistoryP Proofs.ProgramThmP Proofs.ProgramEx.
Local Open Scope list_scope.

Lemma receiver_exactly h r j t name gen : hget h r = Some j -> ~ other_tool j (Some t) -> ~ other_speed j (Some t) ->
  exists j', hget (fst (fluent_op h r (Some t) name gen)) r = Some j' /\
    settings_of j' = tool_settings j (Some t) /\ same_frame j j' /\ j_operations j' = j_operations j /\
    (j' = j <-> tool_settings j (Some t) = settings_of j).
Proof.
  intros Hj NT NS.
  assert (K : forall h1 r1, update_spec h r j (Some t) (h1, r1) -> hget h1 r = Some (updated j t)).
  { intros h1 r1 U. inversion U as [|t0 n Hn Hne|t0 s Hn Hs Hne|t0 Hn Hs]; subst.
    - exfalso. apply NT. unfold new_number in Hn. exists t, n. split; [reflexivity|]. destruct (t_number t) as [m|]; [|congruence].
      split; [exact Hn|congruence].
    - exfalso. apply NS. unfold new_speed in Hs. exists t, s. split; [reflexivity|]. destruct (t_speed t) as [m|].
      + split; [exact Hs|congruence].
      + exfalso. rewrite Hs in Hne. apply Hne. reflexivity.
    - eapply hget_hset_same. exact Hj. }
  assert (E : hget (fst (fluent_op h r (Some t) name gen)) r = Some (updated j t)).
  { destruct (fluent_op_spec h r j (Some t) name gen Hj) as [h1 r1 j1 e U E1 Eg|h1 r1 j1 cmds U E1 Eg]; cbn [fst].
    - exact (K _ _ U).
    - apply hget_app_some. exact (K _ _ U). }
  exists (updated j t). split; [exact E|]. pose proof (settings_updated j t) as S. split; [exact S|]. split; [reflexivity|]. split; [reflexivity|].
  rewrite <- S. split; [intros ->; reflexivity|]. unfold settings_of. cbn. intros [= A B C D].
  unfold updated, with_tool. rewrite A, B, C, D. destruct j; reflexivity.
Qed.
Lemma receiver_example : exists j, hget ex_heap0 0%nat = Some j /\ ~ other_tool j (Some ex_feed_tool) /\ ~ other_speed j (Some ex_feed_tool) /\
  tool_settings j (Some ex_feed_tool) <> settings_of j.
Proof.
  eexists. split; [reflexivity|]. split; [intros (t & n & E & En & _); injection E as <-; discriminate En|].
  split; [intros (t & n & E & En & _); injection E as <-; discriminate En|]. discriminate.
Qed.
