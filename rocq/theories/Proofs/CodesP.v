(** * All codes of a program *)
From Verif Require Import Base.Str Spec.Gcode Spec.Blocks Spec.Machine Spec.Program Spec.Codes Model.Groups Model.Job
  Proofs.ProgramThmP.
Local Open Scope list_scope.
Local Open Scope Z_scope.

Definition block_listed (b : block) : bool :=
  forallb (fun c => listed_g_code c || (c =? 500)) (codes "G" b)
  && forallb (fun c => match m_group c with Some _ => true | None => false end) (codes "M" b).

Lemma axes_no_codes l v : In l ["G"%char; "M"%char] -> codes l (axes_block v) = [].
Proof.
  intros H. unfold axes_block. destruct v as [[x|] [y|] [z|]]; simpl in H; destruct H as [<-|[<-|[]]]; reflexivity.
Qed.
Lemma codes_app l a b : codes l (a ++ b) = codes l a ++ codes l b.
Proof. apply flat_map_app. Qed.
Lemma motion_listed m : block_listed (motion_block m) = true.
Proof.
  unfold block_listed. destruct m as [ki s e a|ki s e a f|cw s e c mid a f]; cbn [motion_block].
  - change (gword 0 :: axes_block e) with ([gword 0] ++ axes_block e). rewrite !codes_app, !axes_no_codes by (simpl; auto). reflexivity.
  - change (gword 1 :: axes_block e ++ feed_block f) with ([gword 1] ++ axes_block e ++ feed_block f).
    rewrite !codes_app, !axes_no_codes by (simpl; auto). destruct f; reflexivity.
  - match goal with |- context [codes "G" (?x :: ?y)] => change (x :: y) with ([x] ++ y) end.
    rewrite !codes_app, !axes_no_codes by (simpl; auto). destruct f, cw; reflexivity.
Qed.
Lemma command_listed c : Forall (fun b => block_listed b = true) (command_blocks c).
Proof.
  destruct c as [m|[s co|co| |n s co]]; simpl; repeat constructor;
    try (destruct s); try (destruct co as [[]|]); try reflexivity; apply motion_listed.
Qed.
Lemma program_listed j : Forall (fun b => block_listed b = true) (program_blocks j).
Proof.
  unfold program_blocks, header_blocks, footer_blocks.
  assert (L0 : block_listed [] = true) by reflexivity.
  assert (O : forall o, Forall (fun b => block_listed b = true) (op_blocks o)).
  { intros o. unfold op_blocks. constructor; [exact L0|]. induction (op_commands o) as [|c cs IH]; simpl; [constructor|].
    apply Forall_app. split; [apply command_listed|exact IH]. }
  apply Forall_app. split; [|apply Forall_app; split].
  - repeat constructor. destruct (j_speed j), (j_coolant j) as [[]|]; reflexivity.
  - induction (j_operations j) as [|o os IH]; [constructor; [exact L0|constructor]|].
    destruct os as [|o2 os]; [apply O|].
    change (Forall (fun b => block_listed b = true) (op_blocks o ++ [[]; []] ++ ops_blocks (o2 :: os))).
    apply Forall_app. split; [apply O|]. constructor; [exact L0|]. constructor; [exact L0|]. exact IH.
  - repeat constructor. destruct (j_coolant j) as [[]|]; reflexivity.
Qed.

Lemma listed_codes h r j : hget h r = Some j -> job_printable h j ->
  exists s bs, to_gcode h r = Ok s /\ parse_program s = Some bs /\
    forall b c, In b bs -> (In c (codes "G" b) -> listed_g_code c = true \/ c = 500) /\
                           (In c (codes "M" b) -> m_group c <> None).
Proof.
  intros Hj Hp. destruct (to_gcode_text h r j Hj Hp) as (s & Es & Eb).
  exists s, (program_blocks j). split; [exact Es|]. split; [exact Eb|]. intros b c Hb.
  pose proof (program_listed j) as F. rewrite Forall_forall in F. specialize (F b Hb).
  unfold block_listed in F. apply andb_true_iff in F. destruct F as [F1 F2]. rewrite forallb_forall in F1, F2.
  split; intros H.
  - specialize (F1 c H). apply orb_true_iff in F1. destruct F1 as [F1|F1]; [left; exact F1|right; apply Z.eqb_eq; exact F1].
  - specialize (F2 c H). intros E. rewrite E in F2. discriminate.
Qed.
