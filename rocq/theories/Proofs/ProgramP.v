(** The text of a program reads as its blocks. *)
From Verif Require Import Base.Str Spec.Gcode Spec.Blocks Spec.Program Model.Groups Model.Job
  Proofs.TextP Proofs.CommandP.
From Coq Require Import NArith Lia.
Local Open Scope string_scope.
Local Open Scope Z_scope.

Lemma comment_safe_app a b : comment_safe (a ++ b) = comment_safe a && comment_safe b.
Proof. induction a as [|c a IH]; simpl; [reflexivity|]. rewrite IH, !andb_assoc. reflexivity. Qed.
Lemma comment_safe_no_nl s : comment_safe s = true -> no_nl s = true.
Proof.
  induction s as [|c s IH]; simpl; [auto|]. rewrite !andb_true_iff. intros [[[_ _] H] H2].
  rewrite H, (IH H2). auto.
Qed.
Lemma clean_comment s r : comment_safe s = true -> clean true (s ++ ")" ++ r) = clean false r.
Proof.
  induction s as [|c s IH]; [reflexivity|]. simpl. rewrite !andb_true_iff. intros [[[H1 H2] H3] H4].
  apply negb_true_iff in H1, H2. rewrite H1, H2. apply IH. exact H4.
Qed.
Lemma text_comment s : comment_safe s = true -> text_blocks ("(" ++ s ++ ")") [[]].
Proof.
  intros H. unfold text_blocks, parse_program. rewrite lines_no_nl.
  - unfold parse_line, map. change ("(" ++ s ++ ")") with (String "(" (s ++ ")")).
    cbn [clean]. rewrite Ascii.eqb_refl. change (s ++ ")") with (s ++ ")" ++ "").
    rewrite clean_comment by exact H. reflexivity.
  - change ("(" ++ s ++ ")") with (String "(" (s ++ ")")). simpl. rewrite no_nl_app, (comment_safe_no_nl _ H).
    reflexivity.
Qed.

Lemma all_plain_comment_digits s : all_digits s = true -> comment_safe s = true.
Proof.
  induction s as [|c s IH]; simpl; [reflexivity|]. intros H.
  destruct (digit_val c) as [d|] eqn:E; [|discriminate]. rewrite (IH H), andb_true_r.
  destruct c as [[] [] [] [] [] [] [] []]; try reflexivity; vm_compute in E; discriminate.
Qed.
Lemma print_pynum_safe n : plain_num n -> comment_safe (print_pynum n) = true.
Proof.
  destruct n as [z|k p]; intros H; simpl.
  - unfold print_Z. destruct (z <? 0); simpl; apply all_plain_comment_digits, print_N_spec.
  - unfold repr_float. destruct (Z.eqb_spec k 0) as [->|Hk]; [reflexivity|].
    destruct (plain_positional _ _ H) as [C|C]; [contradiction|]. unfold positional_k in C.
    assert (G : forall n, (0 < n)%N -> positional n p -> comment_safe (repr_float_pos n p) = true).
    { intros n Hn Hp. destruct (repr_float_pos_shape n p Hn Hp) as (a & b & -> & Ha & Hb & _).
      rewrite comment_safe_app. simpl. rewrite !all_plain_comment_digits by assumption. reflexivity. }
    destruct (Z.ltb_spec k 0).
    + simpl. apply G; [lia|]. rewrite Z.abs_neq in C by lia. exact C.
    + apply G; [lia|]. rewrite Z.abs_eq in C by lia. exact C.
Qed.

Lemma mapM_commands cs : Forall command_ok cs ->
  exists ss, mapM str_command cs = Ok ss /\ Forall (fun s => s <> "") ss /\
    Forall2 text_blocks ss (map command_blocks cs).
Proof.
  induction 1 as [|c cs Hc _ (ss & E & H1 & H2)].
  - exists []. repeat split; constructor.
  - destruct (text_command c Hc) as (s & Es & Hne & Ht).
    exists (s :: ss). simpl. rewrite Es. simpl. rewrite E. simpl.
    repeat split; constructor; assumption.
Qed.

Lemma filter_nonempty ss : Forall (fun s => s <> "") ss ->
  filter (fun s => negb (String.eqb s "")) ss = ss.
Proof.
  induction 1 as [|s ss Hs _ IH]; simpl; [reflexivity|].
  destruct (String.eqb_spec s ""); [contradiction|]. simpl. rewrite IH. reflexivity.
Qed.

Lemma text_op name o : comment_safe name = true -> comment_safe (op_name o) = true ->
  Forall command_ok (op_commands o) ->
  exists s, op_to_gcode name o = Ok s /\ text_blocks s (op_blocks o).
Proof.
  intros Hn Ho Hc. unfold op_to_gcode. destruct (mapM_commands _ Hc) as (ss & -> & Hne & Ht).
  simpl. eexists. split; [reflexivity|]. rewrite (filter_nonempty _ Hne).
  unfold op_blocks.
  replace ([] :: flat_map command_blocks (op_commands o))
    with (List.concat ([[]] :: map command_blocks (op_commands o))).
  2:{ simpl. rewrite flat_map_concat_map. reflexivity. }
  apply (text_concat (("(" ++ name ++ " - " ++ op_name o ++ ")") :: ss)); [discriminate|].
  constructor; [|exact Ht].
  replace ("(" ++ name ++ " - " ++ op_name o ++ ")") with ("(" ++ (name ++ " - " ++ op_name o) ++ ")").
  - apply text_comment. rewrite !comment_safe_app, Hn, Ho. reflexivity.
  - rewrite !app_assoc_s. reflexivity.
Qed.

Lemma text_ops h os : Forall (op_printable h) os ->
  exists ss, mapM (fun o => do n <- name_of h (op_job o); op_to_gcode n o) os = Ok ss /\
     text_blocks (String.concat (nl ++ nl ++ nl) ss) (ops_blocks os).
Proof.
  intros H.
  assert (G : exists ss, mapM (fun o => do n <- name_of h (op_job o); op_to_gcode n o) os = Ok ss /\
     Forall2 text_blocks ss (map op_blocks os)).
  { induction H as [|o os Ho _ (ss & E & IH)].
    - exists []. split; [reflexivity|constructor].
    - destruct Ho as ((owner & Hget & Hname) & Hopn & Hc).
      destruct (text_op (j_name owner) o Hname Hopn Hc) as (s & Es & Hs).
      exists (s :: ss). cbn [mapM]. unfold name_of at 1. rewrite Hget. cbn [rbind].
      rewrite Es. cbn [rbind]. rewrite E. cbn [rbind]. split; [reflexivity|]. constructor; assumption. }
  destruct G as (ss & E & F). exists ss. split; [exact E|]. clear E H.
  remember (map op_blocks os) as bss eqn:Eb. revert os Eb.
  induction F as [|s b ss bss H1 H2 IH]; intros os Eb.
  - destruct os; [|discriminate]. reflexivity.
  - destruct os as [|o os]; [discriminate|]. injection Eb as -> Eb. subst bss.
    destruct ss as [|s2 ss].
    + inversion H2 as [E1|]; subst. destruct os; [|discriminate]. exact H1.
    + destruct os as [|o2 os]; [inversion H2|].
      change (String.concat (nl ++ nl ++ nl) (s :: s2 :: ss))
        with (s ++ (nl ++ nl ++ nl) ++ String.concat (nl ++ nl ++ nl) (s2 :: ss)).
      change (ops_blocks (o :: o2 :: os)) with (op_blocks o ++ [[]; []] ++ ops_blocks (o2 :: os))%list.
      replace (s ++ (nl ++ nl ++ nl) ++ String.concat (nl ++ nl ++ nl) (s2 :: ss))
        with (s ++ nl ++ ("" ++ nl ++ ("" ++ nl ++ String.concat (nl ++ nl ++ nl) (s2 :: ss)))).
      2:{ rewrite !app_assoc_s. reflexivity. }
      apply text_app; [exact H1|].
      apply (text_app "" [[]]); [reflexivity|].
      apply (text_app "" [[]]); [reflexivity|].
      apply IH. reflexivity.
Qed.

Lemma text_job h j : job_printable h j ->
  exists s, job_to_gcode h j = Ok s /\ parse_program s = Some (program_blocks j).
Proof.
  intros (Hn & Hf & Hs & Ho). unfold job_to_gcode.
  destruct (text_ops h _ Ho) as (ss & -> & Ht). cbn [rbind].
  eexists. split; [reflexivity|].
  change (parse_program ?s = Some ?b) with (text_blocks s b).
  unfold program_blocks, header_blocks, footer_blocks. rewrite <- !app_assoc.
  match goal with |- text_blocks ("(" ++ ?a ++ ?b ++ ?c ++ ?d ++ ?e ++ ")" ++ nl ++ ?rest) _ =>
    replace ("(" ++ a ++ b ++ c ++ d ++ e ++ ")" ++ nl ++ rest)
      with (("(" ++ (a ++ b ++ c ++ d ++ e) ++ ")") ++ nl ++ rest) end.
  2:{ rewrite !app_assoc_s. reflexivity. }
  apply text_app.
  { apply text_comment. rewrite !comment_safe_app, Hn, print_pynum_safe by exact Hf.
    destruct (j_unit j); reflexivity. }
  apply text_app; [apply (text_config CSafety I)|].
  apply text_app; [apply text_line, piece_start, Hs|].
  apply text_app; [exact Ht|].
  apply text_app; [apply (text_config CSafety I)|].
  apply text_app; [apply text_line, piece_stop|].
  apply text_line, (piece_code "M" "M" 30). reflexivity.
Qed.
