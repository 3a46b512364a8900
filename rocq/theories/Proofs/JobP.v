(** Invariants of jobs, and the machine behaviour of their programs. *)
From Verif Require Import Base.Str Spec.Gcode Spec.Blocks Spec.Machine Spec.Program Spec.Jobs
  Model.Groups Model.Job Proofs.MachineP Proofs.ProgramP.
From Coq Require Import NArith Lia.
Local Open Scope list_scope.
Local Open Scope Z_scope.

(** ** Heap *)
Lemma hset_length h r j : List.length (hset h r j) = List.length h.
Proof. revert r. induction h as [|x h IH]; intros [|r]; simpl; congruence. Qed.
Lemma hget_hset_same h r j j0 : hget h r = Some j0 -> hget (hset h r j) r = Some j.
Proof.
  unfold hget. revert r. induction h as [|x h IH]; intros [|r]; simpl; try discriminate; auto.
Qed.
Lemma hget_hset_other h r r' j : r <> r' -> hget (hset h r j) r' = hget h r'.
Proof.
  unfold hget. revert r r'. induction h as [|x h IH]; intros [|r] [|r'] H; simpl; try reflexivity; try congruence.
  apply IH. congruence.
Qed.
Lemma hget_app_l h j r : (r < List.length h)%nat -> hget (h ++ [j]) r = hget h r.
Proof. unfold hget. intros. apply nth_error_app1. assumption. Qed.
Lemma hget_lt h r j : hget h r = Some j -> (r < List.length h)%nat.
Proof. unfold hget. intros H. apply nth_error_Some. congruence. Qed.
Lemma hget_app_some h j r x : hget h r = Some x -> hget (h ++ [j]) r = Some x.
Proof. intros H. rewrite hget_app_l; [exact H | eapply hget_lt; eauto]. Qed.
Lemma hget_new h j : hget (h ++ [j]) (List.length h) = Some j.
Proof. unfold hget. rewrite nth_error_app2, Nat.sub_diag by lia. reflexivity. Qed.
Lemma hset_new h j j' : hset (h ++ [j]) (List.length h) j' = h ++ [j'].
Proof. induction h as [|x h IH]; simpl; [reflexivity|]. rewrite IH. reflexivity. Qed.
Lemma nth_new (h : heap) j d : nth (List.length h) (h ++ [j]) d = j.
Proof. rewrite app_nth2, Nat.sub_diag by lia. reflexivity. Qed.

(** What [update_tool] does, in one statement. *)
Definition new_number (j : job) (t : tool) : option Z :=
  match t_number t with None => j_tool_number j | n => n end.
Definition new_diameter (j : job) (t : tool) : option Qc :=
  match t_diameter t with None => j_tool_diameter j | d => d end.
Definition new_feed (j : job) (t : tool) : pynum := match t_feed t with None => j_feed j | Some f => f end.
Definition new_speed (j : job) (t : tool) : option pynum := match t_speed t with None => j_speed j | s => s end.
Definition updated (j : job) (t : tool) : job :=
  with_tool j (new_number j t) (new_diameter j t) (new_feed j t) (new_speed j t).

Inductive update_spec (h : heap) (r : ref) (j : job) : option tool -> heap * ref -> Prop :=
| us_none : update_spec h r j None (h, r)
| us_tool t n : new_number j t = Some n -> Some n <> j_tool_number j ->
    update_spec h r j (Some t)
      (h ++ [updated (with_operations j (j_operations j ++
         [Op (List.length h) "Tool Change" [Config (CToolChange n (new_speed j t) (j_coolant j))]])) t],
       List.length h)
| us_speed t s : new_number j t = j_tool_number j -> new_speed j t = Some s ->
    Some (pyval s) <> option_map pyval (j_speed j) ->
    update_spec h r j (Some t)
      (h ++ [updated (with_operations j (j_operations j ++
         [Op (List.length h) "Speed Change" [Config (CStart (Some s) (j_coolant j))]])) t],
       List.length h)
| us_keep t : new_number j t = j_tool_number j ->
    option_map pyval (new_speed j t) = option_map pyval (j_speed j) ->
    update_spec h r j (Some t) (hset h r (updated j t), r).

Lemma oz_neqb_spec a b : oz_neqb a b = true <-> a <> b.
Proof.
  destruct a as [a|], b as [b|]; simpl.
  - rewrite negb_true_iff, Z.eqb_neq. split; intros H C; apply H; congruence.
  - split; [congruence|reflexivity].
  - split; [congruence|reflexivity].
  - split; congruence.
Qed.
Lemma opy_neqb_spec a b : opy_neqb a b = true <-> option_map pyval a <> option_map pyval b.
Proof.
  destruct a as [a|], b as [b|]; simpl.
  - rewrite negb_true_iff, qeqb_neq. split; intros H C; apply H; congruence.
  - split; [congruence|reflexivity].
  - split; [congruence|reflexivity].
  - split; congruence.
Qed.

Lemma update_tool_spec h r j t : update_spec h r j t (update_tool h r j t).
Proof.
  destruct t as [t|]; [|constructor]. unfold update_tool, add_operation, halloc.
  fold (new_number j t) (new_diameter j t) (new_feed j t) (new_speed j t).
  assert (K : is_some (new_speed j t) && opy_neqb (new_speed j t) (j_speed j) = true ->
              exists s, new_speed j t = Some s /\ Some (pyval s) <> option_map pyval (j_speed j)).
  { intros H. apply andb_true_iff in H. destruct H as [H1 H2]. apply opy_neqb_spec in H2.
    destruct (new_speed j t) as [s|]; [|discriminate]. eauto. }
  assert (K2 : is_some (new_speed j t) && opy_neqb (new_speed j t) (j_speed j) = false ->
              option_map pyval (new_speed j t) = option_map pyval (j_speed j)).
  { intros H. apply andb_false_iff in H. destruct H as [H|H].
    - unfold new_speed in *. destruct (t_speed t) as [s|]; [discriminate|]. reflexivity.
    - destruct (opy_neqb (new_speed j t) (j_speed j)) eqn:E; [discriminate|].
      unfold opy_neqb in E. destruct (new_speed j t) as [a|], (j_speed j) as [b|]; try discriminate; [|reflexivity].
      apply negb_false_iff, qeqb_eq in E. simpl. congruence. }
  destruct (new_number j t) as [n|] eqn:En.
  - destruct (oz_neqb (Some n) (j_tool_number j)) eqn:E1.
    + apply oz_neqb_spec in E1. rewrite nth_new, hset_new.
      replace (with_tool _ _ _ _ _) with (updated (with_operations j (j_operations j ++
         [Op (List.length h) "Tool Change" [Config (CToolChange n (new_speed j t) (j_coolant j))]])) t)
        by (unfold updated, with_tool; simpl; f_equal; exact En).
      apply us_tool; assumption.
    + assert (E2 : new_number j t = j_tool_number j).
      { rewrite En. simpl in E1. destruct (j_tool_number j); [|discriminate].
        apply negb_false_iff, Z.eqb_eq in E1. congruence. }
      destruct (is_some (new_speed j t) && opy_neqb (new_speed j t) (j_speed j)) eqn:E3.
      * rewrite nth_new, hset_new. destruct (K eq_refl) as (s & Hs & Hne).
        replace (with_tool _ _ _ _ _) with (updated (with_operations j (j_operations j ++
           [Op (List.length h) "Speed Change" [Config (CStart (new_speed j t) (j_coolant j))]])) t)
          by (unfold updated, with_tool; simpl; f_equal; exact En).
        rewrite Hs. apply us_speed; assumption.
      * replace (with_tool _ _ _ _ _) with (updated j t)
          by (unfold updated, with_tool; simpl; f_equal; exact En).
        apply us_keep; [assumption|]. apply K2. reflexivity.
  - assert (E2 : new_number j t = j_tool_number j).
    { rewrite En. unfold new_number in En. destruct (t_number t); congruence. }
    destruct (is_some (new_speed j t) && opy_neqb (new_speed j t) (j_speed j)) eqn:E3.
    * rewrite nth_new, hset_new. destruct (K eq_refl) as (s & Hs & Hne).
      replace (with_tool _ _ _ _ _) with (updated (with_operations j (j_operations j ++
         [Op (List.length h) "Speed Change" [Config (CStart (new_speed j t) (j_coolant j))]])) t)
        by (unfold updated, with_tool; simpl; f_equal; exact En).
      rewrite Hs. apply us_speed; assumption.
    * replace (with_tool _ _ _ _ _) with (updated j t)
        by (unfold updated, with_tool; simpl; f_equal; exact En).
      apply us_keep; [assumption|]. apply K2. reflexivity.
Qed.

(** ** Well-formed jobs *)
Definition wf_command (co : option coolant_state) (c : command) : Prop :=
  match c with
  | Motion _ => True
  | Config (CStart _ co') => co' = co
  | Config (CToolChange _ _ co') => co' = co
  | _ => False
  end.
Definition wf_job (j : job) : Prop :=
  Forall (fun o => Forall (wf_command (j_coolant j)) (op_commands o)) (j_operations j).

Lemma Forall_hget (P : job -> Prop) h r j : Forall P h -> hget h r = Some j -> P j.
Proof. intros H E. unfold hget in E. apply nth_error_In in E. rewrite Forall_forall in H. auto. Qed.
Lemma Forall_hset (P : job -> Prop) h r j : Forall P h -> P j -> Forall P (hset h r j).
Proof.
  intros H Hj. revert r. induction H as [|x h Hx H IH]; intros [|r]; simpl; constructor; auto.
Qed.

Lemma update_wf h r j t : Forall wf_job h -> wf_job j -> Forall wf_job (fst (update_tool h r j t)).
Proof.
  intros H Hj. destruct (update_tool_spec h r j t); simpl.
  - exact H.
  - apply Forall_app. split; [exact H|]. constructor; [|constructor].
    unfold wf_job. simpl. apply Forall_app. split; [exact Hj|]. repeat constructor.
  - apply Forall_app. split; [exact H|]. constructor; [|constructor].
    unfold wf_job. simpl. apply Forall_app. split; [exact Hj|]. repeat constructor.
  - apply Forall_hset; [exact H|]. exact Hj.
Qed.

Lemma reachable_wf h : reachable h -> Forall wf_job h.
Proof.
  induction 1 as [|h j H IH Hj|h r t name gen H IH Hg].
  - constructor.
  - apply Forall_app. split; [exact IH|]. constructor; [|constructor].
    unfold wf_job. rewrite Hj. constructor.
  - unfold fluent_op. destruct (hget h r) as [j|] eqn:Ej; [|exact IH].
    pose proof (update_wf h r j t IH (Forall_hget _ _ _ _ IH Ej)) as U.
    destruct (update_tool h r j t) as [h1 r1] eqn:Eu. simpl in U.
    destruct (hget h1 r1) as [j1|] eqn:Ej1; [|exact U].
    destruct (gen j1) as [cmds|e] eqn:Eg; [|exact U].
    simpl. apply Forall_app. split; [exact U|]. constructor; [|constructor].
    unfold wf_job. simpl. apply Forall_app. split; [exact (Forall_hget _ _ _ _ U Ej1)|].
    constructor; [|constructor]. simpl. destruct (Hg _ _ Eg) as (ms & ->).
    apply Forall_map. apply Forall_forall. simpl. trivial.
Qed.

(** ** Programs on the machine *)
Definition good_event (e : event) : Prop := ready (ev_from e) /\ ready (ev_to e).

Lemma ready_motion st m : ready st -> ready (before_motion st m) /\ ready (after_motion st m).
Proof. intros H. split; exact H. Qed.

Definition cool_ok (co : option coolant_state) (st : mstate) : Prop :=
  co = None -> ms_mist st = false /\ ms_flood st = false.

(** What a list of well-formed commands keeps. *)
Definition keeps (co : option coolant_state) (st : mstate) (bs : list block) : Prop :=
  ready (fst (run st bs)) /\ (cool_ok co st -> cool_ok co (fst (run st bs))) /\
  Forall good_event (snd (run st bs)).
Lemma keeps_app co st a b : keeps co st a -> keeps co (fst (run st a)) b -> keeps co st (a ++ b).
Proof.
  intros (A1 & A2 & A3) (B1 & B2 & B3). unfold keeps. rewrite run_app. cbn [fst snd].
  split; [exact B1|]. split; [auto|]. apply Forall_app. split; assumption.
Qed.
Lemma keeps_command co c st : wf_command co c -> ready st -> keeps co st (command_blocks c).
Proof.
  intros Hw Hr. unfold keeps. destruct c as [m|[s co'|co'| |n s co']]; simpl in Hw; try contradiction.
  - simpl command_blocks. rewrite run_cons, exec_motion; try apply Hr. simpl.
    split; [exact Hr|]. split; [auto|]. constructor; [|constructor]. split; exact Hr.
  - subst co'. simpl command_blocks. rewrite run_cons, exec_start by apply Hr. simpl.
    split; [|split; [|constructor]].
    + destruct Hr as (H1 & H2 & H3). repeat split; simpl; try tauto.
    + intros Hc ->. simpl. apply Hc. reflexivity.
  - subst co'. change (command_blocks (Config (CToolChange n s co))) with (config_blocks (CToolChange n s co)).
    rewrite run_tool by apply Hr. simpl. split; [|split; [|constructor]].
    + destruct Hr as (H1 & H2 & H3). repeat split; simpl; try tauto.
    + intros Hc ->. simpl. apply Hc. reflexivity.
Qed.
Lemma keeps_commands co cs : forall st, Forall (wf_command co) cs -> ready st ->
  keeps co st (flat_map command_blocks cs).
Proof.
  induction cs as [|c cs IH]; intros st Hw Hr.
  - split; [exact Hr|]. split; [auto|constructor].
  - inversion Hw as [|? ? Hwc Hw']; subst. cbn [flat_map].
    pose proof (keeps_command co c st Hwc Hr) as K. apply keeps_app; [exact K|].
    apply IH; [exact Hw'|apply K].
Qed.

Lemma run_blank st b : run st ([] :: b) = run st b.
Proof. rewrite run_cons, exec_empty. simpl. destruct (run st b); reflexivity. Qed.

Lemma keeps_blank co st b : keeps co st b -> keeps co st ([] :: b).
Proof. unfold keeps. rewrite run_blank. auto. Qed.

Lemma keeps_ops co os : forall st, Forall (fun o => Forall (wf_command co) (op_commands o)) os ->
  ready st -> keeps co st (ops_blocks os).
Proof.
  induction os as [|o os IH]; intros st Hw Hr.
  - cbn [ops_blocks]. apply keeps_blank. split; [exact Hr|]. split; [auto|constructor].
  - inversion Hw as [|? ? Ho Hos]; subst.
    pose proof (keeps_commands co (op_commands o) st Ho Hr) as K.
    destruct os as [|o2 os]; [apply keeps_blank; exact K|].
    change (ops_blocks (o :: o2 :: os)) with ([] :: flat_map command_blocks (op_commands o) ++ [[]; []] ++ ops_blocks (o2 :: os)).
    apply keeps_blank, keeps_app; [exact K|]. apply keeps_blank, keeps_blank, IH; [exact Hos|apply K].
Qed.

Lemma run_header st j : ms_ended st = false ->
  run st (header_blocks j) = (after_start (after_safety st) (j_speed j) (j_coolant j), []).
Proof.
  intros H. unfold header_blocks. change ([[]] ++ safety_blocks ++ ?b) with ([] :: safety_blocks ++ b).
  rewrite run_blank, run_app, run_safety by exact H. cbn [fst snd].
  rewrite run_cons, exec_start by reflexivity. reflexivity.
Qed.
Lemma ready_header st s co : ready (after_start (after_safety st) s co).
Proof. repeat split. Qed.

Lemma run_footer st j : ms_ended st = false ->
  run st (footer_blocks j) = (after_end (after_stop (after_safety st) (j_coolant j)), []).
Proof.
  intros H. unfold footer_blocks. rewrite run_app, run_safety by exact H. cbn [fst snd].
  change ([stop_block (j_coolant j)] ++ [[mword 30]]) with [stop_block (j_coolant j); [mword 30]].
  rewrite run_cons, exec_stop by reflexivity. cbn [fst snd].
  rewrite run_cons, exec_end by reflexivity. reflexivity.
Qed.

Lemma run_program st j : wf_job j -> ms_ended st = false ->
  let '(st', evs) := run st (program_blocks j) in
  ms_ended st' = true /\ ms_spindle st' = SpOff /\
  ((j_coolant j <> None \/ (ms_mist st = false /\ ms_flood st = false)) ->
     ms_mist st' = false /\ ms_flood st' = false) /\
  Forall good_event evs.
Proof.
  intros Hw He. unfold program_blocks. rewrite run_app, run_header by exact He. cbn [fst snd].
  rewrite run_app.
  assert (Hc : (j_coolant j <> None \/ (ms_mist st = false /\ ms_flood st = false)) ->
      cool_ok (j_coolant j) (after_start (after_safety st) (j_speed j) (j_coolant j))).
  { intros [H|H] E; [congruence|]. rewrite E. exact H. }
  set (st1 := after_start (after_safety st) (j_speed j) (j_coolant j)) in *.
  assert (R1 : ready st1) by apply ready_header.
  destruct (keeps_ops _ _ st1 Hw R1) as (A & C & B). rewrite run_footer by apply A. simpl.
  split; [reflexivity|]. split; [reflexivity|]. split.
  - intros H. specialize (C (Hc H)). destruct (j_coolant j); [auto|]. apply C. reflexivity.
  - rewrite app_nil_r. exact B.
Qed.
