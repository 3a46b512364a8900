(** How the operations of a job relate to the calls that built it, and what its program does. *)
From Verif Require Import Base.Str Spec.Gcode Spec.Blocks Spec.Machine Spec.Program Spec.Jobs
  Model.Groups Model.Job Proofs.MachineP Proofs.ProgramP Proofs.JobP.
From Coq Require Import NArith Lia.
Local Open Scope list_scope.
Local Open Scope Z_scope.

(** ** Fluent calls on the heap *)
Inductive fluent_spec (h : heap) (r : ref) (j : job) (t : option tool) (name : string)
  (gen : job -> result (list command)) : heap * result ref -> Prop :=
| fs_err h1 r1 j1 e : update_spec h r j t (h1, r1) -> hget h1 r1 = Some j1 -> gen j1 = Err e ->
    fluent_spec h r j t name gen (h1, Err e)
| fs_ok h1 r1 j1 cmds : update_spec h r j t (h1, r1) -> hget h1 r1 = Some j1 -> gen j1 = Ok cmds ->
    fluent_spec h r j t name gen
      (h1 ++ [with_operations j1 (j_operations j1 ++ [Op (List.length h1) name cmds])], Ok (List.length h1)).

Lemma update_hget h r j t h1 r1 : hget h r = Some j -> update_spec h r j t (h1, r1) ->
  exists j1, hget h1 r1 = Some j1.
Proof.
  intros Hj H. inversion H; subst.
  - eauto.
  - eexists. apply hget_new.
  - eexists. apply hget_new.
  - eexists. eapply hget_hset_same. exact Hj.
Qed.

Lemma fluent_op_spec h r j t name gen : hget h r = Some j ->
  fluent_spec h r j t name gen (fluent_op h r t name gen).
Proof.
  intros Hj. unfold fluent_op. rewrite Hj. pose proof (update_tool_spec h r j t) as U.
  destruct (update_tool h r j t) as [h1 r1]. destruct (update_hget _ _ _ _ _ _ Hj U) as (j1 & E).
  rewrite E. destruct (gen j1) as [cmds|e] eqn:Eg.
  - eapply fs_ok; eassumption.
  - eapply fs_err; eassumption.
Qed.
Lemma fluent_op_none h r t name gen : hget h r = None -> fluent_op h r t name gen = (h, Err AttributeError).
Proof. intros H. unfold fluent_op. rewrite H. reflexivity. Qed.

(** Effect on jobs that existed before. *)
Definition same_but_tool (j j' : job) : Prop :=
  exists d f s, option_map pyval s = option_map pyval (j_speed j) /\
    j' = with_tool j (j_tool_number j) d f s.

Lemma update_others h r j t h1 r1 r2 x : hget h r = Some j -> update_spec h r j t (h1, r1) ->
  r2 <> r -> hget h r2 = Some x -> hget h1 r2 = Some x.
Proof.
  intros Hj H Hne Hx. inversion H; subst.
  - exact Hx.
  - apply hget_app_some. exact Hx.
  - apply hget_app_some. exact Hx.
  - rewrite hget_hset_other by congruence. exact Hx.
Qed.
Lemma with_tool_same j : with_tool j (j_tool_number j) (j_tool_diameter j) (j_feed j) (j_speed j) = j.
Proof. destruct j; reflexivity. Qed.
Lemma update_self h r j t h1 r1 : hget h r = Some j -> update_spec h r j t (h1, r1) ->
  exists j', hget h1 r = Some j' /\ same_but_tool j j'.
Proof.
  intros Hj H. inversion H; subst.
  - exists j. split; [exact Hj|]. exists (j_tool_diameter j), (j_feed j), (j_speed j).
    split; [reflexivity|]. rewrite with_tool_same. reflexivity.
  - exists j. split; [apply hget_app_some; exact Hj|]. exists (j_tool_diameter j), (j_feed j), (j_speed j).
    split; [reflexivity|]. rewrite with_tool_same. reflexivity.
  - exists j. split; [apply hget_app_some; exact Hj|]. exists (j_tool_diameter j), (j_feed j), (j_speed j).
    split; [reflexivity|]. rewrite with_tool_same. reflexivity.
  - eexists. split; [eapply hget_hset_same; exact Hj|].
    exists (new_diameter j t0), (new_feed j t0), (new_speed j t0). split; [assumption|].
    unfold updated. congruence.
Qed.

Lemma fluent_others h r t name gen r2 x : r2 <> r -> hget h r2 = Some x ->
  hget (fst (fluent_op h r t name gen)) r2 = Some x.
Proof.
  intros Hne Hx. destruct (hget h r) as [j|] eqn:Hj; [|rewrite fluent_op_none by exact Hj; exact Hx].
  destruct (fluent_op_spec h r j t name gen Hj); simpl.
  - eapply (update_others h r j); eassumption.
  - apply hget_app_some. eapply (update_others h r j); eassumption.
Qed.
Lemma fluent_self h r j t name gen : hget h r = Some j ->
  exists j', hget (fst (fluent_op h r t name gen)) r = Some j' /\ same_but_tool j j'.
Proof.
  intros Hj. destruct (fluent_op_spec h r j t name gen Hj); simpl.
  - eapply (update_self h r j); eassumption.
  - destruct (update_self _ _ _ _ _ _ Hj H) as (j' & E & S). exists j'. split; [|exact S].
    apply hget_app_some. exact E.
Qed.

(** ** The history of a job *)
Definition seg_ok (co : option coolant_state) (t : option Z) (s : option Qc) (c : call) (os : list operation) : Prop :=
  exists r, let o := Op r (c_name c) (map Motion (c_motions c)) in
  (want_tool t c <> t /\ exists r' n sp, want_tool t c = Some n /\ option_map pyval sp = want_speed s c /\
     os = [Op r' "Tool Change" [Config (CToolChange n sp co)]; o])
  \/ (want_tool t c = t /\ want_speed s c <> s /\ exists r' sp, Some (pyval sp) = want_speed s c /\
     os = [Op r' "Speed Change" [Config (CStart (Some sp) co)]; o])
  \/ (want_tool t c = t /\ want_speed s c = s /\ os = [o]).

Inductive hist (co : option coolant_state) : option Z -> option Qc -> list call -> list operation -> Prop :=
| hist_nil t s : hist co t s [] []
| hist_cons t s c os cs ops : seg_ok co t s c os -> hist co (want_tool t c) (want_speed s c) cs ops ->
    hist co t s (c :: cs) (os ++ ops).

Lemma hist_snoc co t s cs ops c os : hist co t s cs ops ->
  seg_ok co (fold_left want_tool cs t) (fold_left want_speed cs s) c os ->
  hist co t s (cs ++ [c]) (ops ++ os).
Proof.
  induction 1 as [t s|t s c0 os0 cs ops H1 H2 IH]; intros Hs; simpl in *.
  - rewrite <- (app_nil_r os). constructor; [exact Hs|constructor].
  - rewrite <- app_assoc. constructor; [exact H1|]. apply IH. exact Hs.
Qed.

Definition inv (h : heap) (r : ref) (j0 : job) (cs : list call) : Prop :=
  exists j, hget h r = Some j /\ j_tool_number j = tool_after j0 cs /\
    option_map pyval (j_speed j) = speed_after j0 cs /\ j_coolant j = j_coolant j0 /\
    hist (j_coolant j0) (j_tool_number j0) (option_map pyval (j_speed j0)) cs (j_operations j).

Lemma same_but_tool_inv h r j0 cs h' : inv h r j0 cs ->
  (forall j, hget h r = Some j -> exists j', hget h' r = Some j' /\ same_but_tool j j') ->
  inv h' r j0 cs.
Proof.
  intros (j & E & H1 & H2 & H3 & H4) K. destruct (K j E) as (j' & E' & d & f & s & Hs & ->).
  eexists. split; [exact E'|]. simpl. rewrite Hs. auto.
Qed.

Lemma wants c j t name ms : c = Call (Some t) name ms ->
  new_number j t = want_tool (j_tool_number j) c /\
  option_map pyval (new_speed j t) = want_speed (option_map pyval (j_speed j)) c.
Proof.
  intros ->. unfold new_number, new_speed, want_tool, want_speed. simpl. split.
  - destruct (t_number t); reflexivity.
  - destruct (t_speed t); reflexivity.
Qed.

Lemma built_inv h r j0 cs : built h r j0 cs -> inv h r j0 cs.
Proof.
  induction 1 as [h j0 H0|h r j0 cs t name gen h' r' j' pre ms H IH Hf Hg Ho|h r j0 cs r2 t name gen H IH|h r j0 cs j H IH].
  - exists j0. split; [apply hget_new|]. rewrite H0. repeat split. constructor.
  - destruct IH as (j & E & H1 & H2 & H3 & H4).
    pose proof (fluent_op_spec h r j t name gen E) as F. rewrite Hf in F. clear Hf.
    inversion F as [|h1 r1 j1 cmds U E1 Eg]; subst. clear F. rewrite hget_new in Hg. injection Hg as <-.
    simpl in Ho. apply app_inj_tail in Ho. destruct Ho as [_ Ho]. injection Ho as ->.
    eexists. split; [apply hget_new|]. simpl.
    unfold tool_after, speed_after in *. rewrite !fold_left_app. simpl.
    set (c := Call t name ms).
    inversion U as [|t0 n Hn Hne|t0 s Hn Hs Hne|t0 Hn Hs]; subst.
    + rewrite E in E1. injection E1 as <-. repeat split; try assumption.
      apply hist_snoc; [exact H4|]. eexists. right. right. repeat split; reflexivity.
    + rewrite hget_new in E1. injection E1 as <-. destruct (wants c j t0 name ms eq_refl) as [W1 W2].
      rewrite <- H1, <- H2. simpl. split; [exact W1|]. split; [exact W2|]. split; [exact H3|].
      rewrite <- app_assoc. apply hist_snoc; [exact H4|]. eexists. left.
      rewrite <- H1, <- H2. split; [congruence|].
      eexists _, n, (new_speed j t0). split; [congruence|]. split; [exact W2|]. rewrite H3. reflexivity.
    + rewrite hget_new in E1. injection E1 as <-. destruct (wants c j t0 name ms eq_refl) as [W1 W2].
      rewrite <- H1, <- H2. simpl. split; [exact W1|]. split; [exact W2|]. split; [exact H3|].
      rewrite <- app_assoc. apply hist_snoc; [exact H4|]. eexists. right. left.
      rewrite <- H1, <- H2. split; [congruence|]. rewrite Hs in W2. simpl in W2.
      split; [congruence|]. eexists _, s. split; [exact W2|]. rewrite H3. reflexivity.
    + erewrite hget_hset_same in E1 by exact E. injection E1 as <-. destruct (wants c j t0 name ms eq_refl) as [W1 W2].
      rewrite <- H1, <- H2. simpl. split; [exact W1|]. split; [exact W2|]. split; [exact H3|].
      apply hist_snoc; [exact H4|]. eexists. right. right. rewrite <- H1, <- H2.
      repeat split; congruence.
  - apply (same_but_tool_inv h); [exact IH|]. intros j E.
    destruct (Nat.eq_dec r r2) as [<-|Hne].
    + apply fluent_self. exact E.
    + exists j. split; [apply fluent_others; assumption|].
      exists (j_tool_diameter j), (j_feed j), (j_speed j). rewrite with_tool_same. auto.
  - apply (same_but_tool_inv h); [exact IH|]. intros j1 E. exists j1. split; [apply hget_app_some; exact E|].
    exists (j_tool_diameter j1), (j_feed j1), (j_speed j1). rewrite with_tool_same. auto.
Qed.

(** ** Running the program of a history *)
Definition lead_blocks (lead : list block) (os : list operation) : list block :=
  match os with [] => [] | o :: os => lead ++ op_blocks o ++ flat_map (fun o => [[]; []] ++ op_blocks o) os end.
Lemma lead_tail os : lead_blocks [[]; []] os = flat_map (fun o => [[]; []] ++ op_blocks o) os.
Proof. destruct os; reflexivity. Qed.
Lemma ops_blocks_lead o os : ops_blocks (o :: os) = lead_blocks [] (o :: os).
Proof.
  revert o. induction os as [|o2 os IH]; intros o.
  - simpl. rewrite app_nil_r. reflexivity.
  - change (ops_blocks (o :: o2 :: os)) with (op_blocks o ++ [[]; []] ++ ops_blocks (o2 :: os)).
    rewrite IH. reflexivity.
Qed.


(** Two ways to say the same: recursively (for proofs) and by position (in the theorems). *)
Fixpoint seg_run (T0 base : option Qc) (st : mstate) (t : option Z) (s : option Qc) (e : bool)
  (cs : list call) (segs : list (list block * list block)) : Prop :=
  match cs, segs with
  | [], [] => True
  | c :: cs, (p, b) :: segs =>
      let t' := want_tool t c in let s' := want_speed s c in
      exists e',
      (e' = true <-> (e = true \/ t' <> t \/ s' <> s)) /\
      b = call_blocks c /\ snd (run st p) = [] /\
      ms_tool (fst (run st p)) = tool_is T0 t' /\
      ms_speed (fst (run st p)) = speed_is base e' s' /\
      (existsb changes_tool p = true <-> t' <> t) /\
      (t' <> t -> ms_length (fst (run st p)) = tool_is T0 t') /\
      Forall (fun ev => ms_tool (ev_from ev) = tool_is T0 t' /\ ms_tool (ev_to ev) = tool_is T0 t' /\
                        ms_speed (ev_from ev) = speed_is base e' s' /\ ms_speed (ev_to ev) = speed_is base e' s')
             (snd (run (fst (run st p)) b)) /\
      seg_run T0 base (fst (run st (p ++ b))) t' s' e' cs segs
  | _, _ => False
  end.

Lemma run_motions ms : forall st, ready st ->
  let r := run st (map motion_block ms) in
  ready (fst r) /\ ms_tool (fst r) = ms_tool st /\ ms_speed (fst r) = ms_speed st /\
  Forall (fun ev => ms_tool (ev_from ev) = ms_tool st /\ ms_tool (ev_to ev) = ms_tool st /\
                    ms_speed (ev_from ev) = ms_speed st /\ ms_speed (ev_to ev) = ms_speed st) (snd r).
Proof.
  induction ms as [|m ms IH]; intros st Hr.
  - simpl. repeat split; try apply Hr. constructor.
  - cbn [map]. cbv zeta. rewrite run_cons, exec_motion by apply Hr. cbn [fst snd].
    destruct (IH (after_motion st m) Hr) as (I1 & I2 & I3 & I4).
    split; [exact I1|]. split; [exact I2|]. split; [exact I3|].
    constructor; [|exact I4]. repeat split; reflexivity.
Qed.

Lemma motion_no_change ms : existsb changes_tool (map motion_block ms) = false.
Proof.
  induction ms as [|m ms IH]; [reflexivity|]. simpl. rewrite IH, orb_false_r.
  unfold changes_tool. rewrite motion_mcodes. reflexivity.
Qed.

Lemma flat_motion ms : flat_map command_blocks (map Motion ms) = map motion_block ms.
Proof. induction ms as [|m ms IH]; simpl; [reflexivity|]. rewrite IH. reflexivity. Qed.

Lemma lead_app lead a b : a <> [] -> lead_blocks lead (a ++ b) = lead_blocks lead a ++ lead_blocks [[]; []] b.
Proof.
  intros H. destruct a as [|o a]; [congruence|]. rewrite lead_tail.
  cbn [app lead_blocks]. rewrite flat_map_app, <- !app_assoc. reflexivity.
Qed.

Lemma change_start s co : existsb changes_tool [start_block s co] = false.
Proof. destruct s, co as [[]|]; reflexivity. Qed.
Lemma change_tool n s co : existsb changes_tool (config_blocks (CToolChange n s co)) = true.
Proof. destruct s, co as [[]|]; reflexivity. Qed.

Lemma hist_run co T0 base : forall cs ops t s e st lead,
  hist co t s cs ops -> ready st -> lead = [] \/ lead = [[]; []] ->
  ms_tool st = tool_is T0 t -> ms_speed st = speed_is base e s ->
  exists segs, lead_blocks lead ops = flat_map seg_blocks segs /\ seg_run T0 base st t s e cs segs.
Proof.
  induction cs as [|c cs IH]; intros ops t s e st lead H Hr Hl HT HS.
  { inversion H; subst. exists []. split; [reflexivity|exact I]. }
  inversion H as [|? ? ? os ? ops' Hseg Hh]; subst. clear H.
  assert (Hlead : forall b, run st (lead ++ b) = run st b).
  { intros b. destruct Hl as [->| ->]; [reflexivity|]. simpl app. rewrite !run_blank. reflexivity. }
  assert (Lead1 : existsb changes_tool lead = false) by (destruct Hl as [->| ->]; reflexivity).
  assert (Hlead0 : run st lead = (st, [])).
  { specialize (Hlead []). rewrite app_nil_r in Hlead. exact Hlead. }
  destruct Hseg as (r & [(Hne & r' & n & sp & Hn & Hsp & ->)|[(Heq & Hne & r' & sp & Hsp & ->)|(Heq & Heq2 & ->)]]).
  - (* tool change *)
    set (st1 := after_tool st n sp co).
    set (p := lead ++ [] :: config_blocks (CToolChange n sp co) ++ [[]; []]).
    assert (Hp : run st p = (st1, [])).
    { unfold p. rewrite Hlead, run_blank, run_app, run_tool by apply Hr. cbn [fst snd].
      rewrite !run_blank. reflexivity. }
    assert (R1 : ready st1).
    { destruct Hr as (K1 & K2 & K3). unfold st1. repeat split; simpl; tauto. }
    destruct (run_motions (c_motions c) st1 R1) as (M1 & M2 & M3 & M4).
    assert (T1 : ms_tool st1 = tool_is T0 (want_tool t c)) by (rewrite Hn; reflexivity).
    assert (S1 : ms_speed st1 = speed_is base true (want_speed s c)).
    { unfold st1. simpl. rewrite Hsp. destruct (want_speed s c) as [v|] eqn:Ev; [reflexivity|]. simpl. rewrite HS.
      assert (s = None) as ->.
      { unfold want_speed in Ev. destruct (c_tool c); [destruct (t_speed t0); congruence|exact Ev]. }
      destruct e; reflexivity. }
    destruct (IH ops' (want_tool t c) (want_speed s c) true
                (fst (run st1 (map motion_block (c_motions c)))) [[]; []] Hh M1 (or_intror eq_refl))
      as (segs & Eb & Hrun); [rewrite M2; exact T1 | rewrite M3; exact S1 |].
    exists ((p, call_blocks c) :: segs). split.
    + rewrite lead_app by discriminate. rewrite Eb. cbn [flat_map]. f_equal.
      unfold seg_blocks, p, call_blocks, op_blocks. cbn [fst snd lead_blocks flat_map op_commands].
      unfold op_blocks. cbn [flat_map op_commands]. rewrite flat_motion, !app_nil_r, <- !app_assoc.
      cbn [app]. rewrite <- ?app_assoc. reflexivity.
    + cbn [seg_run]. exists true. rewrite run_app, Hp. cbn [fst snd]. unfold call_blocks. rewrite run_blank.
      split; [tauto|]. split; [reflexivity|]. split; [reflexivity|]. split; [exact T1|]. split; [exact S1|].
      split; [|split; [|split]].
      * assert (C : existsb changes_tool p = true)
          by (unfold p; destruct Hl as [->| ->], sp, co as [[]|]; reflexivity).
        rewrite C. tauto.
      * intros _. unfold st1. rewrite Hn. reflexivity.
      * rewrite <- T1, <- S1. exact M4.
      * exact Hrun.
  - (* speed change *)
    set (st1 := after_start st (Some sp) co).
    set (p := lead ++ [] :: [start_block (Some sp) co] ++ [[]; []]).
    assert (Hp : run st p = (st1, [])).
    { unfold p. rewrite Hlead, run_blank. cbn [app]. rewrite run_cons, exec_start by apply Hr. cbn [fst snd].
      rewrite !run_blank. reflexivity. }
    assert (R1 : ready st1).
    { destruct Hr as (K1 & K2 & K3). unfold st1. repeat split; simpl; tauto. }
    destruct (run_motions (c_motions c) st1 R1) as (M1 & M2 & M3 & M4).
    assert (T1 : ms_tool st1 = tool_is T0 (want_tool t c)) by (rewrite Heq; exact HT).
    assert (S1 : ms_speed st1 = speed_is base true (want_speed s c)) by (rewrite <- Hsp; reflexivity).
    destruct (IH ops' (want_tool t c) (want_speed s c) true
                (fst (run st1 (map motion_block (c_motions c)))) [[]; []] Hh M1 (or_intror eq_refl))
      as (segs & Eb & Hrun); [rewrite M2; exact T1 | rewrite M3; exact S1 |].
    exists ((p, call_blocks c) :: segs). split.
    + rewrite lead_app by discriminate. rewrite Eb. cbn [flat_map]. f_equal.
      unfold seg_blocks, p, call_blocks, op_blocks. cbn [fst snd lead_blocks flat_map op_commands].
      unfold op_blocks. cbn [flat_map op_commands]. rewrite flat_motion, !app_nil_r, <- !app_assoc.
      cbn [app]. rewrite <- ?app_assoc. reflexivity.
    + cbn [seg_run]. exists true. rewrite run_app, Hp. cbn [fst snd]. unfold call_blocks. rewrite run_blank.
      split; [tauto|]. split; [reflexivity|]. split; [reflexivity|]. split; [exact T1|]. split; [exact S1|].
      split; [|split; [|split]].
      * assert (C : existsb changes_tool p = false)
          by (unfold p; destruct Hl as [->| ->], co as [[]|]; reflexivity).
        rewrite C, Heq.
        split; [discriminate|congruence].
      * rewrite Heq. congruence.
      * rewrite <- T1, <- S1. exact M4.
      * exact Hrun.
  - (* no change *)
    destruct (run_motions (c_motions c) st Hr) as (M1 & M2 & M3 & M4).
    assert (T1 : ms_tool st = tool_is T0 (want_tool t c)) by (rewrite Heq; exact HT).
    assert (S1 : ms_speed st = speed_is base e (want_speed s c)) by (rewrite Heq2; exact HS).
    destruct (IH ops' (want_tool t c) (want_speed s c) e
                (fst (run st (map motion_block (c_motions c)))) [[]; []] Hh M1 (or_intror eq_refl))
      as (segs & Eb & Hrun); [rewrite M2; exact T1 | rewrite M3; exact S1 |].
    exists ((lead, call_blocks c) :: segs). split.
    + rewrite lead_app by discriminate. rewrite Eb. cbn [flat_map]. f_equal.
      unfold seg_blocks, call_blocks, op_blocks. cbn [fst snd lead_blocks flat_map op_commands].
      unfold op_blocks. cbn [op_commands]. rewrite flat_motion, !app_nil_r. reflexivity.
    + cbn [seg_run]. exists e. rewrite run_app, Hlead0. cbn [fst snd]. unfold call_blocks. rewrite run_blank.
      split; [rewrite Heq, Heq2; tauto|]. split; [reflexivity|]. split; [reflexivity|]. split; [exact T1|]. split; [exact S1|].
      split; [|split; [|split]].
      * rewrite Lead1, Heq. split; [discriminate|congruence].
      * rewrite Heq. congruence.
      * rewrite <- T1, <- S1. exact M4.
      * exact Hrun.
Qed.

(** By position. *)
Lemma seg_run_length T0 base : forall cs segs st t s e, seg_run T0 base st t s e cs segs ->
  List.length segs = List.length cs.
Proof.
  induction cs as [|c cs IH]; intros [|[p b] segs] st t s e H; simpl in H; try contradiction; [reflexivity|].
  destruct H as (e' & _ & _ & _ & _ & _ & _ & _ & _ & H). simpl. f_equal. eapply IH. exact H.
Qed.

(** Something changed at one of the calls 0..k. *)
Fixpoint changed_upto (t : option Z) (s : option Qc) (cs : list call) (k : nat) : Prop :=
  match cs with
  | [] => False
  | c :: cs =>
      (want_tool t c <> t \/ want_speed s c <> s) \/
      match k with O => False | S k => changed_upto (want_tool t c) (want_speed s c) cs k end
  end.

Lemma seg_run_nth T0 base : forall cs segs st t s e k c p b,
  seg_run T0 base st t s e cs segs -> nth_error cs k = Some c -> nth_error segs k = Some (p, b) ->
  let tk := fold_left want_tool (firstn k cs) t in
  let t' := want_tool tk c in
  let s' := want_speed (fold_left want_speed (firstn k cs) s) c in
  let st1 := fst (run st (flat_map seg_blocks (firstn k segs) ++ p)) in
  exists e', (e' = true <-> (e = true \/ changed_upto t s cs k)) /\
    b = call_blocks c /\
    ms_tool st1 = tool_is T0 t' /\ ms_speed st1 = speed_is base e' s' /\
    (existsb changes_tool p = true <-> t' <> tk) /\ (t' <> tk -> ms_length st1 = tool_is T0 t') /\
    Forall (fun ev => ms_tool (ev_from ev) = tool_is T0 t' /\ ms_tool (ev_to ev) = tool_is T0 t' /\
                      ms_speed (ev_from ev) = speed_is base e' s' /\ ms_speed (ev_to ev) = speed_is base e' s')
           (snd (run st1 b)) /\
    snd (run (fst (run st (flat_map seg_blocks (firstn k segs)))) p) = [].
Proof.
  induction cs as [|c0 cs IH]; intros segs st t s e k c p b H Hc Hs.
  { destruct k; discriminate. }
  destruct segs as [|[p0 b0] segs]; [contradiction|]. destruct H as (e' & He & Hb & Hp & HT & HS & HC & HL & HF & HR).
  destruct k as [|k]; simpl in Hc, Hs.
  - injection Hc as ->. injection Hs as -> ->. cbn [firstn fold_left flat_map app]. exists e'.
    simpl changed_upto. split; [rewrite He; tauto|]. auto 12.
  - destruct (IH segs _ _ _ _ k c p b HR Hc Hs) as (e2 & K0 & K1 & K2 & K3 & K4 & K5 & K6 & K7).
    cbn [firstn fold_left flat_map]. exists e2.
    change (seg_blocks (p0, b0)) with (p0 ++ b0).
    assert (A1 : fst (run st ((p0 ++ b0) ++ flat_map seg_blocks (firstn k segs))) =
                 fst (run (fst (run st (p0 ++ b0))) (flat_map seg_blocks (firstn k segs))))
      by (rewrite run_app_fst; reflexivity).
    assert (A2 : fst (run st (((p0 ++ b0) ++ flat_map seg_blocks (firstn k segs)) ++ p)) =
                 fst (run (fst (run st (p0 ++ b0))) (flat_map seg_blocks (firstn k segs) ++ p)))
      by (rewrite <- app_assoc, run_app_fst; reflexivity).
    cbv zeta. rewrite A1, A2. split.
    { rewrite K0, He. cbn [changed_upto]. clear. tauto. }
    exact (conj K1 (conj K2 (conj K3 (conj K4 (conj K5 (conj K6 K7)))))).
Qed.
