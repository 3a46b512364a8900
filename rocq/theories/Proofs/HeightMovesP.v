From Verif Require Import Base.Str Base.Py Spec.Gcode Spec.Blocks Spec.Machine Spec.Program Spec.Moves Spec.Jobs Spec.Alike Spec.Feeds Spec.Axes Spec.Home Spec.OnMachine Spec.Heights Spec.HeightMoves
  Model.Groups Model.Geometry Model.Plane Model.Command Model.Job Model.Profile Model.PocketOp Model.Drill Model.Surface
  Proofs.MachineP Proofs.ProgramP Proofs.ProgramThmP Proofs.JobP Proofs.HistoryP Proofs.FeedP Proofs.AxesP Proofs.HeightsP.
Local Open Scope list_scope.

(** ** One move *)
Definition height_of (st : mstate) (q : option avec) : Prop := forall p z, q = Some p -> az p = Some z -> ms_z st = Some (rounded 3 z).
Definition at_z (st : mstate) (z : option Qc) : mstate :=
  MS (ms_x st) (ms_y st) z (ms_spindle st) (ms_speed st) (ms_mist st) (ms_flood st)
     (ms_selected st) (ms_tool st) (ms_length st) (ms_plane st) (ms_units st) (ms_radius st)
     (ms_wcs st) (ms_path st) (ms_dist st) (ms_feedmode st) (ms_feed st) (ms_motion st) (ms_ended st).
Lemma masked_at s s' : no_z s = no_z s' -> s' = at_z s (ms_z s').
Proof.
  intros E. transitivity (at_z (no_z s') (ms_z s')); [destruct s'; reflexivity|]. rewrite <- E. reflexivity.
Qed.
Lemma masked s s' : no_z s = no_z s' -> ms_z s = ms_z s' -> s = s'.
Proof. intros E F. rewrite (masked_at _ _ E), <- F. destruct s; reflexivity. Qed.
Lemma masked_before s s' m m' : no_z s = no_z s' -> m_feed m = m_feed m' -> no_z (before_motion s m) = no_z (before_motion s' m').
Proof. intros E F. unfold before_motion. rewrite F, (masked_at _ _ E). reflexivity. Qed.
Lemma masked_after s s' m m' : no_z s = no_z s' -> m_feed m = m_feed m' -> ax (m_end m) = ax (m_end m') -> ay (m_end m) = ay (m_end m') -> m_kind m = m_kind m' ->
  no_z (after_motion s m) = no_z (after_motion s' m').
Proof. intros E F A B C. unfold after_motion, before_motion. rewrite F, A, B, C, (masked_at _ _ E). reflexivity. Qed.
Lemma height_after s m : height_of (after_motion s m) (Some (m_end m)).
Proof. intros p z E Z. assert (p = m_end m) by congruence. subst p. unfold after_motion. cbn [set_motion set_pos ms_z]. rewrite Z. reflexivity. Qed.
Lemma placed_z R m : placed R m -> exists z, az (m_end m) = Some z.
Proof. intros [(_ & _ & ->)|((p & ->) & _)]; eexists; reflexivity. Qed.

(** ** Motions of an operation *)
Definition same_run (a b : mstate * list event) : Prop :=
  no_z (fst a) = no_z (fst b) /\ map no_z_event (snd a) = map no_z_event (snd b) /\ feed_moves (snd a) = feed_moves (snd b).
Lemma same_run_app s s' a a' b b' : same_run (run s a) (run s' a') -> same_run (run (fst (run s a)) b) (run (fst (run s' a')) b') -> same_run (run s (a ++ b)) (run s' (a' ++ b')).
Proof.
  intros (A1 & A2 & A3) (B1 & B2 & B3). rewrite !run_app. unfold same_run. cbn [fst snd]. unfold feed_moves in *. rewrite !map_app, !filter_app, A2, A3, B2, B3. auto.
Qed.
Definition entered (q : option avec) : Prop := exists p z, q = Some p /\ az p = Some z.
Lemma motions_same R R' ms : forall ms' q q' s s', map flat_rapid ms = map flat_rapid ms' -> entries q (map Motion ms) = entries q' (map Motion ms') ->
  Forall (placed R) ms -> Forall (placed R') ms' -> (entered q \/ match ms with m :: _ => rapid m | [] => True end) ->
  height_of s q -> height_of s' q' -> no_z s = no_z s' -> ready s -> ready s' ->
  same_run (run s (flat_map command_blocks (map Motion ms))) (run s' (flat_map command_blocks (map Motion ms'))).
Proof.
  induction ms as [|m ms IH]; intros [|m' ms'] q q' s s' F E P P' Q H H' N Y Y'; try discriminate F; [repeat split; exact N|].
  cbn [map] in F. assert (F1 : flat_rapid m = flat_rapid m') by congruence. assert (F2 : map flat_rapid ms = map flat_rapid ms') by congruence. clear F.
  inversion P as [|? ? Pm Pms]; inversion P' as [|? ? Pm' Pms']; subst. cbn [map flat_map command_blocks].
  change ([motion_block m] ++ ?b) with (motion_block m :: b). change ([motion_block m'] ++ ?b) with (motion_block m' :: b).
  rewrite !run_cons, !exec_motion by first [apply Y|apply Y']. cbn [fst snd].
  assert (T : entries (Some (m_end m)) (map Motion ms) = entries (Some (m_end m')) (map Motion ms')).
  { destruct m as [k sm e a|k sm e a f|cw sm e c mid a f], m' as [k' sm' e' a'|k' sm' e' a' f'|cw' sm' e' c' mid' a' f']; try discriminate F1; cbn [map entries m_end] in E |- *; [exact E|exact (f_equal (@tl _) E)|exact (f_equal (@tl _) E)]. }
  assert (EN : entered (Some (m_end m))). { destruct (placed_z _ _ Pm) as (z & Z). exists (m_end m), z. split; [reflexivity|exact Z]. }
  destruct m as [k sm e a|k sm e a f|cw sm e c mid a f].
  - destruct m' as [k' sm' e' a'|k' sm' e' a' f'|cw' sm' e' c' mid' a' f']; try discriminate F1. cbn [flat_rapid] in F1.
    assert (X : flat_avec e = flat_avec e') by congruence. assert (Ex : ax e = ax e') by exact (f_equal ax X). assert (Ey : ay e = ay e') by exact (f_equal ay X).
    set (m := MRapid k sm e a) in *. set (m' := MRapid k' sm' e' a') in *.
    pose proof (masked_after s s' m m' N eq_refl Ex Ey eq_refl) as A. pose proof (masked_before s s' m m' N eq_refl) as B.
    destruct (IH ms' _ _ _ _ F2 T Pms Pms' (or_introl EN) (height_after s m) (height_after s' m') A Y Y') as (C1 & C2 & C3).
    unfold same_run. cbn [fst snd]. split; [exact C1|].
    assert (W : forall x y, lookup "I" (motion_block (MRapid x y e a)) = None /\ lookup "J" (motion_block (MRapid x y e a)) = None /\ lookup "K" (motion_block (MRapid x y e a)) = None) by (intros; destruct e as [[?|] [?|] [?|]]; repeat split; reflexivity).
    assert (W' : forall x y, lookup "I" (motion_block (MRapid x y e' a')) = None /\ lookup "J" (motion_block (MRapid x y e' a')) = None /\ lookup "K" (motion_block (MRapid x y e' a')) = None) by (intros; destruct e' as [[?|] [?|] [?|]]; repeat split; reflexivity).
    split; [|exact C3]. cbn [app map]. f_equal; [|exact C2]. unfold no_z_event. cbn [ev_kind ev_from ev_to ev_i ev_j ev_k]. rewrite A, B.
    destruct (W k sm) as (I1 & I2 & I3), (W' k' sm') as (J1 & J2 & J3). unfold m, m'. rewrite I1, I2, I3, J1, J2, J3. reflexivity.
  - assert (M : MCut k sm e a f = m') by (destruct m'; try discriminate F1; exact F1). subst m'. cbn [map entries] in E.
    assert (q = q') by exact (f_equal (hd None) E). subst q'. destruct Q as [(p & z & -> & Z)|[]].
    assert (s = s'). { apply masked; [exact N|]. rewrite (H p z eq_refl Z), (H' p z eq_refl Z). reflexivity. } subst s'.
    destruct (IH ms' _ _ _ _ F2 T Pms Pms' (or_introl EN) (height_after s _) (height_after s _) eq_refl Y Y') as (C1 & C2 & C3).
    unfold same_run. cbn [fst snd]. split; [exact C1|]. split; [cbn [app map]; f_equal; exact C2|]. cbn [app]. unfold feed_moves in *. cbn [filter]. rewrite C3. reflexivity.
  - assert (M : MArc cw sm e c mid a f = m') by (destruct m'; try discriminate F1; exact F1). subst m'. cbn [map entries] in E.
    assert (q = q') by exact (f_equal (hd None) E). subst q'. destruct Q as [(p & z & -> & Z)|[]].
    assert (s = s'). { apply masked; [exact N|]. rewrite (H p z eq_refl Z), (H' p z eq_refl Z). reflexivity. } subst s'.
    destruct (IH ms' _ _ _ _ F2 T Pms Pms' (or_introl EN) (height_after s _) (height_after s _) eq_refl Y Y') as (C1 & C2 & C3).
    unfold same_run. cbn [fst snd]. split; [exact C1|]. split; [cbn [app map]; f_equal; exact C2|]. cbn [app]. unfold feed_moves in *. cbn [filter]. rewrite C3. reflexivity.
Qed.

(** ** The same blocks from states that differ in height *)
Lemma modal_masked s s' b : no_z s = no_z s' -> no_z (exec_modal s b) = no_z (exec_modal s' b).
Proof. intros E. rewrite (masked_at _ _ E). reflexivity. Qed.
Lemma step_masked s s' b : no_z s = no_z s' -> no_z (fst (exec_motion_step s b)) = no_z (fst (exec_motion_step s' b)).
Proof.
  intros E. rewrite (masked_at _ _ E). unfold exec_motion_step. cbn [at_z ms_motion ms_dist ms_x ms_y ms_z].
  destruct (if is_home (codes "G" b) then _ else _); reflexivity.
Qed.
Lemma block_masked s s' b : no_z s = no_z s' -> no_z (fst (exec_block s b)) = no_z (fst (exec_block s' b)).
Proof.
  intros E. unfold exec_block. assert (D : ms_ended s = ms_ended s') by exact (f_equal ms_ended E). rewrite D. destruct (ms_ended s'); [exact E|].
  pose proof (modal_masked s s' b E) as M. cbv zeta. set (t := exec_modal s b) in *. set (t' := exec_modal s' b) in *. clearbody t t'. clear E D s s'.
  assert (K : forall u u', no_z u = no_z u' -> no_z (fst (let '(st, evs) := exec_motion_step u b in (if member 20 (codes "M" b) || member 300 (codes "M" b) then set_ended st else st, evs))) =
     no_z (fst (let '(st, evs) := exec_motion_step u' b in (if member 20 (codes "M" b) || member 300 (codes "M" b) then set_ended st else st, evs)))).
  { intros u u' E. pose proof (step_masked u u' b E) as A. destruct (exec_motion_step u b) as [v es], (exec_motion_step u' b) as [v' es']. cbn [fst] in A |- *.
    destruct (member 20 (codes "M" b) || member 300 (codes "M" b)); [|exact A]. rewrite (masked_at _ _ A). reflexivity. }
  destruct (is_home (codes "G" b)); apply K; [|exact M]. rewrite (masked_at _ _ M). reflexivity.
Qed.
Lemma run_masked bs : forall s s', no_z s = no_z s' -> no_z (fst (run s bs)) = no_z (fst (run s' bs)).
Proof.
  induction bs as [|b bs IH]; intros s s' E; [exact E|]. rewrite !run_cons. cbn [fst]. apply IH, block_masked, E.
Qed.

(** ** Operations and programs *)
Definition op_like (o o' : operation) : Prop :=
  map flat_rapids (op_commands o) = map flat_rapids (op_commands o') /\ entries None (op_commands o) = entries None (op_commands o').
Lemma flat_motions ms : forall ms', map flat_rapids (map Motion ms) = map flat_rapids (map Motion ms') -> map flat_rapid ms = map flat_rapid ms'.
Proof.
  induction ms as [|m ms IH]; intros [|m' ms'] E; try discriminate E; [reflexivity|]. cbn [map flat_rapids] in *. f_equal; [congruence|]. apply IH. congruence.
Qed.
Lemma op_same co co' o o' s s' : op_like o o' -> Forall (wf_command co) (op_commands o) -> Forall (wf_command co') (op_commands o') -> commands_user (op_commands o) -> commands_user (op_commands o') ->
  no_z s = no_z s' -> ready s -> ready s' -> same_run (run s (flat_map command_blocks (op_commands o))) (run s' (flat_map command_blocks (op_commands o'))).
Proof.
  intros [F E] W W' U U' N Y Y'. destruct U as [(c & U)|(R & ms & U & P & S)], U' as [(c' & U')|(R' & ms' & U' & P' & S')]; rewrite U in F, E, W |- *; rewrite U' in F, E, W' |- *.
  - assert (c = c') by (cbn in F; congruence). subst c'.
    destruct (makes_commands co [Config c] s W Y) as (_ & T). destruct (makes_commands co' [Config c] s' W' Y') as (_ & T').
    assert (NZ := run_masked (flat_map command_blocks [Config c]) s s' N). destruct (run s _) as [x es], (run s' _) as [x' es']. cbn [fst snd] in *. cbn [flat_map command_moves app] in T, T'.
    inversion T; subst. inversion T'; subst. repeat split. exact NZ.
  - destruct ms' as [|m' ms']; discriminate F.
  - destruct ms as [|m ms]; discriminate F.
  - apply (motions_same R R' ms ms' None None); try assumption.
    + apply flat_motions, F.
    + right. destruct ms; [exact I|]. exact (proj1 (proj1 S)).
    + intros p z C. discriminate C.
    + intros p z C. discriminate C.
Qed.
Lemma ops_same co co' os : forall os' s s', Forall2 op_like os os' -> Forall (fun o => Forall (wf_command co) (op_commands o)) os -> Forall (fun o => Forall (wf_command co') (op_commands o)) os' ->
  Forall (fun o => commands_user (op_commands o)) os -> Forall (fun o => commands_user (op_commands o)) os' ->
  no_z s = no_z s' -> ready s -> ready s' -> same_run (run s (ops_blocks os)) (run s' (ops_blocks os')).
Proof.
  induction os as [|o os IH]; intros os' s s' L W W' U U' N Y Y'; inversion L as [|? o' ? os1 L1 L2]; subst.
  - cbn [ops_blocks]. rewrite !run_blank. repeat split. exact N.
  - inversion W as [|? ? W1 W2]; inversion W' as [|? ? W1' W2']; inversion U as [|? ? U1 U2]; inversion U' as [|? ? U1' U2']; subst.
    pose proof (op_same co co' o o' s s' L1 W1 W1' U1 U1' N Y Y') as A.
    destruct (makes_commands co _ s W1 Y) as (Y1 & _). destruct (makes_commands co' _ s' W1' Y') as (Y1' & _).
    destruct os as [|o2 os]; inversion L2 as [|? o2' ? os2' L3 L4]; subst; [cbn [ops_blocks]; unfold op_blocks; rewrite !run_blank; exact A|].
    change (ops_blocks (o :: o2 :: os)) with ([] :: flat_map command_blocks (op_commands o) ++ [] :: [] :: ops_blocks (o2 :: os)).
    change (ops_blocks (o' :: o2' :: os2')) with ([] :: flat_map command_blocks (op_commands o') ++ [] :: [] :: ops_blocks (o2' :: os2')).
    rewrite !run_blank. apply same_run_app; [exact A|]. rewrite !run_blank. apply IH; try assumption. apply A.
Qed.
Lemma user_wf h r j : user_heap h -> hget h r = Some j -> exists co, Forall (fun o => Forall (wf_command co) (op_commands o)) (j_operations j).
Proof. intros U G. eexists. exact (reachable_job_wf h r j (user_reachable h U) G). Qed.
Lemma user_ops h r j : user_heap h -> hget h r = Some j -> Forall (fun o => commands_user (op_commands o)) (j_operations j).
Proof. intros U G. eapply Forall_impl; [|exact (Forall_hget _ _ _ _ (user_jobs h U) G)]. intros o (_ & _ & D). exact D. Qed.
Lemma programs_same h r j h' r' j' st : user_heap h -> user_heap h' -> hget h r = Some j -> hget h' r' = Some j' -> j_speed j = j_speed j' -> j_coolant j = j_coolant j' ->
  Forall2 op_like (j_operations j) (j_operations j') -> ms_ended st = false ->
  fst (run st (program_blocks j)) = fst (run st (program_blocks j')) /\ map no_z_event (snd (run st (program_blocks j))) = map no_z_event (snd (run st (program_blocks j'))) /\ feed_moves (snd (run st (program_blocks j))) = feed_moves (snd (run st (program_blocks j'))).
Proof.
  intros U U' G G' S C L E. destruct (user_wf _ _ _ U G) as (co & W), (user_wf _ _ _ U' G') as (co' & W').
  unfold program_blocks. rewrite !(run_app st), !run_header by exact E. cbn [fst snd app]. rewrite S, C, !run_app. cbn [fst snd].
  set (s := after_start (after_safety st) (j_speed j') (j_coolant j')). assert (Y : ready s) by apply ready_header.
  destruct (makes_ops co _ s W Y) as [R _]. destruct (makes_ops co' _ s W' Y) as [R' _].
  destruct (ops_same co co' _ _ s s L W W' (user_ops _ _ _ U G) (user_ops _ _ _ U' G') eq_refl Y Y) as (A & B & D).
  rewrite !run_footer by first [apply R|apply R']. cbn [fst snd]. rewrite !app_nil_r. split; [|split; assumption]. rewrite C, (masked_at _ _ A). reflexivity.
Qed.

(** ** Sessions *)
Definition job_like (j j' : job) : Prop := same_but_height j j' /\ Forall2 op_like (j_operations j) (j_operations j').
Notation like := (Forall2 job_like).
Lemma op_like_refl o : op_like o o.
Proof. split; reflexivity. Qed.
Lemma like_length h h' : like h h' -> List.length h = List.length h'.
Proof. induction 1 as [|j j' h h' _ _ IH]; [reflexivity|]. cbn [List.length]. rewrite IH. reflexivity. Qed.
Lemma like_get h h' r : like h h' -> match hget h r, hget h' r with Some j, Some j' => job_like j j' | None, None => True | _, _ => False end.
Proof.
  intros H. revert r. induction H as [|j j' h h' J _ IH]; intros [|r]; cbn; [exact I|exact I|exact J|apply IH].
Qed.
Lemma like_set h h' r j j' : like h h' -> job_like j j' -> like (hset h r j) (hset h' r j').
Proof. intros H J. revert r. induction H as [|k k' h h' K H IH]; intros [|r]; cbn [hset]; constructor; auto. Qed.
Lemma like_app h h' j j' : like h h' -> job_like j j' -> like (h ++ [j]) (h' ++ [j']).
Proof. intros H J. apply Forall2_app; [exact H|constructor; [exact J|constructor]]. Qed.
Lemma updated_height j j' os os' t : same_but_height j j' -> same_but_height (updated (with_operations j os) t) (updated (with_operations j' os') t).
Proof.
  intros ((A1 & A2 & A3 & A4 & A5 & B1 & B2) & C & D & E). unfold same_but_height, alike_but_rapid, same_feeds.
  cbn [updated with_tool with_operations j_top j_tool_diameter j_rapid_height j_op_safe_height j_precision j_max_stepdown_count j_feed j_plunge_feed j_tool_number j_speed j_coolant].
  unfold new_diameter, new_feed, new_number, new_speed. cbn [with_operations j_tool_diameter j_feed j_tool_number j_speed]. rewrite A1, A2, A3, A4, A5, B1, B2, C, D, E. repeat split.
Qed.
Lemma with_ops j : with_operations j (j_operations j) = j.
Proof. destruct j; reflexivity. Qed.
Lemma update_like h h' r j j' t : like h h' -> job_like j j' -> like (fst (update_tool h r j t)) (fst (update_tool h' r j' t)) /\ snd (update_tool h r j t) = snd (update_tool h' r j' t).
Proof.
  intros H [J O]. pose proof (update_tool_spec h r j t) as U. pose proof (update_tool_spec h' r j' t) as U'. assert (LE := like_length _ _ H).
  destruct (update_tool h r j t) as [h1 r1], (update_tool h' r j' t) as [h1' r1']. cbn [fst snd].
  destruct J as (JA & JN & JS & JC). assert (J : same_but_height j j') by (repeat split; first [exact JN|exact JS|exact JC|apply JA]).
  assert (QN : forall t, new_number j t = new_number j' t) by (intros x; unfold new_number; rewrite JN; reflexivity).
  assert (QS : forall t, new_speed j t = new_speed j' t) by (intros x; unfold new_speed; rewrite JS; reflexivity).
  inversion U; subst; inversion U'; subst; 
    try (exfalso; match goal with x : tool |- _ => pose proof (QN x); pose proof (QS x) end; congruence);
    try (exfalso; match goal with x : tool, y : pynum |- _ => pose proof (QN x); pose proof (QS x); pose proof (eq_refl : option_map pyval (Some y) = Some (pyval y)) end; congruence).
  - split; [exact H|reflexivity].
  - split; [|exact LE]. apply like_app; [exact H|]. split; [apply updated_height, J|]. cbn [updated with_tool with_operations j_operations]. apply Forall2_app; [exact O|].
    constructor; [|constructor]. assert (n = n0) by (match goal with x : tool |- _ => pose proof (QN x) end; congruence). subst n0. split; cbn [op_commands]; [|reflexivity]. rewrite QS, JC. reflexivity.
  - split; [|exact LE]. apply like_app; [exact H|]. split; [apply updated_height, J|]. cbn [updated with_tool with_operations j_operations]. apply Forall2_app; [exact O|].
    constructor; [|constructor]. assert (s = s0) by (match goal with x : tool |- _ => pose proof (QS x) end; congruence). subst s0. split; cbn [op_commands]; [|reflexivity]. rewrite JC. reflexivity.
  - split; [|reflexivity]. apply like_set; [exact H|]. split; [|exact O]. rewrite <- (with_ops j), <- (with_ops j'). apply updated_height, J.
Qed.
Lemma fluent_like h h' r t name gen : like h h' -> rapid_settled gen ->
  like (fst (fluent_op h r t name gen)) (fst (fluent_op h' r t name gen)) /\ snd (fluent_op h r t name gen) = snd (fluent_op h' r t name gen).
Proof.
  intros H S. unfold fluent_op. pose proof (like_get h h' r H) as G. destruct (hget h r) as [j|], (hget h' r) as [j'|]; try contradiction; [|split; [exact H|reflexivity]].
  destruct (update_like h h' r j j' t H G) as [A B]. destruct (update_tool h r j t) as [h1 r1], (update_tool h' r j' t) as [h1' r1']. cbn [fst snd] in A, B. subst r1'.
  pose proof (like_get h1 h1' r1 A) as G1. destruct (hget h1 r1) as [k|], (hget h1' r1) as [k'|]; try contradiction; [|split; [exact A|reflexivity]].
  destruct G1 as [K O]. pose proof (S k k' (proj1 K)) as T. destruct (gen k) as [cs|x], (gen k') as [cs'|x']; cbn [same_but_travel] in T; try contradiction.
  - unfold add_operation, halloc. cbn [fst snd]. split; [|rewrite (like_length _ _ A); reflexivity]. apply like_app; [exact A|]. split; [exact K|]. cbn [with_operations j_operations]. apply Forall2_app; [exact O|].
    constructor; [|constructor]. exact T.
  - subst. split; [exact A|reflexivity].
Qed.
Lemma sessions_like h h' : high_sessions h h' -> like h h'.
Proof.
  induction 1 as [|h h' j j' _ IH S O O'|h h' r t name gen _ IH P]; [constructor| |].
  - apply like_app; [exact IH|]. split; [exact S|]. rewrite O, O'. constructor.
  - exact (proj1 (fluent_like h h' r t name gen IH P)).
Qed.
Lemma high_answers h h' r t name gen : high_sessions h h' -> rapid_settled gen -> snd (fluent_op h r t name gen) = snd (fluent_op h' r t name gen).
Proof. intros H P. apply fluent_like; [apply sessions_like, H|exact P]. Qed.
Lemma high_machine h h' r j : high_sessions h h' -> user_heap h -> user_heap h' -> hget h r = Some j -> exists j', hget h' r = Some j' /\ same_but_height j j' /\ (job_printable h j -> job_printable h' j' -> forall st, ms_ended st = false -> exists s bs s' bs', to_gcode h r = Ok s /\ parse_program s = Some bs /\ to_gcode h' r = Ok s' /\ parse_program s' = Some bs' /\ fst (run st bs) = fst (run st bs') /\ feed_moves (snd (run st bs)) = feed_moves (snd (run st bs')) /\ map no_z_event (snd (run st bs)) = map no_z_event (snd (run st bs'))).
Proof.
  intros H U U' G. pose proof (like_get h h' r (sessions_like _ _ H)) as L. rewrite G in L. destruct (hget h' r) as [j'|] eqn:G'; [|contradiction]. destruct L as [S O]. exists j'. split; [reflexivity|]. split; [exact S|].
  intros P P' st E. destruct (to_gcode_text h r j G P) as (s & Es & Eb), (to_gcode_text h' r j' G' P') as (s' & Es' & Eb'). exists s, (program_blocks j), s', (program_blocks j').
  repeat (split; [assumption|]). destruct (programs_same h r j h' r j' st U U' G G' (proj1 (proj2 (proj2 S))) (proj2 (proj2 (proj2 S))) O E) as (A & B & C). auto.
Qed.
Lemma travel_settled : (forall K TK WK os is_ oo io sd t, rapid_settled (profile_gen K TK WK os is_ oo io sd t)) /\ (forall K TK WK ws o sd t, rapid_settled (wire_profile_gen K TK WK ws o sd t)) /\ (forall K WK F E fuel ops avoids a, rapid_settled (pocket_gen K WK F E fuel ops avoids a)) /\ (forall os d, rapid_settled (drill_gen os d)) /\ (forall K C a os, rapid_settled (surface_gen K C a os)).
Proof.
  repeat split; intros; intros j j' A.
  - apply profile_gen_travel, A.
  - apply wire_profile_gen_travel, A.
  - apply pocket_gen_travel, A.
  - rewrite (drill_gen_heights os d j j' A). destruct (drill_gen os d j'); split; reflexivity.
  - apply surface_gen_travel, A.
Qed.
