From Verif Require Import Base.Str Base.Py Spec.Gcode Spec.Blocks Spec.Machine Spec.Program Spec.Alike Spec.Parts Spec.SpinMoves Model.Groups Model.Geometry Model.Plane Model.Job
  Model.Profile Model.PocketOp Model.Drill Model.Surface Proofs.ProgramP Proofs.ProgramThmP Proofs.JobP Proofs.HistoryP Proofs.AlikeP Proofs.PartsP.
Local Open Scope list_scope.

Definition turning (c : Z) : bool := existsb (Z.eqb c) [30; 40; 50; 70; 80; 90]%Z.
Definition still (w : word) : bool :=
  negb (Ascii.eqb (w_letter w) "S") && negb (Ascii.eqb (w_letter w) "M" && turning (code_of (w_val w))).
Definition calm (b : block) : block := filter still b.

Lemma codes_calm l b : Ascii.eqb l "S" = false -> Ascii.eqb l "M" = false -> codes l (calm b) = codes l b.
Proof.
  intros N M. induction b as [|w b IH]; [reflexivity|]. unfold calm in *. cbn [filter]. unfold still at 1.
  assert (C : forall x, codes l (w :: x) = (if Ascii.eqb (w_letter w) l then [code_of (w_val w)] else []) ++ codes l x) by reflexivity. rewrite C.
  destruct (Ascii.eqb (w_letter w) "S") eqn:E; cbn [negb andb].
  - rewrite IH. apply Ascii.eqb_eq in E. rewrite E, Ascii.eqb_sym, N. reflexivity.
  - destruct (Ascii.eqb (w_letter w) "M") eqn:E2; cbn [negb andb].
    + apply Ascii.eqb_eq in E2. rewrite E2, (Ascii.eqb_sym "M" l), M. destruct (turning _); cbn [negb]; [exact IH|]. rewrite C, E2, (Ascii.eqb_sym "M" l), M. exact IH.
    + rewrite C, IH. reflexivity.
Qed.
Lemma codes_m b : codes "M" (calm b) = filter (fun c => negb (turning c)) (codes "M" b).
Proof.
  induction b as [|w b IH]; [reflexivity|]. unfold calm in *. cbn [filter]. unfold still at 1.
  assert (C : forall x, codes "M" (w :: x) = (if Ascii.eqb (w_letter w) "M" then [code_of (w_val w)] else []) ++ codes "M" x) by reflexivity. rewrite C.
  destruct (Ascii.eqb (w_letter w) "S") eqn:E; cbn [negb andb].
  - apply Ascii.eqb_eq in E. rewrite E. exact IH.
  - destruct (Ascii.eqb (w_letter w) "M") eqn:E2; cbn [negb andb]; rewrite ?filter_app; cbn [filter app].
    + destruct (turning _); cbn [negb]; [exact IH|]. rewrite C, IH. reflexivity.
    + rewrite C. rewrite ?E2. exact IH.
Qed.
Lemma lookup_calm l b : Ascii.eqb l "S" = false -> Ascii.eqb l "M" = false -> lookup l (calm b) = lookup l b.
Proof.
  intros N M. induction b as [|[l' v] b IH]; [reflexivity|]. unfold calm in *. cbn [filter]. unfold still at 1. cbn [w_letter w_val].
  destruct (Ascii.eqb l' "S") eqn:E; cbn [negb andb].
  - rewrite IH. cbn [lookup]. apply Ascii.eqb_eq in E. subst l'. rewrite N. reflexivity.
  - destruct (Ascii.eqb l' "M") eqn:E2; cbn [negb andb].
    + apply Ascii.eqb_eq in E2. subst l'. destruct (turning _); cbn [negb lookup]; rewrite M; exact IH.
    + cbn [lookup]. rewrite IH. reflexivity.
Qed.
Lemma lookup_s b : lookup "S" (calm b) = None.
Proof.
  induction b as [|[l v] b IH]; [reflexivity|]. unfold calm in *. cbn [filter]. unfold still at 1. cbn [w_letter w_val].
  destruct (Ascii.eqb l "S") eqn:E; cbn [negb andb]; [exact IH|]. destruct (negb _); [|exact IH]. cbn [lookup]. rewrite Ascii.eqb_sym, E. exact IH.
Qed.
Lemma member_rest c cs : turning c = false -> member c (filter (fun c => negb (turning c)) cs) = member c cs.
Proof.
  intros T. induction cs as [|x cs IH]; [reflexivity|]. cbn [filter]. unfold member in *. cbn [existsb]. destruct (turning x) eqn:E; cbn [negb existsb]; rewrite IH; [|reflexivity].
  destruct (Z.eqb c x) eqn:C; [|reflexivity]. apply Z.eqb_eq in C. congruence.
Qed.
Lemma member_gone c cs : turning c = true -> member c (filter (fun c => negb (turning c)) cs) = false.
Proof.
  intros T. induction cs as [|x cs IH]; [reflexivity|]. cbn [filter]. unfold member in *. destruct (turning x) eqn:E; cbn [negb existsb]; rewrite IH; [reflexivity|].
  destruct (Z.eqb c x) eqn:C; [|reflexivity]. apply Z.eqb_eq in C. congruence.
Qed.
Lemma pick_gone cs : pick [30; 40; 50]%Z (filter (fun c => negb (turning c)) cs) = None.
Proof.
  induction cs as [|x cs IH]; [reflexivity|]. cbn [filter]. unfold pick in *. destruct (turning x) eqn:E; cbn [negb]; [exact IH|]. cbn [find]. rewrite IH.
  unfold turning in E. cbn [existsb] in E. apply Bool.orb_false_iff in E. destruct E as [A E]. apply Bool.orb_false_iff in E. destruct E as [B E]. apply Bool.orb_false_iff in E. destruct E as [C E].
  cbn [existsb]. rewrite A, B, C. reflexivity.
Qed.

Lemma modal_calm st b : exec_modal (no_spin st) (calm b) = no_spin (exec_modal st b).
Proof.
  unfold exec_modal. rewrite codes_m, lookup_s, !codes_calm, !lookup_calm, pick_gone, (member_rest 60), (member_gone 90), (member_gone 70), (member_gone 80) by reflexivity.
  unfold no_spin. cbn [ms_x ms_y ms_z ms_spindle ms_speed ms_mist ms_flood ms_selected ms_tool ms_length ms_plane ms_units ms_radius ms_wcs ms_path ms_dist ms_feedmode ms_feed ms_motion ms_ended first_some].
  destruct (member 60 (codes "M" b)); reflexivity.
Qed.
Lemma step_calm st b : exec_motion_step (no_spin st) (calm b) = (no_spin (fst (exec_motion_step st b)), map no_spin_event (snd (exec_motion_step st b))).
Proof.
  unfold exec_motion_step, has_axis. rewrite !codes_calm, !lookup_calm by reflexivity. cbn [no_spin ms_motion ms_dist ms_x ms_y ms_z].
  destruct (if is_home (codes "G" b) then _ else _); reflexivity.
Qed.
Lemma block_calm st b : exec_block (no_spin st) (calm b) = (no_spin (fst (exec_block st b)), map no_spin_event (snd (exec_block st b))).
Proof.
  unfold exec_block. change (ms_ended (no_spin st)) with (ms_ended st). destruct (ms_ended st); [reflexivity|]. rewrite codes_m, !codes_calm, (member_rest 20), (member_rest 300) by reflexivity. rewrite modal_calm.
  set (s := exec_modal st b). clearbody s. destruct (is_home (codes "G" b)).
  - change (set_pos (no_spin s) None None None) with (no_spin (set_pos s None None None)). rewrite step_calm. destruct (exec_motion_step (set_pos s None None None) b) as [s1 es]. cbn [fst snd].
    destruct (member 20 (codes "M" b) || member 300 (codes "M" b)); reflexivity.
  - rewrite step_calm. destruct (exec_motion_step s b) as [s1 es]. cbn [fst snd]. destruct (member 20 (codes "M" b) || member 300 (codes "M" b)); reflexivity.
Qed.
Lemma run_calm bs : forall st, run (no_spin st) (map calm bs) = (no_spin (fst (run st bs)), map no_spin_event (snd (run st bs))).
Proof.
  induction bs as [|b bs IH]; intros st; [reflexivity|]. cbn [map run]. rewrite block_calm. destruct (exec_block st b) as [s1 e1]. cbn [fst snd]. rewrite IH. destruct (run s1 bs) as [s2 e2]. cbn [fst snd]. rewrite map_app. reflexivity.
Qed.

(** ** The blocks of a command without spindle and coolant *)
Definition idle (bs : list block) : list block := filter busy (map calm bs).
Definition task_command (t : task) : command := match t with Move m => Motion m | Change n => Config (CToolChange n None None) | Safe => Config CSafety end.
Lemma idle_app a b : idle (a ++ b) = idle a ++ idle b.
Proof. unfold idle. rewrite map_app, filter_app. reflexivity. Qed.
Lemma calm_start s c : calm (start_block s c) = [].
Proof. destruct s as [s|], c as [[]|]; reflexivity. Qed.
Lemma calm_stop c : calm (stop_block c) = [].
Proof. destruct c as [[]|]; reflexivity. Qed.
Lemma idle_command c : idle (command_blocks c) = idle (flat_map command_blocks (map task_command (tasks_of c))).
Proof.
  destruct c as [m|c]; [cbn [tasks_of map task_command flat_map]; rewrite app_nil_r; reflexivity|].
  destruct c; cbn [tasks_of map task_command flat_map command_blocks]; rewrite ?app_nil_r; unfold idle; try reflexivity; cbn [config_blocks map]; rewrite ?calm_start, ?calm_stop; reflexivity.
Qed.
Lemma idle_commands cs : idle (flat_map command_blocks cs) = idle (flat_map command_blocks (map task_command (flat_map tasks_of cs))).
Proof.
  induction cs as [|c cs IH]; [reflexivity|]. cbn [flat_map]. rewrite idle_app, IH, idle_command, <- idle_app, <- flat_map_app, <- map_app. reflexivity.
Qed.
Lemma idle_ops os : idle (ops_blocks os) = idle (flat_map command_blocks (flat_map op_commands os)).
Proof.
  induction os as [|o [|o2 os] IH]; [reflexivity| |].
  - cbn [ops_blocks flat_map]. rewrite app_nil_r. reflexivity.
  - transitivity (idle (flat_map command_blocks (op_commands o)) ++ idle (ops_blocks (o2 :: os))).
    + change (ops_blocks (o :: o2 :: os)) with (op_blocks o ++ [[]; []] ++ ops_blocks (o2 :: os)). rewrite !idle_app. reflexivity.
    + etransitivity; [exact (f_equal _ IH)|]. rewrite <- idle_app, <- flat_map_app. reflexivity.
Qed.
Lemma tasks_run j j' st : tasks j = tasks j' -> same_cuts (run st (program_blocks j)) (run st (program_blocks j')).
Proof.
  intros T. assert (R : run (no_spin st) (map calm (program_blocks j)) = run (no_spin st) (map calm (program_blocks j'))).
  { rewrite (run_busy (map calm (program_blocks j))), (run_busy (map calm (program_blocks j'))). f_equal. fold (idle (program_blocks j)) (idle (program_blocks j')).
    unfold program_blocks. rewrite !idle_app, !idle_ops, !(idle_commands (flat_map op_commands _)). unfold tasks in T. rewrite T. unfold header_blocks, footer_blocks. rewrite !idle_app.
    unfold idle. cbn [map]. rewrite !calm_start, !calm_stop. reflexivity. }
  rewrite !run_calm in R. split; [exact (f_equal fst R)|exact (f_equal snd R)].
Qed.
Lemma tasks_machine h j h' j' st : tasks j = tasks j' -> job_printable h j -> job_printable h' j' ->
  exists s bs s' bs', job_to_gcode h j = Ok s /\ parse_program s = Some bs /\ job_to_gcode h' j' = Ok s' /\ parse_program s' = Some bs' /\ same_cuts (run st bs) (run st bs').
Proof.
  intros S P P'. destruct (text_job _ _ P) as (s & E & B), (text_job _ _ P') as (s' & E' & B'). exists s, (program_blocks j), s', (program_blocks j').
  repeat (split; [assumption|]). apply tasks_run, S.
Qed.

(** ** Calls *)
Lemma tasks_with j os : tasks (with_operations j os) = flat_map tasks_of (flat_map op_commands os).
Proof. reflexivity. Qed.
Lemma tasks_more j o : flat_map tasks_of (flat_map op_commands (j_operations j ++ [o])) = tasks j ++ flat_map tasks_of (op_commands o).
Proof. unfold tasks. rewrite !flat_map_app. cbn [flat_map]. rewrite app_nil_r. reflexivity. Qed.
Definition twin (j j' : job) : Prop := same_setup j j' /\ tasks j = tasks j'.
Lemma updated_setup j j' os os' t t' : same_setup j j' -> unspun_tool t = unspun_tool t' -> same_setup (updated (with_operations j os) t) (updated (with_operations j' os') t').
Proof.
  intros ((A1 & A2 & A3 & A4 & A5 & A6) & (B1 & B2) & C) T.
  assert (D : t_diameter t = t_diameter t') by exact (f_equal t_diameter T). assert (N : t_number t = t_number t') by exact (f_equal t_number T). assert (F : t_feed t = t_feed t') by exact (f_equal t_feed T).
  unfold same_setup, alike, same_feeds. cbn [updated with_tool with_operations j_top j_tool_diameter j_rapid_height j_op_safe_height j_precision j_max_stepdown_count j_feed j_plunge_feed j_tool_number].
  unfold new_diameter, new_feed, new_number. cbn [with_operations j_tool_diameter j_feed j_tool_number]. rewrite A1, A2, A3, A4, A5, A6, B1, B2, C, D, N, F. repeat split.
Qed.
Lemma with_same j : with_operations j (j_operations j) = j.
Proof. destruct j; reflexivity. Qed.
Lemma update_twin h r j h' r' j' t t' h1 r1 h1' r1' : hget h r = Some j -> hget h' r' = Some j' -> twin j j' -> option_map unspun_tool t = option_map unspun_tool t' ->
  update_spec h r j t (h1, r1) -> update_spec h' r' j' t' (h1', r1') -> exists k k', hget h1 r1 = Some k /\ hget h1' r1' = Some k' /\ twin k k'.
Proof.
  intros G G' [S T] E U U'. destruct t as [t|], t' as [t'|]; try discriminate E.
  2:{ inversion U; subst. inversion U'; subst. exists j, j'. repeat split; try assumption; apply S. }
  assert (X : unspun_tool t = unspun_tool t') by (cbn in E; congruence). clear E.
  assert (Q : new_number j t = new_number j' t'). { unfold new_number. rewrite (f_equal t_number X : t_number t = t_number t'), (proj2 (proj2 S)). reflexivity. }
  assert (Q2 : j_tool_number j = j_tool_number j') by apply S.
  assert (Z : (exists n, new_number j t = Some n /\ Some n <> j_tool_number j /\ hget h1 r1 = Some (updated (with_operations j (j_operations j ++ [Op (List.length h) "Tool Change" [Config (CToolChange n (new_speed j t) (j_coolant j))]])) t)) \/
     (new_number j t = j_tool_number j /\ exists os, hget h1 r1 = Some (updated (with_operations j os) t) /\ flat_map tasks_of (flat_map op_commands os) = tasks j)).
  { inversion U; subst.
    - left. exists n. split; [assumption|]. split; [assumption|]. apply hget_new.
    - right. split; [assumption|]. eexists. split; [apply hget_new|]. rewrite tasks_more. apply app_nil_r.
    - right. split; [assumption|]. exists (j_operations j). rewrite with_same. split; [eapply hget_hset_same; eassumption|reflexivity]. }
  assert (Z' : (exists n, new_number j' t' = Some n /\ Some n <> j_tool_number j' /\ hget h1' r1' = Some (updated (with_operations j' (j_operations j' ++ [Op (List.length h') "Tool Change" [Config (CToolChange n (new_speed j' t') (j_coolant j'))]])) t')) \/
     (new_number j' t' = j_tool_number j' /\ exists os, hget h1' r1' = Some (updated (with_operations j' os) t') /\ flat_map tasks_of (flat_map op_commands os) = tasks j')).
  { inversion U'; subst.
    - left. exists n. split; [assumption|]. split; [assumption|]. apply hget_new.
    - right. split; [assumption|]. eexists. split; [apply hget_new|]. rewrite tasks_more. apply app_nil_r.
    - right. split; [assumption|]. exists (j_operations j'). rewrite with_same. split; [eapply hget_hset_same; eassumption|reflexivity]. }
  destruct Z as [(n & N1 & N2 & K)|(N & os & K & O)], Z' as [(n' & N1' & N2' & K')|(N' & os' & K' & O')]; try congruence.
  - assert (n = n') by congruence. subst n'. eexists _, _. split; [exact K|]. split; [exact K'|]. split; [apply updated_setup; assumption|].
    transitivity (tasks j ++ [Change n]); [exact (tasks_more j _)|]. rewrite T. symmetry. exact (tasks_more j' _).
  - eexists _, _. split; [exact K|]. split; [exact K'|]. split; [apply updated_setup; assumption|].
    transitivity (tasks j); [exact O|]. rewrite T. symmetry. exact O'.
Qed.
(** One call: both are answered, with twins again, or both with the same error. *)
Lemma fluent_twin gen h r j h' r' j' t t' name name' : settled gen -> hget h r = Some j -> hget h' r' = Some j' -> twin j j' -> option_map unspun_tool t = option_map unspun_tool t' ->
  match fluent_op h r t name gen, fluent_op h' r' t' name' gen with
  | (h1, Ok r1), (h1', Ok r1') => exists k k', hget h1 r1 = Some k /\ hget h1' r1' = Some k' /\ twin k k'
  | (_, Err x), (_, Err y) => x = y
  | _, _ => False
  end.
Proof.
  intros S G G' T E. pose proof (fluent_op_spec h r j t name gen G) as F. pose proof (fluent_op_spec h' r' j' t' name' gen G') as F'.
  destruct (fluent_op h r t name gen) as [h1 a], (fluent_op h' r' t' name' gen) as [h1' a'].
  inversion F as [h2 r2 j2 x U K L Q|h2 r2 j2 cs U K L Q]; subst; inversion F' as [h3 r3 j3 y U' K' L' Q'|h3 r3 j3 cs' U' K' L' Q']; subst;
    destruct (update_twin _ _ _ _ _ _ _ _ _ _ _ _ G G' T E U U') as (k & k' & A & A' & [B C]);
    (assert (j2 = k) by congruence); (assert (j3 = k') by congruence); subst j2 j3; pose proof (S k k' (proj1 B) (proj1 (proj2 B))) as D; rewrite L, L' in D; try congruence.
  assert (cs = cs') by congruence. subst cs'. eexists _, _. split; [apply hget_new|]. split; [apply hget_new|]. split; [exact B|].
  rewrite !tasks_with, !tasks_more. cbn [op_commands]. rewrite C. reflexivity.
Qed.
Lemma chains_twin h r h' r' : chains h r h' r' -> exists j j', hget h r = Some j /\ hget h' r' = Some j' /\ twin j j'.
Proof.
  induction 1 as [h h' j j' S O O'|h r h' r' t t' name name' gen h1 r1 h1' r1' _ (j & j' & G & G' & T) S E F F'].
  - exists j, j'. split; [apply hget_new|]. split; [apply hget_new|]. split; [exact S|]. unfold tasks. rewrite O, O'. reflexivity.
  - pose proof (fluent_twin gen h r j h' r' j' t t' name name' S G G' T E) as X. rewrite F, F' in X. exact X.
Qed.
Lemma chains_machine h r h' r' : chains h r h' r' -> exists j j', hget h r = Some j /\ hget h' r' = Some j' /\
  (job_printable h j -> job_printable h' j' -> forall st, exists s bs s' bs', to_gcode h r = Ok s /\ parse_program s = Some bs /\
     to_gcode h' r' = Ok s' /\ parse_program s' = Some bs' /\ same_cuts (run st bs) (run st bs')).
Proof.
  intros C. destruct (chains_twin _ _ _ _ C) as (j & j' & G & G' & S & T). exists j, j'. split; [exact G|]. split; [exact G'|]. intros P P' st. unfold to_gcode. rewrite G, G'.
  exact (tasks_machine h j h' j' st T P P').
Qed.
Lemma chains_answers h r h' r' t t' name name' gen : chains h r h' r' -> settled gen -> option_map unspun_tool t = option_map unspun_tool t' ->
  match fluent_op h r t name gen, fluent_op h' r' t' name' gen with
  | (h1, Ok r1), (h1', Ok r1') => chains h1 r1 h1' r1'
  | (_, Err x), (_, Err y) => x = y
  | _, _ => False
  end.
Proof.
  intros C S E. destruct (chains_twin _ _ _ _ C) as (j & j' & G & G' & T). pose proof (fluent_twin gen h r j h' r' j' t t' name name' S G G' T E) as X.
  destruct (fluent_op h r t name gen) as [h1 [r1|x]] eqn:F, (fluent_op h' r' t' name' gen) as [h1' [r1'|y]] eqn:F'; try exact X.
  exact (chains_call h r h' r' t t' name name' gen h1 r1 h1' r1' C S E F F').
Qed.
Lemma generators_settle : (forall K TK WK os is_ oo io sd t, settled (profile_gen K TK WK os is_ oo io sd t)) /\
  (forall K TK WK ws o sd t, settled (wire_profile_gen K TK WK ws o sd t)) /\
  (forall K WK F E fuel ops avoids a, settled (pocket_gen K WK F E fuel ops avoids a)) /\
  (forall os d, settled (drill_gen os d)) /\
  (forall K C a os, settled (surface_gen K C a os)).
Proof.
  repeat split; intros.
  - apply profile_settled.
  - apply wire_profile_settled.
  - apply pocket_settled.
  - apply drill_settled.
  - intros j j' A _. exact (surface_settled K C a os j j' A).
Qed.
