From Verif Require Import Base.Str Base.Py Spec.Gcode Spec.Blocks Spec.Machine Spec.Program Spec.Moves Spec.Jobs Spec.Alike Spec.Feeds Spec.Shift Spec.ShiftMoves
  Model.Groups Model.Geometry Model.Plane Model.Command Model.Job
  Proofs.MachineP Proofs.ProgramP Proofs.ProgramThmP Proofs.JobP Proofs.HistoryP Proofs.FeedP Proofs.ProgramThmP.
Local Open Scope Qc_scope.
Local Open Scope list_scope.

(** ** Rounding *)
Lemma floor_step x m : qfloor (x + qz m) = (qfloor x + m)%Z.
Proof.
  destruct (qfloor_spec x) as [A B], (qfloor_spec (x + qz m)) as [C D].
  assert (qz (qfloor (x + qz m)) < qz (qfloor x + m + 1)) by (rewrite !qz_plus in *; qlra).
  assert (qz (qfloor x + m) < qz (qfloor (x + qz m) + 1)) by (rewrite !qz_plus in *; qlra).
  rewrite qz_lt in *. lia.
Qed.
Lemma round_even x n : round_he (x + qz (2 * n)) = (round_he x + 2 * n)%Z.
Proof.
  unfold round_he. cbv zeta. rewrite floor_step. replace (x + qz (2 * n) - qz (qfloor x + 2 * n)) with (x - qz (qfloor x)) by (rewrite qz_plus; ring).
  assert (E : Z.even (qfloor x + 2 * n) = Z.even (qfloor x)) by (rewrite Z.even_add, Z.even_mul; destruct (Z.even (qfloor x)); reflexivity).
  rewrite E. destruct (Qccompare _ _); [destruct (Z.even (qfloor x))| |]; lia.
Qed.
Lemma rounded_even x d : even_step d -> rounded 3 (x + d) = rounded 3 x + d.
Proof.
  intros (n & ->). unfold rounded. change (qz (pow10 3)) with (qz 1000).
  replace ((x + qz n * qq 1 500) * qz 1000) with (x * qz 1000 + qz (2 * n)) by (rewrite qz_mult; assert (qq 1 500 * qz 1000 = qz 2) by (apply Qc_is_canon; reflexivity); rewrite <- H; ring).
  rewrite round_even, qz_plus, qz_mult. set (u := qz (round_he _)). set (v := qz n).
  assert (Z1 : qz 1000 <> 0) by (intros X; discriminate X).
  assert (E : qz 2 / qz 1000 = qq 1 500) by (apply Qc_is_canon; reflexivity). rewrite <- E. field. exact Z1.
Qed.
Lemma rounded_off x d : qabs (rounded 3 (x + d) - (rounded 3 x + d)) <= qq 1 1000.
Proof.
  pose proof (rounded3_near (x + d)) as A. pose proof (rounded3_near x) as B. unfold half_unit in *.
  assert (E : qq 1 1000 = qq 1 2000 + qq 1 2000) by (apply Qc_is_canon; reflexivity). rewrite E. set (h := qq 1 2000) in *. clearbody h. clear E.
  set (a := rounded 3 (x + d)) in *. set (b := rounded 3 x) in *. clearbody a b.
  destruct (qabs_spec (x + d - a)) as [[E1 F1]|[E1 F1]]; rewrite E1 in A; destruct (qabs_spec (x - b)) as [[E2 F2]|[E2 F2]]; rewrite E2 in B;
    destruct (qabs_spec (a - (b + d))) as [[E3 F3]|[E3 F3]]; rewrite E3; clear E1 E2 E3; qlra.
Qed.

(** ** States and moves *)
Definition at_xy (st : mstate) (x y : option Qc) : mstate :=
  MS x y (ms_z st) (ms_spindle st) (ms_speed st) (ms_mist st) (ms_flood st)
     (ms_selected st) (ms_tool st) (ms_length st) (ms_plane st) (ms_units st) (ms_radius st)
     (ms_wcs st) (ms_path st) (ms_dist st) (ms_feedmode st) (ms_feed st) (ms_motion st) (ms_ended st).
Lemma placed_at s s' : no_xy s = no_xy s' -> s' = at_xy s (ms_x s') (ms_y s').
Proof. intros E. transitivity (at_xy (no_xy s') (ms_x s') (ms_y s')); [destruct s'; reflexivity|]. rewrite <- E. reflexivity. Qed.

Section Moving.
Context (e : Qc) (d : pt).
Context (HX : forall x, qabs (rounded 3 (x + fst d) - (rounded 3 x + fst d)) <= e) (HY : forall y, qabs (rounded 3 (y + snd d) - (rounded 3 y + snd d)) <= e).

Lemma off_word D w a b : (forall x, qabs (rounded 3 (x + D) - (rounded 3 x + D)) <= e) -> off e D a b ->
  off e D (first_some (option_map (rounded 3) w) a) (first_some (option_map (rounded 3) (option_map (fun x => x + D) w)) b).
Proof. intros H O. destruct w as [w|]; cbn [option_map first_some]; [apply H|exact O]. Qed.
Lemma end_moved m : m_end (move_motion d m) = move_avec d (m_end m).
Proof. destruct m; reflexivity. Qed.
Lemma feed_kept m : m_feed (move_motion d m) = m_feed m.
Proof. destruct m; reflexivity. Qed.
Lemma kind_kept m : m_kind (move_motion d m) = m_kind m.
Proof. destruct m as [| |[]]; reflexivity. Qed.
Lemma before_moved s s' m : moved_state e d s s' -> moved_state e d (before_motion s m) (before_motion s' (move_motion d m)).
Proof. intros (N & X & Y). unfold before_motion. rewrite feed_kept. split; [|split; [exact X|exact Y]]. rewrite (placed_at _ _ N). reflexivity. Qed.
Lemma after_moved s s' m : moved_state e d s s' -> moved_state e d (after_motion s m) (after_motion s' (move_motion d m)).
Proof.
  intros (N & X & Y). unfold after_motion, before_motion. rewrite feed_kept, kind_kept, end_moved. cbn [move_avec ax ay az]. split; [|split].
  - rewrite (placed_at _ _ N). reflexivity.
  - cbn [set_motion set_pos ms_x]. apply off_word; assumption.
  - cbn [set_motion set_pos ms_y]. apply off_word; assumption.
Qed.
Lemma centre_moved D c s : centre_offset (option_map (fun x => x + D) c) (option_map (fun x => x + D) s) = centre_offset c s.
Proof. destruct c as [c|], s as [s|]; cbn; [ring|reflexivity..]. Qed.
Lemma centres_moved m l : l = "I"%char \/ l = "J"%char \/ l = "K"%char -> lookup l (motion_block (move_motion d m)) = lookup l (motion_block m).
Proof.
  intros L. destruct m as [k s en a|k s en a f|cw s en c mid a f]; cbn [move_motion motion_block].
  - destruct en as [[?|] [?|] [?|]]; destruct L as [->|[->| ->]]; reflexivity.
  - destruct en as [[?|] [?|] [?|]], f as [?|]; destruct L as [->|[->| ->]]; reflexivity.
  - cbn [move_avec ax ay az]. rewrite !centre_moved. destruct en as [[?|] [?|] [?|]], f as [?|], cw; destruct L as [->|[->| ->]]; reflexivity.
Qed.

Definition moved_run (a b : mstate * list event) : Prop := moved_state e d (fst a) (fst b) /\ Forall2 (moved_event e d) (snd a) (snd b).
Lemma moved_run_app s s' a a' b b' : moved_run (run s a) (run s' a') -> moved_run (run (fst (run s a)) b) (run (fst (run s' a')) b') -> moved_run (run s (a ++ b)) (run s' (a' ++ b')).
Proof. intros [A1 A2] [B1 B2]. rewrite !run_app. split; cbn [fst snd]; [exact B1|]. apply Forall2_app; assumption. Qed.
Lemma motion_moved s s' m : moved_state e d s s' -> ready s -> ready s' -> moved_run (run s [motion_block m]) (run s' [motion_block (move_motion d m)]).
Proof.
  intros M Y Y'. rewrite !run_cons, !exec_motion by first [apply Y|apply Y']. cbn [run fst snd app]. split; cbn [fst snd]; [apply after_moved, M|].
  constructor; [|constructor]. split; cbn [ev_kind ev_from ev_to ev_i ev_j ev_k]; [symmetry; apply kind_kept|].
  split; [apply before_moved, M|]. split; [apply after_moved, M|]. rewrite !centres_moved by tauto. auto.
Qed.

(** The same words, none of which names an axis of the plane. *)
Lemma step_moved s s' b : lookup "X" b = None -> lookup "Y" b = None -> moved_state e d s s' -> moved_state e d (fst (exec_motion_step s b)) (fst (exec_motion_step s' b)).
Proof.
  intros LX LY (N & X & Y). rewrite (placed_at _ _ N) in *. unfold exec_motion_step. rewrite LX, LY. cbn [at_xy ms_motion ms_dist ms_x ms_y ms_z] in *.
  assert (T : forall t c, target t c None = c) by (intros [[|t|t]|] c; try reflexivity; repeat (destruct t; try reflexivity)).
  destruct (if is_home (codes "G" b) then _ else _); cbn [fst]; rewrite ?T; repeat split; cbn [set_motion set_pos ms_x ms_y]; assumption.
Qed.
Lemma block_moved s s' b : lookup "X" b = None -> lookup "Y" b = None -> moved_state e d s s' -> moved_state e d (fst (exec_block s b)) (fst (exec_block s' b)).
Proof.
  intros LX LY E. unfold exec_block. assert (D : ms_ended s = ms_ended s') by exact (f_equal ms_ended (proj1 E)). rewrite D. destruct (ms_ended s'); [exact E|].
  assert (M : moved_state e d (exec_modal s b) (exec_modal s' b)). { destruct E as (N & X & Y). split; [|split; [exact X|exact Y]]. rewrite (placed_at _ _ N). reflexivity. }
  cbv zeta. set (t := exec_modal s b) in *. set (t' := exec_modal s' b) in *. clearbody t t'. clear E D s s'.
  assert (K : forall u u', moved_state e d u u' -> moved_state e d (fst (let '(st, evs) := exec_motion_step u b in (if member 20 (codes "M" b) || member 300 (codes "M" b) then set_ended st else st, evs)))
     (fst (let '(st, evs) := exec_motion_step u' b in (if member 20 (codes "M" b) || member 300 (codes "M" b) then set_ended st else st, evs)))).
  { intros u u' E. pose proof (step_moved u u' b LX LY E) as A. destruct (exec_motion_step u b) as [v es], (exec_motion_step u' b) as [v' es']. cbn [fst] in A |- *.
    destruct (member 20 (codes "M" b) || member 300 (codes "M" b)); [|exact A]. destruct A as (N & X & Y). split; [|split; [exact X|exact Y]]. rewrite (placed_at _ _ N). reflexivity. }
  destruct (is_home (codes "G" b)); apply K; [|exact M]. destruct M as (N & X & Y). split; [|split; exact I]. rewrite (placed_at _ _ N). reflexivity.
Qed.
Lemma blocks_moved bs : Forall (fun b => lookup "X" b = None /\ lookup "Y" b = None) bs -> forall s s', moved_state e d s s' -> moved_state e d (fst (run s bs)) (fst (run s' bs)).
Proof. induction 1 as [|b bs [LX LY] _ IH]; intros s s' E; [exact E|]. rewrite !run_cons. cbn [fst]. apply IH, block_moved; assumption. Qed.
Lemma config_words co c : wf_command co (Config c) -> Forall (fun b => lookup "X" b = None /\ lookup "Y" b = None) (config_blocks c).
Proof.
  intros W. destruct c as [[s|] [[]|]| | |n [s|] [[]|]]; try destruct W; cbn [config_blocks]; repeat constructor.
Qed.
Lemma command_moved co c s s' : wf_command co c -> moved_state e d s s' -> ready s -> ready s' ->
  moved_run (run s (command_blocks c)) (run s' (command_blocks (move_command d c))).
Proof.
  intros W M Y Y'. destruct c as [m|c]; [apply motion_moved; assumption|]. cbn [move_command command_blocks].
  destruct (makes_command co (Config c) s W Y) as (_ & T). destruct (makes_command co (Config c) s' W Y') as (_ & T').
  pose proof (blocks_moved _ (config_words co c W) s s' M) as B. split; [exact B|].
  cbn [command_blocks command_moves] in T, T'. inversion T. inversion T'. constructor.
Qed.
Lemma wf_moved co c : wf_command co c -> wf_command co (move_command d c).
Proof. destruct c; exact (fun x => x). Qed.
Lemma commands_moved co cs : forall s s', Forall (wf_command co) cs -> moved_state e d s s' -> ready s -> ready s' ->
  moved_run (run s (flat_map command_blocks cs)) (run s' (flat_map command_blocks (map (move_command d) cs))).
Proof.
  induction cs as [|c cs IH]; intros s s' W M Y Y'; [split; [exact M|constructor]|]. inversion W as [|? ? W1 W2]; subst. cbn [map flat_map].
  pose proof (command_moved co c s s' W1 M Y Y') as A. apply moved_run_app; [exact A|]. apply IH; [exact W2|apply A| |].
  - apply (makes_command co c s W1 Y).
  - apply (makes_command co _ s' (wf_moved co c W1) Y').
Qed.
Definition move_operation (o : operation) : operation := Op (op_job o) (op_name o) (map (move_command d) (op_commands o)).
Lemma wf_moved_op co o : Forall (wf_command co) (op_commands o) -> Forall (wf_command co) (op_commands (move_operation o)).
Proof. intros W. cbn [move_operation op_commands]. apply Forall_map. eapply Forall_impl; [|exact W]. intros c. apply wf_moved. Qed.
Lemma ops_moved co os : forall s s', Forall (fun o => Forall (wf_command co) (op_commands o)) os -> moved_state e d s s' -> ready s -> ready s' ->
  moved_run (run s (ops_blocks os)) (run s' (ops_blocks (map move_operation os))).
Proof.
  induction os as [|o os IH]; intros s s' W M Y Y'; [cbn [map ops_blocks]; rewrite !run_blank; split; [exact M|constructor]|].
  inversion W as [|? ? W1 W2]; subst. pose proof (commands_moved co _ s s' W1 M Y Y') as A.
  destruct (makes_commands co _ s W1 Y) as (Y1 & _). destruct (makes_commands co _ s' (wf_moved_op co o W1) Y') as (Y1' & _).
  destruct os as [|o2 os]; [cbn [map ops_blocks]; unfold op_blocks; rewrite !run_blank; exact A|].
  cbn [map] in *. change (ops_blocks (o :: o2 :: os)) with ([] :: flat_map command_blocks (op_commands o) ++ [] :: [] :: ops_blocks (o2 :: os)).
  change (ops_blocks (move_operation o :: move_operation o2 :: map move_operation os)) with ([] :: flat_map command_blocks (map (move_command d) (op_commands o)) ++ [] :: [] :: ops_blocks (move_operation o2 :: map move_operation os)).
  rewrite !run_blank. apply moved_run_app; [exact A|]. rewrite !run_blank. apply (IH _ _ W2); [apply A|exact Y1|exact Y1'].
Qed.
Definition move_job (j : job) : job := with_operations j (map move_operation (j_operations j)).
Lemma wf_moved_ops co os : Forall (fun o => Forall (wf_command co) (op_commands o)) os -> Forall (fun o => Forall (wf_command co) (op_commands o)) (map move_operation os).
Proof. intros W. apply Forall_map. eapply Forall_impl; [|exact W]. intros o. apply wf_moved_op. Qed.
Lemma program_moved j st : wf_job j -> ms_ended st = false ->
  fst (run st (program_blocks j)) = fst (run st (program_blocks (move_job j))) /\ Forall2 (moved_event e d) (snd (run st (program_blocks j))) (snd (run st (program_blocks (move_job j)))).
Proof.
  intros W E. unfold wf_job in W. unfold program_blocks. change (header_blocks (move_job j)) with (header_blocks j). change (footer_blocks (move_job j)) with (footer_blocks j).
  cbn [move_job with_operations j_operations]. rewrite !(run_app st), !run_header by exact E. cbn [fst snd app]. rewrite !run_app. cbn [fst snd].
  set (s := after_start (after_safety st) (j_speed j) (j_coolant j)). assert (Y : ready s) by apply ready_header.
  destruct (makes_ops _ _ s W Y) as [R _]. destruct (makes_ops _ _ s (wf_moved_ops _ _ W) Y) as [R' _].
  assert (M : moved_state e d s s) by repeat split.
  destruct (ops_moved _ _ s s W M Y Y) as [(N & X) B].
  rewrite !run_footer by first [apply R|apply R']. cbn [fst snd]. rewrite !app_nil_r. split; [|exact B]. rewrite (placed_at _ _ N). reflexivity.
Qed.
End Moving.

(** ** Sessions *)
Section Sessions.
Context (d : pt).
Notation mj := (move_job d).
Notation M := (map (move_job d)).
Lemma hget_M h r : hget (M h) r = option_map mj (hget h r).
Proof. unfold hget. rewrite nth_error_map. reflexivity. Qed.
Lemma hset_M h : forall r j, M (hset h r j) = hset (M h) r (mj j).
Proof. induction h as [|x h IH]; intros [|r] j; try reflexivity. cbn [hset map]. rewrite IH. reflexivity. Qed.
Lemma add_M h j name cs : add_operation (M h) (mj j) name (map (move_command d) cs) = (M (fst (add_operation h j name cs)), snd (add_operation h j name cs)).
Proof.
  unfold add_operation, halloc. cbn [fst snd]. rewrite !map_length, map_app. cbn [map]. f_equal. f_equal. apply (f_equal (fun x => [x])).
  transitivity (with_operations (mj j) (map (move_operation d) (j_operations j ++ [Op (List.length h) name cs]))); [|reflexivity]. f_equal. rewrite map_app. reflexivity.
Qed.
Lemma update_M h r j t : update_tool (M h) r (mj j) t = (M (fst (update_tool h r j t)), snd (update_tool h r j t)).
Proof.
  destruct t as [t|]; [|reflexivity]. cbn [update_tool].
  change (j_tool_diameter (mj j)) with (j_tool_diameter j). change (j_tool_number (mj j)) with (j_tool_number j). change (j_speed (mj j)) with (j_speed j). change (j_coolant (mj j)) with (j_coolant j). change (j_feed (mj j)) with (j_feed j).
  set (w := match t_diameter t with None => _ | _ => _ end). set (n := match t_number t with None => _ | _ => _ end). set (s := match t_speed t with None => _ | _ => _ end). set (f := match t_feed t with None => _ | Some f => f end). cbn zeta.
  assert (K : forall name cs, map (move_command d) cs = cs ->
    (let '(h', r') := add_operation (M h) (mj j) name cs in (hset h' r' (with_tool (nth r' h' (mj j)) n w f s), r')) =
    (M (fst (let '(h', r') := add_operation h j name cs in (hset h' r' (with_tool (nth r' h' j) n w f s), r'))), snd (let '(h', r') := add_operation h j name cs in (hset h' r' (with_tool (nth r' h' j) n w f s), r')))).
  { intros name cs E. pose proof (add_M h j name cs) as A. rewrite E in A. rewrite A. destruct (add_operation h j name cs) as [h' r']. cbn [fst snd]. rewrite hset_M. f_equal. f_equal. rewrite map_nth. reflexivity. }
  assert (K0 : (hset (M h) r (with_tool (mj j) n w f s), r) = (M (fst (hset h r (with_tool j n w f s), r)), snd (hset h r (with_tool j n w f s), r))).
  { cbn [fst snd]. rewrite hset_M. reflexivity. }
  clearbody f w s n.
  destruct n as [k|]; [destruct (oz_neqb (Some k) (j_tool_number j))|].
  - specialize (K "Tool Change"%string [Config (CToolChange k s (j_coolant j))] eq_refl). destruct (add_operation (M h) (mj j) _ _) as [h1 r1], (add_operation h j _ _) as [h2 r2]. exact K.
  - destruct (is_some s && opy_neqb s (j_speed j)).
    + specialize (K "Speed Change"%string [Config (CStart s (j_coolant j))] eq_refl). destruct (add_operation (M h) (mj j) _ _) as [h1 r1], (add_operation h j _ _) as [h2 r2]. exact K.
    + exact K0.
  - destruct (is_some s && opy_neqb s (j_speed j)).
    + specialize (K "Speed Change"%string [Config (CStart s (j_coolant j))] eq_refl). destruct (add_operation (M h) (mj j) _ _) as [h1 r1], (add_operation h j _ _) as [h2 r2]. exact K.
    + exact K0.
Qed.
Lemma top_update top h r j t : Forall (fun j => j_top j = top) h -> j_top j = top -> Forall (fun j => j_top j = top) (fst (update_tool h r j t)).
Proof.
  intros H J. assert (S : forall g i k, Forall (fun j => j_top j = top) g -> j_top k = top -> Forall (fun j => j_top j = top) (hset g i k)).
  { intros g i k G K. revert i. induction G; intros [|i]; cbn [hset]; constructor; auto. }
  pose proof (update_tool_spec h r j t) as U. destruct (update_tool h r j t) as [h1 r1]. cbn [fst].
  revert H J. inversion U; subst; intros H J; [exact H| | |]; first [apply S; [exact H|exact J]|apply Forall_app; split; [exact H|constructor; [exact J|constructor]]].
Qed.
Lemma fluent_M top h r t name gen gen' : Forall (fun j => j_top j = top) h -> settled gen -> moved_gen top d gen gen' ->
  fluent_op (M h) r t name gen' = (M (fst (fluent_op h r t name gen)), snd (fluent_op h r t name gen)) /\ Forall (fun j => j_top j = top) (fst (fluent_op h r t name gen)).
Proof.
  intros T S G. unfold fluent_op. rewrite hget_M. destruct (hget h r) as [j|] eqn:E; [|split; [reflexivity|exact T]]. cbn [option_map].
  rewrite update_M. pose proof (top_update top h r j t T (Forall_hget _ _ _ _ T E)) as T1. destruct (update_tool h r j t) as [h1 r1]. cbn [fst snd] in *.
  rewrite hget_M. destruct (hget h1 r1) as [k|] eqn:E1; [|split; [reflexivity|exact T1]]. cbn [option_map].
  assert (TK : j_top k = top) by exact (Forall_hget _ _ _ _ T1 E1). rewrite (G (mj k) TK). rewrite (S (mj k) k) by repeat split.
  destruct (gen k) as [cs|x]; [|split; [reflexivity|exact T1]]. change (rmap ?f (Ok ?c)) with (Ok (f c)). cbv iota beta. rewrite add_M. destruct (add_operation h1 k name cs) as [h2 r2] eqn:A. split; [reflexivity|].
  cbn [fst]. unfold add_operation, halloc in A. assert (H2 := f_equal fst A). cbn [fst] in H2. rewrite <- H2. apply Forall_app. split; [exact T1|]. constructor; [exact TK|constructor].
Qed.
Lemma sessions_M top h h' : moved_sessions top d h h' -> h' = M h /\ Forall (fun j => j_top j = top) h.
Proof.
  induction 1 as [|h h' j _ [IH1 IH2] T O|h h' r t name gen gen' _ [IH1 IH2] S G]; [split; [reflexivity|constructor]| |].
  - split; [rewrite IH1, map_app|apply Forall_app; split; [exact IH2|constructor; [exact T|constructor]]]. cbn [map]. f_equal. apply (f_equal (fun x => [x])).
    unfold move_job. rewrite O. destruct j. cbn in *. subst. reflexivity.
  - destruct (fluent_M top h r t name gen gen' IH2 S G) as [A B]. split; [|exact B]. rewrite IH1, A. reflexivity.
Qed.
Lemma moved_answers top h h' r t name gen gen' : moved_sessions top d h h' -> settled gen -> moved_gen top d gen gen' ->
  snd (fluent_op h' r t name gen') = snd (fluent_op h r t name gen).
Proof. intros H S G. destruct (sessions_M _ _ _ H) as [-> T]. rewrite (proj1 (fluent_M top h r t name gen gen' T S G)). reflexivity. Qed.
Lemma moved_machine e top h h' r j : (forall x, qabs (rounded 3 (x + fst d) - (rounded 3 x + fst d)) <= e) -> (forall y, qabs (rounded 3 (y + snd d) - (rounded 3 y + snd d)) <= e) ->
  moved_sessions top d h h' -> reachable h -> hget h r = Some j -> exists j', hget h' r = Some j' /\
  (job_printable h j -> job_printable h' j' -> forall st, ms_ended st = false -> exists s bs s' bs', to_gcode h r = Ok s /\ parse_program s = Some bs /\
     to_gcode h' r = Ok s' /\ parse_program s' = Some bs' /\ fst (run st bs) = fst (run st bs') /\ Forall2 (moved_event e d) (snd (run st bs)) (snd (run st bs'))).
Proof.
  intros HX HY H R G. destruct (sessions_M _ _ _ H) as [-> _]. exists (mj j). rewrite hget_M, G. split; [reflexivity|].
  intros P P' st E. destruct (to_gcode_text h r j G P) as (s & Es & Eb). assert (G' : hget (M h) r = Some (mj j)) by (rewrite hget_M, G; reflexivity).
  destruct (to_gcode_text (M h) r (mj j) G' P') as (s' & Es' & Eb'). exists s, (program_blocks j), s', (program_blocks (mj j)).
  repeat (split; [assumption|]). exact (program_moved e d HX HY j st (reachable_job_wf h r j R G) E).
Qed.
End Sessions.

Lemma moved_within d top h h' r j : moved_sessions top d h h' -> reachable h -> hget h r = Some j -> exists j', hget h' r = Some j' /\
  (job_printable h j -> job_printable h' j' -> forall st, ms_ended st = false -> exists s bs s' bs', to_gcode h r = Ok s /\ parse_program s = Some bs /\
     to_gcode h' r = Ok s' /\ parse_program s' = Some bs' /\ fst (run st bs) = fst (run st bs') /\ Forall2 (moved_event (qq 1 1000) d) (snd (run st bs)) (snd (run st bs'))).
Proof. apply moved_machine; intros; apply rounded_off. Qed.
Lemma moved_exactly d top h h' r j : even_step (fst d) -> even_step (snd d) -> moved_sessions top d h h' -> reachable h -> hget h r = Some j -> exists j', hget h' r = Some j' /\
  (job_printable h j -> job_printable h' j' -> forall st, ms_ended st = false -> exists s bs s' bs', to_gcode h r = Ok s /\ parse_program s = Some bs /\
     to_gcode h' r = Ok s' /\ parse_program s' = Some bs' /\ fst (run st bs) = fst (run st bs') /\ Forall2 (moved_event 0 d) (snd (run st bs)) (snd (run st bs'))).
Proof.
  intros A B. apply moved_machine; intros; rewrite rounded_even by assumption; match goal with |- qabs ?q <= 0 => replace q with 0 by ring end; apply Qcle_refl.
Qed.

(** ** The operations *)
From Verif Require Import Spec.ShiftKernel Spec.ShiftFace Model.Edges Model.Tabs Model.Profile Model.Routers Model.Pocket Model.PocketOp Model.Drill Model.Strategy Model.Surface
  Proofs.AlikeP Proofs.ShiftP Proofs.ShiftKernelP Proofs.ShiftFaceP.
Lemma gens_moved : 
  (forall top v os z, settled (drill_gen os z) /\ moved_gen top (hole_shift top v) (drill_gen os z) (drill_gen (option_map (map (move_object v)) os) z)) /\
  (forall top d K TK WK given, kernel_moves K d -> tab_kernel_moves TK d -> wire_kernel_moves WK top given d ->
     (forall os is_ oo io sd t, settled (profile_gen K TK WK os is_ oo io sd t) /\ moved_gen top d (profile_gen K TK WK os is_ oo io sd t) (profile_gen K TK WK (map given os) (map given is_) oo io sd t)) /\
     (forall ws o sd t, settled (wire_profile_gen K TK WK ws o sd t) /\ moved_gen top d (wire_profile_gen K TK WK ws o sd t) (wire_profile_gen K TK WK (map given ws) o sd t))) /\
  (forall top d K WK F gw given shadow E, kernel_moves K d -> wire_kernel_moves WK top gw d -> face_kernel_moves F top given shadow d -> engine_moves E d ->
     forall fuel ops avoids a, settled (pocket_gen K WK F E fuel ops avoids a) /\ moved_gen top d (pocket_gen K WK F E fuel ops avoids a) (pocket_gen K WK F E fuel (map given ops) (option_map (map given) avoids) a)) /\
  (forall top d K C given given_w shadow, clipper_moves C d -> surface_kernel_moves K top given given_w shadow d ->
     forall a os, settled (surface_gen K C a os) /\ moved_gen top d (surface_gen K C a os) (surface_gen K C a (map (move_selected given given_w) os))).
Proof.
  repeat split.
  - apply drill_settled.
  - intros j <-. apply drill_shift.
  - apply profile_settled.
  - intros j <-. apply profile_gen_shift; assumption.
  - apply wire_profile_settled.
  - intros j <-. apply wire_profile_shift; assumption.
  - apply pocket_settled.
  - intros j <-. eapply pocket_gen_shift; eassumption.
  - intros j j' X Y. eapply surface_settled; eassumption.
  - intros j <-. eapply surface_shift; eassumption.
Qed.
