From Verif Require Import Base.Str Base.Py Spec.Gcode Spec.Blocks Spec.Machine Spec.Program Spec.Alike Spec.Parts Spec.FeedMoves Model.Groups Model.Geometry Model.Plane Model.Job Model.Profile Model.PocketOp Model.Drill Model.Surface Proofs.ProgramP Proofs.ProgramThmP Proofs.JobP Proofs.AlikeP Proofs.PartsP.
Local Open Scope list_scope.

Definition not_f (w : word) : bool := negb (Ascii.eqb (w_letter w) "F").
Definition strip (b : block) : block := filter not_f b.

Lemma codes_strip l b : Ascii.eqb l "F" = false -> codes l (strip b) = codes l b.
Proof.
  intros N. induction b as [|w b IH]; [reflexivity|]. unfold strip in *. cbn [filter]. unfold not_f at 1. destruct (Ascii.eqb (w_letter w) "F") eqn:E; cbn [negb].
  - rewrite IH. unfold codes at 2. cbn [flat_map]. apply Ascii.eqb_eq in E. rewrite E. rewrite Ascii.eqb_sym, N. reflexivity.
  - unfold codes. cbn [flat_map]. fold (codes l (filter not_f b)). rewrite IH. reflexivity.
Qed.
Lemma lookup_strip l b : Ascii.eqb l "F" = false -> lookup l (strip b) = lookup l b.
Proof.
  intros N. induction b as [|w b IH]; [reflexivity|]. unfold strip in *. cbn [filter]. unfold not_f at 1. destruct (Ascii.eqb (w_letter w) "F") eqn:E; cbn [negb].
  - rewrite IH. destruct w as [l' v]. cbn [w_letter] in E. cbn [lookup]. apply Ascii.eqb_eq in E. subst l'. rewrite N. reflexivity.
  - destruct w as [l' v]. cbn [lookup]. rewrite IH. reflexivity.
Qed.
Lemma lookup_f b : lookup "F" (strip b) = None.
Proof. induction b as [|w b IH]; [reflexivity|]. unfold strip in *. cbn [filter]. unfold not_f at 1. destruct (Ascii.eqb (w_letter w) "F") eqn:E; cbn [negb]; [exact IH|]. destruct w as [l' v]. cbn [w_letter] in E. cbn [lookup]. rewrite Ascii.eqb_sym, E. exact IH. Qed.

Lemma modal_strip st b : exec_modal (no_feed st) (strip b) = no_feed (exec_modal st b).
Proof. unfold exec_modal. rewrite !codes_strip, !lookup_strip, lookup_f by reflexivity. reflexivity. Qed.
Lemma step_strip st b : exec_motion_step (no_feed st) (strip b) = (no_feed (fst (exec_motion_step st b)), map no_feed_event (snd (exec_motion_step st b))).
Proof.
  unfold exec_motion_step, has_axis. rewrite !codes_strip, !lookup_strip by reflexivity. cbn [no_feed ms_motion ms_dist ms_x ms_y ms_z].
  destruct (if is_home (codes "G" b) then _ else _); reflexivity.
Qed.
Lemma block_strip st b : exec_block (no_feed st) (strip b) = (no_feed (fst (exec_block st b)), map no_feed_event (snd (exec_block st b))).
Proof.
  unfold exec_block. change (ms_ended (no_feed st)) with (ms_ended st). destruct (ms_ended st); [reflexivity|]. rewrite !codes_strip by reflexivity. rewrite modal_strip.
  set (s := exec_modal st b). clearbody s. destruct (is_home (codes "G" b)).
  - change (set_pos (no_feed s) None None None) with (no_feed (set_pos s None None None)). rewrite step_strip. destruct (exec_motion_step (set_pos s None None None) b) as [s1 es]. cbn [fst snd].
    destruct (member 20 (codes "M" b) || member 300 (codes "M" b)); reflexivity.
  - rewrite step_strip. destruct (exec_motion_step s b) as [s1 es]. cbn [fst snd]. destruct (member 20 (codes "M" b) || member 300 (codes "M" b)); reflexivity.
Qed.
Lemma run_strip bs : forall st, run (no_feed st) (map strip bs) = (no_feed (fst (run st bs)), map no_feed_event (snd (run st bs))).
Proof.
  induction bs as [|b bs IH]; intros st; [reflexivity|]. cbn [map run]. rewrite block_strip. destruct (exec_block st b) as [s1 e1]. cbn [fst snd]. rewrite IH. destruct (run s1 bs) as [s2 e2]. cbn [fst snd]. rewrite map_app. reflexivity.
Qed.

Lemma strip_feed f : strip (feed_block f) = [].
Proof. destruct f; reflexivity. Qed.
Lemma strip_app a b : strip (a ++ b) = strip a ++ strip b.
Proof. apply filter_app. Qed.
Lemma motion_strip m m' : unfed_motion m = unfed_motion m' -> strip (motion_block m) = strip (motion_block m').
Proof.
  destruct m as [k s e a|k s e a f|cw s e c mid a f], m' as [k' s' e' a'|k' s' e' a' f'|cw' s' e' c' mid' a' f']; try discriminate; cbn [unfed_motion]; intros E.
  - assert (X : e = e') by congruence. subst. reflexivity.
  - assert (X : e = e') by congruence. subst. cbn [motion_block]. change (gword 1 :: axes_block e' ++ feed_block f) with ([gword 1] ++ axes_block e' ++ feed_block f). change (gword 1 :: axes_block e' ++ feed_block f') with ([gword 1] ++ axes_block e' ++ feed_block f').
    rewrite !strip_app, !strip_feed. reflexivity.
  - assert (X : e = e') by congruence. assert (Y : cw = cw') by congruence. assert (Z : s = s') by congruence. assert (T : c = c') by congruence. subst. cbn [motion_block].
    match goal with |- strip (?g :: ?x) = strip (?g :: ?y) => change (strip ([g] ++ x) = strip ([g] ++ y)) end. rewrite !strip_app, !strip_feed. reflexivity.
Qed.
Lemma commands_strip cs : forall cs', map unfed cs = map unfed cs' -> map strip (flat_map command_blocks cs) = map strip (flat_map command_blocks cs').
Proof.
  induction cs as [|c cs IH]; intros [|c' cs'] E; try discriminate; [reflexivity|]. cbn [map] in E. assert (A : unfed c = unfed c') by congruence. assert (B : map unfed cs = map unfed cs') by congruence. clear E.
  cbn [flat_map]. rewrite !map_app, (IH _ B). f_equal. destruct c as [m|c], c' as [m'|c']; try discriminate; cbn [unfed] in A; cbn [command_blocks map].
  - assert (U : unfed_motion m = unfed_motion m') by congruence. rewrite (motion_strip _ _ U). reflexivity.
  - congruence.
Qed.
Lemma same_paths_run j j' st : same_paths j j' -> same_moves (run st (program_blocks j)) (run st (program_blocks j')).
Proof.
  intros (A & B & C). apply commands_strip in C.
  assert (R : run (no_feed st) (map strip (program_blocks j)) = run (no_feed st) (map strip (program_blocks j'))).
  { rewrite (run_busy (map strip (program_blocks j))), (run_busy (map strip (program_blocks j'))). f_equal.
    assert (BS : forall os, filter busy (map strip (ops_blocks os)) = filter busy (map strip (flat_map command_blocks (flat_map op_commands os)))).
    { induction os as [|o [|o2 os] IH]; [reflexivity| |].
      - cbn [ops_blocks flat_map]. rewrite app_nil_r. reflexivity.
      - transitivity (filter busy (map strip (flat_map command_blocks (op_commands o))) ++ filter busy (map strip (ops_blocks (o2 :: os)))).
        + change (ops_blocks (o :: o2 :: os)) with (op_blocks o ++ [[]; []] ++ ops_blocks (o2 :: os)). rewrite map_app, filter_app. reflexivity.
        + etransitivity; [exact (f_equal _ IH)|]. rewrite <- filter_app, <- map_app, <- flat_map_app. reflexivity. }
    unfold program_blocks. rewrite !map_app, !filter_app, !BS, C. unfold header_blocks, footer_blocks. rewrite A, B. reflexivity. }
  rewrite !run_strip in R. unfold same_moves. split; [exact (f_equal fst R)|exact (f_equal snd R)].
Qed.
Lemma same_paths_machine h j h' j' st : same_paths j j' -> job_printable h j -> job_printable h' j' ->
  exists s bs s' bs', job_to_gcode h j = Ok s /\ parse_program s = Some bs /\ job_to_gcode h' j' = Ok s' /\ parse_program s' = Some bs' /\ same_moves (run st bs) (run st bs').
Proof.
  intros S P P'. destruct (text_job _ _ P) as (s & E & B), (text_job _ _ P') as (s' & E' & B'). exists s, (program_blocks j), s', (program_blocks j').
  repeat (split; [assumption|]). apply same_paths_run, S.
Qed.

(** ** Sessions *)
Notation U := (map unrated).
Lemma hget_U h r : hget (U h) r = option_map unrated (hget h r).
Proof. unfold hget. rewrite nth_error_map. reflexivity. Qed.
Lemma hset_U h : forall r j, U (hset h r j) = hset (U h) r (unrated j).
Proof. induction h as [|x h IH]; intros [|r] j; try reflexivity. cbn [hset map]. rewrite IH. reflexivity. Qed.
Lemma add_U h j name cs : add_operation (U h) (unrated j) name (map unfed cs) = (U (fst (add_operation h j name cs)), snd (add_operation h j name cs)).
Proof.
  unfold add_operation, halloc. cbn [fst snd]. rewrite !map_length, map_app. cbn [map]. f_equal. f_equal. apply (f_equal (fun x => [x])).
  transitivity (with_operations (unrated j) (map unrated_op (j_operations j ++ [Op (List.length h) name cs]))); [|reflexivity]. f_equal. rewrite map_app. reflexivity.
Qed.
Lemma update_U h r j t : update_tool (U h) r (unrated j) (option_map unrated_tool t) = (U (fst (update_tool h r j t)), snd (update_tool h r j t)).
Proof.
  destruct t as [t|]; [|reflexivity]. cbn [option_map update_tool]. cbn [unrated_tool t_diameter t_number t_feed t_speed].
  change (j_tool_diameter (unrated j)) with (j_tool_diameter j). change (j_tool_number (unrated j)) with (j_tool_number j). change (j_speed (unrated j)) with (j_speed j). change (j_coolant (unrated j)) with (j_coolant j).
  set (d := match t_diameter t with None => _ | _ => _ end). set (n := match t_number t with None => _ | _ => _ end). set (s := match t_speed t with None => _ | _ => _ end). cbn zeta.
  assert (K : forall name cs, map unfed cs = cs -> forall f,
    (let '(h', r') := add_operation (U h) (unrated j) name cs in (hset h' r' (with_tool (nth r' h' (unrated j)) n d (j_feed (unrated j)) s), r')) =
    (U (fst (let '(h', r') := add_operation h j name cs in (hset h' r' (with_tool (nth r' h' j) n d f s), r'))), snd (let '(h', r') := add_operation h j name cs in (hset h' r' (with_tool (nth r' h' j) n d f s), r')))).
  { intros name cs E f. pose proof (add_U h j name cs) as A. rewrite E in A. rewrite A. destruct (add_operation h j name cs) as [h' r']. cbn [fst snd]. rewrite hset_U. f_equal. f_equal. rewrite map_nth. reflexivity. }
  assert (K0 : forall f, (hset (U h) r (with_tool (unrated j) n d (j_feed (unrated j)) s), r) = (U (fst (hset h r (with_tool j n d f s), r)), snd (hset h r (with_tool j n d f s), r))).
  { intros f. cbn [fst snd]. rewrite hset_U. reflexivity. }
  set (f := match t_feed t with None => _ | Some f => f end). clearbody f d s n.
  destruct n as [k|]; [destruct (oz_neqb (Some k) (j_tool_number j))|].
  - specialize (K "Tool Change"%string [Config (CToolChange k s (j_coolant j))] eq_refl f). destruct (add_operation (U h) (unrated j) _ _) as [h1 r1], (add_operation h j _ _) as [h2 r2]. exact K.
  - destruct (is_some s && opy_neqb s (j_speed j)).
    + specialize (K "Speed Change"%string [Config (CStart s (j_coolant j))] eq_refl f). destruct (add_operation (U h) (unrated j) _ _) as [h1 r1], (add_operation h j _ _) as [h2 r2]. exact K.
    + exact (K0 f).
  - destruct (is_some s && opy_neqb s (j_speed j)).
    + specialize (K "Speed Change"%string [Config (CStart s (j_coolant j))] eq_refl f). destruct (add_operation (U h) (unrated j) _ _) as [h1 r1], (add_operation h j _ _) as [h2 r2]. exact K.
    + exact (K0 f).
Qed.
Lemma unrated_alike j j' : unrated j = unrated j' -> alike j j'.
Proof.
  intros E. unfold alike. repeat split.
  - exact (f_equal j_top E).
  - exact (f_equal j_tool_diameter E).
  - exact (f_equal j_rapid_height E).
  - exact (f_equal j_op_safe_height E).
  - exact (f_equal j_precision E).
  - exact (f_equal j_max_stepdown_count E).
Qed.
Lemma fluent_U h h' r t t' name gen : U h = U h' -> path_settled gen -> option_map unrated_tool t = option_map unrated_tool t' ->
  U (fst (fluent_op h r t name gen)) = U (fst (fluent_op h' r t' name gen)) /\ snd (fluent_op h r t name gen) = snd (fluent_op h' r t' name gen).
Proof.
  intros E P T. unfold fluent_op. pose proof (hget_U h r) as G. rewrite E, hget_U in G. destruct (hget h r) as [j|], (hget h' r) as [j'|]; cbn [option_map] in G; try discriminate G; [|split; [exact E|reflexivity]].
  assert (J : unrated j = unrated j') by congruence. clear G. pose proof (update_U h r j t) as A. rewrite E, J, T, update_U in A. destruct (update_tool h r j t) as [h1 r1], (update_tool h' r j' t') as [h2 r2]. cbn [fst snd] in A.
  assert (E1 : U h1 = U h2) by congruence. assert (R : r1 = r2) by congruence. clear A. subst r2. pose proof (hget_U h1 r1) as G. rewrite E1, hget_U in G.
  destruct (hget h1 r1) as [j1|], (hget h2 r1) as [j2|]; cbn [option_map] in G; try discriminate G; [|split; [exact E1|reflexivity]].
  assert (J1 : unrated j1 = unrated j2) by congruence. clear G. pose proof (P j1 j2 (unrated_alike _ _ J1)) as S. destruct (gen j1) as [cs|x], (gen j2) as [cs'|x']; cbn in S; try contradiction.
  - pose proof (add_U h1 j1 name cs) as A1. rewrite E1, J1, S, add_U in A1. destruct (add_operation h1 j1 name cs) as [h3 r3], (add_operation h2 j2 name cs') as [h4 r4]. cbn [fst snd] in *.
    assert (X : U h3 = U h4) by congruence. assert (Y : r3 = r4) by congruence. subst r4. split; [exact X|reflexivity].
  - subst. split; [exact E1|reflexivity].
Qed.
Lemma sessions_U h h' : sessions h h' -> U h = U h'.
Proof.
  induction 1 as [|h h' j j' _ IH E|h h' r t t' name gen _ IH P T]; [reflexivity| |].
  - rewrite !map_app, IH. cbn [map]. rewrite E. reflexivity.
  - exact (proj1 (fluent_U h h' r t t' name gen IH P T)).
Qed.
Lemma unrated_paths j j' : unrated j = unrated j' -> same_paths j j'.
Proof.
  intros E. split; [exact (f_equal j_speed E)|]. split; [exact (f_equal j_coolant E)|].
  assert (O : map unrated_op (j_operations j) = map unrated_op (j_operations j')) by exact (f_equal j_operations E). clear E.
  revert O. generalize (j_operations j'). induction (j_operations j) as [|o os IH]; intros [|o' os'] O; try discriminate; [reflexivity|]. cbn [map] in O.
  assert (A : unrated_op o = unrated_op o') by congruence. assert (B : map unrated_op os = map unrated_op os') by congruence. cbn [flat_map]. rewrite !map_app, (IH _ B). f_equal.
  exact (f_equal op_commands A).
Qed.
Lemma sessions_machine h h' r j : sessions h h' -> hget h r = Some j -> exists j', hget h' r = Some j' /\ unrated j = unrated j' /\
  (job_printable h j -> job_printable h' j' -> forall st, exists s bs s' bs', to_gcode h r = Ok s /\ parse_program s = Some bs /\ to_gcode h' r = Ok s' /\ parse_program s' = Some bs' /\ same_moves (run st bs) (run st bs')).
Proof.
  intros S G. apply sessions_U in S. pose proof (hget_U h r) as A. rewrite S, hget_U, G in A. destruct (hget h' r) as [j'|] eqn:G'; [|discriminate A]. cbn [option_map] in A.
  assert (E : unrated j = unrated j') by congruence. exists j'. split; [reflexivity|]. split; [exact E|]. intros P P' st. unfold to_gcode. rewrite G, G'.
  exact (same_paths_machine h j h' j' st (unrated_paths _ _ E) P P').
Qed.
Lemma generators_settled : (forall K TK WK os is_ oo io sd t, path_settled (profile_gen K TK WK os is_ oo io sd t)) /\
  (forall K TK WK ws o sd t, path_settled (wire_profile_gen K TK WK ws o sd t)) /\
  (forall K WK F E fuel ops avoids a, path_settled (pocket_gen K WK F E fuel ops avoids a)) /\
  (forall os d, path_settled (drill_gen os d)) /\
  (forall K C a os, path_settled (surface_gen K C a os)).
Proof.
  repeat split; intros.
  - apply profile_settled.
  - apply wire_profile_settled.
  - apply pocket_settled.
  - apply drill_settled.
  - intros j j' A. rewrite (surface_settled K C a os j j' A). destruct (surface_gen _ _ _ _ _); reflexivity.
Qed.
