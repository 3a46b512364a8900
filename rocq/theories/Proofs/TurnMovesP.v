From Verif Require Import Base.Str Base.Py Spec.Gcode Spec.Blocks Spec.Machine Spec.Program Spec.Moves Spec.Jobs Spec.Alike Spec.Feeds Spec.Turn Spec.TurnWire Spec.ShiftMoves Spec.TurnMoves
  Model.Groups Model.Geometry Model.Plane Model.Command Model.Job
  Proofs.MachineP Proofs.ProgramP Proofs.ProgramThmP Proofs.JobP Proofs.HistoryP Proofs.FeedP Proofs.ShiftMovesP.
Local Open Scope Qc_scope.
Local Open Scope list_scope.

(** ** States and moves *)
Definition at_place (st : mstate) (x y : option Qc) (k : option gmotion) : mstate :=
  MS x y (ms_z st) (ms_spindle st) (ms_speed st) (ms_mist st) (ms_flood st)
     (ms_selected st) (ms_tool st) (ms_length st) (ms_plane st) (ms_units st) (ms_radius st)
     (ms_wcs st) (ms_path st) (ms_dist st) (ms_feedmode st) (ms_feed st) k (ms_ended st).
Lemma placed_there s s' : no_place s = no_place s' -> s' = at_place s (ms_x s') (ms_y s') (ms_motion s').
Proof. intros E. transitivity (at_place (no_place s') (ms_x s') (ms_y s') (ms_motion s')); [destruct s'; reflexivity|]. rewrite <- E. reflexivity. Qed.

Section Turning.
Context (e : Qc) (T : pt -> pt) (o : Qc).
Context (HT : forall p, close e (T (rounded 3 (fst p), rounded 3 (snd p))) (rounded 3 (fst (T p)), rounded 3 (snd (T p)))).
Context (HD : forall p, close e (direction T (rounded 3 (fst p), rounded 3 (snd p))) (rounded 3 (fst (direction T p)), rounded 3 (snd (direction T p)))).
Context (HL : forall p q, direction T (fst p - fst q, snd p - snd q) = (fst (T p) - fst (T q), snd (T p) - snd (T q))).
Notation tm := (turn_move T o). Notation tstate := (turned_state e T o).

Lemma end_t m : m_end (tm m) = turn_avec T (m_end m). Proof. destruct m; reflexivity. Qed.
Lemma feed_t m : m_feed (tm m) = m_feed m. Proof. destruct m; reflexivity. Qed.
Lemma kind_t m : m_kind (tm m) = turn_kind o (m_kind m).
Proof. destruct m as [| |cw s en c mid a f]; unfold turn_kind, turn_move; cbn; destruct (mirrored o); try reflexivity; destruct cw; reflexivity. Qed.
Lemma before_t s s' m : tstate s s' -> tstate (before_motion s m) (before_motion s' (tm m)).
Proof. intros (N & K & X). unfold before_motion. rewrite feed_t. split; [|split; [exact K|exact X]]. rewrite (placed_there _ _ N). reflexivity. Qed.
Lemma az_t v : az (turn_avec T v) = az v. Proof. destruct v as [[x|] [y|] z]; reflexivity. Qed.
Lemma after_t s s' m : whole_motion m -> tstate s s' -> tstate (after_motion s m) (after_motion s' (tm m)).
Proof.
  intros [W _] (N & K & X). unfold after_motion, before_motion. rewrite feed_t, kind_t, end_t, az_t. split; [|split].
  - rewrite (placed_there _ _ N). reflexivity.
  - reflexivity.
  - cbn [set_motion set_pos ms_x ms_y]. destruct W as [(x & y & Ex & Ey)|[Ex Ey]]; unfold turn_avec; rewrite Ex, Ey; cbn [ax ay option_map first_some].
    + exact (HT (x, y)).
    + rewrite ?Ex, ?Ey. exact X.
Qed.
Lemma arc_words cw s en c mid a f : let b := motion_block (MArc cw s en c mid a f) in
  lookup "I" b = Some (rounded 3 (centre_offset (ax c) (ax s))) /\ lookup "J" b = Some (rounded 3 (centre_offset (ay c) (ay s))) /\ lookup "K" b = Some (rounded 3 (centre_offset (az c) (az s))).
Proof. cbn [motion_block]. destruct en as [[?|] [?|] [?|]], f as [?|], cw; repeat split; reflexivity. Qed.
Lemma straight_words m l : match m with MArc _ _ _ _ _ _ _ => False | _ => True end -> l = "I"%char \/ l = "J"%char \/ l = "K"%char -> lookup l (motion_block m) = None.
Proof.
  intros S L. destruct m as [k s en a|k s en a f|]; [| |contradiction S]; cbn [motion_block]; destruct en as [[?|] [?|] [?|]].
  1-8: destruct L as [->|[->| ->]]; reflexivity.
  all: destruct f as [?|]; destruct L as [->|[->| ->]]; reflexivity.
Qed.
Lemma centres_t m : whole_motion m ->
  turned_pair e (direction T) (lookup "I" (motion_block m)) (lookup "J" (motion_block m)) (lookup "I" (motion_block (tm m))) (lookup "J" (motion_block (tm m))) /\
  lookup "K" (motion_block m) = lookup "K" (motion_block (tm m)).
Proof.
  intros [_ W]. destruct m as [k s en a|k s en a f|cw s en c mid a f].
  1, 2: rewrite !straight_words by (try exact I; tauto); split; [exact I|reflexivity].
  destruct W as [(x & y & Ex & Ey) (cx & cy & Cx & Cy)]. unfold turn_move.
  destruct (arc_words cw s en c mid a f) as (-> & -> & ->).
  destruct (arc_words (xorb (mirrored o) cw) (turn_avec T s) (turn_avec T en) (turn_avec T c) (turn_avec T mid) a f) as (-> & -> & ->).
  rewrite !az_t. split; [|reflexivity]. unfold turn_avec. rewrite Ex, Ey, Cx, Cy. cbn [ax ay centre_offset turned_pair].
  pose proof (HD (cx - x, cy - y)) as D. pose proof (HL (cx, cy) (x, y)) as L. cbn [fst snd] in D, L. rewrite L in D. exact D.
Qed.

Definition turned_run (a b : mstate * list event) : Prop := tstate (fst a) (fst b) /\ Forall2 (turned_event e T o) (snd a) (snd b).
Lemma turned_run_app s s' a a' b b' : turned_run (run s a) (run s' a') -> turned_run (run (fst (run s a)) b) (run (fst (run s' a')) b') -> turned_run (run s (a ++ b)) (run s' (a' ++ b')).
Proof. intros [A1 A2] [B1 B2]. rewrite !run_app. split; cbn [fst snd]; [exact B1|]. apply Forall2_app; assumption. Qed.
Lemma motion_t s s' m : whole_motion m -> tstate s s' -> ready s -> ready s' -> turned_run (run s [motion_block m]) (run s' [motion_block (tm m)]).
Proof.
  intros W M Y Y'. rewrite !run_cons, !exec_motion by first [apply Y|apply Y']. cbn [run fst snd app]. split; cbn [fst snd]; [apply after_t; assumption|].
  constructor; [|constructor]. split; cbn [ev_kind ev_from ev_to ev_i ev_j ev_k]; [apply kind_t|].
  split; [apply before_t, M|]. split; [apply after_t; assumption|]. apply centres_t, W.
Qed.
Lemma command_t co c s s' : wf_command co c -> whole_command c -> tstate s s' -> ready s -> ready s' ->
  turned_run (run s (command_blocks c)) (run s' (command_blocks (turn_order T o c))).
Proof.
  intros W Wh M Y Y'. destruct c as [m|c]; [apply motion_t; assumption|]. cbn [turn_order command_blocks]. destruct M as (N & K & X).
  destruct c as [sp cl|cl| |n sp cl]; try contradiction W.
  - cbn [config_blocks]. rewrite !run_cons, !exec_start by first [apply Y|apply Y']. cbn [run fst snd app]. split; [|constructor]. cbn [fst].
    split; [rewrite (placed_there _ _ N); reflexivity|]. split; [exact K|exact X].
  - rewrite !run_tool by first [apply Y|apply Y']. split; [|constructor]. cbn [fst]. split; [rewrite (placed_there _ _ N); reflexivity|]. split; [exact K|exact I].
Qed.
Lemma wf_t co c : wf_command co c -> wf_command co (turn_order T o c).
Proof. destruct c; exact (fun x => x). Qed.
Lemma commands_t co cs : forall s s', Forall (wf_command co) cs -> Forall whole_command cs -> tstate s s' -> ready s -> ready s' ->
  turned_run (run s (flat_map command_blocks cs)) (run s' (flat_map command_blocks (map (turn_order T o) cs))).
Proof.
  induction cs as [|c cs IH]; intros s s' W Wh M Y Y'; [split; [exact M|constructor]|]. inversion W as [|? ? W1 W2]; subst. inversion Wh as [|? ? Wh1 Wh2]; subst. cbn [map flat_map].
  pose proof (command_t co c s s' W1 Wh1 M Y Y') as A. apply turned_run_app; [exact A|]. apply IH; [exact W2|exact Wh2|apply A| |].
  - apply (makes_command co c s W1 Y).
  - apply (makes_command co _ s' (wf_t co c W1) Y').
Qed.
Definition turn_operation (p : operation) : operation := Op (op_job p) (op_name p) (map (turn_order T o) (op_commands p)).
Definition whole_op (p : operation) : Prop := Forall whole_command (op_commands p).
Lemma wf_t_op co p : Forall (wf_command co) (op_commands p) -> Forall (wf_command co) (op_commands (turn_operation p)).
Proof. intros W. cbn [turn_operation op_commands]. apply Forall_map. eapply Forall_impl; [|exact W]. intros c. apply wf_t. Qed.
Lemma ops_t co os : forall s s', Forall (fun p => Forall (wf_command co) (op_commands p)) os -> Forall whole_op os -> tstate s s' -> ready s -> ready s' ->
  turned_run (run s (ops_blocks os)) (run s' (ops_blocks (map turn_operation os))).
Proof.
  induction os as [|p os IH]; intros s s' W Wh M Y Y'; [cbn [map ops_blocks]; rewrite !run_blank; split; [exact M|constructor]|].
  inversion W as [|? ? W1 W2]; subst. inversion Wh as [|? ? Wh1 Wh2]; subst. pose proof (commands_t co _ s s' W1 Wh1 M Y Y') as A.
  destruct (makes_commands co _ s W1 Y) as (Y1 & _). destruct (makes_commands co _ s' (wf_t_op co p W1) Y') as (Y1' & _).
  destruct os as [|o2 os]; [cbn [map ops_blocks]; unfold op_blocks; rewrite !run_blank; exact A|].
  cbn [map] in *. change (ops_blocks (p :: o2 :: os)) with ([] :: flat_map command_blocks (op_commands p) ++ [] :: [] :: ops_blocks (o2 :: os)).
  change (ops_blocks (turn_operation p :: turn_operation o2 :: map turn_operation os)) with ([] :: flat_map command_blocks (map (turn_order T o) (op_commands p)) ++ [] :: [] :: ops_blocks (turn_operation o2 :: map turn_operation os)).
  rewrite !run_blank. apply turned_run_app; [exact A|]. rewrite !run_blank. apply (IH _ _ W2 Wh2); [apply A|exact Y1|exact Y1'].
Qed.
Definition turn_job (j : job) : job := with_operations j (map turn_operation (j_operations j)).
Lemma wf_t_ops co os : Forall (fun p => Forall (wf_command co) (op_commands p)) os -> Forall (fun p => Forall (wf_command co) (op_commands p)) (map turn_operation os).
Proof. intros W. apply Forall_map. eapply Forall_impl; [|exact W]. intros p. apply wf_t_op. Qed.
Lemma program_t j st : wf_job j -> Forall whole_op (j_operations j) -> ms_ended st = false ->
  fst (run st (program_blocks j)) = fst (run st (program_blocks (turn_job j))) /\ Forall2 (turned_event e T o) (snd (run st (program_blocks j))) (snd (run st (program_blocks (turn_job j)))).
Proof.
  intros W Wh E. unfold wf_job in W. unfold program_blocks. change (header_blocks (turn_job j)) with (header_blocks j). change (footer_blocks (turn_job j)) with (footer_blocks j).
  cbn [turn_job with_operations j_operations]. rewrite !(run_app st), !run_header by exact E. cbn [fst snd app]. rewrite !run_app. cbn [fst snd].
  set (s := after_start (after_safety st) (j_speed j) (j_coolant j)). assert (Y : ready s) by apply ready_header.
  destruct (makes_ops _ _ s W Y) as [R _]. destruct (makes_ops _ _ s (wf_t_ops _ _ W) Y) as [R' _].
  assert (M : tstate s s) by repeat split.
  destruct (ops_t _ _ s s W Wh M Y Y) as [(N & X) B].
  rewrite !run_footer by first [apply R|apply R']. cbn [fst snd]. rewrite !app_nil_r. split; [|exact B]. rewrite (placed_there _ _ N). reflexivity.
Qed.
End Turning.

(** ** Sessions *)
Section Sessions.
Context (T : pt -> pt) (o : Qc).
Notation mj := (turn_job T o).
Notation M := (map (turn_job T o)).
Lemma hget_T h r : hget (M h) r = option_map mj (hget h r).
Proof. unfold hget. rewrite nth_error_map. reflexivity. Qed.
Lemma hset_T h : forall r j, M (hset h r j) = hset (M h) r (mj j).
Proof. induction h as [|x h IH]; intros [|r] j; try reflexivity. cbn [hset map]. rewrite IH. reflexivity. Qed.
Lemma add_T h j name cs : add_operation (M h) (mj j) name (map (turn_order T o) cs) = (M (fst (add_operation h j name cs)), snd (add_operation h j name cs)).
Proof.
  unfold add_operation, halloc. cbn [fst snd]. rewrite !map_length, map_app. cbn [map]. f_equal. f_equal. apply (f_equal (fun x => [x])).
  transitivity (with_operations (mj j) (map (turn_operation T o) (j_operations j ++ [Op (List.length h) name cs]))); [|reflexivity]. f_equal. rewrite map_app. reflexivity.
Qed.
Lemma update_T h r j t : update_tool (M h) r (mj j) t = (M (fst (update_tool h r j t)), snd (update_tool h r j t)).
Proof.
  destruct t as [t|]; [|reflexivity]. cbn [update_tool].
  change (j_tool_diameter (mj j)) with (j_tool_diameter j). change (j_tool_number (mj j)) with (j_tool_number j). change (j_speed (mj j)) with (j_speed j). change (j_coolant (mj j)) with (j_coolant j). change (j_feed (mj j)) with (j_feed j).
  set (w := match t_diameter t with None => _ | _ => _ end). set (n := match t_number t with None => _ | _ => _ end). set (s := match t_speed t with None => _ | _ => _ end). set (f := match t_feed t with None => _ | Some f => f end). cbn zeta.
  assert (K : forall name cs, map (turn_order T o) cs = cs ->
    (let '(h', r') := add_operation (M h) (mj j) name cs in (hset h' r' (with_tool (nth r' h' (mj j)) n w f s), r')) =
    (M (fst (let '(h', r') := add_operation h j name cs in (hset h' r' (with_tool (nth r' h' j) n w f s), r'))), snd (let '(h', r') := add_operation h j name cs in (hset h' r' (with_tool (nth r' h' j) n w f s), r')))).
  { intros name cs E. pose proof (add_T h j name cs) as A. rewrite E in A. rewrite A. destruct (add_operation h j name cs) as [h' r']. cbn [fst snd]. rewrite hset_T. f_equal. f_equal. rewrite map_nth. reflexivity. }
  assert (K0 : (hset (M h) r (with_tool (mj j) n w f s), r) = (M (fst (hset h r (with_tool j n w f s), r)), snd (hset h r (with_tool j n w f s), r))).
  { cbn [fst snd]. rewrite hset_T. reflexivity. }
  clearbody f w s n.
  destruct n as [k|]; [destruct (oz_neqb (Some k) (j_tool_number j))|].
  - specialize (K "Tool Change"%string [Config (CToolChange k s (j_coolant j))] eq_refl). destruct (add_operation (M h) (mj j) _ _) as [h1 r1], (add_operation h j _ _) as [h2 r2]. exact K.
  - destruct (is_some s && opy_neqb s (j_speed j)).
    + specialize (K "Speed Change"%string [Config (CStart s (j_coolant j))] eq_refl). destruct (add_operation (M h) (mj j) _ _) as [h1 r1], (add_operation h j _ _) as [h2 r2]. exact K.
    + exact K0.
  - destruct (is_some s && opy_neqb s (j_speed j)).
    + specialize (K "Speed Change"%string [Config (CStart s (j_coolant j))] eq_refl). destruct (add_operation (M h) (mj j) _ _) as [h1 r1], (add_operation h j _ _) as [h2 r2]. exact K.
    + exact K0.
Qed.
Definition on_plane (top : plane) (j : job) : Prop := j_top j = top /\ Forall whole_op (j_operations j).
Lemma top_update top h r j t : Forall (on_plane top) h -> on_plane top j -> Forall (on_plane top) (fst (update_tool h r j t)).
Proof.
  intros H J. destruct (update_tool_spec h r j t); cbn [fst]; [exact H| | |apply Forall_hset; [exact H|exact J]].
  all: apply Forall_app; split; [exact H|]; constructor; [|constructor]; destruct J as [J1 J2]; split; [exact J1|]; cbn; apply Forall_app; split; [exact J2|]; repeat constructor.
Qed.
Lemma fluent_T top h r t name gen gen' : Forall (on_plane top) h -> settled gen -> turned_gen top T o gen gen' ->
  fluent_op (M h) r t name gen' = (M (fst (fluent_op h r t name gen)), snd (fluent_op h r t name gen)) /\ Forall (on_plane top) (fst (fluent_op h r t name gen)).
Proof.
  intros OP S G. unfold fluent_op. rewrite hget_T. destruct (hget h r) as [j|] eqn:E; [|split; [reflexivity|exact OP]]. cbn [option_map].
  rewrite update_T. pose proof (top_update top h r j t OP (Forall_hget _ _ _ _ OP E)) as T1. destruct (update_tool h r j t) as [h1 r1]. cbn [fst snd] in *.
  rewrite hget_T. destruct (hget h1 r1) as [k|] eqn:E1; [|split; [reflexivity|exact T1]]. cbn [option_map].
  pose proof (Forall_hget _ _ _ _ T1 E1) as TK. cbv beta in TK. rewrite (proj1 (G (mj k) (proj1 TK))). rewrite (S (mj k) k) by repeat split. pose proof (proj2 (G k (proj1 TK))) as WH.
  destruct (gen k) as [cs|x] eqn:EG; [|split; [reflexivity|exact T1]]. change (rmap ?f (Ok ?c)) with (Ok (f c)). cbv iota beta. rewrite add_T. destruct (add_operation h1 k name cs) as [h2 r2] eqn:A. split; [reflexivity|].
  cbn [fst]. unfold add_operation, halloc in A. assert (H2 := f_equal fst A). cbn [fst] in H2. rewrite <- H2. apply Forall_app. split; [exact T1|]. constructor; [|constructor]. destruct TK as [K1 K2]. split; [exact K1|]. cbn. apply Forall_app. split; [exact K2|]. constructor; [exact (WH cs eq_refl)|constructor].
Qed.
Lemma sessions_T top h h' : turned_sessions top T o h h' -> h' = M h /\ Forall (on_plane top) h.
Proof.
  induction 1 as [|h h' j _ [IH1 IH2] Tp O|h h' r t name gen gen' _ [IH1 IH2] S G]; [split; [reflexivity|constructor]| |].
  - split; [rewrite IH1, map_app|apply Forall_app; split; [exact IH2|constructor; [split; [exact Tp|rewrite O; constructor]|constructor]]]. cbn [map]. f_equal. apply (f_equal (fun x => [x])).
    unfold turn_job. rewrite O. destruct j. cbn in *. subst. reflexivity.
  - destruct (fluent_T top h r t name gen gen' IH2 S G) as [A B]. split; [|exact B]. rewrite IH1, A. reflexivity.
Qed.
Lemma turned_answers top h h' r t name gen gen' : turned_sessions top T o h h' -> settled gen -> turned_gen top T o gen gen' ->
  snd (fluent_op h' r t name gen') = snd (fluent_op h r t name gen).
Proof. intros H S G. destruct (sessions_T _ _ _ H) as [-> OP]. rewrite (proj1 (fluent_T top h r t name gen gen' OP S G)). reflexivity. Qed.
Lemma turned_machine e top h h' r j :
  (forall p, close e (T (rounded 3 (fst p), rounded 3 (snd p))) (rounded 3 (fst (T p)), rounded 3 (snd (T p)))) ->
  (forall p, close e (direction T (rounded 3 (fst p), rounded 3 (snd p))) (rounded 3 (fst (direction T p)), rounded 3 (snd (direction T p)))) ->
  (forall p q, direction T (fst p - fst q, snd p - snd q) = (fst (T p) - fst (T q), snd (T p) - snd (T q))) ->
  turned_sessions top T o h h' -> reachable h -> hget h r = Some j -> exists j', hget h' r = Some j' /\
  (job_printable h j -> job_printable h' j' -> forall st, ms_ended st = false -> exists s bs s' bs', to_gcode h r = Ok s /\ parse_program s = Some bs /\
     to_gcode h' r = Ok s' /\ parse_program s' = Some bs' /\ fst (run st bs) = fst (run st bs') /\ Forall2 (turned_event e T o) (snd (run st bs)) (snd (run st bs'))).
Proof.
  intros HT HD HL H R G. destruct (sessions_T _ _ _ H) as [-> OP]. exists (mj j). rewrite hget_T, G. split; [reflexivity|].
  intros P P' st E. destruct (to_gcode_text h r j G P) as (s & Es & Eb). assert (G' : hget (M h) r = Some (mj j)) by (rewrite hget_T, G; reflexivity).
  destruct (to_gcode_text (M h) r (mj j) G' P') as (s' & Es' & Eb'). exists s, (program_blocks j), s', (program_blocks (mj j)).
  repeat (split; [assumption|]). pose proof (Forall_hget _ _ _ _ OP G) as [_ WH]. exact (program_t e T o HT HD HL j st (reachable_job_wf h r j R G) WH E).
Qed.
End Sessions.


(** ** Rounding *)
Definition h3 : Qc := qq 1 2000.
Lemma part_near c a h : -(1) <= c -> c <= 1 -> - h <= a -> a <= h -> - h <= c * a /\ c * a <= h.
Proof. intros. split; qnra. Qed.
Lemma unit_part c s : c * c + s * s = 1 -> -(1) <= c /\ c <= 1.
Proof. intros C. split; qnra. Qed.
Lemma near_sides a b e : - e <= b - a -> b - a <= e -> qabs (b - a) <= e.
Proof. intros A B. destruct (qabs_spec (b - a)) as [[-> _]|[-> _]]; qlra. Qed.
Lemma rounded_sides x : - h3 <= rounded 3 x - x /\ rounded 3 x - x <= h3.
Proof.
  pose proof (rounded3_near x) as A. unfold half_unit in A. fold h3 in A. destruct (qabs_spec (x - rounded 3 x)) as [[E F]|[E F]]; rewrite E in A; split; qlra.
Qed.
Lemma linear_near a b d x y : - (1) <= a -> a <= 1 -> -(1) <= b -> b <= 1 ->
  qabs (rounded 3 (a * x + b * y + d) - (a * rounded 3 x + b * rounded 3 y + d)) <= qq 3 2000.
Proof.
  intros A1 A2 B1 B2. destruct (rounded_sides (a * x + b * y + d)) as [R1 R2]. destruct (rounded_sides x) as [X1 X2]. destruct (rounded_sides y) as [Y1 Y2].
  destruct (part_near a _ _ A1 A2 X1 X2) as [P1 P2]. destruct (part_near b _ _ B1 B2 Y1 Y2) as [Q1 Q2].
  assert (E : qq 3 2000 = h3 + h3 + h3) by (apply Qc_is_canon; reflexivity). rewrite E.
  set (r := rounded 3 (a * x + b * y + d)) in *. set (p := a * (rounded 3 x - x)) in *. set (q := b * (rounded 3 y - y)) in *.
  replace (a * rounded 3 x + b * rounded 3 y + d) with (a * x + b * y + d + p + q) by (unfold p, q; ring).
  set (v := a * x + b * y + d) in *. clearbody r p q v. clear E. generalize dependent h3. intros h. intros. apply near_sides; qlra.
Qed.
Lemma turn_form c s o d p : turned c s o d p = (c * fst p + (- s) * snd p + fst d, (o * s) * fst p + (o * c) * snd p + snd d).
Proof. unfold turned. f_equal; ring. Qed.
Lemma direction_form T c s o d p : (forall p, T p = turned c s o d p) -> direction T p = (c * fst p + (- s) * snd p + 0, (o * s) * fst p + (o * c) * snd p + 0).
Proof. intros E. unfold direction. rewrite !E, !turn_form. cbn [fst snd]. f_equal; ring. Qed.
Lemma sides c s o : c * c + s * s = 1 -> o = 1 \/ o = -(1) ->
  (-(1) <= c /\ c <= 1) /\ (-(1) <= - s /\ - s <= 1) /\ (-(1) <= o * s /\ o * s <= 1) /\ (-(1) <= o * c /\ o * c <= 1).
Proof.
  intros C O. pose proof (unit_part c s C) as [A1 A2]. pose proof (unit_part s c) as B. rewrite Qcplus_comm in B. destruct (B C) as [B1 B2]. clear B C.
  destruct O as [-> | ->]; repeat split; qlra.
Qed.
Lemma rounded_turned T o : turns T o -> 
  (forall p, close (qq 3 2000) (T (rounded 3 (fst p), rounded 3 (snd p))) (rounded 3 (fst (T p)), rounded 3 (snd (T p)))) /\
  (forall p, close (qq 3 2000) (direction T (rounded 3 (fst p), rounded 3 (snd p))) (rounded 3 (fst (direction T p)), rounded 3 (snd (direction T p)))).
Proof.
  intros (c & s & d & C & O & E). destruct (sides c s o C O) as (A & B & F & G). split; intros p.
  - rewrite !E, !turn_form. split; cbn [fst snd]; apply linear_near; tauto.
  - rewrite !(direction_form T c s o d _ E). split; cbn [fst snd]; apply linear_near; tauto.
Qed.
Lemma direction_between T o : turns T o -> forall p q, direction T (fst p - fst q, snd p - snd q) = (fst (T p) - fst (T q), snd (T p) - snd (T q)).
Proof. intros (c & s & d & _ & _ & E) p q. rewrite (direction_form T c s o d _ E), !E, !turn_form. cbn [fst snd]. f_equal; ring. Qed.

(** Quarter turns *)
Lemma round_opp x : round_he (- x) = (- round_he x)%Z.
Proof.
  destruct (round_he_spec x) as (A1 & A2). destruct (round_he_spec (- x)) as (B1 & B2).
  set (r := round_he x) in *. set (q := round_he (- x)) in *. clearbody r q.
  assert (H2 : qq 1 2 + qq 1 2 = qz 1) by (apply Qc_is_canon; reflexivity). set (h := qq 1 2) in *. clearbody h.
  assert (A : - h <= x - qz r /\ x - qz r <= h) by (destruct (qabs_spec (x - qz r)) as [[E F]|[E F]]; rewrite E in A1; split; qlra).
  assert (B : - h <= - x - qz q /\ - x - qz q <= h) by (destruct (qabs_spec (- x - qz q)) as [[E F]|[E F]]; rewrite E in B1; split; qlra).
  assert (N1 : qz (-1) = - qz 1) by (apply Qc_is_canon; reflexivity).
  assert (L : (-1 <= r + q)%Z) by (apply qz_le; rewrite qz_plus, N1; qlra). assert (U : (r + q <= 1)%Z) by (apply qz_le; rewrite qz_plus; qlra).
  assert (C : (r + q = 0 \/ r + q = 1 \/ r + q = -1)%Z) by lia. destruct C as [C|C]; [lia|]. exfalso.
  assert (P : qz r + qz q = qz 1 \/ qz r + qz q = - qz 1) by (destruct C as [C|C]; apply (f_equal qz) in C; rewrite qz_plus, ?N1 in C; auto).
  assert (ER : Z.even r = true). { apply A2. destruct (qabs_spec (x - qz r)) as [[-> F]|[-> F]]; destruct P; apply Qcle_antisym; qlra. }
  assert (EQ : Z.even q = true). { apply B2. destruct (qabs_spec (- x - qz q)) as [[-> F]|[-> F]]; destruct P; apply Qcle_antisym; qlra. }
  assert (ES : Z.even (r + q) = true) by (rewrite Z.even_add, ER, EQ; reflexivity). destruct C as [C|C]; rewrite C in ES; discriminate ES.
Qed.
Lemma rounded_opp x : rounded 3 (- x) = - rounded 3 x.
Proof. unfold rounded. replace (- x * qz (pow10 3)) with (- (x * qz (pow10 3))) by ring. rewrite round_opp, qz_opp. field. intros X. discriminate X. Qed.
Lemma quarter_turns T o : quarters T o -> turns T o.
Proof.
  intros (c & s & d & Q & O & _ & _ & E). exists c, s, d. split; [|split; [exact O|exact E]].
  destruct Q as [[-> [-> | ->]]|[[-> | ->] ->]]; ring.
Qed.
Lemma linear_exact a b d x y : even_step d -> (a = 0 /\ (b = 1 \/ b = -(1))) \/ ((a = 1 \/ a = -(1)) /\ b = 0) ->
  rounded 3 (a * x + b * y + d) = a * rounded 3 x + b * rounded 3 y + d.
Proof.
  intros S Q. rewrite rounded_even by exact S. f_equal. destruct Q as [[-> [-> | ->]]|[[-> | ->] ->]].
  - replace (0 * x + 1 * y) with y by ring. ring.
  - replace (0 * x + -(1) * y) with (- y) by ring. rewrite rounded_opp. ring.
  - replace (1 * x + 0 * y) with x by ring. ring.
  - replace (-(1) * x + 0 * y) with (- x) by ring. rewrite rounded_opp. ring.
Qed.
Lemma close_same p : close 0 p p.
Proof. split; [replace (fst p - fst p) with 0 by ring|replace (snd p - snd p) with 0 by ring]; apply Qcle_refl. Qed.
Lemma rounded_quarters T o : quarters T o ->
  (forall p, close 0 (T (rounded 3 (fst p), rounded 3 (snd p))) (rounded 3 (fst (T p)), rounded 3 (snd (T p)))) /\
  (forall p, close 0 (direction T (rounded 3 (fst p), rounded 3 (snd p))) (rounded 3 (fst (direction T p)), rounded 3 (snd (direction T p)))).
Proof.
  intros (c & s & d & Q & O & D1 & D2 & E).
  assert (Q1 : (c = 0 /\ (- s = 1 \/ - s = -(1))) \/ ((c = 1 \/ c = -(1)) /\ - s = 0)).
  { destruct Q as [[-> [-> | ->]]|[[-> | ->] ->]]; [left; split; [|right]; ring|left; split; [|left]; ring|right; split; [left|]; ring|right; split; [right|]; ring]. }
  assert (Q2 : (o * s = 0 /\ (o * c = 1 \/ o * c = -(1))) \/ ((o * s = 1 \/ o * s = -(1)) /\ o * c = 0)).
  { destruct O as [-> | ->], Q as [[-> [-> | ->]]|[[-> | ->] ->]];
      first [left; split; [ring|left; ring]|left; split; [ring|right; ring]|right; split; [left; ring|ring]|right; split; [right; ring|ring]]. }
  assert (Z0 : even_step 0) by (exists 0%Z; apply Qc_is_canon; reflexivity).
  split; intros p.
  - rewrite !E, !turn_form. cbn [fst snd]. rewrite !linear_exact by assumption. apply close_same.
  - rewrite !(direction_form T c s o d _ E). cbn [fst snd]. rewrite !linear_exact by assumption. apply close_same.
Qed.
Lemma turned_within T o top h h' r j : turns T o -> turned_sessions top T o h h' -> reachable h -> hget h r = Some j -> exists j', hget h' r = Some j' /\
  (job_printable h j -> job_printable h' j' -> forall st, ms_ended st = false -> exists s bs s' bs', to_gcode h r = Ok s /\ parse_program s = Some bs /\
     to_gcode h' r = Ok s' /\ parse_program s' = Some bs' /\ fst (run st bs) = fst (run st bs') /\ Forall2 (turned_event (qq 3 2000) T o) (snd (run st bs)) (snd (run st bs'))).
Proof. intros TO. destruct (rounded_turned T o TO) as [A B]. apply turned_machine; [exact A|exact B|exact (direction_between T o TO)]. Qed.
Lemma turned_exactly T o top h h' r j : quarters T o -> turned_sessions top T o h h' -> reachable h -> hget h r = Some j -> exists j', hget h' r = Some j' /\
  (job_printable h j -> job_printable h' j' -> forall st, ms_ended st = false -> exists s bs s' bs', to_gcode h r = Ok s /\ parse_program s = Some bs /\
     to_gcode h' r = Ok s' /\ parse_program s' = Some bs' /\ fst (run st bs) = fst (run st bs') /\ Forall2 (turned_event 0 T o) (snd (run st bs)) (snd (run st bs'))).
Proof. intros TO. destruct (rounded_quarters T o TO) as [A B]. apply turned_machine; [exact A|exact B|exact (direction_between T o (quarter_turns T o TO))]. Qed.
