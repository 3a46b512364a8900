(** Proofs for Props/Restart.v: a run from a state of which more is known shows the same and more. *)
From Verif Require Import Base.Str Base.Py Spec.Gcode Spec.Blocks Spec.Machine Spec.Program Spec.Jobs Spec.Axes Spec.Feeds Spec.Restart Model.Groups Model.Geometry Model.Plane Model.Job
  Proofs.MachineP Proofs.ProgramP Proofs.ProgramThmP Proofs.JobP Proofs.AxesP Proofs.FeedP.
Local Open Scope list_scope.

Definition le_opt {A} (a b : option A) : Prop := a = None \/ a = b.
Lemma le_refl {A} (a : option A) : le_opt a a.
Proof. right. reflexivity. Qed.
Lemma le_some {A} (a b : option A) x : le_opt a b -> a = Some x -> b = Some x.
Proof. intros [H|H] E; congruence. Qed.
Lemma le_first {A} (w a b : option A) : le_opt a b -> le_opt (first_some w a) (first_some w b).
Proof. intros H. destruct w; [right; reflexivity|exact H]. Qed.
Lemma target_none d c : target d c None = c.
Proof. destruct d as [[|p|p]|]; [reflexivity| |reflexivity|reflexivity]. cbn [target]. do 10 (destruct p as [p|p|]; try reflexivity). Qed.
Lemma le_target d d' c c' w : le_opt d d' -> le_opt c c' -> le_opt (target d c w) (target d' c' w).
Proof.
  intros D C. destruct w as [w|]; [|rewrite !target_none; exact C]. destruct D as [->|<-]; [left; reflexivity|].
  destruct C as [->|<-]; [|apply le_refl]. destruct d as [[|p|p]|]; [apply le_refl| |apply le_refl|apply le_refl].
  unfold target. do 10 (destruct p as [p|p|]; try apply le_refl). left. reflexivity.
Qed.

Record below (a b : mstate) : Prop := Below {
  b_x : le_opt (ms_x a) (ms_x b); b_y : le_opt (ms_y a) (ms_y b); b_z : le_opt (ms_z a) (ms_z b);
  b_plane : le_opt (ms_plane a) (ms_plane b); b_units : le_opt (ms_units a) (ms_units b); b_radius : le_opt (ms_radius a) (ms_radius b);
  b_wcs : le_opt (ms_wcs a) (ms_wcs b); b_path : le_opt (ms_path a) (ms_path b); b_dist : le_opt (ms_dist a) (ms_dist b);
  b_mode : le_opt (ms_feedmode a) (ms_feedmode b); b_feed : le_opt (ms_feed a) (ms_feed b); b_ended : ms_ended a = ms_ended b }.
Record below_event (e f : event) : Prop := BelowEv {
  be_kind : ev_kind e = ev_kind f; be_i : ev_i e = ev_i f; be_j : ev_j e = ev_j f; be_k : ev_k e = ev_k f;
  be_from : below (ev_from e) (ev_from f); be_to : below (ev_to e) (ev_to f);
  be_x : exists w, ms_x (ev_to e) = target (ms_dist (ev_from e)) (ms_x (ev_from e)) w /\ ms_x (ev_to f) = target (ms_dist (ev_from f)) (ms_x (ev_from f)) w;
  be_y : exists w, ms_y (ev_to e) = target (ms_dist (ev_from e)) (ms_y (ev_from e)) w /\ ms_y (ev_to f) = target (ms_dist (ev_from f)) (ms_y (ev_from f)) w;
  be_z : exists w, ms_z (ev_to e) = target (ms_dist (ev_from e)) (ms_z (ev_from e)) w /\ ms_z (ev_to f) = target (ms_dist (ev_from f)) (ms_z (ev_from f)) w }.

Definition explicit_of (b : block) : option gmotion := match pick [0; 10; 20; 30]%Z (codes "G" b) with Some c => motion_of c | None => None end.
(** Blocks with axis words say what kind of move it is. *)
Definition explicit_block (b : block) : Prop := has_axis b = true -> is_some (explicit_of b) = true \/ is_home (codes "G" b) = true.

Lemma below_modal a b bl : below a b -> below (exec_modal a bl) (exec_modal b bl).
Proof. intros []. constructor; cbn; try assumption; apply le_first; assumption. Qed.
Lemma below_home a b : below a b -> below (set_pos a None None None) (set_pos b None None None).
Proof. intros []. constructor; cbn; try assumption; apply le_refl. Qed.
Lemma below_ended a b : below a b -> below (set_ended a) (set_ended b).
Proof. intros []. constructor; cbn; try assumption; reflexivity. Qed.
Lemma below_step a b bl : explicit_block bl -> below a b ->
  below (fst (exec_motion_step a bl)) (fst (exec_motion_step b bl)) /\ Forall2 below_event (snd (exec_motion_step a bl)) (snd (exec_motion_step b bl)).
Proof.
  intros X B. unfold exec_motion_step. fold (explicit_of bl). unfold explicit_block in X. destruct (is_home (codes "G" bl)).
  { cbn [fst snd]. split; [destruct B; constructor; assumption|constructor]. }
  assert (Y : has_axis bl = true -> is_some (explicit_of bl) = true) by (intros H; destruct (X H); [assumption|discriminate]). clear X.
  destruct (explicit_of bl) as [k|].
  - cbn [fst snd]. assert (T : below (set_motion (set_pos a (target (ms_dist a) (ms_x a) (lookup "X" bl)) (target (ms_dist a) (ms_y a) (lookup "Y" bl)) (target (ms_dist a) (ms_z a) (lookup "Z" bl)))
      (if member 800 (codes "G" bl) then None else first_some (Some k) (ms_motion a)))
      (set_motion (set_pos b (target (ms_dist b) (ms_x b) (lookup "X" bl)) (target (ms_dist b) (ms_y b) (lookup "Y" bl)) (target (ms_dist b) (ms_z b) (lookup "Z" bl)))
      (if member 800 (codes "G" bl) then None else first_some (Some k) (ms_motion b)))).
    { destruct B. constructor; cbn; try assumption; apply le_target; assumption. }
    split; [exact T|]. constructor; [|constructor]. constructor; cbn [ev_kind ev_i ev_j ev_k ev_from ev_to]; try reflexivity; try assumption; eexists; split; reflexivity.
  - destruct (has_axis bl); [discriminate (Y eq_refl)|]. cbn [fst snd]. split; [destruct B; constructor; assumption|constructor].
Qed.
Lemma below_block a b bl : explicit_block bl -> below a b -> below (fst (exec_block a bl)) (fst (exec_block b bl)) /\ Forall2 below_event (snd (exec_block a bl)) (snd (exec_block b bl)).
Proof.
  intros X B. unfold exec_block. rewrite (b_ended a b B). destruct (ms_ended b); [split; [exact B|constructor]|].
  apply (below_modal a b bl) in B. set (s := exec_modal a bl) in *. set (s' := exec_modal b bl) in *. clearbody s s'.
  assert (H : below (if is_home (codes "G" bl) then set_pos s None None None else s) (if is_home (codes "G" bl) then set_pos s' None None None else s')) by (destruct (is_home (codes "G" bl)); [apply below_home|]; exact B).
  set (t := if is_home (codes "G" bl) then set_pos s None None None else s) in *. set (t' := if is_home (codes "G" bl) then set_pos s' None None None else s') in *. clearbody t t'.
  destruct (below_step _ _ bl X H) as [P Q]. destruct (exec_motion_step t bl) as [u es], (exec_motion_step t' bl) as [u' es']. cbn [fst snd] in *.
  split; [|exact Q]. destruct (_ || _); [apply below_ended|]; exact P.
Qed.
Lemma below_run bs : Forall explicit_block bs -> forall a b, below a b -> below (fst (run a bs)) (fst (run b bs)) /\ Forall2 below_event (snd (run a bs)) (snd (run b bs)).
Proof.
  intros X. induction X as [|bl bs X Xs IH]; intros a b B; [split; [exact B|constructor]|]. cbn [run]. destruct (below_block a b bl X B) as [P Q].
  destruct (exec_block a bl) as [s es], (exec_block b bl) as [s' es']. cbn [fst snd] in P, Q. destruct (IH _ _ P) as [P2 Q2]. destruct (run s bs), (run s' bs). cbn [fst snd] in *.
  split; [exact P2|apply Forall2_app; assumption].
Qed.

Lemma explicit_motion m : explicit_block (motion_block m).
Proof.
  intros _. left. destruct m as [k s e a|k s e a f|cw s e c mid a f]; unfold explicit_of.
  - reflexivity.
  - reflexivity.
  - destruct cw; reflexivity.
Qed.
Lemma explicit_none b : has_axis b = false -> explicit_block b.
Proof. intros H X. congruence. Qed.
Lemma explicit_config c : Forall explicit_block (config_blocks c).
Proof.
  assert (S : forall s co, explicit_block (start_block s co)) by (intros s co; apply explicit_none; destruct s, co; reflexivity).
  assert (T : forall co, explicit_block (stop_block co)) by (intros co; apply explicit_none; destruct co; reflexivity).
  destruct c; cbn [config_blocks]; unfold safety_blocks; repeat apply Forall_cons; try apply Forall_nil; try apply S; try apply T; apply explicit_none; reflexivity.
Qed.
Lemma explicit_commands cs : Forall explicit_block (flat_map command_blocks cs).
Proof.
  induction cs as [|c cs IH]; [constructor|]. cbn [flat_map]. apply Forall_app. split; [|exact IH]. destruct c as [m|c]; cbn [command_blocks]; [constructor; [apply explicit_motion|constructor]|apply explicit_config].
Qed.
Lemma explicit_ops os : Forall explicit_block (ops_blocks os).
Proof.
  assert (O : forall o, Forall explicit_block (op_blocks o)).
  { intros o. unfold op_blocks. constructor; [apply explicit_none; reflexivity|apply explicit_commands]. }
  induction os as [|o [|o2 os] IH]; [constructor; [apply explicit_none; reflexivity|constructor]|apply O|]. change (ops_blocks (o :: o2 :: os)) with (op_blocks o ++ [[]; []] ++ ops_blocks (o2 :: os)).
  apply Forall_app. split; [apply O|]. constructor; [apply explicit_none; reflexivity|]. constructor; [apply explicit_none; reflexivity|exact IH].
Qed.
Lemma explicit_program j : Forall explicit_block (program_blocks j).
Proof.
  unfold program_blocks, header_blocks, footer_blocks. repeat (apply Forall_app; split); try apply explicit_ops; try exact (explicit_config CSafety).
  - constructor; [apply explicit_none; reflexivity|constructor].
  - exact (explicit_config (CStart (j_speed j) (j_coolant j))).
  - exact (explicit_config (CStop (j_coolant j))).
  - constructor; [apply explicit_none; reflexivity|constructor].
Qed.

(** ** Two runs over one of which nothing is known *)
Definition nothing : mstate := MS None None None SpOff None false false None None None None None None None None None None None None false.
Lemma below_nothing st : ms_ended st = false -> below nothing st.
Proof. intros H. constructor; try (left; reflexivity). cbn. congruence. Qed.
Lemma le_both {A} (a b c : option A) x : le_opt a b -> le_opt a c -> a = Some x -> b = c.
Proof. intros [H|H] [G|G] E; congruence. Qed.
Lemma arrive a b a0 b0 a' b' d d0 d' : d0 = Some 900%Z -> le_opt b0 b -> le_opt b0 b' ->
  (exists w, b0 = target d0 a0 w /\ b = target d a w) -> (exists w, b0 = target d0 a0 w /\ b' = target d' a' w) -> same_arrival a b a' b'.
Proof.
  intros D L L' (w & E & F) (w' & E' & F'). destruct b0 as [v|]; [left; apply (le_both (Some v) b b' v L L' eq_refl)|]. right.
  rewrite D in E, E'. destruct w as [w|]; [discriminate|]. destruct w' as [w'|]; [discriminate|]. rewrite target_none in F, F'. split; assumption.
Qed.
Lemma same_of e0 e e' : below_event e0 e -> below_event e0 e' -> ready (ev_from e0) -> placed_move e0 -> same_move e e'.
Proof.
  intros B B' (_ & _ & R1 & R2 & R3 & R4 & R5 & R6 & R7) (P & _). destruct B as [k i j l F T X Y Z], B' as [k' i' j' l' F' T' X' Y' Z'].
  pose proof F as F0. pose proof F' as F0'. destruct F, F', T, T'. unfold same_move. rewrite <- k, <- k', <- i, <- j, <- l.
  repeat (split; [first [assumption|congruence|reflexivity|eapply le_both; eassumption|eapply arrive; eassumption]|]).
  intros N. specialize (P N). destruct P as (x & y & z & Px & Py & Pz).
  assert (K : forall a b w, a = Some 900%Z -> target a (Some b) w <> None) by (intros a b [w|] ->; discriminate).
  split; [split; [|split]; eapply le_both; eassumption|].
  assert (G : forall (b0 b b' : option Qc), b0 <> None -> le_opt b0 b -> le_opt b0 b' -> b = b') by (intros [v|] b b' Q L L'; [exact (le_both _ _ _ v L L' eq_refl)|destruct Q; reflexivity]).
  split; [|split].
  - destruct X as (w & E & _). eapply G; [|eassumption|eassumption]. rewrite E, Px. apply K, R1.
  - destruct Y as (w & E & _). eapply G; [|eassumption|eassumption]. rewrite E, Py. apply K, R1.
  - destruct Z as (w & E & _). eapply G; [|eassumption|eassumption]. rewrite E, Pz. apply K, R1.
Qed.
Lemma both {A B C} (R : A -> B -> Prop) (S : A -> C -> Prop) (P : A -> Prop) (T : B -> C -> Prop) l0 : (forall a b c, P a -> R a b -> S a c -> T b c) -> forall l l', Forall P l0 -> Forall2 R l0 l -> Forall2 S l0 l' -> Forall2 T l l'.
Proof.
  intros H. induction l0 as [|a l0 IH]; intros l l' F G G'; inversion G; subst; inversion G'; subst; [constructor|]. inversion F; subst. constructor; [eapply H; eassumption|apply IH; assumption].
Qed.
Lemma restart_moves h r j st st' : user_heap h -> hget h r = Some j -> job_printable h j -> ms_ended st = false -> ms_ended st' = false ->
  exists s bs, to_gcode h r = Ok s /\ parse_program s = Some bs /\ Forall2 same_move (snd (run st bs)) (snd (run st' bs)).
Proof.
  intros HU HJ HP E E'. destruct (user_moves h r j nothing HU HJ HP eq_refl) as (s & bs & S1 & S2 & PM). exists s, bs. split; [exact S1|]. split; [exact S2|].
  destruct (moves_ready h r j nothing (user_reachable h HU) HJ HP eq_refl) as (s2 & bs2 & T1 & T2 & RM). assert (s2 = s) by congruence. subst s2. assert (bs2 = bs) by congruence. subst bs2.
  assert (X : Forall explicit_block bs). { destruct (to_gcode_text h r j HJ HP) as (s3 & U1 & U2). assert (s3 = s) by congruence. subst s3. assert (Eb : bs = program_blocks j) by congruence. rewrite Eb. apply explicit_program. }
  destruct (below_run bs X nothing st (below_nothing st E)) as [_ B]. destruct (below_run bs X nothing st' (below_nothing st' E')) as [_ B'].
  eapply (both below_event below_event (fun e => ready (ev_from e) /\ placed_move e)); [|clear B B'|exact B|exact B'].
  - intros a b c [Ha Hb] H1 H2. eapply same_of; eassumption.
  - apply Forall_forall. intros e He. rewrite Forall_forall in PM, RM. split; [apply RM, He|apply PM, He].
Qed.
Lemma restart_rates h r j st st' : fed_reachable h -> hget h r = Some j -> job_printable h j -> ms_ended st = false -> ms_ended st' = false ->
  exists s bs, to_gcode h r = Ok s /\ parse_program s = Some bs /\ Forall2 same_rate (snd (run st bs)) (snd (run st' bs)).
Proof.
  intros HU HJ HP E E'. destruct (feed_in_force h r j st HU HJ HP E) as (s & bs & S1 & S2 & FM). destruct (feed_in_force h r j st' HU HJ HP E') as (s2 & bs2 & T1 & T2 & FM').
  assert (s2 = s) by congruence. subst s2. assert (bs2 = bs) by congruence. subst bs2. exists s, bs. split; [exact S1|]. split; [exact S2|].
  assert (X : Forall explicit_block bs). { destruct (to_gcode_text h r j HJ HP) as (s3 & U1 & U2). assert (s3 = s) by congruence. subst s3. assert (Eb : bs = program_blocks j) by congruence. rewrite Eb. apply explicit_program. }
  destruct (below_run bs X nothing st (below_nothing st E)) as [_ B]. destruct (below_run bs X nothing st' (below_nothing st' E')) as [_ B'].
  assert (K : Forall2 (fun e e' => ev_kind e = ev_kind e') (snd (run st bs)) (snd (run st' bs))).
  { eapply (both below_event below_event (fun _ => True)); [|apply Forall_forall; auto|exact B|exact B']. intros a b c _ H1 H2. rewrite <- (be_kind _ _ H1), <- (be_kind _ _ H2). reflexivity. }
  clear B B' X S1 S2 T1 T2. revert FM FM' K. generalize (snd (run st bs)) as l, (snd (run st' bs)) as l', (job_moves j) as ms. clear.
  intros l l' ms F. revert l'. induction F as [|m e ms l A F IH]; intros l' F' K; inversion F' as [|m' e' ms' l2 A' F2]; subst; [constructor|]. inversion K as [|? ? ? ? N K2]; subst. constructor; [|apply IH; assumption].
  intros N2. destruct (A N2) as (v & V1 & V2). destruct A' as (v' & V1' & V2'); [congruence|]. congruence.
Qed.
