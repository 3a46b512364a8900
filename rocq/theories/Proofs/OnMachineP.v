(** Proofs for Spec/OnMachine.v. *)
From Verif Require Import Base.Str Base.Py Spec.Gcode Spec.Blocks Spec.Machine Spec.Program Spec.Paths Spec.Jobs Spec.Feeds Spec.Moves Spec.Drills Spec.Axes Spec.Rapids Spec.Wires Spec.Profiles Spec.OnMachine
  Model.Groups Model.Geometry Model.Plane Model.Edges Model.Job Model.Routers Model.Tabs Model.Profile Model.Drill Model.Pocket Model.PocketOp
  Proofs.MachineP Proofs.JobP Proofs.ProgramThmP Proofs.GeomP Proofs.RouteP Proofs.DrillP Proofs.PocketOpP Proofs.FeedP Proofs.AxesP Proofs.RapidsP Proofs.HistoryP Proofs.ProfileP Proofs.ProfileThmP.
From Verif Require Spec.Pockets.
From Coq Require Import Lia.
Local Open Scope list_scope.

(** ** Rounding is monotone *)
Lemma round_he_mono x y : (x <= y)%Qc -> (round_he x <= round_he y)%Z.
Proof.
  intros H. destruct (qeqb x y) eqn:E; [apply qeqb_eq in E; subst; lia|]. apply qeqb_neq in E.
  assert (L : (x < y)%Qc) by (apply Qcle_lt_or_eq in H; destruct H; [assumption|contradiction]).
  destruct (Z.le_gt_cases (round_he x) (round_he y)) as [A|A]; [exact A|exfalso].
  assert (B : (qz (round_he y) + 1 <= qz (round_he x))%Qc) by (rewrite <- qz_1, <- qz_plus; apply qz_le; lia).
  destruct (round_he_spec x) as [X _], (round_he_spec y) as [Y _].
  destruct (qabs_spec (x - qz (round_he x))%Qc) as [[E1 S1]|[E1 S1]], (qabs_spec (y - qz (round_he y))%Qc) as [[E2 S2]|[E2 S2]]; rewrite E1 in X; rewrite E2 in Y; qlra.
Qed.
Lemma rounded_mono x y : (x <= y)%Qc -> (rounded 3 x <= rounded 3 y)%Qc.
Proof.
  intros H. unfold rounded. assert (P : (0 < qz (pow10 3))%Qc) by (apply (qz_lt 0); reflexivity). set (P0 := qz (pow10 3)) in *.
  assert (X : (qz (round_he (x * P0)) <= qz (round_he (y * P0)))%Qc) by (apply qz_le, round_he_mono; qnra).
  set (a := qz (round_he (x * P0))) in *. set (b := qz (round_he (y * P0))) in *.
  assert (Ea : (a / P0 * P0 = a)%Qc) by (field; intros C; rewrite C in P; qlra).
  assert (Eb : (b / P0 * P0 = b)%Qc) by (field; intros C; rewrite C in P; qlra).
  set (u := (a / P0)%Qc) in *. set (v := (b / P0)%Qc) in *. clearbody u v a b P0. qnra.
Qed.

(** ** The last operation of a program *)
Lemma but_speed_refl a : but_speed a a.
Proof. exists (ms_speed a). destruct a. reflexivity. Qed.
Lemma exec_but_speed a b x : but_speed a b -> but_speed (fst (exec_block a x)) (fst (exec_block b x)) /\ Forall2 same_move (snd (exec_block a x)) (snd (exec_block b x)).
Proof.
  intros M0. assert (M : but_speed (exec_modal a x) (exec_modal b x)) by (destruct M0 as (v & ->); eexists; unfold exec_modal; cbn; reflexivity).
  unfold exec_block. assert (EE : ms_ended b = ms_ended a) by (destruct M0 as (v & ->); reflexivity). rewrite EE. destruct (ms_ended a); [split; [exact M0|constructor]|].
  set (a1 := exec_modal a x) in *. set (b1 := exec_modal b x) in *. clearbody a1 b1. clear - M.
  assert (M2 : but_speed (if is_home (codes "G" x) then set_pos a1 None None None else a1) (if is_home (codes "G" x) then set_pos b1 None None None else b1)).
  { destruct (is_home (codes "G" x)); [|exact M]. destruct M as (v & ->). exists v. reflexivity. }
  set (a2 := if is_home (codes "G" x) then set_pos a1 None None None else a1) in *. set (b2 := if is_home (codes "G" x) then set_pos b1 None None None else b1) in *. clearbody a2 b2. clear - M2.
  assert (M3 : but_speed (fst (exec_motion_step a2 x)) (fst (exec_motion_step b2 x)) /\ Forall2 same_move (snd (exec_motion_step a2 x)) (snd (exec_motion_step b2 x))).
  { destruct M2 as (v & ->). unfold exec_motion_step. cbn [ms_motion ms_x ms_y ms_z ms_dist].
    match goal with |- context [if is_home (codes "G" x) then ?p else ?q] => set (mv := if is_home (codes "G" x) then p else q) end.
    destruct mv as [k|]; cbn [fst snd]; (split; [eexists; reflexivity|]); [|constructor]. constructor; [|constructor].
    split; [reflexivity|]. split; [eexists; reflexivity|]. split; [eexists; reflexivity|]. repeat split; reflexivity. }
  destruct (exec_motion_step a2 x) as [a3 e3], (exec_motion_step b2 x) as [b3 f3]. cbn [fst snd] in *. destruct M3 as [M3 ME]. split; [|exact ME].
  destruct (member 20 (codes "M" x) || member 300 (codes "M" x)); [|exact M3]. destruct M3 as (v & ->). exists v. reflexivity.
Qed.
Lemma run_but_speed bs : forall a b, but_speed a b -> but_speed (fst (run a bs)) (fst (run b bs)) /\ Forall2 same_move (snd (run a bs)) (snd (run b bs)).
Proof.
  induction bs as [|x bs IH]; intros a b M; [split; [exact M|constructor]|]. rewrite !run_cons. cbn [fst snd].
  destruct (exec_but_speed a b x M) as [M1 E1]. destruct (IH _ _ M1) as [M2 E2]. split; [exact M2|]. apply Forall2_app; assumption.
Qed.
Lemma start_but_speed st s s' co : but_speed (after_start st s co) (after_start st s' co).
Proof. exists (first_some (option_map pyval s') (ms_speed st)). unfold after_start. destruct co as [[]|]; reflexivity. Qed.
Lemma same_moves_refl es : Forall2 same_move es es.
Proof. induction es; constructor; [|assumption]. repeat split; try apply but_speed_refl. Qed.
Definition op_moves (st : mstate) (o : operation) : mstate * list event := run st (flat_map command_blocks (op_commands o)).
(** The state and the moves after the operations, whatever separates them. *)
Fixpoint ops_run (st : mstate) (os : list operation) : mstate * list event :=
  match os with
  | [] => (st, [])
  | o :: os => (fst (ops_run (fst (op_moves st o)) os), snd (op_moves st o) ++ snd (ops_run (fst (op_moves st o)) os))
  end.
Lemma ops_run_ok os : forall st, run st (ops_blocks os) = ops_run st os.
Proof.
  induction os as [|o os IH]; intros st; [cbn [ops_blocks ops_run]; rewrite run_blank; reflexivity|]. cbn [ops_run]. destruct os as [|o' os].
  - cbn [ops_blocks ops_run]. unfold op_blocks, op_moves. rewrite run_blank. cbn [fst snd]. rewrite app_nil_r, <- surjective_pairing. reflexivity.
  - assert (X : ops_blocks (o :: o' :: os) = [] :: flat_map command_blocks (op_commands o) ++ [] :: [] :: ops_blocks (o' :: os)) by reflexivity.
    rewrite X, run_blank, run_app. rewrite !run_blank, IH. reflexivity.
Qed.
Lemma ops_run_app os more st : ops_run st (os ++ more) = (fst (ops_run (fst (ops_run st os)) more), snd (ops_run st os) ++ snd (ops_run (fst (ops_run st os)) more)).
Proof. revert st. induction os as [|o os IH]; intros st; [cbn; destruct (ops_run st more); reflexivity|]. cbn [ops_run app]. rewrite IH. cbn [fst snd]. rewrite app_assoc. reflexivity. Qed.
Lemma program_run h r j st : user_heap h -> hget h r = Some j -> job_printable h j -> ms_ended st = false ->
  exists s, to_gcode h r = Ok s /\ parse_program s = Some (program_blocks j) /\
    snd (run st (program_blocks j)) = snd (ops_run (after_start (after_safety st) (j_speed j) (j_coolant j)) (j_operations j)).
Proof.
  intros HU HJ HP HE. destruct (to_gcode_text h r j HJ HP) as (s & Es & Eb). exists s. split; [exact Es|]. split; [exact Eb|].
  pose proof (reachable_job_wf h r j (user_reachable h HU) HJ) as W. unfold wf_job in W.
  unfold program_blocks. rewrite run_app, run_header by exact HE. cbn [fst snd app]. rewrite run_app. cbn [snd].
  destruct (makes_ops _ _ (after_start (after_safety st) (j_speed j) (j_coolant j)) W (ready_header _ _ _)) as [R2 _].
  rewrite run_footer by apply R2. cbn [snd]. rewrite app_nil_r, ops_run_ok. reflexivity.
Qed.
(** A job with the operations of another and more of them. *)
Definition grown (j j' : job) (more : list operation) : Prop := j_operations j' = j_operations j ++ more /\ j_coolant j' = j_coolant j.
Lemma moves_kept h r h' r' j j' more st : user_heap h -> user_heap h' -> hget h r = Some j -> hget h' r' = Some j' -> grown j j' more -> job_printable h' j' -> ms_ended st = false ->
  exists s bs before, to_gcode h' r' = Ok s /\ parse_program s = Some bs /\
    snd (run st bs) = before ++ snd (ops_run (fst (ops_run (after_start (after_safety st) (j_speed j') (j_coolant j')) (j_operations j))) more) /\
    continues h r st before.
Proof.
  intros HU HU' HJ HJ' [EO EC] HP HE. destruct (program_run h' r' j' st HU' HJ' HP HE) as (s & A & B & C).
  exists s, (program_blocks j'), (snd (ops_run (after_start (after_safety st) (j_speed j') (j_coolant j')) (j_operations j))).
  split; [exact A|]. split; [exact B|]. split; [rewrite C, EO, ops_run_app; reflexivity|].
  intros j0 HJ0 HP0. rewrite HJ in HJ0. injection HJ0 as <-. destruct (program_run h r j st HU HJ HP0 HE) as (s0 & A0 & B0 & C0).
  exists s0, (program_blocks j). split; [exact A0|]. split; [exact B0|]. rewrite C0, <- !ops_run_ok, EC. apply run_but_speed, start_but_speed.
Qed.
Lemma ops_ready co os : forall st, Forall (fun o => Forall (wf_command co) (op_commands o)) os -> ready st -> ready (fst (ops_run st os)).
Proof. intros st W R. rewrite <- ops_run_ok. apply (makes_ops co os st W R). Qed.
Lemma no_moves co os st : Forall (fun o => Forall (wf_command co) (op_commands o)) os -> ready st -> flat_map (fun o => flat_map command_moves (op_commands o)) os = [] ->
  snd (ops_run st os) = [].
Proof. intros W R E. pose proof (makes_ops co os st W R) as (_ & M). rewrite E in M. rewrite <- ops_run_ok. inversion M. reflexivity. Qed.
(** The moves before those of the last operation are the moves of the job it was added to. *)
Lemma program_after h r j t name gen h' r' j' st pre o : user_heap h -> user_heap h' -> hget h r = Some j -> fluent_op h r t name gen = (h', Ok r') -> hget h' r' = Some j' ->
  job_printable h' j' -> ms_ended st = false -> j_operations j' = pre ++ [o] ->
  exists s bs before st', to_gcode h' r' = Ok s /\ parse_program s = Some bs /\ ready st' /\
    snd (run st bs) = before ++ snd (run st' (flat_map command_blocks (op_commands o))) /\ continues h r st before.
Proof.
  intros HU HU' HJ HD HJ' HP HE HO. destruct (history_append h r j t name gen h' r' HJ HD) as (_ & j2 & mid & ju & cmds & E & EO & _ & _ & _ & _ & SF & _ & MID).
  rewrite HJ' in E. injection E as <-. assert (EO' : j_operations j' = (j_operations j ++ mid) ++ [Op r' name cmds]) by (rewrite <- app_assoc; exact EO).
  rewrite HO in EO'. apply app_inj_tail in EO' as [EP ->].
  assert (G : grown j j' (mid ++ [Op r' name cmds])) by (split; [exact EO|rewrite SF; reflexivity]).
  destruct (moves_kept h r h' r' j j' _ st HU HU' HJ HJ' G HP HE) as (s & bs & before & A & B & C & D).
  pose proof (reachable_job_wf h' r' j' (user_reachable h' HU') HJ') as W. unfold wf_job in W. rewrite EO in W. apply Forall_app in W as [W1 W]. apply Forall_app in W as [W2 W3].
  pose proof (ops_ready _ _ _ W1 (ready_header st (j_speed j') (j_coolant j'))) as R1. set (st1 := fst (ops_run _ (j_operations j))) in *. clearbody st1.
  pose proof (ops_ready _ _ _ W2 R1) as R2. rewrite ops_run_app in C. cbn [snd] in C.
  assert (N : snd (ops_run st1 mid) = []).
  { apply (no_moves _ _ _ W2 R1). destruct MID as [(_ & r1 & n & _ & ->) | [(_ & _ & r1 & ->) | (_ & _ & ->)]]; reflexivity. }
  rewrite N in C. cbn [app ops_run snd op_moves] in C. rewrite app_nil_r in C. unfold op_moves in C.
  exists s, bs, before, (fst (ops_run st1 mid)). split; [exact A|]. split; [exact B|]. split; [exact R2|]. split; [exact C|exact D].
Qed.

(** ** Holes *)
Lemma ready_after st m : ready st -> ready (after_motion st m).
Proof. exact (fun H => H). Qed.
Lemma run_motion st m rest : ready st ->
  run st (flat_map command_blocks (map Motion (m :: rest))) =
  (fst (run (after_motion st m) (flat_map command_blocks (map Motion rest))),
   Ev (m_kind m) (before_motion st m) (after_motion st m) (lookup "I" (motion_block m)) (lookup "J" (motion_block m)) (lookup "K" (motion_block m)) ::
   snd (run (after_motion st m) (flat_map command_blocks (map Motion rest)))).
Proof. intros H. cbn [map flat_map command_blocks app]. rewrite run_cons, exec_motion by apply H. reflexivity. Qed.
Lemma after_feed st m : ms_feed (before_motion st m) = first_some (option_map pyval (m_feed m)) (ms_feed st).
Proof. reflexivity. Qed.
Lemma before_pos st m : ms_x (before_motion st m) = ms_x st /\ ms_y (before_motion st m) = ms_y st /\ ms_z (before_motion st m) = ms_z st.
Proof. repeat split. Qed.
Lemma rapid_kind m : rapid m -> is_feed_move (m_kind m) = false.
Proof. destruct m as [| |[]]; cbn; tauto. Qed.
Lemma hole_events safe bottom feed p g st c : ready st -> matches st c -> continuous c g -> drilled safe bottom feed p g ->
  exists e st', ready st' /\ matches st' (after c g) /\ fst (run st (flat_map command_blocks (map Motion g))) = st' /\
    feed_moves (snd (run st (flat_map command_blocks (map Motion g)))) = [e] /\ hole_made bottom feed p e.
Proof.
  intros Hr HM HC (up & across & down & cut & -> & (R1 & _ & _) & (R2 & _ & _) & (R3 & _ & _ & _) & (C1 & V4 & Z4 & B4 & F4 & X4)).
  cbn [continuous] in HC. destruct HC as (_ & _ & _ & E4 & _).
  rewrite run_motion by exact Hr. assert (Hr1 := ready_after st up Hr). set (st1 := after_motion st up) in *. clearbody st1.
  rewrite run_motion by exact Hr1. assert (Hr2 := ready_after st1 across Hr1). set (st2 := after_motion st1 across) in *. clearbody st2.
  rewrite run_motion by exact Hr2. assert (Hr3 := ready_after st2 down Hr2). assert (M3 := matches_after st2 down). set (st3 := after_motion st2 down) in *. clearbody st3.
  rewrite run_motion by exact Hr3. assert (Hr4 := ready_after st3 cut Hr3). assert (M4 := matches_after st3 cut).
  destruct (before_pos st3 cut) as (BX & BY & BZ). assert (BF := after_feed st3 cut). set (st4 := after_motion st3 cut) in *. clearbody st4. set (st3' := before_motion st3 cut) in *. clearbody st3'.
  cbn [fst snd]. eexists _, st4. split; [exact Hr4|]. split; [exact M4|]. split; [reflexivity|]. split.
  - unfold feed_moves. cbn [filter ev_kind map flat_map run snd]. rewrite (rapid_kind up R1), (rapid_kind across R2), (rapid_kind down R3).
    assert (K : is_feed_move (m_kind cut) = true) by (destruct cut as [| |[]]; try contradiction; reflexivity). rewrite K. reflexivity.
  - assert (XY : ax (m_end cut) = Some (fst p) /\ ay (m_end cut) = Some (snd p)).
    { unfold xy in X4. destruct (ax (m_end cut)), (ay (m_end cut)); try discriminate. injection X4 as <-. auto. }
    destruct XY as [PX PY]. destruct V4 as [VX VY]. rewrite E4 in VX, VY, Z4. destruct M3 as (MX & MY & MZ), M4 as (NX & NY & NZ).
    unfold hole_made. cbn [ev_kind ev_from ev_to]. rewrite BX, BY, BZ, BF, F4, (NX _ PX), (NY _ PY), (NZ _ B4).
    split; [destruct cut as [| |[]]; try contradiction; reflexivity|]. split; [reflexivity|].
    split; [apply MX; congruence|]. split; [apply MY; congruence|].
    split; [rewrite (MZ _ Z4); f_equal; apply Qc_is_canon; vm_compute; reflexivity|].
    repeat split; reflexivity.
Qed.
Lemma holes_events safe bottom feed : forall order groups st c, ready st -> matches st c -> continuous c (concat groups) -> Forall2 (drilled safe bottom feed) order groups ->
  Forall2 (hole_made bottom feed) order (feed_moves (snd (run st (flat_map command_blocks (map Motion (concat groups)))))).
Proof.
  intros order groups st c Hr HM HC HD. revert st c Hr HM HC. induction HD as [|p g order groups D _ IH]; intros st c Hr HM HC; [constructor|].
  cbn [concat] in *. apply continuous_app in HC as [C1 C2]. destruct (hole_events _ _ _ _ _ _ _ Hr HM C1 D) as (e & st' & R & M & E1 & E2 & HH).
  rewrite map_app, flat_map_app, run_app, E1. cbn [snd]. unfold feed_moves in *. rewrite filter_app, E2. cbn [app]. constructor; [exact HH|].
  eapply IH; eassumption.
Qed.
Lemma holes_on_machine h r os d t h' r' j' st : user_heap h -> job_drill h r (Some os) (Some d) t = (h', Ok r') -> hget h' r' = Some j' -> job_printable h' j' -> ms_ended st = false ->
  exists s bs before drills p pts order, to_gcode h' r' = Ok s /\ parse_program s = Some bs /\ snd (run st bs) = before ++ drills /\ continues h r st before /\
    wanted_holes (to_world (j_top j')) os (p :: pts) /\ nearest_first p pts order /\
    Forall2 (hole_made (- qabs d) (j_feed j')) (p :: order) (feed_moves drills).
Proof.
  intros HU HD HJ HP HE. assert (HU' : user_heap h') by (pose proof (user_drill h r (Some os) (Some d) t HU) as X; rewrite HD in X; exact X).
  unfold job_drill in HD. destruct (hget h r) as [j|] eqn:Ej; [|rewrite fluent_op_none in HD by exact Ej; discriminate].
  pose proof (fluent_op_spec h r j t "Drill" (drill_gen (Some os) (Some d)) Ej) as F. rewrite HD in F. inversion F as [|h1 r1 j1 cmds U E1 Eg]; subst.
  rewrite hget_new in HJ. injection HJ as <-. destruct (drill_gen_spec _ _ _ _ Eg) as (p & pts & order & groups & W & N & -> & D & C).
  destruct (program_after _ _ _ _ _ _ _ _ _ st (j_operations j1) (Op (List.length h1) "Drill" (map Motion (concat groups))) HU HU' Ej HD (hget_new _ _) HP HE eq_refl) as (s & bs & before & st' & A & B & R & E & CT).
  exists s, bs, before, (snd (run st' (flat_map command_blocks (map Motion (concat groups))))), p, pts, order.
  split; [exact A|]. split; [exact B|]. split; [exact E|]. split; [exact CT|]. split; [exact W|]. split; [exact N|].
  eapply holes_events; [exact R| |exact C|exact D]. repeat split; intros v; discriminate.
Qed.

(** ** Floors *)
Lemma above_events floor ms : Forall (Spec.Pockets.above floor) ms -> forall st, ready st -> 
  Forall (fun m => az (m_end m) <> None) ms ->
  Forall (not_below floor) (snd (run st (flat_map command_blocks (map Motion ms)))).
Proof.
  induction 1 as [|m ms [_ H] _ IH]; intros st Hr HZ; [constructor|]. inversion HZ as [|? ? Z1 Z2]; subst. cbn [map flat_map command_blocks app].
  rewrite run_cons, exec_motion by apply Hr. cbn [fst snd app]. constructor; [|apply IH; [exact Hr|exact Z2]].
  destruct (az (m_end m)) as [z|] eqn:E; [|contradiction Z1; reflexivity]. exists (rounded 3 z). unfold after_motion. cbn [ev_to set_motion set_pos ms_z]. rewrite E.
  split; [reflexivity|]. apply rounded_mono, H. reflexivity.
Qed.
Lemma pocket_on_machine K WK F E fuel h r areas avoids a tl h' r' j' st floor : user_heap h ->
  job_pocket K WK F E fuel h r areas avoids a tl = (h', Ok r') -> hget h' r' = Some j' -> job_printable h' j' -> ms_ended st = false ->
  (floor <= 0)%Qc -> (forall f, In f areas -> floor <= fk_zmax F (fk_transform F (j_top j') f))%Qc -> (floor <= j_op_safe_height j')%Qc -> (floor <= j_rapid_height j')%Qc ->
  exists s bs before moves, to_gcode h' r' = Ok s /\ parse_program s = Some bs /\ snd (run st bs) = before ++ moves /\ continues h r st before /\ Forall (not_below floor) moves.
Proof.
  intros HU HD HJ HP HE F0 FA FS FR. assert (HU' : user_heap h') by (pose proof (user_pocket h K WK F E fuel r areas avoids a tl HU) as X; rewrite HD in X; exact X).
  unfold job_pocket in HD. destruct (hget h r) as [j|] eqn:Ej; [|rewrite fluent_op_none in HD by exact Ej; discriminate].
  pose proof (fluent_op_spec h r j tl "Pocket" (pocket_gen K WK F E fuel areas avoids a) Ej) as FL. rewrite HD in FL. inversion FL as [|h1 r1 j1 cmds U E1 Eg]; subst.
  rewrite hget_new in HJ. injection HJ as <-. destruct (pocket_placed K WK F E fuel areas avoids a j1 _ Eg) as (ms' & E' & PL).
  unfold pocket_gen in Eg. apply rbind_ok in Eg as (ms & Eg & EQ). injection EQ as <-.
  assert (ms' = ms) as ->. { clear - E'. revert ms' E'. induction ms as [|m ms IH]; intros [|m' ms'] H; try discriminate; [reflexivity|]. cbn in H. injection H as -> H. f_equal. apply IH, H. }
  destruct (program_after _ _ _ _ _ _ _ _ _ st (j_operations j1) (Op (List.length h1) "Pocket" (map Motion ms)) HU HU' Ej HD (hget_new _ _) HP HE eq_refl) as (s & bs & before & st' & A & B & R & EE & CT).
  exists s, bs, before, (snd (run st' (flat_map command_blocks (map Motion ms)))). split; [exact A|]. split; [exact B|]. split; [exact EE|]. split; [exact CT|].
  apply above_events; [|exact R|].
  - destruct (whole_pocket_floor _ _ _ _ _ _ _ _ _ _ floor Eg F0 FA FS FR) as (_ & X & _). exact X.
  - eapply Forall_impl; [|exact PL]. intros m [(_ & _ & X)|((q & X) & _)]; rewrite X; discriminate.
Qed.

(** ** Profiles *)
Definition event_of (m : motion) (e : event) : Prop :=
  ev_kind e = m_kind m /\ forall z, az (m_end m) = Some z -> ms_z (ev_to e) = Some (rounded 3 z).
Lemma motion_events ms : forall st, ready st -> Forall2 event_of ms (snd (run st (flat_map command_blocks (map Motion ms)))).
Proof.
  induction ms as [|m ms IH]; intros st Hr; [constructor|]. rewrite run_motion by exact Hr. cbn [snd]. constructor; [|apply IH, ready_after, Hr].
  split; [reflexivity|]. apply matches_after.
Qed.
Lemma Forall2_split {A B} (R : A -> B -> Prop) gs : forall es, Forall2 R (concat gs) es -> exists ess, es = concat ess /\ Forall2 (Forall2 R) gs ess.
Proof.
  induction gs as [|g gs IH]; intros es H; cbn in H.
  - inversion H; subst. exists []. split; [reflexivity|constructor].
  - apply Forall2_app_inv_l in H as (e1 & e2 & H1 & H2 & ->). destruct (IH _ H2) as (ess & -> & H3). exists (e1 :: ess). split; [reflexivity|constructor; assumption].
Qed.
Lemma not_rapid_kind m : ~ rapid m <-> is_feed_move (m_kind m) = true.
Proof. destruct m as [| |[]]; cbn; split; intros H; try reflexivity; try discriminate; try tauto. Qed.
Lemma pass_events height feed layer g es : Forall2 event_of g es -> cuts_at (fun x => x = height) g -> flat height layer -> covers feed (WWire layer) g -> pass_made height es.
Proof.
  intros HE HC [NE _] (access & es' & bodies & closing & -> & RO & HB).
  assert (X : exists m, In m (access ++ concat bodies ++ closing) /\ ~ rapid m).
  { destruct es' as [|e es']. { exfalso. destruct RO as (a & b & E1 & E2). cbn in E1. apply NE. symmetry in E2. apply app_eq_nil in E2 as [-> ->]. exact E1. }
    inversion HB as [|? c ? ? [N1 F1] _]; subst. destruct c as [|m c]; [contradiction N1; reflexivity|]. exists m. split; [|exact (proj1 (Forall_inv F1))].
    apply in_or_app. right. apply in_or_app. left. cbn. left. reflexivity. }
  set (g := access ++ concat bodies ++ closing) in *. clearbody g. clear - HE HC X. unfold pass_made, feed_moves. unfold cuts_at in HC. split.
  - destruct X as (m & Hm & Hn). apply not_rapid_kind in Hn. revert m Hm Hn. clear HC. induction HE as [|m' e g es [K _] _ IH]; intros m Hm Hn; [contradiction|].
    cbn [filter]. rewrite K. destruct Hm as [<-|Hm]; [rewrite Hn; discriminate|]. destruct (is_feed_move (m_kind m')); [discriminate|]. eapply IH; eassumption.
  - clear X. induction HE as [|m e g es [K Z] _ IH]; [constructor|]. inversion HC as [|? ? H1 H2]; subst. cbn [filter]. destruct (is_feed_move (ev_kind e)) eqn:EK; [|apply IH, H2].
    constructor; [|apply IH, H2]. rewrite K in EK. apply not_rapid_kind in EK. destruct (H1 EK) as (z & Ez & ->). apply Z, Ez.
Qed.
Definition usable_bases (TK : tab_kernel) (WK : wire_kernel) (j : job) (sd : option Qc) (bases : list (list edge)) : Prop :=
  forall b, In b bases -> (exists z, flat z b) /\ (stepped sd -> clear_of_top TK WK (j_top j) b).
Definition made_by (sd : option Qc) (feed : pynum) (b : list edge) (gs : list (list motion)) : Prop :=
  exists z s n, flat z b /\ passes_needed sd z s n /\ length gs = S n /\
    forall k g, nth_error gs k = Some g ->
      let h := (z + qz (Z.of_nat (n - k)) * s)%Qc in cuts_at (fun x => x = h) g /\ exists layer, flat h layer /\ covers feed (WWire layer) g.
Lemma group_made K TK WK j sd r ws o cmds bases : (forall s, sd = Some s -> 0 <= s)%Qc -> rigid TK WK -> tool_radius j = Some r ->
  profile_group K TK WK j sd None ws o = Ok cmds -> offsets_of K WK (j_top j) r ws o bases -> usable_bases TK WK j sd bases ->
  exists gss, cmds = concat (map (@concat motion) gss) /\ Forall2 (made_by sd (j_feed j)) bases gss.
Proof.
  intros S0 R HR HG HO HB. destruct o as [o|]; cbn [profile_group offsets_of] in *.
  2:{ injection HG as <-. subst. exists []. split; [reflexivity|constructor]. }
  apply rbind_ok in HG as (cs & HG & EQ). injection EQ as <-. destruct HO as (bss & HO & ->).
  apply mapM_ok in HG. revert bss HO HB. induction HG as [|w c ws cs E _ IH]; intros bss HO HB; inversion HO as [|? bs ? bss' O1 O2]; subst.
  - exists []. split; [reflexivity|constructor].
  - destruct (IH bss' O2) as (gss2 & EC & F2). { intros b Hb. apply HB. cbn. apply in_or_app. right. exact Hb. }
    destruct (profile_depths K TK WK j w o sd c r bs S0 R HR O1) as (gss1 & -> & F1); [|exact E|]. { intros b Hb. apply HB. cbn. apply in_or_app. left. exact Hb. }
    exists (gss1 ++ gss2). split; [cbn; rewrite map_app, concat_app, EC; reflexivity|]. cbn. apply Forall2_app; [exact F1|exact F2].
Qed.
Lemma made_events sd feed bases gss es : Forall2 (made_by sd feed) bases gss -> Forall2 event_of (concat (map (@concat motion) gss)) es ->
  exists groups, es = concat groups /\ Forall2 (profile_made sd) bases groups.
Proof.
  intros HM HE. destruct (Forall2_split _ _ _ HE) as (ess & -> & HS). exists ess. split; [reflexivity|]. clear HE.
  revert ess HS. induction HM as [|b gs bases gss (z & s & n & F & L & LE & G) _ IH]; intros ess HS; inversion HS as [|? e ? ess' H1 H2]; subst; [constructor|].
  constructor; [|apply IH, H2]. destruct (Forall2_split _ _ _ H1) as (passes & -> & HP). exists z, s, n, passes. split; [exact F|]. split; [exact L|]. split; [reflexivity|].
  split; [rewrite <- LE; clear - HP; induction HP; cbn; congruence|]. intros k p Hk.
  assert (X : exists g, nth_error gs k = Some g /\ Forall2 event_of g p).
  { clear - HP Hk. revert k Hk. induction HP as [|g q gs passes X _ IH]; intros [|k] Hk; try discriminate; [injection Hk as <-; exists g; split; [reflexivity|exact X]|apply IH, Hk]. }
  destruct X as (g & Hg & HE). destruct (G k g Hg) as (C & layer & FL & CV). eapply pass_events; eassumption.
Qed.
Lemma wire_profile_on_machine K TK WK h r ws o sd tl h' r' j' st radius bases : user_heap h ->
  job_wire_profile K TK WK h r ws o sd None tl = (h', Ok r') -> hget h' r' = Some j' -> job_printable h' j' -> ms_ended st = false ->
  (forall s, sd = Some s -> 0 <= s)%Qc -> rigid TK WK -> tool_radius j' = Some radius -> offsets_of K WK (j_top j') radius ws (Some o) bases ->
  (forall b, In b bases -> (exists z, flat z b) /\ (stepped sd -> clear_of_top TK WK (j_top j') b)) ->
  exists p bs before groups, to_gcode h' r' = Ok p /\ parse_program p = Some bs /\ snd (run st bs) = before ++ concat groups /\ continues h r st before /\ Forall2 (profile_made sd) bases groups.
Proof.
  intros HU HD HJ HP HE S0 R HR HO HB.
  assert (HU' : user_heap h') by (pose proof (user_wire_profile h K TK WK r ws o sd None tl HU) as X; rewrite HD in X; exact X).
  unfold job_wire_profile in HD. destruct (hget h r) as [j|] eqn:Ej; [|rewrite fluent_op_none in HD by exact Ej; discriminate].
  pose proof (fluent_op_spec h r j tl "Wire Profile" (wire_profile_gen K TK WK ws o sd None) Ej) as F. rewrite HD in F. inversion F as [|h1 r1 j1 cmds U E1 Eg]; subst.
  rewrite hget_new in HJ. injection HJ as <-. unfold wire_profile_gen in Eg. apply rbind_ok in Eg as (cs & Eg & EQ). injection EQ as <-.
  destruct (group_made K TK WK j1 sd radius ws (Some o) cs bases S0 R HR Eg HO HB) as (gss & -> & G).
  destruct (program_after _ _ _ _ _ _ _ _ _ st (j_operations j1) (Op (List.length h1) "Wire Profile" (map Motion (concat (map (@concat motion) gss)))) HU HU' Ej HD (hget_new _ _) HP HE eq_refl) as (p & bs & before & st' & A & B & RD & E & CT).
  destruct (made_events _ _ _ _ _ G (motion_events _ st' RD)) as (groups & EG & FG).
  exists p, bs, before, groups. split; [exact A|]. split; [exact B|]. split; [|split; [exact CT|exact FG]]. rewrite E. cbn [op_commands]. rewrite EG. reflexivity.
Qed.
Lemma profile_on_machine K TK WK h r shapes oo io sd tl h' r' j' st radius inners outers : user_heap h ->
  job_profile K TK WK h r shapes oo io sd None tl = (h', Ok r') -> hget h' r' = Some j' -> job_printable h' j' -> ms_ended st = false ->
  (forall s, sd = Some s -> 0 <= s)%Qc -> rigid TK WK -> tool_radius j' = Some radius ->
  offsets_of K WK (j_top j') radius (flat_map inners_of shapes) io inners -> offsets_of K WK (j_top j') radius (flat_map outer_of shapes) oo outers ->
  (forall b, In b (inners ++ outers) -> (exists z, flat z b) /\ (stepped sd -> clear_of_top TK WK (j_top j') b)) ->
  exists p bs before groups, to_gcode h' r' = Ok p /\ parse_program p = Some bs /\ snd (run st bs) = before ++ concat groups /\ continues h r st before /\ Forall2 (profile_made sd) (inners ++ outers) groups.
Proof.
  intros HU HD HJ HP HE S0 R HR HI HO HB.
  assert (HU' : user_heap h') by (pose proof (user_profile h K TK WK r shapes oo io sd None tl HU) as X; rewrite HD in X; exact X).
  unfold job_profile in HD. destruct (hget h r) as [j|] eqn:Ej; [|discriminate].
  destruct (negb (is_some (j_tool_diameter j))); [discriminate|]. destruct (negb (is_some oo) && negb (is_some io))%bool; [discriminate|].
  assert (SU : Forall supported shapes).
  { apply Forall_forall. intros x Hx ->. assert (X : extract_wires shapes = Err ValueError) by (apply extract_wires_err; auto). rewrite X in HD. discriminate. }
  rewrite (extract_wires_ok shapes SU) in HD.
  pose proof (fluent_op_spec h r j tl "Profile" (profile_gen K TK WK (flat_map outer_of shapes) (flat_map inners_of shapes) oo io sd None) Ej) as F. rewrite HD in F. inversion F as [|h1 r1 j1 cmds U E1 Eg]; subst.
  rewrite hget_new in HJ. injection HJ as <-. unfold profile_gen in Eg. apply rbind_ok in Eg as (ci & Ei & Eg). apply rbind_ok in Eg as (co & Eo & EQ). injection EQ as <-.
  destruct (group_made K TK WK j1 sd radius _ _ ci inners S0 R HR Ei HI) as (gi & -> & Gi). { intros b Hb. apply HB, in_or_app. left. exact Hb. }
  destruct (group_made K TK WK j1 sd radius _ _ co outers S0 R HR Eo HO) as (go & -> & Go). { intros b Hb. apply HB, in_or_app. right. exact Hb. }
  destruct (program_after _ _ _ _ _ _ _ _ _ st (j_operations j1) (Op (List.length h1) "Profile" (map Motion (concat (map (@concat motion) gi) ++ concat (map (@concat motion) go)))) HU HU' Ej HD (hget_new _ _) HP HE eq_refl) as (p & bs & before & st' & A & B & RD & E & CT).
  assert (ME := motion_events (concat (map (@concat motion) gi) ++ concat (map (@concat motion) go)) st' RD). rewrite <- concat_app, <- map_app in ME.
  destruct (made_events _ _ _ _ _ (Forall2_app Gi Go) ME) as (groups & EG & FG).
  exists p, bs, before, groups. split; [exact A|]. split; [exact B|]. split; [|split; [exact CT|exact FG]]. rewrite E. cbn [op_commands]. rewrite <- EG, <- concat_app, <- map_app. reflexivity.
Qed.
