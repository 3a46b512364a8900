(** Examples, witnesses and final forms for Props/Program.v. *)
From Verif Require Import Base.Str Spec.Gcode Spec.Blocks Spec.Machine Spec.Program Spec.Jobs Spec.Arcs Spec.Codes
  Model.Groups Model.Plane Model.Job Proofs.JobP Proofs.HistoryP Proofs.ProgramThmP.
From Coq Require Import NArith Lia.
Local Open Scope list_scope.
Local Open Scope Z_scope.

Definition st_off : mstate :=
  MS None None None SpOff None false false None (Some (qz 1)) None None None None None None None None None None false.

Definition ex_job (u : unit_code) (o : work_offset) (p : planner_mode) : job :=
  new_job plane_xy (PInt 300) (Some (PInt 1000)) (Some (qz 3)) (Some 1) "part" None None None 3 u
          PLANE_XY o ABSOLUTE ARC_ABSOLUTE p (Some MIST).
Definition ex_motions : list motion :=
  [ mk_rapid (AV None None (Some (qz 10))) None false;
    mk_cut (AV (Some (qq 1 3)) (Some (qq (-5) 2)) None) None false (Some (PInt 300)) ].
Definition ex_gen (j : job) : result (list command) := Ok (map Motion ex_motions).
Definition ex_tool : tool := Tool None (Some 2) (Some (PInt 150)) (Some (PInt 2000)).

Definition ex_heap0 : heap := [ex_job METRIC OFFSET_1 CONTINUOUS].
Definition ex_heap1 : heap := fst (fluent_op ex_heap0 0%nat None "Profile" ex_gen).
Definition ex_heap : heap := fst (fluent_op ex_heap1 1%nat (Some ex_tool) "Pocket" ex_gen).
Definition ex_ref : ref := 3%nat.
Definition ex_text : string := Eval vm_compute in match to_gcode ex_heap ex_ref with Ok s => s | Err _ => "" end.

Lemma ex_gen_motion : motion_gen ex_gen.
Proof. intros j cmds H. injection H as <-. exists ex_motions. reflexivity. Qed.
Lemma ex_reachable0 u o p : reachable [ex_job u o p].
Proof. apply (reach_new []); [constructor|reflexivity]. Qed.
Lemma ex_reachable : reachable ex_heap.
Proof. apply reach_call; [apply reach_call; [apply ex_reachable0|apply ex_gen_motion]|apply ex_gen_motion]. Qed.

Lemma ex_arc :
  let m := MArc true (AV (Some (qq 1 3)) (Some (qz 0)) None) (AV (Some (qz 0)) (Some (qq 1 3)) None)
             (AV (Some (qz 0)) (Some (qz 0)) None) av_none false None in
  motion_ok m /\ printable m = true /\
  sq2 (qq 1 3 - qz 0) (qz 0 - qz 0) = sq2 (qz 0 - qz 0) (qq 1 3 - qz 0).
Proof. split; [|split]; [repeat split; vm_compute; discriminate|reflexivity|apply Qc_is_canon; reflexivity]. Qed.

Lemma ex_motions_ok : Forall (fun m => motion_ok m /\ printable m = true) ex_motions.
Proof. repeat constructor; vm_compute; try discriminate; auto. Qed.

Lemma ex_printable : exists j, hget ex_heap ex_ref = Some j /\ job_printable ex_heap j /\
  List.length (j_operations j) = 3%nat.
Proof.
  eexists. split; [reflexivity|]. split; [|reflexivity].
  assert (C : Forall command_ok (map Motion ex_motions)) by (apply Forall_map; exact ex_motions_ok).
  split; [reflexivity|]. split; [vm_compute; auto|]. split; [vm_compute; auto|].
  repeat (apply Forall_cons); try apply Forall_nil.
  - split; [eexists; split; reflexivity|]. split; [reflexivity|exact C].
  - split; [eexists; split; reflexivity|]. split; [reflexivity|]. repeat constructor; vm_compute; auto.
  - split; [eexists; split; reflexivity|]. split; [reflexivity|exact C].
Qed.

Lemma ex_program : reachable ex_heap /\ (exists j, hget ex_heap ex_ref = Some j /\ job_printable ex_heap j /\
  List.length (j_operations j) = 3%nat) /\ to_gcode ex_heap ex_ref = Ok ex_text.
Proof. split; [exact ex_reachable|]. split; [exact ex_printable|]. vm_compute. reflexivity. Qed.

Definition blocks_of (h : heap) (r : ref) : list block :=
  match to_gcode h r with Ok s => match parse_program s with Some bs => bs | None => [] end | Err _ => [] end.

Lemma ex_moves : exists s bs, to_gcode ex_heap ex_ref = Ok s /\ parse_program s = Some bs /\
  List.length (snd (run st_off bs)) = 4%nat.
Proof. eexists _, (blocks_of ex_heap ex_ref). split; [vm_compute; reflexivity|]. split; vm_compute; reflexivity. Qed.

Lemma empty_motion : exists m s b, motion_ok m /\ str_motion m = Ok s /\ parse_line s = Some b /\ legal_block b = false.
Proof. exists (mk_rapid av_none None false). eexists _, _. split; [repeat split|]. split; [reflexivity|]. split; [reflexivity|reflexivity]. Qed.

Lemma ex_axes : exists j, hget ex_heap ex_ref = Some j /\
  Forall (fun o => Forall command_has_axis (op_commands o)) (j_operations j).
Proof. eexists. split; [reflexivity|]. repeat constructor. Qed.

Lemma metric_units h r j st :
  reachable h -> hget h r = Some j -> job_printable h j -> ms_ended st = false -> j_unit j = METRIC ->
  exists s bs, to_gcode h r = Ok s /\ parse_program s = Some bs /\
    Forall (fun e => ms_units (ev_from e) = Some (unit_word (j_unit j))) (snd (run st bs)).
Proof.
  intros Hr Hj Hp He ->. destruct (modes_fixed h r j st Hr Hj Hp He) as (s & bs & A & B & C & _). eauto.
Qed.
Lemma always_metric h r j st :
  reachable h -> hget h r = Some j -> job_printable h j -> ms_ended st = false ->
  exists s bs, to_gcode h r = Ok s /\ parse_program s = Some bs /\
    Forall (fun e => ms_units (ev_from e) = Some (unit_word METRIC)) (snd (run st bs)).
Proof.
  intros Hr Hj Hp He. destruct (modes_fixed h r j st Hr Hj Hp He) as (s & bs & A & B & C & _). eauto.
Qed.

Definition first_event (bs : list block) : event :=
  nth 0 (snd (run st_off bs)) (Ev GRapid st_off st_off None None None).

Lemma imperial_refuted : exists h r j s bs e,
  reachable h /\ hget h r = Some j /\ j_unit j = IMPERIAL /\
  to_gcode h r = Ok s /\ parse_program s = Some bs /\
  In e (snd (run st_off bs)) /\ ms_units (ev_from e) <> Some (unit_word (j_unit j)).
Proof.
  set (h := fst (fluent_op [ex_job IMPERIAL OFFSET_1 CONTINUOUS] 0%nat None "Profile" ex_gen)).
  exists h, 1%nat. eexists _, _, (blocks_of h 1%nat), (first_event (blocks_of h 1%nat)).
  split; [apply reach_call; [apply ex_reachable0|apply ex_gen_motion]|].
  split; [reflexivity|]. split; [reflexivity|]. split; [vm_compute; reflexivity|]. split; [vm_compute; reflexivity|].
  split; [vm_compute; left; reflexivity|]. vm_compute. discriminate.
Qed.

Lemma defaults_honoured h r j st :
  reachable h -> hget h r = Some j -> job_printable h j -> ms_ended st = false ->
  j_coordinate j = OFFSET_1 -> j_plane j = PLANE_XY -> j_distance j = ABSOLUTE -> j_controller_motion j = CONTINUOUS ->
  exists s bs, to_gcode h r = Ok s /\ parse_program s = Some bs /\
    Forall (fun e => ms_wcs (ev_from e) = Some (offset_word (j_coordinate j)) /\
                     ms_plane (ev_from e) = Some (plane_word (j_plane j)) /\
                     ms_dist (ev_from e) = Some (distance_word (j_distance j)) /\
                     ms_path (ev_from e) = Some (path_word (j_controller_motion j))) (snd (run st bs)).
Proof.
  intros Hr Hj Hp He -> -> -> ->. destruct (modes_fixed h r j st Hr Hj Hp He) as (s & bs & A & B & _ & C). eauto.
Qed.

Lemma settings_ignored h r j st :
  reachable h -> hget h r = Some j -> job_printable h j -> ms_ended st = false ->
  exists s bs, to_gcode h r = Ok s /\ parse_program s = Some bs /\
    (forall b a, In b bs -> member (arc_word a) (codes "G" b) = false) /\
    Forall (fun e =>
      (j_coordinate j <> OFFSET_1 -> ms_wcs (ev_from e) <> Some (offset_word (j_coordinate j))) /\
      (j_plane j <> PLANE_XY -> ms_plane (ev_from e) <> Some (plane_word (j_plane j))) /\
      (j_distance j <> ABSOLUTE -> ms_dist (ev_from e) <> Some (distance_word (j_distance j))) /\
      (j_controller_motion j <> CONTINUOUS -> ms_path (ev_from e) <> Some (path_word (j_controller_motion j))))
      (snd (run st bs)).
Proof.
  intros Hr Hj Hp He. destruct (modes_fixed h r j st Hr Hj Hp He) as (s & bs & A & B & _ & C).
  exists s, bs. split; [exact A|]. split; [exact B|]. split.
  - destruct (arc_mode_never h r j Hj Hp) as (s' & bs' & A' & B' & C'). rewrite A in A'. injection A' as <-.
    rewrite B in B'. injection B' as <-. exact C'.
  - eapply Forall_impl; [|exact C]. intros e (E1 & E2 & E3 & E4).
    rewrite E1, E2, E3, E4. clear. split; [|split; [|split]].
    + destruct (j_coordinate j); intros H K; try discriminate K; congruence.
    + destruct (j_plane j); intros H K; try discriminate K; congruence.
    + destruct (j_distance j); intros H K; try discriminate K; congruence.
    + destruct (j_controller_motion j); intros H K; try discriminate K; congruence.
Qed.

Lemma settings_refuted : exists h r j s bs e,
  reachable h /\ hget h r = Some j /\ j_coordinate j = OFFSET_2 /\ j_controller_motion j = EXACT_PATH /\
  to_gcode h r = Ok s /\ parse_program s = Some bs /\
  In e (snd (run st_off bs)) /\ ms_wcs (ev_from e) <> Some (offset_word (j_coordinate j)) /\
  ms_path (ev_from e) <> Some (path_word (j_controller_motion j)).
Proof.
  set (h := fst (fluent_op [ex_job METRIC OFFSET_2 EXACT_PATH] 0%nat None "Profile" ex_gen)).
  exists h, 1%nat. eexists _, _, (blocks_of h 1%nat), (first_event (blocks_of h 1%nat)).
  split; [apply reach_call; [apply ex_reachable0|apply ex_gen_motion]|].
  split; [reflexivity|]. split; [reflexivity|]. split; [reflexivity|]. split; [vm_compute; reflexivity|]. split; [vm_compute; reflexivity|].
  split; [vm_compute; left; reflexivity|]. split; vm_compute; discriminate.
Qed.

Lemma right_tool h r j0 cs j st :
  built h r j0 cs -> hget h r = Some j -> job_printable h j -> ms_ended st = false ->
  (forall n, j_tool_number j0 = Some n -> ms_tool st = Some (qz n)) ->
  exists s hd segs ft,
    to_gcode h r = Ok s /\ parse_program s = Some (hd ++ flat_map seg_blocks segs ++ ft) /\
    List.length segs = List.length cs /\ snd (run st hd) = [] /\
    snd (run (fst (run st (hd ++ flat_map seg_blocks segs))) ft) = [] /\
    forall k c p b, nth_error cs k = Some c -> nth_error segs k = Some (p, b) ->
      let st1 := fst (run st (hd ++ flat_map seg_blocks (firstn k segs) ++ p)) in
      let tk := tool_after j0 (firstn (S k) cs) in
      b = call_blocks c /\
      snd (run (fst (run st (hd ++ flat_map seg_blocks (firstn k segs)))) p) = [] /\
      (existsb changes_tool p = true <-> tk <> tool_after j0 (firstn k cs)) /\
      (tk <> tool_after j0 (firstn k cs) -> ms_length st1 = tool_is (ms_tool st) tk) /\
      ms_tool st1 = tool_is (ms_tool st) tk /\
      Forall (fun ev => ms_tool (ev_from ev) = tool_is (ms_tool st) tk /\ ms_tool (ev_to ev) = tool_is (ms_tool st) tk)
             (snd (run st1 b)).
Proof.
  intros B Hj Hp He HT. destruct (program_by_call h r j0 cs j st B Hj Hp He HT) as (s & hd & segs & ft & H1 & H2 & H3 & H4 & H5 & H6).
  exists s, hd, segs, ft. split; [exact H1|]. split; [exact H2|]. split; [exact H3|]. split; [exact H4|]. split; [exact H5|].
  intros k c p b Hc Hs. destruct (H6 k c p b Hc Hs) as (e & K0 & K1 & K2 & K3 & K4 & K5 & K6 & K7).
  cbv zeta. split; [exact K1|]. split; [exact K2|]. split; [exact K3|]. split; [exact K4|]. split; [exact K5|].
  eapply Forall_impl; [|exact K7]. intros ev (E1 & E2 & _). split; assumption.
Qed.

Lemma ex_built : exists j0 cs, built ex_heap ex_ref j0 cs /\ List.length cs = 2%nat /\
  tool_after j0 (firstn 1 cs) = Some 1 /\ tool_after j0 cs = Some 2.
Proof.
  exists (ex_job METRIC OFFSET_1 CONTINUOUS), [Call None "Profile" ex_motions; Call (Some ex_tool) "Pocket" ex_motions].
  split; [|repeat split].
  apply (built_call ex_heap1 1%nat _ [Call None "Profile" ex_motions] (Some ex_tool) "Pocket" ex_gen ex_heap 3%nat
     (nth 3 ex_heap (ex_job METRIC OFFSET_1 CONTINUOUS)) (firstn 2 (j_operations (nth 3 ex_heap (ex_job METRIC OFFSET_1 CONTINUOUS))))).
  - apply (built_call ex_heap0 0%nat _ [] None "Profile" ex_gen ex_heap1 1%nat
       (nth 1 ex_heap1 (ex_job METRIC OFFSET_1 CONTINUOUS)) []).
    + apply (built_new []). reflexivity.
    + reflexivity.
    + reflexivity.
    + reflexivity.
  - reflexivity.
  - reflexivity.
  - reflexivity.
Qed.

Lemma speed_by_call h r j0 cs j st :
  built h r j0 cs -> hget h r = Some j -> job_printable h j -> ms_ended st = false ->
  (forall n, j_tool_number j0 = Some n -> ms_tool st = Some (qz n)) ->
  exists s hd segs ft,
    to_gcode h r = Ok s /\ parse_program s = Some (hd ++ flat_map seg_blocks segs ++ ft) /\
    List.length segs = List.length cs /\ snd (run st hd) = [] /\
    snd (run (fst (run st (hd ++ flat_map seg_blocks segs))) ft) = [] /\
    forall k c p b, nth_error cs k = Some c -> nth_error segs k = Some (p, b) ->
      let st1 := fst (run st (hd ++ flat_map seg_blocks (firstn k segs) ++ p)) in
      let final := first_some (speed_after j0 cs) (ms_speed st) in
      b = call_blocks c /\
      snd (run (fst (run st (hd ++ flat_map seg_blocks (firstn k segs)))) p) = [] /\
      ((exists i, (i <= k)%nat /\ changes j0 cs i) ->
         Forall (fun ev => ms_speed (ev_from ev) = first_some (speed_after j0 (firstn (S k) cs)) final /\
                           ms_speed (ev_to ev) = first_some (speed_after j0 (firstn (S k) cs)) final)
                (snd (run st1 b))) /\
      (~ (exists i, (i <= k)%nat /\ changes j0 cs i) ->
         Forall (fun ev => ms_speed (ev_from ev) = final /\ ms_speed (ev_to ev) = final) (snd (run st1 b))).
Proof.
  intros B Hj Hp He HT. destruct (program_by_call h r j0 cs j st B Hj Hp He HT) as (s & hd & segs & ft & H1 & H2 & H3 & H4 & H5 & H6).
  exists s, hd, segs, ft. split; [exact H1|]. split; [exact H2|]. split; [exact H3|]. split; [exact H4|]. split; [exact H5|].
  intros k c p b Hc Hs. destruct (H6 k c p b Hc Hs) as (e & K0 & K1 & K2 & _ & _ & _ & _ & K7).
  cbv zeta. split; [exact K1|]. split; [exact K2|]. split; intros Hx.
  - apply K0 in Hx. subst e. eapply Forall_impl; [|exact K7]. intros ev (_ & _ & E). exact E.
  - destruct e; [exfalso; apply Hx; apply K0; reflexivity|]. eapply Forall_impl; [|exact K7]. intros ev (_ & _ & E). exact E.
Qed.

Definition ex_speed_tool : tool := Tool None None None (Some (PInt 2000)).
Lemma speed_refuted : exists h r j0 cs j s bs e,
  built h r j0 cs /\ hget h r = Some j /\ j_speed j0 = Some (PInt 1000) /\
  speed_after j0 (firstn 1 cs) = Some (qz 1000) /\ speed_after j0 cs = Some (qz 2000) /\
  to_gcode h r = Ok s /\ parse_program s = Some bs /\
  nth_error (snd (run st_off bs)) 0 = Some e /\ ms_speed (ev_from e) = Some (qz 2000).
Proof.
  set (j0 := ex_job METRIC OFFSET_1 CONTINUOUS).
  set (h := fst (fluent_op ex_heap1 1%nat (Some ex_speed_tool) "Pocket" ex_gen)).
  exists h, 3%nat, j0, [Call None "Profile" ex_motions; Call (Some ex_speed_tool) "Pocket" ex_motions].
  eexists _, _, (blocks_of h 3%nat), (first_event (blocks_of h 3%nat)).
  split.
  { apply (built_call ex_heap1 1%nat _ [Call None "Profile" ex_motions] (Some ex_speed_tool) "Pocket" ex_gen h 3%nat
     (nth 3 h j0) (firstn 2 (j_operations (nth 3 h j0)))).
    - apply (built_call ex_heap0 0%nat _ [] None "Profile" ex_gen ex_heap1 1%nat (nth 1 ex_heap1 j0) []); try reflexivity.
      apply (built_new []). reflexivity.
    - reflexivity.
    - reflexivity.
    - reflexivity. }
  split; [reflexivity|]. split; [reflexivity|]. split; [reflexivity|]. split; [reflexivity|].
  split; [vm_compute; reflexivity|]. split; [vm_compute; reflexivity|]. split; vm_compute; reflexivity.
Qed.

Lemma receiver_partial h r t name gen :
  let h' := fst (fluent_op h r t name gen) in
  (forall r2 x, r2 <> r -> hget h r2 = Some x -> hget h' r2 = Some x) /\
  (forall r2 s, r2 <> r -> to_gcode h r2 = Ok s -> to_gcode h' r2 = Ok s) /\
  (forall j, hget h r = Some j -> t = None \/ other_tool j t \/ other_speed j t ->
     hget h' r = Some j /\ forall s, to_gcode h r = Ok s -> to_gcode h' r = Ok s) /\
  (forall j, hget h r = Some j -> exists j', hget h' r = Some j' /\
     (j' = j \/ (settings_of j' = tool_settings j t /\ same_frame j j' /\ j_operations j' = j_operations j))).
Proof.
  cbv zeta. split; [intros; apply fluent_others; assumption|].
  split; [intros; apply others_program_kept; assumption|]. split.
  - intros j Hj H. destruct (receiver_after h r j t name gen Hj) as (j' & E & A & _).
    rewrite (A H) in E. split; [exact E|]. intros s Hs. unfold to_gcode in *. rewrite Hj in Hs. rewrite E.
    apply program_kept. exact Hs.
  - intros j Hj. destruct (receiver_after h r j t name gen Hj) as (j' & E & _ & B). eauto.
Qed.

Definition ex_feed_tool : tool := Tool None None (Some (PInt 150)) None.
Lemma receiver_refuted : exists h r t name gen j j' s s',
  reachable h /\ motion_gen gen /\ hget h r = Some j /\
  hget (fst (fluent_op h r t name gen)) r = Some j' /\ pyval (j_feed j') <> pyval (j_feed j) /\
  to_gcode h r = Ok s /\ to_gcode (fst (fluent_op h r t name gen)) r = Ok s' /\ s <> s'.
Proof.
  exists ex_heap0, 0%nat, (Some ex_feed_tool), "Profile"%string, ex_gen. eexists _, _, _, _.
  split; [apply ex_reachable0|]. split; [apply ex_gen_motion|]. split; [reflexivity|]. split; [reflexivity|].
  split; [vm_compute; discriminate|]. split; [vm_compute; reflexivity|]. split; [vm_compute; reflexivity|]. discriminate.
Qed.

Lemma append_only h r j t name gen h' r' :
  hget h r = Some j -> fluent_op h r t name gen = (h', Ok r') ->
  (hget h r' = None /\
  exists j' mid ju cmds, hget h' r' = Some j' /\
    j_operations j' = j_operations j ++ mid ++ [Op r' name cmds] /\
    gen ju = Ok cmds /\ settings_of ju = tool_settings j t /\ same_frame j ju /\
    settings_of j' = tool_settings j t /\ same_frame j j' /\
    j_operations ju = j_operations j ++ mid /\
    ((other_tool j t /\ exists r1 n, j_tool_number j' = Some n /\
        mid = [Op r1 "Tool Change" [Config (CToolChange n (j_speed j') (j_coolant j))]]) \/
     (~ other_tool j t /\ other_speed j t /\ exists r1,
        mid = [Op r1 "Speed Change" [Config (CStart (j_speed j') (j_coolant j))]]) \/
     (~ other_tool j t /\ ~ other_speed j t /\ mid = []))) /\
  (forall o s, op_text h o = Ok s -> op_text h' o = Ok s).
Proof.
  intros Hj E. split; [eapply history_append; eassumption|].
  intros o s Ho. replace h' with (fst (fluent_op h r t name gen)) by (rewrite E; reflexivity).
  apply op_text_kept. exact Ho.
Qed.

Lemma ex_append : exists j h', hget ex_heap0 0%nat = Some j /\
  fluent_op ex_heap0 0%nat (Some ex_tool) "Pocket" ex_gen = (h', Ok 2%nat) /\ other_tool j (Some ex_tool).
Proof.
  eexists _, _. split; [reflexivity|]. split; [reflexivity|].
  exists ex_tool, 2. split; [reflexivity|]. split; [reflexivity|]. vm_compute. discriminate.
Qed.

Lemma save_refuted : exists addr h r s, reachable h /\ to_gcode h r = Ok s /\ save_gcode addr h r <> s.
Proof.
  exists "7f00"%string, ex_heap, ex_ref, ex_text. split; [exact ex_reachable|]. split; [vm_compute; reflexivity|].
  apply save_never. vm_compute. reflexivity.
Qed.

Lemma listed_refuted : exists h r s bs b c, reachable h /\
  to_gcode h r = Ok s /\ parse_program s = Some bs /\ In b bs /\ In c (codes "G" b) /\ listed_g_code c = false.
Proof.
  exists ex_heap, ex_ref, ex_text, (blocks_of ex_heap ex_ref), (nth 1 (blocks_of ex_heap ex_ref) []), 500.
  split; [exact ex_reachable|]. split; [vm_compute; reflexivity|]. split; [vm_compute; reflexivity|].
  split; [apply nth_In; vm_compute; lia|]. split; [vm_compute; tauto|reflexivity].
Qed.

Lemma word_eq s l v v' : parse_line s = Some [W l v] -> (this v == this v')%Q -> parse_line s = Some [W l v'].
Proof. intros -> H. apply Qc_is_canon in H. congruence. Qed.
Lemma codes_text c : c <> EProbe ON_CONTACT_ERROR -> parse_line (str_code c) = Some [code_word c].
Proof. destruct c as [[]|[]|[]|[]|[]|[]|[]|[]|[]|[]|[]|[]|[]|[]|[]|[]|[]|[]|[]|[]]; intros H; try reflexivity;
  try (eapply word_eq; [vm_compute; reflexivity|vm_compute; reflexivity]); congruence. Qed.
Lemma probe_refuted : exists c, parse_line (str_code c) <> Some [code_word c].
Proof. exists (EProbe ON_CONTACT_ERROR). vm_compute. discriminate. Qed.
