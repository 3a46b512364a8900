(** Lemmas behind Props/Program.v. *)
From Verif Require Import Base.Str Spec.Gcode Spec.Blocks Spec.Machine Spec.Program Spec.Jobs Spec.Arcs
  Model.Groups Model.Job Proofs.TextP Proofs.CommandP Proofs.TextThmP Proofs.MotionP Proofs.MachineP Proofs.ProgramP Proofs.JobP Proofs.HistoryP.
From Coq Require Import NArith Lia.
Local Open Scope list_scope.
Local Open Scope Z_scope.

(** ** C05 *)
Lemma qsq_nonneg x : (0 <= x * x)%Qc.
Proof. qnra. Qed.
Lemma qabs_bound x b : (qabs x <= b)%Qc -> (- b <= x /\ x <= b)%Qc.
Proof. intros H. split; qabs_cases; qlra. Qed.

Lemma Qsq_nn (a : Q) : (0 <= a * a)%Q.
Proof. nra. Qed.
Lemma Qprod_le (a b c d : Q) : (0 <= a -> 0 <= c -> a <= b -> c <= d -> a * c <= b * d)%Q.
Proof. intros. apply Qle_trans with (b * c)%Q; nra. Qed.

(** Triangle inequality: |a + d| <= t + s if |a| <= t and |d| <= s. *)
Lemma triangle ax ay dx dy t s :
  (0 <= t)%Qc -> (0 <= s)%Qc -> (sq2 ax ay <= t * t)%Qc -> (sq2 dx dy <= s * s)%Qc ->
  (sq2 (ax + dx) (ay + dy) <= (t + s) * (t + s))%Qc.
Proof.
  unfold sq2. intros Ht Hs Ha Hd. qc2q.
  set (A := this ax) in *. set (B := this ay) in *. set (C := this dx) in *. set (D := this dy) in *.
  set (T := this t) in *. set (S := this s) in *. clearbody A B C D T S.
  (* (AC + BD)^2 <= (A^2+B^2)(C^2+D^2) <= T^2 S^2, hence AC + BD <= TS *)
  assert (Q1 : ((A*C + B*D) * (A*C + B*D) <= (A*A + B*B) * (C*C + D*D))%Q).
  { pose proof (Qsq_nn (A*D - B*C)). lra. }
  assert (Q2 : ((A*A + B*B) * (C*C + D*D) <= (T*T) * (S*S))%Q).
  { pose proof (Qsq_nn A). pose proof (Qsq_nn B). pose proof (Qsq_nn C). pose proof (Qsq_nn D).
    apply Qprod_le; lra. }
  assert (Q3 : (A*C + B*D <= T*S)%Q).
  { destruct (Qlt_le_dec (T*S) (A*C + B*D)) as [H|H]; [|exact H]. exfalso.
    assert (0 <= T*S)%Q by nra. set (U := (T*S)%Q) in *. set (V := (A*C + B*D)%Q) in *.
    assert (T*T * (S*S) == U * U)%Q by (unfold U; ring). clearbody U V. nra. }
  lra.
Qed.

Lemma small_sq e b x y : (0 <= e)%Qc -> (qabs x <= e)%Qc -> (qabs y <= e)%Qc ->
  (qz 2 * (e * e) <= b * b)%Qc -> (sq2 x y <= b * b)%Qc.
Proof.
  intros He Hx Hy Hb. apply qabs_bound in Hx, Hy. destruct Hx, Hy. unfold sq2. qc2q.
  set (X := this x) in *. set (Y := this y) in *. set (E := this e) in *. set (B := this b) in *. clearbody X Y E B.
  change (inject_Z 2) with (2 # 1)%Q in *. nra.
Qed.

Definition half_unit : Qc := qq 1 2000.
Lemma rounded3_near x : (qabs (x - rounded 3 x) <= half_unit)%Qc.
Proof.
  destruct (rounded_near 3 x) as [H _]. set (u := qabs _) in *. unfold half_unit.
  change (qz (pow10 3)) with (qz 1000) in H. clearbody u. qc2q. 
  change (inject_Z 1000) with (1000 # 1)%Q in *. lra.
Qed.

(** Arc radii: start (sx,sy), end (ex,ey), centre (cx,cy) as asked; the machine is at (x0,y0). *)
Lemma arc_radii sx sy ex ey cx cy x0 y0 :
  sq2 (sx - cx) (sy - cy) = sq2 (ex - cx) (ey - cy) ->
  (qabs (x0 - sx) <= half_unit)%Qc -> (qabs (y0 - sy) <= half_unit)%Qc ->
  let i := rounded 3 (cx - sx) in let j := rounded 3 (cy - sy) in
  let r1 := sq2 i j in
  let r2 := sq2 (rounded 3 ex - (x0 + i)) (rounded 3 ey - (y0 + j)) in
  root_le_plus r1 r2 (qq 3 1000) /\ root_le_plus r2 r1 (qq 3 1000).
Proof.
  intros Hr Hx Hy i j r1 r2.
  set (e := half_unit) in *. set (b := qq 71 100000).
  assert (He : (0 <= e)%Qc) by (vm_compute; discriminate).
  assert (Hb : (0 <= b)%Qc) by (vm_compute; discriminate).
  assert (Hb2 : (qz 2 * (e * e) <= b * b)%Qc) by (vm_compute; discriminate).
  assert (Hb3 : (qz 2 * ((qz 3 * e) * (qz 3 * e)) <= (qz 3 * b) * (qz 3 * b))%Qc) by (vm_compute; discriminate).
  assert (H3 : (0 <= qz 3 * b)%Qc) by (vm_compute; discriminate).
  assert (H4 : (0 <= qz 3 * e)%Qc) by (vm_compute; discriminate).
  pose proof (rounded3_near (cx - sx)) as I1. pose proof (rounded3_near (cy - sy)) as J1.
  pose proof (rounded3_near ex) as X1. pose proof (rounded3_near ey) as Y1.
  fold i in I1. fold j in J1. fold e in I1, J1, X1, Y1.
  (* deviations *)
  set (d1x := ((cx - sx) - i)%Qc) in *. set (d1y := ((cy - sy) - j)%Qc) in *.
  assert (D1 : (sq2 d1x d1y <= b * b)%Qc) by (apply (small_sq e); assumption).
  set (d2x := ((ex - cx) - (rounded 3 ex - (x0 + i)))%Qc).
  set (d2y := ((ey - cy) - (rounded 3 ey - (y0 + j)))%Qc).
  assert (E2x : d2x = ((ex - rounded 3 ex) + (x0 - sx) - d1x)%Qc) by (unfold d2x, d1x; ring).
  assert (E2y : d2y = ((ey - rounded 3 ey) + (y0 - sy) - d1y)%Qc) by (unfold d2y, d1y; ring).
  assert (D2 : (sq2 d2x d2y <= (qz 3 * b) * (qz 3 * b))%Qc).
  { apply (small_sq (qz 3 * e)); [exact H4| | |exact Hb3].
    - rewrite E2x. apply qabs_bound in I1, X1, Hx. clear - I1 X1 Hx.
      change (qz 3) with (1 + 1 + 1)%Qc. destruct I1, X1, Hx. qabs_cases; qlra.
    - rewrite E2y. apply qabs_bound in J1, Y1, Hy. clear - J1 Y1 Hy.
      change (qz 3) with (1 + 1 + 1)%Qc. destruct J1, Y1, Hy. qabs_cases; qlra. }
  assert (Hsum : ((b + qz 3 * b) <= qq 3 1000)%Qc) by (vm_compute; discriminate).
  assert (mono : forall u t, (0 <= t)%Qc -> (0 <= u)%Qc -> (u <= t + (b + qz 3 * b))%Qc -> (u * u <= (t + qq 3 1000) * (t + qq 3 1000))%Qc).
  { intros u t Ht Hu Hut. set (v := (t + qq 3 1000)%Qc). assert (u <= v)%Qc by (unfold v; clear - Hut Hsum; qlra).
    clearbody v. clear - H Hu. qnra. }
  split; intros t Ht Hle; unfold r1, r2 in *.
  - (* |ij| <= |s-c| + b = |e-c| + b <= |r2| + 3b + b *)
    apply Qcle_trans with (((t + qz 3 * b) + b) * ((t + qz 3 * b) + b))%Qc.
    2:{ apply mono; [exact Ht| |]; clear - Ht Hb H3; qlra. }
    replace i with ((cx - sx) + - d1x)%Qc by (unfold d1x; ring).
    replace j with ((cy - sy) + - d1y)%Qc by (unfold d1y; ring).
    apply triangle; [clear - Ht H3; qlra | exact Hb | | ].
    + replace (sq2 (cx - sx) (cy - sy)) with (sq2 (sx - cx) (sy - cy)) by (unfold sq2; ring).
      rewrite Hr.
      replace (ex - cx)%Qc with ((rounded 3 ex - (x0 + i)) + d2x)%Qc by (unfold d2x; ring).
      replace (ey - cy)%Qc with ((rounded 3 ey - (y0 + j)) + d2y)%Qc by (unfold d2y; ring).
      apply triangle; assumption.
    + replace (sq2 (- d1x) (- d1y)) with (sq2 d1x d1y) by (unfold sq2; ring). exact D1.
  - apply Qcle_trans with (((t + b) + qz 3 * b) * ((t + b) + qz 3 * b))%Qc.
    2:{ apply mono; [exact Ht| |]; clear - Ht Hb H3; qlra. }
    replace (rounded 3 ex - (x0 + i))%Qc with ((ex - cx) + - d2x)%Qc by (unfold d2x; ring).
    replace (rounded 3 ey - (y0 + j))%Qc with ((ey - cy) + - d2y)%Qc by (unfold d2y; ring).
    apply triangle; [clear - Ht Hb; qlra | exact H3 | | ].
    + rewrite <- Hr. replace (sq2 (sx - cx) (sy - cy)) with (sq2 (i + d1x) (j + d1y))
        by (unfold d1x, d1y, sq2; ring).
      apply triangle; assumption.
    + replace (sq2 (- d2x) (- d2y)) with (sq2 d2x d2y) by (unfold sq2; ring). exact D2.
Qed.

Lemma arc_exec cw sx sy sz ex ey ez cx cy cz mid ar f st x0 y0 st' ev :
  let m := MArc cw (AV (Some sx) (Some sy) sz) (AV (Some ex) (Some ey) ez) (AV (Some cx) (Some cy) cz) mid ar f in
  sq2 (sx - cx) (sy - cy) = sq2 (ex - cx) (ey - cy) ->
  ms_ended st = false -> ms_dist st = Some 900 -> ms_x st = Some x0 -> ms_y st = Some y0 ->
  (qabs (x0 - sx) <= half_unit)%Qc -> (qabs (y0 - sy) <= half_unit)%Qc ->
  exec_block st (motion_block m) = (st', [ev]) ->
  exists i j x1 y1, ev_i ev = Some i /\ ev_j ev = Some j /\
    ms_x (ev_to ev) = Some x1 /\ ms_y (ev_to ev) = Some y1 /\
    ms_x (ev_from ev) = Some x0 /\ ms_y (ev_from ev) = Some y0 /\
    root_le_plus (sq2 i j) (sq2 (x1 - (x0 + i)) (y1 - (y0 + j))) (qq 3 1000) /\
    root_le_plus (sq2 (x1 - (x0 + i)) (y1 - (y0 + j))) (sq2 i j) (qq 3 1000).
Proof.
  intros m Hr He Hd HX HY Hx Hy E. rewrite exec_motion in E by assumption. injection E as <- <-. subst m.
  destruct (motion_lookup (MArc cw (AV (Some sx) (Some sy) sz) (AV (Some ex) (Some ey) ez) (AV (Some cx) (Some cy) cz) mid ar f)) as (_ & _ & _ & _ & _ & _ & _ & LI & LJ & _).
  destruct (arc_radii sx sy ex ey cx cy x0 y0 Hr Hx Hy) as [A B].
  exists (rounded 3 (cx - sx)), (rounded 3 (cy - sy)), (rounded 3 ex), (rounded 3 ey).
  cbn [ev_i ev_j ev_to ev_from]. split; [exact LI|]. split; [exact LJ|]. split; [reflexivity|]. split; [reflexivity|].
  split; [exact HX|]. split; [exact HY|]. split; assumption.
Qed.

(** ** C06 *)
Lemma qabs_sym x y : qabs (x - y)%Qc = qabs (y - x)%Qc.
Proof. destruct (qabs_spec (x - y)) as [[-> H]|[-> H]], (qabs_spec (y - x)) as [[-> K]|[-> K]]; qlra. Qed.
Lemma axis_near_rounded w cur : axis_near w cur (first_some (option_map (rounded 3) w) cur).
Proof.
  destruct w as [x|]; simpl; [|reflexivity]. eexists. split; [reflexivity|].
  rewrite qabs_sym. apply rounded3_near.
Qed.

Lemma text_motions ms : ms <> [] -> Forall (fun m => motion_ok m /\ printable m = true) ms ->
  exists ss, mapM str_motion ms = Ok ss /\ parse_program (String.concat nl ss) = Some (map motion_block ms).
Proof.
  intros Hne H.
  assert (G : exists ss, mapM str_motion ms = Ok ss /\ Forall2 text_blocks ss (map (fun m => [motion_block m]) ms)).
  { clear Hne. induction H as [|m ms [H1 H2] _ (ss & E & F)].
    - exists []. split; [reflexivity|constructor].
    - destruct (str_motion_ok m H1 H2) as (s & Es & P). exists (s :: ss). simpl. rewrite Es. simpl. rewrite E.
      split; [reflexivity|]. constructor; [apply text_line; exact P|exact F]. }
  destruct G as (ss & E & F). exists ss. split; [exact E|].
  replace (map motion_block ms) with (List.concat (map (fun m => [motion_block m]) ms))
    by (clear; induction ms; simpl; congruence).
  apply text_concat; [|exact F]. intros ->. inversion F as [K|]. destruct ms; [congruence|discriminate].
Qed.

Lemma run_motion_prefix ms : forall st k m, ms_ended st = false -> ms_dist st = Some 900 -> nth_error ms k = Some m ->
  let before := fst (run st (firstn k (map motion_block ms))) in
  let after := fst (run st (firstn (S k) (map motion_block ms))) in
  axis_near (ax (m_end m)) (ms_x before) (ms_x after) /\
  axis_near (ay (m_end m)) (ms_y before) (ms_y after) /\
  axis_near (az (m_end m)) (ms_z before) (ms_z after).
Proof.
  induction ms as [|m0 ms IH]; intros st k m He Hd Hn; [destruct k; discriminate|].
  destruct k as [|k]; cbn [map firstn nth_error] in *.
  - injection Hn as ->. cbv zeta. rewrite run_cons, exec_motion by assumption. cbn [fst run].
    repeat split; apply axis_near_rounded.
  - cbv zeta. rewrite !run_cons. rewrite exec_motion by assumption. cbn [fst].
    apply (IH (after_motion st m0)); assumption.
Qed.

(** ** C08, C09 *)
Lemma reachable_job_wf h r j : reachable h -> hget h r = Some j -> wf_job j.
Proof. intros H E. exact (Forall_hget _ _ _ _ (reachable_wf h H) E). Qed.

Lemma to_gcode_text h r j : hget h r = Some j -> job_printable h j ->
  exists s, to_gcode h r = Ok s /\ parse_program s = Some (program_blocks j).
Proof. intros E H. unfold to_gcode. rewrite E. apply text_job. exact H. Qed.

Lemma job_to_gcode_head h j s : job_to_gcode h j = Ok s -> exists rest, s = String "(" rest.
Proof. unfold job_to_gcode. intros H. ok_inv. eexists. reflexivity. Qed.

(** ** C10 *)
Lemma other_letters_app a b : other_letters (a ++ b) = other_letters a ++ other_letters b.
Proof. unfold other_letters. rewrite map_app, filter_app. reflexivity. Qed.
Lemma legal_motion m : has_some_axis (m_end m) = true -> legal_block (motion_block m) = true.
Proof.
  intros H. unfold legal_block. rewrite motion_gcodes, motion_mcodes.
  destruct (motion_lookup m) as (X & Y & Z & _). unfold has_axis. rewrite X, Y, Z.
  assert (L : distinct_letters (other_letters (motion_block m)) = true).
  { destruct m as [k s en ar|k s en ar f|cw s en c mid ar f]; unfold motion_block, axes_block, feed_block, gword;
    destruct (option_map (rounded 3) (ax en)), (option_map (rounded 3) (ay en)), (option_map (rounded 3) (az en));
    try destruct (option_map pyval f); reflexivity. }
  rewrite L. unfold has_some_axis in H.
  destruct m as [k s en ar|k s en ar f|[] s en c mid ar f]; cbn [m_end] in *;
    destruct en as [[x|] [y|] [z|]]; cbn [ax ay az is_some orb] in H; try discriminate H; reflexivity.
Qed.
Lemma legal_start s co : legal_block (start_block s co) = true.
Proof. destruct s, co as [[]|]; reflexivity. Qed.
Lemma legal_stop co : legal_block (stop_block co) = true.
Proof. destruct co as [[]|]; reflexivity. Qed.
Lemma legal_config c : Forall (fun b => legal_block b = true) (config_blocks c).
Proof.
  destruct c as [s co|co| |n s co]; simpl; repeat constructor; auto using legal_start, legal_stop.
Qed.
Lemma legal_command c : command_has_axis c -> Forall (fun b => legal_block b = true) (command_blocks c).
Proof.
  destruct c as [m|c]; simpl; intros H; [|apply legal_config]. constructor; [apply legal_motion; exact H|constructor].
Qed.
Lemma legal_program j : Forall (fun o => Forall command_has_axis (op_commands o)) (j_operations j) ->
  Forall (fun b => legal_block b = true) (program_blocks j).
Proof.
  intros H. unfold program_blocks, header_blocks, footer_blocks.
  assert (L0 : legal_block [] = true) by reflexivity.
  assert (O : forall o, Forall command_has_axis (op_commands o) -> Forall (fun b => legal_block b = true) (op_blocks o)).
  { intros o Ho. unfold op_blocks. constructor; [exact L0|]. induction Ho as [|c cs Hc _ IH]; simpl; [constructor|].
    apply Forall_app. split; [apply legal_command; exact Hc|exact IH]. }
  apply Forall_app. split; [|apply Forall_app; split].
  - repeat constructor. apply legal_start.
  - induction H as [|o os Ho Hos IH]; simpl; [constructor; [exact L0|constructor]|].
    destruct os as [|o2 os]; [apply O; exact Ho|].
    change (Forall (fun b => legal_block b = true) (op_blocks o ++ [[]; []] ++ ops_blocks (o2 :: os))).
    apply Forall_app. split; [apply O; exact Ho|]. constructor; [exact L0|]. constructor; [exact L0|]. exact IH.
  - repeat constructor. apply legal_stop.
Qed.

(** ** C13, C14 *)
Lemma firstn_S {A} (l : list A) k x : nth_error l k = Some x -> firstn (S k) l = firstn k l ++ [x].
Proof.
  revert k. induction l as [|a l IH]; intros [|k] H; simpl in H; try discriminate.
  - injection H as ->. reflexivity.
  - change (a :: firstn (S k) l = a :: (firstn k l ++ [x])). rewrite (IH k H). reflexivity.
Qed.
Lemma changed_upto_iff cs : forall t s k, changed_upto t s cs k <->
  exists i, (i <= k)%nat /\
   (fold_left want_tool (firstn (S i) cs) t <> fold_left want_tool (firstn i cs) t \/
    fold_left want_speed (firstn (S i) cs) s <> fold_left want_speed (firstn i cs) s).
Proof.
  induction cs as [|c cs IH]; intros t s k.
  - simpl. split; [tauto|]. intros (i & _ & H). destruct i; simpl in H; tauto.
  - simpl changed_upto. split.
    + intros [H|H].
      * exists 0%nat. split; [lia|]. exact H.
      * destruct k as [|k]; [contradiction|]. apply IH in H. destruct H as (i & Hi & H).
        exists (S i). split; [lia|]. exact H.
    + intros ([|i] & Hi & H).
      * left. exact H.
      * right. destruct k as [|k]; [lia|]. apply IH. exists i. split; [lia|]. exact H.
Qed.

Lemma program_by_call h r j0 cs j st : built h r j0 cs -> hget h r = Some j -> job_printable h j ->
  ms_ended st = false -> (forall n, j_tool_number j0 = Some n -> ms_tool st = Some (qz n)) ->
  exists s hd segs ft,
    to_gcode h r = Ok s /\ parse_program s = Some (hd ++ flat_map seg_blocks segs ++ ft) /\
    List.length segs = List.length cs /\ snd (run st hd) = [] /\
    snd (run (fst (run st (hd ++ flat_map seg_blocks segs))) ft) = [] /\
    forall k c p b, nth_error cs k = Some c -> nth_error segs k = Some (p, b) ->
      let st1 := fst (run st (hd ++ flat_map seg_blocks (firstn k segs) ++ p)) in
      let tk := tool_after j0 (firstn (S k) cs) in
      exists e : bool, (e = true <-> exists i, (i <= k)%nat /\ changes j0 cs i) /\
      b = call_blocks c /\
      snd (run (fst (run st (hd ++ flat_map seg_blocks (firstn k segs)))) p) = [] /\
      (existsb changes_tool p = true <-> tk <> tool_after j0 (firstn k cs)) /\
      (tk <> tool_after j0 (firstn k cs) -> ms_length st1 = tool_is (ms_tool st) tk) /\
      ms_tool st1 = tool_is (ms_tool st) tk /\
      let sk := speed_is (first_some (speed_after j0 cs) (ms_speed st)) e (speed_after j0 (firstn (S k) cs)) in
      ms_speed st1 = sk /\
      Forall (fun ev => ms_tool (ev_from ev) = tool_is (ms_tool st) tk /\ ms_tool (ev_to ev) = tool_is (ms_tool st) tk /\
                        ms_speed (ev_from ev) = sk /\ ms_speed (ev_to ev) = sk) (snd (run st1 b)).
Proof.
  intros B E P He HT. destruct (built_inv _ _ _ _ B) as (j' & E' & H1 & H2 & H3 & H4).
  rewrite E in E'. injection E' as <-. destruct (to_gcode_text h r j E P) as (s & Es & Ep).
  set (base := first_some (speed_after j0 cs) (ms_speed st)).
  set (st0 := after_start (after_safety st) (j_speed j) (j_coolant j)).
  assert (R0 : ready st0) by apply ready_header.
  assert (T0 : ms_tool st0 = tool_is (ms_tool st) (j_tool_number j0)).
  { simpl. destruct (j_tool_number j0) as [n|]; [|reflexivity]. simpl. apply HT. reflexivity. }
  assert (S0 : ms_speed st0 = speed_is base false (option_map pyval (j_speed j0))).
  { simpl. unfold base. rewrite <- H2. reflexivity. }
  destruct (hist_run _ (ms_tool st) base _ _ _ _ false st0 [] H4 R0 (or_introl eq_refl) T0 S0) as (segs & Eb & Hs).
  exists s, (header_blocks j), segs, ((match j_operations j with [] => [[]] | _ => [] end) ++ footer_blocks j).
  assert (Eops : ops_blocks (j_operations j) = flat_map seg_blocks segs ++ (match j_operations j with [] => [[]] | _ => [] end)).
  { rewrite <- Eb. destruct (j_operations j); [reflexivity|]. rewrite ops_blocks_lead, app_nil_r. reflexivity. }
  split; [exact Es|]. split.
  { rewrite Ep. unfold program_blocks. rewrite Eops, <- !app_assoc. reflexivity. }
  split; [eapply seg_run_length; exact Hs|].
  rewrite run_header by exact He. split; [reflexivity|]. split.
  { rewrite run_app_fst, run_header by exact He. cbn [fst]. fold st0.
    assert (W : wf_job j).
    { unfold wf_job. rewrite H3. clear - H4. induction H4 as [|t s c os cs ops Hs _ IH]; [constructor|].
      apply Forall_app. split; [|exact IH].
      destruct Hs as (r & [(_ & r' & n & sp & _ & _ & ->)|[(_ & _ & r' & sp & _ & ->)|(_ & _ & ->)]]);
        repeat (constructor; simpl; auto); apply Forall_map, Forall_forall; simpl; auto. }
    destruct (keeps_ops (j_coolant j) (j_operations j) st0 W R0) as (K & _). rewrite Eops, run_app_fst in K.
    assert (Q : ms_ended (fst (run st0 (flat_map seg_blocks segs))) = false).
    { destruct (j_operations j); [rewrite run_blank in K|]; apply K. }
    destruct (j_operations j); cbn [app]; rewrite ?run_blank, run_footer by exact Q; reflexivity. }
  intros k c p b Hc Hp. destruct (seg_run_nth _ _ _ _ _ _ _ _ k c p b Hs Hc Hp) as (e & K0 & K1 & K2 & K3 & K4 & K5 & K6 & K7).
  cbv zeta. unfold tool_after, speed_after in *. rewrite (firstn_S _ _ _ Hc), !fold_left_app. cbn [fold_left].
  rewrite !run_app_fst, run_header by exact He. cbn [fst]. fold st0. rewrite <- !run_app_fst.
  exists e. split.
  { rewrite K0, changed_upto_iff. unfold changes, tool_after, speed_after. split; [|tauto]. intros [C|C]; [discriminate|exact C]. }
  split; [exact K1|]. split; [exact K7|]. split; [exact K4|]. split; [exact K5|]. split; [exact K2|]. split; [exact K3|exact K6].
Qed.

(** ** C15, C16 *)
Lemma name_of_kept h r t name gen r2 n : name_of h r2 = Ok n -> name_of (fst (fluent_op h r t name gen)) r2 = Ok n.
Proof.
  unfold name_of. destruct (hget h r2) as [j2|] eqn:E; [|discriminate]. intros H.
  destruct (Nat.eq_dec r2 r) as [->|Hne].
  - destruct (fluent_self h r j2 t name gen E) as (j' & E' & d & f & s & _ & ->). rewrite E'. exact H.
  - rewrite (fluent_others h r t name gen r2 j2 Hne E). exact H.
Qed.
Lemma op_text_kept h r t name gen o s : op_text h o = Ok s -> op_text (fst (fluent_op h r t name gen)) o = Ok s.
Proof.
  unfold op_text. intros H. destruct (name_of h (op_job o)) as [n|] eqn:E; [|discriminate].
  rewrite (name_of_kept _ _ _ _ _ _ _ E). exact H.
Qed.
Lemma mapM_kept {A B} (f g : A -> result B) l : (forall a b, f a = Ok b -> g a = Ok b) ->
  forall bs, mapM f l = Ok bs -> mapM g l = Ok bs.
Proof.
  intros H. induction l as [|a l IH]; intros bs E; simpl in *; [exact E|].
  destruct (f a) as [b|] eqn:Ea; [|discriminate]. simpl in E. destruct (mapM f l) as [bs'|] eqn:El; [|discriminate].
  rewrite (H _ _ Ea). simpl. rewrite (IH _ eq_refl). exact E.
Qed.
Lemma program_kept h r t name gen j s : job_to_gcode h j = Ok s -> job_to_gcode (fst (fluent_op h r t name gen)) j = Ok s.
Proof.
  unfold job_to_gcode. intros H. destruct (mapM _ (j_operations j)) as [ops|] eqn:E; [|discriminate].
  erewrite mapM_kept; [exact H| |exact E]. intros o b Hb. apply op_text_kept. exact Hb.
Qed.
Lemma others_program_kept h r t name gen r2 s : r2 <> r -> to_gcode h r2 = Ok s ->
  to_gcode (fst (fluent_op h r t name gen)) r2 = Ok s.
Proof.
  unfold to_gcode. intros Hne H. destruct (hget h r2) as [j|] eqn:E; [|discriminate].
  rewrite (fluent_others h r t name gen r2 j Hne E). apply program_kept. exact H.
Qed.

Lemma update_self_cases h r j t h1 r1 : hget h r = Some j -> update_spec h r j t (h1, r1) ->
  hget h1 r = Some j \/
  (~ other_tool j t /\ ~ other_speed j t /\ exists t', t = Some t' /\ hget h1 r = Some (updated j t')).
Proof.
  intros Hj H. inversion H; subst.
  - left. exact Hj.
  - left. apply hget_app_some. exact Hj.
  - left. apply hget_app_some. exact Hj.
  - right. split; [|split].
    + intros (t' & n & E & En & Hn). injection E as <-. unfold new_number in *. rewrite En in *. congruence.
    + intros (t' & s & E & En & Hn). injection E as <-. unfold new_speed in *. rewrite En in *. simpl in *. congruence.
    + exists t0. split; [reflexivity|]. eapply hget_hset_same. exact Hj.
Qed.
Lemma settings_updated j t : settings_of (updated j t) = tool_settings j (Some t).
Proof. unfold updated, new_number, new_diameter, new_feed, new_speed, settings_of, tool_settings, kept. simpl.
  destruct (t_number t), (t_diameter t), (t_feed t), (t_speed t); reflexivity. Qed.

Lemma receiver_after h r j t name gen : hget h r = Some j ->
  exists j', hget (fst (fluent_op h r t name gen)) r = Some j' /\
    ((t = None \/ other_tool j t \/ other_speed j t) -> j' = j) /\
    (j' = j \/ (settings_of j' = tool_settings j t /\ same_frame j j' /\ j_operations j' = j_operations j)).
Proof.
  intros Hj.
  assert (K : forall h1 r1, update_spec h r j t (h1, r1) -> exists j', hget h1 r = Some j' /\
     ((t = None \/ other_tool j t \/ other_speed j t) -> j' = j) /\
     (j' = j \/ (settings_of j' = tool_settings j t /\ same_frame j j' /\ j_operations j' = j_operations j))).
  { intros h1 r1 U. destruct (update_self_cases _ _ _ _ _ _ Hj U) as [E|(H1 & H2 & t' & -> & E)].
    - exists j. auto.
    - exists (updated j t'). split; [exact E|]. split.
      + intros [C|[C|C]]; [discriminate|contradiction|contradiction].
      + right. split; [apply settings_updated|]. split; reflexivity. }
  destruct (fluent_op_spec h r j t name gen Hj) as [h1 r1 j1 e U E1 Eg|h1 r1 j1 cmds U E1 Eg]; simpl.
  - exact (K _ _ U).
  - destruct (K _ _ U) as (j' & E & A & B). exists j'. split; [apply hget_app_some; exact E|]. auto.
Qed.

Lemma hget_length h r j : hget h r = Some j -> (r < List.length h)%nat.
Proof. intros H. apply nth_error_Some. unfold hget in H. congruence. Qed.
Lemma hset_length h r j : List.length (hset h r j) = List.length h.
Proof. revert r. induction h as [|x h IH]; intros [|r]; simpl; auto. Qed.

Lemma history_append h r j t name gen h' r' : hget h r = Some j -> fluent_op h r t name gen = (h', Ok r') ->
  hget h r' = None /\
  exists j' mid ju cmds, hget h' r' = Some j' /\
    j_operations j' = j_operations j ++ mid ++ [Op r' name cmds] /\
    gen ju = Ok cmds /\ settings_of ju = tool_settings j t /\ same_frame j ju /\
    settings_of j' = tool_settings j t /\ same_frame j j' /\
    j_operations ju = j_operations j ++ mid /\
    ((other_tool j t /\ exists r1 n, j_tool_number j' = Some n /\
        mid = [Op r1 "Tool Change" [Config (CToolChange n (j_speed j') (j_coolant j))]]) \/
     (~ other_tool j t /\ other_speed j t /\ exists r1, 
        mid = [Op r1 "Speed Change" [Config (CStart (j_speed j') (j_coolant j))]]) \/
     (~ other_tool j t /\ ~ other_speed j t /\ mid = [])).
Proof.
  intros Hj E. pose proof (fluent_op_spec h r j t name gen Hj) as F. rewrite E in F. clear E.
  inversion F as [|h1 r1 j1 cmds U Ej1 Eg]; subst.
  assert (W : forall l, settings_of (with_operations j1 l) = settings_of j1) by reflexivity.
  inversion U as [ | t0 n Hn Hne | t0 s Hn Hs Hne | t0 Hn Hs]; subst; clear U F.
  - split. { unfold hget. apply nth_error_None. lia. }
    unfold hget in Ej1, Hj. rewrite Hj in Ej1. injection Ej1 as <-.
    eexists _, [], j, cmds. split; [apply hget_new|]. split; [reflexivity|]. split; [exact Eg|].
    split; [reflexivity|]. split; [destruct j; reflexivity|]. split; [reflexivity|]. split; [destruct j; reflexivity|].
    split; [rewrite app_nil_r; reflexivity|].
    right. right. split; [intros (t' & n & C & _); discriminate|]. split; [intros (t' & n & C & _); discriminate|]. reflexivity.
  - split. { unfold hget. apply nth_error_None. rewrite app_length. simpl. lia. }
    rewrite hget_new in Ej1. injection Ej1 as <-.
    eexists _, [_], _, cmds. split; [apply hget_new|]. split; [simpl; rewrite <- app_assoc; reflexivity|]. split; [exact Eg|].
    split; [exact (settings_updated j t0)|]. split; [reflexivity|]. split; [exact (settings_updated j t0)|].
    split; [reflexivity|]. split; [reflexivity|].
    left. split.
    + exists t0. unfold new_number in Hn. destruct (t_number t0) as [m|] eqn:Em; [|congruence].
      exists m. split; [reflexivity|]. split; [reflexivity|]. congruence.
    + exists (List.length h), n. split; [exact Hn|reflexivity].
  - split. { unfold hget. apply nth_error_None. rewrite app_length. simpl. lia. }
    rewrite hget_new in Ej1. injection Ej1 as <-.
    eexists _, [_], _, cmds. split; [apply hget_new|]. split; [simpl; rewrite <- app_assoc; reflexivity|]. split; [exact Eg|].
    split; [exact (settings_updated j t0)|]. split; [reflexivity|]. split; [exact (settings_updated j t0)|].
    split; [reflexivity|]. split; [reflexivity|].
    right. left. split; [|split].
    + intros (t' & n & E & En & C). injection E as <-. unfold new_number in Hn. rewrite En in Hn. congruence.
    + exists t0, s. unfold new_speed in Hs. destruct (t_speed t0) as [m|] eqn:Em.
      * injection Hs as ->. repeat split; auto.
      * rewrite Hs in Hne. simpl in Hne. congruence.
    + exists (List.length h). rewrite <- Hs. reflexivity.
  - split. { unfold hget. apply nth_error_None. rewrite hset_length. lia. }
    erewrite hget_hset_same in Ej1 by exact Hj. injection Ej1 as <-.
    eexists _, [], _, cmds. split; [apply hget_new|]. split; [reflexivity|]. split; [exact Eg|].
    split; [exact (settings_updated j t0)|]. split; [reflexivity|]. split; [exact (settings_updated j t0)|].
    split; [reflexivity|]. split; [rewrite app_nil_r; reflexivity|].
    right. right. split; [|split; [|reflexivity]].
    + intros (t' & n & E & En & C). injection E as <-. unfold new_number in Hn. rewrite En in Hn. congruence.
    + intros (t' & n & E & En & C). injection E as <-. unfold new_speed in Hs. rewrite En in Hs. simpl in Hs. congruence.
Qed.

(** ** C18 *)
Lemma save_never addr h r s : to_gcode h r = Ok s -> save_gcode addr h r <> s.
Proof.
  unfold to_gcode. destruct (hget h r) as [j|]; [|discriminate]. intros H.
  destruct (job_to_gcode_head _ _ _ H) as (rest & ->). discriminate.
Qed.

(** ** The statements of Props/Program.v *)
Lemma arc_text cw sx sy sz ex ey ez cx cy cz mid ar f :
  let m := MArc cw (AV (Some sx) (Some sy) sz) (AV (Some ex) (Some ey) ez) (AV (Some cx) (Some cy) cz) mid ar f in
  motion_ok m -> printable m = true ->
  sq2 (sx - cx) (sy - cy) = sq2 (ex - cx) (ey - cy) ->
  exists s b, str_motion m = Ok s /\ parse_line s = Some b /\
  forall st x0 y0, ms_ended st = false -> ms_dist st = Some 900 ->
  ms_x st = Some x0 -> ms_y st = Some y0 ->
  (qabs (x0 - sx) <= qq 1 2000)%Qc -> (qabs (y0 - sy) <= qq 1 2000)%Qc ->
  exists st' ev i j x1 y1, exec_block st b = (st', [ev]) /\
    ev_kind ev = (if cw then GArcCW else GArcCCW) /\ ev_i ev = Some i /\ ev_j ev = Some j /\
    ms_x (ev_from ev) = Some x0 /\ ms_y (ev_from ev) = Some y0 /\
    ms_x (ev_to ev) = Some x1 /\ ms_y (ev_to ev) = Some y1 /\
    root_le_plus (sq2 i j) (sq2 (x1 - (x0 + i)) (y1 - (y0 + j))) (qq 3 1000) /\
    root_le_plus (sq2 (x1 - (x0 + i)) (y1 - (y0 + j))) (sq2 i j) (qq 3 1000).
Proof.
  intros m Hok Hp Hr. destruct (motion_text m Hok Hp) as (s & Es & Eb).
  exists s, (motion_block m). split; [exact Es|]. split; [exact Eb|].
  intros st x0 y0 He Hd HX HY Hx Hy.
  pose proof (exec_motion st m He Hd) as E.
  destruct (arc_exec cw sx sy sz ex ey ez cx cy cz mid ar f st x0 y0 _ _ Hr He Hd HX HY Hx Hy E)
    as (i & j & x1 & y1 & A1 & A2 & A3 & A4 & A5 & A6 & A7 & A8).
  eexists _, _, i, j, x1, y1. split; [exact E|]. split; [destruct cw; reflexivity|]. auto 10.
Qed.

Lemma no_drift ms st : ms <> [] -> Forall (fun m => motion_ok m /\ printable m = true) ms ->
  ms_ended st = false -> ms_dist st = Some 900 ->
  exists ss bs, mapM str_motion ms = Ok ss /\ parse_program (String.concat nl ss) = Some bs /\
    List.length bs = List.length ms /\
    forall k m, nth_error ms k = Some m ->
      let before := fst (run st (firstn k bs)) in let after := fst (run st (firstn (S k) bs)) in
      axis_near (ax (m_end m)) (ms_x before) (ms_x after) /\
      axis_near (ay (m_end m)) (ms_y before) (ms_y after) /\
      axis_near (az (m_end m)) (ms_z before) (ms_z after).
Proof.
  intros Hne H He Hd. destruct (text_motions ms Hne H) as (ss & E & P).
  exists ss, (map motion_block ms). split; [exact E|]. split; [exact P|]. split; [apply map_length|].
  intros k m Hn. apply run_motion_prefix; assumption.
Qed.

Lemma complete_program h r j st : reachable h -> hget h r = Some j -> job_printable h j -> ms_ended st = false ->
  exists s bs, to_gcode h r = Ok s /\ String.get 0 s = Some "("%char /\ parse_program s = Some bs /\
    bs = [[]] ++ safety_blocks ++ [start_block (j_speed j) (j_coolant j)] ++ ops_blocks (j_operations j)
         ++ safety_blocks ++ [stop_block (j_coolant j)] ++ [[W "M" (qz 30)]] /\
    ms_ended (fst (run st bs)) = true /\ ms_ended (fst (run st (removelast bs))) = false /\
    ms_spindle (fst (run st bs)) = SpOff /\
    ((j_coolant j <> None \/ (ms_mist st = false /\ ms_flood st = false)) ->
       ms_mist (fst (run st bs)) = false /\ ms_flood (fst (run st bs)) = false).
Proof.
  intros Hr Hj Hp He. destruct (to_gcode_text h r j Hj Hp) as (s & Es & Eb).
  exists s, (program_blocks j). split; [exact Es|]. split.
  { unfold to_gcode in Es. rewrite Hj in Es. destruct (job_to_gcode_head _ _ _ Es) as (rest & ->). reflexivity. }
  split; [exact Eb|]. split.
  { unfold program_blocks, header_blocks, footer_blocks. rewrite <- !app_assoc. reflexivity. }
  pose proof (reachable_job_wf h r j Hr Hj) as W.
  pose proof (run_program st j W He) as R. destruct (run st (program_blocks j)) as [st' evs]. cbn [fst].
  destruct R as (R1 & R2 & R3 & R4). split; [exact R1|]. split; [|split; assumption].
  assert (Er : removelast (program_blocks j) = header_blocks j ++ ops_blocks (j_operations j) ++ safety_blocks ++ [stop_block (j_coolant j)]).
  { unfold program_blocks, footer_blocks. rewrite !app_assoc. apply removelast_last. }
  rewrite Er, run_app_fst, run_header by exact He. cbn [fst].
  destruct (keeps_ops _ _ (after_start (after_safety st) (j_speed j) (j_coolant j)) W (ready_header _ _ _)) as (A & _).
  rewrite run_app_fst. set (st2 := fst (run _ _)) in *. rewrite run_app_fst, run_safety by apply A. cbn [fst].
  rewrite run_cons, exec_stop by reflexivity. reflexivity.
Qed.

Lemma moves_ready h r j st : reachable h -> hget h r = Some j -> job_printable h j -> ms_ended st = false ->
  exists s bs, to_gcode h r = Ok s /\ parse_program s = Some bs /\
    Forall (fun e => ready (ev_from e) /\ ready (ev_to e)) (snd (run st bs)).
Proof.
  intros Hr Hj Hp He. destruct (to_gcode_text h r j Hj Hp) as (s & Es & Eb).
  exists s, (program_blocks j). split; [exact Es|]. split; [exact Eb|].
  pose proof (run_program st j (reachable_job_wf h r j Hr Hj) He) as R.
  destruct (run st (program_blocks j)) as [st' evs]. apply R.
Qed.

Lemma legal_text h r j : hget h r = Some j -> job_printable h j ->
  Forall (fun o => Forall command_has_axis (op_commands o)) (j_operations j) ->
  exists s bs, to_gcode h r = Ok s /\ parse_program s = Some bs /\ Forall (fun b => legal_block b = true) bs.
Proof.
  intros Hj Hp Ha. destruct (to_gcode_text h r j Hj Hp) as (s & Es & Eb).
  exists s, (program_blocks j). split; [exact Es|]. split; [exact Eb|]. apply legal_program. exact Ha.
Qed.

Lemma uses_g50 h r j : hget h r = Some j -> job_printable h j ->
  exists s bs b, to_gcode h r = Ok s /\ parse_program s = Some bs /\ In b bs /\ member 500 (codes "G" b) = true.
Proof.
  intros Hj Hp. destruct (to_gcode_text h r j Hj Hp) as (s & Es & Eb).
  exists s, (program_blocks j), [gword 90; gword 54; gword 64; gword 50; gword 17; gword 94].
  split; [exact Es|]. split; [exact Eb|]. split; [|reflexivity].
  unfold program_blocks, header_blocks. simpl. auto.
Qed.

Lemma modes_fixed h r j st : reachable h -> hget h r = Some j -> job_printable h j -> ms_ended st = false ->
  exists s bs, to_gcode h r = Ok s /\ parse_program s = Some bs /\
    Forall (fun e => ms_units (ev_from e) = Some (unit_word METRIC)) (snd (run st bs)) /\
    Forall (fun e => ms_wcs (ev_from e) = Some (offset_word OFFSET_1) /\
                     ms_plane (ev_from e) = Some (plane_word PLANE_XY) /\
                     ms_dist (ev_from e) = Some (distance_word ABSOLUTE) /\
                     ms_path (ev_from e) = Some (path_word CONTINUOUS)) (snd (run st bs)).
Proof.
  intros Hr Hj Hp He. destruct (moves_ready h r j st Hr Hj Hp He) as (s & bs & Es & Eb & F).
  exists s, bs. split; [exact Es|]. split; [exact Eb|].
  split; (eapply Forall_impl; [|exact F]); intros e ((K1 & K2 & K3 & K4 & K5 & K6 & K7 & K8 & K9) & _);
    [exact K6|]. unfold offset_word, plane_word, distance_word, path_word. auto.
Qed.

Definition arc_mode_free (b : block) : bool := negb (member 901 (codes "G" b)) && negb (member 911 (codes "G" b)).
Lemma arc_free_command c : Forall (fun b => arc_mode_free b = true) (command_blocks c).
Proof.
  destruct c as [m|[s co|co| |n s co]]; simpl; repeat constructor;
    try (destruct s); try (destruct co as [[]|]); try reflexivity.
  - unfold arc_mode_free. rewrite motion_gcodes. destruct m as [| |[]]; reflexivity.
Qed.
Lemma arc_free_program j : Forall (fun b => arc_mode_free b = true) (program_blocks j).
Proof.
  unfold program_blocks, header_blocks, footer_blocks.
  assert (L0 : arc_mode_free [] = true) by reflexivity.
  assert (O : forall o, Forall (fun b => arc_mode_free b = true) (op_blocks o)).
  { intros o. unfold op_blocks. constructor; [exact L0|]. induction (op_commands o) as [|c cs IH]; simpl; [constructor|].
    apply Forall_app. split; [apply arc_free_command|exact IH]. }
  apply Forall_app. split; [|apply Forall_app; split].
  - repeat constructor. destruct (j_speed j), (j_coolant j) as [[]|]; reflexivity.
  - induction (j_operations j) as [|o os IH]; [constructor; [exact L0|constructor]|].
    destruct os as [|o2 os]; [apply O|].
    change (Forall (fun b => arc_mode_free b = true) (op_blocks o ++ [[]; []] ++ ops_blocks (o2 :: os))).
    apply Forall_app. split; [apply O|]. constructor; [exact L0|]. constructor; [exact L0|]. exact IH.
  - repeat constructor. destruct (j_coolant j) as [[]|]; reflexivity.
Qed.
Lemma arc_mode_never h r j : hget h r = Some j -> job_printable h j ->
  exists s bs, to_gcode h r = Ok s /\ parse_program s = Some bs /\
    forall b a, In b bs -> member (arc_word a) (codes "G" b) = false.
Proof.
  intros Hj Hp. destruct (to_gcode_text h r j Hj Hp) as (s & Es & Eb).
  exists s, (program_blocks j). split; [exact Es|]. split; [exact Eb|]. intros b a Hb.
  pose proof (arc_free_program j) as F. rewrite Forall_forall in F. specialize (F b Hb).
  unfold arc_mode_free in F. apply andb_true_iff in F. destruct F as [F1 F2].
  apply negb_true_iff in F1, F2. destruct a; assumption.
Qed.
