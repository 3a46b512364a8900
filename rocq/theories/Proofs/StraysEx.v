(** Examples and counterexamples for Props/Strays.v. *)
From Verif Require Import Base.Str Base.Py Spec.Gcode Spec.Blocks Spec.Machine Spec.Program Spec.Jobs Spec.Axes Spec.Wires Spec.Curves Spec.Profiles Spec.OnMachine Spec.Arcs Spec.Traced Spec.Strays
  Model.Groups Model.Geometry Model.Edges Model.Plane Model.Job Model.Routers Model.Tabs Model.Profile
  Proofs.RouteEx Proofs.ProfileEx Proofs.ProfileThmP Proofs.RatesEx Proofs.OnMachineEx Proofs.TracedEx Proofs.TracedArcsEx.
From Verif Require Proofs.ProgramEx.
From Coq Require Import Lia.
Local Open Scope Qc_scope.
Local Open Scope list_scope.

(** A straight edge with its length as parameter, as the kernel makes them. *)
Definition span (id : nat) (a b : vec) (len : Qc) : edge :=
  Edge id GLINE false a b (fun p => mix a b (p / len)) (mix a b) 0 len len (zv 0 0 0) (zv 0 0 1) false.
Definition box_wire (id : nat) (x0 y0 x1 y1 z : Z) : list edge :=
  [span id (zv x0 y0 z) (zv x1 y0 z) (qz (x1 - x0)); span (S id) (zv x1 y0 z) (zv x1 y1 z) (qz (y1 - y0));
   span (S (S id)) (zv x1 y1 z) (zv x0 y1 z) (qz (x1 - x0)); span (S (S (S id))) (zv x0 y1 z) (zv x0 y0 z) (qz (y1 - y0))].
Lemma span_sound id a b len : len <> 0 -> edge_sound (span id a b len).
Proof.
  intros N. assert (Z : 0 / len = 0) by (field; exact N). assert (O : len / len = 1) by (field; exact N). repeat split; cbn; try discriminate; rewrite ?Z, ?O; unfold mix; destruct a, b; cbn; f_equal; ring.
Qed.
Lemma span_points id a b len t : len <> 0 -> travel_param (span id a b len) t = mix a b t.
Proof. intros N. unfold travel_param, span. cbn [e_reversed e_param e_param0 e_param1]. f_equal. field. exact N. Qed.

(** Offsetting leaves two wires. *)
Definition pair_wk (a b : list edge) : wire_kernel := {|
  wk_transform := fun _ w => w; wk_offset := fun _ _ => Ok [a; b]; wk_area := fun _ => Ok 1; wk_relocate := fun _ w => w;
  wk_moved := fun w _ => w; wk_below := fun _ _ => Ok false |}.
(** The kernel answers one question: what of the wire starting with edge [first] is nearest to [at_]. *)
Definition one_answer (first : nat) (at_ : vec) (d : Qc) (t : target) : kernel :=
  exact_kernel (fun u w => match wire_edges w with
    | e :: _ => if Nat.eqb (e_id e) first && vec_eqb u at_ then Some (d, t) else None
    | [] => None end).
Lemma one_answer_inv first at_ d t u w d' t' : k_nearest (one_answer first at_ d t) u (WWire w) = Some (d', t') ->
  u = at_ /\ d' = d /\ t' = t /\ exists e rest, w = e :: rest /\ e_id e = first.
Proof.
  cbn. destruct w as [|e rest]; [discriminate|]. destruct (Nat.eqb (e_id e) first) eqn:E; [|discriminate]. destruct (vec_eqb u at_) eqn:V; [|discriminate]. cbn [andb]. intros [= <- <-].
  apply Nat.eqb_eq in E. split; [apply vec_eq; exact V|]. eauto 8.
Qed.

Definition small_box : list edge := box_wire 11 10 15 12 17 (-5).
Definition tall_box : list edge := box_wire 1 0 0 2 20 (-5).
Definition stray_kernel : kernel := one_answer 1 (zv 10 15 (-5)) (qz 8) (TEdge 2 (qz 15)).
Definition stray_wk : wire_kernel := pair_wk small_box tall_box.
Definition stray_heap : heap := fst (job_wire_profile stray_kernel flat_tk stray_wk [ex_job] 0%nat [small_box] 1 None None None).
Definition round_hole : list edge := [circle 1 false 0 15 (-5)].
Definition round_kernel : kernel := one_answer 1 (zv 10 15 (-5)) (qz 9) (TEdge 1 1).
Definition round_wk : wire_kernel := pair_wk small_box round_hole.
Definition round_heap : heap := fst (job_wire_profile round_kernel flat_tk round_wk [ex_job] 0%nat [small_box] 1 None None None).

Lemma box_sound id x0 y0 x1 y1 z : (x0 < x1)%Z -> (y0 < y1)%Z -> forall e, In e (box_wire id x0 y0 x1 y1 z) -> edge_sound e.
Proof.
  intros X Y. assert (NX : qz (x1 - x0) <> 0) by (change 0 with (qz 0); intros E; apply qz_inj in E; lia). assert (NY : qz (y1 - y0) <> 0) by (change 0 with (qz 0); intros E; apply qz_inj in E; lia).
  intros e [<-|[<-|[<-|[<-|[]]]]]; apply span_sound; assumption.
Qed.
(** The points of a box are in it, on its level. *)
Lemma box_points id x0 y0 x1 y1 z v : (x0 < x1)%Z -> (y0 < y1)%Z -> on_path (box_wire id x0 y0 x1 y1 z) v ->
  qz x0 <= vx v /\ vx v <= qz x1 /\ qz y0 <= vy v /\ vy v <= qz y1 /\ vz v = qz z.
Proof.
  intros X Y (e & t & He & T0 & T1 & ->). assert (NX : qz (x1 - x0) <> 0) by (change 0 with (qz 0); intros E; apply qz_inj in E; lia). assert (NY : qz (y1 - y0) <> 0) by (change 0 with (qz 0); intros E; apply qz_inj in E; lia).
  assert (LX : qz x0 < qz x1) by (apply qz_lt; exact X). assert (LY : qz y0 < qz y1) by (apply qz_lt; exact Y).
  destruct He as [<-|[<-|[<-|[<-|[]]]]]; rewrite span_points by assumption; unfold mix, zv; cbn [vx vy vz]; (repeat split; [| | | |ring]); qc2q; nra.
Qed.
Lemma box_entered K safe id x0 y0 x1 y1 z : (x0 < x1)%Z -> (y0 < y1)%Z -> qz z < safe -> entered_straight K safe (box_wire id x0 y0 x1 y1 z).
Proof.
  intros X Y L. split; [eexists _, _; split; [reflexivity|]; split; [exact L|]; reflexivity|]. split; [repeat split|]. apply box_sound; assumption.
Qed.
Lemma box_loop id x0 y0 x1 y1 z : loop (box_wire id x0 y0 x1 y1 z).
Proof. repeat split. Qed.
Lemma pair_paths K a b ws w o h' j radius : job_wire_profile K flat_tk (pair_wk a b) [ex_job] 0%nat [w] o None None None = (h', Ok 1%nat) -> ws = [w] -> hget h' 1%nat = Some j ->
  tool_radius j = Some (qq 3 2) /\ j_op_safe_height j = j_op_safe_height ex_job /\ toolpaths_of K flat_tk (pair_wk a b) j radius ws (Some o) None None [a; b].
Proof.
  intros Q -> HJ. destruct (wire_profile_keeps K flat_tk (pair_wk a b) [ex_job] 0%nat ex_job [w] o None None h' 1%nat eq_refl Q) as (os & E).
  rewrite HJ in E. injection E as ->. split; [cbn [tool_radius with_operations j_tool_diameter]; vm_compute; reflexivity|]. split; [reflexivity|].
  exists [a; b], [[a]; [b]]. split; [|split; [|reflexivity]].
  - exists [[a; b]]. split; [|reflexivity]. constructor; [|constructor]. unfold offset_wire. cbn [retry_offset pair_wk wk_offset wk_transform]. unfold circle_bug_workaround.
    destruct (is_circle_wire K (last [a; b] w)); reflexivity.
  - constructor; [reflexivity|]. constructor; [reflexivity|constructor].
Qed.
Lemma stray_made : job_wire_profile stray_kernel flat_tk stray_wk [ex_job] 0%nat [small_box] 1 None None None = (stray_heap, Ok 1%nat).
Proof. rewrite (surjective_pairing (job_wire_profile _ _ _ _ _ _ _ _ _ _)). unfold stray_heap. f_equal. Qed.
Lemma round_made : job_wire_profile round_kernel flat_tk round_wk [ex_job] 0%nat [small_box] 1 None None None = (round_heap, Ok 1%nat).
Proof. rewrite (surjective_pairing (job_wire_profile _ _ _ _ _ _ _ _ _ _)). unfold round_heap. f_equal. Qed.
Lemma answer_inside first at_ d id q w u d' id' q' : k_nearest (one_answer first at_ d (TEdge id q)) u (WWire w) = Some (d', TEdge id' q') ->
  u = at_ /\ d' = d /\ id' = id /\ q' = q /\ exists e rest, w = e :: rest /\ e_id e = first.
Proof. intros H. apply one_answer_inv in H as (A & B & C & D). injection C as -> ->. auto. Qed.
Lemma stray_nearest w u d id q : In w [small_box; tall_box] -> k_nearest stray_kernel u (WWire w) = Some (d, TEdge id q) -> nearest_inside w u d id q.
Proof.
  intros Hw H. unfold stray_kernel in H. apply answer_inside in H as (-> & -> & -> & -> & e & rest & E & EI). destruct Hw as [<-|[<-|[]]]; [injection E as <- _; discriminate EI|]. clear E EI.
  eexists. split; [right; left; reflexivity|]. split; [reflexivity|]. split; [reflexivity|]. split; [reflexivity|]. split; [discriminate|]. split; [apply Qc_is_canon; vm_compute; reflexivity|].
  intros v Hv. apply box_points in Hv as (_ & B & _); [|reflexivity|reflexivity]. unfold apart2, zv. cbn [vx vy vz].
  pose proof (ProgramThmP.qsq_nonneg (qz 15 - vy v)) as S1. pose proof (ProgramThmP.qsq_nonneg (qz (-5) - vz v)) as S2.
  assert (D : qz 10 = qz 8 + qz 2) by (apply Qc_is_canon; reflexivity). rewrite D. set (a := qz 8) in *. set (b := qz 2) in *. assert (A0 : 0 <= a) by discriminate. clearbody a b.
  set (s1 := (qz 15 - vy v) * (qz 15 - vy v)) in *. set (s2 := (qz (-5) - vz v) * (qz (-5) - vz v)) in *. clearbody s1 s2. set (x := vx v) in *. clearbody x.
  assert (Y0 : 0 <= b - x) by qlra. replace (a + b - x) with (a + (b - x)) by ring. set (y := b - x) in *. clearbody y. clear - A0 Y0 S1 S2. qc2q. nra.
Qed.
Lemma stray_far w v : In w [small_box; tall_box] -> on_path w v -> qz 100 <= sq2 (qz 15 - vx v) (0 - vy v).
Proof.
  intros Hw Hv. assert (A : forall a b c : Qc, qz 10 <= a -> qz 100 <= a * a + c * c).
  { intros a _ c L. pose proof (ProgramThmP.qsq_nonneg c) as S. assert (E : qz 100 = qz 10 * qz 10) by (apply Qc_is_canon; reflexivity). rewrite E. assert (P : 0 <= qz 10) by discriminate. set (t := qz 10) in *. set (s := c * c) in *. clearbody t s. qc2q. nra. }
  unfold sq2. destruct Hw as [<-|[<-|[]]]; apply box_points in Hv as (B1 & B2 & B3 & B4 & _); try reflexivity.
  - rewrite Qcplus_comm. replace ((0 - vy v) * (0 - vy v)) with (vy v * vy v) by ring. apply (A _ 0). eapply Qcle_trans; [|exact B3]. discriminate.
  - apply (A _ 0). assert (E : qz 15 = qz 13 + qz 2) by (apply Qc_is_canon; reflexivity). rewrite E. assert (L : qz 10 <= qz 13) by discriminate. set (t := qz 10) in *. set (s := qz 13) in *. set (r := qz 2) in *. clearbody s t r. qlra.
Qed.
Lemma strays_refuted : exists K TK WK h r ws o h' r' j' st radius paths p bs ev x y z, user_heap h /\
  job_wire_profile K TK WK h r ws o None None None = (h', Ok r') /\ hget h' r' = Some j' /\ job_printable h' j' /\ ms_ended st = false /\
  tool_radius j' = Some radius /\ toolpaths_of K TK WK j' radius ws (Some o) None None paths /\
  (forall w, In w paths -> entered_straight K (j_op_safe_height j') w /\ loop w /\ forall e, In e w -> e_geom e = GLINE) /\
  (forall w u d id q, In w paths -> k_nearest K u (WWire w) = Some (d, TEdge id q) -> nearest_inside w u d id q) /\
  to_gcode h' r' = Ok p /\ parse_program p = Some bs /\ In ev (snd (run st bs)) /\ is_feed_move (ev_kind ev) = true /\
  ms_x (ev_to ev) = Some x /\ ms_y (ev_to ev) = Some y /\ ms_z (ev_to ev) = Some z /\ z < 0 /\
  forall w v, In w paths -> on_path w v -> qz 100 <= sq2 (x - vx v) (y - vy v).
Proof.
  destruct (job_b_ok stray_heap 1%nat) as (j & HJ & HP); [apply user_wire_profile, start_user|vm_compute; reflexivity|].
  destruct (pair_paths _ _ _ _ _ _ _ _ (qq 3 2) stray_made eq_refl HJ) as (T1 & T2 & T3).
  exists stray_kernel, flat_tk, stray_wk, [ex_job], 0%nat, [small_box], 1, stray_heap, 1%nat, j, ProgramEx.st_off, (qq 3 2), [small_box; tall_box].
  eexists _, (ProgramEx.blocks_of stray_heap 1%nat), (nth_move stray_heap 1%nat 16), (qz 15), 0, (qz (-5)).
  split; [exact start_user|]. split; [exact stray_made|]. split; [exact HJ|]. split; [exact HP|]. split; [reflexivity|]. split; [exact T1|]. split; [exact T3|].
  split. { rewrite T2. intros w [<-|[<-|[]]]; (split; [apply box_entered; reflexivity|]); (split; [apply box_loop|]); intros e [<-|[<-|[<-|[<-|[]]]]]; reflexivity. }
  split; [exact stray_nearest|]. split; [vm_compute; reflexivity|]. split; [vm_compute; reflexivity|]. split; [apply nth_move_in; apply Nat.ltb_lt; vm_compute; reflexivity|]. split; [vm_compute; reflexivity|].
  assert (X : match ms_x (ev_to (nth_move stray_heap 1%nat 16)), ms_y (ev_to (nth_move stray_heap 1%nat 16)), ms_z (ev_to (nth_move stray_heap 1%nat 16)) with
    Some a, Some b, Some c => qeqb a (qz 15) && qeqb b 0 && qeqb c (qz (-5)) | _, _, _ => false end = true) by (vm_compute; reflexivity).
  destruct (ms_x (ev_to (nth_move stray_heap 1%nat 16))) as [a|]; [|discriminate]. destruct (ms_y (ev_to (nth_move stray_heap 1%nat 16))) as [b|]; [|discriminate]. destruct (ms_z (ev_to (nth_move stray_heap 1%nat 16))) as [c|]; [|discriminate].
  apply andb_true_iff in X as (X & X3). apply andb_true_iff in X as (X1 & X2). apply qeqb_eq in X1, X2, X3. subst a b c.
  split; [reflexivity|]. split; [reflexivity|]. split; [reflexivity|]. split; [reflexivity|]. exact stray_far.
Qed.
Lemma round_nearest w u d id q : In w [small_box; round_hole] -> k_nearest round_kernel u (WWire w) = Some (d, TEdge id q) -> nearest_inside w u d id q.
Proof.
  intros Hw H. unfold round_kernel in H. apply answer_inside in H as (-> & -> & -> & -> & e & rest & E & EI). destruct Hw as [<-|[<-|[]]]; [injection E as <- _; discriminate EI|]. clear E EI.
  eexists. split; [left; reflexivity|]. split; [reflexivity|]. split; [reflexivity|]. split; [reflexivity|]. split; [discriminate|]. split; [apply Qc_is_canon; vm_compute; reflexivity|].
  intros v (e2 & t & He & T0 & T1 & ->). destruct He as [<-|[]].
  assert (X : exists p, travel_param (circle 1 false 0 15 (-5)) t = circ_point 0 15 (-5) p) by (unfold travel_param; cbn [e_reversed circle e_param]; eexists; reflexivity). destruct X as (p & ->).
  destruct (circ_level 0 15 (-5) p) as [C _]. set (v := circ_point 0 15 (-5) p) in *. clearbody v. unfold sq2 in C. change (qz 0) with 0 in C. unfold apart2, zv. cbn [vx vy vz].
  pose proof (ProgramThmP.qsq_nonneg (qz (-5) - vz v)) as S2. set (s2 := (qz (-5) - vz v) * (qz (-5) - vz v)) in *. clearbody s2.
  assert (D : qz 10 = qz 9 + 1) by (apply Qc_is_canon; reflexivity). rewrite D. set (a := qz 9) in *. assert (A0 : 0 <= a) by discriminate. clearbody a. set (b := qz 15) in *. clearbody b. set (x := vx v) in *. set (y := vy v) in *. clearbody x y.
  assert (C' : (x * x + (b - y) * (b - y) = 1)) by (rewrite <- C; ring). pose proof (ProgramThmP.qsq_nonneg (b - y)) as S1. set (s1 := (b - y) * (b - y)) in *. clearbody s1. clear C.
  assert (X1 : x <= 1). { apply Qcnot_lt_le. intros L. qc2q. nra. }
  replace ((a + 1 - x) * (a + 1 - x) + s1 + s2) with ((a + 1) * (a + 1) - (1 + 1) * (a + 1) * x + (x * x + s1) + s2) by ring. rewrite C'. qc2q. nra.
Qed.
Lemma round_refuted : exists K TK WK h r ws o h' r' j' st radius paths p bs ev, user_heap h /\
  job_wire_profile K TK WK h r ws o None None None = (h', Ok r') /\ hget h' r' = Some j' /\ job_printable h' j' /\ ms_ended st = false /\
  tool_radius j' = Some radius /\ toolpaths_of K TK WK j' radius ws (Some o) None None paths /\
  (forall w, In w paths -> loop w /\ forall e, In e w -> edge_sound e /\ (e_geom e = GLINE \/ level_circle e)) /\
  (forall w u d id q, In w paths -> k_nearest K u (WWire w) = Some (d, TEdge id q) -> nearest_inside w u d id q) /\
  to_gcode h' r' = Ok p /\ parse_program p = Some bs /\ In ev (snd (run st bs)) /\ (ev_kind ev = GArcCW \/ ev_kind ev = GArcCCW) /\ ~ radii_agree ev.
Proof.
  destruct (job_b_ok round_heap 1%nat) as (j & HJ & HP); [apply user_wire_profile, start_user|vm_compute; reflexivity|].
  destruct (pair_paths _ _ _ _ _ _ _ _ (qq 3 2) round_made eq_refl HJ) as (T1 & T2 & T3).
  exists round_kernel, flat_tk, round_wk, [ex_job], 0%nat, [small_box], 1, round_heap, 1%nat, j, ProgramEx.st_off, (qq 3 2), [small_box; round_hole].
  eexists _, (ProgramEx.blocks_of round_heap 1%nat), (nth_move round_heap 1%nat 12).
  split; [exact start_user|]. split; [exact round_made|]. split; [exact HJ|]. split; [exact HP|]. split; [reflexivity|]. split; [exact T1|]. split; [exact T3|].
  split. { intros w [<-|[<-|[]]].
    - split; [apply box_loop|]. intros e He. split; [revert e He; apply box_sound; reflexivity|]. left. destruct He as [<-|[<-|[<-|[<-|[]]]]]; reflexivity.
    - split; [split; [exact I|apply vec_eq; vm_compute; reflexivity]|]. intros e [<-|[]]. split; [sound|]. right. exists 1, (qz (-5)). intros t _ _. apply circ_level. }
  split; [exact round_nearest|]. split; [vm_compute; reflexivity|]. split; [vm_compute; reflexivity|]. split; [apply nth_move_in; apply Nat.ltb_lt; vm_compute; reflexivity|]. split; [right; vm_compute; reflexivity|].
  intros (x0 & y0 & x1 & y1 & i & j0 & A & B & C & D & E & F & _ & R).
  assert (X : match ms_x (ev_from (nth_move round_heap 1%nat 12)), ms_y (ev_from (nth_move round_heap 1%nat 12)), ms_x (ev_to (nth_move round_heap 1%nat 12)), ms_y (ev_to (nth_move round_heap 1%nat 12)), ev_i (nth_move round_heap 1%nat 12), ev_j (nth_move round_heap 1%nat 12) with
    Some a, Some b, Some c, Some d, Some e, Some f => qeqb a 0 && qeqb b (qz 14) && qeqb c (qq (-3) 5) && qeqb d (qq 79 5) && qeqb e (- (1)) && qeqb f 0 | _, _, _, _, _, _ => false end = true) by (vm_compute; reflexivity).
  rewrite A, B, C, D, E, F in X. repeat (apply andb_true_iff in X as (X & ?)). repeat match goal with H : qeqb _ _ = true |- _ => apply qeqb_eq in H as -> end. clear - R.
  specialize (R 1). apply R; [discriminate|discriminate|reflexivity].
Qed.
Lemma ex_strays : job_wire_profile stray_kernel flat_tk stray_wk [ex_job] 0%nat [small_box] 1 None None None = (stray_heap, Ok 1%nat) /\
  (exists j, hget stray_heap 1%nat = Some j /\ job_printable stray_heap j /\ tool_radius j = Some (qq 3 2) /\
    toolpaths_of stray_kernel flat_tk stray_wk j (qq 3 2) [small_box] (Some 1) None None [small_box; tall_box] /\
    (forall w, In w [small_box; tall_box] -> entered_straight stray_kernel (j_op_safe_height j) w)) /\
  cut_ends stray_heap 1%nat = [(Some 10, Some 15, Some (-5)); (Some 12, Some 15, Some (-5)); (Some 12, Some 17, Some (-5)); (Some 10, Some 17, Some (-5)); (Some 10, Some 15, Some (-5));
    (Some 0, Some 0, Some (-5)); (Some 2, Some 0, Some (-5)); (Some 2, Some 20, Some (-5)); (Some 0, Some 20, Some (-5)); (Some 0, Some 0, Some (-5)); (Some 15, Some 0, Some (-5))]%Z.
Proof.
  split; [exact stray_made|]. split; [|vm_compute; reflexivity].
  destruct (job_b_ok stray_heap 1%nat) as (j & HJ & HP); [apply user_wire_profile, start_user|vm_compute; reflexivity|].
  destruct (pair_paths _ _ _ _ _ _ _ _ (qq 3 2) stray_made eq_refl HJ) as (T1 & T2 & T3). exists j. split; [exact HJ|]. split; [exact HP|]. split; [exact T1|]. split; [exact T3|].
  rewrite T2. intros w [<-|[<-|[]]]; apply box_entered; reflexivity.
Qed.

Definition high_box : list edge := box_wire 11 10 5 12 7 (-5).
Definition low_box : list edge := box_wire 1 0 20 20 30 (-5).
Definition first_kernel : kernel := one_answer 1 (zv 10 5 (-5)) (qz 15) (TEdge 1 (qz 10)).
Definition first_wk : wire_kernel := pair_wk high_box low_box.
Definition first_heap : heap := fst (job_wire_profile first_kernel flat_tk first_wk [ex_job] 0%nat [high_box] 1 None None None).
Lemma ex_kept : job_wire_profile first_kernel flat_tk first_wk [ex_job] 0%nat [high_box] 1 None None None = (first_heap, Ok 1%nat) /\
  (exists j, hget first_heap 1%nat = Some j /\ job_printable first_heap j /\ tool_radius j = Some (qq 3 2) /\
    toolpaths_of first_kernel flat_tk first_wk j (qq 3 2) [high_box] (Some 1) None None [high_box; low_box] /\
    (forall w, In w [high_box; low_box] -> entered_straight first_kernel (j_op_safe_height j) w /\ (forall e, In e w -> e_geom e = GLINE) /\ inside_first first_kernel w) /\
    (exists u d id q, k_nearest first_kernel u (WWire low_box) = Some (d, TEdge id q) /\ nearest_inside low_box u d id q)) /\
  skipn 5 (cut_ends first_heap 1%nat) = [(Some 0, Some 20, Some (-5)); (Some 20, Some 20, Some (-5)); (Some 20, Some 30, Some (-5)); (Some 0, Some 30, Some (-5)); (Some 0, Some 20, Some (-5)); (Some 10, Some 20, Some (-5))]%Z.
Proof.
  assert (Q : job_wire_profile first_kernel flat_tk first_wk [ex_job] 0%nat [high_box] 1 None None None = (first_heap, Ok 1%nat)).
  { rewrite (surjective_pairing (job_wire_profile _ _ _ _ _ _ _ _ _ _)). unfold first_heap. f_equal. }
  split; [exact Q|]. split; [|vm_compute; reflexivity].
  destruct (job_b_ok first_heap 1%nat) as (j & HJ & HP); [apply user_wire_profile, start_user|vm_compute; reflexivity|].
  destruct (pair_paths _ _ _ _ _ _ _ _ (qq 3 2) Q eq_refl HJ) as (T1 & T2 & T3). exists j. split; [exact HJ|]. split; [exact HP|]. split; [exact T1|]. split; [exact T3|]. split.
  - rewrite T2. intros w Hw. split; [destruct Hw as [<-|[<-|[]]]; apply box_entered; reflexivity|]. split; [destruct Hw as [<-|[<-|[]]]; intros e [<-|[<-|[<-|[<-|[]]]]]; reflexivity|].
    intros u d id p H. unfold first_kernel in H. apply answer_inside in H as (_ & _ & _ & -> & e & rest & E & EI). destruct Hw as [<-|[<-|[]]]; [injection E as <- _; discriminate EI|]. eexists _, _. split; [reflexivity|]. split; discriminate.
  - exists (zv 10 5 (-5)), (qz 15), 1%nat, (qz 10). split; [reflexivity|].
    eexists. split; [left; reflexivity|]. split; [reflexivity|]. split; [reflexivity|]. split; [reflexivity|]. split; [discriminate|]. split; [apply Qc_is_canon; vm_compute; reflexivity|].
    intros v Hv. apply box_points in Hv as (_ & _ & B & _); [|reflexivity|reflexivity]. unfold apart2, zv. cbn [vx vy vz].
    pose proof (ProgramThmP.qsq_nonneg (qz 10 - vx v)) as S1. pose proof (ProgramThmP.qsq_nonneg (qz (-5) - vz v)) as S2.
    assert (D : qz 20 = qz 15 + qz 5) by (apply Qc_is_canon; reflexivity). rewrite D in B. set (a := qz 15) in *. set (b := qz 5) in *. assert (A0 : 0 <= a) by discriminate. clearbody a b.
    set (s1 := (qz 10 - vx v) * (qz 10 - vx v)) in *. set (s2 := (qz (-5) - vz v) * (qz (-5) - vz v)) in *. clearbody s1 s2. set (x := vy v) in *. clearbody x.
    assert (Y0 : 0 <= x - b - a) by qlra. replace ((b - x) * (b - x)) with ((a + (x - b - a)) * (a + (x - b - a))) by ring. set (y := x - b - a) in *. clearbody y. clear - A0 Y0 S1 S2. qc2q. nra.
Qed.
