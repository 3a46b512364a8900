(** Counterexample for C124: a pocket with an island, engine "cq". *)
From Verif Require Import Base.Str Base.Py Spec.Gcode Spec.Blocks Spec.Machine Spec.Program Spec.Jobs Spec.Wires Spec.Curves Spec.OnMachine Spec.Arcs Spec.Traced Spec.Strays Spec.LinksMade Spec.PocketCq
  Model.Groups Model.Geometry Model.Edges Model.Plane Model.Job Model.Routers Model.PocketOp
  Proofs.RouteEx Proofs.ProfileEx Proofs.PocketEx Proofs.PocketOpEx Proofs.LinksMadeEx Proofs.StraysEx Proofs.CqMadeEx.
From Coq Require Import Lia.
Local Open Scope Qc_scope.
Local Open Scope list_scope.

(** A rectangle from its upper left corner down and round. *)
Definition ccw_wire (id : nat) (x0 y0 x1 y1 z : Z) : list edge :=
  [span id (zv x0 y1 z) (zv x0 y0 z) (qz (y1 - y0)); span (S id) (zv x0 y0 z) (zv x1 y0 z) (qz (x1 - x0));
   span (S (S id)) (zv x1 y0 z) (zv x1 y1 z) (qz (y1 - y0)); span (S (S (S id))) (zv x1 y1 z) (zv x0 y1 z) (qz (x1 - x0))].
(** The pocket and its island; both offset, the outline by 6, the island by 1; the outline offset by
    another 6, and what is left of that outside of the island. *)
Definition isle_area : rect_face := RF (ccw_wire 1 (-6) (-6) 66 22 (-5)) [ccw_wire 5 9 2 15 10 (-5)] (qz (-5)).
Definition isle_outline : list edge := ccw_wire 11 0 0 60 16 (-5).
Definition isle_hole : list edge := ccw_wire 15 10 3 14 9 (-5).
Definition isle_inward : list edge := ccw_wire 21 6 6 54 10 (-5).
Definition isle_notched : list edge :=
  [span 31 (zv 10 9 (-5)) (zv 14 9 (-5)) (qz 4); span 32 (zv 14 9 (-5)) (zv 14 6 (-5)) (qz 3); span 33 (zv 14 6 (-5)) (zv 54 6 (-5)) (qz 40); span 34 (zv 54 6 (-5)) (zv 54 10 (-5)) (qz 4);
   span 35 (zv 54 10 (-5)) (zv 6 10 (-5)) (qz 48); span 36 (zv 6 10 (-5)) (zv 6 6 (-5)) (qz 4); span 37 (zv 6 6 (-5)) (zv 10 6 (-5)) (qz 4); span 38 (zv 10 6 (-5)) (zv 10 9 (-5)) (qz 3)].
Definition isle_wk : wire_kernel := {|
  wk_transform := fun _ w => w;
  wk_offset := fun w _ => match w with
    | e :: _ => match e_id e with 1 => Ok [isle_outline] | 5 => Ok [isle_hole] | 11 => Ok [isle_inward] | _ => Ok [] end%nat
    | [] => Ok [] end;
  wk_area := fun _ => Ok 1; wk_relocate := fun _ w => w; wk_moved := fun w _ => w; wk_below := fun _ _ => Ok false |}.
Definition isle_fk : face_kernel := {|
  fk_face := rect_face;
  fk_transform := fk_transform rect_fk; fk_zmin := rf_z; fk_zmax := rf_z; fk_outer := rf_outer; fk_inners := rf_inners;
  fk_basis := fun _ => Err KeyError;
  fk_make := fun o ins => Ok (RF o ins (lo vz (corners o)));
  fk_translate := fun f v => moved_by v f;
  fk_combine := fun fs => Ok fs;
  fk_cut := fun f tools => Ok [RF isle_notched [] (qz (-5))] |}.
Definition isle_kernel : kernel := one_answer 11 (zv 10 9 (-5)) (qz 7) (TEdge 14 (qz 50)).
Definition isle_result := pocket_cq isle_kernel isle_wk isle_fk 20 ex_job [isle_area] [] (- qz 6) (- (1)) 1 (- (1)) (qz 6).
Definition isle_moves : list event := match isle_result with Ok cmds => snd (run st_on (flat_map command_blocks (map Motion cmds))) | Err _ => [] end.
Definition isle_face : rect_face := RF isle_outline [isle_hole] (qz (-5)).
Lemma isle_fills : fill_face isle_kernel isle_wk isle_fk 20 isle_face (qz 6) = Ok [[isle_notched; isle_outline]].
Proof. reflexivity. Qed.
Lemma isle_offset : cq_offset isle_kernel isle_wk isle_fk (- qz 6) (- (1)) isle_area [isle_face].
Proof.
  exists [isle_outline], [[isle_hole]]. split; [reflexivity|]. split; [constructor; [reflexivity|constructor]|]. constructor; [|constructor]. cbn [fk_make isle_fk]. unfold isle_face. apply f_equal. apply f_equal. apply Qc_is_canon. vm_compute. reflexivity.
Qed.
Lemma isle_loops w : In w [isle_notched; isle_outline] -> loop w /\ forall e, In e w -> edge_sound e /\ e_geom e = GLINE /\ vz (travel_start e) < j_op_safe_height ex_job.
Proof.
  intros [<-|[<-|[]]]; (split; [repeat split|]); intros e He; repeat (destruct He as [<-|He]; [split; [apply span_sound; discriminate|]; split; reflexivity|]); destruct He.
Qed.
Lemma isle_sides v : on_path isle_outline v -> vx v = 0 \/ vy v = 0 \/ vx v = qz 60 \/ vy v = qz 16.
Proof.
  intros (e & t & He & T0 & T1 & ->). destruct He as [<-|[<-|[<-|[<-|[]]]]]; rewrite span_points by discriminate; unfold mix, zv; cbn [vx vy vz]; change (qz 0) with 0.
  - left. ring.
  - right. left. ring.
  - right. right. left. ring.
  - right. right. right. ring.
Qed.
Lemma isle_area_low v : on_path (ccw_wire 1 (-6) (-6) 66 22 (-5)) v -> qz (-6) <= vy v.
Proof.
  intros (e & t & He & T0 & T1 & ->). assert (L : qz (-6) <= qz 22) by discriminate. destruct He as [<-|[<-|[<-|[<-|[]]]]]; rewrite span_points by discriminate; unfold mix, zv; cbn [vx vy vz]; set (a := qz (-6)) in *; set (b := qz 22) in *; clearbody a b; clear - T0 T1 L; qc2q; nra.
Qed.
Lemma sq_far a b : 0 <= b -> (a <= - b \/ b <= a) -> b * b <= a * a.
Proof. intros B [H|H]; qc2q; nra. Qed.
Lemma isle_nearest w u d id q : In w [isle_notched; isle_outline] -> k_nearest isle_kernel u (WWire w) = Some (d, TEdge id q) -> nearest_inside w u d id q.
Proof.
  intros Hw H. unfold isle_kernel in H. apply answer_inside in H as (-> & -> & -> & -> & e & rest & E & EI). destruct Hw as [<-|[<-|[]]]; [injection E as <- _; discriminate EI|]. clear E EI.
  eexists. split; [right; right; right; left; reflexivity|]. split; [reflexivity|]. split; [reflexivity|]. split; [reflexivity|]. split; [discriminate|]. split; [apply Qc_is_canon; vm_compute; reflexivity|].
  intros v Hv. apply isle_sides in Hv. unfold apart2, zv. cbn [vx vy vz].
  pose proof (ProgramThmP.qsq_nonneg (qz 10 - vx v)) as S0. pose proof (ProgramThmP.qsq_nonneg (qz 9 - vy v)) as S1. pose proof (ProgramThmP.qsq_nonneg (qz (-5) - vz v)) as S2.
  assert (A : qz 7 * qz 7 <= (qz 10 - vx v) * (qz 10 - vx v) \/ qz 7 * qz 7 <= (qz 9 - vy v) * (qz 9 - vy v)).
  { destruct Hv as [-> | [-> | [-> | ->]]]; [left|right|left|right]; apply sq_far; try discriminate; [right|right|left|left]; discriminate. }
  set (s := qz 7 * qz 7) in *. set (s0 := (qz 10 - vx v) * (qz 10 - vx v)) in *. set (s1 := (qz 9 - vy v) * (qz 9 - vy v)) in *. set (s2 := (qz (-5) - vz v) * (qz (-5) - vz v)) in *. clearbody s s0 s1 s2. destruct A; qlra.
Qed.
Definition isle_last : event := Ev GRapid st_on st_on None None None.
Lemma isle_refuted : exists K WK F fuel j area oo io so cmds st f fills ev y z,
  pocket_cq K WK F fuel j [area] [] oo io 1 (- (1)) so = Ok cmds /\ ready st /\ cq_offset K WK F oo io area [f] /\ fill_face K WK F fuel f so = Ok fills /\
  (forall w, In w (concat fills) -> loop w /\ forall e, In e w -> edge_sound e /\ e_geom e = GLINE /\ vz (travel_start e) < j_op_safe_height j) /\
  (forall w u d id q, In w (concat fills) -> k_nearest K u (WWire w) = Some (d, TEdge id q) -> nearest_inside w u d id q) /\
  In ev (snd (run st (flat_map command_blocks (map Motion cmds)))) /\ is_feed_move (ev_kind ev) = true /\
  ms_y (ev_to ev) = Some y /\ ms_z (ev_to ev) = Some z /\ z < 0 /\ forall v, on_path (fk_outer F area) v -> qz 28 <= vy v - y.
Proof.
  destruct isle_result as [cmds|x] eqn:E; [|exfalso; assert (X : match isle_result with Ok _ => true | Err _ => false end = true) by (vm_compute; reflexivity); rewrite E in X; discriminate].
  assert (M : snd (run st_on (flat_map command_blocks (map Motion cmds))) = isle_moves) by (unfold isle_moves; rewrite E; reflexivity).
  exists isle_kernel, isle_wk, isle_fk, 20%nat, ex_job, isle_area, (- qz 6), (- (1)), (qz 6), cmds, st_on, isle_face, [[isle_notched; isle_outline]], (nth 20 isle_moves isle_last), (qz (-34)), (qz (-5)).
  split; [exact E|]. split; [repeat split|]. split; [exact isle_offset|]. split; [exact isle_fills|]. split; [exact isle_loops|]. split; [exact isle_nearest|]. rewrite M.
  split; [apply nth_In; apply Nat.ltb_lt; vm_compute; reflexivity|]. split; [vm_compute; reflexivity|].
  assert (X : match ms_y (ev_to (nth 20 isle_moves isle_last)), ms_z (ev_to (nth 20 isle_moves isle_last)) with Some a, Some b => qeqb a (qz (-34)) && qeqb b (qz (-5)) | _, _ => false end = true) by (vm_compute; reflexivity).
  destruct (ms_y (ev_to (nth 20 isle_moves isle_last))) as [a|]; [|discriminate]. destruct (ms_z (ev_to (nth 20 isle_moves isle_last))) as [b|]; [|discriminate].
  apply andb_true_iff in X as (X1 & X2). apply qeqb_eq in X1, X2. subst a b. split; [reflexivity|]. split; [reflexivity|]. split; [reflexivity|].
  intros v Hv. apply isle_area_low in Hv. assert (D : qz (-6) - qz (-34) = qz 28) by (apply Qc_is_canon; reflexivity). rewrite <- D. set (a := qz (-34)). set (b := qz (-6)) in *. clearbody a b. qlra.
Qed.
