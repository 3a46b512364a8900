(** Examples and counterexamples for Props/LinksMade.v. *)
From Verif Require Import Base.Str Base.Py Spec.Gcode Spec.Blocks Spec.Machine Spec.Program Spec.Jobs Spec.Axes Spec.Wires Spec.Curves Spec.Profiles Spec.OnMachine Spec.Arcs Spec.Traced Spec.Strays Spec.LinksMade
  Model.Groups Model.Geometry Model.Edges Model.Plane Model.Job Model.Routers
  Proofs.RouteEx Proofs.TracedArcsEx Proofs.StraysEx.
From Coq Require Import Lia.
Local Open Scope Qc_scope.
Local Open Scope list_scope.

Definition st_on : mstate :=
  MS None None None SpCW (Some (qz 1000)) false false None None None (Some 170%Z) (Some 210%Z) (Some 400%Z) (Some 540%Z) (Some 640%Z) (Some 900%Z) (Some 940%Z) None None false.
(** The moves made for wires. *)
Definition wire_moves (K : kernel) (ws : list wire) (so : option Qc) : list event :=
  match route_wires K ex_job ws so None with Ok cmds => snd (run st_on (flat_map command_blocks (map Motion cmds))) | Err _ => [] end.
Definition hundredths (q : Qc) : Z := qfloor (q * qz 100).
Definition move_ends (es : list event) : list (gmotion * option Z * option Z) :=
  map (fun e => (ev_kind e, option_map hundredths (ms_x (ev_to e)), option_map hundredths (ms_y (ev_to e)))) (feed_moves es).

(** A circle of which the parameter runs from -1 to 3. *)
Definition zero_circle : edge :=
  Edge 1 GCIRCLE false (circ_point 0 15 (-5) 0) (circ_point 0 15 (-5) (qz 4)) (fun p => circ_point 0 15 (-5) (p + 1)) (fun d => circ_point 0 15 (-5) (qz 4 * d)) (qz (-1)) (qz 3) (qz 6) (zv 0 15 (-5)) (zv 0 0 1) true.
Definition zero_kernel : kernel := one_answer 1 (zv 10 15 (-5)) (qz 9) (TEdge 1 0).
Definition zero_moves : list event := wire_moves zero_kernel (map WWire [small_box; [zero_circle]]) (Some (qz 10)).
Definition zero_move (n : nat) : event := nth n zero_moves (Ev GRapid st_on st_on None None None).
Lemma zero_sound : edge_sound zero_circle.
Proof. split; [|split; [|split; [|split; [|intros _]]]]; apply vec_eq; vm_compute; reflexivity. Qed.
Lemma zero_nearest w u d id q : In w [small_box; [zero_circle]] -> k_nearest zero_kernel u (WWire w) = Some (d, TEdge id q) -> nearest_inside w u d id q /\ d <> 0 /\ d <= qz 10.
Proof.
  intros Hw H. unfold zero_kernel in H. apply answer_inside in H as (-> & -> & -> & -> & e & rest & E & EI). split; [|split; discriminate].
  destruct Hw as [<-|[<-|[]]]; [injection E as <- _; discriminate EI|]. clear E EI.
  assert (N : nearest_inside round_hole (zv 10 15 (-5)) (qz 9) 1 1) by (apply (round_nearest round_hole); [right; left; reflexivity|reflexivity]).
  destruct N as (e' & [<-|[]] & _ & _ & _ & D0 & AP & ALL). exists zero_circle. split; [left; reflexivity|]. split; [reflexivity|]. split; [reflexivity|]. split; [reflexivity|]. split; [exact D0|]. split; [apply Qc_is_canon; vm_compute; reflexivity|].
  intros v (e2 & t & [<-|[]] & T0 & T1 & ->). apply ALL. exists (circle 1 false 0 15 (-5)), t. split; [left; reflexivity|]. split; [exact T0|]. split; [exact T1|].
  unfold travel_param, zero_circle, circle. cbn [e_reversed e_param e_param0 e_param1]. f_equal. assert (A : qz 3 = qz 4 - 1) by (apply Qc_is_canon; reflexivity). assert (B : qz (-1) = - (1)) by (apply Qc_is_canon; reflexivity). rewrite A, B. ring.
Qed.
Lemma zero_refuted : exists K j ws s cmds st ev, ready st /\ route_wires K j (map WWire ws) (Some s) None = Ok cmds /\
  (forall w, In w ws -> w <> [] /\ loop w /\ forall e, In e w -> edge_sound e /\ vz (travel_start e) < j_op_safe_height j /\ (e_geom e = GLINE \/ level_circle e)) /\
  (forall w u d id q, In w ws -> k_nearest K u (WWire w) = Some (d, TEdge id q) -> nearest_inside w u d id q /\ d <> 0 /\ d <= s) /\
  In ev (snd (run st (flat_map command_blocks (map Motion cmds)))) /\ (ev_kind ev = GArcCW \/ ev_kind ev = GArcCCW) /\ ~ radii_agree ev.
Proof.
  destruct (route_wires zero_kernel ex_job (map WWire [small_box; [zero_circle]]) (Some (qz 10)) None) as [cmds|x] eqn:E; [|exfalso; assert (X : match route_wires zero_kernel ex_job (map WWire [small_box; [zero_circle]]) (Some (qz 10)) None with Ok _ => true | Err _ => false end = true) by (vm_compute; reflexivity); rewrite E in X; discriminate].
  assert (EM : snd (run st_on (flat_map command_blocks (map Motion cmds))) = zero_moves) by (unfold zero_moves, wire_moves; rewrite E; reflexivity).
  exists zero_kernel, ex_job, [small_box; [zero_circle]], (qz 10), cmds, st_on, (zero_move 9). split; [repeat split|]. split; [exact E|]. split.
  { intros w [<-|[<-|[]]].
    - split; [discriminate|]. split; [apply box_loop|]. intros e He. split; [revert e He; apply box_sound; reflexivity|]. split; [destruct He as [<-|[<-|[<-|[<-|[]]]]]; reflexivity|]. left. destruct He as [<-|[<-|[<-|[<-|[]]]]]; reflexivity.
    - split; [discriminate|]. split; [split; [exact I|apply vec_eq; vm_compute; reflexivity]|]. intros e [<-|[]]. split; [exact zero_sound|]. split; [apply qltb_lt; vm_compute; reflexivity|]. right. exists 1, (qz (-5)). intros t _ _. apply circ_level. }
  split; [exact zero_nearest|]. rewrite EM. split; [unfold zero_move; apply nth_In; apply Nat.ltb_lt; vm_compute; reflexivity|]. split; [right; vm_compute; reflexivity|].
  intros (x0 & y0 & x1 & y1 & i & j0 & A & B & C & D & EE & F & _ & R).
  assert (X : match ms_x (ev_from (zero_move 9)), ms_y (ev_from (zero_move 9)), ms_x (ev_to (zero_move 9)), ms_y (ev_to (zero_move 9)), ev_i (zero_move 9), ev_j (zero_move 9) with
    Some a, Some b, Some c, Some d, Some e, Some f => qeqb a 0 && qeqb b (qz 14) && qeqb c (qq (-3) 5) && qeqb d (qq 79 5) && qeqb e (- (1)) && qeqb f 0 | _, _, _, _, _, _ => false end = true) by (vm_compute; reflexivity).
  rewrite A, B, C, D, EE, F in X. repeat (apply andb_true_iff in X as (X & ?)). repeat match goal with H : qeqb _ _ = true |- _ => apply qeqb_eq in H as -> end. clear - R.
  specialize (R 1). apply R; [discriminate|discriminate|reflexivity].
Qed.
Definition corner_kernel : kernel := one_answer 1 (zv 10 15 (-5)) (qz 9) (TVertex (zv 2 20 (-5))).
Lemma box_linkable K so id x0 y0 x1 y1 z safe : (x0 < x1)%Z -> (y0 < y1)%Z -> qz z < safe -> (forall u d i p, k_nearest K u (WWire (box_wire id x0 y0 x1 y1 z)) <> Some (d, TEdge i p)) -> linkable K so safe (WWire (box_wire id x0 y0 x1 y1 z)).
Proof.
  intros X Y Z N. split; [discriminate|]. split; [apply box_sound; assumption|]. split; [apply box_loop|]. split; [intros e rest [= <- _]; exact Z|]. split.
  - intros u. unfold good_answer. destruct (k_nearest K u _) as [[d [v|i p]]|] eqn:E; try exact I. contradiction (N _ _ _ _ E).
  - intros u d i p e E. contradiction (N _ _ _ _ E).
Qed.
Lemma ex_links : exists cmds, route_wires round_kernel ex_job [WWire small_box; WWire round_hole] (Some (qz 10)) None = Ok cmds /\ ready st_on /\
  (forall w, In w [WWire small_box; WWire round_hole] -> linkable round_kernel (Some (qz 10)) (j_op_safe_height ex_job) w) /\
  move_ends (wire_moves round_kernel [WWire small_box; WWire round_hole] (Some (qz 10))) =
    [(GLinear, Some 1000, Some 1500); (GLinear, Some 1200, Some 1500); (GLinear, Some 1200, Some 1700); (GLinear, Some 1000, Some 1700); (GLinear, Some 1000, Some 1500);
     (GLinear, Some 100, Some 1500); (GArcCCW, Some (-60), Some 1580); (GArcCCW, Some 0, Some 1400); (GArcCCW, Some 60, Some 1420); (GArcCCW, Some 100, Some 1500)]%Z.
Proof.
  destruct (route_wires round_kernel ex_job [WWire small_box; WWire round_hole] (Some (qz 10)) None) as [cmds|x] eqn:E; [|exfalso; assert (X : match route_wires round_kernel ex_job [WWire small_box; WWire round_hole] (Some (qz 10)) None with Ok _ => true | Err _ => false end = true) by (vm_compute; reflexivity); rewrite E in X; discriminate].
  exists cmds. split; [reflexivity|]. split; [repeat split|]. split; [|vm_compute; reflexivity]. intros w [<-|[<-|[]]].
  - apply box_linkable; [reflexivity|reflexivity|reflexivity|]. intros u d i p H. unfold round_kernel in H. apply answer_inside in H as (_ & _ & _ & _ & e & rest & [= <- _] & EI). discriminate EI.
  - split; [discriminate|]. split; [intros e [<-|[]]; split; [|split; [|split; [|split; [|intros _]]]]; apply vec_eq; vm_compute; reflexivity|]. split; [split; [exact I|apply vec_eq; vm_compute; reflexivity]|].
    split; [intros e rest [= <- _]; apply qltb_lt; vm_compute; reflexivity|]. split.
    + intros u. unfold good_answer. destruct (k_nearest round_kernel u (WWire round_hole)) as [[d [v|i p]]|] eqn:H; try exact I. unfold round_kernel in H. apply answer_inside in H as (_ & -> & -> & -> & _).
      split; [exists (qz 10); repeat split; discriminate|]. split; [discriminate|]. intros e [<-|[]] _. reflexivity.
    + intros u d i p e H [<-|[]] _. unfold round_kernel in H. apply answer_inside in H as (_ & -> & -> & -> & _). split; discriminate.
Qed.
Lemma ex_corner : exists cmds, route_wires corner_kernel ex_job [WWire small_box; WWire tall_box] (Some (qz 10)) None = Ok cmds /\
  (forall w, In w [WWire small_box; WWire tall_box] -> linkable corner_kernel (Some (qz 10)) (j_op_safe_height ex_job) w) /\
  skipn 5 (move_ends (wire_moves corner_kernel [WWire small_box; WWire tall_box] (Some (qz 10)))) =
    [(GLinear, Some 200, Some 2000); (GLinear, Some 0, Some 2000); (GLinear, Some 0, Some 0); (GLinear, Some 200, Some 0); (GLinear, Some 200, Some 2000)]%Z.
Proof.
  destruct (route_wires corner_kernel ex_job [WWire small_box; WWire tall_box] (Some (qz 10)) None) as [cmds|x] eqn:E; [|exfalso; assert (X : match route_wires corner_kernel ex_job [WWire small_box; WWire tall_box] (Some (qz 10)) None with Ok _ => true | Err _ => false end = true) by (vm_compute; reflexivity); rewrite E in X; discriminate].
  exists cmds. split; [reflexivity|]. split; [|vm_compute; reflexivity].
  intros w [<-|[<-|[]]]; (apply box_linkable; [reflexivity|reflexivity|reflexivity|]); intros u d i p H; unfold corner_kernel in H; apply one_answer_inv in H as (_ & _ & H & _); discriminate H.
Qed.
