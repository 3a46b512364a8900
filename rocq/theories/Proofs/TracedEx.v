(** Examples for Props/Traced.v. *)
From Verif Require Import Base.Str Base.Py Spec.Gcode Spec.Blocks Spec.Machine Spec.Program Spec.Jobs Spec.Axes Spec.Wires Spec.Profiles Spec.OnMachine Spec.Traced
  Model.Groups Model.Geometry Model.Edges Model.Plane Model.Job Model.Routers Model.Tabs Model.Profile
  Proofs.RouteEx Proofs.TabsEx Proofs.ProfileEx Proofs.ProfileThmP Proofs.RatesEx Proofs.OnMachineEx.
From Verif Require Proofs.HistoryP Proofs.JobP.
Local Open Scope Qc_scope.
Local Open Scope list_scope.

Lemma line_sound id rev a b : edge_sound (line id rev a b).
Proof. exact (side_sound id rev a b (qz 1)). Qed.
Lemma rectangle_traceable x0 y0 x1 y1 z safe : z < safe -> traceable K0 safe (rectangle x0 y0 x1 y1 z).
Proof.
  intros L. split; [eexists _, _; split; [reflexivity|exact L]|]. split; [repeat split|]. split; [|discriminate].
  intros e [<-|[<-|[<-|[<-|[]]]]]; apply line_sound.
Qed.
Lemma lifted_sound dz e : edge_sound e -> edge_sound (map_edge (lift dz) e).
Proof. intros (A & B & C & D & E). repeat split; cbn; try congruence. intros H. f_equal. auto. Qed.
Lemma lifted_connected dz es : connected es -> connected (map (map_edge (lift dz)) es).
Proof.
  induction es as [|e [|e' es] IH]; intros H; [exact I|exact I|]. destruct H as [H1 H2]. cbn [map]. split; [|exact (IH H2)].
  unfold travel_end, travel_start in *. cbn [map_edge e_reversed e_startPoint e_endPoint]. destruct (e_reversed e), (e_reversed e'); congruence.
Qed.
Lemma lifted_rectangle x0 y0 x1 y1 z dz safe : z + dz < safe -> traceable K0 safe (map (map_edge (lift dz)) (rectangle x0 y0 x1 y1 z)).
Proof.
  intros L. split; [eexists _, _; split; [reflexivity|exact L]|]. split; [apply lifted_connected; repeat split|]. split; [|discriminate].
  intros e He. apply in_map_iff in He as (e' & <- & He). apply lifted_sound. destruct He as [<-|[<-|[<-|[<-|[]]]]]; apply line_sound.
Qed.
Lemma layers_low TK WK top mx base s fuel : forall i ls, layers_above TK WK top mx base s fuel i = Ok ls ->
  forall l, In l ls -> exists dz, l = wk_moved WK base dz /\ tk_zmin TK l < qq (-1) 1000.
Proof.
  induction fuel as [|fuel IH]; intros i ls H l Hl; [discriminate|]. cbn [layers_above] in H. destruct (mx <? i)%Z; [discriminate|].
  destruct (qleb (qq (-1) 1000) (tk_zmin TK (wk_moved WK base (s * qz (i + 1))))) eqn:E; [injection H as <-; contradiction|].
  apply rbind_ok in H as (b & _ & H). destruct b; [|injection H as <-; contradiction]. apply rbind_ok in H as (more & Hm & H). injection H as <-.
  destruct Hl as [<-|Hl]; [|eapply IH; eassumption]. exists (s * qz (i + 1)). split; [reflexivity|]. apply qleb_nle in E. exact E.
Qed.
Lemma frame_paths j sd x0 y0 x1 y1 z ps safe : 0 < safe -> z < safe -> profile_toolpaths flat_tk flat_wk j sd None (rectangle x0 y0 x1 y1 z) = Ok ps ->
  forall p, In p ps -> traceable K0 safe p.
Proof.
  intros S0 L H p Hp. unfold profile_toolpaths in H. apply rbind_ok in H as (ls & H & EQ). injection EQ as ->. unfold profile_layers in H.
  destruct sd as [s|]; [|injection H as <-; destruct Hp as [<-|[]]; apply rectangle_traceable, L].
  destruct (qeqb s 0); [injection H as <-; cbn in Hp; destruct Hp as [<-|Hp]; [|destruct Hp]; apply rectangle_traceable, L|].
  apply rbind_ok in H as (above & H & EQ). assert (Hp' : In p (rev (rectangle x0 y0 x1 y1 z :: above))) by congruence. apply (proj2 (in_rev _ _)) in Hp'. clear Hp. destruct Hp' as [<-|Hp]; [apply rectangle_traceable, L|].
  destruct (layers_low _ _ _ _ _ _ _ _ _ H p Hp) as (dz & -> & LZ). apply lifted_rectangle.
  destruct flat_tk_rigid as [R1 R2]. rewrite (R1 _ (z + dz) (R2 _ _ _ (rectangle_flat _ _ _ _ _))) in LZ.
  assert (N : qq (-1) 1000 < 0) by reflexivity. qlra.
Qed.

(** The tool paths of a profile that was made. *)
Lemma group_paths K TK WK j sd t ws o cmds r bases : tool_radius j = Some r -> profile_group K TK WK j sd t ws o = Ok cmds -> offsets_of K WK (j_top j) r ws o bases ->
  exists pss, Forall2 (fun b ps => profile_toolpaths TK WK j sd t b = Ok ps) bases pss.
Proof.
  intros HR HG HO. destruct o as [o|]; cbn [profile_group offsets_of] in *; [|subst; exists []; constructor].
  apply rbind_ok in HG as (cs & HG & _). destruct HO as (bss & HO & ->). apply mapM_ok in HG. revert bss HO.
  induction HG as [|w c ws cs E _ IH]; intros bss HO; inversion HO as [|? bs ? bss' O1 O2]; subst; [exists []; constructor|].
  destruct (IH _ O2) as (pss2 & F2). destruct (profile_inv _ _ _ _ _ _ _ _ _ E) as (r' & bases' & pss1 & E1 & E2 & E3 & _). rewrite HR in E1. injection E1 as <-. rewrite O1 in E2. injection E2 as <-.
  exists (pss1 ++ pss2). apply Forall2_app; assumption.
Qed.
Lemma profile_groups K TK WK h r shapes oo io sd t tl h' r' j : job_profile K TK WK h r shapes oo io sd t tl = (h', Ok r') -> hget h' r' = Some j ->
  exists j1 os ci co, j = with_operations j1 os /\ profile_group K TK WK j1 sd t (flat_map inners_of shapes) io = Ok ci /\ profile_group K TK WK j1 sd t (flat_map outer_of shapes) oo = Ok co.
Proof.
  intros HD HJ. unfold job_profile in HD. destruct (hget h r) as [j0|] eqn:Ej; [|discriminate].
  destruct (negb (is_some (j_tool_diameter j0))); [discriminate|]. destruct (negb (is_some oo) && negb (is_some io))%bool; [discriminate|].
  assert (SU : Forall supported shapes).
  { apply Forall_forall. intros x Hx ->. assert (X : extract_wires shapes = Err ValueError) by (apply extract_wires_err; auto). rewrite X in HD. discriminate. }
  rewrite (extract_wires_ok shapes SU) in HD.
  pose proof (HistoryP.fluent_op_spec h r j0 tl "Profile" (profile_gen K TK WK (flat_map outer_of shapes) (flat_map inners_of shapes) oo io sd t) Ej) as F. rewrite HD in F. inversion F as [|h1 r1 j1 cmds U E1 Eg]; subst.
  rewrite JobP.hget_new in HJ. injection HJ as <-. unfold profile_gen in Eg. apply rbind_ok in Eg as (ci & Ei & Eg). apply rbind_ok in Eg as (co & Eo & _). exists j1. eexists. exists ci, co. split; [reflexivity|]. split; [exact Ei|exact Eo].
Qed.
Lemma ex_traced : job_profile K0 flat_tk flat_wk [ex_job] 0%nat [frame] (Some 1) (Some (- (1))) (Some (qz 2)) None None = (frame_heap, Ok 1%nat) /\
  (exists j inners outers, hget frame_heap 1%nat = Some j /\ job_printable frame_heap j /\ tool_radius j = Some (qq 3 2) /\
    toolpaths_of K0 flat_tk flat_wk j (qq 3 2) (flat_map inners_of [frame]) (Some (- (1))) (Some (qz 2)) None inners /\
    toolpaths_of K0 flat_tk flat_wk j (qq 3 2) (flat_map outer_of [frame]) (Some 1) (Some (qz 2)) None outers /\
    (forall p, In p (inners ++ outers) -> traceable K0 (j_op_safe_height j) p)) /\
  firstn 6 (cut_ends frame_heap 1%nat) = [(Some 6, Some 6, Some (-1)); (Some 13, Some 6, Some (-1)); (Some 13, Some 13, Some (-1)); (Some 6, Some 13, Some (-1)); (Some 6, Some 6, Some (-1)); (Some 6, Some 6, Some (-3))]%Z.
Proof.
  assert (Q : job_profile K0 flat_tk flat_wk [ex_job] 0%nat [frame] (Some 1) (Some (- (1))) (Some (qz 2)) None None = (frame_heap, Ok 1%nat)).
  { rewrite (surjective_pairing (job_profile _ _ _ _ _ _ _ _ _ _ _)). unfold frame_heap. f_equal. }
  split; [exact Q|]. split; [|vm_compute; reflexivity].
  destruct (job_b_ok frame_heap 1%nat) as (j & HJ & HP); [apply user_profile, start_user|vm_compute; reflexivity|].
  assert (T : j_top j = plane_xy /\ tool_radius j = Some (qq 3 2) /\ j_op_safe_height j = j_op_safe_height ex_job).
  { destruct (profile_keeps K0 flat_tk flat_wk [ex_job] 0%nat ex_job [frame] (Some 1) (Some (- (1))) (Some (qz 2)) None frame_heap 1%nat eq_refl Q) as (os & E).
    rewrite HJ in E. injection E as ->. split; [reflexivity|]. split; [cbn [tool_radius with_operations j_tool_diameter]; vm_compute; reflexivity|reflexivity]. }
  destruct T as (T1 & T2 & T3).
  destruct (rect_offset_wire (wk_transform flat_wk plane_xy (zrect 5 5 15 15 (-3))) (- (1) * qq 3 2) (qz (-3))) as (a0 & b0 & a1 & b1 & EI); [vm_compute; reflexivity|vm_compute; reflexivity|].
  destruct (rect_offset_wire (wk_transform flat_wk plane_xy (zrect 0 0 40 40 (-5))) (1 * qq 3 2) (qz (-5))) as (c0 & d0 & c1 & d1 & EO); [vm_compute; reflexivity|vm_compute; reflexivity|].
  assert (OI : offsets_of K0 flat_wk (j_top j) (qq 3 2) (flat_map inners_of [frame]) (Some (- (1))) [rectangle a0 b0 a1 b1 (qz (-3))]).
  { rewrite T1. exists [[rectangle a0 b0 a1 b1 (qz (-3))]]. split; [constructor; [exact EI|constructor]|reflexivity]. }
  assert (OO : offsets_of K0 flat_wk (j_top j) (qq 3 2) (flat_map outer_of [frame]) (Some 1) [rectangle c0 d0 c1 d1 (qz (-5))]).
  { rewrite T1. exists [[rectangle c0 d0 c1 d1 (qz (-5))]]. split; [constructor; [exact EO|constructor]|reflexivity]. }
  assert (P : exists pi po, Forall2 (fun b ps => profile_toolpaths flat_tk flat_wk j (Some (qz 2)) None b = Ok ps) [rectangle a0 b0 a1 b1 (qz (-3))] pi /\
                            Forall2 (fun b ps => profile_toolpaths flat_tk flat_wk j (Some (qz 2)) None b = Ok ps) [rectangle c0 d0 c1 d1 (qz (-5))] po).
  { destruct (profile_groups _ _ _ _ _ _ _ _ _ _ _ _ _ _ Q HJ) as (j1 & os & ci & co & -> & Ei & Eo).
    destruct (group_paths _ _ _ j1 _ _ _ _ _ _ _ T2 Ei OI) as (pi & Fi). destruct (group_paths _ _ _ j1 _ _ _ _ _ _ _ T2 Eo OO) as (po & Fo). exists pi, po. split; [exact Fi|exact Fo]. }
  destruct P as (pi & po & Fi & Fo).
  exists j, (concat pi), (concat po). split; [exact HJ|]. split; [exact HP|]. split; [exact T2|].
  split; [eexists _, pi; split; [exact OI|split; [exact Fi|reflexivity]]|]. split; [eexists _, po; split; [exact OO|split; [exact Fo|reflexivity]]|].
  rewrite T3. assert (S0 : 0 < j_op_safe_height ex_job) by reflexivity.
  intros p Hp. apply in_app_or in Hp as [Hp|Hp].
  - inversion Fi as [|? ps ? pss F1 F2]; subst. inversion F2; subst. cbn in Hp. rewrite app_nil_r in Hp. eapply frame_paths; [exact S0| |exact F1|exact Hp]. reflexivity.
  - inversion Fo as [|? ps ? pss F1 F2]; subst. inversion F2; subst. cbn in Hp. rewrite app_nil_r in Hp. eapply frame_paths; [exact S0| |exact F1|exact Hp]. reflexivity.
Qed.

(** Curved tool paths: an engraver that follows the wire itself. *)
Definition engrave_wk : wire_kernel := {|
  wk_transform := fun _ w => w; wk_offset := fun w _ => Ok [w]; wk_area := fun _ => Ok 1; wk_relocate := fun _ w => w;
  wk_moved := fun w _ => w; wk_below := fun _ _ => Ok false |}.
Definition curved : list (list edge) := [[circle 1 true 3 4 (-1)]; [half 1 true 0 0 (-1); line 2 false (zv 0 (-1) (-1)) (zv 0 1 (-1))]].
Definition engraved_heap : heap := fst (job_wire_profile K0 flat_tk engrave_wk [ex_job] 0%nat curved 0 None None None).
Definition cut_kinds (h : heap) (r : ref) : list (gmotion * option Z * option Z) :=
  map (fun e => (ev_kind e, option_map qfloor (ev_i e), option_map qfloor (ev_j e))) (feed_moves (snd (run ProgramEx.st_off (ProgramEx.blocks_of h r)))).
Lemma wire_profile_keeps K TK WK h r j ws o sd t h' r' : hget h r = Some j -> job_wire_profile K TK WK h r ws o sd t None = (h', Ok r') ->
  exists os, hget h' r' = Some (with_operations j os).
Proof.
  intros HJ H. unfold job_wire_profile in H. pose proof (HistoryP.fluent_op_spec h r j None "Wire Profile" (wire_profile_gen K TK WK ws o sd t) HJ) as F. rewrite H in F.
  inversion F as [|h1 r1 j1 cmds U E1 Eg]; subst. inversion U; subst; try discriminate. rewrite E1 in HJ. injection HJ as ->. eexists. apply JobP.hget_new.
Qed.
Lemma curved_traceable safe : qz (-1) < safe -> forall p, In p curved -> traceable K0 safe p.
Proof.
  intros L p [<-|[<-|[]]]; (split; [eexists _, _; split; [reflexivity|exact L]|]); (split; [cbn [connected]; repeat split; apply vec_eq; vm_compute; reflexivity|]); (split; [|discriminate]).
  - intros e [<-|[]]. exact circle_sound.
  - intros e [<-|[<-|[]]]; [sound|apply line_sound].
Qed.
Lemma ex_curved : job_wire_profile K0 flat_tk engrave_wk [ex_job] 0%nat curved 0 None None None = (engraved_heap, Ok 1%nat) /\
  (exists j paths, hget engraved_heap 1%nat = Some j /\ job_printable engraved_heap j /\ tool_radius j = Some (qq 3 2) /\
    toolpaths_of K0 flat_tk engrave_wk j (qq 3 2) curved (Some 0) None None paths /\ paths = curved /\
    (forall p, In p paths -> traceable K0 (j_op_safe_height j) p)) /\
  firstn 6 (cut_kinds engraved_heap 1%nat) = [(GLinear, None, None); (GArcCW, Some 0, Some 1); (GArcCW, Some 0, Some (-1)); (GLinear, None, None); (GArcCW, Some 0, Some (-1)); (GLinear, None, None)]%Z /\
  firstn 6 (cut_ends engraved_heap 1%nat) = [(Some 3, Some 3, Some (-1)); (Some 3, Some 5, Some (-1)); (Some 3, Some 3, Some (-1)); (Some 0, Some 1, Some (-1)); (Some 0, Some (-1), Some (-1)); (Some 0, Some 1, Some (-1))]%Z.
Proof.
  assert (Q : job_wire_profile K0 flat_tk engrave_wk [ex_job] 0%nat curved 0 None None None = (engraved_heap, Ok 1%nat)).
  { rewrite (surjective_pairing (job_wire_profile _ _ _ _ _ _ _ _ _ _)). unfold engraved_heap. f_equal. }
  split; [exact Q|]. split; [|split; vm_compute; reflexivity].
  destruct (job_b_ok engraved_heap 1%nat) as (j & HJ & HP); [apply user_wire_profile, start_user|vm_compute; reflexivity|].
  assert (T : tool_radius j = Some (qq 3 2) /\ j_op_safe_height j = j_op_safe_height ex_job).
  { destruct (wire_profile_keeps K0 flat_tk engrave_wk [ex_job] 0%nat ex_job curved 0 None None engraved_heap 1%nat eq_refl Q) as (os & E).
    rewrite HJ in E. injection E as ->. split; [cbn [tool_radius with_operations j_tool_diameter]; vm_compute; reflexivity|reflexivity]. }
  destruct T as (T1 & T2). exists j, curved. split; [exact HJ|]. split; [exact HP|]. split; [exact T1|]. split; [|split; [reflexivity|]].
  - exists curved, (map (fun w => [w]) curved). split; [|split; [|reflexivity]].
    + exists (map (fun w => [w]) curved). split; [|reflexivity]. repeat constructor.
    + repeat constructor.
  - intros p Hp. rewrite T2. revert p Hp. apply curved_traceable. reflexivity.
Qed.
