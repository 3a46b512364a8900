(** Examples for Props/TabsMade.v. *)
From Verif Require Import Base.Str Base.Py Spec.Gcode Spec.Blocks Spec.Machine Spec.Program Spec.Jobs Spec.Axes Spec.Wires Spec.Tabs Spec.Profiles Spec.OnMachine Spec.Traced Spec.TabsMade
  Model.Groups Model.Geometry Model.Edges Model.Plane Model.Job Model.Routers Model.Tabs Model.Profile
  Proofs.RouteEx Proofs.TabsEx Proofs.ProfileEx Proofs.ProfileTabsP Proofs.WireTabsMeetP Proofs.RatesEx Proofs.OnMachineEx Proofs.TracedEx.
Local Open Scope Qc_scope.
Local Open Scope list_scope.

(** Wires are cut where they are; layers are copies lifted straight up. *)
Definition follow_wk : wire_kernel := {|
  wk_transform := fun _ w => w; wk_offset := fun w _ => Ok [w]; wk_area := fun _ => Ok 1; wk_relocate := fun _ w => w;
  wk_moved := wk_moved flat_wk; wk_below := wk_below flat_wk |}.
Definition edge_tabs : option tabs := Some (EdgeTabs (qz 3) 1 (qz 2) None).
Definition wire_tabs2 : option tabs := Some (WireTabs 2 (qz 2) 1).
Definition tabbed_heap (t : option tabs) : heap := fst (job_wire_profile K0 flat_tk follow_wk [ex_job] 0%nat [tab_square] 0 (Some (qz 2)) t None).

Lemma follow_rigid : rigid flat_tk follow_wk.
Proof. exact flat_tk_rigid. Qed.
Lemma lowered_wire_tabs dz : takes_wire_tabs flat_tk 2 (qz 2) (lowered dz).
Proof.
  assert (X := square_wire_tabs). unfold takes_wire_tabs in *. destruct X as (A & B & C & D & E & F). destruct (ex_takes dz) as (G & H). split; [exact G|]. split; [discriminate|]. split; [exact C|]. split; [exact D|].
  split; [intros e He; destruct (H e He) as (H1 & H2 & H3 & H4 & _); auto|exact F].
Qed.
Lemma square_wire_tabs_flat : takes_wire_tabs flat_tk 2 (qz 2) tab_square.
Proof. exact square_wire_tabs. Qed.
Lemma square_sound dz : sound_wire tab_square /\ sound_wire (lowered dz).
Proof.
  assert (S : sound_wire tab_square) by (destruct lowered_0 as (A & B); split; [exact A|intros e He; apply (B e He)]). split; [exact S|].
  destruct (ex_takes dz) as (A & B); split; [exact A|intros e He; apply (B e He)].
Qed.
Lemma square_ready t safe : qz (-2) < safe -> t = edge_tabs \/ t = wire_tabs2 -> cut_ready flat_tk follow_wk plane_xy (Some (qz 2)) t safe tab_square.
Proof.
  intros L T. exists (qz (-5)). split; [exact tab_square_flat|]. split; [eapply Qclt_trans; [|exact L]; reflexivity|]. split; [apply (square_sound 0)|].
  assert (F : tabs_fit flat_tk safe (qz (-5)) t tab_square /\ forall dz, tabs_fit flat_tk safe (qz (-5)) t (lowered dz)).
  { destruct T as [T|T]; rewrite T; cbn [tabs_fit edge_tabs wire_tabs2].
    - assert (H : qz (-5) + qz 2 < safe) by (eapply Qclt_trans; [|exact L]; reflexivity).
      split; [|intros dz]; (split; [reflexivity|]; split; [reflexivity|]; split; [exact H|]); [exact lowered_0|apply ex_takes].
    - assert (H : qz (-5) + 1 < safe) by (eapply Qclt_trans; [|exact L]; reflexivity).
      split; [|intros dz]; (split; [repeat constructor|]; split; [reflexivity|]; split; [exact H|]); [exact square_wire_tabs_flat|apply lowered_wire_tabs]. }
  destruct F as (F1 & F2). split; [exact F1|]. intros _. split; [exact tab_square_clear|]. intros dz. split; [apply (square_sound dz)|apply F2].
Qed.
Lemma tabbed_made t : t = edge_tabs \/ t = wire_tabs2 ->
  job_wire_profile K0 flat_tk follow_wk [ex_job] 0%nat [tab_square] 0 (Some (qz 2)) t None = (tabbed_heap t, Ok 1%nat).
Proof.
  intros T. rewrite (surjective_pairing (job_wire_profile _ _ _ _ _ _ _ _ _ _)). unfold tabbed_heap. f_equal. destruct T as [T|T]; rewrite T; vm_compute; reflexivity.
Qed.
Lemma ex_tabs_made t : t = edge_tabs \/ t = wire_tabs2 ->
  job_wire_profile K0 flat_tk follow_wk [ex_job] 0%nat [tab_square] 0 (Some (qz 2)) t None = (tabbed_heap t, Ok 1%nat) /\
  (exists j, hget (tabbed_heap t) 1%nat = Some j /\ job_printable (tabbed_heap t) j /\ tool_radius j = Some (qq 3 2) /\ qq (-1) 1000 <= j_op_safe_height j /\
    offsets_of K0 follow_wk (j_top j) (qq 3 2) [tab_square] (Some 0) [tab_square] /\
    (forall b, In b [tab_square] -> cut_ready flat_tk follow_wk (j_top j) (Some (qz 2)) t (j_op_safe_height j) b)).
Proof.
  intros T. assert (Q := tabbed_made t T). split; [exact Q|].
  assert (B : job_b (tabbed_heap t) 1%nat = true) by (destruct T as [T|T]; rewrite T; vm_compute; reflexivity).
  destruct (job_b_ok (tabbed_heap t) 1%nat) as (j & HJ & HP); [apply user_wire_profile, start_user|exact B|].
  assert (X : tool_radius j = Some (qq 3 2) /\ j_op_safe_height j = j_op_safe_height ex_job /\ j_top j = plane_xy).
  { destruct (wire_profile_keeps K0 flat_tk follow_wk [ex_job] 0%nat ex_job [tab_square] 0 (Some (qz 2)) t (tabbed_heap t) 1%nat eq_refl Q) as (os & E).
    rewrite HJ in E. injection E as ->. split; [cbn [tool_radius with_operations j_tool_diameter]; vm_compute; reflexivity|split; reflexivity]. }
  destruct X as (X1 & X2 & X3). exists j. split; [exact HJ|]. split; [exact HP|]. split; [exact X1|]. rewrite X2, X3. split; [discriminate|]. split.
  - exists [[tab_square]]. split; [constructor; [reflexivity|constructor]|reflexivity].
  - intros b [<-|[]]. apply square_ready; [reflexivity|exact T].
Qed.
Lemma ex_only_ends : only_ends K0.
Proof. intros u w d id p. discriminate. Qed.
Lemma ex_assemble : forall l, tk_assemble flat_tk l = Some l.
Proof. reflexivity. Qed.
Lemma ex_tab_heights :
  runs (heights (tabbed_heap edge_tabs) 1%nat) =
    [(Some (-1), 5); (Some (-3), 5); (Some (-5), 2); (Some (-3), 2); (Some (-5), 3); (Some (-3), 2); (Some (-5), 3); (Some (-3), 2); (Some (-5), 3); (Some (-3), 2); (Some (-5), 2)]%Z /\
  runs (heights (tabbed_heap wire_tabs2) 1%nat) =
    [(Some (-1), 5); (Some (-3), 5); (Some (-4), 2); (Some (-5), 3); (Some (-4), 3); (Some (-5), 3); (Some (-4), 2)]%Z.
Proof. split; vm_compute; reflexivity. Qed.
Lemma ex_tab_kernels : only_ends K0 /\ makes_edges flat_tk /\ (forall l, tk_assemble flat_tk l = Some l) /\ rigid flat_tk follow_wk /\ (forall s, Some (qz 2) = Some s -> 0 <= s).
Proof. split; [exact ex_only_ends|]. split; [exact ex_makes|]. split; [reflexivity|]. split; [exact follow_rigid|]. intros s H. assert (E : s = qz 2) by congruence. rewrite E. discriminate. Qed.
