(** Example for Props/Axes.v: a profile, a tool change and holes. *)
From Verif Require Import Base.Str Base.Py Spec.Gcode Spec.Blocks Spec.Machine Spec.Program Spec.Jobs Spec.Axes
  Model.Groups Model.Geometry Model.Edges Model.Plane Model.Job Model.Routers Model.Profile Model.Drill
  Proofs.RouteEx Proofs.ProfileEx Proofs.DrillEx Proofs.AxesP.
From Verif Require Proofs.ProgramEx.
Local Open Scope Qc_scope.
Local Open Scope list_scope.

Definition two_heap : heap :=
  fst (job_drill (fst (job_profile K0 flat_tk flat_wk [ex_job] 0%nat [plate] (Some 1) (Some (- (1))) None None None)) 1%nat
         (Some ex_holes) (Some (qz 2)) (Some (Tool None (Some 2%Z) (Some (PInt 80)) (Some (PInt 1000))))).
Lemma two_user : user_heap two_heap.
Proof. apply user_drill, user_profile. apply (user_new []); [constructor|reflexivity]. Qed.

(** Checking numbers. *)
Definition plain_b (n : option pynum) : bool := match n with Some (PFloat _ _) => false | _ => true end.
Definition coord_b (x : Qc) : bool := qleb (qabs x) (qz (10 ^ 12)).
Definition ocoord_b (x : option Qc) : bool := match x with Some x => coord_b x | None => true end.
Definition numbers_b (c : command) : bool :=
  match c with
  | Motion m => plain_b (m_feed m) && (ocoord_b (ax (m_end m)) && ocoord_b (ay (m_end m)) && ocoord_b (az (m_end m))) &&
      match m with
      | MArc _ st _ c _ _ _ => coord_b (centre_offset (ax c) (ax st)) && coord_b (centre_offset (ay c) (ay st)) && coord_b (centre_offset (az c) (az st))
      | _ => true
      end
  | Config c => match c with CStart s _ => plain_b s | CToolChange _ s _ => plain_b s | _ => true end
  end.
Lemma plain_b_ok n : plain_b n = true -> plain_opt n.
Proof. destruct n as [[]|]; [intros _; exact I|discriminate|intros _; exact I]. Qed.
Lemma coord_b_ok x : coord_b x = true -> coord_ok x.
Proof. apply qleb_le. Qed.
Lemma ocoord_b_ok x : ocoord_b x = true -> ocoord_ok x.
Proof. destruct x; [apply coord_b_ok|intros _; exact I]. Qed.
Lemma numbers_b_ok c : numbers_b c = true -> numbers_ok c.
Proof.
  destruct c as [m|[]]; cbn [numbers_b numbers_ok config_ok]; try (intros _; exact I); try apply plain_b_ok.
  intros H. apply andb_prop in H as [H H3]. apply andb_prop in H as [H1 H2]. apply andb_prop in H2 as [H2 HZ]. apply andb_prop in H2 as [HX HY].
  split; [apply plain_b_ok, H1|]. split; [repeat split; apply ocoord_b_ok; assumption|].
  destruct m; try exact I. apply andb_prop in H3 as [H3 CZ]. apply andb_prop in H3 as [CX CY]. repeat split; apply coord_b_ok; assumption.
Qed.
Lemma two_printable : exists j, hget two_heap 3%nat = Some j /\ job_printable two_heap j /\ map op_name (j_operations j) = ["Profile"; "Tool Change"; "Drill"]%string.
Proof.
  destruct (hget two_heap 3%nat) as [j|] eqn:E; [|exfalso; vm_compute in E; discriminate].
  exists j. split; [reflexivity|].
  assert (X : match hget two_heap 3%nat with
    | Some j => comment_safe (j_name j) && plain_b (Some (j_feed j)) && plain_b (j_speed j) && forallb (fun o => forallb numbers_b (op_commands o)) (j_operations j)
    | None => false end = true) by (vm_compute; reflexivity).
  rewrite E in X. apply andb_prop in X as [X X4]. apply andb_prop in X as [X X3]. apply andb_prop in X as [X1 X2]. split.
  - apply (user_printable two_heap 3%nat j two_user E); [exact X1|apply (plain_b_ok (Some _)), X2|apply plain_b_ok, X3|].
    apply Forall_forall. intros o Ho. apply Forall_forall. intros c Hc. apply numbers_b_ok.
    rewrite forallb_forall in X4. specialize (X4 o Ho). rewrite forallb_forall in X4. exact (X4 c Hc).
  - assert (Y : match hget two_heap 3%nat with Some j => map op_name (j_operations j) | None => [] end = ["Profile"; "Tool Change"; "Drill"]%string) by (vm_compute; reflexivity).
    rewrite E in Y. exact Y.
Qed.
(** The moves from places unknown in X: two for each operation, to the height and across. *)
Definition two_blocks : list block := ProgramEx.blocks_of two_heap 3%nat.
Lemma two_moves : List.length (snd (run ProgramEx.st_off two_blocks)) = 44%nat /\
  map (fun e => (ev_kind e, option_map qfloor (ms_z (ev_from e)), option_map qfloor (ms_z (ev_to e))))
      (filter (fun e => negb (is_some (ms_x (ev_from e)))) (snd (run ProgramEx.st_off two_blocks))) =
    [(GRapid, None, Some 10%Z); (GRapid, Some 10%Z, Some 10%Z); (GRapid, None, Some 1%Z); (GRapid, Some 1%Z, Some 1%Z)].
Proof. split; vm_compute; reflexivity. Qed.
