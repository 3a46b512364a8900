(** * Property C149: tabs change only the passes below their top *)
From Verif Require Import Base.Str Base.Py Model.Geometry Model.Plane Model.Edges Model.Job Model.Routers Model.Tabs Model.Profile
  Spec.Profiles Proofs.RouteEx Proofs.TabsEx Proofs.ProfileEx Proofs.ProfileTabsP Proofs.TabsMadeEx Proofs.NoTabsP.
Local Open Scope Qc_scope.
Local Open Scope list_scope.

(** ** C149 *)
(** There are as many passes with tabs as without, and those at or above the top of the tabs are the same. *)
Theorem C149_above : forall TK WK j sd t base ps ps',
  profile_toolpaths TK WK j sd None base = Ok ps -> profile_toolpaths TK WK j sd (Some t) base = Ok ps' ->
  Forall2 (fun w w' => tk_zmin TK base + tabs_height t <= tk_zmin TK w -> w' = w) ps ps'.
Proof. exact tabbed_above. Qed.
Print Assumptions C149_above.
(** Tabs of no height change nothing, errors included. *)
Theorem C149_no_height : forall K TK WK j w o sd t, match sd with Some s => 0 <= s | None => True end -> tabs_height t <= 0 ->
  (forall r bases b, tool_radius j = Some r -> offset_wire K WK (wk_transform WK (j_top j) w) (o * r) = Ok bases -> In b bases -> lifts TK WK b) ->
  profile K TK WK j w o sd (Some t) = profile K TK WK j w o sd None.
Proof. exact flat_tabs_profile. Qed.
Print Assumptions C149_no_height.

(** Passes at -1, -3 and -5 with tabs two high: the first two are the same, the last is not. *)
Definition sizes (t : option tabs) : list nat := match profile_toolpaths flat_tk follow_wk ex_job (Some (qz 2)) t tab_square with Ok ps => map (@length edge) ps | Err _ => [] end.
Example C149_example : sizes None = [4; 4; 4]%nat /\ map (fun n => Nat.ltb 4 n) (sizes edge_tabs) = [false; false; true].
Proof. split; vm_compute; reflexivity. Qed.
Example C149_example_flat : (forall r bases b, tool_radius ex_job = Some r -> offset_wire K0 follow_wk (wk_transform follow_wk (j_top ex_job) tab_square) (0 * r) = Ok bases -> In b bases ->
    lifts flat_tk follow_wk b) /\ tabs_height (EdgeTabs (qz 3) 1 0 None) <= 0 /\
  match profile K0 flat_tk follow_wk ex_job tab_square 0 (Some (qz 2)) (Some (EdgeTabs (qz 3) 1 0 None)) with Ok cs => Nat.ltb 10 (length cs) | Err _ => false end = true.
Proof.
  split; [|split; [discriminate|vm_compute; reflexivity]].
  intros r bases b _ B I. change (Ok [tab_square] = Ok bases) in B. injection B as <-. destruct I as [<-|[]]. exact tab_square_lifts.
Qed.
