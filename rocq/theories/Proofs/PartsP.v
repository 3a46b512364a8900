From Verif Require Import Base.Str Base.Py Spec.Gcode Spec.Blocks Spec.Machine Spec.Program Spec.Paths Spec.Drills Spec.Alike Spec.Parts
  Model.Groups Model.Geometry Model.Plane Model.Job Model.Profile Model.Drill Proofs.ProgramP Proofs.JobP Proofs.DrillP Proofs.AlikeP.
From Coq Require Import Permutation.
Local Open Scope list_scope.

(** ** Selections *)
Lemma nearest_first_shuffled here pts o : nearest_first here pts o -> forall pts' o', no_ties (here :: pts) -> Permutation pts pts' -> nearest_first here pts' o' -> o' = o.
Proof.
  induction 1 as [here|here l1 p l2 o H1 H2 H IH]; intros pts' o' NT P K.
  - apply Permutation_nil in P. subst. destruct (nearest_inv _ _ _ K) as [[_ ->]|(b & p & a & o & E & _)]; [reflexivity|]. destruct b; discriminate.
  - destruct (nearest_inv _ _ _ K) as [[-> _]|(m1 & q & m2 & o2 & -> & -> & K1 & K2 & K3)].
    { apply Permutation_sym, Permutation_nil in P. destruct l1; discriminate. }
    assert (Q : q = p).
    { assert (Hq : In q (l1 ++ p :: l2)) by (apply (Permutation_in _ (Permutation_sym P)); apply in_or_app; right; left; reflexivity).
      assert (Hp : In p (m1 ++ q :: m2)) by (apply (Permutation_in _ P); apply in_or_app; right; left; reflexivity).
      assert (L : (sqd here p <= sqd here q)%Qc).
      { apply in_app_or in Hq as [Hq|[<-|Hq]]; [apply Qclt_le_weak, H1; exact Hq|apply Qcle_refl|apply H2; exact Hq]. }
      assert (L' : (sqd here q <= sqd here p)%Qc).
      { apply in_app_or in Hp as [Hp|[<-|Hp]]; [apply Qclt_le_weak, K1; exact Hp|apply Qcle_refl|apply K2; exact Hp]. }
      apply (NT here); [left; reflexivity|right; exact Hq|right; apply in_or_app; right; left; reflexivity|]. apply Qcle_antisym; assumption. }
    subst q. f_equal. apply (IH (m1 ++ m2)); [|apply Permutation_app_inv in P; exact P|exact K3].
    intros a b c Ha Hb Hc. apply NT; (right; apply (Permutation_in (l := p :: l1 ++ l2)); [apply Permutation_middle|assumption]).
Qed.
Lemma wanted_known top os ps : wanted_holes (to_world top) os ps -> exists vs, mapM (object_vectors top) os = Ok vs /\ map plan (concat vs) = ps.
Proof.
  intros (vss & F & ->). exists vss. split; [|reflexivity]. induction F as [|o vs os vss Ho F IH]; [reflexivity|]. cbn [mapM].
  assert (E : object_vectors top o = Ok vs).
  { destruct o as [c|c|outer inners|]; cbn [hole_centers] in Ho; cbn [object_vectors].
    - subst. reflexivity.
    - destruct Ho as (v & -> & ->). reflexivity.
    - destruct Ho as [(-> & v & -> & ->)|(NE & Fi)]; [reflexivity|]. destruct inners as [|i is_]; [contradiction|]. clear NE.
      revert Fi. generalize (i :: is_). intros l Fi. induction Fi as [|c w l ws (v & -> & ->) Fi IHf]; [reflexivity|]. cbn [mapM rbind]. rewrite IHf. reflexivity.
    - contradiction. }
  rewrite E, IH. reflexivity.
Qed.
Lemma drill_shuffled os os' z j p pts pts' : wanted_holes (to_world (j_top j)) os (p :: pts) -> wanted_holes (to_world (j_top j)) os' (p :: pts') ->
  Permutation pts pts' -> no_ties (p :: pts) -> drill_gen (Some os) z j = drill_gen (Some os') z j.
Proof.
  intros W W' P NT. destruct (wanted_known _ _ _ W) as (vs & E & M), (wanted_known _ _ _ W') as (vs' & E' & M'). unfold drill_gen. destruct z as [z|]; [|reflexivity].
  rewrite E, E'. cbn [rbind]. destruct (concat vs) as [|v l] eqn:C; [discriminate M|]. destruct (concat vs') as [|v' l'] eqn:C'; [discriminate M'|]. cbn zeta. rewrite M, M'.
  destruct (order_first p pts) as (o & -> & N). destruct (order_first p pts') as (o' & -> & N'). rewrite (nearest_first_shuffled _ _ _ N _ _ NT P N'). reflexivity.
Qed.

(** ** Parts *)
Lemma hget_add (h : heap) (k : job) : hget (h ++ [k]) (List.length h) = Some k.
Proof. unfold hget. rewrite nth_error_app2, Nat.sub_diag by apply le_n. reflexivity. Qed.
Lemma fluent_parts g12 g1 g2 h r tl name : settled g2 ->
  (forall j, g12 j = do a <- g1 j; do b <- g2 j; Ok (a ++ b)) ->
  in_parts (fluent_op h r tl name g12) (fluent_op h r tl name g1) (fun h r => fluent_op h r None name g2).
Proof.
  intros S G. unfold in_parts, fluent_op. destruct (hget h r) as [j|]; [|reflexivity]. destruct (update_tool h r j tl) as [h' r']. destruct (hget h' r') as [ju|]; [|reflexivity].
  rewrite G. destruct (g1 ju) as [a|]; [|reflexivity]. cbn [rbind]. unfold add_operation, halloc. cbn [fst snd]. set (j1 := with_operations ju _).
  rewrite hget_add. cbn [update_tool]. rewrite hget_add.
  assert (E : g2 j1 = g2 ju) by (apply S; repeat split). rewrite E. destruct (g2 ju) as [b|]; [|reflexivity]. cbn [rbind fst snd].
  eexists _, _, _. split; [reflexivity|]. split; [apply hget_add|]. split; [apply hget_add|]. split; [reflexivity|].
  unfold j1. cbn. rewrite !flat_map_app. cbn. rewrite !app_nil_r, app_assoc. reflexivity.
Qed.
Lemma group_parts K TK WK j sd t ws1 ws2 o : profile_group K TK WK j sd t (ws1 ++ ws2) o =
  do a <- profile_group K TK WK j sd t ws1 o; do b <- profile_group K TK WK j sd t ws2 o; Ok (a ++ b).
Proof.
  destruct o as [o|]; [|reflexivity]. cbn [profile_group]. induction ws1 as [|w ws1 IH]; cbn [app mapM rbind concat].
  - destruct (mapM _ ws2); reflexivity.
  - destruct (profile K TK WK j w o sd t) as [c|]; [|reflexivity]. cbn [rbind]. destruct (mapM _ (ws1 ++ ws2)) as [x|] eqn:E1; destruct (mapM _ ws1) as [y|] eqn:E2;
      destruct (mapM _ ws2) as [z|] eqn:E3; cbn [rbind concat] in *; try discriminate IH; try congruence.
    injection IH as IH. rewrite IH, app_assoc. reflexivity.
Qed.
Lemma wire_profile_parts K TK WK h r ws1 ws2 o sd t tl : in_parts (job_wire_profile K TK WK h r (ws1 ++ ws2) o sd t tl) (job_wire_profile K TK WK h r ws1 o sd t tl)
  (fun h r => job_wire_profile K TK WK h r ws2 o sd t None).
Proof.
  apply fluent_parts; [apply (proj1 (wire_profile_settled _ _ _ _ _ _ _))|]. intros j. unfold wire_profile_gen. rewrite group_parts. destruct (profile_group K TK WK j sd t ws1 _) as [a|]; [|reflexivity]. cbn [rbind].
  destruct (profile_group K TK WK j sd t ws2 _) as [b|]; [|reflexivity]. cbn [rbind]. rewrite map_app. reflexivity.
Qed.
Lemma extract_app s1 s2 o2 i2 : extract_wires s2 = Ok (o2, i2) -> extract_wires (s1 ++ s2) = do (o1, i1) <- extract_wires s1; Ok (o1 ++ o2, i1 ++ i2).
Proof.
  intros E. induction s1 as [|s s1 IH]; cbn [app extract_wires]; [exact E|]. rewrite IH. destruct s as [w|o i|]; cbn [rbind]; [| |reflexivity];
    (destruct (extract_wires s1) as [[o1 i1]|]; cbn [rbind]; [rewrite !app_assoc|]; reflexivity).
Qed.
Lemma update_keeps_diameter h r j tl h' r' ju : hget h r = Some j -> is_some (j_tool_diameter j) = true -> update_tool h r j tl = (h', r') -> hget h' r' = Some ju -> is_some (j_tool_diameter ju) = true.
Proof.
  intros G D U G'. assert (N : forall t, is_some (new_diameter j t) = true) by (intros t; unfold new_diameter; destruct (t_diameter t); [reflexivity|exact D]).
  pose proof (update_tool_spec h r j tl) as S. rewrite U in S. inversion S; subst.
  - congruence.
  - rewrite hget_add in G'. injection G' as <-. apply N.
  - rewrite hget_add in G'. injection G' as <-. apply N.
  - rewrite (hget_hset_same _ _ _ _ G) in G'. injection G' as <-. apply N.
Qed.
Lemma profile_parts K TK WK h r s1 s2 oo io sd t tl : is_some oo && is_some io = false -> (exists p, extract_wires s2 = Ok p) ->
  in_parts (job_profile K TK WK h r (s1 ++ s2) oo io sd t tl) (job_profile K TK WK h r s1 oo io sd t tl)
    (fun h r => job_profile K TK WK h r s2 oo io sd t None).
Proof.
  intros One ((o2, i2) & E2). unfold job_profile. destruct (hget h r) as [j|] eqn:G; [|reflexivity]. destruct (is_some (j_tool_diameter j)) eqn:D; [|reflexivity]. cbn [negb].
  destruct (negb (is_some oo) && negb (is_some io)) eqn:Z; [reflexivity|]. rewrite (extract_app s1 _ _ _ E2). destruct (extract_wires s1) as [[o1 i1]|]; [|reflexivity]. cbn [rbind].
  assert (P : in_parts (fluent_op h r tl "Profile" (profile_gen K TK WK (o1 ++ o2) (i1 ++ i2) oo io sd t)) (fluent_op h r tl "Profile" (profile_gen K TK WK o1 i1 oo io sd t))
    (fun h r => fluent_op h r None "Profile" (profile_gen K TK WK o2 i2 oo io sd t))).
  { apply fluent_parts; [apply (proj1 (profile_settled _ _ _ _ _ _ _ _ _))|]. intros k. unfold profile_gen. rewrite !group_parts. destruct oo as [oo|], io as [io|]; try discriminate One; try discriminate Z; cbn [profile_group rbind app];
      (destruct (mapM _ _) as [a|]; [|reflexivity]); cbn [rbind]; (destruct (mapM _ _) as [b|]; [|reflexivity]); cbn [rbind]; rewrite ?app_nil_r, map_app; reflexivity. }
  unfold in_parts in *. revert P. destruct (fluent_op h r tl "Profile" (profile_gen K TK WK o1 i1 oo io sd t)) as [h1 [r1|x]] eqn:F; [|exact (fun P => P)]. cbn [fst snd].
  assert (G1 : exists j1, hget h1 r1 = Some j1 /\ is_some (j_tool_diameter j1) = true).
  { unfold fluent_op in F. rewrite G in F. destruct (update_tool h r j tl) as [h' r'] eqn:U. destruct (hget h' r') as [ju|] eqn:Gu; [|discriminate F]. destruct (profile_gen _ _ _ _ _ _ _ _ _ ju) as [cs|]; [|discriminate F].
    unfold add_operation, halloc in F. injection F as <- <-. eexists. split; [apply hget_add|]. exact (update_keeps_diameter _ _ _ _ _ _ _ G D U Gu). }
  destruct G1 as (j1 & -> & ->). cbn [negb]. rewrite E2. exact (fun P => P).
Qed.

(** ** On the machine *)
Definition busy (b : block) : bool := match b with [] => false | _ => true end.
Lemma run_busy bs : forall st, run st bs = run st (filter busy bs).
Proof.
  induction bs as [|b bs IH]; intros st; [reflexivity|]. destruct b as [|w b]; cbn [filter busy].
  - rewrite <- IH. cbn [run]. assert (E : exec_block st [] = (st, [])) by (destruct st as [? ? ? ? ? ? ? ? ? ? ? ? ? ? ? ? ? ? mo en]; destruct en, mo; reflexivity). rewrite E. destruct (run st bs). reflexivity.
  - cbn [run]. destruct (exec_block st (w :: b)) as [st' e]. rewrite IH. reflexivity.
Qed.
Lemma busy_ops os : filter busy (ops_blocks os) = filter busy (flat_map command_blocks (flat_map op_commands os)).
Proof.
  induction os as [|o os IH]; [reflexivity|]. destruct os as [|o2 os].
  - cbn [ops_blocks flat_map]. rewrite app_nil_r. reflexivity.
  - transitivity (filter busy (flat_map command_blocks (op_commands o)) ++ filter busy (ops_blocks (o2 :: os))).
    + change (ops_blocks (o :: o2 :: os)) with (op_blocks o ++ [[]; []] ++ ops_blocks (o2 :: os)). rewrite filter_app. reflexivity.
    + etransitivity; [exact (f_equal _ IH)|]. rewrite <- filter_app, <- flat_map_app. reflexivity.
Qed.
Lemma same_work_runs j j' st : same_work j j' -> run st (program_blocks j) = run st (program_blocks j').
Proof.
  intros [E W]. rewrite (run_busy (program_blocks j)), (run_busy (program_blocks j')). f_equal. unfold program_blocks. rewrite !filter_app, !busy_ops, W.
  assert (A : j_speed j = j_speed j') by exact (f_equal j_speed E). assert (B : j_coolant j = j_coolant j') by exact (f_equal j_coolant E). unfold header_blocks, footer_blocks. rewrite A, B. reflexivity.
Qed.
Lemma same_work_machine h j h' j' st : same_work j j' -> job_printable h j -> job_printable h' j' ->
  exists s bs s' bs', job_to_gcode h j = Ok s /\ parse_program s = Some bs /\ job_to_gcode h' j' = Ok s' /\ parse_program s' = Some bs' /\ run st bs = run st bs'.
Proof.
  intros S P P'. destruct (text_job _ _ P) as (s & E & B), (text_job _ _ P') as (s' & E' & B'). exists s, (program_blocks j), s', (program_blocks j').
  repeat (split; [assumption|]). apply same_work_runs, S.
Qed.

(** ** Calls *)
Lemma update_keeps_top h r j tl h' r' ju : hget h r = Some j -> update_tool h r j tl = (h', r') -> hget h' r' = Some ju -> j_top ju = j_top j.
Proof.
  intros G U G'. pose proof (update_tool_spec h r j tl) as S. rewrite U in S. inversion S; subst.
  - congruence.
  - rewrite hget_add in G'. injection G' as <-. reflexivity.
  - rewrite hget_add in G'. injection G' as <-. reflexivity.
  - rewrite (hget_hset_same _ _ _ _ G) in G'. injection G' as <-. reflexivity.
Qed.
Lemma drill_call_shuffled h r j os os' z tl p pts pts' : hget h r = Some j -> wanted_holes (to_world (j_top j)) os (p :: pts) -> wanted_holes (to_world (j_top j)) os' (p :: pts') ->
  Permutation pts pts' -> no_ties (p :: pts) -> job_drill h r (Some os) z tl = job_drill h r (Some os') z tl.
Proof.
  intros G W W' P NT. unfold job_drill, fluent_op. rewrite G. destruct (update_tool h r j tl) as [h' r'] eqn:U. destruct (hget h' r') as [ju|] eqn:Gu; [|reflexivity].
  rewrite <- (update_keeps_top _ _ _ _ _ _ _ G U Gu) in W, W'. rewrite (drill_shuffled _ _ z ju _ _ _ W W' P NT). reflexivity.
Qed.
