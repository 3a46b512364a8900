(** Proofs for Props/Comments.v. *)
From Verif Require Import Base.Str Base.Py Spec.Gcode Spec.Blocks Spec.Machine Spec.Program Spec.Axes Spec.Moves Spec.Comments
  Model.Groups Model.Geometry Model.Plane Model.Command Model.Edges Model.Job Model.Routers Proofs.TextP Proofs.CommandP Proofs.ProgramP Proofs.JobP Proofs.AxesP.
Local Open Scope string_scope.
Local Open Scope list_scope.

Lemma quiet_app s r : no_paren s = true -> comments (s ++ r) = comments r.
Proof.
  unfold comments. induction s as [|c s IH]; intros H; [reflexivity|]. cbn [no_paren] in H. apply andb_prop in H as [H1 H2]. apply negb_true_iff in H1.
  cbn [append comments_from]. rewrite H1. apply IH, H2.
Qed.
Lemma quiet s : no_paren s = true -> comments s = [].
Proof. intros H. rewrite <- (app_nil_s s), quiet_app by exact H. reflexivity. Qed.
Lemma inside_comment t r : comment_safe t = true -> forall u, comments_from (Some u) (t ++ String ")" r) = (u ++ t)%string :: comments r.
Proof.
  induction t as [|c t IH]; intros H u.
  - cbn. rewrite app_nil_s. reflexivity.
  - cbn [comment_safe] in H. apply andb_prop in H as [H H2]. apply andb_prop in H as [H _]. apply andb_prop in H as [_ H1]. apply negb_true_iff in H1.
    cbn [append comments_from]. rewrite H1, IH by exact H2. rewrite app_assoc_s. reflexivity.
Qed.
Lemma one_comment t r : comment_safe t = true -> comments ("(" ++ t ++ ")" ++ r) = t :: comments r.
Proof. intros H. unfold comments. cbn [append comments_from]. apply (inside_comment t r H ""). Qed.

Lemma quiet_concat sep ss : no_paren sep = true -> Forall (fun s => no_paren s = true) ss -> no_paren (String.concat sep ss) = true.
Proof.
  intros HS. induction 1 as [|s ss H1 H2 IH]; [reflexivity|]. cbn [String.concat]. destruct ss; [exact H1|]. rewrite !no_paren_app, H1, HS. exact IH.
Qed.
Lemma quiet_config c : config_ok c -> no_paren (str_config c) = true.
Proof.
  destruct c as [s co|co| |t s co]; intros H; cbn [str_config].
  - apply (piece_start s co H).
  - apply (piece_stop co).
  - reflexivity.
  - unfold str_tool_change. apply quiet_concat; [reflexivity|]. repeat constructor.
    + apply (piece_stop co).
    + apply (piece_tool t).
    + apply (piece_start s co H).
Qed.
Lemma quiet_command c s : command_ok c -> str_command c = Ok s -> no_paren s = true.
Proof.
  destruct c as [m|c]; cbn [str_command command_ok].
  - intros [H1 H2] E. destruct (str_motion_ok m H1 H2) as (s' & E' & P). rewrite E in E'. injection E' as <-. apply P.
  - intros H E. injection E as <-. apply quiet_config, H.
Qed.
Lemma op_comments name o s r : comment_safe name = true -> comment_safe (op_name o) = true -> Forall command_ok (op_commands o) -> op_to_gcode name o = Ok s ->
  comments (s ++ r) = (name ++ " - " ++ op_name o)%string :: comments r.
Proof.
  intros Hn Ho Hc E. unfold op_to_gcode in E. cbv zeta in E. apply rbind_ok in E as (strs & E & EQ). match type of EQ with Ok ?t = _ => assert (Es : t = s) by congruence end. subst s. clear EQ. apply mapM_ok in E.
  set (body := filter (fun s => negb (String.eqb s "")) strs).
  assert (B : Forall (fun s => no_paren s = true) body).
  { apply Forall_forall. intros x Hx. apply filter_In in Hx as [Hx _]. clear body. induction E as [|c y cs strs E1 E2 IH]; [contradiction|].
    inversion Hc as [|? ? C1 C2]; subst. destruct Hx as [<-|Hx]; [eapply quiet_command; eassumption|apply IH; assumption]. }
  assert (X : exists rest, String.concat nl (("(" ++ name ++ " - " ++ op_name o ++ ")")%string :: body) = ("(" ++ (name ++ " - " ++ op_name o) ++ ")" ++ rest)%string /\ no_paren rest = true).
  { cbn [String.concat]. destruct body as [|b bs].
    - exists "". split; [|reflexivity]. rewrite !app_assoc_s, ?app_nil_s. reflexivity.
    - exists (nl ++ String.concat nl (b :: bs))%string. split; [|rewrite no_paren_app; apply (quiet_concat nl _ eq_refl B)].
      rewrite !app_assoc_s. reflexivity. }
  destruct X as (rest & -> & Q). replace (("(" ++ (name ++ " - " ++ op_name o) ++ ")" ++ rest) ++ r)%string with ("(" ++ (name ++ " - " ++ op_name o) ++ ")" ++ (rest ++ r))%string by (rewrite !app_assoc_s; reflexivity).
  rewrite one_comment; [|rewrite !comment_safe_app, Hn, Ho; reflexivity]. rewrite quiet_app by exact Q. reflexivity.
Qed.
Lemma ops_comments h (name : string) os ss r : comment_safe name = true ->
  Forall (fun o => exists owner, hget h (op_job o) = Some owner /\ j_name owner = name) os -> Forall (op_printable h) os ->
  mapM (fun o => do n <- name_of h (op_job o); op_to_gcode n o) os = Ok ss ->
  comments (String.concat (nl ++ nl ++ nl) ss ++ r) = map (fun o => (name ++ " - " ++ op_name o)%string) os ++ comments r.
Proof.
  intros Hn HN HP E. apply mapM_ok in E. revert HN HP. induction E as [|o s os ss E1 E2 IH]; intros HN HP; [reflexivity|].
  inversion HN as [|? ? (ow & A & B) N2]; subst. inversion HP as [|? ? (_ & P2 & P3) P4]; subst.
  unfold name_of in E1. rewrite A in E1. cbn [rbind] in E1.
  destruct ss as [|s2 ss].
  - inversion E2; subst. cbn [String.concat map app]. apply op_comments; assumption.
  - cbn [map app]. change (String.concat (nl ++ nl ++ nl) (s :: s2 :: ss)) with (s ++ (nl ++ nl ++ nl) ++ String.concat (nl ++ nl ++ nl) (s2 :: ss))%string.
    rewrite !app_assoc_s. rewrite (op_comments _ _ _ _ Hn P2 P3 E1). f_equal.
    rewrite !quiet_app by reflexivity. apply IH; assumption.
Qed.
Lemma program_comments h r j : user_heap h -> hget h r = Some j -> job_printable h j ->
  exists s feed, to_gcode h r = Ok s /\ parse_number feed = Some (pyval (j_feed j)) /\
    comments s = (j_name j ++ " - Feedrate: " ++ feed ++ " - Unit: " ++ unit_name (j_unit j))%string :: map (fun o => (j_name j ++ " - " ++ op_name o)%string) (j_operations j).
Proof.
  intros HU HJ HP. destruct (text_job h j HP) as (s & E & _). exists s, (print_pynum (j_feed j)).
  split; [unfold to_gcode; rewrite HJ; exact E|]. destruct HP as (Hn & Hf & Hs & Ho).
  split. { destruct (numtext_pynum (j_feed j) Hf) as [_ X]. specialize (X "" I). rewrite app_nil_s in X. unfold parse_number. rewrite X. reflexivity. }
  unfold job_to_gcode in E. apply rbind_ok in E as (ss & E & EQ). match type of EQ with Ok ?t = _ => assert (Es : t = s) by congruence end. subst s. clear EQ.
  match goal with |- comments ("(" ++ ?a ++ ?b ++ ?c ++ ?d ++ ?e ++ ")" ++ ?rest) = _ =>
    replace ("(" ++ a ++ b ++ c ++ d ++ e ++ ")" ++ rest)%string with ("(" ++ (a ++ b ++ c ++ d ++ e) ++ ")" ++ rest)%string by (rewrite !app_assoc_s; reflexivity) end.
  rewrite one_comment. 2:{ rewrite !comment_safe_app, Hn, print_pynum_safe by exact Hf. destruct (j_unit j); reflexivity. }
  apply (f_equal2 cons); [destruct (j_unit j); reflexivity|].
  rewrite (quiet_app nl), (quiet_app str_safety), (quiet_app nl), (quiet_app (str_start _ _)), (quiet_app nl) by (reflexivity || apply (piece_start _ _ Hs)).
  erewrite ops_comments; [|exact Hn| |exact Ho|exact E].
  - rewrite (quiet_app nl), (quiet_app str_safety), (quiet_app nl), (quiet_app (str_stop _)), (quiet_app nl) by (reflexivity || apply (piece_stop (j_coolant j))). apply app_nil_r.
  - pose proof (Forall_hget _ _ _ _ (user_jobs h HU) HJ) as U. eapply Forall_impl; [|exact U]. intros o (A & _). exact A.
Qed.

(** ** Vertical edges *)
Lemma vertical_lines K e prec arrow feed ms p : e_geom e = GLINE -> route_edge K e prec None None arrow feed = Ok (ms, p) ->
  exists m, ms = [m] /\ (vertical m <-> vertical_edge e = true).
Proof.
  intros G H. unfold route_edge in H. rewrite G in H. cbn in H. injection H as <- _. eexists. split; [reflexivity|].
  unfold vertical, vertical_edge, edge_start_point, edge_end_point. cbn. rewrite andb_true_iff.
  split.
  - intros [A B]. destruct (e_reversed e); cbn in A, B; injection A as A; injection B as B; rewrite A, B; split; apply qeqb_eq; reflexivity.
  - intros [A B]. apply qeqb_eq in A, B. destruct (e_reversed e); cbn; rewrite A, B; split; reflexivity.
Qed.
