(** Examples and witnesses for the feed and stepdown theorems of Props/Surface.v. *)
From Verif Require Import Base.Str Base.Py Spec.Gcode Spec.Blocks Spec.Machine Spec.Jobs Spec.Codes Spec.Feeds Spec.Paths Spec.Moves Spec.Surfaces Spec.Pockets
  Model.Groups Model.Plane Model.Job Model.Strategy Model.Surface Proofs.JobP Proofs.ZigzagEx Proofs.ProgramEx Proofs.SurfaceP Proofs.SurfaceThmP Proofs.SurfaceEx Proofs.FeedP.
Local Open Scope Qc_scope.
Local Open Scope list_scope.

(** ** Feeds *)
Definition surface_heap0 : heap := [RouteEx.ex_job].
Definition surface_heap : heap :=
  fst (job_surface3d surface_heap0 0%nat (slope_kernel stairs (qz (-3))) (scan_answer ex_lines) (ex_args None 0) (slope_objects stairs (qz (-3)))).
Definition unfed_event (e : event) : bool := is_feed_move (ev_kind e) && match ms_feed (ev_from e) with None => true | Some _ => false end.
Lemma surface_no_feed : exists h r s bs e, reachable h /\
  h = fst (job_surface3d surface_heap0 0%nat (slope_kernel stairs (qz (-3))) (scan_answer ex_lines) (ex_args None 0) (slope_objects stairs (qz (-3)))) /\
  to_gcode h r = Ok s /\ parse_program s = Some bs /\
  In e (snd (run st_off bs)) /\ is_feed_move (ev_kind e) = true /\ ms_feed (ev_from e) = None.
Proof.
  assert (X : existsb unfed_event (snd (run st_off (blocks_of surface_heap 1%nat))) = true) by (vm_compute; reflexivity).
  apply existsb_exists in X as (e & HI & HE). apply andb_prop in HE as [HK HF].
  exists surface_heap, 1%nat. eexists. exists (blocks_of surface_heap 1%nat), e.
  split; [apply reach_call; [apply (reach_new []); [constructor|reflexivity]|apply surface_motion_gen]|].
  split; [reflexivity|]. split; [vm_compute; reflexivity|]. split; [vm_compute; reflexivity|]. split; [exact HI|]. split; [exact HK|].
  destruct (ms_feed (ev_from e)); [discriminate HF|reflexivity].
Qed.
Lemma ex_fed_reachable : fed_reachable ex_heap.
Proof.
  assert (G : fed_gen ex_gen) by (intros j cmds [= <-]; exists ex_motions; split; [reflexivity|repeat constructor; discriminate]).
  apply fed_call; [apply fed_call; [apply (fed_new []); [constructor|reflexivity]|exact G]|exact G].
Qed.

(** ** Stepdown *)
Lemma stepdown_fails K C a j faces zmin b s : sa_stepdown a = Some s ->
  (0 < s /\ zmin <= sa_top_height a + s) \/ (s < 0 /\ sa_top_height a + s <= zmin) ->
  forall ms, surface_boundary K C a j faces zmin b <> Ok ms.
Proof.
  intros E H ms HB. destruct (surface_boundary_spec _ _ _ _ _ _ _ _ HB) as (seqs & depths & _ & HD & _).
  rewrite E, (surface_depths_fails _ _ _ H) in HD. discriminate HD.
Qed.
Lemma stepdown_positive_fails : exists s, 0 < s /\ stairs_gen (Some s) 0 RouteEx.ex_job = Err IndexError /\
  (exists cmds, stairs_gen None 0 RouteEx.ex_job = Ok cmds) /\ (exists cmds, stairs_gen (Some (- s)) 0 RouteEx.ex_job = Ok cmds).
Proof.
  exists 1. split; [apply qltb_lt; reflexivity|]. split; [vm_compute; reflexivity|].
  split; apply okb_ok; vm_compute; reflexivity.
Qed.
Lemma ex_depths_down : qz (-3) < 0 /\ qz (-10) < 0 + qz (-3) /\ surface_depths 0 (qz (-10)) (Some (qz (-3))) = Ok ([qz (-3); qz (-6); qz (-9)] ++ [qz (-10)]).
Proof.
  split; [apply qltb_lt; reflexivity|]. split; [apply qltb_lt; vm_compute; reflexivity|].
  destruct (surface_depths 0 (qz (-10)) (Some (qz (-3)))) as [l|e] eqn:E.
  - assert (X : match surface_depths 0 (qz (-10)) (Some (qz (-3))) with Ok l => Nat.eqb (length l) 4 && forallb (fun ab => qeqb (fst ab) (snd ab)) (combine l [qz (-3); qz (-6); qz (-9); qz (-10)]) | _ => false end = true) by (vm_compute; reflexivity).
    rewrite E in X. clear E. apply andb_prop in X as [L X]. apply Nat.eqb_eq in L. do 4 (destruct l as [|? l]; [discriminate L|]). destruct l; [|discriminate L].
    cbn [combine forallb fst snd] in X. repeat (apply andb_prop in X as [Y X]; apply qeqb_eq in Y; subst). reflexivity.
  - exfalso. assert (okb (surface_depths 0 (qz (-10)) (Some (qz (-3)))) = true) as X by (vm_compute; reflexivity). rewrite E in X. discriminate X.
Qed.
