(** Examples and witnesses for Props/Rates.v. *)
From Verif Require Import Base.Str Base.Py Spec.Gcode Spec.Blocks Spec.Machine Spec.Program Spec.Jobs Spec.Feeds Spec.Axes Spec.Rapids Spec.Rates
  Model.Groups Model.Geometry Model.Edges Model.Plane Model.Job Model.Routers Model.Profile Model.Drill
  Proofs.RouteEx Proofs.ProfileEx Proofs.DrillEx Proofs.AxesEx.
From Verif Require Proofs.ProgramEx.
Local Open Scope Qc_scope.
Local Open Scope list_scope.

Definition two_calls : list (string * option tool) :=
  [("Profile"%string, None); ("Drill"%string, Some (Tool None (Some 2%Z) (Some (PInt 80)) (Some (PInt 1000))))].
Lemma two_line : user_line two_heap 3%nat ex_job two_calls.
Proof.
  apply (line_call (fst (job_profile K0 flat_tk flat_wk [ex_job] 0%nat [plate] (Some 1) (Some (- (1))) None None None)) 1%nat ex_job [("Profile"%string, None)]).
  - apply (line_call [ex_job] 0%nat ex_job []); [apply (line_new []); reflexivity|].
    eapply step_profile. rewrite (surjective_pairing (job_profile _ _ _ _ _ _ _ _ _ _ _)). f_equal. vm_compute. reflexivity.
  - eapply step_drill. rewrite (surjective_pairing (job_drill _ _ _ _ _)). unfold two_heap. f_equal. vm_compute. reflexivity.
Qed.
(** Feed rates of the feed moves, and whether they go straight down. *)
Definition feeds (e : event) : list (option Z) := if is_feed_move (ev_kind e) then [option_map qfloor (ms_feed (ev_from e))] else [].
Fixpoint runs (l : list (option Z)) : list (option Z * Z) :=
  match l with
  | [] => []
  | f :: l => match runs l with
              | (g, n) :: r => match f, g with Some a, Some b => if (a =? b)%Z then (g, n + 1)%Z :: r else (f, 1%Z) :: (g, n) :: r | _, _ => (f, 1%Z) :: (g, n) :: r end
              | [] => [(f, 1%Z)]
              end
  end.
Lemma two_feeds : runs (flat_map feeds (snd (run ProgramEx.st_off two_blocks))) =
  [(Some 100, 1); (Some 300, 4); (Some 100, 1); (Some 300, 4); (Some 100, 1); (Some 300, 4); (Some 80, 5)]%Z.
Proof. vm_compute. reflexivity. Qed.

(** Drilling goes straight down at the feed rate of the job. *)
Definition same_o (a b : option Qc) : bool := match a, b with Some x, Some y => qeqb x y | None, None => true | _, _ => false end.
Lemma same_o_eq a b : same_o a b = true -> a = b.
Proof. destruct a, b; cbn; try discriminate; [|reflexivity]. intros H. apply qeqb_eq in H. congruence. Qed.
Definition fast_plunge (P : Qc) (e : event) : bool :=
  is_feed_move (ev_kind e) && (same_o (ms_x (ev_to e)) (ms_x (ev_from e)) && same_o (ms_y (ev_to e)) (ms_y (ev_from e))) &&
  match ms_z (ev_from e), ms_z (ev_to e) with Some a, Some b => qltb b a | _, _ => false end &&
  match ms_feed (ev_from e) with Some f => negb (qeqb f P) | None => true end.
Lemma drill_not_plunged : exists h r j0 cs j s bs st e a b, user_heap h /\ user_line h r j0 cs /\ hget h r = Some j /\ to_gcode h r = Ok s /\ parse_program s = Some bs /\
  In e (snd (run st bs)) /\ is_feed_move (ev_kind e) = true /\ same_xy e /\ ms_z (ev_from e) = Some a /\ ms_z (ev_to e) = Some b /\ b < a /\
  ms_feed (ev_from e) <> Some (pyval (j_plunge_feed j0)).
Proof.
  destruct two_printable as (j & HJ & _). exists two_heap, 3%nat, ex_job, two_calls, j.
  destruct (to_gcode two_heap 3%nat) as [s|] eqn:Es; [|exfalso; vm_compute in Es; discriminate].
  assert (Eb : parse_program s = Some two_blocks).
  { assert (X : match to_gcode two_heap 3%nat with Ok s => match parse_program s with Some _ => true | None => false end | Err _ => false end = true) by (vm_compute; reflexivity).
    rewrite Es in X. unfold two_blocks, ProgramEx.blocks_of. rewrite Es. destruct (parse_program s); [reflexivity|discriminate]. }
  exists s, two_blocks, ProgramEx.st_off.
  assert (X : existsb (fast_plunge (qz 100)) (snd (run ProgramEx.st_off two_blocks)) = true) by (vm_compute; reflexivity).
  apply existsb_exists in X as (e & He & X). unfold fast_plunge in X. apply andb_prop in X as [X F]. apply andb_prop in X as [X Z]. apply andb_prop in X as [K XY]. apply andb_prop in XY as [XX YY].
  destruct (ms_z (ev_from e)) as [a|] eqn:Ea; [|discriminate]. destruct (ms_z (ev_to e)) as [b|] eqn:Eb'; [|discriminate].
  exists e, a, b. split; [exact two_user|]. split; [exact two_line|]. split; [exact HJ|]. split; [reflexivity|]. split; [exact Eb|]. split; [exact He|]. split; [exact K|].
  split; [split; apply same_o_eq; assumption|]. split; [exact Ea|]. split; [exact Eb'|]. split; [apply qltb_lt, Z|].
  intros C. rewrite C in F. apply negb_true_iff, qeqb_neq in F. apply F. reflexivity.
Qed.

(** A call with a tool changes the feed rate of calls on the same job. *)
Definition fast : option tool := Some (Tool None None (Some (PInt 500)) None).
Definition leak1 : heap := fst (job_drill [ex_job] 0%nat (Some ex_holes) (Some (qz 2)) fast).
Definition leak2 : heap := fst (job_drill leak1 0%nat (Some ex_holes) (Some (qz 2)) None).
Lemma feed_leaks : exists h h1 h2 r r1 r2 j0 o d t j2 m, user_line h r j0 [] /\ user_step h r ("Drill"%string, Some t) h1 r1 /\ user_step h1 r ("Drill"%string, None) h2 r2 /\
  job_drill h1 r o d None = (h2, Ok r2) /\ hget h2 r2 = Some j2 /\ In m (job_moves j2) /\ m_feed m <> None /\ m_feed m <> Some (j_feed j0) /\ m_feed m <> Some (j_plunge_feed j0).
Proof.
  exists [ex_job], leak1, leak2, 0%nat, 1%nat, 2%nat, ex_job, (Some ex_holes), (Some (qz 2)), (Tool None None (Some (PInt 500)) None).
  assert (E1 : job_drill [ex_job] 0%nat (Some ex_holes) (Some (qz 2)) fast = (leak1, Ok 1%nat)).
  { rewrite (surjective_pairing (job_drill _ _ _ _ _)). unfold leak1. f_equal. }
  assert (E2 : job_drill leak1 0%nat (Some ex_holes) (Some (qz 2)) None = (leak2, Ok 2%nat)).
  { rewrite (surjective_pairing (job_drill _ _ _ _ _)). unfold leak2. f_equal. }
  assert (X : match hget leak2 2%nat with Some j => existsb (fun m => match m_feed m with Some f => qeqb (pyval f) (qz 500) | None => false end) (job_moves j) | None => false end = true) by (vm_compute; reflexivity).
  destruct (hget leak2 2%nat) as [j2|] eqn:E3; [|discriminate]. apply existsb_exists in X as (m & Hm & X). destruct (m_feed m) as [f|] eqn:Ef; [|discriminate]. apply qeqb_eq in X.
  exists j2, m. split; [apply (line_new []); reflexivity|]. split; [eapply step_drill, E1|]. split; [eapply step_drill, E2|]. split; [exact E2|]. split; [reflexivity || exact E3|]. split; [exact Hm|].
  rewrite Ef. split; [discriminate|]. split; intros [= ->]; apply (f_equal (fun q => qeqb q (qz 500))) in X; vm_compute in X; discriminate.
Qed.
