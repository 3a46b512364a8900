(** Examples and witnesses for Props/Digits.v. *)
From Verif Require Import Base.Str Base.Py Model.Groups Model.Geometry Model.Plane Model.Edges Model.Job Model.Routers Model.Tabs Model.Profile Model.Drill
  Spec.Paths Spec.Moves Spec.Wires Spec.Digits Proofs.RouteEx Proofs.DrillEx Proofs.ProfileEx Proofs.DigitsP.
Local Open Scope Qc_scope.
Local Open Scope list_scope.

(** A hole at (x, 0), and the job that drills it, to the precision [p]. *)
Definition hole_at (x : Qc) : drill_object := DVector (V3 x 0 0).
Definition fine_heap (p : nat) (x : Qc) : heap := fst (job_drill [at_precision p ex_job] 0%nat (Some [hole_at x]) (Some (qz 2)) None).

Lemma same_text p : exists s, to_gcode (fine_heap p 0) 1%nat = Ok s /\ to_gcode (fine_heap p (qq 4 10000)) 1%nat = Ok s.
Proof. eexists. split; vm_compute; reflexivity. Qed.
Lemma digits_lost p : (4 <= p)%nat -> exists j x y s, j_precision j = p /\ 1 / qz (10 ^ Z.of_nat p) < qabs (x - y) /\
  (forall h r, job_drill [j] 0%nat (Some [DVector (V3 x 0 0)]) (Some (qz 2)) None = (h, r) -> r = Ok 1%nat /\ to_gcode h 1%nat = Ok s) /\
  (forall h r, job_drill [j] 0%nat (Some [DVector (V3 y 0 0)]) (Some (qz 2)) None = (h, r) -> r = Ok 1%nat /\ to_gcode h 1%nat = Ok s).
Proof.
  intros P. destruct (same_text p) as (s & T1 & T2). exists (at_precision p ex_job), 0, (qq 4 10000), s. split; [reflexivity|]. split.
  - assert (B : (10 ^ 4 <= 10 ^ Z.of_nat p)%Z) by (apply Z.pow_le_mono_r; lia).
    assert (Q : qabs (0 - qq 4 10000) = qq 4 10000) by (apply Qc_is_canon; vm_compute; reflexivity). rewrite Q.
    set (n := (10 ^ Z.of_nat p)%Z) in *. clearbody n. change (10 ^ 4)%Z with 10000%Z in B. apply qz_le in B.
    assert (N : 0 < qz n) by (eapply Qclt_le_trans; [|exact B]; reflexivity).
    apply Qcnot_le_lt. intros C. apply (Qcmult_le_compat_r _ _ (qz n)) in C; [|apply Qclt_le_weak, N].
    unfold Qcdiv in C. rewrite <- Qcmult_assoc, (Qcmult_comm (/ qz n)), Qcmult_inv_r in C by (intros C'; rewrite C' in N; discriminate N).
    apply (Qcmult_le_compat_r _ _ (qq 4 10000)) in B; [|discriminate]. rewrite (Qcmult_comm (qz n)) in B.
    pose proof (Qcle_trans _ _ _ B C) as K. apply qleb_le in K. vm_compute in K. discriminate K.
  - split; intros h r H; (split; [|]).
    + apply (f_equal snd) in H. cbn [snd] in H. rewrite <- H. vm_compute. reflexivity.
    + apply (f_equal fst) in H. cbn [fst] in H. rewrite <- H. exact T1.
    + apply (f_equal snd) in H. cbn [snd] in H. rewrite <- H. vm_compute. reflexivity.
    + apply (f_equal fst) in H. cbn [fst] in H. rewrite <- H. exact T2.
Qed.
Lemma four_lost : exists j x y s, 1 / qz (10 ^ Z.of_nat (j_precision j)) < qabs (x - y) /\
  (forall h r, job_drill [j] 0%nat (Some [DVector (V3 x 0 0)]) (Some (qz 2)) None = (h, r) -> r = Ok 1%nat /\ to_gcode h 1%nat = Ok s) /\
  (forall h r, job_drill [j] 0%nat (Some [DVector (V3 y 0 0)]) (Some (qz 2)) None = (h, r) -> r = Ok 1%nat /\ to_gcode h 1%nat = Ok s).
Proof. destruct (digits_lost 4 (le_n 4)) as (j & x & y & s & P & H). exists j, x, y, s. rewrite P. exact H. Qed.

(** A profile of a rectangle in steps is cut along lines. *)
Definition exact_edge (e : edge) : bool := match e_geom e with GLINE | GARC | GCIRCLE => true | _ => false end.
Lemma exact_edges es : forallb exact_edge es = true -> Forall no_curve es.
Proof. rewrite forallb_forall, Forall_forall. intros H e He. specialize (H e He). unfold exact_edge in H. unfold no_curve. destruct (e_geom e); auto; discriminate H. Qed.
Lemma rect_lines : forall r bases paths, tool_radius ex_job = Some r ->
  offset_wire K0 flat_wk (wk_transform flat_wk (j_top ex_job) (zrect 0 0 20 10 (-6))) (- (1) * r) = Ok bases ->
  mapM (profile_toolpaths flat_tk flat_wk ex_job (Some (qz 2)) None) bases = Ok paths ->
  Forall (Forall no_curve) (concat paths) /\ length (concat paths) = 3%nat.
Proof.
  intros r bases paths R B P. injection R as <-.
  assert (K : match (do bs <- offset_wire K0 flat_wk (wk_transform flat_wk (j_top ex_job) (zrect 0 0 20 10 (-6))) (- (1) * (qz 3 / qz 2));
                     mapM (profile_toolpaths flat_tk flat_wk ex_job (Some (qz 2)) None) bs) with
              | Ok ps => forallb (forallb exact_edge) (concat ps) && Nat.eqb (length (concat ps)) 3 | Err _ => false end = true) by (vm_compute; reflexivity).
  rewrite B in K. cbn [rbind] in K. rewrite P in K. apply andb_true_iff in K. destruct K as (K1 & K2). apply Nat.eqb_eq in K2. split; [|exact K2].
  rewrite forallb_forall in K1. rewrite Forall_forall. intros es Hes. apply exact_edges, K1, Hes.
Qed.
