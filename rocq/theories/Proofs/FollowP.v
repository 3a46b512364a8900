(** What every feed move of routed contours is, for all stepovers and any number of retracts (C27). *)
From Verif Require Import Base.Str Base.Py Model.Geometry Model.Routers
  Spec.Paths Spec.Moves Spec.Contours Proofs.GeomP Proofs.MotionP Proofs.RouteP Proofs.RouteThmP.
Import Proofs.RouteP.
From Coq Require Import QArith.
Local Open Scope Qc_scope.
Local Open Scope list_scope.

Lemma routed_cuts j so fs : forall pe pp gs,
  Forall (fun f => closed_path (pf_outer f)) fs ->
  (forall e, pe = Some e -> xy pp = Some e) -> routed j so pe pp fs gs ->
  Forall (fun m => ~ rapid m -> vertical m \/ exists f a b, In f fs /\ segment_of m a b /\
    (along (pf_outer f) a b \/
     (exists s, so = Some s /\ on_path b (pf_outer f) /\ sqd a b <= s) \/
     (hd_error (pf_outer f) = Some a /\ on_path b (pf_outer f)))) (concat gs).
Proof.
  induction fs as [|f fs IH]; intros pe pp gs HF HP H; inversion H; subst; [constructor|].
  inversion HF as [|? ? HF1 HF2]; subst. cbn [concat] in *.
  match goal with HC : contour _ _ _ _ _ _ _ _ |- _ =>
    pose proof (contour_group _ _ _ _ _ _ _ _ HF1 HC) as (es & ch & G1 & G2 & G3 & G4 & G5 & G6);
    pose proof (contour_end _ _ _ _ _ _ _ _ HC) as GE;
    rename HC into HC0 end.
  rewrite Forall_app. split.
  - unfold g. rewrite Forall_app. split.
    + destruct HC0 as [p0 rest EO _|p0 rest e c EO _ _|e c s i a b -> -> HN HO Hs _ Hle _].
      * unfold entry_rapid. destruct (rapid_to_safe pp (V3 (fst p0) (snd p0) (pf_depth f)) (j_rapid_height j) (j_op_safe_height j) (j_plunge_feed j)) as (_ & _ & _ & H4 & _).
        eapply Forall_impl; [|exact H4]. intros m Hm NR. left. apply Hm in NR. apply NR.
      * unfold entry_rapid. destruct (rapid_to_safe pp (V3 (fst p0) (snd p0) (pf_depth f)) (j_rapid_height j) (j_op_safe_height j) (j_plunge_feed j)) as (_ & _ & _ & H4 & _).
        eapply Forall_impl; [|exact H4]. intros m Hm NR. left. apply Hm in NR. apply NR.
      * constructor; [|constructor]. intros _. right. exists f, e, c. split; [left; reflexivity|]. split; [split; [apply HP; reflexivity|destruct c; reflexivity]|].
        right; left. exists s. split; [reflexivity|]. split; [|exact Hle]. exists a, b. split; [eapply nth_error_In; exact HN|exact HO].
    + rewrite Forall_forall. intros m Hm _. right.
      destruct (Forall2_in_l _ _ _ _ G1 Hm) as ([a b] & HI & HSeg). exists f, a, b. split; [left; reflexivity|]. split; [exact HSeg|].
      apply in_app_or in HI. destruct HI as [HI|HI]; [left; eapply tour_along; eassumption|].
      right; right. destruct G3 as [->|(a' & c' & -> & HD & HO)]; [destruct HI|]. destruct HI as [[= <- <-]|[]]. auto.
  - match goal with HR' : routed _ _ _ _ fs _ |- _ => specialize (IH _ _ _ HF2 ltac:(intros e [= <-]; exact GE) HR') end.
    eapply Forall_impl; [|exact IH].
    intros m Hm NR. destruct (Hm NR) as [V|(f' & a & b & HI & K)]; [left; exact V|right]. exists f', a, b. split; [right; exact HI|exact K].
Qed.

Lemma outers_cuts j fs so pp cmds : route_polyface_outers j fs so pp = Ok cmds ->
  (forall f, In f fs -> closed_path (pf_outer f)) ->
  Forall (fun m => ~ rapid m -> vertical m \/ exists f a b, In f fs /\ segment_of m a b /\
    (along (pf_outer f) a b \/
     (exists s, so = Some s /\ on_path b (pf_outer f) /\ sqd a b <= s) \/
     (hd_error (pf_outer f) = Some a /\ on_path b (pf_outer f)))) cmds.
Proof.
  intros H HF. destruct (route_polyfaces_routed _ _ _ _ _ _ H) as (gs & HG & ->).
  eapply routed_cuts; try eassumption; [apply Forall_forall; exact HF|discriminate].
Qed.
