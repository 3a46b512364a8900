(** Passes that tabs do not reach (C149). *)
From Verif Require Import Base.Str Base.Py Model.Geometry Model.Plane Model.Edges Model.Job Model.Routers Model.Tabs Model.Profile
  Spec.Profiles Spec.Layers Proofs.LayersP Proofs.AlikeP.
Local Open Scope Qc_scope.
Local Open Scope list_scope.

Lemma mapM_same {A} (f : A -> result A) l : (forall a, In a l -> f a = Ok a) -> mapM f l = Ok l.
Proof.
  induction l as [|a l IH]; intros H; [reflexivity|]. cbn [mapM]. rewrite (H a (or_introl eq_refl)). cbn [rbind]. rewrite IH; [reflexivity|].
  intros b Hb. apply H. right; exact Hb.
Qed.

(** Whatever the tabs, passes at or above their top are as without tabs. *)
Lemma tabbed_above TK WK j sd t base ps ps' : profile_toolpaths TK WK j sd None base = Ok ps -> profile_toolpaths TK WK j sd (Some t) base = Ok ps' ->
  Forall2 (fun w w' => tk_zmin TK base + tabs_height t <= tk_zmin TK w -> w' = w) ps ps'.
Proof.
  unfold profile_toolpaths. destruct (profile_layers TK WK j base sd) as [ls|e]; [|discriminate]. cbn [rbind]. intros [= <-] H. apply mapM_ok in H.
  induction H as [|w w' ls ps' H _ IH]; [constructor|]. constructor; [|exact IH]. intros L. unfold apply_tabs in H.
  apply qleb_le in L. rewrite L in H. injection H as <-. reflexivity.
Qed.

(** All passes are at the height of the lowest one or above. *)
Lemma layers_from_base TK WK j base sd ls : lifts TK WK base -> match sd with Some s => 0 <= s | None => True end ->
  profile_layers TK WK j base sd = Ok ls -> forall w, In w ls -> tk_zmin TK base <= tk_zmin TK w.
Proof.
  intros LI P H w Hw. destruct sd as [s|]; [|injection H as <-; destruct Hw as [<-|[]]; apply Qcle_refl].
  destruct (Qc_eq_dec s 0) as [->|N]; [injection H as <-; destruct Hw as [<-|[]]; apply Qcle_refl|].
  destruct (layer_heights TK WK j base s ls N LI H) as (n & _ & Z). apply In_nth_error in Hw. destruct Hw as (k & Hk). rewrite (Z k w Hk).
  rewrite <- (Qcplus_0_r (tk_zmin TK base)) at 1. apply Qcplus_le_compat; [apply Qcle_refl|].
  rewrite <- (Qcmult_0_l s). apply Qcmult_le_compat_r; [|exact P]. apply (qz_le 0). lia.
Qed.

(** Tabs of no height: the same tool paths, hence the same profile. *)
Lemma flat_tabs TK WK j base sd t : lifts TK WK base -> match sd with Some s => 0 <= s | None => True end -> tabs_height t <= 0 ->
  profile_toolpaths TK WK j sd (Some t) base = profile_toolpaths TK WK j sd None base.
Proof.
  intros LI P H. unfold profile_toolpaths. destruct (profile_layers TK WK j base sd) as [ls|e] eqn:L; [|reflexivity]. cbn [rbind].
  apply mapM_same. intros w Hw. unfold apply_tabs. replace (qleb _ _) with true; [reflexivity|]. symmetry. apply qleb_le.
  apply Qcle_trans with (tk_zmin TK base); [|exact (layers_from_base TK WK j base sd ls LI P L w Hw)].
  rewrite <- (Qcplus_0_r (tk_zmin TK base)) at 2. apply Qcplus_le_compat; [apply Qcle_refl|exact H].
Qed.
Lemma mapM_ext_in {A B} (f g : A -> result B) l : (forall a, In a l -> f a = g a) -> mapM f l = mapM g l.
Proof.
  induction l as [|a l IH]; intros H; [reflexivity|]. cbn [mapM]. rewrite (H a (or_introl eq_refl)), IH; [reflexivity|]. intros b Hb. apply H. right; exact Hb.
Qed.
Lemma flat_tabs_profile K TK WK j w o sd t : match sd with Some s => 0 <= s | None => True end -> tabs_height t <= 0 ->
  (forall r bases b, tool_radius j = Some r -> offset_wire K WK (wk_transform WK (j_top j) w) (o * r) = Ok bases -> In b bases -> lifts TK WK b) ->
  profile K TK WK j w o sd (Some t) = profile K TK WK j w o sd None.
Proof.
  intros P H L. unfold profile. destruct (tool_radius j) as [r|]; [|reflexivity]. destruct (offset_wire K WK _ _) as [bases|e] eqn:B; [|reflexivity]. cbn [rbind].
  rewrite (mapM_ext_in (profile_toolpaths TK WK j sd (Some t)) (profile_toolpaths TK WK j sd None)); [reflexivity|].
  intros b Hb. apply flat_tabs; [exact (L r bases b eq_refl B Hb)|exact P|exact H].
Qed.
