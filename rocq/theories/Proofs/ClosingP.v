From Verif Require Import Base.Str Base.Py Spec.Paths Spec.Zigzag Model.Edges Model.Interp Model.Pocket Model.Strategy Proofs.DrillP Proofs.LinkedP Proofs.RouteEx Proofs.ZigzagEx.
Local Open Scope Qc_scope.
Local Open Scope list_scope.

Lemma closing_point lp p s e pre rest : lp_polygon lp = pre ++ s :: rest -> ~ In s pre -> In e pre -> ~ In p (lp_linked lp) ->
  link_point lp p s e = Ok (LP (pre ++ s :: p :: rest) (lp_linked lp ++ [p]) (lp_free lp)).
Proof.
  intros E NS IE NL. unfold link_point. rewrite mem_pt_false by exact NL. rewrite E. rewrite py_index_app by exact NS. cbn [rbind].
  assert (J : exists j, py_index e (pre ++ s :: rest) = Ok j /\ (j < length pre)%nat).
  { clear - IE. induction pre as [|a pre IH]; [destruct IE|]. destruct (Model.Geometry.pt_eqb a e) eqn:Q.
    - apply FillP.pt_eqb_iff in Q. subst a. exists 0%nat. split; [apply (py_index_app e []); intros []|cbn; lia].
    - destruct IE as [->|IE]; [rewrite pt_eqb_refl in Q; discriminate|]. destruct (IH IE) as (j & J & L). exists (S j). split; [|cbn; lia].
      unfold py_index in *. cbn [find_pt app]. rewrite Q. destruct (find_pt e (pre ++ s :: rest)); [|discriminate]. cbn. congruence. }
  destruct J as (j & J & L). rewrite J. cbn [rbind].
  assert (AS : pre ++ s :: rest = (pre ++ [s]) ++ rest) by (rewrite <- app_assoc; reflexivity).
  assert (LE : length (pre ++ [s]) = S (length pre)) by (rewrite app_length; cbn [length]; lia).
  destruct (Nat.eqb (S (length pre)) j) eqn:EQ; [apply Nat.eqb_eq in EQ; lia|].
  replace (j - S (length pre))%nat with 0%nat by lia. cbn [firstn app sort_by fold_right insert_by].
  unfold py_index. cbn [find_pt]. rewrite pt_eqb_refl. cbn [rbind]. rewrite Nat.add_0_r. rewrite AS.
  rewrite insert_at_app by (symmetry; exact LE). rewrite <- app_assoc. reflexivity.
Qed.

(** All points of the closing segment: behind its start, the last one first. *)
Lemma closing_points s e pre ps : ~ In s pre -> In e pre -> NoDup ps -> forall lp rest, lp_polygon lp = pre ++ s :: rest ->
  (forall p, In p ps -> ~ In p (lp_linked lp)) ->
  fold_left (fun r p => do lp <- r; link_point lp p s e) ps (Ok lp) = Ok (LP (pre ++ s :: rev ps ++ rest) (lp_linked lp ++ ps) (lp_free lp)).
Proof.
  intros NS IE ND. induction ND as [|p ps NI ND IH]; intros lp rest E NL; cbn [fold_left rev app].
  - rewrite app_nil_r, <- E. destruct lp; reflexivity.
  - cbn [rbind]. rewrite (closing_point lp p s e pre rest E NS IE (NL p (or_introl eq_refl))).
    rewrite (IH (LP (pre ++ s :: p :: rest) (lp_linked lp ++ [p]) (lp_free lp)) (p :: rest) eq_refl).
    + cbn [lp_linked lp_free]. rewrite <- !app_assoc. reflexivity.
    + cbn [lp_linked]. intros q HQ C. apply in_app_or in C as [C|[<-|[]]]; [exact (NL q (or_intror HQ) C)|contradiction].
Qed.
Lemma closing_example : ex_square = [zp 0 0; zp 10 0; zp 10 10] ++ zp 0 10 :: [zp 0 0] /\ ~ In (zp 0 10) [zp 0 0; zp 10 0; zp 10 10] /\
  In (zp 0 0) [zp 0 0; zp 10 0; zp 10 10] /\ NoDup [zp 0 8; zp 0 2].
Proof.
  split; [reflexivity|]. split.
  - intros C. assert (M : mem_pt (zp 0 10) [zp 0 0; zp 10 0; zp 10 10] = true) by (apply existsb_exists; eexists; split; [exact C|apply pt_eqb_refl]).
    vm_compute in M. discriminate M.
  - split; [left; reflexivity|]. constructor; [|constructor; [intros []|constructor]]. intros [C|[]].
    assert (M : Model.Geometry.pt_eqb (zp 0 2) (zp 0 8) = true) by (rewrite C; apply pt_eqb_refl). vm_compute in M. discriminate M.
Qed.
