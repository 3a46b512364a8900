(** * Lemmas about pockets of different depths *)
From Verif Require Import Base.Py Model.Geometry Model.Edges Model.Tree Model.Pocket Spec.Pockets Spec.Deeper Proofs.GeomP Proofs.PocketP Proofs.StepdownP Proofs.ShiftP Proofs.FinerP Proofs.TwiceP.
From Coq Require Import Lia.
Local Open Scope Qc_scope.
Local Open Scope list_scope.

Notation mo d := (fun o : nat * pathface => (fst o, with_depth d (snd o))).

Section Depth.
Context (d : Qc).
Notation wd := (with_depth d).
Lemma faces_depth t z : poly_tree_to_poly_faces t d = rmap (map wd) (poly_tree_to_poly_faces t z).
Proof.
  unfold poly_tree_to_poly_faces. rewrite <- (map_id t) at 1. apply mapM_map. intros n. destruct (close_path (contour n)); [|reflexivity]. cbn [rbind].
  destruct (mapM _ _); reflexivity.
Qed.
Lemma difference_depth E ss cs z : difference_poly_tree E ss cs d = rmap (map wd) (difference_poly_tree E ss cs z).
Proof. unfold difference_poly_tree. destruct (en_difference E ss cs); [apply faces_depth|reflexivity]. Qed.
Lemma outers_depth fs : map pf_outer (map wd fs) = map pf_outer fs. Proof. rewrite map_map. reflexivity. Qed.
Lemma combine_depth E fs fs' z : map pf_outer fs' = map pf_outer fs -> combine_outers E fs' d = combine_outers E fs z.
Proof.
  intros H. unfold combine_outers, union_poly_tree. rewrite H. destruct (en_union E _ _) as [t|]; [|reflexivity]. cbn [rbind]. rewrite (faces_depth t z).
  destruct (poly_tree_to_poly_faces t z); [|reflexivity]. cbn. rewrite outers_depth. reflexivity.
Qed.
Lemma offset_depth E f a b n : offset_polyface E (wd f) a b n = rmap (map wd) (offset_polyface E f a b n).
Proof.
  unfold offset_polyface. cbn [wd pf_outer pf_inners pf_depth]. destruct (offset_path E (pf_outer f) a n) as [os|]; [|reflexivity]. cbn [rbind].
  destruct (pf_inners f) as [|i is_]; [cbn; rewrite map_map; reflexivity|]. destruct (mapM _ (i :: is_)); [|reflexivity]. cbn [rbind]. apply difference_depth.
Qed.
(** One level. *)
Lemma group_one fs : d <= 0 -> forall k, group_by_depth (map wd fs) [(d, k)] = Ok [(d, k ++ map wd fs)].
Proof.
  intros D. assert (Z : qltb 0 d = false) by (destruct (qltb 0 d) eqn:Q; [|reflexivity]; apply qltb_lt in Q; exfalso; exact (Qclt_not_le _ _ Q D)).
  induction fs as [|f fs IH]; intros k; cbn [map group_by_depth]; [rewrite app_nil_r; reflexivity|]. cbn [wd pf_depth dict_append]. rewrite Z, qeqb_refl, IH, <- app_assoc. reflexivity.
Qed.
Lemma ops_one E f fs avs : d <= 0 -> build_pocket_ops E (map wd (f :: fs)) avs =
  do (am, ads) <- generate_depth_map avs;
  do o <- combine_outers E (map wd (f :: fs)) d;
  do r <- difference_poly_tree E o (match ads with [] => flatten_list (map pf_inners (map wd (f :: fs)))
    | _ => flatten_list (map pf_inners (map wd (f :: fs))) ++ map pf_outer (flat_map (dict_get am) (filter (fun a => qleb d a) ads)) end) d; Ok (r ++ []).
Proof.
  intros D. assert (Z : qltb 0 d = false) by (destruct (qltb 0 d) eqn:Q; [|reflexivity]; apply qltb_lt in Q; exfalso; exact (Qclt_not_le _ _ Q D)).
  unfold build_pocket_ops. unfold generate_depth_map at 1. cbn [map group_by_depth]. cbn [wd pf_depth dict_append]. rewrite Z, (group_one fs D). cbn [rbind map fst sort_down fold_right insert_down build_levels add_deeper dict_get].
  rewrite qeqb_refl. destruct (generate_depth_map avs) as [[am ads]|]; reflexivity.
Qed.
End Depth.
Lemma same_face f : with_depth (pf_depth f) f = f. Proof. destruct f. reflexivity. Qed.
Lemma offset_keeps E f a b n fs g : offset_polyface E f a b n = Ok fs -> In g fs -> pf_depth g = pf_depth f.
Proof.
  intros H Hg. pose proof (offset_depth (pf_depth f) E f a b n) as X. rewrite same_face, H in X. cbn in X. injection X as X. rewrite X in Hg. apply in_map_iff in Hg as (h & <- & _). reflexivity.
Qed.
Lemma offsets_high E n a b d avs vs : (forall f, In f avs -> d <= pf_depth f) -> mapM (fun f => offset_polyface E f a b n) avs = Ok vs -> forall g, In g (concat vs) -> d <= pf_depth g.
Proof.
  revert vs. induction avs as [|f avs IH]; intros vs H M g Hg; cbn [mapM] in M; [injection M as <-; destruct Hg|]. apply rbind_ok in M as (x & E1 & M). apply rbind_ok in M as (y & E2 & M). injection M as <-.
  cbn [concat] in Hg. apply in_app_iff in Hg as [Hg|Hg]; [rewrite (offset_keeps _ _ _ _ _ _ _ E1 Hg); apply H; left; reflexivity|]. apply (IH y); [intros h Hh; apply H; right; exact Hh|exact E2|exact Hg].
Qed.
Lemma all_active d avs am ads : (forall f, In f avs -> d <= pf_depth f) -> generate_depth_map avs = Ok (am, ads) -> filter (fun a => qleb d a) ads = ads.
Proof.
  intros H G. apply depth_map_spec in G as (_ & _ & I & _). assert (X : forall a, In a ads -> qleb d a = true) by (intros a Ha; apply I in Ha as (f & Hf & <-); apply qleb_le, H, Hf).
  clear I. induction ads as [|a ads IH]; [reflexivity|]. cbn [filter]. rewrite (X a (or_introl eq_refl)), IH; [reflexivity|]. intros y Hy. apply X. right. exact Hy.
Qed.
Lemma ops_depth E fs avs d z : d <= 0 -> z <= 0 -> (forall f, In f avs -> d <= pf_depth f) -> (forall f, In f avs -> z <= pf_depth f) ->
  build_pocket_ops E (map (with_depth d) fs) avs = rmap (map (with_depth d)) (build_pocket_ops E (map (with_depth z) fs) avs).
Proof.
  intros D Z AD AZ. destruct fs as [|f fs]; [unfold build_pocket_ops; cbn [map]; destruct (generate_depth_map avs) as [[am ads]|]; reflexivity|]. rewrite (ops_one d E f fs avs D), (ops_one z E f fs avs Z). set (gs := f :: fs). clearbody gs.
  destruct (generate_depth_map avs) as [[am ads]|] eqn:G; [|reflexivity]. cbn [rbind]. rewrite (all_active d avs am ads AD G), (all_active z avs am ads AZ G).
  rewrite (combine_depth d E (map (with_depth z) gs) (map (with_depth d) gs) z) by (rewrite !map_map; reflexivity). destruct (combine_outers E _ z) as [o|]; [|reflexivity]. cbn [rbind].
  rewrite (difference_depth d E _ _ z). rewrite (map_map (with_depth d) pf_inners), (map_map (with_depth z) pf_inners). cbn [with_depth pf_inners]. destruct (difference_poly_tree E _ _ z) as [r|]; [|reflexivity]. cbn. rewrite !app_nil_r. reflexivity.
Qed.
Lemma ops_at E fs avs d r : d <= 0 -> (forall f, In f avs -> d <= pf_depth f) -> build_pocket_ops E (map (with_depth d) fs) avs = Ok r -> r = map (with_depth d) r.
Proof. intros D A H. pose proof (ops_depth E fs avs d d D D A A) as X. rewrite H in X. cbn in X. injection X as X. exact X. Qed.

Lemma new_depth d z n os : new_contours d n os = map (mo d) (new_contours z n os).
Proof. unfold new_contours. generalize (seq n (length os)). induction os as [|o os IH]; intros [|k l]; try reflexivity. cbn [map combine]. f_equal. apply IH. Qed.
Lemma fill_loop_depth next d z fuel : forall t, fill_loop next d fuel (map_tree (mo d) t) = rmap (map_tree (mo d)) (fill_loop next z fuel t).
Proof.
  induction fuel as [|fuel IH]; intros t; [reflexivity|]. cbn [fill_loop]. rewrite next_unlocked_map. destruct (next_unlocked t) as [i|]; [|reflexivity].
  apply (bind_map (mo d)); [apply obj_at_map|]. intros o. cbn [snd with_depth pf_outer]. destruct (next (pf_outer (snd o))) as [os|]; [|reflexivity]. cbn [rbind]. rewrite <- IH. f_equal.
  destruct os as [|x os]; [apply lock_map|]. rewrite <- branch_map, <- new_depth. unfold map_tree at 2. rewrite map_length. reflexivity.
Qed.
Lemma fill_depth E fuel f d so n : fill_pocket_contour_shrink E fuel (with_depth d f) so n = rmap (map (map (with_depth d))) (fill_pocket_contour_shrink E fuel f so n).
Proof.
  unfold fill_pocket_contour_shrink. apply (bind_map (map_tree (mo d))).
  - exact (fill_loop_depth _ d (pf_depth f) fuel (new_tree (O, PF (pf_outer f) [] (pf_depth f)))).
  - intros t. apply (bind_map (map (map (mo d)))); [apply sequences_map; reflexivity|]. intros ss. unfold rmap. cbn [rbind]. rewrite !map_map. f_equal.
    apply map_ext. intros l. rewrite !map_map. reflexivity.
Qed.

(** Steps. *)
Lemma steps_both s a d d' ds ds' : 0 < s -> d' <= d -> steps_by s a d ds -> steps_by s a d' ds' ->
  exists more, ds' = ds ++ more /\ (forall x, In x more -> x <= d) /\ (forall x, In x ds -> d < x).
Proof.
  intros S0 L. revert a ds'. induction ds as [|x ds IH]; intros a ds' H H'.
  - exists ds'. split; [reflexivity|]. split; [|intros y []]. intros y Hy. cbn [steps_by] in H. assert (K : forall a l, steps_by s a d' l -> a - d <= s -> forall y, In y l -> y <= d).
    { clear - S0. intros a l. revert a. induction l as [|b l IHl]; intros a H A y Hy; [destruct Hy|]. cbn [steps_by] in H. destruct H as (-> & _ & H). destruct Hy as [<-|Hy]; [qlra|]. apply (IHl (a - s) H); [qlra|exact Hy]. }
    exact (K a ds' H' H y Hy).
  - cbn [steps_by] in H. destruct H as (-> & P & H). destruct ds' as [|x' ds']; cbn [steps_by] in H'; [exfalso; qlra|]. destruct H' as (-> & P' & H').
    destruct (IH _ _ H H') as (more & -> & A & B). exists more. split; [reflexivity|]. split; [exact A|]. intros y [<-|Hy]; auto.
Qed.
Lemma over_copy d z s : over d (map (fun f => clone_to_depth f z) s) = true -> d < z.
Proof. unfold over. intros H. apply existsb_exists in H as (f & Hf & H). apply in_map_iff in Hf as (g & <- & _). apply qltb_lt. exact H. Qed.
Lemma over_not d z s : z <= d -> over d (map (fun f => clone_to_depth f z) s) = false.
Proof. intros L. destruct (over d _) eqn:X; [|reflexivity]. apply over_copy in X. exfalso. exact (Qclt_not_le _ _ X L). Qed.
Lemma low_none d z (ss : list (list pathface)) : z <= d -> filter (over d) (map (map (fun f => clone_to_depth f z)) ss) = [].
Proof. intros L. induction ss as [|s ss IH]; [reflexivity|]. cbn [map filter]. rewrite (over_not d z s L). exact IH. Qed.
Lemma low_all d (ss : list (list pathface)) zs : (forall z, In z zs -> z <= d) -> filter (over d) (flat_map (fun z => map (map (fun f => clone_to_depth f z)) ss) zs) = [].
Proof. intros H. induction zs as [|z zs IH]; [reflexivity|]. cbn [flat_map]. rewrite filter_app, low_none, IH; [reflexivity|intros y Hy; apply H; right; exact Hy|apply H; left; reflexivity]. Qed.
Lemma copies_depth d z (ss : list (list pathface)) : map (map (fun f => clone_to_depth f z)) (map (map (with_depth d)) ss) = map (map (fun f => clone_to_depth f z)) ss.
Proof. rewrite map_map. apply map_ext. intros l. rewrite map_map. reflexivity. Qed.
Lemma uniform_depth d z (ss : list (list pathface)) : uniform z (map (map (with_depth d)) ss) -> z = d.
Proof. intros (N & U). rewrite <- concat_map in N, U. destruct (concat ss) as [|f fs]; [contradiction|]. symmetry. exact (U _ (or_introl eq_refl)). Qed.
Lemma stepdown_depth ss st s d d' out out' : 0 < s -> d' <= d ->
  apply_stepdown (map (map (with_depth d)) ss) st s = Ok out -> apply_stepdown (map (map (with_depth d')) ss) st s = Ok out' -> exists more, out' = out ++ more /\ filter (over d) more = [].
Proof.
  intros S0 L H H'. apply stepdown_ok in H as (z & U & ->). apply stepdown_ok in H' as (z' & U' & ->). apply uniform_depth in U as ->. apply uniform_depth in U' as ->.
  destruct (steps_both s (dflt st 0) d d' _ _ S0 L (arange_down s _ _ S0) (arange_down s _ _ S0)) as (more & -> & A & _).
  exists (flat_map (fun z => map (map (fun f => clone_to_depth f z)) ss) more). split; [|apply low_all, A].
  rewrite flat_map_app. f_equal; apply flat_map_ext; intros z; rewrite !copies_depth; reflexivity.
Qed.
(** Stepping down from the final depth makes no pass. *)
Lemma no_steps s d : 0 < s -> arange (d - s) d (- s) = [].
Proof.
  intros S0. pose proof (arange_down s d d S0) as H. destruct (arange (d - s) d (- s)) as [|x l]; [reflexivity|]. destruct H as (-> & H & _). exfalso. qlra.
Qed.
Lemma stepdown_same ss s d out : 0 < s -> apply_stepdown (map (map (with_depth d)) ss) (Some d) s = Ok out -> out = [].
Proof. intros S0 H. apply stepdown_ok in H as (z & U & ->). apply uniform_depth in U as ->. change (dflt (Some d) 0) with d. rewrite (no_steps s d S0). reflexivity. Qed.
Lemma smallest_same d l : (forall x, In x l -> x = d) -> smallest l = match l with [] => None | _ => Some d end.
Proof.
  induction l as [|x l IH]; intros H; [reflexivity|]. cbn [smallest]. rewrite IH by (intros y Hy; apply H; right; exact Hy). rewrite (H x (or_introl eq_refl)). destruct l; [reflexivity|].
  unfold qmin. destruct (_ d d); reflexivity.
Qed.
Lemma filterM_depth (h h' : pathface -> result bool) d l : (forall f, h' (with_depth d f) = h f) -> filterM h' (map (with_depth d) l) = rmap (map (with_depth d)) (filterM h l).
Proof.
  intros H. induction l as [|a l IH]; [reflexivity|]. cbn [map filterM]. rewrite H. destruct (h a) as [b|]; [|reflexivity]. cbn [rbind]. rewrite IH.
  destruct (filterM h l); [|reflexivity]. cbn. destruct b; reflexivity.
Qed.
Lemma start_depth E (C : contains_flat E) f sh d : determine_stepdown_start_depth E (with_depth d f) (map (with_depth d) sh) =
  rmap (fun c : list pathface => match c with [] => None | _ => Some d end) (filterM (fun g => en_contains E g f) sh).
Proof.
  unfold determine_stepdown_start_depth. rewrite (filterM_depth (fun g => en_contains E g f)) by (intros g; apply C). destruct (filterM _ sh) as [c|]; [|reflexivity].
  cbn. rewrite (smallest_same d) by (intros x Hx; rewrite map_map in Hx; apply in_map_iff in Hx as (g & <- & _); reflexivity). destruct c; reflexivity.
Qed.
Lemma low_fill d z ss : z <= d -> filter (over d) (map (map (with_depth z)) ss) = [].
Proof. exact (low_none d z ss). Qed.
Lemma fill_deeper E (C : contains_flat E) fuel n so s d d' : 0 < s -> d' <= d -> forall ops sh ss ss',
  fill_ops E fuel n so (Some s) (map (with_depth d) sh) (map (with_depth d) ops) = Ok ss -> fill_ops E fuel n so (Some s) (map (with_depth d') sh) (map (with_depth d') ops) = Ok ss' ->
  filter (over d) ss' = filter (over d) ss.
Proof.
  intros S0 L. assert (N : qeqb s 0 = false) by (destruct (qeqb s 0) eqn:Q; [|reflexivity]; apply qeqb_eq in Q; rewrite Q in S0; discriminate S0).
  induction ops as [|op ops IH]; intros sh ss ss' H H'; cbn [map fill_ops] in *; [congruence|]. rewrite N in H, H'. rewrite fill_depth in H, H'.
  destruct (fill_pocket_contour_shrink E fuel op so n) as [fill|]; [|discriminate]. unfold rmap in H, H'. cbn [rbind] in H, H'.
  rewrite (start_depth E C) in H, H'. destruct (filterM (fun g => en_contains E g op) sh) as [c|]; [|discriminate]. unfold rmap in H, H'. cbn [rbind] in H, H'.
  apply rbind_ok in H as (st & E1 & H). apply rbind_ok in H as (r & E2 & H). injection H as <-. apply rbind_ok in H' as (st' & E1' & H'). apply rbind_ok in H' as (r' & E2' & H'). injection H' as <-.
  rewrite !filter_app. rewrite (low_fill d d fill (Qcle_refl d)), (low_fill d d' fill L). cbn [app].
  change [with_depth d op] with (map (with_depth d) [op]) in E2. change [with_depth d' op] with (map (with_depth d') [op]) in E2'. rewrite <- map_app in E2, E2'. rewrite (IH _ _ _ E2 E2'). f_equal.
  destruct c as [|g c].
  - destruct (stepdown_depth fill None s d d' st st' S0 L E1 E1') as (more & -> & M). rewrite filter_app, M, app_nil_r. reflexivity.
  - rewrite (stepdown_same _ _ _ _ S0 E1), (stepdown_same _ _ _ _ S0 E1'). reflexivity.
Qed.
(** Everything else of the shallower pocket is at its floor. *)
Lemma fill_floor E (C : contains_flat E) fuel n so s d : 0 < s -> forall ops sh ss, fill_ops E fuel n so (Some s) (map (with_depth d) sh) (map (with_depth d) ops) = Ok ss ->
  forall q, In q ss -> over d q = false -> forall f, In f q -> pf_depth f = d.
Proof.
  intros S0. assert (N : qeqb s 0 = false) by (destruct (qeqb s 0) eqn:Q; [|reflexivity]; apply qeqb_eq in Q; rewrite Q in S0; discriminate S0).
  induction ops as [|op ops IH]; intros sh ss H q Hq O f Hf; cbn [map fill_ops] in *; [injection H as <-; destruct Hq|]. rewrite N in H. rewrite fill_depth in H.
  destruct (fill_pocket_contour_shrink E fuel op so n) as [fill|]; [|discriminate]. unfold rmap in H. cbn [rbind] in H.
  apply rbind_ok in H as (st & E1 & H). apply rbind_ok in H as (r & E2 & H). injection H as <-. apply in_app_iff in Hq as [Hq|Hq]; [|apply in_app_iff in Hq as [Hq|Hq]].
  - apply rbind_ok in E1 as (a & _ & E1). apply stepdown_ok in E1 as (z & U & ->). apply uniform_depth in U as ->. apply in_flat_map in Hq as (y & Hy & Hq).
    destruct (steps_both s (dflt a 0) d d _ _ S0 (Qcle_refl d) (arange_down s _ _ S0) (arange_down s _ _ S0)) as (_ & _ & _ & B). specialize (B y Hy).
    apply in_map_iff in Hq as (l & <- & _). exfalso. assert (X : over d (map (fun f => clone_to_depth f y) l) = true); [|congruence].
    apply existsb_exists. exists f. split; [exact Hf|]. apply in_map_iff in Hf as (g & <- & _). apply qltb_lt. exact B.
  - apply in_map_iff in Hq as (l & <- & _). apply in_map_iff in Hf as (g & <- & _). reflexivity.
  - change [with_depth d op] with (map (with_depth d) [op]) in E2. rewrite <- map_app in E2. exact (IH _ _ E2 q Hq O f Hf).
Qed.
Lemma deeper_pocket E fuel j areas avoids oo io ao ai so s d d' cmds cmds' : contains_flat E -> 0 < s -> d' <= d -> d <= 0 -> (forall f, In f avoids -> d <= pf_depth f) ->
  pocket_clipper E fuel j (map (with_depth d) areas) avoids oo io ao ai so (Some s) = Ok cmds -> pocket_clipper E fuel j (map (with_depth d') areas) avoids oo io ao ai so (Some s) = Ok cmds' ->
  exists ss ss', route_sequences j so false av_none ss = Ok cmds /\ route_sequences j so false av_none ss' = Ok cmds' /\
    filter (over d) ss' = filter (over d) ss /\ forall q f, In q ss -> over d q = false -> In f q -> pf_depth f = d.
Proof.
  intros C S0 L D AV H H'. assert (D' : d' <= 0) by (apply Qcle_trans with d; assumption). unfold pocket_clipper in H, H'.
  rewrite (mapM_map (with_depth d) (map (with_depth d)) (fun f => offset_polyface E f oo io (j_precision j))) in H by (intros f; apply offset_depth).
  rewrite (mapM_map (with_depth d') (map (with_depth d')) (fun f => offset_polyface E f oo io (j_precision j))) in H' by (intros f; apply offset_depth).
  destruct (mapM _ areas) as [os|]; [|discriminate]. unfold rmap in H, H'. cbn [rbind] in H, H'.
  destruct (mapM _ avoids) as [vs|] eqn:V; [|discriminate]. cbn [rbind] in H, H'. pose proof (offsets_high _ _ _ _ d _ _ AV V) as AH. assert (AH' : forall f, In f (concat vs) -> d' <= pf_depth f) by (intros f Hf; apply Qcle_trans with d; auto).
  rewrite <- concat_map in H, H'.
  rewrite (ops_depth E (concat os) (concat vs) d' d D' D AH' AH) in H'. destruct (build_pocket_ops E (map (with_depth d) (concat os)) (concat vs)) as [r|] eqn:B; [|discriminate].
  pose proof (ops_at E _ _ d r D AH B) as R. unfold rmap in H'. cbn [rbind] in H, H'. rewrite R in H.
  apply rbind_ok in H as (ss & E1 & H). apply rbind_ok in H' as (ss' & E1' & H'). exists ss, ss'. split; [exact H|]. split; [exact H'|]. split.
  - exact (fill_deeper E C fuel _ so s d d' S0 L r [] ss ss' E1 E1').
  - intros q f Hq O Hf. exact (fill_floor E C fuel _ so s d S0 r [] ss E1 q Hq O f Hf).
Qed.

(** ** One piece *)
Lemma route_starts j so a b : forall done pp cmds, route_sequences j so done pp (a ++ b) = Ok cmds -> exists c t, route_sequences j so done pp a = Ok c /\ cmds = c ++ t.
Proof.
  induction a as [|s a IH]; intros done pp cmds H; [exists [], cmds; split; reflexivity|]. cbn [app route_sequences] in *. destruct (route_polyface_outers j s _ _) as [x|]; [|discriminate]. cbn [rbind] in *.
  assert (X : forall k, (do rest <- route_sequences j so true (last_end x pp) (a ++ b); Ok (x ++ rest)) = Ok k ->
    exists c t, (do rest <- route_sequences j so true (last_end x pp) a; Ok (x ++ rest)) = Ok c /\ k = c ++ t).
  { intros k K. apply rbind_ok in K as (r & E & K). injection K as <-. destruct (IH _ _ _ E) as (c & t & -> & ->). exists (x ++ c), t. split; [reflexivity|]. apply app_assoc. }
  destruct x as [|m x]; [destruct done; [|discriminate]|]; exact (X cmds H).
Qed.
Lemma one_piece E (C : contains_flat E) fuel n so s d d' g ss ss' : 0 < s -> d' <= d ->
  fill_ops E fuel n so (Some s) [] [with_depth d g] = Ok ss -> fill_ops E fuel n so (Some s) [] [with_depth d' g] = Ok ss' ->
  exists pre fin more, ss = pre ++ fin /\ ss' = pre ++ more /\ filter (over d) fin = [] /\ filter (over d) more = [] /\
    forall q f, In q pre -> In f q -> d < pf_depth f.
Proof.
  intros S0 L H H'. assert (N : qeqb s 0 = false) by (destruct (qeqb s 0) eqn:Q; [|reflexivity]; apply qeqb_eq in Q; rewrite Q in S0; discriminate S0).
  cbn [fill_ops] in H, H'. rewrite N, fill_depth in H, H'. destruct (fill_pocket_contour_shrink E fuel g so n) as [fill|]; [|discriminate]. unfold rmap in H, H'. cbn [rbind determine_stepdown_start_depth filterM] in H, H'.
  unfold determine_stepdown_start_depth in H, H'. cbn [filterM rbind map smallest] in H, H'.
  apply rbind_ok in H as (st & E1 & H). injection H as <-. apply rbind_ok in H' as (st' & E1' & H'). injection H' as <-.
  destruct (stepdown_depth fill None s d d' st st' S0 L E1 E1') as (more & -> & M). exists st, (map (map (with_depth d)) fill ++ []), (more ++ map (map (with_depth d')) fill ++ []).
  split; [reflexivity|]. split; [rewrite <- app_assoc; reflexivity|]. rewrite !app_nil_r, filter_app, M, (low_fill d d fill (Qcle_refl d)), (low_fill d d' fill L). split; [reflexivity|]. split; [reflexivity|].
  intros q f Hq Hf. apply stepdown_ok in E1 as (z & U & ->). apply uniform_depth in U as ->. apply in_flat_map in Hq as (y & Hy & Hq).
  destruct (steps_both s (dflt None 0) d d _ _ S0 (Qcle_refl d) (arange_down s _ _ S0) (arange_down s _ _ S0)) as (_ & _ & _ & B). specialize (B y Hy).
  apply in_map_iff in Hq as (l & <- & _). apply in_map_iff in Hf as (h & <- & _). exact B.
Qed.
Lemma deeper_start E fuel j areas avoids oo io ao ai so s d d' cmds cmds' : contains_flat E -> 0 < s -> d' <= d -> d <= 0 -> (forall f, In f avoids -> d <= pf_depth f) ->
  (forall os vs r, mapM (fun f => offset_polyface E f oo io (j_precision j)) (map (with_depth d) areas) = Ok os ->
    mapM (fun f => offset_polyface E f ao ai (j_precision j)) avoids = Ok vs -> build_pocket_ops E (concat os) (concat vs) = Ok r -> exists g, r = [g]) ->
  pocket_clipper E fuel j (map (with_depth d) areas) avoids oo io ao ai so (Some s) = Ok cmds -> pocket_clipper E fuel j (map (with_depth d') areas) avoids oo io ao ai so (Some s) = Ok cmds' ->
  exists pre fin c t t', route_sequences j so false av_none (pre ++ fin) = Ok cmds /\ route_sequences j so false av_none pre = Ok c /\ cmds = c ++ t /\ cmds' = c ++ t' /\
    (forall q f, In q pre -> In f q -> d < pf_depth f) /\ (forall q f, In q fin -> In f q -> pf_depth f = d).
Proof.
  intros C S0 L D AV ONE H H'. assert (D' : d' <= 0) by (apply Qcle_trans with d; assumption). unfold pocket_clipper in H, H'.
  rewrite (mapM_map (with_depth d) (map (with_depth d)) (fun f => offset_polyface E f oo io (j_precision j))) in H, ONE by (intros f; apply offset_depth).
  rewrite (mapM_map (with_depth d') (map (with_depth d')) (fun f => offset_polyface E f oo io (j_precision j))) in H' by (intros f; apply offset_depth).
  destruct (mapM _ areas) as [os|]; [|discriminate]. unfold rmap in H, H', ONE. cbn [rbind] in H, H', ONE.
  destruct (mapM _ avoids) as [vs|] eqn:V; [|discriminate]. cbn [rbind] in H, H'. pose proof (offsets_high _ _ _ _ d _ _ AV V) as AH. assert (AH' : forall f, In f (concat vs) -> d' <= pf_depth f) by (intros f Hf; apply Qcle_trans with d; auto).
  rewrite <- concat_map in H, H'.
  rewrite (ops_depth E (concat os) (concat vs) d' d D' D AH' AH) in H'. destruct (build_pocket_ops E (map (with_depth d) (concat os)) (concat vs)) as [r|] eqn:B; [|discriminate].
  pose proof (ops_at E _ _ d r D AH B) as R. unfold rmap in H'. cbn [rbind] in H, H'.
  destruct (ONE _ vs r eq_refl eq_refl) as (g & G); [rewrite <- concat_map; exact B|]. rewrite R in H. rewrite G in H, H'. cbn [map] in H, H'.
  apply rbind_ok in H as (ss & E1 & H). apply rbind_ok in H' as (ss' & E1' & H').
  pose proof (fill_floor E C fuel _ so s d S0 [g] [] ss E1) as FL.
  destruct (one_piece E C fuel _ so s d d' g ss ss' S0 L E1 E1') as (pre & fin & more & -> & -> & F1 & _ & P).
  destruct (route_starts _ _ _ _ _ _ _ H) as (c & t & K & ->). destruct (route_starts _ _ _ _ _ _ _ H') as (c' & t' & K' & ->). rewrite K in K'. injection K' as <-.
  exists pre, fin, c, t, t'. split; [exact H|]. split; [exact K|]. split; [reflexivity|]. split; [reflexivity|]. split; [exact P|].
  intros q f Hq Hf. apply (FL q); [apply in_app_iff; right; exact Hq| |exact Hf]. destruct (over d q) eqn:O; [|reflexivity]. exfalso.
  assert (X : In q (filter (over d) fin)) by (apply filter_In; split; assumption). rewrite F1 in X. destruct X.
Qed.

(** ** Without a stepdown *)
Lemma fill_plain E fuel n so d d' : forall ops sh, fill_ops E fuel n so None (map (with_depth d') sh) (map (with_depth d') ops) =
  rmap (map (map (with_depth d'))) (fill_ops E fuel n so None (map (with_depth d) sh) (map (with_depth d) ops)).
Proof.
  induction ops as [|op ops IH]; intros sh; [reflexivity|]. cbn [map fill_ops]. rewrite !fill_depth. destruct (fill_pocket_contour_shrink E fuel op so n) as [fill|]; [|reflexivity].
  unfold rmap at 1 3. cbn [rbind]. change [with_depth d op] with (map (with_depth d) [op]). change [with_depth d' op] with (map (with_depth d') [op]). rewrite <- !map_app, IH.
  unfold rmap. destruct (fill_ops E fuel n so None _ (map (with_depth d) ops)) as [r|]; [|reflexivity]. cbn [rbind app]. rewrite map_app. f_equal. f_equal.
  rewrite map_map. apply map_ext. intros l. rewrite map_map. reflexivity.
Qed.
Lemma plain_pocket E fuel j areas avoids oo io ao ai so d d' : d' <= d -> d <= 0 -> (forall f, In f avoids -> d <= pf_depth f) ->
  (exists ss, (forall q f, In q ss -> In f q -> pf_depth f = d) /\
    pocket_clipper E fuel j (map (with_depth d) areas) avoids oo io ao ai so None = route_sequences j so false av_none ss /\
    pocket_clipper E fuel j (map (with_depth d') areas) avoids oo io ao ai so None = route_sequences j so false av_none (map (map (with_depth d')) ss)) \/
  (exists e, pocket_clipper E fuel j (map (with_depth d) areas) avoids oo io ao ai so None = Err e /\ pocket_clipper E fuel j (map (with_depth d') areas) avoids oo io ao ai so None = Err e).
Proof.
  intros L D AV. assert (D' : d' <= 0) by (apply Qcle_trans with d; assumption). unfold pocket_clipper.
  rewrite (mapM_map (with_depth d) (map (with_depth d)) (fun f => offset_polyface E f oo io (j_precision j))) by (intros f; apply offset_depth).
  rewrite (mapM_map (with_depth d') (map (with_depth d')) (fun f => offset_polyface E f oo io (j_precision j))) by (intros f; apply offset_depth).
  destruct (mapM _ areas) as [os|]; [|right; eexists; split; reflexivity]. unfold rmap. cbn [rbind]. destruct (mapM _ avoids) as [vs|] eqn:V; [|right; eexists; split; reflexivity]. cbn [rbind].
  pose proof (offsets_high _ _ _ _ d _ _ AV V) as AH. assert (AH' : forall f, In f (concat vs) -> d' <= pf_depth f) by (intros f Hf; apply Qcle_trans with d; auto). rewrite <- !concat_map.
  rewrite (ops_depth E (concat os) (concat vs) d' d D' D AH' AH). destruct (build_pocket_ops E (map (with_depth d) (concat os)) (concat vs)) as [r|] eqn:B; [|right; eexists; split; reflexivity].
  pose proof (ops_at E _ _ d r D AH B) as R. unfold rmap. cbn [rbind]. pose proof (fill_plain E fuel (j_precision j) so d d' r []) as X. cbn [map] in X. rewrite X. rewrite <- R.
  pose proof (fill_plain E fuel (j_precision j) so d d r []) as Y. cbn [map] in Y. rewrite <- R in Y.
  destruct (fill_ops E fuel (j_precision j) so None [] r) as [ss|]; [left|right; eexists; split; reflexivity]. unfold rmap. cbn [rbind]. exists ss. split; [|split; reflexivity].
  cbn in Y. injection Y as Y. intros q f Hq Hf. rewrite Y in Hq. apply in_map_iff in Hq as (q0 & <- & _). apply in_map_iff in Hf as (g & <- & _). reflexivity.
Qed.
