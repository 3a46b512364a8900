(** * Proofs: filling a pocket with contours *)
From Verif Require Import Base.Py Model.Geometry Model.Tree Model.Pocket Spec.Paths Spec.Trees Spec.Pockets
  Proofs.GeomP Proofs.TreeP.
From Coq Require Import Permutation Arith Lia.
Local Open Scope Qc_scope.
Local Open Scope list_scope.

(** ** Closing contours *)
Lemma pt_eqb_iff a b : pt_eqb a b = true <-> a = b.
Proof.
  unfold pt_eqb. rewrite andb_true_iff, !qeqb_eq. destruct a, b; cbn. split; [intros [-> ->]; reflexivity|intros H; injection H; auto].
Qed.
Lemma closed_iff a l : closed_path (a :: l) <-> last (a :: l) a = a.
Proof.
  split.
  - intros (b & k & E & HL). injection E as <- <-. exact HL.
  - intros H. exists a, l. auto.
Qed.
Lemma last_snoc {A} (l : list A) a d : last (l ++ [a]) d = a.
Proof. induction l as [|x l IH]; [reflexivity|]. cbn. destruct (l ++ [a]) eqn:E; [destruct l; discriminate|]. exact IH. Qed.
Lemma close_path_iff p q : close_path p = Ok q <-> closes p q.
Proof.
  destruct p as [|a l].
  - split; [discriminate|]. intros [(b & k & E & _) [->|(_ & b' & k' & E' & _)]]; discriminate.
  - unfold close_path. destruct (pt_eqb a (last (a :: l) a)) eqn:E; cbn [negb].
    + apply pt_eqb_iff in E. assert (HC : closed_path (a :: l)) by (apply closed_iff; symmetry; exact E). split.
      * intros H. injection H as <-. split; [exact HC|]. left; reflexivity.
      * intros [_ [->|(N & _)]]; [reflexivity|contradiction].
    + assert (HN : ~ closed_path (a :: l)). { intros C. apply closed_iff in C. assert (pt_eqb a (last (a :: l) a) = true) by (apply pt_eqb_iff; symmetry; exact C). congruence. }
      split.
      * intros H. injection H as <-. split; [|right; split; [exact HN|exists a, l; auto]].
        exists a, (l ++ [a]). split; [reflexivity|]. apply (last_snoc (a :: l)).
      * intros [C [->|(_ & b & k & E1 & ->)]]; [contradiction|]. injection E1 as <- <-. reflexivity.
Qed.

Lemma mapM_iff {A B} (f : A -> result B) l k : mapM f l = Ok k <-> Forall2 (fun a b => f a = Ok b) l k.
Proof. split; [apply mapM_ok|]. induction 1 as [|a b l k H _ IH]; [reflexivity|]. cbn. rewrite H, IH. reflexivity. Qed.
Lemma Forall2_iff {A B} (P Q : A -> B -> Prop) l k : (forall a b, P a b <-> Q a b) -> Forall2 P l k <-> Forall2 Q l k.
Proof. intros H. split; induction 1; constructor; auto; apply H; assumption. Qed.

Lemma offset_path_iff E p d pr l : offset_path E p d pr = Ok l <->
  exists raw, en_offset E p d pr = Ok raw /\ Forall2 closes (filter (fun p => match p with [] => false | _ => true end) raw) l.
Proof.
  unfold offset_path. split.
  - intros H. apply rbind_ok in H. destruct H as (raw & E1 & H). exists raw. split; [exact E1|].
    apply mapM_iff in H. revert H. apply Forall2_iff. intros; (apply close_path_iff || (symmetry; apply close_path_iff)).
  - intros (raw & -> & H). cbn [rbind]. apply mapM_iff. revert H. apply Forall2_iff. intros; (apply close_path_iff || (symmetry; apply close_path_iff)).
Qed.

Lemma faces_iff t d fs : poly_tree_to_poly_faces t d = Ok fs <-> Forall2 (node_face d) t fs.
Proof.
  unfold poly_tree_to_poly_faces. rewrite mapM_iff. apply Forall2_iff. intros n f. unfold node_face. split.
  - intros H. apply rbind_ok in H. destruct H as (o & E1 & H). apply rbind_ok in H. destruct H as (ins & E2 & H). injection H as <-. cbn.
    split; [reflexivity|]. split; [apply close_path_iff, E1|]. apply mapM_iff in E2. revert E2. apply Forall2_iff. intros; (apply close_path_iff || (symmetry; apply close_path_iff)).
  - intros (HD & HO & HI). apply close_path_iff in HO. rewrite HO. cbn [rbind].
    assert (E2 : mapM (fun c => close_path (contour c)) (children n) = Ok (pf_inners f)).
    { apply mapM_iff. revert HI. apply Forall2_iff. intros; (apply close_path_iff || (symmetry; apply close_path_iff)). }
    rewrite E2. cbn [rbind]. destruct f; cbn in *. subst. reflexivity.
Qed.
Lemma difference_iff E ss cs d fs : difference_poly_tree E ss cs d = Ok fs <->
  exists t, en_difference E ss cs = Ok t /\ Forall2 (node_face d) t fs.
Proof.
  unfold difference_poly_tree. split.
  - intros H. apply rbind_ok in H. destruct H as (t & E1 & H). exists t. split; [exact E1|apply faces_iff, H].
  - intros (t & -> & H). cbn [rbind]. apply faces_iff, H.
Qed.
Lemma union_iff E ss cs d fs : union_poly_tree E ss cs d = Ok fs <->
  exists t, en_union E ss cs = Ok t /\ Forall2 (node_face d) t fs.
Proof.
  unfold union_poly_tree. split.
  - intros H. apply rbind_ok in H. destruct H as (t & E1 & H). exists t. split; [exact E1|apply faces_iff, H].
  - intros (t & -> & H). cbn [rbind]. apply faces_iff, H.
Qed.
Lemma node_faces_outer d t fs : Forall2 (node_face d) t fs -> Forall2 (fun n o => closes (contour n) o) t (map pf_outer fs).
Proof. induction 1 as [|n f t fs (_ & H & _) _ IH]; cbn; constructor; auto. Qed.

(** The outer contours of the faces of a tree (the inner ones can always be closed if the tree's
    contours are not empty). *)
Definition solid (t : list polynode) : Prop := Forall (fun n => Forall (fun c => contour c <> []) (children n)) t.

Lemma next_contours_inward E P s pr c l : next_contours E P s pr c = Ok l -> inward E P s pr c l.
Proof.
  unfold next_contours. intros H. apply rbind_ok in H. destruct H as (cut & E1 & H).
  apply offset_path_iff in E1. destruct E1 as (raw & E1 & HC). exists raw, cut. split; [exact E1|]. split; [exact HC|].
  destruct cut as [|c0 cut]; [left; injection H as <-; auto|].
  destruct (pf_inners P) as [|i ins] eqn:EI; [left; injection H as <-; auto|].
  right. split; [discriminate|]. split; [discriminate|].
  apply rbind_ok in H. destruct H as (fs & H & HL). injection HL as <-. apply difference_iff in H. destruct H as (t & E2 & HF).
  exists t. split; [exact E2|]. eapply node_faces_outer; eassumption.
Qed.

Lemma closes_fun p q q' : closes p q -> closes p q' -> q = q'.
Proof. intros H H'. apply close_path_iff in H, H'. congruence. Qed.
Lemma Forall2_fun {A B} (R : A -> B -> Prop) : (forall a b b', R a b -> R a b' -> b = b') ->
  forall l k k', Forall2 R l k -> Forall2 R l k' -> k = k'.
Proof.
  intros HR l k k' H. revert k'. induction H as [|a b l k Hab _ IH]; intros k' H'; inversion H'; subst; [reflexivity|].
  f_equal; [eapply HR; eassumption|apply IH; assumption].
Qed.
Lemma inward_fun E P s pr c l l' : inward E P s pr c l -> inward E P s pr c l' -> l = l'.
Proof.
  intros (raw & cut & E1 & F1 & H1) (raw' & cut' & E2 & F2 & H2).
  assert (raw' = raw) by congruence. subst raw'.
  assert (cut' = cut) by (exact (Forall2_fun closes closes_fun _ _ _ F2 F1)). subst cut'.
  destruct H1 as [(C1 & ->)|(C1 & C1' & t & T1 & H1)], H2 as [(C2 & ->)|(C2 & C2' & t' & T2 & H2)]; [reflexivity|exfalso; tauto|exfalso; tauto|].
  assert (t' = t) by congruence. subst t'.
  refine (Forall2_fun (fun (n : polynode) o => closes (contour n) o) _ _ _ _ H1 H2). intros n a b; apply closes_fun.
Qed.

(** ** The loop *)
Section Fill.
Context (next : path -> result (list path)) (D : Qc) (outline : path).
Let R (c : path) (l : list path) : Prop := next c = Ok l.

Lemma reached_fun a c c' : reached R outline a c -> reached R outline a c' -> c = c'.
Proof.
  intros H. revert c'. induction H as [|a c l k c1 H IH HN HK]; intros c' H'; inversion H'; subst; [reflexivity|].
  match goal with X : reached R outline a ?x |- _ => specialize (IH x X) end. subst. unfold R in *. congruence.
Qed.

Definition good_node (ad : list (list nat)) (t : contour_tree) (i : nat) (n : node (nat * pathface)) : Prop :=
  fst (n_obj n) = i /\ pf_inners (snd (n_obj n)) = [] /\ pf_depth (snd (n_obj n)) = D /\
  exists a, nth_error ad i = Some a /\ reached R outline a (pf_outer (snd (n_obj n))) /\
    match n_parent n with
    | None => a = []
    | Some p => exists k ap, nth_error ad p = Some ap /\ a = k :: ap
    end /\
    (n_locked n = true -> R (pf_outer (snd (n_obj n))) []) /\
    (~ is_leaf t i -> exists l, R (pf_outer (snd (n_obj n))) l /\ forall k, (k < length l)%nat -> In (k :: a) ad).

Record inv (t : contour_tree) (ad : list (list nat)) : Prop := Inv {
  i_grown : grown t;
  i_len : length ad = length t;
  i_nodup : NoDup ad;
  i_node : forall i n, nth_error t i = Some n -> good_node ad t i n
}.

Lemma not_leaf_parent {A} (t : tree A) i : (i < length t)%nat -> ~ is_leaf t i -> exists k, is_parent t i k.
Proof.
  intros Hi HN. destruct (existsb (Nat.eqb i) (tree_parents t)) eqn:EE.
  - apply existsb_exists in EE. destruct EE as (x & Hx & Ex). apply Nat.eqb_eq in Ex. subst x.
    unfold tree_parents in Hx. apply in_flat_map in Hx. destruct Hx as (n & Hn & HI). apply In_nth_error in Hn. destruct Hn as (k & Hk).
    exists k, n. split; [exact Hk|]. destruct (n_parent n); [|destruct HI]. destruct HI as [->|[]]. reflexivity.
  - exfalso. apply HN. apply leaves_spec. unfold leaves. rewrite filter_In, in_seq, EE. split; [lia|reflexivity].
Qed.

Lemma inv_init : inv (new_tree (O, PF outline [] D)) [[]].
Proof.
  split; [constructor|reflexivity|constructor; [intros []|constructor]|].
  intros [|i] n E; [|destruct i; discriminate]. injection E as <-. unfold good_node. cbn.
  split; [reflexivity|]. split; [reflexivity|]. split; [reflexivity|]. exists []. split; [reflexivity|]. split; [constructor|].
  split; [reflexivity|]. split; [discriminate|]. intros HN. exfalso. apply HN. split; [cbn; lia|].
  intros [|k] (n & E & P); [injection E as <-; discriminate|destruct k; discriminate].
Qed.

Lemma is_parent_lock {A} (t : tree A) i p k : is_parent (lock t i) p k <-> is_parent t p k.
Proof.
  unfold is_parent. rewrite lock_nth. destruct (nth_error t k) as [n|]; [|split; intros (m & H & _); discriminate].
  destruct (Nat.eqb k i); split; intros (m & H & P); injection H as <-; eexists; (split; [reflexivity|]); exact P.
Qed.
Lemma is_leaf_lock {A} (t : tree A) i k : is_leaf (lock t i) k <-> is_leaf t k.
Proof.
  unfold is_leaf. rewrite lock_length. split; intros [H1 H2]; (split; [exact H1|]); intros j Hj; apply (H2 j); apply (is_parent_lock t i k j) || apply (proj2 (is_parent_lock t i k j)); exact Hj.
Qed.

Lemma inv_lock t ad i n : inv t ad -> nth_error t i = Some n -> R (pf_outer (snd (n_obj n))) [] -> inv (lock t i) ad.
Proof.
  intros [G L N HN] E HR. split; [constructor; exact G|rewrite lock_length; exact L|exact N|].
  intros k m Ek. rewrite lock_nth in Ek. destruct (nth_error t k) as [m'|] eqn:EK; [|discriminate]. injection Ek as <-.
  destruct (HN k m' EK) as (H1 & H2 & H3 & a & H4 & H5 & H6 & H7 & H8).
  assert (HL : ~ is_leaf (lock t i) k -> ~ is_leaf t k) by (intros C C'; apply C, is_leaf_lock, C').
  destruct (Nat.eqb_spec k i) as [->|NE].
  - assert (m' = n) by congruence. subst m'. split; [exact H1|]. split; [exact H2|]. split; [exact H3|]. exists a. cbn.
    split; [exact H4|]. split; [exact H5|]. split; [exact H6|]. split; [intros _; exact HR|]. intros C. apply H8, HL, C.
  - split; [exact H1|]. split; [exact H2|]. split; [exact H3|]. exists a.
    split; [exact H4|]. split; [exact H5|]. split; [exact H6|]. split; [exact H7|]. intros C. apply H8, HL, C.
Qed.

Lemma new_contours_nth depth n outers k : nth_error (new_contours depth n outers) k =
  match nth_error outers k with Some o => Some ((n + k)%nat, PF o [] depth) | None => None end.
Proof.
  unfold new_contours. revert n k. induction outers as [|o outers IH]; intros n k.
  - cbn. destruct k; reflexivity.
  - destruct k as [|k]; cbn [length seq map combine nth_error].
    + rewrite Nat.add_0_r. reflexivity.
    + rewrite IH. destruct (nth_error outers k); [|reflexivity]. rewrite Nat.add_succ_comm. reflexivity.
Qed.
Lemma new_contours_length depth n outers : length (new_contours depth n outers) = length outers.
Proof. unfold new_contours. rewrite combine_length, seq_length, map_length. apply Nat.min_id. Qed.

Lemma branch_old {A} (t : tree A) i bs j n : nth_error t j = Some n -> nth_error (branch t i bs) j = Some n.
Proof.
  intros E. rewrite branch_nth. assert ((j < length t)%nat) by (apply nth_error_Some; congruence).
  destruct (Nat.ltb_spec j (length t)); [exact E|lia].
Qed.
Lemma branch_length {A} (t : tree A) i bs : length (branch t i bs) = (length t + length bs)%nat.
Proof. unfold branch. rewrite app_length, map_length. reflexivity. Qed.

Lemma inv_branch t ad i n a l : inv t ad -> nth_error t i = Some n -> nth_error ad i = Some a -> is_leaf t i -> n_locked n = false ->
  R (pf_outer (snd (n_obj n))) l -> l <> [] ->
  inv (branch t i (new_contours D (length t) l)) (ad ++ map (fun k => k :: a) (seq 0 (length l))).
Proof.
  intros HI E EA HLf HU HR HNE. pose proof HI as [G L N HN]. pose proof (grown_wf t G) as W.
  assert (Hi : (i < length t)%nat) by (apply nth_error_Some; congruence).
  split.
  - constructor; assumption.
  - rewrite app_length, map_length, seq_length, branch_length, new_contours_length, L. reflexivity.
  - apply nodup_app; [exact N| |].
    + apply FinFun.Injective_map_NoDup; [intros x y H; injection H; auto|apply seq_NoDup].
    + intros x Hx HA. apply in_map_iff in Hx. destruct Hx as (k & <- & _).
      apply In_nth_error in HA. destruct HA as (j & Hj).
      assert (Hlt : (j < length t)%nat) by (rewrite <- L; apply nth_error_Some; congruence).
      apply nth_error_Some in Hlt. destruct (nth_error t j) as [m|] eqn:Ej; [|congruence].
      destruct (HN j m Ej) as (_ & _ & _ & a' & H4 & _ & H6 & _). assert (a' = k :: a) by congruence. subst a'.
      destruct (n_parent m) as [p|] eqn:EP; [|discriminate]. destruct H6 as (k' & ap & Hp & Heq). injection Heq as _ <-.
      assert (p = i). { eapply (proj1 (NoDup_nth_error ad) N); [apply nth_error_Some; congruence|congruence]. }
      subst p. destruct HLf as [_ HLf]. apply (HLf j). exists m. auto.
  - intros j m Ej. rewrite branch_nth in Ej. destruct (Nat.ltb_spec j (length t)) as [Hj|Hj].
    + destruct (HN j m Ej) as (H1 & H2 & H3 & a' & H4 & H5 & H6 & H7 & H8).
      split; [exact H1|]. split; [exact H2|]. split; [exact H3|]. exists a'.
      assert (Hap : forall x y, nth_error ad x = Some y -> nth_error (ad ++ map (fun k => k :: a) (seq 0 (length l))) x = Some y).
      { intros x y Hxy. rewrite nth_error_app1; [exact Hxy|]. apply nth_error_Some. congruence. }
      split; [apply Hap, H4|]. split; [exact H5|]. split.
      { destruct (n_parent m); [|exact H6]. destruct H6 as (k & ap & Hp & ->). exists k, ap. split; [apply Hap, Hp|reflexivity]. }
      split; [exact H7|]. intros HNL.
      destruct (Nat.eq_dec j i) as [->|NE].
      * assert (m = n) by congruence. subst m. assert (a' = a) by congruence. subst a'. exists l. split; [exact HR|].
        intros k Hk. apply in_or_app. right. apply in_map_iff. exists k. split; [reflexivity|]. apply in_seq. lia.
      * assert (HNL' : ~ is_leaf t j).
        { intros [C1 C2]. apply HNL. split; [rewrite branch_length; lia|]. intros k (b & Eb & Pb). rewrite branch_nth in Eb.
          destruct (Nat.ltb_spec k (length t)) as [Hk|Hk].
          - apply (C2 k). exists b; auto.
          - destruct (nth_error (new_contours D (length t) l) (k - length t)); [|discriminate]. injection Eb as <-. cbn in Pb. congruence. }
        destruct (H8 HNL') as (l' & HR' & HA). exists l'. split; [exact HR'|]. intros k Hk. apply in_or_app. left. apply HA, Hk.
    + rewrite new_contours_nth in Ej. destruct (nth_error l (j - length t)) as [o|] eqn:Eo; [|discriminate]. injection Ej as <-.
      unfold good_node. cbn. split; [lia|]. split; [reflexivity|]. split; [reflexivity|].
      assert (Hk : (j - length t < length l)%nat) by (apply nth_error_Some; congruence).
      exists ((j - length t)%nat :: a). split; [|split; [|split; [|split]]].
      * rewrite nth_error_app2 by lia. rewrite L. rewrite nth_error_map.
        rewrite (nth_error_nth' _ 0%nat) by (rewrite seq_length; exact Hk). rewrite seq_nth by exact Hk. reflexivity.
      * destruct (HN i n E) as (_ & _ & _ & a' & H4 & H5 & _). assert (a' = a) by congruence. subst a'. econstructor; eassumption.
      * exists (j - length t)%nat, a. split; [rewrite nth_error_app1; [exact EA|apply nth_error_Some; congruence]|reflexivity].
      * discriminate.
      * intros HNL. exfalso. apply HNL. split; [rewrite branch_length, new_contours_length; lia|].
        intros k (b & Eb & Pb). rewrite branch_nth in Eb. destruct (Nat.ltb_spec k (length t)) as [Hk'|Hk'].
        -- assert (HP : is_parent t j k) by (exists b; auto). pose proof (wf_parent_lt _ _ _ W HP). lia.
        -- destruct (nth_error (new_contours D (length t) l) (k - length t)); [|discriminate]. injection Eb as <-. cbn in Pb. assert (i = j) by congruence. lia.
Qed.

Lemma next_unlocked_some {A} (t : tree A) i : next_unlocked t = Some i ->
  is_leaf t i /\ exists n, nth_error t i = Some n /\ n_locked n = false.
Proof.
  unfold next_unlocked. intros H. apply find_some in H. destruct H as [H1 H2]. split; [apply leaves_spec, H1|].
  destruct (nth_error t i) as [n|]; [|discriminate]. exists n. split; [reflexivity|]. apply negb_true_iff, H2.
Qed.
Lemma next_unlocked_none {A} (t : tree A) : next_unlocked t = None ->
  forall i n, is_leaf t i -> nth_error t i = Some n -> n_locked n = true.
Proof.
  unfold next_unlocked. intros H i n HL E. pose proof (find_none _ _ H i (proj2 (leaves_spec t i) HL)) as K. cbn in K. rewrite E in K.
  apply negb_false_iff, K.
Qed.

Lemma fill_loop_inv fuel : forall t ad t', inv t ad -> fill_loop next D fuel t = Ok t' ->
  exists ad', inv t' ad' /\ next_unlocked t' = None.
Proof.
  induction fuel as [|fuel IH]; intros t ad t' HI H; [discriminate|]. cbn [fill_loop] in H.
  destruct (next_unlocked t) as [i|] eqn:EN; [|injection H as <-; exists ad; auto].
  apply next_unlocked_some in EN. destruct EN as (HL & n & E & HU).
  apply rbind_ok in H. destruct H as (o & EO & H). unfold obj_at in EO. rewrite E in EO. injection EO as <-.
  apply rbind_ok in H. destruct H as (l & HR & H).
  destruct l as [|l0 l].
  - eapply IH; [|exact H]. eapply inv_lock; eassumption.
  - destruct (i_node _ _ HI i n E) as (_ & _ & _ & a & HA & _).
    eapply IH; [|exact H]. eapply inv_branch; try eassumption. discriminate.
Qed.

Lemma complete_all t ad : inv t ad -> next_unlocked t = None ->
  forall a c, reached R outline a c -> In a ad.
Proof.
  intros HI HN. pose proof (grown_wf t (i_grown _ _ HI)) as ((n0 & E0 & P0) & _).
  induction 1 as [|a c l k c' H IH HR HK].
  - destruct (i_node _ _ HI 0%nat n0 E0) as (_ & _ & _ & a & HA & _ & H6 & _). rewrite P0 in H6. subst a. eapply nth_error_In; exact HA.
  - apply In_nth_error in IH. destruct IH as (i & Hi).
    assert (Hlt : (i < length t)%nat) by (rewrite <- (i_len _ _ HI); apply nth_error_Some; congruence).
    destruct (nth_error t i) as [n|] eqn:E; [|apply nth_error_None in E; lia].
    destruct (i_node _ _ HI i n E) as (_ & _ & _ & a' & HA & HRe & _ & H7 & H8). assert (a' = a) by congruence. subst a'.
    assert (c = pf_outer (snd (n_obj n))) by (eapply reached_fun; eassumption). subst c.
    destruct (in_dec Nat.eq_dec i (leaves t)) as [HL|HL].
    + apply leaves_spec in HL. specialize (H7 (next_unlocked_none t HN i n HL E)). unfold R in *. rewrite H7 in HR. injection HR as <-. destruct k; discriminate.
    + destruct (H8 (fun C => HL (proj2 (leaves_spec t i) C))) as (l' & HR' & HAll). unfold R in *. assert (l' = l) by congruence. subst l'.
      apply HAll. apply nth_error_Some. congruence.
Qed.

Lemma complete_total t ad : inv t ad -> next_unlocked t = None ->
  forall a c, reached R outline a c -> exists l, next c = Ok l.
Proof.
  intros HI HN a c H. pose proof (complete_all t ad HI HN a c H) as HA. apply In_nth_error in HA. destruct HA as (i & Hi).
  assert (Hlt : (i < length t)%nat) by (rewrite <- (i_len _ _ HI); apply nth_error_Some; congruence).
  destruct (nth_error t i) as [n|] eqn:E; [|apply nth_error_None in E; lia].
  destruct (i_node _ _ HI i n E) as (_ & _ & _ & a' & HA & HRe & _ & H7 & H8). assert (a' = a) by congruence. subst a'.
  rewrite (reached_fun _ _ _ H HRe).
  destruct (in_dec Nat.eq_dec i (leaves t)) as [HL|HL].
  - apply leaves_spec in HL. exists []. apply H7, (next_unlocked_none t HN i n HL E).
  - destruct (H8 (fun C => HL (proj2 (leaves_spec t i) C))) as (l' & HR' & _). exists l'. exact HR'.
Qed.

Lemma Forall2_map_l {A B C} (P : B -> C -> Prop) (f : A -> B) l k : Forall2 (fun a c => P (f a) c) l k -> Forall2 P (map f l) k.
Proof. induction 1; cbn; constructor; auto. Qed.
Lemma Forall2_refl_map {A B} (f : A -> B) (P : A -> B -> Prop) l : Forall (fun a => P a (f a)) l -> Forall2 P l (map f l).
Proof. induction 1; cbn; constructor; auto. Qed.

Lemma fill_spec fuel t' : fill_loop next D fuel (new_tree (O, PF outline [] D)) = Ok t' ->
  forall inners, exists ss, sequences (fun a b => Nat.eqb (fst a) (fst b)) t' = Ok ss /\ filling R (PF outline inners D) (map (map snd) ss) /\
    (forall a c, reached R outline a c -> exists l, next c = Ok l).
Proof.
  intros H inners. destruct (fill_loop_inv _ _ _ _ inv_init H) as (ad & HI & HN). pose proof HI as [G L ND HG].
  assert (HE : forall a b : nat * pathface, In a (map n_obj t') -> In b (map n_obj t') -> (Nat.eqb (fst a) (fst b) = true <-> a = b)).
  { intros a b Ha Hb. rewrite Nat.eqb_eq. split; [|intros ->; reflexivity]. intros Hab.
    apply in_map_iff in Ha, Hb. destruct Ha as (na & <- & Ha), Hb as (nb & <- & Hb).
    apply In_nth_error in Ha, Hb. destruct Ha as (i & Ha), Hb as (k & Hb).
    destruct (HG _ _ Ha) as (Ia & _). destruct (HG _ _ Hb) as (Ib & _). assert (i = k) by congruence. subst k. congruence. }
  assert (HND : NoDup (map n_obj t')).
  { apply NoDup_nth_error. intros i k Hi Hik. rewrite map_length in Hi. rewrite !nth_error_map in Hik.
    apply nth_error_Some in Hi. destruct (nth_error t' i) as [n|] eqn:Ei; [|congruence].
    destruct (nth_error t' k) as [m|] eqn:Ek; [|discriminate]. cbn in Hik. injection Hik as Hik.
    destruct (HG _ _ Ei) as (Ia & _). destruct (HG _ _ Ek) as (Ib & _). congruence. }
  destruct (sequences_index _ t' G HE HND) as (f & idx & ES & Hf & HP & H1 & H2 & _ & _).
  eexists. split; [exact ES|]. split; [|exact (complete_total t' ad HI HN)].
  assert (HB : forall i, In i (concat idx) -> (i < length t')%nat).
  { intros i Hi. apply (Permutation_in _ HP) in Hi. apply in_seq in Hi. lia. }
  set (g := fun i => nth i ad []).
  assert (Hg : forall i, (i < length t')%nat -> nth_error ad i = Some (g i)) by (intros i Hi; apply nth_error_nth'; rewrite L; exact Hi).
  exists (map (map g) idx). split; [|split; [|split]].
  - rewrite map_map.
    assert (K : Forall2 (Forall2 (fun a f0 => reached R outline a (pf_outer f0) /\ pf_inners f0 = [] /\ pf_depth f0 = D)) (map (map g) idx)
       (map (fun x => map snd (map f x)) idx)).
    { apply Forall2_map_l, Forall2_refl_map, Forall_forall. intros s Hs. rewrite map_map. apply Forall2_map_l, Forall2_refl_map, Forall_forall. intros i Hi.
      assert (Hlt : (i < length t')%nat) by (apply HB, in_concat; eauto).
      destruct (Hf i Hlt) as (n & En & <-). destruct (HG i n En) as (_ & Hin & Hd & a & Ha & Hr & _).
      rewrite (Hg i Hlt) in Ha. injection Ha as ->. auto. }
    exact K.
  - rewrite concat_map_map || rewrite <- concat_map. assert (PP : Permutation (map g (concat idx)) ad).
    { rewrite HP. rewrite <- L. unfold g. clear. induction ad as [|a ad IH]; [reflexivity|]. cbn [length seq map]. constructor.
      rewrite <- seq_shift, map_map. exact IH. }
    eapply Permutation_NoDup; [symmetry; exact PP|exact ND].
  - intros a c Hr. rewrite <- concat_map. pose proof (complete_all t' ad HI HN a c Hr) as HIn.
    apply In_nth_error in HIn. destruct HIn as (i & Hi). apply in_map_iff. exists i.
    assert (Hlt : (i < length t')%nat) by (rewrite <- L; apply nth_error_Some; congruence).
    split; [rewrite (Hg i Hlt) in Hi; congruence|]. eapply Permutation_in; [symmetry; exact HP|]. apply in_seq. lia.
  - apply Forall_map. apply Forall_forall. intros s Hs. rewrite Forall_forall in H1. destruct (H1 s Hs) as (HU & i & rest & -> & HLf).
    assert (HBs : forall k, In k (i :: rest) -> (k < length t')%nat) by (intros k Hk; apply HB, in_concat; eauto).
    split.
    + clear - HU Hg HG HBs. revert HU HBs. generalize (i :: rest) as s. intros s. induction s as [|x s IH]; intros HU HBs; [exact I|].
      destruct s as [|y s]; [exact I|]. destruct HU as [HP HU]. cbn [map]. split.
      * destruct HP as (n & En & Pn). destruct (HG x n En) as (_ & _ & _ & a & Ha & _ & H6 & _). rewrite Pn in H6. destruct H6 as (k & ap & Hp & ->).
        exists k. rewrite (Hg x) in Ha by (apply HBs; left; reflexivity). rewrite (Hg y) in Hp by (apply HBs; right; left; reflexivity). congruence.
      * apply IH; [exact HU|]. intros k Hk. apply HBs. right; exact Hk.
    + exists (g i), (map g rest). split; [reflexivity|]. intros c Hr.
      assert (Hlt : (i < length t')%nat) by (apply HBs; left; reflexivity).
      destruct (nth_error t' i) as [n|] eqn:En; [|apply nth_error_None in En; lia].
      destruct (HG i n En) as (_ & _ & _ & a & Ha & Hr' & _ & H7 & _). rewrite (Hg i Hlt) in Ha. injection Ha as <-.
      rewrite (reached_fun _ _ _ Hr Hr'). apply H7. eapply next_unlocked_none; eassumption.
Qed.

(** ** Termination *)
Lemma fill_ends (B : list (list nat)) : (forall a c, reached R outline a c -> In a B) ->
  (forall a c, reached R outline a c -> exists l, next c = Ok l) ->
  forall fuel t ad done, inv t ad -> NoDup done ->
  (forall i, In i done -> exists n, nth_error t i = Some n /\ (n_locked n = true \/ ~ is_leaf t i)) ->
  (length B < fuel + length done)%nat -> exists t', fill_loop next D fuel t = Ok t'.
Proof.
  intros HB HT. induction fuel as [|fuel IH]; intros t ad done HI HD HP HF.
  - exfalso. assert (H1 : (length done <= length (seq 0 (length t)))%nat).
    { apply NoDup_incl_length; [exact HD|]. intros i Hi. destruct (HP i Hi) as (n & En & _). apply in_seq. assert ((i < length t)%nat) by (apply nth_error_Some; congruence). lia. }
    rewrite seq_length in H1. assert (H2 : (length ad <= length B)%nat).
    { apply NoDup_incl_length; [apply (i_nodup _ _ HI)|]. intros a Ha. apply In_nth_error in Ha. destruct Ha as (i & Hi).
      assert (Hlt : (i < length t)%nat) by (rewrite <- (i_len _ _ HI); apply nth_error_Some; congruence).
      destruct (nth_error t i) as [n|] eqn:En; [|apply nth_error_None in En; lia].
      destruct (i_node _ _ HI i n En) as (_ & _ & _ & a' & Ha' & Hr & _). assert (a' = a) by congruence. subst a'. eapply HB; exact Hr. }
    rewrite (i_len _ _ HI) in H2. lia.
  - cbn [fill_loop]. destruct (next_unlocked t) as [i|] eqn:EN; [|eauto].
    apply next_unlocked_some in EN. destruct EN as (HL & n & E & HU). unfold obj_at. rewrite E. cbn [rbind].
    destruct (i_node _ _ HI i n E) as (_ & _ & _ & a & HA & Hr & _). destruct (HT _ _ Hr) as (l & HR). rewrite HR. cbn [rbind].
    assert (Hnew : ~ In i done). { intros C. destruct (HP i C) as (m & Em & [K|K]); [congruence|contradiction]. }
    destruct l as [|l0 l].
    + eapply (IH _ ad (i :: done)); [eapply inv_lock; eassumption|constructor; assumption| |cbn [length]; lia].
      intros k Hk. rewrite lock_nth. destruct (Nat.eqb_spec k i) as [->|NE].
      * rewrite E. eexists. split; [reflexivity|]. left; reflexivity.
      * destruct Hk as [->|Hk]; [congruence|]. destruct (HP k Hk) as (m & Em & K). rewrite Em. eexists. split; [reflexivity|].
        destruct K as [K|K]; [left; exact K|right]. intros C. apply K, (is_leaf_lock t i), C.
    + eapply (IH _ _ (i :: done)); [eapply inv_branch; try eassumption; discriminate|constructor; assumption| |cbn [length]; lia].
      intros k Hk.
      assert (Hpar : forall b, is_parent t k b -> is_parent (branch t i (new_contours D (length t) (l0 :: l))) k b).
      { intros b (m & Em & Pm). exists m. split; [apply branch_old, Em|exact Pm]. }
      destruct Hk as [<-|Hk].
      * exists n. split; [apply branch_old, E|]. right. intros [_ C]. apply (C (length t)).
        exists (Node ((length t + 0)%nat, PF l0 [] D) (Some i) false). split; [|reflexivity]. rewrite branch_nth, Nat.ltb_irrefl, Nat.sub_diag, new_contours_nth. reflexivity.
      * destruct (HP k Hk) as (m & Em & K). exists m. split; [apply branch_old, Em|]. destruct K as [K|K]; [left; exact K|right].
        intros [_ C]. assert (Hlt : (k < length t)%nat) by (apply nth_error_Some; congruence).
        destruct (not_leaf_parent t k Hlt K) as (b & Hb). exact (C b (Hpar b Hb)).
Qed.
End Fill.

Lemma reached_ext (P Q : path -> list path -> Prop) o : (forall c l, P c l -> Q c l) -> forall a c, reached P o a c -> reached Q o a c.
Proof. intros H a c. induction 1; econstructor; eauto. Qed.

Lemma filling_ext (P Q : path -> list path -> Prop) pocket ss :
  (forall a c, reached P (pf_outer pocket) a c -> forall l, P c l <-> Q c l) ->
  filling P pocket ss -> filling Q pocket ss.
Proof.
  intros H (addrs & H1 & H2 & H3 & H4).
  assert (HPQ : forall a c, reached P (pf_outer pocket) a c -> reached Q (pf_outer pocket) a c).
  { induction 1 as [|a c l k c' Hr IH HN HK]; [constructor|]. econstructor; [exact IH|apply (H _ _ Hr), HN|exact HK]. }
  assert (HQP : forall a c, reached Q (pf_outer pocket) a c -> reached P (pf_outer pocket) a c).
  { induction 1 as [|a c l k c' Hr IH HN HK]; [constructor|]. econstructor; [exact IH|apply (H _ _ IH), HN|exact HK]. }
  exists addrs. split; [|split; [exact H2|split]].
  - clear - H1 HPQ. induction H1 as [|s fs addrs ss Hs _ IH]; constructor; [|exact IH].
    induction Hs as [|a f s fs (Ha & Hb) _ IH2]; constructor; [split; [apply HPQ, Ha|exact Hb]|exact IH2].
  - intros a c Hr. eapply H3, HQP, Hr.
  - eapply Forall_impl; [|exact H4]. intros s (Ho & a & rest & -> & Hn). split; [exact Ho|]. exists a, rest. split; [reflexivity|].
    intros c Hr. apply HQP in Hr. apply (H _ _ Hr), Hn, Hr.
Qed.

Lemma fill_pocket_spec E fuel P step pr ss : fill_pocket_contour_shrink E fuel P step pr = Ok ss ->
  filling (inward E P step pr) P ss.
Proof.
  unfold fill_pocket_contour_shrink. intros H. apply rbind_ok in H. destruct H as (t & HL & H).
  destruct (fill_spec _ _ _ _ _ HL (pf_inners P)) as (s & ES & HF & HT). rewrite ES in H. cbn [rbind] in H. injection H as <-.
  destruct P as [o ins d]. cbn [pf_outer pf_inners pf_depth] in *. eapply filling_ext; [|exact HF].
  intros a c Hr l. split.
  - apply next_contours_inward.
  - intros HI. destruct (HT a c Hr) as (l' & El). rewrite El. f_equal. eapply inward_fun; [apply next_contours_inward, El|exact HI].
Qed.

(** If the contours are finitely many and the engine never fails on them, the loop ends. *)
Lemma fill_pocket_ends E fuel P step pr (B : list (list nat)) :
  (forall a c, reached (inward E P step pr) (pf_outer P) a c -> In a B) ->
  (forall a c, reached (inward E P step pr) (pf_outer P) a c -> exists l, next_contours E P step pr c = Ok l) ->
  (length B < fuel)%nat -> exists ss, fill_pocket_contour_shrink E fuel P step pr = Ok ss.
Proof.
  intros HB HT HF.
  assert (HR : forall a c, reached (fun c l => next_contours E P step pr c = Ok l) (pf_outer P) a c -> reached (inward E P step pr) (pf_outer P) a c)
    by (apply reached_ext; intros; apply next_contours_inward; assumption).
  destruct (fill_ends (next_contours E P step pr) (pf_depth P) (pf_outer P) B) with (fuel := fuel) (t := new_tree (O, PF (pf_outer P) [] (pf_depth P))) (ad := [@nil nat]) (done := @nil nat) as (t & HL).
  - intros a c H. eapply HB, HR, H.
  - intros a c H. eapply HT, HR, H.
  - apply inv_init.
  - constructor.
  - intros i [].
  - cbn [length]. lia.
  - unfold fill_pocket_contour_shrink. rewrite HL. cbn [rbind].
    destruct (fill_spec _ _ _ _ _ HL (pf_inners P)) as (s & ES & _). rewrite ES. cbn [rbind]. eauto.
Qed.
(** Out of fuel, or an engine error on one of the contours: nothing else goes wrong. *)
Lemma fill_loop_err next D o fuel : forall t ad e, inv next D o t ad -> fill_loop next D fuel t = Err e ->
  e = OutOfFuel \/ exists a c, reached (fun c l => next c = Ok l) o a c /\ next c = Err e.
Proof.
  induction fuel as [|fuel IH]; intros t ad e HI H; [left; injection H as <-; reflexivity|]. cbn [fill_loop] in H.
  destruct (next_unlocked t) as [i|] eqn:EN; [|discriminate].
  apply next_unlocked_some in EN. destruct EN as (HL & n & E & HU). unfold obj_at in H. rewrite E in H. cbn [rbind] in H.
  destruct (i_node _ _ _ _ _ HI i n E) as (_ & _ & _ & a & HA & Hr & _).
  destruct (next (pf_outer (snd (n_obj n)))) as [l|x] eqn:HR; cbn [rbind] in H.
  - destruct l as [|l0 l].
    + eapply IH; [|exact H]. eapply inv_lock; eassumption.
    + eapply IH; [|exact H]. eapply inv_branch; try eassumption. discriminate.
  - right. injection H as <-. exists a, (pf_outer (snd (n_obj n))). auto.
Qed.
Lemma fill_pocket_err E fuel P step pr e : fill_pocket_contour_shrink E fuel P step pr = Err e ->
  e = OutOfFuel \/ exists a c, reached (inward E P step pr) (pf_outer P) a c /\ next_contours E P step pr c = Err e.
Proof.
  unfold fill_pocket_contour_shrink. intros H.
  destruct (fill_loop (next_contours E P step pr) (pf_depth P) fuel (new_tree (O, PF (pf_outer P) [] (pf_depth P)))) as [t|x] eqn:EL; cbn [rbind] in H.
  - destruct (fill_spec _ _ _ _ _ EL (pf_inners P)) as (s & ES & _). rewrite ES in H. discriminate.
  - injection H as <-. destruct (fill_loop_err _ _ _ _ _ _ _ (inv_init _ _ _) EL) as [K|(a & c & Hr & K)]; [left; exact K|right].
    exists a, c. split; [|exact K]. eapply reached_ext; [|exact Hr]. intros; apply next_contours_inward; assumption.
Qed.
