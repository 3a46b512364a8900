(** * Proofs: levels, stepping down and routing of pockets *)
From Verif Require Import Base.Py Model.Geometry Model.Tree Model.Pocket Spec.Paths Spec.Moves Spec.Contours Spec.Pockets
  Proofs.GeomP Proofs.RouteP Proofs.RouteThmP Proofs.FillP.
Import Model.Pocket.
From Coq Require Import Permutation Arith Lia.
Local Open Scope Qc_scope.
Local Open Scope list_scope.

Lemma flat_map_ext_in {A B} (f g : A -> list B) l : (forall x, In x l -> f x = g x) -> flat_map f l = flat_map g l.
Proof.
  induction l as [|x l IH]; intros H; [reflexivity|]. cbn. rewrite (H x (or_introl eq_refl)), IH; [reflexivity|].
  intros y Hy. apply H. right; exact Hy.
Qed.

(** ** Grouping by depth *)
Definition same_depth (d : Qc) (f : pathface) : bool := qeqb (pf_depth f) d.

Lemma same_depth_iff d f : same_depth d f = true <-> pf_depth f = d.
Proof. apply qeqb_eq. Qed.

Lemma qeqb_sym a b : qeqb a b = qeqb b a.
Proof. destruct (qeqb a b) eqn:E1, (qeqb b a) eqn:E2; try reflexivity; [apply qeqb_eq in E1|apply qeqb_eq in E2]; subst; rewrite (proj2 (qeqb_eq _ _) eq_refl) in *; discriminate. Qed.
Lemma qeqb_refl a : qeqb a a = true.
Proof. apply qeqb_eq; reflexivity. Qed.

Lemma dict_get_append m d fs d' : dict_get (dict_append m d fs) d' = if qeqb d d' then dict_get m d ++ fs else dict_get m d'.
Proof.
  induction m as [|[k gs] m IH].
  - cbn. destruct (qeqb d d'); reflexivity.
  - cbn [dict_append dict_get]. destruct (qeqb k d) eqn:E.
    + apply qeqb_eq in E. subst k. cbn [dict_get]. destruct (qeqb d d'); reflexivity.
    + cbn [dict_get]. rewrite IH. destruct (qeqb k d') eqn:E2; [|reflexivity]. apply qeqb_eq in E2. subst k. rewrite qeqb_sym, E. reflexivity.
Qed.
Lemma dict_keys_append m d fs : map fst (dict_append m d fs) = if existsb (qeqb d) (map fst m) then map fst m else map fst m ++ [d].
Proof.
  induction m as [|[k gs] m IH]; [reflexivity|]. cbn [dict_append map fst existsb]. rewrite (qeqb_sym d k). destruct (qeqb k d) eqn:E; [reflexivity|].
  cbn [map fst orb]. rewrite IH. destruct (existsb (qeqb d) (map fst m)); reflexivity.
Qed.
Lemma existsb_qeqb d l : existsb (qeqb d) l = true <-> In d l.
Proof.
  rewrite existsb_exists. split.
  - intros (x & Hx & E). apply qeqb_eq in E. subst. exact Hx.
  - intros H. exists d. split; [exact H|apply qeqb_refl].
Qed.

Lemma group_spec fs : forall m m', group_by_depth fs m = Ok m' ->
  Forall (fun f => pf_depth f <= 0) fs /\
  (forall d, dict_get m' d = dict_get m d ++ filter (same_depth d) fs) /\
  (NoDup (map fst m) -> NoDup (map fst m')) /\
  (forall d, In d (map fst m') <-> In d (map fst m) \/ exists f, In f fs /\ pf_depth f = d).
Proof.
  induction fs as [|f fs IH]; intros m m' H; cbn [group_by_depth] in H.
  - injection H as <-. split; [constructor|]. split; [intros; cbn; rewrite app_nil_r; reflexivity|]. split; [auto|].
    intros d. split; [auto|]. intros [K|(f & [] & _)]. exact K.
  - destruct (qltb 0 (pf_depth f)) eqn:E; [discriminate|]. apply IH in H. destruct H as (H1 & H2 & H3 & H4).
    split; [|split; [|split]].
    + constructor; [|exact H1]. apply qltb_false in E || (destruct (Qclt_le_dec 0 (pf_depth f)) as [K|K]; [apply qltb_lt in K; congruence|exact K]). 
    + intros d. rewrite H2, dict_get_append. cbn [filter]. destruct (same_depth d f) eqn:ED; unfold same_depth in ED; rewrite ED; [|reflexivity].
      apply qeqb_eq in ED. subst d. rewrite <- app_assoc. reflexivity.
    + intros ND. apply H3. rewrite dict_keys_append. destruct (existsb (qeqb (pf_depth f)) (map fst m)) eqn:EX; [exact ND|].
      apply Proofs.TreeP.nodup_app; [exact ND|constructor; [intros []|constructor]|]. intros x [<-|[]] C. apply existsb_qeqb in C. congruence.
    + intros d. rewrite H4, dict_keys_append. destruct (existsb (qeqb (pf_depth f)) (map fst m)) eqn:EX.
      * apply existsb_qeqb in EX. split; [intros [K|(g & Hg & Eg)]; [auto|right; exists g; split; [right; exact Hg|exact Eg]]|].
        intros [K|(g & [<-|Hg] & Eg)]; [auto|left; subst d; exact EX|right; eauto].
      * rewrite in_app_iff. split.
        -- intros [[K|[<-|[]]]|(g & Hg & Eg)]; [auto|right; exists f; split; [left; reflexivity|reflexivity]|right; exists g; split; [right; exact Hg|exact Eg]].
        -- intros [K|(g & [<-|Hg] & Eg)]; [auto|left; right; left; exact Eg|right; eauto].
Qed.

Lemma insert_down_perm d l : Permutation (insert_down d l) (d :: l).
Proof. induction l as [|x l IH]; [reflexivity|]. cbn. destruct (qleb x d); [reflexivity|]. rewrite IH. apply perm_swap. Qed.
Lemma sort_down_perm l : Permutation (sort_down l) l.
Proof. induction l as [|x l IH]; [reflexivity|]. cbn. rewrite insert_down_perm, IH. reflexivity. Qed.

Lemma strictly_down_cons a l : strictly_down (a :: l) <-> Forall (fun b => b < a) l /\ strictly_down l.
Proof.
  revert a. induction l as [|b l IH]; intros a; [cbn; intuition constructor|].
  change (strictly_down (a :: b :: l)) with (b < a /\ strictly_down (b :: l)). rewrite (IH b). split.
  - intros (H1 & H2 & H3). split; [|auto]. constructor; [exact H1|]. eapply Forall_impl; [|exact H2]. intros c Hc. simpl in Hc. eapply Qclt_trans; eassumption.
  - intros (H1 & H2 & H3). inversion H1; subst. auto.
Qed.
Lemma insert_strict d l : strictly_down l -> ~ In d l -> strictly_down (insert_down d l).
Proof.
  induction l as [|x l IH]; intros H HN; [exact I|]. cbn [insert_down]. destruct (qleb x d) eqn:E.
  - apply qleb_le in E. assert (x < d). { destruct (Qcle_lt_or_eq _ _ E) as [K|K]; [exact K|exfalso; apply HN; left; exact K]. }
    apply strictly_down_cons. split; [|exact H]. constructor; [assumption|]. apply strictly_down_cons in H. destruct H as [H _].
    eapply Forall_impl; [|exact H]. intros c Hc. simpl in Hc. eapply Qclt_trans; eassumption.
  - assert (d < x). { destruct (Qclt_le_dec d x) as [K|K]; [exact K|apply qleb_le in K; congruence]. }
    apply strictly_down_cons in H. destruct H as [H1 H2]. apply strictly_down_cons. split.
    + rewrite insert_down_perm. constructor; assumption.
    + apply IH; [exact H2|]. intros C; apply HN; right; exact C.
Qed.
Lemma sort_strict l : NoDup l -> strictly_down (sort_down l).
Proof.
  induction 1 as [|x l HN _ IH]; [exact I|]. cbn. apply insert_strict; [exact IH|]. intros C. apply HN. eapply Permutation_in; [apply sort_down_perm|exact C].
Qed.

Lemma depth_map_spec fs m ds : generate_depth_map fs = Ok (m, ds) ->
  Forall (fun f => pf_depth f <= 0) fs /\ strictly_down ds /\
  (forall d, In d ds <-> exists f, In f fs /\ pf_depth f = d) /\
  (forall d, dict_get m d = filter (fun f => qeqb (pf_depth f) d) fs).
Proof.
  unfold generate_depth_map. intros H. apply rbind_ok in H. destruct H as (m' & HG & H). injection H as <- <-.
  apply group_spec in HG. destruct HG as (H1 & H2 & H3 & H4). split; [exact H1|]. split; [apply sort_strict, H3; constructor|]. split; [|exact H2].
  intros d. split.
  - intros K. apply (Permutation_in _ (sort_down_perm _)) in K. apply H4 in K. destruct K as [[]|K]; exact K.
  - intros K. eapply Permutation_in; [symmetry; apply sort_down_perm|]. apply H4. right; exact K.
Qed.
Lemma depth_map_error fs e : generate_depth_map fs = Err e <-> e = ValueError /\ exists f, In f fs /\ 0 < pf_depth f.
Proof.
  unfold generate_depth_map. generalize (@nil (Qc * list pathface)) as m.
  induction fs as [|f fs IH]; intros m; cbn [group_by_depth].
  - cbn. split; [discriminate|]. intros (_ & f & [] & _).
  - destruct (qltb 0 (pf_depth f)) eqn:E.
    + cbn. apply qltb_lt in E. split; [intros H; injection H as <-; split; [reflexivity|exists f; split; [left; reflexivity|exact E]]|].
      intros (-> & _). reflexivity.
    + rewrite IH. split.
      * intros (-> & g & Hg & Kg). split; [reflexivity|]. exists g. split; [right; exact Hg|exact Kg].
      * intros (-> & g & [<-|Hg] & Kg); [apply qltb_lt in Kg; congruence|]. split; [reflexivity|eauto].
Qed.

(** The groups, taken together, are the faces. *)
Lemma groups_perm ds : NoDup ds -> forall fs, (forall f, In f fs -> In (pf_depth f) ds) ->
  Permutation (flat_map (fun d => filter (same_depth d) fs) ds) fs.
Proof.
  induction 1 as [|d ds HN ND IH]; intros fs H.
  - destruct fs as [|f fs]; [reflexivity|]. destruct (H f (or_introl eq_refl)).
  - cbn [flat_map].
    assert (E : flat_map (fun d0 => filter (same_depth d0) fs) ds = flat_map (fun d0 => filter (same_depth d0) (filter (fun f => negb (same_depth d f)) fs)) ds).
    { clear IH H. apply flat_map_ext_in. intros d0 Hd0. induction fs as [|f fs IH]; [reflexivity|]. cbn [filter]. destruct (same_depth d f) eqn:ED; cbn [negb].
      - apply same_depth_iff in ED. destruct (same_depth d0 f) eqn:E0; [apply same_depth_iff in E0; exfalso; apply HN; congruence|]. exact IH.
      - cbn [filter]. rewrite IH. reflexivity. }
    rewrite E, IH.
    + clear. induction fs as [|f fs IH]; [reflexivity|]. cbn [filter]. destruct (same_depth d f); cbn [negb].
      * cbn. constructor. exact IH.
      * rewrite <- Permutation_middle. constructor. exact IH.
    + intros f Hf. apply filter_In in Hf. destruct Hf as [Hf HD]. destruct (H f Hf) as [C|C]; [|exact C].
      exfalso. unfold same_depth in HD. rewrite <- C, qeqb_refl in HD. discriminate.
Qed.
Lemma strict_nodup ds : strictly_down ds -> NoDup ds.
Proof.
  induction ds as [|d ds IH]; intros H; [constructor|]. apply strictly_down_cons in H. destruct H as [H1 H2]. constructor; [|apply IH, H2].
  intros C. rewrite Forall_forall in H1. specialize (H1 d C). exact (Qclt_not_le _ _ H1 (Qcle_refl d)).
Qed.
Lemma depth_map_perm fs m ds : generate_depth_map fs = Ok (m, ds) -> Permutation (flat_map (dict_get m) ds) fs.
Proof.
  intros H. apply depth_map_spec in H. destruct H as (_ & HS & HI & HG).
  rewrite (flat_map_ext (dict_get m) (fun d => filter (same_depth d) fs)) by exact HG.
  apply groups_perm; [apply strict_nodup, HS|]. intros f Hf. apply HI. eauto.
Qed.

(** ** Levels *)
Lemma add_deeper_get subs : forall m d d', ~ In d subs ->
  dict_get (add_deeper m d subs) d' = if qeqb d d' then dict_get m d ++ flat_map (dict_get m) subs else dict_get m d'.
Proof.
  induction subs as [|s subs IH]; intros m d d' HN; cbn [add_deeper flat_map].
  - destruct (qeqb d d') eqn:E; [|reflexivity]. apply qeqb_eq in E. subst. rewrite app_nil_r. reflexivity.
  - assert (HN' : ~ In d subs) by (intros C; apply HN; right; exact C).
    rewrite IH by exact HN'. rewrite !dict_get_append, qeqb_refl. destruct (qeqb d d') eqn:E; [|reflexivity].
    rewrite <- app_assoc. f_equal. f_equal.
    apply flat_map_ext_in. intros x Hx. rewrite dict_get_append. destruct (qeqb d x) eqn:EX; [|reflexivity].
    apply qeqb_eq in EX. subst x. contradiction.
Qed.

(** One level, with the face lists spelled out. *)
Definition level' (E : engine) (here above : list pathface) (d : Qc) (fs : list pathface) : Prop :=
  exists u subjects t,
    en_union E (map pf_outer here) [] = Ok u /\
    Forall2 (fun n o => closes (contour n) o) u subjects /\
    en_difference E subjects (flat_map pf_inners here ++ map pf_outer above) = Ok t /\
    Forall2 (node_face d) t fs.

Lemma flatten_flat_map {A B} (f : A -> list B) l : flatten_list (map f l) = flat_map f l.
Proof. unfold flatten_list. symmetry. apply flat_map_concat_map. Qed.

Lemma build_levels_spec E am ads : forall ds m r, strictly_down ds -> build_levels E m am ads ds = Ok r ->
  exists rs, r = concat rs /\
    Forall2 (fun p fs => level' E (snd p) (flat_map (dict_get am) (filter (fun a => qleb (fst p) a) ads)) (fst p) fs)
      (map (fun k => (nth k ds 0, flat_map (dict_get m) (skipn k ds))) (seq 0 (length ds))) rs.
Proof.
  induction ds as [|d ds IH]; intros m r HS H; cbn [build_levels] in H.
  - injection H as <-. exists []. split; [reflexivity|constructor].
  - apply strictly_down_cons in HS. destruct HS as [HL HS].
    assert (HN : ~ In d ds). { intros C. rewrite Forall_forall in HL. exact (Qclt_not_le _ _ (HL d C) (Qcle_refl d)). }
    assert (EG : dict_get (add_deeper m d ds) d = flat_map (dict_get m) (d :: ds)) by (rewrite add_deeper_get by exact HN; rewrite qeqb_refl; reflexivity).
    rewrite EG in H.
    apply rbind_ok in H. destruct H as (ops & HO & H). apply rbind_ok in H. destruct H as (fs & HD & H). apply rbind_ok in H. destruct H as (rest & HR & H). injection H as <-.
    destruct (IH _ _ HS HR) as (rs & -> & HF). exists (fs :: rs). split; [reflexivity|].
    cbn [length seq map]. constructor.
    + cbn [fst snd nth skipn]. unfold combine_outers in HO. apply rbind_ok in HO. destruct HO as (uf & HU & HO). injection HO as <-.
      apply union_iff in HU. destruct HU as (u & EU & FU). apply difference_iff in HD. destruct HD as (t & ET & FT).
      exists u, (map pf_outer uf), t. split; [exact EU|]. split; [eapply node_faces_outer; exact FU|]. split; [|exact FT].
      rewrite flatten_flat_map in ET. destruct ads as [|a ads]; [cbn [filter flat_map map]; rewrite app_nil_r; exact ET|exact ET].
    + rewrite <- seq_shift, map_map. cbn [nth skipn].
      erewrite map_ext_in; [exact HF|]. intros k Hk. cbn. f_equal. apply flat_map_ext_in. intros x Hx. rewrite add_deeper_get by exact HN.
      destruct (qeqb d x) eqn:E1; [|reflexivity]. apply qeqb_eq in E1. subst x. exfalso. apply HN. clear - Hx. rewrite <- (firstn_skipn k ds). apply in_or_app. right; exact Hx.
Qed.

Lemma level_perm_filter ds fs : strictly_down ds -> (forall d, In d ds <-> exists f, In f fs /\ pf_depth f = d) ->
  forall k, (k < length ds)%nat ->
  Permutation (flat_map (fun d => filter (same_depth d) fs) (skipn k ds)) (filter (fun f => qleb (pf_depth f) (nth k ds 0)) fs).
Proof.
  intros HS HI k Hk.
  assert (E : flat_map (fun d => filter (same_depth d) fs) (skipn k ds) =
              flat_map (fun d => filter (same_depth d) (filter (fun f => qleb (pf_depth f) (nth k ds 0)) fs)) (skipn k ds)).
  { apply flat_map_ext_in. intros d Hd.
    assert (HD : d <= nth k ds 0).
    { clear - HS Hk Hd. revert ds HS Hk Hd. induction k as [|k IH]; intros [|x ds] HS Hk Hd; cbn in *; try lia.
      - destruct Hd as [->|Hd]; [apply Qcle_refl|]. apply strictly_down_cons in HS. destruct HS as [HS _]. rewrite Forall_forall in HS. apply Qclt_le_weak, HS, Hd.
      - apply IH; [apply strictly_down_cons in HS; apply HS|lia|exact Hd]. }
    clear - HD. induction fs as [|f fs IH]; [reflexivity|]. cbn [filter]. destruct (same_depth d f) eqn:E.
    - pose proof E as E'. apply same_depth_iff in E'. assert (L : qleb (pf_depth f) (nth k ds 0) = true) by (apply qleb_le; rewrite E'; exact HD). rewrite L. cbn [filter]. rewrite E. f_equal. exact IH.
    - destruct (qleb (pf_depth f) (nth k ds 0)); [|exact IH]. cbn [filter]. rewrite E. exact IH. }
  rewrite E. apply groups_perm.
  - apply strict_nodup in HS. rewrite <- (firstn_skipn k ds) in HS. clear - HS. induction (firstn k ds) as [|x l IH]; [exact HS|]. apply IH. inversion HS; assumption.
  - intros f Hf. apply filter_In in Hf. destruct Hf as [Hf HL]. apply qleb_le in HL.
    assert (HIn : In (pf_depth f) ds) by (apply HI; eauto).
    rewrite <- (firstn_skipn k ds) in HIn. apply in_app_or in HIn. destruct HIn as [C|C]; [|exact C]. exfalso.
    clear - HS Hk C HL. revert ds HS Hk C HL. induction k as [|k IH]; intros [|x ds] HS Hk C HL; cbn in *; try lia; try contradiction.
    destruct C as [C|C].
    + apply strictly_down_cons in HS. destruct HS as [HS _]. rewrite Forall_forall in HS. assert (In (nth k ds 0) ds) by (apply nth_In; lia).
      specialize (HS _ H). subst x. exact (Qclt_not_le _ _ HS HL).
    + apply strictly_down_cons in HS. eapply (IH ds); [apply HS|lia|exact C|exact HL].
Qed.

Lemma avoid_perm am ads avoids d : generate_depth_map avoids = Ok (am, ads) ->
  Permutation (flat_map (dict_get am) (filter (fun a => qleb d a) ads)) (filter (fun f => qleb d (pf_depth f)) avoids).
Proof.
  intros H. apply depth_map_spec in H. destruct H as (_ & HS & HI & HG).
  rewrite (flat_map_ext (dict_get am) (fun d => filter (same_depth d) avoids)) by exact HG.
  assert (E : flat_map (fun d0 => filter (same_depth d0) avoids) (filter (fun a => qleb d a) ads) =
              flat_map (fun d0 => filter (same_depth d0) (filter (fun f => qleb d (pf_depth f)) avoids)) (filter (fun a => qleb d a) ads)).
  { apply flat_map_ext_in. intros x Hx. apply filter_In in Hx. destruct Hx as [_ Hx].
    clear - Hx. induction avoids as [|f fs IH]; [reflexivity|]. cbn [filter]. destruct (same_depth x f) eqn:E.
    - pose proof E as E'. apply same_depth_iff in E'. rewrite E', Hx. cbn [filter]. rewrite E. f_equal. exact IH.
    - destruct (qleb d (pf_depth f)); [|exact IH]. cbn [filter]. rewrite E. exact IH. }
  rewrite E. apply groups_perm; [apply NoDup_filter, strict_nodup, HS|].
  intros f Hf. apply filter_In in Hf. destruct Hf as [Hf HL]. apply filter_In. split; [apply HI; eauto|exact HL].
Qed.

Lemma build_pocket_spec E ops avoids r : build_pocket_ops E ops avoids = Ok r ->
  exists ds rs, r = concat rs /\ Forall2 (level E ops avoids) ds rs /\ strictly_down ds /\
    (forall d, In d ds <-> exists f, In f ops /\ pf_depth f = d) /\
    Forall (fun f => pf_depth f <= 0) (ops ++ avoids).
Proof.
  unfold build_pocket_ops. intros H. apply rbind_ok in H. destruct H as ([m ds] & HM & H). apply rbind_ok in H. destruct H as ([am ads] & HA & H).
  pose proof (depth_map_spec _ _ _ HM) as (H1 & HS & HI & HG). pose proof (depth_map_spec _ _ _ HA) as (A1 & _).
  destruct (build_levels_spec _ _ _ _ _ _ HS H) as (rs & -> & HF). exists ds, rs. split; [reflexivity|].
  split; [|split; [exact HS|split; [exact HI|apply Forall_app; auto]]].
  assert (ED : ds = map (fun k => nth k ds 0) (seq 0 (length ds))).
  { clear. induction ds as [|d ds IH]; [reflexivity|]. cbn [length seq map nth]. f_equal. rewrite <- seq_shift, map_map. exact IH. }
  rewrite ED.
  assert (HP : forall k, In k (seq 0 (length ds)) -> (k < length ds)%nat) by (intros k Hk; apply in_seq in Hk; lia).
  clear H. revert rs HF HP. generalize (seq 0 (length ds)) as ks. intros ks. induction ks as [|k ks IH]; intros rs HF HP; inversion HF; subst; cbn [map]; constructor.
  - match goal with X : level' _ _ _ _ _ |- _ => destruct X as (u & subj & t & X1 & X2 & X3 & X4) end. cbn [fst snd] in *.
    exists (flat_map (dict_get m) (skipn k ds)), (flat_map (dict_get am) (filter (fun a => qleb (nth k ds 0) a) ads)), u, subj, t.
    split; [|split; [apply avoid_perm, HA|auto]].
    rewrite (flat_map_ext (dict_get m) (fun d => filter (same_depth d) ops)) by exact HG.
    apply level_perm_filter; [exact HS|exact HI|apply HP; left; reflexivity].
  - apply IH; [assumption|]. intros k' Hk'. apply HP. right; exact Hk'.
Qed.

(** ** Regions *)
Lemma steps_snoc p a : p <> [] -> steps (p ++ [a]) = steps p ++ [(last p a, a)].
Proof.
  induction p as [|x p IH]; intros H; [congruence|]. destruct p as [|y p]; [reflexivity|].
  change ((x :: y :: p) ++ [a]) with (x :: (y :: p) ++ [a]). cbn [steps app] in *. rewrite IH by discriminate. reflexivity.
Qed.
Lemma crosses_self q a : crosses q (a, a) = false.
Proof.
  destruct a as [x y], q as [u v]. cbn. destruct (qleb y v) eqn:E1; cbn [andb]; [|reflexivity].
  destruct (qltb v y) eqn:E2; [|reflexivity]. apply qleb_le in E1. apply qltb_lt in E2. exfalso. exact (Qclt_not_le _ _ E2 E1).
Qed.
Lemma inside_closes q p c : closes p c -> inside q c = inside q p.
Proof.
  intros [HC [->|(_ & a & l & -> & ->)]]; [reflexivity|]. unfold inside, ring. cbn [app].
  change (a :: (l ++ [a]) ++ [a]) with (((a :: l) ++ [a]) ++ [a]).
  rewrite (steps_snoc ((a :: l) ++ [a])) by discriminate. rewrite last_snoc. unfold count. rewrite filter_app, app_length. cbn [filter]. rewrite crosses_self. cbn. rewrite Nat.add_0_r. reflexivity.
Qed.

Lemma count_app {A} (f : A -> bool) l k : count f (l ++ k) = (count f l + count f k)%nat.
Proof. unfold count. rewrite filter_app, app_length. reflexivity. Qed.
Lemma count_perm {A} (f : A -> bool) l k : Permutation l k -> count f l = count f k.
Proof.
  induction 1 as [|x l k _ IH|x y l|l m k _ IH1 _ IH2]; [reflexivity| | |congruence].
  - unfold count in *. cbn. destruct (f x); cbn; congruence.
  - unfold count. cbn. destruct (f x), (f y); reflexivity.
Qed.
Lemma count_zero {A} (f : A -> bool) l : count f l = 0%nat <-> forall x, In x l -> f x = false.
Proof.
  unfold count. split.
  - intros H x Hx. destruct (f x) eqn:E; [|reflexivity]. apply length_zero_iff_nil in H. assert (In x (filter f l)) by (apply filter_In; auto). rewrite H in H0. destruct H0.
  - intros H. apply length_zero_iff_nil. induction l as [|x l IH]; [reflexivity|]. cbn. rewrite (H x (or_introl eq_refl)). apply IH. intros y Hy. apply H. right; exact Hy.
Qed.
Lemma count_pos {A} (f : A -> bool) l : (0 < count f l)%nat <-> exists x, In x l /\ f x = true.
Proof.
  split.
  - intros H. unfold count in H. destruct (filter f l) as [|x k] eqn:E; [cbn in H; lia|]. exists x. apply filter_In. rewrite E. left; reflexivity.
  - intros (x & Hx & E). destruct (count f l) eqn:C; [|lia]. rewrite (proj1 (count_zero f l) C x Hx) in E. discriminate.
Qed.
Lemma odd_small n : (n <= 1)%nat -> Nat.odd n = (0 <? n)%nat.
Proof. destruct n as [|[|n]]; [reflexivity|reflexivity|lia]. Qed.
Lemma inside_odd_exists q ps : (count (inside q) ps <= 1)%nat -> (inside_odd q ps = true <-> exists p, In p ps /\ inside q p = true).
Proof.
  intros H. unfold inside_odd. rewrite (odd_small _ H). rewrite Nat.ltb_lt. apply count_pos.
Qed.

Lemma count_closes q ns os : Forall2 (fun n o => closes (contour n) o) ns os ->
  count (inside q) os = count (fun n => inside q (contour n)) ns.
Proof.
  induction 1 as [|n o ns os H _ IH]; [reflexivity|]. unfold count in *. cbn. rewrite (inside_closes q _ _ H). destruct (inside q (contour n)); cbn; congruence.
Qed.

(** Contours of a tree of at most two levels containing [q]. *)
Lemma two_level_node q n : nested_at q n -> Forall (fun m => children m = []) (children n) ->
  count (inside q) (contours n) =
  if inside q (contour n) then S (count (fun m => inside q (contour m)) (children n)) else 0%nat.
Proof.
  destruct n as [c l]. cbn [contour children nested_at contours]. intros (H1 & _ & _) HF.
  assert (EL : count (inside q) (flat_map contours l) = count (fun m => inside q (contour m)) l).
  { induction HF as [|m l Hm _ IH]; [reflexivity|]. cbn [flat_map]. rewrite count_app. destruct m as [cm lm]. cbn in Hm. subst lm. cbn [contours flat_map].
    rewrite IH by (intros m' Hm'; apply H1; right; exact Hm'). unfold count. cbn. destruct (inside q cm); reflexivity. }
  unfold count at 1. cbn [filter]. destruct (inside q c) eqn:E.
  - cbn [length]. f_equal. exact EL.
  - change (length (filter (inside q) (flat_map contours l))) with (count (inside q) (flat_map contours l)). rewrite EL. apply count_zero. intros m Hm.
    destruct (inside q (contour m)) eqn:Em; [|reflexivity]. pose proof (H1 m Hm Em). congruence.
Qed.
Lemma nested_children q c l : nested_at q (PNode c l) -> (count (fun m => inside q (contour m)) l <= 1)%nat.
Proof. cbn. tauto. Qed.

(** Nothing below a contour not containing [q] contains it. *)
Lemma nested_zero q : forall n, nested_at q n -> inside q (contour n) = false -> count (inside q) (contours n) = 0%nat.
Proof.
  fix IH 1. intros [c l] (H1 & _ & HA) HC. cbn [contour] in HC. cbn [contours].
  assert (Z : count (inside q) (flat_map contours l) = 0%nat).
  { assert (HL : forall m, In m l -> inside q (contour m) = false).
    { intros m Hm. destruct (inside q (contour m)) eqn:Em; [|reflexivity]. pose proof (H1 m Hm Em). congruence. }
    clear H1 HC. revert HA HL. induction l as [|m l IHl]; intros HA HL; [reflexivity|]. cbn [flat_map]. rewrite count_app.
    rewrite IH; [|apply HA|apply HL; left; reflexivity]. apply IHl; [apply HA|]. intros m' Hm'. apply HL. right; exact Hm'. }
  unfold count in *. cbn [filter]. rewrite HC. exact Z.
Qed.

(** The faces of a two-level tree cover exactly its region. *)
Lemma machined_region q d t fs : tree_at q t -> two_levels t -> Forall2 (node_face d) t fs ->
  (machined q fs <-> inside_odd q (flat_map contours t) = true).
Proof.
  intros (HC & HN) HT HF. unfold machined, inside_odd.
  revert HC HN HT. induction HF as [|n f t fs (HD & HO & HI) HFt IH]; intros HC HN HT.
  - cbn. split; [intros (f & [] & _)|discriminate].
  - inversion HN as [|? ? Hn HN']; subst. inversion HT as [|? ? Hc HT']; subst. cbn [flat_map]. rewrite count_app.
    rewrite (two_level_node q n Hn Hc). unfold count in HC. cbn [filter] in HC.
    assert (HO' := inside_closes q _ _ HO).
    destruct (inside q (contour n)) eqn:E.
    + cbn [length] in HC. assert (HZ : count (fun m => inside q (contour m)) t = 0%nat) by (unfold count; lia).
      assert (HZ2 : count (inside q) (flat_map contours t) = 0%nat).
      { apply count_zero. intros p Hp. apply in_flat_map in Hp. destruct Hp as (m & Hm & Hp).
        rewrite Forall_forall in HN', HT'. pose proof (two_level_node q m (HN' m Hm) (HT' m Hm)) as K.
        rewrite (proj1 (count_zero _ _) HZ m Hm) in K. exact (proj1 (count_zero _ _) K p Hp). }
      rewrite HZ2, Nat.add_0_r.
      assert (HLe : (count (fun m => inside q (contour m)) (children n) <= 1)%nat) by (destruct n; apply nested_children in Hn; exact Hn).
      assert (HIn : count (inside q) (pf_inners f) = count (fun m => inside q (contour m)) (children n)) by (apply count_closes; exact HI).
      rewrite Nat.odd_succ. split.
      * intros (g & [<-|Hg] & (G1 & G2)).
        -- rewrite <- HIn, (proj2 (count_zero _ _) G2). reflexivity.
        -- exfalso. assert (HFO : count (inside q) (map pf_outer fs) = 0%nat).
           { rewrite (count_closes q t (map pf_outer fs)); [exact HZ|]. eapply node_faces_outer; exact HFt. }
           rewrite (proj1 (count_zero _ _) HFO _ (in_map pf_outer _ _ Hg)) in G1. discriminate.
      * intros HE. exists f. split; [left; reflexivity|]. split; [congruence|]. apply count_zero. rewrite HIn.
        revert HE HLe. generalize (count (fun m => inside q (contour m)) (children n)) as k. intros [|[|k]] HE HLe; [reflexivity|discriminate HE|lia].
    + cbn [length] in HC. cbn [Nat.add]. rewrite <- (IH HC HN' HT'). split.
      * intros (g & [<-|Hg] & (G1 & G2)); [congruence|]. exists g. split; [exact Hg|split; assumption].
      * intros (g & Hg & G). exists g. split; [right; exact Hg|exact G].
Qed.

(** A level removes what it should, at points where outlines and clips do not overlap. *)
Lemma level_region E q ops avoids d fs : right_at E q -> level E ops avoids d fs ->
  (forall ss t, en_union E ss [] = Ok t -> tree_at q t /\ forall n m, In n t -> In m (children n) -> inside q (contour m) = false) ->
  (forall ss cs t, en_difference E ss cs = Ok t -> tree_at q t /\ two_levels t) ->
  (count (inside q) (map pf_outer (filter (fun f => qleb (pf_depth f) d) ops)) <= 1)%nat ->
  (count (inside q) (flat_map pf_inners (filter (fun f => qleb (pf_depth f) d) ops) ++
                     map pf_outer (filter (fun f => qleb d (pf_depth f)) avoids)) <= 1)%nat ->
  (machined q fs <-> wanted q ops avoids d).
Proof.
  intros (RU & RD) (here & above & u & subj & t & PH & PA & EU & FU & ET & FT) HU HD CO CC.
  destruct (HD _ _ _ ET) as (TT & T2). rewrite (machined_region q d t fs TT T2 FT).
  rewrite (RD _ _ _ ET). rewrite andb_true_iff, negb_true_iff.
  assert (CH : count (inside q) (map pf_outer here) = count (inside q) (map pf_outer (filter (fun f => qleb (pf_depth f) d) ops)))
    by (apply count_perm, Permutation_map, PH).
  assert (PC : Permutation (flat_map pf_inners here ++ map pf_outer above)
     (flat_map pf_inners (filter (fun f => qleb (pf_depth f) d) ops) ++ map pf_outer (filter (fun f => qleb d (pf_depth f)) avoids))).
  { apply Permutation_app; [apply Permutation_flat_map, PH|apply Permutation_map, PA]. }
  assert (CS : inside_odd q subj = inside_odd q (map pf_outer here)).
  { destruct (HU _ _ EU) as ((HC & HN) & HH). pose proof (RU _ _ _ EU) as K. cbn [inside_odd count filter length Nat.odd orb] in K.
    rewrite orb_false_r in K. rewrite <- K. unfold inside_odd. rewrite (count_closes q u subj FU). f_equal.
    clear - HC HN HH. revert HC HH. induction HN as [|n u Hn _ IH]; intros HC HH; [reflexivity|]. cbn [flat_map]. rewrite count_app.
    rewrite <- IH; [|unfold count in *; cbn in HC; destruct (inside q (contour n)); cbn in HC; lia|intros n' m Hn' Hm; eapply HH; [right; exact Hn'|exact Hm]].
    assert (EN : count (inside q) (contours n) = if inside q (contour n) then 1%nat else 0%nat).
    { assert (Hch : forall m, In m (children n) -> inside q (contour m) = false) by (intros m Hm; eapply HH; [left; reflexivity|exact Hm]).
      clear - Hn Hch. destruct n as [c l]. cbn [contour children contours] in *.
      assert (Z : count (inside q) (flat_map contours l) = 0%nat).
      { destruct Hn as (_ & _ & Hall). revert Hch Hall. induction l as [|m l IH]; intros Hch Hall; [reflexivity|]. cbn [flat_map].
        rewrite count_app, (IH (fun m' Hm' => Hch m' (or_intror Hm')) (proj2 Hall)).
        rewrite Nat.add_0_r. apply nested_zero; [apply Hall|apply Hch; left; reflexivity]. }
      unfold count in *. cbn [filter]. destruct (inside q c); cbn [length]; rewrite Z; reflexivity. }
    rewrite EN. unfold count. cbn [filter]. destruct (inside q (contour n)); reflexivity. }
  rewrite CS. rewrite inside_odd_exists by (rewrite CH; exact CO).
  assert (CCl : count (inside q) (flat_map pf_inners here ++ map pf_outer above) = 0%nat <-> inside_odd q (flat_map pf_inners here ++ map pf_outer above) = false).
  { unfold inside_odd. assert ((count (inside q) (flat_map pf_inners here ++ map pf_outer above) <= 1)%nat) by (rewrite (count_perm _ _ _ PC); exact CC).
    destruct (count (inside q) (flat_map pf_inners here ++ map pf_outer above)) as [|[|k]]; [cbn; tauto|cbn; split; intros K; discriminate K|lia]. }
  rewrite <- CCl, count_zero. unfold wanted.
  assert (IH' : forall f, In f here <-> In f ops /\ pf_depth f <= d).
  { intros f. split.
    - intros H. apply (Permutation_in _ PH) in H. apply filter_In in H. rewrite qleb_le in H. exact H.
    - intros H. apply (Permutation_in _ (Permutation_sym PH)). apply filter_In. rewrite qleb_le. exact H. }
  assert (IA' : forall f, In f above <-> In f avoids /\ d <= pf_depth f).
  { intros f. split.
    - intros H. apply (Permutation_in _ PA) in H. apply filter_In in H. rewrite qleb_le in H. exact H.
    - intros H. apply (Permutation_in _ (Permutation_sym PA)). apply filter_In. rewrite qleb_le. exact H. }
  split.
  - intros ((p & Hp & Ip) & HC). apply in_map_iff in Hp. destruct Hp as (f & <- & Hf). apply IH' in Hf. split; [exists f; tauto|]. split.
    + intros g i Hg Hd Hi. apply HC, in_or_app. left. apply in_flat_map. exists g. split; [apply IH'; auto|exact Hi].
    + intros g Hg Hd. apply HC, in_or_app. right. apply in_map, IA'. auto.
  - intros ((f & Hf & Hd & If) & HI & HA). split.
    + exists (pf_outer f). split; [apply in_map, IH'; auto|exact If].
    + intros p Hp. apply in_app_or in Hp. destruct Hp as [Hp|Hp].
      * apply in_flat_map in Hp. destruct Hp as (g & Hg & Hp). apply IH' in Hg. eapply HI; [apply Hg|apply Hg|exact Hp].
      * apply in_map_iff in Hp. destruct Hp as (g & <- & Hg). apply IA' in Hg. apply HA; apply Hg.
Qed.

(** ** Stepping down *)
Lemma qmul_lt a b : 0 < a -> 0 < b -> 0 < a * b.
Proof. intros Ha Hb. qc2q. apply Qmult_lt_0_compat; lra. Qed.
Lemma steps_arith s z : forall n st,
  (forall k, (k < n)%nat -> z < st - s - qz (Z.of_nat k) * s) -> st - z <= (qz (Z.of_nat n) + 1) * s ->
  steps_by s st z (map (fun k => st - s + qz (Z.of_nat k) * (- s)) (seq 0 n)).
Proof.
  induction n as [|n IH]; intros st H1 H2.
  - cbn [seq map steps_by]. change (Z.of_nat 0) with 0%Z in H2. rewrite qz_0 in H2. qlra.
  - cbn [seq map steps_by]. change (Z.of_nat 0) with 0%Z. rewrite qz_0.
    assert (E0 : st - s + 0 * - s = st - s) by (apply Qc_is_canon; qc2q; lra). rewrite E0.
    split; [reflexivity|]. split.
    + specialize (H1 0%nat (Nat.lt_0_succ n)). change (Z.of_nat 0) with 0%Z in H1. rewrite qz_0 in H1. qlra.
    + rewrite <- seq_shift, map_map.
      assert (EM : map (fun k => st - s + qz (Z.of_nat (S k)) * - s) (seq 0 n) = map (fun k => (st - s) - s + qz (Z.of_nat k) * - s) (seq 0 n)).
      { apply map_ext. intros k. rewrite Nat2Z.inj_succ. unfold Z.succ. rewrite qz_plus, qz_1. apply Qc_is_canon. qc2q. lra. }
      rewrite EM. apply IH.
      * intros k Hk. specialize (H1 (S k) ltac:(lia)). rewrite Nat2Z.inj_succ in H1. unfold Z.succ in H1. rewrite qz_plus, qz_1 in H1. qc2q. lra.
      * rewrite Nat2Z.inj_succ in H2. unfold Z.succ in H2. rewrite qz_plus, qz_1 in H2. qc2q. lra.
Qed.

Lemma qceil_bounds x : x <= qz (qceil x) /\ qz (qceil x) < x + 1.
Proof.
  unfold qceil. pose proof (Qle_ceiling (this x)) as H1. pose proof (Qceiling_lt (this x)) as H2. split.
  - unfold Qcle. rewrite this_qz. exact H1.
  - assert (H3 : qz (Qceiling x - 1) < x) by (unfold Qclt; rewrite this_qz; exact H2).
    unfold Z.sub in H3. rewrite qz_plus in H3. change (-1)%Z with (Z.opp 1) in H3. rewrite qz_opp, qz_1 in H3. qlra.
Qed.

Lemma arange_down s st z : 0 < s -> steps_by s st z (arange (st - s) z (- s)).
Proof.
  intros Hs. unfold arange. set (x := (z - (st - s)) / - s).
  assert (Hx : x * s = st - s - z).
  { assert (N : - s <> 0) by (intros C; qlra). pose proof (qdiv_mul (z - (st - s)) (- s) N) as K. fold x in K. clearbody x. qlra. }
  destruct (qceil_bounds x) as [HC1 HC2]. set (n := Z.to_nat (qceil x)). 
  assert (Hn : (qceil x <= 0 /\ n = 0%nat)%Z \/ (0 < qceil x /\ Z.of_nat n = qceil x)%Z) by (unfold n; lia).
  clearbody x n. apply steps_arith.
  - intros k Hk. destruct Hn as [[_ ->]|[_ Hn]]; [lia|].
    assert (Hk2 : qz (Z.of_nat k) + 1 <= qz (qceil x)) by (rewrite <- qz_1, <- qz_plus; apply qz_le; lia).
    assert (Hk3 : qz (Z.of_nat k) < x) by qlra.
    assert (P : 0 < (x - qz (Z.of_nat k)) * s) by (apply qmul_lt; qlra). qlra.
  - assert (Hxn : x <= qz (Z.of_nat n)).
    { destruct Hn as [[Hn ->]|[_ Hn]]; [|rewrite Hn; exact HC1]. apply qz_le in Hn. rewrite qz_0 in Hn. change (Z.of_nat 0) with 0%Z. rewrite qz_0. qlra. }
    assert (P : 0 <= (qz (Z.of_nat n) - x) * s) by (apply qmul_pos; qlra). qlra.
Qed.
