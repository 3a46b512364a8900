(** * Proofs: levels and routing of pockets of faces (pocket_cq.py) *)
From Verif Require Import Base.Py Model.Geometry Model.Tree Model.Edges Model.Routers Model.PocketOp Spec.Paths Spec.Moves Spec.Wires Spec.Pockets Spec.PocketCq
  Proofs.GeomP Proofs.RouteP Proofs.RouteThmP Proofs.FillP Proofs.PocketP Proofs.FillWireP.
Import Model.Pocket.
From Coq Require Import Permutation Arith Lia.
Local Open Scope Qc_scope.
Local Open Scope list_scope.

Section Faces.
Context (F : face_kernel).
Notation face := (fk_face F).

Definition same_depth (d : Qc) (f : face) : bool := qeqb (fk_zmax F f) d.
Lemma same_depth_iff d f : same_depth d f = true <-> fk_zmax F f = d.
Proof. apply qeqb_eq. Qed.
Lemma fdict_get_append m d fs d' : fdict_get F (fdict_append F m d fs) d' = if qeqb d d' then fdict_get F m d ++ fs else fdict_get F m d'.
Proof.
  induction m as [|[k gs] m IH].
  - cbn. destruct (qeqb d d'); reflexivity.
  - cbn [fdict_append fdict_get]. destruct (qeqb k d) eqn:E.
    + apply qeqb_eq in E. subst k. cbn [fdict_get]. destruct (qeqb d d'); reflexivity.
    + cbn [fdict_get]. rewrite IH. destruct (qeqb k d') eqn:E2; [|reflexivity]. apply qeqb_eq in E2. subst k. rewrite qeqb_sym, E. reflexivity.
Qed.
Lemma dict_keys_append m d fs : map fst (fdict_append F m d fs) = if existsb (qeqb d) (map fst m) then map fst m else map fst m ++ [d].
Proof.
  induction m as [|[k gs] m IH]; [reflexivity|]. cbn [fdict_append map fst existsb]. rewrite (qeqb_sym d k). destruct (qeqb k d) eqn:E; [reflexivity|].
  cbn [map fst orb]. rewrite IH. destruct (existsb (qeqb d) (map fst m)); reflexivity.
Qed.
Lemma group_spec fs : forall m m', group_faces F fs m = Ok m' ->
  Forall (fun f => fk_zmax F f <= 0) fs /\
  (forall d, fdict_get F m' d = fdict_get F m d ++ filter (same_depth d) fs) /\
  (NoDup (map fst m) -> NoDup (map fst m')) /\
  (forall d, In d (map fst m') <-> In d (map fst m) \/ exists f, In f fs /\ fk_zmax F f = d).
Proof.
  induction fs as [|f fs IH]; intros m m' H; cbn [group_faces] in H.
  - injection H as <-. split; [constructor|]. split; [intros; cbn; rewrite app_nil_r; reflexivity|]. split; [auto|].
    intros d. split; [auto|]. intros [K|(f & [] & _)]. exact K.
  - destruct (qltb 0 (fk_zmax F f)) eqn:E; [discriminate|]. apply IH in H. destruct H as (H1 & H2 & H3 & H4).
    split; [|split; [|split]].
    + constructor; [|exact H1]. apply qltb_false in E || (destruct (Qclt_le_dec 0 (fk_zmax F f)) as [K|K]; [apply qltb_lt in K; congruence|exact K]). 
    + intros d. rewrite H2, fdict_get_append. cbn [filter]. destruct (same_depth d f) eqn:ED; unfold same_depth in ED; rewrite ED; [|reflexivity].
      apply qeqb_eq in ED. subst d. rewrite <- app_assoc. reflexivity.
    + intros ND. apply H3. rewrite dict_keys_append. destruct (existsb (qeqb (fk_zmax F f)) (map fst m)) eqn:EX; [exact ND|].
      apply Proofs.TreeP.nodup_app; [exact ND|constructor; [intros []|constructor]|]. intros x [<-|[]] C. apply existsb_qeqb in C. congruence.
    + intros d. rewrite H4, dict_keys_append. destruct (existsb (qeqb (fk_zmax F f)) (map fst m)) eqn:EX.
      * apply existsb_qeqb in EX. split; [intros [K|(g & Hg & Eg)]; [auto|right; exists g; split; [right; exact Hg|exact Eg]]|].
        intros [K|(g & [<-|Hg] & Eg)]; [auto|left; subst d; exact EX|right; eauto].
      * rewrite in_app_iff. split.
        -- intros [[K|[<-|[]]]|(g & Hg & Eg)]; [auto|right; exists f; split; [left; reflexivity|reflexivity]|right; exists g; split; [right; exact Hg|exact Eg]].
        -- intros [K|(g & [<-|Hg] & Eg)]; [auto|left; right; left; exact Eg|right; eauto].
Qed.
Lemma depth_map_spec fs m ds : face_depth_map F fs = Ok (m, ds) ->
  Forall (fun f => fk_zmax F f <= 0) fs /\ strictly_down ds /\
  (forall d, In d ds <-> exists f, In f fs /\ fk_zmax F f = d) /\
  (forall d, fdict_get F m d = filter (fun f => qeqb (fk_zmax F f) d) fs).
Proof.
  unfold face_depth_map. intros H. apply rbind_ok in H. destruct H as (m' & HG & H). injection H as <- <-.
  apply group_spec in HG. destruct HG as (H1 & H2 & H3 & H4). split; [exact H1|]. split; [apply sort_strict, H3; constructor|]. split; [|exact H2].
  intros d. split.
  - intros K. apply (Permutation_in _ (sort_down_perm _)) in K. apply H4 in K. destruct K as [[]|K]; exact K.
  - intros K. eapply Permutation_in; [symmetry; apply sort_down_perm|]. apply H4. right; exact K.
Qed.
Lemma depth_map_error fs e : face_depth_map F fs = Err e <-> e = ValueError /\ exists f, In f fs /\ 0 < fk_zmax F f.
Proof.
  unfold face_depth_map. generalize (@nil (Qc * list face)) as m.
  induction fs as [|f fs IH]; intros m; cbn [group_faces].
  - cbn. split; [discriminate|]. intros (_ & f & [] & _).
  - destruct (qltb 0 (fk_zmax F f)) eqn:E.
    + cbn. apply qltb_lt in E. split; [intros H; injection H as <-; split; [reflexivity|exists f; split; [left; reflexivity|exact E]]|].
      intros (-> & _). reflexivity.
    + rewrite IH. split.
      * intros (-> & g & Hg & Kg). split; [reflexivity|]. exists g. split; [right; exact Hg|exact Kg].
      * intros (-> & g & [<-|Hg] & Kg); [apply qltb_lt in Kg; congruence|]. split; [reflexivity|eauto].
Qed.
Lemma groups_perm ds : NoDup ds -> forall fs, (forall f, In f fs -> In (fk_zmax F f) ds) ->
  Permutation (flat_map (fun d => filter (same_depth d) fs) ds) fs.
Proof.
  induction 1 as [|d ds HN ND IH]; intros fs H.
  - destruct fs as [|f fs]; [reflexivity|]. destruct (H f (or_introl eq_refl)).
  - cbn [flat_map].
    assert (E : flat_map (fun d0 => filter (same_depth d0) fs) ds = flat_map (fun d0 => filter (same_depth d0) (filter (fun f => negb (same_depth d f)) fs)) ds).
    { clear IH H. apply flat_map_ext_in. intros d0 Hd0. induction fs as [|f fs IH]; [reflexivity|]. cbn [filter]. destruct (same_depth d f) eqn:ED; cbn [negb].
      - apply same_depth_iff in ED. destruct (same_depth d0 f) eqn:E0; [apply same_depth_iff in E0; exfalso; apply HN; congruence|]. exact IH.
      - cbn [filter]. rewrite IH. reflexivity. }
    rewrite E, IH.
    + clear. induction fs as [|f fs IH]; [reflexivity|]. cbn [filter]. destruct (same_depth d f); cbn [negb].
      * cbn. constructor. exact IH.
      * rewrite <- Permutation_middle. constructor. exact IH.
    + intros f Hf. apply filter_In in Hf. destruct Hf as [Hf HD]. destruct (H f Hf) as [C|C]; [|exact C].
      exfalso. unfold same_depth in HD. rewrite <- C, qeqb_refl in HD. discriminate.
Qed.
Lemma level_perm_filter ds fs : strictly_down ds -> (forall d, In d ds <-> exists f, In f fs /\ fk_zmax F f = d) ->
  forall k, (k < length ds)%nat ->
  Permutation (flat_map (fun d => filter (same_depth d) fs) (skipn k ds)) (filter (fun f => qleb (fk_zmax F f) (nth k ds 0)) fs).
Proof.
  intros HS HI k Hk.
  assert (E : flat_map (fun d => filter (same_depth d) fs) (skipn k ds) =
              flat_map (fun d => filter (same_depth d) (filter (fun f => qleb (fk_zmax F f) (nth k ds 0)) fs)) (skipn k ds)).
  { apply flat_map_ext_in. intros d Hd.
    assert (HD : d <= nth k ds 0).
    { clear - HS Hk Hd. revert ds HS Hk Hd. induction k as [|k IH]; intros [|x ds] HS Hk Hd; cbn in *; try lia.
      - destruct Hd as [->|Hd]; [apply Qcle_refl|]. apply strictly_down_cons in HS. destruct HS as [HS _]. rewrite Forall_forall in HS. apply Qclt_le_weak, HS, Hd.
      - apply IH; [apply strictly_down_cons in HS; apply HS|lia|exact Hd]. }
    clear - HD. induction fs as [|f fs IH]; [reflexivity|]. cbn [filter]. destruct (same_depth d f) eqn:E.
    - pose proof E as E'. apply same_depth_iff in E'. assert (L : qleb (fk_zmax F f) (nth k ds 0) = true) by (apply qleb_le; rewrite E'; exact HD). rewrite L. cbn [filter]. rewrite E. f_equal. exact IH.
    - destruct (qleb (fk_zmax F f) (nth k ds 0)); [|exact IH]. cbn [filter]. rewrite E. exact IH. }
  rewrite E. apply groups_perm.
  - apply strict_nodup in HS. rewrite <- (firstn_skipn k ds) in HS. clear - HS. induction (firstn k ds) as [|x l IH]; [exact HS|]. apply IH. inversion HS; assumption.
  - intros f Hf. apply filter_In in Hf. destruct Hf as [Hf HL]. apply qleb_le in HL.
    assert (HIn : In (fk_zmax F f) ds) by (apply HI; eauto).
    rewrite <- (firstn_skipn k ds) in HIn. apply in_app_or in HIn. destruct HIn as [C|C]; [|exact C]. exfalso.
    clear - HS Hk C HL. revert ds HS Hk C HL. induction k as [|k IH]; intros [|x ds] HS Hk C HL; cbn in *; try lia; try contradiction.
    destruct C as [C|C].
    + apply strictly_down_cons in HS. destruct HS as [HS _]. rewrite Forall_forall in HS. assert (In (nth k ds 0) ds) by (apply nth_In; lia).
      specialize (HS _ H). subst x. exact (Qclt_not_le _ _ HS HL).
    + apply strictly_down_cons in HS. eapply (IH ds); [apply HS|lia|exact C|exact HL].
Qed.

(** ** Levels *)
Lemma filter_same_moved top d s fs :
  moved_faces F top (d - s) (filter (same_depth s) fs) = map (moved_to F top d) (filter (same_depth s) fs).
Proof.
  unfold moved_faces. apply map_ext_in. intros f Hf. apply filter_In in Hf. destruct Hf as [_ Hf]. apply same_depth_iff in Hf.
  unfold moved_to. rewrite Hf. reflexivity.
Qed.
Lemma filter_same_raised top d s fs : s <> d ->
  moved_faces F top (d - s) (filter (same_depth s) fs) = map (raised_to F top d) (filter (same_depth s) fs).
Proof.
  intros NE. rewrite filter_same_moved. apply map_ext_in. intros f Hf. apply filter_In in Hf. destruct Hf as [_ Hf]. apply same_depth_iff in Hf.
  unfold raised_to. destruct (qeqb (fk_zmax F f) d) eqn:E; [|reflexivity]. apply qeqb_eq in E. congruence.
Qed.
Lemma filter_same_kept top d fs : filter (same_depth d) fs = map (raised_to F top d) (filter (same_depth d) fs).
Proof.
  rewrite <- (map_id (filter (same_depth d) fs)) at 1. apply map_ext_in. intros f Hf. apply filter_In in Hf. destruct Hf as [_ Hf].
  unfold raised_to. unfold same_depth in Hf. rewrite Hf. reflexivity.
Qed.

Lemma lift_deeper_get top subs : forall m d d', ~ In d subs ->
  fdict_get F (lift_deeper F top m d subs) d' =
  if qeqb d d' then fdict_get F m d ++ flat_map (fun s => moved_faces F top (d - s) (fdict_get F m s)) subs else fdict_get F m d'.
Proof.
  induction subs as [|s subs IH]; intros m d d' HN; cbn [lift_deeper flat_map].
  - destruct (qeqb d d') eqn:E; [|reflexivity]. apply qeqb_eq in E. subst. rewrite app_nil_r. reflexivity.
  - assert (HN' : ~ In d subs) by (intros C; apply HN; right; exact C).
    rewrite IH by exact HN'. rewrite !fdict_get_append, qeqb_refl. destruct (qeqb d d') eqn:E; [|reflexivity].
    rewrite <- app_assoc. f_equal. f_equal.
    apply flat_map_ext_in. intros x Hx. rewrite fdict_get_append. destruct (qeqb d x) eqn:EX; [|reflexivity].
    apply qeqb_eq in EX. subst x. contradiction.
Qed.

Definition level_of (top : plane) (here cutters : list face) (has_avoids : bool) (fs : list face) : Prop :=
  exists whole, fk_combine F here = Ok whole /\
    if has_avoids then exists parts, Forall2 (fun f l => fk_cut F f cutters = Ok l) whole parts /\ fs = concat parts else fs = whole.

Definition lifted (top : plane) (m : face_dict F) (ds : list Qc) : list face :=
  match ds with
  | [] => []
  | d :: subs => fdict_get F m d ++ flat_map (fun s => moved_faces F top (d - s) (fdict_get F m s)) subs
  end.
Lemma face_levels_spec top am ads : forall ds m r, strictly_down ds -> face_levels F top m am ads ds = Ok r ->
  exists rs, r = concat rs /\
    Forall2 (fun k fs => level_of top (lifted top m (skipn k ds))
        (flat_map (fun a => moved_faces F top (nth k ds 0 - a) (fdict_get F am a)) (filter (fun a => qleb (nth k ds 0) a) ads))
        (match ads with [] => false | _ => true end) fs)
      (seq 0 (length ds)) rs.
Proof.
  induction ds as [|d ds IH]; intros m r HS H; cbn [face_levels] in H.
  - injection H as <-. exists []. split; [reflexivity|constructor].
  - apply strictly_down_cons in HS. destruct HS as [HL HS].
    assert (HN : ~ In d ds). { intros C. rewrite Forall_forall in HL. exact (Qclt_not_le _ _ (HL d C) (Qcle_refl d)). }
    assert (EG : fdict_get F (lift_deeper F top m d ds) d = lifted top m (d :: ds)) by (rewrite lift_deeper_get by exact HN; rewrite qeqb_refl; reflexivity).
    rewrite EG in H.
    apply rbind_ok in H. destruct H as (whole & HO & H). apply rbind_ok in H. destruct H as (fs & HD & H). apply rbind_ok in H. destruct H as (rest & HR & H). injection H as <-.
    destruct (IH _ _ HS HR) as (rs & -> & HF). exists (fs :: rs). split; [reflexivity|].
    cbn [length seq]. constructor.
    + cbn [nth skipn]. exists whole. split; [exact HO|]. destruct ads as [|a ads]; [injection HD as <-; reflexivity|].
      apply rbind_ok in HD. destruct HD as (parts & HP & HD). injection HD as <-. exists parts. split; [|reflexivity].
      apply mapM_iff in HP. exact HP.
    + rewrite <- seq_shift. apply Forall2_map_l. eapply Forall2_iff; [|exact HF]. intros k x.
      cbn [nth skipn].
      replace (lifted top (lift_deeper F top m d ds) (skipn k ds)) with (lifted top m (skipn k ds)); [reflexivity|].
      assert (HX : forall x, In x (skipn k ds) -> In x ds) by (intros y Hy; rewrite <- (firstn_skipn k ds); apply in_or_app; right; exact Hy).
      destruct (skipn k ds) as [|e subs]; [reflexivity|]. unfold lifted.
      assert (HK : forall x, In x ds -> fdict_get F (lift_deeper F top m d ds) x = fdict_get F m x).
      { intros y Hy. rewrite lift_deeper_get by exact HN. destruct (qeqb d y) eqn:E1; [|reflexivity]. apply qeqb_eq in E1. subst y. contradiction. }
      rewrite (HK e) by (apply HX; left; reflexivity). f_equal. apply flat_map_ext_in. intros y Hy. rewrite HK; [reflexivity|]. apply HX. right; exact Hy.
Qed.

Lemma flat_map_map {A B C} (f : B -> C) (g : A -> list B) l : flat_map (fun x => map f (g x)) l = map f (flat_map g l).
Proof. induction l as [|x l IH]; [reflexivity|]. cbn. rewrite map_app, IH. reflexivity. Qed.

Lemma strictly_down_skipn k : forall ds, strictly_down ds -> strictly_down (skipn k ds).
Proof.
  induction k as [|k IH]; intros ds H; [exact H|]. destruct ds as [|d ds]; [exact I|]. cbn. apply IH. apply strictly_down_cons in H. apply H.
Qed.

Lemma lifted_perm top m ds fs : strictly_down ds -> (forall d, In d ds <-> exists f, In f fs /\ fk_zmax F f = d) ->
  (forall d, fdict_get F m d = filter (same_depth d) fs) ->
  forall k, (k < length ds)%nat ->
  Permutation (lifted top m (skipn k ds)) (map (raised_to F top (nth k ds 0)) (filter (fun f => qleb (fk_zmax F f) (nth k ds 0)) fs)).
Proof.
  intros HS HI HG k Hk. rewrite <- (level_perm_filter ds fs HS HI k Hk).
  pose proof (strictly_down_skipn k ds HS) as HK.
  assert (EN : nth k ds 0 = match skipn k ds with d :: _ => d | [] => 0 end).
  { clear - Hk. revert ds Hk. induction k as [|k IH]; intros [|d ds] Hk; cbn in *; try lia; [reflexivity|]. apply IH. lia. }
  rewrite EN. destruct (skipn k ds) as [|d subs]; [reflexivity|]. clear EN. apply strictly_down_cons in HK. destruct HK as [HK _].
  unfold lifted. rewrite HG. cbn [flat_map]. rewrite map_app, <- (filter_same_kept top d fs). apply Permutation_app_head.
  rewrite <- flat_map_map.
  rewrite (flat_map_ext_in _ (fun s => map (raised_to F top d) (filter (same_depth s) fs)) subs); [reflexivity|].
  intros s Hs. rewrite HG. apply filter_same_raised. rewrite Forall_forall in HK. intros ->. exact (Qclt_not_le _ _ (HK d Hs) (Qcle_refl d)).
Qed.

Lemma lowered_perm top am ads avoids d : face_depth_map F avoids = Ok (am, ads) ->
  Permutation (flat_map (fun a => moved_faces F top (d - a) (fdict_get F am a)) (filter (fun a => qleb d a) ads))
              (map (moved_to F top d) (filter (fun f => qleb d (fk_zmax F f)) avoids)).
Proof.
  intros H. apply depth_map_spec in H. destruct H as (_ & HS & HI & HG).
  rewrite (flat_map_ext_in _ (fun a => map (moved_to F top d) (filter (same_depth a) avoids)) (filter (fun a => qleb d a) ads))
    by (intros a _; rewrite HG; apply filter_same_moved).
  rewrite flat_map_map. apply Permutation_map.
  assert (E : flat_map (fun d0 => filter (same_depth d0) avoids) (filter (fun a => qleb d a) ads) =
              flat_map (fun d0 => filter (same_depth d0) (filter (fun f => qleb d (fk_zmax F f)) avoids)) (filter (fun a => qleb d a) ads)).
  { apply flat_map_ext_in. intros x Hx. apply filter_In in Hx. destruct Hx as [_ Hx].
    clear - Hx. induction avoids as [|f fs IH]; [reflexivity|]. cbn [filter]. destruct (same_depth x f) eqn:E.
    - pose proof E as E'. apply same_depth_iff in E'. rewrite E', Hx. cbn [filter]. rewrite E. f_equal. exact IH.
    - destruct (qleb d (fk_zmax F f)); [|exact IH]. cbn [filter]. rewrite E. exact IH. }
  rewrite E. apply groups_perm; [apply NoDup_filter, strict_nodup, HS|].
  intros f Hf. apply filter_In in Hf. destruct Hf as [Hf HL]. apply filter_In. split; [apply HI; eauto|exact HL].
Qed.

Lemma face_ops_spec top ops avoids r : build_face_ops F top ops avoids = Ok r -> cq_levels F top ops avoids r.
Proof.
  unfold build_face_ops. intros H. apply rbind_ok in H. destruct H as ([m ds] & HM & H). apply rbind_ok in H. destruct H as ([am ads] & HA & H).
  pose proof (depth_map_spec _ _ _ HM) as (H1 & HS & HI & HG). pose proof (depth_map_spec _ _ _ HA) as (A1 & _ & A3 & _).
  destruct (face_levels_spec _ _ _ _ _ _ HS H) as (rs & -> & HF). exists ds, rs. split; [reflexivity|].
  split; [|split; [exact HS|split; [exact HI|apply Forall_app; auto]]].
  assert (HAN : match ads with [] => avoids = [] | _ => avoids <> [] end).
  { destruct ads as [|a ads]; [destruct avoids as [|f fs]; [reflexivity|]|intros ->].
    - exfalso. apply (proj2 (A3 (fk_zmax F f))). exists f. split; [left|]; reflexivity.
    - destruct (proj1 (A3 a) (or_introl eq_refl)) as (f & [] & _). }
  assert (ED : ds = map (fun k => nth k ds 0) (seq 0 (length ds))).
  { clear. induction ds as [|d ds IH]; [reflexivity|]. cbn [length seq map nth]. f_equal. rewrite <- seq_shift, map_map. exact IH. }
  rewrite ED at 1. apply Forall2_map_l.
  assert (HP : forall k, In k (seq 0 (length ds)) -> (k < length ds)%nat) by (intros k Hk; apply in_seq in Hk; lia).
  clear H ED. revert rs HF HP. generalize (seq 0 (length ds)) as ks. intros ks. induction ks as [|k ks IH]; intros rs HF HP; inversion HF as [|k0 fs ks0 rs0 HL HF0]; subst; constructor.
  - destruct HL as (whole & L1 & L2).
    eexists _, _, whole. split; [apply (lifted_perm top m ds ops HS HI HG); apply HP; left; reflexivity|].
    split; [apply (lowered_perm top am ads avoids _ HA)|]. split; [exact L1|].
    destruct ads as [|a ads]; [left; auto|right; auto].
  - apply IH; [assumption|]. intros k' Hk'. apply HP. right; exact Hk'.
Qed.
End Faces.
