(** * Proofs: filling a face with wires (the loop of pocket_cq.py), as FillP for paths *)
From Verif Require Import Base.Py Model.Geometry Model.Edges Model.Tree Model.Routers Model.PocketOp Spec.Paths Spec.Trees Spec.Pockets Spec.PocketCq
  Proofs.GeomP Proofs.TreeP Proofs.FillP.
From Coq Require Import Permutation Arith Lia.
Local Open Scope Qc_scope.
Local Open Scope list_scope.

Definition new_wires (n : nat) (ws : list (list edge)) : list (nat * list edge) := combine (seq n (length ws)) ws.

Section Fill.
Context (next : list edge -> result (list (list edge))) (outline : list edge).
Let R (c : list edge) (l : list (list edge)) : Prop := next c = Ok l.

Lemma reached_fun a c c' : reached R outline a c -> reached R outline a c' -> c = c'.
Proof.
  intros H. revert c'. induction H as [|a c l k c1 H IH HN HK]; intros c' H'; inversion H'; subst; [reflexivity|].
  match goal with X : reached R outline a ?x |- _ => specialize (IH x X) end. subst. unfold R in *. congruence.
Qed.

Definition good_node (ad : list (list nat)) (t : tree (nat * list edge)) (i : nat) (n : node (nat * list edge)) : Prop :=
  fst (n_obj n) = i /\
  exists a, nth_error ad i = Some a /\ reached R outline a (snd (n_obj n)) /\
    match n_parent n with
    | None => a = []
    | Some p => exists k ap, nth_error ad p = Some ap /\ a = k :: ap
    end /\
    (n_locked n = true -> R (snd (n_obj n)) []) /\
    (~ is_leaf t i -> exists l, R (snd (n_obj n)) l /\ forall k, (k < length l)%nat -> In (k :: a) ad).

Record inv (t : tree (nat * list edge)) (ad : list (list nat)) : Prop := Inv {
  i_grown : grown t;
  i_len : length ad = length t;
  i_nodup : NoDup ad;
  i_node : forall i n, nth_error t i = Some n -> good_node ad t i n
}.


Lemma inv_init : inv (new_tree (O, outline)) [[]].
Proof.
  split; [constructor|reflexivity|constructor; [intros []|constructor]|].
  intros [|i] n E; [|destruct i; discriminate]. injection E as <-. unfold good_node. cbn.
  split; [reflexivity|]. exists []. split; [reflexivity|]. split; [constructor|].
  split; [reflexivity|]. split; [discriminate|]. intros HN. exfalso. apply HN. split; [cbn; lia|].
  intros [|k] (n & E & P); [injection E as <-; discriminate|destruct k; discriminate].
Qed.


Lemma inv_lock t ad i n : inv t ad -> nth_error t i = Some n -> R (snd (n_obj n)) [] -> inv (lock t i) ad.
Proof.
  intros [G L N HN] E HR. split; [constructor; exact G|rewrite lock_length; exact L|exact N|].
  intros k m Ek. rewrite lock_nth in Ek. destruct (nth_error t k) as [m'|] eqn:EK; [|discriminate]. injection Ek as <-.
  destruct (HN k m' EK) as (H1 & a & H4 & H5 & H6 & H7 & H8).
  assert (HL : ~ is_leaf (lock t i) k -> ~ is_leaf t k) by (intros C C'; apply C, is_leaf_lock, C').
  destruct (Nat.eqb_spec k i) as [->|NE].
  - assert (m' = n) by congruence. subst m'. split; [exact H1|]. exists a. cbn.
    split; [exact H4|]. split; [exact H5|]. split; [exact H6|]. split; [intros _; exact HR|]. intros C. apply H8, HL, C.
  - split; [exact H1|]. exists a.
    split; [exact H4|]. split; [exact H5|]. split; [exact H6|]. split; [exact H7|]. intros C. apply H8, HL, C.
Qed.

Lemma new_wires_nth n (outers : list (list edge)) k : nth_error (new_wires n outers) k =
  match nth_error outers k with Some o => Some ((n + k)%nat, o) | None => None end.
Proof.
  unfold new_wires. revert n k. induction outers as [|o outers IH]; intros n k.
  - cbn. destruct k; reflexivity.
  - destruct k as [|k]; cbn [length seq map combine nth_error].
    + rewrite Nat.add_0_r. reflexivity.
    + rewrite IH. destruct (nth_error outers k); [|reflexivity]. rewrite Nat.add_succ_comm. reflexivity.
Qed.
Lemma new_wires_length n outers : length (new_wires n outers) = length outers.
Proof. unfold new_wires. rewrite combine_length, seq_length. apply Nat.min_id. Qed.


Lemma inv_branch t ad i n a l : inv t ad -> nth_error t i = Some n -> nth_error ad i = Some a -> is_leaf t i -> n_locked n = false ->
  R (snd (n_obj n)) l -> l <> [] ->
  inv (branch t i (new_wires (length t) l)) (ad ++ map (fun k => k :: a) (seq 0 (length l))).
Proof.
  intros HI E EA HLf HU HR HNE. pose proof HI as [G L N HN]. pose proof (grown_wf t G) as W.
  assert (Hi : (i < length t)%nat) by (apply nth_error_Some; congruence).
  split.
  - constructor; assumption.
  - rewrite app_length, map_length, seq_length, branch_length, new_wires_length, L. reflexivity.
  - apply nodup_app; [exact N| |].
    + apply FinFun.Injective_map_NoDup; [intros x y H; injection H; auto|apply seq_NoDup].
    + intros x Hx HA. apply in_map_iff in Hx. destruct Hx as (k & <- & _).
      apply In_nth_error in HA. destruct HA as (j & Hj).
      assert (Hlt : (j < length t)%nat) by (rewrite <- L; apply nth_error_Some; congruence).
      apply nth_error_Some in Hlt. destruct (nth_error t j) as [m|] eqn:Ej; [|congruence].
      destruct (HN j m Ej) as (_ & a' & H4 & _ & H6 & _). assert (a' = k :: a) by congruence. subst a'.
      destruct (n_parent m) as [p|] eqn:EP; [|discriminate]. destruct H6 as (k' & ap & Hp & Heq). injection Heq as _ <-.
      assert (p = i). { eapply (proj1 (NoDup_nth_error ad) N); [apply nth_error_Some; congruence|congruence]. }
      subst p. destruct HLf as [_ HLf]. apply (HLf j). exists m. auto.
  - intros j m Ej. rewrite branch_nth in Ej. destruct (Nat.ltb_spec j (length t)) as [Hj|Hj].
    + destruct (HN j m Ej) as (H1 & a' & H4 & H5 & H6 & H7 & H8).
      split; [exact H1|]. exists a'.
      assert (Hap : forall x y, nth_error ad x = Some y -> nth_error (ad ++ map (fun k => k :: a) (seq 0 (length l))) x = Some y).
      { intros x y Hxy. rewrite nth_error_app1; [exact Hxy|]. apply nth_error_Some. congruence. }
      split; [apply Hap, H4|]. split; [exact H5|]. split.
      { destruct (n_parent m); [|exact H6]. destruct H6 as (k & ap & Hp & ->). exists k, ap. split; [apply Hap, Hp|reflexivity]. }
      split; [exact H7|]. intros HNL.
      destruct (Nat.eq_dec j i) as [->|NE].
      * assert (m = n) by congruence. subst m. assert (a' = a) by congruence. subst a'. exists l. split; [exact HR|].
        intros k Hk. apply in_or_app. right. apply in_map_iff. exists k. split; [reflexivity|]. apply in_seq. lia.
      * assert (HNL' : ~ is_leaf t j).
        { intros [C1 C2]. apply HNL. split; [rewrite branch_length; lia|]. intros k (b & Eb & Pb). rewrite branch_nth in Eb.
          destruct (Nat.ltb_spec k (length t)) as [Hk|Hk].
          - apply (C2 k). exists b; auto.
          - destruct (nth_error (new_wires (length t) l) (k - length t)); [|discriminate]. injection Eb as <-. cbn in Pb. congruence. }
        destruct (H8 HNL') as (l' & HR' & HA). exists l'. split; [exact HR'|]. intros k Hk. apply in_or_app. left. apply HA, Hk.
    + rewrite new_wires_nth in Ej. destruct (nth_error l (j - length t)) as [o|] eqn:Eo; [|discriminate]. injection Ej as <-.
      unfold good_node. cbn. split; [lia|].
      assert (Hk : (j - length t < length l)%nat) by (apply nth_error_Some; congruence).
      exists ((j - length t)%nat :: a). split; [|split; [|split; [|split]]].
      * rewrite nth_error_app2 by lia. rewrite L. rewrite nth_error_map.
        rewrite (nth_error_nth' _ 0%nat) by (rewrite seq_length; exact Hk). rewrite seq_nth by exact Hk. reflexivity.
      * destruct (HN i n E) as (_ & a' & H4 & H5 & _). assert (a' = a) by congruence. subst a'. econstructor; eassumption.
      * exists (j - length t)%nat, a. split; [rewrite nth_error_app1; [exact EA|apply nth_error_Some; congruence]|reflexivity].
      * discriminate.
      * intros HNL. exfalso. apply HNL. split; [rewrite branch_length, new_wires_length; lia|].
        intros k (b & Eb & Pb). rewrite branch_nth in Eb. destruct (Nat.ltb_spec k (length t)) as [Hk'|Hk'].
        -- assert (HP : is_parent t j k) by (exists b; auto). pose proof (wf_parent_lt _ _ _ W HP). lia.
        -- destruct (nth_error (new_wires (length t) l) (k - length t)); [|discriminate]. injection Eb as <-. cbn in Pb. assert (i = j) by congruence. lia.
Qed.


Lemma fill_loop_inv fuel : forall t ad t', inv t ad -> fill_wires next fuel t = Ok t' ->
  exists ad', inv t' ad' /\ next_unlocked t' = None.
Proof.
  induction fuel as [|fuel IH]; intros t ad t' HI H; [discriminate|]. cbn [fill_wires] in H.
  destruct (next_unlocked t) as [i|] eqn:EN; [|injection H as <-; exists ad; auto].
  apply next_unlocked_some in EN. destruct EN as (HL & n & E & HU).
  apply rbind_ok in H. destruct H as (o & EO & H). unfold obj_at in EO. rewrite E in EO. injection EO as <-.
  apply rbind_ok in H. destruct H as (l & HR & H).
  destruct l as [|l0 l].
  - eapply IH; [|exact H]. eapply inv_lock; eassumption.
  - destruct (i_node _ _ HI i n E) as (_ & a & HA & _).
    eapply IH; [|exact H]. eapply inv_branch; try eassumption. discriminate.
Qed.

Lemma complete_all t ad : inv t ad -> next_unlocked t = None ->
  forall a c, reached R outline a c -> In a ad.
Proof.
  intros HI HN. pose proof (grown_wf t (i_grown _ _ HI)) as ((n0 & E0 & P0) & _).
  induction 1 as [|a c l k c' H IH HR HK].
  - destruct (i_node _ _ HI 0%nat n0 E0) as (_ & a & HA & _ & H6 & _). rewrite P0 in H6. subst a. eapply nth_error_In; exact HA.
  - apply In_nth_error in IH. destruct IH as (i & Hi).
    assert (Hlt : (i < length t)%nat) by (rewrite <- (i_len _ _ HI); apply nth_error_Some; congruence).
    destruct (nth_error t i) as [n|] eqn:E; [|apply nth_error_None in E; lia].
    destruct (i_node _ _ HI i n E) as (_ & a' & HA & HRe & _ & H7 & H8). assert (a' = a) by congruence. subst a'.
    assert (c = snd (n_obj n)) by (eapply reached_fun; eassumption). subst c.
    destruct (in_dec Nat.eq_dec i (leaves t)) as [HL|HL].
    + apply leaves_spec in HL. specialize (H7 (next_unlocked_none t HN i n HL E)). unfold R in *. rewrite H7 in HR. injection HR as <-. destruct k; discriminate.
    + destruct (H8 (fun C => HL (proj2 (leaves_spec t i) C))) as (l' & HR' & HAll). unfold R in *. assert (l' = l) by congruence. subst l'.
      apply HAll. apply nth_error_Some. congruence.
Qed.

Lemma complete_total t ad : inv t ad -> next_unlocked t = None ->
  forall a c, reached R outline a c -> exists l, next c = Ok l.
Proof.
  intros HI HN a c H. pose proof (complete_all t ad HI HN a c H) as HA. apply In_nth_error in HA. destruct HA as (i & Hi).
  assert (Hlt : (i < length t)%nat) by (rewrite <- (i_len _ _ HI); apply nth_error_Some; congruence).
  destruct (nth_error t i) as [n|] eqn:E; [|apply nth_error_None in E; lia].
  destruct (i_node _ _ HI i n E) as (_ & a' & HA & HRe & _ & H7 & H8). assert (a' = a) by congruence. subst a'.
  rewrite (reached_fun _ _ _ H HRe).
  destruct (in_dec Nat.eq_dec i (leaves t)) as [HL|HL].
  - apply leaves_spec in HL. exists []. apply H7, (next_unlocked_none t HN i n HL E).
  - destruct (H8 (fun C => HL (proj2 (leaves_spec t i) C))) as (l' & HR' & _). exists l'. exact HR'.
Qed.


Lemma fill_spec fuel t' : fill_wires next fuel (new_tree (O, outline)) = Ok t' ->
  exists ss, sequences (fun a b => Nat.eqb (fst a) (fst b)) t' = Ok ss /\ wire_filling R outline (map (map snd) ss) /\
    (forall a c, reached R outline a c -> exists l, next c = Ok l).
Proof.
  intros H. destruct (fill_loop_inv _ _ _ _ inv_init H) as (ad & HI & HN). pose proof HI as [G L ND HG].
  assert (HE : forall a b : nat * list edge, In a (map n_obj t') -> In b (map n_obj t') -> (Nat.eqb (fst a) (fst b) = true <-> a = b)).
  { intros a b Ha Hb. rewrite Nat.eqb_eq. split; [|intros ->; reflexivity]. intros Hab.
    apply in_map_iff in Ha, Hb. destruct Ha as (na & <- & Ha), Hb as (nb & <- & Hb).
    apply In_nth_error in Ha, Hb. destruct Ha as (i & Ha), Hb as (k & Hb).
    destruct (HG _ _ Ha) as (Ia & _). destruct (HG _ _ Hb) as (Ib & _). assert (i = k) by congruence. subst k. congruence. }
  assert (HND : NoDup (map n_obj t')).
  { apply NoDup_nth_error. intros i k Hi Hik. rewrite map_length in Hi. rewrite !nth_error_map in Hik.
    apply nth_error_Some in Hi. destruct (nth_error t' i) as [n|] eqn:Ei; [|congruence].
    destruct (nth_error t' k) as [m|] eqn:Ek; [|discriminate]. cbn in Hik. injection Hik as Hik.
    destruct (HG _ _ Ei) as (Ia & _). destruct (HG _ _ Ek) as (Ib & _). congruence. }
  destruct (sequences_index _ t' G HE HND) as (f & idx & ES & Hf & HP & H1 & H2 & _ & _).
  eexists. split; [exact ES|]. split; [|exact (complete_total t' ad HI HN)].
  assert (HB : forall i, In i (concat idx) -> (i < length t')%nat).
  { intros i Hi. apply (Permutation_in _ HP) in Hi. apply in_seq in Hi. lia. }
  set (g := fun i => nth i ad []).
  assert (Hg : forall i, (i < length t')%nat -> nth_error ad i = Some (g i)) by (intros i Hi; apply nth_error_nth'; rewrite L; exact Hi).
  exists (map (map g) idx). split; [|split; [|split]].
  - rewrite map_map.
    assert (K : Forall2 (Forall2 (reached R outline)) (map (map g) idx)
       (map (fun x => map snd (map f x)) idx)).
    { apply Forall2_map_l, Forall2_refl_map, Forall_forall. intros s Hs. rewrite map_map. apply Forall2_map_l, Forall2_refl_map, Forall_forall. intros i Hi.
      assert (Hlt : (i < length t')%nat) by (apply HB, in_concat; eauto).
      destruct (Hf i Hlt) as (n & En & <-). destruct (HG i n En) as (_ & a & Ha & Hr & _).
      rewrite (Hg i Hlt) in Ha. injection Ha as ->. auto. }
    exact K.
  - rewrite concat_map_map || rewrite <- concat_map. assert (PP : Permutation (map g (concat idx)) ad).
    { rewrite HP. rewrite <- L. unfold g. clear. induction ad as [|a ad IH]; [reflexivity|]. cbn [length seq map]. constructor.
      rewrite <- seq_shift, map_map. exact IH. }
    eapply Permutation_NoDup; [symmetry; exact PP|exact ND].
  - intros a c Hr. rewrite <- concat_map. pose proof (complete_all t' ad HI HN a c Hr) as HIn.
    apply In_nth_error in HIn. destruct HIn as (i & Hi). apply in_map_iff. exists i.
    assert (Hlt : (i < length t')%nat) by (rewrite <- L; apply nth_error_Some; congruence).
    split; [rewrite (Hg i Hlt) in Hi; congruence|]. eapply Permutation_in; [symmetry; exact HP|]. apply in_seq. lia.
  - apply Forall_map. apply Forall_forall. intros s Hs. rewrite Forall_forall in H1. destruct (H1 s Hs) as (HU & i & rest & -> & HLf).
    assert (HBs : forall k, In k (i :: rest) -> (k < length t')%nat) by (intros k Hk; apply HB, in_concat; eauto).
    split.
    + clear - HU Hg HG HBs. revert HU HBs. generalize (i :: rest) as s. intros s. induction s as [|x s IH]; intros HU HBs; [exact I|].
      destruct s as [|y s]; [exact I|]. destruct HU as [HP HU]. cbn [map]. split.
      * destruct HP as (n & En & Pn). destruct (HG x n En) as (_ & a & Ha & _ & H6 & _). rewrite Pn in H6. destruct H6 as (k & ap & Hp & ->).
        exists k. rewrite (Hg x) in Ha by (apply HBs; left; reflexivity). rewrite (Hg y) in Hp by (apply HBs; right; left; reflexivity). congruence.
      * apply IH; [exact HU|]. intros k Hk. apply HBs. right; exact Hk.
    + exists (g i), (map g rest). split; [reflexivity|]. intros c Hr.
      assert (Hlt : (i < length t')%nat) by (apply HBs; left; reflexivity).
      destruct (nth_error t' i) as [n|] eqn:En; [|apply nth_error_None in En; lia].
      destruct (HG i n En) as (_ & a & Ha & Hr' & _ & H7 & _). rewrite (Hg i Hlt) in Ha. injection Ha as <-.
      rewrite (reached_fun _ _ _ Hr Hr'). apply H7. eapply next_unlocked_none; eassumption.
Qed.

(** ** Termination *)
Lemma fill_ends (B : list (list nat)) : (forall a c, reached R outline a c -> In a B) ->
  (forall a c, reached R outline a c -> exists l, next c = Ok l) ->
  forall fuel t ad done, inv t ad -> NoDup done ->
  (forall i, In i done -> exists n, nth_error t i = Some n /\ (n_locked n = true \/ ~ is_leaf t i)) ->
  (length B < fuel + length done)%nat -> exists t', fill_wires next fuel t = Ok t'.
Proof.
  intros HB HT. induction fuel as [|fuel IH]; intros t ad done HI HD HP HF.
  - exfalso. assert (H1 : (length done <= length (seq 0 (length t)))%nat).
    { apply NoDup_incl_length; [exact HD|]. intros i Hi. destruct (HP i Hi) as (n & En & _). apply in_seq. assert ((i < length t)%nat) by (apply nth_error_Some; congruence). lia. }
    rewrite seq_length in H1. assert (H2 : (length ad <= length B)%nat).
    { apply NoDup_incl_length; [apply (i_nodup _ _ HI)|]. intros a Ha. apply In_nth_error in Ha. destruct Ha as (i & Hi).
      assert (Hlt : (i < length t)%nat) by (rewrite <- (i_len _ _ HI); apply nth_error_Some; congruence).
      destruct (nth_error t i) as [n|] eqn:En; [|apply nth_error_None in En; lia].
      destruct (i_node _ _ HI i n En) as (_ & a' & Ha' & Hr & _). assert (a' = a) by congruence. subst a'. eapply HB; exact Hr. }
    rewrite (i_len _ _ HI) in H2. lia.
  - cbn [fill_wires]. destruct (next_unlocked t) as [i|] eqn:EN; [|eauto].
    apply next_unlocked_some in EN. destruct EN as (HL & n & E & HU). unfold obj_at. rewrite E. cbn [rbind].
    destruct (i_node _ _ HI i n E) as (_ & a & HA & Hr & _). destruct (HT _ _ Hr) as (l & HR). rewrite HR. cbn [rbind].
    assert (Hnew : ~ In i done). { intros C. destruct (HP i C) as (m & Em & [K|K]); [congruence|contradiction]. }
    destruct l as [|l0 l].
    + eapply (IH _ ad (i :: done)); [eapply inv_lock; eassumption|constructor; assumption| |cbn [length]; lia].
      intros k Hk. rewrite lock_nth. destruct (Nat.eqb_spec k i) as [->|NE].
      * rewrite E. eexists. split; [reflexivity|]. left; reflexivity.
      * destruct Hk as [->|Hk]; [congruence|]. destruct (HP k Hk) as (m & Em & K). rewrite Em. eexists. split; [reflexivity|].
        destruct K as [K|K]; [left; exact K|right]. intros C. apply K, (is_leaf_lock t i), C.
    + eapply (IH _ _ (i :: done)); [eapply inv_branch; try eassumption; discriminate|constructor; assumption| |cbn [length]; lia].
      intros k Hk.
      assert (Hpar : forall b, is_parent t k b -> is_parent (branch t i (new_wires (length t) (l0 :: l))) k b).
      { intros b (m & Em & Pm). exists m. split; [apply branch_old, Em|exact Pm]. }
      destruct Hk as [<-|Hk].
      * exists n. split; [apply branch_old, E|]. right. intros [_ C]. apply (C (length t)).
        exists (Node ((length t + 0)%nat, l0) (Some i) false). split; [|reflexivity]. rewrite branch_nth, Nat.ltb_irrefl, Nat.sub_diag. cbn. rewrite Nat.add_0_r. reflexivity.
      * destruct (HP k Hk) as (m & Em & K). exists m. split; [apply branch_old, Em|]. destruct K as [K|K]; [left; exact K|right].
        intros [_ C]. assert (Hlt : (k < length t)%nat) by (apply nth_error_Some; congruence).
        destruct (not_leaf_parent t k Hlt K) as (b & Hb). exact (C b (Hpar b Hb)).
Qed.
End Fill.
