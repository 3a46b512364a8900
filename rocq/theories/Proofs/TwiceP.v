(** Areas given more than once (C146). *)
From Verif Require Import Base.Str Base.Py Model.Geometry Model.Pocket Spec.Paths Spec.Moves Spec.Pockets Spec.Selected Proofs.GeomP Proofs.FillP
  Proofs.RouteEx Proofs.PocketP Proofs.PocketEx Proofs.ParityP.
Import Model.Pocket.
From Coq Require Import QArith Permutation Arith.
Local Open Scope Qc_scope.
Local Open Scope list_scope.

(** [l] given [k] times. *)
Lemma times_filter {A} (f : A -> bool) l k : filter f (concat (repeat l k)) = concat (repeat (filter f l) k).
Proof. induction k as [|k IH]; [reflexivity|]. cbn [repeat concat]. rewrite filter_app, IH. reflexivity. Qed.
Lemma times_map {A B} (f : A -> B) l k : map f (concat (repeat l k)) = concat (repeat (map f l) k).
Proof. induction k as [|k IH]; [reflexivity|]. cbn [repeat concat]. rewrite map_app, IH. reflexivity. Qed.
Lemma times_flat_map {A B} (f : A -> list B) l k : flat_map f (concat (repeat l k)) = concat (repeat (flat_map f l) k).
Proof. induction k as [|k IH]; [reflexivity|]. cbn [repeat concat]. rewrite flat_map_app, IH. reflexivity. Qed.
Lemma times_count {A} (f : A -> bool) l k : count f (concat (repeat l k)) = (k * count f l)%nat.
Proof. induction k as [|k IH]; [reflexivity|]. cbn [repeat concat]. rewrite count_app, IH. lia. Qed.

(** The faces at one depth are those of that level. *)
Lemma filter_all {A} (f : A -> bool) l : (forall x, In x l -> f x = true) -> filter f l = l.
Proof. induction l as [|x l IH]; intros H; [reflexivity|]. cbn [filter]. rewrite (H x (or_introl eq_refl)), IH; [reflexivity|]. intros y Hy. apply H. right; exact Hy. Qed.
Lemma filter_none {A} (f : A -> bool) l : (forall x, In x l -> f x = false) -> filter f l = [].
Proof. induction l as [|x l IH]; intros H; [reflexivity|]. cbn [filter]. rewrite (H x (or_introl eq_refl)). apply IH. intros y Hy. apply H. right; exact Hy. Qed.
Lemma level_depth E ops avoids d fs : level E ops avoids d fs -> forall f, In f fs -> pf_depth f = d.
Proof.
  intros (here & above & u & subj & t & _ & _ & _ & _ & _ & F) f Hf. clear - F Hf. induction F as [|n g t fs (D & _) _ IH]; [destruct Hf|].
  destruct Hf as [<-|Hf]; [exact D|exact (IH Hf)].
Qed.
Lemma at_depth_none E ops avoids d ds rs : Forall2 (level E ops avoids) ds rs -> ~ In d ds -> at_depth d (concat rs) = [].
Proof.
  induction 1 as [|d0 r0 ds rs L _ IH]; intros N; [reflexivity|]. unfold at_depth in *. cbn [concat]. rewrite filter_app, IH by (intros C; apply N; right; exact C).
  rewrite app_nil_r. apply filter_none. intros f Hf. rewrite (level_depth _ _ _ _ _ L f Hf). destruct (qeqb d0 d) eqn:X; [|reflexivity].
  apply qeqb_eq in X. exfalso. apply N. left. exact X.
Qed.
Lemma at_depth_level E ops avoids d : forall ds rs, Forall2 (level E ops avoids) ds rs -> NoDup ds -> In d ds -> level E ops avoids d (at_depth d (concat rs)).
Proof.
  induction 1 as [|d0 r0 ds rs L F IH]; intros N I; [destruct I|]. inversion N as [|? ? N1 N2]; subst. unfold at_depth in *. cbn [concat]. rewrite filter_app. destruct I as [->|I].
  - fold (at_depth d (concat rs)). rewrite (at_depth_none _ _ _ d _ _ F N1), app_nil_r, filter_all; [exact L|].
    intros f Hf. rewrite (level_depth _ _ _ _ _ L f Hf). apply qeqb_refl.
  - rewrite filter_none; [exact (IH N2 I)|]. intros f Hf. rewrite (level_depth _ _ _ _ _ L f Hf). destruct (qeqb d0 d) eqn:X; [|reflexivity].
    apply qeqb_eq in X. subst d0. contradiction.
Qed.
Lemma built_level E ops avoids r d : build_pocket_ops E ops avoids = Ok r ->
  ((exists f, In f ops /\ pf_depth f = d) /\ level E ops avoids d (at_depth d r)) \/ (~ (exists f, In f ops /\ pf_depth f = d) /\ at_depth d r = []).
Proof.
  intros H. apply build_pocket_spec in H. destruct H as (ds & rs & -> & F & S & I & _). destruct (in_dec Qc_eq_dec d ds) as [D|D]; [left|right].
  - split; [apply I, D|]. exact (at_depth_level _ _ _ _ _ _ F (strict_nodup _ S) D).
  - split; [rewrite <- I; exact D|exact (at_depth_none _ _ _ _ _ _ F D)].
Qed.

Section Engine.
Context (E : engine) (q : pt) (R : right_at E q)
  (HU : forall ss t, en_union E ss [] = Ok t -> tree_at q t /\ forall n m, In n t -> In m (children n) -> inside q (contour m) = false)
  (HD : forall ss cs t, en_difference E ss cs = Ok t -> tree_at q t /\ two_levels t).

Lemma parity_iff ops avoids d fs : level E ops avoids d fs ->
  (machined q fs <->
   Nat.odd (count (inside q) (map pf_outer (filter (fun f => qleb (pf_depth f) d) ops))) = true /\
   Nat.odd (count (inside q) (flat_map pf_inners (filter (fun f => qleb (pf_depth f) d) ops)) +
            count (inside q) (map pf_outer (filter (fun f => qleb d (pf_depth f)) avoids))) = false).
Proof.
  intros L. destruct (level_parity E q ops avoids d fs R L (fun ss t H => proj1 (HU ss t H)) HD _ _ eq_refl eq_refl) as (P1 & P2 & P3).
  specialize (P3 (fun ss t n m H => proj2 (HU ss t H) n m)).
  rewrite count_app in P1, P2. rewrite Nat.odd_spec. split.
  - intros M. split; [exact (P3 M)|]. rewrite <- Nat.negb_even. apply negb_false_iff, Nat.even_spec, P1, M.
  - intros (M1 & M2). apply (P2 M1). apply Nat.even_spec. rewrite <- Nat.negb_odd, M2. reflexivity.
Qed.

Lemma odd_times k n : Nat.odd (k * n) = Nat.odd k && Nat.odd n. Proof. apply Nat.odd_mul. Qed.

Ltac parity := rewrite ?filter_app, ?map_app, ?flat_map_app, ?count_app, ?times_filter, ?times_map, ?times_flat_map, ?times_count, ?Nat.odd_add, ?odd_times.

(** An odd number of times is as good as once. *)
Lemma odd_times_same k k' ops avoids more amore d fs fs' : Nat.Odd k -> Nat.Odd k' -> level E (ops ++ more) (avoids ++ amore) d fs ->
  level E (ops ++ concat (repeat more k)) (avoids ++ concat (repeat amore k')) d fs' -> (machined q fs' <-> machined q fs).
Proof.
  intros K K' L L'. apply Nat.odd_spec in K, K'. rewrite (parity_iff _ _ _ _ L), (parity_iff _ _ _ _ L').
  parity. rewrite K, K'. reflexivity.
Qed.
(** An even number of times: as though they were not given. *)
Lemma even_times_ungiven k k' ops avoids more amore d fs fs' : Nat.Even k -> Nat.Even k' -> level E ops avoids d fs ->
  level E (ops ++ concat (repeat more k)) (avoids ++ concat (repeat amore k')) d fs' -> (machined q fs' <-> machined q fs).
Proof.
  intros K K' L L'. apply Nat.even_spec in K, K'. rewrite (parity_iff _ _ _ _ L), (parity_iff _ _ _ _ L').
  parity. rewrite <- (Nat.negb_even k), <- (Nat.negb_even k'), K, K'. cbn [negb andb]. rewrite !xorb_false_r. reflexivity.
Qed.

(** Of the pockets themselves. *)
Lemma odd_times_built k k' ops avoids more amore r r' : Nat.Odd k -> Nat.Odd k' -> build_pocket_ops E (ops ++ more) (avoids ++ amore) = Ok r ->
  build_pocket_ops E (ops ++ concat (repeat more k)) (avoids ++ concat (repeat amore k')) = Ok r' ->
  forall d, machined q (at_depth d r') <-> machined q (at_depth d r).
Proof.
  intros K K' B B' d. assert (I : (exists f, In f (ops ++ more) /\ pf_depth f = d) <-> (exists f, In f (ops ++ concat (repeat more k)) /\ pf_depth f = d)).
  { assert (M : forall f, In f (concat (repeat more k)) <-> In f more).
    { intros f. destruct k as [|k]; [destruct K as (x & K); lia|]. clear. induction k as [|k IH]; cbn [repeat concat] in *; rewrite in_app_iff; [cbn; tauto|]. rewrite IH. tauto. }
    split; intros (f & Hf & D); exists f; rewrite in_app_iff in *; rewrite M in *; tauto. }
  destruct (built_level E _ _ r d B) as [(X & L)|(X & N)], (built_level E _ _ r' d B') as [(X' & L')|(X' & N')]; try (exfalso; tauto).
  - exact (odd_times_same k k' _ _ _ _ _ _ _ K K' L L').
  - rewrite N, N'. reflexivity.
Qed.
Lemma even_times_built k k' ops avoids more amore r r' : Nat.Even k -> Nat.Even k' -> build_pocket_ops E ops avoids = Ok r ->
  build_pocket_ops E (ops ++ concat (repeat more k)) (avoids ++ concat (repeat amore k')) = Ok r' ->
  forall f, In f ops -> (machined q (at_depth (pf_depth f) r') <-> machined q (at_depth (pf_depth f) r)).
Proof.
  intros K K' B B' f Hf. destruct (built_level E _ _ r (pf_depth f) B) as [(X & L)|(X & N)]; [|exfalso; apply X; eauto].
  destruct (built_level E _ _ r' (pf_depth f) B') as [(X' & L')|(X' & N')]; [|exfalso; apply X'; exists f; split; [apply in_or_app; left; exact Hf|reflexivity]].
  exact (even_times_ungiven k k' _ _ _ _ _ _ _ K K' L L').
Qed.
End Engine.

(** ** Two square areas, one of them given twice, and a square to avoid, given twice *)
Definition twice_area : pathface := PF (rect 0 0 4 4) [] (qz (-1)).
Definition other_area : pathface := PF (rect 5 0 9 4) [] (qz (-1)).
Definition twice_avoid : pathface := PF (rect 6 1 8 3) [] 0.
Definition both_trees : list polynode := [PNode (rect 0 0 4 4) []; PNode (rect 5 0 9 4) []].
Definition twice_engine : engine :=
  table_engine
    [([rect 5 0 9 4], [], [PNode (rect 5 0 9 4) []]);
     ([rect 5 0 9 4; rect 0 0 4 4], [], both_trees);
     ([rect 5 0 9 4; rect 0 0 4 4; rect 0 0 4 4], [], [PNode (rect 5 0 9 4) []]);
     ([rect 5 0 9 4; rect 0 0 4 4; rect 0 0 4 4; rect 0 0 4 4], [], both_trees)]
    [([rect 5 0 9 4], [], [PNode (rect 5 0 9 4) []]);
     ([rect 0 0 4 4; rect 5 0 9 4], [], both_trees);
     ([rect 5 0 9 4], [rect 6 1 8 3], [PNode (rect 5 0 9 4) [PNode (rect 6 1 8 3) []]]);
     ([rect 5 0 9 4], [rect 6 1 8 3; rect 6 1 8 3], [PNode (rect 5 0 9 4) []])].
Lemma twice_right q : right_at twice_engine q.
Proof. apply table_right; unfold both_trees; (repeat apply Forall_cons; [..|apply Forall_nil]); boxes q. Qed.

Lemma area_twice : exists E f g q r r', (forall q', right_at E q') /\ inside q (pf_outer f) = true /\
  build_pocket_ops E [g; f] [] = Ok r /\ machined q r /\ build_pocket_ops E [g; f; f] [] = Ok r' /\ ~ machined q r'.
Proof.
  exists twice_engine, twice_area, other_area, (zp 3 3). eexists _, _. split; [exact twice_right|]. split; [vm_compute; reflexivity|].
  split; [vm_compute; reflexivity|]. split; [apply machinedb_iff; vm_compute; reflexivity|].
  split; [vm_compute; reflexivity|apply machinedb_not; vm_compute; reflexivity].
Qed.
Lemma avoid_twice : exists E f a q r r', (forall q', right_at E q') /\ inside q (pf_outer a) = true /\ pf_depth f <= pf_depth a /\
  build_pocket_ops E [f] [a] = Ok r /\ ~ machined q r /\ build_pocket_ops E [f] [a; a] = Ok r' /\ machined q r'.
Proof.
  exists twice_engine, other_area, twice_avoid, (zp 7 2). eexists _, _. split; [exact twice_right|].
  split; [vm_compute; reflexivity|]. split; [apply qleb_le; vm_compute; reflexivity|].
  split; [vm_compute; reflexivity|]. split; [apply machinedb_not; vm_compute; reflexivity|].
  split; [vm_compute; reflexivity|apply machinedb_iff; vm_compute; reflexivity].
Qed.
(** Three times is as good as once. *)
Lemma area_thrice : exists r, build_pocket_ops twice_engine [other_area; twice_area] [] = Ok r /\
  build_pocket_ops twice_engine [other_area; twice_area; twice_area; twice_area] [] = Ok r /\ machinedb (zp 3 3) r = true.
Proof. eexists. split; [vm_compute; reflexivity|]. split; vm_compute; reflexivity. Qed.

(** The hypotheses of the theorems are met by this engine, at every point. *)
Lemma twice_trees q :
  (forall ss t, en_union twice_engine ss [] = Ok t -> tree_at q t /\ forall n m, In n t -> In m (children n) -> inside q (contour m) = false) /\
  (forall ss cs t, en_difference twice_engine ss cs = Ok t -> tree_at q t /\ two_levels t).
Proof.
  assert (T0 : tree_at q [PNode (rect 5 0 9 4) []]).
  { split; [unfold count; cbn [filter contour]; destruct (inside q _); cbn [length]; lia|]. repeat constructor; cbn; intros m []. }
  assert (T2 : tree_at q both_trees).
  { split; [|repeat constructor; cbn; intros m []]. unfold count, both_trees. cbn [filter contour]. rewrite !inside_rect by reflexivity.
    destruct (in_box 0 0 4 4 q) eqn:B1, (in_box 5 0 9 4 q) eqn:B2; cbn [length]; try lia. exfalso.
    unfold in_box in B1, B2. rewrite !andb_true_iff, !qleb_le, !qltb_lt in B1, B2. destruct B1 as (_ & B1), B2 as ((_ & B2) & _).
    refine (Qclt_not_le _ _ B1 (Qcle_trans _ _ _ _ B2)). apply qz_le. lia. }
  assert (T1 : tree_at q [PNode (rect 5 0 9 4) [PNode (rect 6 1 8 3) []]]).
  { split; [unfold count; cbn [filter contour]; destruct (inside q _); cbn [length]; lia|].
    constructor; [|constructor]. cbn [nested_at]. split; [|split].
    - intros m [<-|[]]. cbn [contour]. rewrite !inside_rect by reflexivity. unfold in_box. rewrite !andb_true_iff, !qleb_le, !qltb_lt.
      intros (((B1 & B2) & B3) & B4).
      assert (P1 : qz 5 <= qz 6) by (apply qz_le; lia). assert (P2 : qz 8 < qz 9) by (apply qz_lt; lia).
      assert (P3 : qz 0 <= qz 1) by (apply qz_le; lia). assert (P4 : qz 3 < qz 4) by (apply qz_lt; lia).
      repeat split; solve [eapply Qcle_trans; eassumption|eapply Qclt_trans; eassumption].
    - unfold count. cbn [filter contour]. destruct (inside q _); cbn [length]; lia.
    - cbn. repeat split; auto with arith; try (intros m []). }
  split.
  - intros ss t H. apply lookup_in in H. cbn [In] in H.
    destruct H as [H|[H|[H|[H|[]]]]]; injection H as <- <-; (split; [assumption|]); intros n m Hn Hm;
      repeat (destruct Hn as [<-|Hn]; [destruct Hm|]); destruct Hn.
  - intros ss cs t H. apply lookup_in in H. cbn [In] in H.
    destruct H as [H|[H|[H|[H|[]]]]]; injection H as <- <- <-; (split; [assumption|repeat constructor]).
Qed.
