(** Exactly which points a level of a pocket removes (C35), with overlapping outlines and clips. *)
From Verif Require Import Base.Str Base.Py Model.Geometry Model.Pocket Spec.Paths Spec.Moves Spec.Pockets Proofs.GeomP Proofs.FillP
  Proofs.PocketP Proofs.PocketEx.
Import Model.Pocket.
From Coq Require Import QArith Permutation.
Local Open Scope Qc_scope.
Local Open Scope list_scope.

Lemma odd_contours_top q t : tree_at q t -> inside_odd q (flat_map contours t) = true ->
  count (fun n => inside q (contour n)) t = 1%nat.
Proof.
  intros (HC & HN) H. destruct (count (fun n => inside q (contour n)) t) as [|[|k]] eqn:E; [|reflexivity|lia].
  exfalso. assert (Z : count (inside q) (flat_map contours t) = 0%nat).
  { apply count_zero. intros p Hp. apply in_flat_map in Hp. destruct Hp as (n & Hn & Hp).
    rewrite Forall_forall in HN. exact (proj1 (count_zero _ _) (nested_zero q n (HN n Hn) (proj1 (count_zero _ _) E n Hn)) p Hp). }
  unfold inside_odd in H. rewrite Z in H. discriminate.
Qed.
Lemma flat_contours q t : tree_at q t -> (forall n m, In n t -> In m (children n) -> inside q (contour m) = false) ->
  count (inside q) (flat_map contours t) = count (fun n => inside q (contour n)) t.
Proof.
  intros (_ & HN) HH. induction t as [|n t IH]; [reflexivity|]. inversion HN as [|? ? Hn HN']; subst. cbn [flat_map]. rewrite count_app.
  rewrite (IH HN') by (intros n' m' Hn' Hm'; eapply HH; [right; exact Hn'|exact Hm']).
  assert (K : count (inside q) (contours n) = if inside q (contour n) then 1%nat else 0%nat).
  { destruct n as [c l]. cbn [contour contours]. unfold count. cbn [filter].
    assert (Z : count (inside q) (flat_map contours l) = 0%nat).
    { apply count_zero. intros p Hp. apply in_flat_map in Hp. destruct Hp as (m & Hm & Hp).
      assert (NM : nested_at q m).
      { destruct Hn as (_ & _ & HA). clear - HA Hm. induction l as [|a l IH]; [destruct Hm|]. destruct HA as (H1 & H2), Hm as [<-|Hm]; [exact H1|exact (IH H2 Hm)]. }
      exact (proj1 (count_zero _ _) (nested_zero q m NM (HH _ m (or_introl eq_refl) Hm)) p Hp). }
    unfold count in Z. destruct (inside q c); cbn [length]; rewrite Z; reflexivity. }
  rewrite K. unfold count. cbn [filter]. destruct (inside q (contour n)); reflexivity.
Qed.

(** ** C35 *)
Lemma level_parity E q ops avoids d fs : right_at E q -> level E ops avoids d fs ->
  (forall ss t, en_union E ss [] = Ok t -> tree_at q t) ->
  (forall ss cs t, en_difference E ss cs = Ok t -> tree_at q t /\ two_levels t) ->
  forall outlines clips,
  outlines = count (inside q) (map pf_outer (filter (fun f => qleb (pf_depth f) d) ops)) ->
  clips = count (inside q) (flat_map pf_inners (filter (fun f => qleb (pf_depth f) d) ops) ++
                            map pf_outer (filter (fun f => qleb d (pf_depth f)) avoids)) ->
  (machined q fs -> Nat.Even clips) /\
  (Nat.Odd outlines -> Nat.Even clips -> machined q fs) /\
  ((forall ss t n m, en_union E ss [] = Ok t -> In n t -> In m (children n) -> inside q (contour m) = false) ->
   machined q fs -> Nat.Odd outlines).
Proof.
  intros (RU & RD) (here & above & u & subj & t & PH & PA & EU & FU & ET & FT) HU HD outlines clips EO EC.
  destruct (HD _ _ _ ET) as (TT & T2). pose proof (machined_region q d t fs TT T2 FT) as MR.
  rewrite (RD _ _ _ ET), andb_true_iff, negb_true_iff in MR.
  assert (CH : count (inside q) (map pf_outer here) = outlines)
    by (rewrite EO; apply count_perm, Permutation_map, PH).
  assert (CC : count (inside q) (flat_map pf_inners here ++ map pf_outer above) = clips).
  { rewrite EC. apply count_perm, Permutation_app; [apply Permutation_flat_map, PH|apply Permutation_map, PA]. }
  assert (K : inside_odd q (flat_map contours u) = Nat.odd outlines).
  { rewrite (RU _ _ _ EU). unfold inside_odd. rewrite CH. cbn [count filter length Nat.odd orb]. apply orb_false_r. }
  assert (S : inside_odd q subj = Nat.odd (count (fun n => inside q (contour n)) u)) by (unfold inside_odd; rewrite (count_closes q u subj FU); reflexivity).
  unfold inside_odd at 2 in MR. rewrite CC, <- Nat.negb_even, negb_false_iff, Nat.even_spec in MR. rewrite S in MR.
  split; [intros H; apply MR; exact H|]. split.
  - intros HO HE. apply MR. split; [|exact HE]. rewrite (odd_contours_top q u (HU _ _ EU)); [reflexivity|]. rewrite K. apply Nat.odd_spec. exact HO.
  - intros HH HM. apply Nat.odd_spec. rewrite <- K. unfold inside_odd. rewrite (flat_contours q u (HU _ _ EU)); [apply MR; exact HM|].
    intros n m. apply (HH _ _ n m EU).
Qed.

(** At the overlap of two outlines. *)
Lemma rect_closes a b c d : closes (rect a b c d) (rect a b c d).
Proof. split; [|left; reflexivity]. eexists _, _. split; reflexivity. Qed.
Definition overlap_point : pt := (qq 3 2, qq 1 2).
Lemma overlap_parity : exists r, build_pocket_ops overlap_engine overlap_ops [] = Ok r /\
  right_at overlap_engine overlap_point /\ level overlap_engine overlap_ops [] (qz (-1)) r /\
  (forall ss t, en_union overlap_engine ss [] = Ok t -> tree_at overlap_point t) /\
  (forall ss cs t, en_difference overlap_engine ss cs = Ok t -> tree_at overlap_point t /\ two_levels t) /\
  (forall ss t n m, en_union overlap_engine ss [] = Ok t -> In n t -> In m (children n) -> inside overlap_point (contour m) = false) /\
  count (inside overlap_point) (map pf_outer (filter (fun f => qleb (pf_depth f) (qz (-1))) overlap_ops)) = 2%nat.
Proof.
  assert (TA : tree_at overlap_point [PNode (rect 0 0 1 1) []; PNode (rect 2 0 3 1) []]).
  { split; [vm_compute; lia|]. repeat constructor; cbn; intros m []. }
  eexists. split; [vm_compute; reflexivity|]. split; [apply overlap_right|]. split.
  { exists overlap_ops, [], [PNode (rect 0 0 1 1) []; PNode (rect 2 0 3 1) []], [rect 0 0 1 1; rect 2 0 3 1], [PNode (rect 0 0 1 1) []; PNode (rect 2 0 3 1) []].
    split; [vm_compute; apply Permutation_refl|]. split; [apply Permutation_refl|]. split; [vm_compute; reflexivity|]. split.
    - constructor; [apply rect_closes|]. constructor; [apply rect_closes|constructor].
    - split; [vm_compute; reflexivity|].
      constructor; [split; [reflexivity|split; [apply rect_closes|constructor]]|].
      constructor; [split; [reflexivity|split; [apply rect_closes|constructor]]|constructor]. }
  split. { intros ss t H. apply lookup_in in H. destruct H as [H|[]]. injection H as <- <-. exact TA. }
  split. { intros ss cs t H. apply lookup_in in H. destruct H as [H|[]]. injection H as <- <- <-. split; [exact TA|]. repeat constructor. }
  split; [|vm_compute; reflexivity].
  intros ss t n m H Hn Hm. apply lookup_in in H. destruct H as [H|[]]. injection H as <- <-. destruct Hn as [<-|[<-|[]]]; destruct Hm.
Qed.
