(** The order in which areas are selected (C147). *)
From Verif Require Import Base.Str Base.Py Model.Geometry Model.Tree Model.Pocket Spec.Paths Spec.Moves Spec.Contours Spec.Pockets Spec.Selected
  Proofs.GeomP Proofs.FillP Proofs.RouteEx Proofs.PocketP Proofs.PocketEx Proofs.ParityP Proofs.TwiceP.
Import Model.Pocket.
From Coq Require Import QArith Permutation Arith.
Local Open Scope Qc_scope.
Local Open Scope list_scope.

Lemma strict_same : forall l l', strictly_down l -> strictly_down l' -> (forall d, In d l <-> In d l') -> l = l'.
Proof.
  induction l as [|a l IH]; intros [|b l'] S S' H.
  - reflexivity.
  - destruct (proj2 (H b) (or_introl eq_refl)).
  - destruct (proj1 (H a) (or_introl eq_refl)).
  - apply strictly_down_cons in S, S'. destruct S as [F S], S' as [F' S']. rewrite Forall_forall in F, F'.
    assert (a = b).
    { destruct (proj1 (H a) (or_introl eq_refl)) as [K|K]; [symmetry; exact K|]. destruct (proj2 (H b) (or_introl eq_refl)) as [L|L]; [exact L|].
      exfalso. exact (Qclt_not_le _ _ (F' a K) (Qclt_le_weak _ _ (F b L))). }
    subst b. f_equal. apply IH; [exact S|exact S'|]. intros d. split; intros K.
    + destruct (proj1 (H d) (or_intror K)) as [L|L]; [|exact L]. subst d. exfalso. exact (Qclt_not_le _ _ (F a K) (Qcle_refl a)).
    + destruct (proj2 (H d) (or_intror K)) as [L|L]; [|exact L]. subst d. exfalso. exact (Qclt_not_le _ _ (F' a K) (Qcle_refl a)).
Qed.
Lemma filter_perm {A} (f : A -> bool) l l' : Permutation l l' -> Permutation (filter f l) (filter f l').
Proof.
  induction 1 as [|x l l' P IH|x y l|l l1 l2 P1 IH1 P2 IH2]; cbn [filter].
  - constructor.
  - destruct (f x); [constructor; exact IH|exact IH].
  - destruct (f x), (f y); try apply Permutation_refl. apply perm_swap.
  - eapply Permutation_trans; eassumption.
Qed.
Lemma flat_map_perm_in {A B} (f g : A -> list B) l : (forall x, Permutation (f x) (g x)) -> Permutation (flat_map f l) (flat_map g l).
Proof. intros H. induction l as [|x l IH]; [constructor|]. cbn [flat_map]. apply Permutation_app; [apply H|exact IH]. Qed.

Lemma depth_map_order fs fs' : Permutation fs fs' ->
  (exists m m' ds, generate_depth_map fs = Ok (m, ds) /\ generate_depth_map fs' = Ok (m', ds) /\ strictly_down ds /\
     forall d, Permutation (dict_get m d) (dict_get m' d)) \/
  (generate_depth_map fs = Err ValueError /\ generate_depth_map fs' = Err ValueError).
Proof.
  intros P. destruct (generate_depth_map fs) as [[m ds]|e] eqn:G.
  - destruct (generate_depth_map fs') as [[m' ds']|e'] eqn:G'.
    + left. apply depth_map_spec in G, G'. destruct G as (_ & S & I & D), G' as (_ & S' & I' & D').
      assert (ds' = ds).
      { apply strict_same; [exact S'|exact S|]. intros d. rewrite I, I'. split; intros (f & Hf & K); exists f; (split; [|exact K]);
          [exact (Permutation_in _ (Permutation_sym P) Hf)|exact (Permutation_in _ P Hf)]. }
      subst ds'. exists m, m', ds. split; [reflexivity|]. split; [reflexivity|]. split; [exact S|].
      intros d. rewrite D, D'. apply filter_perm, P.
    + exfalso. apply depth_map_error in G'. destruct G' as (-> & f & Hf & K).
      assert (C : generate_depth_map fs = Err ValueError) by (apply depth_map_error; split; [reflexivity|]; exists f; split; [exact (Permutation_in _ (Permutation_sym P) Hf)|exact K]).
      congruence.
  - right. pose proof G as G0. apply depth_map_error in G. destruct G as (-> & f & Hf & K). split; [reflexivity|].
    apply depth_map_error. split; [reflexivity|]. exists f. split; [exact (Permutation_in _ P Hf)|exact K].
Qed.

Section Blind.
Context (E : engine) (B : order_blind E).

Lemma build_levels_order am am' ads : (forall d, Permutation (dict_get am d) (dict_get am' d)) ->
  forall ds m m', strictly_down ds -> (forall d, Permutation (dict_get m d) (dict_get m' d)) ->
  build_levels E m am ads ds = build_levels E m' am' ads ds.
Proof.
  intros HA. induction ds as [|d subs IH]; intros m m' S H; [reflexivity|]. cbn [build_levels].
  apply strictly_down_cons in S. destruct S as [F S].
  assert (N : ~ In d subs) by (intros C; rewrite Forall_forall in F; exact (Qclt_not_le _ _ (F d C) (Qcle_refl d))).
  assert (H' : forall d', Permutation (dict_get (add_deeper m d subs) d') (dict_get (add_deeper m' d subs) d')).
  { intros d'. rewrite !(add_deeper_get subs _ d d' N). destruct (qeqb d d'); [|apply H]. apply Permutation_app; [apply H|]. apply flat_map_perm_in, H. }
  destruct B as (BU & BD).
  assert (C : combine_outers E (dict_get (add_deeper m d subs) d) d = combine_outers E (dict_get (add_deeper m' d subs) d) d).
  { unfold combine_outers, union_poly_tree. rewrite (BU _ _ [] (Permutation_map pf_outer (H' d))). reflexivity. }
  rewrite C, (IH _ (add_deeper m' d subs) S H'). clear C. destruct (combine_outers E _ d) as [o|e]; [|reflexivity]. cbn [rbind].
  assert (PI : Permutation (flatten_list (map pf_inners (dict_get (add_deeper m d subs) d))) (flatten_list (map pf_inners (dict_get (add_deeper m' d subs) d)))).
  { rewrite !flatten_flat_map. apply Permutation_flat_map, H'. }
  unfold difference_poly_tree. destruct ads as [|a ads].
  - rewrite (BD o _ _ PI). reflexivity.
  - rewrite (BD o _ _ (Permutation_app PI (Permutation_map pf_outer (flat_map_perm_in _ _ (filter (fun x => qleb d x) (a :: ads)) HA)))). reflexivity.
Qed.

Lemma build_order ops ops' avoids avoids' : Permutation ops ops' -> Permutation avoids avoids' ->
  build_pocket_ops E ops avoids = build_pocket_ops E ops' avoids'.
Proof.
  intros P Q. unfold build_pocket_ops.
  destruct (depth_map_order _ _ P) as [(m & m' & ds & -> & -> & S & H)|(-> & ->)]; [|reflexivity]. cbn [rbind].
  destruct (depth_map_order _ _ Q) as [(am & am' & ads & -> & -> & _ & HA)|(-> & ->)]; [|reflexivity]. cbn [rbind].
  apply build_levels_order; assumption.
Qed.

Lemma mapM_order {X Y} (f : X -> result Y) l l' : Permutation l l' -> forall r, mapM f l = Ok r -> exists r', mapM f l' = Ok r' /\ Permutation r r'.
Proof.
  induction 1 as [|x l l' P IH|x y l|l l1 l2 P1 IH1 P2 IH2]; intros r H.
  - exists r. split; [exact H|apply Permutation_refl].
  - cbn [mapM] in *. apply rbind_ok in H. destruct H as (b & Hb & H). apply rbind_ok in H. destruct H as (bs & Hbs & H). injection H as <-.
    destruct (IH _ Hbs) as (r' & H' & P'). exists (b :: r'). rewrite Hb, H'. split; [reflexivity|]. constructor. exact P'.
  - cbn [mapM] in *. apply rbind_ok in H. destruct H as (b & Hb & H). apply rbind_ok in H. destruct H as (bs & Hbs & H). injection H as <-.
    apply rbind_ok in Hbs. destruct Hbs as (c & Hc & Hbs). apply rbind_ok in Hbs. destruct Hbs as (cs & Hcs & Hbs). injection Hbs as <-.
    exists (c :: b :: cs). rewrite Hc, Hb, Hcs. split; [reflexivity|apply perm_swap].
  - destruct (IH1 _ H) as (r1 & H1 & Q1). destruct (IH2 _ H1) as (r2 & H2 & Q2). exists r2. split; [exact H2|eapply Permutation_trans; eassumption].
Qed.
Lemma concat_perm {X} (l l' : list (list X)) : Permutation l l' -> Permutation (concat l) (concat l').
Proof.
  induction 1 as [|x l l' P IH|x y l|l l1 l2 P1 IH1 P2 IH2]; cbn [concat].
  - constructor.
  - apply Permutation_app_head, IH.
  - rewrite !app_assoc. apply Permutation_app_tail, Permutation_app_comm.
  - eapply Permutation_trans; eassumption.
Qed.

Lemma pocket_order fuel j areas areas' avoids avoids' oo io ao ai so sd cmds : Permutation areas areas' -> Permutation avoids avoids' ->
  pocket_clipper E fuel j areas avoids oo io ao ai so sd = Ok cmds -> pocket_clipper E fuel j areas' avoids' oo io ao ai so sd = Ok cmds.
Proof.
  intros P Q H. unfold pocket_clipper in *. apply rbind_ok in H. destruct H as (ops & HO & H). apply rbind_ok in H. destruct H as (av & HA & H).
  destruct (mapM_order _ _ _ P _ HO) as (ops' & -> & PO). destruct (mapM_order _ _ _ Q _ HA) as (av' & -> & PA). cbn [rbind].
  rewrite <- (build_order (concat ops) (concat ops') (concat av) (concat av')); [exact H|apply concat_perm, PO|apply concat_perm, PA].
Qed.
End Blind.

(** ** Whatever the order of the answers, the same points are machined *)
Lemma level_order E q ops ops' avoids avoids' d fs fs' : right_at E q ->
  (forall ss t, en_union E ss [] = Ok t -> tree_at q t /\ forall n m, In n t -> In m (children n) -> inside q (contour m) = false) ->
  (forall ss cs t, en_difference E ss cs = Ok t -> tree_at q t /\ two_levels t) ->
  Permutation ops ops' -> Permutation avoids avoids' -> level E ops avoids d fs -> level E ops' avoids' d fs' -> (machined q fs <-> machined q fs').
Proof.
  intros R HU HD P Q L L'. rewrite (parity_iff E q R HU HD _ _ _ _ L), (parity_iff E q R HU HD _ _ _ _ L').
  rewrite (count_perm (inside q) _ _ (Permutation_map pf_outer (filter_perm _ _ _ P))).
  rewrite (count_perm (inside q) _ _ (Permutation_flat_map pf_inners (filter_perm _ _ _ P))).
  rewrite (count_perm (inside q) _ _ (Permutation_map pf_outer (filter_perm _ _ _ Q))). reflexivity.
Qed.

Lemma points_order E q ops ops' avoids avoids' r r' : right_at E q ->
  (forall ss t, en_union E ss [] = Ok t -> tree_at q t /\ forall n m, In n t -> In m (children n) -> inside q (contour m) = false) ->
  (forall ss cs t, en_difference E ss cs = Ok t -> tree_at q t /\ two_levels t) ->
  Permutation ops ops' -> Permutation avoids avoids' -> build_pocket_ops E ops avoids = Ok r -> build_pocket_ops E ops' avoids' = Ok r' ->
  forall d, machined q (at_depth d r) <-> machined q (at_depth d r').
Proof.
  intros R HU HD P Q B B' d. assert (I : (exists f, In f ops /\ pf_depth f = d) <-> (exists f, In f ops' /\ pf_depth f = d)).
  { split; intros (f & Hf & D); exists f; (split; [|exact D]); [exact (Permutation_in _ P Hf)|exact (Permutation_in _ (Permutation_sym P) Hf)]. }
  destruct (built_level E _ _ r d B) as [(X & L)|(X & N)], (built_level E _ _ r' d B') as [(X' & L')|(X' & N')]; try (exfalso; tauto).
  - exact (level_order E q _ _ _ _ _ _ _ R HU HD P Q L L').
  - rewrite N, N'. reflexivity.
Qed.

(** An engine that answers in the order it is asked. *)
Definition asked_engine : engine :=
  table_engine
    [([rect 0 0 4 4; rect 5 0 9 4], [], [PNode (rect 0 0 4 4) []; PNode (rect 5 0 9 4) []]);
     ([rect 5 0 9 4; rect 0 0 4 4], [], [PNode (rect 5 0 9 4) []; PNode (rect 0 0 4 4) []])]
    [([rect 0 0 4 4; rect 5 0 9 4], [], [PNode (rect 0 0 4 4) []; PNode (rect 5 0 9 4) []]);
     ([rect 5 0 9 4; rect 0 0 4 4], [], [PNode (rect 5 0 9 4) []; PNode (rect 0 0 4 4) []])].
Lemma asked_right q : right_at asked_engine q.
Proof. apply table_right; repeat (apply Forall_cons; [boxes q|]); apply Forall_nil. Qed.
Lemma order_matters : exists E ops ops' r r', (forall q, right_at E q) /\ Permutation ops ops' /\
  build_pocket_ops E ops [] = Ok r /\ build_pocket_ops E ops' [] = Ok r' /\ r <> r'.
Proof.
  exists asked_engine, [twice_area; other_area], [other_area; twice_area]. eexists _, _. split; [exact asked_right|]. split; [apply perm_swap|].
  split; [vm_compute; reflexivity|]. split; [vm_compute; reflexivity|]. intros C.
  apply (f_equal (map (fun f => inside (zp 1 1) (pf_outer f)))) in C. vm_compute in C. discriminate C.
Qed.

(** ** An engine that does not look at the order *)
Definition is_path (p p' : path) : bool := paths_eqb [p] [p'].
Definition blind_union (ss cs : list path) : result (list polynode) :=
  match cs with
  | [] => if Nat.eqb (length ss) 2 && existsb (is_path (rect 0 0 4 4)) ss && existsb (is_path (rect 5 0 9 4)) ss
          then Ok [PNode (rect 0 0 4 4) []; PNode (rect 5 0 9 4) []] else Err RuntimeError
  | _ => Err RuntimeError
  end.
Definition blind_difference (ss cs : list path) : result (list polynode) :=
  if paths_eqb ss [rect 0 0 4 4; rect 5 0 9 4] && Nat.eqb (length cs) 2 && existsb (is_path (rect 6 1 8 3)) cs && existsb (is_path (rect 1 1 2 2)) cs
  then Ok [PNode (rect 0 0 4 4) [PNode (rect 1 1 2 2) []]; PNode (rect 5 0 9 4) [PNode (rect 6 1 8 3) []]] else Err RuntimeError.
Definition blind_engine : engine :=
  Engine (fun p o _ => if qeqb o 0 then Ok [p] else Ok []) blind_union blind_difference (fun _ _ => Ok false).
Lemma existsb_perm {A} (f : A -> bool) l l' : Permutation l l' -> existsb f l = existsb f l'.
Proof. induction 1; cbn [existsb]; [reflexivity|congruence| |congruence]. rewrite !orb_assoc, (orb_comm (f y)). reflexivity. Qed.
Lemma blind_blind : order_blind blind_engine.
Proof.
  split; cbn [blind_engine en_union en_difference].
  - intros ss ss' cs P. unfold blind_union. rewrite (Permutation_length P), !(existsb_perm _ _ _ P). reflexivity.
  - intros ss cs cs' P. unfold blind_difference. rewrite (Permutation_length P), !(existsb_perm _ _ _ P). reflexivity.
Qed.
Definition first_avoid : pathface := PF (rect 1 1 2 2) [] 0.
Lemma blind_pocket : match pocket_clipper blind_engine 4 ex_job [twice_area; other_area] [first_avoid; twice_avoid] 0 0 0 0 1 None with
  | Ok cmds => Nat.ltb 10 (length cmds) | Err _ => false end = true.
Proof. vm_compute. reflexivity. Qed.
