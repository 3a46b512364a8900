(** Examples and witnesses for Props/Pocket.v. *)
From Verif Require Import Base.Str Base.Py Model.Geometry Model.Tree Model.Pocket Model.Float
  Spec.Paths Spec.Moves Spec.Contours Spec.Trees Spec.Pockets
  Proofs.GeomP Proofs.RouteThmP Proofs.RouteEx Proofs.FillP Proofs.PocketP Proofs.StepdownP.
Import Model.Pocket.
From Coq Require Import QArith SpecFloat.
Local Open Scope Qc_scope.
Local Open Scope list_scope.

(** ** Rectangles *)
Definition rect (a b c d : Z) : path := [zp a b; zp c b; zp c d; zp a d; zp a b].
Definition in_box (a b c d : Z) (q : pt) : bool :=
  qleb (qz b) (snd q) && qltb (snd q) (qz d) && qleb (qz a) (fst q) && qltb (fst q) (qz c).

Lemma crosses_flat q x1 x2 y : crosses q ((x1, y), (x2, y)) = false.
Proof.
  destruct q as [x yy]. unfold crosses. destruct (qleb y yy) eqn:E1, (qltb yy y) eqn:E2; cbn [andb]; try reflexivity.
  apply qleb_le in E1. apply qltb_lt in E2. exfalso. exact (Qclt_not_le _ _ E2 E1).
Qed.
Lemma crosses_up q x y1 y2 : y1 < y2 -> crosses q ((x, y1), (x, y2)) = qleb y1 (snd q) && qltb (snd q) y2 && qltb (fst q) x.
Proof.
  intros H. destruct q as [a b]. unfold crosses. cbn [fst snd].
  assert (E0 : qleb y2 b && qltb b y1 = false).
  { destruct (qleb y2 b) eqn:E1, (qltb b y1) eqn:E2; try reflexivity. apply qleb_le in E1. apply qltb_lt in E2. exfalso. qlra. }
  rewrite E0. destruct (qleb y1 b && qltb b y2); [|reflexivity]. cbn [andb].
  assert (K : (x - x) * (b - y1) - (a - x) * (y2 - y1) = (x - a) * (y2 - y1)) by ring. rewrite K.
  destruct (qltb_spec a x) as [L|L].
  - apply qltb_lt. apply qmul_lt; qlra.
  - apply qltb_nlt. assert (0 <= (a - x) * (y2 - y1)) by (apply qmul_pos; qlra). qlra.
Qed.
Lemma crosses_down q x y1 y2 : y1 < y2 -> crosses q ((x, y2), (x, y1)) = qleb y1 (snd q) && qltb (snd q) y2 && qltb (fst q) x.
Proof.
  intros H. destruct q as [a b]. unfold crosses. cbn [fst snd].
  assert (E0 : qleb y2 b && qltb b y1 = false).
  { destruct (qleb y2 b) eqn:E1, (qltb b y1) eqn:E2; try reflexivity. apply qleb_le in E1. apply qltb_lt in E2. exfalso. qlra. }
  rewrite E0. destruct (qleb y1 b && qltb b y2); [|reflexivity]. cbn [andb].
  assert (K : (x - x) * (b - y2) - (a - x) * (y1 - y2) = (a - x) * (y2 - y1)) by ring. rewrite K.
  destruct (qltb_spec a x) as [L|L].
  - apply qltb_lt. assert (0 < (x - a) * (y2 - y1)) by (apply qmul_lt; qlra). qlra.
  - apply qltb_nlt. apply qmul_pos; qlra.
Qed.

Lemma inside_rect q a b c d : (a < c)%Z -> (b < d)%Z -> inside q (rect a b c d) = in_box a b c d q.
Proof.
  intros H1 H2. apply qz_lt in H1, H2. unfold inside, rect, ring, count, zp. cbn [app steps filter].
  rewrite !crosses_flat, crosses_up, crosses_down by assumption. unfold in_box.
  destruct q as [x y]. cbn [fst snd]. destruct (qleb (qz b) y && qltb y (qz d)); [|reflexivity]. cbn [andb].
  destruct (qltb_spec x (qz c)) as [L1|L1], (qltb_spec x (qz a)) as [L2|L2], (qleb_spec (qz a) x) as [L3|L3]; cbn; try reflexivity; exfalso; qlra.
Qed.

(** Equality of lists of paths. *)
Fixpoint list_eqb {A} (f : A -> A -> bool) (l k : list A) : bool :=
  match l, k with
  | [], [] => true
  | a :: l, b :: k => f a b && list_eqb f l k
  | _, _ => false
  end.
Lemma list_eqb_eq {A} (f : A -> A -> bool) : (forall a b, f a b = true -> a = b) -> forall l k, list_eqb f l k = true -> l = k.
Proof.
  intros H. induction l as [|a l IH]; intros [|b k] E; try discriminate E; [reflexivity|].
  cbn in E. apply andb_true_iff in E. destruct E as [E1 E2]. rewrite (H _ _ E1), (IH _ E2). reflexivity.
Qed.
Definition paths_eqb : list path -> list path -> bool := list_eqb (list_eqb pt_eqb).
Lemma paths_eqb_eq l k : paths_eqb l k = true -> l = k.
Proof. apply list_eqb_eq, list_eqb_eq. intros a b. apply pt_eqb_iff. Qed.

(** An engine that knows the answers to some questions only. *)
Definition table := list (list path * list path * list polynode).
Fixpoint lookup (t : table) (ss cs : list path) : result (list polynode) :=
  match t with
  | [] => Err RuntimeError
  | (s, c, a) :: t => if paths_eqb ss s && paths_eqb cs c then Ok a else lookup t ss cs
  end.
Lemma lookup_in t ss cs a : lookup t ss cs = Ok a -> In (ss, cs, a) t.
Proof.
  induction t as [|[[s c] b] t IH]; intros H; cbn [lookup] in H; [discriminate|].
  destruct (paths_eqb ss s && paths_eqb cs c) eqn:E; [|right; apply IH, H].
  apply andb_true_iff in E. destruct E as [E1 E2]. apply paths_eqb_eq in E1, E2. injection H as <-. subst. left; reflexivity.
Qed.
Definition table_engine (u d : table) : engine :=
  Engine (fun _ _ _ => Err RuntimeError) (lookup u) (lookup d) (fun _ _ => Err RuntimeError).
Lemma table_right u d q :
  Forall (fun '(ss, cs, a) => inside_odd q (flat_map contours a) = inside_odd q ss || inside_odd q cs) u ->
  Forall (fun '(ss, cs, a) => inside_odd q (flat_map contours a) = inside_odd q ss && negb (inside_odd q cs)) d ->
  right_at (table_engine u d) q.
Proof.
  intros HU HD. rewrite Forall_forall in HU, HD. split; intros ss cs t H; cbn in H; apply lookup_in in H; [exact (HU _ H)|exact (HD _ H)].
Qed.

(** Decide an equation between boxes with corners between 0 and 9, by the cells of the grid. *)
Lemma cell_of (x : Qc) : x < qz 0 \/ qz 9 <= x \/ exists k, (0 <= k < 9)%Z /\ qz k <= x /\ x < qz (k + 1).
Proof.
  destruct (Qclt_le_dec x (qz 0)) as [H|H]; [auto|]. destruct (Qclt_le_dec x (qz 9)) as [H'|H']; [|auto].
  right; right. exists (qfloor x). destruct (qfloor_spec x) as [F1 F2]. split; [|auto].
  assert (qz 0 < qz (qfloor x + 1)) by (eapply Qcle_lt_trans; eassumption).
  assert (qz (qfloor x) < qz 9) by (eapply Qcle_lt_trans; eassumption). rewrite qz_lt in *. lia.
Qed.
Definition cell (k : Z) (x : Qc) : Prop := (k = (-1)%Z /\ x < qz 0) \/ (k = 9%Z /\ qz 9 <= x) \/ ((0 <= k < 9)%Z /\ qz k <= x /\ x < qz (k + 1)).
Lemma cell_ex x : exists k, (-1 <= k <= 9)%Z /\ cell k x.
Proof.
  destruct (cell_of x) as [H|[H|(k & Hk & H)]]; [exists (-1)%Z|exists 9%Z|exists k]; (split; [lia|]); unfold cell; auto.
Qed.
Lemma cell_le k x a : cell k x -> (0 <= a <= 9)%Z -> qleb (qz a) x = (a <=? k)%Z.
Proof.
  intros H Ha. destruct (Z.leb_spec a k) as [L|L].
  - apply qleb_le. destruct H as [[-> _]|[[-> H]|(B & H & _)]]; [lia| |]; eapply Qcle_trans; [apply qz_le; exact L|exact H|apply qz_le; exact L|exact H].
  - apply qleb_nle. destruct H as [[-> H]|[[-> H]|(B & _ & H)]].
    + eapply Qclt_le_trans; [exact H|apply qz_le; lia].
    + lia.
    + eapply Qclt_le_trans; [exact H|apply qz_le; lia].
Qed.
Lemma cell_lt k x a : cell k x -> (0 <= a <= 9)%Z -> qltb x (qz a) = (k <? a)%Z.
Proof.
  intros H Ha. pose proof (cell_le k x a H Ha) as K. rewrite Z.ltb_antisym, <- K.
  destruct (qleb_spec (qz a) x) as [L|L]; [apply qltb_nlt, L|apply qltb_lt, Qcnot_le_lt, L].
Qed.
Lemma in_box_cell a b c d x y i j : cell i x -> cell j y ->
  (0 <= a <= 9)%Z -> (0 <= b <= 9)%Z -> (0 <= c <= 9)%Z -> (0 <= d <= 9)%Z ->
  in_box a b c d (x, y) = (b <=? j)%Z && (j <? d)%Z && (a <=? i)%Z && (i <? c)%Z.
Proof. intros Hi Hj Ha Hb Hc Hd. unfold in_box. cbn [fst snd]. rewrite (cell_le _ _ _ Hj Hb), (cell_le _ _ _ Hi Ha), (cell_lt _ _ _ Hj Hd), (cell_lt _ _ _ Hi Hc). reflexivity. Qed.

Lemma cells_lia k : (-1 <= k <= 9)%Z -> In k [-1; 0; 1; 2; 3; 4; 5; 6; 7; 8; 9]%Z.
Proof. intros H. cbn. lia. Qed.
Ltac boxes q :=
  let x := fresh "x" in let y := fresh "y" in let i := fresh "i" in let j := fresh "j" in
  let Hi := fresh in let Hj := fresh in let Ci := fresh in let Cj := fresh in
  destruct q as [x y]; destruct (cell_ex x) as (i & Hi & Ci); destruct (cell_ex y) as (j & Hj & Cj);
  unfold inside_odd, count; cbn [flat_map contours app filter];
  rewrite ?inside_rect by reflexivity;
  repeat rewrite (in_box_cell _ _ _ _ _ _ _ _ Ci Cj) by lia;
  apply cells_lia in Hi; apply cells_lia in Hj; clear Ci Cj;
  cbn [In] in Hi, Hj;
  repeat (destruct Hi as [<-|Hi]; [repeat (destruct Hj as [<-|Hj]; [reflexivity|]); destruct Hj|]); destruct Hi.

(** Two overlapping outlines: the overlap is not machined. *)
Definition overlap_engine : engine :=
  table_engine
    [([rect 0 0 2 1; rect 1 0 3 1], [], [PNode (rect 0 0 1 1) []; PNode (rect 2 0 3 1) []])]
    [([rect 0 0 1 1; rect 2 0 3 1], [], [PNode (rect 0 0 1 1) []; PNode (rect 2 0 3 1) []])].
Lemma overlap_right q : right_at overlap_engine q.
Proof. apply table_right; repeat constructor; boxes q. Qed.
Definition overlap_ops : list pathface := [PF (rect 0 0 2 1) [] (qz (-1)); PF (rect 1 0 3 1) [] (qz (-1))].

Definition machinedb (q : pt) (fs : list pathface) : bool :=
  existsb (fun f => inside q (pf_outer f) && forallb (fun i => negb (inside q i)) (pf_inners f)) fs.
Lemma machinedb_iff q fs : machinedb q fs = true <-> machined q fs.
Proof.
  unfold machinedb, machined, in_face. rewrite existsb_exists. split; intros (f & Hf & H); exists f; (split; [exact Hf|]).
  - apply andb_true_iff in H. destruct H as [H1 H2]. split; [exact H1|]. intros i Hi. rewrite forallb_forall in H2. apply negb_true_iff, H2, Hi.
  - apply andb_true_iff. destruct H as [H1 H2]. split; [exact H1|]. apply forallb_forall. intros i Hi. apply negb_true_iff, H2, Hi.
Qed.
Definition wantedb (q : pt) (ops avoids : list pathface) (d : Qc) : bool :=
  existsb (fun f => qleb (pf_depth f) d && inside q (pf_outer f)) ops &&
  forallb (fun f => negb (qleb (pf_depth f) d) || forallb (fun i => negb (inside q i)) (pf_inners f)) ops &&
  forallb (fun f => negb (qleb d (pf_depth f)) || negb (inside q (pf_outer f))) avoids.
Lemma wantedb_iff q ops avoids d : wantedb q ops avoids d = true <-> wanted q ops avoids d.
Proof.
  unfold wantedb, wanted. rewrite !andb_true_iff, existsb_exists, !forallb_forall. split.
  - intros ((H1 & H2) & H3). split; [|split].
    + destruct H1 as (f & Hf & H1). apply andb_true_iff in H1. rewrite qleb_le in H1. exists f. tauto.
    + intros f i Hf Hd Hi. specialize (H2 f Hf). apply orb_true_iff in H2. apply qleb_le in Hd. rewrite Hd in H2. destruct H2 as [H2|H2]; [discriminate H2|].
      rewrite forallb_forall in H2. apply negb_true_iff, H2, Hi.
    + intros f Hf Hd. specialize (H3 f Hf). apply orb_true_iff in H3. apply qleb_le in Hd. rewrite Hd in H3. destruct H3 as [H3|H3]; [discriminate H3|]. apply negb_true_iff, H3.
  - intros (H1 & H2 & H3). split; [split|].
    + destruct H1 as (f & Hf & Hd & Hi). exists f. split; [exact Hf|]. apply andb_true_iff. rewrite qleb_le. auto.
    + intros f Hf. destruct (qleb (pf_depth f) d) eqn:E; [|reflexivity]. apply qleb_le in E. cbn [negb orb]. apply forallb_forall. intros i Hi. apply negb_true_iff. eapply H2; eassumption.
    + intros f Hf. destruct (qleb d (pf_depth f)) eqn:E; [|reflexivity]. apply qleb_le in E. cbn [negb orb]. apply negb_true_iff. apply H3; assumption.
Qed.
Lemma machinedb_not q fs : machinedb q fs = false -> ~ machined q fs.
Proof. intros H C. apply machinedb_iff in C. congruence. Qed.
Lemma wantedb_not q ops avoids d : wantedb q ops avoids d = false -> ~ wanted q ops avoids d.
Proof. intros H C. apply wantedb_iff in C. congruence. Qed.

Lemma overlap_missed : exists E ops q r, (forall q', right_at E q') /\ build_pocket_ops E ops [] = Ok r /\
  Forall (fun f => pf_depth f = qz (-1)) ops /\ wanted q ops [] (qz (-1)) /\ ~ machined q r.
Proof.
  exists overlap_engine, overlap_ops, (qq 3 2, qq 1 2). eexists.
  split; [exact overlap_right|]. split; [vm_compute; reflexivity|]. split; [repeat constructor|].
  split; [apply wantedb_iff; vm_compute; reflexivity|apply machinedb_not; vm_compute; reflexivity].
Qed.

(** Four outlines around a square: the square is machined. *)
Definition ring_ops : list pathface :=
  [PF (rect 0 0 3 1) [] (qz (-1)); PF (rect 0 2 3 3) [] (qz (-1)); PF (rect 0 1 1 2) [] (qz (-1)); PF (rect 2 1 3 2) [] (qz (-1))].
Definition ring_engine : engine :=
  table_engine
    [([rect 0 0 3 1; rect 0 2 3 3; rect 0 1 1 2; rect 2 1 3 2], [], [PNode (rect 0 0 3 3) [PNode (rect 1 1 2 2) []]])]
    [([rect 0 0 3 3], [], [PNode (rect 0 0 3 3) []])].
Lemma ring_right q : right_at ring_engine q.
Proof. apply table_right; repeat constructor; boxes q. Qed.
Lemma ring_gouged : exists E ops q r, (forall q', right_at E q') /\ build_pocket_ops E ops [] = Ok r /\
  Forall (fun f => pf_depth f = qz (-1)) ops /\
  ~ wanted q ops [] (qz (-1)) /\ (forall f, In f ops -> inside q (pf_outer f) = false) /\ machined q r.
Proof.
  exists ring_engine, ring_ops, (qq 3 2, qq 3 2). eexists.
  split; [exact ring_right|]. split; [vm_compute; reflexivity|]. split; [repeat constructor|].
  split; [apply wantedb_not; vm_compute; reflexivity|].
  split; [intros f Hf; repeat (destruct Hf as [<-|Hf]; [vm_compute; reflexivity|]); destruct Hf|apply machinedb_iff; vm_compute; reflexivity].
Qed.

(** A pocket with an island and an area to avoid: the theorem about levels applies everywhere. *)
Definition island_engine : engine :=
  table_engine
    [([rect 0 0 8 8], [], [PNode (rect 0 0 8 8) []])]
    [([rect 0 0 8 8], [rect 1 1 3 3; rect 5 5 7 7], [PNode (rect 0 0 8 8) [PNode (rect 1 1 3 3) []; PNode (rect 5 5 7 7) []]])].
Definition island_ops : list pathface := [PF (rect 0 0 8 8) [rect 1 1 3 3] (qz (-2))].
Definition island_avoids : list pathface := [PF (rect 5 5 7 7) [] 0].
Lemma island_right q : right_at island_engine q.
Proof. apply table_right; repeat constructor; boxes q. Qed.

Definition inside_cells (c : path) (a b cc d : Z) : Prop := forall q, inside q c = in_box a b cc d q.
Ltac count_le q :=
  let x := fresh "x" in let y := fresh "y" in let i := fresh "i" in let j := fresh "j" in
  let Hi := fresh in let Hj := fresh in let Ci := fresh in let Cj := fresh in
  destruct q as [x y]; destruct (cell_ex x) as (i & Hi & Ci); destruct (cell_ex y) as (j & Hj & Cj);
  unfold count; cbn [filter flat_map map app contour children pf_outer pf_inners];
  rewrite ?inside_rect by reflexivity;
  repeat rewrite (in_box_cell _ _ _ _ _ _ _ _ Ci Cj) by lia;
  apply cells_lia in Hi; apply cells_lia in Hj; clear Ci Cj; cbn [In] in Hi, Hj;
  repeat (destruct Hi as [<-|Hi]; [repeat (destruct Hj as [<-|Hj]; [vm_compute; lia|]); destruct Hj|]); destruct Hi.
Ltac box_imp q :=
  let x := fresh "x" in let y := fresh "y" in let i := fresh "i" in let j := fresh "j" in
  let Hi := fresh in let Hj := fresh in let Ci := fresh in let Cj := fresh in
  destruct q as [x y]; destruct (cell_ex x) as (i & Hi & Ci); destruct (cell_ex y) as (j & Hj & Cj);
  cbn [contour]; rewrite ?inside_rect by reflexivity;
  repeat rewrite (in_box_cell _ _ _ _ _ _ _ _ Ci Cj) by lia;
  rewrite ?andb_true_iff, ?Z.leb_le, ?Z.ltb_lt; lia.

Lemma island_hyps q :
  (forall ss t, en_union island_engine ss [] = Ok t -> tree_at q t /\ forall n m, In n t -> In m (children n) -> inside q (contour m) = false) /\
  (forall ss cs t, en_difference island_engine ss cs = Ok t -> tree_at q t /\ two_levels t) /\
  (count (inside q) (map pf_outer (filter (fun f => qleb (pf_depth f) (qz (-2))) island_ops)) <= 1)%nat /\
  (count (inside q) (flat_map pf_inners (filter (fun f => qleb (pf_depth f) (qz (-2))) island_ops) ++
                     map pf_outer (filter (fun f => qleb (qz (-2)) (pf_depth f)) island_avoids)) <= 1)%nat.
Proof.
  split; [|split; [|split]].
  - intros ss t H. apply lookup_in in H. destruct H as [H|[]]. injection H as <- <-. split; [|intros n m [<-|[]] []].
    split; [count_le q|]. constructor; [|constructor]. cbn [nested_at]. split; [intros m []|]. split; [cbn; lia|exact I].
  - intros ss cs t H. apply lookup_in in H. destruct H as [H|[]]. injection H as <- <- <-. split; [|repeat constructor].
    split; [count_le q|]. constructor; [|constructor]. cbn [nested_at]. split; [|split].
    + intros m [<-|[<-|[]]]; box_imp q.
    + count_le q.
    + assert (L : forall c, nested_at q (PNode c [])) by (intros c; cbn; split; [intros m []|split; [lia|exact I]]). split; [apply L|split; [apply L|exact I]].
  - cbn [filter island_ops pf_depth]. rewrite (proj2 (qleb_le _ _) (Qcle_refl (qz (-2)))). count_le q.
  - cbn [filter island_ops island_avoids pf_depth]. rewrite (proj2 (qleb_le _ _) (Qcle_refl (qz (-2)))).
    replace (qleb (qz (-2)) 0) with true by reflexivity. count_le q.
Qed.
Lemma island_builds : exists r, build_pocket_ops island_engine island_ops island_avoids = Ok r /\
  machinedb (zp 4 4) r = true /\ machinedb (zp 2 2) r = false /\ machinedb (zp 6 6) r = false /\ machinedb (zp 9 4) r = false.
Proof. eexists. split; [vm_compute; reflexivity|]. repeat split; vm_compute; reflexivity. Qed.

(** ** A working engine for boxes *)
Definition box_of (p : path) : Qc * Qc * Qc * Qc :=
  match p with
  | [] => (0, 0, 0, 0)
  | (x, y) :: l => fold_left (fun '(a, b, c, d) '(x, y) => (qmin a x, qmin b y, qmax c x, qmax d y)) l (x, y, x, y)
  end.
Definition box_engine : engine := Engine
  (fun p o _ => let '(a, b, c, d) := box_of p in
     if qltb (a - o) (c + o) && qltb (b - o) (d + o)
     then Ok [[(a - o, b - o); (c + o, b - o); (c + o, d + o); (a - o, d + o)]] else Ok [])
  (fun ss cs => match ss, cs with [s], [] => Ok [PNode s []] | _, _ => Err RuntimeError end)
  (fun ss cs => match cs with [] => Ok (map (fun s => PNode s []) ss) | _ => Err RuntimeError end)
  (fun f g => let '(a, b, c, d) := box_of (pf_outer f) in let '(a', b', c', d') := box_of (pf_outer g) in
     Ok (qleb a a' && qleb b b' && qleb c' c && qleb d' d)).

(** Integer coordinates: depth and corners. *)
Definition shape_of (r : result (list (list pathface))) : list (list (Z * list (Z * Z))) :=
  match r with
  | Ok ss => map (map (fun f => (qfloor (pf_depth f), map (fun p => (qfloor (fst p), qfloor (snd p))) (pf_outer f)))) ss
  | Err _ => []
  end.
Definition box_pocket : pathface := PF (square 0 0 5) [] (qz (-2)).
Definition box_cmds : list motion :=
  motions (pocket_clipper box_engine 10 ex_job [box_pocket] [] 0 0 0 0 1 (Some 1)).
Lemma box_runs : pocket_clipper box_engine 10 ex_job [box_pocket] [] 0 0 0 0 1 (Some 1) = Ok box_cmds.
Proof. vm_compute. reflexivity. Qed.

(** ** Doubles: 0.405 and -2.43 *)
Definition f64_0405 : f64 := S754_finite false 7295831396340204 (-54).
Definition f64_m243 : f64 := S754_finite true 5471873547255153 (-51).
Lemma float_overshoot : exists stepdown depth s z x,
  f64_value stepdown = Some s /\ f64_value depth = Some z /\ (0 < s)%Q /\ (z < 0)%Q /\
  In x (step_depths64 None stepdown depth) /\ exists v, f64_value x = Some v /\ (v < z)%Q.
Proof.
  exists f64_0405, f64_m243. eexists _, _, (S754_finite true 5471873547255154 (-51)). split; [reflexivity|]. split; [reflexivity|].
  split; [reflexivity|]. split; [reflexivity|]. split; [vm_compute; intuition|]. eexists. split; reflexivity.
Qed.
Lemma exact_passes s start z x : 0 < s -> In x (arange (start - s) z (- s)) -> z < x.
Proof.
  intros Hs H. destruct (arange_between s start z x) as [[_ K]|[K _]]; [intros ->; exact (Qclt_not_le _ _ Hs (Qcle_refl _))|exact H|exact K|].
  exfalso. exact (Qclt_not_le _ _ (Qclt_trans _ _ _ Hs K) (Qcle_refl _)).
Qed.
Lemma exact_passes_ex : In (qq (-3) 2) (arange (0 - qq 1 2) (qz (-2)) (- qq 1 2)).
Proof.
  unfold arange. apply in_map_iff. exists 2%nat. split; [apply Qc_is_canon; reflexivity|]. apply in_seq. split; [lia|]. vm_compute. lia.
Qed.
