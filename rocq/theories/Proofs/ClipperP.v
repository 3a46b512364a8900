(** * The clipper: history, bounds, results *)
From Verif Require Import Base.Py Spec.Paths Spec.Zigzag Spec.Wires Spec.Clippers Model.Geometry Model.Edges Model.Pocket Model.Strategy Model.Contour.
From Verif Require Import Proofs.GeomP Proofs.PocketP Proofs.SurfaceP Proofs.ZigzagMultiP.
From Coq Require Import Lia.
Local Open Scope Qc_scope.
Local Open Scope list_scope.

(** ** History *)
Definition cached_part (p : cpath) (cache : bool) : list cpath :=
  match p with CP z PT_CLIP c => if cache then [CP z PT_CLIP c] else [] | _ => [] end.
Lemma add_path_iff X c p cache c' : add_path X c p cache = Ok c' <->
  (cp_type p = PT_CLIP -> cp_closed p = true) /\ ce_valid X p = true /\
  c' = WC (wc_paths c ++ [p]) (wc_cache c ++ cached_part p cache).
Proof.
  unfold add_path, engine_add. destruct p as [z [|] cl]; cbn [cp_type cp_closed cached_part].
  - destruct cl, (ce_valid X _); cbn [andb rbind]; (split; [intros H|intros (H1 & H2 & H3)]);
      try discriminate; try discriminate (H1 eq_refl).
    + injection H as <-. split; [reflexivity|]. split; [reflexivity|]. destruct cache; [reflexivity|rewrite app_nil_r; reflexivity].
    + rewrite H3. destruct cache; [reflexivity|rewrite app_nil_r; reflexivity].
  - destruct (ce_valid X _); cbn [andb rbind]; (split; [intros H|intros (H1 & H2 & H3)]); try discriminate.
    + injection H as <-. split; [discriminate|]. rewrite app_nil_r. split; reflexivity.
    + rewrite H3, app_nil_r. reflexivity.
Qed.

Definition admitted_path (X : clip_engine) (p : cpath) : Prop :=
  (cp_type p = PT_CLIP -> cp_closed p = true) /\ ce_valid X p = true.
Lemma engine_add_iff X ps p ps' : engine_add X ps p = Ok ps' <-> admitted_path X p /\ ps' = ps ++ [p].
Proof.
  unfold engine_add, admitted_path. destruct p as [z [|] [|]], (ce_valid X _); cbn [cp_type cp_closed andb]; split;
    try discriminate; try (intros [[H1 H2] H3]; (discriminate H2 || discriminate (H1 eq_refl) || (rewrite H3; reflexivity)));
    intros [= <-]; repeat split; intros; discriminate.
Qed.
Lemma engine_adds_ok X new : Forall (admitted_path X) new -> forall ps, engine_adds X ps new = Ok (ps ++ new).
Proof.
  induction 1 as [|p new H F IH]; intros ps; cbn [engine_adds]; [rewrite app_nil_r; reflexivity|].
  assert (E : engine_add X ps p = Ok (ps ++ [p])) by (apply engine_add_iff; split; [exact H|reflexivity]).
  rewrite E. cbn [rbind]. rewrite IH, <- app_assoc. reflexivity.
Qed.

(** Everything in the cache was accepted once. *)
Definition cache_good (X : clip_engine) (c : wire_clipper) : Prop := Forall (admitted_path X) (wc_cache c).
Lemma add_path_good X c p cache c' : add_path X c p cache = Ok c' -> cache_good X c -> cache_good X c'.
Proof.
  intros H G. apply add_path_iff in H. destruct H as (H1 & H2 & ->). unfold cache_good. cbn [wc_cache]. apply Forall_app. split; [exact G|].
  unfold cached_part. destruct p as [z [|] cl]; [destruct cache|]; constructor; [|constructor]. split; assumption.
Qed.
Lemma reset_ok X c : cache_good X c -> reset X c = Ok (WC (wc_cache c) (wc_cache c)).
Proof. intros G. unfold reset. rewrite (engine_adds_ok X _ G). reflexivity. Qed.

Lemma run_good X ops : forall c c', cache_good X c -> run_ops X c ops = Ok c' -> cache_good X c'.
Proof.
  induction ops as [|[p cache|] ops IH]; intros c c' G H; cbn [run_ops] in H.
  - injection H as <-. exact G.
  - apply rbind_ok in H. destruct H as (c1 & H1 & H2). apply (IH c1); [|exact H2]. exact (add_path_good _ _ _ _ _ H1 G).
  - rewrite (reset_ok X c G) in H. cbn [rbind] in H. apply (IH (WC (wc_cache c) (wc_cache c))); [exact G|exact H].
Qed.
Lemma run_cache X ops : forall c c', cache_good X c -> run_ops X c ops = Ok c' -> wc_cache c' = wc_cache c ++ kept ops.
Proof.
  induction ops as [|[p cache|] ops IH]; intros c c' G H; cbn [run_ops] in H.
  - injection H as <-. rewrite app_nil_r. reflexivity.
  - apply rbind_ok in H. destruct H as (c1 & H1 & H2). pose proof (add_path_good _ _ _ _ _ H1 G) as G1.
    rewrite (IH _ _ G1 H2). apply add_path_iff in H1. destruct H1 as (_ & _ & ->). cbn [wc_cache]. rewrite <- app_assoc. f_equal.
  - rewrite (reset_ok X c G) in H. cbn [rbind] in H. rewrite (IH (WC (wc_cache c) (wc_cache c)) _ G H). reflexivity.
Qed.
Lemma run_adds X ops : (forall o, In o ops -> o <> OReset) -> forall c c', run_ops X c ops = Ok c' ->
  wc_paths c' = wc_paths c ++ added ops.
Proof.
  induction ops as [|[p cache|] ops IH]; intros N c c' H; cbn [run_ops] in H.
  - injection H as <-. rewrite app_nil_r. reflexivity.
  - apply rbind_ok in H. destruct H as (c1 & H1 & H2). rewrite (IH (fun o I => N o (or_intror I)) _ _ H2).
    apply add_path_iff in H1. destruct H1 as (_ & _ & ->). cbn [wc_paths]. rewrite <- app_assoc. reflexivity.
  - destruct (N OReset (or_introl eq_refl) eq_refl).
Qed.
Lemma run_ops_app X a b : forall c, run_ops X c (a ++ b) = do c <- run_ops X c a; run_ops X c b.
Proof.
  induction a as [|[p cache|] a IH]; intros c; cbn [app run_ops]; [reflexivity| |].
  - destruct (add_path X c p cache); cbn [rbind]; [apply IH|reflexivity].
  - destruct (reset X c); cbn [rbind]; [apply IH|reflexivity].
Qed.

Theorem history_plain X ops c : (forall o, In o ops -> o <> OReset) -> run_ops X new_clipper ops = Ok c -> wc_paths c = added ops.
Proof. intros N H. exact (run_adds X ops N _ _ H). Qed.
Theorem history_reset X before after c : (forall o, In o after -> o <> OReset) ->
  run_ops X new_clipper (before ++ OReset :: after) = Ok c -> wc_paths c = kept before ++ added after.
Proof.
  intros N H. rewrite run_ops_app in H. apply rbind_ok in H. destruct H as (c1 & H1 & H2). cbn [run_ops] in H2.
  assert (G0 : cache_good X new_clipper) by constructor.
  rewrite (reset_ok X c1 (run_good _ _ _ _ G0 H1)) in H2. cbn [rbind] in H2.
  rewrite (run_adds X after N _ _ H2). cbn [wc_paths]. rewrite (run_cache _ _ _ _ G0 H1). reflexivity.
Qed.
Theorem history_reset_works X ops c : run_ops X new_clipper ops = Ok c -> exists c', reset X c = Ok c'.
Proof.
  intros H. assert (G0 : cache_good X new_clipper) by constructor. eexists. apply reset_ok. exact (run_good _ _ _ _ G0 H).
Qed.
Theorem open_clip_refused X c p cache : add_clip_polygon X c p false cache = Err KernelError.
Proof. reflexivity. Qed.
Theorem open_wire_refused X c es p : add_wire es false = Ok p -> add_clip_wire X c es false = Err KernelError.
Proof. intros H. unfold add_clip_wire, add_wire_as. rewrite H. reflexivity. Qed.

(** ** Results *)
Theorem execute_spec X c t paths : execute X c t = Ok paths <-> exists open closed loops,
  ce_execute X t (wc_paths c) = Ok (open, closed) /\ Forall2 looped closed loops /\ paths = loops ++ map from_clipper open.
Proof.
  unfold execute. destruct (ce_execute X t (wc_paths c)) as [[open closed]|e]; cbn [rbind].
  2: { split; [discriminate|]. intros (o & cl & l & H & _). discriminate H. }
  assert (L : forall loops, mapM append_first (map from_clipper closed) = Ok loops <-> Forall2 looped closed loops).
  { intros loops. rewrite mapM_ok. revert loops. induction closed as [|z closed IH]; intros loops; cbn [map]; split; intros H;
      inversion H as [|? p ? l H1 H2]; subst; constructor.
    - unfold append_first in H1. destruct (from_clipper z) as [|a q] eqn:E; [discriminate H1|]. injection H1 as <-. exists a, q. split; [exact E|reflexivity].
    - apply IH. exact H2.
    - destruct H1 as (a & q & E & ->). unfold append_first. rewrite E. reflexivity.
    - apply IH. exact H2. }
  split.
  - intros H. apply rbind_ok in H. destruct H as (loops & H1 & [= <-]). exists open, closed, loops.
    split; [reflexivity|]. split; [apply L; exact H1|reflexivity].
  - intros (o & cl & loops & [= <- <-] & H & ->). apply L in H. rewrite H. reflexivity.
Qed.
Theorem looped_closed z p : looped z p -> closed_path p /\ (2 <= length p)%nat.
Proof.
  intros (a & l & _ & ->). split; [|rewrite app_length; cbn [length]; lia].
  exists a, (l ++ [a]). split; [reflexivity|apply last_last].
Qed.

(** ** Bounds *)
Lemma scale_pos : 0 < clipper_scale. Proof. reflexivity. Qed.
Lemma scale_le a b : (a <= b)%Z -> qz a / clipper_scale <= qz b / clipper_scale.
Proof.
  intros H. apply qz_le in H. pose proof scale_pos as P. set (s := clipper_scale) in *. clearbody s.
  assert (N : s <> 0) by (intros E; rewrite E in P; exact (Qclt_not_le _ _ P (Qcle_refl _))).
  pose proof (qdiv_mul (qz a) s N) as E1. pose proof (qdiv_mul (qz b) s N) as E2.
  set (x := qz a / s) in *. set (y := qz b / s) in *. clearbody x y.
  destruct (Qclt_le_dec y x) as [D|D]; [|exact D]. assert (0 < (x - y) * s) by (apply qmul_lt; qlra). qlra.
Qed.

(** Half the diagonal reaches every point of the rectangle, in every direction. *)
Lemma square_le x y : 0 <= y -> x * x <= y * y -> x <= y.
Proof.
  intros Hy H. destruct (Qclt_le_dec y x) as [D|D]; [|exact D]. exfalso.
  assert (0 < (x - y) * (x + y)) by (apply qmul_lt; qlra). qlra.
Qed.
Lemma square_abs x y : 0 <= y -> x * x <= y * y -> - y <= x /\ x <= y.
Proof.
  intros Hy H. split; [|apply square_le; assumption]. assert (- x <= y); [|qlra]. apply square_le; [exact Hy|].
  replace (- x * - x) with (x * x) by ring. exact H.
Qed.
Lemma centre_near l r x : l <= x -> x <= r -> (x - (l + r) / qz 2) * (x - (l + r) / qz 2) * qz 4 <= (l - r) * (l - r).
Proof.
  intros H1 H2. assert (0 <= (x - l) * (r - x)) by (apply qmul_pos; qlra).
  replace ((x - (l + r) / qz 2) * (x - (l + r) / qz 2) * qz 4) with ((l - r) * (l - r) - (1 + 1 + 1 + 1) * ((x - l) * (r - x))); [qlra|].
  apply Qc_is_canon. qc2q. unfold inject_Z. field.
Qed.
Lemma turn_near c s dx dy d2 : c * c + s * s = 1 -> dx * dx + dy * dy <= d2 ->
  (c * dx - s * dy) * (c * dx - s * dy) <= d2 /\ (s * dx + c * dy) * (s * dx + c * dy) <= d2.
Proof.
  intros H1 H2.
  assert (E : (c * dx - s * dy) * (c * dx - s * dy) + (s * dx + c * dy) * (s * dx + c * dy) = dx * dx + dy * dy).
  { replace (dx * dx + dy * dy) with ((c * c + s * s) * (dx * dx + dy * dy)) by (rewrite H1; ring). ring. }
  assert (S1 : forall x : Qc, 0 <= x * x).
  { intros x. destruct (Qclt_le_dec x 0) as [D|D]; [|apply qmul_pos; assumption]. replace (x * x) with ((- x) * (- x)) by ring. apply qmul_pos; qlra. }
  pose proof (S1 (c * dx - s * dy)). pose proof (S1 (s * dx + c * dy)). split; qlra.
Qed.

Lemma max_bounds_turned X len c x0 y0 x1 y1 : long_enough len -> max_bounds X len c = (x0, y0, x1, y1) ->
  forall l t r b, bounds X c = (l, t, r, b) -> forall q, l <= fst q -> fst q <= r ->
    (t <= snd q /\ snd q <= b) \/ (b <= snd q /\ snd q <= t) ->
    forall co si, co * co + si * si = 1 -> in_box x0 y0 x1 y1 (turned co si (middle (bounds X c)) q).
Proof.
  intros HL H l t r b HB q Q1 Q2 Q3 co si T. unfold max_bounds in H. rewrite HB in *. cbn [middle].
  destruct (HL (l - r) (t - b)) as [P0 P1]. set (h := len (l - r) (t - b)) in *. clearbody h.
  set (xc := (l + r) / qz 2) in *. set (yc := (t + b) / qz 2) in *.
  assert (Hx : (fst q - xc) * (fst q - xc) * qz 4 <= (l - r) * (l - r)) by (apply centre_near; assumption).
  assert (Hy : (snd q - yc) * (snd q - yc) * qz 4 <= (t - b) * (t - b)).
  { destruct Q3 as [[Q3 Q4]|[Q3 Q4]]; [apply centre_near; assumption|].
    replace ((t - b) * (t - b)) with ((b - t) * (b - t)) by ring. unfold yc. replace (t + b) with (b + t) by ring. apply centre_near; assumption. }
  set (dx := fst q - xc) in *. set (dy := snd q - yc) in *.
  assert (E4 : qz 4 = 1 + 1 + 1 + 1) by (apply Qc_is_canon; reflexivity). rewrite E4 in *.
  assert (H2 : (h / qz 2) * (h / qz 2) * (1 + 1 + 1 + 1) = h * h) by (apply Qc_is_canon; qc2q; unfold inject_Z; field).
  assert (P2 : 0 <= h / qz 2). { assert (E : h / qz 2 * (1 + 1) = h) by (apply Qc_is_canon; qc2q; unfold inject_Z; field). set (g := h / qz 2) in *. clearbody g. qlra. }
  set (g := h / qz 2) in *. clearbody g.
  destruct (turn_near co si dx dy (g * g) T) as [D1 D2]; [qlra|].
  destruct (square_abs _ _ P2 D1) as [A1 A2]. destruct (square_abs _ _ P2 D2) as [A3 A4].
  injection H as <- <- <- <-. unfold in_box, turned. cbn [fst snd]. fold dx dy.
  destruct (qfloor_spec (xc - g)) as [F1 _]. destruct (qfloor_spec (yc - g)) as [F2 _].
  destruct (qceil_bounds (xc + g)) as [F3 _]. destruct (qceil_bounds (yc + g)) as [F4 _].
  repeat split; qlra.
Qed.

Lemma turned_none o q : turned 1 0 o q = q.
Proof. unfold turned. destruct q as [x y]. cbn [fst snd]. f_equal; ring. Qed.

Theorem max_bounds_contain X len c x0 y0 x1 y1 : bounds_contain X -> long_enough len -> max_bounds X len c = (x0, y0, x1, y1) ->
  forall p q co si, In p (wc_paths c) -> In q (from_clipper (cp_points p)) -> co * co + si * si = 1 ->
    in_box x0 y0 x1 y1 (turned co si (middle (bounds X c)) q).
Proof.
  intros BC HL H p q co si Ip Iq T. unfold from_clipper in Iq. apply in_map_iff in Iq. destruct Iq as (z & <- & Iz).
  destruct (ce_bounds X (wc_paths c)) as [[[l t] r] b] eqn:E. destruct (BC _ _ _ _ _ E p z Ip Iz) as [B1 B2].
  assert (EB : bounds X c = (qz l / clipper_scale, qz t / clipper_scale, qz r / clipper_scale, qz b / clipper_scale)) by (unfold bounds; rewrite E; reflexivity).
  apply (max_bounds_turned X len c x0 y0 x1 y1 HL H _ _ _ _ EB); cbn [fst snd]; try (apply scale_le; lia); [|exact T].
  destruct B2 as [B2|B2]; [left|right]; split; apply scale_le; lia.
Qed.

(** The bounds are integers within 1 of the square round the circle. *)
Theorem max_bounds_tight X len c x0 y0 x1 y1 : max_bounds X len c = (x0, y0, x1, y1) ->
  let '(l, t, r, b) := bounds X c in let h := len (l - r) (t - b) in
  (exists a b' c' d, x0 = qz a /\ y0 = qz b' /\ x1 = qz c' /\ y1 = qz d) /\
  (l + r) / qz 2 - h / qz 2 - 1 < x0 /\ (t + b) / qz 2 - h / qz 2 - 1 < y0 /\
  x1 < (l + r) / qz 2 + h / qz 2 + 1 /\ y1 < (t + b) / qz 2 + h / qz 2 + 1.
Proof.
  unfold max_bounds. destruct (bounds X c) as [[[l t] r] b]. cbv zeta. intros [= <- <- <- <-].
  split; [repeat eexists|].
  destruct (qfloor_spec ((l + r) / qz 2 - len (l - r) (t - b) / qz 2)) as [_ F1].
  destruct (qfloor_spec ((t + b) / qz 2 - len (l - r) (t - b) / qz 2)) as [_ F2].
  destruct (qceil_bounds ((l + r) / qz 2 + len (l - r) (t - b) / qz 2)) as [_ F3].
  destruct (qceil_bounds ((t + b) / qz 2 + len (l - r) (t - b) / qz 2)) as [_ F4].
  rewrite qz_plus, qz_1 in *. repeat split; qlra.
Qed.

(** Truncation. *)
Lemma trunc_near x : - (1) < qz (qtrunc x) - x /\ qz (qtrunc x) - x < 1 /\ qabs (qz (qtrunc x)) <= qabs x.
Proof.
  unfold qtrunc. destruct (qltb x 0) eqn:E.
  - apply qltb_lt in E. destruct (qceil_bounds x) as [C1 C2].
    assert (C3 : qz (qceil x) <= 0). { rewrite <- qz_0. apply qz_le. assert (qceil x < 1)%Z; [|lia]. apply (qz_lt _ 1). rewrite qz_1. qlra. }
    split; [qlra|split; [qlra|]]. rewrite !qabs_neg by qlra. qlra.
  - apply qltb_nlt in E. destruct (qfloor_spec x) as [C1 C2]. rewrite qz_plus, qz_1 in C2.
    assert (C3 : 0 <= qz (qfloor x)). { rewrite <- qz_0. apply qz_le. assert (-1 < qfloor x)%Z; [|lia]. apply (qz_lt (-1)). change (qz (-1)) with (qz (Z.opp 1)). rewrite qz_opp, qz_1. qlra. }
    split; [qlra|split; [qlra|]]. rewrite !qabs_pos by assumption. exact C1.
Qed.
Lemma trunc_scaled x : qabs (x - qz (qtrunc (x * clipper_scale)) / clipper_scale) * clipper_scale < 1.
Proof.
  pose proof scale_pos as P. set (s := clipper_scale) in *. clearbody s.
  assert (N : s <> 0) by (intros E; rewrite E in P; exact (Qclt_not_le _ _ P (Qcle_refl _))).
  destruct (trunc_near (x * s)) as (T1 & T2 & _). set (z := qz (qtrunc (x * s))) in *. clearbody z.
  pose proof (qdiv_mul z s N) as E. set (y := z / s) in *. clearbody y.
  destruct (qabs_spec (x - y)) as [[-> H]|[-> H]]; qlra.
Qed.
Theorem scaled_near p : Forall2 (fun a b => qabs (fst a - fst b) * clipper_scale < 1 /\ qabs (snd a - snd b) * clipper_scale < 1)
  p (from_clipper (to_clipper p)).
Proof.
  unfold from_clipper, to_clipper. rewrite map_map. induction p as [|a p IH]; constructor; [|exact IH].
  cbn [fst snd]. split; apply trunc_scaled.
Qed.

(** ** Scanlines *)
Theorem templates_cover x0 y0 x1 y1 step q : 0 < step -> in_box x0 y0 x1 y1 q -> y0 < y1 ->
  exists y, In [(x0, y); (x1, y)] (templates x0 y0 x1 y1 step) /\ y <= snd q /\ snd q <= y + step.
Proof.
  intros HS (B1 & B2 & B3 & B4) Y. unfold templates, arange.
  assert (E : (y1 - y0) / step = (y1 - y0 - 0) / step) by (f_equal; ring).
  destruct (arange_up (y1 - y0) step ltac:(qlra) HS) as (n & EA & L1 & L2). unfold arange in EA.
  assert (EL : Z.to_nat (qceil ((y1 - y0) / step)) = S n).
  { rewrite E. apply (f_equal (@length _)) in EA. rewrite !map_length, !seq_length in EA. exact EA. }
  rewrite EL. clear E EA EL.
  assert (H : exists k, (k <= n)%nat /\ y0 + qz (Z.of_nat k) * step <= snd q /\ snd q <= y0 + qz (Z.of_nat k) * step + step).
  { clear B1 B2. rename L2 into L. replace y1 with (y0 + (y1 - y0)) in B4 by ring. set (d := y1 - y0) in *. clearbody d.
    assert (B5 : snd q <= y0 + qz (Z.of_nat (S n)) * step) by qlra. clear L1 L B4 Y.
    induction n as [|n IH].
    - exists 0%nat. split; [lia|]. change (Z.of_nat 0) with 0%Z. rewrite qz_0. change (Z.of_nat 1) with 1%Z in B5. rewrite qz_1 in B5. split; qlra.
    - destruct (Qclt_le_dec (snd q) (y0 + qz (Z.of_nat (S n)) * step)) as [D|D].
      + destruct IH as (k & K1 & K2); [qlra|]. exists k. split; [lia|exact K2].
      + exists (S n). split; [lia|]. split; [exact D|]. replace (Z.of_nat (S (S n))) with (Z.of_nat (S n) + 1)%Z in B5 by lia.
        rewrite qz_plus, qz_1 in B5. qlra. }
  destruct H as (k & K1 & K2 & K3). exists (y0 + qz (Z.of_nat k) * step). split; [|split; assumption].
  apply in_map_iff. exists (y0 + qz (Z.of_nat k) * step). split; [reflexivity|]. apply in_map_iff. exists k. split; [reflexivity|].
  apply in_seq. lia.
Qed.
