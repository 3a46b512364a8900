(** * The strategies with their clipper *)
From Verif Require Import Base.Py Spec.Paths Spec.Zigzag Spec.Clippers Model.Geometry Model.Edges Model.Pocket Model.Strategy Model.Contour.
From Verif Require Import Proofs.GeomP Proofs.FillP Proofs.PocketP Proofs.DrillP Proofs.ZigzagP Proofs.ZigzagMultiP Proofs.ClipperP.
From Coq Require Import Lia.
Local Open Scope Qc_scope.
Local Open Scope list_scope.

(** ** Zig-zag *)
Lemma add_boundaries_iff X bs : forall c ps c', add_boundaries X c bs = Ok (ps, c') <->
  Forall2 (fun b p => boundary_polygon b = Ok p) bs ps /\ Forall closed_boundary bs /\
  forallb (ce_valid X) (map clip_of ps) = true /\
  wc_paths c' = wc_paths c ++ map clip_of ps /\
  wc_cache c' = wc_cache c ++ flat_map (fun b => match b with (BWire _ _, p) => [clip_of p] | _ => [] end) (combine bs ps).
Proof.
  induction bs as [|b bs IH]; intros c ps c'.
  - cbn [add_boundaries]. split.
    + intros [= <- <-]. cbn [map combine flat_map forallb]. rewrite !app_nil_r. repeat split; constructor.
    + intros (F & _ & _ & H1 & H2). inversion F; subst. cbn [map combine flat_map] in *. rewrite app_nil_r in *. destruct c, c'. cbn in *. subst. reflexivity.
  - assert (M : forall b p c1 ps c', boundary_polygon b = Ok p -> closed_boundary b ->
      forall cch, add_path X c (clip_of p) cch = Ok c1 -> (cch = match b with BWire _ _ => true | _ => false end) ->
      ((do (ps, c) <- add_boundaries X c1 bs; Ok (p :: ps, c)) = Ok (ps, c') <->
      Forall2 (fun b p => boundary_polygon b = Ok p) (b :: bs) ps /\ Forall closed_boundary (b :: bs) /\
      forallb (ce_valid X) (map clip_of ps) = true /\
      wc_paths c' = wc_paths c ++ map clip_of ps /\
      wc_cache c' = wc_cache c ++ flat_map (fun b => match b with (BWire _ _, p) => [clip_of p] | _ => [] end) (combine (b :: bs) ps))).
    { clear ps c'. intros b0 p c1 ps c' E C cch A EC. apply add_path_iff in A. destruct A as (_ & V & ->). split.
      - intros H. apply rbind_ok in H. destruct H as ([ps1 c2] & H1 & [= <- <-]). apply IH in H1. destruct H1 as (F & FC & FV & P1 & P2).
        cbn [map combine flat_map forallb wc_paths wc_cache] in *. rewrite V, FV, P1, P2, <- !app_assoc.
        split; [constructor; assumption|]. split; [constructor; assumption|]. split; [reflexivity|]. split; [reflexivity|].
        f_equal. f_equal. subst cch. unfold cached_part, clip_of. destruct b0; reflexivity.
      - intros (F & FC & FV & P1 & P2). inversion F as [|? p0 ? ps1 F1 F2]; subst. rewrite E in F1. injection F1 as <-.
        inversion FC as [|? ? C1 C2]; subst. cbn [map forallb combine flat_map] in *. apply andb_prop in FV. destruct FV as [_ FV].
        assert (H : add_boundaries X (WC (wc_paths c ++ [clip_of p]) (wc_cache c ++ cached_part (clip_of p) (match b0 with BWire _ _ => true | _ => false end))) bs = Ok (ps1, c')).
        { apply IH. split; [exact F2|]. split; [exact C2|]. split; [exact FV|]. cbn [wc_paths wc_cache]. rewrite P1, P2, <- !app_assoc.
          split; [reflexivity|]. f_equal. f_equal. unfold cached_part, clip_of. destruct b0; reflexivity. }
        rewrite H. reflexivity. }
    destruct b as [es [|]|p]; cbn [add_boundaries].
    + unfold add_clip_wire, add_wire_as. destruct (add_wire es true) as [p|] eqn:E; cbn [rbind].
      * change (CP (to_clipper p) PT_CLIP true) with (clip_of p). destruct (add_path X c (clip_of p) true) as [c1|] eqn:A; cbn [rbind].
        -- apply (M (BWire es true) p c1 ps c' E eq_refl true A eq_refl).
        -- split; [discriminate|]. intros (F & _ & FV & _). inversion F as [|? p0 ? ps1 F1 F2]; subst. cbn [boundary_polygon] in F1. rewrite E in F1. injection F1 as <-.
           cbn [map forallb] in FV. apply andb_prop in FV. destruct FV as [V _].
           assert (X0 : exists c1, add_path X c (clip_of p) true = Ok c1) by (eexists; apply add_path_iff; repeat split; exact V).
           destruct X0 as (c1 & X0). rewrite X0 in A. discriminate A.
      * split; [discriminate|]. intros (F & _). inversion F as [|? p0 ? ps1 F1 F2]; subst. cbn [boundary_polygon] in F1. rewrite E in F1. discriminate F1.
    + unfold add_clip_wire, add_wire_as. split.
      * destruct (add_wire es false) as [p|] eqn:E; cbn [rbind]; discriminate.
      * intros (_ & FC & _). inversion FC as [|? ? C1 _]. discriminate C1.
    + unfold add_clip_polygon. change (CP (to_clipper p) PT_CLIP true) with (clip_of p).
      destruct (add_path X c (clip_of p) false) as [c1|] eqn:A; cbn [rbind].
      * apply (M (BPolygon p) p c1 ps c' eq_refl I false A eq_refl).
      * split; [discriminate|]. intros (F & _ & FV & _). inversion F as [|? p0 ? ps1 F1 F2]; subst. injection F1 as <-.
        cbn [map forallb] in FV. apply andb_prop in FV. destruct FV as [V _].
        assert (X0 : exists c1, add_path X c (clip_of p) false = Ok c1) by (eexists; apply add_path_iff; repeat split; exact V).
        destruct X0 as (c1 & X0). rewrite X0 in A. discriminate A.
Qed.

Lemma add_subjects_spec X ts : forall c, add_subjects X c ts =
  if forallb (ce_valid X) (map scan_of ts) then Ok (WC (wc_paths c ++ map scan_of ts) (wc_cache c)) else Err KernelError.
Proof.
  induction ts as [|t ts IH]; intros c; cbn [add_subjects map forallb].
  - rewrite app_nil_r. destruct c. reflexivity.
  - unfold add_subject_polygon, add_path, engine_add. cbn [cp_type]. change (CP (to_clipper t) PT_SUBJECT false) with (scan_of t).
    destruct (ce_valid X (scan_of t)); cbn [andb rbind]; [|reflexivity]. rewrite IH. cbn [wc_paths wc_cache].
    rewrite <- app_assoc. reflexivity.
Qed.

Lemma mapM_Forall2_Ok {A B} (f : A -> result B) l bs : Forall2 (fun a b => f a = Ok b) l bs -> mapM f l = Ok bs.
Proof. apply mapM_ok. Qed.
Lemma max_bounds_paths X len c c' : wc_paths c = wc_paths c' -> max_bounds X len c = max_bounds X len c'.
Proof. unfold max_bounds, bounds. intros ->. reflexivity. Qed.

Theorem zig_zag_clipper_iff X len d st outer inner seqs : zig_zag_clipper X len d st outer inner = Ok seqs <->
  Forall closed_boundary (outer ++ inner) /\ zig_zag (clipper_for X len) d st outer inner = Ok seqs.
Proof.
  unfold zig_zag_clipper, zig_zag. split.
  - intros H. apply rbind_ok in H. destruct H as ([ops c1] & H1 & H). apply rbind_ok in H. destruct H as ([ips c2] & H2 & H).
    apply add_boundaries_iff in H1. destruct H1 as (F1 & C1 & V1 & P1 & _).
    apply add_boundaries_iff in H2. destruct H2 as (F2 & C2 & V2 & P2 & _). rewrite P1 in P2. cbn [wc_paths new_clipper app] in P2.
    split; [apply Forall_app; split; assumption|].
    rewrite (mapM_Forall2_Ok _ _ _ F1), (mapM_Forall2_Ok _ _ _ F2). cbn [rbind clipper_for zc_bounds zc_execute].
    rewrite map_app, forallb_app, V1, V2. cbn [andb rbind].
    rewrite <- map_app. rewrite <- map_app in P2. rewrite <- (max_bounds_paths X len c2 (WC (map clip_of (ops ++ ips)) []) P2).
    destruct (max_bounds X len c2) as [[[x0 y0] x1] y1]. destruct (qeqb (d * st) 0); [exact H|].
    rewrite add_subjects_spec in H. rewrite forallb_app, map_app, forallb_app, V1, V2. cbn [andb].
    destruct (forallb (ce_valid X) (map scan_of (templates x0 y0 x1 y1 (d * st)))) eqn:VT; [|discriminate H].
    cbn [rbind] in *. rewrite P2, map_app in H. exact H.
  - intros [C H]. apply Forall_app in C. destruct C as [C1 C2].
    apply rbind_ok in H. destruct H as (ops & H1 & H). apply mapM_ok in H1. apply rbind_ok in H. destruct H as (ips & H2 & H). apply mapM_ok in H2.
    cbn [clipper_for zc_bounds zc_execute] in H. rewrite map_app, forallb_app in H.
    destruct (forallb (ce_valid X) (map clip_of ops)) eqn:V1; [|discriminate H].
    destruct (forallb (ce_valid X) (map clip_of ips)) eqn:V2; [|discriminate H]. cbn [andb rbind] in H.
    assert (A1 : exists c1, add_boundaries X new_clipper outer = Ok (ops, c1) /\ wc_paths c1 = map clip_of ops).
    { eexists (WC _ _). split; [apply add_boundaries_iff; cbn [wc_paths wc_cache]; repeat split; assumption|reflexivity]. }
    destruct A1 as (c1 & A1 & P1).
    assert (A2 : exists c2, add_boundaries X c1 inner = Ok (ips, c2) /\ wc_paths c2 = map clip_of ops ++ map clip_of ips).
    { eexists (WC _ _). split; [apply add_boundaries_iff; cbn [wc_paths wc_cache]; rewrite ?P1; repeat split; assumption|reflexivity]. }
    destruct A2 as (c2 & A2 & P2). rewrite A1. cbn [rbind]. rewrite A2. cbn [rbind].
    rewrite (max_bounds_paths X len c2 (WC (map clip_of ops ++ map clip_of ips) []) P2).
    destruct (max_bounds X len _) as [[[x0 y0] x1] y1]. destruct (qeqb (d * st) 0); [exact H|].
    rewrite add_subjects_spec. rewrite forallb_app, forallb_app, V1, V2 in H. cbn [andb] in H.
    destruct (forallb (ce_valid X) (map scan_of (templates x0 y0 x1 y1 (d * st)))); [|discriminate H].
    cbn [rbind] in *. rewrite P2. exact H.
Qed.

(** Two different points: the bounds are not degenerate. *)
Lemma scale_lt a b : (a < b)%Z -> qz a / clipper_scale < qz b / clipper_scale.
Proof.
  intros H. pose proof (scale_le a b ltac:(lia)) as L. apply Qcle_lt_or_eq in L. destruct L as [L|L]; [exact L|].
  exfalso. assert (N : clipper_scale <> 0) by (intros E; pose proof scale_pos as P; rewrite E in P; exact (Qclt_not_le _ _ P (Qcle_refl _))).
  pose proof (qdiv_mul (qz a) _ N) as E1. rewrite L, (qdiv_mul (qz b) _ N) in E1. apply qz_inj in E1. lia.
Qed.
Lemma square_zero x y : x * x + y * y <= 0 -> x = 0 /\ y = 0.
Proof.
  intros H. assert (S1 : forall z : Qc, 0 <= z * z).
  { intros z. destruct (Qclt_le_dec z 0) as [D|D]; [|apply qmul_pos; assumption]. replace (z * z) with ((- z) * (- z)) by ring. apply qmul_pos; qlra. }
  assert (S2 : forall z : Qc, z * z <= 0 -> z = 0).
  { intros z D. destruct (Qc_dec z 0) as [[L|L]|E]; [| |exact E]; exfalso.
    - assert (0 < (- z) * (- z)) by (apply qmul_lt; qlra). qlra.
    - assert (0 < z * z) by (apply qmul_lt; assumption). qlra. }
  pose proof (S1 x). pose proof (S1 y). split; apply S2; qlra.
Qed.
Lemma bounds_open X len c x0 y0 x1 y1 : bounds_contain X -> long_enough len -> max_bounds X len c = (x0, y0, x1, y1) ->
  forall p1 p2 z1 z2, In p1 (wc_paths c) -> In p2 (wc_paths c) -> In z1 (cp_points p1) -> In z2 (cp_points p2) -> z1 <> z2 -> y0 < y1.
Proof.
  intros BC HL H p1 p2 z1 z2 I1 I2 J1 J2 N. destruct (ce_bounds X (wc_paths c)) as [[[l t] r] b] eqn:E.
  destruct (BC _ _ _ _ _ E _ _ I1 J1) as [B1 B2]. destruct (BC _ _ _ _ _ E _ _ I2 J2) as [B3 B4].
  unfold max_bounds, bounds in H. rewrite E in H.
  set (L := qz l / clipper_scale) in *. set (T := qz t / clipper_scale) in *. set (R := qz r / clipper_scale) in *. set (B := qz b / clipper_scale) in *.
  destruct (HL (L - R) (T - B)) as [P0 P1]. set (h := len (L - R) (T - B)) in *. clearbody h.
  assert (Hh : 0 < h).
  { apply Qcle_lt_or_eq in P0. destruct P0 as [P0|P0]; [exact P0|]. exfalso. rewrite <- P0 in P1.
    destruct (square_zero (L - R) (T - B)) as [E1 E2]; [qlra|].
    assert (l = r). { destruct (Z.lt_trichotomy l r) as [D|[D|D]]; [|exact D|lia]. apply scale_lt in D. fold L R in D. exfalso. qlra. }
    assert (t = b). { destruct (Z.lt_trichotomy t b) as [D|[D|D]]; [|exact D|]; apply scale_lt in D; fold T B in D; exfalso; qlra. }
    apply N. destruct z1, z2. cbn [fst snd] in *. f_equal; lia. }
  injection H as _ <- _ <-. destruct (qfloor_spec ((T + B) / qz 2 - h / qz 2)) as [F1 _]. destruct (qceil_bounds ((T + B) / qz 2 + h / qz 2)) as [F2 _].
  assert (Hg : 0 < h / qz 2). { assert (EE : h / qz 2 * (1 + 1) = h) by (apply Qc_is_canon; qc2q; unfold inject_Z; field). set (g := h / qz 2) in *. clearbody g. qlra. }
  qlra.
Qed.

Lemma templates_flat x0 y0 x1 y1 step t : In t (templates x0 y0 x1 y1 step) -> exists y, t = [(x0, y); (x1, y)].
Proof. unfold templates. intros H. apply in_map_iff in H. destruct H as (y & <- & _). exists y. reflexivity. Qed.

(** Every point of the boundaries lies at most one step above a scanline template, between its ends. *)
Theorem zig_zag_clipper_covers X len d st outer inner seqs : bounds_contain X -> long_enough len -> 0 < d * st ->
  zig_zag_clipper X len d st outer inner = Ok seqs ->
  exists ps ts scanlines, Forall2 (fun b p => boundary_polygon b = Ok p) (outer ++ inner) ps /\
    Forall closed_boundary (outer ++ inner) /\
    (exists open closed loops, ce_execute X CT_INTERSECTION (map clip_of ps ++ map scan_of ts) = Ok (open, closed) /\
       Forall2 looped closed loops /\ scanlines = loops ++ map from_clipper open) /\
    (forall t, In t ts -> exists xa xb y, t = [(xa, y); (xb, y)]) /\
    ((exists p1 p2 z1 z2, In p1 ps /\ In p2 ps /\ In z1 (to_clipper p1) /\ In z2 (to_clipper p2) /\ z1 <> z2) ->
     forall p q, In p ps -> In q (from_clipper (to_clipper p)) ->
       exists xa xb y, In [(xa, y); (xb, y)] ts /\ xa <= fst q /\ fst q <= xb /\ y <= snd q /\ snd q <= y + d * st) /\
    (Forall (fun s : path => exists a b, s = [a; b]) scanlines -> exists polygons,
       Forall2 (inserted (concat scanlines)) ps polygons /\ cover_once polygons scanlines seqs).
Proof.
  intros BC HL HS H. apply zig_zag_clipper_iff in H. destruct H as [HC H].
  destruct (zig_zag_covers _ _ _ _ _ _ H) as (ps & bnds & scanlines & F & _ & HB & HX & HV).
  cbn [clipper_for zc_bounds zc_execute] in HB, HX.
  destruct (forallb (ce_valid X) (map clip_of ps)); [|discriminate HB].
  destruct bnds as [[[x0 y0] x1] y1]. injection HB as HB.
  destruct (forallb (ce_valid X) (map clip_of ps ++ _)) in HX; [|discriminate HX].
  apply execute_spec in HX. cbn [wc_paths] in HX.
  exists ps, (templates x0 y0 x1 y1 (d * st)), scanlines. split; [exact F|]. split; [exact HC|]. split; [exact HX|].
  split. { intros t It. destruct (templates_flat _ _ _ _ _ _ It) as (y & ->). exists x0, x1, y. reflexivity. }
  split; [|exact HV]. intros (p1 & p2 & z1 & z2 & I1 & I2 & J1 & J2 & N) p q Ip Iq.
  assert (Y : y0 < y1).
  { apply (bounds_open X len _ x0 y0 x1 y1 BC HL HB (clip_of p1) (clip_of p2) z1 z2); try assumption; apply in_map; assumption. }
  pose proof (max_bounds_contain X len _ x0 y0 x1 y1 BC HL HB (clip_of p) q 1 0 (in_map clip_of _ _ Ip) Iq ltac:(ring)) as IB.
  rewrite turned_none in IB. destruct (templates_cover x0 y0 x1 y1 (d * st) q HS IB Y) as (y & I & Y1 & Y2).
  exists x0, x1, y. destruct IB as (B1 & B2 & _). repeat split; assumption.
Qed.

(** ** Contours *)
Section Shrink.
  Context {W : Type} (off : W -> list W -> Prop).

  Lemma shrinks_rotate ws s : shrinks off ws s -> forall q r, ws = q ++ r ->
    exists kq rest, Forall2 off q kq /\ s = concat kq ++ rest /\ shrinks off (r ++ concat kq) rest.
  Proof.
    induction 1 as [|ws kids rest F H IH]; intros q r E.
    - symmetry in E. apply app_eq_nil in E. destruct E as [-> ->]. exists [], []. split; [constructor|]. split; [reflexivity|constructor].
    - subst ws. apply Forall2_app_inv_l in F. destruct F as (kq & kr & F1 & F2 & ->). rewrite concat_app in *.
      destruct (IH _ _ eq_refl) as (kkq & r' & F3 & -> & S). exists kq, (concat kr ++ concat kkq ++ r').
      split; [exact F1|]. split; [rewrite <- app_assoc; reflexivity|]. rewrite app_assoc, <- concat_app.
      apply shrinks_on; [apply Forall2_app; assumption|]. rewrite concat_app. exact S.
  Qed.
  Lemma shrinks_unrotate q kq r rest : Forall2 off q kq -> shrinks off (r ++ concat kq) rest -> shrinks off (q ++ r) (concat kq ++ rest).
  Proof.
    intros F H. destruct (shrinks_rotate _ _ H r (concat kq) eq_refl) as (kr & r' & F2 & -> & S).
    rewrite app_assoc, <- concat_app. apply shrinks_on; [apply Forall2_app; assumption|]. rewrite concat_app. exact S.
  Qed.
  Lemma shrinks_pop w q kids rest : off w kids -> shrinks off (q ++ kids) rest -> shrinks off (w :: q) (kids ++ rest).
  Proof.
    intros O H. assert (E : kids = concat [kids]) by (cbn [concat]; rewrite app_nil_r; reflexivity). rewrite E at 1.
    change (w :: q) with ([w] ++ q). apply shrinks_unrotate; [constructor; [exact O|constructor]|]. rewrite <- E. exact H.
  Qed.
  Lemma shrinks_push w q s : shrinks off (w :: q) s -> exists kids rest, off w kids /\ s = kids ++ rest /\ shrinks off (q ++ kids) rest.
  Proof.
    intros H. destruct (shrinks_rotate _ _ H [w] q eq_refl) as (k & rest & F & -> & S).
    inversion F as [|? kids ? ? O N]; subst. inversion N; subst. cbn [concat] in *. rewrite app_nil_r in *. exists kids, rest. auto.
  Qed.
End Shrink.

Lemma add_wire_as_iff X c es t cache closed polygon c' : add_wire_as X c es t cache closed = Ok (polygon, c') <->
  add_wire es closed = Ok polygon /\ add_path X c (CP (to_clipper polygon) t closed) cache = Ok c'.
Proof.
  unfold add_wire_as. destruct (add_wire es closed) as [p|]; cbn [rbind]; [|split; [discriminate|intros [H _]; discriminate H]].
  destruct (add_path X c (CP (to_clipper p) t closed) cache) as [c1|] eqn:E; cbn [rbind].
  - split; [intros [= <- <-]; split; [reflexivity|exact E]|]. intros [[= <-] H]. rewrite E in H. injection H as <-. reflexivity.
  - split; [discriminate|]. intros [[= <-] H]. rewrite E in H. discriminate H.
Qed.

Lemma clip_wires_iff X K ws : forall c c', clip_wires X K c ws = Ok c' <-> exists paths,
  Forall2 (wire_path K PT_CLIP) ws paths /\ Forall (admitted_path X) paths /\ c' = WC (wc_paths c ++ paths) (wc_cache c ++ paths).
Proof.
  induction ws as [|w ws IH]; intros c c'; cbn [clip_wires].
  - split.
    + intros [= <-]. exists []. rewrite !app_nil_r. split; [constructor|]. split; [constructor|]. destruct c; reflexivity.
    + intros (ps & F & _ & ->). inversion F. rewrite !app_nil_r. destruct c; reflexivity.
  - split.
    + intros H. apply rbind_ok in H. destruct H as ([polygon c1] & H1 & H2). apply add_wire_as_iff in H1. destruct H1 as [H0 H1].
      apply add_path_iff in H1. destruct H1 as (A1 & A2 & ->). apply IH in H2. destruct H2 as (ps & F & FA & ->).
      exists (CP (to_clipper polygon) PT_CLIP (ck_closed K w) :: ps). cbn [wc_paths wc_cache cached_part]. rewrite <- !app_assoc.
      split; [constructor; [exists polygon; split; [exact H0|reflexivity]|exact F]|]. split; [constructor; [split; assumption|exact FA]|reflexivity].
    + intros (ps & F & FA & ->). inversion F as [|? p ? ps' (polygon & H0 & ->) F2]; subst. inversion FA as [|? ? [A1 A2] FA2]; subst.
      assert (E : add_clip_wire X c (ck_edges K w) (ck_closed K w) = Ok (polygon, WC (wc_paths c ++ [CP (to_clipper polygon) PT_CLIP (ck_closed K w)])
        (wc_cache c ++ [CP (to_clipper polygon) PT_CLIP (ck_closed K w)]))).
      { apply add_wire_as_iff. split; [exact H0|]. apply add_path_iff. split; [exact A1|]. split; [exact A2|reflexivity]. }
      rewrite E. cbn [rbind]. apply IH. exists ps'. split; [exact F2|]. split; [exact FA2|]. cbn [wc_paths wc_cache]. rewrite <- !app_assoc. reflexivity.
Qed.
Lemma subject_wires_iff X K ws : forall c c', subject_wires X K c ws = Ok c' <-> exists paths,
  Forall2 (wire_path K PT_SUBJECT) ws paths /\ Forall (admitted_path X) paths /\ c' = WC (wc_paths c ++ paths) (wc_cache c).
Proof.
  induction ws as [|w ws IH]; intros c c'; cbn [subject_wires].
  - split.
    + intros [= <-]. exists []. rewrite !app_nil_r. split; [constructor|]. split; [constructor|]. destruct c; reflexivity.
    + intros (ps & F & _ & ->). inversion F. rewrite !app_nil_r. destruct c; reflexivity.
  - split.
    + intros H. apply rbind_ok in H. destruct H as ([polygon c1] & H1 & H2). apply add_wire_as_iff in H1. destruct H1 as [H0 H1].
      apply add_path_iff in H1. destruct H1 as (A1 & A2 & ->). apply IH in H2. destruct H2 as (ps & F & FA & ->).
      exists (CP (to_clipper polygon) PT_SUBJECT (ck_closed K w) :: ps). cbn [wc_paths wc_cache cached_part]. rewrite app_nil_r, <- !app_assoc.
      split; [constructor; [exists polygon; split; [exact H0|reflexivity]|exact F]|]. split; [constructor; [split; assumption|exact FA]|reflexivity].
    + intros (ps & F & FA & ->). inversion F as [|? p ? ps' (polygon & H0 & ->) F2]; subst. inversion FA as [|? ? [A1 A2] FA2]; subst.
      assert (E : add_subject_wire X c (ck_edges K w) (ck_closed K w) = Ok (polygon, WC (wc_paths c ++ [CP (to_clipper polygon) PT_SUBJECT (ck_closed K w)])
        (wc_cache c))).
      { apply add_wire_as_iff. split; [exact H0|]. apply add_path_iff. split; [exact A1|]. split; [exact A2|]. cbn [cached_part]. rewrite app_nil_r. reflexivity. }
      rewrite E. cbn [rbind]. apply IH. exists ps'. split; [exact F2|]. split; [exact FA2|]. cbn [wc_paths wc_cache]. rewrite <- !app_assoc. reflexivity.
Qed.

Lemma shrink_sound X K step fuel : forall queue c c', shrink X K fuel step queue c = Ok c' -> exists subs paths,
  shrinks (offset_once K step) queue subs /\ Forall2 (wire_path K PT_SUBJECT) subs paths /\ Forall (admitted_path X) paths /\
  c' = WC (wc_paths c ++ paths) (wc_cache c).
Proof.
  induction fuel as [|fuel IH]; intros [|w queue] c c' H; cbn [shrink] in H; try discriminate H.
  1,2: injection H as <-; exists [], []; rewrite app_nil_r; (split; [constructor|]); (split; [constructor|]); (split; [constructor|]); destruct c; reflexivity.
  destruct (ck_offset2D K w step) as [ws|e] eqn:E.
  - apply rbind_ok in H. destruct H as (c1 & H1 & H2). apply subject_wires_iff in H1. destruct H1 as (ps & F & A & ->).
    destruct (IH _ _ _ H2) as (subs & paths & S & F2 & A2 & ->). exists (ws ++ subs), (ps ++ paths).
    split; [apply shrinks_pop; [left; exact E|exact S]|]. split; [apply Forall2_app; assumption|].
    split; [apply Forall_app; split; assumption|]. cbn [wc_paths wc_cache]. rewrite <- app_assoc. reflexivity.
  - destruct e; try discriminate H. destruct (IH _ _ _ H) as (subs & paths & S & R). exists subs, paths.
    split; [|exact R]. change subs with ([] ++ subs). apply shrinks_pop; [right; split; [exact E|reflexivity]|]. rewrite app_nil_r. exact S.
Qed.
Lemma shrink_complete X K step fuel : forall queue c subs paths, shrinks (offset_once K step) queue subs ->
  Forall2 (wire_path K PT_SUBJECT) subs paths -> Forall (admitted_path X) paths -> (length queue + length subs <= fuel)%nat ->
  shrink X K fuel step queue c = Ok (WC (wc_paths c ++ paths) (wc_cache c)).
Proof.
  induction fuel as [|fuel IH]; intros [|w queue] c subs paths S F A L; cbn [shrink].
  - destruct subs; [|cbn [length] in L; lia]. inversion F. rewrite app_nil_r. destruct c; reflexivity.
  - cbn [length] in L. lia.
  - assert (E : subs = []).
    { remember [] as q eqn:EQ in S. clear - S EQ. induction S as [|ws kids rest F H IH]; [reflexivity|]. subst ws. inversion F; subst. cbn [concat app]. apply IH. reflexivity. }
    rewrite E in F. inversion F. rewrite app_nil_r. destruct c; reflexivity.
  - destruct (shrinks_push _ _ _ _ S) as (kids & rest & O & -> & S2). apply Forall2_app_inv_l in F. destruct F as (p1 & p2 & F1 & F2 & ->).
    apply Forall_app in A. destruct A as [A1 A2]. rewrite app_length in L. cbn [length] in L. destruct O as [O|[O ->]]; rewrite O.
    + assert (E : subject_wires X K c kids = Ok (WC (wc_paths c ++ p1) (wc_cache c))) by (apply subject_wires_iff; exists p1; auto).
      rewrite E. cbn [rbind]. rewrite (IH (queue ++ kids) _ rest p2 S2 F2 A2) by (rewrite app_length; lia).
      cbn [wc_paths wc_cache]. rewrite <- app_assoc. reflexivity.
    + inversion F1; subst. rewrite app_nil_r in S2. cbn [app length] in *. apply (IH queue c rest p2 S2 F2 A2). lia.
Qed.

Lemma shrink_all_sound X K step fuel outer : forall c c', shrink_all X K fuel step outer c = Ok c' -> exists subss paths,
  Forall2 (fun w subs => shrinks (offset_once K step) [w] subs) outer subss /\ Forall2 (wire_path K PT_SUBJECT) (concat subss) paths /\
  Forall (admitted_path X) paths /\ c' = WC (wc_paths c ++ paths) (wc_cache c).
Proof.
  induction outer as [|w outer IH]; intros c c' H; cbn [shrink_all] in H.
  - injection H as <-. exists [], []. rewrite app_nil_r. split; [constructor|]. split; [constructor|]. split; [constructor|]. destruct c; reflexivity.
  - apply rbind_ok in H. destruct H as (c1 & H1 & H2). apply shrink_sound in H1. destruct H1 as (subs & p1 & S & F & A & ->).
    destruct (IH _ _ H2) as (subss & p2 & S2 & F2 & A2 & ->). exists (subs :: subss), (p1 ++ p2).
    split; [constructor; assumption|]. split; [cbn [concat]; apply Forall2_app; assumption|]. split; [apply Forall_app; split; assumption|].
    cbn [wc_paths wc_cache]. rewrite <- app_assoc. reflexivity.
Qed.
Lemma shrink_all_complete X K step fuel outer : forall c subss paths,
  Forall2 (fun w subs => shrinks (offset_once K step) [w] subs) outer subss -> Forall2 (wire_path K PT_SUBJECT) (concat subss) paths ->
  Forall (admitted_path X) paths -> Forall (fun subs => (length subs < fuel)%nat) subss ->
  shrink_all X K fuel step outer c = Ok (WC (wc_paths c ++ paths) (wc_cache c)).
Proof.
  induction outer as [|w outer IH]; intros c subss paths S F A L; inversion S as [|? subs ? rest S1 S2]; subst; cbn [shrink_all concat] in *.
  - inversion F. rewrite app_nil_r. destruct c; reflexivity.
  - apply Forall2_app_inv_l in F. destruct F as (p1 & p2 & F1 & F2 & ->). apply Forall_app in A. destruct A as [A1 A2].
    inversion L as [|? ? L1 L2]; subst. rewrite (shrink_complete X K step fuel [w] c subs p1 S1 F1 A1) by (cbn [length]; lia).
    cbn [rbind]. rewrite (IH _ _ _ S2 F2 A2 L2). cbn [wc_paths wc_cache]. rewrite <- app_assoc. reflexivity.
Qed.

Lemma short_sort_fails t p : (length p < 2)%nat -> sort_path t p = Err IndexError.
Proof.
  destruct p as [|a [|b p]]; cbn [length]; intros L; [reflexivity| |lia]. unfold sort_path. cbn [last removelast]. rewrite pt_eqb_refl. reflexivity.
Qed.
Lemma sort_ok raw paths : sort_clipper_output raw = Ok paths -> exists first rest rest', raw = first :: rest /\ paths = first :: rest' /\
  Forall2 (fun p q : path => length q = length p /\ (forall u, In u q <-> In u p) /\ (closed_path p -> restarted p q)) rest rest' /\
  Forall2 (starts_nearest (last first (0, 0))) rest rest'.
Proof.
  destruct raw as [|[|a p] rest]; cbn [sort_clipper_output]; try discriminate. intros H.
  assert (L : Forall (fun p : path => (2 <= length p)%nat) rest).
  { apply rbind_ok in H. destruct H as (r & H & _). apply mapM_ok in H. induction H as [|x y l l' H1 H2 IH]; constructor; [|exact IH].
    destruct (Nat.lt_ge_cases (length x) 2) as [D|D]; [|exact D]. rewrite short_sort_fails in H1 by exact D. discriminate H1. }
  destruct (sort_output_spec a p rest L) as (rest' & E & F1 & F2). cbn [sort_clipper_output] in E. rewrite E in H. injection H as <-.
  exists (a :: p), rest, rest'. split; [reflexivity|]. split; [reflexivity|]. split; [exact F1|].
  assert (EL : last (a :: p) a = last (a :: p) (0, 0)). { clear. revert a. induction p as [|b p IH]; intros a; [reflexivity|]. cbn [last] in *. destruct p; [reflexivity|apply IH]. }
  rewrite <- EL. exact F2.
Qed.

Theorem contour_spec X K fuel d st outer inner paths : contour X K fuel d st outer inner = Ok paths ->
  exists subss clips subjects open closed loops first rest rest',
    Forall2 (fun w subs => shrinks (offset_once K (- qabs (d * st))) [w] subs) outer subss /\
    Forall2 (wire_path K PT_CLIP) (outer ++ inner) clips /\ Forall (fun p => cp_closed p = true) clips /\
    Forall2 (wire_path K PT_SUBJECT) (concat subss) subjects /\
    ce_execute X CT_INTERSECTION (clips ++ subjects) = Ok (open, closed) /\ Forall2 looped closed loops /\
    loops ++ map from_clipper open = first :: rest /\ paths = first :: rest' /\
    Forall2 (fun p q : path => length q = length p /\ (forall u, In u q <-> In u p) /\ (closed_path p -> restarted p q)) rest rest'.
Proof.
  unfold contour. intros H. apply rbind_ok in H. destruct H as (c1 & H1 & H). apply rbind_ok in H. destruct H as (c2 & H2 & H).
  apply rbind_ok in H. destruct H as (c3 & H3 & H). apply rbind_ok in H. destruct H as (raw & H4 & H5).
  apply clip_wires_iff in H1. destruct H1 as (k1 & F1 & A1 & ->). apply clip_wires_iff in H2. destruct H2 as (k2 & F2 & A2 & ->).
  apply shrink_all_sound in H3. destruct H3 as (subss & subjects & S & F3 & _ & ->).
  apply execute_spec in H4. cbn [wc_paths new_clipper app] in H4. destruct H4 as (open & closed & loops & HX & HL & HR).
  destruct (sort_ok _ _ H5) as (first & rest & rest' & -> & -> & FS & _).
  exists subss, (k1 ++ k2), subjects, open, closed, loops, first, rest, rest'.
  split; [exact S|]. split; [apply Forall2_app; assumption|]. split.
  { assert (HC : forall ws ks, Forall2 (wire_path K PT_CLIP) ws ks -> Forall (admitted_path X) ks -> Forall (fun p => cp_closed p = true) ks).
    { intros ws ks F A. induction F as [|w p ws ks (pg & _ & ->) F IH]; constructor; inversion A as [|? ? [B _] A']; subst; [exact (B eq_refl)|exact (IH A')]. }
    apply Forall_app. split; [exact (HC _ _ F1 A1)|exact (HC _ _ F2 A2)]. }
  split; [exact F3|]. split; [exact HX|]. split; [exact HL|]. split; [symmetry; exact HR|]. split; [reflexivity|exact FS].
Qed.

(** With enough rounds, if all wires can be flattened and the engine takes the paths. *)
Theorem contour_complete X K fuel d st outer inner subss clips subjects open closed loops first rest :
  Forall2 (fun w subs => shrinks (offset_once K (- qabs (d * st))) [w] subs) outer subss ->
  Forall2 (wire_path K PT_CLIP) (outer ++ inner) clips -> Forall (fun p => cp_closed p = true) clips ->
  Forall2 (wire_path K PT_SUBJECT) (concat subss) subjects ->
  Forall (fun p => ce_valid X p = true) (clips ++ subjects) ->
  ce_execute X CT_INTERSECTION (clips ++ subjects) = Ok (open, closed) -> Forall2 looped closed loops ->
  loops ++ map from_clipper open = first :: rest -> first <> [] -> Forall (fun p : path => (2 <= length p)%nat) rest ->
  Forall (fun subs => (length subs < fuel)%nat) subss ->
  exists paths, contour X K fuel d st outer inner = Ok paths.
Proof.
  intros S F1 C F2 V HX HL HR NF LR L. unfold contour. cbv zeta.
  apply Forall2_app_inv_l in F1. destruct F1 as (k1 & k2 & K1 & K2 & ->). apply Forall_app in V. destruct V as [V1 V2]. apply Forall_app in V1. destruct V1 as [V0 V1].
  apply Forall_app in C. destruct C as [C0 C1].
  assert (AD : forall ks, Forall (fun p => ce_valid X p = true) ks -> Forall (fun p => cp_closed p = true) ks -> Forall (admitted_path X) ks).
  { intros ks VV. induction VV as [|p ks v VV IH]; intros CC; constructor; inversion CC; subst; [split; [intros _; assumption|exact v]|apply IH; assumption]. }
  assert (AS : forall ws ks, Forall2 (wire_path K PT_SUBJECT) ws ks -> Forall (fun p => ce_valid X p = true) ks -> Forall (admitted_path X) ks).
  { intros ws ks F VV. induction F as [|w p ws ks (pg & _ & ->) F IH]; constructor; inversion VV; subst; [split; [discriminate|assumption]|apply IH; assumption]. }
  assert (E1 : clip_wires X K new_clipper outer = Ok (WC k1 k1)) by (apply clip_wires_iff; exists k1; split; [exact K1|split; [exact (AD _ V0 C0)|reflexivity]]).
  rewrite E1. cbn [rbind].
  assert (E2 : clip_wires X K (WC k1 k1) inner = Ok (WC (k1 ++ k2) (k1 ++ k2))) by (apply clip_wires_iff; exists k2; split; [exact K2|split; [exact (AD _ V1 C1)|reflexivity]]).
  rewrite E2. cbn [rbind]. rewrite (shrink_all_complete X K _ fuel outer _ _ _ S F2 (AS _ _ F2 V2) L). cbn [rbind wc_paths wc_cache].
  assert (E3 : execute X (WC ((k1 ++ k2) ++ subjects) (k1 ++ k2)) CT_INTERSECTION = Ok (first :: rest)).
  { apply execute_spec. exists open, closed, loops. split; [exact HX|]. split; [exact HL|]. symmetry. exact HR. }
  rewrite E3. cbn [rbind]. destruct first as [|a p]; [destruct NF; reflexivity|].
  destruct (sort_output_spec a p rest LR) as (rest' & E & _). exists ((a :: p) :: rest'). exact E.
Qed.

(** The engine has nothing to say: IndexError, also when nothing could be shrunk. *)
Theorem contour_nothing X K fuel d st outer inner clips : (0 < fuel)%nat ->
  Forall (fun w => ck_offset2D K w (- qabs (d * st)) = Err ValueError) outer ->
  Forall2 (wire_path K PT_CLIP) (outer ++ inner) clips -> Forall (fun p => cp_closed p = true) clips ->
  Forall (fun p => ce_valid X p = true) clips -> ce_execute X CT_INTERSECTION clips = Ok ([], []) ->
  contour X K fuel d st outer inner = Err IndexError.
Proof.
  intros PF O F1 C V HX. unfold contour. cbv zeta. apply Forall2_app_inv_l in F1. destruct F1 as (k1 & k2 & K1 & K2 & ->).
  apply Forall_app in V. destruct V as [V0 V1]. apply Forall_app in C. destruct C as [C0 C1].
  assert (AD : forall ks, Forall (fun p => ce_valid X p = true) ks -> Forall (fun p => cp_closed p = true) ks -> Forall (admitted_path X) ks).
  { intros ks VV. induction VV as [|p ks v VV IH]; intros CC; constructor; inversion CC; subst; [split; [intros _; assumption|exact v]|apply IH; assumption]. }
  assert (E1 : clip_wires X K new_clipper outer = Ok (WC k1 k1)) by (apply clip_wires_iff; exists k1; split; [exact K1|split; [exact (AD _ V0 C0)|reflexivity]]).
  rewrite E1. cbn [rbind].
  assert (E2 : clip_wires X K (WC k1 k1) inner = Ok (WC (k1 ++ k2) (k1 ++ k2))) by (apply clip_wires_iff; exists k2; split; [exact K2|split; [exact (AD _ V1 C1)|reflexivity]]).
  rewrite E2. cbn [rbind].
  assert (E3 : forall c, shrink_all X K fuel (- qabs (d * st)) outer c = Ok c).
  { clear - O PF. induction O as [|w outer O1 O IH]; intros c; [reflexivity|]. cbn [shrink_all]. destruct fuel as [|n]; [lia|]. cbn [shrink].
    rewrite O1. destruct n; cbn [shrink rbind]; apply IH. }
  rewrite E3. cbn [rbind]. unfold execute. cbn [wc_paths]. rewrite HX. reflexivity.
Qed.

(** ** Direction *)
Theorem direction : cut_clockwise true true true = true /\
  forall a b c, cut_clockwise (negb a) b c = negb (cut_clockwise a b c) /\ cut_clockwise a (negb b) c = negb (cut_clockwise a b c) /\
    cut_clockwise a b (negb c) = negb (cut_clockwise a b c).
Proof. split; [reflexivity|]. intros [] [] []; repeat split. Qed.
