(** * Zig-zag routing: concrete cases *)
From Verif Require Import Base.Py Model.Edges Model.Strategy Spec.Paths Spec.Zigzag Proofs.GeomP Proofs.FillP Proofs.RouteEx Proofs.DrillP
  Proofs.LinkedP Proofs.ZigzagP Proofs.ZigzagMultiP.
From Coq Require Import Permutation Lia.
Local Open Scope Qc_scope.
Local Open Scope list_scope.

(** Deciding the hypotheses for concrete polygons. *)
Definition proper_b (p : path) : bool := forallb (fun ab => negb (pt_eqb (fst ab) (snd ab))) (steps p).
Lemma proper_b_ok p : proper_b p = true -> proper p.
Proof.
  intros H a b I. unfold proper_b in H. rewrite forallb_forall in H. specialize (H _ I). cbn [fst snd] in H.
  intros ->. rewrite pt_eqb_refl in H. discriminate.
Qed.
Definition near_b (q : pt) (p : path) : bool :=
  existsb (fun ab => match dist_to_segment_squared q (fst ab) (snd ab) with Ok (d, _) => qltb d link_tolerance | Err _ => false end) (steps p).
Lemma near_b_ok q p : proper p -> near_b q p = true <-> near_path link_tolerance q p.
Proof.
  intros PR. unfold near_b, near_path. rewrite existsb_exists. split.
  - intros ([a b] & I & H). cbn [fst snd] in H. destruct (close_spec q a b (PR _ _ I)) as (d & c & E & CS). rewrite E in H.
    exists a, b. split; [exact I|apply CS; exact H].
  - intros (a & b & I & H). exists (a, b). split; [exact I|]. cbn [fst snd].
    destruct (close_spec q a b (PR _ _ I)) as (d & c & -> & CS). apply CS. exact H.
Qed.
Definition nodup_b (l : path) : bool :=
  (fix go l := match l with [] => true | a :: l => negb (mem_pt a l) && go l end) l.
Lemma nodup_b_ok l : nodup_b l = true -> NoDup l.
Proof.
  induction l as [|a l IH]; [constructor|]. cbn. rewrite andb_true_iff, negb_true_iff. intros [H1 H2]. constructor; [|apply IH; exact H2].
  intros C. apply mem_pt_iff in C. congruence.
Qed.
Definition paths_eqb (a b : list path) : bool := Nat.eqb (length a) (length b) && forallb (fun ab => path_eqb (fst ab) (snd ab)) (combine a b).
Lemma paths_eqb_eq a b : paths_eqb a b = true -> a = b.
Proof.
  unfold paths_eqb. revert b. induction a as [|x a IH]; intros [|y b]; cbn [length Nat.eqb combine forallb andb fst snd]; try discriminate; [reflexivity|].
  intros H. apply andb_true_iff in H. destruct H as [H1 H2]. apply andb_true_iff in H2. destruct H2 as [H2 H3].
  apply path_eqb_eq in H2. subst. f_equal. apply IH. rewrite H1, H3. reflexivity.
Qed.
Definition is_paths (r : result (list path)) (b : list path) : bool := match r with Ok a => paths_eqb a b | Err _ => false end.
Lemma is_paths_ok r b : is_paths r b = true -> r = Ok b.
Proof. destruct r; [|discriminate]. intros H. apply paths_eqb_eq in H. congruence. Qed.
Definition is_path (r : result path) (b : path) : bool := match r with Ok a => path_eqb a b | Err _ => false end.
Lemma is_path_ok r b : is_path r b = true -> r = Ok b.
Proof. destruct r; [|discriminate]. intros H. apply path_eqb_eq in H. congruence. Qed.
Definition is_err {A} (r : result A) (e : exn) : Prop := r = Err e.

(** Pyclipper answering with given scanlines. *)
Definition scan_answer (scanlines : list path) : zig_clipper :=
  ZC (fun _ => Ok (qz (-3), qz (-3), qz 13, qz 13)) (fun _ _ => Ok scanlines).

(** A square, closed explicitly, and three scanlines. *)
Definition ex_square : path := square 0 0 10.
Definition ex_first : path := [zp 10 2; zp 0 2].
Definition ex_rest : list path := [[zp 0 5; zp 10 5]; [zp 0 8; zp 10 8]].

Lemma ex_zigzag_meets :
  boundary_polygon (BPolygon ex_square) = Ok ex_square /\ proper ex_square /\ qz 4 * qq 3 4 <> 0 /\
  Forall (fun s : path => exists a b, s = [a; b]) (ex_first :: ex_rest) /\ NoDup (concat (ex_first :: ex_rest)) /\
  (forall q, In q (concat (ex_first :: ex_rest)) -> near_path link_tolerance q ex_square).
Proof.
  assert (PR : proper ex_square) by (apply proper_b_ok; vm_compute; reflexivity).
  split; [reflexivity|split; [exact PR|split; [intros C; apply qeqb_eq in C; vm_compute in C; discriminate|]]]. split; [|split].
  - repeat constructor; do 2 eexists; reflexivity.
  - apply nodup_b_ok. vm_compute. reflexivity.
  - intros q I. apply near_b_ok; [exact PR|].
    assert (F : forallb (fun q => near_b q ex_square) (concat (ex_first :: ex_rest)) = true) by (vm_compute; reflexivity).
    rewrite forallb_forall in F. apply F. exact I.
Qed.
Lemma ex_zigzag_route : zig_zag (scan_answer (ex_first :: ex_rest)) (qz 4) (qq 3 4) [BPolygon ex_square] [] =
  Ok [[zp 0 2; zp 10 2; zp 10 5; zp 0 5; zp 0 8; zp 10 8]].
Proof. apply is_paths_ok. vm_compute. reflexivity. Qed.

(** Two squares; the second one has three scanlines, two of them far from the first one entered. *)
Definition sq_a : path := square 0 0 10.
Definition sq_b : path := square 20 0 10.
Definition two_first : path := [zp 0 5; zp 10 5].
Definition two_rest : list path := [[zp 20 3; zp 30 3]; [zp 20 6; zp 30 6]; [(qz 20, qq 19 2); (qz 30, qq 19 2)]].
Lemma two_meets :
  Forall2 (fun b p => boundary_polygon b = Ok p) ([BPolygon sq_a] ++ [BPolygon sq_b]) [sq_a; sq_b] /\ Forall proper [sq_a; sq_b] /\
  Forall (fun s : path => exists a b, s = [a; b]) (two_first :: two_rest) /\ NoDup (concat (two_first :: two_rest)) /\
  (forall q, In q (concat (two_first :: two_rest)) -> exists p, In p [sq_a; sq_b] /\ near_path link_tolerance q p).
Proof.
  assert (PA : proper sq_a) by (apply proper_b_ok; vm_compute; reflexivity).
  assert (PB : proper sq_b) by (apply proper_b_ok; vm_compute; reflexivity).
  split; [repeat constructor|split; [repeat constructor; assumption|split; [repeat constructor; do 2 eexists; reflexivity|split]]].
  - apply nodup_b_ok. vm_compute. reflexivity.
  - intros q I.
    assert (F : forallb (fun q => near_b q sq_a || near_b q sq_b) (concat (two_first :: two_rest)) = true) by (vm_compute; reflexivity).
    rewrite forallb_forall in F. specialize (F q I). apply orb_true_iff in F. destruct F as [F|F].
    + exists sq_a. split; [left; reflexivity|apply near_b_ok; assumption].
    + exists sq_b. split; [right; left; reflexivity|apply near_b_ok; assumption].
Qed.
Lemma two_fails : zig_zag (scan_answer (two_first :: two_rest)) (qz 4) (qq 3 4) [BPolygon sq_a] [BPolygon sq_b] = Err ValueError.
Proof. vm_compute. reflexivity. Qed.
(** With two of these scanlines it works. *)
Definition two_fewer : list path := [[zp 20 3; zp 30 3]; [zp 20 6; zp 30 6]].
Lemma two_works : zig_zag (scan_answer (two_first :: two_fewer)) (qz 4) (qq 3 4) [BPolygon sq_a] [BPolygon sq_b] =
  Ok [[zp 0 5; zp 10 5]; [zp 20 3; zp 30 3; zp 30 6; zp 20 6]].
Proof. apply is_paths_ok. vm_compute. reflexivity. Qed.

(** A closed wire of four lines: the corner list lacks the closing segment. *)
Definition wire_square : list edge :=
  [line 0 false (zv 0 0 0) (zv 10 0 0); line 1 false (zv 10 0 0) (zv 10 10 0);
   line 2 false (zv 10 10 0) (zv 0 10 0); line 3 false (zv 0 10 0) (zv 0 0 0)].
Lemma wire_square_polygon : add_wire wire_square true = Ok [zp 10 0; zp 10 10; zp 0 10; zp 0 0].
Proof. apply is_path_ok. vm_compute. reflexivity. Qed.
(** The scanline x = 5 between the lower side (the closing one) and the upper side. *)
Lemma wire_square_fails :
  zig_zag (scan_answer [[zp 5 0; zp 5 10]]) (qz 4) (qq 3 4) [BWire wire_square true] [] = Err AssertionError /\
  on_segment (zp 5 0) (zp 0 0) (zp 10 0) /\ on_segment (zp 5 10) (zp 10 10) (zp 0 10).
Proof.
  split; [vm_compute; reflexivity|split].
  - apply (on_segment_intro (qq 1 2)); [apply qleb_le; reflexivity|apply qleb_le; reflexivity|]. apply pt_eqb_iff. vm_compute. reflexivity.
  - apply (on_segment_intro (qq 1 2)); [apply qleb_le; reflexivity|apply qleb_le; reflexivity|]. apply pt_eqb_iff. vm_compute. reflexivity.
Qed.
(** With horizontal scanlines the same wire works. *)
Lemma wire_square_works : zig_zag (scan_answer (ex_first :: ex_rest)) (qz 4) (qq 3 4) [BWire wire_square true] [] =
  Ok [[zp 0 2; zp 10 2; zp 10 5; zp 0 5; zp 0 8; zp 10 8]].
Proof. apply is_paths_ok. vm_compute. reflexivity. Qed.

(** ** Linking *)
Definition ex_lp : linked := LP [zp 0 0; zp 10 0; zp 10 10; zp 0 10] [] [].
Definition link_all_in (lp : linked) (l : list (pt * pt * pt)) : result linked :=
  fold_left (fun r q => do lp <- r; link_point lp (fst (fst q)) (snd (fst q)) (snd q)) l (Ok lp).
Lemma ex_link : exists lp, link_all_in ex_lp [(zp 10 7, zp 10 0, zp 10 10); (zp 10 2, zp 10 0, zp 10 10); (zp 10 4, zp 10 0, zp 10 10)] = Ok lp /\
  lp_polygon lp = [zp 0 0; zp 10 0; zp 10 2; zp 10 4; zp 10 7; zp 10 10; zp 0 10].
Proof. eexists. split; [vm_compute; reflexivity|]. apply path_eqb_eq. vm_compute. reflexivity. Qed.
(** On the closing segment of an explicitly closed polygon the second point goes to the wrong side. *)
Lemma ex_link_closing : exists lp, link_all_in (LP ex_square [] []) [(zp 0 8, zp 0 10, zp 0 0); (zp 0 2, zp 0 10, zp 0 0)] = Ok lp /\
  lp_polygon lp = [zp 0 0; zp 10 0; zp 10 10; zp 0 10; zp 0 2; zp 0 8; zp 0 0] /\ ~ by_distance (zp 0 10) [zp 0 2; zp 0 8].
Proof.
  eexists. split; [vm_compute; reflexivity|split; [apply path_eqb_eq; vm_compute; reflexivity|]].
  intros [H _]. apply qleb_le in H. vm_compute in H. discriminate.
Qed.

(** ** nearest_linked *)
(** Forwards (1,0), (2,0): length 2; backwards (0,2.2): length 2.2, but 1 + 4 > 4.84. *)
Definition ex_round : linked :=
  LP [zp 0 0; zp 1 0; zp 2 0; zp 2 3; zp 0 3; (0, qq 11 5)] [zp 0 0; zp 2 0; (0, qq 11 5)] [zp 0 0; zp 2 0; (0, qq 11 5)].
Definition walk_of (r : result (option path * linked)) : option path := match r with Ok (w, _) => w | Err _ => None end.
Lemma ex_round_walk : exists lp', nearest_linked ex_round (zp 0 0) = Ok (Some [(0, qq 11 5)], lp') /\ lp_free lp' = [zp 2 0].
Proof. eexists. split; vm_compute; reflexivity. Qed.

Lemma longer_way : exists lp p w q w' q' lp',
  rectilinear (lp_polygon lp ++ firstn 1 (lp_polygon lp)) /\ NoDup (lp_polygon lp) /\
  nearest_linked lp p = Ok (Some (w ++ [q]), lp') /\
  (exists free, Permutation (lp_free lp) (p :: free) /\
    walk_to_free (lp_polygon lp) free p w q /\ walk_to_free (lp_polygon lp) free p w' q') /\
  taxi_length (p :: w' ++ [q']) < taxi_length (p :: w ++ [q]).
Proof.
  destruct ex_round_walk as (lp' & E & _).
  exists ex_round, (zp 0 0), [], (0, qq 11 5), [zp 1 0], (zp 2 0), lp'.
  split; [|split; [|split; [exact E|split]]].
  - assert (F : forallb (fun ab => qeqb (fst (fst ab)) (fst (snd ab)) || qeqb (snd (fst ab)) (snd (snd ab)))
      (steps (lp_polygon ex_round ++ firstn 1 (lp_polygon ex_round))) = true) by (vm_compute; reflexivity).
    rewrite forallb_forall in F. intros a b I. specialize (F _ I). cbn [fst snd] in F. apply orb_true_iff in F. rewrite !qeqb_eq in F. exact F.
  - apply nodup_b_ok. vm_compute. reflexivity.
  - exists [zp 2 0; (0, qq 11 5)]. split; [reflexivity|split].
    + split; [|split; [right; left; reflexivity|intros u []]].
      exists [], [zp 1 0; zp 2 0; zp 2 3; zp 0 3; (0, qq 11 5)], [zp 0 3; zp 2 3; zp 2 0; zp 1 0]. split; [reflexivity|right; reflexivity].
    + split; [|split; [left; reflexivity|]].
      * exists [], [zp 1 0; zp 2 0; zp 2 3; zp 0 3; (0, qq 11 5)], [zp 2 3; zp 0 3; (0, qq 11 5)]. split; [reflexivity|left; reflexivity].
      * intros u [<-|[]] C. apply mem_pt_iff in C. vm_compute in C. discriminate.
  - apply qltb_lt. vm_compute. reflexivity.
Qed.

(** ** Sorting of contours *)
Definition open_line : path := [zp 0 0; zp 1 0; zp 2 0].
Lemma ex_sort_open : sort_clipper_output [[zp 5 5; zp 1 1]; open_line] = Ok [[zp 5 5; zp 1 1]; [zp 1 0; zp 2 0; zp 0 0]].
Proof. apply is_paths_ok. vm_compute. reflexivity. Qed.
Definition ex_contours : list path := [square 0 0 10; square 2 2 6; square 20 20 4].
Lemma ex_sort_closed : sort_clipper_output [[zp 0 0; zp 9 9]; square 0 0 8; square 20 20 4] =
  Ok [[zp 0 0; zp 9 9]; [zp 8 8; zp 0 8; zp 0 0; zp 8 0; zp 8 8]; square 20 20 4].
Proof. apply is_paths_ok. vm_compute. reflexivity. Qed.
(** The third contour is started near the end of the first one, not of the second one. *)
Definition ex_previous : list path := [[zp 5 0; zp 0 0]; square 20 20 4; square 10 10 4].
Lemma ex_sort_previous : sort_clipper_output ex_previous = Ok ex_previous.
Proof. apply is_paths_ok. vm_compute. reflexivity. Qed.
Lemma not_previous : exists a b c, sort_clipper_output [a; b; c] = Ok [a; b; c] /\ closed_path b /\ closed_path c /\
  ~ starts_nearest (last b (0, 0)) c c.
Proof.
  do 3 eexists. split; [exact ex_sort_previous|]. split; [apply square_closed|split; [apply square_closed|]].
  intros (u & l & E & _ & M). injection E as <- <-. specialize (M (zp 14 14)).
  assert (I : In (zp 14 14) (square 10 10 4)) by (right; right; left; reflexivity).
  apply M in I. apply qleb_le in I. vm_compute in I. discriminate.
Qed.
Lemma open_broken : exists a p q, sort_clipper_output [a; p] = Ok [a; q] /\ (2 <= length p)%nat /\ ~ closed_path p /\
  exists s, In s (steps q) /\ ~ In s (steps p) /\ ~ In (snd s, fst s) (steps p).
Proof.
  do 3 eexists. split; [exact ex_sort_open|]. split; [cbn; lia|split].
  - intros (a & l & [= <- <-] & EL). apply pt_eqb_iff in EL. vm_compute in EL. discriminate.
  - exists (zp 2 0, zp 0 0). split; [right; left; reflexivity|].
    assert (K : forall (s : pt * pt) l, existsb (fun t => pt_eqb (fst s) (fst t) && pt_eqb (snd s) (snd t)) l = false -> ~ In s l).
    { intros s l H I. assert (existsb (fun t => pt_eqb (fst s) (fst t) && pt_eqb (snd s) (snd t)) l = true); [|congruence].
      apply existsb_exists. exists s. split; [exact I|]. rewrite !pt_eqb_refl. reflexivity. }
    split; apply K; vm_compute; reflexivity.
Qed.
