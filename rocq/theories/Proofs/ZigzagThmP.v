(** * Zig-zag routing: the statements as cited *)
From Verif Require Import Base.Py Model.Edges Model.Strategy Spec.Paths Spec.Zigzag Proofs.GeomP Proofs.FillP Proofs.RouteEx Proofs.DrillP
  Proofs.LinkedP Proofs.ZigzagP Proofs.ZigzagMultiP Proofs.ZigzagEx.
From Coq Require Import Permutation Lia.
Local Open Scope Qc_scope.
Local Open Scope list_scope.

Lemma routing_single lp first rest points ends pts : let scanlines := (first :: rest : list path) in
  Forall (fun s : path => exists a b, s = [a; b]) scanlines -> NoDup (concat scanlines) ->
  Permutation (lp_linked lp) (concat scanlines) -> incl (lp_linked lp) (lp_polygon lp) ->
  (forall q, In q (concat scanlines) -> dict_get q points = Ok O) ->
  scanline_end_map scanlines [] [] = Ok (ends, pts) ->
  exists start cut more, from_left first start cut /\
    route_zig_zag [lp] scanlines points ends = Ok [start :: cut :: more] /\
    cover_once [lp_polygon lp] scanlines [start :: cut :: more].
Proof.
  intros scanlines F2 ND PL IL HP EE. destruct (end_map_get scanlines F2 ND) as (ends' & EE' & HE).
  assert (ends' = ends) by congruence. subst ends'.
  destruct (route_single lp first rest points ends F2 ND PL IL) as (start & cut & more & FL & RE).
  - intros s q IS IQ. apply HP. apply in_concat. eauto.
  - intros s q. apply HE.
  - exists start, cut, more. split; [exact FL|split; [exact RE|]]. exact (route_covers [lp] scanlines points ends pts _ F2 EE RE).
Qed.

Lemma zig_zag_two_fails : exists C d st outer inner ps bounds first rest, let scanlines := (first :: rest : list path) in
  Forall2 (fun b p => boundary_polygon b = Ok p) (outer ++ inner) ps /\ Forall proper ps /\ d * st <> 0 /\
  zc_bounds C ps = Ok bounds /\
  (let '(x0, y0, x1, y1) := bounds in zc_execute C ps (templates x0 y0 x1 y1 (d * st)) = Ok scanlines) /\
  Forall (fun s : path => exists a b, s = [a; b]) scanlines /\ NoDup (concat scanlines) /\
  (forall q, In q (concat scanlines) -> exists p, In p ps /\ near_path link_tolerance q p) /\
  zig_zag C d st outer inner = Err ValueError.
Proof.
  destruct two_meets as (M1 & M2 & M3 & M4 & M5).
  exists (scan_answer (two_first :: two_rest)), (qz 4), (qq 3 4), [BPolygon sq_a], [BPolygon sq_b], [sq_a; sq_b], (qz (-3), qz (-3), qz 13, qz 13), two_first, two_rest.
  cbv zeta. split; [exact M1|split; [exact M2|split; [intros C; apply qeqb_eq in C; vm_compute in C; discriminate|]]].
  split; [reflexivity|split; [reflexivity|split; [exact M3|split; [exact M4|split; [exact M5|exact two_fails]]]]].
Qed.

Lemma Forall3_length {A B C} (R : A -> B -> C -> Prop) la lb lc : Forall3 R la lb lc -> length lb = length la /\ length lc = length la.
Proof. induction 1 as [|? ? ? ? ? ? _ _ [IH1 IH2]]; [split; reflexivity|]. cbn [length]. split; f_equal; assumption. Qed.

Lemma link_all_thm pts boundaries : NoDup pts -> Forall proper boundaries ->
  (forall q, In q pts -> exists b, In b boundaries /\ near_path link_tolerance q b) ->
  exists lps m news, link_scanpoints_to_boundaries pts boundaries = Ok (lps, m) /\
    length lps = length boundaries /\ length news = length boundaries /\ Permutation pts (concat news) /\
    (forall k b lp new, nth_error boundaries k = Some b -> nth_error lps k = Some lp -> nth_error news k = Some new ->
       lp_linked lp = new /\ inserted new b (lp_polygon lp) /\
       forall q, In q new -> In q (lp_polygon lp) /\ near_path link_tolerance q b /\ dict_get q m = Ok k).
Proof.
  intros ND PR NR. destruct (link_all pts boundaries ND PR NR) as (lps & m & news & E & F3 & P & HM).
  exists lps, m, news. destruct (Forall3_length _ _ _ _ F3) as [L1 L2].
  split; [exact E|split; [exact L1|split; [exact L2|split; [exact P|]]]].
  intros k b lp new EB EL EN. destruct (proj1 (Forall3_nth _ _ _ _ F3) _ _ EL) as (b' & new' & EB' & EN' & LL & _ & LI & LN).
  assert (U : forall (l : list path) j x y, nth_error l j = Some x -> nth_error l j = Some y -> x = y) by (intros; congruence).
  pose proof (U _ _ _ _ EB EB') as U1. pose proof (U _ _ _ _ EN EN') as U2. rewrite <- U1 in *. rewrite <- U2 in *. clear U1 U2.
  split; [exact LL|split; [exact LI|]]. intros q I. destruct (LN q I) as [A B]. split; [exact A|split; [exact B|exact (HM _ _ _ EN I)]].
Qed.

Lemma link_refined pts boundaries lps m : link_scanpoints_to_boundaries pts boundaries = Ok (lps, m) ->
  Forall (@NoDup pt) boundaries -> (forall b q, In b boundaries -> In q b -> ~ In q pts) ->
  Forall2 refined boundaries (map lp_polygon lps).
Proof. intros H ND D. exact (link_boundaries_refined pts boundaries 0 pts [] lps m H (incl_refl _) ND D). Qed.

Lemma closing_edge_fails : exists C d st es a b p, add_wire es true = Ok p /\
  closed_wire es /\ on_edge_line es a /\ on_edge_line es b /\ d * st <> 0 /\
  (forall bs ts, zc_execute C bs ts = Ok [[a; b]]) /\
  zig_zag C d st [BWire es true] [] = Err AssertionError.
Proof.
  destruct wire_square_fails as (F & S1 & S2).
  exists (scan_answer [[zp 5 0; zp 5 10]]), (qz 4), (qq 3 4), wire_square, (zp 5 0), (zp 5 10), [zp 10 0; zp 10 10; zp 0 10; zp 0 0].
  split; [exact wire_square_polygon|]. split; [|split; [|split]].
  - cbn [closed_wire joined wire_square]. repeat split.
  - exists (line 0 false (zv 0 0 0) (zv 10 0 0)). split; [left; reflexivity|]. split; [reflexivity|exact S1].
  - exists (line 2 false (zv 10 10 0) (zv 0 10 0)). split; [right; right; left; reflexivity|]. split; [reflexivity|exact S2].
  - split; [intros C; apply qeqb_eq in C; vm_compute in C; discriminate|]. split; [reflexivity|exact F].
Qed.

Lemma ex_linked_square : exists lps m, link_scanpoints_to_boundaries (concat (ex_first :: ex_rest)) [ex_square] = Ok (lps, m) /\
    map lp_polygon lps = [[zp 0 0; zp 10 0; zp 10 2; zp 10 5; zp 10 8; zp 10 10; zp 0 10; zp 0 8; zp 0 5; zp 0 2; zp 0 0]].
Proof. do 2 eexists. split; [vm_compute; reflexivity|]. apply paths_eqb_eq. vm_compute. reflexivity. Qed.

Lemma closing_segment_wrong : exists polygon s e p q lp1 lp2 pre far near_,
  closed_path polygon /\ NoDup (removelast polygon) /\ proper polygon /\
  polygon = pre ++ [s; e] /\ on_segment p s e /\ on_segment q s e /\
  link_point (LP polygon [] []) p s e = Ok lp1 /\ link_point lp1 q s e = Ok lp2 /\
  lp_polygon lp2 = pre ++ [s; far; near_; e] /\ sqd s near_ < sqd s far.
Proof.
  exists ex_square, (zp 0 10), (zp 0 0), (zp 0 8), (zp 0 2). do 2 eexists. exists [zp 0 0; zp 10 0; zp 10 10], (zp 0 2), (zp 0 8).
  split; [apply square_closed|split; [apply nodup_b_ok; vm_compute; reflexivity|split; [apply proper_b_ok; vm_compute; reflexivity|]]].
  split; [reflexivity|]. split; [|split].
  - apply (on_segment_intro (qq 1 5)); [apply qleb_le; reflexivity|apply qleb_le; reflexivity|]. apply pt_eqb_iff. vm_compute. reflexivity.
  - apply (on_segment_intro (qq 4 5)); [apply qleb_le; reflexivity|apply qleb_le; reflexivity|]. apply pt_eqb_iff. vm_compute. reflexivity.
  - split; [vm_compute; reflexivity|]. split; [vm_compute; reflexivity|]. split; [apply path_eqb_eq; vm_compute; reflexivity|].
    apply qltb_lt. vm_compute. reflexivity.
Qed.

Lemma nearest_walk lp p r lp' : nearest_linked lp p = Ok (r, lp') ->
  lp_polygon lp' = lp_polygon lp /\ lp_linked lp' = lp_linked lp /\
  match r with
  | None => lp_free lp = [p] /\ lp_free lp' = []
  | Some l => exists w q free, l = w ++ [q] /\ Permutation (lp_free lp) (p :: free) /\
      Permutation free (q :: lp_free lp') /\ walk_to_free (lp_polygon lp) free p w q
  end.
Proof.
  intros H. destruct (nearest_linked_inv _ _ _ _ H) as (A & B & _ & C). split; [exact A|split; [exact B|]].
  destruct r as [l|]; [|exact C]. destruct C as (w & q & x & y & -> & EX & _ & free & P1 & P2 & W).
  exists w, q, free. split; [reflexivity|split; [exact P1|split; [exact P2|]]]. exact (first_way_walk _ _ _ _ _ _ _ EX W).
Qed.

Lemma first_way_perm l free free' w q : Permutation free free' -> first_way l free w q -> first_way l free' w q.
Proof.
  intros P (A & B & C). split; [exact A|split; [eapply Permutation_in; eassumption|]]. intros u I J.
  apply (C u I). eapply Permutation_in; [symmetry; exact P|exact J].
Qed.
Lemma nearest_direction lp p x y free :
  lp_polygon lp = x ++ p :: y -> ~ In p x -> Permutation (lp_free lp) (p :: free) -> ~ In p free ->
  (exists q, In q (x ++ y) /\ In q free) ->
  exists w q lp', nearest_linked lp p = Ok (Some (w ++ [q]), lp') /\
    (first_way (y ++ x) free w q \/ first_way (rev (y ++ x)) free w q) /\
    (forall w' q', first_way (y ++ x) free w' q' \/ first_way (rev (y ++ x)) free w' q' ->
       sum_sqd p (w ++ [q]) <= sum_sqd p (w' ++ [q'])).
Proof.
  intros EX NX P NF (q0 & I0 & F0).
  destruct (in_split_first p (lp_free lp)) as (f1 & f2 & EF & N1); [eapply Permutation_in; [symmetry; exact P|left; reflexivity]|].
  assert (PF : Permutation (f1 ++ f2) free).
  { apply (Permutation_cons_inv (a := p)). rewrite <- P, EF. apply Permutation_middle. }
  destruct (nearest_linked_found lp p x y f1 f2 EX NX EF N1) as (w & q & g1 & g2 & E & _ & _ & W & M).
  { exists q0. split; [exact I0|eapply Permutation_in; [symmetry; exact PF|exact F0]]. }
  exists w, q. eexists. split; [exact E|]. split.
  - destruct W as [W|W]; [left|right]; exact (first_way_perm _ _ _ _ _ PF W).
  - intros w' q' W'. apply M. symmetry in PF. destruct W' as [W'|W']; [left|right]; exact (first_way_perm _ _ _ _ _ PF W').
Qed.
Lemma nearest_last lp p :
  (lp_free lp = [p] -> nearest_linked lp p = Ok (None, LP (lp_polygon lp) (lp_linked lp) [])) /\
  (~ In p (lp_free lp) -> nearest_linked lp p = Err ValueError).
Proof. split; [apply nearest_linked_only|apply nearest_linked_missing]. Qed.

Lemma sort_output_errors : sort_clipper_output [] = Err IndexError /\
  (forall rest, sort_clipper_output ([] :: rest) = Err IndexError) /\
  (forall a p b l1 l2, Forall (fun p : path => (2 <= length p)%nat) l1 -> sort_clipper_output ((a :: p) :: l1 ++ [b] :: l2) = Err IndexError).
Proof.
  split; [reflexivity|split; [reflexivity|]]. intros a p b l1 l2 F. cbn [sort_clipper_output].
  assert (H : forall t, mapM (sort_path t) (l1 ++ [b] :: l2) = Err IndexError).
  { intros t. induction F as [|p0 l1 L F IH]; cbn [app mapM].
    - unfold sort_path. cbn [last removelast]. rewrite pt_eqb_refl. reflexivity.
    - destruct (sort_path_any t p0 L) as (q & -> & _). cbn [rbind]. rewrite IH. reflexivity. }
  rewrite H. reflexivity.
Qed.
