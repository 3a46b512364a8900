(** * Zig-zag routes that cannot be started *)
From Verif Require Import Base.Py Spec.Paths Spec.Zigzag Model.Geometry Model.Strategy Proofs.ZigzagThmP Proofs.FillP Proofs.ZigzagEx.
Local Open Scope Qc_scope.
Local Open Scope list_scope.

Lemma link_segments_none k p s : ls_remaining s = [] -> link_segments k p s = Ok s.
Proof.
  intros R. induction p as [|a p IH]; [reflexivity|]. destruct p as [|b p]; [reflexivity|]. cbn [link_segments]. rewrite R. cbn [link_segment rbind]. exact IH.
Qed.
Lemma link_none bs : forall k m, exists lps, link_boundaries k bs [] m = Ok (lps, m).
Proof.
  induction bs as [|b bs IH]; intros k m; [exists []; reflexivity|]. cbn [link_boundaries]. rewrite link_segments_none by reflexivity. cbn [rbind ls_remaining ls_map ls_poly].
  destruct (IH (S k) m) as [lps ->]. cbn [rbind]. eauto.
Qed.
Lemma end_map_empty l1 : forall l2 d pts, Forall (fun s : path => s <> []) l1 -> scanline_end_map (l1 ++ [] :: l2) d pts = Err IndexError.
Proof.
  induction l1 as [|[|a s] l1 IH]; intros l2 d pts F; [reflexivity|inversion F; congruence|]. cbn [app scanline_end_map]. apply IH. inversion F; assumption.
Qed.
Lemma first_empty (l : list path) : In [] l -> exists l1 l2, l = l1 ++ [] :: l2 /\ Forall (fun s : path => s <> []) l1.
Proof.
  induction l as [|s l IH]; [intros []|]. intros H. destruct s as [|a s].
  - exists [], l. split; [reflexivity|constructor].
  - destruct H as [H|H]; [discriminate|]. destruct (IH H) as (l1 & l2 & -> & F). exists ((a :: s) :: l1), l2. split; [reflexivity|]. constructor; [discriminate|exact F].
Qed.

Section Start.
Variables (C : zig_clipper) (d st : Qc) (outer inner : list boundary) (ps : list path) (x0 y0 x1 y1 : Qc).
Hypothesis HP : Forall2 (fun b p => boundary_polygon b = Ok p) (outer ++ inner) ps.
Hypothesis HB : zc_bounds C ps = Ok (x0, y0, x1, y1).

Lemma zig_zag_no_step : d * st = 0 -> zig_zag C d st outer inner = Err ZeroDivisionError.
Proof.
  intros E. apply Forall2_app_inv_l in HP as (po & pi & FO & FI & EP). unfold zig_zag.
  rewrite (proj2 (mapM_iff _ _ _) FO). cbn [rbind]. rewrite (proj2 (mapM_iff _ _ _) FI). cbn [rbind]. rewrite <- EP, HB. cbn [rbind].
  rewrite E. reflexivity.
Qed.
Lemma zig_zag_no_lines scanlines : d * st <> 0 -> zc_execute C ps (templates x0 y0 x1 y1 (d * st)) = Ok scanlines ->
  (scanlines = [] \/ In [] scanlines) -> zig_zag C d st outer inner = Err IndexError.
Proof.
  intros N HE HS. apply Forall2_app_inv_l in HP as (po & pi & FO & FI & EP). unfold zig_zag.
  rewrite (proj2 (mapM_iff _ _ _) FO). cbn [rbind]. rewrite (proj2 (mapM_iff _ _ _) FI). cbn [rbind]. rewrite <- EP, HB. cbn [rbind].
  destruct (qeqb (d * st) 0) eqn:E; [apply qeqb_eq in E; contradiction|]. rewrite HE. cbn [rbind].
  destruct HS as [->|HS].
  - cbn [scanline_end_map rbind]. unfold link_scanpoints_to_boundaries. destruct (link_none ps 0 []) as [lps ->]. reflexivity.
  - destruct (first_empty _ HS) as (l1 & l2 & -> & F). rewrite end_map_empty by exact F. reflexivity.
Qed.
End Start.
