From Verif Require Import Base.Str Base.Py Model.Geometry Model.Edges Model.Routers
  Spec.Paths Spec.Moves Spec.Wires Proofs.GeomP Proofs.RouteP Proofs.EdgeP Proofs.RouteEx.
Local Open Scope Qc_scope.
Local Open Scope list_scope.

Lemma spline_subrange K e prec sp ep arrow feed cmds v : edge_sound e -> is_spline_geom (e_geom e) = true ->
  route_edge K e prec sp ep arrow feed = Ok (cmds, v) ->
  let a := match sp with None => travel_start e | Some p => e_param e p end in
  exists whole, route_edge K e prec None None arrow feed = Ok (whole, travel_end e) /\
    v = match ep with None => travel_end e | Some p => e_param e p end /\
    Forall (fun m => straight_cut m /\ m_feed m = feed) cmds /\ map m_end cmds = map m_end whole /\
    continuous (from_vector a) cmds /\ after (from_vector a) cmds = from_vector (travel_end e).
Proof.
  intros HS HG H. cbv zeta. unfold route_edge in H. apply rbind_ok in H. destruct H as (c & H & HE). injection HE as <- <-.
  set (ls := if e_reversed e then linspace 1 0 (edge_interpolation_count e prec) else linspace 0 1 (edge_interpolation_count e prec)).
  assert (H' : Ok (cuts_through (from_vector (match sp with None => travel_start e | Some p => e_param e p end)) (map (e_pos e) ls) arrow feed) = Ok c).
  { unfold ls. destruct (e_geom e); try discriminate HG; destruct (e_reversed e); destruct sp; exact H. }
  injection H' as <-. exists (cuts_through (from_vector (travel_start e)) (map (e_pos e) ls) arrow feed).
  assert (W : route_edge K e prec None None arrow feed = Ok (cuts_through (from_vector (travel_start e)) (map (e_pos e) ls) arrow feed, travel_end e)).
  { unfold route_edge, ls. destruct (e_geom e); try discriminate HG; destruct (e_reversed e); reflexivity. }
  split; [exact W|]. split; [destruct ep; reflexivity|].
  destruct (cuts_through_spec arrow feed (map (e_pos e) ls) (from_vector (match sp with None => travel_start e | Some p => e_param e p end))) as (K1 & _ & K3 & K4 & K5).
  destruct (cuts_through_spec arrow feed (map (e_pos e) ls) (from_vector (travel_start e))) as (_ & _ & _ & L4 & L5). cbv zeta in *.
  split; [exact K3|]. split; [congruence|]. split; [exact K1|].
  assert (NS : is_spline_geom (e_geom e) = true -> @None Qc = None /\ @None Qc = None) by auto.
  destruct (route_edge_chain K e prec None None arrow feed _ _ HS NS W) as (_ & NE & _ & _ & A). cbv zeta in A.
  assert (N : map (e_pos e) ls <> []) by (intros C; rewrite C in NE; apply NE; reflexivity).
  rewrite (K5 N (travel_start e)). rewrite (L5 N (travel_start e)) in A. exact A.
Qed.
Lemma subrange_example : edge_sound (parabola 1 false) /\ is_spline_geom (e_geom (parabola 1 false)) = true /\
  exists cmds, route_edge K0 (parabola 1 false) 1 None (Some (qq 1 2)) true (Some (PInt 300)) = Ok (cmds, e_param (parabola 1 false) (qq 1 2)) /\
  e_param (parabola 1 false) (qq 1 2) <> travel_end (parabola 1 false).
Proof.
  split; [sound|]. split; [reflexivity|]. eexists. split; [vm_compute; reflexivity|].
  intros C. apply (f_equal vx) in C. apply qeqb_eq in C. vm_compute in C. discriminate.
Qed.
