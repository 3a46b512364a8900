From Verif Require Import Base.Str Base.Py Spec.Moves Spec.Wires Model.Geometry Model.Command Model.Edges Model.Routers Proofs.RouteP Proofs.EdgeP.
Local Open Scope Qc_scope.
Local Open Scope list_scope.

Lemma vertical_edge_ends e : vertical_edge e = true <-> vx (travel_end e) = vx (travel_start e) /\ vy (travel_end e) = vy (travel_start e).
Proof.
  unfold vertical_edge, travel_start, travel_end. rewrite andb_true_iff, !qeqb_eq. destruct (e_reversed e); intuition congruence.
Qed.
(** The moves made for the edge end above or below where they start. *)
Lemma vertical_ends K e prec arrow feed ms p : edge_sound e -> route_edge K e prec None None arrow feed = Ok (ms, p) ->
  exists m rest, ms = m :: rest /\
    (vertical_edge e = true <-> ax (after (m_start m) ms) = ax (m_start m) /\ ay (after (m_start m) ms) = ay (m_start m)).
Proof.
  intros HS H. destruct (route_edge_chain K e prec None None arrow feed ms p HS ltac:(auto) H) as (_ & NE & _ & C & D). cbv zeta in C, D.
  destruct ms as [|m rest]; [congruence|]. exists m, rest. split; [reflexivity|]. destruct C as (E & _).
  cbn [after] in *. rewrite D, E, vertical_edge_ends. unfold from_vector. cbn [ax ay]. split.
  - intros (-> & ->). auto.
  - intros (A & B). injection A as A. injection B as B. auto.
Qed.
Lemma all_vertical_stays ms : forall a, continuous a ms -> (forall m, In m ms -> vertical m) -> ax (after a ms) = ax a /\ ay (after a ms) = ay a.
Proof.
  induction ms as [|m ms IH]; intros a HC HV; [auto|]. destruct HC as (<- & HC).
  destruct (IH _ HC (fun x Hx => HV x (or_intror Hx))) as (A & B). destruct (HV m (or_introl eq_refl)) as (V1 & V2).
  cbn [after]. split; congruence.
Qed.
Lemma vertical_all K e prec arrow feed ms p : edge_sound e -> route_edge K e prec None None arrow feed = Ok (ms, p) ->
  (forall m, In m ms -> vertical m) -> vertical_edge e = true.
Proof.
  intros HS H HV. destruct (route_edge_chain K e prec None None arrow feed ms p HS ltac:(auto) H) as (_ & NE & _ & C & D). cbv zeta in C, D.
  destruct (all_vertical_stays ms _ C HV) as (A & B). rewrite D in A, B. apply vertical_edge_ends. unfold from_vector in A, B. cbn [ax ay] in A, B.
  injection A as A. injection B as B. auto.
Qed.
