(** Proofs for Spec/Spaced.v. *)
From Verif Require Import Base.Py Spec.Paths Spec.Moves Spec.Contours Spec.Visits Spec.Spaced Model.Geometry Model.Command Model.Job Model.Routers Proofs.VisitP Proofs.RouteEx Proofs.ProfileEx.
Local Open Scope Qc_scope.
Local Open Scope list_scope.

Lemma start_on p p0 : steps p <> [] -> hd_error p = Some p0 -> on_path p0 p.
Proof.
  destruct p as [|a [|b p]]; cbn [steps]; try congruence. intros _ [= <-]. exists a, b. split; [left; reflexivity|].
  exists 0. split; [discriminate|]. split; [discriminate|]. destruct a as [x y]. cbn [fst snd]. f_equal; ring.
Qed.
Lemma never_linked s ps : 1 < s -> forall p q gs, (forall a b r, nth_error ps 0 = Some r -> on_path a p -> on_path b r -> s * s <= sqd a b) -> spaced s ps -> on_path q p ->
  visits (Some s) (Some q) ps gs -> Forall2 round_and_chord ps gs.
Proof.
  intros S. induction ps as [|r ps IH]; intros p q gs A SP Q V; inversion V as [|from r' ps' g gs' c H V']; subst; [constructor|].
  destruct H as (p0 & E & (N & N') & H). constructor.
  - destruct H as [[(s' & ES & P & L) _]|[_ H]]; [|exists p0, c; auto]. injection ES as <-. exfalso.
    pose proof (A q c r eq_refl Q N) as F. assert (X : s < s * s) by (clear - S; qc2q; nra). apply (Qclt_not_le _ _ X). eapply Qcle_trans; eassumption.
  - apply (IH r c); [|destruct ps; [exact I|apply SP]|exact N|exact V'].
    intros a b u Hu. destruct ps as [|v ps]; [discriminate|]. injection Hu as <-. apply SP.
Qed.
Lemma spaced_lifted j f fs s pp cmds : route_polyface_outers j (f :: fs) (Some s) pp = Ok cmds ->
  (forall g, In g (f :: fs) -> closed_path (pf_outer g) /\ steps (pf_outer g) <> []) -> 1 < s -> spaced s (map pf_outer (f :: fs)) ->
  exists p0 g gs, cmds = g ++ concat gs /\ hd_error (pf_outer f) = Some p0 /\ lifted_over p0 (steps (pf_outer f)) g /\ Forall2 (fun f g => round_and_chord (pf_outer f) g) fs gs.
Proof.
  intros H C S SP. destruct (outers_visits _ _ _ _ _ H C) as (gs & -> & V). inversion V as [|from p ps g gs' c X V']; subst.
  destruct X as (p0 & E & L & ->). exists p0, g, gs'. split; [reflexivity|]. split; [exact E|]. split; [exact L|].
  assert (F : Forall2 round_and_chord (map pf_outer fs) gs').
  { apply (never_linked s _ S (pf_outer f) p0 gs'); [|cbn [map spaced] in SP; destruct fs; [exact I|apply SP]|apply start_on; [apply C; left; reflexivity|exact E]|exact V'].
    intros a b r Hr. destruct fs as [|v fs]; [discriminate|]. injection Hr as <-. apply SP. }
  clear - F. revert gs' F. induction fs as [|f fs IH]; intros gs F; inversion F; subst; constructor; [assumption|apply IH; assumption].
Qed.

(** Two squares two apart. *)
Definition apart_b (s : Qc) (e d : pt * pt) : bool :=
  let '((a, b), (u, v)) := (e, d) in
  (qleb (fst a + s) (fst u) && qleb (fst a + s) (fst v) && qleb (fst b + s) (fst u) && qleb (fst b + s) (fst v)) ||
  (qleb (fst u + s) (fst a) && qleb (fst u + s) (fst b) && qleb (fst v + s) (fst a) && qleb (fst v + s) (fst b)) ||
  (qleb (snd a + s) (snd u) && qleb (snd a + s) (snd v) && qleb (snd b + s) (snd u) && qleb (snd b + s) (snd v)) ||
  (qleb (snd u + s) (snd a) && qleb (snd u + s) (snd b) && qleb (snd v + s) (snd a) && qleb (snd v + s) (snd b)).
Lemma mix_apart s a b u v t w : 0 <= t -> t <= 1 -> 0 <= w -> w <= 1 -> a + s <= u -> a + s <= v -> b + s <= u -> b + s <= v ->
  (1 - t) * a + t * b + s <= (1 - w) * u + w * v.
Proof.
  intros T0 T1 W0 W1 A B C D. 
  assert (X : (1 - t) * a + t * b + s <= u) by (qc2q; nra). assert (Y : (1 - t) * a + t * b + s <= v) by (qc2q; nra).
  set (m := (1 - t) * a + t * b + s) in *. clearbody m. clear A B C D. qc2q; nra.
Qed.
Lemma sq_apart s x y : 0 <= s -> x + s <= y -> s * s <= (x - y) * (x - y) /\ s * s <= (y - x) * (y - x).
Proof. intros S H. split; qc2q; nra. Qed.
Lemma apart_ok s e d : 0 <= s -> apart_b s e d = true -> forall p q, on_segment p (fst e) (snd e) -> on_segment q (fst d) (snd d) -> s * s <= sqd p q.
Proof.
  intros S H p q (t & T0 & T1 & ->) (w & W0 & W1 & ->). destruct e as [a b], d as [u v]. unfold apart_b in H. cbn [fst snd] in *.
  rewrite !orb_true_iff, !andb_true_iff, !qleb_le in H. unfold sqd. cbn [fst snd].
  assert (Q : forall x, 0 <= x * x) by (intros x; qc2q; nra).
  destruct H as [[[H|H]|H]|H]; destruct H as (((A & B) & C) & D).
  - destruct (sq_apart s _ _ S (mix_apart s _ _ _ _ t w T0 T1 W0 W1 A B C D)) as [X Y]. eapply Qcle_trans; [exact Y|]. match goal with |- ?m <= ?m + ?n * ?n => generalize (Q n); generalize m (n * n) end. clear. intros m n H. qlra.
  - destruct (sq_apart s _ _ S (mix_apart s _ _ _ _ w t W0 W1 T0 T1 A B C D)) as [X Y]. eapply Qcle_trans; [exact X|]. match goal with |- ?m <= ?m + ?n * ?n => generalize (Q n); generalize m (n * n) end. clear. intros m n H. qlra.
  - destruct (sq_apart s _ _ S (mix_apart s _ _ _ _ t w T0 T1 W0 W1 A B C D)) as [X Y]. eapply Qcle_trans; [exact Y|]. match goal with |- ?m <= ?n * ?n + ?m => generalize (Q n); generalize m (n * n) end. clear. intros m n H. qlra.
  - destruct (sq_apart s _ _ S (mix_apart s _ _ _ _ w t W0 W1 T0 T1 A B C D)) as [X Y]. eapply Qcle_trans; [exact X|]. match goal with |- ?m <= ?n * ?n + ?m => generalize (Q n); generalize m (n * n) end. clear. intros m n H. qlra.
Qed.
Definition two_squares : list pathface := [PF (square 2 2 6) [] (qz (-2)); PF (square 0 0 10) [] (qz (-2))].
Lemma squares_spaced : spaced (qz 2) (map pf_outer two_squares).
Proof.
  cbn [two_squares map pf_outer spaced]. split; [|exact I]. intros a b (u & v & H & A) (u' & v' & H' & B).
  assert (D : forallb (fun e => forallb (apart_b (qz 2) e) (steps (square 0 0 10))) (steps (square 2 2 6)) = true) by (vm_compute; reflexivity).
  rewrite forallb_forall in D. specialize (D _ H). rewrite forallb_forall in D. specialize (D _ H').
  exact (apart_ok (qz 2) (u, v) (u', v') ltac:(discriminate) D a b A B).
Qed.
Lemma ex_spaced : exists cmds, route_polyface_outers ex_job two_squares (Some (qz 2)) None = Ok cmds /\
  (forall g, In g two_squares -> closed_path (pf_outer g) /\ steps (pf_outer g) <> []) /\ 1 < qz 2 /\ spaced (qz 2) (map pf_outer two_squares) /\ retracts cmds = 2%nat.
Proof.
  exists (motions (route_polyface_outers ex_job two_squares (Some (qz 2)) None)). split; [apply motions_ok; vm_compute; reflexivity|].
  split; [intros g [<-|[<-|[]]]; (split; [apply square_closed|discriminate])|]. split; [reflexivity|]. split; [exact squares_spaced|]. vm_compute. reflexivity.
Qed.
