(** * Lemmas about finer stepdowns *)
From Verif Require Import Base.Str Base.Py Model.Geometry Model.Edges Model.Routers Model.Tabs Model.Profile Model.Pocket
  Spec.Paths Spec.Moves Spec.Wires Spec.Profiles Spec.Layers Spec.Pockets Spec.OnMachine Spec.Traced Spec.Finer
  Proofs.GeomP Proofs.PocketP Proofs.StepdownP Proofs.ProfileP Proofs.LayersP Proofs.RouteEx Proofs.ProfileEx.
From Coq Require Import Lia.
Local Open Scope Qc_scope.
Local Open Scope list_scope.

Lemma among_refl {A} (l : list A) : among l l.
Proof. induction l; constructor; assumption. Qed.
Lemma among_nil_l {A} (l : list A) : among [] l.
Proof. induction l; constructor; assumption. Qed.
Lemma among_app {A} (l m l' m' : list A) : among l m -> among l' m' -> among (l ++ l') (m ++ m').
Proof. induction 1 as [|x l m _ IH|x l m _ IH]; intros H; cbn; [exact H|constructor; auto|constructor; auto]. Qed.
Lemma among_map {A B} (f : A -> B) l m : among l m -> among (map f l) (map f m).
Proof. induction 1; constructor; assumption. Qed.
Lemma among_rev {A} (l m : list A) : among l m -> among (rev l) (rev m).
Proof.
  induction 1; cbn; [constructor|apply among_app; [assumption|apply among_refl]|]. rewrite <- (app_nil_r (rev l)). apply among_app; [assumption|apply among_nil_l].
Qed.
Lemma among_flat {A B} (f : A -> list B) l m : among l m -> among (flat_map f l) (flat_map f m).
Proof.
  induction 1; cbn; [constructor|apply among_app; [apply among_refl|assumption]|]. change (flat_map f l) with ([] ++ flat_map f l). apply among_app; [apply among_nil_l|assumption].
Qed.
Lemma among_concat {A} (l m : list (list A)) : Forall2 among l m -> among (concat l) (concat m).
Proof. induction 1; cbn; [constructor|apply among_app; assumption]. Qed.
Lemma among_in {A} (l m : list A) : among l m -> forall x, In x l -> In x m.
Proof. induction 1 as [|x l m _ IH|x l m _ IH]; intros y Hy; cbn in *; [exact Hy|destruct Hy; auto|auto]. Qed.
Lemma among_length {A} (l m : list A) : among l m -> (length l <= length m)%nat.
Proof. induction 1; cbn; lia. Qed.
Lemma among_one {A} (x : A) m : In x m -> among [x] m.
Proof. induction m as [|y m IH]; intros H; [destruct H|]. destruct H as [->|H]; [constructor; apply among_nil_l|constructor; auto]. Qed.
(** Every [m]th number. *)
Lemma among_mult m n : (1 <= m)%nat -> forall n', (n * m <= n')%nat -> among (map (fun k => k * m)%nat (seq 1 n)) (seq 1 n').
Proof.
  intros M. induction n as [|n IH]; intros n' H; [apply among_nil_l|]. rewrite seq_S, map_app. replace n' with (n * m + (n' - n * m))%nat by (cbn in H; lia). rewrite seq_app.
  apply among_app; [apply IH; lia|]. cbn [map]. apply among_one. apply in_seq. cbn in H |- *. lia.
Qed.
Lemma among_mapM {A B} (f : A -> result B) l m : among l m -> forall l' m', mapM f l = Ok l' -> mapM f m = Ok m' -> among l' m'.
Proof.
  induction 1 as [|x l m _ IH|x l m _ IH]; intros l' m' H H'; cbn [mapM] in *.
  - injection H as <-. injection H' as <-. constructor.
  - destruct (f x) as [y|]; [|discriminate]. cbn [rbind] in *. destruct (mapM f l) as [a|]; [|discriminate]. destruct (mapM f m) as [b|]; [|discriminate]. injection H as <-. injection H' as <-. constructor. apply IH; reflexivity.
  - destruct (f x) as [y|]; [|discriminate]. cbn [rbind] in *. destruct (mapM f m) as [b|]; [|discriminate]. injection H' as <-. constructor. apply IH; [exact H|reflexivity].
Qed.

Lemma both_made {A B C} (P : A -> B -> Prop) (Q : A -> C -> Prop) (R : B -> C -> Prop) l : (forall a x y, In a l -> P a x -> Q a y -> R x y) ->
  forall xs ys, Forall2 P l xs -> Forall2 Q l ys -> Forall2 R xs ys.
Proof.
  intros H xs ys F. revert ys. induction F as [|a x l xs E F IH]; intros ys G; inversion G; subst; constructor; [apply (H a); [left; reflexivity|assumption|assumption]|]. apply IH; [intros b u v Hb; apply H; right; exact Hb|assumption].
Qed.
(** ** Profiles *)
Lemma offsets_same K WK top radius ws o bs bs' : offsets_of K WK top radius ws o bs -> offsets_of K WK top radius ws o bs' -> bs = bs'.
Proof.
  destruct o as [o|]; cbn; [|congruence]. intros (l & F & ->) (l' & F' & ->). f_equal. revert l' F'. induction F as [|w b ws l E F IH]; intros l' F'; inversion F'; subst; [reflexivity|]. f_equal; [congruence|auto].
Qed.

Section Finer.
Context (m : nat) (M : (1 <= m)%nat) (s s' : Qc) (S0 : 0 < s') (SM : s = qz (Z.of_nat m) * s').
Lemma coarse_pos : 0 < s.
Proof. rewrite SM. assert (1 <= qz (Z.of_nat m)) by (change 1 with (qz 1); apply qz_le; lia). revert S0 H. generalize (qz (Z.of_nat m)). intros c A B. qc2q. nra. Qed.
Lemma coarse_mult k : s * qz (Z.of_nat k) = s' * qz (Z.of_nat (k * m)).
Proof. rewrite SM, Nat2Z.inj_mul, qz_mult. ring. Qed.
Lemma mult_le a b : (a <= b)%nat -> s' * qz (Z.of_nat a) <= s' * qz (Z.of_nat b).
Proof. intros L. assert (H : qz (Z.of_nat a) <= qz (Z.of_nat b)) by (apply qz_le; lia). revert H S0. generalize (qz (Z.of_nat a)) (qz (Z.of_nat b)). intros x y A B. qc2q. nra. Qed.

Lemma finer_layers TK WK j base ls ls' : lifts TK WK base -> clear_of_top TK WK (j_top j) base ->
  profile_layers TK WK j base (Some s) = Ok ls -> profile_layers TK WK j base (Some s') = Ok ls' -> among ls ls'.
Proof.
  intros L C H H'. assert (N : s <> 0) by (pose proof coarse_pos as P; intros E; rewrite E in P; discriminate P). assert (N' : s' <> 0) by (intros E; rewrite E in S0; discriminate S0).
  apply (which_layers TK WK j base s ls N) in H as (n & _ & A & _ & ->). apply (which_layers TK WK j base s' ls' N') in H' as (n' & _ & _ & D & ->).
  assert (B : (n * m <= n')%nat).
  { destruct (Nat.le_gt_cases (n * m) n') as [G|G]; [exact G|exfalso]. destruct n as [|n]; [cbn in G; lia|].
    destruct (A (S n) ltac:(lia)) as [A1 _]. rewrite L, coarse_mult in A1. pose proof (mult_le (S n') (S n * m) ltac:(lia)) as Q.
    assert (E : tk_zmin TK (wk_moved WK base (s' * qz (Z.of_nat (S n')))) < qq (-1) 1000) by (rewrite L; revert A1 Q; generalize (s' * qz (Z.of_nat (S n'))) (s' * qz (Z.of_nat (S n * m))); intros; qlra).
    destruct D as [D|D]; [qlra|]. rewrite (C _ E) in D. discriminate. }
  apply among_app; [|apply among_refl].
  assert (X : map (fun k => wk_moved WK base (s * qz (Z.of_nat k))) (rev (seq 1 n)) = map (fun k => wk_moved WK base (s' * qz (Z.of_nat k))) (rev (map (fun k => k * m)%nat (seq 1 n)))).
  { rewrite <- map_rev, map_map. apply map_ext. intros k. rewrite coarse_mult. reflexivity. }
  rewrite X. apply among_map, among_rev, among_mult; assumption.
Qed.
Lemma finer_path TK WK j t base ls ls' : lifts TK WK base -> clear_of_top TK WK (j_top j) base ->
  profile_toolpaths TK WK j (Some s) t base = Ok ls -> profile_toolpaths TK WK j (Some s') t base = Ok ls' -> among ls ls'.
Proof.
  unfold profile_toolpaths. intros L C H H'. apply rbind_ok in H as (l & E & H). apply rbind_ok in H' as (l' & E' & H'). pose proof (finer_layers TK WK j base l l' L C E E') as F.
  destruct t as [t|]; [exact (among_mapM _ _ _ F _ _ H H')|]. injection H as <-. injection H' as <-. exact F.
Qed.
Lemma finer_toolpaths K TK WK j radius ws o t paths paths' :
  (forall bases b, offsets_of K WK (j_top j) radius ws o bases -> In b bases -> lifts TK WK b /\ clear_of_top TK WK (j_top j) b) ->
  toolpaths_of K TK WK j radius ws o (Some s) t paths -> toolpaths_of K TK WK j radius ws o (Some s') t paths' -> among paths paths'.
Proof.
  intros HB (bs & pss & O & F & ->) (bs' & pss' & O' & F' & ->). rewrite (offsets_same _ _ _ _ _ _ _ _ O' O) in F'. clear bs' O'. specialize (HB bs). assert (B : forall b, In b bs -> lifts TK WK b /\ clear_of_top TK WK (j_top j) b) by (intros b Hb; apply HB; assumption). clear HB O.
  apply among_concat. refine (both_made _ _ among bs _ _ _ F F'). intros b ps ps' Hb E E'. destruct (B b Hb) as (L & C). exact (finer_path _ _ _ _ _ _ _ L C E E').
Qed.

(** ** Pockets *)
Lemma steps_listed t a d ds : steps_by t a d ds -> ds = map (fun k => a - t * qz (Z.of_nat k)) (seq 1 (length ds)) /\
  (forall k, (0 < k <= length ds)%nat -> d < a - t * qz (Z.of_nat k)) /\ a - t * qz (Z.of_nat (S (length ds))) <= d.
Proof.
  revert a. induction ds as [|x ds IH]; intros a H; cbn [steps_by] in H.
  - split; [reflexivity|]. split; [cbn; lia|]. cbn. change (qz 1) with 1. qlra.
  - destruct H as (-> & L & H). destruct (IH _ H) as (E & A & B). cbn [length].
    assert (X : forall k, a - t - t * qz (Z.of_nat k) = a - t * qz (Z.of_nat (S k))) by (intros k; rewrite Nat2Z.inj_succ, <- Z.add_1_r, qz_plus; change (qz 1) with 1; ring).
    split; [|split].
    + cbn [seq map]. apply f_equal2; [cbn; change (qz 1) with 1; ring|]. rewrite E at 1. rewrite <- (seq_shift _ 1), map_map. apply map_ext. exact X.
    + intros k Hk. destruct k as [|k]; [lia|]. rewrite <- X. destruct k as [|k]; [cbn; change (qz 0) with 0; qlra|apply A; lia].
    + rewrite <- X. exact B.
Qed.
Lemma finer_steps a d ds ds' : steps_by s a d ds -> steps_by s' a d ds' -> among ds ds'.
Proof.
  intros H H'. apply steps_listed in H as (E & A & _). apply steps_listed in H' as (E' & _ & B). set (n := length ds) in *. set (n' := length ds') in *. clearbody n n'. subst ds ds'.
  assert (G : (n * m <= n')%nat).
  { destruct (Nat.le_gt_cases (n * m) n') as [G|G]; [exact G|exfalso]. destruct n as [|n]; [cbn in G; lia|]. specialize (A (S n) ltac:(lia)). rewrite coarse_mult in A.
    pose proof (mult_le (S n') (S n * m) ltac:(lia)) as Q. revert A B Q. generalize (s' * qz (Z.of_nat (S n'))) (s' * qz (Z.of_nat (S n * m))). intros; qlra. }
  assert (X : map (fun k => a - s * qz (Z.of_nat k)) (seq 1 n) = map (fun k => a - s' * qz (Z.of_nat k)) (map (fun k => k * m)%nat (seq 1 n))) by (rewrite map_map; apply map_ext; intros k; rewrite coarse_mult; reflexivity).
  rewrite X. apply among_map, among_mult; assumption.
Qed.
Lemma finer_stepdown ss st out out' : apply_stepdown ss st s = Ok out -> apply_stepdown ss st s' = Ok out' -> among out out'.
Proof.
  intros H H'. apply stepdown_ok in H as (d & (N & U) & ->). apply stepdown_ok in H' as (d' & (_ & U') & ->).
  assert (d' = d) as -> by (destruct (concat ss) as [|f fs]; [contradiction|]; rewrite <- (U f (or_introl eq_refl)); symmetry; apply U'; left; reflexivity).
  apply among_flat. apply (finer_steps (dflt st 0) d); apply arange_down; [exact coarse_pos|exact S0].
Qed.
Lemma finer_fill E fuel pr so : forall ops before ss ss',
  fill_ops E fuel pr so (Some s) before ops = Ok ss -> fill_ops E fuel pr so (Some s') before ops = Ok ss' -> among ss ss'.
Proof.
  assert (N : qeqb s 0 = false) by (destruct (qeqb s 0) eqn:E0; [|reflexivity]; apply qeqb_eq in E0; pose proof coarse_pos as P; rewrite E0 in P; discriminate P).
  assert (N' : qeqb s' 0 = false) by (destruct (qeqb s' 0) eqn:E0; [|reflexivity]; apply qeqb_eq in E0; rewrite E0 in S0; discriminate S0).
  induction ops as [|op ops IH]; intros before ss ss' H H'; cbn [fill_ops] in *; [injection H as <-; injection H' as <-; constructor|]. rewrite N in H. rewrite N' in H'.
  apply rbind_ok in H as (fill & E1 & H). apply rbind_ok in H as (st & E2 & H). apply rbind_ok in H as (rest & E3 & H). injection H as <-.
  rewrite E1 in H'. cbn [rbind] in H'. apply rbind_ok in H' as (st' & E2' & H'). apply rbind_ok in H' as (rest' & E3' & H'). injection H' as <-.
  apply among_app; [|apply among_app; [apply among_refl|exact (IH _ _ _ E3 E3')]].
  apply rbind_ok in E2 as (a & E4 & E2). rewrite E4 in E2'. cbn [rbind] in E2'. exact (finer_stepdown _ _ _ _ E2 E2').
Qed.
End Finer.

(** A smaller stepdown never makes fewer layers. *)
Lemma more_layers TK WK j base s s' ls ls' : 0 < s' -> s' <= s -> lifts TK WK base -> clear_of_top TK WK (j_top j) base ->
  profile_layers TK WK j base (Some s) = Ok ls -> profile_layers TK WK j base (Some s') = Ok ls' -> (length ls <= length ls')%nat.
Proof.
  intros P LE L C H H'. assert (N' : s' <> 0) by (intros E; rewrite E in P; discriminate P). assert (N : s <> 0) by (intros E; rewrite E in LE; apply (Qclt_not_le _ _ P LE)).
  apply (which_layers TK WK j base s ls N) in H as (n & _ & A & _ & ->). apply (which_layers TK WK j base s' ls' N') in H' as (n' & _ & _ & D & ->).
  rewrite !app_length, !map_length, !rev_length, !seq_length. destruct (Nat.le_gt_cases n n') as [G|G]; [lia|exfalso].
  destruct (A (S n') ltac:(lia)) as [A1 _]. rewrite L in A1.
  assert (Q : s' * qz (Z.of_nat (S n')) <= s * qz (Z.of_nat (S n'))).
  { assert (K : 0 <= qz (Z.of_nat (S n'))) by (change 0 with (qz 0); apply qz_le; lia). revert K LE. generalize (qz (Z.of_nat (S n'))). intros x K LE. qc2q. nra. }
  assert (E : tk_zmin TK (wk_moved WK base (s' * qz (Z.of_nat (S n')))) < qq (-1) 1000) by (rewrite L; revert A1 Q; generalize (s' * qz (Z.of_nat (S n'))) (s * qz (Z.of_nat (S n'))); intros; qlra).
  destruct D as [D|D]; [qlra|]. rewrite (C _ E) in D. discriminate.
Qed.
(** The contours of a pocket. *)
Lemma finer_pocket m s s' E fuel j areas avoids oo io ao ai so cmds cmds' : (1 <= m)%nat -> 0 < s' -> s = qz (Z.of_nat m) * s' ->
  pocket_clipper E fuel j areas avoids oo io ao ai so (Some s) = Ok cmds -> pocket_clipper E fuel j areas avoids oo io ao ai so (Some s') = Ok cmds' ->
  exists ss ss', route_sequences j so false av_none ss = Ok cmds /\ route_sequences j so false av_none ss' = Ok cmds' /\ among ss ss'.
Proof.
  unfold pocket_clipper. intros M P SM H H'. apply rbind_ok in H as (ops & E1 & H). rewrite E1 in H'. cbn [rbind] in H'. apply rbind_ok in H as (avs & E2 & H). rewrite E2 in H'. cbn [rbind] in H'.
  apply rbind_ok in H as (pops & E3 & H). rewrite E3 in H'. cbn [rbind] in H'. apply rbind_ok in H as (ss & E4 & H). apply rbind_ok in H' as (ss' & E4' & H').
  exists ss, ss'. split; [exact H|]. split; [exact H'|]. exact (finer_fill m M s s' P SM _ _ _ _ _ _ _ _ E4 E4').
Qed.
