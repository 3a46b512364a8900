From Verif Require Import Base.Py Model.Geometry Model.Float Model.SegmentFloat Model.Linked Model.Strategy Model.Drill Model.DrillFloat
  Spec.Paths Spec.Drills Spec.Doubles Spec.HoleOrder Proofs.SegmentFloatP Proofs.FillP Proofs.GeomP Proofs.DrillP Proofs.OrderP.
From Coq Require Import ZArith QArith Qabs Qcanon SpecFloat List Lia Lqa Permutation.
Import ListNotations.
Local Open Scope Q_scope.
Local Open Scope list_scope.

Lemma eqb_stands x y X Y : stands x X -> stands y Y -> f64_eqb x y = true <-> X == Y.
Proof.
  intros (a & Ea & Ha) (b & Eb & Hb). unfold f64_eqb. rewrite Ea, Eb, Qeq_bool_iff. split; intros H; [rewrite <- Ha, <- Hb|rewrite Ha, Hb]; exact H.
Qed.
Lemma pt64_eqb_stands p q P Q : pt_stands p P -> pt_stands q Q -> pt64_eqb p q = pt_eqb P Q.
Proof.
  intros [A B] [C D]. unfold qp in *. cbn [fst snd] in *. apply eq_true_iff_eq. unfold pt64_eqb. rewrite andb_true_iff, (eqb_stands _ _ _ _ A C), (eqb_stands _ _ _ _ B D), pt_eqb_iff.
  destruct P, Q. cbn [fst snd] in *. split; [intros [E F]; apply Qc_is_canon in E, F; subst; reflexivity|intros [= -> ->]; split; reflexivity].
Qed.
Lemma sqdist_dist2 A B : this (dist2 A B) == sqdist (qp A) (qp B).
Proof. destruct A as [a b], B as [c d]. unfold dist2, sqdist, qp. cbn [fst snd]. unfold Qcplus, Qcmult, Qcminus, Qcplus, Qcopp, Q2Qc. cbn [this]. rewrite !Qred_correct. ring. Qed.
Lemma sqdist_nonneg P P' : 0 <= sqdist P P'.
Proof. unfold sqdist. pose proof (sq_nonneg (fst P - fst P')). pose proof (sq_nonneg (snd P - snd P')). lra. Qed.

Section Order.
Context (sq : f64 -> f64) (GS : good_square sq) (M : Q) (MB : M <= pw 100).
Definition inb (P : pt) : Prop := box M (qp P).
(** A computed squared distance. *)
Definition near_d (d : f64) (D : Q) : Prop := exists L, stands d L /\ ab (L - D) (7 * (u * D) + 4 * tau).
Lemma dist_near p q P Q : pt_stands p P -> pt_stands q Q -> inb P -> inb Q -> near_d (dist2_64 sq p q) (sqdist (qp P) (qp Q)).
Proof.
  intros A B [C D] [E F]. apply ab_abs in C, D, E, F. destruct (dist2_near sq p q _ _ _ _ M GS A B C D E F MB) as (L & S & N). exists L. split; [exact S|exact N].
Qed.
Lemma near_ltb a b A B : near_d a A -> near_d b B -> 0 <= A -> 0 <= B ->
  ((1 + pw (-49)) * A + pw (-800) < B -> f64_ltb a b = true) /\ ((1 + pw (-49)) * B + pw (-800) < A -> f64_ltb a b = false) /\
  (f64_ltb a b = true -> A <= (1 + pw (-49)) * B + pw (-800)) /\ (f64_ltb a b = false -> B <= (1 + pw (-49)) * A + pw (-800)).
Proof.
  intros (L & SL & NL) (R & SR & NR) PA PB. pose proof (ltb_stands _ _ _ _ SL SR) as T. unfold ab in NL, NR.
  assert (E49 : pw (-49) == 16 * u) by (vm_compute; reflexivity). assert (Et : tau * 16 <= pw (-800)) by (vm_compute; discriminate). assert (T0 : 0 < tau) by (vm_compute; reflexivity).
  destruct u_small as [U0 U1]. rewrite E49. set (v := u) in *. set (e := pw (-800)) in *. set (t := tau) in *. clearbody v e t.
  assert (VA : 0 <= v * A) by nra. assert (VB : 0 <= v * B) by nra.
  assert (WA : v * (v * A) <= (1#1000000) * (v * A)) by nra. assert (WB : v * (v * B) <= (1#1000000) * (v * B)) by nra.
  assert (XA : v * A <= (1#1000000) * A) by nra. assert (XB : v * B <= (1#1000000) * B) by nra.
  split; [|split; [|split]].
  - intros H. apply T. assert (v * ((1 + 16 * v) * A + e) <= v * B) by nra. nra.
  - intros H. destruct (f64_ltb a b); [|reflexivity]. apply proj1 in T. specialize (T eq_refl). exfalso. assert (v * ((1 + 16 * v) * B + e) <= v * A) by nra. nra.
  - intros H. apply T in H. assert (Y : (1 - 7 * v) * A <= (1 + 7 * v) * B + 8 * t) by nra.
    destruct (Qlt_le_dec ((1 + 16 * v) * B + e) A) as [Q|Q]; [|exact Q]. exfalso. assert (v * ((1 + 16 * v) * B + e) <= v * A) by nra. nra.
  - intros H. assert (RL : R <= L) by (destruct (Qlt_le_dec L R) as [Q|Q]; [apply T in Q; congruence|exact Q]).
    destruct (Qlt_le_dec ((1 + 16 * v) * A + e) B) as [Q|Q]; [|exact Q]. exfalso. assert (v * ((1 + 16 * v) * A + e) <= v * B) by nra. nra.
Qed.
Lemma le_near A B L R : ab (L - A) (7 * (u * A) + 4 * tau) -> ab (R - B) (7 * (u * B) + 4 * tau) -> 0 <= A -> 0 <= B -> L <= R ->
  ~ (1 + pw (-49)) * B + pw (-800) < A.
Proof.
  intros NL NR PA PB RL Q. unfold ab in NL, NR.
  assert (E49 : pw (-49) == 16 * u) by (vm_compute; reflexivity). assert (Et : tau * 16 <= pw (-800)) by (vm_compute; discriminate). assert (T0 : 0 < tau) by (vm_compute; reflexivity).
  destruct u_small as [U0 U1]. rewrite E49 in Q. set (v := u) in *. set (e := pw (-800)) in *. set (t := tau) in *. clearbody v e t.
  assert (VA : 0 <= v * A) by nra. assert (VB : 0 <= v * B) by nra.
  assert (WB : v * (v * B) <= (1#1000000) * (v * B)) by nra.
  assert (v * ((1 + 16 * v) * B + e) <= v * A) by nra. nra.
Qed.

(** The point chosen is not beaten by any computed distance. *)
Lemma pick64 h H opts Opts : pt_stands h H -> inb H -> Forall2 pt_stands opts Opts -> Forall inb Opts -> forall d p P L,
  pt_stands p P -> stands d L ->
  let r := pick_from64 sq h (d, p) opts in exists R LR, pt_stands r R /\ LR <= L /\ (R = P /\ LR == L \/ In R Opts /\ ab (LR - sqdist (qp H) (qp R)) (7 * (u * sqdist (qp H) (qp R)) + 4 * tau)) /\
    (forall Q, In Q Opts -> exists LQ, LR <= LQ /\ ab (LQ - sqdist (qp H) (qp Q)) (7 * (u * sqdist (qp H) (qp Q)) + 4 * tau)).
Proof.
  intros Hh Bh F. induction F as [|o O opts Opts Ho F IH]; intros FB d p P L Hp Hd; cbn [pick_from64 fst snd].
  - exists P, L. split; [exact Hp|]. split; [lra|]. split; [left; split; [reflexivity|lra]|intros Q []].
  - inversion FB as [|? ? BO FB']; subst. destruct (dist_near h o H O Hh Ho Bh BO) as (LO & SO & NO). pose proof (ltb_stands _ _ _ _ SO Hd) as T.
    destruct (f64_ltb (dist2_64 sq h o) d).
    + assert (LT : LO < L) by (apply T; reflexivity). destruct (IH FB' _ _ O LO Ho SO) as (R & LR & A & B & C & D). exists R, LR. split; [exact A|]. split; [lra|]. split.
      * right. destruct C as [[-> E]|[I N]]; [split; [left; reflexivity|]|split; [right; exact I|exact N]]. unfold ab in *. lra.
      * intros Q [<-|I]; [exists LO; split; [exact B|exact NO]|apply D; exact I].
    + assert (LE : L <= LO) by (destruct (Qlt_le_dec LO L) as [X|X]; [apply T in X; discriminate|exact X]).
      destruct (IH FB' _ _ P L Hp Hd) as (R & LR & A & B & C & D). exists R, LR. split; [exact A|]. split; [exact B|]. split.
      * destruct C as [[-> E]|[I N]]; [left; split; [reflexivity|exact E]|right; split; [right; exact I|exact N]].
      * intros Q [<-|I]; [exists LO; split; [lra|exact NO]|apply D; exact I].
Qed.
Lemma pick_nearest64_spec h H l L : pt_stands h H -> inb H -> Forall2 pt_stands l L -> Forall inb L -> L <> [] ->
  exists p P, pick_nearest64 sq h l = Ok p /\ pt_stands p P /\ In P L /\ forall Q, In Q L -> ~ surely_nearer H Q P.
Proof.
  intros Hh Bh F FB N. destruct F as [|o O opts Opts Ho F]; [congruence|]. inversion FB as [|? ? BO FB']; subst.
  destruct (dist_near h o H O Hh Ho Bh BO) as (LO & SO & NO). cbn [pick_nearest64].
  destruct (pick64 h H opts Opts Hh Bh F FB' (dist2_64 sq h o) o O LO Ho SO) as (R & LR & A & B & C & D).
  exists (pick_from64 sq h (dist2_64 sq h o, o) opts), R. split; [reflexivity|]. split; [exact A|].
  assert (NR : ab (LR - sqdist (qp H) (qp R)) (7 * (u * sqdist (qp H) (qp R)) + 4 * tau)) by (destruct C as [[-> E]|[_ NR]]; [unfold ab in *; lra|exact NR]).
  split; [destruct C as [[-> _]|[I _]]; [left; reflexivity|right; exact I]|].
  assert (DD : forall Q, In Q (O :: Opts) -> exists LQ, LR <= LQ /\ ab (LQ - sqdist (qp H) (qp Q)) (7 * (u * sqdist (qp H) (qp Q)) + 4 * tau)).
  { intros Q [<-|I]; [exists LO; split; [exact B|exact NO]|apply D; exact I]. }
  intros Q I. destruct (DD Q I) as (LQ & X & Y). unfold surely_nearer. apply (le_near _ _ LR LQ NR Y); [apply sqdist_nonneg|apply sqdist_nonneg|exact X].
Qed.
Lemma remove64_spec p P l L : pt_stands p P -> Forall2 pt_stands l L -> In P L ->
  exists l' L1 L2, remove64 p l = Ok l' /\ L = L1 ++ P :: L2 /\ ~ In P L1 /\ Forall2 pt_stands l' (L1 ++ L2).
Proof.
  intros Hp F I. assert (E : find64 p l = find_pt P L).
  { clear I. induction F as [|o O l L Ho F IH]; [reflexivity|]. cbn [find64 find_pt]. rewrite (pt64_eqb_stands _ _ _ _ Ho Hp), IH. reflexivity. }
  unfold remove64. rewrite E. destruct (find_pt P L) as [i|] eqn:X; [|apply find_pt_none in X; contradiction].
  destruct (find_pt_split _ _ _ X) as (L1 & L2 & -> & -> & N). exists (firstn (length L1) l ++ skipn (S (length L1)) l), L1, L2.
  split; [reflexivity|]. split; [reflexivity|]. split; [exact N|]. clear - F. revert l F. induction L1 as [|a L1 IH]; intros l F; inversion F as [|x ? l' ? H1 H2]; subst; cbn [length firstn skipn app].
  - exact H2.
  - constructor; [exact H1|]. apply IH. exact H2.
Qed.
Lemma order64_spec n : forall h H l L, length L = n -> pt_stands h H -> inb H -> Forall2 pt_stands l L -> Forall inb L ->
  exists o O, order_points64 sq n (Some h) l = Ok o /\ Forall2 pt_stands o O /\ nearly_first H L O.
Proof.
  induction n as [|n IH]; intros h H l L E Hh Bh F FB.
  - destruct L; [|discriminate]. inversion F; subst. exists [], []. split; [reflexivity|]. split; constructor.
  - assert (N : L <> []) by (intros ->; discriminate). destruct (pick_nearest64_spec h H l L Hh Bh F FB N) as (p & P & A & B & C & D).
    destruct (remove64_spec p P l L B F C) as (l' & L1 & L2 & R & -> & N1 & F'). rewrite app_length in E. cbn [length] in E.
    assert (FB' : Forall inb (L1 ++ L2)). { rewrite Forall_forall in FB |- *. intros Q I. apply FB. apply in_app_or in I. apply in_or_app. destruct I as [I|I]; [left|right; right]; exact I. }
    destruct (IH p P l' (L1 ++ L2)) as (o & O & X & Y & Z); [rewrite app_length; lia|exact B|rewrite Forall_forall in FB; apply FB; exact C|exact F'|exact FB'|].
    exists (p :: o), (P :: O). split.
    + cbn [order_points64]. destruct l as [|p0 l]; [inversion F; destruct L1; discriminate|]. rewrite A. cbn [rbind]. rewrite R. cbn [rbind]. rewrite X. reflexivity.
    + split; [constructor; assumption|]. constructor; [exact N1| |exact Z]. intros Q I. apply D. apply in_app_or in I. apply in_or_app. destruct I as [I|I]; [left|right; right]; exact I.
Qed.
Lemma order64_first p P l L : Forall2 pt_stands (p :: l) (P :: L) -> Forall inb (P :: L) ->
  exists o O, order_points64 sq (length (p :: l)) None (p :: l) = Ok o /\ Forall2 pt_stands o (P :: O) /\ nearly_first P L O.
Proof.
  intros F FB. inversion F as [|? ? ? ? Hp F']; subst. inversion FB as [|? ? BP FB']; subst.
  assert (PP : pt64_eqb p p = true) by (rewrite (pt64_eqb_stands _ _ _ _ Hp Hp); apply pt_eqb_refl).
  destruct (order64_spec (length l) p P l L) as (o & O & X & Y & Z); [clear - F'; induction F'; cbn [length]; congruence|exact Hp|exact BP|exact F'|exact FB'|].
  exists (p :: o), O. split; [|split; [constructor; assumption|exact Z]].
  cbn [length order_points64 rbind]. unfold remove64. cbn [find64]. rewrite PP. cbn [firstn skipn app rbind]. rewrite X. reflexivity.
Qed.
End Order.

Lemma nearly_perm h l o : nearly_first h l o -> Permutation o l.
Proof. induction 1 as [|h l1 p l2 o _ _ _ IH]; [constructor|]. apply Permutation_cons_app. exact IH. Qed.
Lemma surely_lt A B C : surely_nearer A B C -> (sqd A B < sqd A C)%Qc.
Proof.
  unfold surely_nearer. rewrite <- !sqdist_dist2, !dist2_sqd. intros H. unfold Qclt. assert (P1 : 0 <= this (sqd A B)) by (rewrite <- dist2_sqd, sqdist_dist2; apply sqdist_nonneg).
  assert (0 < pw (-49)) by (vm_compute; reflexivity). assert (0 < pw (-800)) by (vm_compute; reflexivity). nra.
Qed.
Lemma nearly_exact h l o : nearly_first h l o -> well_apart (h :: l) -> nearest_first h l o.
Proof.
  induction 1 as [|h l1 p l2 o N S H IH]; intros W; constructor.
  - intros q I. destruct (W h p q) as [K|K].
    + left; reflexivity.
    + right. apply in_or_app. right; left; reflexivity.
    + right. apply in_or_app. left; exact I.
    + intros ->. contradiction.
    + apply surely_lt. exact K.
    + exfalso. apply (S q); [apply in_or_app; left; exact I|exact K].
  - intros q I. destruct (pt_eqb p q) eqn:E; [apply pt_eqb_iff in E; subst; apply Qcle_refl|]. destruct (W h p q) as [K|K].
    + left; reflexivity.
    + right. apply in_or_app. right; left; reflexivity.
    + right. apply in_or_app. right; right; exact I.
    + intros ->. rewrite pt_eqb_refl in E. discriminate.
    + apply Qclt_le_weak, surely_lt. exact K.
    + exfalso. apply (S q); [apply in_or_app; right; exact I|exact K].
  - apply IH. assert (SUB : forall x, In x (p :: l1 ++ l2) -> In x (h :: l1 ++ p :: l2)).
    { intros x [<-|I]; [right; apply in_or_app; right; left; reflexivity|]. right. apply in_app_or in I. apply in_or_app. destruct I as [I|I]; [left|right; right]; exact I. }
    intros A B C IA IB IC. apply W; apply SUB; assumption.
Qed.

Lemma holes_nearly sq M p P l L : good_square sq -> M <= pw 100 -> Forall2 pt_stands (p :: l) (P :: L) -> Forall (fun X => box M (qp X)) (P :: L) ->
  exists o O, order_points64 sq (length (p :: l)) None (p :: l) = Ok o /\ Forall2 pt_stands o (P :: O) /\ Permutation O L /\ nearly_first P L O.
Proof. intros GS MB F FB. destruct (order64_first sq GS M MB p P l L F FB) as (o & O & A & B & C). exists o, O. split; [exact A|]. split; [exact B|]. split; [apply (nearly_perm P); exact C|exact C]. Qed.
Lemma holes_same sq M p P l L : good_square sq -> M <= pw 100 -> Forall2 pt_stands (p :: l) (P :: L) -> Forall (fun X => box M (qp X)) (P :: L) ->
  well_apart (P :: L) -> exists o O, order_points64 sq (length (p :: l)) None (p :: l) = Ok o /\ Forall2 pt_stands o O /\ order_points (length (P :: L)) None (P :: L) = Ok O.
Proof.
  intros GS MB F FB W. destruct (order64_first sq GS M MB p P l L F FB) as (o & O & A & B & C). apply nearly_exact in C; [|exact W].
  destruct (order_first P L) as (O' & E & K). rewrite (nearest_first_unique _ _ _ K _ C) in E. exists o, (P :: O). split; [exact A|]. split; [exact B|exact E].
Qed.
