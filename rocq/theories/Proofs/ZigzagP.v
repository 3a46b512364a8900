(** * Linking scanline ends to boundaries; zig-zag routes *)
From Verif Require Import Base.Py Model.Strategy Spec.Paths Spec.Zigzag Proofs.GeomP Proofs.FillP Proofs.DrillP Proofs.LinkedP.
From Coq Require Import Permutation Lia.
Local Open Scope Qc_scope.
Local Open Scope list_scope.

(** ** Closeness *)
Lemma close_spec q a b : a <> b -> exists d c, dist_to_segment_squared q a b = Ok (d, c) /\
  (qltb d link_tolerance = true <-> near_segment link_tolerance q a b).
Proof.
  intros N. destruct (dist_to_segment_ok q a b N) as (d & c & E). exists d, c. split; [exact E|].
  destruct (dist_to_segment_spec _ _ _ _ _ E) as (S & -> & M). rewrite qltb_lt. split.
  - intros H. exists c. split; assumption.
  - intros (c' & S' & L). specialize (M _ S'). qlra.
Qed.

Lemma inserted_refl new l : inserted new l l.
Proof. induction l; constructor; assumption. Qed.
Lemma inserted_weaken new new' a b : incl new new' -> inserted new a b -> inserted new' a b.
Proof. intros I H. induction H; constructor; try assumption. apply I. assumption. Qed.
Lemma inserted_one new l1 l2 p : In p new -> inserted new (l1 ++ l2) (l1 ++ p :: l2).
Proof. intros I. induction l1; cbn [app]; constructor; try assumption. apply inserted_refl. Qed.
Lemma inserted_trans new a b : forall c, inserted new b c -> inserted new a b -> inserted new a c.
Proof.
  intros c H. revert a. induction H as [|x s g H IH|x s g I H IH]; intros a0 H0.
  - exact H0.
  - inversion H0; subst; constructor; auto.
  - constructor; auto.
Qed.
Lemma inserted_in new a b : inserted new a b -> forall q, In q a -> In q b.
Proof. induction 1; intros q; cbn [In]; [tauto| |right; auto]. intros [->|I]; [left; reflexivity|right; auto]. Qed.
Lemma inserted_only new a b : inserted new a b -> forall q, In q b -> In q a \/ In q new.
Proof.
  induction 1 as [|x s g H IH|x s g I H IH]; intros q; cbn [In]; [tauto| |].
  - intros [->|J]; [left; left; reflexivity|]. destruct (IH _ J); [left; right; assumption|right; assumption].
  - intros [->|J]; [right; assumption|apply IH; assumption].
Qed.

(** ** One segment *)
(** What a linking step does: it moves the points [new] from the remaining ones to polygon [k]. *)
Definition moved (k : nat) (new : path) (s s' : link_state) : Prop :=
  Permutation (ls_remaining s) (new ++ ls_remaining s') /\
  lp_linked (ls_poly s') = lp_linked (ls_poly s) ++ new /\
  lp_free (ls_poly s') = lp_free (ls_poly s) /\
  inserted new (lp_polygon (ls_poly s)) (lp_polygon (ls_poly s')) /\
  (forall q, In q new -> In q (lp_polygon (ls_poly s'))) /\
  ls_map s' = rev (map (fun q => (q, k)) new) ++ ls_map s.
Lemma moved_none k s : moved k [] s s.
Proof.
  split; [reflexivity|split; [symmetry; apply app_nil_r|split; [reflexivity|split; [apply inserted_refl|split; [intros q []|reflexivity]]]]].
Qed.
Lemma moved_trans k n1 n2 s1 s2 s3 : moved k n1 s1 s2 -> moved k n2 s2 s3 -> moved k (n1 ++ n2) s1 s3.
Proof.
  intros (P1 & L1 & F1 & I1 & C1 & M1) (P2 & L2 & F2 & I2 & C2 & M2).
  split; [rewrite P1, P2, app_assoc; reflexivity|]. split; [rewrite L2, L1, app_assoc; reflexivity|]. split; [congruence|].
  split; [|split].
  - eapply inserted_trans.
    + eapply inserted_weaken; [|exact I2]. apply incl_appr, incl_refl.
    + eapply inserted_weaken; [|exact I1]. apply incl_appl, incl_refl.
  - intros q I. apply in_app_or in I. destruct I as [I|I]; [|auto]. eapply inserted_in; [exact I2|auto].
  - rewrite M2, M1. rewrite map_app, rev_app_distr, app_assoc. reflexivity.
Qed.

Lemma link_segment_spec k p1 p2 : p1 <> p2 -> forall points s,
  NoDup points -> incl points (ls_remaining s) -> NoDup (lp_linked (ls_poly s) ++ ls_remaining s) ->
  In p1 (lp_polygon (ls_poly s)) -> In p2 (lp_polygon (ls_poly s)) ->
  exists new s', link_segment k p1 p2 points s = Ok s' /\ moved k new s s' /\
    (forall q, In q new <-> In q points /\ near_segment link_tolerance q p1 p2).
Proof.
  intros N12. induction points as [|q points IH]; intros s ND IC NL I1 I2.
  - exists [], s. split; [reflexivity|split; [apply moved_none|]]. intros q; split; [intros []|intros [[] _]].
  - cbn [link_segment]. destruct (close_spec q p1 p2 N12) as (d & c & -> & CS). cbn [rbind].
    inversion ND as [|? ? NQ ND']; subst.
    destruct (qltb d link_tolerance) eqn:C.
    + assert (IQ : In q (ls_remaining s)) by (apply IC; left; reflexivity).
      assert (NQL : ~ In q (lp_linked (ls_poly s))).
      { intros J. apply in_split in J. destruct J as (l1 & l2 & J). rewrite J in NL. rewrite <- app_assoc in NL. cbn [app] in NL.
        apply NoDup_remove_2 in NL. apply NL. apply in_or_app. right. apply in_or_app. right. exact IQ. }
      destruct (in_split_first _ _ IQ) as (r1 & r2 & ER & NR). rewrite ER, py_remove_app by exact NR. cbn [rbind].
      destruct (link_point_inserts _ q _ _ I1 I2 NQL) as (l1 & l2 & EP & ->). cbn [rbind].
      set (s1 := LS (r1 ++ r2) _ _).
      assert (M1 : moved k [q] s s1).
      { split; [rewrite ER; cbn [ls_remaining s1 app]; symmetry; apply Permutation_middle|].
        split; [reflexivity|split; [reflexivity|split; [|split; [|reflexivity]]]].
        - rewrite EP. apply inserted_one. left. reflexivity.
        - intros u [<-|[]]. cbn. apply in_or_app. right. left. reflexivity. }
      assert (NR12 : NoDup (r1 ++ q :: r2)) by (rewrite <- ER; clear - NL; induction (lp_linked (ls_poly s)); [exact NL|inversion NL; auto]).
      destruct (IH s1) as (new & s' & E & M & H).
      * exact ND'.
      * intros u J. cbn [s1 ls_remaining]. assert (In u (r1 ++ q :: r2)) by (rewrite <- ER; apply IC; right; exact J).
        apply in_app_or in H. apply in_or_app. destruct H as [H|[->|H]]; [left; exact H|contradiction|right; exact H].
      * cbn [s1 ls_remaining ls_poly lp_linked]. rewrite ER in NL. rewrite <- app_assoc. cbn [app].
        eapply Permutation_NoDup; [|exact NL]. apply Permutation_app_head. symmetry. apply Permutation_middle.
      * destruct M1 as (_ & _ & _ & II & _). eapply inserted_in; [exact II|exact I1].
      * destruct M1 as (_ & _ & _ & II & _). eapply inserted_in; [exact II|exact I2].
      * exists (q :: new), s'. split; [exact E|]. split; [exact (moved_trans _ _ _ _ _ _ M1 M)|].
        intros u. cbn [In]. rewrite H. split; [intros [<-|[A B]]; [split; [left; reflexivity|apply CS; reflexivity]|tauto]|].
        intros [[->|A] B]; [left; reflexivity|right; tauto].
    + cbn [rbind]. destruct (IH s) as (new & s' & E & M & H); try assumption; [intros u J; apply IC; right; exact J|].
      exists new, s'. split; [exact E|split; [exact M|]]. intros u. rewrite H. cbn [In]. split; [tauto|].
      intros [[->|A] B]; [|tauto]. apply CS in B. congruence.
Qed.

Lemma moved_nodup k new s s' : moved k new s s' -> NoDup (lp_linked (ls_poly s) ++ ls_remaining s) ->
  NoDup (lp_linked (ls_poly s') ++ ls_remaining s').
Proof.
  intros (P & L & _) N. eapply Permutation_NoDup; [|exact N]. rewrite L, P, <- app_assoc. reflexivity.
Qed.
Lemma nodup_app_r {A} (a b : list A) : NoDup (a ++ b) -> NoDup b.
Proof. induction a; [auto|]. intros H. inversion H; auto. Qed.
Lemma nodup_app_disj {A} (a b : list A) q : NoDup (a ++ b) -> In q a -> In q b -> False.
Proof. intros N I J. apply in_split in I. destruct I as (l1 & l2 & ->). rewrite <- app_assoc in N. cbn [app] in N. apply NoDup_remove_2 in N. apply N. apply in_or_app. right. apply in_or_app. right. exact J. Qed.

(** ** One polygon *)

Lemma link_segments_spec k : forall polygon s, proper polygon ->
  NoDup (lp_linked (ls_poly s) ++ ls_remaining s) -> incl polygon (lp_polygon (ls_poly s)) ->
  exists new s', link_segments k polygon s = Ok s' /\ moved k new s s' /\
    (forall q, In q new <-> In q (ls_remaining s) /\ near_path link_tolerance q polygon).
Proof.
  induction polygon as [|p1 polygon IH]; intros s PR ND IC.
  - exists [], s. split; [reflexivity|split; [apply moved_none|]]. intros q; split; [intros []|intros (_ & a & b & [] & _)].
  - destruct polygon as [|p2 polygon].
    + exists [], s. split; [reflexivity|split; [apply moved_none|]]. intros q; split; [intros []|intros (_ & a & b & [] & _)].
    + change (link_segments k (p1 :: p2 :: polygon) s) with
        (do s <- link_segment k p1 p2 (ls_remaining s) s; link_segments k (p2 :: polygon) s).
      assert (N12 : p1 <> p2) by (apply PR; left; reflexivity).
      destruct (link_segment_spec k p1 p2 N12 (ls_remaining s) s) as (new1 & s1 & -> & M1 & H1).
      * exact (nodup_app_r _ _ ND).
      * apply incl_refl.
      * exact ND.
      * apply IC. left. reflexivity.
      * apply IC. right. left. reflexivity.
      * cbn [rbind]. pose proof (moved_nodup _ _ _ _ M1 ND) as ND1.
        destruct (IH s1) as (new2 & s2 & -> & M2 & H2).
        -- intros a b I. apply PR. right. exact I.
        -- exact ND1.
        -- intros q I. destruct M1 as (_ & _ & _ & II & _). eapply inserted_in; [exact II|]. apply IC. right. exact I.
        -- exists (new1 ++ new2), s2. split; [reflexivity|split; [exact (moved_trans _ _ _ _ _ _ M1 M2)|]].
           intros q. rewrite in_app_iff, H1, H2. destruct M1 as (P1 & _).
           split.
           ++ intros [[A B]|[A (a & b & C & D)]].
              ** split; [exact A|]. exists p1, p2. split; [left; reflexivity|exact B].
              ** split; [eapply Permutation_in; [symmetry; exact P1|apply in_or_app; right; exact A]|].
                 exists a, b. split; [right; exact C|exact D].
           ++ intros (A & a & b & [[= <- <-]|C] & D); [left; auto|].
              assert (A' : In q (new1 ++ ls_remaining s1)) by (eapply Permutation_in; [exact P1|exact A]).
              apply in_app_or in A'. destruct A' as [A'|A']; [left; apply H1; exact A'|right].
              split; [exact A'|]. exists a, b. auto.
Qed.

(** ** All boundaries *)
(** The polygon [lp] made from [boundary] by linking the points [new]. *)
Definition linked_with (boundary : path) (lp : linked) (new : path) : Prop :=
  lp_linked lp = new /\ lp_free lp = [] /\ inserted new boundary (lp_polygon lp) /\
  (forall q, In q new -> In q (lp_polygon lp) /\ near_path link_tolerance q boundary).

Inductive Forall3 {A B C} (R : A -> B -> C -> Prop) : list A -> list B -> list C -> Prop :=
| Forall3_nil : Forall3 R [] [] []
| Forall3_cons a b c la lb lc : R a b c -> Forall3 R la lb lc -> Forall3 R (a :: la) (b :: lb) (c :: lc).

Fixpoint map_of (k : nat) (news : list path) (m : list (pt * nat)) : list (pt * nat) :=
  match news with
  | [] => m
  | new :: news => map_of (S k) news (rev (map (fun q => (q, k)) new) ++ m)
  end.

Lemma link_boundaries_spec : forall boundaries k remaining m, Forall proper boundaries -> NoDup remaining ->
  exists lps news rest, Permutation remaining (concat news ++ rest) /\ Forall3 linked_with boundaries lps news /\
    (forall q, In q rest <-> In q remaining /\ forall b, In b boundaries -> ~ near_path link_tolerance q b) /\
    link_boundaries k boundaries remaining m =
      match rest with [] => Ok (lps, map_of k news m) | _ => Err AssertionError end.
Proof.
  induction boundaries as [|b bs IH]; intros k remaining m PR ND.
  - exists [], [], remaining. split; [reflexivity|split; [constructor|]]. split; [|destruct remaining; reflexivity].
    intros q. split; [intros H; split; [exact H|intros b []]|tauto].
  - cbn [link_boundaries]. inversion PR as [|? ? PB PBS]; subst.
    destruct (link_segments_spec k b (LS remaining (LP b [] []) m) PB ND (incl_refl _)) as (new & s & -> & M & H).
    cbn [rbind]. pose proof (moved_nodup _ _ _ _ M ND) as ND1. destruct M as (P & L & F & I & C & EM). cbn [ls_remaining ls_poly lp_linked lp_free lp_polygon ls_map app] in *.
    destruct (IH (S k) (ls_remaining s) (ls_map s) PBS (nodup_app_r _ _ ND1)) as (lps & news & rest & P2 & F3 & HR & ->).
    exists (ls_poly s :: lps), (new :: news), rest. split; [|split; [|split]].
    + cbn [concat]. rewrite P, P2, app_assoc. reflexivity.
    + constructor; [|exact F3]. split; [exact L|split; [exact F|split; [exact I|]]].
      intros q J. split; [apply C; exact J|apply H; exact J].
    + intros q. rewrite HR. split.
      * intros [A B]. assert (A' : In q remaining) by (eapply Permutation_in; [symmetry; exact P|apply in_or_app; right; exact A]).
        split; [exact A'|]. intros b' [<-|J]; [|apply B; exact J]. intros N.
        assert (In q new) by (apply H; split; assumption).
        eapply (nodup_app_disj new (ls_remaining s)); [eapply Permutation_NoDup; [exact P|exact ND]|exact H0|exact A].
      * intros [A B]. split; [|intros b' J; apply B; right; exact J].
        assert (A' : In q (new ++ ls_remaining s)) by (eapply Permutation_in; [exact P|exact A]).
        apply in_app_or in A'. destruct A' as [A'|A']; [|exact A']. apply H in A'. destruct A' as [_ A']. destruct (B b); [left; reflexivity|exact A'].
    + destruct rest; [|reflexivity]. cbn [rbind map_of]. rewrite EM. reflexivity.
Qed.

Lemma map_of_prefix news : forall k m, exists pre, map_of k news m = pre ++ m /\ (forall q j, In (q, j) pre -> In q (concat news)).
Proof.
  induction news as [|new news IH]; intros k m; cbn [map_of].
  - exists []. split; [reflexivity|intros q j []].
  - destruct (IH (S k) (rev (map (fun q => (q, k)) new) ++ m)) as (pre & -> & H).
    exists (pre ++ rev (map (fun q => (q, k)) new)). split; [rewrite app_assoc; reflexivity|].
    intros q j I. cbn [concat]. apply in_or_app. apply in_app_or in I. destruct I as [I|I]; [right; eapply H; exact I|left].
    apply in_rev in I. apply in_map_iff in I. destruct I as (u & [= <- <-] & J). exact J.
Qed.
Lemma dict_get_app_r {A} k (d1 d2 : list (pt * A)) : (forall a, ~ In (k, a) d1) -> dict_get k (d1 ++ d2) = dict_get k d2.
Proof.
  induction d1 as [|[k' a] d1 IH]; intros N; [reflexivity|]. cbn [app dict_get]. destruct (pt_eqb k' k) eqn:E.
  - apply pt_eqb_iff in E. subst. destruct (N a). left. reflexivity.
  - apply IH. intros a' I. apply (N a'). right. exact I.
Qed.
Lemma dict_get_const {A} k (v : A) (d1 d2 : list (pt * A)) : In (k, v) d1 -> (forall a, In (k, a) d1 -> a = v) -> dict_get k (d1 ++ d2) = Ok v.
Proof.
  induction d1 as [|[k' a] d1 IH]; intros I U; [destruct I|]. cbn [app dict_get]. destruct (pt_eqb k' k) eqn:E.
  - apply pt_eqb_iff in E. subst. f_equal. apply U. left. reflexivity.
  - destruct I as [[= -> ->]|I]; [rewrite pt_eqb_refl in E; discriminate|]. apply IH; [exact I|]. intros a' J. apply U. right. exact J.
Qed.
Lemma map_of_get news : forall k m i new q, NoDup (concat news) -> nth_error news i = Some new -> In q new ->
  dict_get q (map_of k news m) = Ok (k + i)%nat.
Proof.
  induction news as [|n0 news IH]; intros k m i new q ND E I; [destruct i; discriminate|]. cbn [map_of concat] in *.
  destruct i as [|i]; cbn [nth_error] in E.
  - injection E as ->. destruct (map_of_prefix news (S k) (rev (map (fun q => (q, k)) new) ++ m)) as (pre & -> & H).
    rewrite dict_get_app_r.
    + rewrite Nat.add_0_r. apply dict_get_const.
      * apply -> in_rev. apply in_map_iff. exists q. auto.
      * intros a J. apply in_rev in J. apply in_map_iff in J. destruct J as (u & [= _ <-] & _). reflexivity.
    + intros a J. apply H in J. eapply nodup_app_disj; eassumption.
  - rewrite (IH (S k) _ i new q); [f_equal; lia|exact (nodup_app_r _ _ ND)|exact E|exact I].
Qed.

(** Linking succeeds exactly when every scanline end is near a boundary segment; then every one is
    linked to one boundary and found in the map. *)
Lemma link_all pts boundaries : NoDup pts -> Forall proper boundaries ->
  (forall q, In q pts -> exists b, In b boundaries /\ near_path link_tolerance q b) ->
  exists lps m news, link_scanpoints_to_boundaries pts boundaries = Ok (lps, m) /\
    Forall3 linked_with boundaries lps news /\ Permutation pts (concat news) /\
    (forall i new q, nth_error news i = Some new -> In q new -> dict_get q m = Ok i).
Proof.
  intros ND PR NR. destruct (link_boundaries_spec boundaries 0 pts [] PR ND) as (lps & news & rest & P & F3 & HR & E).
  assert (rest = []).
  { destruct rest as [|q rest]; [reflexivity|]. exfalso. destruct (HR q) as [H _]. destruct H as [A B]; [left; reflexivity|].
    destruct (NR _ A) as (b & I & N). exact (B b I N). }
  subst rest. rewrite app_nil_r in P. exists lps, (map_of 0 news []), news.
  split; [exact E|split; [exact F3|split; [exact P|]]].
  intros i new q EN I. apply (map_of_get news 0 [] i new q); [eapply Permutation_NoDup; eassumption|exact EN|exact I].
Qed.
Lemma link_fails pts boundaries q : NoDup pts -> Forall proper boundaries -> In q pts ->
  (forall b, In b boundaries -> ~ near_path link_tolerance q b) -> link_scanpoints_to_boundaries pts boundaries = Err AssertionError.
Proof.
  intros ND PR I N. destruct (link_boundaries_spec boundaries 0 pts [] PR ND) as (lps & news & rest & P & F3 & HR & E).
  unfold link_scanpoints_to_boundaries. rewrite E. destruct rest as [|r rest]; [|reflexivity]. exfalso.
  assert (In q []) by (apply HR; split; assumption). assumption.
Qed.

Lemma pt_dec (a b : pt) : {a = b} + {a <> b}.
Proof. destruct (pt_eqb a b) eqn:E; [left; apply pt_eqb_iff; exact E|right; intros C; apply pt_eqb_iff in C; congruence]. Defined.
(** Whenever linking succeeds: only insertions of the given points. *)
Lemma link_point_inv lp q s e lp' : link_point lp q s e = Ok lp' ->
  (~ In q (lp_linked lp)) /\ lp_linked lp' = lp_linked lp ++ [q] /\ lp_free lp' = lp_free lp /\
  inserted [q] (lp_polygon lp) (lp_polygon lp').
Proof.
  intros H. assert (NQ : ~ In q (lp_linked lp)).
  { intros C. destruct (link_point_errors lp q s e) as [E _]. rewrite E in H by exact C. discriminate. }
  assert (II : In s (lp_polygon lp) /\ In e (lp_polygon lp)).
  { destruct (link_point_errors lp q s e) as [_ E].
    destruct (in_dec pt_dec s (lp_polygon lp)) as [I|N]; [|rewrite E in H; [discriminate|exact NQ|left; exact N]].
    destruct (in_dec pt_dec e (lp_polygon lp)) as [I2|N]; [auto|rewrite E in H; [discriminate|exact NQ|right; exact N]]. }
  destruct (link_point_inserts lp q s e (proj1 II) (proj2 II) NQ) as (l1 & l2 & EP & E). rewrite E in H. injection H as <-.
  cbn [lp_linked lp_free lp_polygon]. split; [exact NQ|split; [reflexivity|split; [reflexivity|]]]. rewrite EP. apply inserted_one. left. reflexivity.
Qed.
Lemma py_remove_incl q l r : py_remove q l = Ok r -> incl r l.
Proof.
  intros H. destruct (py_remove_split _ _ _ H) as (l1 & l2 & -> & -> & _). intros u I.
  apply in_app_or in I. apply in_or_app. destruct I; [left|right; right]; assumption.
Qed.
Lemma link_segment_inserts k p1 p2 : forall points s s', link_segment k p1 p2 points s = Ok s' ->
  incl (ls_remaining s') (ls_remaining s) /\ inserted points (lp_polygon (ls_poly s)) (lp_polygon (ls_poly s')).
Proof.
  induction points as [|q points IH]; intros s s'; cbn [link_segment].
  - intros [= <-]. split; [apply incl_refl|apply inserted_refl].
  - destruct (dist_to_segment_squared q p1 p2) as [[d c]|e]; [|discriminate]. cbn [rbind].
    destruct (qltb d link_tolerance).
    + destruct (py_remove q (ls_remaining s)) as [r|e] eqn:ER; [|discriminate]. cbn [rbind].
      destruct (link_point (ls_poly s) q p1 p2) as [lp|e] eqn:EL; [|discriminate]. cbn [rbind]. intros H.
      destruct (IH _ _ H) as [I1 I2]. cbn [ls_remaining ls_poly] in *. destruct (link_point_inv _ _ _ _ _ EL) as (_ & _ & _ & I3).
      split; [intros u J; apply (py_remove_incl _ _ _ ER); apply I1; exact J|].
      eapply inserted_trans.
      * eapply inserted_weaken; [|exact I2]. intros u J. right. exact J.
      * eapply inserted_weaken; [|exact I3]. intros u [<-|[]]. left. reflexivity.
    + cbn [rbind]. intros H. destruct (IH _ _ H) as [I1 I2]. split; [exact I1|].
      eapply inserted_weaken; [|exact I2]. intros u J. right. exact J.
Qed.
Lemma link_segments_inserts k : forall polygon s s' pts, link_segments k polygon s = Ok s' -> incl (ls_remaining s) pts ->
  incl (ls_remaining s') pts /\ inserted pts (lp_polygon (ls_poly s)) (lp_polygon (ls_poly s')).
Proof.
  induction polygon as [|p1 polygon IH]; intros s s' pts H I.
  - cbn in H. injection H as <-. split; [exact I|apply inserted_refl].
  - destruct polygon as [|p2 polygon]; [cbn in H; injection H as <-; split; [exact I|apply inserted_refl]|].
    change (link_segments k (p1 :: p2 :: polygon) s) with
      (do s <- link_segment k p1 p2 (ls_remaining s) s; link_segments k (p2 :: polygon) s) in H.
    destruct (link_segment k p1 p2 (ls_remaining s) s) as [s1|e] eqn:E; [|discriminate]. cbn [rbind] in H.
    destruct (link_segment_inserts _ _ _ _ _ _ E) as [I1 I2].
    destruct (IH s1 s' pts H) as [I3 I4]; [intros u J; apply I; apply I1; exact J|].
    split; [exact I3|]. eapply inserted_trans; [exact I4|]. eapply inserted_weaken; [exact I|exact I2].
Qed.
Lemma link_boundaries_inserts_from pts : forall boundaries k remaining m lps m', link_boundaries k boundaries remaining m = Ok (lps, m') ->
  incl remaining pts -> Forall2 (inserted pts) boundaries (map lp_polygon lps).
Proof.
  induction boundaries as [|b bs IH]; intros k remaining m lps m'; cbn [link_boundaries].
  - destruct remaining; [|discriminate]. intros [= <- <-] _. constructor.
  - destruct (link_segments k b (LS remaining (LP b [] []) m)) as [s|e] eqn:E; [|discriminate]. cbn [rbind].
    destruct (link_boundaries (S k) bs (ls_remaining s) (ls_map s)) as [[lps2 m2]|e] eqn:E2; [|discriminate]. cbn [rbind].
    intros [= <- <-] I. destruct (link_segments_inserts _ _ _ _ pts E I) as [I1 I2]. cbn [map]. constructor; [exact I2|].
    eapply IH; [exact E2|exact I1].
Qed.
Lemma link_boundaries_inserts pts boundaries k m lps m' : link_boundaries k boundaries pts m = Ok (lps, m') ->
  Forall2 (inserted pts) boundaries (map lp_polygon lps).
Proof. intros H. eapply link_boundaries_inserts_from; [exact H|apply incl_refl]. Qed.

(** Vertices that occur once, and points that are not vertices: on every segment in order. *)
Lemma link_segment_sorted k p1 p2 pre post : forall points s s' mid, link_segment k p1 p2 points s = Ok s' ->
  lp_polygon (ls_poly s) = pre ++ p1 :: mid ++ p2 :: post -> ~ In p1 pre -> ~ In p2 (pre ++ p1 :: mid) ->
  ~ In p2 points -> by_distance p1 mid -> incl mid (lp_linked (ls_poly s)) ->
  exists mid', lp_polygon (ls_poly s') = pre ++ p1 :: mid' ++ p2 :: post /\ by_distance p1 mid' /\ incl mid' (mid ++ points).
Proof.
  induction points as [|q points IH]; intros s s' mid; cbn [link_segment].
  - intros [= <-] E _ _ _ B _. exists mid. split; [exact E|split; [exact B|]]. rewrite app_nil_r. apply incl_refl.
  - destruct (dist_to_segment_squared q p1 p2) as [[d c]|e]; [|discriminate]. cbn [rbind].
    destruct (qltb d link_tolerance).
    + destruct (py_remove q (ls_remaining s)) as [r|e] eqn:ER; [|discriminate]. cbn [rbind].
      destruct (link_point (ls_poly s) q p1 p2) as [lp|e] eqn:EL; [|discriminate]. cbn [rbind]. intros H E N1 N2 NP B IC.
      destruct (link_point_inv _ _ _ _ _ EL) as (NQ & _ & _ & _).
      destruct (link_point_segment (ls_poly s) q p1 p2 pre mid post E N1 N2 B NQ) as (m1 & m2 & EM & EL' & B').
      { intros C. apply NQ. apply IC. exact C. }
      rewrite EL' in EL. injection EL as <-.
      destruct (IH _ _ (m1 ++ q :: m2) H eq_refl N1) as (mid' & E' & B'' & I'').
      * intros C. apply in_app_or in C. destruct C as [C|[C|C]]; [apply N2; apply in_or_app; left; exact C|apply N2; apply in_or_app; right; left; exact C|].
        apply in_app_or in C. destruct C as [C|[C|C]].
        -- apply N2. subst mid. apply in_or_app. right. right. apply in_or_app. left. exact C.
        -- apply NP. left. exact C.
        -- apply N2. subst mid. apply in_or_app. right. right. apply in_or_app. right. exact C.
      * intros C. apply NP. right. exact C.
      * exact B'.
      * cbn [ls_poly lp_linked]. intros u J. apply in_or_app. apply in_app_or in J. destruct J as [J|[J|J]].
        -- left. apply IC. subst mid. apply in_or_app. left. exact J.
        -- right. left. exact J.
        -- left. apply IC. subst mid. apply in_or_app. right. exact J.
      * exists mid'. split; [exact E'|split; [exact B''|]]. intros u J. apply I'' in J. subst mid.
        rewrite !in_app_iff in *. cbn [In] in *. tauto.
    + cbn [rbind]. intros H E N1 N2 NP B IC. destruct (IH s s' mid H E N1 N2) as (mid' & E' & B' & I'); [intros C; apply NP; right; exact C|exact B|exact IC|].
      exists mid'. split; [exact E'|split; [exact B'|]]. intros u J. apply I' in J. rewrite in_app_iff in *. cbn [In]. tauto.
Qed.
Lemma link_segments_sorted k : forall suffix s s' pre, link_segments k suffix s = Ok s' ->
  lp_polygon (ls_poly s) = pre ++ suffix -> NoDup suffix -> (forall u, In u suffix -> ~ In u pre) ->
  (forall q, In q (ls_remaining s) -> ~ In q suffix) ->
  exists big, refined suffix big /\ lp_polygon (ls_poly s') = pre ++ big.
Proof.
  induction suffix as [|p1 suffix IH]; intros s s' pre H E ND D1 D2.
  - cbn in H. injection H as <-. exists []. split; [constructor|exact E].
  - destruct suffix as [|p2 suffix]; [cbn in H; injection H as <-; exists [p1]; split; [constructor|exact E]|].
    change (link_segments k (p1 :: p2 :: suffix) s) with
      (do s <- link_segment k p1 p2 (ls_remaining s) s; link_segments k (p2 :: suffix) s) in H.
    destruct (link_segment k p1 p2 (ls_remaining s) s) as [s1|e] eqn:ES; [|discriminate]. cbn [rbind] in H.
    inversion ND as [|? ? NP1 ND']; subst.
    destruct (link_segment_sorted k p1 p2 pre suffix _ _ _ [] ES) as (mid & E1 & B & I).
    + exact E.
    + apply D1. left. reflexivity.
    + intros C. apply in_app_or in C. destruct C as [C|[C|[]]]; [exact (D1 p2 (or_intror (or_introl eq_refl)) C)|].
      apply NP1. left. symmetry. exact C.
    + intros C. apply (D2 _ C). right. left. reflexivity.
    + constructor.
    + intros u [].
    + destruct (link_segment_inserts _ _ _ _ _ _ ES) as [I1 _].
      destruct (IH s1 s' (pre ++ p1 :: mid) H) as (big & R & EB).
      * rewrite E1. rewrite <- app_assoc. reflexivity.
      * exact ND'.
      * intros u J C. apply in_app_or in C. destruct C as [C|[C|C]].
        -- exact (D1 u (or_intror J) C).
        -- subst. contradiction.
        -- apply I in C. cbn [app] in C. exact (D2 u C (or_intror J)).
      * intros q J C. apply (D2 q); [apply I1; exact J|right; exact C].
      * exists (p1 :: mid ++ big). split; [constructor; assumption|]. rewrite EB, <- app_assoc. reflexivity.
Qed.
Lemma link_boundaries_refined pts : forall boundaries k remaining m lps m', link_boundaries k boundaries remaining m = Ok (lps, m') ->
  incl remaining pts -> Forall (@NoDup pt) boundaries -> (forall b q, In b boundaries -> In q b -> ~ In q pts) ->
  Forall2 refined boundaries (map lp_polygon lps).
Proof.
  induction boundaries as [|b bs IH]; intros k remaining m lps m'; cbn [link_boundaries].
  - destruct remaining; [|discriminate]. intros [= <- <-] _ _ _. constructor.
  - destruct (link_segments k b (LS remaining (LP b [] []) m)) as [s|e] eqn:E; [|discriminate]. cbn [rbind].
    destruct (link_boundaries (S k) bs (ls_remaining s) (ls_map s)) as [[lps2 m2]|e] eqn:E2; [|discriminate]. cbn [rbind].
    intros [= <- <-] I ND D. inversion ND; subst.
    destruct (link_segments_inserts _ _ _ _ pts E I) as [I1 _].
    destruct (link_segments_sorted k b _ _ [] E eq_refl) as (big & R & EB); [assumption|intros u _ []| |].
    { intros q J C. apply (D b q); [left; reflexivity|exact C|apply I; exact J]. }
    cbn [map]. cbn [app] in EB. rewrite EB. constructor; [exact R|].
    eapply IH; [exact E2|exact I1|assumption|]. intros b' q J. apply D. right. exact J.
Qed.

(** ** The map of scanline ends *)
Lemma end_map_spec (scanlines : list path) : forall d pts, Forall (fun s : path => exists a b, s = [a; b]) scanlines ->
  exists d' : list (pt * path), scanline_end_map scanlines d pts = Ok (d' ++ d, pts ++ concat scanlines) /\
    (forall q s, In (q, s) d' -> In s scanlines /\ In q s) /\
    (forall q s, In s scanlines -> In q s -> In (q, s) d').
Proof.
  induction scanlines as [|s l IH]; intros d pts H.
  - exists []. cbn [scanline_end_map concat app]. rewrite app_nil_r. split; [reflexivity|split; [intros q s []|intros q s []]].
  - inversion H as [|? ? (a & b & ->) HL]; subst. cbn [scanline_end_map last].
    destruct (IH (dict_set b [a; b] (dict_set a [a; b] d)) (pts ++ [a; b]) HL) as (d' & -> & H1 & H2).
    exists (d' ++ [(b, [a; b]); (a, [a; b])]). split; [unfold dict_set; cbn [concat]; rewrite <- !app_assoc; reflexivity|].
    split.
    + intros q s I. apply in_app_or in I. destruct I as [I|[[= <- <-]|[[= <- <-]|[]]]].
      * destruct (H1 _ _ I). split; [right; assumption|assumption].
      * split; [left; reflexivity|right; left; reflexivity].
      * split; [left; reflexivity|left; reflexivity].
    + intros q s [<-|I] J; apply in_or_app; [right|left; apply H2; assumption].
      destruct J as [<-|[<-|[]]]; [right; left; reflexivity|left; reflexivity].
Qed.
Lemma dict_get_some {A} k (d : list (pt * A)) v : dict_get k d = Ok v -> In (k, v) d.
Proof.
  induction d as [|[k' a] d IH]; cbn [dict_get]; [discriminate|]. destruct (pt_eqb k' k) eqn:E.
  - intros [= <-]. apply pt_eqb_iff in E. subst. left. reflexivity.
  - intros H. right. apply IH. exact H.
Qed.
Lemma concat_nodup_same {A} (l : list (list A)) s t q : NoDup (concat l) -> In s l -> In t l -> In q s -> In q t -> s = t.
Proof.
  induction l as [|a l IH]; [intros _ []|]. cbn [concat]. intros ND [->|IS] [->|IT] QS QT; try reflexivity.
  - exfalso. eapply nodup_app_disj; [exact ND|exact QS|]. apply in_concat. eauto.
  - exfalso. eapply nodup_app_disj; [exact ND|exact QT|]. apply in_concat. eauto.
  - apply IH; auto. exact (nodup_app_r _ _ ND).
Qed.
Lemma end_map_get (scanlines : list path) : Forall (fun s : path => exists a b, s = [a; b]) scanlines -> NoDup (concat scanlines) ->
  exists ends : list (pt * path), scanline_end_map scanlines [] [] = Ok (ends, concat scanlines) /\
    (forall q s, In s scanlines -> In q s -> dict_get q ends = Ok s).
Proof.
  intros H ND. destruct (end_map_spec scanlines [] [] H) as (d & E & H1 & H2). rewrite app_nil_r in E. exists d. split; [exact E|].
  intros q s IS IQ. rewrite <- (app_nil_r d). apply dict_get_const; [apply H2; assumption|].
  intros a I. destruct (H1 _ _ I) as [IA QA]. exact (concat_nodup_same _ _ _ _ ND IA IS QA IQ).
Qed.
(** The ends found in the map are ends of scanlines, whatever the scanlines are. *)
Lemma end_map_sound (scanlines : list path) (ends : list (pt * path)) pts q (s : path) : Forall (fun s => exists a b, s = [a; b]) scanlines ->
  scanline_end_map scanlines [] [] = Ok (ends, pts) -> dict_get q ends = Ok s ->
  In q s /\ exists a b, s = [a; b].
Proof.
  intros H E G. destruct (end_map_spec scanlines [] [] H) as (d & E' & H1 & _). rewrite app_nil_r in E'. rewrite E in E'.
  injection E' as -> _. destruct (H1 _ _ (dict_get_some _ _ _ G)) as [I J]. split; [exact J|].
  rewrite Forall_forall in H. exact (H _ I).
Qed.

(** ** Routing *)
Lemma path_eqb_eq p q : path_eqb p q = true <-> p = q.
Proof.
  unfold path_eqb. revert q. induction p as [|a p IH]; intros [|b q]; cbn [length Nat.eqb combine forallb andb fst snd]; try (split; [discriminate|discriminate]); [split; reflexivity|].
  specialize (IH q). destruct (Nat.eqb (length p) (length q)) eqn:EL; cbn [andb] in *.
  - rewrite andb_true_iff, IH, pt_eqb_iff. split; [intros [-> ->]; reflexivity|intros [= -> ->]; auto].
  - split; [discriminate|]. intros [= -> ->]. rewrite Nat.eqb_refl in EL. discriminate.
Qed.
Lemma remove_scanline_split s l r : remove_scanline s l = Ok r -> exists l1 l2, l = l1 ++ s :: l2 /\ r = l1 ++ l2.
Proof.
  revert r. induction l as [|a l IH]; intros r; cbn [remove_scanline]; [discriminate|]. destruct (path_eqb a s) eqn:E.
  - intros [= <-]. apply path_eqb_eq in E. subst. exists [], l. auto.
  - destruct (remove_scanline s l) as [r'|e] eqn:R; [|discriminate]. cbn [rbind]. intros [= <-].
    destruct (IH _ eq_refl) as (l1 & l2 & -> & ->). exists (a :: l1), l2. auto.
Qed.
Lemma remove_scanline_in s l : In s l -> exists r, remove_scanline s l = Ok r.
Proof.
  induction l as [|a l IH]; [intros []|]. cbn [remove_scanline]. destruct (path_eqb a s) eqn:E; [eauto|].
  intros [->|I]; [assert (path_eqb s s = true) by (apply path_eqb_eq; reflexivity); congruence|].
  destruct (IH I) as (r & ->). cbn. eauto.
Qed.

Lemma zigzag_more polygons legs seq : zigzag polygons legs seq -> forall l0 a0 b0, legs = l0 ++ [(a0, b0)] ->
  forall polygon w a b, In polygon polygons -> walk_from polygon b0 (w ++ [a]) ->
  zigzag polygons (legs ++ [(a, b)]) (seq ++ w ++ [a; b]).
Proof.
  intros H l0 a0 b0 -> polygon w a b I W. rewrite <- app_assoc. cbn [app]. eapply zigzag_next; eassumption.
Qed.

Lemma nth_error_set (lps : list linked) k lp lp' : nth_error lps k = Some lp -> lp_polygon lp' = lp_polygon lp ->
  map lp_polygon (lps_set lps k lp') = map lp_polygon lps.
Proof.
  intros E H. destruct (nth_error_split _ _ E) as (l1 & l2 & -> & <-). unfold lps_set.
  rewrite firstn_here by reflexivity. rewrite skipn_past. rewrite !map_app. cbn [map]. rewrite H. reflexivity.
Qed.

(** Whenever the loop ends, the rest of the scanlines has been traversed. *)
Lemma loop_covers polys points (ends : list (pt * path)) : (forall q s, dict_get q ends = Ok s -> In q s /\ exists a b, s = [a; b]) ->
  forall fuel lps scanlines cut sequence done_ seqs legs a0, map lp_polygon lps = polys ->
  zigzag polys (legs ++ [(a0, cut)]) sequence ->
  zig_zag_loop fuel lps points ends scanlines cut sequence done_ = Ok seqs ->
  exists legss more order seqs', seqs = done_ ++ seqs' /\ Forall2 (zigzag polys) legss seqs' /\
    Permutation (concat legss) ((legs ++ [(a0, cut)]) ++ more) /\ Permutation order more /\ Forall2 either_way scanlines order.
Proof.
  intros HE. induction fuel as [|fuel IH]; intros lps scanlines cut sequence done_ seqs legs a0 EP Z H.
  - destruct scanlines; cbn [zig_zag_loop] in H; [|discriminate]. injection H as <-.
    exists [legs ++ [(a0, cut)]], [], [], [sequence]. split; [reflexivity|split; [constructor; [exact Z|constructor]|]].
    split; [cbn [concat]; reflexivity|split; [reflexivity|constructor]].
  - destruct scanlines as [|next others].
    { cbn [zig_zag_loop] in H. injection H as <-.
      exists [legs ++ [(a0, cut)]], [], [], [sequence]. split; [reflexivity|split; [constructor; [exact Z|constructor]|]].
      split; [cbn [concat]; reflexivity|split; [reflexivity|constructor]]. }
    cbn [zig_zag_loop] in H. destruct (dict_get cut points) as [k|e]; [|discriminate H]. cbn [rbind] in H.
    unfold lps_get in H. destruct (nth_error lps k) as [lp|] eqn:EK; [|discriminate H]. cbn [rbind] in H.
    destruct (nearest_linked lp cut) as [[walk lp']|e] eqn:EN; [|discriminate H]. cbn [rbind] in H.
    destruct (nearest_linked_inv _ _ _ _ EN) as (PP & _ & _ & W).
    assert (EP' : map lp_polygon (lps_set lps k lp') = polys) by (rewrite (nth_error_set _ _ _ _ EK PP); exact EP).
    assert (INP : In (lp_polygon lp) polys) by (rewrite <- EP; apply in_map; eapply nth_error_In; exact EK).
    destruct walk as [walk|].
    + destruct W as (w & q & x & y & -> & EX & NX & free & _ & _ & W).
      destruct (w ++ [q]) as [|w0 ws] eqn:EW; [destruct w; discriminate|].
      assert (EL : last (w0 :: ws) w0 = q) by (rewrite <- EW; apply last_last). cbv zeta in H. rewrite EL in H.
      destruct (dict_get q ends) as [scanline|e] eqn:EG; [|discriminate H]. cbn [rbind] in H.
      destruct (HE _ _ EG) as (IQ & a & b & ->).
      assert (exists c, (if pt_eqb a q then Ok b else Ok a) = Ok c /\ either_way [a; b] (q, c)) as (c & EC & EW2).
      { destruct (pt_eqb a q) eqn:EA.
        - apply pt_eqb_iff in EA. subst. exists b. split; [reflexivity|left; reflexivity].
        - exists a. split; [reflexivity|]. destruct IQ as [->|[->|[]]]; [rewrite pt_eqb_refl in EA; discriminate|right; reflexivity]. }
      rewrite EC in H. cbn [rbind] in H. destruct (remove_scanline [a; b] (next :: others)) as [rest|e] eqn:ER; [|discriminate H]. cbn [rbind] in H.
      destruct (remove_scanline_split _ _ _ ER) as (l1 & l2 & ES & ->). rewrite ES.
      assert (Z' : zigzag polys ((legs ++ [(a0, cut)]) ++ [(q, c)]) (sequence ++ (w0 :: ws) ++ [c])).
      { rewrite <- EW. replace (sequence ++ (w ++ [q]) ++ [c]) with (sequence ++ w ++ [q; c]) by (rewrite <- (app_assoc w); reflexivity).
        eapply zigzag_more; [exact Z|reflexivity|exact INP|].
        destruct (first_way_walk (lp_polygon lp) free cut x y w q EX W) as [WW _]. exact WW. }
      destruct (IH _ _ _ _ _ _ _ _ EP' Z' H) as (legss & more & order & seqs' & E1 & E2 & E3 & E4 & E5).
      apply Forall2_app_inv_l in E5. destruct E5 as (o1 & o2 & F1 & F2 & ->).
      exists legss, ((q, c) :: more), (o1 ++ (q, c) :: o2), seqs'. split; [exact E1|split; [exact E2|split; [|split]]].
      * rewrite E3. rewrite <- !app_assoc. reflexivity.
      * rewrite <- E4. symmetry. apply Permutation_middle.
      * apply Forall2_app; [exact F1|constructor; [exact EW2|exact F2]].
    + destruct next as [|s [|c [|? ?]]]; cbn [unpack2 rbind] in H; try discriminate.
      destruct (IH _ _ _ _ _ _ [] s EP' (zigzag_first _ s c) H) as (legss & more & order & seqs' & E1 & E2 & E3 & E4 & E5).
      exists ((legs ++ [(a0, cut)]) :: legss), ((s, c) :: more), ((s, c) :: order), (sequence :: seqs').
      split; [rewrite E1, <- app_assoc; reflexivity|]. split; [constructor; assumption|].
      split; [cbn [concat]; rewrite E3; reflexivity|]. split; [apply perm_skip; exact E4|].
      constructor; [left; reflexivity|exact E5].
Qed.

Lemma drop_inv lp p lp' : drop lp p = Ok lp' -> lp_polygon lp' = lp_polygon lp /\ lp_linked lp' = lp_linked lp /\ Permutation (lp_free lp) (p :: lp_free lp').
Proof.
  unfold drop. destruct (py_remove p (lp_free lp)) as [f|e] eqn:E; [|discriminate]. cbn [rbind]. intros [= <-].
  destruct (py_remove_split _ _ _ E) as (l1 & l2 & -> & -> & _). cbn. split; [reflexivity|split; [reflexivity|]]. symmetry. apply Permutation_middle.
Qed.

Lemma route_covers lps scanlines points ends pts seqs : Forall (fun s => exists a b, s = [a; b]) scanlines ->
  scanline_end_map scanlines [] [] = Ok (ends, pts) ->
  route_zig_zag lps scanlines points ends = Ok seqs -> cover_once (map lp_polygon lps) scanlines seqs.
Proof.
  intros F2 EM. unfold route_zig_zag. destruct scanlines as [|first rest]; [discriminate|].
  inversion F2 as [|? ? (a & b & ->) FR]; subst. cbn [unpack2 rbind].
  assert (exists s c, (if qltb (fst b) (fst a) then (b, a) else (a, b)) = (s, c) /\ either_way [a; b] (s, c)) as (s & c & -> & EW).
  { destruct (qltb (fst b) (fst a)); eexists; eexists; (split; [reflexivity|]); [right|left]; reflexivity. }
  destruct (dict_get s points) as [k|e]; [|discriminate]. cbn [rbind].
  unfold lps_get. destruct (nth_error (map reset lps) k) as [lp|] eqn:EK; [|discriminate]. cbn [rbind].
  destruct (drop lp s) as [lp'|e] eqn:ED; [|discriminate]. cbn [rbind]. intros H.
  destruct (drop_inv _ _ _ ED) as (PP & _ & _).
  assert (EP : map lp_polygon (lps_set (map reset lps) k lp') = map lp_polygon lps).
  { rewrite (nth_error_set _ _ _ _ EK PP). rewrite map_map. apply map_ext. reflexivity. }
  destruct (loop_covers (map lp_polygon lps) points ends (fun q s0 => end_map_sound _ _ _ q s0 F2 EM)
    _ _ _ _ _ _ _ [] s EP (zigzag_first _ _ _) H) as (legss & more & order & seqs' & E1 & E2 & E3 & E4 & E5).
  cbn [app] in *. subst seqs'. exists legss, ((s, c) :: order). split; [exact E2|]. split; [rewrite E3, E4; reflexivity|].
  constructor; [exact EW|exact E5].
Qed.

(** ** One boundary: the route is found *)
Lemma loop_single points ends (all : list path) :
  (forall s q, In s all -> In q s -> dict_get q points = Ok O) ->
  (forall s q, In s all -> In q s -> dict_get q ends = Ok s) ->
  forall fuel lp scanlines cut sequence done_, (length scanlines <= fuel)%nat ->
  incl scanlines all -> (exists s, In s all /\ In cut s) -> Forall (fun s : path => exists a b, s = [a; b]) scanlines ->
  NoDup (cut :: concat scanlines) -> Permutation (lp_free lp) (cut :: concat scanlines) ->
  incl (cut :: concat scanlines) (lp_polygon lp) ->
  exists more, zig_zag_loop fuel [lp] points ends scanlines cut sequence done_ = Ok (done_ ++ [sequence ++ more]).
Proof.
  intros HP HE. induction fuel as [|fuel IH]; intros lp scanlines cut sequence done_ L IA IC F2 ND PF IP.
  - destruct scanlines; [|cbn [length] in L; lia]. exists []. rewrite app_nil_r. reflexivity.
  - destruct scanlines as [|next others]; [exists []; rewrite app_nil_r; reflexivity|].
    cbn [zig_zag_loop]. destruct IC as (s0 & IS0 & IC0). rewrite (HP _ _ IS0 IC0). cbn [rbind lps_get nth_error].
    destruct (in_split_first cut (lp_polygon lp)) as (x & y & EX & NX); [apply IP; left; reflexivity|].
    destruct (in_split_first cut (lp_free lp)) as (f1 & f2 & EF & NF); [eapply Permutation_in; [symmetry; exact PF|left; reflexivity]|].
    assert (PFF : Permutation (f1 ++ f2) (concat (next :: others))).
    { apply (Permutation_cons_inv (a := cut)). rewrite <- PF, EF. apply Permutation_middle. }
    destruct (nearest_linked_found lp cut x y f1 f2 EX NX EF NF) as (w & q & g1 & g2 & -> & EG & NG & _).
    { inversion F2 as [|? ? (a & b & ->) _]; subst. exists a. inversion ND as [|? ? NC _]; subst. split.
      - assert (In a (lp_polygon lp)) as I by (apply IP; right; left; reflexivity). rewrite EX in I.
        apply in_app_or in I. apply in_or_app. destruct I as [I|[I|I]]; [left; exact I|destruct NC; left; symmetry; exact I|right; exact I].
      - eapply Permutation_in; [symmetry; exact PFF|]. left. reflexivity. }
    cbn [rbind]. destruct (w ++ [q]) as [|w0 ws] eqn:EW; [destruct w; discriminate EW|]. cbv zeta.
    assert (EL : last (w0 :: ws) w0 = q) by (rewrite <- EW; apply last_last). rewrite EL.
    assert (IQ : In q (concat (next :: others))).
    { eapply Permutation_in; [exact PFF|]. rewrite EG. apply in_or_app. right. left. reflexivity. }
    apply in_concat in IQ. destruct IQ as (s & IS & IQ). rewrite (HE s q (IA _ IS) IQ). cbn [rbind].
    assert (exists a b, s = [a; b]) as (a & b & ->) by (rewrite Forall_forall in F2; apply F2; exact IS).
    assert (exists c, (if pt_eqb a q then Ok b else Ok a) = Ok c /\ Permutation [a; b] [q; c]) as (c & EC & PC).
    { destruct (pt_eqb a q) eqn:EA.
      - apply pt_eqb_iff in EA. subst. exists b. split; reflexivity.
      - exists a. split; [reflexivity|]. destruct IQ as [->|[->|[]]]; [rewrite pt_eqb_refl in EA; discriminate|apply perm_swap]. }
    rewrite EC. cbn [rbind]. destruct (remove_scanline_in _ _ IS) as (rest & ER). rewrite ER. cbn [rbind].
    destruct (remove_scanline_split _ _ _ ER) as (l1 & l2 & ES & ->).
    assert (PS : Permutation (concat (next :: others)) (q :: c :: concat (l1 ++ l2))).
    { rewrite ES, !concat_app. cbn [concat]. rewrite PC. cbn [app]. rewrite <- Permutation_middle. apply perm_skip. symmetry. apply Permutation_middle. }
    assert (PG : Permutation (g1 ++ g2) (c :: concat (l1 ++ l2))).
    { apply (Permutation_cons_inv (a := q)). rewrite <- PS, <- PFF, EG. apply Permutation_middle. }
    destruct (IH (LP (lp_polygon lp) (lp_linked lp) (g1 ++ g2)) (l1 ++ l2) c (sequence ++ (w0 :: ws) ++ [c]) done_) as (more & E).
    + apply (f_equal (@length path)) in ES. rewrite app_length in *. cbn [length] in *. lia.
    + intros t I. apply IA. rewrite ES. apply in_app_or in I. apply in_or_app. destruct I; [left|right; right]; assumption.
    + exists [a; b]. split; [apply IA; exact IS|]. eapply Permutation_in; [symmetry; exact PC|right; left; reflexivity].
    + rewrite ES in F2. apply Forall_app in F2. destruct F2 as [FA FB]. inversion FB; subst. apply Forall_app. auto.
    + pose proof (NoDup_cons_iff cut (concat (next :: others))) as NCI. apply NCI in ND. destruct ND as [_ ND']. assert (ND2 : NoDup (q :: c :: concat (l1 ++ l2))) by (eapply Permutation_NoDup; [exact PS|exact ND']).
      inversion ND2; assumption.
    + exact PG.
    + intros u I. apply IP. right. eapply Permutation_in; [symmetry; exact PS|right; exact I].
    + change (lps_set [lp] 0 ?x) with [x]. rewrite E. exists ((w0 :: ws) ++ [c] ++ more). rewrite <- !app_assoc. reflexivity.
Qed.


Lemma route_single lp first rest points ends : let scanlines := (first :: rest : list path) in
  Forall (fun s : path => exists a b, s = [a; b]) scanlines -> NoDup (concat scanlines) ->
  Permutation (lp_linked lp) (concat scanlines) -> incl (lp_linked lp) (lp_polygon lp) ->
  (forall s q, In s scanlines -> In q s -> dict_get q points = Ok O) ->
  (forall s q, In s scanlines -> In q s -> dict_get q ends = Ok s) ->
  exists start cut more, from_left first start cut /\
    route_zig_zag [lp] scanlines points ends = Ok [start :: cut :: more].
Proof.
  intros scanlines F2 ND PL IP HP HE. unfold scanlines in *. unfold route_zig_zag.
  inversion F2 as [|? ? (a & b & ->) FR]; subst. cbn [unpack2 rbind map].
  assert (exists s c, (if qltb (fst b) (fst a) then (b, a) else (a, b)) = (s, c) /\ from_left [a; b] s c /\ Permutation [a; b] [s; c]) as (s & c & -> & FL & PC).
  { destruct (qltb (fst b) (fst a)) eqn:C; eexists; eexists; (split; [reflexivity|]).
    - apply qltb_lt in C. split; [split; [apply Qclt_le_weak; exact C|right; reflexivity]|apply perm_swap].
    - apply qltb_nlt in C. split; [split; [exact C|left; reflexivity]|reflexivity]. }
  assert (IS : In s [a; b]) by (eapply Permutation_in; [symmetry; exact PC|left; reflexivity]).
  assert (ICUT : In c [a; b]) by (eapply Permutation_in; [symmetry; exact PC|right; left; reflexivity]).
  rewrite (HP _ _ (or_introl eq_refl) IS). cbn [rbind lps_get nth_error].
  assert (PL2 : Permutation (lp_linked lp) (s :: c :: concat rest)).
  { rewrite PL. cbn [concat]. rewrite PC. reflexivity. }
  destruct (in_split_first s (lp_linked lp)) as (f1 & f2 & EF & NF); [eapply Permutation_in; [symmetry; exact PL2|left; reflexivity]|].
  unfold drop. cbn [reset lp_free]. rewrite EF, py_remove_app by exact NF. cbn [rbind].
  assert (ND2 : NoDup (s :: c :: concat rest)) by (eapply Permutation_NoDup; [|exact ND]; cbn [concat]; rewrite PC; reflexivity).
  change (lps_set [?x] 0 ?z) with [z].
  destruct (loop_single points ends ([a; b] :: rest) HP HE (length rest)
    (LP (lp_polygon (reset lp)) (lp_linked (reset lp)) (f1 ++ f2)) rest c [s; c] []) as (more & ->).
  - lia.
  - intros t I. right. exact I.
  - exists [a; b]. split; [left; reflexivity|exact ICUT].
  - exact FR.
  - inversion ND2; assumption.
  - cbn [lp_free]. apply (Permutation_cons_inv (a := s)). rewrite <- PL2, EF. apply Permutation_middle.
  - cbn [lp_polygon reset]. intros u I. apply IP. eapply Permutation_in; [symmetry; exact PL2|right; exact I].
  - exists s, c, more. split; [exact FL|reflexivity].
Qed.

(** ** The whole strategy *)
Lemma Forall3_one {A B C} (R : A -> B -> C -> Prop) a lb lc : Forall3 R [a] lb lc -> exists b c, lb = [b] /\ lc = [c] /\ R a b c.
Proof. intros H. inversion H as [|? b c ? ? ? R1 R2]; subst. inversion R2; subst. eauto. Qed.

Lemma zig_zag_single C d st b p bounds first rest : let scanlines := (first :: rest : list path) in
  boundary_polygon b = Ok p -> proper p -> d * st <> 0 ->
  zc_bounds C [p] = Ok bounds ->
  (let '(x0, y0, x1, y1) := bounds in zc_execute C [p] (templates x0 y0 x1 y1 (d * st)) = Ok scanlines) ->
  Forall (fun s : path => exists a b, s = [a; b]) scanlines -> NoDup (concat scanlines) ->
  (forall q, In q (concat scanlines) -> near_path link_tolerance q p) ->
  exists start cut more polygon, zig_zag C d st [b] [] = Ok [start :: cut :: more] /\
    from_left first start cut /\ inserted (concat scanlines) p polygon /\ cover_once [polygon] scanlines [start :: cut :: more].
Proof.
  intros scanlines EB PR NZ EC EX F2 ND NR. destruct bounds as [[[x0 y0] x1] y1].
  destruct (end_map_get scanlines F2 ND) as (ends & EE & HE).
  destruct (link_all (concat scanlines) [p] ND) as (lps & m & news & EL & F3 & PN & HM).
  { constructor; [exact PR|constructor]. }
  { intros q I. exists p. split; [left; reflexivity|apply NR; exact I]. }
  destruct (Forall3_one _ _ _ _ F3) as (lp & new & -> & -> & (LL & LF & LI & LN)).
  cbn [concat] in PN. rewrite app_nil_r in PN.
  assert (HP : forall s q, In s scanlines -> In q s -> dict_get q m = Ok O).
  { intros s q IS IQ. apply (HM O new q eq_refl). eapply Permutation_in; [exact PN|]. apply in_concat. eauto. }
  destruct (route_single lp first rest m ends F2 ND) as (start & cut & more & FL & RE).
  - rewrite LL. symmetry. exact PN.
  - intros q I. rewrite LL in I. apply LN. exact I.
  - exact HP.
  - intros s q. apply HE.
  - exists start, cut, more, (lp_polygon lp). split; [|split; [exact FL|split]].
    + unfold zig_zag. cbn [mapM rbind]. rewrite EB. cbn [rbind mapM app]. rewrite EC. cbn [rbind].
      destruct (qeqb_spec (d * st) 0) as [Z|_]; [contradiction|]. rewrite EX. cbn [rbind]. rewrite EE. cbn [rbind]. rewrite EL. cbn [rbind]. exact RE.
    + eapply inserted_weaken; [|exact LI]. intros q I. eapply Permutation_in; [symmetry; exact PN|exact I].
    + exact (route_covers [lp] scanlines m ends _ _ F2 EE RE).
Qed.

(** Whenever it ends, with any number of boundaries. *)
Lemma mapM_bound bs ps : mapM boundary_polygon bs = Ok ps -> Forall2 (fun b p => boundary_polygon b = Ok p) bs ps.
Proof. intros H. apply mapM_ok in H. exact H. Qed.
Lemma zig_zag_covers C d st outer inner seqs : zig_zag C d st outer inner = Ok seqs ->
  exists ps bounds scanlines, Forall2 (fun b p => boundary_polygon b = Ok p) (outer ++ inner) ps /\
    d * st <> 0 /\ zc_bounds C ps = Ok bounds /\
    (let '(x0, y0, x1, y1) := bounds in zc_execute C ps (templates x0 y0 x1 y1 (d * st)) = Ok scanlines) /\
    (Forall (fun s : path => exists a b, s = [a; b]) scanlines -> exists polygons,
       Forall2 (inserted (concat scanlines)) ps polygons /\ cover_once polygons scanlines seqs).
Proof.
  unfold zig_zag. destruct (mapM boundary_polygon outer) as [po|e] eqn:EO; [|discriminate]. cbn [rbind].
  destruct (mapM boundary_polygon inner) as [pi|e] eqn:EI; [|discriminate]. cbn [rbind].
  destruct (zc_bounds C (po ++ pi)) as [[[[x0 y0] x1] y1]|e] eqn:EB; [|discriminate]. cbn [rbind].
  destruct (qeqb_spec (d * st) 0) as [Z|NZ]; [discriminate|].
  destruct (zc_execute C (po ++ pi) (templates x0 y0 x1 y1 (d * st))) as [sc|e] eqn:EX; [|discriminate]. cbn [rbind].
  destruct (scanline_end_map sc [] []) as [[ends pts]|e] eqn:EE; [|discriminate]. cbn [rbind].
  destruct (link_scanpoints_to_boundaries pts (po ++ pi)) as [[lps m]|e] eqn:EL; [|discriminate]. cbn [rbind]. intros H.
  exists (po ++ pi), (x0, y0, x1, y1), sc. split; [apply Forall2_app; apply mapM_bound; assumption|].
  split; [exact NZ|split; [exact EB|split; [exact EX|]]]. intros F2. exists (map lp_polygon lps). split.
  - destruct (end_map_spec sc [] [] F2) as (d' & EE' & _). rewrite EE in EE'. injection EE' as _ ->. exact (link_boundaries_inserts _ _ _ _ _ _ EL).
  - exact (route_covers lps sc m ends pts seqs F2 EE H).
Qed.
