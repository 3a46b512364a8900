(** * Linking points to a polygon and walking along it *)
From Verif Require Import Base.Py Model.Linked Spec.Paths Spec.Zigzag Proofs.GeomP Proofs.FillP Proofs.DrillP.
From Coq Require Import Permutation Lia.
Local Open Scope Qc_scope.
Local Open Scope list_scope.

(** ** Sorting *)
Lemma insert_by_perm {A} (key : A -> Qc) a l : Permutation (insert_by key a l) (a :: l).
Proof.
  induction l as [|b l IH]; [reflexivity|]. cbn [insert_by]. destruct (qleb (key a) (key b)); [reflexivity|].
  rewrite IH. apply perm_swap.
Qed.
Lemma sort_by_perm {A} (key : A -> Qc) l : Permutation (sort_by key l) l.
Proof.
  induction l as [|a l IH]; [reflexivity|]. cbn [sort_by fold_right]. rewrite insert_by_perm. apply perm_skip. exact IH.
Qed.
Lemma by_distance_tail s a l : by_distance s (a :: l) -> by_distance s l.
Proof. destruct l; [constructor|]. intros [_ H]. exact H. Qed.
Lemma by_distance_head s a l : by_distance s (a :: l) -> forall b, In b l -> sqd s a <= sqd s b.
Proof.
  revert a. induction l as [|c l IH]; intros a H b; [intros []|]. destruct H as [H1 H2]. intros [<-|I]; [exact H1|].
  apply Qcle_trans with (1 := H1). apply IH; assumption.
Qed.
Lemma by_distance_cons s a l : (forall b, In b l -> sqd s a <= sqd s b) -> by_distance s l -> by_distance s (a :: l).
Proof. destruct l as [|c l]; [constructor|]. intros H1 H2. split; [apply H1; left; reflexivity|exact H2]. Qed.

Lemma sort_last s (mid : path) p : by_distance s mid ->
  exists m1 m2, sort_by (fun q => dist2 q s) (mid ++ [p]) = m1 ++ p :: m2 /\ mid = m1 ++ m2 /\
    (forall q, In q m1 -> sqd s q <= sqd s p) /\ (forall q, In q m2 -> sqd s p < sqd s q).
Proof.
  assert (K : forall q, dist2 q s = sqd s q) by (intros q; rewrite dist2_sqd, sqd_sym; reflexivity).
  induction mid as [|a mid IH]; intros H.
  - exists [], []. split; [reflexivity|split; [reflexivity|split; intros q []]].
  - destruct (IH (by_distance_tail _ _ _ H)) as (m1 & m2 & E & EM & H1 & H2).
    cbn [app sort_by fold_right]. unfold sort_by in E. rewrite E. pose proof (by_distance_head _ _ _ H) as HH.
    destruct m1 as [|b m1].
    + cbn [app insert_by]. destruct (qleb (dist2 a s) (dist2 p s)) eqn:C; rewrite !K in C.
      * exists [a], m2. subst mid. apply qleb_le in C. split; [reflexivity|split; [reflexivity|split; [|exact H2]]].
        intros q [<-|[]]. exact C.
      * apply qleb_nle in C. exists [], (a :: m2). cbn [app] in EM. subst mid. split.
        { destruct m2 as [|c m2]; [reflexivity|]. cbn [insert_by app]. rewrite !K.
          replace (qleb (sqd s a) (sqd s c)) with true; [reflexivity|]. symmetry. apply qleb_le. apply HH. left. reflexivity. }
        split; [reflexivity|split; [intros q []|]]. intros q [<-|I]; [exact C|apply H2; exact I].
    + cbn [app insert_by]. rewrite !K. replace (qleb (sqd s a) (sqd s b)) with true
        by (symmetry; apply qleb_le; apply HH; rewrite EM; left; reflexivity).
      exists (a :: b :: m1), m2. split; [reflexivity|split; [rewrite EM; reflexivity|split; [|exact H2]]].
      intros q [<-|I]; [|apply H1; exact I].
      apply Qcle_trans with (sqd s b); [apply HH; rewrite EM; left; reflexivity|apply H1; left; reflexivity].
Qed.

Lemma by_distance_insert s p m1 m2 : by_distance s (m1 ++ m2) ->
  (forall q, In q m1 -> sqd s q <= sqd s p) -> (forall q, In q m2 -> sqd s p < sqd s q) -> by_distance s (m1 ++ p :: m2).
Proof.
  induction m1 as [|a m1 IH]; cbn [app]; intros H H1 H2.
  - apply by_distance_cons; [|exact H]. intros b I. apply Qclt_le_weak. apply H2. exact I.
  - apply by_distance_cons.
    + intros b I. apply in_app_or in I. destruct I as [I|[<-|I]].
      * apply (by_distance_head _ _ _ H). apply in_or_app. left. exact I.
      * apply H1. left. reflexivity.
      * apply (by_distance_head _ _ _ H). apply in_or_app. right. exact I.
    + apply IH; [exact (by_distance_tail _ _ _ H)| |exact H2]. intros q I. apply H1. right. exact I.
Qed.

(** ** link_point *)
Lemma insert_at_app {A} (l1 l2 : list A) a n : n = length l1 -> insert_at n a (l1 ++ l2) = l1 ++ a :: l2.
Proof.
  intros ->. unfold insert_at. rewrite firstn_app, firstn_all, Nat.sub_diag, skipn_app, skipn_all, Nat.sub_diag.
  cbn [firstn skipn app]. rewrite app_nil_r. reflexivity.
Qed.
Lemma firstn_here {A} (l1 l2 : list A) n : n = length l1 -> firstn n (l1 ++ l2) = l1.
Proof. intros ->. rewrite firstn_app, firstn_all, Nat.sub_diag. cbn [firstn]. apply app_nil_r. Qed.
Lemma skipn_here {A} (l1 l2 : list A) n : n = length l1 -> skipn n (l1 ++ l2) = l2.
Proof. intros ->. rewrite skipn_app, skipn_all, Nat.sub_diag. reflexivity. Qed.
Lemma skipn_past {A} (l1 l2 : list A) a : skipn (S (length l1)) (l1 ++ a :: l2) = l2.
Proof.
  replace (l1 ++ a :: l2) with ((l1 ++ [a]) ++ l2) by (rewrite <- app_assoc; reflexivity).
  apply skipn_here. rewrite app_length. cbn [length]. lia.
Qed.

Lemma mem_pt_false p l : ~ In p l -> mem_pt p l = false.
Proof. intros H. destruct (mem_pt p l) eqn:E; [apply mem_pt_iff in E; contradiction|reflexivity]. Qed.

Lemma link_point_segment lp p s e pre mid post :
  lp_polygon lp = pre ++ s :: mid ++ e :: post -> ~ In s pre -> ~ In e (pre ++ s :: mid) ->
  by_distance s mid -> ~ In p (lp_linked lp) -> ~ In p mid ->
  exists m1 m2, mid = m1 ++ m2 /\
    link_point lp p s e = Ok (LP (pre ++ s :: (m1 ++ p :: m2) ++ e :: post) (lp_linked lp ++ [p]) (lp_free lp)) /\
    by_distance s (m1 ++ p :: m2).
Proof.
  intros E NS NE BD NL NM. unfold link_point. rewrite mem_pt_false by exact NL. rewrite E.
  rewrite py_index_app by exact NS. cbn [rbind].
  assert (IE : py_index e (pre ++ s :: mid ++ e :: post) = Ok (length pre + S (length mid))%nat).
  { replace (pre ++ s :: mid ++ e :: post) with ((pre ++ s :: mid) ++ e :: post) by (rewrite <- app_assoc; reflexivity).
    rewrite py_index_app by exact NE. rewrite app_length. reflexivity. }
  rewrite IE. cbn [rbind].
  assert (AS : forall x, pre ++ s :: x = (pre ++ [s]) ++ x) by (intros x; rewrite <- app_assoc; reflexivity).
  assert (LE : length (pre ++ [s]) = S (length pre)) by (rewrite app_length; cbn [length]; lia).
  destruct (Nat.eqb (S (length pre)) (length pre + S (length mid))) eqn:EQ.
  - apply Nat.eqb_eq in EQ. assert (mid = []) by (destruct mid; [reflexivity|cbn [length] in EQ; lia]). subst mid.
    exists [], []. split; [reflexivity|]. split; [|constructor].
    cbn [rbind app]. rewrite AS. rewrite insert_at_app by (symmetry; exact LE). rewrite <- AS. reflexivity.
  - rewrite (AS (mid ++ e :: post)). rewrite skipn_here by (symmetry; exact LE). rewrite firstn_here by lia.
    destruct (sort_last s mid p BD) as (m1 & m2 & -> & -> & H1 & H2).
    rewrite py_index_app by (intros C; apply NM; apply in_or_app; left; exact C). cbn [rbind].
    exists m1, m2. split; [reflexivity|]. split; [|apply by_distance_insert; assumption].
    f_equal. f_equal. rewrite <- (app_assoc m1 m2), (app_assoc (pre ++ [s])).
    rewrite insert_at_app by (rewrite app_length, LE; lia).
    rewrite <- !app_assoc. reflexivity.
Qed.

(** Whatever the order of the end points: one insertion. *)
Lemma link_point_inserts lp p s e : In s (lp_polygon lp) -> In e (lp_polygon lp) -> ~ In p (lp_linked lp) ->
  exists l1 l2, lp_polygon lp = l1 ++ l2 /\
    link_point lp p s e = Ok (LP (l1 ++ p :: l2) (lp_linked lp ++ [p]) (lp_free lp)).
Proof.
  intros IS IE NL. unfold link_point. rewrite mem_pt_false by exact NL.
  assert (PI : forall q l, In q l -> exists i, py_index q l = Ok i).
  { intros q l I. destruct (in_split_first q l I) as (l1 & l2 & -> & N). rewrite py_index_app by exact N. eauto. }
  destruct (PI _ _ IS) as (i & ->). destruct (PI _ _ IE) as (j & ->). cbn [rbind].
  destruct (Nat.eqb (S i) j).
  - cbn [rbind]. exists (firstn (S i) (lp_polygon lp)), (skipn (S i) (lp_polygon lp)).
    split; [symmetry; apply firstn_skipn|reflexivity].
  - match goal with |- context [sort_by ?k ?l] => destruct (PI p (sort_by k l)) as (n & ->) end.
    { eapply Permutation_in; [symmetry; apply sort_by_perm|]. apply in_or_app. right. left. reflexivity. }
    cbn [rbind]. exists (firstn (S i + n) (lp_polygon lp)), (skipn (S i + n) (lp_polygon lp)).
    split; [symmetry; apply firstn_skipn|reflexivity].
Qed.

Lemma link_point_errors lp p s e :
  (In p (lp_linked lp) -> link_point lp p s e = Err AssertionError) /\
  (~ In p (lp_linked lp) -> (~ In s (lp_polygon lp) \/ ~ In e (lp_polygon lp)) -> link_point lp p s e = Err ValueError).
Proof.
  unfold link_point. split.
  - intros H. apply mem_pt_iff in H. rewrite H. reflexivity.
  - intros N H. rewrite mem_pt_false by exact N. unfold py_index.
    destruct (find_pt s (lp_polygon lp)) eqn:ES; [|reflexivity]. cbn [rbind].
    destruct (find_pt e (lp_polygon lp)) eqn:EE; [|reflexivity]. exfalso.
    destruct H as [H|H]; [apply find_pt_none in H; congruence|apply find_pt_none in H; congruence].
Qed.

(** ** nearest_linked *)

Lemma search_spec free a l : (exists q, In q l /\ In q free) ->
  exists w q rest, search free a l = (sum_sqd a (w ++ [q]), w ++ [q]) /\ l = w ++ q :: rest /\ In q free /\ forall u, In u w -> ~ In u free.
Proof.
  induction l as [|b l IH]; intros (q & I & F); [destruct I|]. cbn [search]. rewrite dist2_sqd.
  destruct (mem_pt b free) eqn:M.
  - apply mem_pt_iff in M. exists [], b, l. cbn [app sum_sqd fold_right]. rewrite Qcplus_0_r.
    split; [reflexivity|split; [reflexivity|split; [exact M|intros u []]]].
  - assert (NB : ~ In b free) by (intros C; apply mem_pt_iff in C; congruence).
    destruct IH as (w & q' & rest & -> & -> & F' & NF).
    { exists q. split; [|exact F]. destruct I as [<-|I]; [contradiction|exact I]. }
    exists (b :: w), q', rest. split; [reflexivity|split; [reflexivity|split; [exact F'|]]].
    intros u [<-|I']; [exact NB|apply NF; exact I'].
Qed.

Lemma first_way_unique l free w q w' q' : first_way l free w q -> first_way l free w' q' -> w = w' /\ q = q'.
Proof.
  intros ((r & ->) & F & N) ((r' & E) & F' & N'). revert w' E N'. induction w as [|a w IH]; intros w' E N'.
  - destruct w' as [|b w']; cbn [app] in E; injection E as -> E; [auto|]. destruct (N' b); [left; reflexivity|exact F].
  - destruct w' as [|b w']; cbn [app] in E; injection E as -> E.
    + destruct (N q'); [left; reflexivity|exact F'].
    + destruct (IH (fun u I => N u (or_intror I)) w' E (fun u I => N' u (or_intror I))) as [-> ->]. auto.
Qed.

Lemma nearest_linked_found lp p x y f1 f2 : lp_polygon lp = x ++ p :: y -> ~ In p x ->
  lp_free lp = f1 ++ p :: f2 -> ~ In p f1 -> (exists q, In q (x ++ y) /\ In q (f1 ++ f2)) ->
  exists w q g1 g2, nearest_linked lp p = Ok (Some (w ++ [q]), LP (lp_polygon lp) (lp_linked lp) (g1 ++ g2)) /\
    f1 ++ f2 = g1 ++ q :: g2 /\ ~ In q g1 /\
    (first_way (y ++ x) (f1 ++ f2) w q \/ first_way (rev (y ++ x)) (f1 ++ f2) w q) /\
    (forall w' q', first_way (y ++ x) (f1 ++ f2) w' q' \/ first_way (rev (y ++ x)) (f1 ++ f2) w' q' ->
       sum_sqd p (w ++ [q]) <= sum_sqd p (w' ++ [q'])).
Proof.
  intros EP NP EF NF (q0 & I0 & F0). unfold nearest_linked. rewrite EF, py_remove_app by exact NF. cbn [rbind].
  destruct (f1 ++ f2) as [|f0 fs] eqn:EFF; [destruct F0|]. rewrite EP, py_index_app by exact NP. cbn [rbind].
  rewrite firstn_here by reflexivity. rewrite skipn_past.
  destruct (search_spec (f0 :: fs) p (y ++ x)) as (w1 & q1 & r1 & -> & E1 & F1 & N1).
  { exists q0. split; [|exact F0]. apply in_app_or in I0. apply in_or_app. tauto. }
  destruct (search_spec (f0 :: fs) p (rev (y ++ x))) as (w2 & q2 & r2 & -> & E2 & F2 & N2).
  { exists q0. split; [|exact F0]. apply -> in_rev. apply in_app_or in I0. apply in_or_app. tauto. }
  assert (W1 : first_way (y ++ x) (f0 :: fs) w1 q1) by (split; [exists r1; exact E1|split; assumption]).
  assert (W2 : first_way (rev (y ++ x)) (f0 :: fs) w2 q2) by (split; [exists r2; exact E2|split; assumption]).
  assert (FIN : forall w q, (first_way (y ++ x) (f0 :: fs) w q \/ first_way (rev (y ++ x)) (f0 :: fs) w q) ->
     sum_sqd p (w ++ [q]) <= sum_sqd p (w1 ++ [q1]) -> sum_sqd p (w ++ [q]) <= sum_sqd p (w2 ++ [q2]) ->
     exists w' q' g1 g2,
       match w ++ [q] with
       | [] => Err IndexError
       | p0 :: _ =>
         do free <- py_remove (last (w ++ [q]) p0) (f0 :: fs);
         Ok (Some (w ++ [q]), LP (x ++ p :: y) (lp_linked lp) free)
       end = Ok (Some (w' ++ [q']), LP (x ++ p :: y) (lp_linked lp) (g1 ++ g2)) /\
      f0 :: fs = g1 ++ q' :: g2 /\ ~ In q' g1 /\
      (first_way (y ++ x) (f0 :: fs) w' q' \/ first_way (rev (y ++ x)) (f0 :: fs) w' q') /\
      (forall w'' q'', first_way (y ++ x) (f0 :: fs) w'' q'' \/ first_way (rev (y ++ x)) (f0 :: fs) w'' q'' ->
         sum_sqd p (w' ++ [q']) <= sum_sqd p (w'' ++ [q'']))).
  { intros w q W L1 L2. assert (F : In q (f0 :: fs)) by (destruct W as [(_ & F & _)|(_ & F & _)]; exact F).
    destruct (in_split_first _ _ F) as (g1 & g2 & EG & NG).
    exists w, q, g1, g2. split.
    - destruct (w ++ [q]) as [|p0 ps] eqn:EW; [destruct w; discriminate|]. rewrite <- EW. rewrite last_last.
      rewrite EG, py_remove_app by exact NG. reflexivity.
    - split; [exact EG|split; [exact NG|split; [exact W|]]]. intros w' q' [W'|W'].
      + destruct (first_way_unique _ _ _ _ _ _ W' W1) as [-> ->]. exact L1.
      + destruct (first_way_unique _ _ _ _ _ _ W' W2) as [-> ->]. exact L2. }
  destruct (qltb (sum_sqd p (w1 ++ [q1])) (sum_sqd p (w2 ++ [q2]))) eqn:C.
  - apply qltb_lt in C. apply FIN; [left; exact W1|apply Qcle_refl|apply Qclt_le_weak; exact C].
  - apply qltb_nlt in C. apply FIN; [right; exact W2|exact C|apply Qcle_refl].
Qed.

Lemma first_way_walk polygon free p x y w q : polygon = x ++ p :: y ->
  first_way (y ++ x) free w q \/ first_way (rev (y ++ x)) free w q -> walk_to_free polygon free p w q.
Proof.
  intros E [((r & ER) & F & N)|((r & ER) & F & N)]; (split; [|split; [exact F|exact N]]);
    exists x, y, r; (split; [exact E|]); rewrite ER; [left|right]; rewrite <- app_assoc; reflexivity.
Qed.

Lemma last_default {A} (l : list A) d e : l <> [] -> last l d = last l e.
Proof.
  induction l as [|a l IH]; [congruence|]. intros _. destruct l as [|b l]; [reflexivity|].
  change (last (b :: l) d = last (b :: l) e). apply IH. discriminate.
Qed.
(** The general inversion: whenever it answers. *)
Lemma nearest_linked_inv lp p r lp' : nearest_linked lp p = Ok (r, lp') ->
  lp_polygon lp' = lp_polygon lp /\ lp_linked lp' = lp_linked lp /\ In p (lp_free lp) /\
  match r with
  | None => lp_free lp = [p] /\ lp_free lp' = []
  | Some l => exists w q x y, l = w ++ [q] /\ lp_polygon lp = x ++ p :: y /\ ~ In p x /\
      exists free, Permutation (lp_free lp) (p :: free) /\ Permutation free (q :: lp_free lp') /\
      (first_way (y ++ x) free w q \/ first_way (rev (y ++ x)) free w q)
  end.
Proof.
  unfold nearest_linked. destruct (py_remove p (lp_free lp)) as [free|e] eqn:ER; [|discriminate].
  destruct (py_remove_split _ _ _ ER) as (f1 & f2 & EF & -> & NF). cbn [rbind].
  assert (IP : In p (lp_free lp)) by (rewrite EF; apply in_or_app; right; left; reflexivity).
  destruct (f1 ++ f2) as [|f0 fs] eqn:EFF.
  - intros [= <- <-]. cbn. apply app_eq_nil in EFF. destruct EFF as [-> ->]. rewrite EF. cbn.
    split; [reflexivity|split; [reflexivity|split; [left; reflexivity|split; reflexivity]]].
  - destruct (py_index p (lp_polygon lp)) as [i|e] eqn:EI; [|discriminate]. cbn [rbind].
    assert (EP : exists x y, lp_polygon lp = x ++ p :: y /\ ~ In p x /\ i = length x).
    { unfold py_index in EI. destruct (find_pt p (lp_polygon lp)) as [k|] eqn:EK; [|discriminate]. injection EI as ->.
      destruct (find_pt_split _ _ _ EK) as (x & y & E1 & E2 & E3). eauto. }
    destruct EP as (x & y & EP & NP & ->). rewrite EP. rewrite firstn_here by reflexivity. rewrite skipn_past.
    destruct (search (f0 :: fs) p (y ++ x)) as [d1 s1] eqn:S1. destruct (search (f0 :: fs) p (rev (y ++ x))) as [d2 s2] eqn:S2.
    assert (SI : forall l d s, search (f0 :: fs) p l = (d, s) ->
      forall p0 ps free, s = p0 :: ps -> py_remove (last s p0) (f0 :: fs) = Ok free ->
        exists w q, s = w ++ [q] /\ first_way l (f0 :: fs) w q /\ Permutation (f0 :: fs) (q :: free)).
    { clear. induction l as [|b l IH]; intros d s; cbn [search].
      - intros [= <- <-]. discriminate.
      - destruct (mem_pt b (f0 :: fs)) eqn:M.
        + intros [= <- <-] p0 ps free _ HR. cbn [last] in HR. destruct (py_remove_split _ _ _ HR) as (g1 & g2 & -> & -> & _).
          exists [], b. split; [reflexivity|]. split; [|symmetry; apply Permutation_middle].
          split; [exists l; reflexivity|split; [|intros u []]]. apply in_or_app. right. left. reflexivity.
        + destruct (search (f0 :: fs) p l) as [d' s'] eqn:S. intros [= <- <-] p0 ps free E HR.
          assert (NB : ~ In b (f0 :: fs)) by (intros C; apply mem_pt_iff in C; congruence).
          destruct s' as [|c s'].
          * cbn [last] in HR. destruct (py_remove_split _ _ _ HR) as (g1 & g2 & EG & _ & _). destruct NB. rewrite EG. apply in_or_app. right. left. reflexivity.
          * destruct (IH _ _ eq_refl c s' free eq_refl) as (w & q & E2 & (( r & EL) & F & N) & PP).
            { rewrite <- HR. f_equal. change (last (b :: c :: s') p0) with (last (c :: s') p0). apply last_default. discriminate. }
            exists (b :: w), q. rewrite E2. split; [reflexivity|]. split; [|exact PP].
            split; [exists r; rewrite EL; reflexivity|split; [exact F|]]. intros u [<-|I]; [exact NB|apply N; exact I]. }
    assert (FIN : forall s, (s = s1 \/ s = s2) ->
      match s with [] => Err IndexError | p0 :: _ => do free <- py_remove (last s p0) (f0 :: fs); Ok (Some s, LP (x ++ p :: y) (lp_linked lp) free) end = Ok (r, lp') ->
      lp_polygon lp' = x ++ p :: y /\ lp_linked lp' = lp_linked lp /\ In p (lp_free lp) /\
      match r with None => lp_free lp = [p] /\ lp_free lp' = [] | Some l => exists w q x0 y0, l = w ++ [q] /\ x ++ p :: y = x0 ++ p :: y0 /\ ~ In p x0 /\
      exists free, Permutation (lp_free lp) (p :: free) /\ Permutation free (q :: lp_free lp') /\
      (first_way (y0 ++ x0) free w q \/ first_way (rev (y0 ++ x0)) free w q) end).
    { intros s HS H. destruct s as [|p0 ps] eqn:ES; [discriminate|]. rewrite <- ES in H, HS.
      destruct (py_remove (last s p0) (f0 :: fs)) as [free|e] eqn:HR; [|discriminate]. cbn [rbind] in H. injection H as <- <-.
      cbn [lp_polygon lp_linked lp_free]. split; [reflexivity|split; [reflexivity|split; [exact IP|]]].
      assert (exists w q, s = w ++ [q] /\ (first_way (y ++ x) (f0 :: fs) w q \/ first_way (rev (y ++ x)) (f0 :: fs) w q) /\ Permutation (f0 :: fs) (q :: free)) as (w & q & E & W & PP).
      { destruct HS as [HS|HS].
        - destruct (SI _ _ _ S1 p0 ps free) as (w & q & E & W & PP); [congruence|congruence|]. exists w, q. split; [congruence|split; [left; exact W|exact PP]].
        - destruct (SI _ _ _ S2 p0 ps free) as (w & q & E & W & PP); [congruence|congruence|]. exists w, q. split; [congruence|split; [right; exact W|exact PP]]. }
      exists w, q, x, y. split; [exact E|split; [reflexivity|split; [exact NP|]]]. exists (f0 :: fs). split; [|split; [exact PP|exact W]].
      rewrite EF, <- EFF. symmetry. apply Permutation_middle. }
    destruct (qltb d1 d2); [apply FIN; left; reflexivity|apply FIN; right; reflexivity].
Qed.

Lemma nearest_linked_only lp p : lp_free lp = [p] -> nearest_linked lp p = Ok (None, LP (lp_polygon lp) (lp_linked lp) []).
Proof. intros E. unfold nearest_linked. rewrite E. change [p] with ([] ++ p :: []). rewrite py_remove_app by intros []. reflexivity. Qed.
Lemma nearest_linked_missing lp p : ~ In p (lp_free lp) -> nearest_linked lp p = Err ValueError.
Proof. intros N. unfold nearest_linked, py_remove. apply find_pt_none in N. rewrite N. reflexivity. Qed.
Lemma first_way_exists l free : (exists q, In q l /\ In q free) -> exists w q, first_way l free w q.
Proof.
  intros H. destruct (search_spec free (0, 0) l H) as (w & q & r & _ & E & F & N). exists w, q. split; [exists r; exact E|split; assumption].
Qed.
