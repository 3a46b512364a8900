(** * Proofs about plane geometry *)
From Verif Require Import Base.Py Model.Geometry Model.Routers Spec.Paths.
Local Open Scope Qc_scope.

Lemma pair_eq {A B} (a c : A) (b d : B) : a = c -> b = d -> (a, b) = (c, d).
Proof. congruence. Qed.

Lemma dist2_sqd v w : dist2 v w = sqd v w.
Proof. unfold dist2, sqd. ring. Qed.
Lemma sls_sqd v w : segment_length_squared v w = sqd v w.
Proof. reflexivity. Qed.
Lemma Qsq_nn (x : Q) : (0 <= x * x)%Q.
Proof. nra. Qed.
Lemma sqd_nn v w : 0 <= sqd v w.
Proof.
  unfold sqd. qc2q. pose proof (Qsq_nn (this (fst w) - this (fst v))).
  pose proof (Qsq_nn (this (snd w) - this (snd v))). lra.
Qed.
Lemma sqd_sym v w : sqd v w = sqd w v.
Proof. unfold sqd. ring. Qed.
Lemma Qsq0 (x y : Q) : (x * x + y * y == 0 -> x == 0 /\ y == 0)%Q.
Proof.
  intros H. assert (H1 : (x * x == 0)%Q) by nra. assert (H2 : (y * y == 0)%Q) by nra.
  split; [destruct (Qmult_integral _ _ H1)|destruct (Qmult_integral _ _ H2)]; assumption.
Qed.
Lemma sqd_0 v w : sqd v w = 0 <-> v = w.
Proof.
  split.
  - unfold sqd. destruct v as [a b], w as [c d]; simpl. intros H.
    qc2q. destruct (Qsq0 _ _ H) as [H1 H2].
    apply pair_eq; apply qc_eq_iff; lra.
  - intros ->. unfold sqd. ring.
Qed.

Lemma on_segment_intro t a b c :
  0 <= t -> t <= 1 -> c = (fst a + t * (fst b - fst a), snd a + t * (snd b - snd a)) -> on_segment c a b.
Proof. intros H1 H2 ->. exists t. split; [exact H1|split; [exact H2|]]. apply pair_eq; ring. Qed.
Lemma on_segment_start a b : on_segment a a b.
Proof. exists 0. split; [qlra|split; [qlra|]]. destruct a; simpl; apply pair_eq; ring. Qed.
Lemma on_segment_end a b : on_segment b a b.
Proof. exists 1. split; [qlra|split; [qlra|]]. destruct b; simpl; apply pair_eq; ring. Qed.

Lemma clamp_spec (t : Qc) :
  let c := qmax 0 (qmin 1 t) in
  0 <= c /\ c <= 1 /\ ((c = t /\ 0 <= t /\ t <= 1) \/ (c = 0 /\ t < 0) \/ (c = 1 /\ 1 < t)).
Proof.
  cbv zeta. destruct (qmin_spec 1 t) as [[-> H]|[-> H]];
    [destruct (qmax_spec 0 1) as [[-> H2]|[-> H2]] | destruct (qmax_spec 0 t) as [[-> H2]|[-> H2]]].
  - exfalso; qlra.
  - split; [qlra|split; [qlra|]]. destruct (qeqb_spec t 1) as [E|E].
    + left. subst. split; [reflexivity|split; qlra].
    + right; right. split; [reflexivity|]. apply Qcnot_le_lt. intro C. apply E. apply Qcle_antisym; assumption.
  - split; [qlra|split; [qlra|]]. destruct (qeqb_spec t 0) as [E|E].
    + left. subst. split; [reflexivity|split; qlra].
    + right; left. split; [reflexivity|]. apply Qcnot_le_lt. intro C. apply E. apply Qcle_antisym; assumption.
  - split; [qlra|split; [qlra|]]. left. split; [reflexivity|split; qlra].
Qed.

(** The quadratic minimised: f s = l s^2 - 2 b s, minimal over [0,1] at the clamp of b / l. *)
Lemma quad_min (l b s c : Q) : (0 < l)%Q -> (0 <= s <= 1)%Q ->
  (c * l == b \/ (c == 0 /\ b <= 0) \/ (c == 1 /\ l <= b))%Q ->
  (l * c * c - 2 * b * c <= l * s * s - 2 * b * s)%Q.
Proof.
  intros Hl [Hs1 Hs2] H.
  assert (Hq : (0 <= l * ((s - c) * (s - c)))%Q) by (apply Qmult_le_0_compat; [lra|apply Qsq_nn]).
  destruct H as [H|[[H1 H2]|[H1 H2]]].
  - assert (E : (l * s * s - 2 * b * s - (l * c * c - 2 * b * c) == l * ((s - c) * (s - c)))%Q).
    { rewrite <- H. ring. }
    lra.
  - pose proof (Qsq_nn s) as Hs.
    assert (A1 : (0 <= - b * s)%Q) by (apply Qmult_le_0_compat; lra).
    assert (A2 : (0 <= l * (s * s))%Q) by (apply Qmult_le_0_compat; lra).
    rewrite H1. lra.
  - pose proof (Qsq_nn (1 - s)) as Hs.
    assert (A1 : (0 <= (b - l) * (1 - s))%Q) by (apply Qmult_le_0_compat; lra).
    assert (A2 : (0 <= l * ((1 - s) * (1 - s)))%Q) by (apply Qmult_le_0_compat; lra).
    rewrite H1. lra.
Qed.

Lemma dist_to_segment_ok p v w : v <> w -> exists d c, dist_to_segment_squared p v w = Ok (d, c).
Proof.
  intros H. unfold dist_to_segment_squared. destruct (qeqb_spec (dist2 v w) 0) as [E|E].
  - exfalso. apply H. apply sqd_0. rewrite <- dist2_sqd. exact E.
  - eexists _, _. reflexivity.
Qed.
Lemma dist_to_segment_err p v w e :
  dist_to_segment_squared p v w = Err e <-> v = w /\ e = ZeroDivisionError.
Proof.
  unfold dist_to_segment_squared. destruct (qeqb_spec (dist2 v w) 0) as [E|E].
  - rewrite dist2_sqd in E. apply sqd_0 in E. split; [intros [= <-]; auto|intros [_ ->]; reflexivity].
  - split; [discriminate|]. intros [-> _]. exfalso. apply E. unfold dist2. ring.
Qed.

Lemma dist_to_segment_spec p v w d c :
  dist_to_segment_squared p v w = Ok (d, c) ->
  on_segment c v w /\ d = sqd p c /\ forall q, on_segment q v w -> d <= sqd p q.
Proof.
  unfold dist_to_segment_squared. destruct (qeqb_spec (dist2 v w) 0) as [E|E]; [discriminate|].
  set (l2 := dist2 v w) in *.
  set (b := (fst p - fst v) * (fst w - fst v) + (snd p - snd v) * (snd w - snd v)).
  pose proof (clamp_spec (b / l2)) as HC. cbv zeta in HC. set (t := qmax 0 (qmin 1 (b / l2))) in *.
  destruct HC as (T0 & T1 & HT). intros [= <- <-].
  assert (Hl : (0 < this l2)%Q).
  { assert (0 <= l2) by (unfold l2; rewrite dist2_sqd; apply sqd_nn).
    apply Qnot_le_lt. intro C. apply E. apply Qcle_antisym; [exact C|exact H]. }
  split; [|split].
  - eapply (on_segment_intro t); [exact T0|exact T1|reflexivity].
  - apply dist2_sqd.
  - intros q (s & S0 & S1 & ->).
    assert (Hbl : (this (b / l2) * this l2 == this b)%Q).
    { rewrite this_div. field. lra. }
    assert (Hc : (this t * this l2 == this b \/ (this t == 0 /\ this b <= 0) \/ (this t == 1 /\ this l2 <= this b))%Q).
    { destruct HT as [(-> & _)|[(-> & H)|(-> & H)]].
      - left. exact Hbl.
      - right; left. split; [reflexivity|]. unfold Qclt in H. rewrite this_0 in H. nra.
      - right; right. split; [reflexivity|]. unfold Qclt in H. rewrite this_1 in H. nra. }
    assert (Hs : (0 <= this s <= 1)%Q) by (unfold Qcle in *; rewrite this_0, this_1 in *; split; lra).
    pose proof (quad_min _ _ _ _ Hl Hs Hc) as HQ.
    unfold l2, b, dist2 in HQ. unfold dist2, sqd. cbn [fst snd].
    clear - HQ. qc2q.
    match type of HQ with (?A <= ?B)%Q =>
      match goal with |- (?C <= ?D)%Q =>
        cut (D - C == B - A)%Q; [lra|ring] end end.
Qed.

Lemma qdiv_mul x y : y <> 0 -> x / y * y = x.
Proof. intros H. field. exact H. Qed.

(** ** distance_to_path *)
Definition best_ok (p : pt) (pre : list (pt * pt)) (best : option (Qc * pt * (nat * Qc))) : Prop :=
  match best with
  | None => pre = []
  | Some (d, c, (i, r)) =>
      exists a b, nth_error pre i = Some (a, b) /\ on_segment c a b /\ d = sqd p c /\
        r * sqd a b = sqd a c /\
        (forall a' b' q, In (a', b') pre -> on_segment q a' b' -> d <= sqd p q) /\
        (forall k a' b' q, (k < i)%nat -> nth_error pre k = Some (a', b') -> on_segment q a' b' -> d < sqd p q)
  end.

Lemma distance_to_path_from_spec p l : forall pre best r,
  best_ok p pre best -> distance_to_path_from (length pre) p l best = Ok r -> best_ok p (pre ++ steps l) r.
Proof.
  induction l as [|a [|b l] IH]; intros pre best r HB HR.
  - simpl in HR. ok_inv. simpl. rewrite app_nil_r. exact HB.
  - simpl in HR. ok_inv. simpl. rewrite app_nil_r. exact HB.
  - change (distance_to_path_from (length pre) p (a :: b :: l) best) with
      (rbind (dist_to_segment_squared p a b) (fun '(sd, sc) =>
        distance_to_path_from (S (length pre)) p (b :: l)
          (if (match best with None => true | Some (d, _, _) => qltb sd d end)
           then Some (sd, sc, (length pre, segment_length_squared a sc / segment_length_squared a b))
           else best))) in HR.
    apply rbind_ok in HR. destruct HR as ([sd sc] & HD & HR).
    destruct (dist_to_segment_spec _ _ _ _ _ HD) as (HO & Hsd & HM).
    assert (Hab : a <> b).
    { intros ->. assert (dist_to_segment_squared p b b = Err ZeroDivisionError) by (apply dist_to_segment_err; auto). congruence. }
    change (steps (a :: b :: l)) with ((a, b) :: steps (b :: l)).
    replace (pre ++ (a, b) :: steps (b :: l))%list with ((pre ++ [(a, b)]) ++ steps (b :: l))%list by (rewrite <- app_assoc; reflexivity).
    eapply IH; [|replace (length (pre ++ [(a, b)])) with (S (length pre)) by (rewrite app_length; simpl; lia); exact HR].
    clear IH HR.
    assert (HR : segment_length_squared a sc / segment_length_squared a b * sqd a b = sqd a sc).
    { rewrite !sls_sqd. apply qdiv_mul. rewrite sqd_0. exact Hab. }
    assert (NL : nth_error (pre ++ [(a, b)]) (length pre) = Some (a, b)).
    { rewrite nth_error_app2 by lia. rewrite Nat.sub_diag. reflexivity. }
    destruct best as [[[d c] [i ra]]|].
    + destruct HB as (a0 & b0 & H1 & H2 & H3 & H4 & H5 & H6).
      destruct (qltb_spec sd d) as [L|L].
      * exists a, b. split; [exact NL|]. split; [exact HO|]. split; [exact Hsd|]. split; [exact HR|]. split.
        -- intros a' b' q Hin Hq. apply in_app_or in Hin. destruct Hin as [Hin|[[= <- <-]|[]]].
           ++ apply Qclt_le_weak. eapply Qclt_le_trans; [exact L|]. eapply H5; eassumption.
           ++ apply HM, Hq.
        -- intros k a' b' q Hk Hn Hq. rewrite nth_error_app1 in Hn by exact Hk.
           eapply Qclt_le_trans; [exact L|]. eapply H5; [|exact Hq]. eapply nth_error_In; exact Hn.
      * exists a0, b0. split.
        { rewrite nth_error_app1; [exact H1|]. apply nth_error_Some. congruence. }
        split; [exact H2|]. split; [exact H3|]. split; [exact H4|]. split.
        -- intros a' b' q Hin Hq. apply in_app_or in Hin. destruct Hin as [Hin|[[= <- <-]|[]]].
           ++ eapply H5; eassumption.
           ++ eapply Qcle_trans; [|apply HM, Hq]. apply Qcnot_lt_le. exact L.
        -- intros k a' b' q Hk Hn Hq. eapply H6; [exact Hk| |exact Hq].
           rewrite nth_error_app1 in Hn; [exact Hn|].
           assert (i < length pre)%nat by (apply nth_error_Some; congruence). lia.
    + simpl in HB. subst pre. exists a, b. split; [exact NL|]. split; [exact HO|]. split; [exact Hsd|].
      split; [exact HR|]. split.
      * intros a' b' q [[= <- <-]|[]] Hq. apply HM, Hq.
      * intros k a' b' q Hk. simpl in Hk. lia.
Qed.

Lemma distance_to_path_spec p l d c i r :
  distance_to_path p l = Ok (Some (d, c, (i, r))) ->
  exists a b, nth_error (steps l) i = Some (a, b) /\ on_segment c a b /\ d = sqd p c /\
    r * sqd a b = sqd a c /\
    (forall q, on_path q l -> d <= sqd p q) /\
    (forall k a' b' q, (k < i)%nat -> nth_error (steps l) k = Some (a', b') -> on_segment q a' b' -> d < sqd p q).
Proof.
  intros H. pose proof (distance_to_path_from_spec p l [] None _ eq_refl H) as (a & b & H1 & H2 & H3 & H4 & H5 & H6).
  exists a, b. split; [exact H1|]. split; [exact H2|]. split; [exact H3|]. split; [exact H4|]. split; [|exact H6].
  intros q (a' & b' & Hin & Hq). eapply H5; eassumption.
Qed.

Lemma distance_to_path_total_from p l : forall i best, proper l -> exists r, distance_to_path_from i p l best = Ok r.
Proof.
  induction l as [|a [|b l] IH]; intros i best HP; [eexists; reflexivity..|].
  destruct (dist_to_segment_ok p a b) as (d & c & E); [apply HP; left; reflexivity|].
  change (distance_to_path_from i p (a :: b :: l) best) with
      (rbind (dist_to_segment_squared p a b) (fun '(sd, sc) =>
        distance_to_path_from (S i) p (b :: l)
          (if (match best with None => true | Some (d, _, _) => qltb sd d end)
           then Some (sd, sc, (i, segment_length_squared a sc / segment_length_squared a b))
           else best))).
  rewrite E. cbn [rbind]. apply IH. intros x y Hin. apply HP. right. exact Hin.
Qed.

Lemma distance_to_path_total p l : proper l ->
  (steps l = [] -> distance_to_path p l = Ok None) /\
  (steps l <> [] -> exists d c i r, distance_to_path p l = Ok (Some (d, c, (i, r)))).
Proof.
  intros HP. destruct (distance_to_path_total_from p l 0 None HP) as (r & H).
  pose proof (distance_to_path_from_spec p l [] None _ eq_refl H) as HB. simpl in HB.
  unfold distance_to_path. destruct r as [[[d c] [i r]]|].
  - split; [|eauto 10]. intros E. rewrite E in HB. destruct HB as (a & b & HN & _). destruct i; discriminate.
  - split; [auto|]. intros C. simpl in HB. contradiction.
Qed.

Lemma distance_to_path_err p l e : distance_to_path p l = Err e -> e = ZeroDivisionError /\ ~ proper l.
Proof.
  unfold distance_to_path. generalize 0%nat (@None (Qc * pt * (nat * Qc))).
  induction l as [|a [|b l] IH]; intros i best H; [discriminate..|].
  change (distance_to_path_from i p (a :: b :: l) best) with
      (rbind (dist_to_segment_squared p a b) (fun '(sd, sc) =>
        distance_to_path_from (S i) p (b :: l)
          (if (match best with None => true | Some (d, _, _) => qltb sd d end)
           then Some (sd, sc, (i, segment_length_squared a sc / segment_length_squared a b))
           else best))) in H.
  destruct (dist_to_segment_squared p a b) as [[d c]|e'] eqn:E.
  - cbn [rbind] in H. apply IH in H. destruct H as [-> H]. split; [reflexivity|].
    intros HP. apply H. intros x y Hin. apply HP. right. exact Hin.
  - cbn [rbind] in H. injection H as <-. apply dist_to_segment_err in E. destruct E as [-> ->].
    split; [reflexivity|]. intros HP. apply (HP b b); [left; reflexivity|reflexivity].
Qed.

(** ** Rotating a closed polygon *)
Lemma steps_app l a m : steps (l ++ a :: m) = (steps (l ++ [a]) ++ steps (a :: m))%list.
Proof.
  induction l as [|x [|y l] IH].
  - reflexivity.
  - reflexivity.
  - cbn [app]. change (steps (x :: y :: (l ++ a :: m))) with ((x, y) :: steps (y :: l ++ a :: m)).
    change (steps (x :: y :: (l ++ [a]))) with ((x, y) :: steps (y :: l ++ [a])).
    cbn [app]. f_equal. exact IH.
Qed.
Lemma steps_length l : length (steps l) = (length l - 1)%nat.
Proof.
  induction l as [|x [|y l] IH]; [reflexivity..|].
  change (steps (x :: y :: l)) with ((x, y) :: steps (y :: l)). simpl in *. rewrite IH. lia.
Qed.

Lemma closed_form p : closed_path p -> (2 <= length p)%nat -> exists a l, p = (a :: l) ++ [a].
Proof.
  intros (a & l & -> & HL) H2. destruct (exists_last (l := l)) as (l' & x & ->).
  - intros ->. simpl in H2. lia.
  - exists a, l'. change (a :: l' ++ [x]) with ((a :: l') ++ [x]). rewrite app_comm_cons in HL. rewrite last_last in HL. subst. reflexivity.
Qed.
Lemma split_at {A} (l : list A) i : (i < length l)%nat -> exists x, skipn i l = x :: skipn (S i) l /\ firstn (S i) l = firstn i l ++ [x] /\ nth_error l i = Some x.
Proof.
  revert i. induction l as [|y l IH]; intros [|i] H; simpl in H; try lia.
  - exists y. auto.
  - destruct (IH i) as (x & H1 & H2 & H3); [lia|]. exists x. split; [exact H1|]. split; [|exact H3].
    change (firstn (S (S i)) (y :: l)) with (y :: firstn (S i) l). rewrite H2. reflexivity.
Qed.

Lemma shift_polygon_form a l i : (i < length (a :: l))%nat ->
  exists x, nth_error (a :: l) i = Some x /\
    shift_polygon ((a :: l) ++ [a]) i = (x :: skipn (S i) (a :: l)) ++ firstn i (a :: l) ++ [x].
Proof.
  intros Hi. unfold shift_polygon. rewrite removelast_last.
  destruct (split_at (a :: l) i Hi) as (x & H1 & H2 & H3). exists x. split; [exact H3|].
  rewrite H1, H2. reflexivity.
Qed.

Lemma skipn_steps l i : (i < length l)%nat -> steps (skipn i l) = skipn i (steps l).
Proof.
  revert l. induction i as [|i IH]; intros l H; [reflexivity|].
  destruct l as [|x [|y l]]; [simpl in H; lia..|].
  change (steps (x :: y :: l)) with ((x, y) :: steps (y :: l)). cbn [skipn]. apply IH. simpl in *; lia.
Qed.
Lemma firstn_steps l i : (i < length l)%nat -> steps (firstn (S i) l) = firstn i (steps l).
Proof.
  revert l. induction i as [|i IH]; intros l H; destruct l as [|x [|y l]]; try reflexivity; try (simpl in H; lia).
  change (steps (x :: y :: l)) with ((x, y) :: steps (y :: l)).
  change (firstn (S (S i)) (x :: y :: l)) with (x :: y :: firstn i l).
  change (steps (x :: y :: firstn i l)) with ((x, y) :: steps (firstn (S i) (y :: l))).
  rewrite IH by (simpl in *; lia). reflexivity.
Qed.

(** The rotated polygon: starts at vertex i, is closed, and has the same edges, rotated. *)
Lemma shift_polygon_spec p i : closed_path p -> (S i < length p)%nat ->
  hd_error (shift_polygon p i) = nth_error p i /\ closed_path (shift_polygon p i) /\
  steps (shift_polygon p i) = skipn i (steps p) ++ firstn i (steps p) /\
  length (shift_polygon p i) = length p.
Proof.
  intros HC Hi. destruct (closed_form p HC) as (a & l & ->); [lia|].
  rewrite app_length in Hi. simpl in Hi.
  assert (Hi' : (i < length (a :: l))%nat) by (simpl; lia).
  destruct (shift_polygon_form a l i Hi') as (x & HN & HS). rewrite HS.
  split; [|split; [|split]].
  - rewrite nth_error_app1 by exact Hi'. rewrite HN. reflexivity.
  - exists x, (skipn (S i) (a :: l) ++ firstn i (a :: l) ++ [x]). split; [reflexivity|].
    rewrite app_assoc, last_last. reflexivity.
  - destruct (split_at (a :: l) i Hi') as (x' & H1 & H2 & H3). assert (x' = x) by congruence. subst x'.
    rewrite <- skipn_steps by (rewrite app_length; simpl; lia).
    rewrite <- firstn_steps by (rewrite app_length; simpl; lia).
    rewrite skipn_app. replace (i - length (a :: l))%nat with 0%nat by lia.
    rewrite firstn_app. replace (S i - length (a :: l))%nat with 0%nat by lia. cbn [firstn skipn].
    rewrite app_nil_r. change (firstn (S i) (a :: l)) with (a :: firstn i l) in *.
    rewrite H1.
    change (skipn 0 [a]) with [a].
    destruct i as [|i].
    + simpl in H1. injection H1 as <-. cbn [firstn]. rewrite app_nil_r. reflexivity.
    + change (firstn (S i) (a :: l)) with (a :: firstn i l).
      change (a :: firstn (S i) l) with (firstn (S (S i)) (a :: l)) in *. rewrite H2.
      change (firstn (S i) (a :: l)) with (a :: firstn i l).
      exact (steps_app (x :: skipn (S (S i)) (a :: l)) a (firstn i l ++ [x])).
  - rewrite !app_length. cbn [length]. rewrite skipn_length, firstn_length. cbn [length] in *. lia.
Qed.

(** ** Offsets *)
Lemma offset_some r m d def :
  calculate_offset (Some r) (Some (OMul m)) def = Ok (r * m) /\
  calculate_offset (Some r) (Some (OPair m d)) def = Ok (r * m + d).
Proof. split; reflexivity. Qed.
Lemma offset_default r o :
  calculate_offset (Some r) None (Some o) = calculate_offset (Some r) (Some o) None /\
  calculate_offset (Some r) None None = Ok 0.
Proof.
  split; [|unfold calculate_offset; f_equal; ring].
  destruct o as [m|m d]; [|reflexivity]. unfold calculate_offset. destruct (qeqb_spec m 0) as [->|]; reflexivity.
Qed.
Lemma offset_no_radius o def : calculate_offset None o def = Err TypeError.
Proof. reflexivity. Qed.

(** close_path *)
Lemma close_path_spec p q : close_path p = Ok q ->
  closed_path q /\ (q = p \/ exists a l, p = a :: l /\ last p a <> a /\ q = p ++ [a]).
Proof.
  unfold close_path. destruct p as [|a l]; [discriminate|]. destruct (pt_eqb a (last (a :: l) a)) eqn:E; intros [= <-].
  - split; [|auto]. exists a, l. split; [reflexivity|]. unfold pt_eqb in E. apply andb_prop in E. destruct E as [E1 E2].
    qc_reflect. rewrite (surjective_pairing (last (a :: l) a)), <- E1, <- E2. symmetry. apply surjective_pairing.
  - split.
    + exists a, (l ++ [a]). split; [reflexivity|]. rewrite app_comm_cons, last_last. reflexivity.
    + right. exists a, l. split; [reflexivity|]. split; [|reflexivity]. intros C. rewrite C in E.
      unfold pt_eqb in E. rewrite !qeqb_refl in E. discriminate.
Qed.
Lemma close_path_total p : p <> [] -> exists q, close_path p = Ok q.
Proof. destruct p as [|a l]; [congruence|]. intros _. unfold close_path. destruct (negb _); eauto. Qed.
