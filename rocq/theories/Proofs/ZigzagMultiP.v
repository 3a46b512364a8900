(** * Zig-zag routes over several boundaries, sorting of contours *)
From Verif Require Import Base.Py Model.Strategy Spec.Paths Spec.Zigzag Proofs.GeomP Proofs.FillP Proofs.DrillP Proofs.LinkedP Proofs.ZigzagP.
From Coq Require Import Permutation Lia.
Local Open Scope Qc_scope.
Local Open Scope list_scope.

Lemma remove_scanline_missing s l : ~ In s l -> remove_scanline s l = Err ValueError.
Proof.
  induction l as [|a l IH]; intros N; [reflexivity|]. cbn [remove_scanline]. destruct (path_eqb a s) eqn:E.
  - apply path_eqb_eq in E. destruct N. left. exact E.
  - rewrite IH by (intros C; apply N; right; exact C). reflexivity.
Qed.
Lemma lps_set_here lps k lp (lp' : linked) : nth_error lps k = Some lp -> nth_error (lps_set lps k lp') k = Some lp'.
Proof.
  intros E. destruct (nth_error_split _ _ E) as (l1 & l2 & -> & <-). unfold lps_set. rewrite firstn_here by reflexivity.
  rewrite nth_error_app2, Nat.sub_diag by lia. reflexivity.
Qed.
Lemma lps_set_other lps k j lp (lp' : linked) : nth_error lps k = Some lp -> j <> k -> nth_error (lps_set lps k lp') j = nth_error lps j.
Proof.
  intros E N. destruct (nth_error_split _ _ E) as (l1 & l2 & -> & <-). unfold lps_set. rewrite firstn_here by reflexivity. rewrite skipn_past.
  destruct (Nat.lt_ge_cases j (length l1)) as [L|L]; [rewrite !nth_error_app1 by exact L; reflexivity|].
  rewrite !nth_error_app2 by exact L. destruct (j - length l1)%nat as [|i] eqn:D; [lia|reflexivity].
Qed.

Section Loop.
  Variables (points : list (pt * nat)) (ends : list (pt * path)) (all : list path).
  Hypothesis all_pairs : Forall (fun s : path => exists a b, s = [a; b]) all.
  Hypothesis all_distinct : NoDup (concat all).
  Hypothesis ends_ok : forall s q, In s all -> In q s -> dict_get q ends = Ok s.

  (** The point is free in the polygon it is linked to. *)
  Definition is_free (lps : list linked) (q : pt) : Prop :=
    exists k lp, dict_get q points = Ok k /\ nth_error lps k = Some lp /\ In q (lp_free lp).
  Definition polygons_ok (lps : list linked) : Prop := forall k lp, nth_error lps k = Some lp ->
    NoDup (lp_free lp) /\ forall q, In q (lp_free lp) -> In q (lp_polygon lp) /\ exists s, In s all /\ In q s.

  Lemma loop_multi : forall fuel lps scanlines cut sequence done_, (length scanlines <= fuel)%nat ->
    incl scanlines all -> NoDup (cut :: concat scanlines) -> polygons_ok lps ->
    (forall q, In q (cut :: concat scanlines) -> is_free lps q) ->
    (exists seqs, zig_zag_loop fuel lps points ends scanlines cut sequence done_ = Ok seqs) \/
    zig_zag_loop fuel lps points ends scanlines cut sequence done_ = Err ValueError.
  Proof.
    induction fuel as [|fuel IH]; intros lps scanlines cut sequence done_ L IA ND PO FR.
    - destruct scanlines; [|cbn [length] in L; lia]. left. eexists. reflexivity.
    - destruct scanlines as [|next others]; [left; eexists; reflexivity|].
      cbn [zig_zag_loop]. destruct (FR cut (or_introl eq_refl)) as (k & lp & EK & EN & IF). rewrite EK. cbn [rbind].
      unfold lps_get. rewrite EN. cbn [rbind].
      destruct (PO _ _ EN) as [NF PF].
      destruct (in_split_first _ _ IF) as (f1 & f2 & EF & NF1).
      assert (NF12 : ~ In cut (f1 ++ f2)) by (rewrite EF in NF; apply NoDup_remove_2 in NF; exact NF).
      assert (pn : exists a b, next = [a; b]).
      { rewrite Forall_forall in all_pairs. apply all_pairs. apply IA. left. reflexivity. }
      destruct pn as (na & nb & ENX).
      apply NoDup_cons_iff in ND. destruct ND as [NCUT ND].
      destruct (f1 ++ f2) as [|q0 fs] eqn:EFF.
      + apply app_eq_nil in EFF. destruct EFF as [-> ->]. cbn [app] in EF.
        rewrite (nearest_linked_only _ _ EF). subst next. cbn [rbind unpack2].
        apply IH.
        * cbn [length] in L. lia.
        * intros s I. apply IA. right. exact I.
        * cbn [concat app] in ND. apply NoDup_cons_iff in ND. exact (proj2 ND).
        * intros j lpj EJ. destruct (Nat.eq_dec j k) as [->|NE].
          -- rewrite (lps_set_here _ _ _ _ EN) in EJ. injection EJ as <-. split; [constructor|intros q []].
          -- rewrite (lps_set_other _ _ _ _ _ EN NE) in EJ. exact (PO _ _ EJ).
        * intros q I. assert (I' : In q (concat ([na; nb] :: others))) by (cbn [concat app]; right; exact I).
          destruct (FR q (or_intror I')) as (j & lpj & E1 & E2 & E3). exists j, lpj. split; [exact E1|].
          assert (NE : j <> k).
          { intros ->. rewrite EN in E2. injection E2 as <-. rewrite EF in E3. destruct E3 as [<-|[]]. contradiction. }
          rewrite (lps_set_other _ _ _ _ _ EN NE). auto.
      + assert (I0 : In q0 (lp_free lp)).
        { rewrite EF. assert (In q0 (f1 ++ f2)) as J by (rewrite EFF; left; reflexivity). apply in_app_or in J. apply in_or_app. destruct J; [left|right; right]; assumption. }
        destruct (in_split_first cut (lp_polygon lp) (proj1 (PF _ IF))) as (x & y & EX & NX).
        destruct (nearest_linked_found lp cut x y f1 f2 EX NX EF NF1) as (w & q & g1 & g2 & -> & EG & NG & _).
        { exists q0. split; [|rewrite EFF; left; reflexivity]. destruct (PF _ I0) as [I1 _]. rewrite EX in I1.
          apply in_app_or in I1. apply in_or_app. destruct I1 as [I1|[I1|I1]]; [left; exact I1| |right; exact I1].
          destruct NF12. left. symmetry. exact I1. }
        cbn [rbind]. destruct (w ++ [q]) as [|w0 ws] eqn:EW; [destruct w; discriminate EW|]. cbv zeta.
        assert (EL : last (w0 :: ws) w0 = q) by (rewrite <- EW; apply last_last). rewrite EL. clear EL.
        assert (FREE : forall u, In u (lp_free lp) -> u = cut \/ u = q \/ In u (g1 ++ g2)).
        { intros u I. rewrite EF in I. assert (In u (cut :: f1 ++ f2)) as J by (eapply Permutation_in; [symmetry; apply Permutation_middle|exact I]).
          destruct J as [J|J]; [left; symmetry; exact J|right]. rewrite EG in J.
          assert (In u (q :: g1 ++ g2)) as J2 by (eapply Permutation_in; [symmetry; apply Permutation_middle|exact J]).
          destruct J2 as [J2|J2]; [left; symmetry; exact J2|right; exact J2]. }
        assert (NG2 : NoDup (g1 ++ g2)).
        { rewrite EF in NF. apply NoDup_remove_1 in NF. rewrite EG in NF. apply NoDup_remove_1 in NF. exact NF. }
        assert (INC : forall u, In u (q :: g1 ++ g2) -> In u (lp_free lp)).
        { intros u I. rewrite EF. eapply Permutation_in; [apply Permutation_middle|]. right. rewrite EG. eapply Permutation_in; [apply Permutation_middle|exact I]. }
        destruct (PF q (INC q (or_introl eq_refl))) as (_ & s & IS & IQ).
        rewrite (ends_ok s q IS IQ). cbn [rbind].
        assert (exists a b, s = [a; b]) as (a & b & ->) by (rewrite Forall_forall in all_pairs; apply all_pairs; exact IS).
        assert (exists c, (if pt_eqb a q then Ok b else Ok a) = Ok c /\ Permutation [a; b] [q; c]) as (c & EC & PC).
        { destruct (pt_eqb a q) eqn:EA.
          - apply pt_eqb_iff in EA. subst. exists b. split; reflexivity.
          - exists a. split; [reflexivity|]. destruct IQ as [->|[->|[]]]; [rewrite pt_eqb_refl in EA; discriminate|apply perm_swap]. }
        rewrite EC. cbn [rbind].
        destruct (in_dec (list_eq_dec pt_dec) [a; b] (next :: others)) as [IR|NR].
        2: { right. rewrite remove_scanline_missing by exact NR. reflexivity. }
        destruct (remove_scanline_in [a; b] (next :: others) IR) as (rest & ER). rewrite ER. cbn [rbind].
        destruct (remove_scanline_split _ _ _ ER) as (l1 & l2 & ES & ->).
        assert (PS : Permutation (concat (next :: others)) (q :: c :: concat (l1 ++ l2))).
        { rewrite ES, !concat_app. cbn [concat]. rewrite PC. cbn [app]. rewrite <- Permutation_middle. apply perm_skip. symmetry. apply Permutation_middle. }
        assert (ND2 : NoDup (q :: c :: concat (l1 ++ l2))) by (eapply Permutation_NoDup; [exact PS|exact ND]).
        apply NoDup_cons_iff in ND2. destruct ND2 as [NQ ND2].
        apply IH.
        * apply (f_equal (@length path)) in ES. rewrite app_length in *. cbn [length] in *. lia.
        * intros t I. apply IA. rewrite ES. apply in_app_or in I. apply in_or_app. destruct I; [left|right; right]; assumption.
        * exact ND2.
        * intros j lpj EJ. destruct (Nat.eq_dec j k) as [->|NE].
          -- rewrite (lps_set_here _ _ _ _ EN) in EJ. injection EJ as <-. cbn [lp_free lp_polygon]. split; [exact NG2|].
             intros u I. apply PF. apply INC. right. exact I.
          -- rewrite (lps_set_other _ _ _ _ _ EN NE) in EJ. exact (PO _ _ EJ).
        * intros u I. assert (I' : In u (concat (next :: others))) by (eapply Permutation_in; [symmetry; exact PS|right; exact I]).
          destruct (FR u (or_intror I')) as (j & lpj & E1 & E2 & E3).
          destruct (Nat.eq_dec j k) as [->|NE].
          -- rewrite EN in E2. injection E2 as <-. exists k. eexists. split; [exact E1|]. split; [apply (lps_set_here _ _ _ _ EN)|]. cbn [lp_free].
             destruct (FREE u E3) as [->|[->|J]]; [contradiction|contradiction|exact J].
          -- exists j, lpj. split; [exact E1|]. rewrite (lps_set_other _ _ _ _ _ EN NE). auto.
  Qed.

  Lemma route_multi lps first rest : all = first :: rest ->
    (forall k lp, nth_error lps k = Some lp -> NoDup (lp_linked lp) /\
       forall q, In q (lp_linked lp) -> In q (lp_polygon lp) /\ exists s, In s all /\ In q s) ->
    (forall q, In q (concat all) -> exists k lp, dict_get q points = Ok k /\ nth_error lps k = Some lp /\ In q (lp_linked lp)) ->
    (exists seqs, route_zig_zag lps all points ends = Ok seqs) \/ route_zig_zag lps all points ends = Err ValueError.
  Proof.
    intros EA PO FR. unfold route_zig_zag. rewrite EA.
    assert (exists a b, first = [a; b]) as (a & b & E) by (rewrite EA in all_pairs; inversion all_pairs; assumption).
    rewrite E. cbn [unpack2 rbind].
    assert (exists s c, (if qltb (fst b) (fst a) then (b, a) else (a, b)) = (s, c) /\ Permutation [a; b] [s; c]) as (s & c & -> & PC).
    { destruct (qltb (fst b) (fst a)); eexists; eexists; (split; [reflexivity|]); [apply perm_swap|reflexivity]. }
    assert (PA : Permutation (concat all) (s :: c :: concat rest)) by (rewrite EA, E; cbn [concat]; rewrite PC; reflexivity).
    assert (ND : NoDup (s :: c :: concat rest)) by (eapply Permutation_NoDup; [exact PA|exact all_distinct]).
    destruct (FR s) as (k & lp & EK & EN & IL); [eapply Permutation_in; [symmetry; exact PA|left; reflexivity]|].
    rewrite EK. cbn [rbind]. unfold lps_get.
    assert (EN' : nth_error (map reset lps) k = Some (reset lp)) by (rewrite nth_error_map, EN; reflexivity).
    rewrite EN'. cbn [rbind]. unfold drop. cbn [reset lp_free].
    destruct (in_split_first _ _ IL) as (f1 & f2 & EF & NF). rewrite EF, py_remove_app by exact NF. cbn [rbind lp_polygon lp_linked reset].
    apply NoDup_cons_iff in ND. destruct ND as [NS ND].
    apply loop_multi.
    - lia.
    - rewrite EA. intros t I. right. exact I.
    - exact ND.
    - intros j lpj EJ. destruct (Nat.eq_dec j k) as [->|NE].
      + rewrite (lps_set_here _ _ _ _ EN') in EJ. injection EJ as <-. cbn [lp_free lp_polygon]. destruct (PO _ _ EN) as [N1 N2].
        rewrite EF in N1, N2. split; [exact (NoDup_remove_1 _ _ _ N1)|]. intros q I. apply N2. apply in_app_or in I. apply in_or_app. destruct I; [left|right; right]; assumption.
      + rewrite (lps_set_other _ _ _ _ _ EN' NE) in EJ. rewrite nth_error_map in EJ.
        destruct (nth_error lps j) as [lp0|] eqn:E0; [|discriminate]. injection EJ as <-. exact (PO _ _ E0).
    - intros q I. assert (I' : In q (concat all)) by (eapply Permutation_in; [symmetry; exact PA|right; exact I]).
      destruct (FR q I') as (j & lpj & E1 & E2 & E3). destruct (Nat.eq_dec j k) as [->|NE].
      + rewrite EN in E2. injection E2 as <-. exists k. eexists. split; [exact E1|]. split; [apply (lps_set_here _ _ _ _ EN')|]. cbn [lp_free].
        rewrite EF in E3. apply in_app_or in E3. apply in_or_app. destruct E3 as [E3|[->|E3]]; [left; exact E3|contradiction|right; exact E3].
      + exists j, (reset lpj). split; [exact E1|]. rewrite (lps_set_other _ _ _ _ _ EN' NE), nth_error_map, E2. split; [reflexivity|exact E3].
  Qed.
End Loop.

Lemma Forall3_nth {A B C} (R : A -> B -> C -> Prop) la lb lc : Forall3 R la lb lc ->
  (forall k b, nth_error lb k = Some b -> exists a c, nth_error la k = Some a /\ nth_error lc k = Some c /\ R a b c) /\
  (forall k c, nth_error lc k = Some c -> exists a b, nth_error la k = Some a /\ nth_error lb k = Some b /\ R a b c).
Proof.
  induction 1 as [|a b c la lb lc H F [IH1 IH2]]; [split; intros [|k] ? E; discriminate|].
  split; intros [|k] ? E; cbn [nth_error] in *.
  - injection E as <-. eauto.
  - apply IH1. exact E.
  - injection E as <-. eauto.
  - apply IH2. exact E.
Qed.
Lemma concat_nodup_each {A} (l : list (list A)) k x : NoDup (concat l) -> nth_error l k = Some x -> NoDup x.
Proof.
  revert k. induction l as [|a l IH]; intros [|k] ND E; cbn [nth_error concat] in *; try discriminate.
  - injection E as <-. clear - ND. induction a as [|u a IHa]; [constructor|]. cbn [app] in ND. inversion ND; subst. constructor; [|auto].
    intros C. apply H1. apply in_or_app. left. exact C.
  - eapply IH; [exact (nodup_app_r _ _ ND)|exact E].
Qed.

Lemma zig_zag_multi C d st outer inner ps bounds first rest : let scanlines := (first :: rest : list path) in
  Forall2 (fun b p => boundary_polygon b = Ok p) (outer ++ inner) ps -> Forall proper ps -> d * st <> 0 ->
  zc_bounds C ps = Ok bounds ->
  (let '(x0, y0, x1, y1) := bounds in zc_execute C ps (templates x0 y0 x1 y1 (d * st)) = Ok scanlines) ->
  Forall (fun s : path => exists a b, s = [a; b]) scanlines -> NoDup (concat scanlines) ->
  (forall q, In q (concat scanlines) -> exists p, In p ps /\ near_path link_tolerance q p) ->
  (exists seqs, zig_zag C d st outer inner = Ok seqs) \/ zig_zag C d st outer inner = Err ValueError.
Proof.
  intros scanlines FB PR NZ EC EX F2 ND NR. destruct bounds as [[[x0 y0] x1] y1].
  apply Forall2_app_inv_l in FB. destruct FB as (po & pi & FO & FI & ->).
  apply mapM_ok in FO. apply mapM_ok in FI.
  destruct (end_map_get scanlines F2 ND) as (ends & EE & HE).
  destruct (link_all (concat scanlines) (po ++ pi) ND PR NR) as (lps & m & news & EL & F3 & PN & HM).
  assert (NDN : NoDup (concat news)) by (eapply Permutation_NoDup; eassumption).
  destruct (Forall3_nth _ _ _ _ F3) as [N1 N2].
  unfold zig_zag. rewrite FO, FI. cbn [rbind]. rewrite EC. cbn [rbind].
  destruct (qeqb_spec (d * st) 0) as [Z|_]; [contradiction|]. rewrite EX. cbn [rbind]. rewrite EE. cbn [rbind]. rewrite EL. cbn [rbind].
  apply (route_multi m ends scanlines F2 ND (fun s q => HE q s) lps first rest eq_refl).
  - intros k lp E. destruct (N1 _ _ E) as (b & new & E1 & E2 & LL & _ & _ & LN). rewrite LL. split; [exact (concat_nodup_each _ _ _ NDN E2)|].
    intros q I. split; [apply LN; exact I|]. apply in_concat. eapply Permutation_in; [symmetry; exact PN|]. apply in_concat.
    exists new. split; [eapply nth_error_In; exact E2|exact I].
  - intros q I. assert (I' : In q (concat news)) by (eapply Permutation_in; [exact PN|exact I]).
    apply in_concat in I'. destruct I' as (new & IN & IQ). apply In_nth_error in IN. destruct IN as (k & EK).
    destruct (N2 _ _ EK) as (b & lp & _ & E2 & LL & _). exists k, lp. split; [exact (HM _ _ _ EK IQ)|split; [exact E2|rewrite LL; exact IQ]].
Qed.

(** ** Sorting of contours *)
Lemma last_cons_app {A} (a : A) l d : last ((a :: l) ++ [d]) a = d.
Proof. apply last_last. Qed.

Lemma sort_path_closed target a l : exists q, sort_path target ((a :: l) ++ [a]) = Ok q /\
  restarted ((a :: l) ++ [a]) q /\ starts_nearest target ((a :: l) ++ [a]) q.
Proof.
  unfold sort_path. cbn [app]. change (a :: l ++ [a]) with ((a :: l) ++ [a]). rewrite last_last, pt_eqb_refl, removelast_last.
  destruct (pick_nearest_spec target (a :: l)) as (n & r1 & r2 & -> & E & H1 & H2); [discriminate|]. cbn [rbind].
  rewrite E, py_index_app by (exact (nearest_not_before _ _ _ H1)). cbn [rbind].
  rewrite firstn_here by reflexivity. rewrite skipn_here by reflexivity. cbn [app firstn].
  exists (n :: (r2 ++ r1) ++ [n]). split; [reflexivity|split].
  - split.
    + exists n. eexists. split; [reflexivity|]. destruct (r2 ++ r1); [reflexivity|]. cbn [app]. change (n :: p :: l0 ++ [n]) with ((n :: p :: l0) ++ [n]). rewrite last_last. reflexivity.
    + assert (EH : exists t, r1 ++ [n] = a :: t) by (destruct r1 as [|u r1]; cbn [app] in E; injection E as <- E; eexists; reflexivity).
      destruct EH as (t & EH).
      exists (steps (r1 ++ [n])), (steps (n :: r2 ++ [a])). split.
      * replace ((r1 ++ n :: r2) ++ [a]) with (r1 ++ n :: (r2 ++ [a])) by (rewrite <- app_assoc; reflexivity). apply steps_app.
      * replace (n :: (r2 ++ r1) ++ [n]) with ((n :: r2) ++ a :: t) by (rewrite <- EH; cbn [app]; rewrite <- !app_assoc; reflexivity).
        rewrite steps_app, EH. reflexivity.
  - exists n. eexists. split; [reflexivity|]. split; [apply in_or_app; left; apply in_or_app; right; left; reflexivity|].
    intros b I. apply in_app_or in I. assert (I' : In b (r1 ++ n :: r2)).
    { destruct I as [I|[<-|[]]]; [exact I|]. rewrite <- E. left. reflexivity. }
    apply in_app_or in I'. destruct I' as [I'|[<-|I']]; [apply Qclt_le_weak; apply H1; exact I'|apply Qcle_refl|apply H2; exact I'].
Qed.

Lemma sort_path_open target a l b : a <> b -> exists q, sort_path target ((a :: l) ++ [b]) = Ok q /\
  Permutation q ((a :: l) ++ [b]) /\ starts_nearest target ((a :: l) ++ [b]) q.
Proof.
  intros NAB. unfold sort_path. cbn [app]. change (a :: l ++ [b]) with ((a :: l) ++ [b]). rewrite last_last.
  destruct (pt_eqb a b) eqn:EAB; [apply pt_eqb_iff in EAB; contradiction|].
  destruct (pick_nearest_spec target ((a :: l) ++ [b])) as (n & r1 & r2 & -> & E & H1 & H2); [discriminate|]. cbn [rbind].
  rewrite E, py_index_app by (exact (nearest_not_before _ _ _ H1)). cbn [rbind].
  rewrite firstn_here by reflexivity. rewrite skipn_here by reflexivity.
  exists ((n :: r2) ++ r1). split; [reflexivity|split; [apply Permutation_app_comm|]].
  exists n. eexists. split; [reflexivity|]. split; [apply in_or_app; right; left; reflexivity|].
  intros u I. apply in_app_or in I. destruct I as [I|[<-|I]]; [apply Qclt_le_weak; apply H1; exact I|apply Qcle_refl|apply H2; exact I].
Qed.

Lemma path_ends (p : path) : (2 <= length p)%nat -> exists a l b, p = (a :: l) ++ [b].
Proof.
  destruct p as [|a p]; cbn [length]; [lia|]. intros L. destruct (exists_last (l := p)) as (l & b & ->); [destruct p; [cbn in L; lia|discriminate]|].
  exists a, l, b. reflexivity.
Qed.

(** Every path with at least two points. *)
Lemma sort_path_any target p : (2 <= length p)%nat -> exists q, sort_path target p = Ok q /\ length q = length p /\
  (forall u, In u q <-> In u p) /\ starts_nearest target p q /\ (closed_path p -> restarted p q).
Proof.
  intros L. destruct (path_ends p L) as (a & l & b & ->). destruct (pt_dec a b) as [->|N].
  - destruct (sort_path_closed target b l) as (q & E & R & S). exists q. split; [exact E|].
    destruct R as [CQ (bf & af & S1 & S2)].
    assert (LS : length (steps q) = length (steps ((b :: l) ++ [b]))) by (rewrite S1, S2, !app_length; lia).
    assert (LQ : length q = length ((b :: l) ++ [b])).
    { rewrite !steps_length in LS. destruct S as (n & t & -> & _). cbn [length] in *. rewrite app_length in *. cbn [length] in *. lia. }
    split; [exact LQ|]. split; [|split; [exact S|intros _; split; [exact CQ|exists bf, af; auto]]].
    assert (CL : forall (p : path) u, closed_path p -> (2 <= length p)%nat -> (In u p <-> exists v, In (u, v) (steps p))).
    { clear. intros p u (h & t & -> & EL) L2. split.
      - destruct t as [|c t] using rev_ind; [cbn [length] in L2; lia|]. clear IHt. change (h :: t ++ [c]) with ((h :: t) ++ [c]) in *. rewrite last_last in EL. subst c.
        assert (G : forall (l : path) z, In u l -> exists v, In (u, v) (steps (l ++ [z]))).
        { induction l as [|x l IH]; intros z; [intros []|]. destruct l as [|y l].
          - intros [<-|[]]. exists z. left. reflexivity.
          - intros [<-|I]; [exists y; left; reflexivity|]. destruct (IH z I) as (v & Hv). exists v. right. exact Hv. }
        intros I. apply in_app_or in I. destruct I as [I|[<-|[]]]; [apply G; exact I|apply G; left; reflexivity].
      - intros (v & I). clear - I. revert I. generalize (h :: t). intros l. induction l as [|x l IH]; [intros []|]. destruct l as [|y l]; [intros []|].
        intros [[= <- <-]|I]; [left; reflexivity|right; apply IH; exact I]. }
    intros u. rewrite (CL q u CQ) by lia.
    rewrite (CL ((b :: l) ++ [b]) u); [|exists b; eexists; split; [reflexivity|apply last_last]|exact L].
    rewrite S1, S2. split; intros (v & I); exists v; apply in_app_or in I; apply in_or_app; tauto.
  - destruct (sort_path_open target a l b N) as (q & E & P & S). exists q. split; [exact E|]. split; [apply Permutation_length; exact P|].
    split; [intros u; split; intros I; eapply Permutation_in; try exact I; [exact P|symmetry; exact P]|]. split; [exact S|].
    intros (h & t & EH & EL). exfalso. change ((a :: l) ++ [b]) with (a :: l ++ [b]) in EH. injection EH as <- <-.
    change (a :: l ++ [b]) with ((a :: l) ++ [b]) in EL. rewrite last_last in EL. congruence.
Qed.

Lemma sort_output_spec a p rest : Forall (fun p : path => (2 <= length p)%nat) rest ->
  exists rest', sort_clipper_output ((a :: p) :: rest) = Ok ((a :: p) :: rest') /\
    Forall2 (fun p q : path => length q = length p /\ (forall u, In u q <-> In u p) /\ (closed_path p -> restarted p q)) rest rest' /\
    Forall2 (starts_nearest (last (a :: p) a)) rest rest'.
Proof.
  intros F. cbn [sort_clipper_output].
  assert (exists rest', Forall2 (fun p0 q => sort_path (last (a :: p) a) p0 = Ok q) rest rest' /\
    Forall2 (fun p q : path => length q = length p /\ (forall u, In u q <-> In u p) /\ (closed_path p -> restarted p q)) rest rest' /\
    Forall2 (starts_nearest (last (a :: p) a)) rest rest') as H.
  { revert F. generalize (last (a :: p) a). intros target F. induction F as [|p0 rest L F IH]; [exists []; split; [constructor|split; constructor]|].
    destruct IH as (rest' & A & B & C). destruct (sort_path_any target p0 L) as (q & E & H1 & H2 & H3 & H4).
    exists (q :: rest'). split; [|split]; constructor; auto. }
  destruct H as (rest' & A & B & C). exists rest'. split; [|split; assumption].
  apply mapM_ok in A. rewrite A. reflexivity.
Qed.
