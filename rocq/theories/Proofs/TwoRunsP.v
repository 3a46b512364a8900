(** * Zig-zag routes over several boundaries: at most two sequences (C51) *)
From Verif Require Import Base.Py Model.Strategy Spec.Paths Spec.Zigzag Proofs.GeomP Proofs.FillP Proofs.DrillP Proofs.LinkedP Proofs.ZigzagP
  Proofs.ZigzagMultiP Proofs.ZigzagThmP Proofs.ZigzagEx Proofs.RouteEx.
From Coq Require Import Permutation Lia.
Local Open Scope Qc_scope.
Local Open Scope list_scope.

Section Runs.
  Variables (points : list (pt * nat)) (ends : list (pt * path)).
  Hypothesis ends_ok : forall q s, dict_get q ends = Ok s -> In q s /\ exists a b, s = [a; b].

  Definition owned (lps : list linked) : Prop :=
    forall k lp q, nth_error lps k = Some lp -> In q (lp_free lp) -> dict_get q points = Ok k.
  Definition on_one (scanlines : list path) : Prop :=
    forall s a b, In s scanlines -> In a s -> In b s -> dict_get a points = dict_get b points.

  Lemma owned_set lps k lp lp' : owned lps -> nth_error lps k = Some lp -> incl (lp_free lp') (lp_free lp) -> owned (lps_set lps k lp').
  Proof.
    intros OW EN IN j lpj q EJ HQ. destruct (Nat.eq_dec j k) as [->|NE].
    - rewrite (lps_set_here _ _ _ _ EN) in EJ. injection EJ as <-. exact (OW _ _ _ EN (IN _ HQ)).
    - rewrite (lps_set_other _ _ _ _ _ EN NE) in EJ. exact (OW _ _ _ EJ HQ).
  Qed.
  Lemma free_set lps k lp lp' u : nth_error lps k = Some lp -> (In u (lp_free lp) -> In u (lp_free lp')) ->
    is_free points lps u -> is_free points (lps_set lps k lp') u.
  Proof.
    intros EN HI (j & lpj & E1 & E2 & E3). destruct (Nat.eq_dec j k) as [->|NE].
    - exists k, lp'. split; [exact E1|split; [apply (lps_set_here _ _ _ _ EN)|]]. apply HI. rewrite EN in E2. injection E2 as <-. exact E3.
    - exists j, lpj. rewrite (lps_set_other _ _ _ _ _ EN NE). auto.
  Qed.

  (** One round of the loop that takes a walk. *)
  Lemma walk_round (k : nat) lps lp lp' (cut w0 : pt) w (s : path) (scanlines rest : list path) c :
    owned lps -> nth_error lps k = Some lp ->
    nearest_linked lp cut = Ok (Some (w0 :: w), lp') -> dict_get (last (w0 :: w) w0) ends = Ok s ->
    match s with
    | [] => Err IndexError
    | a :: rest => if pt_eqb a (last (w0 :: w) w0) then match rest with [] => Err IndexError | b :: _ => Ok b end else Ok a
    end = Ok c ->
    remove_scanline s scanlines = Ok rest -> on_one scanlines ->
    exists q l1 l2, scanlines = l1 ++ s :: l2 /\ rest = l1 ++ l2 /\ Permutation s [q; c] /\ In s scanlines /\
      dict_get q points = Ok k /\ dict_get c points = Ok k /\ incl (lp_free lp') (lp_free lp) /\
      (forall u, In u (lp_free lp) -> u <> cut -> u <> q -> In u (lp_free lp')).
  Proof.
    intros OW EN HN HE HC HR ON. destruct (nearest_walk _ _ _ _ HN) as (_ & _ & w' & q & free & EW & P1 & P2 & _).
    assert (EL : last (w0 :: w) w0 = q) by (rewrite EW; apply last_last). rewrite EL in HE, HC.
    destruct (ends_ok _ _ HE) as (IQ & a & b & ->). destruct (remove_scanline_split _ _ _ HR) as (l1 & l2 & ES & ER).
    assert (PC : Permutation [a; b] [q; c]).
    { destruct (pt_eqb a q) eqn:EA.
      - apply pt_eqb_iff in EA. injection HC as <-. rewrite EA. reflexivity.
      - injection HC as <-. destruct IQ as [->|[->|[]]]; [rewrite pt_eqb_refl in EA; discriminate|apply perm_swap]. }
    assert (IS : In [a; b] scanlines) by (rewrite ES; apply in_or_app; right; left; reflexivity).
    assert (QF : In q (lp_free lp)).
    { eapply Permutation_in; [symmetry; exact P1|]. right. eapply Permutation_in; [symmetry; exact P2|]. left. reflexivity. }
    pose proof (OW _ _ _ EN QF) as KQ. exists q, l1, l2. split; [exact ES|split; [exact ER|split; [exact PC|split; [exact IS|split; [exact KQ|]]]]].
    split; [|split].
    - rewrite <- KQ. apply (ON [a; b]); [exact IS| |exact IQ]. eapply Permutation_in; [symmetry; exact PC|]. right; left; reflexivity.
    - intros u Hu. eapply Permutation_in; [symmetry; exact P1|]. right. eapply Permutation_in; [symmetry; exact P2|]. right. exact Hu.
    - intros u Hu N1 N2. assert (H1 : In u (cut :: free)) by (eapply Permutation_in; [exact P1|exact Hu]).
      destruct H1 as [H1|H1]; [congruence|]. assert (H2 : In u (q :: lp_free lp')) by (eapply Permutation_in; [exact P2|exact H1]).
      destruct H2 as [H2|H2]; [congruence|exact H2].
  Qed.
  Lemma on_one_rest s l1 l2 : on_one (l1 ++ s :: l2) -> on_one (l1 ++ l2).
  Proof. intros H t a b HT. apply H. apply in_app_or in HT. apply in_or_app. destruct HT; [left|right; right]; assumption. Qed.

  (** A later sequence: its start is still free, so it never comes to an end before the scanlines do. *)
  Lemma later_run : forall fuel lps scanlines start cut sequence done_ seqs,
    zig_zag_loop fuel lps points ends scanlines cut sequence done_ = Ok seqs ->
    owned lps -> on_one scanlines -> dict_get start points = dict_get cut points -> is_free points lps start -> start <> cut ->
    ~ In start (concat scanlines) ->
    (exists last_, seqs = done_ ++ [last_]) /\
    forall q, In q (concat scanlines) -> dict_get q points = dict_get cut points.
  Proof.
    induction fuel as [|fuel IH]; intros lps scanlines start cut sequence done_ seqs H OW ON SK FS NC NS;
      (destruct scanlines as [|next others]; [injection H as <-; split; [eexists; reflexivity|intros q []]|]); [discriminate H|].
    cbn [zig_zag_loop] in H. apply rbind_ok in H as (k & EK & H). apply rbind_ok in H as (lp & EN & H).
    apply rbind_ok in H as ((walk & lp') & HN & H). unfold lps_get in EN. destruct (nth_error lps k) as [lp0|] eqn:EN0; [|discriminate]. injection EN as ->.
    assert (SF : In start (lp_free lp)).
    { destruct FS as (j & lpj & E1 & E2 & E3). rewrite SK, EK in E1. injection E1 as <-. rewrite EN0 in E2. injection E2 as <-. exact E3. }
    destruct walk as [[|w0 w]|]; [discriminate H| |].
    2: { exfalso. destruct (nearest_walk _ _ _ _ HN) as (_ & _ & EF & _). rewrite EF in SF. destruct SF as [SF|[]]. congruence. }
    cbv zeta in H. apply rbind_ok in H as (s & HE & H). apply rbind_ok in H as (c & HC & H). apply rbind_ok in H as (rest & HR & H).
    destruct (walk_round k lps lp lp' cut w0 w s (next :: others) rest c OW EN0 HN HE HC HR ON) as (q & l1 & l2 & ES & ER & PC & IS & KQ & KC & IN & KEEP).
    rewrite ES in NS. rewrite concat_app in NS. cbn [concat] in NS.
    assert (NQ : start <> q).
    { intros ->. apply NS. apply in_or_app. right. apply in_or_app. left. eapply Permutation_in; [symmetry; exact PC|left; reflexivity]. }
    assert (NCC : start <> c).
    { intros ->. apply NS. apply in_or_app. right. apply in_or_app. left. eapply Permutation_in; [symmetry; exact PC|right; left; reflexivity]. }
    destruct (IH _ _ start _ _ _ _ H) as (HL & HA).
    - apply (owned_set _ _ _ _ OW EN0 IN).
    - rewrite ER. rewrite ES in ON. exact (on_one_rest _ _ _ ON).
    - rewrite SK, EK, KC. reflexivity.
    - apply (free_set _ _ _ _ _ EN0); [|exact FS]. intros HS. apply KEEP; assumption.
    - exact NCC.
    - intros HS. apply NS. rewrite ER, concat_app in HS. apply in_app_or in HS. apply in_or_app. destruct HS as [HS|HS]; [left; exact HS|right; apply in_or_app; right; exact HS].
    - split; [exact HL|]. intros u Hu. rewrite EK, <- KC. rewrite ES, concat_app in Hu. cbn [concat] in Hu.
      apply in_app_or in Hu. destruct Hu as [Hu|Hu]; [|apply in_app_or in Hu; destruct Hu as [Hu|Hu]].
      + apply HA. rewrite ER, concat_app. apply in_or_app. left. exact Hu.
      + apply (ON s); [exact IS|exact Hu|]. eapply Permutation_in; [symmetry; exact PC|right; left; reflexivity].
      + apply HA. rewrite ER, concat_app. apply in_or_app. right. exact Hu.
  Qed.

  Lemma first_run : forall fuel lps scanlines cut sequence done_ seqs,
    zig_zag_loop fuel lps points ends scanlines cut sequence done_ = Ok seqs ->
    owned lps -> on_one scanlines -> NoDup (cut :: concat scanlines) -> (forall q, In q (concat scanlines) -> is_free points lps q) ->
    (exists l, seqs = done_ ++ l /\ (length l <= 2)%nat) /\
    exists k, forall q, In q (concat scanlines) -> dict_get q points = dict_get cut points \/ dict_get q points = Ok k.
  Proof.
    induction fuel as [|fuel IH]; intros lps scanlines cut sequence done_ seqs H OW ON ND FR;
      (destruct scanlines as [|next others]; [injection H as <-; split; [eexists; split; [reflexivity|cbn; lia]|exists O; intros q []]|]); [discriminate H|].
    cbn [zig_zag_loop] in H. apply rbind_ok in H as (k & EK & H). apply rbind_ok in H as (lp & EN & H).
    apply rbind_ok in H as ((walk & lp') & HN & H). unfold lps_get in EN. destruct (nth_error lps k) as [lp0|] eqn:EN0; [|discriminate]. injection EN as ->.
    apply NoDup_cons_iff in ND. destruct ND as [NCUT ND].
    destruct walk as [[|w0 w]|]; [discriminate H| |].
    - cbv zeta in H. apply rbind_ok in H as (s & HE & H). apply rbind_ok in H as (c & HC & H). apply rbind_ok in H as (rest & HR & H).
      destruct (walk_round k lps lp lp' cut w0 w s (next :: others) rest c OW EN0 HN HE HC HR ON) as (q & l1 & l2 & ES & ER & PC & IS & KQ & KC & IN & KEEP).
      assert (PS : Permutation (concat (next :: others)) (q :: c :: concat rest)).
      { rewrite ES, ER, !concat_app. cbn [concat]. rewrite PC. cbn [app]. rewrite <- Permutation_middle. apply perm_skip. symmetry. apply Permutation_middle. }
      assert (ND2 : NoDup (q :: c :: concat rest)) by (eapply Permutation_NoDup; [exact PS|exact ND]).
      apply NoDup_cons_iff in ND2. destruct ND2 as [NQ ND2].
      destruct (IH _ _ _ _ _ _ H) as (HL & k2 & HA).
      + apply (owned_set _ _ _ _ OW EN0 IN).
      + rewrite ER. rewrite ES in ON. exact (on_one_rest _ _ _ ON).
      + exact ND2.
      + intros u Hu. assert (HU : In u (concat (next :: others))) by (eapply Permutation_in; [symmetry; exact PS|right; right; exact Hu]).
        apply (free_set _ _ _ _ _ EN0); [|exact (FR u HU)]. intros HF. apply KEEP; [exact HF|intros ->; contradiction|].
        intros ->. apply NQ. right. exact Hu.
      + split; [exact HL|]. exists k2. intros u Hu. rewrite EK, <- KC. assert (HU : In u (q :: c :: concat rest)) by (eapply Permutation_in; [exact PS|exact Hu]).
        destruct HU as [<-|[<-|HU]]; [left; congruence|left; reflexivity|exact (HA u HU)].
    - apply rbind_ok in H as ((start & cut') & HU & H). destruct next as [|a [|b [|? ?]]]; try discriminate HU. injection HU as -> ->.
      destruct (nearest_walk _ _ _ _ HN) as (_ & _ & EF & EF'). cbn [concat app] in ND, FR, NCUT.
      apply NoDup_cons_iff in ND. destruct ND as [NA ND].
      assert (SK : dict_get start points = dict_get cut' points) by (apply (ON [start; cut']); [left; reflexivity|left; reflexivity|right; left; reflexivity]).
      destruct (later_run _ _ _ start _ _ _ _ H) as (HL & HA).
      + apply (owned_set _ _ _ _ OW EN0). rewrite EF'. intros u [].
      + intros s x y HS. apply (ON s). right. exact HS.
      + exact SK.
      + apply (free_set _ _ _ _ _ EN0); [|apply FR; left; reflexivity]. rewrite EF. intros [C|[]]. exfalso. apply NCUT. left. symmetry. exact C.
      + intros ->. apply NA. left. reflexivity.
      + intros HS. apply NA. right. exact HS.
      + destruct HL as (l & ->). split; [exists [sequence; l]; split; [rewrite <- app_assoc; reflexivity|cbn; lia]|].
        destruct (FR cut' (or_intror (or_introl eq_refl))) as (j & _ & EJ & _). exists j. intros u [<-|[<-|HU]]; right.
        * congruence.
        * exact EJ.
        * rewrite <- EJ. exact (HA u HU).
  Qed.
End Runs.

Lemma route_runs points ends lps first rest seqs : let all := (first :: rest : list path) in
  (forall q s, dict_get q ends = Ok s -> In q s /\ exists a b, s = [a; b]) ->
  (exists a b, first = [a; b]) -> NoDup (concat all) -> on_one points all ->
  (forall k lp q, nth_error lps k = Some lp -> In q (lp_linked lp) -> dict_get q points = Ok k) ->
  (forall q, In q (concat all) -> exists k lp, dict_get q points = Ok k /\ nth_error lps k = Some lp /\ In q (lp_linked lp)) ->
  route_zig_zag lps all points ends = Ok seqs ->
  (length seqs <= 2)%nat /\ exists k1 k2, forall q, In q (concat all) -> dict_get q points = Ok k1 \/ dict_get q points = Ok k2.
Proof.
  intros all HE (a & b & E) HD ON OW FR H. unfold route_zig_zag, all in H. rewrite E in H. cbn [unpack2 rbind] in H.
  assert (exists s c, (if qltb (fst b) (fst a) then (b, a) else (a, b)) = (s, c) /\ Permutation [a; b] [s; c]) as (s & c & ES & PC).
  { destruct (qltb (fst b) (fst a)); eexists; eexists; (split; [reflexivity|]); [apply perm_swap|reflexivity]. }
  rewrite ES in H. assert (PA : Permutation (concat all) (s :: c :: concat rest)) by (unfold all; rewrite E; cbn [concat]; rewrite PC; reflexivity).
  assert (ND : NoDup (s :: c :: concat rest)) by (eapply Permutation_NoDup; [exact PA|exact HD]).
  apply NoDup_cons_iff in ND. destruct ND as [NS ND].
  apply rbind_ok in H as (k & EK & H). apply rbind_ok in H as (lp & EN & H). apply rbind_ok in H as (lp' & HDR & H).
  unfold lps_get in EN. destruct (nth_error (map reset lps) k) as [lp0|] eqn:EN0; [|discriminate]. injection EN as ->.
  destruct (drop_inv _ _ _ HDR) as (_ & _ & PD).
  assert (OWR : owned points (map reset lps)).
  { intros j lpj q EJ HQ. rewrite nth_error_map in EJ. destruct (nth_error lps j) as [l0|] eqn:E0; [|discriminate]. injection EJ as <-. exact (OW _ _ _ E0 HQ). }
  assert (FRR : forall q, In q (concat all) -> is_free points (map reset lps) q).
  { intros q HQ. destruct (FR q HQ) as (j & lpj & E1 & E2 & E3). exists j, (reset lpj). split; [exact E1|]. rewrite nth_error_map, E2. split; [reflexivity|exact E3]. }
  destruct (first_run points ends HE _ _ _ _ _ _ _ H) as ((l & EL & LL) & k2 & HA).
  - apply (owned_set points _ _ _ _ OWR EN0). intros u HU. eapply Permutation_in; [symmetry; exact PD|right; exact HU].
  - intros t x y HT. apply (ON t). right. exact HT.
  - exact ND.
  - intros q HQ. apply (free_set points _ _ _ _ _ EN0).
    + intros HF. assert (HF' : In q (s :: lp_free lp')) by (eapply Permutation_in; [exact PD|exact HF]). destruct HF' as [<-|HF']; [|exact HF'].
      exfalso. apply NS. right. exact HQ.
    + apply FRR. eapply Permutation_in; [symmetry; exact PA|right; right; exact HQ].
  - split; [rewrite EL; exact LL|]. exists k, k2. intros q HQ. assert (KC : dict_get c points = Ok k).
    { rewrite <- EK. apply (ON first); [left; reflexivity|rewrite E; eapply Permutation_in; [symmetry; exact PC|]; right; left; reflexivity|].
      rewrite E. eapply Permutation_in; [symmetry; exact PC|]. left. reflexivity. }
    assert (HQ' : In q (s :: c :: concat rest)) by (eapply Permutation_in; [exact PA|exact HQ]).
    destruct HQ' as [<-|[<-|HQ']]; [left; exact EK|left; exact KC|]. destruct (HA q HQ') as [HK|HK]; [left; congruence|right; exact HK].
Qed.

(** Scanlines that each join two points of one boundary, and boundaries apart from each other. *)
Lemma zig_zag_runs C d st outer inner ps bounds first rest seqs : let scanlines := (first :: rest : list path) in
  Forall2 (fun b p => boundary_polygon b = Ok p) (outer ++ inner) ps -> Forall proper ps -> d * st <> 0 ->
  zc_bounds C ps = Ok bounds ->
  (let '(x0, y0, x1, y1) := bounds in zc_execute C ps (templates x0 y0 x1 y1 (d * st)) = Ok scanlines) ->
  Forall (fun s : path => exists a b, s = [a; b]) scanlines -> NoDup (concat scanlines) ->
  (forall q, In q (concat scanlines) -> exists p, In p ps /\ near_path link_tolerance q p) ->
  (forall s, In s scanlines -> exists k, forall q i p, In q s -> nth_error ps i = Some p -> near_path link_tolerance q p -> i = k) ->
  zig_zag C d st outer inner = Ok seqs ->
  (length seqs <= 2)%nat /\ exists p1 p2, In p1 ps /\ In p2 ps /\
    forall q, In q (concat scanlines) -> near_path link_tolerance q p1 \/ near_path link_tolerance q p2.
Proof.
  intros scanlines FB PR NZ EC EX F2 ND NR ONE H. destruct bounds as [[[x0 y0] x1] y1].
  apply Forall2_app_inv_l in FB. destruct FB as (po & pi & FO & FI & ->).
  apply mapM_ok in FO. apply mapM_ok in FI.
  destruct (end_map_get scanlines F2 ND) as (ends & EE & _).
  destruct (link_all (concat scanlines) (po ++ pi) ND PR NR) as (lps & m & news & EL & F3 & PN & HM).
  destruct (Forall3_nth _ _ _ _ F3) as [N1 N2].
  unfold zig_zag in H. rewrite FO, FI in H. cbn [rbind] in H. rewrite EC in H. cbn [rbind] in H.
  destruct (qeqb_spec (d * st) 0) as [Z|_]; [contradiction|]. rewrite EX in H. cbn [rbind] in H. rewrite EE in H. cbn [rbind] in H. rewrite EL in H. cbn [rbind] in H.
  assert (GET : forall q, In q (concat scanlines) -> exists k lp p, dict_get q m = Ok k /\ nth_error lps k = Some lp /\ In q (lp_linked lp) /\
    nth_error (po ++ pi) k = Some p /\ near_path link_tolerance q p).
  { intros q I. assert (I' : In q (concat news)) by (eapply Permutation_in; [exact PN|exact I]).
    apply in_concat in I'. destruct I' as (new & IN & IQ). apply In_nth_error in IN. destruct IN as (k & EK).
    destruct (N2 _ _ EK) as (b & lp & E1 & E2 & LL & _ & _ & LN). exists k, lp, b. split; [exact (HM _ _ _ EK IQ)|]. split; [exact E2|].
    rewrite LL. split; [exact IQ|]. split; [exact E1|]. apply LN. exact IQ. }
  assert (HE : forall q s, dict_get q ends = Ok s -> In q s /\ exists a b, s = [a; b]).
  { intros q s HQ. destruct (end_map_sound scanlines ends (concat scanlines) q s F2 EE HQ) as [A B]. split; [exact A|]. exact B. }
  destruct (route_runs m ends lps first rest seqs HE) as (LE & k1 & k2 & HK).
  - inversion F2; assumption.
  - exact ND.
  - intros s a b IS IA IB. destruct (ONE s IS) as (k & HO).
    assert (K : forall u, In u s -> dict_get u m = Ok k).
    { intros u IU. destruct (GET u) as (j & lp & p & E1 & _ & _ & E2 & E3); [apply in_concat; eauto|]. rewrite E1. f_equal. exact (HO u j p IU E2 E3). }
    rewrite (K a IA), (K b IB). reflexivity.
  - intros k lp q E I. destruct (N1 _ _ E) as (b & new & E1 & E2 & LL & _). rewrite LL in I. exact (HM _ _ _ E2 I).
  - intros q I. destruct (GET q I) as (k & lp & p & E1 & E2 & E3 & _). exists k, lp. auto.
  - exact H.
  - split; [exact LE|].
    assert (B : forall k, (exists p, nth_error (po ++ pi) k = Some p) \/ forall q, In q (concat scanlines) -> dict_get q m <> Ok k).
    { intros k. destruct (nth_error (po ++ pi) k) as [p|] eqn:E; [left; eexists; reflexivity|right]. intros q I C0.
      destruct (GET q I) as (j & lp & p & E1 & _ & _ & E2 & _). congruence. }
    assert (NP : exists p0, In p0 (po ++ pi)).
    { destruct first as [|u f]; [apply Forall_inv in F2; destruct F2 as (? & ? & ?); discriminate|].
      destruct (NR u) as (p0 & I0 & _); [left; reflexivity|]. exists p0. exact I0. }
    destruct NP as (p0 & I0).
    assert (T : forall k, exists p, In p (po ++ pi) /\ forall q, In q (concat scanlines) -> dict_get q m = Ok k -> near_path link_tolerance q p).
    { intros k. destruct (B k) as [(p & E)|N]; [exists p|exists p0; split; [exact I0|intros q I C0; destruct (N q I C0)]].
      split; [eapply nth_error_In; exact E|]. intros q I C0. destruct (GET q I) as (j & lp & p' & E1 & _ & _ & E2 & E3). congruence. }
    destruct (T k1) as (p1 & I1 & T1). destruct (T k2) as (p2 & I2 & T2). exists p1, p2. split; [exact I1|split; [exact I2|]].
    intros q I. destruct (HK q I) as [Hk|Hk]; [left; exact (T1 q I Hk)|right; exact (T2 q I Hk)].
Qed.

(** So three boundaries are one too many. *)
Lemma zig_zag_three C d st outer inner ps bounds first rest : let scanlines := (first :: rest : list path) in
  Forall2 (fun b p => boundary_polygon b = Ok p) (outer ++ inner) ps -> Forall proper ps -> d * st <> 0 ->
  zc_bounds C ps = Ok bounds ->
  (let '(x0, y0, x1, y1) := bounds in zc_execute C ps (templates x0 y0 x1 y1 (d * st)) = Ok scanlines) ->
  Forall (fun s : path => exists a b, s = [a; b]) scanlines -> NoDup (concat scanlines) ->
  (forall q, In q (concat scanlines) -> exists p, In p ps /\ near_path link_tolerance q p) ->
  (forall s, In s scanlines -> exists k, forall q i p, In q s -> nth_error ps i = Some p -> near_path link_tolerance q p -> i = k) ->
  (forall p1 p2, In p1 ps -> In p2 ps -> exists q, In q (concat scanlines) /\ ~ near_path link_tolerance q p1 /\ ~ near_path link_tolerance q p2) ->
  zig_zag C d st outer inner = Err ValueError.
Proof.
  intros scanlines FB PR NZ EC EX F2 ND NR ONE TH.
  destruct (zig_zag_multi C d st outer inner ps bounds first rest FB PR NZ EC EX F2 ND NR) as [(seqs & E)|E]; [exfalso|exact E].
  destruct (zig_zag_runs C d st outer inner ps bounds first rest seqs FB PR NZ EC EX F2 ND NR ONE E) as (_ & p1 & p2 & I1 & I2 & HQ).
  destruct (TH p1 p2 I1 I2) as (q & IQ & N1 & N2). destruct (HQ q IQ); contradiction.
Qed.

(** ** Example: three squares in a row *)
Lemma steps_in (p : path) a b : In (a, b) (steps p) -> In a p /\ In b p.
Proof.
  induction p as [|x p IH]; [intros []|]. destruct p as [|y p]; [intros []|].
  intros [[= <- <-]|H]; [split; [left|right; left]; reflexivity|]. destruct (IH H) as [A B]. split; right; assumption.
Qed.
Lemma near_within lo hi (p : path) q : Forall (fun a => lo <= fst a <= hi) p -> near_path link_tolerance q p ->
  lo - 1 < fst q < hi + 1.
Proof.
  intros F (a & b & S & c & (t & T0 & T1 & EC) & D). destruct (steps_in _ _ _ S) as [IA IB]. rewrite Forall_forall in F.
  destruct (F a IA) as [A0 A1]. destruct (F b IB) as [B0 B1].
  assert (C0 : lo <= fst c) by (rewrite EC; cbn [fst]; clear - T0 T1 A0 B0; qnra).
  assert (C1 : fst c <= hi) by (rewrite EC; cbn [fst]; clear - T0 T1 A1 B1; qnra).
  assert (D1 : sqd q c < 1).
  { eapply Qclt_trans; [exact D|]. apply qltb_lt. vm_compute. reflexivity. }
  unfold sqd in D1. set (x := fst c - fst q) in *. set (y := snd c - snd q) in *.
  assert (SY : 0 <= y * y) by (clear; clearbody y; qnra).
  assert (SX : x * x < 1) by (clear - D1 SY; clearbody x y; qlra).
  assert (BX : - (1) < x < 1) by (clear - SX; clearbody x; split; apply Qcnot_le_lt; intros H; apply (Qclt_not_le _ _ SX); qnra).
  unfold x in BX. clear - C0 C1 BX. destruct BX. split; qlra.
Qed.
Definition row : list path := [square 0 0 10; square 20 0 10; square 40 0 10].
Definition row_first : path := [zp 0 5; zp 10 5].
Definition row_rest : list path := [[zp 20 5; zp 30 5]; [zp 40 5; zp 50 5]].
Definition square_range (i : nat) : Qc * Qc := match i with O => (qz 0, qz 10) | S O => (qz 20, qz 30) | _ => (qz 40, qz 50) end.
Definition in_range (q : pt) (r : Qc * Qc) : bool := qltb (fst r - 1) (fst q) && qltb (fst q) (snd r + 1).
Lemma row_range i p q : nth_error row i = Some p -> near_path link_tolerance q p -> in_range q (square_range i) = true /\ (i < 3)%nat.
Proof.
  intros E N.
  assert (L : (i < 3)%nat) by (change 3%nat with (length row); apply nth_error_Some; congruence). split; [|exact L].
  assert (G : Forall (fun a => fst (square_range i) <= fst a <= snd (square_range i)) p).
  { assert (F : forallb (fun a => qleb (fst (square_range i)) (fst a) && qleb (fst a) (snd (square_range i))) p = true).
    { destruct i as [|[|[|i]]]; [injection E as <-; vm_compute; reflexivity..|lia]. }
    rewrite forallb_forall in F. apply Forall_forall. intros a I. specialize (F a I). apply andb_true_iff in F. rewrite !qleb_le in F. exact F. }
  destruct (near_within _ _ _ _ G N) as [H1 H2]. unfold in_range. rewrite (proj2 (qltb_lt _ _) H1), (proj2 (qltb_lt _ _) H2). reflexivity.
Qed.
Lemma row_meets :
  Forall2 (fun b p => boundary_polygon b = Ok p) ([BPolygon (square 0 0 10)] ++ [BPolygon (square 20 0 10); BPolygon (square 40 0 10)]) row /\
  Forall proper row /\
  Forall (fun s : path => exists a b, s = [a; b]) (row_first :: row_rest) /\ NoDup (concat (row_first :: row_rest)) /\
  (forall q, In q (concat (row_first :: row_rest)) -> exists p, In p row /\ near_path link_tolerance q p) /\
  (forall s, In s (row_first :: row_rest) -> exists k, forall q i p, In q s -> nth_error row i = Some p -> near_path link_tolerance q p -> i = k) /\
  (forall p1 p2, In p1 row -> In p2 row -> exists q, In q (concat (row_first :: row_rest)) /\ ~ near_path link_tolerance q p1 /\ ~ near_path link_tolerance q p2).
Proof.
  assert (PR : forall p, In p row -> proper p).
  { intros p I. apply proper_b_ok. assert (F : forallb proper_b row = true) by (vm_compute; reflexivity). rewrite forallb_forall in F. exact (F p I). }
  split; [repeat constructor|split; [apply Forall_forall; exact PR|split; [repeat constructor; do 2 eexists; reflexivity|split]]].
  - apply nodup_b_ok. vm_compute. reflexivity.
  - split; [|split].
    + intros q I. assert (F : forallb (fun q => existsb (near_b q) row) (concat (row_first :: row_rest)) = true) by (vm_compute; reflexivity).
      rewrite forallb_forall in F. specialize (F q I). apply existsb_exists in F. destruct F as (p & IP & HP). exists p. split; [exact IP|].
      apply near_b_ok; [exact (PR p IP)|exact HP].
    + intros s [<-|[<-|[<-|[]]]].
      1: exists 0%nat. 2: exists 1%nat. 3: exists 2%nat.
      all: intros q i p IQ EP NP; destruct (row_range i p q EP NP) as [R L]; destruct i as [|[|[|i]]]; try reflexivity; try lia; exfalso;
        destruct IQ as [<-|[<-|[]]]; vm_compute in R; discriminate.
    + assert (N : forall i p q, nth_error row i = Some p -> in_range q (square_range i) = false -> ~ near_path link_tolerance q p).
      { intros i p q E R C. destruct (row_range i p q E C) as [R' _]. congruence. }
      intros p1 p2 I1 I2. apply In_nth_error in I1. apply In_nth_error in I2. destruct I1 as (i & E1). destruct I2 as (j & E2).
      assert (exists q, In q (concat (row_first :: row_rest)) /\ in_range q (square_range i) = false /\ in_range q (square_range j) = false) as (q & IQ & R1 & R2).
      { assert (L : forall i p, nth_error row i = Some p -> (i < 3)%nat) by (intros i0 p E; change 3%nat with (length row); apply nth_error_Some; congruence).
        pose proof (L _ _ E1). pose proof (L _ _ E2). 
        assert (W : forall i j, (i < 3)%nat -> (j < 3)%nat -> existsb (fun q => negb (in_range q (square_range i)) && negb (in_range q (square_range j))) (concat (row_first :: row_rest)) = true).
        { intros [|[|[|a]]] [|[|[|b]]] LA LB; try lia; vm_compute; reflexivity. }
        specialize (W i j ltac:(assumption) ltac:(assumption)). apply existsb_exists in W. destruct W as (q & IQ & HQ). apply andb_true_iff in HQ.
        rewrite !negb_true_iff in HQ. exists q. tauto. }
      exists q. split; [exact IQ|]. split; [exact (N _ _ _ E1 R1)|exact (N _ _ _ E2 R2)].
Qed.
Lemma row_fails : zig_zag (scan_answer (row_first :: row_rest)) (qz 4) (qq 3 4) [BPolygon (square 0 0 10)]
  [BPolygon (square 20 0 10); BPolygon (square 40 0 10)] = Err ValueError.
Proof. vm_compute. reflexivity. Qed.
