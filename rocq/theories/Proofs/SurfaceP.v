(** Proofs about Model/Surface.v. *)
From Verif Require Import Base.Str Base.Py Spec.Paths Spec.Moves Spec.Zigzag Spec.Pockets Spec.Surfaces Model.Groups Model.Geometry Model.Plane
  Model.Edges Model.Pocket Model.Strategy Model.Surface Proofs.GeomP Proofs.PocketP Proofs.RouteP Proofs.LinkedP.
Local Open Scope Qc_scope.
Local Open Scope list_scope.

(** ** Chopping *)
Lemma chop_sequence_acc limit seq : forall run, Forall (within limit) run ->
  match run with
  | [] => chopped limit seq (chop_sequence limit seq run)
  | _ => exists more rest runs, seq = more ++ rest /\ chop_sequence limit seq run = (run ++ more) :: runs /\
           Forall (within limit) more /\ match rest with [] => True | p :: _ => above limit p end /\ chopped limit rest runs
  end.
Proof.
  induction seq as [|p seq IH]; intros run HR.
  - destruct run as [|r run]; cbn [chop_sequence]; [apply chopped_rest; constructor|].
    exists [], [], []. split; [reflexivity|]. split; [rewrite app_nil_r; reflexivity|]. repeat split; constructor. constructor.
  - cbn [chop_sequence]. destruct (qltb limit (vz p)) eqn:E.
    + apply qltb_lt in E. pose proof (IH [] (Forall_nil _)) as H. cbn beta iota in H.
      destruct run as [|r run].
      * inversion H as [gap HG EQ|gap run rest runs HG NE HRu HB HC EQ]; subst.
        -- apply chopped_rest. constructor; assumption.
        -- apply (chopped_run limit (p :: gap) run rest runs); auto.
      * exists [], (p :: seq), (chop_sequence limit seq []). split; [reflexivity|]. split; [rewrite app_nil_r; reflexivity|]. split; [constructor|]. split; [exact E|].
        -- inversion H as [gap HG EQ|gap run' rest runs HG NE HRu HB HC EQ]; subst.
           ++ apply chopped_rest. constructor; assumption.
           ++ apply (chopped_run limit (p :: gap) run' rest runs); auto.
    + apply qltb_nlt in E. assert (HR' : Forall (within limit) (run ++ [p])) by (apply Forall_app; split; [exact HR|repeat constructor; exact E]).
      specialize (IH _ HR'). destruct (run ++ [p]) as [|a l] eqn:EL; [destruct run; discriminate|].
      destruct IH as (more & rest & runs & E1 & E2 & H1 & H2 & H3). rewrite E2, <- EL in *.
      destruct run as [|r run].
      * cbn [app] in *. rewrite E1. change (p :: more ++ rest) with ([] ++ (p :: more) ++ rest).
        apply (chopped_run limit [] (p :: more) rest runs); [constructor|discriminate|constructor; [exact E|exact H1]|exact H2|exact H3].
      * exists (p :: more), rest, runs. rewrite <- app_assoc. cbn [app]. split; [f_equal; exact E1|]. split; [reflexivity|]. split; [constructor; [exact E|exact H1]|]. split; assumption.
Qed.
Lemma chop_sequence_ok limit seq : chopped limit seq (chop_sequence limit seq []).
Proof. exact (chop_sequence_acc limit seq [] (Forall_nil _)). Qed.
Lemma chop_ok limit seqs : chopped_all limit seqs (chop_sequences_by_depth seqs limit).
Proof.
  exists (map (fun s => chop_sequence limit s []) seqs). split.
  - induction seqs; constructor; auto. apply chop_sequence_ok.
  - unfold chop_sequences_by_depth. apply flat_map_concat_map.
Qed.

Lemma gap_split limit gap : forall run rest gap' run' rest', Forall (above limit) gap -> Forall (above limit) gap' ->
  run <> [] -> run' <> [] -> Forall (within limit) run -> Forall (within limit) run' ->
  match rest with [] => True | p :: _ => above limit p end -> match rest' with [] => True | p :: _ => above limit p end ->
  gap ++ run ++ rest = gap' ++ run' ++ rest' -> run = run' /\ rest = rest'.
Proof.
  assert (N : forall p, above limit p -> within limit p -> False) by (intros p H1 H2; unfold above, within in *; qlra).
  assert (R : forall run rest run' rest', Forall (within limit) run -> Forall (within limit) run' ->
    match rest with [] => True | p :: _ => above limit p end -> match rest' with [] => True | p :: _ => above limit p end ->
    run ++ rest = run' ++ rest' -> run = run' /\ rest = rest').
  { induction run as [|a run IH]; intros rest [|b run'] rest' H1 H2 H3 H4 E; cbn [app] in E.
    - auto.
    - subst rest. inversion H2; subst. exfalso. eauto.
    - subst rest'. inversion H1; subst. exfalso. eauto.
    - injection E as -> E. inversion H1; inversion H2; subst. destruct (IH rest run' rest' ltac:(assumption) ltac:(assumption) H3 H4 E) as [-> ->]. auto. }
  induction gap as [|a gap IH]; intros run rest gap' run' rest' G G' NE NE' HR HR' B B' E.
  - destruct gap' as [|b gap']; cbn [app] in E.
    + apply (R _ _ _ _ HR HR' B B' E).
    + destruct run as [|x run]; [congruence|]. injection E as -> E. inversion HR; inversion G'; subst. exfalso. eauto.
  - destruct gap' as [|b gap']; cbn [app] in E.
    + destruct run' as [|x run']; [congruence|]. injection E as <- E. inversion HR'; inversion G; subst. exfalso. eauto.
    + injection E as -> E. inversion G; inversion G'; subst. eapply IH; eauto.
Qed.
Lemma chopped_unique limit seq runs : chopped limit seq runs -> forall runs', chopped limit seq runs' -> runs = runs'.
Proof.
  assert (N : forall p, above limit p -> within limit p -> False) by (intros p H1 H2; unfold above, within in *; qlra).
  induction 1 as [gap HG|gap run rest runs HG NE HR HB HC IH]; intros runs' H'.
  - inversion H' as [|g r re rs G1 G2 G3 G4 G5 EQ]; subst; [reflexivity|]. exfalso. destruct r as [|x r]; [congruence|].
    apply Forall_app in HG as [_ HG]. inversion HG; inversion G3; subst. eauto.
  - inversion H' as [g G EQ|g r re rs G1 G2 G3 G4 G5 EQ]; subst.
    + exfalso. destruct run as [|x r]; [congruence|].
      apply Forall_app in G as [_ G]. inversion G; inversion HR; subst. eauto.
    + destruct (gap_split limit _ _ _ _ _ _ HG G1 NE G2 HR G3 HB G4 (eq_sym EQ)) as [-> ->]. f_equal. apply IH, G5.
Qed.
Lemma chopped_points limit seq runs : chopped limit seq runs -> concat runs = filter (fun p => qleb (vz p) limit) seq.
Proof.
  assert (A : forall l, Forall (above limit) l -> filter (fun p => qleb (vz p) limit) l = []).
  { induction 1 as [|p l H _ IH]; cbn [filter]; [reflexivity|]. destruct (qleb (vz p) limit) eqn:E; [|exact IH].
    apply qleb_le in E. unfold above in H. exfalso. qlra. }
  assert (B : forall l, Forall (within limit) l -> filter (fun p => qleb (vz p) limit) l = l).
  { induction 1 as [|p l H _ IH]; cbn [filter]; [reflexivity|]. destruct (qleb (vz p) limit) eqn:E; [f_equal; exact IH|].
    apply qleb_nle in E. unfold within in H. exfalso. qlra. }
  induction 1 as [gap HG|gap run rest runs HG NE HR HB HC IH]; cbn [concat].
  - symmetry. apply A, HG.
  - rewrite !filter_app, (A _ HG), (B _ HR), IH. reflexivity.
Qed.

(** ** Commands *)
Lemma surface_cuts_ok depth points : forall pos, Forall2 (surface_cut depth) points (surface_cuts depth pos points).
Proof.
  induction points as [|p points IH]; intros pos; cbn [surface_cuts]; constructor; auto.
  split; [exact I|]. split; [reflexivity|]. exists (qmax depth (vz p)). split; [reflexivity|].
  destruct (qmax_spec depth (vz p)) as [[-> H]|[-> H]]; repeat split; auto; try apply Qcle_refl; qlra.
Qed.
Lemma surface_cuts_continuous depth points : forall pos, continuous pos (surface_cuts depth pos points).
Proof. induction points as [|p points IH]; intros pos; cbn [surface_cuts continuous]; auto. Qed.
Lemma surface_run_ok j depth pos p points :
  milled (j_rapid_height j) (j_op_safe_height j) depth (p :: points) (surface_run j depth pos (p :: points)).
Proof.
  unfold surface_run. cbv zeta. do 6 eexists. split; [reflexivity|]. split; [reflexivity|].
  split; [|split; [|split; [|apply surface_cuts_ok]]]; repeat split; reflexivity.
Qed.
Lemma end_pos_after pos ms : end_pos pos ms = after pos ms.
Proof.
  unfold end_pos. assert (G : forall ms m d, m_end (last (m :: ms) d) = after (m_end m) ms).
  { induction ms0 as [|m' ms0 IH]; intros m d; [reflexivity|]. cbn [after]. rewrite <- (IH m' d). reflexivity. }
  destruct ms as [|m ms]; [reflexivity|]. apply G.
Qed.
Lemma surface_run_continuous j depth pos run : continuous pos (surface_run j depth pos run).
Proof. destruct run as [|p points]; [exact I|]. cbn. repeat split. apply surface_cuts_continuous. Qed.
Lemma surface_runs_ok j depth runs : Forall (fun r => r <> []) runs -> forall pos,
  exists groups, surface_runs j depth pos runs = concat groups /\
    Forall2 (milled (j_rapid_height j) (j_op_safe_height j) depth) runs groups.
Proof.
  induction 1 as [|run runs NE _ IH]; intros pos; cbn [surface_runs].
  - exists []. split; constructor.
  - destruct (IH (end_pos pos (surface_run j depth pos run))) as (groups & E & H). exists (surface_run j depth pos run :: groups).
    cbn [concat]. rewrite E. split; [reflexivity|]. constructor; [|exact H]. destruct run as [|p points]; [congruence|]. apply surface_run_ok.
Qed.
Lemma surface_runs_continuous j depth runs : forall pos, continuous pos (surface_runs j depth pos runs).
Proof.
  induction runs as [|run runs IH]; intros pos; cbn [surface_runs]; [exact I|]. apply continuous_app. split; [apply surface_run_continuous|].
  rewrite end_pos_after. apply IH.
Qed.
Lemma chopped_nonempty limit seq runs : chopped limit seq runs -> Forall (fun r => r <> []) runs.
Proof. induction 1; constructor; auto. Qed.
Lemma chop_nonempty limit seqs : Forall (fun r => r <> []) (chop_sequences_by_depth seqs limit).
Proof.
  unfold chop_sequences_by_depth. rewrite flat_map_concat_map. apply Forall_concat. apply Forall_forall. intros rs H.
  apply in_map_iff in H as (s & <- & _). eapply chopped_nonempty, chop_sequence_ok.
Qed.
Lemma depth_limit_nth ds i : depth_limit ds i = nth i (0 :: 0 :: ds) 0.
Proof. destruct i as [|[|i]]; reflexivity. Qed.
Lemma surface_passes_ok j seqs all ds : forall i pos, exists passes,
  surface_passes j seqs all i ds pos = concat passes /\
  Forall2 (fun ld p => pass (j_rapid_height j) (j_op_safe_height j) seqs (fst ld) (snd ld) p)
    (combine (map (depth_limit all) (seq i (length ds))) ds) passes.
Proof.
  induction ds as [|d ds IH]; intros i pos; cbn [surface_passes length seq map combine].
  - exists []. split; constructor.
  - set (ms := surface_runs j d pos _). destruct (IH (S i) (end_pos pos ms)) as (passes & E & H).
    exists (ms :: passes). cbn [concat]. rewrite E. split; [reflexivity|]. constructor; [|exact H]. cbn [fst snd].
    destruct (surface_runs_ok j d _ (chop_nonempty (depth_limit all i) seqs) pos) as (groups & E1 & H1).
    exists (chop_sequences_by_depth seqs (depth_limit all i)), groups. split; [apply chop_ok|]. split; assumption.
Qed.
Lemma map_nth_seq {A} (l : list A) d n : (n <= length l)%nat -> map (fun i => nth i l d) (seq 0 n) = firstn n l.
Proof.
  revert n. induction l as [|a l IH]; intros [|n] H; cbn [length] in H; try reflexivity; [lia|].
  cbn [seq map firstn nth]. f_equal. rewrite <- seq_shift, map_map. apply IH. lia.
Qed.
Lemma pass_limits_seq ds : map (depth_limit ds) (seq 0 (length ds)) = pass_limits ds.
Proof.
  unfold pass_limits. rewrite <- (map_nth_seq _ 0); [|cbn [length]; lia]. apply map_ext. intros i. apply depth_limit_nth.
Qed.
Lemma surface_passes_surfaced j seqs ds : surfaced (j_rapid_height j) (j_op_safe_height j) seqs ds (surface_passes j seqs ds 0 ds av_none).
Proof.
  destruct (surface_passes_ok j seqs ds ds 0 av_none) as (passes & E & H). rewrite pass_limits_seq in H. exists passes. split; assumption.
Qed.
Lemma surface_passes_continuous j seqs all ds : forall i pos, continuous pos (surface_passes j seqs all i ds pos).
Proof.
  induction ds as [|d ds IH]; intros i pos; cbn [surface_passes]; [exact I|]. apply continuous_app. split; [apply surface_runs_continuous|].
  rewrite end_pos_after. apply IH.
Qed.

(** ** Depths *)
Lemma last_of_app l d : last_of (l ++ [d]) = Ok d.
Proof. destruct l as [|a l]; [reflexivity|]. cbn [app last_of]. f_equal. rewrite last_last. reflexivity. Qed.
Lemma steps_by_last s st z ds d : steps_by s st z (ds ++ [d]) -> z < d.
Proof. revert st. induction ds as [|a ds IH]; intros st; cbn [app steps_by]; [intros (_ & H & _); exact H|]. intros (_ & _ & H). eauto. Qed.
Lemma surface_depths_down top bottom s : s < 0 -> bottom < top + s ->
  exists ds, surface_depths top bottom (Some s) = Ok (ds ++ [bottom]) /\ ds <> [] /\ steps_by (- s) top bottom ds.
Proof.
  intros Hs Hb. pose proof (arange_down (- s) top bottom ltac:(qlra)) as H.
  replace (top - - s) with (top + s) in H by ring. replace (- - s) with s in H by ring.
  unfold surface_depths. destruct (qeqb s 0) eqn:E; [apply qeqb_eq in E; exfalso; qlra|]. clear E.
  set (ds := arange (top + s) bottom s) in *. clearbody ds.
  destruct ds as [|d ds] using rev_ind; [cbn [steps_by] in H; exfalso; qlra|]. clear IHds.
  exists (ds ++ [d]). rewrite last_of_app. cbn [rbind]. pose proof (steps_by_last _ _ _ _ _ H) as K.
  destruct (qeqb d bottom) eqn:E; [apply qeqb_eq in E; exfalso; qlra|]. repeat split; [destruct ds; discriminate|exact H].
Qed.
Lemma arange_empty st z s : s <> 0 -> (z - st) / s <= 0 -> arange st z s = [].
Proof.
  intros Hs H. unfold arange. destruct (qceil_bounds ((z - st) / s)) as [_ K].
  assert (qceil ((z - st) / s) <= 0)%Z as L.
  { destruct (Z.lt_ge_cases 0 (qceil ((z - st) / s))) as [C|C]; [|exact C]. exfalso.
    assert (1 <= qz (qceil ((z - st) / s))) by (rewrite <- qz_1; apply qz_le; lia). qlra. }
  replace (Z.to_nat _) with O by lia. reflexivity.
Qed.
Lemma surface_depths_fails top bottom s : (0 < s /\ bottom <= top + s) \/ (s < 0 /\ top + s <= bottom) ->
  surface_depths top bottom (Some s) = Err IndexError.
Proof.
  intros H. assert (N : s <> 0) by (intros ->; destruct H as [[H _]|[H _]]; exact (Qclt_not_le _ _ H (Qcle_refl _))).
  assert (Q : (bottom - (top + s)) / s * s = bottom - (top + s)) by (apply qdiv_mul; exact N).
  unfold surface_depths. destruct (qeqb s 0) eqn:E; [apply qeqb_eq in E; contradiction|].
  rewrite arange_empty; [reflexivity|exact N|]. set (x := (bottom - (top + s)) / s) in *. clearbody x.
  apply Qcnot_lt_le. intros C. destruct H as [[H1 H2]|[H1 H2]].
  - assert (0 < x * s) by (apply qmul_lt; assumption). qlra.
  - assert (0 < x * (- s)) by (apply qmul_lt; qlra). qlra.
Qed.

(** ** Interpolation *)
Lemma arange_up l step : 0 < l -> 0 < step -> exists n, arange 0 l step = map (fun k => qz (Z.of_nat k) * step) (seq 0 (S n)) /\
  qz (Z.of_nat n) * step < l /\ l <= qz (Z.of_nat (S n)) * step.
Proof.
  intros Hl Hs. unfold arange. set (x := (l - 0) / step).
  assert (Hx : x * step = l). { assert (N : step <> 0) by (intros C; subst; exact (Qclt_not_le _ _ Hs (Qcle_refl _))). pose proof (qdiv_mul (l - 0) step N) as K. fold x in K. rewrite K. ring. }
  destruct (qceil_bounds x) as [C1 C2]. clearbody x.
  assert (0 < qceil x)%Z as P.
  { destruct (Z.lt_ge_cases 0 (qceil x)) as [C|C]; [exact C|]. exfalso. apply qz_le in C. rewrite qz_0 in C.
    assert (0 <= (- x) * step) by (apply qmul_pos; qlra). qlra. }
  exists (Z.to_nat (qceil x) - 1)%nat. replace (S (Z.to_nat (qceil x) - 1)) with (Z.to_nat (qceil x)) by lia.
  split; [apply map_ext; intros k; ring|]. split.
  - replace (Z.of_nat (Z.to_nat (qceil x) - 1)) with (qceil x + Z.opp 1)%Z by lia. rewrite qz_plus, qz_opp, qz_1.
    assert (0 < (x - (qz (qceil x) + - (1))) * step) by (apply qmul_lt; qlra). qlra.
  - replace (Z.of_nat (Z.to_nat (qceil x))) with (qceil x) by lia.
    assert (0 <= (qz (qceil x) - x) * step) by (apply qmul_pos; qlra). qlra.
Qed.

Fixpoint adj (P : Qc -> Qc -> Prop) (l : list Qc) : Prop :=
  match l with a :: (b :: _) as rest => P a b /\ adj P rest | _ => True end.
Lemma adj_app (P : Qc -> Qc -> Prop) l a b : adj P (l ++ [a]) -> P a b -> adj P (l ++ [a; b]).
Proof.
  induction l as [|x [|y l] IH]; cbn [app adj]; intros H1 H2; [auto|split; [apply H1|auto]|]. split; [apply H1|]. apply IH; [apply H1|exact H2].
Qed.
Definition along_seg (p1 p2 : pt) (t : Qc) : pt := (fst p1 + (fst p2 - fst p1) * t, snd p1 + (snd p2 - snd p1) * t).
Lemma along_sqd p1 p2 s t : sqd (along_seg p1 p2 s) (along_seg p1 p2 t) = (t - s) * (t - s) * sqd p1 p2.
Proof. unfold sqd, along_seg. cbn [fst snd]. ring. Qed.
Lemma along_0 p1 p2 : along_seg p1 p2 0 = p1.
Proof. destruct p1. unfold along_seg. cbn [fst snd]. apply pair_eq; ring. Qed.
Lemma along_1 p1 p2 : along_seg p1 p2 1 = p2.
Proof. destruct p1, p2. unfold along_seg. cbn [fst snd]. apply pair_eq; ring. Qed.
Lemma adj_steps P f l : adj P l -> forall a b, In (a, b) (steps (map f l)) -> exists s t, a = f s /\ b = f t /\ P s t.
Proof.
  induction l as [|x [|y l] IH]; intros H a b HI; [destruct HI|destruct HI|]. cbn [map steps] in HI. destruct H as [H1 H2].
  destruct HI as [E|HI]; [injection E as <- <-; eauto|]. apply IH; auto.
Qed.
Lemma qsq_mono a b : 0 <= a -> a <= b -> a * a <= b * b.
Proof. intros H1 H2. assert (0 <= (b - a) * (b + a)) by (apply qmul_pos; qlra). qlra. Qed.
Lemma along_by_distance p1 p2 l : adj (fun s t => 0 <= s /\ s <= t) l -> by_distance p1 (map (along_seg p1 p2) l).
Proof.
  induction l as [|x [|y l] IH]; intros H; [exact I|exact I|]. destruct H as [[H1 H2] H3]. cbn [map by_distance].
  split; [|apply IH; exact H3]. rewrite <- (along_0 p1 p2) at 1 3. rewrite !along_sqd.
  pose proof (sqd_nn p1 p2). pose proof (qsq_mono _ _ H1 H2).
  assert (0 <= (y * y - x * x) * sqd p1 p2) by (apply qmul_pos; qlra).
  replace ((x - 0) * (x - 0)) with (x * x) by ring. replace ((y - 0) * (y - 0)) with (y * y) by ring. qlra.
Qed.

Lemma adj_arith (P : Qc -> Qc -> Prop) f n : (forall k, (S k <= n)%nat -> P (f k) (f (S k))) -> forall i, adj P (map f (seq i (S (n - i)))).
Proof.
  intros H i. remember (n - i)%nat as d eqn:E. revert i E. induction d as [|d IH]; intros i E; cbn [seq map adj]; [exact I|].
  split; [apply H; lia|]. apply (IH (S i)). lia.
Qed.
Lemma interpolate_segment_ok len step p1 p2 : 0 < len p1 p2 -> sqd p1 p2 <= len p1 p2 * len p1 p2 -> 0 < step ->
  exists points, interpolate_segment len step p1 p2 = Ok points /\ fine_segment step p1 p2 points.
Proof.
  intros Hl HD Hs. unfold interpolate_segment. cbv zeta. set (l := len p1 p2) in *. clearbody l.
  destruct (qeqb l 0) eqn:E; [apply qeqb_eq in E; subst; exfalso; qlra|]. clear E.
  destruct (qeqb step 0) eqn:E; [apply qeqb_eq in E; subst; exfalso; qlra|]. clear E.
  destruct (arange_up l step Hl Hs) as (n & -> & B1 & B2). rewrite map_map.
  set (t := fun k => qz (Z.of_nat k) * step / l). eexists. split; [reflexivity|].
  assert (NZ : l <> 0) by (intros C; subst; exact (Qclt_not_le _ _ Hl (Qcle_refl _))).
  assert (T : forall k, t k * l = qz (Z.of_nat k) * step) by (intros k; apply qdiv_mul; exact NZ).
  assert (TS : forall k, (t (S k) - t k) * l = step).
  { intros k. replace ((t (S k) - t k) * l) with (t (S k) * l - t k * l) by ring. rewrite !T, Nat2Z.inj_succ. unfold Z.succ. rewrite qz_plus, qz_1. ring. }
  assert (T0 : t 0%nat = 0) by (unfold t; change (Z.of_nat 0) with 0%Z; rewrite qz_0; unfold Qcdiv; ring).
  assert (DIV : forall a b, a * l <= b * l -> a <= b).
  { intros a b H. apply Qcnot_lt_le. intros C. assert (0 < (a - b) * l) by (apply qmul_lt; qlra). qlra. }
  assert (TM : forall k, t k <= t (S k)) by (intros k; apply DIV; specialize (TS k); qlra).
  assert (TN : forall k, 0 <= t k) by (induction k as [|k IH]; [rewrite T0; apply Qcle_refl|specialize (TM k); qlra]).
  assert (TL : t n <= 1) by (apply DIV; rewrite T; qlra).
  assert (TK : forall k, (k <= n)%nat -> t k <= 1).
  { intros k H. assert (G : forall d, t k <= t (k + d)%nat).
    { induction d as [|d IH]; [rewrite Nat.add_0_r; apply Qcle_refl|]. rewrite Nat.add_succ_r. specialize (TM (k + d)%nat). qlra. }
    specialize (G (n - k)%nat). replace (k + (n - k))%nat with n in G by lia. qlra. }
  assert (EM : map (fun x => (fst p1 + (fst p2 - fst p1) * (qz (Z.of_nat x) * step / l), snd p1 + (snd p2 - snd p1) * (qz (Z.of_nat x) * step / l))) (seq 0 (S n)) ++ [p2]
             = map (along_seg p1 p2) (map t (seq 0 (S n)) ++ [1])).
  { rewrite map_app, map_map. cbn [map]. rewrite along_1. reflexivity. }
  rewrite EM.
  set (Q := fun s u => (0 <= s /\ s <= u) /\ (u - s) * l <= step).
  assert (AD : adj Q (map t (seq 0 (S n)) ++ [1])).
  { replace (seq 0 (S n)) with (seq 0 n ++ [n]%list) by (symmetry; apply seq_S). rewrite map_app. cbn [map]. rewrite <- app_assoc. apply adj_app.
    - replace (map t (seq 0 n) ++ [t n]) with (map t (seq 0 (S (n - 0)))); [|rewrite Nat.sub_0_r, seq_S, map_app; reflexivity].
      apply (adj_arith Q t n). intros k Hk. split; [split; [apply TN|apply TM]|]. rewrite TS. apply Qcle_refl.
    - split; [split; [apply TN|exact TL]|]. replace ((1 - t n) * l) with (l - t n * l) by ring. rewrite T.
      rewrite Nat2Z.inj_succ in B2. unfold Z.succ in B2. rewrite qz_plus, qz_1 in B2. qlra. }
  exists (map (along_seg p1 p2) (map t (seq 0 (S n)))). split; [rewrite map_app; cbn [map]; rewrite along_1; reflexivity|]. split; [|split].
  - apply Forall_forall. intros q H. apply in_map_iff in H as (u & <- & H). apply in_map_iff in H as (k & <- & H). apply in_seq in H.
    apply (on_segment_intro (t k)); [apply TN|apply TK; lia|]. unfold along_seg. apply pair_eq; ring.
  - apply along_by_distance. clear - AD. revert AD. generalize (map t (seq 0 (S n)) ++ [1]). intros ts.
    induction ts as [|x [|y ts] IH]; intros H; [exact I|exact I|]. destruct H as [[H1 H2] H3]. split; [exact H1|]. apply IH, H3.
  - intros a b H. 
    assert (EZ : p1 :: map (along_seg p1 p2) (map t (seq 0 (S n)) ++ [1]) = map (along_seg p1 p2) (0 :: map t (seq 0 (S n)) ++ [1]))
      by (cbn [map]; rewrite along_0; reflexivity).
    rewrite EZ in H. destruct (adj_steps Q (along_seg p1 p2) (0 :: map t (seq 0 (S n)) ++ [1])) with (a := a) (b := b) as (s & u & -> & -> & [[H1 H2] H3]); [|exact H|].
    + cbn [seq map app adj]. split; [|exact AD]. rewrite T0. split; [split; apply Qcle_refl|]. replace ((0 - 0) * l) with 0 by ring. qlra.
    + rewrite along_sqd. assert (S1 : (u - s) * (u - s) * sqd p1 p2 <= (u - s) * (u - s) * (l * l)).
      { assert (0 <= (u - s) * (u - s) * (l * l - sqd p1 p2)); [|qlra]. apply qmul_pos; [apply qmul_pos; qlra|qlra]. }
      assert (S2 : ((u - s) * l) * ((u - s) * l) <= step * step) by (apply qsq_mono; [apply qmul_pos; qlra|exact H3]).
      replace ((u - s) * (u - s) * (l * l)) with (((u - s) * l) * ((u - s) * l)) in S1 by ring. qlra.
Qed.
Lemma interpolate_from_ok len step seq p : 0 < step ->
  (forall a b, In (a, b) (steps (p :: seq)) -> 0 < len a b /\ sqd a b <= len a b * len a b) ->
  exists parts, interpolate_from len step p seq = Ok (concat parts) /\
    Forall2 (fun s part => fine_segment step (fst s) (snd s) part) (steps (p :: seq)) parts.
Proof.
  intros Hs. revert p. induction seq as [|q seq IH]; intros p H; cbn [interpolate_from].
  - exists []. split; constructor.
  - destruct (H p q) as [H1 H2]; [left; reflexivity|]. destruct (interpolate_segment_ok len step p q H1 H2 Hs) as (pts & -> & HF).
    destruct (IH q) as (parts & -> & HP); [intros a b HI; apply H; right; exact HI|]. exists (pts :: parts). split; [reflexivity|]. constructor; [exact HF|exact HP].
Qed.
Lemma interpolate_ok len step seq : 0 < step -> seq <> [] ->
  (forall a b, In (a, b) (steps seq) -> 0 < len a b /\ sqd a b <= len a b * len a b) ->
  exists fine, interpolate_cut_sequence len step seq = Ok fine /\ fine_sequence step seq fine.
Proof.
  intros Hs NE H. destruct seq as [|p seq]; [congruence|]. destruct (interpolate_from_ok len step seq p Hs H) as (parts & E & HP).
  exists (p :: concat parts). cbn [interpolate_cut_sequence]. rewrite E. split; [reflexivity|]. exists p, seq, parts. auto.
Qed.
Lemma interpolate_empty len step : interpolate_cut_sequence len step [] = Err IndexError.
Proof. reflexivity. Qed.
(** A repeated point: the direction has no length. *)
Lemma interpolate_repeated len step p l1 l2 : len p p = 0 -> step <> 0 ->
  (forall a b, In (a, b) (steps (l1 ++ [p])) -> len a b <> 0) ->
  interpolate_cut_sequence len step (l1 ++ p :: p :: l2) = Err KernelError.
Proof.
  intros H0 HS H. assert (G : forall l1 q, (forall a b, In (a, b) (steps (q :: l1 ++ [p])) -> len a b <> 0) ->
    interpolate_from len step q (l1 ++ p :: p :: l2) = Err KernelError).
  { induction l0 as [|x l0 IH]; intros q HH; cbn [app interpolate_from].
    - unfold interpolate_segment at 1. cbv zeta. destruct (qeqb (len q p) 0) eqn:E; [apply qeqb_eq in E; exfalso; apply (HH q p); [left; reflexivity|exact E]|].
      destruct (qeqb step 0) eqn:E2; [apply qeqb_eq in E2; contradiction|]. cbn [rbind]. unfold interpolate_segment.
      rewrite H0. reflexivity.
    - unfold interpolate_segment at 1. cbv zeta. destruct (qeqb (len q x) 0) eqn:E; [apply qeqb_eq in E; exfalso; apply (HH q x); [left; reflexivity|exact E]|].
      destruct (qeqb step 0) eqn:E2; [apply qeqb_eq in E2; contradiction|]. cbn [rbind]. rewrite IH; [reflexivity|]. intros a b HI. apply HH. right. exact HI. }
  destruct l1 as [|x l1]; cbn [app interpolate_cut_sequence].
  - cbn [interpolate_from]. unfold interpolate_segment. rewrite H0. reflexivity.
  - rewrite G; [reflexivity|exact H].
Qed.
