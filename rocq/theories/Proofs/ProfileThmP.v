(** * Whole profiles *)
From Verif Require Import Base.Str Base.Py Model.Geometry Model.Profile Spec.Paths Spec.Moves Spec.Wires Spec.Profiles
  Proofs.GeomP Proofs.RouteThmP Proofs.StepdownP Proofs.ProfileP Proofs.HeightP Spec.Jobs Proofs.ProgramThmP.
Local Open Scope Qc_scope.
Local Open Scope list_scope.

Lemma Forall2_concat_l {A B} (R : A -> B -> Prop) ls : forall gs, Forall2 R (concat ls) gs ->
  exists gss, gs = concat gss /\ Forall2 (Forall2 R) ls gss.
Proof.
  induction ls as [|l ls IH]; intros gs H; cbn [concat] in H.
  - inversion H; subst. exists []. split; [reflexivity|constructor].
  - apply Forall2_app_inv_l in H as (g1 & g2 & H1 & H2 & ->). destruct (IH _ H2) as (gss & -> & HF).
    exists (g1 :: gss). split; [reflexivity|]. constructor; assumption.
Qed.
Lemma Forall2_map_l {A B C} (f : C -> A) (R : A -> B -> Prop) l : forall gs, Forall2 R (map f l) gs <-> Forall2 (fun a => R (f a)) l gs.
Proof. induction l; intros gs; split; intros H; inversion H; subst; constructor; auto; apply IHl; auto. Qed.
Lemma mapM_Forall2 {A B} (f : A -> result B) l : forall out, mapM f l = Ok out -> Forall2 (fun a b => f a = Ok b) l out.
Proof.
  induction l as [|a l IH]; intros out H; cbn [mapM] in H; [injection H as <-; constructor|].
  apply rbind_ok in H as (b & H1 & H). apply rbind_ok in H as (r & H2 & H). injection H as <-. constructor; auto.
Qed.
Lemma Forall2_compose {A B C} (R : A -> B -> Prop) (S : B -> C -> Prop) la lb : Forall2 R la lb -> forall lc, Forall2 S lb lc ->
  Forall2 (fun a c => exists b, R a b /\ S b c) la lc.
Proof. induction 1; intros lc HS; inversion HS; subst; constructor; eauto. Qed.
Lemma Forall2_nth {A B} (R : A -> B -> Prop) la lb : Forall2 R la lb -> forall k b, nth_error lb k = Some b ->
  exists a, nth_error la k = Some a /\ R a b.
Proof. induction 1; intros [|k] c E; cbn in *; try discriminate; [injection E as <-; eauto|eauto]. Qed.

(** ** What a profile is made of *)
Lemma profile_inv K TK WK j w o sd t cmds : profile K TK WK j w o sd t = Ok cmds ->
  exists r bases paths, tool_radius j = Some r /\ offset_wire K WK (wk_transform WK (j_top j) w) (o * r) = Ok bases /\
    Forall2 (fun b ls => profile_toolpaths TK WK j sd t b = Ok ls) bases paths /\
    route_wires K j (map WWire (concat paths)) None None = Ok cmds.
Proof.
  unfold profile. destruct (tool_radius j) as [r|]; [|discriminate]. intros H.
  apply rbind_ok in H as (bases & HB & H). apply rbind_ok in H as (paths & HP & H).
  exists r, bases, paths. split; [reflexivity|]. split; [exact HB|]. split; [apply mapM_Forall2; exact HP|exact H].
Qed.

Lemma profile_safe K TK WK j w o sd t cmds : profile K TK WK j w o sd t = Ok cmds ->
  Forall (fun m => (rapid m -> safe_rapid (j_rapid_height j) (j_op_safe_height j) m) /\
                   (~ rapid m -> feed_ok (j_op_safe_height j) (j_plunge_feed j) (j_feed j) m)) cmds.
Proof. intros H. destruct (profile_inv _ _ _ _ _ _ _ _ _ H) as (r & bs & ps & _ & _ & _ & HR). eapply wires_safe. exact HR. Qed.

(** ** Layers are cut where they should be *)
Lemma passes_cases sd : (forall s, sd = Some s -> 0 <= s) -> (exists s, sd = Some s /\ 0 < s) \/ ~ stepped sd.
Proof.
  intros H. destruct sd as [s|]; [|right; intros (s & E & _); discriminate]. destruct (Qc_eq_dec s 0) as [->|N]; [right; intros (s & E & NE); injection E as <-; contradiction|].
  left. exists s. split; [reflexivity|]. apply Qcnot_le_lt. intros C. apply N, Qcle_antisym; [exact C|apply H; reflexivity].
Qed.
Lemma unstepped_layers TK WK j b sd : ~ stepped sd -> profile_layers TK WK j b sd = Ok [b].
Proof.
  intros N. destruct sd as [s|]; [|reflexivity]. cbn [profile_layers]. destruct (qeqb s 0) eqn:E; [reflexivity|]. exfalso. apply N. exists s. split; [reflexivity|]. apply qeqb_neq, E.
Qed.
Lemma profile_depths K TK WK j w o sd cmds r bases : (forall s, sd = Some s -> 0 <= s) -> rigid TK WK ->
  tool_radius j = Some r -> offset_wire K WK (wk_transform WK (j_top j) w) (o * r) = Ok bases ->
  (forall b, In b bases -> (exists z, flat z b) /\ (stepped sd -> clear_of_top TK WK (j_top j) b)) ->
  profile K TK WK j w o sd None = Ok cmds ->
  exists gss, cmds = concat (map (@concat motion) gss) /\
    Forall2 (fun b gs => exists z s n, flat z b /\ passes_needed sd z s n /\ length gs = S n /\
      forall k g, nth_error gs k = Some g ->
        let h := z + qz (Z.of_nat (n - k)) * s in
        cuts_at (fun x => x = h) g /\ exists layer, flat h layer /\ covers (j_feed j) (WWire layer) g) bases gss.
Proof.
  intros HS (RG1 & RG2) HR HO HB HP.
  destruct (profile_inv _ _ _ _ _ _ _ _ _ HP) as (r' & bases' & paths & HR' & HO' & HT & HW).
  assert (r' = r) by congruence. subst r'. assert (bases' = bases) by congruence. subst bases'.
  assert (LV : Forall2 (fun b ls => exists z s n, flat z b /\ passes_needed sd z s n /\ length ls = S n /\
            forall k l, nth_error ls k = Some l -> flat (z + qz (Z.of_nat (n - k)) * s) l) bases paths).
  { clear - HT HB HS RG1 RG2. induction HT as [|b ls bases paths H _ IH]; [constructor|].
    constructor; [|apply IH; intros b' Hb; apply HB; right; exact Hb].
    destruct (HB b ltac:(left; reflexivity)) as ((z & FZ) & HC). unfold profile_toolpaths in H. apply rbind_ok in H as (ls' & H & E).
    injection E as <-. destruct (passes_cases sd HS) as [(s & -> & S0)|NS].
    2:{ exists z, 0, O. split; [exact FZ|]. split; [right; split; [exact NS|reflexivity]|]. rewrite (unstepped_layers _ _ _ _ _ NS) in H. assert (E : ls' = [b]) by congruence. rewrite E. split; [reflexivity|].
        intros [|[|k]] l El; [|discriminate|discriminate]. injection El as <-. cbn [Nat.sub Z.of_nat]. rewrite qz_0. replace (z + 0 * 0) with z by ring. exact FZ. }
    specialize (HC (ex_intro _ s (conj eq_refl (fun E => Qclt_not_eq _ _ S0 (eq_sym E))))). assert (LI : lifts TK WK b).
    { intros dz. rewrite (RG1 _ _ FZ). apply RG1. apply RG2. exact FZ. }
    destruct (profile_layers_ok _ _ _ _ _ _ S0 LI HC H) as (n & HN & HL & HK).
    rewrite (RG1 _ _ FZ) in HN. exists z, s, n. split; [exact FZ|]. split; [left; auto|]. split; [exact HL|].
    intros k l E. assert (Hk : (k <= n)%nat) by (assert (k < length ls')%nat by (apply nth_error_Some; congruence); lia).
    destruct (HK k Hk) as (w & Ew & _ & Hw). rewrite E in Ew. injection Ew as <-. subst l.
    destruct (Nat.eqb_spec k n) as [EQ|_]; [rewrite EQ|].
    - rewrite Nat.sub_diag. cbn [Z.of_nat]. rewrite qz_0. replace (z + 0 * s) with z by ring. exact FZ.
    - replace (z + qz (Z.of_nat (n - k)) * s) with (z + s * qz (Z.of_nat (n - k))) by ring. apply RG2. exact FZ. }
  assert (NE : forall w, In w (map WWire (concat paths)) -> wire_edges w <> []).
  { intros w' Hw. apply in_map_iff in Hw as (l & <- & Hl). cbn. apply in_concat in Hl as (ls & Hls & Hl).
    destruct (Forall2_in_r _ _ _ _ LV Hls) as (b & _ & z & s & n & _ & _ & _ & HK).
    apply In_nth_error in Hl as (k & Hk). destruct (HK k l Hk) as [NE _]. exact NE. }
  destruct (wires_at_heights _ _ _ _ _ _ HW NE) as (gs & -> & HG).
  apply Forall2_map_l in HG. apply Forall2_concat_l in HG as (gss & -> & HG). exists gss.
  split; [clear; induction gss; [reflexivity|]; cbn; rewrite concat_app, IHgss; reflexivity|].
  pose proof (Forall2_compose _ _ _ _ LV _ HG) as F. eapply Forall2_impl; [|exact F]. cbv beta.
  intros b gs (ls & (z & s & n & FZ & HN & HL & HK) & HF). exists z, s, n. split; [exact FZ|]. split; [exact HN|].
  split; [clear - HF HL; rewrite <- HL; symmetry; clear HL; induction HF; cbn; congruence|]. intros k g Hg. destruct (Forall2_nth _ _ _ HF k g Hg) as (l & El & Hcov & Hh).
  specialize (HK k l El). split; [apply Hh; apply HK|]. exists l. split; [exact HK|exact Hcov].
Qed.

(** ** Offsetting wires *)
Lemma lone_circle_iff K w : is_circle_wire K w = true <-> lone_circle K w.
Proof.
  unfold is_circle_wire, lone_circle. split.
  - destruct w as [|e [|]]; try discriminate. intros H. exists e. auto.
  - intros (e & -> & H). exact H.
Qed.
Lemma large_iff WK w : big_enough WK w = true <-> large_wire WK w.
Proof.
  unfold big_enough, large_wire. split.
  - destruct (wk_area WK w) as [a|]; [|discriminate]. intros H. apply qltb_lt in H. eauto.
  - intros (a & -> & H). apply qltb_lt, H.
Qed.
Lemma picked_filter {A} (P : A -> Prop) f l : (forall a, f a = true <-> P a) -> picked P l (filter f l).
Proof.
  intros H. induction l as [|a l IH]; [constructor|]. cbn. destruct (f a) eqn:E; constructor; auto; [apply H, E|]. intros X. apply H in X. congruence.
Qed.
Lemma offset_wire_spec K WK w o out : offset_wire K WK w o = Ok out ->
  (out = [] /\ wk_offset WK w o = Err ValueError /\ wk_offset WK w (o + qq 1 1000000) = Err ValueError) \/
  exists ws o' kept, (o' = o \/ (o' = o + qq 1 1000000 /\ wk_offset WK w o = Err ValueError)) /\ wk_offset WK w o' = Ok ws /\ picked (large_wire WK) ws kept /\
    ((~ lone_circle K (last ws w) /\ out = kept) \/ (lone_circle K (last ws w) /\ out = map (wk_relocate WK (last ws w)) kept)).
Proof.
  intros H. assert (G : forall ws, Ok (circle_bug_workaround K WK (last ws w) (filter (big_enough WK) ws)) = Ok out ->
    picked (large_wire WK) ws (filter (big_enough WK) ws) /\
    ((~ lone_circle K (last ws w) /\ out = filter (big_enough WK) ws) \/ (lone_circle K (last ws w) /\ out = map (wk_relocate WK (last ws w)) (filter (big_enough WK) ws)))).
  { intros ws E. split; [apply picked_filter, large_iff|]. injection E as <-. unfold circle_bug_workaround. destruct (is_circle_wire K (last ws w)) eqn:EC.
    - right. split; [apply lone_circle_iff, EC|reflexivity].
    - left. split; [|reflexivity]. intros X. apply lone_circle_iff in X. congruence. }
  unfold offset_wire, retry_offset in H. destruct (wk_offset WK w o) as [ws|[]] eqn:E1; try discriminate.
  - right. exists ws, o, (filter (big_enough WK) ws). split; [left; reflexivity|]. split; [exact E1|]. exact (G ws H).
  - destruct (wk_offset WK w (o + qq 1 1000000)) as [ws|[]] eqn:E2; try discriminate.
    + right. exists ws, (o + qq 1 1000000), (filter (big_enough WK) ws). split; [right; auto|]. split; [exact E2|]. exact (G ws H).
    + left. injection H as <-. auto.
Qed.
(** Any other error of the kernel goes to the caller. *)
Lemma offset_wire_error K WK w o x : offset_wire K WK w o = Err x <->
  x <> ValueError /\ (wk_offset WK w o = Err x \/ (wk_offset WK w o = Err ValueError /\ wk_offset WK w (o + qq 1 1000000) = Err x)).
Proof.
  unfold offset_wire, retry_offset. split.
  - destruct (wk_offset WK w o) as [ws|[]] eqn:E1; try discriminate; try (intros H; injection H as <-; split; [discriminate|left; reflexivity]).
    destruct (wk_offset WK w (o + qq 1 1000000)) as [ws|[]] eqn:E2; try discriminate; intros H; injection H as <-; (split; [discriminate|]); right; auto.
  - intros (N & [-> | (-> & ->)]); destruct x; try reflexivity; contradiction N; reflexivity.
Qed.

(** ** Wires of shapes *)
Lemma extract_wires_ok shapes : Forall supported shapes ->
  extract_wires shapes = Ok (flat_map outer_of shapes, flat_map inners_of shapes).
Proof.
  induction 1 as [|s ss HS _ IH]; [reflexivity|]. cbn [extract_wires flat_map]. rewrite IH.
  destruct s; [reflexivity|reflexivity|]. destruct (HS eq_refl).
Qed.
Lemma extract_wires_err shapes x : extract_wires shapes = Err x <-> x = ValueError /\ In SOther shapes.
Proof.
  induction shapes as [|s ss IH]; cbn [extract_wires]; [split; [discriminate|intros [_ []]]|].
  destruct s; cbn [rbind].
  - destruct (extract_wires ss) as [[os is_]|y]; cbn [rbind].
    + split; [discriminate|]. intros (-> & [E|HI]); [discriminate|]. exfalso. assert (K : @Ok (list (list edge) * list (list edge)) (os, is_) = Err ValueError) by (apply IH; auto). discriminate K.
    + split; [intros E; apply IH in E as [-> HI]; auto using in_cons|intros (-> & [E|HI]); [discriminate|apply IH; auto]].
  - destruct (extract_wires ss) as [[os is_]|y]; cbn [rbind].
    + split; [discriminate|]. intros (-> & [E|HI]); [discriminate|]. exfalso. assert (K : @Ok (list (list edge) * list (list edge)) (os, is_) = Err ValueError) by (apply IH; auto). discriminate K.
    + split; [intros E; apply IH in E as [-> HI]; auto using in_cons|intros (-> & [E|HI]); [discriminate|apply IH; auto]].
  - split; [intros [= <-]; split; [reflexivity|left; reflexivity]|intros [-> _]; reflexivity].
Qed.
Lemma supported_dec shapes : Forall supported shapes \/ In SOther shapes.
Proof.
  induction shapes as [|s ss [IH|IH]]; [left; constructor| |right; right; exact IH].
  destruct s; [left; constructor; [discriminate|exact IH]|left; constructor; [discriminate|exact IH]|right; left; reflexivity].
Qed.

Lemma profile_group_spec K TK WK j sd t wires o cmds : profile_group K TK WK j sd t wires o = Ok cmds ->
  profiled_with (fun w o => profile K TK WK j w o sd t) wires o cmds.
Proof.
  unfold profile_group, profiled_with. destruct o as [o|]; [|intros [= <-]; reflexivity].
  intros H. apply rbind_ok in H as (gs & H & E). injection E as <-. exists gs. split; [reflexivity|apply mapM_Forall2; exact H].
Qed.

Lemma job_profile_inner_first K TK WK h r shapes oo io sd t tl h' r' :
  job_profile K TK WK h r shapes oo io sd t tl = (h', Ok r') ->
  Forall supported shapes /\
  exists j ju j' pre ci co, hget h r = Some j /\ settings_of ju = tool_settings j tl /\ same_frame j ju /\
    hget h' r' = Some j' /\ j_operations j' = pre ++ [Op r' "Profile" (map Motion (ci ++ co))] /\
    profiled_with (fun w o => profile K TK WK ju w o sd t) (flat_map inners_of shapes) io ci /\
    profiled_with (fun w o => profile K TK WK ju w o sd t) (flat_map outer_of shapes) oo co.
Proof.
  unfold job_profile. destruct (hget h r) as [j|] eqn:Hj; [|discriminate].
  destruct (negb (is_some (j_tool_diameter j))); [discriminate|].
  destruct (negb (is_some oo) && negb (is_some io)); [discriminate|].
  destruct (supported_dec shapes) as [HS|HS].
  - rewrite (extract_wires_ok _ HS). intros E. split; [exact HS|].
    destruct (history_append _ _ _ _ _ _ _ _ Hj E) as (_ & j' & mid & ju & cmds & H1 & H2 & H3 & H4 & H5 & _).
    unfold profile_gen in H3. apply rbind_ok in H3 as (ci & HI & H3). apply rbind_ok in H3 as (co & HO & H3). injection H3 as <-.
    exists j, ju, j', (j_operations j ++ mid), ci, co. split; [reflexivity|]. split; [exact H4|]. split; [exact H5|]. split; [exact H1|].
    split; [rewrite H2, app_assoc; reflexivity|].
    split; apply profile_group_spec; assumption.
  - destruct (extract_wires shapes) as [[os is_]|x] eqn:E.
    + assert (C : extract_wires shapes = Err ValueError) by (apply extract_wires_err; auto). congruence.
    + discriminate.
Qed.

(** ** Checks of the arguments *)
Lemma job_profile_rejects K TK WK h r j shapes oo io sd t tl : hget h r = Some j ->
  (j_tool_diameter j = None \/ (oo = None /\ io = None) \/ In SOther shapes ->
   job_profile K TK WK h r shapes oo io sd t tl = (h, Err ValueError)) /\
  (~ (j_tool_diameter j = None \/ (oo = None /\ io = None) \/ In SOther shapes) ->
   job_profile K TK WK h r shapes oo io sd t tl =
     fluent_op h r tl "Profile" (profile_gen K TK WK (flat_map outer_of shapes) (flat_map inners_of shapes) oo io sd t)).
Proof.
  intros Hj. unfold job_profile. rewrite Hj. split.
  - intros H. destruct (j_tool_diameter j); cbn [is_some negb]; [|reflexivity].
    destruct (negb (is_some oo) && negb (is_some io)) eqn:EO; [reflexivity|].
    destruct H as [H|[[-> ->]|H]]; [discriminate|discriminate|].
    rewrite (proj2 (extract_wires_err shapes ValueError) (conj eq_refl H)). reflexivity.
  - intros H. destruct (j_tool_diameter j); cbn [is_some negb]; [|destruct H; auto].
    destruct (negb (is_some oo) && negb (is_some io)) eqn:EO.
    + destruct H. right. left. destruct oo, io; try discriminate; auto.
    + destruct (supported_dec shapes) as [HS|HS]; [|destruct H; auto]. rewrite (extract_wires_ok _ HS). reflexivity.
Qed.

(** Without a usable diameter every profile and wire profile of a wire fails with TypeError. *)
Lemma profile_no_radius K TK WK j w o sd t : tool_radius j = None -> profile K TK WK j w o sd t = Err TypeError.
Proof. intros H. unfold profile. rewrite H. reflexivity. Qed.
Lemma wire_profile_no_radius K TK WK h r j w ws o sd t : hget h r = Some j -> tool_radius j = None ->
  job_wire_profile K TK WK h r (w :: ws) o sd t None = (h, Err TypeError).
Proof.
  intros Hj HT. unfold job_wire_profile, fluent_op. rewrite Hj. cbn [update_tool]. rewrite Hj.
  unfold wire_profile_gen, profile_group. cbn [mapM]. rewrite profile_no_radius by exact HT. reflexivity.
Qed.
Lemma zero_diameter_accepted K TK WK h r j w o sd t :
  hget h r = Some j -> j_tool_diameter j = Some 0 ->
  job_profile K TK WK h r [SWire w] (Some o) None sd t None = (h, Err TypeError).
Proof.
  intros Hj HD. destruct (job_profile_rejects K TK WK h r j [SWire w] (Some o) None sd t None Hj) as [_ E].
  rewrite E. 2:{ rewrite HD. intros [H|[[H _]|[H|[]]]]; discriminate. }
  unfold fluent_op. rewrite Hj. cbn [update_tool]. rewrite Hj. unfold profile_gen, profile_group. cbn [rbind flat_map outer_of inners_of app mapM].
  rewrite profile_no_radius; [reflexivity|]. unfold tool_radius. rewrite HD. rewrite qeqb_refl. reflexivity.
Qed.
Lemma profile_motion_gen K TK WK os is_ oo io sd t : motion_gen (profile_gen K TK WK os is_ oo io sd t).
Proof.
  intros j cmds H. unfold profile_gen in H. apply rbind_ok in H as (ci & _ & H). apply rbind_ok in H as (co & _ & H).
  injection H as <-. eexists. reflexivity.
Qed.
Lemma wire_profile_motion_gen K TK WK ws o sd t : motion_gen (wire_profile_gen K TK WK ws o sd t).
Proof. intros j cmds H. unfold wire_profile_gen in H. apply rbind_ok in H as (ci & _ & H). injection H as <-. eexists. reflexivity. Qed.

Lemma layers_determined z s : 0 < s -> exists n, layers_needed z s n /\ forall m, layers_needed z s m -> n = m.
Proof.
  intros HS. destruct (layers_needed_ex z s HS) as [n HN]. exists n. split; [exact HN|]. intros m HM. eapply layers_needed_unique; eauto.
Qed.
