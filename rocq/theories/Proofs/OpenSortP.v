(** What sorting does to open paths (C55). *)
From Verif Require Import Base.Py Model.Strategy Spec.Paths Spec.Zigzag Proofs.GeomP Proofs.FillP Proofs.DrillP Proofs.LinkedP Proofs.ZigzagP Proofs.ZigzagMultiP Proofs.StepdownP Proofs.ZigzagThmP Proofs.ZigzagEx Proofs.RouteEx.
From Coq Require Import Permutation Lia.
Local Open Scope Qc_scope.
Local Open Scope list_scope.

Lemma sort_path_open_exact target p q : sort_path target p = Ok q -> ~ closed_path p ->
  exists before n after, p = before ++ n :: after /\ q = (n :: after) ++ before /\
    (forall b, In b before -> sqd target n < sqd target b) /\ (forall b, In b after -> sqd target n <= sqd target b).
Proof.
  unfold sort_path. destruct p as [|a l]; [discriminate|]. intros H NC.
  destruct (pt_eqb a (last (a :: l) a)) eqn:EA.
  { exfalso. apply NC. apply pt_eqb_iff in EA. exists a, l. split; [reflexivity|]. symmetry. exact EA. }
  destruct (pick_nearest_spec target (a :: l)) as (n & r1 & r2 & EN & E & H1 & H2); [discriminate|]. rewrite EN in H. cbn [rbind] in H.
  rewrite E, py_index_app in H by (exact (nearest_not_before _ _ _ H1)). cbn [rbind] in H.
  rewrite firstn_here in H by reflexivity. rewrite skipn_here in H by reflexivity. injection H as <-.
  exists r1, n, r2. auto.
Qed.

Lemma open_sorted a p rest rest' : sort_clipper_output ((a :: p) :: rest) = Ok ((a :: p) :: rest') ->
  let target := last (a :: p) a in
  Forall2 (fun p q : path => ~ closed_path p -> exists before n after, p = before ++ n :: after /\ q = (n :: after) ++ before /\
    (forall b, In b before -> sqd target n < sqd target b) /\ (forall b, In b after -> sqd target n <= sqd target b)) rest rest'.
Proof.
  intros H target. cbn [sort_clipper_output] in H. apply rbind_ok in H. destruct H as (r & HM & H). injection H as <-.
  apply mapM_iff in HM. fold target in HM. revert HM. generalize target. intros t HM.
  induction HM as [|x y rest r HX HM IH]; constructor; [|exact IH]. intros NC. eapply sort_path_open_exact; eassumption.
Qed.

Lemma kept_exactly target (p q before after : path) n : p = before ++ n :: after -> q = (n :: after) ++ before ->
  (forall b, In b before -> sqd target n < sqd target b) -> (forall b, In b after -> sqd target n <= sqd target b) ->
  forall h t, p = h :: t -> (q = p <-> forall b, In b p -> sqd target h <= sqd target b).
Proof.
  intros -> -> H1 H2 h t EH. split.
  - intros E. rewrite EH in E. cbn [app] in E. injection E as -> _. intros b Hb. apply in_app_or in Hb.
    destruct Hb as [Hb|[<-|Hb]]; [apply Qclt_le_weak, H1, Hb|apply Qcle_refl|apply H2, Hb].
  - intros HN. destruct before as [|x before]; [rewrite app_nil_r; reflexivity|]. exfalso. cbn [app] in EH. injection EH as -> _.
    apply (Qclt_not_le _ _ (H1 h ltac:(left; reflexivity))). apply HN. apply in_or_app. right; left; reflexivity.
Qed.

(** Open paths: cut in two at the nearest point, the parts exchanged; kept if that point is the first. *)
Theorem sort_open a p rest rest' : sort_clipper_output ((a :: p) :: rest) = Ok ((a :: p) :: rest') ->
  let target := last (a :: p) a in
  Forall2 (fun p q : path => ~ closed_path p ->
    (exists before after, p = before ++ after /\ q = after ++ before) /\
    (q = p <-> forall h t, p = h :: t -> forall b, In b p -> sqd target h <= sqd target b)) rest rest'.
Proof.
  intros H target. pose proof (open_sorted _ _ _ _ H) as HO. fold target in HO. cbv zeta in HO.
  eapply Forall2_impl; [|exact HO]. intros x y K NC. destruct (K NC) as (bf & n & af & E1 & E2 & H1 & H2).
  split; [exists bf, (n :: af); auto|].
  destruct x as [|h t]; [destruct bf; discriminate E1|].
  pose proof (kept_exactly target _ _ _ _ _ E1 E2 H1 H2 h t eq_refl) as KE. rewrite KE. split.
  - intros HN h' t' [= <- <-]. exact HN.
  - intros HN. exact (HN h t eq_refl).
Qed.

(** ** Neighbours on a linked polygon (C54) *)
Lemma first_way_here a l free w q : In a free -> first_way (a :: l) free w q -> w = [] /\ q = a.
Proof.
  intros HA ((rest & E) & HQ & HW). destruct w as [|u w]; cbn [app] in E; injection E as E1 E2; [split; congruence|].
  exfalso. apply (HW u); [left; reflexivity|]. congruence.
Qed.
Lemma nearest_neighbours lp p x y free a m b :
  lp_polygon lp = x ++ p :: y -> ~ In p x -> Permutation (lp_free lp) (p :: free) -> ~ In p free ->
  y ++ x = a :: m ++ [b] -> In a free -> In b free ->
  exists q lp', nearest_linked lp p = Ok (Some [q], lp') /\ (q = a \/ q = b) /\ sqd p q <= sqd p a /\ sqd p q <= sqd p b.
Proof.
  intros EP NX HF NF E HA HB.
  assert (HE : exists q, In q (x ++ y) /\ In q free).
  { exists a. split; [|exact HA]. assert (I : In a (y ++ x)) by (rewrite E; left; reflexivity). apply in_app_or in I. apply in_or_app. tauto. }
  destruct (nearest_direction lp p x y free EP NX HF NF HE) as (w & q & lp' & HN & HW & HM).
  assert (ER : rev (y ++ x) = b :: rev m ++ [a]).
  { rewrite E. cbn [rev]. rewrite rev_app_distr. reflexivity. }
  assert (K1 : first_way (y ++ x) free [] a) by (rewrite E; split; [eexists; reflexivity|split; [exact HA|intros u []]]).
  assert (K2 : first_way (rev (y ++ x)) free [] b) by (rewrite ER; split; [eexists; reflexivity|split; [exact HB|intros u []]]).
  pose proof (HM _ _ (or_introl K1)) as M1. pose proof (HM _ _ (or_intror K2)) as M2.
  assert (WQ : w = [] /\ (q = a \/ q = b)).
  { destruct HW as [HW|HW]; [rewrite E in HW; destruct (first_way_here _ _ _ _ _ HA HW)|rewrite ER in HW; destruct (first_way_here _ _ _ _ _ HB HW)]; auto. }
  destruct WQ as [-> HQ]. exists q, lp'. split; [exact HN|]. split; [exact HQ|].
  cbn [app sum_sqd fold_right] in M1, M2. rewrite !Qcplus_0_r in M1, M2. auto.
Qed.

(** ** Examples *)
Definition ex_open_paths : list path := [[zp 0 0; zp 9 0]; [zp 0 5; zp 5 5; zp 9 5; zp 20 5]; [zp 9 9; zp 0 9; zp 0 20]].
Definition ex_open_sorted : list path := [[zp 0 0; zp 9 0]; [zp 9 5; zp 20 5; zp 0 5; zp 5 5]; [zp 9 9; zp 0 9; zp 0 20]].
Lemma ex_open : sort_clipper_output ex_open_paths = Ok ex_open_sorted /\ Forall (fun p => ~ closed_path p) ex_open_paths.
Proof.
  split; [apply is_paths_ok; vm_compute; reflexivity|].
  assert (G : forall a l b, a <> b -> ~ closed_path ((a :: l) ++ [b])).
  { intros a l b N (h & t & EH & EL). cbn [app] in EH. injection EH as <- <-. change (a :: l ++ [b]) with ((a :: l) ++ [b]) in EL. rewrite last_last in EL. congruence. }
  apply Forall_cons; [apply (G _ [])|apply Forall_cons; [apply (G _ [zp 5 5; zp 9 5])|apply Forall_cons; [apply (G _ [zp 0 9])|constructor]]];
    intros C; apply pt_eqb_iff in C; vm_compute in C; discriminate.
Qed.
Definition ex_beside : linked := LP [zp 0 0; zp 1 0; zp 5 0; zp 5 3; zp 0 3] [zp 0 0; zp 1 0; zp 0 3] [zp 0 0; zp 1 0; zp 0 3].
Lemma ex_beside_walk : exists lp', nearest_linked ex_beside (zp 0 0) = Ok (Some [zp 1 0], lp').
Proof. eexists. vm_compute. reflexivity. Qed.
