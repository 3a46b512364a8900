(** * Proofs about contour trees *)
From Verif Require Import Base.Py Model.Tree Spec.Trees.
From Coq Require Import Permutation Arith Lia.
Local Open Scope nat_scope.
Local Open Scope list_scope.

Section Wf.
Context {A : Type}.
Implicit Types t : tree A.

Definition wf t : Prop :=
  (exists n, nth_error t 0 = Some n /\ n_parent n = None) /\
  forall i n, nth_error t i = Some n -> i > 0 -> exists p, n_parent n = Some p /\ p < i.

Lemma lock_length t i : length (lock t i) = length t.
Proof. revert i. induction t as [|n t IH]; intros [|i]; simpl; auto. Qed.
Lemma lock_nth t i k : nth_error (lock t i) k =
  match nth_error t k with Some n => Some (if Nat.eqb k i then Node (n_obj n) (n_parent n) true else n) | None => None end.
Proof.
  revert i k. induction t as [|n t IH]; intros [|i] [|k]; simpl; try reflexivity.
  - destruct (nth_error t k); reflexivity.
  - rewrite IH. reflexivity.
Qed.
Lemma branch_nth t i bs k : nth_error (branch t i bs) k =
  if k <? length t then nth_error t k else option_map (fun b => Node b (Some i) false) (nth_error bs (k - length t)).
Proof.
  unfold branch. destruct (Nat.ltb_spec k (length t)).
  - apply nth_error_app1. assumption.
  - rewrite nth_error_app2 by assumption. apply nth_error_map.
Qed.

Lemma grown_wf t : grown t -> wf t.
Proof.
  induction 1 as [root|t i bs H IH Hi|t i H IH].
  - split; [eexists; split; reflexivity|]. intros [|i] n E; [lia|]. destruct i; discriminate.
  - destruct IH as [(n0 & E0 & P0) IH]. split.
    + exists n0. rewrite branch_nth. destruct (Nat.ltb_spec 0 (length t)); [auto|lia].
    + intros k n E K. rewrite branch_nth in E. destruct (Nat.ltb_spec k (length t)); [eauto|].
      destruct (nth_error bs (k - length t)); [|discriminate]. injection E as <-. exists i. split; [reflexivity|lia].
  - destruct IH as [(n0 & E0 & P0) IH]. split.
    + rewrite lock_nth, E0. eexists. split; [reflexivity|]. destruct (Nat.eqb 0 i); assumption.
    + intros k n E K. rewrite lock_nth in E. destruct (nth_error t k) as [m|] eqn:EM; [|discriminate]. injection E as <-.
      destruct (IH k m EM K) as (p & HP & HL). exists p. destruct (Nat.eqb k i); auto.
Qed.

Inductive upath t : nat -> list nat -> Prop :=
| path_root i n : nth_error t i = Some n -> n_parent n = None -> upath t i [i]
| path_step i p l : is_parent t p i -> upath t p l -> upath t i (i :: l).

Lemma is_parent_fun t p q i : is_parent t p i -> is_parent t q i -> p = q.
Proof. intros (n & E & P) (m & F & Q). congruence. Qed.
Lemma wf_parent_lt t p i : wf t -> is_parent t p i -> p < i.
Proof.
  intros [(n0 & E0 & P0) W] (n & E & P). destruct i; [congruence|]. destruct (W _ _ E ltac:(lia)) as (q & Q & L). congruence.
Qed.
Lemma is_parent_bound t p i : is_parent t p i -> i < length t.
Proof. intros (n & E & _). apply nth_error_Some. congruence. Qed.

Lemma traverse_path t : wf t -> forall i fuel, i < length t -> i < fuel ->
  exists l, traverse fuel t i = Ok l /\ upath t i l.
Proof.
  intros W i. induction i as [i IH] using (well_founded_induction lt_wf). intros [|fuel] Hi Hf; [lia|].
  cbn [traverse]. destruct (nth_error t i) as [n|] eqn:E; [|apply nth_error_None in E; lia].
  destruct (n_parent n) as [p|] eqn:P.
  - assert (HP : is_parent t p i) by (exists n; auto). assert (L := wf_parent_lt _ _ _ W HP).
    destruct (IH p L fuel ltac:(lia) ltac:(lia)) as (l & -> & HL). cbn [rbind]. eexists. split; [reflexivity|]. econstructor; eassumption.
  - eexists. split; [reflexivity|]. econstructor; eassumption.
Qed.

Lemma path_bound t i l : upath t i l -> Forall (fun k => k < length t) l.
Proof.
  induction 1 as [i n E _|i p l HP _ IH].
  - constructor; [apply nth_error_Some; congruence|constructor].
  - constructor; [eapply is_parent_bound; eassumption|exact IH].
Qed.
Lemma path_head t i l : upath t i l -> exists r, l = i :: r.
Proof. destruct 1; eauto. Qed.
Lemma path_le t i l : wf t -> upath t i l -> Forall (fun k => k <= i) l.
Proof.
  intros W. induction 1 as [i n E _|i p l HP _ IH]; constructor; auto.
  pose proof (wf_parent_lt _ _ _ W HP). eapply Forall_impl; [|exact IH]. intros; simpl in *; lia.
Qed.
Lemma path_nodup t i l : wf t -> upath t i l -> NoDup l.
Proof.
  intros W. induction 1 as [i n E _|i p l HP H IH].
  - constructor; [intros []|constructor].
  - constructor; [|exact IH]. intros C. pose proof (path_le _ _ _ W H) as HL. rewrite Forall_forall in HL.
    specialize (HL _ C). pose proof (wf_parent_lt _ _ _ W HP). lia.
Qed.
(** Elements of a path other than its head are parents. *)
Lemma path_tail_parent t i l k : upath t i l -> In k l -> k = i \/ exists c, is_parent t k c.
Proof.
  induction 1 as [i n E _|i p l HP H IH]; intros [<-|C]; auto.
  - destruct C.
  - destruct (IH C) as [->|Hc]; [right; eauto|right; exact Hc].
Qed.

Lemma leaves_spec t i : In i (leaves t) <-> is_leaf t i.
Proof.
  unfold leaves. rewrite filter_In, in_seq, negb_true_iff.
  assert (E : existsb (Nat.eqb i) (tree_parents t) = true <-> exists k, is_parent t i k).
  { rewrite existsb_exists. split.
    - intros (x & Hx & Ex). apply Nat.eqb_eq in Ex. subst x. unfold tree_parents in Hx. apply in_flat_map in Hx.
      destruct Hx as (n & Hn & HI). apply In_nth_error in Hn. destruct Hn as (k & Hk). exists k, n. split; [exact Hk|].
      destruct (n_parent n); [|destruct HI]. destruct HI as [->|[]]. reflexivity.
    - intros (k & n & Hk & HP). exists i. split; [|apply Nat.eqb_refl]. unfold tree_parents. apply in_flat_map.
      exists n. split; [eapply nth_error_In; exact Hk|]. rewrite HP. left; reflexivity. }
  split.
  - intros ((_ & H) & HF). split; [exact H|]. intros k Hk.
    assert (C : existsb (Nat.eqb i) (tree_parents t) = true) by (apply E; eauto). congruence.
  - intros (H & HN). split; [lia|]. destruct (existsb (Nat.eqb i) (tree_parents t)) eqn:EE; [|reflexivity].
    destruct (proj1 E eq_refl) as (k & Hk). exfalso. exact (HN _ Hk).
Qed.
Lemma leaves_nodup t : NoDup (leaves t).
Proof. apply NoDup_filter, seq_NoDup. Qed.

(** Every node is above a leaf. *)
Lemma above_leaf t : wf t -> forall i, i < length t -> exists l P, is_leaf t l /\ upath t l P /\ In i P.
Proof.
  intros W.
  assert (H : forall d i, length t - i = d -> i < length t -> forall c P, upath t c P -> In i P -> c = i ->
     exists l P, is_leaf t l /\ upath t l P /\ In i P).
  { intros d. induction d as [d IH] using (well_founded_induction lt_wf). intros i Hd Hi c P HP HI ->.
    destruct (existsb (Nat.eqb i) (tree_parents t)) eqn:EE.
    - apply existsb_exists in EE. destruct EE as (x & Hx & Ex). apply Nat.eqb_eq in Ex. subst x.
      unfold tree_parents in Hx. apply in_flat_map in Hx. destruct Hx as (n & Hn & HIn). apply In_nth_error in Hn. destruct Hn as (k & Hk).
      assert (Hpar : is_parent t i k). { exists n. split; [exact Hk|]. destruct (n_parent n); [|destruct HIn]. destruct HIn as [->|[]]. reflexivity. }
      pose proof (wf_parent_lt _ _ _ W Hpar). pose proof (is_parent_bound _ _ _ Hpar).
      destruct (IH (length t - k) ltac:(lia) k eq_refl ltac:(lia) k (k :: P) (path_step t k i P Hpar HP) (or_introl eq_refl) eq_refl) as (l & Q & HL & HQ & HkQ).
      exists l, Q. split; [exact HL|]. split; [exact HQ|]. clear - HQ HkQ Hpar HI.
      induction HQ as [j m E Pn|j p l HP H IH].
      + destruct HkQ as [->|[]]. destruct Hpar as (n' & E' & P'). congruence.
      + destruct HkQ as [->|C].
        * rewrite <- (is_parent_fun _ _ _ _ Hpar HP) in H. right. destruct (path_head _ _ _ H) as (r & ->). left; reflexivity.
        * right. apply IH. exact C.
    - exists i, P. split; [|auto]. apply leaves_spec. unfold leaves. rewrite filter_In, in_seq, EE. split; [lia|reflexivity]. }
  intros i Hi. destruct (traverse_path t W i (S i) Hi ltac:(lia)) as (P & _ & HP).
  destruct (path_head _ _ _ HP) as (r & ->).
  eapply (H _ i eq_refl Hi i (i :: r) HP); [left; reflexivity|reflexivity].
Qed.
End Wf.

Lemma Forall2_flip {B C} (R : B -> C -> Prop) l k : Forall2 R l k -> Forall2 (fun c b => R b c) k l.
Proof. induction 1; constructor; auto. Qed.

Lemma nodup_app {B} (l k : list B) : NoDup l -> NoDup k -> (forall x, In x k -> ~ In x l) -> NoDup (l ++ k).
Proof.
  intros HL HK HD. induction l as [|a l IH]; [exact HK|]. inversion HL; subst. cbn. constructor.
  - intros C. apply in_app_or in C. destruct C as [C|C]; [contradiction|]. apply (HD a C). left; reflexivity.
  - apply IH; [assumption|]. intros x Hx Hc. apply (HD x Hx). right; exact Hc.
Qed.

(** ** Sorting *)
Lemma insert_perm {B} (x : list B) l : Permutation (insert_desc x l) (x :: l).
Proof.
  induction l as [|y l IH]; [reflexivity|]. cbn [insert_desc]. destruct (length y <=? length x); [reflexivity|].
  rewrite IH. apply perm_swap.
Qed.
Lemma sort_perm {B} (l : list (list B)) : Permutation (sort_desc l) l.
Proof. induction l as [|x l IH]; [reflexivity|]. cbn. rewrite insert_perm, IH. reflexivity. Qed.
Lemma insert_head {B} (x : list B) l : (forall y r, l = y :: r -> Forall (fun z => length z <= length y) l) ->
  forall y r, insert_desc x l = y :: r -> Forall (fun z => length z <= length y) (insert_desc x l).
Proof.
  intros HL y r E. destruct l as [|z l].
  - cbn in *. injection E as <- <-. constructor; auto.
  - specialize (HL z l eq_refl). cbn [insert_desc] in *. destruct (length z <=? length x) eqn:EL.
    + apply Nat.leb_le in EL. injection E as <- <-. constructor; [auto|]. eapply Forall_impl; [|exact HL]. intros; simpl in *; lia.
    + apply Nat.leb_gt in EL. injection E as <- <-. inversion HL; subst. constructor; [auto|].
      rewrite (insert_perm x l). constructor; [lia|assumption].
Qed.
Lemma sort_head {B} (l : list (list B)) y r : sort_desc l = y :: r -> Forall (fun z => length z <= length y) (y :: r).
Proof.
  intros E. rewrite <- E. revert y r E. induction l as [|x l IH]; intros y r E; [discriminate|].
  cbn in *. eapply insert_head; eassumption.
Qed.

(** ** The loop on node positions *)
Section Loop.
Context {A : Type} (t : tree A) (W : wf t).
Definition fresh (U : list nat) (x : nat) : bool := negb (existsb (Nat.eqb x) U).
Lemma fresh_in U x : fresh U x = true <-> ~ In x U.
Proof.
  unfold fresh. rewrite negb_true_iff. split.
  - intros H C. assert (E : existsb (Nat.eqb x) U = true) by (apply existsb_exists; exists x; split; [exact C|apply Nat.eqb_refl]). congruence.
  - intros H. destruct (existsb (Nat.eqb x) U) eqn:E; [|reflexivity]. apply existsb_exists in E. destruct E as (y & Hy & Ey).
    apply Nat.eqb_eq in Ey. subst. contradiction.
Qed.
Definition closed_up (U : list nat) : Prop := forall i p, In i U -> is_parent t p i -> In p U.

Lemma filter_none U P : (forall x, In x P -> In x U) -> filter (fresh U) P = [].
Proof.
  induction P as [|x P IH]; intros H; [reflexivity|]. cbn [filter]. destruct (fresh U x) eqn:E.
  - apply fresh_in in E. exfalso. apply E, H. left; reflexivity.
  - apply IH. intros y Hy. apply H. right; exact Hy.
Qed.
Lemma path_closed U i P : closed_up U -> upath t i P -> In i U -> forall x, In x P -> In x U.
Proof.
  intros C. induction 1 as [i n E _|i p l HP H IH]; intros HI x [<-|Hx]; try exact HI.
  - destruct Hx.
  - apply IH; [eapply C; eassumption|exact Hx].
Qed.

(** The rest of a path: upward, and stopping at the root or below a used node. *)
Lemma rest_upward U i P : closed_up U -> upath t i P ->
  upward t (filter (fresh U) P) /\
  (forall x p, last (filter (fresh U) P) x = x -> In x (filter (fresh U) P) -> is_parent t p x -> In p U) /\
  (~ In i U -> exists r, filter (fresh U) P = i :: r) /\
  (forall x p, In x (filter (fresh U) P) -> is_parent t p x -> In p (filter (fresh U) P) \/ In p U).
Proof.
  intros C. induction 1 as [i n E HN|i p l HP H IH].
  - cbn [filter]. destruct (fresh U i) eqn:F; cbn.
    + split; [exact I|]. split; [|split; [intros _; eauto|]].
      * intros x p _ [<-|[]] (m & Em & Pm). congruence.
      * intros x p [<-|[]] (m & Em & Pm). congruence.
    + split; [exact I|]. split; [tauto|]. split; [|tauto]. intros HI. apply fresh_in in HI. congruence.
  - destruct IH as (I1 & I2 & I3 & I4). cbn [filter]. destruct (fresh U i) eqn:F.
    + destruct (in_dec Nat.eq_dec p U) as [HU|HU].
      * rewrite (filter_none U l) by (apply (path_closed U p); assumption).
        split; [exact I|]. split; [|split; [intros _; eauto|]].
        -- intros x q _ [<-|[]] HQ. rewrite <- (is_parent_fun _ _ _ _ HP HQ). exact HU.
        -- intros x q [<-|[]] HQ. rewrite <- (is_parent_fun _ _ _ _ HP HQ). right; exact HU.
      * destruct (I3 HU) as (r & Er). rewrite Er in *. split; [split; assumption|]. split; [|split; [intros _; eauto|]].
        -- intros x q HL HI HQ. apply (I2 x q); auto. destruct HI as [<-|HI]; [|exact HI].
           exfalso. clear - HL F HP H Er W.
           change (last (i :: p :: r) i) with (last (p :: r) i) in HL.
           assert (HI : In i (p :: r)). { rewrite <- HL at 1. clear. generalize p. induction r as [|a r IH]; intros q; [left; reflexivity|]. right. apply IH. }
           assert (HIl : In i l). { assert (In i (filter (fresh U) l)) by (rewrite Er; exact HI). apply filter_In in H0. tauto. }
           pose proof (path_nodup _ _ _ W (path_step t i p l HP H)) as ND. inversion ND; contradiction.
        -- intros x q [<-|HI] HQ.
           ++ rewrite <- (is_parent_fun _ _ _ _ HP HQ). left. right. left. reflexivity.
           ++ destruct (I4 x q HI HQ) as [K|K]; [left; right; exact K|right; exact K].
    + split; [exact I1|]. split; [exact I2|]. split; [|exact I4].
      intros HI. apply fresh_in in HI. congruence.
Qed.

Definition candidate U (l : nat) (c : list nat) : Prop := exists P, upath t l P /\ c = filter (fresh U) P.

Lemma filter_twice U c P : filter (fresh (U ++ c)) (filter (fresh U) P) = filter (fresh (U ++ c)) P.
Proof.
  induction P as [|x P IH]; [reflexivity|]. cbn [filter]. destruct (fresh U x) eqn:E; cbn [filter].
  - rewrite IH. reflexivity.
  - destruct (fresh (U ++ c) x) eqn:E2; [|exact IH]. apply fresh_in in E2.
    assert (fresh U x = true) by (apply fresh_in; intros C; apply E2, in_or_app; left; exact C). congruence.
Qed.
Lemma filter_le {B} (f : B -> bool) l : length (filter f l) <= length l.
Proof. induction l as [|x l IH]; cbn; [lia|]. destruct (f x); cbn; lia. Qed.

Lemma loop_spec fuel : forall cs U ls, length cs <= fuel -> closed_up U -> NoDup ls ->
  (forall l, In l ls -> is_leaf t l /\ ~ In l U) -> Forall2 (candidate U) ls cs ->
  let idx := sequences_loop Nat.eqb fuel cs U in
  NoDup (concat idx) /\ (forall x, In x (concat idx) -> ~ In x U) /\
  (forall l P x, In l ls -> upath t l P -> In x P -> In x U \/ In x (concat idx)) /\
  Forall (fun s => upward t s /\ exists i rest, s = i :: rest /\ is_leaf t i) idx /\
  (forall i, In i ls -> exists rest, In (i :: rest) idx) /\
  (descending (map (@length nat) idx) /\ forall b, Forall (fun c => length c <= b) cs -> Forall (fun s => length s <= b) idx) /\
  (forall before s after i p, idx = before ++ s :: after -> last s i = i -> In i s -> is_parent t p i ->
       In p U \/ exists s', In s' before /\ In p s').
Proof.
  assert (nothing : forall U, NoDup (concat (@nil (list nat))) /\ (forall x, In x (concat (@nil (list nat))) -> ~ In x U) /\
    (forall l P x, In l (@nil nat) -> upath t l P -> In x P -> In x U \/ In x (concat [])) /\
    Forall (fun s => upward t s /\ exists i rest, s = i :: rest /\ is_leaf t i) [] /\
    (forall i, In i (@nil nat) -> exists rest, In (i :: rest) []) /\
    (descending (map (@length nat) []) /\ forall b, Forall (fun c => length c <= b) (@nil (list nat)) -> Forall (fun s => length s <= b) (@nil (list nat))) /\
    (forall before s after i p, [] = before ++ s :: after -> last s i = i -> In i s -> is_parent t p i ->
       In p U \/ exists s', In s' before /\ In p s')).
  { intros U. cbn. split; [constructor|]. split; [tauto|]. split; [tauto|]. split; [constructor|]. split; [tauto|]. split; [auto|].
    intros before s after i p E. destruct before; discriminate. }
  induction fuel as [|fuel IH]; intros cs U ls Hn HC ND HL HF; cbv zeta; cbn [sequences_loop].
  - destruct cs; [|simpl in Hn; lia]. inversion HF; subst. apply nothing.
  - destruct (sort_desc cs) as [|c0 cs'] eqn:ES.
    + assert (cs = []) by (apply Permutation_nil; rewrite <- ES; apply sort_perm). subst cs. inversion HF; subst. apply nothing.
    + assert (PS : Permutation cs (c0 :: cs')) by (rewrite <- ES; symmetry; apply sort_perm).
      apply Forall2_flip in HF. destruct (Permutation_Forall2 PS HF) as (ls2 & PL & HF2).
      inversion HF2 as [|? l0 ? ls' HC0 HFr]; subst. clear HF HF2.
      destruct HC0 as (P0 & HP0 & EC0).
      assert (ND2 : NoDup (l0 :: ls')) by (eapply Permutation_NoDup; eassumption).
      assert (HL2 : forall l, In l (l0 :: ls') -> is_leaf t l /\ ~ In l U) by (intros l Hl; apply HL; eapply Permutation_in; [symmetry; exact PL|exact Hl]).
      destruct (rest_upward U l0 P0 HC HP0) as (R1 & R2 & R3 & R4). rewrite <- EC0 in *.
      destruct (R3 (proj2 (HL2 l0 (or_introl eq_refl)))) as (r0 & Er0).
      assert (HC' : closed_up (U ++ c0)).
      { intros i p Hi Hp. apply in_or_app. apply in_app_or in Hi. destruct Hi as [Hi|Hi]; [left; eapply HC; eassumption|].
        destruct (R4 i p Hi Hp) as [K|K]; auto. }
      inversion ND2 as [|? ? NI ND3]; subst x l.
      assert (HL' : forall l, In l ls' -> is_leaf t l /\ ~ In l (U ++ c0)).
      { intros l Hl. destruct (HL2 l (or_intror Hl)) as [Lf NU]. split; [exact Lf|]. intros C. apply in_app_or in C. destruct C as [C|C]; [exact (NU C)|].
        rewrite EC0 in C. apply filter_In in C. destruct (path_tail_parent _ _ _ _ HP0 (proj1 C)) as [->|(k & Hk)]; [contradiction|]. destruct Lf as [_ Lf]. exact (Lf _ Hk). }
      assert (HF' : Forall2 (candidate (U ++ c0)) ls' (map (filter (fresh (U ++ c0))) cs')).
      { clear - HFr. induction HFr as [|c l cs ls (P & HP & ->) _ IH]; cbn; constructor; [|exact IH]. exists P. split; [exact HP|]. apply filter_twice. }
      assert (Hn' : length (map (filter (fresh (U ++ c0))) cs') <= fuel).
      { rewrite map_length. apply Permutation_length in PS. simpl in PS. lia. }
      specialize (IH _ _ _ Hn' HC' ND3 HL' HF'). cbv zeta in IH.
      change (fun x : nat => negb (existsb (Nat.eqb x) (U ++ c0))) with (fresh (U ++ c0)).
      set (rest := sequences_loop Nat.eqb fuel (map (filter (fresh (U ++ c0))) cs') (U ++ c0)) in *.
      destruct IH as (I1 & I2 & I3 & I4 & I5 & (I6 & I7) & I8).
      assert (Hmax := sort_head _ _ _ ES).
      assert (Hrest : Forall (fun s => length s <= length c0) rest).
      { apply I7. apply Forall_map. apply Forall_inv_tail in Hmax. eapply Forall_impl; [|exact Hmax]. intros c Hc. simpl in Hc. pose proof (filter_le (fresh (U ++ c0)) c). lia. }
      cbn [concat]. split; [|split; [|split; [|split; [|split; [|split]]]]].
      * assert (N0 : NoDup c0) by (rewrite EC0; apply NoDup_filter; eapply path_nodup; eassumption).
        apply nodup_app; [exact N0|exact I1|]. intros x Hx Hc. apply (I2 x Hx), in_or_app. right; exact Hc.
      * intros x Hx. apply in_app_or in Hx. destruct Hx as [Hx|Hx].
        -- rewrite EC0 in Hx. apply filter_In in Hx. apply fresh_in. tauto.
        -- intros C. apply (I2 x Hx). apply in_or_app. left; exact C.
      * intros l P x Hl HP Hx. apply (Permutation_in _ PL) in Hl. destruct Hl as [<-|Hl].
        -- assert (P = P0). { clear - HP HP0. revert P0 HP0. induction HP as [i n E N|i p l Hp H IH]; intros P0 HP0; inversion HP0; subst; try reflexivity.
             - destruct H as (m & Em & Nm). congruence.
             - destruct Hp as (m & Em & Nm). congruence.
             - f_equal. apply IH. rewrite (is_parent_fun _ _ _ _ Hp H0). assumption. }
           subst P. destruct (fresh U x) eqn:F.
           ++ right. apply in_or_app. left. rewrite EC0. apply filter_In. auto.
           ++ left. destruct (in_dec Nat.eq_dec x U) as [K|K]; [exact K|]. apply fresh_in in K. congruence.
        -- destruct (I3 l P x Hl HP Hx) as [K|K]; [|right; apply in_or_app; right; exact K].
           apply in_app_or in K. destruct K as [K|K]; [left; exact K|right; apply in_or_app; left; exact K].
      * constructor; [|exact I4]. split; [exact R1|]. exists l0, r0. split; [exact Er0|]. apply HL2. left; reflexivity.
      * intros i Hi. apply (Permutation_in _ PL) in Hi. destruct Hi as [<-|Hi].
        -- exists r0. left. exact Er0.
        -- destruct (I5 i Hi) as (r & Hr). exists r. right; exact Hr.
      * split.
        -- cbn [map]. destruct rest as [|s rest']; [exact I|]. cbn [map] in *. split; [inversion Hrest; assumption|exact I6].
        -- intros b Hb. assert (Hb0 : length c0 <= b).
           { rewrite Forall_forall in Hb. apply Hb. eapply Permutation_in; [symmetry; exact PS|left; reflexivity]. }
           constructor; [exact Hb0|]. eapply Forall_impl; [|exact Hrest]. intros; simpl in *; lia.
      * intros before s after i p E HLa HI HP. destruct before as [|b before].
        -- injection E as -> _. left. apply (R2 i p); assumption.
        -- injection E as -> E. destruct (I8 before s after i p E HLa HI HP) as [K|(s' & Hs' & K)].
           ++ apply in_app_or in K. destruct K as [K|K]; [left; exact K|right; exists b; split; [left; reflexivity|exact K]].
           ++ right. exists s'. split; [right; exact Hs'|exact K].
Qed.
End Loop.

(** ** From positions to objects *)
Lemma insert_map {B C} (f : B -> C) x l : insert_desc (map f x) (map (map f) l) = map (map f) (insert_desc x l).
Proof.
  induction l as [|y l IH]; [reflexivity|]. cbn [insert_desc map]. rewrite !map_length. destruct (length y <=? length x); [reflexivity|].
  cbn [map]. rewrite IH. reflexivity.
Qed.
Lemma sort_map {B C} (f : B -> C) l : sort_desc (map (map f) l) = map (map f) (sort_desc l).
Proof. induction l as [|x l IH]; [reflexivity|]. cbn. unfold sort_desc in IH. rewrite IH. apply insert_map. Qed.

Section Map.
Context {A : Type} (eqb : A -> A -> bool) (f : nat -> A) (D : nat -> Prop).
Hypothesis Hf : forall x y, D x -> D y -> eqb (f x) (f y) = Nat.eqb x y.
Lemma filter_map_used U c : Forall D U -> Forall D c ->
  filter (fun x => negb (existsb (eqb x) (map f U))) (map f c) = map f (filter (fun x => negb (existsb (Nat.eqb x) U)) c).
Proof.
  intros HU. induction 1 as [|x c Hx _ IH]; [reflexivity|]. cbn [map filter].
  assert (E : existsb (eqb (f x)) (map f U) = existsb (Nat.eqb x) U).
  { clear - Hf HU Hx. induction HU as [|u U Hu _ IH]; [reflexivity|]. cbn. rewrite IH, Hf by assumption. reflexivity. }
  rewrite E. destruct (negb (existsb (Nat.eqb x) U)); cbn [map]; rewrite IH; reflexivity.
Qed.
Lemma loop_map fuel : forall cs U, Forall (Forall D) cs -> Forall D U ->
  sequences_loop eqb fuel (map (map f) cs) (map f U) = map (map f) (sequences_loop Nat.eqb fuel cs U).
Proof.
  induction fuel as [|fuel IH]; intros cs U HC HU; [reflexivity|]. cbn [sequences_loop]. rewrite sort_map.
  assert (HS : Forall (Forall D) (sort_desc cs)) by (rewrite sort_perm; exact HC).
  destruct (sort_desc cs) as [|c0 cs']; [reflexivity|]. cbn [map]. inversion HS as [|? ? HC0 HCr]; subst.
  rewrite <- map_app. assert (HU' : Forall D (U ++ c0)) by (apply Forall_app; auto).
  f_equal. rewrite <- IH; [|apply Forall_map; eapply Forall_impl; [|exact HCr]; intros c Hc; apply Forall_forall; intros x Hx; apply filter_In in Hx; rewrite Forall_forall in Hc; apply Hc; tauto|exact HU'].
  f_equal. rewrite !map_map. apply map_ext_in. intros c Hc. apply filter_map_used; [exact HU'|]. rewrite Forall_forall in HCr. auto.
Qed.
End Map.

Lemma nodup_incl_perm l n : NoDup l -> (forall x, In x l <-> x < n) -> Permutation l (seq 0 n).
Proof.
  intros ND H. apply NoDup_Permutation; [exact ND|apply seq_NoDup|]. intros x. rewrite H, in_seq. lia.
Qed.

Lemma sequences_index {A} (eqb : A -> A -> bool) (t : tree A) :
  grown t -> (forall a b, In a (map n_obj t) -> In b (map n_obj t) -> (eqb a b = true <-> a = b)) -> NoDup (map n_obj t) ->
  exists f idx, sequences eqb t = Ok (map (map f) idx) /\
    (forall i, i < length t -> holds t i (f i)) /\
    Permutation (concat idx) (seq 0 (length t)) /\
    Forall (fun l => upward t l /\ exists i rest, l = i :: rest /\ is_leaf t i) idx /\
    (forall i, is_leaf t i -> exists rest, In (i :: rest) idx) /\
    descending (map (@length nat) idx) /\
    (forall before l after i p, idx = before ++ l :: after -> last l i = i -> is_parent t p i -> In i l ->
       exists l', In l' before /\ In p l').
Proof.
  intros HG HE ND. pose proof (grown_wf t HG) as W.
  destruct W as [(n0 & E0 & P0) W1]. pose proof (conj (ex_intro _ n0 (conj E0 P0)) W1 : wf t) as W.
  pose (f := fun i => match nth_error t i with Some n => n_obj n | None => n_obj n0 end).
  assert (Hf : forall i n, nth_error t i = Some n -> f i = n_obj n) by (intros i n E; unfold f; rewrite E; reflexivity).
  assert (Hinj : forall x y, x < length t -> y < length t -> eqb (f x) (f y) = Nat.eqb x y).
  { intros x y Hx Hy. apply nth_error_Some in Hx. apply nth_error_Some in Hy.
    destruct (nth_error t x) as [a|] eqn:Ex; [|congruence]. destruct (nth_error t y) as [b|] eqn:Ey; [|congruence].
    rewrite (Hf _ _ Ex), (Hf _ _ Ey).
    assert (Ia : In (n_obj a) (map n_obj t)) by (apply in_map; eapply nth_error_In; exact Ex).
    assert (Ib : In (n_obj b) (map n_obj t)) by (apply in_map; eapply nth_error_In; exact Ey).
    destruct (Nat.eqb_spec x y) as [->|NE].
    - rewrite Ex in Ey. injection Ey as ->. apply HE; [assumption|assumption|reflexivity].
    - destruct (eqb (n_obj a) (n_obj b)) eqn:EE; [|reflexivity]. apply HE in EE; [|assumption|assumption]. exfalso. apply NE.
      eapply (proj1 (NoDup_nth_error (map n_obj t)) ND); [rewrite map_length; apply nth_error_Some; congruence|].
      rewrite !nth_error_map, Ex, Ey. cbn. congruence. }
  (* candidates *)
  assert (HCand : exists cs, mapM (traverse_and_unwrap t) (leaves t) = Ok (map (map f) cs) /\
     Forall2 (candidate t []) (leaves t) cs /\ Forall (Forall (fun i => i < length t)) cs).
  { assert (HB : Forall (fun i => i < length t) (leaves t)) by (apply Forall_forall; intros i Hi; apply leaves_spec in Hi; apply Hi).
    induction HB as [|i l Hi _ IH]; [exists []; repeat split; constructor|].
    destruct IH as (cs & E & F1 & F2). destruct (traverse_path t W i (length t) Hi Hi) as (P & ET & HP).
    exists (P :: cs). cbn [mapM map]. rewrite E. unfold traverse_and_unwrap at 1. rewrite ET. cbn [rbind].
    assert (EM : mapM (obj_at t) P = Ok (map f P)).
    { apply mapM_ok. pose proof (path_bound _ _ _ HP) as HBd. clear - HBd Hf. induction HBd as [|x P Hx _ IH]; cbn; constructor; [|exact IH].
      unfold obj_at. apply nth_error_Some in Hx. destruct (nth_error t x) as [n|] eqn:E; [|congruence]. rewrite (Hf _ _ E). reflexivity. }
    rewrite EM. cbn [rbind]. split; [reflexivity|]. split; [|constructor; [eapply path_bound; eassumption|exact F2]].
    constructor; [|exact F1]. exists P. split; [exact HP|]. symmetry. clear. induction P as [|x P IH]; [reflexivity|]. cbn [filter]. rewrite IH. reflexivity. }
  destruct HCand as (cs & EC & HF & HB).
  exists f, (sequences_loop Nat.eqb (length cs) cs []).
  assert (HL : forall l, In l (leaves t) -> is_leaf t l /\ ~ In l []) by (intros l Hl; split; [apply leaves_spec, Hl|tauto]).
  assert (HC0 : closed_up t []) by (intros i p []).
  destruct (loop_spec t W (length cs) cs [] (leaves t) (le_n _) HC0 (leaves_nodup t) HL HF) as (L1 & L2 & L3 & L4 & L5 & (L6 & _) & L8).
  cbv zeta in *. split; [|split; [|split; [|split; [exact L4|split; [|split; [exact L6|]]]]]].
  - unfold sequences. rewrite EC. cbn [rbind]. f_equal. rewrite map_length.
    exact (loop_map eqb f (fun i => i < length t) Hinj (length cs) cs [] HB (Forall_nil _)).
  - intros i Hi. apply nth_error_Some in Hi. destruct (nth_error t i) as [n|] eqn:E; [|congruence]. exists n. split; [exact E|]. symmetry. apply Hf, E.
  - apply nodup_incl_perm; [exact L1|]. intros x. split.
    + intros Hx. assert (HD : Forall (Forall (fun i => i < length t)) (sequences_loop Nat.eqb (length cs) cs [])).
      { clear - HB. generalize (@nil nat) as U. generalize (length cs) as n. intros n. revert cs HB.
        induction n as [|n IH]; intros cs HB U; [constructor|]. cbn [sequences_loop].
        assert (HS : Forall (Forall (fun i => i < length t)) (sort_desc cs)) by (rewrite sort_perm; exact HB).
        destruct (sort_desc cs) as [|c0 cs']; [constructor|]. inversion HS as [|? ? H1 H2]; subst. constructor; [exact H1|]. apply IH.
        apply Forall_map. eapply Forall_impl; [|exact H2]. intros c Hc. apply Forall_forall. intros y Hy. apply filter_In in Hy. rewrite Forall_forall in Hc. apply Hc; tauto. }
      apply in_concat in Hx. destruct Hx as (s & Hs & Hx). rewrite Forall_forall in HD. specialize (HD s Hs). rewrite Forall_forall in HD. auto.
    + intros Hx. destruct (above_leaf t W x Hx) as (l & P & Lf & HP & HI). apply leaves_spec in Lf.
      destruct (L3 l P x Lf HP HI) as [[]|K]. exact K.
  - intros i Hi. apply L5, leaves_spec, Hi.
  - intros before l after i p E HLa HP HI. destruct (L8 before l after i p E HLa HI HP) as [[]|K]. exact K.
Qed.

Lemma sequences_split {A} (eqb : A -> A -> bool) (t : tree A) :
  grown t -> (forall a b, In a (map n_obj t) -> In b (map n_obj t) -> (eqb a b = true <-> a = b)) -> NoDup (map n_obj t) ->
  exists ss, sequences eqb t = Ok ss /\ splits t ss.
Proof.
  intros HG HE ND. destruct (sequences_index eqb t HG HE ND) as (f & idx & E & Hf & HP & H1 & H2 & H3 & H4).
  eexists. split; [exact E|]. exists idx. split; [|auto].
  assert (HB : Forall (Forall (fun i => i < length t)) idx).
  { apply Forall_forall. intros s Hs. apply Forall_forall. intros x Hx.
    assert (HI : In x (concat idx)) by (apply in_concat; eauto). apply (Permutation_in _ HP) in HI. apply in_seq in HI. lia. }
  clear - Hf HB. induction HB as [|s idx Hs _ IH]; cbn; constructor; [|exact IH].
  induction Hs as [|x s Hx _ IH2]; cbn; constructor; auto.
Qed.
