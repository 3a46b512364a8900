(** Lemmas on decimal printing and reading. *)
From Verif Require Import Base.Str Spec.Gcode Spec.Blocks Model.Address.
From Coq Require Import NArith Lia.

Local Open Scope string_scope.
Local Open Scope Z_scope.

Lemma app_assoc_s (a b c : string) : (a ++ b) ++ c = a ++ (b ++ c).
Proof. induction a; simpl; congruence. Qed.
Lemma app_nil_s (a : string) : a ++ "" = a.
Proof. induction a; simpl; congruence. Qed.
Lemma length_app_s a b : String.length (a ++ b) = (String.length a + String.length b)%nat.
Proof. induction a; simpl; congruence. Qed.

(** ** powers of ten *)
Lemma pow10_pos p : 0 < pow10 p.
Proof. unfold pow10. apply Z.pow_pos_nonneg; lia. Qed.
Lemma pow10_add a b : pow10 (a + b) = pow10 a * pow10 b.
Proof. unfold pow10. rewrite Nat2Z.inj_add, Z.pow_add_r; lia. Qed.
Lemma pow10_S p : pow10 (S p) = 10 * pow10 p.
Proof. change (S p) with (1 + p)%nat. rewrite pow10_add. reflexivity. Qed.
Lemma qz_pow10_pos p : (0 < qz (pow10 p))%Qc.
Proof. rewrite <- qz_0. apply qz_lt, pow10_pos. Qed.
Lemma qz_pow10_nz p : qz (pow10 p) <> 0%Qc.
Proof. intro H. pose proof (qz_pow10_pos p) as H2. rewrite H in H2. qlra. Qed.

(** ** digits *)
Definition dig (c : ascii) : N := (N_of_ascii c - 48)%N.
Fixpoint dv (s : string) (acc : N) : N :=
  match s with "" => acc | String c r => dv r (acc * 10 + dig c)%N end.
Definition p10 (n : nat) : N := (10 ^ N.of_nat n)%N.

Lemma p10_S n : p10 (S n) = (10 * p10 n)%N.
Proof. unfold p10. rewrite Nat2N.inj_succ, N.pow_succ_r'. reflexivity. Qed.
Lemma p10_add a b : p10 (a + b) = (p10 a * p10 b)%N.
Proof. unfold p10. rewrite Nat2N.inj_add, N.pow_add_r. reflexivity. Qed.
Lemma p10_pos n : (0 < p10 n)%N.
Proof. unfold p10. apply N.neq_0_lt_0, N.pow_nonzero. lia. Qed.
Lemma p10_pow10 n : Z.of_N (p10 n) = pow10 n.
Proof. unfold p10, pow10. rewrite N2Z.inj_pow, nat_N_Z. reflexivity. Qed.

Lemma dv_acc s acc : dv s acc = (acc * p10 (String.length s) + dv s 0)%N.
Proof.
  revert acc. induction s as [|c s IH]; intros acc; simpl.
  - unfold p10. simpl. lia.
  - rewrite IH, (IH (dig c)). rewrite p10_S. lia.
Qed.
Lemma dv_app a b acc : dv (a ++ b) acc = dv b (dv a acc).
Proof. revert acc. induction a as [|c a IH]; intros acc; simpl; [reflexivity | apply IH]. Qed.
Lemma dv_app0 a b : dv (a ++ b) 0 = (dv a 0 * p10 (String.length b) + dv b 0)%N.
Proof. rewrite dv_app, dv_acc. reflexivity. Qed.

Lemma digit_cases d : (d < 10)%N ->
  d = 0%N \/ d = 1%N \/ d = 2%N \/ d = 3%N \/ d = 4%N \/ d = 5%N \/ d = 6%N \/ d = 7%N \/ d = 8%N \/ d = 9%N.
Proof. lia. Qed.
Lemma digit_val_char d : (d < 10)%N -> digit_val (digit_char d) = Some d.
Proof. intros H. destruct (digit_cases d H) as [->|[->|[->|[->|[->|[->|[->|[->|[->| ->]]]]]]]]]; reflexivity. Qed.
Lemma dig_char d : (d < 10)%N -> dig (digit_char d) = d.
Proof. intros H. destruct (digit_cases d H) as [->|[->|[->|[->|[->|[->|[->|[->|[->| ->]]]]]]]]]; reflexivity. Qed.
Lemma digit_char_0 d : (d < 10)%N -> digit_char d = "0"%char -> d = 0%N.
Proof. intros H E. rewrite <- (dig_char d H), E. reflexivity. Qed.
Lemma digit_val_dig c d : digit_val c = Some d -> dig c = d.
Proof. unfold digit_val, dig. destruct (_ && _)%bool; congruence. Qed.

Lemma all_digits_app a b : all_digits (a ++ b) = all_digits a && all_digits b.
Proof. induction a as [|c a IH]; simpl; [reflexivity|]. destruct (digit_val c); auto. Qed.
Lemma all_digits_zeros n : all_digits (zeros n) = true.
Proof. induction n; simpl; auto. Qed.
Lemma length_zeros n : String.length (zeros n) = n.
Proof. induction n; simpl; auto. Qed.
Lemma dv_zeros n acc : dv (zeros n) acc = (acc * p10 n)%N.
Proof.
  revert acc. induction n as [|n IH]; intros acc; cbn [zeros dv].
  - unfold p10. simpl. lia.
  - rewrite IH, p10_S. change (dig "0") with 0%N. lia.
Qed.

Lemma read_digits_app s r acc cnt :
  all_digits s = true ->
  read_digits (s ++ r) acc cnt = read_digits r (dv s acc) (cnt + String.length s)%nat.
Proof.
  revert acc cnt. induction s as [|c s IH]; intros acc cnt H; simpl.
  - f_equal. lia.
  - simpl in H. destruct (digit_val c) eqn:E; [|discriminate].
    rewrite IH by exact H. rewrite (digit_val_dig _ _ E). f_equal. lia.
Qed.

(** ** [print_N] *)
Lemma print_N_fuel_spec fuel : forall n acc,
  (n < p10 (S fuel))%N ->
  exists d, print_N_fuel (S fuel) n acc = d ++ acc /\ all_digits d = true /\ dv d 0 = n
            /\ is_int_part d = true /\ d <> "".
Proof.
  induction fuel as [|fuel IH]; intros n acc Hn.
  - assert (Hlt : (n < 10)%N) by (unfold p10 in Hn; simpl in Hn; lia).
    exists (String (digit_char n) ""). cbn [print_N_fuel].
    rewrite (N.div_small n 10) by lia. rewrite (N.mod_small n 10) by lia.
    change (0 =? 0)%N with true. cbv iota.
    split; [reflexivity|]. simpl. rewrite digit_val_char, dig_char by lia.
    repeat split; try congruence.
    destruct (digit_cases n Hlt) as [->|[->|[->|[->|[->|[->|[->|[->|[->| ->]]]]]]]]]; reflexivity.
  - cbn [print_N_fuel].
    assert (Hm : (n mod 10 < 10)%N) by (apply N.mod_lt; lia).
    pose proof (N.div_mod n 10 ltac:(lia)) as Hdm.
    destruct (N.eqb_spec (n / 10) 0) as [E|E].
    + assert (Hlt : (n < 10)%N) by lia.
      rewrite N.mod_small by lia.
      exists (String (digit_char n) "").
      split; [reflexivity|]. simpl. rewrite digit_val_char, dig_char by lia.
      repeat split; try congruence.
      destruct (digit_cases n Hlt) as [->|[->|[->|[->|[->|[->|[->|[->|[->| ->]]]]]]]]]; reflexivity.
    + assert (Hn2 : (n / 10 < p10 (S fuel))%N).
      { apply N.div_lt_upper_bound; [lia|]. rewrite p10_S in Hn. exact Hn. }
      destruct (IH (n / 10)%N (String (digit_char (n mod 10)) acc) Hn2) as (d & H1 & H2 & H3 & H4 & H5).
      exists (d ++ String (digit_char (n mod 10)) "").
      cbn [print_N_fuel] in H1. split.
      { rewrite H1. rewrite app_assoc_s. reflexivity. }
      split. { rewrite all_digits_app, H2. simpl. rewrite digit_val_char by exact Hm. reflexivity. }
      split. { rewrite dv_app0, H3. cbn [dv String.length]. rewrite dig_char by exact Hm.
               unfold p10. simpl. lia. }
      split.
      { destruct d as [|c d]; [congruence|].
        assert (Hall : all_digits (String c d ++ String (digit_char (n mod 10)) "") = true).
        { rewrite all_digits_app, H2. simpl. rewrite digit_val_char by exact Hm. reflexivity. }
        unfold is_int_part. simpl append.
        assert (c <> "0"%char).
        { intros ->. simpl in H4. destruct d; [|discriminate]. simpl in H3. change (dig "0") with 0%N in H3. lia. }
        destruct c as [[] [] [] [] [] [] [] []]; try exact Hall; congruence. }
      destruct d; simpl; congruence.
Qed.

Lemma size_nat_bound n : (n < p10 (S (N.size_nat n)))%N.
Proof.
  apply N.lt_le_trans with (2 ^ N.size n)%N.
  - apply N.size_gt.
  - unfold p10. apply N.le_trans with (10 ^ N.size n)%N.
    + apply N.pow_le_mono_l. lia.
    + apply N.pow_le_mono_r; [lia|].
      assert (N.of_nat (N.size_nat n) = N.size n); [|lia].
      destruct n as [|q]; [reflexivity|]. simpl.
      induction q as [q IH|q IH|]; cbn [Pos.size_nat Pos.size]; [| |reflexivity];
        rewrite Nat2N.inj_succ, IH; reflexivity.
Qed.

Lemma print_N_spec n :
  all_digits (print_N n) = true /\ dv (print_N n) 0 = n /\ is_int_part (print_N n) = true /\ print_N n <> "".
Proof.
  unfold print_N.
  destruct (print_N_fuel_spec (N.size_nat n) n "" (size_nat_bound n)) as (d & H & H1).
  rewrite H, app_nil_s. exact H1.
Qed.

(** The number of digits: [10^(len-1) <= n < 10^len] for [n > 0]. *)
Lemma dv_upper s : all_digits s = true -> (dv s 0 < p10 (String.length s))%N.
Proof.
  induction s as [|c s IH]; intros H.
  - unfold p10. simpl. lia.
  - cbn [dv String.length]. rewrite dv_acc, p10_S. simpl in H.
    destruct (digit_val c) as [d|] eqn:E; [|discriminate]. specialize (IH H).
    assert (dig c < 10)%N.
    { revert E. unfold digit_val, dig. destruct (_ && _)%bool eqn:E; [|discriminate]. intros _.
      apply andb_true_iff in E. destruct E as [E1 E2]. apply N.leb_le in E1, E2. lia. }
    nia.
Qed.
Lemma dv_lower c s : dig c <> 0%N -> (p10 (String.length s) <= dv (String c s) 0)%N.
Proof. intros H. cbn [dv]. rewrite dv_acc. nia. Qed.

Lemma dig_zero c d : digit_val c = Some d -> dig c = 0%N -> c = "0"%char.
Proof.
  destruct c as [[] [] [] [] [] [] [] []]; intros H1 H2; vm_compute in H1, H2;
    try reflexivity; discriminate.
Qed.

Lemma print_N_lower n : (0 < n)%N -> (p10 (pred (String.length (print_N n))) <= n)%N.
Proof.
  intros Hn. destruct (print_N_spec n) as (H1 & H2 & H3 & H4).
  destruct (print_N n) as [|c s] eqn:E; [congruence|].
  rewrite <- H2. cbn [String.length pred]. apply dv_lower. intros Hc.
  simpl in H1. destruct (digit_val c) as [d|] eqn:Ed; [|discriminate].
  pose proof (dig_zero _ _ Ed Hc) as ->.
  simpl in H3. destruct s; [|discriminate]. simpl in H2. change (dig "0") with 0%N in H2. lia.
Qed.

(** ** [strip_zeros] *)
Lemma strip_zeros_spec s : exists m, s = strip_zeros s ++ zeros m /\
  match last_char (strip_zeros s) with None => strip_zeros s = "" | Some c => c <> "0"%char end.
Proof.
  induction s as [|c s (m & IH1 & IH2)].
  - exists O. split; reflexivity.
  - simpl. destruct (strip_zeros s) as [|c2 r] eqn:E.
    + destruct (Ascii.eqb_spec c "0") as [->|Hc].
      * exists (S m). simpl. rewrite IH1. split; reflexivity.
      * exists m. simpl. rewrite IH1. split; [reflexivity|exact Hc].
    + exists m. split; [simpl; rewrite IH1; reflexivity |].
      change (last_char (String c (String c2 r))) with (last_char (String c2 r)).
      destruct (last_char (String c2 r)); [exact IH2 | discriminate IH2].
Qed.

Lemma substring_split d : forall n, (n <= String.length d)%nat ->
  exists a b, d = a ++ b /\ String.length a = n /\
    String.substring 0 n d = a /\ String.substring n (String.length d - n) d = b.
Proof.
  induction d as [|c d IH]; intros n Hn.
  - simpl in Hn. assert (n = O) by lia. subst. exists "", "". repeat split; reflexivity.
  - destruct n as [|n].
    + exists "", (String c d). repeat split; try reflexivity.
      clear. simpl. f_equal. clear c. induction d; simpl; congruence.
    + simpl in Hn. destruct (IH n ltac:(lia)) as (a & b & H1 & H2 & H3 & H4).
      exists (String c a), b. simpl. rewrite <- H1, H2, H3, H4. repeat split; reflexivity.
Qed.

(** ** Reading back *)
Definition stops (r : string) : Prop :=
  match r with "" => True | String c _ => digit_val c = None /\ c <> "."%char end.

Lemma read_digits_stop r acc cnt : (match r with "" => True | String c _ => digit_val c = None end) ->
  read_digits r acc cnt = (acc, cnt, r).
Proof. destruct r; simpl; [reflexivity|]. intros ->. reflexivity. Qed.

Lemma stops_nodigit r : stops r -> match r with "" => True | String c _ => digit_val c = None end.
Proof. destruct r; simpl; tauto. Qed.

Lemma read_unsigned_int a r : all_digits a = true -> a <> "" -> stops r ->
  read_unsigned (a ++ r) = Some (qz (Z.of_N (dv a 0)), r).
Proof.
  intros Ha Hne Hr. unfold read_unsigned. rewrite read_digits_app by exact Ha.
  rewrite read_digits_stop by (apply stops_nodigit; exact Hr).
  destruct a as [|c0 a]; [congruence|]. cbn [String.length Nat.add Nat.eqb].
  destruct r as [|c r]; [reflexivity|]. destruct Hr as [_ Hc].
  destruct c as [[] [] [] [] [] [] [] []]; try reflexivity. congruence.
Qed.

Lemma read_unsigned_frac a b r : all_digits a = true -> all_digits b = true -> a <> "" -> stops r ->
  read_unsigned (a ++ "." ++ b ++ r)
  = Some ((qz (Z.of_N (dv a 0)) + qz (Z.of_N (dv b 0)) / qz (pow10 (String.length b)))%Qc, r).
Proof.
  intros Ha Hb Hne Hr. unfold read_unsigned. rewrite read_digits_app by exact Ha.
  change ("." ++ b ++ r) with (String "." (b ++ r)).
  rewrite read_digits_stop by reflexivity. cbv beta iota.
  rewrite read_digits_app by exact Hb.
  rewrite read_digits_stop by (apply stops_nodigit; exact Hr). cbv beta iota.
  destruct a as [|c0 a]; [congruence|]. reflexivity.
Qed.

Definition starts_digit (s : string) : Prop :=
  match s with String c _ => exists d, digit_val c = Some d | "" => False end.
Lemma read_number_unsigned s : starts_digit s -> read_number s = read_unsigned s.
Proof.
  destruct s as [|c s]; simpl; [tauto|]. intros [d Hd].
  destruct c as [[] [] [] [] [] [] [] []]; try reflexivity; vm_compute in Hd; discriminate.
Qed.
Lemma starts_digit_app a r : all_digits a = true -> a <> "" -> starts_digit (a ++ r).
Proof.
  destruct a as [|c a]; [congruence|]. simpl. destruct (digit_val c) eqn:E; [eauto|discriminate].
Qed.
Lemma read_number_neg s : read_number ("-" ++ s) =
  match read_unsigned s with Some (v, r) => Some ((- v)%Qc, r) | None => None end.
Proof. reflexivity. Qed.

(** integers *)
Lemma read_print_N n r : stops r -> read_unsigned (print_N n ++ r) = Some (qz (Z.of_N n), r).
Proof.
  intros Hr. destruct (print_N_spec n) as (H1 & H2 & _ & H4).
  rewrite read_unsigned_int by assumption. rewrite H2. reflexivity.
Qed.
Lemma read_print_Z z r : stops r -> read_number (print_Z z ++ r) = Some (qz z, r).
Proof.
  intros Hr. unfold print_Z. destruct (Z.ltb_spec z 0) as [Hz|Hz].
  - rewrite app_assoc_s, read_number_neg, read_print_N by exact Hr.
    rewrite Z2N.id by lia. rewrite <- qz_opp, Z.opp_involutive. reflexivity.
  - destruct (print_N_spec (Z.to_N z)) as (H1 & H2 & _ & H4).
    rewrite read_number_unsigned by (apply starts_digit_app; assumption).
    rewrite read_print_N by exact Hr. rewrite Z2N.id by lia. reflexivity.
Qed.

(** floats in positional notation *)
Definition positional (n : N) (p : nat) : Prop :=
  let decpt := Z.of_nat (String.length (print_N n)) - Z.of_nat p in -3 <= decpt <= 16.

Lemma repr_float_pos_shape n p : (0 < n)%N -> positional n p ->
  exists a b, repr_float_pos n p = a ++ "." ++ b /\ all_digits a = true /\ all_digits b = true /\
    is_int_part a = true /\ b <> "" /\
    (qz (Z.of_N (dv a 0)) + qz (Z.of_N (dv b 0)) / qz (pow10 (String.length b)))%Qc
      = (qz (Z.of_N n) / qz (pow10 p))%Qc /\
    (Z.of_N n mod pow10 p <> 0 -> is_frac_part b = true).
Proof.
  intros Hn Hp. unfold positional in Hp. unfold repr_float_pos.
  destruct (print_N_spec n) as (H1 & H2 & H3 & H4).
  set (d0 := print_N n) in *.
  destruct (strip_zeros_spec d0) as (m & Hs & Hl). set (d := strip_zeros d0) in *.
  set (decpt := Z.of_nat (String.length d0) - Z.of_nat p) in *.
  assert (Hlen : String.length d0 = (String.length d + m)%nat) by (rewrite Hs, length_app_s, length_zeros; reflexivity).
  assert (Hv : n = (dv d 0 * p10 m)%N).
  { rewrite <- H2, Hs at 1. rewrite dv_app, dv_zeros. reflexivity. }
  assert (Hd : all_digits d = true) by (rewrite Hs, all_digits_app in H1; apply andb_true_iff in H1; tauto).
  assert (Hdne : d <> "").
  { intros E. rewrite E in Hv. simpl in Hv. lia. }
  assert (Hlast : exists c, last_char d = Some c /\ c <> "0"%char).
  { destruct (last_char d) as [c|]; [eauto|]. congruence. }
  assert (HnZ : Z.of_N n = Z.of_N (dv d 0) * pow10 m) by (rewrite Hv at 1; rewrite N2Z.inj_mul, p10_pow10; reflexivity).
  replace ((16 <? decpt) || (decpt <? -3)) with false by
    (symmetry; apply orb_false_iff; split; apply Z.ltb_ge; lia).
  pose proof (qz_pow10_nz m) as Nm. pose proof (qz_pow10_nz p) as Np.
  destruct (Z.leb_spec decpt 0) as [Hc|Hc].
  { exists "0", (zeros (Z.to_nat (- decpt)) ++ d).
    assert (Hfrac : is_frac_part (zeros (Z.to_nat (- decpt)) ++ d) = true).
    { unfold is_frac_part. rewrite all_digits_app, all_digits_zeros, Hd. simpl.
      destruct Hlast as (c & Hc1 & Hc2).
      assert (Hla : forall x, last_char (x ++ d) = last_char d).
      { induction x as [|y x IH]; [reflexivity|]. simpl. rewrite <- IH.
        destruct (x ++ d) eqn:E; [|reflexivity].
        destruct x; simpl in E; [congruence|discriminate]. }
      rewrite Hla, Hc1. destruct (Ascii.eqb_spec c "0"); [congruence|reflexivity]. }
    split; [reflexivity|]. split; [reflexivity|].
    split; [rewrite all_digits_app, all_digits_zeros, Hd; reflexivity|].
    split; [reflexivity|]. split; [|split; [|auto]].
    { destruct (zeros (Z.to_nat (- decpt))); simpl; [exact Hdne|discriminate]. }
    rewrite dv_app0, dv_zeros, length_app_s, length_zeros.
    change (dv "0" 0) with 0%N. rewrite !N.mul_0_l, N.add_0_l.
    assert (Hp' : p = (Z.to_nat (- decpt) + String.length d + m)%nat) by lia.
    rewrite HnZ. rewrite Hp'. rewrite (pow10_add _ m), !qz_mult.
    pose proof (qz_pow10_nz (Z.to_nat (- decpt) + String.length d)).
    change (qz (Z.of_N 0)) with (qz 0). rewrite qz_0. field. auto. }
  destruct (Z.leb_spec (Z.of_nat (String.length d)) decpt) as [Hc2|Hc2].
  { assert (Hm : m = (Z.to_nat (decpt - Z.of_nat (String.length d)) + p)%nat) by lia.
    exists (d ++ zeros (Z.to_nat (decpt - Z.of_nat (String.length d)))), "0".
    split; [rewrite app_assoc_s; reflexivity|].
    split; [rewrite all_digits_app, all_digits_zeros, Hd; reflexivity|].
    split; [reflexivity|]. split.
    { (* integer part has no leading zero: it is a prefix of d0 *)
      rewrite Hs, Hm in H3. clear - H3 Hdne Hv Hn.
      destruct d as [|c r]; [congruence|]. simpl in H3 |- *.
      destruct c as [[] [] [] [] [] [] [] []]; simpl in *; try discriminate;
        try (rewrite all_digits_app in H3; rewrite all_digits_app, all_digits_zeros;
             apply andb_true_iff in H3; destruct H3 as [-> _]; reflexivity).
      destruct r as [|c r]; simpl in *; [|discriminate].
      change (dv "0" 0) with 0%N in Hv. lia. }
    split; [discriminate|]. split.
    - rewrite dv_app, dv_zeros. change (Z.of_N (dv "0" 0)) with 0. rewrite qz_0.
      rewrite HnZ. rewrite N2Z.inj_mul, p10_pow10.
      rewrite Hm at 1. rewrite pow10_add, !qz_mult. field. auto using qz_pow10_nz.
    - intros Hmod. exfalso. apply Hmod. rewrite HnZ. rewrite Hm at 1.
      rewrite pow10_add, Z.mul_assoc. apply Z.mod_mul. pose proof (pow10_pos p). lia. }
  destruct (substring_split d (Z.to_nat decpt) ltac:(lia)) as (a & b & Hab & Hla & Hsa & Hsb).
  exists a, b.
  replace (Z.to_nat (Z.of_nat (String.length d) - decpt)) with (String.length d - Z.to_nat decpt)%nat by lia.
  rewrite Hsa, Hsb. split; [reflexivity|].
  assert (Hdig : all_digits a = true /\ all_digits b = true).
  { rewrite Hab, all_digits_app in Hd. apply andb_true_iff in Hd. exact Hd. }
  destruct Hdig as [Hda Hdb].
  assert (Hane : a <> "") by (intros ->; simpl in Hla; lia).
  assert (Hlb : (String.length b + m)%nat = p).
  { pose proof (length_app_s a b) as E. rewrite <- Hab in E. lia. }
  assert (Hbne : b <> "").
  { intros ->. rewrite app_nil_s in Hab. subst a. lia. }
  split; [exact Hda|]. split; [exact Hdb|]. split.
  { rewrite Hs, Hab in H3. clear - H3 Hane Hbne Hda.
    destruct a as [|c r]; [congruence|]. simpl in H3 |- *.
    destruct b as [|cb b]; [congruence|].
    destruct c as [[] [] [] [] [] [] [] []]; simpl in *; try discriminate; try exact Hda.
    destruct r; simpl in *; [reflexivity|discriminate]. }
  split; [exact Hbne|]. split.
  - rewrite HnZ, <- Hlb. rewrite Hab, dv_app0, N2Z.inj_add, N2Z.inj_mul, p10_pow10.
    rewrite pow10_add, !qz_mult, qz_plus, qz_mult.
    pose proof (qz_pow10_nz (String.length b)). field. auto.
  - intros _. unfold is_frac_part. rewrite Hdb. simpl.
    destruct Hlast as (c & Hc1 & Hcc).
    assert (Hla2 : forall x, last_char (x ++ b) = last_char b).
    { induction x as [|y x IH]; [reflexivity|]. simpl. rewrite <- IH.
      destruct (x ++ b) eqn:E; [|reflexivity].
      destruct x; simpl in E; [congruence|discriminate]. }
    rewrite Hab, Hla2 in Hc1. rewrite Hc1. destruct (Ascii.eqb_spec c "0"); [congruence|reflexivity].
Qed.

Definition positional_k (k : Z) (p : nat) : Prop := positional (Z.to_N (Z.abs k)) p.

Lemma read_repr_float k p r : k = 0 \/ positional_k k p -> stops r ->
  read_number (repr_float k p ++ r) = Some ((qz k / qz (pow10 p))%Qc, r).
Proof.
  intros Hk Hr. unfold repr_float. destruct (Z.eqb_spec k 0) as [->|Hk0].
  - pose proof (read_unsigned_frac "0" "0" r eq_refl eq_refl ltac:(discriminate) Hr) as H.
    simpl in H. simpl. rewrite H. f_equal. f_equal.
    change (qz (Z.of_N 0)) with (qz 0). rewrite qz_0. field.
    split; [apply qz_pow10_nz | apply (qz_pow10_nz 1)].
  - destruct Hk as [Hk|Hk]; [contradiction|]. unfold positional_k in Hk.
    assert (Hgen : forall n, (0 < n)%N -> positional n p ->
       read_unsigned (repr_float_pos n p ++ r) = Some ((qz (Z.of_N n) / qz (pow10 p))%Qc, r) /\
       starts_digit (repr_float_pos n p ++ r)).
    { intros n Hn Hp. destruct (repr_float_pos_shape n p Hn Hp) as (a & b & -> & Ha & Hb & Hi & Hbne & Hval & _).
      assert (a <> "") by (destruct a; simpl in Hi; [discriminate|congruence]).
      rewrite app_assoc_s. split.
      - change (("." ++ b) ++ r) with ("." ++ (b ++ r)).
        rewrite read_unsigned_frac by assumption. rewrite Hval. reflexivity.
      - apply starts_digit_app; assumption. }
    destruct (Z.ltb_spec k 0) as [Hneg|Hpos].
    + rewrite app_assoc_s, read_number_neg.
      rewrite Z.abs_neq in Hk by lia.
      destruct (Hgen (Z.to_N (- k)) ltac:(lia) Hk) as [-> _].
      rewrite Z2N.id by lia. rewrite qz_opp. do 2 f_equal. field. apply qz_pow10_nz.
    + rewrite Z.abs_eq in Hk by lia.
      destruct (Hgen (Z.to_N k) ltac:(lia) Hk) as [H1 H2].
      rewrite read_number_unsigned by exact H2. rewrite H1, Z2N.id by lia. reflexivity.
Qed.

(** ** Coordinates *)

Lemma round_he_bound x b : (0 <= b) -> (qabs x <= qz b)%Qc -> Z.abs (round_he x) <= b.
Proof.
  intros Hb Hx. destruct (round_he_spec x) as [H _].
  assert (H1 : (qz (round_he x) < qz (b + 1))%Qc).
  { rewrite qz_plus, qz_1. qabs_cases; qlra. }
  assert (H2 : (qz (- b - 1) < qz (round_he x))%Qc).
  { unfold Z.sub. rewrite qz_plus, !qz_opp, qz_1. qabs_cases; qlra. }
  rewrite qz_lt in H1, H2. lia.
Qed.

Lemma coord_range_units x p : coord_in_range x p -> Z.abs (round_units x p) <= 10 ^ 15.
Proof.
  intros H. unfold round_units. apply round_he_bound; [lia|].
  unfold coord_in_range in H. rewrite qabs_mult_pos by apply qz_pow10_pos. exact H.
Qed.

Lemma p10_mono a b : (a <= b)%nat -> (p10 a <= p10 b)%N.
Proof. intros H. unfold p10. apply N.pow_le_mono_r; lia. Qed.

Lemma positional_range k p : k <> 0 -> Z.abs k <= 10 ^ 15 -> (p <= 4)%nat -> positional_k k p.
Proof.
  intros Hk Hr Hp. unfold positional_k, positional. set (n := Z.to_N (Z.abs k)).
  destruct (print_N_spec n) as (H1 & H2 & H3 & H4).
  assert (Hn : (0 < n)%N) by (unfold n; lia).
  pose proof (print_N_lower n Hn) as Hlo.
  destruct (print_N n) as [|c s] eqn:E; [congruence|]. rewrite <- E in *. clear E c s.
  assert (1 <= String.length (print_N n))%nat by (destruct (print_N n); simpl; [congruence|lia]).
  assert (String.length (print_N n) <= 16)%nat; [|lia].
  destruct (Nat.le_gt_cases (String.length (print_N n)) 16) as [|C]; [assumption|exfalso].
  assert (Hb : (p10 16 <= p10 (pred (String.length (print_N n))))%N) by (apply p10_mono; lia).
  assert (n <= 10 ^ 15)%N by (unfold n; lia).
  change (p10 16) with (10 ^ 16)%N in Hb. lia.
Qed.

Lemma qz_div_exact k d : d <> 0 -> k mod d = 0 -> qz (k / d) = (qz k / qz d)%Qc.
Proof.
  intros Hd Hm. pose proof (Z.div_mod k d Hd) as E. rewrite Hm, Z.add_0_r in E.
  rewrite E at 2. rewrite qz_mult. field.
  intros C. apply Hd. apply qz_inj. rewrite C, qz_0. reflexivity.
Qed.

Lemma read_print_rounded x p r : (p <= 4)%nat -> coord_in_range x p -> stops r ->
  read_number (print_rounded x p ++ r) = Some ((qz (round_units x p) / qz (pow10 p))%Qc, r).
Proof.
  intros Hp Hx Hr. unfold print_rounded. pose proof (pow10_pos p).
  destruct (Z.eqb_spec (round_units x p mod pow10 p) 0) as [E|E].
  - rewrite read_print_Z by exact Hr. rewrite qz_div_exact by lia. reflexivity.
  - apply read_repr_float; [|exact Hr]. right. apply positional_range; [|apply coord_range_units; exact Hx|exact Hp].
    intros Z. rewrite Z, Z.mod_0_l in E by lia. congruence.
Qed.

(** canonical form *)
Lemma split_point_digits a : all_digits a = true -> split_point a = (a, None).
Proof.
  induction a as [|c a IH]; simpl; [reflexivity|]. intros H.
  destruct (digit_val c) eqn:E; [|discriminate].
  destruct (Ascii.eqb_spec c "."); [subst; discriminate|]. rewrite IH by exact H. reflexivity.
Qed.
Lemma split_point_app a b : all_digits a = true -> split_point (a ++ "." ++ b) = (a, Some b).
Proof.
  induction a as [|c a IH]; [reflexivity|]. intros H. simpl in H |- *.
  destruct (digit_val c) eqn:E; [|discriminate].
  destruct (Ascii.eqb_spec c "."); [subst; discriminate|].
  change (String "." b) with ("." ++ b). rewrite IH by exact H. reflexivity.
Qed.
Lemma canonical_nosign s : starts_digit s -> is_canonical s = is_canonical_unsigned s.
Proof.
  destruct s as [|c s]; simpl; [tauto|]. intros [d Hd].
  destruct c as [[] [] [] [] [] [] [] []]; try reflexivity; vm_compute in Hd; discriminate.
Qed.
Lemma canonical_print_N n : is_canonical_unsigned (print_N n) = true /\ starts_digit (print_N n).
Proof.
  destruct (print_N_spec n) as (H1 & H2 & H3 & H4). split.
  - unfold is_canonical_unsigned. rewrite split_point_digits by exact H1. exact H3.
  - rewrite <- (app_nil_s (print_N n)). apply starts_digit_app; assumption.
Qed.
Lemma canonical_print_Z z : is_canonical (print_Z z) = true.
Proof.
  unfold print_Z. destruct (Z.ltb_spec z 0) as [H|H].
  - simpl. destruct (canonical_print_N (Z.to_N (- z))) as [-> _]. simpl.
    destruct (String.eqb_spec (print_N (Z.to_N (- z))) "0") as [E|E]; [|reflexivity].
    destruct (print_N_spec (Z.to_N (- z))) as (_ & H2 & _). rewrite E in H2.
    change (dv "0" 0) with 0%N in H2. lia.
  - destruct (canonical_print_N (Z.to_N z)) as [H1 H2]. rewrite canonical_nosign by exact H2. exact H1.
Qed.

Lemma canonical_print_rounded x p : (p <= 4)%nat -> coord_in_range x p ->
  is_canonical (print_rounded x p) = true.
Proof.
  intros Hp Hx. unfold print_rounded. pose proof (pow10_pos p).
  destruct (Z.eqb_spec (round_units x p mod pow10 p) 0) as [E|E]; [apply canonical_print_Z|].
  set (k := round_units x p) in *.
  assert (Hk0 : k <> 0) by (intros C; rewrite C, Z.mod_0_l in E by lia; congruence).
  assert (Hpos : positional_k k p) by (apply positional_range; [exact Hk0|apply coord_range_units; exact Hx|exact Hp]).
  unfold positional_k in Hpos.
  assert (Hgen : forall n, (0 < n)%N -> positional n p -> Z.of_N n mod pow10 p <> 0 ->
     is_canonical_unsigned (repr_float_pos n p) = true /\ starts_digit (repr_float_pos n p) /\ repr_float_pos n p <> "0").
  { intros n Hn Hpn Hmod. destruct (repr_float_pos_shape n p Hn Hpn) as (a & b & -> & Ha & Hb & Hi & Hbne & _ & Hf).
    assert (Hane : a <> "") by (destruct a; simpl in Hi; [discriminate|congruence]).
    split; [|split].
    - unfold is_canonical_unsigned. rewrite split_point_app by exact Ha. rewrite Hi, (Hf Hmod). reflexivity.
    - apply starts_digit_app; assumption.
    - intros C. assert (L : String.length (a ++ "." ++ b) = 1%nat) by (rewrite C; reflexivity).
      rewrite !length_app_s in L. simpl in L. destruct a; [congruence|]. simpl in L. lia. }
  unfold repr_float. destruct (Z.eqb_spec k 0); [contradiction|].
  destruct (Z.ltb_spec k 0) as [Hneg|Hge].
  - rewrite Z.abs_neq in Hpos by lia.
    destruct (Hgen (Z.to_N (- k)) ltac:(lia) Hpos) as (H1 & _ & H3).
    { rewrite Z2N.id by lia. intros C. apply E. apply Z_mod_zero_opp_full in C.
      rewrite Z.opp_involutive in C. exact C. }
    simpl. rewrite H1. destruct (String.eqb_spec (repr_float_pos (Z.to_N (- k)) p) "0"); [contradiction|reflexivity].
  - rewrite Z.abs_eq in Hpos by lia.
    destruct (Hgen (Z.to_N k) ltac:(lia) Hpos) as (H1 & H2 & _).
    { rewrite Z2N.id by lia. exact E. }
    rewrite canonical_nosign by exact H2. exact H1.
Qed.
