(** The text properties C01-C04, C07. *)
From Verif Require Import Base.Str Spec.Gcode Spec.Blocks Model.Groups Model.Command
  Proofs.TextP Proofs.CommandP.
From Coq Require Import NArith Lia.
Local Open Scope string_scope.
Local Open Scope Z_scope.

Lemma printed_word c x p : letter_of c = Some c -> (p <= 4)%nat -> coord_in_range x p ->
  parse_line (str_word_precision (String c "") (Some x) p) = Some [W c (rounded p x)].
Proof.
  intros Hc Hp Hx. apply piece_line, (piece_word_precision c (Some x) p); assumption.
Qed.

Lemma rounded_near p x :
  (qabs (x - rounded p x) * qz (pow10 p) <= qq 1 2)%Qc /\
  exists k, rounded p x = (qz k / qz (pow10 p))%Qc /\
    ((qabs (x - rounded p x) * qz (pow10 p))%Qc = qq 1 2 -> Z.even k = true).
Proof.
  unfold rounded. set (P := qz (pow10 p)). pose proof (qz_pow10_pos p) as HP. fold P in HP.
  destruct (round_he_spec (x * P)%Qc) as [H1 H2].
  assert (E : (qabs (x - qz (round_he (x * P)) / P) * P)%Qc = qabs (x * P - qz (round_he (x * P)))%Qc).
  { rewrite <- qabs_mult_pos by exact HP. f_equal. field. intros C. rewrite C in HP. qlra. }
  rewrite E. split; [exact H1|]. eexists. split; [reflexivity|]. exact H2.
Qed.

Lemma print_rounded_eq x y p : (p <= 4)%nat -> coord_in_range x p -> coord_in_range y p ->
  print_rounded x p = print_rounded y p <-> rounded p x = rounded p y.
Proof.
  intros Hp Hx Hy. split; intros E.
  - pose proof (read_print_rounded x p "" Hp Hx I) as H1.
    pose proof (read_print_rounded y p "" Hp Hy I) as H2.
    rewrite E in H1. rewrite H1 in H2.
    exact (f_equal (fun o => match o with Some (v, _) => v | None => 0%Qc end) H2).
  - assert (U : round_units x p = round_units y p).
    { unfold rounded in E. unfold round_units. apply qz_inj.
      pose proof (qz_pow10_nz p) as HP.
      set (a := qz _) in *. set (b := qz (round_he (y * _))) in *.
      replace a with (a / qz (pow10 p) * qz (pow10 p))%Qc by (field; exact HP).
      rewrite E. field. exact HP. }
    unfold print_rounded. rewrite U. reflexivity.
Qed.

Lemma no_blank_plain s : all_plain s = true -> no_blank s = true.
Proof.
  induction s as [|c s IH]; simpl; [auto|]. unfold plain_char. rewrite !andb_true_iff.
  intros [[[_ H1] _] H2]. rewrite H1, IH by exact H2. auto.
Qed.
Lemma word_text c x p : letter_of c = Some c -> (p <= 4)%nat -> coord_in_range x p ->
  str_word_precision (String c "") (Some x) p <> "" /\
  no_blank (str_word_precision (String c "") (Some x) p) = true /\
  parse_line (str_word_precision (String c "") (Some x) p) = Some [W c (rounded p x)].
Proof.
  intros Hc Hp Hx. split; [discriminate|]. split; [|apply printed_word; assumption].
  simpl. apply andb_true_iff. split.
  - destruct c as [[] [] [] [] [] [] [] []]; vm_compute in Hc |- *; congruence.
  - apply no_blank_plain. apply numtext_rounded; assumption.
Qed.

Lemma group_text c1 c2 c3 v p :
  letter_of c1 = Some c1 -> letter_of c2 = Some c2 -> letter_of c3 = Some c3 ->
  (p <= 4)%nat -> avec_in_range v p ->
  let s := str_axis_group (str_word_precision (String c1 "") (ax v) p)
             (str_word_precision (String c2 "") (ay v) p) (str_word_precision (String c3 "") (az v) p) in
  parse_line s = Some (group_block c1 c2 c3 v p) /\ spaced_words s (group_block c1 c2 c3 v p).
Proof.
  intros H1 H2 H3 Hp R s. split; [apply piece_line, piece_group; assumption|].
  destruct R as (R1 & R2 & R3). unfold s. rewrite axis_group_concat.
  eexists. split; [reflexivity|]. unfold group_block.
  destruct (ax v) as [x|], (ay v) as [y|], (az v) as [z|]; cbn [str_word_precision option_map opt_word];
    repeat match goal with |- context [String.eqb (String ?c ?r ++ ?t) ""] =>
      change (String.eqb (String c r ++ t) "") with false end;
    simpl; f2; first [apply word_text; assumption | idtac].
Qed.
