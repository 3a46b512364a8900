(** Reading back the text of words, axis groups and commands. *)
From Verif Require Import Base.Str Spec.Gcode Spec.Blocks Model.Groups Model.Command Proofs.TextP.
From Coq Require Import NArith Lia.

Local Open Scope string_scope.
Local Open Scope Z_scope.

Ltac f2 := repeat first [apply Forall2_nil | apply Forall2_cons].

(** ** Cleaning *)
Definition plain_char (c : ascii) : bool :=
  negb (Ascii.eqb c "(") && negb (is_blank c) && negb (Ascii.eqb c newline).
Fixpoint all_plain (s : string) : bool :=
  match s with "" => true | String c r => plain_char c && all_plain r end.
(** no parenthesis and no newline *)
Fixpoint no_paren (s : string) : bool :=
  match s with "" => true | String c r => negb (Ascii.eqb c "(") && no_paren r end.
Fixpoint no_nl (s : string) : bool :=
  match s with "" => true | String c r => negb (Ascii.eqb c newline) && no_nl r end.
Fixpoint unblank (s : string) : string :=
  match s with "" => "" | String c r => if is_blank c then unblank r else String c (unblank r) end.

Lemma unblank_app a b : unblank (a ++ b) = unblank a ++ unblank b.
Proof. induction a as [|c a IH]; simpl; [reflexivity|]. destruct (is_blank c); simpl; congruence. Qed.
Lemma no_paren_app a b : no_paren (a ++ b) = no_paren a && no_paren b.
Proof. induction a as [|c a IH]; simpl; [reflexivity|]. rewrite IH. apply andb_assoc. Qed.
Lemma no_nl_app a b : no_nl (a ++ b) = no_nl a && no_nl b.
Proof. induction a as [|c a IH]; simpl; [reflexivity|]. rewrite IH. apply andb_assoc. Qed.
Lemma all_plain_app a b : all_plain (a ++ b) = all_plain a && all_plain b.
Proof. induction a as [|c a IH]; simpl; [reflexivity|]. rewrite IH. apply andb_assoc. Qed.
Lemma all_plain_spec a : all_plain a = true -> unblank a = a /\ no_paren a = true /\ no_nl a = true.
Proof.
  induction a as [|c a IH]; simpl; [auto|]. intros H.
  apply andb_true_iff in H. destruct H as [H1 H2]. destruct (IH H2) as (E1 & E2 & E3).
  unfold plain_char in H1. rewrite !andb_true_iff in H1. destruct H1 as [[Ha Hb] Hc].
  apply negb_true_iff in Hb. rewrite Hb, E1, E2, E3, Ha, Hc. auto.
Qed.
Lemma clean_no_paren s : no_paren s = true -> clean false s = Some (unblank s).
Proof.
  induction s as [|c s IH]; simpl; [reflexivity|]. intros H.
  apply andb_true_iff in H. destruct H as [H1 H2]. apply negb_true_iff in H1.
  rewrite H1, (IH H2). destruct (is_blank c); reflexivity.
Qed.

Lemma digits_plain s : all_digits s = true -> all_plain s = true.
Proof.
  induction s as [|c s IH]; simpl; [reflexivity|]. intros H.
  destruct (digit_val c) as [d|] eqn:E; [|discriminate]. rewrite (IH H), andb_true_r.
  destruct c as [[] [] [] [] [] [] [] []]; try reflexivity; vm_compute in E; discriminate.
Qed.

(** ** Numbers as text *)
Definition numtext (t : string) (v : Qc) : Prop :=
  all_plain t = true /\ forall r, stops r -> read_number (t ++ r) = Some (v, r).

Lemma print_N_plain n : all_plain (print_N n) = true.
Proof. apply digits_plain. apply print_N_spec. Qed.
Lemma print_Z_plain z : all_plain (print_Z z) = true.
Proof. unfold print_Z. destruct (z <? 0); simpl; apply print_N_plain. Qed.
Lemma numtext_Z z : numtext (print_Z z) (qz z).
Proof. split; [apply print_Z_plain | intros r Hr; apply read_print_Z; exact Hr]. Qed.

Lemma repr_plain k p : k = 0 \/ positional_k k p -> all_plain (repr_float k p) = true.
Proof.
  intros H. unfold repr_float. destruct (Z.eqb_spec k 0) as [->|Hk]; [reflexivity|].
  destruct H as [H|H]; [contradiction|]. unfold positional_k in H.
  assert (G : forall n, (0 < n)%N -> positional n p -> all_plain (repr_float_pos n p) = true).
  { intros n Hn Hp. destruct (repr_float_pos_shape n p Hn Hp) as (a & b & -> & Ha & Hb & _).
    rewrite all_plain_app. simpl. rewrite !digits_plain by assumption. reflexivity. }
  destruct (Z.ltb_spec k 0).
  - simpl. apply G; [lia|]. rewrite Z.abs_neq in H by lia. exact H.
  - apply G; [lia|]. rewrite Z.abs_eq in H by lia. exact H.
Qed.

Lemma numtext_float k p : k = 0 \/ positional_k k p -> numtext (repr_float k p) (pyval (PFloat k p)).
Proof. intros H. split; [apply repr_plain; exact H | intros r Hr; apply read_repr_float; assumption]. Qed.

Lemma numtext_rounded x p : (p <= 4)%nat -> coord_in_range x p -> numtext (print_rounded x p) (rounded p x).
Proof.
  intros Hp Hx. split.
  - unfold print_rounded. pose proof (pow10_pos p).
    destruct (Z.eqb_spec (round_units x p mod pow10 p) 0) as [E|E]; [apply print_Z_plain|].
    apply repr_plain. right. apply positional_range; [|apply coord_range_units; exact Hx|exact Hp].
    intros Z. rewrite Z, Z.mod_0_l in E by lia. congruence.
  - intros r Hr. apply read_print_rounded; assumption.
Qed.

Lemma plain_positional k p : plain_num (PFloat k p) -> k = 0 \/ positional_k k p.
Proof.
  intros [H|[H1 H2]]; [auto|]. destruct (Z.eq_dec k 0) as [|Hk]; [auto|]. right.
  unfold positional_k, positional. set (n := Z.to_N (Z.abs k)).
  assert (Hn : (0 < n)%N) by (unfold n; lia).
  assert (Hv : qabs (pyval (PFloat k p)) = (qz (Z.of_N n) / qz (pow10 p))%Qc).
  { unfold n. rewrite Z2N.id by lia. unfold pyval. pose proof (qz_pow10_pos p) as Hp.
    unfold Qcdiv. rewrite qabs_mult_pos.
    2:{ clear -Hp. unfold Qclt in *. rewrite this_inv. apply Qinv_lt_0_compat. exact Hp. }
    f_equal. destruct (Z.abs_spec k) as [[Ha ->]|[Ha ->]].
    - apply qabs_pos. rewrite <- qz_0. apply qz_le. lia.
    - rewrite qz_opp. apply qabs_neg. rewrite <- qz_0. apply qz_le. lia. }
  rewrite Hv in H1, H2.
  pose proof (qz_pow10_pos p) as Hp.
  assert (L1 : pow10 p <= Z.of_N n * 10000).
  { apply qz_le. rewrite qz_mult.
    assert (E : (qz (Z.of_N n) = (qz (Z.of_N n) / qz (pow10 p)) * qz (pow10 p))%Qc) by (field; apply qz_pow10_nz).
    rewrite E. set (u := (qz (Z.of_N n) / qz (pow10 p))%Qc) in *. clearbody u. clear - H1 Hp.
    replace (qz 10000) with (/ qq 1 10000)%Qc by (apply Qc_is_canon; reflexivity).
    unfold Qcle, Qclt in *. autorewrite with qc in *.
    change (/ (1 # 10000))%Q with (10000 # 1)%Q. nra. }
  assert (L2 : Z.of_N n < 10 ^ 16 * pow10 p).
  { apply qz_lt. rewrite qz_mult.
    assert (E : (qz (Z.of_N n) = (qz (Z.of_N n) / qz (pow10 p)) * qz (pow10 p))%Qc) by (field; apply qz_pow10_nz).
    rewrite E. set (u := (qz (Z.of_N n) / qz (pow10 p))%Qc) in *. clearbody u. clear - H2 Hp.
    set (B := qz (10 ^ 16)) in *. clearbody B.
    unfold Qcle, Qclt in *. autorewrite with qc in *. nra. }
  destruct (print_N_spec n) as (D1 & D2 & _ & D4).
  pose proof (dv_upper _ D1) as U. rewrite D2 in U.
  pose proof (print_N_lower n Hn) as Lo.
  set (len := String.length (print_N n)) in *.
  assert (Hlen : (1 <= len)%nat) by (unfold len; destruct (print_N n); simpl; [congruence|lia]).
  assert (U' : Z.of_N n < pow10 len) by (rewrite <- p10_pow10; lia).
  assert (Lo' : pow10 (pred len) <= Z.of_N n) by (rewrite <- p10_pow10; lia).
  split.
  - destruct (Nat.le_gt_cases p (len + 3)) as [|C]; [lia|exfalso].
    assert (pow10 (len + 4) <= pow10 p).
    { unfold pow10. apply Z.pow_le_mono_r; lia. }
    rewrite pow10_add in H. change (pow10 4) with 10000 in H. nia.
  - destruct (Nat.le_gt_cases len (p + 16)) as [|C]; [lia|exfalso].
    assert (pow10 (p + 16) <= pow10 (pred len)).
    { unfold pow10. apply Z.pow_le_mono_r; lia. }
    rewrite pow10_add in H. change (pow10 16) with (10 ^ 16) in H. nia.
Qed.

Lemma numtext_pynum n : plain_num n -> numtext (print_pynum n) (pyval n).
Proof.
  destruct n as [z|k p]; intros H; [apply numtext_Z|]. apply numtext_float. apply plain_positional. exact H.
Qed.

Lemma coord_ok_range x : coord_ok x -> coord_in_range x 3.
Proof.
  unfold coord_ok, coord_in_range. intros H.
  replace (qz (10 ^ 15)) with (qz (10 ^ 12) * qz (pow10 3))%Qc by (rewrite <- qz_mult; reflexivity).
  pose proof (qz_pow10_pos 3). set (P := qz (pow10 3)) in *. set (B := qz (10 ^ 12)) in *. set (u := qabs x) in *.
  clearbody P B u. qnra.
Qed.
Lemma numtext_coord x : coord_ok x -> numtext (print_rounded x 3) (rounded 3 x).
Proof. intros H. apply numtext_rounded; [lia | apply coord_ok_range; exact H]. Qed.

(** ** Sequences of words *)
Definition reads (s : string) (b : block) : Prop :=
  stops s /\ forall fuel, (String.length s <= fuel)%nat -> read_words fuel s = Some b.

Lemma reads_nil : reads "" [].
Proof. split; [exact I|]. intros [|fuel]; reflexivity. Qed.

Lemma letter_stops c l s : letter_of c = Some l -> stops (String c s).
Proof.
  intros H. simpl. destruct c as [[] [] [] [] [] [] [] []]; vm_compute in H; try discriminate H;
    split; try reflexivity; discriminate.
Qed.

Lemma reads_word c l t v r b :
  letter_of c = Some l -> numtext t v -> reads r b -> reads (String c t ++ r) (W l v :: b).
Proof.
  intros Hc [_ Ht] [Hr1 Hr2]. simpl. split; [eapply letter_stops; eassumption|].
  intros fuel Hf. destruct fuel as [|fuel]; [simpl in Hf; lia|]. cbn [read_words].
  rewrite Hc, (Ht r Hr1). rewrite Hr2; [reflexivity|].
  simpl in Hf. rewrite length_app_s in Hf. lia.
Qed.

Lemma reads_line s b : no_paren s = true -> reads (unblank s) b -> parse_line s = Some b.
Proof.
  intros H [_ H2]. unfold parse_line. rewrite clean_no_paren by exact H. apply H2. lia.
Qed.

(** A piece of text that, followed by readable words, contributes block [b]. *)
Definition piece (s : string) (b : block) : Prop :=
  no_paren s = true /\ no_nl s = true /\
  forall r br, reads r br -> reads (unblank s ++ r) (b ++ br)%list.

Lemma piece_nil : piece "" [].
Proof. split; [reflexivity|]. split; [reflexivity|]. intros r br H. exact H. Qed.
Lemma piece_app s1 b1 s2 b2 : piece s1 b1 -> piece s2 b2 -> piece (s1 ++ s2) (b1 ++ b2)%list.
Proof.
  intros (H1 & H2 & H3) (K1 & K2 & K3). split; [|split].
  - rewrite no_paren_app, H1, K1. reflexivity.
  - rewrite no_nl_app, H2, K2. reflexivity.
  - intros r br Hr. rewrite unblank_app, app_assoc_s, <- app_assoc. apply H3, K3, Hr.
Qed.
Lemma piece_space : piece " " [].
Proof. split; [reflexivity|]. split; [reflexivity|]. intros r br H. exact H. Qed.
Lemma piece_word c l t v : letter_of c = Some l -> numtext t v -> piece (String c t) [W l v].
Proof.
  intros Hc Ht. assert (Hp : plain_char c = true).
  { destruct c as [[] [] [] [] [] [] [] []]; vm_compute in Hc; try discriminate Hc; reflexivity. }
  assert (Ha : all_plain (String c t) = true) by (simpl; rewrite Hp; apply Ht).
  destruct (all_plain_spec _ Ha) as (E1 & E2 & E3).
  split; [exact E2|]. split; [exact E3|]. intros r br Hr. rewrite E1. apply reads_word; assumption.
Qed.
Lemma piece_sep s1 b1 s2 b2 : piece s1 b1 -> piece s2 b2 -> piece (s1 ++ " " ++ s2) (b1 ++ b2)%list.
Proof.
  intros H1 H2. apply piece_app; [exact H1|]. change b2 with ([] ++ b2)%list at 1.
  apply piece_app; [apply piece_space|exact H2].
Qed.
Lemma piece_concat ss bs : Forall2 piece ss bs -> piece (String.concat " " ss) (List.concat bs).
Proof.
  induction 1 as [|s b ss bs H1 H2 IH]; [apply piece_nil|].
  simpl. destruct ss as [|s2 ss].
  - inversion H2; subst. simpl. rewrite app_nil_r. exact H1.
  - apply piece_sep; [exact H1|exact IH].
Qed.

Lemma piece_line s b : piece s b -> parse_line s = Some b.
Proof.
  intros (H1 & H2 & H3). apply reads_line; [exact H1|].
  specialize (H3 "" [] reads_nil). rewrite app_nil_s, app_nil_r in H3. exact H3.
Qed.

(** fixed codes *)
Lemma piece_code c l n : letter_of c = Some l -> piece (String c (print_Z n)) [W l (qz n)].
Proof. intros H. apply piece_word; [exact H | apply numtext_Z]. Qed.

(** ** Axis groups *)
Lemma axis_group_concat a b c :
  str_axis_group a b c
  = String.concat " " (filter (fun s => negb (String.eqb s "")) [a; b; c]).
Proof.
  unfold str_axis_group. simpl.
  destruct (String.eqb a ""), (String.eqb b ""), (String.eqb c ""); reflexivity.
Qed.

Lemma piece_axis_group a ba b bb c bc :
  piece a ba -> piece b bb -> piece c bc ->
  (a = "" -> ba = []) -> (b = "" -> bb = []) -> (c = "" -> bc = []) ->
  piece (str_axis_group a b c) (ba ++ bb ++ bc)%list.
Proof.
  intros Ha Hb Hc Ea Eb Ec. rewrite axis_group_concat.
  pose (bs := map snd (filter (fun x => negb (String.eqb (fst x) "")) [(a, ba); (b, bb); (c, bc)])).
  assert (E : List.concat bs = (ba ++ bb ++ bc)%list).
  { unfold bs. simpl.
    destruct (String.eqb_spec a ""), (String.eqb_spec b ""), (String.eqb_spec c ""); simpl;
      rewrite ?Ea, ?Eb, ?Ec by assumption; simpl; rewrite ?app_nil_r; reflexivity. }
  rewrite <- E. apply piece_concat. unfold bs. simpl.
  destruct (String.eqb_spec a ""), (String.eqb_spec b ""), (String.eqb_spec c ""); simpl;
    f2; assumption.
Qed.

Definition prec_words (l : ascii) (v : option Qc) (p : nat) : block := opt_word l (option_map (rounded p) v).

Lemma piece_word_precision c v p :
  letter_of c = Some c -> (p <= 4)%nat ->
  (match v with Some v => coord_in_range v p | None => True end) ->
  piece (str_word_precision (String c "") v p) (prec_words c v p).
Proof.
  intros Hc Hp Hv. destruct v as [v|]; [|apply piece_nil].
  simpl. apply piece_word; [exact Hc | apply numtext_rounded; assumption].
Qed.

Lemma piece_group c1 c2 c3 v p :
  letter_of c1 = Some c1 -> letter_of c2 = Some c2 -> letter_of c3 = Some c3 ->
  (p <= 4)%nat -> avec_in_range v p ->
  piece (str_axis_group (str_word_precision (String c1 "") (ax v) p)
                        (str_word_precision (String c2 "") (ay v) p)
                        (str_word_precision (String c3 "") (az v) p))
        (prec_words c1 (ax v) p ++ prec_words c2 (ay v) p ++ prec_words c3 (az v) p)%list.
Proof.
  intros H1 H2 H3 Hp (R1 & R2 & R3).
  apply piece_axis_group; try (apply piece_word_precision; assumption).
  - destruct (ax v); [discriminate|reflexivity].
  - destruct (ay v); [discriminate|reflexivity].
  - destruct (az v); [discriminate|reflexivity].
Qed.

Lemma avec_ok_range v : avec_ok v -> avec_in_range v 3.
Proof.
  intros (H1 & H2 & H3). unfold avec_in_range.
  repeat split;
    [destruct (ax v)|destruct (ay v)|destruct (az v)]; simpl in *; try exact I; apply coord_ok_range; assumption.
Qed.

Lemma piece_xyz v : avec_ok v -> piece (str_xyz v 3) (axes_block v).
Proof. intros H. apply piece_group; try reflexivity; [lia | apply avec_ok_range; exact H]. Qed.

Lemma piece_feed f : plain_opt f -> piece (str_feed f) (feed_block f).
Proof.
  intros H. destruct f as [f|]; [|apply piece_nil]. simpl.
  apply piece_word; [reflexivity | apply numtext_pynum; exact H].
Qed.
Lemma str_feed_empty f : String.eqb (str_feed f) "" = negb (is_some f).
Proof. destruct f; reflexivity. Qed.

Lemma with_feed_piece ss bs f : Forall2 piece ss bs -> plain_opt f ->
  piece (String.concat " " (if String.eqb (str_feed f) "" then ss else (ss ++ [str_feed f])%list))
        (List.concat bs ++ feed_block f)%list.
Proof.
  intros H Hf. rewrite str_feed_empty. destruct f as [f|].
  - simpl negb. cbv iota. replace (List.concat bs ++ feed_block (Some f))%list with (List.concat (bs ++ [feed_block (Some f)])).
    + apply piece_concat. apply Forall2_app; [exact H|]. constructor; [apply piece_feed; exact Hf|constructor].
    + rewrite concat_app. simpl. rewrite ?app_nil_r. reflexivity.
  - simpl. rewrite app_nil_r. apply piece_concat. exact H.
Qed.

Lemma to_vector_rel c s v : to_vector c s true = Ok v ->
  vx v = centre_offset (ax c) (ax s) /\ vy v = centre_offset (ay c) (ay s) /\ vz v = centre_offset (az c) (az s).
Proof.
  unfold to_vector, centre_offset, rbind. intros H.
  destruct (ax c), (ax s), (ay c), (ay s), (az c), (az s); inversion H; simpl; auto.
Qed.
Lemma to_vector_printable c s : is_some (match to_vector c s true with Ok v => Some v | Err _ => None end)
  = (negb (is_some (ax c)) || is_some (ax s)) && (negb (is_some (ay c)) || is_some (ay s))
      && (negb (is_some (az c)) || is_some (az s)).
Proof. unfold to_vector, rbind. destruct (ax c), (ax s), (ay c), (ay s), (az c), (az s); reflexivity. Qed.

Lemma to_vector_ok_or_type c s : (exists v, to_vector c s true = Ok v) \/ to_vector c s true = Err TypeError.
Proof. unfold to_vector, rbind. destruct (ax c), (ax s), (ay c), (ay s), (az c), (az s); simpl; eauto. Qed.

Lemma str_motion_ok m : motion_ok m -> printable m = true ->
  exists s, str_motion m = Ok s /\ piece s (motion_block m).
Proof.
  intros (Hf & He & Ha) Hp.
  destruct m as [k st en ar|k st en ar f|cw st en c mid ar f]; simpl in Hf, He, Ha, Hp;
    unfold str_motion, motion_block.
  - eexists. split; [reflexivity|].
    replace (gword 0 :: axes_block en) with (List.concat [[gword 0]; axes_block en])
      by (simpl; rewrite app_nil_r; reflexivity).
    apply (piece_concat ["G0"; str_xyz en 3]).
    f2; [apply (piece_code "G" "G" 0); reflexivity | apply piece_xyz; exact He].
  - eexists. split; [reflexivity|].
    replace (gword 1 :: axes_block en ++ feed_block f)%list
      with (List.concat [[gword 1]; axes_block en] ++ feed_block f)%list by (simpl; rewrite app_nil_r; reflexivity).
    apply with_feed_piece; [|exact Hf].
    f2;
      [apply (piece_code "G" "G" 1); reflexivity | apply piece_xyz; exact He].
  - pose proof (to_vector_printable c st) as E. rewrite Hp in E.
    destruct (to_vector c st true) as [v|e] eqn:Ev; [|discriminate]. cbn [rbind].
    destruct (to_vector_rel _ _ _ Ev) as (E1 & E2 & E3).
    eexists. split; [reflexivity|].
    set (ijk := [W "I" (rounded 3 (centre_offset (ax c) (ax st)));
            W "J" (rounded 3 (centre_offset (ay c) (ay st)));
            W "K" (rounded 3 (centre_offset (az c) (az st)))]).
    fold ijk.
    replace (gword (if cw then 2 else 3) :: axes_block en ++ ijk ++ feed_block f)%list
      with (List.concat [[gword (if cw then 2 else 3)]; axes_block en; ijk] ++ feed_block f)%list.
    2:{ simpl. rewrite <- app_assoc. reflexivity. }
    apply with_feed_piece; [|exact Hf].
    f2.
    + destruct cw; [apply (piece_code "G" "G" 2); reflexivity | apply (piece_code "G" "G" 3); reflexivity].
    + apply piece_xyz. exact He.
    + unfold ijk. rewrite <- E1, <- E2, <- E3.
      apply (piece_group "I" "J" "K" (from_vector v) 3); try reflexivity; [lia|].
      apply avec_ok_range. unfold avec_ok. simpl. rewrite E1, E2, E3. exact Ha.
Qed.

Lemma str_motion_err m : printable m = false -> str_motion m = Err TypeError.
Proof.
  destruct m as [| |cw st en c mid ar f]; simpl; try discriminate.
  intros Hp. pose proof (to_vector_printable c st) as E. rewrite Hp in E.
  destruct (to_vector_ok_or_type c st) as [[v Hv]| ->]; [|reflexivity].
  rewrite Hv in E. discriminate.
Qed.

(** ** Configuration commands *)
Lemma piece_start s co : plain_opt s -> piece (str_start s co) (start_block s co).
Proof.
  intros H.
  assert (H3 : piece "M3" [mword 3]) by (apply (piece_code "M" "M" 3); reflexivity).
  assert (Hs : forall x, s = Some x -> piece (str_speed (Some x)) [W "S" (pyval x)]).
  { intros x ->. apply (piece_word "S" "S"); [reflexivity|apply numtext_pynum; exact H]. }
  assert (Hc : forall c, piece (str_coolant c) [mword (coolant_code c)]).
  { intros []; [apply (piece_code "M" "M" 7)|apply (piece_code "M" "M" 8)|apply (piece_code "M" "M" 9)]; reflexivity. }
  destruct s as [x|], co as [c|].
  - apply (piece_concat ["M3"; str_speed (Some x); str_coolant c] [[mword 3]; [W "S" (pyval x)]; [mword (coolant_code c)]]).
    f2; auto.
  - apply (piece_concat ["M3"; str_speed (Some x)] [[mword 3]; [W "S" (pyval x)]]). f2; auto.
  - apply (piece_concat ["M3"; str_coolant c] [[mword 3]; [mword (coolant_code c)]]). f2; auto.
  - exact H3.
Qed.

Lemma piece_stop co : piece (str_stop co) (stop_block co).
Proof.
  destruct co as [c|].
  - apply (piece_concat ["M5"; "M9"] [[mword 5]; [mword 9]]).
    f2; [apply (piece_code "M" "M" 5)|apply (piece_code "M" "M" 9)]; reflexivity.
  - apply (piece_code "M" "M" 5). reflexivity.
Qed.

Lemma piece_tool t :
  piece (String.concat " " [ str_tool_number (Some t); str_length_comp LC_ON; str_tool_length_offset (Some t);
          str_changer TOOL_CHANGE ])
        [W "T" (qz t); gword 43; W "H" (qz t); mword 6].
Proof.
  apply (piece_concat _ [[W "T" (qz t)]; [gword 43]; [W "H" (qz t)]; [mword 6]]).
  f2;
    [apply (piece_code "T" "T")|apply (piece_code "G" "G" 43)|apply (piece_code "H" "H")|apply (piece_code "M" "M" 6)];
    reflexivity.
Qed.

(** ** Lines *)
Lemma lines_aux_app a b :
  lines_aux (a ++ String newline b)
  = (fst (lines_aux a), (snd (lines_aux a) ++ (fst (lines_aux b) :: snd (lines_aux b)))%list).
Proof.
  induction a as [|c a IH]; simpl.
  - destruct (lines_aux b). reflexivity.
  - rewrite IH. destruct (lines_aux a) as [l ls]. simpl. destruct (Ascii.eqb c newline); reflexivity.
Qed.
Lemma lines_app a b : lines (a ++ nl ++ b) = (lines a ++ lines b)%list.
Proof.
  unfold lines. change (nl ++ b) with (String newline b). rewrite lines_aux_app.
  destruct (lines_aux a), (lines_aux b). reflexivity.
Qed.
Lemma lines_no_nl s : no_nl s = true -> lines s = [s].
Proof.
  unfold lines. intros H. assert (E : lines_aux s = (s, [])).
  { induction s as [|c s IH]; [reflexivity|]. simpl in *. apply andb_true_iff in H. destruct H as [H1 H2].
    rewrite (IH H2). apply negb_true_iff in H1. rewrite H1. reflexivity. }
  rewrite E. reflexivity.
Qed.

Lemma all_some_app {A} (l1 l2 : list (option A)) :
  all_some (l1 ++ l2)%list = match all_some l1, all_some l2 with Some a, Some b => Some (a ++ b)%list | _, _ => None end.
Proof.
  induction l1 as [|[a|] l IH]; simpl.
  - destruct (all_some l2); reflexivity.
  - rewrite IH. destruct (all_some l), (all_some l2); reflexivity.
  - reflexivity.
Qed.

(** Text that reads as the given blocks. *)
Definition text_blocks (s : string) (bs : list block) : Prop := parse_program s = Some bs.

Lemma text_app a ba b bb : text_blocks a ba -> text_blocks b bb -> text_blocks (a ++ nl ++ b) (ba ++ bb)%list.
Proof.
  unfold text_blocks, parse_program. intros H1 H2. rewrite lines_app, map_app, all_some_app, H1, H2. reflexivity.
Qed.
Lemma text_line s b : piece s b -> text_blocks s [b].
Proof.
  intros H. unfold text_blocks, parse_program. rewrite lines_no_nl by apply H. simpl.
  rewrite (piece_line _ _ H). reflexivity.
Qed.
Lemma text_concat ss bss : ss <> [] -> Forall2 text_blocks ss bss ->
  text_blocks (String.concat nl ss) (List.concat bss).
Proof.
  intros Hne H. induction H as [|s b ss bss H1 H2 IH]; [congruence|].
  simpl. destruct ss as [|s2 ss].
  - inversion H2; subst. simpl. rewrite app_nil_r. exact H1.
  - apply text_app; [exact H1 | apply IH; discriminate].
Qed.

Lemma text_config c : config_ok c -> text_blocks (str_config c) (config_blocks c).
Proof.
  destruct c as [s co|co| |t s co]; intros H.
  - apply text_line, piece_start, H.
  - apply text_line, piece_stop.
  - vm_compute. reflexivity.
  - unfold str_config, str_tool_change, config_blocks.
    apply (text_concat _ [[stop_block co]; [[gword 30]]; [[mword 1]];
             [[W "T" (qz t); gword 43; W "H" (qz t); mword 6]]; [start_block s co]]); [discriminate|].
    f2.
    + apply text_line, piece_stop.
    + apply text_line, (piece_code "G" "G" 30). reflexivity.
    + apply text_line, (piece_code "M" "M" 1). reflexivity.
    + apply text_line, piece_tool.
    + apply text_line, piece_start, H.
Qed.

Lemma text_command c : command_ok c -> exists s, str_command c = Ok s /\ s <> "" /\ text_blocks s (command_blocks c).
Proof.
  destruct c as [m|c]; simpl; intros H.
  - destruct H as [H1 H2]. destruct (str_motion_ok m H1 H2) as (s & E & Hp).
    exists s. split; [exact E|]. split; [|apply text_line; exact Hp].
    intros ->. pose proof (piece_line _ _ Hp) as L. destruct m as [| |[]]; discriminate.
  - exists (str_config c). split; [reflexivity|]. split; [|apply text_config; exact H].
    destruct c as [s co|co| |t s co]; try discriminate.
    + destruct s, co; discriminate.
    + destruct co; discriminate.
    + destruct co; discriminate.
Qed.
