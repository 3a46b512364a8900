(** Small facts about the command constructors, and the remaining text lemmas. *)
From Verif Require Import Base.Str Spec.Gcode Spec.Blocks Model.Groups Model.Command
  Proofs.TextP Proofs.CommandP Proofs.TextThmP.
From Coq Require Import NArith Lia.
Local Open Scope string_scope.
Local Open Scope Z_scope.

Lemma printed_accurate c x p : letter_of c = Some c -> (p <= 4)%nat -> coord_in_range x p ->
  exists v k,
    parse_line (str_word_precision (String c "") (Some x) p) = Some [W c v] /\
    v = (qz k / qz (pow10 p))%Qc /\
    (qabs (x - v) * qz (pow10 p) <= qq 1 2)%Qc /\
    ((qabs (x - v) * qz (pow10 p))%Qc = qq 1 2 -> Z.even k = true).
Proof.
  intros Hc Hp Hx. destruct (rounded_near p x) as (H1 & k & H2 & H3).
  exists (rounded p x), k. split; [apply printed_word; assumption|]. auto.
Qed.

Lemma exponent_printed : exists x, coord_in_range x 5 /\
  is_canonical (print_rounded x 5) = false /\
  parse_line (str_word_precision "X" (Some x) 5) = Some [W "X" (qz 1); W "E" (qz (-5))] /\
  rounded 5 x <> qz 1.
Proof.
  exists (qq 1 100000). split; [vm_compute; discriminate|]. split; [reflexivity|].
  split; [reflexivity|]. intros H. apply qc_eq_iff in H. vm_compute in H. discriminate.
Qed.

Lemma xyz_text v p : (p <= 4)%nat -> avec_in_range v p ->
  parse_line (str_xyz v p) = Some (group_block "X" "Y" "Z" v p) /\
  spaced_words (str_xyz v p) (group_block "X" "Y" "Z" v p).
Proof. intros. apply group_text; auto. Qed.
Lemma ijk_text v p : (p <= 4)%nat -> avec_in_range v p ->
  parse_line (str_ijk v p) = Some (group_block "I" "J" "K" v p) /\
  spaced_words (str_ijk v p) (group_block "I" "J" "K" v p).
Proof. intros. apply group_text; auto. Qed.

Lemma motion_text m : motion_ok m -> printable m = true ->
  exists s, str_motion m = Ok s /\ parse_line s = Some (motion_block m).
Proof.
  intros H1 H2. destruct (str_motion_ok m H1 H2) as (s & E & P). exists s. split; [exact E|].
  apply piece_line. exact P.
Qed.

Ltac in_cases H := simpl in H; repeat (destruct H as [H|H]; [subst|]); [..|contradiction].

Lemma omitted_axes en s arrow feed cw c mid m :
  In m [mk_rapid en (Some s) arrow; mk_cut en (Some s) arrow feed; mk_arc cw en (Some s) c mid arrow feed] ->
  m_start m = s /\
  (forall x, ax en = Some x -> ax (m_end m) = Some x) /\ (ax en = None -> ax (m_end m) = ax s) /\
  (forall y, ay en = Some y -> ay (m_end m) = Some y) /\ (ay en = None -> ay (m_end m) = ay s) /\
  (forall z, az en = Some z -> az (m_end m) = Some z) /\ (az en = None -> az (m_end m) = az s).
Proof.
  intros H. in_cases H; simpl; repeat split; try intros ? E; try intros E; rewrite ?E; reflexivity.
Qed.

Lemma no_start en arrow feed cw c mid m :
  In m [mk_rapid en None arrow; mk_cut en None arrow feed; mk_arc cw en None c mid arrow feed] ->
  m_start m = av_none /\ m_end m = en.
Proof. intros H. in_cases H; split; reflexivity. Qed.

Lemma vertical_only en s arrow feed r :
  In r [mk_plunge_rapid en (Some s) arrow; mk_retract en (Some s) arrow; mk_plunge_cut en (Some s) arrow feed] ->
  ((ax en <> None \/ ay en <> None) -> r = Err RuntimeError) /\
  (ax en = None -> ay en = None -> exists m, r = Ok m /\ m_start m = s /\
     ax (m_end m) = ax s /\ ay (m_end m) = ay s /\
     az (m_end m) = match az en with Some z => Some z | None => az s end).
Proof.
  destruct en as [[x|] [y|] [z|]]; intros H; in_cases H; (split;
   [intros [A|A]; first [reflexivity | exfalso; apply A; reflexivity]
   |intros A B; first [discriminate | eexists; split; [reflexivity|]; repeat split; reflexivity]]).
Qed.

Lemma vertical_abs z st arrow feed :
  mk_plunge_rapid (AV None None z) st arrow = Ok (plunge_rapid_abs z st arrow) /\
  mk_retract (AV None None z) st arrow = Ok (retract_abs z st arrow) /\
  mk_plunge_cut (AV None None z) st arrow feed = Ok (plunge_cut_abs z st arrow feed).
Proof. destruct st; repeat split; reflexivity. Qed.
