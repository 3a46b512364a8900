(** * C01-C04, C07: the text of coordinates and motion commands *)
From Verif Require Import Base.Str Spec.Gcode Spec.Blocks Model.Groups Model.Command
  Proofs.TextP Proofs.CommandP Proofs.TextThmP Proofs.MotionP Proofs.PlainWordsP Model.Address.
From Coq Require Import NArith.
Local Open Scope string_scope.
Local Open Scope Z_scope.

(** ** C01 *)
(** A printed coordinate reads back as a multiple k/10^p at most half a unit away, even on ties. *)
Theorem C01_printed_coordinate_accurate : forall c x p,
  letter_of c = Some c -> (p <= 4)%nat -> coord_in_range x p ->
  exists v k,
    parse_line (str_word_precision (String c "") (Some x) p) = Some [W c v] /\
    v = (qz k / qz (pow10 p))%Qc /\
    (qabs (x - v) * qz (pow10 p) <= qq 1 2)%Qc /\
    ((qabs (x - v) * qz (pow10 p))%Qc = qq 1 2 -> Z.even k = true).
Proof. exact printed_accurate. Qed.
Print Assumptions C01_printed_coordinate_accurate.

(** The words without precision read back as they are, and a missing one prints nothing. *)
Theorem C01_plain_words : (forall a, plain_opt a ->
    parse_line (str_feed a) = Some (opt_word "F" (option_map pyval a)) /\ parse_line (str_speed a) = Some (opt_word "S" (option_map pyval a)) /\
    parse_line (str_dwell a) = Some (opt_word "P" (option_map pyval a))) /\
  (forall n, parse_line (str_tool_number n) = Some (opt_word "T" (option_map qz n)) /\ parse_line (str_tool_length_offset n) = Some (opt_word "H" (option_map qz n)) /\
    parse_line (str_tool_radius_offset n) = Some (opt_word "D" (option_map qz n))).
Proof. exact plain_words. Qed.
Print Assumptions C01_plain_words.
Example C01_example_plain : plain_opt (Some (PFloat 5 1)) /\ str_dwell (Some (PFloat 5 1)) = "P0.5" /\ str_tool_radius_offset (Some 4) = "D4".
Proof. repeat split. right. split; vm_compute; [discriminate|reflexivity]. Qed.

Example C01_example : coord_in_range (qq 1 3) 3 /\
  str_word_precision "X" (Some (qq 1 3)) 3 = "X0.333" /\ str_word_precision "X" (Some (qq (-5) 10000)) 3 = "X0" /\
  str_word_precision "X" (Some (qq (-15) 10000)) 3 = "X-0.002".
Proof. split; [vm_compute; discriminate|]. repeat split. Qed.

(** ** C02 *)
Theorem C02_printed_canonical : forall x p, (p <= 4)%nat -> coord_in_range x p ->
  is_canonical (print_rounded x p) = true.
Proof. exact canonical_print_rounded. Qed.
Print Assumptions C02_printed_canonical.

Theorem C02_same_text_iff_same_value : forall x y p, (p <= 4)%nat ->
  coord_in_range x p -> coord_in_range y p ->
  (print_rounded x p = print_rounded y p <-> rounded p x = rounded p y).
Proof. exact print_rounded_eq. Qed.
Print Assumptions C02_same_text_iff_same_value.

(** At precision 5 small values are printed with an exponent, which is read as X1 E-5. *)
Theorem C02_precision5_refuted : exists x, coord_in_range x 5 /\
  is_canonical (print_rounded x 5) = false /\
  parse_line (str_word_precision "X" (Some x) 5) = Some [W "X" (qz 1); W "E" (qz (-5))] /\
  rounded 5 x <> qz 1.
Proof. exact exponent_printed. Qed.
Print Assumptions C02_precision5_refuted.
Example C02_example : coord_in_range (qq (-1) 3) 3 /\ print_rounded (qq (-1) 3) 3 = "-0.333"%string /\
  coord_in_range (qq 12341 10000) 3 /\ coord_in_range (qq 12339 10000) 3 /\
  print_rounded (qq 12341 10000) 3 = "1.234"%string /\ print_rounded (qq 12339 10000) 3 = "1.234"%string.
Proof. repeat split; vm_compute; discriminate. Qed.

(** ** C03 *)
Theorem C03_xyz_text : forall v p, (p <= 4)%nat -> avec_in_range v p ->
  parse_line (str_xyz v p) = Some (group_block "X" "Y" "Z" v p) /\
  spaced_words (str_xyz v p) (group_block "X" "Y" "Z" v p).
Proof. exact xyz_text. Qed.
Print Assumptions C03_xyz_text.

Theorem C03_ijk_text : forall v p, (p <= 4)%nat -> avec_in_range v p ->
  parse_line (str_ijk v p) = Some (group_block "I" "J" "K" v p) /\
  spaced_words (str_ijk v p) (group_block "I" "J" "K" v p).
Proof. exact ijk_text. Qed.
Print Assumptions C03_ijk_text.

Example C03_example :
  str_xyz (AV (Some (qq 1 3)) None (Some (qz (-2)))) 3 = "X0.333 Z-2" /\ str_xyz av_none 3 = "" /\
  avec_in_range (AV (Some (qq 1 3)) None (Some (qz (-2)))) 3.
Proof. repeat split; vm_compute; discriminate. Qed.

(** ** C04 *)
Theorem C04_motion_text : forall m, motion_ok m -> printable m = true ->
  exists s, str_motion m = Ok s /\ parse_line s = Some (motion_block m).
Proof. exact motion_text. Qed.
Print Assumptions C04_motion_text.

(** Otherwise (an arc whose centre has a coordinate its start lacks) printing raises TypeError. *)
Theorem C04_motion_error : forall m, printable m = false -> str_motion m = Err TypeError.
Proof. exact str_motion_err. Qed.
Print Assumptions C04_motion_error.

Example C04_example :
  let m := mk_arc true (AV (Some (qz 1)) (Some (qz 0)) None) (Some (AV (Some (qz (-1))) (Some (qz 0)) (Some (qz 0))))
              (AV (Some (qz 0)) (Some (qz 0)) None) (AV (Some (qz 0)) (Some (qz 1)) None) false (Some (PFloat 2005 1)) in
  motion_ok m /\ printable m = true /\ str_motion m = Ok "G2 X1 Y0 Z0 I1 J0 K0 F200.5".
Proof. repeat split; vm_compute; try (right; split); try discriminate; reflexivity. Qed.
Example C04_error_example :
  printable (mk_arc true (AV (Some (qz 1)) None None) None (AV (Some (qz 0)) None None) av_none false None) = false.
Proof. reflexivity. Qed.

(** ** C07 *)
Theorem C07_omitted_axes : forall en s arrow feed cw c mid m,
  In m [mk_rapid en (Some s) arrow; mk_cut en (Some s) arrow feed; mk_arc cw en (Some s) c mid arrow feed] ->
  m_start m = s /\
  (forall x, ax en = Some x -> ax (m_end m) = Some x) /\ (ax en = None -> ax (m_end m) = ax s) /\
  (forall y, ay en = Some y -> ay (m_end m) = Some y) /\ (ay en = None -> ay (m_end m) = ay s) /\
  (forall z, az en = Some z -> az (m_end m) = Some z) /\ (az en = None -> az (m_end m) = az s).
Proof. exact omitted_axes. Qed.
Print Assumptions C07_omitted_axes.

Theorem C07_no_start : forall en arrow feed cw c mid m,
  In m [mk_rapid en None arrow; mk_cut en None arrow feed; mk_arc cw en None c mid arrow feed] ->
  m_start m = av_none /\ m_end m = en.
Proof. exact no_start. Qed.
Print Assumptions C07_no_start.

Theorem C07_vertical_only : forall en s arrow feed r,
  In r [mk_plunge_rapid en (Some s) arrow; mk_retract en (Some s) arrow; mk_plunge_cut en (Some s) arrow feed] ->
  ((ax en <> None \/ ay en <> None) -> r = Err RuntimeError) /\
  (ax en = None -> ay en = None -> exists m, r = Ok m /\ m_start m = s /\
     ax (m_end m) = ax s /\ ay (m_end m) = ay s /\
     az (m_end m) = match az en with Some z => Some z | None => az s end).
Proof. exact vertical_only. Qed.
Print Assumptions C07_vertical_only.

(** The z-only [abs] constructors never raise and agree with the classes. *)
Theorem C07_vertical_abs : forall z st arrow feed,
  mk_plunge_rapid (AV None None z) st arrow = Ok (plunge_rapid_abs z st arrow) /\
  mk_retract (AV None None z) st arrow = Ok (retract_abs z st arrow) /\
  mk_plunge_cut (AV None None z) st arrow feed = Ok (plunge_cut_abs z st arrow feed).
Proof. exact vertical_abs. Qed.
Print Assumptions C07_vertical_abs.

Example C07_example :
  str_motion (mk_cut (AV (Some (qz 5)) None None) (Some (ai 1 2 3)) false None) = Ok "G1 X5 Y2 Z3" /\
  mk_plunge_cut (AV (Some (qz 0)) None None) (Some (ai 1 2 3)) false None = Err RuntimeError.
Proof. split; reflexivity. Qed.
