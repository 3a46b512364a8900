(** Proofs for Props/Text.v: the words without precision. *)
From Verif Require Import Base.Str Spec.Gcode Spec.Blocks Model.Groups Model.Address Model.Command Proofs.TextP Proofs.CommandP Proofs.TextThmP.
Local Open Scope string_scope.
Local Open Scope list_scope.

Lemma plain_word c a : letter_of c = Some c -> plain_opt a -> parse_line (str_word (String c "") a) = Some (opt_word c (option_map pyval a)).
Proof.
  intros Hc H. apply piece_line. destruct a as [a|]; [|apply piece_nil]. apply piece_word; [exact Hc|apply numtext_pynum; exact H].
Qed.
Lemma plain_words : (forall a, plain_opt a ->
    parse_line (str_feed a) = Some (opt_word "F" (option_map pyval a)) /\ parse_line (str_speed a) = Some (opt_word "S" (option_map pyval a)) /\
    parse_line (str_dwell a) = Some (opt_word "P" (option_map pyval a))) /\
  (forall n, parse_line (str_tool_number n) = Some (opt_word "T" (option_map qz n)) /\ parse_line (str_tool_length_offset n) = Some (opt_word "H" (option_map qz n)) /\
    parse_line (str_tool_radius_offset n) = Some (opt_word "D" (option_map qz n))).
Proof.
  split.
  - intros a H. split; [|split]; apply plain_word; auto.
  - assert (K : forall c n, letter_of c = Some c -> parse_line (str_word (String c "") (option_map PInt n)) = Some (opt_word c (option_map qz n))).
    { intros c n Hc. rewrite plain_word; [|exact Hc|destruct n; exact I]. destruct n; reflexivity. }
    intros n. split; [|split]; apply K; reflexivity.
Qed.
