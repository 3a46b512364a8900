From Verif Require Import Base.Str Base.Py Spec.Gcode Model.Job.
Local Open Scope string_scope.
Local Open Scope list_scope.

(** What [save_gcode] writes is no G-code at all. *)
Lemma saved_no_program addr h r : parse_program (save_gcode addr h r) = None.
Proof.
  change (parse_program (String "<" ("cq_cam.fluent.Job object at 0x" ++ addr ++ ">")%string) = None). generalize ("cq_cam.fluent.Job object at 0x" ++ addr ++ ">")%string. intros s.
  unfold parse_program, lines. cbn [lines_aux]. destruct (lines_aux s) as [l ls]. cbn [Ascii.eqb].
  assert (P : parse_line (String "<" l) = None).
  { unfold parse_line. cbn [clean]. change (clean false (String "<" l)) with (match clean false l with Some t => Some (String "<" t) | None => None end). destruct (clean false l); reflexivity. }
  change (all_some (parse_line (String "<" l) :: map parse_line ls) = None). rewrite P. reflexivity.
Qed.
Lemma saved_text h r : save_gcode "7f3a5c" h r = "<cq_cam.fluent.Job object at 0x7f3a5c>"%string.
Proof. reflexivity. Qed.
