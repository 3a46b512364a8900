(** * Functions of /repo/src/cq_cam that nothing calls *)
From Verif Require Import Base.Str Base.Py Model.Geometry Model.Interp Model.Tabs Model.Command Model.Job.
Local Open Scope string_scope.
Local Open Scope Qc_scope.
Local Open Scope list_scope.

(** geometry_op.py:142-154 [path_to_wire].  [make_line] answers cq.Edge.makeLine, [assemble]
    cq.Wire.assembleEdges (the ordered edges of the wire).  [z] is the number given as the reference,
    or the height of the start point of the wire given. *)
Definition lift (z : Qc) (p : pt) : vec := V3 (fst p) (snd p) z.
Definition path_to_wire (make_line : vec -> vec -> result edge) (assemble : list edge -> result (list edge)) (p : path) (z : Qc)
  : result (list edge) :=
  do es <- mapM (fun ab => make_line (lift z (fst ab)) (lift z (snd ab))) (combine p (tl p));
  assemble es.

(** tabs.py:144-157 [wire_edge_d_ranges]: as [load_ordered_edges], with the length of the wire
    answered by the kernel. *)
Definition wire_edge_d_ranges (wire_length : Qc) (es : list edge) : result (list edge * list (Qc * Qc)) :=
  match es with
  | [] => Ok ([], [])
  | _ => if qeqb wire_length 0 then Err ZeroDivisionError else Ok (es, edge_ranges wire_length 0 (map e_length es))
  end.

(** base_operation.py:59-79 [combine_faces] and [combine_faces_and_break].  [Compound] has the faces
    found in it; [Other] is any other object of the combined workplane.  The result is a list of lists
    and faces ([inr]). *)
Inductive combined (F : Type) := Compound (faces : list F) | SingleFace (f : F) | OtherShape.
Arguments Compound {F}. Arguments SingleFace {F}. Arguments OtherShape {F}.
Definition combine_faces {F} (combine : list F -> result (list (combined F))) (faces : list F) : result (list (combined F)) :=
  do objects <- combine faces;
  Ok (filter (fun o => match o with OtherShape => false | _ => true end) objects).
Definition combine_faces_and_break {F} (combine : list F -> result (list (combined F))) (faces : list F) : result (list (list F + F)) :=
  do items <- combine_faces combine faces;
  Ok (flat_map (fun o => match o with Compound fs => [inl fs] | SingleFace f => [inr f] | OtherShape => [] end) items).

(** base_operation.py:39-47 [Operation.to_gcode]: the generator calls [command.to_gcode], which no
    command has. *)
Definition base_to_gcode (commands : list command) : result string :=
  match commands with [] => Ok "" | _ :: _ => Err AttributeError end.
