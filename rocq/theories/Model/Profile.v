(** * Model of /repo/src/cq_cam/operations/profile.py, of [offset_wire] in utils/geometry_op.py and
    of the fluent methods that call it *)
From Verif Require Import Base.Str Base.Py Model.Geometry.
From Verif Require Export Model.Routers Model.Tabs.
Local Open Scope Qc_scope.
Local Open Scope list_scope.

(** What these functions ask of the CAD kernel about wires (lists of edges, see Model/Edges).
    Wires are values: setting the location of a wire (circle_bug_workaround) gives a new list. *)
Record wire_kernel := WireKernel {
  wk_transform : plane -> list edge -> list edge;        (* wire.transformShape(top.fG) *)
  wk_offset : list edge -> Qc -> result (list (list edge));  (* wire.offset2D(offset, "arc") *)
  wk_area : list edge -> result Qc;                      (* cq.Face.makeFromWires(wire).Area() *)
  wk_relocate : list edge -> list edge -> list edge;     (* source, target:
      target.wrapped.Location(source.wrapped.Location().Inverted()) *)
  wk_moved : list edge -> Qc -> list edge;               (* wire.moved(Location(Vector(0, 0, dz))) *)
  wk_below : plane -> list edge -> result bool           (* profile.py:71-73: some wire is left from
      the edges of wire.cut(job.top_plane_face) whose centre is below 0 *)
}.

(** circle_bug_workaround.py:4-18; [startPoint() == endPoint()] is cq.Vector's comparison with
    tolerance. *)
Definition is_circle_wire (K : kernel) (source : list edge) : bool :=
  match source with
  | [e] => k_veq K (e_startPoint e) (e_endPoint e)
  | _ => false
  end.
Definition circle_bug_workaround (K : kernel) (WK : wire_kernel) (source : list edge)
  (targets : list (list edge)) : list (list edge) :=
  if is_circle_wire K source then map (wk_relocate WK source) targets else targets.

(** geometry_op.py:71-99 [offset_wire], kind "arc".  The loop variable is also called [wire]: after
    the loop it is the last of the offset wires (the argument if there are none).  The bare
    [except] swallows every error of the area computation. *)
Definition big_enough (WK : wire_kernel) (w : list edge) : bool :=
  match wk_area WK w with Ok a => qltb (qq 1 10) a | Err _ => false end.
Definition retry_offset (WK : wire_kernel) (w : list edge) (offset : Qc) : result (list (list edge)) :=
  match wk_offset WK w offset with
  | Err ValueError => wk_offset WK w (offset + qq 1 1000000)
  | r => r
  end.
Definition offset_wire (K : kernel) (WK : wire_kernel) (w : list edge) (offset : Qc) : result (list (list edge)) :=
  match retry_offset WK w offset with
  | Err ValueError => Ok []
  | Err x => Err x
  | Ok offset_wires =>
      Ok (circle_bug_workaround K WK (last offset_wires w) (filter (big_enough WK) offset_wires))
  end.

(** profile.py:59-78: the layers above [base], from the lowest up.  [fuel] bounds the loop; it is
    never used up (see [layers_fuel] in the proofs). *)
Fixpoint layers_above (TK : tab_kernel) (WK : wire_kernel) (top : plane) (max_count : Z) (base : list edge)
  (s : Qc) (fuel : nat) (i : Z) : result (list (list edge)) :=
  match fuel with
  | O => Err OutOfFuel
  | S fuel =>
      if (max_count <? i)%Z then Err RuntimeError
      else
        let layer := wk_moved WK base (s * qz (i + 1)) in
        if qleb (qq (-1) 1000) (tk_zmin TK layer) then Ok []
        else
          do some <- wk_below WK top layer;
          if some then do more <- layers_above TK WK top max_count base s fuel (i + 1); Ok (layer :: more)
          else Ok []
  end.
Definition layer_fuel (max_count : Z) : nat := S (S (Z.to_nat max_count)).
(** profile.py:54-81; a stepdown of None or 0 is not used. *)
Definition profile_layers (TK : tab_kernel) (WK : wire_kernel) (j : job) (base : list edge)
  (stepdown : option Qc) : result (list (list edge)) :=
  match stepdown with
  | Some s =>
      if qeqb s 0 then Ok [base]
      else do above <- layers_above TK WK (j_top j) (j_max_stepdown_count j) base s
                         (layer_fuel (j_max_stepdown_count j)) 0;
           Ok (rev (base :: above))
  | None => Ok [base]
  end.
(** profile.py:82-83; [tab_z] is measured from the base (line 56). *)
Definition profile_toolpaths (TK : tab_kernel) (WK : wire_kernel) (j : job) (stepdown : option Qc)
  (t : option tabs) (base : list edge) : result (list (list edge)) :=
  do layers <- profile_layers TK WK j base stepdown;
  match t with
  | None => Ok layers
  | Some t => mapM (fun w => apply_tabs TK w (tk_zmin TK base + tabs_height t) t) layers
  end.

(** profile.py:30-88 [profile].  [offset * job.tool_radius] raises TypeError without a radius. *)
Definition profile (K : kernel) (TK : tab_kernel) (WK : wire_kernel) (j : job) (w : list edge) (offset : Qc)
  (stepdown : option Qc) (t : option tabs) : result (list motion) :=
  let w := wk_transform WK (j_top j) w in
  match tool_radius j with
  | None => Err TypeError
  | Some r =>
      do bases <- offset_wire K WK w (offset * r);
      do paths <- mapM (profile_toolpaths TK WK j stepdown t) bases;
      route_wires K j (map WWire (concat paths)) None None
  end.

(** utils.py:350-373 [extract_wires]: wires, faces (outer wire, inner wires) and anything else. *)
Inductive shape := SWire (w : list edge) | SFace (outer : list edge) (inners : list (list edge)) | SOther.
Fixpoint extract_wires (shapes : list shape) : result (list (list edge) * list (list edge)) :=
  match shapes with
  | [] => Ok ([], [])
  | s :: ss =>
      do (o, i) <- match s with
                   | SWire w => Ok ([w], [])
                   | SFace outer inners => Ok ([outer], inners)
                   | SOther => Err ValueError
                   end;
      do (os, is_) <- extract_wires ss;
      Ok (o ++ os, i ++ is_)
  end.

(** fluent.py:167-187: the commands of [Job.profile]. *)
Definition profile_group (K : kernel) (TK : tab_kernel) (WK : wire_kernel) (j : job) (stepdown : option Qc)
  (t : option tabs) (wires : list (list edge)) (offset : option Qc) : result (list motion) :=
  match offset with
  | None => Ok []
  | Some o => do cs <- mapM (fun w => profile K TK WK j w o stepdown t) wires; Ok (concat cs)
  end.
Definition profile_gen (K : kernel) (TK : tab_kernel) (WK : wire_kernel) (outers inners : list (list edge))
  (outer_offset inner_offset : option Qc) (stepdown : option Qc) (t : option tabs) (j : job)
  : result (list command) :=
  do ci <- profile_group K TK WK j stepdown t inners inner_offset;
  do co <- profile_group K TK WK j stepdown t outers outer_offset;
  Ok (map Motion (ci ++ co)).

(** fluent.py:148-187 [Job.profile]; a workplane or a single shape is given as the list of its
    objects.  The check of the diameter comes before [update_tool]. *)
Definition job_profile (K : kernel) (TK : tab_kernel) (WK : wire_kernel) (h : heap) (r : ref)
  (shapes : list shape) (outer_offset inner_offset : option Qc) (stepdown : option Qc) (t : option tabs)
  (tl : option tool) : heap * result ref :=
  match hget h r with
  | None => (h, Err AttributeError)
  | Some j =>
      if negb (is_some (j_tool_diameter j)) then (h, Err ValueError)
      else if negb (is_some outer_offset) && negb (is_some inner_offset) then (h, Err ValueError)
      else match extract_wires shapes with
           | Err x => (h, Err x)
           | Ok (outers, inners) =>
               fluent_op h r tl "Profile" (profile_gen K TK WK outers inners outer_offset inner_offset stepdown t)
           end
  end.

(** fluent.py:189-210 [Job.wire_profile] *)
Definition wire_profile_gen (K : kernel) (TK : tab_kernel) (WK : wire_kernel) (wires : list (list edge))
  (offset : Qc) (stepdown : option Qc) (t : option tabs) (j : job) : result (list command) :=
  do cs <- profile_group K TK WK j stepdown t wires (Some offset); Ok (map Motion cs).
Definition job_wire_profile (K : kernel) (TK : tab_kernel) (WK : wire_kernel) (h : heap) (r : ref)
  (wires : list (list edge)) (offset : Qc) (stepdown : option Qc) (t : option tabs) (tl : option tool)
  : heap * result ref :=
  fluent_op h r tl "Wire Profile" (wire_profile_gen K TK WK wires offset stepdown t).
