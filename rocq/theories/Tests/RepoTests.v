(** * The repository's own tests, run against the model

    /repo/src/cq_cam/tests and /repo/src/cq_cam/utils/tests contain programs that the real code
    is known to produce.  The same calls are made here to the model, with a CAD kernel that knows
    the box of tests/conftest.py (5 x 5 x 2, the job's plane on top).  These are checks of the
    model, not proofs about it.  The tests of the kernel itself (test_offset.py [test_offset_face],
    test_polyface.py, test_circle_bug_workaround.py, the cleaning of polygons in test_precision.py)
    have nothing to say about the model. *)
From Verif Require Import Base.Str Base.Py Model.Groups Model.Geometry Model.Tree Model.Routers Model.Profile Model.Drill
  Model.Interp Model.Strategy Model.Surface Model.PocketOp Model.Contour Model.Visual.
Import Model.Pocket.
Local Open Scope string_scope.
Local Open Scope Qc_scope.
Local Open Scope list_scope.

(** ** The kernel *)
Definition at_ (a b : vec) (t : Qc) : vec := vadd a (vscale t (vsub b a)).
(** Axis-parallel segments, so that lengths are rational. *)
Definition taxi (a b : vec) : Qc := qabs (vx b - vx a) + qabs (vy b - vy a) + qabs (vz b - vz a).
Definition seg (a b : vec) : edge :=
  Edge 0 GLINE false a b (at_ a b) (at_ a b) 0 1 (taxi a b) (V3 0 0 0) (V3 0 0 1) false.
(** A quarter turn around [c], counterclockwise; the parameter 1/2 is not on the circle. *)
Definition quarter (c a b : vec) : edge :=
  Edge 0 GCIRCLE false a b (at_ a b) (at_ a b) 0 1 1 c (V3 0 0 1) false.
Definition move_edge (f : vec -> vec) (e : edge) : edge :=
  Edge (e_id e) (e_geom e) (e_reversed e) (f (e_startPoint e)) (f (e_endPoint e)) (fun p => f (e_param e p))
    (fun d => f (e_pos e d)) (e_param0 e) (e_param1 e) (e_length e) (f (e_center e)) (e_normal e) (e_closed e).
Definition veq (a b : vec) : bool := qeqb (vx a) (vx b) && qeqb (vy a) (vy b) && qeqb (vz a) (vz b).
Definition near_nothing : kernel := Kernel veq (fun _ _ => None).

(** Squares around the origin, given by half their side. *)
Definition ccw_square (s z : Qc) : list edge :=
  [seg (V3 (- s) (- s) z) (V3 s (- s) z); seg (V3 s (- s) z) (V3 s s z);
   seg (V3 s s z) (V3 (- s) s z); seg (V3 (- s) s z) (V3 (- s) (- s) z)].
Definition cw_square (s z : Qc) : list edge :=
  [seg (V3 s (- s) z) (V3 (- s) (- s) z); seg (V3 (- s) (- s) z) (V3 (- s) s z);
   seg (V3 (- s) s z) (V3 s s z); seg (V3 s s z) (V3 s (- s) z)].
(** A square grown by [o], with rounded corners. *)
Definition grown (s o z : Qc) : list edge :=
  let g := s + o in
  [seg (V3 (- s) (- g) z) (V3 s (- g) z); quarter (V3 s (- s) z) (V3 s (- g) z) (V3 g (- s) z);
   seg (V3 g (- s) z) (V3 g s z); quarter (V3 s s z) (V3 g s z) (V3 s g z);
   seg (V3 s g z) (V3 (- s) g z); quarter (V3 (- s) s z) (V3 (- s) g z) (V3 (- g) s z);
   seg (V3 (- g) s z) (V3 (- g) (- s) z); quarter (V3 (- s) (- s) z) (V3 (- g) (- s) z) (V3 (- s) (- g) z)].
Definition half_side (es : list edge) : Qc := match es with e :: _ => qabs (vx (e_startPoint e)) | [] => 0 end.
Definition height_of (es : list edge) : Qc := match es with e :: _ => vz (e_startPoint e) | [] => 0 end.
Definition offset_square (es : list edge) (o : Qc) : result (list (list edge)) :=
  let s := half_side es in
  if qeqb o 0 then Ok [es]
  else if qltb 0 o then Ok [grown s o (height_of es)]
  else if qltb 0 (s + o) then Ok [ccw_square (s + o) (height_of es)] else Err ValueError.
Definition low (e : edge) : Qc := qmin (vz (e_startPoint e)) (vz (e_endPoint e)).
Definition box_wk : wire_kernel := {|
  wk_transform := fun top => map (move_edge (to_local top));
  wk_offset := offset_square;
  wk_area := fun es => Ok (qz 4 * half_side es * half_side es);
  wk_relocate := fun _ w => w;
  wk_moved := fun w dz => map (move_edge (fun v => V3 (vx v) (vy v) (vz v + dz))) w;
  wk_below := fun _ w => Ok (existsb (fun e => qltb (low e) 0) w) |}.
Definition piece (c : Qc -> vec) (p q : Qc) (rev : bool) : result edge :=
  Ok (Edge 0 GLINE rev (c p) (c q) c (fun d => c (p + d * (q - p))) p q (taxi (c p) (c q)) (V3 0 0 0) (V3 0 0 1) false).
Definition box_tk : tab_kernel := {|
  tk_param_at := fun e d => e_param0 e + d * (e_param1 e - e_param0 e);
  tk_curve := e_param; tk_location := fun _ v => v; tk_make := piece; tk_line := fun a b => Ok (seg a b);
  tk_assemble := Some;
  tk_zmin := fun es => match es with [] => 0 | e :: es => fold_right (fun e m => qmin (low e) m) (low e) es end;
  tk_length := fun es => fold_right (fun e s => e_length e + s) 0 es |}.

(** tests/conftest.py *)
Definition top_plane : plane := PL (V3 0 0 (qz 2)) (V3 1 0 0) (V3 0 1 0) (V3 0 0 1).
Definition top_face : shape := SFace (ccw_square (qq 5 2) (qz 2)) [].
Definition bottom_face : shape := SFace (cw_square (qq 5 2) 0) [].
Definition test_job : job :=
  new_job top_plane (PInt 200) None (Some (qq 3 2)) None "Job" None None None 3 METRIC PLANE_XY OFFSET_1 ABSOLUTE
    ARC_ABSOLUTE CONTINUOUS None.
Definition test_heap : heap := [test_job].

Definition gcode_of (x : heap * result ref) : result string :=
  match x with (h, Ok r) => to_gcode h r | (_, Err e) => Err e end.
(** Lines of a program, and the frame of the programs in the tests. *)
Definition lines (l : list string) : string := String.concat nl l.
Definition header : list string :=
  ["(Job - Feedrate: 200 - Unit: Unit.METRIC)"; "G90 G54 G64 G50 G17 G94"; "G49 G40 G80"; "G21"; "G30"; "M3"].
Definition footer : list string := ["G90 G54 G64 G50 G17 G94"; "G49 G40 G80"; "G21"; "G30"; "M5"; "M30"].
Definition is_text (r : result string) (s : string) : bool := match r with Ok t => String.eqb t s | Err _ => false end.
Lemma is_text_ok r s : is_text r s = true -> r = Ok s.
Proof. destruct r as [t|]; [|discriminate]. cbn. intros H. apply String.eqb_eq in H. rewrite H. reflexivity. Qed.
Ltac text := apply is_text_ok; vm_compute; reflexivity.

(** The arguments that [Job.profile] gets by default (fluent.py:148-156): outer_offset 1, no inner
    offset, no stepdown, no tabs, no tool. *)
Definition test_profile (f : shape) (outer_offset : Qc) (stepdown : option Qc) (t : option tabs) : result string :=
  gcode_of (job_profile near_nothing box_tk box_wk test_heap 0%nat [f] (Some outer_offset) None stepdown t None).

(** ** tests/test_profile.py *)
Example test_profile_square_outside : test_profile top_face 1 None None = Ok (lines (header ++ [
  "(Job - Profile)";
  "G0 Z10";
  "G0 X-2.5 Y-3.25 Z10";
  "G0 X-2.5 Y-3.25 Z1";
  "G1 X-2.5 Y-3.25 Z0 F200";
  "G1 X2.5 Y-3.25 Z0 F200";
  "G3 X3.25 Y-2.5 Z0 I0 J0.75 K0 F200";
  "G1 X3.25 Y2.5 Z0 F200";
  "G3 X2.5 Y3.25 Z0 I-0.75 J0 K0 F200";
  "G1 X-2.5 Y3.25 Z0 F200";
  "G3 X-3.25 Y2.5 Z0 I0 J-0.75 K0 F200";
  "G1 X-3.25 Y-2.5 Z0 F200";
  "G3 X-2.5 Y-3.25 Z0 I0.75 J0 K0 F200"] ++ footer)).
Proof. text. Qed.
Example test_profile_square_midline : test_profile top_face 0 None None = Ok (lines (header ++ [
  "(Job - Profile)";
  "G0 Z10";
  "G0 X-2.5 Y-2.5 Z10";
  "G0 X-2.5 Y-2.5 Z1";
  "G1 X-2.5 Y-2.5 Z0 F200";
  "G1 X2.5 Y-2.5 Z0 F200";
  "G1 X2.5 Y2.5 Z0 F200";
  "G1 X-2.5 Y2.5 Z0 F200";
  "G1 X-2.5 Y-2.5 Z0 F200"] ++ footer)).
Proof. text. Qed.
Example test_profile_square_inside : test_profile top_face (- (1)) None None = Ok (lines (header ++ [
  "(Job - Profile)";
  "G0 Z10";
  "G0 X-1.75 Y-1.75 Z10";
  "G0 X-1.75 Y-1.75 Z1";
  "G1 X-1.75 Y-1.75 Z0 F200";
  "G1 X1.75 Y-1.75 Z0 F200";
  "G1 X1.75 Y1.75 Z0 F200";
  "G1 X-1.75 Y1.75 Z0 F200";
  "G1 X-1.75 Y-1.75 Z0 F200"] ++ footer)).
Proof. text. Qed.
Example test_profile_stepdown : test_profile bottom_face 0 (Some 1) None = Ok (lines (header ++ [
  "(Job - Profile)";
  "G0 Z10";
  "G0 X2.5 Y-2.5 Z10";
  "G0 X2.5 Y-2.5 Z1";
  "G1 X2.5 Y-2.5 Z-1 F200";
  "G1 X-2.5 Y-2.5 Z-1 F200";
  "G1 X-2.5 Y2.5 Z-1 F200";
  "G1 X2.5 Y2.5 Z-1 F200";
  "G1 X2.5 Y-2.5 Z-1 F200";
  "G0 X2.5 Y-2.5 Z10";
  "G0 X2.5 Y-2.5 Z1";
  "G1 X2.5 Y-2.5 Z-2 F200";
  "G1 X-2.5 Y-2.5 Z-2 F200";
  "G1 X-2.5 Y2.5 Z-2 F200";
  "G1 X2.5 Y2.5 Z-2 F200";
  "G1 X2.5 Y-2.5 Z-2 F200"] ++ footer)).
Proof. text. Qed.
Example test_profile_tabs : (do t <- edge_tabs (qz 2) 1 1 None; test_profile bottom_face 0 None (Some t)) =
  Ok (lines (header ++ [
  "(Job - Profile)";
  "G0 Z10";
  "G0 X2.5 Y-2.5 Z10";
  "G0 X2.5 Y-2.5 Z1";
  "G1 X2.5 Y-2.5 Z-2 F200";
  "G1 X1.333 Y-2.5 Z-2 F200";
  "G1 X1.333 Y-2.5 Z-1 F200";
  "G1 X0.333 Y-2.5 Z-1 F200";
  "G1 X0.333 Y-2.5 Z-2 F200";
  "G1 X-0.333 Y-2.5 Z-2 F200";
  "G1 X-0.333 Y-2.5 Z-1 F200";
  "G1 X-1.333 Y-2.5 Z-1 F200";
  "G1 X-1.333 Y-2.5 Z-2 F200";
  "G1 X-2.5 Y-2.5 Z-2 F200";
  "G1 X-2.5 Y-1.333 Z-2 F200";
  "G1 X-2.5 Y-1.333 Z-1 F200";
  "G1 X-2.5 Y-0.333 Z-1 F200";
  "G1 X-2.5 Y-0.333 Z-2 F200";
  "G1 X-2.5 Y0.333 Z-2 F200";
  "G1 X-2.5 Y0.333 Z-1 F200";
  "G1 X-2.5 Y1.333 Z-1 F200";
  "G1 X-2.5 Y1.333 Z-2 F200";
  "G1 X-2.5 Y2.5 Z-2 F200";
  "G1 X-1.333 Y2.5 Z-2 F200";
  "G1 X-1.333 Y2.5 Z-1 F200";
  "G1 X-0.333 Y2.5 Z-1 F200";
  "G1 X-0.333 Y2.5 Z-2 F200";
  "G1 X0.333 Y2.5 Z-2 F200";
  "G1 X0.333 Y2.5 Z-1 F200";
  "G1 X1.333 Y2.5 Z-1 F200";
  "G1 X1.333 Y2.5 Z-2 F200";
  "G1 X2.5 Y2.5 Z-2 F200";
  "G1 X2.5 Y1.333 Z-2 F200";
  "G1 X2.5 Y1.333 Z-1 F200";
  "G1 X2.5 Y0.333 Z-1 F200";
  "G1 X2.5 Y0.333 Z-2 F200";
  "G1 X2.5 Y-0.333 Z-2 F200";
  "G1 X2.5 Y-0.333 Z-1 F200";
  "G1 X2.5 Y-1.333 Z-1 F200";
  "G1 X2.5 Y-1.333 Z-2 F200";
  "G1 X2.5 Y-2.5 Z-2 F200"] ++ footer)).
Proof. text. Qed.
Example test_profile_wire_tabs : test_profile bottom_face 0 None (Some (WireTabs 2 1 1)) = Ok (lines (header ++ [
  "(Job - Profile)";
  "G0 Z10";
  "G0 X2.5 Y-2.5 Z10";
  "G0 X2.5 Y-2.5 Z1";
  "G1 X2.5 Y-2.5 Z-1 F200";
  "G1 X2 Y-2.5 Z-1 F200";
  "G1 X2 Y-2.5 Z-2 F200";
  "G1 X-2.5 Y-2.5 Z-2 F200";
  "G1 X-2.5 Y2 Z-2 F200";
  "G1 X-2.5 Y2 Z-1 F200";
  "G1 X-2.5 Y2.5 Z-1 F200";
  "G1 X-2 Y2.5 Z-1 F200";
  "G1 X-2 Y2.5 Z-2 F200";
  "G1 X2.5 Y2.5 Z-2 F200";
  "G1 X2.5 Y-2 Z-2 F200";
  "G1 X2.5 Y-2 Z-1 F200";
  "G1 X2.5 Y-2.5 Z-1 F200"] ++ footer)).
Proof. text. Qed.

(** ** tests/test_drill.py *)
Definition test_hole : drill_object := DWire (Ok (V3 0 0 (qz 2))).
Example test_drill_superficially : gcode_of (job_drill test_heap 0%nat (Some [test_hole]) (Some 1) None) = Ok (lines (header ++ [
  "(Job - Drill)";
  "G0 Z1";
  "G0 X0 Y0 Z1";
  "G0 X0 Y0 Z0";
  "G1 X0 Y0 Z-1 F200"] ++ footer)).
Proof. text. Qed.

(** ** tests/test_pocket.py *)
(** Faces are level squares with their half side and height; pyclipper as far as needed for one
    square at a time.  It starts its results in the corner on the upper right. *)
Definition square_path (s : Qc) : path := [(s, s); (- s, s); (- s, - s); (s, - s)].
Definition path_half (p : path) : Qc := match p with a :: _ => qabs (fst a) | [] => 0 end.
Definition one_square (ps qs : list path) : result (list polynode) :=
  Ok (map (fun p => PNode (square_path (path_half p)) []) ps).
(** [contains]: every corner lies in the bounding box of the other outline. *)
Definition span (f : pt -> Qc) (p : path) : Qc * Qc :=
  match p with
  | [] => (0, 0)
  | a :: _ => (fold_right (fun b m => qmin (f b) m) (f a) p, fold_right (fun b m => qmax (f b) m) (f a) p)
  end.
Definition box_contains (a b : pathface) : bool :=
  forallb (fun p => let '(x0, x1) := span fst (pf_outer a) in let '(y0, y1) := span snd (pf_outer a) in
    qleb x0 (fst p) && qleb (fst p) x1 && qleb y0 (snd p) && qleb (snd p) y1) (pf_outer b).
Definition square_engine : engine := {|
  en_offset := fun p o _ => let s := path_half p + o in Ok (if qltb 0 s then [square_path s] else []);
  en_union := one_square; en_difference := one_square;
  en_contains := fun a b => Ok (box_contains a b) |}.
Definition box_fk : face_kernel := {|
  fk_face := Qc * Qc;
  fk_transform := fun top f => (fst f, snd f - vz (p_origin top));
  fk_zmin := snd; fk_zmax := snd;
  fk_outer := fun f => ccw_square (fst f) (snd f); fk_inners := fun _ => [];
  fk_basis := fun _ => Err KeyError;
  fk_make := fun es _ => Ok (half_side es, height_of es);
  fk_translate := fun f v => (fst f, snd f + vz v);
  fk_combine := fun fs => Ok fs; fk_cut := fun f _ => Ok [f] |}.
Definition defaults (stepdown : option Qc) : pocket_args := PA None None None None None stepdown.
Definition test_pocket (h : heap) (r : ref) (f : Qc * Qc) (stepdown : option Qc) (t : option tool) : heap * result ref :=
  job_pocket near_nothing box_wk box_fk square_engine 50 h r [f] None (defaults stepdown) t.
(** [job.operations[i].to_gcode()] *)
Definition operation_text (x : heap * result ref) (i : nat) : result string :=
  match x with
  | (h, Err e) => Err e
  | (h, Ok r) =>
      match hget h r with
      | None => Err AttributeError
      | Some j => match nth_error (j_operations j) i with
                  | Some o => do n <- name_of h (op_job o); op_to_gcode n o
                  | None => Err IndexError
                  end
      end
  end.
Example test_stepdown : operation_text (test_pocket test_heap 0%nat (1, 1) (Some (qq 1 2)) None) 0%nat = Ok (lines [
  "(Job - Pocket)";
  "G0 Z10";
  "G0 X0.25 Y0.25 Z10";
  "G0 X0.25 Y0.25 Z1";
  "G1 X0.25 Y0.25 Z-0.5 F200";
  "G1 X-0.25 Y0.25 Z-0.5 F200";
  "G1 X-0.25 Y-0.25 Z-0.5 F200";
  "G1 X0.25 Y-0.25 Z-0.5 F200";
  "G1 X0.25 Y0.25 Z-0.5 F200";
  "G0 X0.25 Y0.25 Z10";
  "G0 X0.25 Y0.25 Z1";
  "G1 X0.25 Y0.25 Z-1 F200";
  "G1 X-0.25 Y0.25 Z-1 F200";
  "G1 X-0.25 Y-0.25 Z-1 F200";
  "G1 X0.25 Y-0.25 Z-1 F200";
  "G1 X0.25 Y0.25 Z-1 F200"]).
Proof. text. Qed.
Example test_apply_stepdown_invalid_depths :
  apply_stepdown [[PF [] [] (qz (-5)); PF [] [] (qz (-6))]] None 1 = Err RuntimeError.
Proof. vm_compute. reflexivity. Qed.
Definition upper_container : pathface := PF [(0, 0); (1, 0); (1, 1); (0, 1)] [] (qz (-3)).
Definition upper_non_container : pathface := PF [(0, 0); (- (1), 0); (- (1), - (1)); (0, - (1))] [] (qz (-3)).
Definition bottom : pathface := PF [(0, 0); (1, 0); (1, 1); (0, 1)] [] (qz (-5)).
Example test_determine_stepdown_start_depth :
  determine_stepdown_start_depth square_engine bottom [] = Ok None /\
  determine_stepdown_start_depth square_engine bottom [upper_container] = Ok (Some (qz (-3))) /\
  determine_stepdown_start_depth square_engine bottom [upper_non_container] = Ok None.
Proof. split; [|split]; vm_compute; reflexivity. Qed.

(** ** tests/test_tool_change.py *)
(** [job = operation(job, face_1, tool=tool_1); job = operation(job, face_2, tool=tool_2)] *)
Definition then_ (x : heap * result ref) (f : heap -> ref -> heap * result ref) : heap * result ref :=
  match x with (h, Ok r) => f h r | (h, Err e) => (h, Err e) end.
Inductive test_operation := TPocket | TProfile | TDrill.
(** The box is 10 x 10 x 5 around the origin; the floors are at 3/2 and 1/2. *)
Definition test_op (o : test_operation) (deep : bool) (t : tool) (h : heap) (r : ref) : heap * result ref :=
  let s := if deep then qz 3 else qz 4 in
  let z := if deep then qq 1 2 else qq 3 2 in
  match o with
  | TPocket => test_pocket h r (s, z) None (Some t)
  | TProfile => job_profile near_nothing box_tk box_wk h r [SFace (ccw_square s z) []] (Some 1) None None None (Some t)
  | TDrill => job_drill h r (Some [DWire (Ok (V3 0 0 z))]) (Some 1) (Some t)
  end.
Definition two (o : test_operation) (deep : bool) (t1 t2 : tool) : heap * result ref :=
  then_ (test_op o false t1 test_heap 0%nat) (test_op o deep t2).
Definition same_text (a b : result string) : bool :=
  match a, b with Ok s, Ok t => String.eqb s t | _, _ => false end.
Definition number (d n : Z) : tool := Tool (Some (qz d)) (Some n) None None.
Example test_same_tool_diameter : map (fun o => let x := two o false (number 5 1) (number 5 2) in
    same_text (operation_text x 1%nat) (operation_text x 3%nat)) [TPocket; TProfile] = [true; true].
Proof. vm_compute. reflexivity. Qed.
Example test_different_tool_diameter : map (fun o => let x := two o false (number 5 1) (number 1 2) in
    match operation_text x 1%nat, operation_text x 3%nat with Ok s, Ok t => negb (String.eqb s t) | _, _ => false end)
  [TPocket; TProfile] = [true; true].
Proof. vm_compute. reflexivity. Qed.
Definition change_text (label : string) (c : config) : string := (label ++ nl ++ str_config c)%string.
Definition tool_change_label : string := "(Job - Tool Change)".
Definition speed_change_label : string := "(Job - Speed Change)".
(** [operations[2]] is the second pocket, profile or drill itself: no second tool change. *)
Example test_same_tool_number : map (fun o => let x := two o true (number 5 1) (number 5 1) in
    (is_text (operation_text x 0%nat) (change_text tool_change_label (CToolChange 1 None None)),
     is_text (operation_text x 2%nat) (change_text tool_change_label (CToolChange 1 None None)),
     match operation_text x 2%nat with Ok _ => true | Err _ => false end)) [TPocket; TProfile; TDrill]
  = [(true, false, true); (true, false, true); (true, false, true)].
Proof. vm_compute. reflexivity. Qed.
Definition speed_tool (d : option Qc) (n : option Z) (s : Z) : tool := Tool d n None (Some (PInt s)).
Example test_different_tool_number : map (fun o => map (fun c => let '(c1, c2, t1, t2, label) := c in
    let x := two o true t1 t2 in
    is_text (operation_text x 0%nat) (change_text label c1) && is_text (operation_text x 2%nat) (change_text label c2))
    [(CToolChange 1 None None, CToolChange 2 None None, number 3 1, number 3 2, tool_change_label);
     (CStart (Some (PInt 1000)) None, CStart (Some (PInt 2000)) None, speed_tool None None 1000, speed_tool None None 2000,
      speed_change_label);
     (CToolChange 1 (Some (PInt 1000)) None, CToolChange 2 (Some (PInt 2000)) None,
      speed_tool (Some (qz 3)) (Some 1%Z) 1000, speed_tool (Some (qz 3)) (Some 2%Z) 2000, tool_change_label)])
    [TPocket; TProfile; TDrill]
  = [[true; true; true]; [true; true; true]; [true; true; true]].
Proof. vm_compute. reflexivity. Qed.

(** ** tests/test_op3d.py *)
(** The faces of the box are one square seen from above, lowest point -2; the drop cutter answers 0
    everywhere on top.  pyclipper cuts the scanlines at the sides of the square, highest first. *)
Definition clip_line (s : Qc) (l : path) : list path :=
  match l with
  | [(x0, y); (x1, _)] =>
      if qleb (- s) y && qleb y s then [from_clipper (to_clipper [(qmax x0 (- s), y); (qmin x1 s, y)])] else []
  | _ => []
  end.
(** The length of the diagonal of a square of side 3, rounded. *)
Definition diagonal : Qc := qq 4243 1000.
Definition box_zc : zig_clipper := {|
  zc_bounds := fun ps =>
    let s := path_half (concat ps) in let half := diagonal / qz 2 in
    Ok (qz (qfloor (- half)), qz (qfloor (- half)), qz (qceil half), qz (qceil half));
  zc_execute := fun ps ls => Ok (rev (flat_map (clip_line (path_half (concat ps))) ls)) |}.
Definition box_sk : surface_kernel := {|
  sk_face := Qc; sk_wire := unit;
  sk_make := fun _ => Err KernelError;
  sk_zmin := fun top _ => Ok (- vz (p_origin top));
  sk_project := fun _ fs => Ok (firstn 1 fs);
  sk_planar := fun _ => true;
  sk_offset := fun s o _ => Ok [s + o];
  sk_outer := fun s => (ccw_square s 0, true);
  sk_length := fun a b => qabs (fst b - fst a) + qabs (snd b - snd a);
  sk_drop := fun _ _ ps => Ok (map (fun _ => 0) ps) |}.
Definition test_surface_args : surface_args := SA 1 (qq 1 2) (qq 4 5) (Some (OffNum (- (1)))) (Some (OffNum 1)) None 0.
Example test_surface : gcode_of (job_surface3d test_heap 0%nat box_sk box_zc test_surface_args [OFace (qq 5 2 : sk_face box_sk)]) =
  Ok (lines (header ++ [
  "(Job - Surface 3D)";
  "G0 Z10";
  "G0 X-1.5 Y1 Z10";
  "G0 X-1.5 Y1 Z1";
  "G1 X-1.5 Y1 Z0";
  "G1 X-1 Y1 Z0";
  "G1 X-0.5 Y1 Z0";
  "G1 X0 Y1 Z0";
  "G1 X0.5 Y1 Z0";
  "G1 X1 Y1 Z0";
  "G1 X1.5 Y1 Z0";
  "G1 X1.5 Y1 Z0";
  "G1 X1.5 Y0.5 Z0";
  "G1 X1.5 Y0.2 Z0";
  "G1 X1.5 Y0.2 Z0";
  "G1 X1 Y0.2 Z0";
  "G1 X0.5 Y0.2 Z0";
  "G1 X0 Y0.2 Z0";
  "G1 X-0.5 Y0.2 Z0";
  "G1 X-1 Y0.2 Z0";
  "G1 X-1.5 Y0.2 Z0";
  "G1 X-1.5 Y0.2 Z0";
  "G1 X-1.5 Y-0.3 Z0";
  "G1 X-1.5 Y-0.6 Z0";
  "G1 X-1.5 Y-0.6 Z0";
  "G1 X-1 Y-0.6 Z0";
  "G1 X-0.5 Y-0.6 Z0";
  "G1 X0 Y-0.6 Z0";
  "G1 X0.5 Y-0.6 Z0";
  "G1 X1 Y-0.6 Z0";
  "G1 X1.5 Y-0.6 Z0";
  "G1 X1.5 Y-0.6 Z0";
  "G1 X1.5 Y-1.1 Z0";
  "G1 X1.5 Y-1.4 Z0";
  "G1 X1.5 Y-1.4 Z0";
  "G1 X1 Y-1.4 Z0";
  "G1 X0.5 Y-1.4 Z0";
  "G1 X0 Y-1.4 Z0";
  "G1 X-0.5 Y-1.4 Z0";
  "G1 X-1 Y-1.4 Z0";
  "G1 X-1.5 Y-1.4 Z0"] ++ footer)).
Proof. text. Qed.

(** ** tests/test_fluent.py *)
Definition test_vk : visual_kernel := VK unit (fun _ _ => Ok tt) (fun _ _ _ => Ok tt) veq (fun _ e => Ok e).
Definition shown_profile (module : option string) : result (list (shown test_vk * string)) :=
  match job_profile near_nothing box_tk box_wk test_heap 0%nat [top_face] (Some 1) None None None None with
  | (h, Ok r) => match hget h r with Some j => show test_vk module j | None => Err AttributeError end
  | (_, Err e) => Err e
  end.
Definition names_of {A} (r : result (list (A * string))) : result (list string) := do l <- r; Ok (map snd l).
Example test_fluent_show : names_of (shown_profile None) = Err ValueError /\
  map (fun m => names_of (shown_profile (Some m))) ["cq_editor"; "ocp_vscode"; "unknown"] =
  [Ok ["Job #0 Profile"]; Ok ["Job #0 Profile"]; Ok ["Job #0 Profile"]].
Proof. split; vm_compute; reflexivity. Qed.

(** ** tests/test_utils.py *)
(** Only the normal of an arc is read. *)
Definition arc_with_normal (n : vec) : edge := Edge 0 GCIRCLE false n n (fun _ => n) (fun _ => n) 0 1 1 n n false.
Example test_arc_clockwise : is_arc_clockwise2 (arc_with_normal (V3 0 0 1)) = Ok false /\
  is_arc_clockwise2 (arc_with_normal (V3 0 0 (- (1)))) = Ok true /\
  is_arc_clockwise2 (arc_with_normal (V3 (- (1)) 0 0)) = Err RuntimeError /\
  is_arc_clockwise2 (arc_with_normal (V3 (qq 3 5) 0 (qq 4 5))) = Ok false /\
  is_arc_clockwise2 (arc_with_normal (V3 (qq 3 5) 0 (qq (-4) 5))) = Ok true.
Proof. repeat split; vm_compute; reflexivity. Qed.

(** ** utils/tests/test_segment_math.py *)
Definition is_dist (r : result (Qc * pt)) (d : Qc) (p : pt) : bool :=
  match r with Ok (d', p') => qeqb d d' && pt_eqb p p' | Err _ => false end.
Example test_dist_to_segment_squared :
  is_dist (dist_to_segment_squared (0, 1) (qz 10, 0) (qz (-10), 0)) 1 (0, 0)
  && is_dist (dist_to_segment_squared (0, 1) (0, 0) (qz (-10), 0)) 1 (0, 0)
  && is_dist (dist_to_segment_squared (0, 1) (qz (-1), 0) (qz (-10), 0)) (qz 2) (qz (-1), 0)
  && is_dist (dist_to_segment_squared (0, 1) (qz (-1), 0) (qq 1 2, qq 3 2)) 0 (0, 1) = true.
Proof. vm_compute. reflexivity. Qed.
(** The last one is compared after rounding to two decimals.  (The assertion of the test is always
    true; 0.04 and (0.12, 0.84) are the right values all the same.) *)
Example test_dist_to_segment_rounded :
  match dist_to_segment_squared (0, 1) (qz (-1), 0) (1, qq 3 2) with
  | Ok (d, (x, y)) => (round_units d 2, round_units x 2, round_units y 2) | Err _ => (0, 0, 0)%Z end = (4, 12, 84)%Z.
Proof. vm_compute. reflexivity. Qed.
(** The position on the segment is kept squared in the model: 1/4 for 0.5. *)
Example test_distance_to_path :
  match distance_to_path (0, 1) [(qz (-1), 0); (0, 0); (1, 1); (1, qz 2)] with
  | Ok (Some (d, c, (i, t))) => qeqb d (qq 1 2) && pt_eqb c (qq 1 2, qq 1 2) && Nat.eqb i 1 && qeqb t (qq 1 4)
  | _ => false
  end = true.
Proof. vm_compute. reflexivity. Qed.

(** ** utils/tests/test_tree.py *)
Definition named (t : tree string) (s : string) : nat :=
  match find (fun i => match nth_error t i with Some n => String.eqb (n_obj n) s | None => false end) (seq 0 (length t)) with
  | Some i => i | None => length t end.
Definition grow (t : tree string) (parent : string) (names : list string) : tree string := branch t (named t parent) names.
Definition test_grown : tree string :=
  let t := new_tree "root" in
  let t := grow t "root" ["L1"; "M1"; "R1"] in
  let t := grow t "L1" ["L2"] in
  let t := grow t "L2" ["L3A"; "L3B"] in
  let t := grow t "R1" ["R1A"; "R1B"; "R1C"] in
  let t := grow t "R1B" ["R2A"; "R2B"] in
  grow t "R2B" ["R3"].
Definition next_name (t : tree string) : option string :=
  match next_unlocked t with Some i => option_map n_obj (nth_error t i) | None => None end.
Definition lock_name (t : tree string) (s : string) : tree string := lock t (named t s).
Fixpoint nexts (t : tree string) (names : list string) : list (option string) :=
  next_name t :: match names with [] => [] | s :: names => nexts (lock_name t s) names end.
Example test_tree_next : nexts test_grown ["M1"; "L3A"; "L3B"; "R1A"; "R1C"; "R2A"; "R3"] =
  [Some "M1"; Some "L3A"; Some "L3B"; Some "R1A"; Some "R1C"; Some "R2A"; Some "R3"; None].
Proof. vm_compute. reflexivity. Qed.
Example test_tree_sequences : sequences String.eqb test_grown = Ok [
  ["R3"; "R2B"; "R1B"; "R1"; "root"]; ["L3A"; "L2"; "L1"]; ["L3B"]; ["R2A"]; ["R1A"]; ["R1C"]; ["M1"]].
Proof. vm_compute. reflexivity. Qed.

(** ** utils/tests/test_offset.py *)
Definition is_value (r : result Qc) (q : Qc) : bool := match r with Ok x => qeqb x q | Err _ => false end.
Example test_calculate_offset :
  is_value (calculate_offset (Some 1) (Some (OMul 1)) None) 1
  && is_value (calculate_offset (Some 1) (Some (OPair 1 1)) None) (qz 2)
  && is_value (calculate_offset (Some 1) None (Some (OMul (qz 3)))) (qz 3)
  && is_value (calculate_offset (Some 1) (Some (OMul (- (1)))) None) (- (1))
  && is_value (calculate_offset (Some 1) (Some (OPair (- (1)) (qq 1 2))) None) (qq (-1) 2)
  && is_value (calculate_offset (Some 1) (Some (OPair 0 (qq 105 100))) None) (qq 105 100)
  && is_value (calculate_offset (Some (qq 1 2)) None (Some (OMul (qz 3)))) (qq 3 2) = true.
Proof. vm_compute. reflexivity. Qed.

(** ** utils/tests/test_precision.py *)
(** A circle of diameter 1: its length is pi. *)
Definition circle_of_length (l : Qc) : edge :=
  Edge 0 GCIRCLE false (V3 (qq 1 2) 0 0) (V3 (qq 1 2) 0 0) (fun _ => V3 (qq 1 2) 0 0) (fun _ => V3 (qq 1 2) 0 0) 0 1 l
    (V3 0 0 0) (V3 0 0 1) true.
Example test_interpolation_precision :
  map (fun p => Z.of_nat (edge_interpolation_count (circle_of_length (qq 314159265 100000000)) p)) [1; 2; 3; 4]%nat
  = [31; 314; 3141; 31415]%Z.
Proof. vm_compute. reflexivity. Qed.
Example test_interpolated_length :
  match wire_to_path veq (fun _ => Err KeyError) [circle_of_length (qq 314159265 100000000)] 1 with
  | Ok p => length p | Err _ => 0%nat end = 31%nat.
Proof. vm_compute. reflexivity. Qed.

(** ** tests/test_gcode.py (the remaining ones; see also Model/Command.v) *)
Example test_ccw_arc :
  str_motion (mk_arc false (AV (Some 1) (Some 0) None) (Some (ai (-1) 0 0)) (AV (Some 0) (Some 0) None)
    (AV (Some 0) (Some (- (1))) None) false (Some (PInt 200))) = Ok "G3 X1 Y0 Z0 I1 J0 K0 F200".
Proof. vm_compute. reflexivity. Qed.
Example test_tool_changes : map str_config [CToolChange 2 None None; CToolChange 2 (Some (PInt 1000)) None;
    CToolChange 2 None (Some FLOOD); CToolChange 2 None (Some MIST)] =
  [lines ["M5"; "G30"; "M1"; "T2 G43 H2 M6"; "M3"]; lines ["M5"; "G30"; "M1"; "T2 G43 H2 M6"; "M3 S1000"];
   lines ["M5 M9"; "G30"; "M1"; "T2 G43 H2 M6"; "M3 M8"]; lines ["M5 M9"; "G30"; "M1"; "T2 G43 H2 M6"; "M3 M7"]].
Proof. vm_compute. reflexivity. Qed.

(** ** tests/test_address.py *)
Example test_address_words :
  map (fun l => str_word_precision l (Some (qz 10)) 3) ["X"; "Y"; "Z"; "I"; "J"; "K"] = ["X10"; "Y10"; "Z10"; "I10"; "J10"; "K10"]
  /\ [str_feed (Some (PFloat 10 0)); str_speed (Some (PInt 10)); str_dwell (Some (PFloat 10 0)); str_tool_number (Some 10%Z);
      str_tool_length_offset (Some 10%Z); str_tool_radius_offset (Some 10%Z)] = ["F10.0"; "S10"; "P10.0"; "T10"; "H10"; "D10"].
Proof. split; vm_compute; reflexivity. Qed.
Example test_address_groups :
  str_xyz (ai 10 20 30) 3 = "X10 Y20 Z30" /\
  (do c <- to_vector (ai 5 5 5) (ai 10 20 30) true; Ok (str_ijk (from_vector c) 3)) = Ok "I-5 J-15 K-25".
Proof. split; vm_compute; reflexivity. Qed.
