(** * Model of /repo/src/cq_cam/operations/pocket.py (engine "clipper") and of the polygon part of
    /repo/src/cq_cam/utils/geometry_op.py *)
From Verif Require Import Base.Py Model.Interp Model.Tree.
From Verif Require Export Model.Geometry Model.Routers.
Local Open Scope Qc_scope.
Local Open Scope list_scope.

(** Nodes of a pyclipper PolyTree: a contour and its children. *)
Inductive polynode := PNode (contour : path) (children : list polynode).
Definition contour (n : polynode) : path := let '(PNode c _) := n in c.
Definition children (n : polynode) : list polynode := let '(PNode _ l) := n in l.

(** pyclipper and shapely.  Coordinates are scaled to integers and back inside
    ([scale_to_clipper], [scale_from_clipper]).
    [en_offset]: geometry_op.py:102-135, the cleaned polygons of PyclipperOffset for one closed
    path; [en_union], [en_difference]: Pyclipper.Execute2 on subjects and clips
    (geometry_op.py:213-241), the children of the root; [en_contains a b]:
    a.polygon.contains(b.polygon). *)
Record engine := Engine {
  en_offset : path -> Qc -> nat -> result (list path);
  en_union : list path -> list path -> result (list polynode);
  en_difference : list path -> list path -> result (list polynode);
  en_contains : pathface -> pathface -> result bool
}.

(** geometry_op.py:102-135 [offset_path] *)
Definition offset_path (E : engine) (p : path) (offset : Qc) (precision : nat) : result (list path) :=
  do raw <- en_offset E p offset precision;
  mapM close_path (filter (fun p => match p with [] => false | _ => true end) raw).

(** geometry_op.py:180-191 [poly_tree_to_poly_faces] (the log message is left out). *)
Definition poly_tree_to_poly_faces (roots : list polynode) (depth : Qc) : result (list pathface) :=
  mapM (fun n =>
    do outer <- close_path (contour n);
    do inners <- mapM (fun c => close_path (contour c)) (children n);
    Ok (PF outer inners depth)) roots.

(** geometry_op.py:244-257 *)
Definition union_poly_tree (E : engine) (subjects clips : list path) (depth : Qc) : result (list pathface) :=
  do t <- en_union E subjects clips; poly_tree_to_poly_faces t depth.
Definition difference_poly_tree (E : engine) (subjects clips : list path) (depth : Qc) : result (list pathface) :=
  do t <- en_difference E subjects clips; poly_tree_to_poly_faces t depth.

(** geometry_op.py:194-210 [make_polyfaces], [offset_polyface] *)
Definition offset_polyface (E : engine) (f : pathface) (outer_offset inner_offset : Qc) (precision : nat)
  : result (list pathface) :=
  do outers <- offset_path E (pf_outer f) outer_offset precision;
  match pf_inners f with
  | [] => Ok (map (fun o => PF o [] (pf_depth f)) outers)
  | inners =>
      do ins <- mapM (fun i => offset_path E i inner_offset precision) inners;
      difference_poly_tree E outers (flatten_list ins) (pf_depth f)
  end.

(** pocket.py:87-99 [generate_depth_map]: the dict in insertion order, and the keys in descending
    order.  A float key is looked up by value. *)
Definition depth_dict := list (Qc * list pathface).
Fixpoint dict_get (m : depth_dict) (d : Qc) : list pathface :=
  match m with
  | [] => []
  | (k, fs) :: m => if qeqb k d then fs else dict_get m d
  end.
Fixpoint dict_append (m : depth_dict) (d : Qc) (fs : list pathface) : depth_dict :=
  match m with
  | [] => [(d, fs)]
  | (k, gs) :: m => if qeqb k d then (k, gs ++ fs) :: m else (k, gs) :: dict_append m d fs
  end.
Fixpoint insert_down (d : Qc) (l : list Qc) : list Qc :=
  match l with
  | [] => [d]
  | x :: l' => if qleb x d then d :: l else x :: insert_down d l'
  end.
Definition sort_down (l : list Qc) : list Qc := fold_right insert_down [] l.
Fixpoint group_by_depth (faces : list pathface) (m : depth_dict) : result depth_dict :=
  match faces with
  | [] => Ok m
  | f :: faces =>
      if qltb 0 (pf_depth f) then Err ValueError
      else group_by_depth faces (dict_append m (pf_depth f) [f])
  end.
Definition generate_depth_map (faces : list pathface) : result (depth_dict * list Qc) :=
  do m <- group_by_depth faces []; Ok (m, sort_down (map fst m)).

(** pocket.py:102-107 [combine_poly_faces] (not called anywhere in the package). *)
Definition combine_poly_faces (E : engine) (faces : list pathface) (depth : Qc) : result (list pathface) :=
  do u <- union_poly_tree E (map pf_outer faces) [] depth;
  difference_poly_tree E (map pf_outer u) (flatten_list (map pf_inners faces)) depth.

(** pocket.py:110-112 [combine_outers] *)
Definition combine_outers (E : engine) (faces : list pathface) (depth : Qc) : result (list path) :=
  do u <- union_poly_tree E (map pf_outer faces) [] depth; Ok (map pf_outer u).

(** pocket.py:115-127 [determine_stepdown_start_depth] *)
Fixpoint filterM {A} (f : A -> result bool) (l : list A) : result (list A) :=
  match l with
  | [] => Ok []
  | a :: l => do b <- f a; do r <- filterM f l; Ok (if b then a :: r else r)
  end.
Fixpoint smallest (l : list Qc) : option Qc :=
  match l with
  | [] => None
  | d :: l => Some (match smallest l with None => d | Some m => qmin d m end)
  end.
Definition determine_stepdown_start_depth (E : engine) (op : pathface) (shallower : list pathface)
  : result (option Qc) :=
  do cs <- filterM (fun s => en_contains E s op) shallower;
  Ok (smallest (map pf_depth cs)).

(** numpy.arange, exactly: ceil((stop - start) / step) values.  Floating point: see Model/Float. *)
Definition arange (start stop step : Qc) : list Qc :=
  map (fun k => start + qz (Z.of_nat k) * step) (seq 0 (Z.to_nat (qceil ((stop - start) / step)))).

(** pocket.py:130-148 [apply_stepdown].  The set of depths has one element iff all equal the
    first one. *)
Definition apply_stepdown (sequences : list (list pathface)) (start_depth : option Qc) (stepdown : Qc)
  : result (list (list pathface)) :=
  let start := match start_depth with None => - stepdown | Some d => d - stepdown end in
  match map pf_depth (concat sequences) with
  | [] => Err RuntimeError
  | d :: ds =>
      if forallb (qeqb d) ds
      then Ok (flat_map (fun s => map (map (fun f => clone_to_depth f s)) sequences) (arange start d (- stepdown)))
      else Err RuntimeError
  end.

(** pocket.py:151-188 [build_pocket_ops].  [depth_faces] is the list stored in the dict, so the
    faces added for the deeper levels stay in the dict: it is threaded through the loop. *)
Fixpoint add_deeper (m : depth_dict) (d : Qc) (subs : list Qc) : depth_dict :=
  match subs with
  | [] => m
  | s :: subs => add_deeper (dict_append m d (dict_get m s)) d subs
  end.
Fixpoint build_levels (E : engine) (m : depth_dict) (avoid_map : depth_dict) (avoid_depths depths : list Qc)
  : result (list pathface) :=
  match depths with
  | [] => Ok []
  | d :: subs =>
      let m := add_deeper m d subs in
      let depth_faces := dict_get m d in
      do depth_ops <- combine_outers E depth_faces d;
      let depth_inners := flatten_list (map pf_inners depth_faces) in
      let clips := match avoid_depths with
                   | [] => depth_inners
                   | _ =>
                       let active := filter (fun a => qleb d a) avoid_depths in
                       let avoid_faces := flat_map (dict_get avoid_map) active in
                       depth_inners ++ map pf_outer avoid_faces
                   end in
      do ops <- difference_poly_tree E depth_ops clips d;
      do rest <- build_levels E m avoid_map avoid_depths subs;
      Ok (ops ++ rest)
  end.
Definition build_pocket_ops (E : engine) (op_areas avoid_areas : list pathface) : result (list pathface) :=
  do (m, depths) <- generate_depth_map op_areas;
  do (avoid_map, avoid_depths) <- generate_depth_map avoid_areas;
  build_levels E m avoid_map avoid_depths depths.

(** pocket.py:191-224 [fill_pocket_contour_shrink].  A PathFace is compared by identity: its
    number is the position of its node.  [fuel] bounds the loop [while True]. *)
Definition next_contours (E : engine) (pocket : pathface) (step : Qc) (precision : nat) (p : path)
  : result (list path) :=
  do candidates <- offset_path E p (- step) precision;
  match candidates, pf_inners pocket with
  | _ :: _, _ :: _ =>
      do fs <- difference_poly_tree E candidates (pf_inners pocket) 0;
      Ok (map pf_outer fs)
  | _, _ => Ok candidates
  end.
Definition contour_tree := tree (nat * pathface).
Definition new_contours (depth : Qc) (n : nat) (outers : list path) : list (nat * pathface) :=
  combine (seq n (length outers)) (map (fun o => PF o [] depth) outers).
Fixpoint fill_loop (next : path -> result (list path)) (depth : Qc) (fuel : nat) (t : contour_tree)
  : result contour_tree :=
  match fuel with
  | O => Err OutOfFuel
  | S fuel =>
      match next_unlocked t with
      | None => Ok t
      | Some i =>
          do o <- obj_at t i;
          do outers <- next (pf_outer (snd o));
          fill_loop next depth fuel
            (match outers with
             | [] => lock t i
             | _ => branch t i (new_contours depth (length t) outers)
             end)
      end
  end.
Definition fill_pocket_contour_shrink (E : engine) (fuel : nat) (pocket : pathface) (step : Qc) (precision : nat)
  : result (list (list pathface)) :=
  do t <- fill_loop (next_contours E pocket step precision) (pf_depth pocket) fuel
            (new_tree (O, PF (pf_outer pocket) [] (pf_depth pocket)));
  do ss <- sequences (fun a b => Nat.eqb (fst a) (fst b)) t;
  Ok (map (map snd) ss).

(** pocket.py:227-278 [pocket_clipper] *)
Fixpoint fill_ops (E : engine) (fuel : nat) (precision : nat) (stepover : Qc) (stepdown : option Qc)
  (shallower ops : list pathface) : result (list (list pathface)) :=
  match ops with
  | [] => Ok []
  | op :: ops =>
      do fill <- fill_pocket_contour_shrink E fuel op stepover precision;
      do stepped <-
        match stepdown with
        | Some s => if qeqb s 0 then Ok []
                    else do start <- determine_stepdown_start_depth E op shallower;
                         apply_stepdown fill start s
        | None => Ok []
        end;
      do rest <- fill_ops E fuel precision stepover stepdown (shallower ++ [op]) ops;
      Ok (stepped ++ fill ++ rest)
  end.
Fixpoint route_sequences (j : job) (stepover : Qc) (done : bool) (previous_pos : avec)
  (sequences : list (list pathface)) : result (list motion) :=
  match sequences with
  | [] => Ok []
  | s :: ss =>
      do cmds <- route_polyface_outers j s (Some stepover) (Some previous_pos);
      (* commands[-1] of all commands so far *)
      match cmds, done with
      | [], false => Err IndexError
      | _, _ =>
          do rest <- route_sequences j stepover true (last_end cmds previous_pos) ss;
          Ok (cmds ++ rest)
      end
  end.
Definition pocket_clipper (E : engine) (fuel : nat) (j : job) (op_areas avoid_areas : list pathface)
  (outer_offset inner_offset avoid_outer_offset avoid_inner_offset stepover : Qc) (stepdown : option Qc)
  : result (list motion) :=
  do ops <- mapM (fun f => offset_polyface E f outer_offset inner_offset (j_precision j)) op_areas;
  do avoids <- mapM (fun f => offset_polyface E f avoid_outer_offset avoid_inner_offset (j_precision j)) avoid_areas;
  do pocket_ops <- build_pocket_ops E (concat ops) (concat avoids);
  do sequences <- fill_ops E fuel (j_precision j) stepover stepdown [] pocket_ops;
  route_sequences j stepover false av_none sequences.
