(** * Model of the shapes of a surface operation
    (/repo/src/cq_cam/operations/op3d.py:173-207, 232-255, base_operation.py:188-210,
    /repo/src/cq_cam/utils/utils.py:298-347) *)
From Verif Require Import Base.Py Model.Plane Model.Linked.
Local Open Scope Qc_scope.
Local Open Scope list_scope.

(** ** Triangles *)
(** What the kernel knows of a meshed face: the nodes and triangles of its triangulation (nodes are
    counted from 1), and where the face is: [mf_place] takes the coordinates of the
    triangulation to those of the part.  A face may have no triangulation. *)
Record mesh_face := MF {
  mf_nodes : list vec;
  mf_triangles : option (list (nat * nat * nat));
  mf_place : vec -> vec
}.
(** A face, a compound (with all its faces), or another shape such as a solid. *)
Inductive shape := SFace (f : mesh_face) | SCompound (fs : list mesh_face) | SOther (fs : list mesh_face).

(** Poly_Triangulation.Node *)
Definition node (f : mesh_face) (k : nat) : result vec :=
  match k with
  | O => Err KernelError
  | S k => match nth_error (mf_nodes f) k with Some v => Ok v | None => Err KernelError end
  end.
Definition triangle := (vec * vec * vec)%type.
(** op3d.py:195-201.  [None.NbTriangles()] is an AttributeError. *)
Definition face_triangles (f : mesh_face) : result (list triangle) :=
  match mf_triangles f with
  | None => Err AttributeError
  | Some ts => mapM (fun '(a, b, c) => do a <- node f a; do b <- node f b; do c <- node f c; Ok (a, b, c)) ts
  end.
(** op3d.py:232-255, the function of the module.  [Triangulation_s(shape.wrapped, ...)] is given the
    shape, not the face found in it; the binding takes nothing but faces.  The location it reports
    is not used. *)
Definition module_triangles (s : shape) : result (list triangle) :=
  match s with
  | SFace f => face_triangles f
  | SCompound fs | SOther fs => match fs with [] => Ok [] | _ => Err TypeError end
  end.
(** op3d.py:173-207, the method. *)
Definition shape_to_triangles (s : shape) : result (list triangle) :=
  match s with
  | SCompound fs => do tss <- mapM (fun f => module_triangles (SFace f)) fs; Ok (concat tss)
  | s => module_triangles s
  end.

(** ** Offset boundaries *)
(** Kernel: wires of a face, [offset2D], [makeFromWires], [BRepFeat.IsInside_s], and [==] of shapes. *)
Record boundary_kernel := BK {
  bk_face : Type; bk_wire : Type;
  bk_outer : bk_face -> bk_wire; bk_inners : bk_face -> list bk_wire;
  bk_offset2D : bk_wire -> Qc -> result (list bk_wire);
  bk_make : bk_wire -> list bk_wire -> result bk_face;
  bk_inside : bk_face -> bk_face -> bool;
  bk_same : bk_face -> bk_face -> bool
}.

Section Boundary.
  Variable K : boundary_kernel.

  (** [list.remove] *)
  Fixpoint remove_face (f : bk_face K) (l : list (bk_face K)) : result (list (bk_face K)) :=
    match l with
    | [] => Err ValueError
    | g :: l => if bk_same K g f then Ok l else do l <- remove_face f l; Ok (g :: l)
    end.
  (** base_operation.py:203-206: over a copy of the remaining inner faces. *)
  Fixpoint take_inside (outer : bk_face K) (copy remaining : list (bk_face K))
    : result (list (bk_wire K) * list (bk_face K)) :=
    match copy with
    | [] => Ok ([], remaining)
    | f :: copy =>
        if bk_inside K f outer then
          do remaining <- remove_face f remaining;
          do (ws, remaining) <- take_inside outer copy remaining;
          Ok (bk_outer K f :: ws, remaining)
        else take_inside outer copy remaining
    end.
  (** base_operation.py:201-208 *)
  Fixpoint boundary_faces (outer inner : list (bk_face K)) : result (list (bk_face K)) :=
    match outer with
    | [] => Ok []
    | o :: outer =>
        do (ws, inner) <- take_inside o inner inner;
        do b <- bk_make K (bk_outer K o) ws;
        do bs <- boundary_faces outer inner;
        Ok (b :: bs)
    end.
  (** base_operation.py:188-210 *)
  Definition offset_wires (b : bk_face K) (outer_offset inner_offset : Qc) : result (list (bk_face K)) :=
    do outer <- bk_offset2D K (bk_outer K b) outer_offset;
    do inner <- mapM (fun w => bk_offset2D K w inner_offset) (bk_inners K b);
    do outer <- mapM (fun w => bk_make K w []) outer;
    do inner <- mapM (fun w => bk_make K w []) (concat inner);
    boundary_faces outer inner.

  (** ** Projections *)
  (** utils.py:337-347: [wires] are the visible wires; [area w] the area of the face made of [w]. *)
  Definition project_wires (area : bk_wire K -> result Qc) (wires : list (bk_wire K)) : result (bk_face K) :=
    do areas <- mapM area wires;
    match map snd (sort_by (fun v => - fst v) (combine areas wires)) with
    | [] => Err IndexError
    | w :: ws => bk_make K w ws
    end.
End Boundary.
