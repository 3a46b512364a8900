(** * Model of /repo/src/cq_cam/utils/linked_polygon.py *)
From Verif Require Import Base.Py.
From Verif Require Export Model.Geometry.
Local Open Scope Qc_scope.
Local Open Scope list_scope.

(** Python list operations on points: [index], [in], [remove] (both of the first equal element),
    [insert] and [stable sort by key]. *)
Fixpoint find_pt (p : pt) (l : path) : option nat :=
  match l with
  | [] => None
  | a :: l => if pt_eqb a p then Some O else option_map S (find_pt p l)
  end.
Definition py_index (p : pt) (l : path) : result nat :=
  match find_pt p l with Some i => Ok i | None => Err ValueError end.
Definition mem_pt (p : pt) (l : path) : bool := existsb (fun a => pt_eqb a p) l.
Definition py_remove (p : pt) (l : path) : result path :=
  match find_pt p l with Some i => Ok (firstn i l ++ skipn (S i) l) | None => Err ValueError end.
Definition insert_at {A} (i : nat) (a : A) (l : list A) : list A := firstn i l ++ a :: skipn i l.
Fixpoint insert_by {A} (key : A -> Qc) (a : A) (l : list A) : list A :=
  match l with
  | [] => [a]
  | b :: l' => if qleb (key a) (key b) then a :: l else b :: insert_by key a l'
  end.
Definition sort_by {A} (key : A -> Qc) (l : list A) : list A := fold_right (insert_by key) [] l.

(** linked_polygon.py:6-10; [lp_free] is [_linked_points]. *)
Record linked := LP { lp_polygon : path; lp_linked : path; lp_free : path }.

(** linked_polygon.py:12-34 [link_point].  [polygon[i_1:j]] is empty when j <= i_1. *)
Definition link_point (lp : linked) (point segment_start segment_end : pt) : result linked :=
  if mem_pt point (lp_linked lp) then Err AssertionError
  else
    do i <- py_index segment_start (lp_polygon lp);
    let i_1 := S i in
    do j <- py_index segment_end (lp_polygon lp);
    do at_ <-
      (if Nat.eqb i_1 j then Ok i_1
       else
         let point_range := firstn (j - i_1) (skipn i_1 (lp_polygon lp)) ++ [point] in
         let point_range := sort_by (fun p => dist2 p segment_start) point_range in
         do k <- py_index point point_range; Ok (i_1 + k)%nat);
    Ok (LP (insert_at at_ point (lp_polygon lp)) (lp_linked lp ++ [point]) (lp_free lp)).

(** linked_polygon.py:36-46 [reset], only called without argument. *)
Definition reset (lp : linked) : linked := LP (lp_polygon lp) (lp_linked lp) (lp_linked lp).

(** linked_polygon.py:48-49 [drop] *)
Definition drop (lp : linked) (point : pt) : result linked :=
  do f <- py_remove point (lp_free lp); Ok (LP (lp_polygon lp) (lp_linked lp) f).

(** linked_polygon.py:68-75 and 77-86: one of the two searches; [last_point] is never updated, so
    all distances are from the entry point. *)
Fixpoint search (free : path) (entry : pt) (search_polygon : path) : Qc * path :=
  match search_polygon with
  | [] => (0, [])
  | p :: rest =>
      if mem_pt p free then (dist2 entry p, [p])
      else let '(d, s) := search free entry rest in (dist2 entry p + d, p :: s)
  end.

(** linked_polygon.py:51-93 [nearest_linked].  [dist2] is symmetric, so the order of its arguments
    in line 83 is not kept. *)
Definition nearest_linked (lp : linked) (point : pt) : result (option path * linked) :=
  do free <- py_remove point (lp_free lp);
  match free with
  | [] => Ok (None, LP (lp_polygon lp) (lp_linked lp) [])
  | _ =>
      do i <- py_index point (lp_polygon lp);
      let search_polygon := skipn (S i) (lp_polygon lp) ++ firstn i (lp_polygon lp) in
      let '(forward_distance, forward_sequence) := search free point search_polygon in
      let '(reverse_distance, reverse_sequence) := search free point (rev search_polygon) in
      let taken := if qltb forward_distance reverse_distance then forward_sequence else reverse_sequence in
      match taken with
      | [] => Err IndexError
      | p0 :: _ =>
          do free <- py_remove (last taken p0) free;
          Ok (Some taken, LP (lp_polygon lp) (lp_linked lp) free)
      end
  end.
