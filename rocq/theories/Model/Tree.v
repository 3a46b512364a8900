(** * Model of /repo/src/cq_cam/utils/tree.py

    [Tree.nodes] is a list of nodes; a node object is its position in that list (nodes are only
    ever appended, tree.py:9, and compared by identity). *)
From Verif Require Import Base.Py.
From Coq Require Import Arith.
Local Open Scope nat_scope.

Section Tree.
Context {A : Type}.

(** tree.py:5-10 *)
Record node := Node { n_obj : A; n_parent : option nat; n_locked : bool }.
Definition tree := list node.

(** tree.py:43-45 *)
Definition new_tree (root : A) : tree := [Node root None false].

(** tree.py:12-13 *)
Fixpoint lock (t : tree) (i : nat) : tree :=
  match t, i with
  | [], _ => []
  | n :: t, O => Node (n_obj n) (n_parent n) true :: t
  | n :: t, S i => n :: lock t i
  end.

(** tree.py:15-22 [branch], for a list of branches. *)
Definition branch (t : tree) (i : nat) (branches : list A) : tree :=
  t ++ map (fun b => Node b (Some i) false) branches.

(** tree.py:25-30 [traverse]: the node and its parents up to the root.  The recursion of the
    code follows parent links; [fuel] bounds it (see [grown_traverse]: it never runs out). *)
Fixpoint traverse (fuel : nat) (t : tree) (i : nat) : result (list nat) :=
  match fuel with
  | O => Err OutOfFuel
  | S fuel =>
      match nth_error t i with
      | None => Err IndexError
      | Some n =>
          match n_parent n with
          | None => Ok [i]
          | Some p => do l <- traverse fuel t p; Ok (i :: l)
          end
      end
  end.

(** tree.py:47-49 *)
Definition tree_parents (t : tree) : list nat :=
  flat_map (fun n => match n_parent n with Some p => [p] | None => [] end) t.

(** tree.py:51-54 *)
Definition leaves (t : tree) : list nat :=
  filter (fun i => negb (existsb (Nat.eqb i) (tree_parents t))) (seq 0 (length t)).

(** tree.py:56-59; [None] is StopIteration. *)
Definition next_unlocked (t : tree) : option nat :=
  find (fun i => match nth_error t i with Some n => negb (n_locked n) | None => false end) (leaves t).

(** tree.py:32-35 [traverse_and_unwrap] *)
Definition obj_at (t : tree) (i : nat) : result A :=
  match nth_error t i with Some n => Ok (n_obj n) | None => Err IndexError end.
Definition traverse_and_unwrap (t : tree) (i : nat) : result (list A) :=
  do l <- traverse (length t) t i; mapM (obj_at t) l.

(** [list.sort(key=len, reverse=True)]: stable, longest first. *)
Fixpoint insert_desc {B} (x : list B) (l : list (list B)) : list (list B) :=
  match l with
  | [] => [x]
  | y :: l' => if length y <=? length x then x :: l else y :: insert_desc x l'
  end.
Definition sort_desc {B} (l : list (list B)) : list (list B) := fold_right insert_desc [] l.

(** tree.py:66-75: the loop; one sequence is taken off in each round, so the number of
    candidates is enough fuel.  [eqb] is Python's == on the objects. *)
Fixpoint sequences_loop {B} (eqb : B -> B -> bool) (fuel : nat) (candidates : list (list B)) (used : list B)
  : list (list B) :=
  match fuel with
  | O => []
  | S fuel =>
      match sort_desc candidates with
      | [] => []
      | longest :: rest =>
          let used := used ++ longest in
          longest :: sequences_loop eqb fuel (map (filter (fun x => negb (existsb (eqb x) used))) rest) used
      end
  end.

(** tree.py:61-75 *)
Definition sequences (eqb : A -> A -> bool) (t : tree) : result (list (list A)) :=
  do candidates <- mapM (traverse_and_unwrap t) (leaves t);
  Ok (sequences_loop eqb (length candidates) candidates []).
End Tree.
Arguments node : clear implicits.
Arguments tree : clear implicits.
