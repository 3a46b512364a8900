(** * Specification: trees given by parent links *)
From Verif Require Import Base.Py Model.Tree.
From Coq Require Import Permutation.

(** Trees built by the operations of the class. *)
Inductive grown {A} : tree A -> Prop :=
| grown_new root : grown (new_tree root)
| grown_branch t i bs : grown t -> (i < length t)%nat -> grown (branch t i bs)
| grown_lock t i : grown t -> grown (lock t i).

Definition is_parent {A} (t : tree A) (p i : nat) : Prop :=
  exists n, nth_error t i = Some n /\ n_parent n = Some p.
Definition is_leaf {A} (t : tree A) (i : nat) : Prop := (i < length t)%nat /\ forall k, ~ is_parent t i k.
Definition holds {A} (t : tree A) (i : nat) (o : A) : Prop :=
  exists n, nth_error t i = Some n /\ n_obj n = o.

(** Each node is followed by its parent. *)
Fixpoint upward {A} (t : tree A) (l : list nat) : Prop :=
  match l with
  | i :: (p :: _) as rest => is_parent t p i /\ upward t rest
  | _ => True
  end.

Fixpoint descending (l : list nat) : Prop :=
  match l with
  | a :: (b :: _) as rest => (b <= a)%nat /\ descending rest
  | _ => True
  end.

(** [ss] splits the nodes of [t] into upward paths: each node is in exactly one, each path starts
    at a leaf, all leaves start one, and the paths come longest first.  Every path goes on until
    the root or a node of an earlier path. *)
Definition splits {A} (t : tree A) (ss : list (list A)) : Prop :=
  exists idx : list (list nat),
    Forall2 (Forall2 (fun i o => holds t i o)) idx ss /\
    Permutation (concat idx) (seq 0 (length t)) /\
    Forall (fun l => upward t l /\ exists i rest, l = i :: rest /\ is_leaf t i) idx /\
    (forall i, is_leaf t i -> exists rest, In (i :: rest) idx) /\
    descending (map (@length nat) idx) /\
    (forall before l after i p, idx = before ++ l :: after -> last l i = i -> is_parent t p i -> In i l ->
       exists l', In l' before /\ In p l').
