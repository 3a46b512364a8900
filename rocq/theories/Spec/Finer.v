(** * Specification: lists that keep all members of another one *)
From Coq Require Import List.
Import ListNotations.

(** The members of the first list are among those of the second, in the same order. *)
Inductive among {A} : list A -> list A -> Prop :=
  | among_nil : among [] []
  | among_both x l m : among l m -> among (x :: l) (x :: m)
  | among_more x l m : among l m -> among l (x :: m).
