(** * Python exceptions as values *)
From Verif Require Export Base.Num.

Inductive exn :=
| ValueError | RuntimeError | IndexError | AttributeError | TypeError
| ZeroDivisionError | AssertionError | OperationError | KeyError
| NotImplementedError
| KernelError   (* OCP exceptions such as StdFail_NotDone *)
| OutOfFuel.   (* not a Python exception: a fuelled loop of the model ran out *)

Inductive result (A : Type) :=
| Ok (a : A)
| Err (e : exn).
Arguments Ok {A}.
Arguments Err {A}.

Definition rbind {A B} (r : result A) (f : A -> result B) : result B :=
  match r with Ok a => f a | Err e => Err e end.
Notation "'do' x <- r ; k" := (rbind r (fun x => k))
  (at level 200, x pattern, r at level 100, k at level 200).

Definition rmap {A B} (f : A -> B) (r : result A) : result B := rbind r (fun a => Ok (f a)).

(** Run [f] on each element from left to right, stopping at the first exception. *)
Fixpoint mapM {A B} (f : A -> result B) (l : list A) : result (list B) :=
  match l with
  | [] => Ok []
  | a :: l => do b <- f a; do bs <- mapM f l; Ok (b :: bs)
  end.

Lemma mapM_ok {A B} (f : A -> result B) l bs :
  mapM f l = Ok bs <-> Forall2 (fun a b => f a = Ok b) l bs.
Proof.
  revert bs. induction l as [|a l IH]; intros bs; simpl.
  - split; [intros [= <-]; constructor | inversion 1; reflexivity].
  - unfold rbind. destruct (f a) as [b|e] eqn:E.
    + destruct (mapM f l) as [bs'|e] eqn:E2; split.
      * intros [= <-]. constructor; [exact E | apply IH; reflexivity].
      * inversion 1 as [|? ? ? ? H1 H2]; subst. apply IH in H2. congruence.
      * discriminate.
      * inversion 1 as [|? ? ? ? H1 H2]; subst. apply IH in H2. congruence.
    + split; [discriminate|]. inversion 1; congruence.
Qed.

Lemma mapM_app {A B} (f : A -> result B) l1 l2 :
  mapM f (l1 ++ l2) = do a <- mapM f l1; do b <- mapM f l2; Ok (a ++ b).
Proof.
  induction l1 as [|a l IH]; simpl.
  - destruct (mapM f l2); reflexivity.
  - rewrite IH. unfold rbind. destruct (f a); [|reflexivity].
    destruct (mapM f l); [|reflexivity]. destruct (mapM f l2); reflexivity.
Qed.

(** Python's truthiness of an optional number: [None] and [0] are falsy. *)
Definition truthy (x : option Qc) : bool :=
  match x with Some v => negb (qeqb v 0%Qc) | None => false end.

Lemma rbind_ok {A B} (r : result A) (f : A -> result B) b :
  rbind r f = Ok b -> exists a, r = Ok a /\ f a = Ok b.
Proof. destruct r; simpl; [eauto | discriminate]. Qed.

Ltac ok_inv :=
  repeat match goal with
  | H : rbind _ _ = Ok _ |- _ =>
      let a := fresh "a" in let H1 := fresh "H" in
      apply rbind_ok in H; destruct H as (a & H1 & H)
  | H : Ok _ = Ok _ |- _ => inversion H; clear H; subst
  | H : Err _ = Ok _ |- _ => discriminate H
  end.
