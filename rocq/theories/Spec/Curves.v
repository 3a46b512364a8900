(** * Specification: sampling curves and wires *)
From Verif Require Import Base.Py Model.Edges Spec.Wires.
Local Open Scope Qc_scope.
Local Open Scope list_scope.

(** 10^-precision. *)
Definition resolution (precision : nat) : Qc := / qz (10 ^ Z.of_nat precision).

(** [vs] samples the edge at [n] equal steps of length [e_length e / n], in travel direction,
    from its start to its end. *)
Definition sampled_in (e : edge) (n : nat) (vs : list vec) : Prop :=
  (1 <= n)%nat /\ length vs = S n /\
  (forall k, (k <= n)%nat -> nth_error vs k = Some (travel_pos e (qz (Z.of_nat k) / qz (Z.of_nat n)))).

(** Consecutive pairs. *)
Fixpoint pairs (vs : list vec) : list (vec * vec) :=
  match vs with
  | a :: (b :: _) as rest => (a, b) :: pairs rest
  | _ => []
  end.

(** What is known of an edge as a list of points: both ends for lines (also offsets of lines), fine
    samples for other curves. *)
Definition straight (basis : edge -> result geom) (e : edge) : Prop :=
  e_geom e = GLINE \/ (e_geom e = GOFFSET /\ basis e = Ok GLINE).
Definition edge_points (basis : edge -> result geom) (precision : nat) (e : edge) (vs : list vec) : Prop :=
  (straight basis e /\ vs = [travel_start e; travel_end e]) \/
  (~ straight basis e /\ exists n, sampled_in e n vs /\
     (0 <= e_length e -> e_length e / qz (Z.of_nat n) < qz 3 * resolution precision)).

(** Each list starts where the one before it ends. *)
Fixpoint chained (ss : list (list vec)) : Prop :=
  match ss with
  | s :: (s' :: _) as rest => (exists v l l', s = l ++ [v] /\ s' = v :: l') /\ chained rest
  | _ => True
  end.
