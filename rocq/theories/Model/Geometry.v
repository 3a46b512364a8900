(** * Model of the plane geometry helpers
    (/repo/src/cq_cam/utils/utils.py and /repo/src/cq_cam/utils/geometry_op.py) *)
From Verif Require Import Base.Py.
Local Open Scope Qc_scope.

(** geometry_op.py:25-28: a point is a pair of floats, a path a list of points. *)
Definition pt := (Qc * Qc)%type.
Definition path := list pt.

Definition pt_eqb (a b : pt) : bool := qeqb (fst a) (fst b) && qeqb (snd a) (snd b).

(** geometry_op.py:34-38, 51-52 (class PathFace, clone_to_depth).  Lists are values here; every
    use in the code either copies or never writes. *)
Record pathface := PF { pf_outer : path; pf_inners : list path; pf_depth : Qc }.
Definition clone_to_depth (f : pathface) (d : Qc) : pathface := PF (pf_outer f) (pf_inners f) d.

(** geometry_op.py:18-22 [OffsetInput]: a multiplier or a (multiplier, distance) pair. *)
Inductive offset_input := OMul (m : Qc) | OPair (m d : Qc).

(** geometry_op.py:59-68 [calculate_offset].  [default or 0]: None and the number 0 give 0.  A
    missing radius makes both multiplications raise TypeError. *)
Definition calculate_offset (tool_radius : option Qc) (offset default : option offset_input) : result Qc :=
  let offset := match offset with
                | Some o => o
                | None => match default with
                          | None => OMul 0
                          | Some (OMul m) => if qeqb m 0 then OMul 0 else OMul m
                          | Some (OPair m d) => OPair m d
                          end
                end in
  match tool_radius with
  | None => Err TypeError
  | Some r => match offset with OMul m => Ok (r * m) | OPair m d => Ok (r * m + d) end
  end.

(** geometry_op.py:174-177 [close_path]: an empty path raises IndexError. *)
Definition close_path (p : path) : result path :=
  match p with
  | [] => Err IndexError
  | a :: _ => if negb (pt_eqb a (last p a)) then Ok (p ++ [a]) else Ok p
  end.

(** utils.py:275-276 [dist2] (and 279-281 [cached_dist2]); geometry_op.py:260-261
    [segment_length_squared]. *)
Definition dist2 (v w : pt) : Qc :=
  (fst v - fst w) * (fst v - fst w) + (snd v - snd w) * (snd v - snd w).
Definition segment_length_squared (s1 s2 : pt) : Qc :=
  (fst s2 - fst s1) * (fst s2 - fst s1) + (snd s2 - snd s1) * (snd s2 - snd s1).

(** utils.py:284-295 [dist_to_segment_squared]; division of a float by zero raises. *)
Definition dist_to_segment_squared (p v w : pt) : result (Qc * pt) :=
  let l2 := dist2 v w in
  if qeqb l2 0 then Err ZeroDivisionError
  else
    let t := ((fst p - fst v) * (fst w - fst v) + (snd p - snd v) * (snd w - snd v)) / l2 in
    let t := qmax 0 (qmin 1 t) in
    let closest := (fst v + t * (fst w - fst v), snd v + t * (snd w - snd v)) in
    Ok (dist2 p closest, closest).

(** geometry_op.py:264-283 [distance_to_path].  The returned segment parameter is kept squared
    (the code takes a square root of it and nothing reads it). *)
Fixpoint distance_to_path_from (i : nat) (p : pt) (path : path)
  (best : option (Qc * pt * (nat * Qc))) : result (option (Qc * pt * (nat * Qc))) :=
  match path with
  | a :: (b :: _) as rest =>
      do (sd, sc) <- dist_to_segment_squared p a b;
      let better := match best with None => true | Some (d, _, _) => qltb sd d end in
      distance_to_path_from (S i) p rest
        (if better
         then Some (sd, sc, (i, segment_length_squared a sc / segment_length_squared a b))
         else best)
  | _ => Ok best
  end.
Definition distance_to_path (p : pt) (path : path) := distance_to_path_from 0 p path None.

(** utils.py:169-170 *)
Definition flatten_list {A} (l : list (list A)) : list A := concat l.
