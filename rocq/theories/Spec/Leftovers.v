(** * Specification: functions that nothing calls *)
From Verif Require Import Base.Str Base.Py Model.Geometry Model.Edges Model.Leftovers Spec.Wires.
Local Open Scope Qc_scope.
Local Open Scope list_scope.

(** The kernel makes lines between different points, and a wire of edges joined in the given order. *)
Definition makes_lines (mk : vec -> vec -> result edge) : Prop :=
  forall a b, a <> b -> exists e, mk a b = Ok e /\ e_geom e = GLINE /\ travel_start e = a /\ travel_end e = b.
Definition keeps_order (asm : list edge -> result (list edge)) : Prop :=
  forall es, connected es -> es <> [] -> asm es = Ok es.

(** Ranges that cover 0 to 1 without gaps, each with its share of the total. *)
Definition tiles (total : Qc) (lengths : list Qc) (ranges : list (Qc * Qc)) : Prop :=
  map fst ranges ++ [1] = 0 :: map snd ranges /\
  Forall2 (fun l r => (snd r - fst r) * total = l) lengths ranges.

(** The faces of an answer of the kernel, and those of a result. *)
Definition faces_in {F} (items : list (combined F)) : list F :=
  flat_map (fun o => match o with Compound fs => fs | SingleFace f => [f] | OtherShape => [] end) items.
Definition faces_out {F} (l : list (list F + F)) : list F :=
  flat_map (fun x => match x with inl fs => fs | inr f => [f] end) l.
(** The same items without those that are neither faces nor compounds. *)
Inductive faces_only {F} : list (combined F) -> list (combined F) -> Prop :=
  | only_nil : faces_only [] []
  | only_compound fs items l : faces_only items l -> faces_only (Compound fs :: items) (Compound fs :: l)
  | only_face f items l : faces_only items l -> faces_only (SingleFace f :: items) (SingleFace f :: l)
  | only_other items l : faces_only items l -> faces_only (OtherShape :: items) l.
(** Compounds taken apart, faces as they are, anything else left out. *)
Inductive broken {F} : list (combined F) -> list (list F + F) -> Prop :=
  | broken_nil : broken [] []
  | broken_compound fs items l : broken items l -> broken (Compound fs :: items) (inl fs :: l)
  | broken_face f items l : broken items l -> broken (SingleFace f :: items) (inr f :: l)
  | broken_other items l : broken items l -> broken (OtherShape :: items) l.
