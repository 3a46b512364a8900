(** * Specification: what the router does with one contour *)
From Verif Require Import Base.Str Base.Py Spec.Paths Spec.Moves Model.Geometry Model.Command.
Local Open Scope Qc_scope.
Local Open Scope list_scope.

(** A plunge to depth [d], or a straight cut ending there. *)
Definition ok_feed (S : Qc) (pf feed : pynum) (d : Qc) (m : motion) : Prop :=
  plunge S d pf m \/ (straight_cut m /\ m_feed m = Some feed /\ az (m_end m) = Some d).

(** A tour, or a tour followed by a chord from the contour's start. *)
Definition chord_of (p : path) (ch : list (pt * pt)) : Prop :=
  ch = [] \/ exists a c, ch = [(a, c)] /\ hd_error p = Some a /\ on_path c p.

Definition group_ok (f : pathface) (g : list motion) : Prop :=
  exists access cuts es ch,
    g = access ++ cuts /\ moves_along cuts (es ++ ch) /\ tour (pf_outer f) es /\ chord_of (pf_outer f) ch /\
    Forall (fun m => straight_cut m /\ az (m_end m) = Some (pf_depth f)) cuts /\
    (exists m rest, access = m :: rest /\ (~ rapid m -> rest = [] /\ ch = [])).

(** The first command is a rapid, or a link to the contour from a point [b] at distance at most
    the square root of the stepover (at most the stepover, if that is 1 or more). *)
Definition link_ok (so : option Qc) (f : pathface) (g : list motion) : Prop :=
  exists m rest, g = m :: rest /\
    (~ rapid m -> exists s a b, so = Some s /\ 0 < s /\ segment_of m a b /\ on_path b (pf_outer f) /\ sqd a b <= s /\
        (1 <= s -> sqd a b <= s * s)).

(** Along a contour, or no longer than the stepover. *)
Definition follows (so : option Qc) (fs : list pathface) (m : motion) : Prop :=
  exists a b, segment_of m a b /\
    ((exists f, In f fs /\ along (pf_outer f) a b) \/ (exists s, so = Some s /\ sqd a b <= s * s)).

