(** * Specification: pockets *)
From Verif Require Import Base.Py Model.Geometry Model.Pocket Spec.Paths Spec.Moves.
From Coq Require Import Permutation.
Local Open Scope Qc_scope.
Local Open Scope list_scope.

(** ** Closing a contour *)
Definition closes (p q : path) : Prop :=
  closed_path q /\ (q = p \/ ~ closed_path p /\ exists a l, p = a :: l /\ q = p ++ [a]).

(** ** Successive offsets.  [next c l]: the contours made from [c] are [l].  An address lists,
    innermost first, which of the contours was taken at each step from the pocket's outline. *)
Inductive reached {C} (next : C -> list C -> Prop) (outline : C) : list nat -> C -> Prop :=
| reached_outline : reached next outline [] outline
| reached_next a c l k c' : reached next outline a c -> next c l -> nth_error l k = Some c' ->
    reached next outline (k :: a) c'.

(** The contours made from [c]: the engine's inward offset; if the pocket has islands, the outer
    boundaries of what is left of it outside of them. *)
Definition inward (E : engine) (pocket : pathface) (step : Qc) (precision : nat) (c : path) (l : list path) : Prop :=
  exists raw cut, en_offset E c (- step) precision = Ok raw /\
    Forall2 closes (filter (fun p => match p with [] => false | _ => true end) raw) cut /\
    ((cut = [] \/ pf_inners pocket = []) /\ l = cut \/
     cut <> [] /\ pf_inners pocket <> [] /\
     exists t, en_difference E cut (pf_inners pocket) = Ok t /\ Forall2 (fun n o => closes (contour n) o) t l).

(** Each contour is followed by the one it was made from. *)
Fixpoint outward (s : list (list nat)) : Prop :=
  match s with
  | a :: (b :: _) as rest => (exists k, a = k :: b) /\ outward rest
  | _ => True
  end.

(** [ss] is a complete filling: each reachable contour is in exactly one place (its address), in
    sequences going outwards, each starting at a contour without further offsets. *)
Definition filling (next : path -> list path -> Prop) (pocket : pathface) (ss : list (list pathface)) : Prop :=
  exists addrs : list (list (list nat)),
    Forall2 (Forall2 (fun a f => reached next (pf_outer pocket) a (pf_outer f) /\
                                 pf_inners f = [] /\ pf_depth f = pf_depth pocket)) addrs ss /\
    NoDup (concat addrs) /\
    (forall a c, reached next (pf_outer pocket) a c -> In a (concat addrs)) /\
    Forall (fun s => outward s /\ exists a rest, s = a :: rest /\
              forall c, reached next (pf_outer pocket) a c -> next c []) addrs.

(** ** Depths *)
Fixpoint strictly_down (l : list Qc) : Prop :=
  match l with
  | a :: (b :: _) as rest => b < a /\ strictly_down rest
  | _ => True
  end.

(** [f] is the face of a tree node: its contour with its children as islands. *)
Definition node_face (d : Qc) (n : polynode) (f : pathface) : Prop :=
  pf_depth f = d /\ closes (contour n) (pf_outer f) /\
  Forall2 (fun c i => closes (contour c) i) (children n) (pf_inners f).

(** The faces for the level at depth [d]. *)
Definition level (E : engine) (ops avoids : list pathface) (d : Qc) (fs : list pathface) : Prop :=
  exists here above u subjects t,
    Permutation here (filter (fun f => qleb (pf_depth f) d) ops) /\
    Permutation above (filter (fun f => qleb d (pf_depth f)) avoids) /\
    en_union E (map pf_outer here) [] = Ok u /\
    Forall2 (fun n o => closes (contour n) o) u subjects /\
    en_difference E subjects (flat_map pf_inners here ++ map pf_outer above) = Ok t /\
    Forall2 (node_face d) t fs.

(** ** Regions: even-odd crossing parity of the ray in +X direction *)
Definition crosses (q : pt) (e : pt * pt) : bool :=
  let '((x1, y1), (x2, y2)) := e in
  let '(x, y) := q in
  if qleb y1 y && qltb y y2 then qltb 0 ((x2 - x1) * (y - y1) - (x - x1) * (y2 - y1))
  else if qleb y2 y && qltb y y1 then qltb ((x2 - x1) * (y - y1) - (x - x1) * (y2 - y1)) 0
  else false.
(** The edges of a contour, including the one back to the start. *)
Definition ring (p : path) : list (pt * pt) := match p with [] => [] | a :: _ => steps (p ++ [a]) end.
Definition count {A} (f : A -> bool) (l : list A) : nat := length (filter f l).
Definition inside (q : pt) (p : path) : bool := Nat.odd (count (crosses q) (ring p)).
Definition inside_odd (q : pt) (ps : list path) : bool := Nat.odd (count (inside q) ps).

Fixpoint contours (n : polynode) : list path := let '(PNode c l) := n in c :: flat_map contours l.

(** An engine that is right about the point [q], with the fill rule pyclipper uses by default
    (even-odd, for subjects and clips): the contours of the answer enclose the right region. *)
Definition right_at (E : engine) (q : pt) : Prop :=
  (forall ss cs t, en_union E ss cs = Ok t ->
     inside_odd q (flat_map contours t) = inside_odd q ss || inside_odd q cs) /\
  (forall ss cs t, en_difference E ss cs = Ok t ->
     inside_odd q (flat_map contours t) = inside_odd q ss && negb (inside_odd q cs)).

(** Trees are nested: a contour lies inside its parent, and siblings are disjoint. *)
Fixpoint nested_at (q : pt) (n : polynode) : Prop :=
  let '(PNode c l) := n in
  (forall m, In m l -> inside q (contour m) = true -> inside q c = true) /\
  (count (fun m => inside q (contour m)) l <= 1)%nat /\
  (fix all (l : list polynode) : Prop := match l with [] => True | m :: l => nested_at q m /\ all l end) l.
Definition tree_at (q : pt) (t : list polynode) : Prop :=
  (count (fun m => inside q (contour m)) t <= 1)%nat /\ Forall (nested_at q) t.
(** Contours with islands, and nothing inside the islands. *)
Definition two_levels (t : list polynode) : Prop := Forall (fun n => Forall (fun m => children m = []) (children n)) t.

(** The region of a list of faces. *)
Definition in_face (q : pt) (f : pathface) : Prop :=
  inside q (pf_outer f) = true /\ forall i, In i (pf_inners f) -> inside q i = false.
Definition machined (q : pt) (fs : list pathface) : Prop := exists f, In f fs /\ in_face q f.

(** What a level should remove: the outlines at that depth or deeper, without their islands and
    without the avoid areas at that depth or above. *)
Definition wanted (q : pt) (ops avoids : list pathface) (d : Qc) : Prop :=
  (exists f, In f ops /\ pf_depth f <= d /\ inside q (pf_outer f) = true) /\
  (forall f i, In f ops -> pf_depth f <= d -> In i (pf_inners f) -> inside q i = false) /\
  (forall f, In f avoids -> d <= pf_depth f -> inside q (pf_outer f) = false).

(** ** Stepping down *)
(** [ds] steps by [s] from [start] towards [final], staying above it, the last step being no
    longer than the others. *)
Fixpoint steps_by (s start final : Qc) (ds : list Qc) : Prop :=
  match ds with
  | [] => start - final <= s
  | d :: ds => d = start - s /\ final < d /\ steps_by s d final ds
  end.
Definition at_depth (d : Qc) (f g : pathface) : Prop :=
  pf_outer g = pf_outer f /\ pf_inners g = pf_inners f /\ pf_depth g = d.

(** The depth stepping down starts from: the deepest of the pockets cut before that contain the
    new one, else the surface. *)
Definition start_depth (E : engine) (before : list pathface) (op : pathface) (start : Qc) : Prop :=
  (exists f, In f before /\ en_contains E f op = Ok true /\ pf_depth f = start /\
     forall g, In g before -> en_contains E g op = Ok true -> start <= pf_depth g) \/
  ((forall f, In f before -> en_contains E f op = Ok false) /\ start = 0).

(** The contour sequences for one pocket: intermediate passes, then the filling at its depth. *)
Definition passes (E : engine) (stepover : Qc) (stepdown : option Qc) (precision : nat)
  (before : list pathface) (op : pathface) (ss : list (list pathface)) : Prop :=
  exists stepped fill, ss = stepped ++ fill /\ filling (inward E op stepover precision) op fill /\
    match stepdown with
    | None => stepped = []
    | Some s =>
        (s = 0 -> stepped = []) /\
        (0 < s -> exists start ds, start_depth E before op start /\ steps_by s start (pf_depth op) ds /\
           exists css, stepped = concat css /\
             Forall2 (fun d cs => Forall2 (Forall2 (at_depth d)) fill cs) ds css)
    end.
(** All pockets, one after the other. *)
Inductive pocketed (E : engine) (stepover : Qc) (stepdown : option Qc) (precision : nat) :
  list pathface -> list pathface -> list (list pathface) -> Prop :=
| pocketed_nil before : pocketed E stepover stepdown precision before [] []
| pocketed_cons before op ops ss ss' :
    passes E stepover stepdown precision before op ss ->
    pocketed E stepover stepdown precision (before ++ [op]) ops ss' ->
    pocketed E stepover stepdown precision before (op :: ops) (ss ++ ss').

(** ** A whole pocket operation *)
(** A face with its outline offset by [oo] and its islands by [io], islands cut away again. *)
Definition offset_face (E : engine) (oo io : Qc) (precision : nat) (f : pathface) (fs : list pathface) : Prop :=
  let solid p := match p with [] => false | _ => true end in
  exists raw outers, en_offset E (pf_outer f) oo precision = Ok raw /\ Forall2 closes (filter solid raw) outers /\
    (pf_inners f = [] /\ fs = map (fun o => PF o [] (pf_depth f)) outers \/
     pf_inners f <> [] /\ exists ins t,
       Forall2 (fun i l => exists raw, en_offset E i io precision = Ok raw /\ Forall2 closes (filter solid raw) l)
         (pf_inners f) ins /\
       en_difference E outers (concat ins) = Ok t /\ Forall2 (node_face (pf_depth f)) t fs).

(** The levels of a pocket: one list of faces for each depth, deepest last. *)
Definition levels (E : engine) (ops avoids : list pathface) (pockets : list pathface) : Prop :=
  exists ds rs, pockets = concat rs /\ Forall2 (level E ops avoids) ds rs /\ strictly_down ds /\
    (forall d, In d ds <-> exists f, In f ops /\ pf_depth f = d).

(** Everything [m] does along Z is at or above [floor]. *)
Definition above (floor : Qc) (m : motion) : Prop :=
  (forall z, az (m_start m) = Some z -> floor <= z) /\ (forall z, az (m_end m) = Some z -> floor <= z).
