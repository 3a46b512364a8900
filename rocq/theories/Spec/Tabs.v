(** * Specification: holding tabs *)
From Verif Require Import Base.Py Model.Tabs Spec.Wires.
Local Open Scope Qc_scope.
Local Open Scope list_scope.

(** Transitions describe a set [inside] of positions: they start at 0, do not run backwards, end at
    1, and from one to the next the state is TAB exactly inside. *)
Fixpoint describes_from (inside : Qc -> Prop) (p : Qc) (t : transition) (ts : marks) : Prop :=
  match ts with
  | [] => p = 1
  | (q, t') :: rest =>
      p <= q /\ (forall d, p < d -> d < q -> (t = TTAB <-> inside d)) /\ describes_from inside q t' rest
  end.
Definition describes (inside : Qc -> Prop) (ts : marks) : Prop :=
  match ts with
  | (p, t) :: rest => p = 0 /\ describes_from inside p t rest
  | [] => False
  end.

(** Positions do not run backwards. *)
Fixpoint forwards (ts : marks) : Prop :=
  match ts with
  | (p, _) :: (((q, _) :: _) as rest) => p <= q /\ forwards rest
  | _ => True
  end.

(** ** Tabs on an edge: [n] tabs of the given width, the edge divided into n+1 equal parts. *)
Definition tab_count (spacing length : Qc) : nat := Z.to_nat (qfloor (length / spacing)).
Definition tab_center (n k : nat) : Qc := qz (Z.of_nat k) / qz (Z.of_nat n + 1).
Definition in_edge_tab (length width : Qc) (n : nat) (d : Qc) : Prop :=
  exists k, (1 <= k <= n)%nat /\ qabs (d - tab_center n k) * length < width / qz 2.
Definition wants_tabs (only : option geom) (e : edge) : Prop := only = None \/ only = Some (e_geom e).
(** The positions on an edge that lie in one of its tabs. *)
Definition edge_tab_set (spacing width : Qc) (only : option geom) (e : edge) (d : Qc) : Prop :=
  wants_tabs only e /\ in_edge_tab (e_length e) width (tab_count spacing (e_length e)) d.
(** The tabs of the edge do not overlap. *)
Definition roomy (spacing width : Qc) (e : edge) : Prop :=
  let n := tab_count spacing (e_length e) in (n <= 1)%nat \/ width * qz (Z.of_nat n + 1) <= e_length e.

(** ** Tabs on a wire: centred at k/count of its length, for every integer k. *)
Definition in_wire_tab (count : nat) (width length : Qc) (x : Qc) : Prop :=
  exists k : Z, qabs (x - qz k / qz (Z.of_nat count)) * length < width / qz 2.
(** The position on the wire of a position on one of its edges. *)
Definition on_wire (range : Qc * Qc) (d : Qc) : Qc := fst range + d * (snd range - fst range).

(** ** Pieces *)
(** What is assumed of the kernel. *)
Definition edge_on_curve (TK : tab_kernel) (e : edge) : Prop :=
  (forall p, e_param e p = tk_location TK e (tk_curve TK e p)) /\
  tk_param_at TK e 0 = e_param0 e /\ tk_param_at TK e 1 = e_param1 e /\
  (forall a b, 0 <= a -> a <= b -> b <= 1 -> tk_param_at TK e a <= tk_param_at TK e b).
Definition makes_edges (TK : tab_kernel) : Prop :=
  (forall c p q rev e, p <= q -> tk_make TK c p q rev = Ok e ->
     edge_sound e /\ e_reversed e = rev /\ e_param0 e = p /\ e_param1 e = q /\ (forall x, e_param e x = c x)) /\
  (forall a b l, tk_line TK a b = Ok l ->
     edge_sound l /\ travel_start l = a /\ travel_end l = b /\ e_geom l = GLINE).
(** The location of the edge moves it up or down only. *)
Definition moved_vertically (TK : tab_kernel) (e : edge) : Prop :=
  forall v, vx (tk_location TK e v) = vx v /\ vy (tk_location TK e v) = vy v.

Definition at_height_of (t : transition) (tab_z : Qc) (v : vec) : vec :=
  match t with TTAB => V3 (vx v) (vy v) tab_z | _ => v end.
(** The point of the edge at a fraction of its length, in travel direction. *)
Definition travel_at (TK : tab_kernel) (e : edge) (d : Qc) : vec :=
  e_param e (tk_param_at TK e (if e_reversed e then 1 - d else d)).

(** [q] is the piece of [e] between two fractions of its length, at the height of the state. *)
Definition piece_of (TK : tab_kernel) (tab_z : Qc) (e : edge) (d1 d2 : Qc) (t : transition) (q : edge) : Prop :=
  edge_sound q /\ e_reversed q = e_reversed e /\
  travel_start q = at_height_of t tab_z (travel_at TK e d1) /\
  travel_end q = at_height_of t tab_z (travel_at TK e d2) /\
  e_param0 q = tk_param_at TK e (if e_reversed e then 1 - d2 else d1) /\
  e_param1 q = tk_param_at TK e (if e_reversed e then 1 - d1 else d2) /\
  (forall p, e_param q p = at_height_of t tab_z (e_param e p)).
(** A straight vertical link. *)
Definition vertical_link (a b : vec) (l : edge) : Prop :=
  e_geom l = GLINE /\ edge_sound l /\ travel_start l = a /\ travel_end l = b /\ vx a = vx b /\ vy a = vy b.

(** The edge is replaced by its pieces, with vertical links between them. *)
Fixpoint pieces_of (TK : tab_kernel) (tab_z : Qc) (e : edge) (ts : marks) (out : list edge) : Prop :=
  match ts with
  | (d1, t) :: (((d2, _) :: rest') as rest) =>
      exists q, piece_of TK tab_z e d1 d2 t q /\
      match rest' with
      | [] => out = [q]
      | _ => exists l next more, out = q :: l :: next :: more /\
               vertical_link (travel_end q) (travel_start next) l /\
               pieces_of TK tab_z e rest (next :: more)
      end
  | _ => out = []
  end.

(** The share of each edge of a wire, in fractions of its length. *)
Fixpoint shares (total before : Qc) (lengths : list Qc) : list (Qc * Qc) :=
  match lengths with
  | [] => []
  | l :: ls => (before / total, (before + l) / total) :: shares total (before + l) ls
  end.

(** Whether an edge with these transitions starts and ends at tab height. *)
Definition starts_in_tab (ts : marks) : Prop := match ts with (_, TTAB) :: _ => True | _ => False end.
Fixpoint ends_in_tab (ts : marks) : Prop :=
  match ts with
  | (_, t) :: rest => match rest with
                      | [_] => t = TTAB
                      | _ => ends_in_tab rest
                      end
  | [] => False
  end.

(** An edge of the wire and what replaces it. *)
Definition replaced (TK : tab_kernel) (tab_z : Qc) (e : edge) (ts : marks) (out : list edge) : Prop :=
  (Forall (fun m => snd m = TNORMAL) ts /\ out = [e]) \/
  (~ Forall (fun m => snd m = TNORMAL) ts /\ pieces_of TK tab_z e ts out).
(** Transitions an edge can be cut at. *)
Definition usable (ts : marks) : Prop :=
  (2 <= length ts)%nat /\ forwards ts /\ fst (hd (0, TNORMAL) ts) = 0 /\ fst (last ts (0, TNORMAL)) = 1.

(** The wire [p] is [es] with tabs on its edges: inside the tabs at height [tab_z], outside them as
    before, in one connected run. *)
Definition tabbed (TK : tab_kernel) (tab_z spacing width : Qc) (only : option geom) (es p : list edge) : Prop :=
  exists ms outs,
    Forall2 (fun e m => describes (edge_tab_set spacing width only e) m) es ms /\
    Forall2 (fun em out => replaced TK tab_z (fst em) (snd em) out) (combine es ms) outs /\
    p = concat outs /\ connected p.
(** What tabs on edges need of a wire. *)
Definition takes_tabs (TK : tab_kernel) (spacing width : Qc) (es : list edge) : Prop :=
  connected es /\ forall e, In e es ->
    edge_sound e /\ edge_on_curve TK e /\ moved_vertically TK e /\ 0 < e_length e /\ roomy spacing width e.

(** Consecutive edges meet at the same height. *)
Fixpoint tabs_meet (ms : list marks) : Prop :=
  match ms with
  | a :: (b :: _) as rest => (ends_in_tab a <-> starts_in_tab b) /\ tabs_meet rest
  | _ => True
  end.

Fixpoint qsum (ls : list Qc) : Qc := match ls with [] => 0 | l :: ls => l + qsum ls end.

(** The tab around the start of the wire begins on the edge with range [s]..[e], behind another tab
    of that edge. *)
Definition wraps_behind (c : nat) (width length s e : Qc) : Prop :=
  let h := width / qz 2 / length in
  s < 1 - h /\ 1 - h <= e /\ exists k, (1 <= k < Z.of_nat c)%Z /\ s < qz k / qz (Z.of_nat c) + h.

(** Tabs on a wire: like [tabbed], the positions being those on the whole wire. *)
Definition tabbed_wire (TK : tab_kernel) (tab_z : Qc) (c : nat) (width : Qc) (es p : list edge) : Prop :=
  let L := qsum (map e_length es) in exists ms outs,
    Forall2 (fun r m => describes (fun d => in_wire_tab c width L (on_wire r d)) m) (shares L 0 (map e_length es)) ms /\
    Forall2 (fun em out => replaced TK tab_z (fst em) (snd em) out) (combine es ms) outs /\
    p = concat outs /\ connected p.
(** What they need of a wire: no tab ends at a corner (C45_corner_refuted), and no edge is cut
    backwards (C44_unordered_refuted). *)
Definition takes_wire_tabs (TK : tab_kernel) (c : nat) (width : Qc) (es : list edge) : Prop :=
  let L := qsum (map e_length es) in
  connected es /\ es <> [] /\ tk_length TK es = L /\ width * qz (Z.of_nat c) <= L /\
  (forall e, In e es -> edge_sound e /\ edge_on_curve TK e /\ moved_vertically TK e /\ 0 < e_length e) /\
  forall r, In r (shares L 0 (map e_length es)) -> ~ wraps_behind c width L (fst r) (snd r) /\
    forall k, qabs (fst r - qz k / qz (Z.of_nat c)) * L <> width / qz 2.
