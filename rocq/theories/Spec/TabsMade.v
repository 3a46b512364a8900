(** * Specification: profiles with holding tabs on the machine *)
From Verif Require Import Base.Str Base.Py Spec.Gcode Spec.Blocks Spec.Machine Spec.Wires Spec.Tabs Spec.Profiles Spec.OnMachine Spec.Traced
  Model.Geometry Model.Plane Model.Edges Model.Job Model.Routers Model.Tabs Model.Profile.
Local Open Scope Qc_scope.
Local Open Scope list_scope.

Definition sound_wire (w : list edge) : Prop := connected w /\ forall e, In e w -> edge_sound e.
(** Tabs that are cut as asked for: C43_overlap_refuted, C44_unordered_refuted and C45_corner_refuted
    are excluded, and their tops are below the safe height. *)
Definition tabs_fit (TK : tab_kernel) (safe z : Qc) (t : option tabs) (w : list edge) : Prop :=
  match t with
  | None | Some NoTabs => True
  | Some (EdgeTabs spacing width height _) => 0 < width /\ width < spacing /\ z + height < safe /\ takes_tabs TK spacing width w
  | Some (WireTabs c width height) => (1 <= c)%nat /\ 0 < width /\ z + height < safe /\ takes_wire_tabs TK c width w
  end.
(** A flat wire at [z], below the safe height, that can be stepped down to. *)
Definition cut_ready (TK : tab_kernel) (WK : wire_kernel) (top : plane) (sd : option Qc) (t : option tabs) (safe : Qc) (b : list edge) : Prop :=
  exists z, flat z b /\ z < safe /\ sound_wire b /\ tabs_fit TK safe z t b /\
    (stepped sd -> clear_of_top TK WK top b /\ forall dz, sound_wire (wk_moved WK b dz) /\ tabs_fit TK safe z t (wk_moved WK b dz)).
(** The kernel never answers with a place inside an edge (C30_parameter_refuted). *)
Definition only_ends (K : kernel) : Prop := forall u w d id p, k_nearest K u (WWire w) <> Some (d, TEdge id p).

(** What is cut of a layer that is [up] above the profile at [z]: itself if it is not below the tops
    of the tabs, otherwise the layer with tabs up to their common top. *)
Definition pass_path (TK : tab_kernel) (t : option tabs) (z up : Qc) (layer p : list edge) : Prop :=
  match t with
  | None | Some NoTabs => p = layer
  | Some (EdgeTabs spacing width height only) => (height <= up -> p = layer) /\ (up < height -> tabbed TK (z + height) spacing width only layer p)
  | Some (WireTabs c width height) => (height <= up -> p = layer) /\ (up < height -> tabbed_wire TK (z + height) c width layer p)
  end.
(** The profile is cut in passes a stepdown apart, highest first; the tool follows the path of every
    pass, at the rates given. *)
Definition profile_followed (K : kernel) (TK : tab_kernel) (WK : wire_kernel) (safe : Qc) (plunge_feed feed : pynum) (sd : option Qc) (t : option tabs)
  (b : list edge) (es : list event) : Prop :=
  exists z s n passes, flat z b /\ passes_needed sd z s n /\ es = concat passes /\ length passes = S n /\
    forall k pass, nth_error passes k = Some pass ->
      exists p, pass_path TK t z (qz (Z.of_nat (n - k)) * s) (if (k =? n)%nat then b else wk_moved WK b (s * qz (Z.of_nat (n - k)))) p /\
        wire_traced K safe plunge_feed feed p pass.
