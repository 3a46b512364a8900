(** * Specification: pictures of a job *)
From Verif Require Import Base.Str Spec.Feeds Spec.Moves Model.Plane Model.Job Model.Visual.
Local Open Scope list_scope.

(** The motions of a job that are shown: those of each operation but the first. *)
Definition shown_moves (j : job) : list motion :=
  flat_map (fun o => flat_map command_moves (skipn 1 (op_commands o))) (j_operations j).

(** Where a motion starts and ends, an unknown start coordinate being taken as 0 and an unknown end
    coordinate as that of the start. *)
Definition coord (c : option Qc) (d : Qc) : Qc := match c with Some c => c | None => d end.
Definition from_point (m : motion) : vec :=
  V3 (coord (ax (m_start m)) 0%Qc) (coord (ay (m_start m)) 0%Qc) (coord (az (m_start m)) 0%Qc).
Definition to_point (m : motion) : vec :=
  let s := from_point m in
  V3 (coord (ax (m_end m)) (vx s)) (coord (ay (m_end m)) (vy s)) (coord (az (m_end m)) (vz s)).
Definition is_arc (m : motion) : bool := match m with MArc _ _ _ _ _ _ _ => true | _ => false end.

(** All coordinates of the start of an arc are known. *)
Definition arc_known (m : motion) : Prop :=
  is_arc m = true -> ax (m_start m) <> None /\ ay (m_start m) <> None /\ az (m_start m) <> None.

(** A kernel that makes edges with the given ends ([ends] of an edge). *)
Record faithful (K : visual_kernel) (ends : vk_edge K -> vec * vec) : Prop := {
  line_ends : forall a b, vk_same K a b = false -> exists e, vk_line K (PVector a) (PVector b) = Ok e /\ ends e = (a, b);
  place_ends : forall p e, exists e', vk_place K p e = Ok e' /\
    ends e' = (to_world p (fst (ends e)), to_world p (snd (ends e))) }.
(** It takes cq.Vectors only (cadquery raises a TypeError for other objects). *)
Definition vectors_only (K : visual_kernel) : Prop :=
  forall s, (forall b c, exists x, vk_arc K (PAddress s) b c = Err x) /\ (forall b, exists x, vk_line K (PAddress s) b = Err x).
(** It also takes AddressVectors, and draws arcs. *)
Definition addresses_too (K : visual_kernel) (ends : vk_edge K -> vec * vec) : Prop :=
  forall x y z m b, exists e, vk_arc K (PAddress (AV (Some x) (Some y) (Some z))) (PVector m) (PVector b) = Ok e /\ ends e = (V3 x y z, b).

(** The ends of the edge of a motion, on the workpiece. *)
Definition drawn_ends (top : plane) (m : motion) : vec * vec := (to_world top (from_point m), to_world top (to_point m)).

(** The colour of a class of command. *)
Definition class_colour (m : motion) : string :=
  match m with
  | MRapid KRapid _ _ _ => "green" | MRapid KRetract _ _ _ => "blue"
  | MRapid KPlungeRapid _ _ _ | MCut KPlungeCut _ _ _ _ => "yellow"
  | MCut KCut _ _ _ _ | MArc _ _ _ _ _ _ _ => "red"
  end.
(** Every second element is marked. *)
Fixpoint alternate {A} (alt : bool) (l : list A) : list (A * bool) :=
  match l with [] => [] | a :: l => (a, alt) :: alternate (negb alt) l end.

(** The names shown: the job, the number of the operation and its name. *)
Fixpoint shown_names (job : string) (i : Z) (os : list operation) : list string :=
  match os with [] => [] | o :: os => (job ++ " #" ++ print_Z i ++ " " ++ op_name o)%string :: shown_names job (i + 1)%Z os end.

(** Three perpendicular directions of length one. *)
Definition orthonormal (p : plane) : Prop :=
  (dot (p_xdir p) (p_xdir p) = 1 /\ dot (p_ydir p) (p_ydir p) = 1 /\ dot (p_zdir p) (p_zdir p) = 1 /\
   dot (p_xdir p) (p_ydir p) = 0 /\ dot (p_xdir p) (p_zdir p) = 0 /\ dot (p_ydir p) (p_zdir p) = 0)%Qc.
(** An edge from the origin of the plane to the point with these local coordinates. *)
Definition axis_to {E} (ends : E -> vec * vec) (top : plane) (local : vec) (e : E) : Prop :=
  fst (ends e) = p_origin top /\ to_local top (snd (ends e)) = local.
