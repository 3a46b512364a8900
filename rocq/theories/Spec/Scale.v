(** * The same work measured in another unit *)
From Verif Require Import Base.Py Model.Geometry Model.Plane Model.Command Model.Job Model.Pocket Spec.Alike.
Local Open Scope Qc_scope.
Local Open Scope list_scope.

Section Scale.
Context (k : Qc).
Definition scale_pt (p : pt) : pt := (k * fst p, k * snd p).
Definition scale_path (p : path) : path := map scale_pt p.
Definition scale_vec (v : vec) : vec := V3 (k * vx v) (k * vy v) (k * vz v).
Definition scale_avec (v : avec) : avec := AV (option_map (Qcmult k) (ax v)) (option_map (Qcmult k) (ay v)) (option_map (Qcmult k) (az v)).
Definition scale_motion (m : motion) : motion :=
  match m with
  | MRapid q s e a => MRapid q (scale_avec s) (scale_avec e) a
  | MCut q s e a f => MCut q (scale_avec s) (scale_avec e) a f
  | MArc cw s e c mid a f => MArc cw (scale_avec s) (scale_avec e) (scale_avec c) (scale_avec mid) a f
  end.
Definition scale_command (c : command) : command := match c with Motion m => Motion (scale_motion m) | Config c => Config c end.
Definition scale_face (f : pathface) : pathface := PF (scale_path (pf_outer f)) (map scale_path (pf_inners f)) (k * pf_depth f).
(** A job with the same plane and feed rates, whose heights are given in the other unit. *)
Definition scaled_job (j j' : job) : Prop :=
  j_top j' = j_top j /\ same_feeds j j' /\ j_op_safe_height j' = k * j_op_safe_height j /\ j_rapid_height j' = k * j_rapid_height j.
End Scale.
