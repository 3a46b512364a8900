(** Examples for Props/Relational.v. *)
From Verif Require Import Base.Str Base.Py Model.Groups Model.Geometry Model.Plane Model.Edges Model.Command Model.Job Model.Tree Model.Routers Model.Drill Model.Pocket
  Spec.Alike Spec.Shift Proofs.ShiftP Proofs.RouteEx Proofs.DrillEx Proofs.ProfileEx.
Local Open Scope string_scope.
Local Open Scope Qc_scope.
Local Open Scope list_scope.

(** Like ex_job, with another tool number and speed, and work already done; and one that is fed
    faster. *)
Definition busy_job : job :=
  with_operations (with_tool ex_job (Some 7%Z) (j_tool_diameter ex_job) (j_feed ex_job) (Some (PInt 9000)))
    [Op 0%nat "Drill" [Motion (rapid_abs None None (Some (qz 5)) None false)]].
Definition fast_job : job := with_tool ex_job None (j_tool_diameter ex_job) (PInt 900) None.
Lemma ex_calls : hget [ex_job] 0%nat = Some ex_job /\ hget [ex_job; busy_job] 1%nat = Some busy_job /\ alike ex_job busy_job /\ same_feeds ex_job busy_job /\
  j_operations ex_job <> j_operations busy_job /\ j_speed ex_job <> j_speed busy_job /\
  snd (job_drill [ex_job] 0%nat (Some ex_holes) (Some (qz 2)) None) = Ok 1%nat /\
  snd (job_drill [ex_job; busy_job] 1%nat (Some ex_holes) (Some (qz 2)) None) = Ok 2%nat.
Proof.
  split; [reflexivity|]. split; [reflexivity|]. split; [repeat split|]. split; [repeat split|]. split; [discriminate|]. split; [discriminate|].
  split; vm_compute; reflexivity.
Qed.
Definition all_feeds (r : result (list command)) : list (option pynum) :=
  match r with Ok cs => flat_map (fun c => match c with Motion m => [m_feed m] | Config _ => [] end) cs | Err _ => [] end.
Lemma ex_feeds : alike ex_job fast_job /\ ~ same_feeds ex_job fast_job /\
  all_feeds (drill_gen (Some ex_holes) (Some (qz 2)) ex_job) <> all_feeds (drill_gen (Some ex_holes) (Some (qz 2)) fast_job).
Proof.
  split; [repeat split|]. split; [intros [C _]; discriminate C|]. intros C. vm_compute in C. discriminate C.
Qed.

(** An engine whose offset areas are as large as before, as long as less than 1 is taken off, and
    then nothing; and a kernel that answers with the first corner. *)
Definition copy_engine : engine := Engine
  (fun p o _ => if qltb o (-(1)) then Ok [] else Ok [p])
  (fun s _ => Ok (map (fun p => PNode p []) s)) (fun s _ => Ok (map (fun p => PNode p []) s)) (fun _ _ => Ok true).
Lemma copy_engine_moves d : engine_moves copy_engine d.
Proof.
  split; [intros p o n; cbn; destruct (qltb o (-(1))); reflexivity|]. split; [intros; cbn; rewrite !map_map; reflexivity|].
  split; [intros; cbn; rewrite !map_map; reflexivity|reflexivity].
Qed.
Definition corner_kernel : kernel := Kernel
  (fun a b => qeqb (vx a) (vx b) && qeqb (vy a) (vy b) && qeqb (vz a) (vz b))
  (fun v w => match wire_edges w with
              | [] => None
              | e :: _ => let c := edge_start_point e in Some (qabs (vx v - vx c) + qabs (vy v - vy c), TVertex c)
              end).
Lemma corner_kernel_moves d : kernel_moves corner_kernel d.
Proof.
  split.
  - intros a b. cbn. rewrite !qeqb_shift. reflexivity.
  - intros v w. cbn [corner_kernel k_nearest]. rewrite wire_edges_shift. destruct (wire_edges w) as [|e es]; [reflexivity|]. cbn [map].
    rewrite start_shift. cbn. rewrite !qsub_shift. reflexivity.
Qed.
Definition shifted_pocket : result (list motion) :=
  pocket_clipper copy_engine 20 ex_job [PF (square 0 0 10) [] (qz (-2))] [] 0 0 0 0 (qz 2) (Some 1).
Definition shifted_wires : result (list motion) := route_wires corner_kernel ex_job (map WWire [zrect 0 0 10 8 (-1); zrect 2 0 8 6 (-1)]) (Some (qz 3)) None.
Definition ends_of (r : result (list motion)) : list (option Z * option Z * option Z) :=
  let f := option_map qfloor in match r with Ok ms => map (fun m => let v := m_end m in (f (ax v), f (ay v), f (az v))) ms | Err _ => [] end.
Lemma ex_shift : (forall d, engine_moves copy_engine d) /\ (forall d, kernel_moves corner_kernel d) /\
  length (motions shifted_pocket) = 15%nat /\ length (motions shifted_wires) = 13%nat.
Proof. split; [exact copy_engine_moves|]. split; [exact corner_kernel_moves|]. split; vm_compute; reflexivity. Qed.
