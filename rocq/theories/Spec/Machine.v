(** * Specification: a machine executing G-code blocks

    Written from the order of execution and the modal groups documented in
    /repo/src/cq_cam/command.py:27-48 and /repo/src/cq_cam/groups.py:1-26 (RS274/NGC), not from the
    code that emits the program.  Codes are kept in tenths (G61.1 is 611).

    Conservative choices: a home move (G28/G30) leaves the position unknown, M6 stops the
    spindle, and M2/M30 only end the program (their implicit spindle stop is not relied on). *)
From Verif Require Import Base.Str Spec.Gcode.
Local Open Scope Z_scope.

Inductive spindle := SpOff | SpCW | SpCCW.
Inductive gmotion := GRapid | GLinear | GArcCW | GArcCCW.

Record mstate := MS {
  ms_x : option Qc; ms_y : option Qc; ms_z : option Qc;  (* None: unknown *)
  ms_spindle : spindle;
  ms_speed : option Qc;
  ms_mist : bool; ms_flood : bool;
  ms_selected : option Qc;      (* T word *)
  ms_tool : option Qc;          (* tool in the spindle *)
  ms_length : option Qc;        (* active length offset, None = G49 *)
  ms_plane : option Z; ms_units : option Z; ms_radius : option Z; ms_wcs : option Z;
  ms_path : option Z; ms_dist : option Z; ms_feedmode : option Z;
  ms_feed : option Qc;
  ms_motion : option gmotion;
  ms_ended : bool
}.

(** A move actually made: machine state before and after, and the arc centre words. *)
Record event := Ev {
  ev_kind : gmotion; ev_from : mstate; ev_to : mstate;
  ev_i : option Qc; ev_j : option Qc; ev_k : option Qc
}.

(** Codes of a letter, in tenths; a value that is not a multiple of a tenth is no code (-1). *)
Definition code_of (v : Qc) : Z :=
  let z := qfloor (v * qz 10)%Qc in if qeqb (qz z) (v * qz 10)%Qc then z else -1.
Definition codes (l : ascii) (b : block) : list Z :=
  flat_map (fun w => if Ascii.eqb (w_letter w) l then [code_of (w_val w)] else []) b.
Definition pick (cands : list Z) (cs : list Z) : option Z :=
  find (fun c => existsb (Z.eqb c) cands) cs.
Definition member (c : Z) (cs : list Z) : bool := existsb (Z.eqb c) cs.

Definition first_some {A} (a b : option A) : option A := match a with Some _ => a | None => b end.

Definition motion_of (c : Z) : option gmotion :=
  if c =? 0 then Some GRapid else if c =? 10 then Some GLinear
  else if c =? 20 then Some GArcCW else if c =? 30 then Some GArcCCW else None.

Definition target (dist : option Z) (cur word : option Qc) : option Qc :=
  match dist, word with
  | Some 900, Some w => Some w
  | Some 910, Some w => match cur with Some c => Some (c + w)%Qc | None => None end
  | _, Some _ => None
  | _, None => cur
  end.

Definition has_axis (b : block) : bool :=
  match lookup "X" b, lookup "Y" b, lookup "Z" b with None, None, None => false | _, _, _ => true end.

(** Everything before home and motion, in execution order. *)
Definition exec_modal (st : mstate) (b : block) : mstate :=
  let g := codes "G" b in
  let m := codes "M" b in
  (* 2 feed rate mode, 3 F, 4 S, 5 T *)
  let feedmode := first_some (pick [930; 940; 950] g) (ms_feedmode st) in
  let feed := first_some (lookup "F" b) (ms_feed st) in
  let speed := first_some (lookup "S" b) (ms_speed st) in
  let selected := first_some (lookup "T" b) (ms_selected st) in
  (* 6 tool change *)
  let change := member 60 m in
  let tool := if change then selected else ms_tool st in
  let spindle := if change then SpOff else ms_spindle st in
  (* 7 spindle *)
  let spindle := match pick [30; 40; 50] m with
                 | Some 30 => SpCW | Some 40 => SpCCW | Some 50 => SpOff | _ => spindle end in
  (* 8 coolant *)
  let off := member 90 m in
  let mist := if member 70 m then true else if off then false else ms_mist st in
  let flood := if member 80 m then true else if off then false else ms_flood st in
  (* 11-17 *)
  let plane := first_some (pick [170; 180; 190] g) (ms_plane st) in
  let units := first_some (pick [200; 210] g) (ms_units st) in
  let radius := first_some (pick [400; 410; 420] g) (ms_radius st) in
  let length := if member 490 g then None
                else if member 430 g then first_some (lookup "H" b) (first_some tool (ms_length st))
                else ms_length st in
  let wcs := first_some (pick [540; 550; 560; 570; 580; 590; 591; 592; 593] g) (ms_wcs st) in
  let path := first_some (pick [610; 611; 640] g) (ms_path st) in
  let dist := first_some (pick [900; 910] g) (ms_dist st) in
  MS (ms_x st) (ms_y st) (ms_z st) spindle speed mist flood selected tool length plane units radius
     wcs path dist feedmode feed (ms_motion st) (ms_ended st).

Definition set_pos (st : mstate) (x y z : option Qc) : mstate :=
  MS x y z (ms_spindle st) (ms_speed st) (ms_mist st) (ms_flood st)
     (ms_selected st) (ms_tool st) (ms_length st) (ms_plane st) (ms_units st) (ms_radius st)
     (ms_wcs st) (ms_path st) (ms_dist st) (ms_feedmode st) (ms_feed st) (ms_motion st) (ms_ended st).
Definition set_motion (st : mstate) (k : option gmotion) : mstate :=
  MS (ms_x st) (ms_y st) (ms_z st) (ms_spindle st) (ms_speed st) (ms_mist st) (ms_flood st)
     (ms_selected st) (ms_tool st) (ms_length st) (ms_plane st) (ms_units st) (ms_radius st)
     (ms_wcs st) (ms_path st) (ms_dist st) (ms_feedmode st) (ms_feed st) k (ms_ended st).
Definition set_ended (st : mstate) : mstate :=
  MS (ms_x st) (ms_y st) (ms_z st) (ms_spindle st) (ms_speed st) (ms_mist st) (ms_flood st)
     (ms_selected st) (ms_tool st) (ms_length st) (ms_plane st) (ms_units st) (ms_radius st)
     (ms_wcs st) (ms_path st) (ms_dist st) (ms_feedmode st) (ms_feed st) (ms_motion st) true.

(** 18: home moves (G28, G30). *)
Definition is_home (g : list Z) : bool := member 280 g || member 300 g.

(** 19: the motion of a block.  An explicit motion code moves; axis words alone move in the
    current mode; G80 clears the mode; axis words of a home block belong to the home move. *)
Definition exec_motion_step (st : mstate) (b : block) : mstate * list event :=
  let g := codes "G" b in
  let explicit := match pick [0; 10; 20; 30] g with Some c => motion_of c | None => None end in
  let mode := if member 800 g then None else first_some explicit (ms_motion st) in
  let move := if is_home g then None
              else match explicit with
                   | Some k => Some k
                   | None => if has_axis b then mode else None
                   end in
  match move with
  | None => (set_motion st mode, [])
  | Some k =>
      let st' := set_motion (set_pos st (target (ms_dist st) (ms_x st) (lookup "X" b))
                   (target (ms_dist st) (ms_y st) (lookup "Y" b))
                   (target (ms_dist st) (ms_z st) (lookup "Z" b))) mode in
      (st', [Ev k st st' (lookup "I" b) (lookup "J" b) (lookup "K" b)])
  end.

(** Modal words, home, motion, 20 stop (M2, M30). *)
Definition exec_block (st : mstate) (b : block) : mstate * list event :=
  if ms_ended st then (st, []) else
  let st := exec_modal st b in
  let st := if is_home (codes "G" b) then set_pos st None None None else st in
  let '(st, evs) := exec_motion_step st b in
  let m := codes "M" b in
  (if member 20 m || member 300 m then set_ended st else st, evs).

Fixpoint run (st : mstate) (bs : list block) : mstate * list event :=
  match bs with
  | [] => (st, [])
  | b :: bs =>
      let '(st, e) := exec_block st b in
      let '(st, es) := run st bs in
      (st, (e ++ es)%list)
  end.

Definition is_feed_move (k : gmotion) : bool := match k with GRapid => false | _ => true end.

(** ** Legality of a block (command.py:50-67) *)
(** Modal groups of G codes (groups.py:5-20), tenths; G50 (used as a spindle mode by
    groups.py:168) is put with G96/G97 although RS274/NGC does not list it. *)
Definition g_group (c : Z) : option Z :=
  if existsb (Z.eqb c) [40; 100; 280; 300; 520; 530; 920; 921; 922; 923] then Some 0
  else if existsb (Z.eqb c) [0; 10; 20; 30; 382; 383; 384; 385; 800; 810; 820; 830; 840; 850; 860; 870; 880; 890] then Some 1
  else if existsb (Z.eqb c) [170; 180; 190; 171; 181; 191] then Some 2
  else if existsb (Z.eqb c) [900; 910] then Some 3
  else if existsb (Z.eqb c) [901; 911] then Some 4
  else if existsb (Z.eqb c) [930; 940; 950] then Some 5
  else if existsb (Z.eqb c) [200; 210] then Some 6
  else if existsb (Z.eqb c) [400; 410; 420; 411; 421] then Some 7
  else if existsb (Z.eqb c) [430; 431; 490] then Some 8
  else if existsb (Z.eqb c) [980; 990] then Some 10
  else if existsb (Z.eqb c) [540; 550; 560; 570; 580; 590; 591; 592; 593] then Some 12
  else if existsb (Z.eqb c) [610; 611; 640] then Some 13
  else if existsb (Z.eqb c) [500; 960; 970] then Some 14
  else None.
(** Modal groups of M codes (groups.py:22-25), and M6 in a group of its own. *)
Definition m_group (c : Z) : option Z :=
  if existsb (Z.eqb c) [0; 10; 20; 300; 600] then Some 4
  else if existsb (Z.eqb c) [60] then Some 6
  else if existsb (Z.eqb c) [30; 40; 50] then Some 7
  else if existsb (Z.eqb c) [70; 80; 90] then Some 8
  else None.

Fixpoint distinctb (l : list Z) : bool :=
  match l with [] => true | a :: l => negb (existsb (Z.eqb a) l) && distinctb l end.
Fixpoint groups_of (f : Z -> option Z) (cs : list Z) : option (list Z) :=
  match cs with
  | [] => Some []
  | c :: cs => match f c, groups_of f cs with Some g, Some gs => Some (g :: gs) | _, _ => None end
  end.
Definition one_per_group (f : Z -> option Z) (cs : list Z) : bool :=
  match groups_of f cs with Some gs => distinctb gs | None => false end.

(** Letters other than G and M at most once. *)
Definition other_letters (b : block) : list ascii :=
  filter (fun l => negb (Ascii.eqb l "G") && negb (Ascii.eqb l "M")) (map w_letter b).
Fixpoint distinct_letters (l : list ascii) : bool :=
  match l with [] => true | a :: l => negb (existsb (Ascii.eqb a) l) && distinct_letters l end.

Definition legal_block (b : block) : bool :=
  distinct_letters (other_letters b)
  && one_per_group g_group (codes "G" b)
  && one_per_group m_group (codes "M" b)
  && (List.length (codes "M" b) <=? 4)%nat
  && (match pick [0; 10; 20; 30] (codes "G" b) with Some _ => has_axis b | None => true end).
