(** Executing the blocks of commands. *)
From Verif Require Import Base.Str Spec.Gcode Spec.Blocks Spec.Machine Model.Groups Model.Command.
From Coq Require Import NArith Lia.
Local Open Scope Z_scope.
Local Open Scope list_scope.

Lemma codes_app l a b : codes l (a ++ b) = codes l a ++ codes l b.
Proof. unfold codes. apply flat_map_app. Qed.
Lemma codes_opt l l' v : Ascii.eqb l' l = false -> codes l (opt_word l' v) = [].
Proof. intros H. destruct v; simpl; [rewrite H|]; reflexivity. Qed.
Lemma lookup_app l a b : lookup l (a ++ b) = first_some (lookup l a) (lookup l b).
Proof.
  induction a as [|[l' v] a IH]; simpl; [reflexivity|].
  destruct (Ascii.eqb l l'); [reflexivity|exact IH].
Qed.
Lemma lookup_opt_eq l v : lookup l (opt_word l v) = v.
Proof. destruct v; simpl; [rewrite Ascii.eqb_refl|]; reflexivity. Qed.
Lemma lookup_opt_neq l l' v : Ascii.eqb l l' = false -> lookup l (opt_word l' v) = None.
Proof. intros H. destruct v; simpl; [rewrite H|]; reflexivity. Qed.

Lemma run_app st a b : run st (a ++ b) =
  (fst (run (fst (run st a)) b), snd (run st a) ++ snd (run (fst (run st a)) b)).
Proof.
  revert st. induction a as [|x a IH]; intros st; simpl.
  - destruct (run st b); reflexivity.
  - destruct (exec_block st x) as [st1 e1]. specialize (IH st1).
    destruct (run st1 (a ++ b)) as [s2 e2]. destruct (run st1 a) as [s3 e3]. simpl in *.
    injection IH as -> ->. rewrite app_assoc. reflexivity.
Qed.
Lemma run_app_fst st a b : fst (run st (a ++ b)) = fst (run (fst (run st a)) b).
Proof. rewrite run_app. reflexivity. Qed.
Lemma run_app_snd st a b : snd (run st (a ++ b)) = snd (run st a) ++ snd (run (fst (run st a)) b).
Proof. rewrite run_app. reflexivity. Qed.
Lemma run_cons st x b : run st (x :: b) =
  (fst (run (fst (exec_block st x)) b), snd (exec_block st x) ++ snd (run (fst (exec_block st x)) b)).
Proof. change (x :: b) with ([x] ++ b). rewrite run_app. simpl. destruct (exec_block st x). simpl. rewrite app_nil_r. reflexivity. Qed.

(** ** Motions *)
Definition m_code (m : motion) : Z :=
  match m with MRapid _ _ _ _ => 0 | MCut _ _ _ _ _ => 10 | MArc true _ _ _ _ _ _ => 20 | MArc false _ _ _ _ _ _ => 30 end.
Definition m_kind (m : motion) : gmotion :=
  match m with MRapid _ _ _ _ => GRapid | MCut _ _ _ _ _ => GLinear
  | MArc true _ _ _ _ _ _ => GArcCW | MArc false _ _ _ _ _ _ => GArcCCW end.

Lemma motion_gcodes m : codes "G" (motion_block m) = [m_code m].
Proof.
  destruct m as [k st en ar|k st en ar f|cw st en c mid ar f]; unfold motion_block, axes_block, feed_block;
    rewrite ?(codes_app "G"), ?app_comm_cons.
  - change (gword 0 :: ?b) with ([gword 0] ++ b). rewrite !codes_app, !codes_opt by reflexivity. reflexivity.
  - change (gword 1 :: ?b) with ([gword 1] ++ b). rewrite !codes_app, !codes_opt by reflexivity. reflexivity.
  - rewrite !codes_app.
    match goal with |- context [codes "G" (gword ?n :: ?b)] => change (gword n :: b) with ([gword n] ++ b) end.
    rewrite !codes_app, !codes_opt by reflexivity. destruct cw; reflexivity.
Qed.
Lemma motion_mcodes m : codes "M" (motion_block m) = [].
Proof.
  destruct m as [k st en ar|k st en ar f|cw st en c mid ar f]; unfold motion_block, axes_block, feed_block.
  - change (gword 0 :: ?b) with ([gword 0] ++ b). rewrite !codes_app, !codes_opt by reflexivity. reflexivity.
  - change (gword 1 :: ?b) with ([gword 1] ++ b). rewrite !codes_app, !codes_opt by reflexivity. reflexivity.
  - match goal with |- context [gword ?n :: ?b] => change (gword n :: b) with ([gword n] ++ b) end.
    rewrite !codes_app, !codes_opt by reflexivity. destruct cw; reflexivity.
Qed.

Definition m_ijk (m : motion) : option (Qc * Qc * Qc) :=
  match m with
  | MArc _ st _ c _ _ _ => Some (rounded 3 (centre_offset (ax c) (ax st)),
       rounded 3 (centre_offset (ay c) (ay st)), rounded 3 (centre_offset (az c) (az st)))
  | _ => None
  end.

Lemma motion_lookup m :
  lookup "X" (motion_block m) = option_map (rounded 3) (ax (m_end m)) /\
  lookup "Y" (motion_block m) = option_map (rounded 3) (ay (m_end m)) /\
  lookup "Z" (motion_block m) = option_map (rounded 3) (az (m_end m)) /\
  lookup "F" (motion_block m) = option_map pyval (m_feed m) /\
  lookup "S" (motion_block m) = None /\ lookup "T" (motion_block m) = None /\ lookup "H" (motion_block m) = None /\
  lookup "I" (motion_block m) = option_map (fun '(i, _, _) => i) (m_ijk m) /\
  lookup "J" (motion_block m) = option_map (fun '(_, j, _) => j) (m_ijk m) /\
  lookup "K" (motion_block m) = option_map (fun '(_, _, k) => k) (m_ijk m).
Proof.
  destruct m as [k st en ar|k st en ar f|cw st en c mid ar f]; unfold motion_block, axes_block, feed_block, gword;
    cbn [m_end m_feed m_ijk option_map lookup Ascii.eqb Bool.eqb];
    rewrite !lookup_app;
    repeat first [rewrite lookup_opt_eq | rewrite lookup_opt_neq by reflexivity];
    cbn [lookup Ascii.eqb Bool.eqb first_some];
    destruct (option_map (rounded 3) (ax en)), (option_map (rounded 3) (ay en)), (option_map (rounded 3) (az en));
    try destruct (option_map pyval f);
    repeat split; reflexivity.
Qed.

Definition set_feed (st : mstate) (f : option Qc) : mstate :=
  MS (ms_x st) (ms_y st) (ms_z st) (ms_spindle st) (ms_speed st) (ms_mist st) (ms_flood st)
     (ms_selected st) (ms_tool st) (ms_length st) (ms_plane st) (ms_units st) (ms_radius st)
     (ms_wcs st) (ms_path st) (ms_dist st) (ms_feedmode st) f (ms_motion st) (ms_ended st).
(** State before the move, and after it. *)
Definition before_motion (st : mstate) (m : motion) : mstate :=
  set_feed st (first_some (option_map pyval (m_feed m)) (ms_feed st)).
Definition after_motion (st : mstate) (m : motion) : mstate :=
  set_motion (set_pos (before_motion st m)
    (first_some (option_map (rounded 3) (ax (m_end m))) (ms_x st))
    (first_some (option_map (rounded 3) (ay (m_end m))) (ms_y st))
    (first_some (option_map (rounded 3) (az (m_end m))) (ms_z st))) (Some (m_kind m)).

Lemma modal_motion st m : exec_modal st (motion_block m) = before_motion st m.
Proof.
  destruct (motion_lookup m) as (X & Y & Z & F & S & T & H & _).
  unfold exec_modal. rewrite motion_gcodes, motion_mcodes, F, S, T.
  destruct m as [k s en ar|k s en ar f|[] s en c mid ar f]; reflexivity.
Qed.
Lemma target_abs cur w : target (Some 900) cur w = first_some w cur.
Proof. destruct w; reflexivity. Qed.
Lemma motion_step st m : ms_dist st = Some 900 ->
  exec_motion_step st (motion_block m) =
   (let st' := set_motion (set_pos st
      (first_some (option_map (rounded 3) (ax (m_end m))) (ms_x st))
      (first_some (option_map (rounded 3) (ay (m_end m))) (ms_y st))
      (first_some (option_map (rounded 3) (az (m_end m))) (ms_z st))) (Some (m_kind m)) in
    (st', [Ev (m_kind m) st st'
         (lookup "I" (motion_block m)) (lookup "J" (motion_block m)) (lookup "K" (motion_block m))])).
Proof.
  intros Hd. destruct (motion_lookup m) as (X & Y & Z & _).
  unfold exec_motion_step. rewrite motion_gcodes, X, Y, Z, Hd, !target_abs.
  destruct m as [k s en ar|k s en ar f|[] s en c mid ar f]; reflexivity.
Qed.

Lemma exec_motion st m : ms_ended st = false -> ms_dist st = Some 900 ->
  exec_block st (motion_block m) =
    (after_motion st m,
     [Ev (m_kind m) (before_motion st m) (after_motion st m)
         (lookup "I" (motion_block m)) (lookup "J" (motion_block m)) (lookup "K" (motion_block m))]).
Proof.
  intros He Hd. unfold exec_block. rewrite He, modal_motion, motion_gcodes, motion_mcodes.
  replace (is_home [m_code m]) with false by (destruct m as [| |[]]; reflexivity).
  rewrite motion_step by exact Hd. reflexivity.
Qed.

Lemma exec_empty st : exec_block st [] = (st, []).
Proof. destruct st as [? ? ? ? ? ? ? ? ? ? ? ? ? ? ? ? ? ? ? []]; reflexivity. Qed.

(** ** The safety block, the start and the stop sequence *)
Definition after_safety (st : mstate) : mstate :=
  MS None None None (ms_spindle st) (ms_speed st) (ms_mist st) (ms_flood st)
     (ms_selected st) (ms_tool st) None (Some 170) (Some 210) (Some 400)
     (Some 540) (Some 640) (Some 900) (Some 940) (ms_feed st) None false.
Lemma run_safety st : ms_ended st = false -> run st safety_blocks = (after_safety st, []).
Proof. intros H. destruct st; simpl in H; subst. reflexivity. Qed.

Definition coolant_after (co : option coolant_state) (st : mstate) : bool * bool :=
  match co with
  | None => (ms_mist st, ms_flood st)
  | Some MIST => (true, ms_flood st)
  | Some FLOOD => (ms_mist st, true)
  | Some COOLANT_OFF => (false, false)
  end.
Definition after_start (st : mstate) (s : option pynum) (co : option coolant_state) : mstate :=
  MS (ms_x st) (ms_y st) (ms_z st) SpCW (first_some (option_map pyval s) (ms_speed st))
     (fst (coolant_after co st)) (snd (coolant_after co st))
     (ms_selected st) (ms_tool st) (ms_length st) (ms_plane st) (ms_units st) (ms_radius st)
     (ms_wcs st) (ms_path st) (ms_dist st) (ms_feedmode st) (ms_feed st) (ms_motion st) (ms_ended st).
Lemma exec_start st s co : ms_ended st = false -> exec_block st (start_block s co) = (after_start st s co, []).
Proof. intros H. destruct st; simpl in H; subst. destruct s, co as [[]|]; reflexivity. Qed.

Definition after_stop (st : mstate) (co : option coolant_state) : mstate :=
  MS (ms_x st) (ms_y st) (ms_z st) SpOff (ms_speed st)
     (match co with Some _ => false | None => ms_mist st end) (match co with Some _ => false | None => ms_flood st end)
     (ms_selected st) (ms_tool st) (ms_length st) (ms_plane st) (ms_units st) (ms_radius st)
     (ms_wcs st) (ms_path st) (ms_dist st) (ms_feedmode st) (ms_feed st) (ms_motion st) (ms_ended st).
Lemma exec_stop st co : ms_ended st = false -> exec_block st (stop_block co) = (after_stop st co, []).
Proof. intros H. destruct st; simpl in H; subst. destruct co as [[]|]; reflexivity. Qed.

Definition after_tool (st : mstate) (n : Z) (s : option pynum) (co : option coolant_state) : mstate :=
  let st1 := after_stop st co in
  after_start
  (MS None None None SpOff (ms_speed st1) (ms_mist st1) (ms_flood st1)
     (Some (qz n)) (Some (qz n)) (Some (qz n)) (ms_plane st) (ms_units st) (ms_radius st)
     (ms_wcs st) (ms_path st) (ms_dist st) (ms_feedmode st) (ms_feed st) (ms_motion st) false) s co.
Lemma run_tool st n s co : ms_ended st = false ->
  run st (config_blocks (CToolChange n s co)) = (after_tool st n s co, []).
Proof.
  intros H. unfold config_blocks. rewrite run_cons, exec_stop by exact H. simpl fst. simpl snd.
  destruct st; simpl in H; subst.
  destruct s, co as [[]|]; reflexivity.
Qed.

Definition after_end (st : mstate) : mstate :=
  MS (ms_x st) (ms_y st) (ms_z st) (ms_spindle st) (ms_speed st) (ms_mist st) (ms_flood st)
     (ms_selected st) (ms_tool st) (ms_length st) (ms_plane st) (ms_units st) (ms_radius st)
     (ms_wcs st) (ms_path st) (ms_dist st) (ms_feedmode st) (ms_feed st) (ms_motion st) true.
Lemma exec_end st : ms_ended st = false -> exec_block st [mword 30] = (after_end st, []).
Proof. intros H. destruct st; simpl in H; subst. reflexivity. Qed.
