(** Proofs for Spec/Leftovers.v. *)
From Verif Require Import Base.Str Base.Py Model.Geometry Model.Interp Model.Tabs Model.Leftovers Spec.Paths Spec.Wires Spec.Tabs Spec.Leftovers
  Proofs.GeomP Proofs.PocketP Proofs.InterpP Proofs.TabsP Proofs.WireTabsP Proofs.TabPiecesP.
From Coq Require Import Lia.
Local Open Scope Qc_scope.
Local Open Scope list_scope.

(** ** Paths and wires *)
Definition is_line (z : Qc) (ab : pt * pt) (e : edge) : Prop :=
  e_geom e = GLINE /\ travel_start e = lift z (fst ab) /\ travel_end e = lift z (snd ab).
Lemma lift_inj z a b : lift z a = lift z b -> a = b.
Proof. destruct a, b. unfold lift. cbn. intros [= -> ->]. reflexivity. Qed.
Lemma lines_of mk z : makes_lines mk -> forall p, proper p ->
  exists es, mapM (fun ab => mk (lift z (fst ab)) (lift z (snd ab))) (combine p (tl p)) = Ok es /\ Forall2 (is_line z) (steps p) es.
Proof.
  intros HM. induction p as [|a p IH]; intros HP; [exists []; split; [reflexivity|constructor]|].
  destruct p as [|b p]; [exists []; split; [reflexivity|constructor]|].
  destruct IH as (es & E & F). { intros x y H. apply HP. right. exact H. }
  assert (N : lift z a <> lift z b) by (intros C; apply lift_inj in C; exact (HP a b (or_introl eq_refl) C)).
  destruct (HM _ _ N) as (e & Ee & G & S1 & S2). exists (e :: es). split; [|constructor; [split; auto|exact F]].
  change (combine (a :: b :: p) (tl (a :: b :: p))) with ((a, b) :: combine (b :: p) (tl (b :: p))). cbn [mapM]. cbn [fst snd]. rewrite Ee. cbn [rbind]. rewrite E. reflexivity.
Qed.
Lemma lines_connected z : forall p es, Forall2 (is_line z) (steps p) es -> connected es.
Proof.
  induction p as [|a p IH]; intros es H; [inversion H; exact I|]. destruct p as [|b p]; [inversion H; exact I|].
  cbn [steps] in H. inversion H as [|? e ? es' HE HF]; subst. specialize (IH _ HF). destruct es' as [|e' es']; [exact I|].
  split; [|exact IH]. destruct p as [|c p]; [inversion HF|]. cbn [steps] in HF. inversion HF as [|? ? ? ? HE' _]; subst.
  destruct HE as (_ & _ & ->), HE' as (_ & -> & _). reflexivity.
Qed.
Lemma line_vectors basis e prec z ab : is_line z ab e -> edge_to_vectors basis e prec = Ok [lift z (fst ab); lift z (snd ab)].
Proof.
  intros (G & S & T). unfold edge_to_vectors. rewrite G. cbn [rbind]. unfold edge_start_end, travel_start, travel_end in *.
  destruct (e_reversed e); rewrite S, T; reflexivity.
Qed.
Lemma lines_vectors basis prec z : forall p b es, Forall2 (is_line z) (steps (b :: p)) es ->
  exists rest, mapM (fun e => edge_to_vectors basis e prec) es = Ok rest /\ concat (map (@tl vec) rest) = map (lift z) p.
Proof.
  induction p as [|c p IH]; intros b es H.
  - inversion H; subst. exists []. split; reflexivity.
  - cbn [steps] in H. inversion H as [|? e ? es' HE HF]; subst. destruct (IH c es' HF) as (rest & E & M).
    exists ([lift z b; lift z c] :: rest). cbn [mapM]. rewrite (line_vectors basis e prec z _ HE), E. split; [reflexivity|]. cbn [map tl concat app]. rewrite M. reflexivity.
Qed.
Lemma last_map_lift z p : forall d, last (map (lift z) p) (lift z d) = lift z (last p d).
Proof. induction p as [|a [|b p] IH]; intros d; try reflexivity. change (last (map (lift z) (b :: p)) (lift z d) = lift z (last (b :: p) d)). apply IH. Qed.
Lemma round_trip veq basis mk asm p z prec a : makes_lines mk -> keeps_order asm -> proper p -> (2 <= List.length p)%nat -> hd_error p = Some a ->
  exists es, path_to_wire mk asm p z = Ok es /\ Forall (fun e => vz (travel_start e) = z /\ vz (travel_end e) = z) es /\
    wire_to_path veq basis es prec = Ok (p ++ if veq (lift z a) (lift z (last p a)) then [] else [a]).
Proof.
  intros HM HA HP HL HH. destruct (lines_of mk z HM p HP) as (es & E & F). exists es. split; [|split].
  - unfold path_to_wire. rewrite E. cbn [rbind]. apply HA; [eapply lines_connected; exact F|]. destruct p as [|x [|y p]]; [cbn in HL; lia|cbn in HL; lia|]. inversion F. discriminate.
  - clear - F. induction F as [|? ? ? ? (_ & S & T) _ IH]; constructor; [rewrite S, T; split; reflexivity|exact IH].
  - destruct p as [|a' [|b p]]; [cbn in HL; lia|cbn in HL; lia|]. injection HH as ->. cbn [steps] in F. inversion F as [|? e ? es' HE HF]; subst.
    unfold wire_to_path, wire_to_vectors. rewrite (line_vectors basis e prec z _ HE). cbn [rbind fst snd].
    destruct (lines_vectors basis prec z p b es' HF) as (rest & -> & M). cbn [rbind]. rewrite M. cbn [app List.length Nat.eqb]. change (a :: b :: p ++ (if veq (lift z a) (lift z (last (a :: b :: p) a)) then [] else [a])) with ((a :: b :: p) ++ (if veq (lift z a) (lift z (last (a :: b :: p) a)) then [] else [a])).
    change (lift z a :: lift z b :: map (lift z) p) with (map (lift z) (a :: b :: p)). rewrite last_map_lift.
    assert (V : forall q, vectors_to_2d_tuples (map (lift z) q) = q).
    { intros q'. unfold vectors_to_2d_tuples. rewrite map_map. erewrite map_ext; [apply map_id|]. intros [x y]. reflexivity. }
    destruct (veq (lift z a) (lift z (last (a :: b :: p) a))); cbn [negb andb rbind].
    + f_equal. rewrite app_nil_r. apply V.
    + f_equal. etransitivity; [|exact (V ((a :: b :: p) ++ [a]))]. rewrite map_app. reflexivity.
Qed.
Lemma too_short mk asm p z : (List.length p < 2)%nat -> path_to_wire mk asm p z = asm [].
Proof. destruct p as [|a [|b p]]; cbn; intros H; [reflexivity|reflexivity|lia]. Qed.

(** ** Ranges *)
Lemma shares_tile total : 0 < total -> forall ls before, before + qsum ls = total -> Forall (fun l => 0 < l) ls ->
  map fst (shares total before ls) ++ [1] = before / total :: map snd (shares total before ls) /\
  Forall2 (fun l r => (snd r - fst r) * total = l) ls (shares total before ls).
Proof.
  intros HT. assert (NZ : total <> 0) by (apply qne0, HT). induction ls as [|l ls IH]; intros before E HF; cbn [shares map app qsum] in *.
  - split; [|constructor]. f_equal. rewrite <- E. unfold Qcdiv. replace (before + 0) with before in * by ring. subst before. field. exact NZ.
  - apply Forall_inv_tail in HF. destruct (IH (before + l)) as (A & B); [rewrite <- E; ring|exact HF|].
    split; [cbn [fst snd]; f_equal; exact A|]. constructor; [cbn [fst snd]; field; exact NZ|exact B].
Qed.
Lemma ranges_tile total es rs : wire_edge_d_ranges total es = Ok rs -> es <> [] -> Forall (fun e => 0 < e_length e) es -> total = qsum (map e_length es) ->
  fst rs = es /\ tiles total (map e_length es) (snd rs).
Proof.
  intros H NE HF ->. destruct (load_edge_ranges_ok es NE HF) as (HT & _ & _). set (total := qsum _) in *.
  assert (HF' : Forall (fun l => 0 < l) (map e_length es)) by (apply Forall_forall; intros l Hl; apply in_map_iff in Hl; destruct Hl as (e & <- & He); rewrite Forall_forall in HF; apply HF, He).
  unfold wire_edge_d_ranges in H. destruct es as [|e es]; [contradiction NE; reflexivity|]. rewrite (proj2 (qeqb_neq total 0)) in H by (apply qne0, HT).
  injection H as <-. split; [reflexivity|].
  change (snd _) with (edge_ranges total 0 (map e_length (e :: es))).
  destruct (shares_tile total HT (map e_length (e :: es)) 0) as (A & B); [unfold total; ring|exact HF'|].
  assert (E : edge_ranges total 0 (map e_length (e :: es)) = shares total 0 (map e_length (e :: es))).
  { rewrite <- edge_ranges_shares; [f_equal; unfold Qcdiv; ring|exact HT|exact HF'|unfold total; qlra]. }
  rewrite E. unfold tiles. rewrite A. split; [f_equal; unfold Qcdiv; ring|exact B].
Qed.
Lemma ranges_fail total es x : wire_edge_d_ranges total es = Err x <-> es <> [] /\ total = 0 /\ x = ZeroDivisionError.
Proof.
  unfold wire_edge_d_ranges. destruct es as [|e es]; [split; [discriminate|intros (C & _); contradiction C; reflexivity]|].
  destruct (qeqb total 0) eqn:E.
  - apply qeqb_eq in E. split; [intros [= <-]; split; [discriminate|auto]|intros (_ & _ & ->); reflexivity].
  - apply qeqb_neq in E. split; [discriminate|intros (_ & C & _); contradiction].
Qed.
(** Shares of an edge are mapped to the edge proportionally. *)
Lemma share_of_edge r t : fst r <> snd r -> wire_d_to_edge_d (fst r + t * (snd r - fst r)) r = t.
Proof. intros N. unfold wire_d_to_edge_d. field. intros C. apply N. rewrite <- (Qcplus_0_l (fst r)), <- C. ring. Qed.

(** ** Faces *)
Lemma faces_kept {F} combine (faces : list F) objects : combine faces = Ok objects ->
  exists l, combine_faces_and_break combine faces = Ok l /\ faces_out l = faces_in objects.
Proof.
  intros H. unfold combine_faces_and_break, combine_faces. rewrite H. cbn [rbind]. eexists. split; [reflexivity|]. clear H.
  induction objects as [|[fs|f|] os IH]; cbn [filter flat_map faces_in faces_out app] in *; unfold faces_in, faces_out in *; cbn [flat_map]; rewrite ?IH; reflexivity.
Qed.

Lemma base_gcode_empty cs : (exists s, base_to_gcode cs = Ok s) <-> cs = [].
Proof. destruct cs; split; [reflexivity|intros _; eexists; reflexivity|intros (s & [=])|discriminate]. Qed.
Lemma faces_broken F combine (faces : list F) objects : combine faces = Ok objects ->
  exists l, combine_faces_and_break combine faces = Ok l /\ broken objects l.
Proof.
  intros H. unfold combine_faces_and_break, combine_faces. rewrite H. cbn [rbind]. eexists. split; [reflexivity|].
  clear H. induction objects as [|[fs|f|] items IH]; cbn; try constructor; auto.
Qed.
Lemma combine_faces_ok {F} (combine : list F -> result (list (combined F))) faces : match combine faces with
  | Ok objects => exists l, combine_faces combine faces = Ok l /\ faces_only objects l
  | Err x => combine_faces combine faces = Err x
  end.
Proof.
  unfold combine_faces. destruct (combine faces) as [objects|x]; [|reflexivity]. eexists. split; [reflexivity|].
  induction objects as [|[fs|f|] objects IH]; cbn [filter]; constructor; exact IH.
Qed.
