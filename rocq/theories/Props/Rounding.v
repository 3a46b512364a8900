(** * Double precision: C37, C58, C64, C94-C98

    [stands x X]: the double [x] is finite and stands for the number [X]; [pw e] is 2^e, [kq] a count.
    2^-53 is the relative error of one operation. *)
From Verif Require Import Base.Py Model.Float Model.SegmentFloat Model.FloatSteps Spec.Doubles
  Proofs.ArangeP Proofs.SegmentFloatP Proofs.FloatStepsP Proofs.RoundEx.
From Coq Require Import ZArith QArith Qabs SpecFloat List.
Import ListNotations.
Local Open Scope Q_scope.
Local Open Scope list_scope.

(** ** C37: the passes computed with doubles.
    They can fall below the floor (C37_float_passes_refuted), but only by rounding: pass number i is at
    i stepdowns below the start, all passes are above the floor, and the floor is at most one stepdown
    below the last, up to the errors given. *)
Theorem C37_float_passes_near : forall start_depth stepdown depth D s z,
  start_is start_depth D -> stands stepdown s -> stands depth z -> pw (-100) <= s -> Qabs D + s + Qabs z <= pw 98 ->
  (forall i x, nth_error (step_depths64 start_depth stepdown depth) i = Some x ->
     exists X, stands x X /\ Qabs (X - (D - kq (S i) * s)) <= pw (-47) * kq (S i) * (Qabs D + s) /\
       z - pw (-47) * (Qabs D + s + Qabs z) < D - kq (S i) * s) /\
  D - kq (length (step_depths64 start_depth stepdown depth)) * s - z <= s + pw (-47) * (Qabs D + s + Qabs z).
Proof. exact passes64_near. Qed.
Print Assumptions C37_float_passes_near.

(** From the surface, no pass is below the floor by more than 2^-45 of the dimensions. *)
Theorem C37_float_floor : forall stepdown depth s z x,
  stands stepdown s -> stands depth z -> pw (-100) <= s -> s + Qabs z <= pw 98 ->
  In x (step_depths64 None stepdown depth) -> exists X, stands x X /\ z - pw (-45) * (s + Qabs z) < X.
Proof. exact passes64_floor. Qed.
Print Assumptions C37_float_floor.

Example C37_float_example :
  stands d0405 v0405 /\ stands d_243 v_243 /\ pw (-100) <= v0405 /\ v0405 + Qabs v_243 <= pw 98 /\
  length (step_depths64 None d0405 d_243) = 6%nat /\
  match nth_error (step_depths64 None d0405 d_243) 5 with
  | Some x => match f64_value x with Some X => X < v_243 | None => False end
  | None => False
  end.
Proof. split; [exact s0405|]. split; [exact s_243|]. vm_compute; repeat split; discriminate. Qed.

(** ** C58: the depths of a surface operation with doubles and a negative stepdown.
    The last one is the bottom; the others are those of exact arithmetic, up to rounding. *)
Theorem C58_float_depths : forall top bottom step D s z,
  stands top D -> stands step (- s) -> stands bottom z -> pw (-100) <= s -> Qabs D + s + Qabs z <= pw 98 ->
  pw (-46) * (Qabs D + s + Qabs z) < D - s - z ->
  exists ds, surface_depths64 top bottom step = Ok ds /\
    (forall i x, nth_error ds i = Some x -> exists X, stands x X /\ z - pw (-47) * (kq (S i) + 1) * (Qabs D + s + Qabs z) < X /\
      (S i = length ds -> X == z) /\ (S i <> length ds -> Qabs (X - (D - kq (S i) * s)) <= pw (-47) * kq (S i) * (Qabs D + s))) /\
    D - kq (pred (length ds)) * s - z <= s + pw (-47) * (kq (length ds) + 1) * (Qabs D + s + Qabs z).
Proof. exact surface_depths64_near. Qed.
Print Assumptions C58_float_depths.

(** -0.405 and -2.43 again: the pass below the bottom is followed by one at the bottom. *)
Example C58_float_example :
  stands f64_zero 0 /\ stands d_0405 (- v0405) /\ stands d_243 v_243 /\
  pw (-46) * (Qabs 0 + v0405 + Qabs v_243) < 0 - v0405 - v_243 /\
  match surface_depths64 f64_zero d_243 d_0405 with
  | Ok ds => length ds = 7%nat /\ f64_ltb (nth 5 ds f64_zero) (nth 6 ds f64_zero) = true /\ nth 6 ds f64_zero = d_243
  | Err _ => False
  end.
Proof. split; [apply stands_zero|]. split; [exact s_0405|]. split; [exact s_243|]. vm_compute. repeat split. Qed.

(** ** C94: nearest points.
    For coordinates up to [M], the point and squared distance computed with doubles are within
    2^-46 M and 2^-43 M^2 of the nearest point of the segment and its squared distance. *)
Theorem C94_nearest_on_segment : forall sq p v w P V W M,
  good_square sq -> pstands p P -> pstands v V -> pstands w W -> box M P -> box M V -> box M W ->
  pw (-100) <= M -> M <= pw 99 -> pw (-200) <= sqdist V W ->
  exists d c D C t, dist_to_segment64 sq p v w = Ok (d, c) /\ stands d D /\ pstands c C /\ 0 <= t <= 1 /\
    (forall s, 0 <= s <= 1 -> sqdist P (along V W t) <= sqdist P (along V W s)) /\
    Qabs (fst C - fst (along V W t)) <= pw (-46) * M /\ Qabs (snd C - snd (along V W t)) <= pw (-46) * M /\
    Qabs (D - sqdist P (along V W t)) <= pw (-43) * (M * M) /\
    D <= 3 * sqdist P (along V W t) + pw (-90) * (M * M).
Proof. exact segment64_near. Qed.
Print Assumptions C94_nearest_on_segment.

(** On a path: a point near the segment returned, and no point of the path is nearer. *)
Theorem C94_nearest_on_path : forall sq p l P L M,
  good_square sq -> pstands p P -> Forall2 pstands l L -> box M P -> Forall (box M) L ->
  pw (-100) <= M -> M <= pw 99 -> (2 <= length L)%nat ->
  (forall k V W, segment_of L k V W -> pw (-200) <= sqdist V W) ->
  exists d c i D C t V W, distance_to_path64 sq p l = Ok (Some (d, c, i)) /\ stands d D /\ pstands c C /\
    segment_of L i V W /\ 0 <= t <= 1 /\
    Qabs (fst C - fst (along V W t)) <= pw (-46) * M /\ Qabs (snd C - snd (along V W t)) <= pw (-46) * M /\
    Qabs (D - sqdist P (along V W t)) <= pw (-43) * (M * M) /\
    (forall k V' W' s, segment_of L k V' W' -> 0 <= s <= 1 -> D <= sqdist P (along V' W' s) + pw (-43) * (M * M)).
Proof. exact path64_near. Qed.
Print Assumptions C94_nearest_on_path.

(** The hypothesis on [x ** 2] holds for a rounded product. *)
Theorem C94_squares : good_square by_mul.
Proof. exact square_by_mul. Qed.
Print Assumptions C94_squares.

Example C94_example :
  pstands xp XP /\ pstands xv XV /\ pstands xw XW /\ box 20 XP /\ box 20 XV /\ box 20 XW /\ pw (-200) <= sqdist XV XW /\
  dist_to_segment64 by_mul xp xv xw = Ok (xd, xc) /\ distance_to_path64 by_mul xp [(d100, d254); xv; xw; (d254, three)] = Ok (Some (xd, xc, 1%nat)).
Proof. split; [exact sxp|]. split; [exact sxv|]. split; [exact sxw|]. vm_compute; repeat split; discriminate. Qed.

(** ** C95: scan points are attached to the boundary they lie on.
    Up to 2^33 mm from the origin a point within 10^-4 of a boundary segment is recognised, a point that is
    farther than the tolerance is not. *)
Theorem C95_near_point_found : forall sq p v w P V W M t,
  good_square sq -> pstands p P -> pstands v V -> pstands w W -> box M P -> box M V -> box M W ->
  pw (-100) <= M -> M <= pw 33 -> pw (-200) <= sqdist V W ->
  0 <= t <= 1 -> sqdist P (along V W t) <= 1 # 100000000 -> on_boundary64 sq p v w = Ok true.
Proof. exact near_point_found. Qed.
Print Assumptions C95_near_point_found.
Theorem C95_far_point_rejected : forall sq p v w P V W M,
  good_square sq -> pstands p P -> pstands v V -> pstands w W -> box M P -> box M V -> box M W ->
  pw (-100) <= M -> M <= pw 99 -> pw (-200) <= sqdist V W ->
  (forall t, 0 <= t <= 1 -> (1 # 9999999) + pw (-43) * (M * M) <= sqdist P (along V W t)) -> on_boundary64 sq p v w = Ok false.
Proof. exact far_point_rejected. Qed.
Print Assumptions C95_far_point_rejected.
Example C95_example :
  pstands xm XM /\ sqdist XM (along XV XW (3 # 10)) <= 1 # 100000000 /\ ~ sqdist XM (along XV XW (3 # 10)) == 0 /\
  on_boundary64 by_mul xm xv xw = Ok true /\ on_boundary64 by_mul xp xv xw = Ok false.
Proof. split; [exact sxm|]. vm_compute; repeat split; discriminate. Qed.

(** ** C96: scanlines computed with doubles stay between the bounds and leave no gap. *)
Theorem C96_scanlines : forall bottom top diameter stepover B T d r,
  stands bottom B -> stands top T -> stands diameter d -> stands stepover r ->
  pw (-99) <= d * r -> Qabs B + d * r + Qabs T <= pw 98 -> pw (-46) * (Qabs B + d * r + Qabs T) < T - B ->
  let l := scan_heights64 bottom top diameter stepover in
  let e := pw (-47) * kq (S (length l)) * (Qabs B + d * r + Qabs T) in
  (forall x, In x l -> exists X, stands x X /\ B - e <= X /\ X <= T + e) /\
  (forall Y, B <= Y -> Y <= T -> exists x X, In x l /\ stands x X /\ X - e <= Y /\ Y <= X + d * r + e).
Proof. exact scan_heights64_near. Qed.
Print Assumptions C96_scanlines.
Example C96_example :
  stands d_20 vd_20 /\ stands three vthree /\ stands d08 vd08 /\ stands d01 vd01 /\
  pw (-99) <= vd08 * vd01 /\ pw (-46) * (Qabs vd_20 + vd08 * vd01 + Qabs vthree) < vthree - vd_20 /\
  length (scan_heights64 d_20 three d08 d01) = 288%nat.
Proof. split; [exact sd_20|]. split; [exact sthree|]. split; [exact sd08|]. split; [exact sd01|]. vm_compute; repeat split; discriminate. Qed.

(** ** C97: the number of samples of a curve is that of exact arithmetic up to one and rounding. *)
Theorem C97_sample_count : forall length L precision,
  stands length L -> 0 <= L -> L <= pw 400 -> inject_Z (10 ^ Z.of_nat precision) <= pw 400 ->
  let X := L * inject_Z (10 ^ Z.of_nat precision) in
  exists n, interpolation_count64 length precision = Some n /\ (2 <= n)%Z /\
    (n = 2%Z \/ inject_Z n <= X + pw (-50) * (X + 1)) /\ X - pw (-50) * (X + 1) < inject_Z n + 1.
Proof. exact count64_near. Qed.
Print Assumptions C97_sample_count.
Example C97_example : stands d254 vd254 /\ interpolation_count64 d254 1 = Some 254%Z /\
  interpolation_count64 d01 1 = Some 2%Z /\ ~ vd254 * 10 == 254.
Proof. split; [exact sd254|]. vm_compute; repeat split; discriminate. Qed.

(** ** C98: the ranges of tabs along an edge. *)
Theorem C98_tab_ranges : forall length width L w count,
  stands length L -> stands width w -> pw (-100) <= L -> L <= pw 100 -> 0 <= w -> w <= 2 * L -> kq (S count) <= pw 400 ->
  List.length (edge_tab_ranges64 length width count) = count /\
  forall i a b, nth_error (edge_tab_ranges64 length width count) i = Some (a, b) ->
    exists A B, stands a A /\ stands b B /\
      Qabs (A - (kq (S i) / kq (S count) - w / (2 * L))) <= pw (-48) /\ Qabs (B - (kq (S i) / kq (S count) + w / (2 * L))) <= pw (-48).
Proof. exact tab_ranges64_near. Qed.
Print Assumptions C98_tab_ranges.
(** Tabs that fit on the edge without touching lie inside it, in order and apart. *)
Theorem C98_tabs_apart : forall length width L w count,
  stands length L -> stands width w -> pw (-100) <= L -> L <= pw 100 -> 0 <= w -> kq (S count) <= pw 400 ->
  w / L + pw (-46) <= 1 / kq (S count) ->
  forall i a b, nth_error (edge_tab_ranges64 length width count) i = Some (a, b) ->
    exists A B, stands a A /\ stands b B /\ 0 < A /\ A <= B + pw (-46) /\ B < 1 /\
      forall a' b', nth_error (edge_tab_ranges64 length width count) (S i) = Some (a', b') -> exists A', stands a' A' /\ B < A'.
Proof. exact tab_ranges64_ordered. Qed.
Print Assumptions C98_tabs_apart.
Example C98_example : stands d333 vd333 /\ stands three vthree /\ kq 7 <= pw 400 /\ vthree / vd333 + pw (-46) <= 1 / kq 7 /\
  length (edge_tab_ranges64 d333 three 6) = 6%nat.
Proof. split; [exact sd333|]. split; [exact sthree|]. vm_compute; repeat split; discriminate. Qed.
(** Tabs of a wire: every range is that of a tab asked for, up to whole turns, and every place of the
    wire inside such a tab (margin 2^-46) is inside a range, also for tabs across the ends of the wire. *)
Theorem C98_wire_tabs : forall length width L w count, stands length L -> stands width w -> pw (-100) <= L -> L <= pw 100 -> 0 <= w -> w <= 2 * L -> kq count <= pw 400 ->
  (forall a b, In (a, b) (wire_tab_ranges64 length width count) -> exists A B i m, stands a A /\ stands b B /\ (i < count)%nat /\
     Qabs (A - (kq i / kq count + inject_Z m - w / (2 * L))) <= pw (-47) /\ Qabs (B - (kq i / kq count + inject_Z m + w / (2 * L))) <= pw (-47)) /\
  (forall i m T, (i < count)%nat -> 0 <= T -> T <= 1 -> Qabs (T - (kq i / kq count + inject_Z m)) <= w / (2 * L) - pw (-46) ->
     exists a b A B, In (a, b) (wire_tab_ranges64 length width count) /\ stands a A /\ stands b B /\ A <= T /\ T <= B).
Proof. exact wire_tab_ranges64_near. Qed.
Print Assumptions C98_wire_tabs.
Example C98_wire_example : stands d333 vd333 /\ stands three vthree /\ vthree <= 2 * vd333 /\ kq 4 <= pw 400 /\ length (wire_tab_ranges64 d333 three 4) = 5%nat.
Proof. split; [exact sd333|]. split; [exact sthree|]. vm_compute; repeat split; discriminate. Qed.

(** ** C64: the points put on a segment of a scan line: point number i is i steps from the start, the
    points end before the segment does, and the rest is no longer than a step, up to the errors given. *)
Theorem C64_float_steps : forall l step L s, stands l L -> stands step s -> pw (-100) <= s -> 0 <= L -> s + L <= pw 98 ->
  (forall i x, nth_error (interpolation_steps64 l step) i = Some x -> exists X, stands x X /\ Qabs (X - kq i * s) <= pw (-49) * kq (S i) * s /\ kq i * s < L + pw (-50) * (s + L)) /\
  L <= kq (length (interpolation_steps64 l step)) * s + pw (-50) * (s + L).
Proof. exact interpolation_steps64_near. Qed.
Print Assumptions C64_float_steps.
Example C64_float_example : stands d333 vd333 /\ stands d08 vd08 /\ length (interpolation_steps64 d333 d08) = 42%nat.
Proof. split; [exact sd333|]. split; [exact sd08|]. vm_compute; reflexivity. Qed.
