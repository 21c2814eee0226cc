(** Properties of the plane geometry functions (real arithmetic). *)
From Coq Require Import Reals Bool Lra.
From Verif Require Import AngModel AngProofs GeoModel GeoProofs.
Open Scope R_scope.

(** ** C43: plane geometry *)

Theorem C43_intersection : forall ax1 ay1 ax2 ay2 bx1 by1 bx2 by2 x y,
  GetIntersectionOfTwoLineSegments ax1 ay1 ax2 ay2 bx1 by1 bx2 by2 = Some (x, y) ->
  on_line ax1 ay1 ax2 ay2 x y /\ on_line bx1 by1 bx2 by2 x y /\
  forall x' y', on_line ax1 ay1 ax2 ay2 x' y' -> on_line bx1 by1 bx2 by2 x' y' -> x' = x /\ y' = y.
Proof. exact intersection_sound. Qed.

Theorem C43_parallel : forall ax1 ay1 ax2 ay2 bx1 by1 bx2 by2,
  GetIntersectionOfTwoLineSegments ax1 ay1 ax2 ay2 bx1 by1 bx2 by2 = None <->
  Rabs ((ax2 - ax1) * (by2 - by1) - (ay2 - ay1) * (bx2 - bx1)) < SMALL_NUMBER.
Proof. exact intersection_parallel. Qed.

(** Segments that do not meet are reported as intersecting. *)
Theorem C43_segments_refuted : exists ax1 ay1 ax2 ay2 bx1 by1 bx2 by2 x y,
  GetIntersectionOfTwoLineSegments ax1 ay1 ax2 ay2 bx1 by1 bx2 by2 = Some (x, y) /\
  ~ on_segment ax1 ay1 ax2 ay2 x y /\ ~ on_segment bx1 by1 bx2 by2 x y.
Proof.
  exists 0, 0, 1, 0, 5, 1, 5, 2, 5, 0. split; [|split].
  - unfold GetIntersectionOfTwoLineSegments.
    replace (Rltb _ SMALL_NUMBER) with false.
    + f_equal. f_equal; field.
    + symmetry. apply Rltb_false. replace ((0 - 1) * (1 - 2) - (0 - 0) * (5 - 5)) with 1 by ring. rewrite Rabs_R1. unfold SMALL_NUMBER. lra.
  - intros (t & T & X & Y). lra.
  - intros (t & T & X & Y). lra.
Qed.

(** The intersections of a line and a circle are exactly the points found; with one hit reported the line touches the circle
    up to the tolerance and the point is the one closest to the centre. *)
Theorem C43_circle : forall p0x p0y p1x p1y cx cy r, (p0x <> p1x \/ p0y <> p1y) ->
  match GetIntersectionsOfLineAndCircle p0x p0y p1x p1y cx cy r with
  | None => discriminant p0x p0y p1x p1y cx cy r = - SMALL_NUMBER
  | Some NoHit => forall x y, on_line p0x p0y p1x p1y x y -> ~ on_circle cx cy r x y
  | Some (OneHit (x, y)) =>
      on_line p0x p0y p1x p1y x y /\
      Rabs ((x - cx) * (x - cx) + (y - cy) * (y - cy) - r * r)
        * (4 * ((p1x - p0x) * (p1x - p0x) + (p1y - p0y) * (p1y - p0y))) < SMALL_NUMBER /\
      (forall x' y', on_line p0x p0y p1x p1y x' y' -> dist x y cx cy <= dist x' y' cx cy)
  | Some (TwoHits (x, y) (x', y')) =>
      (x, y) <> (x', y') /\
      forall u v, (on_line p0x p0y p1x p1y u v /\ on_circle cx cy r u v) <-> (u, v) = (x, y) \/ (u, v) = (x', y')
  end.
Proof.
  intros p0x p0y p1x p1y cx cy r N. pose proof (circle_hits_spec p0x p0y p1x p1y cx cy r) as H. rewrite discriminant_eq in H.
  apply H. apply pos2. destruct N; [left|right]; lra.
Qed.

(** The function is undefined (not a number) for equal points, and for a discriminant exactly at minus the tolerance. *)
Theorem C43_circle_undefined : forall p0x p0y p1x p1y cx cy r,
  GetIntersectionsOfLineAndCircle p0x p0y p1x p1y cx cy r = None <->
  (p0x = p1x /\ p0y = p1y) \/ discriminant p0x p0y p1x p1y cx cy r = - SMALL_NUMBER.
Proof. exact circle_none. Qed.

(** A tangent within tolerance is reported as a hit although line and circle do not meet. *)
Theorem C43_tangent_refuted : exists p0x p0y p1x p1y cx cy r p,
  GetIntersectionsOfLineAndCircle p0x p0y p1x p1y cx cy r = Some (OneHit p) /\
  forall x y, on_line p0x p0y p1x p1y x y -> ~ on_circle cx cy r x y.
Proof.
  exists 0, (1 / 1000000), (1 / 10), (1 / 1000000), 0, 0, 0.
  set (p := (0 + - (2 * ((1 / 10 - 0) * (0 - 0) + (1 / 1000000 - 1 / 1000000) * (1 / 1000000 - 0))) /
     (2 * ((1 / 10 - 0) * (1 / 10 - 0) + (1 / 1000000 - 1 / 1000000) * (1 / 1000000 - 1 / 1000000))) * (1 / 10 - 0),
    1 / 1000000 + - (2 * ((1 / 10 - 0) * (0 - 0) + (1 / 1000000 - 1 / 1000000) * (1 / 1000000 - 0))) /
     (2 * ((1 / 10 - 0) * (1 / 10 - 0) + (1 / 1000000 - 1 / 1000000) * (1 / 1000000 - 1 / 1000000))) * (1 / 1000000 - 1 / 1000000))).
  exists p. split.
  - unfold GetIntersectionsOfLineAndCircle. rewrite discriminant_eq. unfold discriminant.
    match goal with |- context [Rltb ?d (- SMALL_NUMBER)] => replace d with (- (4 / 100000000000000)) by field end.
    replace (Rltb (- (4 / 100000000000000)) (- SMALL_NUMBER)) with false by (symmetry; apply Rltb_false; unfold SMALL_NUMBER; lra).
    match goal with |- context [Reqb ?a 0] => replace (Reqb a 0) with false by
      (symmetry; unfold Reqb; destruct (Req_EM_T a 0); auto; lra) end.
    replace (Rltb (Rabs _) SMALL_NUMBER) with true; [reflexivity|]. symmetry. apply Rltb_true.
    rewrite Rminus_0_r, Rabs_Ropp, Rabs_right; unfold SMALL_NUMBER; lra.
  - intros x y (t & X & Y) H. unfold on_circle in H. assert (Y' : y = 1 / 1000000) by lra. rewrite Y' in H.
    pose proof (Rle_0_sqr (x - 0)) as S. unfold Rsqr in S. lra.
Qed.

(** Position of a point of the line with respect to the end points. *)
Theorem C43_between : forall x1 y1 x2 y2 t x y, apart x1 y1 x2 y2 -> at_line x1 y1 x2 y2 t x y ->
  PointInBetweenVectorEndpoints x y x1 y1 x2 y2 =
    if Rltb t 0 then (false, - dist x y x1 y1) else if Rltb 1 t then (false, dist x y x2 y2) else (true, t).
Proof. exact between_spec. Qed.

(** Foot of the perpendicular. *)
Theorem C43_projection : forall x y x1 y1 x2 y2, apart x1 y1 x2 y2 ->
  let '(ok, px, py) := ProjectPointOnLine2D x y x1 y1 x2 y2 in
  ok = true /\ on_line x1 y1 x2 y2 px py /\ (x - px) * (x2 - x1) + (y - py) * (y2 - y1) = 0.
Proof. exact project_spec. Qed.

(** The distance to a segment is the minimum over its points, and the returned point attains it. *)
Theorem C43_edge : forall x y x1 y1 x2 y2, apart x1 y1 x2 y2 ->
  let '(d, qx, qy) := DistanceFromPointToEdge2D x y x1 y1 x2 y2 in
  on_segment x1 y1 x2 y2 qx qy /\ d = dist x y qx qy /\
  forall x' y', on_segment x1 y1 x2 y2 x' y' -> d <= dist x y x' y'.
Proof. exact edge_spec. Qed.

Theorem C43_edge_any : forall x y x1 y1 x2 y2,
  let '(d, qx, qy) := DistanceFromPointToEdge2D x y x1 y1 x2 y2 in
  on_segment x1 y1 x2 y2 qx qy /\ d = dist x y qx qy /\
  forall x' y', on_segment x1 y1 x2 y2 x' y' -> d <= dist x y x' y' + 2 * SMALL_NUMBER.
Proof. exact edge_any. Qed.

Theorem C43_line : forall x y x1 y1 x2 y2, apart x1 y1 x2 y2 ->
  let '(d, qx, qy) := DistanceFromPointToLine2D x y x1 y1 x2 y2 in
  on_line x1 y1 x2 y2 qx qy /\ d = dist x y qx qy /\ forall x' y', on_line x1 y1 x2 y2 x' y' -> d <= dist x y x' y'.
Proof. exact line_spec. Qed.

(** Signed distance: the distance, negative exactly on the right side. *)
Theorem C43_signed : forall px py x1 y1 x2 y2 d, PointToLineDistance2DSigned px py x1 y1 x2 y2 = Some d ->
  (exists qx qy, on_line x1 y1 x2 y2 qx qy /\ Rabs d = dist px py qx qy) /\
  (forall x' y', on_line x1 y1 x2 y2 x' y' -> Rabs d <= dist px py x' y') /\
  (d < 0 <-> PointSideOfVec px py x1 y1 x2 y2 = -1).
Proof. exact signed_spec. Qed.

Theorem C43_signed_defined : forall px py x1 y1 x2 y2,
  PointToLineDistance2DSigned px py x1 y1 x2 y2 = None <-> x1 = x2 /\ y1 = y2.
Proof.
  intros. unfold PointToLineDistance2DSigned. split.
  - destruct (Reqb _ 0) eqn:E; [|discriminate]. apply Reqb_true in E. intros _.
    destruct (Req_dec x1 x2) as [X|X].
    + destruct (Req_dec y1 y2) as [Y|Y]; [auto|]. exfalso.
      assert (P : 0 < (x2 - x1) * (x2 - x1) + (y2 - y1) * (y2 - y1)) by (apply pos2; right; lra). apply sqrt_lt_R0 in P. lra.
    + exfalso. assert (P : 0 < (x2 - x1) * (x2 - x1) + (y2 - y1) * (y2 - y1)) by (apply pos2; left; lra). apply sqrt_lt_R0 in P. lra.
  - intros (-> & ->). rewrite !Rminus_eq_0, Rmult_0_l, Rplus_0_l, sqrt_0.
    now replace (Reqb 0 0) with true by (symmetry; now apply Reqb_true).
Qed.

(** The variant with an angle measures with the opposite sign. *)
Theorem C43_with_angle : forall x y x1 y1 a l, 0 < l ->
  PointToLineDistance2DSigned x y x1 y1 (x1 + l * cos a) (y1 + l * sin a) = Some (- DistanceFromPointToLine2DWithAngle x y x1 y1 a).
Proof. exact with_angle_spec. Qed.

Theorem C43_line3 : forall px py pz x0 y0 z0 x1 y1 z1, SMALL_NUMBER < dist3 x1 y1 z1 x0 y0 z0 ->
  let d := PointToLineDistance3DSigned px py pz x0 y0 z0 x1 y1 z1 in
  (exists t, Rabs d = dist3 px py pz (x0 + t * (x1 - x0)) (y0 + t * (y1 - y0)) (z0 + t * (z1 - z0))) /\
  (forall t, Rabs d <= dist3 px py pz (x0 + t * (x1 - x0)) (y0 + t * (y1 - y0)) (z0 + t * (z1 - z0))) /\
  (d < 0 -> (x1 - x0) * (py - y0) - (px - x0) * (y1 - y0) < 0) /\
  (0 < d -> 0 <= (x1 - x0) * (py - y0) - (px - x0) * (y1 - y0)).
Proof. exact line3_spec. Qed.

Theorem C43_vector_projection : forall x0 y0 x1 y1, SMALL_NUMBER < x1 * x1 + y1 * y1 ->
  let '(px, py) := ProjectPointOnVector2D x0 y0 x1 y1 in
  (exists k, px = k * x1 /\ py = k * y1) /\ (x0 - px) * x1 + (y0 - py) * y1 = 0.
Proof. exact vector_projection_spec. Qed.

Theorem C43_signed_length : forall x0 y0 x1 y1, SMALL_NUMBER < x1 * x1 + y1 * y1 ->
  ProjectPointOnVector2DSignedLength x0 y0 x1 y1 = (x0 * x1 + y0 * y1) / sqrt (x1 * x1 + y1 * y1).
Proof. exact signed_length_spec. Qed.

(** Turning the first vector by the signed angle gives the direction of the second. *)
Theorem C43_signed_angle : forall x1 y1 x2 y2, (x1 <> 0 \/ y1 <> 0) -> (x2 <> 0 \/ y2 <> 0) ->
  let a := GetSignedAngleBetweenVectors x1 y1 x2 y2 in
  - PI < a <= PI /\
  sqrt (x2 * x2 + y2 * y2) * fst (RotateVec2D x1 y1 a) = sqrt (x1 * x1 + y1 * y1) * x2 /\
  sqrt (x2 * x2 + y2 * y2) * snd (RotateVec2D x1 y1 a) = sqrt (x1 * x1 + y1 * y1) * y2.
Proof. exact signed_angle_spec. Qed.

Theorem C43_angle : forall x1 y1 x2 y2, (x1 <> 0 \/ y1 <> 0) -> (x2 <> 0 \/ y2 <> 0) ->
  0 <= GetAngleBetweenVectors x1 y1 x2 y2 <= PI /\
  sqrt (x1 * x1 + y1 * y1) * sqrt (x2 * x2 + y2 * y2) * cos (GetAngleBetweenVectors x1 y1 x2 y2) = x1 * x2 + y1 * y2.
Proof. exact angle_between_spec. Qed.

Theorem C43_angle3 : forall x1 y1 z1 x2 y2 z2,
  SMALL_NUMBER <= GetLengthOfVector3D x1 y1 z1 -> SMALL_NUMBER <= GetLengthOfVector3D x2 y2 z2 ->
  0 <= GetAngleBetweenVectors3D x1 y1 z1 x2 y2 z2 <= PI /\
  GetLengthOfVector3D x1 y1 z1 * GetLengthOfVector3D x2 y2 z2 * cos (GetAngleBetweenVectors3D x1 y1 z1 x2 y2 z2)
  = x1 * x2 + y1 * y2 + z1 * z2.
Proof. exact angle3_spec. Qed.

Theorem C43_cross : forall x1 y1 z1 x2 y2 z2, let '(x, y, z) := GetCrossProduct3D x1 y1 z1 x2 y2 z2 in
  x * x1 + y * y1 + z * z1 = 0 /\ x * x2 + y * y2 + z * z2 = 0 /\
  x * x + y * y + z * z = (x1 * x1 + y1 * y1 + z1 * z1) * (x2 * x2 + y2 * y2 + z2 * z2) - (x1 * x2 + y1 * y2 + z1 * z2) * (x1 * x2 + y1 * y2 + z1 * z2).
Proof. exact cross_orthogonal. Qed.

Theorem C43_normalize : forall x y, SMALL_NUMBER <= sqrt (x * x + y * y) -> let '(a, b) := NormalizeVec2D x y in
  a * a + b * b = 1 /\ x = sqrt (x * x + y * y) * a /\ y = sqrt (x * x + y * y) * b.
Proof. exact normalize2_spec. Qed.

Theorem C43_normalize3 : forall x y z, SMALL_NUMBER <= sqrt (x * x + y * y + z * z) -> let '(a, b, c) := NormalizeVec3D x y z in
  a * a + b * b + c * c = 1 /\ x = sqrt (x * x + y * y + z * z) * a /\ y = sqrt (x * x + y * y + z * z) * b /\
  z = sqrt (x * x + y * y + z * z) * c.
Proof. exact normalize3_spec. Qed.

(** The offset line is parallel, at the given distance to the right. *)
Theorem C43_offset : forall x0 y0 x1 y1 o, (x1 - x0 <> 0 \/ y1 - y0 <> 0) ->
  let '((a0, b0), (a1, b1)) := OffsetVec2D x0 y0 x1 y1 o in
  a1 - a0 = x1 - x0 /\ b1 - b0 = y1 - y0 /\
  (a0 - x0) * (x1 - x0) + (b0 - y0) * (y1 - y0) = 0 /\
  PointToLineDistance2DSigned a0 b0 x0 y0 x1 y1 = Some (- o) /\
  PointToLineDistance2DSigned a1 b1 x0 y0 x1 y1 = Some (- o).
Proof. exact offset_spec. Qed.

(** Between two lines: strictly on opposite sides of them. *)
Theorem C43_sector : forall px py ax0 ay0 ax1 ay1 bx0 by0 bx1 by1,
  let '(inside, s) := IsPointWithinSectorBetweenTwoLines px py ax0 ay0 ax1 ay1 bx0 by0 bx1 by1 in
  let a := (ax1 - ax0) * (py - ay0) - (px - ax0) * (ay1 - ay0) in
  let b := (bx1 - bx0) * (py - by0) - (px - bx0) * (by1 - by0) in
  (inside = true <-> a * b < 0) /\ (inside = true -> -1 <= s <= 1).
Proof. exact sector_spec. Qed.

Example C43_intersection_ex : exists p, GetIntersectionOfTwoLineSegments 0 0 1 0 0 (-1) 0 1 = Some p.
Proof.
  destruct (GetIntersectionOfTwoLineSegments 0 0 1 0 0 (-1) 0 1) eqn:E; eauto. apply intersection_parallel in E.
  replace ((1 - 0) * (1 - -1) - (0 - 0) * (0 - 0)) with 2 in E by ring. rewrite Rabs_right in E by lra. unfold SMALL_NUMBER in E. lra.
Qed.
Example C43_apart_ex : apart 0 0 1 0.
Proof. left. rewrite Rminus_0_r, Rabs_R1. unfold SMALL_NUMBER. lra. Qed.
Example C43_circle_ex : (0 <> 1 \/ 0 <> 0) /\ on_circle 0 0 1 1 0 /\ on_line 0 0 1 0 1 0.
Proof. split; [left; lra|]. split; [unfold on_circle; lra|]. exists 1. split; ring. Qed.
Example C43_signed_ex : exists d, PointToLineDistance2DSigned 0 1 0 0 1 0 = Some d.
Proof.
  destruct (PointToLineDistance2DSigned 0 1 0 0 1 0) eqn:E; eauto. apply C43_signed_defined in E. lra.
Qed.
Example C43_line3_ex : SMALL_NUMBER < dist3 1 0 0 0 0 0.
Proof. unfold dist3. match goal with |- _ < sqrt ?e => replace e with 1 by ring end. rewrite sqrt_1. unfold SMALL_NUMBER. lra. Qed.
Example C43_vector_ex : SMALL_NUMBER < 1 * 1 + 0 * 0 /\ SMALL_NUMBER <= sqrt (1 * 1 + 0 * 0).
Proof. replace (1 * 1 + 0 * 0) with 1 by ring. rewrite sqrt_1. unfold SMALL_NUMBER. lra. Qed.
Example C43_angle_ex : (1 <> 0 \/ 0 <> 0) /\ SMALL_NUMBER <= GetLengthOfVector3D 1 0 0.
Proof.
  split; [left; lra|]. unfold GetLengthOfVector3D. replace (1 * 1 + 0 * 0 + 0 * 0) with 1 by ring. rewrite sqrt_1. unfold SMALL_NUMBER. lra.
Qed.
Example C43_offset_ex : 1 - 0 <> 0 \/ 0 - 0 <> 0.
Proof. left. lra. Qed.

Print Assumptions C43_intersection.
Print Assumptions C43_parallel.
Print Assumptions C43_segments_refuted.
Print Assumptions C43_circle.
Print Assumptions C43_circle_undefined.
Print Assumptions C43_tangent_refuted.
Print Assumptions C43_between.
Print Assumptions C43_projection.
Print Assumptions C43_edge.
Print Assumptions C43_edge_any.
Print Assumptions C43_line.
Print Assumptions C43_signed.
Print Assumptions C43_signed_defined.
Print Assumptions C43_with_angle.
Print Assumptions C43_line3.
Print Assumptions C43_vector_projection.
Print Assumptions C43_signed_length.
Print Assumptions C43_signed_angle.
Print Assumptions C43_angle.
Print Assumptions C43_angle3.
Print Assumptions C43_cross.
Print Assumptions C43_normalize.
Print Assumptions C43_normalize3.
Print Assumptions C43_offset.
Print Assumptions C43_sector.
