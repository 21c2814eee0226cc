(** * Plane geometry: CommonMini.cpp over the real numbers

    [double] is idealised as [R].  CM = EnvironmentSimulator/Modules/CommonMini. *)
From Coq Require Import Reals Bool.
From Verif Require Import AngModel.
Open Scope R_scope.

(** GetIntersectionOfTwoLineSegments, CM/CommonMini.cpp:431-457; [None] is the return value -1. *)
Definition GetIntersectionOfTwoLineSegments (ax1 ay1 ax2 ay2 bx1 by1 bx2 by2 : R) : option (R * R) :=
  let t_denominator := (ax1 - ax2) * (by1 - by2) - (ay1 - ay2) * (bx1 - bx2) in
  if Rltb (Rabs t_denominator) SMALL_NUMBER then None
  else
    let t := ((ax1 - bx1) * (by1 - by2) - (ay1 - by1) * (bx1 - bx2)) / t_denominator in
    Some (ax1 + t * (ax2 - ax1), ay1 + t * (ay2 - ay1)).

(** Result of GetIntersectionsOfLineAndCircle: return value 0, 1 or 2 with the points written. *)
Inductive circle_hits := NoHit | OneHit (p : R * R) | TwoHits (p q : R * R).

(** GetIntersectionsOfLineAndCircle, CM/CommonMini.cpp:459-503; [None] where it divides by A = 0 or takes the square root of a
    negative number (the results are then not numbers). *)
Definition GetIntersectionsOfLineAndCircle (p0x p0y p1x p1y ccx ccy cr : R) : option circle_hits :=
  let dx := p1x - p0x in
  let dy := p1y - p0y in
  let A := dx * dx + dy * dy in
  let B := 2 * (dx * (p0x - ccx) + dy * (p0y - ccy)) in
  let C := (p0x - ccx) * (p0x - ccx) + (p0y - ccy) * (p0y - ccy) - cr * cr in
  let discriminant := B * B - 4 * A * C in
  if Rltb discriminant (- SMALL_NUMBER) then Some NoHit
  else if Reqb A 0 then None
  else if Rltb (Rabs (discriminant - 0)) SMALL_NUMBER then
    let t := - B / (2 * A) in Some (OneHit (p0x + t * dx, p0y + t * dy))
  else if Rltb discriminant 0 then None
  else
    let sqrt_discriminant := sqrt discriminant in
    let t1 := (- B + sqrt_discriminant) / (2 * A) in
    let t2 := (- B - sqrt_discriminant) / (2 * A) in
    Some (TwoHits (p0x + t1 * dx, p0y + t1 * dy) (p0x + t2 * dx, p0y + t2 * dy)).

(** PointDistance2D, CM/CommonMini.cpp:621-624. *)
Definition PointDistance2D (x0 y0 x1 y1 : R) : R := sqrt ((x1 - x0) * (x1 - x0) + (y1 - y0) * (y1 - y0)).

(** PointInBetweenVectorEndpoints, CM/CommonMini.cpp:505-551; returns (inside, sNorm).  No division by zero: in the second
    and third branch the divisor is the larger component of a vector that is not almost zero. *)
Definition PointInBetweenVectorEndpoints (x3 y3 x1 y1 x2 y2 : R) : bool * R :=
  let '(inside, sNorm) :=
    if Rltb (Rabs (y2 - y1)) SMALL_NUMBER && Rltb (Rabs (x2 - x1)) SMALL_NUMBER then (true, 0)
    else if Rltb (Rabs (x2 - x1)) (Rabs (y2 - y1)) then
      (if Rltb y1 y2 then negb (Rltb y3 y1 || Rltb y2 y3) else negb (Rltb y1 y3 || Rltb y3 y2), (y3 - y1) / (y2 - y1))
    else
      (if Rltb x1 x2 then negb (Rltb x3 x1 || Rltb x2 x3) else negb (Rltb x1 x3 || Rltb x3 x2), (x3 - x1) / (x2 - x1)) in
  if inside then (inside, sNorm)
  else if Rltb sNorm 0 then (inside, - PointDistance2D x3 y3 x1 y1)
  else (inside, PointDistance2D x3 y3 x2 y2).

(** ProjectPointOnLine2D, CM/CommonMini.cpp:678-701; returns (return value = 0, px, py). *)
Definition ProjectPointOnLine2D (x y vx1 vy1 vx2 vy2 : R) : bool * R * R :=
  let dx := vx2 - vx1 in
  let dy := vy2 - vy1 in
  if Rltb (Rabs dx) SMALL_NUMBER && Rltb (Rabs dy) SMALL_NUMBER then (false, vx1, vy1)
  else
    let k := (dy * (x - vx1) - dx * (y - vy1)) / (dy * dy + dx * dx) in
    (true, x - k * dy, y + k * dx).

(** DistanceFromPointToEdge2D, CM/CommonMini.cpp:553-592; returns (distance, *x, *y). *)
Definition DistanceFromPointToEdge2D (x3 y3 x1 y1 x2 y2 : R) : R * R * R :=
  let '(_, px, py) := ProjectPointOnLine2D x3 y3 x1 y1 x2 y2 in
  let distance := PointDistance2D x3 y3 px py in
  let '(inside, sNorm) := PointInBetweenVectorEndpoints px py x1 y1 x2 y2 in
  if inside then (distance, px, py)
  else if Rltb sNorm 0 then (PointDistance2D x3 y3 x1 y1, x1, y1)
  else (PointDistance2D x3 y3 x2 y2, x2, y2).

(** DistanceFromPointToLine2D, CM/CommonMini.cpp:594-608; returns (distance, *x, *y). *)
Definition DistanceFromPointToLine2D (x3 y3 x1 y1 x2 y2 : R) : R * R * R :=
  let '(_, x, y) := ProjectPointOnLine2D x3 y3 x1 y1 x2 y2 in (PointDistance2D x3 y3 x y, x, y).

(** DistanceFromPointToLine2DWithAngle, CM/CommonMini.cpp:610-613. *)
Definition DistanceFromPointToLine2DWithAngle (x3 y3 x1 y1 angle : R) : R := (x3 - x1) * sin angle - (y3 - y1) * cos angle.

(** GetCrossProduct2D, CM/CommonMini.cpp:1567-1570. *)
Definition GetCrossProduct2D (x1 y1 x2 y2 : R) : R := x1 * y2 - x2 * y1.

(** GetDotProduct2D, CM/CommonMini.cpp:1572-1575. *)
Definition GetDotProduct2D (x1 y1 x2 y2 : R) : R := x1 * x2 + y1 * y2.

(** PointSideOfVec, CM/CommonMini.cpp:615-619. *)
Definition PointSideOfVec (px py vx1 vy1 vx2 vy2 : R) : R :=
  SIGN (GetCrossProduct2D (vx2 - vx1) (px - vx1) (vy2 - vy1) (py - vy1)).

(** PointToLineDistance2DSigned, CM/CommonMini.cpp:626-633; [None] where it divides by zero. *)
Definition PointToLineDistance2DSigned (px py lx0 ly0 lx1 ly1 : R) : option R :=
  let l0x := lx1 - lx0 in
  let l0y := ly1 - ly0 in
  let cp := GetCrossProduct2D (lx1 - lx0) (ly1 - ly0) (px - lx0) (py - ly0) in
  let l0Length := sqrt (l0x * l0x + l0y * l0y) in
  if Reqb l0Length 0 then None else Some (cp / l0Length).

(** PointToLineDistance3DSigned, CM/CommonMini.cpp:635-665. *)
Definition PointToLineDistance3DSigned (px py pz lx0 ly0 lz0 lx1 ly1 lz1 : R) : R :=
  let dx := lx1 - lx0 in let dy := ly1 - ly0 in let dz := lz1 - lz0 in
  let px0 := px - lx0 in let py0 := py - ly0 in let pz0 := pz - lz0 in
  let crossX := py0 * dz - pz0 * dy in
  let crossY := pz0 * dx - px0 * dz in
  let crossZ := px0 * dy - py0 * dx in
  let crossMagnitude := sqrt (crossX * crossX + crossY * crossY + crossZ * crossZ) in
  let lineMagnitude := sqrt (dx * dx + dy * dy + dz * dz) in
  let distance := crossMagnitude / (if Rltb SMALL_NUMBER lineMagnitude then lineMagnitude else SMALL_NUMBER) in
  let crossProduct := GetCrossProduct2D dx dy px0 py0 in
  if Rltb crossProduct 0 then - distance else distance.

(** ProjectPointOnVector2D, CM/CommonMini.cpp:703-718. *)
Definition ProjectPointOnVector2D (x0 y0 x1 y1 : R) : R * R :=
  let square_length := GetDotProduct2D x1 y1 x1 y1 in
  if Rltb SMALL_NUMBER square_length then
    let scalar_proj := GetDotProduct2D x0 y0 x1 y1 / square_length in (x1 * scalar_proj, y1 * scalar_proj)
  else (0, 0).

(** GetLengthOfVector2D, CM/CommonMini.cpp:776-779, GetLengthOfVector3D, 781-784. *)
Definition GetLengthOfVector2D (x y : R) : R := sqrt (x * x + y * y).
Definition GetLengthOfVector3D (x y z : R) : R := sqrt (x * x + y * y + z * z).

(** ProjectPointOnVector2DSignedLength, CM/CommonMini.cpp:720-731. *)
Definition ProjectPointOnVector2DSignedLength (x0 y0 x1 y1 : R) : R :=
  let '(px, py) := ProjectPointOnVector2D x0 y0 x1 y1 in
  let length := GetLengthOfVector2D px py in
  if negb (Reqb (SIGN px) (SIGN x1)) || negb (Reqb (SIGN py) (SIGN y1)) then length * -1 else length.

(** GetSignedAngleBetweenVectors, CM/CommonMini.cpp:1577-1584; GetAngleBetweenVectors, 1586-1589. *)
Definition GetSignedAngleBetweenVectors (x1 y1 x2 y2 : R) : R := atan2 (x1 * y2 - y1 * x2) (x1 * x2 + y1 * y2).
Definition GetAngleBetweenVectors (x1 y1 x2 y2 : R) : R := Rabs (GetSignedAngleBetweenVectors x1 y1 x2 y2).

(** ABS_LIMIT, CM/CommonMini.hpp:60. *)
Definition ABS_LIMIT (x y : R) : R := if Rltb (Rabs y) (Rabs x) then SIGN x * Rabs y else x.

(** GetDotProduct3D, CM/CommonMini.cpp:1591-1594; GetAngleBetweenVectors3D, 1596-1606. *)
Definition GetDotProduct3D (x1 y1 z1 x2 y2 z2 : R) : R := x1 * x2 + y1 * y2 + z1 * z2.
Definition GetAngleBetweenVectors3D (x1 y1 z1 x2 y2 z2 : R) : R :=
  let dp := GetDotProduct3D x1 y1 z1 x2 y2 z2 in
  let length1 := GetLengthOfVector3D x1 y1 z1 in
  let length2 := GetLengthOfVector3D x2 y2 z2 in
  if Rltb length1 SMALL_NUMBER || Rltb length2 SMALL_NUMBER then 0
  else acos (ABS_LIMIT (dp / (length1 * length2)) 1).

(** GetCrossProduct3D, CM/CommonMini.cpp:1548-1555. *)
Definition GetCrossProduct3D (x1 y1 z1 x2 y2 z2 : R) : R * R * R :=
  (y1 * z2 - z1 * y2, z1 * x2 - x1 * z2, x1 * y2 - y1 * x2).

(** NormalizeVec2D, CM/CommonMini.cpp:1608-1617; NormalizeVec3D, 1619-1629. *)
Definition NormalizeVec2D (x y : R) : R * R :=
  let len := sqrt (x * x + y * y) in
  let len := if Rltb len SMALL_NUMBER then SMALL_NUMBER else len in (x / len, y / len).
Definition NormalizeVec3D (x y z : R) : R * R * R :=
  let len := sqrt (x * x + y * y + z * z) in
  let len := if Rltb len SMALL_NUMBER then SMALL_NUMBER else len in (x / len, y / len, z / len).

(** OffsetVec2D, CM/CommonMini.cpp:1631-1641. *)
Definition OffsetVec2D (x0 y0 x1 y1 offset : R) : (R * R) * (R * R) :=
  let angle_line := atan2 (y1 - y0) (x1 - x0) in
  let angle_offset := angle_line + (if Rltb offset 0 then PI / 2 else - (PI / 2)) in
  let ox := Rabs offset * cos angle_offset in
  let oy := Rabs offset * sin angle_offset in
  ((x0 + ox, y0 + oy), (x1 + ox, y1 + oy)).

(** IsPointWithinSectorBetweenTwoLines, CM/CommonMini.cpp:733-769; returns (return value, sNorm).  SE_Vector::Cross is x1 y2 - x2 y1
    (CM/CommonMini.hpp:335-338). *)
Definition IsPointWithinSectorBetweenTwoLines (px py ax0 ay0 ax1 ay1 bx0 by0 bx1 by1 : R) : bool * R :=
  let d0 := GetCrossProduct2D (px - ax0) (py - ay0) (ax1 - ax0) (ay1 - ay0) in
  let d1 := GetCrossProduct2D (px - bx0) (py - by0) (bx1 - bx0) (by1 - by0) in
  let dist0 := fst (fst (DistanceFromPointToLine2D px py ax0 ay0 ax1 ay1)) in
  let dist1 := fst (fst (DistanceFromPointToLine2D px py bx0 by0 bx1 by1)) in
  let sNorm := dist0 / (if Rltb SMALL_NUMBER (dist0 + dist1) then dist0 + dist1 else SMALL_NUMBER) in
  if Rltb 0 d0 && Rltb d1 0 then (true, sNorm)
  else if Rltb d0 0 && Rltb 0 d1 then (true, - sNorm)
  else if Rltb dist0 dist1 then (false, - dist0)
  else (false, dist1).
