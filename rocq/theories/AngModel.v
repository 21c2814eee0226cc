(** * Angles, rotations and matrices: CommonMini.cpp over the real numbers

    [double] is idealised as [R] (no rounding, no NaN, no signed zero).  CM = EnvironmentSimulator/Modules/CommonMini. *)
From Coq Require Import Reals Bool.
Open Scope R_scope.

(** Comparison as used in conditions, e.g. CM/CommonMini.cpp:339. *)
Definition Rltb (x y : R) : bool := if Rlt_dec x y then true else false.

(** [==] on double, e.g. CM/CommonMini.cpp:1790. *)
Definition Reqb (x y : R) : bool := if Req_EM_T x y then true else false.

(** SMALL_NUMBER, CM/CommonMini.hpp:52. *)
Definition SMALL_NUMBER : R := 1 / 1000000.

(** SIGN, CM/CommonMini.hpp:55. *)
Definition SIGN (x : R) : R := if Rltb x 0 then -1 else 1.

(** fmod of the C library for a non-zero divisor, called at CM/CommonMini.cpp:357, 374, 401, 417: x minus y times the
    quotient rounded towards zero. *)
Definition trunc (x : R) : R := if Rltb x 0 then - IZR (Int_part (- x)) else IZR (Int_part x).
Definition fmod (x y : R) : R := x - y * trunc (x / y).

(** atan2 of the C library, called e.g. at CM/CommonMini.cpp:347. *)
Definition atan2 (y x : R) : R :=
  if Rltb 0 x then atan (y / x)
  else if Rltb x 0 then (if Rltb y 0 then atan (y / x) - PI else atan (y / x) + PI)
  else if Rltb 0 y then PI / 2
  else if Rltb y 0 then - (PI / 2)
  else 0.

(** GetAngleOfVector, CM/CommonMini.cpp:336-353; [abs] is the overload for double. *)
Definition GetAngleOfVector (x y : R) : R :=
  if Rltb (Rabs x) SMALL_NUMBER && Rltb (Rabs y) SMALL_NUMBER then 0
  else
    let x' := if Rltb (Rabs x) SMALL_NUMBER then SIGN x * SMALL_NUMBER else x in
    let angle := atan2 y x' in
    if Rltb angle 0 then angle + 2 * PI else angle.

(** GetAngleInInterval2PI, CM/CommonMini.cpp:399-413; the negative zero branch has no counterpart in R. *)
Definition GetAngleInInterval2PI (angle : R) : R :=
  let angle2 := fmod angle (2 * PI) in
  if Rltb angle2 0 then angle2 + 2 * PI else angle2.

(** GetAbsAngleDifference, CM/CommonMini.cpp:355-370. *)
Definition GetAbsAngleDifference (angle1 angle2 : R) : R :=
  let diff := fmod (angle1 - angle2) (2 * PI) in
  let diff := if Rltb diff 0 then diff + 2 * PI else diff in
  let diff := if Rltb PI diff then 2 * PI - diff else diff in
  GetAngleInInterval2PI diff.

(** GetAngleDifference, CM/CommonMini.cpp:372-386. *)
Definition GetAngleDifference (angle1 angle2 : R) : R :=
  let diff := fmod (angle1 - angle2) (2 * PI) in
  if Rltb diff (- PI) then diff + 2 * PI else if Rltb PI diff then diff - 2 * PI else diff.

(** IsAngleForward, CM/CommonMini.cpp:388-392. *)
Definition IsAngleForward (teta : R) : bool :=
  let n := GetAngleInInterval2PI teta in
  negb (Rltb (PI / 2) n && Rltb n (3 * (PI / 2))).

(** GetAngleSum, CM/CommonMini.cpp:394-397. *)
Definition GetAngleSum (angle1 angle2 : R) : R := GetAngleInInterval2PI (angle1 + angle2).

(** GetAngleInIntervalMinusPIPlusPI, CM/CommonMini.cpp:415-429. *)
Definition GetAngleInIntervalMinusPIPlusPI (angle : R) : R :=
  let angle2 := fmod angle (2 * PI) in
  if Rltb angle2 (- PI) then angle2 + 2 * PI else if Rltb PI angle2 then angle2 - 2 * PI else angle2.

(** RotateVec2D, CM/CommonMini.cpp:786-790. *)
Definition RotateVec2D (x y angle : R) : R * R :=
  (x * cos angle - y * sin angle, x * sin angle + y * cos angle).

(** Global2LocalCoordinates, CM/CommonMini.cpp:792-804. *)
Definition Global2LocalCoordinates (xt yt xh yh angleHost : R) : R * R :=
  let rx := xt - xh in
  let ry := yt - yh in
  (rx * cos angleHost - ry * sin angleHost, rx * sin angleHost + ry * cos angleHost).

(** Local2GlobalCoordinates, CM/CommonMini.cpp:806-817. *)
Definition Local2GlobalCoordinates (xh yh theta x y : R) : R * R :=
  (x * cos (- theta) + y * sin (- theta) + xh, y * cos (- theta) - x * sin (- theta) + yh).

(** double[3] and double[3][3]. *)
Record vec3 := V3 { vx : R; vy : R; vz : R }.
Record mat3 := M3 { m00 : R; m01 : R; m02 : R; m10 : R; m11 : R; m12 : R; m20 : R; m21 : R; m22 : R }.

(** MultMatrixVector3d, CM/CommonMini.cpp:1884-1889. *)
Definition MultMatrixVector3d (m : mat3) (v : vec3) : vec3 :=
  V3 (m00 m * vx v + m01 m * vy v + m02 m * vz v)
     (m10 m * vx v + m11 m * vy v + m12 m * vz v)
     (m20 m * vx v + m21 m * vy v + m22 m * vz v).

(** MultMatrixMatrix3d, CM/CommonMini.cpp:1891-1904 (and the loops at 1696-1707, 1866-1871): the sum starts with 0. *)
Definition MultMatrixMatrix3d (a b : mat3) : mat3 :=
  let e r0 r1 r2 c0 c1 c2 := 0 + r0 * c0 + r1 * c1 + r2 * c2 in
  M3 (e (m00 a) (m01 a) (m02 a) (m00 b) (m10 b) (m20 b))
     (e (m00 a) (m01 a) (m02 a) (m01 b) (m11 b) (m21 b))
     (e (m00 a) (m01 a) (m02 a) (m02 b) (m12 b) (m22 b))
     (e (m10 a) (m11 a) (m12 a) (m00 b) (m10 b) (m20 b))
     (e (m10 a) (m11 a) (m12 a) (m01 b) (m11 b) (m21 b))
     (e (m10 a) (m11 a) (m12 a) (m02 b) (m12 b) (m22 b))
     (e (m20 a) (m21 a) (m22 a) (m00 b) (m10 b) (m20 b))
     (e (m20 a) (m21 a) (m22 a) (m01 b) (m11 b) (m21 b))
     (e (m20 a) (m21 a) (m22 a) (m02 b) (m12 b) (m22 b)).

(** The matrix built from heading, pitch, roll at CM/CommonMini.cpp:1681-1683, 1692-1694, 1849-1851, 1862-1864, 1927-1929 (and,
    with the arguments in reverse order, 1749-1762). *)
Definition euler (h p r : R) : mat3 :=
  let cx := cos h in let cy := cos p in let cz := cos r in
  let sx := sin h in let sy := sin p in let sz := sin r in
  M3 (cx * cy) (cx * sy * sz - sx * cz) (sx * sz + cx * sy * cz)
     (sx * cy) (cx * cz + sx * sy * sz) (sx * sy * cz - cx * sz)
     (- sy) (cy * sz) (cy * cz).

(** "Avoid gimbal lock", CM/CommonMini.cpp:1657-1661, 1709-1717, 1764-1768, 1873-1877, 1931-1935. *)
Definition nudge (x : R) : R := if Rltb (Rabs x) SMALL_NUMBER then SIGN x * SMALL_NUMBER else x.
Definition avoid_gimbal (m : mat3) : mat3 :=
  M3 (nudge (m00 m)) (m01 m) (m02 m) (m10 m) (m11 m) (m12 m) (m20 m) (m21 m) (nudge (m22 m)).

(** RotateVec3d, CM/CommonMini.cpp:1906-1942. *)
Definition RotateVec3d (h p r : R) (v : vec3) : vec3 := MultMatrixVector3d (avoid_gimbal (euler h p r)) v.

(** InverseRotateVec3d, CM/CommonMini.cpp:1944-1959. *)
Definition InverseRotateVec3d (h p r : R) (v : vec3) : vec3 :=
  let ch := cos h in let sh := sin h in let cp := cos p in let sp := sin p in let cr := cos r in let sr := sin r in
  let x := vx v in let y := vy v in let z := vz v in
  V3 (x * (ch * cp) + y * (sh * cp) + z * (- sp))
     (x * (ch * sp * sr - sh * cr) + y * (sh * sp * sr + ch * cr) + z * (cp * sr))
     (x * (ch * sp * cr + sh * sr) + y * (sh * sp * cr - ch * sr) + z * (cp * cr)).

(** Extraction of the angles, CM/CommonMini.cpp:1719-1721 and 1879-1881. *)
Definition extract (m : mat3) : R * R * R :=
  (GetAngleInInterval2PI (atan2 (m10 m) (m00 m)),
   GetAngleInInterval2PI (atan2 (- m20 m) (sqrt (m21 m * m21 m + m22 m * m22 m))),
   GetAngleInInterval2PI (atan2 (m21 m) (m22 m))).

(** R0R12EulerAngles, CM/CommonMini.cpp:1668-1722. *)
Definition R0R12EulerAngles (h0 p0 r0 h1 p1 r1 : R) : R * R * R :=
  extract (avoid_gimbal (MultMatrixMatrix3d (euler h0 p0 r0) (euler h1 p1 r1))).

(** ZYZ2EulerAngles, CM/CommonMini.cpp:1643-1666. *)
Definition zyz (z0 y z1 : R) : mat3 :=
  let cx := cos z0 in let cy := cos y in let cz := cos z1 in
  let sx := sin z0 in let sy := sin y in let sz := sin z1 in
  M3 (cx * cy * cz - sx * sz) (- cx * cy * sz - sx * cz) (cx * sy)
     (sx * cy * cz + cx * sz) (cx * cz - sx * cy * sz) (sx * sy)
     (- sy * cz) (sy * sz) cy.
Definition ZYZ2EulerAngles (z0 y z1 : R) : R * R * R :=
  let m := avoid_gimbal (zyz z0 y z1) in
  (atan2 (m10 m) (m00 m), atan2 (- m20 m) (sqrt (m21 m * m21 m + m22 m * m22 m)), atan2 (m21 m) (m22 m)).

(** One row of the augmented matrix of InvertMatrix3, CM/CommonMini.cpp:1774. *)
Record row6 := R6 { a0 : R; a1 : R; a2 : R; a3 : R; a4 : R; a5 : R }.

(** Division of a row by the pivot, CM/CommonMini.cpp:1796-1799. *)
Definition row_div (r : row6) (p : R) : row6 := R6 (a0 r / p) (a1 r / p) (a2 r / p) (a3 r / p) (a4 r / p) (a5 r / p).

(** Subtraction of a multiple of the pivot row, CM/CommonMini.cpp:1806-1810. *)
Definition row_sub (r : row6) (f : R) (q : row6) : row6 :=
  R6 (a0 r - f * a0 q) (a1 r - f * a1 q) (a2 r - f * a2 q) (a3 r - f * a3 q) (a4 r - f * a4 q) (a5 r - f * a5 q).

(** InvertMatrix3, CM/CommonMini.cpp:1771-1824; [None] is the return value -1 (the output is then left as it was).  The
    loop over the three pivots is unrolled. *)
Definition InvertMatrix3 (m : mat3) : option mat3 :=
  let r0 := R6 (m00 m) (m01 m) (m02 m) 1 0 0 in
  let r1 := R6 (m10 m) (m11 m) (m12 m) 0 1 0 in
  let r2 := R6 (m20 m) (m21 m) (m22 m) 0 0 1 in
  if Reqb (a0 r0) 0 then None
  else
    let r0 := row_div r0 (a0 r0) in
    let r1 := row_sub r1 (a0 r1) r0 in
    let r2 := row_sub r2 (a0 r2) r0 in
    if Reqb (a1 r1) 0 then None
    else
      let r1 := row_div r1 (a1 r1) in
      let r0 := row_sub r0 (a1 r0) r1 in
      let r2 := row_sub r2 (a1 r2) r1 in
      if Reqb (a2 r2) 0 then None
      else
        let r2 := row_div r2 (a2 r2) in
        let r0 := row_sub r0 (a2 r0) r2 in
        let r1 := row_sub r1 (a2 r1) r2 in
        Some (M3 (a3 r0) (a4 r0) (a5 r0) (a3 r1) (a4 r1) (a5 r1) (a3 r2) (a4 r2) (a5 r2)).

(** CalcRelAnglesFromRoadAndAbsAngles, CM/CommonMini.cpp:1826-1882; R_inv starts as the zero matrix and the return value of
    InvertMatrix3 is ignored. *)
Definition zero3 : mat3 := M3 0 0 0 0 0 0 0 0 0.
Definition CalcRelAnglesFromRoadAndAbsAngles (h_road p_road r_road h_abs p_abs r_abs : R) : R * R * R :=
  let R_inv := match InvertMatrix3 (euler h_road p_road r_road) with Some i => i | None => zero3 end in
  extract (avoid_gimbal (MultMatrixMatrix3d R_inv (euler h_abs p_abs r_abs))).
