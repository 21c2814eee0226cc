(** * Ideal object sensor (IdealSensor.cpp) and the list of what it sees (esminiLib.cpp)

    [double] is idealised as [R]; over the reals the argument of acos is within its domain (SenProofs), with rounding it may leave it.
    SE = EnvironmentSimulator/Modules/ScenarioEngine/SourceFiles, CM = EnvironmentSimulator/Modules/CommonMini,
    LI = EnvironmentSimulator/Libraries/esminiLib. *)
From Coq Require Import Reals Bool List NArith.
From Verif Require Import AngModel.
Import ListNotations.
Open Scope R_scope.

(** NormalizeVec2D, CM/CommonMini.cpp:1608-1617; GetDotProduct2D, CM/CommonMini.cpp:1572-1575. *)
Definition NormalizeVec2D (x y : R) : R * R :=
  let len := sqrt (x * x + y * y) in
  let len := if Rltb len SMALL_NUMBER then SMALL_NUMBER else len in
  (x / len, y / len).
Definition GetDotProduct2D (x1 y1 x2 y2 : R) : R := x1 * x2 + y1 * y2.

(** What the sensor asks of a position: coordinates, heading, velocity, acceleration, rates of the heading. *)
Record body := Body { b_x : R; b_y : R; b_z : R; b_h : R; b_vx : R; b_vy : R; b_ax : R; b_ay : R; b_hr : R; b_ha : R }.

(** An object: is it the host, a ghost, visibilityMask_ and pos_; SENSORS, SE/Entities.hpp:99. *)
Record thing := Thing { g_host : bool; g_ghost : bool; g_mask : N; g_body : body }.
Definition SENSORS : N := 4.

(** BaseSensor and ObjectSensor, SE/IdealSensor.cpp:17-53: the arguments of the constructor ([s_max]: the size of hitList_). *)
Record sensor := Sensor { s_x : R; s_y : R; s_z : R; s_h : R; s_near : R; s_far : R; s_fov : R; s_max : nat }.

(** struct ObjectHit, SE/IdealSensor.hpp:56-71; [k_obj]: the index of the object. *)
Record hit := Hit { k_obj : nat; k_x : R; k_y : R; k_z : R; k_vx : R; k_vy : R; k_vz : R; k_ax : R; k_ay : R; k_az : R; k_yaw : R; k_yawRate : R; k_yawAcc : R }.

(** Position of the sensor, SE/IdealSensor.cpp:89-93. *)
Definition globally (s : sensor) (host : body) : R * R :=
  let '(x, y) := RotateVec2D (s_x s) (s_y s) (b_h host) in (b_x host + x, b_y host + y).

(** Vector to an object, SE/IdealSensor.cpp:95-97. *)
Definition offset (s : sensor) (host obj : body) : R * R :=
  let '(gx, gy) := globally s host in (b_x obj - gx, b_y obj - gy).

(** Angle to an object, SE/IdealSensor.cpp:82-86, 107-111. *)
Definition angle_to (host : body) (o : R * R) : R :=
  let '(hx2, hy2) := RotateVec2D 1 0 (b_h host) in
  let '(xon, yon) := NormalizeVec2D (fst o) (snd o) in
  acos (GetDotProduct2D hx2 hy2 xon yon).

(** The conditions of a hit, SE/IdealSensor.cpp:67-113. *)
Definition in_view (s : sensor) (host : body) (g : thing) : bool :=
  let o := offset s host (g_body g) in
  let dist_sq := fst o * fst o + snd o * snd o in
  negb (g_host g || g_ghost g) && negb (N.land (g_mask g) SENSORS =? 0)%N
  && negb (Rltb dist_sq (s_near s * s_near s) || Rltb (s_far s * s_far s) dist_sq)
  && Rltb (GetAbsAngleDifference (angle_to host o) (s_h s)) (s_fov s / 2).

(** A hit, SE/IdealSensor.cpp:115-157; [was]: what the element of hitList_ held before. *)
Definition make_hit (s : sensor) (host obj : body) (i : nat) (was : hit) : hit :=
  let o := offset s host obj in
  let a := - GetAngleSum (b_h host) (s_h s) in
  let '(xl, yl) := RotateVec2D (fst o) (snd o) a in
  let '(vx, vy) := Global2LocalCoordinates (b_vx obj) (b_vy obj) (b_vx host) (b_vy host) a in
  let '(ax, ay) := Global2LocalCoordinates (b_ax obj) (b_ay obj) (b_ax host) (b_ay host) a in
  Hit i xl yl (b_z obj - (b_z host + s_z s) + 7 / 10) vx vy (k_vz was) ax ay (k_az was)
      (GetAngleDifference (b_h obj) (GetAngleSum (b_h host) (s_h s))) (GetAngleDifference (b_hr obj) (b_hr host)) (GetAngleDifference (b_ha obj) (b_ha host)).

(** hitList_[n] = h; [None]: past the end. *)
Fixpoint put (n : nat) (h : hit -> hit) (l : list hit) : option (list hit) :=
  match n, l with
  | _, [] => None
  | O, x :: r => Some (h x :: r)
  | S n, x :: r => match put n h r with Some r' => Some (x :: r') | None => None end
  end.

(** The loop of ObjectSensor::Update, SE/IdealSensor.cpp:64-160, from index [i] on: hitList_ and nObj_; [None]: a write past the end of hitList_. *)
Fixpoint scan (s : sensor) (host : body) (i : nat) (l : list thing) (mem : list hit) (n : nat) : option (list hit * nat) :=
  match l with
  | [] => Some (mem, n)
  | g :: r =>
      if in_view s host g then
        match put n (make_hit s host (g_body g) i) mem with
        | Some mem' => scan s host (S i) r mem' (S n)
        | None => None
        end
      else scan s host (S i) r mem n
  end.
Definition Update (s : sensor) (host : body) (l : list thing) (mem : list hit) : option (list hit * nat) := scan s host 0 l mem 0.

(** SE_FetchSensorObjectList, LI/esminiLib.cpp:2278-2297: return value and what is written to the list, for the sensors of a player; [None]: a read past
    hitList_; [id]: the ids of objects. *)
Definition FetchSensorObjectList (player : option (list (list hit * nat))) (id : nat -> Z) (sensor_id : Z) : option (Z * list Z) :=
  match player with
  | None => Some ((-1)%Z, [])
  | Some sensors =>
      if ((sensor_id <? 0) || (Z.of_nat (length sensors) <=? sensor_id))%Z then Some ((-1)%Z, [])
      else
        match nth_error sensors (Z.to_nat sensor_id) with
        | Some (mem, n) => if Nat.leb n (length mem) then Some (Z.of_nat n, map (fun h => id (k_obj h)) (firstn n mem)) else None
        | None => None
        end
  end.
