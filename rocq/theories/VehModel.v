(** * The bicycle model of a vehicle, and driving it by keys (vehicle::Vehicle, ControllerInteractive)

    CT = EnvironmentSimulator/Modules/Controllers, CM = EnvironmentSimulator/Modules/CommonMini. [double] is idealised as [R]: rounding, infinities and NaN
    are left out, so is the case of a vehicle without length, in which the code divides by 0. z and pitch are left out. *)
From Coq Require Import Reals Bool List.
From Verif Require Import AngModel BoxModel AccModel.
Import ListNotations.
Open Scope R_scope.

(** Constants, CT/vehicle.cpp:25-34, 48 (the two limits of the angle are the same). *)
Definition STEERING_MAX_ANGLE : R := 60 * PI / 180.
Definition WHEEL_RADIUS : R := 35 / 100.

(** vehicle::Vehicle, CT/vehicle.hpp:154-183. *)
Record veh := Veh {
  x_ : R; y_ : R; h_ : R; vx_ : R; vy_ : R; vang_ : R; vrel_ : R; speed_ : R; wheel_ : R; rot_ : R; hdot_ : R; hand_ : bool; len_ : R;
  max_speed_ : R; max_acc_ : R; max_dec_ : R; rate_ : R; ret_ : R; scale_ : R; drag_ : R; no_throttle_ : bool; no_steer_ : bool }.

(** Assigning speed and handbrake. *)
Definition set_speed (v : veh) (s : R) (hb : bool) : veh :=
  Veh (x_ v) (y_ v) (h_ v) (vx_ v) (vy_ v) (vang_ v) (vrel_ v) s (wheel_ v) (rot_ v) (hdot_ v) hb (len_ v) (max_speed_ v) (max_acc_ v) (max_dec_ v) (rate_ v) (ret_ v)
    (scale_ v) (drag_ v) (no_throttle_ v) (no_steer_ v).
(** Vehicle::SetWheelAngle, CT/vehicle.cpp:50-53, and assignments of wheelAngle_. *)
Definition set_wheel (v : veh) (w : R) : veh :=
  Veh (x_ v) (y_ v) (h_ v) (vx_ v) (vy_ v) (vang_ v) (vrel_ v) (speed_ v) w (rot_ v) (hdot_ v) (hand_ v) (len_ v) (max_speed_ v) (max_acc_ v) (max_dec_ v) (rate_ v) (ret_ v)
    (scale_ v) (drag_ v) (no_throttle_ v) (no_steer_ v).

(** Vehicle::Update, CT/vehicle.cpp:204-226. *)
Definition Update (v : veh) (dt : R) : veh :=
  let rot := fmod (rot_ v + speed_ v * dt / WHEEL_RADIUS) (2 * PI) in
  let vrel := atan (15 / 100 * tan (wheel_ v)) in
  let vang := vrel + h_ v in
  let hdot := speed_ v * sin vrel / (len_ v * (15 / 100)) in
  let vx := speed_ v * cos vang in
  let vy := speed_ v * sin vang in
  let h := fmod (h_ v + dt * hdot) (2 * PI) in
  let h := if Rltb h 0 then h + 2 * PI else h in
  Veh (x_ v + dt * vx) (y_ v + dt * vy) h vx vy vang vrel (speed_ v) (wheel_ v) rot hdot (hand_ v) (len_ v) (max_speed_ v) (max_acc_ v) (max_dec_ v) (rate_ v) (ret_ v)
    (scale_ v) (drag_ v) (no_throttle_ v) (no_steer_ v).

(** Vehicle::DrivingControlTarget, CT/vehicle.cpp:70-82. *)
Definition DrivingControlTarget (v : veh) (dt target_speed heading_to_target : R) : veh :=
  let acceleration := CLAMP (max_acc_ v * (target_speed - speed_ v)) (- max_acc_ v) (max_acc_ v) in
  let s := CLAMP (speed_ v + acceleration * dt) (- max_speed_ v) (max_speed_ v) in
  let v := set_speed v s (hand_ v) in
  let steering_scale := 1 / (1 + scale_ v * s * s) in
  Update (set_wheel v (CLAMP heading_to_target (- steering_scale * STEERING_MAX_ANGLE) (steering_scale * STEERING_MAX_ANGLE))) dt.

(** The speed after a step with some throttle, the common part of CT/vehicle.cpp:86-116 and 140-170: [release] says whether the throttle lets go of the
    handbrake, [none] whether there is none. *)
Definition throttle_part (v : veh) (dt throttle : R) (release none : bool) : veh :=
  if no_throttle_ v then v
  else if hand_ v then set_speed v (speed_ v) (negb release)
  else
    let s := speed_ v + (if Rltb throttle 0 then max_dec_ v else max_acc_ v) * throttle * dt in
    if Rltb 0 (speed_ v) && Rltb s 0 then set_speed v 0 true
    else
      let s := if none then s * (1 - drag_ v) else s in
      set_speed v (CLAMP s (- max_speed_ v) (max_speed_ v)) false.

(** THROTTLE and STEERING, CT/vehicle.hpp:17-29: -1, 0 and 1. *)
Inductive input := Minus | None_ | Plus.
Definition val (i : input) : R := match i with Minus => -1 | None_ => 0 | Plus => 1 end.
Definition is_none (i : input) : bool := match i with None_ => true | _ => false end.

(** Vehicle::DrivingControlBinary, CT/vehicle.cpp:84-136. *)
Definition DrivingControlBinary (v : veh) (dt : R) (throttle steering : input) : veh :=
  let v := throttle_part v dt (val throttle) (is_none throttle) (is_none throttle) in
  let v :=
    if no_steer_ v then v
    else
      let steering_scale := 1 / (1 + scale_ v * speed_ v * speed_ v) in
      let w := wheel_ v + steering_scale * rate_ v * val steering * dt in
      let w := if is_none steering then w * (1 - ret_ v * dt) else w in
      set_wheel v (CLAMP w (- steering_scale * STEERING_MAX_ANGLE) (steering_scale * STEERING_MAX_ANGLE)) in
  Update v dt.

(** Vehicle::DrivingControlAnalog, CT/vehicle.cpp:138-187. *)
Definition DrivingControlAnalog (v : veh) (dt throttle steering : R) : veh :=
  let v := throttle_part v dt throttle (Rltb (Rabs throttle) SMALL_NUMBER || Rltb SMALL_NUMBER throttle) (Rltb (Rabs throttle) SMALL_NUMBER) in
  let v :=
    if no_steer_ v then v
    else
      let steering_scale := 1 / (1 + 5 / 1000 * speed_ v * speed_ v) in
      let w := (wheel_ v + steering_scale * rate_ v * steering * dt) * (1 - ret_ v * dt) in
      set_wheel v (CLAMP w (- steering_scale * STEERING_MAX_ANGLE) (steering_scale * STEERING_MAX_ANGLE)) in
  Update v dt.

(** Vehicle::DrivingControlAccAndSteer, CT/vehicle.cpp:189-202. *)
Definition DrivingControlAccAndSteer (v : veh) (dt acceleration steering_angle : R) : veh :=
  let v := if no_throttle_ v then v else set_speed v (CLAMP (speed_ v + acceleration * dt) (- max_speed_ v) (max_speed_ v)) (hand_ v) in
  let v := if no_steer_ v then v else set_wheel v (CLAMP steering_angle (- STEERING_MAX_ANGLE) STEERING_MAX_ANGLE) in
  Update v dt.

(** Vehicle::Reset, CT/vehicle.cpp:228-255. *)
Definition reset_veh : veh := Veh 0 0 0 0 0 0 0 0 0 0 0 false 5 70 20 20 5 4 (2 / 100) (1 / 1000) false false.
(** GetThrottleDisabled and GetSteeringDisabled, CT/vehicle.hpp:130-141. *)
Definition GetThrottleDisabled (v : veh) : bool := no_steer_ v.
Definition GetSteeringDisabled (v : veh) : bool := no_steer_ v.

(** ControllerInteractive, CT/ControllerInteractive.hpp: the vehicle, steer, accelerate, speedFactor; the active domains as two flags (Controller::IsActiveOnDomains,
    CT/Controller.cpp:182-190). *)
Record inter := Inter { i_veh : veh; i_steer : input; i_acc : input; i_factor : R; i_long : bool; i_lat : bool }.

(** ControllerInteractive::ReportKeyEvent, CT/ControllerInteractive.cpp:137-183. *)
Inductive key := KLeft | KRight | KUp | KDown | KOther.
Definition ReportKeyEvent (i : inter) (k : key) (down : bool) : inter :=
  let steer s := Inter (i_veh i) s (i_acc i) (i_factor i) (i_long i) (i_lat i) in
  let accel a := Inter (i_veh i) (i_steer i) a (i_factor i) (i_long i) (i_lat i) in
  match k with
  | KLeft => steer (if down then Plus else None_)
  | KRight => steer (if down then Minus else None_)
  | KUp => accel (if down then Plus else None_)
  | KDown => accel (if down then Minus else None_)
  | KOther => i
  end.

(** The object driven: speed, wheel angle, position and heading, its maximum speed. *)
Record obj := Obj { b_speed : R; b_wheel : R; b_x : R; b_y : R; b_h : R; b_max : R }.

(** The speed limit used, CT/ControllerInteractive.cpp:53-67: that of the road, or by the number of driving lanes. *)
Definition limit (speed_limit : R) (multilane : bool) : R :=
  if Rltb speed_limit SMALL_NUMBER then (if multilane then 110 / (36 / 10) else 60 / (36 / 10)) else speed_limit.

(** ControllerInteractive::Step, CT/ControllerInteractive.cpp:51-114. [along] is where MoveAlongS takes the object by some distance (x, y, heading); SetInertiaPos
    puts it at the coordinates given. *)
Definition StepInteractive (i : inter) (o : obj) (dt speed_limit : R) (multilane : bool) (along : R -> R * R * R) : inter * obj :=
  let v := i_veh i in
  let m := MIN (i_factor i * limit speed_limit multilane) (b_max o) in
  let s := if i_long i then speed_ v else b_speed o in
  let v := Veh (x_ v) (y_ v) (h_ v) (vx_ v) (vy_ v) (vang_ v) (vrel_ v) s (wheel_ v) (rot_ v) (hdot_ v) (hand_ v) (len_ v) m (max_acc_ v) (max_dec_ v) (rate_ v)
             (ret_ v) (scale_ v) (drag_ v) (negb (i_long i)) (negb (i_lat i)) in
  let v := DrivingControlBinary v dt (i_acc i) (i_steer i) in
  let v :=
    if i_long i && negb (i_lat i) then
      let '(x, y, h) := along (speed_ v * dt) in
      Veh x y h (vx_ v) (vy_ v) (vang_ v) (vrel_ v) (speed_ v) (wheel_ v) (rot_ v) (hdot_ v) (hand_ v) (len_ v) (max_speed_ v) (max_acc_ v) (max_dec_ v) (rate_ v)
        (ret_ v) (scale_ v) (drag_ v) (no_throttle_ v) (no_steer_ v)
    else v in
  (Inter v (i_steer i) (i_acc i) (i_factor i) (i_long i) (i_lat i),
   Obj (if i_long i then speed_ v else b_speed o) (if i_lat i then wheel_ v else b_wheel o) (x_ v) (y_ v) (h_ v) (b_max o)).

(** ControllerInteractive::Activate, CT/ControllerInteractive.cpp:116-135, with the object linked: [len], [acc] and [dec] are its length and performance,
    [rate] the steering rate of the controller. *)
Definition ActivateInteractive (i : inter) (o : obj) (len acc dec rate : R) (long lat : bool) : inter :=
  Inter (Veh (b_x o) (b_y o) (b_h o) 0 0 0 0 (b_speed o) 0 0 0 false len 70 acc dec rate 4 (2 / 100) (1 / 1000) false false) None_ None_ (i_factor i) long lat.
