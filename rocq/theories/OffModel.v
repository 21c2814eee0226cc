(** * Following another vehicle off the road (ControllerOffroadFollower)

    CT = EnvironmentSimulator/Modules/Controllers, CM = EnvironmentSimulator/Modules/CommonMini, RM = EnvironmentSimulator/Modules/RoadManager. [double] is
    idealised as [R]: rounding, infinities and NaN are left out. z, pitch and roll are left out. *)
From Coq Require Import Reals Bool List.
From Verif Require Import AngModel BoxModel AccModel GeoModel VehModel.
Import ListNotations.
Open Scope R_scope.

(** ControllerOffroadFollower, CT/ControllerOffroadFollower.hpp: the vehicle, target_distance_, steering_rate_ and speed_factor_. *)
Record off := Off { f_veh : veh; f_dist : R; f_rate : R; f_factor : R }.
(** An entity: coordinates, heading, speed, wheel angle, performance_.maxSpeed. *)
Record ent := Ent { e_x : R; e_y : R; e_h : R; e_speed : R; e_wheel : R; e_max : R }.

(** The default values of the constructor, CT/ControllerOffroadFollower.cpp:30-34. *)
Definition default_off (v : veh) : off := Off v 20 4 1.

(** GetLengthOfVector2D, CM/CommonMini.cpp:776-779. *)
Definition length2 (x y : R) : R := sqrt (x * x + y * y).

(** Vehicle::SetMaxSpeed, CT/vehicle.hpp. *)
Definition set_max (v : veh) (m : R) : veh :=
  Veh (x_ v) (y_ v) (h_ v) (vx_ v) (vy_ v) (vang_ v) (vrel_ v) (speed_ v) (wheel_ v) (rot_ v) (hdot_ v) (hand_ v) (len_ v) m (max_acc_ v) (max_dec_ v) (rate_ v) (ret_ v)
    (scale_ v) (drag_ v) (no_throttle_ v) (no_steer_ v).

(** Steering and throttle, CT/ControllerOffroadFollower.cpp:81-91. *)
Definition steering (o lead : ent) : R := ABS_LIMIT (GetAngleDifference (GetAngleOfVector (e_x lead - e_x o) (e_y lead - e_y o)) (e_h o)) 1.
Definition throttle (target_distance : R) (o lead : ent) : R :=
  ABS_LIMIT (1 / 2 * (length2 (e_x lead - e_x o) (e_y lead - e_y o) - target_distance) - 1 / 2 * (e_speed o - e_speed lead)) 1.

(** ControllerOffroadFollower::Step, CT/ControllerOffroadFollower.cpp:71-110; [None] for no entity to follow. [limit] is what Position::GetSpeedLimit
    (RM/RoadManager.cpp:11194-11211) returns; SetInertiaPosMode puts the object at the coordinates given. *)
Definition StepOff (f : off) (o : ent) (lead : option ent) (limit dt : R) : off * ent :=
  match lead with
  | None => (f, o)
  | Some l =>
      let v := set_max (f_veh f) (MIN (12 / 10 * limit) (e_max o)) in
      let v := DrivingControlAnalog v dt (throttle (f_dist f) o l) (steering o l) in
      (Off v (f_dist f) (f_rate f) (f_factor f), Ent (x_ v) (y_ v) (h_ v) (speed_ v) (wheel_ v) (e_max o))
  end.

(** ControllerOffroadFollower::Activate, CT/ControllerOffroadFollower.cpp:112-128, with the object linked: [len], [acc] and [dec] are its length and
    performance; the strategy in junctions is left out. *)
Definition ActivateOff (f : off) (o : ent) (len acc dec : R) : off :=
  Off (Veh (e_x o) (e_y o) (e_h o) 0 0 0 0 (e_speed o) 0 0 0 false len 70 acc dec (f_rate f) 4 (2 / 100) (1 / 1000) false false) (f_dist f) (f_rate f) (f_factor f).
