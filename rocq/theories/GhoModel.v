(** * Following a ghost (ControllerFollowGhost)

    CT = EnvironmentSimulator/Modules/Controllers, CM = EnvironmentSimulator/Modules/CommonMini. [double] is idealised as [R]: rounding, infinities and NaN
    are left out. z, pitch and what is only drawn (sensor_pos_) are left out. *)
From Coq Require Import Reals Bool List.
From Verif Require Import AngModel BoxModel AccModel VehModel.
Import ListNotations.
Open Scope R_scope.

(** What is used of a point of the trail (roadmanager::TrajVertex): its coordinates and the speed of the ghost there. *)
Record gpoint := Gpoint { g_x : R; g_y : R; g_speed : R }.

(** FollowMode and the parameters, CT/ControllerFollowGhost.hpp; the active domains as two flags (Controller::IsActiveOnDomains, CT/Controller.cpp:182-190). *)
Inductive follow_mode := ByPosition | ByTime.
Record gho := Gho {
  f_veh : veh; f_mode : follow_mode; f_headstart : R; f_look_speed : R; f_min_speed : R; f_look_steer : R; f_min_steer : R; f_inertia : R;
  f_long : bool; f_lat : bool }.

(** The object: coordinates, heading, speed, wheel angle and rotation. *)
Record gobj := Gobj { o_x : R; o_y : R; o_h : R; o_speed : R; o_wheel : R; o_rot : R }.

(** The default values of the constructor, CT/ControllerFollowGhost.cpp:37-45. *)
Definition default_gho (v : veh) (long lat : bool) : gho := Gho v ByTime 3 (1 / 10) (1 / 10) 1 1 (1 / 100) long lat.

(** GetCrossProduct2D, CM/CommonMini.cpp:1567-1570. *)
Definition cross (x1 y1 x2 y2 : R) : R := x1 * y2 - x2 * y1.
(** RotateVec2D, CM/CommonMini.cpp:786-790. *)
Definition rotate (x y a : R) : R * R := (x * cos a - y * sin a, x * sin a + y * cos a).

(** The direction to the target, CT/ControllerFollowGhost.cpp:199-216. *)
Definition direction (x y h tx ty : R) : R :=
  let dx := tx - x in
  let dy := ty - y in
  let len := sqrt (dx * dx + dy * dy) in
  let '(dx, dy) := if Rltb SMALL_NUMBER len then (dx / len, dy / len) else (0, 0) in
  let '(ex, ey) := rotate 1 0 h in
  asin (cross ex ey dx dy).

(** The trail of the ghost: the point some distance ahead of the closest one (FindClosestPoint and FindPointAhead) and the point of some time (FindPointAtTime);
    [None] is GHOST_TRAIL_NO_VERTICES or GHOST_TRAIL_ERROR. Both are universally quantified in the theorems; that the search starts at the index found last is part
    of them. *)
Record trail := Trail { ahead : R -> option gpoint; at_time : R -> option gpoint }.

(** Speed and coordinates aimed at, CT/ControllerFollowGhost.cpp:144-192: both lookups have to succeed. *)
Definition target (g : gho) (o : gobj) (t : trail) (now : R) : R * R * R :=
  let found :=
    match f_mode g with
    | ByPosition =>
        match ahead t (MAX (f_min_speed g) (f_look_speed g * o_speed o)) with
        | Some sp => match ahead t (MAX (f_min_steer g) (f_look_steer g * o_speed o)) with Some st => Some (sp, st) | None => None end
        | None => None
        end
    | ByTime =>
        match at_time t (now - f_headstart g + MAX (f_min_speed g) (f_look_speed g)) with
        | Some sp => match at_time t (now - f_headstart g + MAX (f_min_steer g) (f_look_steer g)) with Some st => Some (sp, st) | None => None end
        | None => None
        end
    end in
  match found with
  | Some (sp, st) => (g_speed sp, g_x st, g_y st)
  | None => (0, o_x o, o_y o)
  end.

(** ControllerFollowGhost::Step, CT/ControllerFollowGhost.cpp:110-243; [None] for no ghost. SetInertiaPos puts the object at the coordinates given. *)
Definition StepGhost (g : gho) (o : gobj) (ghost : option trail) (now dt : R) : gho * gobj :=
  match ghost with
  | None => (g, o)
  | Some t =>
      let '(s, tx, ty) := target g o t now in
      let v := DrivingControlTarget (f_veh g) dt s (direction (o_x o) (o_y o) (o_h o) tx ty) in
      (Gho v (f_mode g) (f_headstart g) (f_look_speed g) (f_min_speed g) (f_look_steer g) (f_min_steer g) (f_inertia g) (f_long g) (f_lat g),
       Gobj (x_ v) (y_ v) (h_ v) (speed_ v) (if f_lat g then wheel_ v else o_wheel o) (if f_long g then rot_ v else o_rot o))
  end.

(** ControllerFollowGhost::Activate, CT/ControllerFollowGhost.cpp:245-263, with the object linked; [len] is its length. *)
Definition ActivateGhost (g : gho) (o : gobj) (len : R) (long lat : bool) : gho :=
  Gho (Veh (o_x o) (o_y o) (o_h o) 0 0 0 0 (o_speed o) 0 0 0 false len 100 10 20 5 4 (f_inertia g) (1 / 1000) false false)
    (f_mode g) (f_headstart g) (f_look_speed g) (f_min_speed g) (f_look_steer g) (f_min_steer g) (f_inertia g) long lat.
