(** * Keeping a distance to another entity (LongDistanceAction, LatDistanceAction, OSCPrivateAction.cpp)

    [double] is idealised as [R].  A result [None] is the use of a variable that was not initialised, a division by zero or the square root of a negative
    number.  What is measured (the distance along the road, the free space, the difference of positions) is an argument, as are the speeds.
    OT = EnvironmentSimulator/Modules/ScenarioEngine/OSCTypeDefs, CM = EnvironmentSimulator/Modules/CommonMini,
    RM = EnvironmentSimulator/Modules/RoadManager, SE = EnvironmentSimulator/Modules/ScenarioEngine/SourceFiles. *)
From Coq Require Import Reals Bool List NArith.
From Verif Require Import AngModel GeoModel TransModel ProfModel CtrlModel.
Import ListNotations.
Open Scope R_scope.

(** One value of parseDynamicConstraints, SE/ScenarioReader.cpp:2706-2740: the attribute if there is one, the default and the performance of the object
    (LARGE_NUMBER without an object). *)
Definition parse_limit (attribute : option R) (default performance : R) : R :=
  match attribute with
  | None => performance
  | Some v =>
      if Rltb v SMALL_NUMBER then (if Rltb default performance then default else performance)
      else if Rltb performance v then performance else v
  end.

(** parseDynamicConstraints, SE/ScenarioReader.cpp:2677-2743: attributes maxSpeed, maxAcceleration, maxAccelerationRate, maxDeceleration,
    maxDecelerationRate, and maxSpeed, maxAcceleration, maxDeceleration of the object; the rates are those of a new action. *)
Definition parseDynamicConstraints (speed acc acc_rate dec dec_rate : option R) (p_speed p_acc p_dec : R) : limits :=
  Limits (parse_limit acc 5 p_acc) (parse_limit acc_rate LARGE_NUMBER LARGE_NUMBER) (parse_limit dec 10 p_dec)
         (parse_limit dec_rate LARGE_NUMBER LARGE_NUMBER) (parse_limit speed (250 / (18 / 5)) p_speed).

(** ** Along the road *)

(** LongDistanceAction::DistType, DisplacementType, OT/OSCPrivateAction.hpp:447-459. *)
Inductive dist_type := DISTANCE | TIME_GAP.
Inductive displacement := NONE | TRAILING | LEADING | ANY.

(** class LongDistanceAction, OT/OSCPrivateAction.hpp:444-521, with whether it runs. *)
Record long := Long { l_distance : R; l_type : dist_type; l_continuous : bool; l_displacement : displacement; l_limits : limits; l_acc : R; l_runs : bool }.

(** A change of displacement_, of acceleration_ and of whether the action runs. *)
Definition set_displacement (a : long) (d : displacement) : long := Long (l_distance a) (l_type a) (l_continuous a) d (l_limits a) (l_acc a) (l_runs a).
Definition set_acc (a : long) (x : R) : long := Long (l_distance a) (l_type a) (l_continuous a) (l_displacement a) (l_limits a) x (l_runs a).
Definition set_runs (a : long) (b : bool) : long := Long (l_distance a) (l_type a) (l_continuous a) (l_displacement a) (l_limits a) (l_acc a) b.

(** LongDistanceAction::Start, OT/OSCPrivateAction.cpp:1804-1842; [target] is whether there is a target object, [distance] what is measured. *)
Definition LongStart (a : long) (target : bool) (distance : R) : long :=
  if target then
    set_runs (match l_displacement a with
              | ANY => set_displacement a (if Rltb distance 0 then LEADING else TRAILING)
              | _ => a
              end) true
  else a.

(** The requested distance, OT/OSCPrivateAction.cpp:1869-1890. *)
Definition requested (a : long) (target_speed : R) : R :=
  let d := match l_type a with DISTANCE => l_distance a | TIME_GAP => Rabs target_speed * l_distance a end in
  match l_displacement a with TRAILING => Rabs d | LEADING => - Rabs d | _ => d end.

(** LONGITUDINAL_DISTANCE_THRESHOLD, OT/OSCPrivateAction.cpp:20. *)
Definition LONGITUDINAL_DISTANCE_THRESHOLD : R := 1 / 10.

(** The acceleration, OT/OSCPrivateAction.cpp:1910-1944. *)
Definition long_acceleration (L : limits) (acc0 diff speed_diff dt : R) : option R :=
  let tension := if Rltb diff 0 then max_acc L else max_dec L in
  let spring := tension * (4 / 10) in
  let* r := root spring in
  let dc := 2 * r in
  let acc := diff * spring - speed_diff * dc in
  let jerk := if Rltb acc 0 then - max_dec_rate L else max_acc_rate L in
  let acc := if Rltb acc 0 then (if Rltb acc (- max_dec L) then - max_dec L else acc) else (if Rltb (max_acc L) acc then max_acc L else acc) in
  Some (if Rltb jerk 0 && Rltb acc acc0 then RMAX (acc0 + jerk * dt) acc
        else if Rltb 0 jerk && Rltb acc0 acc then RMIN (acc0 + jerk * dt) acc
        else acc).

(** The speed, OT/OSCPrivateAction.cpp:1945-1954. *)
Definition long_speed (L : limits) (speed acc dt : R) : R :=
  let v := speed + acc * dt in
  if Rltb (max_speed L) v then max_speed L else if Rltb v (- max_speed L) then - max_speed L else v.

(** LongDistanceAction::Step, OT/OSCPrivateAction.cpp:1844-1956: the action, how far the object is moved along the road at once, and its speed;
    [overridden] is IsControllerModeOnDomains(MODE_OVERRIDE, DOMAIN_MASK_LONG). *)
Definition LongStep (a : long) (overridden : bool) (distance speed target_speed dt : R) : option (long * R * R) :=
  if overridden then Some (a, 0, speed)
  else
    let L := l_limits a in
    let diff := distance - requested a target_speed in
    let a := if negb (l_continuous a) && Rltb (Rabs diff) LONGITUDINAL_DISTANCE_THRESHOLD then set_runs a false else a in
    if negb (Rltb (max_acc L) LARGE_NUMBER) && negb (Rltb (max_dec L) LARGE_NUMBER) then Some (a, diff, target_speed)
    else
      let* acc := long_acceleration L (l_acc a) diff (speed - target_speed) dt in
      Some (set_acc a acc, 0, long_speed L speed acc dt).

(** ** Across the road *)

(** class DampedSpring, CM/CommonMini.hpp:1290-1384: the members, the constructor with critical damping, Update, SetValue, SetV, SetTension.
    (The square root of a negative tension is that of its [sqrt], 0.) *)
Record spring := Spring { s_x : R; s_x0 : R; s_t : R; s_d : R; s_v : R; s_a : R; s_critical : bool }.
Definition critical_spring (x x0 tension : R) : spring := Spring x x0 tension (2 * sqrt tension) 0 0 true.
Definition SpringUpdate (s : spring) (dt : R) : spring :=
  let a := - s_t s * (s_x s - s_x0 s) - s_d s * s_v s in
  let v := s_v s + a * dt in
  Spring (s_x s + v * dt) (s_x0 s) (s_t s) (s_d s) v a (s_critical s).
Definition SetValue (s : spring) (x : R) : spring := Spring x (s_x0 s) (s_t s) (s_d s) (s_v s) (s_a s) (s_critical s).
Definition SetV (s : spring) (v : R) : spring := Spring (s_x s) (s_x0 s) (s_t s) (s_d s) v (s_a s) (s_critical s).
Definition SetTension (s : spring) (t : R) : spring :=
  Spring (s_x s) (s_x0 s) t (if s_critical s then 2 * sqrt t else s_d s) (s_v s) (s_a s) (s_critical s).

(** LatDistanceAction::MoveState, DisplacementType, OT/OSCPrivateAction.hpp:526-544; the coordinate systems, RM/RoadManager.hpp. *)
Inductive move_state := INIT | MOVE_RIGID | MOVE_DYNAMIC.
Inductive side := NO_SIDE | LEFT | RIGHT | ANY_SIDE.
Inductive coords := CS_ENTITY | CS_ROAD | CS_OTHER.

(** class LatDistanceAction, OT/OSCPrivateAction.hpp:523-623, with whether it runs; old_x_ and old_y_ are a pair. *)
Record lat := Lat { t_distance : R; t_freespace : bool; t_continuous : bool; t_side : side; t_limits : limits; t_cs : coords;
                    t_move : move_state; t_vel : R; t_acc : R; t_spring : spring; t_old : R * R; t_sign : R; t_runs : bool }.

(** Changes of move_state_; of whether the action runs; of lat_vel_, acceleration_ and spring_; of old_x_ and old_y_. *)
Definition set_move (a : lat) (m : move_state) : lat :=
  Lat (t_distance a) (t_freespace a) (t_continuous a) (t_side a) (t_limits a) (t_cs a) m (t_vel a) (t_acc a) (t_spring a) (t_old a) (t_sign a) (t_runs a).
Definition set_running (a : lat) (b : bool) : lat :=
  Lat (t_distance a) (t_freespace a) (t_continuous a) (t_side a) (t_limits a) (t_cs a) (t_move a) (t_vel a) (t_acc a) (t_spring a) (t_old a) (t_sign a) b.
Definition set_motion (a : lat) (v acc : R) (s : spring) : lat :=
  Lat (t_distance a) (t_freespace a) (t_continuous a) (t_side a) (t_limits a) (t_cs a) (t_move a) v acc s (t_old a) (t_sign a) (t_runs a).
Definition set_old (a : lat) (p : R * R) : lat :=
  Lat (t_distance a) (t_freespace a) (t_continuous a) (t_side a) (t_limits a) (t_cs a) (t_move a) (t_vel a) (t_acc a) (t_spring a) p (t_sign a) (t_runs a).

(** LatDistanceAction::Start, OT/OSCPrivateAction.cpp:1971-2043; [target] is whether there is a target object, [w] and [tw] are the widths. *)
Definition LatStart (a : lat) (target : bool) (w tw : R) : lat :=
  if target then
    let sd := match t_side a with ANY_SIDE => LEFT | s => s end in
    let '(d, sign) :=
      match t_cs a with
      | CS_ENTITY =>
          let d := if t_freespace a then t_distance a + (w + tw) / 2 else t_distance a in
          ((match sd with RIGHT => d * -1 | _ => d * 1 end), t_sign a)
      | CS_ROAD =>
          let '(d, sign) := match sd with LEFT => (- Rabs (t_distance a), -1) | RIGHT => (Rabs (t_distance a), 1) | _ => (t_distance a, t_sign a) end in
          ((if t_freespace a then d + sign * (w + tw) / 2 else d), sign)
      | CS_OTHER => (t_distance a, t_sign a)
      end in
    Lat d (t_freespace a) (t_continuous a) sd (t_limits a) (t_cs a) INIT (t_vel a) (t_acc a) (t_spring a) (t_old a) sign true
  else a.

(** Position::Delta of two positions on one road, RM/RoadManager.cpp:11708-11817: dt and dDirection, from the position with [ta] and [ha] to that with
    [tb] and [hb] (t coordinates, headings relative to the road). *)
Definition road_delta (ta ha tb hb : R) : R * bool := (tb - ta, eqb (IsAngleForward ha) (IsAngleForward hb)).

(** GetDistanceError, OT/OSCPrivateAction.cpp:2069-2099, for the road coordinate system: [delta] is what Delta finds, [h] the heading of the object
    relative to the road.  Without a path the action ends and distance_error is not written. *)
Definition GetDistanceError (a : lat) (delta : option (R * bool)) (h : R) : lat * option R :=
  match delta with
  | None => (set_running a false, None)
  | Some (d, same) =>
      let forward := IsAngleForward h in
      (a, Some (if (forward && same) || (negb forward && negb same) then - (d + t_distance a) else - (d - t_distance a)))
  end.

(** LATERAL_DISTANCE_THRESHOLD, OT/OSCPrivateAction.cpp:21. *)
Definition LATERAL_DISTANCE_THRESHOLD : R := 1 / 100.

(** GetDesiredRoadPos, OT/OSCPrivateAction.cpp:2045-2067, for the road coordinate system: the point wanted.  (Finding it in track coordinates and back
    is left out.) *)
Definition GetDesiredRoadPos (err x y road_h : R) : R * R := (x + - sin road_h * err, y + cos road_h * err).

(** The rigid move, OT/OSCPrivateAction.cpp:2255-2282: the action and the new point and heading. *)
Definition rigid_step (a : lat) (delta : option (R * bool)) (h x y road_h : R) : option (lat * (R * R * R)) :=
  let '(a, err) := GetDistanceError a delta h in
  let* e := err in
  let '(nx, ny) := GetDesiredRoadPos e x y road_h in
  let heading := atan2 (ny - snd (t_old a)) (nx - fst (t_old a)) in
  let a := if negb (t_continuous a) && Rltb (Rabs e) LATERAL_DISTANCE_THRESHOLD then set_running (set_move a INIT) false else a in
  Some (set_old a (nx, ny), (nx, ny, heading)).

(** The limit of the lateral speed, OT/OSCPrivateAction.cpp:2309, 2321. *)
Definition lateral_limit (L : limits) (speed : R) : R := RMIN (max_speed L) speed - SMALL_NUMBER.

(** The lateral speed of a dynamic move, OT/OSCPrivateAction.cpp:2289-2337; [tv] is the lateral velocity of the target. *)
Definition dynamic_speed (a : lat) (e speed tv dt : R) : option lat :=
  let L := t_limits a in
  if negb (Reqb LARGE_NUMBER (max_acc L)) then
    let s := SpringUpdate (SetV (SetValue (t_spring a) (- e)) (t_vel a - tv)) dt in
    let delta_accel := CLAMP (s_a s - t_acc a) (- (max_acc_rate L * dt)) (max_acc_rate L * dt) in
    let acc := CLAMP (t_acc a + delta_accel) (- max_acc L) (max_acc L) in
    let a := set_motion a (ABS_LIMIT (t_vel a + acc * dt) (lateral_limit L speed)) acc s in
    Some (if negb (t_continuous a) && Rltb (Rabs e) LATERAL_DISTANCE_THRESHOLD then set_running (set_move a INIT) false else a)
  else
    let v := SIGN e * lateral_limit L speed in
    if Reqb (SIGN (e - v * dt)) (SIGN e) then Some (set_motion a v (t_acc a) (t_spring a))
    else
      let* v := div e dt in
      let a := set_motion a v (t_acc a) (t_spring a) in
      Some (if t_continuous a then a else set_running a false).

(** The dynamic move, OT/OSCPrivateAction.cpp:2284-2356: the action and how far the object is moved along the road and across it; [next] is the point
    where it is then. *)
Definition dynamic_step (a : lat) (delta : option (R * bool)) (h speed tv dt : R) (next : R * R) : option (lat * (R * R)) :=
  let '(a, err) := GetDistanceError a delta h in
  let* e := err in
  let* a := dynamic_speed a e speed tv dt in
  let* long_vel := root (speed * speed - t_vel a * t_vel a) in
  Some (set_old a next, (long_vel * dt, t_vel a * dt)).

(** What a step of the lateral action does to the object. *)
Inductive lat_move := Still | Put (x y h : R) | Drive (along across : R).

(** The first step on a road, OT/OSCPrivateAction.cpp:2237-2253. *)
Definition init_step (a : lat) (x y : R) : lat :=
  let L := t_limits a in
  set_old (if negb (Rltb (max_speed L) LARGE_NUMBER) && negb (Rltb (max_acc L) LARGE_NUMBER) && negb (Rltb (max_dec L) LARGE_NUMBER) then set_move a MOVE_RIGID
           else set_move (set_motion a (t_vel a) (t_acc a) (SetTension (t_spring a) (4 / 10 * max_acc L))) MOVE_DYNAMIC) (x, y).

(** The step relative to the target entity, OT/OSCPrivateAction.cpp:2110-2232: new point and heading of the object at [x], [y], [h] with [speed];
    [tx], [ty], [th] are those of the target.  (delta_norm is not used.) *)
Definition entity_step (a : lat) (x y h speed tx ty th dt : R) : option (R * R * R) :=
  let L := t_limits a in
  let step_len := speed * dt in
  let '(ax, ay) := RotateVec2D 1 0 th in
  let '(ox, oy) := RotateVec2D 0 (t_distance a) th in
  let '(_, px, py) := ProjectPointOnLine2D x y (tx + ox) (ty + oy) (tx + ox + ax) (ty + oy + ay) in
  let dx := px - x in let dy := py - y in
  let dist := GetLengthOfVector2D dx dy in
  if negb (Rltb (max_acc L) LARGE_NUMBER) then
    if Rltb dist (Rabs speed * dt) then
      let remains := Rabs speed * dt - dist in Some (px + ax * remains, py + ay * remains, th)
    else Some (px, py, th)
  else if Rltb dist SMALL_NUMBER then Some (x + ax * step_len, y + ay * step_len, th)
  else
    let* q := div (3 / 2 * (speed * speed)) (RMIN (Rabs (max_acc L)) 1000) in
    let turn_radius := RMAX (1 / 2) q in
    let dh_max := RMIN (Rabs (speed / turn_radius * dt) * (3 / 2)) (PI - SMALL_NUMBER) in
    if Rltb dist (step_len / 2 - SMALL_NUMBER) && Rltb (turn_radius - SMALL_NUMBER) (step_len / 2) then
      match GetIntersectionsOfLineAndCircle (tx + ox) (ty + oy) (tx + ox + ax) (ty + oy + ay) x y step_len with
      | Some (TwoHits (x0, y0) (x1, y1)) =>
          let h0 := GetAngleOfVector (x0 - x) (y0 - y) in
          let h1 := GetAngleOfVector (x1 - x) (y1 - y) in
          Some (if Rltb (GetAbsAngleDifference h0 th) (GetAbsAngleDifference h1 th) then (x0, y0, h0) else (x1, y1, h1))
      | _ => None
      end
    else
      let dh :=
        if Rltb (turn_radius - SMALL_NUMBER) dist then ABS_LIMIT (GetAngleDifference (atan2 (py - y) (px - x)) h) dh_max
        else
          let h_diff_delta := GetAngleDifference (GetAngleOfVector dx dy) h in
          let h_diff_heading := GetAngleDifference (GetAngleOfVector ax ay) h in
          let d_angle := step_len / turn_radius in
          let angle := RMAX (acos (1 - dist / turn_radius)) (d_angle / 2) in
          let w := (2 * angle - d_angle / 2) / PI in
          let w := 3 * (w * w) - 2 * (w * w * w) in
          ABS_LIMIT (w * h_diff_delta + (1 - w) * h_diff_heading) dh_max in
      let new_heading := GetAngleInInterval2PI (h + dh) in
      Some (x + cos new_heading * step_len, y + sin new_heading * step_len, new_heading).

(** LatDistanceAction::Step, OT/OSCPrivateAction.cpp:2101-2360: [overridden] is IsControllerModeOnDomains of [lat_mask] below, [road_h] the heading of
    the road, [hr] the heading of the object relative to it, [next] the point where a dynamic move ends. *)
Definition LatStep (a : lat) (overridden : bool) (delta : option (R * bool)) (x y h hr road_h speed tx ty th tv dt : R) (next : R * R) : option (lat * lat_move) :=
  if overridden then Some (a, Still)
  else
    match t_cs a with
    | CS_ENTITY => let* p := entity_step a x y h speed tx ty th dt in let '(nx, ny, nh) := p in Some (a, Put nx ny nh)
    | CS_ROAD =>
        match t_move a with
        | INIT => Some (init_step a x y, Still)
        | MOVE_RIGID => let* p := rigid_step a delta hr x y road_h in let '(b, (nx, ny, nh)) := p in Some (b, Put nx ny nh)
        | MOVE_DYNAMIC => let* p := dynamic_step a delta hr speed tv dt next in let '(b, (s, t)) := p in Some (b, Drive s t)
        end
    | CS_OTHER => Some (a, Still)
    end.

(** The masks the two actions pass to IsControllerModeOnDomains, OT/OSCPrivateAction.cpp:1848 and 2104 (the lateral one a domain, not its mask), and give
    as their own domains, OT/OSCPrivateAction.hpp:471 and 556. *)
Definition long_mask : N := MASK_LONG.
Definition lat_mask : N := N.of_nat DOMAIN_LAT.
Definition overridden (w : world) (o : N) (mask : N) : bool := IsControllerModeOnDomains w o MODE_OVERRIDE mask TYPE_UNDEFINED.
