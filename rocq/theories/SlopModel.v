(** * A driver who keeps neither speed nor lane (ControllerSloppyDriver.cpp)

    [double] is idealised as [R], abs as that of double; a division by zero is [None]. The object is what the controller sees and
    sets of it. Of MoveAlongS only the distance asked for is kept, of SetTrackPos that it puts the object at the t given; the
    heading of the road where the object then is is an argument, on it SetHeading and SetHeadingRelative are taken to be exact.
    CT = EnvironmentSimulator/Modules/Controllers, CM = EnvironmentSimulator/Modules/CommonMini, RM = EnvironmentSimulator/Modules/RoadManager,
    SE = EnvironmentSimulator/Modules/ScenarioEngine/SourceFiles. *)
From Coq Require Import Reals Bool.
From Verif Require Import AngModel.
Open Scope R_scope.

(** SE_SimulationTimer: its members, Expired and Elapsed, CM/CommonMini.hpp:1239-1288. *)
Record timer := Timer { t_start : R; t_dur : R }.
Definition Elapsed (t : timer) (now : R) : R := now - t_start t.
Definition Expired (t : timer) (now : R) : bool := Rltb (t_dur t - SMALL_NUMBER) (now - t_start t).

(** What the controller uses of the object: speed_, whether DirtyBit::SPEED is set, the sum of the distances of MoveAlongS, t, h_ and
    h_relative_; SE/Entities.hpp:485-493, RM/RoadManager.cpp:10949-10965. *)
Record obj := Obj { o_speed : R; o_dirty : bool; o_s : R; o_t : R; o_h : R; o_hrel : R }.

(** The members of ControllerSloppyDriver, CT/ControllerSloppyDriver.hpp:86-102, without the averages of the timers, which are constant. *)
Record drv := Drv { d_slop : R; d_time : R; d_timer : timer; d_ref : R; d_init : R; d_cur : R; d_factor : R;
                    d_lat : timer; d_T : R; d_fuzz0 : R; d_fuzz1 : R; d_H : R }.

(** speedTimerAverage_ and lateralTimerAverage_, CT/ControllerSloppyDriver.cpp:187 and 192. *)
Definition speedTimerAverage : R := 3.
Definition lateralTimerAverage : R := 3 / 2.

(** The mode, MODE_OVERRIDE or not, and the domains the controller is active on. *)
Record setup := Setup { override : bool; on_long : bool; on_lat : bool }.

(** SE_Rand::GetRealBetween, CM/CommonMini.hpp:1431-1434; [u] is the number drawn between 0 and 1. *)
Definition between (min max u : R) : R := min + u * (max - min).

(** The numbers of one step in the order they are drawn. *)
Record draws := Draws { w_time : R; w_factor : R; w_fuzz : R; w_lat : R }.

(** A division of C++ whose divisor must not be zero. *)
Definition div (x y : R) : option R := if Req_EM_T y 0 then None else Some (x / y).

(** Object::SetSpeed, SE/Entities.hpp:485-489. *)
Definition SetSpeed (v : R) (o : obj) : obj := Obj v true (o_s o) (o_t o) (o_h o) (o_hrel o).

(** ControllerSloppyDriver::Step before the domains, CT/ControllerSloppyDriver.cpp:66-75. *)
Definition refresh (dt : R) (d : drv) (o : obj) : drv :=
  let ref := if Rltb (1 / 1000) (Rabs (o_speed o - d_cur d)) then o_speed o else d_ref d in
  Drv (d_slop d) (d_time d + dt) (d_timer d) ref (d_init d) (o_speed o) (d_factor d) (d_lat d) (d_T d) (d_fuzz0 d) (d_fuzz1 d) (d_H d).

(** The timer of the speed, CT/ControllerSloppyDriver.cpp:80-89. *)
Definition new_period (w : draws) (d : drv) : drv :=
  if Expired (d_timer d) (d_time d) then
    Drv (d_slop d) (d_time d) (Timer (d_time d) (speedTimerAverage * between (1 / 2) (3 / 2) (w_time w))) (d_ref d) (d_ref d * d_factor d)
        (d_cur d) (1 + d_slop d * between (- (35 / 100)) (35 / 100) (w_factor w)) (d_lat d) (d_T d) (d_fuzz0 d) (d_fuzz1 d) (d_H d)
  else d.

(** currentSpeed_ := v. *)
Definition with_cur (v : R) (d : drv) : drv :=
  Drv (d_slop d) (d_time d) (d_timer d) (d_ref d) (d_init d) v (d_factor d) (d_lat d) (d_T d) (d_fuzz0 d) (d_fuzz1 d) (d_H d).

(** The longitudinal part, CT/ControllerSloppyDriver.cpp:78-120. *)
Definition step_long (c : setup) (dt : R) (w : draws) (d : drv) (o : obj) : option (drv * obj) :=
  let d := new_period w d in
  match div (Elapsed (d_timer d) (d_time d)) (t_dur (d_timer d)) with
  | None => None
  | Some weight =>
    let v := d_init d * (1 - weight) + d_factor d * d_ref d * weight in
    let v := Rmax v 0 in
    let '(steplen, o) :=
      if override c then (v * dt, SetSpeed v o)
      else if o_dirty o then ((v - d_ref d) * dt, o) else ((v - o_speed o) * dt, o) in
    let o := if Rltb SMALL_NUMBER (Rabs (o_speed o)) then Obj (o_speed o) (o_dirty o) (o_s o + steplen) (o_t o) (o_h o) (o_hrel o) else o in
    Some (with_cur v d, o)
  end.

(** The timer of the lateral deviation, CT/ControllerSloppyDriver.cpp:124-133. *)
Definition new_fuzz (w : draws) (d : drv) : drv :=
  if Expired (d_lat d) (d_time d) then
    Drv (d_slop d) (d_time d) (d_timer d) (d_ref d) (d_init d) (d_cur d) (d_factor d)
        (Timer (d_time d) (lateralTimerAverage * between (1 / 2) (3 / 2) (w_lat w))) (d_T d) (d_fuzz1 d)
        (5 * d_slop d * Rmin (d_slop d) 1 * between (1 / 2) (3 / 2) (w_fuzz w)) (d_H d)
  else d.

(** The lateral part, CT/ControllerSloppyDriver.cpp:122-172; Position::SetHeading and SetHeadingRelative, RM/RoadManager.cpp:10949-10965. *)
Definition step_lat (c : setup) (road dt : R) (w : draws) (d : drv) (o : obj) : option (drv * obj) :=
  let d := new_fuzz w d in
  let h_error := if override c then o_hrel o else d_H d in
  let h_error := if Rltb PI h_error then h_error - 2 * PI else h_error in
  match div ((d_fuzz1 d - d_fuzz0 d) * Elapsed (d_lat d) (d_time d)) (t_dur (d_lat d)) with
  | None => None
  | Some q =>
    let tFuzz := d_fuzz0 d + q in
    let lat_error := d_T d + tFuzz in
    let dh := (- (2 / 100) * lat_error + - (5 / 100) * h_error) * dt * o_speed o in
    let dlat := o_speed o * dt * sin (d_H d + dh) in
    if Rltb SMALL_NUMBER (o_speed o) then
      let '(h, hrel) :=
        if override c then (d_H d + dh, GetAngleInInterval2PI (d_H d + dh - road))
        else (GetAngleInInterval2PI (GetAngleInInterval2PI (o_hrel o + dh) + road), GetAngleInInterval2PI (o_hrel o + dh)) in
      Some (Drv (d_slop d) (d_time d) (d_timer d) (d_ref d) (d_init d) (d_cur d) (d_factor d) (d_lat d) (d_T d + dlat) (d_fuzz0 d) (d_fuzz1 d) (d_H d + dh),
            Obj (o_speed o) (o_dirty o) (o_s o) (o_t o + dlat) h hrel)
    else Some (d, o)
  end.

(** ControllerSloppyDriver::Step, CT/ControllerSloppyDriver.cpp:59-177, with an object. *)
Definition Step (c : setup) (road dt : R) (w : draws) (d : drv) (o : obj) : option (drv * obj) :=
  let d := refresh dt d o in
  match (if on_long c then step_long c dt w d o else Some (d, o)) with
  | None => None
  | Some (d, o) =>
    match (if on_lat c then step_lat c road dt w d o else Some (d, o)) with
    | None => None
    | Some (d, o) => Some (d, SetSpeed (d_cur d) o)
    end
  end.

(** ControllerSloppyDriver::Activate, CT/ControllerSloppyDriver.cpp:179-201, with an object; time_ goes on. *)
Definition Activate (slop time : R) (o : obj) : drv :=
  Drv slop time (Timer 0 speedTimerAverage) (o_speed o) (o_speed o) (o_speed o) 1 (Timer 0 lateralTimerAverage) 0 0 0 (o_hrel o).
