(** * Adaptive cruise control (ControllerACC.cpp)

    [double] is idealised as [R]; the limit of deceleration divided by is not 0.  What Position::Delta and Object::FreeSpaceDistance return for another object is
    part of the description of that object, at each step any.  Logging, the sensor shown by a player and the sums of Controller::Step are left out.
    CO = EnvironmentSimulator/Modules/Controllers, SE = EnvironmentSimulator/Modules/ScenarioEngine/SourceFiles, CM = EnvironmentSimulator/Modules/CommonMini. *)
From Coq Require Import Reals Bool List ZArith.
From Verif Require Import AngModel BoxModel.
Import ListNotations.
Open Scope R_scope.

(** CLAMP, CM/CommonMini.hpp:62. *)
Definition CLAMP (x lo hi : R) : R := MIN hi (MAX lo x).

(** The members of the controller, CO/ControllerACC.hpp:48-55, with mode_ of the base class ([true]: MODE_OVERRIDE). *)
Record acc := Acc { a_timeGap : R; a_set : R; a_lat : R; a_cur : R; a_given : bool; a_virtual : bool; a_override : bool }.

(** The object controlled: GetSpeed, heading, length and middle of the bounding box, GetMaxAcceleration, GetMaxDeceleration. *)
Record ego := Ego { e_speed : R; e_h : R; e_len : R; e_cx : R; e_up : R; e_down : R }.

(** struct PositionDiff, members ds, dt, dLaneId. *)
Record diff := Diff { d_s : R; d_t : R; d_lane : Z }.

(** Another object: what Delta gives at a look ahead distance ([None]: false, no path), heading, length and middle of its box, speed, and the longitudinal and
    lateral distances of FreeSpaceDistance. *)
Record other := Other { o_delta : R -> option diff; o_h : R; o_len : R; o_cx : R; o_speed : R; o_lon : R; o_side : R }.

(** minDist, accelerationFactor: CO/ControllerACC.cpp:88-89. *)
Definition minDist : R := 3.
Definition accelerationFactor : R := 7 / 10.

(** Speed set from somewhere else, CO/ControllerACC.cpp:92-102. *)
Definition notice (c : acc) (e : ego) : acc :=
  if a_virtual c then Acc (a_timeGap c) (a_set c) (a_lat c) (e_speed e) (a_given c) (a_virtual c) (a_override c)
  else if Rltb (1 / 1000) (Rabs (e_speed e - a_cur c))
  then Acc (a_timeGap c) (e_speed e) (a_lat c) (a_cur c) (a_given c) (a_virtual c) (a_override c)
  else c.

(** lookaheadDist, CO/ControllerACC.cpp:106. *)
Definition lookaheadDist (c : acc) (e : ego) : R := MAX 50 (2 * minDist - a_cur c ^ 2 / - e_down e).

(** adjustedGapLength, CO/ControllerACC.cpp:122-133. *)
Definition adjustedGapLength (e : ego) (o : other) (ds : R) : R :=
  if Rltb (GetAbsAngleDifference (e_h e) (o_h o)) (PI / 2)
  then ds - ((e_len e / 2 + e_cx e) + (o_len o / 2 - o_cx o))
  else ds - ((e_len e / 2 + e_cx e) + (o_len o / 2 + o_cx o)).

(** minGapLength and minObjIndex ([None]: -1). *)
Definition best := (R * option nat)%type.

(** An object on a path ahead, CO/ControllerACC.cpp:116-141. *)
Definition ahead (c : acc) (e : ego) (look : R) (i : nat) (o : other) (b : best) : best :=
  match o_delta o look with
  | Some d =>
      let gap := adjustedGapLength e o (d_s d) in
      if (d_lane d =? 0)%Z && Rltb 0 gap && Rltb gap (fst b) && Rltb (Rabs (d_t d)) (a_lat c) then (gap, Some i) else b
  | None => b
  end.

(** An object really close in front, CO/ControllerACC.cpp:144-157. *)
Definition close (c : acc) (o : other) : bool :=
  Rltb 0 (o_lon o) && Rltb (o_lon o) (1 + o_len o + 1 / 2 * MAX 0 (a_cur c - o_speed o)) && Rltb (o_side o) (2 / 10) && Rltb (- (5 / 10)) (o_side o).
Definition near (c : acc) (i : nat) (o : other) (b : best) : best :=
  let same := match snd b with Some k => Nat.eqb k i | None => false end in
  if negb same then (if close c o then (o_lon o, Some i) else b) else b.

(** The loop over entities_->object_, CO/ControllerACC.cpp:107-158, from index [i] on; [None]: a null pointer or the object itself. *)
Fixpoint choose (c : acc) (e : ego) (look : R) (i : nat) (l : list (option other)) (b : best) : best :=
  match l with
  | [] => b
  | None :: r => choose c e look (S i) r b
  | Some o :: r => choose c e look (S i) r (near c i o (ahead c e look i o b))
  end.
Definition lead (c : acc) (e : ego) (l : list (option other)) : best := choose c e (lookaheadDist c e) 0 l (LARGE_NUMBER, None).

(** Acceleration and speed behind a lead vehicle, CO/ControllerACC.cpp:163-185. *)
Definition follow (c : acc) (e : ego) (gap vlead dt : R) : R * R :=
  if Rltb gap 1 then (0, 0)
  else
    let speedForTimeGap := MAX (a_cur c) vlead in
    let followDist := minDist + a_timeGap c * Rabs speedForTimeGap in
    let dist := gap - followDist in
    let distFactor := MIN 1 (dist / followDist) in
    let dvMin := a_cur c - MIN (a_set c) vlead in
    let dvSet := a_cur c - a_set c in
    let a := CLAMP (25 / 10 * distFactor - distFactor * dvSet - (1 - distFactor) * dvMin) (- e_down e) (e_up e) in
    (a, MIN (MAX 0 (a_cur c + a * dt)) (a_set c)).

(** Acceleration and speed with no lead vehicle, CO/ControllerACC.cpp:193-206. *)
Definition cruise (c : acc) (e : ego) (dt : R) : R * R :=
  let a := CLAMP ((a_set c - a_cur c) * accelerationFactor * e_up e) (- e_down e) (accelerationFactor * e_up e) in
  let tmpSpeed := a_cur c + a * dt in
  (a, if Rltb (Rabs (a_cur c - a_set c)) (Rabs (tmpSpeed - a_set c)) then a_set c else tmpSpeed).

(** What a step does to the object: the index shown to the sensor ([None]: its own position), the distance of MoveAlongS, the acceleration set, the speed set;
    [None]: not called. *)
Record effect := Effect { f_sensor : option nat; f_move : option R; f_acc : option (R * R); f_speed : option R }.

(** ControllerACC::Step, CO/ControllerACC.cpp:83-228; [None]: an index past the list or the use of a null pointer. *)
Definition Step (c0 : acc) (e : ego) (l : list (option other)) (dt : R) : option (acc * effect) :=
  let c := notice c0 e in
  let b := lead c e l in
  let finish (a v : R) (sensor : option nat) :=
    Some (Acc (a_timeGap c) (a_set c) (a_lat c) v (a_given c) (a_virtual c) (a_override c),
          Effect sensor
            (if a_override c && negb (a_virtual c) then Some (v * dt) else None)
            (if a_virtual c then Some (RotateVec2D a 0 (e_h e)) else None)
            (if a_virtual c then None else Some v)) in
  match snd b with
  | Some k =>
      match nth_error l k with
      | Some (Some o) => let '(a, v) := follow c e (fst b) (o_speed o) dt in finish a v (Some k)
      | _ => None
      end
  | None => let '(a, v) := cruise c e dt in finish a v None
  end.

(** ControllerACC::Activate, CO/ControllerACC.cpp:230-236: the members it sets. *)
Definition Activate (c : acc) (e : ego) : acc :=
  Acc (a_timeGap c) (if negb (a_override c) || negb (a_given c) then e_speed e else a_set c) (a_lat c) (e_speed e) (a_given c) (a_virtual c) (a_override c).

(** The constructor, CO/ControllerACC.cpp:33-70: each property if given; [mode]: what Controller made of the property "mode", if given. *)
Definition construct (timeGap setSpeed lateralDist : option R) (mode : option bool) (virt : option bool) : acc :=
  Acc (match timeGap with Some x => x | None => 15 / 10 end) (match setSpeed with Some x => x | None => 0 end)
      (match lateralDist with Some x => x | None => 5 end) 0 (match setSpeed with Some _ => true | None => false end)
      (match virt with Some v => v | None => false end) (match mode with Some m => m | None => false end).
