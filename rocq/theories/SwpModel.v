(** * The population of swarm traffic (SwarmTrafficAction, OSCGlobalAction.cpp)

    [double] is idealised as [R], [int], [unsigned int] and [size_t] as [Z] with the wrap-around of the one subtraction that can wrap.  [None] is the use of a
    null pointer or an iterator no longer valid.  Random numbers, std::shuffle and std::sample, the road network and paths between positions are arguments.
    Vehicles have no trailers; deactivateObject and removeObject both take the vehicle out of object_.
    OT = EnvironmentSimulator/Modules/ScenarioEngine/OSCTypeDefs, SE = EnvironmentSimulator/Modules/ScenarioEngine/SourceFiles,
    CM = EnvironmentSimulator/Modules/CommonMini, RM = EnvironmentSimulator/Modules/RoadManager. *)
From Coq Require Import Reals Bool List ZArith.
From Verif Require Import AngModel TriModel SwmModel.
Import ListNotations.
Open Scope R_scope.

(** OT/OSCGlobalAction.cpp:39-44. *)
Definition USELESS_THRESHOLD : Z := 5.
Definition SWARM_TIME_INTERVAL : R := 1 / 10.
Definition MAX_CARS : Z := 1000.
Definition MAX_LANES : nat := 32.

(** What is asked of a Position made of a point and of the road there: IsInJunction, GetTrackId, the driving lanes at GetS() by index
    (Road::GetNumberOfDrivingLanes, GetDrivingLaneByIdx, RM/RoadManager.cpp:3047-3077) and GetRule. *)
Inductive rule := RIGHT_HAND | LEFT_HAND | UNDEFINED_RULE.
Record place := Place { l_x : R; l_y : R; l_road : nat; l_junction : bool; l_lanes : list Z; l_rule : rule }.

(** An object of Entities::object_: id_, place, IsOffRoad, IsEndOfRoad, the number of controllers_, h_relative_ of its position. *)
Record car := Car { c_id : nat; c_x : R; c_y : R; c_off : bool; c_end : bool; c_ctrls : nat; c_h : R }.

(** struct SpawnInfo, SelectInfo: OT/OSCGlobalAction.hpp:375-389. *)
Record spawned := Spawned { i_id : nat; i_out : Z; i_road : nat; i_lane : Z; i_time : R }.
Definition select := (place * Z)%type.

(** Entities::GetObjectById, SE/Entities.cpp:1964-1972, and removal. *)
Definition find_car (cars : list car) (id : nat) : option car := find (fun c => Nat.eqb (c_id c) id) cars.
Definition remove_car (cars : list car) (id : nat) : list car := filter (fun c => negb (Nat.eqb (c_id c) id)) cars.

(** SE_Rand::GetNumberBetween, CM/CommonMini.hpp:1412-1420, of the random number [r]. *)
Definition GetNumberBetween (min max : Z) (r : nat) : Z := if (max <? min)%Z then min else (min + Z.of_nat r mod (max - min + 1))%Z.

(** The random numbers, the order and choice of points, that of lanes (for the nth selection), positions of points, of lanes, and what Position::Delta says:
    dLaneId and ds if there is a path; h_relative_ of the vehicle picked for a selection and lane. *)
Record oracle := Oracle {
  o_cars : nat;
  o_lanes : nat -> nat;
  o_points : list point -> nat -> list point;
  o_choice : nat -> list nat -> nat -> list nat;
  o_where : point -> option place;
  o_at : place -> Z -> point;
  o_delta : place -> Z -> car -> option (Z * R);
  o_pool : nat -> nat -> option R }.

(** The loop with enough points, OT/OSCGlobalAction.cpp:585-606. *)
Fixpoint one_each (where_ : point -> option place) (pts : list point) : option (list select) :=
  match pts with
  | [] => Some []
  | p :: r =>
      do l <- where_ p;
      do rest <- one_each where_ r;
      Some (if l_junction l then rest else if Nat.eqb (length (l_lanes l)) 0 then rest else (l, 1%Z) :: rest)
  end.

(** The loop with more vehicles than points, OT/OSCGlobalAction.cpp:613-639; [i] counts the draws. *)
Fixpoint some_each (where_ : point -> option place) (draw : nat -> nat) (i : nat) (lanesLeft : Z) (pts : list point) : option (list select) :=
  match pts with
  | [] => Some []
  | p :: r =>
      do l <- where_ p;
      let nDrivingLanes := Z.of_nat (length (l_lanes l)) in
      if (nDrivingLanes =? 0)%Z then some_each where_ draw i (lanesLeft + 1) r
      else
        let lanesN := if (0 <? lanesLeft)%Z then
                        let n := GetNumberBetween 0 (Z.min lanesLeft nDrivingLanes) (draw i) in
                        if (n =? 0)%Z then 0%Z else (n - 1)%Z
                      else 0%Z in
        do rest <- some_each where_ draw (S i) (lanesLeft - lanesN) r;
        Some ((l, (1 + lanesN)%Z) :: rest)
  end.

(** SwarmTrafficAction::sampleRoads, OT/OSCGlobalAction.cpp:555-641. *)
Definition sampleRoads (o : oracle) (minN maxN : Z) (sols : list point) : option (list select) :=
  if (maxN <? minN)%Z then Some []
  else
    let nCarsToSpawn := GetNumberBetween minN (maxN - 1) (o_cars o) in
    if (nCarsToSpawn =? 0)%Z then Some []
    else if (nCarsToSpawn <=? Z.of_nat (length sols))%Z && (0 <? nCarsToSpawn)%Z then one_each (o_where o) (o_points o sols (Z.to_nat nCarsToSpawn))
    else some_each (o_where o) (o_lanes o) 0 (nCarsToSpawn - Z.of_nat (length sols)) sols.

(** PointDistance2D, CM/CommonMini.cpp:621-624. *)
Definition PointDistance2D (x0 y0 x1 y1 : R) : R := sqrt ((x1 - x0) * (x1 - x0) + (y1 - y0) * (y1 - y0)).

(** SwarmTrafficAction::ensureDistance, OT/OSCGlobalAction.cpp:759-784.  SetLaneId (RM/RoadManager.hpp:4617-4620) leaves x and y of the position. *)
Fixpoint ensureDistance (cars : list car) (delta : place -> Z -> car -> option (Z * R)) (pos : place) (lane : Z) (dist : R) (l : list spawned) : option bool :=
  match l with
  | [] => Some true
  | f :: r =>
      do v <- find_car cars (i_id f);
      if Rltb (PointDistance2D (l_x pos) (l_y pos) (c_x v) (c_y v)) 20 then Some false
      else match delta pos lane v with
           | Some (dLaneId, ds) => if (dLaneId =? 0)%Z && Rltb (Rabs ds) dist then Some false else ensureDistance cars delta pos lane dist r
           | None => ensureDistance cars delta pos lane dist r
           end
  end.

(** The state: spawnedV, object_, nextId_ (Entities::getNewId, SE/Entities.cpp:1742-1745), counter_, lastTime. *)
Record swarm := Swarm { w_spawned : list spawned; w_cars : list car; w_next : nat; w_counter : nat; w_last : R }.

(** Its settings: numberOfVehicles as set from int (OT/OSCGlobalAction.hpp:435-438), velocity_, semiMajorAxis_, semiMinorAxis_, midSMjA, midSMnA. *)
Record settings := Settings { z_number : Z; z_velocity : R; z_major : R; z_minor : R; z_midMajor : R; z_midMinor : R }.

(** Position::SetHeadingRelativeRoadDirection, RM/RoadManager.cpp:10994-11004, of h_relative_. *)
Definition SetHeadingRelativeRoadDirection (h_relative heading : R) : R :=
  if Rltb (PI / 2) h_relative && Rltb h_relative (3 * (PI / 2)) then GetAngleInInterval2PI (heading + PI) else GetAngleInInterval2PI heading.

(** The heading given to a new vehicle, OT/OSCGlobalAction.cpp:709-722. *)
Definition direction (r : rule) (laneID : Z) : R :=
  match r with
  | LEFT_HAND => if (0 <? laneID)%Z then 0 else PI
  | RIGHT_HAND | UNDEFINED_RULE => if (laneID <? 0)%Z then 0 else PI
  end.

(** The distance asked for, OT/OSCGlobalAction.cpp:680. *)
Definition wanted_distance (z : settings) : R := Rmin (Rmax 40 (z_velocity z * 2)) (7 / 10 * z_major z).

(** One lane of a selection, OT/OSCGlobalAction.cpp:667-755; [n], [i] which selection and lane. *)
Definition spawn_lane (o : oracle) (z : settings) (simTime : R) (pos : place) (n i : nat) (idx : nat) (w : swarm) : option swarm :=
  match nth_error (l_lanes pos) idx with
  | None => Some w
  | Some laneID =>
      do ok <- ensureDistance (w_cars w) (o_delta o) pos laneID (wanted_distance z) (w_spawned w);
      if negb ok then Some w
      else match o_pool o n i with
           | None => Some w
           | Some h =>
               let '(x, y) := o_at o pos laneID in
               let id := w_next w in
               Some (Swarm (w_spawned w ++ [Spawned id 0 (l_road pos) laneID simTime])
                           (w_cars w ++ [Car id x y false false 1 (SetHeadingRelativeRoadDirection h (direction (l_rule pos) laneID))])
                           (S id) (S (w_counter w)) (w_last w))
           end
  end.
Fixpoint spawn_lanes (o : oracle) (z : settings) (simTime : R) (pos : place) (n i : nat) (idxs : list nat) (w : swarm) : option swarm :=
  match idxs with
  | [] => Some w
  | idx :: r => do w <- spawn_lane o z simTime pos n i idx w; spawn_lanes o z simTime pos n (S i) r w
  end.

(** The loop over selections, OT/OSCGlobalAction.cpp:655-666. *)
Fixpoint spawn_all (o : oracle) (z : settings) (simTime : R) (n : nat) (info : list select) (w : swarm) : option swarm :=
  match info with
  | [] => Some w
  | (pos, nLanes) :: r =>
      let lanesNo := Nat.min MAX_LANES (length (l_lanes pos)) in
      let lanes := o_choice o n (seq 0 lanesNo) (Nat.min MAX_LANES (Z.to_nat nLanes)) in
      do w <- spawn_lanes o z simTime pos n 0 lanes w;
      spawn_all o z simTime (S n) r w
  end.

(** SwarmTrafficAction::spawn, OT/OSCGlobalAction.cpp:643-757; the number as unsigned int, the difference as size_t. *)
Definition maxCars (number spawnedN : Z) : Z := Z.min MAX_CARS ((number mod 2 ^ 32 - spawnedN) mod 2 ^ 64).
Definition spawn (o : oracle) (z : settings) (sols : list point) (replace : Z) (simTime : R) (w : swarm) : option swarm :=
  let maxC := maxCars (z_number z) (Z.of_nat (length (w_spawned w))) in
  if (maxC <=? 0)%Z then Some w
  else do info <- sampleRoads o replace maxC sols; spawn_all o z simTime 0 info w.

(** Whether a vehicle is taken away, and its counter, OT/OSCGlobalAction.cpp:801-832; [h], [k], [A]: where the central object is. *)
Definition judge (z : settings) (h k A : R) (v : car) (out : Z) : bool * Z :=
  if c_off v || c_end v then (true, out)
  else
    let e0 := ellipse h k A (z_major z) (z_minor z) (c_x v) (c_y v) in
    let e1 := ellipse h k A (z_midMajor z) (z_midMinor z) (c_x v) (c_y v) in
    if Rltb (1 / 1000) e0 then (true, out)
    else if Rltb (1 / 1000) e1 || (leb 0 e1 && leb e1 (1 / 1000)) then ((USELESS_THRESHOLD <? out + 1)%Z, (out + 1)%Z)
    else (false, 0%Z).

(** SwarmTrafficAction::despawn, OT/OSCGlobalAction.cpp:786-885.  Controllers are taken out of the vector that is gone through: fine with at most one. *)
Fixpoint despawn_loop (z : settings) (h k A : R) (cars : list car) (l : list spawned) : option (list spawned * list car * Z) :=
  match l with
  | [] => Some ([], cars, 0%Z)
  | f :: r =>
      do v <- find_car cars (i_id f);
      let '(del, out) := judge z h k A v (i_out f) in
      if del then
        if (1 <? c_ctrls v)%nat then None
        else do (l, cars, count) <- despawn_loop z h k A (remove_car cars (i_id f)) r; Some (l, cars, (count + 1)%Z)
      else do (l, cars, count) <- despawn_loop z h k A cars r; Some (Spawned (i_id f) out (i_road f) (i_lane f) (i_time f) :: l, cars, count)
  end.

(** SwarmTrafficAction::Step, OT/OSCGlobalAction.cpp:431-463; [sols] what findPoints found, abs as that of double. *)
Definition Step (o : oracle) (z : settings) (h k A : R) (sols : list point) (simTime : R) (w : swarm) : option swarm :=
  if Rltb (w_last w) 0 || Rltb SWARM_TIME_INTERVAL (Rabs (simTime - w_last w)) then
    do (l, cars, count) <- despawn_loop z h k A (w_cars w) (w_spawned w);
    do w' <- spawn o z sols count simTime (Swarm l cars (w_next w) (w_counter w) (w_last w));
    Some (Swarm (w_spawned w') (w_cars w') (w_next w') (w_counter w') simTime)
  else Some w.
