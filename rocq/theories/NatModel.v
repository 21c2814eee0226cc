(** * The natural driver controller (ControllerNaturalDriver.cpp)

    [double] is idealised as [R], objects are their ids ([int] as [Z]).  What a step sees of the scenario is a record, any values.
    The parameters are those of the constructor; divisions by zero (desired speed 0 or no maximum acceleration or deceleration) are not
    modelled, the theorems that depend on them assume otherwise.
    CO = EnvironmentSimulator/Modules/Controllers, RM = EnvironmentSimulator/Modules/RoadManager. *)
From Coq Require Import Reals Bool List ZArith NArith.
From Verif Require Import AngModel GeoModel GapModel CacheModel.
Import ListNotations.
Open Scope R_scope.

(** The parameters, CO/ControllerNaturalDriver.hpp:88-109, with their defaults, CO/ControllerNaturalDriver.cpp:28-52. *)
Record params := Params {
  desired_distance : R; desired_speed : R; lane_change_duration : R; lookahead_dist : R; max_deceleration : R; max_acceleration : R;
  lane_change_delay : R; desired_thw : R; max_imposed_braking : R; politeness : R; lane_change_acc_gain : R; route : Z }.
Definition default_params : params := Params 20 15 3 115 (-3) 3 1 2 3 (1 / 2) (1 / 5) (-1).

(** The scenario at a step: Object::GetSpeed, GetLaneId, dLaneId and ds of Position::Delta (bothDirections; LARGE_NUMBER ahead in the own lane if no
    way is found, RM/RoadManager.cpp:11799-11804), whether headings differ by less than a right angle, length and center_.x_ of bounding boxes,
    GetOtherDriver with lane_change_injected and target_lane_ (CO/ControllerNaturalDriver.cpp:321-334), GetMaxSpeed of the object, the result of
    AdjacentLanesAvailable with lane_ids_available_, and vehicles_in_radius_. *)
Record view := View {
  v_speed : Z -> R; v_lane : Z -> Z; v_delta : Z -> Z -> bool -> Z * R; v_same_way : Z -> Z -> bool; v_len : Z -> R; v_cx : Z -> R;
  v_driver : Z -> option (bool * Z); v_max : R; v_adjacent : bool * (Z * Z); v_near : list Z }.

(** EstimateFreespace, CO/ControllerNaturalDriver.cpp:481-508. *)
Definition EstimateFreespace (v : view) (follow target : Z) (ds : R) : R :=
  if v_same_way v follow target then
    let parts := (v_len v follow / 2 + v_cx v follow) + (v_len v target / 2 - v_cx v target) in
    if Rltb 0 ds then (if Rltb (ds - parts) 0 then 0 else ds - parts)
    else (if Rltb 0 (ds + parts) then 0 else ds + parts)
  else ds.

(** GetDesiredGap, CO/ControllerNaturalDriver.cpp:370-380; for negative ab the square root is NaN and std::max takes 0. *)
Definition GetDesiredGap (p : params) (follow_speed lead_speed : R) : R :=
  let ab := - max_acceleration p * max_deceleration p in
  desired_distance p + (if Rltb ab 0 then 0 else Rmax 0 (follow_speed * desired_thw p + follow_speed * (follow_speed - lead_speed) / (2 * sqrt ab))).

(** GetAcceleration, CO/ControllerNaturalDriver.cpp:339-368; null pointers are [None]. *)
Definition GetAcceleration (p : params) (v : view) (follow lead : option Z) : R :=
  match follow with
  | None => 0
  | Some f =>
      let acceleration := max_acceleration p * (1 - (v_speed v f / desired_speed p) ^ 4) in
      match lead with
      | None => acceleration
      | Some l =>
          let desired_gap := GetDesiredGap p (v_speed v f) (v_speed v l) in
          let freespace := EstimateFreespace v f l (snd (v_delta v f l false)) in
          let freespace := if Reqb freespace 0 then SMALL_NUMBER else freespace in
          acceleration - max_acceleration p * (desired_gap / freespace) ^ 2
      end
  end.

(** VoIType and vehicles_of_interest_, CO/ControllerNaturalDriver.hpp:24-44: vehicle and diff.ds. *)
Inductive voi := LEAD | FOLLOWING | LEFT_LEAD | LEFT_FOLLOW | RIGHT_LEAD | RIGHT_FOLLOW.
Definition voi_eqb (a b : voi) : bool :=
  match a, b with
  | LEAD, LEAD | FOLLOWING, FOLLOWING | LEFT_LEAD, LEFT_LEAD | LEFT_FOLLOW, LEFT_FOLLOW | RIGHT_LEAD, RIGHT_LEAD | RIGHT_FOLLOW, RIGHT_FOLLOW => true
  | _, _ => false
  end.
Definition slots := voi -> option (Z * R).
Definition set_slot (s : slots) (k : voi) (x : Z * R) : slots := fun k' => if voi_eqb k' k then Some x else s k'.

(** FindClosestAhead, CO/ControllerNaturalDriver.cpp:510-524. *)
Definition FindClosestAhead (s : slots) (o : Z) (ds : R) (k : voi) : slots :=
  if Rltb ds 0 then s else match s k with None => set_slot s k (o, ds) | Some (_, d) => if Rltb ds d then set_slot s k (o, ds) else s end.

(** FindClosestBehind, CO/ControllerNaturalDriver.cpp:526-540. *)
Definition FindClosestBehind (s : slots) (o : Z) (ds : R) (k : voi) : slots :=
  if Rltb ds 0 then match s k with None => set_slot s k (o, ds) | Some (_, d) => if Rltb d ds then set_slot s k (o, ds) else s end else s.

(** -SIGN(lane id), CO/ControllerNaturalDriver.cpp:281, 286. *)
Definition side (lane : Z) : Z := if (lane <? 0)%Z then 1%Z else (-1)%Z.

(** One vehicle in UpdateSurroundingVehicles, CO/ControllerNaturalDriver.cpp:273-290. *)
Definition place (v : view) (self : Z) (s : slots) (o : Z) : slots :=
  let '(dLaneId, ds) := v_delta v self o true in
  if (dLaneId =? 0)%Z then FindClosestBehind (FindClosestAhead s o ds LEAD) o ds FOLLOWING
  else if (dLaneId * side (v_lane v self) =? 1)%Z then FindClosestBehind (FindClosestAhead s o ds LEFT_LEAD) o ds LEFT_FOLLOW
  else if (dLaneId * side (v_lane v self) =? -1)%Z then FindClosestBehind (FindClosestAhead s o ds RIGHT_LEAD) o ds RIGHT_FOLLOW
  else s.

(** UpdateSurroundingVehicles, CO/ControllerNaturalDriver.cpp:263-292, after FilterSurroundingVehicles. *)
Definition UpdateSurroundingVehicles (v : view) (self : Z) : slots := fold_left (place v self) (v_near v) (fun _ => None).

(** FilterSurroundingVehicles, CO/ControllerNaturalDriver.cpp:295-319, with the cache of distances: vehicles_in_radius_. *)
Fixpoint FilterSurroundingVehicles (lookahead : R) (c : cache) (w : scene) (self : Z) (objs : list Z) : cache * list Z :=
  match objs with
  | [] => (c, [])
  | o :: r =>
      if (o =? self)%Z then FilterSurroundingVehicles lookahead c w self r
      else
        let '(c, ret, d) := GetDistance c w self o REL_DIST_EUCLIDIAN (lookahead * 2) in
        let '(c, near) := FilterSurroundingVehicles lookahead c w self r in
        (c, if (ret =? 0)%Z && match d with Some (d, _) => negb (Rltb lookahead d) && negb (Rltb d (- lookahead)) | None => false end then o :: near else near)
  end.

(** The state, CO/ControllerNaturalDriver.hpp:88-109. *)
Record driver := Driver { n_speed : R; n_injected : bool; n_changing : bool; n_cooldown : R; n_target : Z; n_initiate : bool }.

(** CheckLaneChangePossible with GetVehicleOfInterestType, CO/ControllerNaturalDriver.cpp:412-479; [l0] is lane_ids_available_[0]. *)
Definition CheckLaneChangePossible (p : params) (v : view) (self : Z) (s : slots) (injected : bool) (l0 lane_id : Z) : bool :=
  if injected then false
  else
    let vehicle k := option_map fst (s k) in
    let '(adj_lead, adj_follow) := if (lane_id =? l0)%Z then (LEFT_LEAD, LEFT_FOLLOW) else (RIGHT_LEAD, RIGHT_FOLLOW) in
    let new_following_pred := GetAcceleration p v (vehicle adj_follow) (Some self) in
    if Rltb new_following_pred (- max_imposed_braking p) then false
    else
      let predicted := GetAcceleration p v (Some self) (vehicle adj_lead) in
      if (lane_id =? route p)%Z then negb (Rltb predicted (- max_imposed_braking p))
      else
        let acceleration := GetAcceleration p v (Some self) (vehicle LEAD) in
        let old_following := GetAcceleration p v (vehicle FOLLOWING) (Some self) in
        let old_following_pred := GetAcceleration p v (vehicle FOLLOWING) (vehicle LEAD) in
        let new_following := GetAcceleration p v (vehicle adj_follow) (vehicle adj_lead) in
        let jerk := predicted - acceleration + politeness p * (new_following_pred - new_following + old_following_pred - old_following) in
        Rltb (lane_change_acc_gain p + SMALL_NUMBER) jerk.

(** AbortLaneChange, CO/ControllerNaturalDriver.cpp:219-261; the diff saved for a vehicle of interest is that Position::Delta gave in this step. *)
Definition AbortLaneChange (p : params) (v : view) (self target_lane : Z) (current_speed : R) : bool :=
  existsb (fun o => match v_driver v o with
    | None => false
    | Some (injected, target) =>
        let freespace := EstimateFreespace v self o (snd (v_delta v self o true)) in
        let desired_gap := GetDesiredGap p (v_speed v o) current_speed in
        negb (Rltb freespace 0) && Rltb freespace desired_gap && injected && (target =? target_lane)%Z && negb (v_lane v o =? v_lane v self)%Z
    end) (v_near v).

(** The loop over lane_ids_available_ in Step, CO/ControllerNaturalDriver.cpp:149-161: initiate_lanechange_, target_lane_ and whether state_ is CHANGE_LANE. *)
Fixpoint try_lanes (p : params) (v : view) (self : Z) (s : slots) (l0 : Z) (lanes : list Z) (initiate : bool) (target : Z) : bool * Z * bool :=
  match lanes with
  | [] => (initiate, target, false)
  | lane_id :: r =>
      if (lane_id =? 0)%Z then try_lanes p v self s l0 r initiate target
      else
        let initiate := CheckLaneChangePossible p v self s false l0 lane_id in
        if initiate && Rltb 0 (v_speed v self) then (true, lane_id, true) else try_lanes p v self s l0 r initiate target
  end.

(** The speed after a step, CO/ControllerNaturalDriver.cpp:198-211. *)
Definition next_speed (p : params) (v : view) (speed acceleration dt : R) : R :=
  let s := speed + acceleration * dt in
  if Rltb s (desired_speed p) then (if Rltb (v_max v) s then v_max v else if Rltb s 0 then 0 else s) else desired_speed p.

(** Step, CO/ControllerNaturalDriver.cpp:130-217: the state, the lane of an injected lane change, the distance moved and the speed set. *)
Definition Step (p : params) (v : view) (self : Z) (st : driver) (dt : R) : driver * option Z * R * R :=
  let s := UpdateSurroundingVehicles v self in
  let acceleration :=
    if n_changing st then 0
    else let a := GetAcceleration p v (Some self) (option_map fst (s LEAD)) in if Rltb a (max_deceleration p) then max_deceleration p else a in
  let '(initiate, target, changing) :=
    if n_changing st then (n_initiate st, n_target st, true)
    else if n_injected st then (n_initiate st, n_target st, false)
    else if fst (v_adjacent v) then try_lanes p v self s (fst (snd (v_adjacent v))) [fst (snd (v_adjacent v)); snd (snd (v_adjacent v))] (n_initiate st) (n_target st)
    else (n_initiate st, n_target st, false) in
  let '(injected, target, changing, action) :=
    if initiate then
      if AbortLaneChange p v self target (n_speed st) then (n_injected st, 0%Z, false, None) else (true, target, changing, Some target)
    else (n_injected st, target, changing, None) in
  let '(injected, target, changing, cooldown) :=
    if injected then
      let cooldown := n_cooldown st - dt in
      let '(target, changing) := if changing && negb (Rltb (lane_change_delay p) cooldown) then (0%Z, false) else (target, changing) in
      if Rltb cooldown 0 then (false, target, changing, lane_change_delay p + lane_change_duration p) else (true, target, changing, cooldown)
    else (injected, target, changing, n_cooldown st) in
  let speed := next_speed p v (n_speed st) acceleration dt in
  (Driver speed injected changing cooldown target false, action, speed * dt, speed).

(** The lanes of a section in order of lane_: id and whether IsDriving, RM/RoadManager.cpp:1712-1720.
    GetLaneIdxById, GetLaneById, RM/RoadManager.cpp:2118-2128, 2143-2153; [None] is IDX_UNDEFINED, a null pointer. *)
Definition section := list (Z * bool).
Fixpoint GetLaneIdxById (s : section) (id : Z) : option N :=
  match s with [] => None | (i, _) :: r => if (i =? id)%Z then Some 0%N else option_map N.succ (GetLaneIdxById r id) end.
Definition GetLaneById (s : section) (id : Z) : option bool := option_map snd (find (fun l => (fst l =? id)%Z) s).

(** GetNumberOfDrivingLanesSide, GetNUmberOfLanesRight, GetNUmberOfLanesLeft, RM/RoadManager.cpp:2194-2234. *)
Definition GetNumberOfDrivingLanesSide (s : section) (lane : Z) : N :=
  N.of_nat (length (filter (fun l => Bool.eqb (fst l <? 0)%Z (lane <? 0)%Z && snd l) s)).
Definition GetNUmberOfLanesRight (s : section) : N := N.of_nat (length (filter (fun l => (fst l <? 0)%Z) s)).
Definition GetNUmberOfLanesLeft (s : section) : N := N.of_nat (length (filter (fun l => (0 <? fst l)%Z) s)).

(** AdjacentLanesAvailable, CO/ControllerNaturalDriver.cpp:542-604: the result and lane_ids_available_; [None] is the use of a null lane.
    An unknown lane has index IDX_UNDEFINED, here an index past the last (that its successor wraps to 0 is not modelled). *)
Definition AdjacentLanesAvailable (s : section) (current_lane : Z) : option (bool * (Z * Z)) :=
  if (GetNumberOfDrivingLanesSide s current_lane <=? 1)%N then Some (false, (0%Z, 0%Z))
  else
    let left_lane_id := (current_lane + side current_lane)%Z in
    let right_lane_id := (current_lane - side current_lane)%Z in
    let idx := match GetLaneIdxById s current_lane with Some i => i | None => 4294967295%N end in
    let max_lane_idx := (N.of_nat (length s) - 1)%N in
    let '(right_driving, left_driving) :=
      if (current_lane <? 0)%Z then
        (if (idx =? max_lane_idx)%N then Some false else GetLaneById s right_lane_id,
         if (idx =? max_lane_idx - GetNUmberOfLanesLeft s)%N then Some false else GetLaneById s left_lane_id)
      else
        (if (idx =? 0)%N then Some false else GetLaneById s right_lane_id,
         if (idx + 1 =? GetNUmberOfLanesRight s)%N then Some false else GetLaneById s left_lane_id) in
    match right_driving, left_driving with
    | Some r, Some l => Some (true, (if l then left_lane_id else 0%Z, if r then right_lane_id else 0%Z))
    | _, _ => None
    end.
