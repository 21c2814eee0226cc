(** * The lane independent router: LaneIndependentRouter.cpp

    [Road*] and [Junction*] are represented as in NetModel; every road has at least one lane section.  A [RoadLink*] of a road is
    told by its type.  A node holds its predecessor itself instead of a pointer to it.  Both [odr_] and
    Position::GetOpenDrive() are the network given.  Doubles are exact rationals.  Log messages and the deletion of nodes are
    left out.  RM = EnvironmentSimulator/Modules/RoadManager. *)
From Coq Require Import NArith.
From Verif Require Import QAux LaneModel IdModel NetModel PathModel.
Local Open Scope Q_scope.

(** Position::RouteStrategy, RM/RoadManager.hpp:3841-3846. *)
Inductive strategy := SHORTEST | FASTEST | MIN_INTERSECTIONS.

(** Road::RoadType, RM/RoadManager.hpp:2893-2908. *)
Inductive roadtype := RT_UNKNOWN | RT_RURAL | RT_MOTORWAY | RT_TOWN | RT_LOWSPEED | RT_PEDESTRIAN | RT_BICYCLE | RT_TOWNARTERIAL
  | RT_TOWNCOLLECTOR | RT_TOWNEXPRESSWAY | RT_TOWNLOCAL | RT_TOWNPLAYSTREET | RT_TOWNPRIVATE.

(** struct Node, RM/LaneIndependentRouter.hpp:17-37. *)
Inductive rnode := RNode { n_road : nroad; n_lane : Z; n_from : Z; n_weight : Q; n_link : option rlink; n_prev : option rnode }.

(** Equality of [RoadLink*] of one road (RM/LaneIndependentRouter.hpp:34). *)
Definition link_eqb (a b : option rlink) : bool :=
  match a, b with
  | None, None => true
  | Some a, Some b => LinkType_eqb (rl_type a) (rl_type b)
  | _, _ => false
  end.

(** Node::operator==, RM/LaneIndependentRouter.hpp:29-36. *)
Definition node_eqb (n rhs : rnode) : bool :=
  (nr_id (n_road rhs) =? nr_id (n_road n))%N && (n_lane rhs =? n_lane n)%Z && (n_from rhs =? n_from n)%Z && link_eqb (n_link rhs) (n_link n).

(** WeightCompare::operator(), RM/LaneIndependentRouter.hpp:46-63; [None]: a null [previous] is read. *)
Definition WeightCompare (a b : rnode) : option bool :=
  if Qeqb (n_weight a) (n_weight b) then
    match n_prev a, n_prev b with
    | Some pa, Some pb => Some (Z.abs (n_lane b - n_lane pb) <? Z.abs (n_lane a - n_lane pa))%Z
    | _, _ => None
    end
  else Some (Qltb (n_weight b) (n_weight a)).

Section Router.
Variable net : network.
(** The road types with speeds of a road (Road::GetRoadType, RM/RoadManager.hpp:3062). *)
Variable types : nroad -> list (roadtype * Q).

(** The cases of RoadCalculations::CalcAverageSpeed, RM/LaneIndependentRouter.cpp:429-502: the speed added for one road type. *)
Definition type_speed (t : roadtype) (speed : Q) : Q :=
  match t with
  | RT_PEDESTRIAN | RT_BICYCLE => if Qltb SMALL speed then speed else 1389 # 1000
  | RT_LOWSPEED | RT_TOWNPLAYSTREET | RT_TOWNPRIVATE => if Qltb SMALL speed then speed else 8333 # 1000
  | RT_TOWN | RT_TOWNLOCAL => if Qltb SMALL speed then speed else 13888 # 1000
  | RT_RURAL | RT_UNKNOWN => if Qltb SMALL speed then speed else 19444 # 1000
  | RT_MOTORWAY => if Qltb SMALL speed then speed else 25
  | _ => 19444 # 1000
  end.

(** RoadCalculations::CalcAverageSpeed, RM/LaneIndependentRouter.cpp:415-507. *)
Definition CalcAverageSpeed (r : nroad) : Q :=
  match types r with
  | [] => 19444 # 1000
  | l => fold_left (fun total t => total + type_speed (fst t) (snd t)) l 0 / inject_Z (Z.of_nat (List.length l))
  end.

(** RoadCalculations::CalcWeight, RM/LaneIndependentRouter.cpp:525-555; [l] is previousNode->link. *)
Definition CalcWeight (l : rlink) (st : strategy) (roadLength : Q) (r : nroad) : Q :=
  match st with
  | SHORTEST => roadLength
  | FASTEST => let averageSpeed := CalcAverageSpeed r in if Qeqb averageSpeed 0 then LARGE else roadLength / averageSpeed
  | MIN_INTERSECTIONS => match rl_elem l with ELEMENT_JUNCTION => 1 | _ => 0 end
  end.

(** RoadCalculations::CalcWeightWithPos, RM/LaneIndependentRouter.cpp:509-523. *)
Definition CalcWeightWithPos (l : rlink) (s : Q) (r : nroad) (st : strategy) : Q :=
  let roadLength := match rl_contact l with CP_START => s | CP_END => Length r - s | _ => 0 end in
  CalcWeight l st roadLength r.

(** LaneIndependentRouter::GetNextRoads, RM/LaneIndependentRouter.cpp:64-91; [None]: the junction is not found and a null pointer read. *)
Definition GetNextRoads (l : rlink) (currentRoad : nroad) : option (list nroad) :=
  match rl_elem l with
  | ELEMENT_ROAD => Some (match GetRoad net (rl_id l) with Some r => [r] | None => [] end)
  | ELEMENT_JUNCTION =>
      match GetJunction net (rl_id l) with
      | None => None
      | Some j => Some (flat_map (fun i => match GetRoad net (GetConnectingRoadIdFromIncomingRoadId j (nr_id currentRoad) i) with
                                           | Some r => [r] | None => [] end)
                                 (seq 0 (GetNoConnectionsFromRoadId j (nr_id currentRoad))))
      end
  | ELEMENT_UNKNOWN => Some []
  end.

(** LaneIndependentRouter::GetNextLink, RM/LaneIndependentRouter.cpp:93-132; [l] and [cur] are link and road of the current node. *)
Definition GetNextLink (l : rlink) (cur next : nroad) : option rlink :=
  match rl_elem l with
  | ELEMENT_ROAD => match rl_contact l with CP_END => Road_GetLink next PREDECESSOR | _ => Road_GetLink next SUCCESSOR end
  | ELEMENT_JUNCTION =>
      let elementId := match GetJunction net (rl_id l) with
                       | Some j => if j_direct j then j_id j else nr_id cur
                       | None => nr_id cur
                       end in
      let leads t := match Road_GetLink next t with Some k => (rl_id k =? elementId)%N | None => false end in
      if leads SUCCESSOR then Road_GetLink next PREDECESSOR
      else if leads PREDECESSOR then Road_GetLink next SUCCESSOR
      else None
  | ELEMENT_UNKNOWN => None
  end.

(** LaneIndependentRouter::GetConnectingLanes, RM/LaneIndependentRouter.cpp:134-164. *)
Definition GetConnectingLanes (cur : nroad) (l : rlink) (lane : Z) (next : nroad) : list (Z * Z) :=
  match end_section cur (rl_type l) with
  | None => []
  | Some ls =>
      flat_map (fun x =>
        if IsDriving x && (SIGN (l_id x) =? SIGN lane)%Z && negb (l_id x =? 0)%Z then
          let nextLaneId := Road_GetConnectingLaneId net cur l (l_id x) (nr_id next) in
          if negb (nextLaneId =? 0)%Z then [(l_id x, nextLaneId)] else []
        else []) (ls_lanes ls)
  end.

Section Search.
(** targetWaypoint_ and its road, routeStrategy_ (RM/LaneIndependentRouter.hpp:237-240, cpp:294-300). *)
Variables (target : ppos) (st : strategy).

(** [road == targetRoad && lane == targetLaneId], RM/LaneIndependentRouter.cpp:33, 197. *)
Definition at_target (r : nroad) (lane : Z) : bool := (nr_id r =? pp_track target)%N && (lane =? pp_lane target)%Z.

(** LaneIndependentRouter::GetNextNodes, RM/LaneIndependentRouter.cpp:19-62, with CreateTargetNode, 166-178; [l] is the link of
    [cur], which is not null (199-202). *)
Definition GetNextNodes (next : nroad) (cur : rnode) (l : rlink) : list rnode :=
  flat_map (fun p =>
    if at_target next (snd p) then
      [RNode next (snd p) (fst p) (n_weight cur + CalcWeightWithPos l (pp_s target) next st) None (Some cur)]
    else match GetNextLink l (n_road cur) next with
         | None => []
         | Some k => [RNode next (snd p) (fst p) (n_weight cur + CalcWeight l st (Length next) next) (Some k) (Some cur)]
         end) (GetConnectingLanes (n_road cur) l (n_lane cur) next).

(** top() and pop() of the priority queue [unvisited_] (RM/LaneIndependentRouter.hpp:235), which orders by WeightCompare. *)
Variable pop : list rnode -> option (rnode * list rnode).

(** LaneIndependentRouter::FindGoal, RM/LaneIndependentRouter.cpp:180-215: [Some (Some n)] is true with [n] last in [visited_],
    [Some None] is false.  [None]: the fuel is used up, a null pointer is read, or nodes without predecessor are compared
    (possible from the second node in the queue on). *)
Fixpoint FindGoal (fuel : nat) (unvisited visited : list rnode) : option (option rnode) :=
  match fuel with
  | O => None
  | S fuel =>
      if (1 <? List.length unvisited)%nat && existsb (fun n => match n_prev n with None => true | Some _ => false end) unvisited then None else
      match pop unvisited with
      | None => Some None
      | Some (cur, rest) =>
          if existsb (fun n => node_eqb n cur) visited then FindGoal fuel rest visited
          else if at_target (n_road cur) (n_lane cur) then Some (Some cur)
          else match n_link cur with
               | None => FindGoal fuel rest (visited ++ [cur])
               | Some l =>
                   match GetNextRoads l (n_road cur) with
                   | None => None
                   | Some roads => FindGoal fuel (rest ++ flat_map (fun r => GetNextNodes r cur l) roads) (visited ++ [cur])
                   end
               end
      end
  end.

(** LaneIndependentRouter::IsPositionValid, RM/LaneIndependentRouter.cpp:217-235; [None]: no lane section, a null pointer is read. *)
Definition IsPositionValid (p : ppos) : option bool :=
  match GetRoad net (pp_track p) with
  | None => Some false
  | Some r =>
      if Qltb (Length r) (pp_s p) || Qltb (pp_s p) 0 then Some false
      else match GetLaneSectionByS (r_sections (nr_road r)) (pp_s p) 0 with
           | None => None
           | Some ls => Some (match GetLaneById ls (pp_lane p) with None => false | Some x => IsDriving x end)
           end
  end.

(** LaneIndependentRouter::CreateStartNode, RM/LaneIndependentRouter.cpp:237-273. *)
Definition CreateStartNode (l : rlink) (r : nroad) (lane : Z) (cp : contact) (s : Q) : rnode :=
  let roadLength := match cp with CP_START => s | CP_END => Length r - s | _ => 0 end in
  let nextWeight := match st with SHORTEST => roadLength | FASTEST => roadLength / CalcAverageSpeed r | MIN_INTERSECTIONS => 0 end in
  RNode r lane 0 nextWeight (Some l) None.

(** The loop over [previous] in LaneIndependentRouter::CalculatePath, RM/LaneIndependentRouter.cpp:338-343, before the reversal at 350. *)
Fixpoint back_path (n : rnode) : list rnode :=
  n :: match n_prev n with None => [] | Some p => back_path p end.

(** LaneIndependentRouter::CalculatePath, RM/LaneIndependentRouter.cpp:275-352; the errors and the warning return no nodes.
    [None]: undefined behaviour or no end of the search within the fuel. *)
Definition CalculatePath (fuel : nat) (start : ppos) : option (list rnode) :=
  match IsPositionValid start with
  | None => None
  | Some false => Some []
  | Some true =>
      match IsPositionValid target with
      | None => None
      | Some false => Some []
      | Some true =>
          match GetRoad net (pp_track start) with
          | None => None
          | Some startRoad =>
              let forward := faces_along (pp_h start) in
              let contactPoint := if forward then CP_END else CP_START in
              let nextElement := Road_GetLink startRoad (if forward then SUCCESSOR else PREDECESSOR) in
              if at_target startRoad (pp_lane start) then Some []
              else match nextElement with
                   | None => Some []
                   | Some l =>
                       match FindGoal fuel [CreateStartNode l startRoad (pp_lane start) contactPoint (pp_s start)] [] with
                       | None => None
                       | Some None => Some []
                       | Some (Some n) => Some (rev (back_path n))
                       end
                   end
          end
      end
  end.

End Search.
End Router.

(** A waypoint: road, lane, s and the heading relative to the road direction (RM/LaneIndependentRouter.cpp:404-405, 409). *)
Record wpt := Wpt { w_track : N; w_lane : Z; w_s : Q; w_h : Q }.

(** The loops over lane sections in LaneIndependentRouter::GetWaypoints, RM/LaneIndependentRouter.cpp:367-376, 388-396: [secs] are the
    sections in the order visited. *)
Fixpoint lane_length (secs : list lsec) (lane : Z) : Q :=
  match secs with
  | [] => 0
  | ls :: r => match GetLaneById ls lane with
               | None => 0
               | Some x => if IsDriving x then ls_length ls + lane_length r lane else 0
               end
  end.

(** One turn of the loop of LaneIndependentRouter::GetWaypoints, RM/LaneIndependentRouter.cpp:359-406; [first] tells idx == 0, [s0] is
    start.GetS().  [None]: the link is null and read.  The third link type leaves s and heading 0. *)
Definition waypoint (first : bool) (s0 : Q) (current next : rnode) : option wpt :=
  match n_link current with
  | None => None
  | Some l =>
      let secs := r_sections (nr_road (n_road current)) in
      let len := Length (n_road current) in
      let lane := n_from next in
      let (s, h) :=
        match rl_type l with
        | SUCCESSOR =>
            let laneLength := lane_length (rev secs) lane in
            (if first && Qltb (len - laneLength) s0 then s0 else len - laneLength / 2, 0)
        | PREDECESSOR =>
            let laneLength := lane_length secs lane in
            (if first && Qltb s0 laneLength then s0 else laneLength / 2, 2 * M_PI_2)
        | _ => (0, 0)
        end in
      Some (Wpt (nr_id (n_road current)) lane s h)
  end.

(** The loop of LaneIndependentRouter::GetWaypoints, RM/LaneIndependentRouter.cpp:357-407. *)
Fixpoint waypoints (first : bool) (s0 : Q) (path : list rnode) : option (list wpt) :=
  match path with
  | a :: r =>
      match r with
      | [] => Some []
      | b :: _ => match waypoint first s0 a b, waypoints false s0 r with Some w, Some l => Some (w :: l) | _, _ => None end
      end
  | [] => Some []
  end.

(** LaneIndependentRouter::GetWaypoints, RM/LaneIndependentRouter.cpp:354-413.  [None] for no nodes: path.size() - 1 wraps around and
    nodes beyond the end are read. *)
Definition GetWaypoints (path : list rnode) (start target : ppos) : option (list wpt) :=
  match path with
  | [] => None
  | _ => option_map (fun l => l ++ [Wpt (pp_track target) (pp_lane target) (pp_s target) (pp_h target)]) (waypoints true (pp_s start) path)
  end.
