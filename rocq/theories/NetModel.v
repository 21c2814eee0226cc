(** * The road network: links, junctions and connections: RoadManager.cpp

    [Road*] and [Junction*] are represented by their ids (distinct by C32), a null pointer by [None].  The roads of a
    connection are non-null and every road has at least one lane section.
    RM = EnvironmentSimulator/Modules/RoadManager. *)
From Coq Require Import NArith.
From Verif Require Import QAux LaneModel IdModel.
Local Open Scope Q_scope.

(** ContactPointType, RM/RoadManager.hpp:1164-1170. *)
Inductive contact := CP_UNDEFINED | CP_START | CP_END | CP_JUNCTION.
(** Equality of contact points (RM/RoadManager.hpp:1164-1170). *)
Definition contact_eqb (a b : contact) : bool :=
  match a, b with CP_UNDEFINED, CP_UNDEFINED | CP_START, CP_START | CP_END, CP_END | CP_JUNCTION, CP_JUNCTION => true | _, _ => false end.

(** RoadLink::ElementType, RM/RoadManager.hpp:1175-1180. *)
Inductive element := ELEMENT_UNKNOWN | ELEMENT_ROAD | ELEMENT_JUNCTION.

(** class RoadLink, RM/RoadManager.hpp:1172-1223. *)
Record rlink := RLink { rl_type : LinkType; rl_elem : element; rl_id : N; rl_contact : contact }.

(** class Connection, RM/RoadManager.hpp:3251-3286; lane links are pairs (from, to), 3238-3249. *)
Record connection := Connection { c_incoming : N; c_connecting : N; c_contact : contact; c_lanes : list (Z * Z) }.

(** class Junction, RM/RoadManager.hpp:3339-; [j_direct] tells the type DIRECT. *)
Record junction := Junction { j_id : N; j_direct : bool; j_conns : list connection }.

(** class Road, RM/RoadManager.hpp:3168-3187: the id, the links, and the lane data of LaneModel. *)
Record nroad := NRoad { nr_id : N; nr_links : list rlink; nr_road : road }.

(** class OpenDrive, RM/RoadManager.hpp:3740-3752: roads and junctions. *)
Record network := Network { net_roads : list nroad; net_junctions : list junction }.

(** OpenDrive::GetRoadById, RM/RoadManager.cpp:3518-3528. *)
Definition GetRoad (net : network) (id : N) : option nroad := find (fun r => (nr_id r =? id)%N) (net_roads net).

(** OpenDrive::GetJunctionById, RM/RoadManager.cpp:3575-3585. *)
Definition GetJunction (net : network) (id : N) : option junction := find (fun j => (j_id j =? id)%N) (net_junctions net).

(** Road::GetLink, RM/RoadManager.cpp:3394-3404. *)
Definition Road_GetLink (r : nroad) (t : LinkType) : option rlink := find (fun l => LinkType_eqb (rl_type l) t) (nr_links r).

(** Road::GetLength, RM/RoadManager.hpp:3174. *)
Definition Length (r : nroad) : Q := r_length (nr_road r).

(** class LaneRoadLaneConnection, RM/RoadManager.hpp:3189-3236: lane, connecting road, connecting lane, contact point. *)
Record lrl := Lrl { lrl_lane : Z; lrl_road : N; lrl_to : Z; lrl_contact : contact }.
(** Default members of LaneRoadLaneConnection, RM/RoadManager.hpp:3228-3234. *)
Definition lrl_default : lrl := Lrl 0 ID_UNDEFINED 0 CP_UNDEFINED.

(** Connection::GetConnectingLaneId, RM/RoadManager.cpp:5743-5753. *)
Definition Connection_GetConnectingLaneId (c : connection) (incoming_lane_id : Z) : Z :=
  match find (fun p => (fst p =? incoming_lane_id)%Z) (c_lanes c) with Some p => snd p | None => 0%Z end.

(** The inner loop of Junction::GetNumberOfRoadConnections, RM/RoadManager.cpp:5781-5788. *)
Fixpoint count_lane_links (l : list (Z * Z)) (laneId : Z) (counter : nat) : nat :=
  match l with
  | [] => counter
  | p :: r => count_lane_links r laneId (if (laneId =? fst p)%Z then S counter else counter)
  end.

(** Junction::GetNumberOfRoadConnections, RM/RoadManager.cpp:5772-5792. *)
Fixpoint count_connections (l : list connection) (roadId : N) (laneId : Z) (counter : nat) : nat :=
  match l with
  | [] => counter
  | c :: r => count_connections r roadId laneId (if (roadId =? c_incoming c)%N then count_lane_links (c_lanes c) laneId counter else counter)
  end.
Definition GetNumberOfRoadConnections (j : junction) (roadId : N) (laneId : Z) : nat := count_connections (j_conns j) roadId laneId 0.

(** The inner loop of Junction::GetRoadConnectionByIdx, RM/RoadManager.cpp:5805-5846: the connection found or the counter.
    The checks of the target lane (5814-5840) only log. *)
Fixpoint pick_lane_link (c : connection) (l : list (Z * Z)) (laneId : Z) (idx counter : nat) : lrl + nat :=
  match l with
  | [] => inr counter
  | p :: r =>
      if (laneId =? fst p)%Z
      then if (counter =? idx)%nat then inl (Lrl laneId (c_connecting c) (snd p) (c_contact c)) else pick_lane_link c r laneId idx (S counter)
      else pick_lane_link c r laneId idx counter
  end.

(** Junction::GetRoadConnectionByIdx, RM/RoadManager.cpp:5794-5854. *)
Fixpoint pick_connection (l : list connection) (roadId : N) (laneId : Z) (idx counter : nat) : lrl :=
  match l with
  | [] => lrl_default
  | c :: r =>
      if (roadId =? c_incoming c)%N
      then match pick_lane_link c (c_lanes c) laneId idx counter with
           | inl x => x
           | inr counter => pick_connection r roadId laneId idx counter
           end
      else pick_connection r roadId laneId idx counter
  end.
Definition GetRoadConnectionByIdx (j : junction) (roadId : N) (laneId : Z) (idx : nat) : lrl := pick_connection (j_conns j) roadId laneId idx 0.

(** Junction::GetNoConnectionsFromRoadId, RM/RoadManager.cpp:5886-5900. *)
Fixpoint count_from (l : list connection) (incomingRoadId : N) (counter : nat) : nat :=
  match l with
  | [] => counter
  | c :: r => count_from r incomingRoadId (if (c_incoming c =? incomingRoadId)%N then S counter else counter)
  end.
Definition GetNoConnectionsFromRoadId (j : junction) (incomingRoadId : N) : nat := count_from (j_conns j) incomingRoadId 0.

(** Junction::GetConnectingRoadIdFromIncomingRoadId, RM/RoadManager.cpp:5902-5922. *)
Fixpoint pick_from (l : list connection) (incomingRoadId : N) (index counter : nat) : N :=
  match l with
  | [] => ID_UNDEFINED
  | c :: r =>
      if (c_incoming c =? incomingRoadId)%N
      then if (counter =? index)%nat then c_connecting c else pick_from r incomingRoadId index (S counter)
      else pick_from r incomingRoadId index counter
  end.
Definition GetConnectingRoadIdFromIncomingRoadId (j : junction) (incomingRoadId : N) (index : nat) : N :=
  pick_from (j_conns j) incomingRoadId index 0.

(** One end in Junction::GetRoadAtOtherEndOfConnectingRoad, RM/RoadManager.cpp:5956-5969: [None] continues with the other end. *)
Definition other_end (net : network) (connecting : nroad) (incoming : N) (t t2 : LinkType) : option (option nroad) :=
  match Road_GetLink connecting t with
  | Some (RLink _ ELEMENT_ROAD id _) =>
      if (id =? incoming)%N then
        match Road_GetLink connecting t2 with
        | Some (RLink _ ELEMENT_ROAD id2 _) => Some (GetRoad net id2)
        | _ => None
        end
      else None
  | _ => None
  end.

(** Junction::GetRoadAtOtherEndOfConnectingRoad, RM/RoadManager.cpp:5944-5973; [member] tells that the connecting road
    belongs to a junction (5946). *)
Definition GetRoadAtOtherEndOfConnectingRoad (net : network) (member : bool) (connecting : nroad) (incoming : N) : option nroad :=
  if negb member then None else
  match other_end net connecting incoming PREDECESSOR SUCCESSOR with
  | Some r => r
  | None => match other_end net connecting incoming SUCCESSOR PREDECESSOR with Some r => r | None => None end
  end.

(** lane_section_.back() and lane_section_[0] in Road::GetConnectingLaneId, RM/RoadManager.cpp:1912-1919. *)
Definition end_section (r : nroad) (t : LinkType) : option lsec :=
  match t with
  | SUCCESSOR => match rev (r_sections (nr_road r)) with a :: _ => Some a | [] => None end
  | _ => match r_sections (nr_road r) with a :: _ => Some a | [] => None end
  end.

(** The loop over the connections of a junction in Road::GetConnectingLaneId, RM/RoadManager.cpp:1957-1965: [n] rounds are left. *)
Fixpoint connecting_lane (j : junction) (roadId : N) (laneId : Z) (connectingRoadId : N) (n i : nat) : Z :=
  match n with
  | O => 0%Z
  | S n =>
      let x := GetRoadConnectionByIdx j roadId laneId i in
      if (lrl_road x =? connectingRoadId)%N then lrl_to x else connecting_lane j roadId laneId connectingRoadId n (S i)
  end.

(** Road::GetConnectingLaneId, RM/RoadManager.cpp:1896-1969; 0 means no connection. *)
Definition Road_GetConnectingLaneId (net : network) (r : nroad) (l : rlink) (fromLaneId : Z) (connectingRoadId : N) : Z :=
  if (rl_id l =? ID_UNDEFINED)%N then 0%Z else
  match match end_section r (rl_type l) with Some ls => GetLaneById ls fromLaneId | None => None end with
  | None => 0%Z
  | Some lane =>
      match rl_elem l with
      | ELEMENT_ROAD =>
          if negb (rl_id l =? connectingRoadId)%N then 0%Z
          else match GetLink lane (rl_type l) with Some id => id | None => 0%Z end
      | ELEMENT_JUNCTION =>
          match GetJunction net (rl_id l) with
          | None => 0%Z
          | Some j => connecting_lane j (nr_id r) (l_id lane) connectingRoadId (GetNumberOfRoadConnections j (nr_id r) (l_id lane)) 0
          end
      | ELEMENT_UNKNOWN => 0%Z
      end
  end.

(** The loop over connections in Road::IsDirectlyConnected, RM/RoadManager.cpp:3215-3241: whether connected, and the contact
    point written (a connection without the lane wanted writes it too). *)
Fixpoint direct_loop (l : list connection) (this road : N) (fromLaneId : Z) (cp : contact) : bool * contact :=
  match l with
  | [] => (false, cp)
  | c :: r =>
      if (c_incoming c =? this)%N && (c_connecting c =? road)%N
      then if (fromLaneId =? 0)%Z || existsb (fun p => (fst p =? fromLaneId)%Z) (c_lanes c) then (true, c_contact c)
           else direct_loop r this road fromLaneId (c_contact c)
      else direct_loop r this road fromLaneId cp
  end.

(** Road::IsDirectlyConnected, RM/RoadManager.cpp:3187-3245; [cp] is the contact point before the call. *)
Definition IsDirectlyConnected (net : network) (this : nroad) (road : N) (t : LinkType) (fromLaneId : Z) (cp : contact) : bool * contact :=
  match Road_GetLink this t with
  | None => (false, cp)
  | Some l =>
      match rl_elem l with
      | ELEMENT_ROAD => if (rl_id l =? road)%N then (true, rl_contact l) else (false, cp)
      | ELEMENT_JUNCTION =>
          match GetJunction net (rl_id l) with
          | None => (false, cp)
          | Some j => direct_loop (j_conns j) (nr_id this) road fromLaneId cp
          end
      | ELEMENT_UNKNOWN => (false, cp)
      end
  end.

(** Road::IsSuccessor || Road::IsPredecessor, RM/RoadManager.cpp:3247-3255 as combined at 6296 and 3262. *)
Definition IsSuccessorOrPredecessor (net : network) (this : nroad) (road : N) (fromLaneId : Z) (cp : contact) : bool * contact :=
  let (b, cp) := IsDirectlyConnected net this road SUCCESSOR fromLaneId cp in
  if b then (true, cp) else IsDirectlyConnected net this road PREDECESSOR fromLaneId cp.
