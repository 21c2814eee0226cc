(** * Shortest path over the road network: RoadPath in RoadManager.cpp

    A [PathNode] carries its road and the link of that road it stands at; two link pointers are equal iff they are links of
    the same type of the same road (Road::GetLink returns the first link of a type).  Distances are rationals.
    RM = EnvironmentSimulator/Modules/RoadManager. *)
From Coq Require Import NArith.
From Verif Require Import QAux LaneModel IdModel NetModel.
Local Open Scope Q_scope.

(** struct RoadPath::PathNode, RM/RoadManager.hpp:5209-5218.  [pn_from] is fromRoad, the road [pn_link] belongs to;
    [pn_prev] are the link pointers of the chain of previous nodes, nearest first. *)
Record pnode := PNode {
  pn_from : nroad; pn_link : rlink; pn_dist : Q; pn_lane : Z; pn_contact : contact; pn_prev : list (N * LinkType) }.

(** A link pointer: road id and link type (comparison at RM/RoadManager.cpp:6056 and 6067). *)
Definition ptr (n : pnode) : N * LinkType := (nr_id (pn_from n), rl_type (pn_link n)).
Definition ptr_eqb (a b : N * LinkType) : bool := (fst a =? fst b)%N && LinkType_eqb (snd a) (snd b).

(** The part of class Position used by RoadPath::Calculate (RM/RoadManager.cpp:6095-6375): track id, lane id, s, relative heading,
    heading relative to the driving direction. *)
Record ppos := PPos { pp_track : N; pp_lane : Z; pp_s : Q; pp_h : Q; pp_hd : Q }.

(** M_PI_2 as a double; 3 * M_PI_2 is taken without rounding (RM/RoadManager.cpp:6143, 6342-6343). *)
Definition M_PI_2 : Q := 884279719003555 # 562949953421312.

(** The link at the other end of the checked road and its contact point, RM/RoadManager.cpp:5981-6036. *)
Definition next_link (net : network) (check : nroad) (l : rlink) (from : nroad) : option (rlink * contact) :=
  let back t id := match Road_GetLink check t with Some k => (rl_id k =? id)%N | None => false end in
  let leave t cp := option_map (fun k => (k, cp)) (Road_GetLink check t) in
  match rl_elem l with
  | ELEMENT_ROAD => if contact_eqb (rl_contact l) CP_END then leave PREDECESSOR CP_START else leave SUCCESSOR CP_END
  | ELEMENT_JUNCTION =>
      let pivot := match GetJunction net (rl_id l) with Some j => if j_direct j then j_id j else nr_id from | None => nr_id from end in
      if back SUCCESSOR pivot then leave PREDECESSOR CP_START
      else if back PREDECESSOR pivot then leave SUCCESSOR CP_END
      else None
  | ELEMENT_UNKNOWN => None
  end.

(** RoadPath::CheckRoad, RM/RoadManager.cpp:5975-6093: the unvisited nodes after the call.  The source node is the one at
    [src]; the loop over the unvisited nodes (6065-6077) has no break, so that a node is added in any case (6079-6090). *)
Definition CheckRoad (net : network) (check : nroad) (src : pnode) (visited unvisited : list pnode) : list pnode :=
  let nextLaneId := Road_GetConnectingLaneId net (pn_from src) (pn_link src) (pn_lane src) (nr_id check) in
  if (nextLaneId =? 0)%Z then unvisited else
  match next_link net check (pn_link src) (pn_from src) with
  | None => unvisited
  | Some (k, cp) =>
      let nextLaneId := if contact_eqb cp CP_START then GetConnectedLaneIdAtS (nr_road check) nextLaneId (- (1)) 0
                        else GetConnectedLaneIdAtS (nr_road check) nextLaneId 0 (- (1)) in
      let p := (nr_id check, rl_type k) in
      if existsb (fun n => ptr_eqb (ptr n) p) visited then unvisited
      else
        let d := pn_dist src + Length check in
        map (fun n => if ptr_eqb (ptr n) p && Qltb d (pn_dist n) then PNode (pn_from n) (pn_link n) d (pn_lane n) (pn_contact n) (pn_prev n) else n) unvisited
        ++ [PNode check k d nextLaneId cp (ptr src :: pn_prev src)]
  end.

(** The heading test at RM/RoadManager.cpp:6143. *)
Definition faces_along (h : Q) : bool := Qltb h M_PI_2 || Qltb (3 * M_PI_2) h.

(** One initial node, RM/RoadManager.cpp:6154-6189. The lane id is updated for the rounds to come (6162-6166). *)
Definition start_node (r : nroad) (s : Q) (pivotLaneId : Z) (t : LinkType) (cp : contact) : list pnode * Z :=
  match Road_GetLink r t with
  | None => ([], pivotLaneId)
  | Some l =>
      let lane := if contact_eqb cp CP_END then GetConnectedLaneIdAtS (nr_road r) pivotLaneId s (- (1))
                  else GetConnectedLaneIdAtS (nr_road r) pivotLaneId s 0 in
      ([PNode r l (if contact_eqb cp CP_START then s else Length r - s) lane cp []], lane)
  end.

(** The initial nodes, RM/RoadManager.cpp:6126-6190. *)
Definition start_nodes (r : nroad) (p : ppos) (both : bool) : list pnode :=
  if both then
    let (a, lane) := start_node r (pp_s p) (pp_lane p) PREDECESSOR CP_START in
    let (b, _) := start_node r (pp_s p) lane SUCCESSOR CP_END in
    a ++ b
  else if faces_along (pp_h p) then fst (start_node r (pp_s p) (pp_lane p) SUCCESSOR CP_END)
  else fst (start_node r (pp_s p) (pp_lane p) PREDECESSOR CP_START).

(** Start and target on the same road, RM/RoadManager.cpp:6192-6219. *)
Definition same_road (p : ppos) (target_s : Q) : Q :=
  let dist := target_s - pp_s p in
  if (pp_lane p <? 0)%Z then
    if Qltb M_PI_2 (pp_h p) && Qltb (pp_h p) (3 * M_PI_2) then dist * - (1) else dist
  else
    let dist := dist * - (1) in
    if faces_along (pp_h p) then dist * - (1) else dist.

(** Finding the unvisited node with the shortest distance, RM/RoadManager.cpp:6233-6242. *)
Fixpoint min_index (l : list pnode) (j minIndex : nat) (minDist : Q) : nat :=
  match l with
  | [] => minIndex
  | n :: r => if Qltb (pn_dist n) minDist then min_index r (S j) j (pn_dist n) else min_index r (S j) minIndex minDist
  end.

(** How a round ends: with the unvisited nodes, the distance and the flag [found], or with a return value (RM/RoadManager.cpp:6287, 6310, 6316). *)
Inductive round := Go (unvisited : list pnode) (tmpDist : Q) (found : bool) | Return (code : Z).

(** The loop over the connections of a junction, RM/RoadManager.cpp:6281-6326; [n] rounds are left, [m] is minIndex. *)
Fixpoint junction_loop (net : network) (target : nroad) (target_s : Q) (jn : junction) (pivot : nroad) (m : nat)
    (visited unvisited : list pnode) (tmpDist : Q) (found : bool) (n j : nat) : option round :=
  match n with
  | O => Some (Go unvisited tmpDist found)
  | S n =>
      match GetRoad net (GetConnectingRoadIdFromIncomingRoadId jn (nr_id pivot) j) with
      | None => Some (Return 0)
      | Some nextRoad =>
          if (nr_id nextRoad =? nr_id target)%N then
            match IsSuccessorOrPredecessor net pivot (nr_id nextRoad) 0 CP_UNDEFINED with
            | (true, CP_START) => junction_loop net target target_s jn pivot m visited unvisited (tmpDist + target_s) true n (S j)
            | (true, CP_END) => junction_loop net target target_s jn pivot m visited unvisited (tmpDist + (Length nextRoad - target_s)) true n (S j)
            | _ => Some (Return (-1))
            end
          else
            match nth_error unvisited m with
            | None => None
            | Some src => junction_loop net target target_s jn pivot m visited (CheckRoad net nextRoad src visited unvisited) tmpDist found n (S j)
            end
      end
  end.

(** One round of the main loop up to marking the node visited, RM/RoadManager.cpp:6233-6327; [None] is an access through a null
    pointer ([nextRoad] null at 6271). *)
Definition path_round (net : network) (target : nroad) (target_s : Q) (visited unvisited : list pnode) : option round :=
  let m := min_index unvisited 0 0 LARGE in
  match nth_error unvisited m with
  | None => None
  | Some src =>
      match rl_elem (pn_link src) with
      | ELEMENT_ROAD =>
          match GetRoad net (rl_id (pn_link src)) with
          | None => None
          | Some nextRoad =>
              if (nr_id nextRoad =? nr_id target)%N
              then Some (Go unvisited (pn_dist src + (if contact_eqb (rl_contact (pn_link src)) CP_START then target_s else Length nextRoad - target_s)) true)
              else Some (Go (CheckRoad net nextRoad src visited unvisited) (pn_dist src) false)
          end
      | ELEMENT_JUNCTION =>
          match GetJunction net (rl_id (pn_link src)) with
          | None => Some (Go unvisited (pn_dist src) false)
          | Some jn => junction_loop net target target_s jn (pn_from src) m visited unvisited (pn_dist src) false
                         (GetNoConnectionsFromRoadId jn (nr_id (pn_from src))) 0
          end
      | ELEMENT_UNKNOWN => Some (Go unvisited (pn_dist src) false)
      end
  end.

(** unvisited_.erase(unvisited_.begin() + minIndex), RM/RoadManager.cpp:6331. *)
Definition erase (m : nat) (l : list pnode) : list pnode := firstn m l ++ skipn (S m) l.

(** How the main loop ends: unvisited and visited nodes (the last one visited first), distance, [found]; or a return value. *)
Inductive search := Done (unvisited visited : list pnode) (tmpDist : Q) (found : bool) | Returned (code : Z).

(** The main loop, RM/RoadManager.cpp:6228-6332; [n] rounds are left. *)
Fixpoint search_loop (net : network) (target : nroad) (target_s maxDist : Q) (n : nat) (unvisited visited : list pnode) (tmpDist : Q) (found : bool) : option search :=
  match n with
  | O => Some (Done unvisited visited tmpDist found)
  | S n =>
      if negb found && negb (match unvisited with [] => true | _ => false end) && Qltb tmpDist maxDist then
        let m := min_index unvisited 0 0 LARGE in
        match path_round net target target_s visited unvisited with
        | None => None
        | Some (Return c) => Some (Returned c)
        | Some (Go unvisited tmpDist found) =>
            match nth_error unvisited m with
            | None => None
            | Some src => search_loop net target target_s maxDist n (erase m unvisited) (src :: visited) tmpDist found
            end
        end
      else Some (Done unvisited visited tmpDist found)
  end.

(** The first node of the chain of a node, as walked at RM/RoadManager.cpp:6341-6367. *)
Definition first_ptr (n : pnode) : N * LinkType := last (pn_prev n) (ptr n).

(** The direction of the path, RM/RoadManager.cpp:6346-6363; the links of the start road are compared by address. *)
Definition direction (start : nroad) (h : Q) (p : N * LinkType) : Z :=
  let is t := match Road_GetLink start t with Some _ => ptr_eqb p (nr_id start, t) | None => false end in
  let isGTPi2 := Qltb M_PI_2 (Qabs h) in
  let isLT3Pi2 := Qltb (Qabs h) (3 * M_PI_2) in
  if (is PREDECESSOR && isGTPi2 && isLT3Pi2) || (is SUCCESSOR && (negb isGTPi2 || negb isLT3Pi2)) then 1%Z else (-1)%Z.

(** RoadPath::Calculate, RM/RoadManager.cpp:6095-6375: return value, distance ([dist] is its value before the call) and the
    last visited node. *)
Definition Calculate (net : network) (start target : ppos) (both : bool) (maxDist dist : Q) : option (Z * Q * option pnode) :=
  match GetRoad net (pp_track start), GetRoad net (pp_track target) with
  | Some startRoad, Some targetRoad =>
      let unvisited := start_nodes startRoad start both in
      if (nr_id startRoad =? nr_id targetRoad)%N then Some (0%Z, same_road start (pp_s target), None)
      else match unvisited with
      | [] => Some ((-1)%Z, 0, None)
      | _ =>
          match search_loop net targetRoad (pp_s target) maxDist 100 unvisited [] 0 false with
          | None => None
          | Some (Returned c) => Some (c, dist, None)
          | Some (Done _ visited tmpDist found) =>
              let d := match found, visited with true, n :: _ => direction startRoad (pp_h start) (first_ptr n) | _, _ => 0%Z end in
              let dist := inject_Z d * tmpDist in
              let dist := if Qltb M_PI_2 (pp_hd start) && Qltb (pp_hd start) (3 * M_PI_2) then dist * - (1) else dist in
              Some (if found then 0%Z else (-1)%Z, dist, match visited with n :: _ => Some n | [] => None end)
          end
      end
  | _, _ => Some ((-2)%Z, dist, None)
  end.
