(** * Routes: class Route in RoadManager.cpp

    Doubles are rationals, a road is its id with its length.  A result [None] is an access out of bounds or through a null pointer.
    Path search, distances between positions and links between roads are parameters (the search and the links are modelled in
    [PathModel] and [NetModel]).
    RM = EnvironmentSimulator/Modules/RoadManager. *)
From Coq Require Import NArith.
From Verif Require Import QAux LaneModel.
Local Open Scope nat_scope.
Local Open Scope Q_scope.

(** What is used of a Position as waypoint: road, lane, s, route_waypoint_s_, route_waypoint_dir_ (RM/RoadManager.hpp:5060-5062). *)
Record waypoint := WP { w_track : N; w_lane : Z; w_s : Q; w_rs : Q; w_dir : Z }.

(** Position::ReturnCode, RM/RoadManager.hpp:3871-3882, the values used here. *)
Inductive rcode := OK | ERROR_GENERIC | ERROR_END_OF_ROUTE | ERROR_NOT_ON_ROUTE.

(** class Route, RM/RoadManager.hpp:5180-5190; of all_waypoints_ and scenario_waypoints_ all fields of the waypoints are kept.
    [cur] is the last SetLanePos on currentPos_ (road, lane, s), [None] if the road is undefined. *)
Record route := Route {
  minimal : list waypoint; all_wp : list waypoint; scenario : list waypoint; path_s : Q; rlength : Q; widx : option nat; on_route : bool;
  invalid : bool; cur : option (N * Z * Q) }.

(** Route::GetWaypoint, RM/RoadManager.cpp:15190-15204. *)
Definition GetWaypoint (r : route) (index : option nat) : option waypoint :=
  match (match index with Some i => Some i | None => widx r end) with
  | None => None
  | Some i => nth_error (minimal r) i
  end.

(** on_route_ = b (RM/RoadManager.cpp:15090, 15180). *)
Definition set_on (b : bool) (r : route) : route :=
  Route (minimal r) (all_wp r) (scenario r) (path_s r) (rlength r) (widx r) b (invalid r) (cur r).
(** waypoint_idx_ = i (RM/RoadManager.cpp:15132). *)
Definition set_widx (i : option nat) (r : route) : route :=
  Route (minimal r) (all_wp r) (scenario r) (path_s r) (rlength r) i (on_route r) (invalid r) (cur r).
(** path_s_ = s (RM/RoadManager.cpp:14976, 15101). *)
Definition set_path (s : Q) (r : route) : route :=
  Route (minimal r) (all_wp r) (scenario r) s (rlength r) (widx r) (on_route r) (invalid r) (cur r).
(** currentPos_.SetLanePos (RM/RoadManager.cpp:15151, 15163) or SetTrackPos (14898). *)
Definition set_cur (c : option (N * Z * Q)) (r : route) : route :=
  Route (minimal r) (all_wp r) (scenario r) (path_s r) (rlength r) (widx r) (on_route r) (invalid r) c.

(** The loop at RM/RoadManager.cpp:15110-15113 and the step back at 15115-15118. *)
Fixpoint passed (l : list waypoint) (s : Q) : nat :=
  match l with
  | [] => O
  | w :: l => if Qltb (w_rs w - SMALL) s then S (passed l s) else O
  end.

Section Roads.
Variable road : N -> option Q.   (* GetRoadById and GetLength *)

(** The position on the route between waypoint i and the next, RM/RoadManager.cpp:15124-15164: the new currentPos_. *)
Definition locate (l : list waypoint) (i : nat) (wp : waypoint) (s : Q) : option (N * Z * Q) :=
  match road (w_track wp) with
  | None => None
  | Some len =>
      let ds := s - w_rs wp in
      if ((i <? List.length l - 1)%nat && ((w_dir wp =? 1)%Z && Qltb (len + SMALL) (w_s wp + ds))) ||
         ((w_dir wp =? -1)%Z && Qltb (w_s wp) (ds + SMALL)) then
        match nth_error l (S i) with
        | None => None
        | Some next =>
            match road (w_track next) with
            | None => None
            | Some next_len =>
                let local_s := if (w_dir wp <? 0)%Z then ds - w_s wp else w_s wp + ds - len in
                let local_s := if (w_dir next <? 0)%Z then next_len - local_s else local_s in
                Some (w_track next, w_lane next, local_s)
            end
        end
      else Some (w_track wp, w_lane wp, if (w_dir wp =? 1)%Z then w_s wp + ds else w_s wp - ds)
  end.

(** Route::SetPathS, RM/RoadManager.cpp:15058-15188: return code, the value written to [*remaining_dist] if any, the route after. *)
Definition SetPathS (r : route) (s : Q) (update_state : bool) : option (rcode * option Q * route) :=
  let out := Qltb (rlength r) s || Qltb s 0 in
  let rem := if out then Some (if Qltb s 0 then - s else s - rlength r) else None in
  let retval := if out then ERROR_END_OF_ROUTE else OK in
  let r := if out && update_state then set_on false r else r in
  if out && negb (on_route r) then Some (retval, rem, r)
  else
    match minimal r with
    | [] => Some (ERROR_GENERIC, rem, set_widx None (set_path 0 r))
    | _ =>
        let i := (passed (minimal r) s - 1)%nat in
        match nth_error (minimal r) i with
        | None => None
        | Some wp =>
            if (w_dir wp =? 0)%Z then Some (ERROR_GENERIC, rem, r)
            else
              match locate (minimal r) i wp s with
              | None => None
              | Some c =>
                  let r := set_cur (Some c) (set_widx (Some i) r) in
                  Some (retval, rem, if negb (on_route r) && update_state then set_on true r else r)
              end
        end
    end.

(** Route::MovePathDS, RM/RoadManager.cpp:15037-15056. *)
Definition MovePathDS (r : route) (ds : Q) (update_state : bool) : option (rcode * option Q * route) :=
  match minimal r with
  | [] => Some (ERROR_GENERIC, None, r)
  | _ =>
      match GetWaypoint r None with
      | None => Some (ERROR_GENERIC, None, r)
      | Some wp => SetPathS r (path_s r + ds * inject_Z (w_dir wp)) update_state
      end
  end.

(** info_for_closest_wp, RM/RoadManager.cpp:14885-14892. *)
Record closest := Closest { c_idx : option nat; c_dist : Q; c_along : Q; c_ret : rcode; c_s : Q }.

(** One round of the loop at RM/RoadManager.cpp:14903-14971; [d] is the distance of the waypoint to the position, [None] is an access
    to all_waypoints_ that has no entries. *)
Definition track_round (r : route) (track : N) (s : Q) (i : nat) (wp : waypoint) (d : Q) (c : closest) : option closest :=
  if negb (w_track wp =? track)%N then Some c
  else if Qltb (c_dist c - SMALL) (Qabs d) then Some c
  else
    let along := if (0 <? w_dir wp)%Z then w_rs wp + s - w_s wp else w_rs wp + w_s wp - s in
    let keep := Some (Closest (Some i) (Qabs d) along OK s) in
    let stop (w : option waypoint) :=
      match w with
      | None => None
      | Some w =>
          if (w_track w =? track)%N
          then Some (Closest (Some i) (Qabs d) along (if on_route r then ERROR_END_OF_ROUTE else ERROR_NOT_ON_ROUTE) (w_s wp))
          else Some (Closest (Some i) (Qabs d) along OK (w_s wp))
      end in
    if (i =? 0)%nat then
      if ((0 <? w_dir wp)%Z && Qltb s (w_s wp)) || ((w_dir wp <? 0)%Z && Qltb (w_s wp) s) then stop (head (all_wp r)) else keep
    else if (i =? List.length (minimal r) - 1)%nat then
      if ((0 <? w_dir wp)%Z && Qltb (w_s wp) s) || ((w_dir wp <? 0)%Z && Qltb s (w_s wp)) then stop (head (rev (all_wp r))) else keep
    else keep.

(** The loop at RM/RoadManager.cpp:14903-14971; [i] is the index of the first waypoint in [l]. *)
Fixpoint track_loop (dist : waypoint -> N -> Q -> Q) (r : route) (track : N) (s : Q) (i : nat) (l : list waypoint) (c : closest) : option closest :=
  match l with
  | [] => Some c
  | wp :: l =>
      match track_round r track s i wp (dist wp track s) c with
      | None => None
      | Some c => track_loop dist r track s (S i) l c
      end
  end.

(** Route::SetTrackS, RM/RoadManager.cpp:14882-15035; [dist] is Position::Distance at 14910. *)
Definition SetTrackS (dist : waypoint -> N -> Q -> Q) (r : route) (track : N) (s : Q) (update_state : bool) : option (rcode * route) :=
  match minimal r with
  | [] => Some (ERROR_END_OF_ROUTE, set_cur None (set_widx None (set_path 0 r)))
  | _ =>
      match track_loop dist r track s 0 (minimal r) (Closest None LARGE 0 ERROR_NOT_ON_ROUTE 0) with
      | None => None
      | Some c =>
          match c_idx c with
          | Some i =>
              match nth_error (minimal r) i with
              | None => None
              | Some wp =>
                  let r := set_cur (Some (w_track wp, w_lane wp, c_s c)) (set_path (CLAMP (c_along c) 0 (rlength r)) r) in
                  match c_ret c with
                  | ERROR_END_OF_ROUTE | ERROR_NOT_ON_ROUTE =>
                      Some (c_ret c, let r := set_widx None r in if update_state then set_on false r else r)
                  | _ => Some (c_ret c, let r := set_widx (Some i) r in if update_state then set_on true r else r)
                  end
              end
          | None => Some (c_ret c, let r := set_widx None r in if update_state then set_on false r else r)
          end
      end
  end.

(** ** Building a route *)

Variable is_pred is_succ : N -> N -> bool.   (* road1.IsPredecessor(&road0), road1.IsSuccessor(&road0) *)

(** SetRouteWaypointDir, RM/RoadManager.hpp:4923-4926. *)
Definition set_dir (d : Z) (w : waypoint) : waypoint := WP (w_track w) (w_lane w) (w_s w) (w_rs w) d.
(** SetRouteWaypointS, RM/RoadManager.hpp:4913-4916. *)
Definition set_rs (s : Q) (w : waypoint) : waypoint := WP (w_track w) (w_lane w) (w_s w) s (w_dir w).

(** Route::CalculcateWPDirWrtWP, RM/RoadManager.cpp:14758-14811: the waypoint after the call. *)
Definition CalculcateWPDirWrtWP (wp wp_ref : waypoint) (successor : bool) : option waypoint :=
  match road (w_track wp_ref), road (w_track wp) with
  | Some _, Some _ =>
      Some
        (if (w_track wp_ref =? w_track wp)%N then
           if (successor && Qltb (w_s wp_ref) (w_s wp)) || (negb successor && Qltb (w_s wp) (w_s wp_ref)) then set_dir 1 wp else set_dir (-1) wp
         else if is_pred (w_track wp) (w_track wp_ref) then set_dir (if successor then 1 else -1)%Z wp
         else if is_succ (w_track wp) (w_track wp_ref) then set_dir (if successor then -1 else 1)%Z wp
         else wp)
  | _, _ => None
  end.

(** The loop of ReplaceMinimalWaypoints after the first waypoint, RM/RoadManager.cpp:14831-14868; [prev] is the waypoint before,
    [route_s] the sum so far. *)
Fixpoint replace_loop (prev : waypoint) (route_s : Q) (l : list waypoint) : option (list waypoint) :=
  match l with
  | [] => Some []
  | w :: l =>
      match CalculcateWPDirWrtWP w prev true, road (w_track prev), road (w_track w) with
      | Some w, Some plen, Some len =>
          let route_s := route_s + (if (w_dir prev =? -1)%Z then w_s prev else plen - w_s prev) in
          let route_s := route_s + (if (w_dir w =? -1)%Z then len - w_s w else w_s w) in
          let w := set_rs route_s w in
          option_map (cons w) (replace_loop w route_s l)
      | _, _, _ => None
      end
  end.

(** Route::ReplaceMinimalWaypoints, RM/RoadManager.cpp:14813-14871; length_ and the other waypoints are not touched. *)
Definition ReplaceMinimalWaypoints (r : route) (wps : list waypoint) : option (Z * route) :=
  match wps with
  | a :: b :: l =>
      match CalculcateWPDirWrtWP a b false with
      | None => None
      | Some a =>
          let a := set_rs 0 a in
          option_map (fun l => (0%Z, Route (a :: l) (all_wp r) (scenario r) (path_s r) (rlength r) (widx r) (on_route r) (invalid r) (cur r)))
            (replace_loop a 0 (b :: l))
      end
  | _ => Some ((-1)%Z, r)
  end.

(** Replace the first element (RM/RoadManager.cpp:14607-14608: the direction of the first waypoint). *)
Definition on_head (f : waypoint -> waypoint) (l : list waypoint) : list waypoint := match l with [] => [] | w :: l => f w :: l end.

(** Route::AddWaypointInternal, RM/RoadManager.cpp:14582-14640.  [None] is an access out of bounds of scenario_waypoints_ or
    minimal_waypoints_, or a null road. *)
Definition AddWaypointInternal (r : route) (wp : waypoint) (scenario_wp route_found : bool) : option route :=
  match all_wp r with
  | [] => Some (Route (minimal r ++ [wp]) [wp] (scenario r ++ [wp]) (path_s r) (rlength r) (widx r) (on_route r) (invalid r) (cur r))
  | first :: more =>
      let first_step :=
        match more with
        | _ :: _ => Some r
        | [] =>
            match CalculcateWPDirWrtWP first wp false, scenario r, minimal r with
            | Some first, _ :: _, _ :: _ =>
                Some (Route (on_head (set_dir (w_dir first)) (minimal r)) [first] (on_head (set_dir (w_dir first)) (scenario r)) (path_s r) (rlength r)
                        (widx r) (on_route r) (invalid r) (cur r))
            | _, _, _ => None
            end
        end in
      match first_step with
      | None => None
      | Some r =>
          match head (rev (all_wp r)) with
          | None => None
          | Some back =>
              match CalculcateWPDirWrtWP wp back true with
              | None => None
              | Some wp =>
                  Some (Route (if route_found then minimal r ++ [wp] else minimal r) (all_wp r ++ [wp]) (if scenario_wp then scenario r ++ [wp] else scenario r)
                          (path_s r) (rlength r) (widx r) (on_route r) (invalid r) (cur r))
              end
          end
      end
  end.

Variable path : waypoint -> waypoint -> Z * Q * list waypoint.
  (* RoadPath::Calculate: return value, distance, and for each road in between the position at a third of it, in the order of the path *)
Variable distance : waypoint -> waypoint -> option Q.   (* Position::Distance along the road, None if it fails *)

(** The loop at RM/RoadManager.cpp:14699-14725; [acc] is length_mid_acc_.  [None]: the simulation is quit (14723), or as for
    AddWaypointInternal. *)
Fixpoint add_mids (r : route) (acc : Q) (mids : list waypoint) : option route :=
  match mids with
  | [] => Some r
  | m :: mids =>
      match head (rev (all_wp r)) with
      | None => None
      | Some back =>
          match distance back m with
          | None => None
          | Some d =>
              let acc := acc + Qabs d in
              match AddWaypointInternal r (set_rs acc m) false true with
              | None => None
              | Some r => add_mids r acc mids
              end
          end
      end
  end.

(** removelast for std::vector::pop_back (RM/RoadManager.cpp:14659, 14664), and the removal of the previous waypoint,
    RM/RoadManager.cpp:14648-14667. *)
Definition drop_previous (r : route) (track : N) : option route :=
  match minimal r with
  | a :: b :: l =>
      let back := last (b :: l) b in
      if ((List.length (minimal r) =? 2)%nat && (w_track a =? w_track b)%N) || (track =? w_track back)%N then
        let m := removelast (minimal r) in
        Some (Route m (all_wp r) (if (1 <? List.length (scenario r))%nat then removelast (scenario r) else scenario r) (path_s r) (w_rs (last m a)) (widx r)
                (on_route r) (invalid r) (cur r))
      else Some r
  | _ => Some r
  end.

(** Route::AddWaypoint, RM/RoadManager.cpp:14642-14756.  The heading of the first waypoint (14676-14679) is part of [path]. *)
Definition AddWaypoint (r : route) (position : waypoint) : option route :=
  match minimal r with
  | [] => AddWaypointInternal (set_cur (Some (w_track position, w_lane position, w_s position)) r) position true true
  | _ =>
      match drop_previous r (w_track position) with
      | None => None
      | Some r =>
          match head (rev (minimal r)) with
          | None => None
          | Some back =>
              let '(retval, dist, mids) := path back position in
              if (retval =? 0)%Z then
                match add_mids r (rlength r) mids with
                | None => None
                | Some r =>
                    let len := rlength r + Qabs dist in
                    AddWaypointInternal (Route (minimal r) (all_wp r) (scenario r) (path_s r) len (widx r) (on_route r) (invalid r) (cur r)) (set_rs len position) true true
                end
              else
                let r := Route (minimal r) (all_wp r) (scenario r) (path_s r) (rlength r) (widx r) (on_route r) ((retval <? 0)%Z || invalid r) (cur r) in
                if (-1 <=? retval)%Z then AddWaypointInternal r position true false else Some r
          end
      end
  end.

(** Route::CheckValid, RM/RoadManager.cpp:14873-14880. *)
Definition CheckValid (r : route) : route :=
  if invalid r then Route [] (all_wp r) (scenario r) (path_s r) (rlength r) (widx r) (on_route r) (invalid r) (cur r) else r.

End Roads.
