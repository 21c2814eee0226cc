(** * Moving along the roads: Position::MoveAlongS in RoadManager.cpp

    Doubles are rationals.  The current road is the one with id track_id_ (track_idx_ is its index, by C32), roads have at least one
    geometry.  Not modelled: x, y, z and angles (of the heading only whether it was turned round), routes (route_ is null), logging.
    A result [None] is an access through a null pointer.
    RM = EnvironmentSimulator/Modules/RoadManager. *)
From Coq Require Import NArith.
From Verif Require Import QAux LaneModel IdModel NetModel.
Local Open Scope nat_scope.
Local Open Scope Q_scope.

(** Position::ReturnCode, RM/RoadManager.hpp:3871-3882. *)
Definition R_END_OF_ROAD : Z := (-2)%Z.
Definition R_GENERIC : Z := (-1)%Z.
Definition R_OK : Z := 0%Z.
Definition R_ENTERED_NEW_ROAD : Z := 1%Z.
Definition R_MADE_JUNCTION_CHOICE : Z := 2%Z.
Definition R_REACHED_END_OF_LANE : Z := 3%Z.

(** The members of class Position used here, RM/RoadManager.hpp:4989-5059: track_id_, s_, t_, offset_, lane_id_, lane_idx_ ([None]:
    IDX_UNDEFINED), lane_section_idx_, whether pi was added to h_relative_, the bit POS_STATUS_END_OF_ROAD of status_. *)
Record mpos := MPos { m_track : N; m_s : Q; m_t : Q; m_offset : Q; m_lane : Z; m_idx : option nat; m_sec : nat; m_turned : bool; m_end : bool }.

(** Assignments to members (RM/RoadManager.cpp:9806-9882, 10551, 10577, 10590, 10595, 10602-10608, 10265). *)
Definition with_s (s : Q) (p : mpos) := MPos (m_track p) s (m_t p) (m_offset p) (m_lane p) (m_idx p) (m_sec p) (m_turned p) (m_end p).
Definition with_t (t : Q) (p : mpos) := MPos (m_track p) (m_s p) t (m_offset p) (m_lane p) (m_idx p) (m_sec p) (m_turned p) (m_end p).
Definition with_offset (o : Q) (p : mpos) := MPos (m_track p) (m_s p) (m_t p) o (m_lane p) (m_idx p) (m_sec p) (m_turned p) (m_end p).
Definition with_lane (k : Z) (p : mpos) := MPos (m_track p) (m_s p) (m_t p) (m_offset p) k (m_idx p) (m_sec p) (m_turned p) (m_end p).
Definition with_idx (i : option nat) (p : mpos) := MPos (m_track p) (m_s p) (m_t p) (m_offset p) (m_lane p) i (m_sec p) (m_turned p) (m_end p).
Definition with_sec (i : nat) (p : mpos) := MPos (m_track p) (m_s p) (m_t p) (m_offset p) (m_lane p) (m_idx p) i (m_turned p) (m_end p).
Definition with_turned (b : bool) (p : mpos) := MPos (m_track p) (m_s p) (m_t p) (m_offset p) (m_lane p) (m_idx p) (m_sec p) b (m_end p).
Definition with_end (b : bool) (p : mpos) := MPos (m_track p) (m_s p) (m_t p) (m_offset p) (m_lane p) (m_idx p) (m_sec p) (m_turned p) b.

(** Position::DistanceToDS, RM/RoadManager.cpp:10310-10332, on curvature and offset; [resnap] are curvature and offset after
    XYZ2TrackPos.  [None]: division by zero. *)
Definition DistanceToDS (curvature offset ds : Q) (resnap : Q * Q) : option Q :=
  if Qltb SMALL (Qabs curvature) then
    let '(c, o) := if Qltb (1 - SMALL) (curvature * offset) then resnap else (curvature, offset) in
    if Qeqb (1 - c * o) 0 then None else Some (ds * (1 / (1 - c * o)))
  else Some ds.

Section Net.
Variable net : network.
Variable mask : Z.                                    (* snapToLaneTypes_ *)
Variable lht : N -> bool.                             (* road rule LEFT_HAND_TRAFFIC *)
Variable choose : N -> N -> Z -> nat -> nat.          (* the connection chosen among [n] in a junction, from a road and lane *)

(** Is there no link at the end the position is at (RM/RoadManager.cpp:9873-9874, 10530-10531). *)
Definition at_dead_end (r : nroad) (s : Q) : bool :=
  (Qltb s SMALL && match Road_GetLink r PREDECESSOR with None => true | Some _ => false end) ||
  (Qltb (Length r - SMALL) s && match Road_GetLink r SUCCESSOR with None => true | Some _ => false end).

(** Position::SetLongitudinalTrackPos, RM/RoadManager.cpp:9797-9884. *)
Definition SetLongitudinalTrackPos (p : mpos) (track : N) (s : Q) : Z * mpos :=
  match net_roads net with
  | [] => (R_GENERIC, p)
  | _ =>
      if (track =? ID_UNDEFINED)%N then (R_GENERIC, p)
      else
        match GetRoad net track with
        | None => (R_GENERIC, MPos track s (m_t p) (m_offset p) (m_lane p) (m_idx p) (m_sec p) (m_turned p) (m_end p))
        | Some r =>
            let p := if (track =? m_track p)%N then p else MPos track (m_s p) (m_t p) (m_offset p) 0 (Some 0%nat) 0 (m_turned p) (m_end p) in
            if Qltb (Length r) s then (R_END_OF_ROAD, with_end true (with_s (Length r) p))
            else
              let s := if Qltb s 0 then 0 else s in
              (R_OK, with_end (at_dead_end r s) (with_s s p))
        end
  end.

(** Position::Lane2Track, RM/RoadManager.cpp:9735-9750. *)
Definition to_track (r : nroad) (p : mpos) : mpos :=
  with_t
    match nth_error (r_sections (nr_road r)) (m_sec p) with
    | None => 0
    | Some ls => m_offset p + GetLaneOffset (r_offset (nr_road r)) (m_s p) + GetCenterOffset ls (m_s p) (m_lane p) * (if (m_lane p <? 0)%Z then (-1) else 1)
    end p.

(** The lane section and lane of a position, RM/RoadManager.cpp:10609-10631: lane_idx_, then Lane2Track (Track2XYZ is not modelled). *)
Definition finish_lane (r : nroad) (ret : Z) (p : mpos) : Z * mpos :=
  match nth_error (r_sections (nr_road r)) (m_sec p) with
  | None => (ret, to_track r p)
  | Some ls =>
      match GetLaneIdxById ls (m_lane p) with
      | None => (R_GENERIC, with_idx None p)
      | Some i => (ret, to_track r (with_idx (Some i) p))
      end
  end.

(** Position::SetLanePos and SetLanePosMode, RM/RoadManager.cpp:10544-10631; [sec] is lane_section_idx ([None]: IDX_UNDEFINED). *)
Definition SetLanePos (p : mpos) (track : N) (lane_id : Z) (s offset : Q) (sec : option nat) : option (Z * mpos) :=
  let '(ret, p) := SetLongitudinalTrackPos (with_offset offset p) track s in
  if (ret =? R_GENERIC)%Z then Some (ret, with_offset offset (with_lane lane_id p))
  else
    match GetRoad net track with
    | None => Some (R_GENERIC, with_offset offset (with_lane lane_id p))
    | Some r =>
        let sec := match sec with
                   | Some i => Some i
                   | None => if (lane_id =? m_lane p)%Z then None else GetLaneSectionIdxByS (r_sections (nr_road r)) s 0
                   end in
        match sec with
        | Some i =>
            let p := with_sec i p in
            match nth_error (r_sections (nr_road r)) i with
            | None => Some (R_GENERIC, p)
            | Some ls =>
                match GetLaneById ls lane_id with
                | None => Some (R_GENERIC, p)
                | Some _ => Some (finish_lane r ret (with_lane lane_id p))
                end
            end
        | None =>
            match GetLaneInfoByS (nr_road r) (m_s p) (m_sec p) (m_lane p) mask with
            | None => None
            | Some (reached, i, k) =>
                Some (finish_lane r (if (ret =? R_OK)%Z then if reached then R_REACHED_END_OF_LANE else R_OK else ret) (with_lane k (with_sec i p)))
            end
        end
    end.

(** SetTrackPos without update of x and y, RM/RoadManager.cpp:9886-9916, with Track2Lane (8780-8821); lane_idx_ is defined (the only call
    here is after the lane was found by it). *)
Definition SetTrackPos (p : mpos) (track : N) (s t : Q) : Z * mpos :=
  let '(ret, p) := SetLongitudinalTrackPos p track s in
  if (ret =? R_GENERIC)%Z then (ret, p)
  else
    match GetRoad net track with
    | None => (ret, with_t t p)
    | Some r =>
        let q := Track2Lane (nr_road r) mask (Pos (m_s p) t (m_offset p) (m_lane p) (match m_idx p with Some i => i | None => 0%nat end) (m_sec p)) in
        (ret, MPos (m_track p) (m_s p) t (p_offset q) (p_lane_id q) (Some (p_lane_idx q)) (p_lsec_idx q) (m_turned p) (m_end p))
    end.

(** Where a link leads from a lane of a road, RM/RoadManager.cpp:10072-10205: code, contact point, lane, road ([None]: null). *)
Definition link_target (r : nroad) (lane_ : lane) (l : rlink) : Z * contact * Z * option nroad :=
  match rl_elem l with
  | ELEMENT_ROAD =>
      (R_ENTERED_NEW_ROAD, rl_contact l, match GetLink lane_ (rl_type l) with Some k => k | None => 0%Z end, GetRoad net (rl_id l))
  | ELEMENT_JUNCTION =>
      match GetJunction net (rl_id l) with
      | None => (R_GENERIC, CP_UNDEFINED, 0%Z, None)
      | Some j =>
          match GetNumberOfRoadConnections j (nr_id r) (l_id lane_) with
          | O => (R_GENERIC, CP_UNDEFINED, 0%Z, None)
          | n =>
              let idx := if (n =? 1)%nat then O else choose (j_id j) (nr_id r) (l_id lane_) n in
              let c := GetRoadConnectionByIdx j (nr_id r) (l_id lane_) idx in
              (R_MADE_JUNCTION_CHOICE, lrl_contact c, lrl_to c, GetRoad net (lrl_road c))
          end
      end
  | ELEMENT_UNKNOWN => (R_OK, CP_UNDEFINED, 0%Z, None)
  end.

(** The move onto the next road, RM/RoadManager.cpp:10207-10299. *)
Definition enter_road (p : mpos) (l : rlink) (ret : Z) (cp : contact) (new_lane_id : Z) (next : nroad) : option (Z * contact * mpos) :=
  if (new_lane_id =? 0)%Z then
    match cp with
    | CP_START | CP_END =>
        let '(ret, p) := SetTrackPos p (nr_id next) (if contact_eqb cp CP_START then 0 else Length next) (m_t p) in
        Some (if (0 <=? ret)%Z then R_REACHED_END_OF_LANE else ret, cp, with_offset 0 p)
    | _ => Some (R_GENERIC, cp, p)
    end
  else
    let turn := (LinkType_eqb (rl_type l) PREDECESSOR && contact_eqb cp CP_START) || (LinkType_eqb (rl_type l) SUCCESSOR && contact_eqb cp CP_END) in
    let new_offset := if turn then - m_offset p else m_offset p in
    let p := if turn then with_turned (negb (m_turned p)) p else p in
    let set s sec := option_map (fun x => (ret, cp, snd x)) (SetLanePos p (nr_id next) new_lane_id s new_offset sec) in
    match rl_contact l with
    | CP_START => set 0 (Some 0%nat)
    | CP_END =>
        match GetRoad net (rl_id l) with
        | None => None
        | Some e => set (Length next) (match List.length (r_sections (nr_road e)) with O => None | S n => Some n end)
        end
    | CP_JUNCTION =>
        match rl_elem l with
        | ELEMENT_JUNCTION =>
            match cp with
            | CP_START => set 0 None
            | CP_END => set (Length next) None
            | _ => Some (ret, cp, p)
            end
        | _ => Some (R_GENERIC, cp, p)
        end
    | CP_UNDEFINED => Some (R_GENERIC, cp, p)
    end.

(** Position::MoveToConnectingRoad, RM/RoadManager.cpp:10024-10299: code, contact point, position. *)
Definition MoveToConnectingRoad (p : mpos) (l : rlink) : option (Z * contact * mpos) :=
  match GetRoad net (m_track p) with
  | None => Some (R_GENERIC, CP_UNDEFINED, p)
  | Some r =>
      if (rl_id l =? ID_UNDEFINED)%N then Some (R_GENERIC, CP_UNDEFINED, p)
      else
        match nth_error (r_sections (nr_road r)) (m_sec p) with
        | None => Some (R_GENERIC, CP_UNDEFINED, p)
        | Some ls =>
            match match m_idx p with None => None | Some i => nth_error (ls_lanes ls) i end with
            | None => Some (R_GENERIC, CP_UNDEFINED, p)
            | Some lane_ =>
                let '(ret, cp, k, next) := link_target r lane_ l in
                match next with
                | None => Some (R_GENERIC, cp, p)
                | Some next => enter_road p l ret cp k next
                end
            end
        end
  end.

(** The check for a lane of no width, RM/RoadManager.cpp:10468-10519: the new code and position; [ret2] is the code of SetLanePos. *)
Definition check_width (r : nroad) (ret ret2 : Z) (p : mpos) : option (Z * mpos) :=
  if (m_lane p =? 0)%Z then Some (ret, p)
  else
    match GetLaneInfoByS (nr_road r) (m_s p) (m_sec p) (m_lane p) mask with
    | None => None
    | Some (true, _, _) => Some (R_GENERIC, p)
    | Some (false, i, k) =>
        if Qltb (GetLaneWidthByS (r_sections (nr_road r)) (m_s p) k) SMALL then
          match nth_error (r_sections (nr_road r)) i with
          | None => None
          | Some ls =>
              match fst (GetClosestLaneIdx ls (m_s p) (m_t p) (GetLaneOffset (r_offset (nr_road r)) (m_s p)) (SIGN (m_lane p)) true mask) with
              | None => Some (R_GENERIC, p)
              | Some j =>
                  match nth_error (ls_lanes ls) j with
                  | None => None
                  | Some la =>
                      if (l_id la =? 0)%Z && negb (mask =? -1)%Z then Some (R_GENERIC, p)
                      else option_map (fun x => (ret, snd x)) (SetLanePos p (m_track p) (l_id la) (m_s p) 0 None)
                  end
              end
          end
        else Some (if (ret =? R_OK)%Z then ret2 else ret, p)
    end.

(** The update of the position in each round of MoveAlongS, RM/RoadManager.cpp:10454-10527: code, position, and whether to stop. *)
Definition settle (ret : Z) (s offset : Q) (p : mpos) : option (Z * mpos * bool) :=
  match GetRoad net (m_track p) with
  | None => None
  | Some r =>
      match SetLanePos p (m_track p) (m_lane p) s offset None with
      | None => None
      | Some (ret2, q) =>
          let res :=
            if negb (SIGN (m_lane q) =? SIGN (m_lane p))%Z then Some (R_GENERIC, q)
            else if (0 <=? ret2)%Z then check_width r ret ret2 q
            else Some (ret2, q) in
          match res with
          | None => None
          | Some (ret, q) => if (ret =? R_GENERIC)%Z then Some (ret, p, true) else Some (ret, q, false)
          end
      end
  end.

(** How a round of MoveAlongS ends: within the road, at the end of the road, or on the next road. *)
Inductive step := Within (ret : Z) (p : mpos) | Stopped (p : mpos) | Crossed (ret : Z) (p : mpos) (ds sdOff : Q) (stop : bool).

(** Leaving road [r] by its link of type [t], RM/RoadManager.cpp:10402-10454, with [rest] beyond its end at [s_stop]. *)
Definition cross_end (r : nroad) (p : mpos) (dOff : Q) (t : LinkType) (sec : nat) (rest s_stop : Q) : option step :=
  let p := with_sec sec p in
  let stop := option_map (fun x => Stopped (with_end true (snd x))) in
  match Road_GetLink r t with
  | None => stop (SetLanePos p (m_track p) (m_lane p) s_stop (m_offset p) None)
  | Some l =>
      if (rl_id l =? ID_UNDEFINED)%N then stop (SetLanePos p (m_track p) (m_lane p) s_stop (m_offset p) None)
      else
        match MoveToConnectingRoad p l with
        | None => None
        | Some (ret, cp, p) =>
            if (ret <? 0)%Z then stop (SetLanePos p (m_track p) (m_lane p) s_stop (m_offset p) None)
            else
              let '(ds, sdOff) := if contact_eqb cp CP_END then (- Qabs rest, - dOff) else (Qabs rest, dOff) in
              option_map (fun x => let '(ret, p, stop) := x in Crossed ret p ds sdOff stop) (settle ret (m_s p + 0) (m_offset p + sdOff) p)
        end
  end.

(** One round of the loop of MoveAlongS, RM/RoadManager.cpp:10395-10527. *)
Definition move_round (p : mpos) (ds dOff sdOff : Q) (ret : Z) : option step :=
  match GetRoad net (m_track p) with
  | None => None
  | Some r =>
      if Qltb (Length r) (m_s p + ds) then cross_end r p dOff SUCCESSOR (List.length (r_sections (nr_road r)) - 1)%nat (m_s p + ds - Length r) (Length r)
      else if Qltb (m_s p + ds) 0 then cross_end r p dOff PREDECESSOR 0%nat (m_s p + ds) 0
      else option_map (fun x => let '(ret, p, _) := x in Within ret p) (settle ret (m_s p + ds) (m_offset p + sdOff) p)
  end.

(** The loop of MoveAlongS, RM/RoadManager.cpp:10395-10527, with [n] rounds left: code, position, and whether POS_STATUS_END_OF_ROAD was
    set for good (the function returned in the loop). *)
Fixpoint move_loop (n : nat) (p : mpos) (ds dOff sdOff : Q) (ret : Z) : option (Z * mpos * bool) :=
  match n with
  | O => Some (ret, p, false)
  | S n =>
      match move_round p ds dOff sdOff ret with
      | None => None
      | Some (Within ret p) => Some (ret, p, false)
      | Some (Stopped p) => Some (R_END_OF_ROAD, p, true)
      | Some (Crossed ret p ds sdOff true) => Some (ret, p, false)
      | Some (Crossed ret p ds sdOff false) => move_loop n p ds dOff sdOff ret
      end
  end.

(** MoveDirectionMode, RM/RoadManager.hpp:3947-3952. *)
Inductive dmode := HEADING_DIRECTION | ROAD_DIRECTION | LANE_DIRECTION.

(** ds along the road axis, RM/RoadManager.cpp:10348-10370; [ds] is already the distance along the reference line (DistanceToDS), and
    [forward] is IsAngleForward (GetHRelative ()). *)
Definition road_ds (mode : dmode) (forward left : bool) (lane_id : Z) (ds : Q) : Q :=
  match mode with
  | HEADING_DIRECTION => ds * (if forward then 1 else - 1)
  | ROAD_DIRECTION => ds
  | LANE_DIRECTION => if left then ds * inject_Z (SIGN lane_id) else ds * inject_Z (- SIGN lane_id)
  end.

(** Position::MoveAlongS, RM/RoadManager.cpp:10334-10542, without route. *)
Definition MoveAlongS (p : mpos) (ds dLaneOffset : Q) (mode : dmode) (forward : bool) : option (Z * mpos) :=
  match GetRoad net (m_track p) with
  | None => match mode with LANE_DIRECTION => None | _ => Some (R_GENERIC, p) end
  | Some _ =>
      match move_loop 8 p (road_ds mode forward (lht (m_track p)) (m_lane p) ds) dLaneOffset dLaneOffset R_OK with
      | None => None
      | Some (ret, q, true) => Some (ret, q)
      | Some (ret, q, false) =>
          Some (ret, match GetRoad net (m_track q) with None => q | Some r => with_end (at_dead_end r (m_s q)) q end)
      end
  end.

End Net.

(** The choice among the connections by angle, RM/RoadManager.cpp:10151-10189: [diffs] are the heading differences of the connections,
    [coin] the random draws. *)
Fixpoint angle_choice (diffs : list Q) (coin : nat -> bool) (i best : nat) (min_diff : Q) : nat :=
  match diffs with
  | [] => best
  | d :: r =>
      if Qltb d min_diff || (Qltb (Qabs (d - min_diff)) SMALL && coin i) then angle_choice r coin (S i) i d
      else angle_choice r coin (S i) best min_diff
  end.

(** The choice along a route, RM/RoadManager.cpp:10118-10150: for each connection whether it leads to the road the route leaves by and
    whether it is the route's current road. *)
Fixpoint route_choice (conns : list (bool * bool)) (i idx : nat) (optimal : option nat) : nat :=
  match conns with
  | [] => match optimal with Some k => k | None => idx end
  | (target, here) :: r => if target then route_choice r (S i) i (if here then Some i else optimal) else route_choice r (S i) idx optimal
  end.
