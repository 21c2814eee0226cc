(** * Lanes, lane sections and records along a road

    RM = EnvironmentSimulator/Modules/RoadManager.  Doubles are exact rationals, ints are unbounded integers, pointers in
    the lists are never null.  Log messages are left out.  [None] is IDX_UNDEFINED or a null pointer where the code
    returns one; undefined behaviour is said to be so at the definition. *)
From Coq Require Import PeanoNat.
From Verif Require Import QAux.
Open Scope Q_scope.

(** SIGN on int and on double, CM/CommonMini.hpp:55 (the sign of zero is +1). *)
Definition SIGN (x : Z) : Z := if (x <? 0)%Z then (-1)%Z else 1%Z.
(** MAX, MIN, CLAMP, CM/CommonMini.hpp:56, 57, 62. *)
Definition MAX (x y : Q) : Q := if Qltb x y then y else x.
Definition MIN (x y : Q) : Q := if Qltb y x then y else x.
Definition CLAMP (x lo hi : Q) : Q := MIN hi (MAX lo x).
(** NEAR_NUMBERS, CM/CommonMini.hpp:65. *)
Definition NEAR_NUMBERS (x y : Q) : bool := Qltb (Qabs (x - y)) SMALL.

(** roadmanager::GetRelativeLaneId, RM/RoadManager.cpp:648-662. *)
Definition GetRelativeLaneId (lane_id offset : Z) : Z :=
  let result := (lane_id + offset)%Z in
  if (lane_id =? 0)%Z || (offset =? 0)%Z then result
  else if (result =? 0)%Z || negb (SIGN result =? SIGN lane_id)%Z then (result + SIGN offset)%Z
  else result.

(** roadmanager::GetLaneIdDelta, RM/RoadManager.cpp:664-676. *)
Definition GetLaneIdDelta (from_lane to_lane : Z) : Z :=
  let result := (to_lane - from_lane)%Z in
  if negb (from_lane =? to_lane)%Z then
    if (from_lane =? 0)%Z || (to_lane =? 0)%Z || negb (SIGN from_lane =? SIGN to_lane)%Z then (result - SIGN result)%Z else result
  else result.

(** class Polynomial, RM/RoadManager.hpp:51-107; Set, RM/RoadManager.cpp:734-741. *)
Record poly := Poly { pa : Q; pb : Q; pc : Q; pd : Q; p_scale : Q }.
(** Polynomial::Evaluate, RM/RoadManager.cpp:713-718. *)
Definition Evaluate (f : poly) (p : Q) : Q :=
  let p := p * p_scale f in pa f + p * pb f + p * p * pc f + p * p * p * pd f.
(** Polynomial::EvaluatePrim, RM/RoadManager.cpp:720-725. *)
Definition EvaluatePrim (f : poly) (p : Q) : Q :=
  let p := p * p_scale f in pb f + 2 * p * pc f + 3 * p * p * pd f.
(** Polynomial::EvaluatePrimPrim, RM/RoadManager.cpp:727-732. *)
Definition EvaluatePrimPrim (f : poly) (p : Q) : Q :=
  let p := p * p_scale f in 2 * pc f + 6 * p * pd f.

(** std::upper_bound on a partitioned range: the index of the first element for which [stop] holds.  (Unspecified on other
    ranges.) *)
Fixpoint upper_bound {A} (stop : A -> bool) (l : list A) : nat :=
  match l with
  | [] => O
  | x :: r => if stop x then O else S (upper_bound stop r)
  end.

Section Records.
Context {A : Type} (key : A -> Q).

(** The loop of Lane::AddLaneWidth, RM/RoadManager.cpp:1268-1275: insert before the first record starting after the new one. *)
Fixpoint insert_before (x : A) (l : list A) : list A :=
  match l with
  | [] => [x]
  | a :: r => if Qltb (key x) (key a) then x :: a :: r else a :: insert_before x r
  end.

(** Lane::AddLaneWidth, RM/RoadManager.cpp:1264-1279; AddLaneHeight, 1281-1296; AddLaneRoadMark, 1298-1313: the same text
    for another element type. *)
Definition AddRecord (l : list A) (x : A) : list A :=
  match rev l with
  | back :: _ => if Qltb (key x) (key back) then insert_before x l else l ++ [x]
  | [] => l ++ [x]
  end.

(** Lane::GetWidthByS, RM/RoadManager.cpp:1251-1262; GetMaterialByS, 1326-1338. *)
Definition GetRecordByS (l : list A) (s : Q) : option A :=
  match l with
  | [] => None
  | _ :: tl =>
      let k := upper_bound (fun w => Qltb s (key w)) tl in
      if (k <? List.length tl)%nat then nth_error l k
      else nth_error l (List.length l - 1)
  end.

(** The loop of Lane::AddLaneMaterial, RM/RoadManager.cpp:1390-1404. *)
Fixpoint insert_material (x : A) (l : list A) : list A :=
  match l with
  | [] => [x]                                                          (* 1407 *)
  | a :: r => if NEAR_NUMBERS (key x) (key a) then x :: r
              else if Qltb (key x) (key a) then x :: a :: r
              else a :: insert_material x r
  end.

(** Lane::AddLaneMaterial, RM/RoadManager.cpp:1386-1408. *)
Definition AddLaneMaterial (l : list A) (x : A) : list A :=
  match rev l with
  | back :: _ => if Qltb (key x - key back) SMALL then insert_material x l else l ++ [x]
  | [] => l ++ [x]
  end.
End Records.

(** [type_[s] = type] on the std::map of Road::AddRoadType, RM/RoadManager.hpp:3054-3057: entries sorted by key, the value
    of an equal key is overwritten (equal keys are the same number). *)
Fixpoint AddRoadType {T} (l : list (Q * T)) (e : Q * T) : list (Q * T) :=
  match l with
  | [] => [e]
  | a :: r => if Qltb (fst e) (fst a) then e :: a :: r
              else if Qltb (fst a) (fst e) then a :: AddRoadType r e
              else e :: r
  end.

(** Road::GetSpeedByS, RM/RoadManager.cpp:2001-2024 and GetRoadTypeByS, 2026-2050: the entry used; [None] if there is none. *)
Definition GetRoadTypeEntryByS {T} (l : list (Q * T)) (s : Q) : option T :=
  match l with
  | [] => None
  | first :: _ =>
      match upper_bound (fun e => Qltb s (fst e)) l with
      | O => Some (snd first)
      | S k => option_map snd (nth_error l k)
      end
  end.

(** class LaneOffset, RM/RoadManager.hpp:819-862 and class Elevation, 456-487: start, length, polynomial. *)
Record span := Span { sp_s : Q; sp_length : Q; sp_poly : poly }.

(** SetLength on the last element of a vector. *)
Fixpoint set_last_length (len : Q) (l : list span) : list span :=
  match l with
  | [] => []
  | [a] => [Span (sp_s a) len (sp_poly a)]
  | a :: r => a :: set_last_length len r
  end.
(** [back()->GetS()]. *)
Definition back_s (l : list span) : Q := match rev l with a :: _ => sp_s a | [] => 0 end.

(** Road::AddElevation, RM/RoadManager.cpp:2715-2726 and AddSuperElevation, 2728-2739. *)
Definition AddElevation (road_length : Q) (l : list span) (e : span) : list span :=
  set_last_length (sp_s e - back_s l) l ++ [Span (sp_s e) (road_length - sp_s e) (sp_poly e)].

(** Road::AddLaneOffset, RM/RoadManager.cpp:3353-3373. *)
Definition AddLaneOffset (road_length : Q) (l : list span) (e : span) : list span :=
  let l :=
    match l with
    | [] => if Qltb SMALL (sp_s e) then [Span 0 0 (Poly (pa (sp_poly e)) (pb (sp_poly e)) (pc (sp_poly e)) (pd (sp_poly e)) 1)] else []
    | _ => set_last_length (sp_s e - back_s l) l
    end in
  l ++ [Span (sp_s e) (road_length - sp_s e) (sp_poly e)].

(** The loop of Road::GetLaneOffset, RM/RoadManager.cpp:3006-3012: the record used. *)
Fixpoint lane_offset_at (l : list span) (s : Q) : option span :=
  match l with
  | [] => None
  | a :: r => match r with
              | [] => Some a
              | b :: _ => if Qltb s (sp_s b) then Some a else lane_offset_at r s
              end
  end.
(** Road::GetLaneOffset, RM/RoadManager.cpp:2997-3014 with LaneOffset::GetLaneOffset, 1666-1669. *)
Definition GetLaneOffset (l : list span) (s : Q) : Q :=
  match lane_offset_at l s with None => 0 | Some a => Evaluate (sp_poly a) (s - sp_s a) end.
(** Road::GetLaneOffsetPrim, RM/RoadManager.cpp:3016-3033 with LaneOffset::GetLaneOffsetPrim, 1671-1674. *)
Definition GetLaneOffsetPrim (l : list span) (s : Q) : Q :=
  match lane_offset_at l s with None => 0 | Some a => EvaluatePrim (sp_poly a) (s - sp_s a) end.

(** The end of a record. *)
Definition sp_end (e : span) : Q := sp_s e + sp_length e.

Section ElevationSearch.
Variable l : list span.
Variable s : Q.
Variable tol : Q.
(** Moving to the next record, RM/RoadManager.cpp:3436-3440 (with tolerance), 3487-3491 (without). *)
Fixpoint elev_fwd (fuel : nat) (i : nat) : nat :=
  match fuel with
  | O => i
  | S f => match nth_error l i with
           | Some e => if Qltb (sp_end e - tol) s && (i <? List.length l - 1)%nat then elev_fwd f (S i) else i
           | None => i
           end
  end.
(** Moving to the previous record, RM/RoadManager.cpp:3444-3448, 3495-3499. *)
Fixpoint elev_bwd (i : nat) : nat :=
  match i with
  | O => O
  | S j => match nth_error l i with
           | Some e => if Qltb s (sp_s e) then elev_bwd j else i
           | None => i
           end
  end.
(** The record search of Road::GetZAndPitchByS, RM/RoadManager.cpp:3421-3450 (tol = SMALL_NUMBER), and of UpdateRollByS,
    3472-3501 (tol = 0): the new index, [None] without records. *)
Definition elev_search (index : nat) : option nat :=
  if (0 <? List.length l)%nat then
    let index := if (List.length l <=? index)%nat then O else index in
    match nth_error l index with
    | None => None
    | Some e =>
        Some (if Qltb (sp_end e - tol) s then elev_fwd (List.length l) index
              else if Qltb s (sp_s e) then elev_bwd index
              else index)
    end
  else None.
End ElevationSearch.

(** Road::GetZAndPitchByS, RM/RoadManager.cpp:3419-3468: z, z', z'' and the new index; the pitch is -atan z'.  [None]: false is
    returned and the values are zero. *)
Definition GetZAndPitchByS (l : list span) (s : Q) (index : nat) : option (Q * Q * Q * nat) :=
  match elev_search l s SMALL index with
  | None => None
  | Some i => match nth_error l i with
              | None => None
              | Some e => let p := s - sp_s e in
                          Some (Evaluate (sp_poly e) p, EvaluatePrim (sp_poly e) p, EvaluatePrimPrim (sp_poly e) p, i)
              end
  end.
(** Road::UpdateRollByS, RM/RoadManager.cpp:3470-3516: roll, its slope and the new index. *)
Definition UpdateRollByS (l : list span) (s : Q) (index : nat) : option (Q * Q * nat) :=
  match elev_search l s 0 index with
  | None => None
  | Some i => match nth_error l i with
              | None => None
              | Some e => let ds := s - sp_s e in Some (Evaluate (sp_poly e) ds, EvaluatePrim (sp_poly e) ds, i)
              end
  end.

(** enum LinkType, RM/RoadManager.hpp:489-494. *)
Inductive LinkType := NOLINK | SUCCESSOR | PREDECESSOR.
Definition LinkType_eqb (a b : LinkType) : bool :=
  match a, b with NOLINK, NOLINK | SUCCESSOR, SUCCESSOR | PREDECESSOR, PREDECESSOR => true | _, _ => false end.

(** class LaneWidth, RM/RoadManager.hpp:518-536: start offset and polynomial. *)
Definition lane_width := (Q * poly)%type.
(** struct LaneHeight, RM/RoadManager.hpp:913-918. *)
Record lane_height := LaneHeight { lh_s : Q; lh_inner : Q; lh_outer : Q }.

(** class Lane, RM/RoadManager.hpp:864-1072: id, type bits, links, width and height records. *)
Record lane := Lane {
  l_id : Z;
  l_type : Z;
  l_link : list (LinkType * Z);
  l_width : list lane_width;
  l_height : list lane_height }.

(** class LaneSection, RM/RoadManager.hpp:1074-1162: start, length, lanes. *)
Record lsec := LSec { ls_s : Q; ls_length : Q; ls_lanes : list lane }.

(** LANE_TYPE_ANY_DRIVING, RM/RoadManager.hpp:906-907. *)
Definition LANE_TYPE_ANY_DRIVING : Z := 6160898.

(** Lane::IsDriving, RM/RoadManager.cpp:1712-1720. *)
Definition IsDriving (l : lane) : bool :=
  if (l_id l =? 0)%Z then false else negb (Z.land (l_type l) LANE_TYPE_ANY_DRIVING =? 0)%Z.

(** Lane::GetLink, RM/RoadManager.cpp:1410-1421. *)
Definition GetLink (l : lane) (t : LinkType) : option Z :=
  option_map snd (find (fun k => LinkType_eqb (fst k) t) (l_link l)).

(** Lane::GetWidthByS, RM/RoadManager.cpp:1251-1262. *)
Definition GetWidthByS (l : lane) (s : Q) : option lane_width := GetRecordByS fst (l_width l) s.

(** LaneSection::GetLaneById, RM/RoadManager.cpp:2118-2128. *)
Definition GetLaneById (ls : lsec) (id : Z) : option lane := find (fun l => (l_id l =? id)%Z) (ls_lanes ls).

(** LaneSection::GetLaneIdxById, RM/RoadManager.cpp:2143-2153. *)
Fixpoint lane_idx (l : list lane) (id : Z) (i : nat) : option nat :=
  match l with
  | [] => None
  | a :: r => if (l_id a =? id)%Z then Some i else lane_idx r id (S i)
  end.
Definition GetLaneIdxById (ls : lsec) (id : Z) : option nat := lane_idx (ls_lanes ls) id 0.

(** LaneSection::GetLaneIdByIdx, RM/RoadManager.cpp:2130-2141. *)
Definition GetLaneIdByIdx (ls : lsec) (i : nat) : Z := match nth_error (ls_lanes ls) i with None => 0%Z | Some l => l_id l end.

(** LaneSection::GetNumberOfDrivingLanes, RM/RoadManager.cpp:2180-2192. *)
Definition GetNumberOfDrivingLanes (ls : lsec) : nat := List.length (filter IsDriving (ls_lanes ls)).
(** LaneSection::GetNumberOfDrivingLanesSide, RM/RoadManager.cpp:2194-2206. *)
Definition GetNumberOfDrivingLanesSide (ls : lsec) (side : Z) : nat :=
  List.length (filter (fun l => (SIGN (l_id l) =? SIGN side)%Z && IsDriving l) (ls_lanes ls)).
(** LaneSection::GetNUmberOfLanesRight/Left, RM/RoadManager.cpp:2208-2234. *)
Definition GetNUmberOfLanesRight (ls : lsec) : nat := List.length (filter (fun l => (l_id l <? 0)%Z) (ls_lanes ls)).
Definition GetNUmberOfLanesLeft (ls : lsec) : nat := List.length (filter (fun l => (0 <? l_id l)%Z) (ls_lanes ls)).

(** LaneSection::GetWidth, RM/RoadManager.cpp:2236-2264. *)
Definition GetWidth (ls : lsec) (s : Q) (lane_id : Z) : Q :=
  if (lane_id =? 0)%Z then 0
  else
    let s := CLAMP s (ls_s ls) (ls_s ls + ls_length ls) in
    match GetLaneById ls lane_id with
    | None => 0
    | Some l =>
        match GetWidthByS l (s - ls_s ls) with
        | None => 0
        | Some w => Evaluate (snd w) (s - (ls_s ls + fst w))
        end
    end.

(** LaneSection::GetOuterOffset, RM/RoadManager.cpp:2266-2285, by recursion on the absolute value of the lane id. *)
Fixpoint outer_offset (ls : lsec) (s : Q) (neg : bool) (n : nat) : Q :=
  match n with
  | O => 0
  | S m =>
      let width := GetWidth ls s (if neg then - Z.of_nat n else Z.of_nat n) in
      match m with O => width | _ => width + outer_offset ls s neg m end
  end.
Definition GetOuterOffset (ls : lsec) (s : Q) (lane_id : Z) : Q := outer_offset ls s (lane_id <? 0)%Z (Z.abs_nat lane_id).

(** LaneSection::GetInnerOffset, RM/RoadManager.cpp:2287-2304. *)
Definition GetInnerOffset (ls : lsec) (s : Q) (lane_id : Z) : Q :=
  if (lane_id =? 0)%Z then 0
  else if (Z.abs lane_id =? 1)%Z then 0
  else GetOuterOffset ls s (lane_id + (if (lane_id <? 0)%Z then 1 else -1)).

(** LaneSection::GetCenterOffset, RM/RoadManager.cpp:2306-2318. *)
Definition GetCenterOffset (ls : lsec) (s : Q) (lane_id : Z) : Q :=
  if (lane_id =? 0)%Z then 0 else GetOuterOffset ls s lane_id - GetWidth ls s lane_id / 2.

(** LaneSection::GetTotalLaneWidthPrim, RM/RoadManager.cpp:2320-2354, by recursion on the absolute value of the lane id;
    [acc] is accumulated_lane_width_prim. *)
Fixpoint width_prim (ls : lsec) (s : Q) (neg : bool) (n : nat) (center : bool) (acc : Q) : Q :=
  match n with
  | O => acc
  | S m =>
      match GetLaneById ls (if neg then - Z.of_nat n else Z.of_nat n) with
      | None => width_prim ls s neg m center acc
      | Some l =>
          match GetWidthByS l (s - ls_s ls) with
          | None => 0
          | Some w =>
              width_prim ls s neg m false (acc + EvaluatePrim (snd w) (s - (ls_s ls + fst w)) * (if center then 1 # 2 else 1))
          end
      end
  end.
Definition GetTotalLaneWidthPrim (ls : lsec) (s : Q) (lane_id : Z) (center : bool) : Q :=
  if (lane_id =? 0)%Z then 0 else width_prim ls s (lane_id <? 0)%Z (Z.abs_nat lane_id) center 0.

(** The insertion loop of LaneSection::AddLane, RM/RoadManager.cpp:2363-2370. *)
Fixpoint insert_lane (x : lane) (l : list lane) : list lane :=
  match l with
  | [] => []
  | a :: r => if (l_id a <? l_id x)%Z then x :: a :: r else a :: insert_lane x r
  end.
(** LaneSection::AddLane, RM/RoadManager.cpp:2356-2376 (without the global id). *)
Definition AddLane (l : list lane) (x : lane) : list lane :=
  match rev l with
  | back :: _ => if (l_id back <? l_id x)%Z then insert_lane x l else l ++ [x]
  | [] => l ++ [x]
  end.

(** LaneSection::GetConnectingLaneId, RM/RoadManager.cpp:2378-2405. *)
Definition GetConnectingLaneId (ls : lsec) (incoming_lane_id : Z) (t : LinkType) : Z :=
  if (incoming_lane_id =? 0)%Z then 0%Z
  else match GetLaneById ls incoming_lane_id with
       | None => 0%Z
       | Some l => match GetLink l t with Some id => id | None => incoming_lane_id end
       end.

(** LaneSection::GetWidthBetweenLanes, RM/RoadManager.cpp:2407-2412. *)
Definition GetWidthBetweenLanes (ls : lsec) (lane_id1 lane_id2 : Z) (s : Q) : Q :=
  Qabs (GetCenterOffset ls s lane_id1) - Qabs (GetCenterOffset ls s lane_id2).
(** LaneSection::GetOffsetBetweenLanes, RM/RoadManager.cpp:2415-2420. *)
Definition GetOffsetBetweenLanes (ls : lsec) (lane_id1 lane_id2 : Z) (s : Q) : Q :=
  let laneCenter1 := GetCenterOffset ls s lane_id1 * inject_Z (SIGN lane_id1) in
  let laneCenter2 := GetCenterOffset ls s lane_id2 * inject_Z (SIGN lane_id2) in
  laneCenter2 - laneCenter1.

(** Does the lane pass the filter of LaneSection::GetClosestLaneIdx, RM/RoadManager.cpp:8713-8714. *)
Definition eligible (ls : lsec) (s : Q) (side : Z) (noZeroWidth : bool) (mask : Z) (lane_id : Z) : bool :=
  match GetLaneById ls lane_id with
  | None => false
  | Some l =>
      negb (Z.land mask (l_type l) =? 0)%Z && (negb noZeroWidth || Qltb SMALL (GetWidth ls s lane_id)) &&
      ((side =? 0)%Z || (SIGN lane_id =? SIGN side)%Z)
  end.
(** t - laneOffset - laneCenterOffset, RM/RoadManager.cpp:8716-8719. *)
Definition lane_distance (ls : lsec) (s t laneOffset : Q) (lane_id : Z) : Q :=
  t - laneOffset - inject_Z (SIGN lane_id) * GetCenterOffset ls s lane_id.

(** The loop of LaneSection::GetClosestLaneIdx, RM/RoadManager.cpp:8708-8731: [i] is the index of the head of the remaining
    lanes. *)
Fixpoint closest_loop (ls : lsec) (s t laneOffset : Q) (side : Z) (noZeroWidth : bool) (mask : Z)
    (l : list lane) (i : nat) (cand : option nat) (min_offset : Q) : option nat * Q :=
  match l with
  | [] => (cand, min_offset)
  | a :: r =>
      let lane_id := l_id a in
      if eligible ls s side noZeroWidth mask lane_id then
        let d := lane_distance ls s t laneOffset lane_id in
        if Qltb (Qabs d) (GetWidth ls s lane_id / 2) then (Some i, d)
        else if (match cand with None => true | Some _ => false end) || Qltb (Qabs d) (Qabs min_offset)
        then closest_loop ls s t laneOffset side noZeroWidth mask r (S i) (Some i) d
        else closest_loop ls s t laneOffset side noZeroWidth mask r (S i) cand min_offset
      else closest_loop ls s t laneOffset side noZeroWidth mask r (S i) cand min_offset
  end.
(** LaneSection::GetClosestLaneIdx, RM/RoadManager.cpp:8703-8744: index and offset. *)
Definition GetClosestLaneIdx (ls : lsec) (s t laneOffset : Q) (side : Z) (noZeroWidth : bool) (mask : Z) : option nat * Q :=
  let '(cand, offset) := closest_loop ls s t laneOffset side noZeroWidth mask (ls_lanes ls) 0 None (t - laneOffset) in
  match cand with
  | None => (GetLaneIdxById ls 0, offset)
  | Some i => (Some i, offset)
  end.

(** Lane::GetHeightBySAndOffset, RM/RoadManager.cpp:1340-1375.  [None]: null width record (no lane width) or division by zero
    (lane width 0, two records with the same start). *)
Definition GetHeightBySAndOffset (l : lane) (s offset : Q) : option Q :=
  match l_height l with
  | [] => Some 0
  | _ =>
      let k := upper_bound (fun h => Qltb s (lh_s h - SMALL)) (l_height l) in
      let k := Nat.pred k in
      match GetWidthByS l s, nth_error (l_height l) k with
      | Some w, Some h =>
          let width := Evaluate (snd w) (s - fst w) in
          let heights :=
            match nth_error (l_height l) (S k) with
            | None => Some (lh_inner h, lh_outer h)
            | Some n =>
                if Qeqb (lh_s n - lh_s h) 0 then None
                else let f := (s - lh_s h) / (lh_s n - lh_s h) in
                     Some (lh_inner h + f * (lh_inner n - lh_inner h), lh_outer h + f * (lh_outer n - lh_outer h))
            end in
          match heights with
          | None => None
          | Some (inner, outer) =>
              if Qeqb width 0 then None
              else let f := CLAMP ((offset * inject_Z (SIGN (l_id l)) + (1 # 2) * width) / width) 0 1 in
                   Some (inner + f * (outer - inner))
          end
      | _, _ => None
      end
  end.

(** The fields of class Road used here, RM/RoadManager.hpp:2890-3189: length_, lane_section_, lane_offset_. *)
Record road := Road { r_length : Q; r_sections : list lsec; r_offset : list span }.

(** Road::AddLaneSection, RM/RoadManager.cpp:3406-3417: the length of the previous section is set when the next one is
    added. *)
Fixpoint set_last_section (len : Q) (l : list lsec) : list lsec :=
  match l with
  | [] => []
  | [a] => [LSec (ls_s a) len (ls_lanes a)]
  | a :: r => a :: set_last_section len r
  end.
Definition AddLaneSection (road_length : Q) (l : list lsec) (x : lsec) : list lsec :=
  let l := match rev l with
           | [] => []
           | back :: _ => set_last_section (MIN (ls_s x - ls_s back) road_length) l
           end in
  l ++ [LSec (ls_s x) (MIN (road_length - ls_s x) road_length) (ls_lanes x)].

(** The end of a lane section. *)
Definition ls_end (x : lsec) : Q := ls_s x + ls_length x.

(** Looking backwards, RM/RoadManager.cpp:1752-1765. *)
Fixpoint look_back (secs : list lsec) (s : Q) (i : nat) : option nat :=
  match i with
  | O => Some O
  | S j => match nth_error secs i with
           | None => None
           | Some x => if Qltb (ls_s x) s then Some i else look_back secs s j
           end
  end.
(** Looking forward, RM/RoadManager.cpp:1770-1783: [l] are the sections from index [i] on. *)
Fixpoint look_fwd (l : list lsec) (s : Q) (i : nat) : nat :=
  match l with
  | [] => i
  | x :: r => if Qltb s (ls_end x) then i else look_fwd r s (S i)
  end.
(** Road::GetLaneSectionIdxByS, RM/RoadManager.cpp:1734-1802. *)
Definition GetLaneSectionIdxByS (secs : list lsec) (s : Q) (start_at : nat) : option nat :=
  match nth_error secs start_at, rev secs with
  | Some x, back :: _ =>
      if Qltb s (ls_s x) && (0 <? start_at)%nat then look_back secs s (start_at - 1)
      else
        let i := look_fwd (skipn start_at secs) s start_at in
        if (i =? List.length secs)%nat then
          if Qltb (ls_end back + SMALL) s then None else Some (List.length secs - 1)%nat
        else Some i
  | _, _ => None
  end.

(** Road::GetLaneSectionByS, RM/RoadManager.hpp:2990-2993. *)
Definition GetLaneSectionByS (secs : list lsec) (s : Q) (start_at : nat) : option lsec :=
  match GetLaneSectionIdxByS secs s start_at with None => None | Some i => nth_error secs i end.

(** Road::GetLaneWidthByS, RM/RoadManager.cpp:1971-1981. *)
Definition GetLaneWidthByS (secs : list lsec) (s : Q) (lane_id : Z) : Q :=
  match GetLaneSectionByS secs s 0 with None => 0 | Some ls => GetWidth ls s lane_id end.

(** The section loop of Road::GetNumberOfDrivingLanesSide, RM/RoadManager.cpp:3116-3122, and of Road::GetWidth, 3296-3302.
    [None]: without sections the loop runs out of the vector (the unsigned bound wraps around). *)
Fixpoint section_at (l : list lsec) (s : Q) : option lsec :=
  match l with
  | [] => None
  | a :: r => match r with
              | [] => Some a
              | b :: _ => if Qltb s (ls_s b) then Some a else section_at r s
              end
  end.
(** Road::GetNumberOfDrivingLanesSide, RM/RoadManager.cpp:3112-3125. *)
Definition RoadDrivingLanesSide (secs : list lsec) (s : Q) (side : Z) : option nat :=
  option_map (fun ls => GetNumberOfDrivingLanesSide ls side) (section_at secs s).

(** The outmost lane search of Road::GetWidth, RM/RoadManager.cpp:3330-3333, 3342-3345: [l] are the lanes in the order of the
    search (from the left or from the right); beyond the last one GetLaneIdByIdx returns 0. *)
Fixpoint outmost (l : list lane) (mask : Z) : Z :=
  match l with
  | [] => 0%Z
  | a :: r => if (l_id a =? 0)%Z then 0%Z
              else if negb (Z.land (l_type a) mask =? 0)%Z then l_id a
              else outmost r mask
  end.
(** Road::GetWidth, RM/RoadManager.cpp:3290-3351. *)
Definition RoadWidth (secs : list lsec) (s : Q) (side : Z) (mask : Z) : option Q :=
  match section_at secs s with
  | None => None
  | Some ls =>
      let offset0 := Qabs (GetOuterOffset ls s (outmost (if (0 <? side)%Z then ls_lanes ls else rev (ls_lanes ls)) mask)) in
      let offset1 := if (side =? 0)%Z then Qabs (GetOuterOffset ls s (outmost (ls_lanes ls) mask)) else 0 in
      Some (offset0 + offset1)
  end.

(** Forward tracing, RM/RoadManager.cpp:3154-3160: [l] are the sections from index j on, the last one is not left. *)
Fixpoint trace_fwd (l : list lsec) (lane_id : Z) (s s_target : Q) : Z :=
  match l with
  | a :: (_ :: _) as r =>
      if negb (lane_id =? 0)%Z && Qltb s s_target
      then trace_fwd r (GetConnectingLaneId a lane_id SUCCESSOR) (ls_s a) s_target
      else lane_id
  | _ => lane_id
  end.
(** Backward tracing, RM/RoadManager.cpp:3164-3170: [l] are the sections from index j downwards, the first one is not left. *)
Fixpoint trace_bwd (l : list lsec) (lane_id : Z) (s s_target : Q) : Z :=
  match l with
  | a :: (_ :: _) as r =>
      if negb (lane_id =? 0)%Z && Qltb s_target s
      then trace_bwd r (GetConnectingLaneId a lane_id PREDECESSOR) (ls_s a) s_target
      else lane_id
  | _ => lane_id
  end.
(** Road::GetConnectedLaneIdAtS, RM/RoadManager.cpp:3127-3185. *)
Definition GetConnectedLaneIdAtS (r : road) (lane_id : Z) (s_start s_target : Q) : Z :=
  let s_target := if Qltb s_target (0 - SMALL) then r_length r else s_target in
  let s_start := if Qltb s_start (0 - SMALL) then r_length r else s_start in
  match GetLaneSectionIdxByS (r_sections r) s_start 0 with
  | None => 0%Z
  | Some i =>
      if Qltb (s_start - SMALL) s_target
      then trace_fwd (skipn i (r_sections r)) lane_id s_start s_target
      else trace_bwd (rev (firstn (S i) (r_sections r))) lane_id s_start s_target
  end.

(** Moving to the next lane section, RM/RoadManager.cpp:1829-1838: [l] are the sections from index [i] on. *)
Fixpoint info_fwd (l : list lsec) (s : Q) (i : nat) (lane_id : Z) : nat * Z :=
  match l with
  | a :: (_ :: _) as r =>
      if Qltb (ls_end a - SMALL) s
      then info_fwd r s (S i) (if (lane_id =? 0)%Z then lane_id else GetConnectingLaneId a lane_id SUCCESSOR)
      else (i, lane_id)
  | _ => (i, lane_id)
  end.
(** Moving to the previous lane section, RM/RoadManager.cpp:1842-1850: [l] are the sections from index [i] downwards. *)
Fixpoint info_bwd (l : list lsec) (s : Q) (i : nat) (lane_id : Z) : nat * Z :=
  match l with
  | a :: (_ :: _) as r =>
      if Qltb s (ls_s a)
      then info_bwd r s (i - 1) (if (lane_id =? 0)%Z then lane_id else GetConnectingLaneId a lane_id PREDECESSOR)
      else (i, lane_id)
  | _ => (i, lane_id)
  end.
(** Road::GetLaneInfoByS, RM/RoadManager.cpp:1804-1894: was the connecting lane replaced (return value
    REACHED_END_OF_LANE), section index, lane id.  [None]: null pointer access (no lane at the closest lane index). *)
Definition GetLaneInfoByS (r : road) (s : Q) (start_idx : nat) (start_lane_id : Z) (mask : Z) : option (bool * nat * Z) :=
  match nth_error (r_sections r) start_idx with
  | None => Some (false, start_idx, start_lane_id)
  | Some a =>
      if Qltb (ls_end a) s || Qltb s (ls_s a) then
        let t := inject_Z (SIGN start_lane_id) * GetCenterOffset a s start_lane_id in
        let '(i, id) :=
          if Qltb (ls_end a) s then info_fwd (skipn start_idx (r_sections r)) s start_idx start_lane_id
          else info_bwd (rev (firstn (S start_idx) (r_sections r))) s start_idx start_lane_id in
        match nth_error (r_sections r) i with
        | None => None
        | Some b =>
            if negb (start_lane_id =? 0)%Z &&
               match GetLaneById b id with None => true | Some l => (Z.land mask (l_type l) =? 0)%Z end
            then
              match fst (GetClosestLaneIdx b s t (GetLaneOffset (r_offset r) s) 0 true mask) with
              | None => None
              | Some k => match nth_error (ls_lanes b) k with
                          | None => None
                          | Some l => Some (true, i, l_id l)
                          end
              end
            else Some (false, i, id)
        end
      else Some (false, start_idx, start_lane_id)
  end.

(** The fields of class Position used here, RM/RoadManager.hpp:3838-5066. *)
Record pos := Pos { p_s : Q; p_t : Q; p_offset : Q; p_lane_id : Z; p_lane_idx : nat; p_lsec_idx : nat }.

(** Position::Lane2Track, RM/RoadManager.cpp:9735-9750 on an existing road (without the heading offset). *)
Definition Lane2Track (r : road) (p : pos) : pos :=
  let t :=
    match nth_error (r_sections r) (p_lsec_idx p) with
    | None => 0
    | Some ls => p_offset p + GetLaneOffset (r_offset r) (p_s p) +
                 GetCenterOffset ls (p_s p) (p_lane_id p) * (if (p_lane_id p <? 0)%Z then (-1) else 1)
    end in
  Pos (p_s p) t (p_offset p) (p_lane_id p) (p_lane_idx p) (p_lsec_idx p).

(** Position::Track2Lane, RM/RoadManager.cpp:8780-8821 on an existing road and geometry; [mask] is snapToLaneTypes_. *)
Definition Track2Lane (r : road) (mask : Z) (p : pos) : pos :=
  match GetLaneSectionIdxByS (r_sections r) (p_s p) (p_lsec_idx p) with
  | None => p
  | Some i =>
      match nth_error (r_sections r) i with
      | None => p
      | Some ls =>
          match GetClosestLaneIdx ls (p_s p) (p_t p) (GetLaneOffset (r_offset r) (p_s p)) 0 true mask with
          | (None, _) => p
          | (Some k, offset) => Pos (p_s p) (p_t p) offset (GetLaneIdByIdx ls k) k i
          end
      end
  end.

(** Position::ForceLaneId, RM/RoadManager.cpp:9918-9934.  [None]: null lane section. *)
Definition ForceLaneId (r : road) (lane_id : Z) (p : pos) : option pos :=
  match nth_error (r_sections r) (p_lsec_idx p) with
  | None => None
  | Some ls =>
      let lat_dist := GetOffsetBetweenLanes ls (p_lane_id p) lane_id (p_s p) in
      Some (Lane2Track r (Pos (p_s p) (p_t p) (p_offset p - lat_dist) lane_id (p_lane_idx p) (p_lsec_idx p)))
  end.
