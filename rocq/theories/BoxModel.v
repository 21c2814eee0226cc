(** * Bounding boxes: overlap and free space distance (Entities.cpp)

    [double] is idealised as [R].  SE = EnvironmentSimulator/Modules/ScenarioEngine, RM = EnvironmentSimulator/Modules/RoadManager,
    CM = EnvironmentSimulator/Modules/CommonMini. *)
From Coq Require Import Reals Bool List.
From Verif Require Import AngModel GeoModel.
Import ListNotations.
Open Scope R_scope.

(** What the functions below read of an object: pos_ (x, y, z, h) and boundingbox_ (center_.x_, center_.y_, dimensions_.length_ and width_),
    SE/SourceFiles/Entities.hpp:288, 291. *)
Record box := Box { b_x : R; b_y : R; b_z : R; b_h : R; b_cx : R; b_cy : R; b_len : R; b_wid : R }.

(** ELEVATION_DIFF_THRESHOLD, SE/SourceFiles/Entities.cpp:21; LARGE_NUMBER, MAX and MIN, CM/CommonMini.hpp:53-57. *)
Definition ELEVATION_DIFF_THRESHOLD : R := 25 / 10.
Definition LARGE_NUMBER : R := 10000000000.
Definition MAX (x y : R) : R := if Rltb x y then y else x.
Definition MIN (x y : R) : R := if Rltb y x then y else x.

(** The array vertices (or vtmp), corners from the first quadrant on, SE/SourceFiles/Entities.cpp:476-484 (also 598-606, 683-690, 748-755). *)
Definition vertices (o : box) : list (R * R) :=
  [(b_cx o + b_len o / 2, b_cy o + b_wid o / 2); (b_cx o - b_len o / 2, b_cy o + b_wid o / 2);
   (b_cx o - b_len o / 2, b_cy o - b_wid o / 2); (b_cx o + b_len o / 2, b_cy o - b_wid o / 2)].

(** A vertex turned by the heading and moved to the position, SE/SourceFiles/Entities.cpp:491-493, 692-698, 757-763. *)
Definition placed (o : box) (v : R * R) : R * R :=
  let '(rx, ry) := RotateVec2D (fst v) (snd v) (b_h o) in (b_x o + rx, b_y o + ry).

(** Position::getRelativeDistance, RM/RoadManager.cpp:11603-11619, the return value. *)
Definition getRelativeDistance (o t : box) : R :=
  let '(x, y) := RotateVec2D (b_x t - b_x o) (b_y t - b_y o) (- b_h o) in
  (if Rltb 0 x then 1 else -1) * sqrt (x * x + y * y).

(** The axis of round j of object o: its lateral direction first, SE/SourceFiles/Entities.cpp:449-466. *)
Definition axis (o : box) (j : bool) : R * R := if j then RotateVec2D 1 0 (b_h o) else RotateVec2D 0 1 (b_h o).

(** min[k] and max[k] over the vertices, SE/SourceFiles/Entities.cpp:486-505; the list is not empty. *)
Definition span (o : box) (n : R * R) : R * R :=
  let dot p := GetDotProduct2D (fst p) (snd p) (fst n) (snd n) in
  match map (placed o) (vertices o) with
  | [] => (0, 0)
  | p :: r => fold_left (fun acc p => (MIN (dot p) (fst acc), MAX (dot p) (snd acc))) r (dot p, dot p)
  end.

(** The two parts of the gap test, SE/SourceFiles/Entities.cpp:508-509 (616-617): the first cluster is below, is above the second. *)
Definition below (s0 s1 : R * R) : bool := Rltb (fst s0) (fst s1 - SMALL_NUMBER) && Rltb (snd s0) (fst s1 - SMALL_NUMBER).
Definition above (s0 s1 : R * R) : bool := Rltb (snd s1 + SMALL_NUMBER) (snd s0) && Rltb (snd s1 + SMALL_NUMBER) (fst s0).

(** What a run of the loops has found: gap, *distLat, *distLong. *)
Record found := Found { f_gap : bool; f_lat : R; f_long : R }.

(** One round of the loops i, j at SE/SourceFiles/Entities.cpp:440-549 for the case that a distance is wanted; the values of a null pointer
    are not read by anyone. *)
Definition round (this target : box) (i j : bool) (f : found) : found :=
  let obj0 := if i then target else this in
  let obj1 := if i then this else target in
  let n1 := axis obj0 j in
  let s0 := span obj0 n1 in
  let s1 := span obj1 n1 in
  if below s0 s1 || above s0 s1 then
    if i then Found true (f_lat f) (f_long f)
    else
      let d := if below s0 s1 then fst s1 - snd s0 else - (fst s0 - snd s1) in
      if j then Found true (f_lat f) d else Found true d (f_long f)
  else f.

(** Object::CollisionAndRelativeDistLatLong, SE/SourceFiles/Entities.cpp:387-553, with at least one distance wanted. *)
Definition relative (this target : box) : found :=
  round this target true true (round this target true false (round this target false true (round this target false false (Found false 0 0)))).

(** The same with both pointers null: a round returns false on a gap at once (SE/SourceFiles/Entities.cpp:513-516). *)
Definition clear (obj0 obj1 : box) (j : bool) : bool :=
  let n1 := axis obj0 j in negb (below (span obj0 n1) (span obj1 n1) || above (span obj0 n1) (span obj1 n1)).

(** Object::Collision, SE/SourceFiles/Entities.hpp:383-386, which is CollisionAndRelativeDistLatLong(target, nullptr, nullptr),
    SE/SourceFiles/Entities.cpp:404-437 for the rough checks. *)
Definition Collision (this : box) (target : option box) : bool :=
  match target with
  | None => false
  | Some t =>
      let max_length := b_len this + b_len t in
      let max_width := b_wid this + b_wid t in
      if Rltb (sqrt (max_length * max_length + max_width * max_width)) (Rabs (getRelativeDistance this t)) then false
      else if Rltb ELEVATION_DIFF_THRESHOLD (Rabs (b_z this - b_z t)) then false
      else clear this t false && clear this t true && clear t this false && clear t this true
  end.

(** The edges of a bounding box, vertex k to vertex (k + 1) % 4, SE/SourceFiles/Entities.cpp:706-712, 769-773. *)
Definition edges (o : box) : list ((R * R) * (R * R)) :=
  match map (placed o) (vertices o) with
  | a :: r => combine (a :: r) (r ++ [a])
  | [] => []
  end.

(** Distance of a vertex to an edge, SE/SourceFiles/Entities.cpp:714-716. *)
Definition edge_distance (p : R * R) (e : (R * R) * (R * R)) : R :=
  fst (fst (DistanceFromPointToEdge2D (fst p) (snd p) (fst (fst e)) (snd (fst e)) (fst (snd e)) (snd (snd e)))).

(** One of the two passes over the vertices of [o] and the edges of [t], SE/SourceFiles/Entities.cpp:701-725. *)
Definition pass (o t : box) (minDist : R) : R :=
  fold_left (fun m p => fold_left (fun m e => if Rltb (edge_distance p e) m then edge_distance p e else m) (edges t) m)
    (map (placed o) (vertices o)) minDist.

(** Object::FreeSpaceDistance, SE/SourceFiles/Entities.cpp:640-723: the return value, *latDist and *longDist ([want]: at least one of the
    pointers is given). *)
Definition FreeSpaceDistance (this : box) (target : option box) (want : bool) : R * R * R :=
  match target with
  | None => (LARGE_NUMBER, LARGE_NUMBER, LARGE_NUMBER)
  | Some t =>
      if want then
        let f := relative this t in
        (if f_gap f then pass t this (pass this t LARGE_NUMBER) else 0, f_lat f, f_long f)
      else (if Collision this target then 0 else pass t this (pass this t LARGE_NUMBER), LARGE_NUMBER, LARGE_NUMBER)
  end.

(** Object::PointCollision, SE/SourceFiles/Entities.cpp:555-638. *)
Definition PointCollision (o : box) (x y : R) : bool :=
  let gap j := let n1 := axis o j in let d := GetDotProduct2D x y (fst n1) (snd n1) in
    let s := span o n1 in
    (Rltb (fst s) (d - SMALL_NUMBER) && Rltb (snd s) (d - SMALL_NUMBER)) || (Rltb (d + SMALL_NUMBER) (snd s) && Rltb (d + SMALL_NUMBER) (fst s)) in
  if gap false then false else if gap true then false else true.

(** Object::FreeSpaceDistancePoint, SE/SourceFiles/Entities.cpp:725-792: the return value, *latDist and *longDist. *)
Definition FreeSpaceDistancePoint (o : box) (x y : R) : R * R * R :=
  if PointCollision o x y then (0, 0, 0)
  else
    fold_left (fun acc (e : (R * R) * (R * R)) =>
      let '(d, px, py) := DistanceFromPointToEdge2D x y (fst (fst e)) (snd (fst e)) (fst (snd e)) (snd (snd e)) in
      if Rltb d (fst (fst acc)) then let '(lon, lat) := RotateVec2D (x - px) (y - py) (- b_h o) in (d, lat, lon) else acc)
      (edges o) (LARGE_NUMBER, LARGE_NUMBER, LARGE_NUMBER).
