(** * Distances between objects with trailers, in entity and road coordinates (Entities.cpp, Position::Distance in RoadManager.cpp)

    [double] is idealised as [R].  Objects are pointers, that is numbers; TrailerVehicle() and TowVehicle() (modelled in EntModel.v) are given as
    functions on them.  A result [None] is an access through a null pointer, an endless loop or a read of a variable never set.
    SE = EnvironmentSimulator/Modules/ScenarioEngine, RM = EnvironmentSimulator/Modules/RoadManager. *)
From Coq Require Import Reals Bool List ZArith NArith.
From Verif Require Import AngModel GeoModel BoxModel.
Import ListNotations.
Open Scope R_scope.

(** CoordinateSystem and RelativeDistanceType, RM/RoadManager.hpp:3794-3813. *)
Inductive csys := CS_UNDEFINED | CS_ENTITY | CS_LANE | CS_ROAD | CS_TRAJECTORY | CS_WORLD.
Inductive rdt := REL_DIST_UNDEFINED | REL_DIST_LATERAL | REL_DIST_LONGITUDINAL | REL_DIST_CARTESIAN | REL_DIST_EUCLIDIAN | REL_DIST_EUCLIDIAN_ABS.

(** The corners of a box in the world, SE/SourceFiles/Entities.cpp:811-825, 953-969. *)
Definition world_corners (o : box) : list (R * R) := map (placed o) (vertices o).

(** minDS (minDT) after the loop: the value of least absolute value, the first of several, and maxDS (maxDT),
    SE/SourceFiles/Entities.cpp:857-875, 1000-1018. *)
Definition least (l : list R) : R := match l with [] => LARGE_NUMBER | d :: r => fold_left (fun m d => if Rltb (Rabs d) (Rabs m) then d else m) r d end.
Definition most (l : list R) : R := match l with [] => 0 | d :: r => fold_left (fun m d => if Rltb (Rabs m) (Rabs d) then d else m) r d end.

(** All or none of the results of a loop whose body returns on failure, SE/SourceFiles/Entities.cpp:847-855, 972-976, 993-996. *)
Fixpoint all_some {A B} (f : A -> option B) (l : list A) : option (list B) :=
  match l with
  | [] => Some []
  | a :: l => match f a, all_some f l with Some b, Some bs => Some (b :: bs) | _, _ => None end
  end.

(** Are the signs in a row not all that of its first entry, SE/SourceFiles/Entities.cpp:1028, 1033. *)
Definition mixed (row : list R) : bool := match row with [] => false | d :: r => existsb (fun e => negb (Reqb (SIGN d) (SIGN e))) r end.

Section Objects.
Variable trailer tow : N -> option N.                    (* TrailerVehicle, TowVehicle *)
Variable box_of : N -> box.                              (* pos_ and boundingbox_ of an object *)
Variable P : Type.                                       (* road positions *)
Variable snap snap_free : N -> R -> R -> option P.       (* XYZ2TrackPos of a point from the position of an object, on connected roads, on all roads *)
Variable delta : P -> P -> option (R * R).               (* Position::Delta: ds and dt, [None]: no way *)
Variable pos_delta : N -> N -> R -> bool * R * R.        (* Delta of the positions of objects with a maximum distance: found, ds, dt *)
Variable xy_delta : N -> R -> R -> R -> bool * R * R.    (* Delta to Position(x, y, 0, 0, 0, 0) *)
Variable trajectory : N -> option N.                     (* the name of GetTrajectory(), if not null *)
Variable traj_s traj_t : N -> R.                         (* GetTrajectoryS, GetTrajectoryT *)
Variable closest : N -> R -> R -> option R.              (* v.s of FindClosestPoint on the trajectory *)
Variable speed : N -> R.                                 (* GetSpeed *)
Variable vel : N -> R * R.                               (* pos_.GetVelX, pos_.GetVelY *)

(** Object::FreeSpaceDistancePointRoadLane, SE/SourceFiles/Entities.cpp:794-894: return value, *latDist, *longDist.  The point is not looked
    for on connected roads only: true is passed as mode (line 830). *)
Definition FreeSpaceDistancePointRoadLane (o : N) (x y : R) (c : csys) : Z * R * R :=
  let fail := ((-1)%Z, LARGE_NUMBER, LARGE_NUMBER) in
  match c with
  | CS_LANE | CS_ROAD =>
      match snap_free o x y with
      | None => fail
      | Some pt =>
          match all_some (fun v => match snap o (fst v) (snd v) with None => None | Some p => delta p pt end) (world_corners (box_of o)) with
          | None => fail
          | Some ds =>
              let s := map fst ds in
              let t := map snd ds in
              (0%Z, if Reqb (SIGN (least t)) (SIGN (most t)) then least t else 0, if Reqb (SIGN (least s)) (SIGN (most s)) then least s else 0)
          end
      end
  | _ => fail
  end.

(** Object::FreeSpaceDistanceObjectRoadLane, SE/SourceFiles/Entities.cpp:896-1041: return value, ds, dt of *posDiff (not null); all corners are
    looked for from the position of the first object.  On failure the values are not used by anyone. *)
Definition FreeSpaceDistanceObjectRoadLane (o : N) (target : option N) (c : csys) : Z * R * R :=
  let fail := ((-1)%Z, LARGE_NUMBER, LARGE_NUMBER) in
  match target, c with
  | Some t, (CS_LANE | CS_ROAD) =>
      if Collision (box_of o) (Some (box_of t)) then (0%Z, 0, 0)
      else
        match all_some (fun v => snap o (fst v) (snd v)) (world_corners (box_of o)), all_some (fun v => snap o (fst v) (snd v)) (world_corners (box_of t)) with
        | Some ps, Some qs =>
            match all_some (fun p => all_some (delta p) qs) ps with
            | None => fail
            | Some rows =>
                let s := map (map fst) rows in
                let t := map (map snd) rows in
                (0%Z, if existsb mixed s then 0 else least (concat s), if existsb mixed t then 0 else least (concat t))
            end
        | _, _ => fail
        end
  | _, _ => fail
  end.

(** The frontmost towing vehicle, SE/SourceFiles/Entities.cpp:1073-1076 (also 1130-1133, 1227-1230, 1272-1275); [fuel] bounds the rounds. *)
Fixpoint frontmost (fuel : nat) (o : N) : option N :=
  match fuel with
  | O => None
  | S fuel => match tow o with None => Some o | Some t => frontmost fuel t end
  end.

(** The loop for the target, SE/SourceFiles/Entities.cpp:1077-1080 (also 1134-1137): target_obj is tested, target_front_obj moves on. *)
Fixpoint target_front (fuel : nat) (target : N) (front : option N) : option (option N) :=
  match fuel with
  | O => None
  | S fuel =>
      match tow target with
      | None => Some front
      | Some _ => match front with None => None | Some f => target_front fuel target (tow f) end
      end
  end.

(** candidate_info: dist, lat_dist, long_dist, SE/SourceFiles/Entities.cpp:1065-1070, 1088-1093. *)
Definition better (c d : R * R * R) : R * R * R := if Rltb (Rabs (fst (fst d))) (Rabs (fst (fst c))) then d else c.

(** The inner loop, SE/SourceFiles/Entities.cpp:1085-1095; [k] is 100 - iterations, or 0. *)
Fixpoint over_target (k : nat) (p : N) (t : option N) (c : R * R * R) : nat * (R * R * R) :=
  match t with
  | None => (k, c)
  | Some t =>
      match k with
      | O => (O, c)
      | S k =>
          if Rltb 0 (Rabs (fst (fst c))) then over_target k p (trailer t) (better c (FreeSpaceDistance (box_of p) (Some (box_of t)) true)) else (k, c)
      end
  end.

(** The outer loop, SE/SourceFiles/Entities.cpp:1082-1097; every round takes one iteration or more, so [n] rounds are enough for [k] <= [n]. *)
Fixpoint over_pivot (n k : nat) (p : option N) (front : option N) (c : R * R * R) : R * R * R :=
  match p, n with
  | Some p, S n =>
      if (0 <? k)%nat && Rltb 0 (fst (fst c)) then let '(k, c) := over_target k p front c in over_pivot n k (trailer p) front c else c
  | _, _ => c
  end.

(** The result from the candidate, SE/SourceFiles/Entities.cpp:1099-1112 (also 1245-1258). *)
Definition from_candidate (c : csys) (rel : rdt) (best : R * R * R) : R :=
  let '(d, lat, long) := best in
  match c, rel with
  | CS_ENTITY, REL_DIST_LATERAL => lat
  | CS_ENTITY, REL_DIST_LONGITUDINAL => long
  | _, _ => d * SIGN long
  end.

(** Is the distance Cartesian, SE/SourceFiles/Entities.cpp:1055-1056, 1211-1212. *)
Definition cartesian (c : csys) (rel : rdt) : bool :=
  match c, rel with CS_ENTITY, _ | _, (REL_DIST_EUCLIDIAN | REL_DIST_CARTESIAN) => true | _, _ => false end.

(** The value of a road difference (ds, dt) that is wanted, SE/SourceFiles/Entities.cpp:1139-1141, 1152-1153, 1170-1177; [None]: neither. *)
Definition wanted (rel : rdt) (d : R * R) : option R :=
  match rel with REL_DIST_LATERAL => Some (snd d) | REL_DIST_LONGITUDINAL => Some (fst d) | _ => None end.
Definition wanted_open (rel : rdt) (d : R * R) : bool := match wanted rel d with Some v => Rltb 0 (Rabs v) | None => false end.
Definition wanted_less (rel : rdt) (d e : R * R) : bool :=
  match wanted rel d, wanted rel e with Some v, Some w => Rltb (Rabs v) (Rabs w) | _, _ => false end.

(** One candidate on roads: return_value and pos_diff, SE/SourceFiles/Entities.cpp:1149-1158. *)
Definition road_better (rel : rdt) (c : Z * (R * R)) (d : Z * R * R) : Z * (R * R) :=
  let '(ret, ds, dt) := d in if (ret =? 0)%Z && wanted_less rel (ds, dt) (snd c) then (ret, (ds, dt)) else c.

(** The inner loop on roads, SE/SourceFiles/Entities.cpp:1145-1160: the distance is that to [target], whichever trailer the loop is at.
    [k] is 99 - iterations, or 0; a last test fails without taking one. *)
Fixpoint road_over_target (k : nat) (p : N) (target : N) (t : option N) (c : csys) (rel : rdt) (best : Z * (R * R)) : nat * (Z * (R * R)) :=
  match t with
  | None => (k, best)
  | Some t =>
      match k with
      | O => (O, best)
      | S k =>
          if wanted_open rel (snd best)
          then road_over_target k p target (trailer t) c rel (road_better rel best (FreeSpaceDistanceObjectRoadLane p (Some target) c))
          else (k, best)
      end
  end.

(** The outer loop on roads, SE/SourceFiles/Entities.cpp:1139-1162; with iterations = 99 the inner loop does nothing. *)
Fixpoint road_over_pivot (n k : nat) (p : option N) (target : N) (front : option N) (c : csys) (rel : rdt) (best : Z * (R * R)) : Z * (R * R) :=
  match p, n with
  | Some p, S n =>
      if (0 <? k)%nat && wanted_open rel (snd best)
      then let '(k, best) := road_over_target k p target front c rel best in road_over_pivot n k (trailer p) target front c rel best
      else best
  | _, _ => best
  end.

(** getRelativeDistance with its results x and y, RM/RoadManager.cpp:11603-11619. *)
Definition relative_to (o : box) (x y : R) : R * (R * R) :=
  let '(dx, dy) := RotateVec2D (x - b_x o) (y - b_y o) (- b_h o) in ((if Rltb 0 dx then 1 else -1) * sqrt (dx * dx + dy * dy), (dx, dy)).

(** A point that is not on the same trajectory, RM/RoadManager.cpp:11883-11908. *)
Definition to_trajectory (o : N) (rel : rdt) (x y : R) : R :=
  match closest o x y, rel with
  | Some s, REL_DIST_LONGITUDINAL => s - traj_s o
  | _, _ => fst (relative_to (box_of o) x y)
  end.

(** Position::Distance to a position, RM/RoadManager.cpp:11819-11917: return value, dist ([None]: not set). *)
Definition Position_Distance (o t : N) (c : csys) (rel : rdt) (max : R) : Z * option R :=
  let x := b_x (box_of t) in
  let y := b_y (box_of t) in
  let '(e, (dx, dy)) := relative_to (box_of o) x y in
  match rel with
  | REL_DIST_CARTESIAN | REL_DIST_EUCLIDIAN => (0%Z, Some e)
  | REL_DIST_EUCLIDIAN_ABS => (0%Z, Some (Rabs e))
  | REL_DIST_LATERAL | REL_DIST_LONGITUDINAL =>
      let lat := match rel with REL_DIST_LATERAL => true | _ => false end in
      match c with
      | CS_LANE | CS_ROAD => let '(ok, ds, dt) := pos_delta o t max in (if ok then 0%Z else (-1)%Z, Some (if lat then dt else ds))
      | CS_ENTITY => (0%Z, Some (if lat then dy else dx))
      | CS_TRAJECTORY =>
          (0%Z, Some match trajectory o with
                     | None => e
                     | Some n =>
                         if match trajectory t with Some m => (n =? m)%N | None => false end
                         then if lat then traj_t t - traj_t o else traj_s t - traj_s o
                         else to_trajectory o rel x y
                     end)
      | CS_UNDEFINED | CS_WORLD => (0%Z, None)
      end
  | REL_DIST_UNDEFINED => ((-1)%Z, None)
  end.

(** Position::Distance to a point, RM/RoadManager.cpp:11919-12002; what is found along the trajectory is overwritten at line 11992. *)
Definition Position_Distance_xy (o : N) (x y : R) (c : csys) (rel : rdt) (max : R) : Z * option R :=
  let '(e, (dx, dy)) := relative_to (box_of o) x y in
  match rel with
  | REL_DIST_CARTESIAN | REL_DIST_EUCLIDIAN => (0%Z, Some e)
  | REL_DIST_LATERAL | REL_DIST_LONGITUDINAL =>
      let lat := match rel with REL_DIST_LATERAL => true | _ => false end in
      match c with
      | CS_LANE | CS_ROAD => let '(ok, ds, dt) := xy_delta o x y max in (if ok then 0%Z else (-1)%Z, Some (if lat then dt else ds))
      | CS_ENTITY => (0%Z, Some (if lat then dy else dx))
      | CS_TRAJECTORY => (0%Z, Some (if lat then traj_t o else traj_s o))
      | CS_UNDEFINED | CS_WORLD => (0%Z, None)
      end
  | REL_DIST_EUCLIDIAN_ABS | REL_DIST_UNDEFINED => ((-1)%Z, None)
  end.

(** Object::Distance to an object, SE/SourceFiles/Entities.cpp:1043-1197: return value and dist ([None]: not set); maxDist is not used, so the
    default of Position::Distance, LARGE_NUMBER, applies. *)
Definition Object_Distance (fuel : nat) (o target : N) (c : csys) (rel : rdt) (freeSpace : bool) : option (Z * option R) :=
  if freeSpace then
    match cartesian c rel, c with
    | true, _ | _, (CS_ROAD | CS_LANE) =>
        match frontmost fuel o, target_front fuel target (Some target) with
        | Some p, Some front =>
            if cartesian c rel then
              Some (0%Z, Some (from_candidate c rel (over_pivot 100 100 (Some p) front (LARGE_NUMBER, LARGE_NUMBER, LARGE_NUMBER))))
            else
              let '(ret, d) := road_over_pivot 100 99 (Some p) target front c rel ((-1)%Z, (LARGE_NUMBER, LARGE_NUMBER)) in
              if negb (ret =? 0)%Z then Some ((-1)%Z, None)
              else match wanted rel d with Some v => Some (0%Z, Some v) | None => Some ((-1)%Z, None) end
        | _, _ => None
        end
    | _, _ => Some ((-1)%Z, None)
    end
  else Some (Position_Distance o target c rel LARGE_NUMBER).

(** The loops over the pivot and its trailers, SE/SourceFiles/Entities.cpp:1232-1243, 1277-1293; [k] is 100 - iterations. *)
Fixpoint point_over (k : nat) (p : option N) (x y : R) (c : R * R * R) : R * R * R :=
  match p, k with
  | Some p, S k =>
      if Rltb 0 (Rabs (fst (fst c))) then point_over k (trailer p) x y (better c (FreeSpaceDistancePoint (box_of p) x y)) else c
  | _, _ => c
  end.
Fixpoint road_point_over (k : nat) (p : option N) (x y : R) (c : csys) (rel : rdt) (best : Z * (R * R)) : Z * (R * R) :=
  match p, k with
  | Some p, S k =>
      if wanted_open rel (snd best) then
        let '(ret, lat, long) := FreeSpaceDistancePointRoadLane p x y c in
        road_point_over k (trailer p) x y c rel (road_better rel best (ret, long, lat))
      else best
  | _, _ => best
  end.

(** Object::Distance to a point, SE/SourceFiles/Entities.cpp:1199-1328. *)
Definition Object_Distance_xy (fuel : nat) (o : N) (x y : R) (c : csys) (rel : rdt) (freeSpace : bool) (max : R) : option (Z * option R) :=
  if freeSpace then
    match cartesian c rel, c with
    | true, _ | _, (CS_ROAD | CS_LANE) =>
        match frontmost fuel o with
        | Some p =>
            if cartesian c rel then
              Some (0%Z, Some (from_candidate c rel (point_over 100 (Some p) x y (LARGE_NUMBER, LARGE_NUMBER, LARGE_NUMBER))))
            else
              let '(ret, d) := road_point_over 100 (Some p) x y c rel ((-1)%Z, (LARGE_NUMBER, LARGE_NUMBER)) in
              if negb (ret =? 0)%Z then Some ((-1)%Z, None)
              else match wanted rel d with Some v => Some (0%Z, Some v) | None => Some ((-1)%Z, None) end
        | None => None
        end
    | _, _ => Some ((-1)%Z, None)
    end
  else Some (Position_Distance_xy o x y c rel max).

(** Object::TimeHeadway, SE/SourceFiles/Entities.cpp:1330-1349: thw (it returns 0); rel_dist has no initial value. *)
Definition TimeHeadway (fuel : nat) (o target : N) (c : csys) (rel : rdt) (freeSpace : bool) : option R :=
  match Object_Distance fuel o target c rel freeSpace with
  | None => None
  | Some (ret, d) =>
      match (if (ret =? 0)%Z then d else Some LARGE_NUMBER) with
      | None => None
      | Some rel_dist => Some (if Rltb rel_dist 0 || Rltb (speed o) SMALL_NUMBER then -1 else Rabs (rel_dist / speed o))
      end
  end.

(** The relative speed, SE/SourceFiles/Entities.cpp:1373-1390. *)
Definition relative_speed (o t : N) : R :=
  if Rltb (Rabs (fst (vel t))) SMALL_NUMBER && Rltb (Rabs (snd (vel t))) SMALL_NUMBER then speed o
  else
    let proj := ProjectPointOnVector2DSignedLength (fst (vel o)) (snd (vel o)) (fst (vel t)) (snd (vel t)) in
    SIGN (speed o) * SIGN proj * (proj - Rabs (speed t)).

(** Object::TimeToCollision, SE/SourceFiles/Entities.cpp:1351-1409: return value and ttc; rel_dist is LARGE_NUMBER at first. *)
Definition TimeToCollision (fuel : nat) (o : N) (target : option N) (c : csys) (rel : rdt) (freeSpace : bool) : option (Z * R) :=
  match target with
  | None => Some ((-1)%Z, -1)
  | Some t =>
      match Object_Distance fuel o t c rel freeSpace with
      | None => None
      | Some (ret, d) =>
          let rel_dist := if (ret =? 0)%Z then match d with Some d => d | None => LARGE_NUMBER end else LARGE_NUMBER in
          let rel_speed := relative_speed o t in
          Some (0%Z, if Rltb (Rabs rel_dist) SMALL_NUMBER || Rltb (Rabs rel_speed) SMALL_NUMBER then -1
                     else let ttc := rel_dist / rel_speed in if Rltb ttc 0 then -1 else ttc)
      end
  end.
End Objects.
