(** * The cache of distances between objects (ScenarioEngine::GetDistance)

    [double] is idealised as [R].  Objects are their ids, [int] as [Z] in the range of 32 bits.  What a query sees of the scenario, the time,
    positions, activity, teleport flags and the result of Position::Distance (modelled in GapModel.v), is a record, any values.
    SE = EnvironmentSimulator/Modules/ScenarioEngine. *)
From Coq Require Import Reals Bool List ZArith NArith.
From Verif Require Import AngModel GeoModel GapModel.
Import ListNotations.
Open Scope R_scope.

(** ScenarioEngine::GenerateKey, SE/SourceFiles/ScenarioEngine.hpp:203-206: [uint64_t] and [uint32_t] as numbers modulo their range. *)
Definition GenerateKey (id1 id2 : Z) : N :=
  N.lor (N.shiftl (Z.to_N (id1 mod 2 ^ 64)) 32 mod 2 ^ 64) (Z.to_N (id2 mod 2 ^ 32)).

(** simulationTime_, IsActive, the dirty bit TELEPORT, pos_.GetX/GetY and the distance Position::Distance writes (0 if it writes none) in CS_ENTITY,
    as used in SE/SourceFiles/ScenarioEngine.cpp:1241-1242, 1259-1261, 1285, 1294-1295. *)
Record scene := Scene { s_time : R; s_active : Z -> bool; s_teleported : Z -> bool; s_x : Z -> R; s_y : Z -> R; s_dist : Z -> Z -> rdt -> R }.

(** DistanceMeasurement (distance_, timestamp_) and DistanceEntry, SE/SourceFiles/ScenarioEngine.hpp:191-201. *)
Record entry := Entry { e_meas : rdt -> R * R; e_next : R }.
Definition new_entry : entry := Entry (fun _ => (10000, 0)) 0.

(** object_distance_map_, SE/SourceFiles/ScenarioEngine.hpp:208. *)
Definition cache := N -> option entry.

(** Members of the map: assignment, erase, and the element after try_emplace, SE/SourceFiles/ScenarioEngine.cpp:1230-1236, 1287-1288. *)
Definition put (c : cache) (k : N) (e : entry) : cache := fun k' => if N.eqb k' k then Some e else c k'.
Definition erase (c : cache) (k : N) : cache := fun k' => if N.eqb k' k then None else c k'.
Definition get (c : cache) (k : N) : entry := match c k with Some e => e | None => new_entry end.

(** Comparison of RelativeDistanceType as array index, SE/SourceFiles/ScenarioEngine.cpp:1237-1238, 1257. *)
Definition rdt_eqb (a b : rdt) : bool :=
  match a, b with
  | REL_DIST_UNDEFINED, REL_DIST_UNDEFINED | REL_DIST_LATERAL, REL_DIST_LATERAL | REL_DIST_LONGITUDINAL, REL_DIST_LONGITUDINAL
  | REL_DIST_CARTESIAN, REL_DIST_CARTESIAN | REL_DIST_EUCLIDIAN, REL_DIST_EUCLIDIAN | REL_DIST_EUCLIDIAN_ABS, REL_DIST_EUCLIDIAN_ABS => true
  | _, _ => false
  end.

(** The assignments to one measurement and next_update_, SE/SourceFiles/ScenarioEngine.cpp:1245-1252, 1268-1270. *)
Definition store (e : entry) (t : rdt) (d tau next : R) : entry :=
  Entry (fun u => if rdt_eqb u t then (d, tau) else e_meas e u) next.

(** squared_distance, SE/SourceFiles/ScenarioEngine.cpp:1241-1242. *)
Definition squared (w : scene) (o1 o2 : Z) : R :=
  (s_x w o1 - s_x w o2) * (s_x w o1 - s_x w o2) + (s_y w o1 - s_y w o2) * (s_y w o1 - s_y w o2).

(** ScenarioEngine::UpdateDistance, SE/SourceFiles/ScenarioEngine.cpp:1223-1273. *)
Definition UpdateDistance (c : cache) (w : scene) (o1 o2 : Z) (t : rdt) (key rev_key : N) (tracking_limit : R) : cache * Z :=
  let c := put c key (get c key) in
  let c := put c rev_key (get c rev_key) in
  let e := get c key in
  if Rltb (10000 - SMALL_NUMBER) (fst (e_meas e REL_DIST_EUCLIDIAN_ABS)) && Rltb 250000 (squared w o1 o2) then
    let c := put c key (store e REL_DIST_EUCLIDIAN_ABS (squared w o1 o2) (s_time w) (s_time w + 3)) in
    (put c rev_key (store (get c rev_key) REL_DIST_EUCLIDIAN_ABS (squared w o1 o2) (s_time w) (s_time w + 3)), (-2)%Z)
  else
    let dist := s_dist w o1 o2 t in
    (put c key (store e t dist (s_time w) (if Rltb tracking_limit dist then s_time w + 3 else s_time w)), 0%Z).

(** needs_update, SE/SourceFiles/ScenarioEngine.cpp:1293-1295. *)
Definition needs_update (c : cache) (w : scene) (o1 o2 : Z) (key : N) : bool :=
  match c key with None => true | Some e => Rltb (e_next e) (s_time w) || s_teleported w o1 || s_teleported w o2 end.

(** ScenarioEngine::GetDistance, SE/SourceFiles/ScenarioEngine.cpp:1275-1312: the map, the return value, distance and timestamp if written. *)
Definition GetDistance (c : cache) (w : scene) (o1 o2 : Z) (t : rdt) (tracking_limit : R) : cache * Z * option (R * R) :=
  let key := GenerateKey o1 o2 in
  let rev_key := GenerateKey o2 o1 in
  if negb (s_active w o1) || negb (s_active w o2) then (erase (erase c key) rev_key, (-1)%Z, None)
  else
    let '(c, updated) := if needs_update c w o1 o2 key then UpdateDistance c w o1 o2 t key rev_key tracking_limit else (c, (-2)%Z) in
    match c key with
    | None => (c, (-1)%Z, None)
    | Some e => (c, updated, Some (e_meas e t))
    end.
