(** * The vehicles random traffic is made of (VehiclePool.cpp)

    Weights are idealised as [Q]; null dereference and a distribution with its bounds the wrong way round are [None]. A vehicle is
    what it is itself and the chain of its trailers, nearest first; an object is known by its address. What the parser makes of an
    entry of a catalog is given. Sizes above 2^31 are not considered.
    SE = EnvironmentSimulator/Modules/ScenarioEngine/SourceFiles, CM = EnvironmentSimulator/Modules/CommonMini,
    OT = EnvironmentSimulator/Modules/ScenarioEngine/OSCTypeDefs, CT = EnvironmentSimulator/Modules/Controllers. *)
From Coq Require Import QArith Bool List String.
Import ListNotations.

(** enum Category, SE/Entities.hpp:813-825. *)
Definition CAR : Z := 0.
Definition VAN : Z := 1.
Definition TRUCK : Z := 2.
Definition SEMITRAILER : Z := 3.
Definition TRAILER : Z := 4.
Definition BUS : Z := 5.
Definition MOTORBIKE : Z := 6.
Definition BICYCLE : Z := 7.
Definition TRAIN : Z := 8.
Definition TRAM : Z := 9.

(** Vehicle::Category2String, SE/Entities.cpp:1870-1897. *)
Definition Category2String (category : Z) : string :=
  if (category =? BICYCLE)%Z then "bicycle"
  else if (category =? BUS)%Z then "bus"
  else if (category =? CAR)%Z then "car"
  else if (category =? MOTORBIKE)%Z then "motorbike"
  else if (category =? SEMITRAILER)%Z then "semitrailer"
  else if (category =? TRAILER)%Z then "trailer"
  else if (category =? TRAIN)%Z then "train"
  else if (category =? TRAM)%Z then "tram"
  else if (category =? TRUCK)%Z then "truck"
  else if (category =? VAN)%Z then "van"
  else "Unknown".

(** One object of class Vehicle, SE/Entities.hpp:813-830, with its address, category_ and whether it has a trailer_coupler_; and a
    Vehicle with what hangs on its trailer_hitch_ (trailer_vehicle_, always of type VEHICLE: SE/ScenarioReader.cpp:851-861). *)
Record unit_ := Unit { u_id : nat; u_cat : Z; u_coupler : bool }.
Record vehicle := Veh { v_self : unit_; v_trailers : list unit_ }.

(** Object::TrailerVehicle, SE/Entities.cpp:2056-2081, as to whether it is null. *)
Definition has_trailer (v : vehicle) : bool := match v_trailers v with [] => false | t :: _ => u_coupler t end.

(** RecursiveDeleteTrailers, SE/VehiclePool.cpp:27-35: the addresses deleted, in order. *)
Fixpoint recursive_delete (v : unit_) (trailers : list unit_) : list nat :=
  match trailers with
  | [] => [u_id v]
  | t :: r => recursive_delete t r ++ [u_id v]
  end.

(** VehiclePool::DeleteVehicleAndTrailers, SE/VehiclePool.cpp:25-43. *)
Definition DeleteVehicleAndTrailers (v : vehicle) : list nat :=
  (match v_trailers v with
   | [] => []
   | t :: r => recursive_delete t r
   end) ++ [u_id (v_self v)].

(** struct VehicleGroup and the members of VehiclePool, SE/VehiclePool.hpp:23-27 and 48-49; the std::map as its entries in order of
    the keys. *)
Record group := Group { g_vehicles : list vehicle; g_weight : Q }.
Definition fresh_group : group := Group [] 1.
Record pool := Pool { p_groups : list (string * group); p_total : Q }.
Definition fresh_pool : pool := Pool [] 0.

(** std::map::operator[] followed by a change of what it gives, as used in SE/VehiclePool.cpp:120-121 and 141. *)
Fixpoint change (k : string) (f : group -> group) (m : list (string * group)) : list (string * group) :=
  match m with
  | [] => [(k, f fresh_group)]
  | (k', g) :: r =>
    match String.compare k k' with
    | Eq => (k', f g) :: r
    | Lt => (k, f fresh_group) :: (k', g) :: r
    | Gt => (k', g) :: change k f r
    end
  end.

(** std::map::find, as used in SE/VehiclePool.cpp:47, 165 and 187. *)
Definition find_key (k : string) (m : list (string * group)) : option group :=
  option_map snd (find (fun e => String.eqb (fst e) k) m).

(** VehiclePool::GetVehicles, SE/VehiclePool.cpp:45-60. *)
Definition GetVehicles (p : pool) (category : string) : list vehicle :=
  match find_key category (p_groups p) with
  | None => []
  | Some g => g_vehicles g
  end.

(** VehiclePool::~VehiclePool, SE/VehiclePool.cpp:62-74: the addresses deleted, in order. *)
Definition destroy (p : pool) : list nat :=
  flat_map (fun e => flat_map DeleteVehicleAndTrailers (g_vehicles (snd e))) (p_groups p).

(** The std::find_if over the categories, SE/VehiclePool.cpp:107-109 and 112-116. *)
Definition categories := list (Z * Q).
Definition find_category (c : Z) (cs : categories) : option (Z * Q) := find (fun e => (fst e =? c)%Z) cs.

(** The default categories, SE/VehiclePool.cpp:80-93. *)
Definition default_categories : categories := [(CAR, 5); (BUS, 1); (TRUCK, 2); (VAN, 2); (MOTORBIKE, 1)].
Definition used_categories (cs : categories) : categories := match cs with [] => default_categories | _ => cs end.

(** What is done with one entry, SE/VehiclePool.cpp:105-126: [None] as the entry when parseOSCVehicle gives null
    (SE/ScenarioReader.cpp:551-554 and 593). The groups and the addresses deleted. *)
Definition take (cs : categories) (accept : bool) (m : list (string * group)) (e : option vehicle) : option (list (string * group) * list nat) :=
  match e with
  | None => None
  | Some v =>
    let c := u_cat (v_self v) in
    match find_category c cs with
    | Some it =>
      if negb (has_trailer v && match find_category TRAILER cs with None => true | Some _ => false end)
         && negb (Bool.eqb accept false && has_trailer v && (c =? CAR)%Z)
      then let m1 := change (Category2String c) (fun g => Group (g_vehicles g ++ [v]) (g_weight g)) m in
           Some (change (Category2String c) (fun g => Group (g_vehicles g) (snd it)) m1, [])
      else Some (m, DeleteVehicleAndTrailers v)
    | None => Some (m, DeleteVehicleAndTrailers v)
    end
  end.

(** The inner loop, SE/VehiclePool.cpp:103-127. *)
Fixpoint take_all (cs : categories) (accept : bool) (m : list (string * group)) (es : list (option vehicle)) : option (list (string * group) * list nat) :=
  match es with
  | [] => Some (m, [])
  | e :: r =>
    match take cs accept m e with
    | None => None
    | Some (m1, d1) =>
      match take_all cs accept m1 r with
      | None => None
      | Some (m2, d2) => Some (m2, d1 ++ d2)
      end
    end
  end.

(** A catalog: whether of type CATALOG_VEHICLE, and what the parser makes of its entries. The outer loop, SE/VehiclePool.cpp:98-129. *)
Record catalog := Catalog { c_vehicle : bool; c_entries : list (option vehicle) }.
Fixpoint take_catalogs (cs : categories) (accept : bool) (m : list (string * group)) (l : list catalog) : option (list (string * group) * list nat) :=
  match l with
  | [] => Some (m, [])
  | c :: r =>
    match (if c_vehicle c then take_all cs accept m (c_entries c) else Some (m, [])) with
    | None => None
    | Some (m1, d1) =>
      match take_catalogs cs accept m1 r with
      | None => None
      | Some (m2, d2) => Some (m2, d1 ++ d2)
      end
    end
  end.

(** VehiclePool::Initialize, SE/VehiclePool.cpp:76-135: the pool and the addresses deleted on the way. *)
Definition Initialize (cs : categories) (accept : bool) (l : list catalog) (p : pool) : option (pool * list nat) :=
  match take_catalogs (used_categories cs) accept (p_groups p) l with
  | None => None
  | Some (m, d) => Some (Pool m (fold_left (fun sum e => sum + g_weight (snd e)) m 0), d)
  end.

(** VehiclePool::AddVehicle, SE/VehiclePool.cpp:137-145. *)
Definition AddVehicle (o : option vehicle) (p : pool) : Z * pool :=
  match o with
  | Some v =>
    let m := change (Category2String (u_cat (v_self v))) (fun g => Group (g_vehicles g ++ [v]) (g_weight g)) (p_groups p) in
    (Z.of_nat (List.length m) - 1, Pool m (p_total p))%Z
  | None => ((-1)%Z, p)
  end.

(** VehiclePool::GetVehicle, SE/VehiclePool.cpp:147-181; [None]: nullptr. *)
Definition GetVehicle (p : pool) (index : nat) (category : string) : option vehicle :=
  let in_group (vs : list vehicle) := nth_error vs index in
  if String.eqb category "" then
    match p_groups p with
    | [] => None
    | e :: _ => in_group (g_vehicles (snd e))
    end
  else match find_key category (p_groups p) with
       | None => None
       | Some g => in_group (g_vehicles g)
       end.

(** SE_Rand::GetRealBetween from 0, CM/CommonMini.hpp:1431-1434: std::uniform_real_distribution asks for bounds in order; [u] is the
    number drawn between 0 and 1. *)
Definition GetRealBetween0 (max u : Q) : option Q := if Qle_bool 0 max then Some (u * max) else None.

(** SE_Rand::GetNumberBetween from 0, CM/CommonMini.hpp:1412-1420, for a bound that is not negative; [r] stands for the number drawn. *)
Definition GetNumberBetween0 (max r : nat) : nat := Nat.modulo r (S max).

(** SMALL_NUMBER, CM/CommonMini.hpp:52. *)
Definition SMALL_NUMBER : Q := 1 # 1000000.

(** The loop mapping a sample to a category, SE/VehiclePool.cpp:193-202. *)
Fixpoint map_sample (sample cumulative : Q) (m : list (string * group)) : option (string * group) :=
  match m with
  | [] => None
  | e :: r =>
    let cumulative := cumulative + g_weight (snd e) in
    if negb (Qle_bool (cumulative + SMALL_NUMBER) sample) then Some e else map_sample sample cumulative r
  end.

(** VehiclePool::GetRandomVehicle, SE/VehiclePool.cpp:183-218: outer [None] undefined, inner [None] nullptr. *)
Definition GetRandomVehicle (p : pool) (u : Q) (r : nat) (category : string) : option (option vehicle) :=
  match match find (fun e => String.eqb (fst e) category) (p_groups p) with
        | Some e => Some (Some e)
        | None => match GetRealBetween0 (p_total p) u with
                  | None => None
                  | Some sample => Some (map_sample sample 0 (p_groups p))
                  end
        end with
  | None => None
  | Some None => Some None
  | Some (Some e) =>
    let vs := g_vehicles (snd e) in
    match vs with
    | [] => Some None
    | _ => Some (nth_error vs (GetNumberBetween0 (List.length vs - 1) r))
    end
  end.

(** The categories of swarm traffic and of SUMO, OT/OSCGlobalAction.cpp:401-406 and CT/ControllerSumo.cpp:113-118. *)
Definition swarm_categories : categories := [(CAR, 5); (TRAILER, 0); (VAN, 2); (BUS, 1); (TRUCK, 2); (MOTORBIKE, 1)].
Definition sumo_categories : categories := [(CAR, 5); (VAN, 2); (BUS, 1); (TRUCK, 2); (TRAILER, 0); (MOTORBIKE, 1)].

(** The pool of SwarmTrafficAction::Start, OT/OSCGlobalAction.cpp:408-426: [central] is the copy of the central object if it is a
    vehicle. *)
Definition swarm_pool (l : list catalog) (central : option vehicle) (p : pool) : option (pool * list nat) :=
  match Initialize swarm_categories true l p with
  | None => None
  | Some (p1, d) =>
    match p_groups p1, central with
    | [], Some v => Some (snd (AddVehicle (Some v) p1), d)
    | _, _ => Some (p1, d)
    end
  end.
