(** * Entities: the lists of objects, their ids, and trailers

    SE = EnvironmentSimulator/Modules/ScenarioEngine/SourceFiles, OT = EnvironmentSimulator/Modules/ScenarioEngine/OSCTypeDefs.
    Objects, hitches and couplers are pointers, that is numbers.  A hitch or coupler may be shared by vehicles (shared_ptr). *)
From Coq Require Import List Bool ZArith NArith String.
Import ListNotations.

(** A result, undefined behaviour (a deleted object or a null pointer is used, or the stack overflows), or LOG_ERROR_AND_QUIT. *)
Inductive res (A : Type) := Ok (x : A) | Bad | Quit.
Arguments Ok {A} _.
Arguments Bad {A}.
Arguments Quit {A}.
Definition bind {A B} (r : res A) (f : A -> res B) : res B := match r with Ok x => f x | Bad => Bad | Quit => Quit end.

(** class Object and class Vehicle, SE/Entities.hpp:50-1103, as far as used here; [e_vehicle] is type_ == VEHICLE, [e_active] is set by SetActive. *)
Record ent := Ent { e_id : Z; e_name : string; e_vehicle : bool; e_hitch : option N; e_coupler : option N; e_active : bool }.

(** class Entities, SE/Entities.hpp:1105-1142, with the heap: [live] objects, trailer_vehicle_ of every hitch, tow_vehicle_ of every coupler, and
    the next unused pointers. *)
Record world := W {
  ents : N -> ent; live : N -> bool; hitches : N -> option N; couplers : N -> option N;
  object_ : list N; object_pool_ : list N; nextId_ : Z; next_obj : N; next_handle : N }.

(** Assignments to an object, the lists, trailer_vehicle_ and tow_vehicle_, as at SE/Entities.cpp:1531, 1536, 1807-1811. *)
Definition upd {A} (f : N -> A) (k : N) (a : A) : N -> A := fun x => if (x =? k)%N then a else f x.
Definition set_ent (w : world) (o : N) (e : ent) : world :=
  W (upd (ents w) o e) (live w) (hitches w) (couplers w) (object_ w) (object_pool_ w) (nextId_ w) (next_obj w) (next_handle w).
Definition set_lists (w : world) (a p : list N) : world := W (ents w) (live w) (hitches w) (couplers w) a p (nextId_ w) (next_obj w) (next_handle w).
Definition set_hitch (w : world) (h : N) (t : option N) : world :=
  W (ents w) (live w) (upd (hitches w) h t) (couplers w) (object_ w) (object_pool_ w) (nextId_ w) (next_obj w) (next_handle w).
Definition set_coupler (w : world) (c : N) (t : option N) : world :=
  W (ents w) (live w) (hitches w) (upd (couplers w) c t) (object_ w) (object_pool_ w) (nextId_ w) (next_obj w) (next_handle w).

(** std::find(...) != end, SE/Entities.cpp:1555-1556. *)
Definition mem (o : N) (l : list N) : bool := existsb (N.eqb o) l.
(** erase(remove(...)) and std::count, SE/Entities.cpp:1586-1605, 1631-1637. *)
Definition erase (o : N) (l : list N) : list N := filter (fun x => negb (x =? o)%N) l.
Definition count (o : N) (l : list N) : nat := List.length (filter (N.eqb o) l).

(** Object::TrailerVehicle, SE/Entities.cpp:2056-2081. *)
Definition TrailerVehicle (w : world) (o : N) : res (option N) :=
  if negb (live w o) then Bad
  else if negb (e_vehicle (ents w o)) then Ok None
  else
    match e_hitch (ents w o) with
    | None => Ok None
    | Some h =>
        match hitches w h with
        | None => Ok None
        | Some t =>
            if negb (live w t) then Bad
            else if negb (e_vehicle (ents w t)) then Ok None
            else match e_coupler (ents w t) with None => Ok None | Some _ => Ok (Some t) end
        end
    end.

(** Object::TowVehicle, SE/Entities.cpp:2029-2054. *)
Definition TowVehicle (w : world) (o : N) : res (option N) :=
  if negb (live w o) then Bad
  else if negb (e_vehicle (ents w o)) then Ok None
  else
    match e_coupler (ents w o) with
    | None => Ok None
    | Some c =>
        match couplers w c with
        | None => Ok None
        | Some t =>
            if negb (live w t) then Bad
            else if negb (e_vehicle (ents w t)) then Ok None
            else match e_hitch (ents w t) with None => Ok None | Some _ => Ok (Some t) end
        end
    end.

(** Object::SetActive, SE/Entities.hpp:699-702; an assignment to name_. *)
Definition set_active (w : world) (o : N) (b : bool) : world :=
  let e := ents w o in set_ent w o (Ent (e_id e) (e_name e) (e_vehicle e) (e_hitch e) (e_coupler e) b).
Definition set_name (w : world) (o : N) (n : string) : world :=
  let e := ents w o in set_ent w o (Ent (e_id e) n (e_vehicle e) (e_hitch e) (e_coupler e) (e_active e)).

(** The recursion into the trailer, SE/Entities.cpp:1607-1611, 1647-1651; the result of the inner call is not used. *)
Definition into_trailer (f : world -> N -> res (world * Z)) (w : world) (o : N) : res (world * Z) :=
  bind (TrailerVehicle w o) (fun r =>
    match r with
    | None => Ok (w, 0%Z)
    | Some t => if (t =? o)%N then Ok (w, 0%Z) else bind (f w t) (fun x => Ok (fst x, 0%Z))
    end).

(** Entities::activateObject, SE/Entities.cpp:1577-1620; [n] is max_trailers - call_index. *)
Fixpoint activateObject (n : nat) (w : world) (o : N) : res (world * Z) :=
  match n with
  | O => Quit
  | S n =>
      if negb (live w o) then Bad
      else if (count o (object_ w) =? 0)%nat then
        let w := set_active (set_lists w (object_ w ++ [o]) (object_pool_ w)) o true in
        match count o (object_pool_ w) with
        | S (S _) => Ok (w, (-1)%Z)
        | S O => into_trailer (activateObject n) (set_lists w (object_ w) (erase o (object_pool_ w))) o
        | O => into_trailer (activateObject n) w o
        end
      else Ok (w, (-1)%Z)
  end.

(** Entities::deactivateObject, SE/Entities.cpp:1622-1665. *)
Fixpoint deactivateObject (n : nat) (w : world) (o : N) : res (world * Z) :=
  match n with
  | O => Quit
  | S n =>
      if negb (live w o) then Bad
      else if (count o (object_ w) =? 1)%nat then
        let w := set_active (set_lists w (erase o (object_ w)) (object_pool_ w)) o false in
        let w := if (count o (object_pool_ w) =? 0)%nat then set_lists w (object_ w) (object_pool_ w ++ [o]) else w in
        into_trailer (deactivateObject n) w o
      else Ok (w, (-1)%Z)
  end.

(** Entities::addObject, SE/Entities.cpp:1523-1575. *)
Fixpoint addObject (n : nat) (w : world) (o : N) (activate : bool) : res (world * Z) :=
  match n with
  | O => Quit
  | S m =>
      if negb (live w o) then Bad
      else
        let id := nextId_ w in
        let e := ents w o in
        let w := W (upd (ents w) o (Ent id (e_name e) (e_vehicle e) (e_hitch e) (e_coupler e) activate)) (live w) (hitches w) (couplers w)
                   (if activate then object_ w ++ [o] else object_ w) (if activate then object_pool_ w else object_pool_ w ++ [o])
                   (id + 1)%Z (next_obj w) (next_handle w) in
        bind (TrailerVehicle w o) (fun r =>
          match r with
          | None => Ok (w, id)
          | Some t =>
              if (t =? o)%N then Ok (w, id)
              else
                let w := if (e_name (ents w t) =? "")%string then set_name w t (e_name (ents w o) ++ "+")%string else w in
                let in_active := mem t (object_ w) in
                let in_passive := mem t (object_pool_ w) in
                if in_active && negb activate then bind (deactivateObject n w t) (fun x => Ok (fst x, id))
                else if in_passive && activate then bind (activateObject n w t) (fun x => Ok (fst x, id))
                else if negb in_active && negb in_passive then bind (addObject m w t activate) (fun x => Ok (fst x, id))
                else Ok (w, id)
          end)
  end.

(** max_trailers, SE/Entities.cpp:1525. *)
Definition max_trailers : nat := 100.

(** Entities::removeObject of a pointer, SE/Entities.cpp:1691-1716; [n] bounds the stack. *)
Fixpoint removeObject (n : nat) (w : world) (o : N) (recursive : bool) : res world :=
  match n with
  | O => Bad
  | S n =>
      bind (if recursive && mem o (object_ w) then
              if negb (live w o) then Bad
              else if negb (e_vehicle (ents w o)) then Ok w
              else
                match e_hitch (ents w o) with
                | None => Ok w
                | Some h => match hitches w h with None => Ok w | Some t => removeObject n w t recursive end
                end
            else Ok w)
        (fun w =>
           if negb (live w o) then Bad
           else Ok (W (ents w) (upd (live w) o false) (hitches w) (couplers w) (erase o (object_ w)) (object_pool_ w) (nextId_ w) (next_obj w) (next_handle w)))
  end.

(** The loops over a list that use every object until one fits, SE/Entities.cpp:1669-1675, 1943-1950, 1989-1995. *)
Fixpoint search (w : world) (p : ent -> bool) (l : list N) : res (option N) :=
  match l with
  | [] => Ok None
  | o :: l => if negb (live w o) then Bad else if p (ents w o) then Ok (Some o) else search w p l
  end.
Fixpoint search_idx (w : world) (p : ent -> bool) (i : Z) (l : list N) : res Z :=
  match l with
  | [] => Ok (-1)%Z
  | o :: l => if negb (live w o) then Bad else if p (ents w o) then Ok i else search_idx w p (i + 1)%Z l
  end.

(** Entities::removeObject(int), removeObject(std::string), SE/Entities.cpp:1667-1689. *)
Definition removeObject_by (n : nat) (w : world) (p : ent -> bool) (recursive : bool) : res world :=
  bind (search w p (object_ w)) (fun r => match r with None => Ok w | Some o => removeObject n w o recursive end).
Definition by_id (id : Z) : ent -> bool := fun e => (e_id e =? id)%Z.
Definition by_name (s : string) : ent -> bool := fun e => (e_name e =? s)%string.

(** Entities::nameExists, SE/Entities.cpp:1718-1728. *)
Definition nameExists (w : world) (s : string) : res bool :=
  bind (search w (by_name s) (object_ w)) (fun r => Ok (match r with Some _ => true | None => false end)).
(** Entities::indexExists, SE/Entities.cpp:1730-1740. *)
Definition indexExists (w : world) (id : Z) : res bool :=
  bind (search w (by_id id) (object_ w)) (fun r => Ok (match r with Some _ => false | None => true end)).
(** Entities::GetObjectByName, GetObjectById, SE/Entities.cpp:1941-1985. *)
Definition GetObjectBy (w : world) (p : ent -> bool) : res (option N) :=
  bind (search w p (object_ w)) (fun r => match r with Some o => Ok (Some o) | None => search w p (object_pool_ w) end).
(** Entities::GetObjectIdxById, SE/Entities.cpp:1987-1998. *)
Definition GetObjectIdxById (w : world) (id : Z) : res Z := search_idx w (by_id id) 0 (object_ w).

(** Vehicle::ConnectTrailer, SE/Entities.cpp:1803-1816. *)
Definition ConnectTrailer (w : world) (o : N) (trailer : option N) : res (world * Z) :=
  match trailer with
  | None => Ok (w, (-1)%Z)
  | Some t =>
      if negb (live w t) || negb (live w o) then Bad
      else
        match e_coupler (ents w t) with
        | None => Ok (w, (-1)%Z)
        | Some c =>
            let w := set_coupler w c (Some o) in
            match e_hitch (ents w o) with
            | Some h => Ok (set_hitch w h (Some t), 0%Z)
            | None => Ok (w, (-1)%Z)
            end
        end
  end.

(** Vehicle::DisconnectTrailer, SE/Entities.cpp:1818-1827. *)
Definition DisconnectTrailer (w : world) (o : N) : res world :=
  if negb (live w o) then Bad
  else
    match e_hitch (ents w o) with
    | None => Ok w
    | Some h =>
        match hitches w h with
        | None => Ok w
        | Some t =>
            if negb (live w t) then Bad
            else match e_coupler (ents w t) with None => Bad | Some c => Ok (set_hitch (set_coupler w c None) h None) end
        end
    end.

(** trailer_object_ != object_->TrailerVehicle(), OT/OSCPrivateAction.cpp:2478. *)
Definition opt_eqb (a b : option N) : bool := match a, b with Some x, Some y => (x =? y)%N | None, None => true | _, _ => false end.

(** ConnectTrailerAction::Start, OT/OSCPrivateAction.cpp:2458-2487; the cast of an object that is not a vehicle is undefined. *)
Definition ConnectTrailerAction_Start (w : world) (o : N) (trailer : option N) : res world :=
  match trailer with
  | None => Ok w
  | Some t =>
      bind (TrailerVehicle w o) (fun r =>
        bind (match r with Some t' => if (t' =? t)%N then Ok w else DisconnectTrailer w o | None => Ok w end) (fun w =>
          bind (TrailerVehicle w o) (fun r =>
            if opt_eqb (Some t) r then Ok w
            else if negb (live w t) || negb (e_vehicle (ents w t)) || negb (e_vehicle (ents w o)) then Bad
            else bind (ConnectTrailer w o (Some t)) (fun x => Ok (fst x)))))
  end.

(** DisconnectTrailerAction::Start, OT/OSCPrivateAction.cpp:2510-2523. *)
Definition DisconnectTrailerAction_Start (w : world) (o : N) : res world :=
  bind (TrailerVehicle w o) (fun r => match r with Some _ => DisconnectTrailer w o | None => Ok w end).

(** new Vehicle(v), SE/Entities.cpp:1755-1773: the members are copied, the pointers of hitch and coupler too, unless connected.  [n] bounds the stack;
    the result is the new vehicle. *)
Fixpoint copyVehicle (n : nat) (w : world) (v : N) : res (world * N) :=
  match n with
  | O => Bad
  | S n =>
      if negb (live w v) then Bad
      else
        let k := next_obj w in
        let e := ents w v in
        let w := W (upd (ents w) k e) (upd (live w) k true) (hitches w) (couplers w) (object_ w) (object_pool_ w) (nextId_ w) (k + 1)%N (next_handle w) in
        let w :=
          match e_coupler e with
          | Some c =>
              match couplers w c with
              | Some _ =>
                  let c' := next_handle w in
                  W (upd (ents w) k (Ent (e_id e) (e_name e) (e_vehicle e) (e_hitch e) (Some c') (e_active e))) (live w) (hitches w) (upd (couplers w) c' None)
                    (object_ w) (object_pool_ w) (nextId_ w) (next_obj w) (c' + 1)%N
              | None => w
              end
          | None => w
          end in
        match e_hitch e with
        | Some h =>
            match hitches w h with
            | Some t =>
                let h' := next_handle w in
                let e' := ents w k in
                let w := W (upd (ents w) k (Ent (e_id e') (e_name e') (e_vehicle e') (Some h') (e_coupler e') (e_active e'))) (live w) (upd (hitches w) h' (Some t))
                           (couplers w) (object_ w) (object_pool_ w) (nextId_ w) (next_obj w) (h' + 1)%N in
                bind (copyVehicle n w t) (fun x => bind (ConnectTrailer (fst x) k (Some (snd x))) (fun y => Ok (fst y, k)))
            | None => Ok (w, k)
            end
        | None => Ok (w, k)
        end
  end.
