(** * Controllers, their domains and their assignment to objects

    SE = EnvironmentSimulator/Modules/ScenarioEngine/SourceFiles, OT = EnvironmentSimulator/Modules/ScenarioEngine/OSCTypeDefs,
    CM = EnvironmentSimulator/Modules/CommonMini, CO = EnvironmentSimulator/Modules/Controllers,
    LI = EnvironmentSimulator/Libraries/esminiLib.
    Pointers to controllers and objects are numbers, names are numbers.  [None] is the use of a null pointer, of an invalidated reference or
    of a deleted controller. *)
From Coq Require Import List Bool ZArith NArith.
Import ListNotations.

(** ControlActivationMode, CM/CommonMini.hpp:147-152. *)
Inductive act := UNDEFINED | OFF | ON.
(** ControlOperationMode, CM/CommonMini.hpp:140-145. *)
Inductive opmode := MODE_NONE | MODE_OVERRIDE | MODE_ADDITIVE.
Definition opmode_eqb (a b : opmode) : bool :=
  match a, b with MODE_NONE, MODE_NONE | MODE_OVERRIDE, MODE_OVERRIDE | MODE_ADDITIVE, MODE_ADDITIVE => true | _, _ => false end.

(** ControlDomains, CM/CommonMini.hpp:120-127. *)
Definition DOMAIN_LONG : nat := 0.
Definition DOMAIN_LAT : nat := 1.
Definition DOMAIN_LIGHT : nat := 2.
Definition DOMAIN_ANIM : nat := 3.
Definition domains : list nat := [0; 1; 2; 3].

(** ControlDomainMasks, CM/CommonMini.hpp:129-138. *)
Definition MASK_LONG : N := 1.
Definition MASK_LAT : N := 2.
Definition MASK_LIGHT : N := 4.
Definition MASK_ANIM : N := 8.
Definition MASK_ALL : N := 15.

(** ControlDomain2DomainMask, CM/CommonMini.cpp:216-233. *)
Definition ControlDomain2DomainMask (d : nat) : N :=
  match d with 0 => MASK_LONG | 1 => MASK_LAT | 2 => MASK_LIGHT | 3 => MASK_ANIM | _ => 0%N end.

(** The parts of ControlDomainMask2Str in the order of the string, CM/CommonMini.cpp:170-214. *)
Definition ControlDomainMask2Str (mask : N) : list nat :=
  (if (N.land mask MASK_LAT =? 0)%N then [] else [DOMAIN_LAT]) ++ (if (N.land mask MASK_LONG =? 0)%N then [] else [DOMAIN_LONG]) ++
  (if (N.land mask MASK_LIGHT =? 0)%N then [] else [DOMAIN_LIGHT]) ++ (if (N.land mask MASK_ANIM =? 0)%N then [] else [DOMAIN_ANIM]).

(** Controller::Type, CO/Controller.hpp:35-60, those with behaviour of their own below. *)
Definition TYPE_FOLLOW_ROUTE : Z := 3.
Definition TYPE_ACC : Z := 8.
Definition TYPE_NATURAL_DRIVER : Z := 9.
Definition TYPE_ECE_ALKS_REF_DRIVER : Z := 12.
Definition TYPE_LOOMING : Z := 14.
Definition TYPE_UNDEFINED : Z := 19.

(** class Controller, CO/Controller.hpp:31-170; [c_aligned] counts the calls of SetHeading at CO/Controller.cpp:206, [c_deleted] is set by
    delete. *)
Record ctrl := Ctrl {
  c_name : N; c_type : Z; c_operating : N; c_active : N; c_mode : opmode; c_object : option N;
  c_align_off : bool; c_align_on : bool; c_aligned : nat; c_deleted : bool }.

(** A change of active_domains_. *)
Definition with_active (c : ctrl) (a : N) : ctrl :=
  Ctrl (c_name c) (c_type c) (c_operating c) a (c_mode c) (c_object c) (c_align_off c) (c_align_on c) (c_aligned c) (c_deleted c).

(** Controller::LinkObject, UnlinkObject, CO/Controller.cpp:88-96. *)
Definition LinkObject (c : ctrl) (o : option N) : ctrl :=
  Ctrl (c_name c) (c_type c) (c_operating c) (c_active c) (c_mode c) o (c_align_off c) (c_align_on c) (c_aligned c) (c_deleted c).

(** Controller::IsActiveOnDomainsOnly, IsActiveOnDomains, IsNotActiveOnDomains, IsActiveOnAnyOfDomains, IsActive, CO/Controller.cpp:177-200,
    and Active, CO/Controller.hpp:111-114. *)
Definition IsActiveOnDomainsOnly (c : ctrl) (mask : N) : bool := (c_active c =? mask)%N.
Definition IsActiveOnDomains (c : ctrl) (mask : N) : bool := (N.land mask (c_active c) =? mask)%N.
Definition IsNotActiveOnDomains (c : ctrl) (mask : N) : bool := (N.land mask (c_active c) =? 0)%N.
Definition IsActiveOnAnyOfDomains (c : ctrl) (mask : N) : bool := negb (N.land mask (c_active c) =? 0)%N.
Definition IsActive (c : ctrl) : bool := negb (c_active c =? 0)%N.

(** Controller::AlignToRoadHeading, CO/Controller.cpp:202-208. *)
Definition AlignToRoadHeading (c : ctrl) : ctrl :=
  match c_object c with
  | None => c
  | Some _ => Ctrl (c_name c) (c_type c) (c_operating c) (c_active c) (c_mode c) (c_object c) (c_align_off c) (c_align_on c) (S (c_aligned c)) (c_deleted c)
  end.

(** The modes at the index of a domain; the array has four elements. *)
Definition mode_at (mode : list act) (d : nat) : act := nth d mode UNDEFINED.

(** The body of the loop, CO/Controller.cpp:115-135. *)
Definition activate_domain (mode : list act) (c : ctrl) (i : nat) : ctrl :=
  match mode_at mode i with
  | OFF => with_active c (N.ldiff (c_active c) (ControlDomain2DomainMask i))
  | ON => if (N.land (c_operating c) (ControlDomain2DomainMask i) =? 0)%N then c else with_active c (N.lor (c_active c) (ControlDomain2DomainMask i))
  | UNDEFINED => c
  end.

(** Controller::Activate, CO/Controller.cpp:98-137, which returns 0. *)
Definition Activate_base (c : ctrl) (mode : list act) : ctrl :=
  let c := match mode_at mode DOMAIN_LAT with OFF => if c_align_off c && IsActiveOnDomains c MASK_LAT then AlignToRoadHeading c else c | _ => c end in
  let c := match mode_at mode DOMAIN_LAT with ON => if c_align_on c then AlignToRoadHeading c else c | _ => c end in
  fold_left (activate_domain mode) domains c.

(** Types whose Activate uses object_ before anything else: CO/ControllerACC.cpp:232, ControllerLooming.cpp:425, ControllerNaturalDriver.cpp:384,
    ControllerECE_ALKS_RefDriver.cpp:480, 489. *)
Definition needs_object (t : Z) : bool := ((t =? TYPE_ACC) || (t =? TYPE_NATURAL_DRIVER) || (t =? TYPE_ECE_ALKS_REF_DRIVER) || (t =? TYPE_LOOMING))%Z.

(** The virtual Activate, which calls the base (CO/ControllerACC.cpp:238, ControllerExternal.cpp:81, ControllerHID.cpp:283, ...).  The own state of
    the derived classes is left out, and so are ControllerSumo and ControllerALKS_R157SM. *)
Definition Activate (c : ctrl) (mode : list act) : option ctrl :=
  if needs_object (c_type c) && match c_object c with None => true | Some _ => false end then None else Some (Activate_base c mode).

(** Controller::DeactivateDomains, CO/Controller.cpp:139-149. *)
Definition DeactivateDomains (c : ctrl) (mask : N) : ctrl :=
  let c := if c_align_off c && IsActiveOnDomains c MASK_LAT && negb (N.land mask MASK_LAT =? 0)%N then AlignToRoadHeading c else c in
  with_active c (N.ldiff (c_active c) mask).

(** The virtual Deactivate: CO/Controller.hpp:88-91; ControllerFollowRoute::Deactivate uses object_, CO/ControllerFollowRoute.cpp:387-396. *)
Definition Deactivate (c : ctrl) : option ctrl :=
  if (c_type c =? TYPE_FOLLOW_ROUTE)%Z && match c_object c with None => true | Some _ => false end then None else Some (DeactivateDomains c MASK_ALL).

(** The controllers, and the controllers_ of every object (SE/Entities.hpp). *)
Record world := W { ctrls : N -> ctrl; objs : N -> list N }.
Definition set_ctrl (w : world) (k : N) (c : ctrl) : world := W (fun x => if (x =? k)%N then c else ctrls w x) (objs w).
Definition set_obj (w : world) (o : N) (l : list N) : world := W (ctrls w) (fun x => if (x =? o)%N then l else objs w x).

(** A call on a controller, which must not have been deleted. *)
Definition call (w : world) (k : N) (f : ctrl -> option ctrl) : option world :=
  if c_deleted (ctrls w k) then None else match f (ctrls w k) with None => None | Some c => Some (set_ctrl w k c) end.

(** erase(remove(...)), e.g. SE/Entities.cpp:128. *)
Definition without (k : N) (l : list N) : list N := filter (fun x => negb (x =? k)%N) l.

(** Object::AssignController, SE/Entities.cpp:125-132. *)
Definition AssignController (w : world) (o k : N) : world := set_obj w o (without k (objs w o) ++ [k]).

(** Object::UnassignController, SE/Entities.cpp:134-144. *)
Definition UnassignController (w : world) (o k : N) : option world :=
  match (if existsb (N.eqb k) (objs w o) then call w k (fun c => Deactivate (LinkObject c None)) else Some w) with
  | None => None
  | Some w => Some (set_obj w o (without k (objs w o)))
  end.

(** Object::UnassignControllers, SE/Entities.cpp:146-153. *)
Fixpoint deactivate_all (w : world) (l : list N) : option world :=
  match l with [] => Some w | k :: l => match call w k Deactivate with None => None | Some w => deactivate_all w l end end.
Definition UnassignControllers (w : world) (o : N) : option world :=
  match deactivate_all w (objs w o) with None => None | Some w => Some (set_obj w o []) end.

(** Object::IsControllerActiveOnDomains, IsControllerActiveOnAnyOfDomains, SE/Entities.cpp:155-185; the comparison of the type is as written. *)
Definition type_ok (type : Z) (c : ctrl) : bool := (type =? TYPE_UNDEFINED)%Z || (c_type c =? c_type c)%Z.
Definition IsControllerActiveOnDomains (w : world) (o : N) (mask : N) (type : Z) : bool :=
  existsb (fun k => IsActiveOnDomains (ctrls w k) mask && type_ok type (ctrls w k)) (objs w o).
Definition IsControllerActiveOnAnyOfDomains (w : world) (o : N) (mask : N) (type : Z) : bool :=
  existsb (fun k => IsActiveOnAnyOfDomains (ctrls w k) mask && type_ok type (ctrls w k)) (objs w o).

(** Object::IsControllerModeOnDomains, IsControllerModeOnAnyOfDomains, SE/Entities.cpp:187-225. *)
Definition IsControllerModeOnDomains (w : world) (o : N) (mode : opmode) (mask : N) (type : Z) : bool :=
  match find (fun k => IsActiveOnDomains (ctrls w k) mask) (objs w o) with
  | Some k => opmode_eqb (c_mode (ctrls w k)) mode && type_ok type (ctrls w k)
  | None => false
  end.
Definition IsControllerModeOnAnyOfDomains (w : world) (o : N) (mode : opmode) (mask : N) (type : Z) : bool :=
  match find (fun k => IsActiveOnAnyOfDomains (ctrls w k) mask) (objs w o) with
  | Some k => opmode_eqb (c_mode (ctrls w k)) mode && type_ok type (ctrls w k)
  | None => false
  end.

(** Object::GetAssignedControllerOftype, IsAnyAssignedControllerOfType, IsAnyActiveControllerOfType, SE/Entities.cpp:227-256. *)
Definition GetAssignedControllerOftype (w : world) (o : N) (type : Z) : option N := find (fun k => c_type (ctrls w k) =? type)%Z (objs w o).
Definition IsAnyAssignedControllerOfType (w : world) (o : N) (type : Z) : bool :=
  match GetAssignedControllerOftype w o type with Some _ => true | None => false end.
Definition IsAnyActiveControllerOfType (w : world) (o : N) (type : Z) : bool :=
  match find (fun k => IsActive (ctrls w k) && (c_type (ctrls w k) =? type)%Z) (objs w o) with Some _ => true | None => false end.

(** Object::GetControllerActiveOnDomainMask, GetControllerActiveOnDomain, GetController, SE/Entities.cpp:258-273, 291-299. *)
Definition GetControllerActiveOnDomainMask (w : world) (o : N) (mask : N) : option N := find (fun k => IsActiveOnDomains (ctrls w k) mask) (objs w o).
Definition GetController (w : world) (o : N) (name : N) : option N := find (fun k => c_name (ctrls w k) =? name)%N (objs w o).

(** AssignControllerAction::Start, OT/OSCPrivateAction.cpp:738-774, without OSCAction::Start. *)
Definition AssignControllerAction_Start (w : world) (o k : option N) (lat long light anim : act) : option world :=
  match k with
  | None => Some w
  | Some k =>
      let w := match o with Some o => AssignController w o k | None => w end in
      if negb (IsActive (ctrls w k)) then
        match lat, long, light, anim with
        | UNDEFINED, UNDEFINED, UNDEFINED, UNDEFINED => Some w
        | _, _, _, _ => call w k (fun c => Activate c [lat; long; light; anim])
        end
      else Some w
  end.

(** The loop of ActivateControllerAction::Start over the domains, OT/OSCPrivateAction.cpp:824-847. *)
Fixpoint deactivate_conflicting (w : world) (o k : N) (minor : nat) (mode : list act) (l : list nat) : option world :=
  match l with
  | [] => Some w
  | i :: l =>
      match mode_at mode i, GetControllerActiveOnDomainMask w o (ControlDomain2DomainMask i) with
      | ON, Some k' =>
          if 3 <=? minor then
            match call w k (fun c => Some (DeactivateDomains c (ControlDomain2DomainMask i))) with
            | None => None
            | Some w => deactivate_conflicting w o k minor mode l
            end
          else call w k' Deactivate
      | _, _ => deactivate_conflicting w o k minor mode l
      end
  end.

(** ActivateControllerAction::Start, OT/OSCPrivateAction.cpp:792-865; [name] is ctrl_name_ unless empty, [minor] is GetVersionMinor().  The second
    result tells whether the action was started (and ended). *)
Definition ActivateControllerAction_Start (w : world) (o : N) (minor : nat) (name : option N) (mode : list act) : option (world * bool) :=
  match objs w o with
  | [] => Some (w, false)
  | _ =>
      match (match name with None => Some (last (objs w o) 0%N) | Some n => GetController w o n end) with
      | None => Some (w, false)
      | Some k =>
          match deactivate_conflicting w o k minor mode domains with
          | None => None
          | Some w => match call w k (fun c => Activate c mode) with None => None | Some w => Some (w, true) end
          end
      end
  end.

(** The loop of SE_DeleteObject over the controllers of the object, LI/esminiLib.cpp:1188-1193; [n] is the number of controllers before, [i] the
    index of the iterator.  erase (SE/Entities.cpp:143) invalidates the references to the elements behind the new end.  ScenarioReader::
    RemoveController (SE/ScenarioReader.cpp:122-135) deletes the controller. *)
Fixpoint delete_loop (fuel : nat) (w : world) (o : N) (n i : nat) : option world :=
  match fuel with
  | 0 => None
  | S fuel =>
      if i =? n then Some w
      else
        match nth_error (objs w o) i with
        | None => None
        | Some k =>
            match UnassignController w o k with
            | None => None
            | Some w =>
                match nth_error (objs w o) i with
                | None => None
                | Some k =>
                    match call w k (fun c => Some (LinkObject c None)) with
                    | None => None
                    | Some w =>
                        let c := ctrls w k in
                        delete_loop fuel (set_ctrl w k (Ctrl (c_name c) (c_type c) (c_operating c) (c_active c) (c_mode c) (c_object c) (c_align_off c)
                                                             (c_align_on c) (c_aligned c) true)) o n (S i)
                    end
                end
            end
        end
  end.
Definition SE_DeleteObject_controllers (w : world) (o : N) : option world := delete_loop (S (length (objs w o))) w o (length (objs w o)) 0.
