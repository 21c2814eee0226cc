(** Loops over triggering entities of the entity conditions.
    Source: EnvironmentSimulator/Modules/ScenarioEngine/OSCTypeDefs/OSCCondition.{hpp,cpp} (OT/). *)
From Verif Require Import QAux CondModel.
Local Open Scope nat_scope.

(** OT/OSCCondition.hpp:166-170 TriggeringEntitiesRule. *)
Inductive ent_rule := ANY | ALL.

(** OT/OSCCondition.cpp:262-274 EvalDone. *)
Definition eval_done (result : bool) (r : ent_rule) : bool :=
  match r with
  | ALL => negb result
  | ANY => result
  end.

(** One triggering entity as seen by the simple conditions: IsActive() and the outcome of the
    per-entity comparison (computed from scratch for this entity). *)
Record ent := mkEnt { e_active : bool; e_out : bool }.

(** The loop shared (textually repeated) by OT/OSCCondition.cpp:
    952-998 TrigByDistance, 1002-1045 TrigByRelativeDistance (active = both objects active),
    1151-1184 TrigByTraveledDistance, 1314-1360 TrigByAcceleration, 1474-1520 TrigBySpeed,
    1527-1592 TrigByRelativeSpeed (reference entity present and active),
    1367-1465 TrigByAngle (active = IsActive and, for the trajectory system, a trajectory is present).
    An inactive entity is skipped leaving [result] as it is. *)
Fixpoint fresh_loop (r : ent_rule) (l : list ent) (result : bool) : bool :=
  match l with
  | [] => result
  | e :: l' =>
    if e_active e then
      let result := e_out e in
      if eval_done result r then result else fresh_loop r l' result
    else fresh_loop r l' result
  end.
(** OT/OSCCondition.cpp:955 etc.: result initialised to false. *)
Definition check_fresh (r : ent_rule) (l : list ent) : bool := fresh_loop r l false.

(** OT/OSCCondition.cpp:731-781 TrigByTimeHeadway and 788-859 TrigByTimeToCollision.
    [e_active] = the entity (and the reference entity) is active and the headway / time to collision is
    defined for it; [result] is set to false at the start of each iteration. *)
Fixpoint defined_loop (r : ent_rule) (l : list ent) (result : bool) : bool :=
  match l with
  | [] => result
  | e :: l' =>
    if e_active e then
      let result := e_out e in
      if eval_done result r then result else defined_loop r l' result
    else defined_loop r l' false
  end.
(** OT/OSCCondition.cpp:735,792. *)
Definition check_defined (r : ent_rule) (l : list ent) : bool := defined_loop r l false.

(** OT/OSCCondition.cpp:1051-1127 TrigByCollision and 1189-1226 TrigByEndOfRoad: [result] is only ever
    set to true.  [e_out]: this entity collides / has been at the end of the road long enough. *)
Fixpoint sticky_loop (r : ent_rule) (l : list ent) (result : bool) : bool :=
  match l with
  | [] => result
  | e :: l' =>
    if e_active e then
      let result := if e_out e then true else result in
      if eval_done result r then result else sticky_loop r l' result
    else sticky_loop r l' result
  end.
(** OT/OSCCondition.cpp:1055,1194. *)
Definition check_sticky (r : ent_rule) (l : list ent) : bool := sticky_loop r l false.

(** Entity seen by TrigByReachPosition: active, distance below tolerance, orientation within tolerance. *)
Record rp_ent := mkRp { rp_active : bool; rp_near : bool; rp_orient : bool }.
(** OT/OSCCondition.cpp:873-931 TrigByReachPosition::CheckCondition loop. *)
Fixpoint reach_loop (check_orientation : bool) (r : ent_rule) (l : list rp_ent) (result : bool) : bool :=
  match l with
  | [] => result
  | e :: l' =>
    if rp_active e then
      let result := if rp_near e then (if check_orientation then rp_orient e else true) else result in
      if eval_done result r then result else reach_loop check_orientation r l' result
    else reach_loop check_orientation r l' result
  end.
(** OT/OSCCondition.cpp:878. *)
Definition check_reach (co : bool) (r : ent_rule) (l : list rp_ent) : bool := reach_loop co r l false.

(** Entity seen by TrigByStandStill / TrigByOffRoad: active, and the time stamp since which it stands
    still (is off road), if it does. *)
Record du_ent := mkDu { du_active : bool; du_since : option Q }.
(** OT/OSCCondition.cpp:1232-1266 TrigByStandStill and 1273-1307 TrigByOffRoad loops; [cur] is the member
    current_duration_ which keeps the value of an earlier entity. *)
Fixpoint duration_loop (r : ent_rule) (duration now : Q) (l : list du_ent) (cur : Q) (result : bool) : bool :=
  match l with
  | [] => result
  | e :: l' =>
    if du_active e then
      let cur := match du_since e with Some ts => now - ts | None => cur end%Q in
      let result := Qltb duration cur in
      if eval_done result r then result else duration_loop r duration now l' cur result
    else duration_loop r duration now l' cur result
  end.
(** OT/OSCCondition.cpp:1237-1238. *)
Definition check_duration (r : ent_rule) (duration now : Q) (l : list du_ent) : bool :=
  duration_loop r duration now l 0 false.

(** Entity seen by TrigByRelativeClearance: for every other scenario object considered, in order,
    whether it is found inside the clearance area ([None] = skipped: itself or not in the reference list);
    and whether a matching lane exists. *)
Record cl_ent := mkCl { cl_refs : list (option bool); cl_lane : bool }.
(** OT/OSCCondition.cpp:1624-1665 inner loop over the scenario objects; [found] is the variable objFound. *)
Fixpoint clear_inner (refs : list (option bool)) (found : bool) : bool :=
  match refs with
  | [] => found
  | None :: l => clear_inner l found
  | Some true :: l => true
  | Some false :: l => clear_inner l false
  end.
(** OT/OSCCondition.cpp:1599-1709 TrigByRelativeClearance::CheckCondition (every entity on a known road). *)
Fixpoint clear_loop (r : ent_rule) (l : list cl_ent) (found result : bool) : bool :=
  match l with
  | [] => result
  | e :: l' =>
    let found := clear_inner (cl_refs e) found in
    let result := if found then false else cl_lane e in
    if eval_done result r then result else clear_loop r l' found result
  end.
(** OT/OSCCondition.cpp:1605-1606. *)
Definition check_clear (r : ent_rule) (l : list cl_ent) : bool := clear_loop r l false false.
