(** * Overriding pedals, steering wheel and gear (OverrideControlAction)

    [double] is idealised as [R]. OT = EnvironmentSimulator/Modules/ScenarioEngine/OSCTypeDefs,
    SE = EnvironmentSimulator/Modules/ScenarioEngine/SourceFiles, CM = EnvironmentSimulator/Modules/CommonMini,
    LI = EnvironmentSimulator/Libraries/esminiLib. *)
From Coq Require Import Reals Bool List ZArith NArith.
From Verif Require Import AngModel.
Import ListNotations.
Open Scope R_scope.

(** Object::OverrideType, SE/Entities.hpp:104-114. *)
Definition THROTTLE : Z := 0.
Definition BRAKE : Z := 1.
Definition CLUTCH : Z := 2.
Definition PARKING_BRAKE : Z := 3.
Definition STEERING_WHEEL : Z := 4.
Definition GEAR : Z := 5.
Definition NR_TYPES : Z := 6.
Definition OV_UNDEFINED : Z := 7.

(** ControlDomainMasks, CM/CommonMini.hpp:131-133. *)
Definition MASK_NONE : N := 0.
Definition MASK_LONG : N := 1.
Definition MASK_LAT : N := 2.

(** Object::OverrideActionStatus, SE/Entities.hpp:201-210. *)
Record status := Status { v_type : Z; v_active : bool; v_value : R; v_rate : R; v_torque : R; v_number : Z; v_kind : Z }.

(** overrideActionList of an object, SE/Entities.hpp:229: indices from 0 below NR_TYPES; as initialised, SE/Entities.cpp:64-69. *)
Definition overrides := Z -> status.
Definition no_overrides : overrides := fun i => Status i false 0 (-1) (-1) 0 0.

(** OverrideControlAction, OT/OSCPrivateAction.hpp:1670-1730: domains_ (SE/OSCAction.hpp), overrideActionList and whether it is running. *)
Record ovr := Ovr { w_domains : N; w_list : list status; w_run : bool }.
(** The constructor, OT/OSCPrivateAction.hpp:1676-1688; and that by copy, 1690-1698. *)
Definition new_ovr : ovr := Ovr MASK_NONE [] false.
Definition CopyOvr (w : ovr) : ovr := Ovr MASK_NONE (w_list w) false.

(** OverrideControlAction::AddOverrideStatus, OT/OSCPrivateAction.cpp:3593-3627; [None]: LOG_ERROR_AND_QUIT. *)
Definition AddOverrideStatus (s : status) (w : ovr) : option ovr :=
  let l := w_list w ++ [s] in
  if (v_type s <? NR_TYPES)%Z then
    let d :=
      if (v_type s =? STEERING_WHEEL)%Z then
        if v_active s then N.lor (w_domains w) MASK_LAT else N.ldiff (w_domains w) MASK_LAT
      else
        if v_active s then N.lor (w_domains w) MASK_LONG else N.ldiff (w_domains w) MASK_LONG in
    Some (Ovr d l (w_run w))
  else None.
(** Several statuses added one after the other, as by the loop at SE/ScenarioReader.cpp:3698-3956. *)
Fixpoint AddAll (l : list status) (w : ovr) : option ovr :=
  match l with
  | [] => Some w
  | s :: l => match AddOverrideStatus s w with Some w => AddAll l w | None => None end
  end.

(** One turn of the loop of OverrideControlAction::Start, OT/OSCPrivateAction.cpp:3631-3641: the list of the object and the number of ghost
    restarts injected; [None]: an index out of bounds. *)
Definition start1 (ghost : bool) (s : status) (r : overrides * nat) : option (overrides * nat) :=
  let (ov, n) := r in
  if ((0 <=? v_type s) && (v_type s <? NR_TYPES))%Z then
    let n := if ghost && negb (v_active s) && v_active (ov (v_type s)) then S n else n in
    Some ((fun j => if (j =? v_type s)%Z then s else ov j), n)
  else None.
(** The loop. *)
Fixpoint start_all (ghost : bool) (l : list status) (r : overrides * nat) : option (overrides * nat) :=
  match l with
  | [] => Some r
  | s :: l => match start1 ghost s r with Some r => start_all ghost l r | None => None end
  end.
(** OverrideControlAction::Start, OT/OSCPrivateAction.cpp:3629-3643. *)
Definition StartOvr (ghost : bool) (w : ovr) (ov : overrides) : option (ovr * overrides * nat) :=
  match start_all ghost (w_list w) (ov, 0%nat) with
  | Some (ov, n) => Some (Ovr (w_domains w) (w_list w) true, ov, n)
  | None => None
  end.
(** OverrideControlAction::Step, OT/OSCPrivateAction.cpp:3645-3651. *)
Definition StepOvr (w : ovr) : ovr := Ovr (w_domains w) (w_list w) false.

(** round of <cmath>, called at OT/OSCPrivateAction.cpp:3664: halves away from zero. *)
Definition round_ (x : R) : R := if Rltb x 0 then - IZR (Int_part (- x + 1 / 2)) else IZR (Int_part (x + 1 / 2)).

(** OverrideControlAction::RangeCheckAndErrorLog, OT/OSCPrivateAction.cpp:3653-3674. *)
Definition RangeCheck (v lower upper : R) (ifRound : bool) : R :=
  if negb (Rltb upper v) && negb (Rltb v lower) then (if ifRound then round_ v else v)
  else if Rltb upper v then upper else lower.

(** The value of a brake given as a force, SE/ScenarioReader.cpp:3742-3750, 3814-3822. *)
Definition brake_force (v : R) : R := if Rltb v 0 then 0 else v.

(** Object::OverrideGearType and OverrideBrakeType, SE/Entities.hpp:128-138. *)
Definition Manual : Z := 0.
Definition Automatic : Z := 1.
Definition Percent : Z := 0.
Definition Force : Z := 1.

(** What is read about one element, SE/ScenarioReader.cpp:3698-3956: the texts as far as they are compared, the numbers as read. Optional attributes are
    options; [GNone] is a gear without number, value and child; the last constructors are unexpected children and elements. *)
Inductive brake_in := BValue (v : R) | BForce (v : R) (rate : option R) | BPercent (v : R) (rate : option R) | BOther.
Inductive gear_word := Gr | Gp | Gn | Gd | Gword.
Inductive gear_in := GNumber (z : Z) | GValue (z : Z) | GNone | GAuto (w : gear_word) | GManual (z : Z) | GOther.
Inductive elem :=
  | EThrottle (v : R) (rate : option R) | EBrake (b : brake_in) | EClutch (v : R) (rate : option R) | EParking (b : brake_in)
  | ESteer (v : R) (rate torque : option R) | EGear (g : gear_in) | EOther.

(** maxRate and maxTorque where the attribute is used: the default of SE/Entities.hpp:206-207 otherwise. *)
Definition given (use : bool) (o : option R) : R := if use then match o with Some r => r | None => -1 end else -1.

(** The brakes, SE/ScenarioReader.cpp:3719-3777 and 3791-3849. *)
Definition read_brake (t : Z) (active : bool) (b : brake_in) : option status :=
  match b with
  | BValue v => Some (Status t active (RangeCheck v 0 1 false) (-1) (-1) 0 0)
  | BForce v r => Some (Status t active (brake_force v) (given true r) (-1) 0 Force)
  | BPercent v r => Some (Status t active (RangeCheck v 0 1 false) (given true r) (-1) 0 Percent)
  | BOther => None
  end.
(** The gears, SE/ScenarioReader.cpp:3870-3947. *)
Definition read_gear (active : bool) (g : gear_in) : option status :=
  let st z k := Some (Status GEAR active 0 (-1) (-1) z k) in
  match g with
  | GNumber z | GValue z => st z Manual
  | GNone => None
  | GAuto Gr => st (-1)%Z Automatic
  | GAuto Gp => st 1%Z Automatic
  | GAuto Gn => st 0%Z Automatic
  | GAuto Gd => st 2%Z Automatic
  | GAuto Gword => None
  | GManual z => st z Manual
  | GOther => None
  end.
(** One element, SE/ScenarioReader.cpp:3701-3953; [minor2] is verFromMinor2, [active] that the attribute reads "true"; [None]: reading is given up and the
    action is null. *)
Definition read_elem (minor2 : bool) (active : bool) (e : elem) : option status :=
  match e with
  | EThrottle v r => Some (Status THROTTLE active (RangeCheck v 0 1 false) (given minor2 r) (-1) 0 0)
  | EBrake b => read_brake BRAKE active b
  | EClutch v r => Some (Status CLUTCH active (RangeCheck v 0 1 false) (given minor2 r) (-1) 0 0)
  | EParking b => read_brake PARKING_BRAKE active b
  | ESteer v r q => Some (Status STEERING_WHEEL active (RangeCheck v (-2 * PI) (2 * PI) false) (given minor2 r) (given minor2 q) 0 0)
  | EGear g => read_gear active g
  | EOther => None
  end.
(** The loop over the elements, SE/ScenarioReader.cpp:3698-3956. *)
Fixpoint read_all (minor2 : bool) (l : list (bool * elem)) (w : ovr) : option ovr :=
  match l with
  | [] => Some w
  | (a, e) :: l =>
      match read_elem minor2 a e with
      | Some s => match AddOverrideStatus s w with Some w => read_all minor2 l w | None => None end
      | None => None
      end
  end.

(** The conflict of a new action with a running one, SE/Storyboard.cpp:222, 269: they have a domain in common. *)
Definition conflict (d1 d2 : N) : bool := negb (N.land d1 d2 =? 0)%N.

(** SE_OverrideActionList as filled by copyOverrideActionListfromScenarioEngine, LI/esminiLib.cpp:188-226. *)
Record out_pedal := OutPedal { p_active : bool; p_value : R; p_rate : R }.
Record out_brake := OutBrake { b_active : bool; b_value : R; b_rate : R; b_type : Z; b_kind : Z }.
Record out_wheel := OutWheel { s_active : bool; s_value : R; s_rate : R; s_torque : R }.
Record out_gear := OutGear { g_active : bool; g_number : Z; g_type : Z; g_kind : Z }.
Record out_list := OutList { o_throttle : out_pedal; o_brake : out_brake; o_clutch : out_pedal; o_parking : out_brake; o_wheel : out_wheel; o_gear : out_gear }.
Definition SE_GetOverrideActionStatus (ov : overrides) : out_list :=
  let pedal s := OutPedal (v_active s) (v_value s) (v_rate s) in
  let brake s := OutBrake (v_active s) (v_value s) (v_rate s) (v_type s) (v_kind s) in
  OutList (pedal (ov THROTTLE)) (brake (ov BRAKE)) (pedal (ov CLUTCH)) (brake (ov PARKING_BRAKE))
    (let s := ov STEERING_WHEEL in OutWheel (v_active s) (v_value s) (v_rate s) (v_torque s))
    (let s := ov GEAR in OutGear (v_active s) (v_number s) (v_type s) (v_kind s)).
