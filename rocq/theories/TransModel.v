(** * Transition dynamics and the actions that use them: OSCPrivateAction.cpp over the real numbers

    [double] is idealised as [R]; [abs] is the overload for double.  A result [None] is a division by zero.
    OT = EnvironmentSimulator/Modules/ScenarioEngine/OSCTypeDefs, CM = EnvironmentSimulator/Modules/CommonMini. *)
From Coq Require Import Reals Bool ZArith.
From Verif Require Import AngModel GeoModel.
Open Scope R_scope.

(** LARGE_NUMBER, MAX, MIN, CLAMP, AVOID_ZERO, NEAR_ZERO, NEAR_NUMBERS: CM/CommonMini.hpp:53, 56, 57, 62-65. *)
Definition LARGE_NUMBER : R := 10000000000.
Definition RMAX (x y : R) : R := if Rltb x y then y else x.
Definition RMIN (x y : R) : R := if Rltb y x then y else x.
Definition CLAMP (x lo hi : R) : R := RMIN hi (RMAX lo x).
Definition AVOID_ZERO (x : R) : R := SIGN x * RMAX SMALL_NUMBER (Rabs x).
Definition NEAR_ZERO (x : R) : bool := Rltb (Rabs x) SMALL_NUMBER.

(** DynamicsDimension, DynamicsShape: OT/OSCPrivateAction.hpp:58-73. *)
Inductive dimension := RATE | TIME | DISTANCE | DIMENSION_UNDEFINED.
Inductive shape := LINEAR | CUBIC | SINUSOIDAL | STEP | SHAPE_UNDEFINED.
Definition is_rate (d : dimension) : bool := match d with RATE => true | _ => false end.
Definition is_step (s : shape) : bool := match s with STEP => true | _ => false end.

(** class TransitionDynamics, OT/OSCPrivateAction.hpp:75-141. *)
Record td := TD { t_shape : shape; t_dim : dimension; t_start : R; t_target : R; t_ptarget : R; t_scale : R; t_pval : R; t_rate : R }.

(** The constructor, OT/OSCPrivateAction.hpp:81-91. *)
Definition td0 : td := TD STEP TIME 0 0 0 1 0 0.

(** The condition for a step function at OT/OSCPrivateAction.cpp:67, 150, 186. *)
Definition stepping (t : td) : bool := is_step (t_shape t) || (negb (is_rate (t_dim t)) && Rltb (t_ptarget t) SMALL_NUMBER).

(** GetTargetVal() - GetStartVal(), e.g. OT/OSCPrivateAction.cpp:73. *)
Definition delta (t : td) : R := t_target t - t_start t.

(** TransitionDynamics::EvaluatePrimPeak, OT/OSCPrivateAction.cpp:59-90. *)
Definition EvaluatePrimPeak (t : td) : R :=
  if is_rate (t_dim t) then t_rate t
  else if stepping t then LARGE_NUMBER * SIGN (delta t)
  else
    match t_shape t with
    | LINEAR => delta t / AVOID_ZERO (t_ptarget t)
    | SINUSOIDAL => PI * delta t / (2 * AVOID_ZERO (t_ptarget t))
    | CUBIC => 1.5 * delta t / AVOID_ZERO (t_ptarget t)
    | _ => 0
    end.

(** TransitionDynamics::GetTargetParamValByPrimPeak, OT/OSCPrivateAction.cpp:92-116, for a value other than 0. *)
Definition GetTargetParamValByPrimPeak (t : td) (prim_peak : R) : R :=
  match t_shape t with
  | LINEAR => delta t / prim_peak
  | SINUSOIDAL => PI * delta t / (2 * prim_peak)
  | CUBIC => 1.5 * delta t / prim_peak
  | _ => 0
  end.

(** TransitionDynamics::GetTargetParamValByPrimPrimPeak, OT/OSCPrivateAction.cpp:118-146, for a positive value. *)
Definition GetTargetParamValByPrimPrimPeak (t : td) (prim_prim_peak : R) : R :=
  match t_shape t with
  | LINEAR => sqrt (6 * Rabs (delta t) / prim_prim_peak)
  | SINUSOIDAL => PI * sqrt (Rabs (delta t) / (2 * prim_prim_peak))
  | CUBIC => sqrt (6 * Rabs (delta t) / prim_prim_peak)
  | _ => 0
  end.

(** TransitionDynamics::EvaluatePrim, OT/OSCPrivateAction.cpp:148-172. *)
Definition EvaluatePrim (t : td) : R :=
  if stepping t then LARGE_NUMBER * SIGN (delta t)
  else
    match t_shape t with
    | LINEAR => delta t / AVOID_ZERO (t_ptarget t)
    | SINUSOIDAL => PI * delta t * sin (PI * t_pval t / t_ptarget t) / (2 * AVOID_ZERO (t_ptarget t))
    | CUBIC => 6 * delta t * (t_ptarget t - t_pval t) * t_pval t / AVOID_ZERO (t_ptarget t) ^ 3
    | _ => 0
    end.

(** TransitionDynamics::EvaluateScaledPrim, OT/OSCPrivateAction.cpp:174-177. *)
Definition EvaluateScaledPrim (t : td) : R := EvaluatePrim t / AVOID_ZERO (t_scale t).

(** TransitionDynamics::Evaluate, OT/OSCPrivateAction.cpp:179-210. *)
Definition Evaluate (t : td) (sh : shape) : R :=
  let sh := match sh with SHAPE_UNDEFINED => t_shape t | _ => sh end in
  if stepping t then t_target t
  else
    match sh with
    | LINEAR => t_start t + t_pval t * delta t / AVOID_ZERO (t_ptarget t)
    | SINUSOIDAL => t_start t - delta t * (cos (PI * t_pval t / AVOID_ZERO (t_ptarget t)) - 1) / 2
    | CUBIC => t_start t + delta t * (t_pval t / AVOID_ZERO (t_ptarget t)) ^ 2 * (3 - 2 * t_pval t / AVOID_ZERO (t_ptarget t))
    | _ => t_target t
    end.

(** TransitionDynamics::Reset, OT/OSCPrivateAction.cpp:212-218. *)
Definition Reset (t : td) : td := TD (t_shape t) (t_dim t) 0 0 (t_ptarget t) 1 0 (t_rate t).

(** TransitionDynamics::Step, OT/OSCPrivateAction.cpp:220-234. *)
Definition Step (t : td) (delta_param_val : R) : td :=
  let p := t_pval t + delta_param_val / t_scale t in
  let p := if Rltb (t_ptarget t) p then t_ptarget t else if Rltb p 0 then 0 else p in
  TD (t_shape t) (t_dim t) (t_start t) (t_target t) (t_ptarget t) (t_scale t) p (t_rate t).

(** TransitionDynamics::UpdateRate, OT/OSCPrivateAction.cpp:284-294. *)
Definition UpdateRate (t : td) : td :=
  let rate := SIGN (delta t) * Rabs (t_rate t) in
  let t := TD (t_shape t) (t_dim t) (t_start t) (t_target t) (t_ptarget t) (t_scale t) (t_pval t) rate in
  if is_rate (t_dim t) && negb (NEAR_ZERO rate)
  then TD (t_shape t) (t_dim t) (t_start t) (t_target t) (AVOID_ZERO (GetTargetParamValByPrimPeak t rate)) (t_scale t) (t_pval t) rate
  else t.

(** TransitionDynamics::SetStartVal, OT/OSCPrivateAction.cpp:236-240. *)
Definition SetStartVal (t : td) (v : R) : td := UpdateRate (TD (t_shape t) (t_dim t) v (t_target t) (t_ptarget t) (t_scale t) (t_pval t) (t_rate t)).

(** TransitionDynamics::SetTargetVal, OT/OSCPrivateAction.cpp:242-246. *)
Definition SetTargetVal (t : td) (v : R) : td := UpdateRate (TD (t_shape t) (t_dim t) (t_start t) v (t_ptarget t) (t_scale t) (t_pval t) (t_rate t)).

(** TransitionDynamics::SetRate, OT/OSCPrivateAction.cpp:276-282. *)
Definition SetRate (t : td) (v : R) : td := UpdateRate (TD (t_shape t) (t_dim t) (t_start t) (t_target t) (t_ptarget t) (t_scale t) (t_pval t) v).

(** TransitionDynamics::SetParamTargetVal, OT/OSCPrivateAction.cpp:248-259. *)
Definition SetParamTargetVal (t : td) (v : R) : td :=
  if is_rate (t_dim t) then SetRate t v else TD (t_shape t) (t_dim t) (t_start t) (t_target t) v (t_scale t) (t_pval t) (t_rate t).

(** TransitionDynamics::SetMaxRate, OT/OSCPrivateAction.cpp:261-274. *)
Definition SetMaxRate (t : td) (max_rate : R) : td :=
  let peak := EvaluatePrimPeak t in
  let scale := if Rltb (Rabs max_rate) (Rabs peak) then Rabs peak / Rabs (AVOID_ZERO max_rate) else 1 in
  TD (t_shape t) (t_dim t) (t_start t) (t_target t) (t_ptarget t) scale (t_pval t) (t_rate t).

(** ** Speed action *)

(** performance_ of an object, EnvironmentSimulator/Modules/ScenarioEngine/SourceFiles/Entities.hpp:212-217. *)
Record perf := Perf { p_acc : R; p_dec : R; p_speed : R }.

(** What a running LongSpeedAction changes: transition_, object_->speed_, target_speed_reached_ and whether OSCAction::End was called. *)
Record speed_state := SS { s_td : td; s_speed : R; s_reached : bool; s_ended : bool }.

(** The conversion of a distance into a duration, OT/OSCPrivateAction.cpp:1196-1234; [v1] is target_->GetValue(). *)
Definition distance_to_time (t : td) (v1 : R) : option td :=
  match t_dim t with
  | DISTANCE =>
      let v0 := t_start t in
      let dist := t_ptarget t in
      if Rltb (Rabs (v1 - v0)) SMALL_NUMBER then Some (SetParamTargetVal t 0)
      else if Rltb SMALL_NUMBER (Rabs v0) && Rltb SMALL_NUMBER (Rabs v1) && negb (Reqb (SIGN v0) (SIGN v1)) then
        let dist_factor := Rabs (v0 ^ 2 / (v0 ^ 2 + v1 ^ 2)) in
        let d0 := dist_factor * dist in
        let t0 := 2 * d0 / Rabs v0 in
        let t1 := 2 * (dist - d0) / Rabs v1 in
        Some (SetParamTargetVal t (t0 + t1))
      else if Reqb (Rabs (v0 + v1)) 0 then None
      else Some (SetParamTargetVal t (2 * dist / Rabs (v0 + v1)))
  | _ => Some t
  end.

(** LongSpeedAction::Start, OT/OSCPrivateAction.cpp:1181-1257; [overridden] is IsControllerModeOnDomains at 1187, [v] is target_->GetValue()
    (the speed of the referred object does not change during the call). *)
Definition speed_start (p : perf) (overridden : bool) (v : R) (st : speed_state) : option speed_state :=
  let t := Reset (s_td st) in
  if overridden then Some (SS t (s_speed st) false true)
  else
    match distance_to_time (SetStartVal t (s_speed st)) v with
    | None => None
    | Some t =>
        let t := SetTargetVal t (ABS_LIMIT v (p_speed p)) in
        let t := SetMaxRate t (if Rltb (t_start t) (t_target t) then p_acc p else p_dec p) in
        let t := if is_rate (t_dim t) then SetRate t (SIGN (delta t) * Rabs (t_rate t)) else t in
        Some (SS t (Evaluate t SHAPE_UNDEFINED) false false)
    end.

(** The new speed before the check at the end, with the transition after it: LongSpeedAction::Step, OT/OSCPrivateAction.cpp:1277-1307. *)
Definition speed_move (p : perf) (v dt : R) (t : td) (speed : R) : td * R :=
  if Rltb 0 (t_ptarget t) && Rltb (t_ptarget t - SMALL_NUMBER) (t_pval t) then
    let acc := if Rltb SMALL_NUMBER dt then (v - speed) / dt else 0 in
    let acc := CLAMP acc (- p_dec p) (p_acc p) in
    (t, ABS_LIMIT (speed + acc * dt) (p_speed p))
  else
    let t := Step t dt in
    let new_speed := Evaluate t SHAPE_UNDEFINED in
    let acc_required := if Rltb SMALL_NUMBER dt then (new_speed - speed) / dt else 0 in
    if Rltb (p_acc p + SMALL_NUMBER) acc_required || Rltb acc_required (- (p_dec p + SMALL_NUMBER)) then
      let acc := CLAMP acc_required (- p_dec p) (p_acc p) in
      let new_speed := ABS_LIMIT (speed + acc * dt) (p_speed p) in
      let step_approx := (new_speed - speed) / acc_required in
      (Step t (- (dt - step_approx)), new_speed)
    else (t, new_speed).

(** Target types of a speed action, OT/OSCPrivateAction.hpp:206-259: absolute, or relative with continuous_. *)
Inductive target_type := ABSOLUTE_SPEED | RELATIVE_SPEED (continuous : bool).

(** LongSpeedAction::Step, OT/OSCPrivateAction.cpp:1259-1326; [v] as above. *)
Definition speed_step (p : perf) (tt : target_type) (overridden : bool) (v dt : R) (st : speed_state) : speed_state :=
  if overridden then SS (s_td st) (s_speed st) (s_reached st) true
  else
    let t := match tt with RELATIVE_SPEED _ => SetTargetVal (s_td st) (ABS_LIMIT v (p_speed p)) | ABSOLUTE_SPEED => s_td st end in
    let '(t, new_speed) := speed_move p v dt t (s_speed st) in
    let close := Rltb (t_ptarget t - SMALL_NUMBER) (t_pval t) && Rltb (Rabs (new_speed - t_target t)) SMALL_NUMBER in
    let reached := s_reached st || close in
    let new_speed := if close then ABS_LIMIT v (p_speed p) else new_speed in
    SS t new_speed reached (s_ended st || (reached && negb (match tt with RELATIVE_SPEED c => c | ABSOLUTE_SPEED => false end))).

(** LongSpeedAction::TargetRelative::GetValue, OT/OSCPrivateAction.cpp:1161-1179; [speed] is that of the referred object if any. *)
Inductive value_type := DELTA | FACTOR.
Definition relative_value (vt : value_type) (speed : option R) (value : R) : R :=
  let object_speed := match speed with Some s => s | None => 0 end in
  match vt with DELTA => object_speed + value | FACTOR => object_speed * value end.

(** ** Lane offset action *)

(** The sign of a lane id, SIGN at OT/OSCPrivateAction.cpp:1078 (CM/CommonMini.hpp:55 for int). *)
Definition lane_sign (lane : Z) : R := if (lane <? 0)%Z then -1 else 1.

(** The condition that a transition of the offset is finished, OT/OSCPrivateAction.cpp:1114-1119 and 1019-1024. *)
Definition finished (t : td) (offset : R) : bool :=
  Rltb (t_ptarget t - SMALL_NUMBER) (t_pval t) || Rltb (Rabs (offset - t_target t)) SMALL_NUMBER ||
  (Rltb 0 (t_pval t) && negb (Reqb (SIGN (offset - t_target t)) (SIGN (t_start t - t_target t)))).

(** LatLaneOffsetAction::Start, OT/OSCPrivateAction.cpp:1065-1098, without override; [lane] and [offset] are those of the object, [value]
    is target_->value_ or, for a relative target, refpos.GetT() - (GetT() - GetOffset()) of 1093. *)
Definition offset_start (t : td) (lane : Z) (offset value max_lateral_acc : R) : td :=
  let t := Reset t in
  let t := SetTargetVal t (lane_sign lane * value) in
  let t := SetStartVal t (lane_sign lane * offset) in
  SetParamTargetVal t (GetTargetParamValByPrimPrimPeak t max_lateral_acc).

(** LatLaneOffsetAction::Step, OT/OSCPrivateAction.cpp:1100-1144, without override: the transition after, the offset and the heading relative
    to the road set, whether the action ended.  [forward] is IsAngleForward at 1137. *)
Definition offset_step (t : td) (lane : Z) (forward : bool) (speed dt : R) : td * R * R * bool :=
  let offset_agnostic := Evaluate t SHAPE_UNDEFINED in
  if finished t offset_agnostic then (Step t dt, lane_sign lane * t_target t, 0, true)
  else
    let angle := atan (EvaluatePrim t / AVOID_ZERO speed) in
    (Step t dt, lane_sign lane * offset_agnostic, (if forward then 1 else -1) * lane_sign lane * angle, false).

(** ** Lane change action *)

(** The lateral step of LatLaneChangeAction::Step, OT/OSCPrivateAction.cpp:947-986, for a moving object (942) that is not overridden: the
    transition after, offset_agnostic, heading_agnostic_ (as computed in this step, before GetAngleInInterval2PI) and delta_long.  A division
    by zero at 967 is [None], as is the undefined dimension (985), which is not modelled. *)
Definition lanechange_lateral (t : td) (speed dt : R) : option (td * R * R * R) :=
  let rate := EvaluateScaledPrim t in
  let step_len := Rabs speed * dt in
  match t_dim t with
  | TIME | RATE =>
      let delta_lat := dt * Rabs rate in
      let delta_long := sqrt (step_len ^ 2 - RMIN delta_lat step_len ^ 2) in
      if Rltb delta_lat (step_len + SMALL_NUMBER) then
        let t := Step t dt in
        Some (t, Evaluate t SHAPE_UNDEFINED, atan2 (SIGN speed * SIGN rate * delta_lat) delta_long, delta_long)
      else if Reqb (Rabs (delta t)) 0 then None
      else
        let t := Step t (step_len * t_ptarget t / Rabs (delta t)) in
        Some (t, Evaluate t LINEAR, SIGN speed * SIGN rate * (PI / 2 - SMALL_NUMBER), delta_long)
  | DISTANCE =>
      let delta_long := sqrt (step_len ^ 2 / (1 + rate ^ 2)) in
      let t := Step t delta_long in
      Some (t, Evaluate t SHAPE_UNDEFINED, atan rate, delta_long)
  | DIMENSION_UNDEFINED => None
  end.
