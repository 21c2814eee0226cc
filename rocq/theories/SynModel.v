(** * Arriving at the same time as another object (SynchronizeAction, OSCPrivateAction.cpp)

    [double] is idealised as [R].  The object is described by its speed; distances, directions and projections of speeds on the road are what positions give at each
    step.  SetSpeed sets the speed and nothing else; logging is left out.
    OT = EnvironmentSimulator/Modules/ScenarioEngine/OSCTypeDefs, CM = EnvironmentSimulator/Modules/CommonMini. *)
From Coq Require Import Reals Bool List.
From Verif Require Import AngModel BoxModel.
Open Scope R_scope.

(** enum SynchMode, SynchSubmode, SteadyStateType: OT/OSCPrivateAction.hpp:826-850. *)
Inductive smode := MODE_NONE | MODE_LINEAR | MODE_NON_LINEAR | MODE_STOPPED | MODE_STOP_IMMEDIATELY | MODE_WAITING | MODE_STEADY_STATE.
Inductive ssub := SUBMODE_NONE | SUBMODE_CONVEX | SUBMODE_CONCAVE.
Inductive stype := STEADY_STATE_NONE | STEADY_STATE_POS | STEADY_STATE_DIST | STEADY_STATE_TIME.

(** Equality of modes. *)
Definition is (a b : smode) : bool :=
  match a, b with
  | MODE_NONE, MODE_NONE | MODE_LINEAR, MODE_LINEAR | MODE_NON_LINEAR, MODE_NON_LINEAR | MODE_STOPPED, MODE_STOPPED
  | MODE_STOP_IMMEDIATELY, MODE_STOP_IMMEDIATELY | MODE_WAITING, MODE_WAITING | MODE_STEADY_STATE, MODE_STEADY_STATE => true
  | _, _ => false
  end.

(** struct steadyState_, OT/OSCPrivateAction.hpp:852-858; [pos]: the position. *)
Record steady (pos : Type) := Steady { t_type : stype; t_pos : pos; t_time : R; t_dist : R }.
Arguments Steady {pos}. Arguments t_type {pos}. Arguments t_pos {pos}. Arguments t_time {pos}. Arguments t_dist {pos}.

(** MAX_DECELERATION, OT/OSCPrivateAction.cpp:19; SYNCH_DISTANCE_TOLERANCE, OT/OSCPrivateAction.hpp:31; SIGN, CM/CommonMini.hpp:55. *)
Definition MAX_DECELERATION : R := -8.
Definition SYNCH_DISTANCE_TOLERANCE : R := 0.
Definition SIGN (x : R) : R := if Rltb x 0 then -1 else 1.

(** The members of the action that Step uses, OT/OSCPrivateAction.hpp:860-872; [y_steady]: steadyState_.dist_, [None] for STEADY_STATE_NONE (Start leaves no
    other types). *)
Record sync := Sync { y_mode : smode; y_sub : ssub; y_tol : R; y_tolM : R; y_last : R; y_lastM : R; y_steady : option R }.

(** SynchronizeAction::Start, OT/OSCPrivateAction.cpp:2638-2653: the steady state as a distance; [final]: GetValue of final_speed_, [ds]: what Delta from the
    target to the position gives. *)
Definition Start {pos} (st : steady pos) (final : R) (ds : pos -> R) : steady pos :=
  match t_type st with
  | STEADY_STATE_TIME => Steady STEADY_STATE_DIST (t_pos st) (t_time st) (t_time st * final)
  | STEADY_STATE_POS => Steady STEADY_STATE_DIST (t_pos st) (t_time st) (ds (t_pos st))
  | _ => st
  end.

(** The copy constructor, OT/OSCPrivateAction.hpp:890-919: steady state and tolerances; [was]: what the memory of the new object held before. *)
Definition copy_steady {pos} (was orig : steady pos) : steady pos :=
  let s :=
    match t_type was with
    | STEADY_STATE_DIST => Steady (t_type was) (t_pos was) (t_time was) (t_dist orig)
    | STEADY_STATE_TIME => Steady (t_type was) (t_pos was) (t_time was) (t_time orig)
    | STEADY_STATE_POS => Steady (t_type was) (t_pos orig) (t_time was) (t_dist was)
    | STEADY_STATE_NONE => was
    end in
  Steady (t_type orig) (t_pos s) (t_time s) (t_dist s).
Definition copy (y : sync) (steady : option R) : sync :=
  Sync (y_mode y) (y_sub y) SYNCH_DISTANCE_TOLERANCE SYNCH_DISTANCE_TOLERANCE LARGE_NUMBER LARGE_NUMBER steady.

(** How far a target is, OT/OSCPrivateAction.cpp:2699-2727 and 2729-2754 (without the direction): [traj]: return value and distance of Position::Distance along a
    trajectory, if there is one; [delta]: ds of Position::Delta, if found; [world]: the length of the vector between the positions. *)
Definition far_off (traj : option (bool * R)) (delta : option R) (world : R) : R :=
  let road := match delta with Some ds => Rabs ds | None => Rabs world end in
  match traj with
  | Some (ok, d) => if negb ok || Rltb (LARGE_NUMBER - SMALL_NUMBER) (Rabs d) then road else Rabs d
  | None => road
  end.

(** SynchronizeAction::CalcSpeedForLinearProfile, OT/OSCPrivateAction.cpp:2541-2553. *)
Definition CalcSpeedForLinearProfile (v_final time dist : R) : R :=
  if Rltb time (1 / 1000) || Rltb dist (1 / 1000) then 0 else 2 * dist / time - v_final.

(** The speed at the apex and the acceleration, OT/OSCPrivateAction.cpp:2993-3036. *)
Definition plan (s t v0 v1 : R) : R * R :=
  if Rltb (Rabs (v1 - v0)) SMALL_NUMBER then
    let vx := (s - (t / 2) * v0) / (t / 2) in (vx, (vx - v0) / (t / 2))
  else
    let signed_term := sqrt 2 * sqrt (2 * s * s - 2 * (v1 + v0) * t * s + (v1 * v1 + v0 * v0) * t * t) in
    let x1 := - (signed_term + 2 * s - 2 * v1 * t) / (2 * (v1 - v0)) in
    let x2 := - (- signed_term + 2 * s - 2 * v1 * t) / (2 * (v1 - v0)) in
    if Rltb 0 x1 && Rltb x1 t then
      let vx1 := (2 * s - signed_term) / (2 * t) in (vx1, (vx1 - v0) / x1)
    else if Rltb 0 x2 && Rltb x2 t then
      let vx2 := (2 * s + signed_term) / (2 * t) in (vx2, (vx2 - v0) / x2)
    else (0, 0).

(** The part with a stop, OT/OSCPrivateAction.cpp:3049-3078: acceleration and mode, or the stop reached ([None]). *)
Definition to_stop (s v0 v1 dt : R) : option (R * smode) :=
  let t1 := 2 * v0 * s / (v0 * v0 + v1 * v1) in
  let acc := if Rltb SMALL_NUMBER (Rabs t1) then - v0 / t1 else 0 in
  let '(acc, mode) := if Rltb (s / 2) (t1 * v0 / 2) then (MAX_DECELERATION, MODE_STOP_IMMEDIATELY) else (acc, MODE_NON_LINEAR) in
  if Rltb (v0 + acc * dt) 0 then None else Some (acc, mode).

(** Non-linear mode, OT/OSCPrivateAction.cpp:2962-2975, 2977-3078, 3095 ([mode]: MODE_NONE or MODE_NON_LINEAR); [v]: speed_, [v0]: projected on the road
    (abs in line 2998 is read as the one of floating-point numbers). *)
Definition non_linear (mode : smode) (sub : ssub) (s t v v0 v1 dt : R) : smode * ssub * R :=
  if is mode MODE_NON_LINEAR && Rltb t LARGE_NUMBER && Rltb (Rabs (v - (2 * s / t - v1))) (1 / 10) then (MODE_LINEAR, sub, v)
  else
    let sub := if is mode MODE_NONE then (if Rltb ((v1 + v) / 2) (s / t) then SUBMODE_CONVEX else SUBMODE_CONCAVE) else sub in
    let '(vx, acc) := plan s t v0 v1 in
    let apex := match sub with SUBMODE_CONCAVE => Rltb 0 acc | SUBMODE_CONVEX => Rltb acc 0 | SUBMODE_NONE => false end in
    if apex then (MODE_LINEAR, sub, v + 0 * dt)
    else if Rltb vx 0 then
      match to_stop s v0 v1 dt with
      | None => (MODE_STOPPED, sub, 0)
      | Some (acc, mode) => (mode, sub, v + acc * dt)
      end
    else (MODE_NON_LINEAR, sub, v + acc * dt).

(** Linear mode, OT/OSCPrivateAction.cpp:2949-2961: the speed. *)
Definition linear (s t v1 : R) : R :=
  if Rltb (LARGE_NUMBER - 1) t then 0 else MAX 0 (CalcSpeedForLinearProfile (MAX 0 v1) t s).

(** With a final speed, after the steady state: OT/OSCPrivateAction.cpp:2904-3095; mode, submode and speed.  2 * dist / 0 is more than any time. *)
Definition towards (mode : smode) (sub : ssub) (s t v v0 v1 dt : R) : smode * ssub * R :=
  match mode with
  | MODE_STEADY_STATE => (mode, sub, v1)
  | MODE_WAITING => if Rltb t LARGE_NUMBER then non_linear MODE_NONE sub s t v v0 v1 dt else (mode, sub, v)
  | MODE_STOP_IMMEDIATELY => let v' := v + MAX_DECELERATION * dt in if Rltb v' 0 then (MODE_WAITING, sub, 0) else (mode, sub, v')
  | MODE_STOPPED => if Req_EM_T v1 0 then (MODE_LINEAR, sub, linear s t v1)
                    else if Rltb t (2 * s / v1) then (MODE_LINEAR, sub, linear s t v1) else (mode, sub, 0)
  | MODE_LINEAR => (mode, sub, linear s t v1)
  | MODE_NONE | MODE_NON_LINEAR => non_linear mode sub s t v v0 v1 dt
  end.

(** The steady state, OT/OSCPrivateAction.cpp:2822-2844: mode, submode, distance and time left before it. *)
Definition before_steady (mode : smode) (sub : ssub) (steady : option R) (s t v1 : R) : smode * ssub * R * R :=
  match steady with
  | Some d =>
      if is mode MODE_STEADY_STATE then (mode, sub, s, t)
      else
        let time_to_ss := d / v1 in
        if Rltb (s - d) SMALL_NUMBER || Rltb (t - time_to_ss) SMALL_NUMBER then (MODE_STEADY_STATE, SUBMODE_NONE, s, t) else (mode, sub, s - d, t - time_to_ss)
  | None => (mode, sub, s, t)
  end.

(** What a step is given: is the longitudinal motion controlled elsewhere, distances of the object and of the master to their targets (as [far_off]), direction to
    the target of the master (1 or -1), speed of the master and its projection on the road, projection of the own speed, final_speed_ (value), dt. *)
Record input := Input { i_over : bool; i_dist : R; i_mdist : R; i_dir : R; i_mspeed : R; i_mvel : R; i_vel : R; i_final : option R; i_dt : R }.

(** The speed of the master towards its target, OT/OSCPrivateAction.cpp:2788. *)
Definition master_speed (i : input) : R := SIGN (i_mspeed i) * i_dir i * Rabs (i_mvel i).

(** Done, by distance: OT/OSCPrivateAction.cpp:2756-2776. *)
Definition arrived (y : sync) (i : input) : bool :=
  Rltb (i_dist i) (y_tol y + SMALL_NUMBER) || Rltb (i_mdist i) (y_tolM y + SMALL_NUMBER) || Rltb (y_last y) (i_dist i) || Rltb (y_lastM y) (i_mdist i).

(** SynchronizeAction::Step, OT/OSCPrivateAction.cpp:2681-3097: the action, the speed of the object, and whether End is called. *)
Definition Step (y : sync) (v : R) (i : input) : sync * R * bool :=
  if i_over i then (y, v, false)
  else
    let dist := MAX (i_dist i - y_tol y) SMALL_NUMBER in
    let masterDist := MAX (i_mdist i - y_tolM y) SMALL_NUMBER in
    let ms := master_speed i in
    let '(t, done, mode, v) :=
      if Rltb SMALL_NUMBER ms then (masterDist / ms, arrived y i || Rltb (masterDist / ms) (i_dt i), y_mode y, v)
      else if is (y_mode y) MODE_WAITING then (LARGE_NUMBER, arrived y i, y_mode y, v)
      else (LARGE_NUMBER, arrived y i, MODE_WAITING, 0) in
    let left (mode : smode) (sub : ssub) := Sync mode sub (y_tol y) (y_tolM y) (i_dist i) (i_mdist i) (y_steady y) in
    if done then (left mode (y_sub y), match i_final i with Some f => f | None => v end, true)
    else
      match i_final i with
      | Some f =>
          let '(mode, sub, s, t) := before_steady mode (y_sub y) (y_steady y) dist t f in
          let '(mode, sub, v) := towards mode sub s t v (SIGN v * Rabs (i_vel i)) f (i_dt i) in
          (left mode sub, v, false)
      | None =>
          if Rltb SMALL_NUMBER ms then
            let final_speed := 2 * (dist / t) - v in
            (left MODE_LINEAR (y_sub y), v + (final_speed - v) / t * i_dt i, false)
          else (left mode (y_sub y), v + 0 * i_dt i, false)
      end.
