(** Storyboard element state machine: start, stop, end, propagation, triggers, events.
    Sources: EnvironmentSimulator/Modules/ScenarioEngine/SourceFiles/{StoryboardElement,Storyboard}.{hpp,cpp} (SE/).

    Elements are natural numbers; the static structure is a record [tree]; the dynamic part is a [world]
    (state, transition and execution counter of every element, and the log of notifications).
    Everything outside the state machine (trigger outcomes, what an action does when started or stepped)
    is an arbitrary function [env] of the current world, so that the theorems hold for any behaviour.
    Recursion through parent and child pointers is bounded by fuel; [None] = fuel exhausted (or an event
    without parent maneuver, where the C++ dereferences a null pointer). *)
From Coq Require Import List ZArith Lia Bool Arith NArith.
Import ListNotations.
Local Open Scope nat_scope.

(** SE/StoryboardElement.hpp:38-48 ElementType. *)
Inductive etype := STORY_BOARD | STORY | ACT | MANEUVER_GROUP | MANEUVER | EVENT | ACTION.
(** SE/StoryboardElement.hpp:53-60 State. *)
Inductive state := INIT | STANDBY | RUNNING | COMPLETE.
(** SE/StoryboardElement.hpp:62-70 Transition. *)
Inductive transition := START_TRANSITION | END_TRANSITION | STOP_TRANSITION | SKIP_TRANSITION
                      | INIT_TO_STBY_TRANSITION | UNDEFINED_ELEMENT_TRANSITION.
(** SE/Storyboard.hpp:65-71 Event::Priority. *)
Inductive prio := OVERWRITE | SKIP | PARALLEL | UNDEFINED_PRIORITY.

(** decidable equality of enum values (C++ operator== on the enums above) *)
Definition state_eqb (a b : state) : bool :=
  match a, b with
  | INIT, INIT | STANDBY, STANDBY | RUNNING, RUNNING | COMPLETE, COMPLETE => true
  | _, _ => false
  end.
(** SE/StoryboardElement.cpp:94,152,265 comparisons of element_type_. *)
Definition etype_eqb (a b : etype) : bool :=
  match a, b with
  | STORY_BOARD, STORY_BOARD | STORY, STORY | ACT, ACT | MANEUVER_GROUP, MANEUVER_GROUP
  | MANEUVER, MANEUVER | EVENT, EVENT | ACTION, ACTION => true
  | _, _ => false
  end.

(** Static structure.  kids = GetChildren() (SE/Storyboard.hpp, per class), par = parent_,
    maxe = max_num_executions_, has_start/has_stop = trigger pointers not null
    (SE/StoryboardElement.hpp:72-80), prio_of = Event::priority_; for actions: a_private = GetBaseType() ==
    PRIVATE, a_obj = object_ (None = nullptr), a_dom = GetDomains() bit mask,
    a_light = the VehicleLightType of a LightStateAction (None = action of another type);
    init_actions o = Object::initActions_, obj_events o = Object::objectEvents_ (SE/Entities.hpp:299-300);
    sb_init = init_.global_action_ ++ user_defined_action_ ++ private_action_ (SE/Storyboard.hpp:36-60). *)
Record tree := mkTree {
  kids : nat -> list nat;
  par : nat -> option nat;
  ty : nat -> etype;
  maxe : nat -> Z;
  has_start : nat -> bool;
  has_stop : nat -> bool;
  prio_of : nat -> prio;
  a_private : nat -> bool;
  a_obj : nat -> option nat;
  a_dom : nat -> N;
  a_light : nat -> option nat;
  init_actions : nat -> list nat;
  obj_events : nat -> list nat;
  sb_init : list nat
}.

(** One entry of the observable log: a state change notification (SE/StoryboardElement.cpp:333-363:
    callback, recorded change and registered triggers all see the same event), or the silent re-arming
    of an element (SE/StoryboardElement.cpp:374 ResetState). *)
Inductive entry := Note (x : nat) (tr : transition) (s : state) | Rearm (x : nat) (s : state).

(** Dynamic state; log newest entry first. *)
Record world := mkWorld {
  st : nat -> state;
  trn : nat -> transition;
  nexec : nat -> Z;
  log : list entry
}.

(** point update of a per-element field *)
Definition updf {A} (f : nat -> A) (x : nat) (v : A) : nat -> A := fun y => if Nat.eqb y x then v else f y.

(** SE/StoryboardElement.hpp:105-108 SetTransition. *)
Definition set_transition (w : world) (x : nat) (t : transition) : world :=
  mkWorld (st w) (updf (trn w) x t) (nexec w) (log w).
(** SE/StoryboardElement.cpp:331-365 SetState: notify and change, only if the state differs. *)
Definition set_state (w : world) (x : nat) (s : state) : world :=
  if state_eqb (st w x) s then w
  else mkWorld (updf (st w) x s) (trn w) (nexec w) (Note x (trn w x) s :: log w).
(** SE/StoryboardElement.cpp:374-375 ResetState and ResetTransition. *)
Definition reset_state (w : world) (x : nat) (s : state) : world :=
  mkWorld (updf (st w) x s) (updf (trn w) x UNDEFINED_ELEMENT_TRANSITION) (nexec w) (Rearm x s :: log w).
(** SE/StoryboardElement.cpp:139 num_executions_++. *)
Definition inc_exec (w : world) (x : nat) : world :=
  mkWorld (st w) (trn w) (updf (nexec w) x (nexec w x + 1)%Z) (log w).

(** range-based for loops over element pointers *)
Fixpoint iter (f : world -> nat -> option world) (l : list nat) (w : world) : option world :=
  match l with
  | [] => Some w
  | c :: r => match f w c with
              | None => None
              | Some w' => iter f r w'
              end
  end.

(** SE/StoryboardElement.cpp:103-113 AllChildrenComplete. *)
Definition all_children_complete (T : tree) (w : world) (x : nat) : bool :=
  forallb (fun c => state_eqb (st w c) COMPLETE) (kids T x).
(** SE/StoryboardElement.cpp:115-126 AnyChildRunning. *)
Definition any_child_running (T : tree) (w : world) (x : nat) : bool :=
  existsb (fun c => state_eqb (st w c) RUNNING) (kids T x).

(** SE/StoryboardElement.cpp:367-386 Reset(state); the triggers' own Reset is part of the conditions
    model (CondModel.trigger_reset), here triggers are oracles. *)
Fixpoint reset (fuel : nat) (T : tree) (w : world) (x : nat) (s : state) : option world :=
  match fuel with
  | O => None
  | S f => match iter (fun w c => reset f T w c s) (kids T x) w with
           | None => None
           | Some w1 => Some (reset_state w1 x s)
           end
  end.

(** SE/StoryboardElement.cpp:92-101 PropagateStateFromChildren, for the element [p] (called on the parent),
    parameterised by End. *)
Definition propagate (endf : world -> nat -> option world) (T : tree) (w : world) (p : nat) : option world :=
  if negb (etype_eqb (ty T p) STORY_BOARD) && negb (state_eqb (st w p) COMPLETE) then
    if all_children_complete T w p then endf w p else Some w
  else Some w.
(** SE/StoryboardElement.cpp:234-237,312-315: if (parent_) parent_->PropagateStateFromChildren(). *)
Definition propagate_parent (endf : world -> nat -> option world) (T : tree) (w : world) (x : nat) : option world :=
  match par T x with
  | None => Some w
  | Some p => propagate endf T w p
  end.

(** SE/StoryboardElement.cpp:263-310 the state change performed by End; [rst] resets the subtree of a child. *)
Definition end_self (rst : world -> nat -> option world) (T : tree) (w : world) (x : nat) : option world :=
  if state_eqb (st w x) RUNNING || state_eqb (st w x) STANDBY then
    if etype_eqb (ty T x) MANEUVER_GROUP || etype_eqb (ty T x) EVENT then
      if negb (Z.eqb (maxe T x) (-1)) && Z.leb (maxe T x) (nexec w x) then
        Some (set_state (set_transition w x END_TRANSITION) x COMPLETE)
      else
        iter rst (kids T x) (set_state (set_transition w x END_TRANSITION) x STANDBY)
    else Some (set_state (set_transition w x END_TRANSITION) x COMPLETE)
  else Some w.

(** SE/StoryboardElement.cpp:240-316 End. *)
Fixpoint end_ (fuel : nat) (T : tree) (w : world) (x : nat) : option world :=
  match fuel with
  | O => None
  | S f =>
    if state_eqb (st w x) COMPLETE then Some w else
    match iter (fun w c => if state_eqb (st w c) RUNNING then end_ f T w c else Some w) (kids T x) w with
    | None => None
    | Some w1 =>
      if state_eqb (st w1 x) COMPLETE then Some w1 else
      match end_self (fun w c => reset f T w c INIT) T w1 x with
      | None => None
      | Some w2 => propagate_parent (end_ f T) T w2 x
      end
    end
  end.

(** SE/StoryboardElement.cpp:207-238 Stop. *)
Fixpoint stop (fuel : nat) (T : tree) (w : world) (x : nat) : option world :=
  match fuel with
  | O => None
  | S f =>
    match iter (stop f T) (kids T x) w with
    | None => None
    | Some w1 =>
      match st w1 x with
      | INIT => Some w1
      | COMPLETE => Some w1
      | _ => propagate_parent (end_ f T) T (set_state (set_transition w1 x STOP_TRANSITION) x COMPLETE) x
      end
    end
  end.

(** SE/StoryboardElement.cpp:130-148 the own state change of Start (the last case only logs an error). *)
Definition start_self (T : tree) (w : world) (x : nat) : world :=
  if state_eqb (st w x) INIT && has_start T x then
    set_state (set_transition w x INIT_TO_STBY_TRANSITION) x STANDBY
  else if (state_eqb (st w x) INIT && negb (has_start T x)) || state_eqb (st w x) STANDBY || negb (Z.eqb (nexec w x) 0) then
    inc_exec (set_state (set_transition w x START_TRANSITION) x RUNNING) x
  else w.

(** What an action's own Start (SE/../OSCTypeDefs/OSC{Private,Global}Action.cpp, *::Start) does to the state
    machine: nothing (early return), OSCAction::Start, or OSCAction::Start followed by End() / Stop().
    The Start of an action has no children to start (SE/Action.hpp:118-121). *)
Inductive abeh := AB_none | AB_run | AB_end | AB_stop.
(** What an action's Step does: nothing, End() or Stop(). *)
Inductive sbeh := SB_none | SB_end | SB_stop.
(** Environment of one engine step: trigger outcomes and action behaviours, depending on the world in any way;
    skip_action models the ghost restart filters (SE/Storyboard.cpp:103,112,120,337). *)
Record env := mkEnv {
  fire_start : world -> nat -> bool;
  fire_stop : world -> nat -> bool;
  act_start : world -> nat -> abeh;
  act_step : world -> nat -> sbeh;
  skip_action : world -> nat -> bool
}.

(** SE/../OSCTypeDefs/OSC*Action.cpp Start overrides, see [abeh]. *)
Definition start_action (fuel : nat) (T : tree) (E : env) (w : world) (x : nat) : option world :=
  match act_start E w x with
  | AB_none => Some w
  | AB_run => Some (start_self T w x)
  | AB_end => end_ fuel T (start_self T w x) x
  | AB_stop => stop fuel T (start_self T w x) x
  end.

(** CommonMini.hpp:129-138 ControlDomainMasks::DOMAIN_MASK_LIGHT = 1 << 2. *)
Definition DOMAIN_MASK_LIGHT : N := 4.
(** SE/Entities.hpp:140-158 VehicleLightType values used below. *)
Definition FOG_LIGHTS : nat := 3.
Definition FOG_LIGHTS_FRONT : nat := 4.
Definition FOG_LIGHTS_REAR : nat := 5.
Definition WARNING_LIGHTS : nat := 7.
Definition INDICATOR_LEFT : nat := 8.
Definition INDICATOR_RIGHT : nat := 9.
(** SE/../OSCTypeDefs/OSCPrivateAction.cpp:3390-3409 LightStateAction::CheckConflictingLights;
    t1 = actionVehicleLightStatus_.type, t2 = type. *)
Definition check_conflicting_lights (t1 t2 : nat) : bool :=
  let is_flashing t := Nat.eqb t WARNING_LIGHTS || Nat.eqb t INDICATOR_LEFT || Nat.eqb t INDICATOR_RIGHT in
  let is_fog_all t := Nat.eqb t FOG_LIGHTS in
  let is_fog_front_rear t := Nat.eqb t FOG_LIGHTS_FRONT || Nat.eqb t FOG_LIGHTS_REAR in
  Nat.eqb t1 t2 || (is_flashing t1 && is_flashing t2) ||
  ((is_fog_all t1 && is_fog_front_rear t2) || (is_fog_all t2 && is_fog_front_rear t1)).
(** SE/Storyboard.cpp:229,276: same action_type_ and conflicting lights; action [b] is in the light domain, hence a
    LightStateAction, so equal action types mean that [a] is one too. *)
Definition light_conf (T : tree) (a b : nat) : bool :=
  match a_light T a, a_light T b with
  | Some t1, Some t2 => check_conflicting_lights t1 t2
  | _, _ => false
  end.
(** SE/Storyboard.cpp:222-252 and 269-298: whether the running action [b] has to be ended when [a] starts:
    a common domain bit and, for the light domain, conflicting lights. *)
Definition must_end (T : tree) (a b : nat) : bool :=
  negb (N.eqb (N.land (a_dom T b) (a_dom T a)) 0) &&
  (if negb (N.eqb (N.land (a_dom T b) DOMAIN_MASK_LIGHT) 0) then light_conf T a b else true).
(** SE/Storyboard.cpp:217-253 body of the loop over the init actions of the object. *)
Definition end_init_conflict (fuel : nat) (T : tree) (a : nat) (w : world) (b : nat) : option world :=
  if a_private T b && state_eqb (st w b) RUNNING && must_end T a b then end_ fuel T w b else Some w.
(** SE/Storyboard.cpp:258-300 body of the loop over the actions of the events of the object; comparing
    object ids ([a_obj]); a null object_ of the other action is not dereferenced here (the reader never
    creates private actions without object). *)
Definition end_event_conflict (fuel : nat) (T : tree) (a : nat) (w : world) (b : nat) : option world :=
  if a_private T b && negb (Nat.eqb b a) &&
     match a_obj T b, a_obj T a with Some o, Some o' => Nat.eqb o o' | _, _ => false end &&
     state_eqb (st w b) RUNNING && must_end T a b then end_ fuel T w b else Some w.
(** SE/Storyboard.cpp:210-303 end the conflicting actions before action [a] starts. *)
Definition end_conflicts (fuel : nat) (T : tree) (w : world) (a : nat) : option world :=
  if a_private T a then
    match a_obj T a with
    | None => Some w
    | Some o =>
      match iter (end_init_conflict fuel T a) (init_actions T o) w with
      | None => None
      | Some w1 => iter (end_event_conflict fuel T a) (flat_map (kids T) (obj_events T o)) w1
      end
    end
  else Some w.
(** SE/Storyboard.cpp:207-319 body of the loop over the actions of the event. *)
Definition start_event_action (fuel : nat) (T : tree) (E : env) (w : world) (a : nat) : option world :=
  match end_conflicts fuel T w a with
  | None => None
  | Some w1 => start_action fuel T E w1 a
  end.
(** SE/Storyboard.cpp:147-154 body of the overwrite loop of event [x]. *)
Definition overwrite_one (fuel : nat) (T : tree) (x : nat) (w : world) (e : nat) : option world :=
  if negb (Nat.eqb e x) && state_eqb (st w e) RUNNING then end_ fuel T w e else Some w.
(** SE/Storyboard.cpp:194-320 Event::Start from the point where the priority allows the start. *)
Definition event_go (fuel : nat) (T : tree) (E : env) (w : world) (x : nat) : option world :=
  let w1 := start_self T w x in
  if negb (state_eqb (st w1 x) RUNNING) then Some w1
  else match kids T x with
       | [] => end_ fuel T w1 x
       | l => iter (start_event_action fuel T E) l w1
       end.
(** SE/Storyboard.cpp:131-320 Event::Start. *)
Definition start_event (fuel : nat) (T : tree) (E : env) (w : world) (x : nat) : option world :=
  match par T x with
  | None => None                                                        (* null pointer dereference *)
  | Some m =>
    match prio_of T x with
    | OVERWRITE =>
        if state_eqb (st w x) RUNNING then Some w
        else match iter (overwrite_one fuel T x) (kids T m) w with
             | None => None
             | Some w1 => event_go fuel T E w1 x
             end
    | SKIP => if any_child_running T w m then Some w else event_go fuel T E w x
    | PARALLEL => if state_eqb (st w x) RUNNING then Some w else event_go fuel T E w x
    | UNDEFINED_PRIORITY => Some w
    end
  end.

(** SE/StoryboardElement.cpp:128-161 Start, with the overrides of Event, StoryBoard (SE/Storyboard.cpp:75-94)
    and the actions. *)
Fixpoint start (fuel : nat) (T : tree) (E : env) (w : world) (x : nat) : option world :=
  match fuel with
  | O => None
  | S f =>
    match ty T x with
    | ACTION => start_action f T E w x
    | EVENT => start_event f T E w x
    | t =>
      match (if etype_eqb t STORY_BOARD then iter (start_action f T E) (sb_init T) w else Some w) with
      | None => None
      | Some w0 =>
        let w1 := start_self T w0 x in
        if state_eqb (st w1 x) RUNNING then iter (start f T E) (kids T x) w1 else Some w1
      end
    end
  end.

(** SE/StoryboardElement.cpp:176-188 the stop trigger part of EvalTriggers. *)
Definition eval_stop (fuel : nat) (T : tree) (E : env) (w : world) (x : nat) : option world :=
  if state_eqb (st w x) RUNNING && has_stop T x && fire_stop E w x then
    match stop fuel T w x with
    | None => None
    | Some w1 => if etype_eqb (ty T x) STORY_BOARD then stop fuel T w1 x else Some w1
    end
  else Some w.
(** SE/StoryboardElement.cpp:190-196 the start trigger part of EvalTriggers. *)
Definition eval_start (fuel : nat) (T : tree) (E : env) (w : world) (x : nat) : option world :=
  if state_eqb (st w x) STANDBY && (negb (has_start T x) || fire_start E w x) then start fuel T E w x else Some w.
(** SE/StoryboardElement.cpp:174-205 EvalTriggers. *)
Fixpoint eval_triggers (fuel : nat) (T : tree) (E : env) (w : world) (x : nat) : option world :=
  match fuel with
  | O => None
  | S f =>
    match eval_stop f T E w x with
    | None => None
    | Some w1 =>
      match eval_start f T E w1 x with
      | None => None
      | Some w2 =>
        if state_eqb (st w2 x) RUNNING then iter (eval_triggers f T E) (kids T x) w2 else Some w2
      end
    end
  end.

(** SE/../OSCTypeDefs/OSC*Action.cpp Step overrides as called from SE/Storyboard.cpp:96-126,322-354. *)
Definition step_action (fuel : nat) (T : tree) (E : env) (w : world) (a : nat) : option world :=
  if state_eqb (st w a) RUNNING && negb (skip_action E w a) then
    match act_step E w a with
    | SB_none => Some w
    | SB_end => end_ fuel T w a
    | SB_stop => stop fuel T w a
    end
  else Some w.
(** SE/StoryboardElement.cpp:163-172 Step and the Event override (SE/Storyboard.cpp:322-354: an event steps
    its running actions whatever its own state). *)
Fixpoint step_el (fuel : nat) (T : tree) (E : env) (w : world) (x : nat) : option world :=
  match fuel with
  | O => None
  | S f =>
    match ty T x with
    | EVENT => iter (step_action f T E) (kids T x) w
    | ACTION => Some w
    | _ => if state_eqb (st w x) RUNNING then iter (step_el f T E) (kids T x) w else Some w
    end
  end.
(** SE/Storyboard.cpp:96-129 StoryBoard::Step; [r] is the storyboard. *)
Definition sb_step (fuel : nat) (T : tree) (E : env) (r : nat) (w : world) : option world :=
  match eval_triggers fuel T E w r with
  | None => None
  | Some w1 =>
    match iter (step_action fuel T E) (sb_init T) w1 with
    | None => None
    | Some w2 => step_el fuel T E w2 r
    end
  end.

(** SE/StoryboardElement.hpp:125-136 constructor. *)
Definition world0 : world :=
  mkWorld (fun _ => INIT) (fun _ => UNDEFINED_ELEMENT_TRANSITION) (fun _ => 0%Z) [].

(** SE/ScenarioEngine.cpp:136-175 frames: Start in the first frame, then Step in every frame. *)
Fixpoint run_steps (fuel : nat) (T : tree) (r : nat) (Es : list env) (w : world) : option world :=
  match Es with
  | [] => Some w
  | E :: Es' => match sb_step fuel T E r w with
                | None => None
                | Some w' => run_steps fuel T r Es' w'
                end
  end.
(** SE/ScenarioEngine.cpp:136-161 first call of step(). *)
Definition run (fuel : nat) (T : tree) (r : nat) (E0 : env) (Es : list env) : option world :=
  match start fuel T E0 world0 r with
  | None => None
  | Some w => run_steps fuel T r Es w
  end.
