(** * Following a trajectory (FollowTrajectoryAction)

    [double] is idealised as [R]. OT = EnvironmentSimulator/Modules/ScenarioEngine/OSCTypeDefs,
    SE = EnvironmentSimulator/Modules/ScenarioEngine/SourceFiles, RM = EnvironmentSimulator/Modules/RoadManager. *)
From Coq Require Import Reals Bool List.
From Verif Require Import AngModel.
Import ListNotations.
Open Scope R_scope.

(** PolyLineBase::InterpolationMode, RM/RoadManager.hpp:5254-5259. *)
Inductive imode := I_NONE | I_SEGMENT | I_CORNER.
(** FollowingMode, EnvironmentSimulator/Modules/CommonMini/CommonMini.hpp:162-166. *)
Inductive fmode := FM_FOLLOW | FM_POSITION.
(** The values of the option pline_interpolation and of the property plineInterpolation as told apart in
    OT/OSCPrivateAction.cpp:353-388. *)
Inductive iname := W_OFF | W_SEGMENT | W_CORNER | W_OTHER.
(** FollowTrajectoryAction::TimingDomain, OT/OSCPrivateAction.hpp:1145-1150. *)
Inductive domain := D_NONE | D_RELATIVE | D_ABSOLUTE.
(** The comparison of timing_domain_ with NONE and TIMING_ABSOLUTE, e.g. OT/OSCPrivateAction.cpp:510, 513. *)
Definition untimed (d : domain) : bool := match d with D_NONE => true | _ => false end.
Definition absolute (d : domain) : bool := match d with D_ABSOLUTE => true | _ => false end.

(** What the shape gives at some s after an evaluation, current_val_ (RM/RoadManager.hpp:5462): heading h, heading of the line h_true,
    whether pos_mode has a heading set (IsHSetExplicitly, RM/RoadManager.cpp:13393-13396, 13524-13527, 14041-14044, 14198-14201), time and speed;
    and what UpdateTrajectoryPos (RM/RoadManager.cpp:14276-14347) makes of it: x, y and heading of the entity. *)
Record geo := Geo { g_h : R; g_htrue : R; g_explicit : bool; g_time : R; g_speed : R; g_x : R; g_y : R; g_face : R }.

(** The kinds of shapes, Shape::ShapeType, RM/RoadManager.hpp:5380-5387; a polyline and a nurbs are evaluated alike as to s. *)
Inductive kind := K_POLYLINE | K_CLOTHOID | K_SPLINE.

(** RMTrajectory with its shape, RM/RoadManager.hpp:5681-5711, after Freeze: length, start and end time, closed_, time and length of the
    segments of a clothoid spline (RM/RoadManager.hpp:5528-5546), s by time of a polyline or nurbs (RM/RoadManager.cpp:13310-13343, 14004-14009,
    modelled in PolyModel) and the values at s by the interpolation mode. *)
Record traj := Traj { t_kind : kind; t_len : R; t_start : R; t_end : R; t_closed : bool; t_segs : list (R * R); t_poly : R -> R; t_at : imode -> R -> geo }.
(** GetDuration, RM/RoadManager.cpp:13383-13391, 13514-13522, 14031-14039, 14193-14196. *)
Definition t_dur (t : traj) : R := t_end t - t_start t.

(** current_val_.s after an evaluation by s. Polyline and nurbs: RM/RoadManager.cpp:13313-13318, 13340-13345 with 12635-12641, 12661;
    clothoid: 14168-14171, 14178; clothoid spline: 13483-13494. *)
Definition by_s (t : traj) (p : R) : R :=
  match t_kind t with
  | K_POLYLINE => if Rltb (t_len t - SMALL_NUMBER) p then t_len t else p
  | K_CLOTHOID => if Rltb (t_len t) p then t_len t else p
  | K_SPLINE => if Rltb (t_len t) p then t_len t else if Rltb p 0 then 0 else p
  end.

(** The segment of a clothoid spline at a time and the s at its start, RM/RoadManager.cpp:13452-13471: [seg] is the segment reached, [rest]
    those after it. The result is s, the segment and its end time; the end time of the spline is [e]. *)
Fixpoint spline_seg (p e s : R) (seg : R * R) (rest : list (R * R)) : R * (R * R) * R :=
  match rest with
  | [] => (s, seg, e)
  | next :: rest' => if Rltb (fst next - SMALL_NUMBER) p then spline_seg p e (s + snd seg) next rest' else (s, seg, fst next)
  end.

(** current_val_.s after an evaluation by time. Clothoid: RM/RoadManager.cpp:14154-14167, 14178; clothoid spline: 13445-13482, 13494 (no
    segment: LOG_ERROR_AND_QUIT, not modelled; 0 here). A polyline or nurbs: see [t_poly]. *)
Definition by_time (t : traj) (p : R) : R :=
  match t_kind t with
  | K_POLYLINE => t_poly t p
  | K_CLOTHOID =>
      if negb (Rltb p (t_start t)) && negb (Rltb (t_end t) p) then
        let d := p - t_start t in t_len t * (d - t_start t) / (t_end t - t_start t)
      else t_len t
  | K_SPLINE =>
      if negb (Rltb p (t_start t)) && negb (Rltb (t_end t) p) then
        match t_segs t with
        | [] => 0
        | seg :: rest => let '(s, seg, e) := spline_seg p (t_end t) 0 seg rest in s + (p - fst seg) / (e - fst seg) * snd seg
        end
      else t_len t
  end.

(** RMTrajectory::Copy, RM/RoadManager.cpp:15395-15401: a new trajectory (closed_ = false, RM/RoadManager.hpp:5684) with a copy of the shape. *)
Definition CopyTraj (t : traj) : traj := Traj (t_kind t) (t_len t) (t_start t) (t_end t) false (t_segs t) (t_poly t) (t_at t).

(** What the action uses of the object: speed_, position and heading, whether a controller overrides the lateral and the longitudinal domain
    (IsControllerModeOnDomains), whether it is a ghost and its headstart, whether pos_ has the trajectory of the action, and whether the
    dirty bits have been set. *)
Record obj := Obj { o_speed : R; o_x : R; o_y : R; o_h : R; o_lat : bool; o_long : bool; o_ghost : bool; o_headstart : R; o_traj : bool; o_dirty : bool }.
(** SetSpeed; writes to the position; SetTrajectory; SetBits. SE/Entities.hpp:485-489, RM/RoadManager.cpp:10949-10956, 10932-10941, 11703-11706. *)
Definition set_speed v o := Obj v (o_x o) (o_y o) (o_h o) (o_lat o) (o_long o) (o_ghost o) (o_headstart o) (o_traj o) (o_dirty o).
Definition set_xy x y o := Obj (o_speed o) x y (o_h o) (o_lat o) (o_long o) (o_ghost o) (o_headstart o) (o_traj o) (o_dirty o).
Definition set_h h o := Obj (o_speed o) (o_x o) (o_y o) h (o_lat o) (o_long o) (o_ghost o) (o_headstart o) (o_traj o) (o_dirty o).
Definition set_traj b o := Obj (o_speed o) (o_x o) (o_y o) (o_h o) (o_lat o) (o_long o) (o_ghost o) (o_headstart o) b (o_dirty o).
Definition set_dirty o := Obj (o_speed o) (o_x o) (o_y o) (o_h o) (o_lat o) (o_long o) (o_ghost o) (o_headstart o) (o_traj o) true.

(** The members of FollowTrajectoryAction, OT/OSCPrivateAction.hpp:1152-1162; current_val_.s and the interpolation mode of the shape;
    whether the action is running. *)
Record act := Act { a_traj : traj; a_domain : domain; a_follow : fmode; a_scale : R; a_offset : R; a_time : R; a_dist : R;
                    a_sign : R; a_dir : R; a_expl : bool; a_ignore : bool; a_s : R; a_interp : imode; a_run : bool }.
(** Writes to the members, e.g. OT/OSCPrivateAction.cpp:343, 418, 433, 454, 568, 607; evaluations (current_val_) and the state. *)
Definition with_s s a := Act (a_traj a) (a_domain a) (a_follow a) (a_scale a) (a_offset a) (a_time a) (a_dist a) (a_sign a) (a_dir a) (a_expl a) (a_ignore a) s (a_interp a) (a_run a).
Definition with_time t a := Act (a_traj a) (a_domain a) (a_follow a) (a_scale a) (a_offset a) t (a_dist a) (a_sign a) (a_dir a) (a_expl a) (a_ignore a) (a_s a) (a_interp a) (a_run a).
Definition with_sign z a := Act (a_traj a) (a_domain a) (a_follow a) (a_scale a) (a_offset a) (a_time a) (a_dist a) z (a_dir a) (a_expl a) (a_ignore a) (a_s a) (a_interp a) (a_run a).
Definition with_dir d a := Act (a_traj a) (a_domain a) (a_follow a) (a_scale a) (a_offset a) (a_time a) (a_dist a) (a_sign a) d (a_expl a) (a_ignore a) (a_s a) (a_interp a) (a_run a).
Definition with_expl b a := Act (a_traj a) (a_domain a) (a_follow a) (a_scale a) (a_offset a) (a_time a) (a_dist a) (a_sign a) (a_dir a) b (a_ignore a) (a_s a) (a_interp a) (a_run a).
Definition with_ignore b a := Act (a_traj a) (a_domain a) (a_follow a) (a_scale a) (a_offset a) (a_time a) (a_dist a) (a_sign a) (a_dir a) (a_expl a) b (a_s a) (a_interp a) (a_run a).
Definition with_interp m a := Act (a_traj a) (a_domain a) (a_follow a) (a_scale a) (a_offset a) (a_time a) (a_dist a) (a_sign a) (a_dir a) (a_expl a) (a_ignore a) (a_s a) m (a_run a).
Definition with_run b a := Act (a_traj a) (a_domain a) (a_follow a) (a_scale a) (a_offset a) (a_time a) (a_dist a) (a_sign a) (a_dir a) (a_expl a) (a_ignore a) (a_s a) (a_interp a) b.

(** The copy constructor, OT/OSCPrivateAction.hpp:1182-1199; the new action is not running; current_val_ of the copied shape is at 0. *)
Definition CopyAct (a : act) : act :=
  Act (CopyTraj (a_traj a)) (a_domain a) (a_follow a) (a_scale a) (a_offset a) 0 (a_offset a) (a_sign a) (a_dir a) (a_expl a) (a_ignore a) 0 (a_interp a) false.

(** The values of the shape where it was last evaluated: GetH, GetHTrue, IsHSetExplicitly, GetTime, GetSpeed, RM/RoadManager.cpp:15329-15393. *)
Definition cur (a : act) : geo := t_at (a_traj a) (a_interp a) (a_s a).

(** GetTrajectoryS, RM/RoadManager.cpp:14236-14239. *)
Definition GetTrajectoryS (a : act) (o : obj) : R := if o_traj o then a_s a else 0.

(** UpdateTrajectoryPos, RM/RoadManager.cpp:14276-14347, as far as x, y and the heading go. *)
Definition UpdateTrajectoryPos (a : act) (o : obj) : obj := set_h (g_face (cur a)) (set_xy (g_x (cur a)) (g_y (cur a)) o).

(** SetTrajectoryS, MoveTrajectoryDS, SetTrajectoryPosByTime, RM/RoadManager.cpp:14241-14256, 14212-14222, 14224-14234:
    nothing happens without a trajectory. *)
Definition SetTrajectoryS (s : R) (a : act) (o : obj) : act * obj :=
  if o_traj o then let a := with_s (by_s (a_traj a) s) a in (a, UpdateTrajectoryPos a o) else (a, o).
Definition MoveTrajectoryDS (ds : R) (a : act) (o : obj) : act * obj :=
  if o_traj o then let a := with_s (by_s (a_traj a) (a_s a + ds)) a in (a, UpdateTrajectoryPos a o) else (a, o).
Definition SetTrajectoryPosByTime (t : R) (a : act) (o : obj) : act * obj :=
  if o_traj o then let a := with_s (by_time (a_traj a) t) a in (a, UpdateTrajectoryPos a o) else (a, o).

(** The comparison of a heading with that of the line, e.g. OT/OSCPrivateAction.cpp:446: -1 if they are more than a right angle apart. *)
Definition heading_sign (h htrue : R) : R := if Rltb (PI / 2 + SMALL_NUMBER) (GetAbsAngleDifference h htrue) then -1 else 1.

(** The interpolation mode, OT/OSCPrivateAction.cpp:350-404: by the option, by the property of the object, by the following mode;
    [old] is the mode before. *)
Definition interp_mode (opt prop : option iname) (f : fmode) (old : imode) : imode :=
  match opt with
  | Some W_OFF => I_NONE
  | Some W_SEGMENT => I_SEGMENT
  | Some W_CORNER => I_CORNER
  | Some W_OTHER => I_NONE
  | None =>
      match prop with
      | Some W_SEGMENT => I_SEGMENT
      | Some W_CORNER => I_CORNER
      | Some W_OFF => I_NONE
      | Some W_OTHER => old
      | None => match f with FM_FOLLOW => I_SEGMENT | FM_POSITION => I_CORNER end
      end
  end.

(** FollowTrajectoryAction::Start, OT/OSCPrivateAction.cpp:335-460. [opt_ignore]: the option ignore_heading_for_traj_motion; [prop_ignore]:
    the property, if there, compared with "true". Freeze (414) is not modelled: the trajectory is the frozen one. *)
Definition Start (opt_ignore : bool) (prop_ignore : option bool) (opt prop : option iname) (a : act) (o : obj) : act * obj :=
  let a := with_run true a in
  let a := if opt_ignore then with_ignore true a else match prop_ignore with Some b => with_ignore b a | None => a end in
  let a := with_interp (interp_mode opt prop (a_follow a) (a_interp a)) a in
  if o_lat o then (a, o)
  else
    let o := set_traj true o in
    let (a, o) := SetTrajectoryS (a_dist a) a o in
    let a := with_time (g_time (cur a)) a in
    let speedSign :=
      if untimed (a_domain a) then SIGN (o_speed o)
      else if g_explicit (cur a) then heading_sign (g_h (cur a)) (g_htrue (cur a)) else 1 in
    let (a, o) :=
      if g_explicit (cur a) then (with_expl true a, set_h (g_h (cur a)) o)
      else (with_expl false a, set_h (GetAngleInInterval2PI (g_htrue (cur a) + (if Rltb speedSign 0 then PI else 0))) o) in
    let a := with_sign (heading_sign (o_h o) (g_htrue (cur a))) a in
    let a := if g_explicit (cur a) && a_ignore a then with_sign 1 a else a in
    (a, if untimed (a_domain a) then o else set_speed (speedSign * g_speed (cur a)) o).

(** FollowTrajectoryAction::End, OT/OSCPrivateAction.cpp:471-485. *)
Definition End_ (a : act) (o : obj) : act * obj := (with_run false a, if o_lat o then o else set_traj false o).

(** FollowTrajectoryAction::Move, OT/OSCPrivateAction.cpp:560-635. *)
Definition Move (simTime dt : R) (a : act) (o : obj) : act * obj :=
  let old_s := GetTrajectoryS a o in
  let timeOffset := if absolute (a_domain a) && o_ghost o then o_headstart o else 0 in
  let a := with_dir 1 a in
  let headingDirection := heading_sign (o_h o) (g_htrue (cur a)) in
  let (a, o) :=
    if untimed (a_domain a) || o_long o then
      let a := with_dir (SIGN (o_speed o) * a_sign a) a in
      MoveTrajectoryDS (a_dir a * Rabs (o_speed o) * dt) a o
    else match a_domain a with
    | D_NONE => (a, o)
    | D_RELATIVE =>
        let a := with_time (a_time a + a_scale a * dt) a in
        let (a, o) := SetTrajectoryPosByTime (a_time a + a_offset a) a o in
        if Rltb (a_time a + a_offset a) (t_start (a_traj a) + t_dur (a_traj a) + SMALL_NUMBER) then
          if Rltb SMALL_NUMBER dt then
            let a := with_dir (SIGN (GetTrajectoryS a o - old_s)) a in
            (a, set_speed (a_dir a * headingDirection * Rabs (GetTrajectoryS a o - old_s) / dt) o)
          else (a, o)
        else (a, o)
    | D_ABSOLUTE =>
        let a := if o_ghost o || Rltb (- SMALL_NUMBER) simTime then with_time ((simTime + dt) * a_scale a) a else a in
        let (a, o) := SetTrajectoryPosByTime (a_time a + timeOffset + a_offset a) a o in
        if Rltb SMALL_NUMBER dt && Rltb (a_time a + timeOffset) (t_start (a_traj a) + t_dur (a_traj a) + SMALL_NUMBER) then
          (a, set_speed (a_dir a * headingDirection * Rabs (GetTrajectoryS a o - old_s) / dt) o)
        else (a, o)
    end in
  if g_explicit (cur a) then (with_expl true a, o)
  else
    let a := if a_expl a then with_expl false (with_sign (heading_sign (o_h o) (g_htrue (cur a))) a) else a in
    (a, if Rltb (a_sign a) 0 then set_h (GetAngleInInterval2PI (o_h o + PI)) o else o).

(** FollowTrajectoryAction::Step, OT/OSCPrivateAction.cpp:487-558. SetInertiaPos (549-554) sets x and y. *)
Definition Step (simTime dt : R) (a : act) (o : obj) : act * obj :=
  if o_lat o then (a, o)
  else
    let o := set_dirty o in
    if negb (o_ghost o) && Rltb simTime 0 then (a, o)
    else
      let old_s := GetTrajectoryS a o in
      let timeOffset := if absolute (a_domain a) && o_ghost o then o_headstart o else 0 in
      let timeOffset := if untimed (a_domain a) then timeOffset else timeOffset + a_offset a in
      let (a, o) := Move simTime dt a o in
      let s := GetTrajectoryS a o in
      let L := t_len (a_traj a) in
      let e := t_start (a_traj a) + t_dur (a_traj a) in
      let open := untimed (a_domain a) && negb (t_closed (a_traj a)) in
      let late := negb (untimed (a_domain a)) && Rltb (e - SMALL_NUMBER) (a_time a + timeOffset) in
      if (open && Rltb 0 dt &&
          ((Rltb 0 (a_dir a * Rabs (o_speed o)) && Rltb (L - SMALL_NUMBER) s) || (Rltb (a_dir a * Rabs (o_speed o)) 0 && Rltb s SMALL_NUMBER)))
         || late then
        let remaining :=
          if open && (Rltb (L - SMALL_NUMBER) s || Rltb s SMALL_NUMBER) then Rabs (o_speed o) * dt - Rabs (s - old_s)
          else if late then (a_time a + timeOffset - e) * o_speed o
          else 0 in
        End_ a (set_xy (o_x o + remaining * cos (g_h (cur a))) (o_y o + remaining * sin (g_h (cur a))) o)
      else (a, o).

(** One execution of the scenario step for the action, SE/Storyboard.cpp:333-352: the action is stepped while it is
    running; before, others may have set the speed of the object ([Some v]) and the time is [simTime]. *)
Record tick := Tick { k_time : R; k_dt : R; k_speed : option R }.
Definition Tick1 (k : tick) (ao : act * obj) : act * obj :=
  let (a, o) := ao in
  let o := match k_speed k with Some v => set_speed v o | None => o end in
  if a_run a then Step (k_time k) (k_dt k) a o else (a, o).
Definition Run (ks : list tick) (ao : act * obj) : act * obj := fold_left (fun ao k => Tick1 k ao) ks ao.
