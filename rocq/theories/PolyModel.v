(** * Trajectories along polylines: PolyLineBase and PolyLineShape in RoadManager.cpp

    Doubles are rationals.  The functions on angles (GetAngleInInterval2PI, GetAngleDifference, GetAngleOfVector, atan2) and the
    distance of two points are parameters.  [idx_t] is [option nat], [None] is IDX_UNDEFINED.  A result [None] is an access
    out of the bounds of the vertices.
    RM = EnvironmentSimulator/Modules/RoadManager. *)
From Coq Require Import NArith.
From Verif Require Import QAux LaneModel.
Local Open Scope nat_scope.
Local Open Scope Q_scope.

(** struct TrajVertex, RM/RoadManager.hpp:3819-3836. *)
Record vertex := Vertex {
  v_s : Q; v_x : Q; v_y : Q; v_z : Q; v_h : Q; v_pitch : Q; v_r : Q; v_road : N; v_time : Q; v_speed : Q; v_acc : Q; v_param : Q;
  v_mode : Z; v_htrue : Q; v_wheel : Q }.

(** PolyLineBase::InterpolationMode, RM/RoadManager.hpp:5254-5259. *)
Inductive imode := INTERPOLATE_NONE | INTERPOLATE_SEGMENT | INTERPOLATE_CORNER.

(** class PolyLineBase, RM/RoadManager.hpp:5366-5370 (without current_val_, which is the output of the last call). *)
Record pline := PLine { vertex_ : list vertex; current_index_ : nat; length_ : Q; interpolation_mode_ : imode }.

(** vertex_[i].s and vertex_[i].time for an index within bounds, as in RM/RoadManager.cpp:12637-12654, 12707-12764. *)
Definition s_at (l : list vertex) (i : nat) : Q := match nth_error l i with Some v => v_s v | None => 0 end.
Definition t_at (l : list vertex) (i : nat) : Q := match nth_error l i with Some v => v_time v | None => 0 end.

Section Angles.
Variable norm : Q -> Q.          (* GetAngleInInterval2PI *)
Variable diff : Q -> Q -> Q.     (* GetAngleDifference *)

(** The value of one angle on a segment, RM/RoadManager.cpp:12542-12595: [skip] tells the case at 12544, [previous] is the angle
    of the vertex before (if there is one), [more] that the segment is not the last one. *)
Definition segment_angle (mode : imode) (skip : bool) (previous : option Q) (more : bool) (current next a local_s length : Q) : Q :=
  if skip then norm current
  else match mode with
  | INTERPOLATE_SEGMENT => norm (current + a * diff next current)
  | INTERPOLATE_NONE => norm current
  | INTERPOLATE_CORNER =>
      let radius := MIN 2 (length / 2) in
      if Qltb local_s radius then
        let a_corner := (radius + local_s) / (2 * radius) in
        match previous with
        | Some p => norm (p + a_corner * diff current p)
        | None => norm current
        end
      else if Qltb (length - radius) local_s then
        let a_corner := if more then (radius + (length - local_s)) / (2 * radius) else (length - local_s) / radius in
        norm (current + (1 - a_corner) * diff next current)
      else norm current
  end.

(** The weighted mean of two values, RM/RoadManager.cpp:12500-12511. *)
Definition mix (a x y : Q) : Q := (1 - a) * x + a * y.

(** PolyLineBase::EvaluateSegmentByLocalS, RM/RoadManager.cpp:12468-12604.  The last branch (12598-12601) is never reached, as
    IDX_UNDEFINED is not less than the number of vertices. *)
Definition EvaluateSegmentByLocalS (p : pline) (i : nat) (local_s : Q) : option vertex :=
  match nth_error (vertex_ p) i with
  | None => None
  | Some v0 =>
      match nth_error (vertex_ p) (S i) with
      | None => Some v0
      | Some v1 =>
          let length := MAX (v_s v1 - v_s v0) SMALL in
          let local_s := CLAMP local_s 0 length in
          let a := local_s / length in
          let before f := match i with O => None | S j => option_map f (nth_error (vertex_ p) j) end in
          let more := (i <? List.length (vertex_ p) - 2)%nat in
          let skip := negb (v_mode v0 =? v_mode v1)%Z in
          let angle f skip := segment_angle (interpolation_mode_ p) skip (before f) more (f v0) (f v1) a local_s length in
          Some (Vertex (mix a (v_s v0) (v_s v1)) (mix a (v_x v0) (v_x v1)) (mix a (v_y v0) (v_y v1)) (mix a (v_z v0) (v_z v1))
                  (angle v_h false) (angle v_pitch skip) (angle v_r skip) (v_road v0) (mix a (v_time v0) (v_time v1))
                  (mix a (v_speed v0) (v_speed v1)) (mix a (v_acc v0) (v_acc v1)) (mix a (v_param v0) (v_param v1))
                  (v_mode v0) (v_htrue v0) (mix a (v_wheel v0) (v_wheel v1)))
      end
  end.

(** The search forwards in PolyLineBase::Evaluate, RM/RoadManager.cpp:12644-12645; [n] rounds are left. *)
Fixpoint s_fwd (l : list vertex) (s : Q) (n i : nat) : nat :=
  match n with
  | O => i
  | S n => if (i <? List.length l - 1)%nat && Qltb (s_at l (S i) + SMALL) s then s_fwd l s n (S i) else i
  end.

(** The search backwards, RM/RoadManager.cpp:12649-12650. *)
Fixpoint s_bwd (l : list vertex) (s : Q) (i : nat) : nat :=
  match i with
  | O => O
  | S j => if Qltb s (s_at l i + SMALL) then s_bwd l s j else i
  end.

(** Set the s value of a vertex (RM/RoadManager.cpp:12661). *)
Definition with_s (s : Q) (v : vertex) : vertex :=
  Vertex s (v_x v) (v_y v) (v_z v) (v_h v) (v_pitch v) (v_r v) (v_road v) (v_time v) (v_speed v) (v_acc v) (v_param v) (v_mode v) (v_htrue v) (v_wheel v).

(** The lookup of a segment, RM/RoadManager.cpp:12628-12651: the index and the value of s used from there on. *)
Definition find_segment (p : pline) (s : Q) (startAtIndex : option nat) : nat * Q :=
  let l := vertex_ p in
  let i := match startAtIndex with Some i => Nat.min i (List.length l - 1) | None => (List.length l - 1)%nat end in
  if Qltb (s_at l (List.length l - 1) - SMALL) s then ((List.length l - 1)%nat, length_ p)
  else if Qltb (s_at l i + SMALL) s then (s_fwd l s (List.length l) i, s)
  else if Qltb s (s_at l i + SMALL) then (s_bwd l s i, s)
  else (i, s).

(** PolyLineBase::Evaluate, RM/RoadManager.cpp:12625-12664: the index returned, the position and the polyline after the call;
    [pos] is the position before the call. *)
Definition Evaluate (p : pline) (s : Q) (pos : vertex) (startAtIndex : option nat) : option (option nat * vertex * pline) :=
  match vertex_ p with
  | [] => Some (None, pos, p)
  | _ =>
      let (i, s) := find_segment p s startAtIndex in
      match EvaluateSegmentByLocalS p i (s - s_at (vertex_ p) i) with
      | None => None
      | Some v => Some (Some i, with_s s v, PLine (vertex_ p) i (length_ p) (interpolation_mode_ p))
      end
  end.

(** PolyLineBase::GhostTrailReturnCode, RM/RoadManager.hpp:5261-5269. *)
Inductive ghost := GHOST_TRAIL_OK | GHOST_TRAIL_ERROR | GHOST_TRAIL_NO_VERTICES | GHOST_TRAIL_TIME_PRIOR | GHOST_TRAIL_TIME_PAST | GHOST_TRAIL_DIST_PAST.

(** The search forwards in PolyLineBase::Time2S, RM/RoadManager.cpp:12744-12750. *)
Fixpoint t_fwd (l : list vertex) (time : Q) (n i : nat) : nat :=
  match n with
  | O => i
  | S n => if (i <? List.length l - 1)%nat && negb (Qltb time (t_at l (S i) - SMALL)) then t_fwd l time n (S i) else i
  end.

(** The search backwards, RM/RoadManager.cpp:12754-12760. *)
Fixpoint t_bwd (l : list vertex) (time : Q) (i : nat) : nat :=
  match i with
  | O => O
  | S j => if Qltb (t_at l i - SMALL) time then i else t_bwd l time j
  end.

(** PolyLineBase::Time2S, RM/RoadManager.cpp:12676-12769: return code, s and index.  [None] is an access out of bounds: at 12735 and
    12763.  A division by zero would give 0 here; it is shown not to occur. *)
Definition Time2S (p : pline) (time : Q) (index : option nat) : option (ghost * Q * option nat) :=
  let l := vertex_ p in
  let n := List.length l in
  match l with
  | [] => Some (GHOST_TRAIL_NO_VERTICES, 0, None)
  | [_] => Some (GHOST_TRAIL_OK, 0, Some O)
  | _ =>
      if Qltb time (t_at l 0 + SMALL)
      then Some (if Qltb (t_at l 0 - SMALL) time then GHOST_TRAIL_OK else GHOST_TRAIL_TIME_PRIOR, 0, Some O)
      else if Qltb (t_at l (n - 1) - SMALL) time
      then Some (if Qltb time (t_at l (n - 1) + SMALL) then GHOST_TRAIL_OK else GHOST_TRAIL_TIME_PAST, s_at l (n - 1), Some (n - 1)%nat)
      else
        let i := match index with Some k => if (k <? n)%nat then k else current_index_ p | None => current_index_ p end in
        if (n <=? i)%nat then None
        else
          let i := if Qltb time (t_at l i - SMALL) then t_bwd l time (i - 1) else t_fwd l time n i in
          if (n <=? S i)%nat then None
          else
            let w := (time - t_at l i) / (t_at l (S i) - t_at l i) in
            Some (GHOST_TRAIL_OK, MAX 0 (s_at l i + w * (s_at l (S i) - s_at l i)), Some i)
  end.

(** PolyLineBase::FindPointAhead, RM/RoadManager.cpp:12902-12908. *)
Definition FindPointAhead (p : pline) (s_start distance : Q) (pos : vertex) (startAtIndex : option nat) : option (ghost * option nat * vertex * pline) :=
  option_map (fun '(i, v, p') => (if Qltb (length_ p + SMALL) (s_start + distance) then GHOST_TRAIL_DIST_PAST else GHOST_TRAIL_OK, i, v, p'))
    (Evaluate p (s_start + distance) pos startAtIndex).

(** PolyLineBase::FindPointAtTime, RM/RoadManager.cpp:12910-12924.  Time2S never returns GHOST_TRAIL_ERROR. *)
Definition FindPointAtTime (p : pline) (time : Q) (pos : vertex) (index : option nat) : option (ghost * option nat * vertex * pline) :=
  match Time2S p time index with
  | None => None
  | Some (code, s, index) => option_map (fun '(i, v, p') => (code, i, v, p')) (Evaluate p s pos index)
  end.

(** PolyLineBase::FindPointAtTimeRelative, RM/RoadManager.cpp:12926-12940. *)
Definition FindPointAtTimeRelative (p : pline) (time : Q) (pos : vertex) (index : option nat) : option (ghost * option nat * vertex * pline) :=
  match vertex_ p with
  | [] => None
  | v :: _ => FindPointAtTime p (v_time v + time) pos index
  end.

End Angles.

(** PolyLineBase::GetCurrentVertex, RM/RoadManager.cpp:12947-12955. *)
Definition GetCurrentVertex (p : pline) : option vertex := nth_error (vertex_ p) (current_index_ p).

(** PolyLineBase::Reset, RM/RoadManager.cpp:12957-12966. *)
Definition Reset (p : pline) (clear_vertices : bool) : pline :=
  PLine (if clear_vertices then [] else vertex_ p) 0 0 (interpolation_mode_ p).

Section Points.
Variable dist : Q -> Q -> Q -> Q -> Q.   (* PointDistance2D *)

(** PolyLineBase::AddVertex, RM/RoadManager.cpp:12606-12623; [s] is the s value of the vertex, [None] if it is NaN. *)
Definition AddVertex (p : pline) (s : option Q) (v : vertex) : pline :=
  let s := match s with
           | Some s => s
           | None => match rev (vertex_ p) with b :: _ => v_s b + dist (v_x v) (v_y v) (v_x b) (v_y b) | [] => 0 end
           end in
  PLine (vertex_ p ++ [with_s s v]) (current_index_ p) s (interpolation_mode_ p).

End Points.

(** ** PolyLineShape *)

(** SIGN on double, CM/CommonMini.hpp:55. *)
Definition QSIGN (x : Q) : Z := if Qltb x 0 then (-1)%Z else 1%Z.

(** class PolyLineShape::Vertex with what is used of its position, RM/RoadManager.hpp:5468-5476, RM/RoadManager.cpp:13107-13148:
    whether the type is NORMAL, x, y, z, h, pitch and roll (absolute and relative to the road), mode, road, time. *)
Record tvertex := TVertex { tv_normal : bool; tv_x : Q; tv_y : Q; tv_z : Q; tv_h : Q; tv_p : Q; tv_prel : Q; tv_r : Q; tv_rrel : Q; tv_mode : Z; tv_track : N; tv_time : Q }.

(** Position::PosMode, RM/RoadManager.hpp:3912-3929. *)
Definition Z_ABS : Z := 3.
Definition Z_MASK : Z := 7.
Definition H_MASK : Z := Z.shiftl 7 4.
Definition P_MASK : Z := Z.shiftl 7 8.
Definition P_REL : Z := Z.shiftl 7 8.
Definition R_MASK : Z := Z.shiftl 7 12.
Definition R_REL : Z := Z.shiftl 7 12.

(** Whether z is absolute in a mode (RM/RoadManager.cpp:13114). *)
Definition z_abs (m : Z) : bool := (Z.land m Z_MASK =? Z_ABS)%Z.

(** The mode of a vertex before pitch and roll are looked at, RM/RoadManager.cpp:13112-13122. *)
Definition own_mode (v : tvertex) (next : option tvertex) : Z :=
  match next with
  | Some w => if z_abs (tv_mode w) && negb (z_abs (tv_mode v)) then tv_mode w else tv_mode v
  | None => tv_mode v
  end.

(** One of the defaults at RM/RoadManager.cpp:13124-13144: with [mask] and [rel] the mode after it and whether the relative value
    is taken. *)
Definition rel_default (mask rel m : Z) : Z * bool :=
  if negb (z_abs m) && (Z.land m mask =? 0)%Z then (Z.lor (Z.land m (Z.lnot mask)) rel, true) else (m, false).

(** The copy of one vertex into the polyline, RM/RoadManager.cpp:13094-13148; [pv] is the vertex of the polyline before. *)
Definition copy_vertex (pv : vertex) (v : tvertex) (next : option tvertex) : vertex :=
  let m := own_mode v next in
  let (m, pr) := rel_default P_MASK P_REL m in
  let (m, rr) := rel_default R_MASK R_REL m in
  Vertex (v_s pv) (tv_x v) (tv_y v) (tv_z v) (tv_h v) (if pr then tv_prel v else tv_p v) (if rr then tv_rrel v else tv_r v) (tv_track v)
    (tv_time v) (v_speed pv) (v_acc pv) 0 m (v_htrue pv) (v_wheel pv).

(** The loop at RM/RoadManager.cpp:13092-13149.  [None]: the polyline has fewer vertices (13094). *)
Fixpoint copy_vertices (pl : list vertex) (l : list tvertex) {struct l} : option (list vertex) :=
  match l with
  | [] => Some pl
  | v :: r =>
      match pl with
      | [] => None
      | pv :: q => option_map (cons (copy_vertex pv v (head r))) (copy_vertices q r)
      end
  end.

Section Shape.
Variable dist : Q -> Q -> Q -> Q -> Q.   (* PointDistance2D *)
Variable heading : Q -> Q -> Q.          (* GetAngleOfVector *)
Variable slope : Q -> Q -> Q.            (* GetAngleInInterval2PI(-atan2(dz, ds)) *)

(** Distances along the polyline, RM/RoadManager.cpp:13155-13168: the vertices after one of which the s value is set. *)
Fixpoint set_s_from (pv : vertex) (l : list vertex) : list vertex :=
  match l with
  | [] => []
  | v :: r => let v := with_s (v_s pv + dist (v_x v) (v_y v) (v_x pv) (v_y pv)) v in v :: set_s_from v r
  end.
(** The loop at RM/RoadManager.cpp:13156-13168. *)
Definition set_s (l : list vertex) : list vertex :=
  match l with
  | [] => []
  | v :: r => with_s 0 v :: set_s_from (with_s 0 v) r
  end.

(** Heading and pitch from one vertex to the next, if they are apart, RM/RoadManager.cpp:13176-13186 and 13214-13224.  The error at
    13181 and 13220 is not possible, as NEAR_ZERO is false for a value greater than SMALL_NUMBER. *)
Definition direction (pv pvn : vertex) : option (Q * Q) :=
  if Qltb SMALL (v_s pvn - v_s pv) then Some (heading (v_x pvn - v_x pv) (v_y pvn - v_y pv), slope (v_z pvn - v_z pv) (v_s pvn - v_s pv)) else None.

(** The first direction, RM/RoadManager.cpp:13151-13187; [d] is the heading and pitch of the first vertex. *)
Fixpoint first_direction (d : Q * Q) (l : list vertex) : Q * Q :=
  match l with
  | v :: ((w :: _) as r) => match direction v w with Some d => d | None => first_direction d r end
  | _ => d
  end.

(** Heading and pitch of one vertex, RM/RoadManager.cpp:13194-13206. *)
Definition set_direction (d : Q * Q) (v : vertex) : vertex :=
  Vertex (v_s v) (v_x v) (v_y v) (v_z v) (if (Z.land (v_mode v) H_MASK =? 0)%Z then fst d else v_h v)
    (if (Z.land (v_mode v) P_MASK =? 0)%Z then snd d else v_pitch v) (v_r v) (v_road v) (v_time v) (v_speed v) (v_acc v) (v_param v) (v_mode v)
    (fst d) (v_wheel v).

(** The loop at RM/RoadManager.cpp:13190-13226, for at least two vertices. *)
Fixpoint set_directions (d : Q * Q) (l : list vertex) : list vertex :=
  match l with
  | [] => []
  | v :: r =>
      let d' := match r with w :: x :: _ => match direction w x with Some d => d | None => d end | _ => d end in
      set_direction d v :: set_directions d' r
  end.

(** FollowingMode, CM/CommonMini.hpp:162-166 (CM = EnvironmentSimulator/Modules/CommonMini). *)
Inductive following := FOLLOW | POSITION.

(** Set speed and acceleration of a vertex (RM/RoadManager.cpp:13270-13271). *)
Definition with_speed (speed acc : Q) (v : vertex) : vertex :=
  Vertex (v_s v) (v_x v) (v_y v) (v_z v) (v_h v) (v_pitch v) (v_r v) (v_road v) (v_time v) speed acc (v_param v) (v_mode v) (v_htrue v) (v_wheel v).

(** Acceleration on a segment and the speed at its end, RM/RoadManager.cpp:13246-13269.  [None] is a division by zero.
    abs is the one on doubles. *)
Definition segment_acc (speed ds dt : Q) : option (Q * Q) :=
  if Qltb SMALL (Qabs ds) then
    if Qeqb dt 0 then None
    else
      let acc := 2 * (ds - speed * dt) / (dt * dt) in
      if negb (QSIGN (speed + acc * dt) =? QSIGN speed)%Z then Some (- (speed * speed) / (2 * ds), 0) else Some (acc, speed + acc * dt)
  else Some (0, 0).

(** Mode FOLLOW of the loop at RM/RoadManager.cpp:13229-13273; [speed] is the speed at the first vertex. *)
Fixpoint follow_speed (speed : Q) (l : list vertex) : option (list vertex) :=
  match l with
  | [] => Some []
  | v :: r =>
      match r with
      | [] => Some [with_speed speed 0 v]
      | w :: _ =>
          match segment_acc speed (v_s w - v_s v) (v_time w - v_time v) with
          | None => None
          | Some (acc, speed') => option_map (cons (with_speed speed acc v)) (follow_speed speed' r)
          end
      end
  end.

(** Mode POSITION, RM/RoadManager.cpp:13274-13294: the last vertex keeps its speed, as 13278 sets the one before it. *)
Fixpoint position_speed (l : list vertex) : list vertex :=
  match l with
  | v :: ((w :: _) as r) =>
      let dt := v_time w - v_time v in
      with_speed (if Qltb SMALL dt then (v_s w - v_s v) / dt else 0) (v_acc v) v :: position_speed r
  | _ => l
  end.

(** PolyLineShape::CalculatePolyLine, RM/RoadManager.cpp:13080-13301; [l] the vertices of the shape.  With one vertex the loop at
    13190 accesses vertices that do not exist (13208-13214, [size - 2] is unsigned). *)
Definition CalculatePolyLine (mode : following) (initial_speed : Q) (l : list tvertex) (p : pline) : option pline :=
  match vertex_ p with
  | [] => Some p
  | _ =>
      match copy_vertices (vertex_ p) l with
      | None => None
      | Some pl =>
          match l with
          | [_] => None
          | _ =>
              let pl := set_s pl in
              let d := first_direction (match pl with v :: _ => (v_h v, v_pitch v) | [] => (0, 0) end) pl in
              let pl := set_directions d pl in
              match match mode with FOLLOW => follow_speed initial_speed pl | POSITION => Some (position_speed pl) end with
              | None => None
              | Some pl => Some (PLine pl 0 (s_at pl (List.length pl - 1)) (interpolation_mode_ p))
              end
          end
      end
  end.

End Shape.

(** Shape::TrajectoryParamType, RM/RoadManager.hpp:5389-5393. *)
Inductive ptype := PARAM_S | PARAM_TIME.

(** The search at RM/RoadManager.cpp:13322-13325; [n] rounds are left. *)
Fixpoint param_fwd (ty : ptype) (l : list vertex) (q : Q) (n i : nat) : nat :=
  match n with
  | O => i
  | S n =>
      if (i <? List.length l - 1)%nat && (match ty with PARAM_S => Qltb (s_at l (S i)) q | PARAM_TIME => Qltb (t_at l (S i)) q end)
      then param_fwd ty l q n (S i) else i
  end.

(** The distance covered since a vertex, RM/RoadManager.cpp:13329-13339. *)
Definition time_s (v : vertex) (q : Q) : Q :=
  let dt := MAX 0 (q - v_time v) in
  let dt := if Qltb (v_acc v) 0 then MIN dt (- v_speed v / v_acc v) else dt in
  v_s v + dt * v_speed v + (1 # 2) * v_acc v * dt * dt.

(** The value of s and the index looked up by PolyLineShape::Evaluate, RM/RoadManager.cpp:13313-13345 (the shape has as many
    vertices as the polyline). *)
Definition shape_s (p : pline) (ty : ptype) (q : Q) : Q * nat :=
  let l := vertex_ p in
  let n := List.length l in
  if match ty with PARAM_S => Qltb (s_at l (n - 1)) q | PARAM_TIME => Qltb (t_at l (n - 1)) q end then (length_ p, (n - 1)%nat)
  else
    let i := param_fwd ty l q n 0 in
    (match ty with PARAM_S => q | PARAM_TIME => match nth_error l i with Some v => time_s v q | None => 0 end end, i).

(** PolyLineShape::Evaluate, RM/RoadManager.cpp:13303-13350. *)
Definition ShapeEvaluate (norm : Q -> Q) (diff : Q -> Q -> Q) (p : pline) (q : Q) (ty : ptype) (pos : vertex) : option (Z * vertex * pline) :=
  match vertex_ p with
  | [] => Some ((-1)%Z, pos, p)
  | _ =>
      let (s, i) := shape_s p ty q in
      option_map (fun '(_, v, p') => (0%Z, v, p')) (Evaluate norm diff p s pos (Some i))
  end.

(** ** The filter of vertices *)

Section Filter.
Variable dist : Q -> Q -> Q -> Q -> Q.
Variable diff : Q -> Q -> Q.

(** PolyLineShape::VerticesUnique, RM/RoadManager.cpp:12982-12996. *)
Definition VerticesUnique (a b : tvertex) (dist_threshold heading_threshold : Q) : bool :=
  if negb (tv_normal a) || negb (tv_normal b) then true
  else if Qltb (dist (tv_x a) (tv_y a) (tv_x b) (tv_y b)) (dist_threshold + SMALL) && Qltb (diff (tv_h a) (tv_h b)) (heading_threshold + SMALL)
  then false else true.

(** vertex_[i] = v, as at RM/RoadManager.cpp:13032. *)
Fixpoint upd (l : list tvertex) (i : nat) (v : tvertex) : list tvertex :=
  match l, i with
  | [], _ => []
  | _ :: r, O => v :: r
  | x :: r, S i => x :: upd r i v
  end.

(** vertex_[b].pos_->Duplicate( *vertex_[a].pos_), RM/RoadManager.cpp:13046: the position of a with the time of b. *)
Definition at_time (a : tvertex) (t : Q) : tvertex :=
  TVertex (tv_normal a) (tv_x a) (tv_y a) (tv_z a) (tv_h a) (tv_p a) (tv_prel a) (tv_r a) (tv_rrel a) (tv_mode a) (tv_track a) t.

(** The loop of PolyLineShape::FinalizeVertices, RM/RoadManager.cpp:13024-13060: the vertices and the indices a and b after it.
    [None] is an index out of bounds, or that [fuel] rounds were not enough. *)
Fixpoint filter_loop (fuel : nat) (radius : Q) (l : list tvertex) (a b c : nat) : option (list tvertex * nat * nat) :=
  match fuel with
  | O => None
  | S fuel =>
      if (c <? List.length l)%nat then
        match nth_error l a, nth_error l b, nth_error l c with
        | Some va, Some vb, Some vc =>
            if negb (VerticesUnique va vb radius (1 # 10)) then
              if negb (VerticesUnique va vc radius (1 # 10)) then filter_loop fuel radius (upd l b vc) a b (S c)
              else if Qltb (tv_time vc - tv_time va) (1 + SMALL) then filter_loop fuel radius (upd l (S a) vc) (S a) (S c) (S (S c))
              else
                let vb := at_time va (tv_time vb) in
                let l := upd (upd l b vb) (S a) vb in
                match nth_error l c with
                | Some vc => filter_loop fuel radius (upd l (S (S a)) vc) (S (S a)) (S c) (S (S c))
                | None => None
                end
            else filter_loop fuel radius (upd l (S a) vb) (S a) (S b) (S c)
        | _, _, _ => None
        end
      else Some (l, a, b)
  end.

(** The filter in PolyLineShape::FinalizeVertices, RM/RoadManager.cpp:13007-13070; [radius] is the value of option traj_filter. *)
Definition FinalizeVertices (radius : Q) (l : list tvertex) : option (list tvertex) :=
  if (2 <? List.length l)%nat && Qltb SMALL radius then
    match filter_loop (List.length l) radius l 0 1 2 with
    | None => None
    | Some (l, a, b) =>
        match nth_error l b with
        | Some vb => Some (firstn (S (S a)) (upd l (S a) vb))
        | None => Some (firstn (S a) l)
        end
    end
  else Some l.

End Filter.
