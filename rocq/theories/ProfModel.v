(** * Speed profiles (LongSpeedProfileAction, OSCPrivateAction.cpp)

    [double] is idealised as [R], vectors as lists, [cur_index_] as [nat].  A result [None] is an access outside a vector (segment_.back() of an empty
    vector, (vertex.rbegin() + 1) of a vector with one element), a division by zero whose result is used, or the square root of a negative number.
    The object is present (object_ not null); its speed and acceleration and the speed of the reference entity (0 without one) are arguments.
    OT = EnvironmentSimulator/Modules/ScenarioEngine/OSCTypeDefs, CM = EnvironmentSimulator/Modules/CommonMini,
    SE = EnvironmentSimulator/Modules/ScenarioEngine/SourceFiles. *)
From Coq Require Import Reals Bool List Arith.
From Verif Require Import AngModel GeoModel TransModel.
Import ListNotations.
Open Scope R_scope.

(** class DynamicConstraints with its constructor, OT/OSCPrivateAction.hpp:36-53. *)
Record limits := Limits { max_acc : R; max_acc_rate : R; max_dec : R; max_dec_rate : R; max_speed : R }.
Definition no_limits : limits := Limits LARGE_NUMBER LARGE_NUMBER LARGE_NUMBER LARGE_NUMBER LARGE_NUMBER.

(** FollowingMode; class Entry (time -1 without the attribute, SE/ScenarioReader.cpp:2868-2875), class EntryVertex, SpeedSegment:
    OT/OSCPrivateAction.hpp:306-346. *)
Inductive follow_mode := POSITION | FOLLOW.
Definition is_follow (m : follow_mode) : bool := match m with FOLLOW => true | POSITION => false end.
Record entry := Entry { e_time : R; e_speed : R }.
Record vertex := Vertex { x_t : R; x_v : R; x_k : R; x_m : R }.
Record segment := Segment { g_t : R; g_v : R; g_k : R; g_j : R }.

(** SetK and the constructors of EntryVertex, OT/OSCPrivateAction.hpp:326-338. *)
Definition SetK (x : vertex) (k : R) : vertex := Vertex (x_t x) (x_v x) k (x_v x - k * x_t x).
Definition vertex2 (t v : R) : vertex := Vertex t v 0 0.
Definition vertex3 (t v k : R) : vertex := Vertex t v k (v - k * t).

(** The action, OT/OSCPrivateAction.hpp:348-353, with speed_ and whether it has ended. *)
Record action := Action { a_entries : list entry; a_mode : follow_mode; a_limits : limits; a_segments : list segment; a_cur : nat; a_speed : R; a_ended : bool }.

(** A division, and the square root, of OT/OSCPrivateAction.cpp:1328-1679. *)
Definition div (x y : R) : option R := if Reqb y 0 then None else Some (x / y).
Definition root (x : R) : option R := if Rltb x 0 then None else Some (sqrt x).
Notation "'let*' x := e 'in' f" := (match e with Some x => f | None => None end) (at level 200, x name, e at level 100, f at level 200).

(** IS_IN_SPAN, CM/CommonMini.hpp:66, for the accelerations allowed. *)
Definition allowed (L : limits) (k : R) : bool := negb (Rltb k (- max_dec L)) && negb (Rltb (max_acc L) k).

(** One entry of the loop OT/OSCPrivateAction.cpp:1373-1453, index [i] of [n]; the vertices in reversed order (the head is vertex.back()), and time.
    (The slope of the first two is compared with the initial acceleration without effect, 1433-1436.)
    A time of zero gives an infinite acceleration, which is out of bounds, or none at all if there is no change of speed (0 / 0). *)
Definition filter_entry (L : limits) (offset : R) (n i : nat) (e : entry) (vs : list vertex) (time : R) : option (list vertex * R) :=
  match vs with
  | [] => None
  | b :: older =>
      let dt := e_time e in
      let target := e_speed e + offset in
      let dv := target - x_v b in
      let missing := Rltb dt (- SMALL_NUMBER) in
      let wanted := div dv dt in
      let out := missing || match wanted with
                            | Some k => Rltb k (- max_dec L) || Rltb (max_acc L) k
                            | None => negb (Reqb dv 0)
                            end in
      if out && Rltb (Rabs dv) SMALL_NUMBER then Some (vs, time)
      else
        let k_tmp :=
          if out then
            if missing then (if Rltb dv 0 then Some (RMIN (- SMALL_NUMBER) (- max_dec L)) else Some (RMAX SMALL_NUMBER (max_acc L)))
            else match wanted with
                 | Some k => if Rltb k 0 then Some (RMAX k (- max_dec L)) else Some (RMIN k (max_acc L))
                 | None => if Rltb dv 0 then Some (- max_dec L) else Some (max_acc L)
                 end
          else wanted in
        let b' := if out then Vertex time (x_v b) (x_k b) (x_m b) else b in
        let* time' := if out then let* k := k_tmp in let* d := div dv k in Some (time + d) else Some (time + dt) in
        if (i <? n - 1)%nat && Rltb dt SMALL_NUMBER then Some (vertex2 time' target :: older, time')
        else
          let* k := k_tmp in
          let b'' := SetK b' k in
          let push := (if (i =? n - 1)%nat then vertex3 time' target 0 else vertex2 time' target) :: b'' :: older in
          if (1 <? i)%nat then
            match older with
            | [] => None
            | p :: _ =>
                if Rltb (Rabs (k - x_k p)) SMALL_NUMBER then
                  let* new_k := div (target - x_v p) (time' - x_t p) in
                  Some (vertex3 time' target new_k :: older, time')
                else Some (push, time')
            end
          else Some (push, time')
  end.

(** The loop, OT/OSCPrivateAction.cpp:1373-1453. *)
Fixpoint filter_entries (L : limits) (offset : R) (n i : nat) (es : list entry) (vs : list vertex) (time : R) : option (list vertex) :=
  match es with
  | [] => Some (rev vs)
  | e :: rest => let* p := filter_entry L offset n i e vs time in filter_entries L offset n (S i) rest (fst p) (snd p)
  end.

(** The first vertex and index, then the loop: OT/OSCPrivateAction.cpp:1340-1453. *)
Definition vertices (L : limits) (m : follow_mode) (es : list entry) (offset speed t0 : R) : option (list vertex) :=
  match es with
  | [] => None
  | e :: rest =>
      let n := List.length es in
      if Rltb SMALL_NUMBER (e_time e) then filter_entries L offset n 0 es [vertex2 t0 speed] t0
      else if Rltb (- SMALL_NUMBER) (e_time e) then
        if is_follow m then filter_entries L offset n 1 rest [vertex2 t0 speed] t0
        else filter_entries L offset n 0 es [vertex2 t0 (e_speed e)] t0
      else filter_entries L offset n 0 es [vertex2 t0 speed] t0
  end.

(** CheckAcceleration, CheckAccelerationRate, CheckSpeed: OT/OSCPrivateAction.cpp:1714-1766. *)
Definition outside (x lo hi : R) : bool := Rltb (hi + SMALL_NUMBER) x || Rltb x (- lo - SMALL_NUMBER).
Definition CheckAcceleration (L : limits) (m : follow_mode) (acc : R) : follow_mode := if outside acc (max_dec L) (max_acc L) then POSITION else m.
Definition CheckAccelerationRate (L : limits) (m : follow_mode) (rate : R) : follow_mode := if outside rate (max_dec_rate L) (max_acc_rate L) then POSITION else m.
Definition CheckSpeed (L : limits) (m : follow_mode) (v : R) : follow_mode := if outside v (max_speed L) (max_speed L) then POSITION else m.

(** AddSpeedSegment, OT/OSCPrivateAction.cpp:1781-1787, on following_mode_ and segment_. *)
Definition AddSpeedSegment (L : limits) (a : follow_mode * list segment) (t v k j : R) : follow_mode * list segment :=
  (CheckAccelerationRate L (CheckAcceleration L (CheckSpeed L (fst a) v) k) j, snd a ++ [Segment t v k j]).

(** The jerk towards slope [k] from slope [k0], OT/OSCPrivateAction.cpp:1475, 1613, 1643. *)
Definition jerk (L : limits) (k k0 : R) : R := if Rltb (k - k0) 0 then - max_dec_rate L else max_acc_rate L.

(** A single target in follow mode, OT/OSCPrivateAction.cpp:1470-1604: what the first part finds is the segments so far with k1, t2, v2 and t3
    (0, 0, 0 and the wanted time where no solution is found). *)
Definition single_plan (L : limits) (a : follow_mode * list segment) (k0 j0 j1 t0 v0 t3 v3 : R) : option ((follow_mode * list segment) * (R * R * R * R)) :=
  if Rltb (Rabs (j1 - j0)) SMALL_NUMBER then
    if Rltb SMALL_NUMBER (Rabs (t0 - t3)) && Rltb SMALL_NUMBER (Rabs (j1 * (t0 - t3) - k0)) then
      let* t1 := div (2 * j1 * (v0 + t0 * j1 * (t0 - t3) - v3) + k0 * k0 + 2 * k0 * j1 * (t3 - 2 * t0)) (2 * j1 * (j1 * (t0 - t3) - k0)) in
      if Rltb t1 0 then Some (a, (0, 0, 0, t3))
      else
        let v1 := v0 + k0 * (t1 - t0) + j0 * (1 / 2) * ((t1 - t0) * (t1 - t0)) in
        let k1 := k0 + j0 * (t1 - t0) in
        let* q := div k1 j1 in
        let t2 := q + t3 in
        if Rltb t2 0 then Some (a, (k1, t2, 0, t3))
        else
          let v2 := v1 + k1 * (t2 - t1) in
          Some (if Rltb k1 (max_acc L) && Rltb (- max_dec L) k1 then AddSpeedSegment L a t1 v1 k1 0 else a, (k1, t2, v2, t3))
    else Some (a, (0, 0, 0, t3))
  else
    let factor := j0 * j1 * (2 * v0 * (j1 - j0) + k0 * k0 + 2 * k0 * j1 * (t3 - t0) + j0 * j1 * ((t0 - t3) * (t0 - t3)) + 2 * v3 * (j0 - j1)) in
    if Rltb factor 0 then
      let* s := root (j1 * (- (j0 - j1)) * (j0 * (2 * v3 - 2 * v0) + k0 * k0)) in
      let* t2 := div (s + (j0 - j1) * (t0 * j0 - k0)) (j0 * (j0 - j1)) in
      let v2 := v0 + k0 * (t2 - t0) + j0 * (1 / 2) * ((t2 - t0) * (t2 - t0)) in
      let k1 := k0 + j0 * (t2 - t0) in
      let* q := div k1 j1 in
      Some (a, (k1, t2, v2, t2 - q))
    else
      let* t1 := div (- sqrt factor - j0 * (k0 + t3 * j1) + t0 * (j0 * j0)) (j0 * (j0 - j1)) in
      let v1 := v0 + k0 * (t1 - t0) + j0 * (1 / 2) * ((t1 - t0) * (t1 - t0)) in
      let k1 := k0 + j0 * (t1 - t0) in
      let* q := div k1 j1 in
      let t2 := q + t3 in
      let v2 := v1 + k1 * (t2 - t1) in
      Some (if allowed L k1 then AddSpeedSegment L a t1 v1 k1 0 else a, (k1, t2, v2, t3)).

(** The rest of it, OT/OSCPrivateAction.cpp:1569-1604. *)
Definition single_target (L : limits) (m : follow_mode) (k0 : R) (x y : vertex) : option (follow_mode * list segment) :=
  let j0 := jerk L (x_k x) k0 in
  let a := AddSpeedSegment L (m, []) (x_t x) (x_v x) k0 j0 in
  let j1 := if Rltb (x_k x) 0 then max_acc_rate L else - max_dec_rate L in
  let t0 := x_t x in let v0 := x_v x in let v3 := x_v y in
  let* p := single_plan L a k0 j0 j1 t0 v0 (x_t y) v3 in
  let '(a, (k1, t2, v2, t3)) := p in
  if allowed L k1 then Some (AddSpeedSegment L (AddSpeedSegment L a t2 v2 k1 j1) t3 v3 0 0)
  else
    let k1 := if Rltb (max_acc L) k1 then max_acc L else if Rltb k1 (- max_dec L) then - max_dec L else k1 in
    let* d := div (k1 - k0) j0 in
    let t1 := t0 + d in
    let v1 := v0 + k0 * (t1 - t0) + 1 / 2 * j0 * ((t1 - t0) * (t1 - t0)) in
    let* q := div (v3 - v1) k1 in
    let* h := div k1 (2 * j1) in
    let* w := div (k1 * k1) (2 * j1) in
    let t2 := q + t1 + h in
    let v2 := v3 + w in
    let t3 := - v1 / k1 + v3 / k1 + t1 - h in
    Some (AddSpeedSegment L (AddSpeedSegment L (AddSpeedSegment L a t1 v1 k1 0) t2 v2 k1 j1) t3 v3 0 0).

(** The first segments in follow mode, OT/OSCPrivateAction.cpp:1609-1625: the segments, t3, v3, k1 and m1. *)
Definition follow_start (L : limits) (m : follow_mode) (k0 t_init : R) (x : vertex) : (follow_mode * list segment) * (R * R * R * R) :=
  let moving := Rltb SMALL_NUMBER (Rabs (x_k x)) in
  let j := if moving then jerk L (x_k x) k0 else 0 in
  let a := if moving then AddSpeedSegment L (m, []) (x_t x) (x_v x) k0 j else (m, []) in
  let t3 := if moving then x_t x + (if Rltb SMALL_NUMBER (Rabs j) then (x_k x - k0) / j else 0) else x_t x in
  let v3 := x_v x + k0 * (t3 - t_init) + 1 / 2 * j * ((t3 - t_init) * (t3 - t_init)) in
  let k1 := x_k x in
  (AddSpeedSegment L a t3 v3 k1 0, (t3, v3, k1, v3 - k1 * t3)).

(** The loop OT/OSCPrivateAction.cpp:1627-1673 from index [i], on the vertices from there. *)
Fixpoint vertex_loop (L : limits) (xs : list vertex) (a : follow_mode * list segment) (s : R * R * R * R) : option (follow_mode * list segment) :=
  match xs with
  | [] => Some a
  | x :: rest =>
      if is_follow (fst a) then
        match rest with
        | [] => Some a
        | y :: _ =>
            let '(t0, v0, k0, m0) := s in
            let k1 := x_k y in
            let m1 := x_m y in
            let j := jerk L k1 k0 in
            if Rltb (Rabs (k0 - k1)) SMALL_NUMBER then
              vertex_loop L rest (AddSpeedSegment L a t0 v0 k1 0) (t0, v0, k1, m1)
            else
              let* t1 := div (k0 * k0 - 2 * k0 * k1 + k1 * k1 - 2 * j * (m0 - m1)) (2 * j * (k0 - k1)) in
              if Rltb t1 t0 then vertex_loop L rest (POSITION, snd a) (t0, v0, k1, m1)
              else
                let v1 := v0 + k0 * (t1 - t0) in
                let t3 := t1 + (k1 - k0) / j in
                let v3 := v1 + k0 * (t3 - t1) + 1 / 2 * j * ((t3 - t1) * (t3 - t1)) in
                vertex_loop L rest (AddSpeedSegment L (AddSpeedSegment L a t1 v1 k0 j) t3 v3 k1 0) (t3, v3, k1, m1)
        end
      else vertex_loop L rest (AddSpeedSegment L a (x_t x) (x_v x) (x_k x) 0) s
  end.

(** The segments from the vertices, OT/OSCPrivateAction.cpp:1455-1675. *)
Definition segments (L : limits) (m : follow_mode) (k0 t_init : R) (xs : list vertex) : option (follow_mode * list segment) :=
  match xs with
  | [] => None
  | [x] => Some (AddSpeedSegment L (m, []) (x_t x) (x_v x) 0 0)
  | x :: y :: rest =>
      if is_follow m then
        match rest with
        | [] => single_target L m k0 x y
        | _ => let '(a, s) := follow_start L m k0 t_init x in vertex_loop L xs a s
        end
      else vertex_loop L xs (m, []) (0, 0, 0, 0)
  end.

(** LongSpeedProfileAction::Start, OT/OSCPrivateAction.cpp:1328-1679. *)
Definition Start (a : action) (offset speed acc0 t0 : R) : option action :=
  match a_entries a with
  | [] => Some a
  | es =>
      let* xs := vertices (a_limits a) (a_mode a) es offset speed t0 in
      let* p := segments (a_limits a) (a_mode a) acc0 t0 xs in
      Some (Action es (fst p) (a_limits a) (snd p) 0 speed false)
  end.

(** The loop OT/OSCPrivateAction.cpp:1687-1691: how many of the segments after the current one have been passed. *)
Fixpoint passed (l : list segment) (time : R) : nat :=
  match l with
  | [] => 0
  | s :: rest => if Rltb (g_t s - SMALL_NUMBER) time then S (passed rest time) else 0
  end.

(** The speed of a segment, OT/OSCPrivateAction.cpp:1695. *)
Definition speed_at (s : segment) (time : R) : R := g_v s + g_k s * (time - g_t s) + 1 / 2 * g_j s * ((time - g_t s) * (time - g_t s)).

(** LongSpeedProfileAction::Step without elapsed_, OT/OSCPrivateAction.cpp:1681-1712; [time] is simTime + dt.  (Without entries there are no
    segments, so entry_.size() - 1 does not wrap.) *)
Definition ProfileStep (a : action) (time : R) : option action :=
  match rev (a_segments a) with
  | [] => None
  | z :: _ =>
      let update := Rltb time (g_t z + 10) && negb (Rltb (g_t z) time && Rltb (Rabs (a_speed a - g_v z)) SMALL_NUMBER) in
      let cur := if update then (a_cur a + passed (skipn (S (a_cur a)) (a_segments a)) time)%nat else a_cur a in
      let* s := nth_error (a_segments a) cur in
      let speed := if update then (if NEAR_ZERO (speed_at s time) then 0 else speed_at s time) else a_speed a in
      if (List.length (a_entries a) <=? S cur)%nat && Rltb (Rabs (speed - g_v z)) SMALL_NUMBER
      then Some (Action (a_entries a) (a_mode a) (a_limits a) (a_segments a) cur (g_v z) true)
      else Some (Action (a_entries a) (a_mode a) (a_limits a) (a_segments a) cur speed (a_ended a))
  end.

(** Copy, OT/OSCPrivateAction.hpp:379-398: the constraints are those of a new action. *)
Definition Copy (a : action) : action := Action (a_entries a) (a_mode a) no_limits (a_segments a) (a_cur a) (a_speed a) false.
