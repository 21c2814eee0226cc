(** * Where swarm traffic appears: ellipse, its triangles, those of the roads, and where they meet (OSCSwarmTrafficGeometry.cpp)

    [double] is idealised as [R]; a division by zero or a loop that does not end is [None].
    OT = EnvironmentSimulator/Modules/ScenarioEngine/OSCTypeDefs. *)
From Coq Require Import Reals Bool List.
From Verif Require Import AngModel TriModel.
Import ListNotations.
Open Scope R_scope.

Notation "'do' x <- e ; f" := (match e with Some x => f | None => None end) (at level 200, x pattern, e at level 100, f at level 200).

(** A division of C++ whose divisor must not be zero. *)
Definition div (x y : R) : option R := if Req_EM_T y 0 then None else Some (x / y).

(** Comparisons of double, true and false. *)
Definition leb (x y : R) : bool := negb (Rltb y x).
Definition eqb (x y : R) : bool := leb x y && leb y x.

(** ellipse, OT/OSCSwarmTrafficGeometry.cpp:40-46. *)
Definition ellipse (h k A SMjA SMnA x y : R) : R :=
  let e1 := ((x - h) * cos A + (y - k) * sin A) / SMjA in
  let e2 := ((x - h) * sin A - (y - k) * cos A) / SMnA in
  e1 ^ 2 + e2 ^ 2 - 1.

(** paramEllipse, OT/OSCSwarmTrafficGeometry.cpp:62-70. *)
Definition paramEllipse (alpha h k SMjA SMnA hdg : R) : point :=
  (SMjA * cos alpha * cos hdg - SMnA * sin alpha * sin hdg + h, SMjA * cos alpha * sin hdg + SMnA * sin alpha * cos hdg + k).

(** angleTangentEllipse, OT/OSCSwarmTrafficGeometry.cpp:81-88. *)
Definition angleTangentEllipse (SMjA SMnA alpha hdg : R) : R :=
  atan2 (SMjA * sin alpha * sin hdg - SMnA * cos alpha * cos hdg) (SMjA * sin alpha * cos hdg + SMnA * cos alpha * sin hdg).

(** tangentIntersection, OT/OSCSwarmTrafficGeometry.cpp:105-125, abs as that of double. *)
Definition tangentIntersection (p0 : point) (s0 t0 : R) (p1 : point) (s1 t1 : R) : option point :=
  let r0x := cos t0 in
  let r0y := sin t0 in
  do s <- (if Rltb (PI / 180) (Rabs (t1 - t0)) then
             let r1x := cos t1 in
             let r1y := sin t1 in
             let dPx := fst p1 - fst p0 in
             let dPy := snd p1 - snd p0 in
             div (dPy * r1x - dPx * r1y) (r1x * r0y - r0x * r1y)
           else Some (s1 - s0));
  Some (fst p0 + s * r0x, snd p0 + s * r0y).

(** class Triangle without its geometry, OT/OSCAABBTree.hpp:54-80; makeTriangleAndBbx, OT/OSCAABBTree.cpp:329-338, without the box. *)
Record triangle := Triangle { a : point; b : point; c : point; sI : R; sF : R }.
Definition corners (t : triangle) : point * point * point := (a t, b t, c t).

(** checkRange, OT/OSCSwarmTrafficGeometry.cpp:211-235; [sols] as points without heading: the erasing loop keeps the others in order. *)
Definition in_range (t : triangle) (p : point) : bool :=
  let '(xmin, xmax) := if Rltb (fst (b t)) (fst (a t)) then (fst (b t), fst (a t)) else (fst (a t), fst (b t)) in
  let '(ymin, ymax) := if Rltb (snd (b t)) (snd (a t)) then (snd (b t), snd (a t)) else (snd (a t), snd (b t)) in
  leb xmin (fst p) && leb (fst p) xmax && leb ymin (snd p) && leb (snd p) ymax.
Fixpoint erase_out (t : triangle) (sols : list point) : list point :=
  match sols with
  | [] => []
  | p :: r => if negb (in_range t p) then erase_out t r else p :: erase_out t r
  end.
Definition checkRange (t : triangle) (sols : list point) (pos : nat) : list point := firstn pos sols ++ erase_out t (skipn pos sols).

(** The variables of brent_zeros, OT/OSCSwarmTrafficGeometry.cpp:243-256. *)
Record brent := Brent { z_a : R; z_b : R; z_c : R; z_d : R; z_fa : R; z_fb : R; z_fc : R; z_flag : bool }.

(** The next guess, OT/OSCSwarmTrafficGeometry.cpp:259-270: s and flag; abs(delta) as that of double. *)
Definition guess (delta : R) (z : brent) : option (R * bool) :=
  let '(Brent a b c d fa fb fc flag) := z in
  do s <- (if negb (eqb fa fc) && negb (eqb fb fc) then
             do x <- div (a * fb * fc) ((fa - fb) * (fa - fc));
             do y <- div (b * fa * fc) ((fb - fa) * (fb - fc));
             do w <- div (c * fa * fb) ((fc - fa) * (fc - fb));
             Some (x + y + w)
           else do q <- div (fb * (b - a)) (fb - fa); Some (b - q));
  if (leb ((3 * a + b) / 4) s && leb s b) || (flag && leb (Rabs (b - c) / 2) (Rabs (s - b))) || (negb flag && leb (Rabs (c - d) / 2) (Rabs (s - b))) ||
     (flag && Rltb (Rabs (b - c)) (Rabs delta)) || (negb flag && Rltb (Rabs (c - d)) (Rabs delta))
  then Some ((a + b) / 2, true) else Some (s, false).

(** One turn of the loop, OT/OSCSwarmTrafficGeometry.cpp:257-288: the result or the variables for the next. *)
Definition turn (f : R -> R) (delta : R) (z : brent) : option (R + brent) :=
  do (s, flag) <- guess delta z;
  let '(Brent a b c d fa fb fc _) := z in
  let fs := f s in
  let d := c in
  let c := b in
  let '(a, b) := if Rltb (fa * fs) 0 then (a, s) else (s, b) in
  let '(a, b) := if Rltb (Rabs (f a)) (Rabs (f b)) then (b, a) else (a, b) in
  if eqb (f s) 0 || leb (Rabs (b - a)) SMALL_NUMBER then Some (inl s)
  else Some (inr (Brent a b c d (f a) (f b) (f c) flag)).

(** The loop. *)
Fixpoint turns (fuel : nat) (f : R -> R) (delta : R) (z : brent) : option R :=
  match fuel with
  | O => None
  | S fuel => do r <- turn f delta z; match r with inl s => Some s | inr z => turns fuel f delta z end
  end.

(** The variables before the loop, OT/OSCSwarmTrafficGeometry.cpp:245-254. *)
Definition brent_init (f : R -> R) (a b : R) : brent :=
  let '(fa, fb) := if Rltb (Rabs (f a)) (Rabs (f b)) then (f b, f a) else (f a, f b) in
  Brent a b a 0 fa fb (f a) true.

(** brent_zeros, OT/OSCSwarmTrafficGeometry.cpp:243-291: [Some None] is false, [Some (Some res)] true with res. *)
Definition brent_zeros (fuel : nat) (f : R -> R) (delta a b : R) : option (option R) :=
  if leb 0 (f a * f b) then Some None
  else do r <- turns fuel f delta (brent_init f a b); Some (Some r).

(** Geometry::EvaluateDS as called there, with x, y and the heading. *)
Definition geometry := R -> point * R.

(** geometryIntersect, OT/OSCSwarmTrafficGeometry.cpp:303-328: the solutions after the call and what it returns. *)
Definition geometryIntersect (fuel : nat) (g : geometry) (t : triangle) (h k A SMjA SMnA : R) (sol : list point) : option (list point * bool) :=
  let ellipseP := fun s => ellipse h k A SMjA SMnA (fst (fst (g s))) (snd (fst (g s))) in
  do r <- brent_zeros fuel ellipseP SMALL_NUMBER (sI t) (sF t);
  match r with
  | None => Some (sol, false)
  | Some res =>
      let pos := length sol in
      let sol := checkRange t (sol ++ [fst (g res)]) pos in
      Some (sol, Nat.ltb 0 (length sol - pos))
  end.

(** The search for the end of a segment, OT/OSCAABBTree.cpp:385-396: label s_1 with goto; [n] is 4 - count. *)
Fixpoint segment_end (n : nat) (g : geometry) (maxAngle s0 t0 s1 : R) : R :=
  match n with
  | O => s1
  | S n =>
      let t1 := snd (g s1) in
      if Rltb maxAngle (Rabs (t1 - t0)) then
        let dt := Rabs (t1 - t0) / (s1 - s0) in
        segment_end n g maxAngle s0 t0 (s0 + maxAngle / dt)
      else s1
  end.

(** aabbTree::curve2triangles, OT/OSCAABBTree.cpp:376-405. *)
Fixpoint curve_loop (fuel : nat) (g : geometry) (maxAngle ds len s0 : R) : option (list triangle) :=
  if Rltb s0 len then
    match fuel with
    | O => None
    | S fuel =>
        let '(p0, t0) := g s0 in
        let s1 := segment_end 4 g maxAngle s0 t0 (Rmin (s0 + ds) len) in
        let '(p1, t1) := g s1 in
        do p2 <- tangentIntersection p0 s0 t0 p1 s1 t1;
        do l <- curve_loop fuel g maxAngle ds len s1;
        Some (Triangle p0 p1 p2 s0 s1 :: l)
    end
  else Some [].
Definition curve2triangles (fuel : nat) (g : geometry) (len segmSize maxAngle : R) : option (list triangle) :=
  curve_loop fuel g maxAngle (Rmin segmSize len) len 0.

(** The triangle of a piece of a straight line, SwarmTrafficAction::createRoadSegments, OT/OSCGlobalAction.cpp:493-508. *)
Definition line_triangle (g : geometry) (dist ds : R) : triangle :=
  let '(x0, y0) := fst (g dist) in
  let '(x1, y1) := fst (g ds) in
  let l := sqrt ((x1 - x0) ^ 2 + (y1 - y0) ^ 2) in
  Triangle (x0, y0) (x1, y1) ((x1 + x0) / 2 + l / 4, (y1 + y0) / 2 + l / 4) dist ds.

(** The loop over a straight line, OT/OSCGlobalAction.cpp:487-512. *)
Fixpoint line_loop (fuel : nat) (g : geometry) (minSize len dist : R) : option (list triangle) :=
  if Rltb dist len then
    match fuel with
    | O => None
    | S fuel =>
        let ds := dist + minSize in
        let ds := if Rltb len ds then len else ds in
        do l <- line_loop fuel g minSize len ds;
        Some (line_triangle g dist ds :: l)
    end
  else Some [].

(** What createRoadSegments does with one geometry, OT/OSCGlobalAction.cpp:481-520; [s] is GetS(). *)
Inductive kind := UNKNOWN | LINE | CURVE.
Definition road_segments (fuel : nat) (k : kind) (g : geometry) (s len minSize : R) : option (list triangle) :=
  match k with
  | UNKNOWN => Some []
  | LINE => line_loop fuel g minSize len s
  | CURVE => curve2triangles fuel g len minSize (PI / 36)
  end.

(** SwarmTrafficAction::createEllipseSegments, OT/OSCGlobalAction.cpp:524-553; [h], [k], [hdg] is the position of the central object.  The parameters of
    the triangle are those of the ellipse (the code leaves them 0). *)
Fixpoint ellipse_loop (fuel : nat) (SMjA SMnA h k hdg alpha : R) : option (list triangle) :=
  if Rltb alpha (2 * PI - PI / 72) then
    match fuel with
    | O => None
    | S fuel =>
        let da := alpha + PI / 36 in
        let da := if Rltb (2 * PI - PI / 72) da then 2 * PI - PI / 72 else da in
        let p0 := paramEllipse alpha h k SMjA SMnA hdg in
        let p1 := paramEllipse da h k SMjA SMnA hdg in
        let theta0 := angleTangentEllipse SMjA SMnA alpha hdg in
        let theta1 := angleTangentEllipse SMjA SMnA da hdg in
        do p2 <- tangentIntersection p0 alpha theta0 p1 da theta1;
        do l <- ellipse_loop fuel SMjA SMnA h k hdg da;
        Some (Triangle p0 p1 p2 alpha da :: l)
    end
  else Some [].
Definition createEllipseSegments (fuel : nat) (SMjA SMnA h k hdg : R) : option (list triangle) := ellipse_loop fuel SMjA SMnA h k hdg (- PI / 72).

(** Radii and the size of segments, SwarmTrafficAction::Start, OT/OSCGlobalAction.cpp:379-389. *)
Definition mid (semiAxis innerRadius : R) : R := (semiAxis + innerRadius) / 2.
