(** Plane geometry: specification and lemmas. *)
From Coq Require Import Reals Bool Lra Lia Psatz.
From Verif Require Import AngModel AngProofs GeoModel.
Open Scope R_scope.

(** ** Specification *)

(** The point with parameter t on the line through two points. *)
Definition at_line (x1 y1 x2 y2 t x y : R) : Prop := x = x1 + t * (x2 - x1) /\ y = y1 + t * (y2 - y1).
Definition on_line (x1 y1 x2 y2 x y : R) : Prop := exists t, at_line x1 y1 x2 y2 t x y.
Definition on_segment (x1 y1 x2 y2 x y : R) : Prop := exists t, 0 <= t <= 1 /\ at_line x1 y1 x2 y2 t x y.

(** Euclidean distance. *)
Definition dist (x0 y0 x1 y1 : R) : R := sqrt ((x0 - x1) * (x0 - x1) + (y0 - y1) * (y0 - y1)).

(** The points are not closer than the tolerance in both coordinates. *)
Definition apart (x1 y1 x2 y2 : R) : Prop := SMALL_NUMBER <= Rabs (x2 - x1) \/ SMALL_NUMBER <= Rabs (y2 - y1).

(** ** Helpers *)

Lemma pos2 : forall x y, (x <> 0 \/ y <> 0) -> 0 < x * x + y * y.
Proof.
  intros x y H. pose proof (Rle_0_sqr x) as A. pose proof (Rle_0_sqr y) as B. unfold Rsqr in *.
  destruct H as [H|H]; apply Rsqr_pos_lt in H; unfold Rsqr in H; lra.
Qed.

Lemma apart_pos : forall x1 y1 x2 y2, apart x1 y1 x2 y2 -> 0 < (y2 - y1) * (y2 - y1) + (x2 - x1) * (x2 - x1).
Proof.
  intros x1 y1 x2 y2 H. pose proof small_pos.
  assert (N : (x2 - x1) <> 0 \/ (y2 - y1) <> 0).
  { destruct H as [H|H]; [left|right]; intros E; rewrite E, Rabs_R0 in H; lra. }
  rewrite Rplus_comm. apply pos2. auto.
Qed.

Lemma apart_test : forall x1 y1 x2 y2, apart x1 y1 x2 y2 ->
  Rltb (Rabs (x2 - x1)) SMALL_NUMBER && Rltb (Rabs (y2 - y1)) SMALL_NUMBER = false.
Proof.
  intros x1 y1 x2 y2 [H|H]; apply Rltb_false in H; rewrite H; [auto|apply andb_false_r].
Qed.

Lemma dist_sym : forall x0 y0 x1 y1, dist x0 y0 x1 y1 = dist x1 y1 x0 y0.
Proof. intros. unfold dist. f_equal. ring. Qed.

Lemma pd_dist : forall x0 y0 x1 y1, PointDistance2D x0 y0 x1 y1 = dist x0 y0 x1 y1.
Proof. intros. unfold PointDistance2D, dist. f_equal. ring. Qed.

Lemma dist_le : forall a b c d x y z w,
  (a - c) * (a - c) + (b - d) * (b - d) <= (x - z) * (x - z) + (y - w) * (y - w) -> dist a b c d <= dist x y z w.
Proof. intros. unfold dist. apply sqrt_le_1_alt. lra. Qed.

(** ** Intersection of two lines *)

Lemma intersection_sound : forall ax1 ay1 ax2 ay2 bx1 by1 bx2 by2 x y,
  GetIntersectionOfTwoLineSegments ax1 ay1 ax2 ay2 bx1 by1 bx2 by2 = Some (x, y) ->
  on_line ax1 ay1 ax2 ay2 x y /\ on_line bx1 by1 bx2 by2 x y /\
  forall x' y', on_line ax1 ay1 ax2 ay2 x' y' -> on_line bx1 by1 bx2 by2 x' y' -> x' = x /\ y' = y.
Proof.
  intros ax1 ay1 ax2 ay2 bx1 by1 bx2 by2 x y H. unfold GetIntersectionOfTwoLineSegments in H.
  set (D := (ax1 - ax2) * (by1 - by2) - (ay1 - ay2) * (bx1 - bx2)) in *.
  destruct (Rltb (Rabs D) SMALL_NUMBER) eqn:E; [discriminate|]. apply Rltb_false in E. pose proof small_pos.
  assert (N : D <> 0) by (intros N; rewrite N, Rabs_R0 in E; lra).
  set (t := ((ax1 - bx1) * (by1 - by2) - (ay1 - by1) * (bx1 - bx2)) / D) in *.
  assert (T : t * D = (ax1 - bx1) * (by1 - by2) - (ay1 - by1) * (bx1 - bx2)) by (unfold t; field; auto).
  injection H as <- <-.
  set (u := - ((ax1 - ax2) * (ay1 - by1) - (ay1 - ay2) * (ax1 - bx1)) / D).
  assert (U : u * D = - ((ax1 - ax2) * (ay1 - by1) - (ay1 - ay2) * (ax1 - bx1))) by (unfold u; field; auto).
  split; [exists t; split; auto|]. split.
  - exists u. split; apply (Rmult_eq_reg_r D); auto; rewrite !Rmult_plus_distr_r.
    + replace (t * (ax2 - ax1) * D) with (t * D * (ax2 - ax1)) by ring.
      replace (u * (bx2 - bx1) * D) with (u * D * (bx2 - bx1)) by ring. rewrite T, U. unfold D. ring.
    + replace (t * (ay2 - ay1) * D) with (t * D * (ay2 - ay1)) by ring.
      replace (u * (by2 - by1) * D) with (u * D * (by2 - by1)) by ring. rewrite T, U. unfold D. ring.
  - intros x' y' (t' & X1 & Y1) (u' & X2 & Y2).
    assert (TT : t' = t).
    { apply (Rmult_eq_reg_r D); auto. rewrite T. rewrite X1 in X2. rewrite Y1 in Y2.
      assert (A : t' * (ax2 - ax1) = bx1 - ax1 + u' * (bx2 - bx1)) by lra.
      assert (B : t' * (ay2 - ay1) = by1 - ay1 + u' * (by2 - by1)) by lra.
      replace (t' * D) with ((t' * (ax2 - ax1)) * (by2 - by1) - (t' * (ay2 - ay1)) * (bx2 - bx1)) by (unfold D; ring).
      rewrite A, B. ring. }
    subst t'. auto.
Qed.

Lemma intersection_parallel : forall ax1 ay1 ax2 ay2 bx1 by1 bx2 by2,
  GetIntersectionOfTwoLineSegments ax1 ay1 ax2 ay2 bx1 by1 bx2 by2 = None <->
  Rabs ((ax2 - ax1) * (by2 - by1) - (ay2 - ay1) * (bx2 - bx1)) < SMALL_NUMBER.
Proof.
  intros. unfold GetIntersectionOfTwoLineSegments.
  replace ((ax1 - ax2) * (by1 - by2) - (ay1 - ay2) * (bx1 - bx2))
    with ((ax2 - ax1) * (by2 - by1) - (ay2 - ay1) * (bx2 - bx1)) by ring.
  rcase; split; intros; auto; try discriminate; lra.
Qed.

(** ** Line and circle *)

Definition on_circle (cx cy r x y : R) : Prop := (x - cx) * (x - cx) + (y - cy) * (y - cy) = r * r.

Section Circle.
Variables p0x p0y p1x p1y cx cy r : R.
Let dx := p1x - p0x.
Let dy := p1y - p0y.
Let A := dx * dx + dy * dy.
Let B := 2 * (dx * (p0x - cx) + dy * (p0y - cy)).
Let C := (p0x - cx) * (p0x - cx) + (p0y - cy) * (p0y - cy) - r * r.
Let D := B * B - 4 * A * C.

Lemma circle_quadratic : forall t,
  (p0x + t * dx - cx) * (p0x + t * dx - cx) + (p0y + t * dy - cy) * (p0y + t * dy - cy) - r * r = A * t * t + B * t + C.
Proof. intros t. unfold A, B, C. ring. Qed.

Lemma circle_square : forall t, 4 * A * (A * t * t + B * t + C) = (2 * A * t + B) * (2 * A * t + B) - D.
Proof. intros t. unfold D. ring. Qed.

Lemma circle_hits_spec : 0 < A ->
  match GetIntersectionsOfLineAndCircle p0x p0y p1x p1y cx cy r with
  | None => D = - SMALL_NUMBER
  | Some NoHit => forall x y, on_line p0x p0y p1x p1y x y -> ~ on_circle cx cy r x y
  | Some (OneHit (x, y)) =>
      on_line p0x p0y p1x p1y x y /\
      Rabs ((x - cx) * (x - cx) + (y - cy) * (y - cy) - r * r) * (4 * A) < SMALL_NUMBER /\
      (forall x' y', on_line p0x p0y p1x p1y x' y' -> dist x y cx cy <= dist x' y' cx cy)
  | Some (TwoHits (x, y) (x', y')) =>
      (x, y) <> (x', y') /\
      forall u v, (on_line p0x p0y p1x p1y u v /\ on_circle cx cy r u v) <-> (u, v) = (x, y) \/ (u, v) = (x', y')
  end.
Proof.
  intros AP. unfold GetIntersectionsOfLineAndCircle. fold dx dy. fold A B C. fold D. pose proof small_pos as SP.
  assert (NA : A <> 0) by lra.
  rcase.
  - intros x y (t & -> & ->) H. unfold on_circle in H. fold dx dy in H. pose proof (circle_quadratic t) as Q. pose proof (circle_square t) as S.
    assert (A * t * t + B * t + C = 0) by lra. rewrite H0 in S. pose proof (Rle_0_sqr (2 * A * t + B)) as P. unfold Rsqr in P. lra.
  - replace (Reqb A 0) with false by (symmetry; unfold Reqb; destruct (Req_EM_T A 0); auto; lra).
    rewrite Rminus_0_r. rcase.
    + set (t := - B / (2 * A)). assert (T : 2 * A * t + B = 0) by (unfold t; field; lra).
      split; [exists t; split; reflexivity|]. split.
      * rewrite circle_quadratic. pose proof (circle_square t) as S. rewrite T in S.
        replace (4 * A) with (Rabs (4 * A)) by (apply Rabs_right; lra). rewrite <- Rabs_mult, Rmult_comm, S.
        replace (0 * 0 - D) with (- D) by ring. now rewrite Rabs_Ropp.
      * intros x' y' (t' & -> & ->). apply dist_le. fold dx dy.
        pose proof (circle_quadratic t) as Q. pose proof (circle_quadratic t') as Q'. pose proof (circle_square t) as S.
        pose proof (circle_square t') as S'. rewrite T in S. pose proof (Rle_0_sqr (2 * A * t' + B)) as P. unfold Rsqr in P.
        assert (4 * A * (A * t * t + B * t + C) <= 4 * A * (A * t' * t' + B * t' + C)) by lra.
        apply Rmult_le_reg_l in H; lra.
    + rcase; [revert E0; unfold Rabs; destruct (Rcase_abs D); lra|].
      assert (DP : 0 < D). { revert E0. unfold Rabs. destruct (Rcase_abs D); lra. }
      set (s := sqrt D). assert (SS : s * s = D) by (apply sqrt_sqrt; lra). assert (SPos : 0 < s) by (apply sqrt_lt_R0; auto).
      set (t1 := (- B + s) / (2 * A)). set (t2 := (- B - s) / (2 * A)).
      assert (T1 : 2 * A * t1 = - B + s) by (unfold t1; field; lra). assert (T2 : 2 * A * t2 = - B - s) by (unfold t2; field; lra).
      assert (NT : t1 <> t2) by (intros N; rewrite N in T1; lra).
      assert (ND : dx <> 0 \/ dy <> 0).
      { destruct (Req_dec dx 0) as [Z|Z]; [|auto]. destruct (Req_dec dy 0) as [Z'|Z']; [|auto]. unfold A in AP. rewrite Z, Z' in AP. lra. }
      split.
      * intros N. injection N as N1 N2. destruct ND as [Z|Z]; apply NT.
        -- apply (Rmult_eq_reg_r dx); auto. lra.
        -- apply (Rmult_eq_reg_r dy); auto. lra.
      * assert (Z : forall t, A * t * t + B * t + C = 0 <-> t = t1 \/ t = t2).
        { intros t. pose proof (circle_square t) as S. split.
          - intros H. rewrite H in S. assert (F : (2 * A * t + B - s) * (2 * A * t + B + s) = 0) by (rewrite <- SS in S; lra).
            apply Rmult_integral in F. destruct F as [F|F]; [left|right]; apply (Rmult_eq_reg_l (2 * A)); lra.
          - intros H. apply (Rmult_eq_reg_l (4 * A)); [|lra]. rewrite S, <- SS, Rmult_0_r.
            destruct H as [-> | ->]; [rewrite T1|rewrite T2]; ring. }
        intros u v. split.
        -- intros ((t & -> & ->) & H). unfold on_circle in H. fold dx dy in H. pose proof (circle_quadratic t) as Q. fold dx dy.
           assert (H0 : A * t * t + B * t + C = 0) by lra. apply Z in H0. destruct H0 as [-> | ->]; auto.
        -- intros H.
           assert (G : forall t, (u, v) = (p0x + t * dx, p0y + t * dy) -> t = t1 \/ t = t2 ->
             on_line p0x p0y p1x p1y u v /\ on_circle cx cy r u v).
           { intros t Hu Ht. injection Hu as -> ->. split; [exists t; split; reflexivity|]. unfold on_circle.
             pose proof (circle_quadratic t) as Q. apply Z in Ht. lra. }
           destruct H as [H|H]; [apply (G t1)|apply (G t2)]; auto.
Qed.

End Circle.

(** The discriminant of the quadratic equation: four times (radius^2 length^2 - cross product^2). *)
Definition discriminant (p0x p0y p1x p1y cx cy r : R) : R :=
  4 * (r * r * ((p1x - p0x) * (p1x - p0x) + (p1y - p0y) * (p1y - p0y))
       - ((p1x - p0x) * (p0y - cy) - (p1y - p0y) * (p0x - cx)) * ((p1x - p0x) * (p0y - cy) - (p1y - p0y) * (p0x - cx))).

Lemma discriminant_eq : forall p0x p0y p1x p1y cx cy r,
  2 * ((p1x - p0x) * (p0x - cx) + (p1y - p0y) * (p0y - cy)) * (2 * ((p1x - p0x) * (p0x - cx) + (p1y - p0y) * (p0y - cy)))
  - 4 * ((p1x - p0x) * (p1x - p0x) + (p1y - p0y) * (p1y - p0y)) * ((p0x - cx) * (p0x - cx) + (p0y - cy) * (p0y - cy) - r * r)
  = discriminant p0x p0y p1x p1y cx cy r.
Proof. intros. unfold discriminant. ring. Qed.

Lemma circle_none : forall p0x p0y p1x p1y cx cy r,
  GetIntersectionsOfLineAndCircle p0x p0y p1x p1y cx cy r = None <->
  (p0x = p1x /\ p0y = p1y) \/ discriminant p0x p0y p1x p1y cx cy r = - SMALL_NUMBER.
Proof.
  intros. pose proof small_pos as SP. split.
  - intros H. pose proof (circle_hits_spec p0x p0y p1x p1y cx cy r) as G. rewrite H, discriminant_eq in G.
    destruct (Rlt_dec 0 ((p1x - p0x) * (p1x - p0x) + (p1y - p0y) * (p1y - p0y))) as [P|P]; [right; auto|left].
    apply Rnot_lt_le in P.
    pose proof (Rle_0_sqr (p1x - p0x)) as P1. pose proof (Rle_0_sqr (p1y - p0y)) as P2. unfold Rsqr in *.
    assert (Z1 : (p1x - p0x) * (p1x - p0x) = 0) by lra. assert (Z2 : (p1y - p0y) * (p1y - p0y) = 0) by lra.
    apply Rmult_integral in Z1, Z2. lra.
  - intros [(-> & ->)|H].
    + unfold GetIntersectionsOfLineAndCircle. rewrite !Rminus_eq_0.
      replace (Rltb _ (- SMALL_NUMBER)) with false.
      * replace (Reqb (0 * 0 + 0 * 0) 0) with true; auto. symmetry. apply Reqb_true. ring.
      * symmetry. apply Rltb_false. lra.
    + unfold GetIntersectionsOfLineAndCircle. rewrite discriminant_eq, H.
      replace (Rltb (- SMALL_NUMBER) (- SMALL_NUMBER)) with false by (symmetry; apply Rltb_false; lra).
      replace (Rltb (Rabs (- SMALL_NUMBER - 0)) SMALL_NUMBER) with false.
      * replace (Rltb (- SMALL_NUMBER) 0) with true by (symmetry; apply Rltb_true; lra). now destruct (Reqb _ 0).
      * symmetry. apply Rltb_false. rewrite Rminus_0_r, Rabs_Ropp, Rabs_right; lra.
Qed.

(** ** Projection on a line *)

Lemma project_spec : forall x y x1 y1 x2 y2, apart x1 y1 x2 y2 ->
  let '(ok, px, py) := ProjectPointOnLine2D x y x1 y1 x2 y2 in
  ok = true /\ on_line x1 y1 x2 y2 px py /\ (x - px) * (x2 - x1) + (y - py) * (y2 - y1) = 0.
Proof.
  intros x y x1 y1 x2 y2 H. unfold ProjectPointOnLine2D. rewrite apart_test by auto. apply apart_pos in H.
  set (dx := x2 - x1) in *. set (dy := y2 - y1) in *. split; [auto|]. split; [|ring].
  exists (((x - x1) * dx + (y - y1) * dy) / (dy * dy + dx * dx)). split.
  - fold dx. replace x with (x1 + (x - x1)) at 1 by ring. set (u := x - x1). field. lra.
  - fold dy. replace y with (y1 + (y - y1)) at 1 by ring. set (u := y - y1). field. lra.
Qed.

Lemma foot_minimal : forall x y x1 y1 x2 y2 px py qx qy,
  on_line x1 y1 x2 y2 px py -> (x - px) * (x2 - x1) + (y - py) * (y2 - y1) = 0 -> on_line x1 y1 x2 y2 qx qy ->
  dist x y px py <= dist x y qx qy.
Proof.
  intros x y x1 y1 x2 y2 px py qx qy (s & PX & PY) H (t & QX & QY). apply dist_le.
  assert (X : px - qx = (s - t) * (x2 - x1)) by (subst; ring). assert (Y : py - qy = (s - t) * (y2 - y1)) by (subst; ring).
  replace ((x - qx) * (x - qx)) with ((x - px) * (x - px) + 2 * (x - px) * (px - qx) + (px - qx) * (px - qx)) by ring.
  replace ((y - qy) * (y - qy)) with ((y - py) * (y - py) + 2 * (y - py) * (py - qy) + (py - qy) * (py - qy)) by ring.
  pose proof (Rle_0_sqr (px - qx)) as P1. pose proof (Rle_0_sqr (py - qy)) as P2. unfold Rsqr in *.
  assert (Z : 2 * (x - px) * (px - qx) + 2 * (y - py) * (py - qy) = 0).
  { rewrite X, Y. replace (2 * (x - px) * ((s - t) * (x2 - x1)) + 2 * (y - py) * ((s - t) * (y2 - y1)))
      with (2 * (s - t) * ((x - px) * (x2 - x1) + (y - py) * (y2 - y1))) by ring. rewrite H. ring. }
  lra.
Qed.

(** ** Between the end points *)

Lemma div_in : forall a b d, d <> 0 -> a = b * d -> a / d = b.
Proof. intros a b d D ->. field. auto. Qed.

Lemma between_1d : forall a b t c, a <> b -> c = a + t * (b - a) ->
  (if Rltb a b then negb (Rltb c a || Rltb b c) else negb (Rltb a c || Rltb c b)) = true <-> 0 <= t <= 1.
Proof.
  intros a b t c N ->. rcase.
  - rewrite negb_true_iff, orb_false_iff, !Rltb_false. split; intros; split; nra.
  - rewrite negb_true_iff, orb_false_iff, !Rltb_false. assert (b < a) by lra. split; intros; split; nra.
Qed.

Lemma between_spec : forall x1 y1 x2 y2 t x y, apart x1 y1 x2 y2 -> at_line x1 y1 x2 y2 t x y ->
  PointInBetweenVectorEndpoints x y x1 y1 x2 y2 =
    if Rltb t 0 then (false, - dist x y x1 y1) else if Rltb 1 t then (false, dist x y x2 y2) else (true, t).
Proof.
  intros x1 y1 x2 y2 t x y H (X & Y). unfold PointInBetweenVectorEndpoints.
  rewrite andb_comm, apart_test by auto. apply apart_pos in H. rewrite !pd_dist.
  set (T := if Rltb t 0 then _ else _).
  assert (G : forall b s, (b = true <-> 0 <= t <= 1) -> s = t ->
    (if b then (b, s) else if Rltb s 0 then (b, - dist x y x1 y1) else (b, dist x y x2 y2)) = T).
  { intros b s B ->. unfold T. destruct b.
    - destruct (proj1 B eq_refl). repeat rcase; auto; lra.
    - assert (~ (0 <= t <= 1)) by (intros I; apply B in I; discriminate). repeat rcase; auto; exfalso; lra. }
  destruct (Rltb (Rabs (x2 - x1)) (Rabs (y2 - y1))) eqn:E.
  - apply Rltb_true in E. assert (N : y1 <> y2).
    { intros N. rewrite N, Rminus_eq_0, Rabs_R0 in E. pose proof (Rabs_pos (x2 - x1)). lra. }
    apply G; [apply between_1d; auto|]. apply div_in; lra.
  - apply Rltb_false in E. assert (N : x1 <> x2).
    { intros N. subst x2. rewrite Rminus_eq_0, Rabs_R0 in E. assert (Z : y2 - y1 = 0).
      { pose proof (Rabs_pos (y2 - y1)). destruct (Req_dec (y2 - y1) 0) as [|Z]; auto. apply Rabs_no_R0 in Z. lra. }
      rewrite Z in H. lra. }
    apply G; [apply between_1d; auto|]. apply div_in; lra.
Qed.

(** ** Distance to a segment *)

Lemma convex_end1 : forall x y x1 y1 x2 y2 s qx qy px py, at_line x1 y1 x2 y2 s px py -> s <= 0 ->
  (x - px) * (x2 - x1) + (y - py) * (y2 - y1) = 0 -> on_segment x1 y1 x2 y2 qx qy -> dist x y x1 y1 <= dist x y qx qy.
Proof.
  intros x y x1 y1 x2 y2 s qx qy px py (PX & PY) S H (t & T & QX & QY). apply dist_le. subst qx qy px py.
  set (dx := x2 - x1) in *. set (dy := y2 - y1) in *. set (u := x - x1). set (v := y - y1).
  replace (x - (x1 + t * dx)) with (u - t * dx) by (unfold u; ring). replace (y - (y1 + t * dy)) with (v - t * dy) by (unfold v; ring).
  replace (x - (x1 + s * dx)) with (u - s * dx) in H by (unfold u; ring). replace (y - (y1 + s * dy)) with (v - s * dy) in H by (unfold v; ring).
  assert (E : u * dx + v * dy = s * (dx * dx + dy * dy)) by lra.
  replace ((u - t * dx) * (u - t * dx) + (v - t * dy) * (v - t * dy))
    with (u * u + v * v - 2 * t * (u * dx + v * dy) + t * t * (dx * dx + dy * dy)) by ring. rewrite E.
  set (L := dx * dx + dy * dy). assert (0 <= L) by (unfold L; nra).
  replace (u * u + v * v - 2 * t * (s * L) + t * t * L) with (u * u + v * v + (t * (- s) * L + t * (- s) * L + t * t * L)) by ring.
  assert (0 <= t * - s) by nra. assert (0 <= t * - s * L) by nra. assert (0 <= t * t * L) by nra. lra.
Qed.

Lemma at_line_swap : forall x1 y1 x2 y2 t x y, at_line x1 y1 x2 y2 t x y -> at_line x2 y2 x1 y1 (1 - t) x y.
Proof. intros x1 y1 x2 y2 t x y (-> & ->). split; ring. Qed.

Lemma on_segment_swap : forall x1 y1 x2 y2 x y, on_segment x1 y1 x2 y2 x y -> on_segment x2 y2 x1 y1 x y.
Proof. intros x1 y1 x2 y2 x y (t & T & H). exists (1 - t). split; [lra|now apply at_line_swap]. Qed.

Lemma edge_spec : forall x y x1 y1 x2 y2, apart x1 y1 x2 y2 ->
  let '(d, qx, qy) := DistanceFromPointToEdge2D x y x1 y1 x2 y2 in
  on_segment x1 y1 x2 y2 qx qy /\ d = dist x y qx qy /\
  forall x' y', on_segment x1 y1 x2 y2 x' y' -> d <= dist x y x' y'.
Proof.
  intros x y x1 y1 x2 y2 H. unfold DistanceFromPointToEdge2D. pose proof (project_spec x y x1 y1 x2 y2 H) as P.
  destruct (ProjectPointOnLine2D x y x1 y1 x2 y2) as [[ok px] py]. destruct P as (_ & (s & S) & O).
  rewrite (between_spec x1 y1 x2 y2 s px py H S). rewrite !pd_dist.
  assert (NN : forall a b c d, 0 <= dist a b c d) by (intros; apply sqrt_pos).
  destruct (Rltb s 0) eqn:E1; [apply Rltb_true in E1|apply Rltb_false in E1].
  - assert (PD : 0 < dist px py x1 y1).
    { apply sqrt_lt_R0. apply apart_pos in H. destruct S as (-> & ->).
      replace ((x1 + s * (x2 - x1) - x1) * (x1 + s * (x2 - x1) - x1) + (y1 + s * (y2 - y1) - y1) * (y1 + s * (y2 - y1) - y1))
        with (s * s * ((y2 - y1) * (y2 - y1) + (x2 - x1) * (x2 - x1))) by ring. apply Rmult_lt_0_compat; nra. }
    replace (Rltb (- dist px py x1 y1) 0) with true by (symmetry; apply Rltb_true; lra).
    split; [exists 0; split; [lra|split; ring]|]. split; [auto|]. intros x' y' I.
    apply (convex_end1 x y x1 y1 x2 y2 s x' y' px py); auto; lra.
  - destruct (Rltb 1 s) eqn:E2; [apply Rltb_true in E2|apply Rltb_false in E2].
    + replace (Rltb (dist px py x2 y2) 0) with false by (symmetry; apply Rltb_false, NN).
      split; [exists 1; split; [lra|split; ring]|]. split; [auto|]. intros x' y' I.
      apply (convex_end1 x y x2 y2 x1 y1 (1 - s) x' y' px py); [now apply at_line_swap|lra| |now apply on_segment_swap].
      replace ((x - px) * (x1 - x2) + (y - py) * (y1 - y2)) with (- ((x - px) * (x2 - x1) + (y - py) * (y2 - y1))) by ring. lra.
    + split; [exists s; split; auto|]. split; [auto|]. intros x' y' (t & _ & I).
      apply (foot_minimal x y x1 y1 x2 y2); auto; [now exists s|now exists t].
Qed.

(** Below the tolerance the first end point is used, which is at most twice the tolerance from the others. *)
Lemma dist_triangle : forall a b c d e f, dist a b e f <= dist a b c d + dist c d e f.
Proof.
  intros. unfold dist. pose proof (triangle a b e f c d) as T. unfold dist_euc, Rsqr in T. auto.
Qed.

Lemma dist_small : forall a b c d, Rabs (a - c) < SMALL_NUMBER -> Rabs (b - d) < SMALL_NUMBER -> dist a b c d <= 2 * SMALL_NUMBER.
Proof.
  intros a b c d H1 H2. unfold dist. pose proof small_pos. rewrite <- (sqrt_square (2 * SMALL_NUMBER)) by lra.
  apply sqrt_le_1_alt. apply Rabs_def2 in H1, H2.
  assert ((a - c) * (a - c) <= SMALL_NUMBER * SMALL_NUMBER) by nra.
  assert ((b - d) * (b - d) <= SMALL_NUMBER * SMALL_NUMBER) by nra. nra.
Qed.

Lemma edge_any : forall x y x1 y1 x2 y2,
  let '(d, qx, qy) := DistanceFromPointToEdge2D x y x1 y1 x2 y2 in
  on_segment x1 y1 x2 y2 qx qy /\ d = dist x y qx qy /\
  forall x' y', on_segment x1 y1 x2 y2 x' y' -> d <= dist x y x' y' + 2 * SMALL_NUMBER.
Proof.
  intros x y x1 y1 x2 y2. pose proof small_pos as SP.
  destruct (Rlt_dec (Rabs (x2 - x1)) SMALL_NUMBER) as [A|A].
  destruct (Rlt_dec (Rabs (y2 - y1)) SMALL_NUMBER) as [B|B].
  - unfold DistanceFromPointToEdge2D, ProjectPointOnLine2D, PointInBetweenVectorEndpoints.
    replace (Rltb (Rabs (x2 - x1)) SMALL_NUMBER) with true by (symmetry; now apply Rltb_true).
    replace (Rltb (Rabs (y2 - y1)) SMALL_NUMBER) with true by (symmetry; now apply Rltb_true). cbn [andb].
    rewrite pd_dist. split; [exists 0; split; [lra|split; ring]|]. split; [auto|]. intros x' y' (t & T & X & Y).
    pose proof (dist_triangle x y x' y' x1 y1). assert (dist x' y' x1 y1 <= 2 * SMALL_NUMBER); [|lra].
    apply dist_small.
    + rewrite X. replace (x1 + t * (x2 - x1) - x1) with (t * (x2 - x1)) by ring. rewrite Rabs_mult, (Rabs_right t) by lra.
      pose proof (Rabs_pos (x2 - x1)). nra.
    + rewrite Y. replace (y1 + t * (y2 - y1) - y1) with (t * (y2 - y1)) by ring. rewrite Rabs_mult, (Rabs_right t) by lra.
      pose proof (Rabs_pos (y2 - y1)). nra.
  - assert (G : apart x1 y1 x2 y2) by (right; lra). pose proof (edge_spec x y x1 y1 x2 y2 G) as E.
    destruct (DistanceFromPointToEdge2D x y x1 y1 x2 y2) as [[d qx] qy]. destruct E as (E1 & E2 & E3).
    split; [auto|split; [auto|]]. intros x' y' I. specialize (E3 x' y' I). lra.
  - assert (G : apart x1 y1 x2 y2) by (left; lra). pose proof (edge_spec x y x1 y1 x2 y2 G) as E.
    destruct (DistanceFromPointToEdge2D x y x1 y1 x2 y2) as [[d qx] qy]. destruct E as (E1 & E2 & E3).
    split; [auto|split; [auto|]]. intros x' y' I. specialize (E3 x' y' I). lra.
Qed.

(** ** Distance to a line *)

Lemma line_spec : forall x y x1 y1 x2 y2, apart x1 y1 x2 y2 ->
  let '(d, qx, qy) := DistanceFromPointToLine2D x y x1 y1 x2 y2 in
  on_line x1 y1 x2 y2 qx qy /\ d = dist x y qx qy /\ forall x' y', on_line x1 y1 x2 y2 x' y' -> d <= dist x y x' y'.
Proof.
  intros x y x1 y1 x2 y2 H. unfold DistanceFromPointToLine2D. pose proof (project_spec x y x1 y1 x2 y2 H) as P.
  destruct (ProjectPointOnLine2D x y x1 y1 x2 y2) as [[ok px] py]. destruct P as (_ & S & O). rewrite pd_dist.
  split; [auto|split; [auto|]]. intros x' y' I. now apply (foot_minimal x y x1 y1 x2 y2).
Qed.

Lemma foot_dist : forall x y x1 y1 x2 y2 px py, 0 < (x2 - x1) * (x2 - x1) + (y2 - y1) * (y2 - y1) ->
  on_line x1 y1 x2 y2 px py -> (x - px) * (x2 - x1) + (y - py) * (y2 - y1) = 0 ->
  dist x y px py = Rabs ((x2 - x1) * (y - y1) - (x - x1) * (y2 - y1)) / sqrt ((x2 - x1) * (x2 - x1) + (y2 - y1) * (y2 - y1)).
Proof.
  intros x y x1 y1 x2 y2 px py L (t & -> & ->) O. set (dx := x2 - x1) in *. set (dy := y2 - y1) in *.
  unfold dist. set (u := x - (x1 + t * dx)) in *. set (v := y - (y1 + t * dy)) in *.
  replace (dx * (y - y1) - (x - x1) * dy) with (dx * v - dy * u) by (unfold u, v; ring).
  assert (S : sqrt (dx * dx + dy * dy) <> 0) by (apply Rgt_not_eq, sqrt_lt_R0; auto).
  apply (Rmult_eq_reg_r (sqrt (dx * dx + dy * dy))); auto. unfold Rdiv. rewrite Rmult_assoc, Rinv_l, Rmult_1_r by auto.
  rewrite <- sqrt_mult by nra. rewrite <- sqrt_Rsqr_abs. f_equal. unfold Rsqr.
  replace ((u * u + v * v) * (dx * dx + dy * dy)) with ((u * dx + v * dy) * (u * dx + v * dy) + (dx * v - dy * u) * (dx * v - dy * u)) by ring.
  rewrite O. ring.
Qed.

Lemma signed_spec : forall px py x1 y1 x2 y2 d, PointToLineDistance2DSigned px py x1 y1 x2 y2 = Some d ->
  (exists qx qy, on_line x1 y1 x2 y2 qx qy /\ Rabs d = dist px py qx qy) /\
  (forall x' y', on_line x1 y1 x2 y2 x' y' -> Rabs d <= dist px py x' y') /\
  (d < 0 <-> PointSideOfVec px py x1 y1 x2 y2 = -1).
Proof.
  intros px py x1 y1 x2 y2 d H. unfold PointToLineDistance2DSigned, GetCrossProduct2D in H.
  set (dx := x2 - x1) in *. set (dy := y2 - y1) in *.
  assert (LL : 0 <= dx * dx + dy * dy) by nra.
  destruct (Reqb (sqrt (dx * dx + dy * dy)) 0) eqn:E; [discriminate|].
  assert (SP : 0 < sqrt (dx * dx + dy * dy)).
  { pose proof (sqrt_pos (dx * dx + dy * dy)). destruct (Req_dec (sqrt (dx * dx + dy * dy)) 0) as [Z|Z]; [|lra].
    apply Reqb_true in Z. congruence. }
  assert (L : 0 < dx * dx + dy * dy). { destruct (Req_dec (dx * dx + dy * dy) 0) as [Z|Z]; [rewrite Z, sqrt_0 in SP; lra|lra]. }
  injection H as <-.
  set (k := ((px - x1) * dx + (py - y1) * dy) / (dx * dx + dy * dy)).
  assert (K : k * (dx * dx + dy * dy) = (px - x1) * dx + (py - y1) * dy) by (unfold k; field; lra).
  set (qx := x1 + k * dx). set (qy := y1 + k * dy).
  assert (OL : on_line x1 y1 x2 y2 qx qy) by (exists k; split; reflexivity).
  assert (O : (px - qx) * (x2 - x1) + (py - qy) * (y2 - y1) = 0).
  { fold dx dy. unfold qx, qy. lra. }
  assert (A : Rabs ((dx * (py - y1) - (px - x1) * dy) / sqrt (dx * dx + dy * dy)) = dist px py qx qy).
  { rewrite (foot_dist px py x1 y1 x2 y2 qx qy); auto. fold dx dy. unfold Rdiv. rewrite Rabs_mult. f_equal.
    apply Rabs_right. apply Rle_ge, Rlt_le, Rinv_0_lt_compat. auto. }
  split; [exists qx, qy; auto|]. split.
  - intros x' y' I. rewrite A. now apply (foot_minimal px py x1 y1 x2 y2).
  - unfold PointSideOfVec, SIGN, GetCrossProduct2D. fold dx dy.
    replace (dx * (py - y1) - dy * (px - x1)) with (dx * (py - y1) - (px - x1) * dy) by ring.
    set (c := dx * (py - y1) - (px - x1) * dy). set (s := sqrt (dx * dx + dy * dy)) in *.
    assert (I : 0 < / s) by (apply Rinv_0_lt_compat; auto). unfold Rdiv. split.
    + intros N. rcase; auto. exfalso. nra.
    + rcase; [|lra]. intros _. nra.
Qed.

Lemma with_angle_spec : forall x y x1 y1 a l, 0 < l ->
  PointToLineDistance2DSigned x y x1 y1 (x1 + l * cos a) (y1 + l * sin a) = Some (- DistanceFromPointToLine2DWithAngle x y x1 y1 a).
Proof.
  intros x y x1 y1 a l L. unfold PointToLineDistance2DSigned, DistanceFromPointToLine2DWithAngle, GetCrossProduct2D.
  replace (x1 + l * cos a - x1) with (l * cos a) by ring. replace (y1 + l * sin a - y1) with (l * sin a) by ring.
  replace (l * cos a * (l * cos a) + l * sin a * (l * sin a)) with (l * l * (sin a * sin a + cos a * cos a)) by ring.
  rewrite sin2cos2, Rmult_1_r, sqrt_square by lra.
  replace (Reqb l 0) with false by (symmetry; unfold Reqb; destruct (Req_EM_T l 0); auto; lra). f_equal. field. lra.
Qed.

(** ** Projection on a vector *)

Lemma sign_mul : forall k x, 0 < k -> SIGN (x * k) = SIGN x.
Proof. intros k x H. unfold SIGN. repeat rcase; auto; exfalso; nra. Qed.

Lemma sign_pm : forall x, SIGN x = 1 /\ 0 <= x \/ SIGN x = -1 /\ x < 0.
Proof. intros x. unfold SIGN. rcase; auto. Qed.

Lemma signed_length_spec : forall x0 y0 x1 y1, SMALL_NUMBER < x1 * x1 + y1 * y1 ->
  ProjectPointOnVector2DSignedLength x0 y0 x1 y1 = (x0 * x1 + y0 * y1) / sqrt (x1 * x1 + y1 * y1).
Proof.
  intros x0 y0 x1 y1 H. pose proof small_pos. unfold ProjectPointOnVector2DSignedLength, ProjectPointOnVector2D, GetDotProduct2D.
  set (L := x1 * x1 + y1 * y1) in *. replace (Rltb SMALL_NUMBER L) with true by (symmetry; now apply Rltb_true).
  set (d := x0 * x1 + y0 * y1). unfold GetLengthOfVector2D.
  replace (x1 * (d / L) * (x1 * (d / L)) + y1 * (d / L) * (y1 * (d / L))) with ((d / L) * (d / L) * L) by (unfold L; ring).
  assert (LP : 0 < L) by lra. assert (SL : 0 < sqrt L) by (apply sqrt_lt_R0; auto).
  assert (SS : sqrt L * sqrt L = L) by (apply sqrt_sqrt; lra).
  rewrite sqrt_mult by nra. replace (sqrt (d / L * (d / L))) with (Rabs (d / L)) by (symmetry; apply sqrt_Rsqr_abs).
  assert (E : d / sqrt L = d / L * sqrt L). { rewrite <- SS at 2. field. lra. }
  rewrite E. set (k := d / L).
  destruct (Rtotal_order k 0) as [K|[K|K]].
  - rewrite Rabs_left by auto.
    assert (G : negb (Reqb (SIGN (x1 * k)) (SIGN x1)) || negb (Reqb (SIGN (y1 * k)) (SIGN y1)) = true).
    { apply orb_true_iff. assert (N : x1 <> 0 \/ y1 <> 0).
      { destruct (Req_dec x1 0); [|auto]. destruct (Req_dec y1 0); [|auto]. unfold L in LP. subst. lra. }
      assert (F : forall x, x <> 0 -> negb (Reqb (SIGN (x * k)) (SIGN x)) = true).
      { intros x X. apply negb_true_iff. unfold Reqb. destruct (Req_EM_T (SIGN (x * k)) (SIGN x)) as [Q|Q]; auto. exfalso.
        destruct (sign_pm x) as [(S1 & S2)|(S1 & S2)], (sign_pm (x * k)) as [(S3 & S4)|(S3 & S4)]; try lra.
        - assert (0 < x) by lra. nra.
        - nra. }
      destruct N; [left|right]; auto. }
    rewrite G. ring.
  - rewrite K, Rabs_R0. destruct (_ || _); ring.
  - rewrite !sign_mul by auto. rewrite Rabs_right by lra.
    replace (Reqb (SIGN x1) (SIGN x1)) with true by (symmetry; now apply Reqb_true).
    replace (Reqb (SIGN y1) (SIGN y1)) with true by (symmetry; now apply Reqb_true). reflexivity.
Qed.

Lemma vector_projection_spec : forall x0 y0 x1 y1, SMALL_NUMBER < x1 * x1 + y1 * y1 ->
  let '(px, py) := ProjectPointOnVector2D x0 y0 x1 y1 in
  (exists k, px = k * x1 /\ py = k * y1) /\ (x0 - px) * x1 + (y0 - py) * y1 = 0.
Proof.
  intros x0 y0 x1 y1 H. unfold ProjectPointOnVector2D, GetDotProduct2D. pose proof small_pos.
  set (L := x1 * x1 + y1 * y1) in *. replace (Rltb SMALL_NUMBER L) with true by (symmetry; now apply Rltb_true).
  set (k := (x0 * x1 + y0 * y1) / L). assert (K : k * L = x0 * x1 + y0 * y1) by (unfold k; field; lra).
  split; [exists k; split; ring|]. unfold L in K. lra.
Qed.

(** ** Angles between vectors *)

Lemma signed_angle_spec : forall x1 y1 x2 y2, (x1 <> 0 \/ y1 <> 0) -> (x2 <> 0 \/ y2 <> 0) ->
  let a := GetSignedAngleBetweenVectors x1 y1 x2 y2 in
  - PI < a <= PI /\
  sqrt (x2 * x2 + y2 * y2) * fst (RotateVec2D x1 y1 a) = sqrt (x1 * x1 + y1 * y1) * x2 /\
  sqrt (x2 * x2 + y2 * y2) * snd (RotateVec2D x1 y1 a) = sqrt (x1 * x1 + y1 * y1) * y2.
Proof.
  intros x1 y1 x2 y2 H1 H2 a.
  assert (L1 : 0 < x1 * x1 + y1 * y1) by (apply pos2; auto). assert (L2 : 0 < x2 * x2 + y2 * y2) by (apply pos2; auto).
  set (c := x1 * x2 + y1 * y2). set (s := x1 * y2 - y1 * x2).
  assert (CS : c * c + s * s = (x1 * x1 + y1 * y1) * (x2 * x2 + y2 * y2)) by (unfold c, s; ring).
  assert (CSP : 0 < c * c + s * s) by (rewrite CS; nra).
  assert (N : c <> 0 \/ s <> 0).
  { destruct (Req_dec c 0) as [Z|Z]; [|auto]. destruct (Req_dec s 0) as [Z'|Z']; [|auto]. rewrite Z, Z' in CSP. lra. }
  destruct (atan2_spec c s N) as (B & C & S & P). unfold a, GetSignedAngleBetweenVectors. fold c s. split; [auto|].
  unfold RotateVec2D. cbn [fst snd]. rewrite C, S. rewrite CS, sqrt_mult by lra.
  set (l1 := sqrt (x1 * x1 + y1 * y1)). set (l2 := sqrt (x2 * x2 + y2 * y2)).
  assert (P1 : 0 < l1) by (apply sqrt_lt_R0; auto). assert (P2 : 0 < l2) by (apply sqrt_lt_R0; auto).
  assert (S1 : l1 * l1 = x1 * x1 + y1 * y1) by (apply sqrt_sqrt; lra).
  split; apply (Rmult_eq_reg_r l1); try lra.
  - replace (l2 * (x1 * (c / (l1 * l2)) - y1 * (s / (l1 * l2))) * l1) with (x1 * c - y1 * s) by (field; lra).
    replace (l1 * x2 * l1) with (l1 * l1 * x2) by ring. rewrite S1. unfold c, s. ring.
  - replace (l2 * (x1 * (s / (l1 * l2)) + y1 * (c / (l1 * l2))) * l1) with (x1 * s + y1 * c) by (field; lra).
    replace (l1 * y2 * l1) with (l1 * l1 * y2) by ring. rewrite S1. unfold c, s. ring.
Qed.

Lemma angle_between_spec : forall x1 y1 x2 y2, (x1 <> 0 \/ y1 <> 0) -> (x2 <> 0 \/ y2 <> 0) ->
  0 <= GetAngleBetweenVectors x1 y1 x2 y2 <= PI /\
  sqrt (x1 * x1 + y1 * y1) * sqrt (x2 * x2 + y2 * y2) * cos (GetAngleBetweenVectors x1 y1 x2 y2) = x1 * x2 + y1 * y2.
Proof.
  intros x1 y1 x2 y2 H1 H2. destruct (signed_angle_spec x1 y1 x2 y2 H1 H2) as (B & X & Y).
  unfold GetAngleBetweenVectors. set (a := GetSignedAngleBetweenVectors x1 y1 x2 y2) in *.
  split; [split; [apply Rabs_pos|apply Rabs_le; lra]|].
  replace (cos (Rabs a)) with (cos a) by (unfold Rabs; destruct (Rcase_abs a); [now rewrite cos_neg|auto]).
  assert (L1 : 0 < x1 * x1 + y1 * y1) by (apply pos2; auto).
  set (l1 := sqrt (x1 * x1 + y1 * y1)) in *. set (l2 := sqrt (x2 * x2 + y2 * y2)) in *.
  assert (P1 : 0 < l1) by (apply sqrt_lt_R0; auto). assert (S1 : l1 * l1 = x1 * x1 + y1 * y1) by (apply sqrt_sqrt; lra).
  unfold RotateVec2D in X, Y. cbn [fst snd] in X, Y.
  apply (Rmult_eq_reg_l l1); [|lra].
  replace (l1 * (l1 * l2 * cos a)) with (l2 * (l1 * l1) * cos a) by ring. rewrite S1.
  replace (l1 * (x1 * x2 + y1 * y2)) with (x1 * (l1 * x2) + y1 * (l1 * y2)) by ring. rewrite <- X, <- Y. ring.
Qed.

Lemma cauchy3 : forall x1 y1 z1 x2 y2 z2,
  (x1 * x2 + y1 * y2 + z1 * z2) * (x1 * x2 + y1 * y2 + z1 * z2) <= (x1 * x1 + y1 * y1 + z1 * z1) * (x2 * x2 + y2 * y2 + z2 * z2).
Proof.
  intros. pose proof (Rle_0_sqr (x1 * y2 - y1 * x2)). pose proof (Rle_0_sqr (x1 * z2 - z1 * x2)). pose proof (Rle_0_sqr (y1 * z2 - z1 * y2)).
  unfold Rsqr in *. lra.
Qed.

Lemma angle3_spec : forall x1 y1 z1 x2 y2 z2,
  SMALL_NUMBER <= GetLengthOfVector3D x1 y1 z1 -> SMALL_NUMBER <= GetLengthOfVector3D x2 y2 z2 ->
  0 <= GetAngleBetweenVectors3D x1 y1 z1 x2 y2 z2 <= PI /\
  GetLengthOfVector3D x1 y1 z1 * GetLengthOfVector3D x2 y2 z2 * cos (GetAngleBetweenVectors3D x1 y1 z1 x2 y2 z2)
  = x1 * x2 + y1 * y2 + z1 * z2.
Proof.
  intros x1 y1 z1 x2 y2 z2 H1 H2. pose proof small_pos as SP. unfold GetAngleBetweenVectors3D.
  replace (Rltb (GetLengthOfVector3D x1 y1 z1) SMALL_NUMBER) with false by (symmetry; now apply Rltb_false).
  replace (Rltb (GetLengthOfVector3D x2 y2 z2) SMALL_NUMBER) with false by (symmetry; now apply Rltb_false). cbn [orb].
  unfold GetDotProduct3D. set (l1 := GetLengthOfVector3D x1 y1 z1) in *. set (l2 := GetLengthOfVector3D x2 y2 z2) in *.
  assert (S1 : l1 * l1 = x1 * x1 + y1 * y1 + z1 * z1) by (apply sqrt_sqrt; nra).
  assert (S2 : l2 * l2 = x2 * x2 + y2 * y2 + z2 * z2) by (apply sqrt_sqrt; nra).
  set (d := x1 * x2 + y1 * y2 + z1 * z2). assert (LP : 0 < l1 * l2) by nra.
  assert (B : -1 <= d / (l1 * l2) <= 1).
  { pose proof (cauchy3 x1 y1 z1 x2 y2 z2) as C. fold d in C. rewrite <- S1, <- S2 in C.
    assert (C' : Rsqr d <= Rsqr (l1 * l2)) by (unfold Rsqr; lra).
    assert (U : d <= l1 * l2) by (apply Rsqr_incr_0_var; lra).
    assert (V : - (l1 * l2) <= d) by (apply Rsqr_neg_pos_le_0; [auto|lra]).
    split; [apply (Rmult_le_reg_r (l1 * l2)) | apply (Rmult_le_reg_r (l1 * l2))]; auto; unfold Rdiv;
      rewrite Rmult_assoc, Rinv_l; lra. }
  assert (E : ABS_LIMIT (d / (l1 * l2)) 1 = d / (l1 * l2)).
  { unfold ABS_LIMIT. rewrite Rabs_R1. rcase; auto. exfalso. assert (Rabs (d / (l1 * l2)) <= 1) by (apply Rabs_le; lra). lra. }
  rewrite E. split; [apply acos_bound|]. rewrite cos_acos by auto. field. nra.
Qed.

(** ** Cross product, normalisation, offset *)

Lemma cross_orthogonal : forall x1 y1 z1 x2 y2 z2, let '(x, y, z) := GetCrossProduct3D x1 y1 z1 x2 y2 z2 in
  x * x1 + y * y1 + z * z1 = 0 /\ x * x2 + y * y2 + z * z2 = 0 /\
  x * x + y * y + z * z = (x1 * x1 + y1 * y1 + z1 * z1) * (x2 * x2 + y2 * y2 + z2 * z2) - (x1 * x2 + y1 * y2 + z1 * z2) * (x1 * x2 + y1 * y2 + z1 * z2).
Proof. intros. unfold GetCrossProduct3D. split; [|split]; ring. Qed.

Lemma normalize2_spec : forall x y, SMALL_NUMBER <= sqrt (x * x + y * y) -> let '(a, b) := NormalizeVec2D x y in
  a * a + b * b = 1 /\ x = sqrt (x * x + y * y) * a /\ y = sqrt (x * x + y * y) * b.
Proof.
  intros x y H. pose proof small_pos. unfold NormalizeVec2D.
  replace (Rltb (sqrt (x * x + y * y)) SMALL_NUMBER) with false by (symmetry; now apply Rltb_false).
  set (l := sqrt (x * x + y * y)) in *. assert (S : l * l = x * x + y * y) by (apply sqrt_sqrt; nra).
  split; [|split; field; lra]. replace (x / l * (x / l) + y / l * (y / l)) with ((x * x + y * y) / (l * l)) by (field; lra).
  rewrite <- S. field. lra.
Qed.

Lemma normalize3_spec : forall x y z, SMALL_NUMBER <= sqrt (x * x + y * y + z * z) -> let '(a, b, c) := NormalizeVec3D x y z in
  a * a + b * b + c * c = 1 /\ x = sqrt (x * x + y * y + z * z) * a /\ y = sqrt (x * x + y * y + z * z) * b /\
  z = sqrt (x * x + y * y + z * z) * c.
Proof.
  intros x y z H. pose proof small_pos. unfold NormalizeVec3D.
  replace (Rltb (sqrt (x * x + y * y + z * z)) SMALL_NUMBER) with false by (symmetry; now apply Rltb_false).
  set (l := sqrt (x * x + y * y + z * z)) in *. assert (S : l * l = x * x + y * y + z * z) by (apply sqrt_sqrt; nra).
  split; [|split; [|split]; field; lra].
  replace (x / l * (x / l) + y / l * (y / l) + z / l * (z / l)) with ((x * x + y * y + z * z) / (l * l)) by (field; lra).
  rewrite <- S. field. lra.
Qed.

Lemma offset_spec : forall x0 y0 x1 y1 o, (x1 - x0 <> 0 \/ y1 - y0 <> 0) ->
  let '((a0, b0), (a1, b1)) := OffsetVec2D x0 y0 x1 y1 o in
  a1 - a0 = x1 - x0 /\ b1 - b0 = y1 - y0 /\
  (a0 - x0) * (x1 - x0) + (b0 - y0) * (y1 - y0) = 0 /\
  PointToLineDistance2DSigned a0 b0 x0 y0 x1 y1 = Some (- o) /\
  PointToLineDistance2DSigned a1 b1 x0 y0 x1 y1 = Some (- o).
Proof.
  intros x0 y0 x1 y1 o N. unfold OffsetVec2D. set (dx := x1 - x0) in *. set (dy := y1 - y0) in *.
  destruct (atan2_spec dx dy N) as (_ & C & S & L). set (a := atan2 dy dx) in *. set (l := sqrt (dx * dx + dy * dy)) in *.
  assert (LL : l * l = dx * dx + dy * dy) by (apply sqrt_sqrt; nra).
  set (ox := Rabs o * cos _). set (oy := Rabs o * sin _).
  assert (OX : ox = o * (dy / l)).
  { unfold ox. rcase.
    - rewrite cos_plus, cos_PI2, sin_PI2, S, Rabs_left by auto. field. lra.
    - rewrite cos_plus, cos_neg, sin_neg, cos_PI2, sin_PI2, S, Rabs_right by lra. field. lra. }
  assert (OY : oy = - o * (dx / l)).
  { unfold oy. rcase.
    - rewrite sin_plus, cos_PI2, sin_PI2, C, Rabs_left by auto. field. lra.
    - rewrite sin_plus, cos_neg, sin_neg, cos_PI2, sin_PI2, C, Rabs_right by lra. field. lra. }
  clearbody ox oy. subst ox oy.
  split; [unfold dx; ring|]. split; [unfold dy; ring|]. split; [field; lra|].
  unfold PointToLineDistance2DSigned, GetCrossProduct2D. fold dx dy. fold l.
  replace (Reqb l 0) with false by (symmetry; unfold Reqb; destruct (Req_EM_T l 0); auto; lra).
  assert (Z : - o * (dx * dx + dy * dy) / (l * l) = - o) by (rewrite <- LL; field; lra).
  split; f_equal.
  - replace (x0 + o * (dy / l) - x0) with (o * (dy / l)) by ring. replace (y0 + - o * (dx / l) - y0) with (- o * (dx / l)) by ring.
    eapply eq_trans; [|exact Z]. field. lra.
  - replace (x1 + o * (dy / l) - x0) with (dx + o * (dy / l)) by (unfold dx; ring).
    replace (y1 + - o * (dx / l) - y0) with (dy - o * (dx / l)) by (unfold dy; ring).
    eapply eq_trans; [|exact Z]. field. lra.
Qed.

(** ** Distance to a line in space *)

Definition dist3 (x0 y0 z0 x1 y1 z1 : R) : R :=
  sqrt ((x0 - x1) * (x0 - x1) + (y0 - y1) * (y0 - y1) + (z0 - z1) * (z0 - z1)).

Lemma line3_spec : forall px py pz x0 y0 z0 x1 y1 z1, SMALL_NUMBER < dist3 x1 y1 z1 x0 y0 z0 ->
  let d := PointToLineDistance3DSigned px py pz x0 y0 z0 x1 y1 z1 in
  (exists t, Rabs d = dist3 px py pz (x0 + t * (x1 - x0)) (y0 + t * (y1 - y0)) (z0 + t * (z1 - z0))) /\
  (forall t, Rabs d <= dist3 px py pz (x0 + t * (x1 - x0)) (y0 + t * (y1 - y0)) (z0 + t * (z1 - z0))) /\
  (d < 0 -> (x1 - x0) * (py - y0) - (px - x0) * (y1 - y0) < 0) /\
  (0 < d -> 0 <= (x1 - x0) * (py - y0) - (px - x0) * (y1 - y0)).
Proof.
  intros px py pz x0 y0 z0 x1 y1 z1 H d. pose proof small_pos as SP. unfold d, PointToLineDistance3DSigned. clear d.
  unfold dist3 in H. replace (Rltb SMALL_NUMBER _) with true by (symmetry; now apply Rltb_true).
  unfold GetCrossProduct2D, dist3.
  set (dx := x1 - x0) in *. set (dy := y1 - y0) in *. set (dz := z1 - z0) in *.
  set (u := px - x0). set (v := py - y0). set (w := pz - z0). set (l := sqrt (dx * dx + dy * dy + dz * dz)) in *.
  assert (LN : 0 <= dx * dx + dy * dy + dz * dz).
  { pose proof (Rle_0_sqr dx). pose proof (Rle_0_sqr dy). pose proof (Rle_0_sqr dz). unfold Rsqr in *. lra. }
  assert (LL : l * l = dx * dx + dy * dy + dz * dz) by (apply sqrt_sqrt; auto). assert (LP : 0 < l) by lra.
  set (cx := v * dz - w * dy). set (cy := w * dx - u * dz). set (cz := u * dy - v * dx).
  set (m := sqrt (cx * cx + cy * cy + cz * cz)). assert (M0 : 0 <= m) by apply sqrt_pos.
  assert (A : Rabs (if Rltb (dx * v - u * dy) 0 then - (m / l) else m / l) = m / l).
  { assert (0 <= m / l). { apply Rmult_le_pos; auto. apply Rlt_le, Rinv_0_lt_compat; auto. }
    rcase; [rewrite Rabs_Ropp|]; now rewrite Rabs_right by lra. }
  assert (F : forall t, (px - (x0 + t * dx)) * (px - (x0 + t * dx)) + (py - (y0 + t * dy)) * (py - (y0 + t * dy)) + (pz - (z0 + t * dz)) * (pz - (z0 + t * dz))
      = (cx * cx + cy * cy + cz * cz) / (l * l) + (u * dx + v * dy + w * dz - t * (l * l)) * (u * dx + v * dy + w * dz - t * (l * l)) / (l * l)).
  { intros t. rewrite LL. replace (px - (x0 + t * dx)) with (u - t * dx) by (unfold u; ring).
    replace (py - (y0 + t * dy)) with (v - t * dy) by (unfold v; ring). replace (pz - (z0 + t * dz)) with (w - t * dz) by (unfold w; ring).
    unfold cx, cy, cz. field. nra. }
  assert (MQ : m / l = sqrt ((cx * cx + cy * cy + cz * cz) / (l * l))).
  { rewrite sqrt_div_alt by nra. rewrite sqrt_square by lra. auto. }
  split; [|split; [|split]].
  - exists ((u * dx + v * dy + w * dz) / (l * l)). rewrite A, F, MQ. f_equal.
    replace ((u * dx + v * dy + w * dz) / (l * l) * (l * l)) with (u * dx + v * dy + w * dz) by (field; lra). field. lra.
  - intros t. rewrite A, F, MQ. apply sqrt_le_1_alt.
    set (k := u * dx + v * dy + w * dz - t * (l * l)). assert (0 <= k * k / (l * l)); [|lra].
    apply Rmult_le_pos; [apply Rle_0_sqr|]. apply Rlt_le, Rinv_0_lt_compat. nra.
  - rcase; auto. intros N. assert (0 <= m / l) by (apply Rmult_le_pos; auto; apply Rlt_le, Rinv_0_lt_compat; auto). lra.
  - rcase; auto. intros N. assert (0 <= m / l) by (apply Rmult_le_pos; auto; apply Rlt_le, Rinv_0_lt_compat; auto). lra.
Qed.

(** ** Sector between two lines *)

Lemma sector_spec : forall px py ax0 ay0 ax1 ay1 bx0 by0 bx1 by1,
  let '(inside, s) := IsPointWithinSectorBetweenTwoLines px py ax0 ay0 ax1 ay1 bx0 by0 bx1 by1 in
  let a := (ax1 - ax0) * (py - ay0) - (px - ax0) * (ay1 - ay0) in
  let b := (bx1 - bx0) * (py - by0) - (px - bx0) * (by1 - by0) in
  (inside = true <-> a * b < 0) /\ (inside = true -> -1 <= s <= 1).
Proof.
  intros. unfold IsPointWithinSectorBetweenTwoLines, DistanceFromPointToLine2D.
  destruct (ProjectPointOnLine2D px py ax0 ay0 ax1 ay1) as [[okX rX] qX].
  destruct (ProjectPointOnLine2D px py bx0 by0 bx1 by1) as [[okY rY] qY]. cbn [fst snd].
  set (d0 := PointDistance2D _ _ _ _). set (d1 := PointDistance2D _ _ _ _). pose proof small_pos as SP.
  assert (P0 : 0 <= d0) by apply sqrt_pos. assert (P1 : 0 <= d1) by apply sqrt_pos. unfold GetCrossProduct2D.
  set (a := (ax1 - ax0) * (py - ay0) - (px - ax0) * (ay1 - ay0)). set (b := (bx1 - bx0) * (py - by0) - (px - bx0) * (by1 - by0)).
  replace ((px - ax0) * (ay1 - ay0) - (ax1 - ax0) * (py - ay0)) with (- a) by (unfold a; ring).
  replace ((px - bx0) * (by1 - by0) - (bx1 - bx0) * (py - by0)) with (- b) by (unfold b; ring).
  set (m := if Rltb SMALL_NUMBER (d0 + d1) then d0 + d1 else SMALL_NUMBER).
  assert (M : 0 < m /\ d0 <= m). { unfold m. rcase; lra. } destruct M as (M & DM).
  assert (Q : 0 <= d0 / m <= 1).
  { split; [apply Rmult_le_pos; auto; apply Rlt_le, Rinv_0_lt_compat; auto|]. apply (Rmult_le_reg_r m); auto. unfold Rdiv.
    rewrite Rmult_assoc, Rinv_l; lra. }
  destruct (Rltb 0 (- a) && Rltb (- b) 0) eqn:E1.
  - apply andb_true_iff in E1. destruct E1 as (A & B). apply Rltb_true in A, B. split; [split; [intros _; nra|auto]|intros; lra].
  - destruct (Rltb (- a) 0 && Rltb 0 (- b)) eqn:E2.
    + apply andb_true_iff in E2. destruct E2 as (A & B). apply Rltb_true in A, B. split; [split; [intros _; nra|auto]|intros; lra].
    + assert (N : ~ a * b < 0).
      { intros N. apply andb_false_iff in E1, E2. rewrite !Rltb_false in E1, E2. clearbody a b. destruct E1, E2; try nra.
        - assert (a = 0) by lra. subst. lra.
        - assert (b = 0) by lra. subst. lra. }
      destruct (Rltb d0 d1); (split; [split; [discriminate|tauto]|discriminate]).
Qed.
