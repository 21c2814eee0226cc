(** Properties of angles, rotations and matrix inversion (real arithmetic). *)
From Coq Require Import Reals Bool Lra Lia ZArith.
From Verif Require Import AngModel AngProofs.
Open Scope R_scope.

(** ** C23: angle normalisation *)

Theorem C23_interval_2pi : forall a, 0 <= GetAngleInInterval2PI a < 2 * PI /\ same_angle (GetAngleInInterval2PI a) a.
Proof. exact interval2pi. Qed.

Theorem C23_interval_pm_pi : forall a,
  - PI <= GetAngleInIntervalMinusPIPlusPI a <= PI /\ same_angle (GetAngleInIntervalMinusPIPlusPI a) a.
Proof. exact interval_pm. Qed.

(** Normal forms are unique: directions are equal exactly when their normal forms are. *)
Theorem C23_unique : forall a b, same_angle a b <-> GetAngleInInterval2PI a = GetAngleInInterval2PI b.
Proof.
  intros a b. destruct (interval2pi a) as (A & SA). destruct (interval2pi b) as (B & SB). split.
  - intros S. apply same_unique; auto. apply same_trans with a; auto. apply same_trans with b; auto.
    destruct SB as (k & ->). exists (- k)%Z. rewrite opp_IZR. lra.
  - intros E. apply same_trans with (GetAngleInInterval2PI a); [|now rewrite E].
    destruct SA as (k & ->). exists (- k)%Z. rewrite opp_IZR. lra.
Qed.

Theorem C23_sum : forall a b, 0 <= GetAngleSum a b < 2 * PI /\ same_angle (GetAngleSum a b) (a + b).
Proof. intros a b. apply interval2pi. Qed.

(** The difference is a turn from b to a, and no turn from b to a is smaller. *)
Theorem C23_difference : forall a b,
  - PI <= GetAngleDifference a b <= PI /\ same_angle (b + GetAngleDifference a b) a /\
  forall t, same_angle (b + t) a -> Rabs (GetAngleDifference a b) <= Rabs t.
Proof.
  intros a b. rewrite difference_is. destruct (interval_pm (a - b)) as (B & k & E). split; [auto|split].
  - exists k. lra.
  - intros t T. rewrite <- difference_is. now apply difference_minimal.
Qed.

Theorem C23_abs_difference : forall a b,
  GetAbsAngleDifference a b = Rabs (GetAngleDifference a b) /\ 0 <= GetAbsAngleDifference a b <= PI
  /\ GetAbsAngleDifference a b = GetAbsAngleDifference b a.
Proof.
  intros a b. split; [apply abs_difference|split; [|apply abs_difference_sym]].
  rewrite abs_difference. split; [apply Rabs_pos|]. apply Rabs_le. destruct (C23_difference a b); auto.
Qed.

Theorem C23_forward : forall t, IsAngleForward t = true <-> 0 <= cos t.
Proof. exact forward_iff. Qed.

(** The angle of a vector that is not almost vertical. *)
Theorem C23_vector_angle : forall x y, SMALL_NUMBER <= Rabs x ->
  0 <= GetAngleOfVector x y < 2 * PI /\
  x = sqrt (x * x + y * y) * cos (GetAngleOfVector x y) /\ y = sqrt (x * x + y * y) * sin (GetAngleOfVector x y).
Proof. exact vector_angle. Qed.

(** A vertical vector is tilted. *)
Theorem C23_vector_angle_refuted : GetAngleOfVector 0 1 <> PI / 2.
Proof.
  unfold GetAngleOfVector. pose proof small_pos as S. pose proof PI_RGT_0.
  replace (Rltb (Rabs 0) SMALL_NUMBER) with true by (symmetry; apply Rltb_true; rewrite Rabs_R0; auto).
  replace (Rltb (Rabs 1) SMALL_NUMBER) with false by (symmetry; apply Rltb_false; rewrite Rabs_R1; unfold SMALL_NUMBER; lra).
  cbn [andb].
  assert (A : atan2 1 (SIGN 0 * SMALL_NUMBER) = atan (1 / (SIGN 0 * SMALL_NUMBER))).
  { unfold atan2. replace (Rltb 0 (SIGN 0 * SMALL_NUMBER)) with true; auto. symmetry. apply Rltb_true.
    unfold SIGN. replace (Rltb 0 0) with false by (symmetry; apply Rltb_false; lra). lra. }
  rewrite A. pose proof (atan_bound (1 / (SIGN 0 * SMALL_NUMBER))). rcase; lra.
Qed.

Example C23_interval_2pi_ex : same_angle (5 * PI) PI.
Proof. exists 2%Z. lra. Qed.
Example C23_interval_pm_pi_ex : GetAngleInIntervalMinusPIPlusPI 0 = 0.
Proof.
  destruct (interval_pm 0) as (B & k & E). pose proof PI_RGT_0. rewrite E in *.
  assert (k = 0)%Z. { assert (IZR k < 1) by nra. assert (-1 < IZR k) by nra. apply lt_IZR in H0, H1. lia. }
  subst. lra.
Qed.
Example C23_difference_ex : same_angle (PI / 2 + PI / 2) (- PI).
Proof. exists 1%Z. lra. Qed.
Example C23_forward_ex : IsAngleForward 0 = true /\ IsAngleForward PI = false.
Proof.
  split; [apply forward_iff; rewrite cos_0; lra|].
  destruct (IsAngleForward PI) eqn:E; auto. apply forward_iff in E. rewrite cos_PI in E. lra.
Qed.
Example C23_vector_angle_ex : SMALL_NUMBER <= Rabs 1.
Proof. rewrite Rabs_R1. unfold SMALL_NUMBER. lra. Qed.

Print Assumptions C23_interval_2pi.
Print Assumptions C23_interval_pm_pi.
Print Assumptions C23_unique.
Print Assumptions C23_sum.
Print Assumptions C23_difference.
Print Assumptions C23_abs_difference.
Print Assumptions C23_forward.
Print Assumptions C23_vector_angle.
Print Assumptions C23_vector_angle_refuted.

(** ** C24: rotations *)

Theorem C24_plane_compose : forall x y a b,
  RotateVec2D (fst (RotateVec2D x y a)) (snd (RotateVec2D x y a)) b = RotateVec2D x y (a + b).
Proof. exact rotate2_compose. Qed.

Theorem C24_plane_inverse : forall x y a,
  RotateVec2D (fst (RotateVec2D x y a)) (snd (RotateVec2D x y a)) (- a) = (x, y).
Proof. intros. rewrite rotate2_compose. replace (a + - a) with 0 by ring. apply rotate2_zero. Qed.

Theorem C24_plane_length : forall x y a,
  let v := RotateVec2D x y a in fst v * fst v + snd v * snd v = x * x + y * y.
Proof. exact rotate2_len. Qed.

(** Heading about z, then pitch about y, then roll about x. *)
Theorem C24_axes : forall h p r, euler h p r = mmul (about_z h) (mmul (about_y p) (about_x r)).
Proof. exact euler_axes. Qed.

Theorem C24_inverse : forall h p r v, regular h p r ->
  InverseRotateVec3d h p r (RotateVec3d h p r v) = v /\ RotateVec3d h p r (InverseRotateVec3d h p r v) = v.
Proof. intros h p r v G. split; [now apply rotate_inverse|now apply inverse_rotate]. Qed.

(** For all angles the two cancel up to one millionth. *)
Theorem C24_inverse_bound : forall h p r v,
  let w := InverseRotateVec3d h p r (RotateVec3d h p r v) in
  Rabs (vx w - vx v) <= SMALL_NUMBER * (Rabs (vx v) + Rabs (vz v)) /\
  Rabs (vy w - vy v) <= SMALL_NUMBER * (Rabs (vx v) + Rabs (vz v)) /\
  Rabs (vz w - vz v) <= SMALL_NUMBER * (Rabs (vx v) + Rabs (vz v)).
Proof. exact rotate_inverse_bound. Qed.

(** They do not cancel exactly for a quarter turn. *)
Theorem C24_inverse_refuted : exists h p r v, InverseRotateVec3d h p r (RotateVec3d h p r v) <> v.
Proof.
  exists (PI / 2), 0, 0, (V3 1 0 0). intros H. apply (f_equal vy) in H. revert H.
  unfold RotateVec3d, InverseRotateVec3d, MultMatrixVector3d, avoid_gimbal, euler. cbn.
  rewrite cos_PI2, sin_PI2, cos_0, sin_0. unfold nudge.
  replace (Rltb (Rabs (0 * 1)) SMALL_NUMBER) with true.
  - unfold SIGN. replace (Rltb (0 * 1) 0) with false by (symmetry; apply Rltb_false; lra).
    pose proof small_pos. intros H1. lra.
  - symmetry. apply Rltb_true. rewrite Rmult_0_l, Rabs_R0. apply small_pos.
Qed.

Theorem C24_length : forall h p r v, len2 (InverseRotateVec3d h p r v) = len2 v /\
  (regular h p r -> len2 (RotateVec3d h p r v) = len2 v).
Proof.
  intros h p r v. split.
  - rewrite inverse_is_transpose. apply rotation_len. destruct (euler_rot h p r) as [L R C]. split; auto.
    rewrite cof_transpose. now rewrite C.
  - intros G. rewrite rotate_regular by auto. apply rotation_len, euler_rot.
Qed.

(** Local and global coordinates: inverse of each other when called with opposite angles ... *)
Theorem C24_local_global : forall xt yt xh yh h,
  Local2GlobalCoordinates xh yh h (fst (Global2LocalCoordinates xt yt xh yh (- h))) (snd (Global2LocalCoordinates xt yt xh yh (- h)))
  = (xt, yt).
Proof. exact local_global. Qed.

Theorem C24_global_local : forall x y xh yh h,
  Global2LocalCoordinates (fst (Local2GlobalCoordinates xh yh h x y)) (snd (Local2GlobalCoordinates xh yh h x y)) xh yh (- h) = (x, y).
Proof. exact global_local. Qed.

(** ... not with the same angle. *)
Theorem C24_same_heading_refuted : exists xt yt xh yh h,
  Local2GlobalCoordinates xh yh h (fst (Global2LocalCoordinates xt yt xh yh h)) (snd (Global2LocalCoordinates xt yt xh yh h)) <> (xt, yt).
Proof.
  exists 1, 0, 0, 0, (PI / 2). unfold Local2GlobalCoordinates, Global2LocalCoordinates. cbn.
  rewrite cos_neg, sin_neg, cos_PI2, sin_PI2. intros H. injection H as H _. lra.
Qed.

Example C24_inverse_ex : regular 0 0 0.
Proof. unfold regular. rewrite cos_0, Rmult_1_r, Rabs_R1. unfold SMALL_NUMBER. lra. Qed.
Example C24_plane_ex : RotateVec2D 1 0 (PI / 2) = (0, 1).
Proof. unfold RotateVec2D. rewrite cos_PI2, sin_PI2. f_equal; ring. Qed.
Example C24_axes_ex : MultMatrixVector3d (euler (PI / 2) 0 0) (V3 1 0 0) = V3 0 1 0.
Proof. apply vec_ext; cbn; rewrite ?cos_PI2, ?sin_PI2, ?cos_0, ?sin_0; ring. Qed.

Print Assumptions C24_plane_compose.
Print Assumptions C24_plane_inverse.
Print Assumptions C24_plane_length.
Print Assumptions C24_axes.
Print Assumptions C24_inverse.
Print Assumptions C24_inverse_bound.
Print Assumptions C24_inverse_refuted.
Print Assumptions C24_length.
Print Assumptions C24_local_global.
Print Assumptions C24_global_local.
Print Assumptions C24_same_heading_refuted.

(** ** C25: matrix inversion *)

Theorem C25_inverse : forall m i, InvertMatrix3 m = Some i -> mmul m i = identity3 /\ mmul i m = identity3.
Proof. exact invert_spec. Qed.

(** Success exactly when the leading minors are all non-zero. *)
Theorem C25_success : forall m, (exists i, InvertMatrix3 m = Some i) <-> m00 m <> 0 /\ minor2 m <> 0 /\ det3 m <> 0.
Proof. exact invert_iff. Qed.

(** So some invertible matrices are rejected. *)
Theorem C25_complete_refuted : exists m i, mmul m i = identity3 /\ mmul i m = identity3 /\ InvertMatrix3 m = None.
Proof.
  exists (M3 0 1 0 1 0 0 0 0 1), (M3 0 1 0 1 0 0 0 0 1). repeat split; try (apply mat_ext; cbn; ring).
  unfold InvertMatrix3. cbn. now replace (Reqb 0 0) with true by (symmetry; now apply Reqb_true).
Qed.

Theorem C25_product : forall a b, MultMatrixMatrix3d a b = mmul a b.
Proof. exact mult_is_mmul. Qed.

Example C25_inverse_ex : exists i, InvertMatrix3 (M3 2 0 0 0 1 1 0 0 4) = Some i.
Proof. apply invert_iff. unfold minor2, det3. cbn. lra. Qed.

Print Assumptions C25_inverse.
Print Assumptions C25_success.
Print Assumptions C25_complete_refuted.
Print Assumptions C25_product.

(** ** C42: composition of orientations *)

(** The angles computed for two orientations in sequence describe the product of the rotations. *)
Theorem C42_compose : forall h0 p0 r0 h1 p1 r1,
  let m := mmul (euler h0 p0 r0) (euler h1 p1 r1) in
  SMALL_NUMBER <= Rabs (m00 m) -> SMALL_NUMBER <= Rabs (m22 m) ->
  let '(h, p, r) := R0R12EulerAngles h0 p0 r0 h1 p1 r1 in euler h p r = m.
Proof. exact compose_angles. Qed.

Theorem C42_range : forall m, let '(h, p, r) := extract m in
  0 <= h < 2 * PI /\ 0 <= p < 2 * PI /\ 0 <= r < 2 * PI.
Proof. exact extract_range. Qed.

Theorem C42_zyz : forall a b c, SMALL_NUMBER <= Rabs (m00 (zyz a b c)) -> SMALL_NUMBER <= Rabs (m22 (zyz a b c)) ->
  let '(h, p, r) := ZYZ2EulerAngles a b c in
  euler h p r = mmul (about_z a) (mmul (about_y b) (about_z c)).
Proof. intros a b c A B. rewrite <- zyz_axes. now apply zyz_angles. Qed.

(** The angles relative to the road, put on top of the road's, give the absolute orientation. *)
Theorem C42_relative : forall hr pr rr ha pa ra, cos hr <> 0 -> cos pr <> 0 -> cos rr <> 0 ->
  let m := mmul (transpose (euler hr pr rr)) (euler ha pa ra) in
  SMALL_NUMBER <= Rabs (m00 m) -> SMALL_NUMBER <= Rabs (m22 m) ->
  let '(h, p, r) := CalcRelAnglesFromRoadAndAbsAngles hr pr rr ha pa ra in
  mmul (euler hr pr rr) (euler h p r) = euler ha pa ra.
Proof. exact relative_angles. Qed.

(** With exact arithmetic, a road along the y axis has no relative angles: the inversion fails and the failure is ignored.  (In
    floating point the cosine of the nearest double to pi/2 is not zero.) *)
Theorem C42_relative_refuted : forall ha pa ra, CalcRelAnglesFromRoadAndAbsAngles (PI / 2) 0 0 ha pa ra = (0, 0, 0).
Proof.
  intros ha pa ra. unfold CalcRelAnglesFromRoadAndAbsAngles.
  replace (InvertMatrix3 (euler (PI / 2) 0 0)) with (@None mat3).
  - rewrite mult_is_mmul. replace (mmul zero3 (euler ha pa ra)) with zero3 by (apply mat_ext; cbn; ring).
    assert (N : nudge 0 = SMALL_NUMBER).
    { unfold nudge. replace (Rltb (Rabs 0) SMALL_NUMBER) with true by (symmetry; apply Rltb_true; rewrite Rabs_R0; apply small_pos).
      unfold SIGN. replace (Rltb 0 0) with false by (symmetry; apply Rltb_false; lra). ring. }
    unfold avoid_gimbal, extract. cbn. rewrite N. pose proof small_pos as S. pose proof PI_RGT_0.
    replace (0 * 0 + SMALL_NUMBER * SMALL_NUMBER) with (SMALL_NUMBER * SMALL_NUMBER) by ring.
    rewrite sqrt_square by lra.
    assert (A : atan2 0 SMALL_NUMBER = 0).
    { unfold atan2. replace (Rltb 0 SMALL_NUMBER) with true by (symmetry; now apply Rltb_true).
      replace (0 / SMALL_NUMBER) with 0 by (field; lra). apply atan_0. }
    rewrite Ropp_0, A, interval2pi_id by lra. reflexivity.
  - unfold InvertMatrix3, euler. cbn. rewrite cos_PI2, Rmult_0_l.
    now replace (Reqb 0 0) with true by (symmetry; now apply Reqb_true).
Qed.

Example C42_compose_ex : let m := mmul (euler 0 0 0) (euler 0 0 0) in
  SMALL_NUMBER <= Rabs (m00 m) /\ SMALL_NUMBER <= Rabs (m22 m).
Proof.
  cbn. rewrite cos_0, sin_0. split; match goal with |- _ <= Rabs ?e => replace e with 1 by ring end; rewrite Rabs_R1;
    unfold SMALL_NUMBER; lra.
Qed.
Example C42_zyz_ex : SMALL_NUMBER <= Rabs (m00 (zyz 0 0 0)) /\ SMALL_NUMBER <= Rabs (m22 (zyz 0 0 0)).
Proof.
  cbn. rewrite cos_0, sin_0. split; match goal with |- _ <= Rabs ?e => replace e with 1 by ring end; rewrite Rabs_R1;
    unfold SMALL_NUMBER; lra.
Qed.
Example C42_relative_ex : let m := mmul (transpose (euler 0 0 0)) (euler 0 0 0) in
  cos 0 <> 0 /\ SMALL_NUMBER <= Rabs (m00 m) /\ SMALL_NUMBER <= Rabs (m22 m).
Proof.
  cbn. rewrite cos_0, sin_0. split; [lra|].
  split; match goal with |- _ <= Rabs ?e => replace e with 1 by ring end; rewrite Rabs_R1; unfold SMALL_NUMBER; lra.
Qed.

Print Assumptions C42_compose.
Print Assumptions C42_range.
Print Assumptions C42_zyz.
Print Assumptions C42_relative.
Print Assumptions C42_relative_refuted.
