(** Specification and lemmas for angles, rotations and matrices. *)
From Coq Require Import Reals Bool Lra Lia Psatz ZArith.
From Verif Require Import AngModel.
Open Scope R_scope.

(** ** Specification *)

(** Equal as directions. *)
Definition same_angle (a b : R) : Prop := exists k : Z, a = b + 2 * IZR k * PI.

Definition identity3 : mat3 := M3 1 0 0 0 1 0 0 0 1.

(** Matrix product, transpose and determinant of the textbook. *)
Definition mmul (a b : mat3) : mat3 :=
  M3 (m00 a * m00 b + m01 a * m10 b + m02 a * m20 b) (m00 a * m01 b + m01 a * m11 b + m02 a * m21 b) (m00 a * m02 b + m01 a * m12 b + m02 a * m22 b)
     (m10 a * m00 b + m11 a * m10 b + m12 a * m20 b) (m10 a * m01 b + m11 a * m11 b + m12 a * m21 b) (m10 a * m02 b + m11 a * m12 b + m12 a * m22 b)
     (m20 a * m00 b + m21 a * m10 b + m22 a * m20 b) (m20 a * m01 b + m21 a * m11 b + m22 a * m21 b) (m20 a * m02 b + m21 a * m12 b + m22 a * m22 b).

Definition det3 (m : mat3) : R :=
  m00 m * (m11 m * m22 m - m12 m * m21 m) - m01 m * (m10 m * m22 m - m12 m * m20 m) + m02 m * (m10 m * m21 m - m11 m * m20 m).

(** The elementary rotations about the axes: heading about z, pitch about y, roll about x. *)
Definition about_z (a : R) : mat3 := M3 (cos a) (- sin a) 0 (sin a) (cos a) 0 0 0 1.
Definition about_y (a : R) : mat3 := M3 (cos a) 0 (sin a) 0 1 0 (- sin a) 0 (cos a).
Definition about_x (a : R) : mat3 := M3 1 0 0 0 (cos a) (- sin a) 0 (sin a) (cos a).

Definition len2 (v : vec3) : R := vx v * vx v + vy v * vy v + vz v * vz v.

(** ** Comparisons *)

Lemma Rltb_true : forall x y, Rltb x y = true <-> x < y.
Proof. intros x y. unfold Rltb. destruct (Rlt_dec x y); split; intro; auto; try discriminate; lra. Qed.

Lemma Rltb_false : forall x y, Rltb x y = false <-> y <= x.
Proof. intros x y. unfold Rltb. destruct (Rlt_dec x y); split; intro; auto; try discriminate; lra. Qed.

Lemma Reqb_true : forall x y, Reqb x y = true <-> x = y.
Proof. intros x y. unfold Reqb. destruct (Req_EM_T x y); split; intro; auto; try discriminate; lra. Qed.

Lemma Reqb_false : forall x y, Reqb x y = false <-> x <> y.
Proof. intros x y. unfold Reqb. destruct (Req_EM_T x y); split; intro; auto; try discriminate; lra. Qed.

Ltac rcase :=
  match goal with
  | |- context [Rltb ?a ?b] => let E := fresh "E" in destruct (Rltb a b) eqn:E; [apply Rltb_true in E|apply Rltb_false in E]
  end.

Lemma small_pos : 0 < SMALL_NUMBER.
Proof. unfold SMALL_NUMBER. lra. Qed.

(** ** fmod *)

Lemma int_part : forall x, IZR (Int_part x) <= x < IZR (Int_part x) + 1.
Proof. intros x. destruct (base_Int_part x). lra. Qed.

Lemma fmod_spec : forall x y, 0 < y -> (exists k : Z, fmod x y = x - y * IZR k) /\
  (0 <= x -> 0 <= fmod x y < y) /\ (x <= 0 -> - y < fmod x y <= 0).
Proof.
  intros x y Y. unfold fmod, trunc.
  assert (Q : y * (x / y) = x) by (field; lra).
  destruct (Rltb (x / y) 0) eqn:E.
  - apply Rltb_true in E. pose proof (int_part (- (x / y))) as I. split; [|split].
    + exists (- Int_part (- (x / y)))%Z. now rewrite opp_IZR.
    + intros H. exfalso. nra.
    + intros H. generalize (IZR (Int_part (- (x / y)))) I. intros k K. split; nra.
  - apply Rltb_false in E. pose proof (int_part (x / y)) as I. split; [|split].
    + eauto.
    + intros H. generalize (IZR (Int_part (x / y))) I. intros k K. split; nra.
    + intros H. assert (Z0 : x / y = 0) by nra. rewrite Z0 in *.
      assert (x = 0) by lra. subst x.
      assert (K : Int_part 0 = 0%Z).
      { destruct I. apply Z.le_antisymm.
        - apply le_IZR. lra.
        - apply Z.lt_succ_r, lt_IZR. unfold Z.succ. rewrite plus_IZR. lra. }
      rewrite K. lra.
Qed.

Lemma same_refl : forall a, same_angle a a.
Proof. intros a. exists 0%Z. lra. Qed.

Lemma same_shift : forall a b k, same_angle a b -> same_angle (a + 2 * IZR k * PI) b.
Proof. intros a b k (j & ->). exists (j + k)%Z. rewrite plus_IZR. lra. Qed.

Lemma same_trans : forall a b c, same_angle a b -> same_angle b c -> same_angle a c.
Proof. intros a b c (j & ->) (k & ->). exists (j + k)%Z. rewrite plus_IZR. lra. Qed.

Lemma fmod_same : forall a, same_angle (fmod a (2 * PI)) a.
Proof.
  intros a. pose proof PI_RGT_0. destruct (fmod_spec a (2 * PI)) as ((k & ->) & _); [lra|].
  exists (- k)%Z. rewrite opp_IZR. lra.
Qed.

Lemma fmod_range : forall a, - (2 * PI) < fmod a (2 * PI) < 2 * PI.
Proof.
  intros a. pose proof PI_RGT_0. destruct (fmod_spec a (2 * PI)) as (_ & P & N); [lra|].
  destruct (Rle_dec 0 a); [specialize (P r)|assert (a <= 0) by lra; specialize (N H0)]; lra.
Qed.

Lemma cos_period_Z : forall k x, cos (x + 2 * IZR k * PI) = cos x /\ sin (x + 2 * IZR k * PI) = sin x.
Proof.
  intros k x. destruct (Z_le_gt_dec 0 k) as [H|H].
  - rewrite <- (Z2Nat.id k) by auto. rewrite <- INR_IZR_INZ. split; [apply cos_period|apply sin_period].
  - set (y := x + 2 * IZR k * PI). assert (x = y + 2 * INR (Z.to_nat (- k)) * PI).
    { unfold y. rewrite INR_IZR_INZ, Z2Nat.id by lia. rewrite opp_IZR. lra. }
    rewrite H0. rewrite cos_period, sin_period. auto.
Qed.

Lemma same_trig : forall a b, same_angle a b -> cos a = cos b /\ sin a = sin b.
Proof. intros a b (k & ->). apply cos_period_Z. Qed.

(** ** Angle normalisation *)

Lemma interval2pi : forall a, 0 <= GetAngleInInterval2PI a < 2 * PI /\ same_angle (GetAngleInInterval2PI a) a.
Proof.
  intros a. unfold GetAngleInInterval2PI. pose proof (fmod_range a). pose proof (fmod_same a). pose proof PI_RGT_0.
  rcase; split; auto; try lra.
  replace (fmod a (2 * PI) + 2 * PI) with (fmod a (2 * PI) + 2 * IZR 1 * PI) by lra. now apply same_shift.
Qed.

Lemma interval2pi_id : forall a, 0 <= a < 2 * PI -> GetAngleInInterval2PI a = a.
Proof.
  intros a H. destruct (interval2pi a) as (B & k & E). pose proof PI_RGT_0.
  assert (k = 0)%Z.
  { assert (IZR k < 1) by nra. assert (-1 < IZR k) by nra. apply lt_IZR in H1, H2. lia. }
  subst k. rewrite E in *. lra.
Qed.

Lemma same_unique : forall a b, 0 <= a < 2 * PI -> 0 <= b < 2 * PI -> same_angle a b -> a = b.
Proof.
  intros a b A B (k & E). pose proof PI_RGT_0.
  assert (k = 0)%Z.
  { assert (IZR k < 1) by nra. assert (-1 < IZR k) by nra. apply lt_IZR in H0, H1. lia. }
  subst k. lra.
Qed.

Lemma interval_pm : forall a, - PI <= GetAngleInIntervalMinusPIPlusPI a <= PI /\ same_angle (GetAngleInIntervalMinusPIPlusPI a) a.
Proof.
  intros a. unfold GetAngleInIntervalMinusPIPlusPI. pose proof (fmod_range a). pose proof (fmod_same a).
  rcase; [|rcase]; split; auto; try lra.
  - replace (fmod a (2 * PI) + 2 * PI) with (fmod a (2 * PI) + 2 * IZR 1 * PI) by lra. now apply same_shift.
  - replace (fmod a (2 * PI) - 2 * PI) with (fmod a (2 * PI) + 2 * IZR (-1) * PI) by lra. now apply same_shift.
Qed.

Lemma difference_is : forall a b, GetAngleDifference a b = GetAngleInIntervalMinusPIPlusPI (a - b).
Proof. reflexivity. Qed.

(** The smallest turn between two directions. *)
Lemma difference_minimal : forall a b t, same_angle (b + t) a -> Rabs (GetAngleDifference a b) <= Rabs t.
Proof.
  intros a b t (k & E). rewrite difference_is. destruct (interval_pm (a - b)) as (B & j & F).
  pose proof PI_RGT_0. set (d := GetAngleInIntervalMinusPIPlusPI (a - b)) in *.
  assert (T : t = d + 2 * IZR (k - j) * PI) by (rewrite minus_IZR; lra).
  destruct (Z.eq_dec (k - j) 0) as [Z0|Z0].
  - rewrite Z0 in T. replace t with d by lra. lra.
  - apply Rle_trans with PI; [apply Rabs_le; lra|].
    destruct (Z_lt_le_dec 0 (k - j)) as [L|L].
    + assert (1 <= IZR (k - j)) by (apply IZR_le; lia). apply Rle_trans with t; [|apply Rle_abs]. nra.
    + assert (IZR (k - j) <= -1) by (apply IZR_le; lia). rewrite <- Rabs_Ropp. apply Rle_trans with (- t); [|apply Rle_abs]. nra.
Qed.

Lemma abs_difference : forall a b, GetAbsAngleDifference a b = Rabs (GetAngleDifference a b).
Proof.
  intros a b. unfold GetAbsAngleDifference, GetAngleDifference. pose proof (fmod_range (a - b)). pose proof PI_RGT_0.
  set (d := fmod (a - b) (2 * PI)) in *. clearbody d.
  destruct (Rltb d 0) eqn:E0; [apply Rltb_true in E0|apply Rltb_false in E0].
  - destruct (Rltb PI (d + 2 * PI)) eqn:E1; [apply Rltb_true in E1|apply Rltb_false in E1].
    + rewrite interval2pi_id by lra. destruct (Rltb d (- PI)) eqn:E2; [apply Rltb_true in E2; lra|].
      destruct (Rltb PI d) eqn:E3; [apply Rltb_true in E3; lra|]. rewrite Rabs_left by lra. lra.
    + rewrite interval2pi_id by lra. destruct (Rltb d (- PI)) eqn:E2; [apply Rltb_true in E2|apply Rltb_false in E2].
      * rewrite Rabs_right; lra.
      * destruct (Rltb PI d) eqn:E3; [apply Rltb_true in E3; lra|]. rewrite Rabs_left by lra. lra.
  - destruct (Rltb d (- PI)) eqn:E2; [apply Rltb_true in E2; lra|].
    destruct (Rltb PI d) eqn:E3; [apply Rltb_true in E3|apply Rltb_false in E3].
    + rewrite interval2pi_id by lra. rewrite Rabs_left1 by lra. lra.
    + rewrite interval2pi_id by lra. rewrite Rabs_right; lra.
Qed.

Lemma abs_difference_sym : forall a b, GetAbsAngleDifference a b = GetAbsAngleDifference b a.
Proof.
  intros a b. rewrite !abs_difference. apply Rle_antisym.
  - rewrite <- (Rabs_Ropp (GetAngleDifference b a)). apply difference_minimal.
    rewrite difference_is. destruct (interval_pm (b - a)) as (_ & k & ->). exists (- k)%Z. rewrite opp_IZR. lra.
  - rewrite <- (Rabs_Ropp (GetAngleDifference a b)). apply difference_minimal.
    rewrite difference_is. destruct (interval_pm (a - b)) as (_ & k & ->). exists (- k)%Z. rewrite opp_IZR. lra.
Qed.

Lemma forward_iff : forall t, IsAngleForward t = true <-> 0 <= cos t.
Proof.
  intros t. unfold IsAngleForward. destruct (interval2pi t) as (B & S).
  destruct (same_trig _ _ S) as (C & _). rewrite <- C. set (n := GetAngleInInterval2PI t) in *. clearbody n.
  pose proof PI_RGT_0. destruct (Rltb (PI / 2) n) eqn:E1; [apply Rltb_true in E1|apply Rltb_false in E1].
  - destruct (Rltb n (3 * (PI / 2))) eqn:E2; [apply Rltb_true in E2|apply Rltb_false in E2]; cbn.
    + split; [discriminate|]. intros H1. pose proof (cos_lt_0 n). lra.
    + split; auto. intros _. replace n with (n - 2 * PI + 2 * IZR 1 * PI) by lra.
      destruct (cos_period_Z 1 (n - 2 * PI)) as (-> & _). apply cos_ge_0; lra.
  - cbn. split; auto. intros _. apply cos_ge_0; lra.
Qed.

(** ** atan2 *)

Lemma atan2_spec : forall x y, (x <> 0 \/ y <> 0) ->
  - PI < atan2 y x <= PI /\
  cos (atan2 y x) = x / sqrt (x * x + y * y) /\ sin (atan2 y x) = y / sqrt (x * x + y * y) /\ 0 < sqrt (x * x + y * y).
Proof.
  intros x y H. pose proof PI_RGT_0.
  assert (P : 0 < x * x + y * y).
  { destruct H as [H|H]; [assert (0 < x * x) by nra; nra|assert (0 < y * y) by nra; nra]. }
  assert (R : 0 < sqrt (x * x + y * y)) by now apply sqrt_lt_R0.
  unfold atan2. destruct (Rltb 0 x) eqn:E1; [apply Rltb_true in E1|apply Rltb_false in E1].
  - pose proof (atan_bound (y / x)).
    assert (S : sqrt (1 + (y / x)²) = sqrt (x * x + y * y) / x).
    { replace (1 + (y / x)²) with ((x * x + y * y) / x²) by (unfold Rsqr; field; lra).
      rewrite sqrt_div_alt by (unfold Rsqr; nra). rewrite sqrt_Rsqr by lra. reflexivity. }
    rewrite cos_atan, sin_atan, S. repeat split; try lra; field; lra.
  - destruct (Rltb x 0) eqn:E2; [apply Rltb_true in E2|apply Rltb_false in E2].
    + pose proof (atan_bound (y / x)).
      assert (S : sqrt (1 + (y / x)²) = sqrt (x * x + y * y) / - x).
      { replace (1 + (y / x)²) with ((x * x + y * y) / (- x)²) by (unfold Rsqr; field; lra).
        rewrite sqrt_div_alt by (unfold Rsqr; nra). rewrite sqrt_Rsqr by lra. reflexivity. }
      assert (CS : cos (atan (y / x)) = - x / sqrt (x * x + y * y) /\ sin (atan (y / x)) = - y / sqrt (x * x + y * y)).
      { rewrite cos_atan, sin_atan, S. split; field; lra. }
      destruct CS as (C & SN).
      destruct (Rltb y 0) eqn:E3; [apply Rltb_true in E3|apply Rltb_false in E3].
      * assert (0 < y / x). { apply Rmult_lt_reg_r with (- x); [lra|]. replace (y / x * - x) with (- y) by (field; lra). lra. }
        assert (0 < atan (y / x)). { rewrite <- atan_0. now apply atan_increasing. }
        rewrite cos_minus, sin_minus, cos_PI, sin_PI, C, SN. repeat split; try lra; field; lra.
      * assert (y / x <= 0). { apply Rmult_le_reg_r with (- x); [lra|]. replace (y / x * - x) with (- y) by (field; lra). lra. }
        assert (atan (y / x) <= 0). { destruct (Req_EM_T (y / x) 0) as [->|N]; [rewrite atan_0; lra|].
          rewrite <- atan_0. apply Rlt_le. apply atan_increasing. lra. }
        rewrite neg_cos, neg_sin, C, SN. repeat split; try lra; field; lra.
    + assert (x = 0) by lra. subst x.
      destruct (Rltb 0 y) eqn:E3; [apply Rltb_true in E3|apply Rltb_false in E3].
      * replace (0 * 0 + y * y) with (y²) in * by (unfold Rsqr; lra). rewrite sqrt_Rsqr in * by lra.
        rewrite cos_PI2, sin_PI2. repeat split; try lra; field; lra.
      * destruct (Rltb y 0) eqn:E4; [apply Rltb_true in E4|apply Rltb_false in E4; lra].
        replace (0 * 0 + y * y) with ((- y)²) in * by (unfold Rsqr; lra). rewrite sqrt_Rsqr in * by lra.
        rewrite cos_neg, sin_neg, cos_PI2, sin_PI2. repeat split; try lra; field; lra.
Qed.

Lemma vector_angle : forall x y, SMALL_NUMBER <= Rabs x ->
  0 <= GetAngleOfVector x y < 2 * PI /\
  x = sqrt (x * x + y * y) * cos (GetAngleOfVector x y) /\ y = sqrt (x * x + y * y) * sin (GetAngleOfVector x y).
Proof.
  intros x y H. pose proof small_pos. pose proof PI_RGT_0. unfold GetAngleOfVector.
  replace (Rltb (Rabs x) SMALL_NUMBER) with false by (symmetry; now apply Rltb_false). cbn [andb].
  assert (N : x <> 0) by (intros ->; rewrite Rabs_R0 in H; lra).
  destruct (atan2_spec x y (or_introl N)) as (B & C & S & L).
  assert (CS : forall a, cos a = cos (atan2 y x) -> sin a = sin (atan2 y x) ->
     x = sqrt (x * x + y * y) * cos a /\ y = sqrt (x * x + y * y) * sin a).
  { intros a -> ->. rewrite C, S. split; field; lra. }
  rcase.
  - split; [lra|]. destruct (cos_period_Z 1 (atan2 y x)) as (P1 & P2).
    replace (atan2 y x + 2 * PI) with (atan2 y x + 2 * IZR 1 * PI) by lra. apply CS; auto.
  - split; [lra|]. apply CS; auto.
Qed.

(** ** Rotations in the plane *)

Lemma sin2cos2 : forall a, sin a * sin a + cos a * cos a = 1.
Proof. intros a. pose proof (sin2_cos2 a). unfold Rsqr in *. lra. Qed.

Lemma rotate2_compose : forall x y a b,
  RotateVec2D (fst (RotateVec2D x y a)) (snd (RotateVec2D x y a)) b = RotateVec2D x y (a + b).
Proof. intros. unfold RotateVec2D. cbn [fst snd]. rewrite cos_plus, sin_plus. f_equal; ring. Qed.

Lemma rotate2_zero : forall x y, RotateVec2D x y 0 = (x, y).
Proof. intros. unfold RotateVec2D. rewrite cos_0, sin_0. f_equal; ring. Qed.

Lemma rotate2_len : forall x y a, let v := RotateVec2D x y a in fst v * fst v + snd v * snd v = x * x + y * y.
Proof.
  intros. unfold v, RotateVec2D. cbn [fst snd]. pose proof (sin2cos2 a).
  replace ((x * cos a - y * sin a) * (x * cos a - y * sin a) + (x * sin a + y * cos a) * (x * sin a + y * cos a))
    with ((x * x + y * y) * (sin a * sin a + cos a * cos a)) by ring. rewrite H. ring.
Qed.

Lemma local_global : forall xt yt xh yh h,
  Local2GlobalCoordinates xh yh h (fst (Global2LocalCoordinates xt yt xh yh (- h))) (snd (Global2LocalCoordinates xt yt xh yh (- h)))
  = (xt, yt).
Proof.
  intros. unfold Local2GlobalCoordinates, Global2LocalCoordinates. cbn [fst snd].
  rewrite cos_neg, sin_neg. pose proof (sin2cos2 h). f_equal.
  - replace (((xt - xh) * cos h - (yt - yh) * - sin h) * cos h + ((xt - xh) * - sin h + (yt - yh) * cos h) * - sin h + xh)
      with ((xt - xh) * (sin h * sin h + cos h * cos h) + xh) by ring. rewrite H. ring.
  - replace (((xt - xh) * - sin h + (yt - yh) * cos h) * cos h - ((xt - xh) * cos h - (yt - yh) * - sin h) * - sin h + yh)
      with ((yt - yh) * (sin h * sin h + cos h * cos h) + yh) by ring. rewrite H. ring.
Qed.

Lemma global_local : forall x y xh yh h,
  Global2LocalCoordinates (fst (Local2GlobalCoordinates xh yh h x y)) (snd (Local2GlobalCoordinates xh yh h x y)) xh yh (- h) = (x, y).
Proof.
  intros. unfold Local2GlobalCoordinates, Global2LocalCoordinates. cbn [fst snd].
  rewrite cos_neg, sin_neg. pose proof (sin2cos2 h). f_equal.
  - match goal with |- ?l = _ => replace l with (x * (sin h * sin h + cos h * cos h)) by ring end. rewrite H. ring.
  - match goal with |- ?l = _ => replace l with (y * (sin h * sin h + cos h * cos h)) by ring end. rewrite H. ring.
Qed.

(** ** Matrices *)

Definition transpose (m : mat3) : mat3 := M3 (m00 m) (m10 m) (m20 m) (m01 m) (m11 m) (m21 m) (m02 m) (m12 m) (m22 m).
Definition cof (m : mat3) : mat3 :=
  M3 (m11 m * m22 m - m12 m * m21 m) (- (m10 m * m22 m - m12 m * m20 m)) (m10 m * m21 m - m11 m * m20 m)
     (- (m01 m * m22 m - m02 m * m21 m)) (m00 m * m22 m - m02 m * m20 m) (- (m00 m * m21 m - m01 m * m20 m))
     (m01 m * m12 m - m02 m * m11 m) (- (m00 m * m12 m - m02 m * m10 m)) (m00 m * m11 m - m01 m * m10 m).

Lemma mat_ext : forall a b, m00 a = m00 b -> m01 a = m01 b -> m02 a = m02 b -> m10 a = m10 b -> m11 a = m11 b -> m12 a = m12 b ->
  m20 a = m20 b -> m21 a = m21 b -> m22 a = m22 b -> a = b.
Proof. intros [] []; cbn; intros; subst; reflexivity. Qed.

Ltac mring := apply mat_ext; cbn; ring.

Lemma mult_is_mmul : forall a b, MultMatrixMatrix3d a b = mmul a b.
Proof. intros. unfold MultMatrixMatrix3d, mmul. f_equal; ring. Qed.

Lemma mmul_assoc : forall a b c, mmul (mmul a b) c = mmul a (mmul b c).
Proof. intros. mring. Qed.

Lemma mmul_1_l : forall a, mmul identity3 a = a.
Proof. intros. mring. Qed.

Lemma mmul_1_r : forall a, mmul a identity3 = a.
Proof. intros. mring. Qed.

Lemma transpose_mmul : forall a b, transpose (mmul a b) = mmul (transpose b) (transpose a).
Proof. intros. mring. Qed.

Lemma cof_mmul : forall a b, cof (mmul a b) = mmul (cof a) (cof b).
Proof. intros. mring. Qed.

Lemma cof_transpose : forall a, cof (transpose a) = transpose (cof a).
Proof. intros. mring. Qed.

Lemma det_mmul : forall a b, det3 (mmul a b) = det3 a * det3 b.
Proof. intros. unfold det3. cbn. ring. Qed.

Record rotation (m : mat3) : Prop := {
  rot_left : mmul (transpose m) m = identity3;
  rot_right : mmul m (transpose m) = identity3;
  rot_cof : cof m = m }.

Lemma rotation_mmul : forall a b, rotation a -> rotation b -> rotation (mmul a b).
Proof.
  intros a b [A1 A2 A3] [B1 B2 B3]. split.
  - rewrite transpose_mmul, mmul_assoc, <- (mmul_assoc (transpose a)), A1, mmul_1_l. exact B1.
  - rewrite transpose_mmul, mmul_assoc, <- (mmul_assoc b), B2, mmul_1_l. exact A2.
  - now rewrite cof_mmul, A3, B3.
Qed.

Ltac trig1 a := let H := fresh in pose proof (sin2cos2 a) as H;
  let c := fresh "c" in let s := fresh "s" in
  generalize dependent (cos a); intros c H; generalize dependent (sin a); intros s H.

Lemma about_z_rot : forall a, rotation (about_z a).
Proof. intros a. pose proof (sin2cos2 a). split; apply mat_ext; cbn; lra. Qed.
Lemma about_y_rot : forall a, rotation (about_y a).
Proof. intros a. pose proof (sin2cos2 a). split; apply mat_ext; cbn; lra. Qed.
Lemma about_x_rot : forall a, rotation (about_x a).
Proof. intros a. pose proof (sin2cos2 a). split; apply mat_ext; cbn; lra. Qed.

Lemma euler_axes : forall h p r, euler h p r = mmul (about_z h) (mmul (about_y p) (about_x r)).
Proof. intros. mring. Qed.

Lemma euler_rot : forall h p r, rotation (euler h p r).
Proof.
  intros. rewrite euler_axes. apply rotation_mmul; [apply about_z_rot|].
  apply rotation_mmul; [apply about_y_rot|apply about_x_rot].
Qed.

Lemma zyz_axes : forall a b c, zyz a b c = mmul (about_z a) (mmul (about_y b) (about_z c)).
Proof. intros. mring. Qed.

Lemma zyz_rot : forall a b c, rotation (zyz a b c).
Proof.
  intros. rewrite zyz_axes. apply rotation_mmul; [apply about_z_rot|].
  apply rotation_mmul; [apply about_y_rot|apply about_z_rot].
Qed.

Lemma rotation_det : forall m, rotation m -> det3 m = 1.
Proof.
  intros m [_ R C]. pose proof (f_equal m00 C) as C0. pose proof (f_equal m01 C) as C1. pose proof (f_equal m02 C) as C2.
  pose proof (f_equal m00 R) as R0. cbn in C0, C1, C2, R0. unfold det3.
  replace (m11 m * m22 m - m12 m * m21 m) with (m00 m) by (symmetry; exact C0).
  replace (m10 m * m22 m - m12 m * m20 m) with (- m01 m) by lra.
  replace (m10 m * m21 m - m11 m * m20 m) with (m02 m) by (symmetry; exact C2). lra.
Qed.

(** ** Rotating vectors *)

Lemma vec_ext : forall a b, vx a = vx b -> vy a = vy b -> vz a = vz b -> a = b.
Proof. intros [] []; cbn; intros; subst; reflexivity. Qed.

Lemma mult_vec : forall a b v, MultMatrixVector3d (mmul a b) v = MultMatrixVector3d a (MultMatrixVector3d b v).
Proof. intros. apply vec_ext; cbn; ring. Qed.

Lemma mult_vec_1 : forall v, MultMatrixVector3d identity3 v = v.
Proof. intros. apply vec_ext; cbn; ring. Qed.

Lemma inverse_is_transpose : forall h p r v, InverseRotateVec3d h p r v = MultMatrixVector3d (transpose (euler h p r)) v.
Proof. intros. apply vec_ext; cbn; ring. Qed.

Lemma rotation_len : forall m v, rotation m -> len2 (MultMatrixVector3d m v) = len2 v.
Proof.
  intros m v [L _ _].
  pose proof (f_equal m00 L) as E00. pose proof (f_equal m01 L) as E01. pose proof (f_equal m02 L) as E02.
  pose proof (f_equal m11 L) as E11. pose proof (f_equal m12 L) as E12. pose proof (f_equal m22 L) as E22.
  cbn in E00, E01, E02, E11, E12, E22. unfold len2. cbn. clear L.
  revert E00 E01 E02 E11 E12 E22.
  generalize (m00 m) (m01 m) (m02 m) (m10 m) (m11 m) (m12 m) (m20 m) (m21 m) (m22 m) (vx v) (vy v) (vz v).
  intros a b c d e f g h i x y z E00 E01 E02 E11 E12 E22.
  match goal with |- ?l = _ => replace l with
    ((a * a + d * d + g * g) * (x * x) + (b * b + e * e + h * h) * (y * y) + (c * c + f * f + i * i) * (z * z)
     + 2 * (a * b + d * e + g * h) * (x * y) + 2 * (a * c + d * f + g * i) * (x * z)
     + 2 * (b * c + e * f + h * i) * (y * z)) by ring end.
  rewrite E00, E01, E02, E11, E12, E22. ring.
Qed.

Lemma nudge_id : forall x, SMALL_NUMBER <= Rabs x -> nudge x = x.
Proof. intros x H. unfold nudge. now replace (Rltb (Rabs x) SMALL_NUMBER) with false by (symmetry; now apply Rltb_false). Qed.

Lemma nudge_close : forall x, Rabs (nudge x - x) <= SMALL_NUMBER.
Proof.
  intros x. pose proof small_pos. unfold nudge. destruct (Rltb (Rabs x) SMALL_NUMBER) eqn:E.
  - apply Rltb_true in E. apply Rabs_def2 in E. unfold SIGN. rcase; apply Rabs_le; lra.
  - replace (x - x) with 0 by ring. rewrite Rabs_R0. lra.
Qed.

Lemma nudge_nz : forall x, SMALL_NUMBER <= Rabs (nudge x).
Proof.
  intros x. pose proof small_pos. unfold nudge. destruct (Rltb (Rabs x) SMALL_NUMBER) eqn:E; [|now apply Rltb_false].
  unfold SIGN. rcase; [rewrite Rabs_left|rewrite Rabs_right]; lra.
Qed.

Lemma avoid_gimbal_id : forall m, SMALL_NUMBER <= Rabs (m00 m) -> SMALL_NUMBER <= Rabs (m22 m) -> avoid_gimbal m = m.
Proof. intros m A B. unfold avoid_gimbal. rewrite !nudge_id by auto. now destruct m. Qed.

(** Away from the singular directions: heading and pitch such that the x axis is not almost perpendicular to itself rotated, same
    for the z axis. *)
Definition regular (h p r : R) : Prop := SMALL_NUMBER <= Rabs (cos h * cos p) /\ SMALL_NUMBER <= Rabs (cos p * cos r).

Lemma rotate_regular : forall h p r v, regular h p r -> RotateVec3d h p r v = MultMatrixVector3d (euler h p r) v.
Proof. intros h p r v [A B]. unfold RotateVec3d. now rewrite avoid_gimbal_id. Qed.

Lemma rotate_inverse : forall h p r v, regular h p r -> InverseRotateVec3d h p r (RotateVec3d h p r v) = v.
Proof.
  intros h p r v G. rewrite rotate_regular by auto. rewrite inverse_is_transpose, <- mult_vec.
  rewrite (rot_left _ (euler_rot h p r)). apply mult_vec_1.
Qed.

Lemma inverse_rotate : forall h p r v, regular h p r -> RotateVec3d h p r (InverseRotateVec3d h p r v) = v.
Proof.
  intros h p r v G. rewrite rotate_regular by auto. rewrite inverse_is_transpose, <- mult_vec.
  rewrite (rot_right _ (euler_rot h p r)). apply mult_vec_1.
Qed.

Lemma rotation_entries : forall m, rotation m -> forall f, f = m00 \/ f = m02 \/ f = m20 \/ f = m22 \/ f = m01 \/ f = m21 -> Rabs (f m) <= 1.
Proof.
  intros m [L _ _] f F.
  pose proof (f_equal m00 L) as E0. pose proof (f_equal m11 L) as E1. pose proof (f_equal m22 L) as E2.
  cbn in E0, E1, E2. apply Rabs_le.
  destruct F as [->|[->|[->|[->|[->| ->]]]]]; nra.
Qed.

(** Everywhere, the error made by the gimbal lock guard is at most SMALL_NUMBER times the components. *)
Lemma rotate_inverse_bound : forall h p r v,
  let w := InverseRotateVec3d h p r (RotateVec3d h p r v) in
  Rabs (vx w - vx v) <= SMALL_NUMBER * (Rabs (vx v) + Rabs (vz v)) /\
  Rabs (vy w - vy v) <= SMALL_NUMBER * (Rabs (vx v) + Rabs (vz v)) /\
  Rabs (vz w - vz v) <= SMALL_NUMBER * (Rabs (vx v) + Rabs (vz v)).
Proof.
  intros h p r v w. set (E := euler h p r). pose proof (euler_rot h p r) as ROT. fold E in ROT.
  assert (W : w = MultMatrixVector3d (transpose E) (MultMatrixVector3d (avoid_gimbal E) v)).
  { unfold w. rewrite inverse_is_transpose. reflexivity. }
  clearbody E w.
  set (d0 := nudge (m00 E) - m00 E). set (d2 := nudge (m22 E) - m22 E).
  assert (D0 : Rabs d0 <= SMALL_NUMBER) by apply nudge_close.
  assert (D2 : Rabs d2 <= SMALL_NUMBER) by apply nudge_close.
  assert (B : forall c0 c2 : R, Rabs c0 <= 1 -> Rabs c2 <= 1 ->
     Rabs (c0 * (d0 * vx v) + c2 * (d2 * vz v)) <= SMALL_NUMBER * (Rabs (vx v) + Rabs (vz v))).
  { intros c0 c2 C0 C2. eapply Rle_trans; [apply Rabs_triang|]. rewrite !Rabs_mult.
    pose proof (Rabs_pos (vx v)). pose proof (Rabs_pos (vz v)). pose proof (Rabs_pos c0). pose proof (Rabs_pos c2).
    pose proof (Rabs_pos d0). pose proof (Rabs_pos d2). pose proof small_pos.
    assert (Rabs c0 * (Rabs d0 * Rabs (vx v)) <= 1 * (SMALL_NUMBER * Rabs (vx v))) by (apply Rmult_le_compat; nra).
    assert (Rabs c2 * (Rabs d2 * Rabs (vz v)) <= 1 * (SMALL_NUMBER * Rabs (vz v))) by (apply Rmult_le_compat; nra).
    lra. }
  pose proof (mult_vec (transpose E) E v) as ID. rewrite (rot_left _ ROT), mult_vec_1 in ID.
  assert (K : MultMatrixVector3d (avoid_gimbal E) v =
              V3 (vx (MultMatrixVector3d E v) + d0 * vx v) (vy (MultMatrixVector3d E v)) (vz (MultMatrixVector3d E v) + d2 * vz v)).
  { apply vec_ext; cbn; unfold d0, d2; ring. }
  rewrite W, K. set (u := MultMatrixVector3d E v) in *. clearbody u. clear K W.
  pose proof (f_equal vx ID) as IX. pose proof (f_equal vy ID) as IY. pose proof (f_equal vz ID) as IZ. cbn in IX, IY, IZ.
  cbn. pose proof (rotation_entries E ROT) as EN. clearbody d0 d2. split; [|split].
  - match goal with |- Rabs ?l <= _ => replace l with (m00 E * (d0 * vx v) + m20 E * (d2 * vz v)) by lra end. apply B; apply EN; tauto.
  - match goal with |- Rabs ?l <= _ => replace l with (m01 E * (d0 * vx v) + m21 E * (d2 * vz v)) by lra end. apply B; apply EN; tauto.
  - match goal with |- Rabs ?l <= _ => replace l with (m02 E * (d0 * vx v) + m22 E * (d2 * vz v)) by lra end. apply B; apply EN; tauto.
Qed.

(** ** Extraction of the angles *)

Lemma sqrt_sqr_eq : forall a b, 0 <= a -> a * a = b -> sqrt b = a.
Proof. intros a b P <-. apply sqrt_square. exact P. Qed.

(** Any three angles with the right sines and cosines. *)
Lemma euler_of_rotation : forall m h p r, rotation m -> (m21 m <> 0 \/ m22 m <> 0) -> 
  let c := sqrt (m21 m * m21 m + m22 m * m22 m) in
  cos h = m00 m / sqrt (m00 m * m00 m + m10 m * m10 m) -> sin h = m10 m / sqrt (m00 m * m00 m + m10 m * m10 m) ->
  cos p = c / sqrt (c * c + - m20 m * - m20 m) -> sin p = - m20 m / sqrt (c * c + - m20 m * - m20 m) ->
  cos r = m22 m / sqrt (m22 m * m22 m + m21 m * m21 m) -> sin r = m21 m / sqrt (m22 m * m22 m + m21 m * m21 m) ->
  euler h p r = m.
Proof.
  intros m h p r [L RR CF] NZ c CH SH CP SP CR SR.
  assert (CC : 0 < m21 m * m21 m + m22 m * m22 m) by (destruct NZ; nra).
  assert (C2 : c * c = m21 m * m21 m + m22 m * m22 m) by (apply sqrt_sqrt; lra).
  assert (C0 : 0 < c) by (now apply sqrt_lt_R0).
  pose proof (f_equal m00 L) as E0. pose proof (f_equal m22 RR) as E2. cbn in E0, E2.
  replace (sqrt (m00 m * m00 m + m10 m * m10 m)) with c in * by (symmetry; apply sqrt_sqr_eq; lra).
  replace (sqrt (m22 m * m22 m + m21 m * m21 m)) with c in * by (symmetry; apply sqrt_sqr_eq; lra).
  replace (sqrt (c * c + - m20 m * - m20 m)) with 1 in * by (symmetry; apply sqrt_sqr_eq; lra).
  replace (c / 1) with c in CP by field. replace (- m20 m / 1) with (- m20 m) in SP by field.
  pose proof (f_equal m01 CF) as F01. pose proof (f_equal m02 CF) as F02. pose proof (f_equal m11 CF) as F11.
  pose proof (f_equal m12 CF) as F12. cbn in F01, F02, F11, F12.
  assert (C1 : c * c = 1 - m20 m * m20 m) by lra.
  apply mat_ext; cbn; rewrite ?CH, ?SH, ?CP, ?SP, ?CR, ?SR; try (field; lra).
  - apply Rmult_eq_reg_r with (c * c); [|nra].
    transitivity (- m00 m * m20 m * m21 m - m10 m * m22 m); [field; lra|]. rewrite C1.
    assert (G : m20 m * m12 m = m20 m * (m01 m * m20 m - m00 m * m21 m)) by (f_equal; lra). lra.
  - apply Rmult_eq_reg_r with (c * c); [|nra].
    transitivity (m10 m * m21 m - m00 m * m20 m * m22 m); [field; lra|]. rewrite C1.
    assert (G : m20 m * m11 m = m20 m * (m00 m * m22 m - m02 m * m20 m)) by (f_equal; lra). lra.
  - apply Rmult_eq_reg_r with (c * c); [|nra].
    transitivity (m00 m * m22 m - m10 m * m20 m * m21 m); [field; lra|]. rewrite C1.
    assert (G : m20 m * m02 m = m20 m * (m10 m * m21 m - m11 m * m20 m)) by (f_equal; lra). lra.
  - apply Rmult_eq_reg_r with (c * c); [|nra].
    transitivity (- m10 m * m20 m * m22 m - m00 m * m21 m); [field; lra|]. rewrite C1.
    assert (G : m20 m * m01 m = m20 m * (m12 m * m20 m - m10 m * m22 m)) by (f_equal; lra). lra.
Qed.

Lemma extract_rotation : forall m, rotation m -> m00 m <> 0 -> m22 m <> 0 ->
  let '(h, p, r) := extract m in euler h p r = m.
Proof.
  intros m ROT N0 N2. unfold extract.
  set (c := sqrt (m21 m * m21 m + m22 m * m22 m)).
  assert (C : 0 < c) by (apply sqrt_lt_R0; nra).
  destruct (interval2pi (atan2 (m10 m) (m00 m))) as (_ & S1). apply same_trig in S1 as (C1 & S1).
  destruct (interval2pi (atan2 (- m20 m) c)) as (_ & S2). apply same_trig in S2 as (C2 & S2).
  destruct (interval2pi (atan2 (m21 m) (m22 m))) as (_ & S3). apply same_trig in S3 as (C3 & S3).
  destruct (atan2_spec (m00 m) (m10 m) (or_introl N0)) as (_ & A1 & B1 & _).
  destruct (atan2_spec c (- m20 m)) as (_ & A2 & B2 & _); [lra|].
  destruct (atan2_spec (m22 m) (m21 m) (or_introl N2)) as (_ & A3 & B3 & _).
  apply euler_of_rotation; auto; try (fold c); congruence.
Qed.

Lemma extract_range : forall m, let '(h, p, r) := extract m in
  0 <= h < 2 * PI /\ 0 <= p < 2 * PI /\ 0 <= r < 2 * PI.
Proof. intros m. unfold extract. repeat split; apply interval2pi. Qed.

Lemma abs_nz : forall x, SMALL_NUMBER <= Rabs x -> x <> 0.
Proof. intros x H ->. rewrite Rabs_R0 in H. pose proof small_pos. lra. Qed.

Lemma compose_angles : forall h0 p0 r0 h1 p1 r1,
  let m := mmul (euler h0 p0 r0) (euler h1 p1 r1) in
  SMALL_NUMBER <= Rabs (m00 m) -> SMALL_NUMBER <= Rabs (m22 m) ->
  let '(h, p, r) := R0R12EulerAngles h0 p0 r0 h1 p1 r1 in euler h p r = m.
Proof.
  intros h0 p0 r0 h1 p1 r1 m A B. unfold R0R12EulerAngles. rewrite mult_is_mmul. fold m.
  rewrite avoid_gimbal_id by auto. apply extract_rotation; [|now apply abs_nz|now apply abs_nz].
  apply rotation_mmul; apply euler_rot.
Qed.

Lemma zyz_angles : forall a b c, SMALL_NUMBER <= Rabs (m00 (zyz a b c)) -> SMALL_NUMBER <= Rabs (m22 (zyz a b c)) ->
  let '(h, p, r) := ZYZ2EulerAngles a b c in euler h p r = zyz a b c.
Proof.
  intros a b c A B. unfold ZYZ2EulerAngles. rewrite avoid_gimbal_id by auto.
  pose proof (zyz_rot a b c) as ROT. set (m := zyz a b c) in *. clearbody m.
  apply abs_nz in A, B. set (k := sqrt (m21 m * m21 m + m22 m * m22 m)).
  assert (C : 0 < k) by (apply sqrt_lt_R0; nra).
  destruct (atan2_spec (m00 m) (m10 m) (or_introl A)) as (_ & A1 & B1 & _).
  destruct (atan2_spec k (- m20 m)) as (_ & A2 & B2 & _); [lra|].
  destruct (atan2_spec (m22 m) (m21 m) (or_introl B)) as (_ & A3 & B3 & _).
  apply euler_of_rotation; auto.
Qed.

(** ** Matrix inversion *)

Definition minor2 (m : mat3) : R := m00 m * m11 m - m01 m * m10 m.

(** The left half of a row is the right half times the matrix. *)
Definition row_inv (m : mat3) (r : row6) : Prop :=
  a0 r = a3 r * m00 m + a4 r * m10 m + a5 r * m20 m /\
  a1 r = a3 r * m01 m + a4 r * m11 m + a5 r * m21 m /\
  a2 r = a3 r * m02 m + a4 r * m12 m + a5 r * m22 m.

Lemma row_inv_div : forall m r p, p <> 0 -> row_inv m r -> row_inv m (row_div r p).
Proof.
  intros m r p P (A & B & C). unfold row_inv, row_div. cbn. rewrite A, B, C. repeat split; field; auto.
Qed.

Lemma row_inv_sub : forall m r f q, row_inv m r -> row_inv m q -> row_inv m (row_sub r f q).
Proof.
  intros m r f q (A & B & C) (D & E & F). unfold row_inv, row_sub. cbn. rewrite A, B, C, D, E, F. repeat split; ring.
Qed.

Lemma invert_left : forall m i, InvertMatrix3 m = Some i -> mmul i m = identity3.
Proof.
  intros m i. unfold InvertMatrix3.
  set (r0 := R6 (m00 m) (m01 m) (m02 m) 1 0 0).
  set (r1 := R6 (m10 m) (m11 m) (m12 m) 0 1 0).
  set (r2 := R6 (m20 m) (m21 m) (m22 m) 0 0 1).
  assert (I0 : row_inv m r0) by (unfold row_inv, r0; cbn; repeat split; ring).
  assert (I1 : row_inv m r1) by (unfold row_inv, r1; cbn; repeat split; ring).
  assert (I2 : row_inv m r2) by (unfold row_inv, r2; cbn; repeat split; ring).
  clearbody r0 r1 r2. cbn zeta.
  destruct (Reqb (a0 r0) 0) eqn:E0; [discriminate|]. apply Reqb_false in E0.
  assert (J0 : row_inv m (row_div r0 (a0 r0))) by now apply row_inv_div.
  assert (A00 : a0 (row_div r0 (a0 r0)) = 1) by (cbn; field; auto).
  remember (row_div r0 (a0 r0)) as s0 eqn:Q. clear Q I0 E0.
  assert (J1 : row_inv m (row_sub r1 (a0 r1) s0)) by now apply row_inv_sub.
  assert (A10 : a0 (row_sub r1 (a0 r1) s0) = 0) by (cbn; rewrite A00; ring).
  remember (row_sub r1 (a0 r1) s0) as s1 eqn:Q. clear Q I1.
  assert (J2 : row_inv m (row_sub r2 (a0 r2) s0)) by now apply row_inv_sub.
  assert (A20 : a0 (row_sub r2 (a0 r2) s0) = 0) by (cbn; rewrite A00; ring).
  remember (row_sub r2 (a0 r2) s0) as s2 eqn:Q. clear Q I2. clear r0 r1 r2.
  destruct (Reqb (a1 s1) 0) eqn:E1; [discriminate|]. apply Reqb_false in E1.
  assert (K1 : row_inv m (row_div s1 (a1 s1))) by now apply row_inv_div.
  assert (B10 : a0 (row_div s1 (a1 s1)) = 0) by (cbn; rewrite A10; field; auto).
  assert (B11 : a1 (row_div s1 (a1 s1)) = 1) by (cbn; field; auto).
  remember (row_div s1 (a1 s1)) as t1 eqn:Q. clear Q J1 A10 E1.
  assert (K0 : row_inv m (row_sub s0 (a1 s0) t1)) by now apply row_inv_sub.
  assert (B00 : a0 (row_sub s0 (a1 s0) t1) = 1) by (cbn; rewrite A00, B10; ring).
  assert (B01 : a1 (row_sub s0 (a1 s0) t1) = 0) by (cbn; rewrite B11; ring).
  remember (row_sub s0 (a1 s0) t1) as t0 eqn:Q. clear Q J0 A00.
  assert (K2 : row_inv m (row_sub s2 (a1 s2) t1)) by now apply row_inv_sub.
  assert (B20 : a0 (row_sub s2 (a1 s2) t1) = 0) by (cbn; rewrite A20, B10; ring).
  assert (B21 : a1 (row_sub s2 (a1 s2) t1) = 0) by (cbn; rewrite B11; ring).
  remember (row_sub s2 (a1 s2) t1) as t2 eqn:Q. clear Q J2 A20. clear s0 s1 s2.
  destruct (Reqb (a2 t2) 0) eqn:E2; [discriminate|]. apply Reqb_false in E2.
  assert (L2 : row_inv m (row_div t2 (a2 t2))) by now apply row_inv_div.
  assert (C20 : a0 (row_div t2 (a2 t2)) = 0) by (cbn; rewrite B20; field; auto).
  assert (C21 : a1 (row_div t2 (a2 t2)) = 0) by (cbn; rewrite B21; field; auto).
  assert (C22 : a2 (row_div t2 (a2 t2)) = 1) by (cbn; field; auto).
  remember (row_div t2 (a2 t2)) as u2 eqn:Q. clear Q K2 B20 B21 E2.
  assert (L0 : row_inv m (row_sub t0 (a2 t0) u2)) by now apply row_inv_sub.
  assert (C00 : a0 (row_sub t0 (a2 t0) u2) = 1) by (cbn; rewrite B00, C20; ring).
  assert (C01 : a1 (row_sub t0 (a2 t0) u2) = 0) by (cbn; rewrite B01, C21; ring).
  assert (C02 : a2 (row_sub t0 (a2 t0) u2) = 0) by (cbn; rewrite C22; ring).
  remember (row_sub t0 (a2 t0) u2) as u0 eqn:Q. clear Q.
  assert (L1 : row_inv m (row_sub t1 (a2 t1) u2)) by now apply row_inv_sub.
  assert (C10 : a0 (row_sub t1 (a2 t1) u2) = 0) by (cbn; rewrite B10, C20; ring).
  assert (C11 : a1 (row_sub t1 (a2 t1) u2) = 1) by (cbn; rewrite B11, C21; ring).
  assert (C12 : a2 (row_sub t1 (a2 t1) u2) = 0) by (cbn; rewrite C22; ring).
  remember (row_sub t1 (a2 t1) u2) as u1 eqn:Q. clear Q.
  intros H. injection H as <-. destruct L0 as (X0 & X1 & X2), L1 as (Y0 & Y1 & Y2), L2 as (Z0 & Z1 & Z2).
  apply mat_ext; cbn; congruence.
Qed.

Definition adj (m : mat3) : mat3 := transpose (cof m).

Lemma left_inverse_right : forall m i, mmul i m = identity3 -> mmul m i = identity3.
Proof.
  intros m i H. pose proof (det_mmul i m) as D. rewrite H in D.
  assert (DI : det3 identity3 = 1) by (unfold det3; cbn; ring). rewrite DI in D.
  assert (DN : det3 m <> 0) by (intros Z; rewrite Z in D; lra).
  assert (MA : mmul m (adj m) = M3 (det3 m) 0 0 0 (det3 m) 0 0 0 (det3 m)).
  { apply mat_ext; unfold det3; cbn; ring. }
  assert (IA : mmul i (mmul m (adj m)) = adj m) by (rewrite <- mmul_assoc, H; apply mmul_1_l).
  rewrite MA in IA.
  assert (MI : mmul (mmul m i) (M3 (det3 m) 0 0 0 (det3 m) 0 0 0 (det3 m)) = M3 (det3 m) 0 0 0 (det3 m) 0 0 0 (det3 m)).
  { rewrite mmul_assoc, IA. exact MA. }
  assert (S : forall a, mmul a (M3 (det3 m) 0 0 0 (det3 m) 0 0 0 (det3 m)) = 
    M3 (m00 a * det3 m) (m01 a * det3 m) (m02 a * det3 m) (m10 a * det3 m) (m11 a * det3 m) (m12 a * det3 m)
       (m20 a * det3 m) (m21 a * det3 m) (m22 a * det3 m)).
  { intros a. generalize (det3 m). intros d. mring. }
  rewrite S in MI. generalize dependent (mmul m i). intros q Q. generalize dependent (det3 m). intros d _ DN _ _ _ Q.
  injection Q as Q0 Q1 Q2 Q3 Q4 Q5 Q6 Q7 Q8.
  assert (Z : forall x, x * d = 0 -> x = 0) by (intros x X; apply Rmult_integral in X; tauto).
  assert (O : forall x, x * d = d -> x = 1) by (intros x X; apply (Rmult_eq_reg_r d); lra).
  apply mat_ext; cbn; auto.
Qed.

Lemma invert_spec : forall m i, InvertMatrix3 m = Some i -> mmul m i = identity3 /\ mmul i m = identity3.
Proof. intros m i H. apply invert_left in H. split; auto. now apply left_inverse_right. Qed.

(** Exactly the matrices whose leading minors are all non-zero are inverted. *)
Lemma invert_iff : forall m, (exists i, InvertMatrix3 m = Some i) <-> m00 m <> 0 /\ minor2 m <> 0 /\ det3 m <> 0.
Proof.
  intros m. unfold InvertMatrix3. cbn [a0 a1 a2 a3 a4 a5 row_div row_sub].
  destruct (Reqb (m00 m) 0) eqn:E0; [apply Reqb_true in E0; split; [intros (i & H); discriminate|tauto]|].
  apply Reqb_false in E0.
  replace (m11 m - m10 m * (m01 m / m00 m)) with (minor2 m / m00 m) by (unfold minor2; field; auto).
  destruct (Reqb (minor2 m / m00 m) 0) eqn:E1; [apply Reqb_true in E1|apply Reqb_false in E1].
  { split; [intros (i & H); discriminate|]. intros (_ & M & _). elim M.
    replace (minor2 m) with (minor2 m / m00 m * m00 m) by (field; auto). rewrite E1. ring. }
  assert (M : minor2 m <> 0). { intros Z. apply E1. rewrite Z. field. auto. }
  match goal with |- context [Reqb ?e 0] => replace e with (det3 m / minor2 m)
    by (unfold det3, minor2 in *; field; auto) end.
  destruct (Reqb (det3 m / minor2 m) 0) eqn:E2; [apply Reqb_true in E2|apply Reqb_false in E2].
  - split; [intros (i & H); discriminate|]. intros (_ & _ & D). elim D.
    replace (det3 m) with (det3 m / minor2 m * minor2 m) by (field; auto). rewrite E2. ring.
  - split; [|eauto]. intros _. repeat split; auto. intros Z. apply E2. rewrite Z. field. auto.
Qed.

(** ** Angles relative to the road *)

Lemma relative_angles : forall hr pr rr ha pa ra, cos hr <> 0 -> cos pr <> 0 -> cos rr <> 0 ->
  let m := mmul (transpose (euler hr pr rr)) (euler ha pa ra) in
  SMALL_NUMBER <= Rabs (m00 m) -> SMALL_NUMBER <= Rabs (m22 m) ->
  let '(h, p, r) := CalcRelAnglesFromRoadAndAbsAngles hr pr rr ha pa ra in
  mmul (euler hr pr rr) (euler h p r) = euler ha pa ra.
Proof.
  intros hr pr rr ha pa ra CH CP CR m A B. unfold CalcRelAnglesFromRoadAndAbsAngles.
  set (E := euler hr pr rr) in *. pose proof (euler_rot hr pr rr) as ROT. fold E in ROT.
  assert (I : exists i, InvertMatrix3 E = Some i).
  { apply invert_iff. pose proof (sin2cos2 hr). pose proof (sin2cos2 pr). pose proof (sin2cos2 rr).
    pose proof (rotation_det _ ROT) as DE.
    repeat split.
    - unfold E. cbn. apply Rmult_integral_contrapositive. auto.
    - unfold minor2. pose proof (f_equal m22 (rot_cof _ ROT)) as C.
      change (m22 (cof E) = m22 E) in C. change (m00 E * m11 E - m01 E * m10 E) with (m22 (cof E)). rewrite C.
      unfold E. cbn. apply Rmult_integral_contrapositive. auto.
    - rewrite DE. lra. }
  destruct I as (i & I). rewrite I.
  assert (IT : i = transpose E).
  { apply invert_spec in I as (I1 & I2). rewrite <- (mmul_1_r i), <- (rot_right _ ROT), <- mmul_assoc, I2. apply mmul_1_l. }
  subst i. rewrite mult_is_mmul. fold m. rewrite avoid_gimbal_id by auto.
  assert (RT : rotation (transpose E)).
  { destruct ROT as [L R C]. split.
    - exact R.
    - exact L.
    - rewrite cof_transpose. now rewrite C. }
  pose proof (extract_rotation m) as X. destruct (extract m) as [[h p] r]. rewrite X.
  - unfold m. rewrite <- mmul_assoc, (rot_right _ ROT). apply mmul_1_l.
  - apply rotation_mmul; auto. apply euler_rot.
  - now apply abs_nz.
  - now apply abs_nz.
Qed.
