(** * C74: the bicycle model of a vehicle, and driving it by keys *)
From Coq Require Import Reals Bool List ZArith Lra Lia.
From Verif Require Import AngModel AngProofs BoxModel AccModel AccProofs VehModel VehProofs.
Import ListNotations.
Open Scope R_scope.

(** ** Limits over all runs *)
(** However it is driven, by whatever inputs and time steps, a vehicle within its speed limit stays so. *)
Theorem C74_speed_limit : forall v l, 0 <= max_speed_ v -> Rabs (speed_ v) <= max_speed_ v -> Rabs (speed_ (drives v l)) <= max_speed_ v.
Proof.
  intros v l M H. apply (drives_ind (fun u => Rabs (speed_ u) <= max_speed_ v)); [exact H|]. intros u c _ E K. apply setup_eqs in E. destruct E as (_ & E & _). rewrite <- E in *. now apply drive_speed.
Qed.
Example C74_speed_limit_ex : Rabs (speed_ (drives reset_veh [CBinary 1000 Plus Minus; CAnalog (-3) 99 7; CAcc 5 1000 2; CTarget 100 500 1])) <= 70.
Proof. apply (C74_speed_limit reset_veh); cbn; rewrite ?Rabs_R0; lra. Qed.
(** The wheels never turn by more than 60 degrees, so that the tangent of their angle is defined. *)
Theorem C74_wheel_limit : forall v l, 0 <= scale_ v -> Rabs (wheel_ v) <= PI / 3 -> Rabs (wheel_ (drives v l)) <= PI / 3 /\ 0 < cos (wheel_ (drives v l)).
Proof.
  intros v l M H.
  assert (K : Rabs (wheel_ (drives v l)) <= PI / 3).
  { apply (drives_ind (fun u => Rabs (wheel_ u) <= PI / 3)); [exact H|]. intros u c _ E K. apply setup_eqs in E. destruct E as (_ & _ & _ & _ & _ & _ & E & _). rewrite <- E in M. now apply drive_wheel. }
  split; [exact K|]. pose proof PI_RGT_0. apply cos_gt_0; unfold Rabs in K; destruct (Rcase_abs _); lra.
Qed.
Example C74_wheel_limit_ex : Rabs (wheel_ (drives reset_veh [CBinary 1000 Plus Minus; CAcc 5 1000 2])) <= PI / 3.
Proof. pose proof PI_RGT_0. apply (C74_wheel_limit reset_veh); cbn; rewrite ?Rabs_R0; lra. Qed.
(** At speed the wheels turn less: with the steering factor k (0.005 for analog driving) by no more than 60 degrees divided by 1 + k v^2. *)
Theorem C74_wheel_at_speed : forall v dt a s, 0 <= scale_ v -> no_steer_ v = false -> let u := DrivingControlBinary v dt a s in
  Rabs (wheel_ u) <= PI / 3 / (1 + scale_ v * speed_ u * speed_ u).
Proof.
  intros v dt a s K N u. unfold u, DrivingControlBinary. cbn [Update wheel_ speed_].
  destruct (throttle_part_form v dt (val a) (is_none a) (is_none a)) as (q & hb & ->). cbn [set_speed no_steer_]. rewrite N. cbn [set_wheel set_speed wheel_ speed_ scale_ rate_ ret_]. destruct (scale_range (scale_ v) q K) as [A B].
  pose proof PI_RGT_0. replace (PI / 3 / (1 + scale_ v * q * q)) with (1 / (1 + scale_ v * q * q) * (PI / 3)) by (unfold Rdiv; ring). rewrite max_angle. set (k := 1 / (1 + scale_ v * q * q)) in *.
  replace (- k * (PI / 3)) with (- (k * (PI / 3))) by ring. apply clamp_abs. nra.
Qed.
Example C74_wheel_at_speed_ex : scale_ reset_veh = 2 / 100 /\ no_steer_ reset_veh = false.
Proof. split; reflexivity. Qed.
Theorem C74_wheel_at_speed_analog : forall v dt a s, no_steer_ v = false -> let u := DrivingControlAnalog v dt a s in
  Rabs (wheel_ u) <= PI / 3 / (1 + 5 / 1000 * speed_ u * speed_ u).
Proof.
  intros v dt a s N u. unfold u, DrivingControlAnalog. cbn [Update wheel_ speed_].
  destruct (throttle_part_form v dt a (Rltb (Rabs a) SMALL_NUMBER || Rltb SMALL_NUMBER a) (Rltb (Rabs a) SMALL_NUMBER)) as (q & hb & ->). cbn [set_speed no_steer_]. rewrite N.
  cbn [set_wheel set_speed wheel_ speed_ scale_ rate_ ret_]. destruct (scale_range (5 / 1000) q ltac:(lra)) as [A B].
  pose proof PI_RGT_0. replace (PI / 3 / (1 + 5 / 1000 * q * q)) with (1 / (1 + 5 / 1000 * q * q) * (PI / 3)) by (unfold Rdiv; ring). rewrite max_angle. set (k := 1 / (1 + 5 / 1000 * q * q)) in *.
  replace (- k * (PI / 3)) with (- (k * (PI / 3))) by ring. apply clamp_abs. nra.
Qed.
Example C74_wheel_at_speed_analog_ex : no_steer_ reset_veh = false.
Proof. reflexivity. Qed.
(** Heading within [0, 2 pi), rotation of the wheels within one turn, after any control. *)
Theorem C74_angles : forall v l c, 0 <= h_ (drives v (l ++ [c])) < 2 * PI /\ - (2 * PI) < rot_ (drives v (l ++ [c])) < 2 * PI.
Proof.
  intros v l c. unfold drives. rewrite fold_left_app. cbn. set (u := fold_left drive l v). destruct (drive_form u c) as (s & w & hb & ->). split; [apply update_heading|].
  cbn [Update rot_]. apply fmod_range.
Qed.
Example C74_angles_ex : 0 <= h_ (drives reset_veh [CBinary 1000 Plus Minus]) < 2 * PI.
Proof. apply (C74_angles reset_veh []). Qed.
(** Controls leave length, limits, factors and what is disabled alone. *)
Theorem C74_setup_kept : forall v l, let u := drives v l in len_ u = len_ v /\ max_speed_ u = max_speed_ v /\ max_acc_ u = max_acc_ v /\ max_dec_ u = max_dec_ v /\ rate_ u = rate_ v /\ ret_ u = ret_ v /\
  scale_ u = scale_ v /\ drag_ u = drag_ v /\ no_throttle_ u = no_throttle_ v /\ no_steer_ u = no_steer_ v.
Proof. intros v l. apply setup_eqs. apply drives_setup. Qed.
Example C74_setup_kept_ex : len_ (drives reset_veh [CBinary 1 Plus Minus]) = 5.
Proof. exact (proj1 (C74_setup_kept reset_veh [CBinary 1 Plus Minus])). Qed.

(** ** Braking *)
Lemma binary_speed : forall v dt a s, speed_ (DrivingControlBinary v dt a s) = speed_ (throttle_part v dt (val a) (is_none a) (is_none a)) /\ hand_ (DrivingControlBinary v dt a s) = hand_ (throttle_part v dt (val a) (is_none a) (is_none a)).
Proof. intros v dt a s. unfold DrivingControlBinary. cbn [Update speed_ hand_]. destruct (no_steer_ _); split; reflexivity. Qed.
Lemma analog_speed : forall v dt a s, let t := throttle_part v dt a (Rltb (Rabs a) SMALL_NUMBER || Rltb SMALL_NUMBER a) (Rltb (Rabs a) SMALL_NUMBER) in
  speed_ (DrivingControlAnalog v dt a s) = speed_ t /\ hand_ (DrivingControlAnalog v dt a s) = hand_ t.
Proof. intros v dt a s t. unfold DrivingControlAnalog. cbn [Update speed_ hand_]. fold t. destruct (no_steer_ t); split; reflexivity. Qed.

(** A vehicle going forwards is not thrown into reverse by one step, however long and hard it brakes. *)
Lemma throttle_forward : forall v dt t r n, 0 < speed_ v -> 0 <= max_speed_ v -> drag_ v <= 1 -> 0 <= speed_ (throttle_part v dt t r n).
Proof.
  intros v dt t r n P M D. unfold throttle_part. destruct (no_throttle_ v); [lra|]. destruct (hand_ v); cbn [set_speed speed_]; [lra|]. rewrite (proj2 (Rltb_true 0 (speed_ v))) by exact P.
  cbn [andb]. set (s := speed_ v + _). destruct (Rltb s 0) eqn:E; cbn [set_speed speed_]; [lra|]. apply Rltb_false in E. apply clamp_nonneg; [exact M|]. destruct n; [|exact E]. apply Rmult_le_pos; lra.
Qed.
Theorem C74_no_jump_to_reverse : forall v dt a s b r, 0 < speed_ v -> 0 <= max_speed_ v -> drag_ v <= 1 -> 0 <= speed_ (DrivingControlBinary v dt a s) /\ 0 <= speed_ (DrivingControlAnalog v dt b r).
Proof. intros v dt a s b r P M D. rewrite (proj1 (binary_speed v dt a s)), (proj1 (analog_speed v dt b r)). split; now apply throttle_forward. Qed.
Example C74_no_jump_to_reverse_ex : 0 <= speed_ (DrivingControlBinary (set_speed reset_veh 3 false) 1 Minus Plus).
Proof. apply (C74_no_jump_to_reverse (set_speed reset_veh 3 false) 1 Minus Plus 0 0); cbn; lra. Qed.

(** Braked through standstill it stands with the handbrake on, until the throttle lets go. *)
Lemma hand_binary : forall v dt a s, no_throttle_ v = false -> hand_ v = true -> speed_ (DrivingControlBinary v dt a s) = speed_ v /\ hand_ (DrivingControlBinary v dt a s) = negb (is_none a).
Proof. intros v dt a s T H. destruct (binary_speed v dt a s) as [-> ->]. unfold throttle_part. rewrite T, H. auto. Qed.
Theorem C74_stops : forall v dt s, no_throttle_ v = false -> hand_ v = false -> 0 < speed_ v < max_dec_ v * dt ->
  speed_ (DrivingControlBinary v dt Minus s) = 0 /\ hand_ (DrivingControlBinary v dt Minus s) = true.
Proof.
  intros v dt s T H P. destruct (binary_speed v dt Minus s) as [-> ->]. unfold throttle_part. rewrite T, H. cbn [val is_none]. rewrite (proj2 (Rltb_true (-1) 0)) by lra. rewrite (proj2 (Rltb_true 0 (speed_ v))) by lra.
  rewrite (proj2 (Rltb_true (speed_ v + max_dec_ v * -1 * dt) 0)) by lra. auto.
Qed.
Example C74_stops_ex : speed_ (DrivingControlBinary (set_speed reset_veh 3 false) 1 Minus None_) = 0.
Proof. apply C74_stops; cbn; try reflexivity; lra. Qed.
Theorem C74_stands : forall v l, no_throttle_ v = false -> hand_ v = true -> speed_ v = 0 -> Forall (fun c => exists dt a s, c = CBinary dt a s /\ a <> None_) l -> speed_ (drives v l) = 0 /\ hand_ (drives v l) = true.
Proof.
  intros v l T H Z0 F. rewrite Forall_forall in F. apply (drives_ind (fun u => speed_ u = 0 /\ hand_ u = true)); [auto|]. intros u c I E [A B]. destruct (F c I) as (dt & a & s & -> & N). apply setup_eqs in E.
  destruct E as (_ & _ & _ & _ & _ & _ & _ & _ & E & _). rewrite <- E in T. cbn [drive]. destruct (hand_binary u dt a s T B) as [-> ->]. split; [exact A|]. destruct a; [reflexivity|congruence|reflexivity].
Qed.
Example C74_stands_ex : speed_ (drives (set_speed reset_veh 0 true) [CBinary 1 Minus Plus; CBinary 2 Minus None_]) = 0.
Proof. apply C74_stands; try reflexivity. repeat (apply Forall_cons; [do 3 eexists; split; [reflexivity|discriminate]|]). apply Forall_nil. Qed.
(** So a vehicle whose keys go from brake to accelerate without a step with none does not drive off. *)
Theorem C74_drives_off_refuted : ~ (forall v dt n, no_throttle_ v = false -> 0 < dt -> 0 < max_acc_ v -> 0 < max_speed_ v -> speed_ v = 0 -> 0 < speed_ (drives v (repeat (CBinary dt Plus None_) (S n)))).
Proof.
  intros H. specialize (H (set_speed reset_veh 0 true) 1 5%nat eq_refl ltac:(lra) ltac:(cbn; lra) ltac:(cbn; lra) eq_refl).
  destruct (C74_stands (set_speed reset_veh 0 true) (repeat (CBinary 1 Plus None_) 6) eq_refl eq_refl eq_refl) as [E _]; [|rewrite E in H; lra].
  apply Forall_forall. intros c I. apply repeat_spec in I. exists 1, Plus, None_. split; [exact I|discriminate].
Qed.
(** With a pedal, any throttle above 1e-6 lets go at once. *)
Theorem C74_pedal_lets_go : forall v dt a s, no_throttle_ v = false -> hand_ v = true -> SMALL_NUMBER < a -> hand_ (DrivingControlAnalog v dt a s) = false /\ speed_ (DrivingControlAnalog v dt a s) = speed_ v.
Proof. intros v dt a s T H A. destruct (analog_speed v dt a s) as [-> ->]. unfold throttle_part. rewrite T, H, (proj2 (Rltb_true SMALL_NUMBER a) A), orb_true_r. auto. Qed.
Example C74_pedal_lets_go_ex : hand_ (DrivingControlAnalog (set_speed reset_veh 0 true) 1 1 0) = false.
Proof. apply C74_pedal_lets_go; try reflexivity. unfold SMALL_NUMBER. lra. Qed.
(** A brake held does not always end in standing still: when the speed comes to 0 exactly, the next step reverses. *)
Theorem C74_brake_held_refuted : ~ (forall v dt n, no_throttle_ v = false -> hand_ v = false -> 0 < dt -> 0 < max_dec_ v -> 0 < speed_ v <= max_speed_ v -> 0 <= speed_ (drives v (repeat (CBinary dt Minus None_) n))).
Proof.
  intros H. specialize (H (set_speed reset_veh 20 false) 1 2%nat eq_refl eq_refl ltac:(lra) ltac:(cbn; lra) ltac:(cbn; lra)). cbn [repeat] in H.
  change (drives (set_speed reset_veh 20 false) [CBinary 1 Minus None_; CBinary 1 Minus None_]) with (DrivingControlBinary (DrivingControlBinary (set_speed reset_veh 20 false) 1 Minus None_) 1 Minus None_) in H.
  set (u := DrivingControlBinary (set_speed reset_veh 20 false) 1 Minus None_) in *.
  assert (A : speed_ u = 0 /\ hand_ u = false).
  { unfold u. destruct (binary_speed (set_speed reset_veh 20 false) 1 Minus None_) as [-> ->]. unfold throttle_part. cbn [no_throttle_ set_speed reset_veh hand_ val is_none speed_ max_dec_ max_speed_].
    rewrite (proj2 (Rltb_true (-1) 0)) by lra. rewrite (proj2 (Rltb_false (20 + 20 * -1 * 1) 0)) by lra. rewrite andb_false_r. cbn [set_speed speed_ hand_]. rewrite clamp_in by lra. split; [lra|reflexivity]. }
  destruct A as [A B]. assert (E : setup u = setup reset_veh) by (apply (drive_setup (set_speed reset_veh 20 false) (CBinary 1 Minus None_))). apply setup_eqs in E. destruct E as (_ & M & _ & D & _ & _ & _ & _ & T & _).
  clearbody u. cbn in M, D, T. rewrite (proj1 (binary_speed u 1 Minus None_)) in H. unfold throttle_part in H. rewrite T, B, A, D, M in H. cbn [val is_none] in H. rewrite (proj2 (Rltb_true (-1) 0)) in H by lra.
  rewrite (proj2 (Rltb_false 0 0)) in H by lra. cbn [andb set_speed speed_] in H. rewrite clamp_in in H by lra. lra.
Qed.
(** Until then it slows down by the deceleration: n steps of braking take off n times dec times dt. *)
Theorem C74_brakes : forall n v dt s, no_throttle_ v = false -> hand_ v = false -> 0 <= dt -> 0 <= max_dec_ v -> speed_ v <= max_speed_ v -> INR n * (max_dec_ v * dt) <= speed_ v ->
  speed_ (drives v (repeat (CBinary dt Minus s) n)) = speed_ v - INR n * (max_dec_ v * dt) /\ hand_ (drives v (repeat (CBinary dt Minus s) n)) = false.
Proof.
  induction n as [|n IH]; intros v dt s T H DT D M P; [cbn; split; [ring|exact H]|]. rewrite S_INR in P |- *. pose proof (pos_INR n) as N0. assert (ND : 0 <= max_dec_ v * dt) by now apply Rmult_le_pos.
  assert (ND2 : 0 <= INR n * (max_dec_ v * dt)) by now apply Rmult_le_pos.
  cbn [repeat]. change (drives v (CBinary dt Minus s :: repeat (CBinary dt Minus s) n)) with (drives (DrivingControlBinary v dt Minus s) (repeat (CBinary dt Minus s) n)).
  set (u := DrivingControlBinary v dt Minus s). assert (A : speed_ u = speed_ v - max_dec_ v * dt /\ hand_ u = false).
  { unfold u. destruct (binary_speed v dt Minus s) as [-> ->]. unfold throttle_part. rewrite T, H. cbn [val is_none]. rewrite (proj2 (Rltb_true (-1) 0)) by lra.
    rewrite (proj2 (Rltb_false (speed_ v + max_dec_ v * -1 * dt) 0)) by lra. rewrite andb_false_r. cbn [set_speed speed_ hand_]. rewrite clamp_in by lra. split; [ring|reflexivity]. }
  destruct A as [A B]. assert (E : setup u = setup v) by (apply (drive_setup v (CBinary dt Minus s))). apply setup_eqs in E. destruct E as (_ & M' & _ & D' & _ & _ & _ & _ & T' & _).
  destruct (IH u dt s) as [C1 C2]; rewrite ?T', ?D', ?M', ?A; auto; try lra. rewrite C1, C2, A, D'. split; [ring|reflexivity].
Qed.
Example C74_brakes_ex : speed_ (drives (set_speed reset_veh 10 false) (repeat (CBinary (1 / 10) Minus None_) 3)) = 4.
Proof. destruct (C74_brakes 3 (set_speed reset_veh 10 false) (1 / 10) None_ eq_refl eq_refl) as [E _]; cbn [set_speed speed_ max_dec_ max_speed_ reset_veh]; try (cbn; lra). rewrite E. cbn. lra. Qed.
(** Accelerating or braking changes the speed by no more than acceleration or deceleration allow. *)
Theorem C74_acceleration : forall v dt a s, 0 <= dt -> 0 <= max_acc_ v -> 0 <= max_dec_ v -> Rabs (speed_ v) <= max_speed_ v -> a <> None_ ->
  speed_ v - max_dec_ v * dt <= speed_ (DrivingControlBinary v dt a s) <= speed_ v + max_acc_ v * dt.
Proof.
  intros v dt a s DT A D M N. rewrite (proj1 (binary_speed v dt a s)). assert (M1 : - max_speed_ v <= speed_ v <= max_speed_ v) by (unfold Rabs in M; destruct (Rcase_abs _); lra).
  assert (PA : 0 <= max_acc_ v * dt) by now apply Rmult_le_pos. assert (PD : 0 <= max_dec_ v * dt) by now apply Rmult_le_pos.
  unfold throttle_part. destruct (no_throttle_ v); [lra|]. destruct (hand_ v); cbn [set_speed speed_]; [lra|]. destruct a; [|congruence|]; cbn [val is_none].
  - rewrite (proj2 (Rltb_true (-1) 0)) by lra. set (q := speed_ v + _). assert (Q : q = speed_ v - max_dec_ v * dt) by (unfold q; ring). destruct (Rltb 0 (speed_ v) && Rltb q 0) eqn:E; cbn [set_speed speed_].
    + apply andb_true_iff in E. destruct E as [E1 E2]. apply Rltb_true in E1, E2. lra.
    + rewrite CLAMP_Rmin. unfold Rmin, Rmax. destruct (Rle_dec _ q); destruct (Rle_dec _ _); lra.
  - rewrite (proj2 (Rltb_false 1 0)) by lra. set (q := speed_ v + _). assert (Q : q = speed_ v + max_acc_ v * dt) by (unfold q; ring). destruct (Rltb 0 (speed_ v) && Rltb q 0) eqn:E; cbn [set_speed speed_].
    + apply andb_true_iff in E. destruct E as [E1 E2]. apply Rltb_true in E1, E2. lra.
    + rewrite CLAMP_Rmin. unfold Rmin, Rmax. destruct (Rle_dec _ q); destruct (Rle_dec _ _); lra.
Qed.
Example C74_acceleration_ex : speed_ (DrivingControlBinary reset_veh 1 Plus None_) <= 20.
Proof. destruct (C74_acceleration reset_veh 1 Plus None_) as [_ H]; cbn [reset_veh max_acc_ max_dec_ speed_ max_speed_]; rewrite ?Rabs_R0; try lra; try discriminate. cbn [reset_veh max_acc_ speed_] in H. lra. Qed.

(** ** Coasting *)
(** Without throttle n steps take off a fixed share each, whatever their length. *)
Theorem C74_coasts : forall l v, no_throttle_ v = false -> hand_ v = false -> 0 <= drag_ v <= 1 -> Rabs (speed_ v) <= max_speed_ v -> Forall (fun c => exists dt s, c = CBinary dt None_ s) l ->
  speed_ (drives v l) = speed_ v * (1 - drag_ v) ^ length l /\ hand_ (drives v l) = false.
Proof.
  induction l as [|c l IH]; intros v T H D M F; [cbn; split; [ring|exact H]|]. inversion F as [|? ? (dt & s & ->) F']; subst.
  change (drives v (CBinary dt None_ s :: l)) with (drives (DrivingControlBinary v dt None_ s) l). set (u := DrivingControlBinary v dt None_ s).
  assert (M1 : - max_speed_ v <= speed_ v <= max_speed_ v) by (unfold Rabs in M; destruct (Rcase_abs _); lra).
  assert (B : Rabs (speed_ v * (1 - drag_ v)) <= max_speed_ v).
  { rewrite Rabs_mult, (Rabs_right (1 - drag_ v)) by lra. pose proof (Rabs_pos (speed_ v)). nra. }
  assert (A : speed_ u = speed_ v * (1 - drag_ v) /\ hand_ u = false).
  { unfold u. destruct (binary_speed v dt None_ s) as [-> ->]. unfold throttle_part. rewrite T, H. cbn [val is_none]. rewrite (proj2 (Rltb_false 0 0)) by lra.
    replace (speed_ v + max_acc_ v * 0 * dt) with (speed_ v) by ring. destruct (Rltb 0 (speed_ v)) eqn:E1; [apply Rltb_true in E1; rewrite (proj2 (Rltb_false (speed_ v) 0)) by lra|]; cbn [andb set_speed speed_ hand_];
      (rewrite clamp_in; [auto|unfold Rabs in B; destruct (Rcase_abs _); lra]). }
  destruct A as [A C]. assert (E : setup u = setup v) by (apply (drive_setup v (CBinary dt None_ s))). apply setup_eqs in E. destruct E as (_ & M' & _ & _ & _ & _ & _ & G' & T' & _).
  destruct (IH u) as [C1 C2]; rewrite ?T', ?G', ?M', ?A; auto. rewrite C1, C2, A, G'. split; [cbn [length pow]; ring|reflexivity].
Qed.
Example C74_coasts_ex : speed_ (drives (set_speed reset_veh 10 false) [CBinary 1 None_ None_; CBinary 9 None_ Plus]) = 10 * (1 - 1 / 1000) ^ 2.
Proof.
  destruct (C74_coasts [CBinary 1 None_ None_; CBinary 9 None_ Plus] (set_speed reset_veh 10 false)) as [E _]; cbn [set_speed reset_veh no_throttle_ hand_ drag_ max_speed_ speed_]; try reflexivity; try lra.
  - rewrite Rabs_right; lra.
  - repeat (apply Forall_cons; [do 2 eexists; reflexivity|]). apply Forall_nil.
  - rewrite E. reflexivity.
Qed.
(** So the same time in smaller steps slows down more. *)
Theorem C74_coast_time_refuted : ~ (forall v dt, no_throttle_ v = false -> hand_ v = false -> 0 <= drag_ v <= 1 -> Rabs (speed_ v) <= max_speed_ v ->
  speed_ (drives v [CBinary (2 * dt) None_ None_]) = speed_ (drives v [CBinary dt None_ None_; CBinary dt None_ None_])).
Proof.
  intros H. assert (M : Rabs (speed_ (set_speed reset_veh 10 false)) <= max_speed_ (set_speed reset_veh 10 false)) by (cbn; rewrite Rabs_right; lra).
  specialize (H (set_speed reset_veh 10 false) 1 eq_refl eq_refl ltac:(cbn; lra) M).
  destruct (C74_coasts [CBinary (2 * 1) None_ None_] (set_speed reset_veh 10 false) eq_refl eq_refl ltac:(cbn; lra) M) as [E1 _]; [repeat (apply Forall_cons; [do 2 eexists; reflexivity|]); apply Forall_nil|].
  destruct (C74_coasts [CBinary 1 None_ None_; CBinary 1 None_ None_] (set_speed reset_veh 10 false) eq_refl eq_refl ltac:(cbn; lra) M) as [E2 _]; [repeat (apply Forall_cons; [do 2 eexists; reflexivity|]); apply Forall_nil|].
  rewrite E1, E2 in H. cbn in H. lra.
Qed.

(** ** Driving to a target speed *)
Lemma target_speed : forall v dt t h, speed_ (DrivingControlTarget v dt t h) = CLAMP (speed_ v + CLAMP (max_acc_ v * (t - speed_ v)) (- max_acc_ v) (max_acc_ v) * dt) (- max_speed_ v) (max_speed_ v).
Proof. reflexivity. Qed.
(** In steps up to 1 / acceleration the target speed is approached and not overshot. *)
Theorem C74_target_approached : forall v dt t h, 0 <= dt -> 0 <= max_acc_ v -> max_acc_ v * dt <= 1 -> Rabs t <= max_speed_ v -> Rabs (speed_ v) <= max_speed_ v ->
  let s := speed_ (DrivingControlTarget v dt t h) in (speed_ v <= t -> speed_ v <= s <= t) /\ (t <= speed_ v -> t <= s <= speed_ v).
Proof.
  intros v dt t h DT A AD T M s. unfold s. rewrite target_speed. assert (T1 : - max_speed_ v <= t <= max_speed_ v) by (unfold Rabs in T; destruct (Rcase_abs t); lra).
  assert (M1 : - max_speed_ v <= speed_ v <= max_speed_ v) by (unfold Rabs in M; destruct (Rcase_abs (speed_ v)); lra). clear T M.
  set (a := CLAMP (max_acc_ v * (t - speed_ v)) (- max_acc_ v) (max_acc_ v)).
  assert (B : (speed_ v <= t -> 0 <= a * dt <= t - speed_ v) /\ (t <= speed_ v -> t - speed_ v <= a * dt <= 0)).
  { unfold a. rewrite CLAMP_Rmin. set (d := t - speed_ v). split; intros H.
    - assert (P : 0 <= d) by (unfold d; lra). assert (Q : 0 <= max_acc_ v * d) by now apply Rmult_le_pos. rewrite (Rmax_right (- max_acc_ v)) by lra. split; [apply Rmult_le_pos; [apply Rmin_glb; lra|exact DT]|].
      eapply Rle_trans; [apply Rmult_le_compat_r; [exact DT|apply Rmin_r]|]. replace (max_acc_ v * d * dt) with (max_acc_ v * dt * d) by ring. nra.
    - assert (P : d <= 0) by (unfold d; lra). assert (Q : max_acc_ v * d <= 0) by nra. rewrite Rmin_right by (apply Rmax_lub; lra). split.
      + apply Rle_trans with (max_acc_ v * d * dt); [replace (max_acc_ v * d * dt) with (max_acc_ v * dt * d) by ring; nra|apply Rmult_le_compat_r; [exact DT|apply Rmax_r]].
      + assert (Rmax (- max_acc_ v) (max_acc_ v * d) <= 0) by (apply Rmax_lub; lra). nra. }
  destruct B as [B1 B2]. split; intros H.
  - specialize (B1 H). rewrite clamp_in by lra. lra.
  - specialize (B2 H). rewrite clamp_in by lra. lra.
Qed.
Example C74_target_approached_ex : 0 <= speed_ (DrivingControlTarget reset_veh (1 / 100) 10 0) <= 10.
Proof. apply (C74_target_approached reset_veh (1 / 100) 10 0); cbn [reset_veh max_acc_ max_speed_ speed_]; rewrite ?Rabs_R0; try (rewrite Rabs_right; lra); lra. Qed.
(** In longer steps it may never be reached: with an acceleration of 10, as that of ControllerFollowGhost, and steps of 0.2 s the speed goes to and fro. *)
Theorem C74_target_reached_refuted : ~ (forall v dt t, 0 < dt -> 0 < max_acc_ v -> Rabs t <= max_speed_ v -> Rabs (speed_ v) <= max_speed_ v ->
  exists n, Rabs (t - speed_ (drives v (repeat (CTarget dt t 0) n))) <= Rabs (t - speed_ v) / 2).
Proof.
  intros H. pose (v := Veh 0 0 0 0 0 0 0 9 0 0 0 false 5 100 10 20 5 4 (2 / 100) (1 / 1000) false false).
  destruct (H v (2 / 10) 10) as [n N]; try (cbn; lra); try (cbn; rewrite Rabs_right; lra).
  assert (K : speed_ (drives v (repeat (CTarget (2 / 10) 10 0) n)) = 9 \/ speed_ (drives v (repeat (CTarget (2 / 10) 10 0) n)) = 11).
  { apply (drives_ind (fun u => speed_ u = 9 \/ speed_ u = 11)); [now left|]. intros u c I E P. apply repeat_spec in I. subst c. apply setup_eqs in E. destruct E as (_ & M & A & _). cbn in M, A. cbn [drive]. rewrite target_speed, M, A.
    destruct P as [-> | ->]; [right|left]; rewrite (clamp_in (10 * _)) by lra; rewrite clamp_in by lra; lra. }
  cbn [v speed_] in N. replace (10 - 9) with 1 in N by ring. rewrite (Rabs_right 1) in N by lra. destruct K as [K|K]; rewrite K in N; unfold Rabs in N; destruct (Rcase_abs _); lra.
Qed.

(** ** Disabling *)
Theorem C74_disabled : forall v c, (match c with CTarget _ _ _ => False | _ => True end) ->
  (no_throttle_ v = true -> speed_ (drive v c) = speed_ v /\ hand_ (drive v c) = hand_ v) /\ (no_steer_ v = true -> wheel_ (drive v c) = wheel_ v).
Proof.
  intros v c K. destruct c as [dt t h|dt a s|dt a s|dt a s]; [destruct K| | |]; cbn [drive]; split; intros H.
  - destruct (binary_speed v dt a s) as [-> ->]. unfold throttle_part. rewrite H. auto.
  - unfold DrivingControlBinary. destruct (throttle_part_form v dt (val a) (is_none a) (is_none a)) as (q & hb & ->). cbn [set_speed no_steer_]. rewrite H. reflexivity.
  - destruct (analog_speed v dt a s) as [-> ->]. unfold throttle_part. rewrite H. auto.
  - unfold DrivingControlAnalog. destruct (throttle_part_form v dt a (Rltb (Rabs a) SMALL_NUMBER || Rltb SMALL_NUMBER a) (Rltb (Rabs a) SMALL_NUMBER)) as (q & hb & ->). cbn [set_speed no_steer_]. rewrite H. reflexivity.
  - unfold DrivingControlAccAndSteer. rewrite H. destruct (no_steer_ v); auto.
  - unfold DrivingControlAccAndSteer. destruct (no_throttle_ v); cbn [set_speed no_steer_]; rewrite H; reflexivity.
Qed.
Example C74_disabled_ex : exists v, no_throttle_ v = true /\ speed_ (drive v (CBinary 1 Plus Plus)) = speed_ v.
Proof. exists (Veh 0 0 0 0 0 0 0 9 0 0 0 false 5 100 10 20 5 4 (2 / 100) (1 / 1000) true false). split; [reflexivity|]. apply C74_disabled; [exact I|reflexivity]. Qed.
(** Driving to a target ignores it. *)
Theorem C74_target_disabled_refuted : ~ (forall v dt t h, no_throttle_ v = true -> speed_ (DrivingControlTarget v dt t h) = speed_ v).
Proof.
  intros H. specialize (H (Veh 0 0 0 0 0 0 0 9 0 0 0 false 5 100 10 20 5 4 (2 / 100) (1 / 1000) true false) (1 / 10) 10 0 eq_refl). rewrite target_speed in H. cbn [speed_ max_acc_ max_speed_] in H.
  rewrite (clamp_in (10 * _)) in H by lra. rewrite clamp_in in H by lra. lra.
Qed.
(** And the query whether the throttle is disabled answers for the steering. *)
Theorem C74_throttle_query_refuted : ~ (forall v, GetThrottleDisabled v = no_throttle_ v).
Proof. intros H. specialize (H (Veh 0 0 0 0 0 0 0 9 0 0 0 false 5 100 10 20 5 4 (2 / 100) (1 / 1000) true false)). discriminate H. Qed.
Theorem C74_steering_query : forall v, GetSteeringDisabled v = no_steer_ v.
Proof. reflexivity. Qed.
Example C74_steering_query_ex : GetSteeringDisabled reset_veh = false.
Proof. reflexivity. Qed.

(** ** Steering *)
Lemma binary_wheel : forall v dt s, no_steer_ v = false -> let q := speed_ (DrivingControlBinary v dt None_ s) in let k := 1 / (1 + scale_ v * q * q) in
  wheel_ (DrivingControlBinary v dt None_ s) = CLAMP (let w := wheel_ v + k * rate_ v * val s * dt in if is_none s then w * (1 - ret_ v * dt) else w) (- k * STEERING_MAX_ANGLE) (k * STEERING_MAX_ANGLE).
Proof.
  intros v dt s N q k. unfold k, q. rewrite (proj1 (binary_speed v dt None_ s)). unfold DrivingControlBinary. destruct (throttle_part_form v dt (val None_) (is_none None_) (is_none None_)) as (z & hb & ->).
  cbn [set_speed no_steer_ speed_]. rewrite N. reflexivity.
Qed.
(** Without steering the wheels come back: in steps up to 1 / factor they keep their side. *)
Theorem C74_aligns : forall v dt, no_steer_ v = false -> 0 <= scale_ v -> 0 <= dt -> 0 <= ret_ v -> ret_ v * dt <= 1 -> let w := wheel_ (DrivingControlBinary v dt None_ None_) in
  Rabs w <= (1 - ret_ v * dt) * Rabs (wheel_ v) /\ 0 <= w * wheel_ v.
Proof.
  intros v dt N K DT P Q w. unfold w. rewrite (binary_wheel v dt None_ N). cbn [is_none val]. set (q := speed_ _). destruct (scale_range (scale_ v) q K) as [A B]. set (k := 1 / (1 + scale_ v * q * q)) in *.
  rewrite max_angle. pose proof PI_RGT_0. replace (- k * (PI / 3)) with (- (k * (PI / 3))) by ring. set (m := k * (PI / 3)). assert (M : 0 <= m) by (unfold m; nra).
  replace (wheel_ v + k * rate_ v * 0 * dt) with (wheel_ v) by ring. set (f := 1 - ret_ v * dt). assert (F : 0 <= f) by (unfold f; lra). split.
  - eapply Rle_trans; [now apply clamp_le_abs|]. rewrite Rabs_mult, (Rabs_right f) by lra. lra.
  - rewrite CLAMP_Rmin. unfold Rmin, Rmax. destruct (Rle_dec 0 (wheel_ v)) as [W|W]; destruct (Rle_dec (- m) _); destruct (Rle_dec m _); nra.
Qed.
Example C74_aligns_ex : exists v, wheel_ v = 1 / 10 /\ Rabs (wheel_ (DrivingControlBinary v (1 / 10) None_ None_)) <= (1 - 4 * (1 / 10)) * Rabs (1 / 10).
Proof. exists (set_wheel reset_veh (1 / 10)). split; [reflexivity|]. apply (C74_aligns (set_wheel reset_veh (1 / 10))); cbn; try reflexivity; lra. Qed.
(** In longer steps they swing, ever wider from twice that length on. *)
Theorem C74_aligns_refuted : ~ (forall v dt, no_steer_ v = false -> 0 <= scale_ v -> 0 <= dt -> 0 <= ret_ v -> Rabs (wheel_ (DrivingControlBinary v dt None_ None_)) <= Rabs (wheel_ v)).
Proof.
  intros H. specialize (H (set_wheel reset_veh (1 / 10)) 1 eq_refl ltac:(cbn; lra) ltac:(lra) ltac:(cbn; lra)). rewrite (binary_wheel (set_wheel reset_veh (1 / 10)) 1 None_ eq_refl) in H. cbn [is_none val] in H.
  assert (Q : speed_ (DrivingControlBinary (set_wheel reset_veh (1 / 10)) 1 None_ None_) = 0).
  { rewrite (proj1 (binary_speed (set_wheel reset_veh (1 / 10)) 1 None_ None_)). unfold throttle_part. cbn [set_wheel reset_veh no_throttle_ hand_ speed_ val is_none max_acc_ max_speed_ drag_]. rewrite (proj2 (Rltb_false 0 0)) by lra. cbn [andb set_speed speed_].
    rewrite clamp_in by lra. ring. }
  rewrite Q in H. cbn [set_wheel reset_veh wheel_ rate_ ret_ scale_] in H. rewrite max_angle in H. pose proof PI_RGT_0. pose proof PI2_3_2.
  rewrite clamp_in in H by (unfold Rdiv; rewrite ?Rmult_0_r, ?Rplus_0_r, ?Rinv_1; lra). rewrite (Rabs_right (1 / 10)) in H by lra. rewrite Rabs_left in H by (unfold Rdiv; lra). unfold Rdiv in H. lra.
Qed.

(** ** Motion *)
(** Each step covers exactly speed times dt, in the direction the front and rear wheels give. *)
Theorem C74_distance : forall v c, let u := drive v c in (x_ u - x_ v) * (x_ u - x_ v) + (y_ u - y_ v) * (y_ u - y_ v) = (speed_ u * time_of c) * (speed_ u * time_of c).
Proof. intros v c. cbv zeta. destruct (drive_form v c) as (s & w & hb & ->). exact (update_length (controls v s w hb) (time_of c)). Qed.
Example C74_distance_ex : exists v c, speed_ v = 9 /\ time_of c = 1 /\ x_ (drive v c) <> x_ v.
Proof.
  exists (Veh 0 0 0 0 0 0 0 9 0 0 0 false 5 100 10 20 5 4 (2 / 100) (1 / 1000) true true), (CBinary 1 Plus Plus). split; [reflexivity|]. split; [reflexivity|]. cbn -[tan atan sin cos]. rewrite tan_0, Rmult_0_r, atan_0, Rplus_0_r, cos_0. lra.
Qed.
Theorem C74_velocity : forall v dt, let u := Update v dt in x_ u = x_ v + dt * vx_ u /\ y_ u = y_ v + dt * vy_ u /\ vx_ u = speed_ v * cos (h_ v + vrel_ u) /\ vy_ u = speed_ v * sin (h_ v + vrel_ u) /\
  tan (vrel_ u) = 15 / 100 * tan (wheel_ v) /\ vang_ u = h_ v + vrel_ u.
Proof. intros v dt u. unfold u. cbn [Update x_ y_ vx_ vy_ vrel_ vang_]. rewrite tan_atan. rewrite (Rplus_comm (h_ v)). repeat split. Qed.
Example C74_velocity_ex : vx_ (Update (set_speed reset_veh 3 false) 1) = 3.
Proof. cbn -[tan atan sin cos]. rewrite tan_0, Rmult_0_r, atan_0, Rplus_0_r, cos_0. lra. Qed.
(** With straight wheels it goes straight on. *)
Theorem C74_straight : forall v dt n, wheel_ v = 0 -> let u := updates v dt n in same_angle (h_ u) (h_ v) /\ x_ u = x_ v + INR n * dt * speed_ v * cos (h_ v) /\ y_ u = y_ v + INR n * dt * speed_ v * sin (h_ v).
Proof.
  intros v dt n W. assert (T0 : turn v = 0) by (unfold turn; rewrite W, tan_0, Rmult_0_r, atan_0, sin_0; unfold Rdiv; ring). induction n as [|n (H & X & Y)]; cbv zeta.
  - cbn. split; [apply same_refl|]. split; ring.
  - change (updates v dt (S n)) with (Update (updates v dt n) dt). split.
    + pose proof (updates_heading v dt (S n)) as K. rewrite T0 in K. replace (h_ v + INR (S n) * (dt * 0)) with (h_ v) in K by ring. exact K.
    + destruct (updates_const v dt n) as (A & B & C). cbn [Update x_ y_]. rewrite X, Y, A, B, W, tan_0, Rmult_0_r, atan_0, Rplus_0_l. destruct (same_trig _ _ H) as [-> ->]. rewrite S_INR. split; ring.
Qed.
Example C74_straight_ex : x_ (updates (set_speed reset_veh 3 false) 1 4) = 12.
Proof. destruct (C74_straight (set_speed reset_veh 3 false) 1 4 eq_refl) as (_ & -> & _). cbn. rewrite cos_0. ring. Qed.
(** It turns as a bicycle of its length: by speed times cos(slip) times tan(wheel angle) over length, to the side of the wheels when going forwards. *)
Theorem C74_turns : forall v dt, len_ v <> 0 -> hdot_ (Update v dt) = speed_ v * cos (vrel_ (Update v dt)) * tan (wheel_ v) / len_ v.
Proof. exact update_turn. Qed.
Example C74_turns_ex : len_ reset_veh <> 0.
Proof. cbn. lra. Qed.
Theorem C74_turns_side : forall v dt, 0 < len_ v -> 0 < wheel_ v < PI / 2 -> (0 < speed_ v -> 0 < hdot_ (Update v dt)) /\ (speed_ v < 0 -> hdot_ (Update v dt) < 0).
Proof.
  intros v dt L W. rewrite (C74_turns v dt) by lra. assert (T : 0 < tan (wheel_ v)) by (apply tan_gt_0; lra).
  assert (C : 0 < cos (vrel_ (Update v dt))) by (cbn [Update vrel_]; destruct (atan_bound (15 / 100 * tan (wheel_ v))); apply cos_gt_0; lra).
  assert (P : 0 < cos (vrel_ (Update v dt)) * tan (wheel_ v) / len_ v) by (unfold Rdiv; apply Rmult_lt_0_compat; [nra|apply Rinv_0_lt_compat; lra]).
  replace (speed_ v * cos (vrel_ (Update v dt)) * tan (wheel_ v) / len_ v) with (speed_ v * (cos (vrel_ (Update v dt)) * tan (wheel_ v) / len_ v)) by (unfold Rdiv; ring). split; intros H; nra.
Qed.
Example C74_turns_side_ex : 0 < hdot_ (Update (set_wheel (set_speed reset_veh 3 false) (1 / 10)) 1).
Proof. pose proof PI2_3_2. apply C74_turns_side; cbn; lra. Qed.
(** The rate of turn is limited by the speed over 15% of the length. *)
Theorem C74_turn_limit : forall v dt, 0 < len_ v -> Rabs (hdot_ (Update v dt)) <= Rabs (speed_ v) / (15 / 100 * len_ v).
Proof.
  intros v dt L. cbn [Update hdot_]. unfold Rdiv at 1. rewrite !Rabs_mult. rewrite (Rabs_right (/ (len_ v * (15 / 100)))) by (apply Rle_ge, Rlt_le, Rinv_0_lt_compat; lra).
  rewrite (Rmult_comm (15 / 100) (len_ v)). unfold Rdiv at 3. apply Rmult_le_compat_r; [apply Rlt_le, Rinv_0_lt_compat; lra|].
  assert (Rabs (sin (atan (15 / 100 * tan (wheel_ v)))) <= 1) by (apply Rabs_le; apply SIN_bound). pose proof (Rabs_pos (speed_ v)). nra.
Qed.
Example C74_turn_limit_ex : 0 < len_ reset_veh.
Proof. cbn. lra. Qed.
(** Heading and wheel rotation add up over the steps, up to full turns. *)
Theorem C74_heading_adds : forall v dt n, same_angle (h_ (updates v dt n)) (h_ v + INR n * (dt * hdot_ (Update v dt))).
Proof. exact updates_heading. Qed.
Example C74_heading_adds_ex : same_angle (h_ (updates reset_veh 1 7)) (0 + INR 7 * (1 * hdot_ (Update reset_veh 1))).
Proof. apply C74_heading_adds. Qed.
Theorem C74_wheels_roll : forall v dt n, same_angle (rot_ (updates v dt n)) (rot_ v + INR n * (speed_ v * dt / (35 / 100))).
Proof.
  intros v dt n. induction n as [|n IH]; [cbn; replace (rot_ v + 0 * (speed_ v * dt / (35 / 100))) with (rot_ v) by ring; apply same_refl|].
  change (updates v dt (S n)) with (Update (updates v dt n) dt). cbn [Update rot_]. eapply same_trans; [apply fmod_same|]. destruct (updates_const v dt n) as (-> & _). rewrite S_INR. unfold WHEEL_RADIUS.
  replace (rot_ v + (INR n + 1) * (speed_ v * dt / (35 / 100))) with (rot_ v + INR n * (speed_ v * dt / (35 / 100)) + speed_ v * dt / (35 / 100)) by ring. now apply same_add.
Qed.
Example C74_wheels_roll_ex : same_angle (rot_ (updates (set_speed reset_veh 35 false) 1 2)) (0 + INR 2 * (35 * 1 / (35 / 100))).
Proof. apply (C74_wheels_roll (set_speed reset_veh 35 false)). Qed.
(** With constant speed and wheel angle all positions lie on one circle. *)
Theorem C74_circle : forall v dt, sin (dt * hdot_ (Update v dt) / 2) <> 0 -> exists cx cy r, forall n, let u := updates v dt n in
  (x_ u - cx) * (x_ u - cx) + (y_ u - cy) * (y_ u - cy) = r * r /\ r = speed_ v * dt / (2 * sin (dt * hdot_ (Update v dt) / 2)).
Proof.
  intros v dt NZ. change (hdot_ (Update v dt)) with (turn v) in *. exists (centre_x v dt), (centre_y v dt), (radius v dt). intros n. cbv zeta. split; [|reflexivity].
  assert (C : radius (updates v dt n) dt = radius v dt /\ centre_x (updates v dt n) dt = centre_x v dt /\ centre_y (updates v dt n) dt = centre_y v dt /\ turn (updates v dt n) = turn v).
  { induction n as [|n (A & B & C & D)]; [auto|]. change (updates v dt (S n)) with (Update (updates v dt n) dt). destruct (centre_update (updates v dt n) dt) as (E & F & G); [now rewrite D|].
    rewrite E, F, G. repeat split; auto. }
  destruct C as (A & B & C & D). rewrite <- A, <- B, <- C. unfold centre_x, centre_y. set (a := atan _ + _ - _). set (r := radius _ _). pose proof (sin2_cos2 a) as S1. unfold Rsqr in S1.
  replace _ with (r * r * (sin a * sin a + cos a * cos a)) by ring. rewrite S1. ring.
Qed.
Lemma circle_ex_nz : sin (1 * turn (set_wheel (set_speed reset_veh (1 / 10) false) (PI / 4)) / 2) <> 0.
Proof.
  set (v := set_wheel _ _). pose proof PI_RGT_0. pose proof PI2_3_2 as P2.
  destruct (C74_turns_side v 1) as [P _]; [cbn; lra|cbn; lra|]. specialize (P ltac:(cbn; lra)). change (hdot_ (Update v 1)) with (turn v) in P.
  pose proof (C74_turn_limit v 1 ltac:(cbn; lra)) as Q. change (hdot_ (Update v 1)) with (turn v) in Q. change (speed_ v) with (1 / 10) in Q. change (len_ v) with 5 in Q. rewrite (Rabs_right (1 / 10)) in Q by lra. rewrite Rabs_right in Q by lra.
  apply Rgt_not_eq. apply sin_gt_0; lra.
Qed.
Example C74_circle_ex : exists cx cy r, forall n, let u := updates (set_wheel (set_speed reset_veh (1 / 10) false) (PI / 4)) 1 n in (x_ u - cx) * (x_ u - cx) + (y_ u - cy) * (y_ u - cy) = r * r.
Proof. destruct (C74_circle (set_wheel (set_speed reset_veh (1 / 10) false) (PI / 4)) 1 circle_ex_nz) as (cx & cy & r & H). exists cx, cy, r. intros n. apply H. Qed.
(** Where and in what direction it starts makes no difference: moved and turned at the start, the whole way is moved and turned. *)
Theorem C74_moved : forall a p q l v u,
  x_ u = p + cos a * x_ v - sin a * y_ v -> y_ u = q + sin a * x_ v + cos a * y_ v -> same_angle (h_ u) (h_ v + a) -> speed_ u = speed_ v -> wheel_ u = wheel_ v -> hand_ u = hand_ v ->
  setup u = setup v -> let v' := drives v l in let u' := drives u l in
  x_ u' = p + cos a * x_ v' - sin a * y_ v' /\ y_ u' = q + sin a * x_ v' + cos a * y_ v' /\ same_angle (h_ u') (h_ v' + a) /\ speed_ u' = speed_ v' /\ wheel_ u' = wheel_ v' /\ hand_ u' = hand_ v'.
Proof.
  intros a p q l v u X Y H S1 W B E. cbv zeta. destruct (moved_drives a p q l v u) as (A1 & A2 & A3 & A4 & A5 & A6 & _); [unfold moved; repeat (split; [assumption|]); exact E|]. auto 10.
Qed.
Example C74_moved_ex : exists u, x_ u = 7 /\ x_ (drives u [CBinary 1 Plus Plus]) = 7 + x_ (drives reset_veh [CBinary 1 Plus Plus]).
Proof.
  exists (Veh 7 0 0 0 0 0 0 0 0 0 0 false 5 70 20 20 5 4 (2 / 100) (1 / 1000) false false). split; [reflexivity|].
  destruct (C74_moved 0 7 0 [CBinary 1 Plus Plus] reset_veh (Veh 7 0 0 0 0 0 0 0 0 0 0 false 5 70 20 20 5 4 (2 / 100) (1 / 1000) false false)) as (E & _); try reflexivity; try (cbn; rewrite ?cos_0, ?sin_0; ring).
  - cbn. exists 0%Z. ring.
  - rewrite E, cos_0, sin_0. ring.
Qed.

(** ** Driving by keys *)
Definition keys (i : inter) (l : list (key * bool)) : inter := fold_left (fun i e => ReportKeyEvent i (fst e) (snd e)) l i.
Definition steers (k : key) : bool := match k with KLeft | KRight => true | _ => false end.
Definition speeds (k : key) : bool := match k with KUp | KDown => true | _ => false end.
(** The last event of the left and right keys decides about steering, the last of up and down about the throttle. *)
Theorem C74_keys : forall i l k d m, (steers k = true -> Forall (fun e => steers (fst e) = false) m ->
    i_steer (keys i (l ++ (k, d) :: m)) = if d then match k with KLeft => Plus | _ => Minus end else None_) /\
  (speeds k = true -> Forall (fun e => speeds (fst e) = false) m -> i_acc (keys i (l ++ (k, d) :: m)) = if d then match k with KUp => Plus | _ => Minus end else None_).
Proof.
  intros i l k d m. unfold keys. rewrite fold_left_app. cbn [fold_left fst snd]. set (j := fold_left _ l i). clearbody j. split; intros K F.
  - assert (G : forall m i, Forall (fun e => steers (fst e) = false) m -> i_steer (fold_left (fun i e => ReportKeyEvent i (fst e) (snd e)) m i) = i_steer i).
    { clear. induction m as [|(k, d) m IH]; intros i F; [reflexivity|]. inversion F as [|? ? A F']; subst. cbn. rewrite IH by exact F'. destruct k; try discriminate A; reflexivity. }
    rewrite G by exact F. destruct k; try discriminate K; reflexivity.
  - assert (G : forall m i, Forall (fun e => speeds (fst e) = false) m -> i_acc (fold_left (fun i e => ReportKeyEvent i (fst e) (snd e)) m i) = i_acc i).
    { clear. induction m as [|(k, d) m IH]; intros i F; [reflexivity|]. inversion F as [|? ? A F']; subst. cbn. rewrite IH by exact F'. destruct k; try discriminate A; reflexivity. }
    rewrite G by exact F. destruct k; try discriminate K; reflexivity.
Qed.
Definition inter0 : inter := Inter reset_veh None_ None_ 1 true true.
Example C74_keys_ex : i_steer (keys inter0 [(KUp, true); (KLeft, true); (KUp, false)]) = Plus /\ i_acc (keys inter0 [(KUp, true); (KLeft, true)]) = Plus.
Proof. split; reflexivity. Qed.
(** Keys touch nothing else. *)
Theorem C74_keys_only : forall i l, let j := keys i l in i_veh j = i_veh i /\ i_factor j = i_factor i /\ i_long j = i_long i /\ i_lat j = i_lat i.
Proof.
  intros i l. revert i. induction l as [|(k, d) l IH]; intros i; cbv zeta; [auto|]. change (keys i ((k, d) :: l)) with (keys (ReportKeyEvent i k d) l). destruct (IH (ReportKeyEvent i k d)) as (-> & -> & -> & ->). destruct k; auto.
Qed.
Example C74_keys_only_ex : i_veh (keys inter0 [(KLeft, true)]) = reset_veh.
Proof. reflexivity. Qed.
(** A key held does not always act: releasing the other one ends its effect. *)
Theorem C74_key_held_refuted : ~ (forall i l m, (forall d, ~ In (KLeft, d) m) -> Forall (fun e => fst e = KRight -> exists a b, m = a ++ (KRight, true) :: b ++ [(KRight, false)]) m ->
  i_steer (keys i (l ++ (KLeft, true) :: m)) = Plus).
Proof.
  intros H. specialize (H inter0 [] [(KRight, true); (KRight, false)]). assert (E : None_ = Plus); [|discriminate E]. rewrite <- H; [reflexivity| |].
  - intros d [E|[E|[]]]; discriminate E.
  - repeat (apply Forall_cons; [intros _; exists [], []; reflexivity|]). apply Forall_nil.
Qed.

(** What one step does to the vehicle and to the object. *)
Lemma inter_speed : forall i o dt lim ml al, i_long i = true -> let m := MIN (i_factor i * limit lim ml) (b_max o) in 0 <= m -> (hand_ (i_veh i) = true -> speed_ (i_veh i) = 0) ->
  let r := StepInteractive i o dt lim ml al in Rabs (b_speed (snd r)) <= m /\ b_speed (snd r) = speed_ (i_veh (fst r)) /\ (hand_ (i_veh (fst r)) = true -> speed_ (i_veh (fst r)) = 0) /\
  i_long (fst r) = true /\ i_factor (fst r) = i_factor i /\ b_max (snd r) = b_max o.
Proof.
  intros i o dt lim ml al L m M H r. unfold r, StepInteractive. rewrite L. fold m. cbn [negb andb fst snd b_speed i_veh i_long i_factor b_max]. set (v := Veh _ _ _ _ _ _ _ _ _ _ _ _ _ _ _ _ _ _ _ _ _ _).
  destruct (binary_speed v dt (i_acc i) (i_steer i)) as [S1 S2].
  assert (K : Rabs (speed_ (throttle_part v dt (val (i_acc i)) (is_none (i_acc i)) (is_none (i_acc i)))) <= m /\
    (hand_ (throttle_part v dt (val (i_acc i)) (is_none (i_acc i)) (is_none (i_acc i))) = true -> speed_ (throttle_part v dt (val (i_acc i)) (is_none (i_acc i)) (is_none (i_acc i))) = 0)).
  { unfold throttle_part. change (no_throttle_ v) with false. change (hand_ v) with (hand_ (i_veh i)). change (max_speed_ v) with m. change (speed_ v) with (speed_ (i_veh i)). cbv iota. destruct (hand_ (i_veh i)) eqn:B.
    - cbn [set_speed speed_ hand_]. rewrite (H eq_refl), Rabs_R0. auto.
    - destruct (Rltb 0 (speed_ (i_veh i)) && _); cbn [set_speed speed_ hand_]; [rewrite Rabs_R0; auto|]. split; [now apply clamp_abs|discriminate]. }
  rewrite <- S1, <- S2 in K. set (u := DrivingControlBinary v dt (i_acc i) (i_steer i)) in *. clearbody u. destruct K as [K1 K2].
  destruct (negb (i_lat i)); [destruct (al (speed_ u * dt)) as ((ax, ay), ah)|]; cbn [speed_ hand_]; auto 10.
Qed.

(** Runs: key events and steps, each with its own time step, limit of the road and way along it. *)
Definition step_in := (list (key * bool) * (R * R * bool * (R -> R * R * R)))%type.
Definition run_step (st : inter * obj) (s : step_in) : inter * obj :=
  let '(ev, (dt, lim, ml, al)) := s in StepInteractive (keys (fst st) ev) (snd st) dt lim ml al.
Definition run_inter (st : inter * obj) (l : list step_in) : inter * obj := fold_left run_step l st.
Lemma limit_pos : forall s ml, 0 < limit s ml.
Proof. intros s ml. unfold limit. destruct (Rltb s SMALL_NUMBER) eqn:E; [destruct ml; lra|]. apply Rltb_false in E. unfold SMALL_NUMBER in E. lra. Qed.
(** From activation on, with the longitudinal domain active, after every step the object keeps both its own limit and that of the road times the factor - whatever keys are
    pressed and however the limits change. *)
Theorem C74_driven_within_limits : forall i o len acc dec rate lat l ev dt lim ml al, 0 <= b_max o -> 0 <= i_factor i ->
  let r := run_inter (ActivateInteractive i o len acc dec rate true lat, o) (l ++ [(ev, (dt, lim, ml, al))]) in
  Rabs (b_speed (snd r)) <= b_max o /\ Rabs (b_speed (snd r)) <= i_factor i * limit lim ml.
Proof.
  intros i o len acc dec rate lat l ev dt lim ml al BM FF r.
  assert (FL : Forall (fun s : step_in => 0 <= limit (snd (fst (fst (snd s)))) (snd (fst (snd s)))) (l ++ [(ev, (dt, lim, ml, al))])) by (apply Forall_forall; intros; apply Rlt_le, limit_pos).
  assert (G : forall l st, Forall (fun s : step_in => 0 <= limit (snd (fst (fst (snd s)))) (snd (fst (snd s)))) l -> i_long (fst st) = true -> i_factor (fst st) = i_factor i -> b_max (snd st) = b_max o ->
    (hand_ (i_veh (fst st)) = true -> speed_ (i_veh (fst st)) = 0) ->
    let r := run_inter st l in i_long (fst r) = true /\ i_factor (fst r) = i_factor i /\ b_max (snd r) = b_max o /\ (hand_ (i_veh (fst r)) = true -> speed_ (i_veh (fst r)) = 0)).
  { clear r FL l ev dt lim ml al. induction l as [|s l IH]; intros st FL A B C D; cbv zeta; [auto|]. inversion FL as [|? ? P FL']; subst. destruct s as (ev, (((dt, lim), ml), al)). cbn in P.
    change (run_inter st ((ev, (dt, lim, ml, al)) :: l)) with (run_inter (StepInteractive (keys (fst st) ev) (snd st) dt lim ml al) l).
    destruct (C74_keys_only (fst st) ev) as (K1 & K2 & K3 & K4). rewrite <- K3 in A. rewrite <- K1 in D. rewrite <- K2 in B.
    assert (M : 0 <= MIN (i_factor (keys (fst st) ev) * limit lim ml) (b_max (snd st))) by (rewrite B, C; unfold MIN; destruct (Rltb _ _); [exact BM|now apply Rmult_le_pos]).
    destruct (inter_speed (keys (fst st) ev) (snd st) dt lim ml al A M D) as (_ & _ & E1 & E2 & E3 & E4). apply IH; auto; congruence. }
  apply Forall_app in FL. destruct FL as [FL1 FL2]. inversion FL2 as [|? ? P _]; subst. cbn in P.
  unfold r. unfold run_inter. rewrite fold_left_app. change (fold_left run_step l ?a) with (run_inter a l). cbn [fold_left run_step]. set (st := run_inter _ l).
  destruct (G l (ActivateInteractive i o len acc dec rate true lat, o) FL1 eq_refl eq_refl eq_refl ltac:(discriminate)) as (A & B & C & D). fold st in A, B, C, D.
  destruct (C74_keys_only (fst st) ev) as (K1 & K2 & K3 & K4). rewrite <- K3 in A. rewrite <- K1 in D. rewrite <- K2 in B.
  assert (M : 0 <= MIN (i_factor (keys (fst st) ev) * limit lim ml) (b_max (snd st))) by (rewrite B, C; unfold MIN; destruct (Rltb _ _); [exact BM|now apply Rmult_le_pos]).
  destruct (inter_speed (keys (fst st) ev) (snd st) dt lim ml al A M D) as (E & _). rewrite B, C in E. change (run_step st (ev, (dt, lim, ml, al))) with (StepInteractive (keys (fst st) ev) (snd st) dt lim ml al).
  unfold MIN in E. destruct (Rltb (b_max o) (i_factor i * limit lim ml)) eqn:Q; [apply Rltb_true in Q|apply Rltb_false in Q]; lra.
Qed.
Example C74_driven_within_limits_ex : Rabs (b_speed (snd (run_inter (ActivateInteractive inter0 (Obj 30 0 0 0 0 50) 4 5 6 7 true true, Obj 30 0 0 0 0 50) [([(KUp, true)], (1, 20, false, fun _ => (0, 0, 0)))]))) <= 1 * limit 20 false.
Proof. apply (C74_driven_within_limits inter0 (Obj 30 0 0 0 0 50) 4 5 6 7 true [] [(KUp, true)] 1 20 false (fun _ => (0, 0, 0))); cbn; lra. Qed.
(** A limit that drops is kept at once, whatever the deceleration. *)
Theorem C74_limit_drop_refuted : ~ (forall i o dt lim ml al, i_long i = true -> i_acc i <> None_ -> 0 <= dt -> 0 <= max_dec_ (i_veh i) -> 0 <= speed_ (i_veh i) <= b_max o ->
  speed_ (i_veh i) - max_dec_ (i_veh i) * dt <= b_speed (snd (StepInteractive i o dt lim ml al))).
Proof.
  intros H. pose (i := Inter (set_speed reset_veh 30 false) None_ Plus 1 true true). pose (o := Obj 30 0 0 0 0 70).
  specialize (H i o 0 10 false (fun _ => (0, 0, 0)) eq_refl ltac:(discriminate) ltac:(lra) ltac:(cbn; lra) ltac:(cbn; lra)).
  assert (M : 0 <= MIN (i_factor i * limit 10 false) (b_max o) <= 10).
  { cbn [i o i_factor b_max]. unfold limit, SMALL_NUMBER. rewrite (proj2 (Rltb_false 10 (1 / 1000000))) by lra. unfold MIN. rewrite (proj2 (Rltb_false 70 (1 * 10))) by lra. lra. }
  destruct (inter_speed i o 0 10 false (fun _ => (0, 0, 0)) eq_refl (proj1 M) ltac:(discriminate)) as (E & _). set (q := b_speed _) in *. clearbody q. cbn [i i_veh set_speed reset_veh speed_ max_dec_] in H. unfold Rabs in E. destruct (Rcase_abs q); lra.
Qed.
(** With the lateral domain only, the object keeps its speed and goes that far; with the longitudinal only, it goes along the road by speed times dt and keeps its wheel angle. *)
Theorem C74_lateral_only : forall i o dt lim ml al, i_long i = false -> i_lat i = true -> let r := StepInteractive i o dt lim ml al in
  b_speed (snd r) = b_speed o /\ b_wheel (snd r) = wheel_ (i_veh (fst r)) /\
  (b_x (snd r) - x_ (i_veh i)) * (b_x (snd r) - x_ (i_veh i)) + (b_y (snd r) - y_ (i_veh i)) * (b_y (snd r) - y_ (i_veh i)) = (b_speed o * dt) * (b_speed o * dt).
Proof.
  intros i o dt lim ml al L A r. unfold r, StepInteractive. rewrite L, A. cbn [negb andb fst snd b_speed b_wheel i_veh b_x b_y]. set (v := Veh _ _ _ _ _ _ _ _ _ _ _ _ _ _ _ _ _ _ _ _ _ _). split; [reflexivity|]. split; [reflexivity|].
  pose proof (C74_distance v (CBinary dt (i_acc i) (i_steer i))) as D. cbv zeta in D. cbn [drive time_of] in D. destruct (C74_disabled v (CBinary dt (i_acc i) (i_steer i)) I) as [S1 _]. destruct (S1 eq_refl) as [S2 _]. cbn [drive] in S2. rewrite S2 in D. exact D.
Qed.
Example C74_lateral_only_ex : b_speed (snd (StepInteractive (Inter reset_veh Plus Plus 1 false true) (Obj 8 0 0 0 0 50) 1 20 false (fun _ => (0, 0, 0)))) = 8.
Proof. apply (C74_lateral_only (Inter reset_veh Plus Plus 1 false true)); reflexivity. Qed.
Theorem C74_longitudinal_only : forall i o dt lim ml al, i_long i = true -> i_lat i = false -> let r := StepInteractive i o dt lim ml al in
  (b_x (snd r), b_y (snd r), b_h (snd r)) = al (b_speed (snd r) * dt) /\ b_wheel (snd r) = b_wheel o /\ wheel_ (i_veh (fst r)) = wheel_ (i_veh i).
Proof.
  intros i o dt lim ml al L A r. unfold r, StepInteractive. rewrite L, A. cbn [negb andb fst snd b_speed b_wheel i_veh b_x b_y b_h]. set (v := Veh _ _ _ _ _ _ _ _ _ _ _ _ _ _ _ _ _ _ _ _ _ _).
  destruct (C74_disabled v (CBinary dt (i_acc i) (i_steer i)) I) as [_ W]. specialize (W eq_refl). cbn [drive] in W. set (u := DrivingControlBinary v dt (i_acc i) (i_steer i)) in *. clearbody u.
  destruct (al (speed_ u * dt)) as ((ax, ay), ah) eqn:E. cbn [x_ y_ h_ speed_ wheel_]. rewrite E. auto.
Qed.
Example C74_longitudinal_only_ex : b_x (snd (StepInteractive (Inter (set_speed reset_veh 3 false) Plus Plus 1 true false) (Obj 3 0 0 0 0 50) 0 20 false (fun s => (7 + s, 0, 0)))) = 7.
Proof.
  destruct (C74_longitudinal_only (Inter (set_speed reset_veh 3 false) Plus Plus 1 true false) (Obj 3 0 0 0 0 50) 0 20 false (fun s => (7 + s, 0, 0)) eq_refl eq_refl) as (E & _). cbv zeta in E. apply (f_equal (fun p => fst (fst p))) in E.
  cbn [fst] in E. etransitivity; [exact E|]. ring.
Qed.
(** Activated, it starts where and as fast as the object, straight on, with no keys pressed. *)
Theorem C74_activated : forall i o len acc dec rate lo la, let j := ActivateInteractive i o len acc dec rate lo la in let v := i_veh j in
  x_ v = b_x o /\ y_ v = b_y o /\ h_ v = b_h o /\ speed_ v = b_speed o /\ wheel_ v = 0 /\ hand_ v = false /\ len_ v = len /\ max_acc_ v = acc /\ max_dec_ v = dec /\ rate_ v = rate /\
  i_steer j = None_ /\ i_acc j = None_ /\ i_long j = lo /\ i_lat j = la.
Proof. intros. repeat split. Qed.
Example C74_activated_ex : speed_ (i_veh (ActivateInteractive inter0 (Obj 8 0 1 2 3 50) 4 5 6 7 true true)) = 8.
Proof. reflexivity. Qed.
(** The limit used is that of the road where it has one. *)
Theorem C74_limit : forall s ml, (SMALL_NUMBER <= s -> limit s ml = s) /\ (s < SMALL_NUMBER -> 36 / 10 * limit s true = 110 /\ 36 / 10 * limit s false = 60).
Proof. intros s ml. unfold limit. split; intros H; [now rewrite (proj2 (Rltb_false s SMALL_NUMBER) H)|rewrite (proj2 (Rltb_true s SMALL_NUMBER) H); lra]. Qed.
Example C74_limit_ex : limit 20 true = 20.
Proof. apply C74_limit. unfold SMALL_NUMBER. lra. Qed.


(** ** The controls in range *)
(** Acceleration and wheel angle in range are taken as they are. *)
Theorem C74_acc_and_steer : forall v dt a s, no_throttle_ v = false -> no_steer_ v = false -> - max_speed_ v <= speed_ v + a * dt <= max_speed_ v -> - (PI / 3) <= s <= PI / 3 ->
  let u := DrivingControlAccAndSteer v dt a s in speed_ u = speed_ v + a * dt /\ wheel_ u = s /\ hand_ u = hand_ v.
Proof.
  intros v dt a s T N S1 S2. unfold DrivingControlAccAndSteer. rewrite T. cbn [set_speed no_steer_]. rewrite N. cbn [Update set_wheel speed_ wheel_ hand_].
  rewrite !clamp_in by (try exact S1; rewrite max_angle; lra). auto.
Qed.
Example C74_acc_and_steer_ex : speed_ (DrivingControlAccAndSteer reset_veh 1 3 0) = 3.
Proof. destruct (C74_acc_and_steer reset_veh 1 3 0) as (E & _); try reflexivity; [cbn; lra|pose proof PI_RGT_0; lra|]. rewrite E. cbn. ring. Qed.
(** The wheel turns with the key by the steering rate, the less the faster; without key it turns back. *)
Theorem C74_key_steers : forall v dt a s, no_steer_ v = false -> let u := DrivingControlBinary v dt a s in let k := 1 / (1 + scale_ v * speed_ u * speed_ u) in
  let w := match s with Plus => wheel_ v + k * rate_ v * dt | Minus => wheel_ v - k * rate_ v * dt | None_ => wheel_ v * (1 - ret_ v * dt) end in
  - (k * (PI / 3)) <= w <= k * (PI / 3) -> wheel_ u = w.
Proof.
  intros v dt a s N. cbv zeta. unfold DrivingControlBinary. cbn [Update wheel_ speed_].
  destruct (throttle_part_form v dt (val a) (is_none a) (is_none a)) as (q & hb & ->). cbn [set_speed no_steer_]. rewrite N. cbn [set_wheel set_speed wheel_ speed_ scale_ rate_ ret_].
  set (k := 1 / (1 + scale_ v * q * q)). intros W. rewrite max_angle. replace (- k * (PI / 3)) with (- (k * (PI / 3))) by ring.
  destruct s; cbn [is_none val]; [replace (wheel_ v + k * rate_ v * -1 * dt) with (wheel_ v - k * rate_ v * dt) by ring|
    replace (wheel_ v + k * rate_ v * 0 * dt) with (wheel_ v) by ring|replace (wheel_ v + k * rate_ v * 1 * dt) with (wheel_ v + k * rate_ v * dt) by ring]; apply clamp_in; exact W.
Qed.
Example C74_key_steers_ex : 1 / (1 + scale_ reset_veh * 0 * 0) = 1.
Proof. cbn. field. Qed.
(** So it does with a steering wheel, and always turns back a part. *)
Theorem C74_wheel_steers : forall v dt a s, no_steer_ v = false -> let u := DrivingControlAnalog v dt a s in let k := 1 / (1 + 5 / 1000 * speed_ u * speed_ u) in
  let w := (wheel_ v + k * rate_ v * s * dt) * (1 - ret_ v * dt) in - (k * (PI / 3)) <= w <= k * (PI / 3) -> wheel_ u = w.
Proof.
  intros v dt a s N. cbv zeta. unfold DrivingControlAnalog. cbn [Update wheel_ speed_].
  destruct (throttle_part_form v dt a (Rltb (Rabs a) SMALL_NUMBER || Rltb SMALL_NUMBER a) (Rltb (Rabs a) SMALL_NUMBER)) as (q & hb & ->). cbn [set_speed no_steer_]. rewrite N.
  cbn [set_wheel set_speed wheel_ speed_ scale_ rate_ ret_]. intros W. apply clamp_in. rewrite max_angle.
  match goal with |- - ?k * _ <= _ <= _ => replace (- k * (PI / 3)) with (- (k * (PI / 3))) by ring end. exact W.
Qed.
Example C74_wheel_steers_ex : rate_ reset_veh = 5 /\ ret_ reset_veh = 4.
Proof. split; reflexivity. Qed.
(** Heading for a target the wheel is put at the angle to it, as far as it goes at the new speed. *)
Theorem C74_target_steers : forall v dt t h, let u := DrivingControlTarget v dt t h in let k := 1 / (1 + scale_ v * speed_ u * speed_ u) in
  - (k * (PI / 3)) <= h <= k * (PI / 3) -> wheel_ u = h.
Proof.
  intros v dt t h. cbv zeta. unfold DrivingControlTarget. cbn [Update wheel_ speed_ set_wheel set_speed scale_]. intros W. apply clamp_in. rewrite max_angle.
  match goal with |- - ?k * _ <= _ <= _ => replace (- k * (PI / 3)) with (- (k * (PI / 3))) by ring end. exact W.
Qed.
Example C74_target_steers_ex : scale_ reset_veh = 2 / 100.
Proof. reflexivity. Qed.
(** Driven in both domains the object is where the vehicle under the keys is. *)
Theorem C74_both_domains : forall i o dt lim ml al, i_long i = true -> i_lat i = true -> let r := StepInteractive i o dt lim ml al in let u := i_veh (fst r) in
  exists v, x_ v = x_ (i_veh i) /\ y_ v = y_ (i_veh i) /\ h_ v = h_ (i_veh i) /\ speed_ v = speed_ (i_veh i) /\ wheel_ v = wheel_ (i_veh i) /\ max_speed_ v = Rmin (i_factor i * limit lim ml) (b_max o) /\
    no_throttle_ v = false /\ no_steer_ v = false /\ u = DrivingControlBinary v dt (i_acc i) (i_steer i) /\ snd r = Obj (speed_ u) (wheel_ u) (x_ u) (y_ u) (h_ u) (b_max o).
Proof.
  intros i o dt lim ml al L A. cbv zeta. unfold StepInteractive. rewrite L, A. cbn [negb andb fst snd i_veh].
  eexists. split; [|split; [|split; [|split; [|split; [|split; [|split; [|split; [|split; reflexivity]]]]]]]]; try reflexivity.
  cbn [max_speed_]. unfold MIN. destruct (Rltb _ _) eqn:E; [apply Rltb_true in E; rewrite Rmin_right by lra|apply Rltb_false in E; rewrite Rmin_left by lra]; reflexivity.
Qed.
Example C74_both_domains_ex : i_long (ActivateInteractive inter0 (Obj 8 0 1 2 3 50) 4 5 6 7 true true) = true.
Proof. reflexivity. Qed.

Print Assumptions C74_speed_limit.
Print Assumptions C74_wheel_limit.
Print Assumptions C74_wheel_at_speed.
Print Assumptions C74_wheel_at_speed_analog.
Print Assumptions C74_angles.
Print Assumptions C74_setup_kept.
Print Assumptions C74_no_jump_to_reverse.
Print Assumptions C74_stops.
Print Assumptions C74_stands.
Print Assumptions C74_drives_off_refuted.
Print Assumptions C74_pedal_lets_go.
Print Assumptions C74_brake_held_refuted.
Print Assumptions C74_brakes.
Print Assumptions C74_acceleration.
Print Assumptions C74_coasts.
Print Assumptions C74_coast_time_refuted.
Print Assumptions C74_target_approached.
Print Assumptions C74_target_reached_refuted.
Print Assumptions C74_disabled.
Print Assumptions C74_target_disabled_refuted.
Print Assumptions C74_throttle_query_refuted.
Print Assumptions C74_steering_query.
Print Assumptions C74_aligns.
Print Assumptions C74_aligns_refuted.
Print Assumptions C74_distance.
Print Assumptions C74_velocity.
Print Assumptions C74_straight.
Print Assumptions C74_turns.
Print Assumptions C74_turns_side.
Print Assumptions C74_turn_limit.
Print Assumptions C74_heading_adds.
Print Assumptions C74_wheels_roll.
Print Assumptions C74_circle.
Print Assumptions C74_moved.
Print Assumptions C74_keys.
Print Assumptions C74_keys_only.
Print Assumptions C74_key_held_refuted.
Print Assumptions C74_driven_within_limits.
Print Assumptions C74_limit_drop_refuted.
Print Assumptions C74_lateral_only.
Print Assumptions C74_longitudinal_only.
Print Assumptions C74_activated.
Print Assumptions C74_limit.
Print Assumptions C74_acc_and_steer.
Print Assumptions C74_key_steers.
Print Assumptions C74_wheel_steers.
Print Assumptions C74_target_steers.
Print Assumptions C74_both_domains.
