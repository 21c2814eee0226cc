(** * Proofs about the bicycle model *)
From Coq Require Import Reals Bool List ZArith Lra Lia.
From Verif Require Import AngModel AngProofs BoxModel AccModel AccProofs VehModel.
Import ListNotations.
Open Scope R_scope.

(** ** Runs of any controls *)
Inductive control := CTarget (dt target heading : R) | CBinary (dt : R) (throttle steering : input) | CAnalog (dt throttle steering : R) | CAcc (dt acc angle : R).
Definition drive (v : veh) (c : control) : veh :=
  match c with
  | CTarget dt t h => DrivingControlTarget v dt t h
  | CBinary dt a s => DrivingControlBinary v dt a s
  | CAnalog dt a s => DrivingControlAnalog v dt a s
  | CAcc dt a s => DrivingControlAccAndSteer v dt a s
  end.
Definition drives (v : veh) (l : list control) : veh := fold_left drive l v.
Definition time_of (c : control) : R := match c with CTarget dt _ _ | CBinary dt _ _ | CAnalog dt _ _ | CAcc dt _ _ => dt end.

(** What no control changes. *)
Definition setup (v : veh) := (len_ v, max_speed_ v, max_acc_ v, max_dec_ v, rate_ v, ret_ v, scale_ v, drag_ v, no_throttle_ v, no_steer_ v).

(** Each control changes speed, handbrake and wheel angle, and then updates. *)
Definition controls (v : veh) (s w : R) (hb : bool) : veh := set_wheel (set_speed v s hb) w.
Lemma set_same : forall v, set_speed v (speed_ v) (hand_ v) = v.
Proof. intros []; reflexivity. Qed.
Lemma set_wheel_same : forall v, set_wheel v (wheel_ v) = v.
Proof. intros []; reflexivity. Qed.
Lemma throttle_part_form : forall v dt t r n, exists s hb, throttle_part v dt t r n = set_speed v s hb.
Proof.
  intros v dt t r n. unfold throttle_part. destruct (no_throttle_ v); [exists (speed_ v), (hand_ v); now rewrite set_same|]. destruct (hand_ v); [eauto|].
  destruct (Rltb 0 (speed_ v) && _); eauto.
Qed.
Lemma set_speed_controls : forall v s hb, set_speed v s hb = controls v s (wheel_ v) hb.
Proof. intros []; reflexivity. Qed.
Lemma drive_form : forall v c, exists s w hb, drive v c = Update (controls v s w hb) (time_of c).
Proof.
  intros v c. destruct c as [dt t h|dt a s|dt a s|dt a s]; cbn [drive time_of].
  - unfold DrivingControlTarget. do 3 eexists. reflexivity.
  - unfold DrivingControlBinary. destruct (throttle_part_form v dt (val a) (is_none a) (is_none a)) as (u & hb & E). rewrite E. cbn [set_speed no_steer_].
    destruct (no_steer_ v); [exists u, (wheel_ v), hb|do 3 eexists]; reflexivity.
  - unfold DrivingControlAnalog. destruct (throttle_part_form v dt a (Rltb (Rabs a) SMALL_NUMBER || Rltb SMALL_NUMBER a) (Rltb (Rabs a) SMALL_NUMBER)) as (u & hb & E). rewrite E. cbn [set_speed no_steer_].
    destruct (no_steer_ v); [exists u, (wheel_ v), hb|do 3 eexists]; reflexivity.
  - unfold DrivingControlAccAndSteer. destruct (no_throttle_ v) eqn:T.
    + destruct (no_steer_ v); [exists (speed_ v), (wheel_ v), (hand_ v)|eexists (speed_ v), _, (hand_ v)]; unfold controls; rewrite set_same; [now rewrite set_wheel_same|reflexivity].
    + cbn [set_speed no_steer_]. destruct (no_steer_ v); [eexists _, (wheel_ v), _|do 3 eexists]; reflexivity.
Qed.
Lemma drive_setup : forall v c, setup (drive v c) = setup v.
Proof. intros v c. destruct (drive_form v c) as (s & w & hb & ->). reflexivity. Qed.
Lemma drives_setup : forall l v, setup (drives v l) = setup v.
Proof. induction l as [|c l IH]; intros v; cbn; [reflexivity|]. change (fold_left drive l (drive v c)) with (drives (drive v c) l). rewrite IH. apply drive_setup. Qed.
Lemma setup_eqs : forall v v', setup v = setup v' -> len_ v = len_ v' /\ max_speed_ v = max_speed_ v' /\ max_acc_ v = max_acc_ v' /\ max_dec_ v = max_dec_ v' /\ rate_ v = rate_ v' /\ ret_ v = ret_ v' /\
  scale_ v = scale_ v' /\ drag_ v = drag_ v' /\ no_throttle_ v = no_throttle_ v' /\ no_steer_ v = no_steer_ v'.
Proof. intros v v' E. unfold setup in E. injection E. intros. tauto. Qed.

Lemma drives_ind : forall (P : veh -> Prop) v l, P v -> (forall u c, In c l -> setup u = setup v -> P u -> P (drive u c)) -> P (drives v l).
Proof.
  intros P v l. revert v. induction l as [|c l IH]; intros v H K; [exact H|]. cbn. apply (IH (drive v c)).
  - apply K; [now left|reflexivity|exact H].
  - intros u d I E. apply K; [now right|]. rewrite E. apply drive_setup.
Qed.

(** ** Limits *)
Lemma clamp_abs : forall x m, 0 <= m -> Rabs (CLAMP x (- m) m) <= m.
Proof. intros x m H. destruct (clamp_range x (- m) m ltac:(lra)). apply Rabs_le. lra. Qed.
Lemma clamp_in : forall x lo hi, lo <= x <= hi -> CLAMP x lo hi = x.
Proof. intros x lo hi H. rewrite CLAMP_Rmin. unfold Rmin, Rmax. destruct (Rle_dec lo x); destruct (Rle_dec hi _); lra. Qed.
Lemma clamp_le_abs : forall x m, 0 <= m -> Rabs (CLAMP x (- m) m) <= Rabs x.
Proof. intros x m H. rewrite CLAMP_Rmin. unfold Rmin, Rmax, Rabs. destruct (Rle_dec (- m) x); destruct (Rle_dec m _); repeat destruct (Rcase_abs _); lra. Qed.
Lemma clamp_nonneg : forall x m, 0 <= m -> 0 <= x -> 0 <= CLAMP x (- m) m.
Proof. intros x m H X. rewrite CLAMP_Rmin. unfold Rmin, Rmax. destruct (Rle_dec (- m) x); destruct (Rle_dec m _); lra. Qed.

Lemma scale_range : forall k s, 0 <= k -> 0 < 1 / (1 + k * s * s) <= 1.
Proof.
  intros k s K. assert (A : 0 <= k * s * s) by (rewrite Rmult_assoc; apply Rmult_le_pos; [exact K|apply Rle_0_sqr]). unfold Rdiv. rewrite Rmult_1_l. split; [apply Rinv_0_lt_compat; lra|].
  rewrite <- Rinv_1. apply Rinv_le_contravar; lra.
Qed.
Lemma max_angle : STEERING_MAX_ANGLE = PI / 3.
Proof. unfold STEERING_MAX_ANGLE. field. Qed.
Lemma clamp_wheel : forall w k s, 0 <= k -> Rabs (CLAMP w (- (1 / (1 + k * s * s)) * STEERING_MAX_ANGLE) (1 / (1 + k * s * s) * STEERING_MAX_ANGLE)) <= PI / 3.
Proof.
  intros w k s K. destruct (scale_range k s K) as [A B]. rewrite max_angle. set (q := 1 / (1 + k * s * s)) in *. replace (- q * (PI / 3)) with (- (q * (PI / 3))) by ring. pose proof PI_RGT_0.
  eapply Rle_trans; [apply clamp_abs; nra|]. nra.
Qed.

Lemma throttle_speed : forall v dt t r n, 0 <= max_speed_ v -> Rabs (speed_ v) <= max_speed_ v -> Rabs (speed_ (throttle_part v dt t r n)) <= max_speed_ v.
Proof.
  intros v dt t r n M H. unfold throttle_part. destruct (no_throttle_ v); [exact H|]. destruct (hand_ v); [exact H|]. destruct (Rltb 0 (speed_ v) && _); cbn [set_speed speed_]; [rewrite Rabs_R0; exact M|]. now apply clamp_abs.
Qed.
Lemma drive_speed : forall v c, 0 <= max_speed_ v -> Rabs (speed_ v) <= max_speed_ v -> Rabs (speed_ (drive v c)) <= max_speed_ v.
Proof.
  intros v c M H. destruct c as [dt t h|dt a s|dt a s|dt a s]; cbn [drive].
  - unfold DrivingControlTarget. cbn [Update speed_ set_wheel set_speed]. now apply clamp_abs.
  - unfold DrivingControlBinary. cbn [Update speed_]. destruct (no_steer_ _); cbn [set_wheel speed_]; now apply throttle_speed.
  - unfold DrivingControlAnalog. cbn [Update speed_]. destruct (no_steer_ _); cbn [set_wheel speed_]; now apply throttle_speed.
  - unfold DrivingControlAccAndSteer. cbn [Update speed_]. destruct (no_throttle_ v); destruct (no_steer_ _); cbn [set_wheel set_speed speed_]; try exact H; now apply clamp_abs.
Qed.
Lemma throttle_wheel : forall v dt t r n, wheel_ (throttle_part v dt t r n) = wheel_ v /\ scale_ (throttle_part v dt t r n) = scale_ v /\ no_steer_ (throttle_part v dt t r n) = no_steer_ v.
Proof. intros v dt t r n. destruct (throttle_part_form v dt t r n) as (s & hb & ->). auto. Qed.
Lemma drive_wheel : forall v c, 0 <= scale_ v -> Rabs (wheel_ v) <= PI / 3 -> Rabs (wheel_ (drive v c)) <= PI / 3.
Proof.
  intros v c K H. destruct c as [dt t h|dt a s|dt a s|dt a s]; cbn [drive].
  - unfold DrivingControlTarget. cbn [Update wheel_ set_wheel set_speed]. now apply clamp_wheel.
  - unfold DrivingControlBinary. cbn [Update wheel_]. destruct (throttle_wheel v dt (val a) (is_none a) (is_none a)) as (A & B & _). destruct (no_steer_ _); cbn [set_wheel wheel_]; [now rewrite A|]. apply clamp_wheel. now rewrite B.
  - unfold DrivingControlAnalog. cbn [Update wheel_]. destruct (throttle_wheel v dt a (Rltb (Rabs a) SMALL_NUMBER || Rltb SMALL_NUMBER a) (Rltb (Rabs a) SMALL_NUMBER)) as (A & B & _).
    destruct (no_steer_ _); cbn [set_wheel wheel_]; [now rewrite A|]. apply clamp_wheel. lra.
  - unfold DrivingControlAccAndSteer. cbn [Update wheel_]. pose proof PI_RGT_0. assert (G : Rabs (CLAMP s (- STEERING_MAX_ANGLE) STEERING_MAX_ANGLE) <= PI / 3) by (rewrite max_angle; apply clamp_abs; lra).
    destruct (no_throttle_ v); destruct (no_steer_ _); cbn [set_wheel set_speed wheel_]; try exact H; exact G.
Qed.

(** ** One update *)
Lemma update_heading : forall v dt, 0 <= h_ (Update v dt) < 2 * PI /\ same_angle (h_ (Update v dt)) (h_ v + dt * hdot_ (Update v dt)).
Proof.
  intros v dt. cbn [Update h_ hdot_]. set (a := h_ v + dt * _). pose proof (fmod_range a) as F. pose proof (fmod_same a) as G. destruct (Rltb (fmod a (2 * PI)) 0) eqn:E.
  - apply Rltb_true in E. split; [lra|]. replace (fmod a (2 * PI) + 2 * PI) with (fmod a (2 * PI) + 2 * IZR 1 * PI) by lra. now apply same_shift.
  - apply Rltb_false in E. split; [lra|exact G].
Qed.
Lemma update_length : forall v dt, (x_ (Update v dt) - x_ v) * (x_ (Update v dt) - x_ v) + (y_ (Update v dt) - y_ v) * (y_ (Update v dt) - y_ v) = (speed_ v * dt) * (speed_ v * dt).
Proof.
  intros v dt. cbn [Update x_ y_]. set (a := atan _ + h_ v). pose proof (sin2_cos2 a) as S1. unfold Rsqr in S1.
  replace _ with ((speed_ v * dt) * (speed_ v * dt) * (sin a * sin a + cos a * cos a)) by ring. rewrite S1. ring.
Qed.
Lemma tan_sin_cos : forall b, cos b <> 0 -> tan b * cos b = sin b.
Proof. intros b H. unfold tan. field. exact H. Qed.
Lemma update_turn : forall v dt, len_ v <> 0 -> hdot_ (Update v dt) = speed_ v * cos (vrel_ (Update v dt)) * tan (wheel_ v) / len_ v.
Proof.
  intros v dt L. cbn [Update hdot_ vrel_]. set (b := atan (15 / 100 * tan (wheel_ v))).
  assert (C : 0 < cos b) by (destruct (atan_bound (15 / 100 * tan (wheel_ v))); apply cos_gt_0; unfold b; lra).
  assert (S1 : sin b = 15 / 100 * tan (wheel_ v) * cos b) by (rewrite <- (tan_sin_cos b) by lra; unfold b; now rewrite tan_atan). rewrite S1. field. exact L.
Qed.

(** ** Moving and mirroring the plane *)
Definition moved (a p q : R) (v u : veh) : Prop :=
  x_ u = p + cos a * x_ v - sin a * y_ v /\ y_ u = q + sin a * x_ v + cos a * y_ v /\ same_angle (h_ u) (h_ v + a) /\
  speed_ u = speed_ v /\ wheel_ u = wheel_ v /\ hand_ u = hand_ v /\ setup u = setup v.
Lemma same_sym : forall a b, same_angle a b -> same_angle b a.
Proof. intros a b (k & ->). exists (- k)%Z. rewrite opp_IZR. lra. Qed.
Lemma same_add : forall a b c, same_angle a b -> same_angle (a + c) (b + c).
Proof. intros a b c (k & ->). exists k. lra. Qed.

Lemma moved_update : forall a p q v u dt, moved a p q v u -> moved a p q (Update v dt) (Update u dt).
Proof.
  intros a p q v u dt (X & Y & H & S1 & W & B & E). pose proof (setup_eqs _ _ E) as (L & _).
  pose proof (proj2 (update_heading v dt)) as H1. pose proof (proj2 (update_heading u dt)) as H2.
  assert (D : hdot_ (Update u dt) = hdot_ (Update v dt)) by (cbn; now rewrite W, S1, L).
  unfold moved. split; [|split; [|split]].
  - cbn [Update x_ y_]. rewrite W, S1, X. set (b := atan _). destruct (same_trig _ _ (same_add _ _ b H)) as [C1 C2]. replace (b + h_ u) with (h_ u + b) by ring. rewrite C1.
    replace (h_ v + a + b) with (b + h_ v + a) by ring. rewrite cos_plus. ring.
  - cbn [Update x_ y_]. rewrite W, S1, Y. set (b := atan _). destruct (same_trig _ _ (same_add _ _ b H)) as [C1 C2]. replace (b + h_ u) with (h_ u + b) by ring. rewrite C2.
    replace (h_ v + a + b) with (b + h_ v + a) by ring. rewrite sin_plus. ring.
  - eapply same_trans; [exact H2|]. rewrite D. eapply same_trans; [apply same_add; exact H|]. apply same_sym. eapply same_trans; [apply same_add; exact H1|].
    replace (h_ v + dt * hdot_ (Update v dt) + a) with (h_ v + a + dt * hdot_ (Update v dt)) by ring. apply same_refl.
  - cbn [Update speed_ wheel_ hand_]. repeat split; auto.
Qed.

(** What a control does to speed, handbrake and wheel depends on these and the setup only. *)
Lemma throttle_form2 : forall v u dt t r n, speed_ u = speed_ v -> hand_ u = hand_ v -> setup u = setup v ->
  exists s hb, throttle_part v dt t r n = set_speed v s hb /\ throttle_part u dt t r n = set_speed u s hb.
Proof.
  intros v u dt t r n S1 B E. apply setup_eqs in E. destruct E as (L & M & A & D & _ & _ & _ & G & T & _). unfold throttle_part. rewrite S1, B, M, A, D, G, T.
  destruct (no_throttle_ v); [exists (speed_ v), (hand_ v); split; [now rewrite set_same|rewrite <- S1, <- B; now rewrite set_same]|]. destruct (hand_ v); [eauto|]. destruct (Rltb 0 (speed_ v) && _); eauto.
Qed.
Lemma drive_form2 : forall v u c, speed_ u = speed_ v -> wheel_ u = wheel_ v -> hand_ u = hand_ v -> setup u = setup v ->
  exists s w hb, drive v c = Update (controls v s w hb) (time_of c) /\ drive u c = Update (controls u s w hb) (time_of c).
Proof.
  intros v u c S1 W B E. pose proof (setup_eqs _ _ E) as (L & M & A & D & R1 & R2 & K & G & T & N). destruct c as [dt t h|dt a s|dt a s|dt a s]; cbn [drive time_of].
  - unfold DrivingControlTarget. cbn [set_speed scale_]. rewrite S1, M, A, B, K. do 3 eexists. split; reflexivity.
  - unfold DrivingControlBinary. destruct (throttle_form2 v u dt (val a) (is_none a) (is_none a) S1 B E) as (q & hb & -> & ->). cbn [set_speed no_steer_ speed_ scale_ rate_ ret_ wheel_].
    rewrite N, W, R1, R2, K. destruct (no_steer_ v); [exists q, (wheel_ v), hb; split; [reflexivity|rewrite <- W; reflexivity]|]. do 3 eexists. split; reflexivity.
  - unfold DrivingControlAnalog. destruct (throttle_form2 v u dt a (Rltb (Rabs a) SMALL_NUMBER || Rltb SMALL_NUMBER a) (Rltb (Rabs a) SMALL_NUMBER) S1 B E) as (q & hb & -> & ->).
    cbn [set_speed no_steer_ speed_ scale_ rate_ ret_ wheel_].
    rewrite N, W, R1, R2. destruct (no_steer_ v); [exists q, (wheel_ v), hb; split; [reflexivity|rewrite <- W; reflexivity]|]. do 3 eexists. split; reflexivity.
  - unfold DrivingControlAccAndSteer. rewrite T, S1, M, B. destruct (no_throttle_ v).
    + rewrite N. destruct (no_steer_ v); [exists (speed_ v), (wheel_ v), (hand_ v)|eexists (speed_ v), _, (hand_ v)]; unfold controls; rewrite set_same; split; try reflexivity.
      * now rewrite <- S1, <- B, <- W, set_same, set_wheel_same.
      * rewrite <- S1, <- B, set_same. reflexivity.
    + cbn [set_speed no_steer_]. rewrite N. destruct (no_steer_ v); [eexists _, (wheel_ v), _; split; [reflexivity|rewrite <- W; reflexivity]|do 3 eexists; split; reflexivity].
Qed.
Lemma moved_drive : forall a p q v u c, moved a p q v u -> moved a p q (drive v c) (drive u c).
Proof.
  intros a p q v u c (X & Y & H & S1 & W & B & E). destruct (drive_form2 v u c S1 W B E) as (s & w & hb & -> & ->). apply moved_update.
  unfold moved, controls. cbn [set_wheel set_speed x_ y_ h_ speed_ wheel_ hand_]. repeat (split; [assumption || reflexivity|]). exact E.
Qed.
Lemma moved_drives : forall a p q l v u, moved a p q v u -> moved a p q (drives v l) (drives u l).
Proof. induction l as [|c l IH]; intros v u H; cbn; [exact H|]. apply IH. now apply moved_drive. Qed.

(** ** Constant wheel angle and speed *)
Fixpoint updates (v : veh) (dt : R) (n : nat) : veh := match n with O => v | S n => Update (updates v dt n) dt end.
Lemma updates_const : forall v dt n, speed_ (updates v dt n) = speed_ v /\ wheel_ (updates v dt n) = wheel_ v /\ len_ (updates v dt n) = len_ v.
Proof. intros v dt n. induction n as [|n IH]; [auto|]. cbn. tauto. Qed.
Definition turn (v : veh) : R := speed_ v * sin (atan (15 / 100 * tan (wheel_ v))) / (len_ v * (15 / 100)).
Lemma updates_heading : forall v dt n, same_angle (h_ (updates v dt n)) (h_ v + INR n * (dt * turn v)).
Proof.
  intros v dt n. induction n as [|n IH]; [cbn; replace (h_ v + 0 * (dt * turn v)) with (h_ v) by ring; apply same_refl|].
  change (updates v dt (S n)) with (Update (updates v dt n) dt). eapply same_trans; [apply update_heading|].
  assert (T : hdot_ (Update (updates v dt n) dt) = turn v) by (destruct (updates_const v dt n) as (A & B & C); cbn; now rewrite A, B, C). rewrite T, S_INR.
  replace (h_ v + (INR n + 1) * (dt * turn v)) with (h_ v + INR n * (dt * turn v) + dt * turn v) by ring. now apply same_add.
Qed.

(** The centre and the radius of the circle on which the positions lie. *)
Definition radius (v : veh) (dt : R) : R := speed_ v * dt / (2 * sin (dt * turn v / 2)).
Definition centre_x (v : veh) (dt : R) : R := x_ v - radius v dt * sin (atan (15 / 100 * tan (wheel_ v)) + h_ v - dt * turn v / 2).
Definition centre_y (v : veh) (dt : R) : R := y_ v + radius v dt * cos (atan (15 / 100 * tan (wheel_ v)) + h_ v - dt * turn v / 2).
Lemma centre_update : forall v dt, sin (dt * turn v / 2) <> 0 ->
  radius (Update v dt) dt = radius v dt /\ centre_x (Update v dt) dt = centre_x v dt /\ centre_y (Update v dt) dt = centre_y v dt.
Proof.
  intros v dt NZ. assert (T : turn (Update v dt) = turn v) by reflexivity. assert (Q : radius (Update v dt) dt = radius v dt) by reflexivity.
  unfold centre_x, centre_y. rewrite Q, T. split; [reflexivity|].
  destruct (update_heading v dt) as [_ H]. change (hdot_ (Update v dt)) with (turn v) in H. cbn [Update wheel_].
  change (wheel_ (Update v dt)) with (wheel_ v). set (b := atan (15 / 100 * tan (wheel_ v))) in *. set (th := dt * turn v) in *.
  assert (G : same_angle (b + h_ (Update v dt) - th / 2) (b + h_ v + th / 2)) by (destruct H as (k & E); exists k; rewrite E; lra). destruct (same_trig _ _ G) as [C1 C2].
  change (h_ _) with (h_ (Update v dt)) at 1. rewrite C2. split.
  - rewrite ?C2. cbn [Update x_]. fold b. unfold radius. fold th. rewrite (sin_plus (b + h_ v) (th / 2)), (sin_minus (b + h_ v) (th / 2)). field. exact NZ.
  - rewrite ?C1. cbn [Update y_]. fold b. unfold radius. fold th. rewrite (cos_plus (b + h_ v) (th / 2)), (cos_minus (b + h_ v) (th / 2)). field. exact NZ.
Qed.
