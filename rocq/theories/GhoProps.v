(** C78: a vehicle following a ghost steers towards and approaches the speed of a point of the ghost's trail. *)
From Coq Require Import Reals Bool List Lra.
From Verif Require Import AngModel AngProofs BoxModel AccModel VehModel VehProofs VehProps GhoModel GhoProofs.
Import ListNotations.
Open Scope R_scope.

(** ** The direction to the target. *)
(** A target at bearing [a] of at most 90 degrees is steered at by exactly that angle. *)
Theorem C78_direction : forall x y h r a, SMALL_NUMBER < r -> - (PI / 2) <= a <= PI / 2 -> direction x y h (x + r * cos (h + a)) (y + r * sin (h + a)) = a.
Proof. intros x y h r a H A. rewrite direction_polar by exact H. now apply asin_sin. Qed.
Example C78_direction_ex : direction 1 2 0 (1 + 5 * cos (0 + 1)) (2 + 5 * sin (0 + 1)) = 1.
Proof. apply C78_direction; [unfold SMALL_NUMBER; lra|]. pose proof PI2_1. lra. Qed.

(** A target behind on the left is taken for its mirror image in front. *)
Theorem C78_mirrored : forall x y h r a, SMALL_NUMBER < r -> PI / 2 <= a <= PI -> direction x y h (x + r * cos (h + a)) (y + r * sin (h + a)) = PI - a.
Proof.
  intros x y h r a H A. rewrite direction_polar by exact H. replace (sin a) with (sin (PI - a)) by (rewrite sin_minus, sin_PI, cos_PI; ring). apply asin_sin. lra.
Qed.
Example C78_mirrored_ex : direction 0 0 0 (0 + 5 * cos (0 + PI)) (0 + 5 * sin (0 + PI)) = 0.
Proof. rewrite C78_mirrored; [lra|unfold SMALL_NUMBER; lra|]. pose proof PI_RGT_0. lra. Qed.
(** So not every target is steered at: one straight behind, at any distance, is taken for one straight ahead. *)
Theorem C78_direction_refuted : ~ (forall x y h r a, SMALL_NUMBER < r -> - PI < a <= PI -> direction x y h (x + r * cos (h + a)) (y + r * sin (h + a)) = a).
Proof.
  intros H. pose proof PI_RGT_0 as P. assert (S : SMALL_NUMBER < 5) by (unfold SMALL_NUMBER; lra). specialize (H 0 0 0 5 PI S ltac:(lra)). rewrite C78_mirrored in H by (try exact S; lra). lra.
Qed.

(** The angle never exceeds 90 degrees, and is turned to the side the target is on. *)
Theorem C78_quarter : forall x y h tx ty, - (PI / 2) <= direction x y h tx ty <= PI / 2.
Proof. intros. unfold direction, rotate. destruct (Rltb _ _); apply asin_bound. Qed.
Example C78_quarter_ex : direction 0 0 0 0 0 = 0.
Proof. apply direction_self. Qed.
Theorem C78_side : forall x y h r a, SMALL_NUMBER < r -> sin (direction x y h (x + r * cos (h + a)) (y + r * sin (h + a))) = sin a.
Proof. intros x y h r a H. rewrite direction_polar by exact H. apply sin_asin. apply SIN_bound. Qed.
Example C78_side_ex : SMALL_NUMBER < 1.
Proof. unfold SMALL_NUMBER. lra. Qed.
(** The argument of asin is always in its domain. *)
Theorem C78_domain : forall h dx dy, SMALL_NUMBER < sqrt (dx * dx + dy * dy) ->
  let len := sqrt (dx * dx + dy * dy) in -1 <= cos h * (dy / len) - dx / len * sin h <= 1.
Proof. intros h dx dy H. apply (cross_unit h dx dy). unfold SMALL_NUMBER in H. lra. Qed.
Example C78_domain_ex : SMALL_NUMBER < sqrt (3 * 3 + 4 * 4).
Proof. replace (3 * 3 + 4 * 4) with (5 * 5) by ring. rewrite sqrt_square by lra. unfold SMALL_NUMBER. lra. Qed.
(** At the target the wheels are to go straight. *)
Theorem C78_at_target : forall x y h tx ty, sqrt ((tx - x) * (tx - x) + (ty - y) * (ty - y)) <= SMALL_NUMBER -> direction x y h tx ty = 0.
Proof. exact direction_near. Qed.
Example C78_at_target_ex : sqrt ((1 - 1) * (1 - 1) + (2 - 2) * (2 - 2)) <= SMALL_NUMBER.
Proof. replace ((1 - 1) * (1 - 1) + (2 - 2) * (2 - 2)) with 0 by ring. rewrite sqrt_0. unfold SMALL_NUMBER. lra. Qed.

(** ** The target. *)
Definition point_at (t : trail) (m : follow_mode) : R -> option gpoint := match m with ByPosition => ahead t | ByTime => at_time t end.
(** Where on the trail it looks: by position so far ahead as the time set takes at the present speed, at least the minimum; by time the same, whatever the speed. *)
Definition where_speed (g : gho) (o : gobj) (now : R) : R :=
  match f_mode g with ByPosition => Rmax (f_min_speed g) (f_look_speed g * o_speed o) | ByTime => now - f_headstart g + Rmax (f_min_speed g) (f_look_speed g) end.
Definition where_steer (g : gho) (o : gobj) (now : R) : R :=
  match f_mode g with ByPosition => Rmax (f_min_steer g) (f_look_steer g * o_speed o) | ByTime => now - f_headstart g + Rmax (f_min_steer g) (f_look_steer g) end.
Lemma MAX_Rmax : forall x y, MAX x y = Rmax x y.
Proof. intros x y. unfold MAX, Rmax. destruct (Rltb x y) eqn:E; [apply Rltb_true in E|apply Rltb_false in E]; destruct (Rle_dec x y); lra. Qed.
Theorem C78_target : forall g o t now sp st, point_at t (f_mode g) (where_speed g o now) = Some sp -> point_at t (f_mode g) (where_steer g o now) = Some st ->
  target g o t now = (g_speed sp, g_x st, g_y st).
Proof. intros g o t now sp st. unfold target, where_speed, where_steer, point_at. rewrite !MAX_Rmax. destruct (f_mode g); intros -> ->; reflexivity. Qed.
Example C78_target_ex : target (default_gho reset_veh true true) (Gobj 0 0 0 0 0 0) (Trail (fun _ => None) (fun t => Some (Gpoint t 0 7))) 10 = (7, 8, 0).
Proof. unfold target. cbn. rewrite !MAX_Rmax, (Rmax_left 1 1) by lra. repeat f_equal. lra. Qed.
(** Without one of the points it aims at standing still where it is. *)
Theorem C78_no_target : forall g o t now, point_at t (f_mode g) (where_speed g o now) = None \/ point_at t (f_mode g) (where_steer g o now) = None ->
  target g o t now = (0, o_x o, o_y o).
Proof.
  intros g o t now. unfold target, where_speed, where_steer, point_at. rewrite !MAX_Rmax. destruct (f_mode g); (intros [-> | E]; [reflexivity|]); rewrite E.
  - destruct (ahead t (Rmax (f_min_speed g) _)); reflexivity.
  - destruct (at_time t (now - f_headstart g + Rmax (f_min_speed g) _)); reflexivity.
Qed.
Example C78_no_target_ex : target (default_gho reset_veh true true) (Gobj 4 5 0 0 0 0) (Trail (fun _ => None) (fun _ => None)) 10 = (0, 4, 5).
Proof. reflexivity. Qed.

(** ** A step. *)
Theorem C78_no_ghost : forall g o now dt, StepGhost g o None now dt = (g, o).
Proof. reflexivity. Qed.
Example C78_no_ghost_ex : snd (StepGhost (default_gho reset_veh true true) (Gobj 4 5 0 0 0 0) None 1 1) = Gobj 4 5 0 0 0 0.
Proof. reflexivity. Qed.
(** The object is where the vehicle model is driven to by that target. *)
Theorem C78_step : forall g o t now dt s tx ty, target g o t now = (s, tx, ty) ->
  let v := DrivingControlTarget (f_veh g) dt s (direction (o_x o) (o_y o) (o_h o) tx ty) in
  let '(g', o') := StepGhost g o (Some t) now dt in
  f_veh g' = v /\ o_x o' = x_ v /\ o_y o' = y_ v /\ o_h o' = h_ v /\ o_speed o' = speed_ v /\
  o_wheel o' = (if f_lat g then wheel_ v else o_wheel o) /\ o_rot o' = (if f_long g then rot_ v else o_rot o).
Proof. intros g o t now dt s tx ty E. unfold StepGhost. rewrite E. cbn. repeat split. Qed.
Example C78_step_ex : target (default_gho reset_veh true true) (Gobj 4 5 0 0 0 0) (Trail (fun _ => None) (fun _ => None)) 10 = (0, 4, 5).
Proof. reflexivity. Qed.
(** The controller's parameters stay. *)
Theorem C78_params : forall g o t now dt, let g' := fst (StepGhost g o t now dt) in
  f_mode g' = f_mode g /\ f_headstart g' = f_headstart g /\ f_look_speed g' = f_look_speed g /\ f_min_speed g' = f_min_speed g /\ f_look_steer g' = f_look_steer g /\
  f_min_steer g' = f_min_steer g /\ f_inertia g' = f_inertia g /\ f_long g' = f_long g /\ f_lat g' = f_lat g.
Proof. intros g o [t|] now dt; unfold StepGhost; [destruct (target g o t now) as [[s tx] ty]|]; cbn; repeat split. Qed.
Example C78_params_ex : f_headstart (default_gho reset_veh true true) = 3.
Proof. reflexivity. Qed.
(** In steps of at most 0.1 s the speed approaches that of the ghost without overshooting. *)
Theorem C78_speed : forall g o t now dt s tx ty, target g o t now = (s, tx, ty) -> max_acc_ (f_veh g) = 10 -> max_speed_ (f_veh g) = 100 -> 0 <= dt <= 1 / 10 ->
  Rabs s <= 100 -> Rabs (speed_ (f_veh g)) <= 100 -> let s' := o_speed (snd (StepGhost g o (Some t) now dt)) in
  (speed_ (f_veh g) <= s -> speed_ (f_veh g) <= s' <= s) /\ (s <= speed_ (f_veh g) -> s <= s' <= speed_ (f_veh g)).
Proof.
  intros g o t now dt s tx ty E A M D S V. unfold StepGhost. rewrite E. cbn [snd o_speed]. apply C74_target_approached; rewrite ?A, ?M; try exact S; try exact V; lra.
Qed.
Example C78_speed_ex : max_acc_ (f_veh (ActivateGhost (default_gho reset_veh true true) (Gobj 0 0 0 5 0 0) 4 true true)) = 10.
Proof. reflexivity. Qed.
(** Without a trail it brakes, going straight. *)
Theorem C78_lost : forall g o t now dt, target g o t now = (0, o_x o, o_y o) -> max_acc_ (f_veh g) = 10 -> max_speed_ (f_veh g) = 100 -> 0 <= dt <= 1 / 10 ->
  0 <= scale_ (f_veh g) -> 0 <= speed_ (f_veh g) <= 100 -> let '(g', o') := StepGhost g o (Some t) now dt in 0 <= o_speed o' <= speed_ (f_veh g) /\ wheel_ (f_veh g') = 0.
Proof.
  intros g o t now dt E A M D C V.
  assert (K := C78_speed g o t now dt 0 _ _ E A M D ltac:(rewrite Rabs_R0; lra) ltac:(rewrite Rabs_right; lra)). revert K. unfold StepGhost. rewrite E, direction_self.
  cbn [snd o_speed f_veh]. intros [_ K]. split; [apply K; lra|]. apply C74_target_steers. set (s := speed_ _). pose proof PI_RGT_0.
  assert (Q : 0 < 1 + scale_ (f_veh g) * s * s) by (assert (0 <= scale_ (f_veh g) * (s * s)) by (apply Rmult_le_pos; [exact C|nra]); lra).
  assert (0 < 1 / (1 + scale_ (f_veh g) * s * s)) by (apply Rdiv_lt_0_compat; lra). assert (0 < 1 / (1 + scale_ (f_veh g) * s * s) * (PI / 3)) by (apply Rmult_lt_0_compat; lra). lra.
Qed.
Example C78_lost_ex : target (default_gho reset_veh true true) (Gobj 4 5 0 0 0 0) (Trail (fun _ => None) (fun _ => None)) 10 = (0, 4, 5).
Proof. reflexivity. Qed.
Lemma target_x : forall v dt t h, x_ (DrivingControlTarget v dt t h) =
  x_ v + dt * (speed_ (DrivingControlTarget v dt t h) * cos (atan (15 / 100 * tan (wheel_ (DrivingControlTarget v dt t h))) + h_ v)).
Proof. reflexivity. Qed.
Lemma target_y : forall v dt t h, y_ (DrivingControlTarget v dt t h) =
  y_ v + dt * (speed_ (DrivingControlTarget v dt t h) * sin (atan (15 / 100 * tan (wheel_ (DrivingControlTarget v dt t h))) + h_ v)).
Proof. reflexivity. Qed.
(** A ghost behind is not turned to: the vehicle drives on straight. *)
Theorem C78_behind_refuted : exists t, forall now, let g := ActivateGhost (default_gho reset_veh true true) (Gobj 0 0 0 10 0 0) 4 true true in
  let o := Gobj 0 0 0 10 0 0 in target g o t now = (10, 0 + 5 * cos (0 + PI), 0 + 5 * sin (0 + PI)) /\
  o_wheel (snd (StepGhost g o (Some t) now (1 / 10))) = 0 /\ o_x (snd (StepGhost g o (Some t) now (1 / 10))) = 1.
Proof.
  exists (Trail (fun _ => None) (fun _ => Some (Gpoint (0 + 5 * cos (0 + PI)) (0 + 5 * sin (0 + PI)) 10))). intros now. cbv zeta. split; [reflexivity|].
  unfold StepGhost. cbn [target ActivateGhost default_gho f_mode at_time g_speed g_x g_y f_veh o_x o_y o_h snd o_wheel f_lat f_long].
  rewrite C78_mirrored by (try (unfold SMALL_NUMBER; lra); pose proof PI_RGT_0; lra). replace (PI - PI) with 0 by ring.
  assert (S : forall h, speed_ (DrivingControlTarget (f_veh (ActivateGhost (default_gho reset_veh true true) (Gobj 0 0 0 10 0 0) 4 true true)) (1 / 10) 10 h) = 10).
  { intros h. rewrite target_speed. cbn. rewrite (clamp_in (10 * _)) by lra. rewrite clamp_in; lra. }
  assert (W : wheel_ (DrivingControlTarget (f_veh (ActivateGhost (default_gho reset_veh true true) (Gobj 0 0 0 10 0 0) 4 true true)) (1 / 10) 10 0) = 0).
  { apply C74_target_steers. rewrite S. cbn. pose proof PI_RGT_0. split; lra. }
  split; [exact W|].
  change (x_ (DrivingControlTarget (f_veh (ActivateGhost (default_gho reset_veh true true) (Gobj 0 0 0 10 0 0) 4 true true)) (1 / 10) 10 0) = 1). rewrite target_x, S, W. cbn [f_veh ActivateGhost x_ h_ o_x o_h]. rewrite tan_0, Rmult_0_r, atan_0, Rplus_0_r, cos_0. lra.
Qed.

(** ** Domains. *)
(** Speed and position of the object do not depend on the domains: a controller of the steering only sets the speed as well. *)
Theorem C78_domains : forall g o t now dt long lat,
  let g2 := Gho (f_veh g) (f_mode g) (f_headstart g) (f_look_speed g) (f_min_speed g) (f_look_steer g) (f_min_steer g) (f_inertia g) long lat in
  let o1 := snd (StepGhost g o t now dt) in let o2 := snd (StepGhost g2 o t now dt) in
  o_x o2 = o_x o1 /\ o_y o2 = o_y o1 /\ o_h o2 = o_h o1 /\ o_speed o2 = o_speed o1.
Proof.
  intros g o [t|] now dt long lat; cbv zeta; unfold StepGhost; [|cbn; repeat split].
  change (target (Gho (f_veh g) (f_mode g) (f_headstart g) (f_look_speed g) (f_min_speed g) (f_look_steer g) (f_min_steer g) (f_inertia g) long lat) o t now) with (target g o t now).
  destruct (target g o t now) as [[s tx] ty]. cbn. repeat split.
Qed.
Example C78_domains_ex : f_long (default_gho reset_veh false true) = false.
Proof. reflexivity. Qed.
Theorem C78_lateral_refuted : ~ (forall g o t now dt, f_long g = false -> o_speed (snd (StepGhost g o (Some t) now dt)) = o_speed o).
Proof.
  intros H. specialize (H (ActivateGhost (default_gho reset_veh true true) (Gobj 0 0 0 10 0 0) 4 false true) (Gobj 0 0 0 10 0 0) (Trail (fun _ => None) (fun _ => None)) 0 (1 / 10) eq_refl).
  unfold StepGhost in H. cbn [target ActivateGhost default_gho f_mode at_time f_veh o_x o_y o_h snd o_speed] in H. rewrite target_speed in H. cbn in H.
  assert (C : CLAMP (10 * (0 - 10)) (- (10)) 10 = -10) by (rewrite AccProofs.CLAMP_Rmin, (Rmax_left (- (10))), Rmin_right; lra). rewrite C, clamp_in in H; lra.
Qed.

(** ** Activation and whole runs. *)
Theorem C78_activate : forall g o len long lat, let v := f_veh (ActivateGhost g o len long lat) in
  x_ v = o_x o /\ y_ v = o_y o /\ h_ v = o_h o /\ speed_ v = o_speed o /\ len_ v = len /\ max_speed_ v = 100 /\ max_acc_ v = 10 /\ scale_ v = f_inertia g /\ wheel_ v = 0 /\
  f_long (ActivateGhost g o len long lat) = long /\ f_lat (ActivateGhost g o len long lat) = lat.
Proof. intros. cbn. repeat split. Qed.
Example C78_activate_ex : x_ (f_veh (ActivateGhost (default_gho reset_veh true true) (Gobj 4 5 0 0 0 0) 4 true true)) = 4.
Proof. reflexivity. Qed.
(** Object and vehicle stay together over any run after activation, with any trails, times and steps. *)
Definition together (g : gho) (o : gobj) : Prop := o_x o = x_ (f_veh g) /\ o_y o = y_ (f_veh g) /\ o_h o = h_ (f_veh g) /\ o_speed o = speed_ (f_veh g).
Lemma step_together : forall g o t n d, together g o -> together (fst (StepGhost g o t n d)) (snd (StepGhost g o t n d)).
Proof. intros g o [t|] n d T; [|exact T]. unfold StepGhost. destruct (target g o t n) as [[s tx] ty]. cbn [fst snd]. unfold together. cbn [o_x o_y o_h o_speed f_veh]. repeat split. Qed.
Theorem C78_together : forall l g o, together g o -> let '(g', o') := follow g o l in together g' o'.
Proof.
  induction l as [|[[t n] d] r IH]; intros g o T; [exact T|]. cbn [follow]. pose proof (step_together g o t n d T) as K. destruct (StepGhost g o t n d) as [g' o']. now apply IH.
Qed.
Example C78_together_ex : together (ActivateGhost (default_gho reset_veh true true) (Gobj 4 5 0 3 0 0) 4 true true) (Gobj 4 5 0 3 0 0).
Proof. repeat split. Qed.
(** And the speed stays within 100 m/s. *)
Lemma step_limit : forall g o t n d, together g o -> max_speed_ (f_veh g) = 100 -> Rabs (o_speed o) <= 100 ->
  max_speed_ (f_veh (fst (StepGhost g o t n d))) = 100 /\ Rabs (o_speed (snd (StepGhost g o t n d))) <= 100.
Proof.
  intros g o [t|] n d T M V; [|split; assumption]. unfold StepGhost. destruct (target g o t n) as [[s tx] ty]. cbn [fst snd o_speed f_veh]. split; [exact M|].
  rewrite <- M. apply (drive_speed (f_veh g) (CTarget _ _ _)); rewrite M; [lra|]. destruct T as (_ & _ & _ & <-). exact V.
Qed.
Theorem C78_limit : forall l g o, together g o -> max_speed_ (f_veh g) = 100 -> Rabs (o_speed o) <= 100 -> Rabs (o_speed (snd (follow g o l))) <= 100.
Proof.
  induction l as [|[[t n] d] r IH]; intros g o T M V; [exact V|]. cbn [follow]. pose proof (step_together g o t n d T) as K. pose proof (step_limit g o t n d T M V) as [L1 L2].
  destruct (StepGhost g o t n d) as [g' o']. now apply IH.
Qed.
Example C78_limit_ex : max_speed_ (f_veh (ActivateGhost (default_gho reset_veh true true) (Gobj 4 5 0 3 0 0) 4 true true)) = 100.
Proof. reflexivity. Qed.
(** A position the object was given from elsewhere is lost in the next step, even one of no time: the vehicle knows only its own. *)
Theorem C78_teleport_refuted : ~ (forall g o t now, o_x (snd (StepGhost g o (Some t) now 0)) = o_x o).
Proof.
  intros H. specialize (H (default_gho reset_veh true true) (Gobj 50 0 0 0 0 0) (Trail (fun _ => None) (fun _ => None)) 0).
  unfold StepGhost in H. cbn [target default_gho f_mode at_time f_veh o_x o_y o_h snd] in H. unfold DrivingControlTarget in H. cbn [Update x_ set_wheel set_speed reset_veh] in H. lra.
Qed.

(** Unless set otherwise it follows by time, 3 s behind, aiming at the speed 0.1 s and at the point 1 s further on the trail. *)
Theorem C78_defaults : forall v long lat o t now sp st, at_time t (now - 29 / 10) = Some sp -> at_time t (now - 2) = Some st ->
  target (default_gho v long lat) o t now = (g_speed sp, g_x st, g_y st).
Proof.
  intros v long lat o t now sp st A B. apply C78_target; unfold where_speed, where_steer; cbn [default_gho f_mode f_headstart f_min_speed f_look_speed f_min_steer f_look_steer point_at];
    rewrite Rmax_left by lra; [rewrite <- A|rewrite <- B]; f_equal; lra.
Qed.
Example C78_defaults_ex : f_inertia (default_gho reset_veh true true) = 1 / 100.
Proof. reflexivity. Qed.
(** A target behind on the right is mirrored likewise. *)
Theorem C78_mirrored_right : forall x y h r a, SMALL_NUMBER < r -> - PI <= a <= - (PI / 2) -> direction x y h (x + r * cos (h + a)) (y + r * sin (h + a)) = - PI - a.
Proof.
  intros x y h r a H A. rewrite direction_polar by exact H. replace (sin a) with (sin (- PI - a)) by (rewrite sin_minus, sin_neg, cos_neg, sin_PI, cos_PI; ring). apply asin_sin. lra.
Qed.
Example C78_mirrored_right_ex : direction 0 0 0 (0 + 5 * cos (0 + - PI)) (0 + 5 * sin (0 + - PI)) = 0.
Proof. rewrite C78_mirrored_right; [lra|unfold SMALL_NUMBER; lra|]. pose proof PI_RGT_0. lra. Qed.

(** Rotating turns every vector by the angle and keeps its length. *)
Theorem C78_rotate : forall r b a, rotate (r * cos b) (r * sin b) a = (r * cos (a + b), r * sin (a + b)).
Proof. intros r b a. unfold rotate. rewrite cos_plus, sin_plus. f_equal; ring. Qed.
Example C78_rotate_ex : rotate 1 0 0 = (1, 0).
Proof. unfold rotate. rewrite cos_0, sin_0. f_equal; ring. Qed.
(** Activation starts from a fresh vehicle: at rest sideways, without handbrake, controls enabled, the rest as after a reset; the parameters of the controller stay. *)
Theorem C78_activate_fresh : forall g o len long lat, let g' := ActivateGhost g o len long lat in let v := f_veh g' in
  (vx_ v, vy_ v, vang_ v, vrel_ v, rot_ v, hdot_ v, hand_ v, max_dec_ v, rate_ v, ret_ v, drag_ v, no_throttle_ v, no_steer_ v) =
  (vx_ reset_veh, vy_ reset_veh, vang_ reset_veh, vrel_ reset_veh, rot_ reset_veh, hdot_ reset_veh, hand_ reset_veh, max_dec_ reset_veh, rate_ reset_veh, ret_ reset_veh,
   drag_ reset_veh, no_throttle_ reset_veh, no_steer_ reset_veh) /\
  (f_mode g', f_headstart g', f_look_speed g', f_min_speed g', f_look_steer g', f_min_steer g', f_inertia g') =
  (f_mode g, f_headstart g, f_look_speed g, f_min_speed g, f_look_steer g, f_min_steer g, f_inertia g).
Proof. intros. split; reflexivity. Qed.
Example C78_activate_fresh_ex : max_dec_ (f_veh (ActivateGhost (default_gho reset_veh true true) (Gobj 4 5 0 3 0 0) 4 true true)) = 20.
Proof. reflexivity. Qed.
(** Straight ahead: a ghost going straight in front of a vehicle as fast as it is followed on a straight line at that speed. *)
Theorem C78_straight_step : forall g o t now dt r, together g o -> SMALL_NUMBER < r -> max_acc_ (f_veh g) = 10 -> max_speed_ (f_veh g) = 100 -> 0 <= scale_ (f_veh g) ->
  Rabs (o_speed o) <= 100 -> target g o t now = (o_speed o, o_x o + r * cos (o_h o), o_y o + r * sin (o_h o)) ->
  let o' := snd (StepGhost g o (Some t) now dt) in
  o_speed o' = o_speed o /\ o_x o' = o_x o + dt * (o_speed o * cos (o_h o)) /\ o_y o' = o_y o + dt * (o_speed o * sin (o_h o)).
Proof.
  intros g o t now dt r (X & Y & H & S) R A M C V E. unfold StepGhost. rewrite E. cbn [snd o_speed o_x o_y]. pose proof PI_RGT_0 as P.
  assert (D : direction (o_x o) (o_y o) (o_h o) (o_x o + r * cos (o_h o)) (o_y o + r * sin (o_h o)) = 0).
  { rewrite <- (Rplus_0_r (o_h o)) at 2 3. apply C78_direction; [exact R|lra]. }
  rewrite D. set (v := f_veh g) in *.
  assert (SP : speed_ (DrivingControlTarget v dt (o_speed o) 0) = o_speed o).
  { rewrite target_speed, A, M, S. replace (10 * (speed_ v - speed_ v)) with 0 by ring. rewrite (clamp_in 0) by lra. rewrite clamp_in; [ring|]. rewrite <- S. unfold Rabs in V. destruct (Rcase_abs _); lra. }
  assert (W : wheel_ (DrivingControlTarget v dt (o_speed o) 0) = 0).
  { apply C74_target_steers. rewrite SP. set (s := o_speed o).
    assert (Q : 0 < 1 + scale_ v * s * s) by (assert (0 <= scale_ v * (s * s)) by (apply Rmult_le_pos; [exact C|nra]); lra).
    assert (0 < 1 / (1 + scale_ v * s * s)) by (apply Rdiv_lt_0_compat; lra). assert (0 < 1 / (1 + scale_ v * s * s) * (PI / 3)) by (apply Rmult_lt_0_compat; lra). lra. }
  split; [exact SP|]. split; [rewrite target_x|rewrite target_y]; rewrite SP, W, tan_0, Rmult_0_r, atan_0, Rplus_0_l, <- H; [rewrite <- X|rewrite <- Y]; reflexivity.
Qed.
Example C78_straight_step_ex : target (default_gho reset_veh true true) (Gobj 0 0 0 7 0 0) (Trail (fun _ => None) (fun _ => Some (Gpoint 5 0 7))) 10 = (7, 5, 0).
Proof. reflexivity. Qed.

Print Assumptions C78_direction.
Print Assumptions C78_mirrored.
Print Assumptions C78_direction_refuted.
Print Assumptions C78_quarter.
Print Assumptions C78_side.
Print Assumptions C78_domain.
Print Assumptions C78_at_target.
Print Assumptions C78_target.
Print Assumptions C78_no_target.
Print Assumptions C78_no_ghost.
Print Assumptions C78_step.
Print Assumptions C78_params.
Print Assumptions C78_speed.
Print Assumptions C78_lost.
Print Assumptions C78_behind_refuted.
Print Assumptions C78_domains.
Print Assumptions C78_lateral_refuted.
Print Assumptions C78_activate.
Print Assumptions C78_together.
Print Assumptions C78_limit.
Print Assumptions C78_teleport_refuted.
Print Assumptions C78_defaults.
Print Assumptions C78_mirrored_right.
Print Assumptions C78_rotate.
Print Assumptions C78_activate_fresh.
Print Assumptions C78_straight_step.
