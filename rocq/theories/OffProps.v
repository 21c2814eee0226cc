(** C79: a vehicle following another off the road steers towards it and keeps its distance. *)
From Coq Require Import Reals Bool List Lra.
From Verif Require Import AngModel AngProofs AngProps BoxModel AccModel GeoModel VehModel VehProofs VehProps OffModel OffProofs.
Import ListNotations.
Open Scope R_scope.

(** ** Steering. *)
(** It steers by the angle to the entity ahead, limited to 1: the shortest turn to its bearing, be it ahead or behind. *)
Theorem C79_steering : forall o l, SMALL_NUMBER <= Rabs (e_x l - e_x o) -> exists d, steering o l = Rmax (-1) (Rmin d 1) /\ - PI <= d <= PI /\
  let r := sqrt ((e_x l - e_x o) * (e_x l - e_x o) + (e_y l - e_y o) * (e_y l - e_y o)) in e_x l = e_x o + r * cos (e_h o + d) /\ e_y l = e_y o + r * sin (e_h o + d).
Proof.
  intros o l S. exists (GetAngleDifference (GetAngleOfVector (e_x l - e_x o) (e_y l - e_y o)) (e_h o)). unfold steering. rewrite limit_one. split; [reflexivity|].
  destruct (C23_difference (GetAngleOfVector (e_x l - e_x o) (e_y l - e_y o)) (e_h o)) as (B & A & _). split; [exact B|]. cbv zeta.
  destruct (C23_vector_angle _ (e_y l - e_y o) S) as (_ & X & Y). destruct (same_trig _ _ A) as [C1 S1]. rewrite C1, S1, <- X, <- Y. split; lra.
Qed.
Example C79_steering_ex : SMALL_NUMBER <= Rabs (e_x (Ent 5 0 0 0 0 70) - e_x (Ent 0 0 0 0 0 70)).
Proof. cbn. rewrite Rabs_right; unfold SMALL_NUMBER; lra. Qed.
Theorem C79_steering_range : forall o l, -1 <= steering o l <= 1.
Proof. intros o l. unfold steering. rewrite limit_one. unfold Rmax, Rmin. repeat destruct (Rle_dec _ _); lra. Qed.
Example C79_steering_range_ex : exists o l, steering o l = 0.
Proof.
  exists (Ent 0 0 0 0 0 70), (Ent 0 0 0 0 0 70). unfold steering. cbn [e_x e_y e_h]. replace (0 - 0) with 0 by ring. unfold GetAngleOfVector. rewrite Rabs_R0.
  rewrite (proj2 (Rltb_true 0 SMALL_NUMBER)) by (unfold SMALL_NUMBER; lra). cbn [andb]. rewrite limit_one.
  destruct (C23_difference 0 0) as (_ & _ & M). specialize (M 0 ltac:(exists 0%Z; lra)). rewrite Rabs_R0 in M. pose proof (Rabs_pos (GetAngleDifference 0 0)).
  assert (Z : GetAngleDifference 0 0 = 0) by (destruct (Req_dec (GetAngleDifference 0 0) 0) as [E|E]; [exact E|apply Rabs_pos_lt in E; lra]). rewrite Z. rewrite Rmin_left, Rmax_right; lra.
Qed.

(** ** Throttle. *)
Theorem C79_throttle : forall D o l, throttle D o l =
  Rmax (-1) (Rmin ((sqrt ((e_x l - e_x o) * (e_x l - e_x o) + (e_y l - e_y o) * (e_y l - e_y o)) - D + e_speed l - e_speed o) / 2) 1).
Proof. intros D o l. unfold throttle, length2. rewrite limit_one. do 2 f_equal. lra. Qed.
Example C79_throttle_ex : throttle 20 (Ent 0 0 0 10 0 70) (Ent 21 0 0 10 0 70) = 1 / 2.
Proof. rewrite C79_throttle. cbn. replace ((21 - 0) * (21 - 0) + (0 - 0) * (0 - 0)) with (21 * 21) by ring. rewrite sqrt_square by lra. rewrite Rmin_left, Rmax_right; lra. Qed.
Theorem C79_throttle_range : forall D o l, -1 <= throttle D o l <= 1.
Proof. intros D o l. rewrite C79_throttle. unfold Rmax, Rmin. repeat destruct (Rle_dec _ _); lra. Qed.
Example C79_throttle_range_ex : throttle 20 (Ent 0 0 0 10 0 70) (Ent 100 0 0 10 0 70) = 1.
Proof. rewrite C79_throttle. cbn. replace ((100 - 0) * (100 - 0) + (0 - 0) * (0 - 0)) with (100 * 100) by ring. rewrite sqrt_square by lra. rewrite Rmin_right, Rmax_right; lra. Qed.
(** Being farther away never means less throttle, nor does a faster leader or a slower follower. *)
Theorem C79_throttle_monotone : forall D o l o' l', let d a b := sqrt ((e_x b - e_x a) * (e_x b - e_x a) + (e_y b - e_y a) * (e_y b - e_y a)) in
  d o l <= d o' l' -> e_speed l <= e_speed l' -> e_speed o' <= e_speed o -> throttle D o l <= throttle D o' l'.
Proof. intros D o l o' l' d H1 H2 H3. rewrite !C79_throttle. fold (d o l). fold (d o' l'). unfold Rmax, Rmin. repeat destruct (Rle_dec _ _); lra. Qed.
Example C79_throttle_monotone_ex : throttle 20 (Ent 0 0 0 10 0 70) (Ent 21 0 0 10 0 70) <= throttle 20 (Ent 0 0 0 10 0 70) (Ent 100 0 0 10 0 70).
Proof. rewrite C79_throttle_ex, C79_throttle_range_ex. lra. Qed.

(** ** A step. *)
Theorem C79_no_lead : forall f o lim dt, StepOff f o None lim dt = (f, o).
Proof. reflexivity. Qed.
Example C79_no_lead_ex : snd (StepOff (default_off reset_veh) (Ent 1 2 3 4 5 6) None 10 1) = Ent 1 2 3 4 5 6.
Proof. reflexivity. Qed.
(** The object is where the vehicle model is driven to by these pedals, with 1.2 times the speed limit or the maximum speed of the object as limit. *)
Theorem C79_step : forall f o l lim dt, let v0 := f_veh f in let v := f_veh (fst (StepOff f o (Some l) lim dt)) in let o' := snd (StepOff f o (Some l) lim dt) in
  (exists v1, max_speed_ v1 = Rmin (12 / 10 * lim) (e_max o) /\ speed_ v1 = speed_ v0 /\ wheel_ v1 = wheel_ v0 /\ x_ v1 = x_ v0 /\ y_ v1 = y_ v0 /\ h_ v1 = h_ v0 /\
    hand_ v1 = hand_ v0 /\ rot_ v1 = rot_ v0 /\ (len_ v1, max_acc_ v1, max_dec_ v1, rate_ v1, ret_ v1, scale_ v1, drag_ v1, no_throttle_ v1, no_steer_ v1) =
      (len_ v0, max_acc_ v0, max_dec_ v0, rate_ v0, ret_ v0, scale_ v0, drag_ v0, no_throttle_ v0, no_steer_ v0) /\
    v = DrivingControlAnalog v1 dt (throttle (f_dist f) o l) (steering o l)) /\
  e_x o' = x_ v /\ e_y o' = y_ v /\ e_h o' = h_ v /\ e_speed o' = speed_ v /\ e_wheel o' = wheel_ v /\ e_max o' = e_max o.
Proof.
  intros f o l lim dt. cbv zeta. split; [|repeat split]. exists (set_max (f_veh f) (MIN (12 / 10 * lim) (e_max o))). rewrite <- MIN_Rmin. repeat (split; [reflexivity|]). reflexivity.
Qed.
Example C79_step_ex : Rmin (12 / 10 * 10) 70 = 12.
Proof. rewrite Rmin_left; lra. Qed.
(** The speed factor that can be set has no effect at all. *)
Theorem C79_factor_ignored : forall f o lead lim dt k, snd (StepOff (Off (f_veh f) (f_dist f) (f_rate f) k) o lead lim dt) = snd (StepOff f o lead lim dt).
Proof. intros f o [l|] lim dt k; reflexivity. Qed.
Example C79_factor_ignored_ex : f_factor (default_off reset_veh) = 1.
Proof. reflexivity. Qed.

(** ** Keeping the distance. *)
(** A vehicle behind the leader at the distance set and at its speed does not keep that speed: the drag of a pedal not pressed takes a thousandth away in every step. *)
Theorem C79_keeps_refuted : ~ (forall f o l lim dt, 0 < dt -> no_throttle_ (f_veh f) = false -> hand_ (f_veh f) = false -> speed_ (f_veh f) = e_speed o -> e_speed l = e_speed o ->
  length2 (e_x l - e_x o) (e_y l - e_y o) = f_dist f -> 0 <= e_speed o <= 12 / 10 * lim -> e_speed o <= e_max o -> e_speed (snd (StepOff f o (Some l) lim dt)) = e_speed o).
Proof.
  intros H. pose (f := default_off (set_speed reset_veh 10 false)). pose (o := Ent 0 0 0 10 0 70). pose (l := Ent 20 0 0 10 0 70).
  assert (LEN : length2 (e_x l - e_x o) (e_y l - e_y o) = 20). { unfold length2. cbn. replace ((20 - 0) * (20 - 0) + (0 - 0) * (0 - 0)) with (20 * 20) by ring. apply sqrt_square. lra. }
  specialize (H f o l 20 (1 / 10) ltac:(lra) eq_refl eq_refl eq_refl eq_refl LEN ltac:(cbn; lra) ltac:(cbn; lra)).
  assert (T : throttle (f_dist f) o l = 0). { unfold throttle. rewrite LEN, limit_one. cbn. rewrite Rmin_left, Rmax_right; lra. }
  unfold StepOff in H. rewrite T in H. cbn [snd e_speed] in H. rewrite (proj1 (analog_speed _ _ _ _)) in H. unfold throttle_part in H.
  cbn [f default_off f_veh set_max set_speed reset_veh no_throttle_ hand_ speed_ max_speed_ max_acc_ max_dec_ drag_ o e_max] in H. rewrite MIN_Rmin, Rmin_left, Rabs_R0 in H by lra.
  rewrite (proj2 (Rltb_false 0 0)), (proj2 (Rltb_true 0 10)), (proj2 (Rltb_false _ 0)), (proj2 (Rltb_true 0 SMALL_NUMBER)) in H by (unfold SMALL_NUMBER; lra). cbn [andb speed_ set_speed] in H.
  rewrite clamp_in in H by lra. cbn [o e_speed] in H. lra.
Qed.
(** Too near and braking while moving forward it does not go backwards within a step. *)
Theorem C79_no_jump_to_reverse : forall f o lead lim dt, speed_ (f_veh f) = e_speed o -> 0 < e_speed o -> 0 <= lim -> 0 <= e_max o -> drag_ (f_veh f) <= 1 ->
  0 <= e_speed (snd (StepOff f o lead lim dt)).
Proof.
  intros f o [l|] lim dt E P L M D; [|cbn; lra]. unfold StepOff. cbn [snd e_speed].
  apply (C74_no_jump_to_reverse (set_max (f_veh f) (MIN (12 / 10 * lim) (e_max o))) dt None_ None_); cbn [set_max speed_ max_speed_ drag_]; [lra| |exact D]. rewrite MIN_Rmin. apply Rmin_glb; lra.
Qed.
Example C79_no_jump_to_reverse_ex : drag_ reset_veh <= 1.
Proof. cbn. lra. Qed.

(** ** Activation and whole runs. *)
Theorem C79_activate : forall f o len acc dec, let f' := ActivateOff f o len acc dec in let v := f_veh f' in
  x_ v = e_x o /\ y_ v = e_y o /\ h_ v = e_h o /\ speed_ v = e_speed o /\ len_ v = len /\ max_acc_ v = acc /\ max_dec_ v = dec /\ rate_ v = f_rate f /\
  (vx_ v, vy_ v, vang_ v, vrel_ v, wheel_ v, rot_ v, hdot_ v, hand_ v, max_speed_ v, ret_ v, scale_ v, drag_ v, no_throttle_ v, no_steer_ v) =
  (vx_ reset_veh, vy_ reset_veh, vang_ reset_veh, vrel_ reset_veh, wheel_ reset_veh, rot_ reset_veh, hdot_ reset_veh, hand_ reset_veh, max_speed_ reset_veh, ret_ reset_veh,
   scale_ reset_veh, drag_ reset_veh, no_throttle_ reset_veh, no_steer_ reset_veh) /\
  f_dist f' = f_dist f /\ f_rate f' = f_rate f /\ f_factor f' = f_factor f.
Proof. intros. repeat split. Qed.
Example C79_activate_ex : f_dist (default_off reset_veh) = 20 /\ f_rate (default_off reset_veh) = 4.
Proof. split; reflexivity. Qed.
(** Unless set otherwise the distance is 20 m, the rate of steering 4. *)
Theorem C79_defaults : forall v, f_veh (default_off v) = v /\ f_dist (default_off v) = 20 /\ f_rate (default_off v) = 4 /\ f_factor (default_off v) = 1.
Proof. intros v. repeat split. Qed.
Example C79_defaults_ex : exists f, f_dist f <> f_dist (default_off reset_veh).
Proof. exists (Off reset_veh 1 4 1). cbn. lra. Qed.
(** Object and vehicle stay together over any run, whatever the leader does. *)
Definition together (f : off) (o : ent) : Prop := e_x o = x_ (f_veh f) /\ e_y o = y_ (f_veh f) /\ e_h o = h_ (f_veh f) /\ e_speed o = speed_ (f_veh f).
Lemma step_together : forall f o e lim dt, together f o -> together (fst (StepOff f o e lim dt)) (snd (StepOff f o e lim dt)).
Proof. intros f o [l|] lim dt T; [|exact T]. unfold StepOff. cbn [fst snd]. unfold together. cbn [e_x e_y e_h e_speed f_veh]. repeat split. Qed.
Theorem C79_together : forall r f o, together f o -> let '(f', o') := follow f o r in together f' o'.
Proof.
  induction r as [|[[e lim] dt] r IH]; intros f o T; [exact T|]. cbn [follow]. pose proof (step_together f o e lim dt T) as K. destruct (StepOff f o e lim dt) as [f' o']. now apply IH.
Qed.
Example C79_together_ex : together (ActivateOff (default_off reset_veh) (Ent 1 2 3 4 0 70) 5 6 7) (Ent 1 2 3 4 0 70).
Proof. repeat split. Qed.
(** Under a constant speed limit the speed stays below 1.2 times it and below the maximum of the object. *)
Lemma step_limit : forall f o e lim dt, together f o -> 0 <= lim -> 0 <= e_max o -> Rabs (e_speed o) <= Rmin (12 / 10 * lim) (e_max o) ->
  e_max (snd (StepOff f o e lim dt)) = e_max o /\ Rabs (e_speed (snd (StepOff f o e lim dt))) <= Rmin (12 / 10 * lim) (e_max o).
Proof.
  intros f o [l|] lim dt (_ & _ & _ & S) L M V; [|split; [reflexivity|exact V]]. unfold StepOff. cbn [snd e_max e_speed]. split; [reflexivity|].
  pose proof (drive_speed (set_max (f_veh f) (MIN (12 / 10 * lim) (e_max o))) (CAnalog dt (throttle (f_dist f) o l) (steering o l))) as K. cbn [drive] in K.
  change (max_speed_ (set_max (f_veh f) (MIN (12 / 10 * lim) (e_max o)))) with (MIN (12 / 10 * lim) (e_max o)) in K. change (speed_ (set_max (f_veh f) (MIN (12 / 10 * lim) (e_max o)))) with (speed_ (f_veh f)) in K.
  rewrite MIN_Rmin in *. apply K; [apply Rmin_glb; lra|]. rewrite <- S. exact V.
Qed.
Theorem C79_speed_limit : forall r f o lim, together f o -> 0 <= lim -> 0 <= e_max o -> Rabs (e_speed o) <= Rmin (12 / 10 * lim) (e_max o) ->
  Forall (fun s => snd (fst s) = lim) r -> Rabs (e_speed (snd (follow f o r))) <= Rmin (12 / 10 * lim) (e_max o).
Proof.
  induction r as [|[[e l] dt] r IH]; intros f o lim T L M V F; [exact V|]. inversion F as [|? ? A B]; subst. cbn [fst snd] in *. cbn [follow].
  pose proof (step_together f o e l dt T) as K. pose proof (step_limit f o e l dt T L M V) as [L1 L2]. destruct (StepOff f o e l dt) as [f' o']. cbn [fst snd] in *.
  rewrite <- L1 in *. now apply IH.
Qed.
Example C79_speed_limit_ex : Rabs (e_speed (Ent 1 2 3 4 0 70)) <= Rmin (12 / 10 * 10) (e_max (Ent 1 2 3 4 0 70)).
Proof. cbn. rewrite Rabs_right, Rmin_left; lra. Qed.

Print Assumptions C79_steering.
Print Assumptions C79_steering_range.
Print Assumptions C79_throttle.
Print Assumptions C79_throttle_range.
Print Assumptions C79_throttle_monotone.
Print Assumptions C79_no_lead.
Print Assumptions C79_step.
Print Assumptions C79_factor_ignored.
Print Assumptions C79_keeps_refuted.
Print Assumptions C79_no_jump_to_reverse.
Print Assumptions C79_activate.
Print Assumptions C79_defaults.
Print Assumptions C79_together.
Print Assumptions C79_speed_limit.
