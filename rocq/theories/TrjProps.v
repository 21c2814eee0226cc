(** * C72: following a trajectory *)
From Coq Require Import Reals Bool List Lra.
From Verif Require Import AngModel AngProofs TrjModel TrjProofs.
Import ListNotations.
Open Scope R_scope.

(** A straight line of 100 m along x, at 10 m/s from [start] on, of some kind; the position before its start is its start. *)
Definition line (k : kind) (start : R) (closed : bool) : traj :=
  Traj k 100 start (start + 10) closed [(start, 100)] (fun t => Rmin 100 (10 * (t - start))) (fun _ s => Geo 0 0 false (start + s / 10) 10 (Rmax 0 s) 0 0).
(** An action and an entity following it. *)
Definition following (t : traj) (d : domain) (scale offset time s : R) : act := Act t d FM_FOLLOW scale offset time 0 1 1 false false s I_SEGMENT true.
Definition car (v x : R) (lat long ghost attached : bool) : obj := Obj v x 0 0 lat long ghost 0 attached false.

Lemma plain_line : forall k st c d sc off ti s, plain (following (line k st c) d sc off ti s).
Proof. intros. split; [reflexivity|reflexivity]. Qed.
Lemma along_one : forall t dt v, 0 <= t -> 0 < dt -> 0 < v -> along 1 1 (Tick t dt (Some v)).
Proof. intros t dt v T D V. split; [exact T|]. split; [exact D|]. exists v. split; [reflexivity|]. split; [lra|]. unfold SIGN. rewrite (proj2 (Rltb_false _ _)) by lra. lra. Qed.
Lemma along_back : forall t dt v, 0 <= t -> 0 < dt -> v < 0 -> along (-1) 1 (Tick t dt (Some v)).
Proof. intros t dt v T D V. split; [exact T|]. split; [exact D|]. exists v. split; [reflexivity|]. split; [lra|]. unfold SIGN. rewrite (proj2 (Rltb_true _ _)) by lra. lra. Qed.
Lemma facing : forall h, heading_sign h h = 1.
Proof. intros h. apply heading_sign_same. exists 0%Z. cbn. lra. Qed.

(** Untimed, along an open trajectory: after any steps the entity is as far along as it has driven, and the action runs exactly as long as that is
    less than the length (to 1e-6); then it has stopped at the end. *)
Theorem C72_forward : forall a o ks a' o', a_domain a = D_NONE -> t_closed (a_traj a) = false -> plain a -> a_run a = true ->
  o_lat o = false -> o_traj o = true -> 0 <= a_s a <= t_len (a_traj a) - SMALL_NUMBER -> Forall (along 1 (a_sign a)) ks -> Run ks (a, o) = (a', o') ->
  (a_run a' = true <-> a_s a + dist ks <= t_len (a_traj a) - SMALL_NUMBER) /\
  (a_run a' = true -> a_s a' = a_s a + dist ks /\ (ks <> [] -> o_x o' = g_x (at_ a (a_s a')) /\ o_y o' = g_y (at_ a (a_s a')))) /\
  (a_run a' = false -> t_len (a_traj a) - SMALL_NUMBER < a_s a' <= t_len (a_traj a)).
Proof.
  intros a o ks a' o' D C PN RN LA TR SR FA E. destruct (run_forward a o ks a' o' D C PN RN LA TR SR FA E) as (_ & I1 & I2).
  destruct (Rle_lt_dec (a_s a + dist ks) (t_len (a_traj a) - SMALL_NUMBER)) as [H|H].
  - destruct (I1 H) as (J1 & _ & J3 & J4). rewrite J3. split; [tauto|]. split; [tauto|congruence].
  - destruct (I2 H) as (J1 & J2). split; [split; [congruence|lra]|]. split; [congruence|tauto].
Qed.
Example C72_forward_ex : exists a' o', Run [Tick 0 1 (Some 30); Tick 1 1 (Some 40)] (following (line K_POLYLINE 0 false) D_NONE 1 0 0 0, car 0 0 false false false true) = (a', o') /\
  a_run a' = true /\ a_s a' = 70 /\ o_x o' = 70.
Proof.
  match goal with |- exists _ _, ?r = _ /\ _ => destruct r as [a' o'] eqn:E end. exists a', o'. split; [reflexivity|].
  apply C72_forward in E; try reflexivity; [|apply plain_line|cbn; unfold SMALL_NUMBER; lra|repeat (apply Forall_cons; [apply along_one; lra|]); apply Forall_nil].
  unfold dist, way in E. cbn -[Rabs] in E. rewrite (Rabs_right 30), (Rabs_right 40) in E by lra.
  destruct E as (E1 & E2 & _). assert (R1 : a_run a' = true) by (apply E1; unfold SMALL_NUMBER; lra).
  destruct (E2 R1) as (S1 & X1). destruct (X1 ltac:(discriminate)) as [X2 _]. rewrite S1 in X2. rewrite Rmax_right in X2 by lra. repeat split; auto; lra.
Qed.

(** Untimed and back on an open trajectory: the same, down to its start. *)
Theorem C72_back : forall a o ks a' o', a_domain a = D_NONE -> t_closed (a_traj a) = false -> plain a -> a_run a = true ->
  o_lat o = false -> o_traj o = true -> SMALL_NUMBER <= a_s a <= t_len (a_traj a) - SMALL_NUMBER -> Forall (along (-1) (a_sign a)) ks -> Run ks (a, o) = (a', o') ->
  (a_run a' = true <-> SMALL_NUMBER <= a_s a - dist ks) /\
  (a_run a' = true -> a_s a' = a_s a - dist ks /\ (ks <> [] -> o_x o' = g_x (at_ a (a_s a')) /\ o_y o' = g_y (at_ a (a_s a')))).
Proof.
  intros a o ks a' o' D C PN RN LA TR SR FA E. destruct (run_back a o ks a' o' D C PN RN LA TR SR FA E) as (_ & I1 & I2).
  destruct (Rle_lt_dec SMALL_NUMBER (a_s a - dist ks)) as [H|H].
  - destruct (I1 H) as (J1 & _ & J3 & J4). rewrite J3. split; [tauto|tauto].
  - destruct (I2 H) as (J1 & J2). split; [split; [congruence|lra]|congruence].
Qed.
Example C72_back_ex : exists a' o', Run [Tick 0 1 (Some (-30))] (following (line K_SPLINE 0 false) D_NONE 1 0 0 50, car 0 50 false false false true) = (a', o') /\
  a_run a' = true /\ a_s a' = 20.
Proof.
  match goal with |- exists _ _, ?r = _ /\ _ => destruct r as [a' o'] eqn:E end. exists a', o'. split; [reflexivity|].
  apply C72_back in E; try reflexivity; [|apply plain_line|cbn; unfold SMALL_NUMBER; lra|repeat (apply Forall_cons; [apply along_back; lra|]); apply Forall_nil].
  unfold dist, way in E. cbn -[Rabs] in E. rewrite (Rabs_left (-30)) in E by lra.
  destruct E as (E1 & E2). assert (R1 : a_run a' = true) by (apply E1; unfold SMALL_NUMBER; lra). destruct (E2 R1). split; [assumption|lra].
Qed.

(** The step past the end: what is left of the way is driven straight on along the heading of the trajectory there. *)
Theorem C72_last : forall a o t dt v a' o', a_domain a = D_NONE -> t_closed (a_traj a) = false -> plain a -> a_run a = true ->
  o_lat o = false -> o_traj o = true -> 0 <= a_s a <= t_len (a_traj a) -> along 1 (a_sign a) (Tick t dt (Some v)) ->
  t_len (a_traj a) < a_s a + Rabs v * dt -> Run [Tick t dt (Some v)] (a, o) = (a', o') ->
  let e := at_ a (t_len (a_traj a)) in let left := a_s a + Rabs v * dt - t_len (a_traj a) in
  a_run a' = false /\ a_s a' = t_len (a_traj a) /\ o_x o' = g_x e + left * cos (g_h e) /\ o_y o' = g_y e + left * sin (g_h e).
Proof.
  intros a o t dt v a' o' D C PN RN LA TR SR AK H E e left. change (Run _ _) with (Tick1 (Tick t dt (Some v)) (a, o)) in E. pose proof small_pos.
  apply (tick_along a a o _ 1 a' o') in E; [|split; [unfold same_plan; tauto|tauto]|exact D|exact RN|exact TR|now left|exact AK]. cbn zeta in E. cbn [way k_speed k_dt] in E.
  rewrite by_s_full in E by lra. destruct E as (_ & E2 & [(_ & _ & E3 & E4 & E5)|([?|[[_ ?]|[? _]]] & _)]); [|congruence|lra|lra].
  rewrite (Rabs_right (t_len (a_traj a) - a_s a)) in E4, E5 by lra. split; [exact E3|]. split; [exact E2|]. rewrite E4, E5. unfold left, e. split; f_equal; f_equal; lra.
Qed.
Example C72_last_ex : exists a' o', Run [Tick 0 1 (Some 30)] (following (line K_CLOTHOID 0 false) D_NONE 1 0 0 90, car 0 90 false false false true) = (a', o') /\
  a_run a' = false /\ o_x o' = 120.
Proof.
  match goal with |- exists _ _, ?r = _ /\ _ => destruct r as [a' o'] eqn:E end. exists a', o'. split; [reflexivity|].
  apply C72_last in E; try reflexivity; [|apply plain_line|cbn; lra|apply along_one; lra|cbn -[Rabs]; rewrite Rabs_right; lra].
  destruct E as (E1 & _ & E3 & _). split; [exact E1|]. rewrite E3. cbn -[Rabs cos]. rewrite cos_0, Rabs_right, Rmax_right by lra. lra.
Qed.

(** Driving back past the start this does not hold: with a polyline the rest of the way is lost (1 m driven of 3)... *)
Theorem C72_back_lost_refuted : exists a o a' o', a_domain a = D_NONE /\ t_kind (a_traj a) = K_POLYLINE /\ o_x o = 1 /\
  Run [Tick 0 1 (Some (-3))] (a, o) = (a', o') /\ a_run a' = false /\ o_speed o' = -3 /\ o_x o' = 0 /\ o_y o' = o_y o.
Proof.
  exists (following (line K_POLYLINE 0 false) D_NONE 1 0 0 1), (car 0 1 false false false true).
  match goal with |- exists _ _, _ /\ _ /\ _ /\ ?r = _ /\ _ => destruct r as [a' o'] eqn:E end. exists a', o'.
  do 3 (split; [reflexivity|]). split; [reflexivity|].
  change (Run _ _) with (Step 0 1 (following (line K_POLYLINE 0 false) D_NONE 1 0 0 1) (car (-3) 1 false false false true)) in E.
  apply step_untimed in E; [|reflexivity|split; [reflexivity|split; [reflexivity|right; lra]]]. cbn zeta in E.
  assert (MB : moved_by (SIGN (o_speed (car (-3) 1 false false false true)) * a_sign (following (line K_POLYLINE 0 false) D_NONE 1 0 0 1)) (following (line K_POLYLINE 0 false) D_NONE 1 0 0 1) (car (-3) 1 false false false true) 1 = -2).
  { unfold moved_by, by_s. cbn -[Rltb Rabs SIGN]. unfold SIGN. rewrite (proj2 (Rltb_true (-3) 0)), Rabs_left by lra. rewrite (proj2 (Rltb_false _ _)) by (unfold SMALL_NUMBER; lra). lra. }
  rewrite MB in E. destruct E as (_ & _ & _ & _ & E5 & _ & E7 & _).
  destruct E7 as (F1 & _ & F3 & F4).
  { split; [reflexivity|]. split; [lra|]. right. cbn -[Rltb Rabs SIGN]. unfold SIGN, SMALL_NUMBER. rewrite (proj2 (Rltb_true (-3) 0)), Rabs_left by lra. lra. }
  split; [exact F1|]. split; [exact E5|]. rewrite F3, F4. cbn -[Rabs cos sin]. rewrite cos_0, sin_0, Rmax_left, (Rabs_left (-3)), (Rabs_left (-2 - 1)) by lra. lra.
Qed.
(** ... and with a clothoid spline it is driven forward again: 3 m back from 1 m end at 2 m, not before the start. *)
Theorem C72_back_forth_refuted : exists a o a' o', a_domain a = D_NONE /\ t_kind (a_traj a) = K_SPLINE /\ o_x o = 1 /\
  Run [Tick 0 1 (Some (-3))] (a, o) = (a', o') /\ a_run a' = false /\ o_speed o' = -3 /\ o_x o' = 2.
Proof.
  exists (following (line K_SPLINE 0 false) D_NONE 1 0 0 1), (car 0 1 false false false true).
  match goal with |- exists _ _, _ /\ _ /\ _ /\ ?r = _ /\ _ => destruct r as [a' o'] eqn:E end. exists a', o'.
  do 3 (split; [reflexivity|]). split; [reflexivity|].
  change (Run _ _) with (Step 0 1 (following (line K_SPLINE 0 false) D_NONE 1 0 0 1) (car (-3) 1 false false false true)) in E.
  apply step_untimed in E; [|reflexivity|split; [reflexivity|split; [reflexivity|right; lra]]]. cbn zeta in E.
  assert (MB : moved_by (SIGN (o_speed (car (-3) 1 false false false true)) * a_sign (following (line K_SPLINE 0 false) D_NONE 1 0 0 1)) (following (line K_SPLINE 0 false) D_NONE 1 0 0 1) (car (-3) 1 false false false true) 1 = 0).
  { unfold moved_by, by_s. cbn -[Rltb Rabs SIGN]. unfold SIGN. rewrite (proj2 (Rltb_true (-3) 0)), Rabs_left by lra. rewrite (proj2 (Rltb_false _ _)) by lra. rewrite (proj2 (Rltb_true _ _)) by lra. reflexivity. }
  rewrite MB in E. destruct E as (_ & _ & _ & _ & E5 & _ & E7 & _).
  destruct E7 as (F1 & _ & F3 & F4).
  { split; [reflexivity|]. split; [lra|]. right. cbn -[Rltb Rabs SIGN]. unfold SIGN, SMALL_NUMBER. rewrite (proj2 (Rltb_true (-3) 0)), Rabs_left by lra. lra. }
  split; [exact F1|]. split; [exact E5|]. rewrite F3. cbn -[Rabs cos sin]. rewrite cos_0, Rmax_left, (Rabs_left (-3)), (Rabs_left (0 - 1)) by lra. lra.
Qed.

(** A closed trajectory without times never ends ... *)
Theorem C72_closed : forall ks a o, a_domain a = D_NONE -> t_closed (a_traj a) = true -> a_run (fst (Run ks (a, o))) = a_run a.
Proof. exact run_closed. Qed.
Example C72_closed_ex : a_run (fst (Run [Tick 0 1 (Some 3000); Tick 1 1 (Some 3000)] (following (line K_POLYLINE 0 true) D_NONE 1 0 0 0, car 0 0 false false false true))) = true.
Proof. rewrite C72_closed; reflexivity. Qed.
(** ... but is not driven round: at its end the entity stands still for ever, whatever its speed. *)
Theorem C72_closed_round_refuted : exists a o, a_domain a = D_NONE /\ t_closed (a_traj a) = true /\ forall n, n <> 0%nat ->
  let r := Run (repeat (Tick 0 1 (Some 10)) n) (a, o) in a_run (fst r) = true /\ a_s (fst r) = 100 /\ o_x (snd r) = 100.
Proof.
  exists (following (line K_POLYLINE 0 true) D_NONE 1 0 0 100), (car 0 100 false false false true). split; [reflexivity|]. split; [reflexivity|].
  intros n N r. destruct r as [a' o'] eqn:E. unfold r in E.
  apply run_closed_end in E; try reflexivity; [|apply plain_line|cbn; lra|apply Forall_forall; intros x H; apply repeat_spec in H; subst x; apply along_one; lra].
  destruct E as (_ & E2 & _ & E4 & E5). split; [exact E2|]. split; [exact E4|]. destruct n as [|n]; [congruence|]. destruct (E5 ltac:(discriminate)) as [X _].
  cbn [snd]. rewrite X. cbn. apply Rmax_right. lra.
Qed.

(** With times of its own the trajectory is followed by the sum of the steps, scaled; the action runs exactly as long as its end has not come. *)
Theorem C72_relative : forall a o ks a' o', a_domain a = D_RELATIVE -> 0 <= a_scale a -> a_run a = true -> o_lat o = false -> o_long o = false -> o_traj o = true ->
  ks <> [] -> Forall onward ks -> Run ks (a, o) = (a', o') ->
  let T := a_time a + a_scale a * span ks in
  (a_run a' = true <-> T + a_offset a <= t_end (a_traj a) - SMALL_NUMBER) /\
  (a_run a' = true -> a_time a' = T /\ a_s a' = by_time (a_traj a) (T + a_offset a) /\ o_x o' = g_x (at_ a (a_s a')) /\ o_y o' = g_y (at_ a (a_s a'))).
Proof.
  intros a o ks a' o' D SC RN LA LG TR NE FA E T. destruct (run_relative a o ks a' o' D SC RN LA LG TR NE FA E) as (_ & _ & I1 & I2). fold T in I1, I2.
  destruct (Rle_lt_dec (T + a_offset a) (t_end (a_traj a) - SMALL_NUMBER)) as [H|H].
  - destruct (I1 H) as (J1 & _ & J3). tauto.
  - specialize (I2 H). split; [split; [congruence|lra]|congruence].
Qed.
Example C72_relative_ex : exists a' o', Run [Tick 0 1 None; Tick 1 2 None] (following (line K_POLYLINE 0 false) D_RELATIVE 2 1 0 0, car 0 0 false false false true) = (a', o') /\
  a_run a' = true /\ a_time a' = 6 /\ a_s a' = 70.
Proof.
  match goal with |- exists _ _, ?r = _ /\ _ => destruct r as [a' o'] eqn:E end. exists a', o'. split; [reflexivity|].
  apply C72_relative in E; try reflexivity; [|cbn; lra|discriminate|repeat (apply Forall_cons; [split; cbn; lra|]); apply Forall_nil]. cbn zeta in E. unfold span, SMALL_NUMBER in E. cbn in E.
  destruct E as (E1 & E2). assert (R1 : a_run a' = true) by (apply E1; lra). destruct (E2 R1) as (F1 & F2 & _). rewrite Rmin_right in F2 by lra. repeat split; auto; lra.
Qed.

(** With times of the simulation: where the entity is depends on the time alone. *)
Theorem C72_absolute : forall t dt a o a' o', a_domain a = D_ABSOLUTE -> ready t o -> o_long o = false -> a_run a = true -> Step t dt a o = (a', o') ->
  let p := (t + dt) * a_scale a + (if o_ghost o then o_headstart o else 0) + a_offset a in
  (a_run a' = true <-> p <= t_end (a_traj a) - SMALL_NUMBER) /\ a_time a' = (t + dt) * a_scale a /\ a_s a' = by_time (a_traj a) p /\
  (a_run a' = true -> o_x o' = g_x (at_ a (a_s a')) /\ o_y o' = g_y (at_ a (a_s a'))).
Proof.
  intros t dt a o a' o' D RD LG RN E p. apply step_timed in E; [|congruence|exact RD|exact LG]. cbn zeta in E.
  assert (P : next_time t dt a + ahead a o + a_offset a = p) by (unfold next_time, ahead; rewrite D; reflexivity). rewrite P in E.
  destruct E as (_ & _ & E3 & E4 & _ & E6 & E7). unfold next_time in E3. rewrite D in E3. rewrite E4.
  destruct (Rle_lt_dec p (t_end (a_traj a) - SMALL_NUMBER)) as [H|H].
  - destruct (E7 H) as (J1 & _ & J3). rewrite J1, RN. tauto.
  - destruct (E6 H) as (J1 & _). rewrite J1. split; [split; [congruence|lra]|]. split; [exact E3|]. split; [reflexivity|congruence].
Qed.
Example C72_absolute_ex : exists a' o', Step 3 1 (following (line K_POLYLINE 0 false) D_ABSOLUTE 1 2 0 0) (car 0 0 false false false true) = (a', o') /\ a_run a' = true /\ a_s a' = 60.
Proof.
  match goal with |- exists _ _, ?r = _ /\ _ => destruct r as [a' o'] eqn:E end. exists a', o'. split; [reflexivity|].
  apply C72_absolute in E; try reflexivity; [|split; [reflexivity|split; [reflexivity|right; lra]]]. cbn zeta in E. unfold SMALL_NUMBER in E. cbn in E.
  destruct E as (E1 & _ & E3 & _). split; [apply E1; lra|]. rewrite Rmin_right in E3 by lra. lra.
Qed.

(** Before the end, the speed after a timed step is what has been driven by the time of the step; it is negative if the entity faces against
    the way it goes. *)
Theorem C72_speed : forall t dt a o a' o', a_domain a = D_RELATIVE -> ready t o -> o_long o = false -> SMALL_NUMBER < dt -> Step t dt a o = (a', o') ->
  a_time a' + a_offset a < t_end (a_traj a) + SMALL_NUMBER -> o_speed o' * dt = faces a o * (a_s a' - a_s a).
Proof.
  intros t dt a o a' o' D RD LG DT E H. apply step_timed in E; [|congruence|exact RD|exact LG]. cbn zeta in E.
  destruct E as (_ & _ & E3 & E4 & E5 & _). rewrite E5, E4. set (s := by_time _ _). unfold new_speed. rewrite <- E3, D. cbn [absolute].
  assert (AH : ahead a o = 0) by (unfold ahead; rewrite D; reflexivity). rewrite AH, Rplus_0_r.
  rewrite (proj2 (Rltb_true _ _) DT), (proj2 (Rltb_true _ _) H). cbn [andb]. pose proof (sign_abs (s - a_s a)) as SA. pose proof small_pos.
  replace (SIGN (s - a_s a) * faces a o * Rabs (s - a_s a) / dt * dt) with (faces a o * (SIGN (s - a_s a) * Rabs (s - a_s a))) by (field; lra). now rewrite SA.
Qed.
Theorem C72_speed_absolute : forall t dt a o a' o', a_domain a = D_ABSOLUTE -> ready t o -> o_long o = false -> SMALL_NUMBER < dt -> Step t dt a o = (a', o') ->
  a_time a' + ahead a o < t_end (a_traj a) + SMALL_NUMBER -> o_speed o' * dt = faces a o * Rabs (a_s a' - a_s a).
Proof.
  intros t dt a o a' o' D RD LG DT E H. apply step_timed in E; [|congruence|exact RD|exact LG]. cbn zeta in E.
  destruct E as (_ & _ & E3 & E4 & E5 & _). rewrite E5, E4. set (s := by_time _ _). unfold new_speed. rewrite <- E3, D. cbn [absolute].
  rewrite Rplus_0_r, (proj2 (Rltb_true _ _) DT), (proj2 (Rltb_true _ _) H). cbn [andb]. pose proof small_pos. field. lra.
Qed.
Example C72_speed_ex : exists a' o', Step 3 1 (following (line K_POLYLINE 0 false) D_RELATIVE 1 0 3 30) (car 0 30 false false false true) = (a', o') /\ o_speed o' = 10.
Proof.
  match goal with |- exists _ _, ?r = _ /\ _ => destruct r as [a' o'] eqn:E end. exists a', o'. split; [reflexivity|].
  pose proof E as E'. apply step_timed in E'; [|discriminate|split; [reflexivity|split; [reflexivity|right; lra]]|reflexivity]. cbn zeta in E'.
  destruct E' as (_ & _ & F3 & F4 & _). unfold next_time, ahead in F3, F4. cbn in F3, F4. rewrite Rmin_right in F4 by lra.
  apply C72_speed in E; try reflexivity; [|split; [reflexivity|split; [reflexivity|right; lra]]|unfold SMALL_NUMBER; lra|rewrite F3; unfold SMALL_NUMBER; cbn; lra].
  unfold faces in E. cbn in E. rewrite facing, F4 in E. lra.
Qed.

Example C72_speed_absolute_ex : exists a' o', Step 3 1 (following (line K_POLYLINE 0 false) D_ABSOLUTE 1 0 3 30) (car 0 30 false false false true) = (a', o') /\ o_speed o' = 10.
Proof.
  match goal with |- exists _ _, ?r = _ /\ _ => destruct r as [a' o'] eqn:E end. exists a', o'. split; [reflexivity|].
  pose proof E as E'. apply step_timed in E'; [|discriminate|split; [reflexivity|split; [reflexivity|right; lra]]|reflexivity]. cbn zeta in E'.
  destruct E' as (_ & _ & F3 & F4 & _). unfold next_time, ahead in F3, F4. cbn in F3, F4. rewrite Rmin_right in F4 by lra.
  apply C72_speed_absolute in E; try reflexivity; [|split; [reflexivity|split; [reflexivity|right; lra]]|unfold SMALL_NUMBER; lra|rewrite F3; unfold ahead, SMALL_NUMBER; cbn; lra].
  unfold faces in E. cbn -[Rabs] in E. rewrite facing, F4, Rabs_right in E by lra. lra.
Qed.

(** The step past the end time: what is left of the time is driven straight on at the speed there. *)
Theorem C72_timed_last : forall t dt a o a' o', a_domain a <> D_NONE -> ready t o -> o_long o = false -> Step t dt a o = (a', o') ->
  let p := next_time t dt a + ahead a o + a_offset a in let e := at_ a (a_s a') in
  t_end (a_traj a) - SMALL_NUMBER < p ->
  a_run a' = false /\ o_traj o' = false /\ o_x o' = g_x e + (p - t_end (a_traj a)) * o_speed o' * cos (g_h e) /\ o_y o' = g_y e + (p - t_end (a_traj a)) * o_speed o' * sin (g_h e).
Proof.
  intros t dt a o a' o' D RD LG E p e H. apply step_timed in E; [|exact D|exact RD|exact LG]. cbn zeta in E. fold p in E.
  destruct E as (_ & _ & _ & E4 & E5 & E6 & _). destruct (E6 H) as (F1 & F2 & F3 & F4). unfold e. rewrite E4, E5. tauto.
Qed.
Lemma last_line : forall scale time s v, SMALL_NUMBER < time + scale - 10 -> 0 <= s -> exists a' o',
  Step 0 1 (following (line K_POLYLINE 0 false) D_RELATIVE scale 0 time s) (car v s false false false true) = (a', o') /\
  a_run a' = false /\ a_s a' = 100 /\ o_speed o' = v /\ o_x o' = 100 + (time + scale - 10) * v.
Proof.
  intros scale time s v H S0. match goal with |- exists _ _, ?r = _ /\ _ => destruct r as [a' o'] eqn:E end. exists a', o'. split; [reflexivity|]. pose proof small_pos.
  apply step_timed in E; [|discriminate|split; [reflexivity|split; [reflexivity|right; lra]]|reflexivity]. cbn zeta in E.
  unfold next_time, ahead, new_speed in E. cbn -[Rltb Rabs SIGN cos sin SMALL_NUMBER] in E. rewrite (Rmin_left 100) in E by lra.
  rewrite (proj2 (Rltb_false (_ + 0 + 0) _)) in E.
  2: { unfold next_time, ahead. cbn -[SMALL_NUMBER]. lra. }
  rewrite andb_false_r in E. cbn -[Rltb Rabs SIGN cos sin SMALL_NUMBER] in E. rewrite cos_0, Rmax_right in E by lra.
  destruct E as (_ & _ & _ & E4 & E5 & E6 & _). destruct E6 as (F1 & _ & F3 & _); [lra|]. repeat split; auto. rewrite F3. lra.
Qed.
Example C72_timed_last_ex : exists a' o', Step 0 1 (following (line K_POLYLINE 0 false) D_RELATIVE 1 0 (95/10) 95) (car 10 95 false false false true) = (a', o') /\ a_run a' = false /\ o_x o' = 105.
Proof. destruct (last_line 1 (95/10) 95 10) as (a' & o' & E & F1 & _ & _ & F4); [unfold SMALL_NUMBER; lra|lra|]. exists a', o'. split; [exact E|]. split; [exact F1|]. lra. Qed.
(** The time left is that of the trajectory, the speed that of the simulation: at scale 2 an entity going 20 m/s drives 30 m in the last second. *)
Theorem C72_scale_refuted : exists a o a' o', a_domain a = D_RELATIVE /\ o_speed o = 20 /\ o_x o = 90 /\ Step 0 1 a o = (a', o') /\ o_speed o' = 20 /\ o_x o' - o_x o = 30.
Proof.
  destruct (last_line 2 9 90 20) as (a' & o' & E & _ & _ & V & X); [unfold SMALL_NUMBER; lra|lra|].
  exists (following (line K_POLYLINE 0 false) D_RELATIVE 2 0 9 90), (car 20 90 false false false true), a', o'.
  do 3 (split; [reflexivity|]). split; [exact E|]. split; [exact V|]. rewrite X. cbn. lra.
Qed.
(** With times of the simulation and an offset the speed at the end is not kept, as it is without: an entity going 10 m/s ends at 5 m/s. *)
Theorem C72_offset_speed_refuted : exists a o a' o', a_domain a = D_ABSOLUTE /\ a_offset a = 1 /\ o_speed o = 10 /\ Step (85/10) 1 a o = (a', o') /\ a_run a' = false /\ o_speed o' = 5.
Proof.
  exists (following (line K_POLYLINE 0 false) D_ABSOLUTE 1 1 (85/10) 95), (car 10 95 false false false true).
  match goal with |- exists _ _, _ /\ _ /\ _ /\ ?r = _ /\ _ => destruct r as [a' o'] eqn:E end. exists a', o'. do 4 (split; [reflexivity|]).
  apply step_timed in E; [|discriminate|split; [reflexivity|split; [reflexivity|right; lra]]|reflexivity]. cbn zeta in E. pose proof small_pos.
  unfold next_time, ahead, new_speed, faces in E. cbn -[Rltb Rabs SIGN cos sin SMALL_NUMBER] in E. rewrite facing in E.
  unfold next_time, ahead in E. cbn -[Rltb Rabs SIGN cos sin SMALL_NUMBER] in E. rewrite (Rmin_left 100) in E by lra.
  rewrite (proj2 (Rltb_true _ _)), (proj2 (Rltb_true _ _)) in E by (unfold SMALL_NUMBER; lra). cbn [andb] in E.
  destruct E as (_ & _ & _ & _ & E5 & E6 & _). split; [apply E6; lra|]. rewrite E5, Rabs_right by lra. lra.
Qed.

(** While longitudinal control is elsewhere the time of the trajectory stands still, and the action does not end. *)
Theorem C72_long : forall ks a o a' o', a_domain a <> D_NONE -> o_long o = true -> a_run a = true ->
  a_time a + ahead a o + a_offset a <= t_end (a_traj a) - SMALL_NUMBER -> Run ks (a, o) = (a', o') -> a_run a' = true /\ a_time a' = a_time a.
Proof. intros ks a o a' o' D LG RN H E. now destruct (run_long ks a o a' o' D LG RN H E) as (_ & _ & ? & ?). Qed.
(** An entity which a controller has driven to the end of its trajectory before the last time never gets off it, however late it becomes. *)
Theorem C72_long_end_refuted : exists a o, a_s a = t_len (a_traj a) /\ a_domain a = D_RELATIVE /\ forall n, a_run (fst (Run (repeat (Tick 20 1 (Some 10)) n) (a, o))) = true.
Proof.
  exists (following (line K_POLYLINE 0 false) D_RELATIVE 1 0 5 100), (car 10 100 false true false true). split; [reflexivity|]. split; [reflexivity|].
  intros n. destruct (Run _ _) as [a' o'] eqn:E. apply C72_long in E; [now destruct E|discriminate|reflexivity|reflexivity|unfold ahead, SMALL_NUMBER; cbn; lra].
Qed.
Example C72_long_ex : a_time (fst (Run [Tick 1 1 (Some 10)] (following (line K_POLYLINE 0 false) D_RELATIVE 1 0 5 50, car 10 50 false true false true))) = 5.
Proof. destruct (Run _ _) as [a' o'] eqn:E. apply C72_long in E; [now destruct E|discriminate|reflexivity|reflexivity|unfold ahead, SMALL_NUMBER; cbn; lra]. Qed.

(** While lateral control is elsewhere a step does nothing; before time 0 only ghosts move. *)
Theorem C72_lateral : forall t dt a o, o_lat o = true -> Step t dt a o = (a, o).
Proof. exact step_lat. Qed.
Example C72_lateral_ex : Step 1 1 (following (line K_POLYLINE 0 false) D_NONE 1 0 0 7) (car 5 7 true false false true) = (following (line K_POLYLINE 0 false) D_NONE 1 0 0 7, car 5 7 true false false true).
Proof. apply C72_lateral. reflexivity. Qed.
Theorem C72_before : forall t dt a o, o_lat o = false -> o_ghost o = false -> t < 0 -> Step t dt a o = (a, set_dirty o).
Proof. exact step_early. Qed.
Example C72_before_ex : Step (-1) 1 (following (line K_POLYLINE 0 false) D_NONE 1 0 0 7) (car 5 7 false false false true) = (following (line K_POLYLINE 0 false) D_NONE 1 0 0 7, set_dirty (car 5 7 false false false true)).
Proof. apply C72_before; try reflexivity. lra. Qed.
(** An action started while lateral control was elsewhere has not given the entity its trajectory; once control is back, the entity stands still
    whatever its speed, and the action claims to be in control for ever. *)
Theorem C72_takeover_refuted : exists a o a1 o1, a_domain a = D_NONE /\ o_lat o = true /\ Start false None None None a o = (a1, o1) /\
  forall n, let r := Run (repeat (Tick 1 1 (Some 10)) n) (a1, Obj 10 (o_x o1) (o_y o1) 0 false false false 0 (o_traj o1) false) in
    a_run (fst r) = true /\ o_x (snd r) = o_x o /\ o_y (snd r) = o_y o.
Proof.
  exists (following (line K_POLYLINE 0 false) D_NONE 1 0 0 0), (car 10 7 true false false false). do 2 eexists. split; [reflexivity|]. split; [reflexivity|].
  split; [reflexivity|]. intros n r. destruct r as [a' o'] eqn:E. unfold r in E.
  apply run_unattached in E; try reflexivity; [|split; reflexivity|cbn; unfold SMALL_NUMBER; lra|apply Forall_forall; intros x H; apply repeat_spec in H; subst x; apply along_one; lra].
  cbn in E |- *. tauto.
Qed.

(** What the action starts with. *)
Theorem C72_start : forall oi pi opt prop a o a' o', o_lat o = false -> Start oi pi opt prop a o = (a', o') ->
  let g := t_at (a_traj a) (a_interp a') (a_s a') in
  a_s a' = by_s (a_traj a) (a_dist a) /\ a_time a' = g_time g /\ o_x o' = g_x g /\ o_y o' = g_y g /\ o_traj o' = true /\ a_run a' = true /\
  a_interp a' = interp_mode opt prop (a_follow a) (a_interp a) /\ (g_explicit g = true -> o_h o' = g_h g) /\ (untimed (a_domain a) = true -> o_speed o' = o_speed o) /\
  (untimed (a_domain a) = false -> g_explicit g = false -> o_speed o' = g_speed g /\ same_angle (o_h o') (g_htrue g)).
Proof.
  intros oi pi opt prop a o a' o' LA E g. apply start_spec in E; [|exact LA]. cbn zeta in E.
  destruct E as (E1 & E2 & E3 & E4 & E5 & E6 & E7 & E8 & E9 & E10 & E11 & E12 & E13 & E14 & E15 & E16 & E17 & E18 & E19 & E20).
  unfold g. rewrite E6, E7. split; [reflexivity|]. split; [exact E8|]. split; [exact E16|]. split; [exact E17|]. split; [exact E15|]. split; [exact E5|]. split; [reflexivity|].
  split; [intros X; now rewrite E18, X|]. split; [intros U; now rewrite E20, U|]. intros U X. rewrite U, X in *. rewrite E20, E18. split; [lra|].
  rewrite (proj2 (Rltb_false 1 0)) by lra. rewrite Rplus_0_r. apply interval2pi.
Qed.
Example C72_start_ex : exists a' o', Start false None None (Some W_CORNER) (following (line K_POLYLINE 0 false) D_RELATIVE 1 0 0 0) (car 5 7 false false false false) = (a', o') /\
  a_interp a' = I_CORNER /\ o_speed o' = 10 /\ o_x o' = 0.
Proof.
  match goal with |- exists _ _, ?r = _ /\ _ => destruct r as [a' o'] eqn:E end. exists a', o'. split; [reflexivity|].
  apply C72_start in E; [|reflexivity]. cbn zeta in E. destruct E as (E1 & _ & E3 & _ & _ & _ & E7 & _ & _ & E10). split; [exact E7|].
  destruct (E10 eq_refl eq_refl) as [V _]. split; [exact V|]. rewrite E3, E1, by_s_inside by (cbn; unfold SMALL_NUMBER; lra). cbn. apply Rmax_left. lra.
Qed.
(** The way goes along the trajectory at first, whatever the sign of the speed, if the trajectory has no headings of its own. *)
Theorem C72_start_forward : forall oi pi opt prop a o a' o', o_lat o = false -> Start oi pi opt prop a o = (a', o') -> untimed (a_domain a) = true -> a_expl a' = false ->
  SIGN (o_speed o') * a_sign a' = 1.
Proof. exact start_forward. Qed.
Example C72_start_forward_ex : exists a' o', Start false None None None (following (line K_POLYLINE 0 false) D_NONE 1 0 0 0) (car (-5) 7 false false false false) = (a', o') /\ a_sign a' = -1.
Proof.
  match goal with |- exists _ _, ?r = _ /\ _ => destruct r as [a' o'] eqn:E end. exists a', o'. split; [reflexivity|].
  pose proof E as E'. apply start_spec in E'; [|reflexivity]. cbn zeta in E'. destruct E' as (_ & _ & _ & _ & _ & _ & _ & _ & _ & X & _ & _ & _ & _ & _ & _ & _ & _ & _ & V).
  apply C72_start_forward in E; [|reflexivity|reflexivity|exact X]. rewrite V in E. cbn -[SIGN] in E. unfold SIGN in E. rewrite (proj2 (Rltb_true (-5) 0)) in E by lra. lra.
Qed.
(** With a heading of its own: it goes back if that is more than a right angle off the line, unless headings are ignored for motion. *)
Theorem C72_start_explicit : forall oi pi opt prop a o a' o', o_lat o = false -> Start oi pi opt prop a o = (a', o') -> a_expl a' = true ->
  let g := t_at (a_traj a) (a_interp a') (a_s a') in
  a_ignore a' = (if oi then true else match pi with Some b => b | None => a_ignore a end) /\ o_h o' = g_h g /\
  a_sign a' = (if a_ignore a' then 1 else heading_sign (g_h g) (g_htrue g)) /\
  (untimed (a_domain a) = false -> o_speed o' = heading_sign (g_h g) (g_htrue g) * g_speed g).
Proof.
  intros oi pi opt prop a o a' o' LA E X g. apply start_spec in E; [|exact LA]. cbn zeta in E.
  destruct E as (E1 & E2 & E3 & E4 & E5 & E6 & E7 & E8 & E9 & E10 & E11 & E12 & E13 & E14 & E15 & E16 & E17 & E18 & E19 & E20).
  unfold g. rewrite E6, E7. rewrite X in E10. rewrite <- E10 in E18, E19, E20. cbn [andb] in E19. rewrite <- E9 in E19.
  split; [exact E9|]. split; [exact E18|]. split; [now rewrite E19, E18|]. intros U. now rewrite E20, U.
Qed.
Example C72_start_explicit_ex : exists t, let a := Act t D_NONE FM_FOLLOW 1 0 0 0 1 1 false false 0 I_NONE false in
  let (a', o') := Start false None None None a (car 5 7 false false false false) in a_expl a' = true /\ a_sign a' = -1.
Proof.
  exists (Traj K_POLYLINE 100 0 10 false [] (fun t => t) (fun _ s => Geo PI 0 true 0 0 s 0 PI)). intros a. destruct (Start _ _ _ _ _ _) as [a' o'] eqn:E.
  pose proof E as E'. apply start_spec in E'; [|reflexivity]. cbn zeta in E'. destruct E' as (_ & _ & _ & _ & _ & _ & _ & _ & G & X & _). split; [exact X|].
  apply C72_start_explicit in E; [|reflexivity|exact X]. destruct E as (_ & _ & E3 & _). rewrite E3, G. cbn. apply heading_sign_back. exists 0%Z. cbn. lra.
Qed.

(** A copy of an action (for several actors) is as the action, except ... *)
Theorem C72_copy : forall a, let b := CopyAct a in a_domain b = a_domain a /\ a_follow b = a_follow a /\ a_scale b = a_scale a /\ a_offset b = a_offset a /\
  a_ignore b = a_ignore a /\ t_kind (a_traj b) = t_kind (a_traj a) /\ t_len (a_traj b) = t_len (a_traj a) /\ a_run b = false.
Proof. intros a b. repeat split. Qed.
Example C72_copy_ex : a_scale (CopyAct (following (line K_POLYLINE 0 true) D_RELATIVE 2 0 0 0)) = 2.
Proof. reflexivity. Qed.
(** ... that it starts at the time offset, as metres, instead of the distance it is to start at, ... *)
Theorem C72_copy_offset_refuted : exists a o, a_dist a = 40 /\ a_s (fst (Start false None None None a o)) = 40 /\ a_s (fst (Start false None None None (CopyAct a) o)) = 0.
Proof.
  exists (Act (line K_POLYLINE 0 false) D_NONE FM_FOLLOW 1 0 0 40 1 1 false false 0 I_NONE false), (car 5 7 false false false false). split; [reflexivity|].
  split; match goal with |- a_s (fst ?r) = _ => destruct r as [a' o'] eqn:E end; apply C72_start in E; [|reflexivity| |reflexivity]; cbn zeta in E;
    destruct E as (E & _); cbn [fst]; rewrite E; apply by_s_inside; cbn; unfold SMALL_NUMBER; lra.
Qed.
(** ... and that its trajectory is not closed. *)
Theorem C72_copy_closed_refuted : exists a, t_closed (a_traj a) = true /\ t_closed (a_traj (CopyAct a)) = false.
Proof. exists (following (line K_POLYLINE 0 true) D_NONE 1 0 0 0). split; reflexivity. Qed.

(** On a clothoid which starts at time 0 s is proportional to time ... *)
Theorem C72_clothoid : forall t p, t_kind t = K_CLOTHOID -> t_start t = 0 -> 0 < t_end t -> 0 <= p <= t_end t -> by_time t p = t_len t * (p / t_end t).
Proof. intros t p K S0 E H. rewrite clothoid_time by (auto; lra). rewrite S0. field. lra. Qed.
Example C72_clothoid_ex : by_time (line K_CLOTHOID 0 false) 5 = 50.
Proof. rewrite C72_clothoid; try reflexivity; cbn; lra. Qed.
(** ... but its start time is taken off twice: a clothoid from 2 s to 12 s begins 20 m before its start, and at its end 20 m are missing. *)
Theorem C72_clothoid_start_refuted : exists t, t_kind t = K_CLOTHOID /\ t_len t = 100 /\ by_time t (t_start t) = -20 /\ by_time t (t_end t) = 80.
Proof. exists (line K_CLOTHOID 2 false). split; [reflexivity|]. split; [reflexivity|]. split; rewrite clothoid_time by (cbn; try reflexivity; lra); cbn; lra. Qed.
(** On a clothoid spline s is proportional to time within each segment. *)
Theorem C72_spline : forall t pre seg rest p, t_kind t = K_SPLINE -> t_segs t = pre ++ seg :: rest -> t_start t <= p <= t_end t ->
  (forall x, In x (tl (pre ++ [seg])) -> fst x - SMALL_NUMBER < p) -> (forall x, hd_error rest = Some x -> p <= fst x - SMALL_NUMBER) ->
  by_time t p = sum (map snd pre) + (p - fst seg) / ((match rest with [] => t_end t | x :: _ => fst x end) - fst seg) * snd seg.
Proof. exact spline_time. Qed.
Example C72_spline_ex : by_time (Traj K_SPLINE 60 0 4 false [(0, 20); (2, 40)] (fun t => t) (fun _ s => Geo 0 0 false 0 0 s 0 0)) 3 = 40.
Proof.
  rewrite (C72_spline _ [(0, 20)] (2, 40) [] 3); try reflexivity; cbn; [lra|lra| |discriminate].
  intros x [<-|[]]. cbn. unfold SMALL_NUMBER. lra.
Qed.
(** Before the first time of a clothoid or clothoid spline the entity is at its end, not at its start. *)
Theorem C72_too_early_refuted : exists t p, t_kind t = K_SPLINE /\ p < t_start t /\ by_time t p = t_len t /\ by_time t (t_start t) = 0.
Proof.
  exists (line K_SPLINE 2 false), 1. split; [reflexivity|]. split; [cbn; lra|]. split; [apply clothoid_out; [discriminate|left; cbn; lra]|].
  rewrite (spline_time _ [] (2, 100) []); try reflexivity; cbn; try lra; [intros x []|discriminate].
Qed.

(** Standing, or in a step without length, an untimed action does not end. *)
Theorem C72_standing : forall t dt a o a' o', a_domain a = D_NONE -> ready t o -> (o_speed o = 0 \/ dt <= 0) -> Step t dt a o = (a', o') ->
  a_run a' = a_run a /\ o_speed o' = o_speed o /\ o_dirty o' = true.
Proof.
  intros t dt a o a' o' D RD H E. apply step_untimed in E; [|exact D|exact RD]. cbn zeta in E. destruct E as (_ & _ & _ & _ & E5 & _ & _ & E8 & E9).
  split; [|tauto]. apply E8. intros (_ & P & [[Q _]|[Q _]]); destruct H as [H|H]; try lra; rewrite H, Rabs_R0 in Q; lra.
Qed.
Example C72_standing_ex : a_run (fst (Step 0 1 (following (line K_POLYLINE 0 false) D_NONE 1 0 0 100) (car 0 100 false false false true))) = true.
Proof. destruct (Step _ _ _ _) as [a' o'] eqn:E. apply C72_standing in E; [now destruct E|reflexivity|split; [reflexivity|split; [reflexivity|right; lra]]|now left]. Qed.

(** Where the trajectory has no heading, the entity faces along it, or against it if it was so from the start or where the last given heading
    ended; where it has one, the entity faces as it says, and goes on in its direction. *)
Theorem C72_heading : forall t dt a o a' o', a_domain a = D_NONE -> ready t o -> Step t dt a o = (a', o') ->
  let g := at_ a (a_s a') in a_expl a' = g_explicit g /\
  (g_explicit g = true -> a_sign a' = a_sign a /\ o_h o' = g_face g) /\
  (g_explicit g = false -> a_sign a' = (if a_expl a then heading_sign (g_face g) (g_htrue g) else a_sign a) /\
     (a_sign a' < 0 -> same_angle (o_h o') (g_face g + PI)) /\ (0 <= a_sign a' -> o_h o' = g_face g)).
Proof.
  intros t dt a o a' o' D RD E g. destruct (step_move t dt a o RD) as (b & p & M & S1 & S2 & S3 & S4). rewrite E in S1, S2, S3, S4. cbn [fst snd] in S1, S2, S3, S4.
  apply move_s in M; [|apply RD|rewrite D; reflexivity]. cbn zeta in M. destruct M as (_ & _ & _ & _ & _ & _ & _ & _ & _ & _ & M1 & M2 & _).
  rewrite <- S3 in M1, M2. fold g in M1, M2. rewrite S1, S2, S4. destruct (g_explicit g).
  - destruct (M1 eq_refl) as (N1 & N2 & N3). split; [exact N1|]. split; [tauto|discriminate].
  - destruct (M2 eq_refl) as (N1 & N2 & N3). split; [exact N1|]. split; [discriminate|]. intros _. split; [exact N2|]. rewrite N3. split; intros H.
    + rewrite (proj2 (Rltb_true _ _) H). apply interval2pi.
    + rewrite (proj2 (Rltb_false _ _) H). reflexivity.
Qed.
Example C72_heading_ex : exists a' o', Step 0 1 (following (line K_POLYLINE 0 false) D_NONE 1 0 0 10) (car 5 10 false false false true) = (a', o') /\ o_h o' = 0.
Proof.
  match goal with |- exists _ _, ?r = _ /\ _ => destruct r as [a' o'] eqn:E end. exists a', o'. split; [reflexivity|].
  apply C72_heading in E; [|reflexivity|split; [reflexivity|split; [reflexivity|right; lra]]]. cbn zeta in E. destruct E as (_ & _ & E3).
  destruct (E3 eq_refl) as (S1 & _ & S3). rewrite S3; [reflexivity|]. rewrite S1. cbn. lra.
Qed.

(** How headings are interpolated: as the option says; without it, as the property says, if it says something known; without either, over segments to follow and
    at corners for positions. *)
Theorem C72_interpolation : forall prop f old,
  interp_mode (Some W_SEGMENT) prop f old = I_SEGMENT /\ interp_mode (Some W_CORNER) prop f old = I_CORNER /\ interp_mode (Some W_OFF) prop f old = I_NONE /\
  interp_mode (Some W_OTHER) prop f old = I_NONE /\ interp_mode None (Some W_SEGMENT) f old = I_SEGMENT /\ interp_mode None (Some W_CORNER) f old = I_CORNER /\
  interp_mode None (Some W_OFF) f old = I_NONE /\ interp_mode None (Some W_OTHER) f old = old /\
  interp_mode None None FM_FOLLOW old = I_SEGMENT /\ interp_mode None None FM_POSITION old = I_CORNER.
Proof. intros. repeat split. Qed.
Example C72_interpolation_ex : interp_mode None (Some W_CORNER) FM_FOLLOW I_NONE = I_CORNER.
Proof. apply (C72_interpolation None). Qed.

Print Assumptions C72_forward.
Print Assumptions C72_back.
Print Assumptions C72_last.
Print Assumptions C72_back_lost_refuted.
Print Assumptions C72_back_forth_refuted.
Print Assumptions C72_closed.
Print Assumptions C72_closed_round_refuted.
Print Assumptions C72_relative.
Print Assumptions C72_absolute.
Print Assumptions C72_speed.
Print Assumptions C72_speed_absolute.
Print Assumptions C72_timed_last.
Print Assumptions C72_scale_refuted.
Print Assumptions C72_offset_speed_refuted.
Print Assumptions C72_long.
Print Assumptions C72_long_end_refuted.
Print Assumptions C72_lateral.
Print Assumptions C72_before.
Print Assumptions C72_takeover_refuted.
Print Assumptions C72_start.
Print Assumptions C72_start_forward.
Print Assumptions C72_start_explicit.
Print Assumptions C72_copy.
Print Assumptions C72_copy_offset_refuted.
Print Assumptions C72_copy_closed_refuted.
Print Assumptions C72_clothoid.
Print Assumptions C72_clothoid_start_refuted.
Print Assumptions C72_spline.
Print Assumptions C72_too_early_refuted.
Print Assumptions C72_standing.
Print Assumptions C72_heading.
Print Assumptions C72_interpolation.
