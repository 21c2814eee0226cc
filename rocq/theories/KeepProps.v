(** * C62, C63: keeping a distance along and across the road *)
From Coq Require Import Reals Bool List Arith NArith ZArith Lia Lra.
From Verif Require Import AngModel AngProofs GeoModel TransModel ProfModel ProfProofs CtrlModel KeepModel KeepProofs.
Import ListNotations.
Open Scope R_scope.

(** ** C62: along the road *)

(** Limits read from a file are positive and no more than what the object can do, if that is not next to nothing. *)
Theorem C62_parse : forall speed acc acc_rate dec dec_rate p_speed p_acc p_dec,
  SMALL_NUMBER <= p_speed -> SMALL_NUMBER <= p_acc -> SMALL_NUMBER <= p_dec ->
  let L := parseDynamicConstraints speed acc acc_rate dec dec_rate p_speed p_acc p_dec in
  positive L /\ max_speed L <= p_speed /\ max_acc L <= p_acc /\ max_dec L <= p_dec /\
  (forall v, speed = Some v -> SMALL_NUMBER <= v <= p_speed -> max_speed L = v) /\ (speed = None -> max_speed L = p_speed) /\
  (forall v, acc = Some v -> SMALL_NUMBER <= v <= p_acc -> max_acc L = v) /\ (acc = None -> max_acc L = p_acc) /\
  (forall v, dec = Some v -> SMALL_NUMBER <= v <= p_dec -> max_dec L = v) /\ (dec = None -> max_dec L = p_dec) /\
  (forall v, acc_rate = Some v -> SMALL_NUMBER <= v <= LARGE_NUMBER -> max_acc_rate L = v) /\
  (forall v, dec_rate = Some v -> SMALL_NUMBER <= v <= LARGE_NUMBER -> max_dec_rate L = v).
Proof.
  intros speed acc acc_rate dec dec_rate p_speed p_acc p_dec S1 S2 S3 L. pose proof small_pos as SP.
  assert (G : forall at_ d p, 0 < d -> SMALL_NUMBER <= p -> 0 < parse_limit at_ d p <= p /\
    (forall v, at_ = Some v -> SMALL_NUMBER <= v <= p -> parse_limit at_ d p = v) /\ (at_ = None -> parse_limit at_ d p = p)).
  { intros at_ d p D P. unfold parse_limit. destruct at_ as [v|].
    - split; [repeat rcase; lra|]. split; [|discriminate]. intros v' H B. injection H as <-. repeat rcase; lra.
    - split; [lra|]. split; [discriminate|auto]. }
  assert (LS : SMALL_NUMBER <= LARGE_NUMBER) by (unfold SMALL_NUMBER, LARGE_NUMBER; lra).
  assert (LP : 0 < LARGE_NUMBER) by (unfold LARGE_NUMBER; lra).
  destruct (G acc 5 p_acc) as (A1 & A2 & A3); [lra|auto|]. destruct (G dec 10 p_dec) as (D1 & D2 & D3); [lra|auto|].
  destruct (G speed (250 / (18 / 5)) p_speed) as (V1 & V2 & V3); [lra|auto|].
  destruct (G acc_rate LARGE_NUMBER LARGE_NUMBER LP LS) as (R1 & R1' & _). destruct (G dec_rate LARGE_NUMBER LARGE_NUMBER LP LS) as (R2 & R2' & _).
  unfold L, positive, parseDynamicConstraints. cbn [max_acc max_dec max_speed max_acc_rate max_dec_rate]. repeat split; try tauto; lra.
Qed.

Example C62_parse_ex : parseDynamicConstraints None (Some 0) None (Some 20) None 50 6 8 = Limits 5 LARGE_NUMBER 8 LARGE_NUMBER 50.
Proof. unfold parseDynamicConstraints, parse_limit. f_equal; pose proof small_pos; repeat rcase; lra. Qed.

(** Starting settles on which side of the target to be, and keeps everything else. *)
Theorem C62_side : forall a d, let b := LongStart a true d in
  l_runs b = true /\ l_displacement b <> ANY /\ (l_displacement a <> ANY -> l_displacement b = l_displacement a) /\
  (l_displacement a = ANY -> (l_displacement b = LEADING <-> d < 0)) /\
  l_distance b = l_distance a /\ l_type b = l_type a /\ l_continuous b = l_continuous a /\ l_limits b = l_limits a /\ l_acc b = l_acc a /\ LongStart a false d = a.
Proof.
  intros [di ty co ds li ac ru] d. unfold LongStart. cbn. destruct ds; cbn; repeat split; try easy; try congruence; rcase; cbn; intros; try easy; lra.
Qed.

Example C62_side_ex : l_displacement (LongStart (Long 10 DISTANCE true ANY no_limits 0 false) true (-3)) = LEADING.
Proof. cbn. replace (Rltb (-3) 0) with true by (symmetry; apply Rltb_true; lra). reflexivity. Qed.

(** The distance asked for: metres, or seconds at the speed of the target; positive behind it, negative before it. *)
Theorem C62_requested : forall a vt,
  let d := match l_type a with DISTANCE => l_distance a | TIME_GAP => Rabs vt * l_distance a end in
  Rabs (requested a vt) = Rabs d /\ (l_displacement a = TRAILING -> 0 <= requested a vt) /\ (l_displacement a = LEADING -> requested a vt <= 0) /\
  (l_displacement a = NONE -> requested a vt = d).
Proof.
  intros a vt d. unfold requested. fold d. pose proof (Rabs_pos d). destruct (l_displacement a); repeat split; intros; try easy; try lra.
  - apply Rabs_Rabsolu.
  - now rewrite Rabs_Ropp, Rabs_Rabsolu.
Qed.

Example C62_requested_ex : requested (Long 2 TIME_GAP true LEADING no_limits 0 true) (-15) = -30.
Proof. unfold requested. cbn. rewrite (Rabs_left (-15)) by lra. rewrite Rabs_right; lra. Qed.

(** Without limits of the acceleration the object is put at the distance asked for, with the speed of the target. *)
Theorem C62_rigid : forall a d v vt dt, LARGE_NUMBER <= max_acc (l_limits a) -> LARGE_NUMBER <= max_dec (l_limits a) ->
  exists b, LongStep a false d v vt dt = Some (b, d - requested a vt, vt) /\ same_aim a b /\ l_acc b = l_acc a /\
    forall n, exists c, keep vt dt (S n) a d v = Some (c, requested a vt, vt).
Proof.
  intros a d v vt dt A D.
  assert (ST : forall a d v, LARGE_NUMBER <= max_acc (l_limits a) -> LARGE_NUMBER <= max_dec (l_limits a) ->
    exists b, LongStep a false d v vt dt = Some (b, d - requested a vt, vt) /\ same_aim a b /\ l_acc b = l_acc a).
  { intros a' d' v' A' D'. unfold LongStep. replace (Rltb (max_acc (l_limits a')) LARGE_NUMBER) with false by (symmetry; now apply Rltb_false).
    replace (Rltb (max_dec (l_limits a')) LARGE_NUMBER) with false by (symmetry; now apply Rltb_false). cbn [negb andb].
    eexists. split; [reflexivity|]. match goal with |- context [if ?c then _ else _] => destruct c end; split; try reflexivity; unfold same_aim; cbn; tauto. }
  destruct (ST a d v A D) as (b & B & SA & C). exists b. split; [exact B|]. split; [exact SA|]. split; [exact C|].
  intros n. revert a d v b A D B SA C. induction n as [|n IH]; intros a d v b A D B SA C.
  - exists b. cbn [keep]. rewrite B. repeat f_equal. ring.
  - destruct (ST b (d - (d - requested a vt) + (vt - vt) * dt) vt) as (b2 & B2 & S2 & C2); [destruct SA as (_ & _ & _ & _ & ->); auto..|].
    destruct (IH b (d - (d - requested a vt) + (vt - vt) * dt) vt b2) as (c & K); auto; try (destruct SA as (_ & _ & _ & _ & ->); auto).
    exists c. replace (keep vt dt (S (S n)) a d v) with (keep vt dt (S n) b (d - (d - requested a vt) + (vt - vt) * dt) vt).
    + rewrite K. now rewrite (same_requested a b vt SA).
    + cbn [keep]. now rewrite B.
Qed.

Example C62_rigid_ex : exists c, keep 20 (1 / 10) 1 (Long 10 DISTANCE true TRAILING no_limits 0 true) 50 30 = Some (c, 10, 20).
Proof.
  destruct (C62_rigid (Long 10 DISTANCE true TRAILING no_limits 0 true) 50 30 20 (1 / 10)) as (b & _ & _ & _ & K); [cbn; lra..|].
  destruct (K 0%nat) as (c & H). exists c. rewrite H. unfold requested. cbn. rewrite Rabs_right by lra. reflexivity.
Qed.

(** Whatever is measured: acceleration and speed stay within the limits. *)
Theorem C62_limits : forall l a v, positive (l_limits a) -> limited (l_limits a) -> - max_dec (l_limits a) <= l_acc a <= max_acc (l_limits a) ->
  - max_speed (l_limits a) <= v <= max_speed (l_limits a) -> Forall (fun k => 0 <= k_dt k) l ->
  exists b v', ticks l a v = Some (b, v') /\ l_limits b = l_limits a /\ - max_dec (l_limits a) <= l_acc b <= max_acc (l_limits a) /\
    - max_speed (l_limits a) <= v' <= max_speed (l_limits a).
Proof.
  induction l as [|k l IH]; intros a v P LI A V T.
  - exists a, v. cbn. repeat split; auto; lra.
  - inversion T as [|? ? T0 T1]; subst. cbn [ticks]. destruct (k_over k) eqn:O.
    + unfold LongStep. apply IH; auto.
    + destruct (acceleration_some (l_limits a) (l_acc a) (k_distance k - requested a (k_target k)) (v - k_target k) (k_dt k) P) as (x & X).
      pose proof (acceleration_bounds _ _ _ _ _ _ P A T0 X) as XB.
      destruct (step_limited a (k_distance k) v (k_target k) (k_dt k) x LI X) as (b & ST & BA & _ & SA). rewrite ST.
      pose proof (speed_bounds (l_limits a) v x (k_dt k) P) as SB. assert (LB : l_limits b = l_limits a) by (destruct SA as (_ & _ & _ & _ & ->); auto).
      destruct (IH b (long_speed (l_limits a) v x (k_dt k))) as (c & v' & H & H1 & H2 & H3); rewrite ?LB; auto; [rewrite BA; auto|].
      exists c, v'. rewrite LB in *. auto.
Qed.

Example C62_limits_ex : positive (Limits 3 LARGE_NUMBER 5 LARGE_NUMBER 50) /\ limited (Limits 3 LARGE_NUMBER 5 LARGE_NUMBER 50).
Proof. unfold positive, limited, LARGE_NUMBER. cbn. lra. Qed.

(** In one step the speed changes by no more than the limits allow. *)
Theorem C62_change : forall a d v vt dt b m v', positive (l_limits a) -> limited (l_limits a) -> 0 <= dt ->
  - max_dec (l_limits a) <= l_acc a <= max_acc (l_limits a) -> - max_speed (l_limits a) <= v <= max_speed (l_limits a) ->
  LongStep a false d v vt dt = Some (b, m, v') -> m = 0 /\ - max_dec (l_limits a) * dt <= v' - v <= max_acc (l_limits a) * dt.
Proof.
  intros a d v vt dt b m v' P LI T A V H.
  destruct (acceleration_some (l_limits a) (l_acc a) (d - requested a vt) (v - vt) dt P) as (x & X).
  pose proof (acceleration_bounds _ _ _ _ _ _ P A T X) as XB. destruct (step_limited a d v vt dt x LI X) as (c & ST & _). rewrite ST in H. injection H as _ <- <-.
  split; [reflexivity|]. destruct P as (PA & PD & _ & _ & PS).
  assert (x * dt <= max_acc (l_limits a) * dt) by (apply Rmult_le_compat_r; lra). assert (- max_dec (l_limits a) * dt <= x * dt) by (apply Rmult_le_compat_r; lra).
  assert (0 <= max_acc (l_limits a) * dt) by (apply Rmult_le_pos; lra). assert (0 <= max_dec (l_limits a) * dt) by (apply Rmult_le_pos; lra).
  unfold long_speed. repeat rcase; lra.
Qed.

Example C62_change_ex : exists b v', LongStep (Long 10 DISTANCE true TRAILING (Limits (5 / 2) LARGE_NUMBER (5 / 2) LARGE_NUMBER 50) 0 true) false 110 20 20 (1 / 2) = Some (b, 0, v') /\ v' = 85 / 4.
Proof.
  unfold LongStep, long_acceleration, requested, long_speed, root, set_runs, set_acc, RMAX, RMIN, LARGE_NUMBER. cbn [l_limits l_continuous l_displacement l_type l_distance l_acc max_acc max_dec max_acc_rate max_dec_rate max_speed negb andb].
  rewrite (Rabs_right 10) by lra. num. try (replace (5 / 2 * (4 / 10)) with 1 by lra; rewrite sqrt_1; num). eexists. eexists. split; [reflexivity|lra].
Qed.

(** The acceleration grows, and the braking grows, no faster than the limits of their rates allow. *)
Theorem C62_jerk : forall L acc0 e sd dt x, positive L -> 0 <= dt -> long_acceleration L acc0 e sd dt = Some x ->
  (0 < x -> x - acc0 <= max_acc_rate L * dt) /\ (x < 0 -> acc0 - x <= max_dec_rate L * dt).
Proof. intros. now apply acceleration_jerk with e sd. Qed.

Example C62_jerk_ex : exists x, long_acceleration (Limits (5 / 2) 1 (5 / 2) 1 50) 0 100 0 (1 / 2) = Some x /\ x = 1 / 2.
Proof.
  unfold long_acceleration, root, RMAX, RMIN. cbn [max_acc max_dec max_acc_rate max_dec_rate]. num. try (replace (5 / 2 * (4 / 10)) with 1 by lra; rewrite sqrt_1; num).
  eexists. split; [reflexivity|lra].
Qed.

(** But letting go is not limited: from full braking to none at once, whatever the limits of the rates. *)
Theorem C62_jerk_refuted : forall dt rate, 0 < rate -> 0 < dt -> exists e sd x,
  long_acceleration (Limits (5 / 2) rate (5 / 2) rate 50) (- (5 / 2)) e sd dt = Some x /\ -1 / 1000 <= x < 0.
Proof.
  intros dt rate RP T. exists (- (1 / 1000)), 0. unfold long_acceleration, root, RMAX, RMIN. cbn [max_acc max_dec max_acc_rate max_dec_rate].
  num. try (replace (5 / 2 * (4 / 10)) with 1 by lra; rewrite sqrt_1; num). eexists. split; [reflexivity|lra].
Qed.

Example C62_jerk_refuted_ex : exists e sd x, long_acceleration (Limits (5 / 2) (1 / 10) (5 / 2) (1 / 10) 50) (- (5 / 2)) e sd (1 / 100) = Some x /\ (1 / 10) * (1 / 100) < x - - (5 / 2).
Proof. destruct (C62_jerk_refuted (1 / 100) (1 / 10)) as (e & sd & x & H & B); [lra..|]. exists e, sd, x. split; [exact H|lra]. Qed.

(** Near the distance asked for and closing in slowly, the error shrinks with every step and never changes sign: the object is not moved past it. *)
Theorem C62_settles : forall a d v vt dt n, let L := l_limits a in let q := requested a vt in let e := d - q in
  let r := sqrt ((if Rltb e 0 then max_acc L else max_dec L) * (4 / 10)) in
  positive L -> limited L -> 0 < dt -> max_acc L + max_dec L <= max_acc_rate L * dt -> max_acc L + max_dec L <= max_dec_rate L * dt ->
  r * dt <= 1 / 2 -> - max_dec L <= l_acc a <= max_acc L ->
  0 <= e * (v - vt) -> Rabs (v - vt) <= r * Rabs e -> r * r * Rabs e <= max_acc L -> r * r * Rabs e <= max_dec L -> Rabs vt + r * Rabs e <= max_speed L ->
  exists b d' v', keep vt dt n a d v = Some (b, d', v') /\ Rabs (d' - q) <= (1 - r * dt * (r * dt)) ^ n * Rabs e /\
    (1 - r * dt) ^ n * Rabs e <= Rabs (d' - q) /\ 0 <= e * (d' - q) /\ - max_dec L <= l_acc b <= max_acc L /\ Rabs (v' - vt) <= r * Rabs (d' - q).
Proof. exact settles. Qed.

Example C62_settles_ex : exists b d' v', keep 20 (1 / 10) 100 (Long 10 DISTANCE true TRAILING (Limits (5 / 2) LARGE_NUMBER (5 / 2) LARGE_NUMBER 50) 0 true) 12 20 = Some (b, d', v') /\ 10 < d' < 12.
Proof.
  set (a := Long 10 DISTANCE true TRAILING (Limits (5 / 2) LARGE_NUMBER (5 / 2) LARGE_NUMBER 50) 0 true).
  assert (RQ : requested a 20 = 10) by (unfold requested; cbn; apply Rabs_right; lra).
  assert (RT : sqrt ((if Rltb (12 - requested a 20) 0 then max_acc (l_limits a) else max_dec (l_limits a)) * (4 / 10)) = 1).
  { rewrite RQ. num. cbn. replace (5 / 2 * (4 / 10)) with 1 by lra. apply sqrt_1. }
  pose proof (C62_settles a 12 20 20 (1 / 10) 100) as H. cbv zeta in H. rewrite RT, RQ in H. cbn [l_limits max_acc max_dec max_acc_rate max_dec_rate max_speed a l_acc] in H.
  rewrite (Rabs_right (12 - 10)), (Rabs_right 20), (Rabs_right (20 - 20)) in H by lra.
  destruct H as (b & d' & v' & K & HI & LO & SG & _); unfold positive, limited, LARGE_NUMBER; cbn; try lra.
  exists b, d', v'. split; [exact K|].
  assert (D : 0 <= d' - 10) by lra. rewrite Rabs_right in HI, LO by lra.
  assert (0 < (1 - 1 * (1 / 10)) ^ 100) by (apply pow_lt; lra). assert (HL : (1 - 1 * (1 / 10) * (1 * (1 / 10))) ^ 100 < 1) by (apply pow_lt_1_compat; [lra|lia]). lra.
Qed.

(** So an action that is not continuous comes to its end. *)
Theorem C62_arrives : forall a d v vt dt, let L := l_limits a in let q := requested a vt in let e := d - q in
  let r := sqrt ((if Rltb e 0 then max_acc L else max_dec L) * (4 / 10)) in
  positive L -> limited L -> 0 < dt -> max_acc L + max_dec L <= max_acc_rate L * dt -> max_acc L + max_dec L <= max_dec_rate L * dt ->
  r * dt <= 1 / 2 -> - max_dec L <= l_acc a <= max_acc L ->
  0 <= e * (v - vt) -> Rabs (v - vt) <= r * Rabs e -> r * r * Rabs e <= max_acc L -> r * r * Rabs e <= max_dec L -> Rabs vt + r * Rabs e <= max_speed L ->
  l_continuous a = false -> exists n b d' v', keep vt dt n a d v = Some (b, d', v') /\ l_runs b = false.
Proof.
  intros a d v vt dt L q e r P LI T RA RD W AC EV VE B1 B2 B3 NC.
  assert (R0 : 0 < r) by (apply sqrt_lt_R0; destruct P as (PA & PD & _); destruct (Rltb e 0); lra).
  assert (WP : 0 < r * dt) by (apply Rmult_lt_0_compat; lra).
  assert (WW : 0 < r * dt * (r * dt)) by (apply Rmult_lt_0_compat; lra).
  assert (W2 : r * dt * (r * dt) <= r * dt * (1 / 2)) by (apply Rmult_le_compat_l; lra).
  destruct (shrinks (1 - r * dt * (r * dt)) (Rabs e) LONGITUDINAL_DISTANCE_THRESHOLD) as (n & N); [lra|unfold LONGITUDINAL_DISTANCE_THRESHOLD; lra|].
  destruct (settles a d v vt dt n P LI T RA RD W AC EV VE B1 B2 B3) as (b & d' & v' & K & HI & _ & _ & AB & _). fold L q e r in HI, AB.
  pose proof (keep_aim _ _ _ _ _ _ _ _ _ K) as SA. assert (LB : l_limits b = L) by (destruct SA as (_ & _ & _ & _ & ->); auto).
  destruct (acceleration_some (l_limits b) (l_acc b) (d' - requested b vt) (v' - vt) dt) as (x & X); [rewrite LB; auto|].
  destruct (step_limited b d' v' vt dt x) as (c & ST & _ & RC & _); [rewrite LB; auto|auto|].
  eexists (S n), c, _, _. rewrite keep_S, K, ST. split; [reflexivity|]. rewrite RC. unfold goes_on.
  replace (l_continuous b) with false by (destruct SA as (_ & _ & -> & _); auto). rewrite (same_requested a b vt SA). fold q.
  replace (Rltb (Rabs (d' - q)) LONGITUDINAL_DISTANCE_THRESHOLD) with true by (symmetry; apply Rltb_true; lra). cbn. apply andb_false_r.
Qed.

Example C62_arrives_ex : exists n b d' v', keep 20 (1 / 10) n (Long 10 DISTANCE false TRAILING (Limits (5 / 2) LARGE_NUMBER (5 / 2) LARGE_NUMBER 50) 0 true) 8 20 = Some (b, d', v') /\ l_runs b = false.
Proof.
  set (a := Long 10 DISTANCE false TRAILING (Limits (5 / 2) LARGE_NUMBER (5 / 2) LARGE_NUMBER 50) 0 true).
  assert (RQ : requested a 20 = 10) by (unfold requested; cbn; apply Rabs_right; lra).
  assert (RT : sqrt ((if Rltb (8 - requested a 20) 0 then max_acc (l_limits a) else max_dec (l_limits a)) * (4 / 10)) = 1).
  { rewrite RQ. num. cbn. replace (5 / 2 * (4 / 10)) with 1 by lra. apply sqrt_1. }
  pose proof (C62_arrives a 8 20 20 (1 / 10)) as H. cbv zeta in H. rewrite RT, RQ in H. cbn [l_limits max_acc max_dec max_acc_rate max_dec_rate max_speed a l_acc l_continuous] in H.
  rewrite (Rabs_left (8 - 10)), (Rabs_right 20), (Rabs_right (20 - 20)) in H by lra.
  apply H; unfold positive, limited, LARGE_NUMBER; cbn; try lra.
Qed.

(** At the distance asked for, with the speed of the target and no acceleration, it stays so. *)
Theorem C62_stays : forall n a vt dt, positive (l_limits a) -> limited (l_limits a) -> 0 < dt -> l_acc a = 0 -> Rabs vt <= max_speed (l_limits a) ->
  exists b, keep vt dt n a (requested a vt) vt = Some (b, requested a vt, vt) /\ l_acc b = 0.
Proof.
  induction n as [|n IH]; intros a vt dt P LI T A V.
  - exists a. split; [reflexivity|exact A].
  - assert (X : long_acceleration (l_limits a) (l_acc a) (requested a vt - requested a vt) (vt - vt) dt = Some 0).
    { unfold long_acceleration. rewrite A. destruct P as (PA & PD & PRA & PRD & _). rewrite root_some by (destruct (Rltb _ 0); lra). f_equal.
      set (z := sqrt _). set (k := (if _ : bool then _ else _) * (4 / 10)). replace ((requested a vt - requested a vt) * k - (vt - vt) * (2 * z)) with 0 by ring.
      unfold RMAX, RMIN. num. reflexivity. }
    destruct (step_limited a (requested a vt) vt vt dt 0 LI X) as (b & ST & BA & _ & SA). cbn [keep]. rewrite ST.
    assert (LV : long_speed (l_limits a) vt 0 dt = vt).
    { unfold long_speed. pose proof (Rle_abs vt). pose proof (Rle_abs (- vt)). rewrite Rabs_Ropp in *. repeat rcase; lra. }
    rewrite LV. replace (requested a vt - 0 + (vt - vt) * dt) with (requested a vt) by ring.
    assert (LB : l_limits b = l_limits a) by (destruct SA as (_ & _ & _ & _ & ->); auto).
    destruct (IH b vt dt) as (c & K & C); rewrite ?LB; auto. rewrite (same_requested a b vt SA) in K. exists c. auto.
Qed.

Example C62_stays_ex : let a := Long 10 DISTANCE true TRAILING (Limits 3 1 5 1 50) 0 true in positive (l_limits a) /\ limited (l_limits a) /\ requested a 20 = 10.
Proof. unfold positive, limited, LARGE_NUMBER, requested. cbn. rewrite Rabs_right; lra. Qed.

(** A controller that overrides the longitudinal domain stops the action from doing anything. *)
Theorem C62_overridden : forall w o a d v vt dt, overridden w o long_mask = true -> LongStep a (overridden w o long_mask) d v vt dt = Some (a, 0, v).
Proof. intros w o a d v vt dt ->. reflexivity. Qed.

Example C62_overridden_ex : exists w, overridden w 1%N long_mask = true.
Proof.
  exists {| ctrls := fun _ => Ctrl 0 0 15 1 MODE_OVERRIDE None false false 0 false; objs := fun _ => [7%N] |}. reflexivity.
Qed.

(** The limits and a target at 20 m/s for the examples that follow. *)
Definition mild : limits := Limits (5 / 2) LARGE_NUMBER (5 / 2) LARGE_NUMBER 1000.
Definition trail (acc : R) : long := Long 10 DISTANCE true TRAILING mild acc true.

Lemma trail_step : forall acc d v dt x, 1 / 2 <= dt -> -5 / 2 <= acc <= 5 / 2 -> -500 <= v <= 500 -> dt <= 1 ->
  (x = 5 / 2 /\ 5 / 2 <= d - 10 - 2 * (v - 20) \/ x = -5 / 2 /\ d - 10 - 2 * (v - 20) <= -5 / 2 \/ x = d - 10 - 2 * (v - 20) /\ -5 / 2 <= x <= 5 / 2) ->
  LongStep (trail acc) false d v 20 dt = Some (trail x, 0, v + x * dt).
Proof.
  intros acc d v dt x T A V T1 X. set (f := d - 10 - 2 * (v - 20)) in *.
  assert (XB : -5 / 2 <= x <= 5 / 2) by lra.
  assert (VD : -5 / 2 <= x * dt <= 5 / 2).
  { split; [apply Rle_trans with (-5 / 2 * 1); [lra|]|apply Rle_trans with (5 / 2 * 1); [|lra]].
    - destruct (Rle_dec 0 x); [assert (0 <= x * dt) by (apply Rmult_le_pos; lra); lra|].
      replace (x * dt) with (- (- x * dt)) by ring. assert (- x * dt <= 5 / 2 * 1) by (apply Rmult_le_compat; lra). lra.
    - destruct (Rle_dec 0 x); [apply Rmult_le_compat; lra|]. assert (0 <= - x * dt) by (apply Rmult_le_pos; lra). lra. }
  assert (LA : long_acceleration mild acc (d - 10) (v - 20) dt = Some x).
  { unfold long_acceleration, root. cbn [max_acc max_dec max_acc_rate max_dec_rate mild].
    replace (if Rltb (d - 10) 0 then 5 / 2 else 5 / 2) with (5 / 2) by (destruct (Rltb (d - 10) 0); reflexivity).
    replace (5 / 2 * (4 / 10)) with 1 by lra. rewrite sqrt_1. num. f_equal. replace ((d - 10) * 1 - (v - 20) * (2 * 1)) with f by (unfold f; ring).
    clearbody f. cbv zeta.
    replace (if Rltb f 0 then if Rltb f (- (5 / 2)) then - (5 / 2) else f else if Rltb (5 / 2) f then 5 / 2 else f) with x by (repeat rcase; lra).
    unfold LARGE_NUMBER, RMAX, RMIN. destruct (Rltb f 0); num; repeat (rcase; cbn [andb]); try reflexivity; lra. }
  unfold LongStep. cbn [trail l_limits l_continuous negb andb l_acc].
  assert (RQ : requested (trail acc) 20 = 10) by (unfold requested; cbn; apply Rabs_right; lra). rewrite RQ.
  replace (Rltb (max_acc mild) LARGE_NUMBER) with true by (symmetry; apply Rltb_true; unfold LARGE_NUMBER; cbn; lra). cbn [negb andb]. rewrite LA.
  unfold set_acc. cbn [l_distance l_type l_continuous l_displacement l_limits l_runs]. unfold long_speed. cbn [max_speed mild]. num. reflexivity.
Qed.

(** From far behind it speeds up so much that braking with what is allowed comes too late: it runs into the target. *)
Theorem C62_collides_refuted : exists b d v, keep 20 (1 / 2) 21 (trail 0) 110 20 = Some (b, d, v) /\ d < 0 /\
  requested (trail 0) 20 = 10 /\ (110 - 10) * (2 * (5 / 2)) >= (20 - 20) * (20 - 20).
Proof.
  assert (G : keep 20 (1 / 2) 21 (trail 0) 110 20 = Some (trail (-5 / 2), -85 / 32, 475 / 16)).
  { assert (F : forall n acc d v x d' v', LongStep (trail acc) false d v 20 (1 / 2) = Some (trail x, 0, v + x * (1 / 2)) -> v + x * (1 / 2) = v' -> d - 0 + (20 - v') * (1 / 2) = d' ->
      keep 20 (1 / 2) (S n) (trail acc) d v = keep 20 (1 / 2) n (trail x) d' v').
    { intros n acc d v x d' v' E1 <- <-. cbn [keep]. rewrite E1. reflexivity. }
    Ltac go F x d v := rewrite (F _ _ _ _ x d v) by (lra || (apply trail_step; lra)).
    go F (5 / 2) (875 / 8) (85 / 4). go F (5 / 2) (865 / 8) (45 / 2). go F (5 / 2) (425 / 4) (95 / 4). go F (5 / 2) (415 / 4) 25. go F (5 / 2) (805 / 8) (105 / 4).
    go F (5 / 2) (775 / 8) (55 / 2). go F (5 / 2) (185 / 2) (115 / 4). go F (5 / 2) (175 / 2) 30. go F (5 / 2) (655 / 8) (125 / 4). go F (5 / 2) (605 / 8) (65 / 2).
    go F (5 / 2) (275 / 4) (135 / 4). go F (5 / 2) (245 / 4) 35. go F (5 / 2) (425 / 8) (145 / 4). go F (5 / 2) (355 / 8) (75 / 2). go F (-5 / 8) (1145 / 32) (595 / 16).
    go F (-5 / 2) (445 / 16) (575 / 16). go F (-5 / 2) (655 / 32) (555 / 16). go F (-5 / 2) (55 / 4) (535 / 16). go F (-5 / 2) (245 / 32) (515 / 16).
    go F (-5 / 2) (35 / 16) (495 / 16). go F (-5 / 2) (-85 / 32) (475 / 16). reflexivity. }
  rewrite G. eexists. eexists. eexists. split; [reflexivity|]. split; [lra|]. split; [unfold requested; cbn; apply Rabs_right; lra|lra].
Qed.

Example C62_collides_refuted_ex : positive mild /\ limited mild /\ sqrt (max_dec mild * (4 / 10)) * (1 / 2) <= 1 / 2.
Proof. unfold positive, limited, mild, LARGE_NUMBER. cbn. replace (5 / 2 * (4 / 10)) with 1 by lra. rewrite sqrt_1. lra. Qed.

(** With steps too long for its limits it swings about the distance asked for and never gets there. *)
Theorem C62_swings_refuted : forall n, keep 20 1 (2 * n) (trail (-5 / 2)) (10 + 5 / 8) (20 - 5 / 4) = Some (trail (-5 / 2), 10 + 5 / 8, 20 - 5 / 4) /\
  keep 20 1 (S (2 * n)) (trail (-5 / 2)) (10 + 5 / 8) (20 - 5 / 4) = Some (trail (5 / 2), 10 - 5 / 8, 20 + 5 / 4).
Proof.
  assert (A : LongStep (trail (-5 / 2)) false (10 + 5 / 8) (20 - 5 / 4) 20 1 = Some (trail (5 / 2), 0, 20 - 5 / 4 + 5 / 2 * 1)) by (apply trail_step; lra).
  assert (B : LongStep (trail (5 / 2)) false (10 - 5 / 8) (20 + 5 / 4) 20 1 = Some (trail (-5 / 2), 0, 20 + 5 / 4 + -5 / 2 * 1)) by (apply trail_step; lra).
  assert (G : forall n, keep 20 1 (2 * n) (trail (-5 / 2)) (10 + 5 / 8) (20 - 5 / 4) = Some (trail (-5 / 2), 10 + 5 / 8, 20 - 5 / 4)).
  { induction n as [|n IH]; [reflexivity|]. replace (2 * S n)%nat with (S (S (2 * n))) by lia. rewrite keep_S, keep_S, IH, A.
    replace (20 - 5 / 4 + 5 / 2 * 1) with (20 + 5 / 4) by lra. replace (10 + 5 / 8 - 0 + (20 - (20 + 5 / 4)) * 1) with (10 - 5 / 8) by lra. rewrite B.
    replace (20 + 5 / 4 + -5 / 2 * 1) with (20 - 5 / 4) by lra. replace (10 - 5 / 8 - 0 + (20 - (20 - 5 / 4)) * 1) with (10 + 5 / 8) by lra. reflexivity. }
  intros n. split; [apply G|]. rewrite keep_S, G, A.
  replace (20 - 5 / 4 + 5 / 2 * 1) with (20 + 5 / 4) by lra. replace (10 + 5 / 8 - 0 + (20 - (20 + 5 / 4)) * 1) with (10 - 5 / 8) by lra. reflexivity.
Qed.

Example C62_swings_refuted_ex : LONGITUDINAL_DISTANCE_THRESHOLD < Rabs (10 + 5 / 8 - requested (trail 0) 20).
Proof. unfold LONGITUDINAL_DISTANCE_THRESHOLD, requested. cbn. rewrite (Rabs_right 10) by lra. rewrite Rabs_right; lra. Qed.

(** The acceleration is kept from one run of the action to the next: started again at the distance asked for and the speed of the target, it brakes. *)
Theorem C62_restart_refuted : forall rate dt, 0 < rate -> 0 < dt -> rate * dt <= 1 -> let a := LongStart (Long 10 DISTANCE true TRAILING (Limits 3 rate 3 rate 50) (-2) false) true 10 in
  l_acc a = -2 /\ requested a 20 = 10 /\ exists b v', LongStep a false 10 20 20 dt = Some (b, 0, v') /\ v' < 20.
Proof.
  intros rate dt RP T B a. split; [reflexivity|]. split; [unfold requested; cbn; apply Rabs_right; lra|].
  assert (X : long_acceleration (l_limits a) (l_acc a) (10 - requested a 20) (20 - 20) dt = Some (-2 + rate * dt)).
  { unfold a, requested, long_acceleration, root, RMAX, RMIN. cbn [LongStart set_runs l_limits l_acc l_type l_displacement l_distance max_acc max_dec max_acc_rate max_dec_rate].
    rewrite (Rabs_right 10) by lra. num. reflexivity. }
  destruct (step_limited a 10 20 20 dt (-2 + rate * dt)) as (b & ST & _); [unfold limited, a, LARGE_NUMBER; cbn; lra|exact X|].
  eexists. eexists. split; [exact ST|]. unfold long_speed, a. cbn [LongStart set_runs l_limits max_speed l_displacement].
  assert (RT : (2 - rate * dt) * dt > 0) by (apply Rmult_lt_0_compat; lra).
  repeat rcase; lra.
Qed.

Example C62_restart_refuted_ex : exists b v', LongStep (LongStart (Long 10 DISTANCE true TRAILING (Limits 3 1 3 1 50) (-2) false) true 10) false 10 20 20 (1 / 10) = Some (b, 0, v') /\ v' < 20.
Proof. destruct (C62_restart_refuted 1 (1 / 10)) as (_ & _ & H); [lra..|]. exact H. Qed.

(** A limit of the speed alone is not kept. *)
Theorem C62_speed_refuted : exists a b v', max_speed (l_limits a) = 20 /\ LongStep a false 50 20 30 (1 / 10) = Some (b, 40, v') /\ v' = 30.
Proof.
  exists (Long 10 DISTANCE true TRAILING (Limits LARGE_NUMBER LARGE_NUMBER LARGE_NUMBER LARGE_NUMBER 20) 0 true). eexists. eexists. split; [reflexivity|].
  unfold LongStep, requested. cbn [l_limits l_continuous l_displacement l_type l_distance max_acc max_dec negb andb]. rewrite (Rabs_right 10) by lra.
  replace (Rltb LARGE_NUMBER LARGE_NUMBER) with false by (symmetry; apply Rltb_false; lra). cbn [negb andb]. replace (50 - 10) with 40 by lra. split; reflexivity.
Qed.

Example C62_speed_refuted_ex : 20 < 30. Proof. lra. Qed.

(** Without a route to the target the distance along the road is LARGE_NUMBER (Position::Delta, RM/RoadManager.cpp:11797-11802), and the object is moved by about as much. *)
Theorem C62_no_route_refuted : forall v vt dt, exists a b m, l_distance a = 10 /\ LongStep a false LARGE_NUMBER v vt dt = Some (b, m, vt) /\ 9999999990 <= m.
Proof.
  intros v vt dt. exists (Long 10 DISTANCE true TRAILING no_limits 0 true). eexists. eexists. split; [reflexivity|].
  unfold LongStep, requested, no_limits. cbn [l_limits l_continuous l_displacement l_type l_distance max_acc max_dec negb andb]. rewrite (Rabs_right 10) by lra.
  replace (Rltb LARGE_NUMBER LARGE_NUMBER) with false by (symmetry; apply Rltb_false; lra). cbn [negb andb]. split; [reflexivity|unfold LARGE_NUMBER; lra].
Qed.

Example C62_no_route_refuted_ex : exists a b m, l_distance a = 10 /\ LongStep a false LARGE_NUMBER 10 0 (1 / 10) = Some (b, m, 0) /\ 9999999990 <= m.
Proof. apply C62_no_route_refuted. Qed.

(** A time gap is measured with the speed of the target: when it stands, the distance asked for is none at all. *)
Theorem C62_time_gap_refuted : forall d s v dt, exists b, LongStep (Long d TIME_GAP true s no_limits 0 true) false 20 v 0 dt = Some (b, 20, 0).
Proof.
  intros d s v dt. unfold LongStep, requested, no_limits. cbn [l_limits l_continuous l_displacement l_type l_distance max_acc max_dec negb andb].
  replace (Rltb LARGE_NUMBER LARGE_NUMBER) with false by (symmetry; apply Rltb_false; lra). cbn [negb andb]. rewrite Rabs_R0, Rmult_0_l, Rabs_R0.
  eexists. destruct s; repeat f_equal; lra.
Qed.

Example C62_time_gap_refuted_ex : exists b, LongStep (Long 2 TIME_GAP true TRAILING no_limits 0 true) false 20 5 0 (1 / 10) = Some (b, 20, 0).
Proof. apply C62_time_gap_refuted. Qed.

Print Assumptions C62_parse.
Print Assumptions C62_side.
Print Assumptions C62_requested.
Print Assumptions C62_rigid.
Print Assumptions C62_limits.
Print Assumptions C62_change.
Print Assumptions C62_jerk.
Print Assumptions C62_jerk_refuted.
Print Assumptions C62_settles.
Print Assumptions C62_arrives.
Print Assumptions C62_stays.
Print Assumptions C62_overridden.
Print Assumptions C62_collides_refuted.
Print Assumptions C62_swings_refuted.
Print Assumptions C62_restart_refuted.
Print Assumptions C62_speed_refuted.
Print Assumptions C62_no_route_refuted.
Print Assumptions C62_time_gap_refuted.
