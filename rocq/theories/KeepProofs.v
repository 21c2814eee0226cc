(** * Lemmas about keeping a distance *)
From Coq Require Import Reals Bool List Arith Lia Lra Psatz.
From Verif Require Import AngModel AngProofs GeoModel GeoProofs TransModel ProfModel CtrlModel KeepModel.
Import ListNotations.
Open Scope R_scope.

(** ** Spec: what happens while an action runs *)

(** What a step is given: whether the controllers override it, the distance measured, the speed of the target and the time step. *)
Record tick := Tick { k_over : bool; k_distance : R; k_target : R; k_dt : R }.

(** Steps with anything measured; state: the action and the speed of its object. *)
Fixpoint ticks (l : list tick) (a : long) (v : R) : option (long * R) :=
  match l with
  | [] => Some (a, v)
  | k :: r => match LongStep a (k_over k) (k_distance k) v (k_target k) (k_dt k) with Some (b, _, v') => ticks r b v' | None => None end
  end.

(** Steps of [dt] behind (or before) a target of constant speed [vt], from distance [d] at speed [v]: the object is moved as the step tells, then both
    move on with their speeds. *)
Fixpoint keep (vt dt : R) (n : nat) (a : long) (d v : R) : option (long * R * R) :=
  match n with
  | O => Some (a, d, v)
  | S n => match LongStep a false d v vt dt with Some (b, m, v') => keep vt dt n b (d - m + (vt - v') * dt) v' | None => None end
  end.

(** The limits make sense. *)
Definition positive (L : limits) : Prop := 0 < max_acc L /\ 0 < max_dec L /\ 0 < max_acc_rate L /\ 0 < max_dec_rate L /\ 0 < max_speed L.

(** At least one of the accelerations is limited. *)
Definition limited (L : limits) : Prop := max_acc L < LARGE_NUMBER \/ max_dec L < LARGE_NUMBER.

(** ** Numbers *)

Lemma root_some : forall x, 0 <= x -> root x = Some (sqrt x).
Proof. intros x H. unfold root. replace (Rltb x 0) with false; auto. symmetry. now apply Rltb_false. Qed.

Lemma limited_test : forall L, limited L <-> negb (Rltb (max_acc L) LARGE_NUMBER) && negb (Rltb (max_dec L) LARGE_NUMBER) = false.
Proof.
  intros L. unfold limited. destruct (Rltb (max_acc L) LARGE_NUMBER) eqn:E; destruct (Rltb (max_dec L) LARGE_NUMBER) eqn:F; cbn;
    repeat match goal with H : Rltb _ _ = true |- _ => apply Rltb_true in H | H : Rltb _ _ = false |- _ => apply Rltb_false in H end;
    split; intros; try easy; try (left; lra); try (right; lra); lra.
Qed.

(** ** Along the road *)

Lemma acceleration_some : forall L acc0 e sd dt, positive L -> exists x, long_acceleration L acc0 e sd dt = Some x.
Proof.
  intros L acc0 e sd dt (A & D & _). unfold long_acceleration. rewrite root_some; [eexists; reflexivity|].
  destruct (Rltb e 0); lra.
Qed.

Lemma acceleration_bounds : forall L acc0 e sd dt x, positive L -> - max_dec L <= acc0 <= max_acc L -> 0 <= dt ->
  long_acceleration L acc0 e sd dt = Some x -> - max_dec L <= x <= max_acc L.
Proof.
  intros L acc0 e sd dt x (A & D & RA & RD & _) B T H. unfold long_acceleration in H.
  destruct (root _) as [r|]; [|discriminate]. injection H as <-. unfold RMAX, RMIN.
  assert (P1 : 0 <= max_dec_rate L * dt) by (apply Rmult_le_pos; lra). assert (P2 : 0 <= max_acc_rate L * dt) by (apply Rmult_le_pos; lra).
  repeat rcase; try lra; cbn [andb] in *; repeat rcase; lra.
Qed.

Lemma acceleration_jerk : forall L acc0 e sd dt x, positive L -> 0 <= dt -> long_acceleration L acc0 e sd dt = Some x ->
  (0 < x -> x - acc0 <= max_acc_rate L * dt) /\ (x < 0 -> acc0 - x <= max_dec_rate L * dt).
Proof.
  intros L acc0 e sd dt x (A & D & RA & RD & _) T H. unfold long_acceleration in H.
  destruct (root _) as [r|]; [|discriminate]. injection H as <-. unfold RMAX, RMIN.
  assert (P1 : 0 <= max_dec_rate L * dt) by (apply Rmult_le_pos; lra). assert (P2 : 0 <= max_acc_rate L * dt) by (apply Rmult_le_pos; lra).
  repeat rcase; try (split; intros; lra); cbn [andb] in *; repeat rcase; split; intros; lra.
Qed.

Lemma speed_bounds : forall L v acc dt, positive L -> - max_speed L <= long_speed L v acc dt <= max_speed L.
Proof. intros L v acc dt (_ & _ & _ & _ & S). unfold long_speed. repeat rcase; lra. Qed.

Lemma speed_change : forall L v acc dt, - max_speed L <= v <= max_speed L -> Rabs (long_speed L v acc dt - v) <= Rabs (acc * dt).
Proof.
  intros L v acc dt V. unfold long_speed. destruct (Rle_dec 0 (acc * dt)) as [P|P].
  - rewrite (Rabs_right (acc * dt)) by lra. apply Rabs_le. repeat rcase; lra.
  - rewrite (Rabs_left (acc * dt)) by lra. apply Rabs_le. repeat rcase; lra.
Qed.

(** The approach: error [e], difference of speeds [s], spring constant [r * r], time step [dt]. *)
Lemma approach : forall r dt e s, 0 < r -> 0 < dt -> r * dt <= 1 / 2 -> 0 <= e -> 0 <= s <= r * e ->
  let acc := e * (r * r) - s * (2 * r) in let s' := s + acc * dt in let e' := e - s' * dt in
  0 <= s' <= r * e' /\ (1 - r * dt) * e <= e' <= (1 - (r * dt) * (r * dt)) * e /\ - (r * r * e) <= acc <= r * r * e.
Proof.
  intros r dt e s R T W E (S0 & S1) acc s' e'. set (w := r * dt) in *. assert (W0 : 0 < w) by (apply Rmult_lt_0_compat; lra).
  assert (RE : 0 <= r * e) by (apply Rmult_le_pos; lra).
  assert (WS : 0 <= w * s) by (apply Rmult_le_pos; lra).
  assert (S' : s' = s * (1 - 2 * w) + w * (r * e)) by (unfold s', acc, w; ring).
  assert (E' : e' = e - w * w * e - (1 - 2 * w) * (s * dt)) by (unfold e', s', acc, w; ring).
  assert (RS : r * (s * dt) = w * s) by (unfold w; ring).
  assert (DS : 0 <= s * dt <= w * e).
  { split; [apply Rmult_le_pos; lra|]. apply Rle_trans with (r * e * dt); [apply Rmult_le_compat_r; lra|unfold w; lra]. }
  assert (P0 : 0 <= s * (1 - 2 * w)) by (apply Rmult_le_pos; lra).
  assert (P1 : 0 <= w * (r * e)) by (apply Rmult_le_pos; lra).
  assert (P2 : 0 <= (1 - 2 * w) * (s * dt)) by (apply Rmult_le_pos; lra).
  assert (P3 : (1 - 2 * w) * (s * dt) <= (1 - 2 * w) * (w * e)) by (apply Rmult_le_compat_l; lra).
  split; [|split].
  - split; [lra|]. rewrite S', E'.
    assert (P4 : s * ((1 - 2 * w) * (1 + w)) <= r * e * ((1 - 2 * w) * (1 + w))) by (apply Rmult_le_compat_r; [apply Rmult_le_pos; lra|lra]).
    assert (P5 : 0 <= r * e * (w * w)) by (apply Rmult_le_pos; [lra|apply Rmult_le_pos; lra]).
    replace (r * (e - w * w * e - (1 - 2 * w) * (s * dt))) with (r * e - w * w * (r * e) - (1 - 2 * w) * (r * (s * dt))) by ring. rewrite RS. lra.
  - assert (0 <= w * w * e) by (apply Rmult_le_pos; [apply Rmult_le_pos; lra|lra]). rewrite E'. split; [|lra].
    replace ((1 - w) * e) with (e - w * e) by ring.
    assert (w * w * e <= w * e) by (apply Rmult_le_compat_r; [lra|]; assert (w * w <= w * 1) by (apply Rmult_le_compat_l; lra); lra).
    replace ((1 - 2 * w) * (w * e)) with (w * e - 2 * (w * w * e)) in P3 by ring. lra.
  - assert (s * (2 * r) <= 2 * (r * r * e)) by (replace (2 * (r * r * e)) with (r * e * (2 * r)) by ring; apply Rmult_le_compat_r; lra).
    assert (0 <= s * (2 * r)) by (apply Rmult_le_pos; lra). assert (0 <= r * r * e) by (apply Rmult_le_pos; [apply Rmult_le_pos; lra|lra]).
    unfold acc. split; [lra|]. replace (e * (r * r)) with (r * r * e) by ring. lra.
Qed.

Lemma acceleration_free : forall L acc0 e sd dt r, positive L -> - max_dec L <= acc0 <= max_acc L ->
  max_acc L + max_dec L <= max_acc_rate L * dt -> max_acc L + max_dec L <= max_dec_rate L * dt ->
  0 <= r -> r * r = (if Rltb e 0 then max_acc L else max_dec L) * (4 / 10) ->
  - max_dec L <= e * (r * r) - sd * (2 * r) <= max_acc L ->
  long_acceleration L acc0 e sd dt = Some (e * (r * r) - sd * (2 * r)).
Proof.
  intros L acc0 e sd dt r P B RA RD R0 RR A. destruct P as (PA & PD & PRA & PRD & _). unfold long_acceleration. rewrite <- RR.
  rewrite root_some by (apply Rmult_le_pos; lra). rewrite sqrt_square by lra. cbv zeta. f_equal.
  set (acc := e * (r * r) - sd * (2 * r)) in *. clearbody acc. unfold RMAX, RMIN.
  repeat rcase; cbn [andb]; repeat rcase; try lra.
Qed.

(** The action as it was, for what matters: the requested distance and the limits. *)
Definition same_aim (a b : long) : Prop :=
  l_distance b = l_distance a /\ l_type b = l_type a /\ l_continuous b = l_continuous a /\ l_displacement b = l_displacement a /\ l_limits b = l_limits a.

Lemma same_aim_refl : forall a, same_aim a a. Proof. unfold same_aim. tauto. Qed.
Lemma same_aim_trans : forall a b c, same_aim a b -> same_aim b c -> same_aim a c.
Proof. unfold same_aim. intros a b c (A1 & A2 & A3 & A4 & A5) (B1 & B2 & B3 & B4 & B5). rewrite B1, B2, B3, B4, B5. tauto. Qed.
Lemma same_requested : forall a b vt, same_aim a b -> requested b vt = requested a vt.
Proof. unfold same_aim, requested. intros a b vt (A1 & A2 & A3 & A4 & A5). now rewrite A1, A2, A4. Qed.

Lemma step_aim : forall a o d v vt dt b m v', LongStep a o d v vt dt = Some (b, m, v') -> same_aim a b.
Proof.
  intros a o d v vt dt b m v' H. unfold LongStep in H. destruct o; [injection H as <- _ _; apply same_aim_refl|].
  destruct (negb (l_continuous a) && _), (negb (Rltb (max_acc _) _) && _).
  - injection H as <- _ _. unfold same_aim. cbn. tauto.
  - destruct (long_acceleration _ _ _ _ _); [|discriminate]. injection H as <- _ _. unfold same_aim. cbn. tauto.
  - injection H as <- _ _. apply same_aim_refl.
  - destruct (long_acceleration _ _ _ _ _); [|discriminate]. injection H as <- _ _. unfold same_aim. cbn. tauto.
Qed.

(** Whether a step leaves the action running. *)
Definition goes_on (a : long) (e : R) : bool := l_runs a && negb (negb (l_continuous a) && Rltb (Rabs e) LONGITUDINAL_DISTANCE_THRESHOLD).

Lemma step_limited : forall a d v vt dt x, limited (l_limits a) ->
  long_acceleration (l_limits a) (l_acc a) (d - requested a vt) (v - vt) dt = Some x ->
  exists b, LongStep a false d v vt dt = Some (b, 0, long_speed (l_limits a) v x dt) /\ l_acc b = x /\ l_runs b = goes_on a (d - requested a vt) /\ same_aim a b.
Proof.
  intros a d v vt dt x LI H. unfold LongStep, goes_on. rewrite (proj1 (limited_test _) LI).
  destruct (negb (l_continuous a) && _) eqn:E.
  - assert (HH : long_acceleration (l_limits a) (l_acc (set_runs a false)) (d - requested a vt) (v - vt) dt = Some x) by exact H.
    rewrite HH. eexists. split; [reflexivity|]. cbn. rewrite andb_false_r. unfold same_aim. cbn. tauto.
  - rewrite H. eexists. split; [reflexivity|]. cbn. rewrite andb_true_r. unfold same_aim. cbn. tauto.
Qed.

Section SETTLE.
Variables (L : limits) (vt dt q r sg : R).
Hypothesis P : positive L.
Hypothesis LI : limited L.
Hypothesis T : 0 < dt.
Hypothesis RA : max_acc L + max_dec L <= max_acc_rate L * dt.
Hypothesis RD : max_acc L + max_dec L <= max_dec_rate L * dt.
Hypothesis R0 : 0 < r.
Hypothesis W : r * dt <= 1 / 2.
Hypothesis SG : (sg = 1 /\ r * r = max_dec L * (4 / 10)) \/ (sg = -1 /\ r * r = max_acc L * (4 / 10)).

(** On the side [sg] of the requested distance [q] and closing in slowly enough. *)
Definition closing (a : long) (d v : R) : Prop :=
  l_limits a = L /\ requested a vt = q /\ - max_dec L <= l_acc a <= max_acc L /\
  (sg = 1 -> 0 <= d - q) /\ (sg = -1 -> d - q < 0) /\ 0 <= sg * (v - vt) <= r * (sg * (d - q)) /\
  r * r * (sg * (d - q)) <= max_acc L /\ r * r * (sg * (d - q)) <= max_dec L /\ Rabs vt + r * (sg * (d - q)) <= max_speed L.

Lemma closing_step : forall a d v, closing a d v -> exists b v', LongStep a false d v vt dt = Some (b, 0, v') /\
  closing b (d - 0 + (vt - v') * dt) v' /\ same_aim a b /\ l_runs b = goes_on a (d - q) /\
  (1 - r * dt) * (sg * (d - q)) <= sg * (d - 0 + (vt - v') * dt - q) <= (1 - (r * dt) * (r * dt)) * (sg * (d - q)).
Proof.
  intros a d v (LA & RQ & AC & S1 & S2 & CL & B1 & B2 & B3). set (e := d - q) in *.
  assert (SS : sg * sg = 1) by (destruct SG as [(-> & _)|(-> & _)]; lra).
  assert (E0 : 0 <= sg * e) by (destruct SG as [(G & _)|(G & _)]; [specialize (S1 G)|specialize (S2 G)]; rewrite G; lra).
  destruct (approach r dt (sg * e) (sg * (v - vt)) R0 T W E0 CL) as (SC & EC & ACC).
  assert (EQ : sg * e * (r * r) - sg * (v - vt) * (2 * r) = sg * (e * (r * r) - (v - vt) * (2 * r))) by ring. rewrite EQ in *.
  set (acc := e * (r * r) - (v - vt) * (2 * r)) in *.
  assert (AB : - max_dec L <= acc <= max_acc L).
  { destruct SG as [(-> & _)|(-> & _)]; lra. }
  assert (LAC : long_acceleration (l_limits a) (l_acc a) (d - requested a vt) (v - vt) dt = Some acc).
  { rewrite LA, RQ. fold e. apply acceleration_free; auto; try lra. destruct SG as [(G & ->)|(G & ->)].
    - specialize (S1 G). replace (Rltb e 0) with false; [reflexivity|]. symmetry. apply Rltb_false. lra.
    - specialize (S2 G). replace (Rltb e 0) with true; [reflexivity|]. symmetry. apply Rltb_true. lra. }
  destruct (step_limited a d v vt dt acc) as (b & ST & BA & BR & BS); [rewrite LA; auto|auto|]. rewrite LA in *.
  set (v1 := v + acc * dt).
  assert (VB : - max_speed L <= v1 <= max_speed L).
  { assert (S : 0 <= sg * (v1 - vt) <= r * (sg * e)).
    { destruct SC as (SC0 & SC1). replace (sg * (v1 - vt)) with (sg * (v - vt) + sg * acc * dt) by (unfold v1; ring). split; [lra|].
      eapply Rle_trans; [exact SC1|]. apply Rmult_le_compat_l; [lra|].
      destruct EC as (_ & EC). eapply Rle_trans; [exact EC|].
      assert (0 <= r * dt * (r * dt)) by (apply Rmult_le_pos; apply Rmult_le_pos; lra).
      assert (0 <= r * dt * (r * dt) * (sg * e)) by (apply Rmult_le_pos; lra). lra. }
    pose proof (Rle_abs vt). pose proof (Rle_abs (- vt)). rewrite Rabs_Ropp in *. destruct SG as [(G & _)|(G & _)]; rewrite G in *; lra. }
  assert (VE : long_speed L v acc dt = v1).
  { unfold long_speed. fold v1. repeat rcase; lra. }
  rewrite VE in ST. exists b, v1. split; [exact ST|].
  assert (EE : sg * (d - 0 + (vt - v1) * dt - q) = sg * e - (sg * (v - vt) + sg * acc * dt) * dt) by (unfold v1, e; ring).
  assert (SE : sg * (v1 - vt) = sg * (v - vt) + sg * acc * dt) by (unfold v1; ring).
  assert (WP : 0 <= r * dt * (r * dt)) by (apply Rmult_le_pos; apply Rmult_le_pos; lra).
  assert (WE : 0 <= r * dt * (r * dt) * (sg * e)) by (apply Rmult_le_pos; lra).
  assert (LE : sg * (d - 0 + (vt - v1) * dt - q) <= sg * e) by (rewrite EE; lra).
  assert (LO : (1 / 2) * (sg * e) <= sg * (d - 0 + (vt - v1) * dt - q)).
  { rewrite EE. eapply Rle_trans; [|exact (proj1 EC)]. apply Rmult_le_compat_r; lra. }
  assert (RR0 : 0 <= r * r) by (apply Rmult_le_pos; lra).
  assert (M1 : r * r * (sg * (d - 0 + (vt - v1) * dt - q)) <= r * r * (sg * e)) by (apply Rmult_le_compat_l; lra).
  assert (M2 : r * (sg * (d - 0 + (vt - v1) * dt - q)) <= r * (sg * e)) by (apply Rmult_le_compat_l; lra).
  split; [|split; [exact BS|split; [rewrite BR, RQ; reflexivity|rewrite EE; lra]]].
  unfold closing. destruct BS as (Q1 & Q2 & Q3 & Q4 & Q5). split; [congruence|]. split; [rewrite (same_requested a b); [auto|unfold same_aim; tauto]|].
  split; [rewrite BA; lra|]. split; [intros G; specialize (S1 G); rewrite G in *; lra|]. split; [intros G; specialize (S2 G); rewrite G in *; lra|].
  split; [rewrite SE, EE; lra|]. repeat split; lra.
Qed.

Lemma closing_run : forall n a d v, closing a d v -> exists b d' v', keep vt dt n a d v = Some (b, d', v') /\ closing b d' v' /\ same_aim a b /\
  (1 - r * dt) ^ n * (sg * (d - q)) <= sg * (d' - q) <= (1 - (r * dt) * (r * dt)) ^ n * (sg * (d - q)).
Proof.
  induction n as [|n IH]; intros a d v C.
  - exists a, d, v. cbn [keep pow]. split; [reflexivity|]. split; [exact C|]. split; [apply same_aim_refl|lra].
  - destruct (closing_step a d v C) as (b & v' & ST & C' & SA & _ & LO & HI). cbn [keep]. rewrite ST.
    destruct (IH b _ v' C') as (b2 & d2 & v2 & K & C2 & SA2 & LO2 & HI2). exists b2, d2, v2. split; [exact K|]. split; [exact C2|].
    split; [eapply same_aim_trans; eauto|]. cbn [pow].
    assert (WP : 0 <= r * dt) by (apply Rmult_le_pos; lra). assert (WW : r * dt * (r * dt) <= r * dt * (1 / 2)) by (apply Rmult_le_compat_l; lra).
    assert (0 <= (1 - r * dt) ^ n) by (apply pow_le; lra). assert (0 <= (1 - r * dt * (r * dt)) ^ n) by (apply pow_le; lra).
    assert ((1 - r * dt) ^ n * ((1 - r * dt) * (sg * (d - q))) <= (1 - r * dt) ^ n * (sg * (d - 0 + (vt - v') * dt - q))) by (apply Rmult_le_compat_l; lra).
    assert ((1 - r * dt * (r * dt)) ^ n * (sg * (d - 0 + (vt - v') * dt - q)) <= (1 - r * dt * (r * dt)) ^ n * ((1 - r * dt * (r * dt)) * (sg * (d - q)))) by (apply Rmult_le_compat_l; lra).
    split; lra.
Qed.
End SETTLE.

Lemma shrinks : forall x c eps, 0 <= x < 1 -> 0 < eps -> exists n, x ^ n * c < eps.
Proof.
  intros x c eps X E. destruct (Rle_dec c 0) as [C|C].
  - exists 0%nat. cbn. lra.
  - destruct (pow_lt_1_zero x) with (y := eps / c) as (n & H).
    + rewrite Rabs_right; lra.
    + apply Rdiv_lt_0_compat; lra.
    + exists n. specialize (H n (le_n n)). rewrite Rabs_right in H by (apply Rle_ge; apply pow_le; lra).
      apply Rmult_lt_compat_r with (r := c) in H; [|lra]. replace (eps / c * c) with eps in H by (field; lra). lra.
Qed.

(** ** What is proved of the approach *)

Theorem settles : forall a d v vt dt n, let L := l_limits a in let q := requested a vt in let e := d - q in
  let r := sqrt ((if Rltb e 0 then max_acc L else max_dec L) * (4 / 10)) in
  positive L -> limited L -> 0 < dt -> max_acc L + max_dec L <= max_acc_rate L * dt -> max_acc L + max_dec L <= max_dec_rate L * dt ->
  r * dt <= 1 / 2 -> - max_dec L <= l_acc a <= max_acc L ->
  0 <= e * (v - vt) -> Rabs (v - vt) <= r * Rabs e -> r * r * Rabs e <= max_acc L -> r * r * Rabs e <= max_dec L -> Rabs vt + r * Rabs e <= max_speed L ->
  exists b d' v', keep vt dt n a d v = Some (b, d', v') /\ Rabs (d' - q) <= (1 - r * dt * (r * dt)) ^ n * Rabs e /\
    (1 - r * dt) ^ n * Rabs e <= Rabs (d' - q) /\ 0 <= e * (d' - q) /\ - max_dec L <= l_acc b <= max_acc L /\ Rabs (v' - vt) <= r * Rabs (d' - q).
Proof.
  intros a d v vt dt n L q e r P LI T RA RD W AC EV VE B1 B2 B3.
  assert (P' := P). destruct P' as (PA & PD & PRA & PRD & PS).
  assert (TP : 0 < (if Rltb e 0 then max_acc L else max_dec L) * (4 / 10)) by (destruct (Rltb e 0); lra).
  assert (R0 : 0 < r) by (apply sqrt_lt_R0; auto). assert (RR : r * r = (if Rltb e 0 then max_acc L else max_dec L) * (4 / 10)) by (apply sqrt_sqrt; lra).
  set (sg := if Rltb e 0 then -1 else 1).
  assert (SG : (sg = 1 /\ r * r = max_dec L * (4 / 10)) \/ (sg = -1 /\ r * r = max_acc L * (4 / 10))) by (rewrite RR; unfold sg; destruct (Rltb e 0); [right|left]; auto).
  assert (SE : sg * e = Rabs e).
  { unfold sg. rcase; [rewrite Rabs_left by lra|rewrite Rabs_right by lra]; lra. }
  assert (SV : sg * (v - vt) = Rabs (v - vt)).
  { unfold sg. rcase.
    - rewrite Rabs_left1; [lra|]. destruct (Rle_dec (v - vt) 0); [auto|]. assert (e * (v - vt) < 0 * (v - vt)) by (apply Rmult_lt_compat_r; lra). lra.
    - destruct (Req_dec e 0) as [Z|Z].
      + rewrite Z, Rabs_R0, Rmult_0_r in VE. pose proof (Rabs_pos (v - vt)). assert (v - vt = 0) by (destruct (Req_dec (v - vt) 0) as [|N]; [auto|apply Rabs_pos_lt in N; lra]).
        rewrite H0, Rabs_R0. lra.
      + rewrite Rabs_right; [lra|]. apply Rle_ge. destruct (Rle_dec 0 (v - vt)); [auto|]. assert (e * (v - vt) < e * 0) by (apply Rmult_lt_compat_l; lra). lra. }
  assert (C : closing L vt q r sg a d v).
  { unfold closing. fold e. rewrite SE, SV. repeat split; auto; try lra.
    - unfold sg. rcase; lra.
    - unfold sg. rcase; lra.
    - apply Rabs_pos. }
  destruct (closing_run L vt dt q r sg P LI T RA RD R0 W SG n a d v C) as (b & d' & v' & K & C' & SA & LO & HI). fold e in LO, HI. rewrite SE in LO, HI.
  exists b, d', v'. split; [exact K|]. destruct C' as (_ & _ & AC' & S1 & S2 & CL & _).
  assert (SD : sg * (d' - q) = Rabs (d' - q)).
  { destruct SG as [(G & _)|(G & _)]; rewrite G; [specialize (S1 G); rewrite Rabs_right by lra|specialize (S2 G); rewrite Rabs_left by lra]; lra. }
  rewrite SD in *. split; [exact HI|]. split; [exact LO|]. split.
  - destruct SG as [(G & _)|(G & _)]; rewrite G in SE.
    + specialize (S1 G). pose proof (Rabs_pos e). apply Rmult_le_pos; lra.
    + specialize (S2 G). pose proof (Rabs_pos e). replace (e * (d' - q)) with (- e * - (d' - q)) by ring. apply Rmult_le_pos; lra.
  - split; [exact AC'|]. replace (Rabs (v' - vt)) with (sg * (v' - vt)); [lra|].
    destruct SG as [(G & _)|(G & _)]; rewrite G in *; [rewrite Rabs_right by lra|rewrite Rabs_left1 by lra]; lra.
Qed.

Lemma keep_S : forall vt dt n a d v, keep vt dt (S n) a d v =
  match keep vt dt n a d v with
  | Some (b, d', v') => match LongStep b false d' v' vt dt with Some (c, m, v2) => Some (c, d' - m + (vt - v2) * dt, v2) | None => None end
  | None => None
  end.
Proof.
  intros vt dt n. induction n as [|n IH]; intros a d v.
  - cbn [keep]. destruct (LongStep a false d v vt dt) as [[[b m] v']|]; reflexivity.
  - change (keep vt dt (S (S n)) a d v) with (match LongStep a false d v vt dt with Some (b, m, v') => keep vt dt (S n) b (d - m + (vt - v') * dt) v' | None => None end).
    replace (keep vt dt (S n) a d v) with (match LongStep a false d v vt dt with Some (b, m, v') => keep vt dt n b (d - m + (vt - v') * dt) v' | None => None end) by reflexivity.
    destruct (LongStep a false d v vt dt) as [[[b m] v']|]; [|reflexivity]. apply IH.
Qed.

Lemma keep_aim : forall vt dt n a d v b d' v', keep vt dt n a d v = Some (b, d', v') -> same_aim a b.
Proof.
  intros vt dt n. induction n as [|n IH]; cbn [keep]; intros a d v b d' v' H.
  - injection H as <- _ _. apply same_aim_refl.
  - destruct (LongStep a false d v vt dt) as [[[c m] v2]|] eqn:E; [|discriminate]. apply step_aim in E. eapply same_aim_trans; [exact E|]. eapply IH; eauto.
Qed.

(** ** Across the road *)

(** How far to the left of the target the object is, as the target faces: t coordinates and headings relative to the road. *)
Definition leftward (ta ha tb : R) : R := if Rle_dec 0 (cos ha) then tb - ta else ta - tb.

(** The distance to the left that is wanted: the given one, with half the widths added for free space; negative on the right. *)
Definition wanted (s : side) (d : R) (free : bool) (w tw : R) : R :=
  let m := Rabs d + (if free then (w + tw) / 2 else 0) in match s with RIGHT => - m | _ => m end.

Lemma error_is : forall a w tw ta ha tb hb b, t_cs a = CS_ROAD -> t_side a = LEFT \/ t_side a = RIGHT \/ t_side a = ANY_SIDE -> b = LatStart a true w tw ->
  exists e, GetDistanceError b (Some (road_delta ta ha tb hb)) hb = (b, Some e) /\
    leftward ta ha (tb + e) = wanted (t_side a) (t_distance a) (t_freespace a) w tw.
Proof.
  intros a w tw ta ha tb hb b CS SD ->. unfold GetDistanceError, road_delta. eexists. split; [reflexivity|].
  assert (C : (IsAngleForward hb && eqb (IsAngleForward ha) (IsAngleForward hb)) || (negb (IsAngleForward hb) && negb (eqb (IsAngleForward ha) (IsAngleForward hb))) = IsAngleForward ha)
    by (destruct (IsAngleForward ha), (IsAngleForward hb); reflexivity).
  rewrite C. unfold leftward. pose proof (forward_iff ha) as F.
  assert (D : t_distance (LatStart a true w tw) = - wanted (t_side a) (t_distance a) (t_freespace a) w tw).
  { unfold LatStart, wanted. rewrite CS. destruct SD as [->|[->| ->]]; destruct (t_freespace a); cbn; lra. }
  rewrite D. destruct (IsAngleForward ha); destruct (Rle_dec 0 (cos ha)) as [G|G]; try lra.
Qed.

Lemma clamp_bounds : forall x lo hi, lo <= hi -> lo <= CLAMP x lo hi <= hi.
Proof. intros x lo hi H. unfold CLAMP, RMIN, RMAX. destruct (Rltb lo x) eqn:F; [apply Rltb_true in F|apply Rltb_false in F]; rcase; lra. Qed.

Lemma clamp_id : forall x lo hi, lo <= x <= hi -> CLAMP x lo hi = x.
Proof. intros x lo hi H. unfold CLAMP, RMIN, RMAX. destruct (Rltb lo x) eqn:F; [apply Rltb_true in F|apply Rltb_false in F]; rcase; lra. Qed.

Lemma abs_limit_bound : forall x y, Rabs (ABS_LIMIT x y) <= Rabs y.
Proof.
  intros x y. unfold ABS_LIMIT. rcase; [|lra]. unfold SIGN. pose proof (Rabs_pos y).
  rcase; [replace (-1 * Rabs y) with (- Rabs y) by lra; rewrite Rabs_Ropp|rewrite Rmult_1_l]; rewrite Rabs_Rabsolu; lra.
Qed.

Lemma abs_limit_id : forall x y, Rabs x <= Rabs y -> ABS_LIMIT x y = x.
Proof. intros x y H. unfold ABS_LIMIT. rcase; [lra|auto]. Qed.

Lemma limit_speed : forall L v, 0 <= max_speed L -> SMALL_NUMBER <= v -> Rabs (lateral_limit L v) <= v.
Proof. intros L v M V. pose proof small_pos. unfold lateral_limit, RMIN. apply Rabs_le. rcase; lra. Qed.

Lemma sign_abs : forall x, SIGN x * Rabs x = x.
Proof. intros x. unfold SIGN. rcase; [rewrite Rabs_left by lra|rewrite Rabs_right by lra]; lra. Qed.

Lemma sign_abs1 : forall x, Rabs (SIGN x) = 1.
Proof. intros x. unfold SIGN. rcase; [rewrite Rabs_left by lra|rewrite Rabs_right by lra]; lra. Qed.

(** The lateral speed after a step is at most the limit. *)
Lemma dynamic_bound : forall a e v tv dt b, 0 < dt -> dynamic_speed a e v tv dt = Some b -> Rabs (t_vel b) <= Rabs (lateral_limit (t_limits a) v).
Proof.
  intros a e v tv dt b T H. unfold dynamic_speed in H. destruct (negb (Reqb LARGE_NUMBER _)).
  - injection H as <-. match goal with |- context [if ?c then _ else _] => destruct c end; cbn [t_vel set_running set_move set_motion]; apply abs_limit_bound.
  - set (m := lateral_limit (t_limits a) v) in *. destruct (Reqb (SIGN (e - SIGN e * m * dt)) (SIGN e)) eqn:Q.
    + injection H as <-. cbn. rewrite Rabs_mult, sign_abs1. lra.
    + apply Reqb_false in Q. unfold div in H. destruct (Reqb dt 0); [discriminate|]. injection H as <-.
      assert (Rabs (e / dt) <= Rabs m).
      { unfold Rdiv. rewrite Rabs_mult, Rabs_inv, (Rabs_right dt) by lra. apply Rmult_le_reg_r with dt; [auto|]. rewrite Rmult_assoc, Rinv_l, Rmult_1_r by lra.
        rewrite <- (Rabs_right dt) at 1 by lra. rewrite <- Rabs_mult. unfold SIGN in Q. revert Q. repeat rcase; intros Q; try lra;
          pose proof (Rle_abs (m * dt)); unfold Rabs at 1; destruct (Rcase_abs e); lra. }
      destruct (t_continuous _); exact H.
Qed.

(** Object's way: along and across the road together it moves by its speed. *)
Lemma dynamic_way : forall a delta h v tv dt next b s t, 0 < dt -> 0 <= max_speed (t_limits a) -> SMALL_NUMBER <= v ->
  dynamic_step a delta h v tv dt next = Some (b, (s, t)) -> s * s + t * t = v * dt * (v * dt) /\ 0 <= s.
Proof.
  intros a delta h v tv dt next b s t T M V H. unfold dynamic_step in H.
  destruct (GetDistanceError a delta h) as [a' [e|]] eqn:G; [|discriminate].
  destruct (dynamic_speed a' e v tv dt) as [c|]; [|discriminate].
  unfold root in H. destruct (Rltb (v * v - t_vel c * t_vel c) 0) eqn:E; [discriminate|]. apply Rltb_false in E. injection H as <- <- <-.
  pose proof (sqrt_sqrt _ E) as Q. split.
  - replace (sqrt (v * v - t_vel c * t_vel c) * dt * (sqrt (v * v - t_vel c * t_vel c) * dt))
      with (sqrt (v * v - t_vel c * t_vel c) * sqrt (v * v - t_vel c * t_vel c) * (dt * dt)) by ring. rewrite Q. ring.
  - apply Rmult_le_pos; [apply sqrt_pos|lra].
Qed.

Lemma speed_some : forall a e v tv dt, 0 < dt -> exists b, dynamic_speed a e v tv dt = Some b.
Proof.
  intros a e v tv dt T. unfold dynamic_speed. destruct (negb (Reqb LARGE_NUMBER _)); [eexists; reflexivity|].
  destruct (Reqb _ (SIGN e)); [eexists; reflexivity|]. unfold div. replace (Reqb dt 0) with false by (symmetry; apply Reqb_false; lra). eexists; reflexivity.
Qed.

Lemma dynamic_some : forall a d same h v tv dt next, 0 < dt -> 0 <= max_speed (t_limits a) -> SMALL_NUMBER <= v ->
  exists r, dynamic_step a (Some (d, same)) h v tv dt next = Some r.
Proof.
  intros a d same h v tv dt next T M V. unfold dynamic_step, GetDistanceError. set (e := if _ : bool then _ else _).
  destruct (speed_some a e v tv dt T) as (b & B). rewrite B. rewrite root_some; [eexists; reflexivity|].
  pose proof (dynamic_bound _ _ _ _ _ _ T B) as BB. pose proof (limit_speed (t_limits a) v M V) as LV. pose proof small_pos.
  assert (t_vel b * t_vel b <= v * v); [|lra]. replace (t_vel b * t_vel b) with (Rabs (t_vel b) * Rabs (t_vel b)) by (rewrite <- Rabs_mult, Rabs_right; [reflexivity|apply Rle_ge; apply Rle_0_sqr]).
  apply Rmult_le_compat; try apply Rabs_pos; lra.
Qed.

(** Steps of [dt] beside a target with lateral speed [tv], from error [e] at the speed [v]: the lateral speed takes the object across the road. *)
Fixpoint slide (v tv dt : R) (n : nat) (a : lat) (e : R) : option (lat * R) :=
  match n with
  | O => Some (a, e)
  | S n => match dynamic_speed a e v tv dt with Some b => slide v tv dt n b (e - (t_vel b - tv) * dt) | None => None end
  end.

Lemma fast_step : forall a e v dt, 0 < dt -> max_acc (t_limits a) = LARGE_NUMBER -> 0 < lateral_limit (t_limits a) v ->
  exists b, dynamic_speed a e v 0 dt = Some b /\ t_limits b = t_limits a /\ t_continuous b = t_continuous a /\
    let m := lateral_limit (t_limits a) v * dt in
    if Rltb m (Rabs e) then e - (t_vel b - 0) * dt = SIGN e * (Rabs e - m) /\ t_runs b = t_runs a
    else (e - (t_vel b - 0) * dt = 0 /\ (Rabs e < m -> t_runs b = (t_continuous a && t_runs a))).
Proof.
  intros a e v dt T MA LP. unfold dynamic_speed. rewrite MA. replace (Reqb LARGE_NUMBER LARGE_NUMBER) with true by (symmetry; now apply Reqb_true). cbn [negb].
  cbv zeta. set (m := lateral_limit (t_limits a) v) in *. assert (MP : 0 < m * dt) by (apply Rmult_lt_0_compat; lra).
  unfold div. replace (Reqb dt 0) with false by (symmetry; apply Reqb_false; lra).
  destruct (Reqb (SIGN (e - SIGN e * m * dt)) (SIGN e)) eqn:Q.
  - apply Reqb_true in Q. eexists. split; [reflexivity|]. cbn [t_vel t_limits t_continuous t_runs set_motion]. split; [reflexivity|]. split; [reflexivity|].
    rcase.
    + split; [|reflexivity]. rewrite Rmult_minus_distr_l, sign_abs. ring.
    + unfold SIGN in Q. unfold Rabs in E. destruct (Rcase_abs e) as [N|N].
      * replace (Rltb e 0) with true in Q by (symmetry; apply Rltb_true; lra). revert Q. rcase; intros Q; [exfalso; lra|exfalso; lra].
      * replace (Rltb e 0) with false in Q by (symmetry; apply Rltb_false; lra). unfold SIGN. replace (Rltb e 0) with false by (symmetry; apply Rltb_false; lra).
        revert Q. rcase; intros Q; [exfalso; lra|]. split; [lra|]. rewrite Rabs_right by lra. intros; exfalso; lra.
  - apply Reqb_false in Q. eexists. split; [reflexivity|].
    assert (V : e - (e / dt - 0) * dt = 0) by (field; lra).
    change (t_continuous (set_motion a (e / dt) (t_acc a) (t_spring a))) with (t_continuous a).
    destruct (t_continuous a) eqn:TC; cbn [t_vel t_limits t_continuous t_runs set_motion set_running]; rewrite ?TC; (split; [reflexivity|]); (split; [reflexivity|]).
    + rcase; [exfalso|split; [exact V|cbn; auto]]. apply Q. unfold SIGN. unfold Rabs in E. destruct (Rcase_abs e) as [N|N].
      * replace (Rltb e 0) with true by (symmetry; apply Rltb_true; lra). rcase; lra.
      * replace (Rltb e 0) with false by (symmetry; apply Rltb_false; lra). rcase; lra.
    + rcase; [exfalso|split; [exact V|cbn; auto]]. apply Q. unfold SIGN. unfold Rabs in E. destruct (Rcase_abs e) as [N|N].
      * replace (Rltb e 0) with true by (symmetry; apply Rltb_true; lra). rcase; lra.
      * replace (Rltb e 0) with false by (symmetry; apply Rltb_false; lra). rcase; lra.
Qed.

(** Without a limit of the acceleration: straight towards the wanted distance, there after as many steps as it takes, and not past it. *)
Lemma fast_run : forall n a e v dt, 0 < dt -> max_acc (t_limits a) = LARGE_NUMBER -> 0 < lateral_limit (t_limits a) v ->
  exists b e', slide v 0 dt n a e = Some (b, e') /\ e' = SIGN e * Rmax 0 (Rabs e - INR n * (lateral_limit (t_limits a) v * dt)).
Proof.
  induction n as [|n IH]; intros a e v dt T MA LP.
  - exists a, e. cbn [slide INR]. split; [reflexivity|]. rewrite Rmult_0_l, Rminus_0_r, Rmax_right by apply Rabs_pos. now rewrite sign_abs.
  - destruct (fast_step a e v dt T MA LP) as (b & B & LB & _ & H). cbn [slide]. rewrite B. cbv zeta in H.
    set (m := lateral_limit (t_limits a) v) in *. assert (MP : 0 < m * dt) by (apply Rmult_lt_0_compat; lra).
    destruct (IH b (e - (t_vel b - 0) * dt) v dt T) as (c & e' & C & E'); [congruence|rewrite LB; auto|]. exists c, e'. split; [exact C|]. rewrite E'. rewrite LB. fold m.
    revert H. rcase; intros H.
    + destruct H as (H & _). rewrite H.
      assert (SG : SIGN (SIGN e * (Rabs e - m * dt)) = SIGN e).
      { unfold SIGN. destruct (Rltb e 0); rcase; lra. }
      rewrite SG. f_equal. rewrite Rabs_mult, sign_abs1, (Rabs_right (Rabs e - m * dt)) by lra. rewrite S_INR. f_equal. ring.
    + destruct H as (-> & _). rewrite Rabs_R0. rewrite !Rmax_left; [lra| |].
      * rewrite S_INR. pose proof (pos_INR n). assert (0 <= INR n * (m * dt)) by (apply Rmult_le_pos; lra). lra.
      * pose proof (pos_INR n). assert (0 <= INR n * (m * dt)) by (apply Rmult_le_pos; lra). lra.
Qed.

Section GLIDE.
Variables (L : limits) (v tv dt r sg : R).
Hypothesis MP : 0 < max_acc L < LARGE_NUMBER.
Hypothesis T : 0 < dt.
Hypothesis RA : 2 * max_acc L <= max_acc_rate L * dt.
Hypothesis R0 : 0 < r.
Hypothesis RR : r * r = 4 / 10 * max_acc L.
Hypothesis W : r * dt <= 1 / 2.
Hypothesis SG : sg = 1 \/ sg = -1.

(** On one side of the wanted distance and closing in slowly enough. *)
Definition gliding (a : lat) (e : R) : Prop :=
  t_limits a = L /\ s_t (t_spring a) = 4 / 10 * max_acc L /\ s_d (t_spring a) = 2 * r /\ s_x0 (t_spring a) = 0 /\ - max_acc L <= t_acc a <= max_acc L /\
  0 <= sg * e /\ 0 <= sg * (t_vel a - tv) <= r * (sg * e) /\ r * r * (sg * e) <= max_acc L /\ Rabs tv + r * (sg * e) <= lateral_limit L v.

Lemma gliding_step : forall a e, gliding a e -> exists b, dynamic_speed a e v tv dt = Some b /\ gliding b (e - (t_vel b - tv) * dt) /\
  t_continuous b = t_continuous a /\ t_runs b = t_runs a && negb (negb (t_continuous a) && Rltb (Rabs e) LATERAL_DISTANCE_THRESHOLD) /\
  (1 - r * dt) * (sg * e) <= sg * (e - (t_vel b - tv) * dt) <= (1 - (r * dt) * (r * dt)) * (sg * e).
Proof.
  intros a e (LA & ST & SD & SX & AC & E0 & CL & B1 & B3).
  destruct (approach r dt (sg * e) (sg * (t_vel a - tv)) R0 T W E0 CL) as (SC & EC & ACC).
  assert (EQ : sg * e * (r * r) - sg * (t_vel a - tv) * (2 * r) = sg * (e * (r * r) - (t_vel a - tv) * (2 * r))) by ring. rewrite EQ in *.
  set (acc := e * (r * r) - (t_vel a - tv) * (2 * r)) in *.
  assert (AB : - max_acc L <= acc <= max_acc L) by (destruct SG as [G|G]; rewrite G in *; lra).
  set (s := SpringUpdate (SetV (SetValue (t_spring a) (- e)) (t_vel a - tv)) dt).
  assert (SA : s_a s = acc).
  { unfold s, SpringUpdate, SetV, SetValue. cbn [s_a s_t s_x s_x0 s_d s_v]. rewrite ST, SD, SX, <- RR. unfold acc. ring. }
  set (v1 := t_vel a + acc * dt).
  assert (VB : Rabs v1 <= Rabs (lateral_limit L v)).
  { assert (S : 0 <= sg * (v1 - tv) <= r * (sg * e)).
    { destruct SC as (SC0 & SC1). replace (sg * (v1 - tv)) with (sg * (t_vel a - tv) + sg * acc * dt) by (unfold v1; ring). split; [lra|].
      eapply Rle_trans; [exact SC1|]. apply Rmult_le_compat_l; [lra|]. destruct EC as (_ & EC). eapply Rle_trans; [exact EC|].
      assert (0 <= r * dt * (r * dt)) by (apply Rmult_le_pos; apply Rmult_le_pos; lra).
      assert (0 <= r * dt * (r * dt) * (sg * e)) by (apply Rmult_le_pos; lra). lra. }
    eapply Rle_trans; [|apply Rle_abs]. apply Rabs_le. pose proof (Rle_abs tv). pose proof (Rle_abs (- tv)). rewrite Rabs_Ropp in *.
    destruct SG as [G|G]; rewrite G in *; lra. }
  assert (DA : CLAMP (t_acc a + CLAMP (s_a s - t_acc a) (- (max_acc_rate L * dt)) (max_acc_rate L * dt)) (- max_acc L) (max_acc L) = acc).
  { rewrite SA. rewrite (clamp_id (acc - t_acc a)) by lra. replace (t_acc a + (acc - t_acc a)) with acc by ring. apply clamp_id. lra. }
  unfold dynamic_speed. rewrite LA. replace (Reqb LARGE_NUMBER (max_acc L)) with false by (symmetry; apply Reqb_false; lra). cbn [negb]. cbv zeta. fold s.
  rewrite DA. fold v1. rewrite (abs_limit_id v1 _ VB). set (c := set_motion a v1 acc s). eexists. split; [reflexivity|].
  assert (CC : t_continuous c = t_continuous a) by reflexivity. rewrite CC.
  set (stop := negb (t_continuous a) && Rltb (Rabs e) LATERAL_DISTANCE_THRESHOLD). set (b := if stop then set_running (set_move c INIT) false else c).
  assert (BV : t_vel b = v1) by (unfold b; destruct stop; reflexivity).
  assert (BL : t_limits b = L) by (unfold b; destruct stop; exact LA).
  assert (BS : t_spring b = s) by (unfold b; destruct stop; reflexivity).
  assert (BA : t_acc b = acc) by (unfold b; destruct stop; reflexivity).
  assert (EE : sg * (e - (v1 - tv) * dt) = sg * e - (sg * (t_vel a - tv) + sg * acc * dt) * dt) by (unfold v1; ring).
  assert (SE : sg * (v1 - tv) = sg * (t_vel a - tv) + sg * acc * dt) by (unfold v1; ring).
  assert (WP : 0 <= r * dt * (r * dt)) by (apply Rmult_le_pos; apply Rmult_le_pos; lra).
  assert (WE : 0 <= r * dt * (r * dt) * (sg * e)) by (apply Rmult_le_pos; lra).
  assert (LE : sg * (e - (v1 - tv) * dt) <= sg * e) by (rewrite EE; lra).
  assert (LO : 0 <= sg * (e - (v1 - tv) * dt)).
  { rewrite EE. eapply Rle_trans; [|exact (proj1 EC)]. apply Rmult_le_pos; lra. }
  assert (RR0 : 0 <= r * r) by (apply Rmult_le_pos; lra).
  assert (M1 : r * r * (sg * (e - (v1 - tv) * dt)) <= r * r * (sg * e)) by (apply Rmult_le_compat_l; lra).
  assert (M2 : r * (sg * (e - (v1 - tv) * dt)) <= r * (sg * e)) by (apply Rmult_le_compat_l; lra).
  split; [|split; [unfold b; destruct stop; reflexivity|split; [unfold b; destruct stop; cbn; [now rewrite andb_false_r|now rewrite andb_true_r]|rewrite BV, EE; lra]]].
  unfold gliding. rewrite BL, BS, BA, BV. split; [reflexivity|].
  split; [exact ST|]. split; [exact SD|]. split; [exact SX|]. split; [lra|]. split; [exact LO|]. split; [rewrite SE, EE; lra|]. split; lra.
Qed.

Lemma gliding_run : forall n a e, gliding a e -> exists b e', slide v tv dt n a e = Some (b, e') /\ gliding b e' /\
  (1 - r * dt) ^ n * (sg * e) <= sg * e' <= (1 - (r * dt) * (r * dt)) ^ n * (sg * e).
Proof.
  induction n as [|n IH]; intros a e G.
  - exists a, e. cbn [slide pow]. split; [reflexivity|]. split; [exact G|lra].
  - destruct (gliding_step a e G) as (b & ST & G' & _ & _ & LO & HI). cbn [slide]. rewrite ST.
    destruct (IH b _ G') as (b2 & e2 & K & G2 & LO2 & HI2). exists b2, e2. split; [exact K|]. split; [exact G2|]. cbn [pow].
    set (e1 := e - (t_vel b - tv) * dt) in *.
    assert (WP : 0 <= r * dt) by (apply Rmult_le_pos; lra). assert (WW : r * dt * (r * dt) <= r * dt * (1 / 2)) by (apply Rmult_le_compat_l; lra).
    assert (0 <= (1 - r * dt) ^ n) by (apply pow_le; lra). assert (0 <= (1 - r * dt * (r * dt)) ^ n) by (apply pow_le; lra).
    assert ((1 - r * dt) ^ n * ((1 - r * dt) * (sg * e)) <= (1 - r * dt) ^ n * (sg * e1)) by (apply Rmult_le_compat_l; lra).
    assert ((1 - r * dt * (r * dt)) ^ n * (sg * e1) <= (1 - r * dt * (r * dt)) ^ n * ((1 - r * dt * (r * dt)) * (sg * e))) by (apply Rmult_le_compat_l; lra).
    split; lra.
Qed.
End GLIDE.

(** ** Relative to the target entity *)

(** How far to the left of the target a point is. *)
Definition left_of (tx ty th x y : R) : R := - (x - tx) * sin th + (y - ty) * cos th.

Lemma unit_vector : forall th, cos th * cos th + sin th * sin th = 1.
Proof. intros. pose proof (sin2cos2 th). lra. Qed.

Lemma aim_point : forall x y tx ty th d,
  ProjectPointOnLine2D x y (tx + (0 * cos th - d * sin th)) (ty + (0 * sin th + d * cos th)) (tx + (0 * cos th - d * sin th) + (1 * cos th - 0 * sin th))
    (ty + (0 * sin th + d * cos th) + (1 * sin th + 0 * cos th)) =
  (true, x - (d - left_of tx ty th x y) * sin th, y + (d - left_of tx ty th x y) * cos th).
Proof.
  intros. pose proof (unit_vector th) as U. pose proof small_pos as SP. unfold ProjectPointOnLine2D.
  replace (tx + (0 * cos th - d * sin th) + (1 * cos th - 0 * sin th) - (tx + (0 * cos th - d * sin th))) with (cos th) by ring.
  replace (ty + (0 * sin th + d * cos th) + (1 * sin th + 0 * cos th) - (ty + (0 * sin th + d * cos th))) with (sin th) by ring.
  replace (Rltb (Rabs (cos th)) SMALL_NUMBER && Rltb (Rabs (sin th)) SMALL_NUMBER) with false.
  - replace (sin th * sin th + cos th * cos th) with 1 by lra. unfold Rdiv. rewrite Rinv_1, Rmult_1_r.
    replace (sin th * (x - (tx + (0 * cos th - d * sin th))) - cos th * (y - (ty + (0 * sin th + d * cos th)))) with (d - left_of tx ty th x y).
    + reflexivity.
    + unfold left_of. replace d with (d * (cos th * cos th + sin th * sin th)) at 1 by (rewrite U; ring). ring.
  - symmetry. destruct (Rltb (Rabs (cos th)) SMALL_NUMBER) eqn:E; [|reflexivity]. destruct (Rltb (Rabs (sin th)) SMALL_NUMBER) eqn:F; [|reflexivity]. exfalso.
    apply Rltb_true in E, F. assert (SB : SMALL_NUMBER <= 1 / 2) by (unfold SMALL_NUMBER; lra).
    apply Rabs_def2 in E, F. assert (cos th * cos th < 1 / 2) by nra. assert (sin th * sin th < 1 / 2) by nra. lra.
Qed.

Lemma aim_length : forall g th, GetLengthOfVector2D (- (g * sin th)) (g * cos th) = Rabs g.
Proof.
  intros. unfold GetLengthOfVector2D. replace (- (g * sin th) * - (g * sin th) + g * cos th * (g * cos th)) with (g * g * (cos th * cos th + sin th * sin th)) by ring.
  rewrite unit_vector, Rmult_1_r. replace (g * g) with (Rsqr g) by reflexivity. apply sqrt_Rsqr_abs.
Qed.

Lemma left_moved : forall tx ty th x y s g, left_of tx ty th (x - g * sin th + cos th * s) (y + g * cos th + sin th * s) = left_of tx ty th x y + g.
Proof.
  intros. unfold left_of. replace g with (g * (cos th * cos th + sin th * sin th)) at 3 by (rewrite unit_vector; ring). ring.
Qed.

Definition sq (x y : R) : R := x * x + y * y.

(** Half a turn is more than any allowed change of heading. *)
Lemma limit_le : forall x y, 0 <= y -> Rabs (ABS_LIMIT x y) <= y.
Proof. intros x y H. eapply Rle_trans; [apply abs_limit_bound|]. rewrite Rabs_right; lra. Qed.

Lemma entity_unfold : forall a x y h v tx ty th dt, let g := t_distance a - left_of tx ty th x y in let L := t_limits a in
  entity_step a x y h v tx ty th dt =
  if negb (Rltb (max_acc L) LARGE_NUMBER) then
    Some (if Rltb (Rabs g) (Rabs v * dt) then (x - g * sin th + cos th * (Rabs v * dt - Rabs g), y + g * cos th + sin th * (Rabs v * dt - Rabs g), th)
          else (x - g * sin th, y + g * cos th, th))
  else if Rltb (Rabs g) SMALL_NUMBER then Some (x + cos th * (v * dt), y + sin th * (v * dt), th)
  else entity_step a x y h v tx ty th dt.
Proof.
  intros a x y h v tx ty th dt g L. unfold entity_step. unfold RotateVec2D. cbv beta iota zeta. rewrite aim_point. fold g. fold L.
  replace (x - g * sin th - x) with (- (g * sin th)) by ring. replace (y + g * cos th - y) with (g * cos th) by ring. rewrite aim_length.
  replace (1 * cos th - 0 * sin th) with (cos th) by ring. replace (1 * sin th + 0 * cos th) with (sin th) by ring.
  destruct (negb (Rltb (max_acc L) LARGE_NUMBER)).
  - destruct (Rltb (Rabs g) (Rabs v * dt)); reflexivity.
  - destruct (Rltb (Rabs g) SMALL_NUMBER); reflexivity.
Qed.

(** Without a limit of the acceleration the object is at the wanted distance after one step, heading as the target does. *)
Lemma entity_instant : forall a x y h v tx ty th dt, LARGE_NUMBER <= max_acc (t_limits a) ->
  exists nx ny, entity_step a x y h v tx ty th dt = Some (nx, ny, th) /\ left_of tx ty th nx ny = t_distance a /\
    (Rabs (t_distance a - left_of tx ty th x y) <= Rabs v * dt -> sq (nx - x) (ny - y) <= Rabs v * dt * (Rabs v * dt)).
Proof.
  intros a x y h v tx ty th dt M. rewrite entity_unfold. replace (Rltb (max_acc (t_limits a)) LARGE_NUMBER) with false by (symmetry; now apply Rltb_false). cbn [negb].
  set (g := t_distance a - left_of tx ty th x y). rcase.
  - eexists. eexists. split; [reflexivity|]. split; [rewrite left_moved; unfold g; ring|]. intros _. unfold sq. set (s := Rabs v * dt - Rabs g).
    replace (x - g * sin th + cos th * s - x) with (cos th * s - g * sin th) by ring. replace (y + g * cos th + sin th * s - y) with (sin th * s + g * cos th) by ring.
    replace ((cos th * s - g * sin th) * (cos th * s - g * sin th) + (sin th * s + g * cos th) * (sin th * s + g * cos th))
      with ((s * s + g * g) * (cos th * cos th + sin th * sin th)) by ring. rewrite unit_vector, Rmult_1_r.
    replace (g * g) with (Rabs g * Rabs g) by (rewrite <- Rabs_mult, Rabs_right; [reflexivity|apply Rle_ge; apply Rle_0_sqr]).
    replace (Rabs v * dt) with (s + Rabs g) by (unfold s; ring). pose proof (Rabs_pos g). assert (0 <= s) by (unfold s; lra).
    assert (0 <= s * Rabs g) by (apply Rmult_le_pos; lra). replace ((s + Rabs g) * (s + Rabs g)) with (s * s + Rabs g * Rabs g + 2 * (s * Rabs g)) by ring. lra.
  - exists (x - g * sin th), (y + g * cos th). split; [reflexivity|]. split.
    + replace (x - g * sin th) with (x - g * sin th + cos th * 0) by ring. replace (y + g * cos th) with (y + g * cos th + sin th * 0) by ring.
      rewrite left_moved. unfold g. ring.
    + intros H. assert (EQ : Rabs g = Rabs v * dt) by lra. rewrite <- EQ. unfold sq. replace (x - g * sin th - x) with (- (g * sin th)) by ring. replace (y + g * cos th - y) with (g * cos th) by ring.
      replace (- (g * sin th) * - (g * sin th) + g * cos th * (g * cos th)) with (g * g * (cos th * cos th + sin th * sin th)) by ring. rewrite unit_vector, Rmult_1_r.
      rewrite <- Rabs_mult, Rabs_right; [lra|apply Rle_ge; apply Rle_0_sqr].
Qed.

Lemma circle_at : forall x y tx ty th d s, let g := d - left_of tx ty th x y in SMALL_NUMBER <= 4 * (s * s - g * g) ->
  exists x0 y0 x1 y1, GetIntersectionsOfLineAndCircle (tx + (0 * cos th - d * sin th)) (ty + (0 * sin th + d * cos th))
    (tx + (0 * cos th - d * sin th) + cos th) (ty + (0 * sin th + d * cos th) + sin th) x y s = Some (TwoHits (x0, y0) (x1, y1)) /\
  left_of tx ty th x0 y0 = d /\ left_of tx ty th x1 y1 = d /\ sq (x0 - x) (y0 - y) = s * s /\ sq (x1 - x) (y1 - y) = s * s.
Proof.
  intros x y tx ty th d s g H. pose proof (unit_vector th) as U. pose proof small_pos as SP.
  pose proof (circle_hits_spec (tx + (0 * cos th - d * sin th)) (ty + (0 * sin th + d * cos th)) (tx + (0 * cos th - d * sin th) + cos th) (ty + (0 * sin th + d * cos th) + sin th) x y s) as S.
  unfold GetIntersectionsOfLineAndCircle in *.
  set (p0x := tx + (0 * cos th - d * sin th)) in *. set (p0y := ty + (0 * sin th + d * cos th)) in *.
  replace (p0x + cos th - p0x) with (cos th) in * by ring. replace (p0y + sin th - p0y) with (sin th) in * by ring. rewrite U in *.
  set (D := 2 * (cos th * (p0x - x) + sin th * (p0y - y)) * (2 * (cos th * (p0x - x) + sin th * (p0y - y))) - 4 * 1 * ((p0x - x) * (p0x - x) + (p0y - y) * (p0y - y) - s * s)) in *.
  assert (DE : D = 4 * (s * s - g * g)).
  { assert (G : g = sin th * (x - p0x) - cos th * (y - p0y)).
    { unfold g, left_of, p0x, p0y. replace d with (d * (cos th * cos th + sin th * sin th)) at 1 by (rewrite U; ring). ring. }
    assert (Q : (p0x - x) * (p0x - x) + (p0y - y) * (p0y - y) =
      (cos th * (p0x - x) + sin th * (p0y - y)) * (cos th * (p0x - x) + sin th * (p0y - y)) + g * g).
    { rewrite G. replace ((p0x - x) * (p0x - x) + (p0y - y) * (p0y - y)) with (((p0x - x) * (p0x - x) + (p0y - y) * (p0y - y)) * (cos th * cos th + sin th * sin th)) by (rewrite U; ring). ring. }
    unfold D. rewrite Q. ring. }
  specialize (S ltac:(lra)).
  replace (Rltb D (- SMALL_NUMBER)) with false in * by (symmetry; apply Rltb_false; lra).
  replace (Reqb 1 0) with false in * by (symmetry; apply Reqb_false; lra).
  replace (Rltb (Rabs (D - 0)) SMALL_NUMBER) with false in * by (symmetry; apply Rltb_false; rewrite Rminus_0_r, Rabs_right; lra).
  replace (Rltb D 0) with false in * by (symmetry; apply Rltb_false; lra). cbv zeta in *.
  match goal with |- context [TwoHits (?a, ?b) (?c, ?e)] => exists a, b, c, e end. split; [reflexivity|]. destruct S as (_ & S).
  match type of S with forall u v, _ <-> (u, v) = (?a, ?b) \/ (u, v) = (?c, ?e) =>
    pose proof (proj2 (S a b) (or_introl eq_refl)) as (L0 & C0); pose proof (proj2 (S c e) (or_intror eq_refl)) as (L1 & C1) end.
  assert (LL : forall t, left_of tx ty th (p0x + t * cos th) (p0y + t * sin th) = d).
  { intros t. unfold left_of, p0x, p0y. replace d with (d * (cos th * cos th + sin th * sin th)) at 3 by (rewrite U; ring). ring. }
  split; [apply LL|]. split; [apply LL|]. unfold sq. unfold on_circle in C0, C1. split; lra.
Qed.

(** With a limit: the object moves by its speed, and it turns by no more than is allowed or goes to the line at the wanted distance. *)
Lemma entity_turn : forall a x y h v tx ty th dt, 0 < max_acc (t_limits a) < LARGE_NUMBER -> 0 <= v -> 0 <= dt ->
  exists nx ny nh, entity_step a x y h v tx ty th dt = Some (nx, ny, nh) /\ sq (nx - x) (ny - y) = v * dt * (v * dt) /\
    (Rabs (t_distance a - left_of tx ty th x y) < SMALL_NUMBER -> nh = th /\ left_of tx ty th nx ny = left_of tx ty th x y) /\
    (left_of tx ty th nx ny = t_distance a \/ nh = th \/
     (nx = x + cos nh * (v * dt) /\ ny = y + sin nh * (v * dt) /\ exists dh, same_angle nh (h + dh) /\
        Rabs dh <= Rmin (PI - SMALL_NUMBER) (3 / 2 * (v / Rmax (1 / 2) (3 / 2 * (v * v) / Rmin (max_acc (t_limits a)) 1000)) * dt))).
Proof.
  intros a x y h v tx ty th dt M V T. pose proof small_pos as SP. pose proof (unit_vector th) as U. pose proof PI_RGT_0 as PP.
  destruct (Rlt_dec (Rabs (t_distance a - left_of tx ty th x y)) SMALL_NUMBER) as [C|C].
  { rewrite entity_unfold. replace (Rltb (max_acc (t_limits a)) LARGE_NUMBER) with true by (symmetry; now apply Rltb_true). cbn [negb].
    replace (Rltb (Rabs _) SMALL_NUMBER) with true by (symmetry; now apply Rltb_true). eexists. eexists. eexists. split; [reflexivity|]. split.
    - unfold sq. replace (x + cos th * (v * dt) - x) with (cos th * (v * dt)) by ring. replace (y + sin th * (v * dt) - y) with (sin th * (v * dt)) by ring.
      replace (cos th * (v * dt) * (cos th * (v * dt)) + sin th * (v * dt) * (sin th * (v * dt))) with (v * dt * (v * dt) * (cos th * cos th + sin th * sin th)) by ring. rewrite U. ring.
    - split; [|right; left; reflexivity]. intros _. split; [reflexivity|]. unfold left_of. ring. }
  unfold entity_step. unfold RotateVec2D. cbv beta iota zeta. rewrite aim_point. set (g := t_distance a - left_of tx ty th x y) in *. set (L := t_limits a) in *.
  replace (x - g * sin th - x) with (- (g * sin th)) by ring. replace (y + g * cos th - y) with (g * cos th) by ring. rewrite aim_length.
  replace (1 * cos th - 0 * sin th) with (cos th) by ring. replace (1 * sin th + 0 * cos th) with (sin th) by ring.
  replace (Rltb (max_acc L) LARGE_NUMBER) with true by (symmetry; now apply Rltb_true). cbn [negb].
  replace (Rltb (Rabs g) SMALL_NUMBER) with false by (symmetry; apply Rltb_false; lra).
  rewrite (Rabs_right (max_acc L)) by lra.
  assert (MN : RMIN (max_acc L) 1000 = Rmin (max_acc L) 1000) by (unfold RMIN, Rmin; rcase; destruct (Rle_dec (max_acc L) 1000); lra). rewrite MN.
  assert (MNP : 0 < Rmin (max_acc L) 1000) by (apply Rmin_glb_lt; lra).
  unfold div. replace (Reqb (Rmin (max_acc L) 1000) 0) with false by (symmetry; apply Reqb_false; lra).
  assert (MX : RMAX (1 / 2) (3 / 2 * (v * v) / Rmin (max_acc L) 1000) = Rmax (1 / 2) (3 / 2 * (v * v) / Rmin (max_acc L) 1000))
    by (unfold RMAX, Rmax; rcase; destruct (Rle_dec (1 / 2) (3 / 2 * (v * v) / Rmin (max_acc L) 1000)); lra). rewrite MX.
  set (tr := Rmax (1 / 2) (3 / 2 * (v * v) / Rmin (max_acc L) 1000)). assert (TR : 1 / 2 <= tr) by apply Rmax_l.
  destruct (Rltb (Rabs g) (v * dt / 2 - SMALL_NUMBER) && Rltb (tr - SMALL_NUMBER) (v * dt / 2)) eqn:Q.
  - apply andb_true_iff in Q. destruct Q as (Q1 & Q2). apply Rltb_true in Q1, Q2.
    destruct (circle_at x y tx ty th (t_distance a) (v * dt)) as (x0 & y0 & x1 & y1 & H & L0 & L1 & S0 & S1).
    { fold g. assert (SM : SMALL_NUMBER < 1 / 4) by (unfold SMALL_NUMBER; lra).
      assert (G2 : g * g = Rabs g * Rabs g) by (rewrite <- Rabs_mult, Rabs_right; [reflexivity|apply Rle_ge; apply Rle_0_sqr]). rewrite G2.
      pose proof (Rabs_pos g). set (k := v * dt) in *. set (z := Rabs g) in *. assert (1 / 2 <= k) by lra. assert (z <= k / 2) by lra.
      assert (z * z <= k / 2 * (k / 2)) by (apply Rmult_le_compat; lra). assert (1 / 2 * (1 / 2) <= k * k) by (apply Rmult_le_compat; lra). lra. }
    rewrite H. destruct (Rltb _ _); eexists; eexists; eexists; (split; [reflexivity|]); (split; [assumption|]); (split; [intros; lra|]); left; assumption.
  - eexists. eexists. eexists. split; [reflexivity|]. split; [|split; [intros; lra|]].
    + match goal with |- context [cos ?nh * (v * dt)] => set (n := nh) end. unfold sq.
      replace (x + cos n * (v * dt) - x) with (cos n * (v * dt)) by ring. replace (y + sin n * (v * dt) - y) with (sin n * (v * dt)) by ring.
      replace (cos n * (v * dt) * (cos n * (v * dt)) + sin n * (v * dt) * (sin n * (v * dt))) with (v * dt * (v * dt) * (cos n * cos n + sin n * sin n)) by ring. rewrite unit_vector. ring.
    + right. right. split; [reflexivity|]. split; [reflexivity|]. eexists. split; [apply (proj2 (interval2pi _))|].
      assert (VT : 0 <= v / tr * dt).
      { apply Rmult_le_pos; [|lra]. apply Rmult_le_pos; [lra|]. apply Rlt_le. apply Rinv_0_lt_compat. lra. }
      rewrite (Rabs_right (v / tr * dt)) by lra.
      assert (DM : RMIN (v / tr * dt * (3 / 2)) (PI - SMALL_NUMBER) = Rmin (PI - SMALL_NUMBER) (3 / 2 * (v / tr) * dt)).
      { unfold RMIN, Rmin. rcase; destruct (Rle_dec (PI - SMALL_NUMBER) (3 / 2 * (v / tr) * dt)); lra. }
      rewrite DM. assert (PS : SMALL_NUMBER < PI) by (pose proof PI2_1; unfold SMALL_NUMBER; lra).
      assert (D0 : 0 <= Rmin (PI - SMALL_NUMBER) (3 / 2 * (v / tr) * dt)) by (apply Rmin_glb; lra).
      match goal with |- Rabs (if ?c then _ else _) <= _ => destruct c end; apply limit_le; exact D0.
Qed.
