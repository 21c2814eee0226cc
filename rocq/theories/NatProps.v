(** * C59: the natural driver *)
From Coq Require Import Reals Bool List ZArith NArith Lra Lia Psatz.
From Verif Require Import AngModel GeoModel BoxProofs GapModel GapProofs CacheModel CacheProofs NatModel NatProofs.
Import ListNotations.
Open Scope R_scope.

(** ** Vehicles around *)

(** Of the vehicles in range every vehicle of interest is the nearest ahead or behind in its lane, missing only if there is none. *)
Theorem C59_closest v self k : closest_of v self k (v_near v) (UpdateSurroundingVehicles v self k).
Proof. apply slots_closest. Qed.

(** The vehicles in range are those whose distance is measured in this step and not beyond the lookahead distance. *)
Theorem C59_seen lookahead c w self objs o : int32 self -> (forall x, In x objs -> int32 x) -> NoDup objs ->
  In o (snd (FilterSurroundingVehicles lookahead c w self objs)) <->
  In o objs /\ o <> self /\ measured c w self o /\ - lookahead <= s_dist w self o REL_DIST_EUCLIDIAN <= lookahead.
Proof. apply filter_seen. Qed.

(** ** Free space *)

(** Between vehicles heading the same way free space ahead is from the own front to the rear of the other, not less than 0. *)
Theorem C59_freespace v a b ds : v_same_way v a b = true -> 0 < ds ->
  let front := v_cx v a + v_len v a / 2 in let rear := ds + v_cx v b - v_len v b / 2 in EstimateFreespace v a b ds = Rmax 0 (rear - front).
Proof.
  intros S D. cbv zeta. unfold EstimateFreespace. rewrite S. destruct (Rltb_spec 0 ds); [|lra]. cbv zeta. match goal with |- context [Rltb ?x 0] => destruct (Rltb_spec x 0) end; [rewrite Rmax_left; lra|rewrite Rmax_right; lra].
Qed.

(** Behind it is from the own rear to the front of the other only for boxes equally centred. *)
Theorem C59_freespace_behind v a b ds : v_same_way v a b = true -> ds <= 0 -> v_cx v a = v_cx v b ->
  let rear := v_cx v a - v_len v a / 2 in let front := ds + v_cx v b + v_len v b / 2 in EstimateFreespace v a b ds = - Rmax 0 (rear - front).
Proof.
  intros S D C. cbv zeta. unfold EstimateFreespace. rewrite S. destruct (Rltb_spec 0 ds); [lra|]. cbv zeta. rewrite C. match goal with |- context [Rltb 0 ?x] => destruct (Rltb_spec 0 x) end; [rewrite Rmax_left; lra|rewrite Rmax_right; lra].
Qed.

Theorem C59_freespace_behind_refuted : exists v a b ds, v_same_way v a b = true /\ ds <= 0 /\ EstimateFreespace v a b ds = -7 /\
  (let rear := v_cx v a - v_len v a / 2 in let front := ds + v_cx v b + v_len v b / 2 in rear - front = 1).
Proof.
  exists (View (fun _ => 0) (fun _ => 0%Z) (fun _ _ _ => (0%Z, 0)) (fun _ _ => true) (fun o => if (o =? 1)%Z then 4 else 12) (fun o => if (o =? 1)%Z then 1 else 4) (fun _ => None) 0 (false, (0%Z, 0%Z)) []), 1%Z, 2%Z, (-12).
  cbn [v_same_way v_cx v_len]. cbn [Z.eqb Pos.eqb]. split; [reflexivity|]. split; [lra|]. split; [|cbv zeta; lra]. unfold EstimateFreespace. cbn [v_same_way v_cx v_len]. cbn [Z.eqb Pos.eqb].
  destruct (Rltb_spec 0 (-12)); [lra|]. cbv zeta. destruct (Rltb_spec 0 (-12 + (4 / 2 + 1 + (12 / 2 - 4)))); lra.
Qed.

(** ** Acceleration *)

(** The gap wanted is never less than the distance wanted; behind a vehicle not slower it is at most the headway more. *)
Theorem C59_gap p a b : desired_distance p <= GetDesiredGap p a b /\
  (0 <= a <= b -> 0 <= desired_thw p -> GetDesiredGap p a b <= desired_distance p + a * desired_thw p).
Proof.
  split; [apply gap_least|]. intros H T. unfold GetDesiredGap. destruct (Rltb_spec (- max_acceleration p * max_deceleration p) 0); [nra|].
  set (q := 2 * sqrt (- max_acceleration p * max_deceleration p)). assert (Q: 0 <= / q). { subst q. pose proof (sqrt_pos (- max_acceleration p * max_deceleration p)) as SP. destruct (Req_dec (sqrt (- max_acceleration p * max_deceleration p)) 0) as [Z0|Z0]; [rewrite Z0, Rmult_0_r, Rinv_0; lra|]. left. apply Rinv_0_lt_compat. lra. }
  assert (E: 0 <= a * (b - a) * / q) by (apply Rmult_le_pos; [apply Rmult_le_pos; lra|exact Q]). replace (a * (a - b) / q) with (- (a * (b - a) * / q)) by (unfold Rdiv; ring). clearbody q. apply Rplus_le_compat_l. apply Rmax_lub; [nra|lra].
Qed.

(** On a free road the speed goes to the desired speed. *)
Theorem C59_free p v o : 0 < max_acceleration p -> 0 < desired_speed p -> 0 <= v_speed v o ->
  let a := GetAcceleration p v (Some o) None in
  a <= max_acceleration p /\ (0 < a <-> v_speed v o < desired_speed p) /\ (a = 0 <-> v_speed v o = desired_speed p).
Proof.
  intros A D S. cbv zeta. split; [apply acceleration_max; lra|]. cbn [GetAcceleration]. set (x := v_speed v o / desired_speed p).
  assert (X: v_speed v o = x * desired_speed p) by (subst x; field; lra). assert (X0: 0 <= x) by (subst x; apply Rle_mult_inv_pos; assumption).
  assert (F: x ^ 4 - 1 = (x - 1) * ((x + 1) * (x * x + 1))) by ring. assert (P: 0 < (x + 1) * (x * x + 1)) by (apply Rmult_lt_0_compat; nra). set (w := (x + 1) * (x * x + 1)) in *. clearbody w x. rewrite X.
  replace (max_acceleration p * (1 - x ^ 4)) with (- (max_acceleration p * ((x - 1) * w))) by (rewrite <- F; ring).
  split; split; intro H.
  - assert (x < 1); [|nra]. destruct (Rlt_dec x 1) as [|N0]; [assumption|]. assert (0 <= (x - 1) * w) by (apply Rmult_le_pos; lra). nra.
  - assert (x < 1) by nra. assert ((x - 1) * w < 0) by nra. nra.
  - assert (E: (x - 1) * w = 0) by nra. apply Rmult_integral in E. destruct E; [|lra]. replace x with 1 by lra. ring.
  - assert (x = 1) by nra. subst. ring.
Qed.

(** With a vehicle ahead it is less the closer it is, at most that of a free road, and not positive within the gap wanted. *)
Theorem C59_follow p v o l : 0 <= max_acceleration p -> 0 <= desired_distance p ->
  let f := EstimateFreespace v o l (snd (v_delta v o l false)) in
  let a := GetAcceleration p v (Some o) (Some l) in
  a <= GetAcceleration p v (Some o) None /\ (0 < f <= GetDesiredGap p (v_speed v o) (v_speed v l) -> a <= 0).
Proof.
  intros A DD f a. subst a. cbn [GetAcceleration]. fold f. pose proof (fourth_pos (v_speed v o / desired_speed p)) as P4. set (x4 := (v_speed v o / desired_speed p) ^ 4) in *. clearbody x4. split.
  - match goal with |- context [?q ^ 2] => assert (0 <= q ^ 2) by (replace (q ^ 2) with (q * q) by ring; nra) end. nra.
  - intro F. destruct (Reqb_spec f 0); [lra|]. set (g := GetDesiredGap p (v_speed v o) (v_speed v l)) in *. assert (Q: 1 <= g / f). { apply (Rmult_le_reg_r f); [lra|]. unfold Rdiv. rewrite Rmult_assoc, Rinv_l by lra. lra. }
    assert (1 <= (g / f) ^ 2) by (replace ((g / f) ^ 2) with ((g / f) * (g / f)) by ring; nra). nra.
Qed.

Theorem C59_closer p v v' o l : 0 <= max_acceleration p -> 0 <= desired_distance p -> v_speed v o = v_speed v' o -> v_speed v l = v_speed v' l ->
  0 < EstimateFreespace v o l (snd (v_delta v o l false)) <= EstimateFreespace v' o l (snd (v_delta v' o l false)) ->
  GetAcceleration p v (Some o) (Some l) <= GetAcceleration p v' (Some o) (Some l).
Proof.
  intros A DD S1 S2. cbn [GetAcceleration]. rewrite S1, S2. set (f := EstimateFreespace v o l _). set (f' := EstimateFreespace v' o l _). set (g := GetDesiredGap p _ _). intro F.
  assert (G: 0 <= g) by (pose proof (gap_least p (v_speed v' o) (v_speed v' l)); subst g; lra). destruct (Reqb_spec f 0); [lra|]. destruct (Reqb_spec f' 0); [lra|].
  assert (Q: 0 <= g / f' <= g / f). { unfold Rdiv. pose proof (Rinv_0_lt_compat f ltac:(lra)). pose proof (Rinv_0_lt_compat f' ltac:(lra)). assert (/ f' <= / f) by (apply Rinv_le_contravar; lra). split; nra. }
  assert ((g / f') ^ 2 <= (g / f) ^ 2) by (replace ((g / f') ^ 2) with ((g / f') * (g / f')) by ring; replace ((g / f) ^ 2) with ((g / f) * (g / f)) by ring; nra). nra.
Qed.

(** ** Speed *)

(** After any step the speed is between 0 and the desired speed, at every step of a run, and the object moves by it. *)
Theorem C59_speed p self st steps v dt : 0 <= desired_speed p -> 0 <= v_max v ->
  let st' := drive p self st (steps ++ [(v, dt)]) in
  0 <= n_speed st' <= desired_speed p /\
  let r := Step p v self (drive p self st steps) dt in n_speed st' = snd r /\ snd (fst r) = snd r * dt.
Proof.
  intros D M. cbv zeta. assert (E: drive p self st (steps ++ [(v, dt)]) = after p v self (drive p self st steps) dt).
  { revert st. induction steps as [|[w d] r IH]; intro st; cbn; [reflexivity|apply IH]. }
  rewrite E. unfold after. destruct (step_speed p v self (drive p self st steps) dt) as (S1 & S2 & S3). cbv zeta in S1, S2, S3. rewrite S1, S2, S3. split; [apply next_speed_range; assumption|]. split; reflexivity.
Qed.

(** From one step to the next it changes at most by the greatest acceleration and deceleration. *)
Theorem C59_rates p v self st dt : max_deceleration p <= 0 <= max_acceleration p -> 0 <= dt -> 0 <= n_speed st <= desired_speed p -> n_speed st <= v_max v ->
  n_speed st + max_deceleration p * dt <= n_speed (after p v self st dt) <= n_speed st + max_acceleration p * dt.
Proof.
  intros A T S M. unfold after. destruct (step_speed p v self st dt) as (S1 & _ & _). cbv zeta in S1. rewrite S1. clear S1.
  assert (B: max_deceleration p <= (if n_changing st then 0 else Rmax (max_deceleration p) (GetAcceleration p v (Some self) (option_map fst (UpdateSurroundingVehicles v self LEAD)))) <= max_acceleration p).
  { destruct (n_changing st); [lra|]. split; [apply Rmax_l|]. apply Rmax_lub; [lra|]. apply acceleration_max. lra. }
  set (a := if n_changing st then _ else _) in *. clearbody a. unfold next_speed. cbv zeta. assert (max_deceleration p * dt <= a * dt <= max_acceleration p * dt) by (split; apply Rmult_le_compat_r; lra). assert (max_deceleration p * dt <= 0 <= max_acceleration p * dt) by (split; nra).
  destruct (Rltb_spec (n_speed st + a * dt) (desired_speed p)); [|lra]. destruct (Rltb_spec (v_max v) (n_speed st + a * dt)); [lra|]. destruct (Rltb_spec (n_speed st + a * dt) 0); lra.
Qed.

(** The maximum speed of the vehicle is kept if the desired speed is not above or not within reach of one step. *)
Theorem C59_max p v self st dt : max_deceleration p <= 0 <= max_acceleration p -> 0 <= dt -> 0 <= v_max v -> n_speed st <= v_max v ->
  desired_speed p <= v_max v \/ v_max v + max_acceleration p * dt < desired_speed p -> n_speed (after p v self st dt) <= v_max v.
Proof.
  intros A T V M H. unfold after. destruct (step_speed p v self st dt) as (S1 & _ & _). cbv zeta in S1. rewrite S1. clear S1.
  assert (B: (if n_changing st then 0 else Rmax (max_deceleration p) (GetAcceleration p v (Some self) (option_map fst (UpdateSurroundingVehicles v self LEAD)))) <= max_acceleration p).
  { destruct (n_changing st); [lra|]. apply Rmax_lub; [lra|]. apply acceleration_max. lra. }
  set (a := if n_changing st then _ else _) in *. clearbody a. unfold next_speed. cbv zeta. assert (a * dt <= max_acceleration p * dt) by (apply Rmult_le_compat_r; lra).
  destruct (Rltb_spec (n_speed st + a * dt) (desired_speed p)); [|destruct H; lra]. destruct (Rltb_spec (v_max v) (n_speed st + a * dt)); [lra|]. destruct (Rltb_spec (n_speed st + a * dt) 0); lra.
Qed.

(** Scenes for examples: vehicles 1 (the driver) and 2, own speed [s], that of the other [s'], the other [dl] lanes and [ds] away; both boxes 4 m long,
    centred 1 m ahead of the reference point. *)
Definition scene2 (s s' : R) (lane dl : Z) (ds vmax : R) (adj : bool * (Z * Z)) (near : list Z) : view :=
  View (fun o => if (o =? 1)%Z then s else s') (fun o => if (o =? 1)%Z then lane else (lane + dl)%Z) (fun a b _ => if (a =? 1)%Z then (dl, ds) else ((- dl)%Z, - ds)) (fun _ _ => true)
    (fun _ => 4) (fun _ => 1) (fun _ => None) vmax adj near.

(** A driver faster than wanted takes the desired speed, however fast the vehicle can go, and keeps it for ever. *)
Theorem C59_max_refuted steps : let v := scene2 15 0 (-1) 0 0 10 (false, (0%Z, 0%Z)) [] in
  (forall s, In s steps -> fst s = v) -> let p := default_params in n_speed (drive p 1 (Driver 15 false false 4 0 false) steps) = 15 /\ v_max v = 10.
Proof.
  intros v S p. split; [|reflexivity]. set (st := Driver 15 false false 4 0 false). assert (ST: drive p 1 st steps = st); [|rewrite ST; reflexivity].
  induction steps as [|[w dt] r IH]; [reflexivity|]. cbn [drive]. assert (W: w = v) by exact (S (w, dt) (or_introl eq_refl)). subst w. assert (E: after p v 1 st dt = st); [|rewrite E; apply IH; intros s I; apply S; right; exact I].
  unfold after, Step. cbn -[Rltb GetAcceleration next_speed default_params]. unfold st. f_equal. unfold GetAcceleration. cbn [option_map v_speed v scene2]. cbn [Z.eqb Pos.eqb].
  cbn [max_acceleration max_deceleration desired_speed default_params p]. replace (3 * (1 - (15 / 15) ^ 4)) with 0 by field. destruct (Rltb_spec 0 (-3)); [lra|]. unfold next_speed. cbn [desired_speed default_params p]. cbv zeta. destruct (Rltb_spec (15 + 0 * dt) 15); [lra|reflexivity].
Qed.

(** ** Lane changes *)

(** Between two lane changes more time passes than delay and duration. *)
Theorem C59_separate p self st v dt l steps v' dt' l' : ready p st -> 0 <= dt -> (forall s, In s steps -> 0 <= snd s) ->
  action p v self st dt = Some l -> action p v' self (drive p self st ((v, dt) :: steps)) dt' = Some l' ->
  lane_change_delay p + lane_change_duration p < dt + elapsed steps.
Proof.
  intros RD T P A A'. cbn [drive] in A'. pose proof (step_inject p v self st dt RD) as S. rewrite A in S. destruct S as (_ & _ & S). cbv zeta in S.
  pose proof (step_ready p v self st dt RD) as RD1. pose proof (drive_ready p self steps _ RD1) as RD2. pose proof (step_inject p v' self _ dt' RD2) as S2. rewrite A' in S2. destruct S2 as (J & _ & _).
  pose proof (elapsed_pos steps P) as EP. destruct (Rltb_spec (lane_change_delay p + lane_change_duration p - dt) 0) as [L|L]; [lra|]. destruct S as (S1 & S2).
  pose proof (wait p self steps _ RD1 P S1 J) as W. lra.
Qed.

(** A moving driver changes only to a neighbouring lane on offer, in which nobody has to brake hard, and not where another changes to. *)
Theorem C59_target p v self st dt l : ready p st -> 0 < v_speed v self -> action p v self st dt = Some l ->
  let s := UpdateSurroundingVehicles v self in let '(left_lane, right_lane) := snd (v_adjacent v) in
  fst (v_adjacent v) = true /\ l <> 0%Z /\ (l = left_lane \/ l = right_lane) /\ AbortLaneChange p v self l (n_speed st) = false /\
  let '(lead, follow) := if (l =? left_lane)%Z then (LEFT_LEAD, LEFT_FOLLOW) else (RIGHT_LEAD, RIGHT_FOLLOW) in
  let vehicle k := option_map fst (s k) in let acc a b := GetAcceleration p v a b in
  - max_imposed_braking p <= acc (vehicle follow) (Some self) /\
  (l = route p -> - max_imposed_braking p <= acc (Some self) (vehicle lead)) /\
  (l <> route p -> lane_change_acc_gain p < acc (Some self) (vehicle lead) - acc (Some self) (vehicle LEAD)
     + politeness p * (acc (vehicle follow) (Some self) - acc (vehicle follow) (vehicle lead) + acc (vehicle FOLLOWING) (vehicle LEAD) - acc (vehicle FOLLOWING) (Some self))).
Proof.
  intros (I & C) SP A. set (s := UpdateSurroundingVehicles v self). destruct (snd (v_adjacent v)) as [l1 l2] eqn:ADJ.
  assert (K: exists i t c, fst (v_adjacent v) = true /\ try_lanes p v self s l1 [l1; l2] false (n_target st) = (i, t, c) /\ i = true /\ AbortLaneChange p v self t (n_speed st) = false /\ l = t).
  { revert A. unfold action, Step. fold s. rewrite I, ADJ. cbn [fst snd]. destruct (n_changing st).
    - cbn [fst snd]. destruct (if n_injected st then _ else _) as [[[a b] c] d]. discriminate.
    - destruct (n_injected st).
      + cbn [andb]. destruct (Rltb (n_cooldown st - dt) 0); discriminate.
      + destruct (fst (v_adjacent v)); [|discriminate]. destruct (try_lanes p v self s l1 [l1; l2] false (n_target st)) as [[i t] c]. destruct i.
        * destruct (AbortLaneChange p v self t (n_speed st)) eqn:AB.
          -- discriminate.
          -- destruct (if c && _ then _ else _) as [a b]. destruct (Rltb (n_cooldown st - dt) 0); cbn [fst snd]; intro E; injection E as E; exists true, t, c; (repeat split; [exact AB|symmetry; exact E]).
        * discriminate. }
  destruct K as (i & t & c & FA & TL & -> & AB & ->). destruct (try_lanes_spec _ _ _ _ _ _ _ _ _ _ _ TL) as (T1 & T2). destruct c; [|destruct (T2 eq_refl) as (_ & T2'); specialize (T2' SP eq_refl); discriminate].
  destruct (T1 eq_refl) as (_ & NZ & IN & CK & _). split; [exact FA|]. split; [exact NZ|]. split; [cbn in IN; intuition congruence|]. split; [exact AB|].
  unfold CheckLaneChangePossible in CK. destruct (if (t =? l1)%Z then _ else _) as [lead follow]. cbv zeta in CK |- *.
  destruct (Rltb_spec (GetAcceleration p v (option_map fst (s follow)) (Some self)) (- max_imposed_braking p)) as [B|B]; [discriminate|]. split; [lra|]. destruct (Z.eqb_spec t (route p)) as [E|E].
  - split; [|congruence]. intros _. destruct (Rltb_spec (GetAcceleration p v (Some self) (option_map fst (s lead))) (- max_imposed_braking p)); [discriminate|lra].
  - split; [congruence|]. intros _. match type of CK with Rltb ?x ?y = true => destruct (Rltb_spec x y) as [J|J]; [|discriminate] end. unfold SMALL_NUMBER in J. lra.
Qed.

(** A lane change is given up exactly for a vehicle ahead within the gap it wants that changes to the same lane from another. *)
Theorem C59_abort p v self l s : AbortLaneChange p v self l s = true <->
  exists o, In o (v_near v) /\ v_driver v o = Some (true, l) /\ v_lane v o <> v_lane v self /\
    0 <= EstimateFreespace v self o (snd (v_delta v self o true)) < GetDesiredGap p (v_speed v o) s.
Proof.
  unfold AbortLaneChange. rewrite existsb_exists. split.
  - intros (o & I & H). exists o. split; [exact I|]. destruct (v_driver v o) as [[j t]|]; [|discriminate]. cbv zeta in H. rewrite !andb_true_iff in H. destruct H as ((((H1 & H2) & H3) & H4) & H5).
    destruct (Rltb_spec (EstimateFreespace v self o (snd (v_delta v self o true))) 0); [discriminate|]. destruct (Rltb_spec (EstimateFreespace v self o (snd (v_delta v self o true))) (GetDesiredGap p (v_speed v o) s)); [|discriminate].
    apply Z.eqb_eq in H4. apply negb_true_iff, Z.eqb_neq in H5. subst. repeat split; [exact H5|lra|assumption].
  - intros (o & I & D & N0 & H). exists o. split; [exact I|]. rewrite D. cbv zeta. rewrite Z.eqb_refl. destruct (Z.eqb_spec (v_lane v o) (v_lane v self)); [contradiction|].
    destruct (Rltb_spec (EstimateFreespace v self o (snd (v_delta v self o true))) 0); [lra|]. destruct (Rltb_spec (EstimateFreespace v self o (snd (v_delta v self o true))) (GetDesiredGap p (v_speed v o) s)); [|lra]. reflexivity.
Qed.

(** A lane change is over, and the driver attends to the traffic again, as soon as its duration has passed, and not before; then nothing else is started for
    the delay. *)
Theorem C59_over p v self st dt : n_changing st = true -> n_injected st = true -> n_initiate st = false -> let c := n_cooldown st - dt in
  let st' := fst (fst (fst (Step p v self st dt))) in action p v self st dt = None /\
  (c <= lane_change_delay p -> n_changing st' = false /\ n_target st' = 0%Z) /\ (lane_change_delay p < c -> n_changing st' = true /\ n_target st' = n_target st) /\
  (0 <= c -> n_injected st' = true /\ n_cooldown st' = c) /\ (c < 0 -> n_injected st' = false /\ n_cooldown st' = lane_change_delay p + lane_change_duration p).
Proof.
  intros CH IJ IN c st'. unfold st', action, Step. rewrite CH, IJ, IN. cbn [andb]. fold c.
  destruct (Rltb_spec (lane_change_delay p) c); destruct (Rltb_spec c 0);
    cbn; repeat split; try reflexivity; intros; try split; try reflexivity; lra.
Qed.

Example C59_over_ex : exists st, n_changing st = true /\ n_injected st = true /\ n_initiate st = false.
Proof. exists (Driver 10 true true 5 (-1) false). auto. Qed.

(** While changing lanes the speed is kept whatever is ahead. *)
Theorem C59_deaf_refuted p v self st dt : n_changing st = true -> 0 <= n_speed st <= desired_speed p -> n_speed st <= v_max v ->
  n_speed (after p v self st dt) = n_speed st.
Proof.
  intros C S M. unfold after. destruct (step_speed p v self st dt) as (S1 & _ & _). cbv zeta in S1. rewrite S1, C. unfold next_speed. cbv zeta. rewrite Rmult_0_l, Rplus_0_r.
  destruct (Rltb_spec (n_speed st) (desired_speed p)); [|lra]. destruct (Rltb_spec (v_max v) (n_speed st)); [lra|]. destruct (Rltb_spec (n_speed st) 0); [lra|reflexivity].
Qed.

(** A standing driver for whom the last lane on offer is good changes to lane 0, the middle of the road. *)
Theorem C59_standing_refuted dt : let v := scene2 0 0 (-2) 0 0 50 (true, ((-1)%Z, 0%Z)) [] in
  action default_params v 1 (Driver 0 false false 4 0 false) dt = Some 0%Z /\ v_lane v 1 = (-2)%Z.
Proof.
  intro v. split; [|reflexivity]. unfold action, Step. cbn [n_changing n_injected n_initiate n_speed n_cooldown n_target]. change (v_adjacent v) with (true, ((-1)%Z, 0%Z)). cbn [fst snd]. cbn [try_lanes Z.eqb].
  assert (CK: CheckLaneChangePossible default_params v 1 (UpdateSurroundingVehicles v 1) false (-1) (-1) = true).
  { unfold CheckLaneChangePossible. cbn [Z.eqb Pos.eqb UpdateSurroundingVehicles v_near v scene2 fold_left]. cbn [option_map fst route default_params Z.eqb Pos.eqb max_imposed_braking]. cbn [GetAcceleration]. destruct (Rltb_spec 0 (- (3))); [lra|].
    change (v_speed v 1) with 0. change (max_acceleration default_params) with 3. change (desired_speed default_params) with 15. replace ((0 / 15) ^ 4) with 0 by field. destruct (Rltb_spec (3 * (1 - 0)) (- (3))); [lra|]. reflexivity. }
  rewrite CK. change (v_speed v 1) with 0. destruct (Rltb_spec 0 0); [lra|]. cbn [andb]. change (AbortLaneChange default_params v 1 0 0) with false. cbn iota. destruct (Rltb (4 - dt) 0); reflexivity.
Qed.

(** Without a route given, lane -1 is changed to from a free lane although one has to brake hard behind a vehicle there. *)
Theorem C59_route_refuted dt : let v := scene2 15 15 (-2) 1 54 50 (true, ((-1)%Z, 0%Z)) [2%Z] in
  action default_params v 1 (Driver 15 false false 4 0 false) dt = Some (-1)%Z /\
  GetAcceleration default_params v (Some 1%Z) None = 0 /\ GetAcceleration default_params v (Some 1%Z) (Some 2%Z) = -3.
Proof.
  intro v. assert (U: forall k, UpdateSurroundingVehicles v 1 k = match k with LEFT_LEAD => Some (2%Z, 54) | _ => None end).
  { intro k. unfold UpdateSurroundingVehicles. cbn [v_near v scene2 fold_left]. rewrite place_slot. unfold of_lane. cbn [v_delta v scene2 v_lane]. cbn [Z.eqb Pos.eqb fst snd]. change (side (-2)) with 1%Z.
    destruct k; destruct (of_lane_dec v 1 _ 2) as [H|H]; unfold of_lane in H; cbn in H; try lia; cbn [in_front]; unfold pick_ahead, pick_behind; destruct (Rltb_spec 54 0); try lra; reflexivity. }
  assert (A0: GetAcceleration default_params v (Some 1%Z) None = 0).
  { cbn. field. }
  assert (A1: GetAcceleration default_params v (Some 1%Z) (Some 2%Z) = -3).
  { unfold GetAcceleration. cbn [v_speed v_delta v scene2]. cbn [Z.eqb Pos.eqb snd]. assert (F: EstimateFreespace v 1 2 54 = 50).
    { rewrite C59_freespace by (try reflexivity; lra). cbn [v_cx v_len v scene2]. rewrite Rmax_right; lra. }
    fold v. rewrite F. destruct (Reqb_spec 50 0); [lra|]. unfold GetDesiredGap. cbn [max_acceleration max_deceleration desired_distance desired_thw desired_speed default_params]. destruct (Rltb_spec (- (3) * -3) 0); [lra|].
    replace (15 - 15) with 0 by ring. unfold Rdiv at 3. rewrite Rmult_0_r, Rmult_0_l, Rplus_0_r. rewrite Rmax_right by lra. field. }
  split; [|split; assumption]. unfold action, Step. cbn [n_changing n_injected n_initiate n_speed n_cooldown n_target]. change (v_adjacent v) with (true, ((-1)%Z, 0%Z)). cbn [fst snd]. cbn [try_lanes Z.eqb].
  assert (CK: CheckLaneChangePossible default_params v 1 (UpdateSurroundingVehicles v 1) false (-1) (-1) = true).
  { unfold CheckLaneChangePossible. cbn [Z.eqb Pos.eqb]. rewrite !U. cbn [option_map fst route default_params Z.eqb Pos.eqb max_imposed_braking]. rewrite A1. cbn [GetAcceleration]. destruct (Rltb_spec 0 (- (3))); [lra|]. destruct (Rltb_spec (-3) (- (3))); [lra|]. reflexivity. }
  rewrite CK. change (v_speed v 1) with 15. destruct (Rltb_spec 0 15); [|lra]. cbn [andb]. change (AbortLaneChange default_params v 1 (-1) 15) with false. cbn iota. destruct (if true && _ then _ else _) as [a b]. destruct (Rltb (4 - dt) 0); reflexivity.
Qed.

(** ** What is not seen *)

(** The other 50 m ahead is not seen at time 0 if it looked first. *)
Theorem C59_start_refuted w : s_time w = 0 -> (forall o, s_active w o = true) -> (forall o, s_teleported w o = false) -> squared w 2 1 <= 250000 -> s_dist w 1 2 REL_DIST_EUCLIDIAN = 50 ->
  let first := FilterSurroundingVehicles 115 (fun _ => None) w 2 [1; 2]%Z in snd (FilterSurroundingVehicles 115 (fst first) w 1 [1; 2]%Z) = [].
Proof.
  intros T A TP SQ D first. destruct (snd (FilterSurroundingVehicles 115 (fst first) w 1 [1; 2]%Z)) as [|o r] eqn:E; [reflexivity|exfalso].
  assert (I: In o (snd (FilterSurroundingVehicles 115 (fst first) w 1 [1; 2]%Z))) by (rewrite E; left; reflexivity).
  apply C59_seen in I; [|unfold int32; lia|intros x [<-|[<-|[]]]; unfold int32; lia|repeat constructor; cbn; intuition lia].
  destruct I as ([<-|[<-|[]]] & NS & (_ & _ & NU & _) & _); [contradiction|].
  assert (C: fst first (GenerateKey 1 2) = Some new_entry).
  { subst first. cbn [FilterSurroundingVehicles Z.eqb Pos.eqb]. unfold GetDistance. rewrite !A. cbn [negb orb needs_update]. unfold UpdateDistance. rewrite !get_put_self. destruct (Rltb_spec 250000 (squared w 2 1)); [lra|]. rewrite andb_false_r. rewrite put_same. cbn [fst].
    rewrite put_other by (intro K; vm_compute in K; discriminate). rewrite put_same. reflexivity. }
  unfold needs_update in NU. rewrite C, !TP, T in NU. cbn in NU. destruct (Rltb_spec 0 0); [lra|discriminate].
Qed.

(** One more than twice the lookahead distance away is not looked at for three seconds, and may be in collision by then. *)
Theorem C59_late_refuted w w' : (forall o, s_active w o = true) -> (forall o, s_active w' o = true) -> (forall o, s_teleported w' o = false) -> squared w 1 2 <= 250000 ->
  230 < s_dist w 1 2 REL_DIST_EUCLIDIAN -> s_time w' <= s_time w + 3 ->
  let before := FilterSurroundingVehicles 115 (fun _ => None) w 1 [1; 2]%Z in snd (FilterSurroundingVehicles 115 (fst before) w' 1 [1; 2]%Z) = [].
Proof.
  intros A A' TP SQ D T before. destruct (snd (FilterSurroundingVehicles 115 (fst before) w' 1 [1; 2]%Z)) as [|o r] eqn:E; [reflexivity|exfalso].
  assert (I: In o (snd (FilterSurroundingVehicles 115 (fst before) w' 1 [1; 2]%Z))) by (rewrite E; left; reflexivity).
  apply C59_seen in I; [|unfold int32; lia|intros x [<-|[<-|[]]]; unfold int32; lia|repeat constructor; cbn; intuition lia].
  destruct I as ([<-|[<-|[]]] & NS & (_ & _ & NU & _) & _); [contradiction|].
  assert (C: exists e, fst before (GenerateKey 1 2) = Some e /\ e_next e = s_time w + 3).
  { subst before. cbn [FilterSurroundingVehicles Z.eqb Pos.eqb]. unfold GetDistance. rewrite !A. cbn [negb orb needs_update]. unfold UpdateDistance. rewrite !get_put_self. destruct (Rltb_spec 250000 (squared w 1 2)); [lra|]. rewrite andb_false_r. rewrite put_same. cbn [fst].
    rewrite put_same. eexists. split; [reflexivity|]. cbn [store e_next]. destruct (Rltb_spec (115 * 2) (s_dist w 1 2 REL_DIST_EUCLIDIAN)); [reflexivity|lra]. }
  destruct C as (e & C & N0). unfold needs_update in NU. rewrite C, !TP, N0 in NU. cbn in NU. destruct (Rltb_spec (s_time w + 3) (s_time w')); [lra|discriminate].
Qed.

(** ** Lanes on offer *)

(** A lane on offer is a driving lane next to the own one on its side of the road. *)
Theorem C59_lanes_sound s lane b l r : AdjacentLanesAvailable s lane = Some (b, (l, r)) -> lane <> 0%Z ->
  (l <> 0%Z -> l = (lane + side lane)%Z /\ GetLaneById s l = Some true) /\ (r <> 0%Z -> r = (lane - side lane)%Z /\ GetLaneById s r = Some true).
Proof.
  intros E NZ. unfold AdjacentLanesAvailable in E. destruct (_ <=? 1)%N; [injection E as _ <- <-; split; congruence|]. cbv zeta in E.
  set (idx := match GetLaneIdxById s lane with Some i => i | None => _ end) in E. clearbody idx.
  destruct (lane <? 0)%Z.
  - destruct (if (idx =? _)%N then Some false else GetLaneById s (lane - side lane)) as [rd|] eqn:RD; [|discriminate]. destruct (if (idx =? N.of_nat (length s) - 1 - _)%N then _ else _) as [ld|] eqn:LD; [|discriminate].
    injection E as _ <- <-. split; [destruct ld; [|congruence]|destruct rd; [|congruence]]; intros _; (split; [reflexivity|]).
    + destruct (idx =? _)%N in LD; [discriminate|exact LD].
    + destruct (idx =? _)%N in RD; [discriminate|exact RD].
  - destruct (if (idx =? 0)%N then Some false else GetLaneById s (lane - side lane)) as [rd|] eqn:RD; [|discriminate]. destruct (if (idx + 1 =? _)%N then _ else _) as [ld|] eqn:LD; [|discriminate].
    injection E as _ <- <-. split; [destruct ld; [|congruence]|destruct rd; [|congruence]]; intros _; (split; [reflexivity|]).
    + destruct (idx + 1 =? _)%N in LD; [discriminate|exact LD].
    + destruct (idx =? _)%N in RD; [discriminate|exact RD].
Qed.

(** On the right side of a road all are offered if there is at most one lane more on the right than on the left. *)
Theorem C59_lanes_right drv L R0 lane : (- Z.of_nat R0 <= lane < 0)%Z -> (R0 <= L + 1)%nat -> drv lane = true ->
  exists b, AdjacentLanesAvailable (row drv L R0) lane = Some (b, (if (lane + 1 <? 0)%Z && drv (lane + 1)%Z then (lane + 1)%Z else 0%Z, if (- Z.of_nat R0 <? lane)%Z && drv (lane - 1)%Z then (lane - 1)%Z else 0%Z)).
Proof.
  intros LR RL D. unfold AdjacentLanesAvailable. destruct (N.leb_spec (GetNumberOfDrivingLanesSide (row drv L R0) lane) 1) as [C|C].
  - exists false. f_equal. f_equal. f_equal.
    + destruct (Z.ltb_spec (lane + 1) 0); [|reflexivity]. destruct (drv (lane + 1)%Z) eqn:D1; [|reflexivity]. exfalso.
      assert (1 < GetNumberOfDrivingLanesSide (row drv L R0) lane)%N; [|lia]. apply (row_driving drv L R0 lane (lane + 1)); try assumption; try lia.
    + destruct (Z.ltb_spec (- Z.of_nat R0) lane); [|reflexivity]. destruct (drv (lane - 1)%Z) eqn:D1; [|reflexivity]. exfalso.
      assert (1 < GetNumberOfDrivingLanesSide (row drv L R0) lane)%N; [|lia]. apply (row_driving drv L R0 lane (lane - 1)); try assumption; try lia.
  - exists true. rewrite row_left. assert (LN: length (row drv L R0) = (L + R0 + 1)%nat) by apply down_length. rewrite LN. clear C LN. unfold row. rewrite down_idx by lia. unfold side. destruct (Z.ltb_spec lane 0); [|lia].
    replace (lane - 1)%Z with (lane - 1)%Z by reflexivity. rewrite (down_lane drv (L + R0 + 1) (Z.of_nat L) (lane + 1)) by lia.
    destruct (N.eqb_spec (Z.to_N (Z.of_nat L - lane)) (N.of_nat (L + R0 + 1) - 1)) as [E|E]; destruct (N.eqb_spec (Z.to_N (Z.of_nat L - lane)) (N.of_nat (L + R0 + 1) - 1 - N.of_nat L)) as [F|F].
    + destruct (Z.ltb_spec (- Z.of_nat R0) lane); [lia|]. cbn [andb]. destruct (Z.ltb_spec (lane + 1) 0); [lia|]. reflexivity.
    + destruct (Z.ltb_spec (- Z.of_nat R0) lane); [lia|]. cbn [andb]. destruct (Z.ltb_spec (lane + 1) 0); [reflexivity|]. replace (lane + 1)%Z with 0%Z by lia. cbn [andb]. destruct (drv 0%Z); reflexivity.
    + rewrite down_lane by lia. destruct (Z.ltb_spec (- Z.of_nat R0) lane); [|lia]. cbn [andb]. destruct (Z.ltb_spec (lane + 1) 0); [lia|]. reflexivity.
    + rewrite down_lane by lia. destruct (Z.ltb_spec (- Z.of_nat R0) lane); [|lia]. cbn [andb]. destruct (Z.ltb_spec (lane + 1) 0); [reflexivity|]. replace (lane + 1)%Z with 0%Z by lia. cbn [andb]. destruct (drv 0%Z); reflexivity.
Qed.

(** On the left side of a road if there are none or at least as many on the right. *)
Theorem C59_lanes_left drv L R0 lane : (0 < lane <= Z.of_nat L)%Z -> (R0 = 0 \/ L <= R0)%nat -> drv lane = true ->
  exists b, AdjacentLanesAvailable (row drv L R0) lane = Some (b, (if (0 <? lane - 1)%Z && drv (lane - 1)%Z then (lane - 1)%Z else 0%Z, if (lane <? Z.of_nat L)%Z && drv (lane + 1)%Z then (lane + 1)%Z else 0%Z)).
Proof.
  intros LR RL D. unfold AdjacentLanesAvailable. destruct (N.leb_spec (GetNumberOfDrivingLanesSide (row drv L R0) lane) 1) as [C|C].
  - exists false. f_equal. f_equal. f_equal.
    + destruct (Z.ltb_spec 0 (lane - 1)); [|reflexivity]. destruct (drv (lane - 1)%Z) eqn:D1; [|reflexivity]. exfalso.
      assert (1 < GetNumberOfDrivingLanesSide (row drv L R0) lane)%N; [|lia]. apply (row_driving drv L R0 lane (lane - 1)); try assumption; try lia.
    + destruct (Z.ltb_spec lane (Z.of_nat L)); [|reflexivity]. destruct (drv (lane + 1)%Z) eqn:D1; [|reflexivity]. exfalso.
      assert (1 < GetNumberOfDrivingLanesSide (row drv L R0) lane)%N; [|lia]. apply (row_driving drv L R0 lane (lane + 1)); try assumption; try lia.
  - exists true. rewrite row_right. assert (LN: length (row drv L R0) = (L + R0 + 1)%nat) by apply down_length. rewrite LN. clear C LN. unfold row. rewrite down_idx by lia. unfold side. destruct (Z.ltb_spec lane 0); [lia|].
    replace (lane + -1)%Z with (lane - 1)%Z by lia. replace (lane - -1)%Z with (lane + 1)%Z by lia. rewrite (down_lane drv (L + R0 + 1) (Z.of_nat L) (lane - 1)) by lia.
    destruct (N.eqb_spec (Z.to_N (Z.of_nat L - lane)) 0) as [E|E]; destruct (N.eqb_spec (Z.to_N (Z.of_nat L - lane) + 1) (N.of_nat R0)) as [F|F].
    + destruct (Z.ltb_spec lane (Z.of_nat L)); [lia|]. cbn [andb]. destruct (Z.ltb_spec 0 (lane - 1)); [lia|]. reflexivity.
    + destruct (Z.ltb_spec lane (Z.of_nat L)); [lia|]. cbn [andb]. destruct (Z.ltb_spec 0 (lane - 1)); [reflexivity|]. replace (lane - 1)%Z with 0%Z by lia. cbn [andb]. destruct (drv 0%Z); reflexivity.
    + rewrite down_lane by lia. destruct (Z.ltb_spec lane (Z.of_nat L)); [|lia]. cbn [andb]. destruct (Z.ltb_spec 0 (lane - 1)); [lia|]. reflexivity.
    + rewrite down_lane by lia. destruct (Z.ltb_spec lane (Z.of_nat L)); [|lia]. cbn [andb]. destruct (Z.ltb_spec 0 (lane - 1)); [reflexivity|]. replace (lane - 1)%Z with 0%Z by lia. cbn [andb]. destruct (drv 0%Z); reflexivity.
Qed.

(** On a one-way road of two or more lanes the outermost lane is never left. *)
Theorem C59_lanes_refuted R0 : (2 <= R0)%nat -> AdjacentLanesAvailable (row (fun l => negb (l =? 0)%Z) 0 R0) (- Z.of_nat R0) = Some (true, (0%Z, 0%Z)).
Proof.
  intro H. assert (1 < GetNumberOfDrivingLanesSide (row (fun l => negb (l =? 0)%Z) 0 R0) (- Z.of_nat R0))%N as C.
  { apply (row_driving _ 0 R0 (- Z.of_nat R0) (- Z.of_nat R0 + 1)); try lia. }
  unfold AdjacentLanesAvailable. destruct (N.leb_spec (GetNumberOfDrivingLanesSide (row (fun l => negb (l =? 0)%Z) 0 R0) (- Z.of_nat R0)) 1); [lia|]. rewrite row_left.
  assert (LN: length (row (fun l => negb (l =? 0)%Z) 0 R0) = (0 + R0 + 1)%nat) by apply down_length. rewrite LN. clear C LN. unfold row. rewrite down_idx by lia. destruct (Z.ltb_spec (- Z.of_nat R0) 0); [|lia].
  destruct (N.eqb_spec (Z.to_N (Z.of_nat 0 - - Z.of_nat R0)) (N.of_nat (0 + R0 + 1) - 1)); [|lia]. destruct (N.eqb_spec (Z.to_N (Z.of_nat 0 - - Z.of_nat R0)) (N.of_nat (0 + R0 + 1) - 1 - N.of_nat 0)); [|lia]. reflexivity.
Qed.

(** ** Examples *)

(** One vehicle 30 m ahead in the own lane: it is the lead, there is nobody on the left. *)
Example C59_closest_ex : let v := scene2 10 8 (-1) 0 30 50 (false, (0%Z, 0%Z)) [2%Z] in
  UpdateSurroundingVehicles v 1 LEAD = Some (2%Z, 30) /\ UpdateSurroundingVehicles v 1 LEFT_LEAD = None /\ UpdateSurroundingVehicles v 1 FOLLOWING = None.
Proof.
  cbv zeta. unfold UpdateSurroundingVehicles. cbn [v_near scene2 fold_left]. rewrite !place_slot. unfold pick_ahead, pick_behind. cbn [v_delta scene2]. cbn [Z.eqb Pos.eqb snd in_front].
  destruct (of_lane_dec _ 1 LEAD 2) as [|N0]; [|exfalso; apply N0; reflexivity]. destruct (of_lane_dec _ 1 LEFT_LEAD 2) as [F|]; [discriminate F|]. destruct (of_lane_dec _ 1 FOLLOWING 2) as [|N0]; [|exfalso; apply N0; reflexivity].
  destruct (Rltb_spec 30 0); [lra|]. repeat split.
Qed.

(** On the other side of the road, in lane 2, left is lane 1. *)
Example C59_closest_ex2 : let v := scene2 10 8 2 (-1) (-30) 50 (false, (0%Z, 0%Z)) [2%Z] in UpdateSurroundingVehicles v 1 LEFT_FOLLOW = Some (2%Z, -30).
Proof.
  cbv zeta. unfold UpdateSurroundingVehicles. cbn [v_near scene2 fold_left]. rewrite !place_slot. unfold pick_ahead, pick_behind. cbn [v_delta scene2]. cbn [Z.eqb Pos.eqb snd in_front].
  destruct (of_lane_dec _ 1 LEFT_FOLLOW 2) as [|N0]; [|exfalso; apply N0; reflexivity]. destruct (Rltb_spec (-30) 0); [reflexivity|lra].
Qed.

(** First step after start: a vehicle 100 m away is seen, one 120 m away is not. *)
Definition roads (d : R) : scene := Scene 1 (fun _ => true) (fun _ => false) (fun o => if (o =? 1)%Z then 0 else d) (fun _ => 0) (fun _ _ _ => d).
Example C59_seen_ex : In 2%Z (snd (FilterSurroundingVehicles 115 (fun _ => None) (roads 100) 1 [1; 2]%Z)) /\ ~ In 2%Z (snd (FilterSurroundingVehicles 115 (fun _ => None) (roads 120) 1 [1; 2]%Z)).
Proof.
  assert (I: int32 1) by (unfold int32; lia). assert (J: forall x, In x [1; 2]%Z -> int32 x) by (intros x [<-|[<-|[]]]; unfold int32; lia). assert (ND: NoDup [1; 2]%Z) by (repeat constructor; cbn; intuition lia).
  split; [apply C59_seen; try assumption|intro K; apply C59_seen in K; try assumption; destruct K as (_ & _ & _ & K); cbn in K; lra].
  split; [right; left; reflexivity|]. split; [lia|]. split; [|cbn; lra]. repeat split. intros (_ & F). unfold squared, roads in F. cbn in F. lra.
Qed.

(** Two seconds of headway at 15 m/s and 20 m make 50 m; 4 m cars centred 1 m ahead with reference points 54 m apart have 50 m free. *)
Example C59_gap_ex : GetDesiredGap default_params 15 15 = 50 /\ EstimateFreespace (scene2 15 15 (-1) 0 54 50 (false, (0%Z, 0%Z)) []) 1 2 54 = 50.
Proof.
  split.
  - unfold GetDesiredGap. cbn [max_acceleration max_deceleration desired_distance desired_thw default_params]. destruct (Rltb_spec (- (3) * -3) 0); [lra|]. replace (15 - 15) with 0 by ring. unfold Rdiv. rewrite Rmult_0_r, Rmult_0_l, Rplus_0_r. rewrite Rmax_right by lra. lra.
  - rewrite C59_freespace by (try reflexivity; lra). cbn [v_cx v_len scene2]. rewrite Rmax_right; lra.
Qed.
Example C59_freespace_behind_ex : EstimateFreespace (scene2 15 15 (-1) 0 54 50 (false, (0%Z, 0%Z)) []) 1 2 (-54) = -50.
Proof. rewrite C59_freespace_behind by (try reflexivity; lra). cbn [v_cx v_len scene2]. rewrite Rmax_right; lra. Qed.

(** From standstill on a free road the greatest acceleration. *)
Example C59_free_ex : GetAcceleration default_params (scene2 0 0 (-1) 0 0 50 (false, (0%Z, 0%Z)) []) (Some 1%Z) None = 3.
Proof. cbn. field. Qed.
Example C59_speed_ex : n_speed (drive default_params 1 (Driver 0 false false 4 0 false) [(scene2 0 0 (-1) 0 0 50 (false, (0%Z, 0%Z)) [], 1)]) = 3.
Proof.
  cbn [drive]. unfold after. destruct (step_speed default_params (scene2 0 0 (-1) 0 0 50 (false, (0%Z, 0%Z)) []) 1 (Driver 0 false false 4 0 false) 1) as (S1 & _). cbv zeta in S1. rewrite S1. cbn [n_changing n_speed UpdateSurroundingVehicles v_near scene2 fold_left option_map].
  fold (scene2 0 0 (-1) 0 0 50 (false, (0%Z, 0%Z)) []). rewrite C59_free_ex. cbn [max_deceleration default_params]. rewrite Rmax_right by lra. unfold next_speed. cbn [desired_speed default_params v_max scene2]. cbv zeta.
  destruct (Rltb_spec (0 + 3 * 1) 15); [|lra]. destruct (Rltb_spec 50 (0 + 3 * 1)); [lra|]. destruct (Rltb_spec (0 + 3 * 1) 0); lra.
Qed.

(** At the desired speed with just the gap wanted to a vehicle as fast the driver brakes. *)
Example C59_follow_ex : GetAcceleration default_params (scene2 15 15 (-1) 0 54 50 (false, (0%Z, 0%Z)) []) (Some 1%Z) (Some 2%Z) = -3.
Proof.
  unfold GetAcceleration. cbn [v_speed v_delta scene2]. cbn [Z.eqb Pos.eqb snd]. fold (scene2 15 15 (-1) 0 54 50 (false, (0%Z, 0%Z)) []). destruct C59_gap_ex as (G & F). rewrite G, F. destruct (Reqb_spec 50 0); [lra|]. cbn. field.
Qed.

(** The state at the start is ready, the lane change of [C59_route_refuted] happens. *)
Example C59_separate_ex : ready default_params (Driver 15 false false 4 0 false) /\ exists v l, action default_params v 1 (Driver 15 false false 4 0 false) (1 / 10) = Some l /\ 0 < v_speed v 1.
Proof.
  split; [split; [reflexivity|]; intros _; cbn; lra|]. exists (scene2 15 15 (-2) 1 54 50 (true, ((-1)%Z, 0%Z)) [2%Z]), (-1)%Z. split; [exact (proj1 (C59_route_refuted (1 / 10)))|cbn; lra].
Qed.

(** A vehicle 30 m ahead in lane -3 changing to lane -2 stops the change from lane -1 to it. *)
Example C59_abort_ex : let v := View (fun _ => 15) (fun o => if (o =? 1)%Z then (-1)%Z else (-3)%Z) (fun _ _ _ => ((-2)%Z, 30)) (fun _ _ => true) (fun _ => 4) (fun _ => 1) (fun _ => Some (true, (-2)%Z)) 50 (false, (0%Z, 0%Z)) [2%Z] in
  AbortLaneChange default_params v 1 (-2) 15 = true /\ AbortLaneChange default_params v 1 (-1) 15 = false.
Proof.
  intro v. split.
  - apply C59_abort. exists 2%Z. split; [left; reflexivity|]. split; [reflexivity|]. split; [cbn; lia|]. change (v_speed v 2) with 15. rewrite (proj1 C59_gap_ex). cbn [v_delta v snd]. rewrite C59_freespace by (try reflexivity; lra). cbn [v_cx v_len v]. rewrite Rmax_right; lra.
  - destruct (AbortLaneChange default_params v 1 (-1) 15) eqn:E; [|reflexivity]. apply C59_abort in E. destruct E as (o & _ & D & _). cbn in D. discriminate.
Qed.

(** Two lanes each way: from lane -2 left to -1, from lane 1 right to 2. *)
Example C59_lanes_ex : AdjacentLanesAvailable (row (fun l => negb (l =? 0)%Z) 2 2) (-2) = Some (true, ((-1)%Z, 0%Z)) /\ AdjacentLanesAvailable (row (fun l => negb (l =? 0)%Z) 2 2) 1 = Some (true, (0%Z, 2%Z)).
Proof. split; reflexivity. Qed.
Example C59_lanes_refuted_ex : AdjacentLanesAvailable (row (fun l => negb (l =? 0)%Z) 0 2) (-2) = Some (true, (0%Z, 0%Z)) /\ AdjacentLanesAvailable (row (fun l => negb (l =? 0)%Z) 0 2) (-1) = Some (true, (0%Z, (-2)%Z)).
Proof. split; reflexivity. Qed.

Print Assumptions C59_closest.
Print Assumptions C59_seen.
Print Assumptions C59_freespace.
Print Assumptions C59_freespace_behind.
Print Assumptions C59_freespace_behind_refuted.
Print Assumptions C59_gap.
Print Assumptions C59_free.
Print Assumptions C59_follow.
Print Assumptions C59_closer.
Print Assumptions C59_speed.
Print Assumptions C59_rates.
Print Assumptions C59_max.
Print Assumptions C59_max_refuted.
Print Assumptions C59_separate.
Print Assumptions C59_target.
Print Assumptions C59_abort.
Print Assumptions C59_deaf_refuted.
Print Assumptions C59_standing_refuted.
Print Assumptions C59_route_refuted.
Print Assumptions C59_start_refuted.
Print Assumptions C59_late_refuted.
Print Assumptions C59_lanes_sound.
Print Assumptions C59_lanes_right.
Print Assumptions C59_lanes_left.
Print Assumptions C59_lanes_refuted.

Print Assumptions C59_over.
