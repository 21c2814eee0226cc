(** C63: keeping a lateral distance to another object (OT/OSCPrivateAction.cpp:1971-2360). *)
From Coq Require Import Reals Bool List Arith NArith ZArith Lia Lra.
From Verif Require Import AngModel AngProofs GeoModel TransModel ProfModel ProfProofs CtrlModel KeepModel KeepProofs.
Import ListNotations.
Open Scope R_scope.

(** ** C63: keeping a lateral distance *)

(** Where the distance error is gone, the object is at the given distance, on the given side of the target as the target is heading, whichever way each of
    them drives along the road. *)
Theorem C63_side : forall a w tw ta ha tb hb b, t_cs a = CS_ROAD -> t_side a = LEFT \/ t_side a = RIGHT \/ t_side a = ANY_SIDE -> b = LatStart a true w tw ->
  exists e, GetDistanceError b (Some (road_delta ta ha tb hb)) hb = (b, Some e) /\
    leftward ta ha (tb + e) = wanted (t_side a) (t_distance a) (t_freespace a) w tw.
Proof. exact error_is. Qed.

(** An action across the road, for the examples. *)
Definition idle : spring := critical_spring 0 0 0.
Definition across (s : side) (L : limits) (d : R) (free : bool) : lat := Lat d free false s L CS_ROAD INIT 0 0 idle (0, 0) 1 false.

Example C63_side_ex : wanted LEFT 2 true 2 3 = 9 / 2 /\ wanted RIGHT (-2) true 2 3 = - (9 / 2) /\ wanted ANY_SIDE 2 false 2 3 = 2 /\ leftward 1 0 3 = 2 /\ leftward 1 PI 3 = -2.
Proof.
  unfold wanted, leftward. rewrite cos_0, cos_PI. rewrite (Rabs_right 2), (Rabs_left (-2)) by lra.
  destruct (Rle_dec 0 1); destruct (Rle_dec 0 (-1)); lra.
Qed.

Lemma clamp_near : forall x d lo hi k, lo <= x <= hi -> - k <= d <= k -> Rabs (CLAMP (x + d) lo hi - x) <= k.
Proof.
  intros x d lo hi k X D. apply Rabs_le. unfold CLAMP, RMIN, RMAX. destruct (Rltb lo (x + d)) eqn:F; [apply Rltb_true in F|apply Rltb_false in F]; rcase; lra.
Qed.

(** The lateral speed is within the limit and less than the speed; the lateral acceleration and its change are within theirs. *)
Theorem C63_bounds : forall a e v tv dt b, 0 < dt -> 0 < max_speed (t_limits a) -> SMALL_NUMBER <= v -> dynamic_speed a e v tv dt = Some b ->
  Rabs (t_vel b) <= v /\ (SMALL_NUMBER <= max_speed (t_limits a) -> Rabs (t_vel b) <= max_speed (t_limits a)) /\
  (0 <= max_acc (t_limits a) -> 0 <= max_acc_rate (t_limits a) -> max_acc (t_limits a) <> LARGE_NUMBER -> Rabs (t_acc a) <= max_acc (t_limits a) ->
   Rabs (t_acc b) <= max_acc (t_limits a) /\ Rabs (t_acc b - t_acc a) <= max_acc_rate (t_limits a) * dt /\ Rabs (t_vel b) <= Rabs (t_vel a + t_acc b * dt)).
Proof.
  intros a e v tv dt b T MS V D. pose proof (dynamic_bound a e v tv dt b T D) as B. split; [|split].
  - eapply Rle_trans; [exact B|]. apply limit_speed; lra.
  - intros SM. eapply Rle_trans; [exact B|]. unfold lateral_limit, RMIN in *. rcase; rewrite Rabs_right; unfold SMALL_NUMBER in *; lra.
  - intros MA MR NE AA. unfold dynamic_speed in D. replace (Reqb LARGE_NUMBER (max_acc (t_limits a))) with false in D by (symmetry; apply Reqb_false; intros E; apply NE; symmetry; exact E). cbn [negb] in D.
    set (s := SpringUpdate _ _) in D. set (da := CLAMP (s_a s - t_acc a) _ _) in D. set (acc := CLAMP (t_acc a + da) _ _) in D.
    assert (DB : - (max_acc_rate (t_limits a) * dt) <= da <= max_acc_rate (t_limits a) * dt) by (apply clamp_bounds; assert (0 <= max_acc_rate (t_limits a) * dt) by (apply Rmult_le_pos; lra); lra).
    assert (AB : - max_acc (t_limits a) <= acc <= max_acc (t_limits a)) by (apply clamp_bounds; lra).
    pose proof (Rle_abs (t_acc a)) as A1. pose proof (Rle_abs (- t_acc a)) as A2. rewrite Rabs_Ropp in A2.
    assert (AD : Rabs (acc - t_acc a) <= max_acc_rate (t_limits a) * dt).
    { apply clamp_near; lra. }
    assert (E : t_acc b = acc /\ t_vel b = ABS_LIMIT (t_vel a + acc * dt) (lateral_limit (t_limits a) v)).
    { injection D as <-. destruct (negb _ && _); split; reflexivity. }
    destruct E as (-> & ->). split; [apply Rabs_le; lra|]. split; [exact AD|].
    unfold ABS_LIMIT, SIGN. repeat rcase; unfold Rabs in *; repeat destruct (Rcase_abs _); lra.
Qed.

Example C63_bounds_ex : exists b, dynamic_speed (across LEFT (Limits 2 5 2 5 3) 2 false) 4 10 0 (1 / 10) = Some b.
Proof. apply speed_some. lra. Qed.

(** A dynamic step goes as far as the speed says, and not backwards along the road; it can be done unless the object all but stands. *)
Theorem C63_way : forall a d same h v tv dt next, 0 < dt -> 0 <= max_speed (t_limits a) -> SMALL_NUMBER <= v ->
  exists b s t, dynamic_step a (Some (d, same)) h v tv dt next = Some (b, (s, t)) /\ s * s + t * t = v * dt * (v * dt) /\ 0 <= s /\ t = t_vel b * dt.
Proof.
  intros a d same h v tv dt next T MS V. destruct (dynamic_some a d same h v tv dt next T MS V) as ([b [s t]] & E). exists b, s, t. split; [exact E|].
  destruct (dynamic_way _ _ _ _ _ _ _ _ _ _ T MS V E) as (W1 & W2). split; [exact W1|]. split; [exact W2|].
  unfold dynamic_step in E. destruct (GetDistanceError a (Some (d, same)) h) as (a1 & [e|]); [|discriminate].
  destruct (dynamic_speed a1 e v tv dt) as [c|]; [|discriminate]. destruct (root _) as [r|]; [|discriminate]. injection E as <- <- <-. reflexivity.
Qed.

Example C63_way_ex : exists b s t, dynamic_step (across LEFT (Limits 2 5 2 5 3) 2 false) (Some (4, true)) 0 10 0 (1 / 10) (0, 0) = Some (b, (s, t)) /\ s * s + t * t = 1.
Proof. destruct (C63_way (across LEFT (Limits 2 5 2 5 3) 2 false) 4 true 0 10 0 (1 / 10) (0, 0)) as (b & s & t & E & W & _); [lra|cbn; lra|unfold SMALL_NUMBER; lra|]. exists b, s, t. split; [exact E|lra]. Qed.

Lemma speed_keeps : forall a e v tv dt b, dynamic_speed a e v tv dt = Some b -> t_limits b = t_limits a /\ t_continuous b = t_continuous a.
Proof.
  intros a e v tv dt b. unfold dynamic_speed. destruct (negb (Reqb _ _)).
  - intros E. injection E as <-. destruct (negb _ && _); split; reflexivity.
  - destruct (Reqb _ _); [intros E; injection E as <-; split; reflexivity|]. destruct (div e dt); [|discriminate]. intros E. injection E as <-. cbn [set_motion t_continuous].
    destruct (t_continuous a) eqn:C; cbn; auto.
Qed.

Lemma slide_keeps : forall n v tv dt a e b e', slide v tv dt n a e = Some (b, e') -> t_limits b = t_limits a /\ t_continuous b = t_continuous a.
Proof.
  induction n as [|n IH]; intros v tv dt a e b e' E; cbn [slide] in E.
  - injection E as <- _. auto.
  - destruct (dynamic_speed a e v tv dt) as [c|] eqn:D; [|discriminate]. destruct (speed_keeps _ _ _ _ _ _ D) as (L1 & C1). destruct (IH _ _ _ _ _ _ _ E) as (L2 & C2).
    split; congruence.
Qed.

Lemma count_up : forall x, exists n, x < INR n.
Proof.
  intros x. exists (Z.to_nat (up x)). destruct (archimed x) as (A & _). destruct (Z_le_gt_dec 0 (up x)) as [G|G].
  - rewrite INR_IZR_INZ, Z2Nat.id by lia. lra.
  - pose proof (pos_INR (Z.to_nat (up x))). assert (IZR (up x) <= 0) by (apply IZR_le; lia). lra.
Qed.

Lemma slide_S : forall n v tv dt a e, slide v tv dt (S n) a e =
  match slide v tv dt n a e with Some (b, e') => match dynamic_speed b e' v tv dt with Some c => Some (c, e' - (t_vel c - tv) * dt) | None => None end | None => None end.
Proof.
  induction n as [|n IH]; intros v tv dt a e.
  - cbn [slide]. destruct (dynamic_speed a e v tv dt); reflexivity.
  - change (slide v tv dt (S (S n)) a e) with (match dynamic_speed a e v tv dt with Some b => slide v tv dt (S n) b (e - (t_vel b - tv) * dt) | None => None end).
    change (slide v tv dt (S n) a e) with (match dynamic_speed a e v tv dt with Some b => slide v tv dt n b (e - (t_vel b - tv) * dt) | None => None end).
    destruct (dynamic_speed a e v tv dt); [apply IH|reflexivity].
Qed.

(** Without a limit of the acceleration the error falls by the same amount in every step, without passing the wanted distance of a target that keeps its
    own; it gets there, and unless the action is continuous it then ends. *)
Theorem C63_fast : forall a e v dt, 0 < dt -> max_acc (t_limits a) = LARGE_NUMBER -> 0 < lateral_limit (t_limits a) v ->
  (forall n, exists b, slide v 0 dt n a e = Some (b, SIGN e * Rmax 0 (Rabs e - INR n * (lateral_limit (t_limits a) v * dt)))) /\
  exists n b, slide v 0 dt n a e = Some (b, 0) /\ (t_continuous a = false -> t_runs b = false).
Proof.
  intros a e v dt T MA LP. assert (M : 0 < lateral_limit (t_limits a) v * dt) by (apply Rmult_lt_0_compat; lra).
  assert (F : forall n, exists b, slide v 0 dt n a e = Some (b, SIGN e * Rmax 0 (Rabs e - INR n * (lateral_limit (t_limits a) v * dt)))).
  { intros n. destruct (fast_run n a e v dt T MA LP) as (b & e' & E & ->). exists b. exact E. }
  split; [exact F|]. destruct (count_up (Rabs e / (lateral_limit (t_limits a) v * dt))) as (n & N).
  assert (NB : Rabs e <= INR n * (lateral_limit (t_limits a) v * dt)).
  { apply Rlt_le. apply (Rmult_lt_compat_r _ _ _ M) in N. unfold Rdiv in N. rewrite Rmult_assoc, Rinv_l, Rmult_1_r in N by lra. exact N. }
  destruct (F n) as (b & B). rewrite Rmax_left, Rmult_0_r in B by lra. destruct (slide_keeps _ _ _ _ _ _ _ _ B) as (LB & CB).
  destruct (fast_step b 0 v dt T) as (c & C & _ & _ & H); [rewrite LB; auto..|]. cbv zeta in H. rewrite LB, Rabs_R0 in H.
  replace (Rltb (lateral_limit (t_limits a) v * dt) 0) with false in H by (symmetry; apply Rltb_false; lra). destruct H as (H1 & H2).
  exists (S n), c. rewrite slide_S, B, C, H1. split; [reflexivity|]. intros NC. rewrite (H2 M), CB, NC. reflexivity.
Qed.

Example C63_fast_ex : exists n b, slide 10 0 (1 / 10) n (across LEFT (Limits LARGE_NUMBER 5 2 5 2) 2 false) 3 = Some (b, 0) /\ t_runs b = false.
Proof.
  destruct (C63_fast (across LEFT (Limits LARGE_NUMBER 5 2 5 2) 2 false) 3 10 (1 / 10)) as (_ & n & b & B & R).
  - lra.
  - reflexivity.
  - unfold lateral_limit, RMIN, SMALL_NUMBER. cbn. rcase; lra.
  - exists n, b. auto.
Qed.

(** With one: a target that moves sideways with a constant speed is approached without passing the wanted distance, the error falling by at least a fixed
    factor, if the steps are short for the limit, the rate of change allows it, and the object starts close enough, not faster than the spring wants. *)
Theorem C63_glides : forall a e v tv dt r sg n, let L := t_limits a in 0 < max_acc L < LARGE_NUMBER -> 0 < dt -> 2 * max_acc L <= max_acc_rate L * dt ->
  r = sqrt (4 / 10 * max_acc L) -> r * dt <= 1 / 2 -> sg = 1 \/ sg = -1 -> t_spring a = critical_spring 0 0 (4 / 10 * max_acc L) -> Rabs (t_acc a) <= max_acc L ->
  0 <= sg * e -> 0 <= sg * (t_vel a - tv) <= r * (sg * e) -> r * r * (sg * e) <= max_acc L -> Rabs tv + r * (sg * e) <= lateral_limit L v ->
  exists b e', slide v tv dt n a e = Some (b, e') /\ (1 - r * dt) ^ n * (sg * e) <= sg * e' <= (1 - (r * dt) * (r * dt)) ^ n * (sg * e).
Proof.
  intros a e v tv dt r sg n L MP T RA RE W SG SP AA E0 V1 E1 E2.
  assert (R0 : 0 < r) by (rewrite RE; apply sqrt_lt_R0; lra). assert (RR : r * r = 4 / 10 * max_acc L) by (rewrite RE; apply sqrt_sqrt; lra).
  pose proof (Rle_abs (t_acc a)) as A1. pose proof (Rle_abs (- t_acc a)) as A2. rewrite Rabs_Ropp in A2.
  destruct (gliding_run L v tv dt r sg MP T RA R0 RR W SG n a e) as (b & e' & S1 & _ & S2).
  - unfold gliding. rewrite SP. cbn [critical_spring s_t s_d s_x0]. rewrite <- RE. fold L. repeat split; auto; try lra.
  - exists b, e'. auto.
Qed.

Example C63_glides_ex : exists b e', slide 10 0 (1 / 10) 50 (Lat 2 false true LEFT (Limits (5 / 2) 1000 2 5 5) CS_ROAD MOVE_DYNAMIC 0 0 (critical_spring 0 0 (4 / 10 * (5 / 2))) (0, 0) 1 true) 2 = Some (b, e') /\ 0 <= e'.
Proof.
  assert (SR : 1 = sqrt (4 / 10 * (5 / 2))) by (replace (4 / 10 * (5 / 2)) with 1 by lra; now rewrite sqrt_1).
  destruct (C63_glides (Lat 2 false true LEFT (Limits (5 / 2) 1000 2 5 5) CS_ROAD MOVE_DYNAMIC 0 0 (critical_spring 0 0 (4 / 10 * (5 / 2))) (0, 0) 1 true) 2 10 0 (1 / 10) 1 1 50) as (b & e' & S1 & S2 & _);
    cbn [t_limits t_spring t_acc t_vel max_acc max_acc_rate]; rewrite ?Rabs_R0; try exact SR; try reflexivity; unfold LARGE_NUMBER; try lra.
  - unfold lateral_limit, RMIN, SMALL_NUMBER. cbn. rcase; lra.
  - exists b, e'. split; [exact S1|]. assert (0 <= (1 - 1 * (1 / 10)) ^ 50 * (1 * 2)) by (apply Rmult_le_pos; [apply pow_le; lra|lra]). lra.
Qed.

(** The first step on a road moves nothing: it takes the rigid way just when nothing is limited, and otherwise sets the spring up with critical damping. *)
Theorem C63_init : forall a d x y h hr road_h v tx ty th tv dt next, t_cs a = CS_ROAD -> t_move a = INIT -> let L := t_limits a in
  exists b, LatStep a false d x y h hr road_h v tx ty th tv dt next = Some (b, Still) /\ t_old b = (x, y) /\ t_runs b = t_runs a /\
    (LARGE_NUMBER <= max_speed L /\ LARGE_NUMBER <= max_acc L /\ LARGE_NUMBER <= max_dec L -> t_move b = MOVE_RIGID) /\
    (max_speed L < LARGE_NUMBER \/ max_acc L < LARGE_NUMBER \/ max_dec L < LARGE_NUMBER -> t_move b = MOVE_DYNAMIC /\ t_vel b = t_vel a /\
       forall t, t_spring a = critical_spring 0 0 t -> t_spring b = critical_spring 0 0 (4 / 10 * max_acc L)).
Proof.
  intros a d x y h hr road_h v tx ty th tv dt next CS MV L. unfold LatStep. rewrite CS, MV. eexists. split; [reflexivity|]. unfold init_step. fold L.
  destruct (Rltb (max_speed L) LARGE_NUMBER) eqn:E1; destruct (Rltb (max_acc L) LARGE_NUMBER) eqn:E2; destruct (Rltb (max_dec L) LARGE_NUMBER) eqn:E3;
    cbn [negb andb]; rewrite ?Rltb_true, ?Rltb_false in *; repeat split; try reflexivity; try (intros; lra);
    intros t ->; reflexivity.
Qed.

Example C63_init_ex : exists b, LatStep (LatStart (across LEFT no_limits 2 false) true 2 2) false (Some (0, true)) 5 6 0 0 0 10 0 0 0 0 (1 / 10) (0, 0) = Some (b, Still) /\ t_move b = MOVE_RIGID.
Proof.
  destruct (C63_init (LatStart (across LEFT no_limits 2 false) true 2 2) (Some (0, true)) 5 6 0 0 0 10 0 0 0 0 (1 / 10) (0, 0)) as (b & B & _ & _ & R & _); [reflexivity..|].
  exists b. split; [exact B|]. apply R. cbn. lra.
Qed.

(** A rigid step puts the object straight across the road by the error, and the action ends when that is small, unless it is continuous. *)
Theorem C63_rigid : forall a d same h x y road_h e, GetDistanceError a (Some (d, same)) h = (a, Some e) ->
  exists b nx ny nh, rigid_step a (Some (d, same)) h x y road_h = Some (b, (nx, ny, nh)) /\ (nx - x) * cos road_h + (ny - y) * sin road_h = 0 /\ left_of x y road_h nx ny = e /\
    t_old b = (nx, ny) /\ (t_runs b = true <-> t_runs a = true /\ (t_continuous a = true \/ LATERAL_DISTANCE_THRESHOLD <= Rabs e)).
Proof.
  intros a d same h x y road_h e E. unfold rigid_step. rewrite E. unfold GetDesiredRoadPos. eexists. eexists. eexists. eexists. split; [reflexivity|].
  pose proof (unit_vector road_h) as U. split; [ring|]. split.
  - unfold left_of. replace (- (x + - sin road_h * e - x) * sin road_h + (y + cos road_h * e - y) * cos road_h) with (e * (cos road_h * cos road_h + sin road_h * sin road_h)) by ring.
    rewrite U. ring.
  - split; [destruct (negb _ && _); reflexivity|]. destruct (t_continuous a) eqn:C; cbn [negb andb].
    + cbn. rewrite ?C. tauto.
    + destruct (Rltb (Rabs e) LATERAL_DISTANCE_THRESHOLD) eqn:F; [apply Rltb_true in F|apply Rltb_false in F]; cbn.
      * split; [discriminate|]. intros (_ & [G|G]); [discriminate|lra].
      * split; [intros H; split; [exact H|right; lra]|tauto].
Qed.

Example C63_rigid_ex : let a := LatStart (across LEFT no_limits 2 false) true 2 2 in GetDistanceError a (Some (0, true)) 0 = (a, Some 2).
Proof.
  assert (F : IsAngleForward 0 = true) by (apply forward_iff; rewrite cos_0; lra). unfold GetDistanceError. rewrite F. cbn. rewrite Rabs_right by lra.
  do 2 f_equal. lra.
Qed.

(** Relative to the target entity: without a limit of the acceleration the object is beside the target at once, heading as it does, and does not go further
    than its speed says if that is enough to get there. *)
Theorem C63_instant : forall a x y h v tx ty th dt, LARGE_NUMBER <= max_acc (t_limits a) ->
  exists nx ny, entity_step a x y h v tx ty th dt = Some (nx, ny, th) /\ left_of tx ty th nx ny = t_distance a /\
    (Rabs (t_distance a - left_of tx ty th x y) <= Rabs v * dt -> sq (nx - x) (ny - y) <= Rabs v * dt * (Rabs v * dt)).
Proof. exact entity_instant. Qed.

Example C63_instant_ex : LARGE_NUMBER <= max_acc no_limits /\ left_of 0 0 0 5 2 = 2.
Proof. unfold left_of. cbn. rewrite sin_0, cos_0. split; lra. Qed.

(** With one: the object goes as far as its speed says; it is either on the line it wants to be on, or heads as the target does, or turns by no more than
    what its acceleration allows. *)
Theorem C63_turn : forall a x y h v tx ty th dt, 0 < max_acc (t_limits a) < LARGE_NUMBER -> 0 <= v -> 0 <= dt ->
  exists nx ny nh, entity_step a x y h v tx ty th dt = Some (nx, ny, nh) /\ sq (nx - x) (ny - y) = v * dt * (v * dt) /\
    (Rabs (t_distance a - left_of tx ty th x y) < SMALL_NUMBER -> nh = th /\ left_of tx ty th nx ny = left_of tx ty th x y) /\
    (left_of tx ty th nx ny = t_distance a \/ nh = th \/
     (nx = x + cos nh * (v * dt) /\ ny = y + sin nh * (v * dt) /\ exists dh, same_angle nh (h + dh) /\
        Rabs dh <= Rmin (PI - SMALL_NUMBER) (3 / 2 * (v / Rmax (1 / 2) (3 / 2 * (v * v) / Rmin (max_acc (t_limits a)) 1000)) * dt))).
Proof. exact entity_turn. Qed.

Example C63_turn_ex : exists nx ny nh, entity_step (across LEFT (Limits 2 5 2 5 3) 2 false) 0 0 0 10 0 5 0 (1 / 10) = Some (nx, ny, nh) /\ sq nx ny = 1.
Proof.
  destruct (C63_turn (across LEFT (Limits 2 5 2 5 3) 2 false) 0 0 0 10 0 5 0 (1 / 10)) as (nx & ny & nh & E & W & _); [cbn; unfold LARGE_NUMBER; lra|lra|lra|].
  exists nx, ny, nh. split; [exact E|]. unfold sq in *. lra.
Qed.

(** An action relative to the entity does not end by itself, continuous or not. *)
Theorem C63_entity_ends_refuted : forall a o d x y h hr road_h v tx ty th tv dt next b m, t_cs a = CS_ENTITY ->
  LatStep a o d x y h hr road_h v tx ty th tv dt next = Some (b, m) -> b = a.
Proof.
  intros a o d x y h hr road_h v tx ty th tv dt next b m CS. unfold LatStep. rewrite CS. destruct o; [intros E; now injection E|].
  destruct (entity_step a x y h v tx ty th dt) as [((nx, ny), nh)|]; [|discriminate]. intros E. now injection E.
Qed.

Example C63_entity_ends_refuted_ex : exists m, LatStep (Lat 2 false false LEFT no_limits CS_ENTITY INIT 0 0 idle (0, 0) 1 true) false None 0 2 0 0 0 10 0 0 0 0 (1 / 10) (0, 0)
  = Some (Lat 2 false false LEFT no_limits CS_ENTITY INIT 0 0 idle (0, 0) 1 true, m).
Proof.
  unfold LatStep. cbn [t_cs]. destruct (entity_instant (Lat 2 false false LEFT no_limits CS_ENTITY INIT 0 0 idle (0, 0) 1 true) 0 2 0 10 0 0 0 (1 / 10)) as (nx & ny & E & _); [cbn; lra|].
  rewrite E. eexists. reflexivity.
Qed.

(** In the coordinate systems of the lane and of the trajectory it runs without doing anything, and so never ends. *)
Theorem C63_other_refuted : forall a o d x y h hr road_h v tx ty th tv dt next, t_cs a = CS_OTHER -> LatStep a o d x y h hr road_h v tx ty th tv dt next = Some (a, Still).
Proof. intros a o d x y h hr road_h v tx ty th tv dt next CS. unfold LatStep. rewrite CS. destruct o; reflexivity. Qed.

Example C63_other_refuted_ex : t_runs (LatStart (Lat 2 false false LEFT no_limits CS_OTHER INIT 0 0 idle (0, 0) 1 false) true 2 2) = true.
Proof. reflexivity. Qed.

(** Standing, or going backwards, a dynamic step takes the square root of a negative number. *)
Theorem C63_standing_refuted : forall a d same h v tv dt next, max_acc (t_limits a) = LARGE_NUMBER -> 0 <= max_speed (t_limits a) -> v <= 0 -> 0 < dt ->
  t_cs a = CS_ROAD -> t_move a = MOVE_DYNAMIC -> forall x y hh road_h tx ty th, LatStep a false (Some (d, same)) x y hh h road_h v tx ty th tv dt next = None.
Proof.
  intros a d same h v tv dt next MA MS V T CS MV x y hh road_h tx ty th. unfold LatStep, dynamic_step. rewrite CS, MV.
  assert (G : exists e, GetDistanceError a (Some (d, same)) h = (a, Some e)) by (eexists; reflexivity). destruct G as (e & ->).
  unfold dynamic_speed. rewrite MA. replace (Reqb LARGE_NUMBER LARGE_NUMBER) with true by (symmetry; now apply Reqb_true). cbn [negb].
  pose proof small_pos as SP. assert (LL : lateral_limit (t_limits a) v = v - SMALL_NUMBER) by (unfold lateral_limit, RMIN; rcase; lra). rewrite LL.
  assert (VD : 0 < (SMALL_NUMBER - v) * dt) by (apply Rmult_lt_0_compat; lra).
  replace (SIGN (e - SIGN e * (v - SMALL_NUMBER) * dt)) with (SIGN e) by (unfold SIGN; repeat rcase; lra).
  replace (Reqb (SIGN e) (SIGN e)) with true by (symmetry; now apply Reqb_true). cbn [set_motion t_vel].
  replace (root (v * v - SIGN e * (v - SMALL_NUMBER) * (SIGN e * (v - SMALL_NUMBER)))) with (@None R); [reflexivity|].
  symmetry. unfold root. replace (Rltb _ 0) with true; [reflexivity|]. symmetry. apply Rltb_true.
  assert (SS : SIGN e * SIGN e = 1) by (unfold SIGN; rcase; lra).
  replace (v * v - SIGN e * (v - SMALL_NUMBER) * (SIGN e * (v - SMALL_NUMBER))) with (v * v - SIGN e * SIGN e * ((v - SMALL_NUMBER) * (v - SMALL_NUMBER))) by ring.
  rewrite SS. assert (0 <= - v * SMALL_NUMBER) by (apply Rmult_le_pos; lra). assert (0 < SMALL_NUMBER * SMALL_NUMBER) by (apply Rmult_lt_0_compat; lra). lra.
Qed.

Example C63_standing_refuted_ex : exists a b, t_move a = INIT /\ t_cs a = CS_ROAD /\ max_acc (t_limits a) = LARGE_NUMBER /\ b = init_step a 0 0 /\ t_move b = MOVE_DYNAMIC.
Proof.
  exists (across LEFT (Limits LARGE_NUMBER 5 LARGE_NUMBER 5 3) 2 false). eexists. repeat split. unfold init_step. cbn [t_limits across max_speed].
  replace (Rltb 3 LARGE_NUMBER) with true by (symmetry; apply Rltb_true; unfold LARGE_NUMBER; lra). reflexivity.
Qed.

(** Without a path to the target an uninitialised distance is used. *)
Theorem C63_no_path_refuted : forall a x y hh h road_h v tx ty th tv dt next, t_cs a = CS_ROAD -> t_move a <> INIT ->
  LatStep a false None x y hh h road_h v tx ty th tv dt next = None.
Proof. intros a x y hh h road_h v tx ty th tv dt next CS MV. unfold LatStep, rigid_step, dynamic_step. rewrite CS. destruct (t_move a); [congruence|reflexivity..]. Qed.

Example C63_no_path_refuted_ex : t_move (init_step (LatStart (across LEFT no_limits 2 false) true 2 2) 0 0) <> INIT.
Proof. unfold init_step. destruct (negb _ && _ && _); cbn; discriminate. Qed.

(** Started again, the action aims elsewhere: to the other side of the target entity, or with the widths added once more. *)
Theorem C63_restart_refuted : forall d w tw L, 0 < d -> 0 < w + tw ->
  (let a := Lat d false false RIGHT L CS_ENTITY INIT 0 0 idle (0, 0) 1 false in
   t_distance (LatStart a true w tw) = - d /\ t_distance (LatStart (LatStart a true w tw) true w tw) = d) /\
  (let a := across RIGHT L d true in
   t_distance (LatStart a true w tw) = d + (w + tw) / 2 /\ t_distance (LatStart (LatStart a true w tw) true w tw) = d + (w + tw)).
Proof. intros d w tw L D W. cbn. rewrite (Rabs_right d) by lra. rewrite Rabs_right by lra. lra. Qed.

Example C63_restart_refuted_ex : 0 < 2 /\ 0 < 2 + 2. Proof. lra. Qed.

(** The lateral speed and acceleration of an earlier run are kept, too. *)
Theorem C63_leftover_refuted : forall a x y w tw, let b := init_step (LatStart a true w tw) x y in t_vel b = t_vel a /\ t_acc b = t_acc a.
Proof. intros a x y w tw b. unfold b, init_step, LatStart. destruct (match t_cs a with CS_ENTITY => _ | CS_ROAD => _ | CS_OTHER => _ end) as (d & sg). destruct (negb _ && _ && _); split; reflexivity. Qed.

Example C63_leftover_refuted_ex : t_vel (Lat 2 false false LEFT no_limits CS_ROAD INIT 3 0 idle (0, 0) 1 false) = 3. Proof. reflexivity. Qed.

(** A controller that overrides the lateral domain does not stop the action, and one that overrides the longitudinal domain does. *)
Theorem C63_override_refuted : exists w1 w2, (forall k, c_active (ctrls w1 k) = MASK_LAT /\ c_mode (ctrls w1 k) = MODE_OVERRIDE) /\
  (forall k, c_active (ctrls w2 k) = MASK_LONG /\ c_mode (ctrls w2 k) = MODE_OVERRIDE) /\
  overridden w1 1%N lat_mask = false /\ overridden w2 1%N lat_mask = true.
Proof.
  exists {| ctrls := fun _ => Ctrl 0 0 15 2 MODE_OVERRIDE None false false 0 false; objs := fun _ => [7%N] |},
    {| ctrls := fun _ => Ctrl 0 0 15 1 MODE_OVERRIDE None false false 0 false; objs := fun _ => [7%N] |}. repeat split.
Qed.

Example C63_override_refuted_ex : lat_mask = MASK_LONG /\ lat_mask <> MASK_LAT. Proof. split; [reflexivity|discriminate]. Qed.

(** An object at the wanted distance that stands is turned to the heading 0. *)
Theorem C63_heading_refuted : forall a d same h x y road_h, GetDistanceError a (Some (d, same)) h = (a, Some 0) -> t_old a = (x, y) ->
  exists b, rigid_step a (Some (d, same)) h x y road_h = Some (b, (x, y, 0)).
Proof.
  intros a d same h x y road_h E O. unfold rigid_step. rewrite E. unfold GetDesiredRoadPos. rewrite O. cbn [fst snd].
  replace (x + - sin road_h * 0) with x by ring. replace (y + cos road_h * 0) with y by ring. rewrite !Rminus_diag_eq by reflexivity.
  replace (atan2 0 0) with 0; [eexists; reflexivity|]. unfold atan2. num. reflexivity.
Qed.

Example C63_heading_refuted_ex : let a := set_old (LatStart (across LEFT no_limits 2 false) true 2 2) (5, 6) in GetDistanceError a (Some (2, true)) 0 = (a, Some 0).
Proof.
  assert (F : IsAngleForward 0 = true) by (apply forward_iff; rewrite cos_0; lra). unfold GetDistanceError. rewrite F. cbn. rewrite Rabs_right by lra.
  do 2 f_equal. lra.
Qed.

Print Assumptions C63_side.
Print Assumptions C63_bounds.
Print Assumptions C63_way.
Print Assumptions C63_fast.
Print Assumptions C63_glides.
Print Assumptions C63_init.
Print Assumptions C63_rigid.
Print Assumptions C63_instant.
Print Assumptions C63_turn.
Print Assumptions C63_entity_ends_refuted.
Print Assumptions C63_other_refuted.
Print Assumptions C63_standing_refuted.
Print Assumptions C63_no_path_refuted.
Print Assumptions C63_restart_refuted.
Print Assumptions C63_leftover_refuted.
Print Assumptions C63_override_refuted.
Print Assumptions C63_heading_refuted.
