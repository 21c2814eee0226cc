(** * C70: the ideal sensor reports exactly the objects in its view, in its own coordinates *)
From Coq Require Import Reals Bool List NArith ZArith Lra Lia Psatz.
From Verif Require Import AngModel AngProofs SenModel SenProofs.
Import ListNotations.
Open Scope R_scope.

(** Everything not at the sensor itself is in a direction at a distance. *)
Theorem C70_somewhere : forall s host obj, offset s host obj <> (0, 0) -> exists d t, 0 < d /\ at_angle s host obj d t.
Proof. exact at_some. Qed.
Example C70_somewhere_ex : offset (Sensor 0 0 0 0 0 100 1 5) (Body 0 0 0 0 0 0 0 0 0 0) (Body 10 0 0 0 0 0 0 0 0 0) <> (0, 0).
Proof. unfold offset, globally, RotateVec2D. cbn. intros H. injection H as H _. lra. Qed.

(** In view is what sensors may see, between near and far, with the size of its angle to the heading of the host less than half of the field of view from the
    angle of the sensor. *)
Theorem C70_view : forall s host g d t, 0 <= s_near s -> 0 <= s_far s -> SMALL_NUMBER <= d -> at_angle s host (g_body g) d t ->
  (in_view s host g = true <-> visible g /\ s_near s <= d <= s_far s /\ GetAbsAngleDifference (Rabs t) (s_h s) < s_fov s / 2).
Proof. exact view_iff. Qed.

(** That is right for sensors straight ahead or back, and for sensors to the left what is to the left. *)
Theorem C70_right_view : forall s host g d t, 0 <= s_near s -> 0 <= s_far s -> SMALL_NUMBER <= d -> at_angle s host (g_body g) d t ->
  s_h s = 0 \/ s_h s = PI \/ 0 <= t ->
  (in_view s host g = true <-> visible g /\ s_near s <= d <= s_far s /\ GetAbsAngleDifference t (s_h s) < s_fov s / 2).
Proof.
  intros s host g d t N F D A C. rewrite (view_iff s host g d t N F D A). destruct A as (T & _). pose proof PI_RGT_0.
  assert (E : GetAbsAngleDifference (Rabs t) (s_h s) = GetAbsAngleDifference t (s_h s)); [|rewrite E; tauto].
  destruct (Rle_lt_dec 0 t) as [P|P]; [rewrite Rabs_right by lra; reflexivity|]. rewrite Rabs_left by lra. destruct C as [->|[->|C]]; [| |lra].
  - rewrite !abs_near by lra. replace (- t - 0) with (- (t - 0)) by ring. apply Rabs_Ropp.
  - assert (SA : same_angle t (t + 2 * PI)) by (exists (-1)%Z; lra). rewrite (abs_shift t PI _ SA), !abs_near by lra.
    replace (- t - PI) with (- (t + 2 * PI - PI)) by ring. apply Rabs_Ropp.
Qed.
Definition ex_host : body := Body 0 0 0 0 0 0 0 0 0 0.
Definition ex_thing (x y : R) : thing := Thing false false 7 (Body x y 0 0 0 0 0 0 0 0).
Lemma ex_at : forall h fov t, - PI < t <= PI -> at_angle (Sensor 0 0 0 h 0 100 fov 1) ex_host (g_body (ex_thing (10 * cos t) (10 * sin t))) 10 t.
Proof. intros h fov t T. split; [exact T|]. unfold offset, globally, RotateVec2D. cbn. rewrite cos_0, sin_0, (Rplus_0_l t). f_equal; ring. Qed.
Lemma ex_visible : forall x y, visible (ex_thing x y).
Proof. intros. repeat split; reflexivity. Qed.
Lemma pi_big : 3 < PI.
Proof. pose proof PI2_3_2. lra. Qed.
Example C70_view_ex : in_view (Sensor 0 0 0 0 0 100 1 1) ex_host (ex_thing (10 * cos 0) (10 * sin 0)) = true.
Proof.
  pose proof pi_big. apply (proj2 (C70_right_view (Sensor 0 0 0 0 0 100 1 1) ex_host (ex_thing (10 * cos 0) (10 * sin 0)) 10 0
    ltac:(cbn; lra) ltac:(cbn; lra) ltac:(pose proof small_pos; unfold SMALL_NUMBER; lra) (ex_at 0 1 0 ltac:(lra)) (or_introl eq_refl))).
  split; [apply ex_visible|]. cbn. split; [lra|]. rewrite abs_near by lra. replace (0 - 0) with 0 by ring. rewrite Rabs_R0. lra.
Qed.

(** Fails: of two objects at the same distance to the left and to the right both or none is in view, whatever the sensor; one that looks to the left reports
    what is to the right. *)
Theorem C70_mirror_refuted :
  (forall s host g g' d t, 0 <= s_near s -> 0 <= s_far s -> SMALL_NUMBER <= d -> at_angle s host (g_body g) d t -> at_angle s host (g_body g') d (- t) ->
     visible g -> visible g' -> in_view s host g = in_view s host g')
  /\ exists s host g, s_h s = PI / 2 /\ s_fov s = 1 /\ at_angle s host (g_body g) 10 (- (PI / 2)) /\ in_view s host g = true.
Proof.
  split.
  - intros s host g g' d t N F D A A' V V'. apply eq_true_iff_eq. rewrite (view_iff s host g d t N F D A), (view_iff s host g' d (- t) N F D A'), Rabs_Ropp. tauto.
  - pose proof pi_big. exists (Sensor 0 0 0 (PI / 2) 0 100 1 1), ex_host, (ex_thing (10 * cos (- (PI / 2))) (10 * sin (- (PI / 2)))).
    assert (A := ex_at (PI / 2) 1 (- (PI / 2)) ltac:(lra)). split; [reflexivity|]. split; [reflexivity|]. split; [exact A|].
    apply (proj2 (view_iff (Sensor 0 0 0 (PI / 2) 0 100 1 1) ex_host _ 10 (- (PI / 2)) ltac:(cbn; lra) ltac:(cbn; lra) ltac:(unfold SMALL_NUMBER; lra) A)).
    split; [apply ex_visible|]. cbn. split; [lra|]. rewrite Rabs_left, abs_near by lra. replace (- - (PI / 2) - PI / 2) with 0 by ring. rewrite Rabs_R0. lra.
Qed.

(** Fails: a sensor that looks to the right sees nothing at all, if its field of view does not reach straight ahead or back. *)
Theorem C70_right_refuted : forall s host g, - PI < s_h s < 0 -> s_fov s / 2 <= - s_h s -> s_fov s / 2 <= PI + s_h s -> in_view s host g = false.
Proof.
  intros s host g H F1 F2. unfold in_view. set (o := offset s host (g_body g)).
  assert (A : 0 <= angle_to host o <= PI) by (unfold angle_to; destruct (RotateVec2D _ _ _); destruct (NormalizeVec2D _ _); apply acos_bound).
  rewrite (proj2 (Rltb_false _ (s_fov s / 2))); [apply andb_false_r|]. set (a := angle_to host o) in *.
  destruct (Rle_lt_dec (a - s_h s) PI) as [L|L].
  - rewrite abs_near by lra. rewrite Rabs_right; lra.
  - assert (SA : same_angle a (a - 2 * PI)) by (exists 1%Z; lra). rewrite (abs_shift a _ _ SA), abs_near by lra. rewrite Rabs_left; lra.
Qed.
Example C70_right_ex : in_view (Sensor 0 0 0 (- (PI / 2)) 0 100 1 1) ex_host (ex_thing (10 * cos (- (PI / 2))) (10 * sin (- (PI / 2)))) = false.
Proof. pose proof pi_big. apply C70_right_refuted; cbn; lra. Qed.

(** Fails: an object just at the place of the sensor counts as 90 degrees off. *)
Theorem C70_here_refuted : forall s host g, offset s host (g_body g) = (0, 0) -> s_h s = 0 -> s_fov s <= PI -> in_view s host g = false.
Proof.
  intros s host g E H F. unfold in_view. rewrite E, H.
  assert (A : angle_to host (0, 0) = PI / 2).
  { unfold angle_to, RotateVec2D, NormalizeVec2D, GetDotProduct2D. cbn [fst snd]. rewrite <- acos_0. f_equal. unfold Rdiv. ring. }
  pose proof pi_big. rewrite A, abs_near by lra. rewrite Rabs_right by lra. rewrite (proj2 (Rltb_false (PI / 2 - 0) _)) by lra. apply andb_false_r.
Qed.
Example C70_here_ex : in_view (Sensor 0 0 0 0 0 100 1 1) ex_host (ex_thing 0 0) = false.
Proof.
  pose proof pi_big. apply C70_here_refuted; [|reflexivity|cbn; lra]. unfold offset, globally, RotateVec2D. cbn. f_equal; ring.
Qed.

(** The argument of acos never leaves its domain (but for rounding). *)
Theorem C70_domain : forall h x y, let '(xn, yn) := NormalizeVec2D x y in let '(hx, hy) := RotateVec2D 1 0 h in -1 <= GetDotProduct2D hx hy xn yn <= 1.
Proof. exact dot_range. Qed.

(** Positions, velocities and accelerations, turned by the headings of host and sensor, are those of the world relative to sensor and host; heights have 0.7 m
    added. *)
Theorem C70_local : forall s host obj i was, let k := make_hit s host obj i was in
  RotateVec2D (k_x k) (k_y k) (b_h host + s_h s) = offset s host obj
  /\ RotateVec2D (k_vx k) (k_vy k) (b_h host + s_h s) = (b_vx obj - b_vx host, b_vy obj - b_vy host)
  /\ RotateVec2D (k_ax k) (k_ay k) (b_h host + s_h s) = (b_ax obj - b_ax host, b_ay obj - b_ay host)
  /\ k_z k = b_z obj - (b_z host + s_z s) + 7 / 10 /\ k_obj k = i.
Proof.
  intros s host obj i was. destruct (interval2pi (b_h host + s_h s)) as (_ & SA). fold (GetAngleSum (b_h host) (s_h s)) in SA.
  unfold make_hit, RotateVec2D at 1 2 3 4, Global2LocalCoordinates. cbn zeta. destruct (offset s host obj) as [x y]. cbn [fst snd k_x k_y k_vx k_vy k_ax k_ay k_z k_obj].
  repeat split; apply (turn_back _ _ _ _ SA).
Qed.
(** Heading: the difference, within half a turn. *)
Theorem C70_yaw : forall s host obj i was, let k := make_hit s host obj i was in - PI <= k_yaw k <= PI /\ same_angle (k_yaw k) (b_h obj - (b_h host + s_h s)).
Proof.
  intros s host obj i was. assert (E : k_yaw (make_hit s host obj i was) = GetAngleDifference (b_h obj) (GetAngleSum (b_h host) (s_h s))).
  { unfold make_hit. destruct (RotateVec2D _ _ _). destruct (Global2LocalCoordinates _ _ _ _ _). destruct (Global2LocalCoordinates _ _ _ _ _). reflexivity. }
  cbn zeta. rewrite E, difference_is. destruct (interval_pm (b_h obj - GetAngleSum (b_h host) (s_h s))) as (B & j & F). split; [exact B|].
  destruct (interval2pi (b_h host + s_h s)) as (_ & k & G). fold (GetAngleSum (b_h host) (s_h s)) in G. rewrite F, G. exists (j - k)%Z. rewrite minus_IZR. ring.
Qed.
Example C70_local_ex : forall was, k_x (make_hit (Sensor 0 0 0 0 0 100 1 1) ex_host (Body 10 0 0 0 0 0 0 0 0 0) 3 was) = 10.
Proof.
  intros was. destruct (C70_local (Sensor 0 0 0 0 0 100 1 1) ex_host (Body 10 0 0 0 0 0 0 0 0 0) 3 was) as (E & _). revert E.
  generalize (make_hit (Sensor 0 0 0 0 0 100 1 1) ex_host (Body 10 0 0 0 0 0 0 0 0 0) 3 was). intros k E. unfold RotateVec2D, offset, globally in E. cbn in E.
  rewrite Rplus_0_l, cos_0, sin_0 in E. injection E as E _. lra.
Qed.
(** Rates of the heading: the difference up to half a turn per second... *)
Theorem C70_rate : forall s host obj i was, let k := make_hit s host obj i was in
  (- PI <= b_hr obj - b_hr host <= PI -> k_yawRate k = b_hr obj - b_hr host) /\ (- PI <= b_ha obj - b_ha host <= PI -> k_yawAcc k = b_ha obj - b_ha host).
Proof.
  intros s host obj i was. assert (E : k_yawRate (make_hit s host obj i was) = GetAngleDifference (b_hr obj) (b_hr host) /\ k_yawAcc (make_hit s host obj i was) = GetAngleDifference (b_ha obj) (b_ha host)).
  { unfold make_hit. destruct (RotateVec2D _ _ _). destruct (Global2LocalCoordinates _ _ _ _ _). destruct (Global2LocalCoordinates _ _ _ _ _). auto. }
  destruct E as (E1 & E2). cbn zeta. rewrite E1, E2, !difference_is. split; intros H; apply pm_id; exact H.
Qed.
(** ...fails above: they are taken as angles. *)
Theorem C70_rate_refuted : forall s host obj i was, b_ha host = 0 -> b_ha obj = 4 -> k_yawAcc (make_hit s host obj i was) = 4 - 2 * PI.
Proof.
  intros s host obj i was H O. assert (E2 : k_yawAcc (make_hit s host obj i was) = GetAngleDifference (b_ha obj) (b_ha host)).
  { unfold make_hit. destruct (RotateVec2D _ _ _). destruct (Global2LocalCoordinates _ _ _ _ _). destruct (Global2LocalCoordinates _ _ _ _ _). reflexivity. }
  rewrite E2, H, O. unfold GetAngleDifference. pose proof pi_big as PB. pose proof PI_4. replace (4 - 0) with 4 by ring.
  assert (F : fmod 4 (2 * PI) = 4).
  { destruct (fmod_spec 4 (2 * PI) ltac:(lra)) as ((j & FJ) & U & _). specialize (U ltac:(lra)). assert (j = 0)%Z; [|subst j; lra].
    assert (IZR j < 1) by nra. assert (-1 < IZR j) by nra. apply lt_IZR in H1, H2. lia. }
  rewrite F, (proj2 (Rltb_false 4 (- PI))) by lra. destruct (Rlt_dec PI 4) as [L|L].
  - rewrite (proj2 (Rltb_true PI 4) L). reflexivity.
  - exfalso. assert (PI = 4) by lra. pose proof (PI_ineq 1) as Q. cbn in Q. unfold tg_alt, PI_tg in Q. cbn in Q. lra.
Qed.
Example C70_rate_ex : forall was, k_yawRate (make_hit (Sensor 0 0 0 0 0 100 1 1) ex_host (Body 10 0 0 0 0 0 0 0 (1 / 2) 0) 3 was) = 1 / 2.
Proof. intros was. pose proof pi_big. destruct (C70_rate (Sensor 0 0 0 0 0 100 1 1) ex_host (Body 10 0 0 0 0 0 0 0 (1 / 2) 0) 3 was) as (E & _). rewrite E; cbn; lra. Qed.

(** After an update the list has exactly the objects in view, in their order, each with its hit; nothing of earlier updates counts. *)
Theorem C70_list : forall s host l mem mem' n, Update s host l mem = Some (mem', n) ->
  n = length (viewed s host l) /\ (n <= length mem)%nat /\ length mem' = length mem /\ map k_obj (firstn n mem') = viewed s host l
  /\ forall k i g, nth_error (viewed s host l) k = Some i -> nth_error l i = Some g ->
       exists was, nth_error mem k = Some was /\ nth_error mem' k = Some (make_hit s host (g_body g) i was).
Proof. exact Update_some. Qed.
(** Fails: with more objects in view than the list has room for there is a write past its end. *)
Theorem C70_overflow_refuted : forall s host l mem, Update s host l mem = None <-> (length mem < length (viewed s host l))%nat.
Proof. exact Update_none. Qed.
Definition ex_hit (z : R) : hit := Hit 0 0 0 0 0 0 z 0 0 z 0 0 0.
Definition ex_s : sensor := Sensor 0 0 0 0 0 100 1 1.
Definition ex_g : thing := ex_thing (10 * cos 0) (10 * sin 0).
Example C70_list_ex : exists mem', Update ex_s ex_host [ex_g] [ex_hit 0] = Some (mem', 1%nat).
Proof. unfold Update, scan. unfold ex_s, ex_g. rewrite C70_view_ex. cbn [put]. eexists. reflexivity. Qed.
Example C70_overflow_ex : Update ex_s ex_host [ex_g; ex_g] [ex_hit 0] = None.
Proof. unfold Update, scan. unfold ex_s, ex_g. rewrite C70_view_ex. reflexivity. Qed.

(** Fails: vertical velocity and acceleration, which are reported, are what the memory held before. *)
Theorem C70_vertical_refuted : forall s host l mem mem' n k, Update s host l mem = Some (mem', n) -> (k < n)%nat ->
  exists was new, nth_error mem k = Some was /\ nth_error mem' k = Some new /\ k_vz new = k_vz was /\ k_az new = k_az was.
Proof.
  intros s host l mem mem' n k H K. destruct (Update_some _ _ _ _ _ _ H) as (N & _ & _ & _ & A).
  destruct (nth_error (viewed s host l) k) as [i|] eqn:E; [|apply nth_error_None in E; lia].
  assert (I : In i (viewed s host l)) by (apply nth_error_In with k; exact E). unfold viewed in I. apply filter_In in I as (_ & I).
  destruct (nth_error l i) as [g|] eqn:G; [|discriminate I]. destruct (A k i g E G) as (was & W & W'). exists was, (make_hit s host (g_body g) i was).
  destruct (hit_obj s host (g_body g) i was) as (_ & Z & Y). auto.
Qed.
Example C70_vertical_ex : exists mem', Update ex_s ex_host [ex_g] [ex_hit 77] = Some (mem', 1%nat) /\ exists h, nth_error mem' 0 = Some h /\ k_vz h = 77.
Proof.
  destruct (Update ex_s ex_host [ex_g] [ex_hit 77]) as [[mem' n]|] eqn:E.
  - assert (n = 1%nat) by (unfold Update, scan, ex_s, ex_g in E; rewrite C70_view_ex in E; cbn [put] in E; congruence). subst n. exists mem'. split; [reflexivity|].
    destruct (C70_vertical_refuted _ _ _ _ _ _ 0 E) as (was & new & W & N & Z & _); [lia|]. exists new. split; [exact N|]. cbn in W. injection W as <-. exact Z.
  - exfalso. apply C70_overflow_refuted in E. cbn in E. unfold ex_s, ex_g in E. rewrite C70_view_ex in E. cbn in E. lia.
Qed.

(** The list fetched are the ids of the objects in view, in order, and their number; -1 and nothing for sensors that do not exist. *)
Theorem C70_fetch : forall s host l mem mem' n id sensors sid, Update s host l mem = Some (mem', n) -> (0 <= sid)%Z -> nth_error sensors (Z.to_nat sid) = Some (mem', n) ->
  FetchSensorObjectList (Some sensors) id sid = Some (Z.of_nat (length (viewed s host l)), map id (viewed s host l)).
Proof.
  intros s host l mem mem' n id sensors sid H P N. destruct (Update_some _ _ _ _ _ _ H) as (L & LE & LL & M & _). unfold FetchSensorObjectList.
  assert (B : (Z.to_nat sid < length sensors)%nat) by (apply nth_error_Some; congruence).
  rewrite (proj2 (Z.ltb_ge sid 0)) by lia. rewrite (proj2 (Z.leb_gt _ sid)) by lia. cbn [orb]. rewrite N, (proj2 (Nat.leb_le n (length mem'))) by lia.
  rewrite <- (map_map k_obj id), M, <- L. reflexivity.
Qed.
Theorem C70_fetch_bad : forall player id sid, player = None \/ (exists sensors, player = Some sensors /\ (sid < 0 \/ Z.of_nat (length sensors) <= sid)%Z) ->
  FetchSensorObjectList player id sid = Some ((-1)%Z, []).
Proof.
  intros player id sid [->|(sensors & -> & B)]; [reflexivity|]. cbn. replace ((sid <? 0) || (Z.of_nat (length sensors) <=? sid))%Z with true; [reflexivity|].
  symmetry. apply orb_true_iff. destruct B as [B|B]; [left; apply Z.ltb_lt|right; apply Z.leb_le]; exact B.
Qed.
Example C70_fetch_ex : FetchSensorObjectList (Some [([ex_hit 0], 1%nat)]) (fun i => Z.of_nat i + 10)%Z 0 = Some (1%Z, [10%Z]).
Proof. reflexivity. Qed.

Print Assumptions C70_somewhere.
Print Assumptions C70_view.
Print Assumptions C70_right_view.
Print Assumptions C70_mirror_refuted.
Print Assumptions C70_right_refuted.
Print Assumptions C70_here_refuted.
Print Assumptions C70_domain.
Print Assumptions C70_local.
Print Assumptions C70_yaw.
Print Assumptions C70_rate.
Print Assumptions C70_rate_refuted.
Print Assumptions C70_list.
Print Assumptions C70_overflow_refuted.
Print Assumptions C70_vertical_refuted.
Print Assumptions C70_fetch.
Print Assumptions C70_fetch_bad.
