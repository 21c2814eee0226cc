(** * C69: an object that is to arrive together with another one does so, with the final speed *)
From Coq Require Import Reals Bool List Lra Lia Psatz.
From Verif Require Import AngModel AngProofs BoxModel SynModel SynProofs.
Open Scope R_scope.

(** The speed of the linear profile is the one from which a constant acceleration covers the distance in the time and ends at the final speed. *)
Theorem C69_linear : forall s t f, 1 / 1000 <= t <= LARGE_NUMBER - 1 -> 1 / 1000 <= s -> 0 <= f -> f * t <= 2 * s ->
  0 <= linear s t f /\ (linear s t f + f) / 2 * t = s.
Proof.
  intros s t f T S F L. rewrite (linear_speed s t f T S F L). split; [|field; lra].
  assert (f <= 2 * s / t); [|lra]. apply Rmult_le_reg_r with t; [lra|]. replace (2 * s / t * t) with (2 * s) by (field; lra). lra.
Qed.
Example C69_linear_ex : linear 30 2 10 = 20.
Proof. rewrite linear_speed by (unfold LARGE_NUMBER; lra). field. Qed.

(** In linear mode, the master at constant speed: what the object is off the way of the final speed shrinks with the square of the time left, whatever the time
    step; so do speeds approach the final speed. *)
Theorem C69_line : forall k y v i c dt f, run k y v i c dt (Some f) -> SMALL_NUMBER < c -> 0 < dt -> y_mode (y 0%nat) = MODE_LINEAR -> y_steady (y 0%nat) = None ->
  0 <= f -> f * rest y i 0 <= 2 * way y i 0 -> dt < rest y i 0 <= LARGE_NUMBER - 1 ->
  (forall n, (n < k)%nat -> 1 / 1000 <= way y i n /\ 1 / 1000 <= rest y i n) ->
  let K := rest y i 0 * (rest y i 0 - dt) in let e := way y i 0 - f * rest y i 0 in
  forall n, (n <= k)%nat -> y_mode (y n) = MODE_LINEAR /\ rest y i n = rest y i 0 - INR n * dt
    /\ way y i n - f * rest y i n = e * (rest y i n * (rest y i n - dt)) / K /\ ((0 < n)%nat -> v n = f + 2 * e * rest y i n / K).
Proof.
  intros k y v i c dt f RU C D M ST F L T NEAR K e n N. destruct (run_line k y v i c dt _ RU C D f eq_refl M ST F L T NEAR n N) as (A & B & E).
  split; [exact A|]. split; [exact (run_times k y v i c dt _ RU C n N)|]. split; assumption.
Qed.

(** So with less than a step left of the time the object is there up to the square of the step, at the final speed up to a step. *)
Theorem C69_together : forall k y v i c dt f, run k y v i c dt (Some f) -> SMALL_NUMBER < c -> 0 < dt -> y_mode (y 0%nat) = MODE_LINEAR -> y_steady (y 0%nat) = None ->
  0 <= f -> f * rest y i 0 <= 2 * way y i 0 -> dt < rest y i 0 <= LARGE_NUMBER - 1 ->
  (forall n, (n < k)%nat -> 1 / 1000 <= way y i n /\ 1 / 1000 <= rest y i n) -> (0 < k)%nat -> 0 <= rest y i k <= dt ->
  let K := rest y i 0 * (rest y i 0 - dt) in let e := way y i 0 - f * rest y i 0 in
  Rabs (way y i k - f * rest y i k) <= Rabs e * (dt * dt) / (4 * K) /\ Rabs (v k - f) <= 2 * Rabs e * dt / K.
Proof.
  intros k y v i c dt f RU C D M ST F L T NEAR P E K e. destruct (run_line k y v i c dt _ RU C D f eq_refl M ST F L T NEAR k (le_n k)) as (_ & B & V).
  assert (KP : 0 < K) by (unfold K; apply Rmult_lt_0_compat; lra). split.
  - rewrite B. apply small_end; assumption.
  - rewrite (V P). fold K. fold e. replace (f + 2 * e * rest y i k / K - f) with (e * (2 * rest y i k * / K)) by (unfold Rdiv; ring).
    assert (0 < / K) by (apply Rinv_0_lt_compat; lra).
    assert (0 <= 2 * rest y i k * / K) by (apply Rmult_le_pos; lra).
    rewrite Rabs_mult, (Rabs_right (2 * rest y i k * / K)) by lra.
    replace (2 * Rabs e * dt / K) with (Rabs e * (2 * dt * / K)) by (unfold Rdiv; ring). apply Rmult_le_compat_l; [apply Rabs_pos|]. apply Rmult_le_compat_r; lra.
Qed.
Definition ex_i (d m dt : R) (f : option R) : input := Input false d m 1 10 10 0 f dt.
Lemma ex_master : forall d m dt f, master_speed (ex_i d m dt f) = 10.
Proof. intros. apply (master_forward (ex_i d m dt f)); cbn; lra. Qed.
Definition ex_y (n : nat) : sync := match n with 0%nat => Sync MODE_LINEAR SUBMODE_NONE 0 0 30 20 None | _ => Sync MODE_LINEAR SUBMODE_NONE 0 0 30 20 None end.
Definition ex_in (n : nat) : input := match n with 0%nat => ex_i 30 20 1 (Some 10) | _ => ex_i 10 10 1 (Some 10) end.
(** 30 m left at 10 m/s while the master needs 2 s: after one step of 1 s at 20 m/s it has 10 m left for the last second. *)
Example C69_line_ex : run 1 ex_y (fun n => match n with 0%nat => 10 | _ => 20 end) ex_in 10 1 (Some 10) /\ way ex_y ex_in 1 = 10 /\ rest ex_y ex_in 1 = 1.
Proof.
  split; [|unfold way, rest, ex_in; rewrite ex_master; cbn; split; field].
  constructor; intros n L; try (assert (n = 0%nat) by lia; subst n; cbn; ring); try (destruct n; reflexivity).
  - assert (n = 0%nat) by lia. subst n. unfold ex_in, ex_y. pose proof small_pos. rewrite (Step_linear _ _ _ 10); try reflexivity; rewrite ?ex_master; cbn.
    + replace ((20 - 0) / 10) with 2 by field. replace (30 - 0) with 30 by ring. rewrite C69_linear_ex. reflexivity.
    + lra.
    + apply arrived_not; cbn; lra.
    + lra.
  - destruct n; apply ex_master.
Qed.
Example C69_together_ex : Rabs (way ex_y ex_in 1 - 10 * rest ex_y ex_in 1) = 0.
Proof. destruct C69_line_ex as (_ & -> & ->). replace (10 - 10 * 1) with 0 by ring. apply Rabs_R0. Qed.

(** Without a final speed the same holds for the speed the object has; accelerations are bounded by what is needed at the beginning. *)
Theorem C69_free : forall k y v i c dt, run k y v i c dt None -> SMALL_NUMBER < c -> 0 < dt -> y_steady (y 0%nat) = None -> dt < rest y i 0 ->
  let K := rest y i 0 * (rest y i 0 - dt) in let e := way y i 0 - v 0%nat * rest y i 0 in
  (forall n, (n < k)%nat -> Rabs (v (S n) - v n) <= 2 * Rabs e / K * dt)
  /\ (0 <= rest y i k <= dt -> Rabs (way y i k - v k * rest y i k) <= Rabs e * (dt * dt) / (4 * K)).
Proof.
  intros k y v i c dt RU C D ST T K e. assert (KP : 0 < K) by (unfold K; apply Rmult_lt_0_compat; lra).
  pose proof (run_free k y v i c dt None RU C D eq_refl ST T) as H. cbn zeta in H. split.
  - intros n N. apply (H n); lia.
  - intros E. destruct (H k (le_n k)) as (B & _). rewrite B. apply small_end; assumption.
Qed.
Example C69_free_ex : Step (Sync MODE_NONE SUBMODE_NONE 0 0 30 20 None) 10 (ex_i 30 20 1 None) = (Sync MODE_LINEAR SUBMODE_NONE 0 0 30 20 None, 15, false).
Proof.
  pose proof small_pos. pose proof (ex_master 30 20 1 None) as E. rewrite Step_free; try reflexivity; rewrite ?E; cbn; try lra; [|apply arrived_not; cbn; lra].
  f_equal. f_equal. field.
Qed.

(** Fails: 10 m away at 10 m/s and 10 s to go, without final speed: the object passes its target in the second step, 8 s before the master is there. *)
Theorem C69_early_refuted : exists y0 y1 y2 y3 v1 v2, v1 = 82 / 10 /\ v2 = v1 - 16 / 9
  /\ Step y0 10 (ex_i 10 100 1 None) = (y1, v1, false) /\ Step y1 v1 (ex_i (10 - v1) 90 1 None) = (y2, v2, false)
  /\ Step y2 v2 (ex_i (Rabs (10 - v1 - v2)) 80 1 None) = (y3, v2, true) /\ 10 - v1 - v2 < -4.
Proof.
  pose proof small_pos. exists (Sync MODE_NONE SUBMODE_NONE 0 0 10 100 None), (Sync MODE_LINEAR SUBMODE_NONE 0 0 10 100 None), (Sync MODE_LINEAR SUBMODE_NONE 0 0 (18/10) 90 None).
  exists (Sync MODE_LINEAR SUBMODE_NONE 0 0 (Rabs (10 - 82/10 - (82/10 - 16/9))) 80 None), (82/10), (82/10 - 16/9).
  split; [reflexivity|]. split; [reflexivity|]. split; [|split; [|split; [|lra]]].
  - rewrite Step_free; try reflexivity; rewrite ?ex_master; cbn; try lra; [|apply arrived_not; cbn; lra]. f_equal. f_equal. field.
  - rewrite Step_free; try reflexivity; rewrite ?ex_master; cbn; try lra; [|apply arrived_not; cbn; lra]. replace (10 - 82 / 10) with (18 / 10) by lra. f_equal. f_equal. field.
  - assert (E : Rabs (10 - 82/10 - (82/10 - 16/9)) = 82/10 - 16/9 - 18/10) by (rewrite Rabs_left; lra). rewrite E.
    unfold Step. cbn [i_over ex_i]. fold (ex_i (82/10 - 16/9 - 18/10) 80 1 None). rewrite ex_master, (proj2 (Rltb_true _ _)) by lra.
    assert (AR : arrived (Sync MODE_LINEAR SUBMODE_NONE 0 0 (18/10) 90 None) (ex_i (82/10 - 16/9 - 18/10) 80 1 None) = true).
    { unfold arrived, ex_i. cbn [y_tol y_tolM y_last y_lastM i_dist i_mdist]. rewrite (proj2 (Rltb_true (18/10) _)) by lra. rewrite orb_true_r. reflexivity. }
    rewrite AR. reflexivity.
Qed.

(** Off the line the profile planned has two phases of the same acceleration, up and down or down and up, and covers the distance in the time; there is only one. *)
Theorem C69_plan : forall s t v0 v1, 0 < t -> SMALL_NUMBER <= Rabs (v1 - v0) -> 2 * s <> (v0 + v1) * t ->
  let (vx, acc) := plan s t v0 v1 in
  (exists x, two_phases s t v0 v1 vx acc x) /\ (0 < acc <-> (v0 + v1) * t < 2 * s) /\ (acc < 0 <-> 2 * s < (v0 + v1) * t)
  /\ forall vx' acc' x', two_phases s t v0 v1 vx' acc' x' -> vx' = vx /\ acc' = acc.
Proof.
  intros s t v0 v1 T W OFF. assert (NE : v1 <> v0) by (intros E; replace (v1 - v0) with 0 in W by lra; rewrite Rabs_R0 in W; pose proof small_pos; lra).
  destruct (plan_cases s t v0 v1 T W) as [(P & E & X)|[(P & E)|(P & E & X)]]; rewrite ?(plan_sum s t v0 v1) in P; [| |]; try (exfalso; lra); rewrite E.
  - pose proof (first_fits s t v0 v1 T NE X) as F. pose proof (first_slows s t v0 v1 T) as SL. rewrite plan_sum in SL. specialize (SL ltac:(lra) P (proj1 X) NE).
    split; [eexists; exact F|]. split; [split; lra|]. split; [split; lra|]. intros vx' acc' x' F'.
    destruct (two_phases_unique _ _ _ _ _ _ _ _ _ _ (fun H => NE (eq_sym H)) F' F) as (A & B & _). auto.
  - pose proof (second_fits s t v0 v1 T NE X) as F. pose proof (second_speeds s t v0 v1 T) as SL. rewrite plan_sum in SL. specialize (SL ltac:(lra) P (proj1 X) NE).
    split; [eexists; exact F|]. split; [split; lra|]. split; [split; lra|]. intros vx' acc' x' F'.
    destruct (two_phases_unique _ _ _ _ _ _ _ _ _ _ (fun H => NE (eq_sym H)) F' F) as (A & B & _). auto.
Qed.
(** On the line, and for equal speeds. *)
Theorem C69_plan_equal : forall s t v0 v1, 0 < t ->
  (SMALL_NUMBER <= Rabs (v1 - v0) -> 2 * s = (v0 + v1) * t -> plan s t v0 v1 = (0, 0))
  /\ (Rabs (v1 - v0) < SMALL_NUMBER -> let (vx, acc) := plan s t v0 v1 in two_phases s t v0 v0 vx acc (t / 2)).
Proof.
  intros s t v0 v1 T. split.
  - intros W E. destruct (plan_cases s t v0 v1 T W) as [(P & _)|[(_ & P)|(P & _)]]; [|exact P|]; rewrite plan_sum in P; lra.
  - intros W. unfold plan. rewrite (proj2 (Rltb_true _ _) W). split; [lra|]. repeat split; field; lra.
Qed.
Example C69_plan_ex : let (vx, acc) := plan 100 10 10 10 in vx = 10 /\ acc = 0.
Proof. unfold plan. rewrite (proj2 (Rltb_true _ _)); [split; field|]. replace (10 - 10) with 0 by ring. rewrite Rabs_R0. apply small_pos. Qed.

(** The first step: faster if the average of the speeds is too low, else slower; with the acceleration of the plan. *)
Theorem C69_first : forall sub s t v v1 dt m sub' v', 0 < t -> 0 < s -> 0 <= v -> 0 <= v1 -> SMALL_NUMBER <= Rabs (v1 - v) ->
  2 * s <> (v + v1) * t -> t * (v * v + v1 * v1) <= 2 * s * (v + v1) -> non_linear MODE_NONE sub s t v v v1 dt = (m, sub', v') ->
  m = MODE_NON_LINEAR /\ exists vx acc x, two_phases s t v v1 vx acc x /\ v' = v + acc * dt /\ 0 <= vx
    /\ ((v + v1) * t < 2 * s -> sub' = SUBMODE_CONVEX /\ 0 < acc) /\ (2 * s < (v + v1) * t -> sub' = SUBMODE_CONCAVE /\ acc < 0).
Proof.
  intros sub s t v v1 dt m sub' v' T S0 V V1 W OFF NN H. unfold non_linear in H. cbn [is andb] in H.
  pose proof (C69_plan s t v v1 T W OFF) as P. pose proof (plan_negative s t v v1 T W S0 V V1) as NG. destruct (plan s t v v1) as [vx acc]. cbn [fst] in NG.
  destruct P as ((x & P) & UP & DOWN & _). assert (VX : Rltb vx 0 = false) by (apply Rltb_false; destruct (Rle_lt_dec 0 vx) as [|N]; [assumption|apply NG in N; lra]).
  assert (SB : (v1 + v) / 2 < s / t <-> (v + v1) * t < 2 * s).
  { split; intros Q.
    - apply (Rmult_lt_compat_r (2 * t)) in Q; [|lra]. replace (s / t * (2 * t)) with (2 * s) in Q by (field; lra). replace ((v1 + v) / 2 * (2 * t)) with ((v + v1) * t) in Q by field. exact Q.
    - apply (Rmult_lt_reg_r (2 * t)); [lra|]. replace (s / t * (2 * t)) with (2 * s) by (field; lra). replace ((v1 + v) / 2 * (2 * t)) with ((v + v1) * t) by field. exact Q. }
  rewrite VX in H. apply Rltb_false in VX.
  destruct (Rltb ((v1 + v) / 2) (s / t)) eqn:B.
  - apply Rltb_true in B. apply SB in B. rewrite (proj2 (Rltb_false acc 0)) in H by (apply UP in B; lra). injection H as <- <- <-. split; [reflexivity|].
    exists vx, acc, x. split; [exact P|]. split; [reflexivity|]. split; [exact VX|]. split; [intros _; split; [reflexivity|tauto]|intros; exfalso; lra].
  - apply Rltb_false in B. assert (B2 : 2 * s < (v + v1) * t) by (destruct (Rlt_dec (2 * s) ((v + v1) * t)); [assumption|exfalso; assert (X : (v1 + v) / 2 < s / t) by (apply SB; lra); lra]).
    rewrite (proj2 (Rltb_false 0 acc)) in H by (apply DOWN in B2; lra). injection H as <- <- <-. split; [reflexivity|].
    exists vx, acc, x. split; [exact P|]. split; [reflexivity|]. split; [exact VX|]. split; [intros; exfalso; lra|intros _; split; [reflexivity|tauto]].
Qed.
Example C69_first_ex : exists v, non_linear MODE_NONE SUBMODE_NONE 200 10 10 10 20 1 = (MODE_NON_LINEAR, SUBMODE_CONVEX, v) /\ 10 < v.
Proof.
  destruct (non_linear MODE_NONE SUBMODE_NONE 200 10 10 10 20 1) as [[m sub] v] eqn:E. assert (W : SMALL_NUMBER <= Rabs (20 - 10)) by (rewrite Rabs_right; pose proof small_pos; lra).
  destruct (C69_first SUBMODE_NONE 200 10 10 20 1 m sub v ltac:(lra) ltac:(lra) ltac:(lra) ltac:(lra) W ltac:(lra) ltac:(lra) E) as (-> & vx & acc & x & _ & -> & _ & U & _).
  destruct (U ltac:(lra)) as (-> & P). eexists. split; [reflexivity|lra].
Qed.

(** Going over to the linear mode keeps the speed for the step. *)
Theorem C69_apex : forall mode sub s t v v0 v1 dt sub' v', non_linear mode sub s t v v0 v1 dt = (MODE_LINEAR, sub', v') -> v' = v.
Proof.
  intros mode sub s t v v0 v1 dt sub' v'. unfold non_linear. destruct (_ && _ && _); [congruence|]. destruct (plan _ _ _ _) as [vx acc].
  destruct (match _ with SUBMODE_NONE => _ | _ => _ end); [intros H; injection H as _ <-; ring|]. destruct (Rltb vx 0); [|discriminate].
  unfold to_stop. destruct (Rltb (s / 2) _); destruct (Rltb (_ + _) 0); discriminate.
Qed.
Example C69_apex_ex : non_linear MODE_NON_LINEAR SUBMODE_CONVEX 30 2 20 20 10 1 = (MODE_LINEAR, SUBMODE_CONVEX, 20).
Proof.
  unfold non_linear. cbn [is]. rewrite (proj2 (Rltb_true 2 LARGE_NUMBER)) by (unfold LARGE_NUMBER; lra). rewrite (proj2 (Rltb_true _ _)); [reflexivity|].
  replace (20 - (2 * 30 / 2 - 10)) with 0 by field. rewrite Rabs_R0. lra.
Qed.

(** The apex is below 0 exactly if there is more time than a stop needs: braking to 0 and accelerating again by the same cover the distance and leave time over. *)
Theorem C69_stop : forall s t v0 v1 dt, 0 < t -> 0 < s -> 0 < v0 -> v0 <= v1 -> SMALL_NUMBER <= Rabs (v1 - v0) -> SMALL_NUMBER < 2 * v0 * s / (v0 * v0 + v1 * v1) ->
  fst (plan s t v0 v1) < 0 ->
  let a := (v0 * v0 + v1 * v1) / (2 * s) in 0 < a /\ v0 * v0 / (2 * a) + v1 * v1 / (2 * a) = s /\ v0 / a + v1 / a < t
  /\ to_stop s v0 v1 dt = if Rltb (v0 - a * dt) 0 then None else Some (- a, MODE_NON_LINEAR).
Proof.
  intros s t v0 v1 dt T S0 V L W SM NG a. apply plan_negative in NG; try assumption; try lra. assert (Q : 0 < v0 * v0 + v1 * v1) by nra.
  assert (A : 0 < a) by (apply Rdiv_lt_0_compat; lra). split; [exact A|]. split; [unfold a; field; split; lra|]. split.
  - replace (v0 / a + v1 / a) with (2 * s * (v0 + v1) / (v0 * v0 + v1 * v1)) by (unfold a; field; split; lra).
    apply Rmult_lt_reg_r with (v0 * v0 + v1 * v1); [lra|]. replace (2 * s * (v0 + v1) / (v0 * v0 + v1 * v1) * (v0 * v0 + v1 * v1)) with (2 * s * (v0 + v1)) by (field; lra). exact NG.
  - rewrite to_stop_later by assumption. cbn zeta. replace (- (v0 * v0 + v1 * v1) / (2 * s)) with (- a) by (unfold a; field; lra).
    replace (v0 + - a * dt) with (v0 - a * dt) by ring. reflexivity.
Qed.
(** If it is faster than the final speed it stops with 8 m/s2, waits, and goes on. *)
Theorem C69_stop_now : forall s v0 v1 dt, 0 < s -> 0 < v0 -> 0 <= v1 -> v1 < v0 ->
  to_stop s v0 v1 dt = if Rltb (v0 + -8 * dt) 0 then None else Some (-8, MODE_STOP_IMMEDIATELY).
Proof. exact to_stop_now. Qed.
Example C69_stop_ex : to_stop 100 10 10 1 = Some (-1, MODE_NON_LINEAR).
Proof.
  rewrite to_stop_later by (pose proof small_pos; lra). cbn zeta. replace (- (10 * 10 + 10 * 10) / (2 * 100)) with (-1) by field. rewrite (proj2 (Rltb_false _ _)) by lra. reflexivity.
Qed.
Theorem C69_brake : forall sub s t v v0 v1 dt, towards MODE_STOP_IMMEDIATELY sub s t v v0 v1 dt =
  if Rltb (v - 8 * dt) 0 then (MODE_WAITING, sub, 0) else (MODE_STOP_IMMEDIATELY, sub, v - 8 * dt).
Proof. intros. cbn. unfold MAX_DECELERATION. replace (v + -8 * dt) with (v - 8 * dt) by ring. reflexivity. Qed.
Example C69_brake_ex : towards MODE_STOP_IMMEDIATELY SUBMODE_NONE 100 10 7 7 5 1 = (MODE_WAITING, SUBMODE_NONE, 0).
Proof. rewrite C69_brake, (proj2 (Rltb_true _ _)) by lra. reflexivity. Qed.

(** It stands until the way left takes all the time left, from 0 to the final speed; then it goes. *)
Theorem C69_restart : forall sub s t v v0 v1 dt, 0 < v1 -> 1 / 1000 <= t <= LARGE_NUMBER - 1 -> 1 / 1000 <= s ->
  (2 * s <= v1 * t -> towards MODE_STOPPED sub s t v v0 v1 dt = (MODE_STOPPED, sub, 0))
  /\ (v1 * t < 2 * s -> exists v', towards MODE_STOPPED sub s t v v0 v1 dt = (MODE_LINEAR, sub, v') /\ 0 < v' /\ (v' + v1) / 2 * t = s).
Proof.
  intros sub s t v v0 v1 dt V T S0. assert (B : t < 2 * s / v1 <-> v1 * t < 2 * s).
  { split; intros Q.
    - apply (Rmult_lt_compat_r v1) in Q; [|lra]. replace (2 * s / v1 * v1) with (2 * s) in Q by (field; lra). lra.
    - apply (Rmult_lt_reg_r v1); [lra|]. replace (2 * s / v1 * v1) with (2 * s) by (field; lra). lra. }
  cbn [towards]. destruct (Req_EM_T v1 0); [lra|]. split; intros L.
  - rewrite (proj2 (Rltb_false _ _)); [reflexivity|]. destruct (Rle_lt_dec (2 * s / v1) t) as [|N]; [assumption|apply B in N; lra].
  - rewrite (proj2 (Rltb_true _ _)) by (apply B; exact L). exists (linear s t v1). split; [reflexivity|]. rewrite linear_speed by lra. split; [|field; lra].
    assert (v1 < 2 * s / t); [|lra]. apply Rmult_lt_reg_r with t; [lra|]. replace (2 * s / t * t) with (2 * s) by (field; lra). exact L.
Qed.
Example C69_restart_ex : towards MODE_STOPPED SUBMODE_NONE 10 2 0 0 10 1 = (MODE_STOPPED, SUBMODE_NONE, 0).
Proof. apply (proj1 (C69_restart SUBMODE_NONE 10 2 0 0 10 1 ltac:(lra) ltac:(unfold LARGE_NUMBER; lra) ltac:(lra))). lra. Qed.

(** The speed of the master counts towards its target: forwards to one ahead, or backwards to one behind; else it is below 0. *)
Theorem C69_master : forall i, i_dir i = 1 \/ i_dir i = -1 ->
  ((0 <= i_mspeed i <-> i_dir i = 1) -> master_speed i = Rabs (i_mvel i)) /\ ((0 <= i_mspeed i <-> i_dir i = -1) -> master_speed i = - Rabs (i_mvel i)).
Proof.
  intros i D. unfold master_speed, SIGN. destruct (Rltb (i_mspeed i) 0) eqn:B; [apply Rltb_true in B|apply Rltb_false in B]; split; intros (H1 & H2).
  - destruct D as [D|D]; [specialize (H2 D); lra|]. rewrite D. ring.
  - destruct D as [D|D]; [rewrite D; ring|specialize (H2 D); lra].
  - rewrite (H1 B). ring.
  - rewrite (H1 B). ring.
Qed.
Example C69_master_ex : master_speed (Input false 30 20 (-1) (-5) 5 0 None 1) = 5.
Proof. rewrite (proj1 (C69_master (Input false 30 20 (-1) (-5) 5 0 None 1) ltac:(cbn; lra))); cbn; [rewrite Rabs_right; lra|split; lra]. Qed.

(** A step with a final speed does what the mode asks for with distance and time left (less those of the steady state) and the own speed along the road. *)
Theorem C69_step : forall y v i y' v' f, i_over i = false -> Step y v i = (y', v', false) -> SMALL_NUMBER < master_speed i -> i_final i = Some f ->
  let s := i_dist i - y_tol y in let t := (i_mdist i - y_tolM y) / master_speed i in let v0 := if Rltb v 0 then - Rabs (i_vel i) else Rabs (i_vel i) in
  (y_steady y = None -> (y_mode y', y_sub y', v') = towards (y_mode y) (y_sub y) s t v v0 f (i_dt i))
  /\ (forall d, y_steady y = Some d -> y_mode y' <> MODE_STEADY_STATE ->
       (y_mode y', y_sub y', v') = towards (y_mode y) (y_sub y) (s - d) (t - d / f) v v0 f (i_dt i)).
Proof.
  intros y v i y' v' f O H MS F s t v0. destruct (Step_goes _ _ _ _ _ O H) as (_ & _ & _ & _ & _ & _ & G & _). destruct (G MS) as (_ & _ & G3). clear G. rewrite F in G3.
  assert (VE : SIGN v * Rabs (i_vel i) = v0) by (unfold v0, SIGN; destruct (Rltb v 0); ring). rewrite VE in G3. fold s t in G3. split.
  - intros ST. rewrite ST in G3. exact G3.
  - intros d ST NS. rewrite ST in G3. unfold before_steady in G3. destruct (is (y_mode y) MODE_STEADY_STATE) eqn:IS.
    + apply is_true in IS. rewrite IS in G3. cbn [towards] in G3. injection G3 as E _ _. contradiction.
    + cbn zeta in G3. destruct (_ || _); [cbn [towards] in G3; injection G3 as E _ _; contradiction|exact G3].
Qed.
Example C69_step_ex : exists y', Step (ex_y 0) 10 (ex_i 30 20 1 (Some 10)) = (y', 20, false).
Proof. destruct C69_line_ex as (RU & _). eexists. exact (r_step _ _ _ _ _ _ _ RU 0 (le_n 1)). Qed.

(** When the action ends, and the speed then. *)
Theorem C69_end : forall y v i y' v' b, i_over i = false -> Step y v i = (y', v', b) ->
  (b = true <-> i_dist i < y_tol y + SMALL_NUMBER \/ i_mdist i < y_tolM y + SMALL_NUMBER \/ y_last y < i_dist i \/ y_lastM y < i_mdist i
     \/ (SMALL_NUMBER < master_speed i /\ (i_mdist i - y_tolM y) / master_speed i < i_dt i))
  /\ (b = true -> forall f, i_final i = Some f -> v' = f).
Proof. exact Step_end. Qed.
Example C69_end_ex : exists y', Step (ex_y 0) 10 (ex_i 10 5 1 (Some 7)) = (y', 7, true).
Proof.
  destruct (Step (ex_y 0) 10 (ex_i 10 5 1 (Some 7))) as [[y' v'] b] eqn:E. destruct (C69_end (ex_y 0) 10 (ex_i 10 5 1 (Some 7)) y' v' b eq_refl E) as (B & V). exists y'. pose proof small_pos.
  assert (b = true) by (apply B; right; right; right; right; rewrite ex_master; cbn; lra). subst b. rewrite (V eq_refl 7 eq_refl). reflexivity.
Qed.

(** While it goes on both are getting nearer, and members but mode and distances stay. *)
Theorem C69_closer : forall y v i y' v', i_over i = false -> Step y v i = (y', v', false) ->
  y_last y' = i_dist i /\ i_dist i <= y_last y /\ y_lastM y' = i_mdist i /\ i_mdist i <= y_lastM y
  /\ y_tol y' = y_tol y /\ y_tolM y' = y_tolM y /\ y_steady y' = y_steady y.
Proof.
  intros y v i y' v' O H. destruct (Step_goes _ _ _ _ _ O H) as (AR & H1 & H2 & H3 & H4 & H5 & _). apply arrived_false in AR. repeat split; try assumption; lra.
Qed.
Example C69_closer_ex : y_last (ex_y 1) <= y_last (ex_y 0).
Proof. cbn. lra. Qed.

(** While the longitudinal motion is controlled elsewhere nothing is done. *)
Theorem C69_over : forall y v i, i_over i = true -> Step y v i = (y, v, false).
Proof. intros y v i O. unfold Step. rewrite O. reflexivity. Qed.
Example C69_over_ex : Step (ex_y 0) 10 (Input true 0 0 1 10 10 0 (Some 7) 1) = (ex_y 0, 10, false).
Proof. apply C69_over. reflexivity. Qed.

(** While the master does not come nearer the object stands. *)
Theorem C69_wait : forall y v i y' v', i_over i = false -> Step y v i = (y', v', false) -> master_speed i <= SMALL_NUMBER -> y_steady y = None ->
  y_mode y <> MODE_WAITING \/ v = 0 -> y_mode y' = MODE_WAITING /\ v' = 0.
Proof.
  intros y v i y' v' O H MS ST C. destruct (Step_goes _ _ _ _ _ O H) as (_ & _ & _ & _ & _ & _ & _ & G). specialize (G MS). cbn zeta in G. rewrite ST in G.
  assert (VE : (if is (y_mode y) MODE_WAITING then v else 0) = 0).
  { destruct (is (y_mode y) MODE_WAITING) eqn:E; [|reflexivity]. apply is_true in E. destruct C as [C|C]; [contradiction|exact C]. }
  rewrite VE in G. destruct (i_final i) as [f|]; [|exact G]. cbn [before_steady towards] in G. rewrite (proj2 (Rltb_false LARGE_NUMBER LARGE_NUMBER)) in G by lra.
  injection G as -> _ ->. auto.
Qed.
Example C69_wait_ex : master_speed (Input false 30 20 1 0 0 0 (Some 7) 1) <= SMALL_NUMBER.
Proof. rewrite master_forward; cbn; pose proof small_pos; lra. Qed.

(** The steady state is entered as soon as distance or time left are those of the steady state at final speed, and kept, at final speed. *)
Theorem C69_steady : forall y v i y' v' d f, i_over i = false -> Step y v i = (y', v', false) -> SMALL_NUMBER < master_speed i -> y_steady y = Some d ->
  i_final i = Some f ->
  (y_mode y' = MODE_STEADY_STATE <-> y_mode y = MODE_STEADY_STATE \/ i_dist i - y_tol y - d < SMALL_NUMBER
     \/ (i_mdist i - y_tolM y) / master_speed i - d / f < SMALL_NUMBER)
  /\ (y_mode y' = MODE_STEADY_STATE -> v' = f).
Proof. exact Step_steady. Qed.
Example C69_steady_ex : before_steady MODE_LINEAR SUBMODE_NONE (Some 20) 15 3 10 = (MODE_STEADY_STATE, SUBMODE_NONE, 15, 3).
Proof. cbn. rewrite (proj2 (Rltb_true (15 - 20) _)) by (pose proof small_pos; lra). reflexivity. Qed.
(** The steady state as time is the distance at final speed; as distance it stays. *)
Theorem C69_start : forall pos (st : steady pos) f ds, t_type (Start st f ds) <> STEADY_STATE_TIME /\ t_type (Start st f ds) <> STEADY_STATE_POS
  /\ (t_type st = STEADY_STATE_TIME -> t_dist (Start st f ds) = t_time st * f) /\ (t_type st = STEADY_STATE_DIST -> t_dist (Start st f ds) = t_dist st)
  /\ (t_type st = STEADY_STATE_NONE -> t_type (Start st f ds) = STEADY_STATE_NONE).
Proof. intros pos st f ds. unfold Start. destruct (t_type st) eqn:E; cbn; repeat split; try congruence; discriminate. Qed.
Example C69_start_ex : t_dist (Start (Steady STEADY_STATE_TIME tt 3 0) 10 (fun _ => 0)) = 30.
Proof. cbn. ring. Qed.

(** Fails: given by a position before the target, with the distance counted from the target to it, below 0, the steady state is not entered before the end. *)
Theorem C69_steady_position_refuted : forall pos (st : steady pos) f ds, t_type st = STEADY_STATE_POS -> ds (t_pos st) < 0 -> 0 < f ->
  t_type (Start st f ds) = STEADY_STATE_DIST /\
  forall y v i y' v', i_over i = false -> Step y v i = (y', v', false) -> SMALL_NUMBER < master_speed i -> y_steady y = Some (t_dist (Start st f ds)) ->
    i_final i = Some f -> SMALL_NUMBER <= i_dt i -> y_mode y <> MODE_STEADY_STATE -> y_mode y' <> MODE_STEADY_STATE.
Proof.
  intros pos st f ds E D F. unfold Start. rewrite E. cbn [t_dist t_type]. split; [reflexivity|]. intros y v i y' v' O H MS ST FI DT M M'.
  destruct (Step_steady _ _ _ _ _ _ _ O H MS ST FI) as (B & _). destruct (Step_goes _ _ _ _ _ O H) as (AR & _ & _ & _ & _ & _ & G & _). destruct (G MS) as (T & _).
  apply arrived_false in AR. assert (Q : ds (t_pos st) / f < 0) by (apply Rmult_lt_reg_r with f; [lra|]; replace (ds (t_pos st) / f * f) with (ds (t_pos st)) by (field; lra); lra).
  apply B in M' as [M'|[M'|M']]; [contradiction|lra|lra].
Qed.
Example C69_steady_position_ex : t_dist (Start (Steady STEADY_STATE_POS 80 0 0) 10 (fun p => p - 100)) = -20.
Proof. cbn. ring. Qed.

(** Fails: copies of the action do not have the time of the steady state, whatever it is, and lose the tolerances. *)
Theorem C69_copy_refuted : (forall pos (was orig : steady pos), t_time (copy_steady was orig) = t_time was)
  /\ (exists orig : steady unit, t_type orig = STEADY_STATE_TIME /\ forall w, t_time (copy_steady (Steady STEADY_STATE_NONE tt w 0) orig) = t_time orig -> w = 3)
  /\ exists y, 0 < y_tol y /\ y_tol (copy y (y_steady y)) = 0.
Proof.
  split; [intros pos was orig; unfold copy_steady; destruct (t_type was) eqn:E; cbn; reflexivity|]. split.
  - exists (Steady STEADY_STATE_TIME tt 3 0). split; [reflexivity|]. intros w H. exact H.
  - exists (Sync MODE_NONE SUBMODE_NONE 1 1 0 0 None). cbn. split; [lra|reflexivity].
Qed.
(** It is right if the memory happened to be of the same kind, but for the time. *)
Theorem C69_copy : forall pos (was orig : steady pos), t_type (copy_steady was orig) = t_type orig
  /\ (t_type was = STEADY_STATE_DIST -> t_dist (copy_steady was orig) = t_dist orig) /\ (t_type was = STEADY_STATE_POS -> t_pos (copy_steady was orig) = t_pos orig).
Proof. intros pos was orig. unfold copy_steady. destruct (t_type was) eqn:E; cbn; repeat split; intros; try discriminate; reflexivity. Qed.
Example C69_copy_ex : t_dist (copy_steady (Steady STEADY_STATE_DIST tt 0 0) (Steady STEADY_STATE_DIST tt 0 5)) = 5.
Proof. reflexivity. Qed.

(** Distances are those along the trajectory if there is one that has it, else along roads, else straight ones; never below 0. *)
Theorem C69_far : forall traj delta world, 0 <= far_off traj delta world
  /\ (forall d, traj = Some (true, d) -> Rabs d <= LARGE_NUMBER - SMALL_NUMBER -> far_off traj delta world = Rabs d)
  /\ (forall ds, traj = None \/ (exists d, traj = Some (false, d)) -> delta = Some ds -> far_off traj delta world = Rabs ds)
  /\ (traj = None \/ (exists d, traj = Some (false, d)) -> delta = None -> far_off traj delta world = Rabs world).
Proof.
  intros traj delta world. unfold far_off. repeat split.
  - destruct traj as [[ok d]|]; [destruct (_ || _)|]; destruct delta; apply Rabs_pos.
  - intros d -> L. rewrite (proj2 (Rltb_false _ _) L). reflexivity.
  - intros ds [->|(d & ->)] ->; reflexivity.
  - intros [->|(d & ->)] ->; reflexivity.
Qed.
Example C69_far_ex : far_off None (Some (-5)) 3 = 5.
Proof. cbn. rewrite Rabs_left; lra. Qed.

(** Fails: within a millimetre the object is stopped, also if it goes just at the final speed. *)
Theorem C69_near_refuted : (forall s t f, s < 1 / 1000 -> linear s t f = 0) /\ exists s t f, 0 < f /\ s = f * t /\ 1 / 1000 <= t <= LARGE_NUMBER - 1 /\ 2 * s / t - f = f /\ linear s t f = 0.
Proof.
  assert (A : forall s t f, s < 1 / 1000 -> linear s t f = 0).
  { intros s t f S0. unfold linear, CalcSpeedForLinearProfile. destruct (Rltb (LARGE_NUMBER - 1) t); [reflexivity|]. rewrite (proj2 (Rltb_true s _) S0), orb_true_r.
    apply MAX_ge. lra. }
  split; [exact A|]. exists (1 / 2000), (1 / 1000), (1 / 2). repeat split; try lra; [unfold LARGE_NUMBER; lra|apply A; lra].
Qed.

(** Fails: braking towards the apex may pass 0 within a step: 0.5 m and 0.1 s left at 10 m/s, one step later the object drives back at 10 m/s. *)
Theorem C69_negative_refuted : exists s t v dt, 0 < s /\ dt <= t /\ 0 < v /\ non_linear MODE_NONE SUBMODE_NONE s t v v v dt = (MODE_NON_LINEAR, SUBMODE_CONCAVE, -10).
Proof.
  exists (5 / 10), (1 / 10), 10, (1 / 10). split; [lra|]. split; [lra|]. split; [lra|]. unfold non_linear, plan. cbn [is andb]. pose proof small_pos.
  rewrite (proj2 (Rltb_true (Rabs (10 - 10)) _)) by (replace (10 - 10) with 0 by ring; rewrite Rabs_R0; lra).
  rewrite (proj2 (Rltb_false ((10 + 10) / 2) _)) by lra. cbn zeta.
  replace ((5 / 10 - 1 / 10 / 2 * 10) / (1 / 10 / 2)) with 0 by field. rewrite (proj2 (Rltb_false 0 ((0 - 10) / _))) by lra. rewrite (proj2 (Rltb_false 0 0)) by lra.
  f_equal. field.
Qed.

Print Assumptions C69_linear.
Print Assumptions C69_line.
Print Assumptions C69_together.
Print Assumptions C69_free.
Print Assumptions C69_early_refuted.
Print Assumptions C69_plan.
Print Assumptions C69_plan_equal.
Print Assumptions C69_first.
Print Assumptions C69_apex.
Print Assumptions C69_stop.
Print Assumptions C69_stop_now.
Print Assumptions C69_brake.
Print Assumptions C69_restart.
Print Assumptions C69_master.
Print Assumptions C69_step.
Print Assumptions C69_end.
Print Assumptions C69_closer.
Print Assumptions C69_over.
Print Assumptions C69_wait.
Print Assumptions C69_steady.
Print Assumptions C69_start.
Print Assumptions C69_steady_position_refuted.
Print Assumptions C69_copy_refuted.
Print Assumptions C69_copy.
Print Assumptions C69_far.
Print Assumptions C69_near_refuted.
Print Assumptions C69_negative_refuted.
