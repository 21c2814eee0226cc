(** * C53: transitions, speed actions, lane offset and lane change actions *)
From Coq Require Import Reals Bool ZArith List Lra Lia.
Import ListNotations.
From Verif Require Import AngModel AngProofs GeoModel TransModel TransProofs SpeedProofs LatProofs.
Open Scope R_scope.

Lemma ex_regular : forall s d, proper s -> regular (TD s d 0 4 4 1 0 0).
Proof. intros s d P. split; [exact P|]. cbn. unfold SMALL_NUMBER. lra. Qed.
Lemma lin : proper LINEAR. Proof. left. reflexivity. Qed.
Lemma cub : proper CUBIC. Proof. right. left. reflexivity. Qed.
Lemma sinu : proper SINUSOIDAL. Proof. right. right. reflexivity. Qed.

(** ** Transitions.  [regular]: shape linear, cubic or sinusoidal, extent at least SMALL_NUMBER; [at_ t p]: [t] at parameter value [p]. *)

(** The value is the curve of the shape, scaled to start and target. *)
Theorem C53_curve : forall t, regular t -> Evaluate t SHAPE_UNDEFINED = t_start t + (t_target t - t_start t) * curve (t_shape t) (t_pval t / t_ptarget t).
Proof. exact eval_curve. Qed.
Example C53_curve_ex : Evaluate (TD CUBIC TIME 0 4 4 1 1 0) SHAPE_UNDEFINED = 0.625.
Proof. rewrite C53_curve by exact (ex_regular CUBIC TIME cub). cbn. lra. Qed.

(** It goes from start to target. *)
Theorem C53_endpoints : forall t, regular t -> Evaluate (at_ t 0) SHAPE_UNDEFINED = t_start t /\ Evaluate (at_ t (t_ptarget t)) SHAPE_UNDEFINED = t_target t.
Proof. intros t G. split; [exact (eval_start_l t G)|exact (eval_end_l t G)]. Qed.
Example C53_endpoints_ex : Evaluate (at_ (TD SINUSOIDAL TIME 0 4 4 1 0 0) 4) SHAPE_UNDEFINED = 4.
Proof. exact (proj2 (C53_endpoints _ (ex_regular SINUSOIDAL TIME sinu))). Qed.

(** It never leaves the interval between them, and never turns back. *)
Theorem C53_between : forall t, regular t -> 0 <= t_pval t <= t_ptarget t -> between (t_start t) (Evaluate t SHAPE_UNDEFINED) (t_target t).
Proof. exact eval_between_l. Qed.
Example C53_between_ex : between 0 (Evaluate (TD SINUSOIDAL TIME 0 4 4 1 3 0) SHAPE_UNDEFINED) 4.
Proof. apply (C53_between (TD SINUSOIDAL TIME 0 4 4 1 3 0)); [exact (ex_regular SINUSOIDAL TIME sinu)|cbn; lra]. Qed.

Theorem C53_monotone : forall t p q, regular t -> 0 <= p -> p <= q -> q <= t_ptarget t ->
  between (Evaluate (at_ t p) SHAPE_UNDEFINED) (Evaluate (at_ t q) SHAPE_UNDEFINED) (t_target t).
Proof. exact eval_monotone_l. Qed.
Example C53_monotone_ex : between (Evaluate (at_ (TD CUBIC TIME 0 4 4 1 0 0) 1) SHAPE_UNDEFINED) (Evaluate (at_ (TD CUBIC TIME 0 4 4 1 0 0) 2) SHAPE_UNDEFINED) 4.
Proof. apply (C53_monotone (TD CUBIC TIME 0 4 4 1 0 0)); [exact (ex_regular CUBIC TIME cub)|lra|lra|cbn; lra]. Qed.

(** The target is not met before the end. *)
Theorem C53_not_early : forall t, regular t -> t_start t <> t_target t -> 0 <= t_pval t < t_ptarget t -> Evaluate t SHAPE_UNDEFINED <> t_target t.
Proof. exact eval_inner_l. Qed.
Example C53_not_early_ex : Evaluate (TD SINUSOIDAL TIME 0 4 4 1 3 0) SHAPE_UNDEFINED <> 4.
Proof. apply (C53_not_early (TD SINUSOIDAL TIME 0 4 4 1 3 0)); [exact (ex_regular SINUSOIDAL TIME sinu)|cbn; lra|cbn; lra]. Qed.

(** EvaluatePrim is the derivative of Evaluate. *)
Theorem C53_derivative : forall t, regular t -> derivable_pt_lim (fun p => Evaluate (at_ t p) SHAPE_UNDEFINED) (t_pval t) (EvaluatePrim t).
Proof. exact prim_derivative_l. Qed.
Example C53_derivative_ex : derivable_pt_lim (fun p => Evaluate (TD CUBIC TIME 0 4 4 1 p 0) SHAPE_UNDEFINED) 2 1.5.
Proof.
  assert (H := C53_derivative (TD CUBIC TIME 0 4 4 1 2 0) (ex_regular CUBIC TIME cub)).
  rewrite (prim_slope (TD CUBIC TIME 0 4 4 1 2 0) (ex_regular CUBIC TIME cub)) in H. cbn in H. unfold delta in H. cbn in H.
  replace 1.5 with ((4 - 0) / 4 * (6 * (2 / 4) * (1 - 2 / 4))) by lra. exact H.
Qed.

(** Its largest size is that of EvaluatePrimPeak, taken in the middle. *)
Theorem C53_peak : forall t, regular t -> t_dim t <> RATE ->
  (forall p, 0 <= p <= t_ptarget t -> Rabs (EvaluatePrim (at_ t p)) <= Rabs (EvaluatePrimPeak t)) /\ EvaluatePrim (at_ t (t_ptarget t / 2)) = EvaluatePrimPeak t.
Proof.
  intros t G D. assert (PK := peak_steepest t G D). pose proof (proj2 G) as T. pose proof small_pos. split.
  - intros p B. rewrite PK. assert (H1 := prim_bound_l (at_ t p) G B). cbn [at_ t_ptarget t_shape] in H1. change (delta (at_ t p)) with (delta t) in H1.
    pose proof (steepest_ge _ (proj1 G)). unfold Rdiv in *. rewrite !Rabs_mult, (Rabs_right (/ t_ptarget t)), (Rabs_right (steepest (t_shape t))); [exact H1|lra|].
    apply Rle_ge, Rlt_le, Rinv_0_lt_compat. lra.
  - rewrite PK. exact (prim_mid_l t G).
Qed.
Example C53_peak_ex : EvaluatePrimPeak (TD CUBIC TIME 0 4 4 1 0 0) = 1.5.
Proof. rewrite (peak_steepest (TD CUBIC TIME 0 4 4 1 0 0)) by (exact (ex_regular CUBIC TIME cub) || discriminate). unfold delta. cbn. lra. Qed.

(** The extent computed from a peak of the rate has that peak. *)
Theorem C53_by_peak : forall t r, proper (t_shape t) -> t_dim t <> RATE -> r <> 0 ->
  let t' := TD (t_shape t) (t_dim t) (t_start t) (t_target t) (GetTargetParamValByPrimPeak t r) (t_scale t) (t_pval t) (t_rate t) in
  SMALL_NUMBER <= t_ptarget t' -> EvaluatePrimPeak t' = r.
Proof.
  intros t r P D R t' T. pose proof small_pos as SM. rewrite (peak_steepest t'); [|split; [exact P|exact T]|exact D].
  unfold t' in *. cbn [t_ptarget t_shape] in *. change (delta (TD _ _ _ _ _ _ _ _)) with (delta t). rewrite (by_peak_l t r P R) in *.
  assert (NZ : delta t <> 0) by (intros Z; rewrite Z in T; unfold Rdiv in T; rewrite Rmult_0_r, Rmult_0_l in T; lra).
  pose proof (steepest_ge _ P). field. repeat split; try assumption; lra.
Qed.
Example C53_by_peak_ex : GetTargetParamValByPrimPeak (TD CUBIC TIME 0 4 0 1 0 0) 1.5 = 4.
Proof. unfold GetTargetParamValByPrimPeak, delta. cbn. lra. Qed.

(** With the dimension rate, the extent is such that the steepest slope is the rate, once UpdateRate ran. *)
Theorem C53_rate : forall t, proper (t_shape t) -> t_dim t = RATE -> UpdateRate t = t -> SMALL_NUMBER <= Rabs (t_rate t) ->
  regular t /\ (forall p, 0 <= p <= t_ptarget t -> Rabs (EvaluatePrim (at_ t p)) <= Rabs (t_rate t)) /\
  (SMALL_NUMBER <= steepest (t_shape t) * Rabs (delta t) / Rabs (t_rate t) -> EvaluatePrim (at_ t (t_ptarget t / 2)) = t_rate t).
Proof.
  intros t P D U R. destruct (rate_regular t P U D R) as (G & B & E). split; [exact G|]. split.
  - intros p Bp. apply Rle_trans with (2 := B). exact (prim_bound_l (at_ t p) G Bp).
  - intros L. rewrite (prim_mid_l t G). exact (E L).
Qed.
Example C53_rate_ex : let t := UpdateRate (TD LINEAR RATE 0 4 0 1 0 2) in UpdateRate t = t /\ t_ptarget t = 2.
Proof.
  split; [apply update_settled|]. unfold UpdateRate, NEAR_ZERO, SIGN, delta. rc. unfold SMALL_NUMBER. rb. cbn [is_rate andb negb t_ptarget].
  unfold GetTargetParamValByPrimPeak, AVOID_ZERO, SIGN, RMAX, delta, SMALL_NUMBER. rc. rb. lra.
Qed.

(** SetMaxRate: the scaled rate respects the maximum (of at least SMALL_NUMBER) everywhere. *)
Theorem C53_max_rate : forall t m p, regular t -> (t_dim t = RATE -> UpdateRate t = t /\ SMALL_NUMBER <= Rabs (t_rate t)) -> 0 <= p <= t_ptarget t ->
  Rabs (EvaluatePrim (at_ t p)) / t_scale (SetMaxRate t m) <= Rmax SMALL_NUMBER (Rabs m).
Proof.
  intros t m p G H B. destruct (max_rate_l t m G H) as (S & _ & L). rewrite rmax_Rmax in L. apply Rle_trans with (2 := L).
  unfold Rdiv at 1. unfold Rdiv at 1. apply Rmult_le_compat_r; [apply Rlt_le, Rinv_0_lt_compat, S|]. exact (prim_bound_l (at_ t p) G B).
Qed.
Example C53_max_rate_ex : t_scale (SetMaxRate (TD CUBIC TIME 0 4 4 1 0 0) 0.5) = 3.
Proof. unfold SetMaxRate, EvaluatePrimPeak, stepping, AVOID_ZERO, RMAX, SIGN, delta, SMALL_NUMBER. rc. rb. lra. Qed.

(** Two steps are one step of the sum. *)
Theorem C53_step_add : forall t a b, 0 <= t_pval t <= t_ptarget t -> 0 < t_scale t -> 0 <= a -> 0 <= b -> Step (Step t a) b = Step t (a + b).
Proof. exact step_add_l. Qed.
Example C53_step_add_ex : t_pval (Step (Step (TD CUBIC TIME 0 4 4 1 0 0) 1) 2) = 3.
Proof. rewrite C53_step_add; cbn [t_pval t_ptarget t_scale]; try lra. unfold Step. rc. rb. lra. Qed.

Theorem C53_step_range : forall t d, 0 <= t_ptarget t -> 0 <= t_pval (Step t d) <= t_ptarget t.
Proof. exact step_range_l. Qed.
Example C53_step_range_ex : t_pval (Step (TD CUBIC TIME 0 4 4 1 1 0) (-7)) = 0.
Proof. unfold Step. rc. rb. reflexivity. Qed.

(** Step functions: the target at once. *)
Theorem C53_step_shape : forall t sh, t_shape t = STEP \/ (t_dim t <> RATE /\ t_ptarget t < SMALL_NUMBER) -> Evaluate t sh = t_target t.
Proof.
  intros t sh H. unfold Evaluate. replace (stepping t) with true; [reflexivity|]. symmetry. unfold stepping. destruct H as [H|[H1 H2]]; [rewrite H; reflexivity|].
  replace (is_rate (t_dim t)) with false by (destruct (t_dim t); congruence || reflexivity). rewrite (proj2 (Rltb_true _ _) H2). cbn. apply orb_true_r.
Qed.
Example C53_step_shape_ex : Evaluate (TD STEP TIME 0 4 4 1 1 0) SHAPE_UNDEFINED = 4.
Proof. apply (C53_step_shape (TD STEP TIME 0 4 4 1 1 0)). left. reflexivity. Qed.

(** ** Speed action.  [sane]: no negative limit; [limit p t]: the limit of acceleration or of deceleration. *)

(** Start: at the current speed, towards the target cut to the largest speed, within the acceleration limit throughout. *)
Theorem C53_speed_start : forall p v st st', sane p -> speed_start p false v st = Some st' -> proper (t_shape (s_td st)) ->
  SMALL_NUMBER <= t_ptarget (s_td st') -> (t_dim (s_td st) = RATE -> SMALL_NUMBER <= Rabs (t_rate (s_td st))) -> let t := s_td st' in
  t_pval t = 0 /\ t_start t = s_speed st /\ t_target t = clip v (p_speed p) /\ s_speed st' = s_speed st /\ s_ended st' = false /\ 0 < t_scale t /\
  (forall q, 0 <= q <= t_ptarget t -> Rabs (EvaluatePrim (at_ t q)) / t_scale t <= Rmax SMALL_NUMBER (limit p t)).
Proof.
  intros p v st st' SA H P T R t. destruct (start_l p v st st' SA H P T R) as ((G & _ & SC & _ & TOP) & PV & S & TG & SP & _ & EN & _).
  fold t in G, SC, TOP, PV, S, TG. rewrite abs_limit_clip in TG by apply SA. repeat split; try assumption.
  intros q B. apply Rle_trans with (2 := TOP). unfold Rdiv at 1. unfold Rdiv at 1. apply Rmult_le_compat_r; [apply Rlt_le, Rinv_0_lt_compat, SC|]. exact (prim_bound_l (at_ t q) G B).
Qed.

Definition car : perf := Perf 2 4 30.
Lemma car_sane : sane car. Proof. unfold sane, car. cbn. lra. Qed.
Definition to10 : speed_state := SS (TD LINEAR TIME 0 0 5 1 0 0) 0 false false.
Lemma to10_start : exists st, speed_start car false 10 to10 = Some st /\ s_td st = TD LINEAR TIME 0 10 5 1 0 0.
Proof.
  unfold speed_start, to10, car. rc. unfold SetStartVal, UpdateRate, distance_to_time. rc. rewrite Rabs_R0, Rmult_0_r. unfold SetTargetVal, UpdateRate. rc. rewrite Rabs_R0, Rmult_0_r.
  eexists. split; [reflexivity|]. cbn [s_td]. assert (A : ABS_LIMIT 10 30 = 10) by (unfold ABS_LIMIT; rb; lra). rewrite A.
  unfold SetMaxRate, EvaluatePrimPeak, stepping. rc. unfold AVOID_ZERO, SIGN, RMAX, delta, SMALL_NUMBER. rc. rb. reflexivity.
Qed.
Example C53_speed_start_ex : exists st, speed_start car false 10 to10 = Some st /\ s_speed st = 0 /\ t_target (s_td st) = clip 10 30.
Proof.
  destruct to10_start as (st & H & T). exists st. split; [exact H|].
  destruct (C53_speed_start car 10 to10 st car_sane H) as (_ & _ & A & B & _); [exact lin|rewrite T; cbn; unfold SMALL_NUMBER; lra|discriminate|]. exact (conj B A).
Qed.

(** While the transition runs, the speed is the value of the transition at the scaled sum of the steps: neither the number nor the sizes of the
    steps matter. *)
Theorem C53_speed_follow : forall p tt v st st0 dts, sane p -> speed_start p false v st = Some st0 -> proper (t_shape (s_td st)) ->
  SMALL_NUMBER <= t_ptarget (s_td st0) -> (t_dim (s_td st) = RATE -> SMALL_NUMBER <= Rabs (t_rate (s_td st))) -> Forall (fun d => 0 <= d) dts ->
  let t := s_td st0 in let q := sum dts / t_scale t in q <= t_ptarget t - SMALL_NUMBER ->
  let st' := run p tt v dts st0 in
  s_speed st' = s_speed st + (clip v (p_speed p) - s_speed st) * curve (t_shape (s_td st)) (q / t_ptarget t) /\ s_ended st' = false /\ s_reached st' = false.
Proof.
  intros p tt v st st0 dts SA H P T R F t q L st'. destruct (start_l p v st st0 SA H P T R) as (RD & PV & S & TG & SP & RE & EN & SH & _).
  assert (Q := run_follow p tt v dts st0 SA RD TG). rewrite PV, Rplus_0_l in Q.
  assert (E0 : s_speed st0 = Evaluate (s_td st0) SHAPE_UNDEFINED).
  { rewrite SP, <- S, <- (eval_start_l (s_td st0) (proj1 RD)). f_equal. rewrite <- PV. apply td_eta. }
  specialize (Q E0 RE EN F L). unfold st'. rewrite Q. cbn [s_speed s_ended s_reached]. split; [|split; reflexivity].
  rewrite (eval_curve (at_ (s_td st0) (sum dts / t_scale (s_td st0))) (regular_at _ _ (proj1 RD))). unfold delta. cbn [at_ t_start t_target t_shape t_pval t_ptarget].
  rewrite S, TG, SH, abs_limit_clip by apply SA. reflexivity.
Qed.
Example C53_speed_follow_ex : exists st0, speed_start car false 10 to10 = Some st0 /\ s_speed (run car ABSOLUTE_SPEED 10 [1; 0.5; 2.5] st0) = 8.
Proof.
  destruct to10_start as (st & H & T). exists st. split; [exact H|]. destruct (C53_speed_follow car ABSOLUTE_SPEED 10 to10 st [1; 0.5; 2.5] car_sane H) as (A & _).
  - exact lin.
  - rewrite T. cbn. unfold SMALL_NUMBER. lra.
  - discriminate.
  - repeat (apply Forall_cons; [lra|]); apply Forall_nil.
  - rewrite T. cbn. unfold SMALL_NUMBER. lra.
  - rewrite A, T. cbn. unfold clip, Rmax, Rmin. repeat destruct Rle_dec; lra.
Qed.

(** The step that completes the duration ends at the target exactly. *)
Theorem C53_speed_arrive : forall p tt v st st0 dts dt, sane p -> speed_start p false v st = Some st0 -> proper (t_shape (s_td st)) ->
  SMALL_NUMBER <= t_ptarget (s_td st0) -> (t_dim (s_td st) = RATE -> SMALL_NUMBER <= Rabs (t_rate (s_td st))) -> Forall (fun d => 0 <= d) dts -> 0 <= dt ->
  let t := s_td st0 in sum dts / t_scale t <= t_ptarget t - SMALL_NUMBER -> t_ptarget t <= sum dts / t_scale t + dt / t_scale t ->
  let st' := run p tt v (dts ++ [dt]) st0 in
  s_speed st' = clip v (p_speed p) /\ s_reached st' = true /\ s_ended st' = ends tt.
Proof.
  intros p tt v st st0 dts dt SA H P T R F DT t L M st'. destruct (start_l p v st st0 SA H P T R) as (RD & PV & S & TG & SP & RE & EN & SH & _).
  assert (Q := run_follow p tt v dts st0 SA RD TG). rewrite PV, Rplus_0_l in Q.
  assert (E0 : s_speed st0 = Evaluate (s_td st0) SHAPE_UNDEFINED).
  { rewrite SP, <- S, <- (eval_start_l (s_td st0) (proj1 RD)). f_equal. rewrite <- PV. apply td_eta. }
  specialize (Q E0 RE EN F L). unfold st', run. rewrite fold_left_app. fold (run p tt v dts st0). rewrite Q. cbn [fold_left].
  pose proof (proj2 (proj1 RD)) as T0. pose proof small_pos as SM. assert (SC : 0 < t_scale (s_td st0)) by apply RD.
  assert (S0 := sum_nonneg dts F). assert (0 <= sum dts / t_scale (s_td st0)) by (unfold Rdiv; apply Rmult_le_pos; [lra|apply Rlt_le, Rinv_0_lt_compat; exact SC]).
  destruct (step_arrive p tt v dt (SS (at_ (s_td st0) (sum dts / t_scale (s_td st0))) (Evaluate (at_ (s_td st0) (sum dts / t_scale (s_td st0))) SHAPE_UNDEFINED) false false) SA) as (A & B & C);
    cbn [s_td s_speed at_ t_pval t_ptarget t_target t_scale s_ended] in *; try assumption; try reflexivity.
  - apply (ready_at p _ (sum dts / t_scale (s_td st0)) RD). unfold t in L. lra.
  - rewrite abs_limit_clip in A by apply SA. repeat split; assumption.
Qed.
Example C53_speed_arrive_ex : exists st0, speed_start car false 10 to10 = Some st0 /\ s_speed (run car ABSOLUTE_SPEED 10 [1; 2; 3] st0) = clip 10 30.
Proof.
  destruct to10_start as (st & H & T). exists st. split; [exact H|]. destruct (C53_speed_arrive car ABSOLUTE_SPEED 10 to10 st [1; 2] 3 car_sane H) as (A & _); [exact lin|..|exact A].
  - rewrite T. cbn. unfold SMALL_NUMBER. lra.
  - discriminate.
  - repeat (apply Forall_cons; [lra|]); apply Forall_nil.
  - lra.
  - rewrite T. cbn. unfold SMALL_NUMBER. lra.
  - rewrite T. cbn. lra.
Qed.

(** With steps of any varying size above SMALL_NUMBER, the action comes to the target and ends. *)
Theorem C53_speed_ends : forall p tt v st st0 d dts, sane p -> speed_start p false v st = Some st0 -> proper (t_shape (s_td st)) ->
  SMALL_NUMBER <= t_ptarget (s_td st0) -> (t_dim (s_td st) = RATE -> SMALL_NUMBER <= Rabs (t_rate (s_td st))) -> SMALL_NUMBER < d -> Forall (fun x => d <= x) dts ->
  let t := s_td st0 in 0 < limit p t -> t_ptarget t * t_scale t / d + Rabs (t_target t - t_start t) / (limit p t * d) + 2 < INR (length dts) ->
  exists k, (k <= length dts)%nat /\ let st' := run p tt v (firstn k dts) st0 in s_speed st' = clip v (p_speed p) /\ s_reached st' = true /\ s_ended st' = ends tt.
Proof.
  intros p tt v st st0 d dts SA H P T R D F t L N. destruct (start_l p v st st0 SA H P T R) as (RD & PV & S & TG & SP & RE & EN & SH & _).
  assert (E0 : s_speed st0 = Evaluate (s_td st0) SHAPE_UNDEFINED).
  { rewrite SP, <- S, <- (eval_start_l (s_td st0) (proj1 RD)). f_equal. rewrite <- PV. apply td_eta. }
  pose proof small_pos as SM. destruct (run_arrives p tt v d dts st0) as (k & K1 & K2); try assumption.
  - split; [exact RD|]. split; [exact TG|]. left. split; [rewrite PV; lra|exact E0].
  - unfold potential. rewrite PV. destruct (Rle_dec 0 (t_ptarget (s_td st0) - SMALL_NUMBER)); [|lra]. rewrite Rminus_0_r. exact N.
  - exists k. split; [exact K1|]. unfold wanted in K2. rewrite abs_limit_clip in K2 by apply SA. exact K2.
Qed.
Example C53_speed_ends_ex : exists st0 k, speed_start car false 10 to10 = Some st0 /\ s_ended (run car ABSOLUTE_SPEED 10 (firstn k (repeat 1 13)) st0) = true.
Proof.
  destruct to10_start as (st & H & T). exists st. destruct (C53_speed_ends car ABSOLUTE_SPEED 10 to10 st 1 (repeat 1 13) car_sane H) as (k & _ & _ & _ & A).
  - exact lin.
  - rewrite T. cbn. unfold SMALL_NUMBER. lra.
  - discriminate.
  - unfold SMALL_NUMBER. lra.
  - cbn. repeat (apply Forall_cons; [lra|]); apply Forall_nil.
  - rewrite T. unfold limit. cbn. destruct Rlt_dec; lra.
  - rewrite T. unfold limit. cbn [t_start t_target t_ptarget t_scale p_acc p_dec car]. destruct Rlt_dec; [|lra]. rb. replace (INR (length (repeat 1 13))) with 13 by (cbn; lra). lra.
  - exists k. split; [exact H|exact A].
Qed.

(** Every step above SMALL_NUMBER respects the limits of acceleration and deceleration, up to SMALL_NUMBER, whatever the transition and a moving
    target ask for. *)
Theorem C53_speed_limits : forall p tt overridden v dt st, sane p -> (tt = ABSOLUTE_SPEED -> t_target (s_td st) = clip v (p_speed p)) -> Rabs (s_speed st) <= p_speed p ->
  SMALL_NUMBER < dt -> let s' := s_speed (speed_step p tt overridden v dt st) in
  - (p_dec p * dt + (SMALL_NUMBER * dt + SMALL_NUMBER)) <= s' - s_speed st <= p_acc p * dt + (SMALL_NUMBER * dt + SMALL_NUMBER).
Proof.
  intros p tt ov v dt st SA AI SP DT. apply step_allowed; try assumption. unfold aimed. destruct tt; [|exact I]. rewrite abs_limit_clip by apply SA. apply AI. reflexivity.
Qed.
Example C53_speed_limits_ex : s_speed (speed_step car (RELATIVE_SPEED true) false 100 1 to10) <= 2 + 2 * SMALL_NUMBER.
Proof.
  assert (A := C53_speed_limits car (RELATIVE_SPEED true) false 100 1 to10 car_sane ltac:(discriminate)). cbn [to10 s_speed car p_speed p_acc p_dec] in A. rewrite Rabs_R0 in A.
  specialize (A ltac:(lra) ltac:(unfold SMALL_NUMBER; lra)). cbn zeta in A. lra.
Qed.

(** An overridden action does nothing but end. *)
Theorem C53_speed_overridden : forall p tt v dt st, s_speed (speed_step p tt true v dt st) = s_speed st /\ s_ended (speed_step p tt true v dt st) = true /\
  exists st', speed_start p true v st = Some st' /\ s_speed st' = s_speed st /\ s_ended st' = true.
Proof. intros. repeat split. eexists. split; [reflexivity|]. split; reflexivity. Qed.
Example C53_speed_overridden_ex : s_ended (speed_step car ABSOLUTE_SPEED true 10 1 to10) = true.
Proof. exact (proj1 (proj2 (C53_speed_overridden car ABSOLUTE_SPEED 10 1 to10))). Qed.

(** A transition given by a distance: an antiderivative of the speed grows by that distance, if the direction does not change and the target
    is not above the largest speed. *)
Theorem C53_speed_distance : forall p v st st', sane p -> speed_start p false v st = Some st' -> t_dim (s_td st) = DISTANCE -> proper (t_shape (s_td st)) ->
  0 <= t_ptarget (s_td st) -> 0 <= s_speed st * v -> SMALL_NUMBER <= Rabs (v - s_speed st) -> Rabs v <= p_speed p -> SMALL_NUMBER <= t_ptarget (s_td st') ->
  exists F, (forall q, derivable_pt_lim F q (Evaluate (at_ (s_td st') q) SHAPE_UNDEFINED)) /\ Rabs (F (t_ptarget (s_td st')) - F 0) = t_ptarget (s_td st).
Proof. exact distance_l. Qed.
Example C53_speed_distance_ex : exists st', speed_start (Perf 10 10 50) false 10 dist_action = Some st' /\ SMALL_NUMBER <= t_ptarget (s_td st').
Proof. destruct dist_twice_l as (st1 & _ & A & B & _). exists st1. split; [exact A|]. rewrite B. unfold SMALL_NUMBER. lra. Qed.

(** With a change of direction, for the linear shape: forth and back together. *)
Theorem C53_speed_turn : forall p v st st', sane p -> speed_start p false v st = Some st' -> t_dim (s_td st) = DISTANCE -> t_shape (s_td st) = LINEAR ->
  s_speed st * v < 0 -> SMALL_NUMBER < Rabs (s_speed st) -> SMALL_NUMBER < Rabs v -> Rabs v <= p_speed p -> SMALL_NUMBER <= t_ptarget (s_td st') ->
  exists F z, (forall q, derivable_pt_lim F q (Evaluate (at_ (s_td st') q) SHAPE_UNDEFINED)) /\ 0 < z < t_ptarget (s_td st') /\
    Evaluate (at_ (s_td st') z) SHAPE_UNDEFINED = 0 /\ Rabs (F z - F 0) + Rabs (F (t_ptarget (s_td st')) - F z) = t_ptarget (s_td st).
Proof. exact distance_turn_l. Qed.
Example C53_speed_turn_ex : exists t, distance_to_time (TD LINEAR DISTANCE 10 0 100 1 0 0) (-10) = Some t /\ t_ptarget t = 20.
Proof.
  unfold distance_to_time. rc. unfold SMALL_NUMBER, SIGN. rb. unfold SetParamTargetVal. rc. eexists. split; [reflexivity|]. cbn [t_ptarget]. rb.
  replace (10 ^ 2 / (10 ^ 2 + (-10) ^ 2)) with (1 / 2) by field. rb. field.
Qed.

(** A transition given by a distance when the speed is already there: it takes no time and the first step ends it. *)
Theorem C53_speed_same : forall p tt v st dt, sane p -> t_dim (s_td st) = DISTANCE -> Rabs (v - s_speed st) < SMALL_NUMBER -> 0 <= dt ->
  exists st', speed_start p false v st = Some st' /\ s_speed st' = clip v (p_speed p) /\
    let st'' := speed_step p tt false v dt st' in s_speed st'' = clip v (p_speed p) /\ s_reached st'' = true /\ s_ended st'' = ends tt.
Proof.
  intros p tt v st dt SA D C DT. pose proof small_pos as SM. rewrite <- abs_limit_clip by apply SA. unfold speed_start.
  destruct (t_dim (s_td st)) eqn:E; try discriminate. unfold SetStartVal, UpdateRate, Reset. cbn [t_shape t_dim t_start t_target t_ptarget t_scale t_pval t_rate]. rewrite E. cbn [is_rate andb].
  unfold distance_to_time. cbn [t_dim t_start]. rewrite (proj2 (Rltb_true _ SMALL_NUMBER) C).
  unfold SetParamTargetVal. cbn [t_shape t_dim t_start t_target t_ptarget t_scale t_pval t_rate is_rate].
  unfold SetTargetVal, UpdateRate. cbn [t_shape t_dim t_start t_target t_ptarget t_scale t_pval t_rate is_rate andb].
  unfold SetMaxRate. cbn [t_shape t_dim t_start t_target t_ptarget t_scale t_pval t_rate is_rate].
  eexists. split; [reflexivity|].
  assert (EV : forall sh s t sc pv r, Evaluate (TD sh DISTANCE s t 0 sc pv r) SHAPE_UNDEFINED = t).
  { intros. unfold Evaluate, stepping. cbn [t_dim t_ptarget is_rate negb]. rewrite (proj2 (Rltb_true 0 SMALL_NUMBER) SM). cbn. rewrite orb_true_r. reflexivity. }
  cbn [s_speed s_td s_reached s_ended]. rewrite EV. split; [reflexivity|]. cbv zeta. unfold speed_step. cbn [s_speed s_td s_reached s_ended].
  set (sc := if Rltb _ (Rabs (EvaluatePrimPeak _)) then _ else _). clearbody sc. set (r := SIGN _ * _). clearbody r. set (w := ABS_LIMIT v (p_speed p)).
  assert (TT : exists r', match tt with RELATIVE_SPEED _ => SetTargetVal (TD (t_shape (s_td st)) DISTANCE (s_speed st) w 0 sc 0 r) w | ABSOLUTE_SPEED => TD (t_shape (s_td st)) DISTANCE (s_speed st) w 0 sc 0 r end =
    TD (t_shape (s_td st)) DISTANCE (s_speed st) w 0 sc 0 r') by (destruct tt; eexists; reflexivity).
  destruct TT as (r' & ->).
  assert (MV : speed_move p v dt (TD (t_shape (s_td st)) DISTANCE (s_speed st) w 0 sc 0 r') w = (TD (t_shape (s_td st)) DISTANCE (s_speed st) w 0 sc 0 r', w)).
  { unfold speed_move. cbn [t_ptarget]. rewrite (proj2 (Rltb_false 0 0)) by lra. cbn [andb].
    assert (SP : Step (TD (t_shape (s_td st)) DISTANCE (s_speed st) w 0 sc 0 r') dt = TD (t_shape (s_td st)) DISTANCE (s_speed st) w 0 sc 0 r').
    { unfold Step. cbn [t_shape t_dim t_start t_target t_ptarget t_scale t_pval t_rate]. f_equal.
      destruct (Rltb 0 (0 + dt / sc)) eqn:Q1; [reflexivity|]. destruct (Rltb (0 + dt / sc) 0) eqn:Q2; [reflexivity|]. apply Rltb_false in Q1, Q2. lra. }
    rewrite SP, EV. replace (if Rltb SMALL_NUMBER dt then (w - w) / dt else 0) with 0 by (destruct (Rltb SMALL_NUMBER dt); [unfold Rdiv; ring|reflexivity]).
    destruct SA as (A1 & A2 & A3). rewrite (proj2 (Rltb_false (p_acc p + SMALL_NUMBER) 0)) by lra. rewrite (proj2 (Rltb_false 0 (- (p_dec p + SMALL_NUMBER)))) by lra. reflexivity. }
  rewrite MV. cbn [t_ptarget t_pval t_target]. rewrite (proj2 (Rltb_true _ 0)) by lra. replace (w - w) with 0 by ring. rewrite Rabs_R0, (proj2 (Rltb_true 0 SMALL_NUMBER) SM).
  cbn. split; [reflexivity|]. split; [reflexivity|]. destruct tt as [|[]]; reflexivity.
Qed.
Example C53_speed_same_ex : exists st', speed_start car false 0 dist_action = Some st' /\ s_ended (speed_step car ABSOLUTE_SPEED false 0 1 st') = true.
Proof.
  destruct (C53_speed_same car ABSOLUTE_SPEED 0 dist_action 1 car_sane) as (st' & A & _ & _ & _ & B).
  - reflexivity.
  - cbn [s_speed dist_action]. unfold SMALL_NUMBER. rb. lra.
  - lra.
  - exists st'. split; assumption.
Qed.

(** Starting again, after any number of steps, is like starting for the first time, except with a distance. *)
Theorem C53_speed_restart : forall p tt v v' w dts st st1 r e, t_dim (s_td st) <> DISTANCE -> (t_dim (s_td st) = RATE -> SMALL_NUMBER <= Rabs (t_rate (s_td st))) ->
  speed_start p false v st = Some st1 ->
  speed_start p false w (SS (s_td (run p tt v' dts st1)) (s_speed st) r e) = speed_start p false w st.
Proof.
  intros p tt v v' w dts st st1 r e D R H. symmetry. apply restart_l; [|reflexivity|exact R]. cbn [s_td].
  exact (alike_trans _ _ _ (start_alike p false v st st1 H D) (run_alike p tt v' dts st1)).
Qed.
Example C53_speed_restart_ex : exists st1, speed_start car false 10 to10 = Some st1 /\
  speed_start car false 10 (SS (s_td (run car ABSOLUTE_SPEED 10 [1; 2] st1)) 0 true true) = Some st1.
Proof.
  destruct to10_start as (st & H & T). exists st. split; [exact H|]. rewrite <- H. apply (C53_speed_restart car ABSOLUTE_SPEED 10 10 10 [1; 2] to10 st true true); [discriminate|discriminate|exact H].
Qed.

(** With a distance, the second start takes the duration of the first as distance. *)
Theorem C53_speed_restart_refuted : exists st1 st2, speed_start (Perf 10 10 50) false 10 dist_action = Some st1 /\ t_ptarget (s_td st1) = 20 /\
  speed_start (Perf 10 10 50) false 10 (SS (s_td st1) 0 (s_reached st1) true) = Some st2 /\ t_ptarget (s_td st2) = 4.
Proof. exact dist_twice_l. Qed.

(** A distance with a target above the largest speed: only half of it. *)
Theorem C53_speed_distance_refuted : exists st', speed_start (Perf 10 10 10) false 20 dist_action = Some st' /\ t_ptarget (s_td dist_action) = 100 /\
  exists F, (forall q, derivable_pt_lim F q (Evaluate (at_ (s_td st') q) SHAPE_UNDEFINED)) /\ F (t_ptarget (s_td st')) - F 0 = 50.
Proof. exact dist_limited_l. Qed.

(** Tiny opposite speeds: a division by zero. *)
Theorem C53_speed_divzero_refuted : exists v st, t_ptarget (s_td st) = 100 /\ forall p, speed_start p false v st = None.
Proof. eexists. eexists. split; [|exact dist_divzero_l]. reflexivity. Qed.

(** Rate 0: no change and no end, however long. *)
Theorem C53_speed_zero_rate_refuted : forall p tt v st dts, sane p -> proper (t_shape (s_td st)) -> t_dim (s_td st) = RATE -> t_rate (s_td st) = 0 -> t_ptarget (s_td st) = 0 ->
  Forall (fun d => 0 <= d) dts -> SMALL_NUMBER <= Rabs (s_speed st - clip v (p_speed p)) ->
  exists st0, speed_start p false v st = Some st0 /\ s_speed (run p tt v dts st0) = s_speed st /\ s_ended (run p tt v dts st0) = false.
Proof.
  intros p tt v st dts SA P D R T F G. rewrite <- abs_limit_clip in G by apply SA. destruct (stuck_start p v st P D R T) as (st0 & H & K & SP & E). exists st0. split; [exact H|].
  assert (RE : s_reached st0 = false).
  { unfold speed_start in H. destruct (distance_to_time _ v); [|discriminate]. injection H as <-. reflexivity. }
  rewrite (stuck_run p tt v dts st0 (s_speed st)); try assumption. split; assumption.
Qed.
Example C53_speed_zero_rate_ex : exists st0, speed_start car false 10 (SS (TD LINEAR RATE 0 0 0 1 0 0) 0 false false) = Some st0 /\ s_ended (run car ABSOLUTE_SPEED 10 (repeat 1 100) st0) = false.
Proof.
  destruct (C53_speed_zero_rate_refuted car ABSOLUTE_SPEED 10 (SS (TD LINEAR RATE 0 0 0 1 0 0) 0 false false) (repeat 1 100)) as (st0 & A & _ & B).
  - exact car_sane.
  - exact lin.
  - reflexivity.
  - reflexivity.
  - reflexivity.
  - apply Forall_forall. intros x I. apply repeat_spec in I. lra.
  - cbn [s_speed car p_speed]. unfold clip, Rmax, Rmin, SMALL_NUMBER. repeat destruct Rle_dec; try lra; rb; lra.
  - exists st0. split; assumption.
Qed.

(** The step shape, and a zero duration, ignore the limits of the object. *)
Theorem C53_speed_step_shape_refuted : exists st', speed_start (Perf 1 1 50) false 30 (SS (TD STEP TIME 0 0 5 1 0 0) 0 false false) = Some st' /\ s_speed st' = 30.
Proof. exact step_unlimited_l. Qed.

(** A step of length 0 can change the speed, from 5 to 50. *)
Theorem C53_speed_zero_step_refuted : exists st', speed_step (Perf 1 1 200) (RELATIVE_SPEED true) false 100 0 (SS (TD LINEAR TIME 0 10 10 1 5 1) 5 false false) = st' /\
  Evaluate (TD LINEAR TIME 0 10 10 1 5 1) SHAPE_UNDEFINED = 5 /\ s_speed st' = 50.
Proof. exact zero_step_l. Qed.

(** Relative targets. *)
Theorem C53_relative : forall s v, relative_value DELTA (Some s) v = s + v /\ relative_value FACTOR (Some s) v = s * v.
Proof. intros. split; reflexivity. Qed.
Example C53_relative_ex : relative_value FACTOR (Some 3) 2 = 6.
Proof. rewrite (proj2 (C53_relative 3 2)). lra. Qed.

(** Without an object to refer to: the value itself as a difference, 0 as a factor. *)
Theorem C53_relative_none : forall v, relative_value DELTA None v = v /\ relative_value FACTOR None v = 0.
Proof. intros. unfold relative_value. split; lra. Qed.
Example C53_relative_none_ex : relative_value DELTA None 2 = 2.
Proof. exact (proj1 (C53_relative_none 2)). Qed.

(** ** Lane offset action *)

(** From the offset of the object to the value asked for, on the side of its lane. *)
Theorem C53_offset_start : forall t lane offset value a, t_dim t <> RATE -> let t' := offset_start t lane offset value a in
  t_pval t' = 0 /\ lane_sign lane * t_start t' = offset /\ lane_sign lane * t_target t' = value /\ t_shape t' = t_shape t.
Proof. intros t lane offset value a D t'. destruct (offset_start_l t lane offset value a D) as (A & _ & B & _ & C & E & _). auto. Qed.
Example C53_offset_start_ex : t_target (offset_start (TD CUBIC TIME 0 0 0 1 0 0) (-1) 0 2 3) = -2.
Proof.
  destruct (C53_offset_start (TD CUBIC TIME 0 0 0 1 0 0) (-1) 0 2 3 ltac:(discriminate)) as (_ & _ & A & _). unfold lane_sign in A. cbn [Z.ltb Z.compare] in A. lra.
Qed.

(** The duration is such that the lateral acceleration, the derivative of EvaluatePrim, stays within the maximum and takes it at the start. *)
Theorem C53_offset_acc : forall t lane offset value a, t_dim t <> RATE -> t_shape t = CUBIC \/ t_shape t = SINUSOIDAL -> 0 < a ->
  let t' := offset_start t lane offset value a in SMALL_NUMBER <= t_ptarget t' ->
  exists acc, (forall q, derivable_pt_lim (fun p => EvaluatePrim (at_ t' p)) q (acc q)) /\ (forall q, 0 <= q <= t_ptarget t' -> Rabs (acc q) <= a) /\ Rabs (acc 0) = a.
Proof.
  intros t lane offset value a D S A. assert (H := offset_start_l t lane offset value a D). revert H. cbv zeta. generalize (offset_start t lane offset value a). intros t' H T.
  destruct H as (SH & _ & _ & _ & _ & _ & PT). exact (offset_acc_gen t' (t_shape t) a SH S A T PT).
Qed.
Example C53_offset_acc_ex : t_ptarget (offset_start (TD CUBIC TIME 0 0 0 1 0 0) (-1) 0 2 3) = 2.
Proof.
  destruct (offset_start_l (TD CUBIC TIME 0 0 0 1 0 0) (-1) 0 2 3 ltac:(discriminate)) as (SH & _ & _ & _ & C & E & PT).
  set (t' := offset_start (TD CUBIC TIME 0 0 0 1 0 0) (-1) 0 2 3) in *. clearbody t'. unfold lane_sign in C, E. cbn [Z.ltb Z.compare] in C, E. rewrite PT. unfold GetTargetParamValByPrimPrimPeak. rewrite SH. cbn [t_shape].
  unfold delta. rewrite (Rabs_left (t_target t' - t_start t')) by lra. replace (6 * - (t_target t' - t_start t') / 3) with (2 * 2) by lra. apply sqrt_square. lra.
Qed.

(** A step sets the offset of the transition, and the heading of the path it describes, until the end, which sets the target exactly. *)
Theorem C53_offset_step : forall t lane fwd speed dt, regular t -> 0 <= t_pval t <= t_ptarget t ->
  let '(t', offset, heading, ended) := offset_step t lane fwd speed dt in
  t' = Step t dt /\
  (ended = true -> offset = lane_sign lane * t_target t /\ heading = 0) /\
  (ended = false -> offset = lane_sign lane * Evaluate t SHAPE_UNDEFINED /\ (SMALL_NUMBER <= speed -> tan heading * speed = (if fwd then 1 else -1) * lane_sign lane * EvaluatePrim t)) /\
  (ended = true <-> t_ptarget t - SMALL_NUMBER < t_pval t \/ Rabs (Evaluate t SHAPE_UNDEFINED - t_target t) < SMALL_NUMBER).
Proof.
  intros t lane fwd speed dt G PV. rewrite (offset_step_l t lane fwd speed dt G PV). pose proof small_pos as SM.
  destruct (Rltb (t_ptarget t - SMALL_NUMBER) (t_pval t)) eqn:A; cbn [orb].
  - apply Rltb_true in A. repeat split; try discriminate; auto.
  - apply Rltb_false in A. destruct (Rltb (Rabs (Evaluate t SHAPE_UNDEFINED - t_target t)) SMALL_NUMBER) eqn:B.
    + apply Rltb_true in B. repeat split; try discriminate; auto.
    + apply Rltb_false in B. repeat split; try discriminate; [|intros [X|X]; lra].
      intros S. rewrite (avoid_zero_id speed S). unfold lane_sign. set (x := EvaluatePrim t / speed).
      assert (X : x * speed = EvaluatePrim t) by (unfold x; field; lra). rewrite <- X.
      assert (TN : tan (- atan x) = - x) by (rewrite tan_neg, tan_atan; reflexivity).
      destruct fwd; destruct (lane <? 0)%Z;
        [replace (1 * -1 * atan x) with (- atan x) by ring|replace (1 * 1 * atan x) with (atan x) by ring|replace (-1 * -1 * atan x) with (atan x) by ring|replace (-1 * 1 * atan x) with (- atan x) by ring];
        rewrite ?TN, ?tan_atan; ring.
Qed.
Example C53_offset_step_ex : let '(t', offset, heading, ended) := offset_step (TD LINEAR TIME 0 4 4 1 4 0) (-1) true 10 1 in ended = true /\ offset = -4.
Proof.
  assert (H := C53_offset_step (TD LINEAR TIME 0 4 4 1 4 0) (-1) true 10 1 (ex_regular LINEAR TIME lin)). cbn [t_pval t_ptarget] in H. specialize (H ltac:(lra)).
  destruct (offset_step _ _ _ _ _) as [[[t' o] h] e]. destruct H as (_ & A & _ & B). unfold SMALL_NUMBER in B. assert (E : e = true) by (apply B; left; lra). split; [exact E|].
  rewrite (proj1 (A E)). cbn. lra.
Qed.

(** After steps of any sizes: the offset depends on their sum only, and once the sum is the duration, the action ends at the target. *)
Theorem C53_offset_run : forall t lane fwd speed dts dt, regular t -> t_pval t = 0 -> t_scale t = 1 -> Forall (fun d => 0 <= d) dts ->
  let '(_, offset, _, ended) := offset_step (fold_left Step dts t) lane fwd speed dt in
  (ended = false -> offset = lane_sign lane * (t_start t + (t_target t - t_start t) * curve (t_shape t) (sum dts / t_ptarget t))) /\
  (t_ptarget t <= sum dts -> ended = true /\ offset = lane_sign lane * t_target t).
Proof.
  intros t lane fwd speed dts dt G PV S F. pose proof small_pos as SM. pose proof (proj2 G) as T. assert (SN := sum_nonneg dts F).
  rewrite steps_sum by (try assumption; lra). rewrite PV, Rplus_0_l.
  assert (H := C53_offset_step (at_ t (Rmin (t_ptarget t) (sum dts))) lane fwd speed dt (regular_at _ _ G)). cbn [at_ t_pval t_ptarget] in H.
  specialize (H ltac:(unfold Rmin; destruct Rle_dec; lra)). fold (at_ t (Rmin (t_ptarget t) (sum dts))) in H. destruct (offset_step _ _ _ _ _) as [[[t' o] h] e].
  destruct H as (_ & A & B & C). cbn [at_ t_target t_pval t_ptarget] in A. split.
  - intros E. rewrite (proj1 (B E)). rewrite (eval_curve _ (regular_at t _ G)). unfold delta. cbn [at_ t_start t_target t_shape t_pval t_ptarget].
    destruct (Rle_lt_dec (t_ptarget t) (sum dts)) as [L|L]; [|rewrite Rmin_right by lra; reflexivity].
    rewrite E in C. assert (X : false = true) by (apply C; left; rewrite Rmin_left by lra; lra). discriminate.
  - intros L. assert (E : e = true) by (apply C; left; rewrite Rmin_left by lra; lra). split; [exact E|]. exact (proj1 (A E)).
Qed.
Example C53_offset_run_ex : let '(_, offset, _, ended) := offset_step (fold_left Step [1; 3] (TD CUBIC TIME 0 4 4 1 0 0)) 1 true 10 1 in ended = true /\ offset = 4.
Proof.
  assert (H := C53_offset_run (TD CUBIC TIME 0 4 4 1 0 0) 1 true 10 [1; 3] 1 (ex_regular CUBIC TIME cub) eq_refl eq_refl ltac:(repeat (apply Forall_cons; [lra|]); apply Forall_nil)).
  destruct (offset_step _ _ _ _ _) as [[[t' o] h] e]. destruct H as (_ & B). cbn [t_ptarget sum fold_right] in B. destruct (B ltac:(lra)) as (E & O'). split; [exact E|]. rewrite O'. cbn. lra.
Qed.

(** ** Lane change action *)

(** Time and rate: the way across and the way along make up the way of the step, as long as the rate asked for fits into the speed. *)
Theorem C53_change_way : forall t speed dt, t_dim t = TIME \/ t_dim t = RATE -> 0 <= dt -> dt * Rabs (EvaluateScaledPrim t) <= Rabs speed * dt ->
  exists h l, lanechange_lateral t speed dt = Some (Step t dt, Evaluate (Step t dt) SHAPE_UNDEFINED, h, l) /\ 0 <= l /\
    l ^ 2 + (dt * Rabs (EvaluateScaledPrim t)) ^ 2 = (Rabs speed * dt) ^ 2.
Proof. exact lateral_time_l. Qed.
Example C53_change_way_ex : 0.1 * Rabs (EvaluateScaledPrim (TD LINEAR TIME 0 4 4 1 0 0)) <= Rabs 10 * 0.1.
Proof.
  unfold EvaluateScaledPrim, EvaluatePrim, stepping, AVOID_ZERO, SIGN, RMAX, delta, SMALL_NUMBER. rc. rb. lra.
Qed.

(** Distance: always. *)
Theorem C53_change_distance : forall t speed dt, t_dim t = DISTANCE -> 0 <= dt ->
  exists l, lanechange_lateral t speed dt = Some (Step t l, Evaluate (Step t l) SHAPE_UNDEFINED, atan (EvaluateScaledPrim t), l) /\ 0 <= l /\
    l ^ 2 + (l * EvaluateScaledPrim t) ^ 2 = (Rabs speed * dt) ^ 2.
Proof. exact lateral_distance_l. Qed.
Example C53_change_distance_ex : exists l, 0 <= l /\ l ^ 2 + (l * EvaluateScaledPrim (TD LINEAR DISTANCE 0 4 4 1 0 0)) ^ 2 = (Rabs 10 * 0.1) ^ 2.
Proof. destruct (C53_change_distance (TD LINEAR DISTANCE 0 4 4 1 0 0) 10 0.1) as (l & _ & A & B); [reflexivity|lra|]. exists l. split; assumption. Qed.

(** The offset stays between start and target. *)
Theorem C53_change_between : forall t speed dt t' o h l, regular t -> lanechange_lateral t speed dt = Some (t', o, h, l) -> between (t_start t) o (t_target t).
Proof. exact lateral_between_l. Qed.
Example C53_change_between_ex : exists t' h l, lanechange_lateral (TD CUBIC TIME 0 4 4 1 0.9 0) 1 0.1 = Some (t', 1, h, l) /\ between 0 1 4.
Proof.
  destruct jump_l as (t' & h & l & A & _). exists t', h, l. split; [exact A|]. apply (C53_change_between (TD CUBIC TIME 0 4 4 1 0.9 0) 1 0.1 t' 1 h l); [exact (ex_regular CUBIC TIME cub)|exact A].
Qed.

(** Linear shape with time or rate: the offset does not move further than the step. *)
Theorem C53_change_linear_partial : forall t speed dt t' o h l, regular t -> t_shape t = LINEAR -> t_dim t = TIME \/ t_dim t = RATE -> t_scale t = 1 ->
  0 <= t_pval t <= t_ptarget t -> 0 <= dt -> lanechange_lateral t speed dt = Some (t', o, h, l) ->
  Rabs (o - Evaluate t SHAPE_UNDEFINED) <= Rabs speed * dt + SMALL_NUMBER.
Proof. exact lateral_linear_l. Qed.
Example C53_change_linear_ex : exists t' h l, lanechange_lateral (TD LINEAR TIME 0 4 4 1 0 0) 0.1 1 = Some (t', 0.1, h, l).
Proof.
  eexists. eexists. eexists. unfold lanechange_lateral. rc. match goal with |- context [Rltb ?a ?b] => replace (Rltb a b) with false end.
  2:{ symmetry. apply Rltb_false. ru. rc. rb. lra. }
  replace (Reqb (Rabs (delta (TD LINEAR TIME 0 4 4 1 0 0))) 0) with false.
  2:{ symmetry. apply Reqb_false. unfold delta. rc. rb. lra. }
  match goal with |- Some (?a, ?b, ?c, ?d) = _ => replace b with 0.1 end; [reflexivity|].
  unfold Evaluate, stepping, AVOID_ZERO, RMAX, SIGN, Step, delta, SMALL_NUMBER. rc. rb. lra.
Qed.

(** With another shape, the fall back to the linear one makes the offset jump: from 0.516375 to 1 in a step of 0.1 metres. *)
Theorem C53_change_jump_refuted : exists t' h l, lanechange_lateral (TD CUBIC TIME 0 4 4 1 0.9 0) 1 0.1 = Some (t', 1, h, l) /\
  Evaluate (TD CUBIC TIME 0 4 4 1 0.9 0) SHAPE_UNDEFINED = 0.516375 /\ Rabs 1 * 0.1 = 0.1 /\
  exists h0 l0, lanechange_lateral (TD CUBIC TIME 0 4 4 1 0 0) 1 0.9 = Some (TD CUBIC TIME 0 4 4 1 0.9 0, 0.516375, h0, l0).
Proof. exact jump_l. Qed.

(** The scaled slope is the slope over the scaled parameter. *)
Theorem C53_scaled : forall t, regular t -> SMALL_NUMBER <= t_scale t ->
  derivable_pt_lim (fun u => Evaluate (at_ t (u / t_scale t)) SHAPE_UNDEFINED) (t_pval t * t_scale t) (EvaluateScaledPrim t).
Proof.
  intros t G S. pose proof small_pos. unfold EvaluateScaledPrim. rewrite (avoid_zero_id _ S).
  assert (D := prim_derivative_l t G). unfold Rdiv.
  assert (L : derivable_pt_lim (fun u => u * / t_scale t) (t_pval t * t_scale t) (/ t_scale t)).
  { intros eps E. exists (mkposreal 1 Rlt_0_1). intros h N _. replace (((t_pval t * t_scale t + h) * / t_scale t - t_pval t * t_scale t * / t_scale t) / h - / t_scale t) with 0 by (field; lra).
    rewrite Rabs_R0. exact E. }
  apply (derivable_pt_lim_comp (fun u => u * / t_scale t) (fun p => Evaluate (at_ t p) SHAPE_UNDEFINED)); [exact L|].
  replace (t_pval t * t_scale t * / t_scale t) with (t_pval t) by (field; lra). exact D.
Qed.
Example C53_scaled_ex : regular (TD CUBIC TIME 0 4 4 2 2 0) /\ SMALL_NUMBER <= t_scale (TD CUBIC TIME 0 4 4 2 2 0).
Proof. split; [exact (ex_regular CUBIC TIME cub)|unfold SMALL_NUMBER; cbn; lra]. Qed.

(** The extent of a linear transition by peak acceleration is that of the cubic one. *)
Theorem C53_linear_extent : forall t a, t_shape t = LINEAR ->
  GetTargetParamValByPrimPrimPeak t a = GetTargetParamValByPrimPrimPeak (TD CUBIC (t_dim t) (t_start t) (t_target t) (t_ptarget t) (t_scale t) (t_pval t) (t_rate t)) a.
Proof. intros t a S. unfold GetTargetParamValByPrimPrimPeak. rewrite S. reflexivity. Qed.
Example C53_linear_extent_ex : GetTargetParamValByPrimPrimPeak (TD LINEAR TIME 0 6 0 1 0 0) 1 = 6.
Proof. unfold GetTargetParamValByPrimPrimPeak, delta. cbn. rewrite Rabs_right by lra. replace (6 * (6 - 0) / 1) with (6 * 6) by lra. apply sqrt_square. lra. Qed.

Print Assumptions C53_curve.
Print Assumptions C53_endpoints.
Print Assumptions C53_between.
Print Assumptions C53_monotone.
Print Assumptions C53_not_early.
Print Assumptions C53_derivative.
Print Assumptions C53_peak.
Print Assumptions C53_by_peak.
Print Assumptions C53_rate.
Print Assumptions C53_max_rate.
Print Assumptions C53_step_add.
Print Assumptions C53_step_range.
Print Assumptions C53_step_shape.
Print Assumptions C53_speed_start.
Print Assumptions C53_speed_follow.
Print Assumptions C53_speed_arrive.
Print Assumptions C53_speed_ends.
Print Assumptions C53_speed_limits.
Print Assumptions C53_speed_overridden.
Print Assumptions C53_speed_distance.
Print Assumptions C53_speed_turn.
Print Assumptions C53_speed_restart.
Print Assumptions C53_speed_restart_refuted.
Print Assumptions C53_speed_distance_refuted.
Print Assumptions C53_speed_divzero_refuted.
Print Assumptions C53_speed_zero_rate_refuted.
Print Assumptions C53_speed_step_shape_refuted.
Print Assumptions C53_speed_zero_step_refuted.
Print Assumptions C53_relative.
Print Assumptions C53_relative_none.
Print Assumptions C53_offset_start.
Print Assumptions C53_offset_acc.
Print Assumptions C53_offset_step.
Print Assumptions C53_offset_run.
Print Assumptions C53_change_way.
Print Assumptions C53_change_distance.
Print Assumptions C53_change_between.
Print Assumptions C53_change_linear_partial.
Print Assumptions C53_change_jump_refuted.

Print Assumptions C53_scaled.
Print Assumptions C53_linear_extent.

Print Assumptions C53_speed_same.
