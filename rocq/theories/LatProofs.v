(** * Lane offset and lane change actions: proofs *)
From Coq Require Import Reals Bool ZArith List Lra Lia Psatz.
Import ListNotations.
From Verif Require Import AngModel AngProofs GeoModel TransModel TransProofs SpeedProofs.
Open Scope R_scope.

Lemma lane_sign_sq : forall z, lane_sign z * lane_sign z = 1.
Proof. intros z. unfold lane_sign. destruct (z <? 0)%Z; lra. Qed.

Lemma lane_sign_abs : forall z x, Rabs (lane_sign z * x) = Rabs x.
Proof. intros z x. unfold lane_sign. destruct (z <? 0)%Z; [rewrite <- (Rabs_Ropp x); f_equal; lra|f_equal; lra]. Qed.

Lemma set_start_target : forall t v, t_target (SetStartVal t v) = t_target t /\ t_pval (SetStartVal t v) = t_pval t /\ t_scale (SetStartVal t v) = t_scale t.
Proof.
  intros t v. unfold SetStartVal. destruct (update_keeps (TD (t_shape t) (t_dim t) v (t_target t) (t_ptarget t) (t_scale t) (t_pval t) (t_rate t))) as (_ & _ & _ & U4 & U5 & U6 & _).
  auto.
Qed.

Lemma set_target_scale : forall t v, t_pval (SetTargetVal t v) = t_pval t /\ t_scale (SetTargetVal t v) = t_scale t.
Proof.
  intros t v. unfold SetTargetVal. destruct (update_keeps (TD (t_shape t) (t_dim t) (t_start t) v (t_ptarget t) (t_scale t) (t_pval t) (t_rate t))) as (_ & _ & _ & _ & U5 & U6 & _).
  auto.
Qed.

(** What the start of a lane offset action leaves. *)
Lemma offset_start_l : forall t lane offset value a, t_dim t <> RATE -> let t' := offset_start t lane offset value a in
  t_shape t' = t_shape t /\ t_dim t' = t_dim t /\ t_pval t' = 0 /\ t_scale t' = 1 /\ lane_sign lane * t_start t' = offset /\ lane_sign lane * t_target t' = value /\
  t_ptarget t' = GetTargetParamValByPrimPrimPeak t' a.
Proof.
  intros t lane offset value a D. unfold offset_start.
  destruct (set_target_keeps (Reset t) (lane_sign lane * value)) as (A1 & A2 & A3 & A4 & A5).
  destruct (set_target_scale (Reset t) (lane_sign lane * value)) as (A6 & A7). set (t1 := SetTargetVal _ _) in *.
  destruct (set_start_keeps t1 (lane_sign lane * offset)) as (B1 & B2 & B3 & B4).
  destruct (set_start_target t1 (lane_sign lane * offset)) as (B5 & B6 & B7). set (t2 := SetStartVal _ _) in *.
  cbn [Reset t_shape t_dim t_start t_target t_ptarget t_scale t_pval] in *. cbn zeta.
  assert (D2 : t_dim t2 = t_dim t) by congruence. unfold SetParamTargetVal. rewrite D2. replace (is_rate (t_dim t)) with false by (destruct (t_dim t); congruence || reflexivity).
  cbn [t_shape t_dim t_start t_target t_ptarget t_scale t_pval].
  split; [congruence|]. split; [congruence|]. split; [congruence|]. split; [congruence|]. split; [rewrite B3, <- Rmult_assoc, lane_sign_sq; ring|].
  split; [rewrite B5, A4, <- Rmult_assoc, lane_sign_sq; ring|]. unfold GetTargetParamValByPrimPrimPeak, delta. cbn. reflexivity.
Qed.

(** The lateral acceleration. *)
Lemma offset_acc_l : forall t a, t_shape t = CUBIC \/ t_shape t = SINUSOIDAL -> 0 < a -> SMALL_NUMBER <= t_ptarget t ->
  t_ptarget t = GetTargetParamValByPrimPrimPeak t a -> (forall p, 0 <= p <= t_ptarget t -> Rabs (second t p) <= a) /\ Rabs (second t 0) = a.
Proof.
  intros t a S A T E. pose proof small_pos as SM. pose proof pi_pos as PP.
  assert (P : proper (t_shape t)) by (unfold proper; tauto).
  assert (K : Rabs (delta t) / t_ptarget t ^ 2 * sharpest (t_shape t) = a).
  { unfold GetTargetParamValByPrimPrimPeak in E. assert (AD := Rabs_pos (delta t)).
    assert (I : 0 < / a) by (apply Rinv_0_lt_compat; exact A).
    destruct S as [S|S]; rewrite S in *; cbn [sharpest].
    - assert (Q : t_ptarget t ^ 2 = 6 * Rabs (delta t) / a).
      { rewrite E. replace (sqrt (6 * Rabs (delta t) / a) ^ 2) with (sqrt (6 * Rabs (delta t) / a) * sqrt (6 * Rabs (delta t) / a)) by ring. apply sqrt_sqrt. unfold Rdiv. apply Rmult_le_pos; lra. }
      assert (Rabs (delta t) <> 0) by (intros Z; rewrite Z in Q; unfold Rdiv in Q; rewrite Rmult_0_r, Rmult_0_l in Q; nra).
      rewrite Q. field. split; lra.
    - assert (Q : t_ptarget t ^ 2 = PI ^ 2 * (Rabs (delta t) / (2 * a))).
      { rewrite E. replace ((PI * sqrt (Rabs (delta t) / (2 * a))) ^ 2) with (PI ^ 2 * (sqrt (Rabs (delta t) / (2 * a)) * sqrt (Rabs (delta t) / (2 * a)))) by ring. rewrite sqrt_sqrt; [reflexivity|].
        unfold Rdiv. apply Rmult_le_pos; [exact AD|]. apply Rlt_le, Rinv_0_lt_compat. lra. }
      assert (Rabs (delta t) <> 0) by (intros Z; rewrite Z in Q; unfold Rdiv in Q; rewrite Rmult_0_l, Rmult_0_r in Q; nra).
      rewrite Q. field. repeat split; lra. }
  assert (Q2 : 0 < t_ptarget t ^ 2) by nra. assert (I2 : 0 < / t_ptarget t ^ 2) by (apply Rinv_0_lt_compat; exact Q2).
  split.
  - intros p B. unfold second. rewrite Rabs_mult. unfold Rdiv at 1. rewrite Rabs_mult, (Rabs_right (/ t_ptarget t ^ 2)) by lra.
    rewrite <- K. unfold Rdiv at 2. apply Rmult_le_compat_l; [apply Rmult_le_pos; [apply Rabs_pos|lra]|].
    apply bend_range; [exact P|]. apply (unit_range (at_ t p)); [split; assumption|exact B].
  - unfold second. unfold Rdiv at 2. rewrite Rmult_0_l. rewrite (proj1 (bend_ends _ S)).
    assert (0 <= sharpest (t_shape t)) by (destruct S as [S|S]; rewrite S; cbn; nra).
    unfold Rdiv. rewrite !Rabs_mult, (Rabs_right (/ t_ptarget t ^ 2)), (Rabs_right (sharpest _)) by lra. exact K.
Qed.

Lemma offset_acc_gen : forall t s a, t_shape t = s -> s = CUBIC \/ s = SINUSOIDAL -> 0 < a -> SMALL_NUMBER <= t_ptarget t ->
  t_ptarget t = GetTargetParamValByPrimPrimPeak t a ->
  exists acc, (forall q, derivable_pt_lim (fun p => EvaluatePrim (at_ t p)) q (acc q)) /\ (forall q, 0 <= q <= t_ptarget t -> Rabs (acc q) <= a) /\ Rabs (acc 0) = a.
Proof.
  intros t s a SH S A T PT. rewrite <- SH in S. exists (second t). assert (G : regular t) by (split; [unfold proper; tauto|exact T]).
  split; [|exact (offset_acc_l t a S A T PT)]. intros q. exact (second_derivative_l (at_ t q) (regular_at _ _ G)).
Qed.

Lemma passed_impossible : forall t, regular t -> 0 <= t_pval t <= t_ptarget t ->
  finished t (Evaluate t SHAPE_UNDEFINED) = Rltb (t_ptarget t - SMALL_NUMBER) (t_pval t) || Rltb (Rabs (Evaluate t SHAPE_UNDEFINED - t_target t)) SMALL_NUMBER.
Proof.
  intros t G PV. unfold finished. destruct (Rltb (t_ptarget t - SMALL_NUMBER) (t_pval t)); [reflexivity|].
  destruct (Rltb (Rabs (Evaluate t SHAPE_UNDEFINED - t_target t)) SMALL_NUMBER) eqn:E; [reflexivity|]. apply Rltb_false in E. cbn.
  destruct (Rltb 0 (t_pval t)); [|reflexivity]. cbn. apply negb_false_iff, Reqb_true.
  assert (B := eval_between_l t G PV). pose proof small_pos. unfold between in B.
  assert (NZ : Evaluate t SHAPE_UNDEFINED <> t_target t) by (intros Z; rewrite Z in E; replace (t_target t - t_target t) with 0 in E by ring; rewrite Rabs_R0 in E; lra).
  destruct (sign_cases (Evaluate t SHAPE_UNDEFINED - t_target t)) as [[A ->]|[A ->]]; destruct (sign_cases (t_start t - t_target t)) as [[C ->]|[C ->]]; try reflexivity; lra.
Qed.

(** One step of a lane offset action. *)
Lemma offset_step_l : forall t lane fwd speed dt, regular t -> 0 <= t_pval t <= t_ptarget t ->
  offset_step t lane fwd speed dt =
  if Rltb (t_ptarget t - SMALL_NUMBER) (t_pval t) || Rltb (Rabs (Evaluate t SHAPE_UNDEFINED - t_target t)) SMALL_NUMBER
  then (Step t dt, lane_sign lane * t_target t, 0, true)
  else (Step t dt, lane_sign lane * Evaluate t SHAPE_UNDEFINED, (if fwd then 1 else -1) * lane_sign lane * atan (EvaluatePrim t / AVOID_ZERO speed), false).
Proof. intros t lane fwd speed dt G PV. unfold offset_step. rewrite (passed_impossible t G PV). reflexivity. Qed.

Lemma steps_sum : forall dts t, 0 <= t_pval t <= t_ptarget t -> t_scale t = 1 -> Forall (fun d => 0 <= d) dts ->
  fold_left Step dts t = at_ t (Rmin (t_ptarget t) (t_pval t + sum dts)).
Proof.
  induction dts as [|d dts IH]; intros t B S F; cbn [fold_left sum fold_right].
  - rewrite Rplus_0_r, Rmin_right by lra. symmetry. apply td_eta.
  - inversion_clear F. assert (SN := sum_nonneg dts H0). unfold sum in SN. assert (P : t_pval (Step t d) = Rmin (t_ptarget t) (t_pval t + d)).
    { rewrite step_pval by (rewrite ?S; lra). rewrite S. unfold Rdiv. rewrite Rinv_1, Rmult_1_r. reflexivity. }
    rewrite IH; [|exact (step_range_l t d ltac:(lra))|exact S|exact H0]. rewrite P. unfold at_, sum in *. cbn [Step t_shape t_dim t_start t_target t_ptarget t_scale t_rate].
    f_equal. unfold Rmin. repeat destruct Rle_dec; lra.
Qed.

(** ** Lane change *)

Lemma lateral_time_l : forall t speed dt, t_dim t = TIME \/ t_dim t = RATE -> 0 <= dt -> dt * Rabs (EvaluateScaledPrim t) <= Rabs speed * dt ->
  exists h l, lanechange_lateral t speed dt = Some (Step t dt, Evaluate (Step t dt) SHAPE_UNDEFINED, h, l) /\ 0 <= l /\
    l ^ 2 + (dt * Rabs (EvaluateScaledPrim t)) ^ 2 = (Rabs speed * dt) ^ 2.
Proof.
  intros t speed dt D DT LE. pose proof small_pos as SM. unfold lanechange_lateral.
  replace (Rltb (dt * Rabs (EvaluateScaledPrim t)) (Rabs speed * dt + SMALL_NUMBER)) with true by (symmetry; apply Rltb_true; lra).
  set (sl := Rabs speed * dt) in *. set (dl := dt * Rabs (EvaluateScaledPrim t)) in *.
  assert (DL : 0 <= dl) by (apply Rmult_le_pos; [lra|apply Rabs_pos]).
  assert (M : RMIN dl sl = dl) by (destruct (rmin_cases dl sl) as [[A ->]|[A ->]]; lra). rewrite M.
  exists (atan2 (SIGN speed * SIGN (EvaluateScaledPrim t) * dl) (sqrt (sl ^ 2 - dl ^ 2))), (sqrt (sl ^ 2 - dl ^ 2)).
  split; [destruct D as [D|D]; rewrite D; reflexivity|]. split; [apply sqrt_pos|].
  replace (sqrt (sl ^ 2 - dl ^ 2) ^ 2) with (sqrt (sl ^ 2 - dl ^ 2) * sqrt (sl ^ 2 - dl ^ 2)) by ring. rewrite sqrt_sqrt; [ring|nra].
Qed.

Lemma lateral_distance_l : forall t speed dt, t_dim t = DISTANCE -> 0 <= dt ->
  exists l, lanechange_lateral t speed dt = Some (Step t l, Evaluate (Step t l) SHAPE_UNDEFINED, atan (EvaluateScaledPrim t), l) /\ 0 <= l /\
    l ^ 2 + (l * EvaluateScaledPrim t) ^ 2 = (Rabs speed * dt) ^ 2.
Proof.
  intros t speed dt D DT. unfold lanechange_lateral. rewrite D. set (r := EvaluateScaledPrim t). set (sl := Rabs speed * dt).
  exists (sqrt (sl ^ 2 / (1 + r ^ 2))). split; [reflexivity|]. split; [apply sqrt_pos|].
  assert (0 < 1 + r ^ 2) by nra.
  replace (sqrt (sl ^ 2 / (1 + r ^ 2)) ^ 2 + (sqrt (sl ^ 2 / (1 + r ^ 2)) * r) ^ 2) with (sqrt (sl ^ 2 / (1 + r ^ 2)) * sqrt (sl ^ 2 / (1 + r ^ 2)) * (1 + r ^ 2)) by ring.
  rewrite sqrt_sqrt; [field; lra|]. unfold Rdiv. apply Rmult_le_pos; [nra|]. apply Rlt_le, Rinv_0_lt_compat. lra.
Qed.

(** The offset stays between start and target. *)
Lemma lateral_between_l : forall t speed dt t' o h l, regular t -> lanechange_lateral t speed dt = Some (t', o, h, l) -> between (t_start t) o (t_target t).
Proof.
  intros t speed dt t' o h l G H. pose proof small_pos as SM.
  assert (P : 0 <= t_ptarget t) by (pose proof (proj2 G); lra).
  assert (A : forall d, between (t_start t) (Evaluate (Step t d) SHAPE_UNDEFINED) (t_target t)).
  { intros d. apply (eval_between_l (Step t d)); [exact G|exact (step_range_l t d P)]. }
  assert (B : forall d, between (t_start t) (Evaluate (Step t d) LINEAR) (t_target t)).
  { intros d. rewrite (eval_linear (Step t d) G). assert (U := unit_range (Step t d) G (step_range_l t d P)).
    change (t_ptarget (Step t d)) with (t_ptarget t) in *. change (t_start (Step t d)) with (t_start t). change (delta (Step t d)) with (t_target t - t_start t).
    unfold between. destruct (Rle_or_lt (t_start t) (t_target t)); [left|right]; nra. }
  unfold lanechange_lateral in H. destruct (t_dim t); [| | |discriminate].
  1,2: destruct (Rltb (dt * Rabs (EvaluateScaledPrim t)) (Rabs speed * dt + SMALL_NUMBER)); [injection H as <- <- <- <-; apply A|];
       destruct (Reqb (Rabs (delta t)) 0); [discriminate|injection H as <- <- <- <-; apply B].
  injection H as <- <- <- <-. apply A.
Qed.

(** Linear transitions: the lateral move is at most the way of the step. *)
Lemma lateral_linear_l : forall t speed dt t' o h l, regular t -> t_shape t = LINEAR -> t_dim t = TIME \/ t_dim t = RATE -> t_scale t = 1 ->
  0 <= t_pval t <= t_ptarget t -> 0 <= dt -> lanechange_lateral t speed dt = Some (t', o, h, l) ->
  Rabs (o - Evaluate t SHAPE_UNDEFINED) <= Rabs speed * dt + SMALL_NUMBER.
Proof.
  intros t speed dt t' o h l G S D SC PV DT H. pose proof small_pos as SM. assert (T := proj2 G).
  assert (ES : EvaluateScaledPrim t = delta t / t_ptarget t).
  { unfold EvaluateScaledPrim. rewrite (prim_slope t G), S, SC. cbn [slope]. rewrite avoid_zero_id by (unfold SMALL_NUMBER; lra). field. lra. }
  assert (LE : forall d, 0 <= d -> Rabs (Evaluate (Step t d) LINEAR - Evaluate t SHAPE_UNDEFINED) <= d * (Rabs (delta t) / t_ptarget t)).
  { intros d DD. assert (PS := step_pval t d PV). rewrite SC in PS. specialize (PS Rlt_0_1 DD). unfold Rdiv in PS at 1. rewrite Rinv_1, Rmult_1_r in PS.
    rewrite (eval_linear (Step t d) G). rewrite (eval_curve t G), S. cbn [curve].
    change (t_ptarget (Step t d)) with (t_ptarget t). change (t_start (Step t d)) with (t_start t). change (delta (Step t d)) with (delta t). rewrite PS.
    replace (t_start t + delta t * (Rmin (t_ptarget t) (t_pval t + d) / t_ptarget t) - (t_start t + delta t * (t_pval t / t_ptarget t)))
      with (delta t * ((Rmin (t_ptarget t) (t_pval t + d) - t_pval t) / t_ptarget t)) by (field; lra).
    rewrite Rabs_mult. assert (I : 0 < / t_ptarget t) by (apply Rinv_0_lt_compat; lra).
    assert (B : 0 <= Rmin (t_ptarget t) (t_pval t + d) - t_pval t <= d) by (unfold Rmin; destruct Rle_dec; lra).
    rewrite (Rabs_right (_ / _)) by (unfold Rdiv; apply Rle_ge, Rmult_le_pos; lra).
    replace (d * (Rabs (delta t) / t_ptarget t)) with (Rabs (delta t) * (d / t_ptarget t)) by (field; lra).
    apply Rmult_le_compat_l; [apply Rabs_pos|]. unfold Rdiv. apply Rmult_le_compat_r; lra. }
  assert (AS : Rabs (delta t / t_ptarget t) = Rabs (delta t) / t_ptarget t).
  { unfold Rdiv. rewrite Rabs_mult, (Rabs_right (/ t_ptarget t)); [reflexivity|]. apply Rle_ge, Rlt_le, Rinv_0_lt_compat. lra. }
  assert (EL : forall d, Evaluate (Step t d) SHAPE_UNDEFINED = Evaluate (Step t d) LINEAR).
  { intros d. unfold Evaluate. change (t_shape (Step t d)) with (t_shape t). rewrite S. reflexivity. }
  assert (SL : 0 <= Rabs speed * dt) by (apply Rmult_le_pos; [apply Rabs_pos|lra]).
  unfold lanechange_lateral in H. rewrite ES in H.
  assert (H' : (if Rltb (dt * Rabs (delta t / t_ptarget t)) (Rabs speed * dt + SMALL_NUMBER) then o = Evaluate (Step t dt) SHAPE_UNDEFINED
                else delta t <> 0 /\ o = Evaluate (Step t (Rabs speed * dt * t_ptarget t / Rabs (delta t))) LINEAR)).
  { destruct D as [D|D]; rewrite D in H; destruct (Rltb (dt * Rabs (delta t / t_ptarget t)) (Rabs speed * dt + SMALL_NUMBER)); try (injection H as <- <- <- <-; reflexivity);
      (destruct (Reqb (Rabs (delta t)) 0) eqn:Z; [discriminate|]; apply Reqb_false in Z; injection H as <- <- <- <-; split; [intros X; apply Z; rewrite X; apply Rabs_R0|reflexivity]). }
  clear H. destruct (Rltb (dt * Rabs (delta t / t_ptarget t)) (Rabs speed * dt + SMALL_NUMBER)) eqn:C.
  - apply Rltb_true in C. subst o. rewrite EL. rewrite AS in C. specialize (LE dt DT). lra.
  - destruct H' as [NZ ->]. assert (0 < Rabs (delta t)) by (apply Rabs_pos_lt; exact NZ).
    assert (Q : 0 <= Rabs speed * dt * t_ptarget t / Rabs (delta t)).
    { unfold Rdiv. apply Rmult_le_pos; [apply Rmult_le_pos; lra|apply Rlt_le, Rinv_0_lt_compat; lra]. }
    specialize (LE _ Q). replace (Rabs speed * dt * t_ptarget t / Rabs (delta t) * (Rabs (delta t) / t_ptarget t)) with (Rabs speed * dt) in LE by (field; lra). lra.
Qed.

(** ** Witnesses *)

Ltac rb1 :=
  match goal with
  | |- context [Rabs ?x] => first [rewrite (Rabs_right x) by lra | rewrite (Rabs_left x) by lra]
  | |- context [Rltb ?a ?b] => first [rewrite (proj2 (Rltb_true a b)) by lra | rewrite (proj2 (Rltb_false a b)) by lra]
  | |- context [Reqb ?a ?b] => first [rewrite (proj2 (Reqb_true a b)) by lra | rewrite (proj2 (Reqb_false a b)) by lra]
  end.
Ltac rb := repeat (rb1; cbn [andb orb negb]).
Ltac ru := unfold speed_step, speed_move, SetTargetVal, SetStartVal, SetMaxRate, SetRate, SetParamTargetVal, UpdateRate, EvaluatePrimPeak, GetTargetParamValByPrimPeak,
  EvaluateScaledPrim, EvaluatePrim, Evaluate, stepping, ABS_LIMIT, NEAR_ZERO, AVOID_ZERO, CLAMP, RMAX, RMIN, SIGN, delta, Step, Reset, LARGE_NUMBER, SMALL_NUMBER.
Ltac rc := cbn [t_shape t_dim t_start t_target t_ptarget t_scale t_pval t_rate is_rate is_step andb orb negb p_acc p_dec p_speed s_td s_speed s_reached s_ended Reset].

(** A lane change that falls back to the linear shape jumps. *)
Lemma jump_l : exists t' h l, lanechange_lateral (TD CUBIC TIME 0 4 4 1 0.9 0) 1 0.1 = Some (t', 1, h, l) /\
  Evaluate (TD CUBIC TIME 0 4 4 1 0.9 0) SHAPE_UNDEFINED = 0.516375 /\ Rabs 1 * 0.1 = 0.1 /\
  exists h0 l0, lanechange_lateral (TD CUBIC TIME 0 4 4 1 0 0) 1 0.9 = Some (TD CUBIC TIME 0 4 4 1 0.9 0, 0.516375, h0, l0).
Proof.
  eexists. eexists. eexists. split; [|split; [|split]].
  - unfold lanechange_lateral. rc. match goal with |- context [Rltb ?a ?b] => replace (Rltb a b) with false end.
    2:{ symmetry. apply Rltb_false. ru. rc. rb. lra. }
    replace (Reqb (Rabs (delta (TD CUBIC TIME 0 4 4 1 0.9 0))) 0) with false.
    2:{ symmetry. apply Reqb_false. unfold delta. rc. rb. lra. }
    match goal with |- Some (?a, ?b, ?c, ?d) = _ => replace b with 1 end; [reflexivity|].
    unfold Evaluate, stepping, AVOID_ZERO, RMAX, SIGN, Step, delta, SMALL_NUMBER. rc. rb. lra.
  - ru. rc. rb. lra.
  - rb. lra.
  - eexists. eexists. unfold lanechange_lateral. rc. match goal with |- context [Rltb ?a ?b] => replace (Rltb a b) with true end.
    2:{ symmetry. apply Rltb_true. ru. rc. rb. lra. }
    assert (S : Step (TD CUBIC TIME 0 4 4 1 0 0) 0.9 = TD CUBIC TIME 0 4 4 1 0.9 0) by (unfold Step; rc; rb; f_equal; lra).
    rewrite S. match goal with |- Some (?a, ?b, ?c, ?d) = _ => replace b with 0.516375 end; [reflexivity|].
    ru. rc. rb. lra.
Qed.

(** A speed action with rate 0 never moves and never ends. *)
Definition stuck (s tgt : R) (t : td) : Prop :=
  t_dim t = RATE /\ proper (t_shape t) /\ t_start t = s /\ t_target t = tgt /\ t_ptarget t = 0 /\ t_scale t = 1 /\ t_pval t = 0 /\ t_rate t = 0.

Lemma stuck_eval : forall s tgt t, stuck s tgt t -> Evaluate t SHAPE_UNDEFINED = s.
Proof.
  intros s tgt t (D & P & S & T & PT & SC & PV & RA). unfold Evaluate, stepping. rewrite D, S, PT, PV. pose proof small_pos as SM.
  assert (AZ : AVOID_ZERO 0 = SMALL_NUMBER).
  { rewrite avoid_zero_nonneg by lra. destruct (rmax_cases SMALL_NUMBER 0) as [[A ->]|[A ->]]; lra. }
  rewrite AZ. destruct P as [P|[P|P]]; rewrite P; cbn [is_step is_rate andb orb negb].
  - field. lra.
  - unfold Rdiv. rewrite Rmult_0_l. ring.
  - replace (PI * 0 / SMALL_NUMBER) with 0 by (field; lra). rewrite cos_0. lra.
Qed.

Lemma stuck_update : forall s tgt t, stuck s tgt t -> UpdateRate t = t.
Proof.
  intros s tgt t (D & P & S & T & PT & SC & PV & RA). unfold UpdateRate. rewrite D, RA, Rabs_R0, Rmult_0_r.
  assert (N : NEAR_ZERO 0 = true) by (unfold NEAR_ZERO; rewrite Rabs_R0; apply Rltb_true, small_pos). rewrite N. cbn [is_rate andb negb].
  cbn [t_dim is_rate andb negb]. rewrite <- D, <- RA. apply td_eta.
Qed.

Lemma stuck_start : forall p v st, proper (t_shape (s_td st)) -> t_dim (s_td st) = RATE -> t_rate (s_td st) = 0 -> t_ptarget (s_td st) = 0 ->
  exists st', speed_start p false v st = Some st' /\ stuck (s_speed st) (ABS_LIMIT v (p_speed p)) (s_td st') /\ s_speed st' = s_speed st /\ s_ended st' = false.
Proof.
  intros p v st P D RA PT. pose proof small_pos as SM. unfold speed_start.
  assert (U : forall t, t_dim t = RATE -> t_rate t = 0 -> UpdateRate t = t).
  { intros t D' R'. unfold UpdateRate. rewrite D', R', Rabs_R0, Rmult_0_r.
    assert (N : NEAR_ZERO 0 = true) by (unfold NEAR_ZERO; rewrite Rabs_R0; apply Rltb_true, small_pos). cbn [t_dim is_rate andb negb]. rewrite N. cbn [andb negb].
    rewrite <- D', <- R'. apply td_eta. }
  unfold SetStartVal. rewrite U by (cbn; reflexivity || assumption). unfold distance_to_time. cbn [t_dim Reset]. rewrite D. unfold SetTargetVal. rewrite U by (cbn; reflexivity || assumption).
  cbn [t_dim t_shape t_start t_target t_ptarget t_scale t_pval t_rate Reset]. rewrite RA.
  unfold SetMaxRate, EvaluatePrimPeak. cbn [t_dim t_shape t_start t_target t_ptarget t_scale t_pval t_rate is_rate]. rewrite Rabs_R0.
  match goal with |- context [Rltb (Rabs ?m) 0] => replace (Rltb (Rabs m) 0) with false by (symmetry; apply Rltb_false, Rabs_pos) end.
  unfold SetRate. cbn [t_dim t_shape t_start t_target t_ptarget t_scale t_pval t_rate is_rate]. rewrite Rmult_0_r. rewrite U by (cbn; reflexivity).
  eexists. split; [reflexivity|]. cbn [s_td s_speed s_ended]. assert (K : stuck (s_speed st) (ABS_LIMIT v (p_speed p)) (TD (t_shape (s_td st)) RATE (s_speed st) (ABS_LIMIT v (p_speed p)) (t_ptarget (s_td st)) 1 0 0)).
  { unfold stuck. cbn. rewrite PT. auto 10. }
  split; [exact K|]. split; [apply (stuck_eval _ _ _ K)|reflexivity].
Qed.

Lemma stuck_step : forall p tt v dt st s, sane p -> stuck s (ABS_LIMIT v (p_speed p)) (s_td st) -> s_speed st = s -> s_reached st = false -> s_ended st = false -> 0 <= dt ->
  SMALL_NUMBER <= Rabs (s - ABS_LIMIT v (p_speed p)) -> speed_step p tt false v dt st = st.
Proof.
  intros p tt v dt st s SA K S R E DT F. pose proof small_pos as SM. pose proof K as (D & P & ST & T & PT & SC & PV & RA). unfold speed_step.
  rewrite target_same; [|exact (stuck_update _ _ _ K)|exact T].
  assert (SS0 : Step (s_td st) dt = s_td st).
  { unfold Step. rewrite PT, PV, SC. assert (0 <= 0 + dt / 1) by lra.
    replace (if Rltb 0 (0 + dt / 1) then 0 else if Rltb (0 + dt / 1) 0 then 0 else 0 + dt / 1) with 0.
    2:{ destruct (Rltb 0 (0 + dt / 1)) eqn:Q; [reflexivity|]. apply Rltb_false in Q. destruct (Rltb (0 + dt / 1) 0); lra. }
    rewrite <- (td_eta (s_td st)) at 6. rewrite PT, SC, PV. reflexivity. }
  assert (MV : speed_move p v dt (s_td st) (s_speed st) = (s_td st, s_speed st)).
  { unfold speed_move. rewrite PT. rewrite (proj2 (Rltb_false 0 0)) by lra. cbn [andb]. rewrite SS0, (stuck_eval _ _ _ K), S.
    replace (if Rltb SMALL_NUMBER dt then (s - s) / dt else 0) with 0 by (destruct (Rltb SMALL_NUMBER dt); [unfold Rdiv; ring|reflexivity]).
    destruct SA as (A1 & A2 & A3). rewrite (proj2 (Rltb_false (p_acc p + SMALL_NUMBER) 0)) by lra. rewrite (proj2 (Rltb_false 0 (- (p_dec p + SMALL_NUMBER)))) by lra. reflexivity. }
  rewrite MV, T, S. rewrite (proj2 (Rltb_false _ SMALL_NUMBER) F), andb_false_r. rewrite R, E. cbn [orb andb]. destruct st as [a b c d]. cbn in *. subst. reflexivity.
Qed.

Lemma stuck_run : forall p tt v dts st s, sane p -> stuck s (ABS_LIMIT v (p_speed p)) (s_td st) -> s_speed st = s -> s_reached st = false -> s_ended st = false -> Forall (fun d => 0 <= d) dts ->
  SMALL_NUMBER <= Rabs (s - ABS_LIMIT v (p_speed p)) -> run p tt v dts st = st.
Proof.
  induction dts as [|d dts IH]; intros st s SA K S R E F G; [reflexivity|]. inversion_clear F.
  unfold run. cbn [fold_left]. rewrite (stuck_step p tt v d st s) by assumption. apply (IH st s); assumption.
Qed.

(** A second start of an action given by a distance uses the duration of the first as distance. *)
Definition dist_action : speed_state := SS (TD LINEAR DISTANCE 0 0 100 1 0 0) 0 false false.

Lemma dist_start : forall p v st, t_dim (s_td st) = DISTANCE -> SMALL_NUMBER <= Rabs (v - s_speed st) -> 0 <= s_speed st * v ->
  exists st', speed_start p false v st = Some st' /\ t_ptarget (s_td st') = 2 * t_ptarget (s_td st) / Rabs (s_speed st + v) /\
    t_shape (s_td st') = t_shape (s_td st) /\ t_dim (s_td st') = DISTANCE /\ t_start (s_td st') = s_speed st /\ t_target (s_td st') = ABS_LIMIT v (p_speed p).
Proof.
  intros p v st D C SV. pose proof small_pos as SM. unfold speed_start.
  destruct (set_start_keeps (Reset (s_td st)) (s_speed st)) as (A1 & A2 & A3 & A4). set (t1 := SetStartVal _ _) in *.
  cbn [Reset t_shape t_dim t_ptarget] in *. specialize (A4 ltac:(congruence)).
  assert (X : exists t2, distance_to_time t1 v = Some t2 /\ t_ptarget t2 = 2 * t_ptarget (s_td st) / Rabs (s_speed st + v)).
  { unfold distance_to_time. rewrite A2, D. rewrite (proj2 (Rltb_false _ SMALL_NUMBER)) by (rewrite A3; exact C). rewrite A3, A4.
    assert (NZ : Rabs (s_speed st + v) <> 0).
    { intros Z. assert (s_speed st + v = 0) by (destruct (Req_dec (s_speed st + v) 0) as [Q|Q]; [exact Q|exfalso; exact (Rabs_no_R0 _ Q Z)]). assert (v = - s_speed st) by lra. subst v. assert (Q0 : s_speed st = 0) by nra. rewrite Q0 in C. replace (- 0 - 0) with 0 in C by ring. rewrite Rabs_R0 in C. lra. }
    replace (Rltb SMALL_NUMBER (Rabs (s_speed st)) && Rltb SMALL_NUMBER (Rabs v) && negb (Reqb (SIGN (s_speed st)) (SIGN v))) with false.
    2:{ symmetry. destruct (Rltb SMALL_NUMBER (Rabs (s_speed st))) eqn:E1; [|reflexivity]. destruct (Rltb SMALL_NUMBER (Rabs v)) eqn:E2; [|reflexivity]. apply Rltb_true in E1, E2.
        apply negb_false_iff, Reqb_true. destruct (sign_cases (s_speed st)) as [[B ->]|[B ->]]; destruct (sign_cases v) as [[B' ->]|[B' ->]]; try reflexivity; exfalso.
        - rewrite Rabs_right in E2 by lra. nra.
        - rewrite Rabs_right in E1 by lra. nra. }
    rewrite (proj2 (Reqb_false _ 0) NZ). unfold SetParamTargetVal. rewrite A2, D. cbn [is_rate]. eexists. split; [reflexivity|]. reflexivity. }
  destruct X as (t2 & X1 & X2). rewrite X1. destruct (distance_keeps _ _ _ X1) as (K1 & K2 & K3 & _).
  destruct (set_target_keeps t2 (ABS_LIMIT v (p_speed p))) as (B1 & B2 & B3 & B4 & B5). set (t3 := SetTargetVal _ _) in *. specialize (B5 ltac:(congruence)).
  unfold SetMaxRate. cbn [t_dim]. replace (is_rate (t_dim t3)) with false by (rewrite B2, K2, A2, D; reflexivity).
  eexists. split; [reflexivity|]. cbn [s_td t_ptarget t_shape t_dim t_start t_target]. repeat split; congruence.
Qed.

Lemma dist_twice_l : exists st1 st2, speed_start (Perf 10 10 50) false 10 dist_action = Some st1 /\ t_ptarget (s_td st1) = 20 /\
  speed_start (Perf 10 10 50) false 10 (SS (s_td st1) 0 (s_reached st1) true) = Some st2 /\ t_ptarget (s_td st2) = 4.
Proof.
  destruct (dist_start (Perf 10 10 50) 10 dist_action) as (st1 & A1 & A2 & A3 & A4 & _); [reflexivity|cbn; unfold SMALL_NUMBER; rb; lra|cbn; lra|].
  destruct (dist_start (Perf 10 10 50) 10 (SS (s_td st1) 0 (s_reached st1) true)) as (st2 & B1 & B2 & _); [exact A4|cbn; unfold SMALL_NUMBER; rb; lra|cbn; lra|].
  exists st1, st2. cbn [dist_action s_td s_speed t_ptarget] in *. rewrite Rabs_right in A2, B2 by lra. repeat split; try assumption; lra.
Qed.

(** A distance and a target above the largest speed: half of the distance. *)
Lemma dist_limited_l : exists st', speed_start (Perf 10 10 10) false 20 dist_action = Some st' /\ t_ptarget (s_td dist_action) = 100 /\
  exists F, (forall q, derivable_pt_lim F q (Evaluate (at_ (s_td st') q) SHAPE_UNDEFINED)) /\ F (t_ptarget (s_td st')) - F 0 = 50.
Proof.
  destruct (dist_start (Perf 10 10 10) 20 dist_action) as (st1 & A1 & A2 & A3 & A4 & A5 & A6); [reflexivity|cbn; unfold SMALL_NUMBER; rb; lra|cbn; lra|].
  exists st1. split; [exact A1|]. split; [reflexivity|]. cbn [dist_action s_td s_speed t_ptarget t_shape p_speed] in *. rewrite Rabs_right in A2 by lra.
  assert (E4 : t_target (s_td st1) = 10) by (rewrite A6; unfold ABS_LIMIT, SIGN; rb; lra).
  assert (G : regular (s_td st1)) by (split; [left; exact A3|rewrite A2; unfold SMALL_NUMBER; lra]).
  exists (way (s_td st1)). split; [intros q; apply way_derivative; exact G|]. rewrite (way_total _ G), A2, A5, E4. lra.
Qed.

(** Speeds that cancel out. *)
Lemma dist_divzero_l : forall p, speed_start p false (- (9 / 10000000)) (SS (TD LINEAR DISTANCE 0 0 100 1 0 0) (9 / 10000000) false false) = None.
Proof. intros p. unfold speed_start, distance_to_time, SetStartVal, UpdateRate. rc. unfold SMALL_NUMBER. rb. reflexivity. Qed.

(** The step shape does not look at the acceleration of the object. *)
Lemma step_unlimited_l : exists st', speed_start (Perf 1 1 50) false 30 (SS (TD STEP TIME 0 0 5 1 0 0) 0 false false) = Some st' /\ s_speed st' = 30.
Proof.
  eexists. split; [reflexivity|]. cbn [s_speed]. unfold Evaluate, stepping. cbn [is_rate t_dim t_shape SetMaxRate SetTargetVal UpdateRate SetStartVal distance_to_time Reset s_td andb is_step orb t_target].
  unfold ABS_LIMIT. cbn [p_speed s_speed]. rb. lra.
Qed.

(** A step of length 0 lets the speed jump when the target moved. *)
Lemma zero_step_l : exists st', speed_step (Perf 1 1 200) (RELATIVE_SPEED true) false 100 0 (SS (TD LINEAR TIME 0 10 10 1 5 1) 5 false false) = st' /\
  Evaluate (TD LINEAR TIME 0 10 10 1 5 1) SHAPE_UNDEFINED = 5 /\ s_speed st' = 50.
Proof.
  eexists. split; [reflexivity|]. split; [ru; rc; rb; lra|].
  assert (A : SetTargetVal (TD LINEAR TIME 0 10 10 1 5 1) (ABS_LIMIT 100 200) = TD LINEAR TIME 0 100 10 1 5 1).
  { unfold ABS_LIMIT, SetTargetVal, UpdateRate, SIGN, delta. rc. rb. rc. rewrite Rmult_1_l. reflexivity. }
  assert (B : Step (TD LINEAR TIME 0 100 10 1 5 1) 0 = TD LINEAR TIME 0 100 10 1 5 1).
  { unfold Step. rc. rb. f_equal. lra. }
  assert (C : Evaluate (TD LINEAR TIME 0 100 10 1 5 1) SHAPE_UNDEFINED = 50) by (ru; rc; rb; lra).
  unfold speed_step. cbn [s_td s_speed p_speed]. rewrite A. unfold speed_move. rewrite B, C. rc. unfold SMALL_NUMBER. rb. rc. rb. reflexivity.
Qed.
