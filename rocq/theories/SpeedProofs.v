(** * Speed, lane offset and lane change actions: specification and proofs *)
From Coq Require Import Reals Bool ZArith List Lra Lia Psatz.
Import ListNotations.
From Verif Require Import AngModel AngProofs GeoModel TransModel TransProofs.
Open Scope R_scope.

(** ** Limits *)

Lemma abs_limit_id : forall x y, Rabs x <= Rabs y -> ABS_LIMIT x y = x.
Proof. intros x y H. unfold ABS_LIMIT. destruct (Rltb (Rabs y) (Rabs x)) eqn:E; [apply Rltb_true in E; lra|reflexivity]. Qed.

(** The value in [-m, m] closest to [x]. *)
Definition clip (x m : R) : R := Rmax (- m) (Rmin m x).

Lemma abs_limit_clip : forall x m, 0 <= m -> ABS_LIMIT x m = clip x m.
Proof.
  intros x m M. unfold ABS_LIMIT, clip. rewrite (Rabs_right m) by lra.
  destruct (Rltb m (Rabs x)) eqn:E; [apply Rltb_true in E; destruct (sign_cases x) as [[A ->]|[A ->]]|apply Rltb_false in E];
    revert E; unfold Rabs; destruct (Rcase_abs x); intros E; unfold Rmax, Rmin; repeat destruct Rle_dec; lra.
Qed.

Lemma clamp_spec : forall x lo hi, lo <= hi -> lo <= CLAMP x lo hi <= hi /\ (lo <= x <= hi -> CLAMP x lo hi = x) /\ (hi <= x -> CLAMP x lo hi = hi) /\ (x <= lo -> CLAMP x lo hi = lo).
Proof.
  intros x lo hi H. unfold CLAMP.
  destruct (rmax_cases lo x) as [[A ->]|[A ->]]; [destruct (rmin_cases hi x) as [[B ->]|[B ->]]|destruct (rmin_cases hi lo) as [[B ->]|[B ->]]]; repeat split; intros; lra.
Qed.

(** ** The start *)

(** Limits of a vehicle. *)
Definition sane (p : perf) : Prop := 0 <= p_acc p /\ 0 <= p_dec p /\ 0 <= p_speed p.

(** The limit that applies from start to target of a transition. *)
Definition limit (p : perf) (t : td) : R := if Rlt_dec (t_start t) (t_target t) then p_acc p else p_dec p.

(** A transition of the speed that stays within the limits if it runs by [scale]. *)
Definition ready (p : perf) (t : td) : Prop :=
  regular t /\ settled t /\ 0 < t_scale t /\ 0 <= t_pval t <= t_ptarget t /\ top t / t_scale t <= Rmax SMALL_NUMBER (limit p t).

Lemma settled_scale : forall t s, settled t -> settled (TD (t_shape t) (t_dim t) (t_start t) (t_target t) (t_ptarget t) s (t_pval t) (t_rate t)).
Proof.
  intros t s H. assert (R := settled_rate t H). unfold settled in *. unfold UpdateRate in *. unfold delta in *.
  cbn [t_shape t_dim t_start t_target t_ptarget t_scale t_pval t_rate] in *. rewrite <- R in *.
  destruct (is_rate (t_dim t) && negb (NEAR_ZERO (t_rate t))); [|reflexivity].
  f_equal. apply (f_equal t_ptarget) in H. exact H.
Qed.

Lemma settled_pval : forall t q, settled t -> settled (at_ t q).
Proof.
  intros t q H. assert (R := settled_rate t H). unfold settled in *. unfold UpdateRate, at_ in *. unfold delta in *.
  cbn [t_shape t_dim t_start t_target t_ptarget t_scale t_pval t_rate] in *. rewrite <- R in *.
  destruct (is_rate (t_dim t) && negb (NEAR_ZERO (t_rate t))); [|reflexivity].
  f_equal. apply (f_equal t_ptarget) in H. exact H.
Qed.

Lemma rmax_Rmax : forall x y, RMAX x y = Rmax x y.
Proof. intros. unfold Rmax. destruct (rmax_cases x y) as [[A ->]|[A ->]]; destruct Rle_dec; lra. Qed.

(** What [UpdateRate] keeps. *)
Lemma update_keeps : forall t, t_shape (UpdateRate t) = t_shape t /\ t_dim (UpdateRate t) = t_dim t /\ t_start (UpdateRate t) = t_start t /\
  t_target (UpdateRate t) = t_target t /\ t_scale (UpdateRate t) = t_scale t /\ t_pval (UpdateRate t) = t_pval t /\
  Rabs (t_rate (UpdateRate t)) = Rabs (t_rate t) /\ (t_dim t <> RATE -> t_ptarget (UpdateRate t) = t_ptarget t).
Proof.
  intros t. unfold UpdateRate. cbn [t_dim].
  assert (E : Rabs (SIGN (delta t) * Rabs (t_rate t)) = Rabs (t_rate t)) by (rewrite Rabs_mult, abs_sign, Rabs_Rabsolu; ring).
  destruct (is_rate (t_dim t) && negb (NEAR_ZERO (SIGN (delta t) * Rabs (t_rate t)))) eqn:C; cbn [t_shape t_dim t_start t_target t_ptarget t_scale t_pval t_rate];
    repeat (split; [reflexivity || exact E|]); [|reflexivity].
  intros D. destruct (t_dim t); congruence || discriminate.
Qed.

Lemma set_rate_settled : forall t, settled t -> SetRate t (SIGN (delta t) * Rabs (t_rate t)) = t.
Proof.
  intros t H. unfold SetRate. rewrite <- (settled_rate t H), td_eta. exact H.
Qed.

Lemma distance_keeps : forall t v t', distance_to_time t v = Some t' -> t_shape t' = t_shape t /\ t_dim t' = t_dim t /\ t_start t' = t_start t /\
  t_target t' = t_target t /\ t_scale t' = t_scale t /\ t_pval t' = t_pval t /\ t_rate t' = t_rate t /\ (t_dim t <> DISTANCE -> t' = t).
Proof.
  intros t v t' H. unfold distance_to_time in H. destruct (t_dim t) eqn:D; try (injection H as <-; repeat split; auto; fail).
  unfold SetParamTargetVal in H. rewrite D in H. cbn [is_rate] in H.
  destruct (Rltb (Rabs (v - t_start t)) SMALL_NUMBER); [injection H as <-; cbn; repeat split; auto; congruence|].
  destruct (Rltb SMALL_NUMBER (Rabs (t_start t)) && Rltb SMALL_NUMBER (Rabs v) && negb (Reqb (SIGN (t_start t)) (SIGN v)));
    [injection H as <-; cbn; repeat split; auto; congruence|].
  destruct (Reqb (Rabs (t_start t + v)) 0); [discriminate|]. injection H as <-; cbn; repeat split; auto; congruence.
Qed.

(** What the start of a speed action leaves, if it does not end at once: a transition from the current speed to the target within the limit of
    the vehicle, ready to run. *)
Lemma start_l : forall p v st st', sane p -> speed_start p false v st = Some st' -> proper (t_shape (s_td st)) ->
  SMALL_NUMBER <= t_ptarget (s_td st') -> (t_dim (s_td st) = RATE -> SMALL_NUMBER <= Rabs (t_rate (s_td st))) ->
  ready p (s_td st') /\ t_pval (s_td st') = 0 /\ t_start (s_td st') = s_speed st /\ t_target (s_td st') = ABS_LIMIT v (p_speed p) /\
  s_speed st' = s_speed st /\ s_reached st' = false /\ s_ended st' = false /\ t_shape (s_td st') = t_shape (s_td st) /\ t_dim (s_td st') = t_dim (s_td st).
Proof.
  intros p v st st' SA H P T RT. unfold speed_start in H.
  destruct (distance_to_time (SetStartVal (Reset (s_td st)) (s_speed st)) v) as [t1|] eqn:D; [|discriminate].
  destruct (distance_keeps _ _ _ D) as (D1 & D2 & D3 & D4 & D5 & D6 & D7 & D8).
  unfold SetStartVal in *.
  destruct (update_keeps (TD (t_shape (Reset (s_td st))) (t_dim (Reset (s_td st))) (s_speed st) (t_target (Reset (s_td st))) (t_ptarget (Reset (s_td st)))
     (t_scale (Reset (s_td st))) (t_pval (Reset (s_td st))) (t_rate (Reset (s_td st))))) as (U1 & U2 & U3 & U4 & U5 & U6 & U7 & U8).
  cbn [Reset t_shape t_dim t_start t_target t_ptarget t_scale t_pval t_rate] in U1, U2, U3, U4, U5, U6, U7, U8.
  set (t0 := UpdateRate _) in *.
  unfold SetTargetVal in H.
  set (t2' := TD (t_shape t1) (t_dim t1) (t_start t1) (ABS_LIMIT v (p_speed p)) (t_ptarget t1) (t_scale t1) (t_pval t1) (t_rate t1)) in *.
  destruct (update_keeps t2') as (V1 & V2 & V3 & V4 & V5 & V6 & V7 & V8). assert (S2 := update_settled t2'). set (t2 := UpdateRate t2') in *.
  cbn [t2' t_shape t_dim t_start t_target t_ptarget t_scale t_pval t_rate] in V1, V2, V3, V4, V5, V6, V7, V8.
  set (m := if Rltb (t_start t2) (t_target t2) then p_acc p else p_dec p) in *.
  assert (S3 : settled (SetMaxRate t2 m)) by (unfold SetMaxRate; apply settled_scale, S2).
  assert (E3 : (if is_rate (t_dim (SetMaxRate t2 m)) then SetRate (SetMaxRate t2 m) (SIGN (delta (SetMaxRate t2 m)) * Rabs (t_rate (SetMaxRate t2 m))) else SetMaxRate t2 m) = SetMaxRate t2 m).
  { destruct (is_rate _); [apply set_rate_settled, S3|reflexivity]. }
  rewrite E3 in H. injection H as <-. cbn [s_td s_speed s_reached s_ended] in *.
  assert (P2 : proper (t_shape t2)) by (rewrite V1, D1, U1; exact P).
  assert (R2 : t_dim t2 = RATE -> settled t2 /\ SMALL_NUMBER <= Rabs (t_rate t2)).
  { intros R. split; [exact S2|]. rewrite V7, D7, U7. apply RT. rewrite <- R, V2, D2, U2. reflexivity. }
  assert (G2 : regular t2) by (split; [exact P2|exact T]).
  destruct (max_rate_l t2 m G2 R2) as (A1 & _ & A2).
  assert (G3 : regular (SetMaxRate t2 m)) by exact G2.
  assert (Z : t_pval (SetMaxRate t2 m) = 0) by (cbn; rewrite V6, D6, U6; reflexivity).
  assert (ST : t_start (SetMaxRate t2 m) = s_speed st) by (cbn; rewrite V3, D3, U3; reflexivity).
  assert (TG : t_target (SetMaxRate t2 m) = ABS_LIMIT v (p_speed p)) by (cbn; rewrite V4; reflexivity).
  split; [|repeat split; auto].
  - split; [exact G3|]. split; [exact S3|]. split; [exact A1|]. split; [rewrite Z; pose proof small_pos; cbn; cbn in T; lra|].
    change (top (SetMaxRate t2 m)) with (top t2). rewrite rmax_Rmax in A2.
    replace (limit p (SetMaxRate t2 m)) with m; [|unfold m, limit, Rltb; cbn [SetMaxRate t_start t_target]; destruct (Rlt_dec (t_start t2) (t_target t2)); reflexivity].
    replace (Rabs m) with m in A2; [exact A2|]. symmetry. apply Rabs_right. unfold m. destruct SA as (? & ? & ?). destruct (Rltb _ _); lra.
  - assert (EV := eval_start_l (SetMaxRate t2 m) G3). rewrite <- Z in EV at 1. unfold at_ in EV. rewrite td_eta in EV. rewrite EV. exact ST.
  - cbn. rewrite V1, D1, U1. reflexivity.
  - cbn. rewrite V2, D2, U2. reflexivity.
Qed.

(** ** Steps *)

Lemma set_target_settled : forall t, settled t -> SetTargetVal t (t_target t) = t.
Proof. intros t H. unfold SetTargetVal. rewrite td_eta. exact H. Qed.

Lemma ready_at : forall p t q, ready p t -> 0 <= q <= t_ptarget t -> ready p (at_ t q).
Proof.
  intros p t q (A & B & C & D & E) Q. split; [exact A|]. split; [apply settled_pval, B|]. split; [exact C|]. split; [exact Q|exact E].
Qed.

Lemma move_within : forall p t q w, sane p -> ready p t -> 0 <= q -> q <= w -> w <= t_ptarget t ->
  let d := Evaluate (at_ t w) SHAPE_UNDEFINED - Evaluate (at_ t q) SHAPE_UNDEFINED in
  - (Rmax SMALL_NUMBER (p_dec p)) * ((w - q) * t_scale t) <= d <= Rmax SMALL_NUMBER (p_acc p) * ((w - q) * t_scale t).
Proof.
  intros p t q w (SA & SD & _) (G & S & SC & _ & M) Q QW W.
  destruct (eval_diff t q w G Q QW W) as (k & K & E). cbn zeta. rewrite E. clear E.
  pose proof small_pos as SP. assert (T := proj2 G).
  assert (B : Rabs (delta t) * k <= Rmax SMALL_NUMBER (limit p t) * ((w - q) * t_scale t)).
  { apply Rle_trans with (Rabs (delta t) * (steepest (t_shape t) * ((w - q) / t_ptarget t))).
    - apply Rmult_le_compat_l; [apply Rabs_pos|lra].
    - replace (Rabs (delta t) * (steepest (t_shape t) * ((w - q) / t_ptarget t))) with (top t / t_scale t * ((w - q) * t_scale t)) by (unfold top; field; lra).
      apply Rmult_le_compat_r; [|exact M]. apply Rmult_le_pos; lra. }
  assert (A1 : 0 <= (w - q) * t_scale t) by (apply Rmult_le_pos; lra).
  assert (M1 := Rmax_l SMALL_NUMBER (p_acc p)). assert (M2 := Rmax_l SMALL_NUMBER (p_dec p)).
  unfold limit in B. unfold delta in *. destruct (Rlt_dec (t_start t) (t_target t)).
  - rewrite Rabs_right in B by lra. split; [|exact B]. assert (0 <= (t_target t - t_start t) * k) by nra. nra.
  - rewrite Rabs_left1 in B by lra. assert ((t_target t - t_start t) * k <= 0) by nra. split; [lra|nra].
Qed.

(** The step before the check at its end runs along the transition. *)
Lemma move_l : forall p v dt t, sane p -> ready p t -> t_pval t <= t_ptarget t - SMALL_NUMBER -> 0 <= dt ->
  speed_move p v dt t (Evaluate t SHAPE_UNDEFINED) = (Step t dt, Evaluate (Step t dt) SHAPE_UNDEFINED).
Proof.
  intros p v dt t SA R B DT. assert (R' := R). destruct R as (G & S & SC & PV & M). pose proof small_pos as SP. unfold speed_move.
  replace (Rltb (t_ptarget t - SMALL_NUMBER) (t_pval t)) with false by (symmetry; apply Rltb_false; lra). rewrite andb_false_r.
  set (t1 := Step t dt). set (e := Evaluate t1 SHAPE_UNDEFINED).
  assert (PS := step_pval t dt PV SC DT).
  assert (D0 : 0 <= dt / t_scale t) by (unfold Rdiv; apply Rmult_le_pos; [lra|]; apply Rlt_le, Rinv_0_lt_compat; lra).
  assert (W := move_within p t (t_pval t) (t_pval t1) SA R'). fold t1 in PS.
  assert (H1 : t_pval t <= t_pval t1) by (rewrite PS; unfold Rmin; destruct Rle_dec; lra).
  assert (H2 : t_pval t1 <= t_ptarget t) by (rewrite PS; apply Rmin_l).
  assert (H3 : (t_pval t1 - t_pval t) * t_scale t <= dt).
  { apply Rle_trans with (dt / t_scale t * t_scale t); [|right; field; lra]. apply Rmult_le_compat_r; [lra|]. rewrite PS. pose proof (Rmin_r (t_ptarget t) (t_pval t + dt / t_scale t)). lra. }
  assert (H4 : 0 <= (t_pval t1 - t_pval t) * t_scale t) by (apply Rmult_le_pos; lra).
  specialize (W (proj1 PV) H1 H2). cbn zeta in W.
  change (at_ t (t_pval t1)) with t1 in W. replace (at_ t (t_pval t)) with t in W by (symmetry; apply td_eta). fold e in W.
  assert (L : forall x m, 0 <= m -> x <= Rmax SMALL_NUMBER m * ((t_pval t1 - t_pval t) * t_scale t) -> SMALL_NUMBER < dt -> x / dt <= m + SMALL_NUMBER).
  { intros x m MM X Y. apply Rmult_le_reg_r with dt; [lra|]. replace (x / dt * dt) with x by (field; lra).
    assert (Rmax SMALL_NUMBER m <= m + SMALL_NUMBER) by (unfold Rmax; destruct Rle_dec; lra).
    assert (0 < Rmax SMALL_NUMBER m) by (unfold Rmax; destruct Rle_dec; lra).
    apply Rle_trans with (1 := X). apply Rmult_le_compat; lra. }
  destruct SA as (SA & SD & SS).
  replace (Rltb (p_acc p + SMALL_NUMBER) (if Rltb SMALL_NUMBER dt then (e - Evaluate t SHAPE_UNDEFINED) / dt else 0)) with false.
  replace (Rltb (if Rltb SMALL_NUMBER dt then (e - Evaluate t SHAPE_UNDEFINED) / dt else 0) (- (p_dec p + SMALL_NUMBER))) with false.
  - reflexivity.
  - symmetry. apply Rltb_false. destruct (Rltb SMALL_NUMBER dt) eqn:F; [apply Rltb_true in F|lra].
    assert (Q := L (- (e - Evaluate t SHAPE_UNDEFINED)) (p_dec p) SD). assert (Z : - (e - Evaluate t SHAPE_UNDEFINED) / dt = - ((e - Evaluate t SHAPE_UNDEFINED) / dt)) by (field; lra).
    rewrite Z in Q. lra.
  - symmetry. apply Rltb_false. destruct (Rltb SMALL_NUMBER dt) eqn:F; [apply Rltb_true in F|lra]. apply L; lra.
Qed.

(** Whether an action with this kind of target ends when the target is reached. *)
Definition ends (tt : target_type) : bool := match tt with RELATIVE_SPEED true => false | _ => true end.

Lemma target_same : forall p tt v t, settled t -> t_target t = ABS_LIMIT v (p_speed p) ->
  match tt with RELATIVE_SPEED _ => SetTargetVal t (ABS_LIMIT v (p_speed p)) | ABSOLUTE_SPEED => t end = t.
Proof. intros p tt v t S T. rewrite <- T, (set_target_settled t S). destruct tt; reflexivity. Qed.

Lemma step_l : forall p tt v dt st, sane p -> ready p (s_td st) -> t_target (s_td st) = ABS_LIMIT v (p_speed p) ->
  s_speed st = Evaluate (s_td st) SHAPE_UNDEFINED -> t_pval (s_td st) <= t_ptarget (s_td st) - SMALL_NUMBER -> 0 <= dt ->
  let t' := Step (s_td st) dt in
  let close := Rltb (t_ptarget t' - SMALL_NUMBER) (t_pval t') && Rltb (Rabs (Evaluate t' SHAPE_UNDEFINED - t_target t')) SMALL_NUMBER in
  speed_step p tt false v dt st = SS t' (if close then ABS_LIMIT v (p_speed p) else Evaluate t' SHAPE_UNDEFINED) (s_reached st || close)
    (s_ended st || (s_reached st || close) && ends tt).
Proof.
  intros p tt v dt st SA R TG SP B DT t' close. unfold speed_step. rewrite (target_same p tt v (s_td st)); [|apply R|exact TG].
  rewrite SP, (move_l p v dt (s_td st) SA R B DT). fold t'. cbn zeta. unfold close. repeat f_equal. destruct tt as [|[]]; reflexivity.
Qed.

(** Several steps. *)
Definition run (p : perf) (tt : target_type) (v : R) (dts : list R) (st : speed_state) : speed_state :=
  fold_left (fun st dt => speed_step p tt false v dt st) dts st.

Definition sum (l : list R) : R := fold_right Rplus 0 l.

Lemma sum_nonneg : forall l, Forall (fun d => 0 <= d) l -> 0 <= sum l.
Proof. induction 1; unfold sum in *; cbn; lra. Qed.

(** As long as the time that has passed does not reach the end of the transition, the speed is the value of the transition at this time. *)
Lemma run_follow : forall p tt v dts st, sane p -> ready p (s_td st) -> t_target (s_td st) = ABS_LIMIT v (p_speed p) ->
  s_speed st = Evaluate (s_td st) SHAPE_UNDEFINED -> s_reached st = false -> s_ended st = false -> Forall (fun d => 0 <= d) dts ->
  t_pval (s_td st) + sum dts / t_scale (s_td st) <= t_ptarget (s_td st) - SMALL_NUMBER ->
  let t' := at_ (s_td st) (t_pval (s_td st) + sum dts / t_scale (s_td st)) in
  run p tt v dts st = SS t' (Evaluate t' SHAPE_UNDEFINED) false false.
Proof.
  intros p tt v dts. induction dts as [|dt dts IH]; intros st SA R TG SP RE EN D B t'.
  - unfold t'. cbn in *. replace (t_pval (s_td st) + 0 / t_scale (s_td st)) with (t_pval (s_td st)) by (unfold Rdiv; ring).
    unfold at_. rewrite td_eta, <- SP, <- RE, <- EN at 1. destruct st; cbn in *; subst; reflexivity.
  - inversion D as [|? ? D1 D2]; subst. pose proof (sum_nonneg dts D2) as SN. pose proof small_pos as SM. cbn [sum fold_right] in *. fold (sum dts) in *.
    assert (SC : 0 < t_scale (s_td st)) by apply R. assert (I : 0 < / t_scale (s_td st)) by (apply Rinv_0_lt_compat; exact SC).
    assert (PV : 0 <= t_pval (s_td st) <= t_ptarget (s_td st)) by apply R.
    assert (A : 0 <= dt / t_scale (s_td st)) by (unfold Rdiv; apply Rmult_le_pos; lra).
    assert (A' : 0 <= sum dts / t_scale (s_td st)) by (unfold Rdiv; apply Rmult_le_pos; lra).
    assert (SE : (dt + sum dts) / t_scale (s_td st) = dt / t_scale (s_td st) + sum dts / t_scale (s_td st)) by (field; lra).
    rewrite SE in B. unfold t'. rewrite SE.
    cbn [run fold_left]. rewrite (step_l p tt v dt st SA R TG SP) by lra.
    assert (PS := step_pval (s_td st) dt PV SC D1). rewrite Rmin_right in PS by lra.
    set (t1 := Step (s_td st) dt) in *.
    assert (E1 : t1 = at_ (s_td st) (t_pval (s_td st) + dt / t_scale (s_td st))) by (unfold t1; rewrite step_at; fold t1; rewrite PS; reflexivity).
    change (t_ptarget t1) with (t_ptarget (s_td st)). rewrite PS.
    replace (Rltb (t_ptarget (s_td st) - SMALL_NUMBER) (t_pval (s_td st) + dt / t_scale (s_td st))) with false by (symmetry; apply Rltb_false; lra).
    cbn [andb]. rewrite RE, EN. cbn [orb andb].
    assert (R1 : ready p t1) by (rewrite E1; apply ready_at; [exact R|lra]).
    fold (run p tt v dts (SS t1 (Evaluate t1 SHAPE_UNDEFINED) false false)). rewrite IH; cbn [s_td s_speed s_reached s_ended]; auto.
    + rewrite PS. change (t_scale t1) with (t_scale (s_td st)).
      assert (E2 : at_ t1 (t_pval (s_td st) + dt / t_scale (s_td st) + sum dts / t_scale (s_td st)) = at_ (s_td st) (t_pval (s_td st) + (dt / t_scale (s_td st) + sum dts / t_scale (s_td st)))).
      { rewrite E1. unfold at_. cbn. f_equal. ring. }
      rewrite E2. reflexivity.
    + rewrite PS. change (t_scale t1) with (t_scale (s_td st)). change (t_ptarget t1) with (t_ptarget (s_td st)). lra.
Qed.

(** The step that reaches the end of the transition sets the target speed. *)
Lemma step_arrive : forall p tt v dt st, sane p -> ready p (s_td st) -> t_target (s_td st) = ABS_LIMIT v (p_speed p) ->
  s_speed st = Evaluate (s_td st) SHAPE_UNDEFINED -> t_pval (s_td st) <= t_ptarget (s_td st) - SMALL_NUMBER -> 0 <= dt ->
  t_ptarget (s_td st) <= t_pval (s_td st) + dt / t_scale (s_td st) ->
  let st' := speed_step p tt false v dt st in
  s_speed st' = ABS_LIMIT v (p_speed p) /\ s_reached st' = true /\ s_ended st' = (s_ended st || ends tt).
Proof.
  intros p tt v dt st SA R TG SP B DT AR. cbn zeta. rewrite (step_l p tt v dt st SA R TG SP B DT). pose proof small_pos as SM.
  assert (PS := step_pval (s_td st) dt (proj1 (proj2 (proj2 (proj2 R)))) (proj1 (proj2 (proj2 R))) DT). rewrite Rmin_left in PS by lra.
  rewrite (step_at (s_td st) dt), PS.
  assert (EE := eval_end_l (s_td st) (proj1 R)). rewrite EE. cbn [at_ t_ptarget t_pval t_target].
  replace (Rltb (t_ptarget (s_td st) - SMALL_NUMBER) (t_ptarget (s_td st))) with true by (symmetry; apply Rltb_true; lra).
  replace (t_target (s_td st) - t_target (s_td st)) with 0 by ring. rewrite Rabs_R0.
  replace (Rltb 0 SMALL_NUMBER) with true by (symmetry; apply Rltb_true; lra).
  cbn [andb s_speed s_reached s_ended]. rewrite orb_true_r. auto.
Qed.

(** ** The limits hold in every step *)

Lemma clip_close : forall x s m, Rabs s <= m -> (s <= x -> s <= clip x m <= x) /\ (x <= s -> x <= clip x m <= s).
Proof.
  intros x s m H. assert (- m <= s <= m) by (apply Rabs_def2b in H || (unfold Rabs in H; destruct (Rcase_abs s) in H; lra); lra).
  unfold clip, Rmax, Rmin. repeat destruct Rle_dec; split; intros; lra.
Qed.

Lemma clip_range : forall x m, 0 <= m -> - m <= clip x m <= m.
Proof. intros x m H. unfold clip, Rmax, Rmin. repeat destruct Rle_dec; lra. Qed.

(** A change of speed that is allowed within [dt], with a tolerance. *)
Definition allowed (p : perf) (dt eps v v' : R) : Prop := - (p_dec p * dt + eps) <= v' - v <= p_acc p * dt + eps.

Lemma limited_l : forall p s a dt, sane p -> Rabs s <= p_speed p -> 0 <= dt -> - p_dec p <= a <= p_acc p ->
  allowed p dt 0 s (ABS_LIMIT (s + a * dt) (p_speed p)).
Proof.
  intros p s a dt (SA & SD & SS) H D A. rewrite (abs_limit_clip _ _ SS). unfold allowed.
  assert (B : - (p_dec p) * dt <= a * dt <= p_acc p * dt) by (split; apply Rmult_le_compat_r; lra).
  assert (0 <= p_dec p * dt) by (apply Rmult_le_pos; lra). assert (0 <= p_acc p * dt) by (apply Rmult_le_pos; lra).
  destruct (clip_close (s + a * dt) s (p_speed p) H) as [C1 C2].
  destruct (Rle_or_lt s (s + a * dt)) as [L|L]; [specialize (C1 L)|specialize (C2 (Rlt_le _ _ L))]; lra.
Qed.

Lemma move_allowed : forall p v dt t s, sane p -> Rabs s <= p_speed p -> SMALL_NUMBER < dt ->
  allowed p dt (SMALL_NUMBER * dt) s (snd (speed_move p v dt t s)).
Proof.
  intros p v dt t s SA H D. pose proof small_pos as SM. unfold speed_move.
  assert (DD : Rltb SMALL_NUMBER dt = true) by (apply Rltb_true; exact D). rewrite DD.
  assert (W : forall v', allowed p dt 0 s v' -> allowed p dt (SMALL_NUMBER * dt) s v') by (unfold allowed; intros; assert (0 <= SMALL_NUMBER * dt) by (apply Rmult_le_pos; lra); lra).
  assert (B : - p_dec p <= p_acc p) by (destruct SA; lra).
  destruct (Rltb 0 (t_ptarget t) && Rltb (t_ptarget t - SMALL_NUMBER) (t_pval t)); cbn [snd].
  - apply W, limited_l; auto; [lra|]. apply clamp_spec, B.
  - set (e := Evaluate (Step t dt) SHAPE_UNDEFINED).
    destruct (Rltb (p_acc p + SMALL_NUMBER) ((e - s) / dt)) eqn:E1; cbn [orb].
    + cbn [snd]. apply W, limited_l; auto; [lra|]. apply clamp_spec, B.
    + destruct (Rltb ((e - s) / dt) (- (p_dec p + SMALL_NUMBER))) eqn:E2; cbn [snd].
      * apply W, limited_l; auto; [lra|]. apply clamp_spec, B.
      * apply Rltb_false in E1. apply Rltb_false in E2. unfold allowed.
        assert (X : e - s = (e - s) / dt * dt) by (field; lra).
        assert ((e - s) / dt * dt <= (p_acc p + SMALL_NUMBER) * dt) by (apply Rmult_le_compat_r; lra).
        assert (- (p_dec p + SMALL_NUMBER) * dt <= (e - s) / dt * dt) by (apply Rmult_le_compat_r; lra). lra.
Qed.

Lemma move_keeps : forall p v dt t s, let t' := fst (speed_move p v dt t s) in
  t_shape t' = t_shape t /\ t_dim t' = t_dim t /\ t_start t' = t_start t /\ t_target t' = t_target t /\ t_ptarget t' = t_ptarget t /\ t_scale t' = t_scale t /\
  t_rate t' = t_rate t.
Proof.
  intros p v dt t s. unfold speed_move. destruct (Rltb 0 (t_ptarget t) && Rltb (t_ptarget t - SMALL_NUMBER) (t_pval t)); cbn [fst]; [repeat split|].
  match goal with |- context [if ?c then _ else _] => destruct c end; cbn; repeat split.
Qed.

Lemma update_target : forall t v, t_target (SetTargetVal t v) = v.
Proof. intros t v. unfold SetTargetVal. apply (update_keeps (TD (t_shape t) (t_dim t) (t_start t) v (t_ptarget t) (t_scale t) (t_pval t) (t_rate t))). Qed.

(** The target of the transition is the wanted speed within the limit of the vehicle: always so for relative targets, after the start for absolute ones. *)
Definition aimed (p : perf) (tt : target_type) (v : R) (t : td) : Prop :=
  match tt with ABSOLUTE_SPEED => t_target t = ABS_LIMIT v (p_speed p) | RELATIVE_SPEED _ => True end.

Lemma step_allowed : forall p tt ov v dt st, sane p -> aimed p tt v (s_td st) -> Rabs (s_speed st) <= p_speed p -> SMALL_NUMBER < dt ->
  allowed p dt (SMALL_NUMBER * dt + SMALL_NUMBER) (s_speed st) (s_speed (speed_step p tt ov v dt st)).
Proof.
  intros p tt ov v dt st SA A H D. pose proof small_pos as SM. unfold speed_step. destruct ov; cbn [s_speed].
  - unfold allowed. destruct SA as (? & ? & ?). assert (0 <= SMALL_NUMBER * dt) by (apply Rmult_le_pos; lra).
    assert (0 <= p_acc p * dt) by (apply Rmult_le_pos; lra). assert (0 <= p_dec p * dt) by (apply Rmult_le_pos; lra). lra.
  - set (t1 := match tt with RELATIVE_SPEED _ => SetTargetVal (s_td st) (ABS_LIMIT v (p_speed p)) | ABSOLUTE_SPEED => s_td st end).
    assert (T1 : t_target t1 = ABS_LIMIT v (p_speed p)) by (unfold t1; destruct tt; [exact A|apply update_target]).
    assert (M := move_allowed p v dt t1 (s_speed st) SA H D). assert (K := move_keeps p v dt t1 (s_speed st)). cbn zeta in K.
    destruct (speed_move p v dt t1 (s_speed st)) as [t2 w]. cbn [fst snd s_speed] in *. destruct K as (_ & _ & _ & K & _).
    destruct (Rltb (t_ptarget t2 - SMALL_NUMBER) (t_pval t2) && Rltb (Rabs (w - t_target t2)) SMALL_NUMBER) eqn:C.
    + apply andb_prop in C. destruct C as [_ C]. apply Rltb_true in C. apply Rabs_def2 in C. rewrite K, T1 in C. unfold allowed in *. lra.
    + unfold allowed in *. lra.
Qed.

(** ** The action ends *)

Definition wanted (p : perf) (v : R) : R := ABS_LIMIT v (p_speed p).

(** After the transition: on the way from start to target, not past it. *)
Definition behind (t : td) (s : R) : Prop := (t_start t < t_target t -> s <= t_target t) /\ (t_target t <= t_start t -> t_target t <= s).

Lemma approach : forall p v dt t s, sane p -> t_target t = wanted p v -> behind t s -> SMALL_NUMBER < dt ->
  let s' := ABS_LIMIT (s + CLAMP ((v - s) / dt) (- p_dec p) (p_acc p) * dt) (p_speed p) in
  s' = t_target t \/ behind t s' /\ Rabs (t_target t - s') <= Rabs (t_target t - s) - limit p t * dt.
Proof.
  intros p v dt t s SA T B D. assert (SA' := SA). destruct SA as (A1 & A2 & A3). pose proof small_pos as SM. cbn zeta.
  unfold wanted in T. rewrite (abs_limit_clip _ _ A3) in T. rewrite (abs_limit_clip _ _ A3).
  assert (X : s + CLAMP ((v - s) / dt) (- p_dec p) (p_acc p) * dt = Rmax (s - p_dec p * dt) (Rmin (s + p_acc p * dt) v)).
  { assert (Q : (v - s) / dt * dt = v - s) by (field; lra).
    destruct (clamp_spec ((v - s) / dt) (- p_dec p) (p_acc p)) as (_ & C1 & C2 & C3); [lra|].
    assert (0 <= p_acc p * dt) by (apply Rmult_le_pos; lra). assert (0 <= p_dec p * dt) by (apply Rmult_le_pos; lra).
    destruct (Rle_or_lt ((v - s) / dt) (- p_dec p)) as [L1|L1].
    - rewrite (C3 L1). assert (v - s <= - p_dec p * dt) by (rewrite <- Q; apply Rmult_le_compat_r; lra). unfold Rmax, Rmin. repeat destruct Rle_dec; lra.
    - destruct (Rle_or_lt (p_acc p) ((v - s) / dt)) as [L2|L2].
      + rewrite (C2 L2). assert (p_acc p * dt <= v - s) by (rewrite <- Q; apply Rmult_le_compat_r; lra). unfold Rmax, Rmin. repeat destruct Rle_dec; lra.
      + rewrite C1 by lra. rewrite Q. assert (v - s <= p_acc p * dt) by (rewrite <- Q; apply Rmult_le_compat_r; lra).
        assert (- p_dec p * dt <= v - s) by (rewrite <- Q; apply Rmult_le_compat_r; lra). unfold Rmax, Rmin. repeat destruct Rle_dec; lra. }
  rewrite X. clear X. unfold behind, limit in *. destruct B as [B1 B2].
  assert (0 <= p_acc p * dt) by (apply Rmult_le_pos; lra). assert (0 <= p_dec p * dt) by (apply Rmult_le_pos; lra).
  set (aa := p_acc p * dt) in *. set (dd := p_dec p * dt) in *.
  destruct (Rlt_dec (t_start t) (t_target t)) as [L|L].
  - specialize (B1 L). rewrite (Rabs_right (t_target t - s)) by lra. change (p_acc p * dt) with aa.
    destruct (Rle_or_lt (t_target t) (clip (Rmax (s - dd) (Rmin (s + aa) v)) (p_speed p))) as [G|G].
    + left. unfold clip, Rmax, Rmin in *. repeat destruct Rle_dec; lra.
    + right. split; [split; intros; lra|]. rewrite Rabs_right by lra. unfold clip, Rmax, Rmin in *. repeat destruct Rle_dec; lra.
  - assert (L' : t_target t <= t_start t) by lra. specialize (B2 L'). rewrite (Rabs_left1 (t_target t - s)) by lra. change (p_dec p * dt) with dd.
    destruct (Rle_or_lt (clip (Rmax (s - dd) (Rmin (s + aa) v)) (p_speed p)) (t_target t)) as [G|G].
    + left. unfold clip, Rmax, Rmin in *. repeat destruct Rle_dec; lra.
    + right. split; [split; intros; lra|]. rewrite Rabs_left1 by lra. unfold clip, Rmax, Rmin in *. repeat destruct Rle_dec; lra.
Qed.

Definition underway (p : perf) (v : R) (st : speed_state) : Prop :=
  let t := s_td st in
  ready p t /\ t_target t = wanted p v /\
  (t_pval t <= t_ptarget t - SMALL_NUMBER /\ s_speed st = Evaluate t SHAPE_UNDEFINED \/
   t_ptarget t - SMALL_NUMBER < t_pval t /\ behind t (s_speed st) /\ Rabs (t_target t - s_speed st) <= Rabs (delta t)).

(** A bound of the steps that remain if each takes [d] at least. *)
Definition potential (p : perf) (d : R) (st : speed_state) : R :=
  let t := s_td st in
  if Rle_dec (t_pval t) (t_ptarget t - SMALL_NUMBER) then (t_ptarget t - t_pval t) * t_scale t / d + Rabs (delta t) / (limit p t * d) + 2
  else Rabs (t_target t - s_speed st) / (limit p t * d) + 1.

Lemma eval_behind : forall t q, regular t -> 0 <= q <= t_ptarget t ->
  behind t (Evaluate (at_ t q) SHAPE_UNDEFINED) /\ Rabs (t_target t - Evaluate (at_ t q) SHAPE_UNDEFINED) <= Rabs (delta t).
Proof.
  intros t q G Q. assert (B := eval_between_l (at_ t q) G Q). cbn [at_ t_start t_target] in B. fold (at_ t q) in B.
  unfold behind, between, delta in *. split; [split; intros; lra|].
  unfold Rabs. repeat destruct Rcase_abs; lra.
Qed.

Lemma step_potential : forall p tt v d dt st, sane p -> underway p v st -> SMALL_NUMBER < d -> d <= dt -> 0 < limit p (s_td st) ->
  let st' := speed_step p tt false v dt st in
  s_reached st' = true /\ s_speed st' = wanted p v /\ s_ended st' = (s_ended st || ends tt) \/
  s_reached st' = s_reached st /\ s_ended st' = (s_ended st || s_reached st && ends tt) /\ underway p v st' /\ limit p (s_td st') = limit p (s_td st) /\
  potential p d st' <= potential p d st - 1.
Proof.
  intros p tt v d dt st SA (R & T & C) D DT L. pose proof small_pos as SM. cbn zeta.
  assert (DL : 0 < limit p (s_td st) * d) by (apply Rmult_lt_0_compat; lra).
  assert (G : regular (s_td st)) by apply R. assert (SC : 0 < t_scale (s_td st)) by apply R.
  assert (PV : 0 <= t_pval (s_td st) <= t_ptarget (s_td st)) by apply R.
  destruct C as [[B S]|(B & BH & GP)].
  - rewrite (step_l p tt v dt st SA R T S B) by lra.
    assert (PS := step_pval (s_td st) dt PV SC). assert (DP : 0 <= dt) by lra. specialize (PS DP).
    rewrite step_at, PS. set (q := Rmin (t_ptarget (s_td st)) (t_pval (s_td st) + dt / t_scale (s_td st))) in *.
    assert (DQ : 0 < dt / t_scale (s_td st)) by (unfold Rdiv; apply Rmult_lt_0_compat; [lra|apply Rinv_0_lt_compat; lra]).
    assert (Q : 0 <= q <= t_ptarget (s_td st)) by (unfold q, Rmin; destruct Rle_dec; lra).
    cbn [at_ t_ptarget t_pval t_target]. fold (at_ (s_td st) q).
    destruct (eval_behind (s_td st) q G Q) as [E1 E2].
    destruct (Rltb (t_ptarget (s_td st) - SMALL_NUMBER) q) eqn:F; cbn [andb].
    + apply Rltb_true in F.
      destruct (Rltb (Rabs (Evaluate (at_ (s_td st) q) SHAPE_UNDEFINED - t_target (s_td st))) SMALL_NUMBER) eqn:H.
      * left. cbn. rewrite orb_true_r. repeat split; reflexivity.
      * right. cbn [s_reached s_ended s_td s_speed]. rewrite orb_false_r. split; [reflexivity|]. split; [reflexivity|]. split; [|split; [reflexivity|]].
        { split; [apply ready_at; assumption|]. split; [exact T|]. right. cbn [s_td s_speed]. repeat split; try assumption; apply E1. }
        { unfold potential. cbn [s_td s_speed at_ t_pval t_ptarget t_target t_scale].
          destruct (Rle_dec q (t_ptarget (s_td st) - SMALL_NUMBER)); [lra|].
          destruct (Rle_dec (t_pval (s_td st)) (t_ptarget (s_td st) - SMALL_NUMBER)); [|lra].
          fold (at_ (s_td st) q). change (limit p (at_ (s_td st) q)) with (limit p (s_td st)).
          assert (0 <= (t_ptarget (s_td st) - t_pval (s_td st)) * t_scale (s_td st) / d).
          { unfold Rdiv. apply Rmult_le_pos; [apply Rmult_le_pos; lra|apply Rlt_le, Rinv_0_lt_compat; lra]. }
          assert (Rabs (t_target (s_td st) - Evaluate (at_ (s_td st) q) SHAPE_UNDEFINED) / (limit p (s_td st) * d) <= Rabs (delta (s_td st)) / (limit p (s_td st) * d)).
          { unfold Rdiv. apply Rmult_le_compat_r; [apply Rlt_le, Rinv_0_lt_compat; lra|exact E2]. }
          lra. }
    + apply Rltb_false in F. right. cbn [s_reached s_ended s_td s_speed]. rewrite orb_false_r. split; [reflexivity|]. split; [reflexivity|]. split; [|split; [reflexivity|]].
      * split; [apply ready_at; assumption|]. split; [exact T|]. left. split; [exact F|reflexivity].
      * unfold potential. cbn [s_td s_speed at_ t_pval t_ptarget t_target t_scale].
        destruct (Rle_dec q (t_ptarget (s_td st) - SMALL_NUMBER)); [|lra].
        destruct (Rle_dec (t_pval (s_td st)) (t_ptarget (s_td st) - SMALL_NUMBER)); [|lra].
        fold (at_ (s_td st) q). change (limit p (at_ (s_td st) q)) with (limit p (s_td st)). change (delta (at_ (s_td st) q)) with (delta (s_td st)).
        assert (QE : q = t_pval (s_td st) + dt / t_scale (s_td st)) by (unfold q, Rmin in *; destruct Rle_dec; lra).
        rewrite QE.
        replace ((t_ptarget (s_td st) - (t_pval (s_td st) + dt / t_scale (s_td st))) * t_scale (s_td st) / d)
          with ((t_ptarget (s_td st) - t_pval (s_td st)) * t_scale (s_td st) / d - dt / d) by (field; lra).
        assert (1 <= dt / d) by (apply Rmult_le_reg_r with d; [lra|]; replace (dt / d * d) with dt by (field; lra); lra). lra.
  - unfold speed_step. rewrite (target_same p tt v (s_td st)); [|apply R|exact T].
    unfold speed_move. assert (TP := proj2 G).
    replace (Rltb 0 (t_ptarget (s_td st))) with true by (symmetry; apply Rltb_true; lra).
    assert (BB : Rltb (t_ptarget (s_td st) - SMALL_NUMBER) (t_pval (s_td st)) = true) by (apply Rltb_true; exact B). rewrite BB. cbn [andb].
    replace (Rltb SMALL_NUMBER dt) with true by (symmetry; apply Rltb_true; lra).
    rewrite BB. cbn [andb].
    assert (A := approach p v dt (s_td st) (s_speed st) SA T BH). assert (DS : SMALL_NUMBER < dt) by lra. specialize (A DS). cbn zeta in A.
    set (s' := ABS_LIMIT _ (p_speed p)) in A |- *.
    assert (TE : match tt with RELATIVE_SPEED c => c | ABSOLUTE_SPEED => false end = negb (ends tt)) by (destruct tt as [|[]]; reflexivity).
    rewrite TE, negb_involutive.
    destruct (Rltb (Rabs (s' - t_target (s_td st))) SMALL_NUMBER) eqn:H.
    + left. cbn. rewrite orb_true_r. repeat split; reflexivity.
    + apply Rltb_false in H. right. cbn [s_reached s_ended s_td s_speed]. rewrite orb_false_r. split; [reflexivity|]. split; [reflexivity|].
      destruct A as [A|[A1 A2]]; [rewrite A in H; replace (t_target (s_td st) - t_target (s_td st)) with 0 in H by ring; rewrite Rabs_R0 in H; lra|].
      assert (0 <= limit p (s_td st) * dt) by (apply Rmult_le_pos; lra).
      split; [|split; [reflexivity|]].
      * split; [exact R|]. split; [exact T|]. right. cbn [s_speed s_td]. split; [exact B|]. split; [exact A1|]. lra.
      * unfold potential. cbn [s_td s_speed]. destruct (Rle_dec (t_pval (s_td st)) (t_ptarget (s_td st) - SMALL_NUMBER)); [lra|].
        assert (Rabs (t_target (s_td st) - s') / (limit p (s_td st) * d) <= (Rabs (t_target (s_td st) - s_speed st) - limit p (s_td st) * dt) / (limit p (s_td st) * d)).
        { unfold Rdiv. apply Rmult_le_compat_r; [apply Rlt_le, Rinv_0_lt_compat; lra|exact A2]. }
        replace ((Rabs (t_target (s_td st) - s_speed st) - limit p (s_td st) * dt) / (limit p (s_td st) * d))
          with (Rabs (t_target (s_td st) - s_speed st) / (limit p (s_td st) * d) - dt / d) in H1 by (field; lra).
        assert (1 <= dt / d) by (apply Rmult_le_reg_r with d; [lra|]; replace (dt / d * d) with dt by (field; lra); lra). lra.
Qed.

Lemma potential_pos : forall p d st, ready p (s_td st) -> 0 < limit p (s_td st) -> 0 < d -> 0 <= potential p d st.
Proof.
  intros p d st R L D. unfold potential. assert (0 < limit p (s_td st) * d) by (apply Rmult_lt_0_compat; lra).
  assert (I : 0 < / (limit p (s_td st) * d)) by (apply Rinv_0_lt_compat; lra). assert (I2 : 0 < / d) by (apply Rinv_0_lt_compat; lra).
  destruct R as (_ & _ & SC & PV & _).
  destruct Rle_dec; unfold Rdiv.
  - assert (0 <= (t_ptarget (s_td st) - t_pval (s_td st)) * t_scale (s_td st) * / d) by (apply Rmult_le_pos; [apply Rmult_le_pos; lra|lra]).
    assert (0 <= Rabs (delta (s_td st)) * / (limit p (s_td st) * d)) by (apply Rmult_le_pos; [apply Rabs_pos|lra]). lra.
  - assert (0 <= Rabs (t_target (s_td st) - s_speed st) * / (limit p (s_td st) * d)) by (apply Rmult_le_pos; [apply Rabs_pos|lra]). lra.
Qed.

Lemma run_arrives : forall p tt v d dts st, sane p -> underway p v st -> s_reached st = false -> s_ended st = false -> SMALL_NUMBER < d ->
  Forall (fun x => d <= x) dts -> 0 < limit p (s_td st) -> potential p d st < INR (length dts) ->
  exists k, (k <= length dts)%nat /\ let st' := run p tt v (firstn k dts) st in s_speed st' = wanted p v /\ s_reached st' = true /\ s_ended st' = ends tt.
Proof.
  intros p tt v d dts. pose proof small_pos as SM. induction dts as [|dt dts IH]; intros st SA U RE EN D F L P.
  - cbn in P. assert (X := potential_pos p d st (proj1 U) L). lra.
  - inversion F as [|? ? F1 F2]; subst.
    assert (S := step_potential p tt v d dt st SA U D F1 L). cbn zeta in S. rewrite EN, RE in S. cbn [orb andb] in S.
    destruct S as [(S1 & S2 & S3)|(S1 & S2 & S3 & S4 & S5)].
    + exists 1%nat. split; [cbn; lia|]. cbn. auto.
    + destruct (IH (speed_step p tt false v dt st)) as (k & K & E); auto.
      * rewrite S4. exact L.
      * change (length (dt :: dts)) with (S (length dts)) in P. rewrite S_INR in P. lra.
      * exists (S k). split; [cbn; lia|]. exact E.
Qed.

(** ** Distances *)

Lemma set_start_keeps : forall t v, t_shape (SetStartVal t v) = t_shape t /\ t_dim (SetStartVal t v) = t_dim t /\ t_start (SetStartVal t v) = v /\
  (t_dim t <> RATE -> t_ptarget (SetStartVal t v) = t_ptarget t).
Proof.
  intros t v. unfold SetStartVal. destruct (update_keeps (TD (t_shape t) (t_dim t) v (t_target t) (t_ptarget t) (t_scale t) (t_pval t) (t_rate t))) as (U1 & U2 & U3 & _ & _ & _ & _ & U8).
  repeat split; assumption.
Qed.

Lemma set_target_keeps : forall t v, t_shape (SetTargetVal t v) = t_shape t /\ t_dim (SetTargetVal t v) = t_dim t /\ t_start (SetTargetVal t v) = t_start t /\
  t_target (SetTargetVal t v) = v /\ (t_dim t <> RATE -> t_ptarget (SetTargetVal t v) = t_ptarget t).
Proof.
  intros t v. unfold SetTargetVal. destruct (update_keeps (TD (t_shape t) (t_dim t) (t_start t) v (t_ptarget t) (t_scale t) (t_pval t) (t_rate t))) as (U1 & U2 & U3 & U4 & _ & _ & _ & U8).
  repeat split; assumption.
Qed.

Lemma start_distance : forall p v st st', speed_start p false v st = Some st' -> t_dim (s_td st) = DISTANCE ->
  exists t, distance_to_time (SetStartVal (Reset (s_td st)) (s_speed st)) v = Some t /\ t_ptarget (s_td st') = t_ptarget t /\
    t_start (SetStartVal (Reset (s_td st)) (s_speed st)) = s_speed st /\ t_ptarget (SetStartVal (Reset (s_td st)) (s_speed st)) = t_ptarget (s_td st) /\
    t_dim (SetStartVal (Reset (s_td st)) (s_speed st)) = DISTANCE.
Proof.
  intros p v st st' H D. unfold speed_start in H.
  destruct (set_start_keeps (Reset (s_td st)) (s_speed st)) as (_ & U2 & U3 & U4). set (t0 := SetStartVal _ _) in *. cbn [Reset t_dim t_ptarget] in U2, U4.
  destruct (distance_to_time t0 v) as [t|] eqn:E; [|discriminate].
  exists t. split; [reflexivity|]. destruct (distance_keeps _ _ _ E) as (_ & D2 & _).
  destruct (set_target_keeps t (ABS_LIMIT v (p_speed p))) as (_ & V2 & _ & _ & V5). set (t2 := SetTargetVal _ _) in *.
  cbn zeta in H. match type of H with context [SetMaxRate t2 ?m] => set (mm := m) in H end.
  change (t_dim (SetMaxRate t2 mm)) with (t_dim t2) in H.
  assert (D3 : t_dim t2 = DISTANCE) by congruence. rewrite D3 in H. cbn [is_rate] in H. injection H as <-. cbn [s_td SetMaxRate t_ptarget].
  split; [apply V5; congruence|]. split; [exact U3|]. split; [apply U4; congruence|congruence].
Qed.

(** Without a change of the driving direction, the distance covered is the one given. *)
Lemma distance_l : forall p v st st', sane p -> speed_start p false v st = Some st' -> t_dim (s_td st) = DISTANCE -> proper (t_shape (s_td st)) ->
  0 <= t_ptarget (s_td st) -> 0 <= s_speed st * v -> SMALL_NUMBER <= Rabs (v - s_speed st) -> Rabs v <= p_speed p -> SMALL_NUMBER <= t_ptarget (s_td st') ->
  exists F, (forall q, derivable_pt_lim F q (Evaluate (at_ (s_td st') q) SHAPE_UNDEFINED)) /\ Rabs (F (t_ptarget (s_td st')) - F 0) = t_ptarget (s_td st).
Proof.
  intros p v st st' SA H D P T0 SG N M T. pose proof small_pos as SM.
  destruct (start_distance p v st st' H D) as (t & E & ET & ES & EP & ED).
  assert (L := start_l p v st st' SA H P T). destruct L as (R & _ & LS & LT & _); [congruence|].
  exists (way (s_td st')). split; [intros q; apply way_derivative, R|]. rewrite way_total by apply R. rewrite LS, LT.
  assert (MV : Rabs v <= Rabs (p_speed p)) by (rewrite (Rabs_right (p_speed p)); [exact M|destruct SA as (_ & _ & ?); lra]).
  rewrite (abs_limit_id _ _ MV).
  unfold distance_to_time in E. rewrite ED, ES, EP in E. unfold SetParamTargetVal in E. rewrite ED in E. cbn [is_rate] in E.
  replace (Rltb (Rabs (v - s_speed st)) SMALL_NUMBER) with false in E by (symmetry; apply Rltb_false; exact N).
  replace (Rltb SMALL_NUMBER (Rabs (s_speed st)) && Rltb SMALL_NUMBER (Rabs v) && negb (Reqb (SIGN (s_speed st)) (SIGN v))) with false in E.
  - assert (NZ : s_speed st + v <> 0).
    { intros Z. assert (v = - s_speed st) by lra. subst v. assert (s_speed st = 0) by nra. rewrite H0 in N. replace (- 0 - 0) with 0 in N by ring. rewrite Rabs_R0 in N. lra. }
    replace (Reqb (Rabs (s_speed st + v)) 0) with false in E by (symmetry; apply Reqb_false; apply Rabs_no_R0; exact NZ).
    injection E as <-. cbn [t_ptarget] in ET. rewrite ET.
    assert (0 < Rabs (s_speed st + v)) by (apply Rabs_pos_lt; exact NZ).
    replace (2 * t_ptarget (s_td st) / Rabs (s_speed st + v) * (s_speed st + v) / 2) with (t_ptarget (s_td st) * ((s_speed st + v) / Rabs (s_speed st + v))) by (field; lra).
    rewrite Rabs_mult, (Rabs_right (t_ptarget (s_td st))) by lra.
    unfold Rdiv. rewrite Rabs_mult, Rabs_inv, Rabs_Rabsolu. field. lra.
  - symmetry. destruct (Rltb SMALL_NUMBER (Rabs (s_speed st))) eqn:E1; [|reflexivity]. destruct (Rltb SMALL_NUMBER (Rabs v)) eqn:E2; [|reflexivity].
    apply Rltb_true in E1. apply Rltb_true in E2. cbn. apply negb_false_iff. apply Reqb_true.
    revert E1 E2. destruct (sign_cases (s_speed st)) as [[A ->]|[A ->]]; destruct (sign_cases v) as [[B ->]|[B ->]]; intros E1 E2; try reflexivity; exfalso.
    + rewrite (Rabs_right v) in E2 by lra. nra.
    + rewrite (Rabs_right (s_speed st)) in E1 by lra. nra.
Qed.

(** With a change of the driving direction and a linear transition, the ways before and after the stop add up to the distance. *)
Lemma distance_turn_l : forall p v st st', sane p -> speed_start p false v st = Some st' -> t_dim (s_td st) = DISTANCE -> t_shape (s_td st) = LINEAR ->
  s_speed st * v < 0 -> SMALL_NUMBER < Rabs (s_speed st) -> SMALL_NUMBER < Rabs v -> Rabs v <= p_speed p -> SMALL_NUMBER <= t_ptarget (s_td st') ->
  exists F z, (forall q, derivable_pt_lim F q (Evaluate (at_ (s_td st') q) SHAPE_UNDEFINED)) /\ 0 < z < t_ptarget (s_td st') /\
    Evaluate (at_ (s_td st') z) SHAPE_UNDEFINED = 0 /\ Rabs (F z - F 0) + Rabs (F (t_ptarget (s_td st')) - F z) = t_ptarget (s_td st).
Proof.
  intros p v st st' SA H D P SG N1 N2 M T. pose proof small_pos as SM.
  destruct (start_distance p v st st' H D) as (t & E & ET & ES & EP & ED).
  assert (L := start_l p v st st' SA H (or_introl P) T). destruct L as (R & _ & LS & LT & _ & _ & _ & LSH & _); [congruence|].
  rewrite P in LSH.
  assert (MV : Rabs v <= Rabs (p_speed p)) by (rewrite (Rabs_right (p_speed p)); [exact M|destruct SA as (_ & _ & ?); lra]).
  rewrite (abs_limit_id _ _ MV) in LT.
  unfold distance_to_time in E. rewrite ED, ES, EP in E. unfold SetParamTargetVal in E. rewrite ED in E. cbn [is_rate] in E.
  set (v0 := s_speed st) in *. set (dist := t_ptarget (s_td st)) in *. set (T' := t_ptarget (s_td st')) in *.
  assert (C : v0 < 0 /\ 0 < v \/ 0 < v0 /\ v < 0).
  { clearbody v0. clear - SG. destruct (Rtotal_order v0 0) as [?|[->|?]]; [left; split; nra|lra|right; split; nra]. }
  replace (Rltb (Rabs (v - v0)) SMALL_NUMBER) with false in E.
  2: { symmetry. apply Rltb_false. revert N1 N2. unfold Rabs. repeat destruct Rcase_abs; lra. }
  replace (Rltb SMALL_NUMBER (Rabs v0)) with true in E by (symmetry; apply Rltb_true; exact N1).
  replace (Rltb SMALL_NUMBER (Rabs v)) with true in E by (symmetry; apply Rltb_true; exact N2).
  replace (Reqb (SIGN v0) (SIGN v)) with false in E.
  2: { symmetry. apply Reqb_false. destruct (sign_cases v0) as [[A ->]|[A ->]]; destruct (sign_cases v) as [[B ->]|[B ->]]; lra. }
  cbn [andb negb] in E. injection E as <-. cbn [t_ptarget] in ET.
  assert (Q : 0 < v0 ^ 2 + v ^ 2) by nra.
  assert (TE : T' = 2 * dist * (Rabs v0 + Rabs v) / (v0 ^ 2 + v ^ 2)).
  { rewrite ET. change (v0 * (v0 * 1)) with (v0 ^ 2). change (v * (v * 1)) with (v ^ 2). rewrite (Rabs_right (v0 ^ 2 / (v0 ^ 2 + v ^ 2))).
    - assert (X0 : Rabs v0 * Rabs v0 = v0 ^ 2) by (unfold Rabs; destruct Rcase_abs; ring). assert (X1 : Rabs v * Rabs v = v ^ 2) by (unfold Rabs; destruct Rcase_abs; ring).
      rewrite <- X0, <- X1 in *. field. repeat split; try lra; nra.
    - apply Rle_ge. unfold Rdiv. apply Rmult_le_pos; [nra|]. apply Rlt_le, Rinv_0_lt_compat. exact Q. }
  assert (WW : forall q, way (s_td st') q = v0 * q + (v - v0) * q ^ 2 / (2 * T')).
  { intros q. unfold way. rewrite LSH. cbn [area]. unfold delta. rewrite LS, LT. fold T'. field. lra. }
  assert (EV : forall q, Evaluate (at_ (s_td st') q) SHAPE_UNDEFINED = v0 + (v - v0) * (q / T')).
  { intros q. rewrite (eval_curve _ (regular_at _ q (proj1 R))). cbn [at_ t_shape t_start t_pval t_ptarget]. rewrite LSH. cbn [curve]. unfold delta. cbn [at_ t_target t_start]. rewrite LS, LT. reflexivity. }
  exists (way (s_td st')), (T' * v0 / (v0 - v)).
  split; [intros q; apply way_derivative, R|].
  assert (K : 0 < v0 / (v0 - v) < 1).
  { destruct C as [[C1 C2]|[C1 C2]].
    - replace (v0 / (v0 - v)) with ((- v0) / (v - v0)) by (field; lra). split.
      + apply Rmult_lt_0_compat; [lra|apply Rinv_0_lt_compat; lra].
      + apply Rmult_lt_reg_r with (v - v0); [lra|]. replace (- v0 / (v - v0) * (v - v0)) with (- v0) by (field; lra). lra.
    - split.
      + apply Rmult_lt_0_compat; [lra|apply Rinv_0_lt_compat; lra].
      + apply Rmult_lt_reg_r with (v0 - v); [lra|]. replace (v0 / (v0 - v) * (v0 - v)) with v0 by (field; lra). lra. }
  split; [unfold Rdiv in *; rewrite Rmult_assoc; nra|]. split; [rewrite EV; field; split; lra|].
  rewrite !WW.
  replace (v0 * (T' * v0 / (v0 - v)) + (v - v0) * (T' * v0 / (v0 - v)) ^ 2 / (2 * T') - (v0 * 0 + (v - v0) * 0 ^ 2 / (2 * T')))
    with (T' * v0 ^ 2 / (2 * (v0 - v))) by (field; split; lra).
  replace (v0 * T' + (v - v0) * T' ^ 2 / (2 * T') - (v0 * (T' * v0 / (v0 - v)) + (v - v0) * (T' * v0 / (v0 - v)) ^ 2 / (2 * T')))
    with (- (T' * v ^ 2 / (2 * (v0 - v)))) by (field; split; lra).
  rewrite Rabs_Ropp. unfold Rdiv. rewrite !Rabs_mult, !Rabs_inv, Rabs_mult, (Rabs_right T'), (Rabs_right 2), (Rabs_right (v0 ^ 2)), (Rabs_right (v ^ 2)); try lra; try nra.
  assert (KA : Rabs (v0 - v) = Rabs v0 + Rabs v) by (destruct C as [[C1 C2]|[C1 C2]]; unfold Rabs; repeat destruct Rcase_abs; lra).
  rewrite KA, TE. field. split; [|lra]. pose proof (Rabs_pos v). lra.
Qed.

(** ** Starting again *)

(** Two transitions configured in the same way. *)
Definition alike (t t' : td) : Prop :=
  t_shape t = t_shape t' /\ t_dim t = t_dim t' /\ Rabs (t_rate t) = Rabs (t_rate t') /\ (t_dim t <> RATE -> t_ptarget t = t_ptarget t').

Lemma set_start_alike : forall t t' s, alike t t' -> (t_dim t = RATE -> SMALL_NUMBER <= Rabs (t_rate t)) -> SetStartVal (Reset t) s = SetStartVal (Reset t') s.
Proof.
  intros t t' s (A1 & A2 & A3 & A4) N. unfold SetStartVal, Reset, UpdateRate, delta.
  cbn [t_shape t_dim t_start t_target t_ptarget t_scale t_pval t_rate]. rewrite <- A1, <- A2, <- A3.
  set (r := SIGN (0 - s) * Rabs (t_rate t)).
  destruct (t_dim t) eqn:D; cbn [is_rate andb]; try (rewrite A4 by congruence; reflexivity).
  assert (NZ : NEAR_ZERO r = false).
  { apply near_zero_false. unfold r. rewrite Rabs_mult, abs_sign, Rabs_Rabsolu, Rmult_1_l. apply N. reflexivity. }
  rewrite NZ. cbn [negb]. reflexivity.
Qed.

Lemma restart_l : forall p v st st', alike (s_td st) (s_td st') -> s_speed st = s_speed st' -> (t_dim (s_td st) = RATE -> SMALL_NUMBER <= Rabs (t_rate (s_td st))) ->
  speed_start p false v st = speed_start p false v st'.
Proof.
  intros p v st st' A S N. unfold speed_start. rewrite S, (set_start_alike _ _ (s_speed st') A N). reflexivity.
Qed.

Lemma alike_refl : forall t, alike t t.
Proof. intros t. repeat split; auto. Qed.

Lemma alike_trans : forall a b c, alike a b -> alike b c -> alike a c.
Proof.
  intros a b c (A1 & A2 & A3 & A4) (B1 & B2 & B3 & B4). split; [congruence|]. split; [congruence|]. split; [congruence|].
  intros D. rewrite A4 by exact D. apply B4. congruence.
Qed.

Lemma alike_update : forall t, alike t (UpdateRate t).
Proof.
  intros t. destruct (update_keeps t) as (U1 & U2 & U3 & U4 & U5 & U6 & U7 & U8). split; [auto|]. split; [auto|]. split; [auto|]. intros D. symmetry. apply U8, D.
Qed.

Lemma step_alike : forall p tt ov v dt st, alike (s_td st) (s_td (speed_step p tt ov v dt st)).
Proof.
  intros p tt ov v dt st. unfold speed_step. destruct ov; [apply alike_refl|].
  set (t1 := match tt with RELATIVE_SPEED _ => SetTargetVal (s_td st) (ABS_LIMIT v (p_speed p)) | ABSOLUTE_SPEED => s_td st end).
  assert (A : alike (s_td st) t1).
  { unfold t1. destruct tt; [apply alike_refl|]. unfold SetTargetVal. eapply alike_trans; [|apply alike_update]. repeat split; auto. }
  assert (K := move_keeps p v dt t1 (s_speed st)). cbn zeta in K. destruct (speed_move p v dt t1 (s_speed st)) as [t2 w]. cbn [fst s_td] in *.
  destruct K as (K1 & K2 & _ & _ & K5 & _ & K7). eapply alike_trans; [exact A|]. repeat split; congruence.
Qed.

Lemma start_alike : forall p ov v st st', speed_start p ov v st = Some st' -> t_dim (s_td st) <> DISTANCE -> alike (s_td st) (s_td st').
Proof.
  intros p ov v st st' H D. unfold speed_start in H. destruct ov; [injection H as <-; repeat split; auto|].
  assert (A : alike (s_td st) (SetStartVal (Reset (s_td st)) (s_speed st))).
  { unfold SetStartVal. eapply alike_trans; [|apply alike_update]. repeat split; auto. }
  destruct (distance_to_time (SetStartVal (Reset (s_td st)) (s_speed st)) v) as [t|] eqn:E; [|discriminate].
  destruct (distance_keeps _ _ _ E) as (_ & _ & _ & _ & _ & _ & _ & D8).
  assert (TT : t = SetStartVal (Reset (s_td st)) (s_speed st)) by (apply D8; destruct A as (_ & A & _); congruence). clear D8. subst t.
  injection H as <-. cbn [s_td]. set (t0 := SetStartVal _ _) in *.
  assert (B : alike t0 (SetTargetVal t0 (ABS_LIMIT v (p_speed p)))).
  { unfold SetTargetVal. eapply alike_trans; [|apply alike_update]. repeat split; auto. }
  set (t2 := SetTargetVal _ _) in *.
  match goal with |- context [SetMaxRate t2 ?m] => set (t3 := SetMaxRate t2 m) end.
  assert (C : alike t2 t3) by (repeat split; auto).
  assert (F : alike t3 (if is_rate (t_dim t3) then SetRate t3 (SIGN (delta t3) * Rabs (t_rate t3)) else t3)).
  { destruct (is_rate (t_dim t3)); [|apply alike_refl]. unfold SetRate. eapply alike_trans; [|apply alike_update]. repeat split; auto.
    cbn [t_rate]. rewrite Rabs_mult, abs_sign, Rabs_Rabsolu. ring. }
  eapply alike_trans; [exact A|]. eapply alike_trans; [exact B|]. eapply alike_trans; [exact C|]. exact F.
Qed.

Lemma run_alike : forall p tt v dts st, alike (s_td st) (s_td (run p tt v dts st)).
Proof.
  intros p tt v dts. induction dts as [|d dts IH]; intros st; [apply alike_refl|]. eapply alike_trans; [apply (step_alike p tt false v d)|]. apply IH.
Qed.
