(** * Transition dynamics: specification and proofs *)
From Coq Require Import Reals Bool ZArith List Lra Lia Psatz.
Import ListNotations.
From Verif Require Import AngModel AngProofs GeoModel TransModel.
Open Scope R_scope.

(** ** The unit curves *)

(** The curves from 0 to 1 over [0, 1], their derivatives, second derivatives and antiderivatives (stated, not taken from the model). *)
Definition curve (s : shape) (u : R) : R :=
  match s with LINEAR => u | CUBIC => 3 * u ^ 2 - 2 * u ^ 3 | SINUSOIDAL => (1 - cos (PI * u)) / 2 | _ => 0 end.
Definition slope (s : shape) (u : R) : R :=
  match s with LINEAR => 1 | CUBIC => 6 * u * (1 - u) | SINUSOIDAL => PI / 2 * sin (PI * u) | _ => 0 end.
Definition bend (s : shape) (u : R) : R :=
  match s with LINEAR => 0 | CUBIC => 6 - 12 * u | SINUSOIDAL => PI ^ 2 / 2 * cos (PI * u) | _ => 0 end.
Definition area (s : shape) (u : R) : R :=
  match s with LINEAR => u ^ 2 / 2 | CUBIC => u ^ 3 - u ^ 4 / 2 | SINUSOIDAL => (u - sin (PI * u) / PI) / 2 | _ => 0 end.
(** The largest slope. *)
Definition steepest (s : shape) : R := match s with LINEAR => 1 | CUBIC => 1.5 | SINUSOIDAL => PI / 2 | _ => 0 end.
(** The largest bend. *)
Definition sharpest (s : shape) : R := match s with CUBIC => 6 | SINUSOIDAL => PI ^ 2 / 2 | _ => 0 end.

Definition proper (s : shape) : Prop := s = LINEAR \/ s = CUBIC \/ s = SINUSOIDAL.

Lemma pi_pos : 0 < PI. Proof. exact PI_RGT_0. Qed.

Lemma curve_0 : forall s, proper s -> curve s 0 = 0.
Proof. intros s [E|[E|E]]; subst; cbn; try lra. rewrite Rmult_0_r, cos_0. lra. Qed.

Lemma curve_1 : forall s, proper s -> curve s 1 = 1.
Proof. intros s [E|[E|E]]; subst; cbn; try lra. rewrite Rmult_1_r, cos_PI. lra. Qed.

Lemma curve_sym : forall s u, proper s -> curve s u + curve s (1 - u) = 1.
Proof.
  intros s u [E|[E|E]]; subst; cbn; try ring.
  replace (PI * (1 - u)) with (PI - PI * u) by ring. rewrite cos_minus, cos_PI, sin_PI. lra.
Qed.

Lemma lim_ext : forall f g x l l', (forall y, f y = g y) -> l = l' -> derivable_pt_lim f x l -> derivable_pt_lim g x l'.
Proof.
  intros f g x l l' E El H eps He. subst l'. destruct (H eps He) as [d D]. exists d. intros h H1 H2.
  rewrite <- !E. apply D; auto.
Qed.

Lemma lim_lin : forall a b x, derivable_pt_lim (fun y => a + b * y) x b.
Proof.
  intros a b x. apply (lim_ext (plus_fct (fct_cte a) (mult_real_fct b id)) _ x (0 + b * 1)).
  - intros y. reflexivity.
  - ring.
  - apply derivable_pt_lim_plus; [apply derivable_pt_lim_const|apply derivable_pt_lim_scal, derivable_pt_lim_id].
Qed.

Lemma cos_lin_lim : forall u, derivable_pt_lim (fun u => cos (PI * u)) u (- (PI * sin (PI * u))).
Proof.
  intros u. replace (- (PI * sin (PI * u))) with (- sin (PI * u) * PI) by ring.
  apply (derivable_pt_lim_comp (fun u => PI * u) cos).
  - apply (lim_ext (fun y => 0 + PI * y) _ u PI); [intros; ring|reflexivity|apply lim_lin].
  - apply derivable_pt_lim_cos.
Qed.

Lemma sin_lin_lim : forall u, derivable_pt_lim (fun u => sin (PI * u)) u (PI * cos (PI * u)).
Proof.
  intros u. replace (PI * cos (PI * u)) with (cos (PI * u) * PI) by ring.
  apply (derivable_pt_lim_comp (fun u => PI * u) sin).
  - apply (lim_ext (fun y => 0 + PI * y) _ u PI); [intros; ring|reflexivity|apply lim_lin].
  - apply derivable_pt_lim_sin.
Qed.

Lemma lim_scale : forall f x l k, derivable_pt_lim f x l -> derivable_pt_lim (fun y => k * f y) x (k * l).
Proof. intros. apply (derivable_pt_lim_scal f). assumption. Qed.

Lemma lim_shift : forall f x l k, derivable_pt_lim f x l -> derivable_pt_lim (fun y => k + f y) x l.
Proof.
  intros f x l k H. apply (lim_ext (plus_fct (fct_cte k) f) _ x (0 + l)); [reflexivity|ring|].
  apply derivable_pt_lim_plus; [apply derivable_pt_lim_const|exact H].
Qed.

Lemma lim_pow : forall n x, derivable_pt_lim (fun y => y ^ n) x (INR n * x ^ pred n).
Proof. intros. apply derivable_pt_lim_pow. Qed.

Lemma lim_plus : forall f g x l m, derivable_pt_lim f x l -> derivable_pt_lim g x m -> derivable_pt_lim (fun y => f y + g y) x (l + m).
Proof. intros. apply (derivable_pt_lim_plus f g); assumption. Qed.

Lemma curve_slope : forall s u, proper s -> derivable_pt_lim (curve s) u (slope s u).
Proof.
  intros s u [E|[E|E]]; subst; cbn [slope].
  - apply derivable_pt_lim_id.
  - apply (lim_ext (fun y => 3 * y ^ 2 + (-2) * y ^ 3) _ u (3 * (INR 2 * u ^ 1) + (-2) * (INR 3 * u ^ 2))).
    + intros y. cbn. ring.
    + cbn. ring.
    + apply lim_plus; apply lim_scale; apply lim_pow.
  - apply (lim_ext (fun y => 1/2 + (-1/2) * cos (PI * y)) _ u ((-1/2) * (- (PI * sin (PI * u))))).
    + intros y. cbn. lra.
    + lra.
    + apply lim_shift, lim_scale, cos_lin_lim.
Qed.

Lemma slope_bend : forall s u, proper s -> derivable_pt_lim (slope s) u (bend s u).
Proof.
  intros s u [E|[E|E]]; subst; cbn [bend].
  - apply (lim_ext (fct_cte 1) _ u 0); [reflexivity|reflexivity|apply derivable_pt_lim_const].
  - apply (lim_ext (fun y => (0 + 6 * y) + (-6) * y ^ 2) _ u (6 + (-6) * (INR 2 * u ^ 1))).
    + intros y. cbn. ring.
    + cbn. ring.
    + apply lim_plus; [apply lim_lin|apply lim_scale, lim_pow].
  - apply (lim_ext (fun y => PI / 2 * sin (PI * y)) _ u (PI / 2 * (PI * cos (PI * u)))).
    + reflexivity.
    + cbn. lra.
    + apply lim_scale, sin_lin_lim.
Qed.

Lemma area_curve : forall s u, proper s -> derivable_pt_lim (area s) u (curve s u).
Proof.
  pose proof pi_pos as P.
  intros s u [E|[E|E]]; subst; cbn [curve].
  - apply (lim_ext (fun y => (1/2) * y ^ 2) _ u ((1/2) * (INR 2 * u ^ 1))); [intros; cbn; lra|cbn; lra|apply lim_scale, lim_pow].
  - apply (lim_ext (fun y => y ^ 3 + (-1/2) * y ^ 4) _ u (INR 3 * u ^ 2 + (-1/2) * (INR 4 * u ^ 3))); [intros; cbn; lra|cbn; lra|].
    apply lim_plus; [apply lim_pow|apply lim_scale, lim_pow].
  - apply (lim_ext (fun y => (0 + (1/2) * y) + (- / (2 * PI)) * sin (PI * y)) _ u (1/2 + (- / (2 * PI)) * (PI * cos (PI * u)))).
    + intros y. cbn. field. lra.
    + field. lra.
    + apply lim_plus; [apply lim_lin|apply lim_scale, sin_lin_lim].
Qed.

Lemma area_0 : forall s, proper s -> area s 0 = 0.
Proof. intros s [E|[E|E]]; subst; cbn; try lra. rewrite Rmult_0_r, sin_0. lra. Qed.

Lemma area_1 : forall s, proper s -> area s 1 = 1 / 2.
Proof. intros s [E|[E|E]]; subst; cbn; try lra. rewrite Rmult_1_r, sin_PI. lra. Qed.

Lemma slope_range : forall s u, proper s -> 0 <= u <= 1 -> 0 <= slope s u <= steepest s.
Proof.
  pose proof pi_pos as P.
  intros s u [E|[E|E]] U; subst; cbn; try lra.
  - pose proof (Rle_0_sqr (u - 1 / 2)) as S. unfold Rsqr in S. split; [nra|lra].
  - pose proof (SIN_bound (PI * u)) as B.
    assert (0 <= sin (PI * u)) by (apply sin_ge_0; nra). nra.
Qed.

Lemma slope_mid : forall s, proper s -> slope s (1 / 2) = steepest s.
Proof. intros s [E|[E|E]]; subst; cbn; try lra. replace (PI * (1 / 2)) with (PI / 2) by lra. rewrite sin_PI2. lra. Qed.

Lemma bend_range : forall s u, proper s -> 0 <= u <= 1 -> Rabs (bend s u) <= sharpest s.
Proof.
  pose proof pi_pos as P.
  intros s u [E|[E|E]] U; subst; cbn.
  - rewrite Rabs_R0. lra.
  - apply Rabs_le. lra.
  - pose proof (COS_bound (PI * u)). apply Rabs_le. split; nra.
Qed.

Lemma bend_ends : forall s, s = CUBIC \/ s = SINUSOIDAL -> bend s 0 = sharpest s /\ bend s 1 = - sharpest s.
Proof.
  intros s [E|E]; subst; cbn; [lra|]. rewrite Rmult_0_r, Rmult_1_r, cos_0, cos_PI. lra.
Qed.

Lemma curve_between : forall s u w, proper s -> 0 <= u -> u <= w -> w <= 1 -> 0 <= curve s w - curve s u <= steepest s * (w - u).
Proof.
  intros s u w P U UW W. destruct (Req_dec u w) as [->|N]; [lra|].
  assert (L : u < w) by lra.
  destruct (MVT_cor2 (curve s) (slope s) u w L) as [c [E C]].
  - intros c _. apply curve_slope, P.
  - rewrite E. assert (H := slope_range s c P). assert (0 <= c <= 1) by lra. specialize (H H0). nra.
Qed.

Lemma curve_range : forall s u, proper s -> 0 <= u <= 1 -> 0 <= curve s u <= 1.
Proof.
  intros s u P U.
  assert (A := curve_between s 0 u P). assert (B := curve_between s u 1 P).
  rewrite (curve_0 s P) in A. rewrite (curve_1 s P) in B. lra.
Qed.

Lemma steepest_ge : forall s, proper s -> 1 <= steepest s.
Proof.
  intros s P. assert (A := curve_between s 0 1 P). rewrite curve_0, curve_1 in A by assumption. lra.
Qed.

Lemma curve_strict : forall s u w, proper s -> 0 <= u -> u < w -> w <= 1 -> curve s u < curve s w.
Proof.
  intros s u w P U UW W.
  destruct (MVT_cor2 (curve s) (slope s) u w UW) as [c [E C]].
  - intros c _. apply curve_slope, P.
  - assert (0 < slope s c); [|nra].
    destruct P as [E1|[E1|E1]]; subst s; cbn; [lra|nra|].
    pose proof pi_pos. assert (0 < sin (PI * c)) by (apply sin_gt_0; nra). nra.
Qed.

(** ** Evaluation *)

(** A transition along one of the curves over a range that is not empty. *)
Definition regular (t : td) : Prop := proper (t_shape t) /\ SMALL_NUMBER <= t_ptarget t.

(** The same transition at parameter [p]. *)
Definition at_ (t : td) (p : R) : td := TD (t_shape t) (t_dim t) (t_start t) (t_target t) (t_ptarget t) (t_scale t) p (t_rate t).

Lemma avoid_zero_id : forall x, SMALL_NUMBER <= x -> AVOID_ZERO x = x.
Proof.
  intros x H. pose proof small_pos. unfold AVOID_ZERO, SIGN, RMAX. rewrite (Rabs_right x) by lra.
  destruct (Rltb x 0) eqn:A; [apply Rltb_true in A; lra|].
  destruct (Rltb SMALL_NUMBER x) eqn:B; [ring|]. apply Rltb_false in B. lra.
Qed.

Lemma not_stepping : forall t, regular t -> stepping t = false.
Proof.
  intros t [P T]. unfold stepping. replace (is_step (t_shape t)) with false by (destruct P as [E|[E|E]]; rewrite E; reflexivity).
  cbn. replace (Rltb (t_ptarget t) SMALL_NUMBER) with false by (symmetry; apply Rltb_false; exact T). apply andb_false_r.
Qed.

Lemma eval_curve : forall t, regular t -> Evaluate t SHAPE_UNDEFINED = t_start t + delta t * curve (t_shape t) (t_pval t / t_ptarget t).
Proof.
  intros t H. unfold Evaluate. rewrite (not_stepping t H). destruct H as [P T]. rewrite (avoid_zero_id _ T). pose proof small_pos.
  destruct P as [E|[E|E]]; rewrite E; cbn [curve].
  - field. lra.
  - field. lra.
  - replace (PI * t_pval t / t_ptarget t) with (PI * (t_pval t / t_ptarget t)) by (field; lra). field.
Qed.

Lemma eval_linear : forall t, regular t -> Evaluate t LINEAR = t_start t + delta t * (t_pval t / t_ptarget t).
Proof.
  intros t H. unfold Evaluate. rewrite (not_stepping t H). destruct H as [P T]. rewrite (avoid_zero_id _ T). pose proof small_pos. field. lra.
Qed.

Lemma prim_slope : forall t, regular t -> EvaluatePrim t = delta t / t_ptarget t * slope (t_shape t) (t_pval t / t_ptarget t).
Proof.
  intros t H. unfold EvaluatePrim. rewrite (not_stepping t H). destruct H as [P T]. rewrite (avoid_zero_id _ T). pose proof small_pos.
  destruct P as [E|[E|E]]; rewrite E; cbn [slope].
  - field. lra.
  - field. lra.
  - replace (PI * t_pval t / t_ptarget t) with (PI * (t_pval t / t_ptarget t)) by (field; lra). field. lra.
Qed.

Lemma peak_steepest : forall t, regular t -> t_dim t <> RATE -> EvaluatePrimPeak t = delta t / t_ptarget t * steepest (t_shape t).
Proof.
  intros t H D. unfold EvaluatePrimPeak. rewrite (not_stepping t H). destruct H as [P T]. rewrite (avoid_zero_id _ T). pose proof small_pos.
  replace (is_rate (t_dim t)) with false by (destruct (t_dim t); congruence || reflexivity).
  destruct P as [E|[E|E]]; rewrite E; cbn [steepest]; field; lra.
Qed.

Lemma regular_at : forall t p, regular t -> regular (at_ t p).
Proof. intros t p H. exact H. Qed.

Lemma unit_range : forall t, regular t -> 0 <= t_pval t <= t_ptarget t -> 0 <= t_pval t / t_ptarget t <= 1.
Proof.
  intros t [_ T] H. pose proof small_pos. split.
  - apply Rmult_le_reg_r with (t_ptarget t); [lra|]. replace (t_pval t / t_ptarget t * t_ptarget t) with (t_pval t) by (field; lra). lra.
  - apply Rmult_le_reg_r with (t_ptarget t); [lra|]. replace (t_pval t / t_ptarget t * t_ptarget t) with (t_pval t) by (field; lra). lra.
Qed.

Lemma eval_start_l : forall t, regular t -> Evaluate (at_ t 0) SHAPE_UNDEFINED = t_start t.
Proof.
  intros t H. rewrite (eval_curve _ (regular_at t 0 H)). cbn. unfold Rdiv. rewrite Rmult_0_l, (curve_0 _ (proj1 H)). ring.
Qed.

Lemma eval_end_l : forall t, regular t -> Evaluate (at_ t (t_ptarget t)) SHAPE_UNDEFINED = t_target t.
Proof.
  intros t H. rewrite (eval_curve _ (regular_at t _ H)). cbn. pose proof small_pos. destruct H as [P T].
  replace (t_ptarget t / t_ptarget t) with 1 by (field; lra). rewrite (curve_1 _ P). unfold delta. cbn. ring.
Qed.

(** Between two values. *)
Definition between (a x b : R) : Prop := a <= x <= b \/ b <= x <= a.

Lemma eval_between_l : forall t, regular t -> 0 <= t_pval t <= t_ptarget t -> between (t_start t) (Evaluate t SHAPE_UNDEFINED) (t_target t).
Proof.
  intros t H U. rewrite (eval_curve t H). pose proof (curve_range _ _ (proj1 H) (unit_range t H U)) as C. unfold between, delta.
  destruct (Rle_or_lt (t_start t) (t_target t)); [left|right]; nra.
Qed.

Lemma eval_diff : forall t p q, regular t -> 0 <= p -> p <= q -> q <= t_ptarget t ->
  exists k, 0 <= k <= steepest (t_shape t) * ((q - p) / t_ptarget t) /\ Evaluate (at_ t q) SHAPE_UNDEFINED - Evaluate (at_ t p) SHAPE_UNDEFINED = delta t * k.
Proof.
  intros t p q H A B C.
  exists (curve (t_shape t) (q / t_ptarget t) - curve (t_shape t) (p / t_ptarget t)).
  pose proof small_pos. assert (T := proj2 H).
  assert (U1 := unit_range (at_ t p) H). assert (U2 := unit_range (at_ t q) H). cbn in U1, U2.
  assert (p / t_ptarget t <= q / t_ptarget t) by (unfold Rdiv; apply Rmult_le_compat_r; [apply Rlt_le, Rinv_0_lt_compat; lra|lra]).
  split.
  - replace ((q - p) / t_ptarget t) with (q / t_ptarget t - p / t_ptarget t) by (field; lra).
    apply curve_between; [exact (proj1 H)|lra|lra|lra].
  - rewrite (eval_curve _ (regular_at t q H)), (eval_curve _ (regular_at t p H)). unfold delta. cbn. ring.
Qed.

Lemma eval_monotone_l : forall t p q, regular t -> 0 <= p -> p <= q -> q <= t_ptarget t ->
  between (Evaluate (at_ t p) SHAPE_UNDEFINED) (Evaluate (at_ t q) SHAPE_UNDEFINED) (t_target t).
Proof.
  intros t p q H A B C. destruct (eval_diff t p q H A B C) as (k & K & E).
  assert (G := eval_between_l (at_ t q) H). cbn [at_ t_pval t_ptarget t_start t_target] in G. specialize (G (conj (Rle_trans _ _ _ A B) C)).
  assert (F := eval_between_l (at_ t p) H). cbn [at_ t_pval t_ptarget t_start t_target] in F. specialize (F (conj A (Rle_trans _ _ _ B C))).
  unfold between, delta in *. destruct (Rle_or_lt (t_start t) (t_target t)).
  - assert (0 <= (t_target t - t_start t) * k) by nra. left. destruct G; lra.
  - assert ((t_target t - t_start t) * k <= 0) by nra. right. destruct G; lra.
Qed.

Lemma eval_inner_l : forall t, regular t -> t_start t <> t_target t -> 0 <= t_pval t < t_ptarget t -> Evaluate t SHAPE_UNDEFINED <> t_target t.
Proof.
  intros t H N U E. rewrite (eval_curve t H) in E. pose proof small_pos. assert (T := proj2 H).
  assert (B := unit_range t H). 
  assert (L : t_pval t / t_ptarget t < 1).
  { apply Rmult_lt_reg_r with (t_ptarget t); [lra|]. replace (t_pval t / t_ptarget t * t_ptarget t) with (t_pval t) by (field; lra). lra. }
  assert (C := curve_strict (t_shape t) (t_pval t / t_ptarget t) 1 (proj1 H)). rewrite (curve_1 _ (proj1 H)) in C.
  unfold delta in E.
  assert (F : (t_target t - t_start t) * (1 - curve (t_shape t) (t_pval t / t_ptarget t)) = 0) by lra.
  apply Rmult_integral in F. lra.
Qed.

Lemma lim_inner : forall f x l c, c <> 0 -> derivable_pt_lim f (x / c) l -> derivable_pt_lim (fun y => f (y / c)) x (l / c).
Proof.
  intros f x l c C H. unfold Rdiv. apply (derivable_pt_lim_comp (fun y => y / c) f).
  - apply (lim_ext (fun y => 0 + / c * y) _ x (/ c)); [intros; field; exact C|reflexivity|apply lim_lin].
  - exact H.
Qed.

Lemma prim_derivative_l : forall t, regular t -> derivable_pt_lim (fun p => Evaluate (at_ t p) SHAPE_UNDEFINED) (t_pval t) (EvaluatePrim t).
Proof.
  intros t H. pose proof small_pos. assert (T := proj2 H).
  apply (lim_ext (fun p => t_start t + delta t * curve (t_shape t) (p / t_ptarget t)) _ _ (delta t * (slope (t_shape t) (t_pval t / t_ptarget t) / t_ptarget t))).
  - intros y. rewrite (eval_curve _ (regular_at t y H)). reflexivity.
  - rewrite (prim_slope t H). field. lra.
  - apply lim_shift, lim_scale, lim_inner; [lra|]. apply curve_slope, H.
Qed.

(** The second derivative. *)
Definition second (t : td) (p : R) : R := delta t / t_ptarget t ^ 2 * bend (t_shape t) (p / t_ptarget t).

Lemma second_derivative_l : forall t, regular t -> derivable_pt_lim (fun p => EvaluatePrim (at_ t p)) (t_pval t) (second t (t_pval t)).
Proof.
  intros t H. pose proof small_pos. assert (T := proj2 H).
  apply (lim_ext (fun p => delta t / t_ptarget t * slope (t_shape t) (p / t_ptarget t)) _ _
                 (delta t / t_ptarget t * (bend (t_shape t) (t_pval t / t_ptarget t) / t_ptarget t))).
  - intros y. rewrite (prim_slope _ (regular_at t y H)). reflexivity.
  - unfold second. field. lra.
  - apply lim_scale, lim_inner; [lra|]. apply slope_bend, H.
Qed.

Lemma prim_bound_l : forall t, regular t -> 0 <= t_pval t <= t_ptarget t ->
  Rabs (EvaluatePrim t) <= Rabs (delta t) / t_ptarget t * steepest (t_shape t).
Proof.
  intros t H U. rewrite (prim_slope t H). pose proof (slope_range _ _ (proj1 H) (unit_range t H U)) as S. pose proof small_pos.
  assert (T := proj2 H). assert (I : 0 < / t_ptarget t) by (apply Rinv_0_lt_compat; lra).
  rewrite Rabs_mult, (Rabs_right (slope _ _)) by lra. unfold Rdiv. rewrite Rabs_mult, (Rabs_right (/ t_ptarget t)) by lra.
  apply Rmult_le_compat_l; [|lra]. apply Rmult_le_pos; [apply Rabs_pos|lra].
Qed.

Lemma prim_mid_l : forall t, regular t -> EvaluatePrim (at_ t (t_ptarget t / 2)) = delta t / t_ptarget t * steepest (t_shape t).
Proof.
  intros t H. rewrite (prim_slope _ (regular_at t _ H)). cbn. pose proof small_pos. assert (T := proj2 H).
  replace (t_ptarget t / 2 / t_ptarget t) with (1 / 2) by (field; lra). rewrite (slope_mid _ (proj1 H)). reflexivity.
Qed.

(** The way covered when the value is a speed and the parameter is time: an antiderivative. *)
Definition way (t : td) (p : R) : R := t_start t * p + delta t * t_ptarget t * area (t_shape t) (p / t_ptarget t).

Lemma way_derivative : forall t p, regular t -> derivable_pt_lim (way t) p (Evaluate (at_ t p) SHAPE_UNDEFINED).
Proof.
  intros t p H. rewrite (eval_curve _ (regular_at t p H)). cbn. pose proof small_pos. assert (T := proj2 H).
  apply (lim_ext (fun q => (0 + t_start t * q) + delta t * t_ptarget t * area (t_shape t) (q / t_ptarget t)) _ p
                 (t_start t + delta t * t_ptarget t * (curve (t_shape t) (p / t_ptarget t) / t_ptarget t))).
  - intros q. unfold way. ring.
  - unfold delta; cbn. field. lra.
  - apply lim_plus; [apply lim_lin|]. apply lim_scale, lim_inner; [lra|]. apply area_curve, H.
Qed.

Lemma way_total : forall t, regular t -> way t (t_ptarget t) - way t 0 = t_ptarget t * (t_start t + t_target t) / 2.
Proof.
  intros t H. unfold way. pose proof small_pos. assert (T := proj2 H).
  replace (t_ptarget t / t_ptarget t) with 1 by (field; lra). replace (0 / t_ptarget t) with 0 by (field; lra).
  rewrite (area_0 _ (proj1 H)), (area_1 _ (proj1 H)). unfold delta. field.
Qed.

(** ** Rates *)

Lemma sign_cases : forall x, (x < 0 /\ SIGN x = -1) \/ (0 <= x /\ SIGN x = 1).
Proof.
  intros x. unfold SIGN. destruct (Rltb x 0) eqn:E; [left; apply Rltb_true in E|right; apply Rltb_false in E]; split; auto.
Qed.

Lemma sign_abs : forall x, SIGN x * Rabs x = x.
Proof. intros x. destruct (sign_cases x) as [[A ->]|[A ->]]; [rewrite Rabs_left|rewrite Rabs_right]; lra. Qed.

Lemma abs_sign : forall x, Rabs (SIGN x) = 1.
Proof. intros x. destruct (sign_cases x) as [[A ->]|[A ->]]; [rewrite Rabs_left|rewrite Rabs_right]; lra. Qed.

Lemma rmax_cases : forall x y, (x < y /\ RMAX x y = y) \/ (y <= x /\ RMAX x y = x).
Proof. intros. unfold RMAX. rcase; auto. Qed.

Lemma rmin_cases : forall x y, (y < x /\ RMIN x y = y) \/ (x <= y /\ RMIN x y = x).
Proof. intros. unfold RMIN. rcase; auto. Qed.

Lemma avoid_zero_abs : forall x, Rabs (AVOID_ZERO x) = RMAX SMALL_NUMBER (Rabs x).
Proof.
  intros x. unfold AVOID_ZERO. rewrite Rabs_mult, abs_sign, Rmult_1_l. apply Rabs_right. pose proof small_pos.
  destruct (rmax_cases SMALL_NUMBER (Rabs x)) as [[A ->]|[A ->]]; lra.
Qed.

Lemma avoid_zero_nonneg : forall x, 0 <= x -> AVOID_ZERO x = RMAX SMALL_NUMBER x.
Proof.
  intros x H. unfold AVOID_ZERO. destruct (sign_cases x) as [[A _]|[_ ->]]; [lra|]. rewrite Rabs_right by lra. ring.
Qed.

Lemma by_peak_l : forall t r, proper (t_shape t) -> r <> 0 -> GetTargetParamValByPrimPeak t r = steepest (t_shape t) * delta t / r.
Proof.
  intros t r P R. unfold GetTargetParamValByPrimPeak. destruct P as [E|[E|E]]; rewrite E; cbn [steepest]; field; exact R.
Qed.

(** A transition whose rate points from start to target and, given by rate, lasts as long as this rate requires. *)
Definition settled (t : td) : Prop := UpdateRate t = t.

Lemma td_eta : forall t, TD (t_shape t) (t_dim t) (t_start t) (t_target t) (t_ptarget t) (t_scale t) (t_pval t) (t_rate t) = t.
Proof. intros []. reflexivity. Qed.

Lemma update_settled : forall t, settled (UpdateRate t).
Proof.
  intros t. unfold settled, UpdateRate. cbn [delta t_target t_start t_rate t_dim].
  change (delta (TD (t_shape t) (t_dim t) (t_start t) (t_target t) (t_ptarget t) (t_scale t) (t_pval t) (SIGN (delta t) * Rabs (t_rate t)))) with (delta t).
  assert (E : SIGN (delta t) * Rabs (SIGN (delta t) * Rabs (t_rate t)) = SIGN (delta t) * Rabs (t_rate t)).
  { rewrite Rabs_mult, abs_sign, Rabs_Rabsolu. ring. }
  set (r := SIGN (delta t) * Rabs (t_rate t)) in *.
  destruct (is_rate (t_dim t) && negb (NEAR_ZERO r)) eqn:C; cbn [t_shape t_dim t_start t_target t_ptarget t_scale t_pval t_rate];
    unfold delta in *; cbn [t_shape t_dim t_start t_target t_ptarget t_scale t_pval t_rate]; rewrite E, C; reflexivity.
Qed.

Lemma settled_rate : forall t, settled t -> t_rate t = SIGN (delta t) * Rabs (t_rate t).
Proof.
  intros t H. unfold settled in H. rewrite <- H at 1. unfold UpdateRate. cbn [t_rate].
  match goal with |- context [if ?c then _ else _] => destruct c end; reflexivity.
Qed.

Lemma settled_ptarget : forall t, settled t -> t_dim t = RATE -> NEAR_ZERO (t_rate t) = false ->
  t_ptarget t = AVOID_ZERO (GetTargetParamValByPrimPeak t (t_rate t)).
Proof.
  intros t H D N. assert (S := settled_rate t H). unfold settled in H. unfold UpdateRate in H. rewrite <- S in H.
  cbn [t_dim] in H. rewrite D, N in H. cbn in H. rewrite <- H at 1. cbn. reflexivity.
Qed.

Lemma near_zero_false : forall x, NEAR_ZERO x = false <-> SMALL_NUMBER <= Rabs x.
Proof. intros. unfold NEAR_ZERO. apply Rltb_false. Qed.

Lemma by_peak_settled : forall t, proper (t_shape t) -> settled t -> SMALL_NUMBER <= Rabs (t_rate t) ->
  GetTargetParamValByPrimPeak t (t_rate t) = steepest (t_shape t) * Rabs (delta t) / Rabs (t_rate t).
Proof.
  intros t P S N. pose proof small_pos.
  assert (Z : t_rate t <> 0) by (intros Z; rewrite Z, Rabs_R0 in N; lra).
  rewrite (by_peak_l t _ P Z). rewrite (settled_rate t S) at 1.
  rewrite <- (sign_abs (delta t)) at 1. destruct (sign_cases (delta t)) as [[_ ->]|[_ ->]]; field; lra.
Qed.

Lemma rate_regular : forall t, proper (t_shape t) -> settled t -> t_dim t = RATE -> SMALL_NUMBER <= Rabs (t_rate t) ->
  regular t /\ Rabs (delta t) / t_ptarget t * steepest (t_shape t) <= Rabs (t_rate t) /\
  (SMALL_NUMBER <= steepest (t_shape t) * Rabs (delta t) / Rabs (t_rate t) -> delta t / t_ptarget t * steepest (t_shape t) = t_rate t).
Proof.
  intros t P S D N. pose proof small_pos as SP. pose proof (steepest_ge _ P) as G.
  assert (A := settled_ptarget t S D (proj2 (near_zero_false _) N)).
  rewrite (by_peak_settled t P S N) in A.
  assert (B : 0 <= steepest (t_shape t) * Rabs (delta t) / Rabs (t_rate t)).
  { unfold Rdiv. apply Rmult_le_pos; [apply Rmult_le_pos; [lra|apply Rabs_pos]|]. apply Rlt_le, Rinv_0_lt_compat. lra. }
  rewrite (avoid_zero_nonneg _ B) in A.
  assert (T : SMALL_NUMBER <= t_ptarget t) by (rewrite A; destruct (rmax_cases SMALL_NUMBER (steepest (t_shape t) * Rabs (delta t) / Rabs (t_rate t))) as [[? ->]|[? ->]]; lra).
  assert (U : steepest (t_shape t) * Rabs (delta t) / Rabs (t_rate t) <= t_ptarget t)
    by (rewrite A; destruct (rmax_cases SMALL_NUMBER (steepest (t_shape t) * Rabs (delta t) / Rabs (t_rate t))) as [[? ->]|[? ->]]; lra).
  split; [split; [exact P|exact T]|]. split.
  - apply Rmult_le_reg_r with (t_ptarget t); [lra|].
    replace (Rabs (delta t) / t_ptarget t * steepest (t_shape t) * t_ptarget t) with (steepest (t_shape t) * Rabs (delta t)) by (field; lra).
    apply Rmult_le_reg_r with (/ Rabs (t_rate t)); [apply Rinv_0_lt_compat; lra|].
    replace (Rabs (t_rate t) * t_ptarget t * / Rabs (t_rate t)) with (t_ptarget t) by (field; lra). exact U.
  - intros V. assert (E : t_ptarget t = steepest (t_shape t) * Rabs (delta t) / Rabs (t_rate t)).
    { rewrite A. destruct (rmax_cases SMALL_NUMBER (steepest (t_shape t) * Rabs (delta t) / Rabs (t_rate t))) as [[? ->]|[? ->]]; lra. }
    assert (DN : Rabs (delta t) <> 0) by (intros Z; rewrite Z in V; unfold Rdiv in V; rewrite Rmult_0_r, Rmult_0_l in V; lra).
    rewrite E. rewrite (settled_rate t S) at 2. rewrite <- (sign_abs (delta t)) at 1.
    field. repeat split; lra.
Qed.

Lemma dimension_eq_dec : forall a b : dimension, {a = b} + {a <> b}.
Proof. decide equality. Qed.

(** The largest slope of a transition that runs by its parameter. *)
Definition top (t : td) : R := Rabs (delta t) / t_ptarget t * steepest (t_shape t).

Lemma top_nonneg : forall t, regular t -> 0 <= top t.
Proof.
  intros t [P T]. pose proof small_pos. pose proof (steepest_ge _ P). unfold top, Rdiv. apply Rmult_le_pos; [|lra].
  apply Rmult_le_pos; [apply Rabs_pos|]. apply Rlt_le, Rinv_0_lt_compat. lra.
Qed.

Lemma peak_top : forall t, regular t -> (t_dim t = RATE -> settled t /\ SMALL_NUMBER <= Rabs (t_rate t)) -> top t <= Rabs (EvaluatePrimPeak t).
Proof.
  intros t H D. pose proof (steepest_ge _ (proj1 H)). pose proof small_pos. assert (T := proj2 H).
  destruct (dimension_eq_dec (t_dim t) RATE) as [E|E].
  - unfold EvaluatePrimPeak. rewrite E. cbn. destruct (D E) as [S N]. apply (rate_regular t (proj1 H) S E N).
  - rewrite (peak_steepest t H E). unfold top, Rdiv. rewrite !Rabs_mult, (Rabs_right (/ t_ptarget t)), (Rabs_right (steepest _)); try lra.
    apply Rle_ge, Rlt_le, Rinv_0_lt_compat. lra.
Qed.

Lemma max_rate_l : forall t m, regular t -> (t_dim t = RATE -> settled t /\ SMALL_NUMBER <= Rabs (t_rate t)) ->
  0 < t_scale (SetMaxRate t m) /\ (SMALL_NUMBER <= Rabs m -> 1 <= t_scale (SetMaxRate t m)) /\
  top t / t_scale (SetMaxRate t m) <= RMAX SMALL_NUMBER (Rabs m).
Proof.
  intros t m H D. pose proof (peak_top t H D) as P. pose proof small_pos as SP. pose proof (top_nonneg t H) as TN.
  unfold SetMaxRate. cbn [t_scale]. rewrite avoid_zero_abs.
  set (k := Rabs (EvaluatePrimPeak t)) in *. set (M := RMAX SMALL_NUMBER (Rabs m)).
  assert (MM : SMALL_NUMBER <= M /\ Rabs m <= M) by (unfold M; destruct (rmax_cases SMALL_NUMBER (Rabs m)) as [[? ->]|[? ->]]; lra).
  pose proof (Rabs_pos m) as MP.
  destruct (Rltb (Rabs m) k) eqn:E.
  - apply Rltb_true in E. assert (I : 0 < / M) by (apply Rinv_0_lt_compat; lra). split; [unfold Rdiv; nra|]. split.
    + intros B. apply Rmult_le_reg_r with M; [lra|]. replace (k / M * M) with k by (field; lra).
      assert (M = Rabs m) by (unfold M; destruct (rmax_cases SMALL_NUMBER (Rabs m)) as [[? ->]|[? ->]]; lra). lra.
    + replace (top t / (k / M)) with (top t * M / k) by (field; lra). apply Rmult_le_reg_r with k; [lra|].
      replace (top t * M / k * k) with (top t * M) by (field; lra). nra.
  - apply Rltb_false in E. split; [lra|]. split; [lra|]. unfold Rdiv. rewrite Rinv_1, Rmult_1_r. lra.
Qed.

(** ** Steps *)

Lemma step_at : forall t d, Step t d = at_ t (t_pval (Step t d)).
Proof. reflexivity. Qed.

Lemma step_pval : forall t d, 0 <= t_pval t <= t_ptarget t -> 0 < t_scale t -> 0 <= d -> t_pval (Step t d) = Rmin (t_ptarget t) (t_pval t + d / t_scale t).
Proof.
  intros t d P S D. cbn. assert (0 <= d / t_scale t) by (unfold Rdiv; apply Rmult_le_pos; [lra|]; apply Rlt_le, Rinv_0_lt_compat; lra).
  destruct (Rltb (t_ptarget t) (t_pval t + d / t_scale t)) eqn:E.
  - apply Rltb_true in E. rewrite Rmin_left; lra.
  - apply Rltb_false in E. rewrite Rmin_right by lra. destruct (Rltb (t_pval t + d / t_scale t) 0) eqn:F; [apply Rltb_true in F; lra|reflexivity].
Qed.

Lemma step_range_l : forall t d, 0 <= t_ptarget t -> 0 <= t_pval (Step t d) <= t_ptarget t.
Proof.
  intros t d H. cbn. destruct (Rltb (t_ptarget t) _) eqn:E; [lra|]. apply Rltb_false in E.
  destruct (Rltb _ 0) eqn:F; [lra|]. apply Rltb_false in F. lra.
Qed.

Lemma step_add_l : forall t a b, 0 <= t_pval t <= t_ptarget t -> 0 < t_scale t -> 0 <= a -> 0 <= b -> Step (Step t a) b = Step t (a + b).
Proof.
  intros t a b P S A B.
  assert (R := step_range_l t a). assert (0 <= t_ptarget t) by lra. specialize (R H).
  assert (E : t_pval (Step (Step t a) b) = t_pval (Step t (a + b))).
  { rewrite (step_pval (Step t a) b); [|exact R|exact S|exact B]. rewrite (step_pval t (a + b)) by lra. rewrite (step_pval t a) by lra.
    cbn [Step t_ptarget t_scale].
    assert (0 <= a / t_scale t) by (unfold Rdiv; apply Rmult_le_pos; [lra|]; apply Rlt_le, Rinv_0_lt_compat; lra).
    assert (0 <= b / t_scale t) by (unfold Rdiv; apply Rmult_le_pos; [lra|]; apply Rlt_le, Rinv_0_lt_compat; lra).
    replace ((a + b) / t_scale t) with (a / t_scale t + b / t_scale t) by (field; lra).
    unfold Rmin. repeat destruct Rle_dec; lra. }
  rewrite (step_at (Step t a) b), (step_at t (a + b)), E. reflexivity.
Qed.
