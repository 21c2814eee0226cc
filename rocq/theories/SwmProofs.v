(** * Spec and lemmas on where swarm traffic appears. *)
From Coq Require Import Reals Bool List Arith Lia Lra Psatz.
From Verif Require Import AngModel AngProofs TriModel TriProofs SwmModel.
Import ListNotations.
Open Scope R_scope.

Lemma leb_true : forall x y, leb x y = true <-> x <= y.
Proof. intros x y. unfold leb. rewrite negb_true_iff. apply Rltb_false. Qed.
Lemma leb_false : forall x y, leb x y = false <-> y < x.
Proof. intros x y. unfold leb. rewrite negb_false_iff. apply Rltb_true. Qed.
Lemma eqb_true : forall x y, eqb x y = true <-> x = y.
Proof. intros x y. unfold eqb. rewrite andb_true_iff, !leb_true. lra. Qed.
Lemma eqb_false : forall x y, eqb x y = false <-> x <> y.
Proof. intros x y. split; intros H. - intros E. apply eqb_true in E. congruence. - destruct (eqb x y) eqn:E; [|reflexivity]. apply eqb_true in E. contradiction. Qed.

Lemma div_some : forall x y, y <> 0 -> div x y = Some (x / y).
Proof. intros x y H. unfold div. destruct (Req_EM_T y 0); [contradiction|reflexivity]. Qed.

(** ** The ellipse *)

(** The point at (u, v) from the middle along the axes. *)
Definition at_axes (h k A u v : R) : point := (h + u * cos A - v * sin A, k + u * sin A + v * cos A).

Lemma cs1 : forall x, cos x * cos x + sin x * sin x = 1.
Proof. intros x. pose proof (sin2_cos2 x) as H. unfold Rsqr in H. lra. Qed.

Lemma ellipse_axes : forall h k A p q u v, ellipse h k A p q (fst (at_axes h k A u v)) (snd (at_axes h k A u v)) = (u / p) ^ 2 + (v / q) ^ 2 - 1.
Proof.
  intros. unfold ellipse, at_axes. cbn [fst snd]. pose proof (cs1 A) as C.
  replace ((h + u * cos A - v * sin A - h) * cos A + (k + u * sin A + v * cos A - k) * sin A) with (u * (cos A * cos A + sin A * sin A)) by ring.
  replace ((h + u * cos A - v * sin A - h) * sin A - (k + u * sin A + v * cos A - k) * cos A) with (- v * (cos A * cos A + sin A * sin A)) by ring.
  rewrite C. unfold Rdiv. ring.
Qed.

Lemma param_axes : forall alpha h k p q hdg, paramEllipse alpha h k p q hdg = at_axes h k hdg (p * cos alpha) (q * sin alpha).
Proof. intros. unfold paramEllipse, at_axes. f_equal; ring. Qed.

Lemma axes_of : forall h k A x y, exists u v, at_axes h k A u v = (x, y).
Proof.
  intros h k A x y. exists ((x - h) * cos A + (y - k) * sin A), (- (x - h) * sin A + (y - k) * cos A). unfold at_axes. pose proof (cs1 A) as C. f_equal.
  - transitivity (h + (x - h) * (cos A * cos A + sin A * sin A)); [ring|rewrite C; ring].
  - transitivity (k + (y - k) * (cos A * cos A + sin A * sin A)); [ring|rewrite C; ring].
Qed.

Lemma circle_angle : forall u v, u * u + v * v = 1 -> exists alpha, u = cos alpha /\ v = sin alpha.
Proof.
  intros u v H. assert (N : u <> 0 \/ v <> 0) by (destruct (Req_dec u 0); [right; nra|left; assumption]).
  destruct (atan2_spec u v N) as (_ & C & S & _). exists (atan2 v u). rewrite C, S, H, sqrt_1. split; field.
Qed.

(** The derivative of the ellipse. *)
Definition tang (p q alpha hdg : R) : point :=
  (- p * sin alpha * cos hdg - q * cos alpha * sin hdg, - p * sin alpha * sin hdg + q * cos alpha * cos hdg).

Lemma tang_not_0 : forall p q alpha hdg, p <> 0 -> q <> 0 -> fst (tang p q alpha hdg) <> 0 \/ snd (tang p q alpha hdg) <> 0.
Proof.
  intros p q alpha hdg P Q. unfold tang. cbn [fst snd]. pose proof (cs1 alpha) as C1. pose proof (cs1 hdg) as C2.
  destruct (Req_dec (- p * sin alpha * cos hdg - q * cos alpha * sin hdg) 0) as [E|E]; [|now left]. right. intros F.
  assert (G1 : p * sin alpha * (cos hdg * cos hdg + sin hdg * sin hdg) = 0).
  { replace (p * sin alpha * (cos hdg * cos hdg + sin hdg * sin hdg)) with
      (- ((- p * sin alpha * cos hdg - q * cos alpha * sin hdg) * cos hdg + (- p * sin alpha * sin hdg + q * cos alpha * cos hdg) * sin hdg)) by ring. rewrite E, F. ring. }
  assert (G2 : q * cos alpha * (cos hdg * cos hdg + sin hdg * sin hdg) = 0).
  { replace (q * cos alpha * (cos hdg * cos hdg + sin hdg * sin hdg)) with
      ((- p * sin alpha * sin hdg + q * cos alpha * cos hdg) * cos hdg - (- p * sin alpha * cos hdg - q * cos alpha * sin hdg) * sin hdg) by ring. rewrite E, F. ring. }
  rewrite C2, Rmult_1_r in G1, G2. apply Rmult_integral in G1. apply Rmult_integral in G2. destruct G1 as [|G1]; [contradiction|]. destruct G2 as [|G2]; [contradiction|].
  rewrite G1, G2 in C1. lra.
Qed.

Lemma tang_angle : forall p q alpha hdg, p <> 0 -> q <> 0 -> exists L, 0 < L /\
  fst (tang p q alpha hdg) = - L * cos (angleTangentEllipse p q alpha hdg) /\ snd (tang p q alpha hdg) = - L * sin (angleTangentEllipse p q alpha hdg).
Proof.
  intros p q alpha hdg P Q. destruct (tang_not_0 p q alpha hdg P Q) as [N|N].
  all: unfold angleTangentEllipse; set (y := p * sin alpha * sin hdg - q * cos alpha * cos hdg); set (x := p * sin alpha * cos hdg + q * cos alpha * sin hdg).
  all: assert (X : fst (tang p q alpha hdg) = - x) by (unfold tang, x; cbn [fst]; ring); assert (Y : snd (tang p q alpha hdg) = - y) by (unfold tang, y; cbn [snd]; ring).
  all: assert (NN : x <> 0 \/ y <> 0) by lra.
  all: destruct (atan2_spec x y NN) as (_ & C & S & L); exists (sqrt (x * x + y * y)); rewrite X, Y, C, S; repeat split; [exact L|field; lra|field; lra].
Qed.

Lemma param_deriv : forall alpha h k p q hdg, derivable_pt_lim (fun t => fst (paramEllipse t h k p q hdg)) alpha (fst (tang p q alpha hdg)) /\
  derivable_pt_lim (fun t => snd (paramEllipse t h k p q hdg)) alpha (snd (tang p q alpha hdg)).
Proof.
  assert (G : forall alpha e f g, derivable_pt_lim (fun t => e * cos t + f * sin t + g) alpha (- e * sin alpha + f * cos alpha)).
  { intros. replace (- e * sin alpha + f * cos alpha) with (e * - sin alpha + f * cos alpha + 0) by ring.
    apply derivable_pt_lim_plus; [apply derivable_pt_lim_plus|apply derivable_pt_lim_const].
    - apply (derivable_pt_lim_scal cos e alpha (- sin alpha)). apply derivable_pt_lim_cos.
    - apply (derivable_pt_lim_scal sin f alpha (cos alpha)). apply derivable_pt_lim_sin. }
  assert (X : forall f g x l, (forall t, f t = g t) -> derivable_pt_lim f x l -> derivable_pt_lim g x l).
  { intros f g x l E D eps P. destruct (D eps P) as (dl & H). exists dl. intros t NZ B. rewrite <- !E. now apply H. }
  intros. unfold tang. cbn [fst snd]. split.
  - apply (X (fun t => (p * cos hdg) * cos t + (- q * sin hdg) * sin t + h)); [intros t; unfold paramEllipse; cbn [fst]; ring|].
    replace (- p * sin alpha * cos hdg - q * cos alpha * sin hdg) with (- (p * cos hdg) * sin alpha + (- q * sin hdg) * cos alpha) by ring. apply G.
  - apply (X (fun t => (p * sin hdg) * cos t + (q * cos hdg) * sin t + k)); [intros t; unfold paramEllipse; cbn [snd]; ring|].
    replace (- p * sin alpha * sin hdg + q * cos alpha * cos hdg) with (- (p * sin hdg) * sin alpha + (q * cos hdg) * cos alpha) by ring. apply G.
Qed.

(** ** Tangents *)

Lemma tangents_meet : forall p0 s0 t0 p1 s1 t1, PI / 180 < Rabs (t1 - t0) -> sin (t1 - t0) <> 0 ->
  exists x y e f, tangentIntersection p0 s0 t0 p1 s1 t1 = Some (x, y) /\ x = fst p0 + e * cos t0 /\ y = snd p0 + e * sin t0 /\ x = fst p1 + f * cos t1 /\ y = snd p1 + f * sin t1.
Proof.
  intros p0 s0 t0 p1 s1 t1 B N. unfold tangentIntersection. rewrite (proj2 (Rltb_true _ _) B).
  assert (D : cos t1 * sin t0 - cos t0 * sin t1 = - sin (t1 - t0)) by (rewrite sin_minus; ring).
  assert (NZ : cos t1 * sin t0 - cos t0 * sin t1 <> 0) by lra. rewrite div_some by exact NZ.
  set (dx := fst p1 - fst p0). set (dy := snd p1 - snd p0). set (w := cos t1 * sin t0 - cos t0 * sin t1) in *.
  exists (fst p0 + (dy * cos t1 - dx * sin t1) / w * cos t0), (snd p0 + (dy * cos t1 - dx * sin t1) / w * sin t0), ((dy * cos t1 - dx * sin t1) / w), ((dy * cos t0 - dx * sin t0) / w).
  split; [reflexivity|]. split; [reflexivity|]. split; [reflexivity|].
  split; apply (Rmult_eq_reg_r w); try exact NZ; unfold Rdiv.
  - replace ((fst p0 + (dy * cos t1 - dx * sin t1) * / w * cos t0) * w) with (fst p0 * w + (dy * cos t1 - dx * sin t1) * cos t0 * (/ w * w)) by ring.
    replace ((fst p1 + (dy * cos t0 - dx * sin t0) * / w * cos t1) * w) with (fst p1 * w + (dy * cos t0 - dx * sin t0) * cos t1 * (/ w * w)) by ring.
    rewrite Rinv_l by exact NZ. unfold w, dx, dy. ring.
  - replace ((snd p0 + (dy * cos t1 - dx * sin t1) * / w * sin t0) * w) with (snd p0 * w + (dy * cos t1 - dx * sin t1) * sin t0 * (/ w * w)) by ring.
    replace ((snd p1 + (dy * cos t0 - dx * sin t0) * / w * sin t1) * w) with (snd p1 * w + (dy * cos t0 - dx * sin t0) * sin t1 * (/ w * w)) by ring.
    rewrite Rinv_l by exact NZ. unfold w, dx, dy. ring.
Qed.

(** Two tangents of the ellipse less than half a turn apart. *)
Lemma tang_cross : forall p q a0 a1 hdg, fst (tang p q a1 hdg) * snd (tang p q a0 hdg) - fst (tang p q a0 hdg) * snd (tang p q a1 hdg) = - (p * q * sin (a1 - a0)).
Proof.
  intros. unfold tang. cbn [fst snd]. rewrite sin_minus. pose proof (cs1 hdg) as C.
  transitivity (- (p * q * (sin a1 * cos a0 - cos a1 * sin a0)) * (cos hdg * cos hdg + sin hdg * sin hdg)); [ring|rewrite C; ring].
Qed.

Lemma ellipse_tangents : forall p q h k hdg a0 a1, 0 < p -> 0 < q -> 0 < a1 - a0 < PI ->
  let t0 := angleTangentEllipse p q a0 hdg in let t1 := angleTangentEllipse p q a1 hdg in let m := (a0 + a1) / 2 in let e := cos ((a1 - a0) / 2) in
  PI / 180 < Rabs (t1 - t0) ->
  tangentIntersection (paramEllipse a0 h k p q hdg) a0 t0 (paramEllipse a1 h k p q hdg) a1 t1 = Some (at_axes h k hdg (p * (cos m / e)) (q * (sin m / e))).
Proof.
  intros p q h k hdg a0 a1 P Q D t0 t1 m e B. unfold tangentIntersection. rewrite (proj2 (Rltb_true _ _) B).
  destruct (tang_angle p q a0 hdg ltac:(lra) ltac:(lra)) as (L0 & P0 & X0 & Y0). destruct (tang_angle p q a1 hdg ltac:(lra) ltac:(lra)) as (L1 & P1 & X1 & Y1). fold t0 in X0, Y0. fold t1 in X1, Y1.
  assert (SD : 0 < sin (a1 - a0)) by (apply sin_gt_0; lra).
  pose proof (tang_cross p q a0 a1 hdg) as CR. rewrite X0, X1, Y0, Y1 in CR.
  assert (NZ : cos t1 * sin t0 - cos t0 * sin t1 <> 0).
  { intros E. assert (L0 * L1 * (cos t1 * sin t0 - cos t0 * sin t1) = 0) by (rewrite E; ring). assert (0 < p * q * sin (a1 - a0)) by (repeat apply Rmult_lt_0_compat; lra). nra. }
  rewrite div_some by exact NZ.
  set (H := (a1 - a0) / 2). assert (EP : 0 < e) by (apply cos_gt_0; unfold H in *; pose proof PI_RGT_0; lra).
  assert (A0 : a0 = m - H) by (unfold m, H; lra). assert (A1 : a1 = m + H) by (unfold m, H; lra).
  set (lam := sin H / e).
  assert (C0 : cos a0 - lam * sin a0 = cos m / e).
  { unfold lam. apply (Rmult_eq_reg_r e); [|lra]. field_simplify; [|lra..]. replace (cos m) with (cos (a0 + H)) by (f_equal; lra). rewrite cos_plus. unfold e. fold H. ring. }
  assert (S0 : sin a0 + lam * cos a0 = sin m / e).
  { unfold lam. apply (Rmult_eq_reg_r e); [|lra]. field_simplify; [|lra..]. replace (sin m) with (sin (a0 + H)) by (f_equal; lra). rewrite sin_plus. unfold e. fold H. ring. }
  assert (C1 : cos a1 + lam * sin a1 = cos m / e).
  { unfold lam. apply (Rmult_eq_reg_r e); [|lra]. field_simplify; [|lra..]. replace (cos m) with (cos (a1 - H)) by (f_equal; lra). rewrite cos_minus. unfold e. fold H. ring. }
  assert (S1 : sin a1 - lam * cos a1 = sin m / e).
  { unfold lam. apply (Rmult_eq_reg_r e); [|lra]. field_simplify; [|lra..]. replace (sin m) with (sin (a1 - H)) by (f_equal; lra). rewrite sin_minus. unfold e. fold H. ring. }
  set (dx := fst (paramEllipse a1 h k p q hdg) - fst (paramEllipse a0 h k p q hdg)). set (dy := snd (paramEllipse a1 h k p q hdg) - snd (paramEllipse a0 h k p q hdg)).
  assert (DC : cos a1 - cos a0 = - lam * (sin a0 + sin a1)) by lra. assert (DS : sin a1 - sin a0 = lam * (cos a0 + cos a1)) by lra.
  assert (DX : dx = lam * (fst (tang p q a0 hdg) + fst (tang p q a1 hdg))).
  { unfold dx, paramEllipse, tang. cbn [fst]. transitivity (p * cos hdg * (cos a1 - cos a0) - q * sin hdg * (sin a1 - sin a0)); [ring|]. rewrite DC, DS. ring. }
  assert (DY : dy = lam * (snd (tang p q a0 hdg) + snd (tang p q a1 hdg))).
  { unfold dy, paramEllipse, tang. cbn [snd]. transitivity (p * sin hdg * (cos a1 - cos a0) + q * cos hdg * (sin a1 - sin a0)); [ring|]. rewrite DC, DS. ring. }
  rewrite X0, X1 in DX. rewrite Y0, Y1 in DY.
  assert (SV : (dy * cos t1 - dx * sin t1) / (cos t1 * sin t0 - cos t0 * sin t1) = - L0 * lam).
  { apply (Rmult_eq_reg_r (cos t1 * sin t0 - cos t0 * sin t1)); [|exact NZ]. unfold Rdiv. rewrite Rmult_assoc, Rinv_l by exact NZ. rewrite DX, DY. ring. }
  rewrite SV. f_equal. unfold at_axes. rewrite <- C0, <- S0. f_equal.
  - replace (- L0 * lam * cos t0) with (lam * (- L0 * cos t0)) by ring. rewrite <- X0. unfold paramEllipse, tang. cbn [fst]. ring.
  - replace (- L0 * lam * sin t0) with (lam * (- L0 * sin t0)) by ring. rewrite <- Y0. unfold paramEllipse, tang. cbn [snd]. ring.
Qed.

(** The arc is in the triangle. *)
Lemma arc_within : forall p q h k hdg a0 a1 al, 0 < a1 - a0 < PI -> a0 <= al <= a1 ->
  let m := (a0 + a1) / 2 in let e := cos ((a1 - a0) / 2) in
  within (paramEllipse al h k p q hdg) (paramEllipse a0 h k p q hdg) (paramEllipse a1 h k p q hdg) (at_axes h k hdg (p * (cos m / e)) (q * (sin m / e))).
Proof.
  intros p q h k hdg a0 a1 al D A m e. set (H := (a1 - a0) / 2). set (be := al - m). pose proof PI_RGT_0 as PP.
  assert (EP : 0 < e) by (apply cos_gt_0; lra). assert (SP : 0 < sin H) by (apply sin_gt_0; unfold H; lra).
  assert (BB : - H <= be <= H) by (unfold H, be, m; lra).
  assert (CB : e <= cos be).
  { unfold e. fold H. destruct (Rle_dec 0 be).
    - apply cos_decr_1; unfold H in *; lra.
    - rewrite <- (cos_neg be). apply cos_decr_1; unfold H in *; lra. }
  pose proof (cs1 H) as CH. change (cos H) with e in CH. pose proof (cs1 be) as CE.
  assert (U1 : 0 <= 1 - (cos be * e + sin be * sin H)) by (unfold e; fold H; rewrite <- cos_minus; pose proof (COS_bound (be - H)); lra).
  assert (U2 : 0 <= 1 - (cos be * e - sin be * sin H)) by (unfold e; fold H; rewrite <- cos_plus; pose proof (COS_bound (be + H)); lra).
  set (s := sin H) in *. set (w := (cos be - e) * e / (s * s)). set (r := sin be / s).
  assert (W : 0 <= w) by (unfold w; apply Rmult_le_pos; [nra|left; apply Rinv_0_lt_compat; nra]).
  assert (W1 : s * s * w = (cos be - e) * e) by (unfold w; field; lra). assert (R1 : s * r = sin be) by (unfold r; field; lra).
  assert (V1 : 0 <= (1 - w - r) / 2).
  { assert (0 <= s * s * (1 - w - r)). { replace (s * s * (1 - w - r)) with (s * s - s * s * w - s * (s * r)) by ring. rewrite W1, R1. nra. } assert (G : 0 <= 1 - w - r) by (apply (Rmult_le_reg_l (s * s)); [nra|lra]). lra. }
  assert (V2 : 0 <= (1 - w + r) / 2).
  { assert (0 <= s * s * (1 - w + r)). { replace (s * s * (1 - w + r)) with (s * s - s * s * w + s * (s * r)) by ring. rewrite W1, R1. nra. } assert (G : 0 <= 1 - w + r) by (apply (Rmult_le_reg_l (s * s)); [nra|lra]). lra. }
  assert (K : e * (1 - w) + w / e = cos be).
  { apply (Rmult_eq_reg_r e); [|lra]. replace ((e * (1 - w) + w / e) * e) with (e * e + w * (1 - e * e)) by (field; lra). replace (1 - e * e) with (s * s) by lra. lra. }
  assert (T : forall x y, x * cos al + y * sin al = (1 - w - r) / 2 * (x * cos a0 + y * sin a0) + (1 - w + r) / 2 * (x * cos a1 + y * sin a1) + w * (x * (cos m / e) + y * (sin m / e))).
  { intros x y. replace al with (m + be) by (unfold be; lra). replace a0 with (m - H) by (unfold m, H; lra). replace a1 with (m + H) by (unfold m, H; lra).
    rewrite !cos_plus, !sin_plus, cos_minus, sin_minus. fold s. change (cos H) with e.
    transitivity (x * (cos m * (e * (1 - w) + w / e) - sin m * (s * r)) + y * (sin m * (e * (1 - w) + w / e) + cos m * (s * r))).
    - rewrite K, R1. ring.
    - field. lra. }
  exists ((1 - w - r) / 2), ((1 - w + r) / 2), w. split; [exact V1|]. split; [exact V2|]. split; [exact W|]. split; [lra|].
  unfold paramEllipse, at_axes. cbn [fst snd]. split.
  - pose proof (T (p * cos hdg) (- q * sin hdg)) as E. transitivity (p * cos hdg * cos al + - q * sin hdg * sin al + h); [ring|]. rewrite E. replace h with (((1 - w - r) / 2 + (1 - w + r) / 2 + w) * h) at 1 by field. ring.
  - pose proof (T (p * sin hdg) (q * cos hdg)) as E. transitivity (p * sin hdg * cos al + q * cos hdg * sin al + k); [ring|]. rewrite E. replace k with (((1 - w - r) / 2 + (1 - w + r) / 2 + w) * k) at 1 by field. ring.
Qed.

(** ** Chains of pieces *)

(** Pieces one after the other, none empty. *)
Fixpoint chain (s e : R) (l : list triangle) : Prop :=
  match l with
  | [] => s = e
  | t :: l => sI t = s /\ s < sF t /\ chain (sF t) e l
  end.

Lemma chain_le : forall l s e, chain s e l -> s <= e.
Proof. induction l as [|t l IH]; cbn [chain]; intros s e C; [lra|]. destruct C as (_ & L & C). apply IH in C. lra. Qed.

Lemma chain_cover : forall l s e x, chain s e l -> s <= x <= e -> s < e -> exists t, In t l /\ sI t <= x <= sF t.
Proof.
  induction l as [|t l IH]; cbn [chain]; intros s e x C B L; [lra|]. destruct C as (E & L1 & C). destruct (Rle_dec x (sF t)) as [H|H].
  - exists t. split; [now left|lra].
  - destruct (IH _ _ x C ltac:(lra)) as (u & I & U); [lra|]. exists u. split; [now right|exact U].
Qed.

(** ** The segments of the ellipse *)

Definition arc_of (p q h k hdg : R) (t : triangle) : Prop :=
  a t = paramEllipse (sI t) h k p q hdg /\ b t = paramEllipse (sF t) h k p q hdg /\ sF t = sI t + PI / 36 /\
  tangentIntersection (a t) (sI t) (angleTangentEllipse p q (sI t) hdg) (b t) (sF t) (angleTangentEllipse p q (sF t) hdg) = Some (c t).

Lemma intersection_some : forall p q h k hdg a0 a1, 0 < p -> 0 < q -> 0 < a1 - a0 < PI ->
  exists r, tangentIntersection (paramEllipse a0 h k p q hdg) a0 (angleTangentEllipse p q a0 hdg) (paramEllipse a1 h k p q hdg) a1 (angleTangentEllipse p q a1 hdg) = Some r.
Proof.
  intros p q h k hdg a0 a1 P Q D. destruct (Rlt_dec (PI / 180) (Rabs (angleTangentEllipse p q a1 hdg - angleTangentEllipse p q a0 hdg))) as [B|B].
  - eexists. apply ellipse_tangents; assumption.
  - unfold tangentIntersection. rewrite (proj2 (Rltb_false _ _)) by lra. eexists. reflexivity.
Qed.

Lemma ellipse_loop_is : forall n fuel p q h k hdg al, 0 < p -> 0 < q -> al = 2 * PI - PI / 72 - INR n * (PI / 36) -> (n <= fuel)%nat ->
  exists l, ellipse_loop fuel p q h k hdg al = Some l /\ length l = n /\ chain al (2 * PI - PI / 72) l /\ Forall (arc_of p q h k hdg) l.
Proof.
  pose proof PI_RGT_0 as PP. induction n as [|n IH]; intros fuel p q h k hdg al P Q E F.
  - cbn [INR] in E. exists []. destruct fuel; cbn [ellipse_loop]; rewrite (proj2 (Rltb_false al (2 * PI - PI / 72))) by lra; repeat split; try constructor; cbn [chain]; lra.
  - rewrite S_INR in E. assert (N0 := pos_INR n). assert (LT : 0 <= INR n * (PI / 36)) by (apply Rmult_le_pos; lra).
    destruct fuel as [|fuel]; [lia|]. cbn [ellipse_loop]. rewrite (proj2 (Rltb_true al (2 * PI - PI / 72))) by lra.
    rewrite (proj2 (Rltb_false (2 * PI - PI / 72) (al + PI / 36))) by lra. cbv zeta.
    destruct (intersection_some p q h k hdg al (al + PI / 36) P Q ltac:(lra)) as (r & R). rewrite R.
    destruct (IH fuel p q h k hdg (al + PI / 36) P Q ltac:(lra) ltac:(lia)) as (l & EL & LL & C & FA). rewrite EL.
    eexists. split; [reflexivity|]. split; [cbn [length]; lia|]. split.
    + cbn [chain sI sF]. repeat split; [lra|exact C].
    + constructor; [|exact FA]. unfold arc_of. cbn [a b c sI sF]. repeat split. exact R.
Qed.

Lemma segments_is : forall fuel p q h k hdg, 0 < p -> 0 < q -> (72 <= fuel)%nat ->
  exists l, createEllipseSegments fuel p q h k hdg = Some l /\ length l = 72%nat /\ chain (- PI / 72) (2 * PI - PI / 72) l /\ Forall (arc_of p q h k hdg) l.
Proof.
  intros fuel p q h k hdg P Q F. unfold createEllipseSegments. apply ellipse_loop_is; try assumption.
  replace (INR 72) with 72 by (simpl; lra). lra.
Qed.

(** ** Straight lines *)

Definition piece_of (g : geometry) (t : triangle) : Prop := a t = fst (g (sI t)) /\ b t = fst (g (sF t)).

Lemma line_loop_is : forall n fuel g sz len s, 0 < sz -> len - s <= INR n * sz -> (n <= fuel)%nat ->
  exists l, line_loop fuel g sz len s = Some l /\ (s < len -> chain s len l) /\ (len <= s -> l = []) /\ Forall (fun t => piece_of g t /\ sF t - sI t <= sz) l.
Proof.
  induction n as [|n IH]; intros fuel g sz len s Z E F.
  - cbn [INR] in E. exists []. destruct fuel; cbn [line_loop]; rewrite (proj2 (Rltb_false s len)) by lra; repeat split; try constructor; lra.
  - destruct fuel as [|fuel]; [lia|]. cbn [line_loop]. rewrite S_INR in E. destruct (Rltb s len) eqn:L.
    + apply Rltb_true in L. cbv zeta. set (e := if Rltb len (s + sz) then len else s + sz).
      assert (B : s < e <= len /\ e <= s + sz /\ (e = len \/ e = s + sz)).
      { unfold e. destruct (Rltb len (s + sz)) eqn:C; [apply Rltb_true in C|apply Rltb_false in C]; repeat split; lra. }
      destruct (IH fuel g sz len e Z) as (l & EL & C & C0 & FA); [|lia|].
      { destruct B as (B1 & B2 & [->| ->]); [|lra]. pose proof (pos_INR n). assert (0 <= INR n * sz) by (apply Rmult_le_pos; lra). lra. }
      rewrite EL. eexists. split; [reflexivity|]. unfold line_triangle. destruct (fst (g s)) as [x0 y0] eqn:G0. destruct (fst (g e)) as [x1 y1] eqn:G1.
      split; [|split; [lra|]].
      * intros _. cbn [chain sI sF]. split; [reflexivity|]. split; [lra|]. destruct (Rle_lt_or_eq_dec e len ltac:(lra)) as [X|X]; [now apply C|]. rewrite C0 by lra. cbn [chain]. lra.
      * constructor; [|exact FA]. unfold piece_of. cbn [a b sI sF]. rewrite G0, G1. repeat split; lra.
    + apply Rltb_false in L. exists []. repeat split; [lra|constructor].
Qed.

Lemma steps_exist : forall x y, 0 < y -> exists n, x <= INR n * y.
Proof.
  intros x y Y. destruct (archimed (x / y)) as (A & _). exists (Z.to_nat (up (x / y))).
  assert (IZR (up (x / y)) <= INR (Z.to_nat (up (x / y)))). { rewrite INR_IZR_INZ. apply IZR_le. lia. }
  apply (Rmult_le_reg_r (/ y)); [now apply Rinv_0_lt_compat|]. rewrite Rmult_assoc, Rinv_r, Rmult_1_r by lra. unfold Rdiv in *. lra.
Qed.

(** ** Curves *)

(** The heading changes at most at the rate [K]. *)
Definition bends (g : geometry) (K : R) : Prop := forall s1 s2, Rabs (snd (g s2) - snd (g s1)) <= K * Rabs (s2 - s1).

Lemma segment_end_is : forall n g mx K s0 s1, bends g K -> 0 < K -> 0 < mx -> s0 < s1 ->
  let e := segment_end n g mx s0 (snd (g s0)) s1 in s0 < e <= s1 /\ (e = s1 \/ mx / K <= e - s0).
Proof.
  induction n as [|n IH]; intros g mx K s0 s1 B K0 M L; cbn [segment_end]; [split; [lra|now left]|].
  destruct (Rltb mx (Rabs (snd (g s1) - snd (g s0)))) eqn:C; [|split; [lra|now left]]. apply Rltb_true in C. cbv zeta. set (D := Rabs (snd (g s1) - snd (g s0))) in *.
  assert (X : s0 < s0 + mx / (D / (s1 - s0)) <= s1 /\ mx / K <= mx / (D / (s1 - s0))).
  { assert (E : mx / (D / (s1 - s0)) = mx / D * (s1 - s0)) by (field; lra). rewrite E.
    assert (D0 : 0 < mx / D) by (apply Rdiv_lt_0_compat; lra). assert (D1 : mx / D < 1) by (apply (Rmult_lt_reg_r D); [lra|]; unfold Rdiv; rewrite Rmult_assoc, Rinv_l by lra; lra).
    pose proof (B s0 s1) as BB. fold D in BB. rewrite (Rabs_pos_eq (s1 - s0)) in BB by lra. repeat split; try nra.
    apply (Rmult_le_reg_r K); [lra|]. replace (mx / K * K) with mx by (field; lra). replace (mx / D * (s1 - s0) * K) with (mx / D * (K * (s1 - s0))) by ring.
    replace mx with (mx / D * D) at 1 by (field; lra). apply Rmult_le_compat_l; lra. }
  destruct (IH g mx K s0 (s0 + mx / (D / (s1 - s0))) B K0 M ltac:(lra)) as (I1 & I2). split; [lra|]. destruct I2 as [I2|I2]; right; lra.
Qed.

Lemma curve_loop_is : forall n fuel g mx K ds len s, bends g K -> 0 < K -> 0 < mx -> 0 < ds -> K * ds < PI -> s <= len -> len - s <= INR n * Rmin ds (mx / K) -> (n <= fuel)%nat ->
  exists l, curve_loop fuel g mx ds len s = Some l /\ chain s len l /\ Forall (fun t => piece_of g t /\ sF t - sI t <= ds) l.
Proof.
  intros n fuel g mx K ds len s B K0 M D KD. revert n s. assert (ST : 0 < Rmin ds (mx / K)) by (apply Rmin_glb_lt; [lra|apply Rdiv_lt_0_compat; lra]).
  induction fuel as [|fuel IH]; intros n s L E F.
  - replace n with 0%nat in E by lia. cbn [INR] in E. exists []. cbn [curve_loop]. rewrite (proj2 (Rltb_false s len)) by lra. repeat split; [cbn [chain]; lra|constructor].
  - cbn [curve_loop]. destruct (Rltb s len) eqn:C; [apply Rltb_true in C|apply Rltb_false in C; exists []; repeat split; [cbn [chain]; lra|constructor]].
    destruct n as [|n]; [cbn [INR] in E; lra|]. rewrite S_INR in E.
    destruct (g s) as [p0 t0] eqn:G0. pose proof (segment_end_is 4 g mx K s (Rmin (s + ds) len) B K0 M) as SE. rewrite G0 in SE. cbn [snd] in SE.
    set (e := segment_end 4 g mx s t0 (Rmin (s + ds) len)) in *.
    assert (MM : s < Rmin (s + ds) len) by (apply Rmin_glb_lt; lra). destruct (SE MM) as (S1 & S2). clear SE.
    pose proof (Rmin_l (s + ds) len) as ML. pose proof (Rmin_r (s + ds) len) as MR.
    destruct (g e) as [p1 t1] eqn:G1.
    assert (SN : exists p2, tangentIntersection p0 s t0 p1 e t1 = Some p2).
    { destruct (Rlt_dec (PI / 180) (Rabs (t1 - t0))) as [H|H].
      - assert (BB : Rabs (t1 - t0) < PI). { pose proof (B s e) as BB. rewrite G0, G1 in BB. cbn [snd] in BB. rewrite (Rabs_pos_eq (e - s)) in BB by lra. assert (K * (e - s) <= K * ds) by (apply Rmult_le_compat_l; lra). lra. }
        assert (NZ : sin (t1 - t0) <> 0).
        { pose proof PI_RGT_0. unfold Rabs in *. destruct (Rcase_abs (t1 - t0)) as [X|X].
          - pose proof (sin_gt_0 (- (t1 - t0)) ltac:(lra) ltac:(lra)) as Y. rewrite sin_neg in Y. lra.
          - pose proof (sin_gt_0 (t1 - t0) ltac:(lra) ltac:(lra)). lra. }
        destruct (tangents_meet p0 s t0 p1 e t1 H NZ) as (x & y & _ & _ & T & _). now exists (x, y).
      - unfold tangentIntersection. rewrite (proj2 (Rltb_false _ _)) by lra. eexists. reflexivity. }
    destruct SN as (p2 & T). rewrite T.
    assert (NX : len - e <= INR n * Rmin ds (mx / K)).
    { pose proof (pos_INR n). assert (0 <= INR n * Rmin ds (mx / K)) by (apply Rmult_le_pos; lra). pose proof (Rmin_l ds (mx / K)). pose proof (Rmin_r ds (mx / K)).
      destruct S2 as [->|S2]; [|lra]. unfold Rmin at 1. destruct (Rle_dec (s + ds) len); lra. }
    destruct (IH n e ltac:(lra) NX ltac:(lia)) as (l & EL & CH & FA). rewrite EL. eexists. split; [reflexivity|]. split.
    + cbn [chain sI sF]. repeat split; [lra|exact CH].
    + constructor; [|exact FA]. unfold piece_of. cbn [a b sI sF]. rewrite G0, G1. repeat split; lra.
Qed.

(** ** Where the ellipse and a road meet *)

(** The ends have values of opposite signs and these are stored. *)
Definition bracket (f : R -> R) (z : brent) : Prop := z_fa z = f (z_a z) /\ z_fb z = f (z_b z) /\ f (z_a z) * f (z_b z) < 0.

Lemma guess_some : forall delta z, z_fa z <> z_fb z -> exists s flag, guess delta z = Some (s, flag).
Proof.
  intros delta [ya yb yc yd fa fb fc flag] N. cbn [z_fa z_fb] in N. unfold guess.
  destruct (negb (eqb fa fc) && negb (eqb fb fc)) eqn:E.
  - apply andb_true_iff in E. destruct E as (E1 & E2). rewrite negb_true_iff in E1, E2. apply eqb_false in E1. apply eqb_false in E2.
    rewrite !div_some by (apply Rmult_integral_contrapositive_currified; lra). match goal with |- context [if ?x then _ else _] => destruct x end; eauto.
  - rewrite div_some by lra. match goal with |- context [if ?x then _ else _] => destruct x end; eauto.
Qed.

Lemma opp_root : forall f x y, continuity f -> f x * f y <= 0 -> exists r, f r = 0 /\ Rmin x y <= r <= Rmax x y.
Proof.
  intros f x y C H. destruct (Rle_dec x y) as [L|L].
  - destruct (IVT_cor f x y C L H) as (r & B & E). exists r. rewrite Rmin_left, Rmax_right by lra. auto.
  - destruct (IVT_cor f y x C ltac:(lra) ltac:(lra)) as (r & B & E). exists r. rewrite Rmin_right, Rmax_left by lra. auto.
Qed.

Lemma turn_bracket : forall f delta z, bracket f z -> exists r, turn f delta z = Some r /\
  match r with inr z => bracket f z | inl s => f s = 0 \/ exists u, f s * f u < 0 /\ Rabs (u - s) <= SMALL_NUMBER end.
Proof.
  intros f delta [ya yb yc yd fa fb fc fl] (E1 & E2 & L). cbn [z_a z_b z_fa z_fb] in *. subst fa fb.
  destruct (guess_some delta (Brent ya yb yc yd (f ya) (f yb) fc fl)) as (s & flag & G); [cbn [z_fa z_fb]; nra|].
  unfold turn. rewrite G.
  assert (X : exists x y, (if Rltb (f ya * f s) 0 then (ya, s) else (s, yb)) = (x, y) /\ (x = s \/ y = s) /\ (f s = 0 \/ f x * f y < 0)).
  { destruct (Rltb (f ya * f s) 0) eqn:C; [apply Rltb_true in C|apply Rltb_false in C].
    - exists ya, s. auto.
    - exists s, yb. split; [reflexivity|]. split; [auto|]. destruct (Req_dec (f s) 0); [now left|right]. clear -C L H. assert (f ya <> 0) by nra. assert (0 < f ya * f s \/ f ya * f s = 0) as [P|P] by lra; [|apply Rmult_integral in P; tauto]. assert (f s * f yb * (f ya * f ya) < 0) by nra. assert (0 < f ya * f ya) by nra. nra. }
  destruct X as (x & y & -> & Q & SG).
  assert (Y : exists u v, (if Rltb (Rabs (f x)) (Rabs (f y)) then (y, x) else (x, y)) = (u, v) /\ (u = s \/ v = s) /\ (f s = 0 \/ f u * f v < 0)).
  { destruct (Rltb (Rabs (f x)) (Rabs (f y))); eexists; eexists; (split; [reflexivity|]); (split; [tauto|]); destruct SG; (left; lra) || (right; lra). }
  destruct Y as (u & v & -> & Q' & SG'). destruct (eqb (f s) 0) eqn:Z; cbn [orb].
  - apply eqb_true in Z. eexists. split; [reflexivity|]. now left.
  - apply eqb_false in Z. destruct SG' as [SG'|SG']; [contradiction|]. destruct (leb (Rabs (v - u)) SMALL_NUMBER) eqn:T.
    + apply leb_true in T. eexists. split; [reflexivity|]. right. destruct Q' as [->| ->].
      * exists v. auto.
      * exists u. rewrite Rabs_minus_sym. split; [lra|exact T].
    + eexists. split; [reflexivity|]. repeat split. exact SG'.
Qed.

Lemma turns_root : forall fuel f delta z s, continuity f -> bracket f z -> turns fuel f delta z = Some s -> exists r, f r = 0 /\ Rabs (r - s) <= SMALL_NUMBER.
Proof.
  induction fuel as [|fuel IH]; cbn [turns]; intros f delta z s C B T; [discriminate|]. destruct (turn_bracket f delta z B) as (r & E & P). rewrite E in T. destruct r as [s'|z'].
  - injection T as <-. destruct P as [P|(u & P & D)].
    + exists s'. split; [exact P|]. replace (s' - s') with 0 by ring. rewrite Rabs_R0. unfold SMALL_NUMBER. lra.
    + destruct (opp_root f s' u C ltac:(lra)) as (r & R & BB). exists r. split; [exact R|]. unfold Rmin, Rmax in BB. unfold Rabs in *. destruct (Rle_dec s' u), (Rcase_abs (u - s')), (Rcase_abs (r - s')); lra.
  - exact (IH _ _ _ _ C P T).
Qed.

Lemma init_bracket : forall f x y, f x * f y < 0 -> Rabs (f y) <= Rabs (f x) -> bracket f (brent_init f x y).
Proof. intros f x y H L. unfold brent_init. rewrite (proj2 (Rltb_false _ _)) by lra. repeat split. exact H. Qed.

Lemma init_lost : forall f delta x y, f x * f y < 0 -> Rabs (f x) < Rabs (f y) -> exists r, turn f delta (brent_init f x y) = Some r /\
  match r with inr z => 0 < f (z_a z) * f (z_b z) | inl s => f s = 0 \/ exists u, 0 < f s * f u /\ Rabs (u - s) <= SMALL_NUMBER end.
Proof.
  intros f delta x y L H. unfold brent_init. rewrite (proj2 (Rltb_true _ _) H).
  destruct (guess_some delta (Brent x y x 0 (f y) (f x) (f x) true)) as (s & flag & G); [cbn [z_fa z_fb]; nra|].
  unfold turn. rewrite G.
  assert (X : exists p q, (if Rltb (f y * f s) 0 then (x, s) else (s, y)) = (p, q) /\ (p = s \/ q = s) /\ (f s = 0 \/ 0 < f p * f q)).
  { destruct (Rltb (f y * f s) 0) eqn:C; [apply Rltb_true in C|apply Rltb_false in C].
    - exists x, s. split; [reflexivity|]. split; [auto|]. right. clear -C L. destruct (Rlt_dec 0 (f y)); nra.
    - exists s, y. split; [reflexivity|]. split; [auto|]. destruct (Req_dec (f s) 0); [now left|right]. assert (f y * f s <> 0) by (intros P; apply Rmult_integral in P; destruct P; [nra|contradiction]). lra. }
  destruct X as (p & q & -> & Q & SG).
  assert (Y : exists u v, (if Rltb (Rabs (f p)) (Rabs (f q)) then (q, p) else (p, q)) = (u, v) /\ (u = s \/ v = s) /\ (f s = 0 \/ 0 < f u * f v)).
  { destruct (Rltb (Rabs (f p)) (Rabs (f q))); eexists; eexists; (split; [reflexivity|]); (split; [tauto|]); destruct SG; (left; lra) || (right; lra). }
  destruct Y as (u & v & -> & Q' & SG'). destruct (eqb (f s) 0) eqn:Z; cbn [orb].
  - apply eqb_true in Z. eexists. split; [reflexivity|]. now left.
  - apply eqb_false in Z. destruct SG' as [SG'|SG']; [contradiction|]. destruct (leb (Rabs (v - u)) SMALL_NUMBER) eqn:T.
    + apply leb_true in T. eexists. split; [reflexivity|]. right. destruct Q' as [->| ->].
      * exists v. auto.
      * exists u. rewrite Rabs_minus_sym. split; [lra|exact T].
    + eexists. split; [reflexivity|]. exact SG'.
Qed.

(** Never a root of the identity on [-1, 3]. *)
Lemma turn_id : forall delta d e, 0 < e -> turn (fun x => x) delta (Brent (1 + e) 1 1 d (1 + e) 1 1 true) =
  if leb (e / 2) SMALL_NUMBER then Some (inl (1 + e / 2)) else Some (inr (Brent (1 + e / 2) 1 1 1 (1 + e / 2) 1 1 true)).
Proof.
  intros delta d e E. unfold turn, guess.
  replace (eqb 1 1) with true by (symmetry; now apply eqb_true). rewrite andb_false_r. rewrite div_some by lra.
  replace (1 - 1 * (1 - (1 + e)) / (1 - (1 + e))) with 0 by (field; lra).
  replace (leb (Rabs (1 - 1) / 2) (Rabs (0 - 1))) with true by (symmetry; apply leb_true; replace (1 - 1) with 0 by ring; rewrite Rabs_R0; replace (0 - 1) with (-(1)) by ring; rewrite Rabs_Ropp, Rabs_R1; lra).
  cbn [andb]. rewrite orb_true_r. cbn [orb].
  replace ((1 + e + 1) / 2) with (1 + e / 2) by field.
  rewrite (proj2 (Rltb_false ((1 + e) * (1 + e / 2)) 0)) by nra.
  rewrite (proj2 (Rltb_false (Rabs (1 + e / 2)) (Rabs 1))) by (rewrite !Rabs_pos_eq; lra).
  replace (eqb (1 + e / 2) 0) with false by (symmetry; apply eqb_false; lra). cbn [orb].
  replace (Rabs (1 - (1 + e / 2))) with (e / 2) by (rewrite Rabs_minus_sym, Rabs_pos_eq; lra). destruct (leb (e / 2) SMALL_NUMBER); reflexivity.
Qed.

Lemma turns_id : forall n delta d e, 0 < e -> e <= 2 ^ n * SMALL_NUMBER -> exists s, turns (S n) (fun x => x) delta (Brent (1 + e) 1 1 d (1 + e) 1 1 true) = Some s /\ 1 <= s.
Proof.
  induction n as [|n IH]; intros delta d e E B.
  - cbn [turns]. rewrite turn_id by exact E. simpl pow in B. rewrite (proj2 (leb_true _ _)) by lra. eexists. split; [reflexivity|lra].
  - cbn [turns]. rewrite turn_id by exact E. destruct (leb (e / 2) SMALL_NUMBER); [eexists; split; [reflexivity|lra]|]. apply IH; [lra|]. cbn [pow] in B. lra.
Qed.

Lemma brent_id : forall delta, exists s, brent_zeros 25 (fun x => x) delta (-1) 3 = Some (Some s) /\ 1 <= s.
Proof.
  intros delta. unfold brent_zeros. rewrite (proj2 (leb_false 0 (-1 * 3))) by lra. unfold brent_init.
  assert (A1 : Rabs (-1) = 1) by (rewrite Rabs_left; lra). assert (A3 : Rabs 3 = 3) by (rewrite Rabs_pos_eq; lra).
  rewrite A1, A3, (proj2 (Rltb_true 1 3)) by lra.
  assert (T1 : turn (fun x => x) delta (Brent (-1) 3 (-1) 0 3 (-1) (-1) true) = Some (inr (Brent 3 1 3 (-1) 3 1 3 true))).
  { unfold turn, guess. replace (eqb (-1) (-1)) with true by (symmetry; now apply eqb_true). rewrite andb_false_r. rewrite div_some by lra.
    replace (3 - -1 * (3 - -1) / (-1 - 3)) with 2 by field.
    rewrite (proj2 (leb_true ((3 * -1 + 3) / 4) 2)), (proj2 (leb_true 2 3)) by lra. cbn [andb orb].
    replace ((-1 + 3) / 2) with 1 by field. rewrite (proj2 (Rltb_false (3 * 1) 0)) by lra. rewrite Rabs_R1, A3, (proj2 (Rltb_true 1 3)) by lra.
    replace (eqb 1 0) with false by (symmetry; apply eqb_false; lra). cbn [orb]. rewrite (proj2 (leb_false _ _)); [reflexivity|]. unfold SMALL_NUMBER. replace (1 - 3) with (-(2)) by ring. rewrite Rabs_Ropp, Rabs_pos_eq; lra. }
  assert (T2 : turn (fun x => x) delta (Brent 3 1 3 (-1) 3 1 3 true) = Some (inr (Brent (1 + 1) 1 1 3 (1 + 1) 1 1 true))).
  { unfold turn, guess. replace (eqb 3 3) with true by (symmetry; now apply eqb_true). cbn [negb andb]. rewrite div_some by lra.
    replace (1 - 1 * (1 - 3) / (1 - 3)) with 0 by field.
    rewrite (proj2 (leb_true (Rabs (1 - 3) / 2) (Rabs (0 - 1)))) by (replace (1 - 3) with (-(2)) by ring; replace (0 - 1) with (-(1)) by ring; rewrite !Rabs_Ropp, !Rabs_pos_eq; lra).
    cbn [andb]. rewrite orb_true_r. cbn [orb]. replace ((3 + 1) / 2) with 2 by field. rewrite (proj2 (Rltb_false (3 * 2) 0)) by lra.
    rewrite (proj2 (Rltb_false (Rabs 2) (Rabs 1))) by (rewrite !Rabs_pos_eq; lra). replace (eqb 2 0) with false by (symmetry; apply eqb_false; lra). cbn [orb].
    rewrite (proj2 (leb_false _ _)) by (unfold SMALL_NUMBER; replace (1 - 2) with (-(1)) by ring; rewrite Rabs_Ropp, Rabs_R1; lra). replace (1 + 1) with 2 by ring. reflexivity. }
  change 25%nat with (S (S (S 22))). remember 22%nat as n. cbn [turns]. rewrite T1, T2.
  destruct (turns_id n delta 3 1 ltac:(lra)) as (s & TS & L); [subst n; unfold SMALL_NUMBER; simpl; lra|]. cbn [turns] in TS. rewrite TS. eauto.
Qed.

(** ** The range *)

Lemma in_range_is : forall t p, in_range t p = true <->
  Rmin (fst (a t)) (fst (b t)) <= fst p <= Rmax (fst (a t)) (fst (b t)) /\ Rmin (snd (a t)) (snd (b t)) <= snd p <= Rmax (snd (a t)) (snd (b t)).
Proof.
  intros t p. unfold in_range.
  assert (X : forall x y, (if Rltb y x then (y, x) else (x, y)) = (Rmin x y, Rmax x y)).
  { intros x y. destruct (Rltb y x) eqn:E; [apply Rltb_true in E; rewrite Rmin_right, Rmax_left by lra; reflexivity|apply Rltb_false in E; rewrite Rmin_left, Rmax_right by lra; reflexivity]. }
  rewrite !X, !andb_true_iff, !leb_true. tauto.
Qed.

Lemma erase_filter : forall t l, erase_out t l = filter (in_range t) l.
Proof. induction l as [|p l IH]; cbn [erase_out filter]; [reflexivity|]. destruct (in_range t p); cbn [negb]; rewrite IH; reflexivity. Qed.
