(** * C66: where swarm traffic appears *)
From Coq Require Import Reals Bool List Arith Lia Lra Psatz.
From Verif Require Import AngModel AngProofs TriModel TriProofs SwmModel SwmProofs.
Import ListNotations.
Open Scope R_scope.

(** The value for a point u along the major and v along the minor axis: negative inside, 0 on and positive outside of the ellipse. *)
Theorem C66_ellipse : forall h k A p q u v, ellipse h k A p q (h + u * cos A - v * sin A) (k + u * sin A + v * cos A) = (u / p) ^ 2 + (v / q) ^ 2 - 1.
Proof. intros. apply ellipse_axes. Qed.
Example C66_ellipse_ex : ellipse 10 20 0 4 2 10 20 = -1 /\ ellipse 10 20 0 4 2 14 20 = 0 /\ ellipse 10 20 0 4 2 10 24 = 3.
Proof. unfold ellipse. rewrite cos_0, sin_0. repeat split; field. Qed.

(** The points of the parameter are those of the ellipse. *)
Theorem C66_param : forall h k A p q x y, p <> 0 -> q <> 0 -> (ellipse h k A p q x y = 0 <-> exists alpha, paramEllipse alpha h k p q A = (x, y)).
Proof.
  intros h k A p q x y P Q. destruct (axes_of h k A x y) as (u & v & E).
  assert (V : ellipse h k A p q x y = (u / p) ^ 2 + (v / q) ^ 2 - 1). { pose proof (ellipse_axes h k A p q u v) as V. rewrite E in V. exact V. }
  split.
  - intros Z. rewrite V in Z. destruct (circle_angle (u / p) (v / q)) as (al & C & S); [lra|]. exists al. rewrite param_axes, <- C, <- S, <- E. f_equal; field; assumption.
  - intros (al & PE). rewrite param_axes in PE. pose proof (ellipse_axes h k A p q (p * cos al) (q * sin al)) as W. rewrite PE in W. cbn [fst snd] in W. rewrite W.
    replace (p * cos al / p) with (cos al) by (field; assumption). replace (q * sin al / q) with (sin al) by (field; assumption). pose proof (cs1 al). lra.
Qed.
Example C66_param_ex : paramEllipse 0 10 20 4 2 0 = (14, 20) /\ paramEllipse (PI / 2) 10 20 4 2 0 = (10, 22).
Proof. unfold paramEllipse. rewrite cos_0, sin_0, cos_PI2, sin_PI2. split; f_equal; ring. Qed.

(** The angle is that of the tangent, against the direction of growing parameter. *)
Theorem C66_tangent : forall alpha h k p q hdg, p <> 0 -> q <> 0 -> exists r, 0 < r /\
  derivable_pt_lim (fun t => fst (paramEllipse t h k p q hdg)) alpha (- r * cos (angleTangentEllipse p q alpha hdg)) /\
  derivable_pt_lim (fun t => snd (paramEllipse t h k p q hdg)) alpha (- r * sin (angleTangentEllipse p q alpha hdg)).
Proof.
  intros alpha h k p q hdg P Q. destruct (tang_angle p q alpha hdg P Q) as (L & L0 & X & Y). exists L. rewrite <- X, <- Y. split; [exact L0|]. apply param_deriv.
Qed.
Example C66_tangent_ex : angleTangentEllipse 4 2 0 0 = - (PI / 2) /\ angleTangentEllipse 4 2 (PI / 2) 0 = 0.
Proof.
  unfold angleTangentEllipse, atan2. rewrite cos_0, sin_0, cos_PI2, sin_PI2. split.
  - rewrite (proj2 (Rltb_false 0 _)), (proj2 (Rltb_false _ 0)), (proj2 (Rltb_false 0 _)), (proj2 (Rltb_true _ 0)) by lra. reflexivity.
  - rewrite (proj2 (Rltb_true 0 _)) by lra. replace ((4 * 1 * 0 - 2 * 0 * 1) / (4 * 1 * 1 + 2 * 0 * 0)) with 0 by field. apply atan_0.
Qed.

(** Two tangents more than one degree apart: the point is on both lines. *)
Theorem C66_meet : forall p0 s0 t0 p1 s1 t1, PI / 180 < Rabs (t1 - t0) -> sin (t1 - t0) <> 0 ->
  exists x y e f, tangentIntersection p0 s0 t0 p1 s1 t1 = Some (x, y) /\ x = fst p0 + e * cos t0 /\ y = snd p0 + e * sin t0 /\ x = fst p1 + f * cos t1 /\ y = snd p1 + f * sin t1.
Proof. apply tangents_meet. Qed.
Example C66_meet_ex : tangentIntersection (0, 0) 0 0 (3, 4) 7 (PI / 2) = Some (3, 0).
Proof.
  unfold tangentIntersection. cbn [fst snd]. rewrite cos_0, sin_0, cos_PI2, sin_PI2. pose proof PI_RGT_0.
  rewrite (proj2 (Rltb_true _ _)) by (rewrite Rabs_pos_eq; lra). rewrite div_some by lra. f_equal. f_equal; field.
Qed.

(** Within one degree the point is on the first tangent, in the distance of the parameters. *)
Theorem C66_near : forall p0 s0 t0 p1 s1 t1, Rabs (t1 - t0) <= PI / 180 ->
  tangentIntersection p0 s0 t0 p1 s1 t1 = Some (fst p0 + (s1 - s0) * cos t0, snd p0 + (s1 - s0) * sin t0).
Proof. intros. unfold tangentIntersection. rewrite (proj2 (Rltb_false _ _)) by lra. reflexivity. Qed.
Example C66_near_ex : tangentIntersection (1, 2) 3 0 (5, 2) 7 0 = Some (5, 2).
Proof. rewrite C66_near by (pose proof PI_RGT_0; replace (0 - 0) with 0 by ring; rewrite Rabs_R0; lra). rewrite cos_0, sin_0. cbn [fst snd]. f_equal. f_equal; ring. Qed.

(** The whole arc is inside of the triangle of its ends and of where their tangents meet, if these are more than a degree apart. *)
Theorem C66_arc : forall p q h k hdg a0 a1, 0 < p -> 0 < q -> 0 < a1 - a0 < PI ->
  PI / 180 < Rabs (angleTangentEllipse p q a1 hdg - angleTangentEllipse p q a0 hdg) ->
  exists r, tangentIntersection (paramEllipse a0 h k p q hdg) a0 (angleTangentEllipse p q a0 hdg) (paramEllipse a1 h k p q hdg) a1 (angleTangentEllipse p q a1 hdg) = Some r /\
  forall al, a0 <= al <= a1 -> within (paramEllipse al h k p q hdg) (paramEllipse a0 h k p q hdg) (paramEllipse a1 h k p q hdg) r.
Proof.
  intros p q h k hdg a0 a1 P Q D B. eexists. split; [now apply ellipse_tangents|]. intros al A. now apply arc_within.
Qed.
(** A quarter of a circle. *)
Example C66_arc_ex : tangentIntersection (paramEllipse 0 0 0 1 1 0) 0 (angleTangentEllipse 1 1 0 0) (paramEllipse (PI / 2) 0 0 1 1 0) (PI / 2) (angleTangentEllipse 1 1 (PI / 2) 0) = Some (1, 1).
Proof.
  assert (T0 : angleTangentEllipse 1 1 0 0 = - (PI / 2)). { unfold angleTangentEllipse, atan2. rewrite cos_0, sin_0. rewrite (proj2 (Rltb_false 0 _)), (proj2 (Rltb_false _ 0)), (proj2 (Rltb_false 0 _)), (proj2 (Rltb_true _ 0)) by lra. reflexivity. }
  assert (T1 : angleTangentEllipse 1 1 (PI / 2) 0 = 0). { unfold angleTangentEllipse, atan2. rewrite cos_0, sin_0, cos_PI2, sin_PI2. rewrite (proj2 (Rltb_true 0 _)) by lra. replace ((1 * 1 * 0 - 1 * 0 * 1) / (1 * 1 * 1 + 1 * 0 * 0)) with 0 by field. apply atan_0. }
  rewrite T0, T1. pose proof PI_RGT_0. unfold tangentIntersection, paramEllipse. cbn [fst snd]. rewrite cos_neg, sin_neg, cos_0, sin_0, cos_PI2, sin_PI2.
  rewrite (proj2 (Rltb_true _ _)) by (rewrite Rabs_pos_eq; lra). rewrite div_some by lra. f_equal. f_equal; field.
Qed.

(** Refuted without that: for a long ellipse the tangents at the ends of the segment at the end of the minor axis are within a degree; the difference of
    the angles is then used as if it were a length, and the end of the axis is outside of the triangle. *)
Theorem C66_arc_refuted : forall p q h k r, 0 < p -> 0 < q -> q * tan (PI / 72) <= p * tan (PI / 360) ->
  let a0 := PI / 2 - PI / 72 in let a1 := PI / 2 + PI / 72 in
  tangentIntersection (paramEllipse a0 h k p q 0) a0 (angleTangentEllipse p q a0 0) (paramEllipse a1 h k p q 0) a1 (angleTangentEllipse p q a1 0) = Some r ->
  ~ within (paramEllipse (PI / 2) h k p q 0) (paramEllipse a0 h k p q 0) (paramEllipse a1 h k p q 0) r.
Proof.
  intros p q h k r P Q T a0 a1 E. pose proof PI_RGT_0 as PP. set (d := PI / 72) in *.
  assert (C0 : cos a0 = sin d) by (unfold a0; rewrite cos_minus, cos_PI2, sin_PI2; ring). assert (S0 : sin a0 = cos d) by (unfold a0; rewrite sin_minus, cos_PI2, sin_PI2; ring).
  assert (C1 : cos a1 = - sin d) by (unfold a1; rewrite cos_plus, cos_PI2, sin_PI2; ring). assert (S1 : sin a1 = cos d) by (unfold a1; rewrite sin_plus, cos_PI2, sin_PI2; ring).
  assert (SD : 0 < sin d) by (apply sin_gt_0; unfold d; lra). assert (CD : 0 < cos d) by (apply cos_gt_0; unfold d; lra).
  assert (CL : cos d < 1) by (rewrite <- cos_0; apply cos_decreasing_1; unfold d; lra).
  set (z := q * tan d / p). assert (TD : 0 < tan d) by (apply Rdiv_lt_0_compat; assumption).
  assert (ZP : 0 < z) by (unfold z; apply Rdiv_lt_0_compat; [apply Rmult_lt_0_compat|]; assumption).
  assert (Z : z <= tan (PI / 360)). { apply (Rmult_le_reg_r p); [exact P|]. unfold z. replace (q * tan d / p * p) with (q * tan d) by (field; lra). lra. }
  assert (AT : 0 < atan z <= PI / 360).
  { split; [rewrite <- atan_0; now apply atan_increasing|]. rewrite <- (atan_tan (PI / 360)) by lra. destruct Z as [Z|Z]; [left; now apply atan_increasing|rewrite Z; lra]. }
  assert (T0 : angleTangentEllipse p q a0 0 = - atan z).
  { unfold angleTangentEllipse, atan2. rewrite cos_0, sin_0, C0, S0. assert (0 < p * cos d) by (apply Rmult_lt_0_compat; assumption). rewrite (proj2 (Rltb_true 0 _)) by lra. rewrite <- atan_opp. f_equal. unfold z, tan. field. lra. }
  assert (T1 : angleTangentEllipse p q a1 0 = atan z).
  { unfold angleTangentEllipse, atan2. rewrite cos_0, sin_0, C1, S1. assert (0 < p * cos d) by (apply Rmult_lt_0_compat; assumption). rewrite (proj2 (Rltb_true 0 _)) by lra. f_equal. unfold z, tan. field. lra. }
  rewrite C66_near in E by (rewrite T0, T1, Rabs_pos_eq; lra). injection E as <-. rewrite T0, cos_neg, sin_neg.
  assert (SA : 0 < sin (atan z)) by (apply sin_gt_0; lra).
  intros (u & v & w & U & V & W & SM & _ & Y). unfold paramEllipse in Y. cbn [fst snd] in Y. rewrite cos_0, sin_0, C0, C1, S0, S1, cos_PI2, sin_PI2 in Y.
  assert (LN : 0 < (a1 - a0) * sin (atan z)) by (apply Rmult_lt_0_compat; [unfold a0, a1, d; lra|exact SA]).
  assert (QQ : q * cos d < q) by nra. assert (WW : 0 <= w * ((a1 - a0) * sin (atan z))) by (apply Rmult_le_pos; lra).
  assert (Y' : q + k = (u + v + w) * (q * cos d + k) - w * ((a1 - a0) * sin (atan z))) by lra. rewrite SM in Y'. lra.
Qed.
Example C66_arc_refuted_ex : exists p q, 0 < p /\ 0 < q /\ q * tan (PI / 72) <= p * tan (PI / 360).
Proof. pose proof PI_RGT_0. exists (tan (PI / 72)), (tan (PI / 360)). split; [apply tan_gt_0; lra|]. split; [apply tan_gt_0; lra|lra]. Qed.

(** The ellipse gets 72 triangles, one after the other all around, each with the ends of its arc as corners. *)
Theorem C66_segments : forall fuel p q h k hdg, 0 < p -> 0 < q -> (72 <= fuel)%nat -> exists l, createEllipseSegments fuel p q h k hdg = Some l /\ length l = 72%nat /\
  chain (- PI / 72) (2 * PI - PI / 72) l /\
  Forall (fun t => a t = paramEllipse (sI t) h k p q hdg /\ b t = paramEllipse (sF t) h k p q hdg /\ sF t = sI t + PI / 36) l /\
  forall x, exists t alpha, In t l /\ sI t <= alpha <= sF t /\ paramEllipse alpha h k p q hdg = paramEllipse x h k p q hdg.
Proof.
  intros fuel p q h k hdg P Q F. destruct (segments_is fuel p q h k hdg P Q F) as (l & E & L & C & A). exists l. split; [exact E|]. split; [exact L|]. split; [exact C|]. split.
  - eapply Forall_impl; [|exact A]. intros t (A1 & A2 & A3 & _). auto.
  - intros x. pose proof PI_RGT_0 as PP. set (s := - PI / 72).
    destruct (archimed ((x - s) / (2 * PI))) as (U1 & U2). set (n := (up ((x - s) / (2 * PI)) - 1)%Z).
    assert (B : 0 <= (x - s) / (2 * PI) - IZR n <= 1) by (unfold n; rewrite minus_IZR; lra).
    assert (B' : s <= x - 2 * IZR n * PI <= s + 2 * PI).
    { replace (x - 2 * IZR n * PI) with (s + ((x - s) / (2 * PI) - IZR n) * (2 * PI)) by (field; lra). nra. }
    destruct (chain_cover l s (2 * PI - PI / 72) (x - 2 * IZR n * PI) C) as (t & I & T); [unfold s in *; lra|unfold s; lra|].
    exists t, (x - 2 * IZR n * PI). split; [exact I|]. split; [exact T|].
    assert (CS : forall (m : nat) y, cos (y + 2 * INR m * PI) = cos y /\ sin (y + 2 * INR m * PI) = sin y) by (intros; split; [apply cos_period|apply sin_period]).
    assert (CZ : cos (x - 2 * IZR n * PI) = cos x /\ sin (x - 2 * IZR n * PI) = sin x).
    { destruct (Z_le_dec 0 n) as [N|N].
      - destruct (CS (Z.to_nat n) (x - 2 * IZR n * PI)) as (X1 & X2). rewrite INR_IZR_INZ, Z2Nat.id in X1, X2 by exact N. replace (x - 2 * IZR n * PI + 2 * IZR n * PI) with x in X1, X2 by ring. split; congruence.
      - destruct (CS (Z.to_nat (- n)) x) as (X1 & X2). rewrite INR_IZR_INZ, Z2Nat.id, opp_IZR in X1, X2 by lia. replace (x + 2 * - IZR n * PI) with (x - 2 * IZR n * PI) in X1, X2 by ring. auto. }
    destruct CZ as (CZ & SZ). unfold paramEllipse. rewrite CZ, SZ. reflexivity.
Qed.
Example C66_segments_ex : exists l, createEllipseSegments 100 4 2 10 20 0 = Some l /\ length l = 72%nat.
Proof. destruct (C66_segments 100 4 2 10 20 0) as (l & E & L & _); [lra|lra|lia|]. now exists l. Qed.

(** A straight line is divided from its place along the road to its length, in pieces of at most the given size. *)
Theorem C66_line : forall g s len size, 0 < size -> exists l, (exists n, forall fuel, (n <= fuel)%nat -> road_segments fuel LINE g s len size = Some l) /\
  (s < len -> chain s len l) /\ Forall (fun t => a t = fst (g (sI t)) /\ b t = fst (g (sF t)) /\ sF t - sI t <= size) l.
Proof.
  intros g s len size Z. destruct (steps_exist (len - s) size Z) as (n & N). destruct (line_loop_is n n g size len s Z N (Nat.le_refl n)) as (l & E & C & _ & F).
  exists l. split.
  - exists n. intros fuel L. cbn [road_segments].
    destruct (line_loop_is n fuel g size len s Z N L) as (l' & E' & _). rewrite E'. f_equal.
    assert (M : forall n m g sz len s l, (n <= m)%nat -> line_loop n g sz len s = Some l -> line_loop m g sz len s = Some l).
    { clear. induction n as [|n IH]; intros m g sz len s l LE; destruct m as [|m]; try lia; cbn [line_loop]; destruct (Rltb s len); auto; try discriminate.
      intros H. match type of H with match ?x with _ => _ end = _ => destruct x as [r|] eqn:R; [|discriminate] end. apply IH with (m := m) in R; [|lia]. rewrite R. exact H. }
    pose proof (M n fuel g size len s l L E) as X. congruence.
  - split; [exact C|]. eapply Forall_impl; [|exact F]. intros t ((A & B) & D). auto.
Qed.
Example C66_line_ex : exists l, line_loop 3 (fun s => ((s, 0), 0)) 20 50 0 = Some l /\ map sF l = [20; 40; 50].
Proof.
  cbn [line_loop]. rewrite (proj2 (Rltb_true 0 50)) by lra. cbv zeta. rewrite (proj2 (Rltb_false 50 (0 + 20))) by lra.
  rewrite (proj2 (Rltb_true (0 + 20) 50)) by lra. rewrite (proj2 (Rltb_false 50 (0 + 20 + 20))) by lra.
  rewrite (proj2 (Rltb_true (0 + 20 + 20) 50)) by lra. rewrite (proj2 (Rltb_true 50 (0 + 20 + 20 + 20))) by lra.
  rewrite (proj2 (Rltb_false 50 50)) by lra. eexists. split; [reflexivity|]. cbn [map line_triangle fst sF]. f_equal; [lra|]. f_equal. lra.
Qed.

(** Refuted: the place along the road is taken for a place along the line.  A line that starts further along the road than it is long gets no triangle, and of
    any other that does not start with the road the beginning is left out. *)
Theorem C66_line_refuted : (forall fuel g s len size, len <= s -> road_segments fuel LINE g s len size = Some []) /\
  forall fuel g s len size l t, 0 < s -> 0 < size -> road_segments fuel LINE g s len size = Some l -> In t l -> s <= sI t.
Proof.
  split.
  - intros fuel g s len size L. cbn [road_segments]. destruct fuel; cbn [line_loop]; rewrite (proj2 (Rltb_false s len)) by lra; reflexivity.
  - intros fuel g s len size l t _ Z. cbn [road_segments]. revert s l. induction fuel as [|fuel IH]; intros s l; cbn [line_loop]; destruct (Rltb s len) eqn:L; try discriminate.
    + intros [= <-] [].
    + apply Rltb_true in L. cbv zeta. set (e := if Rltb len (s + size) then len else s + size).
      assert (B : s < e) by (unfold e; destruct (Rltb len (s + size)); lra).
      destruct (line_loop fuel g size len e) as [r|] eqn:R; [|discriminate]. intros [= <-] [<-|I].
      * unfold line_triangle. destruct (fst (g s)), (fst (g e)). cbn [sI]. lra.
      * specialize (IH e r R I). lra.
    + intros [= <-] [].
Qed.
Example C66_line_refuted_ex : road_segments 100 LINE (fun s => ((s, 0), 0)) 100 50 20 = Some [].
Proof. apply (proj1 C66_line_refuted). lra. Qed.

(** The triangle of a piece of a line: its orientation; flat where the line goes north-east or south-west. *)
Theorem C66_flat : forall (g : geometry) s e x0 y0 x1 y1, fst (g s) = (x0, y0) -> fst (g e) = (x1, y1) ->
  let t := line_triangle g s e in orientation (a t) (b t) (c t) = sqrt ((x1 - x0) ^ 2 + (y1 - y0) ^ 2) / 4 * ((x1 - x0) - (y1 - y0)).
Proof. intros g s e x0 y0 x1 y1 G0 G1. unfold line_triangle. rewrite G0, G1. unfold orientation. cbn [a b c fst snd]. field. Qed.
Theorem C66_flat_refuted : exists g : geometry, (forall s, snd (g s) = PI / 4) /\ forall s e, let t := line_triangle g s e in orientation (a t) (b t) (c t) = 0.
Proof.
  exists (fun s => ((s * cos (PI / 4), s * sin (PI / 4)), PI / 4)). split; [reflexivity|]. intros s e. cbv zeta. erewrite C66_flat; [|reflexivity|reflexivity].
  rewrite cos_PI4, sin_PI4. ring.
Qed.
Example C66_flat_ex : let t := line_triangle (fun s => ((s, 0), 0)) 0 4 in orientation (a t) (b t) (c t) = 4.
Proof. cbv zeta. erewrite C66_flat; [|reflexivity|reflexivity]. cbn [fst snd]. replace ((4 - 0) ^ 2 + (0 - 0) ^ 2) with (4 * 4) by ring. rewrite sqrt_square by lra. lra. Qed.

(** A curve whose heading changes at most at the rate K, less than half a turn over one segment: the division ends, and goes from 0 to the length in pieces of
    at most the given size with their ends on the road. *)
Theorem C66_curve : forall g K len size, bends g K -> 0 < K -> 0 < size -> 0 < len -> K * Rmin size len < PI ->
  exists n l, road_segments n CURVE g 0 len size = Some l /\ chain 0 len l /\ Forall (fun t => a t = fst (g (sI t)) /\ b t = fst (g (sF t)) /\ sF t - sI t <= size) l.
Proof.
  intros g K len size B K0 Z L KS. pose proof PI_RGT_0 as PP. assert (D : 0 < Rmin size len) by (now apply Rmin_glb_lt).
  assert (ST : 0 < Rmin (Rmin size len) (PI / 36 / K)) by (apply Rmin_glb_lt; [lra|apply Rdiv_lt_0_compat; lra]).
  destruct (steps_exist (len - 0) _ ST) as (n & N). destruct (curve_loop_is n n g (PI / 36) K (Rmin size len) len 0 B K0 ltac:(lra) D KS ltac:(lra) N (Nat.le_refl n)) as (l & E & C & F).
  exists n, l. split; [exact E|]. split; [exact C|]. eapply Forall_impl; [|exact F]. intros t ((A1 & A2) & A3). pose proof (Rmin_l size len). repeat split; [assumption..|lra].
Qed.
Example C66_curve_ex : bends (fun s => ((sin (s / 100) * 100, (1 - cos (s / 100)) * 100), s / 100)) (1 / 100) /\ 1 / 100 * Rmin 20 50 < PI.
Proof.
  split.
  - intros s1 s2. cbn [snd]. replace (s2 / 100 - s1 / 100) with (1 / 100 * (s2 - s1)) by field. rewrite Rabs_mult, (Rabs_pos_eq (1 / 100)) by lra. lra.
  - rewrite Rmin_left by lra. pose proof PI2_3_2. lra.
Qed.

(** The pieces of a chain leave nothing out. *)
Theorem C66_cover : forall l s e x, chain s e l -> s <= x <= e -> s < e -> exists t, In t l /\ sI t <= x <= sF t.
Proof. apply chain_cover. Qed.
Example C66_cover_ex : chain 0 2 [Triangle (0, 0) (1, 0) (0, 0) 0 1; Triangle (1, 0) (2, 0) (0, 0) 1 2].
Proof. cbn. lra. Qed.

(** No sign change, no solution. *)
Theorem C66_none : forall fuel f delta x y, brent_zeros fuel f delta x y = Some None <-> 0 <= f x * f y.
Proof.
  intros. unfold brent_zeros. destruct (leb 0 (f x * f y)) eqn:E; [apply leb_true in E; tauto|]. apply leb_false in E. destruct (turns fuel f delta (brent_init f x y)); split; intros H; try discriminate; lra.
Qed.
(** Both ends outside of the ellipse: a road right through it is not seen. *)
Example C66_none_ex : brent_zeros 100 (fun x => ellipse 0 0 0 1 1 x 0) SMALL_NUMBER (-2) 2 = Some None.
Proof. apply C66_none. unfold ellipse. rewrite cos_0, sin_0. lra. Qed.

(** With the larger value at the first end the result is close to a root; no division by zero on the way. *)
Theorem C66_root_partial : forall fuel f delta x y s, continuity f -> Rabs (f y) <= Rabs (f x) -> brent_zeros fuel f delta x y = Some (Some s) -> exists r, f r = 0 /\ Rabs (r - s) <= SMALL_NUMBER.
Proof.
  intros fuel f delta x y s C L. unfold brent_zeros. destruct (leb 0 (f x * f y)) eqn:E; [discriminate|]. apply leb_false in E.
  destruct (turns fuel f delta (brent_init f x y)) as [r|] eqn:T; [|discriminate]. intros [= ->]. apply (turns_root fuel f delta _ s C (init_bracket f x y E L) T).
Qed.
Theorem C66_divisions : forall f delta z, bracket f z -> exists r, turn f delta z = Some r /\ match r with inr z => bracket f z | inl s => f s = 0 \/ exists u, f s * f u < 0 /\ Rabs (u - s) <= SMALL_NUMBER end.
Proof. apply turn_bracket. Qed.
Example C66_root_ex : brent_zeros 1 (fun x => x) SMALL_NUMBER (-1) 1 = Some (Some 0).
Proof.
  unfold brent_zeros. rewrite (proj2 (leb_false 0 (-1 * 1))) by lra. unfold brent_init. assert (A : Rabs (-1) = 1) by (rewrite Rabs_left; lra). rewrite A, Rabs_R1, (proj2 (Rltb_false 1 1)) by lra.
  cbn [turns]. unfold turn, guess. replace (eqb (-1) (-1)) with true by (symmetry; now apply eqb_true). cbn [negb andb]. rewrite div_some by lra.
  replace (1 - 1 * (1 - -1) / (1 - -1)) with 0 by field. rewrite (proj2 (leb_true ((3 * -1 + 1) / 4) 0)), (proj2 (leb_true 0 1)) by lra. cbn [andb orb].
  replace ((-1 + 1) / 2) with 0 by field. destruct (Rltb (-1 * 0) 0); destruct (Rltb _ _); replace (eqb 0 0) with true by (symmetry; now apply eqb_true); reflexivity.
Qed.

(** Refuted with the larger value at the second end: only the values are exchanged, not the ends, and after the first turn both ends are on the same side. *)
Theorem C66_lost_refuted : forall f delta x y, f x * f y < 0 -> Rabs (f x) < Rabs (f y) -> exists r, turn f delta (brent_init f x y) = Some r /\
  match r with inr z => 0 < f (z_a z) * f (z_b z) | inl s => f s = 0 \/ exists u, 0 < f s * f u /\ Rabs (u - s) <= SMALL_NUMBER end.
Proof. apply init_lost. Qed.
Example C66_lost_refuted_ex : -1 * 3 < 0 /\ Rabs (-1) < Rabs 3.
Proof. rewrite Rabs_left, Rabs_pos_eq; lra. Qed.
(** And what is reported need not be close to a root. *)
Theorem C66_root_refuted : exists f x y s, continuity f /\ f x * f y < 0 /\ (exists fuel, brent_zeros fuel f SMALL_NUMBER x y = Some (Some s)) /\ forall r, f r = 0 -> 1 <= Rabs (r - s).
Proof.
  destruct (brent_id SMALL_NUMBER) as (s & E & L). exists (fun x => x), (-1), 3, s. split; [apply derivable_continuous, derivable_id|]. split; [lra|]. split; [exists 25%nat; exact E|].
  intros r ->. replace (0 - s) with (- s) by ring. rewrite Rabs_Ropp, Rabs_pos_eq; lra.
Qed.

(** What is kept of the solutions: those from before, and of the new ones those in the rectangle of the first two corners. *)
Theorem C66_range : forall t old new, checkRange t (old ++ new) (length old) = old ++ filter (in_range t) new /\
  forall p, in_range t p = true <-> Rmin (fst (a t)) (fst (b t)) <= fst p <= Rmax (fst (a t)) (fst (b t)) /\ Rmin (snd (a t)) (snd (b t)) <= snd p <= Rmax (snd (a t)) (snd (b t)).
Proof.
  intros t old new. split; [|intros p; apply in_range_is]. unfold checkRange. rewrite firstn_app, Nat.sub_diag, firstn_all, skipn_app, Nat.sub_diag, skipn_all. cbn [firstn skipn app].
  rewrite app_nil_r, erase_filter. reflexivity.
Qed.
Example C66_range_ex : in_range (Triangle (4, 0) (0, 3) (0, 0) 0 5) (1, 2) = true /\ in_range (Triangle (4, 0) (0, 3) (0, 0) 0 5) (1, 4) = false.
Proof.
  split; [apply in_range_is; cbn [a b fst snd]; unfold Rmin, Rmax; destruct (Rle_dec 4 0), (Rle_dec 0 3); lra|].
  destruct (in_range _ _) eqn:E; [|reflexivity]. apply in_range_is in E. cbn [a b fst snd] in E. revert E. unfold Rmin, Rmax. destruct (Rle_dec 4 0), (Rle_dec 0 3); lra.
Qed.

(** A triangle of a road adds at most one solution; with the larger value at the start of its piece it is a point of the road close along the road to one on
    the ellipse, in the rectangle. *)
Theorem C66_solution_partial : forall fuel g t h k A p q sol sol' r, geometryIntersect fuel g t h k A p q sol = Some (sol', r) ->
  continuity (fun s => ellipse h k A p q (fst (fst (g s))) (snd (fst (g s)))) ->
  Rabs (ellipse h k A p q (fst (fst (g (sF t)))) (snd (fst (g (sF t))))) <= Rabs (ellipse h k A p q (fst (fst (g (sI t)))) (snd (fst (g (sI t))))) ->
  (r = false -> sol' = sol) /\
  (r = true -> exists s e, sol' = sol ++ [fst (g s)] /\ in_range t (fst (g s)) = true /\ Rabs (e - s) <= SMALL_NUMBER /\ ellipse h k A p q (fst (fst (g e))) (snd (fst (g e))) = 0).
Proof.
  intros fuel g t h k A p q sol sol' r E C L. unfold geometryIntersect in E. cbv zeta in E.
  destruct (brent_zeros fuel _ SMALL_NUMBER (sI t) (sF t)) as [[s|]|] eqn:B; [| |discriminate].
  - destruct (C66_root_partial _ _ _ _ _ _ C L B) as (e & Z & D).
    rewrite (proj1 (C66_range t sol [fst (g s)])) in E. cbn [filter] in E. destruct (in_range t (fst (g s))) eqn:R; injection E as <- <-.
    + rewrite app_length. cbn [length]. split; [|intros _; exists s, e; rewrite Rabs_minus_sym in D; rewrite Rabs_minus_sym; auto].
      replace (length sol + 1 - length sol)%nat with 1%nat by lia. discriminate.
    + rewrite app_nil_r, Nat.sub_diag. split; [reflexivity|discriminate].
  - injection E as <- <-. split; [reflexivity|discriminate].
Qed.
Example C66_solution_ex : exists r, geometryIntersect 5 (fun s => ((s, 0), 0)) (Triangle (-2, 0) (2, 0) (0, 1) (-2) 2) 0 0 0 1 1 [(7, 7)] = Some ([(7, 7)], r) /\ r = false.
Proof.
  exists false. split; [|reflexivity]. unfold geometryIntersect. cbn [fst snd sI sF]. rewrite (proj2 (C66_none _ _ _ _ _)); [reflexivity|]. unfold ellipse. rewrite cos_0, sin_0. lra.
Qed.

(** The next guess: where the parabola through the three last points (as a function of the value) or the secant has the value 0 -
    unless that lies beyond three quarters of the way, or moves too far or too little compared with the last moves: then the middle. *)
Theorem C66_guess : forall delta a b c d fa fb fc (flag : bool), fa <> fb ->
  exists s, (fa <> fc -> fb <> fc -> forall p q r, p + q * fa + r * fa ^ 2 = a -> p + q * fb + r * fb ^ 2 = b -> p + q * fc + r * fc ^ 2 = c -> s = p) /\
    (fa = fc \/ fb = fc -> forall p q, p + q * fa = a -> p + q * fb = b -> s = p) /\
    let last := if flag then Rabs (b - c) else Rabs (c - d) in
    let bad := (3 * a + b) / 4 <= s <= b \/ last / 2 <= Rabs (s - b) \/ last < Rabs delta in
    (bad -> guess delta (Brent a b c d fa fb fc flag) = Some ((a + b) / 2, true)) /\ (~ bad -> guess delta (Brent a b c d fa fb fc flag) = Some (s, false)).
Proof.
  intros delta a b c d fa fb fc flag N. unfold guess.
  assert (D : forall s, let last := if flag then Rabs (b - c) else Rabs (c - d) in let bad := (3 * a + b) / 4 <= s <= b \/ last / 2 <= Rabs (s - b) \/ last < Rabs delta in
    let t := (leb ((3 * a + b) / 4) s && leb s b) || (flag && leb (Rabs (b - c) / 2) (Rabs (s - b))) || (negb flag && leb (Rabs (c - d) / 2) (Rabs (s - b))) ||
      (flag && Rltb (Rabs (b - c)) (Rabs delta)) || (negb flag && Rltb (Rabs (c - d)) (Rabs delta)) in
    (bad -> (if t then Some ((a + b) / 2, true) else Some (s, false)) = Some ((a + b) / 2, true)) /\ (~ bad -> (if t then Some ((a + b) / 2, true) else Some (s, false)) = Some (s, false))).
  { intros s. cbv zeta.
    assert (E : (leb ((3 * a + b) / 4) s && leb s b) || (flag && leb (Rabs (b - c) / 2) (Rabs (s - b))) || (negb flag && leb (Rabs (c - d) / 2) (Rabs (s - b))) ||
      (flag && Rltb (Rabs (b - c)) (Rabs delta)) || (negb flag && Rltb (Rabs (c - d)) (Rabs delta)) = true <->
      ((3 * a + b) / 4 <= s <= b \/ (if flag then Rabs (b - c) else Rabs (c - d)) / 2 <= Rabs (s - b) \/ (if flag then Rabs (b - c) else Rabs (c - d)) < Rabs delta)).
    { rewrite !orb_true_iff, !andb_true_iff, !leb_true, !Rltb_true. destruct flag; cbn [negb]; intuition congruence. }
    match goal with |- context [if ?x then Some _ else _] => set (t := x) in * end.
    destruct t; split; intro H; try reflexivity; exfalso.
    - apply H. apply E. reflexivity.
    - apply E in H. discriminate. }
  destruct (negb (eqb fa fc) && negb (eqb fb fc)) eqn:E.
  - apply andb_true_iff in E. destruct E as (E1 & E2). rewrite negb_true_iff in E1, E2. apply eqb_false in E1. apply eqb_false in E2.
    rewrite !div_some by (apply Rmult_integral_contrapositive_currified; lra).
    eexists. split; [|split; [|apply D]].
    + intros _ _ p q r <- <- <-. field. repeat split; lra.
    + intros [X|X]; contradiction.
  - rewrite div_some by lra. eexists. split; [|split; [|apply D]].
    + intros X Y. exfalso. apply eqb_false in X. apply eqb_false in Y. rewrite X, Y in E. discriminate.
    + intros _ p q <- <-. field. lra.
Qed.
Example C66_guess_ex : exists s, guess 1 (Brent 0 8 1 0 (-1) 7 0 true) = Some (s, true).
Proof. destruct (C66_guess 1 0 8 1 0 (-1) 7 0 true ltac:(lra)) as (s & P & _ & G & _). eexists. apply G.
  assert (S : s = 1) by (apply (P ltac:(lra) ltac:(lra) 1 1 0); lra). subst s. right. left. rewrite (Rabs_right (8 - 1)), (Rabs_left (1 - 8)) by lra. lra. Qed.

Print Assumptions C66_ellipse.
Print Assumptions C66_param.
Print Assumptions C66_tangent.
Print Assumptions C66_meet.
Print Assumptions C66_near.
Print Assumptions C66_arc.
Print Assumptions C66_arc_refuted.
Print Assumptions C66_segments.
Print Assumptions C66_line.
Print Assumptions C66_line_refuted.
Print Assumptions C66_flat.
Print Assumptions C66_flat_refuted.
Print Assumptions C66_curve.
Print Assumptions C66_cover.
Print Assumptions C66_none.
Print Assumptions C66_root_partial.
Print Assumptions C66_divisions.
Print Assumptions C66_lost_refuted.
Print Assumptions C66_root_refuted.
Print Assumptions C66_range.
Print Assumptions C66_solution_partial.
Print Assumptions C66_guess.
