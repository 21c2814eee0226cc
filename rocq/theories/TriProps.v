(** * C65: the overlap of two triangles *)
From Coq Require Import Reals Bool Lra Psatz.
From Verif Require Import AngModel AngProofs TriModel TriProofs.
Open Scope R_scope.

Ltac decide_signs :=
  repeat match goal with
  | |- context [Rltb ?x ?y] =>
      first [replace (Rltb x y) with true by (symmetry; apply Rltb_true; unfold orientation; cbn [fst snd]; lra)
            |replace (Rltb x y) with false by (symmetry; apply Rltb_false; unfold orientation; cbn [fst snd]; lra)]
  end; cbn [negb andb orb].
Ltac run := unfold overlap2d, intersection2d, intersection_test_edges, intersection_test_vertex, ge0, le0; decide_signs.

(** orientation is the signed area: nothing just when a corner is on the line of the other two, and the same for all turns of the corners. *)
Theorem C65_orientation : forall a b c, orientation b c a = orientation a b c /\ orientation a c b = - orientation a b c /\
  (a <> b -> (orientation a b c = 0 <-> exists k, fst c = fst a + k * (fst b - fst a) /\ snd c = snd a + k * (snd b - snd a))).
Proof.
  intros [ax ay] [bx by_] [cx cy]. split; [apply orient_cycle|]. split; [apply orient_swap|]. intros NE. unfold orientation. cbn [fst snd]. split.
  - intros H. destruct (Req_dec (bx - ax) 0) as [E|E].
    + assert (F : by_ - ay <> 0) by (intros F; apply NE; f_equal; lra). exists ((cy - ay) / (by_ - ay)). split; [|field; exact F].
      assert (G : (cx - ax) * (by_ - ay) = 0) by (replace bx with ax in H by lra; lra). apply Rmult_integral in G. destruct G; [|contradiction]. rewrite E. lra.
    + exists ((cx - ax) / (bx - ax)). split; [field; exact E|]. apply (Rmult_eq_reg_r (bx - ax)); [|exact E]. field_simplify; [|exact E]. lra.
  - intros (k & -> & ->). ring.
Qed.
Example C65_orientation_ex : orientation (0, 0) (1, 0) (0, 1) = 1 /\ orientation (0, 0) (1, 1) (2, 2) = 0.
Proof. unfold orientation. cbn. split; ring. Qed.

(** Two triangles with a side that has one on its left and the other on its right have no point in common. *)
Theorem C65_separated : forall a1 b1 c1 a2 b2 c2, 0 < orientation a1 b1 c1 -> 0 < orientation a2 b2 c2 -> separated a1 b1 c1 a2 b2 c2 -> ~ overlapping a1 b1 c1 a2 b2 c2.
Proof. exact separated_apart. Qed.
Example C65_separated_ex : separated (0, 0) (1, 0) (0, 1) (2, 2) (3, 2) (2, 3).
Proof. right. left. unfold behind, orientation. cbn. lra. Qed.

(** Proper triangles in any order of corners, except with the first corner of the first where the test names the wrong side: yes just when there is a common
    point, and after a no there is a side between the two. *)
Theorem C65_exact_partial : forall a1 b1 c1 a2 b2 c2, orientation a1 b1 c1 <> 0 -> orientation a2 b2 c2 <> 0 -> ~ astray a1 a2 (ccw1 a2 b2 c2) (ccw2 a2 b2 c2) ->
  (overlap2d a1 b1 c1 a2 b2 c2 = true <-> overlapping a1 b1 c1 a2 b2 c2) /\
  (overlap2d a1 b1 c1 a2 b2 c2 = false -> separated a1 (ccw1 a1 b1 c1) (ccw2 a1 b1 c1) a2 (ccw1 a2 b2 c2) (ccw2 a2 b2 c2)).
Proof.
  intros a1 b1 c1 a2 b2 c2 N1 N2 NA. pose proof (ccw_pos a1 b1 c1 N1) as D1. pose proof (ccw_pos a2 b2 c2 N2) as D2.
  pose proof (inter_tells _ _ _ _ _ _ D1 D2 NA) as T. rewrite <- overlap_is in T. rewrite <- ccw_overlap. split; [split|].
  - intros E. now rewrite E in T.
  - intros O. destruct (overlap2d a1 b1 c1 a2 b2 c2); [reflexivity|]. exfalso. exact (separated_apart _ _ _ _ _ _ D1 D2 T O).
  - intros E. now rewrite E in T.
Qed.
Example C65_exact_partial_ex : overlap2d (-1, 1) (3, 1) (3, 2) (0, 0) (4, 0) (0, 4) = true /\ overlap2d (-1, 1) (-1, 0) (-1 / 2, 2) (0, 0) (4, 0) (0, 4) = false /\
  ~ astray (-1, 1) (0, 0) (4, 0) (0, 4).
Proof. split; [|split]; [run; reflexivity|run; reflexivity|]. unfold astray, orientation. cbn. lra. Qed.

(** In all places a yes is right, but for a first corner on the line of the side from b2 to c2. *)
Theorem C65_yes : forall a1 b1 c1 a2 b2 c2, orientation a1 b1 c1 <> 0 -> orientation a2 b2 c2 <> 0 -> orientation b2 c2 a1 <> 0 ->
  overlap2d a1 b1 c1 a2 b2 c2 = true -> overlapping a1 b1 c1 a2 b2 c2.
Proof.
  intros a1 b1 c1 a2 b2 c2 N1 N2 NZ H. pose proof (ccw_pos a1 b1 c1 N1) as D1. pose proof (ccw_pos a2 b2 c2 N2) as D2.
  rewrite overlap_is in H. apply ccw_overlap, inter_true; try assumption. unfold ccw1, ccw2. destruct (Rltb (orientation a2 b2 c2) 0); [|exact NZ].
  intros E. apply NZ. unfold orientation in *. lra.
Qed.
Example C65_yes_ex : overlap2d (1, -1) (2, -1) (10, 10) (0, 0) (4, 0) (0, 4) = true /\ orientation (4, 0) (0, 4) (1, -1) <> 0.
Proof. split; [run; reflexivity|]. unfold orientation. cbn. lra. Qed.

(** With the first corner inside of the second triangle the answer is yes, whatever the others are. *)
Theorem C65_corner : forall a1 b1 c1 a2 b2 c2, orientation a2 b2 c2 <> 0 -> within a1 a2 b2 c2 -> overlap2d a1 b1 c1 a2 b2 c2 = true.
Proof.
  intros a1 b1 c1 a2 b2 c2 N W. pose proof (ccw_pos a2 b2 c2 N) as D. rewrite overlap_is.
  assert (W' : within a1 a2 (ccw1 a2 b2 c2) (ccw2 a2 b2 c2)) by (unfold ccw1, ccw2; destruct (Rltb (orientation a2 b2 c2) 0); [now apply within_flip|exact W]).
  set (b := ccw1 a2 b2 c2) in *. set (c := ccw2 a2 b2 c2) in *. clearbody b c. destruct W' as (u & v & w & U & V & Z & S & X & Y).
  pose proof (orient_mean a2 b a1 a2 b c u v w S X Y) as E1. pose proof (orient_mean b c a1 a2 b c u v w S X Y) as E2. pose proof (orient_mean c a2 a1 a2 b c u v w S X Y) as E3.
  destruct (orient_diag a2 b) as (F1 & F2). destruct (orient_diag b c) as (F3 & F4). destruct (orient_diag c a2) as (F5 & F6).
  rewrite F1, F2 in E1. rewrite F3, F4 in E2. rewrite F5, F6 in E3. rewrite (orient_cycle a2 b c) in E2. rewrite (orient_cycle b c a2), (orient_cycle a2 b c) in E3.
  unfold intersection2d. replace (ge0 (orientation a2 b a1)) with true by (symmetry; apply ge0_true; nra).
  replace (ge0 (orientation b c a1)) with true by (symmetry; apply ge0_true; nra). replace (ge0 (orientation c a2 a1)) with true by (symmetry; apply ge0_true; nra). reflexivity.
Qed.
Example C65_corner_ex : within (1, 1) (0, 0) (4, 0) (0, 4).
Proof. exists (1 / 2), (1 / 4), (1 / 4). cbn. repeat split; lra. Qed.

(** The order of the corners of a proper triangle does not matter beyond which is the first. *)
Theorem C65_order : forall a1 b1 c1 a2 b2 c2, (orientation a2 b2 c2 <> 0 -> overlap2d a1 b1 c1 a2 c2 b2 = overlap2d a1 b1 c1 a2 b2 c2) /\
  (orientation a1 b1 c1 <> 0 -> overlap2d a1 c1 b1 a2 b2 c2 = overlap2d a1 b1 c1 a2 b2 c2).
Proof.
  assert (G : forall a b c, orientation a b c <> 0 -> ccw1 a c b = ccw1 a b c /\ ccw2 a c b = ccw2 a b c).
  { intros a b c N. unfold ccw1, ccw2. rewrite (orient_swap a b c). destruct (Rltb (orientation a b c) 0) eqn:E.
    - apply Rltb_true in E. replace (Rltb (- orientation a b c) 0) with false by (symmetry; apply Rltb_false; lra). auto.
    - apply Rltb_false in E. replace (Rltb (- orientation a b c) 0) with true by (symmetry; apply Rltb_true; lra). auto. }
  intros a1 b1 c1 a2 b2 c2. split; intros N; rewrite !overlap_is; destruct (G _ _ _ N) as (-> & ->); reflexivity.
Qed.
Example C65_order_ex : overlap2d (-1, 1) (3, 2) (3, 1) (0, 0) (4, 0) (0, 4) = true.
Proof. run. reflexivity. Qed.

(** Triangle::collide is the same test. *)
Theorem C65_collide : forall a1 b1 c1 a2 b2 c2, orientation a1 b1 c1 <> 0 -> orientation a2 b2 c2 <> 0 -> ~ astray a1 a2 (ccw1 a2 b2 c2) (ccw2 a2 b2 c2) ->
  (collide (a1, b1, c1) (a2, b2, c2) = true <-> exists x, within x a1 b1 c1 /\ within x a2 b2 c2).
Proof. intros a1 b1 c1 a2 b2 c2 N1 N2 NA. exact (proj1 (C65_exact_partial a1 b1 c1 a2 b2 c2 N1 N2 NA)). Qed.
Example C65_collide_ex : collide ((-1, 1), (3, 1), (3, 2)) ((0, 0), (4, 0), (0, 4)) = true.
Proof. unfold collide. run. reflexivity. Qed.

(** Beyond the side from a2 to b2 an overlap is missed: a corner of the first triangle is well inside of the second; the other way round it is found. *)
Theorem C65_missed_refuted : exists a1 b1 c1 a2 b2 c2, 0 < orientation a1 b1 c1 /\ 0 < orientation a2 b2 c2 /\
  0 < orientation a2 b2 c1 /\ 0 < orientation b2 c2 c1 /\ 0 < orientation c2 a2 c1 /\
  overlap2d a1 b1 c1 a2 b2 c2 = false /\ overlap2d a2 b2 c2 a1 b1 c1 = true.
Proof.
  exists (1, -1), (2, -1), (1, 1), (0, 0), (4, 0), (0, 4). repeat (split; [unfold orientation; cbn; lra|]). split; [run; reflexivity|run; reflexivity].
Qed.

(** On the line of the side from b2 to c2 a yes is wrong: the second is below the line y = 1, the first above. *)
Theorem C65_false_refuted : exists a1 b1 c1 a2 b2 c2, 0 < orientation a1 b1 c1 /\ 0 < orientation a2 b2 c2 /\ overlap2d a1 b1 c1 a2 b2 c2 = true /\ ~ overlapping a1 b1 c1 a2 b2 c2.
Proof.
  exists (0, 3 / 2), (0, 2), (-1, 17 / 10), (1, 0), (0, 1), (0, 0). repeat (split; [unfold orientation; cbn; lra|]). split; [run; reflexivity|].
  intros ((x & y) & (u & v & w & U & V & W & S & X & Y) & (u' & v' & w' & U' & V' & W' & S' & X' & Y')). cbn in *. lra.
Qed.

(** With a second triangle that is flat a yes may be wrong too. *)
Theorem C65_flat_refuted : exists a1 b1 c1 a2 b2 c2, 0 < orientation a1 b1 c1 /\ orientation a2 b2 c2 = 0 /\ overlap2d a1 b1 c1 a2 b2 c2 = true /\ ~ overlapping a1 b1 c1 a2 b2 c2.
Proof.
  exists (0, 0), (1, 0), (0, 1), (5, 0), (6, 0), (7, 0). repeat (split; [unfold orientation; cbn; lra|]). split; [run; reflexivity|].
  intros ((x & y) & (u & v & w & U & V & W & S & X & Y) & (u' & v' & w' & U' & V' & W' & S' & X' & Y')). cbn in *. lra.
Qed.

Print Assumptions C65_orientation.
Print Assumptions C65_separated.
Print Assumptions C65_exact_partial.
Print Assumptions C65_yes.
Print Assumptions C65_corner.
Print Assumptions C65_order.
Print Assumptions C65_collide.
Print Assumptions C65_missed_refuted.
Print Assumptions C65_false_refuted.
Print Assumptions C65_flat_refuted.
