(** * C56: overlap and free space distance of bounding boxes *)
From Coq Require Import Reals Bool List Lra.
From Verif Require Import AngModel GeoModel GeoProofs BoxModel BoxProofs BoxDist.
Import ListNotations.
Open Scope R_scope.

(** ** Distance *)

(** Boxes of real size (sides of at least twice SMALL_NUMBER): no two points of them are nearer than the distance returned, and the distance is either
    zero (there are points as near as the tolerance), or more than the tolerance and that of two points of the boxes, or the limit. *)
Theorem C56_distance o t : real_size o -> real_size t -> let d := fst (fst (FreeSpaceDistance o (Some t) true)) in
  (forall x y x' y', covers o x y -> covers t x' y' -> d <= dist x y x' y') /\
  ((d = 0 /\ exists x y x' y', covers o x y /\ covers t x' y' /\ dist x y x' y' <= 2 * SMALL_NUMBER) \/
   (SMALL_NUMBER < d /\ exists x y x' y', covers o x y /\ covers t x' y' /\ d = dist x y x' y') \/ d = LARGE_NUMBER).
Proof.
  intros Ro Rt. cbn [FreeSpaceDistance fst]. rewrite relative_gap.
  replace (if negb (hit o t) then pass t o (pass o t LARGE_NUMBER) else 0) with (space o t) by (unfold space, passes; destruct (hit o t); reflexivity).
  split; [|apply space_attained; apply real_sized; assumption]. intros x y x' y' A B.
  pose proof (space_least 0 o t x y x' y' (Rle_refl 0) (real_sized o Ro) (real_sized t Rt) (exact_real o Ro) (exact_real t Rt) A B). cbv zeta. lra.
Qed.

(** The same for boxes of any size, even without extent, up to twice the tolerance. *)
Theorem C56_distance_thin o t : sized o -> sized t -> let d := fst (fst (FreeSpaceDistance o (Some t) true)) in
  (forall x y x' y', covers o x y -> covers t x' y' -> d <= dist x y x' y' + 2 * SMALL_NUMBER) /\
  ((d = 0 /\ exists x y x' y', covers o x y /\ covers t x' y' /\ dist x y x' y' <= 2 * SMALL_NUMBER) \/
   (SMALL_NUMBER < d /\ exists x y x' y', covers o x y /\ covers t x' y' /\ d = dist x y x' y') \/ d = LARGE_NUMBER).
Proof.
  intros Ro Rt. cbn [FreeSpaceDistance fst]. rewrite relative_gap.
  replace (if negb (hit o t) then pass t o (pass o t LARGE_NUMBER) else 0) with (space o t) by (unfold space, passes; destruct (hit o t); reflexivity).
  split; [|apply space_attained; assumption]. intros x y x' y' A B.
  apply space_least; try assumption; try apply exact_any. unfold SMALL_NUMBER; lra.
Qed.

(** Boxes with a common point have distance zero, boxes with distance zero a common point once grown by the tolerance. *)
Theorem C56_overlap o t : sized o -> sized t ->
  ((exists x y, covers o x y /\ covers t x y) -> fst (fst (FreeSpaceDistance o (Some t) true)) = 0) /\
  (fst (fst (FreeSpaceDistance o (Some t) true)) = 0 -> exists x y, covers (grow SMALL_NUMBER o) x y /\ covers (grow SMALL_NUMBER t) x y).
Proof.
  intros So St. cbn [FreeSpaceDistance fst]. rewrite relative_gap. split.
  - intros (x & y & A & B). rewrite (common_hit o t x y) by assumption. reflexivity.
  - destruct (hit o t) eqn:H; cbn [negb].
    + intros _. apply hit_common; assumption.
    + intro Z. fold (passes o t) in Z. destruct (passes_attained o t So St) as [E|(x & y & x' & y' & A & B & E)].
      * rewrite E in Z. unfold LARGE_NUMBER in Z. lra.
      * pose proof (miss_apart o t x y x' y' So St H A B). assert (0 < SMALL_NUMBER) by (unfold SMALL_NUMBER; lra). lra.
Qed.

Theorem C56_symmetric o t : fst (fst (FreeSpaceDistance o (Some t) true)) = fst (fst (FreeSpaceDistance t (Some o) true)).
Proof. cbn [FreeSpaceDistance fst]. rewrite !relative_gap, (hit_sym t o). destruct (hit o t); [reflexivity|]. apply passes_sym. Qed.

(** The lateral and longitudinal distance: signed gap between the boxes to the left of and ahead of the first. *)
Theorem C56_lateral o t : sized o -> sized t -> gap_of (left_of o) o t (snd (fst (FreeSpaceDistance o (Some t) true))).
Proof. intros So St. exact (proj1 (lat_gap o t So St)). Qed.

Theorem C56_longitudinal o t : sized o -> sized t -> gap_of (ahead o) o t (snd (FreeSpaceDistance o (Some t) true)).
Proof. intros So St. exact (proj2 (lat_gap o t So St)). Qed.

(** Overlapping boxes have no lateral or longitudinal distance. *)
Theorem C56_inside o t x y : sized o -> sized t -> covers o x y -> covers t x y -> FreeSpaceDistance o (Some t) true = (0, 0, 0).
Proof.
  intros So St A B. pose proof (proj1 (C56_overlap o t So St) (ex_intro _ x (ex_intro _ y (conj A B)))) as Z.
  assert (S: 0 < SMALL_NUMBER) by (unfold SMALL_NUMBER; lra).
  assert (K: forall g v, gap_of g o t v -> v = 0).
  { intros g v [(V & _)|(V & _ & H)]; [exact V|]. specialize (H x y x y A B). unfold Rabs in V. destruct (Rcase_abs v), (Rlt_dec 0 v); lra. }
  pose proof (K _ _ (C56_lateral o t So St)) as L. pose proof (K _ _ (C56_longitudinal o t So St)) as G.
  destruct (FreeSpaceDistance o (Some t) true) as [[d a] b]. cbn [fst snd] in *. rewrite Z, L, G. reflexivity.
Qed.

(** Without a target all distances are at the limit. *)
Theorem C56_nobody o w : FreeSpaceDistance o None w = (LARGE_NUMBER, LARGE_NUMBER, LARGE_NUMBER) /\ Collision o None = false.
Proof. split; reflexivity. Qed.

(** ** Collision *)

(** Boxes that reach no further from their position than their length, with a common point and no more than 2.5 m apart in height, collide. *)
Theorem C56_collides o t x y : sized o -> sized t -> compact o -> compact t -> covers o x y -> covers t x y ->
  Rabs (b_z o - b_z t) <= ELEVATION_DIFF_THRESHOLD -> Collision o (Some t) = true.
Proof.
  intros So St Co Ct A B Z. apply collision_spec. split; [apply (near_compact o t x y); assumption|]. split; [exact Z|]. apply (common_hit o t x y); assumption.
Qed.

(** When a box reaches no further than its length. *)
Theorem C56_compact o : 0 <= b_len o ->
  (Rabs (b_cx o) + b_len o / 2) * (Rabs (b_cx o) + b_len o / 2) + (Rabs (b_cy o) + b_wid o / 2) * (Rabs (b_cy o) + b_wid o / 2) <= b_len o * b_len o -> compact o.
Proof. exact (compact_if o). Qed.

(** A collision is never reported without cause. *)
Theorem C56_collision_only o t : sized o -> sized t -> Collision o (Some t) = true ->
  Rabs (b_z o - b_z t) <= ELEVATION_DIFF_THRESHOLD /\ exists x y, covers (grow SMALL_NUMBER o) x y /\ covers (grow SMALL_NUMBER t) x y.
Proof. intros So St H. apply collision_spec in H as (_ & Z & H). split; [exact Z|]. apply hit_common; assumption. Qed.

Theorem C56_collision_symmetric o t : Collision o (Some t) = Collision t (Some o).
Proof.
  assert (K: forall a b, Collision a (Some b) = true -> Collision b (Some a) = true).
  { intros a b H. apply collision_spec in H as (F & Z & H). apply collision_spec. split; [|split; [|rewrite hit_sym; exact H]].
    - intro G. apply F. unfold far in *. rewrite (dist_sym (b_x a)), (Rplus_comm (b_len a)), (Rplus_comm (b_wid a)). exact G.
    - rewrite Rabs_minus_sym. exact Z. }
  destruct (Collision o (Some t)) eqn:A; [symmetry; apply K; exact A|]. destruct (Collision t (Some o)) eqn:B; [|reflexivity]. apply K in B. congruence.
Qed.

(** What a collision and the distance zero have to do with each other. *)
Theorem C56_collision_distance o t : Collision o (Some t) = true <->
  f_gap (relative o t) = false /\ Rabs (b_z o - b_z t) <= ELEVATION_DIFF_THRESHOLD /\ ~ far o t.
Proof. rewrite collision_spec, relative_gap, negb_false_iff. tauto. Qed.

(** ** A point *)

Theorem C56_point o x y : sized o -> PointCollision o x y = true <-> covers (grow (2 * SMALL_NUMBER) o) x y.
Proof. exact (point_spec o x y). Qed.

(** The distance to a point is the least, and it comes with its components ahead and to the left. *)
Theorem C56_point_distance o x y : real_size o -> let r := FreeSpaceDistancePoint o x y in
  (forall qx qy, covers o qx qy -> fst (fst r) <= dist x y qx qy) /\
  ((r = (0, 0, 0) /\ covers (grow (2 * SMALL_NUMBER) o) x y) \/ point_result o x y r \/ r = (LARGE_NUMBER, LARGE_NUMBER, LARGE_NUMBER)).
Proof.
  intro Ro. destruct (point_distance 0 o x y (Rle_refl 0) (real_sized o Ro) (exact_real o Ro)) as (A & B). split; [|exact B].
  intros qx qy Q. specialize (A qx qy Q). cbv zeta in A. lra.
Qed.

Theorem C56_point_components o x y r : point_result o x y r -> snd r * snd r + snd (fst r) * snd (fst r) = fst (fst r) * fst (fst r).
Proof.
  intros (qx & qy & _ & -> & -> & ->). unfold dist. rewrite sqrt_sqrt.
  - unfold ahead, left_of. transitivity (((x - qx) * (x - qx) + (y - qy) * (y - qy)) * (cos (b_h o) * cos (b_h o) + sin (b_h o) * sin (b_h o))); [ring|rewrite cs; ring].
  - pose proof (Rle_0_sqr (x - qx)) as A. pose proof (Rle_0_sqr (y - qy)) as B. unfold Rsqr in *. lra.
Qed.

(** ** Examples *)

(** A box along the x axis. *)
Definition car (x y z : R) : box := Box x y z 0 1 0 4 2.

Lemma car_covers x y z px py : covers (car x y z) px py <-> x - 1 <= px <= x + 3 /\ y - 1 <= py <= y + 1.
Proof. rewrite covers_coords. unfold ahead, left_of, car. cbn. rewrite cos_0, sin_0. split; lra. Qed.

Lemma car_real x y z : real_size (car x y z).
Proof. unfold real_size, car, SMALL_NUMBER. cbn. lra. Qed.

(** Two cars in a row, six metres between them. *)
Example C56_distance_ex : fst (fst (FreeSpaceDistance (car 0 0 0) (Some (car 10 0 0)) true)) = 6.
Proof.
  destruct (C56_distance (car 0 0 0) (car 10 0 0) (car_real _ _ _) (car_real _ _ _)) as (L & H). cbv zeta in *. set (d := fst (fst _)) in *. clearbody d.
  assert (D: d <= 6).
  { replace 6 with (dist 3 0 9 0). apply L; apply car_covers; lra. unfold dist. replace ((3 - 9) * (3 - 9) + (0 - 0) * (0 - 0)) with (6 * 6) by ring. apply sqrt_square. lra. }
  assert (G: forall x y x' y', covers (car 0 0 0) x y -> covers (car 10 0 0) x' y' -> 6 <= dist x y x' y').
  { intros x y x' y' A B. apply car_covers in A, B. rewrite <- (sqrt_square 6) by lra. unfold dist. apply sqrt_le_1_alt.
    pose proof (Rle_0_sqr (y - y')) as S. unfold Rsqr in S. assert (6 * 6 <= (x - x') * (x - x')) by (replace ((x - x') * (x - x')) with ((x' - x) * (x' - x)) by ring; apply square_le; lra). lra. }
  destruct H as [(_ & x & y & x' & y' & A & B & E)|[(_ & x & y & x' & y' & A & B & E)|E]].
  - specialize (G x y x' y' A B). unfold SMALL_NUMBER in E. lra.
  - specialize (G x y x' y' A B). lra.
  - unfold LARGE_NUMBER in E. lra.
Qed.

(** Seen from the first the second is six metres ahead and not to the side. *)
Example C56_longitudinal_ex : snd (FreeSpaceDistance (car 0 0 0) (Some (car 10 0 0)) true) = 6 /\ snd (fst (FreeSpaceDistance (car 0 0 0) (Some (car 10 0 0)) true)) = 0.
Proof.
  pose proof (C56_longitudinal (car 0 0 0) (car 10 0 0) (real_sized _ (car_real _ _ _)) (real_sized _ (car_real _ _ _))) as G.
  pose proof (C56_lateral (car 0 0 0) (car 10 0 0) (real_sized _ (car_real _ _ _)) (real_sized _ (car_real _ _ _))) as L.
  assert (Ah: forall x y, ahead (car 0 0 0) x y = x) by (intros; unfold ahead, car; cbn; rewrite cos_0, sin_0; ring).
  assert (Le: forall x y, left_of (car 0 0 0) x y = y) by (intros; unfold left_of, car; cbn; rewrite cos_0, sin_0; ring).
  set (a := snd (FreeSpaceDistance _ _ _)) in *. set (b := snd (fst _)) in *. clearbody a b. unfold SMALL_NUMBER in *. split.
  - destruct G as [(_ & x & y & x' & y' & A & B & E)|(_ & (x & y & x' & y' & A & B & E) & H)].
    + apply car_covers in A, B. rewrite !Ah in E. unfold SMALL_NUMBER in E. apply abs_le in E. lra.
    + apply car_covers in A, B. rewrite !Ah in E. specialize (H 3 0 9 0). rewrite !Ah in H. destruct (Rlt_dec 0 a); [|lra].
      specialize (H ltac:(apply car_covers; lra) ltac:(apply car_covers; lra)). lra.
  - destruct L as [(E & _)|(V & (x & y & x' & y' & A & B & E) & H)]; [exact E|exfalso].
    specialize (H 0 0 10 0 ltac:(apply car_covers; lra) ltac:(apply car_covers; lra)). rewrite !Le in H. unfold Rabs, SMALL_NUMBER in V. destruct (Rlt_dec 0 b), (Rcase_abs b); lra.
Qed.

Lemma car_compact x y z : compact (car x y z).
Proof. apply C56_compact; cbn; [lra|]. rewrite Rabs_R0, Rabs_R1. lra. Qed.

Example C56_collides_ex : Collision (car 0 0 0) (Some (car 3 1 2)) = true.
Proof.
  apply (C56_collides _ _ 2 0); try apply real_sized, car_real; try apply car_compact; try (apply car_covers; lra).
  cbn. unfold ELEVATION_DIFF_THRESHOLD. apply abs_le. lra.
Qed.

Example C56_collision_only_ex : Collision (car 0 0 0) (Some (car 3 1 3)) = false /\ Collision (car 0 0 0) (Some (car 10 0 0)) = false.
Proof.
  split; match goal with |- ?c = false => destruct c eqn:E; [|reflexivity] end; apply C56_collision_only in E; try apply real_sized, car_real; destruct E as (Z & x & y & A & B).
  - cbn in Z. unfold ELEVATION_DIFF_THRESHOLD in Z. apply abs_le in Z. lra.
  - apply covers_coords in A, B. unfold ahead, left_of, grow, car in A, B. cbn in A, B. rewrite cos_0, sin_0 in A, B. unfold SMALL_NUMBER in *. lra.
Qed.

Example C56_point_ex : PointCollision (car 0 0 0) 3 1 = true /\ PointCollision (car 0 0 0) 4 1 = false.
Proof.
  split.
  - apply C56_point; [apply real_sized, car_real|]. apply covers_coords. unfold ahead, left_of, grow, car. cbn. rewrite cos_0, sin_0. unfold SMALL_NUMBER. lra.
  - destruct (PointCollision (car 0 0 0) 4 1) eqn:E; [|reflexivity]. apply C56_point in E; [|apply real_sized, car_real]. apply covers_coords in E.
    unfold ahead, left_of, grow, car in E. cbn in E. rewrite cos_0, sin_0 in E. unfold SMALL_NUMBER in E. lra.
Qed.

Example C56_inside_ex : FreeSpaceDistance (car 0 0 0) (Some (car 3 1 2)) true = (0, 0, 0).
Proof. apply (C56_inside _ _ 2 0); try apply real_sized, car_real; apply car_covers; lra. Qed.

(** A point three metres ahead. *)
Example C56_point_distance_ex : FreeSpaceDistancePoint (car 0 0 0) 6 0 = (3, 0, 3).
Proof.
  destruct (C56_point_distance (car 0 0 0) 6 0 (car_real _ _ _)) as (L & H). cbv zeta in *. set (r := FreeSpaceDistancePoint _ _ _) in *. clearbody r. destruct r as [[d a] b]. cbn [fst snd] in *.
  assert (D: d <= 3).
  { replace 3 with (dist 6 0 3 0). apply L; apply car_covers; lra. unfold dist. replace ((6 - 3) * (6 - 3) + (0 - 0) * (0 - 0)) with (3 * 3) by ring. apply sqrt_square. lra. }
  destruct H as [(E & C)|[(qx & qy & C & E1 & E2 & E3)|E]].
  - exfalso. apply covers_coords in C. unfold ahead, left_of, grow, car in C. cbn in C. rewrite cos_0, sin_0 in C. unfold SMALL_NUMBER in C. lra.
  - cbn [fst snd] in *. apply car_covers in C. unfold ahead, left_of, car in E2, E3. cbn in E2, E3. rewrite cos_0, sin_0 in E2, E3.
    assert (S: d * d = (6 - qx) * (6 - qx) + (0 - qy) * (0 - qy)). { rewrite E1. unfold dist. apply sqrt_sqrt. pose proof (Rle_0_sqr (6 - qx)) as P. pose proof (Rle_0_sqr (0 - qy)) as Q. unfold Rsqr in *. lra. }
    assert (D0: 0 <= d) by (rewrite E1; apply dist_pos). assert (d * d <= 3 * 3) by (apply square_le; lra). assert (3 * 3 <= (6 - qx) * (6 - qx)) by (apply square_le; lra).
    pose proof (Rle_0_sqr (0 - qy)) as Q. unfold Rsqr in Q.
    assert (Qy: (0 - qy) * (0 - qy) = 0) by lra. apply Rmult_integral in Qy. assert (qy = 0) by lra. subst qy.
    assert (QX: (6 - qx) * (6 - qx) = 9) by lra. assert (P: (3 - qx) * (9 - qx) = 0) by lra. apply Rmult_integral in P. assert (qx = 3) by lra. subst qx.
    assert (DD: (d - 3) * (d + 3) = 0) by lra. apply Rmult_integral in DD. repeat f_equal; lra.
  - exfalso. apply (f_equal (fun r => fst (fst r))) in E. cbn in E. unfold LARGE_NUMBER in E. lra.
Qed.

(** Two objects without extent, five metres apart. *)
Example C56_distance_thin_ex : let d := fst (fst (FreeSpaceDistance (Box 0 0 0 0 0 0 0 0) (Some (Box 3 4 0 0 0 0 0 0)) true)) in d = 5.
Proof.
  assert (C: forall x y px py, covers (Box x y 0 0 0 0 0 0) px py <-> px = x /\ py = y).
  { intros. rewrite covers_coords. unfold ahead, left_of. cbn. rewrite cos_0, sin_0. split; lra. }
  assert (F: dist 0 0 3 4 = 5). { unfold dist. replace ((0 - 3) * (0 - 3) + (0 - 4) * (0 - 4)) with (5 * 5) by ring. apply sqrt_square. lra. }
  destruct (C56_distance_thin (Box 0 0 0 0 0 0 0 0) (Box 3 4 0 0 0 0 0 0)) as (L & H); try (split; cbn; lra). cbv zeta in *.
  set (d := fst (fst _)) in *. clearbody d. specialize (L 0 0 3 4 ltac:(apply C; lra) ltac:(apply C; lra)). rewrite F in L.
  destruct H as [(_ & x & y & x' & y' & A & B & E)|[(_ & x & y & x' & y' & A & B & E)|E]].
  - apply C in A as (-> & ->). apply C in B as (-> & ->). rewrite F in E. unfold SMALL_NUMBER in E. lra.
  - apply C in A as (-> & ->). apply C in B as (-> & ->). congruence.
  - unfold LARGE_NUMBER, SMALL_NUMBER in *. lra.
Qed.

(** ** Findings *)

(** The position lies inside both boxes, they overlap at the same height, and still no collision is reported: the rough check compares the distance of
    the positions with the diagonal of the summed sides.  The first object is a barrier across, the second a long one. *)
Theorem C56_rough_refuted : exists o t, real_size o /\ real_size t /\ covers o (b_x o) (b_y o) /\ covers t (b_x t) (b_y t) /\ b_z o = b_z t /\
  (exists x y, covers o x y /\ covers t x y) /\ Collision o (Some t) = false /\ FreeSpaceDistance o (Some t) true = (0, 0, 0).
Proof.
  set (o := Box 0 0 0 0 0 (45 / 10) 1 10). set (t := Box 0 (185 / 10) 0 (PI / 2) (- (45 / 10)) 0 10 1).
  assert (Co: forall x y, covers o x y <-> - (1 / 2) <= x <= 1 / 2 /\ - (1 / 2) <= y <= 95 / 10).
  { intros. rewrite covers_coords. unfold ahead, left_of, o. cbn. rewrite cos_0, sin_0. split; lra. }
  assert (Ct: forall x y, covers t x y <-> - (1 / 2) <= x <= 1 / 2 /\ 9 <= y <= 19).
  { intros. rewrite covers_coords. unfold ahead, left_of, t. cbn. rewrite cos_PI2, sin_PI2. split; lra. }
  assert (Ro: real_size o) by (unfold real_size, o, SMALL_NUMBER; cbn; lra). assert (Rt: real_size t) by (unfold real_size, t, SMALL_NUMBER; cbn; lra).
  exists o, t. split; [exact Ro|]. split; [exact Rt|]. split; [apply Co; cbn; lra|]. split; [apply Ct; cbn; lra|]. split; [reflexivity|].
  assert (X: covers o 0 9) by (apply Co; lra). assert (Y: covers t 0 9) by (apply Ct; lra).
  split; [exists 0, 9; auto|]. split; [|apply (C56_inside o t 0 9); try apply real_sized; assumption].
  destruct (Collision o (Some t)) eqn:E; [|reflexivity]. apply collision_spec in E as (F & _). exfalso. apply F. unfold far, o, t, dist. cbn. apply sqrt_lt_1_alt. lra.
Qed.

(** The distance looks at the ground only: an object on a bridge has distance zero to the one under it, though they do not collide. *)
Theorem C56_bridge_refuted : FreeSpaceDistance (car 0 0 0) (Some (car 0 0 10)) true = (0, 0, 0) /\ Collision (car 0 0 0) (Some (car 0 0 10)) = false.
Proof.
  split; [apply (C56_inside _ _ 0 0); try apply real_sized, car_real; apply car_covers; lra|].
  destruct (Collision (car 0 0 0) (Some (car 0 0 10))) eqn:E; [|reflexivity]. apply collision_spec in E as (_ & Z & _). cbn in Z. unfold ELEVATION_DIFF_THRESHOLD in Z. apply abs_le in Z. lra.
Qed.

Print Assumptions C56_distance.
Print Assumptions C56_distance_thin.
Print Assumptions C56_overlap.
Print Assumptions C56_symmetric.
Print Assumptions C56_lateral.
Print Assumptions C56_longitudinal.
Print Assumptions C56_inside.
Print Assumptions C56_nobody.
Print Assumptions C56_collides.
Print Assumptions C56_compact.
Print Assumptions C56_collision_only.
Print Assumptions C56_collision_symmetric.
Print Assumptions C56_collision_distance.
Print Assumptions C56_point.
Print Assumptions C56_point_distance.
Print Assumptions C56_point_components.
Print Assumptions C56_rough_refuted.
Print Assumptions C56_bridge_refuted.
