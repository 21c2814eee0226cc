(** * C57: distances between objects with trailers, time headway and time to collision *)
From Coq Require Import Reals Bool List ZArith NArith Lra Lia.
From Verif Require Import AngModel GeoModel GeoProofs BoxModel BoxProofs BoxDist BoxProps GapModel GapProofs.
Import ListNotations.
Open Scope R_scope.

Section Props.
Variable trailer tow : N -> option N.
Variable box_of : N -> box.
Variable P : Type.
Variable snap snap_free : N -> R -> R -> option P.
Variable delta : P -> P -> option (R * R).
Variable pos_delta : N -> N -> R -> bool * R * R.
Variable xy_delta : N -> R -> R -> R -> bool * R * R.
Variable trajectory : N -> option N.
Variable traj_s traj_t : N -> R.
Variable closest : N -> R -> R -> option R.
Variable speed : N -> R.
Variable vel : N -> R * R.

Notation Distance := (Object_Distance trailer tow box_of P snap delta pos_delta trajectory traj_s traj_t closest).
Notation DistanceXY := (Object_Distance_xy trailer tow box_of P snap snap_free delta xy_delta traj_s traj_t).
Notation Between := (Position_Distance box_of pos_delta trajectory traj_s traj_t closest).
Notation Headway := (TimeHeadway trailer tow box_of P snap delta pos_delta trajectory traj_s traj_t closest speed).
Notation TTC := (TimeToCollision trailer tow box_of P snap delta pos_delta trajectory traj_s traj_t closest speed vel).
Notation space_of := (fs box_of).

(** ** Free space *)

(** The free space distance over trailers, however many there are: of the first hundred pairs of a member of the rig of the one and a member of the
    rig of the other, the first one with least distance counts (with none nearer than the limit, the limit).  Its sign and its components are
    those of this pair. *)
Theorem C57_pairs fuel o t c rel p n pl tl : front_of tow o p n -> (n < fuel)%nat -> tow t = None -> rig trailer p pl -> rig trailer t tl -> cartesian c rel = true ->
  exists d lat long, Distance fuel o t c rel true = Some (0%Z, Some (match c, rel with CS_ENTITY, REL_DIST_LATERAL => lat | CS_ENTITY, REL_DIST_LONGITUDINAL => long | _, _ => if Rlt_dec long 0 then - d else d end)) /\
    0 <= d /\ (forall x y, In (x, y) (firstn 100 (list_prod pl tl)) -> d <= fst (fst (FreeSpaceDistance (box_of x) (Some (box_of y)) true))) /\
    ((d = LARGE_NUMBER /\ lat = LARGE_NUMBER /\ long = LARGE_NUMBER) \/
     exists l1 l2 x y, firstn 100 (list_prod pl tl) = l1 ++ (x, y) :: l2 /\ FreeSpaceDistance (box_of x) (Some (box_of y)) true = (d, lat, long) /\ d < LARGE_NUMBER /\
       forall x' y', In (x', y') l1 -> d < fst (fst (FreeSpaceDistance (box_of x') (Some (box_of y')) true))).
Proof.
  intros F L T RP RT C. assert (D: Distance fuel o t c rel true = Some (0%Z, Some (from_candidate c rel (fold_left better (map space_of (firstn 100 (list_prod pl tl))) far3)))).
  { unfold Object_Distance. rewrite C. rewrite (frontmost_spec tow o p n F) by exact L. rewrite target_front_free by (assumption || lia).
    rewrite (pivot_loop trailer box_of p pl t tl RP RT) by (try apply Nat.le_refl; unfold d_of, LARGE_NUMBER; cbn [fst]; lra). reflexivity. }
  assert (Z: 0 <= d_of far3) by (unfold d_of, far3, LARGE_NUMBER; cbn [fst]; lra).
  destruct (fold_better (map space_of (firstn 100 (list_prod pl tl))) far3 Z (pos_map box_of _)) as (A & B & M & O). cbv zeta in *. rewrite D. set (r := fold_left _ _ _) in *. clearbody r. destruct r as [[d lat] long].
  change (d_of (d, lat, long)) with d in *. exists d, lat, long. split.
  { f_equal. f_equal. f_equal. unfold from_candidate, SIGN, Rltb. destruct (Rlt_dec long 0); destruct c, rel; try reflexivity; try ring; cbn in C; discriminate. }
  split; [exact A|]. split.
  { intros x y I. rewrite Forall_forall in M. specialize (M (space_of (x, y))). apply M. apply in_map, I. }
  destruct O as [O|(l1 & l2 & O & Lt & Fst)].
  - left. injection O as -> -> ->. auto.
  - right. apply map_eq_app in O. destruct O as (k1 & k2 & -> & <- & K). destruct k2 as [|[x y] k2]; [discriminate|]. cbn [map] in K. apply (f_equal (hd far3)) in K. cbn [hd] in K. exists k1, k2, x, y. split; [reflexivity|]. split; [exact K|]. split; [exact Lt|].
    intros x' y' I. rewrite Forall_forall in Fst. apply (Fst (space_of (x', y'))). apply in_map, I.
Qed.

(** As a distance between rigs of boxes of real size, with a hundred pairs at most: no point of the one is nearer to a point of the other. *)
Theorem C57_gap fuel o t c rel p n pl tl v : front_of tow o p n -> (n < fuel)%nat -> tow t = None -> rig trailer p pl -> rig trailer t tl -> rel = REL_DIST_EUCLIDIAN \/ rel = REL_DIST_CARTESIAN ->
  (List.length pl * List.length tl <= 100)%nat -> (forall x, In x pl \/ In x tl -> real_size (box_of x)) -> Distance fuel o t c rel true = Some (0%Z, Some v) ->
  (forall x x' y y' a b, In a pl -> In b tl -> covers (box_of a) x y -> covers (box_of b) x' y' -> Rabs v <= dist x y x' y') /\
  (v = 0 /\ (exists x x' y y' a b, In a pl /\ In b tl /\ covers (box_of a) x y /\ covers (box_of b) x' y' /\ dist x y x' y' <= 2 * SMALL_NUMBER) \/
   (exists x x' y y' a b, In a pl /\ In b tl /\ covers (box_of a) x y /\ covers (box_of b) x' y' /\ Rabs v = dist x y x' y') \/ Rabs v = LARGE_NUMBER).
Proof.
  intros F L T RP RT RE Cnt Sz D.
  assert (C: cartesian c rel = true) by (destruct RE as [E|E]; rewrite E; destruct c; reflexivity).
  destruct (C57_pairs fuel o t c rel p n pl tl F L T RP RT C) as (d & lat & long & D' & Pos & M & O). rewrite D in D'.
  assert (V: Rabs v = d).
  { assert (E: v = if Rlt_dec long 0 then - d else d) by (destruct RE as [E|E]; rewrite E in D'; destruct c; injection D' as D'; exact D'). rewrite E. destruct (Rlt_dec long 0); [rewrite Rabs_Ropp|]; apply Rabs_right; lra. }
  rewrite (firstn_all2 (n := 100)) in M, O by (rewrite prod_length; exact Cnt). split.
  - intros x x' y y' a b A B Cx Cy. rewrite V. eapply Rle_trans; [apply (M a b), in_prod; assumption|]. destruct (C56_distance (box_of a) (box_of b) (Sz a (or_introl A)) (Sz b (or_intror B))) as (Q & _). apply Q; assumption.
  - destruct O as [(E & _)|(l1 & l2 & a & b & E & S & Lt & _)]; [right; right; rewrite V; exact E|].
    assert (I: In (a, b) (list_prod pl tl)) by (rewrite E; apply in_elt). apply in_prod_iff in I. destruct I as (A & B).
    destruct (C56_distance (box_of a) (box_of b) (Sz a (or_introl A)) (Sz b (or_intror B))) as (_ & Q). cbv zeta in Q. rewrite S in Q. cbn [fst] in Q.
    destruct Q as [(Z & x & y & x' & y' & Cx & Cy & Q)|[(_ & x & y & x' & y' & Cx & Cy & Q)|Q]].
    + left. split; [|exists x, x', y, y', a, b; auto]. rewrite Z in V. destruct (Req_dec v 0) as [H|H]; [exact H|]. apply Rabs_no_R0 in H. contradiction.
    + right. left. exists x, x', y, y', a, b. rewrite V. auto.
    + lra.
Qed.

(** A negative distance: the nearest pair has its target behind. *)
Theorem C57_sign fuel o t c rel p n pl tl v : front_of tow o p n -> (n < fuel)%nat -> tow t = None -> rig trailer p pl -> rig trailer t tl -> rel = REL_DIST_EUCLIDIAN \/ rel = REL_DIST_CARTESIAN ->
  (forall x, In x pl \/ In x tl -> real_size (box_of x)) -> Distance fuel o t c rel true = Some (0%Z, Some v) -> v < 0 ->
  exists a b, In a pl /\ In b tl /\ forall x y x' y', covers (box_of a) x y -> covers (box_of b) x' y' -> ahead (box_of a) x' y' < ahead (box_of a) x y.
Proof.
  intros F L T RP RT RE Sz D Neg.
  assert (C: cartesian c rel = true) by (destruct RE as [E|E]; rewrite E; destruct c; reflexivity).
  destruct (C57_pairs fuel o t c rel p n pl tl F L T RP RT C) as (d & lat & long & D' & Pos & M & O). rewrite D in D'.
  assert (E: v = if Rlt_dec long 0 then - d else d) by (destruct RE as [E|E]; rewrite E in D'; destruct c; injection D' as D'; exact D'). destruct (Rlt_dec long 0) as [LN|LN]; [|lra].
  destruct O as [(_ & _ & Z)|(l1 & l2 & a & b & I0 & S & _)]; [rewrite Z in LN; unfold LARGE_NUMBER in LN; lra|].
  assert (I: In (a, b) (list_prod pl tl)) by (rewrite <- (firstn_skipn 100 (list_prod pl tl)); apply in_or_app; left; rewrite I0; apply in_elt). apply in_prod_iff in I. destruct I as (A & B). exists a, b. split; [exact A|]. split; [exact B|].
  destruct (C56_longitudinal (box_of a) (box_of b) (real_sized _ (Sz a (or_introl A))) (real_sized _ (Sz b (or_intror B)))) as [(Z & _)|(_ & _ & G)]; rewrite S in *; cbn [snd] in *; [lra|].
  intros x y x' y' Cx Cy. specialize (G x y x' y' Cx Cy). destruct (Rlt_dec 0 long); lra.
Qed.

(** Without trailers and tows it is the distance of the two boxes. *)
Theorem C57_alone fuel o t c d lat long : (0 < fuel)%nat -> tow o = None -> tow t = None -> trailer o = None -> trailer t = None ->
  FreeSpaceDistance (box_of o) (Some (box_of t)) true = (d, lat, long) -> d < LARGE_NUMBER ->
  Distance fuel o t c REL_DIST_EUCLIDIAN true = Some (0%Z, Some (if Rlt_dec long 0 then - d else d)) /\
  Distance fuel o t CS_ENTITY REL_DIST_LATERAL true = Some (0%Z, Some lat) /\ Distance fuel o t CS_ENTITY REL_DIST_LONGITUDINAL true = Some (0%Z, Some long).
Proof.
  intros L To Tt Ro Rt F Lt.
  assert (G: forall cc rel, cartesian cc rel = true -> Distance fuel o t cc rel true = Some (0%Z, Some (match cc, rel with CS_ENTITY, REL_DIST_LATERAL => lat | CS_ENTITY, REL_DIST_LONGITUDINAL => long | _, _ => if Rlt_dec long 0 then - d else d end))).
  { intros cc rel C. destruct (C57_pairs fuel o t cc rel o 0 [o] [t] (front_end _ _ To) L Tt (rig_end _ _ Ro) (rig_end _ _ Rt) C) as (d' & lat' & long' & D & Pos & M & O).
    assert (E: (d', lat', long') = (d, lat, long)).
    { specialize (M o t (or_introl eq_refl)). rewrite F in M. cbn [fst] in M. destruct O as [(E & _)|(l1 & l2 & x & y & I & S & _)]; [lra|].
      assert (J: In (x, y) (firstn 100 (list_prod [o] [t]))) by (rewrite I; apply in_elt). destruct J as [J|J]; [injection J as <- <-; congruence|destruct J]. }
    injection E as -> -> ->. exact D. }
  split; [rewrite G by (destruct c; reflexivity); destruct c; reflexivity|]. split; apply (G CS_ENTITY); reflexivity.
Qed.

(** A target that is a trailer in tow: the loop that looks for its tow vehicle ends in a null pointer or never. *)
Theorem C57_towed_target_refuted fuel o t c rel : tow t <> None -> cartesian c rel = true \/ c = CS_ROAD \/ c = CS_LANE -> Distance fuel o t c rel true = None.
Proof.
  intros T C. unfold Object_Distance. rewrite (target_front_towed tow t fuel T). destruct C as [C|[C|C]]; rewrite C; destruct (frontmost tow fuel o), (cartesian _ rel); try reflexivity; destruct c; reflexivity.
Qed.

(** ** A point *)

Theorem C57_point fuel o x y c rel p n pl max : front_of tow o p n -> (n < fuel)%nat -> rig trailer p pl -> (forall a, In a pl -> sized (box_of a)) -> cartesian c rel = true ->
  exists d lat long, DistanceXY fuel o x y c rel true max = Some (0%Z, Some (match c, rel with CS_ENTITY, REL_DIST_LATERAL => lat | CS_ENTITY, REL_DIST_LONGITUDINAL => long | _, _ => if Rlt_dec long 0 then - d else d end)) /\
    0 <= d /\ (forall a, In a (firstn 100 pl) -> d <= fst (fst (FreeSpaceDistancePoint (box_of a) x y))) /\
    ((d = LARGE_NUMBER /\ lat = LARGE_NUMBER /\ long = LARGE_NUMBER) \/
     exists l1 l2 a, firstn 100 pl = l1 ++ a :: l2 /\ FreeSpaceDistancePoint (box_of a) x y = (d, lat, long) /\ d < LARGE_NUMBER /\
       forall a', In a' l1 -> d < fst (fst (FreeSpaceDistancePoint (box_of a') x y))).
Proof.
  intros F L RP Sz C. assert (D: DistanceXY fuel o x y c rel true max = Some (0%Z, Some (from_candidate c rel (fold_left better (map (fsp box_of x y) (firstn 100 pl)) far3)))).
  { unfold Object_Distance_xy. rewrite C. rewrite (frontmost_spec tow o p n F) by exact L. rewrite (point_loop trailer box_of x y p pl RP). reflexivity. }
  assert (Z: 0 <= d_of far3) by (unfold d_of, far3, LARGE_NUMBER; cbn [fst]; lra).
  assert (W: Forall (fun d => 0 <= d_of d) (map (fsp box_of x y) (firstn 100 pl))).
  { apply Forall_forall. intros e E. apply in_map_iff in E. destruct E as (a & <- & A). apply fsp_pos, Sz. rewrite <- (firstn_skipn 100 pl). apply in_or_app. left. exact A. }
  destruct (fold_better _ far3 Z W) as (A & B & M & O). cbv zeta in *. rewrite D. set (r := fold_left _ _ _) in *. clearbody r. destruct r as [[d lat] long].
  change (d_of (d, lat, long)) with d in *. exists d, lat, long. split.
  { f_equal. f_equal. f_equal. unfold from_candidate, SIGN, Rltb. destruct (Rlt_dec long 0); destruct c, rel; try reflexivity; try ring; cbn in C; discriminate. }
  split; [exact A|]. split.
  { intros a I. rewrite Forall_forall in M. specialize (M (fsp box_of x y a)). apply M. apply in_map, I. }
  destruct O as [O|(l1 & l2 & O & Lt & Fst)].
  - left. injection O as -> -> ->. auto.
  - right. apply map_eq_app in O. destruct O as (k1 & k2 & -> & <- & K). destruct k2 as [|a k2]; [discriminate|]. cbn [map] in K. apply (f_equal (hd far3)) in K. cbn [hd] in K. exists k1, k2, a. split; [reflexivity|]. split; [exact K|]. split; [exact Lt|].
    intros a' I. rewrite Forall_forall in Fst. apply (Fst (fsp box_of x y a')). apply in_map, I.
Qed.

(** ** On the road *)

(** The road distance counts the members of the own rig, but of the target only the object given. *)
Theorem C57_road fuel o t c rel p n pl tl : front_of tow o p n -> (n < fuel)%nat -> tow t = None -> rig trailer p pl -> rig trailer t tl -> c = CS_ROAD \/ c = CS_LANE ->
  rel = REL_DIST_LATERAL \/ rel = REL_DIST_LONGITUDINAL -> ((List.length pl - 1) * List.length tl < 99)%nat ->
  let found a ds dt := In a pl /\ FreeSpaceDistanceObjectRoadLane box_of P snap delta a (Some t) c = (0%Z, ds, dt) in
  let value (ds dt : R) := match rel with REL_DIST_LATERAL => dt | _ => ds end in
  (Distance fuel o t c rel true = Some ((-1)%Z, None) /\ forall a ds dt, found a ds dt -> LARGE_NUMBER <= Rabs (value ds dt)) \/
  exists a ds dt, found a ds dt /\ Distance fuel o t c rel true = Some (0%Z, Some (value ds dt)) /\ Rabs (value ds dt) < LARGE_NUMBER /\
    forall b ds' dt', found b ds' dt' -> Rabs (value ds dt) <= Rabs (value ds' dt').
Proof.
  intros F L T RP RT C RE Cnt found value.
  assert (NC: cartesian c rel = false) by (destruct C as [E|E], RE as [E1|E1]; rewrite E, E1; reflexivity).
  assert (D: Distance fuel o t c rel true = let '(ret, d) := fold_left (road_better rel) (map (rd box_of P snap delta c t) pl) ((-1)%Z, (LARGE_NUMBER, LARGE_NUMBER)) in
              if negb (ret =? 0)%Z then Some ((-1)%Z, None) else match wanted rel d with Some v => Some (0%Z, Some v) | None => Some ((-1)%Z, None) end).
  { unfold Object_Distance. rewrite NC. rewrite (frontmost_spec tow o p n F) by exact L. rewrite target_front_free by (assumption || lia).
    rewrite (road_pivot_loop rel trailer box_of P snap delta c t p pl t tl RP RT 100 99) by lia. destruct C as [E|E]; rewrite E; reflexivity. }
  assert (VE: forall d, val rel d = value (fst d) (snd d)) by (intro d; unfold val, value; destruct RE as [E|E]; rewrite E; reflexivity).
  destruct (fold_road rel (map (rd box_of P snap delta c t) pl) RE ((-1)%Z, (LARGE_NUMBER, LARGE_NUMBER))) as (A & B & O). cbv zeta in *. rewrite D. set (r := fold_left _ _ _) in *. clearbody r.
  assert (Fd: forall a ds dt, found a ds dt -> In (0%Z, ds, dt) (map (rd box_of P snap delta c t) pl)).
  { intros a ds dt (I & E). unfold rd. rewrite <- E. apply (in_map (fun q => FreeSpaceDistanceObjectRoadLane box_of P snap delta q (Some t) c)), I. }
  destruct O as [O|(l1 & l2 & ds & dt & O & R0 & Lt & Fst)].
  - left. rewrite O. split; [reflexivity|]. intros a ds dt Q. specialize (B ds dt (Fd a ds dt Q)). rewrite O, !VE in B. cbn [snd fst] in B. unfold value in B at 1.
    replace (Rabs match rel with REL_DIST_LATERAL => LARGE_NUMBER | _ => LARGE_NUMBER end) with LARGE_NUMBER in B by (destruct RE as [E|E]; rewrite E; symmetry; apply Rabs_right; unfold LARGE_NUMBER; lra). exact B.
  - right. rewrite R0 in *. cbn [snd] in *. assert (I: In (0%Z, ds, dt) (map (rd box_of P snap delta c t) pl)) by (rewrite O; apply in_elt). apply in_map_iff in I. destruct I as (a & Ea & Ia).
    exists a, ds, dt. split; [split; [exact Ia|exact Ea]|]. split; [cbn; unfold wanted, value; destruct RE as [E|E]; rewrite E; reflexivity|]. rewrite !VE in Lt. cbn [fst snd] in Lt. split.
    + unfold value in Lt at 2. replace (Rabs match rel with REL_DIST_LATERAL => LARGE_NUMBER | _ => LARGE_NUMBER end) with LARGE_NUMBER in Lt by (destruct RE as [E|E]; rewrite E; symmetry; apply Rabs_right; unfold LARGE_NUMBER; lra). exact Lt.
    + intros b ds' dt' Q. specialize (B ds' dt' (Fd b ds' dt' Q)). rewrite !VE in B. exact B.
Qed.

(** Other kinds of distance cannot be measured on the road. *)
Theorem C57_road_kinds fuel o t c rel : c = CS_ROAD \/ c = CS_LANE -> rel = REL_DIST_UNDEFINED \/ rel = REL_DIST_EUCLIDIAN_ABS ->
  Distance fuel o t c rel true = None \/ Distance fuel o t c rel true = Some ((-1)%Z, None).
Proof.
  intros C RE. unfold Object_Distance. assert (NC: cartesian c rel = false) by (destruct C as [E|E], RE as [E1|E1]; rewrite E, E1; reflexivity). rewrite NC.
  assert (W: forall d, wanted_open rel d = false) by (intro d; unfold wanted_open, wanted; destruct RE as [E|E]; rewrite E; reflexivity).
  destruct (frontmost tow fuel o) as [p|], (target_front tow fuel t (Some t)) as [f|]; try (left; destruct C as [E|E]; rewrite E; reflexivity).
  right. assert (G: forall b, road_over_pivot trailer box_of P snap delta 100 99 (Some p) t f c rel b = b) by (intro b; cbn [road_over_pivot]; rewrite W, andb_false_r; reflexivity).
  rewrite G. destruct C as [E|E]; rewrite E; reflexivity.
Qed.

(** Free space needs a coordinate system. *)
Theorem C57_no_system fuel o t c rel : c = CS_UNDEFINED \/ c = CS_TRAJECTORY \/ c = CS_WORLD -> rel <> REL_DIST_EUCLIDIAN -> rel <> REL_DIST_CARTESIAN -> Distance fuel o t c rel true = Some ((-1)%Z, None).
Proof. intros C E1 E2. unfold Object_Distance. destruct C as [C|[C|C]]; rewrite C; destruct rel; try congruence; reflexivity. Qed.

(** The road distance of two boxes that do not collide: no pair of corners is nearer along or across the road, the distance is that of a pair of corners or zero,
    and it is zero if some corner of the first has corners of the other on both sides. *)
Theorem C57_road_object o t c ds dt : FreeSpaceDistanceObjectRoadLane box_of P snap delta o (Some t) c = (0%Z, ds, dt) -> Collision (box_of o) (Some (box_of t)) = false ->
  let apart v w e f := In v (world_corners (box_of o)) /\ In w (world_corners (box_of t)) /\ exists p q, snap o (fst v) (snd v) = Some p /\ snap o (fst w) (snd w) = Some q /\ delta p q = Some (e, f) in
  (forall v w, In v (world_corners (box_of o)) -> In w (world_corners (box_of t)) -> exists e f, apart v w e f /\ Rabs ds <= Rabs e /\ Rabs dt <= Rabs f) /\
  (ds = 0 \/ exists v w f, apart v w ds f) /\ (dt = 0 \/ exists v w e, apart v w e dt) /\
  (forall v w w' e f e' f', apart v w e f -> apart v w' e' f' -> (e < 0 <= e' -> ds = 0) /\ (f < 0 <= f' -> dt = 0)) /\
  ((forall v w e f, apart v w e f -> 0 < e) -> 0 < ds) /\ ((forall v w e f, apart v w e f -> e < 0) -> ds < 0) /\
  ((forall v w e f, apart v w e f -> 0 < f) -> 0 < dt) /\ ((forall v w e f, apart v w e f -> f < 0) -> dt < 0).
Proof.
  intros H NC apart. unfold FreeSpaceDistanceObjectRoadLane in H. rewrite NC in H.
  assert (Hc: exists ps qs rows, all_some (fun v => snap o (fst v) (snd v)) (world_corners (box_of o)) = Some ps /\ all_some (fun v => snap o (fst v) (snd v)) (world_corners (box_of t)) = Some qs /\
    all_some (fun p => all_some (delta p) qs) ps = Some rows /\ ds = (if existsb mixed (map (map fst) rows) then 0 else least (concat (map (map fst) rows))) /\ dt = (if existsb mixed (map (map snd) rows) then 0 else least (concat (map (map snd) rows)))).
  { destruct c; try discriminate; (destruct (all_some _ (world_corners (box_of o))) as [ps|]; [|discriminate]); (destruct (all_some _ (world_corners (box_of t))) as [qs|]; [|discriminate]); (destruct (all_some _ ps) as [rows|] eqn:Er; [|discriminate]);
    injection H as <- <-; exists ps, qs, rows; auto. }
  clear H. destruct Hc as (ps & qs & rows & Hp & Hq & Hr & Eds & Edt). apply all_some_spec in Hp, Hq, Hr.
  assert (F2: forall A B (Q : A -> B -> Prop) l l', Forall2 Q l l' -> (forall a, In a l -> exists b, In b l' /\ Q a b) /\ (forall b, In b l' -> exists a, In a l /\ Q a b)).
  { clear. intros A B Q l l' F. induction F as [|a b l l' X F (I1 & I2)]; [split; intros ? []|]. split.
    - intros x [<-|J]; [exists b; split; [left; reflexivity|exact X]|]. destruct (I1 x J) as (y & J1 & J2). exists y. split; [right; exact J1|exact J2].
    - intros x [<-|J]; [exists a; split; [left; reflexivity|exact X]|]. destruct (I2 x J) as (y & J1 & J2). exists y. split; [right; exact J1|exact J2]. }
  destruct (F2 _ _ _ _ _ Hp) as (P1 & P2), (F2 _ _ _ _ _ Hq) as (Q1 & Q2), (F2 _ _ _ _ _ Hr) as (R1 & R2).
  (* every entry belongs to a pair of corners, every pair of corners has an entry *)
  assert (IN: forall row d, In row rows -> In d row -> exists v w, apart v w (fst d) (snd d)).
  { intros row d I J. destruct (R2 row I) as (p & Ip & Er). apply all_some_spec in Er. destruct (F2 _ _ _ _ _ Er) as (_ & E2). destruct (E2 d J) as (q & Iq & Ed). destruct (P2 p Ip) as (v & Iv & Ev), (Q2 q Iq) as (w & Iw & Ew).
    exists v, w. split; [exact Iv|]. split; [exact Iw|]. exists p, q. split; [exact Ev|]. split; [exact Ew|]. rewrite Ed. destruct d; reflexivity. }
  assert (ROW: forall v, In v (world_corners (box_of o)) -> exists row, In row rows /\ forall w, In w (world_corners (box_of t)) -> exists d, In d row /\ apart v w (fst d) (snd d)).
  { intros v Iv. destruct (P1 v Iv) as (p & Ip & Ev). destruct (R1 p Ip) as (row & Ir & Er). exists row. split; [exact Ir|]. intros w Iw. destruct (Q1 w Iw) as (q & Iq & Ew). apply all_some_spec in Er. destruct (F2 _ _ _ _ _ Er) as (E1 & _). destruct (E1 q Iq) as (d & Id & Ed).
    exists d. split; [exact Id|]. split; [exact Iv|]. split; [exact Iw|]. exists p, q. split; [exact Ev|]. split; [exact Ew|]. rewrite Ed. destruct d; reflexivity. }
  assert (UNI: forall v w e f e' f', apart v w e f -> apart v w e' f' -> e = e' /\ f = f').
  { intros v w e f e' f' (_ & _ & p & q & A1 & A2 & A3) (_ & _ & p' & q' & B1 & B2 & B3). rewrite A1 in B1. injection B1 as <-. rewrite A2 in B2. injection B2 as <-. rewrite A3 in B3. injection B3 as -> ->. auto. }
  assert (VAL: forall (g : R * R -> R) x, x = (if existsb mixed (map (map g) rows) then 0 else least (concat (map (map g) rows))) ->
    (forall row d, In row rows -> In d row -> Rabs x <= Rabs (g d)) /\ (x = 0 \/ exists row d, In row rows /\ In d row /\ g d = x) /\
    (forall row d d', In row rows -> In d row -> In d' row -> g d < 0 <= g d' -> x = 0) /\
    ((forall row d, In row rows -> In d row -> 0 < g d) -> 0 < x) /\ ((forall row d, In row rows -> In d row -> g d < 0) -> x < 0)).
  { intros g x Ex. assert (CC: forall y, In y (concat (map (map g) rows)) <-> exists row d, In row rows /\ In d row /\ g d = y).
    { intro y. rewrite in_concat. split.
      - intros (r & I & J). apply in_map_iff in I. destruct I as (row & <- & I). apply in_map_iff in J. destruct J as (d & E & J). exists row, d. auto.
      - intros (row & d & I & J & E). exists (map g row). split; [apply in_map, I|]. rewrite <- E. apply in_map, J. }
    assert (NE: rows <> [] /\ forall row, In row rows -> row <> []).
    { assert (E1: world_corners (box_of o) <> []) by discriminate. assert (E2: world_corners (box_of t) <> []) by discriminate. split.
      - intro E. rewrite E in *. destruct (world_corners (box_of o)) as [|v l]; [congruence|]. destruct (ROW v (or_introl eq_refl)) as (row & [] & _).
      - intros row I E. destruct (R2 row I) as (p & Ip & Er). apply all_some_spec in Er. rewrite E in Er. inversion Er as [Eq|]; subst. inversion Hq; subst; congruence. }
    destruct (existsb mixed (map (map g) rows)) eqn:M.
    - subst x. rewrite Rabs_R0. split; [intros; apply Rabs_pos|]. split; [left; reflexivity|]. split; [reflexivity|].
      apply existsb_exists in M. destruct M as (r & I & M). apply in_map_iff in I. destruct I as (row & <- & I). destruct row as [|d0 row]; [discriminate|]. cbn [map] in M. apply mixed_spec in M. destruct M as (e & J & M). apply in_map_iff in J. destruct J as (d1 & <- & J).
      split; intro A; pose proof (A _ d0 I (or_introl eq_refl)); pose proof (A _ d1 I (or_intror J)); exfalso; apply M; destruct (sign_cases (g d0)) as [(X1 & X2)|(X1 & X2)], (sign_cases (g d1)) as [(X3 & X4)|(X3 & X4)]; rewrite X2, X4; lra.
    - assert (NN: concat (map (map g) rows) <> []).
      { destruct NE as (NE1 & NE2). destruct rows as [|row rs] eqn:ER; [congruence|]. specialize (NE2 row (or_introl eq_refl)). destruct row as [|d row]; [congruence|]. discriminate. }
      destruct (least_spec _ NN) as (L1 & L2). rewrite <- Ex in L1, L2. split; [|split; [|split]].
      + intros row d I J. apply L2. apply CC. exists row, d. auto.
      + right. apply CC in L1. exact L1.
      + intros row d d' I J J' S. exfalso. assert (MM: existsb mixed (map (map g) rows) = true); [|congruence]. apply existsb_exists. exists (map g row). split; [apply in_map, I|].
        destruct row as [|d0 row]; [destruct J|]. cbn [map]. apply mixed_spec.
        assert (G: SIGN (g d) <> SIGN (g d')). { destruct (sign_cases (g d)) as [(X1 & X2)|(X1 & X2)], (sign_cases (g d')) as [(X3 & X4)|(X3 & X4)]; rewrite X2, X4; lra. }
        destruct (Req_dec (SIGN (g d)) (SIGN (g d0))) as [Q|Q].
        * exists (g d'). split; [|congruence]. destruct J' as [<-|J']; [congruence|apply in_map, J'].
        * exists (g d). split; [|exact Q]. destruct J as [<-|J]; [congruence|apply in_map, J].
      + apply CC in L1. destruct L1 as (row & d & I & J & E). rewrite <- E. split; intro A; apply (A row d I J). }
  destruct (VAL fst ds Eds) as (S1 & S2 & S3 & S4 & S5), (VAL snd dt Edt) as (T1 & T2 & T3 & T4 & T5). split; [|split; [|split; [|split]]].
  - intros v w Iv Iw. destruct (ROW v Iv) as (row & Ir & X). destruct (X w Iw) as (d & Id & A). exists (fst d), (snd d). split; [exact A|]. split; [apply (S1 row d Ir Id)|apply (T1 row d Ir Id)].
  - destruct S2 as [S2|(row & d & I & J & E)]; [left; exact S2|right]. destruct (IN row d I J) as (v & w & A). exists v, w, (snd d). rewrite <- E. exact A.
  - destruct T2 as [T2|(row & d & I & J & E)]; [left; exact T2|right]. destruct (IN row d I J) as (v & w & A). exists v, w, (fst d). rewrite <- E. exact A.
  - intros v w w' e f e' f' A A'. destruct (ROW v (proj1 A)) as (row & Ir & X). destruct (X w (proj1 (proj2 A))) as (d & Id & B), (X w' (proj1 (proj2 A'))) as (d' & Id' & B').
    destruct (UNI _ _ _ _ _ _ A B) as (-> & ->), (UNI _ _ _ _ _ _ A' B') as (-> & ->). split; intro S; [apply (S3 row d d' Ir Id Id' S)|apply (T3 row d d' Ir Id Id' S)].
  - repeat split; intro A; [apply S4|apply S5|apply T4|apply T5]; intros row d I J; destruct (IN row d I J) as (v & w & B); apply (A v w _ _ B).
Qed.

(** The same for a point: the corner nearest along (across) the road, or zero. *)
Theorem C57_road_point o x y c lat long : FreeSpaceDistancePointRoadLane box_of P snap snap_free delta o x y c = (0%Z, lat, long) ->
  let apart v e f := In v (world_corners (box_of o)) /\ exists p q, snap o (fst v) (snd v) = Some p /\ snap_free o x y = Some q /\ delta p q = Some (e, f) in
  (forall v, In v (world_corners (box_of o)) -> exists e f, apart v e f /\ Rabs long <= Rabs e /\ Rabs lat <= Rabs f) /\
  (long = 0 \/ exists v f, apart v long f) /\ (lat = 0 \/ exists v e, apart v e lat) /\
  ((forall v e f, apart v e f -> 0 < e) -> 0 < long) /\ ((forall v e f, apart v e f -> e < 0) -> long < 0) /\
  ((forall v e f, apart v e f -> 0 < f) -> 0 < lat) /\ ((forall v e f, apart v e f -> f < 0) -> lat < 0).
Proof.
  intros H apart. unfold FreeSpaceDistancePointRoadLane in H.
  assert (Hc: exists q ds, snap_free o x y = Some q /\ all_some (fun v => match snap o (fst v) (snd v) with None => None | Some p => delta p q end) (world_corners (box_of o)) = Some ds /\
    lat = (if Reqb (SIGN (least (map snd ds))) (SIGN (most (map snd ds))) then least (map snd ds) else 0) /\ long = (if Reqb (SIGN (least (map fst ds))) (SIGN (most (map fst ds))) then least (map fst ds) else 0)).
  { destruct c; try discriminate; (destruct (snap_free o x y) as [q|]; [|discriminate]); (destruct (all_some _ (world_corners (box_of o))) as [ds|] eqn:E; [|discriminate]); injection H as <- <-; exists q, ds; auto. }
  clear H. destruct Hc as (q & ds & Sq & Hd & El & Eg). apply all_some_spec in Hd.
  assert (V1: forall v, In v (world_corners (box_of o)) -> exists d, In d ds /\ apart v (fst d) (snd d)).
  { assert (G: forall l l', Forall2 (fun v b => match snap o (fst v) (snd v) with None => None | Some p => delta p q end = Some b) l l' -> (forall v, In v l -> In v (world_corners (box_of o))) -> forall v, In v l -> exists d, In d l' /\ apart v (fst d) (snd d)).
    { intros l l' F. induction F as [|a b l l' X F IH]; intros Sub v I; [destruct I|]. destruct I as [<-|I].
      - exists b. split; [left; reflexivity|]. split; [apply Sub; left; reflexivity|]. destruct (snap o (fst a) (snd a)) as [p|]; [|discriminate]. exists p, q. split; [reflexivity|]. split; [exact Sq|]. rewrite X. destruct b; reflexivity.
      - destruct (IH (fun w W => Sub w (or_intror W)) v I) as (d & J & A). exists d. split; [right; exact J|exact A]. }
    apply (G _ _ Hd). auto. }
  assert (V2: forall d, In d ds -> exists v, apart v (fst d) (snd d)).
  { assert (G: forall l l', Forall2 (fun v b => match snap o (fst v) (snd v) with None => None | Some p => delta p q end = Some b) l l' -> (forall v, In v l -> In v (world_corners (box_of o))) -> forall d, In d l' -> exists v, apart v (fst d) (snd d)).
    { intros l l' F. induction F as [|a b l l' X F IH]; intros Sub v I; [destruct I|]. destruct I as [<-|I].
      - exists a. split; [apply Sub; left; reflexivity|]. destruct (snap o (fst a) (snd a)) as [p|]; [|discriminate]. exists p, q. split; [reflexivity|]. split; [exact Sq|]. rewrite X. destruct b; reflexivity.
      - apply (IH (fun w W => Sub w (or_intror W)) v I). }
    apply (G _ _ Hd). auto. }
  assert (NN: ds <> []) by (intro E; rewrite E in Hd; inversion Hd).
  assert (VAL: forall (g : R * R -> R) z, z = (if Reqb (SIGN (least (map g ds))) (SIGN (most (map g ds))) then least (map g ds) else 0) ->
    (forall d, In d ds -> Rabs z <= Rabs (g d)) /\ (z = 0 \/ exists d, In d ds /\ g d = z) /\ ((forall d, In d ds -> 0 < g d) -> 0 < z) /\ ((forall d, In d ds -> g d < 0) -> z < 0)).
  { intros g z Ez. assert (NM: map g ds <> []) by (destruct ds; [congruence|discriminate]). destruct (least_spec _ NM) as (L1 & L2), (most_spec _ NM) as (M1 & M2).
    assert (L1': exists d, In d ds /\ g d = least (map g ds)) by (apply in_map_iff in L1; destruct L1 as (d & E & I); exists d; auto).
    assert (M1': exists d, In d ds /\ g d = most (map g ds)) by (apply in_map_iff in M1; destruct M1 as (d & E & I); exists d; auto).
    destruct L1' as (d1 & I1 & E1), M1' as (d2 & I2 & E2). destruct (Reqb_spec (SIGN (least (map g ds))) (SIGN (most (map g ds)))) as [Q|Q].
    - subst z. split; [intros d D; apply L2, in_map, D|]. split; [right; exists d1; auto|]. rewrite <- E1. split; intro A; apply A; exact I1.
    - subst z. rewrite Rabs_R0. split; [intros; apply Rabs_pos|]. split; [left; reflexivity|]. rewrite <- E1, <- E2 in Q.
      split; intro A; pose proof (A d1 I1); pose proof (A d2 I2); destruct (sign_cases (g d1)) as [(X1 & X2)|(X1 & X2)], (sign_cases (g d2)) as [(X3 & X4)|(X3 & X4)]; rewrite X2, X4 in Q; lra. }
  destruct (VAL fst long Eg) as (S1 & S2 & S3 & S4), (VAL snd lat El) as (T1 & T2 & T3 & T4). split; [|split; [|split; [|split; [|split; [|split]]]]].
  - intros v Iv. destruct (V1 v Iv) as (d & Id & A). exists (fst d), (snd d). split; [exact A|]. split; [apply S1, Id|apply T1, Id].
  - destruct S2 as [S2|(d & I & E)]; [left; exact S2|right]. destruct (V2 d I) as (v & A). exists v, (snd d). rewrite <- E. exact A.
  - destruct T2 as [T2|(d & I & E)]; [left; exact T2|right]. destruct (V2 d I) as (v & A). exists v, (fst d). rewrite <- E. exact A.
  - intro A. apply S3. intros d I. destruct (V2 d I) as (v & B). apply (A v _ _ B).
  - intro A. apply S4. intros d I. destruct (V2 d I) as (v & B). apply (A v _ _ B).
  - intro A. apply T3. intros d I. destruct (V2 d I) as (v & B). apply (A v _ _ B).
  - intro A. apply T4. intros d I. destruct (V2 d I) as (v & B). apply (A v _ _ B).
Qed.

(** ** Without free space *)

(** Between reference points: Euclidean with the sign of being ahead, absolute, and in coordinates of the entity; along the road as found. *)
Theorem C57_positions fuel o t c : let x := b_x (box_of t) in let y := b_y (box_of t) in let d := dist (b_x (box_of o)) (b_y (box_of o)) x y in
  (Distance fuel o t c REL_DIST_EUCLIDIAN false = Some (0%Z, Some (if Rlt_dec 0 (ahead (box_of o) x y) then d else - d))) /\
  (Distance fuel o t c REL_DIST_CARTESIAN false = Distance fuel o t c REL_DIST_EUCLIDIAN false) /\
  (Distance fuel o t c REL_DIST_EUCLIDIAN_ABS false = Some (0%Z, Some d)) /\
  (Distance fuel o t CS_ENTITY REL_DIST_LONGITUDINAL false = Some (0%Z, Some (ahead (box_of o) x y))) /\
  (Distance fuel o t CS_ENTITY REL_DIST_LATERAL false = Some (0%Z, Some (left_of (box_of o) x y))) /\
  (c = CS_ROAD \/ c = CS_LANE -> let '(found, ds, dt) := pos_delta o t LARGE_NUMBER in
     Distance fuel o t c REL_DIST_LONGITUDINAL false = Some (if found then 0%Z else (-1)%Z, Some ds) /\ Distance fuel o t c REL_DIST_LATERAL false = Some (if found then 0%Z else (-1)%Z, Some dt)).
Proof.
  cbv zeta. set (x := b_x (box_of t)). set (y := b_y (box_of t)).
  assert (R: relative_to (box_of o) x y = (if Rlt_dec 0 (ahead (box_of o) x y) then dist (b_x (box_of o)) (b_y (box_of o)) x y else - dist (b_x (box_of o)) (b_y (box_of o)) x y, (ahead (box_of o) x y, left_of (box_of o) x y))).
  { unfold relative_to, RotateVec2D. rewrite cos_neg, sin_neg. replace ((x - b_x (box_of o)) * cos (b_h (box_of o)) - (y - b_y (box_of o)) * - sin (b_h (box_of o))) with (ahead (box_of o) x y) by (unfold ahead; ring).
    replace ((x - b_x (box_of o)) * - sin (b_h (box_of o)) + (y - b_y (box_of o)) * cos (b_h (box_of o))) with (left_of (box_of o) x y) by (unfold left_of; ring). f_equal.
    replace (sqrt (ahead (box_of o) x y * ahead (box_of o) x y + left_of (box_of o) x y * left_of (box_of o) x y)) with (dist (b_x (box_of o)) (b_y (box_of o)) x y).
    - unfold Rltb. destruct (Rlt_dec 0 (ahead (box_of o) x y)); ring.
    - unfold dist. f_equal. unfold ahead, left_of. pose proof (cs (b_h (box_of o))) as Q. set (C := cos _) in *. set (S := sin _) in *. clearbody C S.
      transitivity (((b_x (box_of o) - x) * (b_x (box_of o) - x) + (b_y (box_of o) - y) * (b_y (box_of o) - y)) * (C * C + S * S)); [rewrite Q; ring|ring]. }
  unfold Object_Distance, Position_Distance. fold x y. rewrite R. split; [reflexivity|]. split; [reflexivity|]. split.
  { f_equal. f_equal. f_equal. pose proof (dist_pos (b_x (box_of o)) (b_y (box_of o)) x y) as Q. destruct (Rlt_dec 0 (ahead (box_of o) x y)); [|rewrite Rabs_Ropp]; apply Rabs_right; lra. }
  split; [reflexivity|]. split; [reflexivity|]. destruct (pos_delta o t LARGE_NUMBER) as [[found ds] dt]. intros [E|E]; rewrite E; split; reflexivity.
Qed.

(** Along one trajectory; without own trajectory the Euclidean distance; from another trajectory the place on the own one nearest to the target. *)
Theorem C57_trajectory fuel o t n : trajectory o = Some n ->
  (trajectory t = Some n -> Distance fuel o t CS_TRAJECTORY REL_DIST_LONGITUDINAL false = Some (0%Z, Some (traj_s t - traj_s o)) /\ Distance fuel o t CS_TRAJECTORY REL_DIST_LATERAL false = Some (0%Z, Some (traj_t t - traj_t o))) /\
  (trajectory t <> Some n -> forall s, closest o (b_x (box_of t)) (b_y (box_of t)) = Some s -> Distance fuel o t CS_TRAJECTORY REL_DIST_LONGITUDINAL false = Some (0%Z, Some (s - traj_s o))).
Proof.
  intro T. unfold Object_Distance, Position_Distance, to_trajectory. destruct (relative_to _ _ _) as [e [dx dy]] eqn:R. rewrite T. split.
  - intros ->. rewrite N.eqb_refl. split; reflexivity.
  - intros D s ->. destruct (trajectory t) as [m|]; [|reflexivity]. destruct (N.eqb_spec n m); [subst; congruence|reflexivity].
Qed.

(** A lateral distance to an object off the trajectory is its whole distance, not that to the trajectory. *)
Theorem C57_trajectory_lateral_refuted fuel o t n : trajectory o = Some n -> trajectory t <> Some n ->
  Distance fuel o t CS_TRAJECTORY REL_DIST_LATERAL false = Distance fuel o t CS_TRAJECTORY REL_DIST_EUCLIDIAN false.
Proof.
  intros T D. unfold Object_Distance, Position_Distance, to_trajectory. destruct (relative_to _ _ _) as [e [dx dy]] eqn:R. rewrite T. destruct (trajectory t) as [m|]; [|destruct (closest _ _ _); reflexivity].
  destruct (N.eqb_spec n m); [subst; congruence|]. destruct (closest _ _ _); reflexivity.
Qed.

(** The distance of a point along a trajectory is not measured: the result is the own place, wherever the point is. *)
Theorem C57_point_trajectory_refuted fuel o x y max : DistanceXY fuel o x y CS_TRAJECTORY REL_DIST_LONGITUDINAL false max = Some (0%Z, Some (traj_s o)) /\
  DistanceXY fuel o x y CS_TRAJECTORY REL_DIST_LATERAL false max = Some (0%Z, Some (traj_t o)).
Proof. unfold Object_Distance_xy, Position_Distance_xy. destruct (relative_to _ _ _) as [e [dx dy]]. split; reflexivity. Qed.

(** In world coordinates (or none given) success is reported without a result, and the headway is taken from a variable never set. *)
Theorem C57_unset_refuted fuel o t c rel : c = CS_UNDEFINED \/ c = CS_WORLD -> rel = REL_DIST_LATERAL \/ rel = REL_DIST_LONGITUDINAL ->
  Distance fuel o t c rel false = Some (0%Z, None) /\ Headway fuel o t c rel false = None.
Proof.
  intros C RE. assert (D: Distance fuel o t c rel false = Some (0%Z, None)).
  { unfold Object_Distance, Position_Distance. destruct (relative_to _ _ _) as [e [dx dy]]. destruct C as [C|C], RE as [E|E]; rewrite C, E; reflexivity. }
  split; [exact D|]. unfold TimeHeadway. rewrite D. reflexivity.
Qed.

(** ** Times *)

(** The headway is the distance over the speed, or -1 if the target is behind or the object does not drive forward; without a distance the limit is divided. *)
Theorem C57_headway fuel o t c rel free v : Distance fuel o t c rel free = Some (0%Z, Some v) ->
  (0 <= v -> 1 / 1000000 <= speed o -> Headway fuel o t c rel free = Some (v / speed o)) /\ (v < 0 \/ speed o < 1 / 1000000 -> Headway fuel o t c rel free = Some (-1)).
Proof.
  intro D. unfold TimeHeadway. rewrite D. cbn [Z.eqb]. unfold SMALL_NUMBER. split.
  - intros V S. destruct (Rltb_spec v 0); [lra|]. destruct (Rltb_spec (speed o) (1 / 1000000)); [lra|]. cbn [orb]. f_equal. apply Rabs_right. apply Rle_ge. apply Rmult_le_pos; [exact V|]. apply Rlt_le, Rinv_0_lt_compat. lra.
  - intros [V|S]; [destruct (Rltb_spec v 0); [reflexivity|lra]|]. destruct (Rltb_spec (speed o) (1 / 1000000)); [rewrite orb_true_r; reflexivity|lra].
Qed.

Theorem C57_headway_none fuel o t c rel free d : Distance fuel o t c rel free = Some ((-1)%Z, d) -> 1 / 1000000 <= speed o -> Headway fuel o t c rel free = Some (LARGE_NUMBER / speed o).
Proof.
  intros D S. unfold TimeHeadway. rewrite D. cbn [Z.eqb]. unfold SMALL_NUMBER, LARGE_NUMBER. destruct (Rltb_spec 10000000000 0); [lra|]. destruct (Rltb_spec (speed o) (1 / 1000000)); [lra|]. cbn [orb]. f_equal.
  apply Rabs_right. apply Rle_ge. apply Rmult_le_pos; [lra|]. apply Rlt_le, Rinv_0_lt_compat. lra.
Qed.

(** The time to collision is never negative but -1, and then it is the time the distance takes at the relative speed. *)
Theorem C57_ttc fuel o t c rel free v ttc : Distance fuel o t c rel free = Some (0%Z, Some v) -> TTC fuel o (Some t) c rel free = Some (0%Z, ttc) ->
  let u := relative_speed speed vel o t in
  (ttc = -1 /\ (Rabs v < 1 / 1000000 \/ Rabs u < 1 / 1000000 \/ v * u < 0)) \/ (0 <= ttc /\ ttc * u = v /\ 1 / 1000000 <= Rabs v /\ 1 / 1000000 <= Rabs u).
Proof.
  intros D T u. unfold TimeToCollision in T. rewrite D in T. cbn [Z.eqb] in T. fold u in T. injection T as T. unfold SMALL_NUMBER in T. revert T. cbv zeta.
  destruct (Rltb_spec (Rabs v) (1 / 1000000)) as [A|A]; [intros <-; left; auto|]. destruct (Rltb_spec (Rabs u) (1 / 1000000)) as [B|B]; [intros <-; left; auto|]. cbn [orb].
  assert (U: u <> 0) by (intro E; rewrite E, Rabs_R0 in B; lra). assert (E: v / u * u = v) by (field; exact U).
  assert (Q: 0 < u * u) by (destruct (Rtotal_order u 0) as [H|[H|H]]; [|contradiction|]; nra).
  destruct (Rltb_spec (v / u) 0) as [C|C]; intros <-.
  - left. split; [reflexivity|]. right. right. replace (v * u) with (v / u * (u * u)) by (field; exact U). nra.
  - right. split; [lra|]. split; [exact E|]. lra.
Qed.

(** On one line, the object driving (forward or in reverse) at speed a and the target at speed b, both along the heading h of the object: the relative
    speed is the difference, so a collision is predicted when and where they meet. *)
Theorem C57_ttc_line o t h a b : vel o = (a * cos h, a * sin h) -> vel t = (b * cos h, b * sin h) -> speed o = a -> Rabs (speed t) = Rabs b -> a <> 0 -> 1 / 1000000 < b * b \/ b = 0 ->
  relative_speed speed vel o t = a - b.
Proof.
  intros Vo Vt So St A B. unfold relative_speed. rewrite Vo, Vt, So, St. cbn [fst snd]. pose proof (cs h) as Q. destruct B as [B|B].
  - assert (NS: (Rltb (Rabs (b * cos h)) SMALL_NUMBER && Rltb (Rabs (b * sin h)) SMALL_NUMBER)%bool = false).
    { destruct (Rltb_spec (Rabs (b * cos h)) SMALL_NUMBER) as [X|X]; [|reflexivity]. destruct (Rltb_spec (Rabs (b * sin h)) SMALL_NUMBER) as [Y|Y]; [|reflexivity]. exfalso.
      apply Rabs_def2 in X, Y. unfold SMALL_NUMBER in *. assert (b * b = (b * cos h) * (b * cos h) + (b * sin h) * (b * sin h)) by (transitivity (b * b * (cos h * cos h + sin h * sin h)); [rewrite Q; ring|ring]). nra. }
    rewrite NS. assert (L: (b * cos h) * (b * cos h) + (b * sin h) * (b * sin h) = b * b) by (transitivity (b * b * (cos h * cos h + sin h * sin h)); [ring|rewrite Q; ring]).
    assert (PJ: ProjectPointOnVector2DSignedLength (a * cos h) (a * sin h) (b * cos h) (b * sin h) = a * b / Rabs b).
    { rewrite signed_length_spec by (unfold SMALL_NUMBER; rewrite L; lra). rewrite L. change (b * b) with (Rsqr b). rewrite sqrt_Rsqr_abs. f_equal. transitivity (a * b * (cos h * cos h + sin h * sin h)); [ring|rewrite Q; ring]. }
    rewrite PJ. destruct (Rtotal_order b 0) as [Nb|[Nb|Nb]]; [|rewrite Nb in B; lra|].
    + rewrite (Rabs_left b Nb). replace (a * b / - b) with (- a) by (field; lra). destruct (sign_cases a) as [(X1 & X2)|(X1 & X2)], (sign_cases (- a)) as [(X3 & X4)|(X3 & X4)]; rewrite X2, X4; lra.
    + rewrite (Rabs_right b) by lra. replace (a * b / b) with a by (field; lra). destruct (sign_cases a) as [(X1 & X2)|(X1 & X2)]; rewrite X2; lra.
  - rewrite B, !Rmult_0_l, Rabs_R0. destruct (Rltb_spec 0 SMALL_NUMBER) as [H|H]; [cbn; lra|unfold SMALL_NUMBER in H; lra].
Qed.

Theorem C57_ttc_meets fuel o t c rel free h a b v ttc : Distance fuel o t c rel free = Some (0%Z, Some v) -> TTC fuel o (Some t) c rel free = Some (0%Z, ttc) ->
  vel o = (a * cos h, a * sin h) -> vel t = (b * cos h, b * sin h) -> speed o = a -> Rabs (speed t) = Rabs b -> a <> 0 -> 1 / 1000000 < b * b \/ b = 0 -> 0 <= ttc -> a * ttc = v + b * ttc.
Proof.
  intros D T Vo Vt So St A B P0. pose proof (C57_ttc _ _ _ _ _ _ _ _ D T) as H. cbv zeta in H. rewrite (C57_ttc_line o t h a b Vo Vt So St A B) in H. destruct H as [(E & _)|(_ & E & _)]; lra.
Qed.

(** For an object standing still the relative speed has the sign of a target driving away ahead, whichever way it drives: no time for an oncoming target, and a time for
    one behind that drives away. *)
Theorem C57_ttc_standing_refuted fuel o t c rel free h b v : Distance fuel o t c rel free = Some (0%Z, Some v) -> vel o = (0, 0) -> speed o = 0 -> vel t = (b * cos h, b * sin h) -> Rabs (speed t) = Rabs b -> 1 / 1000000 < b * b ->
  (1 / 1000000 <= v -> TTC fuel o (Some t) c rel free = Some (0%Z, -1)) /\ (v <= - (1 / 1000000) -> TTC fuel o (Some t) c rel free = Some (0%Z, - v / Rabs b)).
Proof.
  intros D Vo So Vt St B. assert (NB: b <> 0) by (intro E; rewrite E in B; lra). pose proof (Rabs_pos_lt b NB) as PB.
  assert (LB: 1 / 1000000 < Rabs b). { destruct (Rlt_dec (1 / 1000000) (Rabs b)); [assumption|]. assert (Rabs b * Rabs b = b * b) by (rewrite <- Rabs_mult; apply Rabs_right; nra). nra. }
  assert (RS: relative_speed speed vel o t = - Rabs b).
  { unfold relative_speed. rewrite Vo, Vt, So, St. cbn [fst snd]. pose proof (cs h) as Q.
    assert (NS: (Rltb (Rabs (b * cos h)) SMALL_NUMBER && Rltb (Rabs (b * sin h)) SMALL_NUMBER)%bool = false).
    { destruct (Rltb_spec (Rabs (b * cos h)) SMALL_NUMBER) as [X|X]; [|reflexivity]. destruct (Rltb_spec (Rabs (b * sin h)) SMALL_NUMBER) as [Y|Y]; [|reflexivity]. exfalso.
      apply Rabs_def2 in X, Y. unfold SMALL_NUMBER in *. assert (b * b = (b * cos h) * (b * cos h) + (b * sin h) * (b * sin h)) by (transitivity (b * b * (cos h * cos h + sin h * sin h)); [rewrite Q; ring|ring]). nra. }
    rewrite NS. assert (L: (b * cos h) * (b * cos h) + (b * sin h) * (b * sin h) = b * b) by (transitivity (b * b * (cos h * cos h + sin h * sin h)); [ring|rewrite Q; ring]).
    rewrite signed_length_spec by (unfold SMALL_NUMBER; rewrite L; lra). replace (0 * (b * cos h) + 0 * (b * sin h)) with 0 by ring. unfold Rdiv. rewrite Rmult_0_l.
    destruct (sign_cases 0) as [(X1 & X2)|(X1 & X2)]; rewrite X2; lra. }
  unfold TimeToCollision. rewrite D, RS. cbn [Z.eqb]. unfold SMALL_NUMBER. rewrite Rabs_Ropp, Rabs_Rabsolu. destruct (Rltb_spec (Rabs b) (1 / 1000000)); [lra|]. cbv zeta.
  assert (E: v / - Rabs b = - v / Rabs b) by (field; lra). rewrite E. split; intro V.
  - rewrite (Rabs_right v) by lra. destruct (Rltb_spec v (1 / 1000000)); [lra|]. cbn [orb]. destruct (Rltb_spec (- v / Rabs b) 0) as [X|X]; [reflexivity|]. exfalso. apply X. apply Rmult_lt_reg_r with (Rabs b); [exact PB|]. unfold Rdiv. rewrite Rmult_assoc, Rinv_l by lra. lra.
  - rewrite (Rabs_left v) by lra. destruct (Rltb_spec (- v) (1 / 1000000)); [lra|]. cbn [orb]. destruct (Rltb_spec (- v / Rabs b) 0) as [X|X]; [|reflexivity]. exfalso. apply Rmult_lt_compat_r with (r := Rabs b) in X; [|exact PB]. unfold Rdiv in X. rewrite Rmult_assoc, Rinv_l in X by lra. lra.
Qed.

Theorem C57_ttc_nobody fuel o c rel free : TTC fuel o None c rel free = Some ((-1)%Z, -1).
Proof. reflexivity. Qed.
End Props.

(** ** A straight road along the x axis *)

(** A car, a truck a hundred metres ahead with its trailer half way, a car ten metres ahead, a bus, a car beside it and a crate turned by 45 degrees. *)
Definition boxes (n : N) : box := match n with
  | 0%N => car 0 0 0 | 1%N => car 100 0 0 | 2%N => car 50 0 0 | 3%N => car 10 0 0 | 4%N => Box 0 0 0 0 0 0 20 2 | 5%N => Box 0 10 0 0 0 0 4 2
  | _ => Box 0 0 0 (PI / 4) 0 0 (4 * sqrt 2) (2 * sqrt 2) end.
Definition tows (n : N) : option N := match n with 1%N => Some 2%N | _ => None end.
Definition towed (n : N) : option N := match n with 2%N => Some 1%N | _ => None end.
Definition flat (_ : N) (x y : R) : option (R * R) := Some (x, y).
Definition apart (p q : R * R) : option (R * R) := Some (fst q - fst p, snd q - snd p).
Definition straight (o t : N) (_ : R) : bool * R * R := (true, b_x (boxes t) - b_x (boxes o), b_y (boxes t) - b_y (boxes o)).
Definition straight_xy (o : N) (x y _ : R) : bool * R * R := (true, x - b_x (boxes o), y - b_y (boxes o)).
Definition track (n : N) : option N := match n with 0%N | 3%N => Some 7%N | 1%N => Some 8%N | _ => None end.
Definition track_s (n : N) : R := b_x (boxes n).
Definition track_t (n : N) : R := b_y (boxes n).
Definition along (_ : N) (x y : R) : option R := Some x.
Definition pace (n : N) : R := match n with 0%N => 20 | 1%N => 10 | 2%N => -5 | _ => 0 end.
Definition going (n : N) : R * R := (pace n * cos 0, pace n * sin 0).

Notation D := (Object_Distance tows towed boxes (R * R) flat apart straight track track_s track_t along).
Notation Dxy := (Object_Distance_xy tows towed boxes (R * R) flat flat apart straight_xy track_s track_t).
Notation On_road := (FreeSpaceDistanceObjectRoadLane boxes (R * R) flat apart).
Notation Point_on_road := (FreeSpaceDistancePointRoadLane boxes (R * R) flat flat apart).

Lemma level_corners x y z cx cy l w : world_corners (Box x y z 0 cx cy l w) =
  [(x + cx + l / 2, y + cy + w / 2); (x + cx - l / 2, y + cy + w / 2); (x + cx - l / 2, y + cy - w / 2); (x + cx + l / 2, y + cy - w / 2)].
Proof. unfold world_corners, vertices, placed, RotateVec2D. cbn [map b_x b_y b_h b_cx b_cy b_len b_wid fst snd]. rewrite cos_0, sin_0. repeat (apply f_equal2; [apply f_equal2; ring|]). reflexivity. Qed.

Lemma on_road o t c : c = CS_ROAD \/ c = CS_LANE -> exists ds dt, On_road o (Some t) c = (0%Z, ds, dt).
Proof.
  intro C. destruct C as [C|C]; rewrite C; unfold FreeSpaceDistanceObjectRoadLane, world_corners, vertices; (destruct (Collision _ _); [eauto|]); cbn [map all_some flat apart]; eauto.
Qed.

Lemma point_on_road o x y c : c = CS_ROAD \/ c = CS_LANE -> exists lat long, Point_on_road o x y c = (0%Z, lat, long).
Proof. intro C. destruct C as [C|C]; rewrite C; unfold FreeSpaceDistancePointRoadLane, world_corners, vertices; cbn [map all_some flat apart]; eauto. Qed.

Lemma no_collision o t : sized o -> sized t -> (forall x y, covers (grow SMALL_NUMBER o) x y -> covers (grow SMALL_NUMBER t) x y -> False) -> Collision o (Some t) = false.
Proof.
  intros So St H. destruct (Collision o (Some t)) eqn:C; [|reflexivity]. exfalso. apply (C56_collision_only o t So St) in C. destruct C as (_ & x & y & A & B). exact (H x y A B).
Qed.

Lemma sign_up x : 0 <= x -> SIGN x = 1.
Proof. intro H. destruct (sign_cases x) as [(X1 & X2)|(X1 & X2)]; [|exact X2 || lra]; try exact X2; lra. Qed.

Lemma sign_down x : x < 0 -> SIGN x = -1.
Proof. intro H. destruct (sign_cases x) as [(X1 & X2)|(X1 & X2)]; try exact X2; lra. Qed.

Lemma level_covers x y z cx cy l w px py : covers (Box x y z 0 cx cy l w) px py <-> x + cx - l / 2 <= px <= x + cx + l / 2 /\ y + cy - w / 2 <= py <= y + cy + w / 2.
Proof. rewrite covers_coords. unfold ahead, left_of. cbn. rewrite cos_0, sin_0. split; lra. Qed.

Lemma level_sized x y z cx cy l w : 0 <= l -> 0 <= w -> sized (Box x y z 0 cx cy l w).
Proof. intros. split; assumption. Qed.

(** Cars in a row on this road: the distance from the front of the first to the rear of the second. *)
Lemma row_gap o t c x x' ds dt : boxes o = car x 0 0 -> boxes t = car x' 0 0 -> x + 5 < x' -> On_road o (Some t) c = (0%Z, ds, dt) -> ds = x' - x - 4.
Proof.
  intros Bo Bt L F. assert (NC: Collision (boxes o) (Some (boxes t)) = false).
  { rewrite Bo, Bt. apply no_collision; [apply real_sized, car_real|apply real_sized, car_real|]. intros px py A B. unfold grow, car, SMALL_NUMBER in A, B. cbn [b_x b_y b_z b_h b_cx b_cy b_len b_wid] in A, B. apply level_covers in A, B. lra. }
  destruct (C57_road_object boxes (R * R) flat apart o t c ds dt F NC) as (H1 & H2 & _ & _ & H3 & _). rewrite Bo, Bt in *. unfold car in *. rewrite !level_corners in *.
  assert (G: forall v w e f, (In v [(x + 1 + 4 / 2, 0 + 0 + 2 / 2); (x + 1 - 4 / 2, 0 + 0 + 2 / 2); (x + 1 - 4 / 2, 0 + 0 - 2 / 2); (x + 1 + 4 / 2, 0 + 0 - 2 / 2)] /\
    In w [(x' + 1 + 4 / 2, 0 + 0 + 2 / 2); (x' + 1 - 4 / 2, 0 + 0 + 2 / 2); (x' + 1 - 4 / 2, 0 + 0 - 2 / 2); (x' + 1 + 4 / 2, 0 + 0 - 2 / 2)] /\
    exists p q, flat o (fst v) (snd v) = Some p /\ flat o (fst w) (snd w) = Some q /\ apart p q = Some (e, f)) -> x' - x - 4 <= e).
  { intros v w e f (Iv & Iw & p & q & P1 & P2 & A). unfold flat in P1, P2. injection P1 as <-. injection P2 as <-. unfold apart in A. cbn [fst snd] in A. injection A as E _. rewrite <- E.
    cbn [In] in Iv, Iw. destruct Iv as [<-|[<-|[<-|[<-|[]]]]], Iw as [<-|[<-|[<-|[<-|[]]]]]; cbn [fst]; lra. }
  assert (P0: 0 < ds). { apply H3. intros v w e f A. apply G in A. lra. }
  assert (M: x' - x - 4 <= ds). { destruct H2 as [Z|(v & w & f & A)]; [lra|]. apply (G v w ds f A). }
  destruct (H1 (x + 1 + 4 / 2, 0 + 0 + 2 / 2) (x' + 1 - 4 / 2, 0 + 0 + 2 / 2)) as (e & f & (_ & _ & p & q & P1 & P2 & A) & B & _); [cbn; auto|cbn; auto|].
  unfold flat in P1, P2. injection P1 as <-. injection P2 as <-. unfold apart in A. cbn [fst snd] in A. injection A as E _. rewrite <- E in B. rewrite !Rabs_right in B by lra. lra.
Qed.

Lemma front0 : forall n, n <> 2%N -> front_of towed n n 0.
Proof. intros n H. apply front_end. destruct n as [|[[]|[]|]]; try reflexivity. congruence. Qed.

Example C57_pairs_ex : front_of towed 0 0 0 /\ rig tows 0 [0%N] /\ rig tows 1 [1%N; 2%N] /\ towed 1 = None /\ front_of towed 2 1 1.
Proof. split; [apply front0; discriminate|]. split; [apply rig_end; reflexivity|]. split; [apply rig_next with 2%N; [reflexivity|apply rig_end; reflexivity]|]. split; [reflexivity|]. apply front_next with 1%N; [reflexivity|apply front_end; reflexivity]. Qed.

(** The truck is 96 metres ahead, its trailer 46. *)
Example C57_gap_ex : D 1 0 1 CS_ROAD REL_DIST_EUCLIDIAN true = Some (0%Z, Some 46).
Proof.
  destruct C57_pairs_ex as (F & R0 & R1 & T & _).
  destruct (C57_pairs tows towed boxes (R * R) flat apart straight track track_s track_t along 1 0 1 CS_ROAD REL_DIST_EUCLIDIAN 0 0 _ _ F ltac:(lia) T R0 R1 eq_refl) as (d & lat & long & E & _). rewrite E. cbv zeta beta iota in E.
  set (v := if Rlt_dec long 0 then - d else d) in *. clearbody v. clear d lat long.
  assert (SZ: forall x, In x [0%N] \/ In x [1%N; 2%N] -> real_size (boxes x)). { intros x [[<-|[]]|[<-|[<-|[]]]]; apply car_real. }
  destruct (C57_gap _ _ _ _ _ _ _ _ _ _ _ 1 0 1 CS_ROAD REL_DIST_EUCLIDIAN 0 0 _ _ v F ltac:(lia) T R0 R1 (or_introl eq_refl) ltac:(cbn; lia) SZ E) as (L & H).
  assert (V: Rabs v <= 46).
  { replace 46 with (dist 3 0 49 0). apply (L 3 49 0 0 0%N 2%N); [left; reflexivity|right; left; reflexivity|apply car_covers; lra|apply car_covers; lra]. unfold dist. replace ((3 - 49) * (3 - 49) + (0 - 0) * (0 - 0)) with (46 * 46) by ring. apply sqrt_square. lra. }
  assert (G: forall x x' y y' a b, In a [0%N] -> In b [1%N; 2%N] -> covers (boxes a) x y -> covers (boxes b) x' y' -> 46 <= dist x y x' y').
  { intros x x' y y' a b [<-|[]] Ib A B. apply car_covers in A. assert (49 <= x') by (destruct Ib as [<-|[<-|[]]]; apply car_covers in B; lra). rewrite <- (sqrt_square 46) by lra. unfold dist. apply sqrt_le_1_alt.
    pose proof (Rle_0_sqr (y - y')) as S. unfold Rsqr in S. assert (46 * 46 <= (x - x') * (x - x')) by (replace ((x - x') * (x - x')) with ((x' - x) * (x' - x)) by ring; apply square_le; lra). lra. }
  assert (AV: Rabs v = 46).
  { destruct H as [(_ & x & x' & y & y' & a & b & Ia & Ib & A & B & Q)|[(x & x' & y & y' & a & b & Ia & Ib & A & B & Q)|Q]].
    - specialize (G x x' y y' a b Ia Ib A B). unfold SMALL_NUMBER in Q. lra.
    - specialize (G x x' y y' a b Ia Ib A B). lra.
    - unfold LARGE_NUMBER in Q. lra. }
  destruct (Rlt_dec v 0) as [Ng|Ng].
  - exfalso. destruct (C57_sign _ _ _ _ _ _ _ _ _ _ _ 1 0 1 CS_ROAD REL_DIST_EUCLIDIAN 0 0 _ _ v F ltac:(lia) T R0 R1 (or_introl eq_refl) SZ E Ng) as (a & b & [<-|[]] & Ib & K).
    destruct Ib as [<-|[<-|[]]]; [specialize (K 0 0 100 0)|specialize (K 0 0 50 0)]; specialize (K ltac:(apply car_covers; lra) ltac:(apply car_covers; lra)); unfold ahead, boxes, car in K; cbn in K; rewrite cos_0, sin_0 in K; lra.
  - rewrite Rabs_right in AV by lra. rewrite AV. reflexivity.
Qed.

(** With both cars shifted the other is behind, which the sign tells. *)
Example C57_sign_ex : forall v, D 1 1 0 CS_ROAD REL_DIST_EUCLIDIAN true = Some (0%Z, Some v) -> Rabs v = 46 -> v < 0 -> exists a, In a [1%N; 2%N] /\ forall x y x' y', covers (boxes a) x y -> covers (boxes 0) x' y' -> x' < x.
Proof.
  intros v E _ Ng. destruct C57_pairs_ex as (_ & R0 & R1 & T & _).
  assert (SZ: forall x, In x [1%N; 2%N] \/ In x [0%N] -> real_size (boxes x)). { intros x [[<-|[<-|[]]]|[<-|[]]]; apply car_real. }
  destruct (C57_sign _ _ _ _ _ _ _ _ _ _ _ 1 1 0 CS_ROAD REL_DIST_EUCLIDIAN 1 0 _ _ v (front0 1 ltac:(discriminate)) ltac:(lia) eq_refl R1 R0 (or_introl eq_refl) SZ E Ng) as (a & b & Ia & [<-|[]] & K).
  exists a. split; [exact Ia|]. intros x y x' y' A B. specialize (K x y x' y' A B). destruct Ia as [<-|[<-|[]]]; unfold ahead, boxes, car in K; cbn in K; rewrite cos_0, sin_0 in K; lra.
Qed.

Example C57_alone_ex : exists d lat, D 1 0 3 CS_ENTITY REL_DIST_EUCLIDIAN true = Some (0%Z, Some d) /\ d = 6 /\ D 1 0 3 CS_ENTITY REL_DIST_LONGITUDINAL true = Some (0%Z, Some 6) /\ D 1 0 3 CS_ENTITY REL_DIST_LATERAL true = Some (0%Z, Some lat) /\ lat = 0.
Proof.
  pose proof C56_distance_ex as E1. destruct C56_longitudinal_ex as (E2 & E3). destruct (FreeSpaceDistance (car 0 0 0) (Some (car 10 0 0)) true) as [[d lat] long] eqn:F. cbn [fst snd] in E1, E2, E3. subst d lat long.
  destruct (C57_alone tows towed boxes (R * R) flat apart straight track track_s track_t along 1 0 3 CS_ENTITY 6 0 6 ltac:(lia) eq_refl eq_refl eq_refl eq_refl F ltac:(unfold LARGE_NUMBER; lra)) as (A & B & C).
  exists 6, 0. rewrite A, B, C. destruct (Rlt_dec 6 0); [lra|]. repeat split; reflexivity.
Qed.

(** The distance to a trailer is asked for: the loop never ends. *)
Example C57_towed_target_ex fuel : D fuel 0 2 CS_ENTITY REL_DIST_EUCLIDIAN true = None.
Proof. apply C57_towed_target_refuted; [discriminate|left; reflexivity]. Qed.

Example C57_point_ex : exists d, Dxy 1 0 7 0 CS_ENTITY REL_DIST_EUCLIDIAN true LARGE_NUMBER = Some (0%Z, Some d).
Proof.
  destruct (C57_point tows towed boxes (R * R) flat flat apart straight_xy track_s track_t 1 0 7 0 CS_ENTITY REL_DIST_EUCLIDIAN 0 0 [0%N] LARGE_NUMBER (front0 0 ltac:(discriminate)) ltac:(lia) (rig_end tows 0 eq_refl) ltac:(intros a [<-|[]]; apply real_sized, car_real) eq_refl) as (d & lat & long & E & _).
  eexists. exact E.
Qed.

(** Along the road trailers of the target are not looked at: the trailer is 46 metres ahead, reported is the truck at 96. *)
Theorem C57_road_trailers_refuted : tows 1 = Some 2%N /\ (exists dt, On_road 0 (Some 2%N) CS_ROAD = (0%Z, 46, dt)) /\ D 1 0 1 CS_ROAD REL_DIST_LONGITUDINAL true = Some (0%Z, Some 96).
Proof.
  split; [reflexivity|]. split.
  - destruct (on_road 0 2 CS_ROAD (or_introl eq_refl)) as (ds & dt & E). exists dt. rewrite E. rewrite (row_gap 0 2 CS_ROAD 0 50 ds dt eq_refl eq_refl ltac:(lra) E). repeat f_equal. lra.
  - destruct C57_pairs_ex as (F & R0 & R1 & T & _). destruct (on_road 0 1 CS_ROAD (or_introl eq_refl)) as (ds0 & dt0 & E0). pose proof (row_gap 0 1 CS_ROAD 0 100 ds0 dt0 eq_refl eq_refl ltac:(lra) E0) as V0.
    destruct (C57_road tows towed boxes (R * R) flat apart straight track track_s track_t along 1 0 1 CS_ROAD REL_DIST_LONGITUDINAL 0 0 _ _ F ltac:(lia) T R0 R1 (or_introl eq_refl) (or_intror eq_refl) ltac:(cbn; lia)) as [(_ & H)|(a & ds & dt & ([<-|[]] & E) & -> & _)].
    + exfalso. specialize (H 0%N ds0 dt0 (conj (or_introl eq_refl) E0)). rewrite V0 in H. unfold LARGE_NUMBER in H. rewrite Rabs_right in H; lra.
    + rewrite (row_gap 0 1 CS_ROAD 0 100 ds dt eq_refl eq_refl ltac:(lra) E). repeat f_equal. lra.
Qed.

Example C57_road_ex : D 1 0 3 CS_LANE REL_DIST_LONGITUDINAL true = Some (0%Z, Some 6).
Proof.
  destruct (on_road 0 3 CS_LANE (or_intror eq_refl)) as (ds0 & dt0 & E0). pose proof (row_gap 0 3 CS_LANE 0 10 ds0 dt0 eq_refl eq_refl ltac:(lra) E0) as V0.
  destruct (C57_road tows towed boxes (R * R) flat apart straight track track_s track_t along 1 0 3 CS_LANE REL_DIST_LONGITUDINAL 0 0 [0%N] [3%N] (front0 0 ltac:(discriminate)) ltac:(lia) eq_refl (rig_end tows 0 eq_refl) (rig_end tows 3 eq_refl) (or_intror eq_refl) (or_intror eq_refl) ltac:(cbn; lia)) as [(_ & H)|(a & ds & dt & ([<-|[]] & E) & -> & _)].
  - exfalso. specialize (H 0%N ds0 dt0 (conj (or_introl eq_refl) E0)). rewrite V0 in H. unfold LARGE_NUMBER in H. rewrite Rabs_right in H; lra.
  - rewrite (row_gap 0 3 CS_LANE 0 10 ds dt eq_refl eq_refl ltac:(lra) E). repeat f_equal. lra.
Qed.

Example C57_road_object_ex : Collision (boxes 0) (Some (boxes 3)) = false /\ exists dt, On_road 0 (Some 3%N) CS_ROAD = (0%Z, 6, dt).
Proof.
  split.
  - apply no_collision; [apply real_sized, car_real|apply real_sized, car_real|]. intros px py A B. unfold boxes, grow, car, SMALL_NUMBER in A, B. cbn [b_x b_y b_z b_h b_cx b_cy b_len b_wid] in A, B. apply level_covers in A, B. lra.
  - destruct (on_road 0 3 CS_ROAD (or_introl eq_refl)) as (ds & dt & E). exists dt. rewrite E. rewrite (row_gap 0 3 CS_ROAD 0 10 ds dt eq_refl eq_refl ltac:(lra) E). repeat f_equal. lra.
Qed.

(** A long bus beside a car: from the bus the car is not beside but eight metres away along the road, from the car the bus is beside. *)
Theorem C57_road_inside_refuted : covers (boxes 4) 0 0 /\ covers (boxes 5) 0 10 /\ (exists ds dt, On_road 4 (Some 5%N) CS_ROAD = (0%Z, ds, dt) /\ Rabs ds = 8) /\ (exists dt, On_road 5 (Some 4%N) CS_ROAD = (0%Z, 0, dt)).
Proof.
  assert (NC: Collision (boxes 4) (Some (boxes 5)) = false).
  { apply no_collision; [apply level_sized; lra|apply level_sized; lra|]. intros px py A B. unfold boxes, grow, SMALL_NUMBER in A, B. cbn [b_x b_y b_z b_h b_cx b_cy b_len b_wid] in A, B. apply level_covers in A, B. lra. }
  split; [apply level_covers; lra|]. split; [apply level_covers; lra|]. split.
  - unfold FreeSpaceDistanceObjectRoadLane. rewrite NC. unfold boxes. rewrite !level_corners. cbn [all_some flat apart fst snd map concat app existsb]. do 2 eexists. split; [reflexivity|].
    match goal with |- Rabs (if ?b then _ else _) = _ => assert (M: b = false) end.
    { unfold mixed. cbn [existsb]. repeat match goal with |- context [SIGN ?x] => first [rewrite (sign_up x) by lra|rewrite (sign_down x) by lra] end.
      repeat match goal with |- context [Reqb ?x ?y] => destruct (Reqb_spec x y); [|exfalso; lra] end. reflexivity. }
    rewrite M. match goal with |- Rabs (least ?l) = _ => destruct (least_spec l ltac:(discriminate)) as (I & L); specialize (L (0 + 0 + 4 / 2 - (0 + 0 + 20 / 2)) ltac:(left; reflexivity)); set (v := least l) in * end.
    rewrite (Rabs_left (0 + 0 + 4 / 2 - (0 + 0 + 20 / 2))) in L by lra. clearbody v. clear M. cbn [In] in I. apply Rle_antisym; [lra|].
    repeat match type of I with _ \/ _ => destruct I as [I|I] end; try contradiction; rewrite <- I; match goal with |- _ <= Rabs ?e => destruct (Rle_dec 0 e); [rewrite Rabs_right by lra|rewrite Rabs_left by lra]; lra end.
  - assert (NC': Collision (boxes 5) (Some (boxes 4)) = false) by (rewrite C56_collision_symmetric; exact NC). destruct (on_road 5 4 CS_ROAD (or_introl eq_refl)) as (ds & dt & E). exists dt. rewrite E. repeat f_equal.
    destruct (C57_road_object boxes (R * R) flat apart 5 4 CS_ROAD ds dt E NC') as (_ & _ & _ & H & _). unfold boxes in H. rewrite !level_corners in H.
    specialize (H (0 + 0 + 4 / 2, 10 + 0 + 2 / 2) (0 + 0 - 20 / 2, 0 + 0 + 2 / 2) (0 + 0 + 20 / 2, 0 + 0 + 2 / 2) (0 + 0 - 20 / 2 - (0 + 0 + 4 / 2)) (0 + 0 + 2 / 2 - (10 + 0 + 2 / 2)) (0 + 0 + 20 / 2 - (0 + 0 + 4 / 2)) (0 + 0 + 2 / 2 - (10 + 0 + 2 / 2))).
    apply H; [split; [cbn; auto|]; split; [cbn; auto|]; do 2 eexists; repeat split; reflexivity|split; [cbn; auto|]; split; [cbn; auto|]; do 2 eexists; repeat split; reflexivity|lra].
Qed.

(** A point within the crate is half a metre ahead of it along the road. *)
Theorem C57_point_road_refuted : covers (boxes 6) (3 / 2) 0 /\ exists lat, Point_on_road 6 (3 / 2) 0 CS_ROAD = (0%Z, lat, 1 / 2).
Proof.
  assert (W: world_corners (boxes 6) = [(1, 3); (-3, -1); (-1, -3); (3, 1)]).
  { unfold boxes, world_corners, vertices, placed, RotateVec2D. cbn [map b_x b_y b_h b_cx b_cy b_len b_wid fst snd]. rewrite cos_PI4, sin_PI4.
    pose proof (sqrt_lt_R0 2 ltac:(lra)) as P2. repeat (apply f_equal2; [apply f_equal2; field; lra|]). reflexivity. }
  split.
  - apply covers_coords. unfold ahead, left_of, boxes. cbn [b_x b_y b_h b_cx b_cy b_len b_wid]. rewrite cos_PI4, sin_PI4. pose proof (sqrt_lt_R0 2 ltac:(lra)) as P2. pose proof (sqrt_sqrt 2 ltac:(lra)) as S2.
    assert (E: 1 / sqrt 2 = sqrt 2 / 2) by (field_simplify_eq; [nra|lra]). rewrite E. set (q := sqrt 2) in *. clearbody q. split; nra.
  - unfold FreeSpaceDistancePointRoadLane. rewrite W. cbn [all_some flat apart fst snd map]. eexists. apply f_equal2; [reflexivity|].
    match goal with |- (if Reqb (SIGN ?a) (SIGN ?b) then ?a else 0) = _ => assert (A: a = 1 / 2); [|assert (B: b = 9 / 2); [|rewrite A, B]] end.
    + unfold least. cbn [fold_left]. unfold Rltb. rewrite (Rabs_right (3 / 2 - 1)), (Rabs_right (3 / 2 - -3)), (Rabs_right (3 / 2 - -1)), (Rabs_left (3 / 2 - 3)) by lra.
      repeat match goal with |- context [Rlt_dec ?x ?y] => destruct (Rlt_dec x y); [exfalso; lra|]; rewrite ?(Rabs_right (3 / 2 - 1)) by lra end. lra.
    + unfold most. cbn [fold_left]. unfold Rltb. destruct (Rlt_dec (Rabs (3 / 2 - 1)) (Rabs (3 / 2 - -3))) as [H|H]; [|exfalso; apply H; rewrite !Rabs_right; lra].
      destruct (Rlt_dec (Rabs (3 / 2 - -3)) (Rabs (3 / 2 - -1))) as [K|K]; [exfalso; rewrite !Rabs_right in K; lra|]. destruct (Rlt_dec (Rabs (3 / 2 - -3)) (Rabs (3 / 2 - 3))) as [J|J]; [exfalso; rewrite Rabs_right in J by lra; rewrite Rabs_left in J; lra|]. lra.
    + rewrite !sign_up by lra. destruct (Reqb_spec 1 1); [reflexivity|congruence].
Qed.

Example C57_road_point_ex : exists lat long, Point_on_road 0 7 0 CS_ROAD = (0%Z, lat, long).
Proof. apply point_on_road. auto. Qed.

Example C57_road_kinds_ex : D 1 0 3 CS_ROAD REL_DIST_EUCLIDIAN_ABS true = Some ((-1)%Z, None).
Proof. destruct (C57_road_kinds tows towed boxes (R * R) flat apart straight track track_s track_t along 1 0 3 CS_ROAD REL_DIST_EUCLIDIAN_ABS (or_introl eq_refl) (or_intror eq_refl)) as [H|H]; [|exact H]. unfold Object_Distance in H. cbn [cartesian frontmost target_front towed] in H. discriminate. Qed.

Example C57_no_system_ex : D 1 0 3 CS_WORLD REL_DIST_LONGITUDINAL true = Some ((-1)%Z, None).
Proof. reflexivity. Qed.

Example C57_positions_ex : D 1 0 3 CS_WORLD REL_DIST_EUCLIDIAN false = Some (0%Z, Some 10) /\ D 1 3 0 CS_WORLD REL_DIST_EUCLIDIAN false = Some (0%Z, Some (- 10)) /\ D 1 3 0 CS_LANE REL_DIST_LONGITUDINAL false = Some (0%Z, Some (- 10)).
Proof.
  destruct (C57_positions tows towed boxes (R * R) flat apart straight track track_s track_t along 1 0 3 CS_WORLD) as (A & _). destruct (C57_positions tows towed boxes (R * R) flat apart straight track track_s track_t along 1 3 0 CS_WORLD) as (B & _).
  assert (E: dist 0 0 10 0 = 10) by (unfold dist; replace ((0 - 10) * (0 - 10) + (0 - 0) * (0 - 0)) with (10 * 10) by ring; apply sqrt_square; lra).
  assert (E': dist 10 0 0 0 = 10) by (unfold dist; replace ((10 - 0) * (10 - 0) + (0 - 0) * (0 - 0)) with (10 * 10) by ring; apply sqrt_square; lra).
  rewrite A, B. split; [|split]; [unfold boxes, car, ahead; cbn [b_x b_y b_h]; rewrite cos_0, sin_0, E|unfold boxes, car, ahead; cbn [b_x b_y b_h]; rewrite cos_0, sin_0, E'|].
  - destruct (Rlt_dec 0 ((10 - 0) * 1 + (0 - 0) * 0)); [reflexivity|lra].
  - destruct (Rlt_dec 0 ((0 - 10) * 1 + (0 - 0) * 0)); [lra|reflexivity].
  - destruct (C57_positions tows towed boxes (R * R) flat apart straight track track_s track_t along 1 3 0 CS_LANE) as (_ & _ & _ & _ & _ & C). specialize (C (or_intror eq_refl)). cbn [straight] in C. destruct C as (C & _). rewrite C. unfold boxes, car. cbn [b_x]. repeat f_equal. ring.
Qed.

Example C57_trajectory_ex : D 1 0 3 CS_TRAJECTORY REL_DIST_LONGITUDINAL false = Some (0%Z, Some (10 - 0)) /\ D 1 0 1 CS_TRAJECTORY REL_DIST_LONGITUDINAL false = Some (0%Z, Some (100 - 0)).
Proof.
  split.
  - exact (proj1 (proj1 (C57_trajectory tows towed boxes (R * R) flat apart straight track track_s track_t along 1 0 3 7 eq_refl) eq_refl)).
  - refine (proj2 (C57_trajectory tows towed boxes (R * R) flat apart straight track track_s track_t along 1 0 1 7 eq_refl) _ 100 eq_refl). discriminate.
Qed.

(** The truck straight ahead on another trajectory: a hundred metres to the side. *)
Example C57_trajectory_lateral_ex : D 1 0 1 CS_TRAJECTORY REL_DIST_LATERAL false = Some (0%Z, Some 100).
Proof.
  rewrite (C57_trajectory_lateral_refuted tows towed boxes (R * R) flat apart straight track track_s track_t along 1 0 1 7 eq_refl ltac:(discriminate)).
  destruct (C57_positions tows towed boxes (R * R) flat apart straight track track_s track_t along 1 0 1 CS_TRAJECTORY) as (-> & _). unfold boxes, car, ahead. cbn [b_x b_y b_h]. rewrite cos_0, sin_0.
  destruct (Rlt_dec 0 ((100 - 0) * 1 + (0 - 0) * 0)); [|lra]. repeat f_equal. unfold dist. replace ((0 - 100) * (0 - 100) + (0 - 0) * (0 - 0)) with (100 * 100) by ring. apply sqrt_square. lra.
Qed.

Example C57_unset_ex : TimeHeadway tows towed boxes (R * R) flat apart straight track track_s track_t along pace 1 0 3 CS_WORLD REL_DIST_LONGITUDINAL false = None.
Proof. apply C57_unset_refuted; auto. Qed.

Lemma d03 : D 1 0 1 CS_ENTITY REL_DIST_LONGITUDINAL false = Some (0%Z, Some 100).
Proof.
  destruct (C57_positions tows towed boxes (R * R) flat apart straight track track_s track_t along 1 0 1 CS_ENTITY) as (_ & _ & _ & E & _). rewrite E. unfold boxes, car, ahead. cbn [b_x b_y b_h]. rewrite cos_0, sin_0. repeat f_equal. ring.
Qed.

(** At 20 m/s the truck a hundred metres ahead is five seconds away, and as it drives at 10 m/s it is reached in ten. *)
Example C57_headway_ex : TimeHeadway tows towed boxes (R * R) flat apart straight track track_s track_t along pace 1 0 1 CS_ENTITY REL_DIST_LONGITUDINAL false = Some (100 / 20).
Proof. apply (C57_headway tows towed boxes (R * R) flat apart straight track track_s track_t along pace 1 0 1 CS_ENTITY REL_DIST_LONGITUDINAL false 100 d03); cbn; lra. Qed.

Example C57_headway_none_ex : TimeHeadway tows towed boxes (R * R) flat apart straight track track_s track_t along pace 1 0 3 CS_WORLD REL_DIST_LONGITUDINAL true = Some (LARGE_NUMBER / 20).
Proof. apply (C57_headway_none tows towed boxes (R * R) flat apart straight track track_s track_t along pace 1 0 3 CS_WORLD REL_DIST_LONGITUDINAL true None); [reflexivity|cbn; lra]. Qed.

Example C57_ttc_line_ex : relative_speed pace going 0 1 = 10 /\ relative_speed pace going 0 2 = 25 /\ relative_speed pace going 0 3 = 20.
Proof.
  split; [|split].
  - replace 10 with (20 - 10) by lra. apply (C57_ttc_line pace going 0 1 0 20 10); try reflexivity; [lra|left; lra].
  - replace 25 with (20 - -5) by lra. apply (C57_ttc_line pace going 0 2 0 20 (-5)); try reflexivity; [lra|left; lra].
  - replace 20 with (20 - 0) by lra. apply (C57_ttc_line pace going 0 3 0 20 0); try reflexivity; [lra|right; lra].
Qed.

Example C57_ttc_ex : TimeToCollision tows towed boxes (R * R) flat apart straight track track_s track_t along pace going 1 0 (Some 1%N) CS_ENTITY REL_DIST_LONGITUDINAL false = Some (0%Z, 10).
Proof.
  unfold TimeToCollision. rewrite d03. destruct C57_ttc_line_ex as (-> & _). cbn [Z.eqb]. unfold SMALL_NUMBER. rewrite !Rabs_right by lra.
  destruct (Rltb_spec 100 (1 / 1000000)); [lra|]. destruct (Rltb_spec 10 (1 / 1000000)); [lra|]. cbn [orb]. destruct (Rltb_spec (100 / 10) 0); [lra|]. repeat f_equal. field.
Qed.

Example C57_ttc_meets_ex : 20 * 10 = 100 + 10 * 10.
Proof.
  apply (C57_ttc_meets tows towed boxes (R * R) flat apart straight track track_s track_t along pace going 1 0 1 CS_ENTITY REL_DIST_LONGITUDINAL false 0 20 10 100 10 d03 C57_ttc_ex); try reflexivity; [lra|left; lra|lra].
Qed.

(** A standing car and the trailer rolling towards it at 5 m/s: no collision foreseen. *)
Example C57_ttc_standing_ex : forall v, D 1 3 2 CS_ENTITY REL_DIST_LONGITUDINAL false = Some (0%Z, Some v) -> 1 <= v ->
  TimeToCollision tows towed boxes (R * R) flat apart straight track track_s track_t along pace going 1 3 (Some 2%N) CS_ENTITY REL_DIST_LONGITUDINAL false = Some (0%Z, -1).
Proof.
  intros v H V. apply (C57_ttc_standing_refuted tows towed boxes (R * R) flat apart straight track track_s track_t along pace going 1 3 2 CS_ENTITY REL_DIST_LONGITUDINAL false 0 (-5) v H); try reflexivity; try lra.
  unfold going. cbn [pace]. rewrite !Rmult_0_l. reflexivity.
Qed.

(** A point a kilometre along: ten metres, the own place on the trajectory. *)
Example C57_point_trajectory_ex : Dxy 1 3 1000 0 CS_TRAJECTORY REL_DIST_LONGITUDINAL false LARGE_NUMBER = Some (0%Z, Some 10).
Proof. apply C57_point_trajectory_refuted. Qed.

Print Assumptions C57_pairs.
Print Assumptions C57_gap.
Print Assumptions C57_sign.
Print Assumptions C57_alone.
Print Assumptions C57_towed_target_refuted.
Print Assumptions C57_point.
Print Assumptions C57_road.
Print Assumptions C57_road_kinds.
Print Assumptions C57_no_system.
Print Assumptions C57_road_object.
Print Assumptions C57_road_point.
Print Assumptions C57_positions.
Print Assumptions C57_trajectory.
Print Assumptions C57_trajectory_lateral_refuted.
Print Assumptions C57_point_trajectory_refuted.
Print Assumptions C57_unset_refuted.
Print Assumptions C57_headway.
Print Assumptions C57_headway_none.
Print Assumptions C57_ttc.
Print Assumptions C57_ttc_line.
Print Assumptions C57_ttc_meets.
Print Assumptions C57_ttc_standing_refuted.
Print Assumptions C57_ttc_nobody.
Print Assumptions C57_road_trailers_refuted.
Print Assumptions C57_road_inside_refuted.
Print Assumptions C57_point_road_refuted.
