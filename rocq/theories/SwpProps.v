(** * C67: the population of swarm traffic *)
From Coq Require Import Reals Bool List ZArith Lia Lra Psatz.
From Verif Require Import AngModel AngProofs TriModel SwmModel SwmProofs SwpModel SwpProofs.
Import ListNotations.
Open Scope R_scope.

(** A run of steps, each with its own random choices, place of the central object, points and time. *)
Definition input := (oracle * (R * R * R) * list point * R)%type.
Fixpoint steps (z : settings) (l : list input) (w : swarm) : option swarm :=
  match l with
  | [] => Some w
  | (o, (h, k, A), sols, t) :: l => match Step o z h k A sols t w with Some w => steps z l w | None => None end
  end.
Definition inputs (l : list input) : Prop := Forall (fun '(o, _, sols, _) => fair o sols) l.

(** A small world: a straight road with one lane on each side, one vehicle in the catalogue. *)
Definition road1 := Place 0 0 7 false [1; -1]%Z RIGHT_HAND.
Definition o1 := Oracle 0 (fun _ => 0%nat) (fun l n => firstn n l) (fun _ l n => firstn n l) (fun _ => Some road1) (fun l lane => (l_x l, IZR lane)) (fun _ _ _ => None) (fun _ _ => Some 0).
Definition z1 := Settings 2 10 100 50 60 40.
Definition w0 := Swarm [] [] 3 0 (-1).

Lemma fair1 : forall o sols, o_points o = (fun l n => firstn n l) -> o_choice o = (fun _ l n => firstn n l) -> (forall p, o_where o p <> None) -> fair o sols.
Proof.
  intros o sols E1 E2 W. assert (IN : forall (X : Type) (l : list X) n, incl (firstn n l) l).
  { intros X l n x I. rewrite <- (firstn_skipn n l). apply in_or_app. now left. }
  unfold fair. rewrite E1, E2. split; [|split].
  - intros n. split; [apply firstn_le_length|apply IN].
  - intros _ l n. split; [apply firstn_le_length|]. split; [apply IN|]. revert n. induction l as [|x l IH]; intros [|n] N; cbn [firstn]; try constructor; inversion N; subst; [intros I; apply IN in I; contradiction|now apply IH].
  - intros p _. apply W.
Qed.

(** Whatever happens no pointer or iterator goes wrong, and there are always fewer than the number asked for. *)
Theorem C67_fewer : forall z l w, inputs l -> sound w -> (Z.of_nat (length (w_spawned w)) < number z \/ w_spawned w = [])%Z -> exists w', steps z l w = Some w' /\ sound w' /\
  (Z.of_nat (length (w_spawned w')) < number z \/ w_spawned w' = [])%Z.
Proof.
  induction l as [|[[[o [[h k] A]] sols] t] l IH]; intros w I S B; cbn [steps]; [exists w; auto|]. inversion I as [|? ? FR I']; subst.
  destruct (step_is o z h k A sols t w FR S B) as (w1 & E & S1 & B1). rewrite E. now apply IH.
Qed.
Example C67_fewer_ex : exists w', steps z1 [((Oracle 1 (fun _ => 0%nat) (fun l n => firstn n l) (fun _ l n => firstn n l) (fun _ => Some road1) (fun l lane => (l_x l, IZR lane)) (fun _ _ _ => None) (fun _ _ => Some 0)), (0, 0, 0), [(0, 0)], 1)] w0 = Some w' /\ length (w_spawned w') = 1%nat.
Proof.
  unfold steps, Step. cbn [w_last w0 w_cars w_spawned despawn_loop]. rewrite (proj2 (Rltb_true (-1) 0)) by lra. cbn [orb].
  unfold spawn, sampleRoads, GetNumberBetween, maxCars. cbn [w_spawned length z_number z1 w_next w_counter]. cbn. eexists. split; reflexivity.
Qed.

(** Refuted that the number asked for is reached: asked for one vehicle there is never any. *)
Theorem C67_one_refuted : forall z l w', z_number z = 1%Z -> inputs l -> steps z l w0 = Some w' -> w_spawned w' = [].
Proof.
  intros z l w' N I E. destruct (C67_fewer z l w0 I) as (w2 & E2 & _ & B).
  - unfold sound, w0. cbn. repeat split; constructor.
  - now right.
  - rewrite E in E2. injection E2 as <-. destruct B as [B|B]; [|exact B]. unfold number in B. rewrite N in B. change (1 mod 2 ^ 32)%Z with 1%Z in B. destruct (w_spawned w') as [|x r]; [reflexivity|]. cbn [length] in B. lia.
Qed.
Example C67_one_refuted_ex : exists w', steps (Settings 1 10 100 50 60 40) [(o1, (0, 0, 0), [(0, 0)], 1)] w0 = Some w'.
Proof. destruct (C67_fewer (Settings 1 10 100 50 60 40) [(o1, (0, 0, 0), [(0, 0)], 1)] w0) as (w' & E & _); [|unfold sound, w0; cbn; repeat split; constructor|now right|now exists w'].
  constructor; [|constructor]. apply fair1; try reflexivity. discriminate. Qed.

(** Refuted that a negative number asks for none: it is taken for more than four thousand millions. *)
Theorem C67_negative_refuted : forall n s, (-1000000 <= n < 0)%Z -> (0 <= s <= 1000000)%Z -> maxCars n s = 1000%Z.
Proof.
  intros n s N S. unfold maxCars, MAX_CARS. replace (n mod 2 ^ 32)%Z with (n + 2 ^ 32)%Z by (apply (Z.mod_unique _ _ (-1)); lia). rewrite Z.mod_small by lia. lia.
Qed.
Example C67_negative_refuted_ex : maxCars (-1) 0 = 1000%Z. Proof. reflexivity. Qed.

(** What is taken away: just what is off the road, at its end, outside of the outer ellipse, or not inside of the middle one for the sixth time in a row; the
    others stay in their order, with the count of checks not inside of the middle one, and the number returned is that of those taken away. *)
Theorem C67_despawn : forall z h k A cars l, Forall (fun f => exists v, find_car cars (i_id f) = Some v /\ (c_ctrls v <= 1)%nat) l -> NoDup (map i_id l) ->
  exists left cars', despawn_loop z h k A cars l = Some (left, cars', Z.of_nat (length l - length left)) /\
  left = flat_map (fun f => match find_car cars (i_id f) with
                            | Some v => if fst (judge z h k A v (i_out f)) then [] else [Spawned (i_id f) (if leb 0 (middle z h k A v) then i_out f + 1 else 0)%Z (i_road f) (i_lane f) (i_time f)]
                            | None => [] end) l /\
  (forall v out, fst (judge z h k A v out) = true <-> useless z h k A v out) /\
  (forall f, In f l -> ~ In (i_id f) (map i_id left) -> find_car cars' (i_id f) = None) /\
  (forall id, In id (map i_id left) \/ ~ In id (map i_id l) -> find_car cars' id = find_car cars id).
Proof.
  intros z h k A cars l F N. destruct (despawn_is z h k A l cars F N) as (cars' & E & LE & _ & G & K). exists (flat_map (kept z h k A cars) l), cars'. split; [exact E|]. split; [|split; [|split; [exact G|exact K]]].
  - clear. induction l as [|f l IH]; [reflexivity|]. cbn [flat_map]. rewrite IH. f_equal. unfold kept. destruct (find_car cars (i_id f)) as [v|]; [|reflexivity].
    destruct (judge_is z h k A v (i_out f)) as (_ & J). destruct (judge z h k A v (i_out f)) as [[|] out]; cbn [fst snd] in *; [reflexivity|]. rewrite J by reflexivity. reflexivity.
  - intros v out. exact (proj1 (judge_is z h k A v out)).
Qed.
Example C67_despawn_ex : despawn_loop z1 0 0 0 [Car 1 0 0 false false 1 0; Car 2 5 5 true false 1 0] [Spawned 1 3 7 1 0; Spawned 2 0 7 1 0] = Some ([Spawned 1 0 7 1 0], [Car 1 0 0 false false 1 0], 1%Z).
Proof.
  cbn [despawn_loop find_car find c_id i_id Nat.eqb]. unfold judge. cbn [c_off c_end orb c_x c_y i_out].
  assert (E0 : forall p q, ellipse 0 0 0 p q 0 0 = -1) by (intros; unfold ellipse; rewrite cos_0, sin_0; unfold Rdiv; ring).
  rewrite !E0. rewrite (proj2 (Rltb_false (1 / 1000) (-1))), (proj2 (leb_false 0 (-1))) by lra. cbn [orb andb].
  cbn [despawn_loop find_car find c_id i_id Nat.eqb c_ctrls Nat.ltb Nat.leb remove_car filter negb i_road i_lane i_time]. reflexivity.
Qed.

(** How many are asked for: with the number of those taken away below that of those missing, no more than missing less one; each point chosen gets at least one
    lane and no more than it has. *)
Theorem C67_sample : forall o minN maxN sols, fair o sols -> (0 <= minN)%Z -> (0 < maxN)%Z -> exists l, sampleRoads o minN maxN sols = Some l /\
  (minN < maxN -> total l <= maxN - 1)%Z /\ (maxN <= minN -> total l <= minN)%Z /\
  Forall (fun s => (1 <= snd s <= Z.of_nat (length (l_lanes (fst s))))%Z /\ exists p, In p sols /\ o_where o p = Some (fst s)) l.
Proof. exact sample_is. Qed.
Example C67_sample_ex : sampleRoads o1 1 5 [(0, 0); (9, 9)] = Some [(road1, 1%Z)].
Proof. reflexivity. Qed.

(** With enough points there is none in a junction. *)
Theorem C67_junction : forall o minN maxN sols l s, fair o sols -> (GetNumberBetween minN (maxN - 1) (o_cars o) <= Z.of_nat (length sols))%Z -> (0 <= GetNumberBetween minN (maxN - 1) (o_cars o))%Z ->
  sampleRoads o minN maxN sols = Some l -> In s l -> l_junction (fst s) = false /\ snd s = 1%Z.
Proof.
  intros o minN maxN sols l s (FP & _ & FW) L L0 E I. unfold sampleRoads in E. destruct (maxN <? minN)%Z; [injection E as <-; contradiction|]. cbv zeta in E. destruct (GetNumberBetween minN (maxN - 1) (o_cars o) =? 0)%Z eqn:Z0; [injection E as <-; contradiction|]. apply Z.eqb_neq in Z0.
  rewrite (proj2 (Z.leb_le _ _) L), (proj2 (Z.ltb_lt 0 _)) in E by lia. cbn [andb] in E.
  destruct (one_each_is (o_where o) (o_points o sols (Z.to_nat (GetNumberBetween minN (maxN - 1) (o_cars o))))) as (l' & E' & _ & FA); [intros p IP; apply FW; exact (proj2 (FP _) p IP)|].
  rewrite E in E'. injection E' as <-. rewrite Forall_forall in FA. destruct (FA s I) as (_ & A2 & A3 & _). auto.
Qed.
Example C67_junction_ex : one_each (fun p => Some (Place (fst p) 0 7 true [1]%Z RIGHT_HAND)) [(0, 0)] = Some [].
Proof. reflexivity. Qed.
(** Refuted with fewer points than vehicles: that a point is in a junction is not asked. *)
Theorem C67_junction_refuted : exists o sols l s, fair o sols /\ sampleRoads o 2 9 sols = Some l /\ In s l /\ l_junction (fst s) = true.
Proof.
  exists (Oracle 0 (fun _ => 0%nat) (fun l n => firstn n l) (fun _ l n => firstn n l) (fun _ => Some (Place 0 0 7 true [1]%Z RIGHT_HAND)) (fun l lane => (0, 0)) (fun _ _ _ => None) (fun _ _ => None)), [(0, 0)].
  eexists. eexists. split; [apply fair1; try reflexivity; discriminate|]. split; [reflexivity|]. split; [now left|reflexivity].
Qed.

(** A new vehicle is on a driving lane of the place, at least 20 m from all others of the swarm as seen from the point, and not closer to one in the same lane
    than asked; it drives in the direction of the lane as seen from the vehicle it is a copy of. *)
Theorem C67_new : forall o z t pos n i idx w, sound w -> exists w', spawn_lane o z t pos n i idx w = Some w' /\ sound w' /\
  (w' = w \/ exists lane h v, nth_error (l_lanes pos) idx = Some lane /\ o_pool o n i = Some h /\
     (forall f u, In f (w_spawned w) -> find_car (w_cars w) (i_id f) = Some u -> 20 <= PointDistance2D (l_x pos) (l_y pos) (c_x u) (c_y u) /\
        forall ds, o_delta o pos lane u = Some (0%Z, ds) -> Rmin (Rmax 40 (z_velocity z * 2)) (7 / 10 * z_major z) <= Rabs ds) /\
     v = Car (w_next w) (fst (o_at o pos lane)) (snd (o_at o pos lane)) false false 1 (SetHeadingRelativeRoadDirection h (direction (l_rule pos) lane)) /\
     extends w w' [Spawned (w_next w) 0 (l_road pos) lane t] [v]).
Proof. exact lane_is. Qed.
Example C67_new_ex : exists w', spawn_lane o1 z1 5 road1 0 0 1 w0 = Some w' /\ w_spawned w' = [Spawned 3 0 7 (-1) 5].
Proof. eexists. split; reflexivity. Qed.

(** The whole of spawn: at most as many as selected are added, at the end, on lanes of places of the given points. *)
Theorem C67_spawn : forall o z sols r t w, fair o sols -> sound w -> (0 <= r)%Z -> exists w' new cars, spawn o z sols r t w = Some w' /\ sound w' /\ extends w w' new cars /\
  Forall (fun f => exists p l, In p sols /\ o_where o p = Some l /\ i_out f = 0%Z /\ i_road f = l_road l /\ In (i_lane f) (l_lanes l) /\ i_time f = t) new.
Proof.
  intros o z sols r t w FR S R0. unfold spawn. cbv zeta. set (m := maxCars _ _). destruct (m <=? 0)%Z eqn:M.
  - exists w, [], []. repeat split; auto; try apply S; try apply extends_refl.
  - apply Z.leb_gt in M. destruct (sample_is o r m sols FR R0 M) as (info & E & _ & _ & FA). rewrite E.
    destruct (all_is o z t sols info 0 w FR S) as (w' & nw & cs & E2 & S2 & X & _ & P); [eapply Forall_impl; [|exact FA]; intros s (A1 & _); exact A1|].
    exists w', nw, cs. split; [exact E2|]. split; [exact S2|]. split; [exact X|]. eapply Forall_impl; [|exact P]. intros f (s & I & A1 & A2 & A3 & A4). rewrite Forall_forall in FA. destruct (FA s I) as (_ & p & IP & W). exists p, (fst s). auto 8.
Qed.
Example C67_spawn_ex : exists w', spawn o1 z1 [(0, 0)] 1 5 w0 = Some w' /\ w_spawned w' = [Spawned 3 0 7 1 5].
Proof. eexists. split; reflexivity. Qed.

(** However many lanes are chosen for a point, if they are all within 20 m of it at most one vehicle is put there. *)
Theorem C67_one_lane : forall o z t pos n i idxs w, sound w -> (forall lane, In lane (l_lanes pos) -> PointDistance2D (l_x pos) (l_y pos) (fst (o_at o pos lane)) (snd (o_at o pos lane)) < 20) ->
  exists w' new cars, spawn_lanes o z t pos n i idxs w = Some w' /\ extends w w' new cars /\ (length new <= 1)%nat.
Proof. intros. now apply lanes_one. Qed.
Example C67_one_lane_ex : exists w', spawn_lanes o1 z1 5 road1 0 0 [0; 1]%nat w0 = Some w' /\ length (w_spawned w') = 1%nat.
Proof.
  assert (S : sound w0) by (unfold sound, w0; cbn; repeat split; constructor).
  assert (D : forall lane, In lane (l_lanes road1) -> PointDistance2D (l_x road1) (l_y road1) (fst (o_at o1 road1 lane)) (snd (o_at o1 road1 lane)) < 20).
  { intros lane. cbn. unfold PointDistance2D. intros [<-|[<-|[]]].
    - replace ((0 - 0) * (0 - 0) + (1 - 0) * (1 - 0)) with 1 by ring. rewrite sqrt_1. lra.
    - replace ((0 - 0) * (0 - 0) + (-1 - 0) * (-1 - 0)) with 1 by ring. rewrite sqrt_1. lra. }
  set (w1 := Swarm [Spawned 3 0 7 1 5] [Car 3 0 1 false false 1 (SetHeadingRelativeRoadDirection 0 PI)] 4 1 (-1)).
  exists w1. split; [|reflexivity]. change (spawn_lanes o1 z1 5 road1 0 0 [0; 1]%nat w0) with (spawn_lanes o1 z1 5 road1 0 1 [1%nat] w1).
  apply (lanes_none o1 z1 5 road1 0 [1%nat] 1 w1 (Spawned 3 0 7 1 5) (Car 3 0 1 false false 1 (SetHeadingRelativeRoadDirection 0 PI))).
  - destruct (lane_is o1 z1 5 road1 0 0 0 w0 S) as (w & E & SW & _). injection E as <-. exact SW.
  - now left.
  - reflexivity.
  - cbn [c_x c_y]. exact (D 1%Z (or_introl eq_refl)).
Qed.

(** The direction: with right hand traffic along the road on negative and against it on positive lanes, the other way with left hand traffic, if the vehicle it is
    a copy of was not against its road. *)
Theorem C67_direction : forall h r lane, h <= PI / 2 \/ 3 * (PI / 2) <= h -> lane <> 0%Z ->
  SetHeadingRelativeRoadDirection h (direction r lane) = if xorb (lane <? 0)%Z (match r with LEFT_HAND => true | _ => false end) then 0 else PI.
Proof.
  intros h r lane H L. pose proof PI_RGT_0. unfold SetHeadingRelativeRoadDirection.
  assert (C : Rltb (PI / 2) h && Rltb h (3 * (PI / 2)) = false).
  { destruct H as [H|H]; [rewrite (proj2 (Rltb_false (PI / 2) h)) by lra; reflexivity|rewrite (proj2 (Rltb_false h _)) by lra; apply andb_false_r]. }
  rewrite C. unfold direction. destruct r; cbn [xorb]; destruct (Z.ltb_spec lane 0), (Z.ltb_spec 0 lane); cbn [xorb]; try lia; rewrite interval2pi_id by lra; reflexivity.
Qed.
Example C67_direction_ex : SetHeadingRelativeRoadDirection 0 (direction RIGHT_HAND (-1)) = 0 /\ SetHeadingRelativeRoadDirection 0 (direction RIGHT_HAND 1) = PI /\ SetHeadingRelativeRoadDirection 0 (direction LEFT_HAND 1) = 0.
Proof. pose proof PI_RGT_0. repeat split; (rewrite C67_direction; [reflexivity|left; lra|discriminate]). Qed.
(** Refuted otherwise: copies of a vehicle against its road (without a catalogue: of the central object) all drive the wrong way. *)
Theorem C67_direction_refuted : forall h r lane, PI / 2 < h < 3 * (PI / 2) -> lane <> 0%Z ->
  SetHeadingRelativeRoadDirection h (direction r lane) = if xorb (lane <? 0)%Z (match r with LEFT_HAND => true | _ => false end) then PI else 0.
Proof.
  intros h r lane H L. pose proof PI_RGT_0. unfold SetHeadingRelativeRoadDirection. rewrite (proj2 (Rltb_true (PI / 2) h)), (proj2 (Rltb_true h _)) by lra. cbn [andb].
  assert (Z0 : GetAngleInInterval2PI (PI + PI) = 0).
  { destruct (interval2pi (PI + PI)) as (B & n & S). set (x := GetAngleInInterval2PI (PI + PI)) in *. clearbody x.
    assert (x = (IZR n + 1) * (2 * PI)) by lra. assert (IZR n + 1 = IZR (n + 1)) by (rewrite plus_IZR; reflexivity). rewrite H2 in H1.
    assert (-1 < n + 1 < 1)%Z. { split; apply lt_IZR; nra. } replace (n + 1)%Z with 0%Z in H1 by lia. lra. }
  assert (P0 : GetAngleInInterval2PI (0 + PI) = PI) by (rewrite interval2pi_id; lra).
  unfold direction. destruct r; cbn [xorb]; destruct (Z.ltb_spec lane 0), (Z.ltb_spec 0 lane); cbn [xorb]; try lia; assumption.
Qed.
Example C67_direction_refuted_ex : SetHeadingRelativeRoadDirection PI (direction RIGHT_HAND (-1)) = PI.
Proof. pose proof PI_RGT_0. rewrite C67_direction_refuted; [reflexivity|lra|discriminate]. Qed.

(** Between the checks nothing changes. *)
Theorem C67_interval : forall o z h k A sols t w, 0 <= w_last w -> Rabs (t - w_last w) <= 1 / 10 -> Step o z h k A sols t w = Some w.
Proof. intros o z h k A sols t w L D. unfold Step, SWARM_TIME_INTERVAL. rewrite (proj2 (Rltb_false (w_last w) 0)), (proj2 (Rltb_false _ (Rabs (t - w_last w)))) by lra. reflexivity. Qed.
Theorem C67_check : forall o z h k A sols t w w', (w_last w < 0 \/ 1 / 10 < Rabs (t - w_last w)) -> Step o z h k A sols t w = Some w' -> w_last w' = t.
Proof.
  intros o z h k A sols t w w' L E. unfold Step, SWARM_TIME_INTERVAL in E. replace (Rltb (w_last w) 0 || Rltb (1 / 10) (Rabs (t - w_last w))) with true in E.
  - destruct (despawn_loop z h k A (w_cars w) (w_spawned w)) as [[[l cars] n]|]; [|discriminate]. destruct (spawn _ _ _ _ _ _); [|discriminate]. injection E as <-. reflexivity.
  - symmetry. apply orb_true_iff. rewrite !Rltb_true. exact L.
Qed.
Example C67_interval_ex : Step o1 z1 0 0 0 [(0, 0)] (1 / 20) (Swarm [] [] 3 0 0) = Some (Swarm [] [] 3 0 0).
Proof. apply C67_interval; cbn; [lra|]. replace (1 / 20 - 0) with (1 / 20) by ring. rewrite Rabs_pos_eq; lra. Qed.

(** Refuted for a vehicle with two controllers: they are taken out of the vector that is gone through. *)
Theorem C67_controllers_refuted : forall z h k A v f, c_off v = true -> (1 < c_ctrls v)%nat -> c_id v = i_id f -> despawn_loop z h k A [v] [f] = None.
Proof.
  intros z h k A v f O C E. cbn [despawn_loop find_car find]. rewrite E, Nat.eqb_refl. unfold judge. rewrite O. cbn [orb]. rewrite (proj2 (Nat.ltb_lt 1 (c_ctrls v)) C). reflexivity.
Qed.
Example C67_controllers_refuted_ex : despawn_loop z1 0 0 0 [Car 1 0 0 true false 2 0] [Spawned 1 0 0 0 0] = None. Proof. apply C67_controllers_refuted; cbn; auto with arith. Qed.

Print Assumptions C67_fewer.
Print Assumptions C67_one_refuted.
Print Assumptions C67_negative_refuted.
Print Assumptions C67_despawn.
Print Assumptions C67_sample.
Print Assumptions C67_junction.
Print Assumptions C67_junction_refuted.
Print Assumptions C67_new.
Print Assumptions C67_spawn.
Print Assumptions C67_one_lane.
Print Assumptions C67_direction.
Print Assumptions C67_direction_refuted.
Print Assumptions C67_interval.
Print Assumptions C67_check.
Print Assumptions C67_controllers_refuted.
