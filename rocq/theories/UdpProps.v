(** * C77: driving by messages from the network *)
From Coq Require Import Reals Bool List NArith ZArith Lra Lia.
From Verif Require Import AngModel AngProofs BoxModel AccModel VehModel UdpModel UdpProofs.
Import ListNotations.
Open Scope R_scope.

(** For the examples: a number is its first byte; messages and a world with objects 0 and 1. *)
Definition dbl1 (l : list N) : R := IZR (Z.of_N (nth 0 l 0%N)).
Definition d8 (n : N) : list N := [n; 0; 0; 0; 0; 0; 0; 0]%N.
Definition message (version mode id : N) (body : list N) : list N :=
  firstn 88 ([version; 0; 0; 0; mode; 0; 0; 0; id; 0; 0; 0; 0; 0; 0; 0]%N ++ body ++ zeros).
(** x = 7, y = 0, h = 0, speed = 5, wheel = 0 and dead reckoning. *)
Definition xyh (version id : N) : list N := message version 3 id (d8 7 ++ d8 0 ++ d8 0 ++ d8 5 ++ d8 0 ++ [1%N]).
Definition world2 : world := fun i => if ((i =? 0) || (i =? 1))%Z then Some (St 0 0 0 0 0) else None.
Definition start : ctl := Ctl zeros zeros (ActivateVeh 5 (St 0 0 0 0 0)).

(** ** Receiving *)
(** Asynchronously only the latest message counts, whatever came before it. *)
Theorem C77_latest : forall dbl own dt q p c w, whole p -> whole (c_msg c) ->
  Step dbl false own dt (q ++ [p]) c w = Step dbl false own dt [p] c w.
Proof.
  intros dbl own dt q p c w P B. unfold Step, receive. rewrite drain_snoc by assumption. change [p] with ([] ++ [p]). rewrite drain_snoc by assumption. reflexivity.
Qed.
Example C77_latest_ex : whole (xyh 1 0) /\ whole (c_msg start).
Proof. split; reflexivity. Qed.
(** Synchronously one is taken in a step, in the order they came. *)
Theorem C77_sync : forall dbl own dt q p c w, Step dbl true own dt (p :: q) c w = let '(_, c', w') := Step dbl true own dt [p] c w in (q, c', w').
Proof.
  intros dbl own dt q p c w. unfold Step, receive. destruct (recv p (c_msg c)) as [n b].
  destruct (if (0 <? n)%nat then handle dbl b (c_veh c) w else Some (c_veh c, w)) as [(v, u)|]; [|reflexivity]. destruct (move _ _ _ _ _ _ _); reflexivity.
Qed.
Example C77_sync_ex : exists c w, Step dbl1 true 0 (1 / 10) [xyh 1 0; xyh 1 1] start world2 = ([xyh 1 1], c, w).
Proof. rewrite C77_sync. destruct (Step _ _ _ _ _ _ _) as ((q, c), w). exists c, w. reflexivity. Qed.
(** The buffer is always a whole message. *)
Theorem C77_buffer : forall dbl sync own dt q c w, whole (c_msg c) -> whole (c_last c) ->
  let '(_, c', _) := Step dbl sync own dt q c w in whole (c_msg c') /\ whole (c_last c').
Proof.
  intros dbl sync own dt q c w B L. unfold Step. pose proof (receive_length sync q (c_msg c) B) as R1. destruct (receive sync q (c_msg c)) as [[n b] q']. cbn [fst snd] in R1.
  assert (L1 : whole (if (0 <? n)%nat then b else c_last c)) by (destruct (0 <? n)%nat; assumption).
  destruct (if (0 <? n)%nat then handle dbl b (c_veh c) w else Some (c_veh c, w)) as [(v, u)|]; [|split; assumption]. destruct (move _ _ _ _ _ _ _). split; assumption.
Qed.
Example C77_buffer_ex : whole zeros.
Proof. reflexivity. Qed.
(** A datagram cut short is filled up with what is in the buffer: "what a step does depends on the datagram, not on earlier ones" fails. *)
Theorem C77_short : forall dbl sync own dt p c w, (0 < length p < 88)%nat ->
  let '(_, c', _) := Step dbl sync own dt [p] c w in c_last c' = p ++ skipn (length p) (c_msg c).
Proof.
  intros dbl sync own dt p c w L.
  assert (R1 : receive sync [p] (c_msg c) = (length p, p ++ skipn (length p) (c_msg c), [])).
  { assert (R2 : recv p (c_msg c) = (length p, p ++ skipn (length p) (c_msg c))).
    { unfold recv. rewrite Nat.min_l by (unfold SIZE; lia). rewrite firstn_all2 by (unfold SIZE; lia). reflexivity. }
    unfold receive. destruct sync; [rewrite R2; reflexivity|]. cbn [drain]. rewrite R2. replace (0 <? length p)%nat with true by (symmetry; apply Nat.ltb_lt; lia). reflexivity. }
  unfold Step. rewrite R1. replace (0 <? length p)%nat with true by (symmetry; apply Nat.ltb_lt; lia).
  destruct (handle _ _ _ _) as [(v, u)|]; [|reflexivity]. destruct (move _ _ _ _ _ _ _). reflexivity.
Qed.
Example C77_short_ex : length (firstn 16 (xyh 1 0)) = 16%nat.
Proof. reflexivity. Qed.
Theorem C77_short_refuted : exists p m1 m2, whole m1 /\ whole m2 /\
  (let '(_, _, w1) := Step dbl1 false 0 (1 / 10) [p] (Ctl m1 zeros (c_veh start)) world2 in
   let '(_, _, w2) := Step dbl1 false 0 (1 / 10) [p] (Ctl m2 zeros (c_veh start)) world2 in
   option_map s_x (w1 0%Z) = Some 0 /\ option_map s_x (w2 0%Z) = Some 7).
Proof.
  exists (firstn 16 (xyh 1 0)), zeros, (xyh 1 1). split; [reflexivity|]. split; [reflexivity|].
  unfold Step. change (receive false [firstn 16 (xyh 1 0)] (c_msg (Ctl zeros zeros (c_veh start)))) with (16%nat, firstn 16 (xyh 1 0) ++ skipn 16 zeros, @nil (list N)).
  change (receive false [firstn 16 (xyh 1 0)] (c_msg (Ctl (xyh 1 1) zeros (c_veh start)))) with (16%nat, firstn 16 (xyh 1 0) ++ skipn 16 (xyh 1 1), @nil (list N)).
  cbn [Nat.ltb Nat.leb c_veh c_last].
  set (m1 := firstn 16 (xyh 1 0) ++ skipn 16 zeros). set (m2 := firstn 16 (xyh 1 0) ++ skipn 16 (xyh 1 1)).
  rewrite (handle_told dbl1 m1 _ world2 (St 0 0 0 0 0)) by (try reflexivity; try discriminate; right; split; reflexivity).
  rewrite (handle_told dbl1 m2 _ world2 (St 7 0 0 5 0)) by (try reflexivity; try discriminate; right; split; reflexivity).
  rewrite !move_still by (try reflexivity; discriminate). split; reflexivity.
Qed.

(** ** States *)
(** A message with position, heading, speed and wheel angle gives these to the object it names and changes no other object. *)
Theorem C77_state : forall dbl sync own dt p c w s, whole p -> whole (c_msg c) -> version p = 1%N -> w (to_int (objectId p)) <> None -> told dbl p s ->
  let '(_, c', w') := Step dbl sync own dt [p] c w in
  w' (to_int (objectId p)) = Some s /\ (forall j, j <> to_int (objectId p) -> w' j = w j) /\
  x_ (c_veh c') = s_x s /\ y_ (c_veh c') = s_y s /\ h_ (c_veh c') = s_h s /\ speed_ (c_veh c') = speed_ (c_veh c) /\ c_last c' = p.
Proof.
  intros dbl sync own dt p c w s P B V K T. rewrite Step_one by assumption. rewrite (handle_told dbl p (c_veh c) w s V K T).
  rewrite move_still; [|apply (reckons_told dbl p s); [exact T|lia]|exact (told_not_driver dbl p s T)].
  split; [apply put_same|]. split; [intros j J; now apply put_other|]. repeat split.
Qed.
Example C77_state_ex : version (xyh 1 1) = 1%N /\ to_int (objectId (xyh 1 1)) = 1%Z /\ told dbl1 (xyh 1 1) (St 7 0 0 5 0).
Proof. split; [reflexivity|]. split; [reflexivity|]. right. split; reflexivity. Qed.
(** One with heading, speed and wheel angle leaves the position, or moves the object of the controller on by speed and heading if asked to. *)
Theorem C77_state_h : forall dbl sync own dt p c w o, whole p -> whole (c_msg c) -> version p = 1%N -> inputMode p = 4%N -> to_int (objectId p) = own -> w own = Some o ->
  1 / 1000000 < dt ->
  let h := slot dbl p 0 in let v := slot dbl p 1 in
  let ds := if (byte p 40 =? 0)%N then 0 else v * dt in
  let '(_, c', w') := Step dbl sync own dt [p] c w in
  w' own = Some (St (s_x o + ds * cos h) (s_y o + ds * sin h) h v (slot dbl p 2)) /\ forall j, j <> own -> w' j = w j.
Proof.
  intros dbl sync own dt p c w o P B V M I K D. cbv zeta. rewrite Step_one by assumption. unfold handle. rewrite V, I, K, M.
  change (negb (1 =? VERSION)%N) with false. change (4 =? STATE_XYZHPR)%N with false. change (4 =? STATE_XYH)%N with false. change (4 =? STATE_H)%N with true. cbv iota.
  destruct (byte p 40 =? 0)%N eqn:E.
  - assert (R1 : reckons 88 p = false) by (unfold reckons, reckonH; rewrite M; change (BODY + 24)%nat with 40%nat; rewrite E; reflexivity).
    rewrite move_still by (try exact R1; rewrite M; discriminate). split; [rewrite put_same; do 2 f_equal; ring|]. intros j J. now apply put_other.
  - assert (R1 : reckons 88 p = true) by (unfold reckons, reckonH; rewrite M; change (BODY + 24)%nat with 40%nat; rewrite E; reflexivity).
    rewrite (move_reckon dbl dt own 88 p _ _ _ D R1 (put_same _ _ _)). unfold course. rewrite M. change (4 =? STATE_H)%N with true. cbv iota. cbn [fst snd s_x s_y s_speed s_wheel].
    split; [rewrite put_same; reflexivity|]. intros j J. rewrite !put_other by exact J. reflexivity.
Qed.
Example C77_state_h_ex : let p := message 1 4 0 (d8 0 ++ d8 5 ++ d8 0 ++ [1%N]) in inputMode p = 4%N /\ byte p 40 = 1%N /\ slot dbl1 p 1 = 5.
Proof. repeat split. Qed.

(** ** Dead reckoning *)
(** Without messages the object goes on straight with the last speed and heading, over any number of steps by the time gone. *)
Theorem C77_reckon : forall dbl sync own l c w o, Forall (fun dt => 1 / 1000000 < dt) l -> w own = Some o -> inputMode (c_last c) = 3%N -> byte (c_last c) 56 <> 0%N ->
  let v := slot dbl (c_last c) 3 in let h := slot dbl (c_last c) 2 in
  let '(c', w') := quiet dbl sync own l c w in
  c' = c /\ (forall j, j <> own -> w' j = w j) /\
  exists o', w' own = Some o' /\ s_x o' = s_x o + v * total l * cos h /\ s_y o' = s_y o + v * total l * sin h /\ s_speed o' = s_speed o /\ s_wheel o' = s_wheel o /\
    s_h o' = match l with [] => s_h o | _ => h_ (c_veh c) end.
Proof.
  intros dbl sync own l c w o F K M B. assert (R1 : reckons 0 (c_last c) = true).
  { unfold reckons, reckonXYH. rewrite M. apply N.eqb_neq in B. change (BODY + 40)%nat with 56%nat. rewrite B. reflexivity. }
  pose proof (quiet_reckon dbl sync own l c w o F K R1) as H. unfold course in H. rewrite M in H. exact H.
Qed.
Example C77_reckon_ex : inputMode (xyh 1 0) = 3%N /\ byte (xyh 1 0) 56 = 1%N /\ total [1 / 10; 2 / 10] = 3 / 10.
Proof. split; [reflexivity|]. split; [reflexivity|]. simpl. lra. Qed.
(** "Dead reckoning of a full state when asked for": asked for or not, the first byte of the roll angle decides. *)
Theorem C77_reckon_full_refuted : forall dbl sync own dt c w o, w own = Some o -> 1 / 1000000 < dt -> inputMode (c_last c) = 2%N -> whole (c_last c) ->
  (exists r, slot dbl (c_last c) 5 = dbl (byte (c_last c) 56 :: r)) /\
  let '(_, _, w') := Step dbl sync own dt [] c w in
  w' own = Some (if (byte (c_last c) 56 =? 0)%N then o else
    St (s_x o + slot dbl (c_last c) 6 * dt * cos (slot dbl (c_last c) 3)) (s_y o + slot dbl (c_last c) 6 * dt * sin (slot dbl (c_last c) 3)) (h_ (c_veh c)) (s_speed o) (s_wheel o)).
Proof.
  intros dbl sync own dt c w o K D M L. split.
  - unfold slot, byte. change (BODY + 8 * 5)%nat with 56%nat. unfold whole in L. destruct (skipn 56 (c_last c)) as [|a r] eqn:E.
    + apply (f_equal (@length N)) in E. rewrite skipn_length, L in E. discriminate.
    + exists (firstn 7 r). replace (nth 56 (c_last c) 0%N) with a; [reflexivity|]. rewrite <- (firstn_skipn 56 (c_last c)), E, app_nth2; rewrite firstn_length, L; [reflexivity|simpl; lia].
  - rewrite Step_none. destruct (byte (c_last c) 56 =? 0)%N eqn:E.
    + rewrite move_still; [exact K| |rewrite M; discriminate]. unfold reckons, reckonXYH. rewrite M. change (BODY + 40)%nat with 56%nat. rewrite E. reflexivity.
    + assert (R1 : reckons 0 (c_last c) = true) by (unfold reckons, reckonXYH; rewrite M; change (BODY + 40)%nat with 56%nat; rewrite E; reflexivity).
      rewrite (move_reckon dbl dt own 0 _ _ _ _ D R1 K). unfold course. rewrite M. change (2 =? STATE_H)%N with false. change (2 =? STATE_XYH)%N with false. cbv iota. cbn [fst snd].
      apply put_same.
Qed.
Example C77_reckon_full_refuted_ex : let p := message 1 2 0 (d8 0 ++ d8 0 ++ d8 0 ++ d8 0 ++ d8 0 ++ d8 0 ++ d8 5 ++ d8 0 ++ [1%N]) in
  inputMode p = 2%N /\ whole p /\ byte p 80 = 1%N /\ byte p 56 = 0%N /\ slot dbl1 p 6 = 5.
Proof. repeat split. Qed.
(** Nothing happens in a step without message if the last one neither asks for dead reckoning nor is a driver's input. *)
Theorem C77_quiet : forall dbl sync own dt c w, inputMode (c_last c) <> 1%N -> (inputMode (c_last c) = 4%N -> byte (c_last c) 40 = 0%N) ->
  (inputMode (c_last c) = 2%N \/ inputMode (c_last c) = 3%N -> byte (c_last c) 56 = 0%N) -> Step dbl sync own dt [] c w = ([], c, w).
Proof.
  intros dbl sync own dt c w M A B. rewrite Step_none. rewrite move_still; [destruct c; reflexivity| |exact M].
  unfold reckons, reckonH, reckonXYH. change (BODY + 40)%nat with 56%nat. change (BODY + 24)%nat with 40%nat.
  destruct (inputMode (c_last c) =? STATE_H)%N eqn:E1; [apply N.eqb_eq in E1; rewrite (A E1), E1; reflexivity|].
  destruct (inputMode (c_last c) =? STATE_XYH)%N eqn:E2; [apply N.eqb_eq in E2; rewrite (B (or_intror E2)), E2; reflexivity|].
  destruct (inputMode (c_last c) =? STATE_XYZHPR)%N eqn:E3; [apply N.eqb_eq in E3; rewrite (B (or_introl E3)); reflexivity|]. reflexivity.
Qed.
Example C77_quiet_ex : Step dbl1 false 0 1 [] start world2 = ([], start, world2).
Proof. apply C77_quiet; [discriminate|discriminate|]. intros _. reflexivity. Qed.

(** ** Messages not understood *)
(** In the step it comes a message of another version or for an unknown object changes no object and not the vehicle... *)
Theorem C77_ignored : forall dbl sync own dt p c w, whole p -> whole (c_msg c) -> version p <> 1%N \/ w (to_int (objectId p)) = None ->
  Step dbl sync own dt [p] c w = ([], Ctl p p (c_veh c), w).
Proof.
  intros dbl sync own dt p c w P B H. rewrite Step_one by assumption. unfold handle. change VERSION with 1%N.
  destruct (version p =? 1)%N eqn:E; [|reflexivity]. apply N.eqb_eq in E. destruct H as [H|H]; [congruence|]. rewrite H. reflexivity.
Qed.
Example C77_ignored_ex : version (xyh 2 0) = 2%N /\ world2 (to_int (objectId (xyh 1 9))) = None.
Proof. split; reflexivity. Qed.
(** ... but in the next one, without a message, the object is moved by it. *)
Theorem C77_ignored_refuted : forall p, p = xyh 2 0 \/ p = xyh 1 9 -> let '(_, c1, w1) := Step dbl1 false 0 1 [p] start world2 in
  let '(_, _, w2) := Step dbl1 false 0 1 [] c1 w1 in w1 0%Z = Some (St 0 0 0 0 0) /\ option_map s_x (w2 0%Z) = Some 5.
Proof.
  intros p H. assert (Q1 : whole p /\ (version p <> 1%N \/ world2 (to_int (objectId p)) = None) /\ reckons 0 p = true /\ course dbl1 p = (5, 0)).
  { destruct H as [->| ->]; (split; [reflexivity|split; [|split; reflexivity]]); [left; discriminate|right; reflexivity]. }
  destruct Q1 as (P & V & R1 & C). rewrite C77_ignored by (try exact P; try exact V; reflexivity). rewrite Step_none. cbn [c_last c_veh c_msg].
  rewrite (move_reckon dbl1 1 0 0 p _ world2 (St 0 0 0 0 0) ltac:(lra) R1 eq_refl), C. split; [reflexivity|]. cbn [fst snd s_x]. rewrite put_same. cbn [option_map s_x]. f_equal. rewrite cos_0. ring.
Qed.
(** A state of another object with dead reckoning: it is the controller's own object that then goes on by it. *)
Theorem C77_other_refuted : forall dbl sync own dt1 dt p c w s o, whole p -> whole (c_msg c) -> version p = 1%N -> inputMode p = 3%N -> byte p 56 <> 0%N -> told dbl p s ->
  w (to_int (objectId p)) <> None -> to_int (objectId p) <> own -> w own = Some o -> 1 / 1000000 < dt ->
  let '(_, c1, w1) := Step dbl sync own dt1 [p] c w in let '(_, _, w2) := Step dbl sync own dt [] c1 w1 in
  w2 (to_int (objectId p)) = Some s /\
  w2 own = Some (St (s_x o + s_speed s * dt * cos (s_h s)) (s_y o + s_speed s * dt * sin (s_h s)) (s_h s) (s_speed o) (s_wheel o)).
Proof.
  intros dbl sync own dt1 dt p c w s o P B V M Y T K I O D.
  pose proof (C77_state dbl sync own dt1 p c w s P B V K T) as H. destruct (Step dbl sync own dt1 [p] c w) as [[q1 c1] w1]. destruct H as (H1 & H2 & _ & _ & H5 & _ & H7).
  rewrite Step_none, H7. assert (R1 : reckons 0 p = true).
  { unfold reckons, reckonXYH. rewrite M. apply N.eqb_neq in Y. change (BODY + 40)%nat with 56%nat. rewrite Y. reflexivity. }
  rewrite (move_reckon dbl dt own 0 p _ w1 o D R1) by (rewrite H2; [exact O|auto]). split; [rewrite put_other by exact I; exact H1|]. rewrite put_same, H5.
  destruct T as [[T _]|[_ ->]]; [rewrite M in T; discriminate|]. unfold course. rewrite M. reflexivity.
Qed.
Example C77_other_refuted_ex : to_int (objectId (xyh 1 1)) = 1%Z /\ byte (xyh 1 1) 56 = 1%N /\ world2 1%Z <> None /\ told dbl1 (xyh 1 1) (St 7 0 0 5 0).
Proof. split; [reflexivity|]. split; [reflexivity|]. split; [discriminate|]. right. split; reflexivity. Qed.

(** ** Driver's input *)
(** The object follows the vehicle model under the last input, with a new message or without. *)
Theorem C77_driver : forall dbl sync own dt c w o, inputMode (c_last c) = 1%N -> w own = Some o -> 1 / 1000000 < dt ->
  let m := c_last c in let u := DrivingControlAnalog (c_veh c) dt (slot dbl m 0 - slot dbl m 1) (slot dbl m 2) in
  let '(_, c', w') := Step dbl sync own dt [] c w in
  c_veh c' = u /\ c_last c' = m /\ w' own = Some (St (x_ u) (y_ u) (h_ u) (speed_ u) (wheel_ u)) /\ forall j, j <> own -> w' j = w j.
Proof.
  intros dbl sync own dt c w o M K D. cbv zeta. rewrite Step_none, (move_driver dbl dt own 0 _ _ _ _ D M K). split; [reflexivity|]. split; [reflexivity|].
  split; [apply put_same|]. intros j J. now apply put_other.
Qed.
Example C77_driver_ex : inputMode (message 1 1 0 (d8 1)) = 1%N /\ slot dbl1 (message 1 1 0 (d8 1)) 0 = 1.
Proof. split; reflexivity. Qed.
Theorem C77_driver_message : forall dbl sync own dt p c w o, whole p -> whole (c_msg c) -> version p = 1%N -> inputMode p = 1%N -> w (to_int (objectId p)) <> None ->
  w own = Some o -> 1 / 1000000 < dt ->
  let u := DrivingControlAnalog (c_veh c) dt (slot dbl p 0 - slot dbl p 1) (slot dbl p 2) in
  let '(_, c', w') := Step dbl sync own dt [p] c w in c_veh c' = u /\ w' own = Some (St (x_ u) (y_ u) (h_ u) (speed_ u) (wheel_ u)).
Proof.
  intros dbl sync own dt p c w o P B V M K O D. cbv zeta. rewrite Step_one by assumption. unfold handle. rewrite V, M. change (negb (1 =? VERSION)%N) with false. cbv iota.
  destruct (w (to_int (objectId p))) as [a|]; [|congruence]. change (1 =? STATE_XYZHPR)%N with false. change (1 =? STATE_XYH)%N with false. change (1 =? STATE_H)%N with false. cbv iota.
  rewrite (move_driver dbl dt own 88 p _ w o D M O). split; [reflexivity|apply put_same].
Qed.
Example C77_driver_message_ex : whole (message 1 1 0 (d8 1)) /\ version (message 1 1 0 (d8 1)) = 1%N.
Proof. split; reflexivity. Qed.
(** "The internal model is updated in case the next message is driver input": not its speed. Whatever speed a state told of, input without throttle and brake
    finds a vehicle that stood on activation standing. *)
Theorem C77_speed_after_state_refuted : forall dbl sync own dt1 dt p1 p2 c w s o, whole p1 -> whole p2 -> whole (c_msg c) -> version p1 = 1%N -> version p2 = 1%N ->
  told dbl p1 s -> to_int (objectId p1) = own -> to_int (objectId p2) = own -> w own = Some o -> inputMode p2 = 1%N -> slot dbl p2 0 = slot dbl p2 1 -> 1 / 1000000 < dt ->
  c_veh c = ActivateVeh 5 (St 0 0 0 0 0) ->
  let '(_, c1, w1) := Step dbl sync own dt1 [p1] c w in let '(_, _, w2) := Step dbl sync own dt [p2] c1 w1 in
  w1 own = Some s /\ option_map s_speed (w2 own) = Some 0.
Proof.
  intros dbl sync own dt1 dt p1 p2 c w s o P1 P2 B V1 V2 T I1 I2 O M E D A.
  assert (K : w (to_int (objectId p1)) <> None) by (rewrite I1, O; discriminate).
  rewrite Step_one by assumption. rewrite (handle_told dbl p1 (c_veh c) w s V1 K T).
  rewrite move_still; [|apply (reckons_told dbl p1 s); [exact T|lia]|exact (told_not_driver dbl p1 s T)].
  pose proof (C77_driver_message dbl sync own dt p2 (Ctl p1 p1 (SetPos (c_veh c) (s_x s) (s_y s) (s_h s))) (put w (to_int (objectId p1)) s) s P2 P1 V2 M) as H.
  rewrite I2, I1 in H. specialize (H ltac:(rewrite put_same; discriminate) (put_same _ _ _) D). cbv zeta in H. rewrite I1.
  destruct (Step dbl sync own dt [p2] _ _) as [[q2 c2] w2]. destruct H as (_ & H). rewrite put_same. split; [reflexivity|]. rewrite H. cbn [option_map s_speed]. f_equal.
  rewrite E. replace (slot dbl p2 1 - slot dbl p2 1) with 0 by ring. cbn [c_veh]. rewrite A. unfold DrivingControlAnalog, Update. cbn [speed_].
  unfold throttle_part. cbn [SetPos ActivateVeh reset_veh no_throttle_ hand_ speed_ max_acc_ max_dec_ max_speed_ drag_ s_speed].
  rewrite (proj2 (Rltb_false 0 0)) by lra. cbn [andb]. rewrite Rabs_R0. rewrite (proj2 (Rltb_true 0 SMALL_NUMBER)) by (unfold SMALL_NUMBER; lra).
  cbn [set_speed set_wheel no_steer_ speed_].
  replace (0 + 20 * 0 * dt) with 0 by ring. cbn [set_speed set_wheel no_steer_ speed_].
  replace (0 * (1 - 1 / 1000)) with 0 by ring. unfold CLAMP, MIN, MAX. rewrite (proj2 (Rltb_true (- (30)) 0)) by lra. rewrite (proj2 (Rltb_true 0 30)) by lra. reflexivity.
Qed.
Example C77_speed_after_state_refuted_ex : told dbl1 (xyh 1 0) (St 7 0 0 5 0) /\ inputMode (message 1 1 0 []) = 1%N /\ slot dbl1 (message 1 1 0 []) 0 = slot dbl1 (message 1 1 0 []) 1.
Proof. split; [right; split; reflexivity|split; reflexivity]. Qed.

(** ** Ports *)
(** Without a port given each object has its own, as long as they are port numbers. *)
Theorem C77_ports : forall base i j, (0 < base)%Z -> (0 <= i)%Z -> (0 <= j)%Z -> (base + i <= 65535)%Z -> (base + j <= 65535)%Z -> i <> j ->
  read_port None = Some 0%Z /\ snd (fst (ActivatePort base i 0 None)) <> snd (fst (ActivatePort base j 0 None)) /\ snd (fst (ActivatePort base i 0 None)) = (base + i)%Z.
Proof. intros base i j B I J A C N1. cbn. rewrite !Z.mod_small by lia. split; [reflexivity|]. split; lia. Qed.
Example C77_ports_ex : ActivatePort 49950 3 0 None = (49953, 49953, true)%Z.
Proof. reflexivity. Qed.
(** A socket is kept when the controller is activated again on a port number... *)
Theorem C77_socket_kept : forall base i port, (0 < base)%Z -> (0 <= i)%Z -> (0 <= port)%Z -> let '(p, s, _) := ActivatePort base i port None in
  (p <= 65535)%Z -> ActivatePort base i p (Some s) = (p, s, false) /\ s = p.
Proof.
  intros base i port B I P. unfold ActivatePort. set (p := if (port =? 0)%Z then (base + i)%Z else port).
  assert (p > 0)%Z by (unfold p; destruct (Z.eqb_spec port 0); lia). intros L. rewrite Z.mod_small by lia. replace (p =? 0)%Z with false by (symmetry; apply Z.eqb_neq; lia).
  rewrite Z.eqb_refl. split; reflexivity.
Qed.
Example C77_socket_kept_ex : ActivatePort 49950 3 49953 (Some 49953%Z) = (49953, 49953, false)%Z.
Proof. reflexivity. Qed.
(** ... but base port and id may go beyond: then the socket has another port, even that of another object, and is made anew each time. *)
Theorem C77_port_beyond_refuted : forall base i, (base <= 65535)%Z -> (65535 < base + i < 131072)%Z ->
  let '(p, s, _) := ActivatePort base i 0 None in s = (p - 65536)%Z /\ ActivatePort base i p (Some s) = (p, s, true).
Proof.
  intros base i B I. cbn. assert (M : ((base + i) mod 65536 = base + i - 65536)%Z) by (symmetry; apply (Zmod_unique _ _ 1); lia).
  rewrite M. split; [lia|]. unfold ActivatePort. replace (base + i =? 0)%Z with false by (symmetry; apply Z.eqb_neq; lia).
  replace (base + i - 65536 =? base + i)%Z with false by (symmetry; apply Z.eqb_neq; lia). rewrite M. reflexivity.
Qed.
Example C77_port_beyond_refuted_ex : ActivatePort 65535 1 0 None = (65536, 0, true)%Z.
Proof. reflexivity. Qed.
(** A port given may be that of another object. *)
Theorem C77_port_given_refuted : exists base i j p, read_port (Some p) = Some p /\ i <> j /\ snd (fst (ActivatePort base i p None)) = snd (fst (ActivatePort base j 0 None)).
Proof. exists 49950%Z, 0%Z, 3%Z, 49953%Z. split; [reflexivity|]. split; [discriminate|reflexivity]. Qed.
Theorem C77_port_range : forall p, (exists q, read_port (Some p) = Some q) <-> (0 <= p <= 65535)%Z.
Proof.
  intros p. unfold read_port. destruct (Z.ltb_spec p 0), (Z.ltb_spec 65535 p); cbn; split; intros H1; try lia; try (destruct H1; discriminate); eexists; reflexivity.
Qed.
Example C77_port_range_ex : read_port (Some 65536%Z) = None /\ read_port (Some 65535%Z) = Some 65535%Z.
Proof. split; reflexivity. Qed.


(** ** Details *)
(** A message of a mode that is none of the four changes nothing, now and later. *)
Theorem C77_unknown_mode : forall dbl sync own dt p c w, whole p -> whole (c_msg c) -> (inputMode p = 0 \/ 5 <= inputMode p)%N ->
  Step dbl sync own dt [p] c w = ([], Ctl p p (c_veh c), w) /\ forall dt2, Step dbl sync own dt2 [] (Ctl p p (c_veh c)) w = ([], Ctl p p (c_veh c), w).
Proof.
  intros dbl sync own dt p c w P B M. assert (R1 : forall n, reckons n p = false).
  { intros n. unfold reckons, STATE_H, STATE_XYH, STATE_XYZHPR. rewrite (proj2 (N.eqb_neq (inputMode p) 4)), (proj2 (N.eqb_neq (inputMode p) 3)), (proj2 (N.eqb_neq (inputMode p) 2)) by lia. cbn. apply andb_false_r. }
  split.
  - rewrite Step_one by assumption. unfold handle, STATE_H, STATE_XYH, STATE_XYZHPR. destruct (negb _); [reflexivity|]. destruct (w _); [|reflexivity].
    rewrite (proj2 (N.eqb_neq (inputMode p) 4)), (proj2 (N.eqb_neq (inputMode p) 3)), (proj2 (N.eqb_neq (inputMode p) 2)) by lia. rewrite move_still by (auto; lia). reflexivity.
  - intros dt2. rewrite Step_none. cbn [c_last c_veh c_msg]. rewrite move_still by (auto; lia). reflexivity.
Qed.
Example C77_unknown_mode_ex : inputMode (message 1 9 0 []) = 9%N.
Proof. reflexivity. Qed.
(** The header: little-endian numbers, the id taken as a signed one. *)
Theorem C77_header : forall v0 v1 v2 v3 m0 m1 m2 m3 i0 i1 i2 i3 r, let m := [v0; v1; v2; v3; m0; m1; m2; m3; i0; i1; i2; i3] ++ r in
  version m = (v0 + 256 * v1 + 65536 * v2 + 16777216 * v3)%N /\ inputMode m = (m0 + 256 * m1 + 65536 * m2 + 16777216 * m3)%N /\
  objectId m = (i0 + 256 * i1 + 65536 * i2 + 16777216 * i3)%N /\
  ((objectId m < 4294967296)%N -> (-2147483648 <= to_int (objectId m) < 2147483648)%Z /\ (to_int (objectId m) mod 4294967296 = Z.of_N (objectId m))%Z).
Proof.
  intros. subst m. split; [unfold version, u32, byte; cbn [Nat.add app nth]; ring|]. split; [unfold inputMode, u32, byte; cbn [Nat.add app nth]; ring|]. split; [unfold objectId, u32, byte; cbn [Nat.add app nth]; ring|].
  generalize (objectId (([v0; v1; v2; v3; m0; m1; m2; m3; i0; i1; i2; i3] ++ r))). intros n H. unfold to_int. destruct (N.ltb_spec n 2147483648).
  - split; [lia|]. apply Z.mod_small. lia.
  - split; [lia|]. symmetry. apply (Zmod_unique _ _ (-1)); lia.
Qed.
Example C77_header_ex : to_int 4294967295 = (-1)%Z.
Proof. reflexivity. Qed.
(** The fields of the body: doubles one after the other. *)
Theorem C77_fields : forall dbl k l m r, (length l = 16 + 8 * k)%nat -> length m = 8%nat -> slot dbl (l ++ m ++ r) k = dbl m.
Proof.
  intros dbl k l m r L M. unfold slot. f_equal. change BODY with 16%nat. rewrite skipn_app, <- L, skipn_all, Nat.sub_diag. cbn [app skipn].
  rewrite firstn_app, M, Nat.sub_diag, firstn_O, app_nil_r, firstn_all2 by lia. reflexivity.
Qed.
Example C77_fields_ex : length (firstn 24 (xyh 1 0)) = (16 + 8 * 1)%nat.
Proof. reflexivity. Qed.
(** Activated, the vehicle is that of the object, with its speed, at most 30 m/s. *)
Theorem C77_activate : forall len o, let v := ActivateVeh len o in
  x_ v = s_x o /\ y_ v = s_y o /\ h_ v = s_h o /\ speed_ v = s_speed o /\ wheel_ v = 0 /\ len_ v = len /\ max_speed_ v = 30 /\ max_acc_ v = 20 /\ max_dec_ v = 20 /\
  hand_ v = false /\ no_throttle_ v = false /\ no_steer_ v = false.
Proof. intros. cbv zeta. repeat split. Qed.
Example C77_activate_ex : x_ (ActivateVeh 5 (St 3 0 0 0 0)) = 3.
Proof. reflexivity. Qed.
(** Datagrams without bytes are passed over. *)
Theorem C77_empty : forall dbl own dt q c w, Forall (fun p => p = []) q -> Step dbl false own dt q c w = Step dbl false own dt [] c w.
Proof.
  intros dbl own dt q c w F. assert (H : forall n b, drain q n b = (n, b)).
  { induction F as [|p q P F IH]; intros n b; [reflexivity|]. subst. cbn [drain recv length Nat.min firstn skipn app]. exact (IH n b). }
  unfold Step, receive. rewrite H. reflexivity.
Qed.
Example C77_empty_ex : Step dbl1 false 0 1 [[]; []] start world2 = ([], start, world2).
Proof. rewrite C77_empty by (repeat (apply Forall_cons; [reflexivity|]); apply Forall_nil). apply C77_quiet_ex. Qed.
(** An empty one after a message does not hide it. *)
Theorem C77_empty_after : forall dbl own dt p c w, whole p -> whole (c_msg c) -> Step dbl false own dt [p; []] c w = Step dbl false own dt [p] c w.
Proof.
  intros dbl own dt p c w P B. unfold Step, receive. cbn [drain]. rewrite recv_whole by assumption. reflexivity.
Qed.
Example C77_empty_after_ex : whole (xyh 1 0).
Proof. reflexivity. Qed.

Print Assumptions C77_latest.
Print Assumptions C77_sync.
Print Assumptions C77_buffer.
Print Assumptions C77_short.
Print Assumptions C77_short_refuted.
Print Assumptions C77_state.
Print Assumptions C77_state_h.
Print Assumptions C77_reckon.
Print Assumptions C77_reckon_full_refuted.
Print Assumptions C77_quiet.
Print Assumptions C77_ignored.
Print Assumptions C77_ignored_refuted.
Print Assumptions C77_other_refuted.
Print Assumptions C77_driver.
Print Assumptions C77_driver_message.
Print Assumptions C77_speed_after_state_refuted.
Print Assumptions C77_ports.
Print Assumptions C77_socket_kept.
Print Assumptions C77_port_beyond_refuted.
Print Assumptions C77_port_given_refuted.
Print Assumptions C77_port_range.
Print Assumptions C77_unknown_mode.
Print Assumptions C77_header.
Print Assumptions C77_fields.
Print Assumptions C77_activate.
Print Assumptions C77_empty.
Print Assumptions C77_empty_after.
