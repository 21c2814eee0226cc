(** * C61: speed profiles *)
From Coq Require Import Reals Bool List Arith Lia Lra.
From Verif Require Import AngModel AngProofs GeoModel TransModel BoxProofs GapProofs ProfModel ProfProofs.
Import ListNotations.
Open Scope R_scope.

(** An action with its entries and limits, before its start. *)
Definition fresh (m : follow_mode) (L : limits) (es : list entry) : action := Action es m L [] 0 0 false.
Definition L1 : limits := Limits 5 1 10 1 100.

Lemma L1_sane : sane L1. Proof. unfold sane, L1, SMALL_NUMBER. cbn. lra. Qed.

(** In position mode the profile consists of straight lines from corner to corner: from the speed of the object at the start to the speed of each entry,
    each in the time the entry gives or, if the allowed accelerations ask for more, in the shortest time they allow; the speed never jumps, the
    acceleration is within the limits, and after the last entry its speed stays. *)
Theorem C61_position : forall L e es offset speed acc0 t0, 0 < max_acc L -> 0 < max_dec L -> Forall (timed L) (e :: es) ->
  bends (tl (knots (corners L offset t0 speed (e :: es)))) ->
  exists a, Start (fresh POSITION L (e :: es)) offset speed acc0 t0 = Some a /\ a_cur a = 0%nat /\ a_speed a = speed /\
    a_segments a = map flat (knots (corners L offset t0 speed (e :: es))) /\
    linked joins (a_segments a) /\ linked in_order (a_segments a) /\
    Forall (fun s => - max_dec L <= g_k s <= max_acc L /\ g_j s = 0) (a_segments a) /\
    exists tz, last (a_segments a) (Segment 0 0 0 0) = Segment tz (last (map (fun e => e_speed e + offset) (e :: es)) speed) 0 0 /\
      t0 + fold_right Rplus 0 (map e_time (e :: es)) <= tz.
Proof.
  intros L e es o speed acc0 t0 HA HD F B.
  assert (F' : Forall (fun e => 0 < e_time e) (e :: es)).
  { eapply Forall_impl; [|exact F]. intros x (X & _). pose proof small_pos. lra. }
  unfold Start, fresh. cbn [a_entries a_limits a_mode a_ended]. rewrite (start_corners L POSITION e es o speed t0 HA HD F B).
  rewrite segments_position by easy. cbn [fst snd]. eexists. split; [reflexivity|]. cbn [a_cur a_speed a_segments].
  destruct (knots_joined L o (e :: es) t0 speed HA HD F') as (J1 & J2 & J3).
  destruct (knots_last L o (e :: es) t0 speed (Segment 0 0 0 0)) as (tz & K1 & K2).
  repeat (split; [first [reflexivity|assumption]|]). exists tz. split; [exact K1|]. apply K2, F'.
Qed.

Example C61_position_ex : Forall (timed L1) [Entry 2 12; Entry 1 30] /\ bends (tl (knots (corners L1 0 0 10 [Entry 2 12; Entry 1 30]))) /\
  corners L1 0 0 10 [Entry 2 12; Entry 1 30] = [(0, 10); (2, 12); (28 / 5, 30)].
Proof.
  assert (N : need L1 (12 + 0 - 10) 2 = 2 /\ need L1 (30 + 0 - (12 + 0)) 1 = 18 / 5).
  { unfold need, L1. cbn [max_acc max_dec]. split.
    - rewrite (Rmax_left _ (- _ / _)) by lra. rewrite Rmax_left by lra. reflexivity.
    - rewrite (Rmax_left _ (- _ / _)) by lra. rewrite Rmax_right by lra. lra. }
  destruct N as [N1 N2]. split; [|split].
  - unfold timed, L1, SMALL_NUMBER. repeat (apply Forall_cons; [cbn; lra|]). constructor.
  - cbn [corners e_speed e_time]. rewrite N1, N2. cbn [knots tl]. exact I.
  - cbn [corners e_speed e_time]. rewrite N1, N2. same.
Qed.

(** The time a change takes is the one that is wanted whenever the acceleration it needs is allowed. *)
Theorem C61_on_time : forall L dv dt, 0 < dt -> 0 < max_acc L -> 0 < max_dec L ->
  (- max_dec L <= dv / dt <= max_acc L -> need L dv dt = dt) /\
  (need L dv dt <> dt -> dv / need L dv dt = max_acc L \/ dv / need L dv dt = - max_dec L) /\
  - max_dec L <= dv / need L dv dt <= max_acc L.
Proof.
  intros L dv dt H HA HD. destruct (need_slope L dv dt H HA HD) as (A & B & C & D). split; [exact A|]. split; [|exact D].
  intro N. assert (E : dv = dv / dt * dt) by (field; lra). destruct (Rlt_dec (dv / dt) (- max_dec L)) as [X|X].
  - right. rewrite B by exact X. assert (dv <> 0) by (intro Z; rewrite Z in X; unfold Rdiv in X; rewrite Rmult_0_l in X; lra). field. lra.
  - destruct (Rlt_dec (max_acc L) (dv / dt)) as [Y|Y].
    + left. rewrite C by exact Y. assert (dv <> 0) by (intro Z; rewrite Z in Y; unfold Rdiv in Y; rewrite Rmult_0_l in Y; lra). field. lra.
    + exfalso. apply N, A. lra.
Qed.

Example C61_on_time_ex : need L1 8 2 = 2 /\ need L1 20 2 = 4 /\ need L1 (-40) 2 = 4.
Proof.
  unfold need, L1. cbn [max_acc max_dec]. repeat split.
  - rewrite (Rmax_left _ (- _ / _)) by lra. rewrite Rmax_left by lra. reflexivity.
  - rewrite (Rmax_left _ (- _ / _)) by lra. rewrite Rmax_right by lra. lra.
  - rewrite (Rmax_right _ (- _ / _)) by lra. rewrite Rmax_right by lra. lra.
Qed.

(** An entry at time zero in position mode sets the speed at once; the profile then goes through the other entries. *)
Theorem C61_at_once : forall L e es speed acc0 t0, 0 < max_acc L -> 0 < max_dec L -> e_time e = 0 -> es <> [] -> Forall (timed L) es ->
  bends (knots (corners L 0 t0 (e_speed e) es)) ->
  exists a, Start (fresh POSITION L (e :: es)) 0 speed acc0 t0 = Some a /\ a_segments a = map flat (knots (corners L 0 t0 (e_speed e) es)).
Proof.
  intros L e es speed acc0 t0 HA HD E0 NE F B. unfold Start, fresh. cbn [a_entries a_limits a_mode a_ended].
  rewrite (start_at_once L e es speed t0 HA HD E0 NE F B). rewrite segments_position by exact NE. eexists. split; reflexivity.
Qed.

Example C61_at_once_ex : Forall (timed L1) [Entry 2 12] /\ bends (knots (corners L1 0 0 10 [Entry 2 12])).
Proof. split; [|exact I]. unfold timed, L1, SMALL_NUMBER. repeat (apply Forall_cons; [cbn; lra|]). constructor. Qed.

(** In follow mode with a single target, from constant speed: speed and acceleration never jump, the accelerations and their rates are within the
    limits, the target speed is reached with no acceleration left and stays, not before the time that is wanted, and at that time if the limits
    allow it. *)
Theorem C61_follow_one : forall L e offset speed t0, sane L -> timed L e ->
  exists a tz, Start (fresh FOLLOW L [e]) offset speed 0 t0 = Some a /\ a_cur a = 0%nat /\
    linked smooth (a_segments a) /\ linked in_order (a_segments a) /\
    Forall (fun s => - max_dec L <= g_k s <= max_acc L /\ - max_dec_rate L <= g_j s <= max_acc_rate L) (a_segments a) /\
    (exists j r, a_segments a = Segment t0 speed 0 j :: r ++ [Segment tz (e_speed e + offset) 0 0]) /\
    t0 + e_time e <= tz /\
    (reachable (if Rltb (e_speed e + offset) speed then max_dec L else max_acc L) (1 / max_acc_rate L + 1 / max_dec_rate L)
       (Rabs (e_speed e + offset - speed)) (e_time e) -> tz = t0 + e_time e).
Proof.
  intros L e o speed t0 SN T. assert (HA : 0 < max_acc L) by apply SN. assert (HD : 0 < max_dec L) by apply SN.
  assert (TP : 0 < e_time e) by (destruct T; pose proof small_pos; lra).
  unfold Start, fresh. cbn [a_entries a_limits a_mode a_ended].
  rewrite (start_corners L FOLLOW e [] o speed t0 HA HD); [|constructor; [exact T|constructor]|exact I].
  rewrite corners_cons. set (v' := e_speed e + o). set (nd := need L (v' - speed) (e_time e)). cbn [corners knots]. unfold segments. cbn [is_follow].
  pose proof (need_pos L (v' - speed) (e_time e) TP) as NP. fold nd in NP.
  destruct (single_rest L FOLLOW (vertex3 t0 speed ((v' - speed) / (t0 + nd - t0))) (vertex3 (t0 + nd) v' 0) SN) as (m' & segs & tz & j & E & A1 & A2 & A3 & A4 & A5 & A6).
  { cbn. lra. } { reflexivity. }
  cbn [x_t x_v x_k vertex3] in *. rewrite E. cbn [fst snd]. eexists. exists tz. split; [reflexivity|]. cbn [a_cur a_segments].
  split; [reflexivity|]. split; [exact A1|]. split; [exact A2|]. split; [exact A4|]. destruct A3 as (r & A3). split; [exists j, r; exact A3|].
  split; [assert (e_time e <= nd) by apply Rmax_l; lra|].
  intro RE. assert (ND : nd = e_time e).
  { destruct (need_slope L (v' - speed) (e_time e) TP HA HD) as (N1 & _ & _ & _). apply N1.
    destruct RE as (k & (K0 & KA) & KD & KW).
    assert (CP : 0 < 1 / max_acc_rate L + 1 / max_dec_rate L).
    { destruct SN as (_ & _ & S1 & S2 & _). apply Rplus_lt_0_compat; apply Rdiv_lt_0_compat; lra. }
    assert (KK : 0 <= k * k * (1 / max_acc_rate L + 1 / max_dec_rate L)) by (apply Rmult_le_pos; [apply Rle_0_sqr|lra]).
    assert (W : Rabs (v' - speed) <= k * e_time e) by lra.
    assert (E1 : v' - speed = (v' - speed) / e_time e * e_time e) by (field; lra). set (q := (v' - speed) / e_time e) in *. clearbody q.
    destruct (Rltb_spec v' speed) as [C|C].
    - rewrite Rabs_left1 in W by lra. split; apply (Rmult_le_reg_r (e_time e)); nra.
    - rewrite Rabs_right in W by lra. split; apply (Rmult_le_reg_r (e_time e)); nra. }
  rewrite ND in *. replace (t0 + e_time e - t0) with (e_time e) in A6 by ring. apply A6. exact RE.
Qed.

Example C61_follow_one_ex : sane L1 /\ timed L1 (Entry 10 13) /\
  reachable (if Rltb (13 + 0) 10 then max_dec L1 else max_acc L1) (1 / max_acc_rate L1 + 1 / max_dec_rate L1) (Rabs (13 + 0 - 10)) 10 /\
  ~ reachable (if Rltb (60 + 0) 10 then max_dec L1 else max_acc L1) (1 / max_acc_rate L1 + 1 / max_dec_rate L1) (Rabs (60 + 0 - 10)) 10.
Proof.
  split; [apply L1_sane|]. split; [unfold timed, L1, SMALL_NUMBER; cbn; lra|]. unfold L1. cbn [max_acc max_dec max_acc_rate max_dec_rate]. split.
  - num. exists 1. lra.
  - num. intros (k & K & K1 & K2). nra.
Qed.

(** The same from any acceleration, as long as the first jerk is in the direction of the last one's opposite: speed and acceleration never jump,
    and the target is reached with no acceleration left. *)
Theorem C61_follow_any : forall L e offset speed acc0 t0, sane L -> timed L e -> onward acc0 ((e_speed e + offset - speed) / need L (e_speed e + offset - speed) (e_time e)) ->
  exists a tz, Start (fresh FOLLOW L [e]) offset speed acc0 t0 = Some a /\ linked smooth (a_segments a) /\
    Forall (fun s => - max_dec_rate L <= g_j s <= max_acc_rate L) (a_segments a) /\
    (exists j r, a_segments a = Segment t0 speed acc0 j :: r ++ [Segment tz (e_speed e + offset) 0 0] /\ Forall (fun s => - max_dec L <= g_k s <= max_acc L) r).
Proof.
  intros L e o speed acc0 t0 SN T ON. assert (HA : 0 < max_acc L) by apply SN. assert (HD : 0 < max_dec L) by apply SN.
  assert (TP : 0 < e_time e) by (destruct T; pose proof small_pos; lra).
  unfold Start, fresh. cbn [a_entries a_limits a_mode a_ended].
  rewrite (start_corners L FOLLOW e [] o speed t0 HA HD); [|constructor; [exact T|constructor]|exact I].
  rewrite corners_cons. set (v' := e_speed e + o) in *. set (nd := need L (v' - speed) (e_time e)) in *. cbn [corners knots]. unfold segments. cbn [is_follow].
  pose proof (need_pos L (v' - speed) (e_time e) TP) as NP. fold nd in NP.
  replace (t0 + nd - t0) with nd by ring. set (k := (v' - speed) / nd) in *.
  assert (DV : v' - speed = k * nd) by (unfold k; field; lra).
  set (x := vertex3 t0 speed k). set (y := vertex3 (t0 + nd) v' 0).
  assert (S1 : x_k x < 0 -> x_v y <= x_v x) by (cbn; intro; nra).
  assert (S2 : 0 <= x_k x -> x_v x <= x_v y) by (cbn; intro; nra).
  destruct (single_shape L FOLLOW acc0 x y SN ON S1 S2) as (m' & segs & E & SM & s & k1 & SP & PLAN & SHAPE).
  destruct (jerks L acc0 x y SN ON S1 S2) as (JC & _). destruct SN as (SA & SD & SAR & SDR & _).
  rewrite E. cbn [fst snd].
  set (j0 := jerk L (x_k x) acc0) in *. set (j1 := if Rltb (x_k x) 0 then max_acc_rate L else - max_dec_rate L) in *. clearbody j0 j1.
  assert (JJ : - max_dec_rate L <= j0 <= max_acc_rate L /\ - max_dec_rate L <= j1 <= max_acc_rate L) by (destruct JC as [(-> & -> & _)|(-> & -> & _)]; lra).
  change (x_t x) with t0 in *. change (x_v x) with speed in *. change (x_v y) with v' in *. change (x_t y) with (t0 + nd) in *.
  destruct SHAPE as [(A1 & W & t2 & v2 & t3 & -> & _)|[(A1 & W & t1 & v1 & t2 & v2 & -> & _)|(k' & KC & t1 & v1 & t2 & v2 & t3 & -> & _)]].
  - eexists. exists t3. split; [reflexivity|]. split; [exact SM|]. split; [repeat (apply Forall_cons; [cbn [g_j]; lra|]); apply Forall_nil|].
    exists j0, [Segment t2 v2 k1 j1]. split; [reflexivity|]. repeat (apply Forall_cons; [cbn [g_k]; lra|]); apply Forall_nil.
  - eexists. exists (t0 + nd). split; [reflexivity|]. split; [exact SM|]. split; [repeat (apply Forall_cons; [cbn [g_j]; lra|]); apply Forall_nil|].
    exists j0, [Segment t1 v1 k1 0; Segment t2 v2 k1 j1]. split; [reflexivity|]. repeat (apply Forall_cons; [cbn [g_k]; lra|]); apply Forall_nil.
  - eexists. exists t3. split; [reflexivity|]. split; [exact SM|]. split; [repeat (apply Forall_cons; [cbn [g_j]; lra|]); apply Forall_nil|].
    exists j0, [Segment t1 v1 k' 0; Segment t2 v2 k' j1]. split; [reflexivity|].
    assert (- max_dec L <= k' <= max_acc L) by (destruct KC as [[_ ->]|[_ ->]]; lra).
    repeat (apply Forall_cons; [cbn [g_k]; lra|]); apply Forall_nil.
Qed.

Example C61_follow_any_ex : onward 1 ((20 + 0 - 10) / need L1 (20 + 0 - 10) 4) /\ onward (-3) ((20 + 0 - 10) / need L1 (20 + 0 - 10) 4).
Proof.
  assert (N : need L1 (20 + 0 - 10) 4 = 4).
  { unfold need, L1. cbn [max_acc max_dec]. rewrite (Rmax_left _ (- _ / _)) by lra. rewrite Rmax_left by lra. reflexivity. }
  rewrite N. unfold onward. lra.
Qed.

(** In follow mode with several targets, if every two consecutive slopes differ: a profile is found; and unless it falls back to position mode on the way
    speed and acceleration never jump, from the start at the speed of the object to the speed of the last entry, and the accelerations and their
    rates are within the limits. *)
Theorem C61_follow_many : forall L e1 e2 es offset speed acc0 t0, sane L -> SMALL_NUMBER < max_acc_rate L -> SMALL_NUMBER < max_dec_rate L ->
  Forall (timed L) (e1 :: e2 :: es) -> turning (knots (corners L offset t0 speed (e1 :: e2 :: es))) ->
  exists a, Start (fresh FOLLOW L (e1 :: e2 :: es)) offset speed acc0 t0 = Some a /\
  (a_mode a = FOLLOW -> linked smooth (a_segments a) /\ linked in_order (a_segments a) /\
    exists k j r tz, a_segments a = Segment t0 speed k j :: r /\
      (k = acc0 \/ Rabs (x_k (hd (vertex2 0 0) (knots (corners L offset t0 speed (e1 :: e2 :: es))))) <= SMALL_NUMBER) /\
      - max_dec_rate L <= j <= max_acc_rate L /\
      Forall (fun s => - max_dec L <= g_k s <= max_acc L /\ - max_dec_rate L <= g_j s <= max_acc_rate L) r /\
      last r (Segment 0 0 0 0) = Segment tz (last (map (fun e => e_speed e + offset) (e1 :: e2 :: es)) speed) 0 0).
Proof.
  intros L e1 e2 es o speed acc0 t0 SN RA RD F TU. assert (HA : 0 < max_acc L) by apply SN. assert (HD : 0 < max_dec L) by apply SN.
  assert (F' : Forall (fun e => 0 < e_time e) (e1 :: e2 :: es)).
  { eapply Forall_impl; [|exact F]. intros x (X & _). pose proof small_pos. lra. }
  unfold Start, fresh. cbn [a_entries a_limits a_mode a_ended].
  rewrite (start_corners L FOLLOW e1 (e2 :: es) o speed t0 HA HD F).
  2:{ destruct (knots (corners L o t0 speed (e1 :: e2 :: es))); [exact I|]. apply bends_tl with v, turning_bends, TU. }
  destruct (follow_many L t0 speed acc0 o e1 e2 es SN RA RD F' TU) as (p & E & R). rewrite E. eexists. split; [reflexivity|].
  cbn [a_mode a_segments]. intro M. destruct (R M) as (A & B & k & j & r & tz & C & D & G & H & K). split; [exact A|]. split; [exact B|].
  exists k, j, r, tz. repeat (split; [assumption|]). assumption.
Qed.

Ltac entry r :=
  match goal with |- context [filter_entry ?L ?o ?n ?i ?e ?vs ?t] =>
    replace (filter_entry L o n i e vs t) with (Some (r : list vertex * R)); [|symmetry; unfold filter_entry, L1; pu; pc; num; pc; same] end; pc.

Ltac turn q :=
  rewrite loop_cons; cbv zeta; unfold jerk, SMALL_NUMBER, L1; pc; num;
  match goal with |- context [div ?x ?y] => replace (div x y) with (Some q); [|symmetry; unfold div; num; apply f_equal; field] end; num.
Ltac add t v := match goal with |- context [vertex_loop ?L ?xs ?a (?t3, ?v3, ?k1, ?m1)] => replace v3 with v by (field; lra); replace t3 with t by (field; lra) end; pu; pc; num; pc.

(** From standing, up by two metres per second in a second and then down by one. *)
Example C61_follow_many_ex : exists a, Start (fresh FOLLOW L1 [Entry 10 20; Entry 10 10]) 0 0 0 0 = Some a /\ a_mode a = FOLLOW /\
  a_segments a = [Segment 0 0 0 1; Segment 2 2 2 0; Segment (55 / 6) (49 / 3) 2 (-1); Segment (73 / 6) (107 / 6) (-1) 0; Segment (39 / 2) (21 / 2) (-1) 1; Segment (41 / 2) 10 0 0].
Proof.
  assert (V : vertices L1 FOLLOW [Entry 10 20; Entry 10 10] 0 0 0 = Some [Vertex 0 0 2 0; Vertex 10 20 (-1) 30; Vertex 20 10 0 10]).
  { unfold vertices. pc. pu. num. cbn [filter_entries List.length].
    entry ([Vertex 10 20 0 0; Vertex 0 0 2 0], 10). entry ([Vertex 20 10 0 10; Vertex 10 20 (-1) 30; Vertex 0 0 2 0], 20). reflexivity. }
  unfold Start, fresh. pc. rewrite V.
  assert (S : segments L1 FOLLOW 0 0 [Vertex 0 0 2 0; Vertex 10 20 (-1) 30; Vertex 20 10 0 10] =
    Some (FOLLOW, [Segment 0 0 0 1; Segment 2 2 2 0; Segment (55 / 6) (49 / 3) 2 (-1); Segment (73 / 6) (107 / 6) (-1) 0; Segment (39 / 2) (21 / 2) (-1) 1; Segment (41 / 2) 10 0 0])).
  { unfold segments. pc.
    replace (follow_start L1 FOLLOW 0 0 (Vertex 0 0 2 0)) with ((FOLLOW, [Segment 0 0 0 1; Segment 2 2 2 0]), (2, 2, 2, -2)).
    2:{ symmetry. unfold follow_start, L1. pu. pc. num. pc. num. same. }
    turn (55 / 6). add (73 / 6) (107 / 6). turn (39 / 2). add (41 / 2) 10. cbn [vertex_loop]. pc. same. }
  rewrite S. eexists. split; [reflexivity|]. split; reflexivity.
Qed.

(** In follow mode a first entry at time zero counts for nothing: the profile is that of the other entries, from the speed of the object. *)
Theorem C61_follow_now : forall L e es offset speed acc0 t0, 0 < max_acc L -> 0 < max_dec L -> - SMALL_NUMBER < e_time e <= SMALL_NUMBER -> es <> [] ->
  Forall (timed L) es -> bends (knots (corners L offset t0 speed es)) ->
  option_map a_segments (Start (fresh FOLLOW L (e :: es)) offset speed acc0 t0) = option_map a_segments (Start (fresh FOLLOW L es) offset speed acc0 t0).
Proof.
  intros L e es o speed acc0 t0 HA HD E0 NE F B. destruct es as [|e1 es]; [easy|].
  unfold Start, fresh. cbn [a_entries a_limits a_mode a_ended].
  rewrite (start_skip L e (e1 :: es) o speed t0 HA HD E0 NE F B). rewrite (start_corners L FOLLOW e1 es o speed t0 HA HD F).
  - destruct (segments _ _ _ _ _); reflexivity.
  - destruct (knots (corners L o t0 speed (e1 :: es))); [exact I|]. apply bends_tl with v, B.
Qed.

Example C61_follow_now_ex : Forall (timed L1) [Entry 10 13] /\ bends (knots (corners L1 0 0 10 [Entry 10 13])) /\ - SMALL_NUMBER < 0 <= SMALL_NUMBER.
Proof. split; [unfold timed, L1, SMALL_NUMBER; repeat (apply Forall_cons; [cbn; lra|]); constructor|]. split; [exact I|unfold SMALL_NUMBER; lra]. Qed.

(** A step sets the speed the profile has at that time: that of the current segment or, if it is time for a later one, of the last one whose time
    has come (up to a millionth of a second early). *)
Theorem C61_step : forall a z l time, a_segments a = l ++ [z] -> (a_cur a < List.length (a_segments a))%nat ->
  time < g_t z + 10 -> ~ (g_t z < time /\ Rabs (a_speed a - g_v z) < SMALL_NUMBER) ->
  exists a' s, ProfileStep a time = Some a' /\ (a_cur a <= a_cur a')%nat /\ nth_error (a_segments a) (a_cur a') = Some s /\
    (a_cur a' = a_cur a \/ g_t s - SMALL_NUMBER < time) /\
    (forall n, nth_error (a_segments a) (S (a_cur a')) = Some n -> time <= g_t n - SMALL_NUMBER) /\
    (Rabs (a_speed a' - speed_at s time) < SMALL_NUMBER /\ (a_ended a' = a_ended a -> a_ended a = false -> a_speed a' = speed_at s time \/ a_speed a' = 0) \/
     a_ended a' = true /\ a_speed a' = g_v z /\ Rabs (speed_at s time - g_v z) < 2 * SMALL_NUMBER) /\
    a_segments a' = a_segments a.
Proof.
  intros a z l time SE CU TM UP. pose proof small_pos as SP. unfold ProfileStep. rewrite SE, rev_app_distr. cbn [rev app]. rewrite <- SE.
  rewrite (proj2 (Rltb_true _ _)) by exact TM.
  assert (U : negb (Rltb (g_t z) time && Rltb (Rabs (a_speed a - g_v z)) SMALL_NUMBER) = true).
  { destruct (Rltb_spec (g_t z) time); [|reflexivity]. destruct (Rltb_spec (Rabs (a_speed a - g_v z)) SMALL_NUMBER); [|reflexivity]. exfalso. tauto. }
  rewrite U. cbn [andb]. set (sk := skipn (S (a_cur a)) (a_segments a)). destruct (passed_spec sk time) as (P1 & P2 & P3).
  assert (LS : (List.length sk = List.length (a_segments a) - S (a_cur a))%nat) by (unfold sk; apply skipn_length).
  set (cur := (a_cur a + passed sk time)%nat).
  assert (CL : (cur < List.length (a_segments a))%nat) by (unfold cur; lia).
  destruct (nth_error (a_segments a) cur) as [s|] eqn:NS; [|apply nth_error_None in NS; lia].
  assert (NK : forall i, nth_error sk i = nth_error (a_segments a) (S (a_cur a) + i)%nat).
  { intro i. unfold sk. generalize (S (a_cur a)) (a_segments a). clear. induction n as [|n IH]; intros [|x q]; cbn; try reflexivity; [destruct i; reflexivity|apply IH]. }
  set (v := if NEAR_ZERO (speed_at s time) then 0 else speed_at s time).
  assert (V : Rabs (v - speed_at s time) < SMALL_NUMBER /\ (v = speed_at s time \/ v = 0)).
  { unfold v, NEAR_ZERO. destruct (Rltb_spec (Rabs (speed_at s time)) SMALL_NUMBER) as [C|C].
    - split; [|right; reflexivity]. rewrite Rminus_0_l, Rabs_Ropp. exact C.
    - split; [|left; reflexivity]. rewrite Rminus_diag_eq by reflexivity. rewrite Rabs_R0. exact SP. }
  assert (Q1 : a_cur a = cur \/ g_t s - SMALL_NUMBER < time).
  { destruct (passed sk time) as [|k] eqn:PE; [left; unfold cur; lia|right]. apply (P2 k); [lia|]. rewrite NK. rewrite <- NS. f_equal. unfold cur. lia. }
  assert (Q2 : forall n, nth_error (a_segments a) (S cur) = Some n -> time <= g_t n - SMALL_NUMBER).
  { intros n H. apply P3. rewrite NK. rewrite <- H. f_equal. }
  destruct ((List.length (a_entries a) <=? S cur)%nat && Rltb (Rabs (v - g_v z)) SMALL_NUMBER) eqn:EN.
  - eexists. exists s. split; [reflexivity|]. cbn [a_cur a_speed a_ended a_segments]. split; [unfold cur; lia|]. split; [exact NS|].
    split; [destruct Q1; auto|]. split; [exact Q2|]. split; [|reflexivity]. right. split; [reflexivity|]. split; [reflexivity|].
    apply andb_prop in EN. destruct EN as [_ EN]. apply Rltb_true in EN. destruct V as [V _].
    replace (speed_at s time - g_v z) with (- (v - speed_at s time) + (v - g_v z)) by ring.
    eapply Rle_lt_trans; [apply Rabs_triang|]. rewrite Rabs_Ropp. lra.
  - eexists. exists s. split; [reflexivity|]. cbn [a_cur a_speed a_ended a_segments]. split; [unfold cur; lia|]. split; [exact NS|].
    split; [destruct Q1; auto|]. split; [exact Q2|]. split; [|reflexivity]. left. split; [apply V|]. intros _ _. apply V.
Qed.

Example C61_step_ex : exists a, ProfileStep (Action [Entry 2 14] POSITION L1 [Segment 0 10 2 0; Segment 2 14 0 0] 0 10 false) 1 = Some a /\
  a_speed a = 12 /\ a_ended a = false.
Proof.
  unfold ProfileStep, speed_at. cbn [a_segments rev app a_cur skipn passed]. pu. pc. num. pc. num. pc. eexists. split; [reflexivity|]. pc. split; [lra|reflexivity].
Qed.

(** From the time of the last segment on, a step sets the last speed and the action ends, provided there are at least as many segments as entries. *)
Theorem C61_ends : forall a z l time, a_segments a = l ++ [z] -> (a_cur a < List.length (a_segments a))%nat -> linked in_order (a_segments a) ->
  g_k z = 0 -> g_j z = 0 -> (List.length (a_entries a) <= List.length (a_segments a))%nat ->
  g_t z <= time < g_t z + 10 -> ~ (Rabs (a_speed a - g_v z) < SMALL_NUMBER) -> ~ (Rabs (g_v z) < SMALL_NUMBER /\ g_v z <> 0) ->
  exists a', ProfileStep a time = Some a' /\ a_speed a' = g_v z /\ a_ended a' = true.
Proof.
  intros a z l time SE CU IO KZ JZ LEN TM UP NZ. pose proof small_pos as SP. unfold ProfileStep. rewrite SE, rev_app_distr. cbn [rev app]. rewrite <- SE.
  rewrite (proj2 (Rltb_true _ _)) by apply TM. rewrite (proj2 (Rltb_false (Rabs (a_speed a - g_v z)) SMALL_NUMBER)) by lra. rewrite andb_false_r. cbn [negb andb].
  assert (LA : List.length (a_segments a) = S (List.length l)) by (rewrite SE, app_length; cbn; lia).
  rewrite passed_all.
  2:{ intros s I. rewrite SE in *. apply Rle_trans with (g_t z); [|apply TM]. apply (in_order_last l z IO).
      rewrite <- (firstn_skipn (S (a_cur a)) (l ++ [z])). apply in_app_iff. right. exact I. }
  rewrite skipn_length. replace (a_cur a + (List.length (a_segments a) - S (a_cur a)))%nat with (List.length l) by lia.
  assert (NZ' : nth_error (a_segments a) (List.length l) = Some z) by (rewrite SE, nth_error_app2 by lia; rewrite Nat.sub_diag; reflexivity). rewrite NZ'.
  assert (SZ : speed_at z time = g_v z) by (unfold speed_at; rewrite KZ, JZ; ring). rewrite SZ.
  assert (V : (if NEAR_ZERO (g_v z) then 0 else g_v z) = g_v z).
  { unfold NEAR_ZERO. destruct (Rltb_spec (Rabs (g_v z)) SMALL_NUMBER) as [C|C]; [|reflexivity].
    destruct (Req_dec (g_v z) 0) as [Z|Z]; [symmetry; exact Z|]. exfalso. tauto. }
  rewrite V. rewrite Rminus_diag_eq by reflexivity. rewrite Rabs_R0. rewrite (proj2 (Rltb_true 0 SMALL_NUMBER)) by lra.
  replace (List.length (a_entries a) <=? S (List.length l))%nat with true by (symmetry; apply Nat.leb_le; lia). cbn [andb].
  eexists. split; [reflexivity|]. split; reflexivity.
Qed.

Example C61_ends_ex : exists a, ProfileStep (Action [Entry 2 14] POSITION L1 [Segment 0 10 2 0; Segment 2 14 0 0] 0 13 false) 2.05 = Some a /\
  a_speed a = 14 /\ a_ended a = true.
Proof.
  apply (C61_ends _ (Segment 2 14 0 0) [Segment 0 10 2 0]); pc; try reflexivity; try lia; unfold in_order, SMALL_NUMBER; cbn; try lra.
  - rewrite Rabs_left by lra. lra.
  - rewrite Rabs_right by lra. lra.
Qed.

(** With fewer segments than entries it never ends, whatever the steps. *)
Theorem C61_endless : forall times a, (List.length (a_segments a) < List.length (a_entries a))%nat -> a_ended a = false ->
  (a_cur a < List.length (a_segments a))%nat ->
  exists a', fold_left (fun s time => match s with Some b => ProfileStep b time | None => None end) times (Some a) = Some a' /\ a_ended a' = false.
Proof.
  induction times as [|time times IH]; intros a LEN EN CU; [exists a; split; [reflexivity|exact EN]|].
  cbn [fold_left].
  assert (ST : exists b, ProfileStep a time = Some b /\ a_segments b = a_segments a /\ a_entries b = a_entries a /\ a_ended b = false /\ (a_cur b < List.length (a_segments a))%nat).
  { unfold ProfileStep. destruct (rev (a_segments a)) as [|z r] eqn:RV.
    { exfalso. apply (f_equal (@List.length segment)) in RV. rewrite rev_length in RV. cbn in RV. lia. }
    set (up := Rltb time (g_t z + 10) && _). set (cur := if up then _ else _).
    assert (CL : (cur < List.length (a_segments a))%nat).
    { unfold cur. destruct up; [|exact CU]. pose proof (proj1 (passed_spec (skipn (S (a_cur a)) (a_segments a)) time)) as P. rewrite skipn_length in P. lia. }
    destruct (nth_error (a_segments a) cur) as [s|] eqn:NS; [|apply nth_error_None in NS; lia].
    replace (List.length (a_entries a) <=? S cur)%nat with false by (symmetry; apply Nat.leb_gt; lia). cbn [andb].
    eexists. split; [reflexivity|]. cbn. auto. }
  destruct ST as (b & E & S1 & S2 & S3 & S4). rewrite E. apply IH; [rewrite S1, S2; exact LEN|exact S3|rewrite S1; exact S4].
Qed.

Ltac started V := unfold Start, fresh; pc; rewrite V; unfold segments; pc.

(** Such a profile: five entries, four of them on a line (two of the corners are taken out). *)
Theorem C61_ends_refuted : exists es a, Start (fresh POSITION L1 es) 0 10 0 0 = Some a /\ Forall (timed L1) es /\
  forall times, exists a', fold_left (fun s time => match s with Some b => ProfileStep b time | None => None end) times (Some a) = Some a' /\ a_ended a' = false.
Proof.
  exists [Entry 1 11; Entry 1 12; Entry 1 13; Entry 1 14; Entry 1 14].
  assert (V : vertices L1 POSITION [Entry 1 11; Entry 1 12; Entry 1 13; Entry 1 14; Entry 1 14] 0 10 0 = Some [Vertex 0 10 1 10; Vertex 1 11 1 10; Vertex 4 14 0 14; Vertex 5 14 0 14]).
  { unfold vertices. pc. pu. num. cbn [filter_entries List.length].
    entry ([Vertex 1 11 0 0; Vertex 0 10 1 10], 1).
    entry ([Vertex 2 12 0 0; Vertex 1 11 1 10; Vertex 0 10 1 10], 2).
    entry ([Vertex 3 13 1 10; Vertex 1 11 1 10; Vertex 0 10 1 10], 3).
    entry ([Vertex 4 14 1 10; Vertex 1 11 1 10; Vertex 0 10 1 10], 4).
    entry ([Vertex 5 14 0 14; Vertex 4 14 0 14; Vertex 1 11 1 10; Vertex 0 10 1 10], 5). reflexivity. }
  started V. rewrite loop_position. pc. eexists. split; [reflexivity|]. split.
  - unfold timed, L1, SMALL_NUMBER. repeat (apply Forall_cons; [cbn; lra|]). constructor.
  - intro times. apply C61_endless; cbn; [lia|reflexivity|lia].
Qed.

Example C61_ends_refuted_ex : (List.length [Segment 0 10 1 0; Segment 1 11 1 0; Segment 4 14 0 0; Segment 5 14 0 0] < List.length [Entry 1 11; Entry 1 12; Entry 1 13; Entry 1 14; Entry 1 14])%nat.
Proof. cbn. lia. Qed.

(** Three entries on a line, 12, 14 and 16 m/s: the last slope stays, and nine seconds after the last entry the speed is 25 m/s. *)
Theorem C61_line_refuted : exists a a', Start (fresh POSITION L1 [Entry 2 12; Entry 2 14; Entry 2 16]) 0 10 0 0 = Some a /\ ProfileStep a 15 = Some a' /\
  a_speed a' = 25 /\ a_ended a' = false.
Proof.
  assert (V : vertices L1 POSITION [Entry 2 12; Entry 2 14; Entry 2 16] 0 10 0 = Some [Vertex 0 10 1 10; Vertex 2 12 1 10; Vertex 6 16 1 10]).
  { unfold vertices. pc. pu. num. cbn [filter_entries List.length].
    entry ([Vertex 2 12 0 0; Vertex 0 10 1 10], 2). entry ([Vertex 4 14 0 0; Vertex 2 12 1 10; Vertex 0 10 1 10], 4).
    entry ([Vertex 6 16 1 10; Vertex 2 12 1 10; Vertex 0 10 1 10], 6). reflexivity. }
  started V. rewrite loop_position. pc. do 2 eexists. split; [reflexivity|].
  unfold ProfileStep, speed_at. cbn [a_segments map rev app a_cur skipn passed]. unfold flat. pu. pc. num. pc. num. pc. split; [reflexivity|]. pc. split; [lra|reflexivity].
Qed.

Example C61_line_refuted_ex : (25 : R) > last [12; 14; 16] 0. Proof. cbn. lra. Qed.

(** Entries without times, 10 m/s and then 0: within the first tenth of a second the speed goes from 0 to 29 m/s. *)
Theorem C61_no_times_refuted : exists a a', Start (fresh POSITION L1 [Entry (-1) 10; Entry (-1) 0]) 0 0 0 0 = Some a /\ ProfileStep a (1 / 10) = Some a' /\
  a_speed a = 0 /\ a_speed a' = 29.
Proof.
  assert (V : vertices L1 POSITION [Entry (-1) 10; Entry (-1) 0] 0 0 0 = Some [Vertex 2 10 (-10) 30; Vertex 3 0 0 0]).
  { unfold vertices. pc. pu. num. cbn [filter_entries List.length].
    entry ([Vertex 2 10 0 0], 2). entry ([Vertex 3 0 0 0; Vertex 2 10 (-10) 30], 3). reflexivity. }
  started V. rewrite loop_position. pc. do 2 eexists. split; [reflexivity|].
  unfold ProfileStep, speed_at. cbn [a_segments map rev app a_cur skipn passed]. unfold flat. pu. pc. num. pc. num. pc. split; [reflexivity|]. pc. split; [reflexivity|lra].
Qed.

Example C61_no_times_refuted_ex : (29 - 0) / (1 / 10) > max_acc L1. Proof. cbn. lra. Qed.

(** Three entries without times: the one before the first vertex is read. *)
Theorem C61_three_refuted : forall m, Start (fresh m L1 [Entry (-1) 10; Entry (-1) 20; Entry (-1) 10]) 0 0 0 0 = None.
Proof.
  intro m. assert (V : vertices L1 m [Entry (-1) 10; Entry (-1) 20; Entry (-1) 10] 0 0 0 = None).
  { unfold vertices. pc. pu. num. cbn [filter_entries List.length].
    entry ([Vertex 2 10 0 0], 2). entry ([Vertex 4 20 0 0], 4).
    match goal with |- context [filter_entry ?L ?o ?n ?i ?e ?vs ?t] => replace (filter_entry L o n i e vs t) with (@None (list vertex * R)) end; [reflexivity|].
    symmetry. unfold filter_entry, L1. pu. pc. num. reflexivity. }
  unfold Start, fresh. cbn [a_entries a_limits a_mode]. rewrite V. reflexivity.
Qed.

Example C61_three_refuted_ex : exists a, Start (fresh POSITION L1 [Entry (-1) 10; Entry (-1) 0]) 0 0 0 0 = Some a.
Proof. destruct C61_no_times_refuted as (a & a' & E & _). exists a. exact E. Qed.

(** No entries: the first step reads the last of no segments. *)
Theorem C61_empty_refuted : forall m L offset speed acc0 t0 time, exists a, Start (fresh m L []) offset speed acc0 t0 = Some a /\ ProfileStep a time = None.
Proof. intros. eexists. split; reflexivity. Qed.

Example C61_empty_refuted_ex : a_segments (fresh POSITION L1 []) = []. Proof. reflexivity. Qed.

(** In follow mode, already accelerating with twice what is needed: no solution is found, and the speed falls from 10 m/s to nothing. *)
Theorem C61_no_solution_refuted : exists a a', Start (fresh FOLLOW L1 [Entry 2 12]) 0 10 2 0 = Some a /\ ProfileStep a (1 / 10) = Some a' /\ a_speed a' = -1 / 200.
Proof.
  assert (V : vertices L1 FOLLOW [Entry 2 12] 0 10 0 = Some [Vertex 0 10 1 10; Vertex 2 12 0 12]).
  { unfold vertices. pc. pu. num. cbn [filter_entries List.length]. entry ([Vertex 2 12 0 12; Vertex 0 10 1 10], 2). reflexivity. }
  unfold Start, fresh. pc. rewrite V. unfold segments. pc.
  assert (S : single_target L1 FOLLOW 2 (Vertex 0 10 1 10) (Vertex 2 12 0 12) = Some (FOLLOW, [Segment 0 10 2 (-1); Segment 0 0 0 (-1); Segment 2 12 0 0])).
  { unfold single_target, single_plan, L1. pu. pc. num. pc. same. }
  rewrite S. pc. do 2 eexists. split; [reflexivity|].
  unfold ProfileStep, speed_at. cbn [a_segments map rev app a_cur skipn passed]. unfold flat. pu. pc. num. pc. num. pc. split; [reflexivity|]. pc. lra.
Qed.

Example C61_no_solution_refuted_ex : ~ onward 2 1. Proof. unfold onward. lra. Qed.

(** In follow mode with two equal slopes first, to 1, 2 and then 2 m/s: the profile ends with 1.5 m/s. *)
Theorem C61_equal_refuted : exists a, Start (fresh FOLLOW L1 [Entry 1 1; Entry 1 2; Entry 1 2]) 0 0 0 0 = Some a /\ a_mode a = FOLLOW /\
  last (a_segments a) (Segment 0 0 0 0) = Segment (5 / 2) (3 / 2) 0 0.
Proof.
  assert (V : vertices L1 FOLLOW [Entry 1 1; Entry 1 2; Entry 1 2] 0 0 0 = Some [Vertex 0 0 1 0; Vertex 1 1 1 0; Vertex 2 2 0 2; Vertex 3 2 0 2]).
  { unfold vertices. pc. pu. num. cbn [filter_entries List.length].
    entry ([Vertex 1 1 0 0; Vertex 0 0 1 0], 1). entry ([Vertex 2 2 0 0; Vertex 1 1 1 0; Vertex 0 0 1 0], 2).
    entry ([Vertex 3 2 0 2; Vertex 2 2 0 2; Vertex 1 1 1 0; Vertex 0 0 1 0], 3). reflexivity. }
  unfold Start, fresh. pc. rewrite V.
  assert (S : segments L1 FOLLOW 0 0 [Vertex 0 0 1 0; Vertex 1 1 1 0; Vertex 2 2 0 2; Vertex 3 2 0 2] =
    Some (FOLLOW, [Segment 0 0 0 1; Segment 1 (1 / 2) 1 0; Segment 1 (1 / 2) 1 0; Segment (3 / 2) 1 1 (-1); Segment (5 / 2) (3 / 2) 0 0; Segment (5 / 2) (3 / 2) 0 0])).
  { unfold segments. pc.
    replace (follow_start L1 FOLLOW 0 0 (Vertex 0 0 1 0)) with ((FOLLOW, [Segment 0 0 0 1; Segment 1 (1 / 2) 1 0]), (1, 1 / 2, 1, - (1 / 2))).
    2:{ symmetry. unfold follow_start, L1. pu. pc. num. pc. num. same. }
    rewrite loop_cons. cbv zeta. unfold L1. pu. pc. num. pc.
    turn (3 / 2). add (5 / 2) (3 / 2).
    rewrite loop_cons. cbv zeta. pu. pc. num. pc. cbn [vertex_loop]. pc. same. }
  rewrite S. eexists. split; [reflexivity|]. split; reflexivity.
Qed.

Example C61_equal_refuted_ex : ~ turning (knots (corners L1 0 0 0 [Entry 1 1; Entry 1 2; Entry 1 2])).
Proof.
  assert (N : need L1 (1 + 0 - 0) 1 = 1 /\ need L1 (2 + 0 - (1 + 0)) 1 = 1).
  { unfold need, L1. cbn [max_acc max_dec]. split; rewrite (Rmax_left _ (- _ / _)) by lra; rewrite Rmax_left by lra; reflexivity. }
  destruct N as [N1 N2]. cbn [corners e_speed e_time]. rewrite N1, N2. cbn [knots turning vertex3 x_k]. intros [T _].
  replace ((2 + 0 - (1 + 0)) / (0 + 1 + 1 - (0 + 1)) - (1 + 0 - 0) / (0 + 1 - 0)) with 0 in T by (field; lra). rewrite Rabs_R0 in T. unfold SMALL_NUMBER in T. lra.
Qed.

(** In follow mode with targets too close for the rates, 10 and then 0 m/s a second later: falling back to position mode on the way,
    the speed goes from 9.9 m/s to nothing in three hundredths of a second. *)
Theorem C61_fallback_refuted : exists a a1 a2, Start (fresh FOLLOW (Limits 10 5 10 5 100) [Entry 1 10; Entry 1 0]) 0 0 0 0 = Some a /\
  ProfileStep a (199 / 100) = Some a1 /\ a_speed a1 > 9.9 /\ ProfileStep a1 (202 / 100) = Some a2 /\ a_speed a2 = 0.
Proof.
  assert (V : vertices (Limits 10 5 10 5 100) FOLLOW [Entry 1 10; Entry 1 0] 0 0 0 = Some [Vertex 0 0 10 0; Vertex 1 10 (-10) 20; Vertex 2 0 0 0]).
  { unfold vertices. pc. pu. num. cbn [filter_entries List.length].
    entry ([Vertex 1 10 0 0; Vertex 0 0 10 0], 1). entry ([Vertex 2 0 0 0; Vertex 1 10 (-10) 20; Vertex 0 0 10 0], 2). reflexivity. }
  unfold Start, fresh. pc. rewrite V.
  assert (S : segments (Limits 10 5 10 5 100) FOLLOW 0 0 [Vertex 0 0 10 0; Vertex 1 10 (-10) 20; Vertex 2 0 0 0] =
    Some (POSITION, [Segment 0 0 0 5; Segment 2 10 10 0; Segment 1 10 (-10) 0; Segment 2 0 0 0])).
  { unfold segments. pc.
    replace (follow_start (Limits 10 5 10 5 100) FOLLOW 0 0 (Vertex 0 0 10 0)) with ((FOLLOW, [Segment 0 0 0 5; Segment 2 10 10 0]), (2, 10, 10, -10)).
    2:{ symmetry. unfold follow_start. pu. pc. num. pc. num. same. }
    turn (-1 / 2). rewrite loop_position. reflexivity. }
  rewrite S. pc. do 3 eexists. split; [reflexivity|].
  unfold ProfileStep at 1, speed_at. cbn [a_segments map rev app a_cur skipn passed]. unfold flat. pu. pc. num. pc. num. pc. split; [reflexivity|]. pc.
  split; [lra|]. unfold ProfileStep, speed_at. cbn [a_segments map rev app a_cur skipn passed]. unfold flat. pu. pc. num. pc. num. pc. split; [reflexivity|]. reflexivity.
Qed.

Example C61_fallback_refuted_ex : (9.9 - 0) / (3 / 100) > 10. Proof. lra. Qed.

(** Relative to an entity of 10 m/s, from 5 to 15 m/s above it in two seconds: the start, which should be at once, is two seconds late, and the speed first
    falls from 15 to 5.5 m/s. *)
Theorem C61_relative_refuted : exists a a', Start (fresh POSITION L1 [Entry 0 5; Entry 2 15]) 10 15 0 0 = Some a /\ ProfileStep a (1 / 10) = Some a' /\
  a_speed a = 15 /\ a_speed a' = 5.5.
Proof.
  assert (V : vertices L1 POSITION [Entry 0 5; Entry 2 15] 10 15 0 = Some [Vertex 2 15 5 5; Vertex 4 25 0 25]).
  { unfold vertices. pc. pu. num. cbn [filter_entries List.length].
    entry ([Vertex 2 15 0 0], 2). entry ([Vertex 4 25 0 25; Vertex 2 15 5 5], 4). reflexivity. }
  started V. rewrite loop_position. pc. do 2 eexists. split; [reflexivity|].
  unfold ProfileStep, speed_at. cbn [a_segments map rev app a_cur skipn passed]. unfold flat. pu. pc. num. pc. num. pc. split; [reflexivity|]. pc. split; [reflexivity|lra].
Qed.

Example C61_relative_refuted_ex : (5 + 10 : R) = 15 /\ (5.5 : R) < 15. Proof. lra. Qed.

(** A copy of the action has lost the limits. *)
Theorem C61_copy_refuted : exists a b, Start (fresh POSITION L1 [Entry 1 10]) 0 0 0 0 = Some a /\ Start (Copy (fresh POSITION L1 [Entry 1 10])) 0 0 0 0 = Some b /\
  a_segments a = [Segment 0 0 5 0; Segment 2 10 0 0] /\ a_segments b = [Segment 0 0 10 0; Segment 1 10 0 0].
Proof.
  assert (V : vertices L1 POSITION [Entry 1 10] 0 0 0 = Some [Vertex 0 0 5 0; Vertex 2 10 0 10]).
  { unfold vertices. pc. pu. num. cbn [filter_entries List.length]. entry ([Vertex 2 10 0 10; Vertex 0 0 5 0], 2). reflexivity. }
  assert (V2 : vertices no_limits POSITION [Entry 1 10] 0 0 0 = Some [Vertex 0 0 10 0; Vertex 1 10 0 10]).
  { unfold vertices. pc. pu. num. cbn [filter_entries List.length].
    replace (filter_entry no_limits 0 1 0 (Entry 1 10) [Vertex 0 0 0 0] 0) with (Some ([Vertex 1 10 0 10; Vertex 0 0 10 0], 1)); [reflexivity|].
    symmetry. unfold filter_entry, no_limits, LARGE_NUMBER. pu. pc. num. pc. same. }
  unfold Start, Copy, fresh. pc. rewrite V, V2. unfold segments. pc. rewrite !loop_position. do 2 eexists. repeat split.
Qed.

Example C61_copy_refuted_ex : 10 > max_acc L1. Proof. cbn. lra. Qed.

(** Without a time the speed before is left at the time reached so far, whatever was noted for it. *)
Theorem C61_back : forall L offset e x older time vs time', e_time e < - SMALL_NUMBER -> SMALL_NUMBER <= Rabs (e_speed e + offset - x_v x) ->
  filter_entry L offset 1 0 e (x :: older) time = Some (vs, time') -> exists y z, vs = y :: z :: older /\ x_t y = time' /\ x_t z = time /\ x_v z = x_v x.
Proof.
  intros L offset e x older time vs time' T D E. unfold filter_entry in E. rewrite (proj2 (Rltb_true _ _) T) in E. cbn [orb andb] in E. rewrite (proj2 (Rltb_false _ _) D) in E.
  cbn [Nat.sub Nat.ltb Nat.leb andb Nat.eqb] in E. destruct (Rltb (e_speed e + offset - x_v x) 0); match type of E with context [div ?u ?w] => destruct (div u w); [|discriminate] end; injection E as <- <-; eexists; eexists; repeat split.
Qed.
Example C61_back_ex : exists vs t, filter_entry L1 0 1 0 (Entry (-1) 10) [Vertex 3 0 0 0] 5 = Some (vs, t).
Proof.
  unfold filter_entry. cbn [e_time e_speed x_v]. rewrite (proj2 (Rltb_true (-1) _)) by (unfold SMALL_NUMBER; lra). cbn [orb andb]. rewrite (proj2 (Rltb_false (Rabs _) _)) by (unfold SMALL_NUMBER; rewrite Rabs_pos_eq; lra).
  cbn [Nat.sub Nat.ltb Nat.leb andb Nat.eqb]. rewrite (proj2 (Rltb_false (10 + 0 - 0) 0)) by lra. unfold div. match goal with |- context [Reqb ?u 0] => destruct (Reqb u 0) eqn:R end; [|eauto].
  apply Reqb_true in R. unfold RMAX, L1 in R. cbn [max_acc] in R. exfalso. revert R. match goal with |- context [Rltb ?u ?w] => destruct (Rltb u w) end; unfold SMALL_NUMBER; lra.
Qed.

Print Assumptions C61_position.
Print Assumptions C61_on_time.
Print Assumptions C61_at_once.
Print Assumptions C61_follow_one.
Print Assumptions C61_follow_any.
Print Assumptions C61_follow_many.
Print Assumptions C61_follow_now.
Print Assumptions C61_step.
Print Assumptions C61_ends.
Print Assumptions C61_endless.
Print Assumptions C61_ends_refuted.
Print Assumptions C61_line_refuted.
Print Assumptions C61_no_times_refuted.
Print Assumptions C61_three_refuted.
Print Assumptions C61_empty_refuted.
Print Assumptions C61_no_solution_refuted.
Print Assumptions C61_equal_refuted.
Print Assumptions C61_fallback_refuted.
Print Assumptions C61_relative_refuted.
Print Assumptions C61_copy_refuted.
Print Assumptions C61_back.
