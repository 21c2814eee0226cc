(** * Proofs about FollowTrajectoryAction *)
From Coq Require Import Reals Bool List Lra Lia.
From Verif Require Import AngModel AngProofs SenProofs TrjModel.
Import ListNotations.
Open Scope R_scope.

(** Where the entity is, where it faces and what the line is like at some s of the trajectory of the action. *)
Definition at_ (a : act) (s : R) : geo := t_at (a_traj a) (a_interp a) s.

(** The parts of an action no step changes. *)
Definition same_plan (a b : act) : Prop :=
  a_traj b = a_traj a /\ a_domain b = a_domain a /\ a_follow b = a_follow a /\ a_scale b = a_scale a /\ a_offset b = a_offset a /\
  a_dist b = a_dist a /\ a_ignore b = a_ignore a /\ a_interp b = a_interp a.
(** The parts of an object no step of the action changes. *)
Definition same_mode (o q : obj) : Prop :=
  o_lat q = o_lat o /\ o_long q = o_long o /\ o_ghost q = o_ghost o /\ o_headstart q = o_headstart o.

(** A step moves the entity: lateral control is with the action, the entity has the trajectory, and the time has come. *)
Definition ready (t : R) (o : obj) : Prop := o_lat o = false /\ o_traj o = true /\ (o_ghost o = true \/ 0 <= t).

(** No part of the trajectory has headings of its own, and none has been passed. *)
Definition plain (a : act) : Prop := (forall s, g_explicit (at_ a s) = false) /\ a_expl a = false.

Definition small_pos : 0 < SMALL_NUMBER.
Proof. unfold SMALL_NUMBER. lra. Qed.

Ltac tb H := first [apply Rltb_true in H | apply Rltb_false in H].

(** ** Arithmetic *)
Lemma sign_abs : forall x, SIGN x * Rabs x = x.
Proof. intros x. unfold SIGN. destruct (Rltb x 0) eqn:E; tb E; [rewrite Rabs_left|rewrite Rabs_right]; lra. Qed.
Lemma sign_or : forall x, SIGN x = 1 \/ SIGN x = -1.
Proof. intros x. unfold SIGN. destruct (Rltb x 0); auto. Qed.
Lemma abs_pos : forall v, v <> 0 -> 0 < Rabs v.
Proof. intros v H. now apply Rabs_pos_lt. Qed.

Lemma heading_sign_same : forall h k, same_angle k h -> heading_sign k h = 1.
Proof.
  intros h k H. unfold heading_sign. rewrite (abs_shift k h h H), abs_near by (pose proof PI_RGT_0; lra).
  replace (h - h) with 0 by lra. rewrite Rabs_R0, (proj2 (Rltb_false _ _)); [reflexivity|]. pose proof PI_RGT_0. pose proof small_pos. lra.
Qed.
Lemma heading_sign_back : forall h k, same_angle k (h + PI) -> heading_sign k h = -1.
Proof.
  intros h k H. unfold heading_sign. rewrite (abs_shift k h (h + PI) H), abs_near by (pose proof PI_RGT_0; lra).
  replace (h + PI - h) with PI by lra. rewrite Rabs_right by (pose proof PI_RGT_0; lra).
  rewrite (proj2 (Rltb_true _ _)); [reflexivity|]. pose proof PI2_3_2. unfold SMALL_NUMBER. lra.
Qed.
Lemma heading_sign_or : forall h k, heading_sign k h = 1 \/ heading_sign k h = -1.
Proof. intros h k. unfold heading_sign. destruct (Rltb _ _); auto. Qed.

(** ** Evaluation by s *)
Lemma by_s_inside : forall t p, 0 <= p <= t_len t - SMALL_NUMBER -> by_s t p = p.
Proof.
  intros t p H. pose proof small_pos. unfold by_s. destruct (t_kind t); rewrite (proj2 (Rltb_false _ _)) by lra; try reflexivity.
  rewrite (proj2 (Rltb_false _ _)) by lra. reflexivity.
Qed.
Lemma by_s_past : forall t p, 0 <= t_len t -> t_len t - SMALL_NUMBER < p -> t_len t - SMALL_NUMBER < by_s t p <= t_len t /\ by_s t p <= Rmax p (t_len t).
Proof.
  intros t p L H. pose proof small_pos. pose proof (Rmax_l p (t_len t)). pose proof (Rmax_r p (t_len t)).
  unfold by_s. destruct (t_kind t); destruct (Rltb _ _) eqn:E; tb E; try lra. destruct (Rltb p 0) eqn:F; tb F; lra.
Qed.
Lemma by_s_full : forall t p, 0 <= t_len t -> t_len t < p -> by_s t p = t_len t.
Proof. intros t p L H. pose proof small_pos. unfold by_s. destruct (t_kind t); rewrite (proj2 (Rltb_true _ _)) by lra; reflexivity. Qed.
Lemma by_s_end : forall t p, 0 <= t_len t -> t_len t <= p -> by_s t p = t_len t.
Proof.
  intros t p L H. pose proof small_pos. destruct (Rle_lt_or_eq_dec _ _ H) as [H'|<-]; [now apply by_s_full|].
  unfold by_s. destruct (t_kind t); destruct (Rltb _ _) eqn:E; tb E; try lra. destruct (Rltb _ 0) eqn:F; tb F; lra.
Qed.
Lemma by_s_low : forall t p, 0 < t_len t -> SMALL_NUMBER < t_len t - SMALL_NUMBER -> p < SMALL_NUMBER ->
  by_s t p = match t_kind t with K_SPLINE => Rmax 0 p | _ => p end.
Proof.
  intros t p L L2 H. pose proof small_pos. unfold by_s.
  destruct (t_kind t); rewrite (proj2 (Rltb_false _ _)) by lra; try reflexivity. unfold Rmax.
  destruct (Rltb p 0) eqn:E; tb E; destruct (Rle_dec 0 p); lra.
Qed.

(** ** Steps that do nothing *)
Lemma step_lat : forall t dt a o, o_lat o = true -> Step t dt a o = (a, o).
Proof. intros t dt a o H. unfold Step. now rewrite H. Qed.
Lemma step_early : forall t dt a o, o_lat o = false -> o_ghost o = false -> t < 0 -> Step t dt a o = (a, set_dirty o).
Proof. intros t dt a o H G T. unfold Step. rewrite H. cbn. rewrite G, (proj2 (Rltb_true _ _) T). reflexivity. Qed.

(** ** One move *)
Definition moved_by (d : R) (a : act) (o : obj) (dt : R) : R := by_s (a_traj a) (a_s a + d * Rabs (o_speed o) * dt).

Ltac fin := repeat match goal with |- _ /\ _ => split end; try reflexivity; auto.

Lemma move_s : forall t dt a o a' o', o_traj o = true -> untimed (a_domain a) || o_long o = true -> Move t dt a o = (a', o') ->
  let d := SIGN (o_speed o) * a_sign a in
  same_plan a a' /\ same_mode o o' /\ a_run a' = a_run a /\ a_time a' = a_time a /\ a_dir a' = d /\ a_s a' = moved_by d a o dt /\
  o_traj o' = true /\ o_speed o' = o_speed o /\ o_x o' = g_x (at_ a (a_s a')) /\ o_y o' = g_y (at_ a (a_s a')) /\
  (g_explicit (at_ a (a_s a')) = true -> a_expl a' = true /\ a_sign a' = a_sign a /\ o_h o' = g_face (at_ a (a_s a'))) /\
  (g_explicit (at_ a (a_s a')) = false ->
     a_expl a' = false /\
     a_sign a' = (if a_expl a then heading_sign (g_face (at_ a (a_s a'))) (g_htrue (at_ a (a_s a'))) else a_sign a) /\
     o_h o' = (if Rltb (a_sign a') 0 then GetAngleInInterval2PI (g_face (at_ a (a_s a')) + PI) else g_face (at_ a (a_s a')))) /\ o_dirty o' = o_dirty o.
Proof.
  intros t dt a o a' o' T C E d. unfold Move, MoveTrajectoryDS in E. cbn -[SIGN heading_sign Rabs] in E. rewrite C, T in E.
  cbn -[SIGN heading_sign Rabs by_s] in E. unfold cur, UpdateTrajectoryPos, cur in E. cbn -[SIGN heading_sign Rabs by_s] in E.
  fold d in E. unfold at_, moved_by, same_plan, same_mode.
  destruct (g_explicit _) eqn:X.
  - injection E as <- <-. cbn -[SIGN heading_sign Rabs by_s Rltb]. rewrite X. fin; intros; try discriminate; fin.
  - destruct (a_expl a) eqn:Y; cbn -[SIGN heading_sign Rabs by_s Rltb] in E;
      destruct (Rltb _ 0) eqn:S0 in E; injection E as <- <-; cbn -[SIGN heading_sign Rabs by_s Rltb]; rewrite ?X, ?S0; fin; intros; try discriminate; fin.
Qed.

(** ** One untimed step *)
Lemma step_untimed : forall t dt a o a' o', a_domain a = D_NONE -> ready t o -> Step t dt a o = (a', o') ->
  let d := SIGN (o_speed o) * a_sign a in
  let s := moved_by d a o dt in
  let L := t_len (a_traj a) in
  let ends := t_closed (a_traj a) = false /\ 0 < dt /\
              ((0 < d * Rabs (o_speed o) /\ L - SMALL_NUMBER < s) \/ (d * Rabs (o_speed o) < 0 /\ s < SMALL_NUMBER)) in
  let rem := Rabs (o_speed o) * dt - Rabs (s - a_s a) in
  same_plan a a' /\ same_mode o o' /\ a_time a' = a_time a /\ a_s a' = s /\ o_speed o' = o_speed o /\ (plain a -> plain a' /\ a_sign a' = a_sign a) /\
  (ends -> a_run a' = false /\ o_traj o' = false /\
           o_x o' = g_x (at_ a s) + rem * cos (g_h (at_ a s)) /\ o_y o' = g_y (at_ a s) + rem * sin (g_h (at_ a s))) /\
  (~ ends -> a_run a' = a_run a /\ o_traj o' = true /\ o_x o' = g_x (at_ a s) /\ o_y o' = g_y (at_ a s)) /\ o_dirty o' = true.
Proof.
  intros t dt a o a' o' D (LA & TR & GO) E d s L ends rem. unfold Step in E. rewrite LA in E. cbn -[Move] in E.
  replace (negb (o_ghost o) && Rltb t 0) with false in E.
  2: { destruct GO as [->|GO]; [reflexivity|]. rewrite (proj2 (Rltb_false _ _)) by lra. now rewrite andb_false_r. }
  destruct (Move t dt a (set_dirty o)) as [b p] eqn:M.
  apply move_s in M; [|exact TR|rewrite D; reflexivity]. cbn zeta in M.
  destruct M as (P & Q & M1 & M2 & M3 & M4 & M5 & M6 & M7 & M8 & M9 & M10 & M11). cbn -[moved_by SIGN] in M3, M6. fold d in M3. change (a_s b = s) in M4.
  pose proof P as (P1 & P2 & P3 & P4 & P5 & P6 & P7 & P8). destruct Q as (Q1 & Q2 & Q3 & Q4). cbn in Q1, Q2, Q3, Q4, M11.
  assert (PL : plain a -> plain b /\ a_sign b = a_sign a).
  { intros [A B]. rewrite M4 in M10. specialize (M10 (A s)) as (U & V & _). rewrite B in V. split; [|exact V]. split; [|exact U].
    intros u. unfold at_. rewrite P1, P8. apply A. }
  unfold GetTrajectoryS in E. cbn in E. rewrite TR in E. rewrite M5, M4, P2, D, P1, M3, M6 in E. cbn [untimed negb andb orb] in E.
  rewrite orb_false_r in E. fold L in E.
  match type of E with (if ?c then _ else _) = _ => assert (CE : c = true <-> ends) end.
  { rewrite !andb_true_iff, negb_true_iff, orb_true_iff, !andb_true_iff, !Rltb_true. unfold ends. intuition. }
  match type of E with (if ?c then _ else _) = _ => destruct c eqn:CC end.
  - pose proof (proj1 CE eq_refl) as EN. clear CE.
    assert (RE : (negb (t_closed (a_traj a)) && (Rltb (L - SMALL_NUMBER) s || Rltb s SMALL_NUMBER)) = true).
    { destruct EN as (C1 & _ & [[_ C2]|[_ C2]]); rewrite C1; cbn.
      - now rewrite (proj2 (Rltb_true _ _) C2).
      - rewrite (proj2 (Rltb_true _ _) C2). apply orb_true_r. }
    rewrite RE in E. fold rem in E. unfold End_ in E. cbn in E. rewrite Q1, LA in E. injection E as <- <-. cbn.
    unfold cur. rewrite P1, P8, M4, M6, M7, M8, M4. unfold same_plan, same_mode. cbn.
    do 2 (split; [tauto|]). do 3 (split; [tauto|]). split.
    { intros PP. destruct (PL PP) as [[G1 G2] G3]. split; [split|]; assumption. }
    split; [intros _; unfold at_; tauto|]. split; [tauto|exact M11].
  - injection E as <- <-. split; [exact P|]. split; [unfold same_mode; tauto|]. do 3 (split; [tauto|]). split; [exact PL|]. rewrite M4 in M7, M8.
    split; [intros EN; apply CE in EN; discriminate|]. tauto.
Qed.

(** ** Untimed runs *)
Fixpoint sum (l : list R) : R := match l with [] => 0 | x :: l => x + sum l end.
Lemma sum_app : forall a b, sum (a ++ b) = sum a + sum b.
Proof. intros a b. induction a as [|x a IH]; cbn [sum app]; [lra|]. rewrite IH. lra. Qed.

(** The distance to drive in a step, with the speed set before it. *)
Definition way (k : tick) : R := match k_speed k with Some v => Rabs v * k_dt k | None => 0 end.
Definition dist (ks : list tick) : R := sum (map way ks).
(** A step of some length at a time from 0 on, with a speed set which, by the sign [z] kept by the action, goes along the trajectory (1) or
    back (-1). *)
Definition along (d z : R) (k : tick) : Prop := 0 <= k_time k /\ 0 < k_dt k /\ exists v, k_speed k = Some v /\ v <> 0 /\ SIGN v * z = d.

Lemma along_way : forall d z k, along d z k -> 0 < way k.
Proof. intros d z k (_ & T & v & E & V & _). unfold way. rewrite E. apply Rmult_lt_0_compat; [now apply abs_pos|exact T]. Qed.
Lemma dist_app : forall ks k, dist (ks ++ [k]) = dist ks + way k.
Proof. intros ks k. unfold dist. rewrite map_app, sum_app. cbn. lra. Qed.
Lemma dist_nonneg : forall d z ks, Forall (along d z) ks -> 0 <= dist ks.
Proof. intros d z ks H. unfold dist. induction H; cbn; [lra|]. apply along_way in H. lra. Qed.
Lemma Run_app : forall ks k ao, Run (ks ++ [k]) ao = Tick1 k (Run ks ao).
Proof. intros. unfold Run. now rewrite fold_left_app. Qed.

(** What holds of an action and its object between steps. *)
Definition going (a0 : act) (a : act) (o : obj) : Prop := same_plan a0 a /\ a_sign a = a_sign a0 /\ plain a /\ o_lat o = false.

Lemma same_plan_trans : forall a b c, same_plan a b -> same_plan b c -> same_plan a c.
Proof. unfold same_plan. intuition congruence. Qed.

(** A step along or back, while the action is running. *)
Lemma tick_along : forall a0 a o k d a' o', going a0 a o -> a_domain a0 = D_NONE -> a_run a = true -> o_traj o = true -> (d = 1 \/ d = -1) ->
  along d (a_sign a0) k -> Tick1 k (a, o) = (a', o') ->
  let s := by_s (a_traj a0) (a_s a + d * way k) in
  going a0 a' o' /\ a_s a' = s /\
  ((t_closed (a_traj a0) = false /\ ((d = 1 /\ t_len (a_traj a0) - SMALL_NUMBER < s) \/ (d = -1 /\ s < SMALL_NUMBER)) /\
    a_run a' = false /\ o_x o' = g_x (at_ a0 s) + (way k - Rabs (s - a_s a)) * cos (g_h (at_ a0 s)) /\
    o_y o' = g_y (at_ a0 s) + (way k - Rabs (s - a_s a)) * sin (g_h (at_ a0 s))) \/
   ((t_closed (a_traj a0) = true \/ (d = 1 /\ s <= t_len (a_traj a0) - SMALL_NUMBER) \/ (d = -1 /\ SMALL_NUMBER <= s)) /\
    a_run a' = true /\ o_traj o' = true /\ o_x o' = g_x (at_ a0 s) /\ o_y o' = g_y (at_ a0 s))).
Proof.
  intros a0 a o k d a' o' (PL & SG & PN & LA) D RN TR DD (TM & DT & v & KV & V & SV) E s.
  unfold Tick1 in E. rewrite KV, RN in E. pose proof PL as (P1 & P2 & _ & _ & _ & _ & _ & P8).
  apply step_untimed in E; [|congruence|split; [exact LA|split; [exact TR|right; exact TM]]].
  cbn zeta in E. change (o_speed (set_speed v o)) with v in E.
  rewrite SG, SV in E. destruct E as (F1 & F2 & _ & F4 & _ & F6 & F7 & F8 & _).
  assert (SS : moved_by d a (set_speed v o) (k_dt k) = s).
  { unfold moved_by, s, way. rewrite KV, P1. cbn. f_equal. lra. }
  rewrite SS in *. destruct F2 as (G1 & _). destruct (F6 PN) as [H1 H2].
  assert (AT : forall u, at_ a u = at_ a0 u) by (intros u; unfold at_; now rewrite P1, P8). rewrite !AT in *.
  assert (WY : Rabs v * k_dt k = way k) by (unfold way; now rewrite KV). rewrite WY in *.
  pose proof (abs_pos v V) as AV.
  split; [|split; [exact F4|]].
  { split; [eapply same_plan_trans; eauto|]. split; [congruence|]. split; [exact H1|]. now rewrite G1. }
  rewrite P1 in *.
  match type of F7 with ?e -> _ => assert (DEC : e \/ ~ e) end.
  { destruct (t_closed (a_traj a0)); [right; intuition discriminate|].
    destruct DD as [-> | ->].
    - destruct (Rlt_dec (t_len (a_traj a0) - SMALL_NUMBER) s); [left; repeat split; auto; left; lra|right; intros (_ & _ & [[_ ?]|[? _]]); lra].
    - destruct (Rlt_dec s SMALL_NUMBER); [left; repeat split; auto; right; lra|right; intros (_ & _ & [[? _]|[_ ?]]); lra]. }
  destruct DEC as [EN|EN].
  - left. destruct (F7 EN) as (K1 & _ & K3 & K4). destruct EN as (C1 & _ & C2).
    split; [exact C1|]. split; [|tauto]. destruct C2 as [[C2 C3]|[C2 C3]]; [left|right]; (split; [|exact C3]); destruct DD as [-> | ->]; auto; exfalso; lra.
  - right. destruct (F8 EN) as (K1 & K2 & K3). split; [|split; [congruence|tauto]].
    destruct (t_closed (a_traj a0)); [now left|]. right.
    destruct DD as [-> | ->].
    + left. split; [reflexivity|]. apply Rnot_lt_le. intros C. apply EN. repeat split; auto. left. split; [lra|exact C].
    + right. split; [reflexivity|]. apply Rnot_lt_le. intros C. apply EN. repeat split; auto. right. split; [lra|exact C].
Qed.

Lemma tick_stopped : forall k a o, a_run a = false -> exists o', Tick1 k (a, o) = (a, o') /\ o_lat o' = o_lat o.
Proof. intros k a o H. unfold Tick1. rewrite H. eexists. split; [reflexivity|]. destruct (k_speed k); reflexivity. Qed.

(** A run along an open trajectory. *)
Lemma run_forward : forall a o ks a' o', a_domain a = D_NONE -> t_closed (a_traj a) = false -> plain a -> a_run a = true ->
  o_lat o = false -> o_traj o = true -> 0 <= a_s a <= t_len (a_traj a) - SMALL_NUMBER -> Forall (along 1 (a_sign a)) ks -> Run ks (a, o) = (a', o') ->
  going a a' o' /\
  (a_s a + dist ks <= t_len (a_traj a) - SMALL_NUMBER ->
     a_run a' = true /\ o_traj o' = true /\ a_s a' = a_s a + dist ks /\
     (ks <> [] -> o_x o' = g_x (at_ a (a_s a + dist ks)) /\ o_y o' = g_y (at_ a (a_s a + dist ks)))) /\
  (t_len (a_traj a) - SMALL_NUMBER < a_s a + dist ks -> a_run a' = false /\ t_len (a_traj a) - SMALL_NUMBER < a_s a' <= t_len (a_traj a)).
Proof.
  intros a o ks. induction ks as [|k ks IH] using rev_ind; intros a' o' D C PN RN LA TR SR FA E.
  - injection E as <- <-. change (dist []) with 0. split; [|split].
    + split; [unfold same_plan; tauto|]. tauto.
    + intros _. repeat split; try assumption; try lra; congruence.
    + intros H. lra.
  - rewrite Run_app in E. apply Forall_app in FA. destruct FA as [FA FK]. inversion FK as [|? ? AK _]; subst. rewrite dist_app.
    destruct (Run ks (a, o)) as [b p] eqn:EB.
    destruct (IH b p D C PN RN LA TR SR FA eq_refl) as (GO & I1 & I2). clear IH.
    pose proof (along_way _ _ _ AK) as WP. pose proof (dist_nonneg _ _ _ FA) as DN. pose proof small_pos as SP.
    destruct (Rlt_dec (t_len (a_traj a) - SMALL_NUMBER) (a_s a + dist ks)) as [PA|IN].
    + destruct (I2 PA) as [S1 S2]. destruct (tick_stopped k b p S1) as (q & E' & Q). rewrite E' in E. injection E as <- <-.
      split; [|split; [intros; lra|tauto]]. destruct GO as (G1 & G2 & G3 & G4). repeat split; try assumption; try (now apply G1); try (now apply G3). congruence.
    + apply Rnot_lt_le in IN. destruct (I1 IN) as (R1 & R2 & R3 & _).
      apply (tick_along a b p k 1 a' o' GO D R1 R2 (or_introl eq_refl) AK) in E. cbn zeta in E. rewrite R3 in E.
      replace (a_s a + dist ks + 1 * way k) with (a_s a + (dist ks + way k)) in E by lra.
      destruct E as (F1 & F2 & F3). split; [exact F1|]. split.
      * intros H. rewrite by_s_inside in F2, F3 by lra. destruct F3 as [(_ & [[_ ?]|[? _]] & _)|(_ & ? & ? & ? & ?)]; [lra|lra|]. tauto.
      * intros H. assert (L0 : 0 <= t_len (a_traj a)) by lra. destruct (by_s_past (a_traj a) _ L0 H) as [B1 _]. rewrite F2.
        destruct F3 as [(_ & _ & F & _)|([?|[[_ ?]|[? _]]] & _)]; [tauto|congruence|lra|lra].
Qed.

(** A run back on an open trajectory. *)
Lemma run_back : forall a o ks a' o', a_domain a = D_NONE -> t_closed (a_traj a) = false -> plain a -> a_run a = true ->
  o_lat o = false -> o_traj o = true -> SMALL_NUMBER <= a_s a <= t_len (a_traj a) - SMALL_NUMBER -> Forall (along (-1) (a_sign a)) ks -> Run ks (a, o) = (a', o') ->
  going a a' o' /\
  (SMALL_NUMBER <= a_s a - dist ks ->
     a_run a' = true /\ o_traj o' = true /\ a_s a' = a_s a - dist ks /\
     (ks <> [] -> o_x o' = g_x (at_ a (a_s a - dist ks)) /\ o_y o' = g_y (at_ a (a_s a - dist ks)))) /\
  (a_s a - dist ks < SMALL_NUMBER -> a_run a' = false /\ a_s a' < SMALL_NUMBER).
Proof.
  intros a o ks. induction ks as [|k ks IH] using rev_ind; intros a' o' D C PN RN LA TR SR FA E.
  - injection E as <- <-. change (dist []) with 0. split; [|split].
    + split; [unfold same_plan; tauto|]. tauto.
    + intros _. repeat split; try assumption; try lra; congruence.
    + intros H. lra.
  - rewrite Run_app in E. apply Forall_app in FA. destruct FA as [FA FK]. inversion FK as [|? ? AK _]; subst. rewrite dist_app.
    destruct (Run ks (a, o)) as [b p] eqn:EB.
    destruct (IH b p D C PN RN LA TR SR FA eq_refl) as (GO & I1 & I2). clear IH.
    pose proof (along_way _ _ _ AK) as WP. pose proof (dist_nonneg _ _ _ FA) as DN. pose proof small_pos as SP.
    destruct (Rlt_dec (a_s a - dist ks) SMALL_NUMBER) as [PA|IN].
    + destruct (I2 PA) as [S1 S2]. destruct (tick_stopped k b p S1) as (q & E' & Q). rewrite E' in E. injection E as <- <-.
      split; [|split; [intros; lra|tauto]]. destruct GO as (G1 & G2 & G3 & G4). repeat split; try assumption; try (now apply G1); try (now apply G3). congruence.
    + apply Rnot_lt_le in IN. destruct (I1 IN) as (R1 & R2 & R3 & _).
      apply (tick_along a b p k (-1) a' o' GO D R1 R2 (or_intror eq_refl) AK) in E. cbn zeta in E. rewrite R3 in E.
      replace (a_s a - dist ks + -1 * way k) with (a_s a - (dist ks + way k)) in E by lra.
      destruct E as (F1 & F2 & F3). split; [exact F1|]. split.
      * intros H. rewrite by_s_inside in F2, F3 by lra. destruct F3 as [(_ & [[? _]|[_ ?]] & _)|(_ & ? & ? & ? & ?)]; [lra|lra|]. tauto.
      * intros H. assert (LO : by_s (a_traj a) (a_s a - (dist ks + way k)) < SMALL_NUMBER).
        { unfold by_s. destruct (t_kind (a_traj a)); rewrite (proj2 (Rltb_false _ _)) by lra; try lra. destruct (Rltb _ 0); lra. }
        rewrite F2. destruct F3 as [(_ & _ & F & _)|([?|[[? _]|[_ ?]]] & _)]; [tauto|congruence|lra|lra].
Qed.

(** ** Closed trajectories *)
Lemma step_closed_runs : forall t dt a o, a_domain a = D_NONE -> t_closed (a_traj a) = true ->
  a_run (fst (Step t dt a o)) = a_run a /\ a_domain (fst (Step t dt a o)) = D_NONE /\ t_closed (a_traj (fst (Step t dt a o))) = true.
Proof.
  intros t dt a o D C. unfold Step. destruct (o_lat o); [auto|]. cbn -[Move]. destruct (negb (o_ghost o) && Rltb t 0); [auto|].
  assert (M : a_run (fst (Move t dt a (set_dirty o))) = a_run a /\ a_domain (fst (Move t dt a (set_dirty o))) = D_NONE /\ a_traj (fst (Move t dt a (set_dirty o))) = a_traj a).
  { unfold Move, MoveTrajectoryDS. cbn -[SIGN heading_sign Rabs by_s]. rewrite D. cbn -[SIGN heading_sign Rabs by_s]. destruct (o_traj o);
      destruct (g_explicit _); cbn -[SIGN heading_sign Rabs by_s]; auto; destruct (a_expl a); cbn; auto. }
  destruct (Move t dt a (set_dirty o)) as [b p]. cbn [fst] in M. destruct M as (M1 & M2 & M3). rewrite M2, M3, C. cbn. rewrite M3. auto.
Qed.

Lemma run_closed : forall ks a o, a_domain a = D_NONE -> t_closed (a_traj a) = true -> a_run (fst (Run ks (a, o))) = a_run a.
Proof.
  assert (G : forall ks a o, a_domain a = D_NONE -> t_closed (a_traj a) = true ->
     a_run (fst (Run ks (a, o))) = a_run a /\ a_domain (fst (Run ks (a, o))) = D_NONE /\ t_closed (a_traj (fst (Run ks (a, o)))) = true).
  { induction ks as [|k ks IH] using rev_ind; intros a o D C; [auto|]. rewrite Run_app. destruct (IH a o D C) as (I1 & I2 & I3).
    destruct (Run ks (a, o)) as [b p]. cbn [fst] in *. unfold Tick1. destruct (a_run b) eqn:RB; [|cbn; rewrite RB; auto].
    destruct (step_closed_runs (k_time k) (k_dt k) b (match k_speed k with Some v => set_speed v p | None => p end) I2 I3) as (J1 & J2 & J3).
    rewrite J1, RB. auto. }
  intros. now apply G.
Qed.

(** At the end of a closed trajectory the entity stays where it is, whatever the speed along it. *)
Lemma run_closed_end : forall a o ks a' o', a_domain a = D_NONE -> t_closed (a_traj a) = true -> plain a -> a_run a = true ->
  o_lat o = false -> o_traj o = true -> 0 <= t_len (a_traj a) -> a_s a = t_len (a_traj a) -> Forall (along 1 (a_sign a)) ks -> Run ks (a, o) = (a', o') ->
  going a a' o' /\ a_run a' = true /\ o_traj o' = true /\ a_s a' = t_len (a_traj a) /\
  (ks <> [] -> o_x o' = g_x (at_ a (t_len (a_traj a))) /\ o_y o' = g_y (at_ a (t_len (a_traj a)))).
Proof.
  intros a o ks. induction ks as [|k ks IH] using rev_ind; intros a' o' D C PN RN LA TR L0 SR FA E.
  - injection E as <- <-. split; [split; [unfold same_plan; tauto|tauto]|]. repeat split; auto; congruence.
  - rewrite Run_app in E. apply Forall_app in FA. destruct FA as [FA FK]. inversion FK as [|? ? AK _]; subst.
    destruct (Run ks (a, o)) as [b p] eqn:EB.
    destruct (IH b p D C PN RN LA TR L0 SR FA eq_refl) as (GO & R1 & R2 & R3 & _). clear IH.
    apply (tick_along a b p k 1 a' o' GO D R1 R2 (or_introl eq_refl) AK) in E. cbn zeta in E. rewrite R3 in E.
    pose proof (along_way _ _ _ AK). rewrite by_s_end in E by lra. destruct E as (F1 & F2 & [(F3 & _)|(_ & F4 & F5 & F6)]); [congruence|]. tauto.
Qed.

(** ** Timed steps *)
(** The time of the trajectory after a step: by its own clock, or by that of the simulation. *)
Definition next_time (t dt : R) (a : act) : R := if absolute (a_domain a) then (t + dt) * a_scale a else a_time a + a_scale a * dt.
(** What a ghost is ahead. *)
Definition ahead (a : act) (o : obj) : R := if absolute (a_domain a) && o_ghost o then o_headstart o else 0.
(** 1 if the entity faces along the trajectory before the step, -1 if against it. *)
Definition faces (a : act) (o : obj) : R := heading_sign (o_h o) (g_htrue (at_ a (a_s a))).
(** The speed after a timed step to [s]. *)
Definition new_speed (t dt : R) (a : act) (o : obj) (s : R) : R :=
  if Rltb SMALL_NUMBER dt &&
     Rltb (next_time t dt a + ahead a o + (if absolute (a_domain a) then 0 else a_offset a)) (t_end (a_traj a) + SMALL_NUMBER) then
    (if absolute (a_domain a) then 1 else SIGN (s - a_s a)) * faces a o * Rabs (s - a_s a) / dt
  else o_speed o.

Lemma dur_end : forall t, t_start t + t_dur t = t_end t.
Proof. intros t. unfold t_dur. lra. Qed.

Lemma move_t : forall t dt a o a' o', a_domain a <> D_NONE -> ready t o -> o_long o = false -> Move t dt a o = (a', o') ->
  let s := by_time (a_traj a) (next_time t dt a + ahead a o + a_offset a) in
  same_plan a a' /\ same_mode o o' /\ a_run a' = a_run a /\ a_time a' = next_time t dt a /\ a_s a' = s /\ o_traj o' = true /\
  o_speed o' = new_speed t dt a o s /\ o_x o' = g_x (at_ a s) /\ o_y o' = g_y (at_ a s) /\ o_dirty o' = o_dirty o.
Proof.
  intros t dt a o a' o' D (LA & TR & GO) LG E s. pose proof small_pos as SP. destruct (a_domain a) eqn:DA; [congruence| |].
  - assert (Q : by_time (a_traj a) (a_time a + a_scale a * dt + a_offset a) = s).
    { unfold s, next_time, ahead. rewrite DA. cbn. f_equal. lra. }
    unfold Move, SetTrajectoryPosByTime, GetTrajectoryS, UpdateTrajectoryPos, cur in E. cbn -[SIGN heading_sign Rabs by_time Rltb] in E.
    rewrite DA, LG, TR in E. cbn -[SIGN heading_sign Rabs by_time Rltb] in E. rewrite TR, Q, dur_end in E.
    assert (V : new_speed t dt a o s = if Rltb (a_time a + a_scale a * dt + a_offset a) (t_end (a_traj a) + SMALL_NUMBER) then
       if Rltb SMALL_NUMBER dt then SIGN (s - a_s a) * faces a o * Rabs (s - a_s a) / dt else o_speed o else o_speed o).
    { unfold new_speed, next_time, ahead. rewrite DA. cbn -[SIGN Rltb]. rewrite Rplus_0_r. destruct (Rltb (a_time a + _ + _) _), (Rltb SMALL_NUMBER dt); reflexivity. }
    unfold same_plan, same_mode, at_. rewrite V. unfold next_time. rewrite DA. cbn -[SIGN heading_sign Rabs Rltb].
    destruct (Rltb (a_time a + a_scale a * dt + a_offset a) (t_end (a_traj a) + SMALL_NUMBER));
      [destruct (Rltb SMALL_NUMBER dt)|]; cbn -[SIGN heading_sign Rabs Rltb] in E; rewrite ?TR in E; unfold faces, at_;
      (destruct (g_explicit _); cbn -[SIGN heading_sign Rabs Rltb] in E;
       [|destruct (a_expl a); cbn -[SIGN heading_sign Rabs Rltb] in E; destruct (Rltb _ 0) in E]; injection E as <- <-; cbn -[SIGN heading_sign Rabs Rltb]; fin).
  - assert (Q : by_time (a_traj a) ((t + dt) * a_scale a + (if o_ghost o then o_headstart o else 0) + a_offset a) = s).
    { unfold s, next_time, ahead. rewrite DA. reflexivity. }
    assert (GT : o_ghost o || Rltb (- SMALL_NUMBER) t = true).
    { destruct GO as [->|GO]; [reflexivity|]. rewrite (proj2 (Rltb_true _ _)) by lra. apply orb_true_r. }
    unfold Move, SetTrajectoryPosByTime, GetTrajectoryS, UpdateTrajectoryPos, cur in E. cbn -[SIGN heading_sign Rabs by_time Rltb] in E.
    rewrite DA, LG, TR, GT in E. cbn -[SIGN heading_sign Rabs by_time Rltb] in E. rewrite TR, Q, dur_end in E.
    assert (V : new_speed t dt a o s = if Rltb SMALL_NUMBER dt && Rltb ((t + dt) * a_scale a + (if o_ghost o then o_headstart o else 0)) (t_end (a_traj a) + SMALL_NUMBER) then
       1 * faces a o * Rabs (s - a_s a) / dt else o_speed o).
    { unfold new_speed, next_time, ahead. rewrite DA. cbn -[SIGN Rltb]. rewrite Rplus_0_r. reflexivity. }
    unfold same_plan, same_mode, at_. rewrite V. unfold next_time. rewrite DA. cbn -[SIGN heading_sign Rabs Rltb].
    destruct (Rltb SMALL_NUMBER dt && Rltb ((t + dt) * a_scale a + (if o_ghost o then o_headstart o else 0)) (t_end (a_traj a) + SMALL_NUMBER));
      cbn -[SIGN heading_sign Rabs Rltb] in E; rewrite ?TR in E; unfold faces, at_;
      (destruct (g_explicit _); cbn -[SIGN heading_sign Rabs Rltb] in E;
       [|destruct (a_expl a); cbn -[SIGN heading_sign Rabs Rltb] in E; destruct (Rltb _ 0) in E]; injection E as <- <-; cbn -[SIGN heading_sign Rabs Rltb]; fin).
Qed.

Lemma step_timed : forall t dt a o a' o', a_domain a <> D_NONE -> ready t o -> o_long o = false -> Step t dt a o = (a', o') ->
  let p := next_time t dt a + ahead a o + a_offset a in
  let s := by_time (a_traj a) p in
  let v := new_speed t dt a o s in
  same_plan a a' /\ same_mode o o' /\ a_time a' = next_time t dt a /\ a_s a' = s /\ o_speed o' = v /\
  (t_end (a_traj a) - SMALL_NUMBER < p -> a_run a' = false /\ o_traj o' = false /\
     o_x o' = g_x (at_ a s) + (p - t_end (a_traj a)) * v * cos (g_h (at_ a s)) /\ o_y o' = g_y (at_ a s) + (p - t_end (a_traj a)) * v * sin (g_h (at_ a s))) /\
  (p <= t_end (a_traj a) - SMALL_NUMBER -> a_run a' = a_run a /\ o_traj o' = true /\ o_x o' = g_x (at_ a s) /\ o_y o' = g_y (at_ a s)).
Proof.
  intros t dt a o a' o' D (LA & TR & GO) LG E p s v. unfold Step in E. rewrite LA in E. cbn -[Move] in E.
  replace (negb (o_ghost o) && Rltb t 0) with false in E.
  2: { destruct GO as [->|GO]; [reflexivity|]. rewrite (proj2 (Rltb_false _ _)) by lra. now rewrite andb_false_r. }
  destruct (Move t dt a (set_dirty o)) as [b q] eqn:M.
  apply move_t in M; [|exact D|split; [exact LA|split; [exact TR|exact GO]]|exact LG]. cbn zeta in M.
  change (ahead a (set_dirty o)) with (ahead a o) in M. fold p in M. fold s in M. change (new_speed t dt a (set_dirty o) s) with v in M.
  destruct M as (P & Q & M1 & M2 & M3 & M4 & M5 & M6 & M7 & M8).
  pose proof P as (P1 & P2 & P3 & P4 & P5 & P6 & P7 & P8). destruct Q as (Q1 & Q2 & Q3 & Q4). cbn in Q1, Q2, Q3, Q4.
  assert (UN : untimed (a_domain a) = false) by (destruct (a_domain a); [congruence|reflexivity|reflexivity]).
  rewrite P2, UN in E. cbn [andb negb orb] in E. rewrite P1, dur_end, M2 in E.
  assert (PE : next_time t dt a + ((if absolute (a_domain a) && o_ghost o then o_headstart o else 0) + a_offset a) = p) by (unfold p, ahead; lra).
  rewrite PE in E. cbn [orb andb] in E.
  destruct (Rltb (t_end (a_traj a) - SMALL_NUMBER) p) eqn:LT.
  - apply Rltb_true in LT. unfold End_ in E. cbn in E. rewrite Q1, LA in E. injection E as <- <-. cbn. unfold cur. rewrite P1, P8, M3, M5, M6, M7.
    unfold same_plan, same_mode, at_. cbn. intuition lra.
  - apply Rltb_false in LT. injection E as <- <-. unfold same_mode. intuition lra.
Qed.

(** ** Runs by the clock of the trajectory *)
Definition span (ks : list tick) : R := sum (map k_dt ks).
Lemma span_app : forall ks k, span (ks ++ [k]) = span ks + k_dt k.
Proof. intros ks k. unfold span. rewrite map_app, sum_app. cbn. lra. Qed.
Definition onward (k : tick) : Prop := 0 <= k_time k /\ 0 <= k_dt k.

Lemma run_relative : forall a o ks a' o', a_domain a = D_RELATIVE -> 0 <= a_scale a -> a_run a = true -> o_lat o = false -> o_long o = false -> o_traj o = true ->
  ks <> [] -> Forall onward ks -> Run ks (a, o) = (a', o') ->
  same_plan a a' /\ same_mode o o' /\
  let T := a_time a + a_scale a * span ks in
  (T + a_offset a <= t_end (a_traj a) - SMALL_NUMBER ->
     a_run a' = true /\ o_traj o' = true /\ a_time a' = T /\ a_s a' = by_time (a_traj a) (T + a_offset a) /\
     o_x o' = g_x (at_ a (a_s a')) /\ o_y o' = g_y (at_ a (a_s a'))) /\
  (t_end (a_traj a) - SMALL_NUMBER < T + a_offset a -> a_run a' = false).
Proof.
  intros a o ks. induction ks as [|k ks IH] using rev_ind; intros a' o' D SC RN LA LG TR NE FA E; [congruence|]. clear NE.
  rewrite Run_app in E. apply Forall_app in FA. destruct FA as [FA FK]. inversion FK as [|? ? AK _]; subst. rewrite span_app.
  assert (B : exists b p, Run ks (a, o) = (b, p) /\ same_plan a b /\ same_mode o p /\
     ((a_run b = true /\ o_traj p = true /\ a_time b = a_time a + a_scale a * span ks) \/
      (a_run b = false /\ t_end (a_traj a) - SMALL_NUMBER < a_time a + a_scale a * span ks + a_offset a))).
  { destruct (Run ks (a, o)) as [b p] eqn:EB. exists b, p. split; [reflexivity|]. destruct ks as [|k0 ks0].
    - cbn in EB. injection EB as <- <-. unfold same_plan, same_mode, span. cbn. split; [tauto|]. split; [tauto|]. left. repeat split; auto. lra.
    - destruct (IH b p D SC RN LA LG TR ltac:(discriminate) FA eq_refl) as (I1 & I2 & I3 & I4). split; [exact I1|]. split; [exact I2|].
      destruct (Rlt_dec (t_end (a_traj a) - SMALL_NUMBER) (a_time a + a_scale a * span (k0 :: ks0) + a_offset a)) as [H|H].
      + right. auto.
      + apply Rnot_lt_le in H. left. destruct (I3 H) as (J1 & J2 & J3 & _). auto. }
  clear IH. destruct B as (b & p & EB & PL & MO & B). rewrite EB in E. destruct AK as [KT KD].
  pose proof PL as (P1 & P2 & _ & P4 & P5 & _ & _ & P8). pose proof MO as (Q1 & Q2 & Q3 & Q4).
  assert (MN : a_scale a * span ks <= a_scale a * (span ks + k_dt k)) by (apply Rmult_le_compat_l; lra).
  destruct B as [(B1 & B2 & B3)|(B1 & B2)].
  - unfold Tick1 in E. rewrite B1 in E. set (p' := match k_speed k with Some v => set_speed v p | None => p end) in *.
    assert (X : o_lat p' = false /\ o_long p' = false /\ o_traj p' = true /\ same_mode p p').
    { unfold p', same_mode. destruct (k_speed k); cbn; repeat split; congruence. }
    destruct X as (X1 & X2 & X3 & X4).
    apply step_timed in E; [|rewrite P2, D; discriminate|split; [exact X1|split; [exact X3|now right]]|exact X2]. cbn zeta in E.
    assert (NT : next_time (k_time k) (k_dt k) b = a_time a + a_scale a * (span ks + k_dt k)).
    { unfold next_time. rewrite P2, D. cbn. rewrite B3, P4. lra. }
    assert (AH : ahead b p' = 0) by (unfold ahead; rewrite P2, D; reflexivity).
    rewrite NT, AH, Rplus_0_r, P1, P5 in E. destruct E as (F1 & F2 & F3 & F4 & F5 & F6 & F7).
    split; [eapply same_plan_trans; eauto|]. split; [unfold same_mode in *; intuition congruence|]. cbn zeta. split.
    + intros H. destruct (F7 H) as (G1 & G2 & G3 & G4). rewrite F4. unfold at_ in *. rewrite P1, P8 in G3, G4. repeat split; try congruence; auto.
    + intros H. now destruct (F6 H).
  - destruct (tick_stopped k b p B1) as (q & E' & Q). rewrite E' in E. injection E as <- <-.
    split; [exact PL|]. split.
    { unfold Tick1 in E'. rewrite B1 in E'. injection E' as <-. unfold same_mode in *. destruct (k_speed k); cbn; tauto. }
    cbn zeta. split; [intros; lra|auto].
Qed.

(** ** Timed, but longitudinal control is elsewhere *)
Lemma step_long : forall t dt a o a' o', a_domain a <> D_NONE -> o_long o = true -> a_run a = true ->
  a_time a + ahead a o + a_offset a <= t_end (a_traj a) - SMALL_NUMBER -> Step t dt a o = (a', o') ->
  same_plan a a' /\ same_mode o o' /\ a_run a' = true /\ a_time a' = a_time a.
Proof.
  intros t dt a o a' o' D LG RN H E. unfold Step in E. destruct (o_lat o) eqn:LA.
  { injection E as <- <-. unfold same_plan, same_mode. tauto. }
  cbn -[Move] in E. destruct (negb (o_ghost o) && Rltb t 0).
  { injection E as <- <-. unfold same_plan, same_mode. cbn. tauto. }
  assert (UN : untimed (a_domain a) = false) by (destruct (a_domain a); [congruence|reflexivity|reflexivity]).
  assert (M : let '(b, p) := Move t dt a (set_dirty o) in same_plan a b /\ same_mode o p /\ a_run b = a_run a /\ a_time b = a_time a).
  { unfold Move, MoveTrajectoryDS, same_plan, same_mode. cbn -[SIGN heading_sign Rabs by_s]. rewrite UN, LG. cbn -[SIGN heading_sign Rabs by_s]. destruct (o_traj o);
      (destruct (g_explicit _); cbn -[SIGN heading_sign Rabs by_s Rltb]; [|destruct (a_expl a); cbn -[SIGN heading_sign Rabs by_s Rltb]; destruct (Rltb _ 0)]; cbn; tauto). }
  destruct (Move t dt a (set_dirty o)) as [b p]. destruct M as (P & Q & M1 & M2). pose proof P as (P1 & P2 & _).
  rewrite P2, UN, P1, dur_end, M2 in E. cbn [andb negb orb] in E.
  rewrite (proj2 (Rltb_false _ _)) in E by (unfold ahead in H; lra). injection E as <- <-. intuition congruence.
Qed.

Lemma run_long : forall ks a o a' o', a_domain a <> D_NONE -> o_long o = true -> a_run a = true ->
  a_time a + ahead a o + a_offset a <= t_end (a_traj a) - SMALL_NUMBER -> Run ks (a, o) = (a', o') ->
  same_plan a a' /\ same_mode o o' /\ a_run a' = true /\ a_time a' = a_time a.
Proof.
  induction ks as [|k ks IH] using rev_ind; intros a o a' o' D LG RN H E.
  - injection E as <- <-. unfold same_plan, same_mode. tauto.
  - rewrite Run_app in E. destruct (Run ks (a, o)) as [b p] eqn:EB. destruct (IH a o b p D LG RN H EB) as (PL & MO & I3 & I4).
    pose proof PL as (P1 & P2 & _ & P4 & P5 & _). pose proof MO as (Q1 & Q2 & Q3 & Q4). unfold Tick1 in E. rewrite I3 in E.
    set (p' := match k_speed k with Some v => set_speed v p | None => p end) in *.
    assert (X : same_mode p p') by (unfold p', same_mode; destruct (k_speed k); cbn; auto). destruct X as (X1 & X2 & X3 & X4).
    apply step_long in E; [|congruence|congruence|exact I3|unfold ahead in *; rewrite I4, P1, P2, P5, X3, X4, Q3, Q4; exact H].
    destruct E as (F1 & F2 & F3 & F4). split; [eapply same_plan_trans; eauto|]. unfold same_mode in *. intuition congruence.
Qed.

(** ** An action without its trajectory *)
Lemma run_unattached : forall ks a o a' o', a_domain a = D_NONE -> o_traj o = false -> plain a -> a_sign a = 1 -> a_run a = true -> o_lat o = false ->
  SMALL_NUMBER <= t_len (a_traj a) -> Forall (along 1 1) ks -> Run ks (a, o) = (a', o') ->
  going a a' o' /\ a_run a' = true /\ o_traj o' = false /\ a_s a' = a_s a /\ o_x o' = o_x o /\ o_y o' = o_y o.
Proof.
  induction ks as [|k ks IH] using rev_ind; intros a o a' o' D TR PN SG RN LA L0 FA E.
  - injection E as <- <-. split; [split; [unfold same_plan; tauto|tauto]|]. tauto.
  - rewrite Run_app in E. apply Forall_app in FA. destruct FA as [FA FK]. inversion FK as [|? ? AK _]; subst.
    destruct (Run ks (a, o)) as [b p] eqn:EB.
    destruct (IH a o b p D TR PN SG RN LA L0 FA EB) as (GO & R1 & R2 & R3 & R4 & R5). clear IH.
    destruct GO as (PL & G2 & (G3 & G3') & G4). pose proof PL as (P1 & P2 & _). destruct AK as (KT & KD & v & KV & V & SV).
    unfold Tick1 in E. rewrite R1, KV in E. unfold Step in E. cbn -[Move] in E. rewrite G4 in E.
    rewrite (proj2 (Rltb_false _ _)) in E by exact KT. rewrite andb_false_r in E.
    assert (EX : g_explicit (t_at (a_traj b) (a_interp b) (a_s b)) = false) by apply G3.
    assert (SB : a_sign b = 1) by congruence.
    assert (MV : exists h, Move (k_time k) (k_dt k) b (set_dirty (set_speed v p)) = (with_dir (SIGN v * a_sign b) b, set_h h (set_dirty (set_speed v p)))).
    { exists (o_h p). unfold Move, MoveTrajectoryDS, cur. cbn -[SIGN heading_sign Rabs by_s Rltb]. rewrite P2, D. cbn -[SIGN heading_sign Rabs by_s Rltb]. rewrite R2.
      unfold cur. cbn -[SIGN heading_sign Rabs by_s Rltb]. rewrite EX, G3'. cbn -[SIGN heading_sign Rabs by_s Rltb].
      rewrite SB, (proj2 (Rltb_false _ _)) by lra. reflexivity. }
    destruct MV as [h MV]. rewrite MV in E. unfold GetTrajectoryS in E. cbn -[SIGN Rabs Rltb] in E. rewrite P1, P2, D, R2 in E. cbn -[SIGN Rabs Rltb] in E.
    rewrite SB, SV in E. rewrite (proj2 (Rltb_false (t_len (a_traj a) - SMALL_NUMBER) 0)) in E by lra.
    rewrite (proj2 (Rltb_false (1 * Rabs v) 0)) in E by (pose proof (Rabs_pos v); lra).
    rewrite !andb_false_r in E. cbn in E. injection E as <- <-.
    split; [split; [exact PL|split; [cbn; congruence|split; [split; [exact G3|exact G3']|exact G4]]]|]. cbn. tauto.
Qed.

(** ** Start *)
Lemma start_spec : forall oi pi opt prop a o a' o', o_lat o = false -> Start oi pi opt prop a o = (a', o') ->
  let m := interp_mode opt prop (a_follow a) (a_interp a) in
  let s := by_s (a_traj a) (a_dist a) in
  let g := t_at (a_traj a) m s in
  let ig := if oi then true else match pi with Some b => b | None => a_ignore a end in
  let sg := if untimed (a_domain a) then SIGN (o_speed o) else if g_explicit g then heading_sign (g_h g) (g_htrue g) else 1 in
  a_traj a' = a_traj a /\ a_domain a' = a_domain a /\ a_scale a' = a_scale a /\ a_offset a' = a_offset a /\ a_run a' = true /\ a_interp a' = m /\ a_s a' = s /\ a_time a' = g_time g /\ a_ignore a' = ig /\ a_expl a' = g_explicit g /\
  o_lat o' = false /\ o_long o' = o_long o /\ o_ghost o' = o_ghost o /\ o_headstart o' = o_headstart o /\ o_traj o' = true /\ o_x o' = g_x g /\ o_y o' = g_y g /\
  o_h o' = (if g_explicit g then g_h g else GetAngleInInterval2PI (g_htrue g + (if Rltb sg 0 then PI else 0))) /\
  a_sign a' = (if g_explicit g && ig then 1 else heading_sign (o_h o') (g_htrue g)) /\
  o_speed o' = (if untimed (a_domain a) then o_speed o else sg * g_speed g).
Proof.
  intros oi pi opt prop a o a' o' LA E m s g ig sg. unfold Start in E. rewrite LA in E.
  set (a1 := with_interp m (with_ignore ig (with_run true a))).
  assert (A1 : with_interp (interp_mode opt prop (a_follow (if oi then with_ignore true (with_run true a) else match pi with Some b => with_ignore b (with_run true a) | None => with_run true a end))
                 (a_interp (if oi then with_ignore true (with_run true a) else match pi with Some b => with_ignore b (with_run true a) | None => with_run true a end)))
               (if oi then with_ignore true (with_run true a) else match pi with Some b => with_ignore b (with_run true a) | None => with_run true a end) = a1).
  { unfold a1, m, ig. destruct oi; [|destruct pi]; reflexivity. }
  cbv zeta in E. rewrite A1 in E. unfold SetTrajectoryS in E. cbn -[SIGN heading_sign by_s Rltb interp_mode] in E. fold s in E.
  unfold UpdateTrajectoryPos, cur in E. cbn -[SIGN heading_sign by_s Rltb interp_mode] in E. fold g in E.
  assert (XX : a_domain a1 = a_domain a) by reflexivity. fold sg in E.
  destruct (g_explicit g) eqn:X; cbn -[SIGN heading_sign by_s Rltb interp_mode] in E; unfold cur in E; cbn -[SIGN heading_sign by_s Rltb interp_mode] in E; fold g in E; rewrite ?X in E;
    destruct ig; cbn -[SIGN heading_sign by_s Rltb interp_mode] in E; fold g in E; injection E as <- <-; cbn -[SIGN heading_sign by_s Rltb interp_mode]; destruct (untimed (a_domain a)); cbn -[SIGN heading_sign by_s Rltb interp_mode]; fin.
Qed.

Lemma start_lat : forall oi pi opt prop a o a' o', o_lat o = true -> Start oi pi opt prop a o = (a', o') -> a_run a' = true /\ a_s a' = a_s a /\ a_time a' = a_time a /\ o' = o.
Proof. intros oi pi opt prop a o a' o' LA E. unfold Start in E. cbn in E. rewrite LA in E. injection E as <- <-. destruct oi; [|destruct pi]; cbn; auto. Qed.

(** Without headings of its own a trajectory is followed from where it starts to its end, whatever the sign of the speed. *)
Lemma start_forward : forall oi pi opt prop a o a' o', o_lat o = false -> Start oi pi opt prop a o = (a', o') -> untimed (a_domain a) = true -> a_expl a' = false ->
  SIGN (o_speed o') * a_sign a' = 1.
Proof.
  intros oi pi opt prop a o a' o' LA E U X. apply start_spec in E; [|exact LA]. cbn zeta in E.
  destruct E as (_ & _ & _ & _ & _ & _ & _ & _ & _ & X' & _ & _ & _ & _ & _ & _ & _ & HH & SG & V). rewrite X in X'. rewrite <- X' in HH, SG. rewrite U in V, HH. cbn [andb] in SG.
  rewrite V, SG, HH. unfold SIGN. set (h := g_htrue _). destruct (Rltb (o_speed o) 0) eqn:N.
  - rewrite (proj2 (Rltb_true (-1) 0)) by lra. rewrite heading_sign_back; [lra|]. apply interval2pi.
  - rewrite (proj2 (Rltb_false 1 0)) by lra. rewrite heading_sign_same; [lra|]. rewrite Rplus_0_r. apply interval2pi.
Qed.

(** ** s by time *)
Lemma clothoid_time : forall t p, t_kind t = K_CLOTHOID -> t_start t <= p <= t_end t ->
  by_time t p = t_len t * (p - 2 * t_start t) / (t_end t - t_start t).
Proof.
  intros t p K H. unfold by_time. rewrite K, (proj2 (Rltb_false _ _)), (proj2 (Rltb_false _ _)) by lra. cbn. f_equal. f_equal. lra.
Qed.
Lemma clothoid_out : forall t p, t_kind t <> K_POLYLINE -> p < t_start t \/ t_end t < p -> by_time t p = t_len t.
Proof.
  intros t p K H. unfold by_time. destruct (t_kind t); [congruence| |]; destruct H as [H|H];
    rewrite (proj2 (Rltb_true _ _) H); cbn; rewrite ?andb_false_r; reflexivity.
Qed.

Lemma spline_seg_spec : forall pre p e s seg0 seg rest,
  (forall x, In x (pre ++ [seg]) -> fst x - SMALL_NUMBER < p) -> (forall x, hd_error rest = Some x -> p <= fst x - SMALL_NUMBER) ->
  spline_seg p e s seg0 (pre ++ seg :: rest) =
  (s + snd seg0 + sum (map snd pre), seg, match rest with [] => e | x :: _ => fst x end).
Proof.
  induction pre as [|y pre IH]; intros p e s seg0 seg rest HI HR.
  - cbn [app spline_seg]. rewrite (proj2 (Rltb_true _ _)) by (apply HI; left; reflexivity). cbn [map sum].
    destruct rest as [|z rest]; cbn [spline_seg]; [|rewrite (proj2 (Rltb_false _ _)) by (apply HR; reflexivity)]; do 2 f_equal; lra.
  - cbn [app spline_seg]. rewrite (proj2 (Rltb_true _ _)) by (apply HI; left; reflexivity).
    rewrite IH; [|intros x H; apply HI; now right|exact HR]. cbn [map sum]. do 2 f_equal. lra.
Qed.

Lemma spline_time : forall t pre seg rest p, t_kind t = K_SPLINE -> t_segs t = pre ++ seg :: rest -> t_start t <= p <= t_end t ->
  (forall x, In x (tl (pre ++ [seg])) -> fst x - SMALL_NUMBER < p) -> (forall x, hd_error rest = Some x -> p <= fst x - SMALL_NUMBER) ->
  by_time t p = sum (map snd pre) + (p - fst seg) / ((match rest with [] => t_end t | x :: _ => fst x end) - fst seg) * snd seg.
Proof.
  intros t pre seg rest p K SG H HI HR. unfold by_time. rewrite K, SG, (proj2 (Rltb_false _ _)), (proj2 (Rltb_false _ _)) by lra. cbn [negb andb].
  destruct pre as [|y pre].
  - cbn [app map sum]. destruct rest as [|z rest]; cbn [spline_seg]; [|rewrite (proj2 (Rltb_false _ _)) by (apply HR; reflexivity)]; lra.
  - cbn [app]. rewrite spline_seg_spec by assumption. cbn [map sum]. lra.
Qed.

(** ** Headings *)
Lemma step_move : forall t dt a o, ready t o -> exists b p, Move t dt a (set_dirty o) = (b, p) /\
  a_sign (fst (Step t dt a o)) = a_sign b /\ a_expl (fst (Step t dt a o)) = a_expl b /\ a_s (fst (Step t dt a o)) = a_s b /\ o_h (snd (Step t dt a o)) = o_h p.
Proof.
  intros t dt a o (LA & TR & GO). unfold Step. rewrite LA. cbn -[Move].
  replace (negb (o_ghost o) && Rltb t 0) with false.
  2: { destruct GO as [->|GO]; [reflexivity|]. rewrite (proj2 (Rltb_false _ _)) by lra. now rewrite andb_false_r. }
  destruct (Move t dt a (set_dirty o)) as [b p]. exists b, p. split; [reflexivity|].
  match goal with |- context [if ?c then End_ _ _ else _] => destruct c end; cbn; [|auto]. destruct (o_lat p); auto.
Qed.
