(** * C76: a driver who keeps neither speed nor lane *)
From Coq Require Import Reals Bool List Lra.
From Verif Require Import AngModel AngProofs SlopModel SlopProofs.
Import ListNotations.
Open Scope R_scope.

Definition half : draws := Draws (1 / 2) (1 / 2) (1 / 2) (1 / 2).
Definition standing (v : R) : obj := Obj v false 0 0 0 0.
Lemma half_drawn : drawn half.
Proof. unfold drawn, half. simpl. lra. Qed.

(** Once activated no step fails, whatever the mode, the domains and the numbers drawn. *)
Theorem C76_defined : forall c s time o l, 0 <= time -> Forall good l -> run c l (Activate s time o) o <> None.
Proof.
  intros c s time o l Ht G.
  assert (T : timers_ok (Activate s time o)) by (unfold timers_ok; simpl; unfold speedTimerAverage, lateralTimerAverage; repeat split; lra).
  revert T. generalize (Activate s time o). revert o. induction l as [|i l IH]; intros o d T; [discriminate|]. simpl.
  inversion G as [|? ? [G1 G2] G3]; subst.
  destruct (Step_some c (i_road i) (i_dt i) (i_draws i) d o G1 G2 T) as (d1 & o1 & -> & T1 & _). exact (IH G3 o1 d1 T1).
Qed.
Example C76_defined_ex : exists d o, run (Setup true true true) [Input 0 (1 / 10) half; Input 0 5 half] (Activate 1 0 (standing 10)) (standing 10) = Some (d, o).
Proof.
  destruct (run _ _ _ _) as [(d, o)|] eqn:E; [exists d, o; reflexivity|]. exfalso. revert E. apply C76_defined; [lra|].
  repeat (apply Forall_cons; [split; [simpl; lra|exact half_drawn]|]). apply Forall_nil.
Qed.

(** Left alone the speed stays within 35 per cent, scaled by the sloppiness, of what it was on activation. *)
Theorem C76_speed_band : forall c s time o l d' o', on_long c = true -> 0 <= s <= 1 -> 0 <= time -> 0 <= o_speed o -> Forall good l ->
  run c l (Activate s time o) o = Some (d', o') ->
  o_speed o * (1 - 35 / 100 * s) <= o_speed o' <= o_speed o * (1 + 35 / 100 * s).
Proof.
  intros c s time o l d' o' L Hs Ht Hv G E.
  destruct (run_inv c s (o_speed o) l _ _ L Hs Hv G (Activate_inv s time o Hs Ht Hv)) as (d1 & o1 & E1 & _ & B). rewrite E in E1. injection E1 as <- <-.
  apply B. unfold in_band. assert (0 <= o_speed o * (35 / 100 * s)) by (apply Rmult_le_pos; lra). lra.
Qed.
Example C76_speed_band_ex : exists d o, run (Setup true true true) [Input 0 5 half] (Activate 1 0 (standing 10)) (standing 10) = Some (d, o) /\ 65 / 10 <= o_speed o <= 135 / 10.
Proof.
  assert (G : Forall good [Input 0 5 half]) by (apply Forall_cons; [split; [simpl; lra|exact half_drawn]|apply Forall_nil]).
  destruct (run (Setup true true true) [Input 0 5 half] (Activate 1 0 (standing 10)) (standing 10)) as [(d, o)|] eqn:E.
  - exists d, o. split; [reflexivity|]. pose proof (C76_speed_band (Setup true true true) 1 0 (standing 10) _ d o eq_refl ltac:(lra) ltac:(lra) ltac:(simpl; lra) G E) as H. simpl in H. lra.
  - exfalso. revert E. apply C76_defined; [lra|exact G].
Qed.

(** With no sloppiness at all it is kept exactly. *)
Theorem C76_not_sloppy : forall c time o l d' o', on_long c = true -> 0 <= time -> 0 <= o_speed o -> Forall good l ->
  run c l (Activate 0 time o) o = Some (d', o') -> o_speed o' = o_speed o.
Proof. intros c time o l d' o' L Ht Hv G E. pose proof (C76_speed_band c 0 time o l d' o' L ltac:(lra) Ht Hv G E). lra. Qed.
Example C76_not_sloppy_ex : exists d o, run (Setup false true false) [Input 0 5 half] (Activate 0 0 (standing 10)) (standing 10) = Some (d, o) /\ o_speed o = 10.
Proof.
  assert (G : Forall good [Input 0 5 half]) by (apply Forall_cons; [split; [simpl; lra|exact half_drawn]|apply Forall_nil]).
  destruct (run (Setup false true false) [Input 0 5 half] (Activate 0 0 (standing 10)) (standing 10)) as [(d, o)|] eqn:E.
  - exists d, o. split; [reflexivity|]. exact (C76_not_sloppy (Setup false true false) 0 (standing 10) _ d o eq_refl ltac:(lra) ltac:(simpl; lra) G E).
  - exfalso. revert E. apply C76_defined; [lra|exact G].
Qed.

(** The speed does not jump: in no step, not even into a new period, does it change by more than the whole span in a second and a half. *)
Theorem C76_smooth : forall c s time o l d1 o1 road dt w d2 o2, on_long c = true -> 0 <= s <= 1 -> 0 <= time -> 0 <= o_speed o -> Forall good l ->
  run c l (Activate s time o) o = Some (d1, o1) -> 0 <= dt -> drawn w -> Step c road dt w d1 o1 = Some (d2, o2) ->
  Rabs (o_speed o2 - o_speed o1) <= 7 / 10 * s * o_speed o * (dt + 1 / 1000000) / (3 / 2).
Proof.
  intros c s time o l d1 o1 road dt w d2 o2 L Hs Ht Hv G E Hd W E2.
  destruct (run_inv c s (o_speed o) l _ _ L Hs Hv G (Activate_inv s time o Hs Ht Hv)) as (d1' & o1' & E1 & I1 & _). rewrite E in E1. injection E1 as <- <-.
  destruct (Step_inv c s (o_speed o) road dt w d1 o1 L Hs Hv Hd W I1) as (d2' & o2' & E2' & _ & _ & B). rewrite E2 in E2'. injection E2' as <- <-. exact B.
Qed.
Example C76_smooth_ex : 7 / 10 * 1 * 10 * (1 / 10 + 1 / 1000000) / (3 / 2) < 47 / 100.
Proof. lra. Qed.

(** When a period ends the speed is the one aimed at, to be held to the reference speed by the factor drawn for the period. *)
Theorem C76_period_end : forall c road dt w d o d' o', on_long c = true -> 0 <= dt -> drawn w -> timers_ok d -> o_speed o = d_cur d -> 0 <= d_ref d * d_factor d ->
  t_dur (d_timer d) - 1 / 1000000 < d_time d + dt - t_start (d_timer d) -> Step c road dt w d o = Some (d', o') ->
  o_speed o' = d_ref d * d_factor d /\ d_ref d' = d_ref d /\ t_start (d_timer d') = d_time d + dt /\
  t_dur (d_timer d') = 3 / 2 + 3 * w_time w /\ d_factor d' = 1 + d_slop d * (7 / 10 * w_factor w - 35 / 100).
Proof.
  intros c road dt w d o d' o' L Hd W T C P X E. destruct (Step_some c road dt w d o Hd W T) as (d1 & o1 & E1 & _ & Sp & _ & _ & Lo & _).
  rewrite E in E1. injection E1 as <- <-. rewrite L in Lo. cbv zeta in Lo. destruct Lo as (L1 & L2 & L3 & L4 & L5).
  pose proof (refresh_ref dt d o C) as Rr. unfold new_period in *.
  assert (Ex : Expired (d_timer (refresh dt d o)) (d_time (refresh dt d o)) = true) by (apply Expired_true; exact X). rewrite Ex in *.
  unfold blend, part in L5. cbn [d_timer d_ref d_init d_factor d_cur d_time t_start t_dur] in *. rewrite Rr in *.
  replace (d_time (refresh dt d o) - d_time (refresh dt d o)) with 0 in L5 by ring.
  change (d_factor (refresh dt d o)) with (d_factor d) in L5.
  match type of L5 with context [0 / ?y] => replace (0 / y) with 0 in L5 by (unfold Rdiv; ring) end.
  rewrite Rmax_left in L5 by (rewrite Rmult_0_r; lra). split; [rewrite Sp, L5; ring|]. split; [exact L2|]. rewrite L1. simpl. split; [reflexivity|].
  split; [unfold speedTimerAverage, between; lra|]. rewrite L4. simpl. unfold between. lra.
Qed.
Example C76_period_end_ex : timers_ok (Activate 1 0 (standing 10)) /\ 3 - 1 / 1000000 < 0 + 3 - 0.
Proof. split; [unfold timers_ok; simpl; unfold speedTimerAverage, lateralTimerAverage; repeat split; lra|lra]. Qed.

(** "A speed set from somewhere else is respected": not at once; early in a period the driver goes on nearly as before. *)
Theorem C76_set_speed_refuted : exists c road dt w d o d' o', drawn w /\ 0 < dt /\ d = Activate 1 0 (standing 10) /\ o_speed o = 20 /\
  Step c road dt w d o = Some (d', o') /\ o_speed o' < 11 /\ d_ref d' = 20.
Proof.
  set (c := Setup true true false). set (d := Activate 1 0 (standing 10)). set (o := standing 20).
  assert (T : timers_ok d) by (unfold timers_ok, d; simpl; unfold speedTimerAverage, lateralTimerAverage; repeat split; lra).
  destruct (Step_some c 0 (1 / 10) half d o ltac:(lra) half_drawn T) as (d' & o' & E & _ & Sp & _ & _ & Lo & _).
  exists c, 0, (1 / 10), half, d, o, d', o'. split; [exact half_drawn|]. split; [lra|]. split; [reflexivity|]. split; [reflexivity|]. split; [exact E|].
  simpl in Lo. destruct Lo as (L1 & L2 & L3 & L4 & L5).
  assert (Rr : d_ref (refresh (1 / 10) d o) = 20).
  { unfold refresh. simpl. replace (Rltb (1 / 1000) (Rabs (20 - 10))) with true; [reflexivity|]. symmetry. apply Rltb_true. rewrite Rabs_right; lra. }
  unfold new_period in *. assert (Ex : Expired (d_timer (refresh (1 / 10) d o)) (d_time (refresh (1 / 10) d o)) = false).
  { apply Expired_false. simpl. unfold speedTimerAverage. rewrite small. lra. }
  rewrite Ex in *. split; [|rewrite L2; exact Rr]. rewrite Sp, L5. unfold blend, part. rewrite Rr. simpl. unfold speedTimerAverage. rewrite Rmax_left; lra.
Qed.
Example C76_set_speed_refuted_ex : 10 * (1 - 1 / 10 / 3) + 1 * 20 * (1 / 10 / 3) < 11.
Proof. lra. Qed.

(** A step leaves no speed below 0: a vehicle going backwards is stopped. *)
Theorem C76_not_negative : forall c road dt w d o d' o', on_long c = true -> 0 <= dt -> drawn w -> timers_ok d -> Step c road dt w d o = Some (d', o') -> 0 <= o_speed o'.
Proof.
  intros c road dt w d o d' o' L Hd W T E. destruct (Step_some c road dt w d o Hd W T) as (d1 & o1 & E1 & _ & Sp & _ & _ & Lo & _).
  rewrite E in E1. injection E1 as <- <-. rewrite L in Lo. cbv zeta in Lo. destruct Lo as (_ & _ & _ & _ & L5). rewrite Sp, L5. apply Rmax_r.
Qed.
Example C76_not_negative_ex : timers_ok (Activate 1 0 (standing (-10))).
Proof. unfold timers_ok; simpl; unfold speedTimerAverage, lateralTimerAverage; repeat split; lra. Qed.

Theorem C76_reverse_refuted : forall c s road dt w o d' o', on_long c = true -> 0 <= dt < 2 -> drawn w -> o_speed o < 0 ->
  Step c road dt w (Activate s 0 o) o = Some (d', o') -> o_speed o' = 0.
Proof.
  intros c s road dt w o d' o' L Hd W V E.
  assert (T : timers_ok (Activate s 0 o)) by (unfold timers_ok; simpl; unfold speedTimerAverage, lateralTimerAverage; repeat split; lra).
  destruct (Step_some c road dt w _ o ltac:(lra) W T) as (d1 & o1 & E1 & _ & Sp & _ & _ & Lo & _). rewrite E in E1. injection E1 as <- <-.
  rewrite L in Lo. cbv zeta in Lo. destruct Lo as (_ & _ & _ & _ & L5). rewrite Sp, L5. apply Rmax_right. unfold new_period.
  assert (Ex : Expired (d_timer (refresh dt (Activate s 0 o) o)) (d_time (refresh dt (Activate s 0 o) o)) = false).
  { apply Expired_false. simpl. unfold speedTimerAverage. rewrite small. lra. }
  rewrite Ex. unfold blend. rewrite refresh_ref by reflexivity. simpl. lra.
Qed.
Example C76_reverse_refuted_ex : o_speed (standing (-3)) < 0.
Proof. simpl. lra. Qed.

(** The distance: overriding the driver goes by the new speed, otherwise the difference to what the default driver went by. *)
Theorem C76_distance : forall c road dt w d o d' o', on_long c = true -> 0 <= dt -> drawn w -> timers_ok d -> Step c road dt w d o = Some (d', o') ->
  1 / 1000000 < (if override c then o_speed o' else Rabs (o_speed o)) ->
  o_s o' - o_s o = (if override c then o_speed o' else if o_dirty o then o_speed o' - d_ref d' else o_speed o' - o_speed o) * dt.
Proof.
  intros c road dt w d o d' o' L Hd W T E H. pose proof (C76_not_negative c road dt w d o d' o' L Hd W T E) as N. unfold Step in E. rewrite L in E.
  pose proof (refresh_ok dt d o Hd T) as T1. pose proof (new_period_ok w _ W T1) as T2.
  unfold step_long in E. rewrite div_some in E by (destruct T2; lra).
  set (v := Rmax _ 0) in E. set (e := new_period w (refresh dt d o)) in *.
  assert (Z : forall e1 o1, timers_ok e1 -> (if on_lat c then step_lat c road dt w e1 o1 else Some (e1, o1)) = None \/
    exists d2 o2, (if on_lat c then step_lat c road dt w e1 o1 else Some (e1, o1)) = Some (d2, o2) /\ d_cur d2 = d_cur e1 /\ d_ref d2 = d_ref e1 /\ o_s o2 = o_s o1).
  { intros e1 o1 T3. right. destruct (on_lat c).
    - destruct (step_lat_some c road dt w e1 o1 W T3) as (d2 & o2 & E2 & (_ & _ & _ & C4 & _ & C6 & _) & _ & _ & D2 & _). exists d2, o2. auto.
    - exists e1, o1. auto. }
  destruct (override c).
  - match type of E with match (if _ then step_lat _ _ _ _ ?e1 ?o1 else _) with _ => _ end = _ => destruct (Z e1 o1 T2) as [Y|(d2 & o2 & Y & Y1 & Y2 & Y3)] end;
    rewrite Y in E; [discriminate|]. injection E as <- <-. simpl in *. rewrite Y1 in *. simpl in *. rewrite Y3.
    replace (Rltb SMALL_NUMBER (Rabs v)) with true; [simpl; lra|]. symmetry. apply Rltb_true. rewrite small, Rabs_right by lra. exact H.
  - assert (Hb : Rltb SMALL_NUMBER (Rabs (o_speed o)) = true) by (apply Rltb_true; rewrite small; exact H).
    destruct (o_dirty o);
    (match type of E with match (if _ then step_lat _ _ _ _ ?e1 ?o1 else _) with _ => _ end = _ => destruct (Z e1 o1 T2) as [Y|(d2 & o2 & Y & Y1 & Y2 & Y3)] end;
    rewrite Y in E; [discriminate|]; injection E as <- <-; cbn [SetSpeed o_s o_speed] in *; rewrite Y1, ?Y2, Y3, Hb; cbn [o_s with_cur d_cur d_ref]; ring).
Qed.
Example C76_distance_ex : drawn half /\ timers_ok (Activate 1 0 (standing 10)) /\ 1 / 1000000 < Rabs (o_speed (standing 10)).
Proof. split; [exact half_drawn|]. split; [unfold timers_ok; simpl; unfold speedTimerAverage, lateralTimerAverage; repeat split; lra|simpl; rewrite Rabs_right; lra]. Qed.

(** Each domain is left alone when not active. *)
Theorem C76_domains : forall c road dt w d o d' o', 0 <= dt -> drawn w -> timers_ok d -> Step c road dt w d o = Some (d', o') ->
  (on_long c = false -> o_speed o' = o_speed o /\ o_s o' = o_s o) /\
  (on_lat c = false -> o_t o' = o_t o /\ o_h o' = o_h o /\ o_hrel o' = o_hrel o).
Proof.
  intros c road dt w d o d' o' Hd W T E. destruct (Step_some c road dt w d o Hd W T) as (d1 & o1 & E1 & _ & Sp & _ & _ & Lo & La & _).
  rewrite E in E1. injection E1 as <- <-. split; intros Z; rewrite Z in *.
  - destruct Lo as (_ & A & B). split; [congruence|exact B].
  - tauto.
Qed.
Example C76_domains_ex : on_long (Setup true false true) = false /\ on_lat (Setup true true false) = false.
Proof. split; reflexivity. Qed.

(** Sideways: the driver knows how far it has gone from where it began. *)
Theorem C76_lateral_account : forall c l d o d' o', timers_ok d -> Forall good l -> run c l d o = Some (d', o') -> o_t o' - d_T d' = o_t o - d_T d.
Proof.
  intros c l. induction l as [|i l IH]; intros d o d' o' T G E; simpl in E.
  - injection E as <- <-. reflexivity.
  - inversion G as [|? ? [G1 G2] G3]; subst.
    destruct (Step_some c (i_road i) (i_dt i) (i_draws i) d o G1 G2 T) as (d1 & o1 & E1 & T1 & _ & _ & _ & _ & _ & X). rewrite E1 in E.
    rewrite (IH d1 o1 d' o' T1 G3 E). exact X.
Qed.
Example C76_lateral_account_ex : o_t (standing 10) - d_T (Activate 1 0 (standing 10)) = 0.
Proof. simpl. lra. Qed.

(** It moves sideways by the sine of its heading, never more than it goes. *)
Theorem C76_lateral_step : forall c road dt w d o d' o', on_lat c = true -> 0 <= dt -> drawn w -> timers_ok d -> Step c road dt w d o = Some (d', o') ->
  exists v, (v = o_speed o \/ v = o_speed o') /\
    ((v <= 1 / 1000000 /\ o_t o' = o_t o /\ o_h o' = o_h o /\ d_H d' = d_H d) \/
     (1 / 1000000 < v /\ o_t o' - o_t o = v * dt * sin (d_H d') /\ Rabs (o_t o' - o_t o) <= v * dt)).
Proof.
  intros c road dt w d o d' o' L Hd W T E. unfold Step in E. pose proof (refresh_ok dt d o Hd T) as T1.
  assert (X : exists e o1, (if on_long c then step_long c dt w (refresh dt d o) o else Some (refresh dt d o, o)) = Some (e, o1) /\ timers_ok e /\
     (o_speed o1 = o_speed o \/ o_speed o1 = d_cur e) /\ o_t o1 = o_t o /\ o_h o1 = o_h o /\ d_H e = d_H d).
  { destruct (on_long c).
    - destruct (step_long_some c dt w (refresh dt d o) o W T1) as (o1 & E1 & A1 & A2 & _ & A4). eexists _, o1. split; [exact E1|].
      split; [exact (new_period_ok w _ W T1)|]. split; [destruct (override c); [right; exact A4|left; exact A4]|]. split; [exact A1|]. split; [exact A2|].
      unfold with_cur, new_period. cbn [d_H]. destruct (Expired _ _); reflexivity.
    - eexists _, _. split; [reflexivity|]. split; [exact T1|]. auto. }
  destruct X as (e & o1 & E1 & Te & Sp & Ot & Oh & Dh). rewrite E1, L in E. clear E1.
  destruct (step_lat c road dt w e o1) as [(d2, o2)|] eqn:E2; [|discriminate].
  injection E as <- <-.
  pose proof (step_lat_some c road dt w e o1 W Te) as (d2' & o2' & E2' & (_ & _ & _ & _ & _ & C6 & _) & _). rewrite E2 in E2'. injection E2' as <- <-.
  exists (o_speed o1). split; [destruct Sp as [Sp|Sp]; [left; exact Sp|right; simpl; congruence]|].
  pose proof (new_fuzz_ok w e W Te) as (_ & _ & Fd & _). unfold step_lat in E2. rewrite div_some in E2 by lra.
  pose proof (new_fuzz_keeps w e) as (_ & _ & _ & _ & _ & _ & _ & K8 & K9).
  destruct (Rltb SMALL_NUMBER (o_speed o1)) eqn:S.
  - right. apply Rltb_true in S. rewrite small in S. split; [exact S|].
    assert (Y : o_t o2 = o_t o1 + o_speed o1 * dt * sin (d_H d2)) by (destruct (override c); injection E2 as <- <-; reflexivity).
    simpl. rewrite Y, Ot. split; [ring|]. replace (o_t o + o_speed o1 * dt * sin (d_H d2) - o_t o) with (o_speed o1 * dt * sin (d_H d2)) by ring.
    assert (0 <= o_speed o1 * dt) by (apply Rmult_le_pos; lra). rewrite Rabs_mult, (Rabs_right (o_speed o1 * dt)) by lra.
    rewrite <- (Rmult_1_r (o_speed o1 * dt)) at 2. apply Rmult_le_compat_l; [assumption|]. apply Rabs_le. pose proof (SIN_bound (d_H d2)). lra.
  - left. apply Rltb_false in S. rewrite small in S. injection E2 as <- <-. simpl. rewrite Ot, Oh, K9, Dh. split; [lra|]. auto.
Qed.
Example C76_lateral_step_ex : on_lat (Setup true false true) = true /\ Rabs (sin 0) <= 1.
Proof. split; [reflexivity|]. rewrite sin_0, Rabs_R0. lra. Qed.

(** The deviation aimed at is never to the other side: between 0 and 7.5 times the square of the sloppiness. *)
Theorem C76_fuzz_range : forall c s time o l d' o', 0 <= s <= 1 -> 0 <= time -> Forall good l -> run c l (Activate s time o) o = Some (d', o') ->
  0 <= d_fuzz0 d' <= 15 / 2 * s * s /\ 0 <= d_fuzz1 d' <= 15 / 2 * s * s.
Proof.
  intros c s time o l d' o' Hs Ht G E.
  assert (T : timers_ok (Activate s time o)) by (unfold timers_ok; simpl; unfold speedTimerAverage, lateralTimerAverage; repeat split; lra).
  assert (F : fuzz_ok (15 / 2 * s * s) (Activate s time o)).
  { unfold fuzz_ok. simpl. assert (0 <= s * s) by (apply Rmult_le_pos; lra). lra. }
  assert (S0 : d_slop (Activate s time o) = s) by reflexivity.
  revert T F S0 E. generalize (Activate s time o). revert o. induction l as [|i l IH]; intros o d T F S0 E; simpl in E.
  - injection E as <- <-. exact F.
  - inversion G as [|? ? [G1 G2] G3]; subst.
    destruct (Step_some c (i_road i) (i_dt i) (i_draws i) d o G1 G2 T) as (d1 & o1 & E1 & T1 & _ & _ & Sl & _). rewrite E1 in E.
    apply (IH G3 o1 d1 T1); [|exact Sl|exact E].
    unfold Step in E1. pose proof (refresh_ok (i_dt i) d o G1 T) as T2.
    assert (X : exists e o2, (if on_long c then step_long c (i_dt i) (i_draws i) (refresh (i_dt i) d o) o else Some (refresh (i_dt i) d o, o)) = Some (e, o2) /\ timers_ok e /\
       d_slop e = d_slop d /\ d_fuzz0 e = d_fuzz0 d /\ d_fuzz1 e = d_fuzz1 d).
    { destruct (on_long c).
      - destruct (step_long_some c (i_dt i) (i_draws i) (refresh (i_dt i) d o) o G2 T2) as (o2 & E2 & _). eexists _, o2. split; [exact E2|].
        split; [exact (new_period_ok _ _ G2 T2)|]. unfold with_cur, new_period. cbn [d_slop d_fuzz0 d_fuzz1]. destruct (Expired _ _); auto.
      - eexists _, _. split; [reflexivity|]. split; [exact T2|]. auto. }
    destruct X as (e & o2 & E2 & Te & X1 & X2 & X3). rewrite E2 in E1.
    assert (Fe : fuzz_ok (15 / 2 * d_slop d * d_slop d) e) by (unfold fuzz_ok in *; rewrite X2, X3; exact F).
    destruct (on_lat c).
    + destruct (step_lat_some c (i_road i) (i_dt i) (i_draws i) e o2 G2 Te) as (d3 & o3 & E3 & _ & _ & _ & _ & _ & _ & Y0 & Y1 & _). rewrite E3 in E1.
      injection E1 as <- <-. unfold fuzz_ok. rewrite Y0, Y1. exact (new_fuzz_range _ _ e Hs X1 G2 Fe).
    + injection E1 as <- <-. exact Fe.
Qed.
Example C76_fuzz_range_ex : d_fuzz1 (new_fuzz half (Activate 1 2 (standing 10))) = 5.
Proof.
  unfold new_fuzz. replace (Expired _ _) with true; [simpl; rewrite Rmin_left by lra; unfold between; lra|]. symmetry. apply Expired_true. simpl. unfold lateralTimerAverage. rewrite small. lra.
Qed.

(** "At most about half a lane, 3.5 m": fully sloppy the driver aims at more than that in four draws of five, at 7.5 m at most. *)
Theorem C76_half_lane_refuted : forall w d, d_slop d = 1 -> Expired (d_lat d) (d_time d) = true -> 1 / 5 < w_fuzz w <= 1 ->
  7 / 2 < d_fuzz1 (new_fuzz w d) <= 15 / 2.
Proof. intros w d S0 Ex W. unfold new_fuzz. rewrite Ex. simpl. rewrite S0, Rmin_left by lra. unfold between. lra. Qed.
Example C76_half_lane_refuted_ex : 1 / 5 < w_fuzz half <= 1.
Proof. simpl. lra. Qed.

(** "The heading follows the road": overriding, the heading relative to the road is set as heading in the world. Not sloppy at all,
    in its lane and along a road that goes north, the vehicle is turned east. *)
Theorem C76_heading_refuted : forall s dt w, s = 0 -> 0 <= dt < 1 -> drawn w ->
  exists d' o', Step (Setup true false true) (PI / 2) dt w (Activate s 0 (Obj 10 false 0 0 (PI / 2) 0)) (Obj 10 false 0 0 (PI / 2) 0) = Some (d', o') /\
    o_h o' = 0 /\ o_t o' = 0.
Proof.
  intros s dt w -> Hd W. unfold Step. cbn [on_long on_lat].
  set (o := Obj 10 false 0 0 (PI / 2) 0). unfold step_lat.
  assert (Nf : new_fuzz w (refresh dt (Activate 0 0 o) o) = refresh dt (Activate 0 0 o) o).
  { unfold new_fuzz. replace (Expired _ _) with false; [reflexivity|]. symmetry. apply Expired_false. simpl. unfold lateralTimerAverage. rewrite small. lra. }
  rewrite Nf. rewrite div_some by (simpl; unfold lateralTimerAverage; lra).
  replace (Rltb SMALL_NUMBER (o_speed o)) with true by (symmetry; apply Rltb_true; simpl; rewrite small; lra).
  cbn [override]. eexists _, _. split; [reflexivity|]. cbn [SetSpeed o_h o_t].
  replace (Rltb PI (o_hrel o)) with false by (symmetry; apply Rltb_false; simpl; pose proof PI_RGT_0; lra).
  simpl. split; [unfold Rdiv; ring|].
  replace (0 + _) with 0; [reflexivity|]. symmetry.
  match goal with |- 0 + 10 * dt * sin ?x = 0 => replace x with 0 by (unfold Rdiv; ring) end. rewrite sin_0. ring.
Qed.
Example C76_heading_refuted_ex : PI / 2 <> 0.
Proof. pose proof PI_RGT_0. lra. Qed.

(** Otherwise it is added to the heading the default driver left, up to full turns. *)
Theorem C76_heading_added : forall road dt w d o d' o', 0 <= dt -> drawn w -> timers_ok d -> 1 / 1000000 < o_speed o ->
  Step (Setup false false true) road dt w d o = Some (d', o') ->
  same_angle (o_hrel o') (o_hrel o + (d_H d' - d_H d)) /\ same_angle (o_h o') (o_hrel o' + road) /\ 0 <= o_hrel o' < 2 * PI.
Proof.
  intros road dt w d o d' o' Hd W T V E. unfold Step in E. cbn [on_long on_lat] in E. pose proof (refresh_ok dt d o Hd T) as T1.
  pose proof (new_fuzz_ok w _ W T1) as (_ & _ & Fd & _). unfold step_lat in E. rewrite div_some in E by lra.
  pose proof (new_fuzz_keeps w (refresh dt d o)) as (_ & _ & _ & _ & _ & _ & _ & _ & K9).
  replace (Rltb SMALL_NUMBER (o_speed o)) with true in E by (symmetry; apply Rltb_true; rewrite small; exact V).
  cbn [override] in E. injection E as <- <-. cbn [SetSpeed o_h o_hrel d_H]. rewrite K9. cbn [refresh d_H].
  match goal with |- same_angle (GetAngleInInterval2PI (o_hrel o + ?x)) _ /\ _ => set (dh := x) end.
  replace (d_H d + dh - d_H d) with dh by ring.
  split; [apply interval2pi|]. split; [apply interval2pi|apply interval2pi].
Qed.
Example C76_heading_added_ex : 1 / 1000000 < o_speed (standing 10).
Proof. simpl. lra. Qed.


(** Within a period the speed goes straight from that at its start to the one aimed at; the reference changes only if the speed was set from outside by more than 1e-3. *)
Theorem C76_in_period : forall c road dt w d o d' o', on_long c = true -> 0 <= dt -> drawn w -> timers_ok d ->
  d_time d + dt - t_start (d_timer d) <= t_dur (d_timer d) - 1 / 1000000 -> Step c road dt w d o = Some (d', o') ->
  (1 / 1000 < Rabs (o_speed o - d_cur d) -> d_ref d' = o_speed o) /\ (Rabs (o_speed o - d_cur d) <= 1 / 1000 -> d_ref d' = d_ref d) /\
  d_timer d' = d_timer d /\ d_init d' = d_init d /\ d_factor d' = d_factor d /\
  let p := (d_time d + dt - t_start (d_timer d)) / t_dur (d_timer d) in
  o_speed o' = Rmax (d_init d + (d_factor d * d_ref d' - d_init d) * p) 0.
Proof.
  intros c road dt w d o d' o' L Hd W T X E. destruct (Step_some c road dt w d o Hd W T) as (d1 & o1 & E1 & _ & Sp & _ & _ & Lo & _).
  rewrite E in E1. injection E1 as <- <-. rewrite L in Lo. cbv zeta in Lo. destruct Lo as (L1 & L2 & L3 & L4 & L5). unfold new_period in *.
  assert (Ex : Expired (d_timer (refresh dt d o)) (d_time (refresh dt d o)) = false) by (apply Expired_false; rewrite small; exact X). rewrite Ex in *.
  split; [intros H; rewrite L2; unfold refresh; cbn [d_ref]; rewrite (proj2 (Rltb_true _ _) H); reflexivity|].
  split; [intros H; rewrite L2; unfold refresh; cbn [d_ref]; rewrite (proj2 (Rltb_false _ _) H); reflexivity|].
  split; [exact L1|]. split; [exact L3|]. split; [exact L4|]. cbv zeta. rewrite Sp, L5, L2. unfold blend, part. f_equal. cbn [refresh d_timer d_time d_init d_factor]. ring.
Qed.
Example C76_in_period_ex : 0 + 1 - 0 <= 3 - 1 / 1000000.
Proof. lra. Qed.

(** The turn of a step: against the deviation from what is aimed at and against the heading. *)
Theorem C76_turn : forall c road dt w d o d' o', on_long c = false -> on_lat c = true -> 0 <= dt -> drawn w -> timers_ok d -> 1 / 1000000 < o_speed o ->
  Step c road dt w d o = Some (d', o') ->
  let aim := d_fuzz0 d' + (d_fuzz1 d' - d_fuzz0 d') * ((d_time d + dt - t_start (d_lat d')) / t_dur (d_lat d')) in
  exists e, (let h := if override c then o_hrel o else d_H d in (h <= PI /\ e = h) \/ (PI < h /\ e = h - 2 * PI)) /\
    d_H d' = d_H d - (2 / 100 * (d_T d + aim) + 5 / 100 * e) * (o_speed o * dt).
Proof.
  intros c road dt w d o d' o' L L2 Hd W T V E. unfold Step in E. rewrite L, L2 in E. pose proof (refresh_ok dt d o Hd T) as T1.
  pose proof (new_fuzz_ok w _ W T1) as (_ & _ & Fd & _). unfold step_lat in E. rewrite div_some in E by lra.
  pose proof (new_fuzz_keeps w (refresh dt d o)) as (_ & K2 & _ & _ & _ & _ & _ & K8 & K9).
  replace (Rltb SMALL_NUMBER (o_speed o)) with true in E by (symmetry; apply Rltb_true; rewrite small; exact V).
  assert (Y : exists h, h = (if override c then o_hrel o else d_H d) /\ forall F, (if Rltb PI (if override c then o_hrel o else d_H (new_fuzz w (refresh dt d o))) then (if override c then o_hrel o else d_H (new_fuzz w (refresh dt d o))) - 2 * PI else (if override c then o_hrel o else d_H (new_fuzz w (refresh dt d o)))) = F -> (h <= PI /\ F = h) \/ (PI < h /\ F = h - 2 * PI)).
  { clear E. eexists. split; [reflexivity|]. intros F <-. rewrite K9. cbn [refresh d_H].
    destruct (Rltb PI _) eqn:S; [apply Rltb_true in S; right|apply Rltb_false in S; left]; auto. }
  destruct Y as (h & Eh & Y). cbv zeta. eexists. split; [rewrite <- Eh; apply Y; reflexivity|].
  destruct (override c); injection E as <- <-; cbn [d_H d_fuzz0 d_fuzz1 d_lat]; rewrite K9, K8; cbn [refresh d_H d_T]; unfold Elapsed;
    rewrite K2; cbn [refresh d_time]; field; lra.
Qed.
Example C76_turn_ex : 2 / 100 * (0 + 5) + 5 / 100 * 0 = 1 / 10.
Proof. lra. Qed.

(** A new deviation is drawn when the last one is reached, and not before. *)
Theorem C76_fuzz_draw : forall c road dt w d o d' o', on_lat c = true -> 0 <= dt -> drawn w -> timers_ok d -> Step c road dt w d o = Some (d', o') ->
  (t_dur (d_lat d) - 1 / 1000000 < d_time d + dt - t_start (d_lat d) ->
     d_fuzz0 d' = d_fuzz1 d /\ d_fuzz1 d' = 5 * d_slop d * Rmin (d_slop d) 1 * (1 / 2 + w_fuzz w) /\ d_lat d' = Timer (d_time d + dt) (3 / 4 + 3 / 2 * w_lat w)) /\
  (d_time d + dt - t_start (d_lat d) <= t_dur (d_lat d) - 1 / 1000000 -> d_fuzz0 d' = d_fuzz0 d /\ d_fuzz1 d' = d_fuzz1 d /\ d_lat d' = d_lat d).
Proof.
  intros c road dt w d o d' o' L Hd W T E. unfold Step in E. pose proof (refresh_ok dt d o Hd T) as T1.
  assert (X : exists e o1, (if on_long c then step_long c dt w (refresh dt d o) o else Some (refresh dt d o, o)) = Some (e, o1) /\ timers_ok e /\
     d_lat e = d_lat d /\ d_time e = d_time d + dt /\ d_slop e = d_slop d /\ d_fuzz0 e = d_fuzz0 d /\ d_fuzz1 e = d_fuzz1 d).
  { destruct (on_long c).
    - destruct (step_long_some c dt w (refresh dt d o) o W T1) as (o1 & E1 & _). eexists _, o1. split; [exact E1|].
      split; [exact (new_period_ok w _ W T1)|]. unfold with_cur, new_period. cbn [d_lat d_time d_slop d_fuzz0 d_fuzz1]. destruct (Expired _ _); repeat split.
    - eexists _, _. split; [reflexivity|]. split; [exact T1|]. repeat split. }
  destruct X as (e & o1 & E1 & Te & X1 & X2 & X3 & X4 & X5). rewrite E1, L in E. clear E1.
  destruct (step_lat c road dt w e o1) as [(d2, o2)|] eqn:E2; [|discriminate]. injection E as <- <-.
  assert (Y : d_fuzz0 d2 = d_fuzz0 (new_fuzz w e) /\ d_fuzz1 d2 = d_fuzz1 (new_fuzz w e) /\ d_lat d2 = d_lat (new_fuzz w e)).
  { pose proof (new_fuzz_ok w e W Te) as (_ & _ & Fd & _). unfold step_lat in E2. rewrite div_some in E2 by lra.
    destruct (Rltb SMALL_NUMBER (o_speed o1)); [destruct (override c)|]; injection E2 as <- <-; repeat split. }
  destruct Y as (-> & -> & ->). unfold new_fuzz. split; intros H.
  - assert (Ex : Expired (d_lat e) (d_time e) = true) by (apply Expired_true; rewrite X1, X2; exact H). rewrite Ex. cbn [d_fuzz0 d_fuzz1 d_lat].
    rewrite X2, X3, X5. split; [reflexivity|]. split; [unfold between; field|]. f_equal. unfold lateralTimerAverage, between. field.
  - assert (Ex : Expired (d_lat e) (d_time e) = false) by (apply Expired_false; rewrite X1, X2; exact H). rewrite Ex. auto.
Qed.
Example C76_fuzz_draw_ex : t_dur (d_lat (Activate 1 0 (standing 10))) - 1 / 1000000 < 0 + 3 / 2 - 0.
Proof. simpl. unfold lateralTimerAverage. lra. Qed.

(** Activated, the driver goes on as the vehicle went: its speed, its heading along the road, no deviation. *)
Theorem C76_activate : forall s time o, let d := Activate s time o in
  d_ref d = o_speed o /\ d_cur d = o_speed o /\ d_init d = o_speed o /\ d_factor d = 1 /\ d_H d = o_hrel o /\ d_T d = 0 /\ d_fuzz0 d = 0 /\ d_fuzz1 d = 0 /\
  d_slop d = s /\ d_time d = time /\ d_timer d = Timer 0 3 /\ d_lat d = Timer 0 (3 / 2).
Proof. intros s time o. cbv zeta. repeat split. Qed.
Example C76_activate_ex : d_ref (Activate 1 0 (standing 10)) = 10.
Proof. reflexivity. Qed.

Print Assumptions C76_defined.
Print Assumptions C76_speed_band.
Print Assumptions C76_not_sloppy.
Print Assumptions C76_smooth.
Print Assumptions C76_period_end.
Print Assumptions C76_set_speed_refuted.
Print Assumptions C76_not_negative.
Print Assumptions C76_reverse_refuted.
Print Assumptions C76_distance.
Print Assumptions C76_domains.
Print Assumptions C76_lateral_account.
Print Assumptions C76_lateral_step.
Print Assumptions C76_fuzz_range.
Print Assumptions C76_half_lane_refuted.
Print Assumptions C76_heading_refuted.
Print Assumptions C76_heading_added.
Print Assumptions C76_in_period.
Print Assumptions C76_turn.
Print Assumptions C76_fuzz_draw.
Print Assumptions C76_activate.
