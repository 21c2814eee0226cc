(** * Proofs about the sloppy driver *)
From Coq Require Import Reals Bool List Lra.
From Verif Require Import AngModel AngProofs SlopModel.
Import ListNotations.
Open Scope R_scope.

(** ** What is said *)

(** Numbers drawn between 0 and 1. *)
Definition drawn (w : draws) : Prop := 0 <= w_time w <= 1 /\ 0 <= w_factor w <= 1 /\ 0 <= w_fuzz w <= 1 /\ 0 <= w_lat w <= 1.

(** Steps with nobody else at the controls. *)
Record input := Input { i_road : R; i_dt : R; i_draws : draws }.
Definition good (i : input) : Prop := 0 <= i_dt i /\ drawn (i_draws i).
Fixpoint run (c : setup) (l : list input) (d : drv) (o : obj) : option (drv * obj) :=
  match l with
  | [] => Some (d, o)
  | i :: r => match Step c (i_road i) (i_dt i) (i_draws i) d o with None => None | Some (d, o) => run c r d o end
  end.

(** ** Timers *)
Definition timers_ok (d : drv) : Prop :=
  3 / 2 <= t_dur (d_timer d) /\ t_start (d_timer d) <= d_time d /\ 3 / 4 <= t_dur (d_lat d) /\ t_start (d_lat d) <= d_time d.

Lemma small : SMALL_NUMBER = 1 / 1000000.
Proof. reflexivity. Qed.

Lemma div_some : forall x y, 0 < y -> div x y = Some (x / y).
Proof. intros x y H. unfold div. destruct (Req_EM_T y 0); [lra|reflexivity]. Qed.

Lemma Expired_false : forall t now, Expired t now = false <-> now - t_start t <= t_dur t - SMALL_NUMBER.
Proof. intros t now. unfold Expired. rewrite Rltb_false. split; intros; lra. Qed.

Lemma Expired_true : forall t now, Expired t now = true <-> t_dur t - SMALL_NUMBER < now - t_start t.
Proof. intros t now. unfold Expired. rewrite Rltb_true. reflexivity. Qed.

Lemma between_range : forall a b u, a <= b -> 0 <= u <= 1 -> a <= between a b u <= b.
Proof.
  intros a b u H U. unfold between. assert (0 <= u * (b - a)) by (apply Rmult_le_pos; lra).
  assert (u * (b - a) <= 1 * (b - a)) by (apply Rmult_le_compat_r; lra). lra.
Qed.

Lemma refresh_ok : forall dt d o, 0 <= dt -> timers_ok d -> timers_ok (refresh dt d o).
Proof. intros dt d o H (A & B & C & D). unfold timers_ok, refresh. simpl. repeat split; lra. Qed.

Lemma new_period_ok : forall w d, drawn w -> timers_ok d -> timers_ok (new_period w d).
Proof.
  intros w d (W & _) (A & B & C & D). unfold new_period. destruct (Expired _ _); [|unfold timers_ok; auto].
  unfold timers_ok. simpl. pose proof (between_range (1 / 2) (3 / 2) (w_time w) ltac:(lra) W). unfold speedTimerAverage. repeat split; lra.
Qed.

Lemma new_fuzz_ok : forall w d, drawn w -> timers_ok d -> timers_ok (new_fuzz w d).
Proof.
  intros w d (_ & _ & _ & W) (A & B & C & D). unfold new_fuzz. destruct (Expired _ _); [|unfold timers_ok; auto].
  unfold timers_ok. simpl. pose proof (between_range (1 / 2) (3 / 2) (w_lat w) ltac:(lra) W). unfold lateralTimerAverage. repeat split; lra.
Qed.

(** The part of the way through a period. *)
Definition part (d : drv) : R := (d_time d - t_start (d_timer d)) / t_dur (d_timer d).

Lemma new_period_part : forall w d, drawn w -> timers_ok d -> 0 <= part (new_period w d) < 1 /\ Expired (d_timer (new_period w d)) (d_time (new_period w d)) = false.
Proof.
  intros w d W T. pose proof (new_period_ok w d W T) as (A & B & _). unfold part, new_period in *. destruct (Expired (d_timer d) (d_time d)) eqn:E; simpl in *.
  - assert (0 < speedTimerAverage * between (1 / 2) (3 / 2) (w_time w)) by lra. split.
    + unfold Rdiv. rewrite Rminus_diag_eq by reflexivity. lra.
    + apply Expired_false. simpl. rewrite small. lra.
  - split; [|exact E]. apply Expired_false in E. rewrite small in E. split.
    + apply Rmult_le_reg_r with (t_dur (d_timer d)); [lra|]. unfold Rdiv. rewrite Rmult_assoc, Rinv_l by lra. lra.
    + apply Rmult_lt_reg_r with (t_dur (d_timer d)); [lra|]. unfold Rdiv. rewrite Rmult_assoc, Rinv_l by lra. lra.
Qed.

(** ** The parts of a step *)
Definition blend (d : drv) : R := d_init d * (1 - part d) + d_factor d * d_ref d * part d.

Lemma step_long_some : forall c dt w d o, drawn w -> timers_ok d ->
  exists o', step_long c dt w d o = Some (with_cur (Rmax (blend (new_period w d)) 0) (new_period w d), o') /\
    o_t o' = o_t o /\ o_h o' = o_h o /\ o_hrel o' = o_hrel o /\
    o_speed o' = (if override c then Rmax (blend (new_period w d)) 0 else o_speed o).
Proof.
  intros c dt w d o W T. pose proof (new_period_ok w d W T) as (A & _). unfold step_long.
  rewrite div_some by lra. unfold blend, part, Elapsed.
  destruct (override c).
  - eexists. split; [reflexivity|]. destruct (Rltb SMALL_NUMBER _); repeat split.
  - destruct (o_dirty o); (eexists; split; [reflexivity|]; destruct (Rltb SMALL_NUMBER _); repeat split).
Qed.

Lemma new_fuzz_keeps : forall w d, let d' := new_fuzz w d in
  d_slop d' = d_slop d /\ d_time d' = d_time d /\ d_timer d' = d_timer d /\ d_ref d' = d_ref d /\ d_init d' = d_init d /\ d_cur d' = d_cur d /\
  d_factor d' = d_factor d /\ d_T d' = d_T d /\ d_H d' = d_H d.
Proof. intros w d d'. subst d'. unfold new_fuzz. destruct (Expired _ _); repeat split. Qed.

(** What of the driver has to do with speed. *)
Definition same_speed (d d' : drv) : Prop :=
  d_slop d' = d_slop d /\ d_time d' = d_time d /\ d_timer d' = d_timer d /\ d_ref d' = d_ref d /\ d_init d' = d_init d /\ d_cur d' = d_cur d /\ d_factor d' = d_factor d.

Lemma step_lat_some : forall c road dt w d o, drawn w -> timers_ok d ->
  exists d' o', step_lat c road dt w d o = Some (d', o') /\ same_speed d d' /\ timers_ok d' /\
    o_speed o' = o_speed o /\ o_s o' = o_s o /\ o_dirty o' = o_dirty o /\ d_lat d' = d_lat (new_fuzz w d) /\
    d_fuzz0 d' = d_fuzz0 (new_fuzz w d) /\ d_fuzz1 d' = d_fuzz1 (new_fuzz w d) /\ o_t o' - d_T d' = o_t o - d_T d.
Proof.
  intros c road dt w d o W T. pose proof (new_fuzz_ok w d W T) as OK. pose proof OK as (_ & _ & A & _).
  pose proof (new_fuzz_keeps w d) as K. unfold step_lat. rewrite div_some by lra. destruct K as (K1 & K2 & K3 & K4 & K5 & K6 & K7 & K8 & K9).
  destruct (Rltb SMALL_NUMBER (o_speed o)).
  - destruct (override c); (eexists _, _; split; [reflexivity|]; unfold same_speed, timers_ok in *; simpl; repeat (split; [assumption || reflexivity || tauto|]); rewrite K8; lra).
  - eexists _, _. split; [reflexivity|]. unfold same_speed. repeat (split; [assumption || reflexivity || tauto|]). rewrite K8. reflexivity.
Qed.

(** A step never fails and leaves the timers right. *)
Lemma Step_some : forall c road dt w d o, 0 <= dt -> drawn w -> timers_ok d ->
  exists d' o', Step c road dt w d o = Some (d', o') /\ timers_ok d' /\ o_speed o' = d_cur d' /\
    d_time d' = d_time d + dt /\ d_slop d' = d_slop d /\
    (if on_long c then
       let e := new_period w (refresh dt d o) in
       d_timer d' = d_timer e /\ d_ref d' = d_ref e /\ d_init d' = d_init e /\ d_factor d' = d_factor e /\ d_cur d' = Rmax (blend e) 0
     else d_ref d' = d_ref (refresh dt d o) /\ d_cur d' = o_speed o /\ o_s o' = o_s o) /\
    (if on_lat c then True else o_t o' = o_t o /\ o_h o' = o_h o /\ o_hrel o' = o_hrel o /\ d_T d' = d_T d /\ d_H d' = d_H d) /\
    o_t o' - d_T d' = o_t o - d_T d.
Proof.
  intros c road dt w d o H W T. unfold Step. pose proof (refresh_ok dt d o H T) as T1.
  assert (X : exists d1 o1, (if on_long c then step_long c dt w (refresh dt d o) o else Some (refresh dt d o, o)) = Some (d1, o1) /\ timers_ok d1 /\
    d_time d1 = d_time d + dt /\ d_slop d1 = d_slop d /\
    (if on_long c then let e := new_period w (refresh dt d o) in
       d_timer d1 = d_timer e /\ d_ref d1 = d_ref e /\ d_init d1 = d_init e /\ d_factor d1 = d_factor e /\ d_cur d1 = Rmax (blend e) 0
     else d_ref d1 = d_ref (refresh dt d o) /\ d_cur d1 = o_speed o /\ o_s o1 = o_s o) /\
    o_t o1 = o_t o /\ o_h o1 = o_h o /\ o_hrel o1 = o_hrel o /\ d_T d1 = d_T d /\ d_H d1 = d_H d).
  { destruct (on_long c).
    - destruct (step_long_some c dt w (refresh dt d o) o W T1) as (o1 & E & A1 & A2 & A3 & _). eexists _, o1. split; [exact E|].
      pose proof (new_period_ok w _ W T1) as T2. split; [exact T2|].
      assert (P : d_time (new_period w (refresh dt d o)) = d_time d + dt /\ d_slop (new_period w (refresh dt d o)) = d_slop d /\
                  d_T (new_period w (refresh dt d o)) = d_T d /\ d_H (new_period w (refresh dt d o)) = d_H d)
        by (unfold new_period; destruct (Expired _ _); repeat split).
      destruct P as (P1 & P2 & P3 & P4). unfold with_cur. cbn [d_time d_slop d_timer d_ref d_init d_factor d_cur d_T d_H]. auto 15.
    - eexists _, _. split; [reflexivity|]. unfold refresh. simpl. split; [exact T1|]. auto 12. }
  destruct X as (d1 & o1 & -> & T2 & B1 & B2 & B3 & B4 & B5 & B6 & B7 & B8).
  destruct (on_lat c).
  - destruct (step_lat_some c road dt w d1 o1 W T2) as (d2 & o2 & -> & (C1 & C2 & C3 & C4 & C5 & C6 & C7) & T3 & D1 & D2 & D3 & _ & _ & _ & D4).
    eexists _, _. split; [reflexivity|]. split; [exact T3|]. split; [reflexivity|]. split; [congruence|]. split; [congruence|]. split.
    { destruct (on_long c); simpl in *; [destruct B3 as (X1 & X2 & X3 & X4 & X5); repeat split; congruence|destruct B3 as (X1 & X2 & X3); repeat split; congruence]. }
    split; [exact I|]. simpl. rewrite D4. congruence.
  - eexists _, _. split; [reflexivity|]. split; [exact T2|]. split; [reflexivity|]. split; [congruence|]. split; [congruence|]. split; [exact B3|].
    simpl. split; [repeat split; congruence|]. congruence.
Qed.

(** ** The speed *)
Definition in_band (s v x : R) : Prop := v * (1 - 35 / 100 * s) <= x <= v * (1 + 35 / 100 * s).

Record inv (s v : R) (d : drv) (o : obj) : Prop := Inv {
  inv_timers : timers_ok d;
  inv_slop : d_slop d = s;
  inv_ref : d_ref d = v;
  inv_init : in_band s v (d_init d);
  inv_factor : 1 - 35 / 100 * s <= d_factor d <= 1 + 35 / 100 * s;
  inv_cur : o_speed o = d_cur d;
  inv_blend : d_cur d = blend d;
  inv_part : d_init d = d_factor d * v \/ d_time d - t_start (d_timer d) <= t_dur (d_timer d) - SMALL_NUMBER }.

Lemma factor_band : forall s v f, 0 <= v -> 1 - 35 / 100 * s <= f <= 1 + 35 / 100 * s -> in_band s v (f * v).
Proof. intros s v f V F. unfold in_band. rewrite (Rmult_comm f v). split; apply Rmult_le_compat_l; lra. Qed.

Lemma convex : forall a b x y p, a <= x <= b -> a <= y <= b -> 0 <= p <= 1 -> a <= x * (1 - p) + y * p <= b.
Proof.
  intros a b x y p X Y P.
  assert (0 <= (x - a) * (1 - p)) by (apply Rmult_le_pos; lra). assert (0 <= (y - a) * p) by (apply Rmult_le_pos; lra).
  assert (0 <= (b - x) * (1 - p)) by (apply Rmult_le_pos; lra). assert (0 <= (b - y) * p) by (apply Rmult_le_pos; lra). lra.
Qed.

Lemma refresh_ref : forall dt d o, o_speed o = d_cur d -> d_ref (refresh dt d o) = d_ref d.
Proof.
  intros dt d o H. unfold refresh. simpl. replace (Rltb (1 / 1000) _) with false; [reflexivity|]. symmetry. apply Rltb_false.
  rewrite H, Rminus_diag_eq, Rabs_R0 by reflexivity. lra.
Qed.

(** The driver at the beginning of a period or within one, after a step. *)
Lemma period_inv : forall s v dt w d o, 0 <= s <= 1 -> 0 <= v -> 0 <= dt -> drawn w -> inv s v d o ->
  let e := new_period w (refresh dt d o) in
  d_ref e = v /\ in_band s v (d_init e) /\ (1 - 35 / 100 * s <= d_factor e <= 1 + 35 / 100 * s) /\ in_band s v (blend e) /\ 0 <= blend e /\
  Rabs (blend e - d_cur d) <= 7 / 10 * s * v * (dt + SMALL_NUMBER) / (3 / 2).
Proof.
  intros s v dt w d o Hs V Hd W [T S0 R0 I0 F0 C0 B0 P0] e.
  pose proof (refresh_ok dt d o Hd T) as T1. pose proof (refresh_ref dt d o C0) as R1. pose proof (new_period_part w _ W T1) as (PR & _).
  fold e in PR. assert (Er : d_ref e = v) by (unfold e, new_period; destruct (Expired _ _); cbn [d_ref]; rewrite R1; exact R0).
  assert (Ei : in_band s v (d_init e)).
  { unfold e, new_period; destruct (Expired _ _); [|exact I0]. cbn [d_init]. rewrite R1, R0, Rmult_comm. apply factor_band; [exact V|exact F0]. }
  assert (Ef : 1 - 35 / 100 * s <= d_factor e <= 1 + 35 / 100 * s).
  { unfold e, new_period; destruct (Expired _ _); [|exact F0]. cbn [d_factor]. destruct W as (_ & W2 & _).
    pose proof (between_range (- (35 / 100)) (35 / 100) (w_factor w) ltac:(lra) W2) as Bw. change (d_slop (refresh dt d o)) with (d_slop d). rewrite S0.
    assert (s * - (35 / 100) <= s * between (- (35 / 100)) (35 / 100) (w_factor w)) by (apply Rmult_le_compat_l; lra).
    assert (s * between (- (35 / 100)) (35 / 100) (w_factor w) <= s * (35 / 100)) by (apply Rmult_le_compat_l; lra). lra. }
  assert (Eb : in_band s v (blend e)).
  { unfold blend. rewrite Er. apply convex; [exact Ei|apply factor_band; assumption|lra]. }
  split; [exact Er|]. split; [exact Ei|]. split; [exact Ef|]. split; [exact Eb|]. split.
  { destruct Eb as [Eb _]. assert (0 <= v * (1 - 35 / 100 * s)) by (apply Rmult_le_pos; lra). lra. }
  (* the change of speed *)
  pose proof (factor_band s v (d_factor d) V F0) as Fb. destruct T as (Ta & Tb & _).
  assert (G : Rabs (d_factor d * v - d_init d) <= 7 / 10 * s * v).
  { destruct Fb, I0. apply Rabs_le. split; lra. }
  assert (G0 : 0 <= 7 / 10 * s * v) by (apply Rmult_le_pos; lra).
  set (D := t_dur (d_timer d)) in *. set (X := d_time d - t_start (d_timer d)) in *.
  assert (Cd : d_cur d = d_init d + (d_factor d * v - d_init d) * (X / D)) by (rewrite B0; unfold blend, part; rewrite R0; fold D X; lra).
  assert (Sm : 0 < SMALL_NUMBER) by (rewrite small; lra).
  assert (Q : forall z, 0 <= z <= (dt + SMALL_NUMBER) / D -> Rabs (d_factor d * v - d_init d) * z <= 7 / 10 * s * v * (dt + SMALL_NUMBER) / (3 / 2)).
  { intros z Z. apply Rle_trans with (7 / 10 * s * v * ((dt + SMALL_NUMBER) / (3 / 2))).
    - apply Rmult_le_compat; [apply Rabs_pos|lra|exact G|]. apply Rle_trans with (1 := proj2 Z). unfold Rdiv. apply Rmult_le_compat_l; [lra|].
      apply Rinv_le_contravar; lra.
    - apply Req_le. unfold Rdiv. ring. }
  unfold e, new_period. destruct (Expired (d_timer (refresh dt d o)) (d_time (refresh dt d o))) eqn:Ex.
  - apply Expired_true in Ex. cbn [refresh d_timer d_time] in Ex. fold D in Ex. unfold blend, part. cbn [d_init d_factor d_ref d_time d_timer t_start t_dur]. rewrite R1, R0.
    replace (d_time (refresh dt d o) - d_time (refresh dt d o)) with 0 by ring. repeat match goal with |- context [0 / ?y] => replace (0 / y) with 0 by (unfold Rdiv; ring) end.
    change (d_factor (refresh dt d o)) with (d_factor d).
    replace (v * d_factor d * (1 - 0) + _ - d_cur d) with ((d_factor d * v - d_init d) * (1 - X / D)) by (rewrite Cd; ring).
    rewrite Rabs_mult. destruct P0 as [P0|P0].
    + rewrite P0, Rminus_diag_eq, Rabs_R0, Rmult_0_l by reflexivity. unfold Rdiv. apply Rmult_le_pos; [apply Rmult_le_pos; lra|lra].
    + assert (X1 : 1 - X / D = (D - X) / D) by (field; lra). rewrite X1.
      assert (Y : 0 <= (D - X) / D <= (dt + SMALL_NUMBER) / D).
      { unfold Rdiv. split; [apply Rmult_le_pos; [lra|left; apply Rinv_0_lt_compat; lra]|]. apply Rmult_le_compat_r; [left; apply Rinv_0_lt_compat; lra|]. unfold X. lra. }
      rewrite (Rabs_right ((D - X) / D)) by lra. apply Q. exact Y.
  - unfold blend, part. rewrite R1, R0. cbn [refresh d_init d_factor d_time d_timer]. fold D.
    replace (d_time d + dt - t_start (d_timer d)) with (X + dt) by (unfold X; ring).
    replace (_ - d_cur d) with ((d_factor d * v - d_init d) * (dt / D)) by (rewrite Cd; field; lra).
    rewrite Rabs_mult. assert (Y : 0 <= dt / D <= (dt + SMALL_NUMBER) / D).
    { unfold Rdiv. split; [apply Rmult_le_pos; [lra|left; apply Rinv_0_lt_compat; lra]|]. apply Rmult_le_compat_r; [left; apply Rinv_0_lt_compat; lra|lra]. }
    rewrite (Rabs_right (dt / D)) by lra. apply Q. exact Y.
Qed.

Lemma Step_inv : forall c s v road dt w d o, on_long c = true -> 0 <= s <= 1 -> 0 <= v -> 0 <= dt -> drawn w -> inv s v d o ->
  exists d' o', Step c road dt w d o = Some (d', o') /\ inv s v d' o' /\ in_band s v (o_speed o') /\
    Rabs (o_speed o' - o_speed o) <= 7 / 10 * s * v * (dt + SMALL_NUMBER) / (3 / 2).
Proof.
  intros c s v road dt w d o L Hs V Hd W HI. destruct (period_inv s v dt w d o Hs V Hd W HI) as (Er & Ei & Ef & Eb & E0 & Es).
  destruct HI as [T S0 R0 I0 F0 C0 B0 P0]. destruct (Step_some c road dt w d o Hd W T) as (d' & o' & E & T' & Sp & Ti & Sl & Lo & _).
  rewrite L in Lo. cbv zeta in Lo. destruct Lo as (L1 & L2 & L3 & L4 & L5).
  pose proof (new_period_part w _ W (refresh_ok dt d o Hd T)) as (_ & Ex). set (e := new_period w (refresh dt d o)) in *.
  assert (Te : d_time e = d_time d') by (rewrite Ti; clear; unfold e, new_period; destruct (Expired (d_timer (refresh dt d o)) (d_time (refresh dt d o))); reflexivity).
  assert (Bl : blend d' = blend e) by (unfold blend, part; rewrite L1, L2, L3, L4, Te; reflexivity).
  rewrite Rmax_left in L5 by exact E0. exists d', o'. split; [exact E|]. split.
  - constructor; [exact T'|congruence|congruence|rewrite L3; exact Ei|rewrite L4; exact Ef|congruence|congruence|]. right. rewrite L1, <- Te. apply Expired_false in Ex. exact Ex.
  - rewrite Sp, L5, C0. split; [exact Eb|exact Es].
Qed.

Lemma Activate_inv : forall s time o, 0 <= s <= 1 -> 0 <= time -> 0 <= o_speed o -> inv s (o_speed o) (Activate s time o) o.
Proof.
  intros s time o Hs Ht Hv. constructor; simpl; try reflexivity.
  - unfold timers_ok. simpl. unfold speedTimerAverage, lateralTimerAverage. repeat split; lra.
  - unfold in_band. assert (0 <= o_speed o * (35 / 100 * s)) by (apply Rmult_le_pos; lra). lra.
  - lra.
  - unfold blend. simpl. ring.
  - left. ring.
Qed.

Lemma run_inv : forall c s v l d o, on_long c = true -> 0 <= s <= 1 -> 0 <= v -> Forall good l -> inv s v d o ->
  exists d' o', run c l d o = Some (d', o') /\ inv s v d' o' /\ (in_band s v (o_speed o) -> in_band s v (o_speed o')).
Proof.
  intros c s v l. induction l as [|i l IH]; intros d o L Hs V G HI.
  - exists d, o. auto.
  - inversion G as [|? ? [G1 G2] G3]; subst. simpl.
    destruct (Step_inv c s v (i_road i) (i_dt i) (i_draws i) d o L Hs V G1 G2 HI) as (d1 & o1 & -> & I1 & B1 & _).
    destruct (IH d1 o1 L Hs V G3 I1) as (d2 & o2 & E & I2 & B2). exists d2, o2. auto.
Qed.

(** ** Sideways *)
Definition fuzz_ok (m : R) (d : drv) : Prop := 0 <= d_fuzz0 d <= m /\ 0 <= d_fuzz1 d <= m.

Lemma new_fuzz_range : forall s w d, 0 <= s <= 1 -> d_slop d = s -> drawn w -> fuzz_ok (15 / 2 * s * s) d -> fuzz_ok (15 / 2 * s * s) (new_fuzz w d).
Proof.
  intros s w d Hs S0 (_ & _ & W & _) (A & B). unfold new_fuzz. destruct (Expired _ _); [|split; assumption]. unfold fuzz_ok. simpl. split; [exact B|].
  rewrite S0, Rmin_left by lra. pose proof (between_range (1 / 2) (3 / 2) (w_fuzz w) ltac:(lra) W) as Bw.
  assert (0 <= s * s) by (apply Rmult_le_pos; lra). split; [apply Rmult_le_pos; [lra|lra]|].
  replace (15 / 2 * s * s) with (5 * s * s * (3 / 2)) by field. apply Rmult_le_compat_l; lra.
Qed.
