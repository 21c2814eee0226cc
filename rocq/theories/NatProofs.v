(** * Lemmas on the natural driver *)
From Coq Require Import Reals Bool List ZArith NArith Lra Lia Psatz.
From Verif Require Import AngModel GeoModel BoxProofs GapModel GapProofs CacheModel CacheProofs NatModel.
Import ListNotations.
Open Scope R_scope.

(** ** Specification *)

(** In which lane a vehicle has to be for a kind of interest, seen from the driver, and whether ahead. *)
Definition of_lane (v : view) (self : Z) (k : voi) (o : Z) : Prop :=
  let dl := fst (v_delta v self o true) in
  match k with
  | LEAD | FOLLOWING => dl = 0%Z
  | LEFT_LEAD | LEFT_FOLLOW => dl = side (v_lane v self)
  | RIGHT_LEAD | RIGHT_FOLLOW => dl = (- side (v_lane v self))%Z
  end.
Definition in_front (k : voi) : bool := match k with LEAD | LEFT_LEAD | RIGHT_LEAD => true | _ => false end.

(** Distances along the road of the vehicle of interest: none nearer on its side. *)
Definition closest_of (v : view) (self : Z) (k : voi) (near : list Z) (r : option (Z * R)) : Prop :=
  let ds o := snd (v_delta v self o true) in
  match r with
  | None => forall o, In o near -> of_lane v self k o -> if in_front k then ds o < 0 else 0 <= ds o
  | Some (o, d) => In o near /\ of_lane v self k o /\ d = ds o /\
      if in_front k then 0 <= d /\ (forall o', In o' near -> of_lane v self k o' -> 0 <= ds o' -> d <= ds o')
      else d < 0 /\ (forall o', In o' near -> of_lane v self k o' -> ds o' < 0 -> ds o' <= d)
  end.

(** ** Vehicles of interest *)

Lemma side_cases l : side l = 1%Z \/ side l = (-1)%Z.
Proof. unfold side. destruct (l <? 0)%Z; auto. Qed.

Lemma of_lane_dec v self k o : {of_lane v self k o} + {~ of_lane v self k o}.
Proof. unfold of_lane. destruct k; apply Z.eq_dec. Qed.

Definition pick_ahead (old : option (Z * R)) (o : Z) (ds : R) : option (Z * R) :=
  if Rltb ds 0 then old else match old with None => Some (o, ds) | Some (_, d) => if Rltb ds d then Some (o, ds) else old end.
Definition pick_behind (old : option (Z * R)) (o : Z) (ds : R) : option (Z * R) :=
  if Rltb ds 0 then match old with None => Some (o, ds) | Some (_, d) => if Rltb d ds then Some (o, ds) else old end else old.

Lemma ahead_slot s o ds k k' : FindClosestAhead s o ds k k' = if voi_eqb k' k then pick_ahead (s k) o ds else s k'.
Proof.
  unfold FindClosestAhead, pick_ahead. destruct (Rltb ds 0).
  - destruct (voi_eqb k' k) eqn:E; [|reflexivity]. destruct k', k; try discriminate; reflexivity.
  - destruct (s k) as [[x d]|] eqn:S; [destruct (Rltb ds d)|]; unfold set_slot; destruct (voi_eqb k' k) eqn:E; try reflexivity. rewrite <- S. destruct k', k; try discriminate; reflexivity.
Qed.

Lemma behind_slot s o ds k k' : FindClosestBehind s o ds k k' = if voi_eqb k' k then pick_behind (s k) o ds else s k'.
Proof.
  unfold FindClosestBehind, pick_behind. destruct (Rltb ds 0).
  - destruct (s k) as [[x d]|] eqn:S; [destruct (Rltb d ds)|]; unfold set_slot; destruct (voi_eqb k' k) eqn:E; try reflexivity. rewrite <- S. destruct k', k; try discriminate; reflexivity.
  - destruct (voi_eqb k' k) eqn:E; [|reflexivity]. destruct k', k; try discriminate; reflexivity.
Qed.

Lemma place_slot v self s o k : place v self s o k =
  if of_lane_dec v self k o then (if in_front k then pick_ahead (s k) o (snd (v_delta v self o true)) else pick_behind (s k) o (snd (v_delta v self o true))) else s k.
Proof.
  unfold place. destruct (of_lane_dec v self k o) as [H|H]; unfold of_lane in H; destruct (v_delta v self o true) as [dl ds]; cbn [fst snd] in *; pose proof (side_cases (v_lane v self)) as SC; set (sd := side (v_lane v self)) in *; clearbody sd;
    destruct (Z.eqb_spec dl 0) as [E0|E0]; [|destruct (Z.eqb_spec (dl * sd) 1) as [E1|E1]; [|destruct (Z.eqb_spec (dl * sd) (-1)) as [E2|E2]]| |destruct (Z.eqb_spec (dl * sd) 1) as [E1|E1]; [|destruct (Z.eqb_spec (dl * sd) (-1)) as [E2|E2]]];
    rewrite ?behind_slot, ?ahead_slot; destruct k; cbn [in_front voi_eqb]; try reflexivity; exfalso; destruct SC as [SC|SC]; subst sd; lia.
Qed.

Lemma slots_closest v self near k : closest_of v self k near (fold_left (place v self) near (fun _ => None) k).
Proof.
  induction near as [|o near IH] using rev_ind; [cbn; intros o []|]. rewrite fold_left_app. cbn [fold_left]. rewrite place_slot. set (s := fold_left _ near _) in *. clearbody s.
  destruct (of_lane_dec v self k o) as [H|H].
  - unfold closest_of in *. destruct (in_front k).
    + unfold pick_ahead. destruct (Rltb_spec (snd (v_delta v self o true)) 0) as [L|L].
      * destruct (s k) as [[x d]|].
        -- destruct IH as (I & OL & E & P & M). split; [apply in_or_app; auto|]. split; [exact OL|]. split; [exact E|]. split; [exact P|]. intros o' I' OL' P'. apply in_app_or in I'. destruct I' as [I'|[<-|[]]]; [apply M; assumption|lra].
        -- intros o' I' OL'. apply in_app_or in I'. destruct I' as [I'|[<-|[]]]; [apply IH; assumption|exact L].
      * destruct (s k) as [[x d]|].
        -- destruct IH as (I & OL & E & P & M). destruct (Rltb_spec (snd (v_delta v self o true)) d) as [L2|L2].
           ++ split; [apply in_or_app; right; left; reflexivity|]. split; [exact H|]. split; [reflexivity|]. split; [lra|]. intros o' I' OL' P'. apply in_app_or in I'. destruct I' as [I'|[<-|[]]]; [specialize (M o' I' OL' P'); lra|lra].
           ++ split; [apply in_or_app; auto|]. split; [exact OL|]. split; [exact E|]. split; [exact P|]. intros o' I' OL' P'. apply in_app_or in I'. destruct I' as [I'|[<-|[]]]; [apply M; assumption|lra].
        -- split; [apply in_or_app; right; left; reflexivity|]. split; [exact H|]. split; [reflexivity|]. split; [lra|]. intros o' I' OL' P'. apply in_app_or in I'. destruct I' as [I'|[<-|[]]]; [specialize (IH o' I' OL'); cbv beta in IH; lra|lra].
    + unfold pick_behind. destruct (Rltb_spec (snd (v_delta v self o true)) 0) as [L|L].
      * destruct (s k) as [[x d]|].
        -- destruct IH as (I & OL & E & P & M). destruct (Rltb_spec d (snd (v_delta v self o true))) as [L2|L2].
           ++ split; [apply in_or_app; right; left; reflexivity|]. split; [exact H|]. split; [reflexivity|]. split; [lra|]. intros o' I' OL' P'. apply in_app_or in I'. destruct I' as [I'|[<-|[]]]; [specialize (M o' I' OL' P'); lra|lra].
           ++ split; [apply in_or_app; auto|]. split; [exact OL|]. split; [exact E|]. split; [exact P|]. intros o' I' OL' P'. apply in_app_or in I'. destruct I' as [I'|[<-|[]]]; [apply M; assumption|lra].
        -- split; [apply in_or_app; right; left; reflexivity|]. split; [exact H|]. split; [reflexivity|]. split; [lra|]. intros o' I' OL' P'. apply in_app_or in I'. destruct I' as [I'|[<-|[]]]; [specialize (IH o' I' OL'); cbv beta in IH; lra|lra].
      * destruct (s k) as [[x d]|].
        -- destruct IH as (I & OL & E & P & M). split; [apply in_or_app; auto|]. split; [exact OL|]. split; [exact E|]. split; [exact P|]. intros o' I' OL' P'. apply in_app_or in I'. destruct I' as [I'|[<-|[]]]; [apply M; assumption|lra].
        -- intros o' I' OL'. apply in_app_or in I'. destruct I' as [I'|[<-|[]]]; [apply IH; assumption|lra].
  - unfold closest_of in *. destruct (s k) as [[x d]|].
    + destruct IH as (I & OL & E & R0). split; [apply in_or_app; auto|]. split; [exact OL|]. split; [exact E|]. destruct (in_front k); destruct R0 as (P & M); (split; [exact P|]); intros o' I' OL' P'; apply in_app_or in I'; (destruct I' as [I'|[<-|[]]]; [apply M; assumption|contradiction]).
    + intros o' I' OL'. apply in_app_or in I'. destruct I' as [I'|[<-|[]]]; [apply IH; assumption|contradiction].
Qed.

(** ** Acceleration *)

Lemma gap_least p a b : desired_distance p <= GetDesiredGap p a b.
Proof. unfold GetDesiredGap. destruct (Rltb _ _); [lra|]. pose proof (Rmax_l 0 (a * desired_thw p + a * (a - b) / (2 * sqrt (- max_acceleration p * max_deceleration p)))). lra. Qed.

Lemma fourth_pos x : 0 <= x ^ 4.
Proof. replace (x ^ 4) with ((x * x) * (x * x)) by ring. nra. Qed.

Lemma acceleration_max p v f l : 0 <= max_acceleration p -> GetAcceleration p v f l <= max_acceleration p.
Proof.
  intro A. unfold GetAcceleration. destruct f as [f|]; [|lra]. pose proof (fourth_pos (v_speed v f / desired_speed p)) as P. destruct l as [l|].
  - match goal with |- _ - max_acceleration p * ?q ^ 2 <= _ => assert (0 <= q ^ 2) by (replace (q ^ 2) with (q * q) by ring; nra) end. nra.
  - nra.
Qed.

(** ** The speed *)

Lemma next_speed_range p v s a dt : 0 <= desired_speed p -> 0 <= v_max v -> 0 <= next_speed p v s a dt <= desired_speed p.
Proof. intros D M. unfold next_speed. cbv zeta. destruct (Rltb_spec (s + a * dt) (desired_speed p)); [|lra]. destruct (Rltb_spec (v_max v) (s + a * dt)); [lra|]. destruct (Rltb_spec (s + a * dt) 0); lra. Qed.

Lemma step_speed p v self st dt : let s := UpdateSurroundingVehicles v self in
  let a := if n_changing st then 0 else Rmax (max_deceleration p) (GetAcceleration p v (Some self) (option_map fst (s LEAD))) in
  n_speed (fst (fst (fst (Step p v self st dt)))) = next_speed p v (n_speed st) a dt /\
  snd (Step p v self st dt) = next_speed p v (n_speed st) a dt /\ snd (fst (Step p v self st dt)) = next_speed p v (n_speed st) a dt * dt.
Proof.
  cbv zeta. unfold Step. cbv zeta. set (acc := if n_changing st then 0 else if Rltb _ _ then _ else _).
  assert (E: (if n_changing st then 0 else Rmax (max_deceleration p) (GetAcceleration p v (Some self) (option_map fst (UpdateSurroundingVehicles v self LEAD)))) = acc).
  { subst acc. destruct (n_changing st); [reflexivity|]. destruct (Rltb_spec (GetAcceleration p v (Some self) (option_map fst (UpdateSurroundingVehicles v self LEAD))) (max_deceleration p)); [apply Rmax_left; lra|apply Rmax_right; lra]. }
  rewrite E. clearbody acc. destruct (if n_changing st then _ else _) as [[initiate target] changing].
  destruct (if initiate then _ else _) as [[[injected target'] changing'] action]. destruct (if injected then _ else _) as [[[injected' target''] changing''] cooldown]. cbn [fst snd n_speed]. repeat split.
Qed.

(** ** Lane changes *)

Lemma try_lanes_spec p v self s l0 lanes i0 t0 i t c : try_lanes p v self s l0 lanes i0 t0 = (i, t, c) ->
  (c = true -> i = true /\ t <> 0%Z /\ In t lanes /\ CheckLaneChangePossible p v self s false l0 t = true /\ 0 < v_speed v self) /\
  (c = false -> t = t0 /\ (0 < v_speed v self -> i = true -> i0 = true)).
Proof.
  revert i0. induction lanes as [|x r IH]; cbn [try_lanes]; intros i0 E.
  - injection E as <- <- <-. split; [discriminate|]. auto.
  - destruct (Z.eqb_spec x 0) as [X|X].
    + destruct (IH _ E) as (A & B). split; [|exact B]. intro C. destruct (A C) as (A1 & A2 & A3 & A4). repeat split; try assumption; try apply A4. right. exact A3.
    + destruct (CheckLaneChangePossible p v self s false l0 x) eqn:K; cbn [andb] in E.
      * destruct (Rltb_spec 0 (v_speed v self)) as [L|L].
        -- injection E as <- <- <-. split; [|discriminate]. intros _. repeat split; try assumption. left. reflexivity.
        -- destruct (IH _ E) as (A & B). split.
           ++ intro C. destruct (A C) as (A1 & A2 & A3 & A4). repeat split; try assumption; try apply A4. right. exact A3.
           ++ intro C. destruct (B C) as (B1 & B2). split; [exact B1|]. intros; lra.
      * destruct (IH _ E) as (A & B). split.
        -- intro C. destruct (A C) as (A1 & A2 & A3 & A4). repeat split; try assumption; try apply A4. right. exact A3.
        -- intro C. destruct (B C) as (B1 & B2). split; [exact B1|]. intros L I. specialize (B2 L I). discriminate.
Qed.

(** Between steps no change is pending, and the cooldown is full unless one was injected. *)
Definition ready (p : params) (st : driver) : Prop := n_initiate st = false /\ (n_injected st = false -> n_cooldown st = lane_change_delay p + lane_change_duration p).

Definition after (p : params) (v : view) (self : Z) (st : driver) (dt : R) : driver := fst (fst (fst (Step p v self st dt))).
Definition action (p : params) (v : view) (self : Z) (st : driver) (dt : R) : option Z := snd (fst (fst (Step p v self st dt))).

Lemma step_ready p v self st dt : ready p st -> ready p (after p v self st dt).
Proof.
  intros (I & C). unfold after, Step. destruct (if n_changing st then (n_initiate st, _, _) else _) as [[initiate target] changing] eqn:E.
  destruct initiate.
  - destruct (AbortLaneChange p v self target (n_speed st)).
    + destruct (n_injected st) eqn:J.
      * destruct (if false && _ then _ else _) as [t' c']. destruct (Rltb _ 0); split; cbn; try reflexivity; intros; discriminate.
      * split; [reflexivity|]. intros _. apply C. reflexivity.
    + destruct (if changing && _ then _ else _) as [t' c']. destruct (Rltb _ 0); split; cbn; try reflexivity; intros; discriminate.
  - destruct (n_injected st) eqn:J.
    + destruct (if changing && _ then _ else _) as [t' c']. destruct (Rltb _ 0); split; cbn; try reflexivity; intros; discriminate.
    + split; [reflexivity|]. intros _. apply C. reflexivity.
Qed.

(** What a step does to the lane change. *)
Lemma step_inject p v self st dt : ready p st ->
  match action p v self st dt with
  | Some l => n_injected st = false /\ n_changing st = false /\ let d := lane_change_delay p + lane_change_duration p - dt in
      (if Rltb d 0 then n_injected (after p v self st dt) = false else n_injected (after p v self st dt) = true /\ n_cooldown (after p v self st dt) = d)
  | None => if n_injected st then (if Rltb (n_cooldown st - dt) 0 then n_injected (after p v self st dt) = false else n_injected (after p v self st dt) = true /\ n_cooldown (after p v self st dt) = n_cooldown st - dt)
      else n_injected (after p v self st dt) = false
  end.
Proof.
  intros (I & C). unfold action, after, Step. rewrite I. destruct (n_changing st) eqn:CH.
  - cbn [fst snd]. destruct (n_injected st) eqn:J.
    + destruct (if true && _ then _ else _) as [t' c']. destruct (Rltb _ 0); cbn; auto.
    + cbn. reflexivity.
  - destruct (n_injected st) eqn:J.
    + destruct (if false && _ then _ else _) as [t' c']. destruct (Rltb _ 0); cbn; auto.
    + rewrite (C eq_refl). destruct (if fst (v_adjacent v) then _ else _) as [[initiate target] changing]. destruct initiate.
      * destruct (AbortLaneChange p v self target (n_speed st)); cbn [fst snd].
        -- cbn. reflexivity.
        -- destruct (if changing && _ then _ else _) as [t' c']. destruct (Rltb _ 0); cbn; auto.
      * cbn. reflexivity.
Qed.

(** A run: views and time steps. *)
Fixpoint drive (p : params) (self : Z) (st : driver) (steps : list (view * R)) : driver :=
  match steps with [] => st | (v, dt) :: r => drive p self (after p v self st dt) r end.
Definition elapsed (steps : list (view * R)) : R := fold_right (fun s t => snd s + t) 0 steps.

Lemma drive_ready p self steps : forall st, ready p st -> ready p (drive p self st steps).
Proof. induction steps as [|[v dt] r IH]; intros st H; [exact H|]. cbn. apply IH, step_ready, H. Qed.

Lemma elapsed_pos steps : (forall s, In s steps -> 0 <= snd s) -> 0 <= elapsed steps.
Proof. induction steps as [|s r IH]; intro H; cbn; [lra|]. pose proof (H s (or_introl eq_refl)). assert (0 <= elapsed r) by (apply IH; intros x I; apply H; right; exact I). unfold elapsed in *. lra. Qed.

Lemma wait p self steps : forall st, ready p st -> (forall s, In s steps -> 0 <= snd s) -> n_injected st = true -> n_injected (drive p self st steps) = false -> n_cooldown st < elapsed steps.
Proof.
  induction steps as [|[v dt] r IH]; intros st H P J F; [cbn in F; congruence|]. cbn [drive] in F. pose proof (step_inject p v self st dt H) as S. pose proof (step_ready p v self st dt H) as H'.
  assert (PR: 0 <= elapsed r) by (apply elapsed_pos; intros s I; apply P; right; exact I). pose proof (P (v, dt) (or_introl eq_refl)) as PD. cbn [snd] in PD. change (elapsed ((v, dt) :: r)) with (dt + elapsed r).
  destruct (action p v self st dt) as [l|]; [destruct S as (S & _); congruence|]. rewrite J in S. destruct (Rltb_spec (n_cooldown st - dt) 0) as [L|L]; [lra|]. destruct S as (S1 & S2).
  assert (W: n_cooldown (after p v self st dt) < elapsed r) by (apply IH; try assumption; intros s I; apply P; right; exact I). lra.
Qed.

(** ** Vehicles seen *)

Lemma distance_frame c w a b t lim k : k <> GenerateKey a b -> k <> GenerateKey b a -> fst (fst (GetDistance c w a b t lim)) k = c k.
Proof.
  intros K1 K2. unfold GetDistance. destruct (negb _ || negb _).
  - cbn [fst]. unfold erase. destruct (N.eqb_spec k (GenerateKey b a)); [contradiction|]. destruct (N.eqb_spec k (GenerateKey a b)); [contradiction|]. reflexivity.
  - assert (E: forall c' u, (if needs_update c w a b (GenerateKey a b) then UpdateDistance c w a b t (GenerateKey a b) (GenerateKey b a) lim else (c, (-2)%Z)) = (c', u) -> c' k = c k).
    { intros c' u. destruct (needs_update _ _ _ _ _); [|congruence]. unfold UpdateDistance. destruct (_ && _); intro E; injection E as <- <-; rewrite ?put_other by assumption; reflexivity. }
    destruct (if needs_update _ _ _ _ _ then _ else _) as [c' u] eqn:U. specialize (E _ _ eq_refl). destruct (c' (GenerateKey a b)); exact E.
Qed.

(** A distance is measured now if it is due and the objects are not far apart (or were measured already). *)
Definition measured (c : cache) (w : scene) (a b : Z) : Prop :=
  s_active w a = true /\ s_active w b = true /\ needs_update c w a b (GenerateKey a b) = true /\
  ~ (10000 - SMALL_NUMBER < fst (e_meas (get c (GenerateKey a b)) REL_DIST_EUCLIDIAN_ABS) /\ 250000 < squared w a b).

Lemma distance_measured c w a b t lim : let r := GetDistance c w a b t lim in
  snd (fst r) = 0%Z <-> measured c w a b.
Proof.
  cbv zeta. unfold GetDistance, measured. destruct (s_active w a), (s_active w b); cbn [negb orb]; try (cbn; split; [discriminate|intros (? & ? & _); discriminate]).
  destruct (needs_update c w a b (GenerateKey a b)) eqn:U.
  - unfold UpdateDistance. rewrite !get_put_self. destruct (Rltb_spec (10000 - SMALL_NUMBER) (fst (e_meas (get c (GenerateKey a b)) REL_DIST_EUCLIDIAN_ABS))) as [L|L], (Rltb_spec 250000 (squared w a b)) as [M|M]; cbn [andb].
    + destruct (put _ (GenerateKey b a) _ (GenerateKey a b)); cbn [fst snd]; (split; [discriminate|intros (_ & _ & _ & H); exfalso; apply H; split; assumption]).
    + rewrite put_same. cbn. split; [|reflexivity]. intros _. repeat split. intros (? & ?); contradiction.
    + rewrite put_same. cbn. split; [|reflexivity]. intros _. repeat split. intros (? & ?); contradiction.
    + rewrite put_same. cbn. split; [|reflexivity]. intros _. repeat split. intros (? & ?); contradiction.
  - destruct (c (GenerateKey a b)); cbn; (split; [discriminate|intros (_ & _ & ? & _); discriminate]).
Qed.

Lemma distance_value c w a b t lim : snd (fst (GetDistance c w a b t lim)) = 0%Z -> snd (GetDistance c w a b t lim) = Some (s_dist w a b t, s_time w).
Proof.
  unfold GetDistance. destruct (negb _ || negb _); [discriminate|]. destruct (needs_update _ _ _ _ _).
  - unfold UpdateDistance. destruct (_ && _).
    + destruct (put _ (GenerateKey b a) _ (GenerateKey a b)); discriminate.
    + rewrite put_same. intros _. cbn [snd store e_meas]. destruct (rdt_eqb_spec t t); [reflexivity|congruence].
  - destruct (c _); discriminate.
Qed.

Lemma filter_seen lookahead w self objs : forall c o, int32 self -> (forall x, In x objs -> int32 x) -> NoDup objs ->
  In o (snd (FilterSurroundingVehicles lookahead c w self objs)) <->
  In o objs /\ o <> self /\ measured c w self o /\ - lookahead <= s_dist w self o REL_DIST_EUCLIDIAN <= lookahead.
Proof.
  induction objs as [|x r IH]; intros c o IS IO ND; [cbn; tauto|]. inversion_clear ND as [|? ? NI ND']. cbn [FilterSurroundingVehicles].
  assert (IR: forall y, In y r -> int32 y) by (intros y Y; apply IO; right; exact Y). destruct (Z.eqb_spec x self) as [XS|XS].
  - rewrite IH by assumption. cbn [In]. subst x. split; [tauto|]. intros ([<-|I] & NS & R0); [contradiction|tauto].
  - pose proof (distance_frame c w self x REL_DIST_EUCLIDIAN (lookahead * 2)) as F. pose proof (distance_measured c w self x REL_DIST_EUCLIDIAN (lookahead * 2)) as DM. pose proof (distance_value c w self x REL_DIST_EUCLIDIAN (lookahead * 2)) as DV. cbv zeta in DM.
    destruct (GetDistance c w self x REL_DIST_EUCLIDIAN (lookahead * 2)) as [[c1 ret] d] eqn:G. cbn [fst snd] in F, DM, DV. specialize (IH c1). destruct (FilterSurroundingVehicles lookahead c1 w self r) as [c2 near]. cbn [snd] in *.
    assert (ME: forall y, In y r -> (measured c1 w self y <-> measured c w self y)).
    { intros y Y. assert (E: c1 (GenerateKey self y) = c (GenerateKey self y)).
      { apply F; intro K; apply key_inj in K; try assumption; try (apply IO; left; reflexivity); try (apply IR; exact Y).
        - destruct K as (_ & K). subst y. contradiction.
        - destruct K as (K & _). symmetry in K. contradiction. }
      unfold measured, needs_update, get. rewrite E. reflexivity. }
    assert (IN: In o near <-> In o r /\ o <> self /\ measured c w self o /\ - lookahead <= s_dist w self o REL_DIST_EUCLIDIAN <= lookahead).
    { rewrite IH by assumption. split; intros (A & B & C & D); (split; [exact A|]); (split; [exact B|]); (split; [|exact D]); apply ME; assumption. }
    assert (HX: (ret =? 0)%Z && match d with Some (d, _) => negb (Rltb lookahead d) && negb (Rltb d (- lookahead)) | None => false end = true <->
      measured c w self x /\ - lookahead <= s_dist w self x REL_DIST_EUCLIDIAN <= lookahead).
    { destruct (Z.eqb_spec ret 0) as [R0|R0].
      - rewrite (DV R0). cbn [andb]. destruct (Rltb_spec lookahead (s_dist w self x REL_DIST_EUCLIDIAN)), (Rltb_spec (s_dist w self x REL_DIST_EUCLIDIAN) (- lookahead)); cbn; split; try discriminate; try (intros (_ & ?); lra); try reflexivity.
        intros _. split; [apply DM; exact R0|lra].
      - cbn. split; [discriminate|]. intros (M & _). apply DM in M. contradiction. }
    destruct (_ && _); cbn [In].
    + rewrite IN. split.
      * intros [<-|(A & B)]; [|tauto]. destruct HX as (HX & _). specialize (HX eq_refl). split; [left; reflexivity|]. split; [exact XS|exact HX].
      * intros ([<-|A] & B); [left; reflexivity|right; split; assumption].
    + rewrite IN. split; [intros (A & B); split; [right; exact A|exact B]|]. intros ([<-|A] & B); [|split; assumption]. destruct B as (_ & B). apply HX in B. discriminate.
Qed.

(** ** Lanes *)

(** Consecutive lanes from [top] downwards. *)
Fixpoint down (drv : Z -> bool) (top : Z) (n : nat) : section := match n with O => [] | S m => (top, drv top) :: down drv (top - 1) m end.
(** The lanes of a section with [L] lanes on the left and [R0] on the right of the centre. *)
Definition row (drv : Z -> bool) (L R0 : nat) : section := down drv (Z.of_nat L) (L + R0 + 1).

Lemma down_length drv n : forall top, length (down drv top n) = n.
Proof. induction n as [|n IH]; intro top; cbn; [reflexivity|]. rewrite IH. reflexivity. Qed.

Lemma down_idx drv n : forall top l, (top - Z.of_nat n < l <= top)%Z -> GetLaneIdxById (down drv top n) l = Some (Z.to_N (top - l)).
Proof.
  induction n as [|n IH]; intros top l H; [lia|]. cbn [down GetLaneIdxById]. destruct (Z.eqb_spec top l) as [E|E].
  - subst. rewrite Z.sub_diag. reflexivity.
  - rewrite IH by lia. cbn [option_map]. f_equal. lia.
Qed.

Lemma down_lane drv n : forall top l, (top - Z.of_nat n < l <= top)%Z -> GetLaneById (down drv top n) l = Some (drv l).
Proof.
  unfold GetLaneById. induction n as [|n IH]; intros top l H; [lia|]. cbn [down find fst]. destruct (Z.eqb_spec top l) as [E|E]; [subst; reflexivity|]. apply IH. lia.
Qed.

Lemma down_in drv n : forall top l b, In (l, b) (down drv top n) <-> (top - Z.of_nat n < l <= top)%Z /\ b = drv l.
Proof.
  induction n as [|n IH]; intros top l b; [cbn; lia|]. cbn [down In]. rewrite IH. split.
  - intros [E|(A & B)]; [injection E as <- <-; split; [lia|reflexivity]|split; [lia|exact B]].
  - intros (A & B). destruct (Z.eq_dec l top) as [->|N0]; [left; rewrite B; reflexivity|right; split; [lia|exact B]].
Qed.

Lemma down_right drv n : forall top, (top < 0)%Z -> length (filter (fun l => (fst l <? 0)%Z) (down drv top n)) = n.
Proof. induction n as [|n IH]; intros top H; [reflexivity|]. cbn [down filter fst]. destruct (Z.ltb_spec top 0); [|lia]. cbn. rewrite IH by lia. reflexivity. Qed.
Lemma down_left_none drv n : forall top, (top <= 0)%Z -> length (filter (fun l => (0 <? fst l)%Z) (down drv top n)) = O.
Proof. induction n as [|n IH]; intros top H; [reflexivity|]. cbn [down filter fst]. destruct (Z.ltb_spec 0 top); [lia|]. apply IH. lia. Qed.

Lemma row_right drv L R0 : GetNUmberOfLanesRight (row drv L R0) = N.of_nat R0.
Proof.
  unfold GetNUmberOfLanesRight, row. f_equal. induction L as [|L IH].
  - cbn [Nat.add]. rewrite Nat.add_1_r. cbn [down filter fst]. change (Z.of_nat 0 <? 0)%Z with false. cbn iota. apply down_right. cbn. lia.
  - change (S L + R0 + 1)%nat with (S (L + R0 + 1)). cbn [down filter fst]. destruct (Z.ltb_spec (Z.of_nat (S L)) 0); [lia|]. replace (Z.of_nat (S L) - 1)%Z with (Z.of_nat L) by lia. exact IH.
Qed.
Lemma row_left drv L R0 : GetNUmberOfLanesLeft (row drv L R0) = N.of_nat L.
Proof.
  unfold GetNUmberOfLanesLeft, row. f_equal. induction L as [|L IH].
  - apply down_left_none. cbn. lia.
  - change (S L + R0 + 1)%nat with (S (L + R0 + 1)). cbn [down filter fst]. destruct (Z.ltb_spec 0 (Z.of_nat (S L))); [|lia]. replace (Z.of_nat (S L) - 1)%Z with (Z.of_nat L) by lia. cbn. rewrite IH. reflexivity.
Qed.

Lemma two_of A (f : A -> bool) l x y : In x l -> In y l -> x <> y -> f x = true -> f y = true -> (2 <= length (filter f l))%nat.
Proof.
  intros X Y N0 FX FY. assert (I1: In x (filter f l)) by (apply filter_In; auto). assert (I2: In y (filter f l)) by (apply filter_In; auto).
  destruct (filter f l) as [|a [|b r]]; cbn in *; [contradiction| |lia]. exfalso. destruct I1 as [I1|[]], I2 as [I2|[]]. congruence.
Qed.

Lemma row_driving drv L R0 l l' : (- Z.of_nat R0 <= l <= Z.of_nat L)%Z -> (- Z.of_nat R0 <= l' <= Z.of_nat L)%Z -> l <> l' -> (l <? 0)%Z = (l' <? 0)%Z -> drv l = true -> drv l' = true ->
  (1 < GetNumberOfDrivingLanesSide (row drv L R0) l)%N.
Proof.
  intros A B NE SS D D'. unfold GetNumberOfDrivingLanesSide. assert (2 <= length (filter (fun x => Bool.eqb (fst x <? 0)%Z (l <? 0)%Z && snd x) (row drv L R0)))%nat; [|lia].
  apply (two_of _ _ _ (l, true) (l', true)); [| |congruence| |]; cbn [fst snd].
  - apply down_in. split; [lia|symmetry; exact D].
  - apply down_in. split; [lia|symmetry; exact D'].
  - rewrite Bool.eqb_reflx. reflexivity.
  - rewrite <- SS, Bool.eqb_reflx. reflexivity.
Qed.
