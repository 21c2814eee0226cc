(** * C73: overriding pedals, steering wheel and gear *)
From Coq Require Import Reals Bool List ZArith NArith Lra Lia.
From Verif Require Import AngModel AngProofs OvrModel OvrProofs.
Import ListNotations.
Open Scope R_scope.

(** ** Reading an action *)
(** An element read has a proper type, the flag given and a value in the documented range. *)
Theorem C73_read_in_range : forall m a e s, read_elem m a e = Some s ->
  (0 <= v_type s < 6)%Z /\ v_active s = a /\
  (v_type s = THROTTLE \/ v_type s = CLUTCH -> 0 <= v_value s <= 1) /\
  (v_type s = BRAKE \/ v_type s = PARKING_BRAKE -> 0 <= v_value s /\ (v_kind s = Percent -> v_value s <= 1)) /\
  (v_type s = STEERING_WHEEL -> - (2 * PI) <= v_value s <= 2 * PI).
Proof. intros m a e s E. destruct (read_elem_ok m a e s E) as (V & A & I). exact (conj V (conj A I)). Qed.
Example C73_read_in_range_ex : exists s, read_elem true true (EThrottle 3 None) = Some s /\ v_value s = 1 /\ v_type s = THROTTLE.
Proof. eexists. split; [reflexivity|]. cbn. split; [|reflexivity]. unfold RangeCheck. rewrite (proj2 (Rltb_true 1 3)) by lra. reflexivity. Qed.

(** A value in range is kept; one outside is moved to the nearest in range, and once moved it stays. *)
Theorem C73_range_nearest : forall v lo up, lo <= up -> lo <= RangeCheck v lo up false <= up /\
  (forall y, lo <= y <= up -> Rabs (v - RangeCheck v lo up false) <= Rabs (v - y)).
Proof. exact range_spec. Qed.
Example C73_range_nearest_ex : RangeCheck (-1) 0 1 false = 0.
Proof. unfold RangeCheck. rewrite (proj2 (Rltb_false 1 (-1))) by lra. rewrite (proj2 (Rltb_true (-1) 0)) by lra. reflexivity. Qed.
Theorem C73_range_keeps : forall v lo up, lo <= v <= up -> RangeCheck v lo up false = v.
Proof. exact range_in. Qed.
Example C73_range_keeps_ex : RangeCheck (1 / 2) 0 1 false = 1 / 2.
Proof. apply C73_range_keeps. lra. Qed.
Theorem C73_range_idempotent : forall v lo up, lo <= up -> RangeCheck (RangeCheck v lo up false) lo up false = RangeCheck v lo up false.
Proof. intros v lo up H. apply range_in. now apply range_spec. Qed.
Example C73_range_idempotent_ex : RangeCheck (RangeCheck 7 0 1 false) 0 1 false = RangeCheck 7 0 1 false.
Proof. apply C73_range_idempotent. lra. Qed.
(** Rounding between whole limits gives a whole number between them, at most a half away from a value in range. *)
Theorem C73_range_rounds : forall v lo up, (lo <= up)%Z -> (exists k, RangeCheck v (IZR lo) (IZR up) true = IZR k /\ (lo <= k <= up)%Z) /\
  (IZR lo <= v <= IZR up -> Rabs (RangeCheck v (IZR lo) (IZR up) true - v) <= 1 / 2).
Proof.
  intros v lo up H. split; [now apply range_round|]. intros V. unfold RangeCheck. rewrite (proj2 (Rltb_false (IZR up) v)) by lra. rewrite (proj2 (Rltb_false v (IZR lo))) by lra.
  apply round_near.
Qed.
Example C73_range_rounds_ex : exists k, RangeCheck (5 / 2) (IZR (-1)) (IZR 8) true = IZR k /\ (-1 <= k <= 8)%Z.
Proof. apply (C73_range_rounds (5 / 2) (-1) 8). lia. Qed.

(** The rate of pedals and wheel, and the torque, count from version 1.2 on; without them they are -1. The brakes take the rate in every version. *)
Theorem C73_rates : forall a v r q b s, read_elem false a (EThrottle v r) = Some s \/ read_elem false a (EClutch v r) = Some s \/ read_elem false a (ESteer v r q) = Some s ->
  v_rate s = -1 /\ v_torque s = -1 /\ read_elem false a (EBrake b) = read_elem true a (EBrake b).
Proof. intros a v r q b s [E|[E|E]]; cbn in E; injection E as <-; auto. Qed.
Example C73_rates_ex : exists s t, read_elem false true (EThrottle 1 (Some 5)) = Some s /\ v_rate s = -1 /\ read_elem true true (EThrottle 1 (Some 5)) = Some t /\ v_rate t = 5.
Proof. do 2 eexists. repeat split. Qed.
(** The rates and torques given are those stored. *)
Theorem C73_rates_kept : forall a v r q s, read_elem true a (ESteer v (Some r) (Some q)) = Some s -> v_rate s = r /\ v_torque s = q.
Proof. intros a v r q s E. injection E as <-. auto. Qed.
Example C73_rates_kept_ex : exists s, read_elem true true (ESteer 0 (Some 3) (Some 4)) = Some s /\ v_rate s = 3 /\ v_torque s = 4.
Proof. eexists. repeat split. Qed.

(** A force has no upper limit: one not negative is stored as given, and marked. *)
Theorem C73_force : forall m a v r s, 0 <= v -> read_elem m a (EBrake (BForce v r)) = Some s \/ read_elem m a (EParking (BForce v r)) = Some s -> v_value s = v /\ v_kind s = 1%Z.
Proof. intros m a v r s V [E|E]; injection E as <-; cbn; unfold brake_force; rewrite (proj2 (Rltb_false v 0)) by lra; auto. Qed.
Example C73_force_ex : exists s, read_elem true true (EBrake (BForce 500 None)) = Some s /\ v_value s = 500.
Proof. eexists. split; [reflexivity|]. cbn. unfold brake_force. rewrite (proj2 (Rltb_false 500 0)) by lra. reflexivity. Qed.

(** Different positions of an automatic gear give different numbers; but without the kind they cannot be told from manual gears. *)
Theorem C73_gears_injective : forall m a w1 w2 s, read_elem m a (EGear (GAuto w1)) = Some s -> read_elem m a (EGear (GAuto w2)) = Some s -> w1 = w2.
Proof. intros m a w1 w2 s E1 E2. destruct w1, w2; cbn in *; congruence. Qed.
Example C73_gears_injective_ex : exists s, read_elem true true (EGear (GAuto Gr)) = Some s /\ v_number s = (-1)%Z.
Proof. eexists. split; reflexivity. Qed.
Theorem C73_gear_kind : forall m a w z s t, read_elem m a (EGear (GAuto w)) = Some s -> read_elem m a (EGear (GManual z)) = Some t -> v_kind s <> v_kind t /\ v_number t = z.
Proof. intros m a w z s t E1 E2. injection E2 as <-. destruct w; cbn in E1; try discriminate; injection E1 as <-; split; try reflexivity; discriminate. Qed.
Example C73_gear_kind_ex : exists s t, read_elem true true (EGear (GAuto Gp)) = Some s /\ read_elem true true (EGear (GManual 1)) = Some t /\ v_number s = v_number t /\ v_kind s <> v_kind t.
Proof. do 2 eexists. repeat split; discriminate. Qed.

(** An action is read when all its elements are, whatever their number and order; it then holds one status for each, in order. *)
Theorem C73_read_all : forall m l, (exists w, read_all m l new_ovr = Some w) <-> Forall (fun x => read_elem m (fst x) (snd x) <> None) l.
Proof.
  intros m l. rewrite <- all_read_some, read_all_spec. split.
  - intros [w E]. destruct (all_read m l) as [r|]; [eauto|discriminate].
  - intros [r E]. rewrite E. apply add_all_ok. apply all_read_ok in E. destruct E as [V _]. eapply Forall_impl; [|exact V]. unfold valid. intros s; cbn. lia.
Qed.
Example C73_read_all_ex : (exists w, read_all true [(true, EGear (GManual 3)); (false, EThrottle 1 None)] new_ovr = Some w) /\ ~ (exists w, read_all true [(true, EOther)] new_ovr = Some w).
Proof.
  split; [eexists; reflexivity|]. rewrite C73_read_all. intros H. inversion H as [|? ? A _]. now apply A.
Qed.
Theorem C73_read_list : forall m l w, read_all m l new_ovr = Some w -> map Some (w_list w) = map (fun x => read_elem m (fst x) (snd x)) l.
Proof.
  intros m l w E. rewrite read_all_spec in E. destruct (all_read m l) as [r|] eqn:A; [|discriminate]. apply add_all_bits in E. destruct E as (_ & _ & E & _). rewrite E. cbn. clear E w.
  revert r A. induction l as [|(a, e) l IH]; intros r A; cbn in A; [injection A as <-; reflexivity|].
  destruct (read_elem m a e) as [s|] eqn:S1; [|discriminate]. destruct (all_read m l) as [q|]; [|discriminate]. injection A as <-. cbn. rewrite S1. f_equal. now apply IH.
Qed.
Example C73_read_list_ex : exists w, read_all true [(true, EGear (GManual 3))] new_ovr = Some w /\ map v_number (w_list w) = [3%Z].
Proof. eexists. split; reflexivity. Qed.

(** ** The domains of an action *)
(** The lateral domain is claimed when the last steering status is active, the longitudinal when the last of all other statuses is. *)
Theorem C73_domains : forall l w, AddAll l new_ovr = Some w ->
  (bit (w_domains w) 2 = true <-> exists s, last_with (is_type STEERING_WHEEL) l = Some s /\ v_active s = true) /\
  (bit (w_domains w) 1 = true <-> exists s, last_with (fun s => negb (is_type STEERING_WHEEL s)) l = Some s /\ v_active s = true).
Proof.
  intros l w E. apply add_all_bits in E. destruct E as (A & B & _). unfold MASK_LAT in A. unfold MASK_LONG in B. rewrite A, B. cbn. split.
  - destruct (last_with (is_type STEERING_WHEEL) l) as [s|]; cbn; split; [eauto|intros (? & E & H); injection E as <-; exact H|discriminate|intros (? & E & _); discriminate].
  - destruct (last_with (fun s => negb (is_type STEERING_WHEEL s)) l) as [s|]; cbn; split; [eauto|intros (? & E & H); injection E as <-; exact H|discriminate|intros (? & E & _); discriminate].
Qed.
Definition st (t : Z) (a : bool) : status := Status t a 1 (-1) (-1) 0 0.
Example C73_domains_ex : exists w, AddAll [st THROTTLE true; st STEERING_WHEEL true] new_ovr = Some w /\ w_domains w = 3%N.
Proof. eexists. split; reflexivity. Qed.

(** When all overrides are active, a domain is claimed exactly when something in it is overridden, whatever the order. *)
Theorem C73_domains_all_active : forall l w, AddAll l new_ovr = Some w -> Forall (fun s => v_active s = true) l ->
  (bit (w_domains w) 2 = true <-> exists s, In s l /\ v_type s = STEERING_WHEEL) /\
  (bit (w_domains w) 1 = true <-> exists s, In s l /\ v_type s <> STEERING_WHEEL).
Proof.
  intros l w E F. rewrite Forall_forall in F. destruct (C73_domains l w E) as [A B]. rewrite A, B. split.
  - split.
    + intros (s & L & _). apply last_with_in in L. destruct L as [I T]. exists s. split; [exact I|]. now apply Z.eqb_eq.
    + intros (s & I & T). destruct (last_with (is_type STEERING_WHEEL) l) as [x|] eqn:L.
      * exists x. split; [reflexivity|]. apply F. now apply last_with_in in L.
      * apply (proj1 (last_with_none _ _)) with (s := s) in L; [|exact I]. unfold is_type in L. apply Z.eqb_neq in L. congruence.
  - split.
    + intros (s & L & _). apply last_with_in in L. destruct L as [I T]. exists s. split; [exact I|]. apply negb_true_iff in T. now apply Z.eqb_neq.
    + intros (s & I & T). destruct (last_with (fun s => negb (is_type STEERING_WHEEL s)) l) as [x|] eqn:L.
      * exists x. split; [reflexivity|]. apply F. now apply last_with_in in L.
      * apply (proj1 (last_with_none _ _)) with (s := s) in L; [|exact I]. apply negb_false_iff in L. apply Z.eqb_eq in L. congruence.
Qed.
Example C73_domains_all_active_ex : exists w, AddAll [st GEAR true; st STEERING_WHEEL true; st BRAKE true] new_ovr = Some w /\ bit (w_domains w) 1 = true /\ bit (w_domains w) 2 = true.
Proof. eexists. split; [reflexivity|]. split; reflexivity. Qed.

(** In general a domain with an active override need not be claimed: switching the throttle off after switching the brake on hides the brake. *)
Theorem C73_domain_of_active_refuted : ~ (forall l w s, AddAll l new_ovr = Some w -> In s l -> v_active s = true -> v_type s <> STEERING_WHEEL -> bit (w_domains w) 1 = true).
Proof.
  intros H. specialize (H [st BRAKE true; st THROTTLE false] _ (st BRAKE true) eq_refl (or_introl eq_refl) eq_refl). discriminate H. discriminate.
Qed.
Example C73_domain_of_active_refuted_ex : exists w, AddAll [st BRAKE true; st THROTTLE false] new_ovr = Some w /\ w_domains w = 0%N /\ In (st BRAKE true) (w_list w).
Proof. eexists. split; [reflexivity|]. split; [reflexivity|now left]. Qed.
(** So the order of the elements matters. *)
Theorem C73_order_refuted : ~ (forall s t w u, v_type s <> v_type t -> AddAll [s; t] new_ovr = Some w -> AddAll [t; s] new_ovr = Some u -> w_domains w = w_domains u).
Proof. intros H. specialize (H (st BRAKE true) (st THROTTLE false) _ _ ltac:(discriminate) eq_refl eq_refl). discriminate H. Qed.
Example C73_order_refuted_ex : exists u, AddAll [st THROTTLE false; st BRAKE true] new_ovr = Some u /\ w_domains u = 1%N.
Proof. eexists. split; reflexivity. Qed.
(** An action that only switches off claims nothing and ends no other action. *)
Theorem C73_off_claims_nothing : forall l w d, AddAll l new_ovr = Some w -> Forall (fun s => v_active s = false) l -> w_domains w = 0%N /\ conflict d (w_domains w) = false.
Proof.
  intros l w d E F. assert (G : forall l u, w_domains u = 0%N -> Forall (fun s => v_active s = false) l -> AddAll l u = Some w -> w_domains w = 0%N).
  { clear. induction l as [|s l IH]; intros u U F E; cbn in E; [injection E as <-; exact U|]. inversion F as [|? ? A F']; subst. unfold AddOverrideStatus in E. rewrite A, U in E.
    destruct (v_type s <? NR_TYPES)%Z; [|discriminate]. apply (IH _ ) in E; auto. cbn. destruct (v_type s =? STEERING_WHEEL)%Z; reflexivity. }
  assert (D : w_domains w = 0%N) by (eapply G; [|exact F|exact E]; reflexivity). split; [exact D|]. rewrite D. unfold conflict. now rewrite N.land_0_r.
Qed.
Example C73_off_claims_nothing_ex : exists w, AddAll [st BRAKE false] new_ovr = Some w /\ conflict 3 (w_domains w) = false.
Proof. eexists. split; reflexivity. Qed.
(** A type that is none of the six ends the program. *)
Theorem C73_unknown_quits : forall l w, (exists w', AddAll l w = Some w') <-> Forall (fun s => (v_type s < 6)%Z) l.
Proof. exact add_all_ok. Qed.
Example C73_unknown_quits_ex : AddAll [st OV_UNDEFINED true] new_ovr = None.
Proof. reflexivity. Qed.

(** A copy has the same overrides but claims no domain: it ends no other action though the original would. *)
Theorem C73_copy_overrides : forall w g ov, w_list (CopyOvr w) = w_list w /\
  match StartOvr g w ov, StartOvr g (CopyOvr w) ov with
  | Some (_, ov1, n1), Some (_, ov2, n2) => (forall t, ov1 t = ov2 t) /\ n1 = n2
  | None, None => True
  | _, _ => False
  end.
Proof. intros w g ov. split; [reflexivity|]. unfold StartOvr. cbn. destruct (start_all g (w_list w) (ov, 0%nat)) as [(o, n)|]; auto. Qed.
Example C73_copy_overrides_ex : exists w, AddAll [st BRAKE true] new_ovr = Some w /\ w_list (CopyOvr w) = [st BRAKE true].
Proof. eexists. split; reflexivity. Qed.
Theorem C73_copy_domains_refuted : ~ (forall w, w_domains (CopyOvr w) = w_domains w).
Proof. intros H. specialize (H (Ovr 1 [] false)). discriminate H. Qed.
Theorem C73_copy_never_conflicts : forall w d, conflict d (w_domains (CopyOvr w)) = false.
Proof. intros w d. unfold conflict. cbn. now rewrite N.land_0_r. Qed.
Example C73_copy_never_conflicts_ex : exists w, AddAll [st BRAKE true] new_ovr = Some w /\ conflict 1 (w_domains w) = true /\ conflict 1 (w_domains (CopyOvr w)) = false.
Proof. eexists. split; [reflexivity|]. split; reflexivity. Qed.

(** ** Starting *)
(** Starting an action read from a scenario never leaves the list of the object. *)
Theorem C73_start_safe : forall m l w g ov, read_all m l new_ovr = Some w -> exists w' ov' n, StartOvr g w ov = Some (w', ov', n) /\ w_run w' = true /\ w_list w' = w_list w /\ w_domains w' = w_domains w.
Proof.
  intros m l w g ov E. rewrite read_all_spec in E. destruct (all_read m l) as [r|] eqn:A; [|discriminate]. apply add_all_bits in E. destruct E as (_ & _ & E & _). cbn in E.
  apply all_read_ok in A. destruct A as (V & _). rewrite <- E in V. destruct (start_all_spec g (w_list w) ov 0 V) as (ov' & F & _). unfold StartOvr. rewrite F. do 3 eexists. split; [reflexivity|auto].
Qed.
Example C73_start_safe_ex : exists w w' ov', read_all true [(true, EGear (GManual 3))] new_ovr = Some w /\ StartOvr false w no_overrides = Some (w', ov', 0%nat) /\ v_number (ov' GEAR) = 3%Z.
Proof. do 3 eexists. split; [reflexivity|]. split; reflexivity. Qed.
(** A status of a type outside the list does. *)
Theorem C73_start_bad : forall g w ov, ~ Forall (fun s => (0 <= v_type s < 6)%Z) (w_list w) -> StartOvr g w ov = None.
Proof. intros g w ov H. unfold StartOvr. now rewrite start_all_bad. Qed.
Example C73_start_bad_ex : exists w, AddAll [st (-1) true] new_ovr = Some w /\ StartOvr false w no_overrides = None.
Proof. eexists. split; reflexivity. Qed.

(** After starting, each type has the last status of the action of that type, and keeps what it had when there is none. *)
Theorem C73_start_sets : forall g w ov w' ov' n, StartOvr g w ov = Some (w', ov', n) ->
  (forall t s, last_with (is_type t) (w_list w) = Some s -> ov' t = s) /\
  (forall t, (forall s, In s (w_list w) -> v_type s <> t) -> ov' t = ov t).
Proof.
  intros g w ov w' ov' n E. unfold StartOvr in E.
  assert (V : Forall valid (w_list w)).
  { destruct (Forall_dec valid (fun s => ltac:(unfold valid; destruct (Z_le_dec 0 (v_type s)), (Z_lt_dec (v_type s) NR_TYPES); [left|right|right|right]; lia)) (w_list w)) as [V|V]; [exact V|].
    rewrite start_all_bad in E by exact V. discriminate. }
  destruct (start_all_spec g (w_list w) ov 0 V) as (o & F & T). rewrite F in E. injection E as <- <- <-. split.
  - intros t s L. now rewrite T, L.
  - intros t L. rewrite T. replace (last_with (is_type t) (w_list w)) with (@None status); [reflexivity|]. symmetry. apply last_with_none. intros s I. apply Z.eqb_neq. now apply L.
Qed.
Example C73_start_sets_ex : exists w', exists ov', StartOvr false (Ovr 0 [st BRAKE true; st GEAR true; st BRAKE false] false) no_overrides = Some (w', ov', 0%nat) /\
  ov' BRAKE = st BRAKE false /\ ov' GEAR = st GEAR true /\ v_active (ov' CLUTCH) = false.
Proof. do 2 eexists. split; [reflexivity|]. repeat split. Qed.

(** Over any run of actions, the latest status of each type holds. *)
Theorem C73_latest : forall g l ov, Forall (fun w => Forall (fun s => (0 <= v_type s < 6)%Z) (w_list w)) l -> exists ov', run g l ov = Some ov' /\
  forall t, ov' t = match last_with (is_type t) (concat (map w_list l)) with Some s => s | None => ov t end.
Proof. exact run_spec. Qed.
Example C73_latest_ex : exists ov', run true [Ovr 1 [st BRAKE true; st GEAR true] false; Ovr 0 [st BRAKE false] false] no_overrides = Some ov' /\ ov' BRAKE = st BRAKE false /\ ov' GEAR = st GEAR true.
Proof. eexists. split; [reflexivity|]. split; reflexivity. Qed.
(** The object so always lists every type at its own place. *)
Theorem C73_own_place : forall g l ov ov', (forall t, v_type (ov t) = t) -> run g l ov = Some ov' -> forall t, v_type (ov' t) = t.
Proof.
  intros g l. induction l as [|w l IH]; intros ov ov' H E; cbn in E; [injection E as <-; exact H|].
  destruct (StartOvr g w ov) as [((w', o), n)|] eqn:A; [|discriminate]. apply (IH o ov'); [|exact E]. intros t. destruct (C73_start_sets _ _ _ _ _ _ A) as [P Q].
  destruct (last_with (is_type t) (w_list w)) as [s|] eqn:L.
  - rewrite (P _ _ L). apply last_with_in in L. now apply Z.eqb_eq.
  - rewrite Q; [apply H|]. intros s I. apply Z.eqb_neq. exact (proj1 (last_with_none _ _) L s I).
Qed.
Example C73_own_place_ex : (forall t, v_type (no_overrides t) = t) /\ exists ov', run false [Ovr 1 [st BRAKE true] false] no_overrides = Some ov' /\ v_type (ov' BRAKE) = 1%Z.
Proof. split; [reflexivity|]. eexists. split; reflexivity. Qed.

(** The ghost is restarted once for each active override switched off, and only then. *)
Theorem C73_ghost : forall g w ov w' ov' n, StartOvr g w ov = Some (w', ov', n) -> n = (if g then switched_off (w_list w) ov else 0)%nat.
Proof.
  intros g w ov w' ov' n E. unfold StartOvr in E.
  assert (V : Forall valid (w_list w)).
  { destruct (Forall_dec valid (fun s => ltac:(unfold valid; destruct (Z_le_dec 0 (v_type s)), (Z_lt_dec (v_type s) NR_TYPES); [left|right|right|right]; lia)) (w_list w)) as [V|V]; [exact V|].
    rewrite start_all_bad in E by exact V. discriminate. }
  destruct (start_all_spec g (w_list w) ov 0 V) as (o & F & _). rewrite F in E. injection E as _ _ <-. reflexivity.
Qed.
Example C73_ghost_ex : exists w' ov', StartOvr true (Ovr 0 [st BRAKE true; st BRAKE false; st BRAKE false] false) no_overrides = Some (w', ov', 1%nat).
Proof. do 2 eexists. reflexivity. Qed.
(** With one status of each type, that is for the types active before and given inactive; starting again restarts nothing. *)
Lemma switched_off_none : forall l ov, (forall s, In s l -> v_active s = false -> v_active (ov (v_type s)) = false) -> NoDup (map v_type l) -> switched_off l ov = 0%nat.
Proof.
  induction l as [|s l IH]; intros ov H N; [reflexivity|]. cbn in N |- *. inversion N as [|? ? A B]; subst. rewrite IH.
  - destruct (v_active s) eqn:E; [reflexivity|]. cbn. rewrite (H s (or_introl eq_refl) E). reflexivity.
  - intros x I E. destruct (v_type x =? v_type s)%Z eqn:T; [|apply H; [now right|exact E]]. apply Z.eqb_eq in T. exfalso. apply A. rewrite <- T. now apply in_map.
  - exact B.
Qed.
Lemma last_with_nodup : forall l s, NoDup (map v_type l) -> In s l -> last_with (is_type (v_type s)) l = Some s.
Proof.
  induction l as [|x l IH]; intros s N I; [destruct I|]. cbn in N. inversion N as [|? ? A B]; subst. cbn. destruct I as [->|I].
  - replace (last_with (is_type (v_type s)) l) with (@None status); [unfold is_type; now rewrite Z.eqb_refl|]. symmetry. apply last_with_none. intros y Y. apply Z.eqb_neq. intros E. apply A. rewrite <- E. now apply in_map.
  - now rewrite IH.
Qed.
Theorem C73_restart_once : forall g w ov w' ov' n, StartOvr g w ov = Some (w', ov', n) -> NoDup (map v_type (w_list w)) ->
  exists w2 ov2, StartOvr g w ov' = Some (w2, ov2, 0%nat) /\ forall t, ov2 t = ov' t.
Proof.
  intros g w ov w' ov' n E N. destruct (C73_start_sets _ _ _ _ _ _ E) as [P Q].
  destruct (StartOvr g w ov') as [((w2, ov2), k)|] eqn:E2.
  - exists w2, ov2. destruct (C73_start_sets _ _ _ _ _ _ E2) as [P2 Q2]. split.
    + apply C73_ghost in E2. rewrite switched_off_none in E2; [destruct g; now subst| |exact N]. intros s I A. rewrite (P _ s (last_with_nodup _ _ N I)). exact A.
    + intros t. destruct (last_with (is_type t) (w_list w)) as [s|] eqn:L; [rewrite (P _ _ L); now apply P2|]. apply Q2. intros s I. apply Z.eqb_neq. exact (proj1 (last_with_none _ _) L s I).
  - exfalso. unfold StartOvr in E, E2.
    destruct (Forall_dec valid (fun s => ltac:(unfold valid; destruct (Z_le_dec 0 (v_type s)), (Z_lt_dec (v_type s) NR_TYPES); [left|right|right|right]; lia)) (w_list w)) as [V|V].
    + destruct (start_all_spec g (w_list w) ov' 0 V) as (o & F & _). rewrite F in E2. discriminate.
    + rewrite start_all_bad in E by exact V. discriminate.
Qed.
Example C73_restart_once_ex : exists w' ov' w2 ov2, let w := Ovr 0 [st BRAKE false] false in let ov := fun t => st t true in
  StartOvr true w ov = Some (w', ov', 1%nat) /\ StartOvr true w ov' = Some (w2, ov2, 0%nat).
Proof. do 4 eexists. split; reflexivity. Qed.
(** Starting and stepping: the action is over after one step, its effect stays. *)
Theorem C73_one_step : forall g w ov w' ov' n, StartOvr g w ov = Some (w', ov', n) -> w_run w' = true /\ w_run (StepOvr w') = false /\ w_list (StepOvr w') = w_list w.
Proof. intros g w ov w' ov' n E. unfold StartOvr in E. destruct (start_all _ _ _) as [(o, k)|]; [|discriminate]. injection E as <- <- <-. auto. Qed.
Example C73_one_step_ex : exists w' ov', StartOvr true (Ovr 1 [st BRAKE true] false) no_overrides = Some (w', ov', 0%nat) /\ w_run (StepOvr w') = false.
Proof. do 2 eexists. split; reflexivity. Qed.

(** ** What the library reports *)
(** After any run of actions on a fresh object, the library reports of each type the latest status: whether active, value, rate, torque, kind and number. *)
Theorem C73_reported : forall g l ov', run g l no_overrides = Some ov' -> let o := SE_GetOverrideActionStatus ov' in
  let said t := match last_with (is_type t) (concat (map w_list l)) with Some s => s | None => Status t false 0 (-1) (-1) 0 0 end in
  p_active (o_throttle o) = v_active (said 0%Z) /\ p_value (o_throttle o) = v_value (said 0%Z) /\ p_rate (o_throttle o) = v_rate (said 0%Z) /\
  b_active (o_brake o) = v_active (said 1%Z) /\ b_value (o_brake o) = v_value (said 1%Z) /\ b_rate (o_brake o) = v_rate (said 1%Z) /\ b_kind (o_brake o) = v_kind (said 1%Z) /\ b_type (o_brake o) = 1%Z /\
  p_active (o_clutch o) = v_active (said 2%Z) /\ p_value (o_clutch o) = v_value (said 2%Z) /\ p_rate (o_clutch o) = v_rate (said 2%Z) /\
  b_active (o_parking o) = v_active (said 3%Z) /\ b_value (o_parking o) = v_value (said 3%Z) /\ b_rate (o_parking o) = v_rate (said 3%Z) /\ b_kind (o_parking o) = v_kind (said 3%Z) /\ b_type (o_parking o) = 3%Z /\
  s_active (o_wheel o) = v_active (said 4%Z) /\ s_value (o_wheel o) = v_value (said 4%Z) /\ s_rate (o_wheel o) = v_rate (said 4%Z) /\ s_torque (o_wheel o) = v_torque (said 4%Z) /\
  g_active (o_gear o) = v_active (said 5%Z) /\ g_number (o_gear o) = v_number (said 5%Z) /\ g_kind (o_gear o) = v_kind (said 5%Z) /\ g_type (o_gear o) = 5%Z.
Proof.
  intros g l ov' E. cbv zeta.
  assert (K : forall t, ov' t = match last_with (is_type t) (concat (map w_list l)) with Some s => s | None => Status t false 0 (-1) (-1) 0 0 end).
  { destruct (Forall_dec (fun w => Forall valid (w_list w)) (fun w => Forall_dec valid (fun s => ltac:(unfold valid; destruct (Z_le_dec 0 (v_type s)), (Z_lt_dec (v_type s) NR_TYPES); [left|right|right|right]; lia)) (w_list w)) l) as [V|V].
    - destruct (run_spec g l no_overrides V) as (o & F & T). rewrite F in E. injection E as <-. exact T.
    - exfalso. clear - E V. revert E V. generalize no_overrides. induction l as [|w l IH]; intros ov E V; [apply V; constructor|]. cbn in E. destruct (StartOvr g w ov) as [((w', o), n)|] eqn:A; [|discriminate].
      apply (IH o E). intros F. apply V. constructor; [|exact F].
      destruct (Forall_dec valid (fun s => ltac:(unfold valid; destruct (Z_le_dec 0 (v_type s)), (Z_lt_dec (v_type s) NR_TYPES); [left|right|right|right]; lia)) (w_list w)) as [U|U]; [exact U|].
      unfold StartOvr in A. rewrite start_all_bad in A by exact U. discriminate. }
  pose proof (C73_own_place g l no_overrides ov' (fun t => eq_refl) E) as T.
  cbv beta. rewrite <- !K. cbn. repeat split; apply T.
Qed.
Example C73_reported_ex : exists ov', run false [Ovr 1 [st BRAKE true] false] no_overrides = Some ov' /\ b_active (o_brake (SE_GetOverrideActionStatus ov')) = true /\ p_active (o_throttle (SE_GetOverrideActionStatus ov')) = false.
Proof. eexists. split; [reflexivity|]. split; reflexivity. Qed.

(** What is read, element by element: the value nearest in range, -1 for a rate or torque that is not given. *)
Definition or_none (o : option R) : R := match o with Some r => r | None => -1 end.
Lemma range_clamp : forall v lo up, lo <= up -> RangeCheck v lo up false = Rmax lo (Rmin v up).
Proof.
  intros v lo up H. unfold RangeCheck. destruct (Rltb up v) eqn:A; [apply Rltb_true in A|apply Rltb_false in A]; cbn.
  - rewrite Rmin_right, Rmax_right by lra. reflexivity.
  - rewrite (Rmin_left v up) by lra. destruct (Rltb v lo) eqn:B; [apply Rltb_true in B|apply Rltb_false in B]; cbn; [rewrite Rmax_left by lra|rewrite Rmax_right by lra]; reflexivity.
Qed.
Theorem C73_read_exact : forall m a v r q z,
  read_elem m a (EThrottle v r) = Some (Status 0 a (Rmax 0 (Rmin v 1)) (if m then or_none r else -1) (-1) 0 0) /\
  read_elem m a (EClutch v r) = Some (Status 2 a (Rmax 0 (Rmin v 1)) (if m then or_none r else -1) (-1) 0 0) /\
  read_elem m a (ESteer v r q) = Some (Status 4 a (Rmax (- (2 * PI)) (Rmin v (2 * PI))) (if m then or_none r else -1) (if m then or_none q else -1) 0 0) /\
  (forall t, In t [(1%Z, EBrake); (3%Z, EParking)] ->
     read_elem m a (snd t (BValue v)) = Some (Status (fst t) a (Rmax 0 (Rmin v 1)) (-1) (-1) 0 0) /\
     read_elem m a (snd t (BPercent v r)) = Some (Status (fst t) a (Rmax 0 (Rmin v 1)) (or_none r) (-1) 0 0) /\
     read_elem m a (snd t (BForce v r)) = Some (Status (fst t) a (Rmax 0 v) (or_none r) (-1) 0 1)) /\
  (forall g, In g [GNumber z; GValue z; GManual z] -> read_elem m a (EGear g) = Some (Status 5 a 0 (-1) (-1) z 0)) /\
  (forall w, In w [(Gr, -1); (Gn, 0); (Gp, 1); (Gd, 2)]%Z -> read_elem m a (EGear (GAuto (fst w))) = Some (Status 5 a 0 (-1) (-1) (snd w) 1)).
Proof.
  intros m a v r q z. pose proof PI_RGT_0.
  assert (F : brake_force v = Rmax 0 v).
  { unfold brake_force. destruct (Rltb v 0) eqn:A; [apply Rltb_true in A; rewrite Rmax_left by lra|apply Rltb_false in A; rewrite Rmax_right by lra]; reflexivity. }
  cbn [read_elem]. rewrite !range_clamp by lra. replace (-2 * PI) with (- (2 * PI)) by ring.
  split; [destruct m; reflexivity|]. split; [destruct m; reflexivity|]. split; [destruct m; reflexivity|]. split.
  - intros t [<-|[<-|[]]]; cbn [fst snd read_elem read_brake]; rewrite range_clamp, F by lra; repeat split; reflexivity.
  - split; [intros g [<-|[<-|[<-|[]]]]; reflexivity|intros w [<-|[<-|[<-|[<-|[]]]]]; reflexivity].
Qed.
Example C73_read_exact_ex : read_elem false true (ESteer 7 (Some 1) None) = Some (Status 4 true (Rmax (- (2 * PI)) (Rmin 7 (2 * PI))) (-1) (-1) 0 0).
Proof. apply (C73_read_exact false true 7 (Some 1) None 0%Z). Qed.
(** Nothing else is read. *)
Theorem C73_read_rejects : forall m a e, read_elem m a e = None <-> In e [EBrake BOther; EParking BOther; EGear GNone; EGear (GAuto Gword); EGear GOther; EOther].
Proof.
  intros m a e. split.
  - destruct e as [| [] | | [] | | [| | |[]| |] |]; cbn; try discriminate; intros _; tauto.
  - intros [<-|[<-|[<-|[<-|[<-|[<-|[]]]]]]]; reflexivity.
Qed.
Example C73_read_rejects_ex : read_elem true true (EGear GNone) = None.
Proof. reflexivity. Qed.

Print Assumptions C73_read_in_range.
Print Assumptions C73_range_nearest.
Print Assumptions C73_range_keeps.
Print Assumptions C73_range_idempotent.
Print Assumptions C73_range_rounds.
Print Assumptions C73_rates.
Print Assumptions C73_rates_kept.
Print Assumptions C73_force.
Print Assumptions C73_gears_injective.
Print Assumptions C73_gear_kind.
Print Assumptions C73_read_all.
Print Assumptions C73_read_list.
Print Assumptions C73_domains.
Print Assumptions C73_domains_all_active.
Print Assumptions C73_domain_of_active_refuted.
Print Assumptions C73_order_refuted.
Print Assumptions C73_off_claims_nothing.
Print Assumptions C73_unknown_quits.
Print Assumptions C73_copy_overrides.
Print Assumptions C73_copy_domains_refuted.
Print Assumptions C73_copy_never_conflicts.
Print Assumptions C73_start_safe.
Print Assumptions C73_start_bad.
Print Assumptions C73_start_sets.
Print Assumptions C73_latest.
Print Assumptions C73_own_place.
Print Assumptions C73_ghost.
Print Assumptions C73_restart_once.
Print Assumptions C73_one_step.
Print Assumptions C73_reported.
Print Assumptions C73_read_exact.
Print Assumptions C73_read_rejects.
