(** * Proofs about OverrideControlAction *)
From Coq Require Import Reals Bool List ZArith NArith Lra Lia.
From Verif Require Import AngModel AngProofs OvrModel.
Import ListNotations.
Open Scope R_scope.

(** The last status of a list with some property. *)
Fixpoint last_with (p : status -> bool) (l : list status) : option status :=
  match l with
  | [] => None
  | s :: l => match last_with p l with Some x => Some x | None => if p s then Some s else None end
  end.
Definition is_type (t : Z) (s : status) : bool := (v_type s =? t)%Z.
Definition valid (s : status) : Prop := (0 <= v_type s < NR_TYPES)%Z.

Lemma last_with_app : forall p l s, last_with p (l ++ [s]) = if p s then Some s else last_with p l.
Proof. intros p l s. induction l as [|x l IH]; cbn; [now destruct (p s)|]. rewrite IH. destruct (p s); [reflexivity|]. reflexivity. Qed.
Lemma last_with_in : forall p l s, last_with p l = Some s -> In s l /\ p s = true.
Proof.
  intros p l s. induction l as [|x l IH]; cbn; [discriminate|]. destruct (last_with p l).
  - intros E. destruct (IH E). auto.
  - destruct (p x) eqn:P; [|discriminate]. intros E. injection E as <-. auto.
Qed.
Lemma last_with_none : forall p l, last_with p l = None <-> (forall s, In s l -> p s = false).
Proof.
  intros p l. split.
  - induction l as [|x l IH]; cbn; [intros _ s []|]. destruct (last_with p l); [discriminate|]. destruct (p x) eqn:P; [discriminate|].
    intros _ s [<-|H]; [exact P|]. now apply IH.
  - intros H. destruct (last_with p l) eqn:E; [|reflexivity]. apply last_with_in in E. destruct E as [I P]. rewrite (H _ I) in P. discriminate.
Qed.

(** ** Domains *)
Definition bit (d m : N) : bool := negb (N.land d m =? 0)%N.
Definition decided (o : option status) (before : bool) : bool := match o with Some s => v_active s | None => before end.

Lemma bit_testbit : forall d, bit d MASK_LONG = N.testbit d 0 /\ bit d MASK_LAT = N.testbit d 1.
Proof.
  intros d. unfold bit, MASK_LONG, MASK_LAT. split.
  - replace (N.land d 1) with (if N.testbit d 0 then 1 else 0)%N; [destruct (N.testbit d 0); reflexivity|].
    apply N.bits_inj. intros n. rewrite N.land_spec. destruct (N.eq_dec n 0) as [->|H].
    + destruct (N.testbit d 0); reflexivity.
    + assert (T : N.testbit 1 n = false) by (destruct n; [congruence|reflexivity]). rewrite T, andb_false_r. destruct (N.testbit d 0); [exact T|apply N.bits_0].
  - replace (N.land d 2) with (if N.testbit d 1 then 2 else 0)%N; [destruct (N.testbit d 1); reflexivity|].
    apply N.bits_inj. intros n. rewrite N.land_spec. destruct (N.eq_dec n 1) as [->|H].
    + destruct (N.testbit d 1); reflexivity.
    + assert (T : N.testbit 2 n = false) by (destruct n as [|[p|p|]]; try reflexivity; congruence). rewrite T, andb_false_r. destruct (N.testbit d 1); [exact T|apply N.bits_0].
Qed.

Lemma add_bits : forall s w w', AddOverrideStatus s w = Some w' ->
  bit (w_domains w') MASK_LAT = (if is_type STEERING_WHEEL s then v_active s else bit (w_domains w) MASK_LAT) /\
  bit (w_domains w') MASK_LONG = (if is_type STEERING_WHEEL s then bit (w_domains w) MASK_LONG else v_active s) /\
  w_list w' = w_list w ++ [s] /\ w_run w' = w_run w.
Proof.
  intros s w w' E. unfold AddOverrideStatus in E. destruct (v_type s <? NR_TYPES)%Z; [|discriminate]. injection E as <-. cbn -[MASK_LAT MASK_LONG]. unfold is_type.
  rewrite !(proj1 (bit_testbit _)), !(proj2 (bit_testbit _)).
  destruct (v_type s =? STEERING_WHEEL)%Z, (v_active s); rewrite ?N.lor_spec, ?N.ldiff_spec; cbn; rewrite ?orb_true_r, ?andb_false_r, ?orb_false_r, ?andb_true_r; auto.
Qed.

Lemma add_all_bits : forall l w w', AddAll l w = Some w' ->
  bit (w_domains w') MASK_LAT = decided (last_with (is_type STEERING_WHEEL) l) (bit (w_domains w) MASK_LAT) /\
  bit (w_domains w') MASK_LONG = decided (last_with (fun s => negb (is_type STEERING_WHEEL s)) l) (bit (w_domains w) MASK_LONG) /\
  w_list w' = w_list w ++ l /\ w_run w' = w_run w.
Proof.
  induction l as [|s l IH]; intros w w' E; cbn in E |- *.
  - injection E as <-. rewrite app_nil_r. auto.
  - destruct (AddOverrideStatus s w) as [u|] eqn:A; [|discriminate]. apply add_bits in A. destruct A as (A1 & A2 & A3 & A4).
    destruct (IH u w' E) as (B1 & B2 & B3 & B4). rewrite B1, B2, B3, B4, A1, A2, A3, A4, <- app_assoc.
    split; [|split; [|auto]].
    + destruct (last_with (is_type STEERING_WHEEL) l); [reflexivity|]. destruct (is_type STEERING_WHEEL s); reflexivity.
    + destruct (last_with (fun s => negb (is_type STEERING_WHEEL s)) l); [reflexivity|]. destruct (is_type STEERING_WHEEL s); reflexivity.
Qed.
Lemma add_all_ok : forall l w, (exists w', AddAll l w = Some w') <-> Forall (fun s => (v_type s < NR_TYPES)%Z) l.
Proof.
  induction l as [|s l IH]; intros w; cbn; [split; [constructor|eauto]|]. unfold AddOverrideStatus at 1. destruct (v_type s <? NR_TYPES)%Z eqn:T.
  - rewrite IH. split; [intros H; constructor; [now apply Z.ltb_lt|exact H]|intros H; now inversion H].
  - split; [intros [? ?]; discriminate|]. intros H. inversion H; subst. apply Z.ltb_ge in T. lia.
Qed.

(** ** Start *)
(** How often an active override is switched off, going through the list from the state [ov]. *)
Fixpoint switched_off (l : list status) (ov : overrides) : nat :=
  match l with
  | [] => 0
  | s :: l => (if negb (v_active s) && v_active (ov (v_type s)) then 1 else 0) + switched_off l (fun j => if (j =? v_type s)%Z then s else ov j)
  end.

Lemma start_all_spec : forall g l ov n, Forall valid l -> exists ov', start_all g l (ov, n) = Some (ov', (n + if g then switched_off l ov else 0)%nat) /\
  forall t, ov' t = match last_with (is_type t) l with Some s => s | None => ov t end.
Proof.
  intros g l. induction l as [|s l IH]; intros ov n H; cbn.
  - exists ov. split; [|reflexivity]. do 2 f_equal. destruct g; lia.
  - inversion H as [|? ? V H']; subst. unfold valid in V. replace ((0 <=? v_type s) && (v_type s <? NR_TYPES))%Z with true by (symmetry; apply andb_true_iff; split; [apply Z.leb_le|apply Z.ltb_lt]; lia).
    destruct (IH (fun j => if (j =? v_type s)%Z then s else ov j) (if g && negb (v_active s) && v_active (ov (v_type s)) then S n else n) H') as (ov' & E & F).
    exists ov'. split.
    + etransitivity; [exact E|]. do 2 f_equal. destruct g; cbn; [|lia]. destruct (negb (v_active s) && v_active (ov (v_type s))); lia.
    + intros t. rewrite F. destruct (last_with (is_type t) l); [reflexivity|]. unfold is_type. rewrite (Z.eqb_sym (v_type s) t). destruct (t =? v_type s)%Z; reflexivity.
Qed.
Lemma start_all_bad : forall g l r, ~ Forall valid l -> start_all g l r = None.
Proof.
  intros g l. induction l as [|s l IH]; intros [ov n] H; [exfalso; apply H; constructor|]. cbn. destruct ((0 <=? v_type s) && (v_type s <? NR_TYPES))%Z eqn:T; [|reflexivity].
  apply IH. intros F. apply H. constructor; [|exact F]. apply andb_true_iff in T. destruct T as [T1 T2]. apply Z.leb_le in T1. apply Z.ltb_lt in T2. split; assumption.
Qed.

(** ** Ranges *)
Lemma round_near : forall x, Rabs (round_ x - x) <= 1 / 2 /\ exists k, round_ x = IZR k.
Proof.
  intros x. unfold round_. destruct (Rltb x 0) eqn:E.
  - destruct (base_Int_part (- x + 1 / 2)) as [A B]. split; [apply Rabs_le; lra|]. exists (- Int_part (- x + 1 / 2))%Z. now rewrite opp_IZR.
  - destruct (base_Int_part (x + 1 / 2)) as [A B]. split; [apply Rabs_le; lra|]. eauto.
Qed.
Lemma Rabs_le_inv_ : forall x y, Rabs x <= y -> - y <= x <= y.
Proof. intros x y H. unfold Rabs in H. destruct (Rcase_abs x); lra. Qed.
Lemma round_int : forall k x, (IZR k <= x -> IZR k <= round_ x) /\ (x <= IZR k -> round_ x <= IZR k).
Proof.
  intros k x. destruct (round_near x) as [A (j & B)]. rewrite B in *. apply Rabs_le_inv_ in A.
  split; intros H; apply IZR_le.
  - assert (IZR k < IZR j + 1) by lra. rewrite <- plus_IZR in H0. apply lt_IZR in H0. lia.
  - assert (IZR j < IZR k + 1) by lra. rewrite <- plus_IZR in H0. apply lt_IZR in H0. lia.
Qed.

Lemma range_spec : forall v lo up, lo <= up -> let r := RangeCheck v lo up false in
  lo <= r <= up /\ (forall y, lo <= y <= up -> Rabs (v - r) <= Rabs (v - y)).
Proof.
  intros v lo up H. cbn. unfold RangeCheck. destruct (Rltb up v) eqn:A; cbn.
  - apply Rltb_true in A. split; [lra|]. intros y Y. rewrite !Rabs_right; lra.
  - apply Rltb_false in A. destruct (Rltb v lo) eqn:B; cbn.
    + apply Rltb_true in B. split; [lra|]. intros y Y. rewrite !Rabs_left1; lra.
    + apply Rltb_false in B. split; [lra|]. intros y Y. replace (v - v) with 0 by ring. rewrite Rabs_R0. apply Rabs_pos.
Qed.
Lemma range_in : forall v lo up, lo <= v <= up -> RangeCheck v lo up false = v.
Proof. intros v lo up H. unfold RangeCheck. rewrite (proj2 (Rltb_false up v)) by lra. rewrite (proj2 (Rltb_false v lo)) by lra. reflexivity. Qed.
Lemma range_round : forall v lo up, (lo <= up)%Z -> exists k, RangeCheck v (IZR lo) (IZR up) true = IZR k /\ (lo <= k <= up)%Z.
Proof.
  intros v lo up H. unfold RangeCheck. destruct (Rltb (IZR up) v) eqn:A; cbn; [exists up; split; [reflexivity|lia]|]. destruct (Rltb v (IZR lo)) eqn:B; cbn; [exists lo; split; [reflexivity|lia]|].
  apply Rltb_false in A, B. destruct (round_near v) as [_ (k & E)]. exists k. split; [exact E|].
  destruct (round_int lo v) as [P _], (round_int up v) as [_ Q]. rewrite E in P, Q. split; apply le_IZR; lra.
Qed.

(** ** Reading *)
(** The admissible values of each type as documented at OT/OSCPrivateAction.hpp:1720. *)
Definition in_range (s : status) : Prop :=
  (v_type s = THROTTLE \/ v_type s = CLUTCH -> 0 <= v_value s <= 1) /\
  (v_type s = BRAKE \/ v_type s = PARKING_BRAKE -> 0 <= v_value s /\ (v_kind s = Percent -> v_value s <= 1)) /\
  (v_type s = STEERING_WHEEL -> - (2 * PI) <= v_value s <= 2 * PI).

Lemma range01 : forall v, 0 <= RangeCheck v 0 1 false <= 1.
Proof. intros v. apply (range_spec v 0 1). lra. Qed.
Lemma range2pi : forall v, - (2 * PI) <= RangeCheck v (-2 * PI) (2 * PI) false <= 2 * PI.
Proof. intros v. pose proof PI_RGT_0. pose proof (range_spec v (-2 * PI) (2 * PI) ltac:(lra)) as [A _]. lra. Qed.
Lemma force_nonneg : forall v, 0 <= brake_force v.
Proof. intros v. unfold brake_force. destruct (Rltb v 0) eqn:E; [lra|]. apply Rltb_false in E. lra. Qed.

Ltac kinds := unfold in_range, valid, THROTTLE, CLUTCH, BRAKE, PARKING_BRAKE, STEERING_WHEEL, GEAR, NR_TYPES, Percent, Force; cbn.
Lemma read_brake_ok : forall t a b s, t = BRAKE \/ t = PARKING_BRAKE -> read_brake t a b = Some s -> v_type s = t /\ v_active s = a /\ 0 <= v_value s /\ (v_kind s = Percent -> v_value s <= 1).
Proof.
  intros t a b s T E. destruct b; cbn in E; try discriminate; injection E as <-; cbn; split; try reflexivity; split; try reflexivity.
  - pose proof (range01 v). lra.
  - split; [apply force_nonneg|unfold Force, Percent; discriminate].
  - pose proof (range01 v). lra.
Qed.
Lemma read_elem_ok : forall m a e s, read_elem m a e = Some s -> valid s /\ v_active s = a /\ in_range s.
Proof.
  intros m a e s E. destruct e; cbn in E; try discriminate.
  - injection E as <-. kinds. split; [lia|]. split; [reflexivity|]. split; [intros _; apply range01|]. split; intros H; exfalso; lia.
  - apply read_brake_ok in E; [|auto]. destruct E as (T & A & V). revert T V. kinds. intros T V. rewrite T. split; [lia|]. split; [exact A|]. split; [intros; exfalso; lia|]. split; [auto|intros; exfalso; lia].
  - injection E as <-. kinds. split; [lia|]. split; [reflexivity|]. split; [intros _; apply range01|]. split; intros H; exfalso; lia.
  - apply read_brake_ok in E; [|auto]. destruct E as (T & A & V). revert T V. kinds. intros T V. rewrite T. split; [lia|]. split; [exact A|]. split; [intros; exfalso; lia|]. split; [auto|intros; exfalso; lia].
  - injection E as <-. kinds. split; [lia|]. split; [reflexivity|]. split; [intros; exfalso; lia|]. split; [intros; exfalso; lia|]. intros _. apply range2pi.
  - assert (G : v_type s = GEAR /\ v_active s = a) by (destruct g as [| | |[]| |]; cbn in E; try discriminate; injection E as <-; auto).
    destruct G as [T A]. revert T. kinds. intros T. rewrite T. split; [lia|]. split; [exact A|]. repeat split; intros; exfalso; lia.
Qed.

(** Reading element by element is adding what the elements say. *)
Fixpoint all_read (m : bool) (l : list (bool * elem)) : option (list status) :=
  match l with
  | [] => Some []
  | (a, e) :: l => match read_elem m a e, all_read m l with Some s, Some r => Some (s :: r) | _, _ => None end
  end.
Lemma read_all_spec : forall m l w, read_all m l w = match all_read m l with Some r => AddAll r w | None => None end.
Proof.
  intros m l. induction l as [|(a, e) l IH]; intros w; cbn; [reflexivity|]. destruct (read_elem m a e) as [s|] eqn:E; [|reflexivity].
  destruct (AddOverrideStatus s w) as [u|] eqn:A.
  - rewrite IH. destruct (all_read m l); [cbn; now rewrite A|reflexivity].
  - apply read_elem_ok in E. destruct E as [V _]. unfold AddOverrideStatus in A. unfold valid in V. destruct (v_type s <? NR_TYPES)%Z eqn:T; [discriminate|]. apply Z.ltb_ge in T. lia.
Qed.
Lemma all_read_ok : forall m l r, all_read m l = Some r -> Forall valid r /\ Forall in_range r /\ map v_active r = map fst l.
Proof.
  intros m l. induction l as [|(a, e) l IH]; intros r E; cbn in E.
  - injection E as <-. auto.
  - destruct (read_elem m a e) as [s|] eqn:S1; [|discriminate]. destruct (all_read m l) as [q|]; [|discriminate]. injection E as <-.
    apply read_elem_ok in S1. destruct S1 as (V & A & I), (IH q eq_refl) as (F1 & F2 & F3). cbn. rewrite A, F3. auto.
Qed.
Lemma all_read_some : forall m l, (exists r, all_read m l = Some r) <-> Forall (fun x => read_elem m (fst x) (snd x) <> None) l.
Proof.
  intros m l. induction l as [|(a, e) l IH]; cbn; [split; eauto|]. split.
  - intros [r E]. destruct (read_elem m a e) eqn:S1; [|discriminate]. destruct (all_read m l) eqn:S2; [|discriminate]. constructor; [cbn; congruence|]. apply IH. eauto.
  - intros H. inversion H as [|? ? A B]; subst. cbn in A. destruct (read_elem m a e); [|congruence]. apply IH in B. destruct B as [r ->]. eauto.
Qed.

(** ** Runs of actions on one object *)
Fixpoint run (ghost : bool) (l : list ovr) (ov : overrides) : option overrides :=
  match l with
  | [] => Some ov
  | w :: l => match StartOvr ghost w ov with Some (_, ov, _) => run ghost l ov | None => None end
  end.
Lemma last_with_app2 : forall p l1 l2, last_with p (l1 ++ l2) = match last_with p l2 with Some s => Some s | None => last_with p l1 end.
Proof. intros p l1 l2. induction l1 as [|x l IH]; cbn; [destruct (last_with p l2); reflexivity|]. rewrite IH. destruct (last_with p l2); reflexivity. Qed.
Lemma run_spec : forall g l ov, Forall (fun w => Forall valid (w_list w)) l -> exists ov', run g l ov = Some ov' /\
  forall t, ov' t = match last_with (is_type t) (concat (map w_list l)) with Some s => s | None => ov t end.
Proof.
  intros g l. induction l as [|w l IH]; intros ov H; cbn; [exists ov; auto|]. inversion H as [|? ? V H']; subst.
  unfold StartOvr. destruct (start_all_spec g (w_list w) ov 0 V) as (ov1 & E & F). rewrite E. destruct (IH ov1 H') as (ov2 & E2 & F2). exists ov2. split; [exact E2|].
  intros t. rewrite F2, last_with_app2. destruct (last_with (is_type t) (concat (map w_list l))); [reflexivity|]. apply F.
Qed.
