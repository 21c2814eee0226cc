(** * Lemmas on driving by messages *)
From Coq Require Import Reals Bool List NArith ZArith Lra Lia.
From Verif Require Import AngModel AngProofs BoxModel AccModel VehModel UdpModel.
Import ListNotations.
Open Scope R_scope.

(** A datagram that is a whole message. *)
Definition whole (p : list N) : Prop := length p = 88%nat.
(** The state a message of mode XYZHPR or XYH tells of. *)
Definition told (dbl : list N -> R) (m : list N) (s : st) : Prop :=
  (inputMode m = 2%N /\ s = St (slot dbl m 0) (slot dbl m 1) (slot dbl m 3) (slot dbl m 6) (slot dbl m 7)) \/
  (inputMode m = 3%N /\ s = St (slot dbl m 0) (slot dbl m 1) (slot dbl m 2) (slot dbl m 3) (slot dbl m 4)).

Lemma recv_length : forall p buf, whole buf -> whole (snd (recv p buf)).
Proof. unfold whole, recv. intros p buf H. cbn [snd]. rewrite app_length, firstn_length, skipn_length, H. unfold SIZE. lia. Qed.
Lemma recv_whole : forall p buf, whole p -> whole buf -> recv p buf = (88%nat, p).
Proof.
  unfold whole, recv. intros p buf H B. rewrite H. f_equal. rewrite firstn_all2 by (unfold SIZE; lia). rewrite skipn_all2 by lia. apply app_nil_r.
Qed.
Lemma drain_length : forall q n buf, whole buf -> whole (snd (drain q n buf)).
Proof.
  induction q as [|p q IH]; intros n buf H; [exact H|]. cbn [drain]. pose proof (recv_length p buf H) as R1. destruct (recv p buf) as [k b]. apply IH. exact R1.
Qed.
Lemma drain_snoc : forall q p n buf, whole p -> whole buf -> drain (q ++ [p]) n buf = (88%nat, p).
Proof.
  induction q as [|a q IH]; intros p n buf P B.
  - cbn [app drain]. rewrite recv_whole by assumption. reflexivity.
  - cbn [app drain]. pose proof (recv_length a buf B) as R1. destruct (recv a buf) as [k b]. apply IH; assumption.
Qed.
Lemma receive_length : forall sync q buf, whole buf -> whole (snd (fst (receive sync q buf))).
Proof.
  intros sync q buf H. unfold receive. destruct sync; [destruct q as [|p q]; [exact H|]; exact (recv_length p buf H)|]. exact (drain_length q 0 buf H).
Qed.
Lemma receive_one : forall sync p buf, whole p -> whole buf -> receive sync [p] buf = (88%nat, p, []).
Proof. intros [] p buf P B; unfold receive; [|change [p] with ([] ++ [p]); rewrite drain_snoc by assumption; reflexivity]. rewrite recv_whole by assumption. reflexivity. Qed.
Lemma receive_none : forall sync buf, receive sync [] buf = (0%nat, buf, []).
Proof. intros []; reflexivity. Qed.

(** A step with one whole message and a step without any. *)
Lemma Step_one : forall dbl sync own dt p c w, whole p -> whole (c_msg c) ->
  Step dbl sync own dt [p] c w =
    match handle dbl p (c_veh c) w with
    | None => ([], Ctl p p (c_veh c), w)
    | Some (v, w) => let (v, w) := move dbl dt own 88 p v w in ([], Ctl p p v, w)
    end.
Proof. intros. unfold Step. rewrite receive_one by assumption. reflexivity. Qed.
Lemma Step_none : forall dbl sync own dt c w,
  Step dbl sync own dt [] c w = (let (v, w) := move dbl dt own 0 (c_last c) (c_veh c) w in ([], Ctl (c_msg c) (c_last c) v, w)).
Proof. intros. unfold Step. rewrite receive_none. reflexivity. Qed.

Lemma handle_told : forall dbl m v w s, version m = 1%N -> w (to_int (objectId m)) <> None -> told dbl m s ->
  handle dbl m v w = Some (SetPos v (s_x s) (s_y s) (s_h s), put w (to_int (objectId m)) s).
Proof.
  intros dbl m v w s V K T. unfold handle. rewrite V. change (1 =? VERSION)%N with true. cbn [negb].
  destruct (w (to_int (objectId m))); [|congruence]. destruct T as [[M ->]|[M ->]]; rewrite M; reflexivity.
Qed.
Lemma put_same : forall w i o, put w i o i = Some o.
Proof. intros. unfold put. rewrite Z.eqb_refl. reflexivity. Qed.
Lemma put_other : forall w i o j, j <> i -> put w i o j = w j.
Proof. intros. unfold put. apply Z.eqb_neq in H. rewrite H. reflexivity. Qed.

Lemma move_others : forall dbl dt own n m v w j, j <> own -> snd (move dbl dt own n m v w) j = w j.
Proof.
  intros dbl dt own n m v w j H. unfold move. destruct (w own) as [o|]; [|reflexivity]. destruct (Rltb SMALL_NUMBER dt); [|reflexivity].
  destruct (reckons n m); [destruct (course dbl m); simpl; now apply put_other|]. destruct (inputMode m =? DRIVER_INPUT)%N; [simpl; now apply put_other|reflexivity].
Qed.
Lemma move_still : forall dbl dt own n m v w, reckons n m = false -> inputMode m <> 1%N -> move dbl dt own n m v w = (v, w).
Proof.
  intros dbl dt own n m v w R1 M. unfold move. destruct (w own); [|reflexivity]. rewrite R1. apply N.eqb_neq in M. change DRIVER_INPUT with 1%N. rewrite M. destruct (Rltb _ _); reflexivity.
Qed.
Lemma move_reckon : forall dbl dt own n m v w o, 1 / 1000000 < dt -> reckons n m = true -> w own = Some o ->
  move dbl dt own n m v w = (v, put w own (St (s_x o + fst (course dbl m) * dt * cos (snd (course dbl m))) (s_y o + fst (course dbl m) * dt * sin (snd (course dbl m))) (h_ v) (s_speed o) (s_wheel o))).
Proof.
  intros dbl dt own n m v w o D R1 K. unfold move. rewrite K, R1, (proj2 (Rltb_true SMALL_NUMBER dt) D). destruct (course dbl m). reflexivity.
Qed.
Lemma move_driver : forall dbl dt own n m v w o, 1 / 1000000 < dt -> inputMode m = 1%N -> w own = Some o ->
  move dbl dt own n m v w = (let u := DrivingControlAnalog v dt (slot dbl m 0 - slot dbl m 1) (slot dbl m 2) in (u, put w own (St (x_ u) (y_ u) (h_ u) (speed_ u) (wheel_ u)))).
Proof.
  intros dbl dt own n m v w o D M K. unfold move. rewrite K, (proj2 (Rltb_true SMALL_NUMBER dt) D).
  assert (R1 : reckons n m = false) by (unfold reckons; rewrite M; simpl; apply andb_false_r). rewrite R1, M. reflexivity.
Qed.

Lemma reckons_told : forall dbl m s n, told dbl m s -> (0 < n)%nat -> reckons n m = false.
Proof.
  intros dbl m s n T H. destruct n; [lia|]. unfold reckons. destruct T as [[M _]|[M _]]; rewrite M; reflexivity.
Qed.
Lemma told_not_driver : forall dbl m s, told dbl m s -> inputMode m <> 1%N.
Proof. intros dbl m s [[M _]|[M _]]; rewrite M; discriminate. Qed.

(** Steps without messages. *)
Fixpoint quiet (dbl : list N -> R) (sync : bool) (own : Z) (l : list R) (c : ctl) (w : world) : ctl * world :=
  match l with
  | [] => (c, w)
  | dt :: l => let '(_, c, w) := Step dbl sync own dt [] c w in quiet dbl sync own l c w
  end.
Definition total (l : list R) : R := fold_right Rplus 0 l.

Lemma quiet_reckon : forall dbl sync own l c w o, Forall (fun dt => 1 / 1000000 < dt) l -> w own = Some o -> reckons 0 (c_last c) = true ->
  let v := fst (course dbl (c_last c)) in let h := snd (course dbl (c_last c)) in
  let '(c', w') := quiet dbl sync own l c w in
  c' = c /\ (forall j, j <> own -> w' j = w j) /\
  exists o', w' own = Some o' /\ s_x o' = s_x o + v * total l * cos h /\ s_y o' = s_y o + v * total l * sin h /\ s_speed o' = s_speed o /\ s_wheel o' = s_wheel o /\ s_h o' = match l with [] => s_h o | _ => h_ (c_veh c) end.
Proof.
  intros dbl sync own l. induction l as [|dt l IH]; intros c w o F K R1; cbv zeta.
  - simpl. split; [reflexivity|]. split; [auto|]. exists o. split; [exact K|]. repeat split; ring.
  - inversion F as [|? ? F1 F2]; subst. cbn [quiet]. rewrite Step_none, (move_reckon _ _ _ _ _ _ _ _ F1 R1 K).
    destruct c as [cm cl cv]. cbn [c_msg c_last c_veh] in *.
    match goal with |- context [quiet dbl sync own l ?a (put w own ?s)] => pose proof (IH a (put w own s) s F2 (put_same w own s) R1) as J end. clear IH.
    cbn [c_msg c_last c_veh s_x s_y s_h s_speed s_wheel] in J.
    match goal with |- context [quiet dbl sync own l ?a ?b] => destruct (quiet dbl sync own l a b) as [c' w'] end.
    destruct J as (I1 & I2 & o' & I3 & I4 & I5 & I6 & I7 & I8). split; [exact I1|].
    split; [intros j Hj; rewrite I2 by exact Hj; now apply put_other|]. exists o'. split; [exact I3|]. cbn [total fold_right]. fold (total l).
    split; [rewrite I4; ring|]. split; [rewrite I5; ring|]. split; [exact I6|]. split; [exact I7|]. rewrite I8. destruct l; reflexivity.
Qed.
