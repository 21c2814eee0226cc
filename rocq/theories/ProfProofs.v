(** * Lemmas about speed profiles *)
From Coq Require Import Reals Bool List Arith Lia Lra.
From Verif Require Import AngModel AngProofs GeoModel TransModel BoxProofs GapProofs ProfModel.
Import ListNotations.
Open Scope R_scope.

(** ** Spec: the corners of a profile *)

(** The time a change of speed takes: the wanted one, or longer if the allowed accelerations ask for it. *)
Definition need (L : limits) (dv dt : R) : R := Rmax dt (Rmax (dv / max_acc L) (- dv / max_dec L)).

(** Times and speeds of the corners of a profile that starts at time [t] with speed [v]. *)
Fixpoint corners (L : limits) (offset t v : R) (es : list entry) : list (R * R) :=
  (t, v) :: match es with
            | [] => []
            | e :: r => corners L offset (t + need L (e_speed e + offset - v) (e_time e)) (e_speed e + offset) r
            end.

(** The corners with the slopes between them, zero after the last. *)
Fixpoint knots (l : list (R * R)) : list vertex :=
  match l with
  | [] => []
  | (t, v) :: r =>
      match r with
      | [] => [vertex3 t v 0]
      | (t', v') :: _ => vertex3 t v ((v' - v) / (t' - t)) :: knots r
      end
  end.

(** An entry with a time, not so short that a millionth of a metre per second is too much for it. *)
Definition timed (L : limits) (e : entry) : Prop :=
  SMALL_NUMBER < e_time e /\ SMALL_NUMBER <= max_acc L * e_time e /\ SMALL_NUMBER <= max_dec L * e_time e.

(** The slope changes at every corner but the last. *)
Fixpoint bends (l : list vertex) : Prop :=
  match l with
  | a :: ((b :: _ :: _) as r) => SMALL_NUMBER <= Rabs (x_k b - x_k a) /\ bends r
  | _ => True
  end.

Lemma knots_cons : forall t v t' v' r, knots ((t, v) :: (t', v') :: r) = vertex3 t v ((v' - v) / (t' - t)) :: knots ((t', v') :: r).
Proof. reflexivity. Qed.

Lemma corners_head : forall L o t v es, exists r, corners L o t v es = (t, v) :: r.
Proof. intros. destruct es; eexists; reflexivity. Qed.

Lemma corners_cons : forall L o t v e es, corners L o t v (e :: es) =
  (t, v) :: corners L o (t + need L (e_speed e + o - v) (e_time e)) (e_speed e + o) es.
Proof. reflexivity. Qed.

Lemma knots_head : forall l, l <> [] -> exists x r, knots l = x :: r /\ x_t x = fst (hd (0, 0) l) /\ x_v x = snd (hd (0, 0) l).
Proof. intros [|[t v] [|[t' v'] r]] H; [easy| |]; cbn [knots hd fst snd]; eexists; eexists; repeat split. Qed.

Lemma bends_tl : forall a l, bends (a :: l) -> bends l.
Proof. intros a [|b [|c l]]; cbn; tauto. Qed.

Lemma small_pos : 0 < SMALL_NUMBER. Proof. unfold SMALL_NUMBER. lra. Qed.

Lemma need_pos : forall L dv dt, 0 < dt -> 0 < need L dv dt.
Proof. intros. unfold need. eapply Rlt_le_trans; [exact H|apply Rmax_l]. Qed.

(** The slope of a corner is within the limits, and equals the wanted one if that is. *)
Lemma need_slope : forall L dv dt, 0 < dt -> 0 < max_acc L -> 0 < max_dec L ->
  (- max_dec L <= dv / dt <= max_acc L -> need L dv dt = dt) /\
  (dv / dt < - max_dec L -> need L dv dt = dv / - max_dec L) /\
  (max_acc L < dv / dt -> need L dv dt = dv / max_acc L) /\
  - max_dec L <= dv / need L dv dt <= max_acc L.
Proof.
  intros L dv dt H HA HD.
  assert (E : dv = (dv / dt) * dt) by (field; lra). set (k := dv / dt) in *. clearbody k. subst dv.
  assert (A1 : k <= max_acc L -> k * dt / max_acc L <= dt).
  { intro. apply (Rmult_le_reg_r (max_acc L)); [lra|]. replace (k * dt / max_acc L * max_acc L) with (k * dt) by (field; lra). nra. }
  assert (A2 : max_acc L < k -> dt <= k * dt / max_acc L).
  { intro. apply (Rmult_le_reg_r (max_acc L)); [lra|]. replace (k * dt / max_acc L * max_acc L) with (k * dt) by (field; lra). nra. }
  assert (D1 : - max_dec L <= k -> - (k * dt) / max_dec L <= dt).
  { intro. apply (Rmult_le_reg_r (max_dec L)); [lra|]. replace (- (k * dt) / max_dec L * max_dec L) with (- (k * dt)) by (field; lra). nra. }
  assert (D2 : k < - max_dec L -> dt <= - (k * dt) / max_dec L).
  { intro. apply (Rmult_le_reg_r (max_dec L)); [lra|]. replace (- (k * dt) / max_dec L * max_dec L) with (- (k * dt)) by (field; lra). nra. }
  assert (B1 : - max_dec L <= k <= max_acc L -> need L (k * dt) dt = dt).
  { intros [? ?]. unfold need. apply Rmax_left. apply Rmax_lub; auto. }
  assert (B2 : k < - max_dec L -> need L (k * dt) dt = k * dt / - max_dec L).
  { intro. unfold need. rewrite (Rmax_right (k * dt / max_acc L)).
    - rewrite Rmax_right by auto. field. lra.
    - apply Rle_trans with dt; [apply A1; lra|auto]. }
  assert (B3 : max_acc L < k -> need L (k * dt) dt = k * dt / max_acc L).
  { intro. unfold need. rewrite (Rmax_left (k * dt / max_acc L)).
    - rewrite Rmax_right by auto. reflexivity.
    - apply Rle_trans with dt; [apply D1; lra|auto]. }
  repeat split; auto.
  - destruct (Rlt_dec k (- max_dec L)) as [C|C]; [|destruct (Rlt_dec (max_acc L) k) as [C'|C']].
    + rewrite B2 by auto. replace (k * dt / (k * dt / - max_dec L)) with (- max_dec L) by (field; nra). lra.
    + rewrite B3 by auto. replace (k * dt / (k * dt / max_acc L)) with (max_acc L) by (field; nra). lra.
    + rewrite B1 by lra. replace (k * dt / dt) with k by (field; lra). lra.
  - destruct (Rlt_dec k (- max_dec L)) as [C|C]; [|destruct (Rlt_dec (max_acc L) k) as [C'|C']].
    + rewrite B2 by auto. replace (k * dt / (k * dt / - max_dec L)) with (- max_dec L) by (field; nra). lra.
    + rewrite B3 by auto. replace (k * dt / (k * dt / max_acc L)) with (max_acc L) by (field; nra). lra.
    + rewrite B1 by lra. replace (k * dt / dt) with k by (field; lra). lra.
Qed.

(** One entry of the loop. *)
Lemma filter_timed : forall L o (n i : nat) e b older, timed L e -> 0 < max_acc L -> 0 < max_dec L ->
  let t := x_t b in let v' := e_speed e + o in let t' := t + need L (v' - x_v b) (e_time e) in
  let k := (v' - x_v b) / (t' - t) in
  ((1 < i)%nat -> exists p r, older = p :: r /\ SMALL_NUMBER <= Rabs (k - x_k p)) ->
  filter_entry L o n i e (b :: older) t =
  Some ((if (i =? n - 1)%nat then vertex3 t' v' 0 else vertex2 t' v') :: vertex3 t (x_v b) k :: older, t').
Proof.
  intros L o n i e b older (T & TA & TD) HA HD t v' t' k NB. pose proof small_pos as SP.
  destruct (need_slope L (v' - x_v b) (e_time e)) as (N1 & N2 & N3 & N4); [lra| | |]; auto.
  unfold filter_entry. fold v'. set (dv := v' - x_v b) in *. set (dt := e_time e) in *.
  rewrite (proj2 (Rltb_false dt (- SMALL_NUMBER))) by lra.
  assert (DIV : forall x y, y <> 0 -> div x y = Some (x / y)).
  { intros. unfold div. destruct (Reqb_spec y 0); [lra|reflexivity]. }
  rewrite DIV by lra. cbn [orb]. cbv zeta.
  set (k0 := dv / dt) in *.
  assert (KK : (- max_dec L <= k0 <= max_acc L -> k = k0 /\ t' = t + dt) /\ (k0 < - max_dec L -> k = - max_dec L /\ t' = t + dv / - max_dec L) /\
               (max_acc L < k0 -> k = max_acc L /\ t' = t + dv / max_acc L)).
  { assert (E : dv = k0 * dt) by (unfold k0; field; lra).
    assert (KE : k = dv / need L dv dt) by (unfold k, t'; f_equal; ring).
    split; [|split]; intro C.
    - rewrite KE. unfold t'. rewrite N1 by auto. split; reflexivity.
    - rewrite KE. unfold t'. rewrite N2 by auto. split; [|reflexivity]. field. split; [lra|]. rewrite E. nra.
    - rewrite KE. unfold t'. rewrite N3 by auto. split; [|reflexivity]. field. split; [lra|]. rewrite E. nra. }
  assert (SM : Rltb k0 (- max_dec L) || Rltb (max_acc L) k0 = true -> Rltb (Rabs dv) SMALL_NUMBER = false).
  { intro O. apply Rltb_false. assert (E : dv = k0 * dt) by (unfold k0; field; lra).
    apply orb_prop in O. destruct O as [O|O]; apply Rltb_true in O.
    - rewrite Rabs_left1 by (rewrite E; nra). rewrite E. nra.
    - rewrite Rabs_right by (rewrite E; nra). rewrite E. nra. }
  assert (FIN : forall T, (if (i <? n - 1)%nat && Rltb dt SMALL_NUMBER then Some (vertex2 t' v' :: older, t') else T) = T).
  { intro. rewrite (proj2 (Rltb_false dt SMALL_NUMBER)) by lra. rewrite andb_false_r. reflexivity. }
  assert (TAIL : (if (1 <? i)%nat then
            match older with
            | [] => None
            | p :: _ =>
                if Rltb (Rabs (k - x_k p)) SMALL_NUMBER then
                  match div (v' - x_v p) (t' - x_t p) with Some new_k => Some (vertex3 t' v' new_k :: older, t') | None => None end
                else Some ((if (i =? n - 1)%nat then vertex3 t' v' 0 else vertex2 t' v') :: SetK b k :: older, t')
            end
          else Some ((if (i =? n - 1)%nat then vertex3 t' v' 0 else vertex2 t' v') :: SetK b k :: older, t')) =
          Some ((if (i =? n - 1)%nat then vertex3 t' v' 0 else vertex2 t' v') :: vertex3 t (x_v b) k :: older, t')).
  { destruct (Nat.ltb_spec 1 i) as [I|I]; [|reflexivity].
    destruct (NB I) as (p & r & -> & B). rewrite (proj2 (Rltb_false _ _)) by exact B. reflexivity. }
  destruct (Rltb_spec k0 (- max_dec L)) as [C|C]; [|destruct (Rltb_spec (max_acc L) k0) as [C'|C']]; cbn [orb andb].
  - rewrite SM by reflexivity.
    rewrite (proj2 (Rltb_true k0 0)) by lra. unfold RMAX. rewrite (proj2 (Rltb_true _ _)) by exact C.
    destruct KK as (_ & (K1 & K2) & _); [exact C|]. rewrite DIV by lra. rewrite <- K2, FIN, <- K1.
    replace (SetK {| x_t := t; x_v := x_v b; x_k := x_k b; x_m := x_m b |} k) with (SetK b k) by reflexivity. exact TAIL.
  - rewrite SM by reflexivity.
    rewrite (proj2 (Rltb_false k0 0)) by lra. unfold RMIN. rewrite (proj2 (Rltb_true _ _)) by exact C'.
    destruct KK as (_ & _ & (K1 & K2)); [exact C'|]. rewrite DIV by lra. rewrite <- K2, FIN, <- K1.
    replace (SetK {| x_t := t; x_v := x_v b; x_k := x_k b; x_m := x_m b |} k) with (SetK b k) by reflexivity. exact TAIL.
  - destruct KK as ((K1 & K2) & _ & _); [lra|]. rewrite <- K2, FIN, <- K1. exact TAIL.
Qed.

(** The loop. *)
Lemma filter_corners : forall L o (n : nat), 0 < max_acc L -> 0 < max_dec L -> forall es (i : nat) b older,
  n = (i + List.length es)%nat -> Forall (timed L) es -> es <> [] ->
  match i with
  | 0 => bends (tl (knots (corners L o (x_t b) (x_v b) es)))
  | 1 => bends (knots (corners L o (x_t b) (x_v b) es))
  | _ => exists p r, older = p :: r /\ bends (p :: knots (corners L o (x_t b) (x_v b) es))
  end ->
  filter_entries L o n i es (b :: older) (x_t b) = Some (rev older ++ knots (corners L o (x_t b) (x_v b) es)).
Proof.
  intros L o n HA HD. induction es as [|e es IH]; intros i b older EN F NE B; [easy|].
  inversion F as [|? ? T F']; subst. cbn [filter_entries].
  set (v' := e_speed e + o) in *. set (t' := x_t b + need L (v' - x_v b) (e_time e)) in *.
  assert (KC : exists r, corners L o t' v' es = (t', v') :: r) by apply corners_head. destruct KC as (r & KC).
  assert (K0 : knots (corners L o (x_t b) (x_v b) (e :: es)) = vertex3 (x_t b) (x_v b) ((v' - x_v b) / (t' - x_t b)) :: knots (corners L o t' v' es)).
  { rewrite corners_cons. fold v' t'. rewrite KC. apply knots_cons. }
  rewrite K0 in B. rewrite K0.
  assert (NE' : exists x r', knots (corners L o t' v' es) = x :: r').
  { rewrite KC. destruct r as [|[? ?] ?]; eexists; eexists; reflexivity. }
  rewrite (filter_timed L o (i + List.length (e :: es)) i e b older T HA HD).
  2:{ intro I. destruct i as [|[|i]]; [lia|lia|]. destruct B as (p & q & -> & B). exists p, q. split; [reflexivity|].
      destruct NE' as (x & r' & NE'). rewrite NE' in B. destruct B as [B _]. exact B. }
  fold v' t'. cbn [fst snd]. destruct es as [|e2 es].
  - cbn [List.length filter_entries]. replace (i + 1 - 1)%nat with i by lia. rewrite Nat.eqb_refl. cbn [rev].
    rewrite <- app_assoc. reflexivity.
  - cbn [List.length]. replace (i =? i + S (S (List.length es)) - 1)%nat with false by (symmetry; apply Nat.eqb_neq; lia).
    set (b2 := vertex2 t' v'). change t' with (x_t b2) at 2.
    rewrite (IH (S i) b2); [|cbn; lia|exact F'|easy|].
    + cbn [rev]. rewrite <- app_assoc. reflexivity.
    + change (x_t b2) with t'. change (x_v b2) with v'. destruct i as [|[|i]].
      * exact B.
      * eexists. eexists. split; [reflexivity|]. exact B.
      * eexists. eexists. split; [reflexivity|]. destruct B as (p & q & -> & B). apply bends_tl in B. exact B.
Qed.

(** ** Spec: continuity of a profile *)

(** The acceleration of a segment. *)
Definition rate_at (s : segment) (time : R) : R := g_k s + g_j s * (time - g_t s).
(** Nothing happens to the speed, or to speed and acceleration, where one segment takes over from another; it does so later. *)
Definition joins (a b : segment) : Prop := g_v b = speed_at a (g_t b).
Definition smooth (a b : segment) : Prop := joins a b /\ g_k b = rate_at a (g_t b).
Definition in_order (a b : segment) : Prop := g_t a <= g_t b.
Fixpoint linked (P : segment -> segment -> Prop) (l : list segment) : Prop :=
  match l with
  | a :: ((b :: _) as r) => P a b /\ linked P r
  | _ => True
  end.

(** ** Position mode *)

Definition flat (x : vertex) : segment := Segment (x_t x) (x_v x) (x_k x) 0.

Lemma add_position : forall L l t v k j, AddSpeedSegment L (POSITION, l) t v k j = (POSITION, l ++ [Segment t v k j]).
Proof.
  intros. unfold AddSpeedSegment, CheckAccelerationRate, CheckAcceleration, CheckSpeed. cbn [fst snd].
  repeat match goal with |- context [if ?b then _ else _] => destruct b end; reflexivity.
Qed.

Lemma loop_position : forall L xs l s, vertex_loop L xs (POSITION, l) s = Some (POSITION, l ++ map flat xs).
Proof.
  induction xs as [|x xs IH]; intros; cbn [vertex_loop map]; [rewrite app_nil_r; reflexivity|].
  cbn [is_follow fst]. rewrite add_position, IH, <- app_assoc. reflexivity.
Qed.

Lemma knots_two : forall L o t v e es, exists x y r, knots (corners L o t v (e :: es)) = x :: y :: r.
Proof.
  intros. rewrite corners_cons. destruct (corners_head L o (t + need L (e_speed e + o - v) (e_time e)) (e_speed e + o) es) as (r & ->).
  rewrite knots_cons. destruct r as [|[? ?] ?]; eexists; eexists; eexists; reflexivity.
Qed.

Lemma segments_position : forall L k0 t0 o t v es, es <> [] ->
  segments L POSITION k0 t0 (knots (corners L o t v es)) = Some (POSITION, map flat (knots (corners L o t v es))).
Proof.
  intros L k0 t0 o t v [|e es] NE; [easy|]. destruct (knots_two L o t v e es) as (x & y & r & E). rewrite E.
  unfold segments. cbn [is_follow]. rewrite loop_position. reflexivity.
Qed.

Lemma knots_joined : forall L o es t v, 0 < max_acc L -> 0 < max_dec L -> Forall (fun e => 0 < e_time e) es ->
  let l := map flat (knots (corners L o t v es)) in
  linked joins l /\ linked in_order l /\ Forall (fun s => - max_dec L <= g_k s <= max_acc L /\ g_j s = 0) l.
Proof.
  intros L o es t v HA HD. revert t v. induction es as [|e es IH]; intros t v F l.
  - subst l. cbn. repeat split; auto. constructor; [|constructor]. cbn. lra.
  - inversion F as [|? ? P F']; subst. subst l. rewrite corners_cons.
    set (v' := e_speed e + o). set (nd := need L (v' - v) (e_time e)).
    pose proof (need_pos L (v' - v) (e_time e) P) as NP. fold nd in NP.
    destruct (need_slope L (v' - v) (e_time e) P HA HD) as (_ & _ & _ & N). fold nd in N.
    specialize (IH (t + nd) v' F'). cbv zeta in IH. destruct (corners_head L o (t + nd) v' es) as (r & E).
    rewrite E in *. rewrite knots_cons.
    destruct (knots_head ((t + nd, v') :: r)) as (x & q & KE & XT & XV); [easy|]. rewrite KE in *. cbn [fst snd hd] in XT, XV.
    cbn [map] in *. destruct IH as (A & B & C). repeat split.
    + unfold joins, speed_at, flat, vertex3. cbn [g_t g_v g_k g_j x_t x_v x_k]. rewrite XT, XV. field. lra.
    + exact A.
    + unfold in_order, flat, vertex3. cbn [g_t x_t]. rewrite XT. lra.
    + exact B.
    + constructor; [|exact C]. cbn. replace (t + nd - t) with nd by ring. split; [exact N|reflexivity].
Qed.

(** The last corner. *)
Lemma knots_last : forall L o es t v d, exists tz, last (map flat (knots (corners L o t v es))) d = Segment tz (last (map (fun e => e_speed e + o) es) v) 0 0 /\
  (Forall (fun e => 0 < e_time e) es -> t + fold_right Rplus 0 (map e_time es) <= tz).
Proof.
  intros L o es. induction es as [|e es IH]; intros t v d.
  - exists t. split; [reflexivity|]. intros _. cbn. lra.
  - rewrite corners_cons. set (v' := e_speed e + o). set (nd := need L (v' - v) (e_time e)).
    destruct (IH (t + nd) v' d) as (tz & E & T). destruct (corners_head L o (t + nd) v' es) as (r & CE). rewrite CE in *. rewrite knots_cons.
    exists tz. split.
    + destruct (knots_head ((t + nd, v') :: r)) as (x & q & KE & _ & _); [easy|]. rewrite KE in *. cbn [map] in *. cbn [last]. cbn [last] in E.
      rewrite E. f_equal. destruct es; [reflexivity|]. cbn [map last]. fold v'. clear. revert e0. induction es as [|e1 es IH]; intro; [reflexivity|]. cbn. apply IH.
    + intro F. inversion F as [|? ? P F']; subst. specialize (T F'). cbn [map fold_right].
      assert (e_time e <= nd) by (apply Rmax_l). lra.
Qed.

(** ** A single target in follow mode *)

(** Three segments: jerk, then jerk. *)
Lemma plan_two : forall k0 j0 j1 t0 v0 v3 s t2, j0 <> 0 -> j1 <> 0 -> j0 <> j1 ->
  s * s = j1 * (- (j0 - j1)) * (j0 * (2 * v3 - 2 * v0) + k0 * k0) ->
  t2 = (s + (j0 - j1) * (t0 * j0 - k0)) / (j0 * (j0 - j1)) ->
  let k1 := k0 + j0 * (t2 - t0) in
  let v2 := v0 + k0 * (t2 - t0) + j0 * (1 / 2) * ((t2 - t0) * (t2 - t0)) in
  linked smooth [Segment t0 v0 k0 j0; Segment t2 v2 k1 j1; Segment (t2 - k1 / j1) v3 0 0] /\ k1 = s / (j0 - j1) /\ t2 - t0 = (k1 - k0) / j0.
Proof.
  intros k0 j0 j1 t0 v0 v3 s t2 J0 J1 JJ S T k1 v2.
  assert (K : k1 = s / (j0 - j1)) by (unfold k1; rewrite T; field; split; lra).
  assert (TT : t2 - t0 = (k1 - k0) / j0) by (unfold k1; field; lra).
  split; [|split; assumption].
  cbn [linked]. unfold smooth, joins, speed_at, rate_at. cbn [g_t g_v g_k g_j].
  split; [split; [unfold v2; ring|reflexivity]|]. split; [|exact I].
  replace (t2 - k1 / j1 - t2) with (- (k1 / j1)) by ring. split; [|field; lra].
  assert (E : v3 = v0 + (- (k1 * k1 * (j0 - j1) / j1) - k0 * k0) / (2 * j0)).
  { assert (E : k1 * k1 * (j0 - j1) * (j0 - j1) = s * s) by (rewrite K; field; lra). rewrite S in E.
    assert (E2 : k1 * k1 * (j0 - j1) = - j1 * (j0 * (2 * v3 - 2 * v0) + k0 * k0)).
    { apply (Rmult_eq_reg_r (j0 - j1)); [|lra]. rewrite E. ring. }
    rewrite E2. field. lra. }
  unfold v2. rewrite TT. rewrite E at 1. field. lra.
Qed.

(** Four segments: jerk, linear, jerk. *)
Lemma plan_three : forall k0 j0 j1 t0 v0 t3 v3 s t1, j0 <> 0 -> j1 <> 0 -> j0 <> j1 ->
  s * s = j0 * j1 * (2 * v0 * (j1 - j0) + k0 * k0 + 2 * k0 * j1 * (t3 - t0) + j0 * j1 * ((t0 - t3) * (t0 - t3)) + 2 * v3 * (j0 - j1)) ->
  t1 = (- s - j0 * (k0 + t3 * j1) + t0 * (j0 * j0)) / (j0 * (j0 - j1)) ->
  let v1 := v0 + k0 * (t1 - t0) + j0 * (1 / 2) * ((t1 - t0) * (t1 - t0)) in
  let k1 := k0 + j0 * (t1 - t0) in
  let t2 := k1 / j1 + t3 in
  let v2 := v1 + k1 * (t2 - t1) in
  linked smooth [Segment t0 v0 k0 j0; Segment t1 v1 k1 0; Segment t2 v2 k1 j1; Segment t3 v3 0 0] /\
  k1 * (j0 - j1) = - s - j1 * (j0 * (t3 - t0) + k0) /\ t1 - t0 = (k1 - k0) / j0 /\
  k1 * k1 * (j0 - j1) + 2 * j1 * k1 * (j0 * (t3 - t0) + k0) + 2 * j0 * j1 * (v0 - v3) - j1 * (k0 * k0) = 0.
Proof.
  intros k0 j0 j1 t0 v0 t3 v3 s t1 J0 J1 JJ S T v1 k1 t2 v2.
  assert (K : k1 * (j0 - j1) = - s - j1 * (j0 * (t3 - t0) + k0)) by (unfold k1; rewrite T; field; split; lra).
  assert (TT : t1 - t0 = (k1 - k0) / j0) by (unfold k1; field; lra).
  assert (Q : k1 * k1 * (j0 - j1) + 2 * j1 * k1 * (j0 * (t3 - t0) + k0) + 2 * j0 * j1 * (v0 - v3) - j1 * (k0 * k0) = 0).
  { assert (SE : s = - (k1 * (j0 - j1)) - j1 * (j0 * (t3 - t0) + k0)) by lra. rewrite SE in S.
    apply (Rmult_eq_reg_r (j0 - j1)); [|lra]. rewrite Rmult_0_l. apply Rminus_diag_eq in S. rewrite <- S. ring. }
  split; [|split; [|split]]; try assumption.
  cbn [linked]. unfold smooth, joins, speed_at, rate_at. cbn [g_t g_v g_k g_j].
  split; [split; [unfold v1; ring|reflexivity]|]. split; [split; [unfold v2; ring|ring]|]. split; [|exact I].
  replace (t3 - t2) with (- (k1 / j1)) by (unfold t2; ring). split; [|field; lra].
  assert (E : v3 = v0 + (k1 * k1 * (j0 - j1) + 2 * j1 * k1 * (j0 * (t3 - t0) + k0) - j1 * (k0 * k0)) / (2 * j0 * j1)).
  { apply (Rmult_eq_reg_r (2 * j0 * j1)); [|apply Rmult_integral_contrapositive_currified; [lra|assumption]].
    replace ((v0 + (k1 * k1 * (j0 - j1) + 2 * j1 * k1 * (j0 * (t3 - t0) + k0) - j1 * (k0 * k0)) / (2 * j0 * j1)) * (2 * j0 * j1))
      with (2 * j0 * j1 * v0 + (k1 * k1 * (j0 - j1) + 2 * j1 * k1 * (j0 * (t3 - t0) + k0) - j1 * (k0 * k0))) by (field; split; assumption).
    lra. }
  unfold v2, v1. replace (t2 - t1) with (t3 - t0 + k1 / j1 - (t1 - t0)) by (unfold t2; ring). rewrite TT. rewrite E at 1. field. split; assumption.
Qed.

(** Four segments with a given acceleration between. *)
Lemma plan_clipped : forall k0 j0 j1 t0 v0 v3 k1, j0 <> 0 -> j1 <> 0 -> k1 <> 0 ->
  let t1 := t0 + (k1 - k0) / j0 in
  let v1 := v0 + k0 * (t1 - t0) + 1 / 2 * j0 * ((t1 - t0) * (t1 - t0)) in
  let t2 := (v3 - v1) / k1 + t1 + k1 / (2 * j1) in
  let v2 := v3 + k1 * k1 / (2 * j1) in
  let t3 := - v1 / k1 + v3 / k1 + t1 - k1 / (2 * j1) in
  linked smooth [Segment t0 v0 k0 j0; Segment t1 v1 k1 0; Segment t2 v2 k1 j1; Segment t3 v3 0 0] /\
  v1 = v0 + (k1 * k1 - k0 * k0) / (2 * j0) /\ t2 - t1 = (v3 - v1) / k1 + k1 / (2 * j1) /\ t3 - t2 = - (k1 / j1).
Proof.
  intros k0 j0 j1 t0 v0 v3 k1 J0 J1 K1 t1 v1 t2 v2 t3.
  assert (TT : t1 - t0 = (k1 - k0) / j0) by (unfold t1; ring).
  assert (V1 : v1 = v0 + (k1 * k1 - k0 * k0) / (2 * j0)) by (unfold v1; rewrite TT; field; lra).
  assert (T2 : t2 - t1 = (v3 - v1) / k1 + k1 / (2 * j1)) by (unfold t2; ring).
  assert (T3 : t3 - t2 = - (k1 / j1)) by (unfold t3, t2; field; split; assumption).
  split; [|split; [|split]]; try assumption.
  cbn [linked]. unfold smooth, joins, speed_at, rate_at. cbn [g_t g_v g_k g_j].
  rewrite TT, T2, T3. clearbody t3 t2. repeat split; try (field; repeat split; assumption).
  - unfold v1. rewrite TT. ring.
  - unfold v2. field. split; assumption.
  - unfold v2. field. assumption.
Qed.

(** What is said about the limits. *)
Definition sane (L : limits) : Prop :=
  0 < max_acc L /\ 0 < max_dec L /\ 0 < max_acc_rate L /\ 0 < max_dec_rate L /\ SMALL_NUMBER <= max_acc_rate L + max_dec_rate L.

Lemma add_segment : forall L a t v k j, snd (AddSpeedSegment L a t v k j) = snd a ++ [Segment t v k j].
Proof. reflexivity. Qed.

Lemma allowed_spec : forall L k, reflect (- max_dec L <= k <= max_acc L) (allowed L k).
Proof.
  intros. unfold allowed. destruct (Rltb_spec k (- max_dec L)); destruct (Rltb_spec (max_acc L) k); cbn; constructor; lra.
Qed.

Lemma div_some : forall x y, y <> 0 -> div x y = Some (x / y).
Proof. intros. unfold div. destruct (Reqb_spec y 0); [lra|reflexivity]. Qed.

(** Towards the target the jerk and the one at the end have opposite signs. *)
Definition onward (k0 k : R) : Prop := (k < 0 /\ k < k0) \/ (0 <= k /\ k0 <= k).

Section Single.
Variables (L : limits) (m : follow_mode) (k0 : R) (x y : vertex).
Let t0 := x_t x. Let v0 := x_v x. Let v3 := x_v y. Let D := x_t y - x_t x.
Let j0 := jerk L (x_k x) k0.
Let j1 := if Rltb (x_k x) 0 then max_acc_rate L else - max_dec_rate L.
Let wanted := j0 * j1 * (2 * v0 * (j1 - j0) + k0 * k0 + 2 * k0 * j1 * (x_t y - t0) + j0 * j1 * ((t0 - x_t y) * (t0 - x_t y)) + 2 * v3 * (j0 - j1)).
Let peak := j1 * (- (j0 - j1)) * (j0 * (2 * v3 - 2 * v0) + k0 * k0).

Lemma jerks : sane L -> onward k0 (x_k x) -> (x_k x < 0 -> v3 <= v0) -> (0 <= x_k x -> v0 <= v3) ->
  (j0 = max_acc_rate L /\ j1 = - max_dec_rate L /\ 0 <= x_k x \/ j0 = - max_dec_rate L /\ j1 = max_acc_rate L /\ x_k x < 0) /\
  j0 <> 0 /\ j1 <> 0 /\ j0 <> j1 /\ Rltb (Rabs (j1 - j0)) SMALL_NUMBER = false /\ 0 <= peak.
Proof.
  intros (SA & SD & SAR & SDR & SS) O SL SU. unfold j0, j1, jerk.
  assert (C : (Rltb (x_k x - k0) 0 = false /\ Rltb (x_k x) 0 = false /\ 0 <= x_k x) \/ (Rltb (x_k x - k0) 0 = true /\ Rltb (x_k x) 0 = true /\ x_k x < 0)).
  { destruct O as [O|O]; [right|left]; rewrite ?Rltb_true, ?Rltb_false; lra. }
  assert (P : 0 <= peak -> j0 <> j1 -> 0 <= peak) by auto.
  destruct C as [(C1 & C2 & K)|(C1 & C2 & K)]; rewrite C1, C2 in *.
  - split; [left; auto|]. split; [lra|]. split; [lra|]. split; [lra|]. split.
    + apply Rltb_false. rewrite Rabs_left1 by lra. lra.
    + unfold peak, j0, j1, jerk. rewrite C1, C2. specialize (SU K).
      apply Rmult_le_pos; [apply Rle_trans with (max_dec_rate L * (max_acc_rate L + max_dec_rate L)); [nra|right; ring]|].
      apply Rplus_le_le_0_compat; [nra|apply Rle_0_sqr].
  - split; [right; auto|]. split; [lra|]. split; [lra|]. split; [lra|]. split.
    + apply Rltb_false. rewrite Rabs_right by lra. lra.
    + unfold peak, j0, j1, jerk. rewrite C1, C2. specialize (SL K).
      apply Rmult_le_pos; [apply Rle_trans with (max_acc_rate L * (max_acc_rate L + max_dec_rate L)); [nra|right; ring]|].
      apply Rplus_le_le_0_compat; [nra|apply Rle_0_sqr].
Qed.

(** The three shapes. *)
Lemma single_shape : sane L -> onward k0 (x_k x) -> (x_k x < 0 -> v3 <= v0) -> (0 <= x_k x -> v0 <= v3) ->
  exists m' segs, single_target L m k0 x y = Some (m', segs) /\ linked smooth segs /\
  exists s k1, 0 <= s /\
    (wanted < 0 /\ s * s = peak /\ k1 = s / (j0 - j1) \/ 0 <= wanted /\ s * s = wanted /\ k1 * (j0 - j1) = - s - j1 * (j0 * D + k0) /\
       k1 * k1 * (j0 - j1) + 2 * j1 * k1 * (j0 * D + k0) + 2 * j0 * j1 * (v0 - v3) - j1 * (k0 * k0) = 0) /\
    ((- max_dec L <= k1 <= max_acc L /\ wanted < 0 /\ exists t2 v2 t3, segs = [Segment t0 v0 k0 j0; Segment t2 v2 k1 j1; Segment t3 v3 0 0] /\
       t2 - t0 = (k1 - k0) / j0 /\ t3 = t2 - k1 / j1) \/
     (- max_dec L <= k1 <= max_acc L /\ 0 <= wanted /\ exists t1 v1 t2 v2, segs = [Segment t0 v0 k0 j0; Segment t1 v1 k1 0; Segment t2 v2 k1 j1; Segment (x_t y) v3 0 0] /\
       t1 - t0 = (k1 - k0) / j0 /\ t2 = k1 / j1 + x_t y) \/
     (exists k, (k1 < - max_dec L /\ k = - max_dec L \/ max_acc L < k1 /\ k = max_acc L) /\
       exists t1 v1 t2 v2 t3, segs = [Segment t0 v0 k0 j0; Segment t1 v1 k 0; Segment t2 v2 k j1; Segment t3 v3 0 0] /\
       t1 - t0 = (k - k0) / j0 /\ v1 = v0 + (k * k - k0 * k0) / (2 * j0) /\ t2 - t1 = (v3 - v1) / k + k / (2 * j1) /\ t3 - t2 = - (k / j1))).
Proof.
  intros SN O SL SU. destruct (jerks SN O SL SU) as (JC & J0 & J1 & JJ & JS & PK). destruct SN as (SA & SD & _ & _ & _).
  unfold single_target. fold j0 j1 t0 v0 v3. cbv zeta. unfold single_plan. rewrite JS. fold wanted peak.
  assert (CLIP : forall (a : follow_mode * list segment) k1, snd a = [Segment t0 v0 k0 j0] -> ~ (- max_dec L <= k1 <= max_acc L) ->
    let k := if Rltb (max_acc L) k1 then max_acc L else if Rltb k1 (- max_dec L) then - max_dec L else k1 in
    exists m' segs,
    match div (k - k0) j0 with
    | Some d =>
      let t1 := t0 + d in
      let v1 := v0 + k0 * (t1 - t0) + 1 / 2 * j0 * ((t1 - t0) * (t1 - t0)) in
      match div (v3 - v1) k with
      | Some q =>
        match div k (2 * j1) with
        | Some h =>
          match div (k * k) (2 * j1) with
          | Some w =>
              let t2 := q + t1 + h in
              let v2 := v3 + w in
              let t3 := - v1 / k + v3 / k + t1 - h in
              Some (AddSpeedSegment L (AddSpeedSegment L (AddSpeedSegment L a t1 v1 k 0) t2 v2 k j1) t3 v3 0 0)
          | None => None
          end
        | None => None
        end
      | None => None
      end
    | None => None
    end = Some (m', segs) /\ linked smooth segs /\
    exists k, (k1 < - max_dec L /\ k = - max_dec L \/ max_acc L < k1 /\ k = max_acc L) /\
       exists t1 v1 t2 v2 t3, segs = [Segment t0 v0 k0 j0; Segment t1 v1 k 0; Segment t2 v2 k j1; Segment t3 v3 0 0] /\
       t1 - t0 = (k - k0) / j0 /\ v1 = v0 + (k * k - k0 * k0) / (2 * j0) /\ t2 - t1 = (v3 - v1) / k + k / (2 * j1) /\ t3 - t2 = - (k / j1)).
  { intros a k1 SE NA k.
    assert (KC : k1 < - max_dec L /\ k = - max_dec L \/ max_acc L < k1 /\ k = max_acc L).
    { unfold k. destruct (Rltb_spec (max_acc L) k1); [right; auto|]. destruct (Rltb_spec k1 (- max_dec L)); [left; auto|]. exfalso. apply NA. lra. }
    assert (KN : k <> 0) by (destruct KC as [[_ ->]|[_ ->]]; lra). clearbody k.
    repeat (rewrite div_some by (auto; lra); cbv beta iota zeta).
    destruct (plan_clipped k0 j0 j1 t0 v0 v3 k J0 J1 KN) as (P1 & P2 & P3 & P4).
    eexists. eexists. split; [rewrite (surjective_pairing (AddSpeedSegment _ _ _ _ 0 0)), !add_segment, SE; cbn [app]; reflexivity|].
    split; [exact P1|]. exists k. split; [exact KC|]. do 5 eexists. split; [reflexivity|]. repeat split; try assumption. ring. }
  destruct (Rltb_spec wanted 0) as [W|W].
  - unfold root. rewrite (proj2 (Rltb_false peak 0)) by exact PK.
    rewrite div_some by (apply Rmult_integral_contrapositive_currified; lra). cbv beta iota zeta. rewrite div_some by assumption. cbv beta iota zeta.
    destruct (plan_two k0 j0 j1 t0 v0 v3 (sqrt peak) _ J0 J1 JJ (sqrt_sqrt _ PK) eq_refl) as (P1 & P2 & P3).
    set (t2 := (sqrt peak + (j0 - j1) * (t0 * j0 - k0)) / (j0 * (j0 - j1))) in *.
    set (k1 := k0 + j0 * (t2 - t0)) in *. set (v2 := v0 + k0 * (t2 - t0) + j0 * (1 / 2) * ((t2 - t0) * (t2 - t0))) in *.
    clearbody k1 v2 t2. destruct (allowed_spec L k1) as [A|A].
    + eexists. eexists. split; [rewrite (surjective_pairing (AddSpeedSegment _ _ _ _ 0 0)), !add_segment; cbn [app snd]; reflexivity|].
      split; [exact P1|]. exists (sqrt peak), k1. split; [apply sqrt_pos|]. split; [left; repeat split; auto; apply sqrt_sqrt, PK|].
      left. split; [exact A|]. split; [exact W|]. do 3 eexists. split; [reflexivity|]. split; [exact P3|reflexivity].
    + destruct (CLIP (AddSpeedSegment L (m, []) t0 v0 k0 j0) k1 eq_refl A) as (m' & segs & E1 & E2 & E3).
      exists m', segs. split; [exact E1|]. split; [exact E2|]. exists (sqrt peak), k1. split; [apply sqrt_pos|].
      split; [left; repeat split; auto; apply sqrt_sqrt, PK|]. right. right. exact E3.
  - apply Rnot_lt_le in W. rewrite div_some by (apply Rmult_integral_contrapositive_currified; lra). cbv beta iota zeta. rewrite div_some by assumption. cbv beta iota zeta.
    destruct (plan_three k0 j0 j1 t0 v0 (x_t y) v3 (sqrt wanted) _ J0 J1 JJ (sqrt_sqrt _ W) eq_refl) as (P1 & P2 & P3 & P4).
    set (t1 := (- sqrt wanted - j0 * (k0 + x_t y * j1) + t0 * (j0 * j0)) / (j0 * (j0 - j1))) in *.
    set (k1 := k0 + j0 * (t1 - t0)) in *. set (v1 := v0 + k0 * (t1 - t0) + j0 * (1 / 2) * ((t1 - t0) * (t1 - t0))) in *.
    clearbody k1 v1 t1. destruct (allowed_spec L k1) as [A|A].
    + eexists. eexists. split; [rewrite (surjective_pairing (AddSpeedSegment _ _ _ _ 0 0)), !add_segment; cbn [app snd]; reflexivity|].
      split; [exact P1|]. exists (sqrt wanted), k1. split; [apply sqrt_pos|].
      split; [right; repeat split; auto; apply sqrt_sqrt, W|].
      right. left. split; [exact A|]. split; [exact W|]. do 4 eexists. split; [reflexivity|]. split; [exact P3|reflexivity].
    + destruct (CLIP (AddSpeedSegment L (m, []) t0 v0 k0 j0) k1 eq_refl A) as (m' & segs & E1 & E2 & E3).
      exists m', segs. split; [exact E1|]. split; [exact E2|]. exists (sqrt wanted), k1. split; [apply sqrt_pos|].
      split; [right; repeat split; auto; apply sqrt_sqrt, W|]. right. right. exact E3.
Qed.
End Single.

(** A change of speed [w] in time [D] is possible with some acceleration that is allowed, where building up and taking down an acceleration [k]
    takes [k * c]. *)
Definition reachable (A c w D : R) : Prop := exists k, 0 <= k <= A /\ k * c <= D /\ w <= k * D - k * k * c / 2.

Lemma rest_two : forall c D w k, 0 < c -> 0 < D -> 0 <= k -> k * k * c = 2 * w -> D * D < 2 * w * c -> D <= k * c.
Proof. intros c D w k C DP K E W. apply Rnot_lt_le. intro X. assert (0 <= k * c) by nra. assert ((k * c) * (k * c) = 2 * w * c) by (rewrite <- E; ring). nra. Qed.

Lemma rest_three : forall c D w k s, 0 < c -> 0 < D -> 0 <= w -> 0 <= s -> s * s = D * D - 2 * w * c -> k * c = D - s ->
  0 <= k /\ k * D - k * k * c / 2 = w /\ k * k * c <= 2 * w.
Proof.
  intros c D w k s C DP W S E K.
  assert (s <= D) by (apply Rnot_lt_le; intro; nra).
  assert (0 <= k) by (apply Rnot_lt_le; intro; nra).
  assert (KW : (k * D - k * k * c / 2 - w) * (2 * c) = 0).
  { replace ((k * D - k * k * c / 2 - w) * (2 * c)) with (2 * D * (k * c) - (k * c) * (k * c) - 2 * w * c) by field. rewrite K. nra. }
  apply Rmult_integral in KW. destruct KW as [KW|KW]; [|lra].
  repeat split; try lra. assert (k * (k * c) <= k * D) by (apply Rmult_le_compat_l; lra). nra.
Qed.

Lemma rest_clip : forall c D w k A, 0 < c -> 0 < D -> 0 <= w -> 0 < A -> A < k -> k * k * c <= 2 * w ->
  (D <= k * c /\ k * k * c = 2 * w \/ k * D - k * k * c / 2 = w) ->
  0 <= w / A - A * c / 2 /\ D <= w / A + A * c / 2.
Proof.
  intros c D w k A C DP W AP AK K H.
  assert (A1 : A * A * c <= 2 * w).
  { apply Rle_trans with (k * k * c); [|exact K]. apply Rmult_le_compat_r; [lra|]. nra. }
  assert (E : w = w / A * A) by (field; lra). set (u := w / A) in *. clearbody u. subst w.
  assert (A2 : A * c <= 2 * u) by (apply (Rmult_le_reg_r A); nra).
  split; [lra|]. destruct H as [[H1 H2]|H].
  - apply Rle_trans with (k * c); [exact H1|]. apply (Rmult_le_reg_r (2 * A)); [lra|].
    replace ((u + A * c / 2) * (2 * A)) with (2 * (u * A) + A * A * c) by field. rewrite <- H2.
    assert (0 <= c * ((k - A) * (k - A))) by (apply Rmult_le_pos; [lra|apply Rle_0_sqr]). nra.
  - apply (Rmult_le_reg_r k); [lra|]. replace (D * k) with (u * A + k * k * c / 2) by lra.
    assert (0 <= (k - A) * (u - k * c / 2)).
    { apply Rmult_le_pos; [lra|]. apply (Rmult_le_reg_r A); [lra|]. assert (k * c * A <= k * c * k) by (apply Rmult_le_compat_l; nra). lra. }
    nra.
Qed.

Lemma reachable_three : forall A c w D, 0 < c -> 0 < D -> reachable A c w D ->
  2 * w * c <= D * D /\ forall s k, 0 <= s -> s * s = D * D - 2 * w * c -> k * c = D - s -> k <= A.
Proof.
  intros A c w D C DP (q & (Q0 & QA) & QD & QW).
  assert (W2 : 2 * w * c <= 2 * D * (q * c) - (q * c) * (q * c)).
  { apply Rle_trans with ((q * D - q * q * c / 2) * (2 * c)); [nra|]. right. field. }
  assert (SQ : (D - q * c) * (D - q * c) <= D * D - 2 * w * c) by nra.
  split.
  - assert (0 <= (D - q * c) * (D - q * c)) by apply Rle_0_sqr. lra.
  - intros s k S E K. apply Rle_trans with q; [|exact QA].
    assert (D - q * c <= s) by (apply Rnot_lt_le; intro; nra).
    apply (Rmult_le_reg_r c); [exact C|]. lra.
Qed.

(** From constant speed. *)
Lemma single_rest : forall L m x y, sane L -> x_t x < x_t y -> x_k x = (x_v y - x_v x) / (x_t y - x_t x) ->
  exists m' segs tz j, single_target L m 0 x y = Some (m', segs) /\ linked smooth segs /\ linked in_order segs /\
    (exists r, segs = Segment (x_t x) (x_v x) 0 j :: r ++ [Segment tz (x_v y) 0 0]) /\
    Forall (fun s => - max_dec L <= g_k s <= max_acc L /\ - max_dec_rate L <= g_j s <= max_acc_rate L) segs /\
    x_t y <= tz /\
    (reachable (if Rltb (x_v y) (x_v x) then max_dec L else max_acc L) (1 / max_acc_rate L + 1 / max_dec_rate L) (Rabs (x_v y - x_v x)) (x_t y - x_t x) -> tz = x_t y).
Proof.
  intros L m x y SN T KE. set (D := x_t y - x_t x) in *. assert (DP : 0 < D) by (unfold D; lra).
  assert (DV : x_v y - x_v x = x_k x * D) by (rewrite KE; field; lra).
  assert (O : onward 0 (x_k x)) by (unfold onward; destruct (Rlt_dec (x_k x) 0); [left|right]; lra).
  assert (S1 : x_k x < 0 -> x_v y < x_v x) by (intro; nra).
  assert (S1' : x_k x < 0 -> x_v y <= x_v x) by (intro; nra).
  assert (S2 : 0 <= x_k x -> x_v x <= x_v y) by (intro; nra).
  destruct (single_shape L m 0 x y SN O S1' S2) as (m' & segs & E & SM & s & k1 & SP & PLAN & SHAPE).
  destruct (jerks L 0 x y SN O S1' S2) as (JC & _). destruct SN as (SA & SD & SAR & SDR & _).
  fold D in PLAN, SHAPE.
  set (j0 := jerk L (x_k x) 0) in *. set (j1 := if Rltb (x_k x) 0 then max_acc_rate L else - max_dec_rate L) in *. clearbody j0 j1.
  set (c := 1 / max_acc_rate L + 1 / max_dec_rate L).
  assert (CP : 0 < c) by (unfold c; apply Rplus_lt_0_compat; apply Rdiv_lt_0_compat; lra).
  (* magnitudes *)
  assert (SG : exists g a b A w, (g = 1 \/ g = -1) /\ 0 < a /\ 0 < b /\ 0 < A /\ 0 <= w /\ j0 = g * a /\ j1 = - (g * b) /\ x_v y - x_v x = g * w /\ c = 1 / a + 1 / b /\
    (if Rltb (x_v y) (x_v x) then max_dec L else max_acc L) = A /\ Rabs (x_v y - x_v x) = w /\
    (forall k, 0 <= k -> (- max_dec L <= g * k <= max_acc L <-> k <= A)) /\
    (forall k, 0 <= k -> (g * k < - max_dec L -> - max_dec L = g * A) /\ (max_acc L < g * k -> max_acc L = g * A)) /\
    - max_dec_rate L <= j0 <= max_acc_rate L /\ - max_dec_rate L <= j1 <= max_acc_rate L).
  { destruct JC as [(-> & -> & K)|(-> & -> & K)].
    - exists 1, (max_acc_rate L), (max_dec_rate L), (max_acc L), (x_v y - x_v x). specialize (S2 K).
      rewrite (proj2 (Rltb_false _ _)) by lra. rewrite Rabs_right by lra. unfold c.
      repeat split; intros; lra.
    - exists (-1), (max_dec_rate L), (max_acc_rate L), (max_dec L), (x_v x - x_v y). specialize (S1 K).
      rewrite (proj2 (Rltb_true _ _)) by lra. rewrite Rabs_left1 by lra. unfold c.
      repeat split; intros; lra. }
  destruct SG as (g & a & b & A & w & GC & AP & BP & AA & WP & J0 & J1 & DW & CE & LE & WE & AL & CL & B0 & B1).
  rewrite LE, WE. clearbody c. assert (GG : g * g = 1) by (destruct GC; subst; ring).
  assert (V3 : x_v y = x_v x + g * w) by lra.
  set (v0 := x_v x) in *. set (v3 := x_v y) in *. set (t0 := x_t x) in *.
  assert (WAN : j0 * j1 * (2 * v0 * (j1 - j0) + 0 * 0 + 2 * 0 * j1 * D + j0 * j1 * ((t0 - x_t y) * (t0 - x_t y)) + 2 * v3 * (j0 - j1)) =
     (a * b) * (a * b) * (D * D - 2 * w * c)).
  { replace ((t0 - x_t y) * (t0 - x_t y)) with (D * D) by (unfold D; ring). rewrite V3, J0, J1, CE.
    replace (a * b * (a * b) * (D * D - 2 * w * (1 / a + 1 / b))) with (a * b * (a * b * (D * D) - 2 * w * (a + b))) by (field; lra).
    destruct GC; subst g; ring. }
  rewrite WAN in PLAN, SHAPE.
  assert (ABP : 0 < a * b) by nra.
  assert (WS : forall z, (a * b * (a * b) * z < 0 -> z < 0) /\ (0 <= a * b * (a * b) * z -> 0 <= z)).
  { intro z. assert (0 < a * b * (a * b)) by (apply Rmult_lt_0_compat; exact ABP). set (q := a * b * (a * b)) in *. clearbody q.
    clear - H. split; intro; [apply Rnot_le_lt|apply Rnot_lt_le]; intro; nra. }
  (* the magnitude of the acceleration between *)
  assert (MAG : exists k, k1 = g * k /\ 0 <= k /\ k * k * c <= 2 * w /\
    ((D * D < 2 * w * c /\ D <= k * c /\ k * k * c = 2 * w) \/ (2 * w * c <= D * D /\ k * D - k * k * c / 2 = w /\ exists s', 0 <= s' /\ s' * s' = D * D - 2 * w * c /\ k * c = D - s'))).
  { destruct PLAN as [(W & SS & K)|(W & SS & K & _)].
    - exists (s / (a + b)). assert (KP : 0 <= s / (a + b)) by (apply Rmult_le_pos; [lra|left; apply Rinv_0_lt_compat; lra]).
      assert (KK : s / (a + b) * (s / (a + b)) * c = 2 * w).
      { replace (s / (a + b) * (s / (a + b)) * c) with (s * s / ((a + b) * (a + b)) * c) by (field; lra). rewrite SS, V3, J0, J1, CE.
        destruct GC; subst g; field; lra. }
      assert (W' : D * D < 2 * w * c) by (apply WS in W; lra).
      repeat split; [|exact KP|lra|].
      + rewrite K, J0, J1. destruct GC; subst g; field; lra.
      + left. repeat split; [exact W'| |exact KK]. apply (rest_two c D w); auto.
    - assert (SP' : 0 <= s / (a * b)) by (apply Rmult_le_pos; [lra|left; apply Rinv_0_lt_compat; lra]).
      assert (SS' : s / (a * b) * (s / (a * b)) = D * D - 2 * w * c).
      { replace (s / (a * b) * (s / (a * b))) with (s * s / ((a * b) * (a * b))) by (field; lra). rewrite SS. field. lra. }
      assert (KC : ((D - s / (a * b)) / c) * c = D - s / (a * b)) by (field; lra).
      assert (W' : 2 * w * c <= D * D) by (apply WS in W; lra).
      destruct (rest_three c D w ((D - s / (a * b)) / c) (s / (a * b)) CP DP WP SP' SS' KC) as (K0 & K1 & K2).
      exists ((D - s / (a * b)) / c). repeat split; [|exact K0|exact K2|].
      + assert (KE2 : k1 * (g * (a + b)) = a * b * D - s).
        { replace (k1 * (g * (a + b))) with (k1 * (j0 - j1)) by (rewrite J0, J1; ring). rewrite K, J0, J1. destruct GC; subst g; ring. }
        apply (Rmult_eq_reg_r (g * (a + b))); [|apply Rmult_integral_contrapositive_currified; destruct GC; lra].
        rewrite KE2, CE. destruct GC; subst g; field; repeat split; lra.
      + right. repeat split; [exact W'|exact K1|]. exists (s / (a * b)). auto. }
  destruct MAG as (k & -> & KP & KW & MAG).
  assert (GI : forall u, g * u / (g * a) = u / a) by (intro; destruct GC; subst g; field; lra).
  assert (GI2 : forall u, g * u / - (g * b) = - (u / b)) by (intro; destruct GC; subst g; field; lra).
  assert (POS : forall u v, 0 <= u -> 0 < v -> 0 <= u / v) by (intros; apply Rmult_le_pos; [lra|left; apply Rinv_0_lt_compat; lra]).
  destruct SHAPE as [(A1 & W & t2 & v2 & t3 & -> & T2 & T3)|[(A1 & W & t1 & v1 & t2 & v2 & -> & T1 & T2)|(k' & KC & t1 & v1 & t2 & v2 & t3 & -> & T1 & V1 & T2 & T3)]].
  - rewrite J0, Rminus_0_r, GI in T2. rewrite J1, GI2 in T3.
    assert (W' : D * D < 2 * w * c) by (apply WS in W; lra).
    assert (KE2 : D <= k * c) by (destruct MAG as [MAG|MAG]; lra).
    pose proof (POS k a KP AP). pose proof (POS k b KP BP).
    exists m'. eexists. exists t3, j0. split; [exact E|]. split; [exact SM|]. split; [cbn; unfold in_order; cbn; lra|].
    split; [exists [Segment t2 v2 (g * k) j1]; reflexivity|]. split.
    + repeat (apply Forall_cons; [cbn [g_k g_j]; lra|]); apply Forall_nil.
    + assert (KAB : k * c = k / a + k / b) by (rewrite CE; field; lra). split; [unfold D in KE2; unfold t0 in *; lra|].
      intro RE. destruct (reachable_three A c w D CP DP RE) as [RE1 _]. exfalso. lra.
  - rewrite J0, Rminus_0_r, GI in T1. rewrite J1 in T2.
    assert (T2' : t2 = x_t y - k / b) by (rewrite T2, GI2; ring).
    assert (W' : 2 * w * c <= D * D) by (apply WS in W; lra).
    destruct MAG as [MAG|(_ & _ & s' & S1'' & _ & S3)]; [exfalso; lra|].
    assert (KAB : k * c = k / a + k / b) by (rewrite CE; field; lra).
    pose proof (POS k a KP AP). pose proof (POS k b KP BP).
    exists m'. eexists. exists (x_t y), j0. split; [exact E|]. split; [exact SM|]. split; [cbn; unfold in_order; cbn; unfold D, t0 in *; lra|].
    split; [exists [Segment t1 v1 (g * k) 0; Segment t2 v2 (g * k) j1]; reflexivity|]. split.
    + repeat (apply Forall_cons; [cbn [g_k g_j]; lra|]); apply Forall_nil.
    + split; [lra|reflexivity].
  - assert (KA : A < k /\ k' = g * A).
    { assert (NA : ~ (k <= A)) by (intro X; apply AL in X; [lra|exact KP]). destruct (CL k KP) as [C1 C2].
      destruct KC as [[C ->]|[C ->]]; split; try lra; auto. }
    destruct KA as [KA ->].
    rewrite J0, Rminus_0_r, GI in T1. rewrite J1, GI2 in T3.
    assert (V1' : v3 - v1 = g * (w - A * A / (2 * a))).
    { rewrite V1, V3, J0. replace (g * A * (g * A) - 0 * 0) with ((g * g) * (A * A)) by ring. rewrite GG. destruct GC; subst g; field; lra. }
    assert (T2' : t2 - t1 = w / A - A * c / 2).
    { rewrite T2, V1', J1, CE. destruct GC; subst g; field; lra. }
    destruct (rest_clip c D w k A CP DP WP AA KA KW) as [R1 R2].
    { destruct MAG as [(_ & M1 & M2)|(_ & M1 & _)]; [left; split; assumption|right; assumption]. }
    assert (AC : A * c = A / a + A / b) by (rewrite CE; field; lra).
    pose proof (POS A a (Rlt_le _ _ AA) AP). pose proof (POS A b (Rlt_le _ _ AA) BP).
    exists m'. eexists. exists t3, j0. split; [exact E|]. split; [exact SM|]. split; [cbn; unfold in_order; cbn; lra|].
    split; [exists [Segment t1 v1 (g * A) 0; Segment t2 v2 (g * A) j1]; reflexivity|].
    assert (GA : - max_dec L <= g * A <= max_acc L) by (apply AL; lra). split.
    + repeat (apply Forall_cons; [cbn [g_k g_j]; lra|]); apply Forall_nil.
    + split; [unfold D, t0 in *; lra|]. intro RE. destruct (reachable_three A c w D CP DP RE) as [RE1 RE2]. exfalso.
      destruct MAG as [MAG|(_ & _ & s' & M1 & M2 & M3)]; [lra|]. specialize (RE2 s' k M1 M2 M3). lra.
Qed.

(** ** Several targets in follow mode *)

(** Every two consecutive slopes differ. *)
Fixpoint turning (l : list vertex) : Prop :=
  match l with
  | a :: ((b :: _) as r) => SMALL_NUMBER <= Rabs (x_k b - x_k a) /\ turning r
  | _ => True
  end.

Lemma turning_bends : forall l, turning l -> bends l.
Proof.
  induction l as [|a [|b [|c l]] IH]; intro T; try exact I. destruct T as [T1 T2]. split; [exact T1|]. apply IH. exact T2.
Qed.

Lemma linked_snoc : forall P l a b, linked P (l ++ [a]) -> P a b -> linked P (l ++ [a; b]).
Proof.
  induction l as [|x l IH]; intros a b H K; cbn [app linked] in *; [split; [exact K|exact I]|].
  destruct l as [|y l]; cbn [app linked] in *; [repeat split; tauto|]. destruct H as [H1 H2]. split; [exact H1|]. apply (IH a b); assumption.
Qed.

Lemma linked_app2 : forall P l a b c, linked P (l ++ [a]) -> P a b -> P b c -> linked P ((l ++ [a]) ++ [b; c]).
Proof.
  intros P l a b c H K1 K2. rewrite <- app_assoc. cbn [app]. change (l ++ [a; b; c]) with (l ++ ([a; b] ++ [c])). rewrite app_assoc.
  replace ((l ++ [a; b]) ++ [c]) with ((l ++ [a]) ++ [b; c]) by (rewrite <- !app_assoc; reflexivity).
  apply linked_snoc; [|exact K2]. rewrite <- app_assoc. cbn [app]. apply linked_snoc; assumption.
Qed.

Lemma loop_mode : forall L xs a s a', vertex_loop L xs a s = Some a' -> fst a' = FOLLOW -> fst a = FOLLOW.
Proof.
  intros L xs a s a' H F. destruct a as [[|] l]; [|reflexivity]. rewrite loop_position in H. injection H as <-. exact F.
Qed.

Lemma add_mode : forall L a t v k j, fst (AddSpeedSegment L a t v k j) = FOLLOW -> fst a = FOLLOW.
Proof.
  intros L [[|] l] t v k j H; [|reflexivity]. rewrite add_position in H. exact H.
Qed.

Definition within (L : limits) (s : segment) : Prop :=
  - max_dec L <= g_k s <= max_acc L /\ - max_dec_rate L <= g_j s <= max_acc_rate L.

Lemma jerk_within : forall L k k0, sane L -> - max_dec_rate L <= jerk L k k0 <= max_acc_rate L /\ jerk L k k0 <> 0 /\ 0 <= (k - k0) / jerk L k k0.
Proof.
  intros L k k0 (_ & _ & SA & SD & _). unfold jerk. destruct (Rltb_spec (k - k0) 0) as [C|C].
  - repeat split; try lra. replace ((k - k0) / - max_dec_rate L) with ((k0 - k) / max_dec_rate L) by (field; lra).
    apply Rmult_le_pos; [lra|left; apply Rinv_0_lt_compat; lra].
  - repeat split; try lra. apply Rmult_le_pos; [lra|left; apply Rinv_0_lt_compat; lra].
Qed.

Lemma last_move : forall (A : Type) xs (y x : A), last (y :: xs) x = last xs y.
Proof. induction xs as [|z xs IH]; intros; [reflexivity|]. change (last (y :: z :: xs) x) with (last (z :: xs) x). rewrite (IH z x), (IH z y). reflexivity. Qed.

Lemma loop_cons : forall L x y xs l t0 v0 k0 m0, vertex_loop L (x :: y :: xs) (FOLLOW, l) (t0, v0, k0, m0) =
  let k1 := x_k y in
  let m1 := x_m y in
  let j := jerk L k1 k0 in
  if Rltb (Rabs (k0 - k1)) SMALL_NUMBER then
    vertex_loop L (y :: xs) (AddSpeedSegment L (FOLLOW, l) t0 v0 k1 0) (t0, v0, k1, m1)
  else
    match div (k0 * k0 - 2 * k0 * k1 + k1 * k1 - 2 * j * (m0 - m1)) (2 * j * (k0 - k1)) with
    | Some t1 =>
      if Rltb t1 t0 then vertex_loop L (y :: xs) (POSITION, l) (t0, v0, k1, m1)
      else
        let v1 := v0 + k0 * (t1 - t0) in
        let t3 := t1 + (k1 - k0) / j in
        let v3 := v1 + k0 * (t3 - t1) + 1 / 2 * j * ((t3 - t1) * (t3 - t1)) in
        vertex_loop L (y :: xs) (AddSpeedSegment L (AddSpeedSegment L (FOLLOW, l) t1 v1 k0 j) t3 v3 k1 0) (t3, v3, k1, m1)
    | None => None
    end.
Proof. reflexivity. Qed.

Lemma loop_follow : forall L, sane L -> forall xs x a t0 v0 m0 l,
  snd a = l ++ [Segment t0 v0 (x_k x) 0] -> v0 = x_k x * t0 + m0 -> linked smooth (snd a) -> linked in_order (snd a) ->
  turning (x :: xs) -> Forall (fun y => x_m y = x_v y - x_k y * x_t y) xs -> Forall (fun y => - max_dec L <= x_k y <= max_acc L) (x :: xs) ->
  exists a', vertex_loop L (x :: xs) a (t0, v0, x_k x, m0) = Some a' /\
   (fst a' = FOLLOW -> exists added tz vz, snd a' = snd a ++ added /\ linked smooth (snd a') /\ linked in_order (snd a') /\ Forall (within L) added /\
     last (snd a') (Segment 0 0 0 0) = Segment tz vz (x_k (last xs x)) 0 /\ (xs <> [] -> vz = x_k (last xs x) * tz + x_m (last xs x))).
Proof.
  intros L SN. induction xs as [|y xs IH]; intros x a t0 v0 m0 l SE LE SM IO TU FM FK.
  - cbn [vertex_loop]. destruct a as [[|] q]; cbn [fst is_follow].
    + rewrite add_position. eexists. split; [reflexivity|]. discriminate.
    + eexists. split; [reflexivity|]. intros _. exists [], t0, v0. rewrite app_nil_r. repeat split; auto.
      * cbn [snd] in SE. rewrite SE. apply last_last.
      * easy.
  - destruct TU as [TU1 TU2]. inversion FM as [|? ? FM1 FM2]; subst. inversion FK as [|? ? FK1 FK2]; subst. inversion FK2 as [|? ? FK3 _]; subst.
    destruct (fst a) eqn:FA.
    { destruct a as [? q]. cbn [fst] in FA. subst. rewrite loop_position. eexists. split; [reflexivity|]. discriminate. }
    set (v0 := x_k x * t0 + m0) in *.
    destruct a as [mm q]. cbn [fst] in FA. subst mm. rewrite loop_cons. cbv zeta. set (a := (FOLLOW, q)) in *. set (k0 := x_k x) in *. set (k1 := x_k y) in *.
    destruct (jerk_within L k1 k0 SN) as (JW & JN & JP). set (j := jerk L k1 k0) in *.
    rewrite Rabs_minus_sym in TU1. rewrite (proj2 (Rltb_false _ _)) by exact TU1.
    assert (KN : k0 - k1 <> 0). { intro Z. rewrite Z, Rabs_R0 in TU1. pose proof small_pos. lra. }
    rewrite div_some by (apply Rmult_integral_contrapositive_currified; [lra|exact KN]).
    set (t1 := (k0 * k0 - 2 * k0 * k1 + k1 * k1 - 2 * j * (m0 - x_m y)) / (2 * j * (k0 - k1))).
    destruct (Rltb_spec t1 t0) as [TT|TT].
    { rewrite loop_position. eexists. split; [reflexivity|]. discriminate. }
    apply Rnot_lt_le in TT.
    set (v1 := v0 + k0 * (t1 - t0)). set (t3 := t1 + (k1 - k0) / j). set (v3 := v1 + k0 * (t3 - t1) + 1 / 2 * j * ((t3 - t1) * (t3 - t1))).
    set (a2 := AddSpeedSegment L (AddSpeedSegment L a t1 v1 k0 j) t3 v3 k1 0).
    assert (S2 : snd a2 = (l ++ [Segment t0 v0 k0 0]) ++ [Segment t1 v1 k0 j; Segment t3 v3 k1 0]).
    { unfold a2. rewrite !add_segment, SE, <- app_assoc. reflexivity. }
    assert (L2 : v3 = k1 * t3 + x_m y).
    { assert (E1 : t1 * (k0 - k1) = (k1 - k0) * (k1 - k0) / (2 * j) - (m0 - x_m y)) by (unfold t1; field; split; assumption).
      unfold v3, v1, v0. replace (t3 - t1) with ((k1 - k0) / j) by (unfold t3; ring). unfold t3.
      replace (x_m y) with (t1 * (k0 - k1) - (k1 - k0) * (k1 - k0) / (2 * j) + m0) by lra. field. exact JN. }
    assert (P1 : smooth (Segment t0 v0 k0 0) (Segment t1 v1 k0 j)).
    { unfold smooth, joins, speed_at, rate_at. cbn [g_t g_v g_k g_j]. split; [unfold v1; ring|ring]. }
    assert (P2 : smooth (Segment t1 v1 k0 j) (Segment t3 v3 k1 0)).
    { unfold smooth, joins, speed_at, rate_at. cbn [g_t g_v g_k g_j]. split; [reflexivity|]. unfold t3. field. exact JN. }
    assert (T3 : t1 <= t3) by (unfold t3; lra).
    destruct (IH y a2 t3 v3 (x_m y) ((l ++ [Segment t0 v0 k0 0]) ++ [Segment t1 v1 k0 j])) as (a' & E & R).
    + rewrite S2, <- !app_assoc. reflexivity.
    + exact L2.
    + rewrite S2. rewrite SE in SM. apply linked_app2; assumption.
    + rewrite S2. rewrite SE in IO. apply linked_app2; [exact IO|exact TT|exact T3].
    + exact TU2.
    + exact FM2.
    + exact FK2.
    + exists a'. split; [exact E|]. intro F. destruct (R F) as (added & tz & vz & A1 & A2 & A3 & A4 & A5 & A6).
      exists ([Segment t1 v1 k0 j; Segment t3 v3 k1 0] ++ added), tz, vz.
      split; [rewrite A1, S2, SE, <- !app_assoc; reflexivity|]. split; [exact A2|]. split; [exact A3|]. split; [|split].
      * apply Forall_app. split; [|exact A4]. destruct SN as (_ & _ & SA & SD & _).
        repeat (apply Forall_cons; [unfold within; cbn [g_k g_j]; split; [assumption|lra]|]); apply Forall_nil.
      * rewrite last_move. exact A5.
      * intros _. rewrite last_move. destruct xs as [|z xs].
        -- cbn [last] in *. pose proof (loop_mode _ _ _ _ _ E F) as FF. destruct a2 as [mm qq]. cbn [fst] in FF. subst mm. cbn [vertex_loop fst is_follow] in E. injection E as <-. cbn [snd] in *.
           rewrite S2 in A5. rewrite app_assoc in A5 || idtac.
           replace ((l ++ [Segment t0 v0 k0 0]) ++ [Segment t1 v1 k0 j; Segment t3 v3 k1 0]) with (((l ++ [Segment t0 v0 k0 0]) ++ [Segment t1 v1 k0 j]) ++ [Segment t3 v3 k1 0]) in A5 by (rewrite <- !app_assoc; reflexivity).
           rewrite last_last in A5. injection A5 as <- <-. exact L2.
        -- apply A6. easy.
Qed.

Lemma knots_line : forall l, Forall (fun y => x_m y = x_v y - x_k y * x_t y) (knots l).
Proof.
  induction l as [|[t v] [|[t' v'] r] IH]; cbn [knots]; [constructor|constructor; [reflexivity|constructor]|constructor; [reflexivity|exact IH]].
Qed.

Lemma knots_slopes : forall L o es t v, 0 < max_acc L -> 0 < max_dec L -> Forall (fun e => 0 < e_time e) es ->
  Forall (fun y => - max_dec L <= x_k y <= max_acc L) (knots (corners L o t v es)).
Proof.
  intros L o es t v HA HD F. destruct (knots_joined L o es t v HA HD F) as (_ & _ & K). clear F.
  induction (knots (corners L o t v es)) as [|x l IH]; [constructor|]. cbn [map] in K. inversion K as [|? ? [K1 _] K2]; subst. constructor; [exact K1|apply IH, K2].
Qed.

Lemma last_knot : forall L o es t v d, exists tz, last (knots (corners L o t v es)) d = Vertex tz (last (map (fun e => e_speed e + o) es) v) 0
  (last (map (fun e => e_speed e + o) es) v).
Proof.
  intros L o es. induction es as [|e es IH]; intros t v d.
  - exists t. cbn. unfold vertex3. f_equal. ring.
  - rewrite corners_cons. set (v' := e_speed e + o). set (nd := need L (v' - v) (e_time e)).
    destruct (IH (t + nd) v' d) as (tz & E). destruct (corners_head L o (t + nd) v' es) as (r & CE). rewrite CE in *. rewrite knots_cons.
    exists tz. destruct (knots_head ((t + nd, v') :: r)) as (x & q & KE & _ & _); [easy|]. rewrite KE in *. cbn [last] in *.
    cbn [map]. rewrite last_move. exact E.
Qed.

Lemma follow_first : forall L m k0 t_init x, sane L -> SMALL_NUMBER < max_acc_rate L -> SMALL_NUMBER < max_dec_rate L -> x_t x = t_init ->
  exists a t3 v3 l, follow_start L m k0 t_init x = (a, (t3, v3, x_k x, v3 - x_k x * t3)) /\ snd a = l ++ [Segment t3 v3 (x_k x) 0] /\
  linked smooth (snd a) /\ linked in_order (snd a) /\
  (exists k j r, snd a = Segment t_init (x_v x) k j :: r /\ (SMALL_NUMBER < Rabs (x_k x) -> k = k0) /\ - max_dec_rate L <= j <= max_acc_rate L /\
     (- max_dec L <= x_k x <= max_acc L -> Forall (within L) r)).
Proof.
  intros L m k0 t_init x SN RA RD XT. unfold follow_start. subst t_init.
  destruct (jerk_within L (x_k x) k0 SN) as (JW & JN & JP). destruct SN as (_ & _ & SAR & SDR & _).
  destruct (Rltb_spec SMALL_NUMBER (Rabs (x_k x))) as [MV|MV].
  - assert (JS : Rltb SMALL_NUMBER (Rabs (jerk L (x_k x) k0)) = true).
    { apply Rltb_true. unfold jerk. destruct (Rltb _ _); [rewrite Rabs_left by lra; lra|rewrite Rabs_right by lra; lra]. }
    rewrite JS. cbv zeta. set (j := jerk L (x_k x) k0) in *. clearbody j. set (t3 := x_t x + (x_k x - k0) / j).
    set (v3 := x_v x + k0 * (t3 - x_t x) + 1 / 2 * j * ((t3 - x_t x) * (t3 - x_t x))).
    do 4 eexists. split; [reflexivity|]. rewrite !add_segment. cbn [snd app]. split; [instantiate (1 := [_]); reflexivity|].
    split; [|split].
    + cbn [linked]. unfold smooth, joins, speed_at, rate_at. cbn [g_t g_v g_k g_j]. repeat split. unfold t3. field. exact JN.
    + cbn [linked]. unfold in_order. cbn [g_t]. split; [unfold t3; lra|exact I].
    + exists k0, j, [Segment t3 v3 (x_k x) 0]. repeat split; try lra. intro. constructor; [|constructor]. unfold within. cbn [g_k g_j]. lra.
  - cbv zeta. replace (x_v x + k0 * (x_t x - x_t x) + 1 / 2 * 0 * ((x_t x - x_t x) * (x_t x - x_t x))) with (x_v x) by ring.
    do 4 eexists. split; [reflexivity|]. rewrite !add_segment. cbn [snd app]. split; [instantiate (1 := []); reflexivity|].
    split; [exact I|]. split; [exact I|].
    exists (x_k x), 0, []. repeat split; try lra. constructor.
Qed.

Lemma follow_many : forall L t0 speed acc0 o e1 e2 es, sane L -> SMALL_NUMBER < max_acc_rate L -> SMALL_NUMBER < max_dec_rate L ->
  Forall (fun e => 0 < e_time e) (e1 :: e2 :: es) ->
  let xs := knots (corners L o t0 speed (e1 :: e2 :: es)) in turning xs ->
  exists p, segments L FOLLOW acc0 t0 xs = Some p /\
  (fst p = FOLLOW -> linked smooth (snd p) /\ linked in_order (snd p) /\
    exists k j r tz, snd p = Segment t0 speed k j :: r /\ - max_dec_rate L <= j <= max_acc_rate L /\ (k = acc0 \/ Rabs (x_k (hd (vertex2 0 0) xs)) <= SMALL_NUMBER) /\
      Forall (within L) r /\ last r (Segment 0 0 0 0) = Segment tz (last (map (fun e => e_speed e + o) (e1 :: e2 :: es)) speed) 0 0).
Proof.
  intros L t0 speed acc0 o e1 e2 es SN RA RD TM xs TU.
  assert (KS : Forall (fun y => - max_dec L <= x_k y <= max_acc L) xs) by (apply knots_slopes; try apply SN; exact TM).
  pose proof (knots_line (corners L o t0 speed (e1 :: e2 :: es))) as KL. fold xs in KL.
  assert (XS : exists x y z r, xs = x :: y :: z :: r /\ x_t x = t0 /\ x_v x = speed).
  { unfold xs. rewrite corners_cons.
    destruct (knots_two L o (t0 + need L (e_speed e1 + o - speed) (e_time e1)) (e_speed e1 + o) e2 es) as (y & z & r & E).
    destruct (corners_head L o (t0 + need L (e_speed e1 + o - speed) (e_time e1)) (e_speed e1 + o) (e2 :: es)) as (q & CE). rewrite CE in *.
    rewrite knots_cons, E. do 4 eexists. split; [reflexivity|]. split; reflexivity. }
  destruct (last_knot L o (e1 :: e2 :: es) t0 speed (vertex2 0 0)) as (tl' & LK). fold xs in LK.
  destruct XS as (x & y & z & r & XE & XT & XV). rewrite XE in *. clear xs XE. rewrite last_move in LK.
  unfold segments. cbn [is_follow].
  destruct (follow_first L FOLLOW acc0 t0 x SN RA RD XT) as (a & t3 & v3 & l & FS & SA & SM & IO & k & j & r1 & HD' & KK & JJ & RW).
  rewrite FS. inversion KS as [|? ? KS1 KS2]; subst. inversion KL as [|? ? KL1 KL2]; subst.
  destruct (loop_follow L SN (y :: z :: r) x a t3 v3 (v3 - x_k x * t3) l SA) as (a' & E & R); try assumption.
  { ring. }
  exists a'. split; [exact E|]. intro F. destruct (R F) as (added & tz & vz & A1 & A2 & A3 & A4 & A5 & A6).
  split; [exact A2|]. split; [exact A3|].
  exists k, j, (r1 ++ added), tz. rewrite A1, HD'. split; [reflexivity|]. split; [exact JJ|]. split; [|split].
  - destruct (Rlt_dec SMALL_NUMBER (Rabs (x_k x))) as [C|C]; [left; auto|right; cbn [hd]; lra].
  - apply Forall_app. split; [apply RW, KS1|exact A4].
  - assert (LS : last (y :: z :: r) x = last (y :: z :: r) (vertex2 0 0)) by (rewrite !last_move; reflexivity).
    assert (LK2 : last (y :: z :: r) x = Vertex tl' (last (map (fun e => e_speed e + o) (e1 :: e2 :: es)) (x_v x)) 0 (last (map (fun e => e_speed e + o) (e1 :: e2 :: es)) (x_v x))) by exact LK.
    rewrite LK2 in A5, A6. cbn [x_k x_m] in A5, A6.
    rewrite A1, HD' in A5. cbn [app] in A5. rewrite last_move in A5.
    assert (NE : added <> []).
    { destruct added; [|easy]. rewrite app_nil_r in A1. exfalso.
      (* the loop adds at least one segment *)
      pose proof (loop_mode _ _ _ _ _ E F) as FA. destruct a as [mm q]. cbn [fst] in FA. subst mm. rewrite loop_cons in E. cbv zeta in E.
      assert (GR : forall xs b s b', vertex_loop L xs b s = Some b' -> (List.length (snd b) <= List.length (snd b'))%nat).
      { clear. induction xs as [|x xs IH]; intros b s b' H; cbn [vertex_loop] in H; [injection H as <-; lia|].
        destruct (is_follow (fst b)).
        - destruct xs as [|y xs]; [injection H as <-; lia|]. destruct s as [[[t0 v0] k0] m0]. set (ys := y :: xs) in *. clearbody ys. cbv zeta in H.
          destruct (Rltb _ _) in H; [apply IH in H; rewrite add_segment, app_length in H; lia|].
          match type of H with match ?d with _ => _ end = _ => destruct d end; [|discriminate].
          destruct (Rltb _ _) in H; apply IH in H; rewrite ?add_segment, ?app_length in H; cbn in H; lia.
        - apply IH in H. rewrite add_segment, app_length in H. lia. }
      destruct (Rltb _ _) in E; [apply GR in E; rewrite add_segment, app_length, A1 in E; cbn in E; lia|].
      match type of E with match ?d with _ => _ end = _ => destruct d end; [|discriminate].
      destruct (Rltb _ _) in E.
      - rewrite loop_position in E. injection E as <-. discriminate.
      - apply GR in E. rewrite !add_segment, !app_length, A1 in E. cbn in E. lia. }
    assert (LA : forall d1 d2, last (r1 ++ added) d1 = last (r1 ++ added) d2).
    { intros. destruct (r1 ++ added) eqn:Z; [apply app_eq_nil in Z; tauto|]. rewrite !last_move. reflexivity. }
    rewrite (LA _ (Segment 0 0 0 0)) in A5. rewrite A5. rewrite A6 by easy. f_equal. ring.
Qed.

(** ** Start *)

Lemma start_corners : forall L m e es o speed t0, 0 < max_acc L -> 0 < max_dec L -> Forall (timed L) (e :: es) ->
  bends (tl (knots (corners L o t0 speed (e :: es)))) ->
  vertices L m (e :: es) o speed t0 = Some (knots (corners L o t0 speed (e :: es))).
Proof.
  intros L m e es o speed t0 HA HD F B. unfold vertices. inversion F as [|? ? T _]; subst.
  rewrite (proj2 (Rltb_true _ _)) by apply T.
  change t0 with (x_t (vertex2 t0 speed)) at 2. rewrite (filter_corners L o); auto; try reflexivity; discriminate.
Qed.

(** The first entry is for the present: its speed holds at once. *)
Lemma start_at_once : forall L e es speed t0, 0 < max_acc L -> 0 < max_dec L -> e_time e = 0 -> es <> [] -> Forall (timed L) es ->
  bends (knots (corners L 0 t0 (e_speed e) es)) ->
  vertices L POSITION (e :: es) 0 speed t0 = Some (knots (corners L 0 t0 (e_speed e) es)).
Proof.
  intros L e es speed t0 HA HD E0 NE F B. pose proof small_pos. unfold vertices. rewrite E0.
  rewrite (proj2 (Rltb_false _ _)) by lra. rewrite (proj2 (Rltb_true _ _)) by lra. cbn [is_follow filter_entries]. unfold filter_entry.
  rewrite E0. cbn [vertex2 x_v x_t]. rewrite (proj2 (Rltb_false 0 (- SMALL_NUMBER))) by lra.
  replace (e_speed e + 0) with (e_speed e) by ring. unfold div at 1 2 3. cbv zeta.
  assert (Z : Reqb 0 0 = true) by (apply Reqb_true; reflexivity). rewrite Z.
  replace (Reqb (e_speed e - e_speed e) 0) with true by (symmetry; apply Reqb_true; ring). cbn [orb negb andb].
  destruct es as [|e2 es]; [easy|]. cbn [List.length]. rewrite (proj2 (Rltb_true 0 SMALL_NUMBER)) by lra.
  replace (0 <? S (S (List.length es)) - 1)%nat with true by (symmetry; apply Nat.ltb_lt; lia). cbn [andb fst snd].
  rewrite Rplus_0_r. change (filter_entries L 0 (S (S (List.length es))) 1 (e2 :: es) [vertex2 t0 (e_speed e)] (x_t (vertex2 t0 (e_speed e))) = Some (knots (corners L 0 t0 (e_speed e) (e2 :: es)))).
  rewrite (filter_corners L 0); auto.
Qed.

(** In follow mode a first entry for the present is left out: the profile starts from the speed there is. *)
Lemma start_skip : forall L e es o speed t0, 0 < max_acc L -> 0 < max_dec L -> - SMALL_NUMBER < e_time e <= SMALL_NUMBER -> es <> [] -> Forall (timed L) es ->
  bends (knots (corners L o t0 speed es)) ->
  vertices L FOLLOW (e :: es) o speed t0 = Some (knots (corners L o t0 speed es)).
Proof.
  intros L e es o speed t0 HA HD E0 NE F B. unfold vertices.
  rewrite (proj2 (Rltb_false _ _)) by lra. rewrite (proj2 (Rltb_true _ _)) by lra. cbn [is_follow].
  change (filter_entries L o (List.length (e :: es)) 1 es [vertex2 t0 speed] (x_t (vertex2 t0 speed)) = Some (knots (corners L o t0 speed es))).
  rewrite (filter_corners L o); auto.
Qed.

(** ** Step *)

Lemma passed_spec : forall l time, (passed l time <= List.length l)%nat /\
  (forall i s, (i < passed l time)%nat -> nth_error l i = Some s -> g_t s - SMALL_NUMBER < time) /\
  (forall s, nth_error l (passed l time) = Some s -> time <= g_t s - SMALL_NUMBER).
Proof.
  induction l as [|s l IH]; intro time; cbn [passed].
  - split; [lia|]. split; [intros i s' H; lia|]. intros s' H. discriminate.
  - destruct (IH time) as (A & B & C). destruct (Rltb_spec (g_t s - SMALL_NUMBER) time) as [T|T].
    + split; [cbn; lia|]. split.
      * intros [|i] s' H E; [injection E as <-; exact T|]. apply (B i); [lia|exact E].
      * intros s' E. apply C. exact E.
    + split; [cbn; lia|]. split; [intros i s' H; lia|]. intros s' E. injection E as <-. lra.
Qed.

Lemma passed_all : forall l time, (forall s, In s l -> g_t s <= time) -> passed l time = List.length l.
Proof.
  induction l as [|s l IH]; intros time H; [reflexivity|]. cbn [passed List.length].
  rewrite (proj2 (Rltb_true _ _)); [f_equal; apply IH; intros; apply H; right; assumption|].
  pose proof (H s (or_introl eq_refl)). pose proof small_pos. lra.
Qed.

Lemma in_order_last : forall l z, linked in_order (l ++ [z]) -> forall s, In s (l ++ [z]) -> g_t s <= g_t z.
Proof.
  induction l as [|a l IH]; intros z H s I.
  - destruct I as [<-|[]]. lra.
  - destruct I as [<-|I].
    + destruct l as [|b l]; cbn [app linked] in H; [apply H|]. destruct H as [H1 H2]. apply Rle_trans with (g_t b); [exact H1|].
      apply (IH z H2). left. reflexivity.
    + apply IH; [|exact I]. destruct l as [|b l]; cbn [app linked] in *; tauto.
Qed.

(** Deciding comparisons of numbers. *)
Ltac num1 :=
  match goal with
  | |- context [Rabs ?x] => first [rewrite (Rabs_right x) by lra | rewrite (Rabs_left x) by lra]
  | |- context [Rltb ?a ?b] => first [rewrite (proj2 (Rltb_true a b)) by lra | rewrite (proj2 (Rltb_false a b)) by lra]
  | |- context [Reqb ?a ?b] => first [rewrite (proj2 (Reqb_true a b)) by lra | rewrite (proj2 (Reqb_false a b)) by lra]
  end.
Ltac num := repeat (num1; cbn [andb orb negb]).
Ltac pu := unfold div, root, RMAX, RMIN, SetK, vertex2, vertex3, jerk, allowed, AddSpeedSegment, CheckAccelerationRate, CheckAcceleration, CheckSpeed, outside,
  NEAR_ZERO, SMALL_NUMBER in *.
Ltac pc := cbn [x_t x_v x_k x_m e_time e_speed g_t g_v g_k g_j max_acc max_acc_rate max_dec max_dec_rate max_speed fst snd is_follow andb orb negb app
  List.length Nat.sub Nat.ltb Nat.eqb Nat.leb a_entries a_mode a_limits a_segments a_cur a_speed a_ended rev nth_error skipn Nat.add].
Ltac same := repeat match goal with
  | |- _ :: _ = _ :: _ => apply f_equal2
  | |- (_, _) = (_, _) => apply f_equal2
  | |- Some _ = Some _ => apply f_equal
  | |- Segment _ _ _ _ = Segment _ _ _ _ => f_equal
  | |- Vertex _ _ _ _ = Vertex _ _ _ _ => f_equal
  | |- Action _ _ _ _ _ _ _ = Action _ _ _ _ _ _ _ => f_equal
  end; try reflexivity; try lra; try (field; lra).
