(** * Proofs about the ideal object sensor *)
From Coq Require Import Reals Bool List NArith ZArith Lra Lia Psatz.
From Verif Require Import AngModel AngProofs SenModel.
Import ListNotations.
Open Scope R_scope.

(** ** Angles *)
Lemma pm_id : forall a, - PI <= a <= PI -> GetAngleInIntervalMinusPIPlusPI a = a.
Proof.
  intros a H. pose proof PI_RGT_0 as P. destruct (interval_pm a) as (B & k & E).
  destruct (fmod_spec a (2 * PI) ltac:(lra)) as ((j & F) & U & V). unfold GetAngleInIntervalMinusPIPlusPI in *.
  assert (F0 : fmod a (2 * PI) = a).
  { assert (j = 0)%Z; [|subst j; lra]. destruct (Rle_lt_dec 0 a) as [A|A].
    - specialize (U A). assert (IZR j < 1) by nra. assert (-1 < IZR j) by nra. apply lt_IZR in H0, H1. lia.
    - specialize (V ltac:(lra)). assert (IZR j < 1) by nra. assert (-1 < IZR j) by nra. apply lt_IZR in H0, H1. lia. }
  rewrite F0. rewrite (proj2 (Rltb_false a (- PI))) by lra. rewrite (proj2 (Rltb_false PI a)) by lra. reflexivity.
Qed.
Lemma abs_near : forall a b, - PI <= a - b <= PI -> GetAbsAngleDifference a b = Rabs (a - b).
Proof. intros a b H. rewrite abs_difference, difference_is, pm_id by exact H. reflexivity. Qed.
(** The same directions have the same difference. *)
Lemma abs_shift : forall a b c, same_angle a c -> GetAbsAngleDifference a b = GetAbsAngleDifference c b.
Proof.
  assert (L : forall a b c, same_angle a c -> GetAbsAngleDifference a b <= GetAbsAngleDifference c b).
  { intros a b c (k & E). rewrite !abs_difference. apply difference_minimal. rewrite difference_is. destruct (interval_pm (c - b)) as (_ & j & ->).
    exists (j - k)%Z. rewrite minus_IZR. lra. }
  intros a b c H. apply Rle_antisym; apply L; [exact H|]. destruct H as (k & ->). exists (- k)%Z. rewrite opp_IZR. lra.
Qed.

Lemma acos_abs : forall t, - PI < t <= PI -> acos (cos t) = Rabs t.
Proof.
  intros t T. pose proof PI_RGT_0. destruct (Rle_lt_dec 0 t) as [H0|H0].
  - rewrite Rabs_right by lra. apply acos_cos. lra.
  - rewrite Rabs_left by lra. rewrite <- (cos_neg t). apply acos_cos. lra.
Qed.

(** ** What is seen *)

(** The object is [d] metres from the sensor, in the direction [t] to the left of the heading of the host. *)
Definition at_angle (s : sensor) (host obj : body) (d t : R) : Prop :=
  - PI < t <= PI /\ offset s host obj = (d * cos (b_h host + t), d * sin (b_h host + t)).

Lemma at_some : forall s host obj, offset s host obj <> (0, 0) -> exists d t, 0 < d /\ at_angle s host obj d t.
Proof.
  intros s host obj N. destruct (offset s host obj) as [x y] eqn:E.
  assert (NZ : x <> 0 \/ y <> 0) by (destruct (Req_EM_T x 0); [destruct (Req_EM_T y 0); [subst; contradiction|auto]|auto]).
  destruct (atan2_spec x y NZ) as (_ & C & S & P). set (d := sqrt (x * x + y * y)) in *. set (a := atan2 y x) in *.
  pose proof PI_RGT_0. destruct (interval2pi (a - b_h host)) as (B & k & G). set (u := GetAngleInInterval2PI (a - b_h host)) in *.
  assert (T : exists t j, - PI < t <= PI /\ t = a - b_h host + 2 * IZR j * PI).
  { destruct (Rle_lt_dec u PI); [exists u, k; lra|]. exists (u - 2 * PI), (k - 1)%Z. rewrite minus_IZR. lra. }
  destruct T as (t & j & T & TE). exists d, t. split; [exact P|]. split; [exact T|]. rewrite E. replace (b_h host + t) with (a + 2 * IZR j * PI) by lra.
  destruct (cos_period_Z j a) as (-> & ->). rewrite C, S. f_equal; field; lra.
Qed.

Lemma angle_at : forall s host obj d t, SMALL_NUMBER <= d -> at_angle s host obj d t -> angle_to host (offset s host obj) = Rabs t.
Proof.
  intros s host obj d t D (T & E). pose proof small_pos. rewrite E. unfold angle_to, RotateVec2D, NormalizeVec2D, GetDotProduct2D. cbn [fst snd].
  assert (L : sqrt (d * cos (b_h host + t) * (d * cos (b_h host + t)) + d * sin (b_h host + t) * (d * sin (b_h host + t))) = d).
  { apply sqrt_sqr_eq; [lra|]. pose proof (sin2cos2 (b_h host + t)). nra. }
  rewrite L. rewrite (proj2 (Rltb_false d SMALL_NUMBER)) by lra.
  rewrite <- acos_abs by exact T. f_equal. replace (cos t) with (cos (b_h host + t - b_h host)) by (f_equal; ring). rewrite cos_minus. field. lra.
Qed.

(** The argument of acos. *)
Lemma dot_range : forall h x y, let '(xn, yn) := NormalizeVec2D x y in
  let '(hx, hy) := RotateVec2D 1 0 h in -1 <= GetDotProduct2D hx hy xn yn <= 1.
Proof.
  intros h x y. unfold NormalizeVec2D, RotateVec2D, GetDotProduct2D. pose proof small_pos as SP. pose proof (sqrt_pos (x * x + y * y)) as LP.
  assert (LL : sqrt (x * x + y * y) * sqrt (x * x + y * y) = x * x + y * y) by (apply sqrt_sqrt; nra). set (l := sqrt (x * x + y * y)) in *.
  set (m := if Rltb l SMALL_NUMBER then SMALL_NUMBER else l).
  assert (M : 0 < m /\ l <= m) by (unfold m; destruct (Rltb l SMALL_NUMBER) eqn:B; [apply Rltb_true in B; lra|apply Rltb_false in B; lra]).
  replace ((1 * cos h - 0 * sin h) * (x / m) + (1 * sin h + 0 * cos h) * (y / m)) with ((cos h * x + sin h * y) / m) by (field; lra).
  pose proof (sin2cos2 h) as SC. set (c := cos h) in *. set (w := sin h) in *.
  assert (SQ : (c * x + w * y) * (c * x + w * y) <= l * l).
  { rewrite LL. pose proof (Rle_0_sqr (c * y - w * x)) as H. unfold Rsqr in H.
    assert ((c * x + w * y) * (c * x + w * y) + (c * y - w * x) * (c * y - w * x) = (w * w + c * c) * (x * x + y * y)) by ring. rewrite SC in H0. lra. }
  assert (AB : - l <= c * x + w * y <= l).
  { split.
    - destruct (Rle_lt_dec (- l) (c * x + w * y)); [assumption|]. exfalso. assert (l < - (c * x + w * y)) by lra.
      assert (l * l < - (c * x + w * y) * - (c * x + w * y)) by (apply Rmult_le_0_lt_compat; lra). lra.
    - destruct (Rle_lt_dec (c * x + w * y) l); [assumption|]. exfalso. assert (l * l < (c * x + w * y) * (c * x + w * y)) by (apply Rmult_le_0_lt_compat; lra). lra. }
  split; apply Rmult_le_reg_r with m; try lra; replace ((c * x + w * y) / m * m) with (c * x + w * y) by (field; lra); lra.
Qed.

(** Visible for sensors. *)
Definition visible (g : thing) : Prop := g_host g = false /\ g_ghost g = false /\ N.testbit (g_mask g) 2 = true.
Lemma visible_iff : forall g, negb (g_host g || g_ghost g) && negb (N.land (g_mask g) SENSORS =? 0)%N = true <-> visible g.
Proof.
  intros g. unfold visible. rewrite andb_true_iff, !negb_true_iff, orb_false_iff, N.eqb_neq.
  assert (B : N.land (g_mask g) SENSORS <> 0%N <-> N.testbit (g_mask g) 2 = true).
  { split; intros H.
    - destruct (N.testbit (g_mask g) 2) eqn:E; [reflexivity|]. exfalso. apply H. apply N.bits_inj. intros n. rewrite N.land_spec, N.bits_0.
      destruct (N.eq_dec n 2) as [->|NE]; [rewrite E; reflexivity|]. change SENSORS with (2 ^ 2)%N. rewrite N.pow2_bits_false by congruence. apply andb_false_r.
    - intros Z. assert (N.testbit (N.land (g_mask g) SENSORS) 2 = false) by (rewrite Z; apply N.bits_0).
      rewrite N.land_spec, H in H0. change SENSORS with (2 ^ 2)%N in H0. rewrite N.pow2_bits_true in H0. discriminate H0. }
  tauto.
Qed.

Lemma view_iff : forall s host g d t, 0 <= s_near s -> 0 <= s_far s -> SMALL_NUMBER <= d -> at_angle s host (g_body g) d t ->
  (in_view s host g = true <-> visible g /\ s_near s <= d <= s_far s /\ GetAbsAngleDifference (Rabs t) (s_h s) < s_fov s / 2).
Proof.
  intros s host g d t N F D A. pose proof small_pos. unfold in_view. rewrite (angle_at _ _ _ _ _ D A). destruct A as (T & E). rewrite E. cbn [fst snd].
  assert (L : d * cos (b_h host + t) * (d * cos (b_h host + t)) + d * sin (b_h host + t) * (d * sin (b_h host + t)) = d * d).
  { pose proof (sin2cos2 (b_h host + t)). nra. }
  rewrite L, andb_true_iff, andb_true_iff, visible_iff, Rltb_true, negb_true_iff, orb_false_iff, !Rltb_false.
  assert (Q : s_near s * s_near s <= d * d /\ d * d <= s_far s * s_far s <-> s_near s <= d <= s_far s).
  { split; intros (Q1 & Q2); split.
    - destruct (Rle_lt_dec (s_near s) d); [assumption|]. exfalso. assert (d * d < s_near s * s_near s) by (apply Rmult_le_0_lt_compat; lra). lra.
    - destruct (Rle_lt_dec d (s_far s)); [assumption|]. exfalso. assert (s_far s * s_far s < d * d) by (apply Rmult_le_0_lt_compat; lra). lra.
    - apply Rmult_le_compat; lra.
    - apply Rmult_le_compat; lra. }
  tauto.
Qed.

(** ** The list *)
Lemma put_spec : forall n h l l', put n h l = Some l' ->
  length l' = length l /\ (exists x, nth_error l n = Some x /\ nth_error l' n = Some (h x)) /\ forall m, m <> n -> nth_error l' m = nth_error l m.
Proof.
  induction n as [|n IH]; intros h [|x r] l' H; cbn in H; try discriminate H.
  - injection H as <-. split; [reflexivity|]. split; [exists x; auto|]. intros [|m] M; [contradiction|reflexivity].
  - destruct (put n h r) as [r'|] eqn:P; [|discriminate H]. injection H as <-. destruct (IH _ _ _ P) as (L & (z & Z1 & Z2) & O).
    split; [cbn; congruence|]. split; [exists z; auto|]. intros [|m] M; [reflexivity|]. cbn. apply O. congruence.
Qed.
Lemma put_none : forall n h l, put n h l = None <-> (length l <= n)%nat.
Proof.
  induction n as [|n IH]; intros h [|x r]; cbn; split; intros H; try reflexivity; try lia; try discriminate H.
  - destruct (put n h r) eqn:P; [discriminate H|]. apply IH in P. lia.
  - rewrite (proj2 (IH h r)) by lia. reflexivity.
Qed.

(** The indices of the things in view, from [i] on, with the thing. *)
Fixpoint seen (s : sensor) (host : body) (i : nat) (l : list thing) : list (nat * thing) :=
  match l with [] => [] | g :: r => if in_view s host g then (i, g) :: seen s host (S i) r else seen s host (S i) r end.

Lemma seen_In : forall s host l i k g, In (k, g) (seen s host i l) <-> (i <= k)%nat /\ nth_error l (k - i) = Some g /\ in_view s host g = true.
Proof.
  induction l as [|g0 r IH]; intros i k g; cbn [seen].
  - split; [intros []|]. intros (_ & H & _). destruct (k - i)%nat; discriminate H.
  - assert (R1 : In (k, g) (seen s host (S i) r) <-> (i < k)%nat /\ nth_error (g0 :: r) (k - i) = Some g /\ in_view s host g = true).
    { rewrite IH. split; intros (A & B & C); (split; [lia|]); (split; [|exact C]).
      - replace (k - i)%nat with (S (k - S i)) by lia. exact B.
      - replace (k - i)%nat with (S (k - S i)) in B by lia. exact B. }
    assert (E0 : (k = i /\ g = g0) \/ (i < k)%nat -> (i <= k)%nat) by (intros [(-> & _)|H]; lia).
    destruct (in_view s host g0) eqn:V; cbn [In]; rewrite R1; split.
    + intros [E|(A & B)]; [injection E as <- <-; rewrite Nat.sub_diag; auto|split; [lia|exact B]].
    + intros (A & B & C). destruct (Nat.eq_dec k i) as [->|]; [left; rewrite Nat.sub_diag in B; cbn in B; congruence|right; split; [lia|auto]].
    + intros (A & B). split; [lia|exact B].
    + intros (A & B & C). destruct (Nat.eq_dec k i) as [->|]; [rewrite Nat.sub_diag in B; cbn in B; congruence|split; [lia|auto]].
Qed.

Lemma seen_increasing : forall s host l i a k1 g1 m k2 g2 b, seen s host i l = a ++ (k1, g1) :: m ++ (k2, g2) :: b -> (k1 < k2)%nat.
Proof.
  intros s host l. induction l as [|g0 r IH]; intros i a k1 g1 m k2 g2 b H; cbn [seen] in H; [destruct a; discriminate H|].
  destruct (in_view s host g0); [|exact (IH _ _ _ _ _ _ _ _ H)]. destruct a as [|z a].
  - cbn in H. injection H as <- <- H. assert (I : In (k2, g2) (seen s host (S i) r)) by (rewrite H; apply in_or_app; right; left; reflexivity).
    apply seen_In in I. lia.
  - cbn in H. injection H as _ H. exact (IH _ _ _ _ _ _ _ _ H).
Qed.

(** Element [n] of the list is the hit of what was seen [n]-th, made in the element that was there. *)
Definition holds (s : sensor) (host : body) (v : nat * thing) (old new : option hit) : Prop :=
  exists was, old = Some was /\ new = Some (make_hit s host (g_body (snd v)) (fst v) was).

Lemma scan_spec : forall s host l i mem n, (n <= length mem)%nat ->
  match scan s host i l mem n with
  | None => (length mem < n + length (seen s host i l))%nat
  | Some (mem', n') => n' = (n + length (seen s host i l))%nat /\ (n' <= length mem)%nat /\ length mem' = length mem
      /\ (forall k v, nth_error (seen s host i l) k = Some v -> holds s host v (nth_error mem (n + k)) (nth_error mem' (n + k)))
      /\ (forall k, (k < n \/ n' <= k)%nat -> nth_error mem' k = nth_error mem k)
  end.
Proof.
  intros s host l. induction l as [|g r IH]; intros i mem n L; cbn [scan seen].
  - cbn [length]. split; [lia|]. split; [lia|]. split; [reflexivity|]. split; [intros [|k] v H; discriminate H|reflexivity].
  - destruct (in_view s host g) eqn:V; [|apply IH; exact L]. cbn [length].
    destruct (put n (make_hit s host (g_body g) i) mem) as [mem1|] eqn:P.
    + assert (LT : (n < length mem)%nat).
      { destruct (le_lt_dec (length mem) n) as [E|E]; [|exact E]. apply (put_none n (make_hit s host (g_body g) i)) in E. congruence. }
      destruct (put_spec _ _ _ _ P) as (PL & (x & PX & PN) & PO). specialize (IH (S i) mem1 (S n) ltac:(lia)). rewrite PL in IH.
      destruct (scan s host (S i) r mem1 (S n)) as [[mem' n']|]; [|lia]. destruct IH as (I1 & I2 & I3 & I4 & I5).
      split; [lia|]. split; [lia|]. split; [congruence|]. split.
      * intros [|k] v H.
        -- cbn in H. injection H as <-. exists x. rewrite Nat.add_0_r. split; [exact PX|]. rewrite (I5 n) by lia. exact PN.
        -- cbn in H. specialize (I4 k v H). unfold holds in *. replace (n + S k)%nat with (S n + k)%nat by lia. destruct I4 as (was & W1 & W2). exists was.
           rewrite PO in W1 by lia. auto.
      * intros k K. rewrite I5 by lia. apply PO. lia.
    + apply put_none in P. lia.
Qed.

(** The indices of what is in view. *)
Definition viewed (s : sensor) (host : body) (l : list thing) : list nat :=
  filter (fun k => match nth_error l k with Some g => in_view s host g | None => false end) (seq 0 (length l)).
Lemma seen_viewed : forall s host l i,
  map fst (seen s host i l) = filter (fun k => match nth_error l (k - i) with Some g => in_view s host g | None => false end) (seq i (length l)).
Proof.
  induction l as [|g r IH]; intros i; [reflexivity|]. cbn [seen length seq filter]. rewrite Nat.sub_diag. cbn [nth_error].
  assert (E : filter (fun k => match nth_error (g :: r) (k - i) with Some g => in_view s host g | None => false end) (seq (S i) (length r)) = map fst (seen s host (S i) r)).
  { rewrite IH. apply filter_ext_in. intros k K. apply in_seq in K. replace (k - i)%nat with (S (k - S i)) by lia. reflexivity. }
  destruct (in_view s host g); cbn [map fst]; rewrite E; reflexivity.
Qed.
Lemma viewed_is : forall s host l, viewed s host l = map fst (seen s host 0 l).
Proof. intros. rewrite seen_viewed. unfold viewed. apply filter_ext. intros k. rewrite Nat.sub_0_r. reflexivity. Qed.

Lemma hit_obj : forall s host obj i was, k_obj (make_hit s host obj i was) = i /\ k_vz (make_hit s host obj i was) = k_vz was /\ k_az (make_hit s host obj i was) = k_az was.
Proof. intros. unfold make_hit. destruct (RotateVec2D _ _ _). destruct (Global2LocalCoordinates _ _ _ _ _). destruct (Global2LocalCoordinates _ _ _ _ _). auto. Qed.

Lemma nth_map_eq : forall (A : Type) (l1 l2 : list A), length l1 = length l2 -> (forall k, (k < length l1)%nat -> nth_error l1 k = nth_error l2 k) -> l1 = l2.
Proof.
  induction l1 as [|a r IH]; intros [|b q] L H; try reflexivity; try discriminate L. f_equal.
  - specialize (H 0%nat ltac:(cbn; lia)). cbn in H. congruence.
  - apply IH; [cbn in L; lia|]. intros k K. apply (H (S k)). cbn. lia.
Qed.

Lemma Update_some : forall s host l mem mem' n, Update s host l mem = Some (mem', n) ->
  n = length (viewed s host l) /\ (n <= length mem)%nat /\ length mem' = length mem /\ map k_obj (firstn n mem') = viewed s host l
  /\ forall k i g, nth_error (viewed s host l) k = Some i -> nth_error l i = Some g ->
       exists was, nth_error mem k = Some was /\ nth_error mem' k = Some (make_hit s host (g_body g) i was).
Proof.
  intros s host l mem mem' n H. pose proof (scan_spec s host l 0 mem 0 ltac:(lia)) as SP. unfold Update in H. rewrite H in SP. cbn [Nat.add] in SP.
  destruct SP as (N & LE & LL & HO & _). rewrite viewed_is, map_length. split; [exact N|]. split; [exact LE|]. split; [exact LL|]. split.
  - apply nth_map_eq; [rewrite !map_length, firstn_length; lia|]. intros k K. rewrite map_length, firstn_length in K.
    destruct (nth_error (seen s host 0 l) k) as [v|] eqn:E; [|apply nth_error_None in E; lia].
    destruct (HO k v E) as (was & _ & W). rewrite (map_nth_error fst _ _ E). apply map_nth_error with (f := k_obj) (d := make_hit s host (g_body (snd v)) (fst v) was).
    rewrite <- (firstn_skipn n mem') in W. rewrite nth_error_app1 in W by (rewrite firstn_length; lia). exact W.
  - intros k i g K G. destruct (nth_error (seen s host 0 l) k) as [v|] eqn:E.
    + rewrite (map_nth_error fst _ _ E) in K. injection K as <-. assert (IV : In v (seen s host 0 l)) by (apply nth_error_In with k; exact E).
      destruct v as [i g']. apply seen_In in IV as (_ & G' & _). rewrite Nat.sub_0_r in G'. cbn [fst] in *. assert (g' = g) by congruence. subst g'.
      exact (HO k _ E).
    + apply nth_error_None in E. assert (nth_error (map fst (seen s host 0 l)) k = None) by (apply nth_error_None; rewrite map_length; exact E). congruence.
Qed.
Lemma Update_none : forall s host l mem, Update s host l mem = None <-> (length mem < length (viewed s host l))%nat.
Proof.
  intros s host l mem. pose proof (scan_spec s host l 0 mem 0 ltac:(lia)) as SP. rewrite viewed_is, map_length. unfold Update.
  destruct (scan s host 0 l mem 0) as [[mem' n]|]; cbn [Nat.add] in SP; split; intros H; try discriminate H; try reflexivity; lia.
Qed.

(** ** Coordinates of the sensor *)
Lemma turn_back : forall x y a b, same_angle a b -> let u := x * cos (- a) - y * sin (- a) in let w := x * sin (- a) + y * cos (- a) in RotateVec2D u w b = (x, y).
Proof.
  intros x y a b S. cbn zeta. destruct (same_trig _ _ S) as (C & D). rewrite cos_neg, sin_neg, C, D. unfold RotateVec2D. pose proof (sin2cos2 b) as SC. f_equal.
  - replace ((x * cos b - y * - sin b) * cos b - (x * - sin b + y * cos b) * sin b) with (x * (sin b * sin b + cos b * cos b)) by ring. rewrite SC. ring.
  - replace ((x * cos b - y * - sin b) * sin b + (x * - sin b + y * cos b) * cos b) with (y * (sin b * sin b + cos b * cos b)) by ring. rewrite SC. ring.
Qed.
