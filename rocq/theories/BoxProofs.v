(** * Bounding boxes: specification and lemmas *)
From Coq Require Import Reals Bool List Lra Lia.
From Verif Require Import AngModel GeoModel GeoProofs BoxModel.
Import ListNotations.
Open Scope R_scope.

(** ** Specification *)

(** The points of the ground an object stands on. *)
Definition covers (o : box) (x y : R) : Prop := exists u v,
  - (b_len o / 2) <= u - b_cx o <= b_len o / 2 /\ - (b_wid o / 2) <= v - b_cy o <= b_wid o / 2 /\
  x = b_x o + (u * cos (b_h o) - v * sin (b_h o)) /\ y = b_y o + (u * sin (b_h o) + v * cos (b_h o)).

(** Length and width are not negative. *)
Definition sized (o : box) : Prop := 0 <= b_len o /\ 0 <= b_wid o.

(** The same box with [e] more length and width. *)
Definition grow (e : R) (o : box) : box := Box (b_x o) (b_y o) (b_z o) (b_h o) (b_cx o) (b_cy o) (b_len o + e) (b_wid o + e).

(** Coordinates of a point ahead and to the left, seen from the position and heading of [o]. *)
Definition ahead (o : box) (x y : R) : R := (x - b_x o) * cos (b_h o) + (y - b_y o) * sin (b_h o).
Definition left_of (o : box) (x y : R) : R := (y - b_y o) * cos (b_h o) - (x - b_x o) * sin (b_h o).

(** ** Lines *)

Lemma Rltb_spec x y : reflect (x < y) (Rltb x y).
Proof. unfold Rltb. destruct (Rlt_dec x y); constructor; assumption. Qed.

Lemma cs h : cos h * cos h + sin h * sin h = 1.
Proof. pose proof (sin2_cos2 h) as H. unfold Rsqr in H. lra. Qed.

Lemma helly3 l0 h0 l1 h1 l2 h2 : l0 <= h0 -> l0 <= h1 -> l0 <= h2 -> l1 <= h0 -> l1 <= h1 -> l1 <= h2 -> l2 <= h0 -> l2 <= h1 -> l2 <= h2 ->
  exists t, l0 <= t <= h0 /\ l1 <= t <= h1 /\ l2 <= t <= h2.
Proof.
  intros. exists (Rmax l0 (Rmax l1 l2)). unfold Rmax. destruct (Rle_dec l1 l2); destruct (Rle_dec l0 _); lra.
Qed.

Lemma helly4 l0 h0 l1 h1 l2 h2 l3 h3 : l0 <= h0 -> l0 <= h1 -> l0 <= h2 -> l0 <= h3 -> l1 <= h0 -> l1 <= h1 -> l1 <= h2 -> l1 <= h3 ->
  l2 <= h0 -> l2 <= h1 -> l2 <= h2 -> l2 <= h3 -> l3 <= h0 -> l3 <= h1 -> l3 <= h2 -> l3 <= h3 ->
  exists t, l0 <= t <= h0 /\ l1 <= t <= h1 /\ l2 <= t <= h2 /\ l3 <= t <= h3.
Proof.
  intros. exists (Rmax l0 (Rmax l1 (Rmax l2 l3))). unfold Rmax. destruct (Rle_dec l2 l3), (Rle_dec l1 _); destruct (Rle_dec l0 _); lra.
Qed.

Lemma div_le x y z : 0 < z -> (x / z <= y <-> x <= y * z).
Proof.
  intro Z. split; intro H.
  - apply (Rmult_le_compat_r z) in H; [|lra]. replace (x / z * z) with x in H by (field; lra). exact H.
  - apply (Rmult_le_reg_r z); [exact Z|]. replace (x / z * z) with x by (field; lra). exact H.
Qed.
Lemma le_div x y z : 0 < z -> (y <= x / z <-> y * z <= x).
Proof.
  intro Z. split; intro H.
  - apply (Rmult_le_compat_r z) in H; [|lra]. replace (x / z * z) with x in H by (field; lra). exact H.
  - apply (Rmult_le_reg_r z); [exact Z|]. replace (x / z * z) with x by (field; lra). exact H.
Qed.

Lemma frac_le x y z w : 0 < z -> 0 < w -> x * w <= y * z -> x / z <= y / w.
Proof.
  intros Z W H. apply div_le; [exact Z|]. replace (y / w * z) with (y * z / w) by (field; lra). apply le_div; assumption.
Qed.

(** ** Separating axes *)

(** Two rectangles, the one with half sides [a], [b] at the origin, the other with half sides [c], [d] at (p, q) turned by an angle with cosine C
    and sine S, have a common point if they overlap along the four axes. *)
Lemma sat_pos a b c d p q C S : 0 <= a -> 0 <= b -> 0 <= c -> 0 <= d -> 0 < C -> 0 < S -> C * C + S * S = 1 ->
  - (a + c * C + d * S) <= p <= a + c * C + d * S -> - (b + c * S + d * C) <= q <= b + c * S + d * C ->
  - (c + a * C + b * S) <= p * C + q * S <= c + a * C + b * S -> - (d + a * S + b * C) <= q * C - p * S <= d + a * S + b * C ->
  exists s t, - c <= s <= c /\ - d <= t <= d /\ - a <= p + s * C - t * S <= a /\ - b <= q + s * S + t * C <= b.
Proof.
  intros A B Cc D HC HS U H1 H2 H3 H4.
  assert (CS: 0 < C * S) by (apply Rmult_lt_0_compat; assumption).
  set (m := p * C + q * S) in *. set (n := q * C - p * S) in *.
  assert (Sn: - (S * (d + a * S + b * C)) <= S * n <= S * (d + a * S + b * C)).
  { split; [replace (- (S * (d + a * S + b * C))) with (S * (- (d + a * S + b * C))) by ring|]; apply Rmult_le_compat_l; lra. }
  assert (Cn: - (C * (d + a * S + b * C)) <= C * n <= C * (d + a * S + b * C)).
  { split; [replace (- (C * (d + a * S + b * C))) with (C * (- (d + a * S + b * C))) by ring|]; apply Rmult_le_compat_l; lra. }
  assert (aSS: 0 <= a * (C * C)) by (apply Rmult_le_pos; [lra|apply Rle_0_sqr]).
  assert (bSS: 0 <= b * (S * S)) by (apply Rmult_le_pos; [lra|apply Rle_0_sqr]).
  assert (aCS: 0 <= a * (C * S)) by (apply Rmult_le_pos; lra).
  assert (bCS: 0 <= b * (C * S)) by (apply Rmult_le_pos; lra).
  assert (dS: 0 <= d * S) by (apply Rmult_le_pos; lra).
  assert (dC: 0 <= d * C) by (apply Rmult_le_pos; lra).
  assert (aC: 0 <= a * C) by (apply Rmult_le_pos; lra). assert (bS: 0 <= b * S) by (apply Rmult_le_pos; lra).
  assert (Ep: p = m * C - n * S) by (unfold m, n; replace ((p * C + q * S) * C - (q * C - p * S) * S) with (p * (C * C + S * S)) by ring; rewrite U; ring).
  assert (Eq: q = m * S + n * C) by (unfold m, n; replace ((p * C + q * S) * S + (q * C - p * S) * C) with (q * (C * C + S * S)) by ring; rewrite U; ring).
  clearbody m n.
  assert (UA: a * (C * C) + a * (S * S) = a) by (rewrite <- Rmult_plus_distr_l, U; ring).
  assert (UB: b * (C * C) + b * (S * S) = b) by (rewrite <- Rmult_plus_distr_l, U; ring).
  assert (nS: - (d + a * S + b * C) <= n <= d + a * S + b * C) by exact H4.
  destruct (helly4 (- c) c ((- p - a - d * S) / C) ((- p + a + d * S) / C) ((- q - b - d * C) / S) ((- q + b + d * C) / S)
    (- m - (a * C + b * S)) (- m + (a * C + b * S))) as (s & S0 & S1 & S2 & S3); try lra;
    try (apply div_le; [assumption|]; lra);
    try (apply le_div; [assumption|]; lra).
  all: try (rewrite U in *; lra).
  { apply frac_le; try assumption. apply Rmult_le_compat_r; lra. }
  { apply frac_le; try assumption. rewrite Ep, Eq. replace ((- (m * C - n * S) - a - d * S) * S) with (- m * C * S + n * (1 - C * C) - a * S - d * (1 - C * C)) by (rewrite <- U; ring). lra. }
  { apply frac_le; try assumption. rewrite Ep, Eq. replace ((- (m * S + n * C) - b - d * C) * C) with (- m * C * S - n * (1 - S * S) - b * C - d * (1 - S * S)) by (rewrite <- U; ring). lra. }
  { apply frac_le; try assumption. apply Rmult_le_compat_r; lra. }
  assert (T1: - p - a - d * S <= s * C <= - p + a + d * S) by (split; [apply div_le; [assumption|apply S1]|apply le_div; [assumption|apply S1]]).
  assert (T2: - q - b - d * C <= s * S <= - q + b + d * C) by (split; [apply div_le; [assumption|apply S2]|apply le_div; [assumption|apply S2]]).
  destruct (helly3 (- d) d ((p + s * C - a) / S) ((p + s * C + a) / S) ((- q - s * S - b) / C) ((- q - s * S + b) / C)) as (t & X0 & X1 & X2); try lra;
    try (apply div_le; [assumption|]; lra); try (apply le_div; [assumption|]; lra).
  { apply frac_le; try assumption. apply Rmult_le_compat_r; lra. }
  { apply frac_le; try assumption. rewrite Ep, Eq.
    replace ((m * C - n * S + s * C - a) * C) with ((m + s) * (1 - S * S) - n * (C * S) - a * C) by (rewrite <- U; ring). lra. }
  { apply frac_le; try assumption. rewrite Ep, Eq.
    replace ((- (m * S + n * C) - s * S - b) * S) with (- (m + s) * (1 - C * C) - n * (C * S) - b * S) by (rewrite <- U; ring). lra. }
  { apply frac_le; try assumption. apply Rmult_le_compat_r; lra. }
  exists s, t. split; [exact S0|]. split; [exact X0|].
  assert (Y1: p + s * C - a <= t * S <= p + s * C + a) by (split; [apply div_le; [assumption|apply X1]|apply le_div; [assumption|apply X1]]).
  assert (Y2: - q - s * S - b <= t * C <= - q - s * S + b) by (split; [apply div_le; [assumption|apply X2]|apply le_div; [assumption|apply X2]]).
  lra.
Qed.

Lemma abs_le x y : Rabs x <= y <-> - y <= x <= y.
Proof. unfold Rabs. destruct (Rcase_abs x); lra. Qed.

Lemma sat_nonneg a b c d p q C S : 0 <= a -> 0 <= b -> 0 <= c -> 0 <= d -> 0 <= C -> 0 <= S -> C * C + S * S = 1 ->
  - (a + c * C + d * S) <= p <= a + c * C + d * S -> - (b + c * S + d * C) <= q <= b + c * S + d * C ->
  - (c + a * C + b * S) <= p * C + q * S <= c + a * C + b * S -> - (d + a * S + b * C) <= q * C - p * S <= d + a * S + b * C ->
  exists s t, - c <= s <= c /\ - d <= t <= d /\ - a <= p + s * C - t * S <= a /\ - b <= q + s * S + t * C <= b.
Proof.
  intros A B Cc D HC HS U H1 H2 H3 H4.
  destruct (Rle_lt_or_eq_dec 0 C HC) as [HC'|HC'].
  - destruct (Rle_lt_or_eq_dec 0 S HS) as [HS'|HS']; [apply sat_pos; assumption|].
    subst S. assert (C = 1). { assert (H: (C - 1) * (C + 1) = 0) by lra. apply Rmult_integral in H. lra. } subst C. clear - A B Cc D H1 H2 H3 H4.
    exists (Rmax (- c) (- p - a)), (Rmax (- d) (- q - b)). unfold Rmax. destruct (Rle_dec (- c) (- p - a)), (Rle_dec (- d) (- q - b)); lra.
  - subst C. assert (S = 1). { assert (H: (S - 1) * (S + 1) = 0) by lra. apply Rmult_integral in H. lra. } subst S. clear - A B Cc D H1 H2 H3 H4.
    exists (Rmax (- c) (- q - b)), (Rmax (- d) (p - a)). unfold Rmax. destruct (Rle_dec (- c) (- q - b)), (Rle_dec (- d) (p - a)); lra.
Qed.

Lemma sat_core a b c d p q C S : 0 <= a -> 0 <= b -> 0 <= c -> 0 <= d -> C * C + S * S = 1 ->
  Rabs p <= a + c * Rabs C + d * Rabs S -> Rabs q <= b + c * Rabs S + d * Rabs C ->
  Rabs (p * C + q * S) <= c + a * Rabs C + b * Rabs S -> Rabs (q * C - p * S) <= d + a * Rabs S + b * Rabs C ->
  exists s t, - c <= s <= c /\ - d <= t <= d /\ - a <= p + s * C - t * S <= a /\ - b <= q + s * S + t * C <= b.
Proof.
  intros A B Cc D U H1 H2 H3 H4. apply abs_le in H1, H2, H3, H4.
  assert (U': Rabs C * Rabs C + Rabs S * Rabs S = 1). { rewrite <- !Rabs_mult, !Rabs_right; [exact U| |]; apply Rle_ge, Rle_0_sqr. }
  unfold Rabs in *. destruct (Rcase_abs C) as [NC|NC], (Rcase_abs S) as [NS|NS].
  - destruct (sat_nonneg a b c d p q (- C) (- S)) as (s & t & X); try lra. exists (- s), (- t). lra.
  - destruct (sat_nonneg a b c d (- p) q (- C) S) as (s & t & X); try lra. exists s, (- t). lra.
  - destruct (sat_nonneg a b c d (- p) q C (- S)) as (s & t & X); try lra. exists (- s), t. lra.
  - apply sat_nonneg; try assumption; lra.
Qed.

(** Case analysis of the innermost comparison. *)
Ltac cmp := repeat match goal with |- context [Rltb ?x ?y] =>
  lazymatch x with context [Rltb _ _] => fail | _ => lazymatch y with context [Rltb _ _] => fail | _ => destruct (Rltb_spec x y) end end end.

(** ** Spans *)

(** Middle and half size of the shadow of a box along a direction. *)
Definition ctr_x (o : box) : R := b_x o + (b_cx o * cos (b_h o) - b_cy o * sin (b_h o)).
Definition ctr_y (o : box) : R := b_y o + (b_cx o * sin (b_h o) + b_cy o * cos (b_h o)).
Definition mid (o : box) (nx ny : R) : R := ctr_x o * nx + ctr_y o * ny.
Definition half (o : box) (nx ny : R) : R :=
  b_len o / 2 * Rabs (cos (b_h o) * nx + sin (b_h o) * ny) + b_wid o / 2 * Rabs (cos (b_h o) * ny - sin (b_h o) * nx).

Lemma four m A B : let f := fun acc x => (MIN x (fst acc), MAX x (snd acc)) in
  fold_left f [m - A + B; m - A - B; m + A - B] (m + A + B, m + A + B) = (m - (Rabs A + Rabs B), m + (Rabs A + Rabs B)).
Proof.
  cbn [fold_left fst snd]. unfold MIN, MAX. f_equal;
  unfold Rabs; destruct (Rcase_abs A), (Rcase_abs B);
  cmp; lra.
Qed.

Lemma span_spec o n : sized o -> span o n = (mid o (fst n) (snd n) - half o (fst n) (snd n), mid o (fst n) (snd n) + half o (fst n) (snd n)).
Proof.
  intros (L & W). destruct n as [nx ny]. unfold span, vertices, placed, RotateVec2D, GetDotProduct2D. cbn [map fst snd].
  set (A := b_len o / 2 * (cos (b_h o) * nx + sin (b_h o) * ny)). set (B := b_wid o / 2 * (cos (b_h o) * ny - sin (b_h o) * nx)).
  assert (HA: half o nx ny = Rabs A + Rabs B).
  { unfold half, A, B. rewrite !Rabs_mult. rewrite (Rabs_right (b_len o / 2)), (Rabs_right (b_wid o / 2)) by lra. reflexivity. }
  rewrite HA, <- (four (mid o nx ny) A B). cbn [fold_left fst snd].
  replace (mid o nx ny + A + B) with ((b_x o + ((b_cx o + b_len o / 2) * cos (b_h o) - (b_cy o + b_wid o / 2) * sin (b_h o))) * nx +
    (b_y o + ((b_cx o + b_len o / 2) * sin (b_h o) + (b_cy o + b_wid o / 2) * cos (b_h o))) * ny) by (unfold mid, ctr_x, ctr_y, A, B; ring).
  replace (mid o nx ny - A + B) with ((b_x o + ((b_cx o - b_len o / 2) * cos (b_h o) - (b_cy o + b_wid o / 2) * sin (b_h o))) * nx +
    (b_y o + ((b_cx o - b_len o / 2) * sin (b_h o) + (b_cy o + b_wid o / 2) * cos (b_h o))) * ny) by (unfold mid, ctr_x, ctr_y, A, B; ring).
  replace (mid o nx ny - A - B) with ((b_x o + ((b_cx o - b_len o / 2) * cos (b_h o) - (b_cy o - b_wid o / 2) * sin (b_h o))) * nx +
    (b_y o + ((b_cx o - b_len o / 2) * sin (b_h o) + (b_cy o - b_wid o / 2) * cos (b_h o))) * ny) by (unfold mid, ctr_x, ctr_y, A, B; ring).
  replace (mid o nx ny + A - B) with ((b_x o + ((b_cx o + b_len o / 2) * cos (b_h o) - (b_cy o - b_wid o / 2) * sin (b_h o))) * nx +
    (b_y o + ((b_cx o + b_len o / 2) * sin (b_h o) + (b_cy o - b_wid o / 2) * cos (b_h o))) * ny) by (unfold mid, ctr_x, ctr_y, A, B; ring).
  reflexivity.
Qed.

Lemma half_pos o nx ny : sized o -> 0 <= half o nx ny.
Proof. intros (L & W). unfold half. pose proof (Rabs_pos (cos (b_h o) * nx + sin (b_h o) * ny)). pose proof (Rabs_pos (cos (b_h o) * ny - sin (b_h o) * nx)).
  apply Rplus_le_le_0_compat; apply Rmult_le_pos; lra. Qed.

(** A point of the box casts its shadow into the span, and both ends of the span are reached. *)
Lemma shadow o nx ny x y : sized o -> covers o x y -> mid o nx ny - half o nx ny <= x * nx + y * ny <= mid o nx ny + half o nx ny.
Proof.
  intros (L & W) (u & v & U & V & -> & ->). unfold mid, half, ctr_x, ctr_y.
  set (A := cos (b_h o) * nx + sin (b_h o) * ny). set (B := cos (b_h o) * ny - sin (b_h o) * nx).
  replace ((b_x o + (u * cos (b_h o) - v * sin (b_h o))) * nx + (b_y o + (u * sin (b_h o) + v * cos (b_h o))) * ny) with
    ((b_x o + (b_cx o * cos (b_h o) - b_cy o * sin (b_h o))) * nx + (b_y o + (b_cx o * sin (b_h o) + b_cy o * cos (b_h o))) * ny + ((u - b_cx o) * A + (v - b_cy o) * B)) by (unfold A, B; ring).
  assert (Y1: - (b_len o / 2 * Rabs A) <= (u - b_cx o) * A <= b_len o / 2 * Rabs A).
  { apply abs_le. rewrite Rabs_mult. apply Rmult_le_compat_r; [apply Rabs_pos|]. apply abs_le. exact U. }
  assert (Y2: - (b_wid o / 2 * Rabs B) <= (v - b_cy o) * B <= b_wid o / 2 * Rabs B).
  { apply abs_le. rewrite Rabs_mult. apply Rmult_le_compat_r; [apply Rabs_pos|]. apply abs_le. exact V. }
  lra.
Qed.

Lemma shadow_at o nx ny (e : R) : sized o -> -1 <= e <= 1 -> exists x y, covers o x y /\ x * nx + y * ny = mid o nx ny + e * half o nx ny.
Proof.
  intros (L & W) E. set (A := cos (b_h o) * nx + sin (b_h o) * ny). set (B := cos (b_h o) * ny - sin (b_h o) * nx).
  set (sg := fun z => if Rle_dec 0 z then 1 else -1 : R).
  assert (SG: forall z, sg z * z = Rabs z /\ (sg z = 1 \/ sg z = -1)). { intro z. unfold sg, Rabs. destruct (Rle_dec 0 z), (Rcase_abs z); split; lra. }
  assert (EB: forall k, 0 <= k -> - k <= e * k <= k).
  { intros k K. split; [replace (- k) with (-1 * k) by ring|rewrite <- (Rmult_1_l k) at 2]; apply Rmult_le_compat_r; lra. }
  pose proof (EB (b_len o / 2)) as E1. pose proof (EB (b_wid o / 2)) as E2.
  exists (b_x o + ((b_cx o + e * sg A * (b_len o / 2)) * cos (b_h o) - (b_cy o + e * sg B * (b_wid o / 2)) * sin (b_h o))),
    (b_y o + ((b_cx o + e * sg A * (b_len o / 2)) * sin (b_h o) + (b_cy o + e * sg B * (b_wid o / 2)) * cos (b_h o))).
  destruct (SG A) as (SA & GA), (SG B) as (SB & GB). split.
  - exists (b_cx o + e * sg A * (b_len o / 2)), (b_cy o + e * sg B * (b_wid o / 2)). split; [|split; [|split; reflexivity]].
    + destruct GA as [G|G]; rewrite G; lra.
    + destruct GB as [G|G]; rewrite G; lra.
  - unfold mid, half. fold A B. rewrite <- SA, <- SB. unfold ctr_x, ctr_y, A, B. ring.
Qed.

(** The gap test. *)
Lemma gap_spec o t n : sized o -> sized t -> below (span o n) (span t n) || above (span o n) (span t n) =
  Rltb (half o (fst n) (snd n) + half t (fst n) (snd n) + SMALL_NUMBER) (Rabs (mid t (fst n) (snd n) - mid o (fst n) (snd n))).
Proof.
  intros So St. rewrite !span_spec by assumption. unfold below, above. cbn [fst snd].
  pose proof (half_pos o (fst n) (snd n) So). pose proof (half_pos t (fst n) (snd n) St).
  assert (0 < SMALL_NUMBER) by (unfold SMALL_NUMBER; lra).
  set (k := half o (fst n) (snd n)) in *. set (k' := half t (fst n) (snd n)) in *. set (m := mid o (fst n) (snd n)). set (m' := mid t (fst n) (snd n)). clearbody k k' m m'.
  unfold Rabs. destruct (Rcase_abs (m' - m)); repeat match goal with |- context [Rltb ?x ?y] => destruct (Rltb_spec x y) end; cbn [andb orb]; try reflexivity; exfalso; lra.
Qed.

Lemma clear_spec o t j : sized o -> sized t -> clear o t j = true <->
  Rabs (mid t (fst (axis o j)) (snd (axis o j)) - mid o (fst (axis o j)) (snd (axis o j))) <=
    half o (fst (axis o j)) (snd (axis o j)) + half t (fst (axis o j)) (snd (axis o j)) + SMALL_NUMBER.
Proof.
  intros So St. unfold clear. rewrite gap_spec by assumption.
  destruct (Rltb_spec (half o (fst (axis o j)) (snd (axis o j)) + half t (fst (axis o j)) (snd (axis o j)) + SMALL_NUMBER)
    (Rabs (mid t (fst (axis o j)) (snd (axis o j)) - mid o (fst (axis o j)) (snd (axis o j))))); cbn [negb]; split; intro; try discriminate; try reflexivity; lra.
Qed.

(** No gap on any of the axes. *)
Definition hit (o t : box) : bool := clear o t false && clear o t true && clear t o false && clear t o true.

Lemma hit_sym o t : hit o t = hit t o.
Proof. unfold hit. destruct (clear o t false), (clear o t true), (clear t o false), (clear t o true); reflexivity. Qed.

(** A common point leaves no gap. *)
Lemma common_clear o t j x y : sized o -> sized t -> covers o x y -> covers t x y -> clear o t j = true.
Proof.
  intros So St Co Ct. apply clear_spec; try assumption. set (n := axis o j).
  pose proof (shadow o (fst n) (snd n) x y So Co). pose proof (shadow t (fst n) (snd n) x y St Ct). apply abs_le. assert (0 < SMALL_NUMBER) by (unfold SMALL_NUMBER; lra). lra.
Qed.

Lemma common_hit o t x y : sized o -> sized t -> covers o x y -> covers t x y -> hit o t = true.
Proof. intros. unfold hit. rewrite !(common_clear _ _ _ x y) by assumption. reflexivity. Qed.

Lemma axis_long o : axis o true = (cos (b_h o), sin (b_h o)).
Proof. unfold axis, RotateVec2D. f_equal; ring. Qed.
Lemma axis_lat o : axis o false = (- sin (b_h o), cos (b_h o)).
Proof. unfold axis, RotateVec2D. f_equal; ring. Qed.

Lemma half_long o : half o (cos (b_h o)) (sin (b_h o)) = b_len o / 2.
Proof. unfold half. rewrite cs. replace (cos (b_h o) * sin (b_h o) - sin (b_h o) * cos (b_h o)) with 0 by ring. rewrite Rabs_R0, Rabs_R1. ring. Qed.
Lemma half_lat o : half o (- sin (b_h o)) (cos (b_h o)) = b_wid o / 2.
Proof.
  unfold half. replace (cos (b_h o) * cos (b_h o) - sin (b_h o) * - sin (b_h o)) with (cos (b_h o) * cos (b_h o) + sin (b_h o) * sin (b_h o)) by ring.
  rewrite cs. replace (cos (b_h o) * - sin (b_h o) + sin (b_h o) * cos (b_h o)) with 0 by ring. rewrite Rabs_R0, Rabs_R1. ring.
Qed.
Lemma half_long_of o t : half t (cos (b_h o)) (sin (b_h o)) = b_len t / 2 * Rabs (cos (b_h t - b_h o)) + b_wid t / 2 * Rabs (sin (b_h t - b_h o)).
Proof.
  unfold half. rewrite cos_minus, sin_minus. replace (cos (b_h t) * sin (b_h o) - sin (b_h t) * cos (b_h o)) with (- (sin (b_h t) * cos (b_h o) - cos (b_h t) * sin (b_h o))) by ring.
  rewrite Rabs_Ropp. reflexivity.
Qed.
Lemma half_lat_of o t : half t (- sin (b_h o)) (cos (b_h o)) = b_len t / 2 * Rabs (sin (b_h t - b_h o)) + b_wid t / 2 * Rabs (cos (b_h t - b_h o)).
Proof. unfold half. rewrite cos_minus, sin_minus. f_equal; f_equal; f_equal; ring. Qed.

(** Boxes without a gap have a common point once they have grown by the tolerance. *)
Lemma hit_common o t : sized o -> sized t -> hit o t = true -> exists x y, covers (grow SMALL_NUMBER o) x y /\ covers (grow SMALL_NUMBER t) x y.
Proof.
  intros So St H. unfold hit in H. apply andb_true_iff in H as [H H4]. apply andb_true_iff in H as [H H3]. apply andb_true_iff in H as [H2 H1].
  apply clear_spec in H1, H2, H3, H4; try assumption. rewrite axis_long in H1, H4. rewrite axis_lat in H2, H3. cbn [fst snd] in *.
  rewrite half_long, half_long_of in H1, H4. rewrite half_lat, half_lat_of in H2, H3.
  replace (b_h o - b_h t) with (- (b_h t - b_h o)) in H3, H4 by ring. rewrite cos_neg, sin_neg, Rabs_Ropp in H3, H4.
  set (C := cos (b_h t - b_h o)) in *. set (S := sin (b_h t - b_h o)) in *.
  set (p := mid t (cos (b_h o)) (sin (b_h o)) - mid o (cos (b_h o)) (sin (b_h o))) in *.
  set (q := mid t (- sin (b_h o)) (cos (b_h o)) - mid o (- sin (b_h o)) (cos (b_h o))) in *.
  assert (EC: C = cos (b_h t) * cos (b_h o) + sin (b_h t) * sin (b_h o)) by apply cos_minus.
  assert (ES: S = sin (b_h t) * cos (b_h o) - cos (b_h t) * sin (b_h o)) by apply sin_minus.
  assert (Eco: cos (b_h t) = C * cos (b_h o) - S * sin (b_h o)).
  { rewrite EC, ES. transitivity (cos (b_h t) * (cos (b_h o) * cos (b_h o) + sin (b_h o) * sin (b_h o))); [rewrite cs; ring|ring]. }
  assert (Esi: sin (b_h t) = C * sin (b_h o) + S * cos (b_h o)).
  { rewrite EC, ES. transitivity (sin (b_h t) * (cos (b_h o) * cos (b_h o) + sin (b_h o) * sin (b_h o))); [rewrite cs; ring|ring]. }
  assert (U: C * C + S * S = 1) by apply cs.
  assert (E4: mid o (cos (b_h t)) (sin (b_h t)) - mid t (cos (b_h t)) (sin (b_h t)) = - (p * C + q * S)).
  { unfold p, q, mid. rewrite Eco, Esi. ring. }
  assert (E3: mid o (- sin (b_h t)) (cos (b_h t)) - mid t (- sin (b_h t)) (cos (b_h t)) = - (q * C - p * S)).
  { unfold p, q, mid. rewrite Eco, Esi. ring. }
  rewrite E3, Rabs_Ropp in H3. rewrite E4, Rabs_Ropp in H4. destruct So as (Lo & Wo), St as (Lt & Wt).
  set (e := SMALL_NUMBER) in *. assert (He: 0 < e) by (unfold e, SMALL_NUMBER; lra). clearbody e.
  assert (G: 1 <= Rabs C + Rabs S).
  { pose proof (Rabs_pos C). pose proof (Rabs_pos S). assert (U': Rabs C * Rabs C + Rabs S * Rabs S = 1).
    { rewrite <- !Rabs_mult, !Rabs_right; [exact U| |]; apply Rle_ge, Rle_0_sqr. }
    destruct (Rle_dec 1 (Rabs C + Rabs S)) as [|N]; [assumption|exfalso].
    assert ((Rabs C + Rabs S) * (Rabs C + Rabs S) < 1 * 1) by (apply Rmult_le_0_lt_compat; lra). assert (0 <= Rabs C * Rabs S) by (apply Rmult_le_pos; lra). lra. }
  assert (G': e <= e * Rabs C + e * Rabs S). { rewrite <- Rmult_plus_distr_l. rewrite <- (Rmult_1_r e) at 1. apply Rmult_le_compat_l; lra. }
  destruct (sat_core ((b_len o + e) / 2) ((b_wid o + e) / 2) ((b_len t + e) / 2) ((b_wid t + e) / 2) p q C S) as (s & r & X1 & X2 & X3 & X4); try lra.
  exists (ctr_x t + (s * cos (b_h t) - r * sin (b_h t))), (ctr_y t + (s * sin (b_h t) + r * cos (b_h t))). split.
  - exists (b_cx o + (p + s * C - r * S)), (b_cy o + (q + s * S + r * C)). unfold grow. cbn. split; [lra|]. split; [lra|].
    assert (Ex: ctr_x t = ctr_x o + (p * cos (b_h o) - q * sin (b_h o))).
    { unfold p, q, mid. transitivity (ctr_x o + (ctr_x t - ctr_x o) * (cos (b_h o) * cos (b_h o) + sin (b_h o) * sin (b_h o))); [rewrite cs; ring|ring]. }
    assert (Ey: ctr_y t = ctr_y o + (p * sin (b_h o) + q * cos (b_h o))).
    { unfold p, q, mid. transitivity (ctr_y o + (ctr_y t - ctr_y o) * (cos (b_h o) * cos (b_h o) + sin (b_h o) * sin (b_h o))); [rewrite cs; ring|ring]. }
    clearbody p q C S. rewrite Ex, Ey, Eco, Esi. unfold ctr_x, ctr_y. split; ring.
  - exists (b_cx t + s), (b_cy t + r). unfold grow. cbn. split; [lra|]. split; [lra|]. unfold ctr_x, ctr_y. split; ring.
Qed.

(** ** Collision *)

Lemma relative_abs o t : Rabs (getRelativeDistance o t) = dist (b_x o) (b_y o) (b_x t) (b_y t).
Proof.
  unfold getRelativeDistance, RotateVec2D. set (x := _ * _ - _ * _). set (y := (b_x t - b_x o) * sin (- b_h o) + (b_y t - b_y o) * cos (- b_h o)). rewrite Rabs_mult.
  replace (Rabs (if Rltb 0 x then 1 else -1)) with 1 by (destruct (Rltb 0 x); unfold Rabs; destruct (Rcase_abs _); lra).
  rewrite Rmult_1_l, Rabs_right by (apply Rle_ge, sqrt_pos). unfold dist. f_equal. unfold x, y. rewrite cos_neg, sin_neg.
  transitivity (((b_x t - b_x o) * (b_x t - b_x o) + (b_y t - b_y o) * (b_y t - b_y o)) * (cos (b_h o) * cos (b_h o) + sin (b_h o) * sin (b_h o))); [ring|rewrite cs; ring].
Qed.

(** Far apart for the rough check. *)
Definition far (o t : box) : Prop :=
  sqrt ((b_len o + b_len t) * (b_len o + b_len t) + (b_wid o + b_wid t) * (b_wid o + b_wid t)) < dist (b_x o) (b_y o) (b_x t) (b_y t).

Lemma collision_spec o t : Collision o (Some t) = true <-> ~ far o t /\ Rabs (b_z o - b_z t) <= ELEVATION_DIFF_THRESHOLD /\ hit o t = true.
Proof.
  unfold Collision. rewrite relative_abs. fold (hit o t). unfold far.
  destruct (Rltb_spec (sqrt ((b_len o + b_len t) * (b_len o + b_len t) + (b_wid o + b_wid t) * (b_wid o + b_wid t))) (dist (b_x o) (b_y o) (b_x t) (b_y t))).
  - split; [discriminate|]. intros (F & _). contradiction.
  - destruct (Rltb_spec ELEVATION_DIFF_THRESHOLD (Rabs (b_z o - b_z t))); split; try discriminate.
    + intros (_ & Z & _). lra.
    + intro H. repeat split; try assumption; lra.
    + tauto.
Qed.

(** Every point of the box lies within its length of the position. *)
Definition compact (o : box) : Prop := forall x y, covers o x y -> dist (b_x o) (b_y o) x y <= b_len o.

Lemma near_compact o t x y : sized o -> sized t -> compact o -> compact t -> covers o x y -> covers t x y -> ~ far o t.
Proof.
  intros (Lo & Wo) (Lt & Wt) Co Ct X Y F. unfold far in F. pose proof (Co x y X). pose proof (Ct x y Y) as T. rewrite dist_sym in T.
  pose proof (dist_triangle (b_x o) (b_y o) x y (b_x t) (b_y t)).
  assert (b_len o + b_len t <= sqrt ((b_len o + b_len t) * (b_len o + b_len t) + (b_wid o + b_wid t) * (b_wid o + b_wid t))); [|lra].
  rewrite <- (sqrt_square (b_len o + b_len t)) at 1 by lra. apply sqrt_le_1_alt. pose proof (Rle_0_sqr (b_wid o + b_wid t)) as S. unfold Rsqr in S. lra.
Qed.

Lemma square_le x k : - k <= x <= k -> x * x <= k * k.
Proof. intro H. apply Rsqr_le_abs_1 with (y := k). rewrite (Rabs_right k) by lra. apply abs_le. exact H. Qed.

(** Length of a rotated vector. *)
Lemma turned u v h : (u * cos h - v * sin h) * (u * cos h - v * sin h) + (u * sin h + v * cos h) * (u * sin h + v * cos h) = u * u + v * v.
Proof. transitivity ((u * u + v * v) * (cos h * cos h + sin h * sin h)); [ring|rewrite cs; ring]. Qed.

Lemma compact_if o : 0 <= b_len o -> (Rabs (b_cx o) + b_len o / 2) * (Rabs (b_cx o) + b_len o / 2) + (Rabs (b_cy o) + b_wid o / 2) * (Rabs (b_cy o) + b_wid o / 2) <= b_len o * b_len o -> compact o.
Proof.
  intros L H x y (u & v & U & V & -> & ->). unfold dist. rewrite <- (sqrt_square (b_len o)) by exact L. apply sqrt_le_1_alt.
  assert (u * u <= (Rabs (b_cx o) + b_len o / 2) * (Rabs (b_cx o) + b_len o / 2)) by (apply square_le; pose proof (proj1 (abs_le (b_cx o) (Rabs (b_cx o))) (Rle_refl _)); lra).
  assert (v * v <= (Rabs (b_cy o) + b_wid o / 2) * (Rabs (b_cy o) + b_wid o / 2)) by (apply square_le; pose proof (proj1 (abs_le (b_cy o) (Rabs (b_cy o))) (Rle_refl _)); lra).
  pose proof (turned u v (b_h o)). lra.
Qed.

(** ** Lateral and longitudinal distance *)

Lemma relative_gap o t : f_gap (relative o t) = negb (hit o t).
Proof.
  unfold relative, round, hit, clear.
  destruct (below (span o (axis o false)) (span t (axis o false))), (above (span o (axis o false)) (span t (axis o false))),
    (below (span o (axis o true)) (span t (axis o true))), (above (span o (axis o true)) (span t (axis o true))),
    (below (span t (axis t false)) (span o (axis t false)) || above (span t (axis t false)) (span o (axis t false))),
    (below (span t (axis t true)) (span o (axis t true)) || above (span t (axis t true)) (span o (axis t true))); reflexivity.
Qed.

(** The distance along an axis as the code writes it. *)
Definition along (o t : box) (j : bool) : R :=
  let s0 := span o (axis o j) in let s1 := span t (axis o j) in
  if below s0 s1 || above s0 s1 then if below s0 s1 then fst s1 - snd s0 else - (fst s0 - snd s1) else 0.

Lemma relative_along o t : f_lat (relative o t) = along o t false /\ f_long (relative o t) = along o t true.
Proof.
  unfold relative, round, along.
  destruct (below (span o (axis o false)) (span t (axis o false))), (above (span o (axis o false)) (span t (axis o false))),
    (below (span o (axis o true)) (span t (axis o true))), (above (span o (axis o true)) (span t (axis o true))),
    (below (span t (axis t false)) (span o (axis t false)) || above (span t (axis t false)) (span o (axis t false))),
    (below (span t (axis t true)) (span o (axis t true)) || above (span t (axis t true)) (span o (axis t true))); split; reflexivity.
Qed.

(** [g] measures a coordinate; [v] is the signed gap between the boxes in it. *)
Definition gap_of (g : R -> R -> R) (o t : box) (v : R) : Prop :=
  (v = 0 /\ exists x y x' y', covers o x y /\ covers t x' y' /\ Rabs (g x' y' - g x y) <= SMALL_NUMBER) \/
  (SMALL_NUMBER < Rabs v /\ (exists x y x' y', covers o x y /\ covers t x' y' /\ g x' y' - g x y = v) /\
   forall x y x' y', covers o x y -> covers t x' y' -> if Rlt_dec 0 v then v <= g x' y' - g x y else g x' y' - g x y <= v).

Lemma along_gap o t j : sized o -> sized t -> gap_of (fun x y => x * fst (axis o j) + y * snd (axis o j)) o t (along o t j).
Proof.
  intros So St. unfold along. cbv zeta. set (n := axis o j). rewrite gap_spec by assumption. rewrite !span_spec by assumption. unfold below. cbn [fst snd].
  pose proof (half_pos o (fst n) (snd n) So) as Ho. pose proof (half_pos t (fst n) (snd n) St) as Ht.
  assert (Sm: 0 < SMALL_NUMBER) by (unfold SMALL_NUMBER; lra).
  pose proof (shadow_at o (fst n) (snd n)) as Ao. pose proof (shadow_at t (fst n) (snd n)) as At.
  pose proof (fun x y => shadow o (fst n) (snd n) x y So) as Bo. pose proof (fun x y => shadow t (fst n) (snd n) x y St) as Bt.
  set (k := half o (fst n) (snd n)) in *. set (k' := half t (fst n) (snd n)) in *. set (m := mid o (fst n) (snd n)) in *. set (m' := mid t (fst n) (snd n)) in *. clearbody k k' m m'.
  destruct (Rltb_spec (k + k' + SMALL_NUMBER) (Rabs (m' - m))) as [G|G].
  - right. unfold Rabs in G. destruct (Rcase_abs (m' - m)) as [Ng|Ng].
    + destruct (Rltb_spec (m - k) (m' - k' - SMALL_NUMBER)); [lra|]. cbn [andb].
      split; [rewrite Rabs_left; lra|]. split.
      * destruct (Ao (-1) So ltac:(lra)) as (x & y & C1 & E1). destruct (At 1 St ltac:(lra)) as (x' & y' & C2 & E2). exists x, y, x', y'. repeat split; try assumption. rewrite E1, E2. ring.
      * intros x y x' y' C1 C2. destruct (Rlt_dec 0 _) as [P|P]; [lra|]. specialize (Bo x y C1). specialize (Bt x' y' C2). lra.
    + destruct (Rltb_spec (m - k) (m' - k' - SMALL_NUMBER)); [|lra]. destruct (Rltb_spec (m + k) (m' - k' - SMALL_NUMBER)); [|lra]. cbn [andb].
      split; [rewrite Rabs_right; lra|]. split.
      * destruct (Ao 1 So ltac:(lra)) as (x & y & C1 & E1). destruct (At (-1) St ltac:(lra)) as (x' & y' & C2 & E2). exists x, y, x', y'. repeat split; try assumption. rewrite E1, E2. ring.
      * intros x y x' y' C1 C2. destruct (Rlt_dec 0 _) as [P|P]; [|lra]. specialize (Bo x y C1). specialize (Bt x' y' C2). lra.
  - left. split; [reflexivity|]. apply Rnot_lt_le, abs_le in G.
    destruct (Req_dec (k + k') 0) as [Z|Z].
    + destruct (Ao 0 So ltac:(lra)) as (x & y & C1 & E1). destruct (At 0 St ltac:(lra)) as (x' & y' & C2 & E2). exists x, y, x', y'. repeat split; try assumption.
      rewrite E1, E2. apply abs_le. lra.
    + set (e := (m' - m) / (k + k' + SMALL_NUMBER)). assert (P: 0 < k + k' + SMALL_NUMBER) by lra.
      assert (E: -1 <= e <= 1) by (unfold e; split; [apply le_div; lra|apply div_le; lra]).
      assert (F: e * (k + k' + SMALL_NUMBER) = m' - m) by (unfold e; field; lra).
      destruct (Ao e So E) as (x & y & C1 & E1). destruct (At (- e) St ltac:(lra)) as (x' & y' & C2 & E2). exists x, y, x', y'. repeat split; try assumption.
      rewrite E1, E2. replace (m' + - e * k' - (m + e * k)) with (e * SMALL_NUMBER) by lra. rewrite Rabs_mult, (Rabs_right SMALL_NUMBER) by lra.
      rewrite <- (Rmult_1_l SMALL_NUMBER) at 2. apply Rmult_le_compat_r; [lra|]. apply abs_le. exact E.
Qed.

Lemma lat_gap o t : sized o -> sized t -> gap_of (left_of o) o t (f_lat (relative o t)) /\ gap_of (ahead o) o t (f_long (relative o t)).
Proof.
  intros So St. destruct (relative_along o t) as (-> & ->).
  assert (M: forall f g v, (forall x y x' y', g x' y' - g x y = f x' y' - f x y) -> gap_of f o t v -> gap_of g o t v).
  { intros f g v E [(Z & x & y & x' & y' & A & B & D)|(Z & (x & y & x' & y' & A & B & D) & H)].
    - left. split; [exact Z|]. exists x, y, x', y'. rewrite E. auto.
    - right. split; [exact Z|]. split; [exists x, y, x', y'; rewrite E; auto|]. intros a b a' b' A' B'. rewrite E. apply H; assumption. }
  split.
  - refine (M _ _ _ _ (along_gap o t false So St)). intros. cbv beta. rewrite axis_lat. cbn [fst snd]. unfold left_of. ring.
  - refine (M _ _ _ _ (along_gap o t true So St)). intros. cbv beta. rewrite axis_long. cbn [fst snd]. unfold ahead. ring.
Qed.
