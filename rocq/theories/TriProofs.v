(** * Spec and lemmas on the overlap of two triangles. *)
From Coq Require Import Reals Bool Lra Psatz.
From Verif Require Import AngModel AngProofs TriModel.
Open Scope R_scope.

(** A point of a triangle: a mean of its corners with weights that are not negative. *)
Definition within (x a b c : point) : Prop := exists u v w, 0 <= u /\ 0 <= v /\ 0 <= w /\ u + v + w = 1 /\
  fst x = u * fst a + v * fst b + w * fst c /\ snd x = u * snd a + v * snd b + w * snd c.

Definition overlapping (a1 b1 c1 a2 b2 c2 : point) : Prop := exists x, within x a1 b1 c1 /\ within x a2 b2 c2.

Lemma ge0_true : forall x, ge0 x = true <-> 0 <= x.
Proof. intros x. unfold ge0. rewrite negb_true_iff. apply Rltb_false. Qed.
Lemma ge0_false : forall x, ge0 x = false <-> x < 0.
Proof. intros x. unfold ge0. rewrite negb_false_iff. apply Rltb_true. Qed.
Lemma le0_true : forall x, le0 x = true <-> x <= 0.
Proof. intros x. unfold le0. rewrite negb_true_iff. apply Rltb_false. Qed.
Lemma le0_false : forall x, le0 x = false <-> 0 < x.
Proof. intros x. unfold le0. rewrite negb_false_iff. apply Rltb_true. Qed.

Lemma orient_cycle : forall a b c, orientation b c a = orientation a b c.
Proof. intros. unfold orientation. ring. Qed.
Lemma orient_swap : forall a b c, orientation a c b = - orientation a b c.
Proof. intros. unfold orientation. ring. Qed.

(** Points in the coordinates of the second triangle. *)
Section Std.
Variables a2 b2 c2 : point.
Let d2 := orientation a2 b2 c2.
Hypothesis D2 : 0 < d2.

Definition from (p : point) : point :=
  (fst c2 + fst p * (fst a2 - fst c2) + snd p * (fst b2 - fst c2), snd c2 + fst p * (snd a2 - snd c2) + snd p * (snd b2 - snd c2)).

Lemma from_o : forall p q r, orientation (from p) (from q) (from r) = d2 * orientation p q r.
Proof. intros p q r. unfold d2, from, orientation. cbn [fst snd]. ring. Qed.

Lemma from_all : forall x, exists p, x = from p.
Proof.
  intros [x y]. exists (orientation b2 c2 (x, y) / d2, orientation c2 a2 (x, y) / d2). unfold from. cbn [fst snd]. f_equal; unfold d2, orientation in *; cbn [fst snd]; field; lra.
Qed.

Lemma pair_is : forall (p : point) x y, x = fst p -> y = snd p -> (x, y) = p.
Proof. intros [u v] x y -> ->. reflexivity. Qed.

Lemma from_a : from (1, 0) = a2.
Proof. unfold from. cbn [fst snd]. apply pair_is; ring. Qed.
Lemma from_b : from (0, 1) = b2.
Proof. unfold from. cbn [fst snd]. apply pair_is; ring. Qed.
Lemma from_c : from (0, 0) = c2.
Proof. unfold from. cbn [fst snd]. apply pair_is; ring. Qed.

Lemma from_within : forall x a b c, within x a b c -> within (from x) (from a) (from b) (from c).
Proof.
  intros x a b c (u & v & w & U & V & W & S & X & Y). exists u, v, w. repeat (split; [assumption|]). unfold from. cbn [fst snd]. rewrite X, Y.
  replace u with (1 - v - w) by lra. split; ring.
Qed.

Lemma ge0_scale : forall x, ge0 (d2 * x) = ge0 x.
Proof.
  intros x. destruct (ge0 x) eqn:E.
  - apply ge0_true in E. apply ge0_true. nra.
  - apply ge0_false in E. apply ge0_false. nra.
Qed.
Lemma le0_scale : forall x, le0 (d2 * x) = le0 x.
Proof.
  intros x. destruct (le0 x) eqn:E.
  - apply le0_true in E. apply le0_true. nra.
  - apply le0_false in E. apply le0_false. nra.
Qed.
Lemma lt0_scale : forall x, Rltb 0 (d2 * x) = Rltb 0 x.
Proof.
  intros x. destruct (Rltb 0 x) eqn:E.
  - apply Rltb_true in E. apply Rltb_true. nra.
  - apply Rltb_false in E. apply Rltb_false. nra.
Qed.

Lemma vertex_from : forall a1 b1 c1 a b c, intersection_test_vertex (from a1) (from b1) (from c1) (from a) (from b) (from c) = intersection_test_vertex a1 b1 c1 a b c.
Proof. intros. unfold intersection_test_vertex. rewrite !from_o, !ge0_scale, !le0_scale, !lt0_scale. reflexivity. Qed.
Lemma edges_from : forall a1 b1 c1 a c, intersection_test_edges (from a1) (from b1) (from c1) (from a) (from c) = intersection_test_edges a1 b1 c1 a c.
Proof. intros. unfold intersection_test_edges. rewrite !from_o, !ge0_scale. reflexivity. Qed.
End Std.

(** ** A point by its position to the sides *)

Lemma within_orient : forall x a b c, 0 < orientation a b c -> 0 <= orientation a b x -> 0 <= orientation b c x -> 0 <= orientation c a x -> within x a b c.
Proof.
  intros x a b c D A B C. set (d := orientation a b c) in *. exists (orientation b c x / d), (orientation c a x / d), (orientation a b x / d).
  assert (forall n, 0 <= n -> 0 <= n / d) by (intros; apply Rmult_le_pos; [assumption|left; now apply Rinv_0_lt_compat]).
  split; [auto|]. split; [auto|]. split; [auto|]. unfold d, orientation in *. repeat split; field; lra.
Qed.

Lemma orient_mean : forall p q x a b c u v w, u + v + w = 1 -> fst x = u * fst a + v * fst b + w * fst c -> snd x = u * snd a + v * snd b + w * snd c ->
  orientation p q x = u * orientation p q a + v * orientation p q b + w * orientation p q c.
Proof. intros p q x a b c u v w S X Y. unfold orientation. rewrite X, Y. replace u with (1 - v - w) by lra. ring. Qed.

(** A side with one triangle on its left and all of the other strictly on its right. *)
Definition behind (p q a b c : point) : Prop := orientation p q a < 0 /\ orientation p q b < 0 /\ orientation p q c < 0.
Definition separated (a1 b1 c1 a2 b2 c2 : point) : Prop :=
  behind a1 b1 a2 b2 c2 \/ behind b1 c1 a2 b2 c2 \/ behind c1 a1 a2 b2 c2 \/ behind a2 b2 a1 b1 c1 \/ behind b2 c2 a1 b1 c1 \/ behind c2 a2 a1 b1 c1.

Lemma orient_diag : forall a b, orientation a b a = 0 /\ orientation a b b = 0.
Proof. intros. unfold orientation. split; ring. Qed.

Lemma behind_apart : forall p q a b c a' b' c' x, 0 <= orientation p q a' -> 0 <= orientation p q b' -> 0 <= orientation p q c' -> behind p q a b c -> within x a b c -> within x a' b' c' -> False.
Proof.
  intros p q a b c a' b' c' x P1 P2 P3 (N1 & N2 & N3) (u & v & w & U & V & W & S & X & Y) (u' & v' & w' & U' & V' & W' & S' & X' & Y').
  pose proof (orient_mean p q x a b c u v w S X Y) as E. pose proof (orient_mean p q x a' b' c' u' v' w' S' X' Y') as E'.
  assert (0 <= orientation p q x) by (rewrite E'; clear - U' V' W' P1 P2 P3; nra).
  assert (orientation p q x < 0).
  { rewrite E. clear - U V W S N1 N2 N3. destruct (Rlt_dec 0 u); [nra|]. destruct (Rlt_dec 0 v); nra. }
  lra.
Qed.

Lemma separated_apart : forall a1 b1 c1 a2 b2 c2, 0 < orientation a1 b1 c1 -> 0 < orientation a2 b2 c2 -> separated a1 b1 c1 a2 b2 c2 -> ~ overlapping a1 b1 c1 a2 b2 c2.
Proof.
  intros a1 b1 c1 a2 b2 c2 D1 D2 H (x & W1 & W2).
  destruct H as [H|[H|[H|[H|[H|H]]]]].
  1-3: eapply behind_apart; [| | |exact H|exact W2|exact W1].
  10-12: eapply behind_apart; [| | |exact H|exact W1|exact W2].
  all: unfold orientation in *; lra.
Qed.

(** ** The second triangle is (1,0), (0,1), (0,0) *)

Notation A2 := ((1, 0) : point). Notation B2 := ((0, 1) : point). Notation C2 := ((0, 0) : point).

Ltac cases :=
  repeat match goal with
  | H : andb _ _ = true |- _ => apply andb_true_iff in H as [? ?]
  | H : orb _ _ = false |- _ => apply orb_false_iff in H as [? ?]
  | H : ge0 _ = true |- _ => apply ge0_true in H
  | H : ge0 _ = false |- _ => apply ge0_false in H
  | H : le0 _ = true |- _ => apply le0_true in H
  | H : le0 _ = false |- _ => apply le0_false in H
  | H : Rltb _ _ = true |- _ => apply Rltb_true in H
  | H : Rltb _ _ = false |- _ => apply Rltb_false in H
  | H : andb _ _ = false |- _ => apply andb_false_iff in H as [?|?]
  | H : orb _ _ = true |- _ => apply orb_true_iff in H as [?|?]
  | H : (if ?b then _ else _) = _ |- _ => destruct b eqn:?
  | H : false = true |- _ => discriminate H
  | H : true = false |- _ => discriminate H
  end.


(** The position of a point, and of the standard corners, to the side from one point to another, by products of coordinates. *)
Definition cr (p q : point) : R := fst p * snd q - fst q * snd p.
Lemma o_cr : forall p q r, orientation p q r = cr p q + cr q r + cr r p.
Proof. intros. unfold orientation, cr. ring. Qed.
Lemma cr_swap : forall p q, cr p q = - cr q p.
Proof. intros. unfold cr. ring. Qed.

Ltac std :=
  repeat match goal with
  | H : context [orientation ?p ?q ?r] |- _ => rewrite (o_cr p q r) in H
  | |- context [orientation ?p ?q ?r] => rewrite (o_cr p q r)
  end.

(** What the products of three points satisfy. *)
Lemma cr_rel : forall p q t, cr p q * snd t + cr q t * snd p + cr t p * snd q = 0 /\ cr p q * fst t + cr q t * fst p + cr t p * fst q = 0.
Proof. intros. unfold cr. split; ring. Qed.

Ltac corners :=
  unfold behind; repeat match goal with
  | H : context [orientation _ _ _] |- _ => rewrite o_cr in H
  | |- context [orientation _ _ _] => rewrite o_cr
  end;
  repeat match goal with
  | H : context [cr ?p (?x, ?y)] |- _ => change (cr p (x, y)) with (fst p * y - x * snd p) in H
  | H : context [cr (?x, ?y) ?p] |- _ => change (cr (x, y) p) with (x * snd p - fst p * y) in H
  | |- context [cr ?p (?x, ?y)] => change (cr p (x, y)) with (fst p * y - x * snd p)
  | |- context [cr (?x, ?y) ?p] => change (cr (x, y) p) with (x * snd p - fst p * y)
  end; cbn [fst snd] in *.


(** All products and coordinates as numbers, with what they satisfy. *)
Ltac numbers p q t :=
  corners;
  pose proof (cr_swap q p); pose proof (cr_swap t q); pose proof (cr_swap p t);
  pose proof (proj1 (cr_rel p q t)); pose proof (proj2 (cr_rel p q t));
  assert (cr p q = fst p * snd q - fst q * snd p) by reflexivity;
  assert (cr q t = fst q * snd t - fst t * snd q) by reflexivity;
  assert (cr t p = fst t * snd p - fst p * snd t) by reflexivity;
  repeat match goal with H : context [cr q p] |- _ => match type of H with cr q p = _ => fail 1 | _ => rewrite (cr_swap q p) in H end end;
  repeat match goal with H : context [cr t q] |- _ => match type of H with cr t q = _ => fail 1 | _ => rewrite (cr_swap t q) in H end end;
  repeat match goal with H : context [cr p t] |- _ => match type of H with cr p t = _ => fail 1 | _ => rewrite (cr_swap p t) in H end end;
  repeat match goal with H : cr _ _ = - cr _ _ |- _ => clear H end;
  set (c := cr p q) in *; set (d := cr q t) in *; set (e := cr t p) in *; clearbody c d e;
  destruct p as [x1 y1], q as [x2 y2], t as [x3 y3]; cbn [fst snd] in *; rewrite ?Rmult_0_r, ?Rmult_0_l, ?Rmult_1_l, ?Rmult_1_r, ?Rminus_0_r, ?Rplus_0_r, ?Rplus_0_l in *;
  repeat match goal with H : ?a = ?a |- _ => clear H end.

Lemma neg_factor : forall y f, y < 0 -> 0 < y * f -> f < 0.
Proof. intros. nra. Qed.
Lemma neg_factor' : forall y f, 0 < y -> y * f < 0 -> f < 0.
Proof. intros. nra. Qed.

Lemma edges_false : forall p q t, 0 < orientation p q t -> snd p < 0 -> 0 <= fst p -> fst p + snd p <= 1 -> intersection_test_edges p q t A2 C2 = false -> separated p q t A2 B2 C2.
Proof.
  intros p q t D Y X S H. unfold intersection_test_edges in H. unfold separated. cases.
  - left. numbers p q t. repeat split; nra.
  - right; left. numbers p q t. assert (d < 0) by nra. repeat split; nra.
  - right; right; left. numbers p q t. assert (e < 0) by nra. repeat split; try nra. apply (neg_factor y1); [lra|].
    replace (y1 * (e + x1 + (0 - x3))) with (- x1 * (e - y1 + y3) - (1 - x1 - y1) * e) by (subst c d e; ring).
    destruct (Rlt_dec 0 x1); nra.
  - right; right; left. numbers p q t. repeat split; nra.
  - right; left. numbers p q t. repeat split; nra.
  - right; right; right; right; right. numbers p q t. repeat split; nra.
Qed.

(** The point where a segment crosses the line of a side. *)
Definition meet (p q : point) (u v : R) : point := ((u * fst p + v * fst q) / (u + v), (u * snd p + v * snd q) / (u + v)).

Lemma meet_pq : forall p q t u v, 0 <= u -> 0 <= v -> 0 < u + v -> within (meet p q u v) p q t.
Proof.
  intros p q t u v U V S. exists (u / (u + v)), (v / (u + v)), 0. assert (forall n, 0 <= n -> 0 <= n / (u + v)) by (intros; apply Rmult_le_pos; [assumption|left; now apply Rinv_0_lt_compat]).
  split; [auto|]. split; [auto|]. split; [lra|]. unfold meet. cbn [fst snd]. repeat split; field; lra.
Qed.

Lemma meet_pt : forall p q t u v, 0 <= u -> 0 <= v -> 0 < u + v -> within (meet p t u v) p q t.
Proof. intros p q t u v U V S. destruct (meet_pq p t q u v U V S) as (a & b & c & A & B & C & E & X & Y). exists a, c, b. repeat split; try assumption; lra. Qed.
Lemma meet_qt : forall p q t u v, 0 <= u -> 0 <= v -> 0 < u + v -> within (meet q t u v) p q t.
Proof. intros p q t u v U V S. destruct (meet_pq q t p u v U V S) as (a & b & c & A & B & C & E & X & Y). exists c, a, b. repeat split; try assumption; lra. Qed.

Lemma within_std : forall x, 0 <= fst x -> 0 <= snd x -> fst x + snd x <= 1 -> within x A2 B2 C2.
Proof. intros [x y] X Y S. cbn in *. exists x, y, (1 - x - y). cbn. repeat split; lra. Qed.

Lemma corner_in : forall p q t, within p p q t /\ within q p q t /\ within t p q t.
Proof.
  intros p q t. split; [|split].
  - exists 1, 0, 0. repeat split; lra.
  - exists 0, 1, 0. repeat split; lra.
  - exists 0, 0, 1. repeat split; lra.
Qed.

Lemma div_pos : forall n d, 0 < d -> 0 <= n -> 0 <= n / d.
Proof. intros. apply Rmult_le_pos; [assumption|left; now apply Rinv_0_lt_compat]. Qed.
Lemma div_one : forall n d, 0 < d -> n <= d -> n / d <= 1.
Proof. intros n d P H. apply (Rmult_le_reg_r d); [exact P|]. unfold Rdiv. rewrite Rmult_assoc, Rinv_l; lra. Qed.

(** A segment that crosses the line of a side between its ends. *)
Lemma crosses : forall p q u v, 0 <= u -> 0 <= v -> 0 < u + v -> 0 <= u * fst p + v * fst q -> 0 <= u * snd p + v * snd q -> u * fst p + v * fst q + (u * snd p + v * snd q) <= u + v ->
  within (meet p q u v) A2 B2 C2.
Proof.
  intros p q u v U V S X Y L. apply within_std; unfold meet; cbn [fst snd].
  - now apply div_pos.
  - now apply div_pos.
  - unfold Rdiv. rewrite <- Rmult_plus_distr_r. apply (div_one _ _ S L).
Qed.

Lemma edges_true : forall p q t, 0 < orientation p q t -> snd p < 0 -> 0 <= fst p -> fst p + snd p <= 1 -> intersection_test_edges p q t A2 C2 = true -> overlapping p q t A2 B2 C2.
Proof.
  intros p q t D Y X S H. unfold intersection_test_edges in H. cases.
  - exists (meet p q (snd q) (- snd p)). split.
    + apply meet_pq; numbers p q t; lra.
    + apply crosses; numbers p q t; try lra; nra.
  - exists A2. split; [|apply corner_in]. apply within_orient; numbers p q t; lra.
  - exists (meet p t (snd t) (- snd p)). split.
    + apply meet_pt; numbers p q t; lra.
    + apply crosses; numbers p q t; try lra; nra.
  - destruct (Rle_dec 0 (cr p t)).
    + exists (meet p t (snd t) (- snd p)). split; [apply meet_pt; numbers p q t; lra|]. apply crosses; numbers p q t; try lra; nra.
    + exists C2. split; [|apply corner_in]. apply within_orient; numbers p q t; try lra. nra.
Qed.

Lemma vertex_true : forall p q t, 0 < orientation p q t -> snd p < 0 -> fst p < 0 -> intersection_test_vertex p q t A2 B2 C2 = true -> overlapping p q t A2 B2 C2.
Proof.
  intros p q t D Y X H. unfold intersection_test_vertex in H. cases.
  - destruct (Rle_dec 0 (cr p q)).
    + exists (meet p q (snd q) (- snd p)). split; [apply meet_pq; numbers p q t; lra|]. apply crosses; numbers p q t; try lra; nra.
    + exists (meet p q (fst q) (- fst p)). split; [apply meet_pq; numbers p q t; lra|]. apply crosses; numbers p q t; try lra; nra.
  - exists A2. split; [|apply corner_in]. apply within_orient; numbers p q t; lra.
  - destruct (Rle_dec 0 (orientation t p B2)).
    + exists B2. split; [|apply corner_in]. apply within_orient; numbers p q t; lra.
    + exists (meet p t (fst t) (- fst p)). split; [apply meet_pt; numbers p q t; lra|]. numbers p q t. apply Rnot_le_lt in n.
      assert (0 < x2 - x1) by (clear - H H7 X Y Heqb; subst c; nra).
      assert (c <= 0) by (replace c with (y2 * (x1 - x2) + x2 * (y2 - y1)) by (subst c; ring); nra).
      assert (0 < (x2 - x1) * e) by (replace ((x2 - x1) * e) with (- c * (x3 - x1) + - x1 * (c + d + e)) by (subst c d e; ring); nra).
      assert (0 < e) by nra. apply crosses; cbn [fst snd]; lra || nra.
  - destruct (Rle_dec 0 (cr p t)).
    + exists (meet p t (snd t) (- snd p)). split; [apply meet_pt; numbers p q t; lra|]. apply crosses; numbers p q t; try lra; nra.
    + exists C2. split; [|apply corner_in]. apply within_orient; numbers p q t; try lra; try nra.
  - exists (meet q t (fst t) (- fst q)). split; [apply meet_qt; numbers p q t; try lra; try nra|apply crosses; numbers p q t; try lra; try nra].
Qed.

Lemma vertex_false : forall p q t, 0 < orientation p q t -> snd p < 0 -> fst p < 0 -> intersection_test_vertex p q t A2 B2 C2 = false -> separated p q t A2 B2 C2.
Proof.
  intros p q t D Y X H. unfold intersection_test_vertex in H. unfold separated. cases.
  - left. numbers p q t. repeat split; nra.
  - right; right; left. numbers p q t. repeat split; nra.
  - right; left. numbers p q t. assert (d < 0) by nra. repeat split; try lra. assert (0 < c) by lra.
    assert (c * (x3 - x2) < 0) by (replace (c * (x3 - x2)) with (- (x1 * d) - x2 * (c + d + e - d)) by (subst c d e; ring); nra).
    assert (x3 - x2 < 0) by (apply (neg_factor' c); lra). lra.
  - left. numbers p q t. repeat split; nra.
  - right; right; right; right; left. numbers p q t. repeat split; nra.
  - destruct (Rlt_dec (fst t) 0).
    { right; right; right; right; left. numbers p q t. repeat split; nra. }
    destruct (Rlt_dec (orientation p q B2) 0).
    { left. numbers p q t. repeat split; nra. }
    right; left. numbers p q t. assert (d < 0) by lra. repeat split; try lra. apply (neg_factor x1); [lra|].
    replace (x1 * (d + (0 - y3) + y2)) with (c + d + e - d + x1 * d + (- y1) * (x3 - x2)) by (subst c d e; ring). nra.
  - right; right; left. numbers p q t. repeat split; nra.
  - right; left. numbers p q t. repeat split; nra.
  - destruct (Rlt_dec (orientation q t B2) 0).
    { right; left. numbers p q t. repeat split; nra. }
    right; right; right; right; left. numbers p q t. repeat split; nra.
  - right; right; right; right; right. numbers p q t. repeat split; nra.
Qed.

(** The call that names the wrong side: it is still right when it says yes, away from the line of that side. *)
Lemma wrong_true : forall p q t, 0 < orientation p q t -> 0 < fst p -> 0 <= snd p -> 1 < fst p + snd p -> intersection_test_edges p q t B2 C2 = true -> overlapping p q t A2 B2 C2.
Proof.
  intros p q t D X Y S H. unfold intersection_test_edges in H. cases.
  - exists (meet p q (- fst q) (fst p)). split.
    + apply meet_pq; numbers p q t; lra.
    + apply crosses; numbers p q t; try lra; nra.
  - exists B2. split; [|apply corner_in]. apply within_orient; numbers p q t; lra.
  - exists (meet p t (- fst t) (fst p)). split.
    + apply meet_pt; numbers p q t; lra.
    + apply crosses; numbers p q t; try lra; nra.
  - destruct (Rle_dec 0 (cr p t)).
    + exists (meet p t (- fst t) (fst p)). split; [apply meet_pt; numbers p q t; lra|]. apply crosses; numbers p q t; try lra; nra.
    + exists C2. split; [|apply corner_in]. apply within_orient; numbers p q t; try lra. nra.
Qed.

(** ** Any two triangles *)

Lemma within_cycle : forall x a b c, within x a b c -> within x b c a.
Proof. intros x a b c (u & v & w & U & V & W & S & X & Y). exists v, w, u. repeat split; try assumption; lra. Qed.
Lemma within_flip : forall x a b c, within x a b c -> within x a c b.
Proof. intros x a b c (u & v & w & U & V & W & S & X & Y). exists u, w, v. repeat split; try assumption; lra. Qed.
Lemma overlap_cycle : forall a1 b1 c1 a2 b2 c2, overlapping a1 b1 c1 a2 b2 c2 -> overlapping a1 b1 c1 b2 c2 a2.
Proof. intros a1 b1 c1 a2 b2 c2 (x & A & B). exists x. split; [exact A|now apply within_cycle]. Qed.
Lemma separated_cycle : forall a1 b1 c1 a2 b2 c2, separated a1 b1 c1 a2 b2 c2 -> separated a1 b1 c1 b2 c2 a2.
Proof. intros a1 b1 c1 a2 b2 c2 H. unfold separated, behind in *. tauto. Qed.

Lemma from_overlap : forall a2 b2 c2 p q t, overlapping p q t A2 B2 C2 -> overlapping (from a2 b2 c2 p) (from a2 b2 c2 q) (from a2 b2 c2 t) a2 b2 c2.
Proof.
  intros a2 b2 c2 p q t (x & A & B). exists (from a2 b2 c2 x). split; [now apply from_within|].
  apply (from_within a2 b2 c2) in B. now rewrite from_a, from_b, from_c in B.
Qed.

Lemma from_separated : forall a2 b2 c2 p q t, 0 < orientation a2 b2 c2 -> separated p q t A2 B2 C2 -> separated (from a2 b2 c2 p) (from a2 b2 c2 q) (from a2 b2 c2 t) a2 b2 c2.
Proof.
  intros a2 b2 c2 p q t D H.
  assert (G : forall x y u v w, behind x y u v w -> behind (from a2 b2 c2 x) (from a2 b2 c2 y) (from a2 b2 c2 u) (from a2 b2 c2 v) (from a2 b2 c2 w)).
  { intros x y u v w (A & B & C). unfold behind. rewrite !from_o. repeat split; nra. }
  assert (K : separated (from a2 b2 c2 p) (from a2 b2 c2 q) (from a2 b2 c2 t) (from a2 b2 c2 A2) (from a2 b2 c2 B2) (from a2 b2 c2 C2)).
  { unfold separated in *. destruct H as [H|[H|[H|[H|[H|H]]]]]; apply G in H; tauto. }
  now rewrite from_a, from_b, from_c in K.
Qed.

Lemma sides : forall a2 b2 c2 p, orientation a2 b2 (from a2 b2 c2 p) = orientation a2 b2 c2 * (1 - fst p - snd p) /\
  orientation b2 c2 (from a2 b2 c2 p) = orientation a2 b2 c2 * fst p /\ orientation c2 a2 (from a2 b2 c2 p) = orientation a2 b2 c2 * snd p.
Proof. intros. unfold from, orientation. cbn [fst snd]. repeat split; ring. Qed.

(** What the tests say of a triangle whose first corner is where they expect it. *)
Definition tells (said : bool) (a1 b1 c1 a2 b2 c2 : point) : Prop := if said then overlapping a1 b1 c1 a2 b2 c2 else separated a1 b1 c1 a2 b2 c2.

Lemma tells_cycle : forall said a1 b1 c1 a2 b2 c2, tells said a1 b1 c1 a2 b2 c2 -> tells said a1 b1 c1 b2 c2 a2.
Proof. intros [] a1 b1 c1 a2 b2 c2; [apply overlap_cycle|apply separated_cycle]. Qed.

Ltac standard a2 b2 c2 D2 :=
  match goal with
  | D1 : 0 < orientation ?a1 ?b1 ?c1 |- _ =>
      destruct (from_all a2 b2 c2 D2 a1) as (p & ->); destruct (from_all a2 b2 c2 D2 b1) as (q & ->); destruct (from_all a2 b2 c2 D2 c1) as (t & ->);
      rewrite from_o in D1; destruct (sides a2 b2 c2 p) as (S1 & S2 & S3); rewrite ?S1, ?S2, ?S3 in *
  end.

Lemma edges_is : forall a1 b1 c1 a2 b2 c2, 0 < orientation a1 b1 c1 -> 0 < orientation a2 b2 c2 ->
  0 <= orientation a2 b2 a1 -> 0 <= orientation b2 c2 a1 -> orientation c2 a2 a1 < 0 -> tells (intersection_test_edges a1 b1 c1 a2 c2) a1 b1 c1 a2 b2 c2.
Proof.
  intros a1 b1 c1 a2 b2 c2 D1 D2 A B C. standard a2 b2 c2 D2.
  pose proof (edges_from a2 b2 c2 D2 p q t A2 C2) as E. rewrite from_a, from_c in E. rewrite E.
  unfold tells. destruct (intersection_test_edges p q t A2 C2) eqn:H.
  - apply from_overlap, edges_true; try assumption; nra.
  - apply from_separated; [exact D2|]. apply edges_false; try assumption; nra.
Qed.

Lemma vertex_is : forall a1 b1 c1 a2 b2 c2, 0 < orientation a1 b1 c1 -> 0 < orientation a2 b2 c2 ->
  orientation b2 c2 a1 < 0 -> orientation c2 a2 a1 < 0 -> tells (intersection_test_vertex a1 b1 c1 a2 b2 c2) a1 b1 c1 a2 b2 c2.
Proof.
  intros a1 b1 c1 a2 b2 c2 D1 D2 B C. standard a2 b2 c2 D2.
  pose proof (vertex_from a2 b2 c2 D2 p q t A2 B2 C2) as E. rewrite from_a, from_b, from_c in E. rewrite E.
  unfold tells. destruct (intersection_test_vertex p q t A2 B2 C2) eqn:H.
  - apply from_overlap, vertex_true; try assumption; nra.
  - apply from_separated; [exact D2|]. apply vertex_false; try assumption; nra.
Qed.

Lemma wrong_is : forall a1 b1 c1 a2 b2 c2, 0 < orientation a1 b1 c1 -> 0 < orientation a2 b2 c2 ->
  orientation a2 b2 a1 < 0 -> 0 < orientation b2 c2 a1 -> 0 <= orientation c2 a2 a1 -> intersection_test_edges a1 b1 c1 b2 c2 = true -> overlapping a1 b1 c1 a2 b2 c2.
Proof.
  intros a1 b1 c1 a2 b2 c2 D1 D2 A B C H. standard a2 b2 c2 D2.
  pose proof (edges_from a2 b2 c2 D2 p q t B2 C2) as E. rewrite from_b, from_c in E. rewrite E in H.
  apply from_overlap, wrong_true; try assumption; nra.
Qed.

(** Where the test names the wrong side: the first corner beyond the side from a2 to b2 and within the other two. *)
Definition astray (a1 a2 b2 c2 : point) : Prop := orientation a2 b2 a1 < 0 /\ 0 <= orientation b2 c2 a1 /\ 0 <= orientation c2 a2 a1.

Lemma inter_tells : forall a1 b1 c1 a2 b2 c2, 0 < orientation a1 b1 c1 -> 0 < orientation a2 b2 c2 -> ~ astray a1 a2 b2 c2 ->
  tells (intersection2d a1 b1 c1 a2 b2 c2) a1 b1 c1 a2 b2 c2.
Proof.
  intros a1 b1 c1 a2 b2 c2 D1 D2 N. pose proof (orient_cycle a2 b2 c2) as O1. pose proof (orient_cycle b2 c2 a2) as O2. unfold intersection2d.
  destruct (ge0 (orientation a2 b2 a1)) eqn:A; destruct (ge0 (orientation b2 c2 a1)) eqn:B; destruct (ge0 (orientation c2 a2 a1)) eqn:C; cbn [orb]; cases.
  - exists a1. split; [apply corner_in|]. apply within_orient; assumption.
  - now apply edges_is.
  - apply tells_cycle, edges_is; try assumption; lra.
  - now apply vertex_is.
  - exfalso. apply N. unfold astray. auto.
  - apply tells_cycle, tells_cycle, vertex_is; try assumption; lra.
  - apply tells_cycle, vertex_is; try assumption; lra.
  - apply tells_cycle, vertex_is; try assumption; lra.
Qed.

Lemma inter_true : forall a1 b1 c1 a2 b2 c2, 0 < orientation a1 b1 c1 -> 0 < orientation a2 b2 c2 -> orientation b2 c2 a1 <> 0 ->
  intersection2d a1 b1 c1 a2 b2 c2 = true -> overlapping a1 b1 c1 a2 b2 c2.
Proof.
  intros a1 b1 c1 a2 b2 c2 D1 D2 NZ H.
  destruct (ge0 (orientation a2 b2 a1)) eqn:A; [|destruct (ge0 (orientation b2 c2 a1)) eqn:B; [destruct (ge0 (orientation c2 a2 a1)) eqn:C|]].
  2:{ unfold intersection2d in H. rewrite A, B, C in H. cases. apply wrong_is; try assumption. lra. }
  all: pose proof (inter_tells a1 b1 c1 a2 b2 c2 D1 D2) as T; rewrite H in T; apply T; intros (X & Y & Z); cases; lra.
Qed.

(** ** The order of the corners *)

Definition ccw1 (a b c : point) : point := if Rltb (orientation a b c) 0 then c else b.
Definition ccw2 (a b c : point) : point := if Rltb (orientation a b c) 0 then b else c.

Lemma overlap_is : forall a1 b1 c1 a2 b2 c2, overlap2d a1 b1 c1 a2 b2 c2 = intersection2d a1 (ccw1 a1 b1 c1) (ccw2 a1 b1 c1) a2 (ccw1 a2 b2 c2) (ccw2 a2 b2 c2).
Proof. intros. unfold overlap2d, ccw1, ccw2. destruct (Rltb (orientation a1 b1 c1) 0), (Rltb (orientation a2 b2 c2) 0); reflexivity. Qed.

Lemma ccw_pos : forall a b c, orientation a b c <> 0 -> 0 < orientation a (ccw1 a b c) (ccw2 a b c).
Proof.
  intros a b c N. unfold ccw1, ccw2. destruct (Rltb (orientation a b c) 0) eqn:E.
  - apply Rltb_true in E. rewrite orient_swap. lra.
  - apply Rltb_false in E. lra.
Qed.

Lemma ccw_overlap : forall a1 b1 c1 a2 b2 c2, overlapping a1 (ccw1 a1 b1 c1) (ccw2 a1 b1 c1) a2 (ccw1 a2 b2 c2) (ccw2 a2 b2 c2) <-> overlapping a1 b1 c1 a2 b2 c2.
Proof.
  intros. unfold ccw1, ccw2. destruct (Rltb (orientation a1 b1 c1) 0), (Rltb (orientation a2 b2 c2) 0); split; intros (x & A & B); exists x; split;
    try assumption; apply within_flip; assumption.
Qed.
