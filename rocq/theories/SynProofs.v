(** * Proofs about arriving at the same time *)
From Coq Require Import Reals Bool List Lra Lia Psatz.
From Verif Require Import AngModel AngProofs BoxModel SynModel.
Open Scope R_scope.

Lemma MAX_le : forall x y, x <= y -> MAX x y = y.
Proof. intros x y H. unfold MAX. destruct (Rltb x y) eqn:B; [reflexivity|]. apply Rltb_false in B. lra. Qed.
Lemma MAX_ge : forall x y, y <= x -> MAX x y = x.
Proof. intros x y H. unfold MAX. destruct (Rltb x y) eqn:B; [|reflexivity]. apply Rltb_true in B. lra. Qed.

Lemma small_pos : 0 < SMALL_NUMBER < 1 / 1000.
Proof. unfold SMALL_NUMBER. lra. Qed.

(** ** The profile of two phases *)

(** [x] seconds from [v0] to [vx] and the rest of [t] seconds from [vx] to [v1], with opposite accelerations of the same size, covers [s] metres. *)
Definition two_phases (s t v0 v1 vx acc x : R) : Prop :=
  0 < x < t /\ vx = v0 + acc * x /\ v1 = vx - acc * (t - x) /\ (v0 + vx) / 2 * x + (vx + v1) / 2 * (t - x) = s.

Lemma below_sq : forall d c, 0 <= d -> 0 < c -> d * d < c * c -> d < c.
Proof. intros d c D C H. destruct (Rlt_dec d c) as [|N]; [assumption|]. assert (c * c <= d * d) by (apply Rmult_le_compat; lra). lra. Qed.
Lemma above_sq : forall d c, 0 <= d -> (c < 0 \/ c * c < d * d) -> c < d.
Proof.
  intros d c D [H|H]; [lra|]. destruct (Rlt_dec c d) as [|N]; [assumption|]. assert (d * d <= c * c) by (apply Rmult_le_compat; lra). lra.
Qed.

Section Plan.
Variables (s t v0 v1 : R).
Hypothesis T : 0 < t.
Let A := s - v0 * t.
Let B := s - v1 * t.
Let D := sqrt 2 * sqrt (2 * s * s - 2 * (v1 + v0) * t * s + (v1 * v1 + v0 * v0) * t * t).

Lemma radicand : 2 * s * s - 2 * (v1 + v0) * t * s + (v1 * v1 + v0 * v0) * t * t = A * A + B * B.
Proof. unfold A, B. ring. Qed.

Lemma term : 0 <= D /\ D * D = 2 * (A * A + B * B).
Proof.
  unfold D. rewrite radicand. assert (0 <= A * A + B * B) by nra. split.
  - apply Rmult_le_pos; apply sqrt_pos.
  - replace (sqrt 2 * sqrt (A * A + B * B) * (sqrt 2 * sqrt (A * A + B * B))) with ((sqrt 2 * sqrt 2) * (sqrt (A * A + B * B) * sqrt (A * A + B * B))) by ring.
    rewrite !sqrt_def by lra. ring.
Qed.

Let x1 := - (D + 2 * s - 2 * v1 * t) / (2 * (v1 - v0)).
Let x2 := - (- D + 2 * s - 2 * v1 * t) / (2 * (v1 - v0)).

Lemma first_in : v1 <> v0 -> A + B < 0 -> 0 < x1 < t.
Proof.
  intros W P. destruct term as (D0 & DD). assert (E : (v1 - v0) * t = A - B) by (unfold A, B; ring).
  assert (X : 2 * (v1 - v0) * x1 = - (D + 2 * B)) by (unfold x1, B; field; lra).
  destruct (Rlt_dec v0 v1) as [L|L].
  - assert (0 < A - B) by (rewrite <- E; apply Rmult_lt_0_compat; lra).
    assert (B < 0) by lra. assert (A * A < B * B) by nra.
    assert (D < - 2 * B) by (apply below_sq; nra). assert (- 2 * A < D) by (apply above_sq; [lra|]; right; nra).
    split; apply Rmult_lt_reg_l with (2 * (v1 - v0)); lra.
  - assert (N : 0 < (v0 - v1) * t) by (apply Rmult_lt_0_compat; lra). assert (A - B < 0) by nra.
    assert (A < 0) by lra. assert (B * B < A * A) by nra.
    assert (D < - 2 * A) by (apply below_sq; nra). assert (- 2 * B < D) by (apply above_sq; [lra|]; right; nra).
    split; apply Rmult_lt_reg_l with (2 * (v0 - v1)); lra.
Qed.

Lemma first_out : v1 <> v0 -> 0 <= A + B -> ~ (0 < x1 < t).
Proof.
  intros W P (X0 & XT). destruct term as (D0 & DD). assert (E : (v1 - v0) * t = A - B) by (unfold A, B; ring).
  assert (X : 2 * (v1 - v0) * x1 = - (D + 2 * B)) by (unfold x1, B; field; lra).
  destruct (Rlt_dec v0 v1) as [L|L].
  - assert (0 < 2 * (v1 - v0) * x1) by (apply Rmult_lt_0_compat; lra). assert (0 < A - B) by (rewrite <- E; apply Rmult_lt_0_compat; lra).
    assert (D < - 2 * B) by lra. assert (D * D < (- 2 * B) * (- 2 * B)) by (apply Rmult_le_0_lt_compat; lra). nra.
  - assert (N : 0 < (v0 - v1) * t) by (apply Rmult_lt_0_compat; lra). assert (A - B < 0) by nra.
    assert (2 * (v0 - v1) * x1 < 2 * (v0 - v1) * t) by (apply Rmult_lt_compat_l; lra).
    assert (D < - 2 * A) by nra. assert (D * D < (- 2 * A) * (- 2 * A)) by (apply Rmult_le_0_lt_compat; lra). nra.
Qed.

Lemma second_in : v1 <> v0 -> 0 < A + B -> 0 < x2 < t.
Proof.
  intros W P. destruct term as (D0 & DD). assert (E : (v1 - v0) * t = A - B) by (unfold A, B; ring).
  assert (X : 2 * (v1 - v0) * x2 = D - 2 * B) by (unfold x2, B; field; lra).
  destruct (Rlt_dec v0 v1) as [L|L].
  - assert (0 < A - B) by (rewrite <- E; apply Rmult_lt_0_compat; lra).
    assert (0 < A) by lra. assert (B * B < A * A) by nra.
    assert (D < 2 * A) by (apply below_sq; nra). assert (2 * B < D) by (apply above_sq; [lra|]; right; nra).
    split; apply Rmult_lt_reg_l with (2 * (v1 - v0)); lra.
  - assert (N : 0 < (v0 - v1) * t) by (apply Rmult_lt_0_compat; lra). assert (A - B < 0) by nra.
    assert (0 < B) by lra. assert (A * A < B * B) by nra.
    assert (D < 2 * B) by (apply below_sq; nra). assert (2 * A < D) by (apply above_sq; [lra|]; right; nra).
    split; apply Rmult_lt_reg_l with (2 * (v0 - v1)); lra.
Qed.

Lemma second_out : v1 <> v0 -> A + B <= 0 -> ~ (0 < x2 < t).
Proof.
  intros W P (X0 & XT). destruct term as (D0 & DD). assert (E : (v1 - v0) * t = A - B) by (unfold A, B; ring).
  assert (X : 2 * (v1 - v0) * x2 = D - 2 * B) by (unfold x2, B; field; lra).
  destruct (Rlt_dec v0 v1) as [L|L].
  - assert (2 * (v1 - v0) * x2 < 2 * (v1 - v0) * t) by (apply Rmult_lt_compat_l; lra). assert (0 < A - B) by (rewrite <- E; apply Rmult_lt_0_compat; lra).
    assert (D < 2 * A) by nra. assert (D * D < (2 * A) * (2 * A)) by (apply Rmult_le_0_lt_compat; lra). nra.
  - assert (N : 0 < (v0 - v1) * t) by (apply Rmult_lt_0_compat; lra). assert (A - B < 0) by nra.
    assert (0 < 2 * (v0 - v1) * x2) by (apply Rmult_lt_0_compat; lra).
    assert (D < 2 * B) by nra. assert (D * D < (2 * B) * (2 * B)) by (apply Rmult_le_0_lt_compat; lra). nra.
Qed.

Lemma first_fits : v1 <> v0 -> 0 < x1 < t -> two_phases s t v0 v1 ((2 * s - D) / (2 * t)) (((2 * s - D) / (2 * t) - v0) / x1) x1.
Proof.
  intros W X. destruct term as (D0 & DD). set (vx := (2 * s - D) / (2 * t)).
  assert (V : vx * (2 * t) = 2 * s - D) by (unfold vx; field; lra).
  assert (XE : 2 * (v1 - v0) * x1 = - (D + 2 * B)) by (unfold x1, B; field; lra).
  assert (COV : (v0 + vx) / 2 * x1 + (vx + v1) / 2 * (t - x1) = s) by (unfold B in XE; nra).
  repeat split; try apply X; [field; lra| |exact COV].
  assert (EQ : (vx - v0) * (t - x1) = (vx - v1) * x1).
  { apply Rmult_eq_reg_l with (4 * t * (v1 - v0)); [|apply Rmult_integral_contrapositive_currified; lra].
    replace (4 * t * (v1 - v0) * ((vx - v0) * (t - x1))) with ((vx * (2 * t) - 2 * v0 * t) * (2 * (v1 - v0) * t - 2 * (v1 - v0) * x1)) by ring.
    replace (4 * t * (v1 - v0) * ((vx - v1) * x1)) with ((vx * (2 * t) - 2 * v1 * t) * (2 * (v1 - v0) * x1)) by ring.
    rewrite V, XE. assert (E2 : 2 * s - 2 * v0 * t = 2 * A) by (unfold A; ring). assert (E3 : 2 * s - 2 * v1 * t = 2 * B) by (unfold B; ring).
    replace (2 * s - D - 2 * v0 * t) with (2 * A - D) by lra. replace (2 * s - D - 2 * v1 * t) with (2 * B - D) by lra.
    replace (2 * (v1 - v0) * t) with (2 * (A - B)) by (unfold A, B; ring).
    replace ((2 * A - D) * (2 * (A - B) - - (D + 2 * B))) with (4 * A * A - D * D) by ring. replace ((2 * B - D) * - (D + 2 * B)) with (D * D - 4 * B * B) by ring.
    rewrite DD. ring. }
  assert (F : (vx - v0) / x1 * (t - x1) = vx - v1) by (unfold Rdiv; rewrite Rmult_assoc, (Rmult_comm (/ x1)), <- Rmult_assoc, EQ; field; lra).
  rewrite F. ring.
Qed.

Lemma second_fits : v1 <> v0 -> 0 < x2 < t -> two_phases s t v0 v1 ((2 * s + D) / (2 * t)) (((2 * s + D) / (2 * t) - v0) / x2) x2.
Proof.
  intros W X. destruct term as (D0 & DD). set (vx := (2 * s + D) / (2 * t)).
  assert (V : vx * (2 * t) = 2 * s + D) by (unfold vx; field; lra).
  assert (XE : 2 * (v1 - v0) * x2 = D - 2 * B) by (unfold x2, B; field; lra).
  assert (COV : (v0 + vx) / 2 * x2 + (vx + v1) / 2 * (t - x2) = s) by (unfold B in XE; nra).
  repeat split; try apply X; [field; lra| |exact COV].
  assert (EQ : (vx - v0) * (t - x2) = (vx - v1) * x2).
  { apply Rmult_eq_reg_l with (4 * t * (v1 - v0)); [|apply Rmult_integral_contrapositive_currified; lra].
    replace (4 * t * (v1 - v0) * ((vx - v0) * (t - x2))) with ((vx * (2 * t) - 2 * v0 * t) * (2 * (v1 - v0) * t - 2 * (v1 - v0) * x2)) by ring.
    replace (4 * t * (v1 - v0) * ((vx - v1) * x2)) with ((vx * (2 * t) - 2 * v1 * t) * (2 * (v1 - v0) * x2)) by ring.
    rewrite V, XE. assert (E2 : 2 * s - 2 * v0 * t = 2 * A) by (unfold A; ring). assert (E3 : 2 * s - 2 * v1 * t = 2 * B) by (unfold B; ring).
    replace (2 * s + D - 2 * v0 * t) with (2 * A + D) by lra. replace (2 * s + D - 2 * v1 * t) with (2 * B + D) by lra.
    replace (2 * (v1 - v0) * t) with (2 * (A - B)) by (unfold A, B; ring).
    replace ((2 * A + D) * (2 * (A - B) - (D - 2 * B))) with (4 * A * A - D * D) by ring. replace ((2 * B + D) * (D - 2 * B)) with (D * D - 4 * B * B) by ring.
    rewrite DD. ring. }
  assert (F : (vx - v0) / x2 * (t - x2) = vx - v1) by (unfold Rdiv; rewrite Rmult_assoc, (Rmult_comm (/ x2)), <- Rmult_assoc, EQ; field; lra).
  rewrite F. ring.
Qed.

(** What [plan] gives, by the side of the straight line. *)
Lemma plan_cases : SMALL_NUMBER <= Rabs (v1 - v0) ->
  (A + B < 0 /\ plan s t v0 v1 = ((2 * s - D) / (2 * t), ((2 * s - D) / (2 * t) - v0) / x1) /\ 0 < x1 < t)
  \/ (A + B = 0 /\ plan s t v0 v1 = (0, 0))
  \/ (0 < A + B /\ plan s t v0 v1 = ((2 * s + D) / (2 * t), ((2 * s + D) / (2 * t) - v0) / x2) /\ 0 < x2 < t).
Proof.
  intros W. assert (NE : v1 <> v0) by (intros E; replace (v1 - v0) with 0 in W by lra; rewrite Rabs_R0 in W; pose proof small_pos; lra).
  unfold plan. assert (F : Rltb (Rabs (v1 - v0)) SMALL_NUMBER = false) by (apply Rltb_false; lra). rewrite F. fold D. fold x1. fold x2.
  destruct (Rltb 0 x1 && Rltb x1 t) eqn:X1.
  - apply andb_true_iff in X1 as [P Q]. apply Rltb_true in P, Q. left. split; [|split; [reflexivity|lra]].
    destruct (Rlt_dec (A + B) 0) as [|N]; [assumption|]. exfalso. apply (first_out NE ltac:(lra)). lra.
  - assert (N1 : 0 <= A + B).
    { destruct (Rle_dec 0 (A + B)) as [|N]; [assumption|]. exfalso. destruct (first_in NE ltac:(lra)) as (P & Q). apply Rltb_true in P, Q. rewrite P, Q in X1. discriminate X1. }
    right. destruct (Rltb 0 x2 && Rltb x2 t) eqn:X2.
    + apply andb_true_iff in X2 as [P Q]. apply Rltb_true in P, Q. right. split; [|split; [reflexivity|lra]].
      destruct (Rlt_dec 0 (A + B)) as [|N]; [assumption|]. exfalso. apply (second_out NE ltac:(lra)). lra.
    + left. split; [|reflexivity]. destruct (Rle_dec (A + B) 0) as [|N]; [lra|]. exfalso.
      destruct (second_in NE ltac:(lra)) as (P & Q). apply Rltb_true in P, Q. rewrite P, Q in X2. discriminate X2.
Qed.

Lemma plan_sum : A + B = 2 * s - (v0 + v1) * t.
Proof. unfold A, B. ring. Qed.

Lemma first_slows : 0 <= t -> A + B < 0 -> 0 < x1 -> v1 <> v0 -> ((2 * s - D) / (2 * t) - v0) / x1 < 0.
Proof.
  intros _ P X W. destruct term as (D0 & DD).
  assert (2 * A < D) by (apply above_sq; [lra|]; destruct (Rlt_dec A 0); [left; lra|right; nra]).
  assert (E : (2 * s - D) / (2 * t) - v0 = (2 * A - D) / (2 * t)) by (unfold A; field; lra). rewrite E.
  assert (0 < (D - 2 * A) / (2 * t) / x1) by (apply Rdiv_lt_0_compat; [apply Rdiv_lt_0_compat|]; lra).
  replace ((2 * A - D) / (2 * t) / x1) with (- ((D - 2 * A) / (2 * t) / x1)) by (field; lra). lra.
Qed.

Lemma second_speeds : 0 <= t -> 0 < A + B -> 0 < x2 -> v1 <> v0 -> 0 < ((2 * s + D) / (2 * t) - v0) / x2.
Proof.
  intros _ P X W. destruct term as (D0 & DD).
  assert (- 2 * A < D) by (apply above_sq; [lra|]; destruct (Rlt_dec 0 A); [left; lra|right; nra]).
  assert (E : (2 * s + D) / (2 * t) - v0 = (2 * A + D) / (2 * t)) by (unfold A; field; lra). rewrite E.
  apply Rdiv_lt_0_compat; [apply Rdiv_lt_0_compat|]; lra.
Qed.

Lemma plan_negative : SMALL_NUMBER <= Rabs (v1 - v0) -> 0 < s -> 0 <= v0 -> 0 <= v1 -> (fst (plan s t v0 v1) < 0 <-> 2 * s * (v0 + v1) < t * (v0 * v0 + v1 * v1)).
Proof.
  intros W S V0 V1. destruct term as (D0 & DD).
  assert (NE : v1 <> v0) by (intros E; replace (v1 - v0) with 0 in W by lra; rewrite Rabs_R0 in W; pose proof small_pos; lra).
  assert (EX : D * D - 4 * s * s = 2 * t * (t * (v0 * v0 + v1 * v1) - 2 * s * (v0 + v1))) by (rewrite DD; unfold A, B; ring).
  destruct (plan_cases W) as [(P & E & X)|[(P & E)|(P & E & X)]]; rewrite E; cbn [fst].
  - split; intros H.
    + assert (2 * s < D).
      { assert (2 * s - D < 0); [|lra]. apply Rmult_lt_reg_r with (/ (2 * t)); [apply Rinv_0_lt_compat; lra|]. rewrite Rmult_0_l. exact H. }
      assert (0 < D * D - 4 * s * s) by nra. rewrite EX in H1. apply Rmult_lt_reg_l with (2 * t); lra.
    + assert (0 < D * D - 4 * s * s) by (rewrite EX; apply Rmult_lt_0_compat; lra).
      assert (2 * s < D) by (apply above_sq; [lra|]; right; lra).
      assert (0 < (D - 2 * s) / (2 * t)) by (apply Rdiv_lt_0_compat; lra). replace ((2 * s - D) / (2 * t)) with (- ((D - 2 * s) / (2 * t))) by (field; lra). lra.
  - split; [lra|]. intros H. exfalso. rewrite plan_sum in P.
    assert (v0 * v0 + v1 * v1 <= (v0 + v1) * (v0 + v1)) by nra.
    assert (2 * s * (v0 + v1) = (v0 + v1) * (v0 + v1) * t) by nra. nra.
  - assert (0 < (2 * s + D) / (2 * t)) by (apply Rdiv_lt_0_compat; lra). split; [lra|]. intros H1. exfalso. rewrite plan_sum in P.
    assert (v0 * v0 + v1 * v1 <= (v0 + v1) * (v0 + v1)) by nra.
    assert (VP : 0 < v0 + v1) by (destruct (Rle_lt_dec (v0 + v1) 0); [exfalso; apply NE; lra|lra]).
    assert ((v0 + v1) * t * (v0 + v1) < 2 * s * (v0 + v1)) by (apply Rmult_lt_compat_r; lra). nra.
Qed.
End Plan.

(** ** Steps *)
Lemma is_true : forall a b, is a b = true <-> a = b.
Proof. intros a b. split; [destruct a, b; cbn; congruence|intros ->; destruct b; reflexivity]. Qed.

Lemma arrived_false : forall y i, arrived y i = false ->
  y_tol y + SMALL_NUMBER <= i_dist i <= y_last y /\ y_tolM y + SMALL_NUMBER <= i_mdist i <= y_lastM y.
Proof.
  intros y i H. unfold arrived in H. apply orb_false_iff in H as [H D4]. apply orb_false_iff in H as [H D3]. apply orb_false_iff in H as [D1 D2].
  apply Rltb_false in D1, D2, D3, D4. lra.
Qed.

(** A step that does not end the action: nothing else changes, distances were checked. *)
Lemma Step_goes : forall y v i y' v', i_over i = false -> Step y v i = (y', v', false) ->
  arrived y i = false /\ y_tol y' = y_tol y /\ y_tolM y' = y_tolM y /\ y_steady y' = y_steady y /\ y_last y' = i_dist i /\ y_lastM y' = i_mdist i
  /\ (SMALL_NUMBER < master_speed i ->
      let s := i_dist i - y_tol y in let t := (i_mdist i - y_tolM y) / master_speed i in
      i_dt i <= t /\ 0 < t
      /\ match i_final i with
         | Some f => let '(mode, sub, s, t) := before_steady (y_mode y) (y_sub y) (y_steady y) s t f in
                     (y_mode y', y_sub y', v') = towards mode sub s t v (SIGN v * Rabs (i_vel i)) f (i_dt i)
         | None => y_mode y' = MODE_LINEAR /\ v' = v + (2 * (s / t) - v - v) / t * i_dt i
         end)
  /\ (master_speed i <= SMALL_NUMBER ->
      let s := i_dist i - y_tol y in let v1 := if is (y_mode y) MODE_WAITING then v else 0 in
      match i_final i with
      | Some f => let '(mode, sub, s, t) := before_steady MODE_WAITING (y_sub y) (y_steady y) s LARGE_NUMBER f in
                  (y_mode y', y_sub y', v') = towards mode sub s t v1 (SIGN v1 * Rabs (i_vel i)) f (i_dt i)
      | None => y_mode y' = MODE_WAITING /\ v' = v1
      end).
Proof.
  intros y v i y' v' O H. unfold Step in H. rewrite O in H. pose proof small_pos as SP.
  destruct (Rltb SMALL_NUMBER (master_speed i)) eqn:M.
  - apply Rltb_true in M. destruct (arrived y i) eqn:AR; [cbn [orb] in H; discriminate H|]. cbn [orb] in H.
    pose proof (arrived_false y i AR) as D. rewrite !MAX_ge in H by lra.
    destruct (Rltb ((i_mdist i - y_tolM y) / master_speed i) (i_dt i)) eqn:TT; [discriminate H|]. apply Rltb_false in TT.
    assert (0 < (i_mdist i - y_tolM y) / master_speed i) by (apply Rdiv_lt_0_compat; lra).
    destruct (i_final i) as [f|] eqn:F.
    + destruct (before_steady _ _ _ _ _ _) as [[[mode sub] s] t] eqn:BS. destruct (towards _ _ _ _ _ _ _ _) as [[m2 s2] v2] eqn:TO.
      injection H as <- <-. cbn [y_tol y_tolM y_steady y_last y_lastM y_mode y_sub]. do 6 (split; [reflexivity|]). split; intros MM; [|exfalso; lra].
      cbn zeta. rewrite BS, TO. auto.
    + injection H as <- <-. cbn [y_tol y_tolM y_steady y_last y_lastM y_mode y_sub]. do 6 (split; [reflexivity|]). split; intros MM; [|exfalso; lra].
      cbn zeta. auto.
  - apply Rltb_false in M. destruct (is (y_mode y) MODE_WAITING) eqn:W.
    + apply is_true in W. destruct (arrived y i) eqn:AR; [discriminate H|]. pose proof (arrived_false y i AR) as D. rewrite !MAX_ge in H by lra.
      destruct (i_final i) as [f|] eqn:F.
      * rewrite W in H. destruct (before_steady _ _ _ _ _ _) as [[[mode sub] s] t] eqn:BS. destruct (towards _ _ _ _ _ _ _ _) as [[m2 s2] v2] eqn:TO.
        injection H as <- <-. cbn [y_tol y_tolM y_steady y_last y_lastM y_mode y_sub]. do 6 (split; [reflexivity|]). split; intros MM; [exfalso; lra|].
        cbn zeta. rewrite BS, TO. auto.
      * injection H as <- <-. cbn [y_tol y_tolM y_steady y_last y_lastM y_mode y_sub]. do 6 (split; [reflexivity|]). split; intros MM; [exfalso; lra|].
        cbn zeta. split; [exact W|ring].
    + destruct (arrived y i) eqn:AR; [discriminate H|]. pose proof (arrived_false y i AR) as D. rewrite !MAX_ge in H by lra.
      destruct (i_final i) as [f|] eqn:F.
      * destruct (before_steady _ _ _ _ _ _) as [[[mode sub] s] t] eqn:BS. destruct (towards _ _ _ _ _ _ _ _) as [[m2 s2] v2] eqn:TO.
        injection H as <- <-. cbn [y_tol y_tolM y_steady y_last y_lastM y_mode y_sub]. do 6 (split; [reflexivity|]). split; intros MM; [exfalso; lra|].
        cbn zeta. rewrite BS, TO. auto.
      * injection H as <- <-. cbn [y_tol y_tolM y_steady y_last y_lastM y_mode y_sub]. do 6 (split; [reflexivity|]). split; intros MM; [exfalso; lra|].
        cbn zeta. split; [reflexivity|ring].
Qed.

Lemma linear_speed : forall s t f, 1 / 1000 <= t <= LARGE_NUMBER - 1 -> 1 / 1000 <= s -> 0 <= f -> f * t <= 2 * s -> linear s t f = 2 * s / t - f.
Proof.
  intros s t f T S F L. unfold linear, CalcSpeedForLinearProfile.
  assert (B1 : Rltb (LARGE_NUMBER - 1) t = false) by (apply Rltb_false; lra). assert (B2 : Rltb t (1 / 1000) = false) by (apply Rltb_false; lra).
  assert (B3 : Rltb s (1 / 1000) = false) by (apply Rltb_false; lra). rewrite B1, B2, B3. cbn [orb]. rewrite (MAX_le 0 f) by lra. apply MAX_le.
  assert (f <= 2 * s / t); [|lra]. apply Rmult_le_reg_r with t; [lra|]. replace (2 * s / t * t) with (2 * s) by (field; lra). lra.
Qed.

(** The distance left in steps at the speeds of the straight line. *)
Lemma line_step : forall s t f dt, 0 < t -> t <> dt ->
  let s' := s - (2 * s / t - f) * dt in let t' := t - dt in s' - f * t' = (s - f * t) * (t - 2 * dt) / t.
Proof. intros s t f dt T N. cbn. field. lra. Qed.

(** ** Runs at constant speed of the master *)

(** [k] steps that do not end the action: the distances of the next step are those left by the speeds, the master goes [c] m/s. *)
Record run (k : nat) (y : nat -> sync) (v : nat -> R) (i : nat -> input) (c dt : R) (final : option R) : Prop := Run {
  r_step : forall n, (n < k)%nat -> Step (y n) (v n) (i n) = (y (S n), v (S n), false);
  r_free : forall n, (n <= k)%nat -> i_over (i n) = false;
  r_mine : forall n, (n < k)%nat -> i_dist (i (S n)) = i_dist (i n) - v (S n) * dt;
  r_master : forall n, (n < k)%nat -> i_mdist (i (S n)) = i_mdist (i n) - c * dt;
  r_speed : forall n, (n <= k)%nat -> master_speed (i n) = c;
  r_final : forall n, (n <= k)%nat -> i_final (i n) = final;
  r_dt : forall n, (n <= k)%nat -> i_dt (i n) = dt
}.

(** What is left of the way and of the time. *)
Definition way (y : nat -> sync) (i : nat -> input) (n : nat) : R := i_dist (i n) - y_tol (y 0%nat).
Definition rest (y : nat -> sync) (i : nat -> input) (n : nat) : R := (i_mdist (i n) - y_tolM (y 0%nat)) / master_speed (i 0%nat).

(** The parabola of the time left. *)
Lemma parabola : forall dt t, 0 <= t <= dt -> Rabs (t * (t - dt)) <= dt * dt / 4.
Proof.
  intros dt t T. rewrite Rabs_left1 by (assert (0 <= t * (dt - t)) by (apply Rmult_le_pos; lra); lra). pose proof (Rle_0_sqr (t - dt / 2)) as H. unfold Rsqr in H. nra.
Qed.

Section Run.
Variables (k : nat) (y : nat -> sync) (v : nat -> R) (i : nat -> input) (c dt : R) (final : option R).
Hypothesis RUN : run k y v i c dt final.
Hypothesis C : SMALL_NUMBER < c.
Hypothesis DT : 0 < dt.

Lemma run_const : forall n, (n <= k)%nat -> y_tol (y n) = y_tol (y 0%nat) /\ y_tolM (y n) = y_tolM (y 0%nat) /\ y_steady (y n) = y_steady (y 0%nat).
Proof.
  induction n as [|n IH]; intros L; [auto|]. destruct IH as (I1 & I2 & I3); [lia|].
  destruct (Step_goes _ _ _ _ _ (r_free _ _ _ _ _ _ _ RUN n ltac:(lia)) (r_step _ _ _ _ _ _ _ RUN n ltac:(lia))) as (_ & H1 & H2 & H3 & _). repeat split; congruence.
Qed.

Lemma run_time : forall n, (n < k)%nat -> rest y i (S n) = rest y i n - dt.
Proof.
  intros n L. pose proof small_pos. unfold rest. rewrite (r_master _ _ _ _ _ _ _ RUN n L), (r_speed _ _ _ _ _ _ _ RUN 0%nat) by lia. field. lra.
Qed.
Lemma run_times : forall n, (n <= k)%nat -> rest y i n = rest y i 0 - INR n * dt.
Proof.
  induction n as [|n IH]; intros L; [cbn; ring|]. rewrite run_time by lia. rewrite IH by lia. rewrite S_INR. ring.
Qed.
Lemma run_way : forall n, (n < k)%nat -> way y i (S n) = way y i n - v (S n) * dt.
Proof. intros n L. unfold way. rewrite (r_mine _ _ _ _ _ _ _ RUN n L). ring. Qed.

Lemma run_goes : forall n, (n < k)%nat -> y_steady (y 0%nat) = None -> dt <= rest y i n
  /\ match final with
     | Some f => (y_mode (y (S n)), y_sub (y (S n)), v (S n)) = towards (y_mode (y n)) (y_sub (y n)) (way y i n) (rest y i n) (v n) (SIGN (v n) * Rabs (i_vel (i n))) f dt
     | None => v (S n) = v n + 2 * (way y i n / rest y i n - v n) / rest y i n * dt
     end.
Proof.
  intros n L ST. destruct (run_const n) as (T1 & T2 & T3); [lia|].
  destruct (Step_goes _ _ _ _ _ (r_free _ _ _ _ _ _ _ RUN n ltac:(lia)) (r_step _ _ _ _ _ _ _ RUN n L)) as (_ & _ & _ & _ & _ & _ & G & _).
  rewrite (r_speed _ _ _ _ _ _ _ RUN n), (r_final _ _ _ _ _ _ _ RUN n), (r_dt _ _ _ _ _ _ _ RUN n), T1, T2, T3, ST in G by lia.
  specialize (G C). cbn zeta in G. unfold way, rest. rewrite (r_speed _ _ _ _ _ _ _ RUN 0%nat) by lia. destruct G as (G1 & G2 & G3). split; [exact G1|].
  destruct final as [f|]; [exact G3|]. destruct G3 as (_ & ->). unfold Rdiv. ring.
Qed.

Lemma run_line : forall f, final = Some f -> y_mode (y 0%nat) = MODE_LINEAR -> y_steady (y 0%nat) = None -> 0 <= f ->
  f * rest y i 0 <= 2 * way y i 0 -> dt < rest y i 0 <= LARGE_NUMBER - 1 ->
  (forall n, (n < k)%nat -> 1 / 1000 <= way y i n /\ 1 / 1000 <= rest y i n) ->
  let K := rest y i 0 * (rest y i 0 - dt) in let e := way y i 0 - f * rest y i 0 in
  forall n, (n <= k)%nat -> y_mode (y n) = MODE_LINEAR /\ way y i n - f * rest y i n = e * (rest y i n * (rest y i n - dt)) / K
    /\ ((0 < n)%nat -> v n = f + 2 * e * rest y i n / K).
Proof.
  intros f FE M ST F0 F T0 NEAR K e. assert (KP : 0 < K) by (unfold K; apply Rmult_lt_0_compat; lra).
  induction n as [|n IH]; intros L.
  - split; [exact M|]. split; [|lia]. fold e. unfold K. field. lra.
  - destruct IH as (IM & IE & _); [lia|]. destruct (run_goes n ltac:(lia) ST) as (TD & G). rewrite FE, IM in G. cbn [towards] in G.
    set (t := rest y i n) in *. set (s := way y i n) in *. destruct (NEAR n ltac:(lia)) as (N1 & N2). fold s t in N1, N2.
    assert (TT : t <= rest y i 0).
    { unfold t. rewrite (run_times n) by lia. assert (0 <= INR n * dt) by (apply Rmult_le_pos; [apply pos_INR|lra]). lra. }
    assert (SE : s = f * t + e * (t * (t - dt)) / K) by lra.
    assert (FF : f * t <= 2 * s).
    { rewrite SE. assert (0 <= t * (f + 2 * e * (t - dt) / K)); [|replace (e * (t * (t - dt)) / K) with (t * (e * (t - dt) / K)) by (field; lra);
        replace (2 * e * (t - dt) / K) with (2 * (e * (t - dt) / K)) in * by (field; lra); nra].
      apply Rmult_le_pos; [lra|]. assert (0 <= (t - dt) / K <= / rest y i 0).
      { split; [apply Rmult_le_pos; [lra|left; apply Rinv_0_lt_compat; lra]|]. apply Rmult_le_reg_r with K; [lra|].
        replace ((t - dt) / K * K) with (t - dt) by (field; lra). unfold K. rewrite <- Rmult_assoc, Rinv_l by lra. lra. }
      replace (2 * e * (t - dt) / K) with (2 * e * ((t - dt) / K)) by (field; lra).
      destruct (Rle_lt_dec 0 e) as [E|E]; [assert (0 <= 2 * e * ((t - dt) / K)) by (apply Rmult_le_pos; lra); lra|].
      assert (- e * ((t - dt) / K) <= - e * / rest y i 0) by (apply Rmult_le_compat_l; lra).
      assert (0 <= f + 2 * e * / rest y i 0); [|lra]. apply Rmult_le_reg_r with (rest y i 0); [lra|].
      rewrite Rmult_plus_distr_r, (Rmult_assoc (2 * e)), Rinv_l by lra. unfold e. lra. }
    rewrite (linear_speed s t f) in G by lra. injection G as G1 G2 G3.
    assert (VE : v (S n) = f + 2 * e * (t - dt) / K) by (rewrite G3, SE; field; split; lra).
    split; [exact G1|]. rewrite run_time by lia. fold t. rewrite run_way by lia. fold s.
    split; [rewrite VE, SE; field; lra|]. intros _. exact VE.
Qed.

Lemma run_free : final = None -> y_steady (y 0%nat) = None -> dt < rest y i 0 ->
  let K := rest y i 0 * (rest y i 0 - dt) in let e := way y i 0 - v 0%nat * rest y i 0 in
  forall n, (n <= k)%nat -> way y i n - v n * rest y i n = e * (rest y i n * (rest y i n - dt)) / K
    /\ ((n < k)%nat -> Rabs (v (S n) - v n) <= 2 * Rabs e / K * dt).
Proof.
  intros FE ST T0 K e. assert (KP : 0 < K) by (unfold K; apply Rmult_lt_0_compat; lra).
  assert (ST1 : forall n, (n < k)%nat -> way y i n - v n * rest y i n = e * (rest y i n * (rest y i n - dt)) / K ->
    dt <= rest y i n /\ v (S n) = v n + 2 * e * (rest y i n - dt) / (K * rest y i n) * dt).
  { intros n L E. destruct (run_goes n L ST) as (TD & G). rewrite FE in G. split; [exact TD|]. rewrite G. f_equal. f_equal.
    assert (WE : way y i n = v n * rest y i n + e * (rest y i n * (rest y i n - dt)) / K) by lra. rewrite WE. field. split; lra. }
  assert (ALL : forall n, (n <= k)%nat -> way y i n - v n * rest y i n = e * (rest y i n * (rest y i n - dt)) / K).
  { induction n as [|n IH]; intros L; [fold e; unfold K; field; lra|]. specialize (IH ltac:(lia)). destruct (ST1 n L IH) as (TD & G).
    assert (WE : way y i n = v n * rest y i n + e * (rest y i n * (rest y i n - dt)) / K) by lra.
    rewrite run_way, run_time by lia. rewrite WE, G. field. split; lra. }
  intros n L. split; [apply ALL; exact L|]. intros L1. destruct (ST1 n L1 (ALL n L)) as (TD & G). rewrite G.
  replace (v n + 2 * e * (rest y i n - dt) / (K * rest y i n) * dt - v n) with (2 * e / K * dt * ((rest y i n - dt) / rest y i n)) by (field; split; lra).
  assert (F : 0 <= (rest y i n - dt) / rest y i n <= 1).
  { split; [apply Rmult_le_pos; [lra|left; apply Rinv_0_lt_compat; lra]|]. apply Rmult_le_reg_r with (rest y i n); [lra|].
    replace ((rest y i n - dt) / rest y i n * rest y i n) with (rest y i n - dt) by (field; lra). lra. }
  set (q := (rest y i n - dt) / rest y i n) in *. replace (2 * e / K * dt * q) with (e * (2 * / K * dt * q)) by (unfold Rdiv; ring).
  assert (0 <= 2 * / K * dt) by (apply Rmult_le_pos; [|lra]; apply Rmult_le_pos; [lra|left; apply Rinv_0_lt_compat; lra]).
  rewrite Rabs_mult, (Rabs_right (2 * / K * dt * q)) by (apply Rle_ge, Rmult_le_pos; lra).
  replace (2 * Rabs e / K * dt) with (Rabs e * (2 * / K * dt)) by (unfold Rdiv; ring).
  apply Rmult_le_compat_l; [apply Rabs_pos|]. rewrite <- (Rmult_1_r (2 * / K * dt)) at 2. apply Rmult_le_compat_l; lra.
Qed.
End Run.

Lemma small_end : forall e t dt K, 0 < dt -> 0 < K -> 0 <= t <= dt -> Rabs (e * (t * (t - dt)) / K) <= Rabs e * (dt * dt) / (4 * K).
Proof.
  intros e t dt K DT KP T. unfold Rdiv at 1. rewrite !Rabs_mult, (Rabs_right (/ K)) by (left; apply Rinv_0_lt_compat; lra).
  rewrite <- Rabs_mult. pose proof (parabola dt t T). pose proof (Rabs_pos e).
  replace (Rabs e * (dt * dt) / (4 * K)) with (Rabs e * (dt * dt / 4) * / K) by (field; lra).
  apply Rmult_le_compat_r; [left; apply Rinv_0_lt_compat; lra|]. apply Rmult_le_compat_l; lra.
Qed.

(** ** One profile only *)
Lemma two_phases_sum : forall s t v0 v1 vx acc x, two_phases s t v0 v1 vx acc x -> v1 - v0 = acc * (2 * x - t) /\ 2 * s - (v0 + v1) * t = 2 * acc * (x * (t - x)).
Proof. intros s t v0 v1 vx acc x (X & -> & -> & <-). split; field. Qed.

Lemma two_phases_unique : forall s t v0 v1 vx acc x vx' acc' x', v0 <> v1 -> two_phases s t v0 v1 vx acc x -> two_phases s t v0 v1 vx' acc' x' ->
  vx = vx' /\ acc = acc' /\ x = x'.
Proof.
  intros s t v0 v1 vx acc x vx' acc' x' N P P'. destruct (two_phases_sum _ _ _ _ _ _ _ P) as (D1 & S1). destruct (two_phases_sum _ _ _ _ _ _ _ P') as (D2 & S2).
  destruct P as (X & V & _). destruct P' as (X' & V' & _).
  assert (E : acc * acc' * ((x - x') * ((t - x) * (t - x') + x * x')) = 0).
  { replace (acc * acc' * ((x - x') * ((t - x) * (t - x') + x * x'))) with
      (acc' * (2 * x' - t) * (- (acc * (x * (t - x)))) + acc * (2 * x - t) * (acc' * (x' * (t - x')))) by ring. rewrite <- D1, <- D2. nra. }
  assert (A1 : acc <> 0) by (intros ->; apply N; lra). assert (A2 : acc' <> 0) by (intros ->; apply N; lra).
  apply Rmult_integral in E as [E|E]; [apply Rmult_integral in E as [E|E]; contradiction|].
  assert (0 < (t - x) * (t - x')) by (apply Rmult_lt_0_compat; lra). assert (0 < x * x') by (apply Rmult_lt_0_compat; lra).
  apply Rmult_integral in E as [E|E]; [|lra]. assert (x = x') by lra. subst x'.
  assert (2 * x - t <> 0) by (intros H1; apply N; rewrite H1 in D1; lra).
  assert (acc = acc') by (apply Rmult_eq_reg_r with (2 * x - t); [lra|assumption]). subst acc'. split; [congruence|auto].
Qed.

(** ** Stop in between *)
Lemma to_stop_now : forall s v0 v1 dt, 0 < s -> 0 < v0 -> 0 <= v1 -> v1 < v0 ->
  to_stop s v0 v1 dt = if Rltb (v0 + MAX_DECELERATION * dt) 0 then None else Some (MAX_DECELERATION, MODE_STOP_IMMEDIATELY).
Proof.
  intros s v0 v1 dt S0 V0 V1 L. unfold to_stop.
  assert (Q : 0 < v0 * v0 + v1 * v1) by nra.
  assert (B : Rltb (s / 2) (2 * v0 * s / (v0 * v0 + v1 * v1) * v0 / 2) = true).
  { apply Rltb_true. apply Rmult_lt_reg_r with (2 * (v0 * v0 + v1 * v1)); [lra|].
    replace (2 * v0 * s / (v0 * v0 + v1 * v1) * v0 / 2 * (2 * (v0 * v0 + v1 * v1))) with (2 * (v0 * v0) * s) by (field; lra). assert (v1 * v1 < v0 * v0) by nra. nra. }
  rewrite B. reflexivity.
Qed.

Lemma to_stop_later : forall s v0 v1 dt, 0 < s -> 0 < v0 -> v0 <= v1 -> SMALL_NUMBER < 2 * v0 * s / (v0 * v0 + v1 * v1) ->
  let acc := - (v0 * v0 + v1 * v1) / (2 * s) in to_stop s v0 v1 dt = if Rltb (v0 + acc * dt) 0 then None else Some (acc, MODE_NON_LINEAR).
Proof.
  intros s v0 v1 dt S0 V0 L T acc. unfold to_stop. pose proof small_pos.
  assert (Q : 0 < v0 * v0 + v1 * v1) by nra.
  assert (B : Rltb (s / 2) (2 * v0 * s / (v0 * v0 + v1 * v1) * v0 / 2) = false).
  { apply Rltb_false. apply Rmult_le_reg_r with (2 * (v0 * v0 + v1 * v1)); [lra|].
    replace (2 * v0 * s / (v0 * v0 + v1 * v1) * v0 / 2 * (2 * (v0 * v0 + v1 * v1))) with (2 * (v0 * v0) * s) by (field; lra). assert (v0 * v0 <= v1 * v1) by nra. nra. }
  rewrite B. assert (B2 : Rltb SMALL_NUMBER (Rabs (2 * v0 * s / (v0 * v0 + v1 * v1))) = true) by (apply Rltb_true; rewrite Rabs_right; lra).
  rewrite B2. replace (- v0 / (2 * v0 * s / (v0 * v0 + v1 * v1))) with acc by (unfold acc; field; repeat split; lra). reflexivity.
Qed.

(** ** Steps computed *)
Lemma arrived_not : forall y i, y_tol y + SMALL_NUMBER <= i_dist i <= y_last y -> y_tolM y + SMALL_NUMBER <= i_mdist i <= y_lastM y -> arrived y i = false.
Proof. intros y i (A & B) (C & D). unfold arrived. rewrite !(proj2 (Rltb_false _ _)) by assumption. reflexivity. Qed.

Lemma Step_linear : forall y v i f, i_over i = false -> y_mode y = MODE_LINEAR -> y_steady y = None -> i_final i = Some f -> SMALL_NUMBER < master_speed i ->
  arrived y i = false -> i_dt i <= (i_mdist i - y_tolM y) / master_speed i ->
  Step y v i = (Sync MODE_LINEAR (y_sub y) (y_tol y) (y_tolM y) (i_dist i) (i_mdist i) None,
                linear (i_dist i - y_tol y) ((i_mdist i - y_tolM y) / master_speed i) f, false).
Proof.
  intros y v i f O M ST F MS AR T. unfold Step. pose proof (arrived_false y i AR). rewrite O, M, ST, F, AR, !MAX_ge by lra.
  rewrite (proj2 (Rltb_true _ _) MS), (proj2 (Rltb_false _ _) T). reflexivity.
Qed.

Lemma Step_free : forall y v i, i_over i = false -> i_final i = None -> SMALL_NUMBER < master_speed i ->
  arrived y i = false -> i_dt i <= (i_mdist i - y_tolM y) / master_speed i ->
  let s := i_dist i - y_tol y in let t := (i_mdist i - y_tolM y) / master_speed i in
  Step y v i = (Sync MODE_LINEAR (y_sub y) (y_tol y) (y_tolM y) (i_dist i) (i_mdist i) (y_steady y), v + (2 * (s / t) - v - v) / t * i_dt i, false).
Proof.
  intros y v i O F MS AR T. unfold Step. pose proof (arrived_false y i AR). rewrite O, F, AR, !MAX_ge by lra.
  rewrite (proj2 (Rltb_true _ _) MS), (proj2 (Rltb_false _ _) T). reflexivity.
Qed.

Lemma master_forward : forall i, 0 <= i_mspeed i -> i_dir i = 1 -> 0 <= i_mvel i -> master_speed i = i_mvel i.
Proof. intros i S D V. unfold master_speed, SIGN. rewrite (proj2 (Rltb_false _ _) S), D, Rabs_right by lra. ring. Qed.

(** The end of the action. *)
Lemma Step_end : forall y v i y' v' b, i_over i = false -> Step y v i = (y', v', b) ->
  (b = true <-> i_dist i < y_tol y + SMALL_NUMBER \/ i_mdist i < y_tolM y + SMALL_NUMBER \/ y_last y < i_dist i \/ y_lastM y < i_mdist i
     \/ (SMALL_NUMBER < master_speed i /\ (i_mdist i - y_tolM y) / master_speed i < i_dt i))
  /\ (b = true -> forall f, i_final i = Some f -> v' = f).
Proof.
  intros y v i y' v' b O H. unfold Step in H. rewrite O in H.
  assert (AT : arrived y i = true <-> i_dist i < y_tol y + SMALL_NUMBER \/ i_mdist i < y_tolM y + SMALL_NUMBER \/ y_last y < i_dist i \/ y_lastM y < i_mdist i).
  { unfold arrived. rewrite !orb_true_iff, !Rltb_true. tauto. }
  destruct (arrived y i) eqn:AR.
  - assert (b = true /\ (forall f, i_final i = Some f -> v' = f)) as (-> & VF).
    { destruct (Rltb SMALL_NUMBER (master_speed i)); [|destruct (is (y_mode y) MODE_WAITING)]; cbn [orb] in H; injection H as <- <- <-;
        (split; [reflexivity|intros f ->; reflexivity]). }
    split; [|intros _; exact VF]. split; [intros _|reflexivity]. destruct AT as (AT & _). specialize (AT eq_refl). tauto.
  - pose proof (arrived_false y i AR) as D. rewrite !MAX_ge in H by lra.
    assert (AN : ~ (i_dist i < y_tol y + SMALL_NUMBER \/ i_mdist i < y_tolM y + SMALL_NUMBER \/ y_last y < i_dist i \/ y_lastM y < i_mdist i)) by lra.
    destruct (Rltb SMALL_NUMBER (master_speed i)) eqn:MS.
    + cbn [orb] in H. apply Rltb_true in MS. destruct (Rltb ((i_mdist i - y_tolM y) / master_speed i) (i_dt i)) eqn:TT.
      * apply Rltb_true in TT. injection H as <- <- <-. split; [tauto|]. intros _ f ->. reflexivity.
      * apply Rltb_false in TT. assert (b = false) as ->.
        { destruct (i_final i); [|congruence]. destruct (before_steady _ _ _ _ _ _) as [[[? ?] ?] ?]. destruct (towards _ _ _ _ _ _ _ _) as [[? ?] ?]. congruence. }
        split; [|discriminate]. split; [discriminate|]. intros X. exfalso. lra.
    + apply Rltb_false in MS. assert (b = false) as ->.
      { destruct (is (y_mode y) MODE_WAITING); (destruct (i_final i); [|congruence]); destruct (before_steady _ _ _ _ _ _) as [[[? ?] ?] ?];
          destruct (towards _ _ _ _ _ _ _ _) as [[? ?] ?]; congruence. }
      split; [|discriminate]. split; [discriminate|]. intros X. exfalso. lra.
Qed.

(** Only the steady state makes a steady state. *)
Lemma towards_steady : forall mode sub s t v v0 v1 dt, fst (fst (towards mode sub s t v v0 v1 dt)) = MODE_STEADY_STATE <-> mode = MODE_STEADY_STATE.
Proof.
  assert (NL : forall mode sub s t v v0 v1 dt, fst (fst (non_linear mode sub s t v v0 v1 dt)) <> MODE_STEADY_STATE).
  { intros. unfold non_linear. destruct (_ && _ && _); [discriminate|]. destruct (plan _ _ _ _). destruct (match _ with SUBMODE_NONE => _ | _ => _ end); [discriminate|].
    destruct (Rltb r 0); [|discriminate]. unfold to_stop. destruct (Rltb (s / 2) _); destruct (Rltb (_ + _) 0); discriminate. }
  intros. destruct mode; cbn [towards]; split; intros H; try discriminate H; try reflexivity; exfalso; try (exact (NL _ _ _ _ _ _ _ _ H)).
  - destruct (Req_EM_T v1 0); [discriminate H|]. destruct (Rltb t _); discriminate H.
  - cbn zeta in H. destruct (Rltb _ 0); discriminate H.
  - destruct (Rltb t LARGE_NUMBER); [exact (NL _ _ _ _ _ _ _ _ H)|discriminate H].
Qed.

Lemma Step_steady : forall y v i y' v' d f, i_over i = false -> Step y v i = (y', v', false) -> SMALL_NUMBER < master_speed i -> y_steady y = Some d ->
  i_final i = Some f ->
  (y_mode y' = MODE_STEADY_STATE <-> y_mode y = MODE_STEADY_STATE \/ i_dist i - y_tol y - d < SMALL_NUMBER
     \/ (i_mdist i - y_tolM y) / master_speed i - d / f < SMALL_NUMBER)
  /\ (y_mode y' = MODE_STEADY_STATE -> v' = f).
Proof.
  intros y v i y' v' d f O H MS ST F. destruct (Step_goes _ _ _ _ _ O H) as (_ & _ & _ & _ & _ & _ & G & _). destruct (G MS) as (_ & _ & G3). clear G. rewrite F, ST in G3.
  unfold before_steady in G3. destruct (is (y_mode y) MODE_STEADY_STATE) eqn:IS.
  - apply is_true in IS. rewrite IS in G3. cbn [towards] in G3. injection G3 as -> _ ->. tauto.
  - assert (NS : y_mode y <> MODE_STEADY_STATE) by (intros E; apply is_true in E; congruence). cbn zeta in G3. destruct (_ || _) eqn:C.
    + apply orb_true_iff in C. rewrite !Rltb_true in C. cbn [towards] in G3. injection G3 as -> _ ->. tauto.
    + apply orb_false_iff in C as [C1 C2]. apply Rltb_false in C1, C2.
      pose proof (towards_steady (y_mode y) (y_sub y) (i_dist i - y_tol y - d) ((i_mdist i - y_tolM y) / master_speed i - d / f) v (SIGN v * Rabs (i_vel i)) f (i_dt i)) as TS.
      rewrite <- G3 in TS. cbn [fst] in TS. split; [|tauto]. split; [tauto|]. intros [E|[E|E]]; [contradiction|lra|lra].
Qed.
