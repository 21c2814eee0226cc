(** Boolean comparisons on Q and the tactics used by all Q-based models. *)
From Coq Require Export QArith Qabs Qminmax Lqa Lia List Bool ZArith.
Export ListNotations.
Open Scope Q_scope.

(** [a <= b] on doubles idealised as rationals. *)
Definition Qleb (a b : Q) : bool := Qle_bool a b.
(** [a < b] on doubles idealised as rationals. *)
Definition Qltb (a b : Q) : bool := negb (Qle_bool b a).
(** [a == b] on doubles idealised as rationals. *)
Definition Qeqb (a b : Q) : bool := Qeq_bool a b.
(** CM/CommonMini.hpp:53 SMALL_NUMBER (1E-6). *)
Definition SMALL : Q := 1 # 1000000.
(** CM/CommonMini.hpp:54 LARGE_NUMBER (1E+10). *)
Definition LARGE : Q := 10000000000 # 1.

Lemma Qltb_lt a b : Qltb a b = true <-> a < b.
Proof.
  unfold Qltb. rewrite negb_true_iff. split; intro H.
  - apply Qnot_le_lt. intro L. apply Qle_bool_iff in L. congruence.
  - destruct (Qle_bool b a) eqn:E; auto. apply Qle_bool_iff in E. lra.
Qed.
Lemma Qltb_ge a b : Qltb a b = false <-> b <= a.
Proof.
  unfold Qltb. rewrite negb_false_iff. apply Qle_bool_iff.
Qed.
Lemma Qleb_le a b : Qleb a b = true <-> a <= b.
Proof. apply Qle_bool_iff. Qed.
Lemma Qleb_gt a b : Qleb a b = false <-> b < a.
Proof.
  unfold Qleb. split; intro H.
  - apply Qnot_le_lt. intro L. apply Qle_bool_iff in L. congruence.
  - destruct (Qle_bool a b) eqn:E; auto. apply Qle_bool_iff in E. lra.
Qed.
Lemma Qeqb_eq a b : Qeqb a b = true <-> a == b.
Proof. apply Qeq_bool_iff. Qed.
Lemma Qeqb_neq a b : Qeqb a b = false <-> ~ a == b.
Proof.
  unfold Qeqb. split; intro H.
  - apply Qeq_bool_neq; exact H.
  - destruct (Qeq_bool a b) eqn:E; auto. apply Qeq_bool_iff in E. contradiction.
Qed.

Lemma Qltb_spec a b : reflect (a < b) (Qltb a b).
Proof. destruct (Qltb a b) eqn:E; constructor; [apply Qltb_lt; auto | apply Qltb_ge in E; lra]. Qed.
Lemma Qleb_spec a b : reflect (a <= b) (Qleb a b).
Proof. destruct (Qleb a b) eqn:E; constructor; [apply Qleb_le; auto | apply Qleb_gt in E; lra]. Qed.
Lemma Qeqb_spec a b : reflect (a == b) (Qeqb a b).
Proof. destruct (Qeqb a b) eqn:E; constructor; [apply Qeqb_eq; auto | apply Qeqb_neq in E; auto]. Qed.

Lemma SMALL_pos : 0 < SMALL.
Proof. reflexivity. Qed.

(** turn boolean Q comparisons in the context into propositions *)
Ltac qprop :=
  repeat match goal with
  | H : Qltb _ _ = true |- _ => apply Qltb_lt in H
  | H : Qltb _ _ = false |- _ => apply Qltb_ge in H
  | H : Qleb _ _ = true |- _ => apply Qleb_le in H
  | H : Qleb _ _ = false |- _ => apply Qleb_gt in H
  | H : Qeqb _ _ = true |- _ => apply Qeqb_eq in H
  | H : Qeqb _ _ = false |- _ => apply Qeqb_neq in H
  | |- Qltb _ _ = true => apply Qltb_lt
  | |- Qltb _ _ = false => apply Qltb_ge
  | |- Qleb _ _ = true => apply Qleb_le
  | |- Qleb _ _ = false => apply Qleb_gt
  | |- Qeqb _ _ = true => apply Qeqb_eq
  end.
(** destruct the first boolean Q comparison of the goal *)
Ltac qcase :=
  match goal with
  | |- context [Qltb ?a ?b] => destruct (Qltb_spec a b)
  | |- context [Qleb ?a ?b] => destruct (Qleb_spec a b)
  | |- context [Qeqb ?a ?b] => destruct (Qeqb_spec a b)
  end.
Ltac qs := unfold SMALL in *; lra.
(** close a case whose Q hypotheses are contradictory (uses negated equalities too) *)
Ltac qfin :=
  try reflexivity; exfalso; unfold SMALL in *;
  first [ lra
        | match goal with h : ~ (_ == _)%Q |- _ => apply h; lra end
        | congruence ].
