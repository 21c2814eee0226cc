(** Lemmas about following another vehicle off the road. *)
From Coq Require Import Reals Bool List Lra.
From Verif Require Import AngModel AngProofs BoxModel AccModel GeoModel VehModel VehProofs OffModel.
Import ListNotations.
Open Scope R_scope.

(** Steps one after another: the entity followed, the speed limit and the time step of each. *)
Fixpoint follow (f : off) (o : ent) (l : list (option ent * R * R)) : off * ent :=
  match l with
  | [] => (f, o)
  | (e, lim, dt) :: r => let '(f', o') := StepOff f o e lim dt in follow f' o' r
  end.

Lemma limit_one : forall x, ABS_LIMIT x 1 = Rmax (-1) (Rmin x 1).
Proof.
  intros x. unfold ABS_LIMIT, SIGN. rewrite Rabs_R1. destruct (Rltb 1 (Rabs x)) eqn:E; [apply Rltb_true in E|apply Rltb_false in E]; unfold Rabs in E; destruct (Rcase_abs x) as [N|N];
    try (destruct (Rltb x 0) eqn:F; [apply Rltb_true in F|apply Rltb_false in F]); unfold Rmax, Rmin; repeat destruct (Rle_dec _ _); lra.
Qed.

Lemma MIN_Rmin : forall x y, MIN x y = Rmin x y.
Proof. intros x y. unfold MIN, Rmin. destruct (Rltb y x) eqn:E; [apply Rltb_true in E|apply Rltb_false in E]; destruct (Rle_dec x y); lra. Qed.
