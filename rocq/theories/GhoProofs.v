(** Lemmas about following a ghost. *)
From Coq Require Import Reals Bool List Lra.
From Verif Require Import AngModel AngProofs BoxModel AccModel VehModel VehProofs GhoModel.
Import ListNotations.
Open Scope R_scope.

(** Steps one after another: the ghost's trail, the time and the time step of each. *)
Fixpoint follow (g : gho) (o : gobj) (l : list (option trail * R * R)) : gho * gobj :=
  match l with
  | [] => (g, o)
  | (t, now, dt) :: r => let '(g', o') := StepGhost g o t now dt in follow g' o' r
  end.

Lemma sqrt_polar : forall r a, 0 <= r -> sqrt (r * cos a * (r * cos a) + r * sin a * (r * sin a)) = r.
Proof.
  intros r a H. replace (r * cos a * (r * cos a) + r * sin a * (r * sin a)) with (r * r * (Rsqr (sin a) + Rsqr (cos a))) by (unfold Rsqr; ring).
  rewrite sin2_cos2, Rmult_1_r. now apply sqrt_square.
Qed.

Lemma direction_polar : forall x y h r a, SMALL_NUMBER < r -> direction x y h (x + r * cos (h + a)) (y + r * sin (h + a)) = asin (sin a).
Proof.
  intros x y h r a H. assert (P : 0 < r) by (unfold SMALL_NUMBER in H; lra). unfold direction, rotate, cross.
  replace (x + r * cos (h + a) - x) with (r * cos (h + a)) by ring. replace (y + r * sin (h + a) - y) with (r * sin (h + a)) by ring.
  rewrite sqrt_polar by lra. destruct (Rltb SMALL_NUMBER r) eqn:E; [|apply Rltb_false in E; lra].
  f_equal. replace a with ((h + a) - h) at 3 by ring. rewrite sin_minus. field. lra.
Qed.

Lemma direction_near : forall x y h tx ty, sqrt ((tx - x) * (tx - x) + (ty - y) * (ty - y)) <= SMALL_NUMBER -> direction x y h tx ty = 0.
Proof.
  intros x y h tx ty H. unfold direction, rotate, cross. destruct (Rltb SMALL_NUMBER _) eqn:E; [apply Rltb_true in E; lra|].
  match goal with |- asin ?e = 0 => replace e with 0 by ring end. apply asin_0.
Qed.

Lemma direction_self : forall x y h, direction x y h x y = 0.
Proof.
  intros. apply direction_near. replace ((x - x) * (x - x) + (y - y) * (y - y)) with 0 by ring. rewrite sqrt_0. unfold SMALL_NUMBER. lra.
Qed.

Lemma cross_unit : forall h dx dy, let len := sqrt (dx * dx + dy * dy) in 0 < len -> -1 <= cross (cos h) (sin h) (dx / len) (dy / len) <= 1.
Proof.
  intros h dx dy len L. assert (Q : 0 <= dx * dx + dy * dy) by nra. assert (LL : len * len = dx * dx + dy * dy) by (unfold len; now apply sqrt_sqrt).
  pose proof (sin2_cos2 h) as T. unfold Rsqr in T. unfold cross. set (u := dx / len). set (w := dy / len).
  assert (U : u * u + w * w = 1). { unfold u, w. replace (dx / len * (dx / len) + dy / len * (dy / len)) with ((dx * dx + dy * dy) / (len * len)) by (field; lra). rewrite <- LL. field. lra. }
  assert (I : (cos h * w - u * sin h) * (cos h * w - u * sin h) + (cos h * u + sin h * w) * (cos h * u + sin h * w) = 1).
  { replace 1 with ((sin h * sin h + cos h * cos h) * (u * u + w * w)) by (rewrite T, U; ring). ring. }
  clear - I. set (p := cos h * w - u * sin h) in *. set (q := cos h * u + sin h * w) in *. clearbody p q. pose proof (Rle_0_sqr q). unfold Rsqr in *. split; nra.
Qed.

Lemma follow_app : forall l1 l2 g o, follow g o (l1 ++ l2) = let '(g', o') := follow g o l1 in follow g' o' l2.
Proof.
  induction l1 as [|[[t n] d] r IH]; intros l2 g o; [reflexivity|]. cbn [follow app]. destruct (StepGhost g o t n d) as [g' o']. apply IH.
Qed.
