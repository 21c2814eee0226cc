(** * Adaptive cruise control: theorems (property C68) *)
From Coq Require Import Reals Bool List ZArith Lra Lia Psatz.
From Verif Require Import AngModel AngProofs BoxModel AccModel AccProofs.
Import ListNotations.
Open Scope R_scope.

Ltac side := repeat match goal with
  | |- context [Rltb ?a ?b] => let B := fresh "B" in
      first [assert (B : Rltb a b = true) by (apply Rltb_true; lra) | assert (B : Rltb a b = false) by (apply Rltb_false; lra)]; rewrite B; clear B
  end.
Ltac calc := unfold CLAMP, MIN, MAX; side.

(** ** Which vehicle is followed *)

(** The gap is from the own front to the nearer end of the other vehicle, whichever way it points. *)
Theorem C68_gap : forall e o ds,
  let dir := if Rltb (GetAbsAngleDifference (e_h e) (o_h o)) (PI / 2) then 1 else -1 in
  let front := e_cx e + e_len e / 2 in
  0 <= o_len o ->
  (forall u, Rabs (u - o_cx o) <= o_len o / 2 -> adjustedGapLength e o ds <= ds + dir * u - front)
  /\ exists u, Rabs (u - o_cx o) <= o_len o / 2 /\ adjustedGapLength e o ds = ds + dir * u - front.
Proof.
  intros e o ds dir front L. unfold adjustedGapLength, dir, front. destruct (Rltb _ _).
  - split.
    + intros u H. assert (- (o_len o / 2) <= u - o_cx o <= o_len o / 2) by (destruct (Rcase_abs (u - o_cx o)); [rewrite Rabs_left in H|rewrite Rabs_right in H]; lra). lra.
    + exists (o_cx o - o_len o / 2). split; [rewrite Rabs_left1; lra|lra].
  - split.
    + intros u H. assert (- (o_len o / 2) <= u - o_cx o <= o_len o / 2) by (destruct (Rcase_abs (u - o_cx o)); [rewrite Rabs_left in H|rewrite Rabs_right in H]; lra). lra.
    + exists (o_cx o + o_len o / 2). split; [rewrite Rabs_right; lra|lra].
Qed.

Definition ego1 (v : R) : ego := Ego v 0 4 1 10 10.
Definition at_gap (g v : R) : other := Other (fun _ => Some (Diff (g + 5) 0 0)) 0 4 0 v g 0.
Definition off : other := Other (fun _ => None) 0 4 0 0 LARGE_NUMBER LARGE_NUMBER.
Definition acc1 (set cur : R) : acc := Acc (15 / 10) set 5 cur true false true.

Lemma at_gap_on : forall c v look g w, 0 < g -> 0 < a_lat c -> onpath c (ego1 v) look (at_gap g w) g.
Proof.
  intros c v look g w G L. exists (Diff (g + 5) 0 0). unfold adjustedGapLength. cbn. rewrite Rabs_R0. repeat split; try assumption. destruct (Rltb _ _); lra.
Qed.
Lemma on_at_gap : forall c v look g w g', onpath c (ego1 v) look (at_gap g w) g' -> g' = g.
Proof.
  intros c v look g w g' (d & D & _ & -> & _). injection D as <-. unfold adjustedGapLength. cbn. destruct (Rltb _ _); lra.
Qed.

Example C68_gap_ex : adjustedGapLength (ego1 10) (at_gap 7 3) 12 = 7.
Proof. unfold adjustedGapLength, at_gap, ego1. cbn. destruct (Rltb _ _); lra. Qed.

(** Whoever is followed is on a path ahead at that gap, or right in front at that distance; no step fails. *)
Theorem C68_real : forall c e l dt, Step c e l dt <> None
  /\ forall k, snd (lead c e l) = Some k -> exists o, nth_error l k = Some (Some o) /\ 0 < fst (lead c e l)
     /\ (onpath c e (lookaheadDist c e) o (fst (lead c e l)) \/ (infront c o /\ fst (lead c e l) = o_lon o)).
Proof.
  intros c e l dt. split; [apply Step_total|]. intros k K. unfold lead in *.
  destruct (choose_from c e (lookaheadDist c e) l 0 (LARGE_NUMBER, None)) as [E|(k' & o & N & K' & W)]; [rewrite E in K; discriminate K|].
  rewrite K in K'. injection K' as ->. exists o. split; [exact N|]. split; [|exact W].
  destruct W as [(d & _ & _ & _ & P & _)|(F & ->)]; [exact P|apply F].
Qed.
Example C68_real_ex : lead (acc1 20 20) (ego1 20) [None; Some off; Some (at_gap 30 10)] = (30, Some 2%nat).
Proof.
  apply (choose_only (acc1 20 20) (ego1 20) (lookaheadDist (acc1 20 20) (ego1 20)) [None; Some off] (at_gap 30 10) []).
  - intros o' [H|[H|[]]]; [discriminate H|]. injection H as <-. split.
    + intros (_ & A & B & C). cbn in *. unfold LARGE_NUMBER in C. lra.
    + intros g (d & D & _). discriminate D.
  - apply at_gap_on; cbn; lra.
  - unfold LARGE_NUMBER; lra.
Qed.

(** Nobody is followed only if nobody is right in front and nobody is on a path ahead. *)
Theorem C68_nobody : forall c e l, snd (lead c e l) = None <->
  forall k o, nth_error l k = Some (Some o) -> ~ infront c o /\ forall g, onpath c e (lookaheadDist c e) o g -> LARGE_NUMBER <= g.
Proof.
  intros c e l. split.
  - intros K. exact (proj2 (choose_seen c e (lookaheadDist c e) l 0 (LARGE_NUMBER, None) K)).
  - intros A. unfold lead. destruct (choose_first c e (lookaheadDist c e) l 0 (LARGE_NUMBER, None)) as [(E & _)|(k & o & g & N & O & L & _)].
    + intros k o N. apply (A k o N).
    + rewrite E. reflexivity.
    + exfalso. destruct (A k o N) as (_ & G). specialize (G g O). cbn in L. lra.
Qed.
Example C68_nobody_ex : snd (lead (acc1 20 20) (ego1 20) [Some off]) = None.
Proof.
  apply C68_nobody. intros [|[|k]] o N; try discriminate N. injection N as <-. split.
  - intros (_ & A & B & C). cbn in *. unfold LARGE_NUMBER in C. lra.
  - intros g (d & D & _). discriminate D.
Qed.

(** With nobody right in front it is the nearest on a path ahead, the first of those equally near. *)
Theorem C68_nearest : forall c e l k, (forall j o, nth_error l j = Some (Some o) -> ~ infront c o) -> snd (lead c e l) = Some k ->
  exists o, nth_error l k = Some (Some o) /\ onpath c e (lookaheadDist c e) o (fst (lead c e l))
  /\ forall j o' g', nth_error l j = Some (Some o') -> onpath c e (lookaheadDist c e) o' g' ->
       fst (lead c e l) <= g' /\ ((j < k)%nat -> fst (lead c e l) < g').
Proof.
  intros c e l k A K. unfold lead in *.
  destruct (choose_first c e (lookaheadDist c e) l 0 (LARGE_NUMBER, None) A) as [(E & _)|(k' & o & g & N & O & L & E & M)]; rewrite E in *; [discriminate K|].
  injection K as <-. exists o. cbn. auto.
Qed.
Definition far (g v : R) : other := Other (fun _ => Some (Diff (g + 5) 0 0)) 0 4 0 v g 3.
Lemma far_not : forall c g v, ~ infront c (far g v).
Proof. intros c g v (_ & _ & A). cbn in A. lra. Qed.
Example C68_nearest_ex : exists g, lead (acc1 20 20) (ego1 20) [Some (far 30 10); Some (far 20 10)] = (g, Some 1%nat).
Proof.
  set (l := [Some (far 30 10); Some (far 20 10)]).
  assert (A : forall j o, nth_error l j = Some (Some o) -> ~ infront (acc1 20 20) o)
    by (intros [|[|j]] o N; try (destruct j; discriminate N); injection N as <-; apply far_not).
  destruct (choose_first (acc1 20 20) (ego1 20) (lookaheadDist (acc1 20 20) (ego1 20)) l 0 (LARGE_NUMBER, None) A) as [(_ & M)|(k & o & g & N & O & L & E & M)].
  - exfalso. assert (O : onpath (acc1 20 20) (ego1 20) (lookaheadDist (acc1 20 20) (ego1 20)) (far 20 10) 20).
    { exists (Diff 25 0 0). unfold adjustedGapLength. cbn. rewrite Rabs_R0. repeat split; try lra; [f_equal; f_equal; lra|destruct (Rltb _ _); lra]. }
    specialize (M 1%nat _ 20 eq_refl O). cbn in M. unfold LARGE_NUMBER in M. lra.
  - exists g. unfold lead. rewrite E. destruct k as [|[|k]]; [|reflexivity|destruct k; discriminate N]. exfalso. injection N as <-.
    assert (O2 : onpath (acc1 20 20) (ego1 20) (lookaheadDist (acc1 20 20) (ego1 20)) (far 20 10) 20).
    { exists (Diff 25 0 0). unfold adjustedGapLength. cbn. rewrite Rabs_R0. repeat split; try lra; [f_equal; f_equal; lra|destruct (Rltb _ _); lra]. }
    destruct (M 1%nat _ 20 eq_refl O2) as (M1 & _). destruct O as (d & D & _ & G & _). injection D as <-. unfold adjustedGapLength in G. cbn in G.
    destruct (Rltb _ _) in G; lra.
Qed.

(** In general no nearer one is missed, but for somebody right in front. *)
Theorem C68_seen : forall c e l k o g, nth_error l k = Some (Some o) -> onpath c e (lookaheadDist c e) o g -> g < LARGE_NUMBER ->
  snd (lead c e l) <> None
  /\ (fst (lead c e l) <= g \/ exists j o', nth_error l j = Some (Some o') /\ infront c o' /\ fst (lead c e l) <= o_lon o').
Proof.
  intros c e l k o g N O L. split.
  - intros K. rewrite C68_nobody in K. destruct (K k o N) as (_ & G). specialize (G g O). lra.
  - unfold lead. destruct (choose_least c e (lookaheadDist c e) l 0 (LARGE_NUMBER, None)) as [(_ & M)|W]; [left; exact (M k o g N O)|right; exact W].
Qed.
Example C68_seen_ex : onpath (acc1 20 20) (ego1 20) (lookaheadDist (acc1 20 20) (ego1 20)) (at_gap 30 10) 30.
Proof. apply at_gap_on; cbn; lra. Qed.

(** Somebody alone on a path ahead is followed at the gap along the road, also when right in front. *)
Theorem C68_own : forall c e pre o post g,
  (forall o', In (Some o') (pre ++ post) -> ~ infront c o' /\ forall g', ~ onpath c e (lookaheadDist c e) o' g') ->
  onpath c e (lookaheadDist c e) o g -> g < LARGE_NUMBER -> lead c e (pre ++ Some o :: post) = (g, Some (length pre)).
Proof. intros c e pre o post g. exact (choose_only c e (lookaheadDist c e) pre o post g). Qed.
Example C68_own_ex : lead (acc1 20 20) (ego1 20) [Some (at_gap 2 10)] = (2, Some 0%nat).
Proof.
  apply (C68_own (acc1 20 20) (ego1 20) [] (at_gap 2 10) []); [intros o' []|apply at_gap_on; cbn; lra|unfold LARGE_NUMBER; lra].
Qed.

Lemma full_brake : forall c e gap vl dt d, 1 <= gap -> 0 <= a_cur c <= a_set c -> vl <= a_cur c -> 0 <= e_down e -> 0 <= e_up e ->
  d = (gap - (3 + a_timeGap c * a_cur c)) / (3 + a_timeGap c * a_cur c) -> d <= 1 ->
  25 / 10 * d - d * (a_cur c - a_set c) - (1 - d) * (a_cur c - vl) <= - e_down e -> 0 <= dt -> e_down e * dt <= a_cur c ->
  follow c e gap vl dt = (- e_down e, a_cur c - e_down e * dt).
Proof.
  intros c e gap vl dt d G C V D U E D1 B T S. unfold follow. assert (F : Rltb gap 1 = false) by (apply Rltb_false; lra). rewrite F.
  rewrite (MAX_Rmax (a_cur c)), (Rmax_left (a_cur c)) by lra. rewrite (Rabs_right (a_cur c)) by lra. unfold minDist. rewrite <- E.
  rewrite (MIN_Rmin 1), (Rmin_right 1) by lra. rewrite (MIN_Rmin (a_set c)), (Rmin_right (a_set c)) by lra.
  rewrite CLAMP_Rmin, Rmax_left, Rmin_right by lra. f_equal. rewrite MAX_Rmax, MIN_Rmin.
  assert (0 <= e_down e * dt) by (apply Rmult_le_pos; lra). rewrite Rmax_right, Rmin_left by lra. ring.
Qed.

(** The nearest is not always followed: somebody right in front but further away takes over, and the nearer one is driven into. *)
Theorem C68_nearest_refuted : exists c e a b dt, 0 < dt
  /\ (exists c' f, Step c e [Some a] dt = Some (c', f) /\ f_speed f = Some 0)
  /\ (exists c' f v, Step c e [Some a; Some b] dt = Some (c', f) /\ f_sensor f = Some 1%nat /\ f_speed f = Some v
      /\ onpath c e (lookaheadDist c e) a (1 / 2) /\ 1 / 2 < v * dt).
Proof.
  exists (acc1 10 10), (ego1 10), (at_gap (1 / 2) 0), (at_gap 5 0), (1 / 10). split; [lra|].
  assert (NT : notice (acc1 10 10) (ego1 10) = acc1 10 10) by (apply notice_same; reflexivity).
  assert (OA : onpath (acc1 10 10) (ego1 10) (lookaheadDist (acc1 10 10) (ego1 10)) (at_gap (1 / 2) 0) (1 / 2)) by (apply at_gap_on; cbn; lra).
  split.
  - assert (LD : lead (acc1 10 10) (ego1 10) [Some (at_gap (1 / 2) 0)] = (1 / 2, Some 0%nat))
      by (apply (C68_own _ _ [] _ []); [intros o' []|exact OA|unfold LARGE_NUMBER; lra]).
    unfold Step. rewrite NT, LD. cbn [snd fst nth_error]. unfold follow. side. eexists _, _. split; reflexivity.
  - assert (LD : lead (acc1 10 10) (ego1 10) [Some (at_gap (1 / 2) 0); Some (at_gap 5 0)] = (5, Some 1%nat)).
    { unfold lead. change [Some (at_gap (1 / 2) 0); Some (at_gap 5 0)] with ([Some (at_gap (1 / 2) 0)] ++ [Some (at_gap 5 0)]).
      rewrite choose_app. fold (lead (acc1 10 10) (ego1 10) [Some (at_gap (1 / 2) 0)]).
      change [Some (at_gap (1 / 2) 0)] with ([] ++ Some (at_gap (1 / 2) 0) :: []) at 2.
      rewrite (C68_own _ _ [] (at_gap (1 / 2) 0) [] (1 / 2) ltac:(intros o' []) OA ltac:(unfold LARGE_NUMBER; lra)).
      cbn [choose length Nat.add]. destruct (ahead_spec (acc1 10 10) (ego1 10) (lookaheadDist (acc1 10 10) (ego1 10)) 1 (at_gap 5 0) (1 / 2, Some 0%nat))
        as [(g & O & L & _)|(_ & E)]; [apply on_at_gap in O; subst g; cbn in L; lra|]. rewrite E.
      destruct (near_spec (acc1 10 10) 1 (at_gap 5 0) (1 / 2, Some 0%nat)) as [(_ & _ & E2)|([F|F] & _)]; [exact E2| |discriminate F].
      exfalso. apply F. unfold infront. cbn. rewrite Rmax_right by lra. lra. }
    unfold Step. rewrite NT, LD. cbn [snd fst nth_error].
    rewrite (full_brake (acc1 10 10) (ego1 10) 5 _ (1 / 10) (- (13 / 18))) by (cbn; lra).
    eexists _, _, (10 - 10 * (1 / 10)). split; [reflexivity|]. cbn. repeat split; [exact OA|lra].
Qed.

(** ** How far it looks *)

(** At least 50 metres, and twice the distance needed to stop and 6 metres. *)
Theorem C68_look : forall c e, 0 < e_down e ->
  50 <= lookaheadDist c e /\ 2 * (3 + a_cur c ^ 2 / (2 * e_down e)) <= lookaheadDist c e
  /\ (lookaheadDist c e = 50 \/ lookaheadDist c e = 2 * (3 + a_cur c ^ 2 / (2 * e_down e))).
Proof.
  intros c e D. unfold lookaheadDist, minDist. rewrite MAX_Rmax.
  replace (2 * 3 - a_cur c ^ 2 / - e_down e) with (2 * (3 + a_cur c ^ 2 / (2 * e_down e))) by (field; lra).
  split; [apply Rmax_l|]. split; [apply Rmax_r|]. destruct (Rle_dec 50 (2 * (3 + a_cur c ^ 2 / (2 * e_down e)))); [right; rewrite Rmax_right; lra|left; rewrite Rmax_left; lra].
Qed.
Example C68_look_ex : lookaheadDist (acc1 40 40) (ego1 40) = 166.
Proof. unfold lookaheadDist, minDist. cbn. unfold MAX. replace (2 * 3 - 40 * (40 * 1) / - (10)) with 166 by (field; lra). side. reflexivity. Qed.

(** ** The set speed *)

(** Activation takes over the speed of the object; the speed given stays the set speed in override mode only. *)
Theorem C68_activate : forall c e, a_cur (Activate c e) = e_speed e
  /\ a_set (Activate c e) = (if a_override c && a_given c then a_set c else e_speed e)
  /\ notice (Activate c e) e = Activate c e.
Proof.
  intros c e. unfold Activate. cbn. split; [reflexivity|]. split; [destruct (a_override c), (a_given c); reflexivity|].
  destruct (a_virtual c) eqn:V; [reflexivity|]. apply notice_same; reflexivity.
Qed.
Example C68_activate_ex : a_set (Activate (construct None (Some 30) None (Some true) None) (ego1 10)) = 30
  /\ a_set (Activate (construct None (Some 30) None None None) (ego1 10)) = 10 /\ a_timeGap (construct None None None None None) = 15 / 10.
Proof. repeat split. Qed.

(** What is not given: a second and a half behind, 5 metres to the side, the speed of the object, not virtual, additive. *)
Theorem C68_defaults : forall t sp d m v, let c := construct t sp d m v in
  (t = None -> a_timeGap c = 3 / 2) /\ (forall x, t = Some x -> a_timeGap c = x) /\ (d = None -> a_lat c = 5) /\ (forall x, d = Some x -> a_lat c = x)
  /\ (m = None \/ m = Some false -> forall e, a_set (Activate c e) = e_speed e) /\ (sp = None -> forall e, a_set (Activate c e) = e_speed e)
  /\ (forall x, sp = Some x -> m = Some true -> forall e, a_set (Activate c e) = x)
  /\ (a_virtual c = true <-> v = Some true) /\ (a_override c = true <-> m = Some true).
Proof.
  intros t sp d m v c. unfold c, construct, Activate. cbn.
  repeat split; intros; subst; cbn; try reflexivity; try lra; try (destruct m as [[]|], sp; cbn in *; congruence); try (destruct v; congruence); try (destruct m; congruence).
  - destruct H; subst; reflexivity.
  - destruct m as [[]|]; reflexivity.
Qed.
Example C68_defaults_ex : a_lat (construct None None None None None) = 5.
Proof. reflexivity. Qed.

(** A speed set by somebody else becomes the set speed, if off by more than a thousandth; otherwise, or in a virtual controller, the set speed stays. *)
Theorem C68_set : forall c e l dt c' f, Step c e l dt = Some (c', f) ->
  a_set c' = (if a_virtual c then a_set c else if Rltb (1 / 1000) (Rabs (e_speed e - a_cur c)) then e_speed e else a_set c).
Proof.
  intros c e l dt c' f H. destruct (Step_inv _ _ _ _ _ _ H) as (_ & E & _). rewrite E. unfold notice. destruct (a_virtual c); [reflexivity|].
  destruct (Rltb _ _); reflexivity.
Qed.
Example C68_set_ex : exists c' f, Step (acc1 20 20) (ego1 12) [] (1 / 10) = Some (c', f) /\ a_set c' = 12.
Proof.
  destruct (Step (acc1 20 20) (ego1 12) [] (1 / 10)) as [[c' f]|] eqn:E; [|exfalso; exact (Step_total _ _ _ _ E)].
  exists c', f. split; [reflexivity|]. rewrite (C68_set _ _ _ _ _ _ E). cbn. rewrite Rabs_left by lra. side. reflexivity.
Qed.

(** A speed raised by others little by little, not more than a thousandth a step, is put back in every step: the vehicle stays at its set speed. *)
Theorem C68_slow_refuted : forall (s : nat -> acc) (e : nat -> ego) (l : nat -> list (option other)) (f : nat -> effect) (dt : nat -> R),
  (forall n, Step (s n) (e n) (l n) (dt n) = Some (s (S n), f n)) -> a_virtual (s 0%nat) = false -> a_cur (s 0%nat) = a_set (s 0%nat) ->
  (forall n, 0 < e_up (e n) /\ 0 < e_down (e n) /\ 0 < dt n) -> (forall n, f_sensor (f n) = None) ->
  (forall n, Rabs (e_speed (e n) - a_cur (s n)) <= 1 / 1000) -> forall n, f_speed (f n) = Some (a_set (s 0%nat)).
Proof.
  intros s e l f dt RU V C L NS D.
  assert (I : forall n, a_virtual (s n) = false /\ a_set (s n) = a_set (s 0%nat) /\ a_cur (s n) = a_set (s 0%nat)
                        -> f_speed (f n) = Some (a_set (s 0%nat)) /\ a_virtual (s (S n)) = false /\ a_set (s (S n)) = a_set (s 0%nat) /\ a_cur (s (S n)) = a_set (s 0%nat)).
  { intros n (Vn & Sn & Cn). assert (N : notice (s n) (e n) = s n).
    { unfold notice. rewrite Vn. specialize (D n). destruct (Rltb (1 / 1000) _) eqn:B; [apply Rltb_true in B; lra|reflexivity]. }
    destruct (Step_inv _ _ _ _ _ _ (RU n)) as (_ & E2 & _ & E4 & _ & E6 & a & _ & F & _ & W). rewrite N in *. rewrite NS in E6.
    destruct W as [(_ & W)|(k & o & K & _)]; [|congruence].
    assert (a_cur (s (S n)) = a_set (s 0%nat)).
    { change (a_cur (s (S n))) with (snd (a, a_cur (s (S n)))). rewrite W. destruct (L n) as (U & DD & T).
      destruct (cruise_up (s n) (e n) (dt n) U DD T ltac:(lra)) as (_ & Q). rewrite Q, Cn, Sn. clear Q.
      replace (a_set (s 0%nat) - a_set (s 0%nat)) with 0 by ring. rewrite Rmult_0_r. rewrite Rmin_left by (apply Rlt_le, share_pos; assumption).
      destruct (Rltb _ _); lra. }
    repeat split; try congruence. rewrite F, Vn. congruence. }
  assert (J : forall n, a_virtual (s n) = false /\ a_set (s n) = a_set (s 0%nat) /\ a_cur (s n) = a_set (s 0%nat)).
  { induction n as [|n IH]; [auto|]. apply (I n IH). }
  intros n. apply (I n (J n)).
Qed.
Example C68_slow_ex : exists f, Step (acc1 20 20) (Ego (20 + 1 / 1000) 0 4 1 10 10) [] (1 / 1000) = Some (acc1 20 20, f).
Proof.
  unfold Step, notice. cbn [a_virtual acc1 e_speed a_cur]. replace (20 + 1 / 1000 - 20) with (1 / 1000) by ring. rewrite Rabs_right by lra. side.
  unfold lead. cbn [choose snd]. destruct (cruise _ _ _) as [a v] eqn:E. exists (Effect None (Some (v * (1 / 1000))) None (Some v)). cbn.
  assert (v = 20) as ->; [|reflexivity]. change v with (snd (a, v)). rewrite <- E.
  destruct (cruise_up (acc1 20 20) (Ego (20 + 1 / 1000) 0 4 1 10 10) (1 / 1000)) as (_ & Q); cbn; try lra. cbn in Q. fold (acc1 20 20). rewrite Q.
  replace (20 - 20) with 0 by ring. rewrite Rmult_0_r, Rmin_left by (unfold share; cbn; lra). replace (0 - 0) with 0 by ring. rewrite Rabs_R0. side. ring.
Qed.

(** ** Speeds *)

(** Behind somebody the speed is between 0 and the set speed, and 0 once the gap is less than a metre. *)
Theorem C68_behind : forall c e l dt c' f k, Step c e l dt = Some (c', f) -> f_sensor f = Some k -> 0 <= a_set c' ->
  0 <= a_cur c' <= a_set c' /\ (fst (lead (notice c e) e l) < 1 -> a_cur c' = 0).
Proof.
  intros c e l dt c' f k H K P. destruct (Step_inv _ _ _ _ _ _ H) as (_ & E & _ & _ & _ & F & a & _ & _ & _ & W). rewrite F in K.
  destruct W as [(N & _)|(k' & o & _ & _ & W)]; [congruence|]. change (a_cur c') with (snd (a, a_cur c')). rewrite W, E in *. split; [apply follow_range; exact P|].
  intros G. unfold follow. apply Rltb_true in G. rewrite G. reflexivity.
Qed.
Example C68_behind_ex : exists c' f, Step (acc1 20 20) (ego1 20) [Some (at_gap 2 10)] (1 / 10) = Some (c', f) /\ f_sensor f = Some 0%nat /\ 0 <= a_set c'.
Proof.
  destruct (Step (acc1 20 20) (ego1 20) [Some (at_gap 2 10)] (1 / 10)) as [[c' f]|] eqn:E; [|exfalso; exact (Step_total _ _ _ _ E)].
  exists c', f. split; [reflexivity|]. destruct (Step_inv _ _ _ _ _ _ E) as (_ & S & _ & _ & _ & F & _).
  rewrite notice_same in S, F by reflexivity. rewrite C68_own_ex in F. rewrite S. cbn. split; [exact F|lra].
Qed.

(** With steps small enough for the limits, the speed stays between 0 and the set speed, whoever is followed when. *)
Theorem C68_range : forall (s : nat -> acc) (e : nat -> ego) (l : nat -> list (option other)) (f : nat -> effect) (dt : nat -> R),
  (forall n, Step (s n) (e n) (l n) (dt n) = Some (s (S n), f n)) -> (forall n, e_speed (e n) = a_cur (s n)) -> a_virtual (s 0%nat) = false ->
  (forall n, 0 < e_up (e n) /\ 0 < e_down (e n) /\ 0 < dt n) -> (forall n, 7 / 10 * e_up (e n) * dt n <= 1) ->
  0 <= a_cur (s 0%nat) <= a_set (s 0%nat) -> forall n, 0 <= a_cur (s n) <= a_set (s 0%nat) /\ a_set (s n) = a_set (s 0%nat).
Proof.
  intros s e l f dt RU A V L K I n. split; [exact (run_range s e l f dt RU A V L K I n)|]. apply (run_inv s e l f dt RU A V n).
Qed.
Example C68_range_ex : exists (s : nat -> acc) (f : nat -> effect),
  (forall n, Step (s n) (ego1 20) [] (1 / 100) = Some (s (S n), f n)) /\ (forall n, 20 = a_cur (s n)) /\ 7 / 10 * e_up (ego1 20) * (1 / 100) <= 1.
Proof.
  exists (fun _ => acc1 20 20), (fun _ => Effect None (Some (20 * (1 / 100))) None (Some 20)). split; [|split; [reflexivity|cbn; lra]].
  intros _. unfold Step. rewrite notice_same by reflexivity. unfold lead. cbn [choose snd]. unfold cruise, accelerationFactor. cbn.
  replace ((20 - 20) * (7 / 10) * 10) with 0 by ring. replace (CLAMP 0 (- (10)) (7 / 10 * 10)) with 0 by (unfold CLAMP, MIN, MAX; side; reflexivity).
  replace (20 + 0 * (1 / 100) - 20) with 0 by ring. replace (20 - 20) with 0 by ring. rewrite Rabs_R0. side. replace (20 + 0 * (1 / 100)) with 20 by ring. reflexivity.
Qed.

(** With nobody ahead a step never gets further from the set speed and never speeds up or slows down by more than the limits. *)
Theorem C68_cruise : forall c e dt, 0 < e_up e -> 0 < e_down e -> 0 < dt ->
  Rabs (snd (cruise c e dt) - a_set c) <= Rabs (a_cur c - a_set c)
  /\ - e_down e * dt <= snd (cruise c e dt) - a_cur c <= 7 / 10 * e_up e * dt
  /\ (7 / 10 * e_up e * dt <= 1 -> (a_cur c <= a_set c -> a_cur c <= snd (cruise c e dt) <= a_set c) /\ (a_set c <= a_cur c -> a_set c <= snd (cruise c e dt) <= a_cur c)).
Proof.
  intros c e dt U D T. split; [|split; [exact (cruise_rate c e dt U D T)|intros K; exact (cruise_between c e dt U D T K)]].
  rewrite (cruise_rest c e dt U D T). apply rest_le, Rabs_pos.
Qed.
Example C68_cruise_ex : snd (cruise (acc1 20 10) (ego1 10) (1 / 10)) = 10 + 7 / 10.
Proof.
  unfold cruise, accelerationFactor. cbn. replace (CLAMP ((20 - 10) * (7 / 10) * 10) (- (10)) (7 / 10 * 10)) with 7 by (unfold CLAMP, MIN, MAX; side; lra).
  rewrite (Rabs_left (10 - 20)) by lra. rewrite Rabs_left by lra. side. lra.
Qed.

(** With nobody ahead the set speed is reached, as near as one likes, if the share of the error taken off in a step is less than twice the error. *)
Theorem C68_reach : forall (s : nat -> acc) (e : nat -> ego) (l : nat -> list (option other)) (f : nat -> effect) up down dt,
  (forall n, Step (s n) (e n) (l n) dt = Some (s (S n), f n)) -> (forall n, e_speed (e n) = a_cur (s n)) -> a_virtual (s 0%nat) = false ->
  (forall n, e_up (e n) = up /\ e_down (e n) = down) -> 0 < up -> 0 < down -> 0 < dt -> 7 / 10 * up * dt < 2 -> (forall n, f_sensor (f n) = None) ->
  forall eps, 0 < eps -> exists N, forall n, (N <= n)%nat -> Rabs (a_cur (s n) - a_set (s 0%nat)) < eps.
Proof.
  intros s e l f up down dt RU A V L U D T K NS.
  assert (LIM : forall n, 0 < e_up (e n) /\ 0 < e_down (e n) /\ 0 < dt) by (intros n; destruct (L n) as (-> & ->); auto).
  set (k := 7 / 10 * up * dt). assert (SH : forall n, share (e n) dt = k) by (intros n; unfold share; rewrite (proj1 (L n)); reflexivity).
  assert (K0 : 0 < k) by (unfold k; apply Rmult_lt_0_compat; lra).
  set (x := fun n => Rabs (a_cur (s n) - a_set (s 0%nat))).
  assert (NX : forall n, x (S n) = rest (x n) (Rmin (k * x n) (if Rltb (a_cur (s n)) (a_set (s 0%nat)) then k else down * dt))).
  { intros n. unfold x. destruct (run_inv s e l f (fun _ => dt) RU A V n) as (_ & E & N).
    destruct (run_next s e l f (fun _ => dt) RU A V n) as [(_ & W)|(k0 & o & F & _)].
    - rewrite W, <- E. destruct (LIM n) as (? & ? & ?). rewrite cruise_rest by assumption. unfold most. rewrite SH, (proj2 (L n)). reflexivity.
    - destruct (Step_inv _ _ _ _ _ _ (RU n)) as (_ & _ & _ & _ & _ & Q & _). rewrite N, NS in Q. congruence. }
  assert (X0 : forall n, 0 <= x n) by (intros n; apply Rabs_pos).
  set (b := x 0%nat + 1). assert (B0 : 0 < b) by (unfold b; specialize (X0 0%nat); lra).
  assert (XB : forall n, x n <= b).
  { induction n as [|n IH]; [unfold b; lra|]. rewrite NX. pose proof (rest_le (x n) (Rmin (k * x n) (if Rltb (a_cur (s n)) (a_set (s 0%nat)) then k else down * dt)) (X0 n)). lra. }
  assert (DT : 0 < down * dt) by (apply Rmult_lt_0_compat; lra).
  set (q := Rmax (Rmax (k - 1) (1 - Rmin k (k / b))) (Rmax (k - 1) (1 - Rmin k (down * dt / b)))).
  assert (Q : 0 <= q < 1).
  { pose proof (factor_lt k k b ltac:(unfold k in *; lra) K0 B0). pose proof (factor_lt k (down * dt) b ltac:(unfold k in *; lra) DT B0).
    unfold q. split; [apply Rle_trans with (1 := proj1 H); apply Rmax_l|apply Rmax_lub_lt; tauto]. }
  assert (SHR : forall n, x (S n) <= q * x n).
  { intros n. rewrite NX. destruct (Rltb (a_cur (s n)) (a_set (s 0%nat))).
    - apply Rle_trans with (1 := rest_factor k k (x n) b ltac:(unfold k in *; lra) K0 (conj (X0 n) (XB n)) B0). apply Rmult_le_compat_r; [apply X0|apply Rmax_l].
    - apply Rle_trans with (1 := rest_factor k (down * dt) (x n) b ltac:(unfold k in *; lra) DT (conj (X0 n) (XB n)) B0). apply Rmult_le_compat_r; [apply X0|apply Rmax_r]. }
  intros eps EP. exact (shrink x q Q X0 SHR eps EP).
Qed.
Example C68_reach_ex : 7 / 10 * e_up (ego1 20) * (1 / 10) < 2.
Proof. cbn. lra. Qed.

(** At exactly twice the error it swings from side to side for ever. *)
Theorem C68_swing_refuted : exists e dt set low high, 0 < e_up e /\ 0 < e_down e /\ 0 < dt /\ low < set < high
  /\ snd (cruise (acc1 set low) e dt) = high /\ snd (cruise (acc1 set high) e dt) = low.
Proof.
  exists (Ego 0 0 4 1 200 30), (1 / 70), 20, (20 - 1 / 10), (20 + 1 / 10). repeat split; try (cbn; lra);
    unfold cruise, accelerationFactor; cbn.
  - replace (CLAMP ((20 - (20 - 1 / 10)) * (7 / 10) * 200) (- (30)) (7 / 10 * 200)) with 14 by (unfold CLAMP, MIN, MAX; side; lra).
    rewrite Rabs_left by lra. rewrite Rabs_right by lra. side. lra.
  - replace (CLAMP ((20 - (20 + 1 / 10)) * (7 / 10) * 200) (- (30)) (7 / 10 * 200)) with (- (14)) by (unfold CLAMP, MIN, MAX; side; lra).
    rewrite Rabs_right by lra. rewrite Rabs_left by lra. side. lra.
Qed.

(** With steps too large the set speed is passed, and the speed may become negative. *)
Theorem C68_passed_refuted : exists e dt, 0 < e_up e /\ 0 < e_down e /\ 0 < dt
  /\ 20 < snd (cruise (acc1 20 19) e dt) /\ snd (cruise (acc1 (5 / 100) (25 / 100)) e dt) < 0.
Proof.
  exists (Ego 0 0 4 1 200 30), (1 / 100). repeat split; try (cbn; lra); unfold cruise, accelerationFactor; cbn.
  - replace (CLAMP ((20 - 19) * (7 / 10) * 200) (- (30)) (7 / 10 * 200)) with 140 by (unfold CLAMP, MIN, MAX; side; lra).
    rewrite (Rabs_left (19 - 20)) by lra. rewrite Rabs_right by lra. side. lra.
  - replace (CLAMP ((5 / 100 - 25 / 100) * (7 / 10) * 200) (- (30)) (7 / 10 * 200)) with (- (28)) by (unfold CLAMP, MIN, MAX; side; lra).
    rewrite (Rabs_right (25 / 100 - 5 / 100)) by lra. rewrite Rabs_left by lra. side. lra.
Qed.

(** Behind somebody at a metre or more, and not above the set speed, the speed changes within the limits. *)
Theorem C68_rate : forall c e gap vl dt, 0 <= e_up e -> 0 <= e_down e -> 0 <= dt -> 1 <= gap -> 0 <= a_cur c <= a_set c ->
  - e_down e <= fst (follow c e gap vl dt) <= e_up e /\ - e_down e * dt <= snd (follow c e gap vl dt) - a_cur c <= e_up e * dt.
Proof. exact follow_rate. Qed.
Example C68_rate_ex : snd (follow (acc1 10 10) (ego1 10) 5 0 (1 / 10)) = 9.
Proof.
  rewrite (full_brake (acc1 10 10) (ego1 10) 5 _ (1 / 10) (- (13 / 18))) by (cbn; lra). cbn. lra.
Qed.

(** Nearer than a metre the vehicle stops at once, whatever its limit; and a virtual controller then asks for no acceleration at all. *)
Theorem C68_limit_refuted : forall c e gap vl dt, gap < 1 -> follow c e gap vl dt = (0, 0).
Proof. intros c e gap vl dt G. unfold follow. apply Rltb_true in G. rewrite G. reflexivity. Qed.
Example C68_limit_ex : exists c' f, Step (Acc (15 / 10) 20 5 20 true true true) (ego1 20) [Some (at_gap (1 / 2) 0)] (1 / 10) = Some (c', f)
  /\ f_acc f = Some (0, 0) /\ f_speed f = None /\ f_move f = None.
Proof.
  set (c := Acc (15 / 10) 20 5 20 true true true). assert (NT : notice c (ego1 20) = c) by reflexivity.
  assert (LD : lead c (ego1 20) [Some (at_gap (1 / 2) 0)] = (1 / 2, Some 0%nat))
    by (apply (C68_own _ _ [] _ []); [intros o' []|apply at_gap_on; cbn; lra|unfold LARGE_NUMBER; lra]).
  unfold Step. rewrite NT, LD. cbn [snd fst nth_error]. rewrite C68_limit_refuted by lra. eexists _, _. split; [reflexivity|]. cbn.
  unfold RotateVec2D. split; [f_equal; f_equal; ring|auto].
Qed.

(** ** Distance *)

(** At the speed of the vehicle ahead the speed is kept at the distance of the time gap only: further away it speeds up, nearer it slows down. *)
Theorem C68_balance : forall c e gap dt, 0 < e_up e -> 0 < e_down e -> 1 <= gap -> 0 <= a_timeGap c -> 0 <= a_cur c <= a_set c ->
  let want := 3 + a_timeGap c * a_cur c in
  (gap = want -> fst (follow c e gap (a_cur c) dt) = 0) /\ (want < gap -> 0 < fst (follow c e gap (a_cur c) dt))
  /\ (gap < want -> fst (follow c e gap (a_cur c) dt) < 0).
Proof.
  intros c e gap dt U D G TG C want. unfold follow. assert (F : Rltb gap 1 = false) by (apply Rltb_false; lra). rewrite F. cbn [fst].
  assert (M1 : MAX (a_cur c) (a_cur c) = a_cur c) by (rewrite MAX_Rmax, Rmax_left; lra). rewrite M1.
  rewrite (Rabs_right (a_cur c)) by lra. unfold minDist. fold want.
  assert (M2 : MIN (a_set c) (a_cur c) = a_cur c) by (rewrite MIN_Rmin, Rmin_right; lra). rewrite M2.
  assert (W : 3 <= want) by (unfold want; assert (0 <= a_timeGap c * a_cur c) by (apply Rmult_le_pos; lra); lra).
  set (d := MIN 1 ((gap - want) / want)).
  replace (25 / 10 * d - d * (a_cur c - a_set c) - (1 - d) * (a_cur c - a_cur c)) with (d * (25 / 10 + (a_set c - a_cur c))) by ring.
  set (y := 25 / 10 + (a_set c - a_cur c)). assert (Y : 0 < y) by (unfold y; lra). rewrite CLAMP_Rmin. unfold d. rewrite MIN_Rmin.
  split; [|split]; intros H.
  - replace ((gap - want) / want) with 0 by (rewrite H; field; lra). rewrite (Rmin_right 1 0), Rmult_0_l by lra. cases; lra.
  - assert (0 < (gap - want) / want) by (apply Rdiv_lt_0_compat; lra). assert (0 < Rmin 1 ((gap - want) / want)) by (apply Rmin_glb_lt; lra).
    assert (0 < Rmin 1 ((gap - want) / want) * y) by (apply Rmult_lt_0_compat; lra). apply Rmin_glb_lt; [lra|]. apply Rlt_le_trans with (1 := H2). apply Rmax_r.
  - assert (N : (gap - want) / want < 0) by (replace ((gap - want) / want) with (- ((want - gap) / want)) by (field; lra); assert (0 < (want - gap) / want) by (apply Rdiv_lt_0_compat; lra); lra).
    rewrite (Rmin_right 1) by lra. assert ((gap - want) / want * y < 0) by nra. apply Rle_lt_trans with (1 := Rmin_r _ _). apply Rmax_lub_lt; lra.
Qed.
Example C68_balance_ex : fst (follow (acc1 30 20) (ego1 20) 33 20 (1 / 10)) = 0.
Proof. apply (C68_balance (acc1 30 20) (ego1 20) 33 (1 / 10)); cbn; lra. Qed.

(** Too near somebody not faster it always brakes. *)
Theorem C68_brake : forall c e gap vl dt, 0 < e_up e -> 0 < e_down e -> 1 <= gap -> 0 <= a_timeGap c -> 0 <= a_cur c <= a_set c -> vl <= a_cur c ->
  gap < 3 + a_timeGap c * a_cur c -> fst (follow c e gap vl dt) < 0.
Proof.
  intros c e gap vl dt U D G TG C V. set (want := 3 + a_timeGap c * a_cur c). intros H. unfold follow.
  assert (F : Rltb gap 1 = false) by (apply Rltb_false; lra). rewrite F. cbn [fst].
  rewrite (MAX_Rmax (a_cur c)), (Rmax_left (a_cur c)) by lra. rewrite (Rabs_right (a_cur c)) by lra. unfold minDist. fold want.
  rewrite (MIN_Rmin (a_set c)), (Rmin_right (a_set c)) by lra.
  assert (W : 3 <= want) by (unfold want; assert (0 <= a_timeGap c * a_cur c) by (apply Rmult_le_pos; lra); lra).
  assert (N : (gap - want) / want < 0) by (replace ((gap - want) / want) with (- ((want - gap) / want)) by (field; lra); assert (0 < (want - gap) / want) by (apply Rdiv_lt_0_compat; lra); lra).
  rewrite MIN_Rmin, (Rmin_right 1) by lra. set (d := (gap - want) / want) in *. rewrite CLAMP_Rmin.
  assert (25 / 10 * d - d * (a_cur c - a_set c) - (1 - d) * (a_cur c - vl) < 0).
  { assert (0 <= - d * (a_set c - a_cur c)) by (apply Rmult_le_pos; lra). assert (0 <= (1 - d) * (a_cur c - vl)) by (apply Rmult_le_pos; lra).
    replace (d * (a_cur c - a_set c)) with (- d * (a_set c - a_cur c)) by ring. lra. }
  apply Rle_lt_trans with (1 := Rmin_r _ _). apply Rmax_lub_lt; lra.
Qed.
Example C68_brake_ex : fst (follow (acc1 10 10) (ego1 10) 5 0 (1 / 10)) < 0.
Proof. apply C68_brake; cbn; lra. Qed.

(** The vehicle ahead is never driven into, however it brakes: it does not move backwards, a step at set speed is less than a metre, within a metre it is seen on a
    path ahead, and then nobody further away is right in front. *)
Theorem C68_safe : forall (s : nat -> acc) (e : nat -> ego) (l : nat -> list (option other)) (f : nat -> effect) (dt gap : nat -> R),
  (forall n, Step (s n) (e n) (l n) (dt n) = Some (s (S n), f n)) -> (forall n, e_speed (e n) = a_cur (s n)) -> a_virtual (s 0%nat) = false ->
  (forall n, 0 < e_up (e n) /\ 0 < e_down (e n) /\ 0 < dt n) -> (forall n, 7 / 10 * e_up (e n) * dt n <= 1) ->
  0 <= a_cur (s 0%nat) <= a_set (s 0%nat) -> (forall n, a_set (s 0%nat) * dt n < 1) ->
  (forall n, 0 < gap n < 1 -> (exists k o, nth_error (l n) k = Some (Some o) /\ onpath (s n) (e n) (lookaheadDist (s n) (e n)) o (gap n))
                             /\ forall k o, nth_error (l n) k = Some (Some o) -> infront (s n) o -> o_lon o < 1) ->
  (forall n, gap (S n) >= gap n - a_cur (s (S n)) * dt n) -> 0 < gap 0%nat -> forall n, 0 < gap n.
Proof.
  intros s e l f dt gap RU A V L K I SM SEE MV G0. induction n as [|n IH]; [exact G0|].
  destruct (L n) as (_ & _ & T). destruct (Rlt_dec (gap n) 1) as [N|N].
  - destruct (SEE n (conj IH N)) as ((k & o & NE & O) & CL).
    destruct (C68_seen (s n) (e n) (l n) k o (gap n) NE O ltac:(unfold LARGE_NUMBER; lra)) as (SO & LE).
    assert (G1 : fst (lead (s n) (e n) (l n)) < 1).
    { destruct LE as [LE|(j & o' & NJ & F & LE)]; [lra|]. specialize (CL j o' NJ F). lra. }
    destruct (run_next s e l f dt RU A V n) as [(NO & _)|(k' & o' & _ & _ & W)]; [contradiction|].
    rewrite C68_limit_refuted in W by exact G1. cbn in W. specialize (MV n). rewrite W in MV. lra.
  - pose proof (run_range s e l f dt RU A V L K I (S n)) as (_ & HI). specialize (MV n). specialize (SM n).
    assert (a_cur (s (S n)) * dt n <= a_set (s 0%nat) * dt n) by (apply Rmult_le_compat_r; lra). lra.
Qed.
Example C68_safe_ex : infront (acc1 20 20) (at_gap (1 / 2) 0) /\ o_lon (at_gap (1 / 2) 0) < 1
  /\ onpath (acc1 20 20) (ego1 20) (lookaheadDist (acc1 20 20) (ego1 20)) (at_gap (1 / 2) 0) (1 / 2).
Proof. split; [unfold infront; cbn; rewrite Rmax_right by lra; lra|]. split; [cbn; lra|apply at_gap_on; cbn; lra]. Qed.

(** With a step of more than a metre a standing vehicle ahead is driven into though seen in time. *)
Theorem C68_hit_refuted : exists c e o dt gap c' f v, Step c e [Some o] dt = Some (c', f) /\ onpath c e (lookaheadDist c e) o gap
  /\ f_sensor f = Some 0%nat /\ o_speed o = 0 /\ f_speed f = Some v /\ gap < v * dt.
Proof.
  set (c := acc1 30 30). set (e := ego1 30). set (o := at_gap (12 / 10) 0).
  assert (O : onpath c e (lookaheadDist c e) o (12 / 10)) by (apply at_gap_on; cbn; lra).
  assert (LD : lead c e [Some o] = (12 / 10, Some 0%nat)) by (apply (C68_own _ _ [] _ []); [intros o' []|exact O|unfold LARGE_NUMBER; lra]).
  assert (ST : exists f, Step c e [Some o] (1 / 20) = Some (acc1 30 (30 - 1 / 2), f) /\ f_sensor f = Some 0%nat /\ f_speed f = Some (30 - 1 / 2)).
  { unfold Step. rewrite notice_same by reflexivity. rewrite LD. cbn [snd fst nth_error].
    rewrite (full_brake c e (12 / 10) _ (1 / 20) (- (39 / 40))) by (cbn; lra). cbn. replace (30 - 10 * (1 / 20)) with (30 - 1 / 2) by lra.
    eexists. split; [reflexivity|]. split; reflexivity. }
  destruct ST as (f & ST & FS & FV). exists c, e, o, (1 / 20), (12 / 10), (acc1 30 (30 - 1 / 2)), f, (30 - 1 / 2).
  repeat split; [exact ST|exact O|exact FS|exact FV|lra].
Qed.

(** Somebody driven into is forgotten: with the boxes overlapping there is no gap left, and the choice is as if nobody were there. *)
Theorem C68_forgotten : forall c e pre o post d, o_delta o (lookaheadDist c e) = Some d -> adjustedGapLength e o (d_s d) <= 0 -> o_lon o <= 0 ->
  lead c e (pre ++ Some o :: post) = lead c e (pre ++ None :: post).
Proof.
  intros c e pre o post d D G L. unfold lead. rewrite !choose_app. cbn [choose]. f_equal.
  set (b := choose c e _ _ pre _). destruct (ahead_spec c e (lookaheadDist c e) (0 + length pre) o b) as [(g & (d' & D' & _ & -> & P & _) & _)|(_ & ->)].
  - rewrite D in D'. injection D' as <-. lra.
  - destruct (near_spec c (0 + length pre) o b) as [((P & _) & _)|(_ & ->)]; [lra|reflexivity].
Qed.
Example C68_forgotten_ex : lead (acc1 20 20) (ego1 20) [Some (at_gap (-1) 0)] = (LARGE_NUMBER, None).
Proof.
  change [Some (at_gap (-1) 0)] with ([] ++ Some (at_gap (-1) 0) :: []).
  rewrite (C68_forgotten (acc1 20 20) (ego1 20) [] (at_gap (-1) 0) [] (Diff (-1 + 5) 0 0)); [reflexivity|reflexivity| |cbn; lra].
  unfold adjustedGapLength. cbn. destruct (Rltb _ _); lra.
Qed.

(** ** What a step does to the object *)

(** A virtual controller sets an acceleration along the heading only; otherwise the speed is set, and the object moved by it in override mode. *)
Theorem C68_effect : forall c e l dt c' f, Step c e l dt = Some (c', f) ->
  (a_virtual c = true -> f_speed f = None /\ f_move f = None /\ exists a, f_acc f = Some (a * cos (e_h e), a * sin (e_h e)))
  /\ (a_virtual c = false -> f_speed f = Some (a_cur c') /\ f_acc f = None /\ f_move f = (if a_override c then Some (a_cur c' * dt) else None)).
Proof.
  intros c e l dt c' f H. destruct (Step_inv _ _ _ _ _ _ H) as (_ & _ & _ & _ & _ & _ & a & FA & FS & FM & _).
  assert (V : a_virtual (notice c e) = a_virtual c) by (unfold notice; destruct (a_virtual c) eqn:Q; [exact eq_refl|destruct (Rltb _ _); [reflexivity|exact Q]]).
  assert (O : a_override (notice c e) = a_override c) by (unfold notice; destruct (a_virtual c); [reflexivity|destruct (Rltb _ _); reflexivity]).
  rewrite V in *. rewrite O in FM. split; intros X; rewrite X in *.
  - rewrite FS, FM, FA, andb_false_r. repeat split. exists a. unfold RotateVec2D. f_equal. f_equal; ring.
  - rewrite FS, FM, FA. cbn. rewrite andb_true_r. auto.
Qed.
Example C68_effect_ex : exists c' f v, Step (acc1 20 10) (ego1 10) [] (1 / 10) = Some (c', f) /\ f_move f = Some (v * (1 / 10)).
Proof.
  destruct (Step (acc1 20 10) (ego1 10) [] (1 / 10)) as [[c' f]|] eqn:E; [|exfalso; exact (Step_total _ _ _ _ E)].
  exists c', f, (a_cur c'). split; [reflexivity|]. apply (proj2 (C68_effect _ _ _ _ _ _ E)); reflexivity.
Qed.

Print Assumptions C68_gap.
Print Assumptions C68_real.
Print Assumptions C68_nobody.
Print Assumptions C68_nearest.
Print Assumptions C68_seen.
Print Assumptions C68_own.
Print Assumptions C68_nearest_refuted.
Print Assumptions C68_look.
Print Assumptions C68_activate.
Print Assumptions C68_defaults.
Print Assumptions C68_set.
Print Assumptions C68_slow_refuted.
Print Assumptions C68_behind.
Print Assumptions C68_range.
Print Assumptions C68_cruise.
Print Assumptions C68_reach.
Print Assumptions C68_swing_refuted.
Print Assumptions C68_passed_refuted.
Print Assumptions C68_rate.
Print Assumptions C68_limit_refuted.
Print Assumptions C68_balance.
Print Assumptions C68_brake.
Print Assumptions C68_safe.
Print Assumptions C68_hit_refuted.
Print Assumptions C68_forgotten.
Print Assumptions C68_effect.
