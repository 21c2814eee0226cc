(** * Proofs about adaptive cruise control *)
From Coq Require Import Reals Bool List ZArith Lra Lia Psatz.
From Verif Require Import AngModel AngProofs BoxModel AccModel.
Import ListNotations.
Open Scope R_scope.

(** ** What is asked of a choice *)

(** [o] is on a path ahead, no lane change needed, at most so far to the side, with [g] metres between the ends. *)
Definition onpath (c : acc) (e : ego) (look : R) (o : other) (g : R) : Prop :=
  exists d, o_delta o look = Some d /\ d_lane d = 0%Z /\ g = adjustedGapLength e o (d_s d) /\ 0 < g /\ Rabs (d_t d) < a_lat c.

(** [o] is right in front: the distances of the free space between the boxes. *)
Definition infront (c : acc) (o : other) : Prop :=
  0 < o_lon o /\ o_lon o < 1 + o_len o + 1 / 2 * Rmax 0 (a_cur c - o_speed o) /\ - (5 / 10) < o_side o < 2 / 10.

Lemma MAX_Rmax : forall x y, MAX x y = Rmax x y.
Proof. intros x y. unfold MAX. destruct (Rltb x y) eqn:B; [apply Rltb_true in B; rewrite Rmax_right|apply Rltb_false in B; rewrite Rmax_left]; lra. Qed.
Lemma MIN_Rmin : forall x y, MIN x y = Rmin x y.
Proof. intros x y. unfold MIN. destruct (Rltb y x) eqn:B; [apply Rltb_true in B; rewrite Rmin_right|apply Rltb_false in B; rewrite Rmin_left]; lra. Qed.

Ltac minmax := rewrite ?MAX_Rmax, ?MIN_Rmin in *.
Ltac cases := repeat match goal with
  | |- context [Rmax ?a ?b] => let E := fresh "E" in let H := fresh "H" in (destruct (Rle_dec a b) as [H|H]; [rewrite (Rmax_right a b) by lra|rewrite (Rmax_left a b) by lra])
  | |- context [Rmin ?a ?b] => let H := fresh "H" in (destruct (Rle_dec a b) as [H|H]; [rewrite (Rmin_left a b) by lra|rewrite (Rmin_right a b) by lra])
  end.

Lemma close_spec : forall c o, close c o = true <-> infront c o.
Proof.
  intros c o. unfold close, infront. rewrite MAX_Rmax, !andb_true_iff, !Rltb_true. tauto.
Qed.

Lemma ahead_spec : forall c e look i o b,
  (exists g, onpath c e look o g /\ g < fst b /\ ahead c e look i o b = (g, Some i))
  \/ ((forall g, onpath c e look o g -> fst b <= g) /\ ahead c e look i o b = b).
Proof.
  intros c e look i o b. unfold ahead. destruct (o_delta o look) as [d|] eqn:D.
  - destruct ((d_lane d =? 0)%Z && Rltb 0 (adjustedGapLength e o (d_s d)) && Rltb (adjustedGapLength e o (d_s d)) (fst b) && Rltb (Rabs (d_t d)) (a_lat c)) eqn:C.
    + apply andb_true_iff in C as [C T]. apply andb_true_iff in C as [C L]. apply andb_true_iff in C as [Z P].
      apply Rltb_true in T, L, P. apply Z.eqb_eq in Z. left. eexists. split; [|split; [exact L|reflexivity]]. exists d. auto.
    + right. split; [|reflexivity]. intros g (d' & D' & Z & G & P & T). rewrite D in D'. injection D' as <-. subst g.
      destruct (Rle_lt_dec (fst b) (adjustedGapLength e o (d_s d))) as [|L]; [assumption|exfalso].
      apply Rltb_true in T, L, P. apply Z.eqb_eq in Z. rewrite Z, P, L, T in C. discriminate C.
  - right. split; [|reflexivity]. intros g (d' & D' & _). congruence.
Qed.

Lemma near_spec : forall c i o b,
  (infront c o /\ snd b <> Some i /\ near c i o b = (o_lon o, Some i)) \/ ((~ infront c o \/ snd b = Some i) /\ near c i o b = b).
Proof.
  intros c i o b. unfold near. destruct (snd b) as [k|].
  - destruct (Nat.eqb k i) eqn:E; cbn.
    + apply Nat.eqb_eq in E as ->. right. auto.
    + destruct (close c o) eqn:C; [left; apply close_spec in C; apply Nat.eqb_neq in E; repeat split; try tauto; try apply C; congruence|].
      right. split; [left; intros F; apply close_spec in F; congruence|reflexivity].
  - cbn. destruct (close c o) eqn:C; [left; apply close_spec in C; repeat split; try apply C; congruence|].
    right. split; [left; intros F; apply close_spec in F; congruence|reflexivity].
Qed.

Section Choose.
Variables (c : acc) (e : ego) (look : R).

Lemma choose_from : forall l i b, choose c e look i l b = b
  \/ exists k o, nth_error l k = Some (Some o) /\ snd (choose c e look i l b) = Some (i + k)%nat
     /\ (onpath c e look o (fst (choose c e look i l b)) \/ (infront c o /\ fst (choose c e look i l b) = o_lon o)).
Proof.
  induction l as [|[o|] r IH]; intros i b; cbn [choose]; [left; reflexivity| |].
  - set (b1 := ahead c e look i o b). set (b2 := near c i o b1).
    destruct (IH (S i) b2) as [E|(k & o' & N & K & W)].
    + rewrite E. destruct (near_spec c i o b1) as [(F & _ & E2)|(_ & E2)]; fold b2 in E2; rewrite E2.
      * right. exists 0%nat, o. rewrite Nat.add_0_r. cbn. auto.
      * destruct (ahead_spec c e look i o b) as [(g & O & _ & E1)|(_ & E1)]; fold b1 in E1; rewrite E1; [|left; reflexivity].
        right. exists 0%nat, o. rewrite Nat.add_0_r. cbn. auto.
    + right. exists (S k), o'. rewrite Nat.add_succ_r. auto.
  - destruct (IH (S i) b) as [E|(k & o' & N & K & W)]; [left; exact E|]. right. exists (S k), o'. rewrite Nat.add_succ_r. auto.
Qed.

Lemma choose_least : forall l i b,
  (fst (choose c e look i l b) <= fst b /\ forall k o g, nth_error l k = Some (Some o) -> onpath c e look o g -> fst (choose c e look i l b) <= g)
  \/ exists k o, nth_error l k = Some (Some o) /\ infront c o /\ fst (choose c e look i l b) <= o_lon o.
Proof.
  induction l as [|[o|] r IH]; intros i b; cbn [choose].
  - left. split; [lra|]. intros [|k] o g N; discriminate N.
  - set (b1 := ahead c e look i o b). set (b2 := near c i o b1).
    destruct (IH (S i) b2) as [(L & A)|(k & o' & N & F & L)]; [|right; exists (S k), o'; auto].
    destruct (near_spec c i o b1) as [(F & _ & E2)|(_ & E2)]; fold b2 in E2.
    + right. exists 0%nat, o. rewrite E2 in L. split; [reflexivity|]. split; [exact F|]. rewrite E2. exact L.
    + left. assert (B : fst b1 <= fst b /\ forall g, onpath c e look o g -> fst b1 <= g).
      { destruct (ahead_spec c e look i o b) as [(g & O & L1 & E1)|(G & E1)]; fold b1 in E1; rewrite E1; cbn.
        - split; [lra|]. intros g' (d' & D' & _ & -> & _). destruct O as (d & D & _ & -> & _). rewrite D in D'. injection D' as <-. lra.
        - split; [lra|exact G]. }
      rewrite E2 in *. split; [lra|]. intros [|k] o' g N O; [injection N as <-; apply B in O; lra|exact (A k o' g N O)].
  - destruct (IH (S i) b) as [(L & A)|(k & o' & N & F & L)]; [|right; exists (S k), o'; auto].
    left. split; [exact L|]. intros [|k] o' g N O; [discriminate N|exact (A k o' g N O)].
Qed.

Lemma choose_keep : forall l i b, snd b <> None -> snd (choose c e look i l b) <> None.
Proof.
  induction l as [|[o|] r IH]; intros i b B; cbn [choose]; [exact B| |apply IH, B].
  apply IH. destruct (near_spec c i o (ahead c e look i o b)) as [(_ & _ & E)|(_ & E)]; rewrite E; [cbn; congruence|].
  destruct (ahead_spec c e look i o b) as [(g & _ & _ & E1)|(_ & E1)]; rewrite E1; [cbn; congruence|exact B].
Qed.

Lemma choose_seen : forall l i b, snd (choose c e look i l b) = None ->
  choose c e look i l b = b /\ forall k o, nth_error l k = Some (Some o) -> ~ infront c o /\ forall g, onpath c e look o g -> fst b <= g.
Proof.
  induction l as [|[o|] r IH]; intros i b B; cbn [choose] in *.
  - split; [reflexivity|]. intros [|k] o N; discriminate N.
  - set (b1 := ahead c e look i o b) in *. set (b2 := near c i o b1) in *.
    destruct (IH (S i) b2 B) as (E & A).
    destruct (near_spec c i o b1) as [(_ & _ & E2)|(NF & E2)]; fold b2 in E2; [rewrite E, E2 in B; discriminate B|].
    destruct (ahead_spec c e look i o b) as [(g & _ & _ & E1)|(G & E1)]; fold b1 in E1; [rewrite E, E2, E1 in B; discriminate B|].
    rewrite E2, E1 in *. split; [exact E|]. intros [|k] o' N; [|exact (A k o' N)]. injection N as <-. split; [|exact G].
    destruct NF as [NF|NF]; [exact NF|]. rewrite E in B. congruence.
  - destruct (IH (S i) b B) as (E & A). split; [exact E|]. intros [|k] o' N; [discriminate N|exact (A k o' N)].
Qed.

Lemma choose_none : forall l i b, (forall k o, nth_error l k = Some (Some o) -> ~ infront c o /\ forall g, ~ onpath c e look o g) -> choose c e look i l b = b.
Proof.
  induction l as [|[o|] r IH]; intros i b A; cbn [choose]; [reflexivity| |].
  - destruct (A 0%nat o eq_refl) as (NF & NO).
    destruct (ahead_spec c e look i o b) as [(g & O & _)|(_ & E1)]; [exfalso; exact (NO g O)|]. rewrite E1.
    destruct (near_spec c i o b) as [(F & _)|(_ & E2)]; [contradiction|]. rewrite E2.
    apply IH. intros k o' N. exact (A (S k) o' N).
  - apply IH. intros k o' N. exact (A (S k) o' N).
Qed.

Lemma choose_app : forall l l' i b, choose c e look i (l ++ l') b = choose c e look (i + length l) l' (choose c e look i l b).
Proof.
  induction l as [|[o|] r IH]; intros l' i b; cbn [choose app length]; [rewrite Nat.add_0_r; reflexivity| |];
    rewrite IH; f_equal; lia.
Qed.

Lemma choose_only : forall pre o post g, (forall o', In (Some o') (pre ++ post) -> ~ infront c o' /\ forall g', ~ onpath c e look o' g') ->
  onpath c e look o g -> g < LARGE_NUMBER -> choose c e look 0 (pre ++ Some o :: post) (LARGE_NUMBER, None) = (g, Some (length pre)).
Proof.
  intros pre o post g A O L. rewrite choose_app. cbn [choose].
  rewrite (choose_none pre). 2:{ intros k o' N. apply A, in_or_app. left. apply nth_error_In in N. exact N. }
  rewrite (choose_none post). 2:{ intros k o' N. apply A, in_or_app. right. apply nth_error_In in N. exact N. }
  cbn [Nat.add]. destruct (ahead_spec c e look (length pre) o (LARGE_NUMBER, None)) as [(g' & O' & _ & E1)|(G & _)].
  - rewrite E1. assert (g' = g) as -> by (destruct O as (d & D & _ & -> & _), O' as (d' & D' & _ & -> & _); rewrite D in D'; injection D' as <-; reflexivity).
    destruct (near_spec c (length pre) o (g, Some (length pre))) as [(_ & F & _)|(_ & E2)]; [cbn in F; congruence|exact E2].
  - specialize (G g O). cbn in G. lra.
Qed.

(** The first of those equally far. *)
Lemma choose_first : forall l i b, (forall k o, nth_error l k = Some (Some o) -> ~ infront c o) ->
  (choose c e look i l b = b /\ (forall k o g, nth_error l k = Some (Some o) -> onpath c e look o g -> fst b <= g))
  \/ exists k o g, nth_error l k = Some (Some o) /\ onpath c e look o g /\ g < fst b /\ choose c e look i l b = (g, Some (i + k)%nat)
     /\ (forall j o' g', nth_error l j = Some (Some o') -> onpath c e look o' g' -> g <= g' /\ ((j < k)%nat -> g < g')).
Proof.
  induction l as [|[o|] r IH]; intros i b A; cbn [choose].
  - left. split; [reflexivity|]. intros [|k] o g N; discriminate N.
  - assert (NF : ~ infront c o) by exact (A 0%nat o eq_refl).
    assert (AR : forall k o, nth_error r k = Some (Some o) -> ~ infront c o) by (intros k; exact (A (S k))).
    destruct (near_spec c i o (ahead c e look i o b)) as [(F & _)|(_ & E2)]; [contradiction|]. rewrite E2.
    destruct (ahead_spec c e look i o b) as [(g & O & L1 & E1)|(G & E1)]; rewrite E1.
    + assert (U : forall g', onpath c e look o g' -> g' = g)
        by (intros g' (d' & D' & _ & -> & _); destruct O as (d & D & _ & -> & _); rewrite D in D'; injection D' as <-; reflexivity).
      destruct (IH (S i) (g, Some i) AR) as [(E & M)|(k & o' & g' & N & O' & L2 & E & M)]; rewrite E; right.
      * exists 0%nat, o, g. rewrite Nat.add_0_r. split; [reflexivity|]. split; [exact O|]. split; [exact L1|]. split; [reflexivity|].
        intros [|j] o' g' N O'; [injection N as <-; rewrite (U g' O'); split; [lra|lia]|]. specialize (M j o' g' N O'). cbn in M. split; [exact M|lia].
      * exists (S k), o', g'. rewrite Nat.add_succ_r. cbn in L2. split; [exact N|]. split; [exact O'|]. split; [lra|]. split; [reflexivity|].
        intros [|j] o2 g2 N2 O2; [injection N2 as <-; rewrite (U g2 O2); split; [lra|intros _; exact L2]|].
        destruct (M j o2 g2 N2 O2) as (M1 & M2). split; [exact M1|]. intros H. apply M2. lia.
    + destruct (IH (S i) b AR) as [(E & M)|(k & o' & g' & N & O' & L2 & E & M)]; rewrite E.
      * left. split; [reflexivity|]. intros [|j] o' g' N O'; [injection N as <-; exact (G g' O')|exact (M j o' g' N O')].
      * right. exists (S k), o', g'. rewrite Nat.add_succ_r. split; [exact N|]. split; [exact O'|]. split; [exact L2|]. split; [reflexivity|].
        intros [|j] o2 g2 N2 O2; [injection N2 as <-; specialize (G g2 O2); split; [lra|intros _; lra]|].
        destruct (M j o2 g2 N2 O2) as (M1 & M2). split; [exact M1|]. intros H. apply M2. lia.
  - assert (AR : forall k o, nth_error r k = Some (Some o) -> ~ infront c o) by (intros k; exact (A (S k))).
    destruct (IH (S i) b AR) as [(E & M)|(k & o' & g' & N & O' & L2 & E & M)]; rewrite E.
    + left. split; [reflexivity|]. intros [|j] o' g' N O'; [discriminate N|exact (M j o' g' N O')].
    + right. exists (S k), o', g'. rewrite Nat.add_succ_r. split; [exact N|]. split; [exact O'|]. split; [exact L2|]. split; [reflexivity|].
      intros [|j] o2 g2 N2 O2; [discriminate N2|]. destruct (M j o2 g2 N2 O2) as (M1 & M2). split; [exact M1|]. intros H. apply M2. lia.
Qed.
End Choose.

(** ** Speeds *)
Lemma CLAMP_Rmin : forall x lo hi, CLAMP x lo hi = Rmin hi (Rmax lo x).
Proof. intros x lo hi. unfold CLAMP. rewrite MAX_Rmax, MIN_Rmin. reflexivity. Qed.

Lemma clamp_range : forall x lo hi, lo <= hi -> lo <= CLAMP x lo hi <= hi.
Proof. intros x lo hi H. rewrite CLAMP_Rmin. cases; lra. Qed.

Lemma follow_range : forall c e gap vl dt, 0 <= a_set c -> 0 <= snd (follow c e gap vl dt) <= a_set c.
Proof.
  intros c e gap vl dt H. unfold follow. destruct (Rltb gap 1); cbn [snd]; [lra|]. rewrite MIN_Rmin, MAX_Rmax. cases; lra.
Qed.

Lemma follow_rate : forall c e gap vl dt, 0 <= e_up e -> 0 <= e_down e -> 0 <= dt -> 1 <= gap -> 0 <= a_cur c <= a_set c ->
  - e_down e <= fst (follow c e gap vl dt) <= e_up e /\ - e_down e * dt <= snd (follow c e gap vl dt) - a_cur c <= e_up e * dt.
Proof.
  intros c e gap vl dt U D T G C. unfold follow. assert (F : Rltb gap 1 = false) by (apply Rltb_false; lra). rewrite F. cbn [fst snd].
  match goal with |- context [CLAMP ?x ?l ?h] => pose proof (clamp_range x l h ltac:(lra)) as R; set (a := CLAMP x l h) in * end.
  split; [exact R|]. rewrite MIN_Rmin, MAX_Rmax.
  assert (- e_down e * dt <= a * dt <= e_up e * dt) by (split; apply Rmult_le_compat_r; lra).
  assert (0 <= e_down e * dt) by (apply Rmult_le_pos; lra). assert (0 <= e_up e * dt) by (apply Rmult_le_pos; lra).
  cases; lra.
Qed.

(** The share of the error taken away in a step, when the limits allow it. *)
Definition share (e : ego) (dt : R) : R := 7 / 10 * e_up e * dt.

Lemma Rmin_scale : forall a b d, 0 <= d -> Rmin a b * d = Rmin (a * d) (b * d).
Proof.
  intros a b d D. destruct (Rle_dec a b) as [H|H].
  - rewrite !Rmin_left; [reflexivity| |exact H]. apply Rmult_le_compat_r; lra.
  - rewrite !Rmin_right; [reflexivity| |lra]. apply Rmult_le_compat_r; lra.
Qed.

(** The step of [cruise] in terms of the error. *)
Lemma cruise_up : forall c e dt, 0 < e_up e -> 0 < e_down e -> 0 < dt -> a_cur c <= a_set c ->
  let x := a_set c - a_cur c in
  fst (cruise c e dt) * dt = Rmin (share e dt * x) (share e dt)
  /\ snd (cruise c e dt) = (if Rltb x (Rabs (x - Rmin (share e dt * x) (share e dt))) then a_set c else a_cur c + Rmin (share e dt * x) (share e dt)).
Proof.
  intros c e dt U D T L x. unfold cruise. cbn [fst snd]. rewrite CLAMP_Rmin. unfold accelerationFactor.
  assert (0 <= x) by (unfold x; lra). fold x.
  assert (0 <= x * (7 / 10) * e_up e) by (apply Rmult_le_pos; [|lra]; lra).
  rewrite (Rmax_right (- e_down e)) by lra.
  assert (E : Rmin (7 / 10 * e_up e) (x * (7 / 10) * e_up e) * dt = Rmin (share e dt * x) (share e dt)).
  { unfold share. rewrite Rmin_scale, Rmin_comm by lra. f_equal. ring. }
  split; [exact E|]. rewrite E. rewrite (Rabs_left1 (a_cur c - a_set c)) by lra.
  replace (- (a_cur c - a_set c)) with x by (unfold x; ring).
  replace (a_cur c + Rmin (share e dt * x) (share e dt) - a_set c) with (- (x - Rmin (share e dt * x) (share e dt))) by (unfold x; ring).
  rewrite Rabs_Ropp. reflexivity.
Qed.

Lemma cruise_down : forall c e dt, 0 < e_up e -> 0 < e_down e -> 0 < dt -> a_set c <= a_cur c ->
  let x := a_cur c - a_set c in
  fst (cruise c e dt) * dt = - Rmin (share e dt * x) (e_down e * dt)
  /\ snd (cruise c e dt) = (if Rltb x (Rabs (x - Rmin (share e dt * x) (e_down e * dt))) then a_set c else a_cur c - Rmin (share e dt * x) (e_down e * dt)).
Proof.
  intros c e dt U D T L x. unfold cruise. cbn [fst snd]. rewrite CLAMP_Rmin. unfold accelerationFactor.
  assert (0 <= x) by (unfold x; lra). replace (a_set c - a_cur c) with (- x) by (unfold x; ring).
  assert (0 <= x * (7 / 10) * e_up e) by (apply Rmult_le_pos; [|lra]; lra).
  assert (0 < 7 / 10 * e_up e) by lra.
  replace (- x * (7 / 10) * e_up e) with (- (x * (7 / 10) * e_up e)) by ring.
  assert (E : Rmin (7 / 10 * e_up e) (Rmax (- e_down e) (- (x * (7 / 10) * e_up e))) * dt = - Rmin (share e dt * x) (e_down e * dt)).
  { rewrite (Rmin_right (7 / 10 * e_up e)) by (cases; lra).
    replace (Rmax (- e_down e) (- (x * (7 / 10) * e_up e))) with (- Rmin (x * (7 / 10) * e_up e) (e_down e)) by (cases; lra).
    rewrite <- Ropp_mult_distr_l, Rmin_scale by lra. f_equal. f_equal. unfold share. ring. }
  split; [exact E|]. rewrite E. fold x. rewrite (Rabs_right x) by lra.
  replace (a_cur c + - Rmin (share e dt * x) (e_down e * dt) - a_set c) with (x - Rmin (share e dt * x) (e_down e * dt)) by (unfold x; ring).
  destruct (Rltb x _); [reflexivity|ring].
Qed.

Lemma share_pos : forall e dt, 0 < e_up e -> 0 < dt -> 0 < share e dt.
Proof. intros e dt U T. unfold share. apply Rmult_lt_0_compat; [|exact T]. lra. Qed.

(** How far from the set speed after a step, from [x] away, taking [s] off. *)
Definition rest (x s : R) : R := if Rltb x (Rabs (x - s)) then 0 else Rabs (x - s).

(** The most a step can take off. *)
Definition most (c : acc) (e : ego) (dt : R) : R := if Rltb (a_cur c) (a_set c) then share e dt else e_down e * dt.

Lemma cruise_rest : forall c e dt, 0 < e_up e -> 0 < e_down e -> 0 < dt ->
  Rabs (snd (cruise c e dt) - a_set c) = rest (Rabs (a_cur c - a_set c)) (Rmin (share e dt * Rabs (a_cur c - a_set c)) (most c e dt)).
Proof.
  intros c e dt U D T. unfold most, rest. destruct (Rltb (a_cur c) (a_set c)) eqn:B.
  - apply Rltb_true in B. destruct (cruise_up c e dt U D T ltac:(lra)) as (_ & E). rewrite E. clear E.
    rewrite (Rabs_left1 (a_cur c - a_set c)) by lra. replace (- (a_cur c - a_set c)) with (a_set c - a_cur c) by ring.
    set (x := a_set c - a_cur c). set (s := Rmin _ _). destruct (Rltb x _); [replace (a_set c - a_set c) with 0 by ring; apply Rabs_R0|].
    replace (a_cur c + s - a_set c) with (- (x - s)) by (unfold x; ring). apply Rabs_Ropp.
  - apply Rltb_false in B. destruct (cruise_down c e dt U D T ltac:(lra)) as (_ & E). rewrite E. clear E.
    rewrite (Rabs_right (a_cur c - a_set c)) by lra.
    set (x := a_cur c - a_set c). set (s := Rmin _ _). destruct (Rltb x _); [replace (a_set c - a_set c) with 0 by ring; apply Rabs_R0|].
    f_equal. unfold x. ring.
Qed.

Lemma rest_le : forall x s, 0 <= x -> 0 <= rest x s <= x.
Proof.
  intros x s X. unfold rest. destruct (Rltb x (Rabs (x - s))) eqn:B; [lra|]. apply Rltb_false in B. pose proof (Rabs_pos (x - s)). lra.
Qed.

(** The error shrinks by a factor. *)
Lemma rest_factor : forall k m x b, 0 < k < 2 -> 0 < m -> 0 <= x <= b -> 0 < b ->
  rest x (Rmin (k * x) m) <= Rmax (k - 1) (1 - Rmin k (m / b)) * x.
Proof.
  intros k m x b K M X B.
  assert (Q : 0 <= Rmax (k - 1) (1 - Rmin k (m / b))).
  { destruct (Rle_dec 1 k); [apply Rle_trans with (k - 1); [lra|apply Rmax_l]|]. apply Rle_trans with (1 - Rmin k (m / b)); [|apply Rmax_r].
    pose proof (Rmin_l k (m / b)). lra. }
  unfold rest. destruct (Rltb x (Rabs (x - Rmin (k * x) m))) eqn:L; [apply Rmult_le_pos; lra|]. clear L.
  assert (P : m / b * x <= m).
  { apply Rle_trans with (m / b * b); [apply Rmult_le_compat_l; [|lra]; apply Rlt_le, Rdiv_lt_0_compat; lra|]. right. field. lra. }
  assert (LO : Rmin k (m / b) * x <= Rmin (k * x) m).
  { apply Rmin_glb.
    - apply Rmult_le_compat_r; [lra|apply Rmin_l].
    - apply Rle_trans with (m / b * x); [apply Rmult_le_compat_r; [lra|apply Rmin_r]|exact P]. }
  pose proof (Rmin_l (k * x) m) as HI. set (s := Rmin (k * x) m) in *.
  apply Rle_trans with (Rmax (k - 1) (1 - Rmin k (m / b)) * x); [|lra].
  apply Rabs_le. split.
  - apply Rle_trans with (- ((k - 1) * x)); [|lra]. apply Ropp_le_contravar, Rmult_le_compat_r; [lra|apply Rmax_l].
  - apply Rle_trans with ((1 - Rmin k (m / b)) * x); [lra|]. apply Rmult_le_compat_r; [lra|apply Rmax_r].
Qed.

Lemma factor_lt : forall k m b, 0 < k < 2 -> 0 < m -> 0 < b -> 0 <= Rmax (k - 1) (1 - Rmin k (m / b)) < 1.
Proof.
  intros k m b K M B. assert (0 < m / b) by (apply Rdiv_lt_0_compat; lra).
  assert (0 < Rmin k (m / b)) by (apply Rmin_glb_lt; lra). pose proof (Rmin_l k (m / b)). split.
  - destruct (Rle_dec 1 k); [apply Rle_trans with (k - 1); [lra|apply Rmax_l]|apply Rle_trans with (1 - Rmin k (m / b)); [lra|apply Rmax_r]].
  - apply Rmax_lub_lt; lra.
Qed.

Lemma shrink : forall (x : nat -> R) q, 0 <= q < 1 -> (forall n, 0 <= x n) -> (forall n, x (S n) <= q * x n) -> forall eps, 0 < eps -> exists N, forall n, (N <= n)%nat -> x n < eps.
Proof.
  intros x q Q X H eps EP.
  assert (P : forall n, x n <= q ^ n * x 0%nat).
  { induction n as [|n IH]; cbn [pow]; [lra|]. apply Rle_trans with (q * x n); [apply H|]. rewrite Rmult_assoc. apply Rmult_le_compat_l; lra. }
  assert (Y : 0 < eps / (x 0%nat + 1)) by (apply Rdiv_lt_0_compat; [lra|specialize (X 0%nat); lra]).
  destruct (pow_lt_1_zero q ltac:(rewrite Rabs_right; lra) _ Y) as (N & HN).
  exists N. intros n L. specialize (HN n L). specialize (P n). pose proof (X 0%nat).
  assert (0 <= q ^ n) by (apply pow_le; lra). rewrite Rabs_right in HN by lra.
  apply Rle_lt_trans with (q ^ n * (x 0%nat + 1)); [|].
  - apply Rle_trans with (1 := P). apply Rmult_le_compat_l; lra.
  - apply Rlt_le_trans with (eps / (x 0%nat + 1) * (x 0%nat + 1)); [apply Rmult_lt_compat_r; lra|]. right. field. lra.
Qed.

(** No overshoot when the share is at most all. *)
Lemma cruise_between : forall c e dt, 0 < e_up e -> 0 < e_down e -> 0 < dt -> share e dt <= 1 ->
  (a_cur c <= a_set c -> a_cur c <= snd (cruise c e dt) <= a_set c) /\ (a_set c <= a_cur c -> a_set c <= snd (cruise c e dt) <= a_cur c).
Proof.
  intros c e dt U D T K. pose proof (share_pos e dt U T). split; intros L.
  - destruct (cruise_up c e dt U D T L) as (_ & E). rewrite E. clear E. set (x := a_set c - a_cur c).
    assert (0 <= x) by (unfold x; lra). pose proof (Rmin_l (share e dt * x) (share e dt)).
    assert (0 <= Rmin (share e dt * x) (share e dt)) by (apply Rmin_glb; [apply Rmult_le_pos|]; lra).
    assert (share e dt * x <= x) by nra.
    destruct (Rltb x _); unfold x in *; lra.
  - destruct (cruise_down c e dt U D T L) as (_ & E). rewrite E. clear E. set (x := a_cur c - a_set c).
    assert (0 <= x) by (unfold x; lra). pose proof (Rmin_l (share e dt * x) (e_down e * dt)).
    assert (0 <= e_down e * dt) by (apply Rmult_le_pos; lra).
    assert (0 <= Rmin (share e dt * x) (e_down e * dt)) by (apply Rmin_glb; [apply Rmult_le_pos|]; lra).
    assert (share e dt * x <= x) by nra.
    destruct (Rltb x _); unfold x in *; lra.
Qed.

Lemma cruise_rate : forall c e dt, 0 < e_up e -> 0 < e_down e -> 0 < dt ->
  - e_down e * dt <= snd (cruise c e dt) - a_cur c <= 7 / 10 * e_up e * dt.
Proof.
  intros c e dt U D T. pose proof (share_pos e dt U T) as K. assert (DT : 0 < e_down e * dt) by (apply Rmult_lt_0_compat; lra).
  fold (share e dt). destruct (Rle_dec (a_cur c) (a_set c)) as [L|L].
  - destruct (cruise_up c e dt U D T L) as (_ & E). rewrite E. clear E. set (x := a_set c - a_cur c).
    assert (X : 0 <= x) by (unfold x; lra). set (s := Rmin (share e dt * x) (share e dt)).
    assert (S0 : 0 <= s) by (apply Rmin_glb; [apply Rmult_le_pos|]; lra). assert (S1 : s <= share e dt) by apply Rmin_r.
    destruct (Rltb x (Rabs (x - s))) eqn:B; [|lra]. apply Rltb_true in B.
    assert (x < s) by (destruct (Rle_dec s x); [rewrite Rabs_right in B; lra|lra]). fold x. lra.
  - destruct (cruise_down c e dt U D T ltac:(lra)) as (_ & E). rewrite E. clear E. set (x := a_cur c - a_set c).
    assert (X : 0 <= x) by (unfold x; lra). set (s := Rmin (share e dt * x) (e_down e * dt)).
    assert (S0 : 0 <= s) by (apply Rmin_glb; [apply Rmult_le_pos|]; lra). assert (S1 : s <= e_down e * dt) by apply Rmin_r.
    destruct (Rltb x (Rabs (x - s))) eqn:B; [|lra]. apply Rltb_true in B.
    assert (x < s) by (destruct (Rle_dec s x); [rewrite Rabs_right in B; lra|lra]). replace (a_set c - a_cur c) with (- x) by (unfold x; ring). lra.
Qed.

(** ** Steps *)
Lemma Step_inv : forall c0 e l dt c' f, Step c0 e l dt = Some (c', f) ->
  let c := notice c0 e in
  a_timeGap c' = a_timeGap c /\ a_set c' = a_set c /\ a_lat c' = a_lat c /\ a_virtual c' = a_virtual c /\ a_override c' = a_override c
  /\ f_sensor f = snd (lead c e l)
  /\ exists a, f_acc f = (if a_virtual c then Some (RotateVec2D a 0 (e_h e)) else None)
     /\ f_speed f = (if a_virtual c then None else Some (a_cur c')) /\ f_move f = (if a_override c && negb (a_virtual c) then Some (a_cur c' * dt) else None)
     /\ ((snd (lead c e l) = None /\ (a, a_cur c') = cruise c e dt)
         \/ exists k o, snd (lead c e l) = Some k /\ nth_error l k = Some (Some o) /\ (a, a_cur c') = follow c e (fst (lead c e l)) (o_speed o) dt).
Proof.
  intros c0 e l dt c' f H c. unfold Step in H. fold c in H. destruct (snd (lead c e l)) as [k|] eqn:K.
  - destruct (nth_error l k) as [[o|]|] eqn:N; try discriminate H.
    destruct (follow c e (fst (lead c e l)) (o_speed o) dt) as [a v] eqn:F. injection H as <- <-. cbn.
    repeat split. exists a. repeat split. right. exists k, o. rewrite F. auto.
  - destruct (cruise c e dt) as [a v] eqn:F. injection H as <- <-. cbn. repeat split. exists a. repeat split. left. auto.
Qed.

Lemma Step_total : forall c0 e l dt, Step c0 e l dt <> None.
Proof.
  intros c0 e l dt. unfold Step. set (c := notice c0 e). destruct (snd (lead c e l)) as [k|] eqn:K; [|destruct (cruise c e dt); discriminate].
  unfold lead in K. destruct (choose_from c e (lookaheadDist c e) l 0 (LARGE_NUMBER, None)) as [E|(k' & o & N & K' & _)]; [rewrite E in K; discriminate K|].
  rewrite K in K'. injection K' as ->. cbn [Nat.add]. rewrite N. destruct (follow _ _ _ _ _). discriminate.
Qed.

Lemma notice_same : forall c e, a_virtual c = false -> e_speed e = a_cur c -> notice c e = c.
Proof.
  intros c e V E. unfold notice. rewrite V, E. replace (a_cur c - a_cur c) with 0 by ring. rewrite Rabs_R0.
  destruct (Rltb (1 / 1000) 0) eqn:B; [apply Rltb_true in B; lra|reflexivity].
Qed.

Section Run.
(** A run: nobody else sets the speed of the object, anything else may change from step to step. *)
Variables (s : nat -> acc) (e : nat -> ego) (l : nat -> list (option other)) (f : nat -> effect) (dt : nat -> R).
Hypothesis run : forall n, Step (s n) (e n) (l n) (dt n) = Some (s (S n), f n).
Hypothesis alone : forall n, e_speed (e n) = a_cur (s n).
Hypothesis real : a_virtual (s 0%nat) = false.
Hypothesis limits : forall n, 0 < e_up (e n) /\ 0 < e_down (e n) /\ 0 < dt n.

Lemma run_inv : forall n, a_virtual (s n) = false /\ a_set (s n) = a_set (s 0%nat) /\ notice (s n) (e n) = s n.
Proof.
  induction n as [|n (V & E & N)]; [repeat split; [exact real|apply notice_same; [exact real|apply alone]]|].
  destruct (Step_inv _ _ _ _ _ _ (run n)) as (_ & E' & _ & V' & _). rewrite N in E', V'.
  assert (a_virtual (s (S n)) = false) by congruence. repeat split; [assumption|congruence|apply notice_same; [assumption|apply alone]].
Qed.

Lemma run_next : forall n, (snd (lead (s n) (e n) (l n)) = None /\ a_cur (s (S n)) = snd (cruise (s n) (e n) (dt n)))
  \/ exists k o, snd (lead (s n) (e n) (l n)) = Some k /\ nth_error (l n) k = Some (Some o)
     /\ a_cur (s (S n)) = snd (follow (s n) (e n) (fst (lead (s n) (e n) (l n))) (o_speed o) (dt n)).
Proof.
  intros n. destruct (run_inv n) as (_ & _ & N). destruct (Step_inv _ _ _ _ _ _ (run n)) as (_ & _ & _ & _ & _ & _ & a & _ & _ & _ & W). rewrite N in W.
  destruct W as [(K & W)|(k & o & K & NE & W)]; [left|right; exists k, o]; rewrite <- W; auto.
Qed.

Lemma run_range : (forall n, share (e n) (dt n) <= 1) -> 0 <= a_cur (s 0%nat) <= a_set (s 0%nat) -> forall n, 0 <= a_cur (s n) <= a_set (s 0%nat).
Proof.
  intros K I. induction n as [|n IH]; [exact I|]. destruct (run_inv n) as (_ & E & _). destruct (limits n) as (U & D & T).
  destruct (run_next n) as [(_ & W)|(k & o & _ & _ & W)]; rewrite W.
  - destruct (cruise_between (s n) (e n) (dt n) U D T (K n)) as (B & _). specialize (B ltac:(lra)). lra.
  - rewrite <- E. apply follow_range. lra.
Qed.
End Run.
