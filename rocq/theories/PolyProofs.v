(** Laws of trajectories along polylines. *)
From Verif Require Import QAux LaneModel PolyModel.
From Coq Require Import PeanoNat.
Local Open Scope nat_scope.
Local Open Scope Q_scope.

(** ** What is expected *)

(** The s values do not decrease. *)
Definition sorted_s (l : list vertex) : Prop :=
  forall i u v, nth_error l i = Some u -> nth_error l (S i) = Some v -> v_s u <= v_s v.
(** The times do not decrease. *)
Definition sorted_t (l : list vertex) : Prop :=
  forall i u v, nth_error l i = Some u -> nth_error l (S i) = Some v -> v_time u <= v_time v.
(** The last vertex. *)
Definition last_vertex (l : list vertex) (v : vertex) : Prop := nth_error l (List.length l - 1) = Some v.
(** A point with weight [a] between two vertices. *)
Definition between (a : Q) (u w v : vertex) : Prop :=
  v_x v == (1 - a) * v_x u + a * v_x w /\ v_y v == (1 - a) * v_y u + a * v_y w /\ v_z v == (1 - a) * v_z u + a * v_z w /\
  v_time v == (1 - a) * v_time u + a * v_time w /\ v_speed v == (1 - a) * v_speed u + a * v_speed w /\
  v_acc v == (1 - a) * v_acc u + a * v_acc w /\ v_param v == (1 - a) * v_param u + a * v_param w /\
  v_wheel v == (1 - a) * v_wheel u + a * v_wheel w /\ v_road v = v_road u /\ v_htrue v = v_htrue u /\ v_mode v = v_mode u.

(** ** Lookup *)

Lemma s_at_some l i v : nth_error l i = Some v -> s_at l i = v_s v.
Proof. unfold s_at. intros ->. reflexivity. Qed.
Lemma t_at_some l i v : nth_error l i = Some v -> t_at l i = v_time v.
Proof. unfold t_at. intros ->. reflexivity. Qed.

Lemma nth_lt {A} (l : list A) i : (i < List.length l)%nat -> exists v, nth_error l i = Some v.
Proof. intro H. destruct (nth_error l i) eqn:E; eauto. apply nth_error_None in E. lia. Qed.

Lemma sorted_le l i j : sorted_s l -> (i <= j)%nat -> (j < List.length l)%nat -> s_at l i <= s_at l j.
Proof.
  intros S L. induction L as [|j L IH]; intro B; [lra|].
  assert (s_at l i <= s_at l j) by (apply IH; lia).
  destruct (nth_lt l j) as [u U]; [lia|]. destruct (nth_lt l (Datatypes.S j) B) as [v V].
  pose proof (S j u v U V). rewrite (s_at_some _ _ _ U) in *. rewrite (s_at_some _ _ _ V). lra.
Qed.
Lemma sorted_t_le l i j : sorted_t l -> (i <= j)%nat -> (j < List.length l)%nat -> t_at l i <= t_at l j.
Proof.
  intros S L. induction L as [|j L IH]; intro B; [lra|].
  assert (t_at l i <= t_at l j) by (apply IH; lia).
  destruct (nth_lt l j) as [u U]; [lia|]. destruct (nth_lt l (Datatypes.S j) B) as [v V].
  pose proof (S j u v U V). rewrite (t_at_some _ _ _ U) in *. rewrite (t_at_some _ _ _ V). lra.
Qed.

Lemma s_fwd_spec l s n : forall i, (i < List.length l)%nat -> (List.length l <= i + n)%nat -> s_at l i + SMALL < s ->
  let j := s_fwd l s n i in
  (i <= j < List.length l)%nat /\ s_at l j + SMALL < s /\ (j = (List.length l - 1)%nat \/ s <= s_at l (S j) + SMALL).
Proof.
  induction n as [|n IH]; intros i B F C; cbn [s_fwd].
  - lia.
  - destruct (Nat.ltb_spec i (List.length l - 1)); cbn [andb].
    + destruct (Qltb_spec (s_at l (S i) + SMALL) s) as [X|X].
      * destruct (IH (S i)) as (P & Q & R); [lia|lia|auto|]. repeat split; auto; lia.
      * repeat split; auto. right. lra.
    + repeat split; auto. left. lia.
Qed.

Lemma s_bwd_spec l s : forall i, let j := s_bwd l s i in
  (j <= i)%nat /\ (j = 0%nat \/ s_at l j + SMALL <= s) /\ (j = i \/ s < s_at l (S j) + SMALL).
Proof.
  induction i as [|i IH]; cbn [s_bwd]; [repeat split; auto|].
  destruct (Qltb_spec s (s_at l (S i) + SMALL)) as [X|X].
  - destruct IH as (P & R & T). repeat split; auto. right. destruct T as [T|T]; [rewrite T; auto | auto].
  - repeat split; auto. right. lra.
Qed.

(** The index found. *)
Definition found (l : list vertex) (s : Q) (i : nat) : Prop :=
  (S i < List.length l)%nat /\ (i = 0%nat \/ s_at l i + SMALL <= s) /\ s <= s_at l (S i) + SMALL.

Lemma find_end p s h : s_at (vertex_ p) (List.length (vertex_ p) - 1) - SMALL < s ->
  find_segment p s h = ((List.length (vertex_ p) - 1)%nat, length_ p).
Proof. intro H. unfold find_segment. apply Qltb_lt in H. rewrite H. reflexivity. Qed.

Lemma find_found p s h i s' : sorted_s (vertex_ p) -> (2 <= List.length (vertex_ p))%nat ->
  s <= s_at (vertex_ p) (List.length (vertex_ p) - 1) - SMALL -> find_segment p s h = (i, s') -> s' = s /\ found (vertex_ p) s i.
Proof.
  intros So B E. unfold find_segment. destruct (Qltb_spec (s_at (vertex_ p) (List.length (vertex_ p) - 1) - SMALL) s) as [X|X]; [lra|].
  set (l := vertex_ p) in *. pose proof SMALL_pos as SP.
  set (k := match h with Some i => Nat.min i (List.length l - 1) | None => (List.length l - 1)%nat end).
  assert (K: (k < List.length l)%nat) by (unfold k; destruct h; lia). clearbody k. clearbody l.
  destruct (Qltb_spec (s_at l k + SMALL) s) as [C|C].
  - intro F. injection F as F1 F2. subst s'. split; auto.
    destruct (s_fwd_spec l s (List.length l) k K ltac:(lia) C) as (P & Q & R). rewrite F1 in *.
    assert (i <> (List.length l - 1)%nat) by (intros ->; lra).
    split; [lia|]. split; [right; lra|]. destruct R; [contradiction|auto].
  - destruct (Qltb_spec s (s_at l k + SMALL)) as [D|D].
    + intro F. injection F as F1 F2. subst s'. split; auto.
      destruct (s_bwd_spec l s k) as (P & Q & R). rewrite F1 in *.
      assert (S i < List.length l)%nat.
      { destruct (Nat.eq_dec i (List.length l - 1)) as [->|]; [|lia]. destruct Q as [Q|Q]; [lia|lra]. }
      split; auto. split; auto. destruct R as [R|R]; [|lra]. subst k.
      pose proof (sorted_le l i (S i) So ltac:(lia) ltac:(lia)). lra.
    + intro F. injection F as F1 F2. subst s' i. split; auto.
      assert (S k < List.length l)%nat. { destruct (Nat.eq_dec k (List.length l - 1)) as [->|]; [lra|lia]. }
      split; auto. split; [right; lra|]. pose proof (sorted_le l k (S k) So ltac:(lia) ltac:(lia)). lra.
Qed.

Lemma found_unique l s i j : sorted_s l -> (forall k v, nth_error l k = Some v -> ~ s == v_s v + SMALL) -> found l s i -> found l s j -> i = j.
Proof.
  intros So N (A1 & A2 & A3) (B1 & B2 & B3).
  assert (forall i j, (i < j)%nat -> (S j < List.length l)%nat -> (j = 0%nat \/ s_at l j + SMALL <= s) -> s <= s_at l (S i) + SMALL -> False).
  { clear - So N. intros i j L B [C|C] D; [lia|]. pose proof (sorted_le l (S i) j So ltac:(lia) ltac:(lia)).
    destruct (nth_lt l j) as [v V]; [lia|]. apply (N j v V). rewrite (s_at_some _ _ _ V) in *. lra. }
  destruct (Nat.lt_trichotomy i j) as [L|[L|L]]; auto; exfalso; eauto.
Qed.

Lemma find_s p s h i s' : s <= s_at (vertex_ p) (List.length (vertex_ p) - 1) - SMALL -> find_segment p s h = (i, s') -> s' = s.
Proof.
  intro E. unfold find_segment. destruct (Qltb_spec (s_at (vertex_ p) (List.length (vertex_ p) - 1) - SMALL) s) as [X|X]; [lra|].
  destruct (Qltb _ _); [|destruct (Qltb _ _)]; intro F; apply (f_equal snd) in F; cbn [snd] in F; congruence.
Qed.

(** ** Evaluation *)

Section Angles.
Variable norm : Q -> Q.
Variable diff : Q -> Q -> Q.

Lemma clamp_bounds x lo hi : lo <= hi -> lo <= CLAMP x lo hi <= hi.
Proof. intro. unfold CLAMP, MIN, MAX. destruct (Qltb_spec lo x); destruct (Qltb_spec x hi); destruct (Qltb_spec lo hi); lra. Qed.
Lemma clamp_id x lo hi : lo <= x <= hi -> CLAMP x lo hi == x.
Proof. intro. unfold CLAMP, MIN, MAX. destruct (Qltb_spec lo x); destruct (Qltb_spec x hi); destruct (Qltb_spec lo hi); lra. Qed.
Lemma clamp_lo x lo hi : lo <= hi -> x <= lo -> CLAMP x lo hi == lo.
Proof. intros. unfold CLAMP, MIN, MAX. destruct (Qltb_spec lo x); destruct (Qltb_spec x hi); destruct (Qltb_spec lo hi); lra. Qed.
Lemma clamp_hi x lo hi : lo <= hi -> hi <= x -> CLAMP x lo hi == hi.
Proof. intros. unfold CLAMP, MIN, MAX. destruct (Qltb_spec lo x); destruct (Qltb_spec x hi); destruct (Qltb_spec lo hi); lra. Qed.

Lemma segment_last p i ls u : nth_error (vertex_ p) i = Some u -> nth_error (vertex_ p) (S i) = None ->
  EvaluateSegmentByLocalS norm diff p i ls = Some u.
Proof. intros U W. unfold EvaluateSegmentByLocalS. rewrite U, W. reflexivity. Qed.

(** The weight of the second vertex. *)
Definition weight (u w : vertex) (ls : Q) : Q :=
  let len := MAX (v_s w - v_s u) SMALL in CLAMP ls 0 len / len.

Lemma max_pos x : 0 < MAX x SMALL.
Proof. pose proof SMALL_pos. unfold MAX. destruct (Qltb_spec x SMALL); lra. Qed.
Lemma max_big x : SMALL <= x -> MAX x SMALL == x.
Proof. unfold MAX. destruct (Qltb_spec x SMALL); lra. Qed.

Lemma weight_bounds u w ls : 0 <= weight u w ls <= 1.
Proof.
  unfold weight. pose proof (max_pos (v_s w - v_s u)) as P. set (len := MAX _ _) in *. clearbody len.
  pose proof (clamp_bounds ls 0 len ltac:(lra)) as [A B].
  split; [apply Qle_shift_div_l; lra | apply Qle_shift_div_r; lra].
Qed.
Lemma weight_lo u w ls : ls <= 0 -> weight u w ls == 0.
Proof.
  intro. unfold weight. pose proof (max_pos (v_s w - v_s u)) as P. set (len := MAX _ _) in *. clearbody len.
  rewrite (clamp_lo ls 0 len) by lra. field. lra.
Qed.
Lemma weight_hi u w ls : SMALL <= v_s w - v_s u -> v_s w - v_s u <= ls -> weight u w ls == 1.
Proof.
  intros. unfold weight. pose proof (max_pos (v_s w - v_s u)) as P. pose proof (max_big (v_s w - v_s u) ltac:(lra)). set (len := MAX _ _) in *. clearbody len.
  rewrite (clamp_hi ls 0 len) by lra. field. lra.
Qed.
Lemma weight_mid u w ls : SMALL <= v_s w - v_s u -> 0 <= ls <= v_s w - v_s u -> weight u w ls * (v_s w - v_s u) == ls.
Proof.
  intros. unfold weight. pose proof (max_pos (v_s w - v_s u)) as P. pose proof (max_big (v_s w - v_s u) ltac:(lra)) as E. set (len := MAX _ _) in *. clearbody len.
  rewrite (clamp_id ls 0 len) by lra. rewrite <- E. field. lra.
Qed.

Lemma segment_between p i ls u w : nth_error (vertex_ p) i = Some u -> nth_error (vertex_ p) (S i) = Some w ->
  exists v, EvaluateSegmentByLocalS norm diff p i ls = Some v /\ between (weight u w ls) u w v.
Proof.
  intros U W. unfold EvaluateSegmentByLocalS. rewrite U, W. eexists. split; [reflexivity|].
  unfold between, mix, weight. cbn [v_x v_y v_z v_time v_speed v_acc v_param v_wheel v_road v_htrue v_mode]. repeat split; reflexivity.
Qed.

Lemma with_s_between a u w v s : between a u w v -> between a u w (with_s s v).
Proof. intro H. exact H. Qed.

Lemma nonempty_length {A} (l : list A) : l <> [] -> (0 < List.length l)%nat.
Proof. destruct l; [congruence|cbn; lia]. Qed.

Lemma find_index_lt p s h i s' : vertex_ p <> [] -> find_segment p s h = (i, s') -> (i < List.length (vertex_ p))%nat.
Proof.
  intros NE. pose proof (nonempty_length _ NE) as B. unfold find_segment. set (l := vertex_ p) in *.
  set (k := match h with Some i => Nat.min i (List.length l - 1) | None => (List.length l - 1)%nat end).
  assert (K: (k < List.length l)%nat) by (unfold k; destruct h; lia). clearbody k.
  destruct (Qltb _ _). { intro F. injection F as <- _. lia. }
  destruct (Qltb_spec (s_at l k + SMALL) s) as [C|C].
  - intro F. injection F as F _. destruct (s_fwd_spec l s (List.length l) k K ltac:(lia) C) as (P & _). lia.
  - destruct (Qltb _ _); intro F; injection F as F _; [|lia]. destruct (s_bwd_spec l s k) as (P & _). lia.
Qed.

Lemma eval_total p s pos h : vertex_ p <> [] ->
  exists i v, Evaluate norm diff p s pos h = Some (Some i, v, PLine (vertex_ p) i (length_ p) (interpolation_mode_ p)) /\ (i < List.length (vertex_ p))%nat.
Proof.
  intro NE. unfold Evaluate. destruct (find_segment p s h) as [i s'] eqn:F. pose proof (find_index_lt p s h i s' NE F) as B.
  destruct (vertex_ p) as [|v0 r] eqn:EV; [congruence|]. rewrite <- EV in *.
  destruct (nth_lt _ _ B) as [u U]. unfold EvaluateSegmentByLocalS. rewrite U.
  destruct (nth_error (vertex_ p) (S i)); eexists _, _; (split; [reflexivity|auto]).
Qed.

(** [Evaluate] once the segment is known. *)
Lemma eval_unfold p s pos h i s' : vertex_ p <> [] -> find_segment p s h = (i, s') ->
  Evaluate norm diff p s pos h =
    match EvaluateSegmentByLocalS norm diff p i (s' - s_at (vertex_ p) i) with
    | None => None
    | Some v => Some (Some i, with_s s' v, PLine (vertex_ p) i (length_ p) (interpolation_mode_ p))
    end.
Proof. intros NE F. unfold Evaluate. destruct (vertex_ p) as [|v0 r] eqn:EV; [congruence|]. rewrite F. reflexivity. Qed.

Lemma last_nonempty l e : last_vertex l e -> l <> [].
Proof. unfold last_vertex. destruct l; cbn; congruence. Qed.

Lemma eval_end p s pos h e : last_vertex (vertex_ p) e -> v_s e - SMALL < s ->
  Evaluate norm diff p s pos h = Some (Some (List.length (vertex_ p) - 1)%nat, with_s (length_ p) e,
    PLine (vertex_ p) (List.length (vertex_ p) - 1) (length_ p) (interpolation_mode_ p)).
Proof.
  intros L E. pose proof (last_nonempty _ _ L) as NE. pose proof (nonempty_length _ NE) as B.
  assert (F: find_segment p s h = ((List.length (vertex_ p) - 1)%nat, length_ p)). { apply find_end. rewrite (s_at_some _ _ _ L). auto. }
  rewrite (eval_unfold _ _ _ _ _ _ NE F). rewrite (segment_last p _ _ e L); auto.
  apply nth_error_None. lia.
Qed.

Lemma eval_segment p s pos h e : sorted_s (vertex_ p) -> (2 <= List.length (vertex_ p))%nat -> last_vertex (vertex_ p) e -> s <= v_s e - SMALL ->
  exists i u w v a,
    Evaluate norm diff p s pos h = Some (Some i, v, PLine (vertex_ p) i (length_ p) (interpolation_mode_ p)) /\
    nth_error (vertex_ p) i = Some u /\ nth_error (vertex_ p) (S i) = Some w /\
    (i = 0%nat \/ v_s u + SMALL <= s) /\ s <= v_s w + SMALL /\ v_s v = s /\ 0 <= a <= 1 /\ between a u w v /\
    (s <= v_s u -> a == 0) /\ (SMALL <= v_s w - v_s u -> v_s w <= s -> a == 1) /\
    (SMALL <= v_s w - v_s u -> v_s u <= s <= v_s w -> a * (v_s w - v_s u) == s - v_s u).
Proof.
  intros So B L E. pose proof (last_nonempty _ _ L) as NE. destruct (find_segment p s h) as [i s'] eqn:F.
  destruct (find_found p s h i s' So B) as (-> & C1 & C2 & C3); auto. { rewrite (s_at_some _ _ _ L). auto. }
  destruct (nth_lt (vertex_ p) i) as [u U]; [lia|]. destruct (nth_lt (vertex_ p) (S i) C1) as [w W].
  destruct (segment_between p i (s - s_at (vertex_ p) i) u w U W) as (v & V & Bt).
  rewrite (s_at_some _ _ _ U) in *. rewrite (s_at_some _ _ _ W) in *.
  exists i, u, w, (with_s s v), (weight u w (s - v_s u)).
  split. { rewrite (eval_unfold _ _ _ _ _ _ NE F), (s_at_some _ _ _ U), V. reflexivity. }
  split; auto. split; auto. split; auto. split; auto. split; auto.
  split; [apply weight_bounds|]. split; [apply with_s_between; auto|].
  split; [intro; apply weight_lo; lra|]. split; [intros; apply weight_hi; lra|]. intros. apply weight_mid; lra.
Qed.

Lemma eval_hint p s pos h1 h2 : sorted_s (vertex_ p) ->
  (forall k v, nth_error (vertex_ p) k = Some v -> ~ s == v_s v + SMALL) ->
  Evaluate norm diff p s pos h1 = Evaluate norm diff p s pos h2.
Proof.
  intros So N. destruct (vertex_ p) as [|v0 r] eqn:EV; [unfold Evaluate; rewrite EV; reflexivity|]. rewrite <- EV in *.
  assert (NE: vertex_ p <> []) by (rewrite EV; discriminate). pose proof (nonempty_length _ NE) as B.
  enough (Fe: find_segment p s h1 = find_segment p s h2).
  { destruct (find_segment p s h2) as [i s'] eqn:F2. rewrite (eval_unfold _ _ _ _ _ _ NE Fe), (eval_unfold _ _ _ _ _ _ NE F2). reflexivity. }
  destruct (Qlt_le_dec (s_at (vertex_ p) (List.length (vertex_ p) - 1) - SMALL) s) as [X|X].
  - rewrite !find_end; auto.
  - destruct (find_segment p s h1) as [i s1] eqn:F1, (find_segment p s h2) as [j s2] eqn:F2.
    destruct (Nat.eq_dec (List.length (vertex_ p)) 1) as [L1|L1].
    + pose proof (find_index_lt _ _ _ _ _ NE F1). pose proof (find_index_lt _ _ _ _ _ NE F2).
      assert (i = 0%nat /\ j = 0%nat) as (-> & ->) by lia. f_equal.
      rewrite (find_s _ _ _ _ _ X F1), (find_s _ _ _ _ _ X F2). reflexivity.
    + destruct (find_found p s h1 i s1 So ltac:(lia) X F1) as (-> & A1). destruct (find_found p s h2 j s2 So ltac:(lia) X F2) as (-> & A2).
      f_equal. eapply found_unique; eauto.
Qed.

(** At a vertex apart from its neighbours. *)
Definition apart (l : list vertex) (k : nat) : Prop :=
  (forall u v, k <> 0%nat -> nth_error l (k - 1) = Some u -> nth_error l k = Some v -> v_s u + SMALL < v_s v) /\
  (forall u v, nth_error l k = Some u -> nth_error l (S k) = Some v -> v_s u + SMALL < v_s v).

(** Position and motion of a vertex. *)
Definition same_place (v w : vertex) : Prop :=
  v_x v == v_x w /\ v_y v == v_y w /\ v_z v == v_z w /\ v_time v == v_time w /\ v_speed v == v_speed w /\ v_acc v == v_acc w /\
  v_param v == v_param w /\ v_wheel v == v_wheel w.

Lemma between_0 a u w v : between a u w v -> a == 0 -> same_place v u.
Proof. unfold between, same_place. intros (A & B & C & D & E & F & G & H & _) Z. setoid_rewrite A; setoid_rewrite B; setoid_rewrite C; setoid_rewrite D; setoid_rewrite E; setoid_rewrite F; setoid_rewrite G; setoid_rewrite H. rewrite !Z. repeat split; ring. Qed.
Lemma between_1 a u w v : between a u w v -> a == 1 -> same_place v w.
Proof. unfold between, same_place. intros (A & B & C & D & E & F & G & H & _) Z. setoid_rewrite A; setoid_rewrite B; setoid_rewrite C; setoid_rewrite D; setoid_rewrite E; setoid_rewrite F; setoid_rewrite G; setoid_rewrite H. rewrite !Z. repeat split; ring. Qed.

Lemma same_place_refl v : same_place v v.
Proof. unfold same_place. repeat split; reflexivity. Qed.

Lemma eval_first p s pos h v0 : sorted_s (vertex_ p) -> nth_error (vertex_ p) 0 = Some v0 -> s <= v_s v0 ->
  ((2 <= List.length (vertex_ p))%nat -> forall e, last_vertex (vertex_ p) e -> s <= v_s e - SMALL) ->
  exists i v p', Evaluate norm diff p s pos h = Some (Some i, v, p') /\ i = 0%nat /\ same_place v v0.
Proof.
  intros So V0 E Far. assert (NE: vertex_ p <> []) by (intro X; rewrite X in V0; discriminate).
  pose proof (nonempty_length _ NE) as B. pose proof SMALL_pos as SP.
  destruct (Nat.eq_dec (List.length (vertex_ p)) 1) as [L1|L1].
  - destruct (eval_total p s pos h NE) as (i & v & Ev & Bi). assert (i = 0%nat) by lia. subst i.
    revert Ev. destruct (find_segment p s h) as [j s'] eqn:F. rewrite (eval_unfold _ _ _ _ _ _ NE F).
    pose proof (find_index_lt _ _ _ _ _ NE F). assert (j = 0%nat) by lia. subst j.
    rewrite (segment_last p 0 _ v0 V0) by (apply nth_error_None; lia). intro Ev. eexists _, _, _. split; [reflexivity|]. split; auto; exact (same_place_refl v0).
  - destruct (nth_lt (vertex_ p) (List.length (vertex_ p) - 1) ltac:(lia)) as [e L].
    destruct (eval_segment p s pos h e So ltac:(lia) L (Far ltac:(lia) e L)) as (i & u & w & v & a & Ev & U & W & Lo & Hi & _ & _ & Bt & A0 & _).
    assert (i = 0%nat).
    { destruct Lo as [|Lo]; auto. pose proof (sorted_le (vertex_ p) 0 i So ltac:(lia)) as X.
      assert (i < List.length (vertex_ p))%nat by (apply nth_error_Some; congruence). specialize (X ltac:(auto)).
      rewrite (s_at_some _ _ _ V0), (s_at_some _ _ _ U) in X. lra. }
    subst i. assert (u = v0) by congruence. subst u.
    exists 0%nat, v, (PLine (vertex_ p) 0 (length_ p) (interpolation_mode_ p)). split; auto. split; auto. eapply between_0; eauto.
Qed.

Lemma eval_vertex p s pos h k vk : s == v_s vk -> sorted_s (vertex_ p) -> apart (vertex_ p) k -> nth_error (vertex_ p) k = Some vk ->
  exists i v p', Evaluate norm diff p s pos h = Some (Some i, v, p') /\ same_place v vk.
Proof.
  intros Es So (Ap1 & Ap2) Vk. assert (NE: vertex_ p <> []) by (intro X; rewrite X in Vk; destruct k; discriminate).
  assert (Bk: (k < List.length (vertex_ p))%nat) by (apply nth_error_Some; congruence). pose proof SMALL_pos as SP.
  destruct (nth_lt (vertex_ p) (List.length (vertex_ p) - 1) ltac:(lia)) as [e L].
  destruct (Nat.eq_dec k (List.length (vertex_ p) - 1)) as [Ek|Nk].
  - assert (e = vk) by congruence. subst e. rewrite (eval_end p s pos h vk L) by lra. eexists _, _, _. split; [reflexivity|]; exact (same_place_refl vk).
  - destruct (nth_lt (vertex_ p) (S k) ltac:(lia)) as [vn Vn]. pose proof (Ap2 _ _ Vk Vn) as G.
    pose proof (sorted_le (vertex_ p) (S k) (List.length (vertex_ p) - 1) So ltac:(lia) ltac:(lia)) as Le.
    rewrite (s_at_some _ _ _ Vn), (s_at_some _ _ _ L) in Le.
    destruct (eval_segment p s pos h e So ltac:(lia) L ltac:(lra)) as (i & u & w & v & a & Ev & U & W & Lo & Hi & _ & _ & Bt & A0 & A1 & _).
    exists i, v, (PLine (vertex_ p) i (length_ p) (interpolation_mode_ p)). split; auto.
    assert (Bi: (S i < List.length (vertex_ p))%nat) by (apply nth_error_Some; congruence).
    destruct (Nat.lt_trichotomy k i) as [C|[C|C]].
    + pose proof (sorted_le (vertex_ p) k i So ltac:(lia) ltac:(lia)) as X. rewrite (s_at_some _ _ _ Vk), (s_at_some _ _ _ U) in X. destruct Lo; [lia|lra].
    + subst i. assert (u = vk) by congruence. subst u. eapply between_0; eauto. apply A0. lra.
    + destruct (Nat.eq_dec k (S i)) as [->|C'].
      * assert (w = vk) by congruence. subst w. eapply between_1; eauto.
        assert (v_s u + SMALL < v_s vk) by (apply (Ap1 u vk); [lia | replace (S i - 1)%nat with i by lia; auto | auto]). apply A1; lra.
      * exfalso. destruct (nth_lt (vertex_ p) (k - 1) ltac:(lia)) as [vp Vp]. pose proof (Ap1 _ _ ltac:(lia) Vp Vk) as G1.
        pose proof (sorted_le (vertex_ p) (S i) (k - 1) So ltac:(lia) ltac:(lia)) as X. rewrite (s_at_some _ _ _ W), (s_at_some _ _ _ Vp) in X. lra.
Qed.

End Angles.

(** ** Building a polyline *)

Section Build.
Variable dist : Q -> Q -> Q -> Q -> Q.
Hypothesis dist_pos : forall a b c d, 0 <= dist a b c d.

(** Add vertices without s value one after the other. *)
Definition add_all (p : pline) (l : list vertex) : pline := fold_left (fun p v => AddVertex dist p None v) l p.

Lemma last_app (l : list vertex) v : last_vertex (l ++ [v]) v.
Proof. unfold last_vertex. rewrite app_length. cbn [List.length]. rewrite nth_error_app2 by lia. replace (List.length l + 1 - 1 - List.length l)%nat with 0%nat by lia. reflexivity. Qed.

Lemma rev_last (l : list vertex) e : last_vertex l e -> exists r, rev l = e :: r.
Proof.
  intro L. pose proof (last_nonempty _ _ L) as NE. destruct (exists_last NE) as (l' & v & ->). pose proof (last_app l' v) as L'.
  unfold last_vertex in *. rewrite rev_app_distr. assert (v = e) by congruence. subst. eexists. reflexivity.
Qed.

(** What holds of a polyline built so: the s values start at 0, each is the one before plus the distance, the length is the last one. *)
Definition built (p : pline) : Prop :=
  (forall v, nth_error (vertex_ p) 0 = Some v -> v_s v == 0) /\
  (forall i u v, nth_error (vertex_ p) i = Some u -> nth_error (vertex_ p) (S i) = Some v -> v_s v == v_s u + dist (v_x v) (v_y v) (v_x u) (v_y u)) /\
  (forall e, last_vertex (vertex_ p) e -> length_ p = v_s e).

Lemma add_built p v : built p -> built (AddVertex dist p None v).
Proof.
  intros (B0 & B1 & B2). unfold AddVertex.
  destruct (rev (vertex_ p)) as [|b r] eqn:ER.
  - assert (E: vertex_ p = []) by (rewrite <- (rev_involutive (vertex_ p)), ER; reflexivity). rewrite E. cbn [vertex_ app]. split; [|split].
    + cbn. intros w W. injection W as <-. reflexivity.
    + intros i u w U W. cbn in W. destruct i; discriminate.
    + unfold last_vertex. cbn. intros e X. injection X as <-. reflexivity.
  - assert (E: vertex_ p = rev r ++ [b]) by (rewrite <- (rev_involutive (vertex_ p)), ER; reflexivity).
    set (w := with_s _ v). unfold built. cbn [vertex_ length_].
    assert (Lb: last_vertex (vertex_ p) b) by (rewrite E; apply last_app).
    assert (NE: (0 < List.length (vertex_ p))%nat) by (rewrite E, app_length; cbn; lia).
    split; [|split].
    + intros x X. rewrite nth_error_app1 in X by auto. auto.
    + intros i u x U X. destruct (Nat.lt_ge_cases (S i) (List.length (vertex_ p))) as [C|C].
      * rewrite nth_error_app1 in U, X by lia. eauto.
      * assert (S i < List.length (vertex_ p ++ [w]))%nat by (apply nth_error_Some; congruence). rewrite app_length in *. cbn [List.length] in *.
        assert (S i = List.length (vertex_ p)) by lia. rewrite nth_error_app1 in U by lia. rewrite nth_error_app2 in X by lia.
        replace (S i - List.length (vertex_ p))%nat with 0%nat in X by lia. cbn in X. injection X as <-.
        unfold last_vertex in Lb. replace (List.length (vertex_ p) - 1)%nat with i in Lb by lia. assert (u = b) by congruence. subst u. reflexivity.
    + intros e L. pose proof (last_app (vertex_ p) w) as L'. unfold last_vertex in L, L'. assert (e = w) by congruence. subst e. reflexivity.
Qed.

Lemma add_all_built l : forall p, built p -> built (add_all p l).
Proof. induction l as [|v l IH]; intros p B; cbn; auto. apply IH, add_built, B. Qed.

Lemma empty_built c len m : built (PLine [] c len m).
Proof. split; [|split]; cbn; intros; try discriminate; try (destruct i; discriminate). Qed.

Lemma built_sorted p : built p -> sorted_s (vertex_ p).
Proof. intros (_ & B & _) i u v U V. rewrite (B i u v U V). pose proof (dist_pos (v_x v) (v_y v) (v_x u) (v_y u)). lra. Qed.

Lemma add_vertices p v : exists s, vertex_ (AddVertex dist p None v) = vertex_ p ++ [with_s s v].
Proof. unfold AddVertex. eexists. reflexivity. Qed.

Lemma add_all_vertices l : forall p, List.length (vertex_ (add_all p l)) = (List.length (vertex_ p) + List.length l)%nat /\
  (forall i v, nth_error (vertex_ p) i = Some v -> nth_error (vertex_ (add_all p l)) i = Some v) /\
  (forall i v, nth_error l i = Some v -> exists s, nth_error (vertex_ (add_all p l)) (List.length (vertex_ p) + i) = Some (with_s s v)).
Proof.
  induction l as [|v l IH]; intro p.
  - cbn. split; [lia|]. split; [auto|]. intros [|i]; discriminate.
  - cbn [add_all fold_left]. change (fold_left _ l ?q) with (add_all q l). destruct (add_vertices p v) as [s E].
    destruct (IH (AddVertex dist p None v)) as (I1 & I2 & I3). rewrite E, app_length in *. cbn [List.length] in *. split; [lia|]. split.
    + intros i w W. apply I2. rewrite nth_error_app1; auto. apply nth_error_Some. congruence.
    + intros [|i] w W; cbn in W.
      * injection W as <-. exists s. apply I2. rewrite nth_error_app2 by lia. replace (_ - _)%nat with 0%nat by lia. reflexivity.
      * destruct (I3 i w W) as [s' S']. exists s'. rewrite <- S'. f_equal. lia.
Qed.

End Build.

(** ** Time to distance *)

Lemma t_fwd_spec l t n : forall i, (i < List.length l)%nat -> (List.length l <= i + n)%nat -> t_at l i - SMALL <= t ->
  let j := t_fwd l t n i in
  (i <= j < List.length l)%nat /\ t_at l j - SMALL <= t /\ (j = (List.length l - 1)%nat \/ t < t_at l (S j) - SMALL).
Proof.
  induction n as [|n IH]; intros i B F C; cbn [t_fwd].
  - lia.
  - destruct (Nat.ltb_spec i (List.length l - 1)); cbn [andb].
    + destruct (Qltb_spec t (t_at l (S i) - SMALL)) as [X|X]; cbn [negb].
      * repeat split; auto.
      * destruct (IH (S i)) as (P & Q & R); [lia|lia|lra|]. repeat split; auto; lia.
    + repeat split; auto. left. lia.
Qed.

Lemma t_bwd_spec l t : forall i, t <= t_at l (S i) - SMALL -> let j := t_bwd l t i in
  (j <= i)%nat /\ (j = 0%nat \/ t_at l j - SMALL < t) /\ t <= t_at l (S j) - SMALL.
Proof.
  induction i as [|i IH]; cbn [t_bwd]; intro C; [repeat split; auto|].
  destruct (Qltb_spec (t_at l (S i) - SMALL) t) as [X|X].
  - repeat split; auto.
  - destruct (IH ltac:(lra)) as (P & R & T). repeat split; auto.
Qed.

(** The segment looked up for a time. *)
Definition in_segment (t : Q) (u w : vertex) : Prop := v_time u - SMALL <= t <= v_time w - SMALL /\ v_time u < v_time w.

Definition time_start (p : pline) (h : option nat) : nat :=
  match h with Some k => if (k <? List.length (vertex_ p))%nat then k else current_index_ p | None => current_index_ p end.
Definition time_index (p : pline) (t : Q) (k : nat) : nat :=
  if Qltb t (t_at (vertex_ p) k - SMALL) then t_bwd (vertex_ p) t (k - 1) else t_fwd (vertex_ p) t (List.length (vertex_ p)) k.

Lemma time_unfold p t h v0 e : (2 <= List.length (vertex_ p))%nat -> nth_error (vertex_ p) 0 = Some v0 -> last_vertex (vertex_ p) e ->
  Time2S p t h =
    if Qltb t (v_time v0 + SMALL) then Some (if Qltb (v_time v0 - SMALL) t then GHOST_TRAIL_OK else GHOST_TRAIL_TIME_PRIOR, 0, Some O)
    else if Qltb (v_time e - SMALL) t
    then Some (if Qltb t (v_time e + SMALL) then GHOST_TRAIL_OK else GHOST_TRAIL_TIME_PAST, v_s e, Some (List.length (vertex_ p) - 1)%nat)
    else
      if (List.length (vertex_ p) <=? time_start p h)%nat then None
      else
        let i := time_index p t (time_start p h) in
        if (List.length (vertex_ p) <=? S i)%nat then None
        else Some (GHOST_TRAIL_OK, MAX 0 (s_at (vertex_ p) i + (t - t_at (vertex_ p) i) / (t_at (vertex_ p) (S i) - t_at (vertex_ p) i) * (s_at (vertex_ p) (S i) - s_at (vertex_ p) i)), Some i).
Proof.
  intros B V0 L. rewrite <- (t_at_some _ _ _ V0), <- (t_at_some _ _ _ L), <- (s_at_some _ _ _ L).
  unfold Time2S. destruct (vertex_ p) as [|x [|y r]] eqn:E; [cbn in B; lia|cbn in B; lia|]. rewrite <- E. unfold time_start, time_index. reflexivity.
Qed.

Lemma time_segment p t h : sorted_t (vertex_ p) -> (2 <= List.length (vertex_ p))%nat -> (current_index_ p < List.length (vertex_ p))%nat ->
  forall v0 e, nth_error (vertex_ p) 0 = Some v0 -> last_vertex (vertex_ p) e -> v_time v0 + SMALL <= t -> t < v_time e - SMALL ->
  exists i u w, nth_error (vertex_ p) i = Some u /\ nth_error (vertex_ p) (S i) = Some w /\ in_segment t u w /\
    Time2S p t h = Some (GHOST_TRAIL_OK, MAX 0 (v_s u + (t - v_time u) / (v_time w - v_time u) * (v_s w - v_s u)), Some i).
Proof.
  intros So B C v0 e V0 L T0 Te. rewrite (time_unfold p t h v0 e B V0 L). pose proof SMALL_pos as SP.
  destruct (Qltb_spec t (v_time v0 + SMALL)) as [X|X]; [lra|]. destruct (Qltb_spec (v_time e - SMALL) t) as [Y|Y]; [lra|].
  assert (K: (time_start p h < List.length (vertex_ p))%nat). { unfold time_start. destruct h as [h|]; auto. destruct (Nat.ltb_spec h (List.length (vertex_ p))); auto. }
  set (k := time_start p h) in *. clearbody k. cbv zeta.
  unfold time_index. set (l := vertex_ p) in *. set (n := List.length l) in *.
  set (i := if Qltb t (t_at l k - SMALL) then t_bwd l t (k - 1) else t_fwd l t n k).
  assert (I: (S i < n)%nat /\ (i = 0%nat \/ t_at l i - SMALL <= t) /\ t <= t_at l (S i) - SMALL /\ t_at l i < t_at l (S i)).
  { unfold i. destruct (Qltb_spec t (t_at l k - SMALL)) as [D|D].
    - assert (k <> 0%nat). { intros ->. rewrite (t_at_some _ _ _ V0) in D. lra. }
      destruct (t_bwd_spec l t (k - 1)) as (P & R & S). { replace (S (k - 1)) with k by lia. lra. }
      split; [lia|]. split; [destruct R; [auto|right; lra]|]. split; auto.
      destruct R as [R|R]; [|lra]. rewrite R in *. rewrite (t_at_some _ _ _ V0). lra.
    - destruct (t_fwd_spec l t n k) as (P & R & S); [auto|unfold n; lia|lra|].
      assert (t_fwd l t n k <> (n - 1)%nat). { intro Z. rewrite Z in R. unfold last_vertex in L. fold n in L. rewrite (t_at_some _ _ _ L) in R. lra. }
      fold n in P, S. destruct S as [S|S]; [contradiction|]. split; [lia|]. split; [right; auto|]. split; lra. }
  clearbody i. destruct I as (I1 & I2 & I3 & I4).
  destruct (nth_lt l i) as [u U]; [fold n; lia|]. destruct (nth_lt l (S i) I1) as [w W].
  rewrite (t_at_some _ _ _ U) in *. rewrite (t_at_some _ _ _ W) in *. rewrite (s_at_some _ _ _ U), (s_at_some _ _ _ W).
  exists i, u, w. split; auto. split; auto. split.
  - split; auto. split; auto. destruct I2 as [->|I2]; auto. assert (u = v0) by congruence. subst u. lra.
  - destruct (Nat.leb_spec n k); [lia|]. destruct (Nat.leb_spec n (S i)); [lia|]. reflexivity.
Qed.

(** What is returned at or outside the ends. *)
Lemma time_prior p t h v0 : (2 <= List.length (vertex_ p))%nat -> nth_error (vertex_ p) 0 = Some v0 -> t < v_time v0 + SMALL ->
  exists c, Time2S p t h = Some (c, 0, Some 0%nat) /\ (c = GHOST_TRAIL_TIME_PRIOR <-> t <= v_time v0 - SMALL) /\ (c = GHOST_TRAIL_OK <-> v_time v0 - SMALL < t).
Proof.
  intros B V0 T. destruct (nth_lt (vertex_ p) (List.length (vertex_ p) - 1) ltac:(lia)) as [e L].
  rewrite (time_unfold p t h v0 e B V0 L). destruct (Qltb_spec t (v_time v0 + SMALL)) as [X|X]; [|lra].
  eexists. split; [reflexivity|]. destruct (Qltb_spec (v_time v0 - SMALL) t) as [Y|Y].
  - split; split; intro; try discriminate; auto; lra.
  - split; split; intro; try discriminate; auto; lra.
Qed.

Lemma time_past p t h v0 e : (2 <= List.length (vertex_ p))%nat -> nth_error (vertex_ p) 0 = Some v0 -> last_vertex (vertex_ p) e ->
  v_time v0 + SMALL <= t -> v_time e - SMALL < t ->
  exists c, Time2S p t h = Some (c, v_s e, Some (List.length (vertex_ p) - 1)%nat) /\
    (c = GHOST_TRAIL_TIME_PAST <-> v_time e + SMALL <= t) /\ (c = GHOST_TRAIL_OK <-> t < v_time e + SMALL).
Proof.
  intros B V0 L T0 T. rewrite (time_unfold p t h v0 e B V0 L).
  destruct (Qltb_spec t (v_time v0 + SMALL)) as [X|X]; [lra|]. destruct (Qltb_spec (v_time e - SMALL) t) as [Y|Y]; [|lra].
  eexists. split; [reflexivity|]. destruct (Qltb_spec t (v_time e + SMALL)) as [Z|Z].
  - split; split; intro; try discriminate; auto; lra.
  - split; split; intro; try discriminate; auto; lra.
Qed.

Lemma time_total p t h : sorted_t (vertex_ p) -> (current_index_ p < List.length (vertex_ p))%nat \/ vertex_ p = [] ->
  (forall e, last_vertex (vertex_ p) e -> ~ t == v_time e - SMALL) -> exists c s i, Time2S p t h = Some (c, s, i).
Proof.
  intros So C N. destruct (vertex_ p) as [|x [|y r]] eqn:E.
  - unfold Time2S. rewrite E. eauto.
  - unfold Time2S. rewrite E. eauto.
  - rewrite <- E in *. assert (B: (2 <= List.length (vertex_ p))%nat) by (rewrite E; cbn; lia).
    destruct (nth_lt (vertex_ p) 0 ltac:(lia)) as [v0 V0]. destruct (nth_lt (vertex_ p) (List.length (vertex_ p) - 1) ltac:(lia)) as [e L].
    destruct C as [C|C]; [|rewrite C in B; cbn in B; lia].
    destruct (Qlt_le_dec t (v_time v0 + SMALL)) as [X|X].
    { destruct (time_prior p t h v0 B V0 X) as (c & -> & _). eauto. }
    destruct (Qlt_le_dec (v_time e - SMALL) t) as [Y|Y].
    { destruct (time_past p t h v0 e B V0 L X Y) as (c & -> & _). eauto. }
    assert (t < v_time e - SMALL). { pose proof (N e L). lra. }
    destruct (time_segment p t h So B C v0 e V0 L X) as (i & u & w & _ & _ & _ & ->); eauto.
Qed.

Lemma max0 x : 0 <= x -> MAX 0 x == x.
Proof. unfold MAX. destruct (Qltb_spec 0 x); lra. Qed.

(** At the time of a vertex. *)
Lemma time_vertex p h k vk : sorted_t (vertex_ p) -> (2 <= List.length (vertex_ p))%nat -> (current_index_ p < List.length (vertex_ p))%nat ->
  nth_error (vertex_ p) k = Some vk -> 0 <= v_s vk -> (k = 0%nat -> v_s vk == 0) ->
  (forall u, k <> 0%nat -> nth_error (vertex_ p) (k - 1) = Some u -> v_time u + SMALL <= v_time vk) ->
  (forall w, nth_error (vertex_ p) (S k) = Some w -> v_time vk + SMALL < v_time w) ->
  exists s, Time2S p (v_time vk) h = Some (GHOST_TRAIL_OK, s, Some k) /\ s == v_s vk.
Proof.
  intros So B C Vk Pos S0 Ap1 Ap2. pose proof SMALL_pos as SP.
  assert (Bk: (k < List.length (vertex_ p))%nat) by (apply nth_error_Some; congruence).
  destruct (nth_lt (vertex_ p) 0 ltac:(lia)) as [v0 V0]. destruct (nth_lt (vertex_ p) (List.length (vertex_ p) - 1) ltac:(lia)) as [e L].
  destruct (Nat.eq_dec k 0) as [->|Nk].
  - assert (v0 = vk) by congruence. subst v0. destruct (time_prior p (v_time vk) h vk B V0 ltac:(lra)) as (c & -> & _ & [_ Hc]).
    rewrite Hc by lra. eexists. split; [reflexivity|]. rewrite S0; auto. reflexivity.
  - destruct (nth_lt (vertex_ p) (k - 1) ltac:(lia)) as [u U]. pose proof (Ap1 u Nk U) as G.
    pose proof (sorted_t_le (vertex_ p) 0 (k - 1) So ltac:(lia) ltac:(lia)) as T0. rewrite (t_at_some _ _ _ V0), (t_at_some _ _ _ U) in T0.
    destruct (Nat.eq_dec k (List.length (vertex_ p) - 1)) as [->|Ne].
    + assert (e = vk) by congruence. subst e. destruct (time_past p (v_time vk) h v0 vk B V0 L ltac:(lra) ltac:(lra)) as (c & -> & _ & [_ Hc]).
      rewrite Hc by lra. eexists. split; [reflexivity|]. reflexivity.
    + destruct (nth_lt (vertex_ p) (S k) ltac:(lia)) as [w W]. pose proof (Ap2 w W) as G2.
      pose proof (sorted_t_le (vertex_ p) (S k) (List.length (vertex_ p) - 1) So ltac:(lia) ltac:(lia)) as Te. rewrite (t_at_some _ _ _ W), (t_at_some _ _ _ L) in Te.
      destruct (time_segment p (v_time vk) h So B C v0 e V0 L ltac:(lra) ltac:(lra)) as (i & u' & w' & U' & W' & (I1 & I2) & ->).
      assert (Bi: (S i < List.length (vertex_ p))%nat) by (apply nth_error_Some; congruence).
      assert (i = k).
      { destruct (Nat.lt_trichotomy i k) as [D|[D|D]]; auto; exfalso.
        - pose proof (sorted_t_le (vertex_ p) (S i) k So ltac:(lia) ltac:(lia)) as X. rewrite (t_at_some _ _ _ W'), (t_at_some _ _ _ Vk) in X. lra.
        - pose proof (sorted_t_le (vertex_ p) (S k) i So ltac:(lia) ltac:(lia)) as X. rewrite (t_at_some _ _ _ W), (t_at_some _ _ _ U') in X. lra. }
      subst i. assert (u' = vk) by congruence. subst u'. eexists. split; [reflexivity|].
      assert (E: v_s vk + (v_time vk - v_time vk) / (v_time w' - v_time vk) * (v_s w' - v_s vk) == v_s vk) by (field; lra).
      unfold MAX. destruct (Qltb_spec 0 (v_s vk + (v_time vk - v_time vk) / (v_time w' - v_time vk) * (v_s w' - v_s vk))); rewrite E in *; lra.
Qed.

Lemma interp_le (x y t0 t1 t : Q) : x <= y -> t0 < t1 -> t <= t1 -> x + (t - t0) / (t1 - t0) * (y - x) <= y.
Proof.
  intros. assert ((t - t0) / (t1 - t0) <= 1) by (apply Qle_shift_div_r; lra). set (w := (t - t0) / (t1 - t0)) in *. clearbody w. nra.
Qed.
Lemma interp_ge (x y t0 t1 t : Q) : x <= y -> t0 < t1 -> t0 <= t -> x <= x + (t - t0) / (t1 - t0) * (y - x).
Proof.
  intros. assert (0 <= (t - t0) / (t1 - t0)) by (apply Qle_shift_div_l; lra). set (w := (t - t0) / (t1 - t0)) in *. clearbody w. nra.
Qed.
Lemma interp_mono (x y t0 t1 t t' : Q) : x <= y -> t0 < t1 -> t <= t' -> x + (t - t0) / (t1 - t0) * (y - x) <= x + (t' - t0) / (t1 - t0) * (y - x).
Proof.
  intros. assert ((t - t0) / (t1 - t0) <= (t' - t0) / (t1 - t0)).
  { unfold Qdiv. apply Qmult_le_compat_r; [lra|]. apply Qinv_le_0_compat. lra. }
  set (w := (t - t0) / (t1 - t0)) in *. set (w' := (t' - t0) / (t1 - t0)) in *. clearbody w w'. nra.
Qed.
Lemma max_mono x y : x <= y -> MAX 0 x <= MAX 0 y.
Proof. unfold MAX. destruct (Qltb_spec 0 x); destruct (Qltb_spec 0 y); lra. Qed.
Lemma max_le x y : x <= y -> 0 <= y -> MAX 0 x <= y.
Proof. unfold MAX. destruct (Qltb_spec 0 x); lra. Qed.

(** A time just before a vertex, where the segment after it is extrapolated backwards. *)
Definition just_before (l : list vertex) (t : Q) : Prop := exists k v, nth_error l k = Some v /\ v_time v - SMALL <= t < v_time v.

Lemma time_bounds p t h c s i : sorted_t (vertex_ p) -> sorted_s (vertex_ p) -> (2 <= List.length (vertex_ p))%nat ->
  (current_index_ p < List.length (vertex_ p))%nat ->
  (forall v0, nth_error (vertex_ p) 0 = Some v0 -> v_s v0 == 0) -> Time2S p t h = Some (c, s, i) -> forall e, last_vertex (vertex_ p) e -> 0 <= s <= v_s e.
Proof.
  intros So Ss B C Z T e L. destruct (nth_lt (vertex_ p) 0 ltac:(lia)) as [v0 V0]. pose proof (Z v0 V0) as Z0. pose proof SMALL_pos as SP.
  pose proof (sorted_le (vertex_ p) 0 (List.length (vertex_ p) - 1) Ss ltac:(lia) ltac:(lia)) as G. rewrite (s_at_some _ _ _ V0), (s_at_some _ _ _ L) in G.
  destruct (Qlt_le_dec t (v_time v0 + SMALL)) as [X|X].
  { destruct (time_prior p t h v0 B V0 X) as (c' & E & _). rewrite E in T. injection T as <- <- <-. lra. }
  destruct (Qlt_le_dec (v_time e - SMALL) t) as [Y|Y].
  { destruct (time_past p t h v0 e B V0 L X Y) as (c' & E & _). rewrite E in T. injection T as <- <- <-. lra. }
  destruct (Qlt_le_dec t (v_time e - SMALL)) as [Y'|Y'].
  - destruct (time_segment p t h So B C v0 e V0 L X Y') as (j & u & w & U & W & (I1 & I2) & E). rewrite E in T. injection T as <- <- <-.
    assert (Bj: (S j < List.length (vertex_ p))%nat) by (apply nth_error_Some; congruence).
    pose proof (sorted_le (vertex_ p) (S j) (List.length (vertex_ p) - 1) Ss ltac:(lia) ltac:(lia)) as Q1. rewrite (s_at_some _ _ _ W), (s_at_some _ _ _ L) in Q1.
    pose proof (sorted_le (vertex_ p) j (S j) Ss ltac:(lia) ltac:(lia)) as Q2. rewrite (s_at_some _ _ _ U), (s_at_some _ _ _ W) in Q2.
    split; [unfold MAX; destruct (Qltb_spec 0 (v_s u + (t - v_time u) / (v_time w - v_time u) * (v_s w - v_s u))); lra|].
    apply max_le; [|lra]. pose proof (interp_le (v_s u) (v_s w) (v_time u) (v_time w) t Q2 I2 ltac:(lra)). lra.
  - (* time = time of last vertex - SMALL: only the search backwards returns *)
    revert T. rewrite (time_unfold p t h v0 e B V0 L). destruct (Qltb_spec t (v_time v0 + SMALL)); [lra|]. destruct (Qltb_spec (v_time e - SMALL) t); [lra|].
    destruct (Nat.leb_spec (List.length (vertex_ p)) (time_start p h)) as [A|A]; [discriminate|]. cbv zeta.
    destruct (Nat.leb_spec (List.length (vertex_ p)) (S (time_index p t (time_start p h)))) as [D|D]; [discriminate|]. intro T. injection T as <- <- <-.
    set (k := time_start p h) in *. set (j := time_index p t k) in *.
    assert (I: t <= t_at (vertex_ p) (S j) - SMALL /\ (j = 0%nat \/ t_at (vertex_ p) j - SMALL <= t)).
    { unfold j, time_index in *. destruct (Qltb_spec t (t_at (vertex_ p) k - SMALL)) as [Q|Q].
      - assert (k <> 0%nat). { intros K. rewrite K, (t_at_some _ _ _ V0) in Q. lra. }
        destruct (t_bwd_spec (vertex_ p) t (k - 1)) as (P & R & S). { replace (S (k - 1)) with k by lia. lra. } split; auto. destruct R; [auto|right; lra].
      - destruct (t_fwd_spec (vertex_ p) t (List.length (vertex_ p)) k) as (P & R & S); [auto|lia|lra|]. destruct S as [S|S]; [lia|]. split; [lra|auto]. }
    clearbody j. destruct (nth_lt (vertex_ p) j ltac:(lia)) as [u U]. destruct (nth_lt (vertex_ p) (S j) ltac:(lia)) as [w W].
    rewrite (t_at_some _ _ _ U) in *. rewrite (t_at_some _ _ _ W) in *. rewrite (s_at_some _ _ _ U), (s_at_some _ _ _ W).
    pose proof (sorted_le (vertex_ p) (S j) (List.length (vertex_ p) - 1) Ss ltac:(lia) ltac:(lia)) as Q1. rewrite (s_at_some _ _ _ W), (s_at_some _ _ _ L) in Q1.
    pose proof (sorted_le (vertex_ p) j (S j) Ss ltac:(lia) ltac:(lia)) as Q2. rewrite (s_at_some _ _ _ U), (s_at_some _ _ _ W) in Q2.
    split; [unfold MAX; destruct (Qltb_spec 0 (v_s u + (t - v_time u) / (v_time w - v_time u) * (v_s w - v_s u))); lra|].
    apply max_le; [|lra]. destruct (Qlt_le_dec (v_time u) (v_time w)) as [M|M].
    + pose proof (interp_le (v_s u) (v_s w) (v_time u) (v_time w) t Q2 M ltac:(lra)). lra.
    + pose proof (sorted_t_le (vertex_ p) j (S j) So ltac:(lia) ltac:(lia)) as Q3. rewrite (t_at_some _ _ _ U), (t_at_some _ _ _ W) in Q3.
      assert (E: v_time w - v_time u == 0) by lra. setoid_replace ((t - v_time u) / (v_time w - v_time u)) with 0.
      * lra.
      * rewrite E. unfold Qdiv. change (/ 0) with 0. ring.
Qed.

Lemma time_mono p t1 t2 h1 h2 c1 c2 s1 s2 i1 i2 : sorted_t (vertex_ p) -> sorted_s (vertex_ p) -> (2 <= List.length (vertex_ p))%nat ->
  (current_index_ p < List.length (vertex_ p))%nat ->
  (forall v0, nth_error (vertex_ p) 0 = Some v0 -> v_s v0 == 0) -> t1 <= t2 -> ~ just_before (vertex_ p) t2 ->
  Time2S p t1 h1 = Some (c1, s1, i1) -> Time2S p t2 h2 = Some (c2, s2, i2) -> s1 <= s2.
Proof.
  intros So Ss B C Z T NJ E1 E2. destruct (nth_lt (vertex_ p) 0 ltac:(lia)) as [v0 V0]. destruct (nth_lt (vertex_ p) (List.length (vertex_ p) - 1) ltac:(lia)) as [e L].
  pose proof (time_bounds p t1 h1 c1 s1 i1 So Ss B C Z E1 e L) as B1. pose proof (time_bounds p t2 h2 c2 s2 i2 So Ss B C Z E2 e L) as B2. pose proof SMALL_pos as SP.
  destruct (Qlt_le_dec t1 (v_time v0 + SMALL)) as [X1|X1].
  { destruct (time_prior p t1 h1 v0 B V0 X1) as (c' & E & _). rewrite E in E1. injection E1 as <- <- <-. lra. }
  destruct (Qlt_le_dec (v_time e - SMALL) t2) as [Y2|Y2].
  { destruct (time_past p t2 h2 v0 e B V0 L ltac:(lra) Y2) as (c' & E & _). rewrite E in E2. injection E2 as <- <- <-. lra. }
  assert (Y: t2 < v_time e - SMALL). { destruct (Qlt_le_dec t2 (v_time e - SMALL)) as [Y|Y]; auto. exfalso. apply NJ. exists (List.length (vertex_ p) - 1)%nat, e. split; auto. lra. }
  destruct (time_segment p t1 h1 So B C v0 e V0 L X1 ltac:(lra)) as (j1 & u1 & w1 & U1 & W1 & (I1 & J1) & F1). rewrite F1 in E1. injection E1 as <- <- <-.
  destruct (time_segment p t2 h2 So B C v0 e V0 L ltac:(lra) Y) as (j2 & u2 & w2 & U2 & W2 & (I2 & J2) & F2). rewrite F2 in E2. injection E2 as <- <- <-.
  assert (K1: (S j1 < List.length (vertex_ p))%nat) by (apply nth_error_Some; congruence).
  assert (K2: (S j2 < List.length (vertex_ p))%nat) by (apply nth_error_Some; congruence).
  pose proof (Ss j1 u1 w1 U1 W1) as S1. pose proof (Ss j2 u2 w2 U2 W2) as S2.
  assert (T2: v_time u2 <= t2). { destruct (Qlt_le_dec t2 (v_time u2)) as [D|D]; auto. exfalso. apply NJ. exists j2, u2. split; auto. lra. }
  apply max_mono. destruct (Nat.lt_trichotomy j1 j2) as [D|[D|D]].
  - pose proof (interp_le (v_s u1) (v_s w1) (v_time u1) (v_time w1) t1 S1 J1 ltac:(lra)).
    pose proof (interp_ge (v_s u2) (v_s w2) (v_time u2) (v_time w2) t2 S2 J2 T2).
    pose proof (sorted_le (vertex_ p) (S j1) j2 Ss ltac:(lia) ltac:(lia)) as Q1. rewrite (s_at_some _ _ _ W1), (s_at_some _ _ _ U2) in Q1. lra.
  - subst j2. assert (u1 = u2) by congruence. assert (w1 = w2) by congruence. subst u2 w2. apply interp_mono; auto.
  - exfalso. pose proof (sorted_t_le (vertex_ p) (S j2) j1 So ltac:(lia) ltac:(lia)) as Q1. rewrite (t_at_some _ _ _ W2), (t_at_some _ _ _ U1) in Q1.
    apply NJ. exists j1, u1. split; auto. lra.
Qed.

Lemma find_at_vertex norm diff p pos h k vk : sorted_t (vertex_ p) -> sorted_s (vertex_ p) -> (2 <= List.length (vertex_ p))%nat ->
  (current_index_ p < List.length (vertex_ p))%nat -> (forall v0, nth_error (vertex_ p) 0 = Some v0 -> v_s v0 == 0) ->
  nth_error (vertex_ p) k = Some vk -> apart (vertex_ p) k ->
  (forall u, k <> 0%nat -> nth_error (vertex_ p) (k - 1) = Some u -> v_time u + SMALL <= v_time vk) ->
  (forall w, nth_error (vertex_ p) (S k) = Some w -> v_time vk + SMALL < v_time w) ->
  exists i v p', FindPointAtTime norm diff p (v_time vk) pos h = Some (GHOST_TRAIL_OK, i, v, p') /\ same_place v vk.
Proof.
  intros So Ss B C Z Vk Ap A1 A2.
  assert (Bk: (k < List.length (vertex_ p))%nat) by (apply nth_error_Some; congruence).
  destruct (nth_lt (vertex_ p) 0 ltac:(lia)) as [v0 V0].
  assert (0 <= v_s vk). { pose proof (sorted_le (vertex_ p) 0 k Ss ltac:(lia) Bk) as G. rewrite (s_at_some _ _ _ V0), (s_at_some _ _ _ Vk), (Z v0 V0) in G. auto. }
  destruct (time_vertex p h k vk So B C Vk) as (s & E & Es); auto. { intros ->. apply Z. auto. }
  unfold FindPointAtTime. rewrite E.
  destruct (eval_vertex norm diff p s pos (Some k) k vk Es Ss Ap Vk) as (i & v & p' & -> & V). exists (Some i), v, p'. split; auto.
Qed.

(** ** Angles *)

Section Angle.
Variable norm : Q -> Q.
Variable diff : Q -> Q -> Q.
Hypothesis norm_eq : forall x y, x == y -> norm x = norm y.

Lemma seg_angles p i ls u w : nth_error (vertex_ p) i = Some u -> nth_error (vertex_ p) (S i) = Some w ->
  exists v, EvaluateSegmentByLocalS norm diff p i ls = Some v /\
    let len := MAX (v_s w - v_s u) SMALL in
    let before (f : vertex -> Q) := match i with O => None | S j => option_map f (nth_error (vertex_ p) j) end in
    let angle (f : vertex -> Q) skip := segment_angle norm diff (interpolation_mode_ p) skip (before f) (i <? List.length (vertex_ p) - 2)%nat (f u) (f w) (weight u w ls) (CLAMP ls 0 len) len in
    v_h v = angle v_h false /\ v_pitch v = angle v_pitch (negb (v_mode u =? v_mode w)%Z) /\ v_r v = angle v_r (negb (v_mode u =? v_mode w)%Z).
Proof. intros U W. unfold EvaluateSegmentByLocalS. rewrite U, W. eexists. split; [reflexivity|]. cbn [v_h v_pitch v_r]. repeat split. Qed.

(** Interpolation over the whole segment. *)
Lemma segment_mode p i ls u w : interpolation_mode_ p = INTERPOLATE_SEGMENT -> nth_error (vertex_ p) i = Some u -> nth_error (vertex_ p) (S i) = Some w ->
  exists v, EvaluateSegmentByLocalS norm diff p i ls = Some v /\ v_h v = norm (v_h u + weight u w ls * diff (v_h w) (v_h u)) /\
    (v_mode u = v_mode w -> v_pitch v = norm (v_pitch u + weight u w ls * diff (v_pitch w) (v_pitch u)) /\ v_r v = norm (v_r u + weight u w ls * diff (v_r w) (v_r u))) /\
    (v_mode u <> v_mode w -> v_pitch v = norm (v_pitch u) /\ v_r v = norm (v_r u)).
Proof.
  intros M U W. destruct (seg_angles p i ls u w U W) as (v & E & A). cbv zeta in A. destruct A as (A1 & A2 & A3). rewrite M in *. exists v. split; auto.
  unfold segment_angle in *. split; [exact A1|]. destruct (Z.eqb_spec (v_mode u) (v_mode w)) as [X|X]; cbn [negb] in *; split; intro; try contradiction; auto.
Qed.

Lemma none_mode p i ls u w : interpolation_mode_ p = INTERPOLATE_NONE -> nth_error (vertex_ p) i = Some u -> nth_error (vertex_ p) (S i) = Some w ->
  exists v, EvaluateSegmentByLocalS norm diff p i ls = Some v /\ v_h v = norm (v_h u) /\ v_pitch v = norm (v_pitch u) /\ v_r v = norm (v_r u).
Proof.
  intros M U W. destruct (seg_angles p i ls u w U W) as (v & E & A). cbv zeta in A. destruct A as (A1 & A2 & A3). rewrite M in *. exists v. split; auto.
  unfold segment_angle in *. split; [exact A1|]. destruct (negb _); auto.
Qed.

Definition corner_radius (len : Q) : Q := MIN 2 (len / 2).
Lemma radius_bounds len : 0 < len -> 0 < corner_radius len /\ corner_radius len <= 2 /\ 2 * corner_radius len <= len.
Proof.
  intro P. unfold corner_radius, MIN. assert (E: len / 2 == len * (1 # 2)) by (unfold Qdiv; change (/ 2) with (1 # 2); reflexivity).
  destruct (Qltb_spec (len / 2) 2); rewrite ?E in *; repeat split; lra.
Qed.

(** The angle on the way out of a corner and into the next, for one angle: [prev], [cur], [next]. *)
Lemma corner_start skip prev more cur next a ls len : 0 < len -> ls == 0 ->
  segment_angle norm diff INTERPOLATE_CORNER skip prev more cur next a ls len =
    if skip then norm cur else match prev with Some p => norm (p + (1 # 2) * diff cur p) | None => norm cur end.
Proof.
  intros P E. destruct (radius_bounds len P) as (R & _). unfold segment_angle. destruct skip; auto. fold (corner_radius len).
  destruct (Qltb_spec ls (corner_radius len)) as [X|X]; [|lra]. destruct prev as [q|]; auto. apply norm_eq.
  assert (A: (corner_radius len + ls) / (2 * corner_radius len) == 1 # 2) by (rewrite E; field; lra). rewrite A. reflexivity.
Qed.

Lemma corner_end skip prev more cur next a ls len : 0 < len -> ls == len ->
  segment_angle norm diff INTERPOLATE_CORNER skip prev more cur next a ls len =
    if skip then norm cur else if more then norm (cur + (1 # 2) * diff next cur) else norm (cur + diff next cur).
Proof.
  intros P E. destruct (radius_bounds len P) as (R & _ & R2). unfold segment_angle. destruct skip; auto. fold (corner_radius len).
  destruct (Qltb_spec ls (corner_radius len)) as [X|X]; [lra|]. destruct (Qltb_spec (len - corner_radius len) ls) as [Y|Y]; [|lra].
  destruct more; apply norm_eq.
  - assert (A: (corner_radius len + (len - ls)) / (2 * corner_radius len) == 1 # 2) by (rewrite E; field; lra). rewrite A. ring.
  - assert (A: (len - ls) / corner_radius len == 0) by (rewrite E; field; lra). rewrite A. ring.
Qed.

Lemma corner_middle skip prev more cur next a ls len : 0 < len -> corner_radius len <= ls -> ls <= len - corner_radius len ->
  segment_angle norm diff INTERPOLATE_CORNER skip prev more cur next a ls len = norm cur.
Proof.
  intros P A B. unfold segment_angle. destruct skip; auto. fold (corner_radius len).
  destruct (Qltb_spec ls (corner_radius len)) as [X|X]; [lra|]. destruct (Qltb_spec (len - corner_radius len) ls) as [Y|Y]; [lra|reflexivity].
Qed.

Lemma more_spec (l : list vertex) i : (i <? List.length l - 2)%nat = match nth_error l (S (S i)) with Some _ => true | None => false end.
Proof.
  destruct (nth_error l (S (S i))) eqn:E.
  - assert (S (S i) < List.length l)%nat by (apply nth_error_Some; congruence). apply Nat.ltb_lt. lia.
  - apply nth_error_None in E. apply Nat.ltb_ge. lia.
Qed.

(** No jump at a corner: the end of one segment has the angles of the start of the next. *)
Lemma corner_continuous p i u w x : interpolation_mode_ p = INTERPOLATE_CORNER ->
  nth_error (vertex_ p) i = Some u -> nth_error (vertex_ p) (S i) = Some w -> nth_error (vertex_ p) (S (S i)) = Some x ->
  forall ls ls', v_s w - v_s u <= ls -> SMALL <= ls -> ls' <= 0 ->
  exists v v', EvaluateSegmentByLocalS norm diff p i ls = Some v /\ EvaluateSegmentByLocalS norm diff p (S i) ls' = Some v' /\
    v_h v = norm (v_h u + (1 # 2) * diff (v_h w) (v_h u)) /\ v_h v' = v_h v /\
    (v_mode u = v_mode w -> v_mode w = v_mode x -> v_pitch v' = v_pitch v /\ v_r v' = v_r v).
Proof.
  intros M U W X ls ls' L SL L'. pose proof SMALL_pos as SP.
  destruct (seg_angles p i ls u w U W) as (v & E & A). destruct (seg_angles p (S i) ls' w x W X) as (v' & E' & A'). cbv zeta in A, A'.
  rewrite M in *. rewrite !more_spec in *. rewrite X in A. rewrite U in A'. cbn [option_map] in A'.
  pose proof (max_pos (v_s w - v_s u)) as P1. pose proof (max_pos (v_s x - v_s w)) as P2.
  assert (C1: CLAMP ls 0 (MAX (v_s w - v_s u) SMALL) == MAX (v_s w - v_s u) SMALL).
  { apply clamp_hi; [lra|]. unfold MAX. destruct (Qltb_spec (v_s w - v_s u) SMALL); lra. }
  assert (C2: CLAMP ls' 0 (MAX (v_s x - v_s w) SMALL) == 0) by (apply clamp_lo; lra).
  rewrite !corner_end in A by auto. rewrite !corner_start in A' by auto. destruct A as (A1 & A2 & A3), A' as (B1 & B2 & B3).
  exists v, v'. split; auto. split; auto. split; auto. split; [congruence|]. intros M1 M2. rewrite M1, M2, !Z.eqb_refl in *. cbn [negb] in *. split; congruence.
Qed.

(** The angles of the last vertex are reached at the end. *)
Lemma corner_last p i u w ls : interpolation_mode_ p = INTERPOLATE_CORNER ->
  nth_error (vertex_ p) i = Some u -> nth_error (vertex_ p) (S i) = Some w -> nth_error (vertex_ p) (S (S i)) = None ->
  v_s w - v_s u <= ls -> SMALL <= ls -> exists v, EvaluateSegmentByLocalS norm diff p i ls = Some v /\ v_h v = norm (v_h u + diff (v_h w) (v_h u)).
Proof.
  intros M U W X L SL. pose proof SMALL_pos as SP.
  destruct (seg_angles p i ls u w U W) as (v & E & A). cbv zeta in A. rewrite M in *. rewrite !more_spec, X in *.
  pose proof (max_pos (v_s w - v_s u)) as P1.
  assert (C1: CLAMP ls 0 (MAX (v_s w - v_s u) SMALL) == MAX (v_s w - v_s u) SMALL).
  { apply clamp_hi; [lra|]. unfold MAX. destruct (Qltb_spec (v_s w - v_s u) SMALL); lra. }
  rewrite !corner_end in A by auto. exists v. split; auto. apply A.
Qed.

(** Away from the corners the heading is the one of the segment. *)
Lemma corner_straight p i u w ls : interpolation_mode_ p = INTERPOLATE_CORNER ->
  nth_error (vertex_ p) i = Some u -> nth_error (vertex_ p) (S i) = Some w -> 4 <= v_s w - v_s u -> 2 <= ls -> ls <= v_s w - v_s u - 2 ->
  exists v, EvaluateSegmentByLocalS norm diff p i ls = Some v /\ v_h v = norm (v_h u) /\ v_pitch v = norm (v_pitch u) /\ v_r v = norm (v_r u).
Proof.
  intros M U W G L1 L2. destruct (seg_angles p i ls u w U W) as (v & E & A). cbv zeta in A. rewrite M in *.
  assert (E1: MAX (v_s w - v_s u) SMALL == v_s w - v_s u) by (apply max_big; unfold SMALL; lra). set (len := MAX _ _) in *. clearbody len.
  assert (E2: CLAMP ls 0 len == ls) by (apply clamp_id; lra). set (c := CLAMP ls 0 len) in *. clearbody c.
  destruct (radius_bounds len ltac:(lra)) as (R0 & R1 & R2).
  rewrite !corner_middle in A by lra. exists v. split; auto.
Qed.

End Angle.
