(** C35: evaluation of a polyline by distance and by time. *)
From Verif Require Import QAux LaneModel PolyModel PolyProofs.
From Coq Require Import PeanoNat.
Local Open Scope nat_scope.
Local Open Scope Q_scope.

(** A polyline with vertices is evaluated at every s and for every start index without access out of bounds; the polyline itself is
    left as it is, and the index returned is the current one afterwards. *)
Theorem C35_total norm diff p s pos h : vertex_ p <> [] ->
  exists i v p', Evaluate norm diff p s pos h = Some (Some i, v, p') /\ (i < List.length (vertex_ p))%nat /\
    vertex_ p' = vertex_ p /\ length_ p' = length_ p /\ interpolation_mode_ p' = interpolation_mode_ p /\ GetCurrentVertex p' = nth_error (vertex_ p) i.
Proof. intro NE. destruct (eval_total norm diff p s pos h NE) as (i & v & E & B). eexists i, v, _. split; [exact E|]. repeat split; auto. Qed.

(** Without vertices nothing is returned and the position is left as it is. *)
Theorem C35_empty norm diff p s pos h : vertex_ p = [] -> Evaluate norm diff p s pos h = Some (None, pos, p).
Proof. intro E. unfold Evaluate. rewrite E. reflexivity. Qed.

(** At and past the end: the last vertex, with the length of the polyline as s. *)
Theorem C35_end norm diff p s pos h e : last_vertex (vertex_ p) e -> v_s e - SMALL < s ->
  exists v p', Evaluate norm diff p s pos h = Some (Some (List.length (vertex_ p) - 1)%nat, v, p') /\ v_s v = length_ p /\ same_place v e /\
    v_h v = v_h e /\ v_pitch v = v_pitch e /\ v_r v = v_r e /\ v_road v = v_road e /\ v_mode v = v_mode e.
Proof. intros L E. rewrite (eval_end norm diff p s pos h e L E). eexists _, _. split; [reflexivity|]. split; [reflexivity|]. split; [exact (same_place_refl e)|]. repeat split. Qed.

(** Before the end: a point between the two vertices of a segment that contains s (within SMALL), at the place that s has between them. *)
Theorem C35_segment norm diff p s pos h e : sorted_s (vertex_ p) -> (2 <= List.length (vertex_ p))%nat -> last_vertex (vertex_ p) e -> s <= v_s e - SMALL ->
  exists i u w v a p', Evaluate norm diff p s pos h = Some (Some i, v, p') /\
    nth_error (vertex_ p) i = Some u /\ nth_error (vertex_ p) (S i) = Some w /\
    (i = 0%nat \/ v_s u + SMALL <= s) /\ s <= v_s w + SMALL /\ v_s v = s /\ 0 <= a <= 1 /\ between a u w v /\
    (s <= v_s u -> a == 0) /\ (SMALL <= v_s w - v_s u -> v_s w <= s -> a == 1) /\
    (SMALL <= v_s w - v_s u -> v_s u <= s <= v_s w -> a * (v_s w - v_s u) == s - v_s u).
Proof. intros So B L E. destruct (eval_segment norm diff p s pos h e So B L E) as (i & u & w & v & a & H). exists i, u, w, v, a. eexists. exact H. Qed.

(** The start index makes no difference, unless s is exactly SMALL past a vertex. *)
Theorem C35_hint_partial norm diff p s pos h1 h2 : sorted_s (vertex_ p) ->
  (forall k v, nth_error (vertex_ p) k = Some v -> ~ s == v_s v + SMALL) -> Evaluate norm diff p s pos h1 = Evaluate norm diff p s pos h2.
Proof. exact (eval_hint norm diff p s pos h1 h2). Qed.

(** The place of a vertex, at its own s. *)
Theorem C35_vertex norm diff p s pos h k vk : s == v_s vk -> sorted_s (vertex_ p) -> apart (vertex_ p) k -> nth_error (vertex_ p) k = Some vk ->
  exists i v p', Evaluate norm diff p s pos h = Some (Some i, v, p') /\ same_place v vk.
Proof. exact (eval_vertex norm diff p s pos h k vk). Qed.

(** Before the first vertex: its place. *)
Theorem C35_before norm diff p s pos h v0 : sorted_s (vertex_ p) -> nth_error (vertex_ p) 0 = Some v0 -> s <= v_s v0 ->
  ((2 <= List.length (vertex_ p))%nat -> forall e, last_vertex (vertex_ p) e -> s <= v_s e - SMALL) ->
  exists i v p', Evaluate norm diff p s pos h = Some (Some i, v, p') /\ i = 0%nat /\ same_place v v0.
Proof. exact (eval_first norm diff p s pos h v0). Qed.

(** Looking ahead: past the end is told exactly when it is more than SMALL past it, the point is the one at that distance. *)
Theorem C35_ahead norm diff p s d pos h : vertex_ p <> [] ->
  exists c i v p', FindPointAhead norm diff p s d pos h = Some (c, i, v, p') /\ Evaluate norm diff p (s + d) pos h = Some (i, v, p') /\
    (c = GHOST_TRAIL_DIST_PAST <-> length_ p + SMALL < s + d) /\ (c = GHOST_TRAIL_OK <-> s + d <= length_ p + SMALL).
Proof.
  intro NE. destruct (eval_total norm diff p (s + d) pos h NE) as (i & v & E & B). unfold FindPointAhead. rewrite E. cbn [option_map].
  eexists _, _, _, _. split; [reflexivity|]. split; [reflexivity|]. destruct (Qltb_spec (length_ p + SMALL) (s + d)); split; split; intro; try discriminate; auto; lra.
Qed.

(** Vertices added without s value: the distances are added up from 0, do not decrease and end in the length. *)
Theorem C35_build dist l c len m : (forall a b c d, 0 <= dist a b c d) ->
  let p := add_all dist (PLine [] c len m) l in
  sorted_s (vertex_ p) /\ List.length (vertex_ p) = List.length l /\
  (forall v, nth_error (vertex_ p) 0 = Some v -> v_s v == 0) /\
  (forall i u v, nth_error (vertex_ p) i = Some u -> nth_error (vertex_ p) (S i) = Some v -> v_s v == v_s u + dist (v_x v) (v_y v) (v_x u) (v_y u)) /\
  (forall e, last_vertex (vertex_ p) e -> length_ p = v_s e) /\
  (forall i v, nth_error l i = Some v -> exists s, nth_error (vertex_ p) i = Some (with_s s v)).
Proof.
  intros D p. pose proof (add_all_built dist l (PLine [] c len m) (empty_built dist c len m)) as B. destruct (add_all_vertices dist l (PLine [] c len m)) as (L1 & _ & L3).
  split; [apply (built_sorted dist D); auto|]. split; [exact L1|]. destruct B as (B0 & B1 & B2). split; [exact B0|]. split; [exact B1|]. split; [exact B2|exact L3].
Qed.

(** A vertex added with an s value keeps it, and it becomes the length. *)
Theorem C35_add dist p s v : vertex_ (AddVertex dist p (Some s) v) = vertex_ p ++ [with_s s v] /\ length_ (AddVertex dist p (Some s) v) = s.
Proof. split; reflexivity. Qed.

(** A reset starts over: with cleared vertices a polyline is the empty one, which then is built anew. *)
Theorem C35_reset dist p l : let q := add_all dist (Reset p true) l in q = add_all dist (PLine [] 0 0 (interpolation_mode_ p)) l /\ current_index_ (Reset p false) = 0%nat /\
  vertex_ (Reset p false) = vertex_ p.
Proof. repeat split. Qed.

(** ** Time to distance *)

(** The lookup returns, whatever the start index, if the time is not exactly SMALL before the last vertex. *)
Theorem C35_time_total_partial p t h : sorted_t (vertex_ p) -> (current_index_ p < List.length (vertex_ p))%nat \/ vertex_ p = [] ->
  (forall e, last_vertex (vertex_ p) e -> ~ t == v_time e - SMALL) -> exists c s i, Time2S p t h = Some (c, s, i).
Proof. exact (time_total p t h). Qed.

(** Without vertices that is told; one vertex alone is found at any time. *)
Theorem C35_time_few p t h : (vertex_ p = [] -> Time2S p t h = Some (GHOST_TRAIL_NO_VERTICES, 0, None)) /\
  (forall v, vertex_ p = [v] -> Time2S p t h = Some (GHOST_TRAIL_OK, 0, Some 0%nat)).
Proof. unfold Time2S. split; [intros -> | intros v ->]; reflexivity. Qed.

(** Prior to the first vertex. *)
Theorem C35_time_prior p t h v0 : (2 <= List.length (vertex_ p))%nat -> nth_error (vertex_ p) 0 = Some v0 -> t < v_time v0 + SMALL ->
  exists c, Time2S p t h = Some (c, 0, Some 0%nat) /\ (c = GHOST_TRAIL_TIME_PRIOR <-> t <= v_time v0 - SMALL) /\ (c = GHOST_TRAIL_OK <-> v_time v0 - SMALL < t).
Proof. exact (time_prior p t h v0). Qed.

(** Past the last vertex. *)
Theorem C35_time_past p t h v0 e : (2 <= List.length (vertex_ p))%nat -> nth_error (vertex_ p) 0 = Some v0 -> last_vertex (vertex_ p) e ->
  v_time v0 + SMALL <= t -> v_time e - SMALL < t ->
  exists c, Time2S p t h = Some (c, v_s e, Some (List.length (vertex_ p) - 1)%nat) /\
    (c = GHOST_TRAIL_TIME_PAST <-> v_time e + SMALL <= t) /\ (c = GHOST_TRAIL_OK <-> t < v_time e + SMALL).
Proof. exact (time_past p t h v0 e). Qed.

(** In between: interpolation on a segment whose time span is not empty and contains the time (shifted by SMALL). *)
Theorem C35_time_segment p t h v0 e : sorted_t (vertex_ p) -> (2 <= List.length (vertex_ p))%nat -> (current_index_ p < List.length (vertex_ p))%nat ->
  nth_error (vertex_ p) 0 = Some v0 -> last_vertex (vertex_ p) e -> v_time v0 + SMALL <= t -> t < v_time e - SMALL ->
  exists i u w, nth_error (vertex_ p) i = Some u /\ nth_error (vertex_ p) (S i) = Some w /\
    v_time u - SMALL <= t <= v_time w - SMALL /\ v_time u < v_time w /\
    Time2S p t h = Some (GHOST_TRAIL_OK, MAX 0 (v_s u + (t - v_time u) / (v_time w - v_time u) * (v_s w - v_s u)), Some i).
Proof.
  intros So B C V0 L T0 T1. destruct (time_segment p t h So B C v0 e V0 L T0 T1) as (i & u & w & U & W & (I1 & I2) & E). exists i, u, w. auto.
Qed.

(** Exact at the vertices, whatever the start index. *)
Theorem C35_time_vertex p h k vk : sorted_t (vertex_ p) -> (2 <= List.length (vertex_ p))%nat -> (current_index_ p < List.length (vertex_ p))%nat ->
  nth_error (vertex_ p) k = Some vk -> 0 <= v_s vk -> (k = 0%nat -> v_s vk == 0) ->
  (forall u, k <> 0%nat -> nth_error (vertex_ p) (k - 1) = Some u -> v_time u + SMALL <= v_time vk) ->
  (forall w, nth_error (vertex_ p) (S k) = Some w -> v_time vk + SMALL < v_time w) ->
  exists s, Time2S p (v_time vk) h = Some (GHOST_TRAIL_OK, s, Some k) /\ s == v_s vk.
Proof. exact (time_vertex p h k vk). Qed.

(** The result is never outside the polyline. *)
Theorem C35_time_range p t h c s i : sorted_t (vertex_ p) -> sorted_s (vertex_ p) -> (2 <= List.length (vertex_ p))%nat ->
  (current_index_ p < List.length (vertex_ p))%nat -> (forall v0, nth_error (vertex_ p) 0 = Some v0 -> v_s v0 == 0) ->
  Time2S p t h = Some (c, s, i) -> forall e, last_vertex (vertex_ p) e -> 0 <= s <= v_s e.
Proof. exact (time_bounds p t h c s i). Qed.

(** Monotone, if the later time is not just before a vertex (less than SMALL). *)
Theorem C35_time_monotone_partial p t1 t2 h1 h2 c1 c2 s1 s2 i1 i2 : sorted_t (vertex_ p) -> sorted_s (vertex_ p) -> (2 <= List.length (vertex_ p))%nat ->
  (current_index_ p < List.length (vertex_ p))%nat -> (forall v0, nth_error (vertex_ p) 0 = Some v0 -> v_s v0 == 0) -> t1 <= t2 ->
  ~ (exists k v, nth_error (vertex_ p) k = Some v /\ v_time v - SMALL <= t2 < v_time v) ->
  Time2S p t1 h1 = Some (c1, s1, i1) -> Time2S p t2 h2 = Some (c2, s2, i2) -> s1 <= s2.
Proof. exact (time_mono p t1 t2 h1 h2 c1 c2 s1 s2 i1 i2). Qed.

(** The point at the time of a vertex is its place. *)
Theorem C35_time_point norm diff p pos h k vk : sorted_t (vertex_ p) -> sorted_s (vertex_ p) -> (2 <= List.length (vertex_ p))%nat ->
  (current_index_ p < List.length (vertex_ p))%nat -> (forall v0, nth_error (vertex_ p) 0 = Some v0 -> v_s v0 == 0) ->
  nth_error (vertex_ p) k = Some vk -> apart (vertex_ p) k ->
  (forall u, k <> 0%nat -> nth_error (vertex_ p) (k - 1) = Some u -> v_time u + SMALL <= v_time vk) ->
  (forall w, nth_error (vertex_ p) (S k) = Some w -> v_time vk + SMALL < v_time w) ->
  exists i v p', FindPointAtTime norm diff p (v_time vk) pos h = Some (GHOST_TRAIL_OK, i, v, p') /\ same_place v vk.
Proof. exact (find_at_vertex norm diff p pos h k vk). Qed.

(** A time relative to the first vertex. *)
Theorem C35_time_relative norm diff p t pos h v0 : nth_error (vertex_ p) 0 = Some v0 ->
  FindPointAtTimeRelative norm diff p t pos h = FindPointAtTime norm diff p (v_time v0 + t) pos h.
Proof. unfold FindPointAtTimeRelative. destruct (vertex_ p); [discriminate|]. cbn. intro E. injection E as ->. reflexivity. Qed.

(** ** Angles *)

(** Over the whole segment. *)
Theorem C35_angle_segment norm diff p i ls u w : interpolation_mode_ p = INTERPOLATE_SEGMENT -> nth_error (vertex_ p) i = Some u -> nth_error (vertex_ p) (S i) = Some w ->
  exists v a, EvaluateSegmentByLocalS norm diff p i ls = Some v /\ between a u w v /\ v_h v = norm (v_h u + a * diff (v_h w) (v_h u)) /\
    (v_mode u = v_mode w -> v_pitch v = norm (v_pitch u + a * diff (v_pitch w) (v_pitch u)) /\ v_r v = norm (v_r u + a * diff (v_r w) (v_r u))) /\
    (v_mode u <> v_mode w -> v_pitch v = norm (v_pitch u) /\ v_r v = norm (v_r u)).
Proof.
  intros M U W. destruct (segment_mode norm diff p i ls u w M U W) as (v & E & H). destruct (segment_between norm diff p i ls u w U W) as (v' & E' & Bt).
  assert (v' = v) by congruence. subst v'. exists v, (weight u w ls). auto.
Qed.

(** No interpolation. *)
Theorem C35_angle_none norm diff p i ls u w : interpolation_mode_ p = INTERPOLATE_NONE -> nth_error (vertex_ p) i = Some u -> nth_error (vertex_ p) (S i) = Some w ->
  exists v, EvaluateSegmentByLocalS norm diff p i ls = Some v /\ v_h v = norm (v_h u) /\ v_pitch v = norm (v_pitch u) /\ v_r v = norm (v_r u).
Proof. exact (none_mode norm diff p i ls u w). Qed.

(** At corners: the heading does not jump from one segment to the next, it is the mean of both there. *)
Theorem C35_angle_corner norm diff p i u w x : (forall x y, x == y -> norm x = norm y) -> interpolation_mode_ p = INTERPOLATE_CORNER ->
  nth_error (vertex_ p) i = Some u -> nth_error (vertex_ p) (S i) = Some w -> nth_error (vertex_ p) (S (S i)) = Some x ->
  forall ls ls', v_s w - v_s u <= ls -> SMALL <= ls -> ls' <= 0 ->
  exists v v', EvaluateSegmentByLocalS norm diff p i ls = Some v /\ EvaluateSegmentByLocalS norm diff p (S i) ls' = Some v' /\
    v_h v = norm (v_h u + (1 # 2) * diff (v_h w) (v_h u)) /\ v_h v' = v_h v /\
    (v_mode u = v_mode w -> v_mode w = v_mode x -> v_pitch v' = v_pitch v /\ v_r v' = v_r v).
Proof. intro P. exact (corner_continuous norm diff P p i u w x). Qed.

(** At the end of the last segment the heading of the last vertex is reached. *)
Theorem C35_angle_last norm diff p i u w ls : (forall x y, x == y -> norm x = norm y) -> interpolation_mode_ p = INTERPOLATE_CORNER ->
  nth_error (vertex_ p) i = Some u -> nth_error (vertex_ p) (S i) = Some w -> nth_error (vertex_ p) (S (S i)) = None ->
  v_s w - v_s u <= ls -> SMALL <= ls -> exists v, EvaluateSegmentByLocalS norm diff p i ls = Some v /\ v_h v = norm (v_h u + diff (v_h w) (v_h u)).
Proof. intro P. exact (corner_last norm diff P p i u w ls). Qed.

(** More than 2 m from both ends the angles of the segment are used. *)
Theorem C35_angle_straight norm diff p i u w ls : interpolation_mode_ p = INTERPOLATE_CORNER ->
  nth_error (vertex_ p) i = Some u -> nth_error (vertex_ p) (S i) = Some w -> 4 <= v_s w - v_s u -> 2 <= ls -> ls <= v_s w - v_s u - 2 ->
  exists v, EvaluateSegmentByLocalS norm diff p i ls = Some v /\ v_h v = norm (v_h u) /\ v_pitch v = norm (v_pitch u) /\ v_r v = norm (v_r u).
Proof. exact (corner_straight norm diff p i u w ls). Qed.

(** ** What does not hold *)

Definition vx (s x t : Q) : vertex := Vertex s x 0 0 0 0 0 0%N t 0 0 0 0%Z 0 0.
Definition line : pline := PLine [vx 0 0 0; vx 10 10 1; vx 20 30 2] 0 20 INTERPOLATE_SEGMENT.

(** Exactly SMALL past a vertex the result depends on the start index. *)
Theorem C35_hint_refuted : exists p s h1 h2, sorted_s (vertex_ p) /\
  forall norm diff pos i1 i2 v1 v2 p1 p2, Evaluate norm diff p s pos h1 = Some (i1, v1, p1) -> Evaluate norm diff p s pos h2 = Some (i2, v2, p2) ->
  i1 <> i2 /\ ~ v_x v1 == v_x v2.
Proof.
  exists line, (10 + SMALL), (Some 0%nat), (Some 1%nat). split.
  - intros [|[|[|i]]] u v U V; cbn in U, V; try discriminate; try (destruct i; discriminate); injection U as <-; injection V as <-; cbn; discriminate.
  - intros norm diff pos i1 i2 v1 v2 p1 p2 E1 E2. vm_compute in E1, E2. injection E1 as <- <- _. injection E2 as <- <- _. split; [discriminate|].
    intro H. vm_compute in H. discriminate.
Qed.

(** Before the start the place is the first vertex, but the s returned is the one asked for. *)
Theorem C35_clamp_refuted : exists p s pos h i v p', Evaluate (fun x => x) Qminus p s pos h = Some (Some i, v, p') /\ sorted_s (vertex_ p) /\
  v_x v == 0 /\ v_s v == -5 /\ forall u, In u (vertex_ p) -> 0 <= v_s u.
Proof.
  exists line, (-5), (vx 0 0 0), (Some 0%nat). eexists _, _, _. split; [reflexivity|]. split; [|split; [reflexivity|split; [reflexivity|]]].
  - intros [|[|[|i]]] u v U V; cbn in U, V; try discriminate; try (destruct i; discriminate); injection U as <-; injection V as <-; cbn; discriminate.
  - cbn. intros u [<-|[<-|[<-|[]]]]; cbn; discriminate.
Qed.

(** Exactly SMALL before the last vertex a vertex that does not exist is accessed. *)
Theorem C35_time_total_refuted : exists p t h, sorted_t (vertex_ p) /\ (current_index_ p < List.length (vertex_ p))%nat /\ Time2S p t h = None.
Proof.
  exists line, (2 - SMALL), None. split; [|split; [cbn; lia|reflexivity]].
  intros [|[|[|i]]] u v U V; cbn in U, V; try discriminate; try (destruct i; discriminate); injection U as <-; injection V as <-; cbn; discriminate.
Qed.

(** The distance may fall while time goes on, just before a vertex after which the speed is higher. *)
Theorem C35_time_monotone_refuted : exists p t1 t2 c1 c2 s1 s2 i1 i2, sorted_t (vertex_ p) /\ sorted_s (vertex_ p) /\ t1 < t2 /\
  Time2S p t1 None = Some (c1, s1, i1) /\ Time2S p t2 None = Some (c2, s2, i2) /\ s2 < s1.
Proof.
  exists (PLine [vx 0 0 0; vx 1 1 1; vx 101 101 2] 0 101 INTERPOLATE_NONE), (1 - 2 * SMALL), (1 - SMALL).
  eexists _, _, _, _, _, _. split; [|split; [|split; [reflexivity|split; [reflexivity|split; [reflexivity|reflexivity]]]]];
  intros [|[|[|i]]] u v U V; cbn in U, V; try discriminate; try (destruct i; discriminate); injection U as <-; injection V as <-; cbn; discriminate.
Qed.

(** A polyline that does not start at s = 0 is left at 0 before its first vertex. *)
Theorem C35_time_start_refuted : exists p t c s i v0, nth_error (vertex_ p) 0 = Some v0 /\ sorted_s (vertex_ p) /\ Time2S p t None = Some (c, s, i) /\ s < v_s v0.
Proof.
  exists (PLine [vx 5 0 0; vx 6 1 1] 0 6 INTERPOLATE_NONE), 0. eexists _, _, _, _. split; [reflexivity|]. split; [|split; reflexivity].
  intros [|[|i]] u v U V; cbn in U, V; try discriminate; try (destruct i; discriminate); injection U as <-; injection V as <-; cbn; discriminate.
Qed.

(** A time relative to the first vertex is read from a vertex that does not exist, if there is none. *)
Theorem C35_time_relative_refuted norm diff c len m t pos h : FindPointAtTimeRelative norm diff (PLine [] c len m) t pos h = None.
Proof. reflexivity. Qed.

(** After a reset that keeps the vertices, the end has distance 0. *)
Theorem C35_reset_refuted : exists p e pos i v p', last_vertex (vertex_ p) e /\ length_ p = v_s e /\ v_s e == 20 /\
  Evaluate (fun x => x) Qminus (Reset p false) 20 pos None = Some (i, v, p') /\ v_s v == 0.
Proof. exists line, (vx 20 30 2), (vx 0 0 0). eexists _, _, _. repeat split. Qed.

(** ** Examples *)

Lemma line_sorted : sorted_s (vertex_ line).
Proof. intros [|[|[|i]]] u v U V; cbn in U, V; try discriminate; try (destruct i; discriminate); injection U as <-; injection V as <-; cbn; discriminate. Qed.
Lemma line_sorted_t : sorted_t (vertex_ line).
Proof. intros [|[|[|i]]] u v U V; cbn in U, V; try discriminate; try (destruct i; discriminate); injection U as <-; injection V as <-; cbn; discriminate. Qed.
Lemma line_apart k : apart (vertex_ line) k.
Proof.
  split.
  - intros u v N U V. destruct k as [|[|[|[|k]]]]; cbn in U, V; try congruence; try (destruct k; discriminate); injection U as <-; injection V as <-; reflexivity.
  - intros u v U V. destruct k as [|[|[|k]]]; cbn in U, V; try discriminate; try (destruct k; discriminate); injection U as <-; injection V as <-; reflexivity.
Qed.

Example C35_total_ex : vertex_ line <> [] /\ exists v p', Evaluate (fun x => x) Qminus line 15 (vx 0 0 0) (Some 0%nat) = Some (Some 1%nat, v, p') /\ v_x v == 20 /\ v_time v == 3 # 2.
Proof. split; [discriminate|]. eexists _, _. split; [reflexivity|]. split; reflexivity. Qed.
Example C35_empty_ex : Evaluate (fun x => x) Qminus (PLine [] 0 0 INTERPOLATE_NONE) 5 (vx 1 2 3) None = Some (None, vx 1 2 3, PLine [] 0 0 INTERPOLATE_NONE).
Proof. apply C35_empty. reflexivity. Qed.
Example C35_end_ex : last_vertex (vertex_ line) (vx 20 30 2) /\ v_s (vx 20 30 2) - SMALL < 25.
Proof. split; reflexivity. Qed.
Example C35_segment_ex : exists i u w v a p', Evaluate (fun x => x) Qminus line 4 (vx 0 0 0) None = Some (Some i, v, p') /\ nth_error (vertex_ line) i = Some u /\ nth_error (vertex_ line) (S i) = Some w /\
  v_s v = 4 /\ between a u w v /\ a * 10 == 4.
Proof.
  destruct (C35_segment (fun x => x) Qminus line 4 (vx 0 0 0) None (vx 20 30 2) line_sorted ltac:(cbn; lia) eq_refl ltac:(discriminate)) as (i & u & w & v & a & p' & E & U & W & C1 & C2 & S & A & B & _ & _ & M).
  exists i, u, w, v, a, p'. split; auto. split; auto. split; auto. split; auto. split; auto.
  assert (i = 0%nat).
  { destruct i as [|[|[|i]]]; cbn in U, W; [reflexivity| |discriminate|destruct i; discriminate]. injection U as <-. destruct C1 as [|C1]; [discriminate|]. vm_compute in C1. congruence. }
  subst i. cbn in U, W. injection U as <-. injection W as <-. cbn [v_s vx] in M. assert (M' := M ltac:(discriminate) ltac:(split; discriminate)). lra.
Qed.
Example C35_hint_partial_ex : (forall k v, nth_error (vertex_ line) k = Some v -> ~ 4 == v_s v + SMALL) /\
  Evaluate (fun x => x) Qminus line 4 (vx 0 0 0) None = Evaluate (fun x => x) Qminus line 4 (vx 0 0 0) (Some 2%nat).
Proof.
  assert (H: forall k v, nth_error (vertex_ line) k = Some v -> ~ 4 == v_s v + SMALL).
  { intros [|[|[|k]]] v V; cbn in V; try (destruct k; discriminate); injection V as <-; intro X; vm_compute in X; discriminate. }
  split; [exact H|]. apply C35_hint_partial; [exact line_sorted|exact H].
Qed.
Example C35_vertex_ex : exists i v p', Evaluate (fun x => x) Qminus line 10 (vx 0 0 0) (Some 2%nat) = Some (Some i, v, p') /\ same_place v (vx 10 10 1).
Proof. apply (C35_vertex (fun x => x) Qminus line 10 (vx 0 0 0) (Some 2%nat) 1 (vx 10 10 1)); [reflexivity|exact line_sorted|apply line_apart|reflexivity]. Qed.
Example C35_before_ex : exists i v p', Evaluate (fun x => x) Qminus line (-3) (vx 7 7 7) (Some 1%nat) = Some (Some i, v, p') /\ i = 0%nat /\ same_place v (vx 0 0 0).
Proof.
  apply (C35_before (fun x => x) Qminus line (-3) (vx 7 7 7) (Some 1%nat) (vx 0 0 0)); [exact line_sorted|reflexivity|discriminate|].
  intros _ e L. cbn in L. unfold last_vertex in L. cbn in L. injection L as <-. discriminate.
Qed.
Example C35_ahead_ex : exists i v p', FindPointAhead (fun x => x) Qminus line 15 10 (vx 0 0 0) None = Some (GHOST_TRAIL_DIST_PAST, i, v, p') /\ v_x v == 30.
Proof. eexists _, _, _. split; reflexivity. Qed.
Example C35_build_ex : let p := add_all (fun a b c d => Qabs (a - c) + Qabs (b - d)) (PLine [] 0 0 INTERPOLATE_NONE) [vx 7 0 0; vx 7 3 1; vx 7 5 2] in
  map v_s (vertex_ p) = [0; 0 + (Qabs (3 - 0) + Qabs (0 - 0)); 0 + (Qabs (3 - 0) + Qabs (0 - 0)) + (Qabs (5 - 3) + Qabs (0 - 0))] /\ length_ p == 5.
Proof. split; reflexivity. Qed.
Example C35_add_ex : length_ (AddVertex (fun _ _ _ _ => 1) line (Some 33) (vx 0 0 0)) = 33.
Proof. apply C35_add. Qed.
Example C35_reset_ex : length_ (add_all (fun _ _ _ _ => 1) (Reset line true) [vx 0 0 0; vx 0 1 1]) == 1.
Proof. reflexivity. Qed.
Example C35_time_few_ex : Time2S (PLine [vx 3 4 5] 0 3 INTERPOLATE_NONE) 77 None = Some (GHOST_TRAIL_OK, 0, Some 0%nat).
Proof. apply (proj2 (C35_time_few _ 77 None) (vx 3 4 5)). reflexivity. Qed.
Example C35_time_total_ex : exists c s i, Time2S line (3 # 2) (Some 9%nat) = Some (c, s, i).
Proof.
  apply C35_time_total_partial; [exact line_sorted_t|left; cbn; lia|]. intros e L X. unfold last_vertex in L. cbn in L. injection L as <-. vm_compute in X. discriminate.
Qed.
Example C35_time_prior_ex : Time2S line (-1) None = Some (GHOST_TRAIL_TIME_PRIOR, 0, Some 0%nat) /\ Time2S line 0 None = Some (GHOST_TRAIL_OK, 0, Some 0%nat).
Proof. split; reflexivity. Qed.
Example C35_time_past_ex : Time2S line 3 None = Some (GHOST_TRAIL_TIME_PAST, 20, Some 2%nat) /\ Time2S line 2 None = Some (GHOST_TRAIL_OK, 20, Some 2%nat).
Proof. split; reflexivity. Qed.
Example C35_time_segment_ex : exists s, Time2S line (3 # 2) None = Some (GHOST_TRAIL_OK, s, Some 1%nat) /\ s == 15.
Proof. eexists. split; reflexivity. Qed.
Example C35_time_vertex_ex : exists s, Time2S line 1 (Some 0%nat) = Some (GHOST_TRAIL_OK, s, Some 1%nat) /\ s == 10.
Proof.
  apply (C35_time_vertex line (Some 0%nat) 1 (vx 10 10 1)); [exact line_sorted_t|cbn; lia|cbn; lia|reflexivity|discriminate|discriminate| |].
  - intros u _ U. cbn in U. injection U as <-. discriminate.
  - intros w W. cbn in W. injection W as <-. reflexivity.
Qed.
Example C35_time_range_ex : exists s, Time2S line (1 # 2) None = Some (GHOST_TRAIL_OK, s, Some 0%nat) /\ 0 <= s <= 20.
Proof. eexists. split; [reflexivity|]. split; discriminate. Qed.
Example C35_time_monotone_ex : exists s1 s2, Time2S line (1 # 2) None = Some (GHOST_TRAIL_OK, s1, Some 0%nat) /\ Time2S line (3 # 2) None = Some (GHOST_TRAIL_OK, s2, Some 1%nat) /\ s1 < s2 /\
  ~ (exists k v, nth_error (vertex_ line) k = Some v /\ v_time v - SMALL <= 3 # 2 < v_time v).
Proof.
  eexists _, _. split; [reflexivity|]. split; [reflexivity|]. split; [reflexivity|]. intros (k & v & V & A & B).
  destruct k as [|[|[|k]]]; cbn in V; try (destruct k; discriminate); injection V as <-; vm_compute in A, B; congruence.
Qed.
Example C35_time_point_ex : exists i v p', FindPointAtTime (fun x => x) Qminus line 1 (vx 0 0 0) None = Some (GHOST_TRAIL_OK, i, v, p') /\ same_place v (vx 10 10 1).
Proof.
  apply (C35_time_point (fun x => x) Qminus line (vx 0 0 0) None 1 (vx 10 10 1)); [exact line_sorted_t|exact line_sorted|cbn; lia|cbn; lia| |reflexivity|apply line_apart| |].
  - intros v0 V. cbn in V. injection V as <-. reflexivity.
  - intros u _ U. cbn in U. injection U as <-. discriminate.
  - intros w W. cbn in W. injection W as <-. reflexivity.
Qed.
Example C35_time_relative_ex : exists i v p', FindPointAtTimeRelative (fun x => x) Qminus (PLine [vx 0 0 5; vx 10 10 6] 0 10 INTERPOLATE_NONE) (1 # 2) (vx 0 0 0) None = Some (GHOST_TRAIL_OK, i, v, p') /\ v_x v == 5.
Proof. eexists _, _, _. split; reflexivity. Qed.

Definition vh (s h : Q) : vertex := Vertex s s 0 0 h 0 0 0%N 0 0 0 0 0%Z 0 0.
Definition bend (m : imode) : pline := PLine [vh 0 0; vh 10 1; vh 20 2] 0 20 m.
Example C35_angle_segment_ex : exists v, EvaluateSegmentByLocalS (fun x => x) Qminus (bend INTERPOLATE_SEGMENT) 0 5 = Some v /\ v_h v == 1 # 2.
Proof. eexists. split; reflexivity. Qed.
Example C35_angle_none_ex : exists v, EvaluateSegmentByLocalS (fun x => x) Qminus (bend INTERPOLATE_NONE) 1 5 = Some v /\ v_h v == 1.
Proof. eexists. split; reflexivity. Qed.
Example C35_angle_corner_ex : exists v v', EvaluateSegmentByLocalS (fun x => x) Qminus (bend INTERPOLATE_CORNER) 0 10 = Some v /\
  EvaluateSegmentByLocalS (fun x => x) Qminus (bend INTERPOLATE_CORNER) 1 0 = Some v' /\ v_h v == 1 # 2 /\ v_h v' == 1 # 2.
Proof. eexists _, _. split; [reflexivity|]. split; [reflexivity|]. split; reflexivity. Qed.
Example C35_angle_last_ex : exists v, EvaluateSegmentByLocalS (fun x => x) Qminus (bend INTERPOLATE_CORNER) 1 10 = Some v /\ v_h v == 2.
Proof. eexists. split; reflexivity. Qed.
Example C35_angle_straight_ex : exists v, EvaluateSegmentByLocalS (fun x => x) Qminus (bend INTERPOLATE_CORNER) 1 5 = Some v /\ v_h v == 1.
Proof. eexists. split; reflexivity. Qed.

Print Assumptions C35_total.
Print Assumptions C35_empty.
Print Assumptions C35_end.
Print Assumptions C35_segment.
Print Assumptions C35_hint_partial.
Print Assumptions C35_vertex.
Print Assumptions C35_before.
Print Assumptions C35_ahead.
Print Assumptions C35_build.
Print Assumptions C35_add.
Print Assumptions C35_time_total_partial.
Print Assumptions C35_time_prior.
Print Assumptions C35_time_past.
Print Assumptions C35_time_segment.
Print Assumptions C35_time_vertex.
Print Assumptions C35_time_range.
Print Assumptions C35_time_monotone_partial.
Print Assumptions C35_time_point.
Print Assumptions C35_time_relative.
Print Assumptions C35_angle_segment.
Print Assumptions C35_angle_none.
Print Assumptions C35_angle_corner.
Print Assumptions C35_angle_last.
Print Assumptions C35_angle_straight.
Print Assumptions C35_hint_refuted.
Print Assumptions C35_clamp_refuted.
Print Assumptions C35_time_total_refuted.
Print Assumptions C35_time_monotone_refuted.
Print Assumptions C35_time_start_refuted.
Print Assumptions C35_time_relative_refuted.
Print Assumptions C35_reset_refuted.

Print Assumptions C35_reset.
Print Assumptions C35_time_few.
