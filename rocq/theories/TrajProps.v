(** C50: timing of polyline trajectories. *)
From Verif Require Import QAux LaneModel PolyModel PolyProofs TrajProofs.
From Coq Require Import PeanoNat.
Local Open Scope nat_scope.
Local Open Scope Q_scope.

(** The polyline of a trajectory has the places and times of its vertices, and distances added up from 0. *)
Theorem C50_polyline dist heading slope mode v0 l p p' : vertex_ p <> [] -> List.length (vertex_ p) = List.length l ->
  CalculatePolyLine dist heading slope mode v0 l p = Some p' ->
  List.length (vertex_ p') = List.length l /\
  (forall i t, nth_error l i = Some t -> exists v, nth_error (vertex_ p') i = Some v /\ v_x v = tv_x t /\ v_y v = tv_y t /\ v_z v = tv_z t /\ v_time v = tv_time t) /\
  (forall v, nth_error (vertex_ p') 0 = Some v -> v_s v = 0) /\
  (forall i u v, nth_error (vertex_ p') i = Some u -> nth_error (vertex_ p') (S i) = Some v -> v_s v = v_s u + dist (v_x v) (v_y v) (v_x u) (v_y u)) /\
  (forall e, last_vertex (vertex_ p') e -> length_ p' = v_s e) /\ current_index_ p' = 0%nat.
Proof. exact (calc_traced dist heading slope mode v0 l p p'). Qed.

(** Two vertices or more are enough, if no two that follow each other have the same time in mode follow. *)
Theorem C50_defined dist heading slope mode v0 l p : (2 <= List.length l)%nat -> List.length (vertex_ p) = List.length l ->
  (mode = FOLLOW -> forall i t t', nth_error l i = Some t -> nth_error l (S i) = Some t' -> ~ tv_time t == tv_time t') ->
  exists p', CalculatePolyLine dist heading slope mode v0 l p = Some p'.
Proof. exact (calc_defined dist heading slope mode v0 l p). Qed.

(** Two vertices at one place: the object stands still there, and leaves with speed 0. *)
Theorem C50_standstill dist heading slope v0 l p p' i u w : vertex_ p <> [] ->
  CalculatePolyLine dist heading slope FOLLOW v0 l p = Some p' ->
  nth_error (vertex_ p') i = Some u -> nth_error (vertex_ p') (S i) = Some w -> Qabs (v_s w - v_s u) <= SMALL -> v_acc u = 0 /\ v_speed w = 0.
Proof.
  intros NE H U W D. pose proof (calc_inv _ _ _ _ _ _ _ _ NE H) as (pl & ql & _ & _ & _ & F & _).
  pose proof (proj2 (follow_steps _ _ _ F) i u w U W) as A. unfold segment_acc in A. destruct (Qltb_spec SMALL (Qabs (v_s w - v_s u))) as [X|X]; [lra|].
  injection A as A1 A2. auto.
Qed.

(** Mode follow, from a speed that is not negative, all vertices apart in time and place: each vertex is reached in time, the distance
    does not fall, speeds are not negative, and the speed reached at the end of a segment is the one at the start of the next. *)
Theorem C50_follow dist heading slope v0 l p p' : (forall a b c d, 0 <= dist a b c d) -> 0 <= v0 -> (2 <= List.length l)%nat ->
  List.length (vertex_ p) = List.length l ->
  (forall i t t', nth_error l i = Some t -> nth_error l (S i) = Some t' -> tv_time t < tv_time t' /\ SMALL < dist (tv_x t') (tv_y t') (tv_x t) (tv_y t)) ->
  CalculatePolyLine dist heading slope FOLLOW v0 l p = Some p' ->
  (forall k v q, nth_error (vertex_ p') k = Some v -> q == v_time v -> fst (shape_s p' PARAM_TIME q) == v_s v) /\
  (forall q q', q <= q' -> fst (shape_s p' PARAM_TIME q) <= fst (shape_s p' PARAM_TIME q')) /\
  (forall k u w q, nth_error (vertex_ p') k = Some u -> nth_error (vertex_ p') (S k) = Some w -> v_time u <= q -> q <= v_time w ->
     v_s u <= fst (shape_s p' PARAM_TIME q) <= v_s w) /\
  (forall v, nth_error (vertex_ p') 0 = Some v -> v_speed v = v0) /\ (forall i v, nth_error (vertex_ p') i = Some v -> 0 <= v_speed v) /\
  (forall i u w, nth_error (vertex_ p') i = Some u -> nth_error (vertex_ p') (S i) = Some w -> v_speed u + v_acc u * effective u (v_time w) == v_speed w).
Proof.
  intros D V B L St E. destruct (follow_timed dist heading slope D v0 l p p' V B L St E) as (T & S1 & S2 & S3).
  split; [intros k v q; apply timed_vertex; auto|]. split; [intros q q'; apply timed_mono; auto|]. split; [|auto].
  intros k u w q U W Q1 Q2. exact (proj2 (timed_between p' k u w q T U W Q1 Q2)).
Qed.

(** Mode position: the distance is linear in time on every segment, from vertex to vertex. *)
Theorem C50_position_partial dist heading slope v0 l p p' : (forall a b c d, 0 <= dist a b c d) -> (2 <= List.length l)%nat ->
  List.length (vertex_ p) = List.length l -> (forall v, In v (vertex_ p) -> v_acc v == 0) ->
  (forall i t t', nth_error l i = Some t -> nth_error l (S i) = Some t' -> SMALL < tv_time t' - tv_time t) ->
  CalculatePolyLine dist heading slope POSITION v0 l p = Some p' ->
  (forall k v q, nth_error (vertex_ p') k = Some v -> q == v_time v -> fst (shape_s p' PARAM_TIME q) == v_s v) /\
  (forall q q', q <= q' -> fst (shape_s p' PARAM_TIME q) <= fst (shape_s p' PARAM_TIME q')) /\
  (forall i u w q, nth_error (vertex_ p') i = Some u -> nth_error (vertex_ p') (S i) = Some w -> v_time u <= q -> q <= v_time w ->
     fst (shape_s p' PARAM_TIME q) == v_s u + (q - v_time u) / (v_time w - v_time u) * (v_s w - v_s u)).
Proof.
  intros D B L A St E. destruct (position_timed dist heading slope D v0 l p p' B L A St E) as (T & S1).
  split; [intros k v q; apply timed_vertex; auto|]. split; [intros q q'; apply timed_mono; auto|exact S1].
Qed.

(** After the last vertex: the end of the polyline. *)
Theorem C50_past p q e : last_vertex (vertex_ p) e -> v_time e < q -> shape_s p PARAM_TIME q = (length_ p, (List.length (vertex_ p) - 1)%nat).
Proof. exact (shape_past p q e). Qed.

(** The object is at the place of a vertex at the time of the vertex: in mode follow ... *)
Theorem C50_follow_place dist heading slope norm diff v0 l p p' pos k t q : (forall a b c d, 0 <= dist a b c d) -> 0 <= v0 -> (2 <= List.length l)%nat ->
  List.length (vertex_ p) = List.length l ->
  (forall i t t', nth_error l i = Some t -> nth_error l (S i) = Some t' -> tv_time t < tv_time t' /\ SMALL < dist (tv_x t') (tv_y t') (tv_x t) (tv_y t)) ->
  CalculatePolyLine dist heading slope FOLLOW v0 l p = Some p' -> nth_error l k = Some t -> q == tv_time t ->
  exists v p'', ShapeEvaluate norm diff p' q PARAM_TIME pos = Some (0%Z, v, p'') /\ v_x v == tv_x t /\ v_y v == tv_y t /\ v_z v == tv_z t /\ v_time v == tv_time t.
Proof.
  intros D V B L St E K Q. destruct (follow_timed dist heading slope D v0 l p p' V B L St E) as (T & _).
  assert (NE: vertex_ p <> []). { intro X. rewrite X in L. cbn in L. lia. }
  apply (shape_at_vertex dist norm diff l p' pos k t q T); auto. - exact (calc_traced dist heading slope FOLLOW v0 l p p' NE L E). - intros i t1 t2 X Y. apply (St i t1 t2 X Y).
Qed.

(** ... and in mode position. *)
Theorem C50_position_place_partial dist heading slope norm diff v0 l p p' pos k t q : (forall a b c d, 0 <= dist a b c d) -> (2 <= List.length l)%nat ->
  List.length (vertex_ p) = List.length l -> (forall v, In v (vertex_ p) -> v_acc v == 0) ->
  (forall i t t', nth_error l i = Some t -> nth_error l (S i) = Some t' -> SMALL < tv_time t' - tv_time t /\ SMALL < dist (tv_x t') (tv_y t') (tv_x t) (tv_y t)) ->
  CalculatePolyLine dist heading slope POSITION v0 l p = Some p' -> nth_error l k = Some t -> q == tv_time t ->
  exists v p'', ShapeEvaluate norm diff p' q PARAM_TIME pos = Some (0%Z, v, p'') /\ v_x v == tv_x t /\ v_y v == tv_y t /\ v_z v == tv_z t /\ v_time v == tv_time t.
Proof.
  intros D B L A St E K Q. destruct (position_timed dist heading slope D v0 l p p' B L A (fun i t1 t2 X Y => proj1 (St i t1 t2 X Y)) E) as (T & _).
  assert (NE: vertex_ p <> []). { intro X. rewrite X in L. cbn in L. lia. }
  apply (shape_at_vertex dist norm diff l p' pos k t q T); auto. - exact (calc_traced dist heading slope POSITION v0 l p p' NE L E). - intros i t1 t2 X Y. apply (St i t1 t2 X Y).
Qed.

(** By distance: the place of a vertex at its own distance, the end past the end; nothing without vertices. *)
Theorem C50_by_distance norm diff p pos k vk q : sorted_s (vertex_ p) -> apart (vertex_ p) k -> nth_error (vertex_ p) k = Some vk -> q == v_s vk ->
  exists v p', ShapeEvaluate norm diff p q PARAM_S pos = Some (0%Z, v, p') /\ same_place v vk.
Proof. exact (distance_vertex norm diff p pos k vk q). Qed.
Theorem C50_by_distance_past norm diff p pos e q : last_vertex (vertex_ p) e -> length_ p = v_s e -> v_s e < q ->
  exists v p', ShapeEvaluate norm diff p q PARAM_S pos = Some (0%Z, v, p') /\ v_s v = length_ p /\ same_place v e.
Proof. exact (distance_past norm diff p pos e q). Qed.
Theorem C50_by_distance_between norm diff p pos e q : last_vertex (vertex_ p) e -> q <= v_s e ->
  exists i, ShapeEvaluate norm diff p q PARAM_S pos = option_map (fun '(_, v, p') => (0%Z, v, p')) (Evaluate norm diff p q pos (Some i)).
Proof. exact (distance_between norm diff p pos e q). Qed.
(** The search by distance begins at the vertex before the distance asked for. *)
Theorem C50_by_distance_index p q e : last_vertex (vertex_ p) e -> q <= v_s e ->
  exists i, shape_s p PARAM_S q = (q, i) /\ (i < List.length (vertex_ p))%nat /\ (i = 0%nat \/ s_at (vertex_ p) i < q) /\
  (i = (List.length (vertex_ p) - 1)%nat \/ q <= s_at (vertex_ p) (S i)).
Proof. exact (shape_by_distance p q e). Qed.
Theorem C50_no_vertices norm diff p ty pos q : vertex_ p = [] -> ShapeEvaluate norm diff p q ty pos = Some ((-1)%Z, pos, p).
Proof. unfold ShapeEvaluate. intros ->. reflexivity. Qed.

(** Headings and pitches: [D i] is the direction at vertex i.  It is the one to the next vertex if that is apart, and the one before
    otherwise and at the end; the first is the one of the first segment that is not too short.  It is used where the vertex does not
    tell heading or pitch. *)
Theorem C50_direction dist heading slope mode v0 l p p' : vertex_ p <> [] -> List.length (vertex_ p) = List.length l ->
  CalculatePolyLine dist heading slope mode v0 l p = Some p' -> exists D : nat -> Q * Q,
  (forall i t v, nth_error l i = Some t -> nth_error (vertex_ p') i = Some v -> exists c, c = copy_vertex v t (nth_error l (S i)) /\
     v_mode v = v_mode c /\ v_r v = v_r c /\ v_htrue v = fst (D i) /\ v_road v = tv_track t /\ v_param v = 0 /\
     v_h v = (if (Z.land (v_mode v) H_MASK =? 0)%Z then fst (D i) else tv_h t) /\
     v_pitch v = (if (Z.land (v_mode v) P_MASK =? 0)%Z then snd (D i) else v_pitch c)) /\
  (forall i u w, nth_error (vertex_ p') i = Some u -> nth_error (vertex_ p') (S i) = Some w -> SMALL < v_s w - v_s u ->
     D i = (heading (v_x w - v_x u) (v_y w - v_y u), slope (v_z w - v_z u) (v_s w - v_s u))) /\
  (forall i u w, nth_error (vertex_ p') (S i) = Some u -> nth_error (vertex_ p') (S (S i)) = Some w -> v_s w - v_s u <= SMALL -> D (S i) = D i) /\
  (forall i u, nth_error (vertex_ p') (S i) = Some u -> nth_error (vertex_ p') (S (S i)) = None -> D (S i) = D i) /\
  (forall j u w, nth_error (vertex_ p') j = Some u -> nth_error (vertex_ p') (S j) = Some w -> SMALL < v_s w - v_s u ->
     (forall i u w, (i < j)%nat -> nth_error (vertex_ p') i = Some u -> nth_error (vertex_ p') (S i) = Some w -> v_s w - v_s u <= SMALL) ->
     D 0%nat = (heading (v_x w - v_x u) (v_y w - v_y u), slope (v_z w - v_z u) (v_s w - v_s u))).
Proof. exact (calc_directions dist heading slope mode v0 l p p'). Qed.

(** The mode is the one of the vertex, or of the next one if only that one has an absolute z; pitch and roll are absolute with it, or
    relative to the road where the mode does not set them. *)
Theorem C50_mode pv t next m : (m = tv_mode t /\ (z_abs (tv_mode t) = true \/ next = None \/ exists n, next = Some n /\ z_abs (tv_mode n) = false) \/
    exists n, next = Some n /\ z_abs (tv_mode n) = true /\ z_abs (tv_mode t) = false /\ m = tv_mode n) ->
  (z_abs m = true -> v_mode (copy_vertex pv t next) = m /\ v_pitch (copy_vertex pv t next) = tv_p t /\ v_r (copy_vertex pv t next) = tv_r t) /\
  (z_abs m = false -> Z.land m P_MASK <> 0%Z -> Z.land m R_MASK <> 0%Z -> v_mode (copy_vertex pv t next) = m /\ v_pitch (copy_vertex pv t next) = tv_p t /\ v_r (copy_vertex pv t next) = tv_r t) /\
  (z_abs m = false -> Z.land m P_MASK = 0%Z -> v_pitch (copy_vertex pv t next) = tv_prel t) /\ (z_abs m = false -> Z.land m R_MASK = 0%Z -> v_r (copy_vertex pv t next) = tv_rrel t).
Proof. exact (mode_cases pv t next m). Qed.

(** ** What does not hold *)

Definition tv (x t : Q) : tvertex := TVertex true x 0 0 0 0 0 0 0 0%Z 0%N t.
Definition blank : vertex := Vertex 0 0 0 0 0 0 0 0%N 0 0 0 0 0%Z 0 0.
Definition dst (a b c d : Q) : Q := Qabs (a - c) + Qabs (b - d).
Definition calc (m : following) (v0 : Q) (l : list tvertex) : option pline :=
  CalculatePolyLine dst (fun _ _ => 0) (fun _ _ => 0) m v0 l (PLine (map (fun _ => blank) l) 0 0 INTERPOLATE_NONE).

Ltac value t := let r := eval vm_compute in t in match r with Some ?p => exists p end.

Lemma dst_pos a b c d : 0 <= dst a b c d.
Proof. unfold dst. pose proof (Qabs_nonneg (a - c)). pose proof (Qabs_nonneg (b - d)). lra. Qed.

(** A stop told by two vertices at the same place is not made in mode follow, if the speed at its start is not 0: the object goes on
    at that speed and jumps back at the end. *)
Theorem C50_stop_refuted : exists l p u w q, calc FOLLOW 0 l = Some p /\ nth_error (vertex_ p) 1 = Some u /\ nth_error (vertex_ p) 2 = Some w /\
  v_s u == v_s w /\ v_time u < q < v_time w /\ v_s w + 18 < fst (shape_s p PARAM_TIME q) /\
  (forall t, nth_error l 1 = Some t -> tv_x t == 10) /\ (forall t, nth_error l 2 = Some t -> tv_x t == 10) /\
  fst (shape_s p PARAM_TIME (v_time w + (1 # 100))) < fst (shape_s p PARAM_TIME q).
Proof.
  exists [tv 0 0; tv 10 10; tv 10 20; tv 20 30]. value (calc FOLLOW 0 [tv 0 0; tv 10 10; tv 10 20; tv 20 30]). eexists _, _, (39 # 2). split; [vm_compute; reflexivity|]. split; [reflexivity|]. split; [reflexivity|].
  split; [reflexivity|]. split; [split; reflexivity|]. split; [reflexivity|]. split; [intros t E; injection E as <-; reflexivity|]. split; [intros t E; injection E as <-; reflexivity|reflexivity].
Qed.

(** One vertex: access out of bounds. *)
Theorem C50_single_refuted m v0 t : calc m v0 [t] = None.
Proof. reflexivity. Qed.

(** Equal times in mode follow: division by zero. *)
Theorem C50_equal_times_refuted : calc FOLLOW 1 [tv 0 0; tv 1 0; tv 2 1] = None.
Proof. reflexivity. Qed.

(** In mode position the speed of the last vertex is not set. *)
Theorem C50_last_speed_refuted : exists p, calc POSITION 1 [tv 0 0; tv 1 1; tv 2 2] = Some p /\ map (fun v => Qred (v_speed v)) (vertex_ p) = [1; 1; 0].
Proof. eexists. split; reflexivity. Qed.

(** With a negative initial speed the object is at the second vertex from the start: the time to stop is negative. *)
Theorem C50_negative_speed_refuted : exists l p u w, calc FOLLOW (-1) l = Some p /\ nth_error (vertex_ p) 0 = Some u /\ nth_error (vertex_ p) 1 = Some w /\
  v_s u == 0 /\ v_s w == 10 /\ fst (shape_s p PARAM_TIME (v_time u)) == 10.
Proof. exists [tv 0 0; tv 10 1; tv 20 2]. value (calc FOLLOW (-1) [tv 0 0; tv 10 1; tv 20 2]). eexists _, _. split; [vm_compute; reflexivity|]. split; [reflexivity|]. split; [reflexivity|]. repeat split; reflexivity. Qed.

(** Accelerations of mode follow are kept if the polyline is calculated again in mode position: the motion is not linear, vertices are not
    reached in time. *)
Theorem C50_stale_acceleration_refuted : exists l p p' w, calc FOLLOW 0 l = Some p /\
  CalculatePolyLine dst (fun _ _ => 0) (fun _ _ => 0) POSITION 0 l p = Some p' /\ nth_error (vertex_ p') 1 = Some w /\
  v_s w + 9 < fst (shape_s p' PARAM_TIME (v_time w)).
Proof. exists [tv 0 0; tv 10 1; tv 20 3]. value (calc FOLLOW 0 [tv 0 0; tv 10 1; tv 20 3]).
  match goal with |- exists _, exists _, calc _ _ ?l = Some ?p /\ _ => value (CalculatePolyLine dst (fun _ _ => 0) (fun _ _ => 0) POSITION 0 l p) end.
  eexists. split; [vm_compute; reflexivity|]. split; [vm_compute; reflexivity|]. split; reflexivity. Qed.

(** ** Examples *)

Definition trip : list tvertex := [tv 0 0; tv 10 2; tv 40 4].
Lemma trip_steps i t t' : nth_error trip i = Some t -> nth_error trip (S i) = Some t' -> tv_time t < tv_time t' /\ SMALL < tv_time t' - tv_time t /\ SMALL < dst (tv_x t') (tv_y t') (tv_x t) (tv_y t).
Proof. destruct i as [|[|[|i]]]; cbn; intros A B; try discriminate; try (destruct i; discriminate); injection A as <-; injection B as <-; repeat split; reflexivity. Qed.

Example C50_polyline_ex : exists p, calc FOLLOW 5 trip = Some p /\ map (fun v => Qred (v_s v)) (vertex_ p) = [0; 10; 40] /\ map v_time (vertex_ p) = [0; 2; 4].
Proof. eexists. split; [reflexivity|]. split; reflexivity. Qed.
Example C50_defined_ex : exists p, calc FOLLOW 5 trip = Some p.
Proof. apply C50_defined; [cbn; lia|reflexivity|]. intros _ i t t' A B. destruct (trip_steps i t t' A B). lra. Qed.
Example C50_follow_ex : exists p, calc FOLLOW 5 trip = Some p /\ (forall q q', q <= q' -> fst (shape_s p PARAM_TIME q) <= fst (shape_s p PARAM_TIME q')) /\
  fst (shape_s p PARAM_TIME 2) == 10 /\ fst (shape_s p PARAM_TIME 3) == 20.
Proof.
  destruct C50_defined_ex as (p & E). exists p. split; auto. split.
  - eapply (C50_follow dst (fun _ _ => 0) (fun _ _ => 0) 5 trip _ p dst_pos); [discriminate|cbn; lia| | |exact E]; [reflexivity|]. intros i t t' A B. destruct (trip_steps i t t' A B) as (A1 & _ & A2). auto.
  - vm_compute in E. injection E as <-. split; reflexivity.
Qed.
Example C50_standstill_ex : exists p u w, calc FOLLOW 5 [tv 0 0; tv 10 2; tv 10 4; tv 30 6] = Some p /\ nth_error (vertex_ p) 1 = Some u /\ nth_error (vertex_ p) 2 = Some w /\
  v_speed u == 5 /\ v_speed w == 0.
Proof. value (calc FOLLOW 5 [tv 0 0; tv 10 2; tv 10 4; tv 30 6]). do 2 eexists. split; [vm_compute; reflexivity|]. do 2 (split; [vm_compute; reflexivity|]). split; vm_compute; reflexivity. Qed.
Example C50_position_ex : exists p, calc POSITION 5 trip = Some p /\ fst (shape_s p PARAM_TIME 1) == 5 /\ fst (shape_s p PARAM_TIME 3) == 25.
Proof. value (calc POSITION 5 trip). split; [vm_compute; reflexivity|]. split; vm_compute; reflexivity. Qed.
Example C50_past_ex : exists p, calc POSITION 5 trip = Some p /\ exists s, shape_s p PARAM_TIME 7 = (s, 2%nat) /\ s == 40.
Proof. value (calc POSITION 5 trip). split; [vm_compute; reflexivity|]. eexists. split; [vm_compute; reflexivity|]. vm_compute. reflexivity. Qed.
Example C50_follow_place_ex : exists p v p'', calc FOLLOW 5 trip = Some p /\ ShapeEvaluate (fun x => x) Qminus p 2 PARAM_TIME blank = Some (0%Z, v, p'') /\ v_x v == 10.
Proof.
  destruct C50_defined_ex as (p & E).
  destruct (C50_follow_place dst (fun _ _ => 0) (fun _ _ => 0) (fun x => x) Qminus 5 trip (PLine (map (fun _ => blank) trip) 0 0 INTERPOLATE_NONE) p blank 1 (tv 10 2) 2 dst_pos ltac:(discriminate) ltac:(cbn; lia) eq_refl) as (v & p'' & H & X & _); auto.
  - intros i t t' A B. destruct (trip_steps i t t' A B) as (A1 & _ & A2). auto.
  - reflexivity.
  - exists p, v, p''. auto.
Qed.
Example C50_position_place_ex : exists p v p'', calc POSITION 5 trip = Some p /\ ShapeEvaluate (fun x => x) Qminus p 4 PARAM_TIME blank = Some (0%Z, v, p'') /\ v_x v == 40.
Proof. value (calc POSITION 5 trip). eexists _, _. split; [vm_compute; reflexivity|]. split; [vm_compute; reflexivity|]. vm_compute. reflexivity. Qed.
Example C50_by_distance_ex : exists p v p'', calc POSITION 5 trip = Some p /\ ShapeEvaluate (fun x => x) Qminus p 10 PARAM_S blank = Some (0%Z, v, p'') /\ v_time v == 2.
Proof. value (calc POSITION 5 trip). eexists _, _. split; [vm_compute; reflexivity|]. split; [vm_compute; reflexivity|]. vm_compute. reflexivity. Qed.
Example C50_by_distance_index_ex : exists p, calc POSITION 5 trip = Some p /\ shape_s p PARAM_S 25 = (25, 1%nat) /\ shape_s p PARAM_S 5 = (5, 0%nat).
Proof. eexists. split; [vm_compute; reflexivity|]. vm_compute. auto. Qed.
Example C50_by_distance_past_ex : exists p v p'', calc POSITION 5 trip = Some p /\ ShapeEvaluate (fun x => x) Qminus p 77 PARAM_S blank = Some (0%Z, v, p'') /\ v_s v == 40.
Proof. value (calc POSITION 5 trip). eexists _, _. split; [vm_compute; reflexivity|]. split; [vm_compute; reflexivity|]. vm_compute. reflexivity. Qed.
Example C50_by_distance_between_ex : exists p v p'', calc POSITION 5 trip = Some p /\ ShapeEvaluate (fun x => x) Qminus p 25 PARAM_S blank = Some (0%Z, v, p'') /\ v_x v == 25 /\ v_time v == 3.
Proof. value (calc POSITION 5 trip). eexists _, _. split; [vm_compute; reflexivity|]. split; [vm_compute; reflexivity|]. split; vm_compute; reflexivity. Qed.
Example C50_no_vertices_ex : ShapeEvaluate (fun x => x) Qminus (PLine [] 0 0 INTERPOLATE_NONE) 3 PARAM_TIME blank = Some ((-1)%Z, blank, PLine [] 0 0 INTERPOLATE_NONE).
Proof. reflexivity. Qed.
Example C50_direction_ex : exists p, CalculatePolyLine dst (fun x y => x - y) (fun z s => z) POSITION 0 [tv 0 0; tv 0 1; tv 3 2; tv 3 3; tv 2 4] (PLine [blank; blank; blank; blank; blank] 0 0 INTERPOLATE_NONE) = Some p /\
  map (fun v => Qred (v_h v)) (vertex_ p) = [3; 3; 3; -1; -1].
Proof. eexists. split; reflexivity. Qed.
Example C50_mode_ex : z_abs Z_ABS = true /\ v_mode (copy_vertex blank (tv 0 0) (Some (TVertex true 0 0 0 0 0 0 0 0 Z_ABS 0%N 1))) = Z_ABS.
Proof. split; reflexivity. Qed.

Print Assumptions C50_polyline.
Print Assumptions C50_defined.
Print Assumptions C50_follow.
Print Assumptions C50_position_partial.
Print Assumptions C50_past.
Print Assumptions C50_follow_place.
Print Assumptions C50_position_place_partial.
Print Assumptions C50_direction.
Print Assumptions C50_mode.
Print Assumptions C50_stop_refuted.
Print Assumptions C50_single_refuted.
Print Assumptions C50_equal_times_refuted.
Print Assumptions C50_last_speed_refuted.
Print Assumptions C50_negative_speed_refuted.
Print Assumptions C50_stale_acceleration_refuted.

Print Assumptions C50_by_distance.
Print Assumptions C50_by_distance_past.
Print Assumptions C50_by_distance_between.
Print Assumptions C50_no_vertices.

Print Assumptions C50_standstill.

Print Assumptions C50_by_distance_index.
