(** Timing of a trajectory along a polyline. *)
From Verif Require Import QAux LaneModel PolyModel PolyProofs.
From Coq Require Import PeanoNat.
Local Open Scope nat_scope.
Local Open Scope Q_scope.

(** ** What is kept and what is computed *)

(** Place and time of a vertex. *)
Definition geom (v : vertex) : Q * Q * Q * Q * Q := (v_s v, v_x v, v_y v, v_z v, v_time v).
Definition place (v : vertex) : Q * Q * Q * Q := (v_x v, v_y v, v_z v, v_time v).

Lemma nth_geom l L i v : map geom l = map geom L -> nth_error L i = Some v -> exists u, nth_error l i = Some u /\ geom u = geom v.
Proof.
  intros E V. assert (H: nth_error (map geom L) i = Some (geom v)) by (apply map_nth_error; auto). rewrite <- E in H.
  destruct (nth_error l i) as [u|] eqn:U.
  - exists u. split; auto. rewrite (map_nth_error geom _ _ U) in H. congruence.
  - exfalso. assert (nth_error (map geom l) i = None) by (apply nth_error_None; rewrite map_length; apply nth_error_None; auto). congruence.
Qed.

Section Shape.
Variable dist : Q -> Q -> Q -> Q -> Q.
Variable heading slope : Q -> Q -> Q.

Lemma set_directions_geom l : forall d, map geom (set_directions heading slope d l) = map geom l.
Proof. induction l as [|v l IH]; intro d; cbn [set_directions map]; auto. f_equal. apply IH. Qed.

Lemma set_directions_motion l : forall d, map (fun v => (v_speed v, v_acc v)) (set_directions heading slope d l) = map (fun v => (v_speed v, v_acc v)) l.
Proof. induction l as [|v l IH]; intro d; cbn [set_directions map]; auto. f_equal. apply IH. Qed.

Lemma set_s_from_motion l : forall pv, map (fun v => (v_speed v, v_acc v)) (set_s_from dist pv l) = map (fun v => (v_speed v, v_acc v)) l.
Proof. induction l as [|v l IH]; intro pv; cbn [set_s_from map]; auto. f_equal. apply IH. Qed.
Lemma set_s_motion l : map (fun v => (v_speed v, v_acc v)) (set_s dist l) = map (fun v => (v_speed v, v_acc v)) l.
Proof. destruct l; cbn [set_s map]; auto. f_equal. apply set_s_from_motion. Qed.

Lemma follow_geom l : forall v0 L, follow_speed v0 l = Some L -> map geom L = map geom l.
Proof.
  induction l as [|v l IH]; intros v0 L; cbn [follow_speed].
  - intro E. injection E as <-. reflexivity.
  - destruct l as [|w l]. { intro E. injection E as <-. reflexivity. }
    destruct (segment_acc v0 (v_s w - v_s v) (v_time w - v_time v)) as [[acc sp]|]; [|discriminate].
    destruct (follow_speed sp (w :: l)) as [L'|] eqn:F; cbn [option_map]; [|discriminate]. intro E. injection E as <-.
    rewrite (map_cons geom v), <- (IH _ _ F). reflexivity.
Qed.

Lemma position_geom l : map geom (position_speed l) = map geom l.
Proof. induction l as [|v [|w l] IH]; auto. cbn [position_speed] in *. rewrite (map_cons geom v), <- IH. reflexivity. Qed.

Lemma set_s_from_place l : forall pv, map place (set_s_from dist pv l) = map place l.
Proof. induction l as [|v l IH]; intro pv; cbn [set_s_from map]; auto. f_equal. apply IH. Qed.
Lemma set_s_place l : map place (set_s dist l) = map place l.
Proof. destruct l; cbn [set_s map]; auto. f_equal. apply set_s_from_place. Qed.

(** The s values are the distances added up. *)
Lemma set_s_from_steps l : forall pv i u v, nth_error (pv :: set_s_from dist pv l) i = Some u -> nth_error (pv :: set_s_from dist pv l) (S i) = Some v ->
  v_s v = v_s u + dist (v_x v) (v_y v) (v_x u) (v_y u).
Proof.
  induction l as [|w l IH]; intros pv i u v U V.
  - cbn in V. destruct i; discriminate.
  - cbn [set_s_from] in *. destruct i as [|i].
    + cbn in U, V. injection U as <-. injection V as <-. reflexivity.
    + cbn [nth_error] in U, V. eapply IH; eauto.
Qed.
Lemma set_s_steps l i u v : nth_error (set_s dist l) i = Some u -> nth_error (set_s dist l) (S i) = Some v -> v_s v = v_s u + dist (v_x v) (v_y v) (v_x u) (v_y u).
Proof. destruct l as [|w l]; cbn [set_s]; [destruct i; discriminate|]. apply set_s_from_steps. Qed.
Lemma set_s_first l v : nth_error (set_s dist l) 0 = Some v -> v_s v = 0.
Proof. destruct l; cbn; [discriminate|]. intro E. injection E as <-. reflexivity. Qed.

Lemma copy_length l : forall pl L, copy_vertices pl l = Some L -> List.length L = List.length pl.
Proof.
  induction l as [|t l IH]; intros pl L; cbn [copy_vertices]; [intro E; injection E as <-; reflexivity|]. destruct pl as [|pv pl]; [discriminate|].
  destruct (copy_vertices pl l) as [L'|] eqn:E; cbn [option_map]; [|discriminate]. intro X. injection X as <-. cbn. f_equal. eauto.
Qed.

(** One vertex of the polyline taken from a vertex of the trajectory. *)
Definition taken (t : tvertex) (v : vertex) : Prop := v_x v = tv_x t /\ v_y v = tv_y t /\ v_z v = tv_z t /\ v_time v = tv_time t.

Lemma copy_taken l : forall pl L, copy_vertices pl l = Some L -> forall i t, nth_error l i = Some t -> exists v, nth_error L i = Some v /\ taken t v.
Proof.
  induction l as [|t l IH]; intros pl L; cbn [copy_vertices]; [intros _ [|i]; discriminate|]. destruct pl as [|pv pl]; [discriminate|].
  destruct (copy_vertices pl l) as [L'|] eqn:E; cbn [option_map]; [|discriminate]. intros X [|i] t' T.
  - injection X as <-. cbn in T. injection T as <-. eexists. split; [reflexivity|]. unfold copy_vertex.
    destruct (rel_default P_MASK P_REL _) as [m pr]. destruct (rel_default R_MASK R_REL m) as [m' rr]. repeat split.
  - injection X as <-. cbn in *. eauto.
Qed.

Lemma copy_motion l : forall pl L, copy_vertices pl l = Some L -> map (fun v => (v_speed v, v_acc v)) L = map (fun v => (v_speed v, v_acc v)) pl.
Proof.
  induction l as [|t l IH]; intros pl L; cbn [copy_vertices]; [intro E; injection E as <-; reflexivity|]. destruct pl as [|pv pl]; [discriminate|].
  destruct (copy_vertices pl l) as [L'|] eqn:E; cbn [option_map]; [|discriminate]. intro X. injection X as <-. cbn [map]. f_equal; eauto.
  unfold copy_vertex. destruct (rel_default P_MASK P_REL _) as [m pr]. destruct (rel_default R_MASK R_REL m) as [m' rr]. reflexivity.
Qed.

(** The polyline of a trajectory: the vertices of the trajectory with the distance along it. *)
Definition traced (l : list tvertex) (p : pline) : Prop :=
  List.length (vertex_ p) = List.length l /\
  (forall i t, nth_error l i = Some t -> exists v, nth_error (vertex_ p) i = Some v /\ taken t v) /\
  (forall v, nth_error (vertex_ p) 0 = Some v -> v_s v = 0) /\
  (forall i u v, nth_error (vertex_ p) i = Some u -> nth_error (vertex_ p) (S i) = Some v -> v_s v = v_s u + dist (v_x v) (v_y v) (v_x u) (v_y u)) /\
  (forall e, last_vertex (vertex_ p) e -> length_ p = v_s e) /\ current_index_ p = 0%nat.

(** The list before the speeds are set. *)
Lemma calc_inv mode v0 l p p' : vertex_ p <> [] -> CalculatePolyLine dist heading slope mode v0 l p = Some p' ->
  exists pl ql, copy_vertices (vertex_ p) l = Some pl /\ map geom ql = map geom (set_s dist pl) /\
    map (fun v => (v_speed v, v_acc v)) ql = map (fun v => (v_speed v, v_acc v)) (vertex_ p) /\
    match mode with FOLLOW => follow_speed v0 ql | POSITION => Some (position_speed ql) end = Some (vertex_ p') /\
    p' = PLine (vertex_ p') 0 (s_at (vertex_ p') (List.length (vertex_ p') - 1)) (interpolation_mode_ p) /\ (List.length l <> 1)%nat.
Proof.
  intros NE. unfold CalculatePolyLine. destruct (vertex_ p) as [|v0' r] eqn:EV; [congruence|]. rewrite <- EV in *.
  destruct (copy_vertices (vertex_ p) l) as [pl|] eqn:C; [|discriminate].
  assert (X: forall A (x : option A), (match l with [_] => None | _ => x end) = match l with [_] => None | _ => x end) by reflexivity. clear X.
  assert (L1: match l with [_] => None | _ =>
     let pl := set_s dist pl in
     let d := first_direction heading slope (match pl with v :: _ => (v_h v, v_pitch v) | [] => (0, 0) end) pl in
     let pl := set_directions heading slope d pl in
     match match mode with FOLLOW => follow_speed v0 pl | POSITION => Some (position_speed pl) end with
     | None => None
     | Some pl => Some (PLine pl 0 (s_at pl (List.length pl - 1)) (interpolation_mode_ p))
     end end = Some p' -> (List.length l <> 1)%nat /\ 
     (let pl := set_s dist pl in
     let d := first_direction heading slope (match pl with v :: _ => (v_h v, v_pitch v) | [] => (0, 0) end) pl in
     let pl := set_directions heading slope d pl in
     match match mode with FOLLOW => follow_speed v0 pl | POSITION => Some (position_speed pl) end with
     | None => None
     | Some pl => Some (PLine pl 0 (s_at pl (List.length pl - 1)) (interpolation_mode_ p))
     end) = Some p').
  { destruct l as [|t [|t' l]]; [auto|discriminate|]; intro H; (split; [cbn; lia|exact H]). }
  intro H. apply L1 in H. clear L1. destruct H as (LN & H). cbv zeta in H.
  set (d := first_direction _ _ _ _) in H. set (ql := set_directions heading slope d (set_s dist pl)) in H.
  exists pl, ql. split; auto. split; [apply set_directions_geom|].
  split. { unfold ql. rewrite set_directions_motion, set_s_motion. eapply copy_motion; eauto. }
  destruct (match mode with FOLLOW => follow_speed v0 ql | POSITION => Some (position_speed ql) end) as [fl|] eqn:F; [|discriminate].
  injection H as H. split; [f_equal; rewrite <- H; reflexivity|]. split; auto. rewrite <- H. reflexivity.
Qed.

Lemma map_length_eq {A B} (f : A -> B) l L : map f l = map f L -> List.length l = List.length L.
Proof. intro E. rewrite <- (map_length f l), E, map_length. reflexivity. Qed.

Lemma nth_place l L i v : map place l = map place L -> nth_error L i = Some v -> exists u, nth_error l i = Some u /\ place u = place v.
Proof.
  intros E V. assert (H: nth_error (map place L) i = Some (place v)) by (apply map_nth_error; auto). rewrite <- E in H.
  destruct (nth_error l i) as [u|] eqn:U.
  - exists u. split; auto. rewrite (map_nth_error place _ _ U) in H. congruence.
  - exfalso. assert (nth_error (map place l) i = None) by (apply nth_error_None; rewrite map_length; apply nth_error_None; auto). congruence.
Qed.

Lemma calc_traced mode v0 l p p' : vertex_ p <> [] -> List.length (vertex_ p) = List.length l ->
  CalculatePolyLine dist heading slope mode v0 l p = Some p' -> traced l p'.
Proof.
  intros NE Len H. destruct (calc_inv _ _ _ _ _ NE H) as (pl & ql & C & G & _ & F & E & _).
  assert (GV: map geom (vertex_ p') = map geom (set_s dist pl)).
  { rewrite <- G. destruct mode; [eapply follow_geom; eauto|]. injection F as F. rewrite <- F. apply position_geom. }
  pose proof (copy_length _ _ _ C) as L1. pose proof (map_length_eq _ _ _ GV) as L2. pose proof (map_length_eq _ _ _ (set_s_place pl)) as L3.
  split; [congruence|]. split.
  { intros i t T. destruct (copy_taken _ _ _ C i t T) as (v & V & (K1 & K2 & K3 & K4)).
    destruct (nth_place _ _ _ _ (set_s_place pl) V) as (u & U & PU). destruct (nth_geom _ _ _ _ GV U) as (w & W & GW).
    exists w. split; auto. unfold geom, place in *. injection GW as g1 g2 g3 g4 g5. injection PU as q1 q2 q3 q4. repeat split; congruence. }
  split.
  { intros v V. destruct (nth_geom _ _ _ _ (eq_sym GV) V) as (u & U & GU). unfold geom in GU. injection GU as g1 _. rewrite <- g1. eapply set_s_first; eauto. }
  split.
  { intros i u v U V. destruct (nth_geom _ _ _ _ (eq_sym GV) U) as (u' & U' & GU). destruct (nth_geom _ _ _ _ (eq_sym GV) V) as (v' & V' & GV').
    pose proof (set_s_steps _ _ _ _ U' V') as S. unfold geom in *. injection GU as a1 a2 a3 a4 a5. injection GV' as b1 b2 b3 b4 b5. congruence. }
  split.
  - intros e L. rewrite E. cbn [length_]. apply s_at_some. exact L.
  - rewrite E. reflexivity.
Qed.

End Shape.

(** ** The speeds *)

Lemma follow_steps l : forall v0 L, follow_speed v0 l = Some L ->
  (forall v, nth_error L 0 = Some v -> v_speed v = v0) /\
  (forall i u w, nth_error L i = Some u -> nth_error L (S i) = Some w -> segment_acc (v_speed u) (v_s w - v_s u) (v_time w - v_time u) = Some (v_acc u, v_speed w)).
Proof.
  induction l as [|v l IH]; intros v0 L; cbn [follow_speed].
  - intro E. injection E as <-. split; intros; [discriminate|destruct i; discriminate].
  - destruct l as [|w l].
    { intro E. injection E as <-. split. - cbn. intros x X. injection X as <-. reflexivity. - intros i u x U X. destruct i; discriminate. }
    destruct (segment_acc v0 (v_s w - v_s v) (v_time w - v_time v)) as [[acc sp]|] eqn:A; [|discriminate].
    destruct (follow_speed sp (w :: l)) as [L'|] eqn:F; cbn [option_map]; [|discriminate]. intro E. injection E as <-.
    destruct (IH _ _ F) as (I1 & I2). split; [cbn; intros x X; injection X as <-; reflexivity|].
    intros [|i] u x U X; [|cbn [nth_error] in U, X; eauto]. injection U as <-. change (nth_error L' 0 = Some x) in X.
    pose proof (follow_geom _ _ _ F) as G. destruct (nth_geom _ _ _ _ (eq_sym G) X) as (w' & W' & GW). cbn in W'. injection W' as <-.
    unfold geom in GW. injection GW as g1 _ _ _ g5. cbn [with_speed v_speed v_s v_time v_acc]. rewrite <- g1, <- g5, (I1 x X). exact A.
Qed.

Lemma position_steps l : forall i u w, nth_error (position_speed l) i = Some u -> nth_error (position_speed l) (S i) = Some w ->
  v_speed u = if Qltb SMALL (v_time w - v_time u) then (v_s w - v_s u) / (v_time w - v_time u) else 0.
Proof.
  induction l as [|v [|x l] IH]; intros i u w U W.
  - destruct i; discriminate.
  - destruct i; discriminate.
  - assert (E: position_speed (v :: x :: l) = with_speed (if Qltb SMALL (v_time x - v_time v) then (v_s x - v_s v) / (v_time x - v_time v) else 0) (v_acc v) v :: position_speed (x :: l)) by reflexivity.
    rewrite E in *. destruct i as [|i]; [|cbn [nth_error] in U, W; eauto]. injection U as <-. change (nth_error (position_speed (x :: l)) 0 = Some w) in W.
    destruct (nth_geom _ _ _ _ (eq_sym (position_geom (x :: l))) W) as (w' & W' & GW). cbn in W'. injection W' as <-.
    unfold geom in GW. injection GW as g1 _ _ _ g5. cbn [with_speed v_speed v_s v_time]. rewrite <- g1, <- g5. reflexivity.
Qed.

Lemma position_acc l : map v_acc (position_speed l) = map v_acc l.
Proof. induction l as [|v [|w l] IH]; auto. cbn [position_speed] in *. rewrite (map_cons v_acc v), <- IH. reflexivity. Qed.

(** Motion over one segment. *)
Record moves (u w : vertex) : Prop := Moves {
  mv_start : forall q, q <= v_time u -> time_s u q == v_s u;
  mv_end : forall q, q == v_time w -> time_s u q == v_s w;
  mv_mono : forall q q', q <= q' -> time_s u q <= time_s u q' }.

Lemma QSIGN_pos x : QSIGN x = 1%Z <-> 0 <= x.
Proof. unfold QSIGN. destruct (Qltb_spec x 0); split; intro; try discriminate; auto; lra. Qed.

Lemma quad_mono v a t t' : 0 <= t -> t <= t' -> 0 <= v -> 0 <= v + a * t' -> t * v + (1 # 2) * a * t * t <= t' * v + (1 # 2) * a * t' * t'.
Proof.
  intros. assert (0 <= v + a * t). { destruct (Qlt_le_dec a 0); nra. }
  setoid_replace (t' * v + (1 # 2) * a * t' * t') with (t * v + (1 # 2) * a * t * t + (t' - t) * ((1 # 2) * (v + a * t) + (1 # 2) * (v + a * t'))) by ring.
  assert (0 <= (t' - t) * ((1 # 2) * (v + a * t) + (1 # 2) * (v + a * t'))) by (apply Qmult_le_0_compat; lra). lra.
Qed.

(** The duration of the motion at constant acceleration. *)
Definition effective (u : vertex) (q : Q) : Q :=
  let dt := MAX 0 (q - v_time u) in if Qltb (v_acc u) 0 then MIN dt (- v_speed u / v_acc u) else dt.
Lemma time_s_eff u q : time_s u q = v_s u + effective u q * v_speed u + (1 # 2) * v_acc u * effective u q * effective u q.
Proof. reflexivity. Qed.

Lemma stop_time v a : a < 0 -> 0 <= v -> 0 <= - v / a /\ v + a * (- v / a) == 0.
Proof. intros. split; [|field; lra]. setoid_replace (- v / a) with (v / (- a)) by (field; lra). apply Qle_shift_div_l; lra. Qed.

Lemma MIN_spec x y : MIN x y <= x /\ MIN x y <= y /\ (MIN x y == x \/ MIN x y == y).
Proof. unfold MIN. destruct (Qltb_spec y x); repeat split; lra. Qed.
Lemma MAX_spec x y : x <= MAX x y /\ y <= MAX x y /\ (MAX x y == x \/ MAX x y == y).
Proof. unfold MAX. destruct (Qltb_spec x y); repeat split; lra. Qed.

Lemma effective_spec u q : 0 <= v_speed u -> 0 <= effective u q /\ 0 <= v_speed u + v_acc u * effective u q.
Proof.
  intro V. unfold effective. pose proof (MAX_spec 0 (q - v_time u)) as (M1 & _). set (m := MAX 0 (q - v_time u)) in *. clearbody m.
  destruct (Qltb_spec (v_acc u) 0) as [A|A].
  - destruct (stop_time (v_speed u) (v_acc u) A V) as (S1 & S2). set (st := - v_speed u / v_acc u) in *. clearbody st.
    destruct (MIN_spec m st) as (N1 & N2 & N3). set (z := MIN m st) in *. clearbody z. split; [destruct N3 as [N3|N3]; rewrite N3; auto|]. nra.
  - split; auto. assert (0 <= v_acc u * m) by (apply Qmult_le_0_compat; lra). lra.
Qed.
Lemma effective_mono u q q' : q <= q' -> effective u q <= effective u q'.
Proof.
  intro L. unfold effective. assert (M: MAX 0 (q - v_time u) <= MAX 0 (q' - v_time u)) by (apply max_mono; lra). cbv zeta. destruct (Qltb (v_acc u) 0); auto.
  set (m := MAX 0 (q - v_time u)) in *. set (m' := MAX 0 (q' - v_time u)) in *. set (st := - v_speed u / v_acc u). clearbody m m' st.
  destruct (MIN_spec m st) as (N1 & N2 & N3). destruct (MIN_spec m' st) as (K1 & K2 & K3). destruct K3 as [K3|K3]; rewrite K3; lra.
Qed.

Lemma time_s_mono u q q' : 0 <= v_speed u -> q <= q' -> time_s u q <= time_s u q'.
Proof.
  intros V L. rewrite !time_s_eff. pose proof (effective_mono u q q' L). destruct (effective_spec u q V). destruct (effective_spec u q' V).
  pose proof (quad_mono (v_speed u) (v_acc u) (effective u q) (effective u q') ltac:(auto) ltac:(auto) V ltac:(auto)).
  set (e := effective u q) in *. set (e' := effective u q') in *. clearbody e e'. lra.
Qed.
Lemma time_s_start u q : 0 <= v_speed u -> q <= v_time u -> time_s u q == v_s u.
Proof.
  intros V L. rewrite time_s_eff. assert (E: effective u q == 0).
  { unfold effective. assert (M: MAX 0 (q - v_time u) == 0) by (unfold MAX; destruct (Qltb_spec 0 (q - v_time u)); lra).
    set (m := MAX 0 (q - v_time u)) in *. clearbody m. cbv zeta. destruct (Qltb_spec (v_acc u) 0) as [A|A]; auto.
    destruct (stop_time (v_speed u) (v_acc u) A V) as (S1 & _). set (st := - v_speed u / v_acc u) in *. clearbody st.
    destruct (MIN_spec m st) as (N1 & N2 & N3). destruct N3 as [N3|N3]; lra. }
  rewrite E. ring.
Qed.

Lemma follow_segment u w : 0 <= v_speed u -> SMALL < v_s w - v_s u -> v_time u < v_time w ->
  segment_acc (v_speed u) (v_s w - v_s u) (v_time w - v_time u) = Some (v_acc u, v_speed w) ->
  moves u w /\ 0 <= v_speed w /\ (forall q, q == v_time w -> v_speed u + v_acc u * effective u q == v_speed w).
Proof.
  intros V DS DT. unfold segment_acc. pose proof SMALL_pos as SP.
  set (ds := v_s w - v_s u) in *. set (dt := v_time w - v_time u) in *. set (v := v_speed u) in *.
  assert (D: 0 < dt) by (unfold dt; lra).
  destruct (Qltb_spec SMALL (Qabs ds)) as [X|X]; [|exfalso; apply X; rewrite Qabs_pos; lra].
  destruct (Qeqb_spec dt 0) as [Y|Y]; [lra|].
  assert (E: v + 2 * (ds - v * dt) / (dt * dt) * dt == (2 * ds - v * dt) / dt) by (field; lra).
  assert (MD: forall q, q == v_time w -> MAX 0 (q - v_time u) == dt).
  { intros q Q. unfold MAX, dt in *. destruct (Qltb_spec 0 (q - v_time u)); lra. }
  enough (H: (forall q, q == v_time w -> v_s u + effective u q * v_speed u + (1 # 2) * v_acc u * effective u q * effective u q == v_s w) /\ 0 <= v_speed w /\
    (forall q, q == v_time w -> v_speed u + v_acc u * effective u q == v_speed w) ->
    moves u w /\ 0 <= v_speed w /\ (forall q, q == v_time w -> v_speed u + v_acc u * effective u q == v_speed w)).
  { intro A. apply H. clear H.
    destruct (Z.eqb_spec (QSIGN (v + 2 * (ds - v * dt) / (dt * dt) * dt)) (QSIGN v)) as [G|G]; cbn [negb] in A.
    - (* reaches the vertex at its time *)
      assert (A1: v_acc u = 2 * (ds - v * dt) / (dt * dt)) by congruence. assert (A2: v_speed w = v + 2 * (ds - v * dt) / (dt * dt) * dt) by congruence.
      assert (SV: QSIGN v = 1%Z) by (apply QSIGN_pos; auto). rewrite SV in G. apply QSIGN_pos in G.
      assert (EF: forall q, q == v_time w -> effective u q == dt).
      { intros q Q. unfold effective. pose proof (MD q Q) as M. set (m := MAX 0 (q - v_time u)) in *. clearbody m. cbv zeta.
        destruct (Qltb_spec (v_acc u) 0) as [N|N]; auto. fold v. destruct (stop_time v (v_acc u) N V) as (S1 & S2). set (st := - v / v_acc u) in *. clearbody st.
        rewrite <- A1 in G. destruct (MIN_spec m st) as (N1 & N2 & N3). destruct N3 as [N3|N3]; [lra|].
        assert (dt <= st). { destruct (Qlt_le_dec st dt) as [Z|Z]; auto. nra. } lra. }
      split; [|split].
      + intros q Q. rewrite (EF q Q). fold v. rewrite A1. setoid_replace (v_s w) with (v_s u + ds) by (unfold ds; ring). field. lra.
      + rewrite A2. auto.
      + intros q Q. rewrite (EF q Q). fold v. rewrite A1, A2. reflexivity.
    - (* stops before *)
      assert (A1: v_acc u = - (v * v) / (2 * ds)) by congruence. assert (A2: v_speed w = 0) by congruence.
      assert (SV: QSIGN v = 1%Z) by (apply QSIGN_pos; auto). rewrite SV in G.
      assert (G': (2 * ds - v * dt) / dt < 0). { rewrite <- E. destruct (Qlt_le_dec (v + 2 * (ds - v * dt) / (dt * dt) * dt) 0) as [Z|Z]; auto. apply QSIGN_pos in Z. contradiction. }
      assert (G2: 2 * ds < v * dt). { destruct (Qlt_le_dec (2 * ds) (v * dt)) as [Z|Z]; auto. exfalso.
        assert (0 <= (2 * ds - v * dt) / dt) by (apply Qle_shift_div_l; lra). lra. }
      assert (VP: 0 < v). { destruct (Qlt_le_dec 0 v) as [Z|Z]; auto. assert (v == 0) by lra. rewrite H in G2. lra. }
      assert (N: v_acc u < 0). { rewrite A1. setoid_replace (- (v * v) / (2 * ds)) with (- (v * v / (2 * ds))) by (field; lra).
        assert (0 < v * v / (2 * ds)). { apply Qlt_shift_div_l; [lra|]. nra. } lra. }
      assert (ST: - v / v_acc u == 2 * ds / v). { rewrite A1. field. split; [|lra]. intro Z. nra. }
      assert (L: 2 * ds / v < dt). { apply Qlt_shift_div_r; auto. lra. }
      assert (EF: forall q, q == v_time w -> effective u q == 2 * ds / v).
      { intros q Q. unfold effective. pose proof (MD q Q) as M. set (m := MAX 0 (q - v_time u)) in *. clearbody m. cbv zeta.
        destruct (Qltb_spec (v_acc u) 0) as [N'|N']; [|lra]. fold v. set (st := - v / v_acc u) in *. clearbody st. destruct (MIN_spec m st) as (N1 & N2 & N3).
        destruct N3 as [N3|N3]; [lra|rewrite N3; auto]. }
      split; [|split].
      + intros q Q. rewrite (EF q Q). fold v. rewrite A1. setoid_replace (v_s w) with (v_s u + ds) by (unfold ds; ring). field. lra.
      + rewrite A2. lra.
      + intros q Q. rewrite (EF q Q). fold v. rewrite A1, A2. field. lra. }
  intros (H1 & H2 & H3). split; [|split; auto]. constructor.
  - intros q Q. apply time_s_start; auto.
  - intros q Q. rewrite time_s_eff. auto.
  - intros q q' Q. apply time_s_mono; auto.
Qed.

Lemma position_segment u w : v_acc u == 0 -> v_s u <= v_s w -> SMALL < v_time w - v_time u ->
  v_speed u = (v_s w - v_s u) / (v_time w - v_time u) ->
  moves u w /\ (forall q, v_time u <= q -> time_s u q == v_s u + (q - v_time u) / (v_time w - v_time u) * (v_s w - v_s u)).
Proof.
  intros A S DT V. pose proof SMALL_pos as SP.
  assert (V0: 0 <= v_speed u) by (rewrite V; apply Qle_shift_div_l; lra).
  assert (H: forall q, v_time u <= q -> time_s u q == v_s u + (q - v_time u) / (v_time w - v_time u) * (v_s w - v_s u)).
  { intros q Q. rewrite time_s_eff. unfold effective. assert (M: MAX 0 (q - v_time u) == q - v_time u) by (unfold MAX; destruct (Qltb_spec 0 (q - v_time u)); lra).
    cbv zeta. destruct (Qltb_spec (v_acc u) 0); [lra|]. rewrite M, A, V. field. lra. }
  split; auto. constructor.
  - intros q Q. apply time_s_start; auto.
  - intros q Q. rewrite H by lra. rewrite Q. field. lra.
  - intros q q' Q. apply time_s_mono; auto.
Qed.

(** ** Evaluation by time *)

Definition increasing_t (l : list vertex) : Prop := forall i u v, nth_error l i = Some u -> nth_error l (S i) = Some v -> v_time u < v_time v.
Lemma increasing_sorted l : increasing_t l -> sorted_t l.
Proof. intros I i u v U V. pose proof (I i u v U V). lra. Qed.

Lemma param_spec l q n : forall i, (i < List.length l)%nat -> (List.length l <= i + n)%nat ->
  let j := param_fwd PARAM_TIME l q n i in
  (i <= j < List.length l)%nat /\ (j = i \/ t_at l j < q) /\ (j = (List.length l - 1)%nat \/ q <= t_at l (S j)).
Proof.
  induction n as [|n IH]; intros i B F; cbn [param_fwd]; [lia|].
  destruct (Nat.ltb_spec i (List.length l - 1)); cbn [andb].
  - destruct (Qltb_spec (t_at l (S i)) q) as [X|X].
    + destruct (IH (S i)) as (P & Q & R); [lia|lia|]. split; [lia|]. split; [|auto]. right. destruct Q as [Q|Q]; [rewrite Q; auto|auto].
    + split; [lia|]. split; [auto|]. right. lra.
  - split; [lia|]. split; [auto|]. left. lia.
Qed.

(** A polyline where each segment takes the time between its vertices. *)
Definition timed (p : pline) : Prop :=
  (2 <= List.length (vertex_ p))%nat /\ increasing_t (vertex_ p) /\ sorted_s (vertex_ p) /\
  (forall i u w, nth_error (vertex_ p) i = Some u -> nth_error (vertex_ p) (S i) = Some w -> moves u w) /\
  (forall e, last_vertex (vertex_ p) e -> length_ p = v_s e).

Lemma shape_inside p q e : timed p -> last_vertex (vertex_ p) e -> q <= v_time e ->
  exists i u w, nth_error (vertex_ p) i = Some u /\ nth_error (vertex_ p) (S i) = Some w /\ shape_s p PARAM_TIME q = (time_s u q, i) /\
    (i = 0%nat \/ v_time u < q) /\ q <= v_time w.
Proof.
  intros (B & I & S & M & L) Le Q. unfold shape_s. rewrite (t_at_some _ _ _ Le). destruct (Qltb_spec (v_time e) q) as [X|X]; [lra|].
  destruct (param_spec (vertex_ p) q (List.length (vertex_ p)) 0 ltac:(lia) ltac:(lia)) as (P1 & P2 & P3). cbv zeta.
  set (i := param_fwd _ _ _ _ _) in *. clearbody i.
  assert (Ni: i <> (List.length (vertex_ p) - 1)%nat).
  { intros ->. destruct P2 as [P2|P2]; [lia|]. rewrite (t_at_some _ _ _ Le) in P2. lra. }
  destruct (nth_lt (vertex_ p) i ltac:(lia)) as [u U]. destruct (nth_lt (vertex_ p) (Datatypes.S i) ltac:(lia)) as [w W].
  exists i, u, w. split; auto. split; auto. rewrite U. split; auto. rewrite (t_at_some _ _ _ U), (t_at_some _ _ _ W) in *.
  split; [auto|]. destruct P3; [contradiction|auto].
Qed.

Lemma shape_past p q e : last_vertex (vertex_ p) e -> v_time e < q -> shape_s p PARAM_TIME q = (length_ p, (List.length (vertex_ p) - 1)%nat).
Proof. intros L Q. unfold shape_s. rewrite (t_at_some _ _ _ L). apply Qltb_lt in Q. rewrite Q. reflexivity. Qed.

(** The vertex is reached at its time. *)
Lemma timed_vertex p k vk q : timed p -> nth_error (vertex_ p) k = Some vk -> q == v_time vk -> fst (shape_s p PARAM_TIME q) == v_s vk.
Proof.
  intros T V Q. pose proof T as (B & I & S & M & L). destruct (nth_lt (vertex_ p) (List.length (vertex_ p) - 1) ltac:(lia)) as [e Le].
  assert (Bk: (k < List.length (vertex_ p))%nat) by (apply nth_error_Some; congruence).
  pose proof (sorted_t_le _ k (List.length (vertex_ p) - 1) (increasing_sorted _ I) ltac:(lia) ltac:(lia)) as X. rewrite (t_at_some _ _ _ V), (t_at_some _ _ _ Le) in X.
  destruct (shape_inside p q e T Le ltac:(lra)) as (i & u & w & U & W & -> & C1 & C2). cbn [fst].
  assert (Bi: (Datatypes.S i < List.length (vertex_ p))%nat) by (apply nth_error_Some; congruence).
  pose proof (M i u w U W) as [M1 M2 M3].
  destruct (Nat.lt_trichotomy k i) as [D|[D|D]].
  - exfalso. pose proof (sorted_t_le _ k i (increasing_sorted _ I) ltac:(lia) ltac:(lia)) as Y. rewrite (t_at_some _ _ _ V), (t_at_some _ _ _ U) in Y. destruct C1; [lia|lra].
  - subst i. assert (u = vk) by congruence. subst u. apply M1. lra.
  - destruct (Nat.eq_dec k (Datatypes.S i)) as [->|D'].
    + assert (w = vk) by congruence. subst w. apply M2. auto.
    + exfalso. destruct (nth_lt (vertex_ p) (k - 1) ltac:(lia)) as [x Xe].
      pose proof (I (k - 1)%nat x vk Xe ltac:(replace (Datatypes.S (k - 1)) with k by lia; auto)).
      pose proof (sorted_t_le _ (Datatypes.S i) (k - 1) (increasing_sorted _ I) ltac:(lia) ltac:(lia)) as Y. rewrite (t_at_some _ _ _ W), (t_at_some _ _ _ Xe) in Y. lra.
Qed.

(** Between two vertices in time it is between them in distance. *)
Lemma timed_between p k u w q : timed p -> nth_error (vertex_ p) k = Some u -> nth_error (vertex_ p) (S k) = Some w -> v_time u <= q -> q <= v_time w ->
  fst (shape_s p PARAM_TIME q) == time_s u q /\ v_s u <= fst (shape_s p PARAM_TIME q) <= v_s w.
Proof.
  intros T U W Q1 Q2. pose proof T as (B & I & S & M & L). destruct (nth_lt (vertex_ p) (List.length (vertex_ p) - 1) ltac:(lia)) as [e Le].
  assert (Bk: (Datatypes.S k < List.length (vertex_ p))%nat) by (apply nth_error_Some; congruence).
  pose proof (M k u w U W) as [M1 M2 M3].
  assert (E: fst (shape_s p PARAM_TIME q) == time_s u q).
  { destruct (Qlt_le_dec (v_time u) q) as [Lt|Ge].
    - pose proof (sorted_t_le _ (Datatypes.S k) (List.length (vertex_ p) - 1) (increasing_sorted _ I) ltac:(lia) ltac:(lia)) as X. rewrite (t_at_some _ _ _ W), (t_at_some _ _ _ Le) in X.
      destruct (shape_inside p q e T Le ltac:(lra)) as (i & u' & w' & U' & W' & -> & C1 & C2). cbn [fst].
      assert (Bi: (Datatypes.S i < List.length (vertex_ p))%nat) by (apply nth_error_Some; congruence).
      assert (i = k).
      { destruct (Nat.lt_trichotomy k i) as [D|[D|D]]; auto; exfalso.
        - pose proof (sorted_t_le _ (Datatypes.S k) i (increasing_sorted _ I) ltac:(lia) ltac:(lia)) as Y. rewrite (t_at_some _ _ _ W), (t_at_some _ _ _ U') in Y. destruct C1; [lia|lra].
        - pose proof (sorted_t_le _ (Datatypes.S i) k (increasing_sorted _ I) ltac:(lia) ltac:(lia)) as Y. rewrite (t_at_some _ _ _ W'), (t_at_some _ _ _ U) in Y. lra. }
      subst i. assert (u' = u) by congruence. subst u'. reflexivity.
    - rewrite (timed_vertex p k u q T U ltac:(lra)). symmetry. apply M1. lra. }
  split; auto. rewrite E. split.
  - rewrite <- (M1 (v_time u)) by lra. apply M3. auto.
  - rewrite <- (M2 (v_time w)) by reflexivity. apply M3. auto.
Qed.

Lemma timed_mono p q q' : timed p -> q <= q' -> fst (shape_s p PARAM_TIME q) <= fst (shape_s p PARAM_TIME q').
Proof.
  intros T Q. pose proof T as (B & I & S & M & L). destruct (nth_lt (vertex_ p) (List.length (vertex_ p) - 1) ltac:(lia)) as [e Le].
  assert (Top: forall q, fst (shape_s p PARAM_TIME q) <= v_s e).
  { clear q q' Q. intro q. destruct (Qlt_le_dec (v_time e) q) as [X|X].
    - rewrite (shape_past p q e Le X). cbn [fst]. rewrite (L e Le). lra.
    - destruct (shape_inside p q e T Le X) as (i & u & w & U & W & -> & C1 & C2). cbn [fst]. pose proof (M i u w U W) as [M1 M2 M3].
      assert (Bi: (Datatypes.S i < List.length (vertex_ p))%nat) by (apply nth_error_Some; congruence).
      pose proof (sorted_le _ (Datatypes.S i) (List.length (vertex_ p) - 1) S ltac:(lia) ltac:(lia)) as Y. rewrite (s_at_some _ _ _ W), (s_at_some _ _ _ Le) in Y.
      pose proof (M3 q (v_time w) C2). rewrite (M2 (v_time w) ltac:(reflexivity)) in *. lra. }
  destruct (Qlt_le_dec (v_time e) q') as [X|X].
  { pose proof (Top q). rewrite (shape_past p q' e Le X). cbn [fst]. rewrite (L e Le). auto. }
  destruct (shape_inside p q e T Le ltac:(lra)) as (i & u & w & U & W & -> & C1 & C2). destruct (shape_inside p q' e T Le X) as (j & u' & w' & U' & W' & -> & D1 & D2). cbn [fst].
  pose proof (M i u w U W) as [M1 M2 M3]. pose proof (M j u' w' U' W') as [N1 N2 N3].
  assert (Bi: (Datatypes.S i < List.length (vertex_ p))%nat) by (apply nth_error_Some; congruence).
  assert (Bj: (Datatypes.S j < List.length (vertex_ p))%nat) by (apply nth_error_Some; congruence).
  destruct (Nat.lt_trichotomy i j) as [D|[D|D]].
  - pose proof (sorted_le _ (Datatypes.S i) j S ltac:(lia) ltac:(lia)) as Y. rewrite (s_at_some _ _ _ W), (s_at_some _ _ _ U') in Y.
    pose proof (M3 q (v_time w) C2). rewrite (M2 (v_time w) ltac:(reflexivity)) in *.
    destruct D1 as [D1|D1]; [lia|]. pose proof (N3 (v_time u') q' ltac:(lra)). rewrite (N1 (v_time u') ltac:(lra)) in *. lra.
  - subst j. assert (u' = u) by congruence. subst u'. auto.
  - exfalso. pose proof (sorted_t_le _ (Datatypes.S j) i (increasing_sorted _ I) ltac:(lia) ltac:(lia)) as Y. rewrite (t_at_some _ _ _ W'), (t_at_some _ _ _ U) in Y. destruct C1; [lia|lra].
Qed.

(** ** Both modes *)

Section Modes.
Variable dist : Q -> Q -> Q -> Q -> Q.
Variable heading slope : Q -> Q -> Q.
Hypothesis dist_pos : forall a b c d, 0 <= dist a b c d.

(** Consecutive vertices of a trajectory. *)
Definition steps (P : tvertex -> tvertex -> Prop) (l : list tvertex) : Prop := forall i t t', nth_error l i = Some t -> nth_error l (S i) = Some t' -> P t t'.

Lemma traced_steps P l p i u w : traced dist l p -> steps P l -> nth_error (vertex_ p) i = Some u -> nth_error (vertex_ p) (S i) = Some w ->
  exists t t', taken t u /\ taken t' w /\ P t t'.
Proof.
  intros (Len & Tk & _) St U W.
  assert (Bi: (S i < List.length (vertex_ p))%nat) by (apply nth_error_Some; congruence).
  destruct (nth_lt l i ltac:(lia)) as [t Ti]. destruct (nth_lt l (S i) ltac:(lia)) as [t' Ti'].
  destruct (Tk i t Ti) as (u' & U' & K). destruct (Tk (S i) t' Ti') as (w' & W' & K'). assert (u' = u) by congruence. assert (w' = w) by congruence. subst. exists t, t'. eauto.
Qed.

Lemma traced_sorted l p : traced dist l p -> sorted_s (vertex_ p).
Proof. intros (_ & _ & _ & S & _) i u v U V. rewrite (S i u v U V). pose proof (dist_pos (v_x v) (v_y v) (v_x u) (v_y u)). lra. Qed.

Lemma follow_timed v0 l p p' : 0 <= v0 -> (2 <= List.length l)%nat -> List.length (vertex_ p) = List.length l ->
  steps (fun t t' => tv_time t < tv_time t' /\ SMALL < dist (tv_x t') (tv_y t') (tv_x t) (tv_y t)) l ->
  CalculatePolyLine dist heading slope FOLLOW v0 l p = Some p' ->
  timed p' /\
  (forall v, nth_error (vertex_ p') 0 = Some v -> v_speed v = v0) /\ (forall i v, nth_error (vertex_ p') i = Some v -> 0 <= v_speed v) /\
  (forall i u w, nth_error (vertex_ p') i = Some u -> nth_error (vertex_ p') (S i) = Some w -> v_speed u + v_acc u * effective u (v_time w) == v_speed w).
Proof.
  intros V0 B Len St H. assert (NE: vertex_ p <> []) by (intro E; rewrite E in Len; cbn in Len; lia).
  pose proof (calc_traced _ _ _ _ _ _ _ _ NE Len H) as T. pose proof (calc_inv _ _ _ _ _ _ _ _ NE H) as (pl & ql & _ & _ & _ & F & _).
  pose proof T as (TL & Tk & T0 & TS & TE & _). destruct (follow_steps _ _ _ F) as (F0 & F1).
  assert (Seg: forall i u w, nth_error (vertex_ p') i = Some u -> nth_error (vertex_ p') (S i) = Some w -> SMALL < v_s w - v_s u /\ v_time u < v_time w).
  { intros i u w U W. destruct (traced_steps _ _ _ _ _ _ T St U W) as (t & t' & (K1 & K2 & K3 & K4) & (J1 & J2 & J3 & J4) & P1 & P2).
    rewrite (TS i u w U W), K1, K2, K4, J1, J2, J4. split; [lra|auto]. }
  assert (Nn: forall i v, nth_error (vertex_ p') i = Some v -> 0 <= v_speed v).
  { induction i as [|i IH]; intros v V. - rewrite (F0 v V). auto.
    - assert (S i < List.length (vertex_ p'))%nat by (apply nth_error_Some; congruence). destruct (nth_lt (vertex_ p') i ltac:(lia)) as [u U].
      destruct (Seg i u v U V) as (S1 & S2). exact (proj1 (proj2 (follow_segment u v (IH u U) S1 S2 (F1 i u v U V)))). }
  split; [|split; [auto|split; [auto|]]].
  - split; [lia|]. split; [intros i u w U W; apply (Seg i u w U W)|]. split; [eapply traced_sorted; eauto|]. split; auto.
    intros i u w U W. destruct (Seg i u w U W) as (S1 & S2). apply (follow_segment u w (Nn i u U) S1 S2 (F1 i u w U W)).
  - intros i u w U W. destruct (Seg i u w U W) as (S1 & S2). destruct (follow_segment u w (Nn i u U) S1 S2 (F1 i u w U W)) as (_ & _ & E). apply E. reflexivity.
Qed.

Lemma copy_defined l : forall pl, (List.length l <= List.length pl)%nat -> exists L, copy_vertices pl l = Some L.
Proof.
  induction l as [|t l IH]; intros pl B; cbn [copy_vertices]; [eauto|]. destruct pl as [|pv pl]; [cbn in B; lia|].
  destruct (IH pl) as [L ->]; [cbn in B; lia|]. eexists. reflexivity.
Qed.

Lemma follow_some l : forall v0, (forall i u w, nth_error l i = Some u -> nth_error l (S i) = Some w -> ~ v_time u == v_time w) -> exists L, follow_speed v0 l = Some L.
Proof.
  induction l as [|v l IH]; intros v0 H; cbn [follow_speed]; [eauto|]. destruct l as [|w l]; [eauto|].
  assert (exists r, segment_acc v0 (v_s w - v_s v) (v_time w - v_time v) = Some r) as [[acc sp] ->].
  { unfold segment_acc. destruct (Qltb _ _); [|eauto]. destruct (Qeqb_spec (v_time w - v_time v) 0) as [X|X].
    - exfalso. apply (H 0%nat v w); auto. lra.
    - destruct (negb _); eauto. }
  destruct (IH sp) as [L ->]; [|eexists; reflexivity]. intros i u x U X. apply (H (S i)); auto.
Qed.

Lemma calc_defined mode v0 l p : (2 <= List.length l)%nat -> List.length (vertex_ p) = List.length l ->
  (mode = FOLLOW -> steps (fun t t' => ~ tv_time t == tv_time t') l) -> exists p', CalculatePolyLine dist heading slope mode v0 l p = Some p'.
Proof.
  intros B Len St. unfold CalculatePolyLine. destruct (vertex_ p) as [|v1 r] eqn:EV; [cbn in Len; lia|]. rewrite <- EV in *.
  destruct (copy_defined l (vertex_ p) ltac:(lia)) as [pl C]. rewrite C.
  destruct l as [|t1 [|t2 l]]; [cbn in B; lia|cbn in B; lia|]. cbv zeta.
  set (d := first_direction _ _ _ _). set (ql := set_directions heading slope d (set_s dist pl)).
  assert (exists L, match mode with FOLLOW => follow_speed v0 ql | POSITION => Some (position_speed ql) end = Some L) as [L ->]; [|eauto].
  destruct mode; [|eauto]. apply follow_some. intros i u w U W.
  assert (G: map geom ql = map geom (set_s dist pl)) by apply set_directions_geom.
  destruct (nth_geom _ _ _ _ (eq_sym G) U) as (u1 & U1 & G1). destruct (nth_geom _ _ _ _ (eq_sym G) W) as (w1 & W1 & G2).
  destruct (nth_place _ _ _ _ (eq_sym (set_s_place dist pl)) U1) as (u2 & U2 & Q1). destruct (nth_place _ _ _ _ (eq_sym (set_s_place dist pl)) W1) as (w2 & W2 & Q2).
  pose proof (copy_length _ _ _ C) as Lp. set (tl := t1 :: t2 :: l) in *.
  assert (S i < List.length pl)%nat by (apply nth_error_Some; congruence).
  destruct (nth_lt tl i ltac:(lia)) as [t T]. destruct (nth_lt tl (S i) ltac:(lia)) as [t' T'].
  destruct (copy_taken _ _ _ C i t T) as (u3 & U3 & K). destruct (copy_taken _ _ _ C (S i) t' T') as (w3 & W3 & K').
  assert (u3 = u2) by congruence. assert (w3 = w2) by congruence. subst u3 w3. destruct K as (_ & _ & _ & K), K' as (_ & _ & _ & K').
  unfold geom, place in *. injection G1 as _ _ _ _ g1. injection G2 as _ _ _ _ g2. injection Q1 as _ _ _ q1. injection Q2 as _ _ _ q2.
  rewrite <- g1, <- g2, <- q1, <- q2, K, K'. apply (St eq_refl i t t' T T').
Qed.

Lemma map_nth_same {A B} (f : A -> B) l L i v : map f l = map f L -> nth_error l i = Some v -> exists u, nth_error L i = Some u /\ f u = f v.
Proof.
  intros E V. assert (H: nth_error (map f l) i = Some (f v)) by (apply map_nth_error; auto). rewrite E in H.
  destruct (nth_error L i) as [u|] eqn:U.
  - exists u. split; auto. rewrite (map_nth_error f _ _ U) in H. congruence.
  - exfalso. assert (nth_error (map f L) i = None) by (apply nth_error_None; rewrite map_length; apply nth_error_None; auto). congruence.
Qed.

Lemma position_timed v0 l p p' : (2 <= List.length l)%nat -> List.length (vertex_ p) = List.length l ->
  (forall v, In v (vertex_ p) -> v_acc v == 0) ->
  steps (fun t t' => SMALL < tv_time t' - tv_time t) l ->
  CalculatePolyLine dist heading slope POSITION v0 l p = Some p' ->
  timed p' /\
  (forall i u w q, nth_error (vertex_ p') i = Some u -> nth_error (vertex_ p') (S i) = Some w -> v_time u <= q -> q <= v_time w ->
     fst (shape_s p' PARAM_TIME q) == v_s u + (q - v_time u) / (v_time w - v_time u) * (v_s w - v_s u)).
Proof.
  intros B Len Acc St H. assert (NE: vertex_ p <> []) by (intro E; rewrite E in Len; cbn in Len; lia).
  pose proof (calc_traced _ _ _ _ _ _ _ _ NE Len H) as T. pose proof (calc_inv _ _ _ _ _ _ _ _ NE H) as (pl & ql & _ & _ & Mo & F & _).
  pose proof T as (TL & Tk & T0 & TS & TE & _). injection F as F. pose proof SMALL_pos as SP.
  assert (So: sorted_s (vertex_ p')) by (eapply traced_sorted; eauto).
  assert (Seg: forall i u w, nth_error (vertex_ p') i = Some u -> nth_error (vertex_ p') (S i) = Some w -> SMALL < v_time w - v_time u).
  { intros i u w U W. destruct (traced_steps _ _ _ _ _ _ T St U W) as (t & t' & (K1 & K2 & K3 & K4) & (J1 & J2 & J3 & J4) & P1). rewrite K4, J4. auto. }
  assert (A0: forall i u, nth_error (vertex_ p') i = Some u -> v_acc u == 0).
  { intros i u U. rewrite <- F in U. destruct (map_nth_same v_acc _ _ _ _ (position_acc ql) U) as (x & X & <-).
    destruct (map_nth_same _ _ _ _ _ Mo X) as (y & Y & E). injection E as _ <-. apply Acc. eapply nth_error_In; eauto. }
  assert (Ms: forall i u w, nth_error (vertex_ p') i = Some u -> nth_error (vertex_ p') (S i) = Some w -> moves u w /\
    (forall q, v_time u <= q -> time_s u q == v_s u + (q - v_time u) / (v_time w - v_time u) * (v_s w - v_s u))).
  { intros i u w U W. apply position_segment; eauto. rewrite <- F in U, W. rewrite (position_steps _ _ _ _ U W).
    rewrite F in U, W. pose proof (Seg i u w U W) as G. apply Qltb_lt in G. rewrite G. reflexivity. }
  assert (Tm: timed p').
  { split; [lia|]. split; [intros i u w U W; pose proof (Seg i u w U W); lra|]. split; auto. split; auto. intros i u w U W. apply (Ms i u w U W). }
  split; auto. intros i u w q U W Q1 Q2. destruct (timed_between p' i u w q Tm U W Q1 Q2) as (E & _). rewrite E. apply (Ms i u w U W). auto.
Qed.

(** The place at the time of a vertex. *)
Lemma shape_at_vertex norm diff l p pos k t q : timed p -> traced dist l p -> nth_error l k = Some t -> q == tv_time t ->
  steps (fun t t' => SMALL < dist (tv_x t') (tv_y t') (tv_x t) (tv_y t)) l ->
  exists v p', ShapeEvaluate norm diff p q PARAM_TIME pos = Some (0%Z, v, p') /\ v_x v == tv_x t /\ v_y v == tv_y t /\ v_z v == tv_z t /\ v_time v == tv_time t.
Proof.
  intros T Tr Kt Q St. pose proof T as (B & I & S & M & L). pose proof Tr as (TL & Tk & T0 & TS & TE & _).
  destruct (Tk k t Kt) as (vk & V & (K1 & K2 & K3 & K4)).
  assert (Qv: q == v_time vk) by (rewrite K4; auto).
  pose proof (timed_vertex p k vk q T V Qv) as E. unfold ShapeEvaluate.
  destruct (vertex_ p) as [|v1 r] eqn:EV; [cbn in B; lia|]. rewrite <- EV in *. destruct (shape_s p PARAM_TIME q) as [s i]. cbn [fst] in E.
  assert (Ap: apart (vertex_ p) k).
  { assert (G: forall i u w, nth_error (vertex_ p) i = Some u -> nth_error (vertex_ p) (Datatypes.S i) = Some w -> v_s u + SMALL < v_s w).
    { intros j u w U W. destruct (traced_steps _ _ _ _ _ _ Tr St U W) as (a & b & (A1 & A2 & A3 & A4) & (B1 & B2 & B3 & B4) & P). rewrite (TS j u w U W), A1, A2, B1, B2. lra. }
    split.
    - intros u w Nk U W. apply (G (k - 1)%nat); auto. replace (Datatypes.S (k - 1)) with k by lia. auto.
    - intros u w U W. eapply G; eauto. }
  destruct (eval_vertex norm diff p s pos (Some i) k vk E S Ap V) as (j & v & p' & -> & (P1 & P2 & P3 & P4 & _)).
  exists v, p'. split; [reflexivity|]. rewrite P1, P2, P3, P4, K1, K2, K3, K4. repeat split; reflexivity.
Qed.

End Modes.

(** ** Directions and modes *)

Section Directions.
Variable dist : Q -> Q -> Q -> Q -> Q.
Variable heading slope : Q -> Q -> Q.

Lemma first_direction_spec l : forall d j u w, nth_error l j = Some u -> nth_error l (S j) = Some w -> SMALL < v_s w - v_s u ->
  (forall i u w, (i < j)%nat -> nth_error l i = Some u -> nth_error l (S i) = Some w -> v_s w - v_s u <= SMALL) ->
  first_direction heading slope d l = (heading (v_x w - v_x u) (v_y w - v_y u), slope (v_z w - v_z u) (v_s w - v_s u)).
Proof.
  induction l as [|v l IH]; intros d j u w U W A F; [destruct j; discriminate|].
  destruct l as [|x l]; [destruct j as [|[|j]]; discriminate|]. cbn [first_direction]. unfold direction at 1.
  destruct j as [|j].
  - cbn in U, W. injection U as <-. injection W as <-. apply Qltb_lt in A. rewrite A. reflexivity.
  - pose proof (F 0%nat v x ltac:(lia) eq_refl eq_refl) as G. apply Qltb_ge in G. rewrite G.
    apply (IH d j u w U W A). intros i u' w' B. apply (F (S i)). lia.
Qed.

Lemma directions_spec l : forall d, exists D : nat -> Q * Q, D 0%nat = d /\
  (forall i v, nth_error l i = Some v -> nth_error (set_directions heading slope d l) i = Some (set_direction (D i) v)) /\
  (forall i u w, nth_error l (S i) = Some u -> nth_error l (S (S i)) = Some w -> SMALL < v_s w - v_s u ->
     D (S i) = (heading (v_x w - v_x u) (v_y w - v_y u), slope (v_z w - v_z u) (v_s w - v_s u))) /\
  (forall i u w, nth_error l (S i) = Some u -> nth_error l (S (S i)) = Some w -> v_s w - v_s u <= SMALL -> D (S i) = D i) /\
  (forall i u, nth_error l (S i) = Some u -> nth_error l (S (S i)) = None -> D (S i) = D i).
Proof.
  induction l as [|v l IH]; intro d.
  - exists (fun _ => d). repeat split; auto; intros; try destruct i; discriminate.
  - cbn [set_directions]. set (d' := match l with w :: x :: _ => _ | _ => d end). destruct (IH d') as (D & D0 & D1 & D2 & D3 & D4).
    exists (fun i => match i with O => d | S i => D i end). split; auto. split.
    { intros [|i] u U; cbn in U |- *; [injection U as <-; reflexivity|auto]. }
    split; [|split].
    + intros [|i] u w U W A; cbn [nth_error] in U, W; [|eauto]. rewrite D0. unfold d'. destruct l as [|a [|b l]]; [discriminate|discriminate|]. cbn in U, W. injection U as <-. injection W as <-.
      unfold direction. apply Qltb_lt in A. rewrite A. reflexivity.
    + intros [|i] u w U W A; cbn [nth_error] in U, W; [|eauto]. rewrite D0. unfold d'. destruct l as [|a [|b l]]; [discriminate|discriminate|]. cbn in U, W. injection U as <-. injection W as <-.
      unfold direction. apply Qltb_ge in A. rewrite A. reflexivity.
    + intros [|i] u U W; cbn [nth_error] in U, W; [|eauto]. rewrite D0. unfold d'. destruct l as [|a [|b l]]; [discriminate|reflexivity|discriminate].
Qed.

(** What the speeds leave alone. *)
Definition look (v : vertex) : Q * Q * Q * N * Z * Q * Q := (v_h v, v_pitch v, v_r v, v_road v, v_mode v, v_htrue v, v_param v).

Lemma follow_look l : forall v0 L, follow_speed v0 l = Some L -> map look L = map look l.
Proof.
  induction l as [|v l IH]; intros v0 L; cbn [follow_speed].
  - intro E. injection E as <-. reflexivity.
  - destruct l as [|w l]. { intro E. injection E as <-. reflexivity. }
    destruct (segment_acc v0 (v_s w - v_s v) (v_time w - v_time v)) as [[acc sp]|]; [|discriminate].
    destruct (follow_speed sp (w :: l)) as [L'|] eqn:F; cbn [option_map]; [|discriminate]. intro E. injection E as <-.
    rewrite (map_cons look v), <- (IH _ _ F). reflexivity.
Qed.
Lemma position_look l : map look (position_speed l) = map look l.
Proof. induction l as [|v [|w l] IH]; auto. cbn [position_speed] in *. rewrite (map_cons look v), <- IH. reflexivity. Qed.
Lemma set_s_from_look l : forall pv, map look (set_s_from dist pv l) = map look l.
Proof. induction l as [|v l IH]; intro pv; cbn [set_s_from map]; auto. f_equal. apply IH. Qed.
Lemma set_s_look l : map look (set_s dist l) = map look l.
Proof. destruct l; cbn [set_s map]; auto. f_equal. apply set_s_from_look. Qed.

Lemma copy_nth l : forall pl L, copy_vertices pl l = Some L -> forall i t, nth_error l i = Some t ->
  exists pv, nth_error pl i = Some pv /\ nth_error L i = Some (copy_vertex pv t (nth_error l (S i))).
Proof.
  induction l as [|t l IH]; intros pl L; cbn [copy_vertices]; [intros _ [|i]; discriminate|]. destruct pl as [|pv pl]; [discriminate|].
  destruct (copy_vertices pl l) as [L'|] eqn:E; cbn [option_map]; [|discriminate]. intros X [|i] t' T.
  - injection X as <-. cbn in T. injection T as <-. exists pv. split; auto.
  - injection X as <-. cbn [nth_error] in *. eauto.
Qed.

(** Pitch, roll and mode of a vertex as copied. *)
Definition copied (t : tvertex) (next : option tvertex) (v : vertex) : Prop :=
  exists pv, v_pitch v = v_pitch (copy_vertex pv t next) /\ v_r v = v_r (copy_vertex pv t next) /\ v_mode v = v_mode (copy_vertex pv t next).

Lemma copy_same pv pv' t next : v_pitch (copy_vertex pv t next) = v_pitch (copy_vertex pv' t next) /\ v_r (copy_vertex pv t next) = v_r (copy_vertex pv' t next) /\
  v_mode (copy_vertex pv t next) = v_mode (copy_vertex pv' t next) /\ v_h (copy_vertex pv t next) = tv_h t /\ v_road (copy_vertex pv t next) = tv_track t /\ v_param (copy_vertex pv t next) = 0.
Proof. unfold copy_vertex. destruct (rel_default P_MASK P_REL _) as [m pr]. destruct (rel_default R_MASK R_REL m) as [m' rr]. repeat split. Qed.

Lemma nth_map_rev {A B} (f : A -> B) l L i v : map f L = map f l -> nth_error l i = Some v -> exists u, nth_error L i = Some u /\ f u = f v.
Proof. intros E V. apply (map_nth_same f l L i v); auto. Qed.

(** [steer] gives the direction at each vertex. *)
Lemma calc_directions mode v0 l p p' : vertex_ p <> [] -> List.length (vertex_ p) = List.length l ->
  CalculatePolyLine dist heading slope mode v0 l p = Some p' -> exists D : nat -> Q * Q,
  (forall i t v, nth_error l i = Some t -> nth_error (vertex_ p') i = Some v -> exists c, c = copy_vertex v t (nth_error l (S i)) /\
     v_mode v = v_mode c /\ v_r v = v_r c /\ v_htrue v = fst (D i) /\ v_road v = tv_track t /\ v_param v = 0 /\
     v_h v = (if (Z.land (v_mode v) H_MASK =? 0)%Z then fst (D i) else tv_h t) /\
     v_pitch v = (if (Z.land (v_mode v) P_MASK =? 0)%Z then snd (D i) else v_pitch c)) /\
  (forall i u w, nth_error (vertex_ p') i = Some u -> nth_error (vertex_ p') (S i) = Some w -> SMALL < v_s w - v_s u ->
     D i = (heading (v_x w - v_x u) (v_y w - v_y u), slope (v_z w - v_z u) (v_s w - v_s u))) /\
  (forall i u w, nth_error (vertex_ p') (S i) = Some u -> nth_error (vertex_ p') (S (S i)) = Some w -> v_s w - v_s u <= SMALL -> D (S i) = D i) /\
  (forall i u, nth_error (vertex_ p') (S i) = Some u -> nth_error (vertex_ p') (S (S i)) = None -> D (S i) = D i) /\
  (forall j u w, nth_error (vertex_ p') j = Some u -> nth_error (vertex_ p') (S j) = Some w -> SMALL < v_s w - v_s u ->
     (forall i u w, (i < j)%nat -> nth_error (vertex_ p') i = Some u -> nth_error (vertex_ p') (S i) = Some w -> v_s w - v_s u <= SMALL) ->
     D 0%nat = (heading (v_x w - v_x u) (v_y w - v_y u), slope (v_z w - v_z u) (v_s w - v_s u))).
Proof.
  intros NE Len. unfold CalculatePolyLine. destruct (vertex_ p) as [|v1 r] eqn:EV; [congruence|]. rewrite <- EV in *.
  destruct (copy_vertices (vertex_ p) l) as [pl|] eqn:C; [|discriminate].
  destruct l as [|t1 [|t2 lr]]; [rewrite EV in Len; discriminate|discriminate|]. cbv zeta. set (l := t1 :: t2 :: lr) in *.
  set (sl := set_s dist pl). set (d := first_direction heading slope _ sl). set (ql := set_directions heading slope d sl).
  intro H.
  destruct (match mode with FOLLOW => follow_speed v0 ql | POSITION => Some (position_speed ql) end) as [fl|] eqn:F; [|discriminate]. injection H as <-. cbn [vertex_].
  assert (G: map geom fl = map geom ql). { destruct mode; [eapply follow_geom; eauto|]. injection F as F. rewrite <- F. apply position_geom. }
  assert (K: map look fl = map look ql). { destruct mode; [eapply follow_look; eauto|]. injection F as F. rewrite <- F. apply position_look. }
  assert (G2: map geom fl = map geom sl) by (rewrite G; apply set_directions_geom).
  destruct (directions_spec sl d) as (D & D0 & D1 & D2 & D3 & D4). fold ql in D1.
  assert (Back: forall i v, nth_error fl i = Some v -> exists u, nth_error sl i = Some u /\ geom u = geom v).
  { intros i v V. apply (nth_geom sl fl); auto. }
  assert (First: forall j u w, nth_error fl j = Some u -> nth_error fl (S j) = Some w -> SMALL < v_s w - v_s u ->
     (forall i u w, (i < j)%nat -> nth_error fl i = Some u -> nth_error fl (S i) = Some w -> v_s w - v_s u <= SMALL) ->
     D 0%nat = (heading (v_x w - v_x u) (v_y w - v_y u), slope (v_z w - v_z u) (v_s w - v_s u))).
  { intros j u w U W A Fi. destruct (Back _ _ U) as (u' & U' & Gu). destruct (Back _ _ W) as (w' & W' & Gw).
    unfold geom in Gu, Gw. injection Gu as a1 a2 a3 a4 a5. injection Gw as b1 b2 b3 b4 b5. rewrite D0. unfold d.
    rewrite <- a1, <- a2, <- a3, <- a4, <- b1, <- b2, <- b3, <- b4. apply (first_direction_spec sl _ j u' w' U' W'); [rewrite a1, b1; auto|].
    intros i x y B X Y. destruct (nth_geom fl sl i x G2 X) as (x' & X' & Gx). destruct (nth_geom fl sl (S i) y G2 Y) as (y' & Y' & Gy).
    unfold geom in Gx, Gy. injection Gx as c1 _. injection Gy as e1 _. rewrite <- c1, <- e1. eapply Fi; eauto. }
  exists D. split; [|split; [|split; [|split]]].
  - intros i t v T V. eexists. split; [reflexivity|].
    destruct (copy_nth _ _ _ C i t T) as (pv & Pv & Cv). set (nx := nth_error l (S i)) in *. clearbody nx. destruct (nth_map_rev look pl sl i _ (set_s_look pl) Cv) as (sv & Sv & Ls).
    pose proof (D1 i sv Sv) as Q. destruct (nth_map_rev look ql fl i _ K Q) as (v' & V' & Lv). assert (v' = v) by congruence. subst v'.
    destruct (copy_same v pv t nx) as (c1 & c2 & c3 & c4 & c5 & c6).
    destruct (copy_same pv pv t nx) as (_ & _ & _ & d4 & d5 & d6).
    unfold look in *. cbn [set_direction v_h v_pitch v_r v_road v_mode v_htrue v_param] in Lv. injection Lv as k1 k2 k3 k4 k5 k6 k7. injection Ls as s1 s2 s3 s4 s5 s6 s7.
    rewrite k1, k2, k3, k4, k5, k6, k7, s1, s2, s3, s4, s5, s7, c1, c2, c3, d4, d5, d6. repeat split; auto.
  - intros [|i] u w U W A; [eapply First; eauto; intros; lia|].
    destruct (Back _ _ U) as (u' & U' & Gu). destruct (Back _ _ W) as (w' & W' & Gw).
    unfold geom in Gu, Gw. injection Gu as a1 a2 a3 a4 a5. injection Gw as b1 b2 b3 b4 b5. rewrite <- a1, <- a2, <- a3, <- a4, <- b1, <- b2, <- b3, <- b4.
    apply (D2 i u' w' U' W'). rewrite a1, b1. auto.
  - intros i u w U W A. destruct (Back _ _ U) as (u' & U' & Gu). destruct (Back _ _ W) as (w' & W' & Gw).
    unfold geom in Gu, Gw. injection Gu as a1 _. injection Gw as b1 _. apply (D3 i u' w' U' W'). rewrite a1, b1. auto.
  - intros i u U W. destruct (Back _ _ U) as (u' & U' & _). apply (D4 i u' U'). apply nth_error_None. apply nth_error_None in W. rewrite <- (map_length_eq geom _ _ G2). auto.
  - exact First.
Qed.

(** Modes: z absolute at the next vertex makes it absolute here, otherwise unset pitch and roll are relative to the road. *)
Lemma mode_cases pv t next m : (m = tv_mode t /\ (z_abs (tv_mode t) = true \/ next = None \/ exists n, next = Some n /\ z_abs (tv_mode n) = false) \/
    exists n, next = Some n /\ z_abs (tv_mode n) = true /\ z_abs (tv_mode t) = false /\ m = tv_mode n) ->
  (z_abs m = true -> v_mode (copy_vertex pv t next) = m /\ v_pitch (copy_vertex pv t next) = tv_p t /\ v_r (copy_vertex pv t next) = tv_r t) /\
  (z_abs m = false -> Z.land m P_MASK <> 0%Z -> Z.land m R_MASK <> 0%Z -> v_mode (copy_vertex pv t next) = m /\ v_pitch (copy_vertex pv t next) = tv_p t /\ v_r (copy_vertex pv t next) = tv_r t) /\
  (z_abs m = false -> Z.land m P_MASK = 0%Z -> v_pitch (copy_vertex pv t next) = tv_prel t) /\ (z_abs m = false -> Z.land m R_MASK = 0%Z -> v_r (copy_vertex pv t next) = tv_rrel t).
Proof.
  intro H. assert (E: own_mode t next = m).
  { unfold own_mode. destruct H as [(-> & [H|[->|(n & -> & H)]])|(n & -> & H1 & H2 & ->)]; auto.
    - destruct next; auto. rewrite H. cbn [negb]. rewrite andb_false_r. reflexivity.
    - rewrite H. reflexivity.
    - rewrite H1, H2. reflexivity. }
  assert (Zr: forall mask rel m, z_abs m = true -> rel_default mask rel m = (m, false)) by (intros ? ? ? Z; unfold rel_default; rewrite Z; reflexivity).
  assert (Zs: forall mask rel m, Z.land m mask <> 0%Z -> rel_default mask rel m = (m, false)).
  { intros mask rel m' Z. unfold rel_default. destruct (Z.eqb_spec (Z.land m' mask) 0); [contradiction|]. rewrite andb_false_r. reflexivity. }
  assert (Zu: forall mask rel m, z_abs m = false -> Z.land m mask = 0%Z -> rel_default mask rel m = (Z.lor (Z.land m (Z.lnot mask)) rel, true)).
  { intros mask rel m' A B. unfold rel_default. rewrite A, B. reflexivity. }
  unfold copy_vertex. rewrite E. repeat split; intros.
  1-3: rewrite Zr, Zr by auto; reflexivity.
  1-3: rewrite Zs, Zs by auto; reflexivity.
  - rewrite Zu by auto. destruct (rel_default R_MASK R_REL _). reflexivity.
  - destruct (rel_default P_MASK P_REL m) as [m1 pr] eqn:P.
    assert (z_abs m1 = false /\ Z.land m1 R_MASK = 0%Z) as (A & B).
    { unfold rel_default in P. destruct (negb (z_abs m) && (Z.land m P_MASK =? 0)%Z) eqn:Q; injection P as <- <-; [|auto]. clear Q.
      assert (G: forall k, Z.land (Z.lor (Z.land m (Z.lnot P_MASK)) P_REL) k = Z.lor (Z.land m (Z.land (Z.lnot P_MASK) k)) (Z.land P_REL k)).
      { intro k. rewrite Z.land_lor_distr_l, <- Z.land_assoc. reflexivity. }
      split.
      - unfold z_abs in *. rewrite G. change (Z.land (Z.lnot P_MASK) Z_MASK) with Z_MASK. change (Z.land P_REL Z_MASK) with 0%Z. rewrite Z.lor_0_r. auto.
      - rewrite G. change (Z.land (Z.lnot P_MASK) R_MASK) with R_MASK. change (Z.land P_REL R_MASK) with 0%Z. rewrite Z.lor_0_r. auto. }
    rewrite Zu by auto. reflexivity.
Qed.

End Directions.

(** ** Evaluation by distance *)

Lemma distance_between norm diff p pos e q : last_vertex (vertex_ p) e -> q <= v_s e ->
  exists i, ShapeEvaluate norm diff p q PARAM_S pos = option_map (fun '(_, v, p') => (0%Z, v, p')) (Evaluate norm diff p q pos (Some i)).
Proof.
  intros L Q. unfold ShapeEvaluate. destruct (vertex_ p) as [|a r] eqn:E; [discriminate|]. unfold shape_s. rewrite E.
  assert (X: s_at (a :: r) (List.length (a :: r) - 1) = v_s e) by (unfold s_at; unfold last_vertex in L; rewrite L; reflexivity).
  cbv zeta. rewrite X. destruct (Qltb_spec (v_s e) q); [lra|]. eexists. reflexivity.
Qed.

Lemma distance_past norm diff p pos e q : last_vertex (vertex_ p) e -> length_ p = v_s e -> v_s e < q ->
  exists v p', ShapeEvaluate norm diff p q PARAM_S pos = Some (0%Z, v, p') /\ v_s v = length_ p /\ same_place v e.
Proof.
  intros L B Q. unfold ShapeEvaluate. destruct (vertex_ p) as [|a r] eqn:E; [discriminate|]. unfold shape_s. rewrite E. rewrite <- E in *.
  assert (X: s_at (vertex_ p) (List.length (vertex_ p) - 1) = v_s e) by (unfold s_at; unfold last_vertex in L; rewrite L; reflexivity).
  cbv zeta. rewrite X. destruct (Qltb_spec (v_s e) q); [|lra].
  rewrite (eval_end norm diff p (length_ p) pos _ e L); [|rewrite B; pose proof SMALL_pos; lra]. eexists _, _. split; [reflexivity|]. split; [reflexivity|]. exact (same_place_refl e).
Qed.

Lemma distance_vertex norm diff p pos k vk q : sorted_s (vertex_ p) -> apart (vertex_ p) k -> nth_error (vertex_ p) k = Some vk -> q == v_s vk ->
  exists v p', ShapeEvaluate norm diff p q PARAM_S pos = Some (0%Z, v, p') /\ same_place v vk.
Proof.
  intros So A K Q. destruct (nth_error (vertex_ p) (List.length (vertex_ p) - 1)) as [e|] eqn:L.
  2:{ apply nth_error_None in L. assert (k < List.length (vertex_ p))%nat by (apply nth_error_Some; congruence). lia. }
  assert (N: (k < List.length (vertex_ p))%nat) by (apply nth_error_Some; congruence).
  assert (B: v_s vk <= v_s e). { pose proof (sorted_le (vertex_ p) k (List.length (vertex_ p) - 1)%nat So ltac:(lia) ltac:(lia)) as X. unfold s_at in X. rewrite K, L in X. exact X. }
  destruct (distance_between norm diff p pos e q L ltac:(lra)) as (i & ->).
  destruct (eval_vertex norm diff p q pos (Some i) k vk Q So A K) as (j & v & p' & -> & P). eexists _, _. split; [reflexivity|exact P].
Qed.

(** The vertex the search by distance starts from. *)
Lemma param_s_spec l q n : forall i, (i < List.length l)%nat -> (List.length l <= i + n)%nat ->
  let j := param_fwd PARAM_S l q n i in
  (i <= j < List.length l)%nat /\ (j = i \/ s_at l j < q) /\ (j = (List.length l - 1)%nat \/ q <= s_at l (S j)).
Proof.
  induction n as [|n IH]; intros i B F; cbn [param_fwd]; [lia|].
  destruct (Nat.ltb_spec i (List.length l - 1)); cbn [andb].
  - destruct (Qltb_spec (s_at l (S i)) q) as [X|X].
    + destruct (IH (S i)) as (P & Q & R); [lia|lia|]. split; [lia|]. split; [|auto]. right. destruct Q as [Q|Q]; [rewrite Q; auto|auto].
    + split; [lia|]. split; [auto|]. right. lra.
  - split; [lia|]. split; [auto|]. left. lia.
Qed.

Lemma shape_by_distance p q e : last_vertex (vertex_ p) e -> q <= v_s e ->
  exists i, shape_s p PARAM_S q = (q, i) /\ (i < List.length (vertex_ p))%nat /\ (i = 0%nat \/ s_at (vertex_ p) i < q) /\
  (i = (List.length (vertex_ p) - 1)%nat \/ q <= s_at (vertex_ p) (S i)).
Proof.
  intros L Q. assert (B : (0 < List.length (vertex_ p))%nat).
  { unfold last_vertex in L. destruct (vertex_ p); [discriminate|cbn; lia]. }
  unfold shape_s. assert (X: s_at (vertex_ p) (List.length (vertex_ p) - 1) = v_s e) by (unfold s_at; unfold last_vertex in L; rewrite L; reflexivity).
  cbv zeta. rewrite X. destruct (Qltb_spec (v_s e) q); [lra|]. destruct (param_s_spec (vertex_ p) q (List.length (vertex_ p)) 0 B ltac:(lia)) as (P1 & P2 & P3).
  eexists. split; [reflexivity|]. split; [lia|]. auto.
Qed.
