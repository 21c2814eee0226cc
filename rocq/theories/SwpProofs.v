(** * Spec and lemmas on the population of swarm traffic. *)
From Coq Require Import Reals Bool List ZArith Lia Lra Psatz Permutation.
From Verif Require Import AngModel AngProofs TriModel SwmModel SwmProofs SwpModel.
Import ListNotations.
Open Scope R_scope.

(** Every vehicle noted is there, once, with a single controller, and ids of new ones are new. *)
Definition sound (w : swarm) : Prop :=
  Forall (fun f => exists v, find_car (w_cars w) (i_id f) = Some v /\ (c_ctrls v <= 1)%nat) (w_spawned w) /\
  NoDup (map i_id (w_spawned w)) /\ Forall (fun c => (c_id c < w_next w)%nat) (w_cars w).

(** What std::shuffle, std::sample and the network give. *)
Definition fair (o : oracle) (sols : list point) : Prop :=
  (forall n, (length (o_points o sols n) <= n)%nat /\ incl (o_points o sols n) sols) /\
  (forall k l n, (length (o_choice o k l n) <= n)%nat /\ incl (o_choice o k l n) l /\ (NoDup l -> NoDup (o_choice o k l n))) /\
  (forall p, In p sols -> o_where o p <> None).

Lemma find_some : forall cars id v, find_car cars id = Some v -> In v cars /\ c_id v = id.
Proof. intros cars id v H. unfold find_car in H. apply find_some in H. destruct H as (I & E). apply Nat.eqb_eq in E. auto. Qed.

Lemma find_remove : forall cars id id', id <> id' -> find_car (remove_car cars id) id' = find_car cars id'.
Proof.
  intros cars id id' N. unfold find_car, remove_car. induction cars as [|c cars IH]; [reflexivity|]. cbn [filter find]. destruct (Nat.eqb_spec (c_id c) id) as [E|E]; cbn [negb].
  - rewrite IH. destruct (Nat.eqb_spec (c_id c) id') as [E'|E']; [congruence|reflexivity].
  - cbn [find]. destruct (Nat.eqb_spec (c_id c) id'); [reflexivity|exact IH].
Qed.

Lemma find_gone : forall cars id, find_car (remove_car cars id) id = None.
Proof.
  intros cars id. unfold find_car, remove_car. induction cars as [|c cars IH]; [reflexivity|]. cbn [filter find]. destruct (Nat.eqb_spec (c_id c) id) as [E|E]; cbn [negb]; [exact IH|].
  cbn [find]. destruct (Nat.eqb_spec (c_id c) id); [contradiction|exact IH].
Qed.

Lemma find_app : forall cars id v c, find_car cars id = Some v -> find_car (cars ++ [c]) id = Some v.
Proof.
  intros cars id v c. unfold find_car. induction cars as [|x cars IH]; cbn [find app]; [discriminate|]. destruct (Nat.eqb (c_id x) id); auto.
Qed.

Lemma find_new : forall cars c, Forall (fun x => (c_id x < c_id c)%nat) cars -> find_car (cars ++ [c]) (c_id c) = Some c.
Proof.
  intros cars c. unfold find_car. induction cars as [|x cars IH]; intros F; cbn [find app].
  - rewrite Nat.eqb_refl. reflexivity.
  - inversion F; subst. destruct (Nat.eqb_spec (c_id x) (c_id c)); [lia|]. now apply IH.
Qed.

(** ** Taking away *)

Section Despawn.
Variable z : settings.
Variables h k A : R.

Definition outer (v : car) : R := ellipse h k A (z_major z) (z_minor z) (c_x v) (c_y v).
Definition middle (v : car) : R := ellipse h k A (z_midMajor z) (z_midMinor z) (c_x v) (c_y v).

(** Off the road, at its end, outside, or outside of the middle for too long. *)
Definition useless (v : car) (out : Z) : Prop :=
  c_off v = true \/ c_end v = true \/ 1 / 1000 < outer v \/ (0 <= middle v /\ (5 <= out)%Z).

Lemma judge_is : forall v out, (fst (judge z h k A v out) = true <-> useless v out) /\
  (fst (judge z h k A v out) = false -> snd (judge z h k A v out) = if leb 0 (middle v) then (out + 1)%Z else 0%Z).
Proof.
  intros v out. unfold judge, useless. destruct (c_off v) eqn:O; [cbn; split; [intuition|discriminate]|]. destruct (c_end v) eqn:E; [cbn; split; [intuition|discriminate]|]. cbn [orb].
  fold (outer v). fold (middle v). destruct (Rltb (1 / 1000) (outer v)) eqn:E0.
  - apply Rltb_true in E0. cbn. split; [intuition|discriminate].
  - apply Rltb_false in E0. assert (X : Rltb (1 / 1000) (middle v) || (leb 0 (middle v) && leb (middle v) (1 / 1000)) = leb 0 (middle v)).
    { destruct (Rltb (1 / 1000) (middle v)) eqn:E1.
      - apply Rltb_true in E1. cbn [orb]. symmetry. apply leb_true. lra.
      - apply Rltb_false in E1. cbn [orb]. rewrite (proj2 (leb_true (middle v) (1 / 1000))) by lra. apply andb_true_r. }
    rewrite X. destruct (leb 0 (middle v)) eqn:M.
    + apply leb_true in M. cbn [fst snd]. unfold USELESS_THRESHOLD. rewrite Z.ltb_lt. split; [|reflexivity]. split; [intros L; right; right; right; split; [exact M|lia]|]. intros [H|[H|[H|(_ & H)]]]; try discriminate; [lra|lia].
    + apply leb_false in M. cbn [fst snd]. split; [|reflexivity]. split; [discriminate|]. intros [H|[H|[H|(H & _)]]]; try discriminate; lra.
Qed.

(** What is left of one vehicle. *)
Definition kept (cars : list car) (f : spawned) : list spawned :=
  match find_car cars (i_id f) with
  | None => []
  | Some v => let '(del, out) := judge z h k A v (i_out f) in if del then [] else [Spawned (i_id f) out (i_road f) (i_lane f) (i_time f)]
  end.

Lemma kept_remove : forall cars id l, ~ In id (map i_id l) -> flat_map (kept (remove_car cars id)) l = flat_map (kept cars) l.
Proof.
  induction l as [|f l IH]; intros N; [reflexivity|]. cbn [flat_map map] in *. rewrite IH by (intros I; apply N; now right). unfold kept at 1 3. rewrite find_remove; [reflexivity|]. intros E. apply N. now left.
Qed.

Lemma kept_ids : forall cars l, incl (map i_id (flat_map (kept cars) l)) (map i_id l).
Proof.
  induction l as [|f l IH]; [easy|]. cbn [flat_map map]. rewrite map_app. intros x I. apply in_app_or in I. destruct I as [I|I]; [|right; now apply IH].
  left. unfold kept in I. destruct (find_car cars (i_id f)) as [v|]; [|contradiction]. destruct (judge z h k A v (i_out f)) as [[|] o]; cbn in I; [contradiction|]. destruct I as [I|[]]. exact I.
Qed.

Lemma kept_nodup : forall cars l, NoDup (map i_id l) -> NoDup (map i_id (flat_map (kept cars) l)).
Proof.
  induction l as [|f l IH]; intros N; [constructor|]. cbn [flat_map map] in *. inversion N; subst. rewrite map_app. unfold kept at 1. destruct (find_car cars (i_id f)) as [v|]; [|now apply IH].
  destruct (judge z h k A v (i_out f)) as [[|] o]; cbn [map app]; [now apply IH|]. constructor; [|now apply IH]. cbn [i_id]. intros I. apply kept_ids in I. contradiction.
Qed.

Lemma despawn_is : forall l cars, Forall (fun f => exists v, find_car cars (i_id f) = Some v /\ (c_ctrls v <= 1)%nat) l -> NoDup (map i_id l) ->
  exists cars', despawn_loop z h k A cars l = Some (flat_map (kept cars) l, cars', Z.of_nat (length l - length (flat_map (kept cars) l))) /\
  (length (flat_map (kept cars) l) <= length l)%nat /\ incl cars' cars /\
  (forall f, In f l -> ~ In (i_id f) (map i_id (flat_map (kept cars) l)) -> find_car cars' (i_id f) = None) /\
  (forall id, In id (map i_id (flat_map (kept cars) l)) \/ ~ In id (map i_id l) -> find_car cars' id = find_car cars id).
Proof.
  induction l as [|f l IH]; intros cars F N; cbn [despawn_loop flat_map].
  - exists cars. repeat split; try easy.
  - inversion F as [|? ? (v & FV & CT) F']; subst. cbn [map] in N. inversion N as [|? ? NI N']; subst. rewrite FV.
    destruct (judge z h k A v (i_out f)) as [del out] eqn:J.
    assert (KF : kept cars f = if del then [] else [Spawned (i_id f) out (i_road f) (i_lane f) (i_time f)]) by (unfold kept; rewrite FV, J; reflexivity).
    rewrite KF. destruct del; cbn [app].
    + rewrite (proj2 (Nat.ltb_ge 1 (c_ctrls v))) by exact CT.
      destruct (IH (remove_car cars (i_id f))) as (cars' & E & LE & IN & GONE & KEEP); [|exact N'|].
      { rewrite Forall_forall in *. intros g G. destruct (F' g G) as (u & FU & CU). exists u. split; [|exact CU]. rewrite find_remove; [exact FU|]. intros X. apply NI. rewrite X. now apply in_map. }
      rewrite kept_remove in * by exact NI. rewrite E. exists cars'.
      split; [f_equal; f_equal; cbn [length]; lia|]. split; [cbn [length]; lia|].
      split; [intros c I; apply IN in I; unfold remove_car in I; apply filter_In in I; tauto|]. split.
      * intros g [<-|G] X; [|now apply GONE]. rewrite KEEP; [apply find_gone|]. now right.
      * intros id H. cbn [map In] in H. assert (ID : i_id f <> id). { intros <-. destruct H as [H|H]; [apply kept_ids in H; contradiction|apply H; now left]. }
        rewrite KEEP; [now apply find_remove|]. destruct H as [H|H]; [now left|right; tauto].
    + destruct (IH cars F' N') as (cars' & E & LE & IN & GONE & KEEP). rewrite E. exists cars'. split; [cbn [length]; rewrite Nat.sub_succ; reflexivity|]. split; [cbn [length]; lia|]. split; [exact IN|]. split.
      * intros g [<-|G] X; [exfalso; apply X; now left|]. apply GONE; [exact G|]. intros Y. apply X. now right.
      * intros id H. cbn [map In i_id] in H. apply KEEP. destruct H as [[<-|H]|H]; [right; exact NI|now left|right; tauto].
Qed.
End Despawn.

(** ** How many *)

Lemma between : forall lo hi r, (lo <= hi)%Z -> (lo <= GetNumberBetween lo hi r <= hi)%Z.
Proof.
  intros lo hi r L. unfold GetNumberBetween. rewrite (proj2 (Z.ltb_ge hi lo)) by lia. pose proof (Z.mod_pos_bound (Z.of_nat r) (hi - lo + 1)). lia.
Qed.

Fixpoint total (l : list select) : Z := match l with [] => 0%Z | (_, n) :: l => (n + total l)%Z end.

Definition proper (s : select) : Prop := (1 <= snd s <= Z.of_nat (length (l_lanes (fst s))))%Z.

Lemma one_each_is : forall f pts, (forall p, In p pts -> f p <> None) -> exists l, one_each f pts = Some l /\ (total l <= Z.of_nat (length pts))%Z /\
  Forall (fun s => proper s /\ snd s = 1%Z /\ l_junction (fst s) = false /\ exists p, In p pts /\ f p = Some (fst s)) l.
Proof.
  induction pts as [|p pts IH]; intros W; cbn [one_each].
  - exists []. repeat split; [cbn; lia|constructor].
  - destruct (f p) as [l|] eqn:E; [|exfalso; apply (W p); [now left|exact E]]. destruct IH as (r & ER & T & FA); [intros q I; apply W; now right|]. rewrite ER. eexists. split; [reflexivity|].
    assert (FA' : Forall (fun s => proper s /\ snd s = 1%Z /\ l_junction (fst s) = false /\ exists q, In q (p :: pts) /\ f q = Some (fst s)) r).
    { eapply Forall_impl; [|exact FA]. intros s (A1 & A2 & A3 & q & I & Q). repeat split; auto; [apply A1|apply A1|]. exists q. split; [now right|exact Q]. }
    destruct (l_junction l) eqn:J; [split; [cbn [length]; lia|exact FA']|]. destruct (Nat.eqb_spec (length (l_lanes l)) 0) as [Z0|Z0]; [split; [cbn [length]; lia|exact FA']|].
    split; [cbn [length total]; lia|]. constructor; [|exact FA']. unfold proper. cbn [fst snd]. repeat split; try lia; auto. exists p. split; [now left|exact E].
Qed.

Lemma some_each_is : forall f d pts i left, (0 <= left)%Z -> (forall p, In p pts -> f p <> None) -> exists l, some_each f d i left pts = Some l /\ (total l <= Z.of_nat (length pts) + left)%Z /\
  Forall (fun s => proper s /\ exists p, In p pts /\ f p = Some (fst s)) l.
Proof.
  induction pts as [|p pts IH]; intros i left L W; cbn [some_each].
  - exists []. repeat split; [cbn; lia|constructor].
  - destruct (f p) as [l|] eqn:E; [|exfalso; apply (W p); [now left|exact E]]. assert (W' : forall q, In q pts -> f q <> None) by (intros q I; apply W; now right).
    destruct (Z.of_nat (length (l_lanes l)) =? 0)%Z eqn:Z0.
    + destruct (IH i (left + 1)%Z ltac:(lia) W') as (r & ER & T & FA). exists r. split; [exact ER|]. split; [cbn [length]; lia|]. eapply Forall_impl; [|exact FA]. intros s (A1 & q & I & Q). split; [exact A1|]. exists q. split; [now right|exact Q].
    + apply Z.eqb_neq in Z0. set (n := if (0 <? left)%Z then _ else 0%Z).
      assert (B : (0 <= n <= left)%Z /\ (1 + n <= Z.of_nat (length (l_lanes l)))%Z).
      { unfold n. destruct (0 <? left)%Z eqn:P; [apply Z.ltb_lt in P|lia]. pose proof (between 0 (Z.min left (Z.of_nat (length (l_lanes l)))) (d i) ltac:(lia)) as B. destruct (GetNumberBetween _ _ _ =? 0)%Z eqn:G; [apply Z.eqb_eq in G|apply Z.eqb_neq in G]; lia. }
      destruct (IH (S i) (left - n)%Z ltac:(lia) W') as (r & ER & T & FA). rewrite ER. eexists. split; [reflexivity|]. split; [cbn [total length]; lia|]. constructor.
      * split; [unfold proper; cbn [fst snd]; lia|]. exists p. split; [now left|exact E].
      * eapply Forall_impl; [|exact FA]. intros s (A1 & q & I & Q). split; [exact A1|]. exists q. split; [now right|exact Q].
Qed.

Lemma sample_is : forall o minN maxN sols, fair o sols -> (0 <= minN)%Z -> (0 < maxN)%Z -> exists l, sampleRoads o minN maxN sols = Some l /\
  (minN < maxN -> total l <= maxN - 1)%Z /\ (maxN <= minN -> total l <= minN)%Z /\ Forall (fun s => proper s /\ exists p, In p sols /\ o_where o p = Some (fst s)) l.
Proof.
  intros o minN maxN sols (FP & _ & FW) M0 M1. unfold sampleRoads. destruct (maxN <? minN)%Z eqn:C; [apply Z.ltb_lt in C; exists []; repeat split; cbn; try lia; constructor|]. apply Z.ltb_ge in C.
  set (n := GetNumberBetween minN (maxN - 1) (o_cars o)).
  assert (B : (0 <= n)%Z /\ (minN < maxN -> n <= maxN - 1)%Z /\ (maxN <= minN -> n <= minN)%Z).
  { unfold n. destruct (Z_lt_le_dec minN maxN) as [L|L]; [pose proof (between minN (maxN - 1) (o_cars o) ltac:(lia)); lia|]. unfold GetNumberBetween. rewrite (proj2 (Z.ltb_lt (maxN - 1) minN)) by lia. lia. }
  cbv zeta. destruct (n =? 0)%Z eqn:N0; [exists []; repeat split; cbn; try lia; constructor|]. apply Z.eqb_neq in N0.
  destruct ((n <=? Z.of_nat (length sols))%Z && (0 <? n)%Z) eqn:D.
  - apply andb_true_iff in D. destruct D as (D1 & D2). apply Z.leb_le in D1. destruct (FP (Z.to_nat n)) as (LP & IP).
    destruct (one_each_is (o_where o) (o_points o sols (Z.to_nat n))) as (l & E & T & FA); [intros p I; apply FW; now apply IP|]. exists l. split; [exact E|]. split; [lia|]. split; [lia|].
    eapply Forall_impl; [|exact FA]. intros s (A1 & _ & _ & p & I & Q). split; [exact A1|]. exists p. split; [now apply IP|exact Q].
  - assert (Z.of_nat (length sols) < n)%Z. { apply andb_false_iff in D. destruct D as [D|D]; [apply Z.leb_gt in D; lia|apply Z.ltb_ge in D; lia]. }
    destruct (some_each_is (o_where o) (o_lanes o) sols 0 (n - Z.of_nat (length sols)) ltac:(lia) FW) as (l & E & T & FA). exists l. split; [exact E|]. split; [lia|]. split; [lia|exact FA].
Qed.

(** ** Putting in *)

(** Far from everyone noted: at least 20 m from the point, and far enough along the lane. *)
Definition far (o : oracle) (z : settings) (pos : place) (lane : Z) (w : swarm) : Prop :=
  forall f v, In f (w_spawned w) -> find_car (w_cars w) (i_id f) = Some v -> 20 <= PointDistance2D (l_x pos) (l_y pos) (c_x v) (c_y v) /\
  forall ds, o_delta o pos lane v = Some (0%Z, ds) -> wanted_distance z <= Rabs ds.

Lemma ensure_is : forall cars delta pos lane dist l, Forall (fun f => exists v, find_car cars (i_id f) = Some v) l ->
  exists r, ensureDistance cars delta pos lane dist l = Some r /\
  (r = true <-> forall f v, In f l -> find_car cars (i_id f) = Some v -> 20 <= PointDistance2D (l_x pos) (l_y pos) (c_x v) (c_y v) /\ forall ds, delta pos lane v = Some (0%Z, ds) -> dist <= Rabs ds).
Proof.
  induction l as [|f l IH]; intros F; cbn [ensureDistance].
  - exists true. split; [reflexivity|]. split; [intros _ f v []|reflexivity].
  - inversion F as [|? ? (v & FV) F']; subst. rewrite FV. destruct (IH F') as (r & E & R). destruct (Rltb _ 20) eqn:D.
    + apply Rltb_true in D. exists false. split; [reflexivity|]. split; [discriminate|]. intros H. destruct (H f v (or_introl eq_refl) FV). lra.
    + apply Rltb_false in D.
      assert (STEP : (forall ds, delta pos lane v = Some (0%Z, ds) -> dist <= Rabs ds) -> exists r0, ensureDistance cars delta pos lane dist l = Some r0 /\
        (r0 = true <-> forall g u, In g (f :: l) -> find_car cars (i_id g) = Some u -> 20 <= PointDistance2D (l_x pos) (l_y pos) (c_x u) (c_y u) /\ forall ds, delta pos lane u = Some (0%Z, ds) -> dist <= Rabs ds)).
      { intros G. exists r. split; [exact E|]. rewrite R. split.
        - intros H g u [<-|I] FU; [|now apply (H g u)]. rewrite FU in FV. injection FV as ->. auto.
        - intros H g u I. apply H. now right. }
      destruct (delta pos lane v) as [[dl ds]|] eqn:DV.
      * destruct (dl =? 0)%Z eqn:DL; cbn [andb]; [apply Z.eqb_eq in DL; subst dl|apply Z.eqb_neq in DL; apply STEP; intros ds' X; injection X as X _; contradiction].
        destruct (Rltb (Rabs ds) dist) eqn:DD; [apply Rltb_true in DD|apply Rltb_false in DD; apply STEP; intros ds' X; injection X as <-; exact DD].
        exists false. split; [reflexivity|]. split; [discriminate|]. intros H. destruct (H f v (or_introl eq_refl) FV) as (_ & X). specialize (X ds DV). lra.
      * apply STEP. discriminate.
Qed.

Lemma sound_there : forall w, sound w -> Forall (fun f => exists v, find_car (w_cars w) (i_id f) = Some v) (w_spawned w).
Proof. intros w (F & _). eapply Forall_impl; [|exact F]. intros f (v & E & _). eauto. Qed.

(** Added at the end, the others as before. *)
Definition extends (w w' : swarm) (new : list spawned) (cars : list car) : Prop :=
  w_spawned w' = w_spawned w ++ new /\ w_cars w' = w_cars w ++ cars /\ w_counter w' = (w_counter w + length new)%nat /\ w_last w' = w_last w /\ length cars = length new.

Lemma lane_is : forall o z t pos n i idx w, sound w -> exists w', spawn_lane o z t pos n i idx w = Some w' /\ sound w' /\
  (w' = w \/ exists lane h v, nth_error (l_lanes pos) idx = Some lane /\ o_pool o n i = Some h /\ far o z pos lane w /\
     v = Car (w_next w) (fst (o_at o pos lane)) (snd (o_at o pos lane)) false false 1 (SetHeadingRelativeRoadDirection h (direction (l_rule pos) lane)) /\
     extends w w' [Spawned (w_next w) 0 (l_road pos) lane t] [v]).
Proof.
  intros o z t pos n i idx w S. unfold spawn_lane. destruct (nth_error (l_lanes pos) idx) as [lane|] eqn:NL; [|exists w; auto].
  destruct (ensure_is (w_cars w) (o_delta o) pos lane (wanted_distance z) (w_spawned w) (sound_there w S)) as (r & E & R). rewrite E. destruct r; cbn [negb]; [|exists w; auto].
  destruct (o_pool o n i) as [h|] eqn:P; [|exists w; auto]. destruct (o_at o pos lane) as [x y] eqn:AT. eexists. split; [reflexivity|]. destruct S as (S1 & S2 & S3). split.
  - unfold sound. cbn [w_spawned w_cars w_next]. split; [|split].
    + rewrite Forall_app. split.
      * rewrite Forall_forall in *. intros f I. destruct (S1 f I) as (v & F & C). exists v. split; [now apply find_app|exact C].
      * constructor; [|constructor]. cbn [i_id]. exists (Car (w_next w) x y false false 1 (SetHeadingRelativeRoadDirection h (direction (l_rule pos) lane))). split; [|cbn; lia].
        apply (find_new (w_cars w) (Car (w_next w) x y false false 1 (SetHeadingRelativeRoadDirection h (direction (l_rule pos) lane)))). exact S3.
    + rewrite map_app. cbn [map i_id]. apply (Permutation_NoDup (Permutation_cons_append _ _)). constructor; [|exact S2]. intros I. apply in_map_iff in I. destruct I as (f & EF & I).
      rewrite Forall_forall in S1, S3. destruct (S1 f I) as (v & F & _). apply find_some in F. destruct F as (IV & EV). specialize (S3 v IV). lia.
    + rewrite Forall_app. split; [eapply Forall_impl; [|exact S3]; cbn; intros; lia|]. constructor; [cbn; lia|constructor].
  - right. exists lane, h. eexists. split; [reflexivity|]. split; [reflexivity|]. split; [exact (proj1 R eq_refl)|]. split; [reflexivity|]. rewrite AT. unfold extends. cbn. repeat split. lia.
Qed.

Lemma extends_refl : forall w, extends w w [] [].
Proof. intros w. unfold extends. rewrite !app_nil_r. repeat split. cbn. lia. Qed.
Lemma extends_trans : forall w1 w2 w3 n1 c1 n2 c2, extends w1 w2 n1 c1 -> extends w2 w3 n2 c2 -> extends w1 w3 (n1 ++ n2) (c1 ++ c2).
Proof. intros w1 w2 w3 n1 c1 n2 c2 (A1 & A2 & A3 & A4 & A5) (B1 & B2 & B3 & B4 & B5). unfold extends. rewrite B1, B2, B3, B4, A1, A2, A3, A4, !app_assoc, !app_length. repeat split; lia. Qed.

(** What is new of a place: its road, one of its lanes, the counter 0 and the time. *)
Definition put (t : R) (pos : place) (f : spawned) : Prop := i_out f = 0%Z /\ i_road f = l_road pos /\ In (i_lane f) (l_lanes pos) /\ i_time f = t.

Lemma lanes_is : forall o z t pos n idxs i w, sound w -> exists w' new cars, spawn_lanes o z t pos n i idxs w = Some w' /\ sound w' /\ extends w w' new cars /\ (length new <= length idxs)%nat /\ Forall (put t pos) new.
Proof.
  induction idxs as [|idx idxs IH]; intros i w S; cbn [spawn_lanes].
  - exists w, [], []. repeat split; auto; try apply S; try apply extends_refl; try constructor.
  - destruct (lane_is o z t pos n i idx w S) as (w1 & E1 & S1 & C). rewrite E1. destruct (IH (Datatypes.S i) w1 S1) as (w2 & nw & cs & E2 & S2 & X2 & L & P). rewrite E2. exists w2.
    destruct C as [->|(lane & h & v & NL & _ & _ & _ & X1)].
    + exists nw, cs. split; [reflexivity|]. split; [exact S2|]. split; [exact X2|]. split; [cbn [length]; lia|exact P].
    + exists ([Spawned (w_next w) 0 (l_road pos) lane t] ++ nw), ([v] ++ cs). split; [reflexivity|]. split; [exact S2|]. split; [exact (extends_trans _ _ _ _ _ _ _ X1 X2)|]. split; [cbn; lia|].
      constructor; [|exact P]. unfold put. cbn. repeat split. now apply nth_error_In in NL.
Qed.

(** Close to a place: no more there. *)
Lemma lanes_none : forall o z t pos n idxs i w f v, sound w -> In f (w_spawned w) -> find_car (w_cars w) (i_id f) = Some v -> PointDistance2D (l_x pos) (l_y pos) (c_x v) (c_y v) < 20 ->
  spawn_lanes o z t pos n i idxs w = Some w.
Proof.
  induction idxs as [|idx idxs IH]; intros i w f v S I F D; cbn [spawn_lanes]; [reflexivity|].
  destruct (lane_is o z t pos n i idx w S) as (w1 & E1 & S1 & C). rewrite E1. destruct C as [->|(lane & h & u & _ & _ & FAR & _)]; [now apply (IH _ w f v)|].
  destruct (FAR f v I F). lra.
Qed.

Lemma lanes_one : forall o z t pos n idxs i w, sound w -> (forall lane, In lane (l_lanes pos) -> PointDistance2D (l_x pos) (l_y pos) (fst (o_at o pos lane)) (snd (o_at o pos lane)) < 20) ->
  exists w' new cars, spawn_lanes o z t pos n i idxs w = Some w' /\ extends w w' new cars /\ (length new <= 1)%nat.
Proof.
  induction idxs as [|idx idxs IH]; intros i w S CL; cbn [spawn_lanes].
  - exists w, [], []. repeat split; try apply extends_refl. cbn; lia.
  - destruct (lane_is o z t pos n i idx w S) as (w1 & E1 & S1 & C). rewrite E1. destruct C as [->|(lane & h & v & NL & _ & _ & V & X)]; [apply (IH _ w S CL)|].
    exists w1, [Spawned (w_next w) 0 (l_road pos) lane t], [v]. split; [|split; [exact X|cbn; lia]].
    assert (FV : find_car (w_cars w1) (w_next w) = Some v). { destruct X as (_ & -> & _). replace (w_next w) with (c_id v) by (subst v; reflexivity). apply find_new. subst v. cbn [c_id]. apply S. }
    apply (lanes_none _ _ _ _ _ _ _ w1 (Spawned (w_next w) 0 (l_road pos) lane t) v S1); [destruct X as (-> & _); apply in_or_app; right; now left|exact FV|]. subst v. cbn [c_x c_y]. apply CL. now apply nth_error_In in NL.
Qed.

Lemma all_is : forall o z t sols info n w, fair o sols -> sound w -> Forall proper info -> exists w' new cars, spawn_all o z t n info w = Some w' /\ sound w' /\ extends w w' new cars /\
  (Z.of_nat (length new) <= total info)%Z /\ Forall (fun f => exists s, In s info /\ put t (fst s) f) new.
Proof.
  intros o z t sols info. induction info as [|[pos nl] info IH]; intros n w FR S P; cbn [spawn_all].
  - exists w, [], []. repeat split; auto; try apply S; try apply extends_refl; try constructor. cbn. lia.
  - inversion P as [|? ? P1 P2]; subst. unfold proper in P1. cbn [fst snd] in P1.
    set (lanes := o_choice o n (seq 0 (Nat.min MAX_LANES (length (l_lanes pos)))) (Nat.min MAX_LANES (Z.to_nat nl))).
    assert (LL : (length lanes <= Z.to_nat nl)%nat). { destruct FR as (_ & FC & _). destruct (FC n (seq 0 (Nat.min MAX_LANES (length (l_lanes pos)))) (Nat.min MAX_LANES (Z.to_nat nl))) as (L & _). fold lanes in L. lia. }
    destruct (lanes_is o z t pos n lanes 0 w S) as (w1 & n1 & c1 & E1 & S1 & X1 & L1 & P1'). cbv zeta. fold lanes. rewrite E1.
    destruct (IH (Datatypes.S n) w1 FR S1 P2) as (w2 & n2 & c2 & E2 & S2 & X2 & L2 & P2'). rewrite E2. exists w2, (n1 ++ n2), (c1 ++ c2).
    split; [reflexivity|]. split; [exact S2|]. split; [exact (extends_trans _ _ _ _ _ _ _ X1 X2)|]. split; [rewrite app_length; cbn [total]; lia|]. rewrite Forall_app. split.
    + eapply Forall_impl; [|exact P1']. intros f F. exists (pos, nl). split; [now left|exact F].
    + eapply Forall_impl; [|exact P2']. intros f (s & I & F). exists s. split; [now right|exact F].
Qed.

(** The number as the code sees it. *)
Definition number (z : settings) : Z := (z_number z mod 2 ^ 32)%Z.

Lemma max_is : forall z n, (0 <= n <= number z)%Z -> maxCars (z_number z) n = Z.min 1000 (number z - n).
Proof.
  intros z n H. unfold maxCars, MAX_CARS. fold (number z). f_equal. apply Z.mod_small. pose proof (Z.mod_pos_bound (z_number z) (2 ^ 32) ltac:(lia)) as B. fold (number z) in B. lia.
Qed.

Lemma step_is : forall o z h k A sols t w, fair o sols -> sound w -> (Z.of_nat (length (w_spawned w)) < number z \/ w_spawned w = [])%Z -> exists w', Step o z h k A sols t w = Some w' /\ sound w' /\
  (Z.of_nat (length (w_spawned w')) < number z \/ w_spawned w' = [])%Z.
Proof.
  intros o z h k A sols t w FR S B. unfold Step. destruct (Rltb (w_last w) 0 || Rltb SWARM_TIME_INTERVAL (Rabs (t - w_last w))) eqn:TM; [|exists w; auto].
  destruct S as (S1 & S2 & S3). destruct (despawn_is z h k A (w_spawned w) (w_cars w) S1 S2) as (cars' & E & LE & IN & GONE & KEEP). rewrite E.
  set (l' := flat_map (kept z h k A (w_cars w)) (w_spawned w)) in *. set (w1 := Swarm l' cars' (w_next w) (w_counter w) (w_last w)).
  assert (S' : sound w1).
  { unfold sound, w1. cbn [w_spawned w_cars w_next]. split; [|split].
    - rewrite Forall_forall in *. intros f I. assert (II : In (i_id f) (map i_id l')) by (now apply in_map). rewrite KEEP by (now left). apply kept_ids in II. apply in_map_iff in II. destruct II as (g & EG & IG). rewrite <- EG. now apply S1.
    - now apply kept_nodup.
    - rewrite Forall_forall in *. intros c I. apply S3, IN, I. }
  unfold spawn. cbn [w_spawned w1]. fold l'. set (m := maxCars (z_number z) (Z.of_nat (length l'))). destruct (m <=? 0)%Z eqn:M.
  - eexists. split; [reflexivity|]. cbn [w_spawned]. split; [exact S'|]. change (w_spawned w1) with l'. destruct B as [B|B]; [left; lia|right]. unfold l'. rewrite B. reflexivity.
  - apply Z.leb_gt in M. pose proof (Z.mod_pos_bound (z_number z) (2 ^ 32) ltac:(lia)) as NB. fold (number z) in NB.
    assert (LB : (Z.of_nat (length l') <= number z)%Z). { destruct B as [B|B]; [lia|]. unfold l'. rewrite B. cbn. lia. }
    assert (ME : m = Z.min 1000 (number z - Z.of_nat (length l'))) by (apply max_is; lia).
    destruct (sample_is o (Z.of_nat (length (w_spawned w) - length l')) m sols FR ltac:(lia) M) as (info & EI & T1 & T2 & FA). rewrite EI.
    destruct (all_is o z t sols info 0 w1 FR S') as (w2 & nw & cs & E2 & SS & X & L & P); [eapply Forall_impl; [|exact FA]; intros s (A1 & _); exact A1|]. rewrite E2.
    eexists. split; [reflexivity|]. cbn [w_spawned]. split; [exact SS|]. left. destruct X as (-> & _). unfold w1. cbn [w_spawned]. rewrite app_length.
    assert ((length (w_spawned w) = 0)%nat \/ (Z.of_nat (length (w_spawned w)) < number z)%Z) by (destruct B as [B|B]; [right; exact B|left; rewrite B; reflexivity]).
    destruct (Z_lt_le_dec (Z.of_nat (length (w_spawned w) - length l')) m) as [D|D]; [specialize (T1 D)|specialize (T2 D)]; lia.
Qed.
