(** * Lemmas on distances over trailers *)
From Coq Require Import Reals Bool List ZArith NArith Lra Lia.
From Verif Require Import AngModel GeoModel GeoProofs BoxModel BoxProofs BoxDist GapModel.
Import ListNotations.
Open Scope R_scope.

(** ** Specification *)

(** An object and the trailers behind it. *)
Inductive rig (trailer : N -> option N) : N -> list N -> Prop :=
| rig_end o : trailer o = None -> rig trailer o [o]
| rig_next o t l : trailer o = Some t -> rig trailer t l -> rig trailer o (o :: l).

(** [f] is the vehicle at the front, [n] tows ahead. *)
Inductive front_of (tow : N -> option N) : N -> N -> nat -> Prop :=
| front_end o : tow o = None -> front_of tow o o 0
| front_next o t f n : tow o = Some t -> front_of tow t f n -> front_of tow o f (S n).

(** ** Comparisons *)

Lemma Reqb_spec x y : reflect (x = y) (Reqb x y).
Proof. unfold Reqb. destruct (Req_EM_T x y); constructor; assumption. Qed.

Lemma abs0 x : 0 < Rabs x <-> x <> 0.
Proof. split; [intros H E; rewrite E, Rabs_R0 in H; lra|apply Rabs_pos_lt]. Qed.

Lemma sign_cases x : (x < 0 /\ SIGN x = -1) \/ (0 <= x /\ SIGN x = 1).
Proof. unfold SIGN. destruct (Rltb_spec x 0); [left|right]; split; try reflexivity; lra. Qed.

(** ** Rigs *)

Lemma rig_head trailer o l : rig trailer o l -> exists r, l = o :: r.
Proof. destruct 1; eauto. Qed.

Lemma frontmost_spec tow o f n : front_of tow o f n -> forall fuel, (n < fuel)%nat -> frontmost tow fuel o = Some f.
Proof.
  induction 1 as [o E|o t f n E F IH]; intros fuel L; destruct fuel as [|fuel]; try lia; cbn [frontmost]; rewrite E; [reflexivity|]. apply IH. lia.
Qed.

Lemma target_front_free tow t fuel f : tow t = None -> (0 < fuel)%nat -> target_front tow fuel t f = Some f.
Proof. intros E L. destruct fuel; [lia|]. cbn. rewrite E. reflexivity. Qed.

Lemma target_front_towed tow t fuel : tow t <> None -> forall f, target_front tow fuel t f = None.
Proof.
  intro E. induction fuel as [|fuel IH]; intro f; cbn; [reflexivity|]. destruct (tow t) as [x|]; [|congruence]. destruct f as [f|]; [apply IH|reflexivity].
Qed.

(** ** The smallest distance of a list *)

Definition far3 : R * R * R := (LARGE_NUMBER, LARGE_NUMBER, LARGE_NUMBER).
Definition d_of (c : R * R * R) : R := fst (fst c).

Lemma better_zero c d : d_of c = 0 -> better c d = c.
Proof. unfold better, d_of. intro Z. rewrite Z, Rabs_R0. destruct (Rltb_spec (Rabs (fst (fst d))) 0) as [H|H]; [|reflexivity]. pose proof (Rabs_pos (fst (fst d))). lra. Qed.

Lemma fold_zero l : forall c, d_of c = 0 -> fold_left better l c = c.
Proof. induction l as [|d l IH]; intros c Z; cbn; [reflexivity|]. rewrite better_zero by exact Z. apply IH, Z. Qed.

(** The first of the smallest. *)
Lemma fold_better l : forall c, 0 <= d_of c -> Forall (fun d => 0 <= d_of d) l ->
  let r := fold_left better l c in
  0 <= d_of r /\ d_of r <= d_of c /\ Forall (fun d => d_of r <= d_of d) l /\ (r = c \/ exists l1 l2, l = l1 ++ r :: l2 /\ d_of r < d_of c /\ Forall (fun d => d_of r < d_of d) l1).
Proof.
  induction l as [|d l IH]; intros c C F; cbn [fold_left].
  - cbv zeta. repeat split; try lra; [constructor|]. left. reflexivity.
  - inversion F as [|? ? D F']; subst. assert (E: (better c d = d /\ d_of d < d_of c) \/ (better c d = c /\ d_of c <= d_of d)).
    { unfold better, d_of in *. rewrite !Rabs_right by lra. destruct (Rltb_spec (fst (fst d)) (fst (fst c))); [left|right]; split; try reflexivity; lra. }
    destruct E as [(E & L)|(E & L)]; rewrite E.
    + destruct (IH d D F') as (P & LE & A & O). cbv zeta in *. split; [exact P|]. split; [lra|]. split; [constructor; assumption|]. right.
      destruct O as [O|(l1 & l2 & O & O2 & O3)].
      * exists [], l. rewrite O. split; [reflexivity|]. split; [lra|constructor].
      * exists (d :: l1), l2. rewrite O at 1. split; [reflexivity|]. split; [lra|]. constructor; assumption.
    + destruct (IH c C F') as (P & LE & A & O). cbv zeta in *. split; [exact P|]. split; [lra|]. split; [constructor; [lra|assumption]|].
      destruct O as [O|(l1 & l2 & O & O2 & O3)]; [left; exact O|]. right. exists (d :: l1), l2. rewrite O at 1. split; [reflexivity|]. split; [lra|]. constructor; [lra|assumption].
Qed.

(** ** The loops *)

Section Loops.
Variable trailer : N -> option N.
Variable box_of : N -> box.
Definition fs (x : N * N) : R * R * R := FreeSpaceDistance (box_of (fst x)) (Some (box_of (snd x))) true.

Lemma fs_pos x : 0 <= d_of (fs x).
Proof.
  unfold d_of, fs. cbn [FreeSpaceDistance fst]. rewrite relative_gap. destruct (hit _ _); cbn [negb]; [lra|].
  change (0 <= passes (box_of (fst x)) (box_of (snd x))). destruct (passes_spec (box_of (fst x)) (box_of (snd x))) as (_ & _ & _ & [E|[(p & e & _ & _ & E)|(p & e & _ & _ & E)]]); rewrite E;
    [unfold LARGE_NUMBER; lra| |]; destruct (edge_point p e) as (a & b & _ & ->); apply dist_pos.
Qed.

Lemma target_loop t l : rig trailer t l -> forall k p c, exists k', over_target trailer box_of k p (Some t) c = (k', fold_left better (map fs (map (pair p) (firstn k l))) c) /\
  (d_of (fold_left better (map fs (map (pair p) (firstn k l))) c) = 0 \/ k' = (k - List.length l)%nat).
Proof.
  induction 1 as [o E|o t l E R IH]; intros k p c; destruct k as [|k]; cbn [over_target firstn map fold_left List.length]; try (exists O; split; [reflexivity|right; lia]).
  - change (fst (fst c)) with (d_of c). change (FreeSpaceDistance (box_of p) (Some (box_of o)) true) with (fs (p, o)). destruct (Rltb_spec 0 (Rabs (d_of c))) as [H|H].
    + rewrite E. rewrite firstn_nil. cbn [map fold_left]. exists k. split; [destruct k; reflexivity|right; lia].
    + assert (Z: d_of c = 0). { pose proof (abs0 (d_of c)). destruct (Req_dec (d_of c) 0); [assumption|tauto]. }
      exists k. rewrite firstn_nil. cbn [map fold_left]. rewrite better_zero by exact Z. split; [reflexivity|left; exact Z].
  - change (fst (fst c)) with (d_of c). change (FreeSpaceDistance (box_of p) (Some (box_of o)) true) with (fs (p, o)). destruct (Rltb_spec 0 (Rabs (d_of c))) as [H|H].
    + rewrite E. destruct (IH k p (better c (fs (p, o)))) as (k' & -> & O). exists k'. split; [reflexivity|]. destruct O as [O|O]; [left; exact O|right; lia].
    + assert (Z: d_of c = 0). { pose proof (abs0 (d_of c)). destruct (Req_dec (d_of c) 0); [assumption|tauto]. }
      exists k. rewrite better_zero by exact Z. rewrite fold_zero by exact Z. split; [reflexivity|left; exact Z].
Qed.

Lemma pos_map l : Forall (fun d => 0 <= d_of d) (map fs l).
Proof. apply Forall_forall. intros d D. apply in_map_iff in D. destruct D as (x & <- & _). apply fs_pos. Qed.

Lemma pivot_loop p pl t tl : rig trailer p pl -> rig trailer t tl -> forall n k c, (k <= n)%nat -> 0 <= d_of c ->
  over_pivot trailer box_of n k (Some p) (Some t) c = fold_left better (map fs (firstn k (list_prod pl tl))) c.
Proof.
  intros P T. assert (L: (1 <= List.length tl)%nat) by (destruct (rig_head _ _ _ T) as (r & ->); cbn; lia). induction P as [o E|o q l E R IH]; intros n k c KN C.
  - destruct n as [|n]; [replace k with O by lia; reflexivity|]. cbn [over_pivot]. change (fst (fst c)) with (d_of c). destruct (Nat.ltb_spec 0 k) as [K|K]; cbn [andb].
    2:{ replace k with O by lia. reflexivity. }
    cbn [list_prod]. rewrite app_nil_r. destruct (Rltb_spec 0 (d_of c)) as [H|H]; [|rewrite fold_zero by lra; reflexivity].
    destruct (target_loop t tl T k o c) as (k' & -> & _). rewrite E. rewrite <- firstn_map. destruct n; reflexivity.
  - destruct n as [|n]; [replace k with O by lia; reflexivity|]. cbn [over_pivot]. change (fst (fst c)) with (d_of c). destruct (Nat.ltb_spec 0 k) as [K|K]; cbn [andb].
    2:{ replace k with O by lia. reflexivity. }
    destruct (Rltb_spec 0 (d_of c)) as [H|H]; [|rewrite fold_zero by lra; reflexivity].
    destruct (target_loop t tl T k o c) as (k' & -> & O). rewrite E. cbn [list_prod]. rewrite firstn_app, map_app, fold_left_app, map_length, firstn_map.
    set (c' := fold_left better (map fs (map (pair o) (firstn k tl))) c) in *.
    assert (C': 0 <= d_of c') by (apply (fold_better _ c C), pos_map).
    destruct O as [Z|KK].
    + rewrite (fold_zero _ c' Z). clear -Z. destruct n; cbn [over_pivot]; [reflexivity|]. change (fst (fst c')) with (d_of c'). rewrite Z. destruct (Rltb_spec 0 0); [lra|]. rewrite andb_false_r. reflexivity.
    + subst k'. apply IH; [lia|exact C'].
Qed.

(** *** The point *)

Definition fsp (x y : R) (o : N) : R * R * R := FreeSpaceDistancePoint (box_of o) x y.

Lemma fsp_pos x y o : sized (box_of o) -> 0 <= d_of (fsp x y o).
Proof.
  intro S. unfold fsp, d_of. assert (0 < SMALL_NUMBER) by (unfold SMALL_NUMBER; lra).
  destruct (point_distance (2 * SMALL_NUMBER) (box_of o) x y ltac:(lra) S (exact_any _)) as (_ & [(E & _)|[(qx & qy & _ & E & _)|E]]); rewrite E; cbn [fst]; [lra|apply dist_pos|unfold LARGE_NUMBER; lra].
Qed.

Lemma point_loop x y p pl : rig trailer p pl -> forall k c, point_over trailer box_of k (Some p) x y c = fold_left better (map (fsp x y) (firstn k pl)) c.
Proof.
  assert (Z: forall c, ~ 0 < Rabs (d_of c) -> d_of c = 0). { intros c H. pose proof (abs0 (d_of c)). destruct (Req_dec (d_of c) 0); [assumption|tauto]. }
  induction 1 as [o E|o t l E R IH]; intros k c; destruct k as [|k]; cbn [point_over firstn map fold_left]; try reflexivity; change (fst (fst c)) with (d_of c); change (FreeSpaceDistancePoint (box_of o) x y) with (fsp x y o);
    (destruct (Rltb_spec 0 (Rabs (d_of c))) as [H|H]; [rewrite E|rewrite (better_zero c) by (apply Z, H)]).
  - rewrite firstn_nil. destruct k; reflexivity.
  - rewrite firstn_nil. reflexivity.
  - apply IH.
  - rewrite fold_zero by (apply Z, H). reflexivity.
Qed.
End Loops.

(** ** On roads *)

Section Road.
Variable rel : rdt.
Definition lat_long : Prop := rel = REL_DIST_LATERAL \/ rel = REL_DIST_LONGITUDINAL.
(** The value wanted of (ds, dt). *)
Definition val (d : R * R) : R := match rel with REL_DIST_LATERAL => snd d | _ => fst d end.

Lemma better_same b d : road_better rel (road_better rel b d) d = road_better rel b d.
Proof.
  destruct d as [[ret ds] dt]. unfold road_better. destruct (ret =? 0)%Z; cbn [andb]; [|reflexivity]. destruct (wanted_less rel (ds, dt) (snd b)) eqn:W; cbn [snd]; [|rewrite W; reflexivity].
  unfold wanted_less. destruct (wanted rel (ds, dt)) as [v|]; [|reflexivity]. destruct (Rltb_spec (Rabs v) (Rabs v)); [lra|reflexivity].
Qed.

Lemma better_closed b d : wanted_open rel (snd b) = false -> road_better rel b d = b.
Proof.
  destruct d as [[ret ds] dt]. unfold road_better, wanted_open, wanted_less. destruct (wanted rel (snd b)) as [v|] eqn:V; [|intros _; destruct (wanted rel (ds, dt)); rewrite andb_false_r; reflexivity].
  intro H. destruct (wanted rel (ds, dt)) as [w|]; [|rewrite andb_false_r; reflexivity]. destruct (Rltb_spec 0 (Rabs v)); [discriminate|]. destruct (Rltb_spec (Rabs w) (Rabs v)); [pose proof (Rabs_pos w); lra|].
  rewrite andb_false_r. reflexivity.
Qed.

Lemma fold_closed l : forall b, wanted_open rel (snd b) = false -> fold_left (road_better rel) l b = b.
Proof. induction l as [|d l IH]; intros b C; cbn; [reflexivity|]. rewrite better_closed by exact C. apply IH, C. Qed.

Variable trailer : N -> option N.
Variable box_of : N -> box.
Variable P : Type.
Variable snap : N -> R -> R -> option P.
Variable delta : P -> P -> option (R * R).
Variable c : csys.
Variable target : N.
Definition rd (p : N) : Z * R * R := FreeSpaceDistanceObjectRoadLane box_of P snap delta p (Some target) c.

Lemma road_target_rest t l : rig trailer t l -> forall k p b, road_better rel b (rd p) = b ->
  exists k', road_over_target trailer box_of P snap delta k p target (Some t) c rel b = (k', b) /\ (wanted_open rel (snd b) = false \/ k' = (k - List.length l)%nat).
Proof.
  induction 1 as [o E|o t l E R IH]; intros k p b B; destruct k as [|k]; cbn [road_over_target List.length]; try (exists O; split; [reflexivity|right; lia]);
    (destruct (wanted_open rel (snd b)) eqn:W; [|exists k; split; [reflexivity|left; reflexivity]]); fold (rd p); rewrite B, E.
  - exists k. split; [destruct k; reflexivity|right; lia].
  - destruct (IH k p b B) as (k' & -> & [O|O]); [congruence|]. exists k'. split; [reflexivity|right; lia].
Qed.

Lemma road_target_loop t l k p b : rig trailer t l -> (0 < k)%nat ->
  exists k', road_over_target trailer box_of P snap delta k p target (Some t) c rel b = (k', road_better rel b (rd p)) /\
    (wanted_open rel (snd (road_better rel b (rd p))) = false \/ k' = (k - List.length l)%nat).
Proof.
  intros R K. destruct k as [|k]; [lia|]. destruct (wanted_open rel (snd b)) eqn:W.
  - destruct R as [o E|o t l E R]; cbn [road_over_target List.length]; rewrite W; fold (rd p); rewrite E.
    + exists k. split; [destruct k; reflexivity|right; lia].
    + destruct (road_target_rest t l R k p (road_better rel b (rd p)) (better_same _ _)) as (k' & -> & [O|O]); exists k'; (split; [reflexivity|]); [left; exact O|right; lia].
  - rewrite better_closed by exact W. exists k. split; [|left; exact W]. cbn [road_over_target]. rewrite W. reflexivity.
Qed.

Lemma road_pivot_loop p pl t tl : rig trailer p pl -> rig trailer t tl -> forall n k b, (k <= n)%nat -> ((List.length pl - 1) * List.length tl < k)%nat ->
  road_over_pivot trailer box_of P snap delta n k (Some p) target (Some t) c rel b = fold_left (road_better rel) (map rd pl) b.
Proof.
  intros R T. assert (L: (1 <= List.length tl)%nat) by (destruct (rig_head _ _ _ T) as (r & ->); cbn; lia). induction R as [o E|o q l E R IH]; intros n k b KN K; assert (KP: (0 < k)%nat) by (eapply Nat.le_lt_trans; [apply Nat.le_0_l|exact K]).
  - destruct n as [|n]; [lia|]. cbn [road_over_pivot map fold_left]. destruct (Nat.ltb_spec 0 k); [|lia]. cbn [andb]. destruct (wanted_open rel (snd b)) eqn:W; [|rewrite better_closed by exact W; reflexivity].
    destruct (road_target_loop t tl k o b T ltac:(lia)) as (k' & -> & _). rewrite E. destruct n; reflexivity.
  - destruct n as [|n]; [lia|]. cbn [road_over_pivot map fold_left]. destruct (Nat.ltb_spec 0 k); [|lia]. cbn [andb]. destruct (wanted_open rel (snd b)) eqn:W.
    2:{ rewrite (better_closed b) by exact W. rewrite fold_closed by exact W. reflexivity. }
    destruct (road_target_loop t tl k o b T ltac:(lia)) as (k' & -> & O). rewrite E. destruct O as [O|O].
    + rewrite fold_closed by exact O. destruct n; cbn [road_over_pivot]; [reflexivity|]. rewrite O, andb_false_r. reflexivity.
    + subst k'. destruct (rig_head _ _ _ R) as (r & Er). apply IH; [lia|]. rewrite Er in *. cbn [List.length Nat.sub Nat.mul] in *. rewrite Nat.sub_0_r in *. lia.
Qed.

(** What is left after all candidates: the first with least value, of those found. *)
Lemma fold_road l : lat_long -> forall b, let r := fold_left (road_better rel) l b in
  Rabs (val (snd r)) <= Rabs (val (snd b)) /\ (forall ds dt, In (0%Z, ds, dt) l -> Rabs (val (snd r)) <= Rabs (val (ds, dt))) /\
  (r = b \/ exists l1 l2 ds dt, l = l1 ++ (0%Z, ds, dt) :: l2 /\ r = (0%Z, (ds, dt)) /\ Rabs (val (ds, dt)) < Rabs (val (snd b)) /\
     forall ds' dt', In (0%Z, ds', dt') l1 -> Rabs (val (ds, dt)) < Rabs (val (ds', dt'))).
Proof.
  intro LL. assert (LESS: forall d e, wanted_less rel d e = Rltb (Rabs (val d)) (Rabs (val e))).
  { intros d e. unfold wanted_less, wanted, val. destruct LL as [E|E]; rewrite E; reflexivity. }
  induction l as [|d l IH]; intro b; cbn [fold_left]; cbv zeta.
  - split; [lra|]. split; [intros ds dt []|left; reflexivity].
  - destruct d as [[ret ds] dt].
    assert (E: (ret = 0%Z /\ road_better rel b (ret, ds, dt) = (ret, (ds, dt)) /\ Rabs (val (ds, dt)) < Rabs (val (snd b))) \/
               (road_better rel b (ret, ds, dt) = b /\ (ret = 0%Z -> Rabs (val (snd b)) <= Rabs (val (ds, dt))))).
    { unfold road_better. rewrite LESS. destruct (Z.eqb_spec ret 0) as [Z0|Z0]; cbn [andb]; [|right; split; [reflexivity|congruence]].
      destruct (Rltb_spec (Rabs (val (ds, dt))) (Rabs (val (snd b)))); [left; auto|right; split; [reflexivity|intros _; lra]]. }
    destruct E as [(Z0 & E & L)|(E & L)]; rewrite E.
    + subst ret. destruct (IH (0%Z, (ds, dt))) as (A & B & C). cbv zeta in *. cbn [snd] in *. set (r := fold_left _ l _) in *. split; [lra|]. split.
      * intros ds' dt' [H|H]; [injection H as <- <-; exact A|apply B, H].
      * right. destruct C as [C|(l1 & l2 & ds' & dt' & C & Cr & Cl & Ce)].
        -- exists [], l, ds, dt. split; [reflexivity|]. split; [exact C|]. split; [exact L|]. intros ? ? [].
        -- exists ((0%Z, ds, dt) :: l1), l2, ds', dt'. split; [rewrite C; reflexivity|]. split; [exact Cr|]. split; [lra|]. intros x y [H|H]; [injection H as <- <-; exact Cl|apply Ce, H].
    + destruct (IH b) as (A & B & C). cbv zeta in *. set (r := fold_left _ l _) in *. split; [exact A|]. split.
      * intros ds' dt' [H|H]; [injection H as -> <- <-; specialize (L eq_refl); lra|apply B, H].
      * destruct C as [C|(l1 & l2 & ds' & dt' & C & Cr & Cl & Ce)]; [left; exact C|]. right. exists ((ret, ds, dt) :: l1), l2, ds', dt'. split; [rewrite C; reflexivity|]. split; [exact Cr|]. split; [exact Cl|].
        intros x y [H|H]; [injection H as -> <- <-; specialize (L eq_refl); lra|apply Ce, H].
Qed.
End Road.

(** ** Least and most *)

Lemma least_fold l : forall d, let r := fold_left (fun m d => if Rltb (Rabs d) (Rabs m) then d else m) l d in
  In r (d :: l) /\ Rabs r <= Rabs d /\ forall e, In e l -> Rabs r <= Rabs e.
Proof.
  induction l as [|x l IH]; intro d; cbn [fold_left]; cbv zeta; [split; [left; reflexivity|split; [lra|intros e []]]|].
  destruct (Rltb_spec (Rabs x) (Rabs d)) as [H|H]; [destruct (IH x) as (A & B & C)|destruct (IH d) as (A & B & C)]; cbv zeta in *; set (r := fold_left _ l _) in *; clearbody r.
  - split; [right; exact A|]. split; [lra|]. intros e [<-|E]; [exact B|apply C, E].
  - split; [destruct A as [A|A]; [left; exact A|right; right; exact A]|]. split; [exact B|]. intros e [<-|E]; [lra|apply C, E].
Qed.

Lemma least_spec l : l <> [] -> In (least l) l /\ forall e, In e l -> Rabs (least l) <= Rabs e.
Proof.
  intro N. destruct l as [|d l]; [congruence|]. unfold least. destruct (least_fold l d) as (A & B & C). cbv zeta in *. split; [exact A|]. intros e [<-|E]; [exact B|apply C, E].
Qed.

Lemma most_fold l : forall d, let r := fold_left (fun m d => if Rltb (Rabs m) (Rabs d) then d else m) l d in
  In r (d :: l) /\ Rabs d <= Rabs r /\ forall e, In e l -> Rabs e <= Rabs r.
Proof.
  induction l as [|x l IH]; intro d; cbn [fold_left]; cbv zeta; [split; [left; reflexivity|split; [lra|intros e []]]|].
  destruct (Rltb_spec (Rabs d) (Rabs x)) as [H|H]; [destruct (IH x) as (A & B & C)|destruct (IH d) as (A & B & C)]; cbv zeta in *; set (r := fold_left _ l _) in *; clearbody r.
  - split; [right; exact A|]. split; [lra|]. intros e [<-|E]; [exact B|apply C, E].
  - split; [destruct A as [A|A]; [left; exact A|right; right; exact A]|]. split; [exact B|]. intros e [<-|E]; [lra|apply C, E].
Qed.

Lemma most_spec l : l <> [] -> In (most l) l /\ forall e, In e l -> Rabs e <= Rabs (most l).
Proof.
  intro N. destruct l as [|d l]; [congruence|]. unfold most. destruct (most_fold l d) as (A & B & C). cbv zeta in *. split; [exact A|]. intros e [<-|E]; [exact B|apply C, E].
Qed.

Lemma mixed_spec d r : mixed (d :: r) = true <-> exists e, In e r /\ SIGN e <> SIGN d.
Proof.
  unfold mixed. rewrite existsb_exists. split; intros (e & E & S); exists e; (split; [exact E|]).
  - destruct (Reqb_spec (SIGN d) (SIGN e)); [discriminate|congruence].
  - destruct (Reqb_spec (SIGN d) (SIGN e)); [congruence|reflexivity].
Qed.

Lemma all_some_spec {A B} (f : A -> option B) l bs : all_some f l = Some bs <-> Forall2 (fun a b => f a = Some b) l bs.
Proof.
  revert bs. induction l as [|a l IH]; intro bs; cbn [all_some].
  - split; [intro H; injection H as <-; constructor|intro H; inversion H; reflexivity].
  - destruct (f a) as [b|] eqn:E.
    + destruct (all_some f l) as [cs|].
      * split; [intro H; injection H as <-; constructor; [exact E|apply IH; reflexivity]|]. intro H. inversion H as [|? b' ? bs' E' F]; subst. rewrite E in E'. injection E' as <-. apply IH in F. injection F as <-. reflexivity.
      * split; [discriminate|]. intro H. inversion H as [|? b' ? bs' E' F]; subst. apply IH in F. discriminate.
    + split; [destruct (all_some f l); discriminate|]. intro H. inversion H as [|? b' ? bs' E' F]; subst. congruence.
Qed.
