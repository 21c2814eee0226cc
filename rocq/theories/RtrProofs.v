(** * Proofs about the lane independent router *)
From Coq Require Import NArith Permutation.
From Verif Require Import QAux LaneModel IdModel NetModel PathModel RtrModel.
Local Open Scope Q_scope.

(** ** What ways through the network are, independent of the search *)

(** Road [q] is joined to road [r] by its link [l], directly or over a connection of a junction. *)
Definition joined (net : network) (r : nroad) (l : rlink) (q : nroad) : Prop :=
  (rl_elem l = ELEMENT_ROAD /\ GetRoad net (rl_id l) = Some q) \/
  (rl_elem l = ELEMENT_JUNCTION /\ exists j c, GetJunction net (rl_id l) = Some j /\ In c (j_conns j) /\ c_incoming c = nr_id r /\
     GetRoad net (c_connecting c) = Some q).

(** From a lane on the side of [lane] at the end of [r], lane [from] continues into lane [to] of [q]. *)
Definition leg (net : network) (r : nroad) (l : rlink) (lane : Z) (q : nroad) (from to : Z) : Prop :=
  joined net r l q /\
  (exists ls x, end_section r (rl_type l) = Some ls /\ In x (ls_lanes ls) /\ l_id x = from /\ IsDriving x = true) /\
  ((from < 0)%Z <-> (lane < 0)%Z) /\
  Road_GetConnectingLaneId net r l from (nr_id q) = to /\ to <> 0%Z.

(** The link by which [q] is left when it was entered from [r] by [l]: the one at the other end. *)
Definition leads (q : nroad) (t : LinkType) (id : N) : Prop := exists k, Road_GetLink q t = Some k /\ rl_id k = id.
Definition onward (net : network) (r : nroad) (l : rlink) (q : nroad) (k : rlink) : Prop :=
  (rl_elem l = ELEMENT_ROAD /\ rl_contact l = CP_END /\ Road_GetLink q PREDECESSOR = Some k) \/
  (rl_elem l = ELEMENT_ROAD /\ rl_contact l <> CP_END /\ Road_GetLink q SUCCESSOR = Some k) \/
  (rl_elem l = ELEMENT_JUNCTION /\ exists id,
     (id = nr_id r /\ (forall j, GetJunction net (rl_id l) = Some j -> j_direct j = false) \/
      exists j, GetJunction net (rl_id l) = Some j /\ j_direct j = true /\ id = j_id j) /\
     (leads q SUCCESSOR id /\ Road_GetLink q PREDECESSOR = Some k \/
      ~ leads q SUCCESSOR id /\ leads q PREDECESSOR id /\ Road_GetLink q SUCCESSOR = Some k)).

(** The mean of the speeds of the road types. *)
Definition sumq (l : list Q) : Q := fold_right Qplus 0 l.
Definition mean_speed (types : nroad -> list (roadtype * Q)) (r : nroad) : Q :=
  match types r with
  | [] => 19444 # 1000
  | l => sumq (map (fun t => type_speed (fst t) (snd t)) l) / inject_Z (Z.of_nat (List.length l))
  end.

(** What driving [d] metres on road [q], entered by link [l], costs. *)
Definition price (types : nroad -> list (roadtype * Q)) (st : strategy) (l : rlink) (d : Q) (q : nroad) : Q :=
  match st with
  | SHORTEST => d
  | FASTEST => d / mean_speed types q
  | MIN_INTERSECTIONS => match rl_elem l with ELEMENT_JUNCTION => 1 | _ => 0 end
  end.
(** The part of the target road up to the target, as the link tells it. *)
Definition last_part (l : rlink) (q : nroad) (s : Q) : Q :=
  match rl_contact l with CP_START => s | CP_END => Length q - s | _ => 0 end.
Fixpoint cost (types : nroad -> list (roadtype * Q)) (st : strategy) (s : Q) (legs : list (rlink * nroad)) : Q :=
  match legs with
  | [] => 0
  | (l, q) :: rest =>
      match rest with
      | [] => price types st l (last_part l q s) q
      | _ => price types st l (Length q) q + cost types st s rest
      end
  end.

(** [way r l lane legs]: leaving [r] by [l] in a lane on the side of [lane] one gets to the target lane over the roads of [legs]. *)
Inductive way (net : network) (target : ppos) : nroad -> rlink -> Z -> list (rlink * nroad) -> Prop :=
| way_there r l lane q from to : leg net r l lane q from to -> nr_id q = pp_track target -> to = pp_lane target ->
    way net target r l lane [(l, q)]
| way_on r l lane q from to k legs : leg net r l lane q from to -> ~ (nr_id q = pp_track target /\ to = pp_lane target) ->
    onward net r l q k -> way net target q k to legs -> way net target r l lane ((l, q) :: legs).

(** ** Basic facts *)

Lemma LinkType_eqb_eq a b : LinkType_eqb a b = true <-> a = b.
Proof. destruct a, b; simpl; split; congruence. Qed.

Lemma GetRoad_id net id r : GetRoad net id = Some r -> nr_id r = id /\ In r (net_roads net).
Proof. intro H. apply find_some in H. destruct H as (A & B). apply N.eqb_eq in B. auto. Qed.
Lemma GetLink_type r t l : Road_GetLink r t = Some l -> rl_type l = t /\ In l (nr_links r).
Proof. intro H. apply find_some in H. destruct H as (A & B). apply LinkType_eqb_eq in B. auto. Qed.

Lemma SIGN_eq a b : (SIGN a =? SIGN b)%Z = true <-> ((a < 0)%Z <-> (b < 0)%Z).
Proof. unfold SIGN. destruct (Z.ltb_spec a 0), (Z.ltb_spec b 0); simpl; split; intros; try lia; try discriminate; try reflexivity; try (split; lia). Qed.

Lemma driving_nonzero x : IsDriving x = true -> l_id x <> 0%Z.
Proof. unfold IsDriving. destruct (Z.eqb_spec (l_id x) 0); congruence. Qed.

Lemma count_from_acc l id c : count_from l id c = (c + count_from l id 0)%nat.
Proof.
  revert c. induction l as [|x l IH]; intro c; simpl; auto.
  rewrite IH. rewrite (IH (if (c_incoming x =? id)%N then 1%nat else 0%nat)). destruct (c_incoming x =? id)%N; lia.
Qed.
Lemma pick_from_in l id i c : (c <= i)%nat -> (i < count_from l id c)%nat -> exists x, In x l /\ c_incoming x = id /\ pick_from l id i c = c_connecting x.
Proof.
  revert c. induction l as [|x l IH]; intros c H1 H2; simpl in *; [lia|].
  destruct (N.eqb_spec (c_incoming x) id) as [E|E].
  - destruct (Nat.eqb_spec c i) as [K|K]; [exists x; auto|].
    destruct (IH (S c)) as (y & A & B & C); [lia|lia|]. exists y. auto.
  - destruct (IH c) as (y & A & B & C); [lia|lia|]. exists y. auto.
Qed.
Lemma pick_from_all l id x c : In x l -> c_incoming x = id ->
  exists i, (c <= i < count_from l id c)%nat /\ pick_from l id i c = c_connecting x.
Proof.
  revert c. induction l as [|y l IH]; intros c H E; simpl in *; [easy|].
  destruct H as [H|H].
  - subst y. rewrite E, N.eqb_refl. exists c. rewrite Nat.eqb_refl. split; auto. rewrite count_from_acc. lia.
  - destruct (N.eqb_spec (c_incoming y) id) as [K|K].
    + destruct (IH (S c) H E) as (i & A & B). exists i. destruct (Nat.eqb_spec c i); [lia|]. split; [lia|auto].
    + destruct (IH c H E) as (i & A & B). exists i. auto.
Qed.

Section Net.
Variable net : network.
Variable types : nroad -> list (roadtype * Q).

Lemma next_roads_in r l roads q : GetNextRoads net l r = Some roads -> (In q roads <-> joined net r l q).
Proof.
  unfold GetNextRoads, joined. intro H. destruct (rl_elem l) eqn:E.
  - inversion H; subst. split; [easy|]. intros [(K & _)|(K & _)]; discriminate.
  - inversion H; subst. split.
    + intro K. left. split; auto. destruct (GetRoad net (rl_id l)); simpl in K; [destruct K as [K|[]]; congruence|easy].
    + intros [(_ & K)|(K & _)]; [rewrite K; simpl; auto|discriminate].
  - destruct (GetJunction net (rl_id l)) as [j|] eqn:J; [|discriminate]. inversion H; subst. clear H. split.
    + intro K. apply in_flat_map in K. destruct K as (i & A & B). apply in_seq in A.
      destruct (pick_from_in (j_conns j) (nr_id r) i 0) as (c & C1 & C2 & C3); [lia|unfold GetNoConnectionsFromRoadId in A; lia|].
      unfold GetConnectingRoadIdFromIncomingRoadId in B. rewrite C3 in B.
      destruct (GetRoad net (c_connecting c)) eqn:G; simpl in B; [|easy]. destruct B as [B|[]]. subst q.
      right. split; auto. exists j, c. auto.
    + intros [(K & _)|(_ & j' & c & A & B & C & D)]; [discriminate|]. inversion A; subst j'.
      destruct (pick_from_all (j_conns j) (nr_id r) c 0 B C) as (i & I1 & I2).
      apply in_flat_map. exists i. split.
      * apply in_seq. unfold GetNoConnectionsFromRoadId. lia.
      * unfold GetConnectingRoadIdFromIncomingRoadId. rewrite I2, D. simpl. auto.
Qed.

Lemma connecting_lanes_in r l lane q from to :
  In (from, to) (GetConnectingLanes net r l lane q) <->
  (exists ls x, end_section r (rl_type l) = Some ls /\ In x (ls_lanes ls) /\ l_id x = from /\ IsDriving x = true) /\
  ((from < 0)%Z <-> (lane < 0)%Z) /\ Road_GetConnectingLaneId net r l from (nr_id q) = to /\ to <> 0%Z.
Proof.
  unfold GetConnectingLanes. split.
  - destruct (end_section r (rl_type l)) as [ls|] eqn:E; [|easy]. intro H. apply in_flat_map in H. destruct H as (x & A & B).
    destruct (IsDriving x) eqn:D; simpl in B; [|easy]. destruct ((SIGN (l_id x) =? SIGN lane)%Z) eqn:S; simpl in B; [|easy].
    destruct (l_id x =? 0)%Z eqn:Z0; simpl in B; [easy|].
    destruct (Z.eqb_spec (Road_GetConnectingLaneId net r l (l_id x) (nr_id q)) 0) as [F|F]; simpl in B; [easy|].
    destruct B as [B|[]]. inversion B; subst. apply SIGN_eq in S. split; [|auto]. exists ls, x. auto.
  - intros ((ls & x & A & B & C & D) & S & T & U). rewrite A. apply in_flat_map. exists x. split; auto.
    rewrite D. subst from. apply SIGN_eq in S. rewrite S. simpl. apply driving_nonzero in D. rewrite (proj2 (Z.eqb_neq _ _) D). simpl.
    rewrite T. rewrite (proj2 (Z.eqb_neq _ _) U). simpl. auto.
Qed.

Lemma leads_spec q t id : (match Road_GetLink q t with Some k => (rl_id k =? id)%N | None => false end) = true <-> leads q t id.
Proof.
  unfold leads. destruct (Road_GetLink q t) as [k|]; split.
  - intro H. apply N.eqb_eq in H. exists k. auto.
  - intros (k' & A & B). inversion A; subst. apply N.eqb_refl.
  - discriminate.
  - intros (k' & A & B). discriminate.
Qed.

Lemma next_link_onward r l q k : GetNextLink net l r q = Some k <-> onward net r l q k.
Proof.
  unfold GetNextLink, onward. destruct (rl_elem l) eqn:E.
  - split; [discriminate|]. intros [(K & _)|[(K & _)|(K & _)]]; discriminate.
  - split.
    + intro H. destruct (rl_contact l) eqn:C; [right; left|right; left|left|right; left]; repeat split; auto; congruence.
    + intros [(_ & K & H)|[(_ & K & H)|(K & _)]]; [rewrite K; auto| |discriminate].
      destruct (rl_contact l); auto; congruence.
  - set (id := match GetJunction net (rl_id l) with Some j => if j_direct j then j_id j else nr_id r | None => nr_id r end).
    assert (ID : forall i, (i = nr_id r /\ (forall j, GetJunction net (rl_id l) = Some j -> j_direct j = false) \/
      exists j, GetJunction net (rl_id l) = Some j /\ j_direct j = true /\ i = j_id j) <-> i = id).
    { intro i. unfold id. destruct (GetJunction net (rl_id l)) as [j|] eqn:J.
      - destruct (j_direct j) eqn:D; split.
        + intros [(A & B)|(j' & A & B & C)]; [specialize (B j eq_refl); congruence|congruence].
        + intros ->. right. exists j. auto.
        + intros [(A & B)|(j' & A & B & C)]; [auto|congruence].
        + intros ->. left. split; auto. intros j' A. congruence.
      - split.
        + intros [(A & B)|(j' & A & B & C)]; [auto|discriminate].
        + intros ->. left. split; auto. intros j' A. discriminate. }
    clearbody id. pose proof (leads_spec q SUCCESSOR id) as LS. pose proof (leads_spec q PREDECESSOR id) as LP.
    cbv zeta. destruct (match Road_GetLink q SUCCESSOR with Some k0 => (rl_id k0 =? id)%N | None => false end) eqn:B1.
    + split.
      * intro H. right; right. split; auto. exists id. split; [apply ID; auto|]. left. split; [apply LS; auto|auto].
      * intros [(K & _)|[(K & _)|(_ & i & I & H)]]; try discriminate. apply ID in I. subst i.
        destruct H as [(_ & H)|(H & _)]; [auto|]. exfalso. apply H, LS. auto.
    + assert (~ leads q SUCCESSOR id) by (intro X; apply LS in X; congruence).
      destruct (match Road_GetLink q PREDECESSOR with Some k0 => (rl_id k0 =? id)%N | None => false end) eqn:B2.
      * split.
        -- intro G. right; right. split; auto. exists id. split; [apply ID; auto|]. right. repeat split; auto. apply LP; auto.
        -- intros [(K & _)|[(K & _)|(_ & i & I & G)]]; try discriminate. apply ID in I. subst i.
           destruct G as [(G & _)|(_ & _ & G)]; [contradiction|auto].
      * split; [discriminate|].
        intros [(K & _)|[(K & _)|(_ & i & I & G)]]; try discriminate. apply ID in I. subst i.
        destruct G as [(G & _)|(_ & G & _)]; [contradiction|]. apply LP in G. congruence.
Qed.

(** ** Speeds and prices *)

Lemma type_speed_pos t v : 0 < type_speed t v.
Proof.
  pose proof SMALL_pos. destruct t; unfold type_speed; try reflexivity; destruct (Qltb_spec SMALL v); try reflexivity; lra.
Qed.
Lemma sum_fold l a : fold_left (fun total t => total + type_speed (fst t) (snd t)) l a == a + sumq (map (fun t => type_speed (fst t) (snd t)) l).
Proof. revert a. induction l as [|x l IH]; intro a; simpl; [lra|]. rewrite IH. lra. Qed.
Lemma sum_pos l : l <> [] -> 0 < sumq (map (fun t : roadtype * Q => type_speed (fst t) (snd t)) l).
Proof.
  induction l as [|x l IH]; [congruence|]. intros _. simpl. pose proof (type_speed_pos (fst x) (snd x)).
  destruct l as [|y l]; [simpl; lra|]. assert (0 < sumq (map (fun t : roadtype * Q => type_speed (fst t) (snd t)) (y :: l))) by (apply IH; congruence). lra.
Qed.
Lemma speed_mean r : CalcAverageSpeed types r == mean_speed types r.
Proof.
  unfold CalcAverageSpeed, mean_speed. destruct (types r) as [|x l]; [lra|]. rewrite sum_fold. apply Qmult_comp; [lra|reflexivity].
Qed.
Lemma mean_pos r : 0 < mean_speed types r.
Proof.
  unfold mean_speed. destruct (types r) as [|x l]; [reflexivity|].
  apply Qlt_shift_div_l; [change 0 with (inject_Z 0); rewrite <- Zlt_Qlt; simpl; lia|].
  assert (0 < sumq (map (fun t : roadtype * Q => type_speed (fst t) (snd t)) (x :: l))) by (apply sum_pos; congruence). lra.
Qed.
Lemma weight_price l st d q : CalcWeight types l st d q == price types st l d q.
Proof.
  unfold CalcWeight, price. destruct st; try reflexivity. cbv zeta. pose proof (mean_pos q). pose proof (speed_mean q).
  destruct (Qeqb_spec (CalcAverageSpeed types q) 0) as [E|E]; [lra|]. rewrite H0. reflexivity.
Qed.
Lemma price_nonneg st l d q : 0 <= d -> 0 <= price types st l d q.
Proof.
  intro H. unfold price. destruct st; auto.
  - apply Qle_shift_div_l; [apply mean_pos|]. lra.
  - destruct (rl_elem l); lra.
Qed.

(** ** Nodes *)

Definition key (n : rnode) : N * Z * Z * option LinkType := (nr_id (n_road n), n_lane n, n_from n, option_map rl_type (n_link n)).
Lemma node_eqb_key a b : node_eqb a b = true <-> key a = key b.
Proof.
  unfold node_eqb, key, link_eqb. rewrite !andb_true_iff, N.eqb_eq, !Z.eqb_eq. split.
  - intros (((A & B) & C) & D). rewrite A, B, C. destruct (n_link b), (n_link a); simpl; try discriminate; auto.
    apply LinkType_eqb_eq in D. congruence.
  - intro H. inversion H. repeat split; try congruence. destruct (n_link b), (n_link a); simpl in *; try discriminate; auto.
    apply LinkType_eqb_eq. congruence.
Qed.

(** Roads and links of nodes are those of the network. *)
Definition proper (n : rnode) : Prop :=
  GetRoad net (nr_id (n_road n)) = Some (n_road n) /\ forall l, n_link n = Some l -> Road_GetLink (n_road n) (rl_type l) = Some l.
Lemma key_same a b : proper a -> proper b -> key a = key b -> n_road a = n_road b /\ n_lane a = n_lane b /\ n_from a = n_from b /\ n_link a = n_link b.
Proof.
  intros (A1 & A2) (B1 & B2) K. inversion K as [[K1 K2 K3 K4]]. assert (R : n_road a = n_road b) by (rewrite K1 in A1; congruence).
  repeat split; auto. destruct (n_link a) as [l|], (n_link b) as [k|]; simpl in K4; try discriminate; auto.
  specialize (A2 l eq_refl). specialize (B2 k eq_refl). inversion K4 as [K5]. rewrite K5, R in A2. congruence.
Qed.

Section Search.
Variables (target : ppos) (st : strategy).

Lemma at_target_spec r lane : at_target target r lane = true <-> nr_id r = pp_track target /\ lane = pp_lane target.
Proof. unfold at_target. rewrite andb_true_iff, N.eqb_eq, Z.eqb_eq. reflexivity. Qed.

(** [hop a b]: node [b] is one leg after [a]. *)
Definition hop (a b : rnode) : Prop :=
  exists l, n_link a = Some l /\ leg net (n_road a) l (n_lane a) (n_road b) (n_from b) (n_lane b) /\ n_prev b = Some a /\
    ((nr_id (n_road b) = pp_track target /\ n_lane b = pp_lane target /\ n_link b = None /\
      n_weight b == n_weight a + price types st l (last_part l (n_road b) (pp_s target)) (n_road b)) \/
     (~ (nr_id (n_road b) = pp_track target /\ n_lane b = pp_lane target) /\
      (exists k, onward net (n_road a) l (n_road b) k /\ n_link b = Some k) /\
      n_weight b == n_weight a + price types st l (Length (n_road b)) (n_road b))).

Definition expand (cur : rnode) (l : rlink) (roads : list nroad) : list rnode := flat_map (fun r => GetNextNodes net types target st r cur l) roads.

Lemma expand_hop cur l roads n : n_link cur = Some l -> GetNextRoads net l (n_road cur) = Some roads -> In n (expand cur l roads) -> hop cur n.
Proof.
  intros L G H. unfold expand in H. apply in_flat_map in H. destruct H as (q & Hq & H). apply (next_roads_in _ _ _ _ G) in Hq.
  unfold GetNextNodes in H. apply in_flat_map in H. destruct H as ((from & to) & P & H). apply connecting_lanes_in in P.
  simpl fst in H. simpl snd in H. exists l.
  assert (LG : leg net (n_road cur) l (n_lane cur) q from to) by (split; auto).
  destruct (at_target target q to) eqn:T.
  - destruct H as [H|[]]. subst n. simpl. apply at_target_spec in T. repeat split; auto; try apply LG.
    left. destruct T. repeat split; auto. unfold CalcWeightWithPos. rewrite weight_price. reflexivity.
  - destruct (GetNextLink net l (n_road cur) q) as [k|] eqn:K; [|easy]. destruct H as [H|[]]. subst n. simpl.
    repeat split; auto; try apply LG. right. split; [|split].
    + intro X. apply at_target_spec in X. congruence.
    + exists k. split; auto. apply next_link_onward. auto.
    + rewrite weight_price. reflexivity.
Qed.

Lemma expand_there cur l roads q from to : n_link cur = Some l -> GetNextRoads net l (n_road cur) = Some roads ->
  leg net (n_road cur) l (n_lane cur) q from to -> nr_id q = pp_track target -> to = pp_lane target ->
  exists n, In n (expand cur l roads) /\ n_road n = q /\ n_lane n = to /\ n_weight n == n_weight cur + price types st l (last_part l q (pp_s target)) q.
Proof.
  intros L G (J & P) T1 T2. eexists. split; [|].
  - apply in_flat_map. exists q. split; [apply (next_roads_in _ _ _ _ G); auto|]. apply in_flat_map. exists (from, to). split.
    + apply connecting_lanes_in. auto.
    + simpl. rewrite (proj2 (at_target_spec q to)); auto. left. reflexivity.
  - simpl. repeat split; auto. unfold CalcWeightWithPos. rewrite weight_price. reflexivity.
Qed.
Lemma expand_on cur l roads q from to k : n_link cur = Some l -> GetNextRoads net l (n_road cur) = Some roads ->
  leg net (n_road cur) l (n_lane cur) q from to -> ~ (nr_id q = pp_track target /\ to = pp_lane target) -> onward net (n_road cur) l q k ->
  exists n, In n (expand cur l roads) /\ n_road n = q /\ n_lane n = to /\ n_link n = Some k /\ n_weight n == n_weight cur + price types st l (Length q) q.
Proof.
  intros L G (J & P) T O. eexists. split; [|].
  - apply in_flat_map. exists q. split; [apply (next_roads_in _ _ _ _ G); auto|]. apply in_flat_map. exists (from, to). split.
    + apply connecting_lanes_in. auto.
    + simpl. destruct (at_target target q to) eqn:X; [apply at_target_spec in X; contradiction|].
      apply next_link_onward in O. rewrite O. left. reflexivity.
  - simpl. repeat split; auto. rewrite weight_price. reflexivity.
Qed.

Lemma joined_road r l q : joined net r l q -> GetRoad net (nr_id q) = Some q.
Proof.
  intros [(_ & H)|(_ & j & c & _ & _ & _ & H)]; pose proof (GetRoad_id _ _ _ H) as (E & _); rewrite E; auto.
Qed.
Lemma onward_link r l q k : onward net r l q k -> Road_GetLink q (rl_type k) = Some k.
Proof.
  intros [(_ & _ & H)|[(_ & _ & H)|(_ & i & _ & [(_ & H)|(_ & _ & H)])]]; pose proof (GetLink_type _ _ _ H) as (E & _); rewrite E; auto.
Qed.
Lemma hop_proper a b : hop a b -> proper b.
Proof.
  intros (l & L & (J & _) & P & H). split; [apply (joined_road _ _ _ J)|].
  intros k K. destruct H as [(_ & _ & N & _)|(_ & (k' & O & E) & _)]; [congruence|]. rewrite K in E. inversion E; subst. apply (onward_link _ _ _ _ O).
Qed.


(** ** The search *)

(** What a priority queue ordered by WeightCompare does: it gives an element than which no other one comes first. *)
Definition queue (pop : list rnode -> option (rnode * list rnode)) : Prop :=
  pop [] = None /\
  forall l, l <> [] -> exists n r, pop l = Some (n, r) /\ Permutation l (n :: r) /\ forall x, In x r -> WeightCompare n x <> Some true.

(** Distances are not negative and the target is on its road. *)
Definition measured : Prop :=
  (forall r, In r (net_roads net) -> 0 <= Length r) /\ (forall q, GetRoad net (pp_track target) = Some q -> 0 <= pp_s target <= Length q).
(** The junctions of links are in the network. *)
Definition linked : Prop :=
  forall r l, In r (net_roads net) -> In l (nr_links r) -> rl_elem l = ELEMENT_JUNCTION -> GetJunction net (rl_id l) <> None.

Variable start : rnode.
Inductive reached : rnode -> Prop :=
| reached_start : reached start
| reached_hop a b : reached a -> hop a b -> reached b.

Lemma last_part_nonneg l q s : 0 <= s <= Length q -> 0 <= last_part l q s.
Proof. unfold last_part. intro. destruct (rl_contact l); lra. Qed.

Lemma hop_up a b : measured -> hop a b -> n_weight a <= n_weight b.
Proof.
  intros (ML & MT) (l & L & (J & _) & P & H). pose proof (joined_road _ _ _ J) as G. pose proof (GetRoad_id _ _ _ G) as (_ & I).
  destruct H as [(T & _ & _ & W)|(_ & _ & W)].
  - rewrite T in G. specialize (MT _ G). pose proof (price_nonneg st l _ (n_road b) (last_part_nonneg l (n_road b) (pp_s target) MT)). lra.
  - pose proof (price_nonneg st l _ (n_road b) (ML _ I)). lra.
Qed.

Lemma way_nonempty r l lane legs : way net target r l lane legs -> legs <> [].
Proof. intro H. destruct H; congruence. Qed.
Lemma cost_cons l q legs : legs <> [] -> cost types st (pp_s target) ((l, q) :: legs) = price types st l (Length q) q + cost types st (pp_s target) legs.
Proof. destruct legs; [congruence|reflexivity]. Qed.
Lemma way_cost_nonneg r l lane legs : measured -> way net target r l lane legs -> 0 <= cost types st (pp_s target) legs.
Proof.
  intros M H. induction H as [r l lane q from to (J & _) T1 T2|r l lane q from to k legs (J & _) T O H IH].
  - simpl. pose proof (joined_road _ _ _ J) as G. rewrite T1 in G. apply price_nonneg, last_part_nonneg, M. auto.
  - rewrite (cost_cons _ _ _ (way_nonempty _ _ _ _ H)). pose proof (joined_road _ _ _ J) as G. apply GetRoad_id in G.
    pose proof (price_nonneg st l _ q (proj1 M _ (proj2 G))). lra.
Qed.

Record Inv (unv vis : list rnode) : Prop := {
  i_prev : (unv = [start] /\ vis = []) \/ forall n, In n unv -> n_prev n <> None;
  i_reached : forall n, In n (unv ++ vis) -> reached n /\ proper n;
  i_goal : forall v, In v vis -> ~ (nr_id (n_road v) = pp_track target /\ n_lane v = pp_lane target);
  i_order : forall v u, In v vis -> In u unv -> n_weight v <= n_weight u;
  i_closed : forall v l, In v vis -> n_link v = Some l -> exists roads, GetNextRoads net l (n_road v) = Some roads /\
    forall n, In n (expand v l roads) -> exists m, In m (unv ++ vis) /\ key m = key n /\ n_weight m <= n_weight n;
  i_start : exists m, In m (unv ++ vis) /\ key m = key start /\ n_weight m <= n_weight start }.

Lemma frontier unv vis r l lane legs v : measured -> Inv unv vis -> way net target r l lane legs ->
  In v vis -> n_road v = r -> n_link v = Some l -> n_lane v = lane -> exists u, In u unv /\ n_weight u <= n_weight v + cost types st (pp_s target) legs.
Proof.
  intros M I W. revert v.
  induction W as [r l lane q from to LG T1 T2|r l lane q from to k legs LG T O W IH]; intros v V R L LN; subst.
  - destruct (i_closed _ _ I v l V L) as (roads & G & C).
    destruct (expand_there _ _ _ _ _ _ L G LG T1 eq_refl) as (n & N1 & N2 & N3 & N4).
    destruct (C n N1) as (m & M1 & M2 & M3). apply in_app_or in M1. destruct M1 as [M1|M1].
    + exists m. split; auto. simpl. lra.
    + exfalso. apply (i_goal _ _ I m M1). inversion M2. subst. split; congruence.
  - destruct (i_closed _ _ I v l V L) as (roads & G & C).
    destruct (expand_on _ _ _ _ _ _ _ L G LG T O) as (n & N1 & N2 & N3 & N4 & N5).
    destruct (C n N1) as (m & M1 & M2 & M3). rewrite (cost_cons _ _ _ (way_nonempty _ _ _ _ W)).
    pose proof (way_cost_nonneg _ _ _ _ M W). apply in_app_or in M1. destruct M1 as [M1|M1].
    + exists m. split; auto. lra.
    + pose proof (hop_proper _ _ (expand_hop _ _ _ _ L G N1)) as PN.
      destruct (i_reached _ _ I m (in_or_app _ _ _ (or_intror M1))) as (_ & PM).
      destruct (key_same _ _ PM PN M2) as (E1 & E2 & E3 & E4).
      destruct (IH m M1) as (u & U1 & U2); [congruence|congruence|congruence|]. exists u. split; auto. lra.
Qed.

Lemma frontier_start unv vis l legs : measured -> Inv unv vis -> proper start -> n_link start = Some l ->
  way net target (n_road start) l (n_lane start) legs -> exists u, In u unv /\ n_weight u <= n_weight start + cost types st (pp_s target) legs.
Proof.
  intros M I PS L W. destruct (i_start _ _ I) as (m & M1 & M2 & M3). apply in_app_or in M1. destruct M1 as [M1|M1].
  - exists m. split; auto. pose proof (way_cost_nonneg _ _ _ _ M W). lra.
  - destruct (i_reached _ _ I m (in_or_app _ _ _ (or_intror M1))) as (_ & PM).
    destruct (key_same _ _ PM PS M2) as (E1 & E2 & E3 & E4).
    destruct (frontier _ _ _ _ _ _ m M I W M1) as (u & U1 & U2); [congruence|congruence|congruence|]. exists u. split; auto. lra.
Qed.

(** The node taken from the queue is not heavier than the others. *)
Lemma pop_least pop l n r : queue pop -> pop l = Some (n, r) -> Permutation l (n :: r) /\ forall x, In x r -> n_weight n <= n_weight x.
Proof.
  intros (Q0 & Q1) H. destruct l as [|a l]; [congruence|]. destruct (Q1 (a :: l)) as (n' & r' & A & B & C); [congruence|].
  rewrite H in A. inversion A; subst n' r'. split; auto. intros x X. specialize (C x X). unfold WeightCompare in C.
  destruct (Qeqb_spec (n_weight n) (n_weight x)) as [E|E]; [lra|]. destruct (Qltb_spec (n_weight x) (n_weight n)); [congruence|lra].
Qed.

Lemma visited_spec (vis : list rnode) (cur : rnode) : existsb (fun n => node_eqb n cur) vis = true <-> exists v, In v vis /\ key v = key cur.
Proof.
  rewrite existsb_exists. split; intros (v & A & B); exists v; split; auto; apply node_eqb_key; auto.
Qed.

Lemma expanding unv vis cur rest : measured -> Inv unv vis -> Permutation unv (cur :: rest) -> (forall x, In x rest -> n_weight cur <= n_weight x) ->
  ~ (nr_id (n_road cur) = pp_track target /\ n_lane cur = pp_lane target) ->
  forall new, (forall n, In n new -> hop cur n) ->
  (forall l, n_link cur = Some l -> exists roads, GetNextRoads net l (n_road cur) = Some roads /\ new = expand cur l roads) ->
  Inv (rest ++ new) (vis ++ [cur]).
Proof.
  intros M I P LE T new NH NE.
  assert (INC : forall x, In x unv <-> x = cur \/ In x rest).
  { intro x. split; intro H; [apply (Permutation_in _ P) in H; destruct H; auto|].
    apply (Permutation_in _ (Permutation_sym P)). destruct H; [left|right]; auto. }
  assert (SUB : forall x, In x (unv ++ vis) -> In x ((rest ++ new) ++ vis ++ [cur])).
  { intros x H. rewrite !in_app_iff. apply in_app_or in H. destruct H as [H|H]; [apply INC in H; destruct H; [right; right; left|left; left]; auto|right; left; auto]. }
  split.
  - right. intros n H. apply in_app_or in H. destruct H as [H|H].
    + destruct (i_prev _ _ I) as [(U & V)|K]; [|apply K, INC; auto].
      subst unv. apply Permutation_length in P. simpl in P. destruct rest; [easy|simpl in P; lia].
    + destruct (NH n H) as (l & _ & _ & E & _). congruence.
  - intros n H. rewrite !in_app_iff in H. destruct H as [[H|H]|[H|H]].
    + apply (i_reached _ _ I). apply in_or_app. left. apply INC. auto.
    + split; [|apply (hop_proper _ _ (NH n H))]. apply (reached_hop cur); auto. apply (i_reached _ _ I). apply in_or_app. left. apply INC. auto.
    + apply (i_reached _ _ I). apply in_or_app. auto.
    + destruct H as [H|[]]. subst n. apply (i_reached _ _ I). apply in_or_app. left. apply INC. auto.
  - intros v H. apply in_app_or in H. destruct H as [H|[H|[]]]; [apply (i_goal _ _ I v H)|subst v; auto].
  - intros v u V U. assert (CU : n_weight cur <= n_weight u).
    { apply in_app_or in U. destruct U as [U|U]; auto. apply (hop_up _ _ M (NH u U)). }
    apply in_app_or in V. destruct V as [V|[V|[]]]; [|subst v; auto].
    assert (n_weight v <= n_weight cur) by (apply (i_order _ _ I); auto; apply INC; auto). lra.
  - intros v l V L. apply in_app_or in V. destruct V as [V|[V|[]]].
    + destruct (i_closed _ _ I v l V L) as (roads & G & C). exists roads. split; auto. intros n H. destruct (C n H) as (m & A & B). exists m. split; auto.
    + subst v. destruct (NE l L) as (roads & G & E). exists roads. split; auto. intros n H. exists n. split; [|split; [reflexivity|lra]].
      subst new. rewrite !in_app_iff. auto.
  - destruct (i_start _ _ I) as (m & A & B). exists m. split; auto.
Qed.

Lemma skipping unv vis cur rest : Inv unv vis -> Permutation unv (cur :: rest) -> (exists v, In v vis /\ key v = key cur) -> Inv rest vis.
Proof.
  intros I P (v & V & K).
  assert (INC : forall x, In x unv <-> x = cur \/ In x rest).
  { intro x. split; intro H; [apply (Permutation_in _ P) in H; destruct H; auto|].
    apply (Permutation_in _ (Permutation_sym P)). destruct H; [left|right]; auto. }
  assert (W : n_weight v <= n_weight cur) by (apply (i_order _ _ I); auto; apply INC; auto).
  assert (KEEP : forall k w, (exists m, In m (unv ++ vis) /\ key m = k /\ n_weight m <= w) -> exists m, In m (rest ++ vis) /\ key m = k /\ n_weight m <= w).
  { intros k w (m & A & B & C). apply in_app_or in A. destruct A as [A|A].
    - apply INC in A. destruct A as [A|A]; [subst m; exists v; split; [apply in_or_app; auto|split; [congruence|lra]]|].
      exists m. split; [apply in_or_app; auto|auto].
    - exists m. split; [apply in_or_app; auto|auto]. }
  split.
  - right. intros n H. destruct (i_prev _ _ I) as [(U & E)|X]; [subst vis; easy|]. apply X, INC. auto.
  - intros n H. apply (i_reached _ _ I). apply in_or_app. apply in_app_or in H. destruct H; [left; apply INC|right]; auto.
  - apply (i_goal _ _ I).
  - intros a u A U. apply (i_order _ _ I); auto. apply INC. auto.
  - intros a l A L. destruct (i_closed _ _ I a l A L) as (roads & G & C). exists roads. split; auto. 
  - apply KEEP, (i_start _ _ I).
Qed.

Lemma inv_initial : proper start -> Inv [start] [].
Proof.
  intro P. split; simpl; try easy.
  - auto.
  - intros n [H|[]]. subst n. split; auto. constructor.
  - exists start. split; auto. split; auto. lra.
Qed.

Theorem search pop fuel unv vis res : measured -> queue pop -> proper start -> Inv unv vis ->
  FindGoal net types target st pop fuel unv vis = Some res ->
  match res with
  | Some n => reached n /\ nr_id (n_road n) = pp_track target /\ n_lane n = pp_lane target /\
      forall l legs, n_link start = Some l -> way net target (n_road start) l (n_lane start) legs -> n_weight n <= n_weight start + cost types st (pp_s target) legs
  | None => forall l legs, n_link start = Some l -> ~ way net target (n_road start) l (n_lane start) legs
  end.
Proof.
  intros M Q PS. revert unv vis. induction fuel as [|fuel IH]; intros unv vis I H; [discriminate|]. simpl in H.
  destruct ((1 <? List.length unv)%nat && existsb (fun n => match n_prev n with None => true | Some _ => false end) unv); [discriminate|].
  destruct (pop unv) as [(cur & rest)|] eqn:PO.
  - destruct (pop_least _ _ _ _ Q PO) as (P & LE).
    destruct (existsb (fun n => node_eqb n cur) vis) eqn:V.
    + apply visited_spec in V. apply (IH _ _ (skipping _ _ _ _ I P V) H).
    + destruct (at_target target (n_road cur) (n_lane cur)) eqn:T.
      * inversion H; subst res. apply at_target_spec in T. destruct T as (T1 & T2).
        assert (C : In cur unv) by (apply (Permutation_in _ (Permutation_sym P)); left; auto).
        split; [apply (i_reached _ _ I), in_or_app; auto|]. split; auto. split; auto.
        intros l legs L W. destruct (frontier_start _ _ _ _ M I PS L W) as (u & U1 & U2).
        apply (Permutation_in _ P) in U1. destruct U1 as [U1|U1]; [subst u; auto|]. specialize (LE u U1). lra.
      * assert (T' : ~ (nr_id (n_road cur) = pp_track target /\ n_lane cur = pp_lane target)) by (intro X; apply at_target_spec in X; congruence).
        destruct (n_link cur) as [l|] eqn:L.
        -- destruct (GetNextRoads net l (n_road cur)) as [roads|] eqn:G; [|discriminate].
           refine (IH _ _ _ H). apply (expanding _ _ _ _ M I P LE T').
           ++ intros n N. apply (expand_hop _ _ _ _ L G N).
           ++ intros l' L'. assert (l' = l) by congruence. subst l'. exists roads. auto.
        -- refine (IH _ _ _ H). rewrite <- (app_nil_r rest). apply (expanding _ _ _ _ M I P LE T'); [easy|]. intros l' L'. congruence.
  - inversion H; subst res. assert (unv = []).
    { destruct unv as [|a unv]; auto. destruct (proj2 Q (a :: unv)) as (n & r & A & _); congruence. }
    subst unv. intros l legs L W. destruct (frontier_start _ _ _ _ M I PS L W) as (u & U1 & U2). easy.
Qed.

(** ** The search ends *)

Definition lanes_of (r : nroad) : list Z := flat_map (fun ls => map l_id (ls_lanes ls)) (r_sections (nr_road r)).
Definition all_keys : list (N * Z * Z * option LinkType) :=
  key start :: flat_map (fun r => flat_map (fun l => flat_map (fun q => flat_map (fun from =>
    map (fun t => (nr_id q, Road_GetConnectingLaneId net r l from (nr_id q), from, t)) (None :: map (fun k => Some (rl_type k)) (nr_links q)))
    (lanes_of r)) (net_roads net)) (nr_links r)) (net_roads net).
Definition branching : nat := (S (List.length (flat_map j_conns (net_junctions net))) * List.length (flat_map lanes_of (net_roads net)))%nat.

Lemma end_section_in r t ls : end_section r t = Some ls -> In ls (r_sections (nr_road r)).
Proof.
  unfold end_section. destruct t.
  - destruct (r_sections (nr_road r)); [discriminate|]. intro H; inversion H; left; auto.
  - destruct (rev (r_sections (nr_road r))) eqn:E; [discriminate|]. intro H; inversion H; subst. apply in_rev. rewrite E. left. auto.
  - destruct (r_sections (nr_road r)); [discriminate|]. intro H; inversion H; left; auto.
Qed.

Lemma hop_key a b : proper a -> hop a b -> In (key b) all_keys.
Proof.
  intros PA HP. pose proof (hop_proper _ _ HP) as (PB1 & PB2). destruct HP as (l & L & (J & (ls & x & E & X & XI & D) & S & T & _) & P & H).
  destruct PA as (PA1 & PA2). right. apply in_flat_map. exists (n_road a). split; [apply (GetRoad_id _ _ _ PA1)|].
  apply in_flat_map. exists l. split; [apply (GetLink_type _ _ _ (PA2 l L))|].
  apply in_flat_map. exists (n_road b). split; [apply (GetRoad_id _ _ _ PB1)|].
  apply in_flat_map. exists (n_from b). split.
  - apply in_flat_map. exists ls. split; [apply (end_section_in _ _ _ E)|]. apply in_map_iff. exists x. auto.
  - unfold key. rewrite T. apply in_map_iff. exists (option_map rl_type (n_link b)). split; auto.
    destruct (n_link b) as [k|] eqn:K; simpl; [right|left; auto]. apply in_map_iff. exists k. split; auto. apply (GetLink_type _ _ _ (PB2 k eq_refl)).
Qed.

Lemma flat_map_length_le {A B} (f : A -> list B) l b : (forall x, In x l -> (List.length (f x) <= b)%nat) -> (List.length (flat_map f l) <= List.length l * b)%nat.
Proof.
  induction l as [|a l IH]; intro H; simpl; auto. rewrite app_length. specialize (IH (fun x X => H x (or_intror X))). specialize (H a (or_introl eq_refl)). lia.
Qed.
Lemma flat_map_length_in {A B} (f : A -> list B) l x : In x l -> (List.length (f x) <= List.length (flat_map f l))%nat.
Proof.
  induction l as [|a l IH]; simpl; [easy|]. rewrite app_length. intros [H|H]; [subst; lia|specialize (IH H); lia].
Qed.
Lemma count_from_le l id : (count_from l id 0 <= List.length l)%nat.
Proof. induction l as [|x l IH]; simpl; auto. rewrite count_from_acc. destruct (c_incoming x =? id)%N; lia. Qed.

Lemma expand_length cur l roads : proper cur -> n_link cur = Some l -> GetNextRoads net l (n_road cur) = Some roads ->
  (List.length (expand cur l roads) <= branching)%nat.
Proof.
  intros (P1 & P2) L G. unfold branching, expand.
  assert (R : (List.length roads <= S (List.length (flat_map j_conns (net_junctions net))))%nat).
  { unfold GetNextRoads in G. destruct (rl_elem l).
    - inversion G. simpl. lia.
    - inversion G. destruct (GetRoad net (rl_id l)); simpl; lia.
    - destruct (GetJunction net (rl_id l)) as [j|] eqn:J; [|discriminate]. inversion G. clear G.
      apply find_some in J. destruct J as (J & _).
      pose proof (flat_map_length_in j_conns _ _ J). pose proof (count_from_le (j_conns j) (nr_id (n_road cur))).
      eapply Nat.le_trans; [apply (flat_map_length_le _ _ 1)|].
      + intros i _. match goal with |- context[match ?x with _ => _ end] => destruct x end; simpl; lia.
      + rewrite seq_length. unfold GetNoConnectionsFromRoadId. lia. }
  eapply Nat.le_trans; [apply (flat_map_length_le _ _ (List.length (flat_map lanes_of (net_roads net))))|apply Nat.mul_le_mono_r; auto].
  intros q _. unfold GetNextNodes.
  eapply Nat.le_trans; [apply (flat_map_length_le _ _ 1)|].
  - intros p _. destruct (at_target target q (snd p)); simpl; auto. destruct (GetNextLink net l (n_road cur) q); simpl; auto.
  - rewrite Nat.mul_1_r. apply GetRoad_id in P1. destruct P1 as (_ & P1).
    eapply Nat.le_trans; [|apply (flat_map_length_in lanes_of _ _ P1)].
    unfold GetConnectingLanes. destruct (end_section (n_road cur) (rl_type l)) as [ls|] eqn:E; [|simpl; lia].
    apply end_section_in in E. eapply Nat.le_trans; [apply (flat_map_length_le _ _ 1)|].
    + intros x _. destruct (_ && _); simpl; auto. destruct (negb _); simpl; auto.
    + rewrite Nat.mul_1_r. eapply Nat.le_trans; [|apply (flat_map_length_in (fun ls => map l_id (ls_lanes ls)) _ _ E)]. rewrite map_length. auto.
Qed.

Lemma key_dec (a b : N * Z * Z * option LinkType) : {a = b} + {a <> b}.
Proof. repeat decide equality. Qed.
Definition open_keys (vis : list rnode) : nat := List.length (filter (fun k => if in_dec key_dec k (map key vis) then false else true) all_keys).

Lemma filter_le {A} (f g : A -> bool) l : (forall x, f x = true -> g x = true) -> (List.length (filter f l) <= List.length (filter g l))%nat.
Proof.
  intro H. induction l as [|a l IH]; simpl; auto. specialize (H a). destruct (f a), (g a); simpl; try lia; discriminate (H eq_refl).
Qed.
Lemma filter_lt {A} (f g : A -> bool) l x : (forall x, f x = true -> g x = true) -> In x l -> f x = false -> g x = true ->
  (List.length (filter f l) < List.length (filter g l))%nat.
Proof.
  intros H. induction l as [|a l IH]; simpl; [easy|]. intros [X|X] F G.
  - subst. rewrite F, G. simpl. pose proof (filter_le f g l H). lia.
  - specialize (IH X F G). pose proof (H a). destruct (f a), (g a); simpl; try lia; discriminate (H0 eq_refl).
Qed.
Lemma open_keys_less vis cur : In (key cur) all_keys -> (forall v, In v vis -> key v <> key cur) -> (open_keys (vis ++ [cur]) < open_keys vis)%nat.
Proof.
  intros K V. unfold open_keys. apply (filter_lt _ _ _ (key cur)); auto.
  - intro k. rewrite map_app. destruct (in_dec key_dec k (map key vis ++ map key [cur])) as [|N]; [discriminate|].
    destruct (in_dec key_dec k (map key vis)) as [Y|]; auto. exfalso. apply N, in_or_app. auto.
  - rewrite map_app. destruct (in_dec key_dec (key cur) (map key vis ++ map key [cur])) as [|N]; auto. exfalso. apply N, in_or_app. right. left. auto.
  - destruct (in_dec key_dec (key cur) (map key vis)) as [Y|]; auto. apply in_map_iff in Y. destruct Y as (v & A & B). exfalso. apply (V v B A).
Qed.

Theorem search_ends pop fuel unv vis : measured -> linked -> queue pop -> proper start -> Inv unv vis ->
  (open_keys vis * branching + List.length unv < fuel)%nat -> FindGoal net types target st pop fuel unv vis <> None.
Proof.
  intros M LK Q PS. revert unv vis. induction fuel as [|fuel IH]; intros unv vis I F; [lia|]. simpl.
  destruct ((1 <? List.length unv)%nat && existsb (fun n => match n_prev n with None => true | Some _ => false end) unv) eqn:B.
  - apply andb_true_iff in B. destruct B as (B1 & B2). apply Nat.ltb_lt in B1. apply existsb_exists in B2. destruct B2 as (n & N1 & N2).
    destruct (i_prev _ _ I) as [(U & _)|X]; [subst unv; simpl in B1; lia|]. specialize (X n N1). destruct (n_prev n); congruence.
  - destruct (pop unv) as [(cur & rest)|] eqn:PO; [|congruence].
    destruct (pop_least _ _ _ _ Q PO) as (P & LE).
    pose proof (Permutation_length P) as PL. simpl in PL.
    assert (C : In cur unv) by (apply (Permutation_in _ (Permutation_sym P)); left; auto).
    destruct (i_reached _ _ I cur (in_or_app _ _ _ (or_introl C))) as (RC & PC).
    destruct (existsb (fun n => node_eqb n cur) vis) eqn:V.
    + apply visited_spec in V. apply IH; [apply (skipping _ _ _ _ I P V)|lia].
    + destruct (at_target target (n_road cur) (n_lane cur)) eqn:T; [congruence|].
      assert (T' : ~ (nr_id (n_road cur) = pp_track target /\ n_lane cur = pp_lane target)) by (intro X; apply at_target_spec in X; congruence).
      assert (K : In (key cur) all_keys).
      { inversion RC as [E|a b A HP E]; subst; [left; auto|]. apply (hop_key a); auto.
        clear - A PS. induction A as [|a b A IH HP]; auto. apply (hop_proper _ _ HP). }
      assert (O : (open_keys (vis ++ [cur]) < open_keys vis)%nat).
      { apply open_keys_less; auto. intros v V1 V2. assert (existsb (fun n => node_eqb n cur) vis = true) by (apply visited_spec; exists v; auto). congruence. }
      destruct (n_link cur) as [l|] eqn:L.
      * destruct (GetNextRoads net l (n_road cur)) as [roads|] eqn:G.
        -- apply IH.
           ++ apply (expanding _ _ _ _ M I P LE T').
              ** intros n N. apply (expand_hop _ _ _ _ L G N).
              ** intros l' L'. assert (l' = l) by congruence. subst l'. exists roads. auto.
           ++ rewrite app_length. pose proof (expand_length _ _ _ PC L G) as X. unfold expand in X. nia.
        -- exfalso. unfold GetNextRoads in G. destruct (rl_elem l) eqn:EL; try discriminate.
           destruct (GetJunction net (rl_id l)) eqn:J; [discriminate|]. destruct PC as (P1 & P2).
           apply (LK (n_road cur) l); auto; [apply (GetRoad_id _ _ _ P1)|apply (GetLink_type _ _ _ (P2 l L))].
      * apply IH; [|nia]. rewrite <- (app_nil_r rest). apply (expanding _ _ _ _ M I P LE T'); [easy|]. intros l' L'. congruence.
Qed.

Lemma more_fuel pop fuel fuel' unv vis res : (fuel <= fuel')%nat -> FindGoal net types target st pop fuel unv vis = Some res ->
  FindGoal net types target st pop fuel' unv vis = Some res.
Proof.
  revert fuel' unv vis. induction fuel as [|fuel IH]; intros fuel' unv vis F H; [discriminate|]. destruct fuel' as [|fuel']; [lia|].
  simpl in *. destruct (_ && _); [discriminate|]. destruct (pop unv) as [(cur & rest)|]; auto.
  destruct (existsb _ vis); [apply IH; auto; lia|]. destruct (at_target _ _ _); auto. destruct (n_link cur) as [l|]; [|apply IH; auto; lia].
  destruct (GetNextRoads net l (n_road cur)); [|discriminate]. apply IH; auto; lia.
Qed.

End Search.
End Net.

(** ** Paths *)

(** Each node of the list is one leg after the one before. *)
Fixpoint hops (net : network) (types : nroad -> list (roadtype * Q)) (target : ppos) (st : strategy) (path : list rnode) : Prop :=
  match path with
  | a :: r => match r with [] => True | b :: _ => hop net types target st a b /\ hops net types target st r end
  | [] => True
  end.
(** The links taken and the roads come to. *)
Fixpoint legs_of (path : list rnode) : list (rlink * nroad) :=
  match path with
  | a :: r => match r with
              | [] => []
              | b :: _ => match n_link a with Some l => (l, n_road b) :: legs_of r | None => legs_of r end
              end
  | [] => []
  end.

Section Paths.
Variable net : network.
Variable types : nroad -> list (roadtype * Q).
Variables (target : ppos) (st : strategy).

Lemma back_path_cons n : back_path n = n :: match n_prev n with None => [] | Some p => back_path p end.
Proof. destruct n. reflexivity. Qed.

Lemma hops_app path a b : hops net types target st (path ++ [a]) -> hop net types target st a b -> hops net types target st (path ++ [a; b]).
Proof.
  induction path as [|x path IH]; intros H K; [simpl; auto|].
  destruct path as [|y path]; simpl in *; [intuition|]. destruct H as (H1 & H2). split; [exact H1|apply IH; assumption].
Qed.

Lemma reached_path start n : n_prev start = None -> reached net types target st start n ->
  exists path, rev (back_path n) = path ++ [n] /\ hops net types target st (path ++ [n]) /\ (exists rest, path ++ [n] = start :: rest).
Proof.
  intros N H. induction H as [|a b A IH HP].
  - exists []. rewrite back_path_cons, N. simpl. split; auto. split; auto. exists []. auto.
  - destruct IH as (path & E & H & rest & R). exists (path ++ [a]). rewrite back_path_cons.
    pose proof HP as (l & _ & _ & P & _). rewrite P. simpl. rewrite E. split; auto. rewrite <- app_assoc. simpl. split; [apply hops_app; auto|].
    replace (path ++ [a; b]) with ((path ++ [a]) ++ [b]) by (rewrite <- app_assoc; auto). rewrite R. exists (rest ++ [b]). auto.
Qed.

Lemma last_default {A} (l : list A) : forall x d d', last (x :: l) d = last (x :: l) d'.
Proof. induction l as [|y l IH]; intros x d d'; [reflexivity|]. exact (IH y d d'). Qed.
Lemma hops_way path : forall a b n, hops net types target st (a :: b :: path) -> last (b :: path) a = n -> nr_id (n_road n) = pp_track target -> n_lane n = pp_lane target ->
  exists l, n_link a = Some l /\ way net target (n_road a) l (n_lane a) (legs_of (a :: b :: path)) /\
    n_weight n == n_weight a + cost types st (pp_s target) (legs_of (a :: b :: path)).
Proof.
  induction path as [|c path IH]; intros a b n H E T1 T2.
  - simpl in E. subst n. destruct H as ((l & L & LG & P & W) & _). exists l. simpl. rewrite L. split; auto. split.
    + econstructor; eauto.
    + simpl. destruct W as [(_ & _ & _ & W)|(W & _)]; [auto|]. exfalso. apply W. auto.
  - destruct H as ((l & L & LG & P & W) & H).
    assert (E' : last (c :: path) b = n) by (rewrite <- E; apply (last_default path c b a)).
    destruct (IH b c n H E' T1 T2) as (k & K & WY & C). exists l.
    replace (legs_of (a :: b :: c :: path)) with ((l, n_road b) :: legs_of (b :: c :: path)) by (simpl; rewrite L; reflexivity).
    split; auto. pose proof (way_nonempty _ _ _ _ _ _ WY) as NE.
    destruct W as [(_ & _ & X & _)|(N & (k' & O & X) & W)]; [congruence|]. assert (k' = k) by congruence. subst k'. split.
    + econstructor; eauto.
    + rewrite (cost_cons _ _ _ _ _ _ NE). lra.
Qed.

Lemma valid_spec p : IsPositionValid net p = Some true -> exists r ls x, GetRoad net (pp_track p) = Some r /\ 0 <= pp_s p <= Length r /\
  GetLaneSectionByS (r_sections (nr_road r)) (pp_s p) 0 = Some ls /\ GetLaneById ls (pp_lane p) = Some x /\ IsDriving x = true.
Proof.
  unfold IsPositionValid. destruct (GetRoad net (pp_track p)) as [r|] eqn:G; [|discriminate].
  destruct (Qltb_spec (Length r) (pp_s p)); [discriminate|]. destruct (Qltb_spec (pp_s p) 0); [discriminate|]. simpl.
  destruct (GetLaneSectionByS (r_sections (nr_road r)) (pp_s p) 0) as [ls|] eqn:S; [|discriminate].
  destruct (GetLaneById ls (pp_lane p)) as [x|] eqn:X; [|discriminate]. intro H. exists r, ls, x. repeat split; auto; try lra. congruence.
Qed.

(** What the search starts with: leaving the road of the start by the link ahead. *)
Definition ahead (p : ppos) : LinkType := if faces_along (pp_h p) then SUCCESSOR else PREDECESSOR.
Definition first_part (p : ppos) (r : nroad) : Q := if faces_along (pp_h p) then Length r - pp_s p else pp_s p.
Definition first_price (p : ppos) (r : nroad) : Q :=
  match st with SHORTEST => first_part p r | FASTEST => first_part p r / mean_speed types r | MIN_INTERSECTIONS => 0 end.

Definition start_of (l : rlink) (r : nroad) (p : ppos) : rnode :=
  CreateStartNode types st l r (pp_lane p) (if faces_along (pp_h p) then CP_END else CP_START) (pp_s p).
Lemma start_weight l r p : n_weight (start_of l r p) == first_price p r.
Proof.
  unfold start_of, CreateStartNode, first_price, first_part. pose proof (speed_mean types r) as E. destruct (faces_along (pp_h p)), st; simpl; try rewrite E; reflexivity.
Qed.
Lemma start_proper l r p : GetRoad net (pp_track p) = Some r -> Road_GetLink r (ahead p) = Some l -> proper net (start_of l r p).
Proof.
  intros G L. unfold start_of, CreateStartNode. split; simpl.
  - pose proof (GetRoad_id _ _ _ G) as (E & _). rewrite E. auto.
  - intros k K. inversion K; subst k. pose proof (GetLink_type _ _ _ L) as (E & _). rewrite E. auto.
Qed.

Lemma calculate_found pop fuel start path : (forall r, In r (net_roads net) -> 0 <= Length r) -> queue pop ->
  CalculatePath net types target st pop fuel start = Some path -> path <> [] ->
  exists r l first rest n, GetRoad net (pp_track start) = Some r /\ Road_GetLink r (ahead start) = Some l /\
    path = first :: rest /\ n_road first = r /\ n_lane first = pp_lane start /\ n_link first = Some l /\ n_weight first == first_price start r /\
    hops net types target st path /\
    last path first = n /\ nr_id (n_road n) = pp_track target /\ n_lane n = pp_lane target /\
    way net target r l (pp_lane start) (legs_of path) /\ n_weight n == first_price start r + cost types st (pp_s target) (legs_of path) /\
    forall legs, way net target r l (pp_lane start) legs -> n_weight n <= first_price start r + cost types st (pp_s target) legs.
Proof.
  intros ML Q H NE. unfold CalculatePath in H.
  destruct (IsPositionValid net start) as [[|]|] eqn:V1; try discriminate; [|congruence].
  destruct (IsPositionValid net target) as [[|]|] eqn:V2; try discriminate; [|congruence].
  destruct (GetRoad net (pp_track start)) as [r|] eqn:G; [|discriminate]. cbv zeta in H.
  destruct (at_target target r (pp_lane start)) eqn:T; [congruence|].
  fold (ahead start) in H. destruct (Road_GetLink r (ahead start)) as [l|] eqn:L; [|congruence].
  fold (start_of l r start) in H.
  destruct (FindGoal net types target st pop fuel [start_of l r start] []) as [[n|]|] eqn:F; try discriminate; [|congruence].
  assert (M : measured net target).
  { split; auto. intros q Hq. destruct (valid_spec _ V2) as (q' & ls & x & A & B & _). congruence. }
  pose proof (start_proper l r start G L) as PS.
  pose proof (search net types target st _ pop fuel _ _ _ M Q PS (inv_initial _ _ _ _ _ PS) F) as (R & T1 & T2 & O).
  destruct (reached_path (start_of l r start) n eq_refl R) as (p & E1 & HP & rest & E2).
  inversion H; subst path. clear H. rewrite E1, E2 in *.
  exists r, l, (start_of l r start), rest, n. repeat split; auto.
  - apply start_weight.
  - rewrite <- E2. apply last_last.
  - destruct rest as [|b rest].
    + destruct p; simpl in E2; [|destruct p; discriminate]. inversion E2; subst n. exfalso.
      assert (at_target target r (pp_lane start) = true) by (apply at_target_spec; auto). congruence.
    + assert (LN : last (b :: rest) (start_of l r start) = n).
      { pose proof (last_last p n (start_of l r start)) as X. rewrite E2 in X. rewrite <- X. reflexivity. }
      destruct (hops_way _ _ _ _ HP LN T1 T2) as (k & K & W & _). inversion K; subst k. exact W.
  - destruct rest as [|b rest].
    + destruct p; simpl in E2; [|destruct p; discriminate]. inversion E2; subst n. exfalso.
      assert (at_target target r (pp_lane start) = true) by (apply at_target_spec; auto). congruence.
    + assert (LN : last (b :: rest) (start_of l r start) = n).
      { pose proof (last_last p n (start_of l r start)) as X. rewrite E2 in X. rewrite <- X. reflexivity. }
      destruct (hops_way _ _ _ _ HP LN T1 T2) as (k & K & W & C). rewrite C. rewrite start_weight. reflexivity.
  - intros legs W. specialize (O l legs eq_refl W). rewrite start_weight in O. auto.
Qed.

Lemma calculate_none pop fuel start path : (forall r, In r (net_roads net) -> 0 <= Length r) -> queue pop ->
  CalculatePath net types target st pop fuel start = Some path ->
  (path = [] <->
   IsPositionValid net start = Some false \/ IsPositionValid net target = Some false \/
   (pp_track start = pp_track target /\ pp_lane start = pp_lane target) \/
   exists r, GetRoad net (pp_track start) = Some r /\ forall l, Road_GetLink r (ahead start) = Some l -> forall legs, ~ way net target r l (pp_lane start) legs).
Proof.
  intros ML Q H. unfold CalculatePath in H.
  destruct (IsPositionValid net start) as [[|]|] eqn:V1; try discriminate; [|inversion H; split; auto].
  destruct (IsPositionValid net target) as [[|]|] eqn:V2; try discriminate; [|inversion H; split; auto].
  destruct (GetRoad net (pp_track start)) as [r|] eqn:G; [|discriminate]. cbv zeta in H.
  pose proof (GetRoad_id _ _ _ G) as (ID & _).
  destruct (at_target target r (pp_lane start)) eqn:T.
  { inversion H. apply at_target_spec in T. split; auto. intros _. right; right; left. rewrite <- ID. auto. }
  fold (ahead start) in H. destruct (Road_GetLink r (ahead start)) as [l|] eqn:L.
  2:{ inversion H. split; auto. intros _. right; right; right. exists r. split; auto. intros l X. congruence. }
  fold (start_of l r start) in H.
  assert (M : measured net target).
  { split; auto. intros q Hq. destruct (valid_spec _ V2) as (q' & ls & x & A & B & _). congruence. }
  pose proof (start_proper l r start G L) as PS.
  destruct (FindGoal net types target st pop fuel [start_of l r start] []) as [[n|]|] eqn:F; try discriminate.
  - pose proof (search net types target st _ pop fuel _ _ _ M Q PS (inv_initial _ _ _ _ _ PS) F) as (R & T1 & T2 & O).
    destruct (reached_path (start_of l r start) n eq_refl R) as (p & E1 & HP & rest & E2).
    inversion H; subst path. clear H. rewrite E1, E2 in *. split; [discriminate|].
    intros [X|[X|[X|(r' & G' & X)]]]; try congruence.
    + exfalso. assert (at_target target r (pp_lane start) = true) by (apply at_target_spec; rewrite ID; auto). congruence.
    + exfalso. assert (r' = r) by congruence. subst r'. destruct rest as [|b rest].
      * destruct p; simpl in E2; [|destruct p; discriminate]. inversion E2; subst n.
        assert (at_target target r (pp_lane start) = true) by (apply at_target_spec; auto). congruence.
      * assert (LN : last (b :: rest) (start_of l r start) = n).
        { pose proof (last_last p n (start_of l r start)) as Y. rewrite E2 in Y. rewrite <- Y. reflexivity. }
        destruct (hops_way _ _ _ _ HP LN T1 T2) as (k & K & W & _). inversion K; subst k. apply (X l L _ W).
  - inversion H. split; auto. intros _. right; right; right. exists r. split; auto. intros k K legs. assert (k = l) by congruence. subst k.
    apply (search net types target st _ pop fuel _ _ _ M Q PS (inv_initial _ _ _ _ _ PS) F); auto.
Qed.

Lemma calculate_ends start : (forall r, In r (net_roads net) -> 0 <= Length r) -> linked net ->
  IsPositionValid net start <> None -> IsPositionValid net target <> None ->
  exists bound, forall pop fuel, queue pop -> (bound <= fuel)%nat -> CalculatePath net types target st pop fuel start <> None.
Proof.
  intros ML LK V1 V2.
  destruct (GetRoad net (pp_track start)) as [r|] eqn:G.
  - destruct (Road_GetLink r (ahead start)) as [l|] eqn:L.
    + exists (S (open_keys net (start_of l r start) [] * branching net + 1)). intros pop fuel Q F. unfold CalculatePath.
      destruct (IsPositionValid net start) as [[|]|] eqn:W1; try congruence.
      destruct (IsPositionValid net target) as [[|]|] eqn:W2; try congruence. rewrite G. cbv zeta. fold (ahead start). rewrite L.
      destruct (at_target target r (pp_lane start)); [congruence|]. fold (start_of l r start).
      assert (M : measured net target).
      { split; auto. intros q Hq. destruct (valid_spec _ W2) as (q' & ls & x & A & B & _). congruence. }
      pose proof (start_proper l r start G L) as PS.
      assert (X : FindGoal net types target st pop fuel [start_of l r start] [] <> None).
      { apply (search_ends net types target st (start_of l r start)); auto; try (apply inv_initial; auto); simpl List.length; lia. }
      destruct (FindGoal net types target st pop fuel [start_of l r start] []) as [[n|]|]; congruence.
    + exists 0%nat. intros pop fuel Q F. unfold CalculatePath.
      destruct (IsPositionValid net start) as [[|]|] eqn:W1; try congruence.
      destruct (IsPositionValid net target) as [[|]|] eqn:W2; try congruence. rewrite G. cbv zeta. fold (ahead start). rewrite L.
      destruct (at_target target r (pp_lane start)); congruence.
  - exists 0%nat. intros pop fuel Q F. unfold CalculatePath.
    destruct (IsPositionValid net start) as [[|]|] eqn:W1; try congruence.
    apply valid_spec in W1. destruct W1 as (r & ls & x & A & _). congruence.
Qed.
End Paths.

(** ** Waypoints *)

(** The sections cover the road from [a] to [b] without gap. *)
Fixpoint tiles (a : Q) (secs : list lsec) (b : Q) : Prop :=
  match secs with
  | [] => a == b
  | ls :: r => ls_s ls == a /\ 0 <= ls_length ls /\ tiles (a + ls_length ls) r b
  end.
Definition drives (ls : lsec) (lane : Z) : Prop := exists x, GetLaneById ls lane = Some x /\ IsDriving x = true.
(** The lane can be driven on at [s]. *)
Definition drivable (secs : list lsec) (lane : Z) (s : Q) : Prop := exists ls, In ls secs /\ ls_s ls <= s <= ls_s ls + ls_length ls /\ drives ls lane.

Lemma tiles_comp a a' secs b b' : a == a' -> b == b' -> tiles a secs b -> tiles a' secs b'.
Proof.
  revert a a'. induction secs as [|ls r IH]; intros a a' E F H; simpl in *; [lra|].
  destruct H as (A & B & C). repeat split; auto; [lra|]. apply (IH (a + ls_length ls)); auto. lra.
Qed.
Lemma tiles_snoc a secs x b : tiles a (secs ++ [x]) b <-> tiles a secs (b - ls_length x) /\ ls_s x == b - ls_length x /\ 0 <= ls_length x.
Proof.
  revert a. induction secs as [|ls r IH]; intro a; simpl.
  - split; intros; repeat split; try lra; intuition; lra.
  - rewrite IH. intuition.
Qed.

Lemma lane_length_drives ls r lane : drives ls lane -> lane_length (ls :: r) lane = ls_length ls + lane_length r lane.
Proof. intros (x & A & B). simpl. rewrite A, B. reflexivity. Qed.
Lemma lane_length_stops ls r lane : ~ drives ls lane -> lane_length (ls :: r) lane = 0.
Proof. intro H. simpl. destruct (GetLaneById ls lane) as [x|] eqn:E; auto. destruct (IsDriving x) eqn:D; auto. exfalso. apply H. exists x. auto. Qed.
Lemma drives_dec ls lane : drives ls lane \/ ~ drives ls lane.
Proof.
  unfold drives. destruct (GetLaneById ls lane) as [x|]; [|right; intros (x & A & _); discriminate].
  destruct (IsDriving x) eqn:D; [left; exists x; auto|right; intros (y & A & B); congruence].
Qed.
Lemma lane_length_bounds a secs lane b : tiles a secs b -> 0 <= lane_length secs lane <= b - a.
Proof.
  revert a. induction secs as [|ls r IH]; intros a H; simpl in H; [simpl; lra|]. destruct H as (A & B & C). specialize (IH _ C).
  destruct (drives_dec ls lane) as [D|D]; [rewrite (lane_length_drives _ _ _ D); lra|rewrite (lane_length_stops _ _ _ D); lra].
Qed.
Lemma lane_length_stretch secs : forall a lane b s, tiles a secs b -> match secs with ls :: _ => drives ls lane | [] => False end ->
  a <= s <= a + lane_length secs lane -> drivable secs lane s.
Proof.
  induction secs as [|ls r IH]; intros a lane b s H D S; [easy|]. simpl in H. destruct H as (A & B & C).
  rewrite (lane_length_drives _ _ _ D) in S. destruct (Qlt_le_dec (a + ls_length ls) s) as [X|X].
  - destruct r as [|l2 r]; [simpl in S; lra|]. destruct (drives_dec l2 lane) as [D2|D2].
    + destruct (IH (a + ls_length ls) lane b s C D2) as (m & M1 & M2); [lra|]. exists m. split; [right|]; auto.
    + rewrite (lane_length_stops _ _ _ D2) in S. lra.
  - exists ls. split; [left; auto|]. split; auto. lra.
Qed.
Lemma lane_length_rev_bounds secs : forall a lane b, tiles a secs b -> 0 <= lane_length (rev secs) lane <= b - a.
Proof.
  induction secs as [|x secs IH] using rev_ind; intros a lane b H; [simpl in *; lra|].
  rewrite rev_app_distr. cbn [rev app]. apply tiles_snoc in H. destruct H as (H & S & L). specialize (IH a lane _ H).
  destruct (drives_dec x lane) as [D|D]; [rewrite (lane_length_drives _ _ _ D); lra|rewrite (lane_length_stops _ _ _ D); lra].
Qed.
Lemma lane_length_rev_stretch secs : forall a lane b s, tiles a secs b -> match rev secs with ls :: _ => drives ls lane | [] => False end ->
  b - lane_length (rev secs) lane <= s <= b -> drivable secs lane s.
Proof.
  induction secs as [|x secs IH] using rev_ind; intros a lane b s H D S; [easy|].
  rewrite rev_app_distr in *. cbn [rev app] in *. apply tiles_snoc in H. destruct H as (H & SX & L).
  rewrite (lane_length_drives _ _ _ D) in S. destruct (Qlt_le_dec s (b - ls_length x)) as [X|X].
  - destruct (rev secs) as [|l2 r] eqn:R; [simpl in S; lra|]. destruct (drives_dec l2 lane) as [D2|D2].
    + destruct (IH a lane _ s H D2) as (m & M1 & M2); [lra|]. exists m. split; [apply in_or_app|]; auto.
    + rewrite (lane_length_stops _ _ _ D2) in S. lra.
  - exists x. split; [apply in_or_app; right; left; auto|]. split; auto. lra.
Qed.

(** Lane ids are unique in a section. *)
Definition unique_ids (ls : lsec) : Prop := NoDup (map l_id (ls_lanes ls)).
Lemma unique_get ls x : unique_ids ls -> In x (ls_lanes ls) -> GetLaneById ls (l_id x) = Some x.
Proof.
  unfold unique_ids, GetLaneById. induction (ls_lanes ls) as [|y l IH]; intros U I; [easy|]. simpl in *. inversion U as [|? ? N U']; subst.
  destruct I as [I|I].
  - subst. rewrite Z.eqb_refl. auto.
  - destruct (Z.eqb_spec (l_id y) (l_id x)) as [E|E]; [|auto]. exfalso. apply N. rewrite E. apply in_map. auto.
Qed.
Definition laid_out (r : nroad) : Prop := tiles 0 (r_sections (nr_road r)) (Length r) /\ forall ls, In ls (r_sections (nr_road r)) -> unique_ids ls.

Lemma waypoint_spec net types target st first s0 a b w : laid_out (n_road a) -> hop net types target st a b ->
  (exists l, n_link a = Some l /\ rl_type l <> NOLINK) -> 0 <= s0 <= Length (n_road a) -> waypoint first s0 a b = Some w ->
  w_track w = nr_id (n_road a) /\ w_lane w = n_from b /\ 0 <= w_s w <= Length (n_road a) /\
  drivable (r_sections (nr_road (n_road a))) (n_from b) (w_s w) /\
  exists l, n_link a = Some l /\
    ((rl_type l = SUCCESSOR /\ w_h w = 0 /\ (first = true -> s0 <= w_s w)) \/ (rl_type l = PREDECESSOR /\ w_h w = 2 * M_PI_2 /\ (first = true -> w_s w <= s0))).
Proof.
  intros (TL & UQ) (l & L & (J & (ls & x & E & X & XI & D) & _) & _) (l' & L' & NL) S0 W.
  assert (l' = l) by congruence. subst l'. unfold waypoint in W. rewrite L in W.
  assert (IN : In ls (r_sections (nr_road (n_road a)))) by (apply (end_section_in _ _ _ E)).
  assert (DR : drives ls (n_from b)) by (exists x; split; auto; rewrite <- XI; apply unique_get; auto).
  assert (HALF : forall q, q / 2 == q * (1 # 2)) by (intro; reflexivity).
  destruct (rl_type l) eqn:T; [congruence| |].
  - cbv zeta in W. inversion W; subst w; clear W. cbn [w_track w_lane w_s w_h].
    pose proof (lane_length_rev_bounds _ _ (n_from b) _ TL) as LB.
    assert (DR2 : match rev (r_sections (nr_road (n_road a))) with ls :: _ => drives ls (n_from b) | [] => False end).
    { unfold end_section in E. destruct (rev (r_sections (nr_road (n_road a)))); [discriminate|]. congruence. }
    pose proof (fun s => lane_length_rev_stretch _ 0 _ _ s TL DR2) as ST.
    set (ll := lane_length (rev (r_sections (nr_road (n_road a)))) (n_from b)) in *. clearbody ll. pose proof (HALF ll) as HL.
    destruct (Qltb_spec (Length (n_road a) - ll) s0) as [C|C]; destruct first; cbn [andb].
    all: repeat split; try lra; try (apply ST; lra).
    all: exists l; split; auto; left; repeat split; auto; intros; try discriminate; lra.
  - cbv zeta in W. inversion W; subst w; clear W. cbn [w_track w_lane w_s w_h].
    pose proof (lane_length_bounds _ _ (n_from b) _ TL) as LB.
    assert (DR2 : match r_sections (nr_road (n_road a)) with ls :: _ => drives ls (n_from b) | [] => False end).
    { unfold end_section in E. destruct (r_sections (nr_road (n_road a))); [discriminate|]. congruence. }
    pose proof (fun s => lane_length_stretch _ 0 _ _ s TL DR2) as ST.
    set (ll := lane_length (r_sections (nr_road (n_road a))) (n_from b)) in *. clearbody ll. pose proof (HALF ll) as HL.
    destruct (Qltb_spec s0 ll) as [C|C]; destruct first; cbn [andb].
    all: repeat split; try lra; try (apply ST; lra).
    all: exists l; split; auto; right; repeat split; auto; intros; try discriminate; lra.
Qed.

Lemma waypoints_length net types target st first s0 path : hops net types target st path -> path <> [] ->
  exists l, waypoints first s0 path = Some l /\ S (List.length l) = List.length path.
Proof.
  revert first. induction path as [|a r IH]; intros first H NE; [congruence|].
  destruct r as [|b r].
  - exists []. auto.
  - destruct H as ((k & K & _) & H). destruct (IH false H) as (l & L1 & L2); [congruence|].
    cbn [waypoints] in *. rewrite L1. unfold waypoint. rewrite K. destruct (match rl_type k with SUCCESSOR => _ | _ => _ end) as (s & h).
    eexists. split; [reflexivity|]. simpl in *. lia.
Qed.

Lemma waypoints_nth s0 path : forall first l i w, waypoints first s0 path = Some l -> nth_error l i = Some w ->
  exists a b, nth_error path i = Some a /\ nth_error path (S i) = Some b /\ waypoint (first && (i =? 0)%nat) s0 a b = Some w.
Proof.
  induction path as [|a r IH]; intros first l i w H N; [inversion H; subst; destruct i; discriminate|].
  destruct r as [|b r]; [inversion H; subst; destruct i; discriminate|]. cbn [waypoints] in *.
  destruct (waypoint first s0 a b) as [w0|] eqn:W; [|discriminate].
  destruct (match r with [] => Some [] | _ => _ end) as [l0|] eqn:R; [|discriminate].
  inversion H; subst l. destruct i as [|i].
  - inversion N; subst. exists a, b. rewrite andb_true_r. auto.
  - simpl in N. destruct (IH false l0 i w R N) as (c & d & A & B & C). exists c, d. split; [exact A|]. split; [exact B|]. rewrite andb_false_r. exact C.
Qed.

Lemma hops_nth net types target st path : forall i a b, hops net types target st path -> nth_error path i = Some a -> nth_error path (S i) = Some b ->
  hop net types target st a b.
Proof.
  induction path as [|x r IH]; intros i a b H A B; [destruct i; discriminate|].
  destruct r as [|y r]; [destruct i as [|[|i]]; discriminate|]. destruct H as (H1 & H2). destruct i as [|i].
  - simpl in *. congruence.
  - apply (IH i a b H2); auto.
Qed.

(** ** Strategies *)

Lemma cost_intersections types s legs : cost types MIN_INTERSECTIONS s legs ==
  inject_Z (Z.of_nat (List.length (filter (fun x => match rl_elem (fst x) with ELEMENT_JUNCTION => true | _ => false end) legs))).
Proof.
  induction legs as [|(l & q) legs IH]; [reflexivity|]. destruct legs as [|y legs].
  - simpl. destruct (rl_elem l); reflexivity.
  - change (cost types MIN_INTERSECTIONS s ((l, q) :: y :: legs)) with (price types MIN_INTERSECTIONS l (Length q) q + cost types MIN_INTERSECTIONS s (y :: legs)).
    rewrite IH. unfold price. cbn [filter fst]. destruct (rl_elem l); [lra|lra|].
    cbn [List.length]. rewrite Nat2Z.inj_succ. unfold Z.succ. rewrite inject_Z_plus. cbn [filter fst]. change (inject_Z 1) with 1. lra.
Qed.
