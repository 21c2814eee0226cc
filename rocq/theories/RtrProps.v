(** * C60: the lane independent router *)
From Coq Require Import NArith Permutation.
From Verif Require Import QAux LaneModel IdModel NetModel PathModel RtrModel RtrProofs.
Local Open Scope Q_scope.

(** ** A priority queue and a network for the examples *)

Definition rank (n : rnode) : Z := match n_prev n with None => 0 | Some p => Z.abs (n_lane n - n_lane p) end.
Definition later (a b : rnode) : bool := if Qeqb (n_weight a) (n_weight b) then (rank b <? rank a)%Z else Qltb (n_weight b) (n_weight a).
Fixpoint pop_min (l : list rnode) : option (rnode * list rnode) :=
  match l with
  | [] => None
  | a :: r => match pop_min r with
              | None => Some (a, [])
              | Some (m, k) => if later a m then Some (m, a :: k) else Some (a, m :: k)
              end
  end.
Lemma later_trans a m x : later a m = false -> later m x = false -> later a x = false.
Proof.
  unfold later. destruct (Qeqb_spec (n_weight a) (n_weight m)), (Qeqb_spec (n_weight m) (n_weight x)), (Qeqb_spec (n_weight a) (n_weight x));
    rewrite ?Z.ltb_ge, ?Qltb_ge; intros; try lia; lra.
Qed.
Lemma later_asym a m : later a m = true -> later m a = false.
Proof.
  unfold later. destruct (Qeqb_spec (n_weight a) (n_weight m)), (Qeqb_spec (n_weight m) (n_weight a)); try (exfalso; lra).
  - rewrite Z.ltb_lt, Z.ltb_ge. lia.
  - rewrite Qltb_lt, Qltb_ge. lra.
Qed.
Lemma later_compare a b : WeightCompare a b = Some true -> later a b = true.
Proof.
  unfold WeightCompare, later, rank. destruct (Qeqb (n_weight a) (n_weight b)); [|congruence]. destruct (n_prev a), (n_prev b); congruence.
Qed.
Lemma pop_min_spec l : match pop_min l with None => l = [] | Some (m, k) => Permutation l (m :: k) /\ forall x, In x k -> later m x = false end.
Proof.
  induction l as [|a r IH]; [reflexivity|]. simpl. destruct (pop_min r) as [(m & k)|].
  - destruct IH as (P & LE). destruct (later a m) eqn:E.
    + split; [rewrite P; apply perm_swap|]. intros x [X|X]; [subst; apply later_asym; auto|auto].
    + split; [rewrite P; reflexivity|]. intros x [X|X]; [subst; auto|apply (later_trans a m); auto].
  - subst r. split; auto. easy.
Qed.
Lemma pop_min_queue : queue pop_min.
Proof.
  split; auto. intros l NE. pose proof (pop_min_spec l) as H. destruct (pop_min l) as [(m & k)|]; [|congruence].
  exists m, k. destruct H as (P & LE). repeat split; auto. intros x X C. apply later_compare in C. rewrite (LE x X) in C. discriminate.
Qed.

Definition rt_lane (k : Z) : lane := Lane k 2 [(SUCCESSOR, k); (PREDECESSOR, k)] [] [].
Definition rt_road (id : N) (len : Q) (links : list rlink) : nroad :=
  NRoad id links (Road len [LSec 0 len [rt_lane 1; rt_lane 0; rt_lane (-1); rt_lane (-2)]] []).
Definition d1 := rt_road 1 100 [RLink SUCCESSOR ELEMENT_JUNCTION 9 CP_JUNCTION].
Definition d2 := rt_road 2 30 [RLink PREDECESSOR ELEMENT_ROAD 1 CP_END; RLink SUCCESSOR ELEMENT_ROAD 4 CP_START].
Definition d3 := rt_road 3 80 [RLink PREDECESSOR ELEMENT_ROAD 1 CP_END; RLink SUCCESSOR ELEMENT_ROAD 4 CP_START].
Definition d4 := rt_road 4 50 [RLink PREDECESSOR ELEMENT_JUNCTION 9 CP_JUNCTION].
Definition lanes2 : list (Z * Z) := [((-1)%Z, (-1)%Z); ((-2)%Z, (-2)%Z)].
Definition fork : network := Network [d1; d2; d3; d4] [Junction 9 false [Connection 1 3 CP_START lanes2; Connection 1 2 CP_START lanes2]].
Definition fork_types (r : nroad) : list (roadtype * Q) :=
  if (nr_id r =? 2)%N then [(RT_PEDESTRIAN, 0)] else if (nr_id r =? 3)%N then [(RT_MOTORWAY, 0); (RT_MOTORWAY, 35)] else [].
Definition from1 : ppos := PPos 1 (-1) 90 0 0.
Definition to4 : ppos := PPos 4 (-2) 20 0 0.
(** Roads, lanes left and weights of a path. *)
Definition shown (p : option (list rnode)) := option_map (map (fun n => (nr_id (n_road n), n_lane n, n_from n, Qred (n_weight n)))) p.

Lemma fork_lengths : forall r, In r (net_roads fork) -> 0 <= Length r.
Proof. intros r H. simpl in H. repeat (destruct H as [H|H]; [subst; discriminate|]). easy. Qed.

(** ** The path *)

(** A path returned leads from the start to the target lane, each node one leg (a lane of the side driven on continues into the next
    road) after the one before; its weight is the cost of its legs and no way through the network costs less. *)
Theorem C60_path : forall net types target st pop fuel start path, (forall r, In r (net_roads net) -> 0 <= Length r) -> queue pop ->
  CalculatePath net types target st pop fuel start = Some path -> path <> [] ->
  exists r l first rest n, GetRoad net (pp_track start) = Some r /\ Road_GetLink r (ahead start) = Some l /\
    path = first :: rest /\ n_road first = r /\ n_lane first = pp_lane start /\ n_link first = Some l /\ n_weight first == first_price types st start r /\
    hops net types target st path /\
    last path first = n /\ nr_id (n_road n) = pp_track target /\ n_lane n = pp_lane target /\
    way net target r l (pp_lane start) (legs_of path) /\ n_weight n == first_price types st start r + cost types st (pp_s target) (legs_of path) /\
    forall legs, way net target r l (pp_lane start) legs -> n_weight n <= first_price types st start r + cost types st (pp_s target) legs.
Proof. intros net types target st pop fuel start path ML Q H NE. exact (calculate_found net types target st pop fuel start path ML Q H NE). Qed.
Example C60_path_ex : shown (CalculatePath fork fork_types to4 SHORTEST pop_min 50 from1) =
  Some [(1%N, (-1)%Z, 0%Z, 10); (2%N, (-2)%Z, (-2)%Z, 40); (4%N, (-2)%Z, (-2)%Z, 60)].
Proof. vm_compute. reflexivity. Qed.
Example C60_path_fast_ex : option_map (map (fun n => nr_id (n_road n))) (CalculatePath fork fork_types to4 FASTEST pop_min 50 from1) = Some [1%N; 3%N; 4%N].
Proof. vm_compute. reflexivity. Qed.

(** Nothing is returned exactly if a position is not valid, both are in the same lane of a road, or no way leads to the target. *)
Theorem C60_no_path : forall net types target st pop fuel start path, (forall r, In r (net_roads net) -> 0 <= Length r) -> queue pop ->
  CalculatePath net types target st pop fuel start = Some path ->
  (path = [] <->
   IsPositionValid net start = Some false \/ IsPositionValid net target = Some false \/
   (pp_track start = pp_track target /\ pp_lane start = pp_lane target) \/
   exists r, GetRoad net (pp_track start) = Some r /\ forall l, Road_GetLink r (ahead start) = Some l -> forall legs, ~ way net target r l (pp_lane start) legs).
Proof. intros net types target st pop fuel start path ML Q H. exact (calculate_none net types target st pop fuel start path ML Q H). Qed.
Example C60_no_path_ex : CalculatePath fork fork_types (PPos 4 1 20 0 0) SHORTEST pop_min 50 from1 = Some [] /\
  CalculatePath fork fork_types (PPos 4 0 20 0 0) SHORTEST pop_min 50 from1 = Some [] /\
  CalculatePath fork fork_types (PPos 1 (-1) 95 0 0) SHORTEST pop_min 50 from1 = Some [] /\
  CalculatePath fork fork_types to4 SHORTEST pop_min 50 (PPos 1 (-1) 90 3 0) = Some [].
Proof. repeat split; vm_compute; reflexivity. Qed.

(** A position is valid exactly if its lane is a driving one on an existing part of the road. *)
Theorem C60_valid : forall net p, IsPositionValid net p = Some true <-> exists r ls x, GetRoad net (pp_track p) = Some r /\ 0 <= pp_s p <= Length r /\
  GetLaneSectionByS (r_sections (nr_road r)) (pp_s p) 0 = Some ls /\ GetLaneById ls (pp_lane p) = Some x /\ IsDriving x = true.
Proof.
  intros net p. split; [apply valid_spec|]. intros (r & ls & x & A & B & C & D & E). unfold IsPositionValid. rewrite A.
  destruct (Qltb_spec (Length r) (pp_s p)); [lra|]. destruct (Qltb_spec (pp_s p) 0); [lra|]. simpl. rewrite C, D, E. reflexivity.
Qed.
Example C60_valid_ex : IsPositionValid fork from1 = Some true /\ IsPositionValid fork (PPos 1 0 90 0 0) = Some false /\
  IsPositionValid fork (PPos 1 (-1) 101 0 0) = Some false /\ IsPositionValid fork (PPos 7 (-1) 1 0 0) = Some false.
Proof. repeat split; vm_compute; reflexivity. Qed.

(** The search ends, without comparing the first node or looking for a missing junction, if the junctions of links exist. *)
Theorem C60_ends : forall net types target st start, (forall r, In r (net_roads net) -> 0 <= Length r) -> linked net ->
  IsPositionValid net start <> None -> IsPositionValid net target <> None ->
  exists bound, forall pop fuel, queue pop -> (bound <= fuel)%nat -> CalculatePath net types target st pop fuel start <> None.
Proof. intros. apply calculate_ends; auto. Qed.
Definition ring1 := rt_road 1 100 [RLink PREDECESSOR ELEMENT_ROAD 2 CP_END; RLink SUCCESSOR ELEMENT_ROAD 2 CP_START].
Definition ring2 := rt_road 2 40 [RLink PREDECESSOR ELEMENT_ROAD 1 CP_END; RLink SUCCESSOR ELEMENT_ROAD 1 CP_START].
Definition ring : network := Network [ring1; ring2; rt_road 3 10 []] [].
Example C60_ends_ex : linked fork /\ linked ring /\ CalculatePath ring fork_types (PPos 3 (-1) 5 0 0) SHORTEST pop_min 30 from1 = Some [].
Proof.
  repeat split.
  - intros r l H1 H2 E. simpl in H1. repeat (destruct H1 as [H1|H1]; [subst r; simpl in H2;
      repeat (destruct H2 as [H2|H2]; [subst l; try discriminate E; vm_compute; discriminate|]); easy|]). easy.
  - intros r l H1 H2 E. simpl in H1. repeat (destruct H1 as [H1|H1]; [subst r; simpl in H2;
      repeat (destruct H2 as [H2|H2]; [subst l; try discriminate E; vm_compute; discriminate|]); easy|]). easy.
Qed.

(** A junction a link names but the network has not: a null pointer is read. *)
Definition lost : network := Network [d1; d4] [].
Theorem C60_ends_refuted : ~ forall net types target st start, (forall r, In r (net_roads net) -> 0 <= Length r) ->
  IsPositionValid net start <> None -> IsPositionValid net target <> None ->
  exists fuel, CalculatePath net types target st pop_min fuel start <> None.
Proof.
  intro H. destruct (H lost (fun _ => []) to4 SHORTEST from1) as (fuel & F).
  - intros r I. simpl in I. repeat (destruct I as [I|I]; [subst; discriminate|]). easy.
  - vm_compute. discriminate.
  - vm_compute. discriminate.
  - apply F. destruct fuel; vm_compute; reflexivity.
Qed.

(** The order in which the queue gives equal nodes makes no difference to the weight. *)
Theorem C60_any_queue : forall net types target st pop pop' fuel fuel' start path path', (forall r, In r (net_roads net) -> 0 <= Length r) -> queue pop -> queue pop' ->
  CalculatePath net types target st pop fuel start = Some path -> CalculatePath net types target st pop' fuel' start = Some path' ->
  (path = [] <-> path' = []) /\ forall d, path <> [] -> n_weight (last path d) == n_weight (last path' d).
Proof.
  intros net types target st pop pop' fuel fuel' start path path' ML Q Q' H H'.
  pose proof (calculate_none _ _ _ _ _ _ _ _ ML Q H) as N. pose proof (calculate_none _ _ _ _ _ _ _ _ ML Q' H') as N'.
  assert (E : path = [] <-> path' = []) by (rewrite N, N'; reflexivity). split; auto. intros d NE.
  assert (NE' : path' <> []) by (intro X; apply NE, E, X).
  destruct (calculate_found _ _ _ _ _ _ _ _ ML Q H NE) as (r & l & f & rs & n & A1 & A2 & A3 & _ & _ & _ & _ & _ & A4 & _ & _ & A5 & A6 & A7).
  destruct (calculate_found _ _ _ _ _ _ _ _ ML Q' H' NE') as (r' & l' & f' & rs' & n' & B1 & B2 & B3 & _ & _ & _ & _ & _ & B4 & _ & _ & B5 & B6 & B7).
  assert (r' = r) by congruence. subst r'. assert (l' = l) by congruence. subst l'.
  assert (X1 : last path d = n) by (rewrite <- A4; rewrite A3; apply last_default).
  assert (X2 : last path' d = n') by (rewrite <- B4; rewrite B3; apply last_default).
  rewrite X1, X2. specialize (A7 _ B5). specialize (B7 _ A5). lra.
Qed.
Definition pop_back (l : list rnode) : option (rnode * list rnode) := pop_min (rev l).
Lemma pop_back_queue : queue pop_back.
Proof.
  split; auto. intros l NE. assert (NR : rev l <> []) by (intro X; apply NE; rewrite <- (rev_involutive l), X; reflexivity).
  destruct (proj2 pop_min_queue _ NR) as (n & r & A & B & C). exists n, r. repeat split; auto. rewrite <- B. apply Permutation_rev.
Qed.
Example C60_any_queue_ex : shown (CalculatePath fork fork_types to4 MIN_INTERSECTIONS pop_min 50 from1) =
  Some [(1%N, (-1)%Z, 0%Z, 0); (3%N, (-2)%Z, (-2)%Z, 1); (4%N, (-2)%Z, (-2)%Z, 1)] /\
  shown (CalculatePath fork fork_types to4 MIN_INTERSECTIONS pop_back 50 from1) =
  Some [(1%N, (-1)%Z, 0%Z, 0); (3%N, (-1)%Z, (-1)%Z, 1); (4%N, (-2)%Z, (-2)%Z, 1)].
Proof. split; vm_compute; reflexivity. Qed.

(** ** Strategies *)

(** With MIN_INTERSECTIONS the weight counts the junctions passed. *)
Theorem C60_intersections : forall net types target pop fuel start path, (forall r, In r (net_roads net) -> 0 <= Length r) -> queue pop ->
  CalculatePath net types target MIN_INTERSECTIONS pop fuel start = Some path -> path <> [] ->
  forall d, n_weight (last path d) ==
    inject_Z (Z.of_nat (List.length (filter (fun x => match rl_elem (fst x) with ELEMENT_JUNCTION => true | _ => false end) (legs_of path)))).
Proof.
  intros net types target pop fuel start path ML Q H NE d.
  destruct (calculate_found _ _ _ _ _ _ _ _ ML Q H NE) as (r & l & f & rs & n & A1 & A2 & A3 & _ & _ & _ & _ & _ & A4 & _ & _ & A5 & A6 & _).
  assert (X1 : last path d = n) by (rewrite <- A4; rewrite A3; apply last_default).
  rewrite X1, A6, cost_intersections. unfold first_price. lra.
Qed.
Example C60_intersections_ex : CalculatePath fork fork_types to4 MIN_INTERSECTIONS pop_min 50 from1 <> Some [] /\
  CalculatePath fork fork_types to4 MIN_INTERSECTIONS pop_min 50 from1 <> None.
Proof. split; vm_compute; discriminate. Qed.

(** The average speed of a road is the mean over its road types, and positive. *)
Theorem C60_speed : forall types r, CalcAverageSpeed types r == mean_speed types r /\ 0 < CalcAverageSpeed types r.
Proof. intros types r. pose proof (speed_mean types r). pose proof (mean_pos types r). split; lra. Qed.
Example C60_speed_ex : CalcAverageSpeed fork_types d3 == 30 /\ CalcAverageSpeed fork_types d2 == 1389 # 1000.
Proof. split; vm_compute; reflexivity. Qed.
(** The speed of a road type counts if it has one - except for three town road types. *)
Theorem C60_type_speed : forall t v, SMALL < v -> t <> RT_TOWNARTERIAL -> t <> RT_TOWNCOLLECTOR -> t <> RT_TOWNEXPRESSWAY -> type_speed t v = v.
Proof. intros t v H A B C. destruct t; try congruence; unfold type_speed; destruct (Qltb_spec SMALL v); auto; lra. Qed.
Example C60_type_speed_ex : type_speed RT_TOWN 10 = 10.
Proof. vm_compute. reflexivity. Qed.
Theorem C60_type_speed_refuted : ~ forall t v, SMALL < v -> type_speed t v = v.
Proof. intro H. specialize (H RT_TOWNEXPRESSWAY 30). assert (X : SMALL < 30) by reflexivity. specialize (H X). vm_compute in H. discriminate. Qed.

(** With SHORTEST the weight is the length of the path if the target road is not entered by a link to a junction ... *)
Fixpoint metres (s : Q) (legs : list (rlink * nroad)) (from_start : bool) : Q :=
  match legs with
  | [] => 0
  | (l, q) :: rest => match rest with [] => if from_start then s else Length q - s | _ => Length q + metres s rest from_start end
  end.
Theorem C60_metres : forall net types target pop fuel start path, (forall r, In r (net_roads net) -> 0 <= Length r) -> queue pop ->
  CalculatePath net types target SHORTEST pop fuel start = Some path -> path <> [] ->
  forall d dl l q (b : bool), last (legs_of path) dl = (l, q) -> rl_contact l = (if b then CP_START else CP_END) ->
  exists r, GetRoad net (pp_track start) = Some r /\ n_weight (last path d) == first_part start r + metres (pp_s target) (legs_of path) b.
Proof.
  intros net types target pop fuel start path ML Q H NE d dl l q b LL C.
  destruct (calculate_found _ _ _ _ _ _ _ _ ML Q H NE) as (r & l0 & f & rs & n & A1 & A2 & A3 & _ & _ & _ & _ & _ & A4 & _ & _ & A5 & A6 & _).
  exists r. split; auto. assert (X1 : last path d = n) by (rewrite <- A4; rewrite A3; apply last_default).
  rewrite X1, A6. unfold first_price. apply way_nonempty in A5. clear - A5 LL C. apply Qplus_comp; [reflexivity|].
  revert A5 LL. induction (legs_of path) as [|(l1 & q1) legs IH]; intros NE LL; [congruence|]. destruct legs as [|y legs].
  - inversion LL; subst. simpl. unfold last_part. rewrite C. destruct b; reflexivity.
  - change (cost types SHORTEST (pp_s target) ((l1, q1) :: y :: legs)) with (Length q1 + cost types SHORTEST (pp_s target) (y :: legs)).
    change (metres (pp_s target) ((l1, q1) :: y :: legs) b) with (Length q1 + metres (pp_s target) (y :: legs) b).
    rewrite IH; [reflexivity|congruence|exact LL].
Qed.
Example C60_metres_ex : option_map (fun p => metres 20 (legs_of p) true) (CalculatePath fork fork_types to4 SHORTEST pop_min 50 from1) = Some (30 + 20).
Proof. vm_compute. reflexivity. Qed.
(** ... otherwise the way on the target road does not count at all. *)
Theorem C60_metres_refuted : ~ forall net types target pop fuel start path, (forall r, In r (net_roads net) -> 0 <= Length r) -> queue pop ->
  CalculatePath net types target SHORTEST pop fuel start = Some path -> path <> [] ->
  forall d, exists r b, GetRoad net (pp_track start) = Some r /\ n_weight (last path d) == first_part start r + metres (pp_s target) (legs_of path) b.
Proof.
  intro H. specialize (H fork fork_types (PPos 3 (-1) 50 0 0) pop_min 50%nat from1).
  destruct (CalculatePath fork fork_types (PPos 3 (-1) 50 0 0) SHORTEST pop_min 50 from1) as [path|] eqn:E; vm_compute in E; [|discriminate].
  inversion E; subst path. destruct (H _ fork_lengths pop_min_queue eq_refl ltac:(discriminate) (RNode d1 0 0 0 None None)) as (r & b & A & B).
  vm_compute in A. inversion A; subst r. destruct b; vm_compute in B; discriminate.
Qed.

(** ** What the router does not find *)

(** A target beside the start, one lane change away, is not found (or a lap is driven to get there). *)
Theorem C60_beside_refuted : ~ forall net types target st pop fuel start path, (forall r, In r (net_roads net) -> 0 <= Length r) -> queue pop ->
  IsPositionValid net start = Some true -> IsPositionValid net target = Some true ->
  pp_track start = pp_track target -> SIGN (pp_lane start) = SIGN (pp_lane target) -> faces_along (pp_h start) = true -> pp_s start < pp_s target ->
  CalculatePath net types target st pop fuel start = Some path -> path <> [] /\ forall d, n_weight (last path d) <= Length (n_road (hd d path)).
Proof.
  intro H. specialize (H ring (fun _ => []) (PPos 1 (-2) 95 0 0) SHORTEST pop_min 20%nat from1).
  destruct (CalculatePath ring (fun _ => []) (PPos 1 (-2) 95 0 0) SHORTEST pop_min 20 from1) as [path|] eqn:E; vm_compute in E; [|discriminate].
  inversion E; subst path.
  assert (L : forall r, In r (net_roads ring) -> 0 <= Length r) by (intros r I; simpl in I; repeat (destruct I as [I|I]; [subst; discriminate|]); easy).
  destruct (H _ L pop_min_queue ltac:(reflexivity) ltac:(reflexivity) eq_refl eq_refl eq_refl ltac:(reflexivity) eq_refl) as (_ & X).
  specialize (X (RNode d1 0 0 0 None None)). vm_compute in X. apply X. reflexivity.
Qed.
Example C60_beside_refuted_ex : CalculatePath (Network [rt_road 1 100 []] []) (fun _ => []) (PPos 1 (-2) 95 0 0) SHORTEST pop_min 20 from1 = Some [].
Proof. vm_compute. reflexivity. Qed.

(** A road entered over a junction is left at its other end - not if both ends are linked to the same road (a turning loop entered at
    its start), nor if its other end is linked to a road with the id of the direct junction. *)
Theorem C60_other_end_refuted : ~ forall net r l q k j c, rl_elem l = ELEMENT_JUNCTION -> GetJunction net (rl_id l) = Some j -> In c (j_conns j) ->
  c_incoming c = nr_id r -> c_connecting c = nr_id q -> c_contact c = CP_START -> GetNextLink net l r q = Some k -> rl_type k = SUCCESSOR.
Proof.
  intro H. set (u := rt_road 2 30 [RLink PREDECESSOR ELEMENT_ROAD 1 CP_END; RLink SUCCESSOR ELEMENT_ROAD 1 CP_END]).
  specialize (H (Network [d1; u] [Junction 9 false [Connection 1 2 CP_START lanes2]]) d1 (RLink SUCCESSOR ELEMENT_JUNCTION 9 CP_JUNCTION) u
    (RLink PREDECESSOR ELEMENT_ROAD 1 CP_END) _ _ eq_refl eq_refl (or_introl eq_refl) eq_refl eq_refl eq_refl eq_refl). discriminate.
Qed.
Example C60_other_end_refuted_ex :
  let q := rt_road 2 30 [RLink PREDECESSOR ELEMENT_JUNCTION 9 CP_JUNCTION; RLink SUCCESSOR ELEMENT_ROAD 9 CP_START] in
  GetNextLink (Network [d1; q; rt_road 9 10 []] [Junction 9 true [Connection 1 2 CP_START lanes2]]) (RLink SUCCESSOR ELEMENT_JUNCTION 9 CP_JUNCTION) d1 q =
  Some (RLink PREDECESSOR ELEMENT_JUNCTION 9 CP_JUNCTION).
Proof. vm_compute. reflexivity. Qed.
(** It is if the ends of the road lead to different elements. *)
Theorem C60_other_end : forall net r l q k j, rl_elem l = ELEMENT_JUNCTION -> GetJunction net (rl_id l) = Some j ->
  ~ (exists a b, Road_GetLink q SUCCESSOR = Some a /\ Road_GetLink q PREDECESSOR = Some b /\ rl_id a = rl_id b) ->
  GetNextLink net l r q = Some k ->
  let id := if j_direct j then j_id j else nr_id r in
  (rl_type k = SUCCESSOR <-> leads q PREDECESSOR id) /\ (rl_type k = PREDECESSOR <-> leads q SUCCESSOR id).
Proof.
  intros net r l q k j E J D H id. apply next_link_onward in H. unfold onward in H.
  destruct H as [(X & _)|[(X & _)|(_ & i & I & H)]]; try congruence.
  assert (i = id).
  { unfold id. destruct I as [(I1 & I2)|(j' & I1 & I2 & I3)]; [rewrite (I2 j J); auto|]. assert (j' = j) by congruence. subst. rewrite I2. auto. }
  subst i. assert (BOTH : leads q SUCCESSOR id -> leads q PREDECESSOR id -> False).
  { intros (a & A1 & A2) (b & B1 & B2). apply D. exists a, b. repeat split; auto. congruence. }
  destruct H as [(H1 & H2)|(H1 & H2 & H3)].
  - apply GetLink_type in H2. destruct H2 as (H2 & _). rewrite H2. split; split; intro X; try discriminate; auto. exfalso. auto.
  - apply GetLink_type in H3. destruct H3 as (H3 & _). rewrite H3. split; split; intro X; try discriminate; auto. contradiction.
Qed.
Example C60_other_end_ex : GetNextLink fork (RLink SUCCESSOR ELEMENT_JUNCTION 9 CP_JUNCTION) d1 d2 = Some (RLink SUCCESSOR ELEMENT_ROAD 4 CP_START).
Proof. vm_compute. reflexivity. Qed.

(** ** Waypoints *)

Lemma onward_type net r l q k : onward net r l q k -> rl_type k <> NOLINK.
Proof.
  intros [(_ & _ & H)|[(_ & _ & H)|(_ & i & _ & [(_ & H)|(_ & _ & H)])]]; pose proof (GetLink_type _ _ _ H) as (E & _); rewrite E; discriminate.
Qed.
Lemma path_start_valid net types target st pop fuel start path : CalculatePath net types target st pop fuel start = Some path -> path <> [] ->
  IsPositionValid net start = Some true.
Proof. unfold CalculatePath. destruct (IsPositionValid net start) as [[|]|]; congruence. Qed.
Lemma waypoint_later s0 s1 a b : waypoint false s0 a b = waypoint false s1 a b.
Proof. reflexivity. Qed.

(** There is a waypoint on each road of the path, the last one the target; the others are in the lane the road is left from, where that
    lane can be driven on, headed for the end the road is left at, and the first one not behind the start. *)
Theorem C60_waypoints : forall net types target st pop fuel start path, (forall r, In r (net_roads net) -> 0 <= Length r) -> queue pop ->
  (forall r, In r (net_roads net) -> laid_out r) ->
  CalculatePath net types target st pop fuel start = Some path -> path <> [] ->
  exists l, GetWaypoints path start target = Some (l ++ [Wpt (pp_track target) (pp_lane target) (pp_s target) (pp_h target)]) /\
    S (List.length l) = List.length path /\
    forall i w, nth_error l i = Some w -> exists a b k, nth_error path i = Some a /\ nth_error path (S i) = Some b /\ n_link a = Some k /\
      w_track w = nr_id (n_road a) /\ w_lane w = n_from b /\
      0 <= w_s w <= Length (n_road a) /\ drivable (r_sections (nr_road (n_road a))) (n_from b) (w_s w) /\
      ((rl_type k = SUCCESSOR /\ w_h w = 0 /\ (i = 0%nat -> pp_s start <= w_s w)) \/
       (rl_type k = PREDECESSOR /\ w_h w = 2 * M_PI_2 /\ (i = 0%nat -> w_s w <= pp_s start))).
Proof.
  intros net types target st pop fuel start path ML Q LO H NE.
  pose proof (path_start_valid _ _ _ _ _ _ _ _ H NE) as V. apply valid_spec in V. destruct V as (r0 & _ & _ & G0 & S0 & _).
  destruct (calculate_found _ _ _ _ _ _ _ _ ML Q H NE) as (r & l0 & f & rs & n & A1 & A2 & A3 & A3a & A3b & A3c & A3d & HP & _).
  assert (r0 = r) by congruence. subst r0.
  destruct (waypoints_length _ _ _ _ true (pp_s start) path HP NE) as (l & W & LN). exists l. split.
  { unfold GetWaypoints. rewrite W. destruct path; [congruence|reflexivity]. }
  split; auto. intros i w NW. destruct (waypoints_nth _ _ _ _ _ _ W NW) as (a & b & NA & NB & WP).
  pose proof (hops_nth _ _ _ _ _ _ _ _ HP NA NB) as HO.
  assert (PA : In (n_road a) (net_roads net) /\ (exists k, n_link a = Some k /\ rl_type k <> NOLINK)).
  { destruct i as [|i].
    - rewrite A3 in NA. inversion NA; subst a. rewrite A3a. split; [apply (GetRoad_id _ _ _ A1)|]. exists l0. split; auto.
      apply GetLink_type in A2. destruct A2 as (A2 & _). rewrite A2. unfold ahead. destruct (faces_along _); discriminate.
    - destruct (nth_error path i) as [z|] eqn:NZ; [|apply nth_error_None in NZ; assert (nth_error path (S i) <> None) by congruence; apply nth_error_Some in H0; lia].
      pose proof (hops_nth _ _ _ _ _ _ _ _ HP NZ NA) as HZ. pose proof (hop_proper _ _ _ _ _ _ HZ) as (PZ & _). split; [apply (GetRoad_id _ _ _ PZ)|].
      destruct HZ as (lz & _ & _ & _ & [(_ & _ & X & _)|(_ & (k & O & X) & _)]).
      + destruct HO as (lo & LO' & _). congruence.
      + exists k. split; auto. apply (onward_type _ _ _ _ _ O). }
  destruct PA as (IN & k & K & KT). exists a, b, k.
  assert (X : exists s0 first, 0 <= s0 <= Length (n_road a) /\ waypoint first s0 a b = Some w /\ (i = 0%nat -> first = true /\ s0 = pp_s start)).
  { destruct i as [|i].
    - exists (pp_s start), true. rewrite A3 in NA. inversion NA; subst a. rewrite A3a. repeat split; auto; lra.
    - exists 0, false. split; [pose proof (ML _ IN); lra|]. split; [|discriminate]. rewrite <- WP. reflexivity. }
  destruct X as (s0 & first & B & WX & F0).
  destruct (waypoint_spec _ _ _ _ first s0 a b w (LO _ IN) HO (ex_intro _ k (conj K KT)) B WX) as (C1 & C2 & C3 & C4 & k' & K' & C5).
  assert (k' = k) by congruence. subst k'. split; [exact NA|]. split; [exact NB|]. split; [exact K|]. split; [exact C1|]. split; [exact C2|].
  split; [exact C3|]. split; [exact C4|]. destruct C5 as [(D1 & D2 & D3)|(D1 & D2 & D3)]; [left|right]; repeat split; auto; intro E; destruct (F0 E) as (F1 & F2); rewrite <- F2; apply D3; auto.
Qed.
Example C60_waypoints_ex : (forall r, In r (net_roads fork) -> laid_out r) /\
  match CalculatePath fork fork_types to4 SHORTEST pop_min 50 from1 with
  | Some path => option_map (map (fun w => (w_track w, w_lane w, Qred (w_s w)))) (GetWaypoints path from1 to4)
  | None => None
  end = Some [(1%N, (-2)%Z, 90); (2%N, (-2)%Z, 15); (4%N, (-2)%Z, 20)].
Proof.
  split; [|vm_compute; reflexivity]. intros r H. simpl in H.
  repeat (destruct H as [H|H]; [subst r; split; [vm_compute; repeat split; discriminate|intros ls [I|[]]; subst ls; repeat (constructor; [simpl; intuition discriminate|]); constructor]|]).
  easy.
Qed.
(** Without a path there is nothing to ask for: the index wraps around. *)
Theorem C60_waypoints_empty : forall start target, GetWaypoints [] start target = None.
Proof. reflexivity. Qed.
Example C60_waypoints_empty_ex : CalculatePath fork fork_types (PPos 4 1 20 0 0) SHORTEST pop_min 50 from1 = Some [].
Proof. vm_compute. reflexivity. Qed.

Print Assumptions C60_path.
Print Assumptions C60_no_path.
Print Assumptions C60_valid.
Print Assumptions C60_ends.
Print Assumptions C60_ends_refuted.
Print Assumptions C60_any_queue.
Print Assumptions C60_intersections.
Print Assumptions C60_speed.
Print Assumptions C60_type_speed.
Print Assumptions C60_type_speed_refuted.
Print Assumptions C60_metres.
Print Assumptions C60_metres_refuted.
Print Assumptions C60_beside_refuted.
Print Assumptions C60_other_end_refuted.
Print Assumptions C60_other_end.
Print Assumptions C60_waypoints.
Print Assumptions C60_waypoints_empty.
