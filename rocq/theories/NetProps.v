(** * Road network lookups: the theorems *)
From Coq Require Import NArith Lia.
From Verif Require Import QAux LaneModel IdModel NetModel NetProofs.
Local Open Scope Q_scope.

(** A junction 9 joining road 1 to roads 5 and 6; road 2 follows road 5. *)
Definition ex_lane (k : Z) : lane := Lane k 2 [(SUCCESSOR, k); (PREDECESSOR, k)] [] [].
Definition ex_road (id : N) (len : Q) (links : list rlink) : nroad := NRoad id links (Road len [LSec 0 len [ex_lane 1; ex_lane 0; ex_lane (-1)]] []).
Definition ex_junction : junction :=
  Junction 9 false [Connection 1 5 CP_START [((-1)%Z, (-1)%Z); (1%Z, 1%Z)]; Connection 2 5 CP_END [(1%Z, 1%Z)]; Connection 1 6 CP_END [((-1)%Z, 1%Z)]].
Definition ex_net : network := Network
  [ex_road 1 10 [RLink SUCCESSOR ELEMENT_JUNCTION 9 CP_JUNCTION]; ex_road 2 20 [RLink PREDECESSOR ELEMENT_JUNCTION 9 CP_JUNCTION];
   ex_road 5 4 [RLink PREDECESSOR ELEMENT_ROAD 1 CP_END; RLink SUCCESSOR ELEMENT_ROAD 2 CP_START]; ex_road 6 4 [RLink SUCCESSOR ELEMENT_ROAD 1 CP_END]]
  [ex_junction].

(** ** C49 *)

(** The lane links of a lane of a road in a junction are counted, and got by index, in the order of the file. *)
Theorem C49_enumerate : forall j id k, map (GetRoadConnectionByIdx j id k) (seq 0 (GetNumberOfRoadConnections j id k)) = lane_links (j_conns j) id k.
Proof. exact all_by_idx. Qed.

(** What these lane links are. *)
Theorem C49_links : forall j id k x, In x (map (GetRoadConnectionByIdx j id k) (seq 0 (GetNumberOfRoadConnections j id k))) <->
  exists c to, In c (j_conns j) /\ c_incoming c = id /\ In (k, to) (c_lanes c) /\ x = Lrl k (c_connecting c) to (c_contact c).
Proof. intros j id k x. rewrite all_by_idx. apply lane_links_in. Qed.

(** Any further index gives the undefined connection. *)
Theorem C49_beyond : forall j id k i, (GetNumberOfRoadConnections j id k <= i)%nat -> GetRoadConnectionByIdx j id k i = Lrl 0 ID_UNDEFINED 0 CP_UNDEFINED.
Proof.
  intros j id k i H. unfold GetNumberOfRoadConnections, GetRoadConnectionByIdx in *. rewrite count_connections_spec in H. rewrite pick_connection_spec by lia.
  rewrite Nat.sub_0_r. rewrite (proj2 (nth_error_None _ i)) by lia. reflexivity.
Qed.

Example C49_enumerate_ex : GetNumberOfRoadConnections ex_junction 1 (-1) = 2%nat /\ GetRoadConnectionByIdx ex_junction 1 (-1) 1 = Lrl (-1) 6 1 CP_END /\
  GetRoadConnectionByIdx ex_junction 1 (-1) 2 = lrl_default.
Proof. repeat split. Qed.

(** The connecting roads of an incoming road are those of its connections, in order. *)
Theorem C49_roads : forall j id,
  GetNoConnectionsFromRoadId j id = List.length (filter (fun c => (c_incoming c =? id)%N) (j_conns j)) /\
  (forall i, (i < GetNoConnectionsFromRoadId j id)%nat ->
     exists c, nth_error (filter (fun c => (c_incoming c =? id)%N) (j_conns j)) i = Some c /\ GetConnectingRoadIdFromIncomingRoadId j id i = c_connecting c) /\
  (forall i, (GetNoConnectionsFromRoadId j id <= i)%nat -> GetConnectingRoadIdFromIncomingRoadId j id i = ID_UNDEFINED).
Proof.
  intros j id. assert (E : GetNoConnectionsFromRoadId j id = List.length (filter (fun c => (c_incoming c =? id)%N) (j_conns j))) by (unfold GetNoConnectionsFromRoadId; rewrite count_from_spec; lia).
  split; [exact E|]. rewrite E. unfold GetConnectingRoadIdFromIncomingRoadId. split; intros i H; rewrite pick_from_spec by lia; rewrite Nat.sub_0_r.
  - destruct (nth_error (filter (fun c => (c_incoming c =? id)%N) (j_conns j)) i) as [c|] eqn:N; [exists c; auto|]. apply nth_error_None in N. lia.
  - rewrite (proj2 (nth_error_None _ i)) by lia. reflexivity.
Qed.

Example C49_roads_ex : GetNoConnectionsFromRoadId ex_junction 1 = 2%nat /\ GetConnectingRoadIdFromIncomingRoadId ex_junction 1 1 = 6%N /\
  GetConnectingRoadIdFromIncomingRoadId ex_junction 1 2 = ID_UNDEFINED.
Proof. repeat split. Qed.

(** Two roads are directly connected iff leaving the one leads onto the other; the contact point is the end where it is entered. *)
Theorem C49_connected : forall net this r2 t cp, GetRoad net (nr_id r2) = Some r2 ->
  (fst (IsDirectlyConnected net this (nr_id r2) t 0 cp) = true <-> exists x, leads net this t r2 x) /\
  (fst (IsDirectlyConnected net this (nr_id r2) t 0 cp) = true -> leads net this t r2 (snd (IsDirectlyConnected net this (nr_id r2) t 0 cp))) /\
  (fst (IsDirectlyConnected net this (nr_id r2) t 0 cp) = false -> snd (IsDirectlyConnected net this (nr_id r2) t 0 cp) = cp).
Proof.
  intros net this r2 t cp G. destruct (IsDirectlyConnected net this (nr_id r2) t 0 cp) as [b cp'] eqn:E. pose proof (connected_spec _ _ _ _ _ _ _ G E) as K. cbn [fst snd].
  destruct b; (split; [split|split]); intro H; try discriminate.
  - exists cp'. exact K.
  - reflexivity.
  - exact K.
  - destruct H as (x & X). exfalso. apply (proj1 K x X).
  - apply (proj2 K).
Qed.

(** Given a lane, a link from this lane is needed in addition. *)
Theorem C49_connected_lane : forall net this l j road t k cp, k <> 0%Z -> Road_GetLink this t = Some l -> rl_elem l = ELEMENT_JUNCTION -> GetJunction net (rl_id l) = Some j ->
  (fst (IsDirectlyConnected net this road t k cp) = true <->
   exists c to, In c (j_conns j) /\ c_incoming c = nr_id this /\ c_connecting c = road /\ In (k, to) (c_lanes c)).
Proof. intros net this l j road t k cp K L E J. unfold IsDirectlyConnected. rewrite L, E, J. apply direct_loop_lane, K. Qed.

Example C49_connected_ex : let r1 := ex_road 1 10 [RLink SUCCESSOR ELEMENT_JUNCTION 9 CP_JUNCTION] in
  IsDirectlyConnected ex_net r1 6 SUCCESSOR 0 CP_UNDEFINED = (true, CP_END) /\ IsDirectlyConnected ex_net r1 5 SUCCESSOR 1 CP_UNDEFINED = (true, CP_START) /\
  IsDirectlyConnected ex_net r1 2 SUCCESSOR 0 CP_UNDEFINED = (false, CP_UNDEFINED).
Proof. repeat split. Qed.

(** The contact point is written even if no connection is found for the lane. *)
Theorem C49_contact_refuted : exists net this road t k, IsDirectlyConnected net this road t k CP_UNDEFINED = (false, CP_END).
Proof. exists ex_net, (ex_road 1 10 [RLink SUCCESSOR ELEMENT_JUNCTION 9 CP_JUNCTION]), 6%N, SUCCESSOR, 1%Z. reflexivity. Qed.

(** With a direct road link the lane is not checked. *)
Theorem C49_lane_ignored_refuted : exists net this l road t k, Road_GetLink this t = Some l /\ rl_elem l = ELEMENT_ROAD /\
  fst (IsDirectlyConnected net this road t k CP_UNDEFINED) = true /\ Road_GetConnectingLaneId net this l k road = 0%Z.
Proof.
  exists ex_net, (ex_road 5 4 [RLink PREDECESSOR ELEMENT_ROAD 1 CP_END; RLink SUCCESSOR ELEMENT_ROAD 2 CP_START]), (RLink SUCCESSOR ELEMENT_ROAD 2 CP_START), 2%N, SUCCESSOR, 3%Z. repeat split.
Qed.

(** A connecting lane reported is one of a lane link: of the lane at the end of the road, or of a connection of the junction. *)
Theorem C49_lane : forall net r l k road, Road_GetConnectingLaneId net r l k road <> 0%Z ->
  exists ls lane, end_section r (rl_type l) = Some ls /\ GetLaneById ls k = Some lane /\
  ((rl_elem l = ELEMENT_ROAD /\ rl_id l = road /\ GetLink lane (rl_type l) = Some (Road_GetConnectingLaneId net r l k road)) \/
   (rl_elem l = ELEMENT_JUNCTION /\ exists j c, GetJunction net (rl_id l) = Some j /\ In c (j_conns j) /\ c_incoming c = nr_id r /\ c_connecting c = road /\
      In (k, Road_GetConnectingLaneId net r l k road) (c_lanes c))).
Proof. exact connecting_spec. Qed.

(** Through a junction it is the first such lane link. *)
Theorem C49_lane_first : forall net r l ls lane k road j, rl_id l <> ID_UNDEFINED -> end_section r (rl_type l) = Some ls -> GetLaneById ls k = Some lane ->
  rl_elem l = ELEMENT_JUNCTION -> GetJunction net (rl_id l) = Some j ->
  Road_GetConnectingLaneId net r l k road =
  match find (fun x => (lrl_road x =? road)%N) (lane_links (j_conns j) (nr_id r) k) with Some x => lrl_to x | None => 0%Z end.
Proof.
  intros net r l ls lane k road j U S G E J. unfold Road_GetConnectingLaneId. apply N.eqb_neq in U. rewrite U, S, G, E, J.
  assert (K : l_id lane = k). { apply find_some in G. destruct G as [_ G]. apply Z.eqb_eq in G. exact G. }
  rewrite K. apply connecting_first.
Qed.

Example C49_lane_ex : let r1 := ex_road 1 10 [RLink SUCCESSOR ELEMENT_JUNCTION 9 CP_JUNCTION] in
  let r5 := ex_road 5 4 [RLink PREDECESSOR ELEMENT_ROAD 1 CP_END; RLink SUCCESSOR ELEMENT_ROAD 2 CP_START] in
  Road_GetConnectingLaneId ex_net r1 (RLink SUCCESSOR ELEMENT_JUNCTION 9 CP_JUNCTION) (-1) 6 = 1%Z /\
  Road_GetConnectingLaneId ex_net r5 (RLink SUCCESSOR ELEMENT_ROAD 2 CP_START) (-1) 2 = (-1)%Z.
Proof. split; reflexivity. Qed.

(** The link of a road is the first one of its type, and the section where a link applies is the first or the last one. *)
Theorem C49_ends : forall r,
  (forall t before l after, nr_links r = before ++ l :: after -> rl_type l = t -> (forall x, In x before -> rl_type x <> t) -> Road_GetLink r t = Some l) /\
  (forall t, (forall x, In x (nr_links r) -> rl_type x <> t) -> Road_GetLink r t = None) /\
  (forall ls rest, r_sections (nr_road r) = rest ++ [ls] -> end_section r SUCCESSOR = Some ls) /\
  (forall ls rest, r_sections (nr_road r) = ls :: rest -> end_section r PREDECESSOR = Some ls).
Proof.
  intro r. assert (Q : forall a b, LinkType_eqb a b = true <-> a = b) by (intros [] []; split; (reflexivity || discriminate)).
  split; [|split; [|split]].
  - intros t before l after E T F. unfold Road_GetLink. rewrite E. clear E. induction before as [|x before IH]; cbn [app find].
    + rewrite (proj2 (Q _ _) T). reflexivity.
    + destruct (LinkType_eqb (rl_type x) t) eqn:X; [exfalso; apply (F x); [left; reflexivity|apply Q, X]|]. apply IH. intros y Y. apply F. right. exact Y.
  - intros t F. unfold Road_GetLink. destruct (find _ _) as [x|] eqn:X; [|reflexivity]. apply find_some in X. destruct X as [I X]. apply Q in X. exfalso. apply (F x I X).
  - intros ls rest E. unfold end_section. rewrite E, rev_app_distr. reflexivity.
  - intros ls rest E. unfold end_section. rewrite E. reflexivity.
Qed.

Example C49_ends_ex : let r := NRoad 3 [RLink SUCCESSOR ELEMENT_ROAD 1 CP_START; RLink SUCCESSOR ELEMENT_ROAD 2 CP_START] (Road 9 [LSec 0 4 []; LSec 4 5 []] []) in
  Road_GetLink r SUCCESSOR = Some (RLink SUCCESSOR ELEMENT_ROAD 1 CP_START) /\ Road_GetLink r PREDECESSOR = None /\ end_section r SUCCESSOR = Some (LSec 4 5 []).
Proof. repeat split. Qed.

(** The road at the other end of a connecting road. *)
Theorem C49_across : forall net c inc r, GetRoadAtOtherEndOfConnectingRoad net true c inc = Some r ->
  exists t t2 l l2, (t = PREDECESSOR /\ t2 = SUCCESSOR \/ t = SUCCESSOR /\ t2 = PREDECESSOR) /\
    Road_GetLink c t = Some l /\ rl_elem l = ELEMENT_ROAD /\ rl_id l = inc /\ Road_GetLink c t2 = Some l2 /\ rl_elem l2 = ELEMENT_ROAD /\ GetRoad net (rl_id l2) = Some r.
Proof. exact across_spec. Qed.

(** It is found unless both ends are on the same road. *)
Theorem C49_across_found : forall net c t t2 l l2, (t = PREDECESSOR /\ t2 = SUCCESSOR \/ t = SUCCESSOR /\ t2 = PREDECESSOR) ->
  Road_GetLink c t = Some l -> rl_elem l = ELEMENT_ROAD -> Road_GetLink c t2 = Some l2 -> rl_elem l2 = ELEMENT_ROAD -> rl_id l <> rl_id l2 ->
  GetRoadAtOtherEndOfConnectingRoad net true c (rl_id l) = GetRoad net (rl_id l2).
Proof. exact across_complete. Qed.

Example C49_across_ex : let r5 := ex_road 5 4 [RLink PREDECESSOR ELEMENT_ROAD 1 CP_END; RLink SUCCESSOR ELEMENT_ROAD 2 CP_START] in
  option_map nr_id (GetRoadAtOtherEndOfConnectingRoad ex_net true r5 1) = Some 2%N /\ option_map nr_id (GetRoadAtOtherEndOfConnectingRoad ex_net true r5 2) = Some 1%N.
Proof. split; reflexivity. Qed.

Print Assumptions C49_enumerate.
Print Assumptions C49_links.
Print Assumptions C49_beyond.
Print Assumptions C49_roads.
Print Assumptions C49_connected.
Print Assumptions C49_connected_lane.
Print Assumptions C49_contact_refuted.
Print Assumptions C49_lane_ignored_refuted.
Print Assumptions C49_lane.
Print Assumptions C49_lane_first.
Print Assumptions C49_across.
Print Assumptions C49_across_found.

Print Assumptions C49_ends.
