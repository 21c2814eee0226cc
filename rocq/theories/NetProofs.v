(** * Lemmas on the road network *)
From Coq Require Import NArith Lia.
From Verif Require Import QAux LaneModel IdModel NetModel.
Local Open Scope Q_scope.

Lemma LinkType_eqb_eq : forall a b, LinkType_eqb a b = true <-> a = b.
Proof. intros [] []; cbn; split; intro H; try reflexivity; try discriminate. Qed.

Lemma contact_eqb_eq : forall a b, contact_eqb a b = true <-> a = b.
Proof. intros [] []; cbn; split; intro H; try reflexivity; try discriminate. Qed.

Lemma GetRoad_id : forall net id r, GetRoad net id = Some r -> nr_id r = id.
Proof. intros net id r H. apply find_some in H. destruct H as [_ H]. apply N.eqb_eq in H. exact H. Qed.

Lemma GetRoad_own : forall net id r, GetRoad net id = Some r -> GetRoad net (nr_id r) = Some r.
Proof. intros net id r H. rewrite (GetRoad_id _ _ _ H). exact H. Qed.

Lemma GetJunction_id : forall net id j, GetJunction net id = Some j -> j_id j = id.
Proof. intros net id r H. apply find_some in H. destruct H as [_ H]. apply N.eqb_eq in H. exact H. Qed.

Lemma Road_GetLink_type : forall r t l, Road_GetLink r t = Some l -> rl_type l = t.
Proof. intros r t l H. apply find_some in H. destruct H as [_ H]. apply LinkType_eqb_eq in H. exact H. Qed.

(** ** Junctions *)

(** The connections leaving a road. *)
Definition from_road (j : junction) (id : N) : list connection := filter (fun c => (c_incoming c =? id)%N) (j_conns j).

Lemma count_from_spec : forall l id n, count_from l id n = (n + List.length (filter (fun c => (c_incoming c =? id)%N) l))%nat.
Proof. induction l as [|c l IH]; intros id n; cbn [count_from filter]; [cbn; lia|]. rewrite IH. destruct (c_incoming c =? id)%N; cbn [List.length]; lia. Qed.

Lemma pick_from_spec : forall l id i n, (n <= i)%nat ->
  pick_from l id i n = match nth_error (filter (fun c => (c_incoming c =? id)%N) l) (i - n) with Some c => c_connecting c | None => ID_UNDEFINED end.
Proof.
  induction l as [|c l IH]; intros id i n L; cbn [pick_from filter]; [destruct (i - n)%nat; reflexivity|].
  destruct (c_incoming c =? id)%N; [|apply IH; exact L].
  destruct (Nat.eqb_spec n i) as [->|Ne]; [rewrite Nat.sub_diag; reflexivity|].
  rewrite IH by lia. replace (i - n)%nat with (S (i - S n)) by lia. reflexivity.
Qed.

(** All lane links of a road's lane in a junction, in the order of the file. *)
Definition lane_links (l : list connection) (roadId : N) (laneId : Z) : list lrl :=
  flat_map (fun c => if (roadId =? c_incoming c)%N
                     then map (fun p => Lrl laneId (c_connecting c) (snd p) (c_contact c)) (filter (fun p => (laneId =? fst p)%Z) (c_lanes c))
                     else []) l.

Lemma count_lane_links_spec : forall l k n, count_lane_links l k n = (n + List.length (filter (fun p => (k =? fst p)%Z) l))%nat.
Proof. induction l as [|p l IH]; intros k n; cbn [count_lane_links filter]; [cbn; lia|]. rewrite IH. destruct (k =? fst p)%Z; cbn [List.length]; lia. Qed.

Lemma count_connections_spec : forall l id k n, count_connections l id k n = (n + List.length (lane_links l id k))%nat.
Proof.
  induction l as [|c l IH]; intros id k n; cbn [count_connections]; [cbn; lia|]. rewrite IH. unfold lane_links. cbn [flat_map]. rewrite app_length.
  destruct (id =? c_incoming c)%N; [rewrite count_lane_links_spec, map_length; lia|cbn; lia].
Qed.

Lemma pick_lane_link_spec : forall c l k i n, (n <= i)%nat ->
  let L := map (fun p => Lrl k (c_connecting c) (snd p) (c_contact c)) (filter (fun p => (k =? fst p)%Z) l) in
  pick_lane_link c l k i n = match nth_error L (i - n) with Some x => inl x | None => inr (n + List.length L)%nat end.
Proof.
  induction l as [|p l IH]; intros k i n L; cbn [pick_lane_link filter map]; [destruct (i - n)%nat; cbn; f_equal; lia|].
  destruct (k =? fst p)%Z; [|apply IH; exact L]. cbn [map].
  destruct (Nat.eqb_spec n i) as [->|Ne]; [rewrite Nat.sub_diag; reflexivity|].
  rewrite IH by lia. replace (i - n)%nat with (S (i - S n)) by lia. cbn [nth_error List.length]. destruct (nth_error _ _); [reflexivity|]. f_equal. lia.
Qed.

Lemma pick_connection_spec : forall l id k i n, (n <= i)%nat ->
  pick_connection l id k i n = match nth_error (lane_links l id k) (i - n) with Some x => x | None => lrl_default end.
Proof.
  induction l as [|c l IH]; intros id k i n L; cbn [pick_connection]; [destruct (i - n)%nat; reflexivity|].
  unfold lane_links. cbn [flat_map]. destruct (id =? c_incoming c)%N; [|cbn [app]; apply IH; exact L].
  pose proof (pick_lane_link_spec c (c_lanes c) k i n L) as P. cbv zeta in P. rewrite P.
  set (A := map _ (filter _ (c_lanes c))) in *. destruct (nth_error A (i - n)) as [x|] eqn:E.
  - rewrite nth_error_app1; [rewrite E; reflexivity|]. apply nth_error_Some. rewrite E. discriminate.
  - apply nth_error_None in E. rewrite nth_error_app2 by exact E. rewrite IH by lia. unfold lane_links. replace (i - (n + List.length A))%nat with (i - n - List.length A)%nat by lia. reflexivity.
Qed.

Lemma connecting_lane_spec : forall j id k road n i,
  connecting_lane j id k road n i =
  match find (fun x => (lrl_road x =? road)%N) (map (GetRoadConnectionByIdx j id k) (seq i n)) with Some x => lrl_to x | None => 0%Z end.
Proof.
  induction n as [|n IH]; intros i; cbn [connecting_lane seq map find]; [reflexivity|]. destruct (lrl_road _ =? road)%N; [reflexivity|]. apply IH.
Qed.

Lemma nth_ext' : forall A (a b : list A), (forall i, nth_error a i = nth_error b i) -> a = b.
Proof.
  induction a as [|x a IH]; intros [|y b] H; [reflexivity|specialize (H O); discriminate|specialize (H O); discriminate|].
  f_equal; [specialize (H O); cbn in H; congruence|]. apply IH. intros i. apply (H (S i)).
Qed.

Lemma all_by_idx : forall j id k, map (GetRoadConnectionByIdx j id k) (seq 0 (GetNumberOfRoadConnections j id k)) = lane_links (j_conns j) id k.
Proof.
  intros j id k. unfold GetNumberOfRoadConnections, GetRoadConnectionByIdx. rewrite count_connections_spec. cbn [Nat.add].
  apply nth_ext'. intros i. rewrite nth_error_map.
  destruct (Nat.ltb_spec i (List.length (lane_links (j_conns j) id k))) as [L|L].
  - rewrite (nth_error_nth' _ O) by (rewrite seq_length; exact L). rewrite seq_nth by exact L. cbn [option_map Nat.add].
    rewrite pick_connection_spec by lia. rewrite Nat.sub_0_r. destruct (nth_error (lane_links (j_conns j) id k) i) eqn:E; [reflexivity|]. apply nth_error_None in E. lia.
  - rewrite (proj2 (nth_error_None (seq 0 _) i)) by (rewrite seq_length; exact L). cbn. symmetry. apply nth_error_None. exact L.
Qed.

(** ** Which roads lead where *)

(** [leads net r t r2 cp]: leaving road [r] by its end [t] one enters road [r2] at its end [cp]. *)
Inductive leads (net : network) (r : nroad) (t : LinkType) : nroad -> contact -> Prop :=
| leads_road : forall l r2, Road_GetLink r t = Some l -> rl_elem l = ELEMENT_ROAD -> GetRoad net (rl_id l) = Some r2 -> leads net r t r2 (rl_contact l)
| leads_junction : forall l j c r2, Road_GetLink r t = Some l -> rl_elem l = ELEMENT_JUNCTION -> GetJunction net (rl_id l) = Some j ->
    In c (j_conns j) -> c_incoming c = nr_id r -> GetRoad net (c_connecting c) = Some r2 -> leads net r t r2 (c_contact c).

Lemma leads_inv : forall net r t r2 cp, leads net r t r2 cp ->
  exists l, Road_GetLink r t = Some l /\
  ((rl_elem l = ELEMENT_ROAD /\ GetRoad net (rl_id l) = Some r2 /\ rl_contact l = cp) \/
   (rl_elem l = ELEMENT_JUNCTION /\ exists j c, GetJunction net (rl_id l) = Some j /\ In c (j_conns j) /\ c_incoming c = nr_id r /\
      GetRoad net (c_connecting c) = Some r2 /\ c_contact c = cp)).
Proof.
  intros net r t r2 cp H. destruct H as [l r2' L E R|l j c r2' L E J I N R]; exists l; (split; [exact L|]); [left; auto|].
  right. split; [exact E|]. exists j, c. auto.
Qed.

(** The end a road is left by when it is entered at the other one. *)
Definition exit_end (cp : contact) : LinkType := match cp with CP_END => PREDECESSOR | _ => SUCCESSOR end.
Definition entry_end (cp : contact) : LinkType := match cp with CP_END => SUCCESSOR | _ => PREDECESSOR end.

(** [consistent net]: road links refer to existing roads and tell the end; every connection of a junction refers to an existing
    road, tells the end, and the connecting road's link at that end, and only there, points back. *)
Definition consistent (net : network) : Prop :=
  forall id r t l, GetRoad net id = Some r -> Road_GetLink r t = Some l ->
  match rl_elem l with
  | ELEMENT_ROAD => GetRoad net (rl_id l) <> None /\ (rl_contact l = CP_START \/ rl_contact l = CP_END)
  | ELEMENT_JUNCTION => forall j c, GetJunction net (rl_id l) = Some j -> In c (j_conns j) -> c_incoming c = nr_id r ->
      exists r2, GetRoad net (c_connecting c) = Some r2 /\ (c_contact c = CP_START \/ c_contact c = CP_END) /\
        let pivot := if j_direct j then j_id j else nr_id r in
        (exists k, Road_GetLink r2 (entry_end (c_contact c)) = Some k /\ rl_id k = pivot) /\
        (forall k, Road_GetLink r2 (exit_end (c_contact c)) = Some k -> rl_id k <> pivot)
  | ELEMENT_UNKNOWN => True
  end.

Lemma leads_ends : forall net id r t r2 cp, consistent net -> GetRoad net id = Some r -> leads net r t r2 cp -> cp = CP_START \/ cp = CP_END.
Proof.
  intros net id r t r2 cp C G [l r2' L E R|l j c r2' L E J I N R]; pose proof (C _ _ _ _ G L) as K; rewrite E in K; [tauto|].
  destruct (K j c J I N) as (x & _ & K2 & _). exact K2.
Qed.

Lemma leads_exists : forall net r t r2 cp, leads net r t r2 cp -> GetRoad net (nr_id r2) = Some r2.
Proof. intros net r t r2 cp [l r2' L E R|l j c r2' L E J I N R]; apply (GetRoad_own _ _ _ R). Qed.

(** ** IsDirectlyConnected *)

Lemma direct_loop_spec : forall l this road cp b cp', direct_loop l this road 0 cp = (b, cp') ->
  if b then exists c, In c l /\ c_incoming c = this /\ c_connecting c = road /\ c_contact c = cp'
  else (forall c, In c l -> c_incoming c = this -> c_connecting c <> road) /\ cp' = cp.
Proof.
  induction l as [|c l IH]; intros this road cp b cp' H; cbn [direct_loop] in H.
  - injection H as <- <-. split; [intros c []|reflexivity].
  - destruct ((c_incoming c =? this)%N && (c_connecting c =? road)%N) eqn:E.
    + cbn [Z.eqb orb] in H. injection H as <- <-. apply andb_true_iff in E. destruct E as [E1 E2]. apply N.eqb_eq in E1, E2.
      exists c. split; [left; reflexivity|]. auto.
    + apply IH in H. destruct b.
      * destruct H as (x & I & H). exists x. split; [right; exact I|exact H].
      * destruct H as [H ->]. split; [|reflexivity]. intros x [->|I] E1; [|apply H; assumption].
        intros E2. rewrite E1, E2, !N.eqb_refl in E. discriminate.
Qed.

Lemma connected_spec : forall net this r2 t cp b cp', GetRoad net (nr_id r2) = Some r2 -> IsDirectlyConnected net this (nr_id r2) t 0 cp = (b, cp') ->
  if b then leads net this t r2 cp' else (forall x, ~ leads net this t r2 x) /\ cp' = cp.
Proof.
  intros net this r2 t cp b cp' G H. unfold IsDirectlyConnected in H. destruct (Road_GetLink this t) as [l|] eqn:L.
  2: { injection H as <- <-. split; [|reflexivity]. intros x H0; apply leads_inv in H0; destruct H0 as (l' & L' & [(E' & R & _)|(E' & j' & c & J' & I & N & R & _)]); congruence. }
  destruct (rl_elem l) eqn:E.
  - injection H as <- <-. split; [|reflexivity]. intros x H0; apply leads_inv in H0; destruct H0 as (l' & L' & [(E' & R & _)|(E' & j' & c & J' & I & N & R & _)]); congruence.
  - destruct (N.eqb_spec (rl_id l) (nr_id r2)) as [Eq|Ne]; injection H as <- <-.
    + apply leads_road; [exact L|exact E|]. rewrite Eq. exact G.
    + split; [|reflexivity]. intros x H0; apply leads_inv in H0; destruct H0 as (l' & L' & [(E' & R & _)|(E' & j' & c & J' & I & N & R & _)]); [|congruence].
      assert (l' = l) by congruence. subst. apply GetRoad_id in R. congruence.
  - destruct (GetJunction net (rl_id l)) as [j|] eqn:J.
    + apply direct_loop_spec in H. destruct b.
      * destruct H as (c & I & N & R & <-). eapply leads_junction; eauto. rewrite R. exact G.
      * destruct H as [H ->]. split; [|reflexivity]. intros x H0; apply leads_inv in H0; destruct H0 as (l' & L' & [(E' & R & _)|(E' & j' & c & J' & I & N & R & _)]); [congruence|].
        assert (l' = l) by congruence. subst. assert (j' = j) by congruence. subst. apply (H c I N). apply GetRoad_id in R. congruence.
    + injection H as <- <-. split; [|reflexivity]. intros x H0; apply leads_inv in H0; destruct H0 as (l' & L' & [(E' & R & _)|(E' & j' & c & J' & I & N & R & _)]); [congruence|].
      assert (l' = l) by congruence. subst. congruence.
Qed.

Lemma either_spec : forall net this r2 b cp', GetRoad net (nr_id r2) = Some r2 -> IsSuccessorOrPredecessor net this (nr_id r2) 0 CP_UNDEFINED = (b, cp') ->
  if b then leads net this SUCCESSOR r2 cp' \/ leads net this PREDECESSOR r2 cp' else forall x, ~ leads net this SUCCESSOR r2 x /\ ~ leads net this PREDECESSOR r2 x.
Proof.
  intros net this r2 b cp' G H. unfold IsSuccessorOrPredecessor in H.
  destruct (IsDirectlyConnected net this (nr_id r2) SUCCESSOR 0 CP_UNDEFINED) as [b1 cp1] eqn:S. apply (connected_spec _ _ _ _ _ _ _ G) in S.
  destruct b1.
  - injection H as <- <-. left. exact S.
  - destruct S as [S ->]. apply (connected_spec _ _ _ _ _ _ _ G) in H. destruct b; [right; exact H|]. destruct H as [H _]. intros x. split; [apply S|apply H].
Qed.

(** ** IsDirectlyConnected with a lane *)

Lemma direct_loop_lane : forall l this road k cp, k <> 0%Z ->
  fst (direct_loop l this road k cp) = true <-> exists c to, In c l /\ c_incoming c = this /\ c_connecting c = road /\ In (k, to) (c_lanes c).
Proof.
  induction l as [|c l IH]; intros this road k cp K; cbn [direct_loop].
  - split; [discriminate|intros (c & to & [] & _)].
  - apply Z.eqb_neq in K. rewrite K. apply Z.eqb_neq in K. cbn [orb].
    destruct ((c_incoming c =? this)%N && (c_connecting c =? road)%N) eqn:E.
    + apply andb_true_iff in E. destruct E as [E1 E2]. apply N.eqb_eq in E1, E2. destruct (existsb _ (c_lanes c)) eqn:X.
      * cbn [fst]. split; [intros _|reflexivity]. apply existsb_exists in X. destruct X as ([a to] & I & X). apply Z.eqb_eq in X. cbn in X. subst a. exists c, to. split; [left; reflexivity|]. auto.
      * rewrite IH by exact K. split; intros (c' & to & I & H); exists c', to; [split; [right; exact I|exact H]|]. destruct I as [<-|I]; [|split; [exact I|exact H]].
        exfalso. destruct H as (_ & _ & H). assert (existsb (fun p => (fst p =? k)%Z) (c_lanes c) = true) by (apply existsb_exists; exists (k, to); split; [exact H|apply Z.eqb_refl]). congruence.
    + rewrite IH by exact K. split; intros (c' & to & I & H); exists c', to; [split; [right; exact I|exact H]|]. destruct I as [<-|I]; [|split; [exact I|exact H]].
      exfalso. destruct H as (H1 & H2 & _). rewrite H1, H2, !N.eqb_refl in E. discriminate.
Qed.

(** ** Connecting lanes *)

Lemma lane_links_in : forall l id k x, In x (lane_links l id k) <->
  exists c to, In c l /\ c_incoming c = id /\ In (k, to) (c_lanes c) /\ x = Lrl k (c_connecting c) to (c_contact c).
Proof.
  intros l id k x. unfold lane_links. rewrite in_flat_map. split.
  - intros (c & I & H). destruct (N.eqb_spec id (c_incoming c)) as [E|E]; [|destruct H]. apply in_map_iff in H. destruct H as ([a to] & <- & H).
    apply filter_In in H. destruct H as [H1 H2]. cbn in H2. apply Z.eqb_eq in H2. subst a. exists c, to. cbn. auto.
  - intros (c & to & I & <- & H & ->). exists c. split; [exact I|]. rewrite N.eqb_refl. apply in_map_iff. exists (k, to). split; [reflexivity|].
    apply filter_In. split; [exact H|]. apply Z.eqb_refl.
Qed.

Lemma connecting_first : forall j id k road,
  connecting_lane j id k road (GetNumberOfRoadConnections j id k) 0 =
  match find (fun x => (lrl_road x =? road)%N) (lane_links (j_conns j) id k) with Some x => lrl_to x | None => 0%Z end.
Proof. intros j id k road. rewrite connecting_lane_spec, all_by_idx. reflexivity. Qed.

Lemma connecting_spec : forall net r l k road, Road_GetConnectingLaneId net r l k road <> 0%Z ->
  exists ls lane, end_section r (rl_type l) = Some ls /\ GetLaneById ls k = Some lane /\
  ((rl_elem l = ELEMENT_ROAD /\ rl_id l = road /\ GetLink lane (rl_type l) = Some (Road_GetConnectingLaneId net r l k road)) \/
   (rl_elem l = ELEMENT_JUNCTION /\ exists j c, GetJunction net (rl_id l) = Some j /\ In c (j_conns j) /\ c_incoming c = nr_id r /\ c_connecting c = road /\
      In (k, Road_GetConnectingLaneId net r l k road) (c_lanes c))).
Proof.
  intros net r l k road H. unfold Road_GetConnectingLaneId in *. destruct (rl_id l =? ID_UNDEFINED)%N; [congruence|].
  destruct (end_section r (rl_type l)) as [ls|]; [|congruence]. destruct (GetLaneById ls k) as [lane|] eqn:G; [|congruence]. exists ls, lane. split; [reflexivity|]. split; [exact G|].
  assert (K : l_id lane = k). { apply find_some in G. destruct G as [_ G]. apply Z.eqb_eq in G. exact G. }
  destruct (rl_elem l); [congruence| |].
  - left. split; [reflexivity|]. destruct (N.eqb_spec (rl_id l) road) as [E|E]; cbn [negb] in *; [|congruence]. split; [exact E|]. destruct (GetLink lane (rl_type l)); congruence.
  - right. split; [reflexivity|]. destruct (GetJunction net (rl_id l)) as [j|]; [|congruence]. rewrite K, connecting_first in *.
    destruct (find _ (lane_links _ _ _)) as [x|] eqn:F; [|congruence]. apply find_some in F. destruct F as [I E]. apply N.eqb_eq in E. apply lane_links_in in I.
    destruct I as (c & to & I & Ic & Il & ->). cbn [lrl_road lrl_to] in *. exists j, c. auto.
Qed.

(** ** The road at the other end *)

Lemma other_end_spec : forall net c inc t t2 r, other_end net c inc t t2 = Some r ->
  exists l l2, Road_GetLink c t = Some l /\ rl_elem l = ELEMENT_ROAD /\ rl_id l = inc /\ Road_GetLink c t2 = Some l2 /\ rl_elem l2 = ELEMENT_ROAD /\ r = GetRoad net (rl_id l2).
Proof.
  intros net c inc t t2 r H. unfold other_end in H. destruct (Road_GetLink c t) as [[a e id cp]|]; [|discriminate]. destruct e; try discriminate.
  destruct (N.eqb_spec id inc) as [E|E]; [|discriminate]. destruct (Road_GetLink c t2) as [[a2 e2 id2 cp2]|]; [|discriminate]. destruct e2; try discriminate. injection H as <-.
  do 2 eexists. split; [reflexivity|]. cbn. auto 6.
Qed.

Lemma across_spec : forall net c inc r, GetRoadAtOtherEndOfConnectingRoad net true c inc = Some r ->
  exists t t2 l l2, (t = PREDECESSOR /\ t2 = SUCCESSOR \/ t = SUCCESSOR /\ t2 = PREDECESSOR) /\
    Road_GetLink c t = Some l /\ rl_elem l = ELEMENT_ROAD /\ rl_id l = inc /\ Road_GetLink c t2 = Some l2 /\ rl_elem l2 = ELEMENT_ROAD /\ GetRoad net (rl_id l2) = Some r.
Proof.
  intros net c inc r H. unfold GetRoadAtOtherEndOfConnectingRoad in H. cbn [negb] in H.
  destruct (other_end net c inc PREDECESSOR SUCCESSOR) as [x|] eqn:A.
  - apply other_end_spec in A. destruct A as (l & l2 & A). exists PREDECESSOR, SUCCESSOR, l, l2. split; [left; auto|]. intuition congruence.
  - destruct (other_end net c inc SUCCESSOR PREDECESSOR) as [x|] eqn:B; [|discriminate]. apply other_end_spec in B. destruct B as (l & l2 & B).
    exists SUCCESSOR, PREDECESSOR, l, l2. split; [right; auto|]. intuition congruence.
Qed.

Lemma across_complete : forall net c t t2 l l2, (t = PREDECESSOR /\ t2 = SUCCESSOR \/ t = SUCCESSOR /\ t2 = PREDECESSOR) ->
  Road_GetLink c t = Some l -> rl_elem l = ELEMENT_ROAD -> Road_GetLink c t2 = Some l2 -> rl_elem l2 = ELEMENT_ROAD -> rl_id l <> rl_id l2 ->
  GetRoadAtOtherEndOfConnectingRoad net true c (rl_id l) = GetRoad net (rl_id l2).
Proof.
  intros net c t t2 [a e id cp] [a2 e2 id2 cp2] T L E L2 E2 Ne. cbn [rl_elem rl_id] in *. subst e e2. unfold GetRoadAtOtherEndOfConnectingRoad, other_end. cbn [negb].
  destruct T as [[-> ->]|[-> ->]]; rewrite L, L2, N.eqb_refl; [reflexivity|]. apply not_eq_sym, N.eqb_neq in Ne. rewrite Ne. reflexivity.
Qed.
