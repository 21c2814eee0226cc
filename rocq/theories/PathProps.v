(** * The path search: the theorems *)
From Coq Require Import NArith Lia.
From Verif Require Import QAux LaneModel IdModel NetModel NetProofs PathModel PathProofs.
Local Open Scope Q_scope.

(** ** C33 *)

(** Without [bothDirections] the search sets off in the direction the vehicle faces, otherwise in both; the distance to the end of the
    road is what remains of it. *)
Theorem C33_start : forall r p both,
  (forall n, In n (start_nodes r p both) -> pn_from n = r /\ Road_GetLink r (rl_type (pn_link n)) = Some (pn_link n) /\ departs p both (rl_type (pn_link n)) /\
     pn_dist n = to_end r (pp_s p) (rl_type (pn_link n)) /\ pn_prev n = []) /\
  (forall t, departs p both t -> Road_GetLink r t <> None -> exists n, In n (start_nodes r p both) /\ rl_type (pn_link n) = t).
Proof. intros r p both. split; [apply start_nodes_spec|apply start_nodes_all]. Qed.

(** On one road the distance is the difference in s, positive if the target is in front of the vehicle. *)
Theorem C33_same : forall net start target both maxDist dist r, GetRoad net (pp_track start) = Some r -> pp_track target = pp_track start ->
  exists D, Calculate net start target both maxDist dist = Some (0%Z, D, None) /\ Qabs D == Qabs (pp_s target - pp_s start) /\
  (pp_h start < M_PI_2 \/ 3 * M_PI_2 < pp_h start -> D == pp_s target - pp_s start) /\
  (M_PI_2 < pp_h start /\ pp_h start < 3 * M_PI_2 -> D == pp_s start - pp_s target).
Proof.
  intros net start target both maxDist dist r G E. exists (same_road start (pp_s target)). split.
  - unfold Calculate. rewrite E, G, N.eqb_refl. reflexivity.
  - destruct (same_road_spec start (pp_s target)) as (A & B & C). auto.
Qed.

(** Unknown roads are reported. *)
Theorem C33_unknown : forall net start target both maxDist dist, GetRoad net (pp_track start) = None \/ GetRoad net (pp_track target) = None ->
  Calculate net start target both maxDist dist = Some ((-2)%Z, dist, None).
Proof. intros net start target both maxDist dist [H|H]; unfold Calculate; rewrite H; [reflexivity|]. destruct (GetRoad net (pp_track start)); reflexivity. Qed.

(** On a consistent network the search ends regularly, whatever the positions. *)
Theorem C33_total : forall net start target both maxDist dist sr tr, consistent net -> (forall id r, GetRoad net id = Some r -> 0 <= Length r) -> single net tr ->
  GetRoad net (pp_track start) = Some sr -> GetRoad net (pp_track target) = Some tr -> 0 <= pp_s start <= Length sr -> maxDist <= LARGE ->
  exists code D last, Calculate net start target both maxDist dist = Some (code, D, last) /\ (code = 0%Z \/ code = (-1)%Z /\ D == 0).
Proof. exact calc_total. Qed.

(** A distance found is the length of a route over connected roads and lanes from the start to the target road and on it to the target.  It is positive iff the
    route sets off to the front of a vehicle facing in the driving direction, or to the back of one facing against it. *)
Theorem C33_route : forall net start target both maxDist dist sr tr D last, consistent net -> (forall id r, GetRoad net id = Some r -> 0 <= Length r) -> single net tr ->
  GetRoad net (pp_track start) = Some sr -> GetRoad net (pp_track target) = Some tr -> 0 <= pp_s start <= Length sr -> maxDist <= LARGE -> nr_id sr <> nr_id tr ->
  Calculate net start target both maxDist dist = Some (0%Z, D, last) ->
  exists r t k d t0 cp g, route net (start_nodes sr start both) r t k d (nr_id sr, t0) /\ departs start both t0 /\ leads net r t tr cp /\
    (g == 1 \/ g == - (1)) /\ (g == 1 <-> (ahead (pp_h start) t0 <-> ~ against_lane start)) /\ D == g * (d + rest tr (pp_s target) cp).
Proof.
  intros net start target both maxDist dist sr tr D last cons len sgl S T on Mx Ne H.
  destruct (calc_spec net start target both maxDist dist sr tr cons len sgl S T on Mx Ne) as (c & D' & l & E & [(-> & n & -> & (t & cp & g & R) & _)|(-> & _)]); rewrite H in E; [|discriminate].
  injection E as <- _. do 6 eexists. exists g. exact R.
Qed.

(** No route gets to the target road earlier, if all lanes in which a road end is reached continue on the same roads; so that no route to the target is shorter by more than the length of the target
    road, and none is shorter at all if it enters the target road at the same end. *)
Theorem C33_shortest_partial : forall net start target both maxDist dist sr tr D last, consistent net -> (forall id r, GetRoad net id = Some r -> 0 <= Length r) -> single net tr ->
  GetRoad net (pp_track start) = Some sr -> GetRoad net (pp_track target) = Some tr -> 0 <= pp_s start <= Length sr -> maxDist <= LARGE -> nr_id sr <> nr_id tr ->
  0 <= pp_s target <= Length tr -> lane_open net (start_nodes sr start both) ->
  Calculate net start target both maxDist dist = Some (0%Z, D, last) ->
  exists cp0, forall r t k d f cp, route net (start_nodes sr start both) r t k d f -> leads net r t tr cp -> d < LARGE ->
    Qabs D <= d + rest tr (pp_s target) cp0 /\ Qabs D <= d + Length tr /\ (cp = cp0 -> Qabs D <= d + rest tr (pp_s target) cp).
Proof.
  intros net start target both maxDist dist sr tr D last cons len sgl S T on Mx Ne ot O H.
  destruct (calc_spec net start target both maxDist dist sr tr cons len sgl S T on Mx Ne) as (c & D' & l & E & [(-> & n & -> & K & Opt)|(-> & _)]); rewrite H in E; [|discriminate].
  injection E as <- ->. destruct K as (t0 & cp0 & g & R & Dp & Ld & G & Gs & ED). exists cp0. intros r t k d f cp R' Ld' L.
  assert (P : pn_dist n <= d) by (destruct (Opt O _ _ _ _ _ _ R' Ld'); lra).
  pose proof (route_nonneg net start both sr len S on _ _ _ _ _ R) as P0.
  assert (B : 0 <= rest tr (pp_s target) cp0 <= Length tr) by (unfold rest; destruct cp0; lra).
  assert (A : Qabs D == pn_dist n + rest tr (pp_s target) cp0).
  { rewrite ED, Qabs_Qmult. assert (Q1 : Qabs g == 1) by (destruct G as [G|G]; rewrite G; reflexivity). rewrite Q1, Qabs_pos by lra. lra. }
  split; [lra|]. split; [lra|]. intros ->. lra.
Qed.

(** If nothing is found, no route gets to the target road within [maxDist], or the search gave up after its 100 rounds. *)
Theorem C33_none_partial : forall net start target both maxDist dist sr tr D last, consistent net -> (forall id r, GetRoad net id = Some r -> 0 <= Length r) -> single net tr ->
  GetRoad net (pp_track start) = Some sr -> GetRoad net (pp_track target) = Some tr -> 0 <= pp_s start <= Length sr -> maxDist <= LARGE -> nr_id sr <> nr_id tr ->
  lane_open net (start_nodes sr start both) ->
  Calculate net start target both maxDist dist = Some ((-1)%Z, D, last) ->
  (forall r t k d f cp, route net (start_nodes sr start both) r t k d f -> leads net r t tr cp -> maxDist <= d) \/
  (exists unv vis tmp, search_loop net tr (pp_s target) maxDist 100 (start_nodes sr start both) [] 0 false = Some (Done unv vis tmp false) /\ List.length vis = 100%nat).
Proof.
  intros net start target both maxDist dist sr tr D last cons len sgl S T on Mx Ne O H.
  destruct (calc_spec net start target both maxDist dist sr tr cons len sgl S T on Mx Ne) as (c & D' & l & E & [(-> & _)|(-> & _ & K)]); rewrite H in E; [discriminate|].
  destruct K as [K|K]; [left; exact (K O)|right; exact K].
Qed.

(** *** Examples *)

Definition pr_lane (k : Z) : lane := Lane k 2 [(SUCCESSOR, k); (PREDECESSOR, k)] [] [].
Definition pr_road (id : N) (len : Q) (links : list rlink) : nroad := NRoad id links (Road len [LSec 0 len [pr_lane 1; pr_lane 0; pr_lane (-1)]] []).
Definition to_road (t : LinkType) (id : N) (cp : contact) : rlink := RLink t ELEMENT_ROAD id cp.

(** Road 1 between roads 3 (succeeding) and 2 (preceding); both lead to the long road 4, to its start and to its end. *)
Definition r1 := pr_road 1 10 [to_road PREDECESSOR 2 CP_END; to_road SUCCESSOR 3 CP_START].
Definition r2 := pr_road 2 1 [to_road PREDECESSOR 4 CP_END; to_road SUCCESSOR 1 CP_START].
Definition r3 := pr_road 3 1 [to_road PREDECESSOR 1 CP_END; to_road SUCCESSOR 4 CP_START].
Definition r4 := pr_road 4 1000 [to_road PREDECESSOR 3 CP_END; to_road SUCCESSOR 2 CP_START].
Definition around : network := Network [r1; r2; r3; r4] [].
Definition here : ppos := PPos 1 (-1) 6 0 0.

Ltac roads G := apply find_some in G; destruct G as [G _]; cbn in G; repeat (destruct G as [<-|G]; [|]); [..|destruct G].

Lemma around_ok : consistent around /\ (forall id r, GetRoad around id = Some r -> 0 <= Length r) /\ single around r4.
Proof.
  split; [|split].
  - intros id r t l G L. roads G; apply find_some in L; destruct L as [L _]; cbn in L; destruct L as [<-|[<-|[]]]; cbn; (split; [discriminate|auto]).
  - intros id r G. roads G; discriminate.
  - split; [|intros j id; cbn; unfold from_road].
    + intros id r t1 t2 cp1 cp2 G L1 L2. apply leads_inv in L1, L2. destruct L1 as (l1 & A1 & [(B1 & C1 & D1)|(B1 & j1 & c1 & C1 & _)]); [|discriminate].
      destruct L2 as (l2 & A2 & [(B2 & C2 & D2)|(B2 & j2 & c2 & C2 & _)]); [|discriminate].
      apply GetRoad_id in C1, C2. roads G; apply find_some in A1, A2; destruct A1 as [A1 _], A2 as [A2 _]; cbn in A1, A2; destruct A1 as [<-|[<-|[]]], A2 as [<-|[<-|[]]]; cbn in *; congruence.
    + intros H. discriminate.
Qed.

Lemma around_lane : forall both r t k d f, route around (start_nodes r1 here both) r t k d f -> k = (-1)%Z /\ In r [r1; r2; r3; r4].
Proof.
  intros both r t k d f R. induction R as [n I|r t k d f l x cp k2 R IH Ld Lk Ek Z Ex].
  - destruct both; cbn in I; [destruct I as [<-|[<-|[]]]|destruct I as [<-|[]]]; cbn; auto.
  - destruct IH as [-> IH]. apply leads_inv in Ld. destruct Ld as (l' & A & [(B & C & D)|(B & j & c & C & _)]); [|discriminate]. assert (l' = l) by congruence. subst l'. clear Lk.
    subst k2. clear Z. destruct IH as [<-|[<-|[<-|[<-|[]]]]]; apply find_some in A; destruct A as [A _]; cbn in A; destruct A as [<-|[<-|[]]]; injection C as <-; cbn in D; subst cp; (split; [reflexivity|cbn; auto]).
Qed.

Lemma around_open : forall both, lane_open around (start_nodes r1 here both).
Proof. intros both r t k d f k' d' f' l x cp R R' Ld Lk Z. apply around_lane in R, R'. destruct R as [-> _], R' as [-> _]. exact Z. Qed.

Example C33_ex : consistent around /\ single around r4 /\ lane_open around (start_nodes r1 here true) /\
  (exists last, Calculate around here (PPos 4 (-1) 2 0 0) true LARGE 0 = Some (0%Z, 7, last)) /\
  (exists last, Calculate around (PPos 1 (-1) 6 3 0) (PPos 4 (-1) 998 0 0) false LARGE 0 = Some (0%Z, 9, last)) /\
  (exists D last, Calculate around here (PPos 4 (-1) 2 0 0) true 3 0 = Some ((-1)%Z, D, last)).
Proof.
  split; [apply around_ok|]. split; [apply around_ok|]. split; [apply around_open|]. split; [|split]; do 2 try eexists; vm_compute; reflexivity.
Qed.

Example C33_same_ex : Calculate around here (PPos 1 (-1) 8 0 0) true LARGE 0 = Some (0%Z, 2, None) /\
  exists D, Calculate around (PPos 1 (-1) 6 3 0) (PPos 1 (-1) 8 0 0) true LARGE 0 = Some (0%Z, D, None) /\ D == - (2).
Proof. split; [reflexivity|]. eexists. split; [vm_compute; reflexivity|reflexivity]. Qed.

Example C33_unknown_ex : Calculate around here (PPos 7 (-1) 8 0 0) true LARGE 5 = Some ((-2)%Z, 5, None).
Proof. reflexivity. Qed.

Example C33_start_ex : map pn_dist (start_nodes r1 here true) = [6; 4] /\ map pn_dist (start_nodes r1 here false) = [4] /\ map pn_dist (start_nodes r1 (PPos 1 (-1) 6 3 0) false) = [6].
Proof. repeat split. Qed.

(** *** What does not hold *)

(** The distance is not always the shortest: the search stops when the target road is met first, though its other end is closer to the target. *)
Theorem C33_shortest_refuted : exists net start target sr tr D last, consistent net /\ (forall id r, GetRoad net id = Some r -> 0 <= Length r) /\ single net tr /\
  GetRoad net (pp_track start) = Some sr /\ GetRoad net (pp_track target) = Some tr /\ lane_open net (start_nodes sr start true) /\
  Calculate net start target true LARGE 0 = Some (0%Z, D, last) /\ D == 1004 /\
  exists r t k d f cp, route net (start_nodes sr start true) r t k d f /\ leads net r t tr cp /\ d + rest tr (pp_s target) cp == 8.
Proof.
  exists around, here, (PPos 4 (-1) 999 0 0), r1, r4. do 2 eexists. destruct around_ok as (A & B & C). split; [exact A|]. split; [exact B|]. split; [exact C|]. split; [reflexivity|]. split; [reflexivity|].
  split; [apply around_open|]. split; [vm_compute; reflexivity|]. split; [reflexivity|].
  destruct (arrives_sound around (start_nodes r1 here true) 0 [(2%N, CP_END)] 4 CP_END 7 r4 eq_refl) as (r & t & k & f & R & L); [vm_compute; reflexivity|].
  exists r, t, k, 7, f, CP_END. split; [exact R|]. split; [exact L|]. reflexivity.
Qed.

(** A road link to a road that does not exist is followed through a null pointer. *)
Theorem C33_null_refuted : exists net start target sr tr, GetRoad net (pp_track start) = Some sr /\ GetRoad net (pp_track target) = Some tr /\
  Calculate net start target false LARGE 0 = None.
Proof.
  exists (Network [pr_road 1 10 [to_road SUCCESSOR 7 CP_START]; r4] []), here, (PPos 4 (-1) 5 0 0). do 2 eexists. repeat split.
Qed.

(** The search gives up after 100 rounds: no distance along a chain of 102 roads. *)
Definition chain_road (i : nat) : nroad := pr_road (N.of_nat i) 1 [to_road SUCCESSOR (N.of_nat (S i)) CP_START].
Definition chain : network := Network (map chain_road (seq 1 102)) [].
Theorem C33_rounds_refuted : exists net start target sr tr D last, GetRoad net (pp_track start) = Some sr /\ GetRoad net (pp_track target) = Some tr /\
  Calculate net start target false LARGE 0 = Some ((-1)%Z, D, last) /\
  exists r t k d f cp, route net (start_nodes sr start false) r t k d f /\ leads net r t tr cp /\ d + rest tr (pp_s target) cp == 101.
Proof.
  exists chain, (PPos 1 (-1) 0 0 0), (PPos 102 (-1) 0 0 0), (chain_road 1), (chain_road 102). do 2 eexists. split; [reflexivity|]. split; [reflexivity|].
  split; [vm_compute; reflexivity|].
  destruct (arrives_sound chain (start_nodes (chain_road 1) (PPos 1 (-1) 0 0 0) false) 0 (map (fun i => (N.of_nat i, CP_START)) (seq 2 100)) 102 CP_START 101 (chain_road 102) eq_refl) as (r & t & k & f & R & L); [vm_compute; reflexivity|].
  exists r, t, k, 101, f, CP_START. split; [exact R|]. split; [exact L|]. reflexivity.
Qed.

(** Two connections of a junction to the target road: the way on it is added twice. *)
Definition twice : network := Network
  [pr_road 1 10 [RLink SUCCESSOR ELEMENT_JUNCTION 9 CP_JUNCTION]; pr_road 5 30 [to_road PREDECESSOR 1 CP_END]]
  [Junction 9 false [Connection 1 5 CP_START [((-1)%Z, (-1)%Z)]; Connection 1 5 CP_START [((-2)%Z, (-2)%Z)]]].
Theorem C33_twice_refuted : exists net start target D last, consistent net /\
  Calculate net start target false LARGE 0 = Some (0%Z, D, last) /\ D == 24 /\
  exists r t k d f tr cp, GetRoad net (pp_track target) = Some tr /\ route net (start_nodes (pr_road 1 10 [RLink SUCCESSOR ELEMENT_JUNCTION 9 CP_JUNCTION]) start false) r t k d f /\
    leads net r t tr cp /\ d + rest tr (pp_s target) cp == 14.
Proof.
  exists twice, here, (PPos 5 (-1) 10 0 0). do 2 eexists. split.
  { intros id r t l G L. roads G; apply find_some in L; destruct L as [L _]; cbn in L; destruct L as [<-|[]]; cbn [rl_elem to_road].
    - intros j c J I _. cbn in J. injection J as <-. cbn in I. destruct I as [<-|[<-|[]]]; (eexists; split; [reflexivity|]; split; [left; reflexivity|]; cbn; split; [eexists; split; reflexivity|intros k X; discriminate]).
    - split; [discriminate|auto]. }
  split; [vm_compute; reflexivity|]. split; [reflexivity|].
  destruct (arrives_sound twice (start_nodes (pr_road 1 10 [RLink SUCCESSOR ELEMENT_JUNCTION 9 CP_JUNCTION]) here false) 0 [] 5 CP_START 4 (pr_road 5 30 [to_road PREDECESSOR 1 CP_END]) eq_refl) as (r & t & k & f & R & L); [vm_compute; reflexivity|].
  exists r, t, k, 4, f, (pr_road 5 30 [to_road PREDECESSOR 1 CP_END]), CP_START. split; [reflexivity|]. split; [exact R|]. split; [exact L|]. reflexivity.
Qed.

(** The sign depends on whether the target is on the own road: a vehicle facing against the driving direction, the target behind it; just before
    the end of the own road the distance is negative, just after it positive. *)
Theorem C33_sign_refuted : exists net start t1 t2 D1 D2 last, Calculate net start t1 true LARGE 0 = Some (0%Z, D1, None) /\ Calculate net start t2 true LARGE 0 = Some (0%Z, D2, last) /\
  M_PI_2 < pp_h start < 3 * M_PI_2 /\ M_PI_2 < pp_hd start < 3 * M_PI_2 /\ pp_track t1 = pp_track start /\ D1 == - (4) /\ D2 == 4.
Proof.
  exists around, (PPos 1 (-1) 6 3 3), (PPos 1 (-1) 10 0 0), (PPos 3 (-1) 0 0 0). do 3 eexists. split; [vm_compute; reflexivity|]. split; [vm_compute; reflexivity|].
  split; [split; reflexivity|]. split; [split; reflexivity|]. split; [reflexivity|]. split; reflexivity.
Qed.

(** A lane that is not continued hides another lane that is: road 4 is first reached in lane -2, which ends, later in lane -1. *)
Definition two_lanes (links : list (LinkType * Z)) : list lane := [Lane 0 1 [] [] []; Lane (-1) 2 [(SUCCESSOR, (-1)%Z)] [] []; Lane (-2) 2 links [] []].
Definition lanes_road (id : N) (len : Q) (l : list rlink) (links : list (LinkType * Z)) : nroad := NRoad id l (Road len [LSec 0 len (two_lanes links)] []).
Definition h1 : nroad := lanes_road 1 10 [RLink SUCCESSOR ELEMENT_JUNCTION 9 CP_JUNCTION] [].
Definition h2 : nroad := lanes_road 2 1 [to_road PREDECESSOR 1 CP_END; to_road SUCCESSOR 4 CP_START] [(SUCCESSOR, (-2)%Z)].
Definition h3 : nroad := lanes_road 3 20 [to_road PREDECESSOR 1 CP_END; to_road SUCCESSOR 4 CP_START] [].
Definition h4 : nroad := lanes_road 4 1 [to_road SUCCESSOR 5 CP_START] [].
Definition h5 : nroad := lanes_road 5 1 [to_road PREDECESSOR 4 CP_END; to_road SUCCESSOR 6 CP_START] [].
Definition h6 : nroad := lanes_road 6 10 [to_road PREDECESSOR 5 CP_END] [].
Definition hidden : network := Network [h1; h2; h3; h4; h5; h6]
  [Junction 9 false [Connection 1 2 CP_START [((-1)%Z, (-2)%Z)]; Connection 1 3 CP_START [((-1)%Z, (-1)%Z)]]].
Theorem C33_lane_refuted : exists net start target D last sr tr, consistent net /\ (forall id r, GetRoad net id = Some r -> 0 <= Length r) /\
  GetRoad net (pp_track start) = Some sr /\ GetRoad net (pp_track target) = Some tr /\
  Calculate net start target false LARGE 0 = Some ((-1)%Z, D, last) /\
  exists r t k d f cp, route net (start_nodes sr start false) r t k d f /\ leads net r t tr cp /\ d + rest tr (pp_s target) cp == 31.
Proof.
  exists hidden, here, (PPos 6 (-1) 5 0 0). do 2 eexists. exists h1, h6. split; [|split].
  { intros id r t l G L. roads G; apply find_some in L; destruct L as [L _]; cbn in L; repeat (destruct L as [<-|L]; [|]); try destruct L; cbn [rl_elem to_road]; try (split; [discriminate|auto; fail]).
    intros j c J I _. cbn in J. injection J as <-. cbn in I. destruct I as [<-|[<-|[]]]; (eexists; split; [reflexivity|]; split; [left; reflexivity|]; cbn; split; [eexists; split; reflexivity|intros k X; injection X as <-; discriminate]). }
  { intros id r G. roads G; discriminate. }
  split; [reflexivity|]. split; [reflexivity|]. split; [vm_compute; reflexivity|].
  destruct (arrives_sound hidden (start_nodes h1 here false) 0 [(3%N, CP_START); (4%N, CP_START); (5%N, CP_START)] 6 CP_START 26 h6 eq_refl) as (r & t & k & f & R & L); [vm_compute; reflexivity|].
  exists r, t, k, 26, f, CP_START. split; [exact R|]. split; [exact L|]. reflexivity.
Qed.

Print Assumptions C33_start.
Print Assumptions C33_same.
Print Assumptions C33_unknown.
Print Assumptions C33_total.
Print Assumptions C33_route.
Print Assumptions C33_shortest_partial.
Print Assumptions C33_none_partial.
Print Assumptions C33_shortest_refuted.
Print Assumptions C33_null_refuted.
Print Assumptions C33_rounds_refuted.
Print Assumptions C33_twice_refuted.
Print Assumptions C33_sign_refuted.
Print Assumptions C33_lane_refuted.
