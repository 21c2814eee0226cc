(** * Moving along the roads: the theorems *)
From Coq Require Import NArith Lia.
From Verif Require Import QAux LaneModel IdModel NetModel NetProofs MoveModel MoveProofs.
Local Open Scope nat_scope.
Local Open Scope Q_scope.

(** Roads 1, 2 and 3 in a row, road 3 running against the others; each has a lane on either side of the centre lane. *)
Definition wide (k : Z) (links : list (LinkType * Z)) : lane := Lane k 2 links [(0, Poly 3 0 0 0 1)] [].
Definition plain (k : Z) : lane := wide k [(PREDECESSOR, k); (SUCCESSOR, k)].
Definition centre_lane : lane := Lane 0 1 [] [] [].
Definition way (id : N) (len : Q) (links : list rlink) (lanes : list lane) : nroad := NRoad id links (Road len [LSec 0 len lanes] []).
Definition road1 : nroad := way 1 10 [RLink SUCCESSOR ELEMENT_ROAD 2 CP_START] [plain 1; centre_lane; plain (-1)].
Definition road2 : nroad := way 2 20 [RLink PREDECESSOR ELEMENT_ROAD 1 CP_END; RLink SUCCESSOR ELEMENT_ROAD 3 CP_END]
  [wide 1 [(PREDECESSOR, 1%Z); (SUCCESSOR, (-1)%Z)]; centre_lane; wide (-1) [(PREDECESSOR, (-1)%Z); (SUCCESSOR, 1%Z)]].
Definition road3 : nroad := way 3 30 [RLink SUCCESSOR ELEMENT_ROAD 2 CP_END]
  [wide 1 [(SUCCESSOR, (-1)%Z)]; centre_lane; wide (-1) [(SUCCESSOR, 1%Z)]].
Definition three : network := Network [road1; road2; road3] [].
(** The same without lane links from road 2 to road 3, and with a lane link to a lane that does not exist. *)
Definition gap : network := Network [road1; way 2 20 (nr_links road2) [wide 1 []; centre_lane; wide (-1) []]; road3] [].
Definition bad_link : network := Network [way 1 10 (nr_links road1) [plain 1; centre_lane; wide (-1) [(SUCCESSOR, (-5)%Z)]]; road2; road3] [].
(** A road of length 1 leading onto itself. *)
Definition circle : nroad := way 1 1 [RLink SUCCESSOR ELEMENT_ROAD 1 CP_START; RLink PREDECESSOR ELEMENT_ROAD 1 CP_END] [plain 1; centre_lane; plain (-1)].
Definition ring : network := Network [circle] [].
(** A lane that has no width on the next road. *)
Definition narrow : network := Network [road1; way 2 20 (nr_links road2) [plain 1; centre_lane; Lane (-1) 2 [] [(0, Poly 0 0 0 0 1)] []]] [].

Definition at_ (t : N) (s : Q) (k : Z) : mpos := MPos t s (inject_Z k * (3 # 2)) 0 k (Some (if (k <? 0)%Z then 2 else if (k =? 0)%Z then 1 else 0)%nat) 0 false false.
Definition right_hand (_ : N) : bool := false.
Definition first_one (_ _ : N) (_ : Z) (_ : nat) : nat := 0%nat.
Definition move (net : network) (p : mpos) (ds dl : Q) : option (Z * mpos) := MoveAlongS net 2 right_hand first_one p ds dl ROAD_DIRECTION true.

Lemma three_wired : wired three.
Proof.
  split.
  - intros id r G. apply find_some in G. destruct G as [I E]. apply N.eqb_eq in E. cbn in I. destruct I as [<-|[<-|[<-|[]]]]; cbn in E; subst id; split; try discriminate; cbn; discriminate.
  - intros id r t l G L. apply find_some in G. destruct G as [I _]. apply find_some in L. destruct L as [L _]. cbn in I. destruct I as [<-|[<-|[<-|[]]]]; cbn in L;
      repeat (destruct L as [<-|L]; [cbn; split; [auto|discriminate]|]); destruct L.
Qed.
Lemma three_laned : laned three.
Proof.
  intros id r G. apply find_some in G. destruct G as [I _]. cbn in I. destruct I as [<-|[<-|[<-|[]]]]; (split; [discriminate|]); intros ls [<-|[]]; vm_compute; discriminate.
Qed.
Lemma three_leads r t r2 cp : leads three r t r2 cp -> exists l, Road_GetLink r t = Some l /\ rl_contact l = cp /\ GetRoad three (rl_id l) = Some r2.
Proof. intro H. destruct H as [l r2 L E G|l j c r2 L E J]; [eauto|]. discriminate J. Qed.
Lemma three_single : single three.
Proof. intros r t r2 cp r2' cp' A B. apply three_leads in A, B. destruct A as (l & L & C & G), B as (l' & L' & C' & G'). rewrite L in L'. injection L' as <-. split; congruence. Qed.

Lemma three_symmetric : symmetric three.
Proof.
  intros r r2 cp G. apply find_some in G. destruct G as [I _]. cbn in I.
  split; intro H; apply three_leads in H; destruct H as (l & L & <- & H); destruct I as [<-|[<-|[<-|[]]]]; cbn in L; try discriminate L; injection L as <-; cbn in H; injection H as <-; cbn [rl_contact].
  - apply (leads_road three road2 PREDECESSOR (RLink PREDECESSOR ELEMENT_ROAD 1 CP_END) road1); reflexivity.
  - apply (leads_road three road3 SUCCESSOR (RLink SUCCESSOR ELEMENT_ROAD 2 CP_END) road2); reflexivity.
  - apply (leads_road three road2 SUCCESSOR (RLink SUCCESSOR ELEMENT_ROAD 3 CP_END) road3); reflexivity.
  - apply (leads_road three road1 SUCCESSOR (RLink SUCCESSOR ELEMENT_ROAD 2 CP_START) road2); reflexivity.
Qed.

(** ** C52 *)

(** Where a move ends.  [walk]: the position is reached going the distance along the links; [crosses]: after so many links a distance is left.
    A move without error has gone the whole distance or has used up its 8 links; at the end of the roads it stops at the end and says so;
    on a general error it stops where the last link led.  The position is always on a road, and the end-of-road status tells the truth. *)
Theorem C52_moved : forall net mask lht choose p ds dl mode fwd ret q, wired net -> on_net net p -> MoveAlongS net mask lht choose p ds dl mode fwd = Some (ret, q) ->
  let d := road_ds mode fwd (lht (m_track p)) (m_lane p) ds in
  on_net net q /\ (ret <> R_END_OF_ROAD -> exists r, GetRoad net (m_track q) = Some r /\ m_end q = at_dead_end r (m_s q)) /\
  (((0 <= ret)%Z /\ ((exists n b, (n < 8)%nat /\ walk net (m_track p) (m_s p) d n (m_track q) (m_s q) b) \/ (exists d1 b, crosses net (m_track p) (m_s p) d 8 (m_track q) (m_s q) d1 b))) \/
   (ret = R_END_OF_ROAD /\ m_end q = true /\ exists n b s1 d1 r, (n < 8)%nat /\ crosses net (m_track p) (m_s p) d n (m_track q) s1 d1 b /\ GetRoad net (m_track q) = Some r /\
      ((Length r < s1 + d1 /\ m_s q = Length r) \/ (s1 + d1 < 0 /\ m_s q = 0))) \/
   (ret = R_GENERIC /\ exists n b d1, (n <= 8)%nat /\ crosses net (m_track p) (m_s p) d n (m_track q) (m_s q) d1 b)).
Proof. exact moved. Qed.

Example C52_moved_ex : wired three /\ on_net three (at_ 1 5 (-1)) /\
  exists q, move three (at_ 1 5 (-1)) 30 0 = Some (R_ENTERED_NEW_ROAD, q) /\ m_track q = 3%N /\ m_s q == 25 /\ m_lane q = 1%Z /\ m_turned q = true /\ m_t q == 3 # 2 /\ m_end q = false.
Proof.
  split; [exact three_wired|]. split; [exists road1; split; [reflexivity|cbn; lra]|]. eexists. split; [vm_compute; reflexivity|]. vm_compute. repeat split.
Qed.

(** What the relations mean: with one link only. *)
Theorem C52_one_link : forall net t r r2 s d x, GetRoad net t = Some r -> leads net r SUCCESSOR r2 CP_START -> Length r < s + d -> s + d - Length r <= Length r2 ->
  x == s + d - Length r -> walk net t s d 1 (nr_id r2) x false.
Proof.
  intros net t r r2 s d x G L A B X. exists 0, (s + d - Length r), r2. split; [|split; [apply (leads_exists _ _ _ _ _ L)|split; lra]].
  apply (cr_fwd net t r r2 CP_START s 0 d (s + d - Length r) 0 _ _ _ false G A L); [auto|reflexivity|reflexivity|]. apply cr_0; reflexivity.
Qed.
Theorem C52_one_link_reversed : forall net t r r2 s d x, GetRoad net t = Some r -> leads net r SUCCESSOR r2 CP_END -> Length r < s + d -> s + d - Length r <= Length r2 ->
  x == Length r2 - (s + d - Length r) -> walk net t s d 1 (nr_id r2) x true.
Proof.
  intros net t r r2 s d x G L A B X. exists (Length r2), (- (s + d - Length r)), r2. split; [|split; [apply (leads_exists _ _ _ _ _ L)|split; lra]].
  apply (cr_fwd net t r r2 CP_END s (Length r2) d (- (s + d - Length r)) 0 _ _ _ false G A L); [auto|reflexivity|reflexivity|]. apply cr_0; reflexivity.
Qed.

(** No null pointer is dereferenced if every lane section has a centre lane. *)
Theorem C52_total : forall net mask lht choose p ds dl mode fwd, wired net -> laned net -> sec_ok net p -> MoveAlongS net mask lht choose p ds dl mode fwd <> None.
Proof.
  intros net mask lht choose p ds dl mode fwd W La Sp. pose proof Sp as (r & G & _). unfold MoveAlongS. rewrite G.
  pose proof (loop_total net mask choose 8 W La p (road_ds mode fwd (lht (m_track p)) (m_lane p) ds) dl dl R_OK Sp) as T.
  destruct (move_loop _ _ _ _ _ _ _ _ _) as [[[ret q] []]|]; congruence.
Qed.
Example C52_total_ex : laned three /\ sec_ok three (at_ 1 5 (-1)).
Proof. split; [exact three_laned|]. exists road1. split; [reflexivity|cbn; lia]. Qed.

(** Where there is only one way on, the end of a move is determined by the distance. *)
Theorem C52_unique : forall net mask lht choose p ds dl mode fwd ret q n t x b, wired net -> single net -> on_net net p ->
  MoveAlongS net mask lht choose p ds dl mode fwd = Some (ret, q) -> (0 <= ret)%Z ->
  walk net (m_track p) (m_s p) (road_ds mode fwd (lht (m_track p)) (m_lane p) ds) n t x b -> (n < 8)%nat -> m_track q = t /\ m_s q == x.
Proof. exact unique. Qed.
Example C52_unique_ex : single three /\ walk three 1 5 30 2 3 25 true.
Proof.
  split; [exact three_single|]. exists 30, (-5), road3. split; [|split; [reflexivity|split; [cbn; lra|reflexivity]]].
  change true with (xorb (contact_eqb CP_START CP_END) (xorb (contact_eqb CP_END CP_END) false)).
  apply (cr_fwd three 1%N road1 road2 CP_START 5 0 30 25); [reflexivity|reflexivity| |auto|reflexivity|reflexivity|].
  { apply (leads_road three road1 SUCCESSOR (RLink SUCCESSOR ELEMENT_ROAD 2 CP_START) road2); reflexivity. }
  apply (cr_fwd three 2%N road2 road3 CP_END 0 30 25 (-5)); [reflexivity|reflexivity| |auto|reflexivity|reflexivity|].
  { apply (leads_road three road2 SUCCESSOR (RLink SUCCESSOR ELEMENT_ROAD 3 CP_END) road3); reflexivity. }
  apply cr_0; reflexivity.
Qed.

(** Moving by [d1] and then on by [d2] ends where moving by [d1 + d2] ends.  Missing for full generality: junctions with a choice, more than 7 links. *)
Theorem C52_add_partial : forall net mask lht choose dl p d1 d2 ret1 q1 n1 b1 ret2 q2 n2 b2 ret3 q3, wired net -> single net -> on_net net p ->
  (0 < d1 -> 0 <= d2) -> (d1 < 0 -> d2 <= 0) ->
  MoveAlongS net mask lht choose p d1 dl ROAD_DIRECTION true = Some (ret1, q1) -> walk net (m_track p) (m_s p) d1 n1 (m_track q1) (m_s q1) b1 ->
  MoveAlongS net mask lht choose q1 (if b1 then - d2 else d2) dl ROAD_DIRECTION true = Some (ret2, q2) -> walk net (m_track q1) (m_s q1) (if b1 then - d2 else d2) n2 (m_track q2) (m_s q2) b2 ->
  MoveAlongS net mask lht choose p (d1 + d2) dl ROAD_DIRECTION true = Some (ret3, q3) -> (0 <= ret3)%Z -> (n1 + n2 < 8)%nat ->
  m_track q3 = m_track q2 /\ m_s q3 == m_s q2.
Proof.
  intros net mask lht choose dl p d1 d2 ret1 q1 n1 b1 ret2 q2 n2 b2 ret3 q3 W Sg On P1 P2 _ W1 _ W2 M3 R3 L.
  apply (unique net mask lht choose p (d1 + d2) dl ROAD_DIRECTION true ret3 q3 (n1 + n2) (m_track q2) (m_s q2) (xorb b1 b2) W Sg On M3 R3); [|exact L].
  destruct On as (r & G & H). apply (walk_add net (m_track p) (m_s p) d1 n1 (m_track q1) (m_s q1) b1 n2 (m_track q2) (m_s q2) b2 d2 W); auto. exists r. auto.
Qed.

(** Moving back by the same distance returns to the start, if this was not exactly at an end of its road. *)
Theorem C52_back_partial : forall net mask lht choose dl p r d ret1 q1 n b ret2 q2, wired net -> single net -> symmetric net -> GetRoad net (m_track p) = Some r -> 0 < m_s p < Length r ->
  MoveAlongS net mask lht choose p d dl ROAD_DIRECTION true = Some (ret1, q1) -> walk net (m_track p) (m_s p) d n (m_track q1) (m_s q1) b -> (n < 8)%nat ->
  MoveAlongS net mask lht choose q1 (if b then d else - d) dl ROAD_DIRECTION true = Some (ret2, q2) -> (0 <= ret2)%Z ->
  m_track q2 = m_track p /\ m_s q2 == m_s p.
Proof.
  intros net mask lht choose dl p r d ret1 q1 n b ret2 q2 W Sg Sy G H M1 W1 L M2 R2.
  assert (On: on_net net p) by (exists r; split; [exact G|lra]). destruct (moved _ _ _ _ _ _ _ _ _ _ _ W On M1) as (On1 & _).
  apply (unique net mask lht choose q1 _ dl ROAD_DIRECTION true ret2 q2 n (m_track p) (m_s p) b W Sg On1 M2 R2); [|exact L].
  apply (walk_back net _ _ _ _ _ _ _ r W Sy G H W1).
Qed.

Example C52_back_ex : symmetric three /\ exists q1 q2, move three (at_ 1 5 (-1)) 30 0 = Some (R_ENTERED_NEW_ROAD, q1) /\ move three q1 30 0 = Some (R_ENTERED_NEW_ROAD, q2) /\
  m_track q2 = 1%N /\ m_s q2 == 5 /\ m_lane q2 = (-1)%Z /\ m_turned q2 = false.
Proof. split; [exact three_symmetric|]. do 2 eexists. split; [vm_compute; reflexivity|]. split; [vm_compute; reflexivity|]. vm_compute. repeat split. Qed.

(** At an end without link the move stops there, in place and reported. *)
Theorem C52_dead_end : forall net mask lht choose p ds dl mode fwd ret q r t, wired net -> on_net net p -> GetRoad net (m_track p) = Some r -> let d := road_ds mode fwd (lht (m_track p)) (m_lane p) ds in
  (t = SUCCESSOR /\ Length r < m_s p + d) \/ (t = PREDECESSOR /\ m_s p + d < 0) -> (forall l, Road_GetLink r t = Some l -> rl_id l = ID_UNDEFINED) ->
  MoveAlongS net mask lht choose p ds dl mode fwd = Some (ret, q) ->
  ret = R_END_OF_ROAD /\ m_track q = m_track p /\ m_s q = (match t with SUCCESSOR => Length r | _ => 0 end) /\ m_end q = true /\ m_offset q = m_offset p /\ m_turned q = m_turned p.
Proof. exact dead_end. Qed.
Example C52_dead_end_ex : exists q, move three (at_ 1 5 (-1)) (-6) 0 = Some (R_END_OF_ROAD, q) /\ m_track q = 1%N /\ m_s q = 0 /\ m_end q = true.
Proof. eexists. split; [vm_compute; reflexivity|]. repeat split. Qed.

(** Along a link to a road: the lane the lane link names, at the end the link names, on the same side seen in the direction of travel; the heading is turned exactly if
    start meets start or end meets end. *)
Theorem C52_enter_road : forall net mask choose p r r2 t l la ls k ls2, wired net -> GetRoad net (m_track p) = Some r -> Road_GetLink r t = Some l ->
  rl_elem l = ELEMENT_ROAD -> GetRoad net (rl_id l) = Some r2 ->
  nth_error (r_sections (nr_road r)) (m_sec p) = Some ls -> (exists i, m_idx p = Some i /\ nth_error (ls_lanes ls) i = Some la) -> GetLink la t = Some k -> k <> 0%Z ->
  let last := contact_eqb (rl_contact l) CP_END in
  nth_error (r_sections (nr_road r2)) (if last then List.length (r_sections (nr_road r2)) - 1 else 0) = Some ls2 -> GetLaneById ls2 k <> None ->
  let s := if last then Length r2 else 0 in
  let turn := (LinkType_eqb t PREDECESSOR && contact_eqb (rl_contact l) CP_START) || (LinkType_eqb t SUCCESSOR && contact_eqb (rl_contact l) CP_END) in
  let o := if turn then - m_offset p else m_offset p in
  exists q, MoveToConnectingRoad net mask choose p l = Some (R_ENTERED_NEW_ROAD, rl_contact l, q) /\ m_track q = nr_id r2 /\ m_s q = s /\ m_lane q = k /\
    m_offset q = o /\ m_turned q = xorb turn (m_turned p) /\
    m_t q = o + GetLaneOffset (r_offset (nr_road r2)) s + GetCenterOffset ls2 s k * (if (k <? 0)%Z then (-1) else 1).
Proof.
  intros net mask choose p r r2 t l la ls k ls2 W G L El G2 Ns Hi Gl Nk last Nj Gk s turn o.
  assert (T: link_target net choose r la l = (R_ENTERED_NEW_ROAD, rl_contact l, k, Some r2)) by (unfold link_target; rewrite El, (Road_GetLink_type _ _ _ L), Gl, G2; reflexivity).
  assert (U: rl_id l <> ID_UNDEFINED) by (apply (proj1 W _ _ G2)).
  destruct (enter_lane net mask choose p r r2 t l la ls _ _ k _ ls2 W G L U Ns Hi T Nk Nj Gk (fun _ => eq_refl)) as (q & A1 & A2 & A3 & A4 & A5 & A6 & A7 & A8); [congruence|].
  assert (Es: entry_s r2 (rl_contact l) = s) by (subst s last; destruct (rl_contact l); reflexivity). rewrite Es in A3, A8. exists q. auto 8.
Qed.

(** Through a junction: the lane link of the connection chosen. *)
Theorem C52_enter_junction : forall net mask choose p r r2 t l j la ls x i2 ls2, wired net -> GetRoad net (m_track p) = Some r -> Road_GetLink r t = Some l ->
  rl_elem l = ELEMENT_JUNCTION -> rl_id l <> ID_UNDEFINED -> GetJunction net (rl_id l) = Some j ->
  nth_error (r_sections (nr_road r)) (m_sec p) = Some ls -> (exists i, m_idx p = Some i /\ nth_error (ls_lanes ls) i = Some la) ->
  let n := List.length (lane_links (j_conns j) (nr_id r) (l_id la)) in
  nth_error (lane_links (j_conns j) (nr_id r) (l_id la)) (if (n =? 1)%nat then 0 else choose (j_id j) (nr_id r) (l_id la) n) = Some x ->
  GetRoad net (lrl_road x) = Some r2 -> lrl_to x <> 0%Z -> nr_id r2 <> m_track p ->
  let s := if contact_eqb (lrl_contact x) CP_END then Length r2 else 0 in
  GetLaneSectionIdxByS (r_sections (nr_road r2)) s 0 = Some i2 -> nth_error (r_sections (nr_road r2)) i2 = Some ls2 -> GetLaneById ls2 (lrl_to x) <> None ->
  let turn := (LinkType_eqb t PREDECESSOR && contact_eqb (lrl_contact x) CP_START) || (LinkType_eqb t SUCCESSOR && contact_eqb (lrl_contact x) CP_END) in
  let o := if turn then - m_offset p else m_offset p in
  exists q, MoveToConnectingRoad net mask choose p l = Some (R_MADE_JUNCTION_CHOICE, lrl_contact x, q) /\ m_track q = nr_id r2 /\ m_s q = s /\ m_lane q = lrl_to x /\
    m_offset q = o /\ m_turned q = xorb turn (m_turned p) /\
    m_t q = o + GetLaneOffset (r_offset (nr_road r2)) s + GetCenterOffset ls2 s (lrl_to x) * (if (lrl_to x <? 0)%Z then (-1) else 1).
Proof.
  intros net mask choose p r r2 t l j la ls x i2 ls2 W G L El U J Ns Hi n Nx G2 Nk Nr s Gi Nj Gk turn o.
  assert (Ln: n <> 0%nat). { subst n. intro Z. apply length_zero_iff_nil in Z. rewrite Z in Nx. match type of Nx with nth_error [] ?e = _ => destruct e; discriminate end. }
  assert (T: link_target net choose r la l = (R_MADE_JUNCTION_CHOICE, lrl_contact x, lrl_to x, Some r2)).
  { unfold link_target. rewrite El, J. unfold GetNumberOfRoadConnections, GetRoadConnectionByIdx. rewrite count_connections_spec. cbn [Nat.add]. fold n. destruct n as [|m] eqn:N; [congruence|].
    rewrite pick_connection_spec by lia. rewrite Nat.sub_0_r, Nx, G2. reflexivity. }
  assert (Es: entry_s r2 (lrl_contact x) = s) by (subst s; destruct (lrl_contact x); reflexivity).
  destruct (enter_lane net mask choose p r r2 t l la ls _ _ _ i2 ls2 W G L U Ns Hi T Nk Nj Gk) as (q & A1 & A2 & A3 & A4 & A5 & A6 & A7 & A8); [congruence| |].
  { intros _. rewrite Es. auto. }
  rewrite Es in A3, A8. exists q. auto 8.
Qed.

Definition fork : network := Network [way 1 10 [RLink SUCCESSOR ELEMENT_JUNCTION 9 CP_JUNCTION] [plain 1; centre_lane; plain (-1)]; way 5 4 [] [plain 1; centre_lane; plain (-1)]; way 6 7 [] [plain 1; centre_lane; plain (-1)]]
  [Junction 9 false [Connection 1 5 CP_START [((-1)%Z, (-1)%Z)]; Connection 1 6 CP_END [((-1)%Z, 1%Z)]]].
Example C52_enter_ex :
  (exists q, MoveToConnectingRoad three 2 first_one (with_offset 1 (at_ 2 20 (-1))) (RLink SUCCESSOR ELEMENT_ROAD 3 CP_END) = Some (R_ENTERED_NEW_ROAD, CP_END, q) /\
     m_track q = 3%N /\ m_s q = 30 /\ m_lane q = 1%Z /\ m_offset q = -(1) /\ m_turned q = true /\ m_t q == 1 # 2) /\
  (exists q, MoveToConnectingRoad fork 2 (fun _ _ _ _ => 1%nat) (at_ 1 10 (-1)) (RLink SUCCESSOR ELEMENT_JUNCTION 9 CP_JUNCTION) = Some (R_MADE_JUNCTION_CHOICE, CP_END, q) /\
     m_track q = 6%N /\ m_s q = 7 /\ m_lane q = 1%Z /\ m_turned q = true).
Proof. split; eexists; (split; [vm_compute; reflexivity|]); vm_compute; repeat split. Qed.

(** The distance along the road: by heading, by road, by lane; on the right in right hand traffic the lane goes with the road. *)
Theorem C52_direction : forall fwd left k ds,
  road_ds HEADING_DIRECTION true left k ds == ds /\ road_ds HEADING_DIRECTION false left k ds == - ds /\ road_ds ROAD_DIRECTION fwd left k ds = ds /\
  ((k < 0)%Z -> road_ds LANE_DIRECTION fwd false k ds == ds /\ road_ds LANE_DIRECTION fwd true k ds == - ds) /\
  ((0 < k)%Z -> road_ds LANE_DIRECTION fwd false k ds == - ds /\ road_ds LANE_DIRECTION fwd true k ds == ds).
Proof.
  intros fwd left k ds. unfold road_ds. repeat split; try ring; intros; unfold SIGN; destruct (Z.ltb_spec k 0); try lia; cbn; ring.
Qed.
Example C52_direction_ex : road_ds LANE_DIRECTION true false (-1) 5 == 5 /\ road_ds LANE_DIRECTION true false 1 5 == -(5).
Proof. split; reflexivity. Qed.

(** A distance at lateral position [o] in a bend of curvature [c] is the length of the arc there: ds along the reference line times (1 - c o). *)
Theorem C52_distance : forall c o ds resnap d, c * o <= 1 - SMALL -> DistanceToDS c o ds resnap = Some d ->
  (SMALL < Qabs c -> d * (1 - c * o) == ds) /\ (Qabs c <= SMALL -> d = ds) /\ (0 <= ds -> 0 <= d) /\ (ds <= 0 -> d <= 0).
Proof.
  intros c o ds resnap d H E. pose proof SMALL_pos as SP. unfold DistanceToDS in E. destruct (Qltb_spec SMALL (Qabs c)) as [C|C].
  - destruct (Qltb_spec (1 - SMALL) (c * o)) as [D|D]; [lra|]. destruct (Qeqb_spec (1 - c * o) 0) as [F|F]; [lra|]. injection E as <-.
    assert (P: 0 < 1 - c * o) by lra. set (w := 1 - c * o) in *. clearbody w.
    assert (Iw: 0 < 1 / w) by (unfold Qdiv; rewrite Qmult_1_l; apply Qinv_lt_0_compat; exact P).
    split; [intros _; field; lra|]. split; [intro; lra|]. split; intro; nra.
  - injection E as <-. split; [intro; contradiction|]. split; [reflexivity|]. auto.
Qed.
Example C52_distance_ex : exists d, DistanceToDS (1 # 10) (-(5)) 3 (0, 0) = Some d /\ d == 2 /\ d * (1 - (1 # 10) * -(5)) == 3.
Proof. eexists. split; [vm_compute; reflexivity|]. split; reflexivity. Qed.

(** After snapping to the road again the curvature condition is not checked again: the move may be reversed or divide by zero. *)
Theorem C52_distance_refuted : (exists c o ds resnap d, DistanceToDS c o ds resnap = Some d /\ 0 < ds /\ d < 0) /\ (exists c o ds resnap, DistanceToDS c o ds resnap = None).
Proof.
  split; [exists 1, 2, 1, (1, 2); eexists; split; [vm_compute; reflexivity|split; reflexivity]|]. exists 1, 1, 1, (1, 1). vm_compute. reflexivity.
Qed.

(** The connection chosen by angle is the first one with the smallest difference, if the random draws prefer no later one; otherwise it is within
    the tolerance, once per connection. *)
Theorem C52_angle : forall diffs coin, diffs <> [] -> (forall d, In d diffs -> d < 10000000000) -> (forall i, coin i = false) ->
  exists v, nth_error diffs (angle_choice diffs coin 0 0 10000000000) = Some v /\ (forall d, In d diffs -> v <= d) /\
    forall j d, (j < angle_choice diffs coin 0 0 10000000000)%nat -> nth_error diffs j = Some d -> v < d.
Proof.
  intros diffs coin Ne H C. destruct (angle_first coin C diffs 0%nat 0%nat 10000000000) as (v & [(_ & -> & V)|(_ & V1 & _ & V2 & V3)]).
  - exfalso. destruct diffs as [|d r]; [congruence|]. pose proof (H d (or_introl eq_refl)). pose proof (V d (or_introl eq_refl)). lra.
  - rewrite Nat.sub_0_r in *. exists v. auto.
Qed.
Theorem C52_angle_near_partial : forall d diffs coin, (forall x, In x (d :: diffs) -> x < 10000000000) ->
  exists v, nth_error (d :: diffs) (angle_choice (d :: diffs) coin 0 0 10000000000) = Some v /\ forall x, In x (d :: diffs) -> v <= x + inject_Z (Z.of_nat (List.length diffs)) * SMALL.
Proof.
  intros d diffs coin H. cbn [angle_choice]. destruct (Qltb_spec d 10000000000) as [_|C]; [|specialize (H d (or_introl eq_refl)); contradiction]. cbn [orb].
  destruct (angle_near coin diffs 1%nat 0%nat d) as (v & V1 & V2 & V3). exists v. split; [|intros x [<-|X]; [exact V2|apply V3, X]].
  destruct V1 as [(-> & ->)|(V1 & V4)]; [reflexivity|]. replace (angle_choice diffs coin 1 0 d) with (S (angle_choice diffs coin 1 0 d - 1)) by lia. exact V4.
Qed.

(** The tolerance adds up: the one chosen may be further off the smallest than the tolerance. *)
Theorem C52_angle_tolerance_refuted : exists diffs coin v d, nth_error diffs (angle_choice diffs coin 0 0 10000000000) = Some v /\ In d diffs /\ d + SMALL < v.
Proof. exists [0; SMALL * (3 # 4); SMALL * (3 # 2)], (fun _ => true), (SMALL * (3 # 2)), 0. split; [vm_compute; reflexivity|]. split; [left; reflexivity|reflexivity]. Qed.

(** Going on by the route: the last connection to the road the route goes on by that is the route's current road; without such the last one leading there. *)
Theorem C52_route : forall conns idx, let k := route_choice conns 0 idx None in
  last_such (fun x => x = (true, true)) conns k \/
  ((forall x, In x conns -> x <> (true, true)) /\ last_such (fun x => fst x = true) conns k) \/
  ((forall x, In x conns -> fst x = false) /\ k = idx).
Proof.
  intros conns idx k. destruct (route_spec conns 0 idx None) as [(j & E & J)|[(_ & o & O & _)|[(N & _ & j & E & J)|(N & _ & E)]]]; try discriminate O; fold k in E; cbn [Nat.add] in E.
  - left. rewrite E. exact J.
  - right. left. rewrite E. auto.
  - right. right. auto.
Qed.
Example C52_choice_ex : angle_choice [3 # 1; 1 # 2; 1 # 2] (fun _ => false) 0 0 10000000000 = 1%nat /\ route_choice [(true, false); (true, true); (true, false); (false, true)] 0 7 None = 1%nat.
Proof. split; vm_compute; reflexivity. Qed.

(** *** Refuted *)

(** After 8 links the move ends without error, with distance left. *)
Theorem C52_limit_refuted : exists net p d ret q d1 b, wired net /\ on_net net p /\ move net p d 0 = Some (ret, q) /\ (0 <= ret)%Z /\ m_end q = false /\
  crosses net (m_track p) (m_s p) d 8 (m_track q) (m_s q) d1 b /\ 12 <= d1.
Proof.
  exists ring, (at_ 1 (1 # 2) (-1)), 20. do 2 eexists. exists (25 # 2), false. split.
  { split.
    - intros id r G. apply find_some in G. destruct G as [I E]. apply N.eqb_eq in E. cbn in I. destruct I as [<-|[]]; cbn in E; subst id; split; try discriminate; cbn; discriminate.
    - intros id r t l G L. apply find_some in G. destruct G as [I _]. apply find_some in L. destruct L as [L _]. cbn in I. destruct I as [<-|[]]; cbn in L;
        repeat (destruct L as [<-|L]; [cbn; split; [auto|discriminate]|]); destruct L. }
  split; [eexists; split; [reflexivity|vm_compute; split; discriminate]|]. split; [vm_compute; reflexivity|]. split; [discriminate|]. split; [reflexivity|]. split; [|discriminate]. cbn [m_track m_s at_].
  assert (X: forall s d n, 1 < s + d -> crosses ring 1 0 (s + d - 1) n 1 0 (25 # 2) false -> crosses ring 1 s d (S n) 1 0 (25 # 2) false).
  { intros s d n H C. apply (cr_fwd ring 1%N circle circle CP_START s 0 d (s + d - 1) n 1%N 0 (25 # 2) false); [reflexivity|exact H| |auto|reflexivity|reflexivity|exact C].
    apply (leads_road ring _ SUCCESSOR (RLink SUCCESSOR ELEMENT_ROAD 1 CP_START)); reflexivity. }
  assert (Y: forall n m, crosses ring 1 0 m n 1 0 (25 # 2) false -> forall s d, s + d - 1 == m -> 1 < s + d -> crosses ring 1 s d (S n) 1 0 (25 # 2) false).
  { intros n m C s d E H. apply X; [exact H|]. apply (crosses_eq _ _ _ _ _ _ _ _ _ C); try reflexivity. exact E. }
  apply (crosses_eq ring 1%N (1 # 2) 20 8 1%N 0 (25 # 2) false); try reflexivity.
  apply (Y 7%nat (39 # 2)); [|reflexivity|reflexivity]. apply (Y 6%nat (37 # 2)); [|reflexivity|reflexivity]. apply (Y 5%nat (35 # 2)); [|reflexivity|reflexivity]. apply (Y 4%nat (33 # 2)); [|reflexivity|reflexivity].
  apply (Y 3%nat (31 # 2)); [|reflexivity|reflexivity]. apply (Y 2%nat (29 # 2)); [|reflexivity|reflexivity]. apply (Y 1%nat (27 # 2)); [|reflexivity|reflexivity]. apply (Y 0%nat (25 # 2)); [|reflexivity|reflexivity].
  apply cr_0; reflexivity.
Qed.

(** A change of the lane offset is applied once for every road entered and once more. *)
Theorem C52_offset_repeated_refuted : exists p d dl q, move three p d dl = Some (R_ENTERED_NEW_ROAD, q) /\ m_turned q = m_turned p /\ 0 < dl /\ m_offset q == m_offset p + 2 * dl.
Proof. exists (at_ 1 5 (-1)), 10, 1. eexists. split; [vm_compute; reflexivity|]. vm_compute. repeat split. Qed.

(** Moving backwards onto the end of a road changes the offset the other way, although the heading is not turned. *)
Theorem C52_offset_sign_refuted : exists p d dl q, move three p d dl = Some (R_ENTERED_NEW_ROAD, q) /\ m_turned q = m_turned p /\ 0 < dl /\ m_offset q < m_offset p.
Proof. exists (at_ 2 5 (-1)), (-(10)), 1. eexists. split; [vm_compute; reflexivity|]. vm_compute. repeat split. Qed.

(** Without lane link onto a road running the other way, the position keeps its lateral position and heading on the road, so it changes sides and turns round. *)
Theorem C52_gap_refuted : exists p d q b, on_net gap p /\ move gap p d 0 = Some (R_REACHED_END_OF_LANE, q) /\ walk gap (m_track p) (m_s p) d 1 (m_track q) (m_s q) b /\ b = true /\
  m_turned q = m_turned p /\ m_t q == m_t p /\ ~ m_t q == 0 /\ m_lane q = m_lane p.
Proof.
  exists (at_ 2 15 (-1)), 10. eexists. exists true. split; [eexists; split; [reflexivity|vm_compute; split; discriminate]|]. split; [vm_compute; reflexivity|]. split.
  - cbn [m_track m_s at_]. apply (walk_eq gap _ _ _ _ _ 25); [|reflexivity]. apply (C52_one_link_reversed gap 2 (way 2 20 (nr_links road2) [wide 1 []; centre_lane; wide (-1) []]) road3 15 10 25); try reflexivity; try discriminate.
    apply (leads_road gap _ SUCCESSOR (RLink SUCCESSOR ELEMENT_ROAD 3 CP_END) road3); reflexivity.
  - vm_compute. repeat split. discriminate.
Qed.

(** A lane link to a lane that does not exist: the new road is entered without error, on its centre lane. *)
Theorem C52_bad_link_refuted : exists p d q, m_lane p = (-1)%Z /\ move bad_link p d 0 = Some (R_ENTERED_NEW_ROAD, q) /\ m_track q = 2%N /\ m_lane q = 0%Z.
Proof. exists (at_ 1 5 (-1)), 10. eexists. split; [reflexivity|]. split; [vm_compute; reflexivity|]. split; reflexivity. Qed.

(** On a general error the position is not where it was: it stays where the last link led. *)
Theorem C52_error_moves_refuted : exists p d q, move narrow p d 0 = Some (R_GENERIC, q) /\ m_track q <> m_track p.
Proof. exists (at_ 1 5 (-1)), 10. eexists. split; [vm_compute; reflexivity|]. discriminate. Qed.

(** On the centre lane, moving in lane direction goes backwards in right hand traffic. *)
Theorem C52_centre_refuted : road_ds LANE_DIRECTION true false 0 5 == -(5).
Proof. reflexivity. Qed.

(** The end-of-road status after a move: at a start without predecessor or an end without successor, with a tolerance. *)
Theorem C52_end_status : forall net mask lht choose p ds dl mode fwd ret q r, wired net -> on_net net p -> MoveAlongS net mask lht choose p ds dl mode fwd = Some (ret, q) ->
  ret <> R_END_OF_ROAD -> GetRoad net (m_track q) = Some r ->
  (m_end q = true <-> (m_s q < 1 # 1000000 /\ Road_GetLink r PREDECESSOR = None) \/ (Length r - (1 # 1000000) < m_s q /\ Road_GetLink r SUCCESSOR = None)).
Proof.
  intros net mask lht choose p ds dl mode fwd ret q r W O H E G. destruct (C52_moved _ _ _ _ _ _ _ _ _ _ _ W O H) as (_ & X & _). destruct (X E) as (r0 & G0 & ->). rewrite G in G0. injection G0 as <-.
  unfold at_dead_end. rewrite orb_true_iff, !andb_true_iff, !Qltb_lt. change SMALL with (1 # 1000000). destruct (Road_GetLink r PREDECESSOR), (Road_GetLink r SUCCESSOR); intuition congruence.
Qed.

Example C52_end_status_ex : exists q, move three (at_ 1 5 (-1)) (-5) 0 = Some (R_OK, q) /\ m_end q = true.
Proof. eexists. split; vm_compute; reflexivity. Qed.

(** A lane position set without error has the index of its lane. *)
Theorem C52_lane_index : forall net mask p track k s o sec ret q r ls, SetLanePos net mask p track k s o sec = Some (ret, q) -> ret <> R_GENERIC -> GetRoad net track = Some r ->
  nth_error (r_sections (nr_road r)) (m_sec q) = Some ls -> exists i, m_idx q = Some i /\ GetLaneIdxById ls (m_lane q) = Some i.
Proof.
  intros net mask p track k s o sec ret q r ls H NG G L.
  assert (F: forall ret1 p1, finish_lane r ret1 p1 = (ret, q) -> exists i, m_idx q = Some i /\ GetLaneIdxById ls (m_lane q) = Some i).
  { intros ret1 p1 F. unfold finish_lane in F. destruct (nth_error _ (m_sec p1)) as [l1|] eqn:N1.
    - destruct (GetLaneIdxById l1 (m_lane p1)) as [i|] eqn:I; injection F as <- <-; [|congruence]. cbn in L. rewrite N1 in L. injection L as <-. exists i. split; [reflexivity|exact I].
    - injection F as <- <-. cbn in L. congruence. }
  unfold SetLanePos in H. destruct (SetLongitudinalTrackPos _ _ _ _) as [ret1 p1]. destruct (ret1 =? R_GENERIC)%Z eqn:R1; [apply Z.eqb_eq in R1; injection H as <- <-; congruence|]. rewrite G in H.
  cbv zeta in H. match type of H with match ?t with Some _ => _ | None => _ end = _ => destruct t as [i|] end.
  - destruct (nth_error _ i); [|injection H as <- <-; congruence]. destruct (GetLaneById _ k); [|injection H as <- <-; congruence]. injection H as H. eapply F, H.
  - destruct (GetLaneInfoByS _ _ _ _ _) as [[[reached i] k1]|]; [|discriminate]. injection H as H. eapply F, H.
Qed.

Example C52_lane_index_ex : exists q, SetLanePos three 0 (at_ 1 5 (-1)) 2 (-1) 7 0 (Some 0%nat) = Some (R_OK, q) /\ m_idx q <> None.
Proof. eexists. split; [vm_compute; reflexivity|]. cbn. discriminate. Qed.

(** Off the roads nothing moves, which is reported; moving along the lane uses a null pointer instead. *)
Theorem C52_off_road_refuted : forall net mask lht choose p ds dl mode fwd, GetRoad net (m_track p) = None ->
  MoveAlongS net mask lht choose p ds dl mode fwd = match mode with LANE_DIRECTION => None | _ => Some (R_GENERIC, p) end.
Proof. intros net mask lht choose p ds dl mode fwd G. unfold MoveAlongS. rewrite G. reflexivity. Qed.
Example C52_off_road_ex : GetRoad three (m_track (at_ 77 5 (-1))) = None /\ MoveAlongS three 0 (fun _ => false) (fun _ _ _ _ => 0%nat) (at_ 77 5 (-1)) 3 0 LANE_DIRECTION true = None.
Proof. split; reflexivity. Qed.

Print Assumptions C52_moved.
Print Assumptions C52_one_link.
Print Assumptions C52_one_link_reversed.
Print Assumptions C52_total.
Print Assumptions C52_unique.
Print Assumptions C52_add_partial.
Print Assumptions C52_back_partial.
Print Assumptions C52_dead_end.
Print Assumptions C52_enter_road.
Print Assumptions C52_enter_junction.
Print Assumptions C52_direction.
Print Assumptions C52_distance.
Print Assumptions C52_distance_refuted.
Print Assumptions C52_angle.
Print Assumptions C52_angle_near_partial.
Print Assumptions C52_angle_tolerance_refuted.
Print Assumptions C52_route.
Print Assumptions C52_limit_refuted.
Print Assumptions C52_offset_repeated_refuted.
Print Assumptions C52_offset_sign_refuted.
Print Assumptions C52_gap_refuted.
Print Assumptions C52_bad_link_refuted.
Print Assumptions C52_error_moves_refuted.
Print Assumptions C52_centre_refuted.

Print Assumptions C52_end_status.
Print Assumptions C52_lane_index.

Print Assumptions C52_off_road_refuted.
