(** Specification and lemmas for [MoveModel]. *)
From Coq Require Import NArith PeanoNat.
From Verif Require Import QAux LaneModel IdModel NetModel NetProofs MoveModel.
Local Open Scope nat_scope.
Local Open Scope Q_scope.

Section Net.
Variable net : network.

(** Where a road is entered. *)
Definition entry_s (r : nroad) (cp : contact) : Q := match cp with CP_END => Length r | _ => 0 end.

(** [crosses t s d n t' s' d' b]: on the way of the signed distance [d] along the roads from [s] on road [t], after crossing [n] ends of
    roads, one is at [s'] of road [t'] with the signed distance [d'] to go; [b]: the signs of [d] and [d'] differ. *)
Inductive crosses : N -> Q -> Q -> nat -> N -> Q -> Q -> bool -> Prop :=
| cr_0 t s d s' d' : s' == s -> d' == d -> crosses t s d 0 t s' d' false
| cr_fwd t r r2 cp s s2 d d2 n t' x y b : GetRoad net t = Some r -> Length r < s + d -> leads net r SUCCESSOR r2 cp -> cp = CP_START \/ cp = CP_END ->
    s2 == entry_s r2 cp -> d2 == (if contact_eqb cp CP_END then - (s + d - Length r) else s + d - Length r) ->
    crosses (nr_id r2) s2 d2 n t' x y b -> crosses t s d (S n) t' x y (xorb (contact_eqb cp CP_END) b)
| cr_bwd t r r2 cp s s2 d d2 n t' x y b : GetRoad net t = Some r -> s + d < 0 -> leads net r PREDECESSOR r2 cp -> cp = CP_START \/ cp = CP_END ->
    s2 == entry_s r2 cp -> d2 == (if contact_eqb cp CP_END then s + d else - (s + d)) ->
    crosses (nr_id r2) s2 d2 n t' x y b -> crosses t s d (S n) t' x y (xorb (contact_eqb cp CP_START) b).

(** [walk t s d n t' x b]: the way ends at [x] of road [t']. *)
Definition walk (t : N) (s d : Q) (n : nat) (t' : N) (x : Q) (b : bool) : Prop :=
  exists s1 d1 r, crosses t s d n t' s1 d1 b /\ GetRoad net t' = Some r /\ 0 <= s1 + d1 <= Length r /\ x == s1 + d1.

(** The network as loaded: roads have ids and lengths, links to roads and connections tell the end, links to junctions say so. *)
Definition wired : Prop :=
  (forall id r, GetRoad net id = Some r -> id <> ID_UNDEFINED /\ 0 <= Length r) /\
  (forall id r t l, GetRoad net id = Some r -> Road_GetLink r t = Some l ->
    (rl_elem l = ELEMENT_ROAD -> rl_contact l = CP_START \/ rl_contact l = CP_END) /\
    (rl_elem l = ELEMENT_JUNCTION -> rl_contact l = CP_JUNCTION /\
       forall j c, GetJunction net (rl_id l) = Some j -> In c (j_conns j) -> c_incoming c = nr_id r -> c_contact c = CP_START \/ c_contact c = CP_END)).

Definition on_net (p : mpos) : Prop := exists r, GetRoad net (m_track p) = Some r /\ 0 <= m_s p <= Length r.

Variable mask : Z.

(** ** Setting a position *)

Lemma roads_ne id r : GetRoad net id = Some r -> net_roads net <> [].
Proof. intros G E. unfold GetRoad in G. rewrite E in G. discriminate. Qed.

Definition clamp_s (r : nroad) (s : Q) : Q := if Qltb (Length r) s then Length r else if Qltb s 0 then 0 else s.

Lemma long_spec p t r s ret q : wired -> GetRoad net t = Some r -> SetLongitudinalTrackPos net p t s = (ret, q) ->
  m_track q = t /\ m_s q = clamp_s r s /\ m_t q = m_t p /\ m_offset q = m_offset p /\ m_turned q = m_turned p /\
  (t = m_track p -> m_lane q = m_lane p /\ m_idx q = m_idx p /\ m_sec q = m_sec p) /\
  (t <> m_track p -> m_lane q = 0%Z /\ m_idx q = Some 0%nat /\ m_sec q = 0%nat) /\
  ret = (if Qltb (Length r) s then R_END_OF_ROAD else R_OK) /\
  m_end q = (if Qltb (Length r) s then true else at_dead_end r (clamp_s r s)).
Proof.
  intros (W & _) G. destruct (W t r G) as (U & _). unfold SetLongitudinalTrackPos. pose proof (roads_ne t r G) as NE. destruct (net_roads net) as [|x y]; [congruence|].
  destruct (N.eqb_spec t ID_UNDEFINED) as [E|_]; [contradiction|]. rewrite G. unfold clamp_s.
  destruct (N.eqb_spec t (m_track p)) as [E|E]; destruct (Qltb (Length r) s); intro H; injection H as <- <-; cbn; repeat split; auto; contradiction.
Qed.

Lemma finish_spec r ret p ret' q : finish_lane r ret p = (ret', q) ->
  m_track q = m_track p /\ m_s q = m_s p /\ m_offset q = m_offset p /\ m_turned q = m_turned p /\ m_lane q = m_lane p /\ m_sec q = m_sec p /\ m_end q = m_end p /\ (ret' = ret \/ ret' = R_GENERIC).
Proof.
  unfold finish_lane. destruct (nth_error _ _); [destruct (GetLaneIdxById _ _)|]; intro H; injection H as <- <-; cbn; repeat split; auto.
Qed.

(** Whatever the lane, SetLanePos on an existing road puts the position on it. *)
Lemma lane_spec p t r k s o sec ret q : wired -> GetRoad net t = Some r -> SetLanePos net mask p t k s o sec = Some (ret, q) ->
  m_track q = t /\ m_s q = clamp_s r s /\ m_offset q = o /\ m_turned q = m_turned p /\
  (s <= Length r -> m_end q = at_dead_end r (clamp_s r s) /\ ret <> R_END_OF_ROAD).
Proof.
  intros W G. unfold SetLanePos. destruct (SetLongitudinalTrackPos net (with_offset o p) t s) as [ret1 p1] eqn:L.
  destruct (long_spec _ _ _ _ _ _ W G L) as (A1 & A2 & _ & A4 & A5 & _ & _ & A8 & A9). cbn in A4, A5.
  assert (NG: (ret1 =? R_GENERIC)%Z = false) by (rewrite A8; destruct (Qltb (Length r) s); reflexivity). rewrite NG, G.
  assert (OK: s <= Length r -> ret1 = R_OK /\ m_end p1 = at_dead_end r (clamp_s r s)).
  { intro H. destruct (Qltb_spec (Length r) s); [lra|]. rewrite A8, A9. destruct (Qltb_spec (Length r) s); [lra|]. auto. }
  assert (X: forall i l ret2 q2, finish_lane r ret2 (with_lane l (with_sec i p1)) = (ret, q) -> (s <= Length r -> ret2 <> R_END_OF_ROAD) -> q2 = q ->
    m_track q = t /\ m_s q = clamp_s r s /\ m_offset q = o /\ m_turned q = m_turned p /\ (s <= Length r -> m_end q = at_dead_end r (clamp_s r s) /\ ret <> R_END_OF_ROAD)).
  { intros i l ret2 q2 F R _. destruct (finish_spec _ _ _ _ _ F) as (B1 & B2 & B3 & B4 & _ & _ & B7 & B8). cbn in B1, B2, B3, B4, B7.
    split; [congruence|]. split; [congruence|]. split; [congruence|]. split; [congruence|]. intro H. destruct (OK H) as (O1 & O2). split; [congruence|].
    destruct B8 as [-> | ->]; [apply R; exact H|discriminate]. }
  set (sc := match sec with Some i => Some i | None => _ end). clearbody sc. destruct sc as [i|].
  - destruct (nth_error _ _) as [ls|]; [destruct (GetLaneById ls k)|].
    + intro H. injection H as H. apply (X i k ret1 q); auto. intro Hs. destruct (OK Hs) as (-> & _). discriminate.
    + intro H. injection H as <- <-. cbn. repeat split; auto; [intros; apply OK; auto|discriminate].
    + intro H. injection H as <- <-. cbn. repeat split; auto; [intros; apply OK; auto|discriminate].
  - destruct (GetLaneInfoByS _ _ _ _ _) as [[[rc i] l]|]; [|discriminate]. intro H. injection H as H. apply (X i l _ q H); auto.
    intro Hs. destruct (OK Hs) as (-> & _). cbn. destruct rc; discriminate.
Qed.

Lemma clamp_in r s : 0 <= Length r -> 0 <= clamp_s r s <= Length r.
Proof. intro H. unfold clamp_s. destruct (Qltb_spec (Length r) s); [lra|]. destruct (Qltb_spec s 0); lra. Qed.
Lemma clamp_id r s : 0 <= s <= Length r -> clamp_s r s = s.
Proof. intro H. unfold clamp_s. destruct (Qltb_spec (Length r) s); [lra|]. destruct (Qltb_spec s 0); [lra|reflexivity]. Qed.

Lemma lane_on p t r k s o sec ret q : wired -> GetRoad net t = Some r -> SetLanePos net mask p t k s o sec = Some (ret, q) -> on_net q.
Proof.
  intros W G E. destruct (lane_spec _ _ _ _ _ _ _ _ _ W G E) as (A1 & A2 & _). exists r. rewrite A1, A2. split; [exact G|]. apply clamp_in. apply (proj1 W t r G).
Qed.

Lemma track_spec p t r s t0 ret q : wired -> GetRoad net t = Some r -> 0 <= s <= Length r -> SetTrackPos net mask p t s t0 = (ret, q) ->
  ret = R_OK /\ m_track q = t /\ m_s q = s /\ m_t q = t0 /\ m_turned q = m_turned p.
Proof.
  intros W G Hs. unfold SetTrackPos. destruct (SetLongitudinalTrackPos net p t s) as [ret1 p1] eqn:L.
  destruct (long_spec _ _ _ _ _ _ W G L) as (A1 & A2 & A3 & A4 & A5 & _ & _ & A8 & _). rewrite (clamp_id r s Hs) in A2.
  assert (R1: ret1 = R_OK) by (rewrite A8; destruct (Qltb_spec (Length r) s); [lra|reflexivity]). rewrite R1, G. cbn [Z.eqb R_OK R_GENERIC].
  intro H. injection H as <- <-. cbn. auto.
Qed.

Variable choose : N -> N -> Z -> nat -> nat.

(** ** Following a link *)

Lemma target_leads id r la t l ret cp k r2 : wired -> GetRoad net id = Some r -> Road_GetLink r t = Some l -> link_target net choose r la l = (ret, cp, k, Some r2) ->
  leads net r t r2 cp /\ (cp = CP_START \/ cp = CP_END) /\ (0 <= ret)%Z /\ (rl_elem l = ELEMENT_ROAD -> rl_contact l = cp /\ GetRoad net (rl_id l) = Some r2) /\
  (rl_elem l = ELEMENT_JUNCTION -> rl_contact l = CP_JUNCTION) /\ (rl_elem l = ELEMENT_ROAD \/ rl_elem l = ELEMENT_JUNCTION).
Proof.
  intros W G L E. pose proof W as (W1 & W2). destruct (W2 _ _ _ _ G L) as (K1 & K2). unfold link_target in E. destruct (rl_elem l) eqn:El; [discriminate| |].
  - injection E as <- <- <- E. split; [apply (leads_road net r t l r2 L El E)|]. split; [apply K1; reflexivity|]. split; [discriminate|]. repeat split; auto; discriminate.
  - destruct (K2 eq_refl) as (K3 & K4). destruct (GetJunction net (rl_id l)) as [j|] eqn:J; [|discriminate].
    destruct (GetNumberOfRoadConnections j (nr_id r) (l_id la)) as [|n] eqn:Nc; [discriminate|]. set (idx := if (S n =? 1)%nat then _ else _) in E. clearbody idx.
    unfold GetRoadConnectionByIdx in E. rewrite pick_connection_spec in E by lia. rewrite Nat.sub_0_r in E.
    destruct (nth_error (lane_links (j_conns j) (nr_id r) (l_id la)) idx) as [x|] eqn:X.
    + apply nth_error_In in X. apply lane_links_in in X. destruct X as (c & to & I & Ic & It & ->). cbn in E. injection E as <- <- <- E.
      split; [apply (leads_junction net r t l j c r2 L El J I Ic E)|]. split; [apply (K4 j c eq_refl I Ic)|]. split; [discriminate|]. repeat split; auto; discriminate.
    + cbn in E. injection E as _ _ _ E. exfalso. apply (proj1 (W1 _ _ E)). reflexivity.
Qed.

Lemma enter_spec p id r t l ret cp k r2 ret' cp' q : wired -> GetRoad net id = Some r -> Road_GetLink r t = Some l -> leads net r t r2 cp -> cp = CP_START \/ cp = CP_END -> (0 <= ret)%Z ->
  (rl_elem l = ELEMENT_ROAD -> rl_contact l = cp /\ GetRoad net (rl_id l) = Some r2) -> (rl_elem l = ELEMENT_JUNCTION -> rl_contact l = CP_JUNCTION) -> (rl_elem l = ELEMENT_ROAD \/ rl_elem l = ELEMENT_JUNCTION) ->
  enter_road net mask p l ret cp k r2 = Some (ret', cp', q) ->
  cp' = cp /\ ret' = (if (k =? 0)%Z then R_REACHED_END_OF_LANE else ret) /\ m_track q = nr_id r2 /\ m_s q = entry_s r2 cp /\
  (k = 0%Z -> m_t q = m_t p /\ m_offset q = 0 /\ m_turned q = m_turned p) /\
  (k <> 0%Z -> let turn := (LinkType_eqb t PREDECESSOR && contact_eqb cp CP_START) || (LinkType_eqb t SUCCESSOR && contact_eqb cp CP_END) in
     m_offset q = (if turn then - m_offset p else m_offset p) /\ m_turned q = xorb turn (m_turned p)).
Proof.
  intros W G L Le Cp Rt K1 K2 K3 E. pose proof (leads_exists _ _ _ _ _ Le) as G2. pose proof (proj2 (proj1 W _ _ G2)) as Ln. unfold enter_road in E.
  rewrite (Road_GetLink_type _ _ _ L) in E. destruct (Z.eqb_spec k 0) as [->|Nk].
  - destruct Cp as [-> | ->].
    + destruct (SetTrackPos net mask p (nr_id r2) _ (m_t p)) as [ret1 p1] eqn:T. destruct (track_spec _ _ _ _ _ _ _ W G2 (conj (Qle_refl 0) Ln) T) as (-> & A1 & A2 & A3 & A4).
      injection E as <- <- <-. cbn. repeat split; auto; contradiction.
    + destruct (SetTrackPos net mask p (nr_id r2) _ (m_t p)) as [ret1 p1] eqn:T. destruct (track_spec _ _ _ _ _ _ _ W G2 (conj Ln (Qle_refl (Length r2))) T) as (-> & A1 & A2 & A3 & A4).
      injection E as <- <- <-. cbn. repeat split; auto; contradiction.
  - cbv zeta in E. set (turn := (_ && _) || (_ && _)) in *.
    assert (X: forall s sec, 0 <= s <= Length r2 -> option_map (fun x : Z * mpos => (ret, cp, snd x)) (SetLanePos net mask (if turn then with_turned (negb (m_turned p)) p else p) (nr_id r2) k s (if turn then - m_offset p else m_offset p) sec) = Some (ret', cp', q) ->
      cp' = cp /\ ret' = ret /\ m_track q = nr_id r2 /\ m_s q = s /\ m_offset q = (if turn then - m_offset p else m_offset p) /\ m_turned q = xorb turn (m_turned p)).
    { intros s sec Hs F. match type of F with option_map _ ?e = _ => destruct e as [[rr qq]|] eqn:S end; [|discriminate]. cbn in F. injection F as <- <- <-.
      destruct (lane_spec _ _ _ _ _ _ _ _ _ W G2 S) as (A1 & A2 & A3 & A4 & _). rewrite (clamp_id _ _ Hs) in A2. repeat split; auto. rewrite A4. destruct turn; cbn; [destruct (m_turned p); reflexivity|]. destruct (m_turned p); reflexivity. }
    assert (Fin: forall s, s = entry_s r2 cp -> cp' = cp /\ ret' = ret /\ m_track q = nr_id r2 /\ m_s q = s /\ m_offset q = (if turn then - m_offset p else m_offset p) /\ m_turned q = xorb turn (m_turned p) ->
      cp' = cp /\ ret' = ret /\ m_track q = nr_id r2 /\ m_s q = entry_s r2 cp /\ (k = 0%Z -> m_t q = m_t p /\ m_offset q = 0 /\ m_turned q = m_turned p) /\
      (k <> 0%Z -> let turn := turn in m_offset q = (if turn then - m_offset p else m_offset p) /\ m_turned q = xorb turn (m_turned p))).
    { intros s -> (B1 & B2 & B3 & B4 & B5 & B6). repeat split; auto; contradiction. }
    clearbody turn. destruct K3 as [El | El].
    + destruct (K1 El) as (Kc & Kr). rewrite Kc, Kr in E. destruct Cp as [-> | ->]; cbv iota in E; apply (Fin _ eq_refl); (eapply X; [|exact E]); split; auto; apply Qle_refl.
    + rewrite (K2 El), El in E. destruct Cp as [-> | ->]; cbv iota in E; apply (Fin _ eq_refl); (eapply X; [|exact E]); split; auto; apply Qle_refl.
Qed.

Lemma connect_spec p r t l ret cp q : wired -> GetRoad net (m_track p) = Some r -> Road_GetLink r t = Some l -> MoveToConnectingRoad net mask choose p l = Some (ret, cp, q) ->
  ((ret < 0)%Z -> m_track q = m_track p /\ m_s q = m_s p) /\
  ((0 <= ret)%Z -> exists r2, leads net r t r2 cp /\ (cp = CP_START \/ cp = CP_END) /\ m_track q = nr_id r2 /\ m_s q = entry_s r2 cp).
Proof.
  intros W G L E. unfold MoveToConnectingRoad in E. rewrite G in E.
  assert (X: forall c, Some (R_GENERIC, c, p) = Some (ret, cp, q) -> ((ret < 0)%Z -> m_track q = m_track p /\ m_s q = m_s p) /\
    ((0 <= ret)%Z -> exists r2, leads net r t r2 cp /\ (cp = CP_START \/ cp = CP_END) /\ m_track q = nr_id r2 /\ m_s q = entry_s r2 cp)).
  { intros c H. injection H as <- _ <-. split; [auto|]. intro H. exfalso. apply H. reflexivity. }
  destruct (rl_id l =? ID_UNDEFINED)%N; [apply (X _ E)|]. destruct (nth_error (r_sections (nr_road r)) (m_sec p)) as [ls|]; [|apply (X _ E)].
  destruct (match m_idx p with None => None | Some i => nth_error (ls_lanes ls) i end) as [la|]; [|apply (X _ E)].
  destruct (link_target net choose r la l) as [[[ret0 cp0] k] next] eqn:T. destruct next as [r2|]; [|apply (X _ E)].
  destruct (target_leads _ _ _ _ _ _ _ _ _ W G L T) as (T1 & T2 & T3 & T4 & T5 & T6).
  destruct (enter_spec _ _ _ _ _ _ _ _ _ _ _ _ W G L T1 T2 T3 T4 T5 T6 E) as (-> & -> & A1 & A2 & _). split.
  - intro H. exfalso. destruct (k =? 0)%Z; [unfold R_REACHED_END_OF_LANE in H|]; lia.
  - intros _. exists r2. auto.
Qed.

(** ** One round *)

Lemma width_spec r ret ret2 p ret' q : wired -> GetRoad net (m_track p) = Some r -> 0 <= m_s p <= Length r -> (0 <= ret)%Z -> (0 <= ret2)%Z -> check_width net mask r ret ret2 p = Some (ret', q) ->
  m_track q = m_track p /\ m_s q = m_s p /\ m_turned q = m_turned p /\ (m_offset q = m_offset p \/ m_offset q = 0) /\ ((0 <= ret')%Z \/ ret' = R_GENERIC).
Proof.
  intros W G Hs R1 R2 E. unfold check_width in E. destruct (m_lane p =? 0)%Z; [injection E as <- <-; auto 6|].
  destruct (GetLaneInfoByS _ _ _ _ _) as [[[[] i] k]|]; [injection E as <- <-; auto 6| |discriminate].
  destruct (Qltb _ SMALL).
  - destruct (nth_error (r_sections (nr_road r)) i) as [ls|]; [|discriminate].
    destruct (fst _) as [j|]; [|injection E as <- <-; auto 6]. destruct (nth_error (ls_lanes ls) j) as [la|]; [|discriminate].
    destruct (_ && _); [injection E as <- <-; auto 6|]. destruct (SetLanePos net mask p (m_track p) (l_id la) (m_s p) 0 None) as [[rr qq]|] eqn:S; [|discriminate].
    cbn in E. injection E as <- <-. destruct (lane_spec _ _ _ _ _ _ _ _ _ W G S) as (A1 & A2 & A3 & A4 & _). rewrite (clamp_id _ _ Hs) in A2. cbn. auto 6.
  - injection E as <- <-. repeat split; auto. left. destruct (ret =? R_OK)%Z; auto.
Qed.

Lemma settle_spec ret s o p r ret' q stop : wired -> GetRoad net (m_track p) = Some r -> 0 <= s <= Length r -> (0 <= ret)%Z -> settle net mask ret s o p = Some (ret', q, stop) ->
  (stop = true -> ret' = R_GENERIC /\ q = p) /\
  (stop = false -> (0 <= ret')%Z /\ m_track q = m_track p /\ m_s q = s /\ m_turned q = m_turned p /\ (m_offset q = o \/ m_offset q = 0)).
Proof.
  intros W G Hs R E. unfold settle in E. rewrite G in E. destruct (SetLanePos net mask p (m_track p) (m_lane p) s o None) as [[ret2 q0]|] eqn:S; [|discriminate].
  destruct (lane_spec _ _ _ _ _ _ _ _ _ W G S) as (A1 & A2 & A3 & A4 & A5). rewrite (clamp_id _ _ Hs) in A2. destruct (A5 (proj2 Hs)) as (_ & A6).
  assert (N2: (0 <= ret2)%Z \/ ret2 = R_GENERIC).
  { clear - S A6. unfold SetLanePos in S. destruct (SetLongitudinalTrackPos net (with_offset o p) (m_track p) s) as [ret1 p1] eqn:L.
    assert (F: forall rr ret0 pp, finish_lane rr ret0 pp = (ret2, q0) -> (0 <= ret0)%Z \/ ret0 = R_END_OF_ROAD \/ ret0 = R_GENERIC -> (0 <= ret2)%Z \/ ret2 = R_GENERIC).
    { intros rr ret0 pp F H. destruct (finish_spec _ _ _ _ _ F) as (_ & _ & _ & _ & _ & _ & _ & [-> | ->]); [|auto]. destruct H as [H|[H|H]]; auto. contradiction. }
    assert (R1: (0 <= ret1)%Z \/ ret1 = R_END_OF_ROAD \/ ret1 = R_GENERIC).
    { unfold SetLongitudinalTrackPos in L. destruct (net_roads net); [injection L as <- _; auto|]. destruct (_ =? ID_UNDEFINED)%N; [injection L as <- _; auto|].
      destruct (GetRoad net (m_track p)) as [rr|]; [|injection L as <- _; auto]. destruct (Qltb (Length rr) s); injection L as <- _; unfold R_OK; auto. left. lia. }
    destruct (ret1 =? R_GENERIC)%Z; [injection S as <- _|].
    - destruct R1 as [R1|[R1|R1]]; auto. contradiction.
    - destruct (GetRoad net (m_track p)) as [rr|]; [|injection S as <- _; auto]. cbv zeta in S.
      match type of S with match ?e with _ => _ end = _ => destruct e as [i|] end.
      + destruct (nth_error (r_sections (nr_road rr)) i) as [ls|]; [|injection S as <- _; auto]. destruct (GetLaneById ls (m_lane p)); [|injection S as <- _; auto].
        injection S as S. apply (F _ _ _ S R1).
      + destruct (GetLaneInfoByS _ _ _ _ _) as [[[rc i] k]|]; [|discriminate]. injection S as S. apply (F _ _ _ S). destruct (ret1 =? R_OK)%Z; [|exact R1]. left. destruct rc; discriminate. }
  assert (X: forall res : option (Z * mpos), (forall rr qq, res = Some (rr, qq) -> ((0 <= rr)%Z \/ rr = R_GENERIC) /\ m_track qq = m_track p /\ m_s qq = s /\ m_turned qq = m_turned p /\ (m_offset qq = o \/ m_offset qq = 0)) ->
    match res with None => None | Some (ret, q) => if (ret =? R_GENERIC)%Z then Some (ret, p, true) else Some (ret, q, false) end = Some (ret', q, stop) ->
    (stop = true -> ret' = R_GENERIC /\ q = p) /\ (stop = false -> (0 <= ret')%Z /\ m_track q = m_track p /\ m_s q = s /\ m_turned q = m_turned p /\ (m_offset q = o \/ m_offset q = 0))).
  { intros [[rr qq]|] H F; [|discriminate]. destruct (H rr qq eq_refl) as (H1 & H2). destruct (Z.eqb_spec rr R_GENERIC) as [Z|Z]; injection F as <- <- <-; split; try discriminate; auto.
    intros _. destruct H1 as [H1|H1]; [|contradiction]. auto. }
  cbv zeta in E. apply (X _) in E; auto. intros rr qq F. destruct (negb _); [injection F as <- <-; repeat split; auto|].
  destruct (Z.leb_spec 0 ret2) as [L2|L2].
  - assert (G0: GetRoad net (m_track q0) = Some r) by congruence. assert (H0: 0 <= m_s q0 <= Length r) by (rewrite A2; exact Hs).
    destruct (width_spec _ _ _ _ _ _ W G0 H0 R L2 F) as (B1 & B2 & B3 & B4 & B5). split; auto. split; [congruence|]. split; [congruence|]. split; [congruence|]. destruct B4 as [B4|B4]; rewrite B4; auto.
  - injection F as <- <-. destruct N2 as [N2|N2]; [lia|]. auto 6.
Qed.


Definition round_post (p : mpos) (r : nroad) (ds : Q) (st : step) : Prop :=
  match st with
  | Within ret q => 0 <= m_s p + ds <= Length r /\ m_track q = m_track p /\ ((ret = R_GENERIC /\ q = p) \/ ((0 <= ret)%Z /\ m_s q = m_s p + ds))
  | Stopped q => m_track q = m_track p /\ m_end q = true /\ ((Length r < m_s p + ds /\ m_s q = Length r) \/ (m_s p + ds < 0 /\ m_s q = 0))
  | Crossed ret q ds' _ stop => exists t r2 cp, leads net r t r2 cp /\ (cp = CP_START \/ cp = CP_END) /\ m_track q = nr_id r2 /\ m_s q == entry_s r2 cp /\
      ((t = SUCCESSOR /\ Length r < m_s p + ds /\ ds' == (if contact_eqb cp CP_END then - (m_s p + ds - Length r) else m_s p + ds - Length r)) \/
       (t = PREDECESSOR /\ m_s p + ds < 0 /\ ds' == (if contact_eqb cp CP_END then m_s p + ds else - (m_s p + ds)))) /\
      (stop = true -> ret = R_GENERIC) /\ (stop = false -> (0 <= ret)%Z)
  end.

Lemma entry_in r cp : 0 <= Length r -> 0 <= entry_s r cp <= Length r.
Proof. intro H. destruct cp; cbn; lra. Qed.

Lemma round_spec p r ds dOff sdOff ret st : wired -> GetRoad net (m_track p) = Some r -> 0 <= m_s p <= Length r -> (0 <= ret)%Z ->
  move_round net mask choose p ds dOff sdOff ret = Some st -> round_post p r ds st.
Proof.
  intros W G Hs R E. unfold move_round in E. rewrite G in E. pose proof (proj2 (proj1 W _ _ G)) as Ln.
  assert (X: forall t sec rest s_stop, 0 <= s_stop <= Length r -> cross_end net mask choose r p dOff t sec rest s_stop = Some st ->
    (exists q, st = Stopped q /\ m_track q = m_track p /\ m_end q = true /\ m_s q = s_stop) \/
    (exists r2 cp ret' q sd stop, st = Crossed ret' q (if contact_eqb cp CP_END then - Qabs rest else Qabs rest) sd stop /\ leads net r t r2 cp /\ (cp = CP_START \/ cp = CP_END) /\
      m_track q = nr_id r2 /\ m_s q == entry_s r2 cp /\ (stop = true -> ret' = R_GENERIC) /\ (stop = false -> (0 <= ret')%Z))).
  { intros t sec rest s_stop Hst F. unfold cross_end in F. cbv zeta in F.
    assert (St: forall q0 k o, m_track q0 = m_track p -> option_map (fun x : Z * mpos => Stopped (with_end true (snd x))) (SetLanePos net mask q0 (m_track q0) k s_stop o None) = Some st ->
      exists q, st = Stopped q /\ m_track q = m_track p /\ m_end q = true /\ m_s q = s_stop).
    { intros q0 k o T H. destruct (SetLanePos net mask q0 (m_track q0) k s_stop o None) as [[rr qq]|] eqn:S; [|discriminate]. cbn in H. injection H as <-.
      rewrite T in S. destruct (lane_spec _ _ _ _ _ _ _ _ _ W G S) as (A1 & A2 & _). rewrite (clamp_id _ _ Hst) in A2. eexists. split; [reflexivity|]. cbn. auto. }
    destruct (Road_GetLink r t) as [l|] eqn:L; [|left; apply (St (with_sec sec p) _ _ eq_refl F)].
    destruct (rl_id l =? ID_UNDEFINED)%N; [left; apply (St (with_sec sec p) _ _ eq_refl F)|].
    destruct (MoveToConnectingRoad net mask choose (with_sec sec p) l) as [[[ret1 cp] q1]|] eqn:M; [|discriminate].
    destruct (connect_spec (with_sec sec p) r t l ret1 cp q1 W G L M) as (C1 & C2). destruct (Z.ltb_spec ret1 0) as [Z|Z].
    - left. destruct (C1 Z) as (D1 & _). apply (St q1 _ _ D1 F).
    - right. destruct (C2 Z) as (r2 & D1 & D2 & D3 & D4). pose proof (leads_exists _ _ _ _ _ D1) as G2. pose proof (proj2 (proj1 W _ _ G2)) as L2. pose proof (entry_in r2 cp L2) as En.
      assert (G1: GetRoad net (m_track q1) = Some r2) by (rewrite D3; exact G2).
      assert (H1: 0 <= m_s q1 + 0 <= Length r2) by (rewrite D4; lra).
      exists r2, cp. destruct (contact_eqb cp CP_END); cbv iota in F;
        match type of F with option_map _ ?e = _ => destruct e as [[[ret2 q2] stop]|] eqn:S end; try discriminate; cbn in F; injection F as <-;
        destruct (settle_spec _ _ _ _ _ _ _ _ W G1 H1 Z S) as (S1 & S2); do 4 eexists; (split; [reflexivity|]); (split; [exact D1|]); (split; [exact D2|]);
        (destruct stop; [destruct (S1 eq_refl) as (S3 & ->)|destruct (S2 eq_refl) as (S3 & S4 & S5 & _)]);
        [| |  |]; (split; [congruence|]); (split; [rewrite ?D4, ?S5, ?D4; lra|]); split; auto; discriminate. }
  destruct (Qltb_spec (Length r) (m_s p + ds)) as [B|B].
  - destruct (X _ _ _ _ (conj Ln (Qle_refl _)) E) as [(q & -> & H1 & H2 & H3)|(r2 & cp & ret' & q & sd & stop & -> & H1 & H2 & H3 & H4 & H5)]; cbn; [auto 6|].
    exists SUCCESSOR, r2, cp. repeat (split; [assumption|]). split; [|exact H5]. left. split; [reflexivity|]. split; [exact B|].
    assert (A: Qabs (m_s p + ds - Length r) == m_s p + ds - Length r) by (apply Qabs_pos; lra). destruct (contact_eqb cp CP_END); rewrite A; lra.
  - destruct (Qltb_spec (m_s p + ds) 0) as [B2|B2].
    + destruct (X _ _ _ _ (conj (Qle_refl _) Ln) E) as [(q & -> & H1 & H2 & H3)|(r2 & cp & ret' & q & sd & stop & -> & H1 & H2 & H3 & H4 & H5)]; cbn; [auto 6|].
      exists PREDECESSOR, r2, cp. repeat (split; [assumption|]). split; [|exact H5]. right. split; [reflexivity|]. split; [exact B2|].
      assert (A: Qabs (m_s p + ds) == - (m_s p + ds)) by (apply Qabs_neg; lra). destruct (contact_eqb cp CP_END); rewrite A; lra.
    + match type of E with option_map _ ?e = _ => destruct e as [[[ret2 q2] stop]|] eqn:S end; [|discriminate]. cbn in E. injection E as <-.
      assert (H1: 0 <= m_s p + ds <= Length r) by lra. destruct (settle_spec _ _ _ _ _ _ _ _ W G H1 R S) as (S1 & S2). cbn. split; [exact H1|]. destruct stop.
      * destruct (S1 eq_refl) as (-> & ->). auto.
      * destruct (S2 eq_refl) as (S3 & S4 & S5 & _). auto.
Qed.

(** ** The loop *)

Lemma crosses_eq t s d n t' x y b : crosses t s d n t' x y b -> forall s2 d2 x2 y2, s2 == s -> d2 == d -> x2 == x -> y2 == y -> crosses t s2 d2 n t' x2 y2 b.
Proof.
  induction 1 as [t s d s' d' H1 H2|t r r2 cp s e d d2 n t' x y b G B Le Cp E1 E2 C IH|t r r2 cp s e d d2 n t' x y b G B Le Cp E1 E2 C IH]; intros u v x2 y2 Eu Ev Ex Ey.
  - apply cr_0; lra.
  - eapply cr_fwd; [exact G| |exact Le|exact Cp|exact E1| |apply IH; [reflexivity|reflexivity|exact Ex|exact Ey]]; [lra|]. rewrite E2. destruct (contact_eqb cp CP_END); lra.
  - eapply cr_bwd; [exact G| |exact Le|exact Cp|exact E1| |apply IH; [reflexivity|reflexivity|exact Ex|exact Ey]]; [lra|]. rewrite E2. destruct (contact_eqb cp CP_END); lra.
Qed.

(** How a move ends: the code, the position and whether the loop was left at the end of the roads. *)
Definition move_post (n : nat) (t : N) (s d : Q) (ret : Z) (q : mpos) (e : bool) : Prop :=
  ((0 <= ret)%Z /\ e = false /\ ((exists m b, (m < n)%nat /\ walk t s d m (m_track q) (m_s q) b) \/ (exists d1 b, crosses t s d n (m_track q) (m_s q) d1 b))) \/
  (ret = R_END_OF_ROAD /\ e = true /\ m_end q = true /\ exists m b s1 d1 r, (m < n)%nat /\ crosses t s d m (m_track q) s1 d1 b /\ GetRoad net (m_track q) = Some r /\
     ((Length r < s1 + d1 /\ m_s q = Length r) \/ (s1 + d1 < 0 /\ m_s q = 0))) \/
  (ret = R_GENERIC /\ e = false /\ exists m b d1, (m <= n)%nat /\ crosses t s d m (m_track q) (m_s q) d1 b).

Lemma loop_spec : wired -> forall n p ds dOff sdOff ret ret' q e, on_net p -> (0 <= ret)%Z -> move_loop net mask choose n p ds dOff sdOff ret = Some (ret', q, e) ->
  on_net q /\ move_post n (m_track p) (m_s p) ds ret' q e.
Proof.
  intros W. induction n as [|n IH]; intros p ds dOff sdOff ret ret' q e On R E; cbn [move_loop] in E.
  - injection E as <- <- <-. split; [exact On|]. left. split; [exact R|]. split; [reflexivity|]. right. exists ds, false. apply cr_0; reflexivity.
  - destruct (move_round net mask choose p ds dOff sdOff ret) as [st|] eqn:M; [|discriminate]. destruct On as (r & G & Hs).
    pose proof (round_spec _ _ _ _ _ _ _ W G Hs R M) as P. destruct st as [rr qq|qq|rr qq ds' sd stop]; cbn in P.
    + injection E as <- <- <-. destruct P as (P1 & P2 & P3). destruct P3 as [(-> & ->)|(P3 & P4)].
      * split; [exists r; auto|]. right. right. split; [reflexivity|]. split; [reflexivity|]. exists 0%nat, false, ds. split; [lia|]. apply cr_0; reflexivity.
      * split; [exists r; rewrite P2, P4; auto|]. left. split; [exact P3|]. split; [reflexivity|]. left. exists 0%nat, false. split; [lia|]. exists (m_s p), ds, r.
        rewrite P2, P4. split; [apply cr_0; reflexivity|]. split; [exact G|]. split; [exact P1|reflexivity].
    + injection E as <- <- <-. destruct P as (P1 & P2 & P3). pose proof (proj2 (proj1 W _ _ G)) as Ln. split.
      * exists r. rewrite P1. split; [exact G|]. destruct P3 as [(_ & ->)|(_ & ->)]; lra.
      * right. left. split; [reflexivity|]. split; [reflexivity|]. split; [exact P2|]. exists 0%nat, false, (m_s p), ds, r. split; [lia|]. rewrite P1. split; [apply cr_0; reflexivity|]. auto.
    + destruct P as (t & r2 & cp & Le & Cp & P1 & P2 & P3 & P4 & P5). pose proof (leads_exists _ _ _ _ _ Le) as G2. pose proof (entry_in r2 cp (proj2 (proj1 W _ _ G2))) as En.
      assert (On2: on_net qq) by (exists r2; rewrite P1; split; [exact G2|lra]).
      assert (X: forall m t' x y b, crosses (m_track qq) (m_s qq) ds' m t' x y b -> exists b', crosses (m_track p) (m_s p) ds (S m) t' x y b').
      { intros m t' x y b C. rewrite P1 in C. destruct P3 as [(-> & P6 & P7)|(-> & P6 & P7)]; eexists; [eapply cr_fwd|eapply cr_bwd]; eauto. }
      destruct stop.
      * injection E as <- <- <-. split; [exact On2|]. right. right. split; [auto|]. split; [reflexivity|].
        assert (C0: crosses (m_track qq) (m_s qq) ds' 0 (m_track qq) (m_s qq) ds' false) by (apply cr_0; reflexivity).
        destruct (X _ _ _ _ _ C0) as (b' & C). exists 1%nat, b', ds'. split; [lia|exact C].
      * specialize (IH _ _ _ _ _ _ _ _ On2 (P5 eq_refl) E). destruct IH as (O & IH). split; [exact O|].
        destruct IH as [(K1 & K2 & K3)|[(K1 & K2 & K3 & m & b & s1 & d1 & rq & K4 & K5 & K6)|(K1 & K2 & m & b & d1 & K3 & K4)]].
        -- left. split; [exact K1|]. split; [exact K2|]. destruct K3 as [(m & b & Hm & s1 & d1 & r1 & C & K3)|(d1 & b & C)].
           ++ left. destruct (X _ _ _ _ _ C) as (b' & C'). exists (S m), b'. split; [lia|]. exists s1, d1, r1. auto.
           ++ right. destruct (X _ _ _ _ _ C) as (b' & C'). exists d1, b'. exact C'.
        -- right. left. split; [exact K1|]. split; [exact K2|]. split; [exact K3|]. destruct (X _ _ _ _ _ K5) as (b' & C'). exists (S m), b', s1, d1, rq. split; [lia|]. auto.
        -- right. right. split; [exact K1|]. split; [exact K2|]. destruct (X _ _ _ _ _ K4) as (b' & C'). exists (S m), b', d1. split; [lia|exact C'].
Qed.

(** ** Walking *)

Lemma crosses_trans t s d n t1 x1 y1 b1 : crosses t s d n t1 x1 y1 b1 -> forall n2 t2 x2 y2 b2, crosses t1 x1 y1 n2 t2 x2 y2 b2 -> crosses t s d (n + n2) t2 x2 y2 (xorb b1 b2).
Proof.
  induction 1 as [t s d s' d' H1 H2|t r r2 cp s e d d2 n t' x y b G B Le Cp E1 E2 C IH|t r r2 cp s e d d2 n t' x y b G B Le Cp E1 E2 C IH]; intros n2 t2 x2 y2 b2 C2.
  - rewrite xorb_false_l. cbn [Nat.add]. apply (crosses_eq _ _ _ _ _ _ _ _ C2); [symmetry; exact H1|symmetry; exact H2|reflexivity|reflexivity].
  - rewrite xorb_assoc. cbn [Nat.add]. eapply cr_fwd; eauto.
  - rewrite xorb_assoc. cbn [Nat.add]. eapply cr_bwd; eauto.
Qed.

(** Only the sum of the position on the road and the distance counts. *)
Lemma crosses_sum t s d n t' x y b : crosses t s d n t' x y b -> forall s2 d2, s2 + d2 == s + d -> exists x2 y2, x2 + y2 == x + y /\ crosses t s2 d2 n t' x2 y2 b /\ (n <> 0%nat -> x2 == x).
Proof.
  intro C. inversion C; subst; intros s2' d2' E.
  - exists s2', d2'. split; [lra|]. split; [apply cr_0; reflexivity|congruence].
  - exists x, y. split; [reflexivity|]. split; [|reflexivity]. eapply cr_fwd; eauto; [lra|]. rewrite H4. destruct (contact_eqb cp CP_END); lra.
  - exists x, y. split; [reflexivity|]. split; [|reflexivity]. eapply cr_bwd; eauto; [lra|]. rewrite H4. destruct (contact_eqb cp CP_END); lra.
Qed.

(** The sign of the distance left tells the direction. *)
Lemma crosses_more t s d n t' x y b : wired -> crosses t s d n t' x y b -> (exists r, GetRoad net t = Some r /\ 0 <= s <= Length r) ->
  (exists r, GetRoad net t' = Some r /\ 0 <= x <= Length r) /\ (0 < d -> if b then y < 0 else 0 < y) /\ (d < 0 -> if b then 0 < y else y < 0) /\ (n <> 0%nat -> ~ d == 0).
Proof.
  intros W C. induction C as [t s d s' d' H1 H2|t r r2 cp s e d d2 n t' x y b G B Le Cp E1 E2 C IH|t r r2 cp s e d d2 n t' x y b G B Le Cp E1 E2 C IH]; intros (r0 & G0 & H0).
  - split; [exists r0; split; [exact G0|lra]|]. split; [intro; lra|]. split; [intro; lra|congruence].
  - rewrite G in G0. injection G0 as <-. pose proof (leads_exists _ _ _ _ _ Le) as G2. pose proof (entry_in r2 cp (proj2 (proj1 W _ _ G2))) as En.
    destruct IH as (I1 & I2 & I3 & _); [exists r2; split; [exact G2|lra]|]. split; [exact I1|].
    split; [intro P|split; [intro P; lra|intros _ K; lra]]. destruct Cp as [-> | ->]; cbn in E2; destruct b; cbn; cbn in I2, I3; first [apply I2; lra | apply I3; lra].
  - rewrite G in G0. injection G0 as <-. pose proof (leads_exists _ _ _ _ _ Le) as G2. pose proof (entry_in r2 cp (proj2 (proj1 W _ _ G2))) as En.
    destruct IH as (I1 & I2 & I3 & _); [exists r2; split; [exact G2|lra]|]. split; [exact I1|].
    split; [intro P; lra|split; [intro P|intros _ K; lra]]. destruct Cp as [-> | ->]; cbn in E2; destruct b; cbn; cbn in I2, I3; first [apply I2; lra | apply I3; lra].
Qed.


Definition in_road (t : N) (s : Q) : Prop := exists r, GetRoad net t = Some r /\ 0 <= s <= Length r.

(** A longer way in the same direction takes the same turns. *)
Lemma crosses_longer t s d n t' x y b : wired -> crosses t s d n t' x y b -> in_road t s -> forall e, (0 < d -> 0 <= e) -> (d < 0 -> e <= 0) -> crosses t s (d + e) n t' x (y + (if b then - e else e)) b.
Proof.
  intros W C. induction C as [t s d s' d' H1 H2|t r r2 cp s z d d2 n t' x y b G B Le Cp E1 E2 C IH|t r r2 cp s z d d2 n t' x y b G B Le Cp E1 E2 C IH]; intros (r0 & G0 & H0) e P1 P2.
  - apply cr_0; [exact H1|lra].
  - rewrite G in G0. injection G0 as <-. pose proof (leads_exists _ _ _ _ _ Le) as G2. pose proof (entry_in r2 cp (proj2 (proj1 W _ _ G2))) as En.
    assert (I0: in_road (nr_id r2) z) by (exists r2; split; [exact G2|lra]). assert (P: 0 <= e) by (apply P1; lra).
    eapply crosses_eq; [|reflexivity|reflexivity|reflexivity|].
    + eapply (cr_fwd t r r2 cp s z (d + e) (d2 + (if contact_eqb cp CP_END then - e else e))); eauto; [lra|rewrite E2; destruct (contact_eqb cp CP_END); lra|].
      apply IH; [exact I0| |]; rewrite E2; destruct (contact_eqb cp CP_END); lra.
    + destruct (contact_eqb cp CP_END), b; cbn; lra.
  - rewrite G in G0. injection G0 as <-. pose proof (leads_exists _ _ _ _ _ Le) as G2. pose proof (entry_in r2 cp (proj2 (proj1 W _ _ G2))) as En.
    assert (I0: in_road (nr_id r2) z) by (exists r2; split; [exact G2|lra]). assert (P: e <= 0) by (apply P2; lra).
    assert (Cs: contact_eqb cp CP_START = negb (contact_eqb cp CP_END)) by (destruct Cp as [-> | ->]; reflexivity).
    eapply crosses_eq; [|reflexivity|reflexivity|reflexivity|].
    + eapply (cr_bwd t r r2 cp s z (d + e) (d2 + (if contact_eqb cp CP_END then e else - e))); eauto; [lra|rewrite E2; destruct (contact_eqb cp CP_END); lra|].
      apply IH; [exact I0| |]; rewrite E2; destruct (contact_eqb cp CP_END); lra.
    + rewrite Cs. destruct (contact_eqb cp CP_END), b; cbn; lra.
Qed.

(** Two moves in the same direction are one. *)
Lemma walk_add t s d1 n1 t1 x1 b1 n2 t2 x2 b2 d2 : wired -> in_road t s -> walk t s d1 n1 t1 x1 b1 -> (0 < d1 -> 0 <= d2) -> (d1 < 0 -> d2 <= 0) ->
  walk t1 x1 (if b1 then - d2 else d2) n2 t2 x2 b2 -> walk t s (d1 + d2) (n1 + n2) t2 x2 (xorb b1 b2).
Proof.
  intros W I (s1 & y1 & r1 & C1 & G1 & H1 & E1) P1 P2 (s2 & y2 & r2 & C2 & G2 & H2 & E2).
  pose proof (crosses_longer _ _ _ _ _ _ _ _ W C1 I d2 P1 P2) as C3.
  destruct (crosses_sum _ _ _ _ _ _ _ _ C2 s1 (y1 + (if b1 then - d2 else d2))) as (x3 & y3 & E3 & C4 & _); [lra|].
  exists x3, y3, r2. split; [apply (crosses_trans _ _ _ _ _ _ _ _ C3 _ _ _ _ _ C4)|]. split; [exact G2|]. split; lra.
Qed.

(** Only one way on at every end of a road. *)
Definition single : Prop := forall r t r2 cp r2' cp', leads net r t r2 cp -> leads net r t r2' cp' -> r2 = r2' /\ cp = cp'.

Lemma crosses_det t s d n t' x y b : wired -> single -> crosses t s d n t' x y b -> forall m u v w c, crosses t s d m u v w c -> (n <= m)%nat ->
  exists k c2, m = (n + k)%nat /\ c = xorb b c2 /\ crosses t' x y k u v w c2.
Proof.
  intros W Sg C. induction C as [t s d s' d' H1 H2|t r r2 cp s z d d2 n t' x y b G B Le Cp E1 E2 C IH|t r r2 cp s z d d2 n t' x y b G B Le Cp E1 E2 C IH]; intros m u v w c D Lm.
  - exists m, c. split; [reflexivity|]. split; [symmetry; apply xorb_false_l|]. apply (crosses_eq _ _ _ _ _ _ _ _ D); auto; reflexivity.
  - pose proof (proj2 (proj1 W _ _ G)) as Ln. inversion D as [|t0 r' r2' cp' s0 z' d0 d2' n' t0' x0 y0 b' G' B' Le' Cp' E1' E2' D'|t0 r' r2' cp' s0 z' d0 d2' n' t0' x0 y0 b' G' B' Le' Cp' E1' E2' D']; subst; [lia| |rewrite G in G'; injection G' as <-; lra].
    rewrite G in G'. injection G' as <-. destruct (Sg _ _ _ _ _ _ Le Le') as (<- & <-).
    assert (D2: crosses (nr_id r2) z d2 n' u v w b') by (apply (crosses_eq _ _ _ _ _ _ _ _ D'); try reflexivity; lra).
    destruct (IH _ _ _ _ _ D2) as (k & c2 & -> & -> & K); [lia|]. exists k, c2. split; [reflexivity|]. split; [symmetry; apply xorb_assoc|exact K].
  - pose proof (proj2 (proj1 W _ _ G)) as Ln. inversion D as [|t0 r' r2' cp' s0 z' d0 d2' n' t0' x0 y0 b' G' B' Le' Cp' E1' E2' D'|t0 r' r2' cp' s0 z' d0 d2' n' t0' x0 y0 b' G' B' Le' Cp' E1' E2' D']; subst; [lia|rewrite G in G'; injection G' as <-; lra|].
    rewrite G in G'. injection G' as <-. destruct (Sg _ _ _ _ _ _ Le Le') as (<- & <-).
    assert (D2: crosses (nr_id r2) z d2 n' u v w b') by (apply (crosses_eq _ _ _ _ _ _ _ _ D'); try reflexivity; lra).
    destruct (IH _ _ _ _ _ D2) as (k & c2 & -> & -> & K); [lia|]. exists k, c2. split; [reflexivity|]. split; [symmetry; apply xorb_assoc|exact K].
Qed.

Lemma crosses_done t x y k u v w c r : crosses t x y k u v w c -> GetRoad net t = Some r -> 0 <= x + y <= Length r -> k = 0%nat /\ u = t /\ v == x /\ w == y /\ c = false.
Proof. intros C G H. inversion C; subst; [auto| |]; match goal with K : GetRoad net t = Some _ |- _ => rewrite G in K; injection K as <- end; lra. Qed.

Lemma walk_crosses t s d n t' x b m u v w c : wired -> single -> walk t s d n t' x b -> crosses t s d m u v w c -> (n <= m)%nat -> m = n /\ u = t' /\ v + w == x /\ c = b.
Proof.
  intros W Sg (s1 & d1 & r & C & G & H & E) D L. destruct (crosses_det _ _ _ _ _ _ _ _ W Sg C _ _ _ _ _ D L) as (k & c2 & -> & -> & K).
  destruct (crosses_done _ _ _ _ _ _ _ _ _ K G H) as (-> & -> & Ev & Ew & ->). split; [lia|]. split; [reflexivity|]. split; [lra|]. apply xorb_false_r.
Qed.

Lemma walk_det t s d n t' x b m t2 x2 b2 : wired -> single -> walk t s d n t' x b -> walk t s d m t2 x2 b2 -> m = n /\ t2 = t' /\ x2 == x /\ b2 = b.
Proof.
  intros W Sg A B. destruct (Nat.le_ge_cases n m) as [L|L].
  - pose proof B as (s1 & d1 & r & C & G & H & E). destruct (walk_crosses _ _ _ _ _ _ _ _ _ _ _ _ W Sg A C L) as (-> & -> & E2 & ->). split; [reflexivity|]. split; [reflexivity|]. split; [lra|reflexivity].
  - pose proof A as (s1 & d1 & r & C & G & H & E). destruct (walk_crosses _ _ _ _ _ _ _ _ _ _ _ _ W Sg B C L) as (-> & -> & E2 & ->). split; [reflexivity|]. split; [reflexivity|]. split; [lra|reflexivity].
Qed.

(** Every way can be gone back. *)
Definition symmetric : Prop := forall r r2 cp, GetRoad net (nr_id r) = Some r -> (leads net r SUCCESSOR r2 cp -> leads net r2 (match cp with CP_END => SUCCESSOR | _ => PREDECESSOR end) r CP_END) /\
  (leads net r PREDECESSOR r2 cp -> leads net r2 (match cp with CP_END => SUCCESSOR | _ => PREDECESSOR end) r CP_START).

Lemma road_id t r : GetRoad net t = Some r -> nr_id r = t.
Proof. unfold GetRoad. intro H. apply find_some in H. destruct H as (_ & H). apply N.eqb_eq in H. auto. Qed.

Lemma crosses_back t s d n t' s1 y b : wired -> symmetric -> crosses t s d n t' s1 y b -> in_road t s -> forall x e, x == s1 + y -> (0 < d /\ 0 < e) \/ (d < 0 /\ e < 0) ->
  exists x' y', crosses t' x (if b then d + e else - (d + e)) n t x' y' b /\ x' + y' == s - e.
Proof.
  intros W Sy C. induction C as [t s d s' d' H1 H2|t r r2 cp s z d d2 n t' x1 y b G B Le Cp E1 E2 C IH|t r r2 cp s z d d2 n t' x1 y b G B Le Cp E1 E2 C IH]; intros (r0 & G0 & H0) x e Ex P.
  - exists x, (- (d + e)). split; [apply cr_0; reflexivity|lra].
  - rewrite G in G0. injection G0 as <-. pose proof (leads_exists _ _ _ _ _ Le) as G2. pose proof (entry_in r2 cp (proj2 (proj1 W _ _ G2))) as En.
    assert (I0: in_road (nr_id r2) z) by (exists r2; split; [exact G2|lra]). pose proof (proj1 (Sy _ _ _ (GetRoad_own _ _ _ G)) Le) as Bk.
    destruct (IH I0 x (if contact_eqb cp CP_END then - (Length r - s + e) else Length r - s + e) Ex) as (x' & y' & K & Es); [destruct (contact_eqb cp CP_END); lra|].
    exists (Length r), (s - e - Length r). split; [|lra].
    assert (K2: crosses t' x (if xorb (contact_eqb cp CP_END) b then d + e else - (d + e)) n (nr_id r2) x' y' b)
      by (apply (crosses_eq _ _ _ _ _ _ _ _ K); try reflexivity; clear - E2; destruct (contact_eqb cp CP_END), b; cbn; lra).
    rewrite <- (road_id _ _ G). replace (S n) with (n + 1)%nat by lia. rewrite (xorb_comm (contact_eqb cp CP_END) b). rewrite (xorb_comm (contact_eqb cp CP_END) b) in K2.
    apply (crosses_trans _ _ _ _ _ _ _ _ K2). rewrite <- (xorb_false_r (contact_eqb cp CP_END)). destruct Cp as [-> | ->]; cbn [entry_s contact_eqb] in *.
    + apply (cr_bwd (nr_id r2) r2 r CP_END x' (Length r) y' (s - e - Length r)); auto; [lra|reflexivity|cbn; lra|]. apply cr_0; reflexivity.
    + apply (cr_fwd (nr_id r2) r2 r CP_END x' (Length r) y' (s - e - Length r)); auto; [lra|reflexivity|cbn; lra|]. apply cr_0; reflexivity.
  - rewrite G in G0. injection G0 as <-. pose proof (leads_exists _ _ _ _ _ Le) as G2. pose proof (entry_in r2 cp (proj2 (proj1 W _ _ G2))) as En.
    assert (I0: in_road (nr_id r2) z) by (exists r2; split; [exact G2|lra]). pose proof (proj2 (Sy _ _ _ (GetRoad_own _ _ _ G)) Le) as Bk.
    assert (Cs: contact_eqb cp CP_START = negb (contact_eqb cp CP_END)) by (destruct Cp as [-> | ->]; reflexivity).
    destruct (IH I0 x (if contact_eqb cp CP_END then e - s else s - e) Ex) as (x' & y' & K & Es); [destruct (contact_eqb cp CP_END); lra|].
    exists 0, (s - e). split; [|lra].
    assert (K2: crosses t' x (if xorb (contact_eqb cp CP_START) b then d + e else - (d + e)) n (nr_id r2) x' y' b)
      by (apply (crosses_eq _ _ _ _ _ _ _ _ K); try reflexivity; rewrite Cs; clear - E2; destruct (contact_eqb cp CP_END), b; cbn; lra).
    rewrite <- (road_id _ _ G). replace (S n) with (n + 1)%nat by lia. rewrite (xorb_comm (contact_eqb cp CP_START) b). rewrite (xorb_comm (contact_eqb cp CP_START) b) in K2.
    apply (crosses_trans _ _ _ _ _ _ _ _ K2). rewrite <- (xorb_false_r (contact_eqb cp CP_START)). destruct Cp as [-> | ->]; cbn [entry_s contact_eqb] in *.
    + apply (cr_bwd (nr_id r2) r2 r CP_START x' 0 y' (s - e)); auto; [lra|reflexivity|cbn; lra|]. apply cr_0; reflexivity.
    + apply (cr_fwd (nr_id r2) r2 r CP_START x' 0 y' (s - e)); auto; [lra|reflexivity|cbn; lra|]. apply cr_0; reflexivity.
Qed.

(** There and back again. *)
Lemma walk_back t s d n t' x b r : wired -> symmetric -> GetRoad net t = Some r -> 0 < s < Length r -> walk t s d n t' x b -> walk t' x (if b then d else - d) n t s b.
Proof.
  intros W Sy G H0 (s1 & y & r1 & C & G1 & H1 & Ex). inversion C as [? ? ? ? ? E1 E2|? r' r2 cp ? z ? d2 n' ? ? ? b' G' B Le Cp E1 E2 C'|? r' r2 cp ? z ? d2 n' ? ? ? b' G' B Le Cp E1 E2 C']; subst.
  - exists x, (- d), r. split; [apply cr_0; reflexivity|]. split; [exact G|]. split; lra.
  - rewrite G in G'. injection G' as <-. pose proof (leads_exists _ _ _ _ _ Le) as G2. pose proof (entry_in r2 cp (proj2 (proj1 W _ _ G2))) as En.
    assert (I0: in_road (nr_id r2) z) by (exists r2; split; [exact G2|lra]). pose proof (proj1 (Sy _ _ _ (GetRoad_own _ _ _ G)) Le) as Bk.
    destruct (crosses_back _ _ _ _ _ _ _ _ W Sy C' I0 x (if contact_eqb cp CP_END then - (Length r - s) else Length r - s) Ex) as (x' & y' & K & Es); [destruct (contact_eqb cp CP_END); lra|].
    exists (Length r), (s - Length r), r. split; [|split; [exact G|split; lra]].
    assert (K2: crosses t' x (if xorb (contact_eqb cp CP_END) b' then d else - d) n' (nr_id r2) x' y' b')
      by (apply (crosses_eq _ _ _ _ _ _ _ _ K); try reflexivity; clear - E2; destruct (contact_eqb cp CP_END), b'; cbn; lra).
    rewrite <- (road_id _ _ G). replace (S n') with (n' + 1)%nat by lia. rewrite (xorb_comm (contact_eqb cp CP_END) b'). rewrite (xorb_comm (contact_eqb cp CP_END) b') in K2.
    apply (crosses_trans _ _ _ _ _ _ _ _ K2). rewrite <- (xorb_false_r (contact_eqb cp CP_END)). destruct Cp as [-> | ->]; cbn [entry_s contact_eqb] in *.
    + apply (cr_bwd (nr_id r2) r2 r CP_END x' (Length r) y' (s - Length r)); auto; [lra|reflexivity|cbn; lra|]. apply cr_0; reflexivity.
    + apply (cr_fwd (nr_id r2) r2 r CP_END x' (Length r) y' (s - Length r)); auto; [lra|reflexivity|cbn; lra|]. apply cr_0; reflexivity.
  - rewrite G in G'. injection G' as <-. pose proof (leads_exists _ _ _ _ _ Le) as G2. pose proof (entry_in r2 cp (proj2 (proj1 W _ _ G2))) as En.
    assert (I0: in_road (nr_id r2) z) by (exists r2; split; [exact G2|lra]). pose proof (proj2 (Sy _ _ _ (GetRoad_own _ _ _ G)) Le) as Bk.
    assert (Cs: contact_eqb cp CP_START = negb (contact_eqb cp CP_END)) by (destruct Cp as [-> | ->]; reflexivity).
    destruct (crosses_back _ _ _ _ _ _ _ _ W Sy C' I0 x (if contact_eqb cp CP_END then - s else s) Ex) as (x' & y' & K & Es); [destruct (contact_eqb cp CP_END); lra|].
    exists 0, s, r. split; [|split; [exact G|split; lra]].
    assert (K2: crosses t' x (if xorb (contact_eqb cp CP_START) b' then d else - d) n' (nr_id r2) x' y' b')
      by (apply (crosses_eq _ _ _ _ _ _ _ _ K); try reflexivity; rewrite Cs; clear - E2; destruct (contact_eqb cp CP_END), b'; cbn; lra).
    rewrite <- (road_id _ _ G). replace (S n') with (n' + 1)%nat by lia. rewrite (xorb_comm (contact_eqb cp CP_START) b'). rewrite (xorb_comm (contact_eqb cp CP_START) b') in K2.
    apply (crosses_trans _ _ _ _ _ _ _ _ K2). rewrite <- (xorb_false_r (contact_eqb cp CP_START)). destruct Cp as [-> | ->]; cbn [entry_s contact_eqb] in *.
    + apply (cr_bwd (nr_id r2) r2 r CP_START x' 0 y' s); auto; [lra|reflexivity|cbn; lra|]. apply cr_0; reflexivity.
    + apply (cr_fwd (nr_id r2) r2 r CP_START x' 0 y' s); auto; [lra|reflexivity|cbn; lra|]. apply cr_0; reflexivity.
Qed.


(** ** No null pointer *)

Definition has_centre (ls : lsec) : Prop := GetLaneById ls 0 <> None.
Definition laned : Prop := forall id r, GetRoad net id = Some r -> r_sections (nr_road r) <> [] /\ forall ls, In ls (r_sections (nr_road r)) -> has_centre ls.
Definition sec_ok (p : mpos) : Prop := exists r, GetRoad net (m_track p) = Some r /\ (m_sec p < List.length (r_sections (nr_road r)))%nat.

Lemma lane_idx_some l id i k : lane_idx l id i = Some k -> (i <= k)%nat /\ exists a, nth_error l (k - i) = Some a /\ l_id a = id.
Proof.
  revert i. induction l as [|a l IH]; intros i H; cbn in H; [discriminate|]. destruct (Z.eqb_spec (l_id a) id) as [E|E].
  - injection H as <-. split; [lia|]. rewrite Nat.sub_diag. exists a. auto.
  - destruct (IH _ H) as (L & x & N & X). split; [lia|]. exists x. split; [|exact X]. replace (k - i)%nat with (S (k - S i)) by lia. exact N.
Qed.

Lemma lane_idx_has l id i : find (fun a => (l_id a =? id)%Z) l <> None -> exists k, lane_idx l id i = Some k.
Proof.
  revert i. induction l as [|a l IH]; intros i H; cbn in *; [contradiction|]. destruct (l_id a =? id)%Z; [eauto|]. apply IH, H.
Qed.

Lemma closest_loop_valid ls s t lo side nz mask0 l i cand mo k d : (forall c, cand = Some c -> (c < i)%nat) -> closest_loop ls s t lo side nz mask0 l i cand mo = (Some k, d) -> (k < i + List.length l)%nat.
Proof.
  revert i cand mo. induction l as [|a l IH]; intros i cand mo H E; cbn [closest_loop List.length] in *.
  - injection E as -> _. specialize (H _ eq_refl). lia.
  - cbv zeta in E. assert (A: forall c, Some i = Some c -> (c < S i)%nat) by (intros c Hc; injection Hc as <-; lia).
    assert (B: forall c, cand = Some c -> (c < S i)%nat) by (intros c Hc; specialize (H _ Hc); lia).
    destruct (eligible _ _ _ _ _ _); [|specialize (IH _ _ _ B E); lia].
    destruct (Qltb _ _); [injection E as <- _; lia|]. destruct (_ || _); [specialize (IH _ _ _ A E)|specialize (IH _ _ _ B E)]; lia.
Qed.

Lemma closest_valid ls s t lo side nz mask0 : has_centre ls -> exists k la, fst (GetClosestLaneIdx ls s t lo side nz mask0) = Some k /\ nth_error (ls_lanes ls) k = Some la.
Proof.
  intro H. unfold GetClosestLaneIdx. destruct (closest_loop ls s t lo side nz mask0 (ls_lanes ls) 0 None (t - lo)) as [[k|] d] eqn:C; cbn [fst].
  - apply closest_loop_valid in C; [|discriminate]. destruct (nth_error (ls_lanes ls) k) as [la|] eqn:K; [exists k, la; auto|]. apply nth_error_None in K. lia.
  - destruct (lane_idx_has _ _ 0%nat H) as (k & K). unfold GetLaneIdxById. destruct (lane_idx_some _ _ _ _ K) as (_ & a & N & _). rewrite Nat.sub_0_r in N. exists k, a. auto.
Qed.

Lemma info_fwd_lt l s i k : (i <= fst (info_fwd l s i k))%nat /\ (l <> [] -> (fst (info_fwd l s i k) < i + List.length l)%nat).
Proof.
  revert i k. induction l as [|a l IH]; intros i k; cbn [info_fwd fst List.length]; [split; [lia|congruence]|].
  destruct l as [|b l]; [cbn; split; lia|]. destruct (Qltb _ _); [|cbn; split; lia]. specialize (IH (S i) (if (k =? 0)%Z then k else GetConnectingLaneId a k SUCCESSOR)). destruct IH as (I1 & I2).
  split; [lia|]. intros _. specialize (I2 ltac:(discriminate)). cbn [List.length] in *. lia.
Qed.

Lemma info_bwd_le l s i k : (fst (info_bwd l s i k) <= i)%nat.
Proof.
  revert i k. induction l as [|a l IH]; intros i k; cbn [info_bwd fst]; [lia|]. destruct l as [|b l]; [cbn; lia|]. destruct (Qltb _ _); [|cbn; lia].
  specialize (IH (i - 1)%nat (if (k =? 0)%Z then k else GetConnectingLaneId a k PREDECESSOR)). lia.
Qed.

Lemma info_some r s i k mask0 : (forall ls, In ls (r_sections r) -> has_centre ls) -> (i < List.length (r_sections r))%nat ->
  exists b i' k', GetLaneInfoByS r s i k mask0 = Some (b, i', k') /\ (i' < List.length (r_sections r))%nat.
Proof.
  intros H L. unfold GetLaneInfoByS. destruct (nth_error (r_sections r) i) as [a|] eqn:A; [|apply nth_error_None in A; lia].
  destruct (_ || _); [|exists false, i, k; auto].
  set (x := if Qltb (ls_end a) s then _ else _). assert (X: (fst x < List.length (r_sections r))%nat).
  { subst x. destruct (Qltb (ls_end a) s).
    - pose proof (info_fwd_lt (skipn i (r_sections r)) s i k) as (_ & I). rewrite skipn_length in I. assert (NE: skipn i (r_sections r) <> []) by (intro E; apply (f_equal (@List.length _)) in E; rewrite skipn_length in E; cbn in E; lia).
      specialize (I NE). lia.
    - pose proof (info_bwd_le (rev (firstn (S i) (r_sections r))) s i k). lia. }
  clearbody x. destruct x as [i' k']. cbn [fst] in X. destruct (nth_error (r_sections r) i') as [b|] eqn:B; [|apply nth_error_None in B; lia].
  destruct (negb _ && _); [|exists false, i', k'; auto].
  destruct (closest_valid b s (inject_Z (SIGN k) * GetCenterOffset a s k) (GetLaneOffset (r_offset r) s) 0 true mask0 (H b (nth_error_In _ _ B))) as (c & la & C1 & C2). rewrite C1, C2. exists true, i', (l_id la). auto.
Qed.

Lemma look_back_lt secs s i k : (i < List.length secs)%nat -> look_back secs s i = Some k -> (k < List.length secs)%nat.
Proof.
  induction i as [|i IH]; intros L H; cbn [look_back] in H; [injection H as <-; lia|]. destruct (nth_error secs (S i)); [|discriminate]. destruct (Qltb _ _); [injection H as <-; lia|]. apply IH; [lia|exact H].
Qed.

Lemma look_fwd_le l s i : (look_fwd l s i <= i + List.length l)%nat.
Proof. revert i. induction l as [|a l IH]; intros i; cbn [look_fwd List.length]; [lia|]. destruct (Qltb _ _); [lia|]. specialize (IH (S i)). lia. Qed.

Lemma section_lt secs s h k : GetLaneSectionIdxByS secs s h = Some k -> (k < List.length secs)%nat.
Proof.
  unfold GetLaneSectionIdxByS. destruct (nth_error secs h) as [x|] eqn:N; [|discriminate]. assert (L: (h < List.length secs)%nat) by (apply nth_error_Some; congruence).
  destruct (rev secs) as [|back rest]; [discriminate|]. destruct (_ && _) eqn:B.
  - intro H. apply (look_back_lt secs s (h - 1)); [lia|exact H].
  - pose proof (look_fwd_le (skipn h secs) s h) as F. rewrite skipn_length in F. cbv zeta. destruct (Nat.eqb_spec (look_fwd (skipn h secs) s h) (List.length secs)) as [E|E].
    + destruct (Qltb (ls_end back + SMALL) s); intro H; [discriminate H|]. injection H as <-. lia.
    + intro H. injection H as <-. lia.
Qed.

Lemma lane_total p t r k s o sec : wired -> laned -> GetRoad net t = Some r -> (t = m_track p -> sec_ok p) -> (forall i, sec = Some i -> (i < List.length (r_sections (nr_road r)))%nat) ->
  exists ret q, SetLanePos net mask p t k s o sec = Some (ret, q) /\ sec_ok q.
Proof.
  intros W La G S0 S1. unfold SetLanePos. destruct (SetLongitudinalTrackPos net (with_offset o p) t s) as [ret1 p1] eqn:L.
  destruct (long_spec _ _ _ _ _ _ W G L) as (A1 & A2 & _ & A4 & A5 & A6 & A7 & A8 & A9). cbn in A6, A7.
  destruct (La _ _ G) as (Ne & Ce).
  assert (Sp: (m_sec p1 < List.length (r_sections (nr_road r)))%nat).
  { destruct (N.eq_dec t (m_track p)) as [E|E].
    - destruct (A6 E) as (_ & _ & ->). destruct (S0 E) as (r' & G' & K). rewrite <- E in G'. rewrite G in G'. injection G' as <-. exact K.
    - destruct (A7 E) as (_ & _ & ->). destruct (r_sections (nr_road r)); [congruence|cbn; lia]. }
  assert (NG: (ret1 =? R_GENERIC)%Z = false) by (rewrite A8; destruct (Qltb (Length r) s); reflexivity). rewrite NG, G.
  assert (X: forall i l ret2, (i < List.length (r_sections (nr_road r)))%nat -> exists ret q, Some (finish_lane r ret2 (with_lane l (with_sec i p1))) = Some (ret, q) /\ sec_ok q).
  { intros i l ret2 I. destruct (finish_lane r ret2 (with_lane l (with_sec i p1))) as [rr q] eqn:F. exists rr, q. split; [reflexivity|].
    destruct (finish_spec _ _ _ _ _ F) as (B1 & _ & _ & _ & _ & B6 & _). cbn in B1, B6. exists r. rewrite B1, B6, A1. auto. }
  assert (Y: forall sc, (forall i, sc = Some i -> (i < List.length (r_sections (nr_road r)))%nat) ->
    exists ret q, match sc with
        | Some i => let p := with_sec i p1 in match nth_error (r_sections (nr_road r)) i with None => Some (R_GENERIC, p) | Some ls => match GetLaneById ls k with None => Some (R_GENERIC, p) | Some _ => Some (finish_lane r ret1 (with_lane k p)) end end
        | None => match GetLaneInfoByS (nr_road r) (m_s p1) (m_sec p1) (m_lane p1) mask with None => None | Some (reached, i, k) => Some (finish_lane r (if (ret1 =? R_OK)%Z then if reached then R_REACHED_END_OF_LANE else R_OK else ret1) (with_lane k (with_sec i p1))) end
        end = Some (ret, q) /\ sec_ok q).
  { intros [i|] Hi.
    - specialize (Hi i eq_refl). cbv zeta. assert (Sq: sec_ok (with_sec i p1)) by (exists r; cbn; rewrite A1; auto).
      destruct (nth_error (r_sections (nr_road r)) i) as [ls|]; [|eauto]. destruct (GetLaneById ls k); [|eauto]. apply X, Hi.
    - destruct (info_some (nr_road r) (m_s p1) (m_sec p1) (m_lane p1) mask Ce Sp) as (b & i & k' & -> & I). apply X, I. }
  apply Y. intros i Hi. destruct sec as [j|]; [apply S1, Hi|]. destruct (k =? m_lane p1)%Z; [discriminate|]. apply (section_lt _ _ _ _ Hi).
Qed.

Lemma track_total p t r s t0 : wired -> laned -> GetRoad net t = Some r -> (t = m_track p -> sec_ok p) -> 0 <= s <= Length r -> sec_ok (snd (SetTrackPos net mask p t s t0)).
Proof.
  intros W La G S0 Hs. unfold SetTrackPos. destruct (SetLongitudinalTrackPos net p t s) as [ret1 p1] eqn:L.
  destruct (long_spec _ _ _ _ _ _ W G L) as (A1 & A2 & _ & A4 & A5 & A6 & A7 & A8 & A9). destruct (La _ _ G) as (Ne & Ce).
  assert (Sp: (m_sec p1 < List.length (r_sections (nr_road r)))%nat).
  { destruct (N.eq_dec t (m_track p)) as [E|E].
    - destruct (A6 E) as (_ & _ & ->). destruct (S0 E) as (r' & G' & K). rewrite <- E in G'. rewrite G in G'. injection G' as <-. exact K.
    - destruct (A7 E) as (_ & _ & ->). destruct (r_sections (nr_road r)); [congruence|cbn; lia]. }
  assert (NG: (ret1 =? R_GENERIC)%Z = false) by (rewrite A8; destruct (Qltb (Length r) s); reflexivity). rewrite NG, G. cbn [snd]. exists r. cbn [m_track m_sec]. rewrite A1. split; [exact G|].
  unfold Track2Lane. cbn [p_s p_t p_lsec_idx]. destruct (GetLaneSectionIdxByS _ _ _) as [i|] eqn:Gi; [|exact Sp]. pose proof (section_lt _ _ _ _ Gi) as I.
  destruct (nth_error _ _) as [ls|]; [|exact Sp]. destruct (GetClosestLaneIdx _ _ _ _ _ _ _) as [[c|] d]; [exact I|exact Sp].
Qed.

Lemma connect_total p r t l : wired -> laned -> GetRoad net (m_track p) = Some r -> Road_GetLink r t = Some l -> sec_ok p -> exists ret cp q, MoveToConnectingRoad net mask choose p l = Some (ret, cp, q) /\ sec_ok q.
Proof.
  intros W La G L Sp. unfold MoveToConnectingRoad. rewrite G. destruct (rl_id l =? ID_UNDEFINED)%N; [eauto|]. destruct (nth_error (r_sections (nr_road r)) (m_sec p)) as [ls|]; [|eauto].
  destruct (match m_idx p with None => None | Some i => nth_error (ls_lanes ls) i end) as [la|]; [|eauto].
  destruct (link_target net choose r la l) as [[[ret0 cp0] k] next] eqn:T. destruct next as [r2|]; [|eauto].
  destruct (target_leads _ _ _ _ _ _ _ _ _ W G L T) as (T1 & T2 & T3 & T4 & T5 & T6). pose proof (leads_exists _ _ _ _ _ T1) as G2. pose proof (proj2 (proj1 W _ _ G2)) as Ln.
  unfold enter_road. destruct (Z.eqb_spec k 0) as [->|Nk].
  - assert (X: forall s, 0 <= s <= Length r2 -> sec_ok (snd (SetTrackPos net mask p (nr_id r2) s (m_t p)))) by (intros s Hs; apply (track_total p (nr_id r2) r2 s (m_t p) W La G2); auto).
    destruct T2 as [-> | ->]; cbn [contact_eqb].
    + specialize (X 0 ltac:(lra)). destruct (SetTrackPos net mask p (nr_id r2) 0 (m_t p)) as [rr q]. do 3 eexists. split; [reflexivity|exact X].
    + specialize (X (Length r2) ltac:(lra)). destruct (SetTrackPos net mask p (nr_id r2) (Length r2) (m_t p)) as [rr q]. do 3 eexists. split; [reflexivity|exact X].
  - cbv zeta. set (turn := (_ && _) || (_ && _)). set (p1 := if turn then with_turned (negb (m_turned p)) p else p). set (o := if turn then - m_offset p else m_offset p).
    assert (Sp1: sec_ok p1) by (subst p1; destruct turn; exact Sp). assert (Tp: m_track p1 = m_track p) by (subst p1; destruct turn; reflexivity).
    assert (X: forall s sec, (forall i, sec = Some i -> (i < List.length (r_sections (nr_road r2)))%nat) -> exists ret cp q, option_map (fun x : Z * mpos => (ret0, cp0, snd x)) (SetLanePos net mask p1 (nr_id r2) k s o sec) = Some (ret, cp, q) /\ sec_ok q).
    { intros s sec Hs. destruct (lane_total p1 (nr_id r2) r2 k s o sec W La G2 (fun _ => Sp1) Hs) as (rr & q & -> & Sq). cbn. eauto. }
    destruct (La _ _ G2) as (Ne & _). assert (Lp: (0 < List.length (r_sections (nr_road r2)))%nat) by (destruct (r_sections (nr_road r2)); [congruence|cbn; lia]).
    destruct T6 as [El | El].
    + destruct (T4 El) as (Kc & Kr). rewrite Kc, Kr. destruct T2 as [-> | ->].
      * apply X. intros i H. injection H as <-. exact Lp.
      * apply X. intros i H. destruct (List.length (r_sections (nr_road r2))); [discriminate|]. injection H as <-. lia.
    + rewrite (T5 El), El. destruct T2 as [-> | ->]; apply X; discriminate.
Qed.

Lemma width_total r ret ret2 p : wired -> laned -> GetRoad net (m_track p) = Some r -> sec_ok p -> exists ret' q, check_width net mask r ret ret2 p = Some (ret', q) /\ sec_ok q.
Proof.
  intros W La G Sp. unfold check_width. destruct (m_lane p =? 0)%Z; [eauto|]. destruct (La _ _ G) as (Ne & Ce). pose proof Sp as (r' & G' & I). rewrite G in G'. injection G' as <-.
  destruct (info_some (nr_road r) (m_s p) (m_sec p) (m_lane p) mask Ce I) as (b & i & k & -> & J). destruct b; [eauto|]. destruct (Qltb _ SMALL); [|eauto].
  destruct (nth_error (r_sections (nr_road r)) i) as [ls|] eqn:N; [|apply nth_error_None in N; lia].
  destruct (closest_valid ls (m_s p) (m_t p) (GetLaneOffset (r_offset (nr_road r)) (m_s p)) (SIGN (m_lane p)) true mask (Ce ls (nth_error_In _ _ N))) as (j & la & -> & ->).
  destruct (_ && _); [eauto|]. destruct (lane_total p (m_track p) r (l_id la) (m_s p) 0 None W La G (fun _ => Sp)) as (rr & q & -> & Sq); [discriminate|]. cbn. eauto.
Qed.

Lemma settle_total ret s o p r : wired -> laned -> GetRoad net (m_track p) = Some r -> sec_ok p -> exists ret' q stop, settle net mask ret s o p = Some (ret', q, stop) /\ sec_ok q.
Proof.
  intros W La G Sp. unfold settle. rewrite G. destruct (lane_total p (m_track p) r (m_lane p) s o None W La G (fun _ => Sp)) as (ret2 & q & E & Sq); [discriminate|]. rewrite E. cbv zeta.
  assert (X: forall res : option (Z * mpos), (exists rr qq, res = Some (rr, qq) /\ sec_ok qq) -> exists ret' q stop, match res with None => None | Some (ret, q) => if (ret =? R_GENERIC)%Z then Some (ret, p, true) else Some (ret, q, false) end = Some (ret', q, stop) /\ sec_ok q).
  { intros res (rr & qq & -> & Sqq). destruct (rr =? R_GENERIC)%Z; eauto. }
  apply X. destruct (negb _); [eauto|]. destruct (0 <=? ret2)%Z; [|eauto]. apply width_total; auto. destruct (lane_spec _ _ _ _ _ _ _ _ _ W G E) as (A1 & _). rewrite A1. exact G.
Qed.

Lemma cross_total r p dOff t sec rest s_stop : wired -> laned -> GetRoad net (m_track p) = Some r -> (sec < List.length (r_sections (nr_road r)))%nat -> sec_ok p ->
  exists st, cross_end net mask choose r p dOff t sec rest s_stop = Some st /\ match st with Crossed _ q _ _ _ => sec_ok q | _ => True end.
Proof.
  intros W La G Is Sp. assert (Ss: sec_ok (with_sec sec p)) by (exists r; auto). unfold cross_end. cbv zeta.
  assert (X: forall q k o, sec_ok q -> exists st, option_map (fun x : Z * mpos => Stopped (with_end true (snd x))) (SetLanePos net mask q (m_track q) k s_stop o None) = Some st /\ match st with Crossed _ q _ _ _ => sec_ok q | _ => True end).
  { intros q k o Sq. pose proof Sq as (rq & Gq & _). destruct (lane_total q (m_track q) rq k s_stop o None W La Gq (fun _ => Sq)) as (rr & qq & -> & _); [discriminate|]. cbn. eexists. split; [reflexivity|exact I]. }
  destruct (Road_GetLink r t) as [l|] eqn:L; [|apply X, Ss]. destruct (rl_id l =? ID_UNDEFINED)%N; [apply X, Ss|].
  destruct (connect_total (with_sec sec p) r t l W La G L Ss) as (ret & cp & q & -> & Sq). destruct (ret <? 0)%Z; [apply X, Sq|].
  pose proof Sq as (rq & Gq & _). destruct (contact_eqb cp CP_END);
    match goal with |- context [settle net mask ret ?a ?b q] => destruct (settle_total ret a b q rq W La Gq Sq) as (ret' & q' & stop & -> & Sq') end; cbn; eexists; (split; [reflexivity|exact Sq']).
Qed.

Lemma loop_total n : wired -> laned -> forall p ds dOff sdOff ret, sec_ok p -> move_loop net mask choose n p ds dOff sdOff ret <> None.
Proof.
  intros W La. induction n as [|n IH]; intros p ds dOff sdOff ret Sp; cbn [move_loop]; [discriminate|].
  assert (X: exists st, move_round net mask choose p ds dOff sdOff ret = Some st /\ match st with Crossed _ q _ _ _ => sec_ok q | _ => True end).
  { pose proof Sp as (r & G & I). unfold move_round. rewrite G. destruct (Qltb _ _); [apply cross_total; auto; lia|]. destruct (Qltb _ _); [apply cross_total; auto; lia|].
    destruct (settle_total ret (m_s p + ds) (m_offset p + sdOff) p r W La G Sp) as (ret' & q & stop & -> & Sq). cbn. eexists. split; [reflexivity|exact Logic.I]. }
  destruct X as (st & -> & Y). destruct st as [rr q|q|rr q ds' sd stop]; try discriminate. destruct stop; [discriminate|]. apply IH, Y.
Qed.


(** ** The lane entered *)

Lemma has_idx ls k : GetLaneById ls k <> None -> exists i, GetLaneIdxById ls k = Some i.
Proof. apply lane_idx_has. Qed.

Lemma lane_exact p t r k s o sec i ls : wired -> GetRoad net t = Some r -> 0 <= s <= Length r -> nth_error (r_sections (nr_road r)) i = Some ls -> GetLaneById ls k <> None ->
  sec = Some i \/ (sec = None /\ t <> m_track p /\ k <> 0%Z /\ GetLaneSectionIdxByS (r_sections (nr_road r)) s 0 = Some i) ->
  exists q, SetLanePos net mask p t k s o sec = Some (R_OK, q) /\ m_track q = t /\ m_s q = s /\ m_offset q = o /\ m_lane q = k /\ m_sec q = i /\ m_turned q = m_turned p /\
    m_t q = o + GetLaneOffset (r_offset (nr_road r)) s + GetCenterOffset ls s k * (if (k <? 0)%Z then (-1) else 1).
Proof.
  intros W G Hs Ni Gk Sc. unfold SetLanePos. destruct (SetLongitudinalTrackPos net (with_offset o p) t s) as [ret1 p1] eqn:L.
  destruct (long_spec _ _ _ _ _ _ W G L) as (A1 & A2 & _ & A4 & A5 & A6 & A7 & A8 & A9). cbn in A4, A5, A6, A7. rewrite (clamp_id _ _ Hs) in A2.
  assert (R1: ret1 = R_OK) by (rewrite A8; destruct (Qltb_spec (Length r) s); [lra|reflexivity]). rewrite R1, G. cbn [Z.eqb R_OK R_GENERIC].
  assert (Sc2: match sec with Some i => Some i | None => if (k =? m_lane p1)%Z then None else GetLaneSectionIdxByS (r_sections (nr_road r)) s 0 end = Some i).
  { destruct Sc as [-> | (-> & T & K & S)]; [reflexivity|]. destruct (A7 T) as (-> & _). destruct (Z.eqb_spec k 0); [contradiction|exact S]. }
  rewrite Sc2, Ni. destruct (GetLaneById ls k) as [la|] eqn:La; [|congruence]. unfold finish_lane. cbn [m_sec with_lane with_sec m_lane]. rewrite Ni.
  destruct (has_idx ls k) as (j & J); [congruence|]. rewrite J. eexists. split; [reflexivity|]. unfold to_track. cbn. rewrite Ni, A2, A4. repeat (split; [assumption || reflexivity|]). reflexivity.
Qed.

Lemma enter_lane p r r2 t l la ls ret cp k j ls2 : wired -> GetRoad net (m_track p) = Some r -> Road_GetLink r t = Some l -> rl_id l <> ID_UNDEFINED ->
  nth_error (r_sections (nr_road r)) (m_sec p) = Some ls -> (exists i, m_idx p = Some i /\ nth_error (ls_lanes ls) i = Some la) ->
  link_target net choose r la l = (ret, cp, k, Some r2) -> k <> 0%Z -> nth_error (r_sections (nr_road r2)) j = Some ls2 -> GetLaneById ls2 k <> None ->
  (rl_elem l = ELEMENT_ROAD -> j = (if contact_eqb cp CP_END then List.length (r_sections (nr_road r2)) - 1 else 0)%nat) ->
  (rl_elem l = ELEMENT_JUNCTION -> nr_id r2 <> m_track p /\ GetLaneSectionIdxByS (r_sections (nr_road r2)) (entry_s r2 cp) 0 = Some j) ->
  let turn := (LinkType_eqb t PREDECESSOR && contact_eqb cp CP_START) || (LinkType_eqb t SUCCESSOR && contact_eqb cp CP_END) in
  let o := if turn then - m_offset p else m_offset p in
  exists q, MoveToConnectingRoad net mask choose p l = Some (ret, cp, q) /\ m_track q = nr_id r2 /\ m_s q = entry_s r2 cp /\ m_lane q = k /\ m_sec q = j /\
    m_offset q = o /\ m_turned q = xorb turn (m_turned p) /\
    m_t q = o + GetLaneOffset (r_offset (nr_road r2)) (entry_s r2 cp) + GetCenterOffset ls2 (entry_s r2 cp) k * (if (k <? 0)%Z then (-1) else 1).
Proof.
  intros W G L U Ns (i & Mi & Nl) T Nk Nj Gk Hr Hj turn o. unfold MoveToConnectingRoad. rewrite G. apply N.eqb_neq in U. rewrite U, Ns, Mi, Nl, T.
  destruct (target_leads _ _ _ _ _ _ _ _ _ W G L T) as (T1 & T2 & T3 & T4 & T5 & T6). pose proof (leads_exists _ _ _ _ _ T1) as G2. pose proof (proj2 (proj1 W _ _ G2)) as Ln.
  unfold enter_road. destruct (Z.eqb_spec k 0) as [E|_]; [contradiction|]. rewrite (Road_GetLink_type _ _ _ L). cbv zeta. fold turn. fold o.
  set (p1 := if turn then with_turned (negb (m_turned p)) p else p).
  assert (Tu: m_turned p1 = xorb turn (m_turned p)) by (subst p1; destruct turn; cbn; destruct (m_turned p); reflexivity).
  assert (Tr: m_track p1 = m_track p) by (subst p1; destruct turn; reflexivity).
  assert (X: forall sec, sec = Some j \/ (sec = None /\ nr_id r2 <> m_track p1 /\ k <> 0%Z /\ GetLaneSectionIdxByS (r_sections (nr_road r2)) (entry_s r2 cp) 0 = Some j) ->
    exists q, option_map (fun x : Z * mpos => (ret, cp, snd x)) (SetLanePos net mask p1 (nr_id r2) k (entry_s r2 cp) o sec) = Some (ret, cp, q) /\ m_track q = nr_id r2 /\ m_s q = entry_s r2 cp /\ m_lane q = k /\ m_sec q = j /\
    m_offset q = o /\ m_turned q = xorb turn (m_turned p) /\ m_t q = o + GetLaneOffset (r_offset (nr_road r2)) (entry_s r2 cp) + GetCenterOffset ls2 (entry_s r2 cp) k * (if (k <? 0)%Z then (-1) else 1)).
  { intros sec Sc. destruct (lane_exact p1 _ _ k _ o sec j ls2 W G2 (entry_in r2 cp Ln) Nj Gk Sc) as (q & -> & B1 & B2 & B3 & B4 & B5 & B6 & B7). exists q. cbn. repeat (split; [congruence|]). exact B7. }
  assert (Lp: (j < List.length (r_sections (nr_road r2)))%nat) by (apply nth_error_Some; congruence).
  destruct T6 as [El | El].
  - destruct (T4 El) as (Kc & Kr). specialize (Hr El). rewrite Kc, Kr. destruct T2 as [-> | ->]; cbn [contact_eqb entry_s] in *; subst j.
    + apply (X (Some 0%nat)). auto.
    + apply X. left. destruct (List.length (r_sections (nr_road r2))) as [|n]; [lia|]. f_equal. lia.
  - rewrite (T5 El), El. destruct (Hj El) as (H1 & H2). destruct T2 as [-> | ->]; cbn [entry_s] in *; (apply X; right; split; [reflexivity|]; split; [congruence|]; auto).
Qed.

End Net.

(** ** MoveAlongS *)

Lemma walk_eq net t s d n t' x b x2 : walk net t s d n t' x b -> x2 == x -> walk net t s d n t' x2 b.
Proof. intros (s1 & d1 & r & C & G & H & E) E2. exists s1, d1, r. repeat (split; [assumption|]). lra. Qed.

Lemma moved net mask lht choose p ds dl mode fwd ret q : wired net -> on_net net p -> MoveAlongS net mask lht choose p ds dl mode fwd = Some (ret, q) ->
  let d := road_ds mode fwd (lht (m_track p)) (m_lane p) ds in
  on_net net q /\ (ret <> R_END_OF_ROAD -> exists r, GetRoad net (m_track q) = Some r /\ m_end q = at_dead_end r (m_s q)) /\
  (((0 <= ret)%Z /\ ((exists n b, (n < 8)%nat /\ walk net (m_track p) (m_s p) d n (m_track q) (m_s q) b) \/ (exists d1 b, crosses net (m_track p) (m_s p) d 8 (m_track q) (m_s q) d1 b))) \/
   (ret = R_END_OF_ROAD /\ m_end q = true /\ exists n b s1 d1 r, (n < 8)%nat /\ crosses net (m_track p) (m_s p) d n (m_track q) s1 d1 b /\ GetRoad net (m_track q) = Some r /\
      ((Length r < s1 + d1 /\ m_s q = Length r) \/ (s1 + d1 < 0 /\ m_s q = 0))) \/
   (ret = R_GENERIC /\ exists n b d1, (n <= 8)%nat /\ crosses net (m_track p) (m_s p) d n (m_track q) (m_s q) d1 b)).
Proof.
  intros W On E d. pose proof On as (r & G & _). unfold MoveAlongS in E. rewrite G in E. fold d in E.
  destruct (move_loop net mask choose 8 p d dl dl R_OK) as [[[ret' q'] e]|] eqn:M; [|discriminate].
  destruct (loop_spec net mask choose W _ _ _ _ _ _ _ _ _ On (Z.le_refl 0) M) as (On' & P). unfold move_post in P.
  assert (X: forall e0, m_track (with_end e0 q') = m_track q' /\ m_s (with_end e0 q') = m_s q') by (split; reflexivity).
  pose proof On' as (r' & G' & H'). destruct e.
  - injection E as <- <-. split; [exact On'|]. destruct P as [(K1 & K2 & _)|[(K1 & _ & K2 & K3)|(K1 & K2 & _)]]; try discriminate.
    split; [contradiction|]. right. left. auto.
  - injection E as <- <-. rewrite G'. cbn [m_track m_s m_end with_end]. split; [exists r'; cbn; auto|]. split; [intros _; exists r'; auto|].
    destruct P as [(K1 & _ & K2)|[(_ & K2 & _)|(K1 & _ & K2)]]; [left; auto|discriminate|]. right. right. auto.
Qed.

Lemma unique net mask lht choose p ds dl mode fwd ret q n t x b : wired net -> single net -> on_net net p -> MoveAlongS net mask lht choose p ds dl mode fwd = Some (ret, q) -> (0 <= ret)%Z ->
  walk net (m_track p) (m_s p) (road_ds mode fwd (lht (m_track p)) (m_lane p) ds) n t x b -> (n < 8)%nat -> m_track q = t /\ m_s q == x.
Proof.
  intros W Sg On E R Wk L. destruct (moved _ _ _ _ _ _ _ _ _ _ _ W On E) as (_ & _ & [(_ & [(m & c & _ & Wm)|(d1 & c & C)])|[(K & _)|(K & _)]]).
  - destruct (walk_det net _ _ _ _ _ _ _ _ _ _ _ W Sg Wk Wm) as (_ & H1 & H2 & _). auto.
  - destruct (walk_crosses net _ _ _ _ _ _ _ _ _ _ _ _ W Sg Wk C) as (H & _); [lia|]. exfalso. lia.
  - subst ret. exfalso. apply R. reflexivity.
  - subst ret. exfalso. apply R. reflexivity.
Qed.

Lemma dead_end net mask lht choose p ds dl mode fwd ret q r t : wired net -> on_net net p -> GetRoad net (m_track p) = Some r -> let d := road_ds mode fwd (lht (m_track p)) (m_lane p) ds in
  (t = SUCCESSOR /\ Length r < m_s p + d) \/ (t = PREDECESSOR /\ m_s p + d < 0) -> (forall l, Road_GetLink r t = Some l -> rl_id l = ID_UNDEFINED) ->
  MoveAlongS net mask lht choose p ds dl mode fwd = Some (ret, q) ->
  ret = R_END_OF_ROAD /\ m_track q = m_track p /\ m_s q = (match t with SUCCESSOR => Length r | _ => 0 end) /\ m_end q = true /\ m_offset q = m_offset p /\ m_turned q = m_turned p.
Proof.
  intros W On G d Hd Hl E. unfold MoveAlongS in E. rewrite G in E. fold d in E. pose proof (proj2 (proj1 W _ _ G)) as Ln. destruct On as (r0 & G0 & Hs). rewrite G in G0. injection G0 as <-.
  change (move_loop net mask choose 8 p d dl dl R_OK) with (match move_round net mask choose p d dl dl R_OK with None => None | Some (Within ret p) => Some (ret, p, false) | Some (Stopped p) => Some (R_END_OF_ROAD, p, true)
    | Some (Crossed ret p ds sdOff true) => Some (ret, p, false) | Some (Crossed ret p ds sdOff false) => move_loop net mask choose 7 p ds dl sdOff ret end) in E.
  assert (X: forall sec rest s_stop, 0 <= s_stop <= Length r -> s_stop = (match t with SUCCESSOR => Length r | _ => 0 end) -> forall st, cross_end net mask choose r p dl t sec rest s_stop = Some st ->
    exists q, st = Stopped q /\ m_track q = m_track p /\ m_s q = (match t with SUCCESSOR => Length r | _ => 0 end) /\ m_end q = true /\ m_offset q = m_offset p /\ m_turned q = m_turned p).
  { intros sec rest s_stop Hst Es st F. unfold cross_end in F. cbv zeta in F.
    assert (St: option_map (fun x : Z * mpos => Stopped (with_end true (snd x))) (SetLanePos net mask (with_sec sec p) (m_track (with_sec sec p)) (m_lane (with_sec sec p)) s_stop (m_offset (with_sec sec p)) None) = Some st).
    { destruct (Road_GetLink r t) as [l|] eqn:L; [|exact F]. rewrite (Hl l eq_refl), N.eqb_refl in F. exact F. }
    destruct (SetLanePos net mask (with_sec sec p) _ _ _ _ _) as [[rr qq]|] eqn:S; [|discriminate]. cbn in St. injection St as <-. cbn [m_track with_sec] in S.
    destruct (lane_spec net mask _ _ _ _ _ _ _ _ _ W G S) as (A1 & A2 & A3 & A4 & _). rewrite (clamp_id _ _ Hst) in A2. eexists. split; [reflexivity|]. cbn in *. rewrite A2. auto 6. }
  unfold move_round in E. rewrite G in E. destruct Hd as [(-> & Hd)|(-> & Hd)].
  - destruct (Qltb_spec (Length r) (m_s p + d)) as [_|C]; [|lra]. match type of E with context [cross_end ?a ?b ?c ?d0 ?e ?f ?g ?h ?i ?j] => destruct (cross_end a b c d0 e f g h i j) as [st|] eqn:F end; [|discriminate].
    destruct (X _ _ _ (conj Ln (Qle_refl _)) eq_refl _ F) as (q0 & -> & K). injection E as <- <-. auto.
  - destruct (Qltb_spec (Length r) (m_s p + d)) as [C|_]; [lra|]. destruct (Qltb_spec (m_s p + d) 0) as [_|C]; [|lra].
    match type of E with context [cross_end ?a ?b ?c ?d0 ?e ?f ?g ?h ?i ?j] => destruct (cross_end a b c d0 e f g h i j) as [st|] eqn:F end; [|discriminate].
    destruct (X _ _ _ (conj (Qle_refl _) Ln) eq_refl _ F) as (q0 & -> & K). injection E as <- <-. auto.
Qed.

(** ** Choices *)

Lemma angle_near coin : forall l i best m, exists v,
  ((angle_choice l coin i best m = best /\ v = m) \/ ((i <= angle_choice l coin i best m)%nat /\ nth_error l (angle_choice l coin i best m - i) = Some v)) /\
  v <= m + inject_Z (Z.of_nat (List.length l)) * SMALL /\ forall d, In d l -> v <= d + inject_Z (Z.of_nat (List.length l)) * SMALL.
Proof.
  pose proof SMALL_pos as SP. induction l as [|d l IH]; intros i best m; cbn [angle_choice].
  - exists m. split; [auto|]. split; [|intros ? []]. change (inject_Z (Z.of_nat (List.length (@nil Q)))) with 0. rewrite Qmult_0_l. lra.
  - assert (Ln: inject_Z (Z.of_nat (List.length (d :: l))) == inject_Z (Z.of_nat (List.length l)) + 1).
    { cbn [List.length]. rewrite Nat2Z.inj_succ, <- Z.add_1_r, inject_Z_plus. reflexivity. }
    assert (Np: 0 <= inject_Z (Z.of_nat (List.length l))) by (change 0 with (inject_Z 0); rewrite <- Zle_Qle; lia).
    set (n := inject_Z (Z.of_nat (List.length l))) in *. setoid_rewrite Ln. clear Ln. clearbody n.
    assert (Ns: 0 <= n * SMALL) by (apply Qmult_le_0_compat; lra).
    assert (Ed: forall z, z + (n + 1) * SMALL == z + n * SMALL + SMALL) by (intro; ring). setoid_rewrite Ed. clear Ed. set (w := n * SMALL) in *. clearbody w.
    destruct (Qltb_spec d m) as [C|C]; cbn [orb].
    + destruct (IH (S i) i d) as (v & V1 & V2 & V3). exists v. split; [|split; [lra|intros x [<-|X]; [lra|specialize (V3 x X); lra]]].
      right. destruct V1 as [(-> & ->)|(V1 & V4)]; [split; [lia|]; rewrite Nat.sub_diag; reflexivity|]. split; [lia|]. replace (_ - i)%nat with (S (angle_choice l coin (S i) i d - S i)) by lia. exact V4.
    + destruct (Qltb_spec (Qabs (d - m)) SMALL) as [D|D]; cbn [andb]; [destruct (coin i)|].
      * apply Qabs_Qlt_condition in D. destruct (IH (S i) i d) as (v & V1 & V2 & V3). exists v. split; [|split; [lra|intros x [<-|X]; [lra|specialize (V3 x X); lra]]].
        right. destruct V1 as [(-> & ->)|(V1 & V4)]; [split; [lia|]; rewrite Nat.sub_diag; reflexivity|]. split; [lia|]. replace (_ - i)%nat with (S (angle_choice l coin (S i) i d - S i)) by lia. exact V4.
      * destruct (IH (S i) best m) as (v & V1 & V2 & V3). exists v. split; [|split; [lra|intros x [<-|X]; [lra|specialize (V3 x X); lra]]].
        destruct V1 as [V1|(V1 & V4)]; [left; exact V1|]. right. split; [lia|]. replace (_ - i)%nat with (S (angle_choice l coin (S i) best m - S i)) by lia. exact V4.
      * destruct (IH (S i) best m) as (v & V1 & V2 & V3). exists v. split; [|split; [lra|intros x [<-|X]; [lra|specialize (V3 x X); lra]]].
        destruct V1 as [V1|(V1 & V4)]; [left; exact V1|]. right. split; [lia|]. replace (_ - i)%nat with (S (angle_choice l coin (S i) best m - S i)) by lia. exact V4.
Qed.

Lemma angle_first coin : (forall i, coin i = false) -> forall l i best m, exists v,
  ((angle_choice l coin i best m = best /\ v = m /\ forall d, In d l -> m <= d) \/
   ((i <= angle_choice l coin i best m)%nat /\ nth_error l (angle_choice l coin i best m - i) = Some v /\ v < m /\ (forall d, In d l -> v <= d) /\
    forall j d, (j < angle_choice l coin i best m - i)%nat -> nth_error l j = Some d -> v < d)).
Proof.
  intros Cn. induction l as [|d l IH]; intros i best m; cbn [angle_choice].
  - exists m. left. split; [reflexivity|]. split; [reflexivity|intros ? []].
  - rewrite Cn, andb_false_r, orb_false_r. destruct (Qltb_spec d m) as [C|C].
    + destruct (IH (S i) i d) as (v & V). exists v. right. destruct V as [(-> & -> & V)|(V1 & V2 & V3 & V4 & V5)].
      * split; [lia|]. rewrite Nat.sub_diag. split; [reflexivity|]. split; [exact C|]. split; [intros x [<-|X]; [lra|auto]|]. intros j x J. lia.
      * split; [lia|]. replace (_ - i)%nat with (S (angle_choice l coin (S i) i d - S i)) by lia. split; [exact V2|]. split; [lra|]. split; [intros x [<-|X]; [lra|auto]|].
        intros [|j] x J N; [injection N as <-; lra|]. apply (V5 j x); [lia|exact N].
    + destruct (IH (S i) best m) as (v & V). exists v. destruct V as [(-> & -> & V)|(V1 & V2 & V3 & V4 & V5)].
      * left. split; [reflexivity|]. split; [reflexivity|]. intros x [<-|X]; [lra|auto].
      * right. split; [lia|]. replace (_ - i)%nat with (S (angle_choice l coin (S i) best m - S i)) by lia. split; [exact V2|]. split; [lra|]. split; [intros x [<-|X]; [lra|auto]|].
        intros [|j] x J N; [injection N as <-; lra|]. apply (V5 j x); [lia|exact N].
Qed.

(** The last index of an element with a property. *)
Definition last_such {A} (P : A -> Prop) (l : list A) (k : nat) : Prop :=
  (exists a, nth_error l k = Some a /\ P a) /\ forall j a, (k < j)%nat -> nth_error l j = Some a -> ~ P a.

Lemma route_spec l : forall i idx opt, let k := route_choice l i idx opt in
  (exists j, k = (i + j)%nat /\ last_such (fun x => x = (true, true)) l j) \/
  ((forall x, In x l -> x <> (true, true)) /\ exists o, opt = Some o /\ k = o) \/
  ((forall x, In x l -> x <> (true, true)) /\ opt = None /\ exists j, k = (i + j)%nat /\ last_such (fun x => fst x = true) l j) \/
  ((forall x, In x l -> fst x = false) /\ opt = None /\ k = idx).
Proof.
  induction l as [|[a b] l IH]; intros i idx opt; cbn [route_choice].
  - cbv zeta. destruct opt as [o|]; [right; left|right; right; right]; (split; [intros ? []|]); eauto.
  - assert (S1: forall P j, last_such P l j -> last_such P ((a, b) :: l) (S j)).
    { intros P j ((x & N & X) & L). split; [exists x; auto|]. intros [|j'] y J Ny; [lia|]. apply (L j' y); [lia|exact Ny]. }
    assert (S0: forall P : bool * bool -> Prop, P (a, b) -> (forall x, In x l -> ~ P x) -> last_such P ((a, b) :: l) 0).
    { intros P Pa H. split; [exists (a, b); auto|]. intros [|j'] y J Ny; [lia|]. apply H. apply (nth_error_In l j'). exact Ny. }
    cbv zeta in *. destruct a.
    + destruct b.
      * destruct (IH (S i) i (Some i)) as [(j & -> & J)|[(N & o & O & K)|[(_ & O & _)|(_ & O & _)]]]; try discriminate.
        -- left. exists (S j). split; [lia|]. apply S1, J.
        -- left. exists 0%nat. injection O as <-. split; [lia|]. apply S0; auto.
      * destruct (IH (S i) i opt) as [(j & -> & J)|[(N & o & O & K)|[(N & O & j & -> & J)|(N & O & K)]]].
        -- left. exists (S j). split; [lia|]. apply S1, J.
        -- right. left. split; [intros x [<-|X]; [discriminate|auto]|]. eauto.
        -- right. right. left. split; [intros x [<-|X]; [discriminate|auto]|]. split; [exact O|]. exists (S j). split; [lia|]. apply S1, J.
        -- right. right. left. split; [intros x [<-|X]; [discriminate|intro; subst x; specialize (N _ X); discriminate]|]. split; [exact O|]. exists 0%nat. split; [lia|].
           apply (S0 (fun x => fst x = true)); [reflexivity|]. intros x X. rewrite (N x X). discriminate.
    + destruct (IH (S i) idx opt) as [(j & -> & J)|[(N & o & O & K)|[(N & O & j & -> & J)|(N & O & K)]]].
      * left. exists (S j). split; [lia|]. apply S1, J.
      * right. left. split; [intros x [<-|X]; [discriminate|auto]|]. eauto.
      * right. right. left. split; [intros x [<-|X]; [discriminate|auto]|]. split; [exact O|]. exists (S j). split; [lia|]. apply S1, J.
      * right. right. right. split; [intros x [<-|X]; [reflexivity|auto]|]. auto.
Qed.
