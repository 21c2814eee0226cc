(** C34: positions along routes, and the waypoints of routes. *)
From Coq Require Import NArith PeanoNat.
From Verif Require Import QAux LaneModel RouteModel RouteProofs.
Local Open Scope nat_scope.
Local Open Scope Q_scope.

(** ** Path length to place *)

(** The place at path length [s], between the start and the end of the route: on the road of the waypoint before [s] or of the one after,
    as far from that waypoint, along the route, as the path lengths say, and on that road. *)
Theorem C34_place_partial road r s u e : chained road (minimal r) -> last_wp (minimal r) e -> rlength r == w_rs e ->
  (w_dir e = (-1)%Z -> SMALL <= w_s e) -> 0 <= s <= rlength r ->
  exists i a b x len r', SetPathS road r s u = Some (OK, None, r') /\ nth_error (minimal r) i = Some a /\ (b = a \/ nth_error (minimal r) (S i) = Some b) /\
    w_rs a - SMALL < s /\ (forall c, nth_error (minimal r) (S i) = Some c -> s <= w_rs c - SMALL) /\
    cur r' = Some (w_track b, w_lane b, x) /\ along b x s /\ road (w_track b) = Some len /\ - SMALL < x <= len + SMALL /\
    widx r' = Some i /\ path_s r' = path_s r /\ minimal r' = minimal r /\ rlength r' = rlength r /\ on_route r' = (on_route r || u) /\ all_wp r' = all_wp r.
Proof. exact (path_inside road r s u e). Qed.

(** Before the start or past the end, when the state is updated or the position is not on the route: reported as end of the route with the
    distance left over, and the position stays. *)
Theorem C34_outside_partial road r s u : s < 0 \/ rlength r < s -> 0 <= rlength r -> u = true \/ on_route r = false ->
  exists d r', SetPathS road r s u = Some (ERROR_END_OF_ROUTE, Some d, r') /\ (s < 0 -> d = - s) /\ (rlength r < s -> d = s - rlength r) /\
    on_route r' = false /\ cur r' = cur r /\ path_s r' = path_s r /\ widx r' = widx r /\ minimal r' = minimal r.
Proof. exact (path_outside road r s u). Qed.

(** Only the number matters. *)
Theorem C34_equal road r s s' u c d r1 : s == s' -> SetPathS road r s u = Some (c, d, r1) ->
  exists d' r2, SetPathS road r s' u = Some (c, d', r2) /\ same_cur (cur r1) (cur r2) /\ widx r1 = widx r2 /\ path_s r1 = path_s r2 /\ on_route r1 = on_route r2.
Proof. exact (path_ext road r s s' u c d r1). Qed.

(** ** Place to path length *)

(** The waypoint found for a place is one of its road and no other one of the road is closer (by 1e-6); there is none if all are far. *)
Theorem C34_nearest dist r track s u c r' : minimal r <> [] -> SetTrackS dist r track s u = Some (c, r') ->
  exists o, nearest dist (minimal r) track s o /\ (c = OK -> widx r' = o) /\ (c <> OK -> widx r' = None) /\
    (o = None -> c = ERROR_NOT_ON_ROUTE /\ path_s r' = path_s r /\ cur r' = cur r).
Proof. exact (track_nearest dist r track s u c r'). Qed.

(** The path length found is within the route, whatever the place. *)
Theorem C34_in_range dist r track s u c r' : 0 <= rlength r -> 0 <= path_s r <= rlength r -> SetTrackS dist r track s u = Some (c, r') -> 0 <= path_s r' <= rlength r.
Proof.
  intros L P. unfold SetTrackS. destruct (minimal r) as [|w l] eqn:M; [intro H; injection H as _ <-; cbn; lra|]. rewrite <- M.
  destruct (track_loop _ _ _ _ _ _ _) as [cl|]; [|discriminate]. assert (K: 0 <= CLAMP (c_along cl) 0 (rlength r) <= rlength r).
  { unfold CLAMP, MIN, MAX. destruct (Qltb_spec 0 (c_along cl)). - destruct (Qltb_spec (c_along cl) (rlength r)); lra. - destruct (Qltb_spec 0 (rlength r)); lra. }
  destruct (c_idx cl) as [i|].
  - destruct (nth_error (minimal r) i) as [wp|]; [|discriminate]. destruct (c_ret cl), u; intro H; injection H as _ <-; exact K.
  - destruct u; intro H; injection H as _ <-; exact P.
Qed.

(** A route without waypoints knows no place. *)
Theorem C34_nowhere dist r track s u : minimal r = [] ->
  exists r', SetTrackS dist r track s u = Some (ERROR_END_OF_ROUTE, r') /\ path_s r' = 0 /\ widx r' = None /\ cur r' = None /\ on_route r' = on_route r.
Proof. intro M. unfold SetTrackS. rewrite M. eexists. split; [reflexivity|]. repeat split. Qed.

(** A place within the route, on a road with one waypoint: its path length is found. *)
Theorem C34_lookup dist r k a x s u : nth_error (minimal r) k = Some a -> (w_dir a = 1 \/ w_dir a = -1)%Z -> only (minimal r) (w_track a) k ->
  Qabs (dist a (w_track a) x) <= LARGE - SMALL -> along a x s -> 0 <= s <= rlength r ->
  (k = 0%nat -> w_rs a == 0) -> (k = (List.length (minimal r) - 1)%nat -> w_rs a == rlength r) ->
  exists r', SetTrackS dist r (w_track a) x u = Some (OK, r') /\ path_s r' == s /\ cur r' = Some (w_track a, w_lane a, x) /\ widx r' = Some k /\
    minimal r' = minimal r /\ rlength r' = rlength r /\ (u = true -> on_route r' = true) /\ (u = false -> on_route r' = on_route r) /\ all_wp r' = all_wp r.
Proof. exact (track_inside dist r k a x s u). Qed.

(** The place at path length [s] looked up again is at path length [s], when no road has two waypoints. *)
Theorem C34_roundtrip_partial road dist r s u v e : chained road (minimal r) -> last_wp (minimal r) e -> rlength r == w_rs e ->
  (w_dir e = (-1)%Z -> SMALL <= w_s e) -> 0 <= s <= rlength r ->
  (forall i w, nth_error (minimal r) i = Some w -> only (minimal r) (w_track w) i) ->
  (forall w x, In w (minimal r) -> Qabs (dist w (w_track w) x) <= LARGE - SMALL) ->
  exists r1 t l x r2, SetPathS road r s u = Some (OK, None, r1) /\ cur r1 = Some (t, l, x) /\ SetTrackS dist r1 t x v = Some (OK, r2) /\
    path_s r2 == s /\ cur r2 = cur r1 /\ minimal r2 = minimal r /\ rlength r2 = rlength r /\
    (exists k a, widx r2 = Some k /\ nth_error (minimal r) k = Some a /\ w_track a = t /\ along a x s).
Proof. exact (path_track road dist r s u v e). Qed.

(** ** Moves *)

(** Two moves within the route, with a lookup in between, are one move of the sum; for routes along the road directions, no road twice. *)
Theorem C34_moves_partial road dist r d1 d2 k a e : chained road (minimal r) -> last_wp (minimal r) e -> rlength r == w_rs e ->
  (forall w, In w (minimal r) -> w_dir w = 1%Z) -> (forall i w, nth_error (minimal r) i = Some w -> only (minimal r) (w_track w) i) ->
  (forall w x, In w (minimal r) -> Qabs (dist w (w_track w) x) <= LARGE - SMALL) ->
  widx r = Some k -> nth_error (minimal r) k = Some a -> 0 <= path_s r + d1 <= rlength r -> 0 <= path_s r + d1 + d2 <= rlength r ->
  exists r1 t l x r2 r3 r', MovePathDS road r d1 true = Some (OK, None, r1) /\ cur r1 = Some (t, l, x) /\ SetTrackS dist r1 t x true = Some (OK, r2) /\
    MovePathDS road r2 d2 true = Some (OK, None, r3) /\ MovePathDS road r (d1 + d2) true = Some (OK, None, r') /\ same_cur (cur r3) (cur r').
Proof. exact (move_twice road dist r d1 d2 k a e). Qed.

(** The path length itself stays whatever is set or moved, and so do the waypoints and the validity. *)
Theorem C34_kept road r s u c d r' : minimal r <> [] -> SetPathS road r s u = Some (c, d, r') ->
  path_s r' = path_s r /\ minimal r' = minimal r /\ rlength r' = rlength r /\ all_wp r' = all_wp r /\ scenario r' = scenario r /\ invalid r' = invalid r.
Proof. exact (path_kept road r s u c d r'). Qed.

(** Without a current waypoint (or with one past the end) a move does nothing and says so. *)
Theorem C34_lost road r ds u : widx r = None \/ (exists k, widx r = Some k /\ nth_error (minimal r) k = None) ->
  MovePathDS road r ds u = Some (ERROR_GENERIC, None, r).
Proof.
  unfold MovePathDS, GetWaypoint. intros [W|(k & W & K)]; rewrite W; [destruct (minimal r); reflexivity|].
  destruct (minimal r); [reflexivity|]. rewrite K. reflexivity.
Qed.

(** A route without waypoints: any path length within (or any at all while on the route, without update) resets the path length and the index. *)
Theorem C34_empty road r s u : minimal r = [] -> (0 <= s <= rlength r \/ (u = false /\ on_route r = true)) ->
  exists rem r', SetPathS road r s u = Some (ERROR_GENERIC, rem, r') /\ path_s r' = 0 /\ widx r' = None /\ on_route r' = on_route r /\ cur r' = cur r.
Proof.
  intros M H. unfold SetPathS.
  assert (E: (Qltb (rlength r) s || Qltb s 0) && u = false /\ (Qltb (rlength r) s || Qltb s 0) && negb (on_route r) = false).
  { destruct H as [H|(-> & ->)]; [|cbn [negb]; rewrite !andb_false_r; auto].
    destruct (Qltb_spec (rlength r) s); [lra|]. destruct (Qltb_spec s 0); [lra|]. auto. }
  destruct E as (E1 & E2). rewrite E1. cbv zeta. rewrite E2, M. eexists _, _. split; [reflexivity|]. repeat split.
Qed.

(** ** Waypoints *)

(** The direction found for a waypoint, from the one before ([successor]) or after it. *)
Theorem C34_direction road is_pred is_succ wp rf suc w : CalculcateWPDirWrtWP road is_pred is_succ wp rf suc = Some w ->
  w_track w = w_track wp /\ w_lane w = w_lane wp /\ w_s w = w_s wp /\ w_rs w = w_rs wp /\
  (w_track rf = w_track wp -> (w_dir w = if suc then if Qltb (w_s rf) (w_s wp) then 1 else -1 else if Qltb (w_s wp) (w_s rf) then 1 else -1)%Z) /\
  (w_track rf <> w_track wp -> is_pred (w_track wp) (w_track rf) = true -> w_dir w = if suc then 1%Z else (-1)%Z) /\
  (w_track rf <> w_track wp -> is_pred (w_track wp) (w_track rf) = false -> is_succ (w_track wp) (w_track rf) = true -> w_dir w = if suc then (-1)%Z else 1%Z) /\
  (w_track rf <> w_track wp -> is_pred (w_track wp) (w_track rf) = false -> is_succ (w_track wp) (w_track rf) = false -> w_dir w = w_dir wp).
Proof. exact (dir_spec road is_pred is_succ wp rf suc w). Qed.

(** New waypoints, each on a road next to that of the one before: a chain from 0, with the same places. *)
Theorem C34_replace_partial road is_pred is_succ r a b l r' : ReplaceMinimalWaypoints road is_pred is_succ r (a :: b :: l) = Some (0%Z, r') ->
  Forall (on_road road) (a :: b :: l) -> (is_pred (w_track a) (w_track b) = true \/ is_succ (w_track a) (w_track b) = true) ->
  (forall i u v, nth_error (a :: b :: l) i = Some u -> nth_error (a :: b :: l) (S i) = Some v -> next_road is_pred is_succ u v) ->
  chained road (minimal r') /\ List.length (minimal r') = List.length (a :: b :: l) /\
  (forall i w, nth_error (a :: b :: l) i = Some w -> exists w', nth_error (minimal r') i = Some w' /\ w_track w' = w_track w /\ w_lane w' = w_lane w /\ w_s w' = w_s w) /\
  rlength r' = rlength r.
Proof. exact (replace_spec road is_pred is_succ r a b l r'). Qed.

(** Fewer than two waypoints replace nothing. *)
Theorem C34_replace_few road is_pred is_succ r l : (List.length l < 2)%nat -> ReplaceMinimalWaypoints road is_pred is_succ r l = Some ((-1)%Z, r).
Proof. destruct l as [|a [|b l]]; cbn [List.length]; intro H; try reflexivity. lia. Qed.

(** The second waypoint settles the direction of the first, in all three lists; without a way it does not become part of the route. *)
Theorem C34_second road is_pred is_succ r p sc found f s0 sl m0 ml : all_wp r = [f] -> scenario r = s0 :: sl -> minimal r = m0 :: ml ->
  AddWaypointInternal road is_pred is_succ r p sc found =
    match CalculcateWPDirWrtWP road is_pred is_succ f p false with
    | None => None
    | Some f1 =>
        match CalculcateWPDirWrtWP road is_pred is_succ p f1 true with
        | None => None
        | Some p1 =>
            let d := w_dir f1 in
            Some (Route ((set_dir d m0 :: ml) ++ (if found then [p1] else [])) [f1; p1] ((set_dir d s0 :: sl) ++ (if sc then [p1] else []))
                    (path_s r) (rlength r) (widx r) (on_route r) (invalid r) (cur r))
        end
    end.
Proof.
  intros A S M. unfold AddWaypointInternal. rewrite A, S, M. destruct (CalculcateWPDirWrtWP road is_pred is_succ f p false) as [f1|]; [|reflexivity]. cbn [all_wp rev app head on_head].
  destruct (CalculcateWPDirWrtWP road is_pred is_succ p f1 true) as [p1|]; [|reflexivity]. cbn [minimal scenario path_s rlength widx on_route invalid cur].
  destruct found, sc; rewrite ?app_nil_r; reflexivity.
Qed.

(** A waypoint on the road of the one before takes its place. *)
Theorem C34_same_road r track l b : minimal r = l ++ [b] -> l <> [] -> w_track b = track -> exists r', drop_previous r track = Some r' /\ minimal r' = l /\
  all_wp r' = all_wp r /\ (forall a, rlength r' = w_rs (last l a)) /\ ((List.length (scenario r) <= 1)%nat -> scenario r' = scenario r) /\
  (forall sl x, sl <> [] -> scenario r = sl ++ [x] -> scenario r' = sl).
Proof.
  intros M N T. destruct l as [|a0 l]; [congruence|]. assert (X: exists b0 l0, l ++ [b] = b0 :: l0) by (destruct l; do 2 eexists; reflexivity). destruct X as (b0 & l0 & X).
  unfold drop_previous. rewrite M. cbn [app]. rewrite X. cbv zeta. replace (last (b0 :: l0) b0) with b by (rewrite <- X; symmetry; apply last_last).
  rewrite T, N.eqb_refl, orb_true_r, <- X. change (a0 :: l ++ [b]) with ((a0 :: l) ++ [b]). rewrite removelast_last.
  eexists. split; [reflexivity|]. cbn [minimal all_wp rlength scenario]. split; [reflexivity|]. split; [reflexivity|]. split; [|split].
  - intro a. f_equal. clear. assert (G: forall (l : list waypoint) c x y, last (c :: l) x = last (c :: l) y).
    { clear. induction l as [|d l IH]; intros c x y; [reflexivity|]. change (last (d :: l) x = last (d :: l) y). apply IH. }
    apply G.
  - intro L. destruct (Nat.ltb_spec 1 (List.length (scenario r))); [lia|reflexivity].
  - intros sl x SN ->. rewrite app_length. cbn [List.length]. destruct sl as [|y sl]; [congruence|]. destruct (Nat.ltb_spec 1 (List.length (y :: sl) + 1)); [apply removelast_last|cbn [List.length] in *; lia].
Qed.

(** Otherwise nothing is dropped (two waypoints on one road aside). *)
Theorem C34_other_road r track b l : minimal r = l ++ [b] -> w_track b <> track -> (forall a, minimal r = [a; b] -> w_track a <> w_track b) -> drop_previous r track = Some r.
Proof.
  intros M T Two. unfold drop_previous. destruct (minimal r) as [|a [|b0 l0]] eqn:E; [reflexivity|reflexivity|]. cbv zeta.
  assert (L: last (b0 :: l0) b0 = b).
  { destruct l as [|x l]; [discriminate|]. injection M as -> M. rewrite M. apply last_last. }
  rewrite L. destruct (N.eqb_spec track (w_track b)); [congruence|]. rewrite orb_false_r. destruct l0 as [|c l0]; [|reflexivity].
  cbn in L. subst b0. cbn [List.length Nat.eqb andb]. destruct (N.eqb_spec (w_track a) (w_track b)) as [X|X]; [exfalso; apply (Two a eq_refl X)|reflexivity].
Qed.

(** ** Validity *)

Lemma internal_invalid road is_pred is_succ r p sc found r' : AddWaypointInternal road is_pred is_succ r p sc found = Some r' -> invalid r' = invalid r.
Proof.
  unfold AddWaypointInternal. destruct (all_wp r) as [|f more] eqn:A; [intro H; injection H as <-; reflexivity|].
  set (fs := match more with [] => _ | _ :: _ => _ end). assert (F: forall q, fs = Some q -> invalid q = invalid r).
  { unfold fs. destruct more; [|intros q Q; injection Q as <-; reflexivity]. destruct (CalculcateWPDirWrtWP _ _ _ f p false), (scenario r), (minimal r); intros q Q; try discriminate. injection Q as <-. reflexivity. }
  destruct fs as [q|]; [|discriminate]. rewrite <- (F q eq_refl). destruct (head (rev (all_wp q))); [|discriminate]. destruct (CalculcateWPDirWrtWP _ _ _ p _ true); [|discriminate].
  intro H. injection H as <-. reflexivity.
Qed.

Lemma mids_invalid road is_pred is_succ distance mids : forall r acc r', add_mids road is_pred is_succ distance r acc mids = Some r' -> invalid r' = invalid r.
Proof.
  induction mids as [|m mids IH]; intros r acc r'; cbn [add_mids]; [intro H; injection H as <-; reflexivity|]. destruct (head (rev (all_wp r))) as [b|]; [|discriminate].
  destruct (distance b m) as [d|]; [|discriminate]. destruct (AddWaypointInternal _ _ _ r _ _ _) as [q|] eqn:Q; [|discriminate]. intro H. rewrite (IH _ _ _ H). apply (internal_invalid _ _ _ _ _ _ _ _ Q).
Qed.

(** A route once invalid stays so, and is made invalid exactly by a waypoint without way. *)
Theorem C34_invalid road is_pred is_succ path distance r p r' : AddWaypoint road is_pred is_succ path distance r p = Some r' -> minimal r <> [] ->
  exists q back, drop_previous r (w_track p) = Some q /\ head (rev (minimal q)) = Some back /\ (invalid r' = true <-> invalid r = true \/ (fst (fst (path back p)) < 0)%Z).
Proof.
  intros H N. unfold AddWaypoint in H. destruct (minimal r) as [|m0 ml] eqn:M; [congruence|]. destruct (drop_previous r (w_track p)) as [q|] eqn:D; [|discriminate].
  assert (I: invalid q = invalid r). { unfold drop_previous in D. rewrite M in D. destruct ml; [injection D as <-; reflexivity|]. cbv zeta in D. destruct (_ || _); injection D as <-; reflexivity. }
  destruct (head (rev (minimal q))) as [back|] eqn:B; [|discriminate]. exists q, back. split; [reflexivity|]. split; [exact B|].
  destruct (path back p) as [[rv d] mids]. cbn [fst]. rewrite <- I. destruct (Z.eqb_spec rv 0) as [Z0|Z0].
  - destruct (add_mids _ _ _ _ q _ mids) as [q1|] eqn:Q1; [|discriminate]. apply internal_invalid in H. apply mids_invalid in Q1. cbn [invalid] in H. rewrite H, Q1. split; [auto|intros [X|X]; [exact X|lia]].
  - assert (R: invalid r' = (rv <? 0)%Z || invalid q). { destruct (-1 <=? rv)%Z; [apply internal_invalid in H; exact H|injection H as <-; reflexivity]. }
    rewrite R, orb_true_iff, Z.ltb_lt. tauto.
Qed.

(** A waypoint without way is remembered in the list of all waypoints (and as one of the scenario) if the search came to an end, and not otherwise;
    the waypoints driven to stay as many. *)
Theorem C34_no_way road is_pred is_succ path distance r p r' q back rv d mids : AddWaypoint road is_pred is_succ path distance r p = Some r' -> minimal r <> [] ->
  drop_previous r (w_track p) = Some q -> head (rev (minimal q)) = Some back -> path back p = (rv, d, mids) -> (rv < 0)%Z -> all_wp q <> [] ->
  List.length (minimal r') = List.length (minimal q) /\ List.length (all_wp r') = (List.length (all_wp q) + (if (rv =? -1)%Z then 1 else 0))%nat /\
  minimal (CheckValid r') = [].
Proof.
  intros H N D B P V A. assert (IV: invalid r' = true). { destruct (C34_invalid _ _ _ _ _ _ _ _ H N) as (q' & b' & D' & B' & I). rewrite D in D'. injection D' as <-. rewrite B in B'. injection B' as <-. apply I. right. rewrite P. exact V. }
  unfold AddWaypoint in H. destruct (minimal r) as [|m0 ml] eqn:M; [congruence|]. rewrite D, B, P in H. destruct (Z.eqb_spec rv 0); [lia|].
  assert (G: List.length (minimal r') = List.length (minimal q) /\ List.length (all_wp r') = (List.length (all_wp q) + (if (rv =? -1)%Z then 1 else 0))%nat).
  { destruct (Z.leb_spec (-1) rv).
    - replace rv with (-1)%Z by lia. cbn [Z.eqb Pos.eqb]. unfold AddWaypointInternal in H. cbn [all_wp scenario minimal path_s rlength widx on_route invalid cur] in H. destruct (all_wp q) as [|f more] eqn:AQ; [congruence|]. destruct more as [|g more].
      + destruct (CalculcateWPDirWrtWP _ _ _ f p false) as [f1|]; [|discriminate]. destruct (scenario q) as [|s0 sl]; [discriminate|]. destruct (minimal q) as [|x xl] eqn:MQ; [discriminate|].
        cbn [all_wp rev app head on_head minimal] in H. destruct (CalculcateWPDirWrtWP _ _ _ p f1 true); [|discriminate]. injection H as <-. cbn. split; reflexivity.
      + cbn [all_wp] in H. destruct (head (rev _)); [|discriminate]. destruct (CalculcateWPDirWrtWP _ _ _ p _ true); [|discriminate]. injection H as <-. cbn [minimal all_wp List.length]. split; [reflexivity|]. rewrite app_length. cbn [List.length]. lia.
    - injection H as <-. cbn [minimal all_wp]. destruct (Z.eqb_spec rv (-1)); [lia|]. split; [reflexivity|lia]. }
  destruct G as (G1 & G2). split; [exact G1|]. split; [exact G2|]. unfold CheckValid. rewrite IV. reflexivity.
Qed.

(** A valid route passes the check unchanged. *)
Theorem C34_valid r : invalid r = false -> CheckValid r = r.
Proof. intro I. unfold CheckValid. rewrite I. reflexivity. Qed.

(** Waypoints added one by one, none taken away: the waypoints are those added and those between, each as far along the route as the
    distances add up to, and the length of the route is that of the last one, the length of the way through all of them. *)
Theorem C34_added_partial road is_pred is_succ path distance D l r : faithful path distance D -> grown road is_pred is_succ path distance l r ->
  map place (minimal r) = map place l /\ spread D (minimal r) /\ rlength r == way D l /\
  exists e, head (rev (minimal r)) = Some e /\ w_rs e == rlength r.
Proof.
  intros F G. destruct (grown_inv road is_pred is_succ path distance D l r F G) as (S1 & _ & _ & (e & H & _ & R) & L & _ & P).
  split; [exact P|]. split; [exact S1|]. split; [exact L|]. exists e. auto.
Qed.

(** ** Examples: three roads of length 100 in a row *)

Definition roads3 (t : N) : option Q := if (t <? 3)%N then Some 100 else None.
Definition wA := WP 0 (-1) 10 0 1.
Definition wB := WP 1 (-1) 50 140 1.
Definition wC := WP 2 (-1) 30 220 1.
Definition route3 : route := Route [wA; wB; wC] [wA; wB; wC] [wA; wB; wC] 40 220 (Some 0%nat) true false None.
Definition near (w : waypoint) (t : N) (x : Q) : Q := 0.

Lemma route3_chained : chained roads3 (minimal route3).
Proof.
  split; [|split].
  - intros w [<-|[<-|[<-|[]]]]; (split; [left; reflexivity|exists 100; split; [reflexivity|cbn; lra]]).
  - intros [|[|[|[|i]]]] a b A B; try discriminate; cbn in A, B; injection A as <-; injection B as <-; left; exists 100, 100; split; [reflexivity|split; [reflexivity|]| |]; try reflexivity.
    split; reflexivity.
  - intros a A. injection A as <-. reflexivity.
Qed.
Lemma route3_once : forall i w, nth_error (minimal route3) i = Some w -> only (minimal route3) (w_track w) i.
Proof.
  intros [|[|[|[|i]]]] w W; try discriminate; cbn in W; injection W as <-; intros [|[|[|[|j]]]] v V T; try discriminate; cbn in V; injection V as <-; try reflexivity; discriminate.
Qed.

Example C34_place_ex : exists r', SetPathS roads3 route3 100 true = Some (OK, None, r') /\ same_cur (cur r') (Some (1%N, (-1)%Z, 10)) /\ widx r' = Some 0%nat.
Proof. eexists. split; [vm_compute; reflexivity|]. split; [cbn; repeat split|reflexivity]. Qed.
Example C34_outside_ex : exists d r', SetPathS roads3 route3 250 true = Some (ERROR_END_OF_ROUTE, Some d, r') /\ d == 30 /\ on_route r' = false.
Proof. eexists _, _. split; [vm_compute; reflexivity|]. split; reflexivity. Qed.
Example C34_equal_ex : exists r1 r2, SetPathS roads3 route3 (1 # 2) true = Some (OK, None, r1) /\ SetPathS roads3 route3 (2 # 4) true = Some (OK, None, r2) /\ same_cur (cur r1) (cur r2).
Proof. eexists _, _. split; [vm_compute; reflexivity|]. split; [vm_compute; reflexivity|]. cbn. repeat split. Qed.
Example C34_lookup_ex : exists r', SetTrackS near route3 1 10 true = Some (OK, r') /\ path_s r' == 100 /\ widx r' = Some 1%nat.
Proof. eexists. split; [vm_compute; reflexivity|]. split; reflexivity. Qed.
Example C34_nearest_ex : exists r', SetTrackS near route3 7 10 true = Some (ERROR_NOT_ON_ROUTE, r') /\ widx r' = None.
Proof. eexists. split; [vm_compute; reflexivity|]. reflexivity. Qed.
Example C34_roundtrip_ex : exists r1 t l x r2, SetPathS roads3 route3 200 true = Some (OK, None, r1) /\ cur r1 = Some (t, l, x) /\
  SetTrackS near r1 t x true = Some (OK, r2) /\ path_s r2 == 200.
Proof.
  destruct (C34_roundtrip_partial roads3 near route3 200 true true wC) as (r1 & t & l & x & r2 & E1 & C1 & E2 & P & _).
  - exact route3_chained. - reflexivity. - reflexivity. - discriminate. - cbn. lra. - exact route3_once.
  - intros w x _. discriminate.
  - exists r1, t, l, x, r2. auto.
Qed.
Example C34_moves_ex : exists r1 t l x r2 r3 r', MovePathDS roads3 route3 70 true = Some (OK, None, r1) /\ cur r1 = Some (t, l, x) /\ SetTrackS near r1 t x true = Some (OK, r2) /\
    MovePathDS roads3 r2 90 true = Some (OK, None, r3) /\ MovePathDS roads3 route3 (70 + 90) true = Some (OK, None, r') /\ same_cur (cur r3) (cur r').
Proof.
  apply (C34_moves_partial roads3 near route3 70 90 0 wA wC).
  - exact route3_chained. - reflexivity. - reflexivity.
  - intros w [<-|[<-|[<-|[]]]]; reflexivity. - exact route3_once. - intros w x _. discriminate. - reflexivity. - reflexivity.
  - cbn. lra. - cbn. lra.
Qed.
Example C34_kept_ex : exists r', SetPathS roads3 route3 100 true = Some (OK, None, r') /\ path_s r' = 40.
Proof. eexists. split; [vm_compute; reflexivity|]. reflexivity. Qed.

(** Roads in a row: the predecessor of a road is the one before. *)
Definition pred3 (a b : N) : bool := (b + 1 =? a)%N.
Definition succ3 (a b : N) : bool := (a + 1 =? b)%N.
Definition empty_route : route := Route [] [] [] 0 0 None false false None.

Example C34_direction_ex : CalculcateWPDirWrtWP roads3 pred3 succ3 (WP 1 (-1) 50 0 0) (WP 0 (-1) 10 0 0) true = Some (WP 1 (-1) 50 0 1) /\
  CalculcateWPDirWrtWP roads3 pred3 succ3 (WP 1 1 50 0 0) (WP 0 1 10 0 0) false = Some (WP 1 1 50 0 (-1)).
Proof. split; reflexivity. Qed.
Example C34_replace_ex : exists r', ReplaceMinimalWaypoints roads3 pred3 succ3 empty_route [WP 0 (-1) 10 0 0; WP 1 (-1) 50 0 0; WP 2 (-1) 30 0 0] = Some (0%Z, r') /\
  map w_track (minimal r') = [0; 1; 2]%N /\ Forall2 Qeq (map w_rs (minimal r')) [0; 140; 220] /\ map w_dir (minimal r') = [1; 1; 1]%Z.
Proof. eexists. split; [vm_compute; reflexivity|]. split; [reflexivity|]. split; [|reflexivity]. repeat constructor. Qed.

(** The distance along the row, and the path with a waypoint at a third of each road between. *)
Definition at3 (w : N * Z * Q) : Q := let '(t, _, s) := w in 100 * inject_Z (Z.of_N t) + s.
Definition D3 (a b : N * Z * Q) : Q := Qabs (at3 b - at3 a).
Definition distance3 (a b : waypoint) : option Q := Some (at3 (place b) - at3 (place a)).
Definition path3 (a b : waypoint) : Z * Q * list waypoint :=
  let mids := if (w_track a =? 0)%N && (w_track b =? 2)%N then [WP 1 (w_lane a) 33 0 0] else [] in (0%Z, way D3 (a :: mids ++ [b]), mids).

Lemma faithful3 : faithful path3 distance3 D3.
Proof.
  split.
  - intros a b d E. injection E as <-. reflexivity.
  - intros a b d mids E. unfold path3 in E. injection E as <- <-. rewrite Qabs_pos; [reflexivity|].
    destruct (_ && _); cbn [app way]; unfold D3; repeat match goal with |- context [Qabs ?x] => pose proof (Qabs_nonneg x); generalize dependent (Qabs x); intros end; lra.
Qed.
Example C34_added_ex : exists r, grown roads3 pred3 succ3 path3 distance3 [WP 0 (-1) 10 0 0; WP 1 (-1) 33 0 0; WP 2 (-1) 50 0 0] r /\ Forall2 Qeq (map w_rs (minimal r)) [0; 123; 240] /\ rlength r == 240.
Proof.
  eexists. split.
  - change [WP 0 (-1) 10 0 0; WP 1 (-1) 33 0 0; WP 2 (-1) 50 0 0] with ([WP 0 (-1) 10 0 0] ++ [WP 1 (-1) 33 0 0] ++ [WP 2 (-1) 50 0 0]).
    eapply (grown_next roads3 pred3 succ3 path3 distance3 [WP 0 (-1) 10 0 0]).
    + eapply (grown_first roads3 pred3 succ3 path3 distance3 empty_route); try reflexivity.
    + reflexivity.
    + reflexivity.
    + reflexivity.
    + vm_compute. reflexivity.
  - split; [|reflexivity]. repeat constructor.
Qed.

(** ** What does not hold *)

(** Two moves without a lookup in between are only the second one. *)
Theorem C34_moves_refuted : ~ (forall road r d1 d2 r1 r2 r', MovePathDS road r d1 true = Some (OK, None, r1) -> MovePathDS road r1 d2 true = Some (OK, None, r2) ->
  MovePathDS road r (d1 + d2) true = Some (OK, None, r') -> same_cur (cur r2) (cur r')).
Proof.
  intro H. specialize (H roads3 route3 10 20). 
  assert (E1: exists r1, MovePathDS roads3 route3 10 true = Some (OK, None, r1) /\ exists r2, MovePathDS roads3 r1 20 true = Some (OK, None, r2) /\
    exists r', MovePathDS roads3 route3 (10 + 20) true = Some (OK, None, r') /\ ~ same_cur (cur r2) (cur r')).
  { eexists. split; [vm_compute; reflexivity|]. eexists. split; [vm_compute; reflexivity|]. eexists. split; [vm_compute; reflexivity|]. cbn. intros (_ & _ & X). vm_compute in X. discriminate. }
  destruct E1 as (r1 & E1 & r2 & E2 & r' & E3 & X). apply X. apply (H r1); auto.
Qed.

(** A positive distance moves backwards along the route on a road driven against its direction. *)
Definition back_route : route := let a := WP 0 1 90 0 (-1) in let b := WP 0 1 10 80 (-1) in Route [a; b] [a; b] [a; b] 40 80 (Some 0%nat) true false None.
Theorem C34_forward_refuted : ~ (forall road r d a k x y l t r' e, chained road (minimal r) -> last_wp (minimal r) e -> rlength r == w_rs e -> widx r = Some k -> nth_error (minimal r) k = Some a ->
  0 < d -> 0 <= path_s r + d <= rlength r -> t = w_track a -> along a x (path_s r) -> MovePathDS road r d true = Some (OK, None, r') -> cur r' = Some (t, l, y) ->
  along a y (path_s r + d)).
Proof.
  intro H. assert (E: exists r', MovePathDS roads3 back_route 10 true = Some (OK, None, r') /\ exists y, cur r' = Some (0%N, 1%Z, y) /\ y == 60).
  { eexists. split; [vm_compute; reflexivity|]. eexists. split; [reflexivity|]. reflexivity. }
  destruct E as (r' & E & y & C & Y).
  assert (X: along (WP 0 1 90 0 (-1)) y (path_s back_route + 10)).
  { apply (H roads3 back_route 10 (WP 0 1 90 0 (-1)) 0%nat 50 y 1%Z 0%N r' (WP 0 1 10 80 (-1))); try reflexivity; auto.
    - split; [|split].
      + intros w [<-|[<-|[]]]; (split; [right; reflexivity|exists 100; split; [reflexivity|cbn; lra]]).
      + intros [|[|[|i]]] a b A B; try discriminate. cbn in A, B. injection A as <-. injection B as <-. right. repeat split; discriminate.
      + intros a A. injection A as <-. reflexivity.
    - cbn. lra. }
  unfold along in X. cbn in X. rewrite Y in X. vm_compute in X. discriminate.
Qed.

(** A route that ends at the start of a road driven against its direction: at the end of the route the waypoint after the last one is read. *)
Definition zero_route : route := let a := WP 0 1 90 0 (-1) in let b := WP 0 1 0 90 (-1) in Route [a; b] [a; b] [a; b] 0 90 (Some 0%nat) true false None.
Theorem C34_last_refuted : chained roads3 (minimal zero_route) /\ rlength zero_route == 90 /\ SetPathS roads3 zero_route 90 true = None.
Proof.
  split; [|split; [reflexivity|vm_compute; reflexivity]]. split; [|split].
  - intros w [<-|[<-|[]]]; (split; [right; reflexivity|exists 100; split; [reflexivity|cbn; lra]]).
  - intros [|[|[|i]]] a b A B; try discriminate. cbn in A, B. injection A as <-. injection B as <-. right. repeat split; discriminate.
  - intros a A. injection A as <-. reflexivity.
Qed.

(** Without update of the state, a path length past the end is reported, but the position is set, here off the road. *)
Theorem C34_past_refuted : exists r' x, SetPathS roads3 route3 1000 false = Some (ERROR_END_OF_ROUTE, Some 780, r') /\ cur r' = Some (2%N, (-1)%Z, x) /\ x == 810 /\ on_route r' = true.
Proof. eexists _, _. split; [vm_compute; reflexivity|]. split; [reflexivity|]. split; reflexivity. Qed.

(** A road passed twice: the place of the first pass is taken for one of the second. *)
Definition ring_route : route := let a := WP 0 (-1) 10 0 1 in let b := WP 1 (-1) 50 140 1 in let c := WP 0 (-1) 90 280 1 in Route [a; b; c] [a; b; c] [a; b; c] 0 280 (Some 0%nat) true false None.
Definition on_same (w : waypoint) (t : N) (x : Q) : Q := x - w_s w.
Theorem C34_twice_refuted : chained roads3 (minimal ring_route) /\
  exists r1 x, SetPathS roads3 ring_route 60 true = Some (OK, None, r1) /\ cur r1 = Some (0%N, (-1)%Z, x) /\ exists r2, SetTrackS on_same r1 0 x true = Some (OK, r2) /\ path_s r2 == 260.
Proof.
  split.
  - split; [|split].
    + intros w [<-|[<-|[<-|[]]]]; (split; [left; reflexivity|exists 100; split; [reflexivity|cbn; lra]]).
    + intros [|[|[|[|i]]]] a b A B; try discriminate; cbn in A, B; injection A as <-; injection B as <-; left; exists 100, 100; repeat split.
    + intros a A. injection A as <-. reflexivity.
  - eexists _, _. split; [vm_compute; reflexivity|]. split; [reflexivity|]. eexists. split; [vm_compute; reflexivity|]. reflexivity.
Qed.

(** New waypoints leave the length of the route: every place past the start is out of the route. *)
Theorem C34_replace_length_refuted : exists r r', ReplaceMinimalWaypoints roads3 pred3 succ3 empty_route [WP 0 (-1) 10 0 0; WP 1 (-1) 50 0 0] = Some (0%Z, r) /\
  SetPathS roads3 r 50 true = Some (ERROR_END_OF_ROUTE, Some 50, r').
Proof. eexists _, _. split; vm_compute; reflexivity. Qed.

(** Two new waypoints on one road: 50 apart, but 150 along the route. *)
Theorem C34_replace_same_refuted : exists r a b, ReplaceMinimalWaypoints roads3 pred3 succ3 empty_route [WP 0 (-1) 10 0 0; WP 0 (-1) 60 0 0] = Some (0%Z, r) /\
  minimal r = [a; b] /\ w_s b - w_s a == 50 /\ w_rs b - w_rs a == 150.
Proof. eexists _, _, _. split; [vm_compute; reflexivity|]. split; [reflexivity|]. split; reflexivity. Qed.

(** Three added waypoints, the first two on one road: the second is taken away, and the waypoint between is measured from it.  It is at
    73 along the route, not at 123, and the place 100 along the route is 160 from the start of the first road, not 110. *)
Theorem C34_removed_refuted : exists r1 r2 r3, AddWaypoint roads3 pred3 succ3 path3 distance3 empty_route (WP 0 (-1) 10 0 0) = Some r1 /\
  AddWaypoint roads3 pred3 succ3 path3 distance3 r1 (WP 0 (-1) 60 0 0) = Some r2 /\ AddWaypoint roads3 pred3 succ3 path3 distance3 r2 (WP 2 (-1) 50 0 0) = Some r3 /\
  map w_track (minimal r3) = [0; 1; 2]%N /\ Forall2 Qeq (map w_s (minimal r3)) [10; 33; 50] /\ Forall2 Qeq (map w_rs (minimal r3)) [0; 73; 240] /\ ~ spread D3 (minimal r3) /\
  exists r x, SetPathS roads3 r3 100 true = Some (OK, None, r) /\ cur r = Some (1%N, (-1)%Z, x) /\ x == 60.
Proof.
  eexists _, _, _. split; [vm_compute; reflexivity|]. split; [vm_compute; reflexivity|]. split; [vm_compute; reflexivity|]. split; [reflexivity|].
  split; [repeat constructor|]. split; [repeat constructor|]. split.
  - intro H. specialize (H 0%nat _ _ eq_refl eq_refl). vm_compute in H. discriminate.
  - eexists _, _. split; [vm_compute; reflexivity|]. split; reflexivity.
Qed.

Example C34_nowhere_ex : exists r', SetTrackS (fun _ _ _ => 0) empty_route 0 5 true = Some (ERROR_END_OF_ROUTE, r') /\ path_s r' = 0.
Proof. destruct (C34_nowhere (fun _ _ _ => 0) empty_route 0 5 true eq_refl) as (r' & H & P & _). exists r'. auto. Qed.
Example C34_in_range_ex : exists c r', SetTrackS (fun _ _ _ => 0) route3 2 1000 true = Some (c, r') /\ 0 <= path_s r' <= rlength route3.
Proof.
  destruct (SetTrackS (fun _ _ _ => 0) route3 2 1000 true) as [[c r']|] eqn:E; [|vm_compute in E; discriminate]. exists c, r'. split; [reflexivity|].
  eapply C34_in_range; [| |exact E]; vm_compute; try split; discriminate.
Qed.
Example C34_empty_ex : exists rem r', SetPathS roads3 (set_path 7 empty_route) 0 true = Some (ERROR_GENERIC, rem, r') /\ path_s r' = 0 /\ widx r' = None /\
  on_route r' = on_route empty_route /\ cur r' = cur empty_route.
Proof. refine (C34_empty roads3 (set_path 7 empty_route) 0 true eq_refl _). left. vm_compute. split; discriminate. Qed.
Example C34_lost_ex : MovePathDS roads3 empty_route 5 true = Some (ERROR_GENERIC, None, empty_route) /\
  MovePathDS roads3 (set_widx None route3) 5 true = Some (ERROR_GENERIC, None, set_widx None route3).
Proof. split; apply C34_lost; left; reflexivity. Qed.

Definition no_path (a b : waypoint) : Z * Q * list waypoint := ((-1)%Z, 0, []).
Definition lost_path (a b : waypoint) : Z * Q * list waypoint := ((-2)%Z, 0, []).
Definition one_route : route := Route [WP 0 (-1) 10 0 0] [WP 0 (-1) 10 0 0] [WP 0 (-1) 10 0 0] 0 0 None false false None.

Example C34_replace_few_ex : ReplaceMinimalWaypoints roads3 pred3 succ3 route3 [WP 0 (-1) 10 0 0] = Some ((-1)%Z, route3).
Proof. apply C34_replace_few. cbn. lia. Qed.
Example C34_second_ex : exists r', AddWaypointInternal roads3 pred3 succ3 one_route (WP 1 1 50 0 0) true false = Some r' /\
  map w_dir (minimal r') = [1%Z] /\ map w_dir (scenario r') = [1%Z; 1%Z].
Proof. eexists. split; [rewrite (C34_second roads3 pred3 succ3 one_route (WP 1 1 50 0 0) true false _ _ _ _ _ eq_refl eq_refl eq_refl); reflexivity|]. split; reflexivity. Qed.
Example C34_same_road_ex : exists r', drop_previous route3 2 = Some r' /\ minimal r' = [wA; wB] /\ rlength r' = 140.
Proof. destruct (C34_same_road route3 2 [wA; wB] wC eq_refl ltac:(discriminate) eq_refl) as (r' & D & M & _ & L & _). exists r'. split; [exact D|]. split; [exact M|]. exact (L wA). Qed.
Example C34_other_road_ex : drop_previous route3 7 = Some route3.
Proof. apply (C34_other_road _ _ wC [wA; wB]); [reflexivity|cbn; discriminate|discriminate]. Qed.
Example C34_invalid_ex : exists r', AddWaypoint roads3 pred3 succ3 no_path distance3 one_route (WP 1 (-1) 50 0 0) = Some r' /\ invalid r' = true.
Proof. eexists. split; [reflexivity|]. destruct (C34_invalid roads3 pred3 succ3 no_path distance3 one_route (WP 1 (-1) 50 0 0) _ eq_refl ltac:(discriminate)) as (q & b & D & B & I). apply I. right. cbn. lia. Qed.
Example C34_no_way_ex : (exists r', AddWaypoint roads3 pred3 succ3 no_path distance3 one_route (WP 1 (-1) 50 0 0) = Some r' /\ List.length (all_wp r') = 2%nat /\ List.length (minimal r') = 1%nat /\ minimal (CheckValid r') = []) /\
  exists r', AddWaypoint roads3 pred3 succ3 lost_path distance3 one_route (WP 1 (-1) 50 0 0) = Some r' /\ List.length (all_wp r') = 1%nat.
Proof. split; eexists; split; try reflexivity; repeat split; reflexivity. Qed.
Example C34_valid_ex : CheckValid route3 = route3.
Proof. apply C34_valid. reflexivity. Qed.

Print Assumptions C34_place_partial.
Print Assumptions C34_outside_partial.
Print Assumptions C34_equal.
Print Assumptions C34_nearest.
Print Assumptions C34_lookup.
Print Assumptions C34_roundtrip_partial.
Print Assumptions C34_moves_partial.
Print Assumptions C34_kept.
Print Assumptions C34_direction.
Print Assumptions C34_replace_partial.
Print Assumptions C34_added_partial.
Print Assumptions C34_moves_refuted.
Print Assumptions C34_forward_refuted.
Print Assumptions C34_last_refuted.
Print Assumptions C34_past_refuted.
Print Assumptions C34_twice_refuted.
Print Assumptions C34_replace_length_refuted.
Print Assumptions C34_replace_same_refuted.
Print Assumptions C34_removed_refuted.

Print Assumptions C34_lost.

Print Assumptions C34_empty.

Print Assumptions C34_in_range.
Print Assumptions C34_nowhere.

Print Assumptions C34_replace_few.
Print Assumptions C34_second.
Print Assumptions C34_same_road.
Print Assumptions C34_other_road.
Print Assumptions C34_invalid.
Print Assumptions C34_no_way.
Print Assumptions C34_valid.
