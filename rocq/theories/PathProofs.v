(** * Lemmas on the path search *)
From Coq Require Import NArith Lia.
From Verif Require Import QAux LaneModel IdModel NetModel NetProofs PathModel.
Local Open Scope Q_scope.

(** ** Specification *)

(** The lane a road is left in when it is entered in lane [k] at its end [cp]. *)
Definition lane_across (r : nroad) (cp : contact) (k : Z) : Z :=
  match cp with CP_END => GetConnectedLaneIdAtS (nr_road r) k (- (1)) 0 | _ => GetConnectedLaneIdAtS (nr_road r) k 0 (- (1)) end.

(** [route net ini r t k d f]: there is a way over connected roads and lanes, starting like one of the nodes [ini] at the end [f] of the
    start road, to the end [t] of road [r], arriving there in lane [k] after the distance [d]. *)
Inductive route (net : network) (ini : list pnode) : nroad -> LinkType -> Z -> Q -> N * LinkType -> Prop :=
| route_start : forall n, In n ini -> route net ini (pn_from n) (rl_type (pn_link n)) (pn_lane n) (pn_dist n) (ptr n)
| route_step : forall r t k d f l r2 cp k2, route net ini r t k d f -> leads net r t r2 cp -> Road_GetLink r t = Some l ->
    k2 = Road_GetConnectingLaneId net r l k (nr_id r2) -> k2 <> 0%Z -> Road_GetLink r2 (exit_end cp) <> None ->
    route net ini r2 (exit_end cp) (lane_across r2 cp k2) (d + Length r2) f.

(** The rest of the way on the target road. *)
Definition rest (target : nroad) (s : Q) (cp : contact) : Q := match cp with CP_START => s | _ => Length target - s end.

(** [single net target]: from no road end is the target road reached twice, nor at both of its ends. *)
Definition single (net : network) (target : nroad) : Prop :=
  (forall id r t1 t2 cp1 cp2, GetRoad net id = Some r -> leads net r t1 target cp1 -> leads net r t2 target cp2 -> cp1 = cp2) /\
  (forall i j id, GetJunction net i = Some j -> (List.length (filter (fun c => (c_connecting c =? nr_id target)%N) (from_road j id)) <= 1)%nat).

(** [lane_open net ini]: the lanes in which a road end is reached continue on the same connected roads. *)
Definition lane_open (net : network) (ini : list pnode) : Prop :=
  forall r t k d f k' d' f' l r2 cp, route net ini r t k d f -> route net ini r t k' d' f' -> leads net r t r2 cp -> Road_GetLink r t = Some l ->
    Road_GetConnectingLaneId net r l k (nr_id r2) <> 0%Z -> Road_GetConnectingLaneId net r l k' (nr_id r2) <> 0%Z.

(** ** Selecting a node *)

Lemma min_index_spec : forall l j mi md, (forall u, In u l -> True) ->
  let m := min_index l j mi md in
  (m = mi /\ forall u, In u l -> md <= pn_dist u) \/
  (exists i u, m = (j + i)%nat /\ nth_error l i = Some u /\ pn_dist u < md /\ forall w, In w l -> pn_dist u <= pn_dist w).
Proof.
  induction l as [|n l IH]; intros j mi md _; cbn [min_index].
  - left. split; [reflexivity|intros u []].
  - destruct (Qltb_spec (pn_dist n) md) as [L|L].
    + destruct (IH (S j) j (pn_dist n) (fun _ _ => I)) as [[E A]|(i & u & E & N & D & A)]; cbv zeta in *; rewrite E; right.
      * exists O, n. split; [lia|]. split; [reflexivity|]. split; [exact L|]. intros w [<-|W]; [lra|]. apply A, W.
      * exists (S i), u. split; [lia|]. split; [exact N|]. split; [lra|]. intros w [<-|W]; [lra|]. apply A, W.
    + destruct (IH (S j) mi md (fun _ _ => I)) as [[E A]|(i & u & E & N & D & A)]; cbv zeta in *; rewrite E.
      * left. split; [reflexivity|]. intros u [<-|U]; [lra|]. apply A, U.
      * right. exists (S i), u. split; [lia|]. split; [exact N|]. split; [exact D|]. intros w [<-|W]; [lra|]. apply A, W.
Qed.

Lemma select : forall l, l <> [] -> exists u, nth_error l (min_index l 0 0 LARGE) = Some u /\ (forall w, In w l -> pn_dist u <= pn_dist w \/ LARGE <= pn_dist w).
Proof.
  intros l Ne. destruct (min_index_spec l 0 0 LARGE (fun _ _ => I)) as [[E A]|(i & u & E & N & D & A)]; cbv zeta in *; rewrite E.
  - destruct l as [|u l]; [congruence|]. exists u. split; [reflexivity|]. intros w W. right. apply A, W.
  - exists u. split; [exact N|]. intros w W. left. apply A, W.
Qed.

Lemma erase_app : forall m l a, (m < List.length l)%nat -> erase m (l ++ a) = erase m l ++ a.
Proof.
  intros m l a L. unfold erase. rewrite firstn_app, skipn_app. replace (m - List.length l)%nat with O by lia. replace (S m - List.length l)%nat with O by lia.
  cbn [firstn skipn]. rewrite app_nil_r, app_assoc. reflexivity.
Qed.

Lemma erase_in : forall m l u w, nth_error l m = Some u -> In w l -> w = u \/ In w (erase m l).
Proof.
  intros m l u w E I. rewrite <- (firstn_skipn m l) in I. apply in_app_or in I. destruct I as [I|I]; [right; unfold erase; apply in_or_app; left; exact I|].
  assert (S : skipn m l = u :: skipn (S m) l).
  { clear I. revert m E. induction l as [|a l IH]; intros [|m] E; try discriminate; cbn in *; [congruence|]. apply IH, E. }
  rewrite S in I. destruct I as [->|I]; [left; reflexivity|]. right. unfold erase. apply in_or_app. right. exact I.
Qed.

Lemma in_erase : forall m l w, In w (erase m l) -> In w l.
Proof.
  intros m l w I. unfold erase in I. apply in_app_or in I. destruct I as [I|I].
  - rewrite <- (firstn_skipn m l). apply in_or_app. left. exact I.
  - rewrite <- (firstn_skipn (S m) l). apply in_or_app. right. exact I.
Qed.

(** ** Nodes *)

Section Search.
Variables (net : network) (ini : list pnode) (tr : nroad) (ts : Q).
Hypothesis cons : consistent net.
Hypothesis len : forall id r, GetRoad net id = Some r -> 0 <= Length r.
Hypothesis tr_in : GetRoad net (nr_id tr) = Some tr.
Hypothesis sgl : single net tr.

Definition node_ok (n : pnode) : Prop :=
  GetRoad net (nr_id (pn_from n)) = Some (pn_from n) /\ Road_GetLink (pn_from n) (rl_type (pn_link n)) = Some (pn_link n) /\
  route net ini (pn_from n) (rl_type (pn_link n)) (pn_lane n) (pn_dist n) (first_ptr n) /\ 0 <= pn_dist n.

Hypothesis ini_ok : forall n, In n ini -> GetRoad net (nr_id (pn_from n)) = Some (pn_from n) /\ Road_GetLink (pn_from n) (rl_type (pn_link n)) = Some (pn_link n) /\
  pn_prev n = [] /\ 0 <= pn_dist n <= Length (pn_from n).

Lemma ini_node_ok : forall n, In n ini -> node_ok n.
Proof.
  intros n I. destruct (ini_ok n I) as (A & B & C & D). split; [exact A|]. split; [exact B|]. split; [|tauto].
  unfold first_ptr. rewrite C. cbn [last]. apply route_start, I.
Qed.

Lemma next_link_spec : forall r t l r2 cp, GetRoad net (nr_id r) = Some r -> Road_GetLink r t = Some l -> leads net r t r2 cp ->
  next_link net r2 l r = option_map (fun k => (k, match cp with CP_END => CP_START | _ => CP_END end)) (Road_GetLink r2 (exit_end cp)).
Proof.
  intros r t l r2 cp G L H. apply leads_inv in H. destruct H as (l' & L' & [(E & R & <-)|(E & j & c & J & I & N & R & <-)]); assert (l' = l) by congruence; subst l'; clear L';
    pose proof (cons _ _ _ _ G L) as K; rewrite E in K; unfold next_link; rewrite E.
  - destruct K as [_ [K|K]]; rewrite K; reflexivity.
  - rewrite J. destruct (K j c J I N) as (r2' & R' & Ends & Back & Away). assert (r2' = r2) by congruence. subst r2'.
    replace (if j_direct j then j_id j else nr_id r) with (if j_direct j then j_id j else nr_id r) in * by reflexivity.
    set (pivot := if j_direct j then j_id j else nr_id r) in *.
    destruct Back as (k & Lk & Bk). destruct Ends as [Ec|Ec]; rewrite Ec in *; cbn [entry_end exit_end] in *.
    + destruct (Road_GetLink r2 SUCCESSOR) as [k2|] eqn:Ls.
      * specialize (Away k2 eq_refl). apply N.eqb_neq in Away. rewrite Away, Lk, Bk, N.eqb_refl. reflexivity.
      * rewrite Lk, Bk, N.eqb_refl. reflexivity.
    + rewrite Lk, Bk, N.eqb_refl. reflexivity.
Qed.

(** What CheckRoad adds when no unvisited node is farther than the new one. *)
Definition added (check : nroad) (src : pnode) (visited : list pnode) : list pnode :=
  let nextLaneId := Road_GetConnectingLaneId net (pn_from src) (pn_link src) (pn_lane src) (nr_id check) in
  if (nextLaneId =? 0)%Z then [] else
  match next_link net check (pn_link src) (pn_from src) with
  | None => []
  | Some (k, cp) =>
      if existsb (fun n => ptr_eqb (ptr n) (nr_id check, rl_type k)) visited then []
      else [PNode check k (pn_dist src + Length check)
              (if contact_eqb cp CP_START then GetConnectedLaneIdAtS (nr_road check) nextLaneId (- (1)) 0 else GetConnectedLaneIdAtS (nr_road check) nextLaneId 0 (- (1)))
              cp (ptr src :: pn_prev src)]
  end.

Lemma ptr_eqb_eq : forall a b, ptr_eqb a b = true <-> a = b.
Proof.
  intros [a1 a2] [b1 b2]. unfold ptr_eqb. cbn [fst snd]. rewrite andb_true_iff, N.eqb_eq, LinkType_eqb_eq. split; [intros [-> ->]; reflexivity|intros H; injection H; auto].
Qed.

Lemma CheckRoad_added : forall check src visited unvisited,
  (forall u, In u unvisited -> nr_id (pn_from u) = nr_id check -> pn_dist u <= pn_dist src + Length check) ->
  CheckRoad net check src visited unvisited = unvisited ++ added check src visited.
Proof.
  intros check src vis unv H. unfold CheckRoad, added. destruct (_ =? 0)%Z; [rewrite app_nil_r; reflexivity|].
  destruct (next_link _ _ _ _) as [[k cp]|]; [|rewrite app_nil_r; reflexivity]. destruct (existsb _ vis); [rewrite app_nil_r; reflexivity|].
  cbv zeta. f_equal. rewrite <- (map_id unv) at 2. apply map_ext_in. intros u Iu.
  destruct (ptr_eqb (ptr u) (nr_id check, rl_type k)) eqn:P; [|reflexivity]. apply ptr_eqb_eq in P. unfold ptr in P. injection P as P _.
  destruct (Qltb_spec (pn_dist src + Length check) (pn_dist u)) as [L|L]; [|reflexivity]. specialize (H u Iu P). lra.
Qed.

Lemma last_cons : forall A (l : list A) a b, last (a :: l) b = last l a.
Proof. induction l as [|x l IH]; intros a b; [reflexivity|]. change (last (a :: x :: l) b) with (last (x :: l) b). rewrite IH. symmetry. apply IH. Qed.

Lemma added_ok : forall check cp src visited n, node_ok src -> leads net (pn_from src) (rl_type (pn_link src)) check cp -> In n (added check src visited) ->
  node_ok n /\ nr_id (pn_from n) = nr_id check /\ pn_dist n == pn_dist src + Length check.
Proof.
  intros check cp src vis n (G & L & R & D) H I. pose proof (leads_exists _ _ _ _ _ H) as Gc. unfold added in I.
  destruct (Z.eqb_spec (Road_GetConnectingLaneId net (pn_from src) (pn_link src) (pn_lane src) (nr_id check)) 0) as [Z|Z]; [destruct I|].
  rewrite (next_link_spec _ _ _ _ _ G L H) in I. destruct (Road_GetLink check (exit_end cp)) as [k|] eqn:Lk; [|destruct I]. cbn [option_map] in I.
  destruct (existsb _ vis); [destruct I|]. destruct I as [<-|[]]. pose proof (Road_GetLink_type _ _ _ Lk) as Tk.
  cbn [pn_from pn_dist]. split; [|split; [reflexivity|lra]].
  split; [exact Gc|]. cbn [pn_link pn_lane pn_from pn_dist]. split; [rewrite Tk; exact Lk|].
  assert (F : first_ptr (PNode check k (pn_dist src + Length check)
     (if contact_eqb match cp with CP_END => CP_START | _ => CP_END end CP_START
      then GetConnectedLaneIdAtS (nr_road check) (Road_GetConnectingLaneId net (pn_from src) (pn_link src) (pn_lane src) (nr_id check)) (- (1)) 0
      else GetConnectedLaneIdAtS (nr_road check) (Road_GetConnectingLaneId net (pn_from src) (pn_link src) (pn_lane src) (nr_id check)) 0 (- (1)))
     match cp with CP_END => CP_START | _ => CP_END end (ptr src :: pn_prev src)) = first_ptr src).
  { unfold first_ptr. cbn [pn_prev]. apply last_cons. }
  rewrite F. clear F. split.
  - rewrite Tk.
    replace (if contact_eqb match cp with CP_END => CP_START | _ => CP_END end CP_START
      then GetConnectedLaneIdAtS (nr_road check) (Road_GetConnectingLaneId net (pn_from src) (pn_link src) (pn_lane src) (nr_id check)) (- (1)) 0
      else GetConnectedLaneIdAtS (nr_road check) (Road_GetConnectingLaneId net (pn_from src) (pn_link src) (pn_lane src) (nr_id check)) 0 (- (1)))
      with (lane_across check cp (Road_GetConnectingLaneId net (pn_from src) (pn_link src) (pn_lane src) (nr_id check))) by (destruct cp; reflexivity).
    eapply route_step; [exact R|exact H|exact L|reflexivity|exact Z|congruence].
  - specialize (len _ _ Gc). lra.
Qed.

(** ** Junctions *)

Fixpoint jl (pivot : nroad) (m : nat) (visited unvisited : list pnode) (tmpDist : Q) (found : bool) (L : list N) : option round :=
  match L with
  | [] => Some (Go unvisited tmpDist found)
  | id :: L =>
      match GetRoad net id with
      | None => Some (Return 0)
      | Some nextRoad =>
          if (nr_id nextRoad =? nr_id tr)%N then
            match IsSuccessorOrPredecessor net pivot (nr_id nextRoad) 0 CP_UNDEFINED with
            | (true, CP_START) => jl pivot m visited unvisited (tmpDist + ts) true L
            | (true, CP_END) => jl pivot m visited unvisited (tmpDist + (Length nextRoad - ts)) true L
            | _ => Some (Return (-1))
            end
          else
            match nth_error unvisited m with
            | None => None
            | Some src => jl pivot m visited (CheckRoad net nextRoad src visited unvisited) tmpDist found L
            end
      end
  end.

Lemma junction_loop_list : forall jn pivot m visited n j unvisited tmpDist found,
  (n + j)%nat = List.length (from_road jn (nr_id pivot)) ->
  junction_loop net tr ts jn pivot m visited unvisited tmpDist found n j =
  jl pivot m visited unvisited tmpDist found (map c_connecting (skipn j (from_road jn (nr_id pivot)))).
Proof.
  intros jn pivot m vis. induction n as [|n IH]; intros j unv tmp found E; cbn [junction_loop].
  - rewrite skipn_all2 by lia. reflexivity.
  - unfold GetConnectingRoadIdFromIncomingRoadId. rewrite pick_from_spec by lia. rewrite Nat.sub_0_r. fold (from_road jn (nr_id pivot)).
    assert (Ex : exists c, nth_error (from_road jn (nr_id pivot)) j = Some c /\ skipn j (from_road jn (nr_id pivot)) = c :: skipn (S j) (from_road jn (nr_id pivot))).
    { assert (Lj : (j < List.length (from_road jn (nr_id pivot)))%nat) by lia. generalize (from_road jn (nr_id pivot)) Lj. clear. intros l. revert j.
      induction l as [|a l IH]; intros [|j] L; cbn in *; try lia; [exists a; auto|]. apply IH. lia. }
    destruct Ex as (c & Nc & Sc). rewrite Nc, Sc. cbn [map jl]. destruct (GetRoad net (c_connecting c)) as [nr|]; [|reflexivity].
    destruct (nr_id nr =? nr_id tr)%N.
    + destruct (IsSuccessorOrPredecessor net pivot (nr_id nr) 0 CP_UNDEFINED) as [[] []]; try reflexivity; apply IH; lia.
    + destruct (nth_error unv m) as [src|]; [|reflexivity]. apply IH. lia.
Qed.

Definition not_far (src : pnode) (unvisited : list pnode) : Prop := forall u, In u unvisited -> pn_dist u <= pn_dist src + Length (pn_from u).

Lemma not_far_check : forall src unv check, not_far src unv -> GetRoad net (nr_id check) = Some check -> (forall u, In u unv -> GetRoad net (nr_id (pn_from u)) = Some (pn_from u)) ->
  forall u, In u unv -> nr_id (pn_from u) = nr_id check -> pn_dist u <= pn_dist src + Length check.
Proof. intros src unv check F G A u I E. specialize (F u I). specialize (A u I). rewrite E, G in A. injection A as A. rewrite A. exact F. Qed.

Lemma nth_app_l : forall A (l a : list A) m x, nth_error l m = Some x -> nth_error (l ++ a) m = Some x.
Proof. intros A l a m x H. rewrite nth_error_app1; [exact H|]. apply nth_error_Some. rewrite H. discriminate. Qed.

(** The loop over connecting roads none of which is the target. *)
Lemma jl_others : forall L pivot m vis src unv tmp found,
  nth_error unv m = Some src -> pivot = pn_from src -> node_ok src -> not_far src unv -> (forall u, In u unv -> node_ok u) ->
  (forall id, In id L -> id <> nr_id tr /\ exists r2 cp, GetRoad net id = Some r2 /\ leads net pivot (rl_type (pn_link src)) r2 cp) ->
  exists add, jl pivot m vis unv tmp found L = Some (Go (unv ++ add) tmp found) /\
    (forall n, In n add -> exists r2 cp, leads net pivot (rl_type (pn_link src)) r2 cp /\ r2 <> tr /\ In n (added r2 src vis)) /\
    (forall id r2, In id L -> GetRoad net id = Some r2 -> forall n, In n (added r2 src vis) -> In n add).
Proof.
  induction L as [|id L IH]; intros pivot m vis src unv tmp found N E S F A H; cbn [jl].
  - exists []. rewrite app_nil_r. split; [reflexivity|]. split; [intros n []|intros id r2 []].
  - destruct (H id (or_introl eq_refl)) as (Ne & r2 & cp & G & Ld). rewrite G. pose proof (GetRoad_id _ _ _ G) as Gi.
    destruct (N.eqb_spec (nr_id r2) (nr_id tr)) as [Eq|_]; [congruence|]. rewrite N.
    assert (G' : GetRoad net (nr_id r2) = Some r2) by (rewrite Gi; exact G).
    rewrite CheckRoad_added by (apply not_far_check; [exact F|exact G'|intros u Iu; apply (A u Iu)]).
    assert (Ad : forall n, In n (added r2 src vis) -> node_ok n /\ nr_id (pn_from n) = nr_id r2 /\ pn_dist n == pn_dist src + Length r2).
    { intros n In_. subst pivot. apply (added_ok r2 cp src vis n S Ld In_). }
    destruct (IH pivot m vis src (unv ++ added r2 src vis) tmp found) as (add & J & J1 & J2).
    + apply nth_app_l, N.
    + exact E.
    + exact S.
    + intros u Iu. apply in_app_or in Iu. destruct Iu as [Iu|Iu]; [apply F, Iu|]. destruct (Ad u Iu) as (Ok & Ei & Ed). destruct Ok as (Gu & _). rewrite Ei, G' in Gu. injection Gu as Gu. rewrite <- Gu. lra.
    + intros u Iu. apply in_app_or in Iu. destruct Iu as [Iu|Iu]; [apply A, Iu|]. apply (Ad u Iu).
    + intros i Ii. apply H. right. exact Ii.
    + exists (added r2 src vis ++ add). rewrite J, <- app_assoc. split; [reflexivity|]. split.
      * intros n In_. apply in_app_or in In_. destruct In_ as [In_|In_]; [|apply J1, In_]. exists r2, cp. split; [exact Ld|]. split; [|exact In_]. intros ->. congruence.
      * intros i r3 [<-|Ii] Gi3 n In_; apply in_or_app; [left; assert (r3 = r2) by congruence; subst; exact In_|right; eapply J2; eauto].
Qed.

(** The loop once the target road has been met (at most one connection leads there). *)
Lemma jl_found : forall L pivot m vis src unv tmp,
  nth_error unv m = Some src -> pivot = pn_from src -> node_ok src -> not_far src unv -> (forall u, In u unv -> node_ok u) ->
  (forall id, In id L -> exists r2 cp, GetRoad net id = Some r2 /\ leads net pivot (rl_type (pn_link src)) r2 cp) ->
  (rl_type (pn_link src) = SUCCESSOR \/ rl_type (pn_link src) = PREDECESSOR) ->
  In (nr_id tr) L -> (List.length (filter (fun id => (id =? nr_id tr)%N) L) <= 1)%nat ->
  exists unv' cp, jl pivot m vis unv tmp false L = Some (Go unv' (tmp + rest tr ts cp) true) /\ leads net pivot (rl_type (pn_link src)) tr cp /\ nth_error unv' m = Some src.
Proof.
  induction L as [|id L IH]; intros pivot m vis src unv tmp N E S F A H T I C; [destruct I|]. cbn [jl].
  destruct (H id (or_introl eq_refl)) as (r2 & cp & G & Ld). rewrite G. pose proof (GetRoad_id _ _ _ G) as Gi.
  assert (G' : GetRoad net (nr_id r2) = Some r2) by (rewrite Gi; exact G).
  destruct (N.eqb_spec (nr_id r2) (nr_id tr)) as [Eq|Ne].
  - assert (r2 = tr) by (rewrite Eq in G'; congruence). subst r2.
    destruct (IsSuccessorOrPredecessor net pivot (nr_id tr) 0 CP_UNDEFINED) as [b x] eqn:K. apply (either_spec _ _ _ _ _ tr_in) in K.
    assert (Gp : GetRoad net (nr_id pivot) = Some pivot) by (subst pivot; apply S).
    assert (b = true /\ x = cp) as [-> ->].
    { destruct b.
      - split; [reflexivity|]. destruct sgl as [O _]. destruct K as [K|K]; eapply O; eauto.
      - destruct (K cp) as [K1 K2]. destruct T as [T|T]; rewrite T in Ld; contradiction. }
    assert (Rest : forall id', In id' L -> id' <> nr_id tr /\ exists r3 cp3, GetRoad net id' = Some r3 /\ leads net pivot (rl_type (pn_link src)) r3 cp3).
    { intros i Ii. split; [|apply H; right; exact Ii]. intros ->. cbn [filter] in C. rewrite <- Gi, N.eqb_refl in C. cbn [List.length] in C.
      assert (In (nr_id tr) (filter (fun id => (id =? nr_id tr)%N) L)) by (apply filter_In; split; [exact Ii|apply N.eqb_refl]).
      destruct (filter (fun id => (id =? nr_id tr)%N) L); [destruct H0|cbn in C; lia]. }
    destruct (leads_ends _ _ _ _ _ _ cons Gp Ld) as [-> | ->].
    + destruct (jl_others L pivot m vis src unv (tmp + ts) true N E S F A Rest) as (add & J & _). exists (unv ++ add), CP_START. rewrite J. split; [reflexivity|]. split; [exact Ld|]. apply nth_app_l, N.
    + destruct (jl_others L pivot m vis src unv (tmp + (Length tr - ts)) true N E S F A Rest) as (add & J & _). exists (unv ++ add), CP_END. rewrite J. split; [reflexivity|]. split; [exact Ld|]. apply nth_app_l, N.
  - rewrite N. rewrite CheckRoad_added by (apply not_far_check; [exact F|exact G'|intros u Iu; apply (A u Iu)]).
    assert (Ad : forall n, In n (added r2 src vis) -> node_ok n /\ nr_id (pn_from n) = nr_id r2 /\ pn_dist n == pn_dist src + Length r2).
    { intros n In_. subst pivot. apply (added_ok r2 cp src vis n S Ld In_). }
    apply IH.
    + apply nth_app_l, N.
    + exact E.
    + exact S.
    + intros u Iu. apply in_app_or in Iu. destruct Iu as [Iu|Iu]; [apply F, Iu|]. destruct (Ad u Iu) as (Ok & Ei & Ed). destruct Ok as (Gu & _). rewrite Ei, G' in Gu. injection Gu as Gu. rewrite <- Gu. lra.
    + intros u Iu. apply in_app_or in Iu. destruct Iu as [Iu|Iu]; [apply A, Iu|]. apply (Ad u Iu).
    + intros i Ii. apply H. right. exact Ii.
    + exact T.
    + destruct I as [I|I]; [congruence|exact I].
    + cbn [filter] in C. destruct (id =? nr_id tr)%N; cbn [List.length] in C; lia.
Qed.

(** ** One round *)

Lemma round_spec : forall vis unv src, nth_error unv (min_index unv 0 0 LARGE) = Some src -> node_ok src -> not_far src unv -> (forall u, In u unv -> node_ok u) ->
  (rl_type (pn_link src) = SUCCESSOR \/ rl_type (pn_link src) = PREDECESSOR) ->
  (exists unv' cp d, path_round net tr ts vis unv = Some (Go unv' d true) /\ d == pn_dist src + rest tr ts cp /\ leads net (pn_from src) (rl_type (pn_link src)) tr cp /\
     nth_error unv' (min_index unv 0 0 LARGE) = Some src) \/
  (exists add, path_round net tr ts vis unv = Some (Go (unv ++ add) (pn_dist src) false) /\ (forall cp, ~ leads net (pn_from src) (rl_type (pn_link src)) tr cp) /\
    (forall n, In n add -> exists r2 cp, leads net (pn_from src) (rl_type (pn_link src)) r2 cp /\ In n (added r2 src vis)) /\
    (forall r2 cp, leads net (pn_from src) (rl_type (pn_link src)) r2 cp -> forall n, In n (added r2 src vis) -> In n add)).
Proof.
  intros vis unv src N S F A T. pose proof S as (G & L & _). unfold path_round. rewrite N. destruct (rl_elem (pn_link src)) eqn:E.
  - right. exists []. rewrite app_nil_r. split; [reflexivity|].
    assert (No : forall r2 cp, ~ leads net (pn_from src) (rl_type (pn_link src)) r2 cp).
    { intros r2 cp H. apply leads_inv in H. destruct H as (l & L' & [(E' & _)|(E' & _)]); congruence. }
    split; [intros cp; apply No|]. split; [intros n []|]. intros r2 cp H. exfalso. apply (No _ _ H).
  - pose proof (cons _ _ _ _ G L) as K. rewrite E in K. destruct K as [K1 K2]. destruct (GetRoad net (rl_id (pn_link src))) as [nr|] eqn:R; [|congruence].
    assert (Ld : leads net (pn_from src) (rl_type (pn_link src)) nr (rl_contact (pn_link src))) by (apply leads_road; assumption).
    assert (Un : forall r2 cp, leads net (pn_from src) (rl_type (pn_link src)) r2 cp -> r2 = nr).
    { intros r2 cp H. apply leads_inv in H. destruct H as (l & L' & [(E' & R' & _)|(E' & _)]); congruence. }
    destruct (N.eqb_spec (nr_id nr) (nr_id tr)) as [Eq|Ne].
    + assert (nr = tr) by (apply GetRoad_own in R; rewrite Eq in R; congruence). subst nr.
      left. exists unv, (rl_contact (pn_link src)). eexists. split; [reflexivity|]. split; [|split; [exact Ld|exact N]].
      destruct K2 as [K2|K2]; rewrite K2; cbn; lra.
    + right. exists (added nr src vis). rewrite CheckRoad_added by (apply not_far_check; [exact F|apply (GetRoad_own _ _ _ R)|intros u Iu; apply (A u Iu)]).
      split; [reflexivity|]. split; [intros cp H; apply Un in H; congruence|]. split.
      * intros n In_. exists nr, (rl_contact (pn_link src)). auto.
      * intros r2 cp H n In_. rewrite <- (Un _ _ H). exact In_.
  - destruct (GetJunction net (rl_id (pn_link src))) as [jn|] eqn:J.
    + unfold GetNoConnectionsFromRoadId. rewrite count_from_spec. cbn [Nat.add]. fold (from_road jn (nr_id (pn_from src))).
      rewrite junction_loop_list by lia. cbn [skipn].
      set (Lc := map c_connecting (from_road jn (nr_id (pn_from src)))).
      assert (Hc : forall id, In id Lc -> exists r2 cp, GetRoad net id = Some r2 /\ leads net (pn_from src) (rl_type (pn_link src)) r2 cp).
      { intros id Ii. unfold Lc in Ii. apply in_map_iff in Ii. destruct Ii as (c & <- & Ic). apply filter_In in Ic. destruct Ic as [Ic Ec]. apply N.eqb_eq in Ec.
        pose proof (cons _ _ _ _ G L) as K. rewrite E in K. destruct (K jn c J Ic Ec) as (r2 & R2 & _). exists r2, (c_contact c). split; [exact R2|].
        eapply leads_junction; eauto. }
      assert (Hl : forall r2 cp, leads net (pn_from src) (rl_type (pn_link src)) r2 cp -> In (nr_id r2) Lc).
      { intros r2 cp H. apply leads_inv in H. destruct H as (l & L' & [(E' & _)|(E' & j & c & J' & I & N' & R & _)]); [congruence|].
        assert (l = pn_link src) by congruence. subst l. assert (j = jn) by congruence. subst j. rewrite (GetRoad_id _ _ _ R). unfold Lc. apply in_map. apply filter_In. split; [exact I|]. apply N.eqb_eq. exact N'. }
      destruct (in_dec N.eq_dec (nr_id tr) Lc) as [I|I].
      * left. destruct (jl_found Lc (pn_from src) (min_index unv 0 0 LARGE) vis src unv (pn_dist src) N eq_refl S F A Hc T I) as (unv' & cp & Jl & Ld & Nm).
        { unfold Lc. destruct sgl as [_ O]. specialize (O _ jn (nr_id (pn_from src)) J). generalize O. generalize (from_road jn (nr_id (pn_from src))). clear. intros l.
          replace (List.length (filter (fun id => (id =? nr_id tr)%N) (map c_connecting l))) with (List.length (filter (fun c => (c_connecting c =? nr_id tr)%N) l)); [tauto|].
          induction l as [|c l IH]; [reflexivity|]. cbn [map filter]. destruct (c_connecting c =? nr_id tr)%N; cbn [List.length]; congruence. }
        exists unv', cp. eexists. split; [exact Jl|]. split; [lra|]. auto.
      * right. destruct (jl_others Lc (pn_from src) (min_index unv 0 0 LARGE) vis src unv (pn_dist src) false N eq_refl S F A) as (add & Jl & J1 & J2).
        { intros id Ii. split; [intros ->; contradiction|]. apply Hc, Ii. }
        exists add. split; [exact Jl|]. split; [intros cp H; apply I, (Hl _ _ H)|]. split.
        -- intros n In_. destruct (J1 n In_) as (r2 & cp & H1 & _ & H2). exists r2, cp. auto.
        -- intros r2 cp H n In_. apply (J2 (nr_id r2) r2 (Hl _ _ H)); [apply (leads_exists _ _ _ _ _ H)|exact In_].
    + right. exists []. rewrite app_nil_r. split; [reflexivity|].
      assert (No : forall r2 cp, ~ leads net (pn_from src) (rl_type (pn_link src)) r2 cp).
      { intros r2 cp H. apply leads_inv in H. destruct H as (l & L' & [(E' & _)|(E' & j & c & J' & _)]); [congruence|]. assert (l = pn_link src) by congruence. subst l. congruence. }
      split; [intros cp; apply No|]. split; [intros n []|]. intros r2 cp H. exfalso. apply (No _ _ H).
Qed.

(** ** The main loop *)

Definition typed (n : pnode) : Prop := rl_type (pn_link n) = SUCCESSOR \/ rl_type (pn_link n) = PREDECESSOR.
Hypothesis ini_typed : forall n, In n ini -> typed n.

Record Inv (unv vis : list pnode) (tmp : Q) : Prop := {
  i_ok : forall n, In n unv \/ In n vis -> node_ok n;
  i_typed : forall n, In n unv -> typed n;
  i_pos : 0 <= tmp;
  i_vis : forall v, In v vis -> pn_dist v <= tmp;
  i_unv : forall u, In u unv -> tmp <= pn_dist u \/ LARGE <= pn_dist u;
  i_far : forall u, In u unv -> pn_dist u <= tmp + Length (pn_from u);
  i_target : forall v cp, In v vis -> ~ leads net (pn_from v) (rl_type (pn_link v)) tr cp;
  i_closed : forall v r2 cp, In v vis -> leads net (pn_from v) (rl_type (pn_link v)) r2 cp -> Road_GetLink r2 (exit_end cp) <> None ->
    Road_GetConnectingLaneId net (pn_from v) (pn_link v) (pn_lane v) (nr_id r2) <> 0%Z ->
    exists n, (In n unv \/ In n vis) /\ ptr n = (nr_id r2, exit_end cp) /\ pn_dist n <= pn_dist v + Length r2;
  i_ini : forall n, In n ini -> In n unv \/ In n vis }.

Lemma inv_start : Inv ini [] 0.
Proof.
  constructor.
  - intros n [I|[]]. apply ini_node_ok, I.
  - exact ini_typed.
  - lra.
  - intros v [].
  - intros u I. left. destruct (ini_ok u I) as (_ & _ & _ & D). lra.
  - intros u I. destruct (ini_ok u I) as (_ & _ & _ & D). lra.
  - intros v cp [].
  - intros v r2 cp [].
  - intros n I. left. exact I.
Qed.

Lemma inv_not_far : forall unv vis tmp src, Inv unv vis tmp -> tmp < LARGE -> In src unv -> not_far src unv.
Proof. intros unv vis tmp src H L I u Iu. pose proof (i_far _ _ _ H u Iu). destruct (i_unv _ _ _ H src I); lra. Qed.

Lemma inv_step : forall unv vis tmp src add, Inv unv vis tmp -> tmp < LARGE -> nth_error unv (min_index unv 0 0 LARGE) = Some src ->
  (forall w, In w unv -> pn_dist src <= pn_dist w \/ LARGE <= pn_dist w) ->
  (forall cp, ~ leads net (pn_from src) (rl_type (pn_link src)) tr cp) ->
  (forall n, In n add -> exists r2 cp, leads net (pn_from src) (rl_type (pn_link src)) r2 cp /\ In n (added r2 src vis)) ->
  (forall r2 cp, leads net (pn_from src) (rl_type (pn_link src)) r2 cp -> forall n, In n (added r2 src vis) -> In n add) ->
  Inv (erase (min_index unv 0 0 LARGE) unv ++ add) (src :: vis) (pn_dist src).
Proof.
  intros unv vis tmp src add H L N Mn T A1 A2. pose proof (nth_error_In _ _ N) as Is.
  pose proof (i_ok _ _ _ H src (or_introl Is)) as S. assert (Ls : tmp <= pn_dist src) by (destruct (i_unv _ _ _ H src Is); lra). pose proof (i_pos _ _ _ H) as Pos.
  assert (Ad : forall n, In n add -> node_ok n /\ typed n /\ pn_dist n == pn_dist src + Length (pn_from n) /\ 0 <= Length (pn_from n)).
  { intros n In_. destruct (A1 n In_) as (r2 & cp & Ld & Ia). destruct (added_ok _ _ _ _ _ S Ld Ia) as (Ok & Ei & Ed). split; [exact Ok|]. split.
    - unfold added in Ia. destruct (_ =? 0)%Z; [destruct Ia|]. destruct S as (G & Lk & _). rewrite (next_link_spec _ _ _ _ _ G Lk Ld) in Ia.
      destruct (Road_GetLink r2 (exit_end cp)) as [k|] eqn:Ek; [|destruct Ia]. cbn [option_map] in Ia. destruct (existsb _ vis); [destruct Ia|]. destruct Ia as [<-|[]].
      unfold typed. cbn [pn_link]. rewrite (Road_GetLink_type _ _ _ Ek). destruct cp; cbn; auto.
    - destruct Ok as (Gn & _). pose proof (leads_exists _ _ _ _ _ Ld) as G2. rewrite Ei, G2 in Gn. injection Gn as <-. split; [exact Ed|]. apply (len _ _ G2). }
  constructor.
  - intros n [I|[<-|I]]; [|exact S|apply (i_ok _ _ _ H); right; exact I]. apply in_app_or in I. destruct I as [I|I]; [apply (i_ok _ _ _ H); left; apply (in_erase _ _ _ I)|apply (Ad n I)].
  - intros n I. apply in_app_or in I. destruct I as [I|I]; [apply (i_typed _ _ _ H), (in_erase _ _ _ I)|apply (Ad n I)].
  - lra.
  - intros v [<-|I]; [lra|]. pose proof (i_vis _ _ _ H v I). lra.
  - intros u I. apply in_app_or in I. destruct I as [I|I]; [apply Mn, (in_erase _ _ _ I)|]. left. destruct (Ad u I) as (_ & _ & E & P). lra.
  - intros u I. apply in_app_or in I. destruct I as [I|I]; [pose proof (i_far _ _ _ H u (in_erase _ _ _ I)); lra|]. destruct (Ad u I) as (_ & _ & E & P). lra.
  - intros v cp [<-|I]; [apply T|apply (i_target _ _ _ H), I].
  - intros v r2 cp [<-|I] Ld Ex Z.
    + destruct (Road_GetLink r2 (exit_end cp)) as [k|] eqn:Ek; [|congruence]. pose proof S as (G & Lk & R & _).
      pose proof (Road_GetLink_type _ _ _ Ek) as Tk. pose proof (leads_exists _ _ _ _ _ Ld) as G2.
      pose proof (len _ _ G2) as P2.
      assert (Ae : added r2 src vis = if existsb (fun n => ptr_eqb (ptr n) (nr_id r2, rl_type k)) vis then [] else added r2 src vis).
      { unfold added. apply Z.eqb_neq in Z. rewrite Z. rewrite (next_link_spec _ _ _ _ _ G Lk Ld), Ek. cbn [option_map]. destruct (existsb _ vis); reflexivity. }
      destruct (existsb (fun n => ptr_eqb (ptr n) (nr_id r2, rl_type k)) vis) eqn:Xv.
      * apply existsb_exists in Xv. destruct Xv as (n & In_ & Pn). apply ptr_eqb_eq in Pn. exists n. split; [right; right; exact In_|]. split; [rewrite Pn, Tk; reflexivity|].
        pose proof (i_vis _ _ _ H n In_). lra.
      * assert (exists n, In n (added r2 src vis) /\ ptr n = (nr_id r2, exit_end cp) /\ pn_dist n == pn_dist src + Length r2) as (n & In_ & Pn & Dn).
        { unfold added. apply Z.eqb_neq in Z. rewrite Z. rewrite (next_link_spec _ _ _ _ _ G Lk Ld), Ek. cbn [option_map]. rewrite Xv. eexists. split; [left; reflexivity|]. unfold ptr. cbn [pn_from pn_link pn_dist]. rewrite Tk. split; [reflexivity|lra]. }
        exists n. split; [left; apply in_or_app; right; apply (A2 _ _ Ld), In_|]. split; [exact Pn|lra].
    + destruct (i_closed _ _ _ H v r2 cp I Ld Ex Z) as (n & [In_|In_] & Pn & Dn); exists n; (split; [|split; [exact Pn|exact Dn]]); [|right; right; exact In_].
      destruct (erase_in _ _ _ _ N In_) as [->|In2]; [right; left; reflexivity|left; apply in_or_app; left; exact In2].
  - intros n I. destruct (i_ini _ _ _ H n I) as [In_|In_]; [|right; right; exact In_].
    destruct (erase_in _ _ _ _ N In_) as [->|In2]; [right; left; reflexivity|left; apply in_or_app; left; exact In2].
Qed.

(** The last round, in which the target road is met. *)
Definition arrival (vis' : list pnode) (tmp' : Q) : Prop :=
  exists src vis unv tmp cp, vis' = src :: vis /\ Inv unv vis tmp /\ tmp < LARGE /\ In src unv /\
    (forall w, In w unv -> pn_dist src <= pn_dist w \/ LARGE <= pn_dist w) /\ leads net (pn_from src) (rl_type (pn_link src)) tr cp /\ tmp' == pn_dist src + rest tr ts cp.

Lemma loop_found : forall n unv vis tmp maxDist, exists unv' vis' tmp', search_loop net tr ts maxDist n unv vis tmp true = Some (Done unv' vis' tmp' true) /\ vis' = vis /\ tmp' = tmp.
Proof. intros [|n] unv vis tmp maxDist; cbn [search_loop negb andb]; do 3 eexists; (split; [reflexivity|]); auto. Qed.

Lemma loop_spec : forall maxDist, maxDist <= LARGE -> forall n unv vis tmp, Inv unv vis tmp ->
  exists unv' vis' tmp' found, search_loop net tr ts maxDist n unv vis tmp false = Some (Done unv' vis' tmp' found) /\
    if found then arrival vis' tmp' else Inv unv' vis' tmp' /\ (unv' = [] \/ maxDist <= tmp' \/ List.length vis' = (List.length vis + n)%nat).
Proof.
  intros maxDist Mx. induction n as [|n IH]; intros unv vis tmp H; cbn [search_loop].
  - do 4 eexists. split; [reflexivity|]. cbn. split; [exact H|]. right. right. lia.
  - cbn [negb andb]. destruct unv as [|u0 unv0].
    + cbn [negb andb]. do 4 eexists. split; [reflexivity|]. cbn. split; [exact H|]. left. reflexivity.
    + cbn [negb andb]. destruct (Qltb_spec tmp maxDist) as [L|L].
      2: { do 4 eexists. split; [reflexivity|]. cbn. split; [exact H|]. right. left. lra. }
      remember (u0 :: unv0) as unv eqn:Eu. assert (Ne : unv <> []) by (subst; discriminate). clear Eu u0 unv0.
      assert (Ll : tmp < LARGE) by lra.
      destruct (select unv Ne) as (src & N & Mn). pose proof (nth_error_In _ _ N) as Is.
      destruct (round_spec vis unv src N (i_ok _ _ _ H src (or_introl Is)) (inv_not_far _ _ _ _ H Ll Is) (fun u Iu => i_ok _ _ _ H u (or_introl Iu)) (i_typed _ _ _ H src Is))
        as [(unv' & cp & d & R & Ed & Ld & Nm)|(add & R & T & A1 & A2)]; rewrite R.
      * rewrite Nm. destruct (loop_found n (erase (min_index unv 0 0 LARGE) unv') (src :: vis) d maxDist) as (u' & v' & t' & E & -> & ->).
        do 4 eexists. split; [exact E|]. cbn. exists src, vis, unv, tmp, cp. split; [reflexivity|]. split; [exact H|]. split; [exact Ll|]. split; [exact Is|]. split; [exact Mn|]. split; [exact Ld|exact Ed].
      * rewrite (nth_app_l _ _ _ _ _ N). rewrite erase_app by (apply nth_error_Some; rewrite N; discriminate).
        destruct (IH _ _ _ (inv_step _ _ _ _ _ H Ll N Mn T A1 A2)) as (u' & v' & t' & f' & E & K). do 4 eexists. split; [exact E|].
        destruct f'; [exact K|]. destruct K as [K1 K2]. split; [exact K1|]. cbn [List.length] in K2. destruct K2 as [K2|[K2|K2]]; auto. right. right. lia.
Qed.

(** ** No shorter way *)

Lemma route_in : forall r t k d f, route net ini r t k d f -> GetRoad net (nr_id r) = Some r.
Proof. intros r t k d f R. destruct R as [n I|r t k d f l r2 cp k2 R Ld Lk Ek Z Ex]; [apply (ini_ok n I)|apply (leads_exists _ _ _ _ _ Ld)]. Qed.

Lemma covered : forall unv vis tmp, Inv unv vis tmp -> lane_open net ini -> forall r t k d f, route net ini r t k d f ->
  (exists v, In v vis /\ pn_from v = r /\ rl_type (pn_link v) = t /\ pn_dist v <= d) \/ (exists u, In u unv /\ pn_dist u <= d).
Proof.
  intros unv vis tmp H O r t k d f R. induction R as [n I|r t k d f l r2 cp k2 R IH Ld Lk Ek Z Ex].
  - destruct (i_ini _ _ _ H n I) as [In_|In_]; [right; exists n; split; [exact In_|lra]|]. left. exists n. split; [exact In_|]. split; [reflexivity|]. split; [reflexivity|lra].
  - pose proof (leads_exists _ _ _ _ _ Ld) as G2. pose proof (len _ _ G2) as P2. destruct IH as [(v & Iv & Er & Et & Dv)|(u & Iu & Du)].
    + subst r t. destruct (i_ok _ _ _ H v (or_intror Iv)) as (Gv & Lv & Rv & _). rewrite Lk in Lv. injection Lv as ->. rewrite Ek in Z.
      pose proof (O _ _ _ _ _ _ _ _ _ _ _ R Rv Ld Lk Z) as Z2. destruct (i_closed _ _ _ H v r2 cp Iv Ld Ex Z2) as (n & In_ & Pn & Dn).
      destruct In_ as [In_|In_]; [right; exists n; split; [exact In_|lra]|]. left. exists n. split; [exact In_|].
      unfold ptr in Pn. injection Pn as Pn1 Pn2. destruct (i_ok _ _ _ H n (or_intror In_)) as (Gn & _). rewrite Pn1, G2 in Gn. injection Gn as Gn.
      split; [congruence|]. split; [exact Pn2|lra].
    + right. exists u. split; [exact Iu|lra].
Qed.

Lemma arrival_shortest : forall vis' tmp', arrival vis' tmp' -> exists src vis cp, vis' = src :: vis /\
  route net ini (pn_from src) (rl_type (pn_link src)) (pn_lane src) (pn_dist src) (first_ptr src) /\
  leads net (pn_from src) (rl_type (pn_link src)) tr cp /\ tmp' == pn_dist src + rest tr ts cp /\
  (lane_open net ini -> forall r t k d f cp', route net ini r t k d f -> leads net r t tr cp' -> pn_dist src <= d \/ LARGE <= d).
Proof.
  intros vis' tmp' (src & vis & unv & tmp & cp & -> & H & Ll & Is & Mn & Ld & E). exists src, vis, cp. split; [reflexivity|].
  split; [apply (i_ok _ _ _ H src (or_introl Is))|]. split; [exact Ld|]. split; [exact E|].
  intros O r t k d f cp' R Ld'. destruct (covered _ _ _ H O _ _ _ _ _ R) as [(v & Iv & <- & <- & Dv)|(u & Iu & Du)].
  - exfalso. apply (i_target _ _ _ H v cp' Iv Ld').
  - destruct (Mn u Iu); [left|right]; lra.
Qed.

Lemma exhausted : forall unv vis tmp maxDist, maxDist <= LARGE -> Inv unv vis tmp -> unv = [] \/ maxDist <= tmp -> lane_open net ini ->
  forall r t k d f cp, route net ini r t k d f -> leads net r t tr cp -> maxDist <= d.
Proof.
  intros unv vis tmp maxDist Mx H E O r t k d f cp R Ld. destruct (covered _ _ _ H O _ _ _ _ _ R) as [(v & Iv & <- & <- & Dv)|(u & Iu & Du)].
  - exfalso. apply (i_target _ _ _ H v cp Iv Ld).
  - destruct E as [->|E]; [destruct Iu|]. destruct (i_unv _ _ _ H u Iu); lra.
Qed.

End Search.

(** ** The initial nodes *)

(** [departs r p t]: the direction [t] is searched from position [p] on road [r]. *)
Definition departs (p : ppos) (both : bool) (t : LinkType) : Prop :=
  match t with
  | SUCCESSOR => both = true \/ pp_h p < M_PI_2 \/ 3 * M_PI_2 < pp_h p
  | PREDECESSOR => both = true \/ (M_PI_2 <= pp_h p /\ pp_h p <= 3 * M_PI_2)
  | _ => False
  end.

Definition to_end (r : nroad) (s : Q) (t : LinkType) : Q := match t with PREDECESSOR => s | _ => Length r - s end.

Lemma faces_spec : forall h, faces_along h = true <-> h < M_PI_2 \/ 3 * M_PI_2 < h.
Proof. intros h. unfold faces_along. destruct (Qltb_spec h M_PI_2), (Qltb_spec (3 * M_PI_2) h); cbn; intuition lra. Qed.

Lemma start_node_spec : forall r s k t cp n, In n (fst (start_node r s k t cp)) <->
  exists l, Road_GetLink r t = Some l /\ n = PNode r l (if contact_eqb cp CP_START then s else Length r - s)
    (if contact_eqb cp CP_END then GetConnectedLaneIdAtS (nr_road r) k s (- (1)) else GetConnectedLaneIdAtS (nr_road r) k s 0) cp [].
Proof.
  intros r s k t cp n. unfold start_node. destruct (Road_GetLink r t) as [l|]; cbn [fst].
  - split; [intros [<-|[]]; exists l; auto|intros (l' & E & ->); injection E as <-; left; reflexivity].
  - split; [intros []|intros (l' & E & _); discriminate].
Qed.

Lemma start_nodes_spec : forall r p both n, In n (start_nodes r p both) ->
  pn_from n = r /\ Road_GetLink r (rl_type (pn_link n)) = Some (pn_link n) /\ departs p both (rl_type (pn_link n)) /\
  pn_dist n = to_end r (pp_s p) (rl_type (pn_link n)) /\ pn_prev n = [].
Proof.
  assert (A : forall r p both k t cp n, t = PREDECESSOR /\ cp = CP_START \/ t = SUCCESSOR /\ cp = CP_END -> departs p both t -> In n (fst (start_node r (pp_s p) k t cp)) ->
    pn_from n = r /\ Road_GetLink r (rl_type (pn_link n)) = Some (pn_link n) /\ departs p both (rl_type (pn_link n)) /\
    pn_dist n = to_end r (pp_s p) (rl_type (pn_link n)) /\ pn_prev n = []).
  { intros r p both k t cp n T D I. apply start_node_spec in I. destruct I as (l & L & ->). cbn [pn_from pn_link pn_dist pn_prev]. rewrite (Road_GetLink_type _ _ _ L).
    split; [reflexivity|]. split; [exact L|]. split; [exact D|]. split; [|reflexivity]. destruct T as [[-> ->]|[-> ->]]; reflexivity. }
  intros r p both n I. unfold start_nodes in I. destruct both.
  - destruct (start_node r (pp_s p) (pp_lane p) PREDECESSOR CP_START) as [a lane] eqn:Ea. destruct (start_node r (pp_s p) lane SUCCESSOR CP_END) as [b lane2] eqn:Eb.
    apply in_app_or in I. destruct I as [I|I].
    + apply (A r p true (pp_lane p) PREDECESSOR CP_START n); [auto|left; reflexivity|rewrite Ea; exact I].
    + apply (A r p true lane SUCCESSOR CP_END n); [auto|left; reflexivity|rewrite Eb; exact I].
  - destruct (faces_along (pp_h p)) eqn:F.
    + apply faces_spec in F. apply (A r p false (pp_lane p) SUCCESSOR CP_END n); [auto|right; exact F|exact I].
    + apply (A r p false (pp_lane p) PREDECESSOR CP_START n); [auto| |exact I]. right.
      assert (~ (pp_h p < M_PI_2 \/ 3 * M_PI_2 < pp_h p)) by (rewrite <- faces_spec, F; discriminate). split; apply Qnot_lt_le; tauto.
Qed.

Lemma start_nodes_all : forall r p both t, departs p both t -> Road_GetLink r t <> None -> exists n, In n (start_nodes r p both) /\ rl_type (pn_link n) = t.
Proof.
  assert (A : forall r s k t cp, Road_GetLink r t <> None -> exists n, In n (fst (start_node r s k t cp)) /\ rl_type (pn_link n) = t).
  { intros r s k t cp Ne. destruct (Road_GetLink r t) as [l|] eqn:L; [|congruence]. eexists. split; [apply start_node_spec; exists l; split; [exact L|reflexivity]|]. cbn. apply (Road_GetLink_type _ _ _ L). }
  intros r p both t D Ne. unfold start_nodes. destruct both.
  - destruct (start_node r (pp_s p) (pp_lane p) PREDECESSOR CP_START) as [a lane] eqn:Ea. destruct (start_node r (pp_s p) lane SUCCESSOR CP_END) as [b lane2] eqn:Eb.
    destruct t; try (destruct D; fail).
    + destruct (A r (pp_s p) lane SUCCESSOR CP_END Ne) as (n & I & T). rewrite Eb in I. exists n. split; [apply in_or_app; right; exact I|exact T].
    + destruct (A r (pp_s p) (pp_lane p) PREDECESSOR CP_START Ne) as (n & I & T). rewrite Ea in I. exists n. split; [apply in_or_app; left; exact I|exact T].
  - destruct t; try (destruct D; fail).
    + destruct D as [D|D]; [discriminate|]. apply faces_spec in D. rewrite D. apply A, Ne.
    + destruct D as [D|D]; [discriminate|]. destruct (faces_along (pp_h p)) eqn:F; [apply faces_spec in F; lra|]. apply A, Ne.
Qed.

(** ** The sign *)

(** [ahead h t]: with heading [h] relative to the road, the end [t] of the road is in front. *)
Definition ahead (h : Q) (t : LinkType) : Prop :=
  match t with PREDECESSOR => M_PI_2 < Qabs h /\ Qabs h < 3 * M_PI_2 | _ => Qabs h <= M_PI_2 \/ 3 * M_PI_2 <= Qabs h end.

Lemma direction_spec : forall r h t, Road_GetLink r t <> None -> t = SUCCESSOR \/ t = PREDECESSOR ->
  (ahead h t -> direction r h (nr_id r, t) = 1%Z) /\ (~ ahead h t -> direction r h (nr_id r, t) = (-1)%Z).
Proof.
  assert (E : forall r t t', Road_GetLink r t <> None -> match Road_GetLink r t' with Some _ => ptr_eqb (nr_id r, t) (nr_id r, t') | None => false end = LinkType_eqb t t').
  { intros r t t' Ne. destruct (LinkType_eqb t t') eqn:X.
    - apply LinkType_eqb_eq in X. subst t'. destruct (Road_GetLink r t); [|congruence]. unfold ptr_eqb. cbn [fst snd]. rewrite N.eqb_refl. destruct t; reflexivity.
    - destruct (Road_GetLink r t'); [|reflexivity]. unfold ptr_eqb. cbn [fst snd]. rewrite X. apply andb_false_r. }
  intros r h t Ne T. unfold direction. rewrite !E by exact Ne.
  destruct (Qltb_spec M_PI_2 (Qabs h)) as [A|A], (Qltb_spec (Qabs h) (3 * M_PI_2)) as [B|B], T as [-> | ->]; cbn [LinkType_eqb andb orb negb ahead];
    split; intro H; try reflexivity; exfalso; try (apply H); try lra; intuition lra.
Qed.

(** [with_lane p]: the heading is within a quarter turn of the driving direction. *)
Definition against_lane (p : ppos) : Prop := M_PI_2 < pp_hd p /\ pp_hd p < 3 * M_PI_2.

(** ** RoadPath::Calculate *)

Section Calc.
Variables (net : network) (start target : ppos) (both : bool) (maxDist dist : Q) (sr tr : nroad).
Hypothesis cons : consistent net.
Hypothesis len : forall id r, GetRoad net id = Some r -> 0 <= Length r.
Hypothesis sgl : single net tr.
Hypothesis S : GetRoad net (pp_track start) = Some sr.
Hypothesis T : GetRoad net (pp_track target) = Some tr.
Hypothesis on : 0 <= pp_s start <= Length sr.
Hypothesis Mx : maxDist <= LARGE.
Let ini := start_nodes sr start both.

Lemma calc_ini : forall n, In n ini -> GetRoad net (nr_id (pn_from n)) = Some (pn_from n) /\ Road_GetLink (pn_from n) (rl_type (pn_link n)) = Some (pn_link n) /\
  pn_prev n = [] /\ 0 <= pn_dist n <= Length (pn_from n).
Proof.
  intros n I. apply start_nodes_spec in I. destruct I as (-> & L & D & E & P). split; [apply (GetRoad_own _ _ _ S)|]. split; [exact L|]. split; [exact P|].
  rewrite E. unfold to_end. destruct (rl_type (pn_link n)); lra.
Qed.

Lemma calc_typed : forall n, In n ini -> typed n.
Proof. intros n I. apply start_nodes_spec in I. destruct I as (_ & _ & D & _). unfold typed. destruct (rl_type (pn_link n)); cbn in D; tauto. Qed.

Lemma route_first : forall r t k d f, route net ini r t k d f -> exists n, In n ini /\ f = ptr n.
Proof. intros r t k d f R. induction R as [n I|r t k d f l r2 cp k2 R IH Ld Lk Ek Z Ex]; [exists n; auto|exact IH]. Qed.

Lemma route_nonneg : forall r t k d f, route net ini r t k d f -> 0 <= d.
Proof.
  intros r t k d f R. induction R as [n I|r t k d f l r2 cp k2 R IH Ld Lk Ek Z Ex]; [apply (calc_ini n I)|].
  pose proof (len _ _ (leads_exists _ _ _ _ _ Ld)). lra.
Qed.

(** What the search reports. *)
Definition reported (D : Q) (n : pnode) : Prop :=
  exists t cp g, route net ini (pn_from n) (rl_type (pn_link n)) (pn_lane n) (pn_dist n) (nr_id sr, t) /\ departs start both t /\
    leads net (pn_from n) (rl_type (pn_link n)) tr cp /\ (g == 1 \/ g == - (1)) /\ (g == 1 <-> (ahead (pp_h start) t <-> ~ against_lane start)) /\
    D == g * (pn_dist n + rest tr (pp_s target) cp).

Lemma calc_spec : nr_id sr <> nr_id tr ->
  exists code D last, Calculate net start target both maxDist dist = Some (code, D, last) /\
  ((code = 0%Z /\ exists n, last = Some n /\ reported D n /\
    (lane_open net ini -> forall r t k d f cp, route net ini r t k d f -> leads net r t tr cp -> pn_dist n <= d \/ LARGE <= d)) \/
   (code = (-1)%Z /\ D == 0 /\
    ((lane_open net ini -> forall r t k d f cp, route net ini r t k d f -> leads net r t tr cp -> maxDist <= d) \/
     (exists unv vis tmp, search_loop net tr (pp_s target) maxDist 100 ini [] 0 false = Some (Done unv vis tmp false) /\ List.length vis = 100%nat)))).
Proof.
  intros Ne. unfold Calculate. rewrite S, T. fold ini. apply N.eqb_neq in Ne. rewrite Ne.
  assert (E0 : ini = [] \/ ini <> []) by (destruct ini; [left; reflexivity|right; discriminate]).
  destruct E0 as [E0|E0].
  - rewrite E0. do 3 eexists. split; [reflexivity|]. right. split; [reflexivity|]. split; [lra|]. left. intros _ r t k d f cp R.
    destruct (route_first r t k d f) as (n & I & _); [rewrite E0; exact R|]. rewrite E0 in I. destruct I.
  - destruct (loop_spec net ini tr (pp_s target) cons len (GetRoad_own _ _ _ T) sgl maxDist Mx 100 ini [] 0 (inv_start net ini tr calc_ini calc_typed)) as (unv & vis & tmp & found & E & K).
    assert (Em : forall A (x y : A), match ini with [] => x | _ :: _ => y end = y) by (intros A x y; destruct ini; [congruence|reflexivity]).
    rewrite Em, E. clear Em. destruct found.
    + apply arrival_shortest in K. 2: exact len. destruct K as (src & vis0 & cp & -> & R & Ld & Et & Opt). do 3 eexists. split; [reflexivity|]. left. split; [reflexivity|].
      exists src. split; [reflexivity|]. split; [|exact Opt].
      destruct (route_first _ _ _ _ _ R) as (n & I & En). pose proof (start_nodes_spec _ _ _ _ I) as (Fr & L & Dp & _). pose proof (calc_typed n I) as Ty. unfold typed in Ty.
      assert (Ep : first_ptr src = (nr_id sr, rl_type (pn_link n))) by (rewrite En; unfold ptr; rewrite Fr; reflexivity).
      rewrite Ep in *. unfold reported.
      destruct (direction_spec sr (pp_h start) (rl_type (pn_link n))) as [D1 D2]; [rewrite L; discriminate|exact Ty|].
      assert (Dec : ahead (pp_h start) (rl_type (pn_link n)) \/ ~ ahead (pp_h start) (rl_type (pn_link n))).
      { unfold ahead. destruct (Qlt_le_dec M_PI_2 (Qabs (pp_h start))), (Qlt_le_dec (Qabs (pp_h start)) (3 * M_PI_2)); destruct (rl_type (pn_link n)); intuition lra. }
      assert (Fl : (if Qltb M_PI_2 (pp_hd start) && Qltb (pp_hd start) (3 * M_PI_2) then true else false) = true <-> against_lane start).
      { unfold against_lane. destruct (Qltb_spec M_PI_2 (pp_hd start)), (Qltb_spec (pp_hd start) (3 * M_PI_2)); cbn; intuition (try discriminate; try lra). }
      exists (rl_type (pn_link n)), cp.
      destruct (Qltb M_PI_2 (pp_hd start) && Qltb (pp_hd start) (3 * M_PI_2)); destruct Dec as [Dc|Dc]; [rewrite (D1 Dc)|rewrite (D2 Dc)|rewrite (D1 Dc)|rewrite (D2 Dc)].
      * exists (- (1)). split; [exact R|]. split; [exact Dp|]. split; [exact Ld|]. split; [right; reflexivity|]. split; [split; [intros X; lra|intuition]|]. rewrite Et. change (inject_Z 1) with 1. lra.
      * exists 1. split; [exact R|]. split; [exact Dp|]. split; [exact Ld|]. split; [left; reflexivity|]. split; [split; [tauto|intros; lra]|]. rewrite Et. change (inject_Z (-1)) with (- (1)). lra.
      * exists 1. split; [exact R|]. split; [exact Dp|]. split; [exact Ld|]. split; [left; reflexivity|]. split; [assert (~ against_lane start) by (intros X; apply Fl in X; discriminate); split; [tauto|intros; lra]|]. rewrite Et. change (inject_Z 1) with 1. lra.
      * exists (- (1)). split; [exact R|]. split; [exact Dp|]. split; [exact Ld|]. split; [right; reflexivity|]. split; [assert (~ against_lane start) by (intros X; apply Fl in X; discriminate); split; [intros X; lra|tauto]|]. rewrite Et. change (inject_Z (-1)) with (- (1)). lra.
    + destruct K as [K1 K2]. do 3 eexists. split; [reflexivity|]. right. split; [reflexivity|].
      split. { change (inject_Z 0) with 0. destruct (Qltb M_PI_2 (pp_hd start) && Qltb (pp_hd start) (3 * M_PI_2)); lra. }
      destruct K2 as [K2|[K2|K2]]; [left|left|right].
      * eapply exhausted; eauto.
      * eapply exhausted; eauto.
      * exists unv, vis, tmp. split; [reflexivity|exact K2].
Qed.

End Calc.

(** ** Corollaries *)

Lemma calc_total : forall net start target both maxDist dist sr tr, consistent net -> (forall id r, GetRoad net id = Some r -> 0 <= Length r) -> single net tr ->
  GetRoad net (pp_track start) = Some sr -> GetRoad net (pp_track target) = Some tr -> 0 <= pp_s start <= Length sr -> maxDist <= LARGE ->
  exists code D last, Calculate net start target both maxDist dist = Some (code, D, last) /\ (code = 0%Z \/ code = (-1)%Z /\ D == 0).
Proof.
  intros net start target both maxDist dist sr tr cons len sgl S T on Mx. destruct (N.eq_dec (nr_id sr) (nr_id tr)) as [E|Ne].
  - unfold Calculate. rewrite S, T, E, N.eqb_refl. do 3 eexists. split; [reflexivity|]. left. reflexivity.
  - destruct (calc_spec net start target both maxDist dist sr tr cons len sgl S T on Mx Ne) as (code & D & last & E & K). exists code, D, last. split; [exact E|]. tauto.
Qed.

(** The distance to the entry of the target road is minimal and the rest of the way is at most the target road's length. *)
Lemma reported_bound : forall net start target both sr tr D n,
  (forall id r, GetRoad net id = Some r -> 0 <= Length r) -> GetRoad net (pp_track start) = Some sr -> 0 <= pp_s start <= Length sr -> 0 <= pp_s target <= Length tr ->
  reported net start target both sr tr D n -> Qabs D <= pn_dist n + Length tr.
Proof.
  intros net start target both sr tr D n len S on ot (t & cp & g & R & Dp & Ld & G & Gs & E). rewrite E, Qabs_Qmult.
  pose proof (route_nonneg net start both sr len S on _ _ _ _ _ R) as P.
  assert (Q1 : Qabs g == 1) by (destruct G as [G|G]; rewrite G; reflexivity). rewrite Q1.
  assert (0 <= rest tr (pp_s target) cp <= Length tr) by (unfold rest; destruct cp; lra).
  rewrite Qabs_pos by lra. lra.
Qed.

Lemma same_road_spec : forall p ts,
  (pp_h p < M_PI_2 \/ 3 * M_PI_2 < pp_h p -> same_road p ts == ts - pp_s p) /\
  (M_PI_2 < pp_h p /\ pp_h p < 3 * M_PI_2 -> same_road p ts == pp_s p - ts) /\ Qabs (same_road p ts) == Qabs (ts - pp_s p).
Proof.
  intros p ts.
  assert (A : same_road p ts == ts - pp_s p \/ same_road p ts == pp_s p - ts).
  { unfold same_road. destruct (pp_lane p <? 0)%Z; [destruct (_ && _)|destruct (faces_along _)]; cbv zeta; lra. }
  split; [|split].
  - intros H. unfold same_road. cbv zeta. destruct (pp_lane p <? 0)%Z.
    + destruct (Qltb_spec M_PI_2 (pp_h p)), (Qltb_spec (pp_h p) (3 * M_PI_2)); cbn [andb]; lra.
    + rewrite (proj2 (faces_spec _) H). lra.
  - intros H. unfold same_road. cbv zeta. destruct (pp_lane p <? 0)%Z.
    + destruct (Qltb_spec M_PI_2 (pp_h p)), (Qltb_spec (pp_h p) (3 * M_PI_2)); cbn [andb]; lra.
    + destruct (faces_along (pp_h p)) eqn:F; [apply faces_spec in F; lra|lra].
  - destruct A as [A|A]; rewrite A; [reflexivity|]. rewrite <- (Qabs_opp (ts - pp_s p)). apply Qabs_wd. lra.
Qed.

(** ** Checking given routes *)

(** The road entered when leaving [r] by its end [t] towards road [id] at its end [cp]. *)
Definition enters (net : network) (r : nroad) (t : LinkType) (id : N) (cp : contact) : option nroad :=
  match Road_GetLink r t with
  | None => None
  | Some l =>
      match rl_elem l with
      | ELEMENT_ROAD => if (rl_id l =? id)%N && contact_eqb (rl_contact l) cp then GetRoad net id else None
      | ELEMENT_JUNCTION =>
          match GetJunction net (rl_id l) with
          | None => None
          | Some j => match find (fun c => (c_incoming c =? nr_id r)%N && (c_connecting c =? id)%N && contact_eqb (c_contact c) cp) (j_conns j) with Some _ => GetRoad net id | None => None end
          end
      | ELEMENT_UNKNOWN => None
      end
  end.

Lemma enters_sound : forall net r t id cp r2, enters net r t id cp = Some r2 -> leads net r t r2 cp.
Proof.
  intros net r t id cp r2 H. unfold enters in H. destruct (Road_GetLink r t) as [l|] eqn:L; [|discriminate]. destruct (rl_elem l) eqn:E; [discriminate| |].
  - destruct ((rl_id l =? id)%N && contact_eqb (rl_contact l) cp) eqn:X; [|discriminate]. apply andb_true_iff in X. destruct X as [X1 X2]. apply N.eqb_eq in X1. apply contact_eqb_eq in X2.
    rewrite <- X2. apply leads_road; [exact L|exact E|rewrite X1; exact H].
  - destruct (GetJunction net (rl_id l)) as [j|] eqn:J; [|discriminate]. destruct (find _ (j_conns j)) as [c|] eqn:F; [|discriminate]. apply find_some in F. destruct F as [I X].
    apply andb_true_iff in X. destruct X as [X X3]. apply andb_true_iff in X. destruct X as [X1 X2]. apply N.eqb_eq in X1, X2. apply contact_eqb_eq in X3.
    rewrite <- X3. eapply leads_junction; eauto. rewrite X2. exact H.
Qed.

Fixpoint follow (net : network) (r : nroad) (t : LinkType) (k : Z) (d : Q) (path : list (N * contact)) : option (nroad * LinkType * Z * Q) :=
  match path with
  | [] => Some (r, t, k, d)
  | (id, cp) :: path =>
      match enters net r t id cp, Road_GetLink r t with
      | Some r2, Some l =>
          let k2 := Road_GetConnectingLaneId net r l k (nr_id r2) in
          if (k2 =? 0)%Z then None
          else match Road_GetLink r2 (exit_end cp) with
               | None => None
               | Some _ => follow net r2 (exit_end cp) (lane_across r2 cp k2) (d + Length r2) path
               end
      | _, _ => None
      end
  end.

Lemma follow_sound : forall net ini path r t k d f x, route net ini r t k d f -> follow net r t k d path = Some x ->
  match x with (r', t', k', d') => route net ini r' t' k' d' f end.
Proof.
  induction path as [|[id cp] path IH]; intros r t k d f x R H; cbn [follow] in H; [injection H as <-; exact R|].
  destruct (enters net r t id cp) as [r2|] eqn:En; [|discriminate]. apply enters_sound in En. destruct (Road_GetLink r t) as [l|] eqn:L; [|discriminate].
  cbv zeta in H. destruct (Z.eqb_spec (Road_GetConnectingLaneId net r l k (nr_id r2)) 0) as [Z|Z]; [discriminate|]. destruct (Road_GetLink r2 (exit_end cp)) eqn:X; [|discriminate].
  eapply IH; [|exact H]. eapply route_step; eauto. rewrite X. discriminate.
Qed.

(** [arrives net ini i path id cp d]: from the initial node [i] along [path] one enters the road [id] at [cp] after the distance [d]. *)
Definition arrives (net : network) (ini : list pnode) (i : nat) (path : list (N * contact)) (id : N) (cp : contact) : option Q :=
  match nth_error ini i with
  | None => None
  | Some n =>
      match follow net (pn_from n) (rl_type (pn_link n)) (pn_lane n) (pn_dist n) path with
      | None => None
      | Some (r, t, _, d) => match enters net r t id cp with Some _ => Some d | None => None end
      end
  end.

Lemma arrives_sound : forall net ini i path id cp d tr, GetRoad net id = Some tr -> arrives net ini i path id cp = Some d ->
  exists r t k f, route net ini r t k d f /\ leads net r t tr cp.
Proof.
  intros net ini i path id cp d tr G H. unfold arrives in H. destruct (nth_error ini i) as [n|] eqn:N; [|discriminate]. apply nth_error_In in N.
  destruct (follow net (pn_from n) (rl_type (pn_link n)) (pn_lane n) (pn_dist n) path) as [[[[r t] k] d']|] eqn:F; [|discriminate].
  destruct (enters net r t id cp) as [r2|] eqn:En; [|discriminate]. injection H as <-.
  pose proof (follow_sound _ _ _ _ _ _ _ _ _ (route_start net ini n N) F) as R. cbv beta iota in R. pose proof (enters_sound _ _ _ _ _ _ En) as Ld.
  assert (r2 = tr). { unfold enters in En. destruct (Road_GetLink r t) as [l|]; [|discriminate]. destruct (rl_elem l); [discriminate| |].
    - destruct (_ && _); [|discriminate]. congruence.
    - destruct (GetJunction _ _) as [j|]; [|discriminate]. destruct (find _ _); [|discriminate]. congruence. }
  subst r2. do 4 eexists. split; [exact R|exact Ld].
Qed.
